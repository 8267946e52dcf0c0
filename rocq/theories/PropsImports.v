(** C64: which modules can be imported, in any order, and what their names then stand for. *)
From Coq Require Import String List Bool Arith Lia.
From Verif Require Import Imports.
Import ListNotations.
Local Open Scope string_scope.
Local Open Scope list_scope.

(** ** Specification *)

(** What a name of a module stands for, read off the sources alone: the object of the statement that defines it, reached
    through the imports between the files. *)
Inductive denotes (files : list file) : modname -> string -> value -> Prop :=
| D_bind : forall f n, In f files -> In (SBind n) (f_body f) -> denotes files (f_name f) n (VObject (f_name f) n)
| D_import : forall f m x n, In f files -> In (SImport m (Some n)) (f_body f) -> x = VModule m -> denotes files (f_name f) n x
| D_import_top : forall f top m, In f files -> In (SImport (top :: m) None) (f_body f) -> denotes files (f_name f) top (VModule [top])
| D_external : forall f m names n, In f files -> In (SFrom m names) (f_body f) -> In n names ->
    (forall g, In g files -> firstn 1 (f_name g) <> firstn 1 m) -> denotes files (f_name f) n (VExternal m n)
| D_from : forall f m names n v, In f files -> In (SFrom m names) (f_body f) -> In n names ->
    denotes files m n v -> denotes files (f_name f) n v.

(** The states of an interpreter: any imports, of anything, those that fail included. *)
Inductive reached (files : list file) (depth : nat) : state -> Prop :=
| R_start : reached files depth []
| R_import : forall st m, reached files depth st -> reached files depth (snd (import files depth m st)).

(** ** Proofs *)

Lemma mod_eqb_eq : forall a b, mod_eqb a b = true <-> a = b.
Proof.
  induction a as [|x a IH]; intros [|y b]; cbn; split; try easy. 
  - intros H. apply andb_true_iff in H as [E H]. apply String.eqb_eq in E as ->. apply IH in H as ->. reflexivity.
  - intros H. injection H as -> ->. rewrite String.eqb_refl. now apply IH.
Qed.

Lemma mod_eqb_refl : forall a, mod_eqb a a = true.
Proof. intros a. now apply mod_eqb_eq. Qed.

Lemma mod_dec : forall a b : modname, {a = b} + {a <> b}.
Proof. intros a b. destruct (mod_eqb a b) eqn:E; [left; now apply mod_eqb_eq|right; intros ->; rewrite mod_eqb_refl in E; discriminate]. Qed.

Lemma mod_neqb : forall a b, a <> b -> mod_eqb a b = false.
Proof. intros a b N. destruct (mod_eqb a b) eqn:E; [|reflexivity]. apply mod_eqb_eq in E. contradiction. Qed.

Lemma loaded_get : forall st m, loaded st m = true <-> exists ns, get st m = Some ns.
Proof. intros st m. unfold loaded. destruct (get st m) as [ns|]; split; try easy; [now exists ns|intros (ns & E); discriminate]. Qed.

Lemma get_bind_other : forall st m n v m', m <> m' -> get (bind_name st m n v) m' = get st m'.
Proof. intros st m n v m' N. unfold bind_name. destruct (get st m) as [ns|]; [|reflexivity]. cbn. rewrite mod_neqb by congruence. reflexivity. Qed.

Lemma get_bind_self : forall st m n v ns, get st m = Some ns -> get (bind_name st m n v) m = Some ((n, v) :: ns).
Proof. intros st m n v ns E. unfold bind_name. rewrite E. cbn. now rewrite mod_eqb_refl. Qed.

Lemma loaded_bind : forall st m n v m', loaded (bind_name st m n v) m' = loaded st m'.
Proof.
  intros st m n v m'. unfold loaded. destruct (mod_dec m m') as [<-|N]; [|now rewrite get_bind_other].
  destruct (get st m) as [ns|] eqn:E; [now rewrite (get_bind_self _ _ _ _ _ E)|]. unfold bind_name. rewrite E. now rewrite E.
Qed.

Lemma get_forget : forall st m m', m <> m' -> get (forget m st) m' = get st m'.
Proof.
  intros st m m' N. induction st as [|(k, ns) st IH]; [reflexivity|]. cbn. destruct (mod_eqb m k) eqn:E; cbn.
  - apply mod_eqb_eq in E as <-. rewrite mod_neqb by congruence. exact IH.
  - destruct (mod_eqb m' k); [reflexivity|exact IH].
Qed.

Lemma get_forget_self : forall st m, get (forget m st) m = None.
Proof. intros st m. induction st as [|(k, ns) st IH]; [reflexivity|]. cbn. destruct (mod_eqb m k) eqn:E; cbn; [exact IH|]. now rewrite E. Qed.

Lemma lookup_cons : forall ns n v n', lookup ((n, v) :: ns) n' = if String.eqb n' n then Some v else lookup ns n'.
Proof. reflexivity. Qed.

Definition names_of (s : stmt) : list string :=
  match s with
  | SImport _ (Some n) => [n]
  | SImport m None => [hd "" m]
  | SFrom _ names => names
  | SUse _ => []
  | SBind n => [n]
  end.
Definition bound (body : list stmt) : list string := flat_map names_of body.
Definition target (s : stmt) : option modname := match s with SImport m _ | SFrom m _ => Some m | _ => None end.

Lemma bound_app : forall a b, bound (a ++ b) = bound a ++ bound b.
Proof. intros a b. apply flat_map_app. Qed.

Lemma prefixes_self : forall m, m <> [] -> In m (prefixes m).
Proof.
  induction m as [|x m IH]; intros N; [contradiction|]. cbn. destruct m as [|y m]; [now left|]. right. apply in_map. apply IH. discriminate.
Qed.

Lemma prefixes_nonempty : forall m p, In p (prefixes m) -> p <> [].
Proof. intros [|x m] p H; [contradiction|]. destruct H as [<-|H]; [discriminate|]. apply in_map_iff in H as (q & <- & _). discriminate. Qed.

Lemma prefixes_split : forall m l1 p l2, prefixes m = l1 ++ p :: l2 -> forall q, In q (prefixes p) -> q = p \/ In q l1.
Proof.
  induction m as [|x m IH]; intros l1 p l2 E q I; [destruct l1; discriminate|]. cbn in E. destruct l1 as [|a l1].
  - injection E as <- _. destruct I as [<-|[]]. now left.
  - injection E as <- E. cbn. assert (X : exists l1' p' l2', l1 = map (cons x) l1' /\ p = x :: p' /\ prefixes m = l1' ++ p' :: l2').
    { clear - E. revert l1 E. generalize (prefixes m). induction l as [|b l IH]; intros [|c l1] E; try discriminate.
      - injection E as <- _. now exists [], b, l.
      - injection E as <- E. apply IH in E as (l1' & p' & l2' & -> & -> & ->). now exists (b :: l1'), p', l2'. }
    destruct X as (l1' & p' & l2' & -> & -> & E'). destruct I as [<-|I]; [right; now left|]. apply in_map_iff in I as (q' & <- & I).
    destruct (IH _ _ _ E' _ I) as [-> |I']; [now left|]. right. right. now apply in_map.
Qed.

Lemma parent_prefix : forall m, parent m <> [] -> In (parent m) (prefixes m).
Proof.
  unfold parent. induction m as [|x m IH]; intros N; [contradiction|]. destruct m as [|y m]; [contradiction|]. cbn [removelast] in *. cbn [prefixes].
  destruct m as [|z m]; [now left|]. right. apply in_map. apply IH. discriminate.
Qed.

Lemma parent_neq : forall m, m <> [] -> parent m <> m.
Proof. intros m N E. apply (f_equal (@length _)) in E. unfold parent in E. destruct (exists_last N) as (l & x & ->). rewrite removelast_last, app_length in E. cbn in E. lia. Qed.

Lemma NoDup_front : forall (A : Type) (a b : list A), NoDup (a ++ b) -> NoDup a.
Proof.
  intros A a b. induction a as [|x a IH]; intros N; [constructor|]. inversion N as [|y l NI N']; subst. constructor; [|now apply IH]. intros I. apply NI. apply in_or_app. now left.
Qed.

Section General.
Variables goods broken : list file.
Let files := goods ++ broken.

Definition good (m : modname) : Prop := exists f, In f goods /\ f_name f = m.

Fixpoint index (l : list file) (m : modname) : nat :=
  match l with [] => 0 | f :: l => if mod_eqb m (f_name f) then 0 else S (index l m) end.
Definition rank (m : modname) : nat := index goods m.
Definition body (m : modname) : list stmt := match find_file files m with Some f => f_body f | None => [] end.

Hypothesis distinct : NoDup (map f_name files).
Hypothesis roots : forall f, In f files -> f_name f <> [].
Hypothesis packages : forall f p, In f goods -> In p (prefixes (f_name f)) -> good p.
Hypothesis flags : forall f, In f files -> parent (f_name f) = [] \/ is_package files (parent (f_name f)) = true.
Hypothesis imports : forall f s t, In f goods -> In s (f_body f) -> target s = Some t -> external files t = false ->
  good t /\ rank t < rank (f_name f) /\ forall p, In p (prefixes t) -> rank p < rank (f_name f) \/ In p (prefixes (f_name f)).
Hypothesis taken : forall f t names n, In f goods -> In (SFrom t names) (f_body f) -> external files t = false -> In n names -> In n (bound (body t)).
Hypothesis used : forall f pre names post n, In f goods -> f_body f = pre ++ SUse names :: post -> In n names -> In n (bound pre).
Hypothesis once : forall f, In f goods -> NoDup (bound (f_body f)).
Hypothesis plain_import : forall f t, In f goods -> In (SImport t None) (f_body f) -> t <> [].
Hypothesis children : forall f g s, In f goods -> In g files -> parent (f_name g) = f_name f -> In s (f_body f) -> In (last (f_name g) "") (names_of s) ->
  target s = Some (f_name g).

Lemma find_in_sound : forall l m f, find_in l m = Some f -> In f l /\ f_name f = m.
Proof.
  induction l as [|g l IH]; intros m f E; [discriminate|]. cbn in E. destruct (mod_eqb m (f_name g)) eqn:M.
  - injection E as ->. apply mod_eqb_eq in M as ->. split; [now left|reflexivity].
  - apply IH in E as [I E]. split; [now right|exact E].
Qed.

Lemma find_in_complete : forall l f, NoDup (map f_name l) -> In f l -> find_in l (f_name f) = Some f.
Proof.
  induction l as [|g l IH]; intros f N I; [contradiction|]. destruct I as [<-|I]; cbn; [now rewrite mod_eqb_refl|]. inversion N as [|a b NI N']; subst.
  rewrite mod_neqb; [now apply IH|]. intros E. apply NI. rewrite <- E. now apply in_map.
Qed.

Lemma body_of : forall f, In f files -> body (f_name f) = f_body f.
Proof. intros f I. unfold body, find_file. now rewrite (find_in_complete _ _ distinct I). Qed.

Lemma goods_files : forall f, In f goods -> In f files.
Proof. intros f I. apply in_or_app. now left. Qed.

Lemma find_spec_file : forall m, find_spec files m = find_file files m.
Proof.
  intros m. unfold find_spec. destruct (parent m) as [|x p] eqn:P; [reflexivity|]. destruct (find_file files m) as [f|] eqn:F; [|now destruct (is_package files (x :: p))].
  destruct (find_in_sound _ _ _ F) as (I & <-). destruct (flags f I) as [Q|Q]; [congruence|]. rewrite P in Q. now rewrite Q.
Qed.

Lemma good_file : forall m, good m -> exists f, In f goods /\ f_name f = m /\ find_file files m = Some f /\ body m = f_body f.
Proof. intros m (f & I & <-). exists f. split; [exact I|]. split; [reflexivity|]. split; [apply find_in_complete; [exact distinct|now apply goods_files]|]. apply body_of. now apply goods_files. Qed.

Lemma external_spec : forall t, t <> [] -> external files t = true -> forall g, In g files -> firstn 1 (f_name g) <> firstn 1 t.
Proof.
  intros [|x t] N E g I Q; [contradiction|]. cbn in E. apply negb_true_iff in E.
  assert (X : existsb (fun f => match f_name f with x0 :: _ => String.eqb x x0 | [] => false end) files = true).
  { apply existsb_exists. exists g. split; [exact I|]. destruct (f_name g) as [|y g']; [discriminate|]. injection Q as ->. apply String.eqb_refl. }
  congruence.
Qed.

Lemma external_spec' : forall t, (forall g, In g files -> firstn 1 (f_name g) <> firstn 1 t) -> external files t = true.
Proof.
  intros [|x t] H; [reflexivity|]. cbn. apply negb_true_iff. destruct (existsb _ files) eqn:E; [|reflexivity]. exfalso.
  apply existsb_exists in E as (g & I & E). apply (H g I). destruct (f_name g) as [|y g']; [discriminate|]. apply String.eqb_eq in E as ->. reflexivity.
Qed.

Lemma internal : forall f p, In f files -> In p (prefixes (f_name f)) -> external files p = false.
Proof.
  intros f p I P. assert (firstn 1 p = firstn 1 (f_name f) /\ p <> []) as [Q N].
  { split; [|now apply prefixes_nonempty in P]. destruct (f_name f) as [|x m]; [contradiction|]. destruct P as [<-|P]; [reflexivity|].
    apply in_map_iff in P as (q & <- & _). reflexivity. }
  destruct (external files p) eqn:E; [|reflexivity]. exfalso. apply (external_spec p N E f I). congruence.
Qed.

Lemma internal_good : forall m, good m -> external files m = false.
Proof. intros m (f & I & <-). apply (internal f); [now apply goods_files|]. apply prefixes_self. now apply roots, goods_files. Qed.

(** *** How far a module is *)

Definition inner_targets (pre : list stmt) : list modname :=
  flat_map (fun s => match target s with Some t => if external files t then [] else [t] | None => [] end) pre.

Definition PartN (st : state) (m : modname) (names : list string) (targets : list modname) : Prop :=
  exists ns, get st m = Some ns /\
  (forall n, In n names -> exists v, lookup ns n = Some v /\ denotes files m n v) /\
  (forall n v, lookup ns n = Some v -> denotes files m n v /\ In n (bound (body m)) \/ exists g, In g files /\ parent (f_name g) = m /\ last (f_name g) "" = n /\ v = VModule (f_name g)) /\
  (forall t, In t targets -> loaded st t = true) /\
  (forall p, In p (prefixes m) -> loaded st p = true).

Definition Part (st : state) (m : modname) (pre : list stmt) : Prop := incl pre (body m) /\ PartN st m (bound pre) (inner_targets pre).

Definition Inv (k : nat) (st : state) : Prop :=
  forall m, good m -> loaded st m = true -> Part st m [] /\ (rank m < k -> Part st m (body m)).

Definition Step (x : modname) (st st' : state) : Prop :=
  (forall m pre, good m -> m <> x -> Part st m pre -> Part st' m pre) /\
  (forall m, good m -> loaded st' m = true -> loaded st m = true \/ Part st' m (body m)) /\
  (forall m, ~ good m -> m <> x -> get st' m = get st m).

Lemma Part_loaded : forall st m pre, Part st m pre -> loaded st m = true.
Proof. intros st m pre (_ & ns & E & _). apply loaded_get. now exists ns. Qed.

Lemma Part_nil : forall st m pre, Part st m pre -> Part st m [].
Proof.
  intros st m pre (_ & ns & E & _ & B & _ & D). split; [intros a []|]. exists ns. split; [exact E|]. split; [intros n []|]. split; [exact B|]. split; [intros t []|exact D].
Qed.

Lemma Part_complete_other : forall st m n v m' pre, m <> m' -> Part st m' pre -> Part (bind_name st m n v) m' pre.
Proof.
  intros st m n v m' pre N (I & ns & E & A & B & C & D). split; [exact I|]. exists ns. split; [now rewrite get_bind_other|]. split; [exact A|]. split; [exact B|].
  split; intros; rewrite loaded_bind; auto.
Qed.

Lemma Step_refl : forall x st, Step x st st.
Proof. intros x st. split; [auto|]. split; [auto|]. auto. Qed.

Lemma Step_trans : forall x a b c, good x \/ (forall m, good m -> m <> x) -> (good x -> loaded a x = true) -> Step x a b -> Step x b c -> Step x a c.
Proof.
  intros x a b c G L (E1 & N1 & K1) (E2 & N2 & K2). split; [auto|]. split.
  - intros m GM Lc. destruct (mod_dec m x) as [-> |NX]; [left; now apply L|].
    destruct (N2 m GM Lc) as [Lb|P]; [|now right]. destruct (N1 m GM Lb) as [La|P]; [now left|]. right. now apply E2.
  - intros m GM NX. rewrite K2, K1; auto.
Qed.

Lemma Inv_step : forall k x st st', Inv k st -> Step x st st' -> (good x -> k <= rank x /\ Part st' x []) -> Inv k st'.
Proof.
  intros k x st st' I (E & N & _) X m GM L. destruct (mod_dec m x) as [-> |NX].
  - destruct (X GM) as (K & P). split; [exact P|]. lia.
  - destruct (N m GM L) as [L0|P].
    + destruct (I m GM L0) as (P & C). split; [now apply E|]. intros R. apply E; [exact GM|exact NX|now apply C].
    + split; [now apply Part_nil in P|auto].
Qed.

(** Binding a name in the module itself. *)
Lemma PartN_bind : forall st m names ts n v, PartN st m names ts -> In n (bound (body m)) -> denotes files m n v -> ~ In n names ->
  PartN (bind_name st m n v) m (names ++ [n]) ts.
Proof.
  intros st m names ts n v (ns & E & A & B & C & D) I DN NI. exists ((n, v) :: ns). split; [now apply get_bind_self|]. split; [|split; [|split]].
  - intros n' H. rewrite lookup_cons. destruct (String.eqb n' n) eqn:Q.
    + apply String.eqb_eq in Q as ->. now exists v.
    + apply in_app_or in H as [H|[<-|[]]]; [now apply A|]. rewrite String.eqb_refl in Q. discriminate.
  - intros n' v' H. rewrite lookup_cons in H. destruct (String.eqb n' n) eqn:Q; [|now apply B]. apply String.eqb_eq in Q as ->. injection H as <-. now left.
  - intros t H. rewrite loaded_bind. auto.
  - intros p H. rewrite loaded_bind. auto.
Qed.

Lemma PartN_has : forall st m names ts n, PartN st m names ts -> In n names -> exists v, attribute st m n = Some v /\ denotes files m n v.
Proof. intros st m names ts n (ns & E & A & _) I. unfold attribute. rewrite E. now apply A. Qed.

Lemma has_of : forall st m n v, attribute st m n = Some v -> has st m n = true.
Proof. intros st m n v E. unfold has. now rewrite E. Qed.

(** Steps of a module in progress change nothing else. *)
Lemma Step_bind : forall x st n v, Step x st (bind_name st x n v).
Proof.
  intros x st n v. split; [|split].
  - intros m pre _ N P. apply Part_complete_other; [congruence|exact P].
  - intros m _ L. rewrite loaded_bind in L. now left.
  - intros m _ N. apply get_bind_other. congruence.
Qed.

Definition unmoved (x : modname) (st st' : state) : Prop := forall m, m <> x -> get st' m = get st m.

Lemma Step_any : forall x y st st', Step x st st' -> ~ In x [y] -> (forall m pre, good m -> m = x -> Part st m pre -> Part st' m pre) -> (~ good x -> get st' x = get st x) -> Step y st st'.
Proof.
  intros x y st st' (E & N & K) _ X Y. split; [|split].
  - intros m pre GM NY P. destruct (mod_dec m x) as [-> |NX]; [now apply X|now apply E].
  - exact N.
  - intros m GM _. destruct (mod_dec m x) as [-> |NX]; [now apply Y|now apply K].
Qed.

(** *** The statements of a module *)

Section Depth.
Variable imp : modname -> state -> outcome.

(** What the import of a module does, seen from a module of rank [k]. *)
Definition imports_well (k : nat) : Prop :=
  (forall t st, external files t = true -> imp t st = (None, st)) /\
  (forall t st, Inv k st -> good t -> rank t < k -> (forall p, In p (prefixes t) -> loaded st p = true \/ rank p < k) ->
     exists st', imp t st = (None, st') /\ (forall x, Step x st st') /\ (forall m pre, good m -> Part st m pre -> Part st' m pre) /\
       (forall m, ~ good m -> get st' m = get st m) /\ loaded st' t = true).

Lemma take_external_ok : forall x t names st nms ts, (forall n, In n names -> In n (bound (body x)) /\ denotes files x n (VExternal t n)) ->
  NoDup (nms ++ names) -> PartN st x nms ts ->
  PartN (take_external x t names st) x (nms ++ names) ts /\ unmoved x st (take_external x t names st).
Proof.
  intros x t names. induction names as [|n names IH]; intros st nms ts H N P; [cbn; rewrite app_nil_r; split; [exact P|intros m _; reflexivity]|].
  cbn [take_external fold_left]. unfold take_external in IH.
  destruct (H n (or_introl eq_refl)) as (B & D).
  assert (NI : ~ In n nms). { apply NoDup_remove_2 in N. intros I. apply N. apply in_or_app. now left. }
  assert (E : nms ++ n :: names = (nms ++ [n]) ++ names) by now rewrite <- app_assoc. rewrite E in *.
  destruct (IH (bind_name st x n (VExternal t n)) (nms ++ [n]) ts) as (P' & U).
  - intros n' I. apply H. now right.
  - exact N.
  - now apply PartN_bind.
  - split; [exact P'|]. intros m NM. rewrite U by exact NM. apply get_bind_other. congruence.
Qed.

Lemma take_names_ok : forall x t names st nms ts, x <> t -> (forall n, In n names -> In n (bound (body x)) /\ exists v, attribute st t n = Some v /\ denotes files x n v) ->
  NoDup (nms ++ names) -> PartN st x nms ts ->
  exists st', take_names x t names st = (None, st') /\ PartN st' x (nms ++ names) ts /\ unmoved x st st'.
Proof.
  intros x t names. induction names as [|n names IH]; intros st nms ts NX H N P; [exists st; cbn; rewrite app_nil_r; split; [reflexivity|]; split; [exact P|intros m _; reflexivity]|].
  cbn [take_names]. destruct (H n (or_introl eq_refl)) as (B & v & V & D). rewrite V.
  assert (NI : ~ In n nms). { apply NoDup_remove_2 in N. intros I. apply N. apply in_or_app. now left. }
  assert (E : nms ++ n :: names = (nms ++ [n]) ++ names) by now rewrite <- app_assoc. rewrite E in *.
  destruct (IH (bind_name st x n v) (nms ++ [n]) ts NX) as (st' & T & P' & U).
  - intros n' I. destruct (H n' (or_intror I)) as (B' & v' & V' & D'). split; [exact B'|]. exists v'. split; [|exact D'].
    unfold attribute. rewrite get_bind_other by exact NX. exact V'.
  - exact N.
  - now apply PartN_bind.
  - exists st'. split; [exact T|]. split; [exact P'|]. intros m NM. rewrite U by exact NM. apply get_bind_other. congruence.
Qed.

Lemma from_list_ok : forall t names st, (forall n, In n names -> has st t n = true \/ find_file files (t ++ [n]) = None) -> from_list files imp t names st = (None, st).
Proof.
  intros t names. induction names as [|n names IH]; intros st H; [reflexivity|]. cbn [from_list].
  destruct (H n (or_introl eq_refl)) as [-> | ->]; [cbn [orb]|rewrite orb_true_r]; apply IH; intros n' I; apply H; now right.
Qed.

Lemma unmoved_Step : forall x st st', unmoved x st st' -> loaded st' x = loaded st x -> Step x st st'.
Proof.
  intros x st st' U LX. assert (L : forall m, loaded st' m = loaded st m).
  { intros m. destruct (mod_dec m x) as [-> |N]; [exact LX|]. unfold loaded. now rewrite U. }
  split; [|split].
  - intros m pre _ N (I & ns & E & A & B & C & D). split; [exact I|]. exists ns. split; [now rewrite U|]. split; [exact A|]. split; [exact B|]. split; intros; rewrite L; auto.
  - intros m _ Q. rewrite L in Q. now left.
  - intros m _ N. now apply U.
Qed.

Lemma PartN_targets : forall st m names ts ts', PartN st m names ts -> (forall t, In t ts' -> loaded st t = true) -> PartN st m names (ts ++ ts').
Proof.
  intros st m names ts ts' (ns & E & A & B & C & D) H. exists ns. split; [exact E|]. split; [exact A|]. split; [exact B|]. split; [|exact D].
  intros t I. apply in_app_or in I as [I|I]; auto.
Qed.

Lemma step_ok : forall f pre s post st, In f goods -> f_body f = pre ++ s :: post -> imports_well (rank (f_name f)) -> Inv (rank (f_name f)) st -> Part st (f_name f) pre ->
  exists st', step files imp (f_name f) s st = (None, st') /\ Part st' (f_name f) (pre ++ [s]) /\ Step (f_name f) st st'.
Proof.
  intros f pre s post st FG FB (IE & II) IV P. set (x := f_name f) in *.
  assert (XG : good x) by (exists f; auto). assert (FF := goods_files _ FG). assert (BX : body x = f_body f) by now apply body_of.
  assert (SI : In s (f_body f)) by (rewrite FB; apply in_or_app; right; now left).
  assert (SB : forall n, In n (names_of s) -> In n (bound (body x))). { intros n I. rewrite BX. unfold bound. apply in_flat_map. now exists s. }
  assert (ND : NoDup (bound pre ++ names_of s)).
  { pose proof (once f FG) as Q. rewrite FB, bound_app in Q. cbn [bound flat_map] in Q. fold (bound post) in Q. rewrite app_assoc in Q. now apply NoDup_front in Q. }
  assert (INC : incl (pre ++ [s]) (body x)).
  { rewrite BX, FB. intros a I. apply in_or_app. apply in_app_or in I as [I|[<-|[]]]; [now left|right; now left]. }
  assert (XL : loaded st x = true) by now apply Part_loaded in P.
  assert (FIN : forall st', PartN st' x (bound pre ++ names_of s) (inner_targets pre) -> (forall t, In t (inner_targets [s]) -> loaded st' t = true) -> Part st' x (pre ++ [s])).
  { intros st' PN LT. split; [exact INC|]. rewrite bound_app. unfold inner_targets. rewrite flat_map_app. cbn [bound flat_map]. rewrite app_nil_r. apply PartN_targets; assumption. }
  destruct P as (_ & PN). destruct s as [m alias|m names|names|n]; cbn [step].
  - (* import *)
    assert (GO : forall st1 n v, names_of (SImport m alias) = [n] -> denotes files x n v -> PartN st1 x (bound pre) (inner_targets pre) ->
      (forall t, In t (inner_targets [SImport m alias]) -> loaded st1 t = true) -> Part (bind_name st1 x n v) x (pre ++ [SImport m alias])).
    { intros st1 n v EN D P1 LT. apply FIN; [|intros t I; rewrite loaded_bind; auto]. rewrite EN in *. apply PartN_bind; [exact P1|apply SB; now left|exact D|].
      intros I. apply NoDup_remove_2 in ND. apply ND. rewrite app_nil_r. exact I. }
    assert (DN : denotes files x (match alias with Some n => n | None => hd "" m end) (match alias with Some n => VModule m | None => VModule (firstn 1 m) end)).
    { destruct alias as [n|]; [now apply (D_import files f m)|]. destruct m as [|top m]; [exfalso; now apply (plain_import f [] FG SI)|]. now apply (D_import_top files f top m). }
    destruct (external files m) eqn:EX.
    + rewrite IE by exact EX. eexists. split; [reflexivity|]. split.
      * destruct alias; (apply GO; [reflexivity|exact DN|exact PN|]); intros t I; cbn in I; rewrite EX in I; contradiction.
      * destruct alias; apply Step_bind.
    + destruct (imports f _ m FG SI eq_refl EX) as (TG & TR & TP).
      destruct (II m st IV TG TR) as (st1 & E & S1 & X1 & _ & L1).
      { intros p I. destruct (TP p I) as [Q|Q]; [now right|left]. destruct PN as (ns & _ & _ & _ & _ & D). now apply D. }
      rewrite E. eexists. split; [reflexivity|].
      assert (P1 : PartN st1 x (bound pre) (inner_targets pre)). { apply (X1 x pre XG). split; [|exact PN]. intros a I. apply INC. apply in_or_app. now left. }
      assert (LT : forall t, In t (inner_targets [SImport m alias]) -> loaded st1 t = true) by (intros t I; cbn in I; rewrite EX in I; destruct I as [<-|[]]; exact L1).
      split; [destruct alias; (apply GO; [reflexivity|exact DN|exact P1|exact LT])|].
      apply Step_trans with st1; [now left|auto|apply S1|destruct alias; apply Step_bind].
  - (* from *)
    destruct (external files m) eqn:EX.
    + rewrite IE by exact EX. eexists. split; [reflexivity|].
      destruct (take_external_ok x m names st (bound pre) (inner_targets pre)) as (P' & U); [|exact ND|exact PN|].
      { intros n I. split; [now apply SB|]. destruct m as [|top m].
        - apply (D_external files f [] names); [exact FF|exact SI|exact I|]. intros g Ig. specialize (roots g Ig). destruct (f_name g); [contradiction|discriminate].
        - apply (D_external files f (top :: m) names); [exact FF|exact SI|exact I|]. apply external_spec; [discriminate|exact EX]. }
      split; [apply FIN; [exact P'|]; intros t I; cbn in I; rewrite EX in I; contradiction|].
      apply unmoved_Step; [exact U|]. destruct P' as (ns & Q & _). rewrite XL. apply loaded_get. now exists ns.
    + destruct (imports f _ m FG SI eq_refl EX) as (TG & TR & TP).
      destruct (II m st IV TG TR) as (st1 & E & S1 & X1 & _ & L1).
      { intros p I. destruct (TP p I) as [Q|Q]; [now right|left]. destruct PN as (ns & _ & _ & _ & _ & D). now apply D. }
      rewrite E.
      assert (P1 : Part st1 x pre). { apply (X1 x pre XG). split; [|exact PN]. intros a I. apply INC. apply in_or_app. now left. }
      assert (IV1 : Inv (rank x) st1). { apply (Inv_step (rank x) x st st1 IV (S1 x)). intros _. split; [apply le_n|]. now apply Part_nil in P1. }
      destruct (IV1 m TG L1) as (_ & CM). specialize (CM TR). destruct CM as (_ & CM).
      assert (AT : forall n, In n names -> exists v, attribute st1 m n = Some v /\ denotes files m n v).
      { intros n I. apply (PartN_has _ _ _ _ n CM). now apply (taken f m names). }
      replace (if is_package files m then from_list files imp m names st1 else (None, st1)) with (@pair (option failure) state None st1).
      2: { destruct (is_package files m); [|reflexivity]. symmetry. apply from_list_ok. intros n I. left. destruct (AT n I) as (v & A & _). now apply has_of in A. }
      destruct (take_names_ok x m names st1 (bound pre) (inner_targets pre)) as (st' & T & P' & U); [|  |exact ND|apply P1|].
      * intros Q. rewrite <- Q in TR. exact (Nat.lt_irrefl _ TR).
      * intros n I. split; [now apply SB|]. destruct (AT n I) as (v & A & D). exists v. split; [exact A|]. now apply (D_from files f m names).
      * exists st'. split; [exact T|].
        assert (LX : loaded st' x = true) by (destruct P' as (ns & Q & _); apply loaded_get; now exists ns).
        assert (LX1 : loaded st1 x = true) by now apply Part_loaded in P1.
        split; [apply FIN; [exact P'|]; intros t I; cbn in I; rewrite EX in I; destruct I as [<-|[]]; unfold loaded; rewrite U; [exact L1|intros Q; rewrite Q in TR; exact (Nat.lt_irrefl _ TR)]|].
        apply Step_trans with st1; [now left|auto|apply S1|]. apply unmoved_Step; [exact U|congruence].
  - (* use *)
    exists st. assert (H : forallb (has st x) names = true).
    { apply forallb_forall. intros n I. destruct (PartN_has _ _ _ _ n PN) as (v & A & _); [now apply (used f pre names post)|]. now apply has_of in A. }
    rewrite H. split; [reflexivity|]. split; [|apply Step_refl]. apply FIN; [cbn [names_of]; rewrite app_nil_r; exact PN|intros t []].
  - (* bind *)
    eexists. split; [reflexivity|]. split; [|apply Step_bind]. apply FIN; [|intros t []]. apply PartN_bind; [exact PN|apply SB; now left|now apply D_bind|].
    intros I. apply NoDup_remove_2 in ND. apply ND. rewrite app_nil_r. exact I.
Qed.

Lemma exec_ok : forall f post pre st, In f goods -> f_body f = pre ++ post -> imports_well (rank (f_name f)) -> Inv (rank (f_name f)) st -> Part st (f_name f) pre ->
  exists st', exec files imp (f_name f) post st = (None, st') /\ Part st' (f_name f) (f_body f) /\ Step (f_name f) st st'.
Proof.
  intros f post. induction post as [|s post IH]; intros pre st FG FB IW IV P.
  - exists st. rewrite app_nil_r in FB. rewrite FB. split; [reflexivity|]. split; [exact P|apply Step_refl].
  - destruct (step_ok f pre s post st FG FB IW IV P) as (st1 & E & P1 & S1). cbn [exec]. rewrite E.
    assert (XG : good (f_name f)) by (exists f; auto).
    destruct (IH (pre ++ [s]) st1 FG) as (st2 & E2 & P2 & S2); [now rewrite <- app_assoc|exact IW| |exact P1|].
    + apply (Inv_step _ (f_name f) st st1 IV S1). intros _. split; [apply le_n|]. now apply Part_nil in P1.
    + exists st2. split; [exact E2|]. split; [exact P2|]. apply Step_trans with st1; [now left| |exact S1|exact S2]. intros _. now apply Part_loaded in P.
Qed.

Lemma load_ok : forall x st k, good x -> imports_well (rank x) -> Inv k st -> rank x < k -> loaded st x = false ->
  (forall p, In p (prefixes x) -> p <> x -> loaded st p = true) ->
  exists st', load files imp x st = (None, st') /\ (forall y, Step y st st') /\ Part st' x (body x) /\ (forall m pre, good m -> Part st m pre -> Part st' m pre) /\
    (forall m, ~ good m -> get st' m = get st m).
Proof.
  intros x st k XG IW IV RK UL PL. destruct (good_file x XG) as (f & FG & FX & FF & BX). unfold load. rewrite find_spec_file, FF.
  set (st1 := (x, []) :: st).
  assert (G1 : forall m, m <> x -> get st1 m = get st m) by (intros m N; unfold st1; cbn; now rewrite mod_neqb).
  assert (L1 : forall m, loaded st m = true -> loaded st1 m = true).
  { intros m L. destruct (mod_dec m x) as [-> |N]; [congruence|]. unfold loaded. now rewrite G1. }
  assert (LX1 : loaded st1 x = true) by (unfold loaded, st1; cbn; now rewrite mod_eqb_refl).
  assert (X1 : forall m pre, good m -> m <> x -> Part st m pre -> Part st1 m pre).
  { intros m pre _ N (I & ns & E & A & B & C & D). split; [exact I|]. exists ns. split; [now rewrite G1|]. split; [exact A|]. split; [exact B|]. split; auto. }
  assert (P1 : Part st1 x []).
  { split; [intros a []|]. exists []. split; [unfold st1; cbn; now rewrite mod_eqb_refl|]. split; [intros n []|]. split; [intros n v Q; discriminate|].
    split; [intros t []|]. intros p I. destruct (mod_dec p x) as [-> |N]; [exact LX1|]. apply L1. now apply PL. }
  assert (IV1 : Inv (rank x) st1).
  { intros m GM L. destruct (mod_dec m x) as [-> |N]; [split; [exact P1|lia]|].
    assert (L0 : loaded st m = true) by (unfold loaded in *; now rewrite G1 in L).
    destruct (IV m GM L0) as (Q & C). split; [now apply X1|]. intros R. apply X1; [exact GM|exact N|]. apply C. lia. }
  rewrite <- FX in IW, IV1, P1. destruct (exec_ok f (f_body f) [] st1 FG eq_refl IW IV1 P1) as (st2 & E & P2 & (X2 & N2 & K2)). rewrite FX in E, P2, X2, K2.
  change ((x, []) :: st) with st1. rewrite E. rewrite <- BX in P2.
  assert (EX2 : forall m pre, good m -> Part st m pre -> m <> x /\ Part st2 m pre).
  { intros m pre GM P. assert (N : m <> x) by (intros ->; apply Part_loaded in P; congruence). split; [exact N|]. apply X2; [exact GM|exact N|]. now apply X1. }
  assert (NEW : forall m, good m -> loaded st2 m = true -> loaded st m = true \/ Part st2 m (body m)).
  { intros m GM L. destruct (mod_dec m x) as [-> |N]; [now right|]. destruct (N2 m GM L) as [L'|P]; [|now right]. left. unfold loaded in *. now rewrite G1 in L'. }
  assert (NG : forall m, ~ good m -> get st2 m = get st m).
  { intros m GM. assert (N : m <> x) by (intros ->; contradiction). rewrite K2, G1; auto. }
  destruct (parent x) as [|a q] eqn:PX.
  - exists st2. split; [reflexivity|]. assert (EX : forall m pre, good m -> Part st m pre -> Part st2 m pre) by (intros m pre GM P; now apply EX2).
    split; [intros y; split; [auto|]; split; [exact NEW|auto]|]. split; [exact P2|]. split; [exact EX|exact NG].
  - assert (NE : x <> []) by (rewrite <- FX; now apply roots, goods_files).
    assert (PI : In (parent x) (prefixes x)) by (apply parent_prefix; rewrite PX; discriminate). rewrite PX in PI.
    assert (PN : a :: q <> x) by (rewrite <- PX; now apply parent_neq).
    assert (GP : good (a :: q)) by (apply (packages f); [exact FG|now rewrite FX]).
    assert (LP : loaded st (a :: q) = true) by now apply PL.
    set (p := a :: q) in *. exists (bind_name st2 p (last x "") (VModule x)). split; [reflexivity|].
    assert (EX : forall m pre, good m -> Part st m pre -> Part (bind_name st2 p (last x "") (VModule x)) m pre).
    { intros m pre GM P. destruct (EX2 m pre GM P) as (N & P'). destruct (mod_dec m p) as [-> |NP]; [|apply Part_complete_other; [congruence|exact P']].
      destruct P' as (I & ns & Eg & A & B & C & D). split; [exact I|]. exists ((last x "", VModule x) :: ns). split; [now apply get_bind_self|].
      destruct (good_file p GP) as (fp & FPG & FPN & _ & FPB).
      assert (NB : ~ In (last x "") (bound pre)).
      { intros Q. apply in_flat_map in Q as (s0 & Is & In0). assert (T : target s0 = Some x).
        { rewrite <- FX. apply (children fp f s0); [exact FPG|now apply goods_files|now rewrite FX, FPN|rewrite <- FPB; now apply I|now rewrite FX]. }
        destruct P as (_ & ns0 & _ & _ & _ & C0 & _). assert (L : loaded st x = true); [|congruence]. apply C0. unfold inner_targets. apply in_flat_map. exists s0. split; [exact Is|].
        rewrite T, internal_good by exact XG. now left. }
      split; [|split; [|split]].
      - intros n Q. rewrite lookup_cons. destruct (String.eqb n (last x "")) eqn:W; [|now apply A]. apply String.eqb_eq in W as ->. contradiction.
      - intros n v Q. rewrite lookup_cons in Q. destruct (String.eqb n (last x "")) eqn:W; [|now apply B]. apply String.eqb_eq in W as ->. injection Q as <-.
        right. exists f. split; [now apply goods_files|]. rewrite FX. auto.
      - intros t Q. rewrite loaded_bind. auto.
      - intros t Q. rewrite loaded_bind. auto. }
    assert (KG : forall m, ~ good m -> get (bind_name st2 p (last x "") (VModule x)) m = get st m).
    { intros m GM. rewrite get_bind_other by (intros <-; contradiction). now apply NG. }
    split; [|split; [|split; [exact EX|exact KG]]].
    + intros y. split; [auto|]. split; [|auto]. intros m GM L. rewrite loaded_bind in L. destruct (NEW m GM L) as [L'|P]; [now left|].
      destruct (mod_dec m p) as [-> |NP]; [now left|]. right. apply Part_complete_other; [congruence|exact P].
    + apply Part_complete_other; [exact PN|exact P2].
Qed.

Lemma load_all_ok : forall k d, (forall x, good x -> rank x < d -> rank x < k -> imports_well (rank x)) ->
  forall ps st, Inv k st -> (forall p, In p ps -> good p /\ (loaded st p = true \/ rank p < d /\ rank p < k)) ->
  (forall l1 p l2, ps = l1 ++ p :: l2 -> forall q, In q (prefixes p) -> q = p \/ In q l1 \/ loaded st q = true) ->
  exists st', load_all files imp ps st = (None, st') /\ (forall y, Step y st st') /\ (forall m pre, good m -> Part st m pre -> Part st' m pre) /\
    (forall m, ~ good m -> get st' m = get st m) /\ (forall p, In p ps -> loaded st' p = true).
Proof.
  intros k d IW ps. induction ps as [|x ps IH]; intros st IV G PX.
  - exists st. split; [reflexivity|]. split; [intros y; apply Step_refl|]. split; [auto|]. split; [auto|]. intros p [].
  - cbn [load_all]. destruct (G x (or_introl eq_refl)) as (XG & XC). destruct (loaded st x) eqn:LX.
    + destruct (IH st IV) as (st' & E & S & X & K & L).
      * intros p I. apply G. now right.
      * intros l1 p l2 -> q I. destruct (PX (x :: l1) p l2 eq_refl q I) as [Q|[[<-|Q]|Q]]; auto.
      * exists st'. split; [exact E|]. split; [exact S|]. split; [exact X|]. split; [exact K|]. intros p [<-|I]; [|now apply L].
        destruct (IV x XG LX) as (P & _). apply (X _ _ XG) in P. now apply Part_loaded in P.
    + destruct XC as [Q|(RD & RK)]; [discriminate|].
      destruct (load_ok x st k XG (IW x XG RD RK) IV RK LX) as (st1 & E1 & S1 & P1 & X1 & K1).
      { intros p I N. destruct (PX [] x ps eq_refl p I) as [Q|[[]|Q]]; [contradiction|exact Q]. }
      rewrite E1.
      assert (ML : forall m, good m -> loaded st m = true -> loaded st1 m = true) by (intros m GM L; destruct (IV m GM L) as (P & _); apply (X1 _ _ GM) in P; now apply Part_loaded in P).
      assert (MLA : forall m, loaded st m = true -> loaded st1 m = true).
      { intros m L. destruct (in_dec mod_dec m (map f_name goods)) as [I|NI].
        - apply ML; [|exact L]. apply in_map_iff in I as (f & F & I). exists f. auto.
        - unfold loaded in *. rewrite K1; [exact L|]. intros (f & I & F). apply NI. rewrite <- F. now apply in_map. }
      destruct (IH st1) as (st' & E & S & X & K & L).
      * intros m GM L. destruct (S1 []) as (_ & N & _). destruct (N m GM L) as [L0|P].
        -- destruct (IV m GM L0) as (P & C). split; [now apply X1|]. intros R. apply X1; [exact GM|now apply C].
        -- split; [now apply Part_nil in P|auto].
      * intros p I. destruct (G p (or_intror I)) as (PG & [Q|Q]); auto.
      * intros l1 p l2 -> q I. destruct (PX (x :: l1) p l2 eq_refl q I) as [Q|[[<-|Q]|Q]]; auto. right. right. now apply Part_loaded in P1.
      * exists st'. split; [exact E|]. split; [|split; [|split]].
        -- intros y. split; [auto|]. split.
           ++ intros m GM L'. destruct (S y) as (_ & N & _). destruct (N m GM L') as [L1'|P]; [|now right]. destruct (S1 y) as (_ & N1 & _).
              destruct (N1 m GM L1') as [L0|P]; [now left|]. right. now apply X.
           ++ intros m GM _. rewrite K, K1; auto.
        -- auto.
        -- intros m GM. rewrite K, K1; auto.
        -- intros p [<-|I]; [|now apply L]. apply (X _ _ XG) in P1. now apply Part_loaded in P1.
Qed.
End Depth.

(** *** Any depth that is enough *)

Lemma import_well : forall d k, k < d -> imports_well (import files d) k.
Proof.
  induction d as [|d IH]; intros k KD; [lia|]. split.
  - intros t st E. cbn [import]. now rewrite E.
  - intros t st IV TG TK TP. cbn [import]. rewrite internal_good by exact TG.
    assert (PG : forall p, In p (prefixes t) -> good p). { destruct TG as (f & FG & <-). intros p I. now apply (packages f). }
    destruct (load_all_ok (import files d) k k) with (ps := prefixes t) (st := st) as (st' & E & S & X & K & L).
    + intros x XG _ RK. apply IH. lia.
    + exact IV.
    + intros p I. split; [now apply PG|]. destruct (TP p I) as [Q|Q]; [now left|right; lia].
    + intros l1 p l2 E q I. destruct (prefixes_split _ _ _ _ E q I); auto.
    + exists st'. split; [exact E|]. split; [exact S|]. split; [exact X|]. split; [exact K|]. apply L. apply prefixes_self.
      destruct TG as (f & FG & <-). now apply roots, goods_files.
Qed.

Definition all : nat := length goods.

Lemma rank_all : forall m, good m -> rank m < all.
Proof.
  intros m (f & I & <-). unfold rank, all. clear - I. induction goods as [|g l IH]; [contradiction|]. cbn. destruct (mod_eqb (f_name f) (f_name g)) eqn:E; [lia|].
  destruct I as [-> |I]; [now rewrite mod_eqb_refl in E|]. specialize (IH I). lia.
Qed.

Lemma complete : forall st m, Inv all st -> good m -> loaded st m = true -> Part st m (body m).
Proof. intros st m IV GM L. apply (IV m GM L). now apply rank_all. Qed.

Lemma targets_good : forall m pre t, good m -> incl pre (body m) -> In t (inner_targets pre) -> good t.
Proof.
  intros m pre t GM I T. destruct (good_file m GM) as (f & FG & FN & _ & FB). apply in_flat_map in T as (s & Is & T). destruct (target s) as [t'|] eqn:E; [|contradiction].
  destruct (external files t') eqn:X; [contradiction|]. destruct T as [<-|[]]. apply (imports f s t' FG); [rewrite <- FB; now apply I|exact E|exact X].
Qed.

Lemma Part_same : forall st st' m pre, good m -> (forall q, good q -> get st' q = get st q) -> Part st m pre -> Part st' m pre.
Proof.
  intros st st' m pre GM H (I & ns & E & A & B & C & D). split; [exact I|]. exists ns. split; [now rewrite H|]. split; [exact A|]. split; [exact B|]. split.
  - intros t T. unfold loaded. rewrite H by now apply (targets_good m pre). now apply C.
  - intros p P. destruct GM as (f & FG & <-). unfold loaded. rewrite H by now apply (packages f). now apply D.
Qed.

Lemma Inv_same : forall k st st', Inv k st -> (forall q, good q -> get st' q = get st q) -> Inv k st'.
Proof.
  intros k st st' IV H m GM L. unfold loaded in L. rewrite H in L by exact GM. destruct (IV m GM L) as (P & C). split; [now apply (Part_same st)|].
  intros R. apply (Part_same st); auto.
Qed.

(** *** A file that is not one of them: a script that is run, or one that fails *)

Definition fine (pre : list stmt) (s : stmt) : Prop :=
  match s with
  | SUse names => incl names (bound pre)
  | SFrom t names => external files t = true \/ good t /\ incl names (bound (body t))
  | SImport t _ => external files t = true \/ good t
  | SBind _ => True
  end.

Record Outer (self : modname) (names : list string) (st0 st : state) : Prop := {
  o_inv : Inv all st;
  o_loaded : loaded st self = true;
  o_names : forall n, In n names -> has st self n = true;
  o_rest : forall m, ~ good m -> m <> self -> get st m = get st0 m }.

Lemma Outer_bind : forall self names st0 st n v, ~ good self -> Outer self names st0 st -> Outer self (names ++ [n]) st0 (bind_name st self n v).
Proof.
  intros self names st0 st n v NG [IV L N R]. split.
  - apply (Inv_same all st); [exact IV|]. intros q GQ. apply get_bind_other. intros <-. contradiction.
  - now rewrite loaded_bind.
  - intros n' I. apply loaded_get in L as (ns & E). unfold has, attribute. rewrite (get_bind_self _ _ _ _ _ E), lookup_cons. destruct (String.eqb n' n) eqn:Q; [reflexivity|].
    apply in_app_or in I as [I|[<-|[]]]; [|now rewrite String.eqb_refl in Q]. specialize (N n' I). unfold has, attribute in N. now rewrite E in N.
  - intros m GM NS. rewrite get_bind_other by congruence. now apply R.
Qed.

Section Outer.
Variable imp : modname -> state -> outcome.
Hypothesis well : imports_well imp all.

Lemma outer_import : forall self names st0 st t, ~ good self -> Outer self names st0 st -> external files t = true \/ good t ->
  exists st', imp t st = (None, st') /\ Outer self names st0 st' /\ (good t -> loaded st' t = true).
Proof.
  intros self names st0 st t NG O [E|G].
  - destruct well as (W & _). exists st. split; [now apply W|]. split; [exact O|]. intros G. apply internal_good in G. congruence.
  - destruct O as [IV L N R]. destruct well as (_ & W). destruct (W t st IV G (rank_all t G)) as (st' & E & S & X & K & LT).
    { intros p I. right. apply rank_all. destruct G as (f & FG & <-). now apply (packages f). }
    exists st'. split; [exact E|]. split; [|auto]. split.
    + apply (Inv_step all self st st' IV (S self)). intros G'. contradiction.
    + unfold loaded. rewrite K by exact NG. exact L.
    + intros n I. unfold has, attribute. rewrite K by exact NG. exact (N n I).
    + intros m GM NS. rewrite K by exact GM. now apply R.
Qed.

Lemma outer_external : forall self t names nms st0 st, ~ good self -> Outer self nms st0 st -> Outer self (nms ++ names) st0 (take_external self t names st).
Proof.
  intros self t names. induction names as [|n names IH]; intros nms st0 st NG O; [now rewrite app_nil_r|].
  change (n :: names) with ([n] ++ names). rewrite app_assoc. apply (IH (nms ++ [n]) st0 (bind_name st self n (VExternal t n)) NG). now apply Outer_bind.
Qed.

Lemma outer_take : forall self t names nms st0 st, ~ good self -> self <> t -> (forall n, In n names -> has st t n = true) -> Outer self nms st0 st ->
  exists st', take_names self t names st = (None, st') /\ Outer self (nms ++ names) st0 st'.
Proof.
  intros self t names. induction names as [|n names IH]; intros nms st0 st NG NT H O; [exists st; rewrite app_nil_r; auto|].
  cbn [take_names]. pose proof (H n (or_introl eq_refl)) as Hn. unfold has in Hn. destruct (attribute st t n) as [v|]; [|discriminate].
  change (n :: names) with ([n] ++ names). rewrite app_assoc. apply (IH (nms ++ [n]) st0 (bind_name st self n v) NG NT); [|now apply Outer_bind].
  intros n' I. unfold has, attribute. rewrite get_bind_other by exact NT. apply H. now right.
Qed.

Lemma outer_step : forall self pre s st0 st, ~ good self -> Outer self (bound pre) st0 st -> fine pre s ->
  exists st', step files imp self s st = (None, st') /\ Outer self (bound (pre ++ [s])) st0 st'.
Proof.
  intros self pre s st0 st NG O F. rewrite bound_app. cbn [bound flat_map]. rewrite app_nil_r. destruct s as [t alias|t names|names|n]; cbn [step names_of].
  - destruct (outer_import self _ st0 st t NG O F) as (st1 & -> & O1 & _). eexists. split; [reflexivity|]. destruct alias; now apply Outer_bind.
  - destruct (outer_import self _ st0 st t NG O) as (st1 & -> & O1 & L). { destruct F as [F|(F & _)]; auto. }
    destruct (external files t) eqn:E; [eexists; split; [reflexivity|]; now apply outer_external|].
    cbn [fine] in F. destruct F as [F|(G & I)]; [congruence|]. pose proof (complete _ _ (o_inv _ _ _ _ O1) G (L G)) as (_ & C).
    assert (H : forall n, In n names -> has st1 t n = true). { intros n J. destruct (PartN_has _ _ _ _ n C (I n J)) as (v & A & _). now apply has_of in A. }
    replace (if is_package files t then from_list files imp t names st1 else (None, st1)) with (@pair (option failure) state None st1).
    2: { destruct (is_package files t); [|reflexivity]. symmetry. apply from_list_ok. auto. }
    apply outer_take; [exact NG| |exact H|exact O1]. intros ->. contradiction.
  - exists st. assert (H : forallb (has st self) names = true) by (apply forallb_forall; intros n I; apply (o_names _ _ _ _ O); now apply F).
    rewrite H. split; [reflexivity|]. now rewrite app_nil_r.
  - eexists. split; [reflexivity|]. now apply Outer_bind.
Qed.

Lemma outer_exec : forall self post pre st0 st, ~ good self -> Outer self (bound pre) st0 st ->
  (forall a s b, post = a ++ s :: b -> fine (pre ++ a) s) ->
  exists st', exec files imp self post st = (None, st') /\ Outer self (bound (pre ++ post)) st0 st'.
Proof.
  intros self post. induction post as [|s post IH]; intros pre st0 st NG O F; [exists st; rewrite app_nil_r; auto|].
  destruct (outer_step self pre s st0 st NG O) as (st1 & E & O1). { specialize (F [] s post eq_refl). now rewrite app_nil_r in F. }
  cbn [exec]. rewrite E. change (s :: post) with ([s] ++ post). rewrite app_assoc. apply IH; [exact NG|exact O1|].
  intros a s' b ->. specialize (F (s :: a) s' b eq_refl). now rewrite <- app_assoc.
Qed.

Lemma exec_app : forall self a b st, exec files imp self (a ++ b) st = match exec files imp self a st with (None, st') => exec files imp self b st' | failed => failed end.
Proof.
  intros self a. induction a as [|s a IH]; intros b st; [reflexivity|]. cbn [List.app exec]. destruct (step files imp self s st) as [[e|] st1]; [reflexivity|]. apply IH.
Qed.

Lemma take_fails : forall self t names nms st0 st n, ~ good self -> self <> t -> In n names -> attribute st t n = None -> loaded st (t ++ [n]) = false ->
  Outer self nms st0 st -> exists st', take_names self t names st = (Some ImportError, st') /\ Outer self nms st0 st'.
Proof.
  intros self t names. induction names as [|a names IH]; intros nms st0 st n NG NT I A L O; [contradiction|]. cbn [take_names].
  assert (REC : In n names -> forall v, exists st', take_names self t names (bind_name st self a v) = (Some ImportError, st') /\ Outer self nms st0 st').
  { intros J v. apply (IH nms st0 _ n NG NT J); [unfold attribute; rewrite get_bind_other by exact NT; exact A|now rewrite loaded_bind|].
    destruct (Outer_bind self nms st0 st a v NG O) as [IV LO N R]. split; [exact IV|exact LO| |exact R]. intros m J'. apply N. apply in_or_app. now left. }
  destruct I as [-> |J].
  - rewrite A, L. exists st. auto.
  - destruct (attribute st t a) as [v|]; [now apply REC|]. destruct (loaded st (t ++ [a])); [now apply REC|]. exists st. auto.
Qed.

(** The import of a name that its module does not have. *)
Definition fails_at (f : file) : Prop :=
  exists pre t names post n, f_body f = pre ++ SFrom t names :: post /\ (forall a s b, pre = a ++ s :: b -> fine a s) /\
    good t /\ (forall k, In k names -> In k (bound (body t)) \/ find_file files (t ++ [k]) = None) /\
    In n names /\ ~ In n (bound (body t)) /\ find_file files (t ++ [n]) = None.

Lemma outer_fails : forall self f rest st, ~ good self -> fails_at f -> (forall t n, good t -> find_file files (t ++ [n]) = None -> t ++ [n] <> self) ->
  Inv all st -> (forall m, loaded st m = true -> good m) ->
  exists st', exec files imp self (f_body f ++ rest) ((self, []) :: st) = (Some ImportError, st') /\ Outer self [] ((self, []) :: st) st'.
Proof.
  intros self f rest st NG (pre & t & names & post & n & FB & FI & G & NF & I & NB & FN) NS IV OG.
  set (st0 := (self, []) :: st).
  assert (O0 : Outer self (bound []) st0 st0).
  { split; [|unfold loaded, st0; cbn; now rewrite mod_eqb_refl|intros k []|auto].
    apply (Inv_same all st); [exact IV|]. intros q GQ. unfold st0. cbn. rewrite mod_neqb; [reflexivity|]. intros ->. contradiction. }
  destruct (outer_exec self pre [] st0 st0 NG O0) as (st1 & E1 & O1). { intros a s b E. now apply (FI a s b). }
  rewrite FB, <- app_assoc, exec_app, E1. cbn [List.app exec step].
  destruct (outer_import self _ st0 st1 t NG O1 (or_intror G)) as (st2 & -> & O2 & L2). rewrite internal_good by exact G.
  pose proof (complete _ _ (o_inv _ _ _ _ O2) G (L2 G)) as (_ & C).
  replace (if is_package files t then from_list files imp t names st2 else (None, st2)) with (@pair (option failure) state None st2).
  2: { destruct (is_package files t); [|reflexivity]. symmetry. apply from_list_ok. intros k J. destruct (NF k J) as [B|B]; [left|now right].
       destruct (PartN_has _ _ _ _ k C B) as (v & A & _). now apply has_of in A. }
  assert (NT : self <> t) by (intros ->; contradiction).
  destruct (take_fails self t names (bound ([] ++ pre)) st0 st2 n NG NT I) as (st3 & E3 & O3).
  - destruct C as (ns & Eg & _ & B & _). unfold attribute. rewrite Eg. destruct (lookup ns n) as [v|] eqn:LK; [|reflexivity]. exfalso.
    destruct (B n v LK) as [(_ & Q)|(g & Ig & Pg & Lg & _)]; [contradiction|].
    assert (NE : f_name g = t ++ [n]). { rewrite <- Pg, <- Lg. unfold parent. apply app_removelast_last. now apply roots. }
    pose proof (find_in_complete _ _ distinct Ig) as Q. unfold find_file in FN. rewrite NE in Q. congruence.
  - unfold loaded. destruct (get st2 (t ++ [n])) as [ns|] eqn:Q; [|reflexivity]. exfalso.
    assert (NGt : ~ good (t ++ [n])) by (intros (g & Ig & Ng); pose proof (find_in_complete _ _ distinct (goods_files _ Ig)) as W; unfold find_file in FN; rewrite Ng in W; congruence).
    rewrite (o_rest _ _ _ _ O2) in Q by (try exact NGt; now apply NS). unfold st0 in Q. cbn in Q. rewrite mod_neqb in Q by now apply NS.
    apply NGt. apply OG. apply loaded_get. now exists ns.
  - exact O2.
  - rewrite E3. exists st3. split; [reflexivity|]. destruct O3 as [A B _ D]. split; [exact A|exact B|intros k []|exact D].
Qed.
End Outer.

Hypothesis failing : forall f, In f broken -> fails_at f.
Hypothesis failing_package : forall f, In f broken -> good (parent (f_name f)).

Lemma broken_not_good : forall f, In f broken -> ~ good (f_name f).
Proof.
  intros f I (g & G & N). pose proof distinct as D. unfold files in D. rewrite map_app in D.
  assert (X : forall a b : list modname, NoDup (a ++ b) -> forall x, In x a -> In x b -> False).
  { clear. induction a as [|y a IH]; intros b D x Ia Ib; [contradiction|]. inversion D as [|u w NI D']; subst. destruct Ia as [-> |Ia]; [apply NI; apply in_or_app; now right|now apply (IH b D' x)]. }
  apply (X _ _ D (f_name f)); [rewrite <- N; now apply in_map|now apply in_map].
Qed.

Definition only_good (st : state) : Prop := forall m, loaded st m = true -> good m.

Lemma load_broken : forall d f st, all < d -> In f broken -> Inv all st -> only_good st ->
  exists st', load files (import files d) (f_name f) st = (Some ImportError, st') /\ Inv all st' /\ only_good st'.
Proof.
  intros d f st AD FB IV OG. unfold load. assert (FI : In f files) by (apply in_or_app; now right).
  rewrite find_spec_file. unfold find_file. rewrite (find_in_complete _ _ distinct FI). pose proof (broken_not_good f FB) as NG.
  destruct (outer_fails (import files d) (import_well d all AD) (f_name f) f [] st NG (failing f FB)) as (st1 & E & [IV1 _ _ R1]); [|exact IV|exact OG|].
  { intros t n _ Q W. unfold find_file in Q. rewrite W in Q. rewrite (find_in_complete _ _ distinct FI) in Q. discriminate. }
  rewrite app_nil_r in E. rewrite E. eexists. split; [reflexivity|]. split.
  - apply (Inv_same all st1); [exact IV1|]. intros q GQ. apply get_forget. intros Q. apply NG. now rewrite Q.
  - intros m L. destruct (mod_dec (f_name f) m) as [<-|N]; [unfold loaded in L; now rewrite get_forget_self in L|]. unfold loaded in L. rewrite get_forget in L by exact N.
    destruct (in_dec mod_dec m (map f_name goods)) as [I|NI]; [apply in_map_iff in I as (g & <- & I); now exists g|]. exfalso.
    assert (NM : ~ good m) by (intros (g & I & Q); apply NI; rewrite <- Q; now apply in_map).
    rewrite R1 in L by (try exact NM; congruence). cbn in L. rewrite mod_neqb in L by congruence. apply NM. now apply OG.
Qed.

Lemma good_dec : forall m, good m \/ ~ good m.
Proof. intros m. destruct (in_dec mod_dec m (map f_name goods)) as [I|NI]; [left; apply in_map_iff in I as (g & <- & I); now exists g|right; intros (g & I & Q); apply NI; rewrite <- Q; now apply in_map]. Qed.

Lemma load_any : forall d, all < d -> forall ps st, Inv all st -> only_good st ->
  (forall l1 p l2, ps = l1 ++ p :: l2 -> forall q, In q (prefixes p) -> q = p \/ In q l1 \/ loaded st q = true) ->
  exists e st', load_all files (import files d) ps st = (e, st') /\ Inv all st' /\ only_good st' /\
    ((forall p, In p ps -> good p) -> e = None /\ forall p, In p ps -> loaded st' p = true) /\
    (forall qs f, ps = qs ++ [f_name f] -> In f broken -> (forall q, In q qs -> good q) -> e = Some ImportError).
Proof.
  intros d AD ps. induction ps as [|x ps IH]; intros st IV OG PX.
  - exists None, st. split; [reflexivity|]. split; [exact IV|]. split; [exact OG|]. split; [intros _; split; [reflexivity|intros p []]|]. intros [|q qs] f E; discriminate.
  - cbn [load_all]. destruct (loaded st x) eqn:LX.
    + destruct (IH st IV OG) as (e & st' & E & IV' & OG' & N & B).
      { intros l1 p l2 -> q I. destruct (PX (x :: l1) p l2 eq_refl q I) as [Q|[[<-|Q]|Q]]; auto. }
      exists e, st'. split; [exact E|]. split; [exact IV'|]. split; [exact OG'|]. split.
      * intros G. destruct N as (N & L); [intros p I; apply G; now right|]. split; [exact N|]. intros p [<-|I]; [|now apply L]. clear N L B.
        assert (KL : forall ps st, Inv all st -> only_good st -> (forall p, In p ps -> good p) -> (forall l1 p l2, ps = l1 ++ p :: l2 -> forall q, In q (prefixes p) -> q = p \/ In q l1 \/ loaded st q = true) ->
          forall y st', load_all files (import files d) ps st = (e, st') -> good y -> loaded st y = true -> loaded st' y = true).
        { clear - AD distinct roots flags packages imports taken used once plain_import children. intros ps st IV OG G PX y st' E GY LY.
          destruct (load_all_ok (import files d) all all) with (ps := ps) (st := st) as (st2 & E2 & _ & X & _).
          - intros x XG R _. apply import_well. lia.
          - exact IV.
          - intros p I. split; [now apply G|]. right. assert (R := rank_all p (G p I)). lia.
          - exact PX.
          - rewrite E2 in E. injection E as _ <-. destruct (IV y GY LY) as (P & _). apply (X _ _ GY) in P. now apply Part_loaded in P. }
        apply (KL ps st IV OG (fun p I => G p (or_intror I))) with (st' := st'); [|exact E|apply G; now left|exact LX].
        intros l1 p l2 -> q I. destruct (PX (x :: l1) p l2 eq_refl q I) as [Q|[[<-|Q]|Q]]; auto.
      * intros [|q qs] f EQ FB GQ; [injection EQ as -> ->; exfalso; apply (broken_not_good f FB); now apply OG|]. injection EQ as -> ->. apply (B qs f eq_refl FB). intros q' I. apply GQ. now right.
    + destruct (good_dec x) as [GX|NX].
      * destruct (load_ok (import files d) x st all GX) as (st1 & E1 & S1 & P1 & X1 & K1); [apply import_well; pose proof (rank_all x GX); lia|exact IV|now apply rank_all|exact LX| |].
        { intros p I N. destruct (PX [] x ps eq_refl p I) as [Q|[[]|Q]]; [contradiction|exact Q]. }
        rewrite E1.
        assert (IV1 : Inv all st1). { apply (Inv_step all [] st st1 IV (S1 [])). intros (g & Ig & Ng). exfalso. apply (roots g); [now apply goods_files|exact Ng]. }
        assert (OG1 : only_good st1).
        { intros m L. destruct (good_dec m) as [G|N]; [exact G|]. unfold loaded in L. rewrite K1 in L by exact N. now apply OG. }
        assert (ML : forall m, loaded st m = true -> loaded st1 m = true). { intros m L. pose proof (OG m L) as G. destruct (IV m G L) as (P & _). apply (X1 _ _ G) in P. now apply Part_loaded in P. }
        assert (PX1 : forall l1 p l2, ps = l1 ++ p :: l2 -> forall q, In q (prefixes p) -> q = p \/ In q l1 \/ loaded st1 q = true).
        { intros l1 p l2 -> q I. destruct (PX (x :: l1) p l2 eq_refl q I) as [Q|[[<-|Q]|Q]]; auto. right. right. now apply Part_loaded in P1. }
        destruct (IH st1 IV1 OG1 PX1) as (e & st' & E & IV' & OG' & N & B).
        exists e, st'. split; [exact E|]. split; [exact IV'|]. split; [exact OG'|]. split.
        -- intros G. destruct N as (N & L); [intros p I; apply G; now right|]. split; [exact N|]. intros p [<-|I]; [|now apply L].
           destruct (load_all_ok (import files d) all all) with (ps := ps) (st := st1) as (st2 & E2 & _ & X & _).
           ++ intros y YG R _. apply import_well. lia.
           ++ exact IV1.
           ++ intros p I. split; [apply G; now right|]. right. assert (R := rank_all p (G p (or_intror I))). lia.
           ++ exact PX1.
           ++ rewrite E2 in E. injection E as _ <-. apply (X _ _ GX) in P1. now apply Part_loaded in P1.
        -- intros [|q qs] f EQ FB GQ; [injection EQ as -> ->; exfalso; now apply (broken_not_good f FB)|]. injection EQ as -> ->. apply (B qs f eq_refl FB). intros q' I. apply GQ. now right.
      * destruct (find_file files x) as [f|] eqn:FF.
        -- destruct (find_in_sound _ _ _ FF) as (FI & FN). apply in_app_or in FI as [FI|FI]; [exfalso; apply NX; now exists f|]. subst x.
           destruct (load_broken d f st AD FI IV OG) as (st' & E & IV' & OG'). rewrite E. exists (Some ImportError), st'. split; [reflexivity|]. split; [exact IV'|]. split; [exact OG'|].
           split; [intros G; exfalso; apply NX; apply G; now left|auto].
        -- unfold load. rewrite find_spec_file, FF. exists (Some ModuleNotFoundError), st. split; [reflexivity|]. split; [exact IV|]. split; [exact OG|]. split; [intros G; exfalso; apply NX; apply G; now left|].
           intros [|q qs] f EQ FB GQ; [|injection EQ as -> ->; exfalso; apply NX; apply GQ; now left]. injection EQ as -> ->. exfalso.
           assert (FI : In f files) by (apply in_or_app; now right). unfold find_file in FF. rewrite (find_in_complete _ _ distinct FI) in FF. discriminate.
Qed.

Lemma prefixes_parent : forall m, m <> [] -> prefixes m = prefixes (parent m) ++ [m].
Proof.
  unfold parent. induction m as [|x m IH]; intros N; [contradiction|]. destruct m as [|y m]; [reflexivity|].
  change (prefixes (x :: y :: m)) with ([x] :: map (cons x) (prefixes (y :: m))). rewrite IH by discriminate.
  change (removelast (x :: y :: m)) with (x :: removelast (y :: m)). cbn [prefixes]. now rewrite map_app.
Qed.

Lemma reached_ok : forall depth st, S all < depth -> reached files depth st -> Inv all st /\ only_good st.
Proof.
  intros depth st D H. induction H as [|st m H (IV & OG)]; [split; intros m; [intros _ Q|intros Q]; discriminate|].
  destruct depth as [|d]; [lia|]. cbn [import]. destruct (external files m); [auto|].
  destruct (load_any d) with (ps := prefixes m) (st := st) as (e & st' & E & IV' & OG' & _); [lia|exact IV|exact OG| |rewrite E; auto].
  intros l1 p l2 E q I. destruct (prefixes_split _ _ _ _ E q I); auto.
Qed.

Lemma import_good : forall depth st f, S all < depth -> reached files depth st -> In f goods -> fst (import files depth (f_name f) st) = None /\ loaded (snd (import files depth (f_name f) st)) (f_name f) = true.
Proof.
  intros depth st f D H I. destruct (reached_ok depth st D H) as (IV & OG). destruct depth as [|d]; [lia|]. cbn [import].
  assert (G : good (f_name f)) by now exists f. rewrite internal_good by exact G.
  destruct (load_any d) with (ps := prefixes (f_name f)) (st := st) as (e & st' & E & _ & _ & N & _); [lia|exact IV|exact OG| |].
  - intros l1 p l2 E q J. destruct (prefixes_split _ _ _ _ E q J); auto.
  - rewrite E. destruct N as (-> & L); [intros p J; now apply (packages f)|]. split; [reflexivity|]. cbn. apply L. apply prefixes_self. now apply roots, goods_files.
Qed.

Lemma import_broken : forall depth st f, S all < depth -> reached files depth st -> In f broken -> fst (import files depth (f_name f) st) = Some ImportError.
Proof.
  intros depth st f D H I. destruct (reached_ok depth st D H) as (IV & OG). destruct depth as [|d]; [lia|]. cbn [import].
  assert (FI : In f files) by (apply in_or_app; now right). assert (NE : f_name f <> []) by now apply roots.
  rewrite (internal f _ FI) by now apply prefixes_self.
  destruct (load_any d) with (ps := prefixes (f_name f)) (st := st) as (e & st' & E & _ & _ & _ & B); [lia|exact IV|exact OG| |].
  - intros l1 p l2 E q J. destruct (prefixes_split _ _ _ _ E q J); auto.
  - rewrite E. cbn. apply (B (prefixes (parent (f_name f))) f); [now apply prefixes_parent|exact I|]. intros q J. destruct (failing_package f I) as (g & G & N).
    rewrite <- N in J. now apply (packages g).
Qed.

(** A name stands for one thing. *)
Lemma bound_once : forall l s1 s2 n, NoDup (bound l) -> In s1 l -> In s2 l -> In n (names_of s1) -> In n (names_of s2) -> s1 = s2.
Proof.
  induction l as [|s l IH]; intros s1 s2 n N I1 I2 N1 N2; [contradiction|]. cbn [bound flat_map] in N. fold (bound l) in N.
  assert (X : forall t, In t l -> In n (names_of t) -> In n (names_of s) -> False).
  { intros t It Nt Ns. assert (In n (bound l)) by (apply in_flat_map; now exists t). clear - N H Ns. revert N Ns. generalize (names_of s). induction l0 as [|a l0 IH]; intros N Ns; [contradiction|].
    inversion N as [|u w NI N']; subst. destruct Ns as [-> |Ns]; [apply NI; apply in_or_app; now right|now apply IH]. }
  assert (ND : NoDup (bound l)) by (clear - N; revert N; generalize (names_of s); induction l0 as [|a l0 IH]; intros N; [exact N|]; inversion N; subst; now apply IH).
  destruct I1 as [<-|I1], I2 as [<-|I2]; [reflexivity|exfalso; now apply (X s2)|exfalso; now apply (X s1)|now apply (IH s1 s2 n)].
Qed.

Lemma same_file : forall f g, In f files -> In g files -> f_name f = f_name g -> f = g.
Proof. intros f g If Ig E. pose proof (find_in_complete _ _ distinct If) as A. pose proof (find_in_complete _ _ distinct Ig) as B. rewrite E in A. congruence. Qed.

Lemma denotes_once : forall m n v, denotes files m n v -> good m -> forall w, denotes files m n w -> v = w.
Proof.
  intros m n v H. induction H as [f n If Is|f t x n If Is ->|f top t If Is|f t names n If Is In0 X|f t names n v If Is In0 H IH]; intros (f0 & FG & FN) w W;
    pose proof (same_file f0 f (goods_files _ FG) If FN); subst f0; clear FN.
  - inversion W as [g n' Ig Js E1 E2|g t' x' n' Ig Js EX E1 E2|g top t' Ig Js E1 E2|g t' names n' Ig Js Jn X E1 E2|g t' names n' v' Ig Js Jn D E1 E2]; subst;
      pose proof (same_file g f Ig If E1); subst g; clear E1.
    all: try reflexivity.
    all: exfalso; assert (Q := bound_once (f_body f) _ _ _ (once f FG) Is Js (or_introl eq_refl) ltac:(first [now left|exact Jn])); discriminate.
  - inversion W as [g n' Ig Js E1 E2|g t' x' n' Ig Js EX E1 E2|g top t' Ig Js E1 E2|g t' names n' Ig Js Jn X E1 E2|g t' names n' v' Ig Js Jn D E1 E2]; subst;
      pose proof (same_file g f Ig If E1); subst g; clear E1;
      assert (Q := bound_once (f_body f) _ _ _ (once f FG) Is Js (or_introl eq_refl) ltac:(first [now left|exact Jn])); try discriminate.
    now injection Q as <-.
  - inversion W as [g n' Ig Js E1 E2|g t' x' n' Ig Js EX E1 E2|g top' t' Ig Js E1 E2|g t' names n' Ig Js Jn X E1 E2|g t' names n' v' Ig Js Jn D E1 E2]; subst;
      pose proof (same_file g f Ig If E1); subst g; clear E1;
      assert (Q := bound_once (f_body f) _ _ _ (once f FG) Is Js (or_introl eq_refl) ltac:(first [now left|exact Jn])); try discriminate.
    reflexivity.
  - inversion W as [g n' Ig Js E1 E2|g t' x' n' Ig Js EX E1 E2|g top' t' Ig Js E1 E2|g t' names' n' Ig Js Jn X' E1 E2|g t' names' n' v' Ig Js Jn D E1 E2]; subst;
      pose proof (same_file g f Ig If E1); subst g; clear E1;
      assert (Q := bound_once (f_body f) _ _ _ (once f FG) Is Js In0 ltac:(first [now left|exact Jn])); try discriminate.
    + now injection Q as <- <-.
    + injection Q as <- <-. exfalso. apply external_spec' in X. inversion D; subst; (assert (external files (f_name f0) = false); [|congruence]); apply (internal f0); try assumption; apply prefixes_self; now apply roots.
  - inversion W as [g n' Ig Js E1 E2|g t' x' n' Ig Js EX E1 E2|g top' t' Ig Js E1 E2|g t' names' n' Ig Js Jn X' E1 E2|g t' names' n' v' Ig Js Jn D E1 E2]; subst;
      pose proof (same_file g f Ig If E1); subst g; clear E1;
      assert (Q := bound_once (f_body f) _ _ _ (once f FG) Is Js In0 ltac:(first [now left|exact Jn])); try discriminate.
    + injection Q as <- <-. exfalso. apply external_spec' in X'. inversion H; subst; (assert (external files (f_name f0) = false); [|congruence]); apply (internal f0); try assumption; apply prefixes_self; now apply roots.
    + injection Q as <- <-. apply IH; [|exact D]. apply (imports f (SFrom t names) t FG Is eq_refl). inversion D; subst; (apply (internal f0); [assumption|apply prefixes_self; now apply roots]).
Qed.

Lemma names_values : forall depth st m, S all < depth -> reached files depth st -> loaded st m = true -> good m /\
  (forall n v, denotes files m n v -> attribute st m n = Some v) /\
  (forall n v, attribute st m n = Some v -> denotes files m n v \/ v = VModule (m ++ [n]) /\ exists g, In g files /\ f_name g = m ++ [n]) /\
  (forall n, In n (bound (body m)) -> exists v, attribute st m n = Some v /\ denotes files m n v).
Proof.
  intros depth st m D H L. destruct (reached_ok depth st D H) as (IV & OG). pose proof (OG m L) as G. split; [exact G|]. pose proof (complete st m IV G L) as (_ & C).
  assert (B3 : forall n, In n (bound (body m)) -> exists v, attribute st m n = Some v /\ denotes files m n v) by (intros n I; now apply (PartN_has _ _ _ _ n C)).
  split; [|split; [|exact B3]].
  - intros n v DN. assert (I : In n (bound (body m))).
    { inversion DN as [g n' Ig Js E1 E2|g t' x' n' Ig Js EX E1 E2|g top' t' Ig Js E1 E2|g t' names' n' Ig Js Jn X' E1 E2|g t' names' n' v' Ig Js Jn DD E1 E2]; subst;
        rewrite body_of by exact Ig; apply in_flat_map; eexists; (split; [exact Js|]); cbn; auto. }
    destruct (B3 n I) as (w & A & DW). now rewrite (denotes_once m n v DN G w DW).
  - intros n v A. destruct C as (ns & E & _ & B & _). unfold attribute in A. rewrite E in A. destruct (B n v A) as [(Q & _)|(g & Ig & Pg & Lg & ->)]; [now left|]. right.
    assert (NE : f_name g = m ++ [n]). { rewrite <- Pg, <- Lg. unfold parent. apply app_removelast_last. now apply roots. }
    rewrite NE. split; [reflexivity|]. now exists g.
Qed.

(** Scripts. *)
Lemma run_ok : forall depth st f, S all < depth -> reached files depth st -> ~ good main_name ->
  (forall a s b, f_body f ++ f_main f = a ++ s :: b -> fine a s) ->
  exists st', run files depth f st = (None, st') /\ forall n, In n (bound (f_body f ++ f_main f)) -> has st' main_name n = true.
Proof.
  intros depth st f D H NM F. destruct (reached_ok depth st D H) as (IV & OG). unfold run.
  destruct (outer_exec (import files depth) (import_well depth all ltac:(lia)) main_name (f_body f ++ f_main f) [] ((main_name, []) :: st) ((main_name, []) :: st) NM) as (st' & E & O).
  - split; [|unfold loaded; cbn; reflexivity|intros k []|auto].
    apply (Inv_same all st); [exact IV|]. intros q GQ. cbn [get]. rewrite mod_neqb; [reflexivity|]. intros ->. contradiction.
  - exact F.
  - exists st'. split; [exact E|]. intros n I. now apply (o_names _ _ _ _ O).
Qed.

Lemma run_broken : forall depth st f, S all < depth -> reached files depth st -> ~ good main_name -> In f broken -> fst (run files depth f st) = Some ImportError.
Proof.
  intros depth st f D H NM I. destruct (reached_ok depth st D H) as (IV & OG). unfold run.
  destruct (outer_fails (import files depth) (import_well depth all ltac:(lia)) main_name f (f_main f) st NM (failing f I)) as (st' & E & _); [|exact IV|exact OG|now rewrite E].
  intros t n (g & Ig & Ng) _ Q. destruct t as [|a t]; [|destruct t; discriminate]. apply (roots g); [now apply goods_files|exact Ng].
Qed.
End General.

(** *** The hypotheses, decided *)

Section Check.
Variables goods broken : list file.
Let files := goods ++ broken.

Definition in_names (n : string) (l : list string) : bool := existsb (String.eqb n) l.
Definition goodb (m : modname) : bool := existsb (fun f => mod_eqb (f_name f) m) goods.
Fixpoint nodup_mods (l : list modname) : bool := match l with [] => true | m :: l => andb (negb (existsb (mod_eqb m) l)) (nodup_mods l) end.
Fixpoint nodup_names (l : list string) : bool := match l with [] => true | n :: l => andb (negb (in_names n l)) (nodup_names l) end.
Definition fineb (seen : list string) (s : stmt) : bool :=
  match s with
  | SUse names => forallb (fun n => in_names n seen) names
  | SFrom t names => orb (external files t) (andb (goodb t) (forallb (fun n => in_names n (bound (body goods broken t))) names))
  | SImport t _ => orb (external files t) (goodb t)
  | SBind _ => true
  end.
Fixpoint fine_all (seen : list string) (l : list stmt) : bool :=
  match l with [] => true | s :: l => andb (fineb seen s) (fine_all (seen ++ names_of s) l) end.
Definition no_file (m : modname) : bool := match find_file files m with None => true | Some _ => false end.
Fixpoint failsb (seen : list string) (l : list stmt) : bool :=
  match l with
  | [] => false
  | s :: l =>
      if fineb seen s then failsb (seen ++ names_of s) l
      else match s with
           | SFrom t names => andb (goodb t) (andb (forallb (fun k => orb (in_names k (bound (body goods broken t))) (no_file (t ++ [k]))) names)
                                                   (existsb (fun k => andb (negb (in_names k (bound (body goods broken t)))) (no_file (t ++ [k]))) names))
           | _ => false
           end
  end.
Definition import_ok (f : file) (s : stmt) : bool :=
  match target s with
  | None => true
  | Some t => orb (external files t) (andb (goodb t) (andb (Nat.ltb (rank goods t) (rank goods (f_name f)))
                (forallb (fun p => orb (Nat.ltb (rank goods p) (rank goods (f_name f))) (existsb (mod_eqb p) (prefixes (f_name f)))) (prefixes t))))
  end.
Definition child_ok (f g : file) : bool :=
  if mod_eqb (parent (f_name g)) (f_name f)
  then forallb (fun s => if in_names (last (f_name g) "") (names_of s) then match target s with Some t => mod_eqb t (f_name g) | None => false end else true) (f_body f)
  else true.
Definition plain_ok (s : stmt) : bool := match s with SImport [] None => false | _ => true end.
Definition good_ok (f : file) : bool :=
  forallb goodb (prefixes (f_name f)) && fine_all [] (f_body f) && forallb (import_ok f) (f_body f) && nodup_names (bound (f_body f)) &&
  forallb plain_ok (f_body f) && forallb (child_ok f) files.
Definition table_ok : bool :=
  nodup_mods (map f_name files) && forallb (fun f => match f_name f with [] => false | _ => true end) files && forallb good_ok goods &&
  forallb (fun f => failsb [] (f_body f) && goodb (parent (f_name f))) broken &&
  forallb (fun f => match parent (f_name f) with [] => true | p => is_package files p end) files.

Lemma in_names_spec : forall n l, in_names n l = true <-> In n l.
Proof.
  intros n l. unfold in_names. rewrite existsb_exists. split; [intros (x & I & E); apply String.eqb_eq in E; now subst|intros I; exists n; split; [exact I|apply String.eqb_refl]].
Qed.

Lemma in_names_false : forall n l, in_names n l = false -> ~ In n l.
Proof. intros n l E I. apply in_names_spec in I. congruence. Qed.

Lemma goodb_spec : forall m, goodb m = true <-> good goods m.
Proof.
  intros m. unfold goodb, good. rewrite existsb_exists. split; intros (f & I & E); exists f; (split; [exact I|]); [now apply mod_eqb_eq|]. rewrite E. apply mod_eqb_refl.
Qed.

Lemma nodup_mods_spec : forall l, nodup_mods l = true -> NoDup l.
Proof.
  induction l as [|m l IH]; cbn; intros H; [constructor|]. apply andb_prop in H as (A & B). constructor; [|now apply IH]. intros I.
  assert (E : existsb (mod_eqb m) l = true) by (apply existsb_exists; exists m; split; [exact I|apply mod_eqb_refl]). rewrite E in A. discriminate.
Qed.

Lemma nodup_names_spec : forall l, nodup_names l = true -> NoDup l.
Proof.
  induction l as [|m l IH]; cbn; intros H; [constructor|]. apply andb_prop in H as (A & B). constructor; [|now apply IH]. intros I. apply in_names_spec in I. rewrite I in A. discriminate.
Qed.

Lemma fineb_spec : forall pre s, fineb (bound pre) s = true -> fine goods broken pre s.
Proof.
  intros pre [t alias|t names|names|n] H; cbn [fineb fine] in *; [| | |exact I].
  - apply orb_prop in H as [H|H]; [now left|right; now apply goodb_spec].
  - apply orb_prop in H as [H|H]; [now left|right]. apply andb_prop in H as (A & B). split; [now apply goodb_spec|]. rewrite forallb_forall in B. intros n J. apply in_names_spec. now apply B.
  - rewrite forallb_forall in H. intros n J. apply in_names_spec. now apply H.
Qed.

Lemma fine_all_spec : forall l pre, fine_all (bound pre) l = true -> forall a s b, l = a ++ s :: b -> fine goods broken (pre ++ a) s.
Proof.
  induction l as [|x l IH]; intros pre H a s b E; [destruct a; discriminate|]. cbn in H. apply andb_prop in H as (A & B). destruct a as [|y a]; injection E as -> ->.
  - rewrite app_nil_r. now apply fineb_spec.
  - replace (bound pre ++ names_of y) with (bound (pre ++ [y])) in B by (rewrite bound_app; cbn; now rewrite app_nil_r).
    specialize (IH (pre ++ [y]) B a s b eq_refl). now rewrite <- app_assoc in IH.
Qed.

Lemma failsb_spec : forall l pre, failsb (bound pre) l = true ->
  exists a t names b n, l = a ++ SFrom t names :: b /\ (forall c s d, a = c ++ s :: d -> fine goods broken (pre ++ c) s) /\
    good goods t /\ (forall k, In k names -> In k (bound (body goods broken t)) \/ find_file files (t ++ [k]) = None) /\
    In n names /\ ~ In n (bound (body goods broken t)) /\ find_file files (t ++ [n]) = None.
Proof.
  assert (NF : forall m, no_file m = true -> find_file files m = None) by (intros m; unfold no_file; now destruct (find_file files m)).
  induction l as [|x l IH]; intros pre H; [discriminate|]. cbn in H. destruct (fineb (bound pre) x) eqn:F.
  - replace (bound pre ++ names_of x) with (bound (pre ++ [x])) in H by (rewrite bound_app; cbn; now rewrite app_nil_r).
    destruct (IH _ H) as (a & t & names & b & n & E & FI & R). exists (x :: a), t, names, b, n. split; [now rewrite E|]. split; [|exact R].
    intros c s d Q. destruct c as [|y c]; injection Q as -> ->; [rewrite app_nil_r; now apply fineb_spec|]. specialize (FI c s d eq_refl). now rewrite <- app_assoc in FI.
  - destruct x as [t alias|t names|names|n]; try discriminate. apply andb_prop in H as (A & B). apply andb_prop in B as (B & D).
    apply existsb_exists in D as (n & I & D). apply andb_prop in D as (D1 & D2). rewrite forallb_forall in B.
    exists [], t, names, l, n. split; [reflexivity|]. split; [intros [|y c] s d Q; discriminate|]. split; [now apply goodb_spec|]. split.
    + intros k J. specialize (B k J). apply orb_prop in B as [B|B]; [left; now apply in_names_spec|right; now apply NF].
    + split; [exact I|]. split; [apply in_names_false; now destruct (in_names n _)|now apply NF].
Qed.

Hypothesis ok : table_ok = true.

Lemma ok_parts : NoDup (map f_name files) /\ (forall f, In f files -> f_name f <> []) /\ (forall f, In f goods -> good_ok f = true) /\
  forall f, In f broken -> failsb [] (f_body f) = true /\ good goods (parent (f_name f)).
Proof.
  pose proof ok as H. unfold table_ok in H. apply andb_prop in H as (H & _). apply andb_prop in H as (H & D). apply andb_prop in H as (H & C). apply andb_prop in H as (A & B).
  rewrite forallb_forall in B, C, D. split; [now apply nodup_mods_spec|]. split; [intros f I; specialize (B f I); now destruct (f_name f)|]. split; [exact C|].
  intros f I. specialize (D f I). apply andb_prop in D as (D1 & D2). split; [exact D1|now apply goodb_spec].
Qed.

Lemma hyp_flags : forall f, In f files -> parent (f_name f) = [] \/ is_package files (parent (f_name f)) = true.
Proof.
  intros f I. pose proof ok as H. unfold table_ok in H. apply andb_prop in H as (_ & H). rewrite forallb_forall in H. specialize (H f I). destruct (parent (f_name f)); [now left|now right].
Qed.

Lemma good_parts : forall f, In f goods -> (forall p, In p (prefixes (f_name f)) -> good goods p) /\ fine_all [] (f_body f) = true /\ (forall s, In s (f_body f) -> import_ok f s = true) /\
  NoDup (bound (f_body f)) /\ (forall s, In s (f_body f) -> plain_ok s = true) /\ (forall g, In g files -> child_ok f g = true).
Proof.
  intros f I. destruct ok_parts as (_ & _ & C & _). specialize (C f I). unfold good_ok in C. repeat (apply andb_prop in C as (C & ?)).
  rewrite forallb_forall in *. repeat split; auto; [intros p J; apply goodb_spec; auto|now apply nodup_names_spec].
Qed.

Lemma hyp_imports : forall f s t, In f goods -> In s (f_body f) -> target s = Some t -> external files t = false ->
  good goods t /\ rank goods t < rank goods (f_name f) /\ forall p, In p (prefixes t) -> rank goods p < rank goods (f_name f) \/ In p (prefixes (f_name f)).
Proof.
  intros f s t I J E X. destruct (good_parts f I) as (_ & _ & H & _). specialize (H s J). unfold import_ok in H. rewrite E, X in H. cbn in H.
  apply andb_prop in H as (A & H). apply andb_prop in H as (B & H). split; [now apply goodb_spec|]. split; [now apply Nat.ltb_lt|]. intros p P. rewrite forallb_forall in H.
  specialize (H p P). apply orb_prop in H as [H|H]; [left; now apply Nat.ltb_lt|right]. apply existsb_exists in H as (q & Q & W). apply mod_eqb_eq in W. now subst.
Qed.

Lemma hyp_taken : forall f t names n, In f goods -> In (SFrom t names) (f_body f) -> external files t = false -> In n names -> In n (bound (body goods broken t)).
Proof.
  intros f t names n I J X N. destruct (good_parts f I) as (_ & H & _). apply in_split in J as (a & b & E). destruct (fine_all_spec _ [] H a _ b E) as [Q|(_ & Q)]; [|now apply Q].
  change (external files t = true) in Q. congruence.
Qed.

Lemma hyp_used : forall f pre names post n, In f goods -> f_body f = pre ++ SUse names :: post -> In n names -> In n (bound pre).
Proof. intros f pre names post n I E N. destruct (good_parts f I) as (_ & H & _). exact (fine_all_spec _ [] H pre _ post E n N). Qed.

Lemma hyp_plain : forall f t, In f goods -> In (SImport t None) (f_body f) -> t <> [].
Proof. intros f t I J ->. destruct (good_parts f I) as (_ & _ & _ & _ & H & _). specialize (H _ J). discriminate. Qed.

Lemma hyp_children : forall f g s, In f goods -> In g files -> parent (f_name g) = f_name f -> In s (f_body f) -> In (last (f_name g) "") (names_of s) ->
  target s = Some (f_name g).
Proof.
  intros f g s I J E K N. destruct (good_parts f I) as (_ & _ & _ & _ & _ & H). specialize (H g J). unfold child_ok in H. rewrite E, mod_eqb_refl in H. rewrite forallb_forall in H.
  specialize (H s K). apply in_names_spec in N. rewrite N in H. destruct (target s) as [t|]; [|discriminate]. apply mod_eqb_eq in H. now subst.
Qed.

Lemma hyp_failing : forall f, In f broken -> fails_at goods broken f.
Proof.
  intros f I. destruct ok_parts as (_ & _ & _ & D). destruct (D f I) as (D1 & _). destruct (failsb_spec (f_body f) [] D1) as (a & t & names & b & n & E & R). now exists a, t, names, b, n.
Qed.
End Check.

(** *** The table *)

Lemma table_checked : table_ok modules broken_scripts = true.
Proof. vm_compute. reflexivity. Qed.

Definition main_bodies_ok (f : file) : bool :=
  fine_all modules broken_scripts [] (f_body f ++ f_main f) && forallb (fun n => in_names n (bound (f_body f ++ f_main f))) (f_globals f).

Lemma scripts_checked : forallb main_bodies_ok (modules ++ test_files) = true.
Proof. vm_compute. reflexivity. Qed.

(** Files whose functions read variables of the block for [__name__ == '__main__']. *)
Definition main_readers : list (modname * string) :=
  [ (["kaon_production"; "fit_ff_iterative_pipeline"], "path_to_reports"); (["kaon_production"; "fit_ff_other_models"], "path_to_reports");
    (["nucleon_production"; "fit_cs_iterative_pipeline"], "path_to_reports") ].

Definition closed_b (f : file) : bool := forallb (fun n => in_names n (bound (f_body f))) (f_globals f).
Definition reader_ok (f : file) : bool :=
  match find (fun r => mod_eqb (fst r) (f_name f)) main_readers with
  | None => closed_b f
  | Some r => in_names (snd r) (f_globals f) && negb (in_names (snd r) (bound (f_body f))) && no_file modules broken_scripts (f_name f ++ [snd r])
  end.

Lemma readers_checked : forallb reader_ok modules = true.
Proof. vm_compute. reflexivity. Qed.

(** Where the name a module takes from another comes from. *)
Fixpoint origin (depth : nat) (m : modname) (n : string) : option modname :=
  match depth, find_file sources m with
  | S depth, Some f =>
      match find (fun s => in_names n (names_of s)) (f_body f) with
      | Some (SBind _) => Some m
      | Some (SFrom t _) => if external sources t then None else origin depth t n
      | _ => None
      end
  | _, _ => None
  end.

Definition origins_ok (f : file) : bool :=
  forallb (fun s => match s with
                    | SFrom t names => orb (external sources t) (forallb (fun n => match origin 5 t n with Some _ => true | None => false end) names)
                    | _ => true
                    end) (f_body f ++ f_main f).

Lemma origins_checked : forallb origins_ok (modules ++ test_files) = true.
Proof. vm_compute. reflexivity. Qed.

Lemma find_in_sources : forall m f, find_file sources m = Some f -> In f sources /\ f_name f = m.
Proof.
  intros m f. unfold find_file. induction sources as [|g l IH]; cbn; [discriminate|]. destruct (mod_eqb m (f_name g)) eqn:E.
  - intros Q. injection Q as <-. apply mod_eqb_eq in E. split; [now left|congruence].
  - intros Q. destruct (IH Q). split; [now right|assumption].
Qed.

Lemma origin_spec : forall d m n o, origin d m n = Some o -> denotes sources m n (VObject o n) /\ exists f, In f sources /\ f_name f = o /\ In (SBind n) (f_body f).
Proof.
  induction d as [|d IH]; intros m n o H; [discriminate|]. cbn [origin] in H. destruct (find_file sources m) as [f|] eqn:F; [|discriminate].
  destruct (find_in_sources _ _ F) as (I & N). destruct (find _ (f_body f)) as [s|] eqn:S; [|discriminate]. apply find_some in S as (J & E). apply in_names_spec in E.
  destruct s as [t a|t names|names|k]; try discriminate.
  - destruct (external sources t); [discriminate|]. destruct (IH t n o H) as (D & R). split; [|exact R]. rewrite <- N. now apply (D_from sources f t names).
  - injection H as <-. destruct E as [-> |[]]. rewrite <- N. split; [now constructor|now exists f].
Qed.

Ltac from_table :=
  first [ assumption | exact (hyp_imports _ _ table_checked) | exact (hyp_taken _ _ table_checked) | exact (hyp_used _ _ table_checked)
        | exact (hyp_plain _ _ table_checked) | exact (hyp_flags _ _ table_checked) | exact (hyp_children _ _ table_checked) | exact (hyp_failing _ _ table_checked)
        | exact (fun g p J => proj1 (good_parts _ _ table_checked g J) p) | exact (fun g J => proj1 (proj2 (proj2 (proj2 (good_parts _ _ table_checked g J)))))
        | exact (fun g J => proj2 (proj2 (proj2 (proj2 (ok_parts _ _ table_checked))) g J))
        | exact (proj1 (ok_parts _ _ table_checked)) | exact (proj1 (proj2 (ok_parts _ _ table_checked))) ].

Lemma main_not_good : ~ good modules main_name.
Proof. intros G. apply goodb_spec in G. vm_compute in G. discriminate. Qed.

Lemma file_of_good : forall m, good modules m -> exists f, In f modules /\ f_name f = m /\ body modules broken_scripts m = f_body f.
Proof.
  intros m (f & I & <-). exists f. split; [exact I|]. split; [reflexivity|]. apply body_of; [from_table|]. apply in_or_app. now left.
Qed.

(** ** C64 *)

(** Whatever has been imported before, and whichever imports have failed: every module is imported, except for three
    scripts, which always fail with ImportError. *)
Theorem C64_import : forall depth st f, 79 <= depth -> reached sources depth st ->
  (In f modules -> fst (import sources depth (f_name f) st) = None /\ loaded (snd (import sources depth (f_name f) st)) (f_name f) = true) /\
  (In f broken_scripts -> fst (import sources depth (f_name f) st) = Some ImportError).
Proof.
  intros depth st f D H. assert (L : S (all modules) < depth) by exact D.
  split; intros I; [apply (import_good modules broken_scripts) with (depth := depth)|apply (import_broken modules broken_scripts) with (depth := depth)]; from_table.
Qed.
Print Assumptions C64_import.

(** What the names of a module that has been imported stand for does not depend on the order of the imports: it is what the
    text says, or, for a name the text of the package does not bind, the module of that name in it. *)
Theorem C64_names : forall depth st m, 79 <= depth -> reached sources depth st -> loaded st m = true ->
  (exists f, In f modules /\ f_name f = m) /\
  (forall n v, denotes sources m n v -> attribute st m n = Some v) /\
  (forall n v, attribute st m n = Some v -> denotes sources m n v \/ v = VModule (m ++ [n]) /\ exists g, In g sources /\ f_name g = m ++ [n]).
Proof.
  intros depth st m D H LD. assert (L : S (all modules) < depth) by exact D.
  destruct (names_values modules broken_scripts) with (depth := depth) (st := st) (m := m) as (G & A & B & _); try from_table.
  split; [destruct (file_of_good m G) as (f & I & N & _); now exists f|]. now split.
Qed.
Print Assumptions C64_names.

(** What a file takes by name from a module of the repository is never a module: it is the function, class or value of
    that name which one of the files defines, whichever modules have been imported. *)
Theorem C64_objects : forall f t names n, In f (modules ++ test_files) -> In (SFrom t names) (f_body f ++ f_main f) -> external sources t = false -> In n names ->
  exists g, In g sources /\ In (SBind n) (f_body g) /\
    forall depth st, 79 <= depth -> reached sources depth st -> loaded st t = true -> attribute st t n = Some (VObject (f_name g) n).
Proof.
  intros f t names n I J X N. pose proof origins_checked as C. rewrite forallb_forall in C. specialize (C f I). unfold origins_ok in C. rewrite forallb_forall in C.
  specialize (C _ J). cbn beta iota in C. rewrite X in C. rewrite orb_false_l, forallb_forall in C. specialize (C n N). destruct (origin 5 t n) as [o|] eqn:O; [|discriminate].
  destruct (origin_spec _ _ _ _ O) as (D & g & G & <- & B). exists g. split; [exact G|]. split; [exact B|]. intros depth st L R LD.
  now apply (proj1 (proj2 (C64_names depth st t L R LD))).
Qed.
Print Assumptions C64_objects.

(** The functions of a module that has been imported find every global name they read, except in three scripts. *)
Theorem C64_functions : forall depth st f, 79 <= depth -> reached sources depth st -> In f modules -> loaded st (f_name f) = true ->
  (~ In (f_name f) (map fst main_readers) -> forall n, In n (f_globals f) -> has st (f_name f) n = true) /\
  (In (f_name f) (map fst main_readers) -> exists n, In n (f_globals f) /\ has st (f_name f) n = false).
Proof.
  intros depth st f D H I LD. assert (L : S (all modules) < depth) by exact D.
  destruct (names_values modules broken_scripts) with (depth := depth) (st := st) (m := f_name f) as (G & A & B & E); try from_table.
  rewrite body_of in E; [|from_table|apply in_or_app; now left].
  pose proof readers_checked as C. rewrite forallb_forall in C. specialize (C f I). unfold reader_ok in C.
  destruct (find _ main_readers) as [r|] eqn:F.
  - apply find_some in F as (Ir & Er). apply mod_eqb_eq in Er. split; [intros NI; exfalso; apply NI; rewrite <- Er; now apply in_map|]. intros _.
    apply andb_prop in C as (C & C3). apply andb_prop in C as (C1 & C2). exists (snd r). split; [now apply in_names_spec|].
    unfold has. destruct (attribute st (f_name f) (snd r)) as [v|] eqn:Q; [|reflexivity]. exfalso. destruct (B _ _ Q) as [DN|(-> & g & Ig & Ng)].
    + assert (K : In (snd r) (bound (f_body f))).
      { assert (SF : forall g, In g sources -> f_name g = f_name f -> g = f) by (intros g Ig Ng; apply (same_file modules broken_scripts); [from_table|exact Ig|apply in_or_app; now left|exact Ng]).
        inversion DN as [g n' Ig Js E1 E2|g t' x' n' Ig Js EX E1 E2|g top' t' Ig Js E1 E2|g t' names' n' Ig Js Jn X' E1 E2|g t' names' n' v' Ig Js Jn DD E1 E2]; subst;
          rewrite (SF g Ig E1) in *; apply in_flat_map; eexists; (split; [exact Js|]); cbn; auto. }
      apply in_names_spec in K. rewrite K in C2. discriminate.
    + unfold no_file in C3. destruct (find_file (modules ++ broken_scripts) (f_name f ++ [snd r])) eqn:FF; [discriminate|]. rewrite <- Ng in FF. unfold find_file in FF.
      rewrite find_in_complete in FF; [discriminate|from_table|exact Ig].
  - split.
    + intros _ n N. unfold closed_b in C. rewrite forallb_forall in C. specialize (C n N). apply in_names_spec in C. destruct (E n C) as (v & Q & _). now apply has_of in Q.
    + intros K. exfalso. apply in_map_iff in K as (r & Er & Ir). pose proof (find_none _ _ F r Ir) as Q. cbn in Q. rewrite Er, mod_eqb_refl in Q. discriminate.
Qed.
Print Assumptions C64_functions.

(** A file that is run: neither its imports nor the global names of its top level, of its main block and of its functions
    fail, except for the three scripts. *)
Theorem C64_run : forall depth st f, 79 <= depth -> reached sources depth st ->
  (In f (modules ++ test_files) -> exists st', run sources depth f st = (None, st') /\ forall n, In n (f_globals f) -> has st' main_name n = true) /\
  (In f broken_scripts -> fst (run sources depth f st) = Some ImportError).
Proof.
  intros depth st f D H. assert (L : S (all modules) < depth) by exact D. split; intros I.
  - pose proof scripts_checked as C. rewrite forallb_forall in C. specialize (C f I). unfold main_bodies_ok in C. apply andb_prop in C as (C1 & C2).
    destruct (run_ok modules broken_scripts) with (depth := depth) (st := st) (f := f) as (st' & E & N); try from_table; try exact main_not_good.
    + exact (fine_all_spec modules broken_scripts _ [] C1).
    + exists st'. split; [exact E|]. intros n J. apply N. rewrite forallb_forall in C2. apply in_names_spec. now apply C2.
  - apply (run_broken modules broken_scripts) with (depth := depth); try from_table. exact main_not_good.
Qed.
Print Assumptions C64_run.

(** The files ask for nothing that is not there: an import names a file of the repository, a module of the standard library or
    a package of requirements.txt.  The packages are exactly the directories with files in them. *)
Definition standard_library : list string :=
  ["abc"; "cmath"; "collections"; "configparser"; "csv"; "math"; "multiprocessing"; "os"; "random"; "typing"; "unittest"].
Definition requirements : list string := ["matplotlib"; "numpy"; "scipy"].

Definition asks_ok (s : stmt) : bool :=
  match target s with
  | None => true
  | Some m => if existsb (fun f => mod_eqb (f_name f) m) sources then true else in_names (hd "" m) (standard_library ++ requirements)
  end.
Lemma asks_checked : forallb (fun f => forallb asks_ok (f_body f ++ f_main f)) (sources ++ test_files) = true.
Proof. vm_compute. reflexivity. Qed.
Lemma packages_checked : forallb (fun f => Bool.eqb (f_package f) (existsb (fun g => mod_eqb (parent (f_name g)) (f_name f)) (sources ++ test_files))) (sources ++ test_files) = true.
Proof. vm_compute. reflexivity. Qed.

Theorem C64_installed : forall f, In f (sources ++ test_files) ->
  (forall s m, In s (f_body f ++ f_main f) -> (exists alias, s = SImport m alias) \/ (exists names, s = SFrom m names) ->
     (exists g, In g sources /\ f_name g = m) \/ In (hd "" m) standard_library \/ In (hd "" m) requirements) /\
  (f_package f = true <-> exists g, In g (sources ++ test_files) /\ parent (f_name g) = f_name f).
Proof.
  intros f I. split.
  - intros s m J T. pose proof asks_checked as C. rewrite forallb_forall in C. specialize (C f I). rewrite forallb_forall in C. specialize (C s J). unfold asks_ok in C.
    assert (E : target s = Some m) by (destruct T as [(a & ->)|(a & ->)]; reflexivity). rewrite E in C. destruct (existsb _ sources) eqn:X.
    + left. apply existsb_exists in X as (g & G & Q). exists g. split; [exact G|now apply mod_eqb_eq].
    + right. apply in_names_spec in C. apply in_app_or in C. exact C.
  - pose proof packages_checked as C. rewrite forallb_forall in C. specialize (C f I). apply Bool.eqb_prop in C. rewrite C, existsb_exists. split.
    + intros (g & G & Q). exists g. split; [exact G|now apply mod_eqb_eq].
    + intros (g & G & Q). exists g. split; [exact G|]. rewrite Q. apply mod_eqb_refl.
Qed.
Print Assumptions C64_installed.

(** Two orders, one with a failed import in between: the package model_parameters has the class KaonParameters, not the
    module of that name; the package ua_model, which takes no names, has the module. *)
Example C64_instance :
  let a := snd (import sources 100 ["model_parameters"; "KaonParameters"] (snd (import sources 100 ["kaon_production"; "fit_cs_pipeline_withneutralkaons_simplified"] []))) in
  let b := snd (import sources 100 ["task"; "kaon_cross_section_tasks"] (snd (import sources 100 ["ua_model"; "KaonUAModel"] []))) in
  reached sources 100 a /\ reached sources 100 b /\
  loaded a ["kaon_production"; "fit_cs_pipeline_withneutralkaons_simplified"] = false /\ loaded a ["kaon_production"; "data"] = true /\
  attribute a ["model_parameters"] "KaonParameters" = Some (VObject ["model_parameters"; "KaonParameters"] "KaonParameters") /\
  attribute b ["model_parameters"] "KaonParameters" = Some (VObject ["model_parameters"; "KaonParameters"] "KaonParameters") /\
  attribute b ["ua_model"] "KaonUAModel" = Some (VModule ["ua_model"; "KaonUAModel"]) /\
  attribute b ["task"; "kaon_cross_section_tasks"] "no_such_name" = None.
Proof.
  cbv zeta. split; [do 2 apply R_import; apply R_start|]. split; [do 2 apply R_import; apply R_start|]. vm_compute. repeat split; reflexivity.
Qed.
