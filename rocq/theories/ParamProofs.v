(** Lemmas on the parameter stores. *)
From Coq Require Import Reals String List Bool Arith Lia Lra Permutation.
From Verif Require Import PyBase CNum PyExpr ExprProofs KaonProofs KaonSpec Params ParamClasses.
Import ListNotations.
Open Scope list_scope.
Open Scope R_scope.
Open Scope py_scope.

(** ** Vocabulary *)

Definition names (d : data) : list string := map par_name d.
Definition is_free (p : Par) : bool := negb (par_fixed p).
Definition count_free (d : data) : nat := length (filter is_free d).

Lemma str_in_In : forall s l, str_in s l = true <-> In s l.
Proof.
  induction l as [|x l IH]; simpl; [split; [discriminate|tauto]|].
  destruct (String.eqb_spec x s) as [->|N].
  - split; auto.
  - rewrite IH. split; [tauto|]. intros [E|I]; [contradiction|assumption].
Qed.

Lemma str_in_not : forall s l, str_in s l = false <-> ~ In s l.
Proof.
  intros s l. rewrite <- str_in_In. destruct (str_in s l); split; intros H; congruence.
Qed.

(** ** find and set_nth *)

Lemma find_from_spec : forall n d i,
  (forall j p, find_from i d n = Ok (j, p) ->
     exists pre post, d = pre ++ p :: post /\ j = (i + length pre)%nat /\ par_name p = n /\ ~ In n (names pre)) /\
  (forall e, find_from i d n = Err e -> e = KeyError /\ ~ In n (names d)).
Proof.
  intros n. induction d as [|q d IH]; intros i; simpl.
  - split; [discriminate|]. intros e H. injection H as <-. tauto.
  - destruct (String.eqb_spec (par_name q) n) as [E|N].
    + split; [|discriminate]. intros j p H. injection H as <- <-.
      exists [], d. simpl. split; [reflexivity|]. split; [lia|]. auto.
    + destruct (IH (S i)) as [IH1 IH2]. split.
      * intros j p H. destruct (IH1 _ _ H) as [pre [post [-> [-> [E NI]]]]].
        exists (q :: pre), post. simpl. split; [reflexivity|]. split; [lia|]. split; [exact E|].
        intros [C|C]; [contradiction|auto].
      * intros e H. destruct (IH2 _ H) as [-> NI]. split; [reflexivity|]. intros [C|C]; auto.
Qed.

Lemma set_nth_split : forall pre p post q, set_nth (pre ++ p :: post) (length pre) q = pre ++ q :: post.
Proof. induction pre as [|x pre IH]; intros p post q; simpl; [reflexivity|]. now rewrite IH. Qed.

Lemma find_known : forall d n, In n (names d) ->
  exists pre p post, d = pre ++ p :: post /\ par_name p = n /\ ~ In n (names pre) /\
    find d n = Ok (length pre, p) /\ forall q, set_nth d (length pre) q = pre ++ q :: post.
Proof.
  intros d n H. unfold find. destruct (find_from_spec n d 0) as [F1 F2].
  destruct (find_from 0 d n) as [[j p]|e] eqn:E.
  - destruct (F1 j p eq_refl) as [pre [post [-> [-> [Ep NI]]]]].
    exists pre, p, post. repeat split; auto. intros q. apply set_nth_split.
  - destruct (F2 e eq_refl) as [_ C]. contradiction.
Qed.

Lemma find_unknown : forall d n, ~ In n (names d) -> find d n = Err KeyError.
Proof.
  intros d n H. unfold find. destruct (find_from_spec n d 0) as [F1 F2].
  destruct (find_from 0 d n) as [[j p]|e].
  - destruct (F1 j p eq_refl) as [pre [post [-> [_ [Ep _]]]]].
    exfalso. apply H. unfold names. rewrite map_app. apply in_or_app. right. left. assumption.
  - destruct (F2 e eq_refl) as [-> _]. reflexivity.
Qed.

Lemma find_cases : forall d n,
  (~ In n (names d) /\ find d n = Err KeyError) \/
  (exists pre p post, d = pre ++ p :: post /\ par_name p = n /\ ~ In n (names pre) /\
    find d n = Ok (length pre, p) /\ forall q, set_nth d (length pre) q = pre ++ q :: post).
Proof.
  intros d n. destruct (in_dec string_dec n (names d)) as [I|I].
  - right. now apply find_known.
  - left. split; [assumption|]. now apply find_unknown.
Qed.

Lemma names_app : forall a b, names (a ++ b) = names a ++ names b.
Proof. intros. apply map_app. Qed.

Lemma names_replace : forall pre p q post, par_name q = par_name p ->
  names (pre ++ q :: post) = names (pre ++ p :: post).
Proof. intros. rewrite !names_app. simpl. now rewrite H. Qed.

(** A replacement of the only element named [n], as a pointwise update. *)
Lemma upd_split : forall n (f : Par -> Par) pre p post, NoDup (names (pre ++ p :: post)) -> par_name p = n ->
  map (fun x => if String.eqb (par_name x) n then f x else x) (pre ++ p :: post) = pre ++ f p :: post.
Proof.
  intros n f pre p post ND E. rewrite names_app in ND. simpl in ND. apply NoDup_remove_2 in ND.
  rewrite map_app. simpl. rewrite E, String.eqb_refl.
  assert (Id : forall l, ~ In n (names l) ->
             map (fun x => if String.eqb (par_name x) n then f x else x) l = l).
  { induction l as [|x l IH]; intros NI; simpl; [reflexivity|].
    destruct (String.eqb_spec (par_name x) n) as [C|C].
    - exfalso. apply NI. now left.
    - rewrite IH; [reflexivity|]. intros C'. apply NI. now right. }
  rewrite E in ND. rewrite !Id; [reflexivity| |]; intros C; apply ND; apply in_or_app; tauto.
Qed.

(** ** Effect of the single methods *)

Definition with_flag (b : bool) (p : Par) : Par := mkPar (par_name p) (par_value p) b.
Definition with_value (v : R) (p : Par) : Par := mkPar (par_name p) v (par_fixed p).

Lemma with_flag_name : forall b p, par_name (with_flag b p) = par_name p. Proof. reflexivity. Qed.

Lemma set_value_known : forall d n v, NoDup (names d) -> In n (names d) ->
  set_value n v d = (Ok tt, map (fun p => if String.eqb (par_name p) n then with_value v p else p) d).
Proof.
  intros d n v ND I. unfold set_value. destruct (find_known d n I) as [pre [p [post [-> [E [NI [F S]]]]]]].
  rewrite F, S. rewrite (upd_split n (with_value v)) by assumption. unfold with_value. now rewrite E.
Qed.

Lemma set_value_unknown : forall d n v, ~ In n (names d) -> set_value n v d = (Err KeyError, d).
Proof. intros d n v H. unfold set_value. now rewrite find_unknown. Qed.

Lemma set_flags_app : forall b l1 l2 d d1, set_flags b l1 d = (Ok tt, d1) ->
  set_flags b (l1 ++ l2) d = set_flags b l2 d1.
Proof.
  induction l1 as [|n l1 IH]; intros l2 d d1 H; simpl in *; [congruence|].
  destruct (find d n) as [[i p]|e]; [|discriminate]. now apply IH.
Qed.

Lemma names_flags : forall b l d, names (map (fun p => if str_in (par_name p) l then with_flag b p else p) d) = names d.
Proof.
  intros b l d. unfold names. rewrite map_map. apply map_ext. intros p. now destruct (str_in (par_name p) l).
Qed.

Lemma set_flags_known : forall b l d, NoDup (names d) -> (forall n, In n l -> In n (names d)) ->
  set_flags b l d = (Ok tt, map (fun p => if str_in (par_name p) l then with_flag b p else p) d).
Proof.
  induction l as [|n l IH]; intros d ND H; simpl.
  - f_equal. symmetry. rewrite map_id. reflexivity.
  - destruct (find_known d n (H n (or_introl eq_refl))) as [pre [p [post [Ed [E [NI [F S]]]]]]].
    rewrite F, S. fold (with_flag b p).
    rewrite Ed in ND. rewrite <- (upd_split n (with_flag b) pre p post ND E). rewrite <- Ed.
    rewrite <- Ed in ND.
    assert (Nm : names (map (fun x => if String.eqb (par_name x) n then with_flag b x else x) d) = names d).
    { unfold names. rewrite map_map. apply map_ext. intros x. now destruct (String.eqb (par_name x) n). }
    rewrite IH.
    + f_equal. rewrite map_map. apply map_ext. intros x. rewrite (String.eqb_sym n).
      destruct (String.eqb (par_name x) n); simpl; [|reflexivity].
      destruct (str_in (par_name x) l); reflexivity.
    + now rewrite Nm.
    + rewrite Nm. intros m Hm. apply H. now right.
Qed.

Lemma set_flags_unknown : forall b pre n post d, NoDup (names d) ->
  (forall m, In m pre -> In m (names d)) -> ~ In n (names d) ->
  set_flags b (pre ++ n :: post) d =
  (Err KeyError, map (fun p => if str_in (par_name p) pre then with_flag b p else p) d).
Proof.
  intros b pre n post d ND K U. rewrite (set_flags_app b pre (n :: post) d _ (set_flags_known b pre d ND K)).
  simpl. rewrite find_unknown; [reflexivity|]. now rewrite names_flags.
Qed.

(** First unknown name of a list. *)
Lemma first_unknown : forall (d : data) l, (forall n, In n l -> In n (names d)) \/
  exists pre n post, l = pre ++ n :: post /\ (forall m, In m pre -> In m (names d)) /\ ~ In n (names d).
Proof.
  intros d. induction l as [|n l IH]; [left; intros n []|].
  destruct (in_dec string_dec n (names d)) as [I|I].
  - destruct IH as [K|[pre [m [post [-> [K U]]]]]].
    + left. intros m [->|H]; auto.
    + right. exists (n :: pre), m, post. repeat split; auto. intros x [->|H]; auto.
  - right. exists [], n, l. repeat split; auto. intros m [].
Qed.

Lemma set_flags_names : forall b l d, NoDup (names d) -> names (snd (set_flags b l d)) = names d.
Proof.
  intros b l d ND. destruct (first_unknown d l) as [K|[pre [n [post [-> [K U]]]]]].
  - rewrite set_flags_known by assumption. apply names_flags.
  - rewrite set_flags_unknown by assumption. apply names_flags.
Qed.

Lemma fix_all_names : forall d, names (fix_all d) = names d.
Proof. intros d. unfold fix_all, names. rewrite map_map. apply map_ext. reflexivity. Qed.

Lemma release_all_names : forall af d, names (release_all af d) = names d.
Proof.
  intros af d. unfold release_all, names. rewrite map_map. apply map_ext. intros p.
  now destruct (str_in (par_name p) af).
Qed.

(** ** update_free_values *)

(** What it does: the k-th free parameter gets the k-th value. *)
Fixpoint fill (d : data) (vs : list R) : data :=
  match d with
  | [] => []
  | p :: r => if par_fixed p then p :: fill r vs
              else match vs with
                   | [] => p :: r
                   | v :: vr => with_value v p :: fill r vr
                   end
  end.

Lemma length_enum : forall d i,
  length (filter (fun ip => negb (par_fixed (snd ip))) (enumerate_from i d)) = count_free d.
Proof.
  unfold count_free, is_free. induction d as [|p d IH]; intros i; simpl; [reflexivity|].
  destruct (par_fixed p); simpl; [apply IH|f_equal; apply IH].
Qed.

Lemma update_fold : forall d pre vs,
  length vs = count_free d ->
  fold_left (fun d' ipv => let '((i, p), v) := ipv in
                           set_nth d' i (mkPar (par_name p) v (par_fixed p)))
    (combine (filter (fun ip => negb (par_fixed (snd ip))) (enumerate_from (length pre) d)) vs) (pre ++ d)
  = pre ++ fill d vs.
Proof.
  unfold count_free, is_free. induction d as [|p d IH]; intros pre vs L; simpl; [now rewrite app_nil_r|].
  simpl in L. destruct (par_fixed p) eqn:F; simpl in *.
  - specialize (IH (pre ++ [p]) vs L). rewrite app_length in IH. simpl in IH.
    rewrite Nat.add_1_r, <- app_assoc in IH. simpl in IH. rewrite IH, <- app_assoc. reflexivity.
  - destruct vs as [|v vs]; [discriminate|]. simpl in L. injection L as L. simpl.
    rewrite set_nth_split. specialize (IH (pre ++ [mkPar (par_name p) v (par_fixed p)]) vs L).
    rewrite app_length in IH. simpl in IH. rewrite Nat.add_1_r, <- app_assoc in IH. simpl in IH.
    rewrite IH, <- app_assoc. reflexivity.
Qed.

Lemma update_free_ok : forall d vs, length vs = count_free d ->
  update_free_values vs d = (Ok tt, fill d vs).
Proof.
  intros d vs L. unfold update_free_values. rewrite length_enum, L, Nat.eqb_refl. simpl.
  f_equal. exact (update_fold d [] vs L).
Qed.

Lemma update_free_bad : forall d vs, length vs <> count_free d ->
  update_free_values vs d = (Err ValueError, d).
Proof.
  intros d vs L. unfold update_free_values. rewrite length_enum.
  destruct (Nat.eqb_spec (count_free d) (length vs)); [exfalso; congruence|reflexivity].
Qed.

Lemma fill_names : forall d vs, names (fill d vs) = names d.
Proof.
  induction d as [|p d IH]; intros vs; simpl; [reflexivity|].
  destruct (par_fixed p); simpl; [now rewrite IH|]. destruct vs; simpl; [reflexivity|now rewrite IH].
Qed.

Lemma fill_flags : forall d vs, map par_fixed (fill d vs) = map par_fixed d.
Proof.
  induction d as [|p d IH]; intros vs; simpl; [reflexivity|].
  destruct (par_fixed p) eqn:F; simpl; [now rewrite IH, F|].
  destruct vs; simpl; [now rewrite F|now rewrite IH, F].
Qed.

Lemma fill_free : forall d vs, length vs = count_free d -> get_free_values (fill d vs) = vs.
Proof.
  unfold count_free, is_free, get_free_values. induction d as [|p d IH]; intros vs L; simpl in *.
  - now destruct vs.
  - destruct (par_fixed p) eqn:F; simpl in *.
    + rewrite F. simpl. now apply IH.
    + destruct vs as [|v vs]; [discriminate|]. simpl. rewrite F. simpl. f_equal. apply IH. simpl in L. congruence.
Qed.

Lemma fill_fixed : forall d vs, Forall2 (fun p q => par_fixed p = true -> q = p) d (fill d vs).
Proof.
  induction d as [|p d IH]; intros vs; simpl; [constructor|].
  destruct (par_fixed p) eqn:F.
  - constructor; auto.
  - destruct vs.
    + constructor; [congruence|]. clear IH. induction d; constructor; auto.
    + constructor; [congruence|auto].
Qed.

Lemma fill_self : forall d, fill d (get_free_values d) = d.
Proof.
  unfold get_free_values. induction d as [|p d IH]; simpl; [reflexivity|].
  destruct (par_fixed p) eqn:F; simpl; [now rewrite IH|]. unfold with_value.
  rewrite IH. f_equal. now destruct p.
Qed.

Lemma update_free_snd : forall vs d, snd (update_free_values vs d) = d \/
  exists ws, snd (update_free_values vs d) = fill d ws.
Proof.
  intros vs d. destruct (Nat.eq_dec (length vs) (count_free d)) as [E|E].
  - right. exists vs. now rewrite update_free_ok.
  - left. now rewrite update_free_bad.
Qed.

(** ** Properties of the class tables, checked by computation *)

Definition eqb_list (a b : list string) : bool := if list_eq_dec string_dec a b then true else false.

Lemma eqb_list_eq : forall a b, eqb_list a b = true -> a = b.
Proof. intros a b. unfold eqb_list. destruct (list_eq_dec string_dec a b); [auto|discriminate]. Qed.

Definition set_name (s : string * string * bool) : string := fst (fst s).

(** The names listed by the class; used to state properties below. *)
Definition class_names (c : param_class) : list string := map set_name (ct_setup (table c)).

Definition b_names (b : bexp) : list string :=
  match b with BValue n => [n] | BSqrt n => [n] | _ => [] end.

Definition table_ok (ct : ClassTable) : bool :=
  let ns := map set_name (ct_setup ct) in
  nodupb ns &&
  eqb_list (ct_formals ct) ns && eqb_list (ct_super_args ct) ns && eqb_list (ct_setup_formals ct) ns &&
  eqb_list (map (fun s => snd (fst s)) (ct_setup ct)) ns &&
  forallb (fun n => mem n ns) (ct_always_fixed ct) &&
  forallb (fun s => implb (str_in (set_name s) (ct_always_fixed ct)) (snd s)) (ct_setup ct) &&
  match ct_fix_resonances ct with
  | Some l => forallb (fun n => mem n ns) l
  | None => true
  end &&
  match ct_from_ordered ct with
  | Some fo =>
      eqb_list (fo_names fo) (ct_ordered ct) &&
      perm_check (fo_names fo ++ map set_name (fo_constants fo)) ns &&
      eqb_list (map set_name (fo_constants fo)) (fo_formals fo) &&
      eqb_list (map (fun s => snd (fst s)) (fo_constants fo)) (fo_formals fo) &&
      forallb (fun s => snd s) (fo_constants fo)
  | None => true
  end &&
  forallb (fun n => mem n ns) (ct_ordered ct).

Lemma tables_ok : forall c, table_ok (table c) = true.
Proof. destruct c; vm_compute; reflexivity. Qed.

Section OneClass.
Variable ct : ClassTable.
Hypothesis OK : table_ok ct = true.

Let ns := map set_name (ct_setup ct).

Lemma ct_facts :
  NoDup ns /\ ct_formals ct = ns /\ ct_super_args ct = ns /\ ct_setup_formals ct = ns /\
  map (fun s => snd (fst s)) (ct_setup ct) = ns /\
  (forall n, In n (ct_always_fixed ct) -> In n ns) /\
  (forall s, In s (ct_setup ct) -> In (set_name s) (ct_always_fixed ct) -> snd s = true) /\
  (forall l, ct_fix_resonances ct = Some l -> forall n, In n l -> In n ns) /\
  (forall fo, ct_from_ordered ct = Some fo ->
     fo_names fo = ct_ordered ct /\
     Permutation (fo_names fo ++ map set_name (fo_constants fo)) ns /\
     map set_name (fo_constants fo) = fo_formals fo /\
     map (fun s => snd (fst s)) (fo_constants fo) = fo_formals fo /\
     (forall s, In s (fo_constants fo) -> snd s = true)) /\
  (forall n, In n (ct_ordered ct) -> In n ns).
Proof.
  assert (O := OK). unfold table_ok in O. fold ns in O.
  repeat (apply andb_prop in O; let H := fresh "K" in destruct O as [O H]).
  rename K into K10. repeat split; fold ns.
  - now apply nodupb_NoDup.
  - now apply eqb_list_eq.
  - now apply eqb_list_eq.
  - now apply eqb_list_eq.
  - now apply eqb_list_eq.
  - intros n H. rewrite forallb_forall in K3. apply mem_In. now apply K3.
  - intros s H I. rewrite forallb_forall in K2. specialize (K2 s H).
    apply str_in_In in I. rewrite I in K2. exact K2.
  - intros l E. rewrite E in K1. rewrite forallb_forall in K1. intros n H. apply mem_In. auto.
  - rewrite H in K0. repeat (apply andb_prop in K0; let G := fresh "G" in destruct K0 as [K0 G]).
    now apply eqb_list_eq.
  - rewrite H in K0. repeat (apply andb_prop in K0; let G := fresh "G" in destruct K0 as [K0 G]).
    now apply perm_check_ok.
  - rewrite H in K0. repeat (apply andb_prop in K0; let G := fresh "G" in destruct K0 as [K0 G]).
    now apply eqb_list_eq.
  - rewrite H in K0. repeat (apply andb_prop in K0; let G := fresh "G" in destruct K0 as [K0 G]).
    now apply eqb_list_eq.
  - intros s Hs. rewrite H in K0. repeat (apply andb_prop in K0; let G := fresh "G" in destruct K0 as [K0 G]).
    rewrite forallb_forall in G. now apply G.
  - intros n H. rewrite forallb_forall in K10. apply mem_In. now apply K10.
Qed.

(** *** Construction *)

Lemma mapM_local : forall V (args : env V) (f : string -> V) l,
  (forall n, In n l -> lookup args n = Some (f n)) -> mapM (local args) l = Ok (map f l).
Proof.
  intros V args f. induction l as [|n l IH]; intros H; simpl; [reflexivity|].
  unfold local at 1. rewrite (H n (or_introl eq_refl)). simpl. rewrite IH; [reflexivity|].
  intros m Hm. apply H. now right.
Qed.

Lemma lookup_combine_map : forall V (f : string -> V) l n, In n l -> lookup (combine l (map f l)) n = Some (f n).
Proof.
  intros V f. induction l as [|x l IH]; intros n H; [contradiction|]. simpl.
  destruct (String.eqb_spec x n) as [->|N]; [reflexivity|]. apply IH. destruct H; [contradiction|assumption].
Qed.

Definition built (kw : env R) : data :=
  map (fun s => mkPar (set_name s) (kwval kw (set_name s)) (snd s)) (ct_setup ct).

Lemma mapM_setup : forall (e : env R) (f : string -> R) l,
  (forall s, In s l -> snd (fst s) = set_name s) ->
  (forall s, In s l -> lookup e (set_name s) = Some (f (set_name s))) ->
  mapM (fun s => let '(n, x, b) := s in v <- local e x ;; Ok (mkPar n v b)) l =
  Ok (map (fun s => mkPar (set_name s) (f (set_name s)) (snd s)) l).
Proof.
  intros e f. induction l as [|[[n x] b] l IH]; intros H1 H2; [reflexivity|].
  assert (E1 := H1 (n, x, b) (or_introl eq_refl)). assert (E2 := H2 (n, x, b) (or_introl eq_refl)).
  unfold set_name in E1, E2. simpl in E1, E2. subst x.
  cbn [mapM]. unfold local at 1. rewrite E2. cbn [bind]. rewrite IH.
  - reflexivity.
  - intros s Hs. apply H1. now right.
  - intros s Hs. apply H2. now right.
Qed.

Lemma map_eq_pointwise : forall A (f g : A -> string) l, map f l = map g l -> forall x, In x l -> f x = g x.
Proof.
  induction l as [|y l IH]; intros H x [].
  - subst. simpl in H. congruence.
  - apply IH; [simpl in H; congruence|assumption].
Qed.

Lemma construct_ok_table : forall kw, Permutation (map fst kw) ns -> construct_table ct kw = Ok (built kw).
Proof.
  intros kw P. destruct ct_facts as [ND [E1 [E2 [E3 [E4 _]]]]].
  unfold construct_table. rewrite E1, E2, E3.
  assert (B : is_ok (bind_kwargs ns kw)) by (apply bind_kwargs_ok_iff; assumption).
  destruct B as [args B]. rewrite B. cbn [bind].
  destruct (bind_kwargs_inv _ _ _ _ B) as [_ [_ F]].
  rewrite (mapM_local R args (kwval kw)).
  2:{ intros n Hn. destruct (F n Hn) as [v [V1 V2]]. unfold kwval. now rewrite V1. }
  cbn [bind]. rewrite map_length, Nat.eqb_refl.
  rewrite (mapM_setup _ (kwval kw)).
  - reflexivity.
  - intros s Hs. exact (map_eq_pointwise _ _ _ _ E4 s Hs).
  - intros s Hs. apply lookup_combine_map. unfold ns. now apply in_map.
Qed.

Lemma construct_err_table : forall kw, ~ Permutation (map fst kw) ns -> construct_table ct kw = Err TypeError.
Proof.
  intros kw P. destruct ct_facts as [ND [E1 _]]. unfold construct_table. rewrite E1.
  destruct (bind_kwargs ns kw) as [a|e] eqn:B.
  - exfalso. apply P. apply (bind_kwargs_ok_iff _ _ _ ND). now exists a.
  - apply bind_kwargs_err in B. now subst.
Qed.

Lemma construct_inv_table : forall kw d, construct_table ct kw = Ok d ->
  Permutation (map fst kw) ns /\ d = built kw.
Proof.
  intros kw d H. assert (P : Permutation (map fst kw) ns).
  { destruct ct_facts as [ND [E1 _]]. unfold construct_table in H. rewrite E1 in H.
    destruct (bind_kwargs ns kw) as [a|e] eqn:B; [|discriminate].
    apply (bind_kwargs_ok_iff _ _ _ ND). now exists a. }
  split; [assumption|]. rewrite construct_ok_table in H by assumption. congruence.
Qed.

(** *** from_list *)

(** The value kept for a name: that of the last entry with this name. *)
Definition last_value (l : list Par) (n : string) : option R :=
  option_map par_value (List.find (fun p => String.eqb (par_name p) n) (rev l)).

Lemma dict_set_lookup : forall V (e : env V) k v n,
  lookup (dict_set e k v) n = if String.eqb k n then Some v else lookup e n.
Proof.
  intros V e k v n. induction e as [|[k' v'] e IH]; simpl.
  - reflexivity.
  - destruct (String.eqb_spec k' k) as [->|N]; simpl.
    + destruct (String.eqb k n); reflexivity.
    + rewrite IH. destruct (String.eqb_spec k' n) as [->|N2]; [|reflexivity].
      destruct (String.eqb_spec k n) as [->|]; [contradiction|reflexivity].
Qed.

Lemma dict_set_keys : forall V (e : env V) k v n,
  In n (map fst (dict_set e k v)) <-> (k = n \/ In n (map fst e)).
Proof.
  intros V e k v n. induction e as [|[k' v'] e IH]; simpl; [tauto|].
  destruct (String.eqb_spec k' k) as [->|N]; simpl; [tauto|]. rewrite IH. tauto.
Qed.

Lemma dict_set_NoDup : forall V (e : env V) k v, NoDup (map fst e) -> NoDup (map fst (dict_set e k v)).
Proof.
  intros V e k v. induction e as [|[k' v'] e IH]; simpl; intros ND.
  - constructor; [tauto|constructor].
  - inversion ND; subst. destruct (String.eqb_spec k' k) as [->|N]; simpl; [assumption|].
    constructor; [|auto]. rewrite dict_set_keys. intros [C|C]; [congruence|contradiction].
Qed.

Lemma dict_of_snoc : forall l p, dict_of (l ++ [p]) = dict_set (dict_of l) (par_name p) (par_value p).
Proof. intros l p. unfold dict_of. now rewrite fold_left_app. Qed.

Lemma dict_of_lookup : forall l n, lookup (dict_of l) n = last_value l n.
Proof.
  intros l n. unfold last_value. induction l as [|p l IH] using rev_ind; [reflexivity|].
  rewrite dict_of_snoc, dict_set_lookup, rev_app_distr. simpl.
  destruct (String.eqb (par_name p) n); [reflexivity|exact IH].
Qed.

Lemma dict_of_keys : forall l n, In n (map fst (dict_of l)) <-> In n (names l).
Proof.
  intros l n. induction l as [|p l IH] using rev_ind; [simpl; tauto|].
  rewrite dict_of_snoc, dict_set_keys, names_app, in_app_iff, IH. simpl. tauto.
Qed.

Lemma dict_of_NoDup : forall l, NoDup (map fst (dict_of l)).
Proof.
  induction l as [|p l IH] using rev_ind; [constructor|].
  rewrite dict_of_snoc. now apply dict_set_NoDup.
Qed.

Lemma dict_of_perm : forall l, NoDup ns ->
  (Permutation (map fst (dict_of l)) ns <-> forall n, In n (names l) <-> In n ns).
Proof.
  intros l ND. split.
  - intros P n. rewrite <- dict_of_keys. split; intros H.
    + now apply (Permutation_in _ P).
    + apply (Permutation_in _ (Permutation_sym P)). assumption.
  - intros H. apply NoDup_Permutation; [apply dict_of_NoDup|assumption|].
    intros n. rewrite dict_of_keys. apply H.
Qed.

Definition rebuilt (l : list Par) : data :=
  map (fun s => mkPar (set_name s) (kwval (dict_of l) (set_name s))
                  (orb (str_in (set_name s) (ct_always_fixed ct))
                       (str_in (set_name s) (names (filter par_fixed l))))) (ct_setup ct).

Lemma built_names : forall kw, names (built kw) = ns.
Proof. intros kw. unfold names, built, ns. rewrite map_map. reflexivity. Qed.

Lemma rebuilt_names : forall l, names (rebuilt l) = ns.
Proof. intros l. unfold names, rebuilt, ns. rewrite map_map. reflexivity. Qed.

Lemma from_list_ok_table : forall l, (forall n, In n (names l) <-> In n ns) ->
  from_list_table ct l = Ok (rebuilt l).
Proof.
  intros l H. destruct ct_facts as [ND [_ [_ [_ [_ [_ [AF _]]]]]]].
  unfold from_list_table. rewrite construct_ok_table by (apply dict_of_perm; assumption). cbn [bind].
  unfold fix_parameters. rewrite set_flags_known.
  - cbn [bind]. f_equal. unfold built, release_all, rebuilt. rewrite !map_map.
    apply map_ext_in. intros s Hs. simpl.
    destruct (str_in (set_name s) (ct_always_fixed ct)) eqn:E; simpl.
    + assert (T : snd s = true) by (apply AF; [assumption|now apply str_in_In]).
      unfold with_flag. rewrite T.
      destruct (str_in (set_name s) (map par_name (filter par_fixed l))); reflexivity.
    + unfold names. destruct (str_in (set_name s) (map par_name (filter par_fixed l))); reflexivity.
  - rewrite release_all_names, built_names. exact ND.
  - rewrite release_all_names, built_names. intros n Hn. apply H.
    apply in_map_iff in Hn. destruct Hn as [p [<- Hp]]. apply filter_In in Hp. apply in_map. tauto.
Qed.

Lemma from_list_err_table : forall l, ~ (forall n, In n (names l) <-> In n ns) ->
  from_list_table ct l = Err TypeError.
Proof.
  intros l H. destruct ct_facts as [ND _]. unfold from_list_table.
  rewrite construct_err_table; [reflexivity|]. intros P. apply H. now apply dict_of_perm.
Qed.

Lemma from_list_inv_table : forall l d, from_list_table ct l = Ok d ->
  (forall n, In n (names l) <-> In n ns) /\ d = rebuilt l.
Proof.
  intros l d H. assert (P : forall n, In n (names l) <-> In n ns).
  { destruct ct_facts as [ND _]. apply dict_of_perm; [assumption|].
    unfold from_list_table in H. destruct (construct_table ct (dict_of l)) as [a|e] eqn:B; [|discriminate].
    now apply construct_inv_table in B. }
  split; [assumption|]. rewrite from_list_ok_table in H by assumption. congruence.
Qed.

(** *** The invariant of reachable stores *)

Definition inv_table (d : data) : Prop :=
  names d = ns /\ forall p, In p d -> In (par_name p) (ct_always_fixed ct) -> par_fixed p = true.

Lemma built_inv : forall kw, inv_table (built kw).
Proof.
  intros kw. destruct ct_facts as [ND [_ [_ [_ [_ [_ [AF _]]]]]]]. split; [apply built_names|].
  intros p Hp Ha. apply in_map_iff in Hp. destruct Hp as [s [<- Hs]]. simpl in *. now apply AF.
Qed.

Lemma rebuilt_inv : forall l, inv_table (rebuilt l).
Proof.
  intros l. split; [apply rebuilt_names|].
  intros p Hp Ha. apply in_map_iff in Hp. destruct Hp as [s [<- Hs]]. simpl in *.
  apply str_in_In in Ha. now rewrite Ha.
Qed.

(** Two stores with the same distinct names are equal when the entries agree. *)
Lemma lookup_last_NoDup : forall d p, NoDup (names d) -> In p d -> last_value d (par_name p) = Some (par_value p).
Proof.
  intros d p ND Hp. unfold last_value.
  assert (G : forall l : list Par, NoDup (names l) -> In p l ->
              List.find (fun q => String.eqb (par_name q) (par_name p)) l = Some p).
  { induction l as [|q l IH]; intros N I; [contradiction|]. simpl.
    inversion N; subst. destruct I as [->|I].
    - now rewrite String.eqb_refl.
    - destruct (String.eqb_spec (par_name q) (par_name p)) as [E|E]; [|auto].
      exfalso. apply H1. rewrite E. now apply in_map. }
  rewrite G; [reflexivity| |].
  - unfold names. rewrite map_rev. now apply NoDup_rev.
  - now apply in_rev in Hp.
Qed.

Lemma rebuilt_self : forall d, inv_table d -> rebuilt d = d.
Proof.
  intros d [N A]. destruct ct_facts as [ND _]. fold ns in ND.
  assert (NDd : NoDup (names d)) by (rewrite N; exact ND).
  assert (K : forall (sl : list (string * string * bool)) l, names l = map set_name sl -> (forall p, In p l -> In p d) ->
     map (fun s => mkPar (set_name s) (kwval (dict_of d) (set_name s))
                  (orb (str_in (set_name s) (ct_always_fixed ct))
                       (str_in (set_name s) (names (filter par_fixed d))))) sl = l).
  { induction sl as [|s sl IH]; intros l E I; destruct l as [|p l]; try discriminate; [reflexivity|].
    simpl in E. injection E as E1 E2. simpl. rewrite (IH l E2) by (intros; apply I; now right).
    f_equal. assert (Hp : In p d) by (apply I; now left). rewrite <- E1.
    unfold kwval. rewrite dict_of_lookup, (lookup_last_NoDup d p NDd Hp).
    assert (F : orb (str_in (par_name p) (ct_always_fixed ct)) (str_in (par_name p) (names (filter par_fixed d))) = par_fixed p).
    { destruct (par_fixed p) eqn:Fp.
      - apply orb_true_iff. right. apply str_in_In. apply in_map. apply filter_In. auto.
      - apply orb_false_iff. split; apply str_in_not; intros C.
        + apply A in C; [congruence|assumption].
        + apply in_map_iff in C. destruct C as [q [Eq Hq]]. apply filter_In in Hq. destruct Hq as [Hq Fq].
          assert (q = p); [|congruence].
          assert (L1 := lookup_last_NoDup d p NDd Hp).
          clear - NDd Hq Hp Eq. induction d as [|x d IHd]; [contradiction|].
          inversion NDd; subst. destruct Hp as [->|Hp]; destruct Hq as [->|Hq]; auto.
          * exfalso. apply H1. rewrite <- Eq. now apply in_map.
          * exfalso. apply H1. rewrite Eq. now apply in_map. }
    rewrite F. now destruct p. }
  unfold rebuilt. apply K; [exact N|auto].
Qed.

Lemma from_list_self_table : forall d, inv_table d -> from_list_table ct d = Ok d.
Proof.
  intros d I. rewrite from_list_ok_table.
  - now rewrite rebuilt_self.
  - destruct I as [N _]. intros n. now rewrite N.
Qed.

End OneClass.

(** ** By class *)

Definition inv (c : param_class) (d : data) : Prop :=
  names d = class_names c /\ forall p, In p d -> In (par_name p) (always_fixed c) -> par_fixed p = true.

Lemma class_names_NoDup : forall c, NoDup (class_names c).
Proof. intros c. exact (proj1 (ct_facts _ (tables_ok c))). Qed.

Lemma always_fixed_known : forall c n, In n (always_fixed c) -> In n (class_names c).
Proof. intros c. exact (proj1 (proj2 (proj2 (proj2 (proj2 (proj2 (ct_facts _ (tables_ok c)))))))). Qed.

Lemma construct_iff : forall c kw d, construct c kw = Ok d <->
  Permutation (map fst kw) (class_names c) /\ d = built (table c) kw.
Proof.
  intros c kw d. split; intros H.
  - exact (construct_inv_table _ (tables_ok c) kw d H).
  - destruct H as [P ->]. exact (construct_ok_table _ (tables_ok c) kw P).
Qed.

Lemma from_list_iff : forall c l d, from_list c l = Ok d <->
  (forall n, In n (names l) <-> In n (class_names c)) /\ d = rebuilt (table c) l.
Proof.
  intros c l d. split; intros H.
  - exact (from_list_inv_table _ (tables_ok c) l d H).
  - destruct H as [P ->]. exact (from_list_ok_table _ (tables_ok c) l P).
Qed.

Lemma from_list_err : forall c l, ~ (forall n, In n (names l) <-> In n (class_names c)) ->
  from_list c l = Err TypeError.
Proof. intros c l. exact (from_list_err_table _ (tables_ok c) l). Qed.

Lemma names_dec : forall l (ns : list string), {forall n, In n (names l) <-> In n ns} + {~ forall n, In n (names l) <-> In n ns}.
Proof.
  intros l ns.
  destruct (forallb (fun n => mem n ns) (names l) && forallb (fun n => mem n (names l)) ns)%bool eqn:E.
  - left. apply andb_prop in E. destruct E as [E1 E2]. rewrite forallb_forall in E1, E2.
    intros n. split; intros H; apply mem_In; auto.
  - right. intros H. apply not_true_iff_false in E. apply E. apply andb_true_intro.
    split; apply forallb_forall; intros n Hn; apply existsb_In; now apply H.
Qed.

Lemma from_list_raises : forall c l e, from_list c l = Err e -> e = TypeError.
Proof.
  intros c l e H. destruct (names_dec l (class_names c)) as [K|K].
  - assert (E := proj2 (from_list_iff c l _) (conj K eq_refl)). congruence.
  - rewrite (from_list_err c l K) in H. congruence.
Qed.

Lemma copy_self : forall c d, inv c d -> copy c d = Ok d.
Proof. intros c d I. exact (from_list_self_table _ (tables_ok c) d I). Qed.

(** A step that keeps the names and never turns a fixed always-fixed parameter free. *)
Lemma inv_pointwise : forall c (f : Par -> Par) d, inv c d -> (forall p, par_name (f p) = par_name p) ->
  (forall p, In (par_name p) (always_fixed c) -> par_fixed p = true -> par_fixed (f p) = true) ->
  inv c (map f d).
Proof.
  intros c f d [N A] H1 H2. split.
  - rewrite <- N. unfold names. rewrite map_map. apply map_ext. exact H1.
  - intros p Hp. apply in_map_iff in Hp. destruct Hp as [q [<- Hq]]. rewrite H1. intros I.
    apply H2; [assumption|]. now apply A.
Qed.

Lemma inv_names_NoDup : forall c d, inv c d -> NoDup (names d).
Proof. intros c d [N _]. rewrite N. apply class_names_NoDup. Qed.

Lemma inv_replace : forall c pre p q post, inv c (pre ++ p :: post) -> par_name q = par_name p ->
  (In (par_name q) (always_fixed c) -> par_fixed q = true) -> inv c (pre ++ q :: post).
Proof.
  intros c pre p q post [N A] E F. split.
  - rewrite <- N. now apply names_replace.
  - intros x Hx. apply in_app_or in Hx. destruct Hx as [Hx|[<-|Hx]].
    + apply A. apply in_or_app. now left.
    + exact F.
    + apply A. apply in_or_app. right. now right.
Qed.

Lemma inv_set_flags_true : forall c l d, inv c d -> inv c (snd (set_flags true l d)).
Proof.
  intros c l. induction l as [|n l IH]; intros d I; [exact I|]. simpl.
  destruct (find_cases d n) as [[U F]|[pre [p [post [Ed [E [NI [F S]]]]]]]]; rewrite F; [exact I|].
  apply IH. rewrite S. rewrite Ed in I. apply inv_replace with (p := p); auto.
Qed.

Lemma inv_set_flags_false : forall c l d, inv c d -> (forall n, In n l -> ~ In n (always_fixed c)) ->
  inv c (snd (set_flags false l d)).
Proof.
  intros c l. induction l as [|n l IH]; intros d I H; [exact I|]. simpl.
  destruct (find_cases d n) as [[U F]|[pre [p [post [Ed [E [NI [F S]]]]]]]]; rewrite F; [exact I|].
  apply IH; [|intros m Hm; apply H; now right]. rewrite S. rewrite Ed in I.
  apply inv_replace with (p := p); auto. simpl. intros C. exfalso. apply (H n (or_introl eq_refl)). now rewrite <- E.
Qed.

Lemma inv_fill : forall c d vs, inv c d -> inv c (fill d vs).
Proof.
  intros c d vs [N A]. split; [now rewrite fill_names|].
  clear N. revert vs. induction d as [|p d IH]; intros vs q Hq; simpl in Hq; [contradiction|].
  assert (A' : forall p0, In p0 d -> In (par_name p0) (always_fixed c) -> par_fixed p0 = true)
    by (intros; apply A; [now right|assumption]).
  destruct (par_fixed p) eqn:F.
  - destruct Hq as [<-|Hq]; [auto|]. now apply (IH A' vs).
  - destruct vs as [|v vs].
    + intros C. apply A; [exact Hq|exact C].
    + destruct Hq as [<-|Hq]; [|now apply (IH A' vs)]. simpl. intros C.
      exfalso. assert (par_fixed p = true) by (apply A; [now left|assumption]). congruence.
Qed.

Lemma release_check : forall af l, existsb (fun n => str_in n af) l = false <-> forall n, In n l -> ~ In n af.
Proof.
  intros af l. rewrite <- not_true_iff_false, existsb_exists. split.
  - intros H n Hn C. apply H. exists n. split; [assumption|now apply str_in_In].
  - intros H [n [Hn C]]. apply str_in_In in C. exact (H n Hn C).
Qed.

Lemma inv_mutate : forall c m d, inv c d -> inv c (snd (mutate c m d)).
Proof.
  intros c m d I. destruct m as [k new|n v|ns|ns| | |vs|]; simpl.
  - unfold setitem. destruct (find_cases d k) as [[U F]|[pre [p [post [Ed [E [NI [F S]]]]]]]]; rewrite F; [exact I|].
    destruct new as [q|]; [|exact I].
    destruct (String.eqb_spec (par_name p) (par_name q)) as [Epq|N]; simpl; [|exact I].
    destruct (andb (str_in (par_name q) (always_fixed c)) (negb (par_fixed q))) eqn:B; simpl; [exact I|].
    rewrite S. rewrite Ed in I. apply inv_replace with (p := p); auto.
    intros C. apply str_in_In in C. rewrite C in B. simpl in B. now apply negb_false_iff in B.
  - unfold set_value. destruct (find_cases d n) as [[U F]|[pre [p [post [Ed [E [NI [F S]]]]]]]]; rewrite F; [exact I|].
    simpl. rewrite S. rewrite Ed in I. apply inv_replace with (p := p); auto. simpl. intros C.
    destruct I as [_ A]. apply A; [apply in_or_app; right; now left|now rewrite E].
  - now apply inv_set_flags_true.
  - unfold release_parameters. destruct (existsb (fun n => str_in n (always_fixed c)) ns) eqn:B; [exact I|].
    apply inv_set_flags_false; [exact I|]. now apply release_check.
  - apply inv_pointwise; auto.
  - apply inv_pointwise; auto.
    + intros p. now destruct (str_in (par_name p) (always_fixed c)).
    + intros p C F. apply str_in_In in C. now rewrite C.
  - destruct (update_free_snd vs d) as [->|[ws ->]]; [exact I|now apply inv_fill].
  - unfold fix_resonances, fix_resonances_table. destruct (ct_fix_resonances (table c)); [|exact I].
    now apply inv_set_flags_true.
Qed.

Lemma from_ordered_inv : forall c vs consts d, from_ordered c vs consts = Ok d -> exists l, from_list c l = Ok d.
Proof.
  intros c vs consts d H. unfold from_ordered, from_ordered_table in H.
  destruct (ct_from_ordered (table c)) as [fo|]; [|discriminate].
  destruct (negb (Nat.eqb (length consts) (length (fo_formals fo)))); [discriminate|].
  destruct (negb (Nat.eqb (length vs) (length (fo_names fo)))); [discriminate|].
  res_inv. eexists. exact E0.
Qed.

Lemma from_list_inv : forall c l d, from_list c l = Ok d -> inv c d.
Proof. intros c l d H. apply from_list_iff in H. destruct H as [_ ->]. exact (rebuilt_inv _ l). Qed.

Lemma reachable_inv : forall c d, reachable c d -> inv c d.
Proof.
  intros c d H. induction H.
  - apply construct_iff in H. destruct H as [_ ->]. exact (built_inv _ (tables_ok c) kw).
  - now apply from_list_inv in H.
  - apply from_ordered_inv in H. destruct H as [l H]. now apply from_list_inv in H.
  - rewrite copy_self in H0 by assumption. injection H0 as <-. assumption.
  - now apply inv_mutate.
Qed.

(** Conversely every store with the invariant is reachable (through [from_list]). *)
Lemma inv_reachable : forall c d, inv c d -> reachable c d.
Proof. intros c d I. apply reach_from_list with (l := d). exact (copy_self c d I). Qed.
