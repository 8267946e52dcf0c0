(** Lemmas on the bounds tables. *)
From Coq Require Import Reals String List Bool Arith Lia Lra.
From Verif Require Import PyBase CNum PyExpr ExprProofs KaonProofs KaonSpec Params ParamClasses ParamProofs ParamSpec.
Import ListNotations.
Open Scope string_scope.
Open Scope list_scope.
Open Scope R_scope.
Open Scope py_scope.

Lemma getitem_value : forall d n, In n (names d) -> exists p, getitem d n = Ok p /\ par_name p = n /\
  In p d /\ par_value p = val d n.
Proof.
  intros d n H. destruct (find_known d n H) as [pre [p [post [-> [E [NI [F _]]]]]]].
  exists p. unfold getitem. rewrite F. simpl. repeat split; auto.
  - apply in_or_app. right. now left.
  - clear F H. induction pre as [|q pre IH]; simpl.
    + now rewrite E, String.eqb_refl.
    + destruct (String.eqb_spec (par_name q) n) as [C|C].
      * exfalso. apply NI. now left.
      * apply IH. intros C'. apply NI. now right.
Qed.

(** Total evaluation. *)
Definition extT (v : string -> R) (e : env R) (b : bexp) : ext :=
  match b with
  | BNegInf => NegInf
  | BPosInf => PosInf
  | BNum r => Fin r
  | BValue n => Fin (v n)
  | BSqrt n => Fin (sqrt (v n))
  | BMax l1 l2 => Fin (Rmax (kwval e l1) (kwval e l2))
  | BLoc l => Fin (kwval e l)
  end.

Definition fin (x : ext) : R := match x with Fin r => r | _ => 0 end.

Fixpoint locsT (v : string -> R) (e : env R) (l : list (string * bexp)) : env R :=
  match l with
  | [] => e
  | (x, b) :: r => locsT v (e ++ [(x, fin (extT v e b))]) r
  end.

Definition boundsT (v : string -> R) (e : env R) (t : list (string * (bexp * bexp))) : env (ext * ext) :=
  map (fun nb => (fst nb, (extT v e (fst (snd nb)), extT v e (snd (snd nb))))) t.

(** Well-formed expressions: known names, assigned locals. *)
Definition bexp_ok (ns locs : list string) (b : bexp) : bool :=
  match b with
  | BValue n | BSqrt n => mem n ns
  | BMax l1 l2 => mem l1 locs && mem l2 locs
  | BLoc l => mem l locs
  | _ => true
  end.

Definition is_sqrt (b : bexp) : list string := match b with BSqrt n => [n] | _ => [] end.

Lemma local_kwval : forall (e : env R) l, mem l (map fst e) = true -> local e l = Ok (kwval e l).
Proof.
  intros e l H. destruct (mem_lookup _ e l H) as [v E]. unfold local, kwval. now rewrite E.
Qed.

Lemma ext_of_total : forall d e b, bexp_ok (names d) (map fst e) b = true ->
  (forall n, In n (is_sqrt b) -> 0 <= val d n) -> ext_of e d b = Ok (extT (val d) e b).
Proof.
  intros d e b H P. destruct b; simpl in *; try reflexivity.
  - apply mem_In in H. destruct (getitem_value d name H) as [p [G [_ [_ V]]]]. rewrite G. simpl. now rewrite V.
  - apply mem_In in H. destruct (getitem_value d name H) as [p [G [_ [_ V]]]]. rewrite G. simpl. rewrite V.
    rewrite rsqrt_ok by (apply P; now left). reflexivity.
  - apply andb_prop in H. destruct H as [H1 H2]. rewrite !local_kwval by assumption. reflexivity.
  - rewrite local_kwval by assumption. reflexivity.
Qed.

Lemma ext_of_negative : forall d e n, In n (names d) -> val d n < 0 -> ext_of e d (BSqrt n) = Err ValueError.
Proof.
  intros d e n H N. simpl. destruct (getitem_value d n H) as [p [G [_ [_ V]]]]. rewrite G. simpl. rewrite V.
  unfold rsqrt. destruct (Rlt_dec (val d n) 0); [reflexivity|contradiction].
Qed.

(** Locals are finite numbers. *)
Definition finite_bexp (b : bexp) : bool := match b with BNegInf | BPosInf => false | _ => true end.

Fixpoint locals_ok (ns locs : list string) (l : list (string * bexp)) : bool :=
  match l with
  | [] => true
  | (x, b) :: r => bexp_ok ns locs b && finite_bexp b && locals_ok ns (locs ++ [x]) r
  end.

Lemma run_locals_total : forall d l e, locals_ok (names d) (map fst e) l = true ->
  (forall x b n, In (x, b) l -> In n (is_sqrt b) -> 0 <= val d n) ->
  run_locals e d l = Ok (locsT (val d) e l).
Proof.
  intros d. induction l as [|[x b] l IH]; intros e H P; [reflexivity|].
  cbn [locals_ok] in H. apply andb_prop in H. destruct H as [H H3]. apply andb_prop in H. destruct H as [H1 H2].
  cbn [run_locals locsT]. rewrite ext_of_total; [|assumption|intros n Hn; exact (P x b n (or_introl eq_refl) Hn)].
  cbn [bind]. destruct (extT (val d) e b) eqn:E.
  - destruct b; discriminate.
  - apply IH.
    + rewrite map_app. exact H3.
    + intros y b' n Hy Hn. exact (P y b' n (or_intror Hy) Hn).
  - destruct b; discriminate.
Qed.

Lemma run_locals_negative : forall d l e, locals_ok (names d) (map fst e) l = true ->
  (exists x b n, In (x, b) l /\ In n (is_sqrt b) /\ val d n < 0) ->
  run_locals e d l = Err ValueError.
Proof.
  intros d. induction l as [|[x b] l IH]; intros e H [y [b' [n [Hy [Hn V]]]]]; [contradiction|].
  cbn [locals_ok] in H. apply andb_prop in H. destruct H as [H H3]. apply andb_prop in H. destruct H as [H1 H2].
  cbn [run_locals].
  assert (D : (exists m, In m (is_sqrt b) /\ val d m < 0) \/ forall m, In m (is_sqrt b) -> 0 <= val d m).
  { destruct b; simpl; try (right; intros m []; fail).
    destruct (Rlt_dec (val d name) 0) as [L|L].
    - left. exists name. auto.
    - right. intros m [<-|[]]. now apply Rnot_lt_le. }
  destruct D as [[m [Hm Vm]]|D].
  - destruct b; simpl in Hm; try contradiction. destruct Hm as [->|[]].
    rewrite ext_of_negative; [reflexivity| |assumption]. now apply mem_In.
  - rewrite ext_of_total by assumption. cbn [bind].
    destruct (extT (val d) e b) eqn:E; try (destruct b; discriminate).
    apply IH.
    + rewrite map_app. exact H3.
    + destruct Hy as [Hy|Hy].
      * injection Hy as -> ->. exfalso. specialize (D n Hn). lra.
      * exists y, b', n. auto.
Qed.

Definition no_sqrt (b : bexp) : bool := match b with BSqrt _ => false | _ => true end.

Definition bounds_ok (ns locs : list string) (t : list (string * (bexp * bexp))) : bool :=
  forallb (fun nb => bexp_ok ns locs (fst (snd nb)) && no_sqrt (fst (snd nb)) &&
                     bexp_ok ns locs (snd (snd nb)) && no_sqrt (snd (snd nb))) t.

Lemma eval_bounds_total : forall d e t, bounds_ok (names d) (map fst e) t = true ->
  eval_bounds e d t = Ok (boundsT (val d) e t).
Proof.
  intros d e. unfold eval_bounds, boundsT. induction t as [|[n [lo up]] t IH]; intros H; [reflexivity|].
  cbn [bounds_ok forallb fst snd] in H. apply andb_prop in H. destruct H as [H H5].
  apply andb_prop in H. destruct H as [H H4]. apply andb_prop in H. destruct H as [H H3].
  apply andb_prop in H. destruct H as [H1 H2].
  assert (NS : forall b, no_sqrt b = true -> forall m, In m (is_sqrt b) -> 0 <= val d m)
    by (intros b; destruct b; simpl; intros; try contradiction; discriminate).
  cbn [mapM map fst snd]. rewrite (ext_of_total d e lo H1 (NS lo H2)). cbn [bind].
  rewrite (ext_of_total d e up H3 (NS up H4)). cbn [bind].
  rewrite IH by exact H5. reflexivity.
Qed.

(** The checks hold for the nine classes. *)
Definition bounds_tables_ok (ct : ClassTable) : bool :=
  let ns := map set_name (ct_setup ct) in
  bounds_ok ns [] (ct_handpicked ct) &&
  locals_ok ns [] (ct_maximal_locals ct) &&
  bounds_ok ns (map fst (ct_maximal_locals ct)) (ct_maximal ct) &&
  forallb (fun n => orb (str_in n (ct_always_fixed ct))
                        (mem n (map fst (ct_handpicked ct)) && mem n (map fst (ct_maximal ct)))) ns.

Lemma all_bounds_tables_ok : forall c, bounds_tables_ok (table c) = true.
Proof. destruct c; vm_compute; reflexivity. Qed.

Lemma locsT_names : forall v l e, map fst (locsT v e l) = map fst e ++ map fst l.
Proof.
  intros v. induction l as [|[x b] l IH]; intros e; simpl; [now rewrite app_nil_r|].
  rewrite IH, map_app, <- app_assoc. reflexivity.
Qed.

(** Parameters under a square root in the maximal table. *)
Definition sqrt_names (c : param_class) : list string :=
  flat_map (fun xb => is_sqrt (snd xb)) (ct_maximal_locals (table c)).

Definition fullT (c : param_class) (handpicked : bool) (d : data) : env (ext * ext) :=
  if handpicked then boundsT (val d) [] (ct_handpicked (table c))
  else boundsT (val d) (locsT (val d) [] (ct_maximal_locals (table c))) (ct_maximal (table c)).

Lemma full_bounds_total : forall c h d, names d = class_names c ->
  (h = false -> forall n, In n (sqrt_names c) -> 0 <= val d n) ->
  full_bounds c h d = Ok (fullT c h d).
Proof.
  intros c h d N P. assert (O := all_bounds_tables_ok c). unfold bounds_tables_ok in O.
  repeat (apply andb_prop in O; let H := fresh "K" in destruct O as [O H]).
  fold (class_names c) in *. rewrite <- N in *.
  unfold full_bounds, full_bounds_table, fullT. destruct h.
  - now apply eval_bounds_total.
  - rewrite run_locals_total; [|assumption|].
    + cbn [bind]. apply eval_bounds_total. rewrite locsT_names. exact K0.
    + intros x b n Hx Hn. apply (P eq_refl). unfold sqrt_names. apply in_flat_map. exists (x, b). auto.
Qed.

Lemma full_bounds_negative : forall c d, names d = class_names c ->
  (exists n, In n (sqrt_names c) /\ val d n < 0) -> full_bounds c false d = Err ValueError.
Proof.
  intros c d N [n [Hn V]]. assert (O := all_bounds_tables_ok c). unfold bounds_tables_ok in O.
  repeat (apply andb_prop in O; let H := fresh "K" in destruct O as [O H]).
  fold (class_names c) in *. rewrite <- N in *.
  unfold full_bounds, full_bounds_table. rewrite run_locals_negative; [reflexivity|assumption|].
  unfold sqrt_names in Hn. apply in_flat_map in Hn. destruct Hn as [[x b] [Hx Hb]]. exists x, b, n. auto.
Qed.

Lemma fullT_lookup : forall c h d n, In n (class_names c) -> ~ In n (always_fixed c) ->
  exists b, lookup (fullT c h d) n = Some b.
Proof.
  intros c h d n Hn Ha. assert (O := all_bounds_tables_ok c). unfold bounds_tables_ok in O.
  repeat (apply andb_prop in O; let H := fresh "K" in destruct O as [O H]).
  rewrite forallb_forall in K. specialize (K n Hn). apply orb_prop in K. destruct K as [K|K].
  - exfalso. apply Ha. now apply str_in_In.
  - apply andb_prop in K. destruct K as [Kh Km]. unfold fullT.
    apply mem_lookup. destruct h; unfold boundsT; rewrite map_map; simpl; assumption.
Qed.

(** get_bounds in a store with the invariant. *)
Lemma get_bounds_total : forall c h d, inv c d ->
  (h = false -> forall n, In n (sqrt_names c) -> 0 <= val d n) ->
  exists bs, get_bounds c h d = Ok (map fst bs, map snd bs) /\
    Forall2 (fun p b => lookup (fullT c h d) (par_name p) = Some b) (filter is_free d) bs.
Proof.
  intros c h d [N A] P. unfold get_bounds, bounds_table. fold (full_bounds c h d).
  rewrite (full_bounds_total c h d N P). cbn [bind]. fold is_free.
  assert (G : forall l, (forall p, In p l -> In p d /\ par_fixed p = false) ->
    exists bs, mapM (fun p => match lookup (fullT c h d) (par_name p) with
                              | Some b => Ok b | None => Err KeyError end) l = Ok bs /\
       Forall2 (fun p b => lookup (fullT c h d) (par_name p) = Some b) l bs).
  { induction l as [|p l IH]; intros H.
    - exists []. split; [reflexivity|constructor].
    - destruct IH as [bs [M F]]; [intros; apply H; now right|].
      destruct (H p (or_introl eq_refl)) as [Hp Fp].
      destruct (fullT_lookup c h d (par_name p)) as [b Hb].
      + rewrite <- N. now apply in_map.
      + intros C. apply A in C; [congruence|assumption].
      + exists (b :: bs). split; [|now constructor]. cbn [mapM]. rewrite Hb. cbn [bind]. rewrite M. reflexivity. }
  destruct (G (filter is_free d)) as [bs [M F]].
  - intros p Hp. apply filter_In in Hp. unfold is_free in Hp. now rewrite negb_true_iff in Hp.
  - exists bs. split; [|assumption]. unfold is_free in M. unfold is_free. rewrite M. reflexivity.
Qed.

Lemma get_bounds_negative : forall c d, inv c d ->
  (exists n, In n (sqrt_names c) /\ val d n < 0) -> get_bounds c false d = Err ValueError.
Proof.
  intros c d [N A] H. unfold get_bounds, bounds_table. fold (full_bounds c false d).
  now rewrite full_bounds_negative.
Qed.
