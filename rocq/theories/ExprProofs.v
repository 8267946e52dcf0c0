(** Lemmas about the expression language and keyword binding. *)
From Coq Require Import String Reals Arith List Permutation Lia.
From Verif Require Import PyBase CNum PyExpr UAComponents ComponentProofs.
Import ListNotations.
Local Open Scope R_scope.

(** ** Conjugation of a scope conjugates every result *)

Definition conj_scope (s s' : Scope) : Prop :=
  (forall n, sc_attr s' n = sc_attr s n) /\
  (forall n, sc_loc s' n = Res_map Cconj (sc_loc s n)) /\
  (forall n, sc_comp s' n = Res_map Cconj (sc_comp s n)).

Lemma cdiv_conj : forall a b, cdiv (Cconj a) (Cconj b) = Res_map Cconj (cdiv a b).
Proof.
  intros a b. destruct (C_eq_dec b (RtoC 0)) as [->|N].
  - rewrite Cconj_RtoC, !cdiv_zero. reflexivity.
  - rewrite !cdiv_ok; try assumption; [|now rewrite Cconj_0_iff].
    simpl. now rewrite Cconj_div.
Qed.

Lemma ev_conj : forall s s', conj_scope s s' -> forall e, ev s' e = Res_map Cconj (ev s e).
Proof.
  intros s s' [HA [HL HC]]. induction e; simpl.
  - now rewrite Cconj_RtoC.
  - rewrite HA. destruct (sc_attr s name); simpl; [now rewrite Cconj_RtoC|reflexivity].
  - apply HL.
  - apply HC.
  - rewrite IHe1, IHe2. destruct (ev s e1); simpl; [|reflexivity].
    destruct (ev s e2); simpl; [now rewrite Cconj_add|reflexivity].
  - rewrite IHe1, IHe2. destruct (ev s e1); simpl; [|reflexivity].
    destruct (ev s e2); simpl; [now rewrite Cconj_sub|reflexivity].
  - rewrite IHe1, IHe2. destruct (ev s e1); simpl; [|reflexivity].
    destruct (ev s e2); simpl; [now rewrite Cconj_mul|reflexivity].
  - rewrite IHe1, IHe2. destruct (ev s e1); simpl; [|reflexivity].
    destruct (ev s e2); simpl; [apply cdiv_conj|reflexivity].
  - rewrite IHe. destruct (ev s e); simpl; [now rewrite Csq_conj|reflexivity].
Qed.

(** ** Keyword binding *)

Lemma lookup_map_pair : forall V (l : list string) (g : string -> V) f,
  In f l -> lookup (map (fun x => (x, g x)) l) f = Some (g f).
Proof.
  induction l as [|x l IH]; intros g f H; [contradiction|]. simpl.
  destruct (String.eqb_spec x f) as [->|N]; [reflexivity|].
  apply IH. destruct H; [contradiction|assumption].
Qed.

Lemma bind_kwargs_inv : forall V formals (kw args : env V), bind_kwargs formals kw = Ok args ->
  length kw = length formals /\ map fst args = formals /\
  forall f, In f formals -> exists v, lookup kw f = Some v /\ lookup args f = Some v.
Proof.
  intros V formals kw args H. unfold bind_kwargs in H.
  destruct (Nat.eqb_spec (length kw) (length formals)) as [E|]; [|discriminate].
  split; [assumption|]. clear E. apply mapM_Ok_iff in H.
  induction H as [|f fv l l' Hf H IH].
  - split; [reflexivity|intros f []].
  - destruct (lookup kw f) as [v|] eqn:E; [|discriminate]. injection Hf as <-.
    destruct IH as [IH1 IH2]. split; [simpl; now rewrite IH1|].
    intros f' [->|Hin].
    + exists v. split; [assumption|]. simpl. now rewrite String.eqb_refl.
    + simpl. destruct (String.eqb_spec f f') as [->|N]; [exists v; auto|auto].
Qed.

Lemma bind_kwargs_ok : forall V formals (kw : env V),
  length kw = length formals -> (forall f, In f formals -> In f (map fst kw)) ->
  exists args, bind_kwargs formals kw = Ok args.
Proof.
  intros V formals kw E H. unfold bind_kwargs. rewrite E, Nat.eqb_refl. clear E.
  induction formals as [|f l IH]; [simpl; eauto|].
  destruct IH as [a Ha]; [intros; apply H; now right|].
  simpl. destruct (lookup kw f) as [v|] eqn:E.
  - simpl. rewrite Ha. simpl. eauto.
  - exfalso. apply lookup_None in E. apply E, H. now left.
Qed.

Lemma bind_kwargs_err : forall V formals (kw : env V) e,
  bind_kwargs formals kw = Err e -> e = TypeError.
Proof.
  intros V formals kw e H. unfold bind_kwargs in H.
  destruct (Nat.eqb (length kw) (length formals)); [|congruence].
  induction formals as [|f l IH]; simpl in H; [discriminate|].
  destruct (lookup kw f); simpl in H; [|congruence].
  apply bind_Err_inv in H. destruct H as [H|[a [_ H]]]; [auto|discriminate].
Qed.

(** Success exactly for a permutation of the formals. *)
Lemma bind_kwargs_ok_iff : forall V formals (kw : env V), NoDup formals ->
  is_ok (bind_kwargs formals kw) <-> Permutation (map fst kw) formals.
Proof.
  intros V formals kw ND. split.
  - intros [args H]. apply bind_kwargs_inv in H. destruct H as [L [_ F]].
    symmetry. apply NoDup_Permutation_bis; [assumption| |].
    + rewrite map_length, L. apply le_n.
    + intros f Hf. destruct (F f Hf) as [v [Hv _]]. apply lookup_In in Hv.
      apply in_map_iff. exists (f, v). auto.
  - intros P. apply bind_kwargs_ok.
    + rewrite <- (map_length fst kw). now apply Permutation_length.
    + intros f Hf. eapply Permutation_in; [symmetry; exact P|assumption].
Qed.

(** Value of a keyword argument. *)
Definition kwval (kw : env R) (n : string) : R :=
  match lookup kw n with Some v => v | None => 0 end.

(** Total evaluation of constructor expressions. *)
Fixpoint evT (val : string -> R) (e : expr) : R :=
  match e with
  | ENum r => r
  | ELoc n => val n
  | EAttr n => 0
  | EComp n => 0
  | EAdd a b => evT val a + evT val b
  | ESub a b => evT val a - evT val b
  | EMul a b => evT val a * evT val b
  | EDiv a b => evT val a / evT val b
  | ESq a => evT val a * evT val a
  end.

(** Only formals, no division. *)
Fixpoint closed_in (formals : list string) (e : expr) : bool :=
  match e with
  | ENum _ => true
  | ELoc n => existsb (String.eqb n) formals
  | EAttr _ | EComp _ | EDiv _ _ => false
  | EAdd a b | ESub a b | EMul a b => closed_in formals a && closed_in formals b
  | ESq a => closed_in formals a
  end.

Lemma existsb_In : forall n l, existsb (String.eqb n) l = true <-> In n l.
Proof.
  intros n l. rewrite existsb_exists. split.
  - intros [x [H E]]. apply String.eqb_eq in E. now subst.
  - intros H. exists n. split; [assumption|apply String.eqb_refl].
Qed.

Lemma ev_real_closed : forall formals kw args, bind_kwargs formals kw = Ok args ->
  forall e, closed_in formals e = true -> ev_real args e = Ok (evT (kwval kw) e).
Proof.
  intros formals kw args H. apply bind_kwargs_inv in H. destruct H as [_ [_ F]].
  induction e; simpl; intros Hc; try discriminate; try reflexivity.
  - apply existsb_In in Hc. destruct (F name Hc) as [v [Hv Ha]]. rewrite Ha.
    unfold kwval. now rewrite Hv.
  - apply andb_prop in Hc. destruct Hc as [C1 C2]. rewrite IHe1, IHe2 by assumption. reflexivity.
  - apply andb_prop in Hc. destruct Hc as [C1 C2]. rewrite IHe1, IHe2 by assumption. reflexivity.
  - apply andb_prop in Hc. destruct Hc as [C1 C2]. rewrite IHe1, IHe2 by assumption. reflexivity.
  - rewrite IHe by assumption. reflexivity.
Qed.

Lemma run_assign_closed : forall formals kw args l, bind_kwargs formals kw = Ok args ->
  forallb (fun ne => closed_in formals (snd ne)) l = true ->
  run_assign args l = Ok (map (fun ne => (fst ne, evT (kwval kw) (snd ne))) l).
Proof.
  intros formals kw args l H. unfold run_assign. induction l as [|[n e] l IH]; intros Hc; [reflexivity|].
  simpl in Hc. apply andb_prop in Hc. destruct Hc as [C1 C2].
  simpl. rewrite (ev_real_closed _ _ _ H e C1). simpl. rewrite IH by assumption. reflexivity.
Qed.

Lemma lookup_assign : forall val l n,
  lookup (map (fun ne : string * expr => (fst ne, evT val (snd ne))) l) n =
  match lookup l n with Some e => Some (evT val e) | None => None end.
Proof.
  induction l as [|[k e] l IH]; intros n; simpl; [reflexivity|].
  destruct (String.eqb k n); [reflexivity|apply IH].
Qed.

(** ** Linear combinations [a1*c1 + a2*c2 + ...] of components *)

Fixpoint lin_of (e : expr) : option (list (string * string)) :=
  match e with
  | EMul (EAttr a) (EComp c) => Some [(a, c)]
  | EAdd e1 (EMul (EAttr a) (EComp c)) =>
    match lin_of e1 with Some l => Some (l ++ [(a, c)]) | None => None end
  | _ => None
  end.

Definition csum (l : list C) : C := fold_right Cadd (RtoC 0) l.

Lemma csum_app : forall l1 l2, csum (l1 ++ l2) = Cadd (csum l1) (csum l2).
Proof.
  induction l1 as [|x l IH]; intros l2; simpl; [ring|]. rewrite IH. ring.
Qed.

Definition lin_terms (s : Scope) (l : list (string * string)) : Res (list C) :=
  mapM (fun ac => bind (sc_attr s (fst ac)) (fun r =>
                  bind (sc_comp s (snd ac)) (fun v => Ok (Cmul (RtoC r) v)))) l.

Lemma lin_of_ev : forall s e l, lin_of e = Some l ->
  ev s e = bind (lin_terms s l) (fun ts => Ok (csum ts)).
Proof.
  intros s. induction e; intros l H; simpl in H; try discriminate.
  - destruct e2; try discriminate. destruct e2_1; try discriminate. destruct e2_2; try discriminate.
    destruct (lin_of e1) as [l1|] eqn:E; [|discriminate]. injection H as <-.
    cbn [ev]. rewrite (IHe1 l1 eq_refl). unfold lin_terms. rewrite mapM_app. simpl.
    destruct (mapM _ l1) as [ts|]; simpl; [|reflexivity].
    destruct (sc_attr s name) as [r|]; simpl; [|reflexivity].
    destruct (sc_comp s name0) as [v|]; simpl; [|reflexivity].
    rewrite csum_app. simpl. f_equal. ring.
  - destruct e1; try discriminate. destruct e2; try discriminate. injection H as <-.
    unfold lin_terms; simpl. destruct (sc_attr s name) as [r|]; simpl; [|reflexivity].
    destruct (sc_comp s name0) as [v|]; simpl; [|reflexivity].
    f_equal. ring.
Qed.
