(** The mass-term cache of NucleonUAModel is invisible: a call is described by a function
    without state. *)
From Coq Require Import String Reals Bool Arith List Lra.
From Verif Require Import PyBase CNum UAMaps UAComponents PyExpr Nucleon.
Import ListNotations.
Local Open Scope R_scope.
Local Open Scope py_scope.
Local Open Scope string_scope.

#[local] Arguments String.append : simpl never.

(** ** Evaluation without a cache *)

Fixpoint locals_pure (m : NucleonModel) (w : C) (l : list local_def) (locals : env C) : Res (env C) :=
  match l with
  | [] => Ok locals
  | LMass x s d r :: l' => v <- calculate_mass_term m s d r ;; locals_pure m w l' ((x, v) :: locals)
  | LExpr x e :: l' => v <- ev (nucleon_scope m w locals) e ;; locals_pure m w l' ((x, v) :: locals)
  end.

Definition contribution_pure (m : NucleonModel) (t_to_w : MapTW) (locals : list local_def)
  (e : expr) (t : C) : Res C :=
  w <- MapFromTtoW_call t_to_w t ;;
  ls <- locals_pure m w locals [] ;;
  ev (nucleon_scope m w ls) e.

Definition dirac_isoscalar_pure (m : NucleonModel) : C -> Res C :=
  contribution_pure m (nm_t_to_W_dirac_isoscalar m)
    (nc_dirac_isoscalar_locals (nm_class m)) (nc_dirac_isoscalar_expr (nm_class m)).
Definition dirac_isovector_pure (m : NucleonModel) : C -> Res C :=
  contribution_pure m (nm_t_to_W_dirac_isovector m)
    (nc_dirac_isovector_locals (nm_class m)) (nc_dirac_isovector_expr (nm_class m)).
Definition pauli_isoscalar_pure (m : NucleonModel) : C -> Res C :=
  contribution_pure m (nm_t_to_W_pauli_isoscalar m)
    (nc_pauli_isoscalar_locals (nm_class m)) (nc_pauli_isoscalar_expr (nm_class m)).
Definition pauli_isovector_pure (m : NucleonModel) : C -> Res C :=
  contribution_pure m (nm_t_to_W_pauli_isovector m)
    (nc_pauli_isovector_locals (nm_class m)) (nc_pauli_isovector_expr (nm_class m)).

Definition call_pure (m : NucleonModel) (t : C) : Res C :=
  if Rlt_dec (Re t) 0 then Err ValueError else
  ds <- dirac_isoscalar_pure m t ;;
  dv <- dirac_isovector_pure m t ;;
  ps <- pauli_isoscalar_pure m t ;;
  pv <- pauli_isovector_pure m t ;;
  combine_contributions m t ds dv ps pv.

(** ** Keys *)

Lemma app_inv : forall p a b, p ++ a = p ++ b -> a = b.
Proof. induction p as [|c p IH]; simpl; intros a b H; [assumption|]. injection H. auto. Qed.

Lemma build_cache_key_inj : forall s d r s' d' r',
  build_cache_key s d r = build_cache_key s' d' r' -> s = s' /\ d = d' /\ r = r'.
Proof.
  intros s d r s' d' r' H. unfold build_cache_key in H.
  destruct s, s'; try discriminate H; apply app_inv in H; destruct d, d'; try discriminate H;
    apply app_inv in H; auto.
Qed.

(** ** The invariant *)

Definition cache_ok (m : NucleonModel) (c : Cache) : Prop :=
  forall key v, lookup c key = Some v ->
  exists s d r, key = build_cache_key s d r /\ calculate_mass_term m s d r = Ok v.

Lemma cache_ok_nil : forall m, cache_ok m [].
Proof. intros m key v H. discriminate. Qed.

Lemma cache_ok_flags : forall m p e c, cache_ok m c -> cache_ok (Nucleon_set_flags m p e) c.
Proof. intros m p e c H key v L. destruct (H key v L) as [s [d [r [E F]]]]. exists s, d, r. auto. Qed.

Lemma cache_ok_lookup : forall m c s d r v, cache_ok m c ->
  lookup c (build_cache_key s d r) = Some v -> calculate_mass_term m s d r = Ok v.
Proof.
  intros m c s d r v I L. destruct (I _ _ L) as [s' [d' [r' [E F]]]].
  apply build_cache_key_inj in E. destruct E as [-> [-> ->]]. assumption.
Qed.

Lemma get_mass_term_pure : forall m s d r c, cache_ok m c ->
  fst (get_mass_term m s d r c) = calculate_mass_term m s d r /\
  cache_ok m (snd (get_mass_term m s d r c)).
Proof.
  intros m s d r c I. unfold get_mass_term.
  assert (X : cache_ok m (snd (match calculate_mass_term m s d r with
    | Ok val => (Ok val, (build_cache_key s d r, val) :: c) | Err e => (Err e, c) end)) /\
    fst (match calculate_mass_term m s d r with
    | Ok val => (Ok val, (build_cache_key s d r, val) :: c) | Err e => (Err e, c) end) = calculate_mass_term m s d r).
  { destruct (calculate_mass_term m s d r) as [v|e] eqn:E; simpl; [|tauto]. split; [|reflexivity].
    intros key x L. simpl in L. destruct (String.eqb_spec (build_cache_key s d r) key) as [K|K].
    - injection L as <-. exists s, d, r. auto.
    - now apply I. }
  destruct (lookup c (build_cache_key s d r)) as [v|] eqn:L; [|tauto].
  destruct (C_eq_dec v (RtoC 0)); [tauto|]. simpl. split; [|assumption].
  symmetry. now apply (cache_ok_lookup m c).
Qed.

Lemma run_locals_pure : forall m w l ls c, cache_ok m c ->
  fst (run_locals m w l ls c) = locals_pure m w l ls /\ cache_ok m (snd (run_locals m w l ls c)).
Proof.
  intros m w l. induction l as [|[x s d r|x e] l IH]; intros ls c I; simpl; [auto| |].
  - destruct (get_mass_term_pure m s d r c I) as [E J].
    destruct (get_mass_term m s d r c) as [[v|e] c']; simpl in E, J; rewrite <- E; simpl; [now apply IH|auto].
  - destruct (ev (nucleon_scope m w ls) e) as [v|]; simpl; [now apply IH|auto].
Qed.

Lemma eval_contribution_pure : forall m mp l e t c, cache_ok m c ->
  fst (eval_contribution m mp l e t c) = contribution_pure m mp l e t /\
  cache_ok m (snd (eval_contribution m mp l e t c)).
Proof.
  intros m mp l e t c I. unfold eval_contribution, contribution_pure.
  destruct (MapFromTtoW_call mp t) as [w|]; simpl; [|auto].
  destruct (run_locals_pure m w l [] c I) as [E J].
  destruct (run_locals m w l [] c) as [[ls|x] c']; simpl in E, J; rewrite <- E; simpl; auto.
Qed.

Lemma sbind_pure : forall m A B (x : Cache -> Res A * Cache) (x' : Res A) (f : A -> Cache -> Res B * Cache)
  (f' : A -> Res B) c, cache_ok m c ->
  (forall c, cache_ok m c -> fst (x c) = x' /\ cache_ok m (snd (x c))) ->
  (forall a c, cache_ok m c -> fst (f a c) = f' a /\ cache_ok m (snd (f a c))) ->
  fst (sbind x f c) = bind x' f' /\ cache_ok m (snd (sbind x f c)).
Proof.
  intros m A B x x' f f' c I X F. unfold sbind. destruct (X c I) as [E J].
  destruct (x c) as [[a|e] c']; simpl in E, J; subst x'; simpl; auto.
Qed.

Lemma Nucleon_call_pure : forall m t c, cache_ok m c ->
  fst (Nucleon_call m t c) = call_pure m t /\ cache_ok m (snd (Nucleon_call m t c)).
Proof.
  intros m t c I. unfold Nucleon_call, call_pure. destruct (Rlt_dec (Re t) 0); [auto|].
  apply sbind_pure; [assumption|intros; now apply eval_contribution_pure|]. intros ds c1 I1.
  apply sbind_pure; [assumption|intros; now apply eval_contribution_pure|]. intros dv c2 I2.
  apply sbind_pure; [assumption|intros; now apply eval_contribution_pure|]. intros ps c3 I3.
  apply sbind_pure; [assumption|intros; now apply eval_contribution_pure|]. intros pv c4 I4.
  auto.
Qed.

Lemma Nucleon_init_cache : forall cls p e kw m c, Nucleon_init cls p e kw = Ok (m, c) -> c = [].
Proof.
  intros cls p e kw m c H. unfold Nucleon_init in H.
  repeat (apply bind_Ok_inv in H; destruct H as [? [_ H]]). congruence.
Qed.

Lemma Nucleon_init_flags : forall cls p e kw m c p' e', Nucleon_init cls p e kw = Ok (m, c) ->
  Nucleon_init cls p' e' kw = Ok (Nucleon_set_flags m p' e', c) /\ nm_proton m = p /\ nm_electric m = e.
Proof.
  intros cls p e kw m c p' e' H. unfold Nucleon_init in *.
  apply bind_Ok_inv in H. destruct H as [x1 [E1 H]]. rewrite E1. simpl bind.
  apply bind_Ok_inv in H. destruct H as [x2 [E2 H]]. rewrite E2. simpl bind.
  apply bind_Ok_inv in H. destruct H as [x3 [E3 H]]. rewrite E3. simpl bind.
  apply bind_Ok_inv in H. destruct H as [x4 [E4 H]]. rewrite E4. simpl bind.
  apply bind_Ok_inv in H. destruct H as [x5 [E5 H]]. rewrite E5. simpl bind.
  apply bind_Ok_inv in H. destruct H as [x6 [E6 H]]. rewrite E6. simpl bind.
  apply bind_Ok_inv in H. destruct H as [x7 [E7 H]]. rewrite E7. simpl bind.
  apply bind_Ok_inv in H. destruct H as [x8 [E8 H]]. rewrite E8. simpl bind.
  apply bind_Ok_inv in H. destruct H as [x9 [E9 H]]. rewrite E9. simpl bind.
  apply bind_Ok_inv in H. destruct H as [x10 [E10 H]]. rewrite E10. simpl bind.
  injection H as <- <-. repeat split.
Qed.
