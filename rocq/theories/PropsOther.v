(** Properties C32 (VMD model) and C33 (auxiliary models). *)
From Coq Require Import Reals List Lra Permutation Lia.
From Verif Require Import PyBase CNum OtherModels.
Import ListNotations.
Local Open Scope R_scope.

(** ** C32 *)

(** Specification: the sum of [c m^2 / (m^2 - t)] over pairs (c, m). *)
Fixpoint vmd_sum (l : list (R * R)) (t : C) : C :=
  match l with
  | [] => RtoC 0
  | (c, m) :: r => Cadd (Cdivt (RtoC (c * (m * m))) (Csub (RtoC (m * m)) t)) (vmd_sum r t)
  end.
(** t is on the pole of some meson. *)
Definition on_a_pole (l : list (R * R)) (t : C) : Prop :=
  exists c m, In (c, m) l /\ t = RtoC (m * m).

Lemma create_map : forall l, VMDModel_create l = map (fun cm => mkMeson (snd cm) (fst cm)) l.
Proof.
  intros l. unfold VMDModel_create, VMDModel_init.
  change (map (fun cm => mkMeson (snd cm) (fst cm)) l) with ([] ++ map (fun cm => mkMeson (snd cm) (fst cm)) l).
  generalize (@nil VectorMeson). induction l as [|[c m] l IH]; intros acc; simpl.
  - now rewrite app_nil_r.
  - rewrite IH. unfold add_vector_meson. now rewrite <- app_assoc.
Qed.

Definition vmd_step (t : C) (acc : Res C) (v : VectorMeson) : Res C :=
  bind acc (fun result =>
    bind (evaluate_meson_contribution t (vm_coefficient v) (vm_mass v)) (fun c => Ok (Cadd result c))).

Lemma vmd_fold_err : forall t l e, fold_left (vmd_step t) l (Err e) = Err e.
Proof. induction l; simpl; auto. Qed.

Lemma vmd_fold : forall t l acc,
  (on_a_pole l t /\
   fold_left (vmd_step t) (map (fun cm => mkMeson (snd cm) (fst cm)) l) (Ok acc) = Err ZeroDivisionError) \/
  (~ on_a_pole l t /\
   fold_left (vmd_step t) (map (fun cm => mkMeson (snd cm) (fst cm)) l) (Ok acc) = Ok (Cadd acc (vmd_sum l t))).
Proof.
  intros t. induction l as [|[c m] l IH]; intros acc; simpl.
  - right. split; [intros [c [m [[] _]]]|]. f_equal. ring.
  - unfold evaluate_meson_contribution.
    destruct (C_eq_dec t (RtoC (m * m))) as [E|N].
    + left. split; [exists c, m; split; [now left|assumption]|].
      replace (Csub (RtoC (m * m)) t) with (RtoC 0) by (rewrite E; ring).
      rewrite cdiv_zero. simpl. apply vmd_fold_err.
    + assert (D : Csub (RtoC (m * m)) t <> RtoC 0) by (intros E; apply Csub_eq in E; auto).
      rewrite cdiv_ok by assumption. simpl.
      destruct (IH (Cadd acc (Cdivt (RtoC (c * (m * m))) (Csub (RtoC (m * m)) t)))) as [[A E]|[A E]]; rewrite E.
      * left. split; [|reflexivity]. destruct A as [c' [m' [I F]]]. exists c', m'. split; [now right|assumption].
      * right. split.
        -- intros [c' [m' [[I|I] F]]]; [injection I as <- <-; contradiction|].
           apply A. exists c', m'. tauto.
        -- f_equal. ring.
Qed.

Lemma vmd_cases : forall l t, l <> [] ->
  (on_a_pole l t /\ VMDModel_call (VMDModel_create l) t = Err ZeroDivisionError) \/
  (~ on_a_pole l t /\ VMDModel_call (VMDModel_create l) t = Ok (vmd_sum l t)).
Proof.
  intros l t H. rewrite create_map.
  assert (E : VMDModel_call (map (fun cm => mkMeson (snd cm) (fst cm)) l) t =
    fold_left (vmd_step t) (map (fun cm => mkMeson (snd cm) (fst cm)) l) (Ok (RtoC 0))).
  { destruct l; [contradiction|reflexivity]. }
  rewrite E. destruct (vmd_fold t l (RtoC 0)) as [[A F]|[A F]]; rewrite F; [left|right]; split; auto.
  f_equal. ring.
Qed.

Theorem C32_vmd_exact : forall l t, l <> [] ->
  (VMDModel_call (VMDModel_create l) t = Err ZeroDivisionError <-> on_a_pole l t) /\
  (~ on_a_pole l t -> VMDModel_call (VMDModel_create l) t = Ok (vmd_sum l t)).
Proof.
  intros l t H. destruct (vmd_cases l t H) as [[A E]|[A E]]; rewrite E.
  - split; [tauto|]. intros N. contradiction.
  - split; [split; [discriminate|contradiction]|]. reflexivity.
Qed.
Print Assumptions C32_vmd_exact.

Theorem C32_vmd_empty_raises : forall t, VMDModel_call (VMDModel_create []) t = Err OtherError.
Proof. reflexivity. Qed.
Print Assumptions C32_vmd_empty_raises.

(** Building a model by successive [add_vector_meson] calls is the same as [create],
    also when more mesons are added to an existing model. *)
Theorem C32_vmd_incremental : forall l l',
  fold_left (fun m cm => add_vector_meson m (fst cm) (snd cm)) l' (VMDModel_create l) =
  VMDModel_create (l ++ l').
Proof.
  intros l l'. unfold VMDModel_create. now rewrite fold_left_app.
Qed.
Print Assumptions C32_vmd_incremental.

Theorem C32_vmd_at_zero : forall l, l <> [] -> (forall c m, In (c, m) l -> m <> 0) ->
  VMDModel_call (VMDModel_create l) (RtoC 0) = Ok (RtoC (fold_right Rplus 0 (map fst l))).
Proof.
  intros l H M. destruct (vmd_cases l (RtoC 0) H) as [[[c [m [I E]]] _]|[_ E]].
  - exfalso. apply RtoC_inj in E. apply (M c m I). symmetry in E. apply Rmult_integral in E. tauto.
  - rewrite E. f_equal. clear H E. induction l as [|[c m] l IH]; simpl; [reflexivity|].
    rewrite IH by (intros; eapply M; right; eassumption). rewrite RtoC_add. f_equal.
    assert (Hm : m <> 0) by (apply (M c m); now left).
    assert (Hmm : m * m <> 0) by (intros F; apply Rmult_integral in F; tauto).
    Cext; unfold Cnorm2; simpl; field; lra.
Qed.
Print Assumptions C32_vmd_at_zero.

Lemma vmd_sum_perm : forall l l' t, Permutation l l' -> vmd_sum l t = vmd_sum l' t.
Proof.
  intros l l' t P. induction P as [|[c m] l l' P IH|[c m] [c' m'] l|l l' l'' P1 IH1 P2 IH2]; simpl.
  - reflexivity.
  - now rewrite IH.
  - ring.
  - congruence.
Qed.

Theorem C32_vmd_order_irrelevant : forall l l' t, Permutation l l' ->
  VMDModel_call (VMDModel_create l) t = VMDModel_call (VMDModel_create l') t.
Proof.
  intros l l' t P. destruct l as [|x l].
  { apply Permutation_nil in P. now subst. }
  assert (N : x :: l <> []) by discriminate.
  assert (N' : l' <> []).
  { intros ->. apply Permutation_sym, Permutation_nil in P. discriminate. }
  assert (Q : on_a_pole (x :: l) t <-> on_a_pole l' t).
  { unfold on_a_pole. split; intros [c [m [I E]]]; exists c, m; (split; [|assumption]).
    - now apply (Permutation_in _ P).
    - now apply (Permutation_in _ (Permutation_sym P)). }
  destruct (vmd_cases (x :: l) t N) as [[A E]|[A E]];
  destruct (vmd_cases l' t N') as [[B F]|[B F]]; rewrite E, F; try tauto.
  f_equal. now apply vmd_sum_perm.
Qed.
Print Assumptions C32_vmd_order_irrelevant.

Lemma vmd_sum_app : forall l l' t, vmd_sum (l ++ l') t = Cadd (vmd_sum l t) (vmd_sum l' t).
Proof.
  induction l as [|[c m] l IH]; intros l' t; simpl; [ring|]. rewrite IH. ring.
Qed.

Theorem C32_vmd_additive : forall l l' t x y,
  VMDModel_call (VMDModel_create l) t = Ok x -> VMDModel_call (VMDModel_create l') t = Ok y ->
  VMDModel_call (VMDModel_create (l ++ l')) t = Ok (Cadd x y).
Proof.
  intros l l' t x y A B.
  assert (N : l <> []) by (intros ->; discriminate).
  assert (N' : l' <> []) by (intros ->; discriminate).
  assert (N2 : l ++ l' <> []) by (intros E; apply app_eq_nil in E; tauto).
  destruct (vmd_cases l t N) as [[P E]|[P E]]; rewrite E in A; [discriminate|].
  destruct (vmd_cases l' t N') as [[Q F]|[Q F]]; rewrite F in B; [discriminate|].
  injection A as <-. injection B as <-.
  destruct (vmd_cases (l ++ l') t N2) as [[S G]|[S G]]; rewrite G.
  - exfalso. destruct S as [c [m [I T]]]. apply in_app_or in I.
    destruct I as [I|I]; [apply P|apply Q]; exists c, m; tauto.
  - now rewrite vmd_sum_app.
Qed.
Print Assumptions C32_vmd_additive.

(** Schwarz reflection, hence real values for real t. *)
Theorem C32_vmd_real : forall l t x, Im t = 0 ->
  VMDModel_call (VMDModel_create l) t = Ok x -> Im x = 0.
Proof.
  intros l t x R A.
  assert (N : l <> []) by (intros ->; discriminate).
  destruct (vmd_cases l t N) as [[P E]|[P E]]; rewrite E in A; [discriminate|].
  injection A as <-. clear - R. induction l as [|[c m] l IH]; simpl; [reflexivity|].
  rewrite IH, R. unfold Rdiv. ring.
Qed.
Print Assumptions C32_vmd_real.

Example C32_instance : VMDModel_call (VMDModel_create [(2, 1); (3, 2)]) (RtoC 2) = Ok (RtoC 4) /\
  on_a_pole [(2, 1); (3, 2)] (RtoC 4) /\ ~ on_a_pole [(2, 1); (3, 2)] (RtoC 2).
Proof.
  assert (N : ~ on_a_pole [(2, 1); (3, 2)] (RtoC 2)).
  { intros [c [m [I E]]]. apply RtoC_inj in E. simpl in I.
    destruct I as [I|[I|[]]]; injection I as <- <-; lra. }
  repeat split; try assumption.
  - rewrite (proj2 (C32_vmd_exact [(2, 1); (3, 2)] (RtoC 2) ltac:(discriminate)) N). f_equal.
    simpl. Cext; unfold Cnorm2; simpl; field.
  - exists 3, 2. split; [simpl; tauto|]. Cext; ring.
Qed.

(** ** C33 *)

Theorem C33_etgmr_exact : forall a m_a m_d s, m_a <> 0 -> m_d <> 0 ->
  (ETGMRModel_call (ETGMRModel_init a m_a m_d) s = Err ZeroDivisionError <->
     s = RtoC (- (m_a * m_a)) \/ s = RtoC (m_d * m_d)) /\
  (s <> RtoC (- (m_a * m_a)) -> s <> RtoC (m_d * m_d) -> exists v,
     ETGMRModel_call (ETGMRModel_init a m_a m_d) s = Ok v /\
     Cmul v (Cmul (Cadd 1 (Cdivt s (RtoC (m_a * m_a))))
                  (Cmul (Csub 1 (Cdivt s (RtoC (m_d * m_d)))) (Csub 1 (Cdivt s (RtoC (m_d * m_d)))))) = RtoC a).
Proof.
  intros a m_a m_d s Ha Hd. unfold ETGMRModel_call, ETGMRModel_init. simpl et_a. simpl et_m_a_squared. simpl et_m_d_squared.
  assert (A : RtoC (m_a * m_a) <> RtoC 0).
  { apply RtoC_neq0. intros E. apply Rmult_integral in E. tauto. }
  assert (D : RtoC (m_d * m_d) <> RtoC 0).
  { apply RtoC_neq0. intros E. apply Rmult_integral in E. tauto. }
  rewrite !cdiv_ok by assumption. simpl bind.
  set (ma := RtoC (m_a * m_a)) in *. set (md := RtoC (m_d * m_d)) in *.
  replace (RtoC (- (m_a * m_a))) with (Copp ma) by (unfold ma; Cext; ring).
  assert (Z1 : Cadd 1 (Cdivt s ma) = RtoC 0 <-> s = Copp ma).
  { split; intros E.
    - transitivity (Cmul ma (Csub (Cadd 1 (Cdivt s ma)) 1)); [field; assumption|]. rewrite E. ring.
    - rewrite E. field. assumption. }
  assert (Z2 : Csub 1 (Cdivt s md) = RtoC 0 <-> s = md).
  { split; intros E.
    - transitivity (Cmul md (Csub 1 (Csub 1 (Cdivt s md)))); [field; assumption|]. rewrite E. ring.
    - rewrite E. field. assumption. }
  set (x := Cadd 1 (Cdivt s ma)) in *. set (y := Csub 1 (Cdivt s md)) in *. unfold Csq.
  assert (Z : Cmul x (Cmul y y) = RtoC 0 <-> s = Copp ma \/ s = md).
  { rewrite <- Z1, <- Z2. split.
    - intros E. apply Cmul_integral in E. destruct E as [E|E]; [tauto|]. apply Cmul_integral in E. tauto.
    - intros [E|E]; rewrite E; ring. }
  destruct (C_eq_dec (Cmul x (Cmul y y)) (RtoC 0)) as [E|N].
  - rewrite E, cdiv_zero. split; [tauto|]. intros N1 N2. tauto.
  - rewrite cdiv_ok by assumption. split.
    + split; [discriminate|]. intros H. apply Z in H. contradiction.
    + intros _ _. exists (Cdivt (RtoC a) (Cmul x (Cmul y y))). split; [reflexivity|]. 
      field. split; intros F; apply N; rewrite F; ring.
Qed.
Print Assumptions C33_etgmr_exact.

Theorem C33_etgmr_zero_mass_raises : forall a m_a m_d s, m_a = 0 \/ m_d = 0 ->
  ETGMRModel_call (ETGMRModel_init a m_a m_d) s = Err ZeroDivisionError.
Proof.
  intros a m_a m_d s H. unfold ETGMRModel_call, ETGMRModel_init. simpl et_a. simpl et_m_a_squared. simpl et_m_d_squared.
  destruct (Req_EM_T m_a 0) as [->|N].
  - rewrite Rmult_0_l, cdiv_zero. reflexivity.
  - destruct H as [H|H]; [contradiction|]. subst. rewrite cdiv_ok.
    + simpl. rewrite Rmult_0_l, cdiv_zero. reflexivity.
    + apply RtoC_neq0. intros E. apply Rmult_integral in E. tauto.
Qed.
Print Assumptions C33_etgmr_zero_mass_raises.

Theorem C33_etgmr_at_zero : forall a m_a m_d, m_a <> 0 -> m_d <> 0 ->
  ETGMRModel_call (ETGMRModel_init a m_a m_d) (RtoC 0) = Ok (RtoC a).
Proof.
  intros a m_a m_d Ha Hd.
  assert (A : m_a * m_a <> 0) by (intros E; apply Rmult_integral in E; tauto).
  assert (D : m_d * m_d <> 0) by (intros E; apply Rmult_integral in E; tauto).
  destruct (proj2 (C33_etgmr_exact a m_a m_d (RtoC 0) Ha Hd)) as [v [E F]].
  - intros E. apply RtoC_inj in E. lra.
  - intros E. apply RtoC_inj in E. lra.
  - rewrite E. f_equal. rewrite <- F.
    assert (A' := RtoC_neq0 _ A).
    assert (D' := RtoC_neq0 _ D).
    field. tauto.
Qed.
Print Assumptions C33_etgmr_at_zero.

Theorem C33_twopoles_exact : forall a m_1 m_2 s, m_1 <> 0 -> m_2 <> 0 ->
  (TwoPolesModel_call (TwoPolesModel_init a m_1 m_2) s = Err ZeroDivisionError <->
     s = RtoC (m_1 * m_1) \/ s = RtoC (m_2 * m_2)) /\
  (s <> RtoC (m_1 * m_1) -> s <> RtoC (m_2 * m_2) -> exists v,
     TwoPolesModel_call (TwoPolesModel_init a m_1 m_2) s = Ok v /\
     Cmul v (Cmul (Csub 1 (Cdivt s (RtoC (m_1 * m_1)))) (Csub 1 (Cdivt s (RtoC (m_2 * m_2))))) = RtoC a).
Proof.
  intros a m_1 m_2 s Ha Hd. unfold TwoPolesModel_call, TwoPolesModel_init. simpl tp_a. simpl tp_m_1_squared. simpl tp_m_2_squared.
  assert (A : RtoC (m_1 * m_1) <> RtoC 0).
  { apply RtoC_neq0. intros E. apply Rmult_integral in E. tauto. }
  assert (D : RtoC (m_2 * m_2) <> RtoC 0).
  { apply RtoC_neq0. intros E. apply Rmult_integral in E. tauto. }
  rewrite !cdiv_ok by assumption. simpl bind.
  set (ma := RtoC (m_1 * m_1)) in *. set (md := RtoC (m_2 * m_2)) in *.
  assert (Zg : forall u, u <> RtoC 0 -> (Csub 1 (Cdivt s u) = RtoC 0 <-> s = u)).
  { intros u Hu. split; intros E.
    - transitivity (Cmul u (Csub 1 (Csub 1 (Cdivt s u)))); [field; assumption|]. rewrite E. ring.
    - rewrite E. field. assumption. }
  assert (Z1 := Zg ma A). assert (Z2 := Zg md D).
  set (x := Csub 1 (Cdivt s ma)) in *. set (y := Csub 1 (Cdivt s md)) in *.
  assert (Z : Cmul x y = RtoC 0 <-> s = ma \/ s = md).
  { rewrite <- Z1, <- Z2. split.
    - apply Cmul_integral.
    - intros [E|E]; rewrite E; ring. }
  destruct (C_eq_dec (Cmul x y) (RtoC 0)) as [E|N].
  - rewrite E, cdiv_zero. split; [tauto|]. intros N1 N2. tauto.
  - rewrite cdiv_ok by assumption. split.
    + split; [discriminate|]. intros H. apply Z in H. contradiction.
    + intros _ _. exists (Cdivt (RtoC a) (Cmul x y)). split; [reflexivity|].
      field. split; intros F; apply N; rewrite F; ring.
Qed.
Print Assumptions C33_twopoles_exact.

(** Exchanging the two masses changes nothing, not even the failures. *)
Theorem C33_twopoles_symmetric : forall a m_1 m_2 s,
  TwoPolesModel_call (TwoPolesModel_init a m_1 m_2) s =
  TwoPolesModel_call (TwoPolesModel_init a m_2 m_1) s.
Proof.
  intros a m_1 m_2 s. unfold TwoPolesModel_call, TwoPolesModel_init. simpl tp_a. simpl tp_m_1_squared. simpl tp_m_2_squared.
  unfold cdiv at 1 2 4 5.
  destruct (C_eq_dec (RtoC (m_1 * m_1)) (RtoC 0)); destruct (C_eq_dec (RtoC (m_2 * m_2)) (RtoC 0)); simpl; try reflexivity.
  f_equal. ring.
Qed.
Print Assumptions C33_twopoles_symmetric.

(** Conjugation symmetry (real values for real arguments follow). *)
Definition conj_result (x : Res C) : Res C := match x with Ok v => Ok (Cconj v) | Err e => Err e end.

Lemma cdiv_conj' : forall a b, cdiv (Cconj a) (Cconj b) = conj_result (cdiv a b).
Proof.
  intros a b. destruct (C_eq_dec b (RtoC 0)) as [->|N].
  - rewrite Cconj_RtoC, !cdiv_zero. reflexivity.
  - rewrite !cdiv_ok; [simpl; now rewrite Cconj_div|assumption|now rewrite Cconj_0_iff].
Qed.

Theorem C33_reflection : forall a m_1 m_2 s,
  ETGMRModel_call (ETGMRModel_init a m_1 m_2) (Cconj s) =
    conj_result (ETGMRModel_call (ETGMRModel_init a m_1 m_2) s) /\
  TwoPolesModel_call (TwoPolesModel_init a m_1 m_2) (Cconj s) =
    conj_result (TwoPolesModel_call (TwoPolesModel_init a m_1 m_2) s).
Proof.
  intros a m_1 m_2 s. unfold ETGMRModel_call, ETGMRModel_init, TwoPolesModel_call, TwoPolesModel_init.
  simpl et_a. simpl et_m_a_squared. simpl et_m_d_squared. simpl tp_a. simpl tp_m_1_squared. simpl tp_m_2_squared.
  assert (K : forall x : R, cdiv (Cconj s) (RtoC x) = conj_result (cdiv s (RtoC x))).
  { intros x. rewrite <- cdiv_conj', Cconj_RtoC. reflexivity. }
  rewrite !K. clear K.
  split.
  - destruct (cdiv s (RtoC (m_1 * m_1))) as [q1|]; [|reflexivity]. simpl bind.
    destruct (cdiv s (RtoC (m_2 * m_2))) as [q2|]; [|reflexivity]. simpl bind.
    rewrite <- cdiv_conj', Cconj_RtoC. f_equal. unfold Csq.
    rewrite !Cconj_mul, Cconj_add, Cconj_sub, Cconj_RtoC. reflexivity.
  - destruct (cdiv s (RtoC (m_1 * m_1))) as [q1|]; [|reflexivity]. simpl bind.
    destruct (cdiv s (RtoC (m_2 * m_2))) as [q2|]; [|reflexivity]. simpl bind.
    rewrite <- cdiv_conj', Cconj_RtoC. f_equal.
    rewrite Cconj_mul, !Cconj_sub, Cconj_RtoC. reflexivity.
Qed.
Print Assumptions C33_reflection.

Theorem C33_real : forall a m_1 m_2 s v, Im s = 0 ->
  (ETGMRModel_call (ETGMRModel_init a m_1 m_2) s = Ok v \/
   TwoPolesModel_call (TwoPolesModel_init a m_1 m_2) s = Ok v) -> Im v = 0.
Proof.
  intros a m_1 m_2 s v H E. apply Cconj_real_iff in H. destruct (C33_reflection a m_1 m_2 s) as [A B].
  rewrite H in A, B. apply Cconj_real_iff.
  destruct E as [E|E]; [rewrite E in A; simpl in A|rewrite E in B; simpl in B]; congruence.
Qed.
Print Assumptions C33_real.

(** Damped oscillations. *)
Theorem C33_damped_bounded : forall a b c d x,
  Rabs (DampedOscillations_call (mkDamped a b c d) x) <= Rabs a * exp (- (b * x)).
Proof.
  intros a b c d x. unfold DampedOscillations_call. simpl.
  replace (-1 * b * x) with (- (b * x)) by ring.
  rewrite !Rabs_mult, (Rabs_pos_eq (exp _)) by (apply Rlt_le, exp_pos).
  rewrite <- (Rmult_1_r (Rabs a * exp (- (b * x)))) at 2.
  apply Rmult_le_compat_l.
  - apply Rmult_le_pos; [apply Rabs_pos|apply Rlt_le, exp_pos].
  - apply Rabs_le. apply COS_bound.
Qed.
Print Assumptions C33_damped_bounded.

Theorem C33_damped_linear : forall a a' k b c d x,
  DampedOscillations_call (mkDamped (k * a + a') b c d) x =
  k * DampedOscillations_call (mkDamped a b c d) x + DampedOscillations_call (mkDamped a' b c d) x.
Proof. intros. unfold DampedOscillations_call. simpl. ring. Qed.
Print Assumptions C33_damped_linear.

Theorem C33_damped_periodic : forall a b c d x, c <> 0 ->
  DampedOscillations_call (mkDamped a b c d) (x + 2 * PI / c) =
  exp (- (b * (2 * PI / c))) * DampedOscillations_call (mkDamped a b c d) x.
Proof.
  intros a b c d x Hc. unfold DampedOscillations_call. simpl.
  replace (c * (x + 2 * PI / c) + d) with ((c * x + d) + 2 * PI) by (field; assumption).
  rewrite cos_plus, cos_2PI, sin_2PI.
  replace (-1 * b * (x + 2 * PI / c)) with (- (b * (2 * PI / c)) + -1 * b * x) by (field; assumption).
  rewrite exp_plus. ring.
Qed.
Print Assumptions C33_damped_periodic.

Theorem C33_damped_phase_shift : forall a b c d x,
  DampedOscillations_call (mkDamped a b c (d + 2 * PI)) x =
  DampedOscillations_call (mkDamped a b c d) x /\
  DampedOscillations_call (mkDamped a b c (d + PI)) x =
  DampedOscillations_call (mkDamped (- a) b c d) x.
Proof.
  intros a b c d x. unfold DampedOscillations_call. simpl. split.
  - replace (c * x + (d + 2 * PI)) with ((c * x + d) + 2 * PI) by ring.
    rewrite cos_plus, cos_2PI, sin_2PI. ring.
  - replace (c * x + (d + PI)) with ((c * x + d) + PI) by ring.
    rewrite neg_cos. ring.
Qed.
Print Assumptions C33_damped_phase_shift.

Example C33_instance :
  ETGMRModel_call (ETGMRModel_init 6 1 2) (RtoC 2) = Ok (RtoC 8) /\
  TwoPolesModel_call (TwoPolesModel_init 6 1 2) (RtoC 2) = Ok (RtoC (-12)) /\
  DampedOscillations_call (mkDamped 3 1 2 0) 0 = 3.
Proof.
  split; [|split].
  - destruct (proj2 (C33_etgmr_exact 6 1 2 (RtoC 2) ltac:(lra) ltac:(lra))) as [v [E F]].
    + intros E. apply RtoC_inj in E. lra.
    + intros E. apply RtoC_inj in E. lra.
    + rewrite E. f_equal.
      match type of F with Cmul _ ?d = _ =>
        replace d with (RtoC (3/4)) in F by (Cext; unfold Cnorm2; simpl; field) end.
      transitivity (Cmul (Cmul v (RtoC (3/4))) (RtoC (4/3))); [Cext; field|]. rewrite F. Cext; field.
  - destruct (proj2 (C33_twopoles_exact 6 1 2 (RtoC 2) ltac:(lra) ltac:(lra))) as [v [E F]].
    + intros E. apply RtoC_inj in E. lra.
    + intros E. apply RtoC_inj in E. lra.
    + rewrite E. f_equal.
      match type of F with Cmul _ ?d = _ =>
        replace d with (RtoC (-1/2)) in F by (Cext; unfold Cnorm2; simpl; field) end.
      transitivity (Cmul (Cmul v (RtoC (-1/2))) (RtoC (-2))); [Cext; field|]. rewrite F. Cext; field.
  - unfold DampedOscillations_call. simpl. replace (-1 * 1 * 0) with 0 by ring.
    replace (2 * 0 + 0) with 0 by ring. rewrite exp_0, cos_0. ring.
Qed.
