(** Lemmas about the square root and the coordinate maps. *)
From Coq Require Import Reals Lra Psatz.
From Verif Require Import PyBase CNum UAMaps.
Local Open Scope R_scope.

(** ** The square root *)

(** The half plane in which the chosen root lies. *)
Definition upper (s : C) : Prop := 0 < Im s \/ (Im s = 0 /\ 0 <= Re s).

Definition shifted_phase (z : C) : R :=
  let phi := atan2 (Im z) (Re z) in
  if Rlt_dec phi 0 then 2 * PI + phi else phi.

Lemma shifted_phase_range : forall z, 0 <= shifted_phase z < 2 * PI.
Proof.
  intros z. unfold shifted_phase. assert (P := atan2_range (Im z) (Re z)).
  assert (Q := PI_RGT_0).
  destruct (Rlt_dec (atan2 (Im z) (Re z)) 0); lra.
Qed.

Lemma square_root_re_im : forall z,
  Re (square_root z) = sqrt (Cabs z) * cos (shifted_phase z / 2) /\
  Im (square_root z) = sqrt (Cabs z) * sin (shifted_phase z / 2).
Proof.
  intros z. unfold square_root, polar. fold (shifted_phase z).
  change (if Rlt_dec (atan2 (Im z) (Re z)) 0
          then 2 * PI + atan2 (Im z) (Re z) else atan2 (Im z) (Re z))
    with (shifted_phase z).
  set (p := shifted_phase z).
  assert (E : (Ci * RtoC p / 2)%C = mkC 0 (p / 2)).
  { Cext; unfold Cdivt, Cinv, Cnorm2; simpl; field. }
  rewrite E. unfold Cexp. simpl. rewrite exp_0. split; ring.
Qed.

Global Opaque square_root.

Lemma cos_shifted : forall z, cos (shifted_phase z) = cos (atan2 (Im z) (Re z)).
Proof.
  intros z. unfold shifted_phase.
  destruct (Rlt_dec (atan2 (Im z) (Re z)) 0); [|reflexivity].
  rewrite Rplus_comm. replace (2 * PI) with (2 * INR 1 * PI) by (simpl; ring).
  apply cos_period.
Qed.

Lemma sin_shifted : forall z, sin (shifted_phase z) = sin (atan2 (Im z) (Re z)).
Proof.
  intros z. unfold shifted_phase.
  destruct (Rlt_dec (atan2 (Im z) (Re z)) 0); [|reflexivity].
  rewrite Rplus_comm. replace (2 * PI) with (2 * INR 1 * PI) by (simpl; ring).
  apply sin_period.
Qed.

Lemma square_root_sq : forall z, Cmul (square_root z) (square_root z) = z.
Proof.
  intros z. destruct (square_root_re_im z) as [E1 E2].
  destruct (polar_correct z) as [P1 P2].
  rewrite <- cos_shifted in P1. rewrite <- sin_shifted in P2.
  set (p := shifted_phase z) in *.
  assert (S : sqrt (Cabs z) * sqrt (Cabs z) = Cabs z) by (apply sqrt_sqrt, Cabs_nonneg).
  assert (D1 : cos p = cos (p / 2) * cos (p / 2) - sin (p / 2) * sin (p / 2)).
  { replace p with (2 * (p / 2)) at 1 by field. apply cos_2a. }
  assert (D2 : sin p = 2 * sin (p / 2) * cos (p / 2)).
  { replace p with (2 * (p / 2)) at 1 by field. apply sin_2a. }
  set (q := sqrt (Cabs z)) in *.
  apply C_ext; simpl; rewrite E1, E2.
  - transitivity (Cabs z * cos p); [|symmetry; exact P1]. rewrite D1, <- S. ring.
  - transitivity (Cabs z * sin p); [|symmetry; exact P2]. rewrite D2, <- S. ring.
Qed.

Lemma square_root_upper : forall z, upper (square_root z).
Proof.
  intros z. destruct (square_root_re_im z) as [E1 E2].
  assert (R := shifted_phase_range z). set (p := shifted_phase z) in *.
  assert (N := sqrt_pos (Cabs z)). assert (Q := PI_RGT_0).
  unfold upper. rewrite E1, E2.
  destruct (Req_EM_T p 0) as [Ep|Np].
  - right. replace (p / 2) with 0 by lra. rewrite sin_0, cos_0. split; lra.
  - assert (0 < sin (p / 2)) by (apply sin_gt_0; lra).
    destruct N as [N|N].
    + left. nra.
    + right. rewrite <- N. split; lra.
Qed.

Lemma upper_sq_inj : forall s s', upper s -> upper s' ->
  Cmul s s = Cmul s' s' -> s = s'.
Proof.
  intros s s' U U' E.
  assert (F : Cmul (Csub s s') (Cadd s s') = RtoC 0).
  { transitivity (Csub (Cmul s s) (Cmul s' s')); [ring|]. rewrite E. ring. }
  apply Cmul_integral in F. destruct F as [F|F].
  - now apply Csub_eq0.
  - assert (E1 : Re s + Re s' = 0) by (injection F; auto).
    assert (E2 : Im s + Im s' = 0) by (injection F; auto).
    unfold upper in *. apply C_ext; lra.
Qed.

Lemma square_root_unique : forall z s, upper s -> Cmul s s = z -> square_root z = s.
Proof.
  intros z s U E. apply upper_sq_inj; [apply square_root_upper | assumption |].
  now rewrite square_root_sq.
Qed.

Lemma upper_m1 : forall v, upper v -> Cadd v 1 <> RtoC 0.
Proof.
  intros v U E. unfold upper in U.
  assert (E1 : Re v + 1 = 0) by (injection E; auto).
  assert (E2 : Im v + 0 = 0) by (injection E; auto). lra.
Qed.

Lemma square_root_0_iff : forall z, square_root z = RtoC 0 <-> z = RtoC 0.
Proof.
  intros z; split; intros H.
  - rewrite <- (square_root_sq z), H. ring.
  - apply square_root_unique; [right; simpl; lra|]. rewrite H. ring.
Qed.

Lemma square_root_nonneg : forall x : R, 0 <= x -> square_root x = RtoC (sqrt x).
Proof.
  intros x H. apply square_root_unique.
  - right. simpl. split; [reflexivity | apply sqrt_pos].
  - rewrite <- RtoC_mul, sqrt_sqrt by assumption. reflexivity.
Qed.

Lemma square_root_neg : forall x : R, x < 0 -> square_root x = mkC 0 (sqrt (- x)).
Proof.
  intros x H. apply square_root_unique.
  - left. simpl. apply sqrt_lt_R0. lra.
  - Cext; [|ring]. replace (0 * 0 - sqrt (- x) * sqrt (- x)) with (- (sqrt (- x) * sqrt (- x))) by ring.
    rewrite sqrt_sqrt by lra. ring.
Qed.

(** The cut: non-negative real numbers. *)
Definition on_cut (z : C) : Prop := Im z = 0 /\ 0 <= Re z.

Lemma on_cut_dec : forall z, {on_cut z} + {~ on_cut z}.
Proof.
  intros z. unfold on_cut. destruct (Req_EM_T (Im z) 0); [|right; tauto].
  destruct (Rle_dec 0 (Re z)); [left; tauto | right; tauto].
Qed.

Lemma square_root_off_cut : forall z, ~ on_cut z <-> 0 < Im (square_root z).
Proof.
  intros z. assert (S := square_root_sq z). assert (U := square_root_upper z).
  set (s := square_root z) in *.
  assert (E1 : Re z = Re s * Re s - Im s * Im s) by (rewrite <- S; reflexivity).
  assert (E2 : Im z = Re s * Im s + Im s * Re s) by (rewrite <- S; reflexivity).
  unfold on_cut, upper in *. split; intros H.
  - destruct U as [U|[U1 U2]]; [assumption|].
    exfalso. apply H. rewrite E1, E2, U1. split; nra.
  - intros [H1 H2]. rewrite E2 in H1. assert (Re s = 0) by nra.
    rewrite E1 in H2. nra.
Qed.

Lemma square_root_conj : forall z, ~ on_cut z ->
  square_root (Cconj z) = Copp (Cconj (square_root z)).
Proof.
  intros z H. apply square_root_off_cut in H.
  apply square_root_unique.
  - left. simpl. lra.
  - transitivity (Cconj (Cmul (square_root z) (square_root z))).
    + rewrite Cconj_mul. ring.
    + now rewrite square_root_sq.
Qed.

(** ** Validation and construction of the maps *)

Lemma validate_ok_iff : forall t_0 t_in,
  validate_branch_point_positions t_0 t_in = Ok tt <-> 0 <= t_0 <= t_in.
Proof.
  intros. unfold validate_branch_point_positions.
  destruct (Rlt_dec t_0 0); [split; [discriminate|lra]|].
  destruct (Rlt_dec t_in t_0); [split; [discriminate|lra]|].
  split; [lra|reflexivity].
Qed.

Lemma validate_cases : forall t_0 t_in,
  (0 <= t_0 <= t_in /\ validate_branch_point_positions t_0 t_in = Ok tt) \/
  (~ (0 <= t_0 <= t_in) /\ validate_branch_point_positions t_0 t_in = Err ValueError).
Proof.
  intros. unfold validate_branch_point_positions.
  destruct (Rlt_dec t_0 0); [right; split; [lra|reflexivity]|].
  destruct (Rlt_dec t_in t_0); [right; split; [lra|reflexivity]|].
  left; split; [lra|reflexivity].
Qed.

Lemma MapTW_init_ok : forall t_0 t_in, 0 <= t_0 <= t_in ->
  MapFromTtoW_init t_0 t_in = Ok (mkMapTW t_0 t_in (sqrt (t_in - t_0))).
Proof.
  intros t_0 t_in H. unfold MapFromTtoW_init.
  rewrite (proj2 (validate_ok_iff t_0 t_in) H). simpl.
  rewrite rsqrt_ok by lra. reflexivity.
Qed.

Lemma MapTW_init_inv : forall t_0 t_in m, MapFromTtoW_init t_0 t_in = Ok m ->
  0 <= t_0 <= t_in /\ m = mkMapTW t_0 t_in (sqrt (t_in - t_0)).
Proof.
  intros t_0 t_in m H.
  destruct (validate_cases t_0 t_in) as [[V E]|[V E]].
  - rewrite MapTW_init_ok in H by assumption. injection H as <-. tauto.
  - unfold MapFromTtoW_init in H. rewrite E in H. discriminate.
Qed.

Lemma MapTW_init_err : forall t_0 t_in, ~ (0 <= t_0 <= t_in) ->
  MapFromTtoW_init t_0 t_in = Err ValueError.
Proof.
  intros t_0 t_in H.
  destruct (validate_cases t_0 t_in) as [[V E]|[V E]]; [contradiction|].
  unfold MapFromTtoW_init. now rewrite E.
Qed.

(** ** The map from t to W *)

(** The value of the map, as a total function (meaningful for [t <> t_in]). *)
Definition zt (t_0 : R) (t : C) : C := square_root (Csub t t_0).
Definition vt (t_0 t_in : R) (t : C) : C :=
  let a := RtoC (sqrt (t_in - t_0)) in
  square_root (Cdivt (Cadd (zt t_0 t) a) (Cadd (Copp (zt t_0 t)) a)).
Definition Wt (t_0 t_in : R) (t : C) : C :=
  Cdivt (Cmul Ci (Csub (vt t_0 t_in t) 1)) (Cadd (vt t_0 t_in t) 1).

Arguments zt : simpl never.
Arguments vt : simpl never.
Arguments Wt : simpl never.

Definition tw (t_0 t_in : R) : MapTW := mkMapTW t_0 t_in (sqrt (t_in - t_0)).

Lemma zt_eq : forall t_0 t, zt t_0 t = square_root (Csub t t_0).
Proof. reflexivity. Qed.

Lemma Cabs_le_1 : forall w, Cnorm2 w <= 1 -> Cabs w <= 1.
Proof. intros w H. unfold Cabs. rewrite <- sqrt_1. now apply sqrt_le_1_alt. Qed.
Lemma Cabs_lt_1 : forall w, Cnorm2 w < 1 -> Cabs w < 1.
Proof.
  intros w H. unfold Cabs. rewrite <- sqrt_1. apply sqrt_lt_1_alt.
  split; [apply Cnorm2_nonneg|assumption].
Qed.

Section Map.
Variables t_0 t_in : R.
Hypothesis Hlt : t_0 < t_in.

Let a := sqrt (t_in - t_0).

Lemma a_pos : 0 < a.
Proof. apply sqrt_lt_R0. lra. Qed.
Lemma a_sq : a * a = t_in - t_0.
Proof. apply sqrt_sqrt. lra. Qed.

Lemma zt_sq : forall t, Cmul (zt t_0 t) (zt t_0 t) = Csub t t_0.
Proof. intros. apply square_root_sq. Qed.

Lemma zt_eq_a_iff : forall t, zt t_0 t = RtoC a <-> t = RtoC t_in.
Proof.
  intros t. assert (P := a_pos). assert (Q := a_sq). split; intros H.
  - assert (E := zt_sq t). rewrite H, <- RtoC_mul, Q in E.
    assert (E2 : t = Cadd (Csub t t_0) t_0) by ring.
    rewrite E2, <- E, <- RtoC_add. f_equal. ring.
  - subst t. unfold zt. rewrite <- RtoC_sub. rewrite square_root_nonneg by lra. reflexivity.
Qed.

Lemma zt_0_iff : forall t, zt t_0 t = RtoC 0 <-> t = RtoC t_0.
Proof. intros t. unfold zt. rewrite square_root_0_iff. apply Csub_eq0. Qed.

Lemma den_neq0 : forall t, t <> RtoC t_in -> Cadd (Copp (zt t_0 t)) a <> RtoC 0.
Proof.
  intros t H E. apply H, zt_eq_a_iff. symmetry. apply Csub_eq0.
  rewrite <- E. unfold a. ring.
Qed.

Lemma Map_call_ok : forall t, t <> RtoC t_in ->
  MapFromTtoW_call (tw t_0 t_in) t = Ok (Wt t_0 t_in t).
Proof.
  intros t H. unfold MapFromTtoW_call, tw; simpl. fold (zt t_0 t).
  rewrite cdiv_ok by (apply den_neq0; assumption). simpl.
  rewrite cdiv_ok; [reflexivity|]. apply upper_m1, square_root_upper.
Qed.

Lemma Map_call_tin : MapFromTtoW_call (tw t_0 t_in) t_in = Err ZeroDivisionError.
Proof.
  unfold MapFromTtoW_call, tw; simpl. fold (zt t_0 t_in).
  rewrite (proj2 (zt_eq_a_iff t_in) eq_refl). fold a.
  replace (Cadd (Copp a) a) with (RtoC 0) by ring.
  rewrite cdiv_zero. reflexivity.
Qed.

Lemma Map_call_cases : forall t,
  (t = RtoC t_in /\ MapFromTtoW_call (tw t_0 t_in) t = Err ZeroDivisionError) \/
  (t <> RtoC t_in /\ MapFromTtoW_call (tw t_0 t_in) t = Ok (Wt t_0 t_in t)).
Proof.
  intros t. destruct (C_eq_dec t t_in) as [->|N].
  - left. split; [reflexivity|apply Map_call_tin].
  - right. split; [assumption|now apply Map_call_ok].
Qed.

Lemma vt_sq : forall t, t <> RtoC t_in ->
  Cmul (vt t_0 t_in t) (vt t_0 t_in t) =
  Cdivt (Cadd (zt t_0 t) a) (Cadd (Copp (zt t_0 t)) a).
Proof. intros t H. apply square_root_sq. Qed.

Lemma vt_upper : forall t, upper (vt t_0 t_in t).
Proof. intros. apply square_root_upper. Qed.

Lemma vt_1_iff : forall t, t <> RtoC t_in -> (vt t_0 t_in t = RtoC 1 <-> t = RtoC t_0).
Proof.
  intros t H. assert (D := den_neq0 t H). split; intros E.
  - apply zt_0_iff. assert (S := vt_sq t H). rewrite E in S.
    set (z := zt t_0 t) in *.
    assert (F : Cadd z a = Cadd (Copp z) a).
    { transitivity (Cmul (Cdivt (Cadd z a) (Cadd (Copp z) a)) (Cadd (Copp z) a)).
      - field. assumption.
      - rewrite <- S. ring. }
    apply C_ext; [apply (f_equal Re) in F | apply (f_equal Im) in F]; simpl in *; lra.
  - subst t. unfold vt. rewrite (proj2 (zt_0_iff t_0) eq_refl).
    apply square_root_unique; [right; simpl; lra|].
    fold a. assert (P := a_pos). field.
    replace (Cadd (Copp 0) a) with (RtoC a) by ring. apply RtoC_neq0. lra.
Qed.

Lemma vt_p1 : forall t, Cadd (vt t_0 t_in t) 1 <> RtoC 0.
Proof. intros. apply upper_m1, vt_upper. Qed.

Lemma Wt_0_iff : forall t, t <> RtoC t_in -> (Wt t_0 t_in t = RtoC 0 <-> t = RtoC t_0).
Proof.
  intros t H. rewrite <- (vt_1_iff t H). unfold Wt. assert (P := vt_p1 t).
  set (v := vt t_0 t_in t) in *. split; intros E.
  - assert (F : Cmul Ci (Csub v 1) = RtoC 0).
    { transitivity (Cmul (Cdivt (Cmul Ci (Csub v 1)) (Cadd v 1)) (Cadd v 1)).
      - field. assumption.
      - rewrite E. ring. }
    apply Cmul_integral in F. destruct F as [F|F]; [now apply Ci_neq0 in F|].
    now apply Csub_eq0.
  - rewrite E in *. field. assumption.
Qed.

(** The key identity: W - 1/W = 2 i a / z. *)
Lemma W_identity : forall t, t <> RtoC t_in -> t <> RtoC t_0 ->
  Csub (Wt t_0 t_in t) (Cinv (Wt t_0 t_in t)) =
  Cdivt (Cmul (Cmul 2 Ci) a) (zt t_0 t).
Proof.
  intros t H H0. assert (D := den_neq0 t H). assert (S := vt_sq t H).
  assert (P := vt_p1 t).
  assert (V1 : Csub (vt t_0 t_in t) 1 <> RtoC 0).
  { intros E. apply Csub_eq in E. apply (vt_1_iff t H) in E. contradiction. }
  assert (Z0 : zt t_0 t <> RtoC 0) by (intros E; apply zt_0_iff in E; contradiction).
  unfold Wt. set (v := vt t_0 t_in t) in *. set (z := zt t_0 t) in *.
  assert (I := Ci_neq0). assert (I2 := Ci_sq).
  assert (E : Csub (Cdivt (Cmul Ci (Csub v 1)) (Cadd v 1)) (Cinv (Cdivt (Cmul Ci (Csub v 1)) (Cadd v 1)))
           = Cdivt (Cmul (Cmul 2 Ci) (Cadd (Cmul v v) 1)) (Csub (Cmul v v) 1)).
  { assert (Q : Csub (Cmul v v) 1 <> RtoC 0).
    { replace (Csub (Cmul v v) 1) with (Cmul (Csub v 1) (Cadd v 1)) by ring.
      now apply Cmul_neq0. }
    assert (R1 : Cinv (Cdivt (Cmul Ci (Csub v 1)) (Cadd v 1)) =
                 Copp (Cmul Ci (Cdivt (Cadd v 1) (Csub v 1)))).
    { transitivity (Cdivt (Cmul (Copp (Cmul Ci Ci)) (Cadd v 1)) (Cmul Ci (Csub v 1))).
      - rewrite Ci_sq. field. tauto.
      - field. tauto. }
    rewrite R1. replace 2%C with (Cadd 1 1) by (Cext; ring).
    field. tauto. }
  rewrite E, S.
  assert (N2 : RtoC 2 <> RtoC 0) by (apply RtoC_neq0; lra).
  assert (F1 : Cadd (Cdivt (Cadd z a) (Cadd (Copp z) a)) 1 = Cdivt (Cmul 2 a) (Cadd (Copp z) a)).
  { replace 2%C with (Cadd 1 1) by (Cext; ring). field. assumption. }
  assert (F2 : Csub (Cdivt (Cadd z a) (Cadd (Copp z) a)) 1 = Cdivt (Cmul 2 z) (Cadd (Copp z) a)).
  { replace 2%C with (Cadd 1 1) by (Cext; ring). field. assumption. }
  rewrite F1, F2. field. repeat split; assumption.
Qed.

Lemma W_identity_sq : forall t, t <> RtoC t_in -> t <> RtoC t_0 ->
  Csq (Csub (Wt t_0 t_in t) (Cinv (Wt t_0 t_in t))) =
  Copp (Cdivt (RtoC (4 * (t_in - t_0))) (Csub t t_0)).
Proof.
  intros t H H0. rewrite W_identity by assumption.
  assert (Z0 : zt t_0 t <> RtoC 0) by (intros E; apply zt_0_iff in E; contradiction).
  rewrite <- zt_sq, <- a_sq. unfold Csq. rewrite !RtoC_mul.
  transitivity (Cdivt (Cmul (Cmul (Cmul 2 2) (Cmul Ci Ci)) (Cmul a a)) (Cmul (zt t_0 t) (zt t_0 t))).
  - field. assumption.
  - rewrite Ci_sq. replace (RtoC 4) with (Cmul 2 2) by (Cext; ring). field. assumption.
Qed.

(** Round trip t -> W -> t. *)
Lemma round_trip_t : forall t, t <> RtoC t_in -> t <> RtoC t_0 ->
  MapFromWtoT_call (mkMapWT t_0 t_in (t_in - t_0)) (Wt t_0 t_in t) = Ok t.
Proof.
  intros t H H0. unfold MapFromWtoT_call, z_minus_its_reciprocal; simpl.
  assert (W0 : Wt t_0 t_in t <> RtoC 0) by (intros E; apply Wt_0_iff in E; auto).
  rewrite cdiv_ok by assumption. simpl.
  replace (Cdivt 1 (Wt t_0 t_in t)) with (Cinv (Wt t_0 t_in t)) by (field; assumption).
  rewrite W_identity_sq by assumption.
  assert (T0 : Csub t t_0 <> RtoC 0) by (intros E; apply Csub_eq in E; auto).
  assert (D0 : RtoC (4 * (t_in - t_0)) <> RtoC 0) by (apply RtoC_neq0; lra).
  assert (Q : Copp (Cdivt (RtoC (4 * (t_in - t_0))) (Csub t t_0)) <> RtoC 0).
  { apply Copp_neq0, Cdivt_neq0; assumption. }
  rewrite cdiv_ok by assumption. simpl. f_equal.
  assert (D1 := Copp_neq0 _ D0). field. tauto.
Qed.

(** *** Real and imaginary part of W in terms of v *)

Lemma W_parts : forall v, Cadd v 1 <> RtoC 0 ->
  Re (Cdivt (Cmul Ci (Csub v 1)) (Cadd v 1)) = -2 * Im v / Cnorm2 (Cadd v 1) /\
  Im (Cdivt (Cmul Ci (Csub v 1)) (Cadd v 1)) = (Cnorm2 v - 1) / Cnorm2 (Cadd v 1).
Proof.
  intros [x y] H. apply Cnorm2_pos in H. unfold Cdivt, Cinv, Cnorm2 in *; simpl in *.
  split; field; lra.
Qed.

Lemma W_norm : forall v, Cadd v 1 <> RtoC 0 ->
  Cnorm2 (Cdivt (Cmul Ci (Csub v 1)) (Cadd v 1)) =
  (Cnorm2 v + 1 - 2 * Re v) / (Cnorm2 v + 1 + 2 * Re v).
Proof.
  intros [x y] H. apply Cnorm2_pos in H. unfold Cdivt, Cinv, Cnorm2 in *; simpl in *.
  field. nra.
Qed.

Lemma vp1_norm : forall v, Cnorm2 (Cadd v 1) = Cnorm2 v + 1 + 2 * Re v.
Proof. intros [x y]. unfold Cdivt, Cinv, Cnorm2; simpl; ring. Qed.

(** The Moebius image of z. *)
Definition Tz (t : C) : C := Cdivt (Cadd (zt t_0 t) a) (Cadd (Copp (zt t_0 t)) a).

Lemma Tz_im : forall t, t <> RtoC t_in ->
  Im (Tz t) = 2 * a * Im (zt t_0 t) / Cnorm2 (Cadd (Copp (zt t_0 t)) a).
Proof.
  intros t H. assert (D := den_neq0 t H). apply Cnorm2_pos in D. unfold Tz.
  destruct (zt t_0 t) as [x y]. unfold Cdivt, Cinv, Cnorm2 in *; simpl in *. field. lra.
Qed.

Lemma Tz_norm : forall t, t <> RtoC t_in ->
  Cnorm2 (Tz t) - 1 = 4 * a * Re (zt t_0 t) / Cnorm2 (Cadd (Copp (zt t_0 t)) a).
Proof.
  intros t H. assert (D := den_neq0 t H). apply Cnorm2_pos in D. unfold Tz.
  destruct (zt t_0 t) as [x y]. unfold Cdivt, Cinv, Cnorm2 in *; simpl in *. field. lra.
Qed.

Lemma v_norm_sq : forall t, t <> RtoC t_in ->
  Cnorm2 (vt t_0 t_in t) * Cnorm2 (vt t_0 t_in t) = Cnorm2 (Tz t).
Proof. intros t H. rewrite <- Cnorm2_mul. rewrite vt_sq by assumption. reflexivity. Qed.

Lemma vt_re_nonneg : forall t, t <> RtoC t_in -> 0 <= Re (vt t_0 t_in t).
Proof.
  intros t H. assert (S := vt_sq t H). assert (U := vt_upper t).
  assert (I := Tz_im t H). assert (D := den_neq0 t H). apply Cnorm2_pos in D.
  assert (ZU : upper (zt t_0 t)) by apply square_root_upper.
  assert (P := a_pos).
  assert (I2 : 0 <= Im (Tz t)).
  { rewrite I. apply Rmult_le_pos; [|apply Rlt_le, Rinv_0_lt_compat; assumption].
    apply Rmult_le_pos; [lra|]. unfold upper in ZU. lra. }
  fold (Tz t) in S. rewrite <- S in I2. simpl in I2.
  unfold upper in U. nra.
Qed.

Lemma Wt_half_disc : forall t, t <> RtoC t_in ->
  Re (Wt t_0 t_in t) <= 0 /\ Cabs (Wt t_0 t_in t) <= 1.
Proof.
  intros t H. assert (P := vt_p1 t). assert (Q := vt_re_nonneg t H).
  assert (U := vt_upper t).
  unfold Wt. destruct (W_parts _ P) as [E1 E2]. assert (N := W_norm _ P).
  assert (Pn := Cnorm2_pos _ P). assert (Nv := Cnorm2_nonneg (vt t_0 t_in t)).
  split.
  - rewrite E1. apply Rmult_le_reg_r with (Cnorm2 (Cadd (vt t_0 t_in t) 1)); [assumption|].
    unfold Rdiv. rewrite Rmult_assoc, Rinv_l by lra. unfold upper in U. lra.
  - apply Cabs_le_1. rewrite N.
    apply Rmult_le_reg_r with (Cnorm2 (vt t_0 t_in t) + 1 + 2 * Re (vt t_0 t_in t)); [lra|].
    unfold Rdiv. rewrite Rmult_assoc, Rinv_l by lra. lra.
Qed.

Lemma Im_z_pos_off_cut : forall t, ~ on_cut (Csub t t_0) -> 0 < Im (zt t_0 t).
Proof. intros t H. now apply square_root_off_cut. Qed.

Lemma off_cut_neq_tin : forall t, ~ on_cut (Csub t t_0) -> t <> RtoC t_in.
Proof. intros t H E. subst. apply H. unfold on_cut; simpl. lra. Qed.

Lemma off_cut_neq_t0 : forall t, ~ on_cut (Csub t t_0) -> t <> RtoC t_0.
Proof. intros t H E. subst. apply H. unfold on_cut; simpl. lra. Qed.

Lemma Wt_off_cut : forall t, ~ on_cut (Csub t t_0) ->
  Re (Wt t_0 t_in t) < 0 /\ Cabs (Wt t_0 t_in t) < 1.
Proof.
  intros t H. assert (Hin := off_cut_neq_tin t H).
  assert (Hz := Im_z_pos_off_cut t H). assert (P := a_pos).
  assert (D := den_neq0 t Hin). apply Cnorm2_pos in D.
  assert (I := Tz_im t Hin).
  assert (I2 : 0 < Im (Tz t)).
  { rewrite I. apply Rmult_lt_0_compat; [nra|]. now apply Rinv_0_lt_compat. }
  assert (S := vt_sq t Hin). fold (Tz t) in S. rewrite <- S in I2. simpl in I2.
  assert (U := vt_upper t). assert (Q := vt_re_nonneg t Hin).
  assert (Iv : 0 < Im (vt t_0 t_in t)) by (unfold upper in U; nra).
  assert (Rv : 0 < Re (vt t_0 t_in t)) by nra.
  assert (P1 := vt_p1 t). assert (Pn := Cnorm2_pos _ P1).
  unfold Wt. destruct (W_parts _ P1) as [E1 E2]. assert (N := W_norm _ P1).
  assert (Nv := Cnorm2_nonneg (vt t_0 t_in t)).
  split.
  - rewrite E1. apply Rmult_lt_reg_r with (Cnorm2 (Cadd (vt t_0 t_in t) 1)); [assumption|].
    unfold Rdiv. rewrite Rmult_assoc, Rinv_l by lra. lra.
  - apply Cabs_lt_1.
    rewrite N.
    apply Rmult_lt_reg_r with (Cnorm2 (vt t_0 t_in t) + 1 + 2 * Re (vt t_0 t_in t)); [lra|].
    unfold Rdiv. rewrite Rmult_assoc, Rinv_l by lra. lra.
Qed.

(** The sign of Im W is the sign of Re z. *)
Lemma Im_W_sign : forall t, t <> RtoC t_in ->
  (0 < Im (Wt t_0 t_in t) <-> 0 < Re (zt t_0 t)) /\
  (Im (Wt t_0 t_in t) < 0 <-> Re (zt t_0 t) < 0).
Proof.
  intros t H. assert (P1 := vt_p1 t). assert (Pn := Cnorm2_pos _ P1).
  assert (D := den_neq0 t H). apply Cnorm2_pos in D. assert (P := a_pos).
  assert (N := Tz_norm t H). rewrite <- (v_norm_sq t H) in N.
  assert (Nv := Cnorm2_nonneg (vt t_0 t_in t)).
  unfold Wt. destruct (W_parts _ P1) as [_ E2]. rewrite E2.
  set (n := Cnorm2 (vt t_0 t_in t)) in *.
  set (d := Cnorm2 (Cadd (Copp (zt t_0 t)) a)) in *.
  set (p := Cnorm2 (Cadd (vt t_0 t_in t) 1)) in *.
  set (x := Re (zt t_0 t)) in *.
  assert (N2 : (n - 1) * (n + 1) * d = 4 * a * x).
  { replace ((n - 1) * (n + 1)) with (n * n - 1) by ring. rewrite N. field. lra. }
  assert (Ep : (n - 1) / p * p = n - 1) by (field; lra).
  set (y := (n - 1) / p) in *.
  assert (K : y * (p * (n + 1) * d) = 4 * a * x) by (rewrite <- N2, <- Ep; ring).
  assert (Kp : 0 < p * (n + 1) * d) by (apply Rmult_lt_0_compat; [nra|assumption]).
  repeat split; intros Hs; nra.
Qed.

Lemma Im_t_z : forall t, Im t = 2 * Re (zt t_0 t) * Im (zt t_0 t).
Proof.
  intros t. assert (S := zt_sq t). apply (f_equal Im) in S. simpl in S. lra.
Qed.

Lemma Im_W_sign_nonreal : forall t,
  (0 < Im t -> 0 < Im (Wt t_0 t_in t)) /\ (Im t < 0 -> Im (Wt t_0 t_in t) < 0).
Proof.
  intros t. assert (ZU : upper (zt t_0 t)) by apply square_root_upper.
  assert (E := Im_t_z t). unfold upper in ZU.
  assert (K : Im t <> 0 -> t <> RtoC t_in) by (intros N F; subst; apply N; reflexivity).
  split; intros H; (destruct (Im_W_sign t ltac:(apply K; lra)) as [A B]).
  - apply A. nra.
  - apply B. nra.
Qed.

Lemma Wt_real_below : forall x : R, x < t_0 ->
  Im (Wt t_0 t_in x) = 0 /\ -1 < Re (Wt t_0 t_in x) < 0.
Proof.
  intros x H.
  assert (OC : ~ on_cut (Csub x t_0)) by (unfold on_cut; simpl; lra).
  destruct (Wt_off_cut x OC) as [A B].
  assert (Hin := off_cut_neq_tin x OC).
  destruct (Im_W_sign x Hin) as [S1 S2].
  assert (Z : Re (zt t_0 x) = 0).
  { unfold zt. rewrite <- RtoC_sub. rewrite square_root_neg by lra. reflexivity. }
  rewrite Z in *.
  split; [|split; [|assumption]].
  - destruct (Rtotal_order (Im (Wt t_0 t_in x)) 0) as [L|[E|G]]; [|assumption|].
    + apply S2 in L. lra.
    + apply S1 in G. lra.
  - assert (K := Cabs_Re (Wt t_0 t_in x)). rewrite Rabs_left in K by assumption. lra.
Qed.

Lemma Wt_between : forall x : R, t_0 < x < t_in ->
  Re (Wt t_0 t_in x) = 0 /\ 0 < Im (Wt t_0 t_in x) < 1.
Proof.
  intros x H. assert (P := a_pos).
  assert (Hin : RtoC x <> RtoC t_in) by (intros E; apply RtoC_inj in E; lra).
  assert (Z : zt t_0 x = RtoC (sqrt (x - t_0))).
  { unfold zt. rewrite <- RtoC_sub. apply square_root_nonneg. lra. }
  assert (L1 : 0 < sqrt (x - t_0)) by (apply sqrt_lt_R0; lra).
  assert (L2 : sqrt (x - t_0) < a) by (apply sqrt_lt_1_alt; lra).
  set (y := sqrt (x - t_0)) in *.
  assert (V : vt t_0 t_in x = RtoC (sqrt ((y + a) / (a - y)))).
  { unfold vt. rewrite Z. fold a.
    replace (Cdivt (Cadd y a) (Cadd (Copp y) a)) with (RtoC ((y + a) / (a - y))).
    - apply square_root_nonneg. apply Rlt_le, Rmult_lt_0_compat; [lra|].
      apply Rinv_0_lt_compat; lra.
    - rewrite RtoC_div by lra. f_equal; Cext; ring. }
  assert (G : 1 < (y + a) / (a - y)).
  { apply Rmult_lt_reg_r with (a - y); [lra|].
    unfold Rdiv. rewrite Rmult_assoc, Rinv_l by lra. lra. }
  assert (G2 : 1 < sqrt ((y + a) / (a - y))) by (rewrite <- sqrt_1 at 1; apply sqrt_lt_1_alt; lra).
  set (s := sqrt ((y + a) / (a - y))) in *.
  unfold Wt. rewrite V.
  assert (P1 : Cadd s 1 <> RtoC 0) by (intros E; injection E; lra).
  destruct (W_parts s P1) as [E1 E2]. rewrite E1, E2.
  rewrite vp1_norm. unfold Cdivt, Cinv, Cnorm2; simpl. replace (s * s + 0 * 0) with (s * s) by ring.
  split; [unfold Rdiv; ring|].
  assert (K : (s * s - 1) / (s * s + 1 + 2 * s) * (s * s + 1 + 2 * s) = s * s - 1) by (field; nra).
  assert (Kp : 0 < s * s + 1 + 2 * s) by nra.
  set (q := (s * s - 1) / (s * s + 1 + 2 * s)) in *.
  split; nra.
Qed.

Lemma Wt_above : forall x : R, t_in < x ->
  Cabs (Wt t_0 t_in x) = 1 /\ Re (Wt t_0 t_in x) < 0 /\ 0 < Im (Wt t_0 t_in x).
Proof.
  intros x H. assert (P := a_pos).
  assert (Hin : RtoC x <> RtoC t_in) by (intros E; apply RtoC_inj in E; lra).
  assert (Z : zt t_0 x = RtoC (sqrt (x - t_0))).
  { unfold zt. rewrite <- RtoC_sub. apply square_root_nonneg. lra. }
  assert (L2 : a < sqrt (x - t_0)) by (apply sqrt_lt_1_alt; lra).
  set (y := sqrt (x - t_0)) in *.
  assert (G : (y + a) / (a - y) < -1).
  { assert (0 < y - a) by lra.
    replace ((y + a) / (a - y)) with (- ((y + a) / (y - a))) by (field; lra).
    assert (1 < (y + a) / (y - a)).
    { apply Rmult_lt_reg_r with (y - a); [lra|].
      unfold Rdiv. rewrite Rmult_assoc, Rinv_l by lra. lra. }
    lra. }
  assert (V : vt t_0 t_in x = mkC 0 (sqrt (- ((y + a) / (a - y))))).
  { unfold vt. rewrite Z. fold a.
    replace (Cdivt (Cadd y a) (Cadd (Copp y) a)) with (RtoC ((y + a) / (a - y))).
    - apply square_root_neg. lra.
    - rewrite RtoC_div by lra. f_equal; Cext; ring. }
  assert (G2 : 1 < sqrt (- ((y + a) / (a - y)))) by (rewrite <- sqrt_1 at 1; apply sqrt_lt_1_alt; lra).
  set (s := sqrt (- ((y + a) / (a - y)))) in *.
  unfold Wt. rewrite V.
  assert (P1 : Cadd (mkC 0 s) 1 <> RtoC 0) by (intros E; injection E; lra).
  destruct (W_parts _ P1) as [E1 E2]. rewrite E1, E2.
  unfold Cabs. rewrite W_norm by assumption. rewrite vp1_norm.
  unfold Cdivt, Cinv, Cnorm2; simpl. replace (0 * 0 + s * s) with (s * s) by ring.
  assert (Kp : 0 < s * s + 1) by nra.
  replace (s * s + 1 + 2 * 0) with (s * s + 1) by ring.
  replace (s * s + 1 - 2 * 0) with (s * s + 1) by ring.
  assert (Ip : 0 < / (s * s + 1)) by (apply Rinv_0_lt_compat; assumption).
  split; [|split].
  - replace ((s * s + 1) / (s * s + 1)) with 1 by (field; lra). apply sqrt_1.
  - unfold Rdiv. nra.
  - unfold Rdiv. apply Rmult_lt_0_compat; [nra|assumption].
Qed.

Lemma Wt_at_t0 : Wt t_0 t_in t_0 = RtoC 0.
Proof.
  apply Wt_0_iff; [|reflexivity]. intros E. apply RtoC_inj in E. lra.
Qed.

(** Injectivity *)
Lemma Wt_inj : forall t t', t <> RtoC t_in -> t' <> RtoC t_in ->
  Wt t_0 t_in t = Wt t_0 t_in t' -> t = t'.
Proof.
  intros t t' H H' E.
  destruct (C_eq_dec t t_0) as [E0|N0].
  - subst t. rewrite Wt_at_t0 in E. symmetry in E. apply Wt_0_iff in E; auto.
  - destruct (C_eq_dec t' t_0) as [E0|N0'].
    + subst t'. rewrite Wt_at_t0 in E. apply Wt_0_iff in E; auto.
    + assert (A := round_trip_t t H N0). assert (B := round_trip_t t' H' N0').
      rewrite E in A. congruence.
Qed.

(** Conjugation *)
Lemma Cadd_conj_real : forall (z : C) (x : R), Cconj (Cadd z x) = Cadd (Cconj z) x.
Proof. intros. now rewrite Cconj_add, Cconj_RtoC. Qed.

Lemma zt_conj : forall t, ~ on_cut (Csub t t_0) -> zt t_0 (Cconj t) = Copp (Cconj (zt t_0 t)).
Proof.
  intros t H. unfold zt. rewrite <- square_root_conj by assumption.
  now rewrite Cconj_sub, Cconj_RtoC.
Qed.

Lemma on_cut_conj : forall z, on_cut (Cconj z) <-> on_cut z.
Proof. intros z. unfold on_cut; simpl. split; intros; lra. Qed.

Lemma off_cut_conj : forall t, ~ on_cut (Csub t t_0) -> ~ on_cut (Csub (Cconj t) t_0).
Proof.
  intros t H. replace (Csub (Cconj t) t_0) with (Cconj (Csub t t_0)).
  - now rewrite on_cut_conj.
  - now rewrite Cconj_sub, Cconj_RtoC.
Qed.

Lemma upper_inv_conj : forall v, v <> RtoC 0 -> 0 < Im v -> upper (Cinv (Cconj v)).
Proof.
  intros [x y] H Hy. left. assert (P := Cnorm2_pos _ H). unfold Cdivt, Cinv, Cnorm2 in *; simpl in *.
  replace (- - y) with y by ring.
  replace (x * x + - y * - y) with (x * x + y * y) by ring.
  apply Rmult_lt_0_compat; [assumption|now apply Rinv_0_lt_compat].
Qed.

(** W(conj t) = conj W(t) off the cut. *)
Lemma Wt_conj : forall t, ~ on_cut (Csub t t_0) ->
  Wt t_0 t_in (Cconj t) = Cconj (Wt t_0 t_in t).
Proof.
  intros t H. assert (Hin := off_cut_neq_tin t H).
  assert (H' := off_cut_conj t H). assert (Hin' := off_cut_neq_tin _ H').
  assert (D := den_neq0 t Hin). assert (D' := den_neq0 _ Hin').
  assert (Zc := zt_conj t H).
  assert (P := a_pos).
  assert (I2 : 0 < Im (Tz t)).
  { rewrite (Tz_im t Hin). assert (Hz := Im_z_pos_off_cut t H).
    apply Rmult_lt_0_compat; [nra|]. apply Rinv_0_lt_compat. now apply Cnorm2_pos. }
  assert (S := vt_sq t Hin). fold (Tz t) in S.
  assert (Iv : 0 < Im (vt t_0 t_in t)).
  { assert (I3 := I2). rewrite <- S in I3. simpl in I3.
    assert (U := vt_upper t). assert (Q := vt_re_nonneg t Hin). unfold upper in U. nra. }
  assert (V0 : vt t_0 t_in t <> RtoC 0) by (intros E; rewrite E in Iv; simpl in Iv; lra).
  assert (V0' : Cconj (vt t_0 t_in t) <> RtoC 0) by (rewrite Cconj_0_iff; assumption).
  assert (Vc : vt t_0 t_in (Cconj t) = Cinv (Cconj (vt t_0 t_in t))).
  { unfold vt at 1. fold a. apply square_root_unique; [now apply upper_inv_conj|].
    transitivity (Cinv (Cconj (Cmul (vt t_0 t_in t) (vt t_0 t_in t)))).
    - rewrite Cconj_mul. field. assumption.
    - rewrite S. unfold Tz. rewrite Cconj_div, !Cadd_conj_real, Cconj_opp.
      rewrite Zc in *.
      assert (A1 : Cadd (Copp (Cconj (zt t_0 t))) a <> RtoC 0).
      { rewrite <- Cconj_opp, <- Cadd_conj_real, Cconj_0_iff. assumption. }
      field. split; [|assumption].
      intros E. apply D'. rewrite <- E. ring. }
  unfold Wt. rewrite Vc. rewrite Cconj_div, Cconj_mul, Cconj_Ci.
  rewrite Cadd_conj_real, Cconj_sub, Cconj_RtoC.
  assert (P1 := vt_p1 t).
  assert (P1' : Cadd (Cconj (vt t_0 t_in t)) 1 <> RtoC 0).
  { rewrite <- Cadd_conj_real, Cconj_0_iff. assumption. }
  set (u := Cconj (vt t_0 t_in t)) in *.
  field. split; [assumption|].
  assumption.
Qed.

(** Round trip W -> t -> W on the open left half disc. *)
Lemma zmir_eq_cases : forall w w', w <> RtoC 0 -> w' <> RtoC 0 ->
  Csq (Csub w (Cinv w)) = Csq (Csub w' (Cinv w')) ->
  w' = w \/ w' = Copp w \/ w' = Cinv w \/ w' = Copp (Cinv w).
Proof.
  intros w w' H H' E. unfold Csq in E.
  assert (F : Cmul (Cmul (Csub w' w) (Cadd w' w))
                   (Cmul (Csub w' (Cinv w)) (Cadd w' (Cinv w))) = RtoC 0).
  { transitivity (Cmul (Cmul w' w')
       (Csub (Cmul (Csub w' (Cinv w')) (Csub w' (Cinv w')))
             (Cmul (Csub w (Cinv w)) (Csub w (Cinv w))))).
    - field. tauto.
    - rewrite E. ring. }
  apply Cmul_integral in F. destruct F as [F|F]; apply Cmul_integral in F; destruct F as [F|F].
  - left. now apply Csub_eq0.
  - right; left. transitivity (Csub (Cadd w' w) w); [ring|]. rewrite F. ring.
  - right; right; left. now apply Csub_eq0.
  - right; right; right. transitivity (Csub (Cadd w' (Cinv w)) (Cinv w)); [ring|]. rewrite F. ring.
Qed.

Lemma W_to_t_total : forall w, w <> RtoC 0 -> w <> RtoC 1 -> w <> RtoC (-1) ->
  exists t, MapFromWtoT_call (mkMapWT t_0 t_in (t_in - t_0)) w = Ok t /\
    t <> RtoC t_0 /\
    Csq (Csub w (Cinv w)) = Copp (Cdivt (RtoC (4 * (t_in - t_0))) (Csub t t_0)).
Proof.
  intros w H0 H1 Hm1. unfold MapFromWtoT_call, z_minus_its_reciprocal; simpl.
  rewrite cdiv_ok by assumption. simpl.
  replace (Cdivt 1 w) with (Cinv w) by (field; assumption).
  assert (N : Csub w (Cinv w) <> RtoC 0).
  { intros E. assert (F : Cmul (Csub w 1) (Csub w (RtoC (-1))) = RtoC 0).
    { transitivity (Cmul w (Csub w (Cinv w))).
      - replace (RtoC (-1)) with (Copp 1) by (Cext; ring). field. assumption.
      - rewrite E. ring. }
    apply Cmul_integral in F. destruct F as [F|F]; apply Csub_eq in F; contradiction. }
  assert (N2 : Csq (Csub w (Cinv w)) <> RtoC 0) by (apply Cmul_neq0; assumption).
  rewrite cdiv_ok by assumption. simpl.
  assert (D0 : RtoC (4 * (t_in - t_0)) <> RtoC 0) by (apply RtoC_neq0; lra).
  eexists. split; [reflexivity|]. split.
  - intros E. apply (Cmul_neq0 (RtoC (4 * (t_in - t_0))) (Cinv (Csq (Csub w (Cinv w)))) D0 (Cinv_neq0 _ N2)).
    transitivity (Csub t_0 (Csub t_0 (Cdivt (RtoC (4 * (t_in - t_0))) (Csq (Csub w (Cinv w)))))).
    + unfold Cdivt. ring.
    + rewrite E. ring.
  - set (q := Csq (Csub w (Cinv w))) in *.
    replace (Csub (Csub t_0 (Cdivt (RtoC (4 * (t_in - t_0))) q)) t_0)
      with (Copp (Cdivt (RtoC (4 * (t_in - t_0))) q)) by ring.
    assert (D1 := Copp_neq0 _ D0). field. tauto.
Qed.

Lemma round_trip_w : forall w, Re w < 0 -> Cabs w < 1 ->
  exists t, MapFromWtoT_call (mkMapWT t_0 t_in (t_in - t_0)) w = Ok t /\
    t <> RtoC t_in /\ Wt t_0 t_in t = w.
Proof.
  intros w Hre Habs.
  assert (H0 : w <> RtoC 0) by (intros E; subst; simpl in Hre; lra).
  assert (H1 : w <> RtoC 1).
  { intros E; subst; simpl in Hre; lra. }
  assert (Hm1 : w <> RtoC (-1)).
  { intros E; subst. rewrite Cabs_RtoC, Rabs_left in Habs by lra. lra. }
  destruct (W_to_t_total w H0 H1 Hm1) as [t [E [Nt Id]]].
  exists t. split; [assumption|].
  assert (Nin : t <> RtoC t_in).
  { intros F. subst t. rewrite <- RtoC_sub in Id.
    assert (Q : Csq (Csub w (Cinv w)) = RtoC (-4)).
    { rewrite Id, <- RtoC_div by lra. rewrite <- RtoC_opp. f_equal. field. lra. }
    assert (F : Cmul (Cmul (Csub w Ci) (Csub w Ci)) (Cmul (Cadd w Ci) (Cadd w Ci)) = RtoC 0).
    { transitivity (Cmul (Cmul w w) (Cadd (Csq (Csub w (Cinv w))) 4)).
      - unfold Csq.
        transitivity (Cmul (Csub (Cmul w w) (Cmul Ci Ci)) (Csub (Cmul w w) (Cmul Ci Ci))); [ring|].
        rewrite Ci_sq. replace (RtoC 4) with (Cmul (Cadd 1 1) (Cadd 1 1)) by (Cext; ring).
        field. assumption.
      - rewrite Q. replace (Cadd (RtoC (-4)) 4) with (RtoC 0) by (Cext; ring). ring. }
    assert (G : w = Ci \/ w = Copp Ci).
    { apply Cmul_integral in F. destruct F as [F|F]; apply Cmul_integral in F.
      - left. apply Csub_eq0. tauto.
      - right. assert (K : Cadd w Ci = RtoC 0) by tauto.
        transitivity (Csub (Cadd w Ci) Ci); [ring|]. rewrite K. ring. }
    destruct G as [G|G]; subst w; simpl in Hre; lra. }
  split; [assumption|].
  assert (Wn0 : Wt t_0 t_in t <> RtoC 0) by (intros F; apply Wt_0_iff in F; auto).
  assert (Id2 := W_identity_sq t Nin Nt).
  assert (Eq : Csq (Csub w (Cinv w)) = Csq (Csub (Wt t_0 t_in t) (Cinv (Wt t_0 t_in t)))).
  { now rewrite Id, Id2. }
  destruct (Wt_half_disc t Nin) as [A B].
  assert (Ai : 1 < Cabs (Cinv w)).
  { rewrite Cabs_inv by assumption. rewrite <- Rinv_1.
    apply Rinv_lt_contravar; [|assumption]. rewrite Rmult_1_r. now apply Cabs_pos. }
  destruct (zmir_eq_cases w _ H0 Wn0 Eq) as [G|[G|[G|G]]]; rewrite G in A, B |- *.
  - reflexivity.
  - simpl in A. lra.
  - lra.
  - rewrite Cabs_opp in B. lra.
Qed.

End Map.

Global Opaque zt vt Wt.
