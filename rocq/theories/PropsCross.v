(** Properties C29-C31: the cross-sections and the effective form factor. *)
From Coq Require Import String Reals List Bool Lra Lia.
From Verif Require Import PyBase CNum PyExpr Nucleon CrossSections Params ParamClasses CommonUtils Scripts.
Import ListNotations.
Local Open Scope R_scope.
Local Open Scope py_scope.
Local Open Scope list_scope.

(** ** Specification *)

(** The power 3/2 of a non-negative number. *)
Definition pow32 (x : R) : R := x * sqrt x.

(** sigma = pi alpha^2 (hc)^2 / (3 t) * (1 - 4 m^2 / t)^(3/2) * F^2, in nanobarns. *)
Definition sigma_scalar (m alpha hc_squared t F : R) : R :=
  hc_squared * PI * alpha^2 / (3 * t) * pow32 (1 - 4 * m^2 / t) * F^2.

(** sigma = 4 pi alpha^2 (hc)^2 beta / (3 t) * (GM^2 + 2 m^2 / t * GE^2), beta = sqrt (1 - 4 m^2 / t). *)
Definition sigma_nucleon (m alpha hc_squared t GE GM : R) : R :=
  4 * PI * alpha^2 * hc_squared * sqrt (1 - 4 * m^2 / t) / (3 * t) * (GM^2 + 2 * m^2 / t * GE^2).

(** ** The power function *)

Lemma Rpower_32 : forall r, 0 < r -> Rpower r (3/2) = pow32 r.
Proof.
  intros r H. replace (3/2) with (1 + /2) by lra. rewrite Rpower_plus, Rpower_1, Rpower_sqrt by assumption. reflexivity.
Qed.

Lemma Cabs_polar : forall r a, 0 <= r -> Cabs (mkC (r * cos a) (r * sin a)) = r.
Proof.
  intros r a H. unfold Cabs, Cnorm2. simpl Re. simpl Im.
  replace (r * cos a * (r * cos a) + r * sin a * (r * sin a)) with (Rsqr r * (Rsqr (sin a) + Rsqr (cos a))) by (unfold Rsqr; ring).
  rewrite sin2_cos2, Rmult_1_r. now apply sqrt_Rsqr.
Qed.

Lemma Cpow_modulus : forall z, Cabs (Cpow z (3/2)) = pow32 (Cabs z).
Proof.
  intros z. unfold Cpow. destruct (C_eq_dec z (RtoC 0)) as [->|N].
  - rewrite Cabs_RtoC, Rabs_R0. unfold pow32. ring.
  - unfold polar. assert (P := Cabs_pos z N). rewrite (Rpower_32 (Cabs z) P). apply Cabs_polar.
    unfold pow32. assert (0 <= sqrt (Cabs z)) by apply sqrt_pos. nra.
Qed.

Lemma atan2_pos : forall x, 0 < x -> atan2 0 x = 0.
Proof.
  intros x H. unfold atan2. destruct (Rlt_dec 0 x); [|contradiction].
  replace (0 / x) with 0 by (field; lra). apply atan_0.
Qed.
Lemma atan2_neg : forall x, x < 0 -> atan2 0 x = PI.
Proof.
  intros x H. unfold atan2. destruct (Rlt_dec 0 x); [lra|]. destruct (Rlt_dec x 0); [|contradiction].
  destruct (Rle_dec 0 0); [|lra]. replace (0 / x) with 0 by (field; lra). rewrite atan_0. ring.
Qed.

Lemma Cpow_nonneg : forall x, 0 <= x -> Cpow (RtoC x) (3/2) = RtoC (pow32 x).
Proof.
  intros x H. unfold Cpow. destruct (C_eq_dec (RtoC x) (RtoC 0)) as [E|N].
  - injection E as ->. unfold pow32. Cext; ring.
  - assert (P : 0 < x) by (destruct (Req_dec x 0) as [->|]; [contradiction N; reflexivity|lra]).
    unfold polar. simpl Re. simpl Im. rewrite atan2_pos by assumption.
    rewrite Cabs_RtoC, Rabs_right by lra. rewrite (Rpower_32 x P), Rmult_0_l, cos_0, sin_0. Cext; ring.
Qed.

(** A negative base gives a purely imaginary number. *)
Lemma Cpow_neg : forall x, x < 0 -> Cpow (RtoC x) (3/2) = mkC 0 (- pow32 (- x)).
Proof.
  intros x H. unfold Cpow. destruct (C_eq_dec (RtoC x) (RtoC 0)) as [E|N]; [injection E; lra|].
  unfold polar. simpl Re. simpl Im. rewrite atan2_neg by assumption.
  rewrite Cabs_RtoC, Rabs_left by lra. rewrite (Rpower_32 (- x)) by lra.
  replace (PI * (3 / 2)) with (3 * (PI / 2)) by lra.
  rewrite cos_3PI2, sin_3PI2. Cext; ring.
Qed.

Lemma pow32_nonneg : forall x, 0 <= x -> 0 <= pow32 x.
Proof. intros x H. unfold pow32. assert (0 <= sqrt x) by apply sqrt_pos. nra. Qed.
Lemma pow32_pos : forall x, 0 < x -> 0 < pow32 x.
Proof. intros x H. unfold pow32. assert (0 < sqrt x) by now apply sqrt_lt_R0. nra. Qed.

Lemma sq_pos : forall x, x <> 0 -> 0 < x^2.
Proof. intros x H. assert (0 <= x^2) by apply pow2_ge_0. assert (x^2 <> 0) by now apply pow_nonzero. lra. Qed.

Lemma RtoC_nz : forall x, x <> 0 -> RtoC x <> RtoC 0.
Proof. intros x H E. injection E. exact H. Qed.
Lemma RtoC_div : forall a b, b <> 0 -> Cdivt (RtoC a) (RtoC b) = RtoC (a / b).
Proof. intros a b H. Cext; unfold Cnorm2; simpl; field; nra. Qed.
Lemma RtoC_mul : forall a b, Cmul (RtoC a) (RtoC b) = RtoC (a * b).
Proof. intros. Cext; ring. Qed.

(** ** C29 *)

Section Scalar.
Variables m alpha hc_squared : R.
Variable F : C -> Res C.
Notation sigma := (ScalarCS_call (ScalarCS_init m alpha hc_squared) F).

Lemma scalar_unfold : forall t f, F t = Ok f -> t <> RtoC 0 ->
  sigma t = Ok (Cmul (Cmul (Cdivt (RtoC (hc_squared * PI * (alpha * alpha) / 3)) t)
                           (Cpow (Csub (RtoC 1) (Cdivt (RtoC (4 * (m * m))) t)) (3/2))) (RtoC (Cabs f * Cabs f))).
Proof.
  intros t f H N. unfold ScalarCS_call, ScalarCS_init. simpl sc_coefficient. simpl sc_four_mass_squared.
  rewrite H. cbn [bind]. rewrite !cdiv_ok by assumption. reflexivity.
Qed.

Lemma scalar_real : forall t f, F (RtoC t) = Ok f -> t <> 0 ->
  sigma (RtoC t) = Ok (Cmul (RtoC (hc_squared * PI * alpha^2 / (3 * t) * (Cabs f)^2))
                            (Cpow (RtoC (1 - 4 * m^2 / t)) (3/2))).
Proof.
  intros t f H N. rewrite (scalar_unfold _ f H) by now apply RtoC_nz. f_equal.
  rewrite !RtoC_div by assumption.
  replace (Csub (RtoC 1) (RtoC (4 * (m * m) / t))) with (RtoC (1 - 4 * m^2 / t)) by (Cext; field; assumption).
  replace (hc_squared * PI * alpha^2 / (3 * t) * (Cabs f)^2) with
    (hc_squared * PI * (alpha * alpha) / 3 / t * (Cabs f * Cabs f)) by (field; assumption).
  rewrite <- (RtoC_mul (hc_squared * PI * (alpha * alpha) / 3 / t)). ring.
Qed.

Theorem C29_formula_above_threshold : forall t f, F (RtoC t) = Ok f -> 0 < t -> 4 * m^2 <= t ->
  sigma (RtoC t) = Ok (RtoC (sigma_scalar m alpha hc_squared t (Cabs f))).
Proof.
  intros t f H P T. rewrite (scalar_real t f H) by lra. f_equal.
  assert (Q : 0 <= 1 - 4 * m^2 / t).
  { apply Rmult_le_reg_r with t; [assumption|]. replace ((1 - 4 * m^2 / t) * t) with (t - 4 * m^2) by (field; lra). lra. }
  rewrite (Cpow_nonneg _ Q), RtoC_mul. f_equal. unfold sigma_scalar. ring.
Qed.

Theorem C29_zero_at_threshold : forall f, m <> 0 -> F (RtoC (4 * m^2)) = Ok f -> sigma (RtoC (4 * m^2)) = Ok (RtoC 0).
Proof.
  intros f N H. assert (P : 0 < m^2) by now apply sq_pos.
  rewrite (C29_formula_above_threshold _ f H) by lra. f_equal. f_equal. unfold sigma_scalar.
  replace (4 * m^2 / (4 * m^2)) with 1 by (field; lra). replace (1 - 1) with 0 by ring. unfold pow32. ring.
Qed.

(** Below threshold the power of a negative number is taken: the result is purely imaginary, and [abs] of it is the
    formula with |1 - 4 m^2 / t|. *)
Theorem C29_below_threshold_imaginary : forall t f, F (RtoC t) = Ok f -> 0 < t -> t < 4 * m^2 ->
  sigma (RtoC t) = Ok (mkC 0 (- (hc_squared * PI * alpha^2 / (3 * t) * pow32 (4 * m^2 / t - 1) * (Cabs f)^2))).
Proof.
  intros t f H P T. rewrite (scalar_real t f H) by lra. f_equal.
  assert (Q : 1 - 4 * m^2 / t < 0).
  { apply Rmult_lt_reg_r with t; [assumption|]. replace ((1 - 4 * m^2 / t) * t) with (t - 4 * m^2) by (field; lra). lra. }
  rewrite (Cpow_neg _ Q). replace (- (1 - 4 * m^2 / t)) with (4 * m^2 / t - 1) by ring. Cext; ring.
Qed.

(** Every non-zero complex t. *)
Theorem C29_modulus_factorises : forall t f, F t = Ok f -> t <> RtoC 0 -> 0 <= hc_squared ->
  exists v, sigma t = Ok v /\
    Cabs v = hc_squared * PI * alpha^2 / (3 * Cabs t) * pow32 (Cabs (1 - RtoC (4 * m^2) / t)%C) * (Cabs f)^2.
Proof.
  intros t f H N P. rewrite (scalar_unfold t f H N). eexists. split; [reflexivity|].
  rewrite !Cabs_mul, Cpow_modulus, Cabs_div, !Cabs_RtoC by assumption.
  replace (4 * (m * m)) with (4 * m^2) by ring.
  rewrite (Rabs_right (Cabs f * Cabs f)) by (assert (X := Cabs_nonneg f); nra).
  assert (PIP := PI_RGT_0). rewrite (Rabs_right (hc_squared * PI * (alpha * alpha) / 3)).
  - assert (Cabs t <> 0) by (intros E; apply N, Cabs_0_iff, E). unfold Cdivt. field. assumption.
  - assert (0 <= alpha * alpha) by nra. assert (0 <= hc_squared * PI) by nra.
    assert (0 <= hc_squared * PI * (alpha * alpha)) by nra. lra.
Qed.

(** Errors: those of the form factor model first, then t = 0. *)
Theorem C29_raises : forall t e,
  sigma t = Err e <-> F t = Err e \/ ((exists f, F t = Ok f) /\ t = RtoC 0 /\ e = ZeroDivisionError).
Proof.
  intros t e. destruct (F t) as [f|e'] eqn:H.
  - destruct (C_eq_dec t (RtoC 0)) as [->|N].
    + unfold ScalarCS_call. rewrite H. cbn [bind]. rewrite cdiv_zero. cbn [bind]. split.
      * intros E. injection E as <-. right. eauto.
      * intros [E|(_ & _ & ->)]; [discriminate|reflexivity].
    + rewrite (scalar_unfold t f H N). split; [discriminate|]. intros [E|(_ & E & _)]; [discriminate|contradiction].
  - unfold ScalarCS_call. rewrite H. cbn [bind]. split; [intros E; left; congruence|].
    intros [E|((f & E) & _)]; [congruence|discriminate].
Qed.

(** Converting the cross-section back with the script's coefficient gives |F| exactly, and the error of first-order
    propagation. *)
Theorem C29_convert_back : forall t f err, F (RtoC t) = Ok f -> 4 * m^2 < t -> 0 < t -> 0 < hc_squared -> alpha <> 0 ->
  f <> RtoC 0 ->
  exists v, sigma (RtoC t) = Ok (RtoC v) /\
    convert_row alpha hc_squared m (t, v, err) = Ok (t, Cabs f, err * Cabs f / (2 * v)).
Proof.
  intros t f err H T P Hh Ha Hf. exists (sigma_scalar m alpha hc_squared t (Cabs f)).
  split; [apply C29_formula_above_threshold; [assumption|assumption|lra]|].
  assert (Fp := Cabs_pos f Hf). assert (PIP := PI_RGT_0).
  assert (A : 0 < alpha^2) by now apply sq_pos.
  assert (Q : 0 < 1 - 4 * m^2 / t).
  { apply Rmult_lt_reg_r with t; [assumption|]. replace ((1 - 4 * m^2 / t) * t) with (t - 4 * m^2) by (field; lra). lra. }
  set (k := hc_squared * PI * alpha^2 / (3 * t) * pow32 (1 - 4 * m^2 / t)).
  assert (K : 0 < k).
  { unfold k. apply Rmult_lt_0_compat; [|now apply pow32_pos]. apply Rmult_lt_0_compat; [|apply Rinv_0_lt_compat; lra].
    apply Rmult_lt_0_compat; [nra|assumption]. }
  assert (E : coefficient_function alpha hc_squared m t = Ok (RtoC k)).
  { unfold coefficient_function. rewrite !rdiv_ok by lra. cbn [bind].
    replace (1 - 4 * (m * m) / t) with (1 - 4 * m^2 / t) by (field; lra). rewrite Cpow_nonneg by lra.
    rewrite RtoC_mul. f_equal. f_equal. unfold k. field. lra. }
  unfold convert_row. rewrite E. cbn [bind]. rewrite cdiv_ok by (apply RtoC_nz; lra). cbn [bind].
  unfold coefficient_is_complex. destruct (Rlt_dec (1 - 4 * (m * m) / t) 0) as [B|B].
  { exfalso. replace (1 - 4 * (m * m) / t) with (1 - 4 * m^2 / t) in B by (field; lra). lra. }
  rewrite RtoC_div by lra. simpl Re.
  assert (S : sigma_scalar m alpha hc_squared t (Cabs f) = k * (Cabs f)^2) by reflexivity.
  rewrite S. replace (k * (Cabs f)^2 / k) with (Rsqr (Cabs f)) by (unfold Rsqr; field; lra).
  rewrite rsqrt_ok by apply Rle_0_sqr. rewrite sqrt_Rsqr by lra. cbn [bind].
  rewrite rdiv_ok by nra. cbn [bind]. do 2 f_equal. field. split; lra.
Qed.

End Scalar.

Theorem C29_nonnegative : forall m alpha hc_squared t F, 0 <= hc_squared -> 0 < t -> 4 * m^2 <= t ->
  0 <= sigma_scalar m alpha hc_squared t F.
Proof.
  intros m alpha hc t F Hh P T. unfold sigma_scalar. assert (PIP := PI_RGT_0).
  assert (Q : 0 <= 1 - 4 * m^2 / t).
  { apply Rmult_le_reg_r with t; [assumption|]. replace ((1 - 4 * m^2 / t) * t) with (t - 4 * m^2) by (field; lra). lra. }
  assert (0 <= hc * PI * alpha^2 / (3 * t)).
  { apply Rmult_le_pos; [|left; apply Rinv_0_lt_compat; lra]. apply Rmult_le_pos; [nra|apply pow2_ge_0]. }
  apply Rmult_le_pos; [apply Rmult_le_pos; [assumption|now apply pow32_nonneg]|apply pow2_ge_0].
Qed.

Theorem C29_monotone_in_form_factor : forall m alpha hc_squared t F F', 0 <= hc_squared -> 0 < t -> 4 * m^2 <= t ->
  0 <= F -> F <= F' -> sigma_scalar m alpha hc_squared t F <= sigma_scalar m alpha hc_squared t F'.
Proof.
  intros m alpha hc t F F' Hh P T F0 FF. assert (K := C29_nonnegative m alpha hc t 1 Hh P T). unfold sigma_scalar in *.
  apply Rmult_le_compat_l; [lra|]. apply pow_incr. lra.
Qed.

(** Strictly increasing above threshold: different moduli give different cross-sections. *)
Theorem C29_determines_modulus : forall m alpha hc_squared t F F', 0 < hc_squared -> alpha <> 0 -> 0 < t -> 4 * m^2 < t ->
  0 <= F -> F < F' -> sigma_scalar m alpha hc_squared t F < sigma_scalar m alpha hc_squared t F'.
Proof.
  intros m alpha hc t F F' Hh Ha P T F0 FF. unfold sigma_scalar. assert (PIP := PI_RGT_0).
  assert (A : 0 < alpha^2) by now apply sq_pos.
  assert (Q : 0 < 1 - 4 * m^2 / t).
  { apply Rmult_lt_reg_r with t; [assumption|]. replace ((1 - 4 * m^2 / t) * t) with (t - 4 * m^2) by (field; lra). lra. }
  apply Rmult_lt_compat_l; [|simpl; nra].
  apply Rmult_lt_0_compat; [|now apply pow32_pos]. apply Rmult_lt_0_compat; [|apply Rinv_0_lt_compat; lra].
  apply Rmult_lt_0_compat; [nra|assumption].
Qed.

(** A measured point at or below threshold cannot be converted. *)
Theorem C29_convert_raises : forall m alpha hc_squared t cs err, m <> 0 -> 0 < hc_squared -> alpha <> 0 ->
  (t = 0 \/ t = 4 * m^2 -> convert_row alpha hc_squared m (t, cs, err) = Err ZeroDivisionError) /\
  (0 < t < 4 * m^2 -> convert_row alpha hc_squared m (t, cs, err) = Err TypeError).
Proof.
  intros m alpha hc t cs err Hm Hh Ha. assert (PIP := PI_RGT_0).
  assert (M : 0 < m^2) by now apply sq_pos.
  assert (A : 0 < alpha^2) by now apply sq_pos.
  split.
  - intros [-> | ->]; unfold convert_row, coefficient_function.
    + unfold rdiv at 1. destruct (Req_EM_T 0 0); [reflexivity|congruence].
    + rewrite !rdiv_ok by lra. cbn [bind].
      replace (1 - 4 * (m * m) / (4 * m^2)) with 0 by (field; lra). rewrite Cpow_nonneg by lra.
      replace (pow32 0) with 0 by (unfold pow32; ring). rewrite RtoC_mul, Rmult_0_r, cdiv_zero. reflexivity.
  - intros [P T]. unfold convert_row, coefficient_function. rewrite !rdiv_ok by lra. cbn [bind].
    assert (Q : 1 - 4 * (m * m) / t < 0).
    { apply Rmult_lt_reg_r with t; [assumption|]. replace ((1 - 4 * (m * m) / t) * t) with (t - 4 * m^2) by (field; lra). lra. }
    rewrite (Cpow_neg _ Q). rewrite cdiv_ok.
    + cbn [bind]. unfold coefficient_is_complex. destruct (Rlt_dec (1 - 4 * (m * m) / t) 0); [reflexivity|contradiction].
    + assert (K := pow32_pos (- (1 - 4 * (m * m) / t)) ltac:(lra)). intros E. injection E as _ E.
      assert (hc * PI * (alpha * alpha) / 3 / t <> 0).
      { apply Rgt_not_eq. apply Rmult_lt_0_compat; [|now apply Rinv_0_lt_compat].
        assert (0 < hc * PI) by nra. assert (0 < hc * PI * (alpha * alpha)) by nra. lra. }
      nra.
Qed.

Example C29_instance : exists f, f <> RtoC 0 /\
  ScalarCS_call (ScalarCS_init (1/2) 1 3) (fun _ => Ok f) (RtoC 2) = Ok (RtoC (sigma_scalar (1/2) 1 3 2 (Cabs f))) /\
  convert_row 1 3 (1/2) (2, sigma_scalar (1/2) 1 3 2 (Cabs f), 1) =
    Ok (2, Cabs f, 1 * Cabs f / (2 * sigma_scalar (1/2) 1 3 2 (Cabs f))).
Proof.
  exists (mkC 3 4). assert (N : mkC 3 4 <> RtoC 0) by (intros E; injection E; lra). split; [exact N|].
  pose proof (C29_formula_above_threshold (1/2) 1 3 (fun _ => Ok (mkC 3 4)) 2 (mkC 3 4) eq_refl ltac:(lra) ltac:(lra)) as E.
  destruct (C29_convert_back (1/2) 1 3 (fun _ => Ok (mkC 3 4)) 2 (mkC 3 4) 1 eq_refl ltac:(lra) ltac:(lra) ltac:(lra) ltac:(lra) N)
    as (v & E1 & E2).
  rewrite E in E1. injection E1 as <-. auto.
Qed.

(** ** C30 *)

Lemma formula_real : forall m alpha hc t ge gm, 0 < t -> 4 * m^2 <= t ->
  nucleon_formula (NucleonCS_init m alpha hc) (RtoC t) ge gm = Ok (RtoC (sigma_nucleon m alpha hc t ge gm)).
Proof.
  intros m alpha hc t ge gm P T. unfold nucleon_formula, NucleonCS_init. simpl nc_coefficient. simpl nc_four_mass_squared.
  assert (Q : 0 <= 1 - 4 * m^2 / t).
  { apply Rmult_le_reg_r with t; [assumption|]. replace ((1 - 4 * m^2 / t) * t) with (t - 4 * m^2) by (field; lra). lra. }
  rewrite Cabs_RtoC, Rabs_right by lra. rewrite rdiv_ok by lra. cbn [bind].
  replace (4 * (m * m) / t) with (4 * m^2 / t) by (field; lra). rewrite rsqrt_ok by assumption. cbn [bind].
  assert (N : RtoC t <> RtoC 0) by (apply RtoC_nz; lra). rewrite cdiv_ok by assumption. cbn [bind].
  replace (RtoC 2 * RtoC t)%C with (RtoC (2 * t)) by (Cext; ring).
  rewrite cdiv_ok by (apply RtoC_nz; lra). cbn [bind]. rewrite !RtoC_div by lra.
  f_equal. unfold sigma_nucleon. Cext; field; lra.
Qed.

Section NucleonCall.
(** Any form factor object whose flag can be set and is not changed by evaluating. *)
Variable F : Type.
Variable get_electric : F -> bool.
Variable set_electric : bool -> F -> F.
Variable call : F -> C -> Res C * F.
Hypothesis set_set : forall a b f, set_electric a (set_electric b f) = set_electric a f.
Hypothesis get_set : forall b f, get_electric (set_electric b f) = b.
Hypothesis call_keeps : forall f t, get_electric (snd (call f t)) = get_electric f.
Variables m alpha hc_squared : R.
Notation sigma := (NucleonCS_call F set_electric call (NucleonCS_init m alpha hc_squared)).

(** The two evaluations, in order. *)
Definition evaluations (f0 : F) (t : C) : Res (R * R) :=
  let '(r1, f1) := call (set_electric true f0) t in
  ge <- r1 ;; gm <- fst (call (set_electric false f1) t) ;; Ok (Cabs ge, Cabs gm).

Lemma sigma_eq : forall f0 t, fst (sigma f0 t) =
  (g <- evaluations f0 t ;; nucleon_formula (NucleonCS_init m alpha hc_squared) t (fst g) (snd g)).
Proof.
  intros f0 t. unfold NucleonCS_call, evaluations. destruct (call (set_electric true f0) t) as [[v1|e] f1]; [|reflexivity].
  cbn [bind]. destruct (call (set_electric false f1) t) as [[v2|e] f2]; reflexivity.
Qed.

Theorem C30_formula : forall f0 t ge gm, evaluations f0 (RtoC t) = Ok (ge, gm) -> 0 < t -> 4 * m^2 <= t ->
  fst (sigma f0 (RtoC t)) = Ok (RtoC (sigma_nucleon m alpha hc_squared t ge gm)).
Proof. intros f0 t ge gm E P T. rewrite sigma_eq, E. now apply formula_real. Qed.

(** The flag before the call is irrelevant for the result and for everything the object does afterwards. *)
Theorem C30_flag_before_irrelevant : forall f0 b t, sigma (set_electric b f0) t = sigma f0 t.
Proof. intros f0 b t. unfold NucleonCS_call. now rewrite set_set. Qed.

Theorem C30_left_magnetic : forall f0 t v, fst (sigma f0 t) = Ok v -> get_electric (snd (sigma f0 t)) = false.
Proof.
  intros f0 t v. unfold NucleonCS_call. destruct (call (set_electric true f0) t) as [[v1|e] f1]; [|discriminate].
  pose proof (call_keeps (set_electric false f1) t) as K. destruct (call (set_electric false f1) t) as [[v2|e] f2]; [|discriminate].
  intros _. simpl in *. now rewrite K, get_set.
Qed.

(** Exactly which exceptions occur: those of the form factor, t = 0, and |t| below 4 m^2. *)
Theorem C30_raises : forall f0 t e, fst (sigma f0 t) = Err e <->
  evaluations f0 t = Err e \/
  ((exists g, evaluations f0 t = Ok g) /\
   ((t = RtoC 0 /\ e = ZeroDivisionError) \/ (t <> RtoC 0 /\ Cabs t < 4 * m^2 /\ e = ValueError))).
Proof.
  intros f0 t e. rewrite sigma_eq. destruct (evaluations f0 t) as [[ge gm]|e'] eqn:E; cbn [bind fst snd].
  - unfold nucleon_formula, NucleonCS_init. simpl nc_coefficient. simpl nc_four_mass_squared.
    destruct (C_eq_dec t (RtoC 0)) as [->|N].
    + rewrite Cabs_RtoC, Rabs_R0. unfold rdiv. destruct (Req_EM_T 0 0); [|congruence]. cbn [bind]. split.
      * intros G. injection G as <-. right. split; [eauto|]. left. auto.
      * intros [G|(_ & [(_ & ->)|(G & _)])]; [discriminate|reflexivity|congruence].
    + assert (P := Cabs_pos t N). rewrite rdiv_ok by lra. cbn [bind].
      unfold rsqrt. destruct (Rlt_dec (1 - 4 * (m * m) / Cabs t) 0) as [B|B]; cbn [bind].
      * split.
        -- intros G. injection G as <-. right. split; [eauto|]. right. split; [assumption|]. split; [|reflexivity].
           apply (Rmult_lt_compat_r (Cabs t)) in B; [|assumption].
           replace ((1 - 4 * (m * m) / Cabs t) * Cabs t) with (Cabs t - 4 * m^2) in B by (field; lra). lra.
        -- intros [G|(_ & [(G & _)|(_ & _ & ->)])]; [discriminate|contradiction|reflexivity].
      * rewrite cdiv_ok by assumption. cbn [bind].
        assert (N2 : (RtoC 2 * t)%C <> RtoC 0) by (apply Cmul_neq0; [intros G; injection G; lra|assumption]).
        rewrite cdiv_ok by assumption. cbn [bind]. split; [discriminate|].
        intros [G|(_ & [(G & _)|(_ & G & _)])]; [discriminate|contradiction|].
        exfalso. apply B. apply (Rmult_lt_reg_r (Cabs t)); [assumption|].
        replace ((1 - 4 * (m * m) / Cabs t) * Cabs t) with (Cabs t - 4 * m^2) by (field; lra). lra.
  - split; [intros G; left; congruence|]. intros [G|((g & G) & _)]; [congruence|discriminate].
Qed.
End NucleonCall.

Theorem C30_nonnegative : forall m alpha hc_squared t GE GM, 0 <= hc_squared -> 0 < t ->
  0 <= sigma_nucleon m alpha hc_squared t GE GM.
Proof.
  intros m alpha hc t GE GM Hh P. unfold sigma_nucleon. assert (PIP := PI_RGT_0).
  assert (S := sqrt_pos (1 - 4 * m^2 / t)). assert (A := pow2_ge_0 alpha). assert (M := pow2_ge_0 m).
  assert (E := pow2_ge_0 GE). assert (G := pow2_ge_0 GM). assert (I : 0 < / t) by now apply Rinv_0_lt_compat.
  apply Rmult_le_pos.
  - apply Rmult_le_pos; [|left; apply Rinv_0_lt_compat; lra].
    do 3 (apply Rmult_le_pos; [|assumption]). lra.
  - apply Rplus_le_le_0_compat; [assumption|]. apply Rmult_le_pos; [|assumption]. unfold Rdiv. nra.
Qed.

Theorem C30_zero_at_threshold : forall m alpha hc_squared GE GM, m <> 0 ->
  sigma_nucleon m alpha hc_squared (4 * m^2) GE GM = 0.
Proof.
  intros m alpha hc GE GM N. unfold sigma_nucleon.
  assert (m^2 <> 0) by now apply pow_nonzero. replace (1 - 4 * m^2 / (4 * m^2)) with 0 by (field; lra).
  rewrite sqrt_0. field. lra.
Qed.

Theorem C30_monotone : forall m alpha hc_squared t GE GM GE' GM', 0 <= hc_squared -> 0 < t ->
  0 <= GE <= GE' -> 0 <= GM <= GM' ->
  sigma_nucleon m alpha hc_squared t GE GM <= sigma_nucleon m alpha hc_squared t GE' GM'.
Proof.
  intros m alpha hc t GE GM GE' GM' Hh P HE HM. unfold sigma_nucleon. assert (PIP := PI_RGT_0).
  assert (S := sqrt_pos (1 - 4 * m^2 / t)). assert (A := pow2_ge_0 alpha). assert (M := pow2_ge_0 m).
  assert (I : 0 < / t) by now apply Rinv_0_lt_compat.
  apply Rmult_le_compat_l.
  - apply Rmult_le_pos; [|left; apply Rinv_0_lt_compat; lra]. do 3 (apply Rmult_le_pos; [|assumption]). lra.
  - apply Rplus_le_compat; [apply pow_incr; lra|]. apply Rmult_le_compat_l; [unfold Rdiv; nra|apply pow_incr; lra].
Qed.

(** "Below threshold" is a statement about |t|: a real t far below zero is accepted and gives a negative number when
    the electric form factor vanishes. *)
Theorem C30_negative_t_rejected_refuted : exists m t gm v, t < 4 * m^2 /\
  nucleon_formula (NucleonCS_init m 1 1) (RtoC t) 0 gm = Ok (RtoC v) /\ v < 0.
Proof.
  exists (1/2), (-2), 1, (- (2 * PI / 3 * sqrt (1/2))). assert (PIP := PI_RGT_0). split; [lra|].
  assert (S : 0 < sqrt (1/2)) by (apply sqrt_lt_R0; lra). split; [|nra].
  unfold nucleon_formula, NucleonCS_init. simpl nc_coefficient. simpl nc_four_mass_squared.
  rewrite Cabs_RtoC, Rabs_left by lra. rewrite rdiv_ok by lra. cbn [bind].
  replace (1 - 4 * (1 / 2 * (1 / 2)) / - (-2)) with (1/2) by field. rewrite rsqrt_ok by lra. cbn [bind].
  rewrite cdiv_ok by (apply RtoC_nz; lra). cbn [bind].
  replace (RtoC 2 * RtoC (-2))%C with (RtoC (-4)) by (Cext; ring).
  rewrite cdiv_ok by (apply RtoC_nz; lra). cbn [bind]. rewrite !RtoC_div by lra. f_equal. Cext; field.
Qed.

(** The nucleon model of the repository is such an object. *)
Definition ff_electric (f : FFModel) : bool := match f with FFNucleon m _ => nm_electric m | _ => false end.

Lemma ff_laws : forall m c,
  (forall a b, ff_set_electric a (ff_set_electric b (FFNucleon m c)) = ff_set_electric a (FFNucleon m c)) /\
  (forall b, ff_electric (ff_set_electric b (FFNucleon m c)) = b) /\
  (forall t, ff_electric (snd (ff_call (FFNucleon m c) t)) = ff_electric (FFNucleon m c)).
Proof.
  intros m c. split; [|split]; intros; try reflexivity. simpl. now destruct (Nucleon_call m t c).
Qed.

Theorem C30_nucleon_model : forall m c mass alpha hc b t,
  let sigma := NucleonCS_call FFModel ff_set_electric ff_call (NucleonCS_init mass alpha hc) in
  sigma (ff_set_electric b (FFNucleon m c)) t = sigma (FFNucleon m c) t /\
  (is_ok (fst (sigma (FFNucleon m c) t)) -> ff_electric (snd (sigma (FFNucleon m c) t)) = false).
Proof.
  intros m c mass alpha hc b t sigma. split; [reflexivity|]. unfold sigma, NucleonCS_call. simpl.
  destruct (Nucleon_call _ t c) as [[v1|e] c1]; [|intros [v H]; discriminate]. simpl.
  destruct (Nucleon_call _ t c1) as [[v2|e] c2]; [|intros [v H]; discriminate]. reflexivity.
Qed.

(** A toy object: electric value 3, magnetic value 4i. *)
Example C30_instance :
  let call f t := ((Ok (if f : bool then RtoC 3 else mkC 0 4) : Res C), f) in
  let sigma := NucleonCS_call bool (fun b _ => b) call (NucleonCS_init (1/2) 1 1) in
  sigma true (RtoC 2) = (Ok (RtoC (sigma_nucleon (1/2) 1 1 2 3 4)), false) /\
  sigma true (RtoC (1/2)) = (Err ValueError, false) /\ sigma false (RtoC 0) = (Err ZeroDivisionError, false).
Proof.
  intros call sigma.
  assert (M : Cabs (mkC 0 4) = 4).
  { unfold Cabs, Cnorm2. simpl. replace (0 * 0 + 4 * 4) with (4 * 4) by ring. apply sqrt_square. lra. }
  assert (E : Cabs (RtoC 3) = 3) by (rewrite Cabs_RtoC, Rabs_right; lra).
  assert (V : forall f t, evaluations bool (fun b _ => b) call f t = Ok (3, 4)).
  { intros f t. unfold evaluations. simpl. now rewrite M, E. }
  assert (P : forall f t, sigma f t = (fst (sigma f t), false)) by reflexivity.
  rewrite (P true (RtoC 2)), (P true (RtoC (1/2))), (P false (RtoC 0)). split; [|split]; f_equal.
  - apply C30_formula; [apply V|lra|lra].
  - apply C30_raises. right. split; [eauto|]. right. rewrite Cabs_RtoC, Rabs_right by lra.
    split; [apply RtoC_nz; lra|]. split; [lra|reflexivity].
  - apply C30_raises. right. split; [eauto|]. left. auto.
Qed.

(** ** C31 *)

(** The value and error of the transformation, written out. *)
Theorem C31_formula : forall m alpha cs err t, m <> 0 -> alpha <> 0 -> 4 * m^2 < t -> 0 < cs ->
  let k := 3 * t / (2 * PI * alpha^2 * sqrt (1 - 4 * m^2 / t) * (2 + 4 * m^2 / t)) in
  0 < k /\ transform_to_effective_form_factor m alpha cs err t = Ok (sqrt (k * cs), k * err / (2 * sqrt (k * cs))).
Proof.
  intros m alpha cs err t Hm Ha T Hc k. assert (PIP := PI_RGT_0).
  assert (M : 0 < m^2) by now apply sq_pos.
  assert (A : 0 < alpha^2) by now apply sq_pos.
  assert (P : 0 < t) by lra.
  assert (Q : 0 < 1 - 4 * m^2 / t).
  { apply Rmult_lt_reg_r with t; [assumption|]. replace ((1 - 4 * m^2 / t) * t) with (t - 4 * m^2) by (field; lra). lra. }
  assert (I : 0 < 4 * m^2 / t) by (apply Rmult_lt_0_compat; [lra|now apply Rinv_0_lt_compat]).
  assert (S : 0 < sqrt (1 - 4 * m^2 / t)) by now apply sqrt_lt_R0.
  set (den := 2 * PI * alpha^2 * sqrt (1 - 4 * m^2 / t) * (2 + 4 * m^2 / t)) in *.
  assert (D : 0 < den) by (unfold den; apply Rmult_lt_0_compat; [apply Rmult_lt_0_compat; [apply Rmult_lt_0_compat|]|]; lra).
  assert (K : 0 < k) by (unfold k; apply Rmult_lt_0_compat; [lra|now apply Rinv_0_lt_compat]).
  split; [exact K|]. unfold transform_to_effective_form_factor.
  rewrite rdiv_ok by nra. cbn [bind].
  assert (TN : t / (4 * (m * m)) <> 0).
  { apply Rgt_not_eq. apply Rmult_lt_0_compat; [lra|apply Rinv_0_lt_compat; nra]. }
  rewrite rdiv_ok by assumption. cbn [bind].
  replace (1 / (t / (4 * (m * m)))) with (4 * m^2 / t) by (field; split; nra).
  rewrite rsqrt_ok by lra. cbn [bind].
  replace (2 * PI * (alpha * alpha) * sqrt (1 - 4 * m^2 / t) * (2 + 4 * m^2 / t)) with den by (unfold den; ring).
  rewrite !rdiv_ok by lra. cbn [bind].
  replace (3 * t * cs / den) with (k * cs) by (unfold k; field; lra).
  assert (X : 0 < k * cs) by nra. assert (Y : 0 < sqrt (k * cs)) by now apply sqrt_lt_R0.
  rewrite rsqrt_ok by lra. cbn [bind]. rewrite rdiv_ok by lra. cbn [bind]. do 2 f_equal. replace (3 * t * err / den) with (k * err) by (unfold k; field; lra). field. lra.
Qed.

(** Applied to the nucleon cross-section with equal form factors: sqrt(hc^2) times the form factor. *)
Theorem C31_inverts_up_to_units : forall m alpha hc_squared t G err, m <> 0 -> alpha <> 0 -> 0 < hc_squared ->
  4 * m^2 < t -> 0 < G ->
  exists e, transform_to_effective_form_factor m alpha (sigma_nucleon m alpha hc_squared t G G) err t =
            Ok (sqrt hc_squared * G, e) /\
            e = err * (sqrt hc_squared * G) / (2 * sigma_nucleon m alpha hc_squared t G G).
Proof.
  intros m alpha hc t G err Hm Ha Hh T HG. assert (PIP := PI_RGT_0).
  assert (M : 0 < m^2) by now apply sq_pos.
  assert (A : 0 < alpha^2) by now apply sq_pos.
  assert (P : 0 < t) by lra.
  assert (Q : 0 < 1 - 4 * m^2 / t).
  { apply Rmult_lt_reg_r with t; [assumption|]. replace ((1 - 4 * m^2 / t) * t) with (t - 4 * m^2) by (field; lra). lra. }
  assert (I : 0 < 4 * m^2 / t) by (apply Rmult_lt_0_compat; [lra|now apply Rinv_0_lt_compat]).
  assert (S : 0 < sqrt (1 - 4 * m^2 / t)) by now apply sqrt_lt_R0.
  set (sg := sigma_nucleon m alpha hc t G G).
  assert (X : 3 * t / (2 * PI * alpha^2 * sqrt (1 - 4 * m^2 / t) * (2 + 4 * m^2 / t)) * sg = hc * G^2).
  { unfold sg, sigma_nucleon. set (b := sqrt (1 - 4 * m^2 / t)) in *.
    assert (2 * t + 4 * m^2 <> 0) by lra.
    field. repeat split; try lra; try assumption. }
  set (k := 3 * t / (2 * PI * alpha^2 * sqrt (1 - 4 * m^2 / t) * (2 + 4 * m^2 / t))) in *.
  assert (SG : 0 < sg).
  { assert (0 <= sg) by (apply C30_nonnegative; lra). assert (sg <> 0); [|lra]. intros Z. rewrite Z in X.
    assert (0 < hc * G^2) by (apply Rmult_lt_0_compat; [assumption|simpl; nra]). lra. }
  destruct (C31_formula m alpha sg err t Hm Ha T SG) as (K & E). fold k in K, E.
  assert (H : sqrt (k * sg) = sqrt hc * G).
  { rewrite X. rewrite sqrt_mult by (try lra; apply pow2_ge_0). rewrite sqrt_pow2 by lra. reflexivity. }
  assert (SH : 0 < sqrt hc) by now apply sqrt_lt_R0.
  exists (k * err / (2 * (sqrt hc * G))). rewrite E, H. split; [reflexivity|].
  assert (KK : k = hc * G^2 / sg) by (rewrite <- X; field; lra). rewrite KK.
  assert (HH : hc = sqrt hc * sqrt hc) by (symmetry; apply sqrt_sqrt; lra).
  rewrite HH at 1. field. repeat split; lra.
Qed.

Theorem C31_inverts_exactly_refuted : exists m alpha hc_squared t G err r e, 0 < G /\ 4 * m^2 < t /\
  transform_to_effective_form_factor m alpha (sigma_nucleon m alpha hc_squared t G G) err t = Ok (r, e) /\ r <> G.
Proof.
  exists (1/2), 1, 4, 2, 1, 0.
  destruct (C31_inverts_up_to_units (1/2) 1 4 2 1 0 ltac:(lra) ltac:(lra) ltac:(lra) ltac:(lra) ltac:(lra)) as (e & E & _).
  exists (sqrt 4 * 1), e. split; [lra|]. split; [lra|]. split; [exact E|].
  replace 4 with (2 * 2) by ring. rewrite sqrt_square by lra. lra.
Qed.

(** The error is the derivative of the value times the given error. *)
Theorem C31_error_is_derivative : forall m alpha cs t, m <> 0 -> alpha <> 0 -> 4 * m^2 < t -> 0 < cs ->
  exists value slope,
    (forall x err, 0 < x -> exists e, transform_to_effective_form_factor m alpha x err t = Ok (value x, e)) /\
    derivable_pt_lim value cs slope /\
    forall err, transform_to_effective_form_factor m alpha cs err t = Ok (value cs, slope * err).
Proof.
  intros m alpha cs t Hm Ha T Hc.
  destruct (C31_formula m alpha cs 0 t Hm Ha T Hc) as (K & _).
  set (k := 3 * t / (2 * PI * alpha^2 * sqrt (1 - 4 * m^2 / t) * (2 + 4 * m^2 / t))) in *.
  exists (fun x => sqrt (k * x)), (k / (2 * sqrt (k * cs))). split; [|split].
  - intros x err Hx. destruct (C31_formula m alpha x err t Hm Ha T Hx) as (_ & E). fold k in E. eauto.
  - replace (k / (2 * sqrt (k * cs))) with (/ (2 * sqrt (k * cs)) * k) by (unfold Rdiv; ring).
    apply (derivable_pt_lim_comp (fun x => k * x) sqrt).
    + pose proof (derivable_pt_lim_scal id k cs 1 (derivable_pt_lim_id cs)) as D. rewrite Rmult_1_r in D. exact D.
    + apply derivable_pt_lim_sqrt. nra.
  - intros err. destruct (C31_formula m alpha cs err t Hm Ha T Hc) as (_ & E). fold k in E. rewrite E. do 2 f_equal.
    assert (0 < sqrt (k * cs)) by (apply sqrt_lt_R0; nra). field. lra.
Qed.

(** Scaling value and error. *)
Theorem C31_scaling : forall m alpha cs err t s, m <> 0 -> alpha <> 0 -> 4 * m^2 < t -> 0 < cs -> 0 < s ->
  exists r e, transform_to_effective_form_factor m alpha cs err t = Ok (r, e) /\
    transform_to_effective_form_factor m alpha (s * cs) (s * err) t = Ok (sqrt s * r, sqrt s * e).
Proof.
  intros m alpha cs err t s Hm Ha T Hc Hs.
  destruct (C31_formula m alpha cs err t Hm Ha T Hc) as (K & E).
  assert (Hsc : 0 < s * cs) by nra.
  destruct (C31_formula m alpha (s * cs) (s * err) t Hm Ha T Hsc) as (_ & E').
  set (k := 3 * t / (2 * PI * alpha^2 * sqrt (1 - 4 * m^2 / t) * (2 + 4 * m^2 / t))) in *.
  eexists _, _. split; [exact E|]. rewrite E'. do 2 f_equal.
  - replace (k * (s * cs)) with (s * (k * cs)) by ring. apply sqrt_mult; nra.
  - replace (k * (s * cs)) with (s * (k * cs)) by ring. rewrite sqrt_mult by nra.
    assert (0 < sqrt s) by now apply sqrt_lt_R0. assert (0 < sqrt (k * cs)) by (apply sqrt_lt_R0; nra).
    replace s with (sqrt s * sqrt s) at 1 by (apply sqrt_sqrt; lra). field. lra.
Qed.

(** Everything else raises. *)
Theorem C31_raises : forall m alpha cs err t, m <> 0 -> alpha <> 0 ->
  (t = 0 \/ t = 4 * m^2 -> transform_to_effective_form_factor m alpha cs err t = Err ZeroDivisionError) /\
  (0 < t < 4 * m^2 -> transform_to_effective_form_factor m alpha cs err t = Err ValueError) /\
  (4 * m^2 < t -> cs = 0 -> transform_to_effective_form_factor m alpha cs err t = Err ZeroDivisionError) /\
  (4 * m^2 < t -> cs < 0 -> transform_to_effective_form_factor m alpha cs err t = Err ValueError).
Proof.
  intros m alpha cs err t Hm Ha. assert (PIP := PI_RGT_0).
  assert (M : 0 < m^2) by now apply sq_pos.
  assert (A : 0 < alpha^2) by now apply sq_pos.
  assert (Z : forall a, rdiv a 0 = Err ZeroDivisionError) by (intros a; unfold rdiv; destruct (Req_EM_T 0 0); congruence).
  assert (G : forall x, t <> 0 -> x = 4 * m^2 / t ->
    transform_to_effective_form_factor m alpha cs err t =
    (beta <- rsqrt (1 - x) ;;
     let denominator := 2 * PI * (alpha * alpha) * beta * (2 + x) in
     ff_squared <- rdiv (3 * t * cs) denominator ;;
     error_for_ff_squared <- rdiv (3 * t * err) denominator ;;
     ff <- rsqrt ff_squared ;;
     e <- rdiv (1 / 2 * error_for_ff_squared) ff ;;
     Ok (ff, e))).
  { intros x N ->. unfold transform_to_effective_form_factor. rewrite rdiv_ok by nra. cbn [bind].
    assert (t / (4 * (m * m)) <> 0).
    { unfold Rdiv. apply Rmult_integral_contrapositive. split; [assumption|]. apply Rinv_neq_0_compat. nra. }
    rewrite rdiv_ok by assumption. cbn [bind].
    replace (1 / (t / (4 * (m * m)))) with (4 * m^2 / t) by (field; split; [assumption|nra]). reflexivity. }
  split; [|split; [|split]].
  - intros [-> | ->].
    + unfold transform_to_effective_form_factor. rewrite rdiv_ok by nra. cbn [bind].
      replace (0 / (4 * (m * m))) with 0 by (field; nra). rewrite Z. reflexivity.
    + rewrite (G 1); [|lra|field; lra]. replace (1 - 1) with 0 by ring. rewrite rsqrt_ok by lra. cbn [bind]. cbv zeta.
      rewrite sqrt_0, Rmult_0_r, Rmult_0_l, Z. reflexivity.
  - intros [P T]. rewrite (G _ ltac:(lra) eq_refl).
    assert (Q : 1 - 4 * m^2 / t < 0).
    { apply Rmult_lt_reg_r with t; [assumption|]. replace ((1 - 4 * m^2 / t) * t) with (t - 4 * m^2) by (field; lra). lra. }
    unfold rsqrt at 1. destruct (Rlt_dec (1 - 4 * m^2 / t) 0); [reflexivity|contradiction].
  - intros T ->. rewrite (G _ ltac:(lra) eq_refl).
    assert (Q : 0 < 1 - 4 * m^2 / t).
    { apply Rmult_lt_reg_r with t; [lra|]. replace ((1 - 4 * m^2 / t) * t) with (t - 4 * m^2) by (field; lra). lra. }
    assert (I : 0 < 4 * m^2 / t) by (apply Rmult_lt_0_compat; [lra|apply Rinv_0_lt_compat; lra]).
    assert (S : 0 < sqrt (1 - 4 * m^2 / t)) by now apply sqrt_lt_R0.
    rewrite rsqrt_ok by lra. cbn [bind]. cbv zeta.
    assert (D : 0 < 2 * PI * (alpha * alpha) * sqrt (1 - 4 * m^2 / t) * (2 + 4 * m^2 / t))
      by (apply Rmult_lt_0_compat; [apply Rmult_lt_0_compat; [apply Rmult_lt_0_compat|]|]; nra).
    rewrite !rdiv_ok by lra. cbn [bind]. rewrite Rmult_0_r. unfold Rdiv at 1. rewrite Rmult_0_l.
    rewrite rsqrt_ok by lra. cbn [bind]. rewrite sqrt_0, Z. reflexivity.
  - intros T N. rewrite (G _ ltac:(lra) eq_refl).
    assert (Q : 0 < 1 - 4 * m^2 / t).
    { apply Rmult_lt_reg_r with t; [lra|]. replace ((1 - 4 * m^2 / t) * t) with (t - 4 * m^2) by (field; lra). lra. }
    assert (I : 0 < 4 * m^2 / t) by (apply Rmult_lt_0_compat; [lra|apply Rinv_0_lt_compat; lra]).
    assert (S : 0 < sqrt (1 - 4 * m^2 / t)) by now apply sqrt_lt_R0.
    rewrite rsqrt_ok by lra. cbn [bind]. cbv zeta.
    assert (D : 0 < 2 * PI * (alpha * alpha) * sqrt (1 - 4 * m^2 / t) * (2 + 4 * m^2 / t))
      by (apply Rmult_lt_0_compat; [apply Rmult_lt_0_compat; [apply Rmult_lt_0_compat|]|]; nra).
    rewrite !rdiv_ok by lra. cbn [bind].
    assert (X : 3 * t * cs / (2 * PI * (alpha * alpha) * sqrt (1 - 4 * m^2 / t) * (2 + 4 * m^2 / t)) < 0).
    { assert (0 < / (2 * PI * (alpha * alpha) * sqrt (1 - 4 * m^2 / t) * (2 + 4 * m^2 / t))) by now apply Rinv_0_lt_compat.
      assert (3 * t * cs < 0) by nra. unfold Rdiv. nra. }
    unfold rsqrt. destruct (Rlt_dec _ 0); [reflexivity|contradiction].
Qed.

Example C31_instance : exists e, 0 < e /\
  transform_to_effective_form_factor (1/2) 1 (sigma_nucleon (1/2) 1 4 2 5 5) 3 2 = Ok (10, e).
Proof.
  destruct (C31_inverts_up_to_units (1/2) 1 4 2 5 3 ltac:(lra) ltac:(lra) ltac:(lra) ltac:(lra) ltac:(lra)) as (e & E & V).
  replace 4 with (2 * 2) in V, E by ring. rewrite sqrt_square in V, E by lra. exists e. split.
  - rewrite V.
    assert (P : 0 < sigma_nucleon (1/2) 1 (2 * 2) 2 5 5).
    { unfold sigma_nucleon. assert (PIP := PI_RGT_0). assert (S : 0 < sqrt (1 - 4 * (1/2)^2 / 2)) by (apply sqrt_lt_R0; lra).
      apply Rmult_lt_0_compat; [|lra]. apply Rmult_lt_0_compat; [|lra]. apply Rmult_lt_0_compat; [lra|assumption]. }
    apply Rmult_lt_0_compat; [lra|]. apply Rinv_0_lt_compat. lra.
  - replace (2 * 5) with 10 in E by ring. replace (2 * 2) with 4 in E by ring. exact E.
Qed.

Print Assumptions C29_formula_above_threshold.
Print Assumptions C29_zero_at_threshold.
Print Assumptions C29_below_threshold_imaginary.
Print Assumptions C29_modulus_factorises.
Print Assumptions C29_raises.
Print Assumptions C29_convert_back.
Print Assumptions C29_nonnegative.
Print Assumptions C29_monotone_in_form_factor.
Print Assumptions C29_determines_modulus.
Print Assumptions C29_convert_raises.
Print Assumptions C30_formula.
Print Assumptions C30_flag_before_irrelevant.
Print Assumptions C30_left_magnetic.
Print Assumptions C30_raises.
Print Assumptions C30_nonnegative.
Print Assumptions C30_zero_at_threshold.
Print Assumptions C30_monotone.
Print Assumptions C30_negative_t_rejected_refuted.
Print Assumptions C30_nucleon_model.
Print Assumptions C31_formula.
Print Assumptions C31_inverts_up_to_units.
Print Assumptions C31_inverts_exactly_refuted.
Print Assumptions C31_error_is_derivative.
Print Assumptions C31_scaling.
Print Assumptions C31_raises.
