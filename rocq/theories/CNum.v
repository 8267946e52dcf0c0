(** Complex numbers over the standard library reals.

    Models Python's [complex] type, [cmath.polar], [cmath.exp] and complex
    division as used by ua_model/functions.py, ua_model/MapFromTtoW.py and the
    model classes.  Simplification: exact arithmetic, no rounding, no signed
    zero, no overflow. *)
From Coq Require Import Reals Lra Psatz.
From Verif Require Import PyBase.
Local Open Scope R_scope.

Record C : Type := mkC { Re : R; Im : R }.

Declare Scope C_scope.
Delimit Scope C_scope with C.
Bind Scope C_scope with C.

(** A real number used as a complex one. *)
Definition RtoC (x : R) : C := mkC x 0.
Coercion RtoC : R >-> C.

Definition Cadd (a b : C) : C := mkC (Re a + Re b) (Im a + Im b).
Definition Copp (a : C) : C := mkC (- Re a) (- Im a).
Definition Csub (a b : C) : C := Cadd a (Copp b).
Definition Cmul (a b : C) : C :=
  mkC (Re a * Re b - Im a * Im b) (Re a * Im b + Im a * Re b).
Definition Cnorm2 (a : C) : R := Re a * Re a + Im a * Im a.
Definition Cinv (a : C) : C := mkC (Re a / Cnorm2 a) (- Im a / Cnorm2 a).
Definition Cdivt (a b : C) : C := Cmul a (Cinv b).
Definition Ci : C := mkC 0 1.
(** [z.conjugate()] *)
Definition Cconj (a : C) : C := mkC (Re a) (- Im a).
(** [abs(z)] *)
Definition Cabs (a : C) : R := sqrt (Cnorm2 a).

Notation "a + b" := (Cadd a b) : C_scope.
Notation "a - b" := (Csub a b) : C_scope.
Notation "a * b" := (Cmul a b) : C_scope.
Notation "- a" := (Copp a) : C_scope.
Notation "/ a" := (Cinv a) : C_scope.
Notation "a / b" := (Cdivt a b) : C_scope.
Notation "0" := (RtoC 0) : C_scope.
Notation "1" := (RtoC 1) : C_scope.
Notation "2" := (RtoC 2) : C_scope.
Notation "4" := (RtoC 4) : C_scope.

(** [z ** 2] *)
Definition Csq (a : C) : C := Cmul a a.

Lemma C_ext : forall a b : C, Re a = Re b -> Im a = Im b -> a = b.
Proof. intros [a1 a2] [b1 b2]; simpl; intros -> ->; reflexivity. Qed.

Lemma C_eq_dec : forall a b : C, {a = b} + {a <> b}.
Proof.
  intros [a1 a2] [b1 b2].
  destruct (Req_EM_T a1 b1) as [->|N]; [|right; congruence].
  destruct (Req_EM_T a2 b2) as [->|N]; [left; reflexivity | right; congruence].
Qed.

Ltac Cext := apply C_ext; simpl.

Lemma Cnorm2_pos : forall a, a <> RtoC 0 -> 0 < Cnorm2 a.
Proof.
  intros [x y] H. unfold Cnorm2; simpl.
  destruct (Req_EM_T x 0) as [->|Nx].
  - destruct (Req_EM_T y 0) as [->|Ny].
    + exfalso. apply H. reflexivity.
    + nra.
  - nra.
Qed.

Lemma Cnorm2_nonneg : forall a, 0 <= Cnorm2 a.
Proof. intros [x y]; unfold Cnorm2; simpl; nra. Qed.

Lemma Cnorm2_0 : forall a, Cnorm2 a = 0 -> a = RtoC 0.
Proof.
  intros a H. destruct (C_eq_dec a (RtoC 0)) as [E|N]; [assumption|].
  apply Cnorm2_pos in N. lra.
Qed.

Lemma C_ring_theory :
  ring_theory (RtoC 0) (RtoC 1) Cadd Cmul Csub Copp (@eq C).
Proof. constructor; intros; Cext; ring. Qed.

Lemma Cinv_l : forall a, a <> RtoC 0 -> Cmul (Cinv a) a = RtoC 1.
Proof.
  intros a H. apply Cnorm2_pos in H. destruct a as [x y].
  Cext; unfold Cnorm2 in *; simpl in *; field; lra.
Qed.

Lemma C1_neq_0 : RtoC 1 <> RtoC 0.
Proof. intros H. injection H. lra. Qed.

Lemma C_field_theory :
  field_theory (RtoC 0) (RtoC 1) Cadd Cmul Csub Copp Cdivt Cinv (@eq C).
Proof.
  constructor.
  - exact C_ring_theory.
  - exact C1_neq_0.
  - reflexivity.
  - exact Cinv_l.
Qed.

Add Field C_field_inst : C_field_theory.

Lemma RtoC_inj : forall x y, RtoC x = RtoC y -> x = y.
Proof. intros x y H. now injection H. Qed.
Lemma RtoC_add : forall x y, RtoC (x + y) = Cadd x y.
Proof. intros. Cext; ring. Qed.
Lemma RtoC_opp : forall x, RtoC (- x) = Copp x.
Proof. intros. Cext; ring. Qed.
Lemma RtoC_sub : forall x y, RtoC (x - y) = Csub x y.
Proof. intros. Cext; ring. Qed.
Lemma RtoC_mul : forall x y, RtoC (x * y) = Cmul x y.
Proof. intros. Cext; ring. Qed.
Lemma RtoC_neq0 : forall x, x <> 0 -> RtoC x <> RtoC 0.
Proof. intros x H E. apply H. now apply RtoC_inj. Qed.
Lemma RtoC_inv : forall x, x <> 0 -> RtoC (/ x) = Cinv x.
Proof. intros. Cext; unfold Cnorm2; simpl; field; assumption. Qed.
Lemma RtoC_div : forall x y, y <> 0 -> RtoC (x / y) = Cdivt x y.
Proof. intros. unfold Rdiv, Cdivt. rewrite RtoC_mul, RtoC_inv by assumption. reflexivity. Qed.

Lemma Cmul_integral : forall a b, Cmul a b = RtoC 0 -> a = RtoC 0 \/ b = RtoC 0.
Proof.
  intros a b H. destruct (C_eq_dec a (RtoC 0)) as [E|N]; [now left|].
  right. assert (E : b = Cmul (Cinv a) (Cmul a b)) by (field; assumption).
  rewrite E, H. ring.
Qed.

Lemma Cmul_neq0 : forall a b, a <> RtoC 0 -> b <> RtoC 0 -> Cmul a b <> RtoC 0.
Proof. intros a b Ha Hb H. apply Cmul_integral in H. tauto. Qed.

Lemma Cinv_neq0 : forall a, a <> RtoC 0 -> Cinv a <> RtoC 0.
Proof.
  intros a Ha H. apply C1_neq_0. rewrite <- (Cinv_l a Ha), H. ring.
Qed.

Lemma Csub_eq0 : forall a b, Csub a b = RtoC 0 <-> a = b.
Proof.
  intros a b; split; intros H.
  - assert (E : a = Cadd (Csub a b) b) by ring. rewrite E, H. ring.
  - rewrite H. ring.
Qed.

Lemma Csub_eq : forall a b, Csub a b = RtoC 0 -> a = b.
Proof. intros a b. apply Csub_eq0. Qed.
Lemma Copp_neq0 : forall a, a <> RtoC 0 -> Copp a <> RtoC 0.
Proof. intros a H E. apply H. transitivity (Copp (Copp a)); [ring|]. rewrite E. ring. Qed.
Lemma Cdivt_neq0 : forall a b, a <> RtoC 0 -> b <> RtoC 0 -> Cdivt a b <> RtoC 0.
Proof. intros a b Ha Hb. apply Cmul_neq0; [assumption|now apply Cinv_neq0]. Qed.
Lemma Ci_sq : Cmul Ci Ci = Copp 1%C.
Proof. Cext; ring. Qed.
Lemma Ci_neq0 : Ci <> RtoC 0.
Proof. intros H. injection H. lra. Qed.

(** Conjugation *)
Lemma Cconj_add : forall a b, Cconj (Cadd a b) = Cadd (Cconj a) (Cconj b).
Proof. intros; Cext; ring. Qed.
Lemma Cconj_opp : forall a, Cconj (Copp a) = Copp (Cconj a).
Proof. intros; Cext; ring. Qed.
Lemma Cconj_sub : forall a b, Cconj (Csub a b) = Csub (Cconj a) (Cconj b).
Proof. intros; Cext; ring. Qed.
Lemma Cconj_mul : forall a b, Cconj (Cmul a b) = Cmul (Cconj a) (Cconj b).
Proof. intros; Cext; ring. Qed.
Lemma Cnorm2_conj : forall a, Cnorm2 (Cconj a) = Cnorm2 a.
Proof. intros; unfold Cnorm2; simpl; ring. Qed.
Lemma Cconj_inv : forall a, Cconj (Cinv a) = Cinv (Cconj a).
Proof.
  intros; Cext; rewrite Cnorm2_conj; [reflexivity|].
  unfold Rdiv. ring.
Qed.
Lemma Cconj_div : forall a b, Cconj (Cdivt a b) = Cdivt (Cconj a) (Cconj b).
Proof. intros. unfold Cdivt. now rewrite Cconj_mul, Cconj_inv. Qed.
Lemma Cconj_RtoC : forall x : R, Cconj x = x.
Proof. intros; Cext; ring. Qed.
Lemma Cconj_invol : forall a, Cconj (Cconj a) = a.
Proof. intros; Cext; ring. Qed.
Lemma Cconj_Ci : Cconj Ci = Copp Ci.
Proof. Cext; ring. Qed.
Lemma Cconj_inj : forall a b, Cconj a = Cconj b -> a = b.
Proof. intros a b H. rewrite <- (Cconj_invol a), H. apply Cconj_invol. Qed.
Lemma Cconj_0_iff : forall a, Cconj a = RtoC 0 <-> a = RtoC 0.
Proof.
  intros a; split; intros H.
  - apply Cconj_inj. rewrite H, Cconj_RtoC. reflexivity.
  - rewrite H. apply Cconj_RtoC.
Qed.
Lemma Cconj_real_iff : forall a, Cconj a = a <-> Im a = 0.
Proof.
  intros [x y]; split; intros H; simpl in *.
  - injection H. lra.
  - Cext; lra.
Qed.
Lemma Cmul_conj : forall a, Cmul a (Cconj a) = RtoC (Cnorm2 a).
Proof. intros; Cext; unfold Cnorm2; ring. Qed.

(** Modulus *)
Lemma Cabs_nonneg : forall a, 0 <= Cabs a.
Proof. intros; apply sqrt_pos. Qed.
Lemma Cabs_sq : forall a, Cabs a * Cabs a = Cnorm2 a.
Proof. intros; apply sqrt_sqrt, Cnorm2_nonneg. Qed.
Lemma Cnorm2_mul : forall a b, Cnorm2 (Cmul a b) = Cnorm2 a * Cnorm2 b.
Proof. intros; unfold Cnorm2; simpl; ring. Qed.
Lemma Cabs_mul : forall a b, Cabs (Cmul a b) = Cabs a * Cabs b.
Proof.
  intros. unfold Cabs. rewrite Cnorm2_mul. apply sqrt_mult; apply Cnorm2_nonneg.
Qed.
Lemma Cabs_0_iff : forall a, Cabs a = 0 <-> a = RtoC 0.
Proof.
  intros a; split; intros H.
  - apply Cnorm2_0. rewrite <- Cabs_sq, H. ring.
  - subst. unfold Cabs, Cnorm2; simpl.
    replace (0 * 0 + 0 * 0) with 0 by ring. apply sqrt_0.
Qed.
Lemma Cabs_pos : forall a, a <> RtoC 0 -> 0 < Cabs a.
Proof.
  intros a H. destruct (Cabs_nonneg a) as [P|E]; [assumption|].
  exfalso. apply H. now apply Cabs_0_iff.
Qed.
Lemma Cabs_conj : forall a, Cabs (Cconj a) = Cabs a.
Proof. intros; unfold Cabs; now rewrite Cnorm2_conj. Qed.
Lemma Cabs_opp : forall a, Cabs (Copp a) = Cabs a.
Proof. intros; unfold Cabs, Cnorm2; simpl; f_equal; ring. Qed.
Lemma Cabs_RtoC : forall x : R, Cabs x = Rabs x.
Proof.
  intros. unfold Cabs, Cnorm2; simpl.
  replace (x * x + 0 * 0) with (Rsqr x) by (unfold Rsqr; ring).
  apply sqrt_Rsqr_abs.
Qed.
Lemma Cabs_inv : forall a, a <> RtoC 0 -> Cabs (Cinv a) = / Cabs a.
Proof.
  intros a H. assert (P := Cabs_pos a H).
  assert (E : Cabs (Cinv a) * Cabs a = 1).
  { rewrite <- Cabs_mul, Cinv_l by assumption. rewrite Cabs_RtoC. apply Rabs_R1. }
  apply (Rmult_eq_reg_r (Cabs a)); [|lra]. rewrite E. field. lra.
Qed.
Lemma Cabs_div : forall a b, b <> RtoC 0 -> Cabs (Cdivt a b) = Cabs a / Cabs b.
Proof. intros. unfold Cdivt, Rdiv. now rewrite Cabs_mul, Cabs_inv. Qed.
Lemma Cabs_Re : forall a, Rabs (Re a) <= Cabs a.
Proof.
  intros [x y]. unfold Cabs, Cnorm2; simpl. rewrite <- sqrt_Rsqr_abs.
  apply sqrt_le_1_alt. unfold Rsqr. nra.
Qed.
Lemma Cabs_Im : forall a, Rabs (Im a) <= Cabs a.
Proof.
  intros [x y]. unfold Cabs, Cnorm2; simpl. rewrite <- sqrt_Rsqr_abs.
  apply sqrt_le_1_alt. unfold Rsqr. nra.
Qed.
Lemma Cabs_triangle : forall a b, Cabs (Cadd a b) <= Cabs a + Cabs b.
Proof.
  intros a b.
  assert (Pa := Cabs_nonneg a). assert (Pb := Cabs_nonneg b).
  assert (Sa := Cabs_sq a). assert (Sb := Cabs_sq b).
  apply Rsqr_incr_0_var; [|lra].
  unfold Rsqr. rewrite Cabs_sq.
  assert (D : Re a * Re b + Im a * Im b <= Cabs a * Cabs b).
  { apply Rle_trans with (Rabs (Re a * Re b + Im a * Im b)); [apply Rle_abs|].
    assert (E : Re a * Re b + Im a * Im b = Re (Cmul a (Cconj b))) by (simpl; ring).
    rewrite E. eapply Rle_trans; [apply Cabs_Re|].
    rewrite Cabs_mul, Cabs_conj. lra. }
  unfold Cnorm2 in *. simpl. nra.
Qed.
Lemma Cabs_triangle_rev : forall a b, Cabs a - Cabs b <= Cabs (Csub a b).
Proof.
  intros a b. assert (H := Cabs_triangle (Csub a b) b).
  replace (Cadd (Csub a b) b) with a in H by ring. lra.
Qed.
Lemma Cabs_sub_le : forall a b, Cabs (Csub a b) <= Cabs a + Cabs b.
Proof.
  intros. unfold Csub. eapply Rle_trans; [apply Cabs_triangle|]. rewrite Cabs_opp. lra.
Qed.

(** Checked division: Python raises ZeroDivisionError for a zero divisor, for
    [float] and for [complex] alike. *)
Definition cdiv (a b : C) : Res C :=
  if C_eq_dec b (RtoC 0) then Err ZeroDivisionError else Ok (Cdivt a b).

Definition rdiv (a b : R) : Res R :=
  if Req_EM_T b 0 then Err ZeroDivisionError else Ok (a / b).

(** [math.sqrt] raises ValueError for a negative argument. *)
Definition rsqrt (x : R) : Res R :=
  if Rlt_dec x 0 then Err ValueError else Ok (sqrt x).

Lemma cdiv_ok : forall a b, b <> RtoC 0 -> cdiv a b = Ok (Cdivt a b).
Proof. intros a b H. unfold cdiv. destruct (C_eq_dec b 0); [contradiction|reflexivity]. Qed.
Lemma cdiv_zero : forall a, cdiv a (RtoC 0) = Err ZeroDivisionError.
Proof. intros. unfold cdiv. destruct (C_eq_dec (RtoC 0) (RtoC 0)); [reflexivity|congruence]. Qed.
Lemma cdiv_inv : forall a b c, cdiv a b = Ok c -> b <> RtoC 0 /\ c = Cdivt a b.
Proof.
  intros a b c. unfold cdiv. destruct (C_eq_dec b 0); intros H; [discriminate|].
  injection H as <-. now split.
Qed.
Lemma cdiv_err : forall a b e, cdiv a b = Err e -> b = RtoC 0 /\ e = ZeroDivisionError.
Proof.
  intros a b e. unfold cdiv. destruct (C_eq_dec b 0); intros H; [|discriminate].
  injection H as <-. now split.
Qed.
Lemma rdiv_ok : forall a b, b <> 0 -> rdiv a b = Ok (a / b).
Proof. intros a b H. unfold rdiv. destruct (Req_EM_T b 0); [contradiction|reflexivity]. Qed.
Lemma rdiv_inv : forall a b c, rdiv a b = Ok c -> b <> 0 /\ c = a / b.
Proof.
  intros a b c. unfold rdiv. destruct (Req_EM_T b 0); intros H; [discriminate|].
  injection H as <-. now split.
Qed.
Lemma rdiv_err : forall a b e, rdiv a b = Err e -> b = 0 /\ e = ZeroDivisionError.
Proof.
  intros a b e. unfold rdiv. destruct (Req_EM_T b 0); intros H; [|discriminate].
  injection H as <-. now split.
Qed.
Lemma rsqrt_ok : forall x, 0 <= x -> rsqrt x = Ok (sqrt x).
Proof. intros x H. unfold rsqrt. destruct (Rlt_dec x 0); [lra|reflexivity]. Qed.
Lemma rsqrt_inv : forall x y, rsqrt x = Ok y -> 0 <= x /\ y = sqrt x.
Proof.
  intros x y. unfold rsqrt. destruct (Rlt_dec x 0); intros H; [discriminate|].
  injection H as <-. split; [lra|reflexivity].
Qed.

(** [cmath.phase], i.e. [math.atan2(z.imag, z.real)] (C99, without signed
    zeros; atan2(0,0) = 0). *)
Definition atan2 (y x : R) : R :=
  if Rlt_dec 0 x then atan (y / x)
  else if Rlt_dec x 0 then
    (if Rle_dec 0 y then atan (y / x) + PI else atan (y / x) - PI)
  else if Rlt_dec 0 y then PI / 2
  else if Rlt_dec y 0 then - (PI / 2)
  else 0.

(** [cmath.polar] *)
Definition polar (z : C) : R * R := (Cabs z, atan2 (Im z) (Re z)).

(** [cmath.exp] *)
Definition Cexp (z : C) : C := mkC (exp (Re z) * cos (Im z)) (exp (Re z) * sin (Im z)).

Lemma sqrt_sqr_eq : forall x, 0 <= x -> sqrt (x * x) = x.
Proof. intros. apply sqrt_square. assumption. Qed.

Lemma cos_atan : forall x, cos (atan x) = / sqrt (1 + x * x).
Proof.
  intros x.
  assert (B := atan_bound x).
  assert (Cp : 0 < cos (atan x)) by (apply cos_gt_0; lra).
  assert (T : tan (atan x) = x) by apply tan_atan.
  unfold tan in T.
  assert (S : sin (atan x) = x * cos (atan x)) by (rewrite <- T at 2; field; lra).
  assert (P := sin2_cos2 (atan x)). unfold Rsqr in P. rewrite S in P.
  assert (Q : (cos (atan x) * cos (atan x)) * (1 + x * x) = 1) by nra.
  assert (R0 : 0 < 1 + x * x) by nra.
  assert (Sq : sqrt (1 + x * x) * sqrt (1 + x * x) = 1 + x * x) by (apply sqrt_sqrt; lra).
  assert (Sp : 0 < sqrt (1 + x * x)) by (apply sqrt_lt_R0; lra).
  apply (Rmult_eq_reg_r (sqrt (1 + x * x))); [|lra].
  rewrite Rinv_l by lra.
  set (u := cos (atan x)) in *. set (s := sqrt (1 + x * x)) in *.
  assert (E : (u * s) * (u * s) = 1) by (rewrite <- Sq in Q; lra).
  assert (0 < u * s) by nra. nra.
Qed.

Lemma sin_atan : forall x, sin (atan x) = x / sqrt (1 + x * x).
Proof.
  intros x.
  assert (B := atan_bound x).
  assert (Cp : 0 < cos (atan x)) by (apply cos_gt_0; lra).
  assert (T : tan (atan x) = x) by apply tan_atan.
  unfold tan in T.
  assert (S : sin (atan x) = x * cos (atan x)) by (rewrite <- T at 2; field; lra).
  rewrite S, cos_atan. reflexivity.
Qed.

Lemma polar_aux : forall x y, x <> 0 ->
  sqrt (x * x + y * y) * / sqrt (1 + y / x * (y / x)) = Rabs x.
Proof.
  intros x y H.
  assert (E : x * x + y * y = (x * x) * (1 + y / x * (y / x))) by (field; assumption).
  rewrite E. rewrite sqrt_mult_alt by nra.
  assert (P : 0 < sqrt (1 + y / x * (y / x))).
  { apply sqrt_lt_R0. assert (0 <= y / x * (y / x)) by nra. lra. }
  replace (x * x) with (Rsqr x) by reflexivity.
  rewrite sqrt_Rsqr_abs. field. lra.
Qed.

Lemma polar_aux2 : forall x y, x <> 0 ->
  sqrt (x * x + y * y) * (y / x / sqrt (1 + y / x * (y / x))) = Rabs x * (y / x).
Proof.
  intros x y H. rewrite <- (polar_aux x y H).
  unfold Rdiv at 1. ring.
Qed.

(** [polar] really gives polar coordinates, with phase in (-pi, pi]. *)
Lemma polar_correct : forall z,
  Re z = Cabs z * cos (atan2 (Im z) (Re z)) /\
  Im z = Cabs z * sin (atan2 (Im z) (Re z)).
Proof.
  intros [x y]. unfold Cabs, Cnorm2, atan2; simpl.
  destruct (Rlt_dec 0 x) as [H|H].
  - rewrite cos_atan, sin_atan.
    rewrite polar_aux, polar_aux2 by lra. rewrite Rabs_right by lra.
    split; [reflexivity|]. field. lra.
  - destruct (Rlt_dec x 0) as [H1|H1].
    + assert (E := polar_aux x y ltac:(lra)). rewrite Rabs_left in E by lra.
      assert (E2 := polar_aux2 x y ltac:(lra)). rewrite Rabs_left in E2 by lra.
      replace (- x * (y / x)) with (- y) in E2 by (field; lra).
      rewrite <- cos_atan in E. rewrite <- sin_atan in E2.
      destruct (Rle_dec 0 y).
      * rewrite neg_cos, neg_sin. split; lra.
      * replace (atan (y / x) - PI) with (- (PI - atan (y / x))) by ring.
        rewrite cos_neg, sin_neg, sin_PI_x.
        replace (PI - atan (y/x)) with (- atan (y/x) + PI) by ring.
        rewrite neg_cos, cos_neg. split; lra.
    + assert (x = 0) by lra. subst x.
      replace (0 * 0 + y * y) with (Rsqr y) by (unfold Rsqr; ring).
      rewrite sqrt_Rsqr_abs.
      destruct (Rlt_dec 0 y).
      * rewrite cos_PI2, sin_PI2, Rabs_right by lra. split; lra.
      * destruct (Rlt_dec y 0).
        -- rewrite cos_neg, sin_neg, cos_PI2, sin_PI2, Rabs_left by lra. split; lra.
        -- assert (y = 0) by lra. subst y. rewrite Rabs_R0. split; lra.
Qed.

Lemma atan2_range : forall y x, - PI < atan2 y x <= PI.
Proof.
  intros y x. unfold atan2. assert (Ppi := PI_RGT_0).
  assert (B := atan_bound (y / x)).
  destruct (Rlt_dec 0 x); [lra|].
  destruct (Rlt_dec x 0).
  - destruct (Rle_dec 0 y).
    + split; [lra|].
      assert (atan (y / x) <= 0).
      { assert (Q : y / x <= 0).
        { unfold Rdiv. assert (/ x < 0) by (apply Rinv_lt_0_compat; lra). nra. }
        destruct Q as [Q|Q]; [|rewrite Q, atan_0; lra].
        assert (L := atan_increasing _ _ Q). rewrite atan_0 in L. lra. }
      lra.
    + split; [|lra].
      assert (0 < atan (y / x)).
      { assert (Q : 0 < y / x).
        { unfold Rdiv. assert (/ x < 0) by (apply Rinv_lt_0_compat; lra). nra. }
        assert (L := atan_increasing _ _ Q). rewrite atan_0 in L. lra. }
      lra.
  - destruct (Rlt_dec 0 y); [lra|]. destruct (Rlt_dec y 0); lra.
Qed.

Lemma atan2_neg_iff : forall y x, atan2 y x < 0 <-> y < 0.
Proof.
  intros y x. assert (Ppi := PI_RGT_0). split; intros H.
  - unfold atan2 in H. assert (B := atan_bound (y / x)).
    destruct (Rlt_dec 0 x).
    + destruct (Rlt_dec y 0); [assumption|]. exfalso.
      assert (Q : 0 <= y / x).
      { unfold Rdiv. assert (0 < / x) by (apply Rinv_0_lt_compat; lra). nra. }
      destruct Q as [Q|Q]; [|rewrite <- Q, atan_0 in H; lra].
      assert (L := atan_increasing _ _ Q). rewrite atan_0 in L. lra.
    + destruct (Rlt_dec x 0).
      * destruct (Rle_dec 0 y); lra.
      * destruct (Rlt_dec 0 y); [lra|]. destruct (Rlt_dec y 0); lra.
  - assert (P := atan2_range y x).
    destruct (polar_correct (mkC x y)) as [_ E]. simpl in E.
    destruct (Rlt_dec (atan2 y x) 0); [assumption|]. exfalso.
    assert (0 <= sin (atan2 y x)) by (apply sin_ge_0; lra).
    assert (N := Cabs_nonneg (mkC x y)). nra.
Qed.
