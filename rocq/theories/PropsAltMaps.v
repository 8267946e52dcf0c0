(** Property C47: the alternative definitions of the map from t to W. *)
From Coq Require Import Reals Lra.
From Verif Require Import PyBase CNum UAMaps AltMaps MapProofs ComponentProofs Analytic
  PropsMaps PropsAnalytic.
Local Open Scope R_scope.

(** ** The principal square root *)

(** [cmath_sqrt] is characterised by: a root, with positive real part or on the upper imaginary half-axis. *)
Definition principal (s : C) : Prop := 0 < Re s \/ (Re s = 0 /\ 0 <= Im s).

Lemma Cabs_ge : forall z, - Cabs z <= Re z <= Cabs z.
Proof.
  intros z. assert (H := Cabs_Re z). assert (A := Rle_abs (Re z)). assert (B := Rle_abs (- Re z)).
  rewrite Rabs_Ropp in B. lra.
Qed.

Lemma Re_Im_Cabs : forall z, Im z * Im z = (Cabs z - Re z) * (Cabs z + Re z).
Proof. intros z. assert (H := Cabs_sq z). unfold Cnorm2 in H. nra. Qed.

Lemma cmath_sqrt_sq : forall z, Cmul (cmath_sqrt z) (cmath_sqrt z) = z.
Proof.
  intros z. assert (G := Cabs_ge z). assert (Q := Re_Im_Cabs z). unfold cmath_sqrt.
  set (x := sqrt ((Cabs z + Re z) / 2)). set (y := sqrt ((Cabs z - Re z) / 2)).
  assert (X : x * x = (Cabs z + Re z) / 2) by (apply sqrt_sqrt; lra).
  assert (Y : y * y = (Cabs z - Re z) / 2) by (apply sqrt_sqrt; lra).
  assert (Px : 0 <= x) by apply sqrt_pos. assert (Py : 0 <= y) by apply sqrt_pos.
  assert (S : (2 * (x * y)) * (2 * (x * y)) = Im z * Im z) by nra.
  assert (P : 0 <= x * y) by nra.
  destruct (Rlt_dec (Im z) 0); apply C_ext; simpl; nra.
Qed.

Lemma cmath_sqrt_principal : forall z, principal (cmath_sqrt z).
Proof.
  intros z. assert (G := Cabs_ge z). assert (Q := Re_Im_Cabs z). unfold principal, cmath_sqrt. simpl.
  set (x := sqrt ((Cabs z + Re z) / 2)). set (y := sqrt ((Cabs z - Re z) / 2)).
  assert (X : x * x = (Cabs z + Re z) / 2) by (apply sqrt_sqrt; lra).
  assert (Px : 0 <= x) by apply sqrt_pos. assert (Py : 0 <= y) by apply sqrt_pos.
  destruct (Req_dec x 0) as [Z|N]; [right|left; lra]. split; [assumption|].
  destruct (Rlt_dec (Im z) 0); [|assumption]. exfalso. rewrite Z in X. nra.
Qed.

Lemma principal_sq_inj : forall s s', principal s -> principal s' -> Cmul s s = Cmul s' s' -> s = s'.
Proof.
  intros s s' U U' E.
  assert (F : Cmul (Csub s s') (Cadd s s') = RtoC 0).
  { transitivity (Csub (Cmul s s) (Cmul s' s')); [ring|]. rewrite E. ring. }
  apply Cmul_integral in F. destruct F as [F|F]; [now apply Csub_eq|].
  assert (E1 := f_equal Re F). assert (E2 := f_equal Im F). simpl in E1, E2. unfold principal in *.
  apply C_ext; lra.
Qed.

Lemma cmath_sqrt_unique : forall z s, principal s -> Cmul s s = z -> cmath_sqrt z = s.
Proof.
  intros z s U E. apply principal_sq_inj; [apply cmath_sqrt_principal|assumption|]. now rewrite cmath_sqrt_sq.
Qed.

(** The two roots differ by the sign below the real axis. *)
Lemma cmath_sqrt_upper : forall z, 0 <= Im z -> cmath_sqrt z = square_root z.
Proof.
  intros z H. apply cmath_sqrt_unique; [|apply square_root_sq].
  assert (Q := square_root_first_quadrant z H). assert (U := Im_square_root_nonneg z). unfold principal.
  destruct (Req_dec (Re (square_root z)) 0); [right|left]; lra.
Qed.

Lemma square_root_lower : forall z, Im z < 0 -> Re (square_root z) < 0 /\ 0 < Im (square_root z).
Proof.
  intros z H. assert (S := square_root_sq z). assert (U := Im_square_root_nonneg z).
  assert (E2 : Im z = Re (square_root z) * Im (square_root z) + Im (square_root z) * Re (square_root z))
    by (rewrite <- S at 1; reflexivity).
  assert (I : 0 < Im (square_root z)).
  { destruct (Req_dec (Im (square_root z)) 0) as [Z|Z]; [rewrite Z in E2|]; lra. }
  split; [|assumption]. nra.
Qed.

Lemma square_root_positive : forall z, 0 < Im z -> 0 < Re (square_root z) /\ 0 < Im (square_root z).
Proof.
  intros z H. assert (S := square_root_sq z). assert (U := Im_square_root_nonneg z).
  assert (E2 : Im z = Re (square_root z) * Im (square_root z) + Im (square_root z) * Re (square_root z))
    by (rewrite <- S at 1; reflexivity).
  assert (I : 0 < Im (square_root z)).
  { destruct (Req_dec (Im (square_root z)) 0) as [Z|Z]; [rewrite Z in E2|]; lra. }
  split; [|assumption]. nra.
Qed.

Lemma cmath_sqrt_lower : forall z, Im z < 0 -> cmath_sqrt z = Copp (square_root z).
Proof.
  intros z H. apply cmath_sqrt_unique.
  - left. simpl. destruct (square_root_lower z H). lra.
  - transitivity (Cmul (square_root z) (square_root z)); [ring|apply square_root_sq].
Qed.

(** Scaling. *)
Lemma square_root_scale : forall c z, 0 < c -> square_root (Cdivt z (RtoC c)) = Cdivt (square_root z) (RtoC (sqrt c)).
Proof.
  intros c z P. assert (Q := sqrt_lt_R0 c P). assert (S := sqrt_sqrt c (Rlt_le _ _ P)).
  assert (N : RtoC (sqrt c) <> RtoC 0) by (apply RtoC_neq0; lra).
  apply square_root_unique.
  - assert (U := square_root_upper z). unfold Cdivt. rewrite <- RtoC_inv by lra. unfold upper in *. simpl.
    assert (I : 0 < / sqrt c) by now apply Rinv_0_lt_compat. destruct U as [U|[U1 U2]]; [left|right]; nra.
  - transitivity (Cdivt (Cmul (square_root z) (square_root z)) (Cmul (RtoC (sqrt c)) (RtoC (sqrt c)))).
    + field. assumption.
    + now rewrite square_root_sq, <- RtoC_mul, S.
Qed.

(** ** The two quotients of the maps *)

(** The literature's formula in terms of v with P = v M or P = - v M. *)
Lemma formula_same : forall P M v, M <> RtoC 0 -> Cadd v 1 <> RtoC 0 -> P = Cmul v M ->
  cdiv (Cmul Ci (Csub P M)) (Cadd P M) = Ok (Cdivt (Cmul Ci (Csub v 1)) (Cadd v 1)).
Proof.
  intros P M v NM Nv ->. replace (Cadd (Cmul v M) M) with (Cmul (Cadd v 1) M) by ring.
  rewrite cdiv_ok by now apply Cmul_neq0. f_equal. field. split; assumption.
Qed.

Lemma formula_other : forall P M v, M <> RtoC 0 -> Csub v 1 <> RtoC 0 -> Cadd v 1 <> RtoC 0 -> P = Copp (Cmul v M) ->
  cdiv (Cmul Ci (Csub P M)) (Cadd P M) = Ok (Copp (Cinv (Cdivt (Cmul Ci (Csub v 1)) (Cadd v 1)))).
Proof.
  intros P M v NM N1 Nv ->. replace (Cadd (Copp (Cmul v M)) M) with (Copp (Cmul (Csub v 1) M)) by ring.
  rewrite cdiv_ok by now apply Copp_neq0, Cmul_neq0. f_equal.
  assert (N : Copp (Cmul (Csub v 1) M) <> RtoC 0) by now apply Copp_neq0, Cmul_neq0.
  transitivity (Cdivt (Cmul Ci (Cadd v 1)) (Csub v 1)).
  { replace (Copp (Cmul (Csub v 1) M)) with (Cmul (Csub v 1) (Copp M)) by ring.
    replace (Csub (Copp (Cmul v M)) M) with (Cmul (Cadd v 1) (Copp M)) by ring.
    assert (NM' := Copp_neq0 M NM). set (m := Copp M) in *. field. split; assumption. }
  replace (Cmul Ci (Cadd v 1)) with (Copp (Cdivt (Cadd v 1) Ci)).
  - field. repeat split; try assumption. apply Ci_neq0.
  - transitivity (Cmul (Cmul Ci Ci) (Cdivt (Cadd v 1) Ci)); [rewrite Ci_sq; ring|]. field. apply Ci_neq0.
Qed.

Section Alt.
Variables t_0 t_in : R.
Hypothesis H0 : 0 < t_0.
Hypothesis Hlt : t_0 < t_in.
Let a := sqrt (t_in - t_0).
Let b := sqrt t_0.

Lemma b_pos : 0 < b.
Proof. now apply sqrt_lt_R0. Qed.

Definition q_of (t : C) : C := Cdivt (zt t_0 t) (RtoC b).
Definition P_of (t : C) : C := square_root (Cadd (RtoC (a / b)) (q_of t)).
Definition M_of (t : C) : C := square_root (Csub (RtoC (a / b)) (q_of t)).

Lemma q_in_eq : square_root (RtoC ((t_in - t_0) / t_0)) = RtoC (a / b).
Proof.
  rewrite square_root_nonneg by (apply Rmult_le_pos; [lra|left; now apply Rinv_0_lt_compat]).
  f_equal. unfold a, b. apply sqrt_div; lra.
Qed.

Lemma q_eq : forall t, square_root (Cdivt (Csub t (RtoC t_0)) (RtoC t_0)) = q_of t.
Proof. intros t. now rewrite square_root_scale. Qed.

Lemma Re_q : forall t, Re (q_of t) = Re (zt t_0 t) / b.
Proof. intros t. assert (Q := b_pos). unfold q_of, Cdivt. rewrite <- RtoC_inv by lra. simpl. unfold Rdiv. ring. Qed.
Lemma Im_q : forall t, Im (q_of t) = Im (zt t_0 t) / b.
Proof. intros t. assert (Q := b_pos). unfold q_of, Cdivt. rewrite <- RtoC_inv by lra. simpl. unfold Rdiv. ring. Qed.

Lemma Im_plus : forall r z, Im (Cadd (RtoC r) z) = Im z.
Proof. intros. simpl. ring. Qed.
Lemma Im_minus : forall r z, Im (Csub (RtoC r) z) = - Im z.
Proof. intros. simpl. ring. Qed.
Lemma Re_plus : forall r z, Re (Cadd (RtoC r) z) = r + Re z.
Proof. intros. reflexivity. Qed.

Lemma version2_eq : forall t,
  t_to_w_version2 t_0 t_in t = cdiv (Cmul Ci (Csub (P_of t) (M_of t))) (Cadd (P_of t) (M_of t)).
Proof.
  intros t. unfold t_to_w_version2, literature_map. rewrite rdiv_ok by lra. cbn [bind].
  rewrite cdiv_ok by (apply RtoC_neq0; lra). cbn [bind]. rewrite q_in_eq, q_eq. reflexivity.
Qed.

Lemma quotients : forall t, t <> RtoC t_in ->
  Csub (RtoC (a / b)) (q_of t) <> RtoC 0 /\
  Cmul (P_of t) (P_of t) = Cmul (Cmul (vt t_0 t_in t) (vt t_0 t_in t)) (Cmul (M_of t) (M_of t)).
Proof.
  intros t N. assert (Q := b_pos). assert (D := den_neq0 t_0 t_in Hlt t N). fold a in D.
  assert (Nb : RtoC b <> RtoC 0) by (apply RtoC_neq0; lra).
  assert (E : Csub (RtoC (a / b)) (q_of t) = Cdivt (Cadd (Copp (zt t_0 t)) (RtoC a)) (RtoC b)).
  { unfold q_of. rewrite RtoC_div by lra. field. assumption. }
  assert (E' : Cadd (RtoC (a / b)) (q_of t) = Cdivt (Cadd (zt t_0 t) (RtoC a)) (RtoC b)).
  { unfold q_of. rewrite RtoC_div by lra. field. assumption. }
  split.
  - rewrite E. now apply Cdivt_neq0.
  - unfold P_of, M_of. rewrite !square_root_sq, E, E', vt_sq by assumption. fold a. field. split; assumption.
Qed.

Lemma M_neq0 : forall t, t <> RtoC t_in -> M_of t <> RtoC 0.
Proof. intros t N E. apply (proj1 (square_root_0_iff _)) in E. exact (proj1 (quotients t N) E). Qed.

Lemma P_cases : forall t, t <> RtoC t_in ->
  P_of t = Cmul (vt t_0 t_in t) (M_of t) \/ P_of t = Copp (Cmul (vt t_0 t_in t) (M_of t)).
Proof.
  intros t N. destruct (quotients t N) as [_ E]. set (x := Cmul (vt t_0 t_in t) (M_of t)).
  assert (F : Cmul (Csub (P_of t) x) (Cadd (P_of t) x) = RtoC 0).
  { transitivity (Csub (Cmul (P_of t) (P_of t)) (Cmul x x)); [ring|]. rewrite E. unfold x. ring. }
  apply Cmul_integral in F. destruct F as [F|F]; [left; now apply Csub_eq|right].
  replace (P_of t) with (Csub (Cadd (P_of t) x) x) by ring. rewrite F. ring.
Qed.

Lemma v_neq1 : forall t, t <> RtoC t_in -> t <> RtoC t_0 -> Csub (vt t_0 t_in t) 1 <> RtoC 0.
Proof. intros t N N0 E. apply N0, (vt_1_iff t_0 t_in Hlt t N). now apply Csub_eq. Qed.

Lemma P_real_part : forall t, 0 < Re (P_of t).
Proof.
  intros t. assert (Q := b_pos). assert (A := a_pos t_0 t_in Hlt). fold a in A.
  assert (U := square_root_upper (Csub t (RtoC t_0))). rewrite <- zt_eq in U.
  assert (AB : 0 < a / b) by now apply Rdiv_lt_0_compat.
  assert (I : 0 < / b) by now apply Rinv_0_lt_compat.
  assert (Iq : 0 <= Im (Cadd (RtoC (a / b)) (q_of t))).
  { rewrite ?Im_plus, ?Im_minus, Im_q. assert (0 <= Im (zt t_0 t)) by (unfold upper in U; lra).
    assert (0 <= Im (zt t_0 t) / b) by (apply Rmult_le_pos; lra). lra. }
  assert (F := square_root_first_quadrant _ Iq). fold (P_of t) in F.
  destruct (Req_dec (Re (P_of t)) 0) as [Z|Z]; [|lra]. exfalso.
  assert (S := square_root_sq (Cadd (RtoC (a / b)) (q_of t))). fold (P_of t) in S.
  assert (S1 := f_equal Re S). assert (S2 := f_equal Im S). rewrite Re_plus in S1. rewrite Im_plus in S2.
  rewrite Re_q in S1. rewrite Im_q in S2. simpl in S1, S2. rewrite Z in S1, S2.
  assert (Z2 : Im (zt t_0 t) = 0).
  { assert (W : Im (zt t_0 t) * / b = 0) by (unfold Rdiv in S2; lra). apply Rmult_integral in W. destruct W; lra. }
  assert (Z1 : 0 <= Re (zt t_0 t)) by (unfold upper in U; lra).
  assert (0 <= Re (zt t_0 t) / b) by (apply Rmult_le_pos; lra). nra.
Qed.

(** Off the cut the second version is on the other sheet. *)
Lemma P_off_cut : forall t, ~ on_cut (Csub t (RtoC t_0)) -> P_of t = Copp (Cmul (vt t_0 t_in t) (M_of t)).
Proof.
  intros t H. assert (N := off_cut_neq_tin t_0 t_in Hlt t H).
  destruct (P_cases t N) as [E|E]; [exfalso|assumption].
  assert (U := ut_off_cut t_0 t_in Hlt t N H). assert (V := ut_upper t_0 t_in Hlt t N).
  assert (Iu : 0 < Im (ut t_0 t_in t)).
  { destruct (Req_dec (Im (ut t_0 t_in t)) 0) as [Z|Z]; [|lra]. exfalso.
    unfold ut in Z. assert (D := den_neq0 t_0 t_in Hlt t N).
    rewrite quotient_Im in Z; [|now apply a_pos|assumption].
    apply square_root_off_cut in H. rewrite <- zt_eq in H. apply Cnorm2_pos in D.
    assert (A := a_pos t_0 t_in Hlt).
    assert (0 < 2 * sqrt (t_in - t_0) * Im (zt t_0 t) / Cnorm2 (Cadd (Copp (zt t_0 t)) (RtoC (sqrt (t_in - t_0)))))
      by (apply Rdiv_lt_0_compat; [nra|assumption]). lra. }
  destruct (square_root_positive _ Iu) as [V1 V2]. rewrite <- vt_ut in V1, V2.
  assert (Iq : Im (Csub (RtoC (a / b)) (q_of t)) < 0).
  { rewrite ?Im_plus, ?Im_minus, Im_q. apply square_root_off_cut in H. rewrite <- zt_eq in H.
    assert (0 < Im (zt t_0 t) / b) by (apply Rdiv_lt_0_compat; [assumption|apply b_pos]). lra. }
  destruct (square_root_lower _ Iq) as [M1 M2]. fold (M_of t) in M1, M2.
  assert (R := P_real_part t). rewrite E in R. simpl in R. nra.
Qed.

(** On the cut: the same sheet up to t_in, the other one above. *)
Lemma zt_real : forall x, t_0 <= x -> zt t_0 (RtoC x) = RtoC (sqrt (x - t_0)).
Proof. intros x H. rewrite zt_eq, <- RtoC_sub. apply square_root_nonneg. lra. Qed.

Lemma M_real : forall x, t_0 <= x -> Csub (RtoC (a / b)) (q_of (RtoC x)) = RtoC ((a - sqrt (x - t_0)) / b).
Proof.
  intros x H. assert (Q := b_pos). unfold q_of. rewrite zt_real by assumption.
  rewrite <- RtoC_div, <- RtoC_sub by lra. f_equal. field. lra.
Qed.

Lemma ut_real : forall x, t_0 <= x -> x <> t_in ->
  ut t_0 t_in (RtoC x) = RtoC ((sqrt (x - t_0) + a) / (a - sqrt (x - t_0))).
Proof.
  intros x H N. unfold ut. rewrite zt_real by assumption. fold a.
  assert (D : a - sqrt (x - t_0) <> 0).
  { intros Z. apply N. assert (E : sqrt (x - t_0) = sqrt (t_in - t_0)) by (fold a; lra).
    apply sqrt_inj in E; lra. }
  rewrite <- RtoC_add, <- RtoC_opp, <- RtoC_add, <- RtoC_div by lra. f_equal. field. assumption.
Qed.

Lemma P_between : forall x, t_0 <= x < t_in -> P_of (RtoC x) = Cmul (vt t_0 t_in (RtoC x)) (M_of (RtoC x)).
Proof.
  intros x [H1 H2]. assert (N : RtoC x <> RtoC t_in) by (intros Z; apply RtoC_inj in Z; lra).
  destruct (P_cases _ N) as [E|E]; [assumption|exfalso].
  assert (Q := b_pos). assert (S := sqrt_pos (x - t_0)).
  assert (L : sqrt (x - t_0) < a) by (apply sqrt_lt_1_alt; lra).
  assert (R := P_real_part (RtoC x)). rewrite E in R.
  rewrite vt_ut, ut_real in R by lra. unfold M_of in R. rewrite M_real in R by lra.
  rewrite !square_root_nonneg in R.
  - simpl in R. set (y := sqrt ((sqrt (x - t_0) + a) / (a - sqrt (x - t_0)))) in *.
    set (z := sqrt ((a - sqrt (x - t_0)) / b)) in *.
    assert (0 <= y) by apply sqrt_pos. assert (0 <= z) by apply sqrt_pos. nra.
  - apply Rmult_le_pos; [lra|]. left. now apply Rinv_0_lt_compat.
  - apply Rmult_le_pos; [lra|]. left. apply Rinv_0_lt_compat. lra.
Qed.

Lemma P_above : forall x, t_in < x -> P_of (RtoC x) = Copp (Cmul (vt t_0 t_in (RtoC x)) (M_of (RtoC x))).
Proof.
  intros x H. assert (N : RtoC x <> RtoC t_in) by (intros Z; apply RtoC_inj in Z; lra).
  destruct (P_cases _ N) as [E|E]; [exfalso|assumption].
  assert (Q := b_pos). assert (A := a_pos t_0 t_in Hlt). fold a in A.
  assert (L : a < sqrt (x - t_0)) by (apply sqrt_lt_1_alt; lra).
  assert (R := P_real_part (RtoC x)). rewrite E in R.
  rewrite vt_ut, ut_real in R by lra. unfold M_of in R. rewrite M_real in R by lra.
  rewrite !square_root_neg in R.
  - simpl in R. set (y := sqrt (- ((sqrt (x - t_0) + a) / (a - sqrt (x - t_0))))) in *.
    set (z := sqrt (- ((a - sqrt (x - t_0)) / b))) in *.
    assert (0 <= y) by apply sqrt_pos. assert (0 <= z) by apply sqrt_pos. nra.
  - assert (I : 0 < / b) by now apply Rinv_0_lt_compat. unfold Rdiv. nra.
  - assert (I : 0 < / (sqrt (x - t_0) - a)) by (apply Rinv_0_lt_compat; lra).
    replace ((sqrt (x - t_0) + a) / (a - sqrt (x - t_0))) with (- ((sqrt (x - t_0) + a) * / (sqrt (x - t_0) - a)))
      by (field; lra). nra.
Qed.

(** At t_in. *)
Lemma at_t_in : P_of (RtoC t_in) <> RtoC 0 /\ M_of (RtoC t_in) = RtoC 0.
Proof.
  split.
  - intros Z. assert (R := P_real_part (RtoC t_in)). rewrite Z in R. simpl in R. lra.
  - unfold M_of. rewrite M_real by lra. fold a. replace (a - a) with 0 by ring.
    apply square_root_0_iff. f_equal. unfold Rdiv. ring.
Qed.

(** ** Version 2 *)
Lemma version2_same : forall x, t_0 <= x < t_in -> t_to_w_version2 t_0 t_in (RtoC x) = Ok (Wt t_0 t_in (RtoC x)).
Proof.
  intros x H. assert (N : RtoC x <> RtoC t_in) by (intros Z; apply RtoC_inj in Z; lra).
  rewrite version2_eq. rewrite (formula_same _ _ (vt t_0 t_in (RtoC x))); [reflexivity|now apply M_neq0|apply vt_p1|].
  now apply P_between.
Qed.

Lemma version2_other : forall t, (~ on_cut (Csub t (RtoC t_0)) \/ exists x, t_in < x /\ t = RtoC x) ->
  t_to_w_version2 t_0 t_in t = Ok (Copp (Cinv (Wt t_0 t_in t))).
Proof.
  intros t H. rewrite version2_eq.
  assert (N : t <> RtoC t_in /\ t <> RtoC t_0).
  { destruct H as [H|[x [H ->]]].
    - split; [now apply (off_cut_neq_tin t_0)|]. intros ->. apply H. unfold on_cut. simpl. lra.
    - split; intros Z; apply RtoC_inj in Z; lra. }
  destruct N as [N N0].
  rewrite (formula_other _ _ (vt t_0 t_in t)); [reflexivity|now apply M_neq0|now apply v_neq1|apply vt_p1|].
  destruct H as [H|[x [H ->]]]; [now apply P_off_cut|now apply P_above].
Qed.

Lemma version2_t_in : t_to_w_version2 t_0 t_in (RtoC t_in) = Ok Ci.
Proof.
  rewrite version2_eq. destruct at_t_in as [N ->].
  replace (Cadd (P_of (RtoC t_in)) (RtoC 0)) with (P_of (RtoC t_in)) by ring.
  rewrite cdiv_ok by assumption. f_equal. field. assumption.
Qed.

(** ** Version 3 *)
Lemma version3_eq : forall t, 
  let q := cmath_sqrt (Cdivt (Csub t (RtoC t_0)) (RtoC t_0)) in
  let P := cmath_sqrt (Cadd (RtoC (a / b)) q) in let M := cmath_sqrt (Csub (RtoC (a / b)) q) in
  t_to_w_version3 t_0 t_in t = cdiv (Cmul Ci (Csub P M)) (Cadd P M).
Proof.
  intros t. unfold t_to_w_version3, literature_map. rewrite rdiv_ok by lra. cbn [bind].
  rewrite cdiv_ok by (apply RtoC_neq0; lra). cbn [bind].
  rewrite (cmath_sqrt_upper (RtoC ((t_in - t_0) / t_0))) by (simpl; lra). rewrite q_in_eq. reflexivity.
Qed.

Lemma Im_scaled : forall t, Im (Cdivt (Csub t (RtoC t_0)) (RtoC t_0)) = Im t / t_0.
Proof. intros t. unfold Cdivt. rewrite <- RtoC_inv by lra. simpl. unfold Rdiv. ring. Qed.

Lemma version3_upper : forall t, 0 <= Im t ->
  t_to_w_version3 t_0 t_in t =
  let M := if Rlt_dec 0 (Im (zt t_0 t)) then Copp (M_of t) else M_of t in
  cdiv (Cmul Ci (Csub (P_of t) M)) (Cadd (P_of t) M).
Proof.
  intros t H. rewrite version3_eq. assert (Q := b_pos). assert (I : 0 < / b) by now apply Rinv_0_lt_compat.
  rewrite (cmath_sqrt_upper (Cdivt (Csub t (RtoC t_0)) (RtoC t_0))).
  2:{ rewrite Im_scaled. apply Rmult_le_pos; [assumption|]. left. now apply Rinv_0_lt_compat. }
  rewrite q_eq. assert (Z := Im_square_root_nonneg (Csub t (RtoC t_0))). rewrite <- zt_eq in Z.
  rewrite (cmath_sqrt_upper (Cadd (RtoC (a / b)) (q_of t))).
  2:{ rewrite ?Im_plus, ?Im_minus, Im_q. unfold Rdiv. nra. }
  fold (P_of t). destruct (Rlt_dec 0 (Im (zt t_0 t))) as [L|L].
  - rewrite cmath_sqrt_lower; [reflexivity|]. rewrite ?Im_plus, ?Im_minus, Im_q. unfold Rdiv. nra.
  - rewrite cmath_sqrt_upper; [reflexivity|]. rewrite ?Im_plus, ?Im_minus, Im_q. unfold Rdiv. nra.
Qed.

Lemma version3_real_above : forall x, t_0 <= x -> t_to_w_version3 t_0 t_in (RtoC x) = t_to_w_version2 t_0 t_in (RtoC x).
Proof.
  intros x H. rewrite version3_upper by (simpl; lra). rewrite zt_real by assumption. simpl Im.
  destruct (Rlt_dec 0 0); [lra|]. now rewrite version2_eq.
Qed.

Lemma version3_same : forall t, 0 <= Im t -> ~ on_cut (Csub t (RtoC t_0)) ->
  t_to_w_version3 t_0 t_in t = Ok (Wt t_0 t_in t).
Proof.
  intros t I H. assert (N := off_cut_neq_tin t_0 t_in Hlt t H). rewrite version3_upper by assumption.
  assert (Z := H). apply square_root_off_cut in Z. rewrite <- zt_eq in Z.
  destruct (Rlt_dec 0 (Im (zt t_0 t))); [|contradiction].
  cbn zeta. rewrite (formula_same _ _ (vt t_0 t_in t)); [reflexivity|now apply Copp_neq0, M_neq0|apply vt_p1|].
  rewrite P_off_cut by assumption. ring.
Qed.

Lemma version3_lower : forall t, Im t < 0 -> t_to_w_version3 t_0 t_in t = Ok (Copp (Wt t_0 t_in t)).
Proof.
  intros t I. assert (H : ~ on_cut (Csub t (RtoC t_0))) by (intros [Z _]; simpl in Z; lra).
  assert (N := off_cut_neq_tin t_0 t_in Hlt t H). assert (Q := b_pos). assert (Ib : 0 < / b) by now apply Rinv_0_lt_compat.
  assert (Z := H). apply square_root_off_cut in Z. rewrite <- zt_eq in Z.
  rewrite version3_eq. rewrite (cmath_sqrt_lower (Cdivt (Csub t (RtoC t_0)) (RtoC t_0))).
  2:{ rewrite Im_scaled. assert (0 < / t_0) by now apply Rinv_0_lt_compat. unfold Rdiv. nra. }
  rewrite q_eq. cbn zeta.
  replace (Cadd (RtoC (a / b)) (Copp (q_of t))) with (Csub (RtoC (a / b)) (q_of t)) by ring.
  replace (Csub (RtoC (a / b)) (Copp (q_of t))) with (Cadd (RtoC (a / b)) (q_of t)) by ring.
  rewrite cmath_sqrt_lower.
  2:{ rewrite ?Im_plus, ?Im_minus, Im_q. unfold Rdiv. nra. }
  rewrite cmath_sqrt_upper.
  2:{ rewrite ?Im_plus, ?Im_minus, Im_q. unfold Rdiv. nra. }
  fold (P_of t). fold (M_of t). rewrite (P_off_cut t H).
  assert (NM := Copp_neq0 _ (M_neq0 t N)). assert (Nv := vt_p1 t_0 t_in t). set (v := vt t_0 t_in t) in *.
  set (m := Copp (M_of t)) in *. replace (Copp (Cmul v (M_of t))) with (Cmul v m) by (unfold m; ring).
  replace (Cadd m (Cmul v m)) with (Cmul (Cadd v 1) m) by ring.
  rewrite cdiv_ok by now apply Cmul_neq0. f_equal.
  transitivity (Copp (Cdivt (Cmul Ci (Csub v 1)) (Cadd v 1))); [field; split; assumption|reflexivity].
Qed.
End Alt.

(** ** C47: the alternative maps compared with the map in use *)

(** The point on the other sheet with the same t. *)
Definition other_sheet (w : C) : C := Copp (Cinv w).

Theorem C47_cmath_sqrt_characterised : forall z s,
  cmath_sqrt z = s <-> Cmul s s = z /\ (0 < Re s \/ (Re s = 0 /\ 0 <= Im s)).
Proof.
  intros z s. split.
  - intros <-. split; [apply cmath_sqrt_sq|apply cmath_sqrt_principal].
  - intros [E P]. apply principal_sq_inj; [apply cmath_sqrt_principal|assumption|]. now rewrite cmath_sqrt_sq.
Qed.
Print Assumptions C47_cmath_sqrt_characterised.

(** The version with the shifted root leaves the sheet of the map in use everywhere off the cut and on it
    above t_in; it agrees on the cut below t_in. *)
Theorem C47_version2 : forall t_0 t_in mt, 0 < t_0 < t_in -> MapFromTtoW_init t_0 t_in = Ok mt ->
  (forall x, t_0 <= x < t_in -> t_to_w_version2 t_0 t_in (RtoC x) = MapFromTtoW_call mt (RtoC x)) /\
  (forall t, plane_without_cut t_0 t \/ (exists x, t_in < x /\ t = RtoC x) ->
     exists w, w <> RtoC 0 /\ MapFromTtoW_call mt t = Ok w /\ t_to_w_version2 t_0 t_in t = Ok (other_sheet w)) /\
  (MapFromTtoW_call mt (RtoC t_in) = Err ZeroDivisionError /\ t_to_w_version2 t_0 t_in (RtoC t_in) = Ok Ci).
Proof.
  intros t_0 t_in mt [H0 L] H. apply MapTW_init_inv in H. destruct H as [V ->]. fold (tw t_0 t_in).
  split; [|split].
  - intros x B. rewrite version2_same by assumption. symmetry. apply Map_call_ok; [assumption|].
    intros Z. apply RtoC_inj in Z. lra.
  - intros t B.
    assert (B' : ~ on_cut (Csub t (RtoC t_0)) \/ exists x, t_in < x /\ t = RtoC x).
    { destruct B as [B|B]; [left; exact (proj1 (plane_cut t_0 t) B)|now right]. }
    assert (N : t <> RtoC t_in /\ t <> RtoC t_0).
    { destruct B' as [K|[x [K ->]]].
      - split; [now apply (off_cut_neq_tin t_0)|now apply off_cut_neq_t0].
      - split; intros Z; apply RtoC_inj in Z; lra. }
    exists (Wt t_0 t_in t). split; [|split].
    + intros Z. apply (proj2 N). now apply (Wt_0_iff t_0 t_in L t (proj1 N)).
    + now apply Map_call_ok.
    + now apply version2_other.
  - split; [now apply Map_call_tin|now apply version2_t_in].
Qed.
Print Assumptions C47_version2.

(** Hence off the cut its values lie outside the unit disc. *)
Theorem C47_version2_outside : forall t_0 t_in t, 0 < t_0 < t_in -> plane_without_cut t_0 t ->
  exists w, t_to_w_version2 t_0 t_in t = Ok w /\ 1 < Cabs w /\ 0 < Re w.
Proof.
  intros t_0 t_in t [H0 L] P. destruct (C10_constructors_accept t_0 t_in) as [mt [mw [A _]]]; [lra|].
  destruct (C47_version2 t_0 t_in mt (conj H0 L) A) as [_ [Q _]].
  destruct (Q t (or_introl P)) as [w [N [E F]]]. exists (other_sheet w). split; [assumption|].
  destruct (C12_image t_0 t_in mt) with (t := t) (w := w) as [_ [I _]]; [lra|assumption|assumption|].
  destruct (I P) as [I1 I2]. assert (Pw := Cabs_pos w N). unfold other_sheet. split.
  - rewrite Cabs_opp, Cabs_inv by assumption. rewrite <- Rinv_1. apply Rinv_lt_contravar; [nra|assumption].
  - simpl. assert (D := Cnorm2_pos w N). unfold Rdiv. assert (0 < / Cnorm2 w) by now apply Rinv_0_lt_compat. nra.
Qed.
Print Assumptions C47_version2_outside.

(** The version with the principal root agrees with the map in use in the upper half plane and on the real axis
    below t_in, and is its negative in the lower half plane. *)
Theorem C47_version3 : forall t_0 t_in mt, 0 < t_0 < t_in -> MapFromTtoW_init t_0 t_in = Ok mt ->
  (forall t, 0 < Im t \/ (Im t = 0 /\ Re t < t_in) -> t_to_w_version3 t_0 t_in t = MapFromTtoW_call mt t) /\
  (forall t, Im t < 0 ->
     exists w, MapFromTtoW_call mt t = Ok w /\ t_to_w_version3 t_0 t_in t = Ok (Copp w)) /\
  (forall x, t_in <= x -> t_to_w_version3 t_0 t_in (RtoC x) = t_to_w_version2 t_0 t_in (RtoC x)).
Proof.
  intros t_0 t_in mt [H0 L] H. apply MapTW_init_inv in H. destruct H as [V ->]. fold (tw t_0 t_in).
  split; [|split].
  - intros t B. destruct (on_cut_dec (Csub t (RtoC t_0))) as [K|K].
    + destruct K as [K1 K2]. simpl in K1, K2.
      destruct B as [B|[B1 B2]]; [lra|]. assert (E : t = RtoC (Re t)) by (apply C_ext; simpl; lra).
      rewrite E. rewrite version3_real_above by lra. rewrite version2_same by lra. symmetry.
      apply Map_call_ok; [assumption|]. intros Z. apply RtoC_inj in Z. lra.
    + rewrite version3_same; [|assumption|assumption|lra|assumption]. symmetry. apply Map_call_ok; [assumption|].
      now apply (off_cut_neq_tin t_0).
  - intros t B. exists (Wt t_0 t_in t). split; [|now apply version3_lower].
    apply Map_call_ok; [assumption|]. intros ->. simpl in B. lra.
  - intros x B. apply version3_real_above; lra.
Qed.
Print Assumptions C47_version3.

(** Both are right inverses of the map from W to t, at t_in too. *)
Lemma WtoT_sheets : forall mw w t, MapFromWtoT_call mw w = Ok t ->
  MapFromWtoT_call mw (Copp w) = Ok t /\ MapFromWtoT_call mw (other_sheet w) = Ok t.
Proof.
  intros mw w t H. unfold MapFromWtoT_call in *.
  destruct (C13_z_minus_its_reciprocal w) as [Z K].
  destruct (C_eq_dec w (RtoC 0)) as [E|N]; [apply Z in E; rewrite E in H; discriminate|].
  destruct (K N) as [y [Y1 [_ [Y2 Y3]]]]. rewrite Y1 in H. unfold other_sheet. rewrite Y2, Y3. cbn [bind] in *.
  replace (Csq (Copp y)) with (Csq y) by (unfold Csq; ring). split; assumption.
Qed.

Lemma WtoT_i : forall t_0 t_in, MapFromWtoT_call (mkMapWT t_0 t_in (t_in - t_0)) Ci = Ok (RtoC t_in).
Proof.
  intros t_0 t_in. unfold MapFromWtoT_call, z_minus_its_reciprocal.
  assert (N : Ci <> RtoC 0) by (intros Z; apply (f_equal Im) in Z; simpl in Z; lra).
  rewrite cdiv_ok by assumption. cbn [bind].
  assert (E : Csq (Csub Ci (Cdivt 1 Ci)) = RtoC (-4)).
  { unfold Csq, Cdivt, Cinv, Cnorm2. apply C_ext; simpl; field. }
  rewrite E. rewrite cdiv_ok by (apply RtoC_neq0; lra). cbn [bind]. f_equal. simpl wt_delta. simpl wt_t_0.
  rewrite <- RtoC_div, <- RtoC_sub by lra. f_equal. field.
Qed.

Theorem C47_right_inverses : forall t_0 t_in mw t, 0 < t_0 < t_in -> MapFromWtoT_init t_0 t_in = Ok mw ->
  t <> RtoC t_0 ->
  (exists w, t_to_w_version2 t_0 t_in t = Ok w /\ MapFromWtoT_call mw w = Ok t) /\
  (exists w, t_to_w_version3 t_0 t_in t = Ok w /\ MapFromWtoT_call mw w = Ok t).
Proof.
  intros t_0 t_in mw t [H0 L] B N0.
  destruct (C10_constructors_accept t_0 t_in) as [mt [mw' [A _]]]; [lra|]. clear mw'.
  destruct (C47_version2 t_0 t_in mt (conj H0 L) A) as [V1 [V2 [_ V3]]].
  destruct (C47_version3 t_0 t_in mt (conj H0 L) A) as [U1 [U2 U3]].
  assert (L' : 0 <= t_0 < t_in) by lra.
  destruct (C10_round_trip_t_W_t t_0 t_in mt mw L' A B) as [R _].
  destruct (C_eq_dec t (RtoC t_in)) as [->|N].
  - rewrite U3 by lra. rewrite V3. apply wt_init_inv in B. subst mw.
    split; exists Ci; (split; [reflexivity|apply WtoT_i]).
  - destruct (R t N0 N) as [w [W1 W2]]. destruct (WtoT_sheets mw w t W2) as [S1 S2].
    assert (Two : exists w', t_to_w_version2 t_0 t_in t = Ok w' /\ MapFromWtoT_call mw w' = Ok t).
    { destruct (on_cut_dec (Csub t (RtoC t_0))) as [K|K].
      - destruct K as [K1 K2]. simpl in K1, K2. assert (E : t = RtoC (Re t)) by (apply C_ext; simpl; lra).
        destruct (Rlt_dec (Re t) t_in) as [Q|Q].
        + exists w. split; [|assumption]. rewrite E, V1, <- E by lra. assumption.
        + destruct (V2 t) as [w' [_ [E1 E2]]].
          * right. exists (Re t). split; [|assumption]. assert (Re t <> t_in) by (intros Z; apply N; now rewrite E, Z). lra.
          * exists (other_sheet w'). split; [assumption|]. assert (w' = w) by congruence. now subst.
      - destruct (V2 t) as [w' [_ [E1 E2]]]; [left; exact (proj2 (plane_cut t_0 t) K)|].
        exists (other_sheet w'). split; [assumption|]. assert (w' = w) by congruence. now subst. }
    split; [assumption|].
    destruct (Rlt_dec (Im t) 0) as [I|I].
    + destruct (U2 t I) as [w' [E1 E2]]. exists (Copp w'). split; [assumption|]. assert (w' = w) by congruence. now subst.
    + destruct (Rlt_dec 0 (Im t)) as [J|J]; [exists w; rewrite U1 by lra; now split|].
      destruct (Rlt_dec (Re t) t_in) as [Q|Q]; [exists w; rewrite U1 by lra; now split|].
      assert (E : t = RtoC (Re t)) by (apply C_ext; simpl; lra).
      assert (Z : t_to_w_version3 t_0 t_in t = t_to_w_version2 t_0 t_in t) by (rewrite E; apply U3; lra).
      rewrite Z. assumption.
Qed.
Print Assumptions C47_right_inverses.

(** The map in use accepts t_0 = 0; the alternatives divide by it. *)
Theorem C47_zero_threshold : forall t_in t,
  t_to_w_version2 0 t_in t = Err ZeroDivisionError /\ t_to_w_version3 0 t_in t = Err ZeroDivisionError.
Proof. intros t_in t. unfold t_to_w_version2, t_to_w_version3, literature_map, rdiv.
  destruct (Req_EM_T 0 0); [split; reflexivity|contradiction]. Qed.
Print Assumptions C47_zero_threshold.

(** The principal root moves the discontinuity: the limits from above are the values of the map in use, those
    from below are their images under reflection in the imaginary axis.  They coincide exactly between t_0 and
    t_in, where the map in use jumps. *)
Theorem C47_version3_boundary : forall t_0 t_in mt x w, 0 < t_0 < t_in -> MapFromTtoW_init t_0 t_in = Ok mt ->
  MapFromTtoW_call mt (RtoC x) = Ok w ->
  tends_within (fun s => 0 < Im s) (t_to_w_version3 t_0 t_in) (RtoC x) w /\
  tends_within (fun s => Im s < 0) (t_to_w_version3 t_0 t_in) (RtoC x) (Copp (Cconj w)) /\
  (Copp (Cconj w) = w <-> t_0 <= x < t_in).
Proof.
  intros t_0 t_in mt x w [H0 L] H E. assert (L' : 0 <= t_0 < t_in) by lra.
  destruct (C47_version3 t_0 t_in mt (conj H0 L) H) as [U1 [U2 _]].
  assert (N : x <> t_in).
  { intros ->. destruct (C10_round_trip_t_W_t t_0 t_in mt (mkMapWT t_0 t_in (t_in - t_0)) L' H) as [_ [Z _]]; [|congruence].
    unfold MapFromWtoT_init. rewrite (proj2 (validate_ok_iff t_0 t_in)) by lra. reflexivity. }
  destruct (C46_map_boundary t_0 t_in mt x H L N) as [w' [E' [T1 T2]]]. assert (w' = w) by congruence. subst w'.
  split; [|split].
  - intros eps P. destruct (T1 eps P) as [d [D K]]. exists d. split; [assumption|]. intros s S Q.
    rewrite U1 by lra. apply K; [lra|assumption].
  - intros eps P. destruct (T2 eps P) as [d [D K]]. exists d. split; [assumption|]. intros s S Q.
    destruct (K s S Q) as [y [Y1 Y2]]. destruct (U2 s S) as [y' [Z1 Z2]]. assert (y' = y) by congruence. subst y'.
    exists (Copp y). split; [assumption|]. replace (Csub (Copp y) (Copp (Cconj w))) with (Copp (Csub y (Cconj w))) by ring.
    now rewrite Cabs_opp.
  - destruct (C12_image t_0 t_in mt L' H (RtoC x) w E) as [_ [_ [I1 [I2 [I3 _]]]]]. simpl in I1, I2, I3.
    split.
    + intros Z. apply (f_equal Re) in Z. simpl in Z.
      destruct (Rlt_dec x t_0) as [B|B]; [destruct (I3 eq_refl B); lra|].
      destruct (Rlt_dec t_in x) as [B'|B']; [destruct (I2 eq_refl B') as [_ [? _]]; lra|]. lra.
    + intros [B1 B2]. destruct (Req_dec x t_0) as [->|B3].
      * destruct (C10_round_trip_t_W_t t_0 t_in mt (mkMapWT t_0 t_in (t_in - t_0)) L' H) as [_ [_ [Z _]]].
        { unfold MapFromWtoT_init. rewrite (proj2 (validate_ok_iff t_0 t_in)) by lra. reflexivity. }
        assert (w = RtoC 0) by congruence. subst. apply C_ext; simpl; ring.
      * destruct (I1 eq_refl) as [R _]; [lra|]. apply C_ext; simpl; [rewrite R; ring|ring].
Qed.
Print Assumptions C47_version3_boundary.

(** The three versions are not interchangeable, with the constants of the script: T_0 = 1, T_IN = 2. *)
Theorem C47_interchangeable_refuted : exists t w w2 w3 mt,
  MapFromTtoW_init 1 2 = Ok mt /\ MapFromTtoW_call mt t = Ok w /\
  t_to_w_version2 1 2 t = Ok w2 /\ t_to_w_version3 1 2 t = Ok w3 /\ w <> w2 /\ w <> w3 /\ w2 <> w3.
Proof.
  destruct (C10_constructors_accept 1 2) as [mt [_ [A _]]]; [lra|].
  assert (B : 0 < 1 < 2) by lra.
  destruct (C47_version2 1 2 mt B A) as [_ [V2 _]]. destruct (C47_version3 1 2 mt B A) as [_ [V3 _]].
  set (t := mkC 0 (-1)). assert (P : plane_without_cut 1 t) by (unfold plane_without_cut, t; simpl; lra).
  destruct (V2 t (or_introl P)) as [w [Nw [E1 E2]]]. destruct (V3 t) as [w' [E1' E3]]; [simpl; lra|].
  assert (w' = w) by congruence. subst w'.
  exists t, w, (other_sheet w), (Copp w), mt.
  assert (L : 0 <= 1 < 2) by lra.
  destruct (C12_image 1 2 mt L A t w E1) as [_ [I _]]. destruct (I P) as [I1 I2].
  destruct (C47_version2_outside 1 2 t B P) as [u [F1 [F2 F3]]]. assert (u = other_sheet w) by congruence. subst u.
  repeat (split; [assumption|]). split; [|split].
  - intros Z. rewrite <- Z in F2. lra.
  - intros Z. apply (f_equal Re) in Z. simpl in Z. lra.
  - intros Z. rewrite Z, Cabs_opp in F2. lra.
Qed.
Print Assumptions C47_interchangeable_refuted.

Example C47_instance : exists mt mw,
  MapFromTtoW_init 1 2 = Ok mt /\ MapFromWtoT_init 1 2 = Ok mw /\ 0 < 1 < 2 /\
  plane_without_cut 1 (mkC 0 (-1)) /\ mkC 0 (-1) <> RtoC 1 /\
  is_ok (MapFromTtoW_call mt (RtoC (3 / 2))).
Proof.
  destruct (C10_constructors_accept 1 2) as [mt [mw [A B]]]; [lra|]. exists mt, mw.
  repeat (split; [first [assumption|lra]|]). split; [unfold plane_without_cut; simpl; lra|].
  split; [intros Z; apply (f_equal Im) in Z; simpl in Z; lra|].
  destruct (C10_round_trip_t_W_t 1 2 mt mw) as [R _]; [lra|assumption|assumption|].
  destruct (R (RtoC (3 / 2))) as [w [E _]]; [intros Z; apply RtoC_inj in Z; lra|intros Z; apply RtoC_inj in Z; lra|].
  rewrite E. now exists w.
Qed.
