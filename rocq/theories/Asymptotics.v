(** Limits at infinity with a rate: f tends to c when |f t - c| <= K / sqrt |t| for large |t|.  No code is modelled
    here; PropsAsymptotics.v uses it for form factors and cross-sections. *)
From Coq Require Import String Reals Bool List Lra.
From Verif Require Import PyBase CNum UAMaps UAComponents MapProofs ComponentProofs KaonProofs SectorProofs.
Import ListNotations.
Local Open Scope R_scope.
Local Open Scope py_scope.

Definition tends (c : C) (f : C -> C) : Prop :=
  exists K T, 0 <= K /\ 1 <= T /\ forall t, T <= Cabs t -> Cabs (f t - c)%C <= K * / sqrt (Cabs t).

Lemma rate : forall x, 1 <= x -> 0 < / sqrt x <= 1.
Proof.
  intros x H. assert (1 <= sqrt x) by (rewrite <- sqrt_1; apply sqrt_le_1; lra).
  split; [apply Rinv_0_lt_compat; lra|]. rewrite <- Rinv_1. apply Rinv_le_contravar; lra.
Qed.

Lemma tends_const : forall c, tends c (fun _ => c).
Proof.
  intros c. exists 0, 1. split; [lra|]. split; [lra|]. intros t H. replace (c - c)%C with (RtoC 0) by ring.
  rewrite Cabs_RtoC, Rabs_R0. lra.
Qed.

Lemma tends_add : forall c d f g, tends c f -> tends d g -> tends (c + d)%C (fun t => (f t + g t)%C).
Proof.
  intros c d f g (K & T & K0 & T0 & F) (K' & T' & K0' & T0' & G). exists (K + K'), (Rmax T T').
  split; [lra|]. split; [eapply Rle_trans; [exact T0|apply Rmax_l]|]. intros t H.
  assert (H1 := F t (Rle_trans _ _ _ (Rmax_l _ _) H)). assert (H2 := G t (Rle_trans _ _ _ (Rmax_r _ _) H)).
  replace (f t + g t - (c + d))%C with ((f t - c) + (g t - d))%C by ring.
  eapply Rle_trans; [apply Cabs_triangle|]. lra.
Qed.

Lemma tends_mul : forall c d f g, tends c f -> tends d g -> tends (c * d)%C (fun t => (f t * g t)%C).
Proof.
  intros c d f g (K & T & K0 & T0 & F) (K' & T' & K0' & T0' & G).
  assert (Pc := Cabs_nonneg c). assert (Pd := Cabs_nonneg d).
  exists (K * K' + Cabs c * K' + Cabs d * K), (Rmax T T').
  split; [nra|]. split; [eapply Rle_trans; [exact T0|apply Rmax_l]|]. intros t H.
  assert (H1 := F t (Rle_trans _ _ _ (Rmax_l _ _) H)). assert (H2 := G t (Rle_trans _ _ _ (Rmax_r _ _) H)).
  assert (P : 1 <= Cabs t) by (eapply Rle_trans; [exact T0|]; eapply Rle_trans; [apply Rmax_l|exact H]).
  destruct (rate _ P) as (R0 & R1). set (r := / sqrt (Cabs t)) in *.
  replace (f t * g t - c * d)%C with ((f t - c) * (g t - d) + (c * (g t - d) + d * (f t - c)))%C by ring.
  eapply Rle_trans; [apply Cabs_triangle|]. rewrite Cabs_mul.
  assert (Q := Cabs_triangle (c * (g t - d))%C (d * (f t - c))%C). rewrite !Cabs_mul in Q.
  assert (A := Cabs_nonneg (f t - c)%C). assert (B := Cabs_nonneg (g t - d)%C).
  set (x := Cabs (f t - c)%C) in *. set (y := Cabs (g t - d)%C) in *.
  assert (x * y <= K * K' * r).
  { apply Rle_trans with (K * r * (K' * r)); [apply Rmult_le_compat; assumption|].
    replace (K * r * (K' * r)) with (K * K' * (r * r)) by ring. apply Rmult_le_compat_l; nra. }
  assert (Cabs c * y <= Cabs c * (K' * r)) by (apply Rmult_le_compat_l; lra).
  assert (Cabs d * x <= Cabs d * (K * r)) by (apply Rmult_le_compat_l; lra). lra.
Qed.

Lemma tends_scale : forall c k f, tends c f -> tends (k * c)%C (fun t => (k * f t)%C).
Proof. intros. apply tends_mul; [apply tends_const|assumption]. Qed.

Lemma tends_ext : forall c f g, (exists T, forall t, T <= Cabs t -> f t = g t) -> tends c f -> tends c g.
Proof.
  intros c f g (T' & E) (K & T & K0 & T0 & F). exists K, (Rmax T T'). split; [assumption|].
  split; [eapply Rle_trans; [exact T0|apply Rmax_l]|]. intros t H. rewrite <- E by (eapply Rle_trans; [apply Rmax_r|exact H]).
  apply F. eapply Rle_trans; [apply Rmax_l|exact H].
Qed.
Lemma tends_ext_all : forall c f g, (forall t, f t = g t) -> tends c f -> tends c g.
Proof. intros c f g E. apply tends_ext. exists 0. auto. Qed.

Lemma tends_sub : forall c d f g, tends c f -> tends d g -> tends (c - d)%C (fun t => (f t - g t)%C).
Proof.
  intros c d f g F G. replace (c - d)%C with (c + RtoC (-1) * d)%C by (Cext; ring).
  apply (tends_ext_all _ (fun t => (f t + RtoC (-1) * g t)%C)); [intros; Cext; ring|].
  apply tends_add; [assumption|now apply tends_scale].
Qed.

Lemma tends_inv : forall c f, c <> RtoC 0 -> tends c f -> tends (Cinv c) (fun t => Cinv (f t)).
Proof.
  intros c f N (K & T & K0 & T0 & F). assert (P := Cabs_pos c N).
  set (T' := 4 * K^2 / (Cabs c)^2). assert (P2 : 0 < Cabs c ^ 2) by (apply pow_lt; assumption).
  exists (2 * K / (Cabs c)^2), (Rmax T T').
  split; [apply Rmult_le_pos; [lra|]; left; now apply Rinv_0_lt_compat|].
  split; [eapply Rle_trans; [exact T0|apply Rmax_l]|]. intros t H.
  assert (H1 := F t (Rle_trans _ _ _ (Rmax_l _ _) H)). assert (H2 := Rle_trans _ _ _ (Rmax_r _ _) H).
  assert (Q : 1 <= Cabs t) by (eapply Rle_trans; [exact T0|]; eapply Rle_trans; [apply Rmax_l|exact H]).
  destruct (rate _ Q) as (R0 & R1). set (r := / sqrt (Cabs t)) in *.
  assert (B : K * r <= Cabs c / 2).
  { assert (E : r * r * Cabs t = 1).
    { unfold r. assert (S := sqrt_sqrt (Cabs t) ltac:(lra)). assert (0 < sqrt (Cabs t)) by (apply sqrt_lt_R0; lra).
      rewrite <- S at 3. field. lra. }
    assert (H3 : 4 * K^2 <= Cabs t * (Cabs c)^2).
    { unfold T' in H2. apply Rmult_le_compat_r with (r := (Cabs c)^2) in H2; [|lra].
      replace (4 * K^2 / Cabs c ^ 2 * Cabs c ^ 2) with (4 * K^2) in H2 by (field; lra). assumption. }
    assert (H4 : 4 * K^2 * (r * r) <= (Cabs c)^2).
    { apply Rle_trans with (Cabs t * (Cabs c)^2 * (r * r)); [apply Rmult_le_compat_r; [nra|assumption]|].
      replace (Cabs t * Cabs c ^ 2 * (r * r)) with (r * r * Cabs t * (Cabs c)^2) by ring. rewrite E. lra. }
    assert (0 <= K * r) by nra. apply Rsqr_incr_0; unfold Rsqr; [|assumption|lra].
    replace (K * r * (K * r)) with (4 * K^2 * (r * r) / 4) by field. replace (Cabs c / 2 * (Cabs c / 2)) with (Cabs c ^ 2 / 4) by field. lra. }
  assert (L : Cabs c / 2 <= Cabs (f t)).
  { assert (X := Cabs_triangle_rev c (c - f t)%C). replace (c - (c - f t))%C with (f t) in X by ring.
    replace (c - f t)%C with (Copp (f t - c))%C in X by ring. rewrite Cabs_opp in X. lra. }
  assert (NF : f t <> RtoC 0). { intros E. rewrite E, Cabs_RtoC, Rabs_R0 in L. lra. }
  replace (Cinv (f t) - Cinv c)%C with (Copp (f t - c) * (Cinv (f t) * Cinv c))%C by (field; tauto).
  rewrite Cabs_mul, Cabs_opp, Cabs_mul, !Cabs_inv by assumption.
  replace (2 * K / Cabs c ^ 2 * r) with (K * r * (/ (Cabs c / 2) * / Cabs c)) by (field; lra).
  assert (0 < / Cabs c) by now apply Rinv_0_lt_compat. assert (0 < / Cabs (f t)) by (apply Rinv_0_lt_compat; lra).
  apply Rmult_le_compat; [apply Cabs_nonneg|nra|assumption|].
  apply Rmult_le_compat_r; [lra|]. apply Rinv_le_contravar; lra.
Qed.

Lemma tends_div : forall c d f g, d <> RtoC 0 -> tends c f -> tends d g -> tends (Cdivt c d) (fun t => Cdivt (f t) (g t)).
Proof. intros c d f g N F G. unfold Cdivt. apply tends_mul; [assumption|now apply tends_inv]. Qed.

(** Limits are unique. *)
Lemma tends_unique : forall c d f, tends c f -> tends d f -> c = d.
Proof.
  intros c d f (K & T & K0 & T0 & F) (K' & T' & K0' & T0' & G).
  destruct (C_eq_dec c d) as [|N]; [assumption|exfalso].
  assert (P : 0 < Cabs (c - d)%C) by (apply Cabs_pos; intros E; apply N; now apply Csub_eq in E).
  set (e := Cabs (c - d)%C) in *. set (x := Rmax (Rmax T T') (((K + K' + 1) / e)^2)).
  assert (X1 : Rmax T T' <= x) by apply Rmax_l. assert (X2 : ((K + K' + 1) / e)^2 <= x) by apply Rmax_r.
  assert (X3 := Rmax_l T T'). assert (X4 := Rmax_r T T').
  assert (A : Cabs (RtoC x) = x) by (rewrite Cabs_RtoC, Rabs_pos_eq; lra).
  assert (H1 := F (RtoC x)). assert (H2 := G (RtoC x)). rewrite A in H1, H2.
  specialize (H1 ltac:(lra)). specialize (H2 ltac:(lra)).
  assert (Q : (K + K' + 1) / e <= sqrt x).
  { assert (0 < (K + K' + 1) / e) by (apply Rdiv_lt_0_compat; lra).
    rewrite <- (sqrt_pow2 ((K + K' + 1) / e)) by lra. apply sqrt_le_1; [apply pow2_ge_0|lra|assumption]. }
  assert (S : 0 < sqrt x) by (apply sqrt_lt_R0; lra).
  assert (U : e <= (K + K') * / sqrt x).
  { unfold e. replace (c - d)%C with (Copp (f (RtoC x) - c) + (f (RtoC x) - d))%C by ring.
    eapply Rle_trans; [apply Cabs_triangle|]. rewrite Cabs_opp. lra. }
  apply Rmult_le_compat_r with (r := sqrt x) in U; [|lra]. rewrite Rmult_assoc, Rinv_l, Rmult_1_r in U by lra.
  apply Rmult_le_compat_r with (r := e) in Q; [|lra]. replace ((K + K' + 1) / e * e) with (K + K' + 1) in Q by (field; lra). lra.
Qed.

(** 1/t and t/(t - x). *)
Lemma tends_Cinv : tends (RtoC 0) Cinv.
Proof.
  exists 1, 1. split; [lra|]. split; [lra|]. intros t H.
  assert (N : t <> RtoC 0) by (intros E; rewrite E, Cabs_RtoC, Rabs_R0 in H; lra).
  replace (Cinv t - RtoC 0)%C with (Cinv t) by ring. rewrite Cabs_inv, Rmult_1_l by assumption.
  assert (sqrt (Cabs t) <= Cabs t).
  { apply Rle_trans with (sqrt (Cabs t * Cabs t)); [apply sqrt_le_1; nra|]. rewrite sqrt_square; lra. }
  apply Rinv_le_contravar; [apply sqrt_lt_R0; lra|assumption].
Qed.

Lemma large_neq : forall (x : C) t, Cabs x + 1 <= Cabs t -> t <> x.
Proof. intros x t H ->. lra. Qed.

Lemma tends_shift : forall x : R, tends (RtoC 1) (fun t => Cdivt t (t - RtoC x)%C).
Proof.
  intros x. apply (tends_ext _ (fun t => Cinv (RtoC 1 - RtoC x * Cinv t))%C).
  - exists (Cabs (RtoC x) + 1). intros t H. assert (N := large_neq _ _ H).
    assert (P := Cabs_nonneg (RtoC x)).
    assert (N0 : t <> RtoC 0) by (intros E; rewrite E, (Cabs_RtoC 0), Rabs_R0 in H; lra).
    assert (t - RtoC x <> RtoC 0)%C by (intros E; apply Csub_eq in E; auto).
    unfold Cdivt. field. tauto.
  - replace (RtoC 1) with (Cinv (RtoC 1 - RtoC x * RtoC 0))%C at 1 by (Cext; unfold Cnorm2; simpl; field).
    apply tends_inv.
    + intros E. apply (f_equal Re) in E. simpl in E. lra.
    + apply tends_sub; [apply tends_const|]. apply tends_scale, tends_Cinv.
Qed.

Section Component.
Variables t_0 t_in : R.
Hypothesis H0 : 0 <= t_0.
Hypothesis Hlt : t_0 < t_in.

Lemma tends_W : tends (RtoC (-1)) (Wt t_0 t_in).
Proof.
  exists (sqrt (8 * (t_in - t_0))), (Rmax 1 (2 * t_in)). split; [apply sqrt_pos|]. split; [apply Rmax_l|].
  intros t H. assert (H1 := Rle_trans _ _ _ (Rmax_l _ _) H). assert (H2 := Rle_trans _ _ _ (Rmax_r _ _) H).
  assert (N : t <> RtoC t_in). { intros E. rewrite E, Cabs_RtoC, Rabs_pos_eq in H2 by lra. lra. }
  assert (B := W_plus_1_bound t_0 t_in H0 Hlt t N H2).
  replace (Wt t_0 t_in t - RtoC (-1))%C with (Wt t_0 t_in t + RtoC 1)%C by (Cext; ring).
  assert (P := Cabs_nonneg (Wt t_0 t_in t + RtoC 1)%C).
  rewrite <- sqrt_inv. rewrite <- sqrt_mult by (try (left; apply Rinv_0_lt_compat); lra).
  rewrite <- (sqrt_square _ P). apply sqrt_le_1; [nra| |exact B].
  apply Rmult_le_pos; [lra|]. left. apply Rinv_0_lt_compat. lra.
Qed.

(** The coefficient of -1/t in a component. *)
Definition leading (v : variant) (p : C) : C :=
  (RtoC (4 * (t_in - t_0)) *
   Cdivt (Dfac v (Wt t_0 t_in p) (Wt t_0 t_in 0)) (Afac (Wt t_0 t_in 0) * Dfac v (Wt t_0 t_in p) (RtoC (-1))))%C.

Lemma tends_Dfac : forall v wm, tends (Dfac v wm (RtoC (-1))) (fun t => Dfac v wm (Wt t_0 t_in t)).
Proof.
  intros v wm. destruct v; cbn [Dfac]; repeat apply tends_mul;
    first [apply tends_sub|apply tends_add]; (apply tends_W || apply tends_const).
Qed.

Lemma Dfac_m1 : forall v p, good_pole t_0 t_in v p -> Dfac v (Wt t_0 t_in p) (RtoC (-1)) <> RtoC 0.
Proof.
  intros v p G E. destruct (Dfac_bound t_0 t_in Hlt v p G) as (d & e & D & Pe & B).
  specialize (B (RtoC (-1))). replace (RtoC (-1) + 1)%C with (RtoC 0) in B by (Cext; ring).
  rewrite E, Cabs_RtoC, Rabs_R0 in B. specialize (B ltac:(lra)). lra.
Qed.

Lemma comp_leads : forall v p, good_pole t_0 t_in v p ->
  tends (Copp (leading v p)) (fun t => (t * comp_val v (Wt t_0 t_in 0) (Wt t_0 t_in p) (Wt t_0 t_in t))%C).
Proof.
  intros v p G. assert (A := Afac_wn t_0 t_in H0 Hlt). assert (D := Dfac_m1 v p G).
  set (wn := Wt t_0 t_in 0) in *. set (wm := Wt t_0 t_in p) in *.
  apply (tends_ext _ (fun t => (RtoC (-4 * (t_in - t_0)) * Cdivt (Dfac v wm wn) (Afac wn)) *
    ((Wt t_0 t_in t * Wt t_0 t_in t) * (Cdivt t (t - RtoC t_0) * Cinv (Dfac v wm (Wt t_0 t_in t)))))%C).
  - exists (t_in + 1). intros t H.
    assert (N1 : t <> RtoC t_in) by (apply large_neq; rewrite Cabs_RtoC, Rabs_pos_eq; lra).
    assert (N2 : t <> RtoC t_0) by (apply large_neq; rewrite Cabs_RtoC, Rabs_pos_eq; lra).
    unfold comp_val. rewrite (Afac_t t_0 t_in Hlt t N1 N2).
    replace (RtoC (-4 * (t_in - t_0))) with (Copp (RtoC (4 * (t_in - t_0)))) by (Cext; ring). unfold Cdivt. ring.
  - replace (Copp (leading v p)) with ((RtoC (-4 * (t_in - t_0)) * Cdivt (Dfac v wm wn) (Afac wn)) *
      ((RtoC (-1) * RtoC (-1)) * (RtoC 1 * Cinv (Dfac v wm (RtoC (-1))))))%C.
    + apply tends_scale. apply tends_mul; [apply tends_mul; apply tends_W|]. apply tends_mul; [apply tends_shift|].
      apply tends_inv; [assumption|apply tends_Dfac].
    + unfold leading. fold wn wm. replace (RtoC (-4 * (t_in - t_0))) with (Copp (RtoC (4 * (t_in - t_0)))) by (Cext; ring).
      replace (RtoC (-1) * RtoC (-1))%C with (RtoC 1) by (Cext; ring).
      replace (RtoC 1) with 1%C by reflexivity. field. tauto.
Qed.

(** It is real and positive. *)
Lemma sq_mod : forall z : C, (z * Cconj z)%C = RtoC (Cabs z * Cabs z).
Proof.
  intros z. unfold Cabs. rewrite sqrt_sqrt by (unfold Cnorm2; nra). unfold Cnorm2. Cext; ring.
Qed.

Lemma Dfac_real : forall v wm (x : R), exists y, Dfac v wm (RtoC x) = RtoC y /\ 0 <= y.
Proof.
  intros v wm x.
  assert (E : forall z, (Csub (RtoC x) (Cconj z)) = Cconj (Csub (RtoC x) z)) by (intros; rewrite Cconj_sub, Cconj_RtoC; reflexivity).
  destruct v; cbn [Dfac].
  - replace (Cinv (Cconj wm)) with (Cconj (Cinv wm)) by apply Cconj_inv. rewrite !E, sq_mod.
    set (z := Csub (RtoC x) (Cinv wm)). exists (Cabs (Csub (RtoC x) wm) * Cabs (Csub (RtoC x) wm) * (Cabs z * Cabs z)).
    split; [|assert (P := Cabs_nonneg z); assert (Q := Cabs_nonneg (Csub (RtoC x) wm)); apply Rmult_le_pos; nra].
    rewrite (RtoC_mul (_ * _) (Cabs z * Cabs z)), <- (sq_mod z). ring.
  - rewrite E, sq_mod. replace (Cadd (RtoC x) (Cconj wm)) with (Cconj (Cadd (RtoC x) wm)) by (rewrite Cconj_add, Cconj_RtoC; reflexivity).
    set (z := Cadd (RtoC x) wm). exists (Cabs (Csub (RtoC x) wm) * Cabs (Csub (RtoC x) wm) * (Cabs z * Cabs z)).
    split; [|assert (P := Cabs_nonneg z); assert (Q := Cabs_nonneg (Csub (RtoC x) wm)); apply Rmult_le_pos; nra].
    rewrite (RtoC_mul (_ * _) (Cabs z * Cabs z)), <- (sq_mod z). ring.
Qed.

Lemma leading_real : forall v p, good_pole t_0 t_in v p ->
  exists l, leading v p = RtoC l /\ (p <> RtoC 0 -> 0 < l).
Proof.
  intros v p G. assert (A := Afac_wn t_0 t_in H0 Hlt). assert (D := Dfac_m1 v p G).
  destruct (wn_real t_0 t_in H0 Hlt) as (I & B).
  assert (DN : p <> RtoC 0 -> Dfac v (Wt t_0 t_in p) (Wt t_0 t_in 0) <> RtoC 0).
  { intros N. rewrite (Dfac_zero_iff t_0 t_in Hlt) by (try assumption; now apply (zero_neq_tin t_0)).
    intros [E|E]; [now apply N|]. apply N. apply Cconj_inj. now rewrite <- E, Cconj_RtoC. }
  unfold leading. set (wn := Wt t_0 t_in 0) in *.
  assert (E : wn = RtoC (Re wn)) by (apply C_ext; [reflexivity|exact I]). rewrite E in *.
  destruct (Dfac_real v (Wt t_0 t_in p) (Re wn)) as (y & Y & Y0). destruct (Dfac_real v (Wt t_0 t_in p) (-1)) as (z & Z & Z0).
  rewrite Y in *. rewrite Z in *.
  assert (EA : Afac (RtoC (Re wn)) = RtoC ((1 - Re wn * Re wn) * (1 - Re wn * Re wn))) by (unfold Afac, Csq; Cext; ring).
  rewrite EA in *. set (a := (1 - Re wn * Re wn) * (1 - Re wn * Re wn)) in *.
  assert (a <> 0) by (intros F; apply A; now rewrite F).
  assert (z <> 0) by (intros F; apply D; now rewrite F). assert (0 <= a) by apply Rle_0_sqr.
  exists (4 * (t_in - t_0) * (y / (a * z))).
  assert (az : 0 < a * z) by (apply Rmult_lt_0_compat; lra).
  split; [rewrite (RtoC_mul (4 * (t_in - t_0))), RtoC_div, (RtoC_mul a) by lra; reflexivity|].
  intros N. assert (y <> 0) by (intros F; apply (DN N); now rewrite F).
  apply Rmult_lt_0_compat; [lra|]. apply Rdiv_lt_0_compat; lra.
Qed.

End Component.
