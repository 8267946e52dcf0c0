(** How one component and one sector depend on the masses and widths of the resonances: limits when the parameters
    change, with the variant of every component given.  No code is modelled here; PropsMasses.v uses it. *)
From Coq Require Import String Reals Bool Arith List Lra Lia.
From Verif Require Import PyBase CNum UAMaps UAComponents PyExpr UAModels
  MapProofs ComponentProofs ExprProofs KaonProofs SectorProofs KaonSpec PropsKaon Analytic AnalyticModels PropsAmbiguity.
Import ListNotations.
Local Open Scope R_scope.
Local Open Scope py_scope.
Local Open Scope list_scope.

(** Mass and width of a resonance, up to their signs, as one point of the first quadrant; its square is the pole or the
    conjugate of the pole. *)
Definition corner (m g : R) : C := mkC (Rabs m) (Rabs g / 2).
Definition quadrant : region := fun s => 0 <= Re s /\ 0 <= Im s.
Definition upper_half : region := fun s => 0 <= Im s.

Lemma corner_in : forall m g, quadrant (corner m g).
Proof. intros m g. split; cbn; [apply Rabs_pos|]. pose proof (Rabs_pos g). lra. Qed.

Lemma corner_pole : forall m g, meson_pole (Rabs m) (- Rabs g) = Csq (corner m g).
Proof. intros m g. rewrite resonance_pole_eq. unfold resonance_pole, Csq, corner. apply C_ext; cbn; field. Qed.

Lemma abs_sq : forall x, Rabs x * Rabs x = x * x.
Proof. intros x. rewrite <- Rabs_mult. apply Rabs_pos_eq. nra. Qed.

Lemma corner_at_pole : forall m g t, at_pole m g t <-> Csq (corner m g) = t \/ Csq (corner m g) = Cconj t.
Proof.
  intros m g t. rewrite <- (alike_pole_iff m g (Rabs m) (- Rabs g) t) by (rewrite ?Rmult_opp_opp, ?abs_sq; ring_simplify; rewrite <- ?abs_sq; ring).
  unfold at_pole. rewrite corner_pole. split; intros [E|E]; [left|right|left|right]; try (now symmetry).
  - rewrite E. now rewrite Cconj_invol.
  - rewrite E. now rewrite Cconj_invol.
Qed.

Lemma abs_le_sum : forall z, Cabs z <= Rabs (Re z) + Rabs (Im z).
Proof.
  intros [x y]. replace (mkC x y) with (Cadd (RtoC x) (Cmul Ci (RtoC y))) by (Cext; ring).
  eapply Rle_trans; [apply Cabs_triangle|]. rewrite Cabs_mul, !Cabs_RtoC. cbn.
  replace (Cabs Ci) with 1; [right; unfold RtoC; cbn; f_equal; [f_equal; ring|rewrite Rmult_1_l; f_equal; ring]|].
  unfold Cabs, Cnorm2. cbn. replace (0 * 0 + 1 * 1) with 1 by ring. now rewrite sqrt_1.
Qed.

Lemma corner_close : forall m g m' g' d, Rabs (m' - m) < d -> Rabs (g' - g) < d -> Cabs (Csub (corner m' g') (corner m g)) < 2 * d.
Proof.
  intros m g m' g' d M G. eapply Rle_lt_trans; [apply abs_le_sum|]. cbn.
  pose proof (Rabs_triang_inv2 m' m). pose proof (Rabs_triang_inv2 g' g).
  replace (Rabs m' + - Rabs m) with (Rabs m' - Rabs m) by ring.
  replace (Rabs g' * / 2 + - (Rabs g * / 2)) with ((Rabs g' - Rabs g) * / 2) by ring.
  replace (Rabs g' / 2 + - (Rabs g / 2)) with ((Rabs g' - Rabs g) * / 2) by field.
  rewrite (Rabs_mult _ (/ 2)), (Rabs_pos_eq (/ 2)) by lra. pose proof (Rabs_pos (g' - g)). lra.
Qed.

Lemma cont_conj : forall A f t, cont A f t -> cont A (fun s => Cconj (f s)) t.
Proof.
  intros A f t H eps E. generalize (H eps E). apply near_imp. intros s _ L.
  replace (Csub (Cconj (f s)) (Cconj (f t))) with (Cconj (Csub (f s) (f t))) by (Cext; ring). now rewrite Cabs_conj.
Qed.

Lemma cont_sq : forall A t, cont A Csq t.
Proof. intros A t. unfold Csq. apply cont_mul; apply cont_id. Qed.

Section Sector.
Variables t_0 t_in : R.
Hypothesis H0 : 0 <= t_0.
Hypothesis Hlt : t_0 < t_in.

(** The value of a component of the given variant. *)
Definition KS (v : variant) (s t : C) : C := comp_val v (Wt t_0 t_in 0) (Wt t_0 t_in (Csq s)) (Wt t_0 t_in t).

Lemma KC_corner : forall m g t, accepted t_0 t_in m g -> KC t_0 t_in m g t = KS (variant_of (m * m) t_in) (corner m g) t.
Proof.
  intros m g t A. rewrite <- (KC_alike t_0 t_in Hlt m g (Rabs m) (- Rabs g) t A); [|apply abs_sq|rewrite <- (abs_sq g); ring].
  unfold KC, KS. now rewrite corner_pole, abs_sq.
Qed.

Lemma W_corner_cont : forall s, quadrant s -> Csq s <> RtoC t_in -> cont quadrant (fun s => Wt t_0 t_in (Csq s)) s.
Proof.
  intros s (Q1 & Q2) N. apply (cont_comp quadrant upper_half Csq (Wt t_0 t_in)).
  - apply cont_sq.
  - apply (Wt_cont t_0 t_in Hlt); [|exact N]. right. split; [intros x X; exact X|]. unfold Csq. cbn. nra.
  - apply near_all. intros x (X1 & X2). unfold upper_half, Csq. cbn. nra.
Qed.

Lemma Dfac_pole_cont : forall v f w s, cont quadrant f s -> (v = VariantA -> f s <> RtoC 0) -> cont quadrant (fun x => Dfac v (f x) w) s.
Proof.
  intros v f w s F N. assert (G := cont_conj _ _ _ F). destruct v; unfold Dfac.
  - assert (N1 := N eq_refl). assert (N2 : Cconj (f s) <> RtoC 0).
    { intros E. apply N1. apply Cconj_inj. rewrite E. symmetry. apply Cconj_RtoC. }
    repeat apply cont_mul; apply cont_sub; try apply cont_const; try assumption; now apply cont_inv.
  - repeat apply cont_mul; try apply cont_sub; try apply cont_add; try apply cont_const; assumption.
Qed.

Lemma KS_cont : forall v s t, quadrant s -> good_pole t_0 t_in v (Csq s) -> t <> RtoC t_in -> Csq s <> t -> Csq s <> Cconj t ->
  cont quadrant (fun x => KS v x t) s.
Proof.
  intros v s t Q G T N1 N2. assert (W := W_corner_cont s Q (proj1 G)).
  assert (Z : v = VariantA -> Wt t_0 t_in (Csq s) <> RtoC 0).
  { intros ->. destruct G as (G1 & G2 & _). rewrite (Wt_0_iff t_0 t_in Hlt) by exact G1. exact G2. }
  unfold KS, comp_val. apply cont_mul; [apply cont_const|].
  apply cont_div; [now apply Dfac_pole_cont|now apply Dfac_pole_cont|].
  rewrite (Dfac_zero_iff t_0 t_in Hlt) by assumption. intros [E|E]; [now apply N1|]. apply N2. rewrite E. now rewrite Cconj_invol.
Qed.

(** The value of a component for parameters close to the given ones, with the given variant. *)
Lemma component_side : forall v m g t, good_pole t_0 t_in v (Csq (corner m g)) -> t <> RtoC t_in -> ~ at_pole m g t ->
  forall eps, 0 < eps -> exists d, 0 < d /\ forall m' g', Rabs (m' - m) < d -> Rabs (g' - g) < d -> accepted t_0 t_in m' g' ->
  variant_of (m' * m') t_in = v -> ~ at_pole m' g' t /\ Cabs (Csub (KC t_0 t_in m' g' t) (KS v (corner m g) t)) < eps.
Proof.
  intros v m g t G T N eps P. rewrite corner_at_pole in N.
  assert (K := KS_cont v _ t (corner_in m g) G T ltac:(tauto) ltac:(tauto) eps P).
  assert (K1 := cont_neq quadrant Csq t (corner m g) (cont_sq _ _) ltac:(tauto)).
  assert (K2 := cont_neq quadrant Csq (Cconj t) (corner m g) (cont_sq _ _) ltac:(tauto)).
  destruct (near_and _ _ _ _ K (near_and _ _ _ _ K1 K2)) as (d & D & L). exists (d / 2). split; [lra|].
  intros m' g' M' G' A E. destruct (L (corner m' g') (corner_in m' g')) as (L1 & L2 & L3).
  { eapply Rlt_le_trans; [apply (corner_close m g m' g' _ M' G')|]. lra. }
  split; [rewrite corner_at_pole; tauto|]. rewrite (KC_corner m' g' t A), E. exact L1.
Qed.

(** The variant does not change near a mass off the inelastic branch point. *)
Lemma variant_near : forall m, m * m <> t_in -> exists d, 0 < d /\ forall m', Rabs (m' - m) < d -> variant_of (m' * m') t_in = variant_of (m * m) t_in.
Proof.
  intros m N. set (e := Rabs (m * m - t_in)). assert (E : 0 < e) by (apply Rabs_pos_lt; lra).
  set (q := 2 * Rabs m + 1). assert (Q : 0 < q) by (pose proof (Rabs_pos m); unfold q; lra).
  exists (Rmin 1 (e / q)). split; [apply Rmin_pos; [lra|now apply Rdiv_lt_0_compat]|]. intros m' M.
  assert (M1 := Rlt_le_trans _ _ _ M (Rmin_l _ _)). assert (M2 := Rlt_le_trans _ _ _ M (Rmin_r _ _)).
  assert (X : Rabs (m' * m' - m * m) < e).
  { replace (m' * m' - m * m) with ((m' - m) * (m' + m)) by ring. rewrite Rabs_mult.
    assert (Y : Rabs (m' + m) <= q).
    { replace (m' + m) with ((m' - m) + 2 * m) by ring. eapply Rle_trans; [apply Rabs_triang|].
      rewrite Rabs_mult, (Rabs_pos_eq 2) by lra. unfold q. lra. }
    apply Rle_lt_trans with (Rabs (m' - m) * q); [apply Rmult_le_compat_l; [apply Rabs_pos|exact Y]|].
    apply Rmult_lt_compat_r with (r := q) in M2; [|exact Q]. replace (e / q * q) with e in M2 by (field; lra). exact M2. }
  unfold e in X. unfold variant_of. destruct (Rlt_dec (m' * m') t_in), (Rlt_dec (m * m) t_in); try reflexivity; exfalso;
    unfold Rabs in X; destruct (Rcase_abs _), (Rcase_abs _); lra.
Qed.

(** ** Sectors *)

(** The sum over a sector with the variants given. *)
Definition SV (vs : list variant) (l : list resonance) (t : C) : C :=
  csum (map (fun x => Cmul (RtoC (r_a (snd x))) (KS (fst x) (corner (r_m (snd x)) (r_g (snd x))) t)) (combine vs l)).
Definition close (d : R) (r r' : resonance) : Prop := Rabs (r_a r' - r_a r) < d /\ Rabs (r_m r' - r_m r) < d /\ Rabs (r_g r' - r_g r) < d.

Lemma close_mono : forall d e r r', d <= e -> close d r r' -> close e r r'.
Proof. intros d e r r' L (A & B & D). repeat split; eapply Rlt_le_trans; eassumption. Qed.

Lemma sector_side : forall vs l t, t <> RtoC t_in ->
  Forall2 (fun v r => good_pole t_0 t_in v (Csq (corner (r_m r) (r_g r)))) vs l -> Forall (fun r => ~ at_pole (r_m r) (r_g r) t) l ->
  forall eps, 0 < eps -> exists d, 0 < d /\ forall l', Forall2 (close d) l l' -> Forall (fun r => accepted t_0 t_in (r_m r) (r_g r)) l' ->
  Forall2 (fun v r => variant_of (r_m r * r_m r) t_in = v) vs l' ->
  Forall (fun r => ~ at_pole (r_m r) (r_g r) t) l' /\ Cabs (Csub (sec_val t_0 t_in l' t) (SV vs l t)) < eps.
Proof.
  intros vs l t T G. induction G as [|v r vs l Gr G IH]; intros N eps P.
  - exists 1. split; [lra|]. intros l' C _ _. inversion C; subst. split; [constructor|]. cbn.
    replace (Csub _ _) with (RtoC 0) by (unfold sec_val, SV; cbn; ring). rewrite Cabs_RtoC, Rabs_R0. exact P.
  - inversion N as [|? ? Nr N']; subst.
    destruct (IH N' (eps / 2) ltac:(lra)) as (d1 & D1 & L1).
    set (k := Cabs (KS v (corner (r_m r) (r_g r)) t)). assert (K0 : 0 <= k) by apply Cabs_nonneg.
    set (a := Rabs (r_a r)). assert (A0 : 0 <= a) by apply Rabs_pos.
    set (e := Rmin 1 (eps / (4 * (a + 1)))).
    assert (E : 0 < e) by (apply Rmin_pos; [lra|apply Rdiv_lt_0_compat; lra]).
    destruct (component_side v (r_m r) (r_g r) t Gr T Nr e E) as (d2 & D2 & L2).
    set (d3 := Rmin 1 (eps / (8 * (k + 1)))). assert (D3 : 0 < d3) by (apply Rmin_pos; [lra|apply Rdiv_lt_0_compat; lra]).
    exists (Rmin d1 (Rmin d2 d3)). split; [apply Rmin_pos; [exact D1|apply Rmin_pos; [exact D2|exact D3]]|].
    intros l' C A V. inversion C as [|? r' ? l'' Cr C']; subst. inversion A as [|? ? Ar A']; subst. inversion V as [|? ? ? ? Vr V']; subst.
    destruct (L1 l'') as (Q1 & Q2).
    { revert C'. clear. intros C'. induction C' as [|x y p q X _ IH]; constructor; [|exact IH]. revert X. apply close_mono, Rmin_l. }
    { exact A'. }
    { exact V'. }
    destruct Cr as (C1 & C2 & C3).
    assert (M2 : Rmin d1 (Rmin d2 d3) <= d2) by (eapply Rle_trans; [apply Rmin_r|apply Rmin_l]).
    assert (M3 : Rmin d1 (Rmin d2 d3) <= d3) by (eapply Rle_trans; [apply Rmin_r|apply Rmin_r]).
    destruct (L2 (r_m r') (r_g r') ltac:(lra) ltac:(lra) Ar eq_refl) as (Q3 & Q4).
    split; [now constructor|]. unfold sec_val, SV in *. cbn [map combine csum fold_right fst snd] in *. unfold csum in *. cbn [fold_right].
    match type of Q2 with Cabs (Csub ?p ?q) < _ => set (S := p) in *; set (S' := q) in * end.
    set (x' := KC t_0 t_in (r_m r') (r_g r') t) in *. set (x := KS _ _ t) in *.
    replace (Csub (Cadd (Cmul (RtoC (r_a r')) x') S) (Cadd (Cmul (RtoC (r_a r)) x) S'))
      with (Cadd (Cadd (Cmul (RtoC (r_a r' - r_a r)) x') (Cmul (RtoC (r_a r)) (Csub x' x))) (Csub S S')) by (Cext; ring).
    assert (X' : Cabs x' <= k + 1).
    { replace x' with (Cadd (Csub x' x) x) by ring. eapply Rle_trans; [apply Cabs_triangle|]. fold k. pose proof (Rmin_l 1 (eps / (4 * (a + 1)))). fold e in H. lra. }
    assert (B1 : Cabs (Cmul (RtoC (r_a r' - r_a r)) x') <= eps / 8).
    { rewrite Cabs_mul, Cabs_RtoC. apply Rle_trans with (d3 * (k + 1)); [apply Rmult_le_compat; [apply Rabs_pos|apply Cabs_nonneg|lra|exact X']|].
      apply Rle_trans with (eps / (8 * (k + 1)) * (k + 1)); [apply Rmult_le_compat_r; [lra|apply Rmin_r]|]. right. field. lra. }
    assert (B2 : Cabs (Cmul (RtoC (r_a r)) (Csub x' x)) <= eps / 4).
    { rewrite Cabs_mul, Cabs_RtoC. fold a. apply Rle_trans with ((a + 1) * e); [apply Rmult_le_compat; [exact A0|apply Cabs_nonneg|lra|lra]|].
      apply Rle_trans with ((a + 1) * (eps / (4 * (a + 1)))); [apply Rmult_le_compat_l; [lra|apply Rmin_r]|]. right. field. lra. }
    eapply Rle_lt_trans; [apply Cabs_triangle|]. eapply Rle_lt_trans; [apply Rplus_le_compat_r, Cabs_triangle|]. lra.
Qed.

Lemma sec_SV : forall l t, Forall (fun r => accepted t_0 t_in (r_m r) (r_g r)) l ->
  sec_val t_0 t_in l t = SV (map (fun r => variant_of (r_m r * r_m r) t_in) l) l t.
Proof.
  intros l t F. unfold sec_val, SV. induction F as [|r l A F IH]; [reflexivity|]. cbn [map combine csum fold_right fst snd]. unfold csum in *. cbn [fold_right].
  now rewrite IH, (KC_corner _ _ _ A).
Qed.

(** ** The two variants differ *)

Lemma wn_re : Wt t_0 t_in 0 = RtoC (Re (Wt t_0 t_in 0)) /\ -1 < Re (Wt t_0 t_in 0) <= 0.
Proof. destruct (wn_real t_0 t_in H0 Hlt) as (A & B). split; [apply C_ext; [reflexivity|exact A]|lra]. Qed.

Lemma variants_differ : forall s t, ~ on_cut (Csub (Csq s) t_0) -> t <> RtoC t_in -> t <> RtoC 0 -> Csq s <> RtoC 0 -> Csq s <> t -> Csq s <> Cconj t ->
  KS VariantA s t <> KS VariantB s t.
Proof.
  intros s t O T Z PZ N1 N2 E. set (p := Csq s) in *.
  destruct (Wt_off_cut t_0 t_in Hlt p O) as (X1 & X2). assert (GN := off_cut_neq_tin t_0 t_in Hlt p O).
  assert (GA : good_pole t_0 t_in VariantA p) by (split; [exact GN|]; split; [now apply off_cut_neq_t0|contradiction]).
  assert (GB : good_pole t_0 t_in VariantB p) by (split; [exact GN|contradiction]).
  assert (AT := Afac_t_neq0 t_0 t_in Hlt t T). assert (A0 := Afac_wn t_0 t_in H0 Hlt).
  destruct (Wt_half_disc t_0 t_in Hlt t T) as (W1 & W2).
  assert (NT : ~ (t = p \/ t = Cconj p)).
  { intros [->|Q]; [now apply N1|]. apply N2. rewrite Q. now rewrite Cconj_invol. }
  assert (DA : Dfac VariantA (Wt t_0 t_in p) (Wt t_0 t_in t) <> RtoC 0) by (rewrite (Dfac_zero_iff t_0 t_in Hlt); assumption).
  assert (DB : Dfac VariantB (Wt t_0 t_in p) (Wt t_0 t_in t) <> RtoC 0) by (rewrite (Dfac_zero_iff t_0 t_in Hlt); assumption).
  assert (NW : Wt t_0 t_in t <> Wt t_0 t_in 0).
  { intros Q. apply Z. apply (Wt_inj t_0 t_in Hlt) in Q; [exact Q|exact T|]. intros Y. apply RtoC_inj in Y. lra. }
  destruct wn_re as (RN & N3 & N4).
  unfold KS, comp_val in E. fold p in E. set (W := Wt t_0 t_in t) in *. set (n := Re (Wt t_0 t_in 0)) in *. assert (RN' := eq_sym RN). rewrite RN in E, NW, A0.
  set (w := Wt t_0 t_in p) in *.
  assert (W0 : w <> RtoC 0) by (intros Q; rewrite Q in X1; cbn in X1; lra).
  assert (W0' : Cconj w <> RtoC 0) by (intros Q; apply (f_equal Re) in Q; cbn in Q; lra).
  assert (QA : Csub W w <> RtoC 0 /\ Csub W (Cconj w) <> RtoC 0).
  { split; intros Q; apply DB; unfold Dfac; rewrite Q; ring. }
  assert (QN : Csub (RtoC n) w <> RtoC 0 /\ Csub (RtoC n) (Cconj w) <> RtoC 0).
  { assert (DN : Dfac VariantB w (RtoC n) <> RtoC 0).
    { rewrite RN'. unfold w. rewrite (Dfac_zero_iff t_0 t_in Hlt) by (try assumption; intros Q; apply RtoC_inj in Q; lra).
      intros [Q|Q]; [now apply PZ|]. apply PZ. apply Cconj_inj. rewrite <- Q. symmetry. apply Cconj_RtoC. }
    split; intros Q; apply DN; unfold Dfac; rewrite Q; ring. }
  destruct QA as (QA1 & QA2). destruct QN as (QN1 & QN2).
  set (x := Re w) in *. set (q := Cnorm2 w). assert (Cw : Cconj w = Csub (RtoC (2 * x)) w) by (unfold x; Cext; ring).
  assert (Pw : Cmul w (Csub (RtoC (2 * x)) w) = RtoC q) by (rewrite <- Cw; unfold q, Cnorm2; Cext; ring).
  assert (q1 : 0 < q < 1).
  { split; [now apply Cnorm2_pos|]. unfold q. rewrite <- Cabs_sq. pose proof (Cabs_nonneg w). nra. }
  set (pA := fun z : C => Cadd (Csub (Cmul (RtoC q) (Cmul z z)) (Cmul (RtoC (2 * x)) z)) (RtoC 1)).
  set (pB := fun z : C => Cadd (Cadd (Cmul z z) (Cmul (RtoC (2 * x)) z)) (RtoC q)).
  set (B := fun z : C => Cmul (Csub z w) (Csub z (Cconj w))).
  assert (EA : forall z, Cmul (RtoC q) (Dfac VariantA w z) = Cmul (B z) (pA z)).
  { intros z. unfold Dfac, B, pA. transitivity (Cmul (Cmul (Csub z w) (Csub z (Cconj w))) (Cmul (Csub (Cmul w z) (RtoC 1)) (Csub (Cmul (Cconj w) z) (RtoC 1)))).
    - rewrite <- Pw, <- Cw. field. split; assumption.
    - f_equal. rewrite <- Pw, Cw. rewrite (RtoC_mul 2 x) at 1. Cext; ring. }
  assert (EB : forall z, Dfac VariantB w z = Cmul (B z) (pB z)).
  { intros z. unfold Dfac, B, pB. rewrite <- Pw, Cw. ring. }
  assert (X : Cmul (Cdivt (Afac W) (Afac (RtoC n))) (Csub (Cmul (Dfac VariantA w (RtoC n)) (Dfac VariantB w W)) (Cmul (Dfac VariantB w (RtoC n)) (Dfac VariantA w W))) = RtoC 0).
  { set (k := Cdivt (Afac W) (Afac (RtoC n))) in *. set (a := Dfac VariantA w (RtoC n)) in *. set (b := Dfac VariantB w (RtoC n)) in *.
    set (a' := Dfac VariantA w W) in *. set (b' := Dfac VariantB w W) in *.
    transitivity (Cmul (Cmul a' b') (Csub (Cmul k (Cdivt a a')) (Cmul k (Cdivt b b')))); [unfold Cdivt; field; split; assumption|].
    rewrite E. ring. }
  set (br := Cadd (Cmul (RtoC (2 * x)) (Csub (Cmul (RtoC n) W) (RtoC 1))) (Cmul (RtoC (q - 1)) (Cadd (RtoC n) W))).
  assert (Y : Cmul (Cmul (Cdivt (Afac W) (Afac (RtoC n))) (Cmul (B (RtoC n)) (B W))) (Cmul (Cmul (Csub (RtoC n) W) (RtoC (1 + q))) br) = RtoC 0).
  { transitivity (Cmul (RtoC q) (Cmul (Cdivt (Afac W) (Afac (RtoC n))) (Csub (Cmul (Dfac VariantA w (RtoC n)) (Dfac VariantB w W)) (Cmul (Dfac VariantB w (RtoC n)) (Dfac VariantA w W))))); [|rewrite X; ring].
    transitivity (Cmul (Cdivt (Afac W) (Afac (RtoC n))) (Csub (Cmul (Cmul (RtoC q) (Dfac VariantA w (RtoC n))) (Dfac VariantB w W)) (Cmul (Dfac VariantB w (RtoC n)) (Cmul (RtoC q) (Dfac VariantA w W))))); [|ring].
    rewrite !EA, !EB. generalize (Cdivt (Afac W) (Afac (RtoC n))) (B (RtoC n)) (B W). intros b1 b2 b3. unfold pA, pB, br.
    replace (RtoC (1 + q)) with (Cadd (RtoC 1) (RtoC q)) by (Cext; ring). replace (RtoC (q - 1)) with (Csub (RtoC q) (RtoC 1)) by (Cext; ring). ring. }
  assert (BR : br <> RtoC 0).
  { intros Q. apply (f_equal Re) in Q. unfold br in Q. cbn in Q. assert (R2 := Cabs_Re W). rewrite Rabs_left1 in R2 by exact W1.
    set (u := Re W) in *. assert (U : -1 <= u <= 0) by lra.
    clearbody n x q u. assert (V1 : n * u - 1 < 0) by nra. assert (V2 : 0 < 2 * x * (n * u - 1)) by nra.
    assert (V3 : 0 <= (q - 1) * (n + u)) by nra. ring_simplify in Q. ring_simplify in V2. ring_simplify in V3. lra. }
  revert Y. apply Cmul_neq0; [apply Cmul_neq0|].
  - apply Cdivt_neq0; assumption.
  - unfold B. apply Cmul_neq0; apply Cmul_neq0; assumption.
  - apply Cmul_neq0; [|exact BR]. apply Cmul_neq0.
    + intros Q. apply NW. symmetry. now apply Csub_eq.
    + intros Q. apply RtoC_inj in Q. lra.
Qed.

End Sector.
