(** C72: away from the finitely many real t where a model fails, form factors and cross-sections are bounded and fall off.
    C24 and C67 are about large t only. *)
From Coq Require Import String Reals Bool Arith List Lra Lia Classical_Prop.
From Verif Require Import PyBase CNum UAMaps UAComponents PyExpr UAModels Nucleon CrossSections CommonUtils
  ExprProofs KaonProofs SectorProofs KaonSpec NucleonCache NucleonProofs NucleonView NucleonSpec Asymptotics AnalyticModels
  PropsKaon PropsKaon2 PropsNucleon PropsNucleon2 PropsNucleon3 PropsAnalytic PropsAsymptotics PropsBestFit.
From Verif Require PropsCross.
Import ListNotations.
Local Open Scope R_scope.
Local Open Scope py_scope.
Local Open Scope string_scope.
Local Open Scope list_scope.

#[local] Arguments String.append : simpl never.

(** ** Specification *)

(** A real t, not negative, where F does not return. *)
Definition fails (F : C -> Res C) (x : R) : Prop := 0 <= x /\ forall v, F (RtoC x) <> Ok v.

(** The distance to every such t is at least d. *)
Definition apart (d : R) (F : C -> Res C) (x : R) : Prop := forall y, fails F y -> d <= Rabs (y - x).

(** F fails at no more than N real t. At every fixed distance from these it is at most K/(1+t)^n. *)
Definition tame (N n : nat) (F : C -> Res C) : Prop :=
  (exists l, (length l <= N)%nat /\ forall x, fails F x -> In x l) /\
  forall d, 0 < d -> exists K, 0 < K /\
    forall x, 0 <= x -> apart d F x -> exists v, F (RtoC x) = Ok v /\ Cabs v * (1 + x) ^ n <= K.

(** The same for a cross-section, whose values are real, at and above its threshold. Here F is the form factor. *)
Definition tame_above (threshold : R) (n : nat) (F sigma : C -> Res C) : Prop :=
  forall d, 0 < d -> exists K, 0 < K /\
    forall x, threshold <= x -> apart d F x -> exists v, sigma (RtoC x) = Ok (RtoC v) /\ Rabs v * (1 + x) ^ n <= K.

(** ** Compactness *)

Lemma Cabs_cpower : forall t n, Cabs (cpower t n) = Cabs t ^ n.
Proof.
  intros t n. induction n as [|n IH]; cbn [cpower pow]; [rewrite Cabs_RtoC; apply Rabs_R1|]. now rewrite Cabs_mul, IH.
Qed.

Lemma bounded_on : forall n F L, settles n F L ->
  (forall x v, 0 <= x -> F (RtoC x) = Ok v -> tends_within from_above F (RtoC x) v) ->
  forall d, 0 < d -> exists K, 0 < K /\
    forall x, 0 <= x -> apart d F x -> exists v, F (RtoC x) = Ok v /\ Cabs v * (1 + x) ^ n <= K.
Proof.
  intros n F L (K & T & K0 & T0 & S) CT d D. set (T1 := Rmax T 1). assert (T1a := Rmax_l T 1). assert (T1b := Rmax_r T 1). fold T1 in T1a, T1b.
  destruct (interval_bound 0 T1 (fun x c => apart d F x -> exists v, F (RtoC x) = Ok v /\ Cabs v <= / c)) as (c & C0 & H).
  { intros y c c' (P & Q) H A. destruct (H A) as (v & V & B). exists v. split; [exact V|]. apply Rle_trans with (/ c); [exact B|]. apply Rinv_le_contravar; lra. }
  { intros y (Y & _). destruct (classic (exists v, F (RtoC y) = Ok v)) as [(v & V)|NV].
    - destruct (CT y v Y V 1 ltac:(lra)) as (e & E & Q). assert (A := Cabs_nonneg v). set (e2 := / (Cabs v + 1)). assert (E2 : 0 < e2) by (apply Rinv_0_lt_compat; lra).
      exists (Rmin e e2). split; [now apply Rmin_pos|]. intros y' (Y' & _) N _. destruct (Q (RtoC y')) as (v' & V' & B).
      + split; cbn; lra.
      + replace (Csub (RtoC y') (RtoC y)) with (RtoC (y' - y)) by (Cext; ring). rewrite Cabs_RtoC. assert (X := Rmin_l e e2). lra.
      + exists v'. split; [exact V'|]. apply Rle_trans with (/ e2).
        * unfold e2. rewrite Rinv_inv. replace v' with (Cadd (Csub v' v) v) by (Cext; ring). eapply Rle_trans; [apply Cabs_triangle|lra].
        * apply Rinv_le_contravar; [now apply Rmin_pos|apply Rmin_r].
    - exists d. split; [exact D|]. intros y' _ N A. exfalso. assert (X : d <= Rabs (y - y')).
      { apply A. split; [exact Y|]. intros v V. apply NV. now exists v. }
      rewrite Rabs_minus_sym in X. lra. }
  assert (KL : 0 <= K + Rabs L) by (assert (X := Rabs_pos L); lra). assert (P2 : 0 < 2 ^ n) by (apply pow_lt; lra).
  assert (IC : 0 < / c) by (now apply Rinv_0_lt_compat). assert (PT : 0 < (1 + T1) ^ n) by (apply pow_lt; lra).
  exists (/ c * (1 + T1) ^ n + 2 ^ n * (K + Rabs L)). split; [assert (0 < / c * (1 + T1) ^ n) by (now apply Rmult_lt_0_compat); assert (0 <= 2 ^ n * (K + Rabs L)) by (apply Rmult_le_pos; lra); lra|].
  intros x X A. destruct (Rle_dec x T1) as [XT|XT].
  - destruct (H x ltac:(lra) A) as (v & V & B). exists v. split; [exact V|].
    assert (Q : (1 + x) ^ n <= (1 + T1) ^ n) by (apply pow_incr; lra). assert (Q0 : 0 <= (1 + x) ^ n) by (apply pow_le; lra).
    assert (W : Cabs v * (1 + x) ^ n <= / c * (1 + T1) ^ n) by (apply Rmult_le_compat; [apply Cabs_nonneg|exact Q0|exact B|exact Q]).
    assert (0 <= 2 ^ n * (K + Rabs L)) by (apply Rmult_le_pos; lra). lra.
  - destruct (S (RtoC x)) as (v & V & B); [cbn; lra|rewrite Cabs_RtoC, Rabs_pos_eq by lra; lra|]. exists v. split; [exact V|].
    rewrite Cabs_RtoC, (Rabs_pos_eq x) in B by lra.
    assert (SQ : 1 <= sqrt x) by (rewrite <- sqrt_1; apply sqrt_le_1; lra).
    assert (B' : Cabs (cpower (RtoC x) n * v - RtoC L)%C <= K).
    { eapply Rle_trans; [exact B|]. unfold Rdiv. rewrite <- (Rmult_1_r K) at 2. apply Rmult_le_compat_l; [exact K0|]. rewrite <- Rinv_1. apply Rinv_le_contravar; lra. }
    assert (M : Cabs v * x ^ n <= K + Rabs L).
    { assert (Z : Cabs (cpower (RtoC x) n * v)%C = Cabs v * x ^ n) by (rewrite Cabs_mul, Cabs_cpower, Cabs_RtoC, Rabs_pos_eq by lra; ring).
      rewrite <- Z. replace (cpower (RtoC x) n * v)%C with (Cadd (cpower (RtoC x) n * v - RtoC L)%C (RtoC L)) by ring.
      eapply Rle_trans; [apply Cabs_triangle|]. rewrite Cabs_RtoC. lra. }
    assert (Q : (1 + x) ^ n <= 2 ^ n * x ^ n) by (rewrite <- Rpow_mult_distr; apply pow_incr; lra).
    assert (Cabs v * (1 + x) ^ n <= Cabs v * (2 ^ n * x ^ n)) by (apply Rmult_le_compat_l; [apply Cabs_nonneg|exact Q]).
    assert (2 ^ n * (Cabs v * x ^ n) <= 2 ^ n * (K + Rabs L)) by (apply Rmult_le_compat_l; lra).
    assert (0 < / c * (1 + T1) ^ n) by (now apply Rmult_lt_0_compat). nra.
Qed.

(** ** Where the models fail *)

Definition poles (P : string -> R) (names : list string) : list R :=
  map (fun n => Re (resonance_pole (P ("mass_" ++ n)%string) (P ("decay_rate_" ++ n)%string))) names.

Lemma resonance_real : forall P names x, at_resonance P names (RtoC x) -> In x (poles P names).
Proof.
  intros P names x (n & I & E). unfold poles. apply in_map_iff. exists n. split; [|exact I].
  destruct E as [E|E]; apply (f_equal Re) in E; cbn in E |- *; lra.
Qed.

Lemma kaon_ordered : forall k ch kw m t v, Kaon_init (kaon_class k) ch kw = Ok m -> Kaon_call m t = Ok v ->
  kwval kw "t_0_isoscalar" < kwval kw "t_in_isoscalar" /\ kwval kw "t_0_isovector" < kwval kw "t_in_isovector".
Proof.
  intros k ch kw m t v I E. destruct (Kaon_valid _ _ _ _ I) as (V1 & V2). destruct (spec_sector_nonempty (kwval kw) k) as (N1 & N2).
  destruct (Kaon_call_parts _ _ _ _ _ _ I E) as (_ & x & y & X & Y).
  split; [exact (proj2 (sector_somewhere _ _ _ _ _ V1 N1 X))|exact (proj2 (sector_somewhere _ _ _ _ _ V2 N2 Y))].
Qed.

Lemma kaon_fails : forall k ch kw m x, Kaon_init (kaon_class k) ch kw = Ok m -> returns_somewhere (Kaon_call m) -> fails (Kaon_call m) x ->
  In x (kwval kw "t_in_isoscalar" :: kwval kw "t_in_isovector" :: poles (kwval kw) (isoscalar_resonances k ++ isovector_resonances k)).
Proof.
  intros k ch kw m x I (t & v & E) (X & NV). destruct (kaon_ordered _ _ _ _ _ _ I E) as (L1 & L2).
  destruct (C18_kaon_failure_set k ch kw m (RtoC x) I L1 L2) as (A & B & [(w & W)|[Q|Q]]); [now apply NV in W|apply A in Q; cbn in Q; lra|].
  apply B in Q as (_ & [Q|[Q|Q]]); [left; now apply RtoC_inj in Q|right; left; now apply RtoC_inj in Q|]. right; right. now apply resonance_real.
Qed.

(** ** Form factors *)

Theorem C72_single : forall t_0 t_in a m g s, SingleComponentModel_init t_0 t_in a m g = Ok s ->
  returns_somewhere (SingleComponentModel_call s) -> tame 2 1 (SingleComponentModel_call s).
Proof.
  intros t_0 t_in a m g s I R. split.
  - destruct R as (t & v & E). assert (V := Single_valid _ _ _ _ _ _ I). rewrite (Single_view _ _ _ _ _ _ _ I) in E. destruct (Rlt_dec (Re t) 0); [discriminate|].
    destruct (sector_somewhere _ _ _ _ _ V ltac:(discriminate) E) as (_ & L).
    exists [t_in; Re (resonance_pole m g)]. split; [cbn; lia|]. intros x (X & NV).
    destruct (C18_single_failure_set _ _ _ _ _ _ (RtoC x) I L) as (A & B & [(w & W)|[Q|Q]]); [now apply NV in W|apply A in Q; cbn in Q; lra|].
    apply B in Q as (_ & [Q|[Q|Q]]); [left; now apply RtoC_inj in Q|right; left; now rewrite <- Q|right; left].
    apply (f_equal Re) in Q. cbn in Q |- *. lra.
  - destruct C67_kaon as (weight & W & _). apply (bounded_on 1 _ _ (proj2 (proj2 (W _ _ _ _ _ _ I R)))).
    intros x v _ E. exact (proj1 (C46_single_boundary _ _ _ _ _ _ _ _ I E)).
Qed.
Print Assumptions C72_single.

Theorem C72_kaon : forall k charged kw m, Kaon_init (kaon_class k) charged kw = Ok m -> returns_somewhere (Kaon_call m) ->
  tame (2 + length (isoscalar_resonances k ++ isovector_resonances k)) 1 (Kaon_call m).
Proof.
  intros k ch kw m I R. split.
  - eexists. split; [|intros x X; exact (kaon_fails k ch kw m x I R X)]. cbn [length]. unfold poles. rewrite map_length. lia.
  - destruct C67_kaon as (weight & _ & W). specialize (W k ch kw m I R). cbv zeta in W. apply (bounded_on 1 _ _ W).
    intros x v _ E. exact (proj1 (C46_kaon_boundary _ _ _ _ _ _ I E)).
Qed.
Print Assumptions C72_kaon.

Theorem C72_nucleon : forall k kw, (exists proton, returns_somewhere (evaluate k proton true kw)) ->
  forall proton electric, tame (4 + length (isoscalar_mesons ++ isovector_mesons)) 2 (evaluate k proton electric kw).
Proof.
  intros k kw R p e. destruct (C67_nucleon k kw R) as (Ds & Dv & Ps & Pv & S). specialize (S p).
  assert (S' : exists L, settles 2 (evaluate k p e kw) L) by (destruct e; [exists (Ds + sign p * Dv + (Ps + sign p * Pv) / (4 * kwval kw "nucleon_mass" ^ 2)); exact (proj2 S)|exists (Ds + sign p * Dv); exact (proj1 S)]).
  destruct S' as (L & S'). split.
  - destruct S' as (K & T & K0 & T0 & S'). destruct (S' (RtoC T)) as (v & V & _); [cbn; lra|rewrite Cabs_RtoC, Rabs_pos_eq by lra; lra|].
    assert (V2 := V). apply evaluate_Ok in V2 as (m0 & _ & ND & RT & _ & _).
    destruct (Nucleon_init (nucleon_class k) p e kw) as [(m & c)|err] eqn:I; [|unfold evaluate in V; rewrite I in V; discriminate].
    exists (kwval kw "t_in_dirac_isoscalar" :: kwval kw "t_in_dirac_isovector" :: kwval kw "t_in_pauli_isoscalar" :: kwval kw "t_in_pauli_isovector"
      :: poles (kwval kw) (isoscalar_mesons ++ isovector_mesons)).
    split; [cbn [length]; unfold poles; rewrite map_length; lia|]. intros x (X & NV).
    destruct (evaluate k p e kw (RtoC x)) as [w|err] eqn:E; [exfalso; exact (NV w eq_refl)|].
    destruct (C18_nucleon_failure_set k p e kw m c (RtoC x) I ND) as (_ & B). destruct (B X) as (B1 & B2). assert (Z := B2 _ E). subst err.
    destruct (C18_nucleon_failure_set k p e kw m c (RtoC T) I ND) as (_ & B'). destruct (B' RT) as (B1' & _).
    apply B1 in E as [E|[E|[E|[E|[E|E]]]]].
    + left. now apply RtoC_inj in E.
    + right; left. now apply RtoC_inj in E.
    + right; right; left. now apply RtoC_inj in E.
    + right; right; right; left. now apply RtoC_inj in E.
    + right; right; right; right. now apply resonance_real.
    + exfalso. assert (Q : evaluate k p e kw (RtoC T) = Err ZeroDivisionError) by (apply B1'; right; right; right; right; right; exact E). clear - V Q. congruence.
  - apply (bounded_on 2 _ _ S'). intros x v _ E. exact (proj1 (C46_nucleon_boundary _ _ _ _ _ _ E)).
Qed.
Print Assumptions C72_nucleon.

(** ** Cross-sections *)

Lemma beta_le_1 : forall m x, 0 < x -> 4 * m^2 <= x -> 0 <= 1 - 4 * m^2 / x <= 1.
Proof.
  intros m x X T. assert (P := pow2_ge_0 m). split.
  - apply Rmult_le_reg_r with x; [exact X|]. replace ((1 - 4 * m^2 / x) * x) with (x - 4 * m^2) by (field; lra). lra.
  - assert (0 <= 4 * m^2 / x) by (apply Rmult_le_pos; [lra|left; now apply Rinv_0_lt_compat]). lra.
Qed.
Lemma sqrt_below_1 : forall b, 0 <= b <= 1 -> 0 <= sqrt b <= 1.
Proof. intros b (P & Q). split; [apply sqrt_pos|]. rewrite <- sqrt_1. now apply sqrt_le_1; lra. Qed.

(** 1/x for x at least 4 m^2. *)
Lemma inv_over : forall m x, m <> 0 -> 4 * m^2 <= x -> 0 < x /\ (1 + x) * / x <= 1 + / (4 * m^2).
Proof.
  intros m x N T. assert (P : 0 < m^2) by (now apply PropsCross.sq_pos). assert (X : 0 < x) by lra. split; [exact X|].
  replace ((1 + x) * / x) with (1 + / x) by (field; lra). assert (/ x <= / (4 * m^2)) by (apply Rinv_le_contravar; lra). lra.
Qed.

Theorem C72_scalar_cross_section : forall mass alpha hc_squared N F, mass <> 0 -> tame N 1 F ->
  tame_above (4 * mass^2) 3 F (ScalarCS_call (ScalarCS_init mass alpha hc_squared) F).
Proof.
  intros m alpha hc N F M (_ & B) d D. destruct (B d D) as (K & K0 & H). set (c := Rabs (hc * PI * alpha^2 / 3)). assert (c0 : 0 <= c) by apply Rabs_pos.
  set (q := 1 + / (4 * m^2)). assert (P : 0 < m^2) by (now apply PropsCross.sq_pos). assert (Q0 : 0 < q) by (unfold q; assert (0 < / (4 * m^2)) by (apply Rinv_0_lt_compat; lra); lra).
  exists (c * q * K^2 + 1). assert (0 <= c * q * K^2) by (apply Rmult_le_pos; [apply Rmult_le_pos; lra|apply pow2_ge_0]). split; [lra|].
  intros x T A. destruct (inv_over m x M T) as (X & IX). fold q in IX. destruct (H x ltac:(lra) A) as (v & V & Bv).
  exists (PropsCross.sigma_scalar m alpha hc x (Cabs v)). split; [now apply PropsCross.C29_formula_above_threshold|].
  destruct (beta_le_1 m x X T) as (b0 & b1). destruct (sqrt_below_1 _ (conj b0 b1)) as (s0 & s1). assert (v0 := Cabs_nonneg v).
  replace (PropsCross.sigma_scalar m alpha hc x (Cabs v)) with ((hc * PI * alpha^2 / 3) * (/ x * (PropsCross.pow32 (1 - 4 * m^2 / x) * (Cabs v)^2))) by (unfold PropsCross.sigma_scalar; field; lra).
  rewrite Rabs_mult. fold c. unfold PropsCross.pow32. set (b := 1 - 4 * m^2 / x) in *.
  assert (bs : 0 <= b * sqrt b <= 1) by (split; [now apply Rmult_le_pos|]; rewrite <- (Rmult_1_r 1); now apply Rmult_le_compat).
  assert (ix : 0 < / x) by (now apply Rinv_0_lt_compat).
  rewrite Rabs_pos_eq by (apply Rmult_le_pos; [lra|apply Rmult_le_pos; [lra|apply pow2_ge_0]]).
  replace (c * (/ x * (b * sqrt b * (Cabs v)^2)) * (1 + x)^3) with (c * (((1 + x) * / x) * ((b * sqrt b) * (Cabs v * (1 + x)^1)^2))) by ring.
  assert (W0 : 0 <= Cabs v * (1 + x)^1) by (apply Rmult_le_pos; [exact v0|rewrite pow_1; lra]).
  assert (W : (Cabs v * (1 + x)^1)^2 <= K^2) by (apply pow_incr; lra).
  assert (W1 : (b * sqrt b) * (Cabs v * (1 + x)^1)^2 <= K^2) by (rewrite <- (Rmult_1_l (K^2)); apply Rmult_le_compat; [lra|apply pow2_ge_0|lra|exact W]).
  assert (W2 : ((1 + x) * / x) * ((b * sqrt b) * (Cabs v * (1 + x)^1)^2) <= q * K^2).
  { apply Rmult_le_compat; [apply Rmult_le_pos; lra|apply Rmult_le_pos; [lra|apply pow2_ge_0]|exact IX|exact W1]. }
  apply Rle_trans with (c * (q * K^2)); [now apply Rmult_le_compat_l|lra].
Qed.
Print Assumptions C72_scalar_cross_section.

Theorem C72_nucleon_cross_section : forall k proton electric kw m c mass alpha hc_squared, mass <> 0 ->
  Nucleon_init (nucleon_class k) proton electric kw = Ok (m, c) -> (exists p, returns_somewhere (evaluate k p true kw)) ->
  tame_above (4 * mass^2) 5 (evaluate k proton true kw)
    (fun t => fst (NucleonCS_call FFModel ff_set_electric ff_call (NucleonCS_init mass alpha hc_squared) (FFNucleon m c) t)).
Proof.
  intros k p e kw m c mass alpha hc M I R d D. destruct (C72_nucleon k kw R p true) as (_ & BE). destruct (C72_nucleon k kw R p false) as (_ & BM).
  assert (AP : forall x, apart d (evaluate k p true kw) x -> apart d (evaluate k p false kw) x).
  { intros x A y (Y & F). apply A. split; [exact Y|]. intros v V.
    assert (V2 := V). apply evaluate_Ok in V2 as (m0 & _ & ND & _).
    destruct (evaluate k p false kw (RtoC y)) as [w|err] eqn:E; [exfalso; exact (F w eq_refl)|].
    destruct (Nucleon_init_flags _ _ _ _ _ _ p true I) as (I1 & _). destruct (Nucleon_init_flags _ _ _ _ _ _ p false I) as (I2 & _).
    destruct (C18_nucleon_failure_set k p true kw _ _ (RtoC y) I1 ND) as (_ & B1). destruct (B1 Y) as (B1' & _).
    destruct (C18_nucleon_failure_set k p false kw _ _ (RtoC y) I2 ND) as (_ & B2). destruct (B2 Y) as (B2' & B2'').
    assert (Z := B2'' _ E). subst err. assert (Q : evaluate k p true kw (RtoC y) = Err ZeroDivisionError).
    { apply B1'. apply B2' in E. destruct E as [E|[E|[E|[E|[E|[E|(E & _)]]]]]]; [now left|right; now left|do 2 right; now left|do 3 right; now left|do 4 right; now left|do 5 right; now left|discriminate]. }
    clear - V Q. congruence. }
  destruct (BE d D) as (K1 & K10 & H1). destruct (BM d D) as (K2 & K20 & H2).
  set (k0 := Rabs (4 * PI * alpha^2 * hc / 3)). assert (k00 : 0 <= k0) by apply Rabs_pos. set (q := 1 + / (4 * mass^2)).
  assert (P : 0 < mass^2) by (now apply PropsCross.sq_pos). assert (Q0 : 0 < q) by (unfold q; assert (0 < / (4 * mass^2)) by (apply Rinv_0_lt_compat; lra); lra).
  assert (KK : 0 <= K2^2 + K1^2) by (assert (X1 := pow2_ge_0 K1); assert (X2 := pow2_ge_0 K2); lra).
  exists (k0 * q * (K2^2 + K1^2) + 1). assert (0 <= k0 * q * (K2^2 + K1^2)) by (apply Rmult_le_pos; [apply Rmult_le_pos; lra|exact KK]). split; [lra|].
  intros x T A. destruct (inv_over mass x M T) as (X & IX). fold q in IX.
  destruct (H1 x ltac:(lra) A) as (ve & Ve & Be). destruct (H2 x ltac:(lra) (AP x A)) as (vm & Vm & Bm).
  exists (PropsCross.sigma_nucleon mass alpha hc x (Cabs ve) (Cabs vm)).
  split; [apply PropsCross.C30_formula; [now apply (nucleon_evaluations _ _ _ _ _ _ _ _ _ I)|lra|lra]|].
  destruct (beta_le_1 mass x X T) as (b0 & b1). destruct (sqrt_below_1 _ (conj b0 b1)) as (s0 & s1). assert (e0 := Cabs_nonneg ve). assert (m0 := Cabs_nonneg vm).
  replace (PropsCross.sigma_nucleon mass alpha hc x (Cabs ve) (Cabs vm)) with ((4 * PI * alpha^2 * hc / 3) * (/ x * (sqrt (1 - 4 * mass^2 / x) * ((Cabs vm)^2 + (1 - (1 - 4 * mass^2 / x)) / 2 * (Cabs ve)^2)))) by (unfold PropsCross.sigma_nucleon; field; lra).
  rewrite Rabs_mult. fold k0. set (b := 1 - 4 * mass^2 / x) in *.
  assert (ix : 0 < / x) by (now apply Rinv_0_lt_compat). assert (u0 := pow2_ge_0 (Cabs vm)). assert (w0 := pow2_ge_0 (Cabs ve)).
  assert (h : 0 <= (1 - b) / 2 <= 1) by lra. assert (hw : 0 <= (1 - b) / 2 * (Cabs ve)^2 <= (Cabs ve)^2) by nra.
  rewrite Rabs_pos_eq by (apply Rmult_le_pos; [lra|apply Rmult_le_pos; lra]).
  replace (k0 * (/ x * (sqrt b * ((Cabs vm)^2 + (1 - b) / 2 * (Cabs ve)^2))) * (1 + x)^5) with
    (k0 * (((1 + x) * / x) * (sqrt b * (((Cabs vm)^2 + (1 - b) / 2 * (Cabs ve)^2) * ((1 + x)^2)^2)))) by ring.
  assert (y0 : 0 <= ((1 + x)^2)^2) by apply pow2_ge_0. assert (z0 := pow2_ge_0 (1 + x)).
  assert (W : ((Cabs vm)^2 + (1 - b) / 2 * (Cabs ve)^2) * ((1 + x)^2)^2 <= K2^2 + K1^2).
  { apply Rle_trans with ((Cabs vm * (1 + x)^2)^2 + (Cabs ve * (1 + x)^2)^2).
    - rewrite !Rpow_mult_distr, <- Rmult_plus_distr_r. apply Rmult_le_compat_r; [exact y0|lra].
    - apply Rplus_le_compat; apply pow_incr; (split; [now apply Rmult_le_pos|assumption]). }
  assert (W1 : sqrt b * (((Cabs vm)^2 + (1 - b) / 2 * (Cabs ve)^2) * ((1 + x)^2)^2) <= K2^2 + K1^2).
  { rewrite <- (Rmult_1_l (K2^2 + K1^2)). apply Rmult_le_compat; [exact s0|apply Rmult_le_pos; lra|exact s1|exact W]. }
  assert (W2 : ((1 + x) * / x) * (sqrt b * (((Cabs vm)^2 + (1 - b) / 2 * (Cabs ve)^2) * ((1 + x)^2)^2)) <= q * (K2^2 + K1^2)).
  { apply Rmult_le_compat; [apply Rmult_le_pos; lra|apply Rmult_le_pos; [exact s0|apply Rmult_le_pos; lra]|exact IX|exact W1]. }
  apply Rle_trans with (k0 * (q * (K2^2 + K1^2))); [now apply Rmult_le_compat_l|lra].
Qed.
Print Assumptions C72_nucleon_cross_section.

(** The cross-section of a kaon model: 12 real t at most are excluded. *)
Example C72_instance : forall k ch alpha hc, exists m, Kaon_init (kaon_class k) ch (demo_kw (1/7) 0 k) = Ok m /\
  tame 12 1 (Kaon_call m) /\ tame_above 1 3 (Kaon_call m) (ScalarCS_call (ScalarCS_init (1/2) alpha hc) (Kaon_call m)).
Proof.
  intros k ch alpha hc. destruct (demo_accepted (1/7) 0 k ch) as (m & H). exists m. split; [exact H|].
  assert (B : kwval (demo_kw (1/7) 0 k) "t_0_isoscalar" = 1 /\ kwval (demo_kw (1/7) 0 k) "t_in_isoscalar" = 2 /\
    kwval (demo_kw (1/7) 0 k) "t_0_isovector" = 1 /\ kwval (demo_kw (1/7) 0 k) "t_in_isovector" = 2).
  { rewrite !demo_kwval by (destruct k; inkw). repeat split; reflexivity. }
  assert (Q : returns_somewhere (Kaon_call m)) by (eexists; eexists; apply (C15_kaon_returns_at_zero k ch _ m H); lra).
  assert (T := C72_kaon k ch _ m H Q). split.
  - destruct T as ((l & L & N) & T). split; [|exact T]. exists l. split; [|exact N]. eapply Nat.le_trans; [exact L|]. destruct k; cbn; lia.
  - assert (X := C72_scalar_cross_section (1/2) alpha hc _ _ ltac:(lra) T). replace (4 * (1/2)^2) with 1 in X by field. exact X.
Qed.

Example C72_instance_nucleon : forall k p e alpha hc, exists m c,
  Nucleon_init (nucleon_class k) p e (demo_nucleon (1/2)) = Ok (m, c) /\ tame 13 2 (evaluate k p e (demo_nucleon (1/2))) /\
  tame_above 4 5 (evaluate k p true (demo_nucleon (1/2)))
    (fun t => fst (NucleonCS_call FFModel ff_set_electric ff_call (NucleonCS_init 1 alpha hc) (FFNucleon m c) t)).
Proof.
  intros k p e alpha hc. destruct (nucleon_instance k true true) as (_ & v & _ & _ & E & _).
  assert (R : exists p, returns_somewhere (evaluate k p true (demo_nucleon (1/2)))) by (exists true; eexists; eexists; exact E).
  destruct (demo_nucleon_accepted k p e (1/2) ltac:(lra)) as ((m & c) & I). exists m, c. split; [exact I|]. split; [exact (C72_nucleon k _ R p e)|].
  assert (X := C72_nucleon_cross_section k p e _ m c 1 alpha hc ltac:(lra) I R). replace (4 * 1^2) with 4 in X by ring. exact X.
Qed.

(** ** The half plane *)

(** The whole closed right half plane: the same bound at a distance d from all failing t, real or not. *)
Definition tame_half_plane (n : nat) (F : C -> Res C) : Prop :=
  forall d, 0 < d -> exists K, 0 < K /\ forall t, 0 <= Re t ->
    (forall u, 0 <= Re u -> (forall v, F u <> Ok v) -> d <= Cabs (Csub u t)) ->
    exists v, F t = Ok v /\ Cabs v * (1 + Cabs t) ^ n <= K.

Lemma Cabs_i : Cabs (mkC 0 1) = 1.
Proof.
  assert (X : Cabs (mkC 0 1) * Cabs (mkC 0 1) = 1).
  { rewrite <- Cabs_mul. replace (Cmul (mkC 0 1) (mkC 0 1)) with (RtoC (-1)) by (Cext; ring). rewrite Cabs_RtoC, Rabs_left; lra. }
  assert (P := Cabs_nonneg (mkC 0 1)). nra.
Qed.

Lemma Im_le_Cabs : forall t, Rabs (Im t) <= Cabs t.
Proof.
  intros t. assert (X := Cabs_Re (Cmul (mkC 0 1) t)). rewrite Cabs_mul in X. replace (Cabs (mkC 0 1)) with 1 in X.
  - cbn in X. replace (0 * Re t - 1 * Im t) with (- Im t) in X by ring. rewrite Rabs_Ropp, Rmult_1_l in X. exact X.
  - symmetry. exact Cabs_i.
Qed.

Lemma near_complex : forall t u e, Rabs (Re u - Re t) < e / 2 -> Rabs (Im u - Im t) < e / 2 -> Cabs (Csub u t) < e.
Proof.
  intros t u e X Y. replace (Csub u t) with (Cadd (RtoC (Re u - Re t)) (Cmul (mkC 0 1) (RtoC (Im u - Im t)))) by (Cext; ring).
  eapply Rle_lt_trans; [apply Cabs_triangle|]. rewrite Cabs_mul, !Cabs_RtoC. replace (Cabs (mkC 0 1)) with 1.
  - lra.
  - symmetry. exact Cabs_i.
Qed.

Lemma upper_bounded : forall n F L, settles n F L ->
  (forall t v, 0 <= Re t -> 0 <= Im t -> F t = Ok v -> tends_within from_above F t v) ->
  forall d, 0 < d -> exists K, 0 < K /\ forall t, 0 <= Re t -> 0 <= Im t ->
    (forall u, 0 <= Re u -> (forall v, F u <> Ok v) -> d <= Cabs (Csub u t)) ->
    exists v, F t = Ok v /\ Cabs v * (1 + Cabs t) ^ n <= K.
Proof.
  intros n F L (K & T & K0 & T0 & S) CT d D. set (T1 := Rmax T 1). assert (T1a := Rmax_l T 1). assert (T1b := Rmax_r T 1). fold T1 in T1a, T1b.
  set (off := fun t => forall u, 0 <= Re u -> (forall v, F u <> Ok v) -> d <= Cabs (Csub u t)).
  destruct (box_bound [(0, T1); (0, T1)] (fun l c => forall x y, l = [x; y] -> off (mkC x y) -> exists v, F (mkC x y) = Ok v /\ Cabs v <= / c)) as (c & C0 & H).
  { intros l c c' (P & Q) H x y E A. destruct (H x y E A) as (v & V & B). exists v. split; [exact V|]. apply Rle_trans with (/ c); [exact B|]. apply Rinv_le_contravar; lra. }
  { intros l B. inversion B as [|? x ? l1 Bx B1]; subst. inversion B1 as [|? y ? l2 By B2]; subst. inversion B2; subst. cbn [fst snd] in Bx, By.
    assert (NEAR : forall e l, Forall2 (fun u v => Rabs (v - u) < e) [x; y] l -> forall x' y', l = [x'; y'] -> Rabs (x' - x) < e /\ Rabs (y' - y) < e).
    { intros e l N x' y' E. subst l. inversion N as [|? ? ? ? N1 N2]; subst. inversion N2; subst. tauto. }
    destruct (classic (exists v, F (mkC x y) = Ok v)) as [(v & V)|NV].
    - destruct (CT (mkC x y) v ltac:(cbn; lra) ltac:(cbn; lra) V 1 ltac:(lra)) as (e & E & Q). assert (A := Cabs_nonneg v). set (e2 := / (Cabs v + 1)). assert (E2 : 0 < e2) by (apply Rinv_0_lt_compat; lra).
      exists (Rmin (e / 2) e2). split; [apply Rmin_pos; lra|]. intros l IB N x' y' El _. destruct (NEAR _ _ N x' y' El) as (N1 & N2). subst l.
      inversion IB as [|? ? ? ? Ix IB1]; subst. inversion IB1 as [|? ? ? ? Iy _]; subst. cbn [fst snd] in Ix, Iy. assert (X := Rmin_l (e / 2) e2).
      destruct (Q (mkC x' y')) as (v' & V' & B').
      + split; cbn; lra.
      + apply near_complex; cbn; lra.
      + exists v'. split; [exact V'|]. apply Rle_trans with (/ e2).
        * unfold e2. rewrite Rinv_inv. replace v' with (Cadd (Csub v' v) v) by (Cext; ring). eapply Rle_trans; [apply Cabs_triangle|lra].
        * apply Rinv_le_contravar; [apply Rmin_pos; lra|apply Rmin_r].
    - exists (d / 2). split; [lra|]. intros l _ N x' y' El A. destruct (NEAR _ _ N x' y' El) as (N1 & N2). exfalso.
      assert (X : d <= Cabs (Csub (mkC x y) (mkC x' y'))) by (apply A; [cbn; lra|intros v V; apply NV; now exists v]).
      assert (Y : Cabs (Csub (mkC x y) (mkC x' y')) < d) by (apply near_complex; cbn [Re Im]; rewrite Rabs_minus_sym; assumption). lra. }
  assert (KL : 0 <= K + Rabs L) by (assert (X := Rabs_pos L); lra). assert (P2 : 0 < 2 ^ n) by (apply pow_lt; lra).
  assert (IC : 0 < / c) by (now apply Rinv_0_lt_compat). assert (PT : 0 < (1 + T1) ^ n) by (apply pow_lt; lra).
  exists (/ c * (1 + T1) ^ n + 2 ^ n * (K + Rabs L)). split; [assert (0 < / c * (1 + T1) ^ n) by (now apply Rmult_lt_0_compat); assert (0 <= 2 ^ n * (K + Rabs L)) by (apply Rmult_le_pos; lra); lra|].
  intros t R I A. assert (t0 := Cabs_nonneg t). destruct (Rle_dec (Cabs t) T1) as [XT|XT].
  - assert (Et : t = mkC (Re t) (Im t)) by (destruct t; reflexivity).
    assert (Xr := Cabs_Re t). assert (Xi := Im_le_Cabs t). rewrite Rabs_pos_eq in Xr, Xi by assumption.
    assert (IB : in_box [(0, T1); (0, T1)] [Re t; Im t]) by (apply Forall2_cons; [cbn; lra|apply Forall2_cons; [cbn; lra|apply Forall2_nil]]).
    assert (HH := H _ IB (Re t) (Im t) eq_refl). rewrite <- Et in HH. destruct (HH A) as (v & V & B). exists v. split; [exact V|].
    assert (Q : (1 + Cabs t) ^ n <= (1 + T1) ^ n) by (apply pow_incr; lra). assert (Q0 : 0 <= (1 + Cabs t) ^ n) by (apply pow_le; lra).
    assert (W : Cabs v * (1 + Cabs t) ^ n <= / c * (1 + T1) ^ n) by (apply Rmult_le_compat; [apply Cabs_nonneg|exact Q0|exact B|exact Q]).
    assert (0 <= 2 ^ n * (K + Rabs L)) by (apply Rmult_le_pos; lra). lra.
  - destruct (S t R ltac:(lra)) as (v & V & B). exists v. split; [exact V|]. set (x := Cabs t) in *.
    assert (SQ : 1 <= sqrt x) by (rewrite <- sqrt_1; apply sqrt_le_1; lra).
    assert (B' : Cabs (cpower t n * v - RtoC L)%C <= K).
    { eapply Rle_trans; [exact B|]. unfold Rdiv. rewrite <- (Rmult_1_r K) at 2. apply Rmult_le_compat_l; [exact K0|]. rewrite <- Rinv_1. apply Rinv_le_contravar; lra. }
    assert (M : Cabs v * x ^ n <= K + Rabs L).
    { assert (Z : Cabs (cpower t n * v)%C = Cabs v * x ^ n) by (rewrite Cabs_mul, Cabs_cpower; unfold x; ring).
      rewrite <- Z. replace (cpower t n * v)%C with (Cadd (cpower t n * v - RtoC L)%C (RtoC L)) by ring.
      eapply Rle_trans; [apply Cabs_triangle|]. rewrite Cabs_RtoC. lra. }
    assert (Q : (1 + x) ^ n <= 2 ^ n * x ^ n) by (rewrite <- Rpow_mult_distr; apply pow_incr; lra).
    assert (W1 : Cabs v * (1 + x) ^ n <= Cabs v * (2 ^ n * x ^ n)) by (apply Rmult_le_compat_l; [apply Cabs_nonneg|exact Q]).
    assert (W2 : 2 ^ n * (Cabs v * x ^ n) <= 2 ^ n * (K + Rabs L)) by (apply Rmult_le_compat_l; lra).
    assert (W3 : 0 < / c * (1 + T1) ^ n) by (now apply Rmult_lt_0_compat).
    replace (Cabs v * (2 ^ n * x ^ n)) with (2 ^ n * (Cabs v * x ^ n)) in W1 by ring. lra.
Qed.

Lemma half_plane_bounded : forall n F L, settles n F L -> reflects F ->
  (forall t v, 0 <= Re t -> 0 <= Im t -> F t = Ok v -> tends_within from_above F t v) -> tame_half_plane n F.
Proof.
  intros n F L S RF CT d D. destruct (upper_bounded n F L S CT d D) as (K & K0 & H). exists K. split; [exact K0|]. intros t R A.
  destruct (Rle_dec 0 (Im t)) as [I|I]; [now apply H|].
  destruct (H (Cconj t)) as (v & V & B); [exact R|cbn; lra| |].
  - intros u Ru Fu. destruct (Req_dec (Im u) 0) as [Z|Z].
    + replace (Csub u (Cconj t)) with (Cconj (Csub u t)) by (Cext; cbn in *; lra). rewrite Cabs_conj. now apply A.
    + replace (Csub u (Cconj t)) with (Cconj (Csub (Cconj u) t)) by (Cext; ring). rewrite Cabs_conj. apply A; [exact Ru|].
      intros v V. assert (X := RF (Cconj u) ltac:(cbn; lra)). rewrite Cconj_invol in X. rewrite V in X. exact (Fu _ X).
  - exists (Cconj v). rewrite Cabs_conj in B |- *. split; [|exact B]. assert (X := RF (Cconj t) ltac:(cbn; lra)). rewrite Cconj_invol in X. rewrite V in X. exact X.
Qed.

Theorem C72_half_plane :
  (forall t_0 t_in a m g s, SingleComponentModel_init t_0 t_in a m g = Ok s -> returns_somewhere (SingleComponentModel_call s) ->
    tame_half_plane 1 (SingleComponentModel_call s)) /\
  (forall k charged kw m, Kaon_init (kaon_class k) charged kw = Ok m -> returns_somewhere (Kaon_call m) -> tame_half_plane 1 (Kaon_call m)) /\
  (forall k kw, (exists proton, returns_somewhere (evaluate k proton true kw)) ->
    forall proton electric, tame_half_plane 2 (evaluate k proton electric kw)).
Proof.
  split; [|split].
  - intros t_0 t_in a m g s I R. destruct C67_kaon as (weight & W & _). apply (half_plane_bounded 1 _ _ (proj2 (proj2 (W _ _ _ _ _ _ I R)))).
    + intros t Z. apply (C14_single_reflection _ _ _ _ _ _ t I). intros (Q & _); contradiction.
    + intros t v _ Z E. destruct (single_agrees from_above _ _ _ _ _ _ _ _ I E (near_from_above _) (sided_above _ _ Z)) as [G [Q _]].
      assert (X := agrees_tends _ _ _ _ G Q). destruct G as [G _]. replace v with (sec_val t_0 t_in [(a, m, g)] t); [exact X|congruence].
  - intros k ch kw m I R. destruct C67_kaon as (weight & _ & W). specialize (W k ch kw m I R). cbv zeta in W. apply (half_plane_bounded 1 _ _ W).
    + exact (kaon_reflects _ _ _ _ I).
    + intros t v _ Z E. destruct (kaon_agrees from_above k ch kw m t v I E (near_from_above _) (sided_above _ _ Z) (sided_above _ _ Z)) as [G Q].
      assert (X := agrees_tends _ _ _ _ G Q). destruct G as [G _]. replace v with (kaon_val k ch kw t); [exact X|congruence].
  - intros k kw R p e. destruct (C67_nucleon k kw R) as (Ds & Dv & Ps & Pv & S). specialize (S p).
    assert (S' : exists L, settles 2 (evaluate k p e kw) L) by (destruct e; [exists (Ds + sign p * Dv + (Ps + sign p * Pv) / (4 * kwval kw "nucleon_mass" ^ 2)); exact (proj2 S)|exists (Ds + sign p * Dv); exact (proj1 S)]).
    destruct S' as (L & S'). apply (half_plane_bounded 2 _ _ S').
    + intros t Z. apply C14_nucleon_reflection; intros (Q & _); contradiction.
    + intros t v _ Z E. destruct (evaluate_agrees from_above k p e kw _ v E (near_from_above _) (fun s d => sided_above _ _ Z)) as [G [Q _]].
      assert (X := agrees_tends _ _ _ _ G Q). destruct G as [G _]. replace v with (combined k kw p e t); [exact X|congruence].
Qed.
Print Assumptions C72_half_plane.

Example C72_instance_half_plane : forall k ch, exists m, Kaon_init (kaon_class k) ch (demo_kw (1/7) 0 k) = Ok m /\ tame_half_plane 1 (Kaon_call m).
Proof.
  intros k ch. destruct (demo_accepted (1/7) 0 k ch) as (m & H). exists m. split; [exact H|].
  apply (proj1 (proj2 C72_half_plane) k ch _ m H). eexists; eexists. apply (C15_kaon_returns_at_zero k ch _ m H); rewrite !demo_kwval by (destruct k; inkw); unfold demo_value; cbn; lra.
Qed.
