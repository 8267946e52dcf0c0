(** Property C67: what the form factors and cross-sections become at high energy, exactly.  Sharpens C24, which only
    bounds them: the limits of t F(t), t^2 G(t), t^3 sigma(t) and t^5 sigma(t) exist, are real, and are approached at
    least as fast as 1/sqrt|t|. *)
From Coq Require Import String Reals Bool Arith List Lra.
From Verif Require Import PyBase CNum UAMaps UAComponents PyExpr UAModels Nucleon CrossSections CommonUtils MapProofs ComponentProofs
  ExprProofs KaonProofs SectorProofs KaonSpec NucleonCache NucleonProofs NucleonView NucleonSpec Asymptotics
  PropsMaps PropsOther PropsKaon PropsKaon2 PropsNucleon PropsNucleon2 PropsNucleon3.
From Verif Require PropsCross.
Import ListNotations.
Local Open Scope R_scope.
Local Open Scope py_scope.
Local Open Scope string_scope.

#[local] Arguments String.append : simpl never.

(** ** Specification *)

Fixpoint cpower (t : C) (n : nat) : C := match n with O => RtoC 1 | S n => (t * cpower t n)%C end.

(** In the closed right half plane F returns a value v at every t that is large enough, and t^n v tends to the real
    number L. *)
Definition settles (n : nat) (F : C -> Res C) (L : R) : Prop :=
  exists K T, 0 <= K /\ 0 < T /\ forall t, 0 <= Re t -> T <= Cabs t ->
  exists v, F t = Ok v /\ Cabs (cpower t n * v - RtoC L)%C <= K / sqrt (Cabs t).

(** The same for a real function of a real argument. *)
Definition settles_real (n : nat) (F : C -> Res C) (L : R) : Prop :=
  exists K T, 0 <= K /\ 0 < T /\ forall t, T <= t ->
  exists v, F (RtoC t) = Ok (RtoC v) /\ Rabs (t ^ n * v - L) <= K / sqrt t.

Definition returns_somewhere (F : C -> Res C) : Prop := exists t v, F t = Ok v.

(** The couplings of a sector, each times the weight of its resonance. *)
Definition weighted (weight : R -> R -> R) (l : list resonance) : R :=
  fold_right Rplus 0 (map (fun r => let '(a, m, g) := r in a * weight m g) l).

Definition sign (b : bool) : R := if b then 1 else -1.

(** ** Sectors *)

Definition lam (t_0 t_in m g : R) : R := Re (leading t_0 t_in (variant_of (m * m) t_in) (meson_pole m g)).

Lemma settles_of_tends : forall n F L f,
  tends (RtoC L) (fun t => (cpower t n * f t)%C) ->
  (exists T, forall t, 0 <= Re t -> T <= Cabs t -> F t = Ok (f t)) -> settles n F L.
Proof.
  intros n F L f (K & T & K0 & T0 & H) (T' & E). exists K, (Rmax T T'). split; [assumption|].
  split; [assert (X := Rmax_l T T'); lra|]. intros t R Ht. exists (f t).
  split; [apply E; [assumption|]; eapply Rle_trans; [apply Rmax_r|eassumption]|].
  apply H. eapply Rle_trans; [apply Rmax_l|eassumption].
Qed.

Lemma poles_bounded : forall l : list (R * R), exists T, forall t m g, T <= Cabs t -> In (m, g) l -> ~ at_pole m g t.
Proof.
  induction l as [|(m, g) l (T & H)]; [exists 0; intros ? ? ? _ []|].
  exists (Rmax T (Cabs (meson_pole m g) + 1)). intros t m' g' Ht [E|I].
  - injection E as <- <-. assert (X := Rle_trans _ _ _ (Rmax_r _ _) Ht).
    intros [F|F]; revert F; apply large_neq; [|rewrite Cabs_conj]; assumption.
  - apply H; [|assumption]. eapply Rle_trans; [apply Rmax_l|eassumption].
Qed.

Section Sector.
Variables t_0 t_in : R.
Hypothesis H0 : 0 <= t_0.
Hypothesis Hlt : t_0 < t_in.

Lemma lam_leading : forall m g, is_ok (build_component t_0 t_in m g) ->
  leading t_0 t_in (variant_of (m * m) t_in) (meson_pole m g) = RtoC (lam t_0 t_in m g) /\ 0 < lam t_0 t_in m g.
Proof.
  intros m g B. assert (N := accepted_not_pole_0 t_0 t_in H0 Hlt m g B). destruct B as (c & B).
  destruct (build_component_inv _ _ _ _ _ Hlt B) as (_ & _ & G & _).
  destruct (leading_real t_0 t_in H0 Hlt _ _ G) as (l & E & P). unfold lam. rewrite E. cbn [Re RtoC].
  split; [reflexivity|]. apply P. intros F. apply N. left. now symmetry.
Qed.

Lemma KC_leads : forall m g, is_ok (build_component t_0 t_in m g) ->
  tends (RtoC (- lam t_0 t_in m g)) (fun t => (t * KC t_0 t_in m g t)%C).
Proof.
  intros m g B. destruct (lam_leading m g B) as (E & _). destruct B as (c & B).
  destruct (build_component_inv _ _ _ _ _ Hlt B) as (_ & _ & G & _).
  replace (RtoC (- lam t_0 t_in m g)) with (Copp (RtoC (lam t_0 t_in m g))) by (Cext; ring). rewrite <- E.
  now apply comp_leads.
Qed.

Lemma lam_zero_width : forall m, is_ok (build_component t_0 t_in m 0) -> lam t_0 t_in m 0 = m^2.
Proof.
  intros m B. assert (X := KC_leads m 0 B).
  assert (Y : tends (RtoC (- (m * m))) (fun t => (t * KC t_0 t_in m 0 t)%C)).
  { apply (tends_ext _ (fun t => (RtoC (- (m * m)) * Cdivt t (t - RtoC (m * m)))%C)).
    - exists (Cabs (RtoC (m * m)) + (t_in + 1)). intros t H.
      assert (P := Cabs_nonneg (RtoC (m * m))).
      assert (N1 : t <> RtoC (m * m)) by (apply large_neq; lra).
      assert (N2 : t <> RtoC t_in) by (apply large_neq; rewrite (Cabs_RtoC t_in), Rabs_pos_eq; lra).
      rewrite KC_zero_width by assumption.
      assert (t - RtoC (m * m) <> RtoC 0)%C by (intros E; apply Csub_eq in E; auto).
      assert (RtoC (m * m) - t <> RtoC 0)%C by (intros E; apply Csub_eq in E; auto).
      replace (RtoC (- (m * m))) with (Copp (RtoC (m * m))) by (Cext; ring). field. tauto.
    - replace (RtoC (- (m * m))) with (RtoC (- (m * m)) * RtoC 1)%C at 1 by (Cext; ring).
      apply tends_scale, tends_shift. }
  assert (E := tends_unique _ _ _ X Y). injection E. lra.
Qed.

Lemma sector_leads : forall l, Forall (fun r => is_ok (build_component t_0 t_in (r_m r) (r_g r))) l ->
  tends (RtoC (- weighted (lam t_0 t_in) l)) (fun t => (t * sec_val t_0 t_in l t)%C).
Proof.
  intros l V. induction V as [|r l Vr V IH].
  - apply (tends_ext_all _ (fun _ => RtoC 0)); [intros t; cbn; ring|].
    replace (- weighted (lam t_0 t_in) []) with 0 by (cbn; ring). apply tends_const.
  - apply (tends_ext_all _ (fun t => RtoC (r_a r) * (t * KC t_0 t_in (r_m r) (r_g r) t) + t * sec_val t_0 t_in l t)%C).
    { intros t. cbn. unfold sec_val, csum. ring. }
    replace (RtoC (- weighted (lam t_0 t_in) (r :: l)))
      with (RtoC (r_a r) * RtoC (- lam t_0 t_in (r_m r) (r_g r)) + RtoC (- weighted (lam t_0 t_in) l))%C.
    + apply tends_add; [|assumption]. apply tends_scale. now apply KC_leads.
    + destruct r as ((a, m), g). cbn [r_a r_m r_g fst snd]. unfold weighted. cbn [map fold_right]. Cext; ring.
Qed.

Lemma sector_returns : forall l, Forall (fun r => is_ok (build_component t_0 t_in (r_m r) (r_g r))) l ->
  exists T, forall t, T <= Cabs t -> sector_eval t_0 t_in l t = Ok (sec_val t_0 t_in l t).
Proof.
  intros l V. destruct (poles_bounded (map (fun r => (r_m r, r_g r)) l)) as (T & H). exists (Rmax T (t_in + 1)). intros t Ht.
  destruct (sector_eval_cases t_0 t_in H0 Hlt l t V) as [[A _]|[_ [_ E]]]; [exfalso|exact E].
  destruct A as [A|A].
  - revert A. apply large_neq. rewrite Cabs_RtoC, Rabs_pos_eq by lra. eapply Rle_trans; [apply Rmax_r|eassumption].
  - apply Exists_exists in A as (r & I & A). revert A. apply H; [eapply Rle_trans; [apply Rmax_l|eassumption]|].
    now apply (in_map (fun r => (r_m r, r_g r))).
Qed.
End Sector.

Lemma sector_somewhere : forall t_0 t_in l t v, valid_sector t_0 t_in l -> l <> [] -> sector_eval t_0 t_in l t = Ok v ->
  0 <= t_0 /\ t_0 < t_in.
Proof.
  intros t_0 t_in l t v ((P & Q) & V) N E. split; [assumption|]. destruct Q as [Q|Q]; [assumption|exfalso].
  subst t_in. rewrite sector_eval_degenerate in E by assumption. discriminate.
Qed.

(** ** C67, kaons *)

Theorem C67_kaon : exists weight : R -> R -> R -> R -> R,
  (forall t_0 t_in a m g s, SingleComponentModel_init t_0 t_in a m g = Ok s ->
    returns_somewhere (SingleComponentModel_call s) ->
    0 < weight t_0 t_in m g /\ (g = 0 -> weight t_0 t_in m g = m^2) /\
    settles 1 (SingleComponentModel_call s) (- (a * weight t_0 t_in m g))) /\
  (forall k charged kw m, Kaon_init (kaon_class k) charged kw = Ok m -> returns_somewhere (Kaon_call m) ->
    let scalar := weighted (weight (kwval kw "t_0_isoscalar") (kwval kw "t_in_isoscalar"))
                    (spec_sector (kwval kw) (isoscalar_resonances k)) in
    let vector := weighted (weight (kwval kw "t_0_isovector") (kwval kw "t_in_isovector"))
                    (spec_sector (kwval kw) (isovector_resonances k)) in
    settles 1 (Kaon_call m) (- (scalar + sign charged * vector))).
Proof.
  exists lam. split.
  - intros t_0 t_in a m g s H (t1 & v1 & E1). assert (V := Single_valid _ _ _ _ _ _ H).
    rewrite (Single_view _ _ _ _ _ _ _ H) in E1. destruct (Rlt_dec (Re t1) 0); [discriminate|].
    destruct (sector_somewhere _ _ _ _ _ V ltac:(discriminate) E1) as (P & Q). destruct V as (_ & V).
    assert (B := Forall_inv V). cbn [r_m r_g fst snd] in B.
    destruct (lam_leading t_0 t_in P Q m g B) as (_ & L).
    split; [assumption|]. split; [intros ->; now apply lam_zero_width|].
    apply (settles_of_tends 1 _ _ (sec_val t_0 t_in [(a, m, g)])).
    + apply (tends_ext_all _ (fun t => t * sec_val t_0 t_in [(a, m, g)] t)%C); [intros t; cbn [cpower]; ring|].
      replace (- (a * lam t_0 t_in m g)) with (- weighted (lam t_0 t_in) [(a, m, g)]) by (cbn; ring).
      now apply sector_leads.
    + destruct (sector_returns t_0 t_in P Q _ V) as (T & R). exists T. intros t Ht HT.
      rewrite (Single_view _ _ _ _ _ _ _ H). destruct (Rlt_dec (Re t) 0); [lra|]. now apply R.
  - intros k ch kw m H (t1 & v1 & E1) scalar vector. destruct (Kaon_valid _ _ _ _ H) as (V1 & V2).
    destruct (spec_sector_nonempty (kwval kw) k) as (N1 & N2).
    rewrite (Kaon_view _ _ _ _ _ H) in E1. destruct (Rlt_dec (Re t1) 0); [discriminate|].
    apply bind_Ok_inv in E1 as (x & S1 & E1). apply bind_Ok_inv in E1 as (y & S2 & _).
    destruct (sector_somewhere _ _ _ _ _ V1 N1 S1) as (P1 & Q1). destruct (sector_somewhere _ _ _ _ _ V2 N2 S2) as (P2 & Q2).
    destruct V1 as (_ & V1). destruct V2 as (_ & V2).
    assert (L1 := sector_leads _ _ P1 Q1 _ V1). assert (L2 := sector_leads _ _ P2 Q2 _ V2). fold scalar in L1. fold vector in L2.
    destruct (sector_returns _ _ P1 Q1 _ V1) as (T1 & R1). destruct (sector_returns _ _ P2 Q2 _ V2) as (T2 & R2).
    set (f := sec_val _ _ _) in L1, R1. set (g := sec_val _ _ _) in L2, R2.
    apply (settles_of_tends 1 _ _ (fun t => f t + RtoC (sign ch) * g t)%C).
    + apply (tends_ext_all _ (fun t => t * f t + RtoC (sign ch) * (t * g t))%C); [intros t; cbn [cpower]; ring|].
      replace (RtoC (- (scalar + sign ch * vector))) with (RtoC (- scalar) + RtoC (sign ch) * RtoC (- vector))%C by (Cext; ring).
      apply tends_add; [assumption|now apply tends_scale].
    + exists (Rmax T1 T2). intros t Ht HT. rewrite (Kaon_view _ _ _ _ _ H). destruct (Rlt_dec (Re t) 0); [lra|].
      rewrite R1 by (eapply Rle_trans; [apply Rmax_l|eassumption]). rewrite R2 by (eapply Rle_trans; [apply Rmax_r|eassumption]).
      cbn [bind]. f_equal. destruct ch; cbn [sign]; Cext; ring.
Qed.
Print Assumptions C67_kaon.

(** ** C67, nucleons *)

Lemma part_leads : forall k kw s d,
  (forall r, In r (iso_names s) -> exists l, tends (RtoC l) (fun t => (t * Fv k (kwval kw) s d t r)%C)) ->
  (forall r, Cconj (cv k (kwval kw) s d r) = cv k (kwval kw) s d r) ->
  exists L, tends (RtoC L) (fun t => (cpower t (if d then 2 else 3) * part k kw s d t)%C).
Proof.
  intros k kw s d H Hc. set (c := cv k (kwval kw) s d) in *.
  assert (X : exists l : string -> R, forall r, In r (iso_names s) -> tends (RtoC (l r)) (fun t => (t * Fv k (kwval kw) s d t r)%C)).
  { revert H. generalize (iso_names s). intros names. induction names as [|x names IH]; intros H.
    - exists (fun _ => 0). intros r [].
    - destruct IH as (l & IH); [intros r I; apply H; now right|]. destruct (H x (or_introl eq_refl)) as (y & Y).
      exists (fun r => if string_dec r x then y else l r). intros r I. destruct (string_dec r x) as [->|N]; [exact Y|].
      apply IH. destruct I as [I|I]; [congruence|assumption]. }
  destruct X as (l & X). set (G := fun t r => (t * Fv k (kwval kw) s d t r)%C) in X.
  assert (L : tends (formula (kwval kw) s d c (fun r => RtoC (l r))) (fun t => formula (kwval kw) s d c (G t))).
  { assert (Y : forall r, mem r (iso_names s) = true -> tends (RtoC (l r)) (fun t => G t r)) by (intros r Hr; apply X; now apply mem_In).
    clearbody c G. clear - Y. destruct s, d; cbn [formula]; unfold combo2, combo3, Cdivt;
      repeat match goal with
      | |- tends _ (fun t => Csub _ _) => apply tends_sub
      | |- tends _ (fun t => Cadd _ _) => apply tends_add
      | |- tends _ (fun t => Cmul _ _) => apply tends_mul
      | |- tends _ (fun t => G t ?r) => apply (Y r); reflexivity
      | |- tends ?x (fun t => _) => exact (tends_const x)
      end. }
  assert (Z : Cconj (formula (kwval kw) s d c (fun r => RtoC (l r))) = formula (kwval kw) s d c (fun r => RtoC (l r))).
  { symmetry. apply formula_conj; [assumption|]. intros r. now rewrite Cconj_RtoC. }
  apply Cconj_real_iff in Z. exists (Re (formula (kwval kw) s d c (fun r => RtoC (l r)))).
  replace (RtoC (Re (formula (kwval kw) s d c (fun r => RtoC (l r))))) with (formula (kwval kw) s d c (fun r => RtoC (l r)))
    by (apply C_ext; [reflexivity|exact Z]).
  revert L. apply tends_ext_all. intros t. unfold part, G. fold c. clearbody c.
  destruct s, d; cbn [formula cpower]; unfold combo2, combo3, Cdivt; ring.
Qed.

Theorem C67_nucleon : forall k kw, (exists proton, returns_somewhere (evaluate k proton true kw)) ->
  exists Ds Dv Ps Pv, forall proton,
    settles 2 (evaluate k proton false kw) (Ds + sign proton * Dv) /\
    settles 2 (evaluate k proton true kw)
      (Ds + sign proton * Dv + (Ps + sign proton * Pv) / (4 * kwval kw "nucleon_mass" ^ 2)).
Proof.
  intros k kw (p0 & t1 & v1 & E1). assert (E2 := E1). apply evaluate_Ok in E2 as (m0 & B & ND & _ & (CD & MN) & _).
  specialize (MN eq_refl).
  assert (A : forall s d r, In r (iso_names s) -> 0 <= bp0 (kwval kw) s d /\
    exists l, tends (RtoC l) (fun t => (t * Fv k (kwval kw) s d t r)%C)).
  { intros s d r Hr. destruct (nb_comp _ _ _ _ _ B s d r Hr) as (c0 & _ & Bc).
    destruct (nbuild_inv _ _ _ _ _ _ (ND s d) Bc) as (Z & G & _). split; [exact Z|].
    destruct (leading_real _ _ Z (ND s d) _ _ G) as (l & E & _). exists (- l).
    replace (RtoC (- l)) with (Copp (RtoC l)) by (Cext; ring). rewrite <- E. unfold Fv, NC. now apply comp_leads; [|apply ND|]. }
  assert (D : forall s d : bool, exists L, tends (RtoC L) (fun t => (cpower t (if d then 2 else 3) * part k kw s d t)%C)).
  { intros s d. apply part_leads; [intros r Hr; now apply A|]. intros r. unfold cv. apply MT_real; [|apply ND].
    destruct s; [apply (A true d "omega")|apply (A false d "rho")]; vm_compute; tauto. }
  destruct (D true true) as (Ds & D1). destruct (D false true) as (Dv & D2).
  destruct (D true false) as (Ps & D3). destruct (D false false) as (Pv & D4). clear D A.
  exists Ds, Dv, Ps, Pv. cbv iota in D1, D2, D3, D4.
  (* where it returns *)
  assert (R : exists T, forall t, 0 <= Re t -> T <= Cabs t -> forall p e, evaluate k p e kw t = Ok (combined k kw p e t)).
  { destruct (poles_bounded (map (fun r => (kwval kw ("mass_" ++ r), kwval kw ("decay_rate_" ++ r))) (iso_names true ++ iso_names false)%list)) as (T & H).
    set (far := fun s d => Cabs (RtoC (bpin (kwval kw) s d)) + 1).
    exists (Rmax T (Rmax (Rmax (far true true) (far true false)) (Rmax (far false true) (far false false)))). intros t Ht HT p e.
    assert (H1 := Rle_trans _ _ _ (Rmax_l _ _) HT). assert (H2 := Rle_trans _ _ _ (Rmax_r _ _) HT).
    assert (F : forall s d, far s d <= Cabs t).
    { assert (H3 := Rle_trans _ _ _ (Rmax_l _ _) H2). assert (H4 := Rle_trans _ _ _ (Rmax_r _ _) H2).
      assert (Q1 := Rmax_l (far true true) (far true false)). assert (Q2 := Rmax_r (far true true) (far true false)).
      assert (Q3 := Rmax_l (far false true) (far false false)). assert (Q4 := Rmax_r (far false true) (far false false)).
      intros [] []; lra. }
    assert (W : evaluate k p0 true kw t = Ok (combined k kw p0 true t)).
    { destruct (evaluate_built k p0 true kw) as [(m' & c & E & B' & X)|(x & E & X)]; [|rewrite X in E1; discriminate].
      rewrite X. destruct (call_cases k p0 true kw m' B' t ND Ht) as [[_ Y]|[Y _]]; [assumption|exfalso].
      apply Y. split; [|intros _; exact MN]. intros s d. destruct (CD s d) as (_ & _ & C3). split; [|split; [|exact C3]].
      - apply large_neq. apply F.
      - intros r Hr. apply H; [assumption|]. apply (in_map (fun r => (kwval kw ("mass_" ++ r), kwval kw ("decay_rate_" ++ r)))).
        apply in_or_app. destruct s; tauto. }
    apply (evaluate_other_flags _ _ _ _ _ _ p e W). intros _. exact MN. }
  destruct R as (T & R). intros p.
  assert (DD : tends (RtoC (Ds + sign p * Dv)) (fun t => cpower t 2 * (part k kw true true t + RtoC (sign p) * part k kw false true t))%C).
  { apply (tends_ext_all _ (fun t => cpower t 2 * part k kw true true t + RtoC (sign p) * (cpower t 2 * part k kw false true t))%C); [intros; ring|].
    replace (RtoC (Ds + sign p * Dv)) with (RtoC Ds + RtoC (sign p) * RtoC Dv)%C by (Cext; ring).
    apply tends_add; [assumption|now apply tends_scale]. }
  assert (PP : tends (RtoC (Ps + sign p * Pv)) (fun t => cpower t 3 * (part k kw true false t + RtoC (sign p) * part k kw false false t))%C).
  { apply (tends_ext_all _ (fun t => cpower t 3 * part k kw true false t + RtoC (sign p) * (cpower t 3 * part k kw false false t))%C); [intros; ring|].
    replace (RtoC (Ps + sign p * Pv)) with (RtoC Ps + RtoC (sign p) * RtoC Pv)%C by (Cext; ring).
    apply tends_add; [assumption|now apply tends_scale]. }
  split.
  - apply (settles_of_tends 2 _ _ (combined k kw p false)); [|exists T; intros; now apply R].
    apply (tends_ext _ (fun t => cpower t 2 * (part k kw true true t + RtoC (sign p) * part k kw false true t) +
      Cinv t * (cpower t 3 * (part k kw true false t + RtoC (sign p) * part k kw false false t)))%C).
    + exists 1. intros t Ht. assert (N : t <> RtoC 0) by (intros E; rewrite E, Cabs_RtoC, Rabs_R0 in Ht; lra).
      unfold combined. cbn [cpower]. destruct p; cbn [sign].
      * field. assumption.
      * replace (RtoC (-1)) with (Copp (RtoC 1)) by (Cext; ring). field. assumption.
    + replace (RtoC (Ds + sign p * Dv)) with (RtoC (Ds + sign p * Dv) + RtoC 0 * RtoC (Ps + sign p * Pv))%C by (Cext; ring).
      apply tends_add; [assumption|]. apply tends_mul; [apply tends_Cinv|assumption].
  - assert (M : 4 * kwval kw "nucleon_mass" ^ 2 <> 0).
    { assert (P := PropsCross.sq_pos _ MN). lra. }
    apply (settles_of_tends 2 _ _ (combined k kw p true)); [|exists T; intros; now apply R].
    apply (tends_ext_all _ (fun t => cpower t 2 * (part k kw true true t + RtoC (sign p) * part k kw false true t) +
      Cinv (RtoC (4 * kwval kw "nucleon_mass" ^ 2)) * (cpower t 3 * (part k kw true false t + RtoC (sign p) * part k kw false false t)))%C).
    + intros t. unfold combined. replace (4 * (kwval kw "nucleon_mass" * kwval kw "nucleon_mass")) with (4 * kwval kw "nucleon_mass" ^ 2) by ring.
      cbn [cpower]. unfold Cdivt. destruct p; cbn [sign]; [ring|]. replace (RtoC (-1)) with (Copp (RtoC 1)) by (Cext; ring). ring.
    + replace (RtoC (Ds + sign p * Dv + (Ps + sign p * Pv) / (4 * kwval kw "nucleon_mass" ^ 2)))
        with (RtoC (Ds + sign p * Dv) + Cinv (RtoC (4 * kwval kw "nucleon_mass" ^ 2)) * RtoC (Ps + sign p * Pv))%C.
      * apply tends_add; [assumption|now apply tends_scale].
      * rewrite (RtoC_add (Ds + sign p * Dv)), RtoC_div by assumption. unfold Cdivt. ring.
Qed.
Print Assumptions C67_nucleon.

(** ** C67, cross-sections *)

Definition rt (L : R) (g : R -> R) : Prop := tends (RtoC L) (fun t => RtoC (g (Cabs t))).

Lemma rt_const : forall c, rt c (fun _ => c).
Proof. intros. exact (tends_const (RtoC c)). Qed.
Lemma rt_add : forall c d f g, rt c f -> rt d g -> rt (c + d) (fun x => f x + g x).
Proof.
  intros c d f g F G. unfold rt. rewrite RtoC_add. apply (tends_ext_all _ (fun t => RtoC (f (Cabs t)) + RtoC (g (Cabs t)))%C).
  - intros t. now rewrite RtoC_add.
  - now apply tends_add.
Qed.
Lemma rt_mul : forall c d f g, rt c f -> rt d g -> rt (c * d) (fun x => f x * g x).
Proof.
  intros c d f g F G. unfold rt. rewrite RtoC_mul. apply (tends_ext_all _ (fun t => RtoC (f (Cabs t)) * RtoC (g (Cabs t)))%C).
  - intros t. now rewrite RtoC_mul.
  - now apply tends_mul.
Qed.

Lemma rt_bound : forall K T L g, 0 <= K -> 1 <= T -> (forall x, T <= x -> Rabs (g x - L) <= K * / sqrt x) -> rt L g.
Proof.
  intros K T L g K0 T0 H. exists K, T. split; [assumption|]. split; [assumption|]. intros t Ht.
  replace (RtoC (g (Cabs t)) - RtoC L)%C with (RtoC (g (Cabs t) - L)) by (Cext; ring). rewrite Cabs_RtoC. now apply H.
Qed.

Lemma inv_le_rate : forall x, 1 <= x -> / x <= / sqrt x.
Proof.
  intros x H. apply Rinv_le_contravar; [apply sqrt_lt_R0; lra|].
  apply Rle_trans with (sqrt (x * x)); [apply sqrt_le_1; nra|]. rewrite sqrt_square; lra.
Qed.

Lemma rt_inv : forall c, rt 0 (fun x => c / x).
Proof.
  intros c. apply (rt_bound (Rabs c) 1); [apply Rabs_pos|lra|]. intros x H. rewrite Rminus_0_r. unfold Rdiv.
  rewrite Rabs_mult, (Rabs_pos_eq (/ x)) by (left; apply Rinv_0_lt_compat; lra).
  apply Rmult_le_compat_l; [apply Rabs_pos|now apply inv_le_rate].
Qed.

Lemma sqrt_near_1 : forall y, 0 <= y <= 1 -> Rabs (sqrt (1 - y) - 1) <= y.
Proof.
  intros y H. assert (A : 1 - y <= sqrt (1 - y)).
  { rewrite <- (sqrt_square (1 - y)) at 1 by lra. apply sqrt_le_1; nra. }
  assert (B : sqrt (1 - y) <= 1) by (rewrite <- sqrt_1 at 2; apply sqrt_le_1; lra).
  rewrite Rabs_left1 by lra. lra.
Qed.

Lemma quotient_range : forall m x, 4 * m^2 + 1 <= x -> 0 <= 4 * m^2 / x <= 1.
Proof.
  intros m x H. assert (P := pow2_ge_0 m). split; [apply Rmult_le_pos; [lra|left; apply Rinv_0_lt_compat; lra]|].
  apply Rmult_le_reg_r with x; [lra|]. unfold Rdiv. rewrite Rmult_assoc, Rinv_l, Rmult_1_r by lra. lra.
Qed.

Lemma rt_beta : forall m, rt 1 (fun x => sqrt (1 - 4 * m^2 / x)).
Proof.
  intros m. assert (P := pow2_ge_0 m). apply (rt_bound (4 * m^2) (4 * m^2 + 1)); [lra|lra|]. intros x H.
  eapply Rle_trans; [apply sqrt_near_1; now apply quotient_range|]. apply Rmult_le_compat_l; [lra|]. apply inv_le_rate. lra.
Qed.

Lemma rt_pow32 : forall m, rt 1 (fun x => PropsCross.pow32 (1 - 4 * m^2 / x)).
Proof.
  intros m. replace 1 with ((1 + -1 * 0) * 1) at 1 by ring.
  apply (tends_ext_all _ (fun t => RtoC ((1 + -1 * (4 * m^2 / Cabs t)) * sqrt (1 - 4 * m^2 / Cabs t)))).
  - intros t. f_equal. unfold PropsCross.pow32. ring.
  - apply (rt_mul _ _ (fun x => 1 + -1 * (4 * m^2 / x)) (fun x => sqrt (1 - 4 * m^2 / x))); [|apply rt_beta].
    apply (rt_add _ _ (fun _ => 1) (fun x => -1 * (4 * m^2 / x))); [apply rt_const|].
    apply (rt_mul _ _ (fun _ => -1) (fun x => 4 * m^2 / x)); [apply rt_const|apply rt_inv].
Qed.

Lemma cpower_real : forall x n, cpower (RtoC x) n = RtoC (x ^ n).
Proof. intros x n. induction n as [|n IH]; cbn [cpower pow]; [reflexivity|]. rewrite IH. Cext; ring. Qed.

Lemma settles_modulus : forall n F L, settles n F L ->
  exists g, rt (Rabs L) g /\ exists T, forall x, T <= x -> exists v, F (RtoC x) = Ok v /\ g x = x ^ n * Cabs v.
Proof.
  intros n F L (K & T & K0 & T0 & H).
  exists (fun x => match F (RtoC x) with Ok v => x ^ n * Cabs v | Err _ => 0 end). split.
  - apply (rt_bound K (Rmax 1 T)); [assumption|apply Rmax_l|]. intros x Hx.
    assert (H1 := Rle_trans _ _ _ (Rmax_l _ _) Hx). assert (H2 := Rle_trans _ _ _ (Rmax_r _ _) Hx).
    assert (A : Cabs (RtoC x) = x) by (rewrite Cabs_RtoC, Rabs_pos_eq; lra).
    destruct (H (RtoC x) ltac:(cbn; lra) ltac:(rewrite A; lra)) as (v & E & B). rewrite E. rewrite A, cpower_real in B.
    replace (x ^ n * Cabs v) with (Cabs (RtoC (x ^ n) * v)%C)
      by (rewrite Cabs_mul, Cabs_RtoC, Rabs_pos_eq by (apply pow_le; lra); reflexivity).
    rewrite <- (Cabs_RtoC L). set (z := (RtoC (x ^ n) * v)%C) in *.
    assert (B1 := Cabs_triangle_rev z (RtoC L)). assert (B2 := Cabs_triangle_rev (RtoC L) z).
    replace (RtoC L - z)%C with (Copp (z - RtoC L))%C in B2 by ring. rewrite Cabs_opp in B2.
    unfold Rdiv in B. apply Rabs_le. lra.
  - exists (Rmax 1 T). intros x Hx.
    assert (H1 := Rle_trans _ _ _ (Rmax_l _ _) Hx). assert (H2 := Rle_trans _ _ _ (Rmax_r _ _) Hx).
    destruct (H (RtoC x) ltac:(cbn; lra) ltac:(rewrite Cabs_RtoC, Rabs_pos_eq; lra)) as (v & E & _). exists v. now rewrite E.
Qed.

Lemma settles_real_of : forall n F L g, rt L g ->
  (exists T, forall x, T <= x -> exists v, F (RtoC x) = Ok (RtoC v) /\ x ^ n * v = g x) -> settles_real n F L.
Proof.
  intros n F L g (K & T & K0 & T0 & H) (T' & E). exists K, (Rmax T T'). split; [assumption|].
  split; [assert (X := Rmax_l T T'); lra|]. intros x Hx.
  destruct (E x (Rle_trans _ _ _ (Rmax_r _ _) Hx)) as (v & V & G). exists v. split; [assumption|].
  assert (Hx1 := Rle_trans _ _ _ (Rmax_l _ _) Hx). assert (A : Cabs (RtoC x) = x) by (rewrite Cabs_RtoC, Rabs_pos_eq; lra).
  specialize (H (RtoC x)). rewrite A in H. specialize (H Hx1). rewrite G.
  replace (RtoC (g x) - RtoC L)%C with (RtoC (g x - L)) in H by (Cext; ring). rewrite Cabs_RtoC in H. exact H.
Qed.

(** Any form factor with a limit of t F(t), in particular every kaon model by [C67_kaon]. *)
Theorem C67_kaon_cross_section : forall mass alpha hc_squared F L, settles 1 F L ->
  settles_real 3 (ScalarCS_call (ScalarCS_init mass alpha hc_squared) F) (hc_squared * PI * alpha^2 / 3 * L^2).
Proof.
  intros m alpha hc F L S. destruct (settles_modulus _ _ _ S) as (g & G & T & E).
  apply (settles_real_of 3 _ _ (fun x => hc * PI * alpha^2 / 3 * (PropsCross.pow32 (1 - 4 * m^2 / x) * (g x * g x)))).
  - replace (hc * PI * alpha^2 / 3 * L^2) with (hc * PI * alpha^2 / 3 * (1 * (Rabs L * Rabs L))).
    + apply (rt_mul _ _ (fun _ => hc * PI * alpha^2 / 3)); [apply rt_const|]. apply (rt_mul _ _ (fun x => PropsCross.pow32 (1 - 4 * m^2 / x))); [apply rt_pow32|].
      now apply rt_mul.
    + f_equal. rewrite <- Rabs_mult, Rabs_pos_eq by apply Rle_0_sqr. ring.
  - exists (Rmax T (4 * m^2 + 1)). intros x Hx. assert (P := pow2_ge_0 m).
    assert (H1 := Rle_trans _ _ _ (Rmax_l _ _) Hx). assert (H2 := Rle_trans _ _ _ (Rmax_r _ _) Hx).
    destruct (E x H1) as (v & V & Gx). exists (PropsCross.sigma_scalar m alpha hc x (Cabs v)).
    split; [apply PropsCross.C29_formula_above_threshold; [assumption|lra|lra]|].
    rewrite Gx. unfold PropsCross.sigma_scalar. field. lra.
Qed.
Print Assumptions C67_kaon_cross_section.

Lemma nucleon_evaluations : forall k p e kw m c t ge gm, Nucleon_init (nucleon_class k) p e kw = Ok (m, c) ->
  evaluate k p true kw t = Ok ge -> evaluate k p false kw t = Ok gm ->
  PropsCross.evaluations FFModel ff_set_electric ff_call (FFNucleon m c) t = Ok (Cabs ge, Cabs gm).
Proof.
  intros k p e kw m c t ge gm I E M.
  destruct (Nucleon_init_flags _ _ _ _ _ _ p true I) as (I1 & Pm & _). destruct (Nucleon_init_flags _ _ _ _ _ _ p false I) as (I2 & _).
  assert (Z := Nucleon_init_cache _ _ _ _ _ _ I). subst c.
  unfold evaluate in E, M. rewrite I1 in E. rewrite I2 in M.
  unfold PropsCross.evaluations. cbn [ff_set_electric ff_call]. rewrite Pm.
  destruct (Nucleon_call_pure (Nucleon_set_flags m p true) t [] (cache_ok_nil _)) as (E1 & C1).
  destruct (Nucleon_call (Nucleon_set_flags m p true) t []) as (r1, c1) eqn:Q. cbn [fst snd] in *. subst r1.
  cbn [ff_set_electric ff_call nm_proton Nucleon_set_flags]. cbn [bind].
  change (Nucleon_set_flags (Nucleon_set_flags m p true) p false) with (Nucleon_set_flags m p false).
  destruct (Nucleon_call_pure (Nucleon_set_flags m p false) t c1 (cache_ok_flags _ _ _ _ C1)) as (E2 & _).
  destruct (Nucleon_call_pure (Nucleon_set_flags m p false) t [] (cache_ok_nil _)) as (E3 & _). rewrite E3 in M.
  destruct (Nucleon_call (Nucleon_set_flags m p false) t c1) as (r2, c2). cbn [fst] in *. subst r2. rewrite M. reflexivity.
Qed.

Theorem C67_nucleon_cross_section : forall k proton electric kw m c mass alpha hc_squared GE GM,
  Nucleon_init (nucleon_class k) proton electric kw = Ok (m, c) ->
  settles 2 (evaluate k proton true kw) GE -> settles 2 (evaluate k proton false kw) GM ->
  settles_real 5 (fun t => fst (NucleonCS_call FFModel ff_set_electric ff_call (NucleonCS_init mass alpha hc_squared) (FFNucleon m c) t))
    (4 * PI * alpha^2 * hc_squared / 3 * GM^2).
Proof.
  intros k p e kw m c mass alpha hc GE GM I SE SM.
  destruct (settles_modulus _ _ _ SE) as (ge & Ge & T1 & E1). destruct (settles_modulus _ _ _ SM) as (gm & Gm & T2 & E2).
  apply (settles_real_of 5 _ _ (fun x => 4 * PI * alpha^2 * hc / 3 *
    (sqrt (1 - 4 * mass^2 / x) * (gm x * gm x + 2 * mass^2 / x * (ge x * ge x))))).
  - replace (4 * PI * alpha^2 * hc / 3 * GM^2) with (4 * PI * alpha^2 * hc / 3 * (1 * (Rabs GM * Rabs GM + 0 * (Rabs GE * Rabs GE)))).
    + apply (rt_mul _ _ (fun _ => 4 * PI * alpha^2 * hc / 3)); [apply rt_const|].
      apply (rt_mul _ _ (fun x => sqrt (1 - 4 * mass^2 / x))); [apply rt_beta|].
      apply rt_add; [now apply rt_mul|]. apply (rt_mul _ _ (fun x => 2 * mass^2 / x)); [apply rt_inv|now apply rt_mul].
    + f_equal. rewrite <- (Rabs_mult GM), (Rabs_pos_eq (GM * GM)) by apply Rle_0_sqr. ring.
  - exists (Rmax (Rmax T1 T2) (4 * mass^2 + 1)). intros x Hx. assert (P := pow2_ge_0 mass).
    assert (H1 := Rle_trans _ _ _ (Rmax_l _ _) Hx). assert (H2 := Rle_trans _ _ _ (Rmax_r _ _) Hx).
    destruct (E1 x (Rle_trans _ _ _ (Rmax_l _ _) H1)) as (ve & Ve & Gx). destruct (E2 x (Rle_trans _ _ _ (Rmax_r _ _) H1)) as (vm & Vm & Gy).
    exists (PropsCross.sigma_nucleon mass alpha hc x (Cabs ve) (Cabs vm)).
    split; [apply PropsCross.C30_formula; [now apply (nucleon_evaluations _ _ _ _ _ _ _ _ _ I)|lra|lra]|].
    rewrite Gx, Gy. unfold PropsCross.sigma_nucleon. field. lra.
Qed.
Print Assumptions C67_nucleon_cross_section.

(** All resonances of a sector alike: the couplings add up to 1/2. *)
Lemma weighted_alike : forall (w : R -> R -> R) (P : string -> R) m g names, names <> [] ->
  (forall n, In n names -> P ("mass_" ++ n) = m /\ P ("decay_rate_" ++ n) = g) ->
  weighted w (spec_sector P names) = w m g / 2.
Proof.
  intros w P m g names NE HN.
  assert (L : length (spec_couplings P names) = length names).
  { unfold spec_couplings. rewrite app_length, map_length. assert (Q := f_equal (@length string) (app_removelast_last "" NE)). rewrite app_length in Q. symmetry. exact Q. }
  assert (T : Rsum (spec_couplings P names) = 1/2).
  { unfold spec_couplings. cbv zeta. generalize (map (fun n => P ("a_" ++ n)) (removelast names)). intros l.
    generalize (1/2). intros h. unfold Rsum. rewrite fold_right_app. cbn [fold_right].
    assert (X : forall y l, fold_right Rplus y l = fold_right Rplus 0 l + y).
    { intros y l0. induction l0 as [|x l0 IH]; cbn [fold_right]; [ring|rewrite IH; ring]. }
    rewrite X. ring. }
  transitivity (w m g * Rsum (spec_couplings P names)); [|rewrite T; field].
  unfold weighted, spec_sector. revert L HN. clear NE T.
  generalize (spec_couplings P names). intros cs. revert names.
  induction cs as [|c cs IH]; intros [|n names] L HN; try discriminate; [unfold Rsum; cbn; ring|].
  cbn [combine map fold_right fst snd]. destruct (HN n (or_introl eq_refl)) as (-> & ->). injection L as L.
  rewrite (IH names L (fun x I => HN x (or_intror I))). unfold Rsum. cbn [fold_right]. ring.
Qed.

Lemma names_nonempty : forall k, isoscalar_resonances k <> [] /\ isovector_resonances k <> [].
Proof. intros []; split; discriminate. Qed.
Lemma demo_same : forall k n, In n (isoscalar_resonances k ++ isovector_resonances k)%list ->
  kwval (demo_kw (1/7) 0 k) ("mass_" ++ n) = 2 /\ kwval (demo_kw (1/7) 0 k) ("decay_rate_" ++ n) = 0.
Proof.
  intros k n Hn. rewrite !demo_kwval.
  - split; reflexivity.
  - destruct k; simpl in Hn; repeat (destruct Hn as [<-|Hn]; [inkw|]); contradiction.
  - destruct k; simpl in Hn; repeat (destruct Hn as [<-|Hn]; [inkw|]); contradiction.
Qed.

(** Kaons without widths, all masses 2: t F(t) tends to -4 for charged and to 0 for neutral kaons, and t^3 sigma(t)
    to 16/3 pi alpha^2 (hc)^2 for charged ones. *)
Example C67_instance : forall k ch mass alpha hc, exists m, Kaon_init (kaon_class k) ch (demo_kw (1/7) 0 k) = Ok m /\
  settles 1 (Kaon_call m) (if ch then -4 else 0) /\
  settles_real 3 (ScalarCS_call (ScalarCS_init mass alpha hc) (Kaon_call m)) (hc * PI * alpha^2 / 3 * (if ch then -4 else 0)^2).
Proof.
  intros k ch mass alpha hc. destruct (demo_accepted (1/7) 0 k ch) as (m & H). exists m. split; [assumption|].
  assert (S : settles 1 (Kaon_call m) (if ch then -4 else 0)).
  { destruct C67_kaon as (weight & W & K).
    assert (W4 : weight 1 2 2 0 = 4).
    { destruct (proj2 (C25_single_accepts_iff 1 2 1 2 0)) as (s & E).
      { repeat split; try lra; unfold resonance_pole; intros; intros F; apply (f_equal Re) in F; cbn in F; lra. }
      destruct (W _ _ _ _ _ _ E) as (_ & Z & _).
      - exists (RtoC 0), (RtoC 1). apply (C15_single_value_at_zero _ _ _ _ _ _ E). lra.
      - rewrite Z by reflexivity. ring. }
    assert (B : kwval (demo_kw (1/7) 0 k) "t_0_isoscalar" = 1 /\ kwval (demo_kw (1/7) 0 k) "t_in_isoscalar" = 2 /\
      kwval (demo_kw (1/7) 0 k) "t_0_isovector" = 1 /\ kwval (demo_kw (1/7) 0 k) "t_in_isovector" = 2).
    { rewrite !demo_kwval by (destruct k; inkw). repeat split; reflexivity. }
    destruct B as (B1 & B2 & B3 & B4).
    specialize (K k ch _ m H). rewrite B1, B2, B3, B4 in K. cbv zeta in K.
    assert (Q : returns_somewhere (Kaon_call m)).
    { eexists; eexists. apply (C15_kaon_returns_at_zero k ch _ m H); lra. }
    specialize (K Q).
    assert (HW : forall names, names <> [] -> (forall n, In n names -> In n (isoscalar_resonances k ++ isovector_resonances k)%list) ->
      weighted (weight 1 2) (spec_sector (kwval (demo_kw (1/7) 0 k)) names) = 2).
    { intros names NE HN. rewrite (weighted_alike _ _ 2 0) by (assumption || (intros n Hn; apply demo_same; auto)). rewrite W4. field. }
    destruct (names_nonempty k) as (N1 & N2).
    rewrite (HW _ N1) in K by (intros; apply in_or_app; now left). rewrite (HW _ N2) in K by (intros; apply in_or_app; now right).
    destruct ch; cbn [sign] in K; [replace (-4) with (- (2 + 1 * 2)) by ring|replace 0 with (- (2 + -1 * 2)) by ring]; exact K. }
  split; [exact S|]. now apply C67_kaon_cross_section.
Qed.

Example C67_instance_nucleon : forall k p e mass alpha hc, exists m c Gp Gn,
  Nucleon_init (nucleon_class k) p e (demo_nucleon (1/2)) = Ok (m, c) /\
  settles 2 (evaluate k true false (demo_nucleon (1/2))) Gp /\ settles 2 (evaluate k false false (demo_nucleon (1/2))) Gn /\
  settles_real 5 (fun t => fst (NucleonCS_call FFModel ff_set_electric ff_call (NucleonCS_init mass alpha hc) (FFNucleon m c) t))
    (4 * PI * alpha^2 * hc / 3 * (if p then Gp else Gn)^2).
Proof.
  intros k p e mass alpha hc. destruct (nucleon_instance k true true) as (_ & v & _ & _ & E & _).
  destruct (C67_nucleon k (demo_nucleon (1/2))) as (Ds & Dv & Ps & Pv & S); [exists true; eexists; eexists; exact E|].
  destruct (demo_nucleon_accepted k p e (1/2) ltac:(lra)) as ((m & c) & I).
  exists m, c, (Ds + sign true * Dv), (Ds + sign false * Dv). split; [exact I|]. split; [exact (proj1 (S true))|]. split; [exact (proj1 (S false))|].
  destruct (S p) as (S1 & S2). replace (if p then Ds + sign true * Dv else Ds + sign false * Dv) with (Ds + sign p * Dv) by (now destruct p).
  exact (C67_nucleon_cross_section k p e _ m c mass alpha hc _ _ I S2 S1).
Qed.
