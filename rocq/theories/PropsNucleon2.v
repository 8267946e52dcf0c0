(** Properties C19, C22, C24, C25 for the nucleon models; a concrete model for all nucleon theorems. *)
From Coq Require Import String Reals Bool Arith List Lra Permutation.
From Verif Require Import PyBase CNum UAMaps UAComponents PyExpr Nucleon MapProofs ComponentProofs
  ExprProofs KaonProofs SectorProofs KaonSpec NucleonCache NucleonProofs NucleonView NucleonSpec
  PropsMaps PropsOther PropsKaon PropsKaon2 PropsNucleon.
Import ListNotations.
Local Open Scope R_scope.
Local Open Scope py_scope.
Local Open Scope string_scope.

#[local] Arguments String.append : simpl never.

(** ** C22 Zero widths *)

Lemma nc_build_zero : forall t_0 t_in m,
  nc_build (nucleon_class New) t_0 t_in m 0 = nc_build (nucleon_class Old) t_0 t_in m 0.
Proof.
  intros. cbn [nucleon_class nc_build NucleonUAModel NucleonUAModelOld].
  unfold build_component_nucleon, build_component. rewrite meson_pole_0. reflexivity.
Qed.

Lemma components_zero : forall attrs (P : string -> R) s d names,
  (forall n, mem n NucleonUAModel_formals = true -> attr attrs n = Ok (P n)) ->
  (forall r, In r names -> In r (iso_names s)) ->
  (forall r, P ("decay_rate_" ++ r) = 0) ->
  nucleon_init_components (nucleon_class New) attrs (ff_name d) (iso_name s) names =
  nucleon_init_components (nucleon_class Old) attrs (ff_name d) (iso_name s) names.
Proof.
  intros attrs P s d names HA HN Z. unfold nucleon_init_components. apply mapM_ext_in. intros r Hr.
  destruct (in_iso_names s r (HN r Hr)) as [F1 F2]. rewrite (HA _ F2), Z.
  destruct (attr attrs ("mass_" ++ r)); cbn [bind]; [|reflexivity].
  destruct (attr attrs ("t_0_" ++ ff_name d ++ "_" ++ iso_name s)); cbn [bind]; [|reflexivity].
  destruct (attr attrs ("t_in_" ++ ff_name d ++ "_" ++ iso_name s)); cbn [bind]; [|reflexivity].
  now rewrite nc_build_zero.
Qed.

Lemma init_zero : forall p e kw, (forall r, kwval kw ("decay_rate_" ++ r) = 0) ->
  (is_ok (Nucleon_init (nucleon_class New) p e kw) /\ is_ok (Nucleon_init (nucleon_class Old) p e kw)) \/
  (exists x, Nucleon_init (nucleon_class New) p e kw = Err x /\ Nucleon_init (nucleon_class Old) p e kw = Err x).
Proof.
  intros p e kw Z.
  assert (Q : match Nucleon_init (nucleon_class New) p e kw, Nucleon_init (nucleon_class Old) p e kw with
              | Ok _, Ok _ => True | Err x, Err y => x = y | _, _ => False end).
  { unfold Nucleon_init.
    change (nc_formals (nucleon_class Old)) with (nc_formals (nucleon_class New)).
    change (nc_assign (nucleon_class Old)) with (nc_assign (nucleon_class New)).
    destruct (bind_kwargs (nc_formals (nucleon_class New)) kw) as [args|x] eqn:E; cbn [bind]; [|reflexivity].
    destruct (assign_identity New args kw E) as [attrs [E2 HA]]. rewrite E2. cbn [bind].
    destruct (nucleon_map attrs "dirac_isoscalar"); cbn [bind]; [|reflexivity].
    destruct (nucleon_map attrs "dirac_isovector"); cbn [bind]; [|reflexivity].
    destruct (nucleon_map attrs "pauli_isoscalar"); cbn [bind]; [|reflexivity].
    destruct (nucleon_map attrs "pauli_isovector"); cbn [bind]; [|reflexivity].
    destruct (nucleon_names New) as [NS NV]. destruct (nucleon_names Old) as [NS' NV']. rewrite NS, NV, NS', NV'.
    assert (X := fun s d => components_zero attrs (kwval kw) s d (iso_names s) HA (fun _ h => h) Z).
    assert (X1 := X true true). assert (X2 := X false true). assert (X3 := X true false). assert (X4 := X false false).
    cbn [ff_name iso_name] in X1, X2, X3, X4. rewrite X1, X2, X3, X4.
    repeat (match goal with |- context [bind ?a _] => destruct a; cbn [bind]; [|reflexivity] end).
    exact I. }
  destruct (Nucleon_init (nucleon_class New) p e kw) as [a|x], (Nucleon_init (nucleon_class Old) p e kw) as [b|y];
    try contradiction.
  - left. split; eexists; reflexivity.
  - right. subst y. eauto.
Qed.

(** At zero width the mass term is the squared mass times a factor common to the sector. *)
Definition kappa (t_0 t_in : R) : C :=
  if Req_EM_T t_0 0 then RtoC (- / (4 * t_in)) else Copp (Cdivt (Csq (Wt t_0 t_in 0)) (RtoC t_0)).

Lemma kappa_neq0 : forall t_0 t_in, 0 <= t_0 -> t_0 < t_in -> kappa t_0 t_in <> RtoC 0.
Proof.
  intros t_0 t_in H0 Hlt. unfold kappa. destruct (Req_EM_T t_0 0) as [E|N].
  - apply RtoC_neq0. apply Ropp_neq_0_compat, Rinv_neq_0_compat. lra.
  - intros Z. assert (N2 : RtoC t_0 <> RtoC 0) by now apply RtoC_neq0.
    assert (W : Wt t_0 t_in 0 <> RtoC 0).
    { intros F. apply Wt_0_iff in F; [|assumption|now apply (zero_neq_tin t_0)]. apply RtoC_inj in F. lra. }
    assert (Y : Csq (Wt t_0 t_in 0) = RtoC 0).
    { transitivity (Copp (RtoC t_0 * Copp (Cdivt (Csq (Wt t_0 t_in 0)) (RtoC t_0)))%C); [field; assumption|].
      rewrite Z. ring. }
    unfold Csq in Y. apply Cmul_integral in Y. tauto.
Qed.

Lemma MT_zero_width : forall t_0 t_in m, 0 <= t_0 -> t_0 < t_in ->
  is_ok (nc_build (nucleon_class New) t_0 t_in m 0) ->
  MT New t_0 t_in m 0 = (kappa t_0 t_in * MT Old t_0 t_in m 0)%C.
Proof.
  intros t_0 t_in m H0 Hlt A. assert (A' := A). destruct A' as [c B].
  destruct (nbuild_inv _ _ _ _ _ _ Hlt B) as [_ [G _]].
  apply nbuild_accept in A; [|lra]. destruct A as [_ [L [N1 N2]]].
  rewrite <- resonance_pole_eq in N1, N2. rewrite meson_pole_0 in *.
  assert (Lt : t_0 < m * m).
  { assert (m * m <> t_0) by (intros E; apply N2; now rewrite E). lra. }
  unfold MT. rewrite meson_pole_0. cbn [nvariant] in *. rewrite meson_pole_0 in G. rewrite meson_pole_0. cbn [RtoC Re] in *.
  rewrite (Dfac_real_pole t_0 t_in Hlt _ _ G Lt).
  set (wm := Wt t_0 t_in (RtoC (m * m))) in *. set (wn := Wt t_0 t_in 0) in *.
  assert (Wm0 : wm <> RtoC 0).
  { intros F. apply Wt_0_iff in F; [|assumption|assumption]. contradiction. }
  assert (IDm := W_identity_sq t_0 t_in Hlt _ N1 N2). fold wm in IDm.
  (* |wm - 1/wm|^2 = 4 (t_in - t_0) / (m^2 - t_0) *)
  assert (AB : RtoC (Cabs (wm - Cinv wm)%C * Cabs (wm - Cinv wm)%C) = Cdivt (RtoC (4 * (t_in - t_0))) (RtoC (m * m) - RtoC t_0)%C).
  { assert (E : Cabs (wm - Cinv wm)%C * Cabs (wm - Cinv wm)%C = Cabs (Csq (wm - Cinv wm)%C)) by (unfold Csq; now rewrite Cabs_mul).
    rewrite E, IDm, Cabs_opp. rewrite <- RtoC_sub, <- RtoC_div, Cabs_RtoC by lra.
    rewrite Rabs_pos_eq; [reflexivity|]. apply Rlt_le, Rdiv_lt_0_compat; lra. }
  replace (RtoC (- (Cabs (wm - Cinv wm)%C * Cabs (wm - Cinv wm)%C)))
    with (Copp (RtoC (Cabs (wm - Cinv wm)%C * Cabs (wm - Cinv wm)%C))) by (Cext; ring).
  rewrite AB.
  assert (D1 : (RtoC (m * m) - RtoC t_0)%C <> RtoC 0) by (rewrite <- RtoC_sub; apply RtoC_neq0; lra).
  assert (D2 : RtoC (4 * (t_in - t_0)) <> RtoC 0) by (apply RtoC_neq0; lra).
  unfold kappa. destruct (Req_EM_T t_0 0) as [E|N].
  - assert (Wn : wn = RtoC 0).
    { unfold wn. apply Wt_0_iff; [assumption|now apply (zero_neq_tin t_0)|]. now rewrite E. }
    rewrite Wn. rewrite E in *.
    assert (TI : RtoC t_in <> RtoC 0) by (apply RtoC_neq0; lra).
    replace (RtoC (- / (4 * t_in))) with (Copp (Cinv (RtoC 4 * RtoC t_in)%C)) by (rewrite <- RtoC_mul, <- RtoC_inv by lra; Cext; ring).
    replace (RtoC (4 * (t_in - 0))) with (RtoC 4 * RtoC t_in)%C in * by (rewrite <- RtoC_mul; f_equal; ring).
    rewrite RtoC_mul in *.
    assert (F4 : RtoC 4 <> RtoC 0) by (apply RtoC_neq0; lra).
    assert (M0 : RtoC m <> RtoC 0) by (apply RtoC_neq0; intros F; rewrite F in Lt; lra).
    field. repeat split; auto. intros F. apply D2. transitivity (Copp (Copp (RtoC 4 * RtoC t_in))%C); [ring|]. rewrite F. ring.
  - assert (Nt : RtoC 0 <> RtoC t_0) by (intros F; apply RtoC_inj in F; lra).
    assert (Z0 : RtoC t_0 <> RtoC 0) by congruence.
    assert (IDn := W_identity_sq t_0 t_in Hlt _ (zero_neq_tin t_0 t_in H0 Hlt) Nt). fold wn in IDn.
    assert (Wn0 : wn <> RtoC 0).
    { intros F. apply Wt_0_iff in F; [contradiction|assumption|now apply (zero_neq_tin t_0)]. }
    transitivity (Cdivt (Csq wn * (Csq (wn - Cinv wn) - Csq (wm - Cinv wm)))%C
                        (Copp (Cdivt (RtoC (4 * (t_in - t_0))) (RtoC (m * m) - RtoC t_0)%C))).
    + f_equal. unfold Csq. field. tauto.
    + rewrite IDn, IDm. fold wn. clear IDn IDm AB. generalize dependent (RtoC (4 * (t_in - t_0))). intros D D2.
      rewrite (RtoC_mul m m) in *.
      assert (D3 : (RtoC 0 - RtoC t_0)%C <> RtoC 0).
      { intros F. apply Z0. transitivity (Copp (RtoC 0 - RtoC t_0)%C); [ring|]. rewrite F. ring. }
      assert (D4 : Copp D <> RtoC 0).
      { intros F. apply D2. transitivity (Copp (Copp D)); [ring|]. rewrite F. ring. }
      field. repeat split; auto. intros F. apply D3. transitivity (Copp (RtoC t_0)); [ring|assumption].
Qed.

Lemma NC_zero_width : forall t_0 t_in m t, NC New t_0 t_in m 0 t = NC Old t_0 t_in m 0 t.
Proof. intros. unfold NC, nvariant. rewrite meson_pole_0. reflexivity. Qed.

Lemma combo2_scale : forall K c c' F x y r, K <> RtoC 0 -> c x = (K * c' x)%C -> c y = (K * c' y)%C -> c r = (K * c' r)%C ->
  c' x <> c' y -> combo2 c F x y r = combo2 c' F x y r.
Proof.
  intros K c c' F x y r HK E1 E2 E3 N. unfold combo2. rewrite E1, E2, E3.
  assert (M : forall a b, a <> b -> Csub a b <> RtoC 0) by (intros a b; apply Csub_neq0).
  assert (S : forall a b, (K * a - K * b)%C = (K * (a - b))%C) by (intros; ring). rewrite !S.
  field. repeat split; try assumption; apply M; auto.
Qed.

Lemma combo3_scale : forall K c c' F x y z r, K <> RtoC 0 -> c x = (K * c' x)%C -> c y = (K * c' y)%C ->
  c z = (K * c' z)%C -> c r = (K * c' r)%C ->
  c' x <> c' y -> c' z <> c' y -> c' z <> c' x -> combo3 c F x y z r = combo3 c' F x y z r.
Proof.
  intros K c c' F x y z r HK E1 E2 E3 E4 N1 N2 N3. unfold combo3. rewrite E1, E2, E3, E4.
  assert (M : forall a b, a <> b -> Csub a b <> RtoC 0) by (intros a b; apply Csub_neq0).
  assert (S : forall a b d, Csub d b <> RtoC 0 -> Cdivt (K * d - K * a)%C (K * d - K * b)%C = Cdivt (d - a)%C (d - b)%C).
  { intros a b d H. transitivity (Cdivt (K * (d - a))%C (K * (d - b))%C); [f_equal; ring|]. field. now split. }
  rewrite !S by (apply M; auto). reflexivity.
Qed.

Theorem C22_zero_width_agreement : forall proton electric kw t,
  (forall r, kwval kw ("decay_rate_" ++ r) = 0) ->
  evaluate New proton electric kw t = evaluate Old proton electric kw t.
Proof.
  intros p e kw t Z.
  destruct (init_zero p e kw Z) as [[ON OO]|[x [EN EO]]]; [|unfold evaluate; now rewrite EN, EO].
  destruct (evaluate_built New p e kw) as [[m [c [E [B X]]]]|[x [E X]]]; [|destruct ON; congruence].
  destruct (evaluate_built Old p e kw) as [[m' [c' [E' [B' X']]]]|[x [E' X']]]; [|destruct OO; congruence].
  rewrite X, X'. destruct (Rlt_dec (Re t) 0) as [L|L].
  { unfold call_pure. destruct (Rlt_dec (Re t) 0); [reflexivity|contradiction]. }
  destruct (Classical_Prop.classic (nondegenerate kw)) as [ND|ND];
    [|rewrite (call_degenerate New p e kw m B), (call_degenerate Old p e kw m' B') by (assumption || lra); reflexivity].
  assert (FE : forall s d r, Fv New (kwval kw) s d t r = Fv Old (kwval kw) s d t r).
  { intros s d r. unfold Fv. rewrite Z. apply NC_zero_width. }
  assert (CE : forall s d r, In r (iso_names s) ->
    cv New (kwval kw) s d r = (kappa (bp0 (kwval kw) s d) (bpin (kwval kw) s d) * cv Old (kwval kw) s d r)%C).
  { intros s d r Hr. unfold cv. rewrite Z. assert (V := nb_valid _ _ _ _ _ B s d).
    apply MT_zero_width; [tauto|apply ND|]. destruct (nb_comp _ _ _ _ _ B s d r Hr) as [c0 [_ Bc]].
    rewrite Z in Bc. now exists c0. }
  assert (KN : forall s d, kappa (bp0 (kwval kw) s d) (bpin (kwval kw) s d) <> RtoC 0).
  { intros s d. apply kappa_neq0; [apply (nb_valid _ _ _ _ _ B)|apply ND]. }
  assert (NE : forall s d r r', In r (iso_names s) -> In r' (iso_names s) ->
    (cv New (kwval kw) s d r <> cv New (kwval kw) s d r' <-> cv Old (kwval kw) s d r <> cv Old (kwval kw) s d r')).
  { intros s d r r' H1 H2. rewrite (CE s d r H1), (CE s d r' H2). split; intros N F; apply N; [now rewrite F|].
    assert (Y : (kappa (bp0 (kwval kw) s d) (bpin (kwval kw) s d) * (cv Old (kwval kw) s d r - cv Old (kwval kw) s d r'))%C = RtoC 0).
    { transitivity (kappa (bp0 (kwval kw) s d) (bpin (kwval kw) s d) * cv Old (kwval kw) s d r -
        kappa (bp0 (kwval kw) s d) (bpin (kwval kw) s d) * cv Old (kwval kw) s d r')%C; [ring|]. rewrite F. ring. }
    apply Cmul_integral in Y. destruct Y as [Y|Y]; [now apply KN in Y|]. now apply Csub_eq0. }
  assert (IS : forall r, mem r (iso_names true) = true -> In r (iso_names true)) by (intros; now apply mem_In).
  assert (IV : forall r, mem r (iso_names false) = true -> In r (iso_names false)) by (intros; now apply mem_In).
  assert (DT : forall s d, distinct_terms s d (cv New (kwval kw) s d) <-> distinct_terms s d (cv Old (kwval kw) s d)).
  { intros [] []; cbn [distinct_terms]; rewrite ?NE by (apply IS; reflexivity); rewrite ?NE by (apply IV; reflexivity); tauto. }
  assert (DC : call_defined New kw e t <-> call_defined Old kw e t).
  { unfold call_defined, contribution_defined. split; intros [A1 A2]; (split; [|assumption]); intros s d;
      destruct (A1 s d) as [A3 [A4 A5]]; (split; [assumption|split; [assumption|now apply DT]]). }
  destruct (call_cases New p e kw m B t ND) as [[D1 Y1]|[D1 Y1]]; [lra| |];
  (destruct (call_cases Old p e kw m' B' t ND) as [[D2 Y2]|[D2 Y2]]; [lra| |]); rewrite Y1, Y2; try tauto.
  f_equal.
  assert (PE : forall s d, part New kw s d t = part Old kw s d t).
  { intros s d. unfold part. destruct D2 as [D2 _]. destruct (D2 s d) as [_ [_ DD]].
    assert (EF : formula (kwval kw) s d (cv Old (kwval kw) s d) (Fv New (kwval kw) s d t) =
                 formula (kwval kw) s d (cv Old (kwval kw) s d) (Fv Old (kwval kw) s d t)).
    { destruct s, d; cbn [formula]; unfold combo2, combo3; now rewrite !FE. }
    rewrite <- EF. clear EF. set (K := kappa (bp0 (kwval kw) s d) (bpin (kwval kw) s d)) in *.
    assert (HK := KN s d). fold K in HK. assert (HC := CE s d). fold K in HC.
    destruct s, d; cbn [formula distinct_terms] in *.
    - rewrite !(combo2_scale K (cv New (kwval kw) true true) (cv Old (kwval kw) true true))
        by (try assumption; apply HC, IS; reflexivity). reflexivity.
    - rewrite !(combo3_scale K (cv New (kwval kw) true false) (cv Old (kwval kw) true false))
        by (try tauto; apply HC, IS; reflexivity). reflexivity.
    - rewrite !(combo2_scale K (cv New (kwval kw) false true) (cv Old (kwval kw) false true))
        by (try assumption; apply HC, IV; reflexivity). reflexivity.
    - reflexivity. }
  unfold combined. now rewrite !PE.
Qed.
Print Assumptions C22_zero_width_agreement.

(** ** C24 Fall-off *)

Lemma decays_mul_t : forall n f, decays (S n) f -> decays n (fun t => (t * f t)%C).
Proof.
  intros n f [K [T [K0 [T0 F]]]]. exists K, T. repeat split; try assumption. intros t Ht.
  rewrite Cabs_mul. assert (Tp : 0 < Cabs t) by lra. assert (Pn := pow_lt (Cabs t) n Tp).
  assert (E := F t Ht).
  replace (K / Cabs t ^ n) with (Cabs t * (K / Cabs t ^ S n)) by (simpl pow; field; lra).
  apply Rmult_le_compat_l; lra.
Qed.

Lemma combo2_decays : forall c (F : string -> C -> C) x y r,
  decays 1 (F x) -> decays 1 (F y) -> decays 1 (F r) -> decays 2 (fun t => combo2 c (fun n => F n t) x y r).
Proof.
  intros c F x y r Dx Dy Dr.
  apply (decays_ext 2 (fun t => Cdivt (c x - c r) (c x - c y) * (F x t * F r t) +
    (Cdivt (c y - c r) (c y - c x) * (F y t * F r t) + Copp (RtoC 1) * (F x t * F y t)))%C).
  { intros t. unfold combo2, Cdivt. ring. }
  repeat apply decays_add; apply decays_scale; now apply (decays_mul 1 1).
Qed.

Lemma combo3_decays : forall c (F : string -> C -> C) x y z r,
  decays 1 (F x) -> decays 1 (F y) -> decays 1 (F z) -> decays 1 (F r) ->
  decays 3 (fun t => combo3 c (fun n => F n t) x y z r).
Proof.
  intros c F x y z r Dx Dy Dz Dr.
  apply (decays_ext 3 (fun t =>
    (Cdivt (c x - c r) (c x - c y) * Cdivt (c z - c r) (c z - c y)) * (F x t * (F z t * F r t)) +
    ((Cdivt (c y - c r) (c y - c x) * Cdivt (c z - c r) (c z - c x)) * (F y t * (F z t * F r t)) +
     ((Cdivt (c y - c r) (c y - c z) * Cdivt (c x - c r) (c x - c z)) * (F y t * (F x t * F r t)) +
      Copp (RtoC 1) * (F y t * (F x t * F z t)))))%C).
  { intros t. unfold combo3, Cdivt. ring. }
  repeat apply decays_add; apply decays_scale;
    (apply (decays_mul 1 2); [assumption|now apply (decays_mul 1 1)]).
Qed.

Lemma part_decays : forall k kw s d,
  (forall r, In r (iso_names s) -> decays 1 (fun t => Fv k (kwval kw) s d t r)) ->
  decays (if d then 2 else 3) (fun t => part k kw s d t).
Proof.
  intros k kw s d H. set (F := fun r t => Fv k (kwval kw) s d t r).
  assert (X : forall r, mem r (iso_names s) = true -> decays 1 (F r)) by (intros r Hr; apply H; now apply mem_In).
  apply (decays_ext _ (fun t => formula (kwval kw) s d (cv k (kwval kw) s d) (fun n => F n t))).
  { intros t. unfold part, F. destruct s, d; reflexivity. }
  generalize (cv k (kwval kw) s d). intros c. clearbody F. clear H.
  destruct s, d; cbn [formula].
  - repeat apply decays_add; apply decays_scale;
      [apply (decays_mul 1 1); now apply X|apply combo2_decays; now apply X..].
  - repeat apply decays_add; apply decays_scale;
      [apply (decays_mul 2 1); [apply (decays_mul 1 1)|]; now apply X|apply combo3_decays; now apply X..].
  - repeat apply decays_add; apply decays_scale;
      [apply (decays_mul 1 1); now apply X|apply combo2_decays; now apply X..].
  - repeat apply decays_add; apply decays_scale; (apply (decays_mul 2 1); [apply (decays_mul 1 1)|]; now apply X).
Qed.

Theorem C24_nucleon_falls_off : forall k proton electric kw,
  exists K T, 0 <= K /\ 0 < T /\
  forall t v, T <= Cabs t -> evaluate k proton electric kw t = Ok v -> Cabs v <= K / (Cabs t * Cabs t).
Proof.
  intros k p e kw. destruct (evaluate_built k p e kw) as [[m [c [E [B X]]]]|[x [E X]]].
  2: { exists 0, 1. split; [lra|]. split; [lra|]. intros t v _ F. rewrite X in F. discriminate. }
  destruct (Classical_Prop.classic (nondegenerate kw)) as [ND|ND].
  2: { exists 0, 1. split; [lra|]. split; [lra|]. intros t v _ F. apply evaluate_Ok in F.
       destruct F as [? [_ [F _]]]. contradiction. }
  assert (D : forall s d : bool, decays (if d then 2 else 3) (fun t => part k kw s d t)).
  { intros s d. apply part_decays. intros r Hr. unfold Fv, NC.
    destruct (nb_comp _ _ _ _ _ B s d r Hr) as [c0 [_ Bc]].
    destruct (nbuild_inv _ _ _ _ _ _ (ND s d) Bc) as [H0 [G _]].
    apply comp_decays; [assumption|apply ND|exact G]. }
  assert (DD : decays 2 (fun t => combined k kw p e t)).
  { assert (D1 := D true true). assert (D2 := D false true). assert (D3 := D true false). assert (D4 := D false false).
    cbn in D1, D2, D3, D4.
    set (sg := if p then RtoC 1 else Copp (RtoC 1)).
    set (M := RtoC (4 * (kwval kw "nucleon_mass" * kwval kw "nucleon_mass"))).
    assert (P3 : decays 3 (fun t => part k kw true false t + sg * part k kw false false t)%C).
    { apply decays_add; [exact D3|exact (decays_scale 3 sg _ D4)]. }
    apply (decays_ext 2 (fun t => (part k kw true true t + sg * part k kw false true t) +
      (if e then Cinv M * (t * (part k kw true false t + sg * part k kw false false t))
       else part k kw true false t + sg * part k kw false false t))%C).
    { intros t. unfold combined, sg, Cdivt. fold M. destruct p, e; ring. }
    assert (P2 : decays 2 (fun t => part k kw true true t + sg * part k kw false true t)%C).
    { apply decays_add; [exact D1|exact (decays_scale 2 sg _ D2)]. }
    clearbody sg M. clear D1 D2 D3 D4 D X B. destruct e.
    - apply decays_add; [exact P2|]. apply decays_scale. now apply (decays_mul_t 2).
    - apply decays_add; [exact P2|]. now apply (decays_weaken 3); [auto|]. }
  destruct DD as [K [T [K0 [T0 F]]]]. exists K, T. split; [assumption|]. split; [assumption|].
  intros t v HT Ev. apply evaluate_Ok in Ev. destruct Ev as [m' [_ [_ [_ [_ ->]]]]].
  replace (Cabs t * Cabs t) with (Cabs t ^ 2) by ring. now apply F.
Qed.
Print Assumptions C24_nucleon_falls_off.

(** ** C19 Branch point validation *)

Theorem C19_nucleon_rejects : forall k proton electric kw, Permutation (map fst kw) nucleon_keywords ->
  (exists sector, In sector ["dirac_isoscalar"; "dirac_isovector"; "pauli_isoscalar"; "pauli_isovector"] /\
     (kwval kw ("t_0_" ++ sector) < 0 \/ kwval kw ("t_in_" ++ sector) < kwval kw ("t_0_" ++ sector))) ->
  Nucleon_init (nucleon_class k) proton electric kw = Err ValueError.
Proof.
  intros k p e kw HP [sector [HI HV]].
  assert (A : is_ok (bind_kwargs (nc_formals (nucleon_class k)) kw)).
  { rewrite bind_kwargs_ok_iff by apply nucleon_formals_NoDup.
    eapply Permutation_trans; [exact HP|]. apply nucleon_keywords_formals. }
  destruct A as [args A]. destruct (assign_identity k args kw A) as [attrs [E2 HA]].
  unfold Nucleon_init. rewrite A. cbn [bind]. rewrite E2. cbn [bind].
  assert (M : forall s d, nucleon_map attrs (ff_name d ++ "_" ++ iso_name s) = Err ValueError \/
     (is_ok (nucleon_map attrs (ff_name d ++ "_" ++ iso_name s)) /\ 0 <= bp0 (kwval kw) s d <= bpin (kwval kw) s d)).
  { intros s d. destruct (Rlt_dec (bp0 (kwval kw) s d) 0); [left; apply (nucleon_map_err attrs (kwval kw)); auto|].
    destruct (Rlt_dec (bpin (kwval kw) s d) (bp0 (kwval kw) s d)); [left; apply (nucleon_map_err attrs (kwval kw)); auto|].
    right. split; [|lra]. rewrite (nucleon_map_ok attrs (kwval kw)) by (assumption || lra). eexists; reflexivity. }
  destruct (M true true) as [M1|[[x1 M1] V1]];
    change (ff_name true ++ "_" ++ iso_name true) with "dirac_isoscalar" in M1; rewrite M1; cbn [bind]; [reflexivity|].
  destruct (M false true) as [M2|[[x2 M2] V2]];
    change (ff_name true ++ "_" ++ iso_name false) with "dirac_isovector" in M2; rewrite M2; cbn [bind]; [reflexivity|].
  destruct (M true false) as [M3|[[x3 M3] V3]];
    change (ff_name false ++ "_" ++ iso_name true) with "pauli_isoscalar" in M3; rewrite M3; cbn [bind]; [reflexivity|].
  destruct (M false false) as [M4|[[x4 M4] V4]];
    change (ff_name false ++ "_" ++ iso_name false) with "pauli_isovector" in M4; rewrite M4; cbn [bind]; [reflexivity|].
  exfalso. unfold bp0, bpin in V1, V2, V3, V4.
  simpl in HI. destruct HI as [<-|[<-|[<-|[<-|[]]]]].
  - cbn [ff_name iso_name] in V1. change ("t_0_" ++ "dirac" ++ "_" ++ "isoscalar") with "t_0_dirac_isoscalar" in V1.
    change ("t_in_" ++ "dirac" ++ "_" ++ "isoscalar") with "t_in_dirac_isoscalar" in V1.
    change ("t_0_" ++ "dirac_isoscalar") with "t_0_dirac_isoscalar" in HV.
    change ("t_in_" ++ "dirac_isoscalar") with "t_in_dirac_isoscalar" in HV. lra.
  - cbn [ff_name iso_name] in V2. change ("t_0_" ++ "dirac" ++ "_" ++ "isovector") with "t_0_dirac_isovector" in V2.
    change ("t_in_" ++ "dirac" ++ "_" ++ "isovector") with "t_in_dirac_isovector" in V2.
    change ("t_0_" ++ "dirac_isovector") with "t_0_dirac_isovector" in HV.
    change ("t_in_" ++ "dirac_isovector") with "t_in_dirac_isovector" in HV. lra.
  - cbn [ff_name iso_name] in V3. change ("t_0_" ++ "pauli" ++ "_" ++ "isoscalar") with "t_0_pauli_isoscalar" in V3.
    change ("t_in_" ++ "pauli" ++ "_" ++ "isoscalar") with "t_in_pauli_isoscalar" in V3.
    change ("t_0_" ++ "pauli_isoscalar") with "t_0_pauli_isoscalar" in HV.
    change ("t_in_" ++ "pauli_isoscalar") with "t_in_pauli_isoscalar" in HV. lra.
  - cbn [ff_name iso_name] in V4. change ("t_0_" ++ "pauli" ++ "_" ++ "isovector") with "t_0_pauli_isovector" in V4.
    change ("t_in_" ++ "pauli" ++ "_" ++ "isovector") with "t_in_pauli_isovector" in V4.
    change ("t_0_" ++ "pauli_isovector") with "t_0_pauli_isovector" in HV.
    change ("t_in_" ++ "pauli_isovector") with "t_in_pauli_isovector" in HV. lra.
Qed.
Print Assumptions C19_nucleon_rejects.

Theorem C19_degenerate_nucleon_never_returns : forall k proton electric kw m cache t,
  Nucleon_init (nucleon_class k) proton electric kw = Ok (m, cache) ->
  (exists s d, bp0 (kwval kw) s d = bpin (kwval kw) s d) ->
  0 <= Re t -> evaluate k proton electric kw t = Err ZeroDivisionError.
Proof.
  intros k p e kw m cache t H [s [d D]] Ht.
  destruct (evaluate_built k p e kw) as [[m' [c' [E [B X]]]]|[x [E _]]]; [|congruence]. rewrite X.
  apply (call_degenerate k p e kw m' B); [|assumption]. intros N. specialize (N s d). lra.
Qed.
Print Assumptions C19_degenerate_nucleon_never_returns.

(** ** C25 Acceptance *)

Theorem C25_nucleon_accepts_iff : forall k p e kw,
  is_ok (Nucleon_init (nucleon_class k) p e kw) <->
  Permutation (map fst kw) nucleon_keywords /\
  nucleon_sector_accepted k (kwval kw) (kwval kw "t_0_dirac_isoscalar") (kwval kw "t_in_dirac_isoscalar") isoscalar_mesons /\
  nucleon_sector_accepted k (kwval kw) (kwval kw "t_0_dirac_isovector") (kwval kw "t_in_dirac_isovector") isovector_mesons /\
  nucleon_sector_accepted k (kwval kw) (kwval kw "t_0_pauli_isoscalar") (kwval kw "t_in_pauli_isoscalar") isoscalar_mesons /\
  nucleon_sector_accepted k (kwval kw) (kwval kw "t_0_pauli_isovector") (kwval kw "t_in_pauli_isovector") isovector_mesons.
Proof. exact Nucleon_accept_iff. Qed.
Print Assumptions C25_nucleon_accepts_iff.

(** ** A concrete model *)

(** Shared, isoscalar and isovector parameters in the order of [nucleon_keywords]; [g] is the
    width of omega and rho, all other widths are 0. *)
Definition demo_nucleon (g : R) : env R :=
  combine nucleon_keywords
   [1; 14/5; -19/10;
    1; 2; 1; 2;
    1/3; 1/7; -1/5; 1/11;  1/13; 2/3; -3/7;
    2; 3; 4; 5; 6; 7;  g; 0; 0; 0; 0; 0;
    1; 2; 1; 2;
    1/9; 2; 3; 4;  g; 0; 0].

Lemma demo_nucleon_accepted : forall k p e g, 0 <= g <= 1/2 ->
  is_ok (Nucleon_init (nucleon_class k) p e (demo_nucleon g)).
Proof.
  intros k p e g Hg. apply Nucleon_accept_iff. split; [reflexivity|].
  assert (Z : forall m, resonance_pole m 0 = RtoC (m * m)).
  { intros m. rewrite <- resonance_pole_eq. apply meson_pole_0. }
  assert (NZ : forall m, 2 <= m -> nucleon_resonance_accepted k 1 2 m 0).
  { intros m Hm. assert (4 <= m * m) by nra. destruct k; cbn [nucleon_resonance_accepted].
    - rewrite !Z. split; [lra|]. split; intros F; apply RtoC_inj in F; lra.
    - unfold resonance_accepted. rewrite !Z. split; [lra|]. split; [|lra]. intros F; apply RtoC_inj in F; lra. }
  assert (NG : nucleon_resonance_accepted k 1 2 2 g).
  { assert (0 <= g * g <= 1/4) by nra.
    assert (Q : forall x : R, x <= 2 -> resonance_pole 2 g <> RtoC x).
    { intros x Hx F. rewrite <- resonance_pole_eq in F. assert (F1 := f_equal Re F). rewrite Re_meson_pole in F1. simpl in F1. lra. }
    destruct k; cbn [nucleon_resonance_accepted].
    - split; [lra|]. split; apply Q; lra.
    - unfold resonance_accepted. split; [lra|]. split; [apply Q; lra|lra]. }
  assert (S : nucleon_sector_accepted k (kwval (demo_nucleon g)) 1 2 isoscalar_mesons).
  { split; [lra|]. split; [lra|]. intros n Hn. simpl in Hn.
    destruct Hn as [<-|[<-|[<-|[<-|[<-|[<-|[]]]]]]];
      [exact NG|exact (NZ 3 ltac:(lra))|exact (NZ 4 ltac:(lra))|exact (NZ 5 ltac:(lra))|exact (NZ 6 ltac:(lra))|exact (NZ 7 ltac:(lra))]. }
  assert (V : nucleon_sector_accepted k (kwval (demo_nucleon g)) 1 2 isovector_mesons).
  { split; [lra|]. split; [lra|]. intros n Hn. simpl in Hn.
    destruct Hn as [<-|[<-|[<-|[]]]]; [exact NG|exact (NZ 3 ltac:(lra))|exact (NZ 4 ltac:(lra))]. }
  exact (conj S (conj V (conj S V))).
Qed.

Lemma demo_bp : forall g s d, bp0 (kwval (demo_nucleon g)) s d = 1 /\ bpin (kwval (demo_nucleon g)) s d = 2.
Proof. intros g [] []; split; reflexivity. Qed.

Lemma demo_cv_zero : forall k m m', 2 <= m -> 2 <= m' -> m <> m' -> MT k 1 2 m 0 <> MT k 1 2 m' 0.
Proof.
  intros k m m' H H' N.
  assert (Q : MT Old 1 2 m 0 <> MT Old 1 2 m' 0).
  { unfold MT. rewrite <- !RtoC_mul. intros F. apply RtoC_inj in F. apply N. nra. }
  destruct k; [|exact Q].
  assert (A : forall x, 2 <= x -> is_ok (nc_build (nucleon_class New) 1 2 x 0)).
  { intros x Hx. apply nbuild_accept; [lra|]. split; [lra|]. cbn [nucleon_resonance_accepted].
    rewrite <- resonance_pole_eq, meson_pole_0. assert (4 <= x * x) by nra. split; [lra|].
    split; intros F; apply RtoC_inj in F; lra. }
  rewrite !MT_zero_width by (try lra; now apply A). intros F. apply Q.
  assert (KN : kappa 1 2 <> RtoC 0) by (apply kappa_neq0; lra).
  assert (Y : (kappa 1 2 * (MT Old 1 2 m 0 - MT Old 1 2 m' 0))%C = RtoC 0).
  { transitivity (kappa 1 2 * MT Old 1 2 m 0 - kappa 1 2 * MT Old 1 2 m' 0)%C; [ring|]. rewrite F. ring. }
  apply Cmul_integral in Y. destruct Y as [Y|Y]; [contradiction|]. now apply Csub_eq0.
Qed.

Lemma demo_distinct : forall k g s d, distinct_terms s d (cv k (kwval (demo_nucleon g)) s d).
Proof.
  assert (X : forall k g s d r r' m m', 2 <= m -> 2 <= m' -> m <> m' ->
    kwval (demo_nucleon g) ("mass_" ++ r) = m -> kwval (demo_nucleon g) ("mass_" ++ r') = m' ->
    kwval (demo_nucleon g) ("decay_rate_" ++ r) = 0 -> kwval (demo_nucleon g) ("decay_rate_" ++ r') = 0 ->
    cv k (kwval (demo_nucleon g)) s d r <> cv k (kwval (demo_nucleon g)) s d r').
  { intros k g s d r r' m m' H H' N E1 E2 E3 E4. unfold cv. rewrite E1, E2, E3, E4.
    destruct (demo_bp g s d) as [-> ->]. now apply demo_cv_zero. }
  intros k g [] []; cbn [distinct_terms]; [| |..].
  - apply (X k g true true _ _ 7 4); try lra; reflexivity.
  - repeat split; [apply (X k g true false _ _ 7 4)|apply (X k g true false _ _ 3 4)|apply (X k g true false _ _ 3 7)]; try lra; reflexivity.
  - apply (X k g false true _ _ 3 4); try lra; reflexivity.
  - exact I.
Qed.

(** It returns a value off the real axis and at 0. *)
Example nucleon_instance : forall k p e, exists m v v0,
  Nucleon_init (nucleon_class k) p e (demo_nucleon (1/2)) = Ok (m, []) /\
  evaluate k p e (demo_nucleon (1/2)) (mkC 5 1) = Ok v /\
  evaluate k p e (demo_nucleon (1/2)) (RtoC 0) = Ok v0 /\
  (forall s, In s ["t_0_dirac_isoscalar"; "t_0_dirac_isovector"; "t_0_pauli_isoscalar"; "t_0_pauli_isovector"] ->
     plane_without_cut (kwval (demo_nucleon (1/2)) s) (mkC 5 1)).
Proof.
  intros k p e. destruct (demo_nucleon_accepted k p e (1/2) ltac:(lra)) as [[m c] H].
  assert (Hc := Nucleon_init_cache _ _ _ _ _ _ H). subst c.
  assert (ND : forall s d, bp0 (kwval (demo_nucleon (1/2))) s d < bpin (kwval (demo_nucleon (1/2))) s d).
  { intros s d. destruct (demo_bp (1/2) s d) as [-> ->]. lra. }
  destruct (C16_nucleon_returns_at_zero k p e _ m [] H ND (demo_distinct k (1/2))) as [v0 E0].
  { intros _. change (kwval (demo_nucleon (1/2)) "nucleon_mass") with 1. lra. }
  destruct (C18_nucleon_failure_set k p e _ m [] (mkC 5 1) H ND) as [F1 F2].
  assert (Ht : 0 <= Re (mkC 5 1)) by (simpl; lra). destruct (F2 Ht) as [F3 F4].
  destruct (evaluate k p e (demo_nucleon (1/2)) (mkC 5 1)) as [v|x] eqn:E.
  - exists m, v, v0. split; [assumption|]. split; [reflexivity|]. split; [assumption|].
    intros s _ [A _]. simpl in A. lra.
  - exfalso. specialize (F4 x eq_refl). subst x. destruct (proj1 F3 eq_refl) as [W|[W|[W|[W|[W|[W|W]]]]]];
      try (apply (f_equal Im) in W; simpl in W; lra).
    + destruct W as [n [Hn W]]. 
      assert (Q : forall m g, (g = 0 \/ (m = 2 /\ g = 1/2)) -> mkC 5 1 <> resonance_pole m g /\ mkC 5 1 <> Cconj (resonance_pole m g)).
      { intros m0 g [->|[-> ->]]; rewrite <- resonance_pole_eq; rewrite ?meson_pole_0.
        - split; intros F; apply (f_equal Im) in F; simpl in F; lra.
        - split; intros F; apply (f_equal Re) in F; cbn [Cconj Re] in F; rewrite Re_meson_pole in F; lra. }
      simpl in Hn. 
      repeat (destruct Hn as [<-|Hn]; [match type of W with ?A \/ ?B => idtac end;
        refine (match W with or_introl a => proj1 (Q _ _ _) a | or_intror b => proj2 (Q _ _ _) b end);
        first [left; reflexivity|right; split; reflexivity]|]). contradiction.
    + destruct W as [s [d W]]. apply W. apply demo_distinct.
    + destruct W as [_ W]. change (kwval (demo_nucleon (1/2)) "nucleon_mass") with 1 in W. lra.
Qed.

(** Zero widths: the hypothesis of C22 holds for a model that returns. *)
Example C22_instance : forall p e, exists v,
  (forall r, kwval (demo_nucleon 0) ("decay_rate_" ++ r) = 0) /\
  evaluate New p e (demo_nucleon 0) (RtoC 0) = Ok v /\ evaluate Old p e (demo_nucleon 0) (RtoC 0) = Ok v.
Proof.
  intros p e.
  assert (Z : forall r, kwval (demo_nucleon 0) ("decay_rate_" ++ r) = 0).
  { assert (Y : forall n l, (forall n' v, In (n', v) l -> prefix "decay_rate_" n' = true -> v = 0) ->
      prefix "decay_rate_" n = true -> kwval l n = 0).
    { intros n l H P. unfold kwval. induction l as [|[n' v] l IH]; [reflexivity|]. simpl.
      destruct (String.eqb n' n) eqn:E.
      - apply String.eqb_eq in E. subst n'. apply (H n v); [now left|assumption].
      - apply IH. intros n0 v0 H0. apply H. now right. }
    intros r. apply Y; [|destruct r; reflexivity]. intros n' v I P. unfold demo_nucleon in I. simpl in I.
    repeat (destruct I as [I|I]; [injection I as <- <-; first [discriminate P|reflexivity]|]). contradiction. }
  destruct (demo_nucleon_accepted New p e 0 ltac:(lra)) as [[m c] H].
  destruct (C16_nucleon_returns_at_zero New p e _ m c H) as [v E].
  - intros s d. destruct (demo_bp 0 s d) as [-> ->]. lra.
  - apply demo_distinct.
  - intros _. change (kwval (demo_nucleon 0) "nucleon_mass") with 1. lra.
  - exists v. split; [assumption|]. split; [assumption|]. now rewrite <- C22_zero_width_agreement.
Qed.
