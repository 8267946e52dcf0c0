(** Specification vocabulary for the nucleon models and its connection to the model. *)
From Coq Require Import String Reals Bool Arith List Lra Permutation.
From Verif Require Import PyBase CNum UAMaps UAComponents PyExpr Nucleon MapProofs ComponentProofs
  ExprProofs KaonProofs SectorProofs KaonSpec NucleonCache NucleonProofs NucleonView.
Import ListNotations.
Local Open Scope R_scope.
Local Open Scope py_scope.
Local Open Scope string_scope.

#[local] Arguments String.append : simpl never.

(** ** Specification *)

(** The result of building a model and evaluating it once. *)
Definition evaluate (k : nucleon_kind) (proton electric : bool) (kw : env R) (t : C) : Res C :=
  match Nucleon_init (nucleon_class k) proton electric kw with
  | Ok (m, cache) => fst (Nucleon_call m t cache)
  | Err x => Err x
  end.

Definition isoscalar_parameters : list string :=
  ["t_0_dirac_isoscalar"; "t_in_dirac_isoscalar"; "t_0_pauli_isoscalar"; "t_in_pauli_isoscalar";
   "a_dirac_omega"; "a_dirac_omega_prime"; "a_dirac_phi"; "a_dirac_phi_prime";
   "a_pauli_omega"; "a_pauli_phi"; "a_pauli_phi_prime";
   "mass_omega"; "mass_omega_prime"; "mass_omega_double_prime";
   "mass_phi"; "mass_phi_prime"; "mass_phi_double_prime";
   "decay_rate_omega"; "decay_rate_omega_prime"; "decay_rate_omega_double_prime";
   "decay_rate_phi"; "decay_rate_phi_prime"; "decay_rate_phi_double_prime"].
Definition isovector_parameters : list string :=
  ["t_0_dirac_isovector"; "t_in_dirac_isovector"; "t_0_pauli_isovector"; "t_in_pauli_isovector";
   "a_dirac_rho"; "mass_rho"; "mass_rho_prime"; "mass_rho_double_prime";
   "decay_rate_rho"; "decay_rate_rho_prime"; "decay_rate_rho_double_prime"].
Definition shared_parameters : list string :=
  ["nucleon_mass"; "magnetic_moment_proton"; "magnetic_moment_neutron"].
Definition nucleon_keywords : list string :=
  (shared_parameters ++ isoscalar_parameters ++ isovector_parameters)%list.

(** Which (mass, width) pairs a sector accepts. *)
Definition nucleon_resonance_accepted (k : nucleon_kind) (t_0 t_in m g : R) : Prop :=
  match k with
  | New => t_0 <= m * m - g * g / 4 /\ resonance_pole m g <> RtoC t_in /\ resonance_pole m g <> RtoC t_0
  | Old => resonance_accepted t_0 t_in m g
  end.

Definition nucleon_sector_accepted (k : nucleon_kind) (P : string -> R) (t_0 t_in : R) (names : list string) : Prop :=
  0 <= t_0 <= t_in /\ t_in <> 0 /\
  forall n, In n names -> nucleon_resonance_accepted k t_0 t_in (P ("mass_" ++ n)) (P ("decay_rate_" ++ n)).

Definition isoscalar_mesons : list string :=
  ["omega"; "omega_prime"; "omega_double_prime"; "phi"; "phi_prime"; "phi_double_prime"].
Definition isovector_mesons : list string := ["rho"; "rho_prime"; "rho_double_prime"].

(** ** Connection *)

Lemma evaluate_built : forall k p e kw,
  (exists m c, Nucleon_init (nucleon_class k) p e kw = Ok (m, c) /\ nucleon_built k p e kw m /\
    forall t, evaluate k p e kw t = call_pure m t) \/
  (exists x, Nucleon_init (nucleon_class k) p e kw = Err x /\ forall t, evaluate k p e kw t = Err x).
Proof.
  intros k p e kw. unfold evaluate.
  destruct (Nucleon_init (nucleon_class k) p e kw) as [[m c]|x] eqn:E; [left|right; eauto].
  exists m, c. split; [reflexivity|]. split; [now apply (Nucleon_init_inv _ _ _ _ _ c)|].
  intros t. rewrite (Nucleon_init_cache _ _ _ _ _ _ E). now apply Nucleon_call_pure, cache_ok_nil.
Qed.

Lemma evaluate_Ok : forall k p e kw t v, evaluate k p e kw t = Ok v ->
  exists m, nucleon_built k p e kw m /\ nondegenerate kw /\ 0 <= Re t /\
    call_defined k kw e t /\ v = combined k kw p e t.
Proof.
  intros k p e kw t v H. destruct (evaluate_built k p e kw) as [[m [c [E [B X]]]]|[x [E X]]].
  - rewrite X in H. destruct (call_Ok k p e kw m B t v H) as [H1 [H2 [H3 H4]]]. eauto 6.
  - rewrite X in H. discriminate.
Qed.

Lemma nucleon_keywords_formals : forall k, Permutation nucleon_keywords (nc_formals (nucleon_class k)).
Proof. intros k. apply perm_check_ok. destruct k; vm_compute; reflexivity. Qed.
Lemma nucleon_formals_NoDup : forall k, NoDup (nc_formals (nucleon_class k)).
Proof. intros k. apply nodupb_NoDup. destruct k; vm_compute; reflexivity. Qed.

Lemma nbuild_accept : forall k t_0 t_in m g, 0 <= t_0 <= t_in ->
  is_ok (nc_build (nucleon_class k) t_0 t_in m g) <-> t_in <> 0 /\ nucleon_resonance_accepted k t_0 t_in m g.
Proof.
  intros [] t_0 t_in m g V; [|now apply build_component_accept].
  cbn [nucleon_class nc_build NucleonUAModel nucleon_resonance_accepted]. rewrite <- resonance_pole_eq.
  destruct V as [H0 [Hlt|E]].
  - rewrite build_component_nucleon_ok_iff by lra. unfold accept_resonance_nucleon.
    split; [|tauto]. intros A. split; [lra|assumption].
  - subst t_in. unfold build_component_nucleon.
    rewrite MapTW_init_ok by lra. cbn [bind]. fold (tw t_0 t_0). rewrite !degenerate_map by assumption.
    destruct (C_eq_dec (RtoC 0) (RtoC t_0)) as [Z|Z].
    { simpl. apply RtoC_inj in Z. split; [intros [c H]; discriminate|]. intros [A _]. congruence. }
    cbn [bind]. assert (N0 : t_0 <> 0) by (intros F; apply Z; now rewrite F).
    destruct (C_eq_dec (meson_pole m g) (RtoC t_0)) as [F|F].
    { simpl. split; [intros [c H]; discriminate|]. intros [_ [_ [A _]]]. contradiction. }
    cbn [bind]. rewrite <- (Re_meson_pole m g). destruct (Rlt_dec (Re (meson_pole m g)) t_0) as [L|L].
    + split; [intros [c H]; discriminate|]. lra.
    + rewrite Component_init_ok by discriminate. split; [|intros _; eexists; reflexivity].
      intros _. repeat split; try assumption; lra.
Qed.

Lemma ncomps_ok : forall cls attrs (P : string -> R) s d names,
  (forall n, mem n NucleonUAModel_formals = true -> attr attrs n = Ok (P n)) ->
  (forall r, In r names -> In r (iso_names s)) ->
  (forall r, In r names -> is_ok (nc_build cls (bp0 P s d) (bpin P s d) (P ("mass_" ++ r)) (P ("decay_rate_" ++ r)))) ->
  is_ok (nucleon_init_components cls attrs (ff_name d) (iso_name s) names).
Proof.
  intros cls attrs P s d names HA. unfold nucleon_init_components.
  induction names as [|r names IH]; intros HN HB; [eexists; reflexivity|].
  destruct IH as [cs IH]; [intros; apply HN; now right|intros; apply HB; now right|].
  destruct (in_iso_names s r (HN r (or_introl eq_refl))) as [F1 F2].
  destruct (bp_names s d) as [G1 G2].
  cbn [mapM]. rewrite IH, (HA _ F1), (HA _ F2), (HA _ G1), (HA _ G2). cbn [bind].
  destruct (HB r (or_introl eq_refl)) as [c Hc]. unfold bp0, bpin in Hc. rewrite Hc. cbn [bind].
  eexists. reflexivity.
Qed.

Lemma nucleon_map_ok : forall attrs (P : string -> R) s d,
  (forall n, mem n NucleonUAModel_formals = true -> attr attrs n = Ok (P n)) ->
  0 <= bp0 P s d <= bpin P s d ->
  nucleon_map attrs (ff_name d ++ "_" ++ iso_name s) = Ok (the_map P s d).
Proof.
  intros attrs P s d HA V. unfold nucleon_map. destruct (bp_names s d) as [B1 B2].
  rewrite (HA _ B1), (HA _ B2). cbn [bind]. now apply MapTW_init_ok.
Qed.

Lemma nucleon_map_err : forall attrs (P : string -> R) s d,
  (forall n, mem n NucleonUAModel_formals = true -> attr attrs n = Ok (P n)) ->
  (bp0 P s d < 0 \/ bpin P s d < bp0 P s d) ->
  nucleon_map attrs (ff_name d ++ "_" ++ iso_name s) = Err ValueError.
Proof.
  intros attrs P s d HA V. unfold nucleon_map. destruct (bp_names s d) as [B1 B2].
  rewrite (HA _ B1), (HA _ B2). cbn [bind]. apply MapTW_init_err. unfold bp0, bpin in V. lra.
Qed.

Lemma Nucleon_init_sectors : forall k p e kw,
  is_ok (Nucleon_init (nucleon_class k) p e kw) <->
  Permutation (map fst kw) nucleon_keywords /\
  forall s d, 0 <= bp0 (kwval kw) s d <= bpin (kwval kw) s d /\
    forall r, In r (iso_names s) -> is_ok (nc_build (nucleon_class k) (bp0 (kwval kw) s d) (bpin (kwval kw) s d)
      (kwval kw ("mass_" ++ r)) (kwval kw ("decay_rate_" ++ r))).
Proof.
  intros k p e kw.
  assert (PK : Permutation (map fst kw) nucleon_keywords <-> is_ok (bind_kwargs (nc_formals (nucleon_class k)) kw)).
  { rewrite bind_kwargs_ok_iff by apply nucleon_formals_NoDup. assert (Q := nucleon_keywords_formals k).
    split; intros A; eapply Permutation_trans; try eassumption. now symmetry. }
  split.
  - intros [[m c] H]. assert (B := Nucleon_init_inv _ _ _ _ _ _ H). split.
    + apply PK. unfold Nucleon_init in H. apply bind_Ok_inv in H. destruct H as [args [E _]]. now exists args.
    + intros s d. split; [exact (nb_valid _ _ _ _ _ B s d)|].
      intros r Hr. destruct (nb_comp _ _ _ _ _ B s d r Hr) as [c0 [_ Bc]]. now exists c0.
  - intros [HP HS]. apply PK in HP. destruct HP as [args E].
    destruct (assign_identity k args kw E) as [attrs [E2 HA]].
    unfold Nucleon_init. rewrite E. cbn [bind]. rewrite E2. cbn [bind].
    assert (M1 := nucleon_map_ok attrs (kwval kw) true true HA (proj1 (HS true true))).
    assert (M2 := nucleon_map_ok attrs (kwval kw) false true HA (proj1 (HS false true))).
    assert (M3 := nucleon_map_ok attrs (kwval kw) true false HA (proj1 (HS true false))).
    assert (M4 := nucleon_map_ok attrs (kwval kw) false false HA (proj1 (HS false false))).
    change (ff_name true ++ "_" ++ iso_name true) with "dirac_isoscalar" in M1. rewrite M1. cbn [bind].
    change (ff_name true ++ "_" ++ iso_name false) with "dirac_isovector" in M2. rewrite M2. cbn [bind].
    change (ff_name false ++ "_" ++ iso_name true) with "pauli_isoscalar" in M3. rewrite M3. cbn [bind].
    change (ff_name false ++ "_" ++ iso_name false) with "pauli_isovector" in M4. rewrite M4. cbn [bind].
    destruct (nucleon_names k) as [NS NV]. rewrite NS, NV.
    destruct (ncomps_ok (nucleon_class k) attrs (kwval kw) true true (iso_names true) HA (fun _ h => h) (proj2 (HS true true))) as [c1 C1].
    destruct (ncomps_ok (nucleon_class k) attrs (kwval kw) false true (iso_names false) HA (fun _ h => h) (proj2 (HS false true))) as [c2 C2].
    destruct (ncomps_ok (nucleon_class k) attrs (kwval kw) true false (iso_names true) HA (fun _ h => h) (proj2 (HS true false))) as [c3 C3].
    destruct (ncomps_ok (nucleon_class k) attrs (kwval kw) false false (iso_names false) HA (fun _ h => h) (proj2 (HS false false))) as [c4 C4].
    cbn [ff_name iso_name] in C1, C2, C3, C4. rewrite C1. cbn [bind]. rewrite C2. cbn [bind].
    rewrite C3. cbn [bind]. rewrite C4. cbn [bind]. eexists. reflexivity.
Qed.

Lemma Nucleon_accept_iff : forall k p e kw,
  is_ok (Nucleon_init (nucleon_class k) p e kw) <->
  Permutation (map fst kw) nucleon_keywords /\
  nucleon_sector_accepted k (kwval kw) (kwval kw "t_0_dirac_isoscalar") (kwval kw "t_in_dirac_isoscalar") isoscalar_mesons /\
  nucleon_sector_accepted k (kwval kw) (kwval kw "t_0_dirac_isovector") (kwval kw "t_in_dirac_isovector") isovector_mesons /\
  nucleon_sector_accepted k (kwval kw) (kwval kw "t_0_pauli_isoscalar") (kwval kw "t_in_pauli_isoscalar") isoscalar_mesons /\
  nucleon_sector_accepted k (kwval kw) (kwval kw "t_0_pauli_isovector") (kwval kw "t_in_pauli_isovector") isovector_mesons.
Proof.
  intros k p e kw. rewrite Nucleon_init_sectors.
  assert (X : (forall s d, 0 <= bp0 (kwval kw) s d <= bpin (kwval kw) s d /\
    forall r, In r (iso_names s) -> is_ok (nc_build (nucleon_class k) (bp0 (kwval kw) s d) (bpin (kwval kw) s d)
      (kwval kw ("mass_" ++ r)) (kwval kw ("decay_rate_" ++ r)))) <->
    forall s d, nucleon_sector_accepted k (kwval kw) (bp0 (kwval kw) s d) (bpin (kwval kw) s d) (iso_names s)).
  { split; intros H s d; specialize (H s d).
    - destruct H as [V H]. assert (Y := fun r Hr => proj1 (nbuild_accept k _ _ _ _ V) (H r Hr)).
      split; [assumption|]. split.
      + destruct s; [exact (proj1 (Y "omega" (or_introl eq_refl)))|exact (proj1 (Y "rho" (or_introl eq_refl)))].
      + intros r Hr. exact (proj2 (Y r Hr)).
    - destruct H as [V [Z H]]. split; [assumption|]. intros r Hr. apply nbuild_accept; auto. }
  rewrite X. split.
  - intros [H1 H2]. split; [assumption|].
    exact (conj (H2 true true) (conj (H2 false true) (conj (H2 true false) (H2 false false)))).
  - intros [H1 [H2 [H3 [H4 H5]]]]. split; [assumption|]. intros [] []; assumption.
Qed.
