(** C63: where the runs of the two scripts start. *)
From Coq Require Import String Ascii Reals ZArith List Bool Arith Lia Lra Permutation.
From Verif Require Import PyBase CNum PyExpr KaonProofs Params ParamClasses ParamSpec ParamProofs PropsParams PropsParams2 PerturbProofs CommonUtils
  UtilsSpec UtilsProofs World WorldSpec WorldProofs DataSets BoundsProofs Task TaskSpec TaskProofs PropsTask Pipeline PipelineSpec
  PipelineReports PropsReports PipelineProofs PropsPipeline PropsPerturb PropsRuns FitScripts PropsFitScripts PropsStarts PropsScriptRuns PropsFeasible.
Import ListNotations.
Local Open Scope R_scope.
Local Open Scope string_scope.
Local Open Scope list_scope.

#[local] Arguments String.append : simpl never.

(** ** Specification *)

Definition pion : R := 13957039 / 100000000.

(** The free parameters of the kaon script: start before the perturbation, and lower bound (there is no upper one). *)
Definition kaon_start : list (string * R * ext) :=
  [ ("t_in_isoscalar", 1, Fin (9 * pion^2)); ("t_in_isovector", 1, Fin (4 * pion^2));
    ("a_omega", 0, NegInf); ("a_omega_double_prime", 25/1000, NegInf);
    ("a_phi", 4/10, NegInf); ("mass_phi", 1019461/1000000, Fin (3 * pion)); ("decay_rate_phi", 4249/1000000, Fin 0);
    ("a_phi_prime", 25/1000, NegInf); ("mass_phi_prime", 168/100, Fin (3 * pion)); ("decay_rate_phi_prime", 15/100, Fin 0);
    ("mass_phi_double_prime", 2159/1000, Fin (3 * pion)); ("decay_rate_phi_double_prime", 137/1000, Fin 0);
    ("a_rho", 0, NegInf); ("a_rho_prime", 1/6, NegInf) ].

(** The others keep the values written in the script. *)
Definition kaon_kept : list (string * R) :=
  [ ("t_0_isoscalar", 9 * pion^2); ("t_0_isovector", 4 * pion^2);
    ("mass_omega", 78266/100000); ("decay_rate_omega", 868/100000);
    ("mass_omega_double_prime", 167/100); ("decay_rate_omega_double_prime", 315/1000);
    ("mass_rho", 76388/100000); ("decay_rate_rho", 14428/100000);
    ("mass_rho_prime", 132635/100000); ("decay_rate_rho_prime", 32413/100000);
    ("mass_rho_double_prime", 177054/100000); ("decay_rate_rho_double_prime", 26898/100000) ].

(** Those of the nucleon script; the masses and widths are not moved. *)
Definition nucleon_start : list (string * R * ext) :=
  [ ("t_in_dirac_isoscalar", 1, Fin (9 * pion^2)); ("t_in_dirac_isovector", 2, Fin (4 * pion^2));
    ("t_in_pauli_isoscalar", 1, Fin (9 * pion^2)); ("t_in_pauli_isovector", 2, Fin (4 * pion^2));
    ("a_dirac_omega", 1, NegInf); ("a_pauli_omega", -2/10, NegInf); ("a_dirac_omega_prime", 2/10, NegInf);
    ("a_dirac_phi", -1, NegInf); ("a_pauli_phi", 2/10, NegInf); ("a_dirac_phi_prime", 2/10, NegInf); ("a_pauli_phi_prime", 2/10, NegInf);
    ("a_dirac_rho", 4/10, NegInf) ].

Definition nucleon_kept : list (string * R) :=
  [ ("nucleon_mass", 938272/1000000); ("magnetic_moment_proton", 2792847351/1000000000); ("magnetic_moment_neutron", -191304273/100000000);
    ("t_0_dirac_isoscalar", 9 * pion^2); ("t_0_dirac_isovector", 4 * pion^2); ("t_0_pauli_isoscalar", 9 * pion^2); ("t_0_pauli_isovector", 4 * pion^2);
    ("mass_omega", 78266/100000); ("decay_rate_omega", 868/100000); ("mass_omega_prime", 141/100); ("decay_rate_omega_prime", 29/100);
    ("mass_omega_double_prime", 167/100); ("decay_rate_omega_double_prime", 315/1000);
    ("mass_phi", 1019461/1000000); ("decay_rate_phi", 4249/1000000); ("mass_phi_prime", 168/100); ("decay_rate_phi_prime", 15/100);
    ("mass_phi_double_prime", 2159/1000); ("decay_rate_phi_double_prime", 137/1000);
    ("mass_rho", 77526/100000); ("decay_rate_rho", 1474/10000); ("mass_rho_prime", 1465/1000); ("decay_rate_rho_prime", 4/10);
    ("mass_rho_double_prime", 172/100); ("decay_rate_rho_double_prime", 25/100) ].

(** The store with which a run begins, drawn from the [k]-th number on. *)
Definition starts_from (start : list (string * R * ext)) (kept : list (string * R)) (draws : nat -> R) (k : nat) (size size_resonances : R) (d : data) : Prop :=
  map par_name (filter (fun p => negb (par_fixed p)) d) = map (fun x => fst (fst x)) start /\
  (forall j n v lower, nth_error start j = Some (n, v, lower) -> val d n = moved lower PosInf v (draws (k + j)%nat) (size_for size size_resonances n)) /\
  (forall n v, In (n, v) kept -> val d n = v).

(** ** Proofs *)

Lemma start_of : forall c h d0 start kept draws k size sizes d k', reachable c d0 ->
  (h = false -> forall n, In n (sqrt_names c) -> 0 <= val d0 n) ->
  Forall2 (fun p x => par_name p = fst (fst x) /\ par_value p = snd (fst x)) (free d0) start ->
  Forall (fun x => lookup (fullT c h d0) (fst (fst x)) = Some (snd x, PosInf)) start ->
  Forall (fun x => ~ In (fst x) (free_names_of d0) /\ val d0 (fst x) = snd x) kept ->
  perturb_model_parameters c draws k size (Some sizes) h d0 = (Ok tt, d, k') ->
  starts_from start kept draws k size sizes d /\ k' = (k + length start)%nat.
Proof.
  intros c h d0 start kept draws k size sizes d k' RC P F B K PM. pose proof (reachable_inv _ _ RC) as IV.
  destruct (get_bounds_total c h d0 IV P) as (bs & GB & L). change (filter is_free d0) with (free d0) in L.
  destruct (C09_perturb_effect c h d0 _ _ draws k size (Some sizes) RC GB) as (d' & E & N & FL & KE & _ & RC' & MO). rewrite PM in E. injection E as <- ->.
  assert (LF : length (free d0) = length start) by (clear - F; induction F; cbn; congruence).
  split; [|now rewrite LF]. split; [|split].
  - assert (X : forall a b, map par_name a = map par_name b -> map par_fixed a = map par_fixed b ->
      map par_name (filter (fun p => negb (par_fixed p)) a) = map par_name (filter (fun p => negb (par_fixed p)) b)).
    { clear. induction a as [|p a IH]; intros [|q b] Q1 Q2; try discriminate; [reflexivity|]. injection Q1 as A1 A2. injection Q2 as B1 B2. cbn [filter]. rewrite B1.
      destruct (par_fixed q); cbn [negb map]; rewrite ?A1, (IH _ A2 B2); reflexivity. }
    rewrite (X _ _ N FL). change (filter _ d0) with (free d0). clear - F. induction F as [|p x a b (Q & _) F IH]; [reflexivity|]. cbn [map]. now rewrite Q, IH.
  - intros j n v lower NJ.
    assert (X : exists p, nth_error (free d0) j = Some p /\ par_name p = n /\ par_value p = v).
    { clear - F NJ. revert j NJ. induction F as [|p x a b (Q1 & Q2) F IH]; intros [|j] NJ; try discriminate; [|now apply IH].
      injection NJ as ->. exists p. auto. }
    destruct X as (p & NP & PN & PV).
    assert (Y : exists b, nth_error bs j = Some b /\ lookup (fullT c h d0) (par_name p) = Some b).
    { clear - L NP. revert j NP. induction L as [|q b a bs Q L IH]; intros [|j] NP; try discriminate; [|now apply IH]. injection NP as ->. now exists b. }
    destruct Y as (b & NB & LK). rewrite Forall_forall in B. pose proof (B _ (nth_error_In _ _ NJ)) as BJ. cbn [fst snd] in BJ. rewrite PN, BJ in LK. injection LK as <-.
    specialize (MO j p lower PosInf NP). rewrite !nth_error_map, NB in MO. specialize (MO eq_refl eq_refl). rewrite PN, PV in MO.
    apply nth_error_In in MO. apply filter_In in MO as [MO _]. apply (val_In d) in MO; [exact MO|].
    apply reachable_inv in RC' as (NA & _). rewrite NA. apply class_names_NoDup.
  - intros n v I. rewrite Forall_forall in K. destruct (K _ I) as (K1 & K2). cbn [fst snd] in K1, K2. rewrite <- K2. exact (fixed_value _ _ _ _ _ _ _ _ _ RC PM n K1).
Qed.

Lemma not_in_names : forall n l, forallb (fun m => negb (String.eqb n m)) l = true -> ~ In n l.
Proof. intros n l M I. rewrite forallb_forall in M. specialize (M n I). rewrite String.eqb_refl in M. discriminate. Qed.

Lemma threshold_squares : script_t_0_isoscalar = 9 * pion^2 /\ script_t_0_isovector = 4 * pion^2.
Proof. unfold script_t_0_isoscalar, script_t_0_isovector, config_pion_mass, pion. split; ring. Qed.

Lemma threshold_roots : sqrt script_t_0_isoscalar = 3 * pion /\ sqrt script_t_0_isovector = 2 * pion.
Proof.
  unfold script_t_0_isoscalar, script_t_0_isovector. change config_pion_mass with pion. assert (0 < pion) by (unfold pion; lra).
  split; apply sqrt_square; lra.
Qed.

Lemma kaon_unperturbed : forall d0, unperturbed PKaonB kaon_initial false d0 ->
  Forall2 (fun p x => par_name p = fst (fst x) /\ par_value p = snd (fst x)) (free d0) kaon_start /\
  (forall n, In n (sqrt_names PKaonB) -> 0 <= val d0 n) /\
  Forall (fun x => lookup (fullT PKaonB false d0) (fst (fst x)) = Some (snd x, PosInf)) kaon_start /\
  Forall (fun x => ~ In (fst x) (free_names_of d0) /\ val d0 (fst x) = snd x) kaon_kept.
Proof.
  intros d0 (d & C & ->).
  destruct threshold_squares as (Q1 & Q2). destruct threshold_roots as (R1 & R2).
  cbv -[Rdiv Rmult Rplus Ropp Rminus IZR script_t_0_isoscalar script_t_0_isovector] in C. injection C as <-.
  split; [|split; [|split]].
  - unfold kaon_start. cbn [free filter is_free par_fixed negb]. repeat (constructor; [split; [reflexivity|cbn [par_value fst snd]; lra]|]). constructor.
  - intros n [<-|[<-|[]]]; cbn [val String.eqb par_name par_value]; unfold script_t_0_isoscalar, script_t_0_isovector; apply Rle_0_sqr.
  - unfold kaon_start. repeat (constructor; [cbn [fst snd]; cbv -[Rdiv Rmult Rplus Ropp Rminus IZR sqrt pow pion script_t_0_isoscalar script_t_0_isovector]; rewrite ?R1, ?R2, ?Q1, ?Q2; reflexivity|]). constructor.
  - unfold kaon_kept. repeat (constructor; [split; [apply not_in_names; reflexivity|cbn; rewrite ?Q1, ?Q2; lra]|]). constructor.
Qed.

Lemma nucleon_unperturbed : forall d0, unperturbed PNucleon nucleon_initial true d0 ->
  Forall2 (fun p x => par_name p = fst (fst x) /\ par_value p = snd (fst x)) (free d0) nucleon_start /\
  Forall (fun x => lookup (fullT PNucleon true d0) (fst (fst x)) = Some (snd x, PosInf)) nucleon_start /\
  Forall (fun x => ~ In (fst x) (free_names_of d0) /\ val d0 (fst x) = snd x) nucleon_kept.
Proof.
  intros d0 (d & C & U). destruct threshold_squares as (Q1 & Q2).
  cbv -[Rdiv Rmult Rplus Ropp Rminus IZR script_t_0_isoscalar script_t_0_isovector config_proton_mass config_proton_moment config_neutron_moment] in C. injection C as <-.
  cbv -[Rdiv Rmult Rplus Ropp Rminus IZR script_t_0_isoscalar script_t_0_isovector config_proton_mass config_proton_moment config_neutron_moment] in U. injection U as <-.
  split; [|split].
  - unfold nucleon_start. cbn [free filter is_free par_fixed negb]. repeat (constructor; [split; [reflexivity|cbn [par_value fst snd]; lra]|]). constructor.
  - unfold nucleon_start. repeat (constructor; [cbn [fst snd]; cbv -[Rdiv Rmult Rplus Ropp Rminus IZR sqrt pow pion script_t_0_isoscalar script_t_0_isovector]; rewrite ?Q1, ?Q2; reflexivity|]). constructor.
  - unfold nucleon_kept. repeat (constructor; [split; [apply not_in_names; reflexivity|cbn; rewrite ?Q1, ?Q2; unfold config_proton_mass, config_proton_moment, config_neutron_moment; lra]|]). constructor.
Qed.

(** ** C63 *)

(** The numbers the generator hands out decide everything about the start of a run: the j-th free parameter is moved by the
    j-th of them, from the value written in the script. *)
Theorem C63_kaon_start : forall o draws ts ff_values errors w name p w1 d, kaon_launched o draws ts ff_values errors w name p w1 d ->
  contents w1 (pl_parameters p) = Some d /\ starts_from kaon_start kaon_kept draws (w_draws w) 1 (1/10) d /\ w_draws w1 = (w_draws w + 14)%nat.
Proof.
  intros o draws ts ff_values errors w name p w1 d [ST NM K X CL FR LL FI _ _ _ (d0 & U & PM)].
  destruct (kaon_unperturbed d0 U) as (F & P & B & KE). pose proof (unperturbed_reachable _ _ _ _ U) as RC.
  split. { unfold contents. rewrite FR, LL. apply nth_alloc. }
  exact (start_of PKaonB false d0 kaon_start kaon_kept draws (w_draws w) 1 (1/10) d (w_draws w1) RC (fun _ => P) F B KE PM).
Qed.
Print Assumptions C63_kaon_start.

Theorem C63_nucleon_start : forall o draws ts css errors w name p w1 d, nucleon_launched o draws ts css errors w name p w1 d ->
  contents w1 (pl_parameters p) = Some d /\ starts_from nucleon_start nucleon_kept draws (w_draws w) (8/10) (1/10) d /\ w_draws w1 = (w_draws w + 12)%nat.
Proof.
  intros o draws ts css errors w name p w1 d [ST NM K X CL FR LL FI _ _ _ (d0 & U & PM)].
  destruct (nucleon_unperturbed d0 U) as (F & B & KE). pose proof (unperturbed_reachable _ _ _ _ U) as RC.
  split. { unfold contents. rewrite FR, LL. apply nth_alloc. }
  refine (start_of PNucleon true d0 nucleon_start nucleon_kept draws (w_draws w) (8/10) (1/10) d (w_draws w1) RC _ F B KE PM). discriminate.
Qed.
Print Assumptions C63_nucleon_start.

(** The perturbation is a fraction of the value: the two residues written as 0 are 0 at the start of every run.  The others
    keep their modulus or enlarge it, to less than twice (kaons) or 1.8 times (nucleons) as much. *)
Theorem C63_residues : forall start kept draws k size size_resonances d, 0 < size -> (forall j, 0 <= draws j < 1) ->
  starts_from start kept draws k size size_resonances d ->
  forall n v, In (n, v, NegInf) start -> starts "mass_" n = false -> starts "decay_rate_" n = false ->
  (v = 0 -> val d n = 0) /\ Rabs v <= Rabs (val d n) <= (1 + size) * Rabs v.
Proof.
  intros start kept draws k size sizes d S U (_ & M & _) n v I N1 N2. apply In_nth_error in I as (j & I). rewrite (M _ _ _ _ I). unfold size_for. rewrite N1, N2. cbn [orb].
  specialize (U (k + j)%nat). set (u := draws (k + j)%nat) in *. assert (V := Rabs_pos v).
  assert (A : 0 <= Rabs (2 * u - 1) <= 1) by (split; [apply Rabs_pos|apply Rabs_le; lra]).
  unfold moved. set (s := size * Rabs (2 * u - 1)). assert (Q : 0 <= s <= size) by (unfold s; nra).
  destruct (Rlt_dec u (1/2)); [|destruct (Rlt_dec (1/2) u)].
  - split; [intros ->; rewrite Rabs_R0; ring|]. rewrite Rabs_Ropp, Rabs_mult, Rabs_Rabsolu, (Rabs_right (1 + s)) by lra. split; nra.
  - split; [intros ->; rewrite Rabs_R0; ring|]. rewrite Rabs_mult, Rabs_Rabsolu, (Rabs_right (1 + s)) by lra. split; nra.
  - split; [auto|]. split; nra.
Qed.
Print Assumptions C63_residues.

(** What this means for the kaon script: the residues of omega and rho start at 0 in all runs, and an effective threshold
    coincides with its threshold exactly if the generator hands out 0 for it. *)
Theorem C63_kaon_runs : forall o draws ts ff_values errors w name p w1 d, kaon_launched o draws ts ff_values errors w name p w1 d ->
  (forall j, 0 <= draws j < 1) ->
  val d "a_omega" = 0 /\ val d "a_rho" = 0 /\ 4/10 <= Rabs (val d "a_phi") <= 8/10 /\
  val d "t_0_isoscalar" <= val d "t_in_isoscalar" < 2 /\ (val d "t_in_isoscalar" = val d "t_0_isoscalar" <-> draws (w_draws w) = 0) /\
  val d "t_0_isovector" <= val d "t_in_isovector" < 2 /\ (val d "t_in_isovector" = val d "t_0_isovector" <-> draws (S (w_draws w)) = 0).
Proof.
  intros o draws ts ff_values errors w name p w1 d L U. destruct (C63_kaon_start _ _ _ _ _ _ _ _ _ _ L) as (_ & ST & _).
  assert (R : forall n v, In (n, v, NegInf) kaon_start -> starts "mass_" n = false -> starts "decay_rate_" n = false -> (v = 0 -> val d n = 0) /\ Rabs v <= Rabs (val d n) <= (1 + 1) * Rabs v)
    by (apply (C63_residues kaon_start kaon_kept draws (w_draws w) 1 (1/10)); [lra|exact U|exact ST]).
  split; [|split; [|split]].
  - apply (R "a_omega" 0); [unfold kaon_start; cbn; tauto|reflexivity..].
  - apply (R "a_rho" 0); [unfold kaon_start; cbn; tauto|reflexivity..].
  - destruct (R "a_phi" (4/10)) as (_ & Q); [unfold kaon_start; cbn; tauto|reflexivity|reflexivity|]. rewrite (Rabs_right (4/10)) in Q by lra. lra.
  - clear R. destruct ST as (_ & M & K).
    assert (X : forall l u, 0 < l < 1 -> 0 <= u < 1 -> l <= moved (Fin l) PosInf 1 u 1 < 2 /\ (moved (Fin l) PosInf 1 u 1 = l <-> u = 0)).
    { intros l u Q V. unfold moved. destruct (Rlt_dec u (1/2)); [|destruct (Rlt_dec (1/2) u)].
      - rewrite (Rabs_left (2 * u - 1)) by lra. split; [split; nra|]. split; [intros E; nra|intros ->; ring].
      - rewrite (Rabs_right (2 * u - 1)), (Rabs_right 1) by lra. split; [lra|]. split; intros; lra.
      - split; [lra|]. split; intros; lra. }
    pose proof (M 0%nat _ _ _ eq_refl) as M0. pose proof (M 1%nat _ _ _ eq_refl) as M1. change (size_for 1 (1/10) _) with 1 in M0, M1.
    rewrite (K "t_0_isoscalar" (9 * pion^2)) by (unfold kaon_kept; cbn; tauto). rewrite (K "t_0_isovector" (4 * pion^2)) by (unfold kaon_kept; cbn; tauto).
    rewrite Nat.add_0_r in M0. rewrite Nat.add_comm in M1. cbn [Nat.add] in M1. rewrite M0, M1.
    destruct (X (9 * pion^2) (draws (w_draws w))) as (X1 & X2); [unfold pion; lra|apply U|]. destruct (X (4 * pion^2) (draws (S (w_draws w)))) as (X3 & X4); [unfold pion; lra|apply U|].
    auto.
Qed.
Print Assumptions C63_kaon_runs.

(** With 0.8 instead of 1 that cannot happen in the nucleon script. *)
Theorem C63_nucleon_runs : forall o draws ts css errors w name p w1 d, nucleon_launched o draws ts css errors w name p w1 d ->
  (forall j, 0 <= draws j < 1) ->
  forall s f, In s ["isoscalar"; "isovector"] -> In f ["dirac"; "pauli"] ->
  let t_0 := val d ("t_0_" ++ f ++ "_" ++ s)%string in let t_in := val d ("t_in_" ++ f ++ "_" ++ s)%string in
  t_0 + 1/10 < t_in < 36/10.
Proof.
  intros o draws ts css errors w name p w1 d L U s f Is If. destruct (C63_nucleon_start _ _ _ _ _ _ _ _ _ _ L) as (_ & (_ & M & K) & _).
  assert (X : forall l v u, 0 < l < 1/4 -> 1 <= v <= 2 -> 0 <= u < 1 -> l + 1/10 < moved (Fin l) PosInf v u (8/10) < 36/10).
  { intros l v u Q W V. unfold moved. destruct (Rlt_dec u (1/2)); [|destruct (Rlt_dec (1/2) u)]; [| |lra].
    - rewrite (Rabs_left (2 * u - 1)) by lra. set (x := 8/10 * - (2 * u - 1)). assert (B : 0 < x <= 8/10) by (unfold x; lra). clearbody x.
      replace (v + x * (l - v)) with (v - x * (v - l)) by ring. split; nra.
    - rewrite (Rabs_right (2 * u - 1)), (Rabs_right v) by lra. split; nra. }
  assert (P9 : 0 < 9 * pion^2 < 1/4) by (unfold pion; lra). assert (P4 : 0 < 4 * pion^2 < 1/4) by (unfold pion; lra).
  destruct Is as [<-|[<-|[]]], If as [<-|[<-|[]]]; cbv zeta.
  - change ("t_0_" ++ _)%string with "t_0_dirac_isoscalar". change ("t_in_" ++ _)%string with "t_in_dirac_isoscalar".
    rewrite (K "t_0_dirac_isoscalar" (9 * pion^2)) by (unfold nucleon_kept; cbn; tauto). rewrite (M 0%nat _ _ _ eq_refl). apply X; [exact P9|lra|apply U].
  - change ("t_0_" ++ _)%string with "t_0_pauli_isoscalar". change ("t_in_" ++ _)%string with "t_in_pauli_isoscalar".
    rewrite (K "t_0_pauli_isoscalar" (9 * pion^2)) by (unfold nucleon_kept; cbn; tauto). rewrite (M 2%nat _ _ _ eq_refl). apply X; [exact P9|lra|apply U].
  - change ("t_0_" ++ _)%string with "t_0_dirac_isovector". change ("t_in_" ++ _)%string with "t_in_dirac_isovector".
    rewrite (K "t_0_dirac_isovector" (4 * pion^2)) by (unfold nucleon_kept; cbn; tauto). rewrite (M 1%nat _ _ _ eq_refl). apply X; [exact P4|lra|apply U].
  - change ("t_0_" ++ _)%string with "t_0_pauli_isovector". change ("t_in_" ++ _)%string with "t_in_pauli_isovector".
    rewrite (K "t_0_pauli_isovector" (4 * pion^2)) by (unfold nucleon_kept; cbn; tauto). rewrite (M 3%nat _ _ _ eq_refl). apply X; [exact P4|lra|apply U].
Qed.
Print Assumptions C63_nucleon_runs.

(** The first run of the kaon script with a generator that always hands out a quarter: a_phi starts at -0.6. *)
Example C63_instance : exists p w1 d v, kaon_launched hopeless (fun _ => 1/4) [2] [1] [1] v "iterative7_0" p w1 d /\ val d "a_phi" = - (6/10) /\ val d "a_omega" = 0.
Proof.
  destruct (C48_instance (fun _ => 1/4)) as (w' & l0 & H & _). unfold kaon_script, kaon_run in H.
  apply C48_best_over_all_runs in H as (xss & rs & l & L1 & L2 & A & _); [|apply kaon_measured].
  assert (LN : length kaon_names = 15%nat) by reflexivity. destruct (nth_some _ xss 0%nat ltac:(lia)) as [xs NX]. destruct (nth_some _ rs 0%nat ltac:(lia)) as [r N].
  destruct (A 0%nat "iterative7_0" xs r eq_refl NX N) as ((v0 & p & v & d & l' & L & _) & _).
  assert (KL : kaon_launched hopeless (fun _ => 1/4) [2] [1] [1] v0 "iterative7_0" p v d) by exact L. clear L.
  exists p, v, d, v0. split; [exact KL|]. destruct (C63_kaon_start _ _ _ _ _ _ _ _ _ _ KL) as (_ & (_ & M & _) & _). split.
  - rewrite (M 4%nat _ _ _ eq_refl). change (size_for 1 (1/10) _) with 1. unfold moved. destruct (Rlt_dec (1/4) (1/2)) as [_|Q]; [|lra].
    rewrite (Rabs_right (4/10)), (Rabs_left (2 * (1/4) - 1)) by lra. lra.
  - apply (C63_kaon_runs _ _ _ _ _ _ _ _ _ _ KL). intros _. lra.
Qed.
