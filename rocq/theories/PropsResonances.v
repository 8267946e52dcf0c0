(** C53: masses and widths of the mesons -- the windows of the classes, the published values and the rounds of the scripts. *)
From Coq Require Import String Ascii Reals ZArith List Bool Arith Lia Lra Permutation.
From Verif Require Import PyBase CNum PyExpr KaonProofs Params ParamClasses ParamSpec ParamProofs PropsParams PropsParams2 PerturbProofs CommonUtils PipelineFreeze
  UtilsSpec UtilsProofs World WorldSpec WorldProofs DataSets BoundsProofs Task TaskSpec TaskProofs PropsTask Pipeline PipelineSpec
  PipelineReports PropsReports PipelineProofs PropsPipeline PropsPerturb PropsRuns FitScripts PropsFitScripts PropsStarts PropsScriptRuns.
Import ListNotations.
Local Open Scope list_scope.
Local Open Scope string_scope.
Local Open Scope R_scope.

#[local] Arguments String.append : simpl never.

(** ** Specification *)

(** The mesons of the models. *)
Record meson := mkMeson { me_name : string; me_mass_window : Z * Z; me_width_window : Z * Z }.

(** Windows for mass and width, in units of 0.1 MeV. *)
Definition mesons : list meson :=
  [ mkMeson "omega"              (7750, 7900)%Z   (85, 89)%Z;
    mkMeson "omega_prime"        (13700, 14500)%Z (2500, 3300)%Z;
    mkMeson "omega_double_prime" (16650, 16750)%Z (3000, 3300)%Z;
    mkMeson "phi"                (10000, 10500)%Z (40, 45)%Z;
    mkMeson "phi_prime"          (16750, 16850)%Z (1000, 2000)%Z;
    mkMeson "phi_double_prime"   (21000, 22000)%Z (500, 2000)%Z;
    mkMeson "rho"                (7500, 7800)%Z   (1400, 1500)%Z;
    mkMeson "rho_prime"          (12800, 14800)%Z (1500, 5500)%Z;
    mkMeson "rho_double_prime"   (16800, 17400)%Z (1000, 6000)%Z;
    mkMeson "rho_triple_prime"   (20000, 24000)%Z (1000, 6000)%Z ].

(** The wider windows of the class with selected fixed parameters; two of its masses are never free. *)
Definition wide_mesons : list meson :=
  [ mkMeson "omega_prime"        (0, 0)%Z         (2000, 4000)%Z;
    mkMeson "omega_double_prime" (0, 0)%Z         (2000, 4000)%Z;
    mkMeson "phi"                (10000, 11000)%Z (30, 50)%Z;
    mkMeson "phi_prime"          (16000, 17000)%Z (1000, 2000)%Z;
    mkMeson "phi_double_prime"   (20000, 23000)%Z (500, 3000)%Z;
    mkMeson "rho_prime"          (12000, 15000)%Z (1500, 5500)%Z;
    mkMeson "rho_double_prime"   (16000, 19000)%Z (1000, 6000)%Z;
    mkMeson "rho_triple_prime"   (20000, 24000)%Z (1000, 6000)%Z ].

Definition meson_table (c : param_class) : list meson := match c with PKaonFixedSelected => wide_mesons | _ => mesons end.

Definition in_GeV (z : Z) : R := IZR z / 10000.

(** The optimiser is given the window [b] for the parameter [n] of the store [d]. *)
Definition given_window (c : param_class) (d : data) (n : string) (b : ext * ext) : Prop :=
  exists lo up k p, get_bounds c true d = Ok (lo, up) /\
    nth_error (filter (fun q => negb (par_fixed q)) d) k = Some p /\ par_name p = n /\
    nth_error lo k = Some (fst b) /\ nth_error up k = Some (snd b).

(** ** Proofs *)

Lemma given_lookup : forall c d n b, reachable c d -> given_window c d n b ->
  lookup (fullT c true d) n = Some b /\ In n (class_names c) /\ ~ In n (always_fixed c).
Proof.
  intros c d n [a b] R (lo & up & k & p & E & Hk & <- & La & Lb). cbn [fst snd] in *. assert (I := reachable_inv c d R).
  destruct (get_bounds_total c true d I) as [bs [E' F]]; [discriminate|]. rewrite E in E'. injection E' as -> ->.
  assert (Hp : In p d /\ par_fixed p = false).
  { apply nth_error_In, filter_In in Hk. now rewrite negb_true_iff in Hk. }
  destruct Hp as [Hp Fp]. destruct I as [N A]. split; [|split; [rewrite <- N; now apply in_map|]].
  - change (filter (fun q => negb (par_fixed q)) d) with (filter is_free d) in Hk.
    assert (Q : nth_error bs k = Some (a, b)).
    { rewrite nth_error_map in La, Lb. destruct (nth_error bs k) as [[a' b']|]; [|discriminate]. cbn in *. congruence. }
    clear - F Hk Q. revert k Hk Q. induction F as [|x y l l' Hxy F IH]; intros [|k] Hk Q; try discriminate; cbn in *; [|eauto].
    injection Hk as ->. injection Q as ->. exact Hxy.
  - intros C. apply A in C; [congruence|assumption].
Qed.

Lemma window_eq : forall a a' b b', a = a' -> b = b' -> Some (Fin a, Fin b) = Some (Fin a', Fin b').
Proof. congruence. Qed.

Ltac spell := match goal with |- lookup _ ?s = _ => let s' := eval cbv in s in change s with s' end.

Lemma window_table : forall c d, no_resonances c = false ->
  Forall (fun m =>
    (str_in ("mass_" ++ me_name m) (class_names c) = false \/ str_in ("mass_" ++ me_name m) (always_fixed c) = true \/
     lookup (fullT c true d) ("mass_" ++ me_name m) = Some (Fin (in_GeV (fst (me_mass_window m))), Fin (in_GeV (snd (me_mass_window m))))) /\
    (str_in ("decay_rate_" ++ me_name m) (class_names c) = false \/ str_in ("decay_rate_" ++ me_name m) (always_fixed c) = true \/
     lookup (fullT c true d) ("decay_rate_" ++ me_name m) = Some (Fin (in_GeV (fst (me_width_window m))), Fin (in_GeV (snd (me_width_window m)))))) (meson_table c).
Proof.
  intros c d NR. destruct c; try discriminate; cbn [meson_table]; unfold mesons, wide_mesons; clear NR;
  repeat (apply Forall_cons; [split; first [left; reflexivity | right; left; reflexivity |
    right; right; spell; cbn; apply window_eq; unfold in_GeV; lra]|]); apply Forall_nil.
Qed.

(** Names of masses and widths. *)
Lemma resonance_names : forall c n, no_resonances c = false -> In n (class_names c) -> ~ In n (always_fixed c) -> resonance_parameter n = true ->
  exists m, In m (meson_table c) /\ (n = "mass_" ++ me_name m \/ n = "decay_rate_" ++ me_name m).
Proof.
  intros c n NR. assert (F : Forall (fun n => resonance_parameter n = false \/ str_in n (always_fixed c) = true \/
    existsb (fun m => orb (String.eqb n ("mass_" ++ me_name m)) (String.eqb n ("decay_rate_" ++ me_name m))) (meson_table c) = true) (class_names c)).
  { destruct c; try discriminate; repeat (apply Forall_cons; [first [left; reflexivity | right; left; reflexivity | right; right; reflexivity]|]); apply Forall_nil. }
  intros IN NA RP. rewrite Forall_forall in F. destruct (F n IN) as [Q|[Q|Q]]; [congruence|exfalso; apply NA; now apply str_in_In|].
  apply existsb_exists in Q as (m & IM & Q). exists m. split; [exact IM|]. apply orb_prop in Q as [Q|Q]; apply String.eqb_eq in Q; auto.
Qed.

Definition window (w : Z * Z) : ext * ext := (Fin (in_GeV (fst w)), Fin (in_GeV (snd w))).

(** ** C53 *)

(** The handpicked bounds of a mass or a width are those of the table. *)
Theorem C53_windows : forall c d n b, no_resonances c = false -> reachable c d -> resonance_parameter n = true -> given_window c d n b ->
  exists m, In m (meson_table c) /\
    ((n = "mass_" ++ me_name m /\ b = window (me_mass_window m)) \/ (n = "decay_rate_" ++ me_name m /\ b = window (me_width_window m))).
Proof.
  intros c d n b NR R RP G. apply given_lookup in G as (L & IN & NA); [|exact R].
  destruct (resonance_names c n NR IN NA RP) as (m & IM & Q). exists m. split; [exact IM|].
  pose proof (window_table c d NR) as T. rewrite Forall_forall in T. destruct (T m IM) as [T1 T2]. clear T.
  apply str_in_In in IN. assert (NA' : str_in n (always_fixed c) <> true) by (intros X; apply NA; now apply str_in_In).
  destruct Q as [->| ->]; [left|right]; (split; [reflexivity|]); unfold window.
  - destruct T1 as [T|[T|T]]; congruence.
  - destruct T2 as [T|[T|T]]; congruence.
Qed.
Print Assumptions C53_windows.

Lemma table_function : forall m m', In m mesons -> In m' mesons -> me_name m = me_name m' -> m = m'.
Proof.
  intros m m' I J. cbn in I, J.
  repeat (destruct I as [<-|I]; [repeat (destruct J as [<-|J]; [try reflexivity; cbn; discriminate|]); destruct J|]). destruct I.
Qed.

Lemma mass_or_width : forall a b, "mass_" ++ a = "decay_rate_" ++ b -> False.
Proof. discriminate. Qed.

(** All classes give the optimiser the same window, except the one with selected fixed parameters, whose windows are wider. *)
Theorem C53_classes_agree : forall c c' d d' n b b', no_resonances c = false -> no_resonances c' = false -> reachable c d -> reachable c' d' ->
  resonance_parameter n = true -> c <> PKaonFixedSelected -> given_window c d n b -> given_window c' d' n b' ->
  (c' <> PKaonFixedSelected -> b' = b) /\
  (c' = PKaonFixedSelected -> exists lo up lo' up', b = (Fin lo, Fin up) /\ b' = (Fin lo', Fin up') /\ lo' <= lo < up /\ up <= up').
Proof.
  intros c c' d d' n b b' NR NR' R R' RP NS G G'.
  destruct (C53_windows _ _ _ _ NR R RP G) as (m & IM & Q). destruct (C53_windows _ _ _ _ NR' R' RP G') as (m' & IM' & Q').
  assert (TB : meson_table c = mesons) by (destruct c; try reflexivity; now destruct NS). rewrite TB in IM. split.
  - intros NS'. assert (TB' : meson_table c' = mesons) by (destruct c'; try reflexivity; now destruct NS'). rewrite TB' in IM'.
    destruct Q as [[-> ->]|[-> ->]], Q' as [[E ->]|[E ->]]; try (exfalso; (eapply mass_or_width; (exact E || (symmetry; exact E)))).
    + injection E as E. now rewrite (table_function _ _ IM IM' E).
    + injection E as E. now rewrite (table_function _ _ IM IM' E).
  - intros ->. apply given_lookup in G' as (_ & _ & NA); [|exact R']. clear - IM IM' Q Q' NA.
    assert (X : n <> "mass_omega_prime" /\ n <> "mass_omega_double_prime") by (split; intros ->; apply NA; cbn; tauto). destruct X as [X1 X2].
    assert (W : forall a b a' b', (a' <= a < b)%Z /\ (b <= b')%Z -> exists lo up lo' up', window (a, b) = (Fin lo, Fin up) /\
                window (a', b') = (Fin lo', Fin up') /\ lo' <= lo < up /\ up <= up').
    { intros a1 b1 a2 b2 ((H1 & H2) & H3). exists (in_GeV a1), (in_GeV b1), (in_GeV a2), (in_GeV b2). unfold window, in_GeV. cbn [fst snd].
      apply IZR_le in H1. apply IZR_lt in H2. apply IZR_le in H3. repeat split; lra. }
    cbn in IM, IM'. destruct Q as [[-> ->]|[-> ->]], Q' as [[E ->]|[E ->]]; try (exfalso; (eapply mass_or_width; (exact E || (symmetry; exact E))));
      injection E as E.
    + repeat (destruct IM as [<-|IM]; [repeat (destruct IM' as [<-|IM']; [first [discriminate E | exfalso; now apply X1 | exfalso; now apply X2 | apply W; lia]|]); destruct IM'|]). destruct IM.
    + repeat (destruct IM as [<-|IM]; [repeat (destruct IM' as [<-|IM']; [first [discriminate E | apply W; lia]|]); destruct IM'|]). destruct IM.
Qed.
Print Assumptions C53_classes_agree.

(** Published masses and widths in keV. *)
Definition published (n : string) : option Z :=
  option_map snd (List.find (fun x => String.eqb (fst x) n)
   [ ("mass_omega", 782660); ("decay_rate_omega", 8680);
     ("mass_omega_prime", 1410000); ("decay_rate_omega_prime", 290000);
     ("mass_omega_double_prime", 1670000); ("decay_rate_omega_double_prime", 315000);
     ("mass_phi", 1019461); ("decay_rate_phi", 4249);
     ("mass_phi_prime", 1680000); ("decay_rate_phi_prime", 150000);
     ("mass_phi_double_prime", 2159000); ("decay_rate_phi_double_prime", 137000);
     ("mass_rho", 775260); ("decay_rate_rho", 147400);
     ("mass_rho_prime", 1465000); ("decay_rate_rho_prime", 400000);
     ("mass_rho_double_prime", 1720000); ("decay_rate_rho_double_prime", 250000) ]%Z).

Definition of_keV (z : Z) : R := IZR z / 1000000.

(** They lie in the interior of the windows. *)
Theorem C53_published_inside : forall c d n b v, no_resonances c = false -> reachable c d -> given_window c d n b -> published n = Some v ->
  exists lo up, b = (Fin lo, Fin up) /\ lo < of_keV v < up.
Proof.
  intros c d n b v NR R G P.
  assert (RP : resonance_parameter n = true).
  { unfold published in P. match type of P with option_map _ (List.find ?f ?l) = _ => destruct (List.find f l) as [x|] eqn:E; [|discriminate] end.
    apply find_some in E as [I E]. apply String.eqb_eq in E. subst n. clear - I. cbn in I. repeat (destruct I as [<-|I]; [reflexivity|]). destruct I. }
  pose proof (given_lookup _ _ _ _ R G) as (_ & IN & NA).
  destruct (C53_windows _ _ _ _ NR R RP G) as (m & IM & Q).
  assert (W : forall a b, (100 * a < v < 100 * b)%Z -> exists lo up, window (a, b) = (Fin lo, Fin up) /\ lo < of_keV v < up).
  { intros a1 b1 [H1 H2]. exists (in_GeV a1), (in_GeV b1). split; [reflexivity|]. unfold in_GeV, of_keV. apply IZR_lt in H1, H2. rewrite mult_IZR in H1, H2. lra. }
  assert (NS : c = PKaonFixedSelected -> n <> "mass_omega_prime" /\ n <> "mass_omega_double_prime").
  { intros ->. split; intros ->; apply NA; cbn; tauto. }
  assert (IM2 : In m mesons \/ (c = PKaonFixedSelected /\ In m wide_mesons)) by (destruct c; cbn [meson_table] in IM; auto). clear IM.
  destruct IM2 as [IM|[-> IM]]; [|specialize (NS eq_refl); destruct NS as [N1 N2]].
  - clear NS IN NA RP G. cbn in IM. destruct Q as [[-> ->]|[-> ->]];
    repeat (destruct IM as [<-|IM]; [first [discriminate P | vm_compute in P; injection P as <-; apply W; cbn; lia]|]); destruct IM.
  - clear IN NA RP G. cbn in IM. destruct Q as [[-> ->]|[-> ->]];
    repeat (destruct IM as [<-|IM]; [first [discriminate P | exfalso; now apply N1 | exfalso; now apply N2 | vm_compute in P; injection P as <-; apply W; cbn; lia]|]); destruct IM.
Qed.
Print Assumptions C53_published_inside.

(** ** The rounds of the scripts *)

(** How many parameters are free in round [i]. *)
Definition kaon_round (i : nat) : nat :=
  if (i <? 50)%nat then 3 else if (i <? 80)%nat then 5 else if (i <? 100)%nat then 2 else if (i <? 130)%nat then 7
  else if (i <? 170)%nat then 5 else if (i <? 200)%nat then 8 else 12.
Definition nucleon_round (i : nat) : nat :=
  if (i <? 5)%nat then 4 else if (i <? 25)%nat then 3 else if (i <? 55)%nat then 5 else if (i <? 75)%nat then 2 else if (i <? 115)%nat then 7
  else if (i <? 125)%nat then 3 else if (i <? 145)%nat then 8 else if (i <? 165)%nat then 10 else 5.

(** Masses and widths the kaon script never fits, in keV. *)
Definition kaon_constants : list (string * Z) :=
  [ ("mass_omega", 782660); ("decay_rate_omega", 8680); ("mass_omega_double_prime", 1670000); ("decay_rate_omega_double_prime", 315000);
    ("mass_rho", 763880); ("decay_rate_rho", 144280); ("mass_rho_prime", 1326350); ("decay_rate_rho_prime", 324130);
    ("mass_rho_double_prime", 1770540); ("decay_rate_rho_double_prime", 268980) ]%Z.

(** A fit of the kaon script. *)
Definition kaon_fit (fi : FitInput) : Prop :=
  fi_class fi = PKaonB /\ (forall n v, In (n, v) kaon_constants -> val (fi_store fi) n = of_keV v) /\
  ((exists i, (i < 230)%nat /\ fi_task fi = "Task#" ++ str_nat i ++ ":TaskFixAccordingToParametersFit" /\
      length (free_names_of (fi_store fi)) = kaon_round i /\
      ((i < 10)%nat -> forall n, In n (free_names_of (fi_store fi)) -> resonance_parameter n = false)) \/
   (fi_task fi = "Task#230:TaskFullFitOnlyCharged" /\
    free_names_of (fi_store fi) = [ "t_in_isoscalar"; "t_in_isovector"; "a_omega"; "a_omega_double_prime"; "a_phi"; "mass_phi"; "decay_rate_phi";
      "a_phi_prime"; "mass_phi_prime"; "decay_rate_phi_prime"; "mass_phi_double_prime"; "decay_rate_phi_double_prime"; "a_rho"; "a_rho_prime" ])).

(** A fit of the nucleon script. *)
Definition nucleon_fit (fi : FitInput) : Prop :=
  (fi_class fi = PNucleon /\
   (forall n v, published n = Some v -> val (fi_store fi) n = of_keV v /\ ~ In n (free_names_of (fi_store fi))) /\
   ((exists i, (i < 175)%nat /\ fi_task fi = "Task#" ++ str_nat i ++ ":TaskFixAccordingToParametersFit" /\
       length (free_names_of (fi_store fi)) = nucleon_round i) \/
    (fi_task fi = "Task#175:Full fit (Fixed resonances)" /\
     free_names_of (fi_store fi) = [ "t_in_dirac_isoscalar"; "t_in_dirac_isovector"; "t_in_pauli_isoscalar"; "t_in_pauli_isovector";
       "a_dirac_omega"; "a_pauli_omega"; "a_dirac_omega_prime"; "a_dirac_phi"; "a_pauli_phi"; "a_dirac_phi_prime"; "a_pauli_phi_prime"; "a_dirac_rho" ]))) \/
  (fi_class fi = POscillations /\ fi_task fi = "Task#176:ResidualOscillationsTask").

(** What every fit of a run has in common. *)
Lemma fit_of_stage : forall o p w d res p' w', started p w d -> IterativePipeline_run o (p, w) = (res, (p', w')) ->
  let plan := stages (pl_kind p) (pl_numbers p) (pl_fixed_rounds p) in
  let c := r_class (pl_parameters p) in
  exists l, w_fits w' = (w_fits w ++ l)%list /\ forall i fi, nth_error l i = Some fi ->
    exists s, nth_error plan i = Some s /\ meets (pl_kind p) c (pl_ts p) s fi /\
      ((forall k, s <> ResidualFit k) -> fi_class fi = c /\ map par_name (fi_store fi) = class_names c /\
        forall n, (forall j fj, (j < i)%nat -> nth_error l j = Some fj -> ~ In n (free_names_of (fi_store fj))) -> val (fi_store fi) n = val d n).
Proof.
  intros o p w d res p' w' ST H plan c. destruct (C39_schedule _ _ _ _ _ _ _ ST H) as (l & F & LE & ME & _).
  destruct (C39_values_kept _ _ _ _ _ _ _ ST H) as (l' & F' & V). assert (l' = l) by (rewrite F in F'; now apply app_inv_head in F'). subst l'.
  destruct (C39_every_fit _ _ _ _ _ _ _ ST H) as (l' & xs & F'' & _ & _ & ALL). assert (l' = l) by (rewrite F in F''; now apply app_inv_head in F''). subst l'.
  fold plan in LE, ME, ALL. fold c in ME. exists l. split; [exact F|]. intros i fi N.
  assert (M : exists s, nth_error plan i = Some s /\ meets (pl_kind p) c (pl_ts p) s fi).
  { clear - N ME LE. clearbody plan. revert i plan N ME LE. induction l as [|y l IH]; intros [|j] [|s S] N ME LE; try discriminate; cbn [length firstn] in *; try (exfalso; lia).
    - injection N as ->. inversion ME. now exists s.
    - inversion ME. apply (IH j S); [exact N|assumption|lia]. }
  destruct M as (s & NS & MS). exists s. split; [exact NS|]. split; [exact MS|]. intros NR.
  assert (FM : fits_model p i) by (intros k Q; fold plan in Q; rewrite NS in Q; injection Q as Q; now apply (NR k)).
  assert (FC : fi_class fi = c) by (destruct s; [apply MS|apply MS|exfalso; now apply (NR n)]).
  split; [exact FC|]. split; [|intros n FX; exact (V i fi n N FM FX)].
  destruct (ALL i fi N) as (t & w1 & res1 & t1 & w2 & dt & TR & FW & C & SA & S & RC & _).
  pose proof (fits_model_class _ _ _ FM C) as Q. pose proof (fit_made _ _ _ _ _ _ _ _ Q S RC TR FW) as FI.
  destruct (fit_input_store _ _ _ FI) as (E & K & _). rewrite E. rewrite <- FC, K. apply reachable_inv in RC as [RN _].
  unfold prepared. rewrite map_map. exact RN.
Qed.

(** The stages of the scripts. *)
Definition kaon_stage (i : nat) : stage := if (i <? 230)%nat then RandomRound i (Z.of_nat (kaon_round i)) (i <? 10)%nat else FinalFit 230 false.
Definition nucleon_stage (i : nat) : stage :=
  if (i <? 175)%nat then RandomRound i (Z.of_nat (nucleon_round i)) true else if (i =? 175)%nat then FinalFit 175 true else ResidualFit 176.

Lemma kaon_plan : stages KaonFF (schedule kaon_numbers kaon_repetitions) 10 = map kaon_stage (seq 0 231).
Proof. vm_compute. reflexivity. Qed.

Lemma nucleon_plan : stages NucleonCS (schedule nucleon_numbers nucleon_repetitions) 200 = map nucleon_stage (seq 0 177).
Proof. vm_compute. reflexivity. Qed.

Lemma nth_map_seq : forall A (f : nat -> A) n i x, nth_error (map f (seq 0 n)) i = Some x -> (i < n)%nat /\ x = f i.
Proof.
  intros A f n i x H. assert (L : (i < n)%nat) by (apply nth_lt in H; now rewrite map_length, seq_length in H). split; [exact L|].
  rewrite nth_error_map in H. rewrite (nth_error_nth' _ 0%nat) in H by now rewrite seq_length. rewrite seq_nth in H by exact L. now injection H as <-.
Qed.

Lemma final_names : "Task#" ++ str_nat 230 ++ ":" ++ final_name KaonFF false = "Task#230:TaskFullFitOnlyCharged" /\
  "Task#" ++ str_nat 175 ++ ":" ++ final_name NucleonCS true = "Task#175:Full fit (Fixed resonances)" /\
  "Task#" ++ str_nat 176 ++ ":ResidualOscillationsTask" = "Task#176:ResidualOscillationsTask".
Proof. vm_compute. now repeat split. Qed.

Theorem C53_kaon_script : forall o draws ts ff_values errors w res w', kaon_script o draws ts ff_values errors w = (res, w') ->
  exists l, w_fits w' = (w_fits w ++ l)%list /\ Forall kaon_fit l.
Proof.
  intros o draws ts ff_values errors w res w' H. unfold kaon_script in H. eapply script_fits; [|exact H]. clear w res w' H.
  intros name w res w' H. unfold kaon_run in H. apply run_cases in H; [|apply kaon_measured].
  destruct H as [(p & w1 & d & p' & evs & L & R & _)|(e & _ & F & _)].
  2: { exists []. split; [now rewrite app_nil_r|constructor]. }
  destruct L as [ST NM K X CL FR LL FI _ _ (NB & LI & _) (d0 & U & PM)]. rewrite <- FI.
  destruct (fit_of_stage _ _ _ _ _ _ _ ST R) as (l & F & ALL). exists l. split; [exact F|]. rewrite K, NB, LI, CL, kaon_plan in ALL.
  assert (NRES : forall i k, kaon_stage i <> ResidualFit k) by (intros i k; unfold kaon_stage; destruct (i <? 230)%nat; discriminate).
  assert (NF : forall j fj n v, nth_error l j = Some fj -> In (n, v) kaon_constants -> ~ In n (free_names_of (fi_store fj))).
  { intros j fj n v N IN Q. assert (MF : member n (must_stay_fixed PKaonB) = true).
    { clear - IN. cbn in IN. repeat (destruct IN as [E|IN]; [injection E as <- _; reflexivity|]). destruct IN. }
    destruct (ALL j fj N) as (s & NS & MS & _). apply nth_map_seq in NS as [_ ->]. unfold kaon_stage in MS. destruct (j <? 230)%nat.
    - destruct MS as (_ & _ & _ & _ & SUB & _). apply SUB in Q. unfold available in Q. apply filter_In in Q as [_ Q]. now rewrite MF in Q.
    - destruct MS as (_ & _ & _ & E & _). rewrite E in Q. unfold available in Q. apply filter_In in Q as [_ Q]. now rewrite MF in Q. }
  apply Forall_forall. intros fi IN. apply In_nth_error in IN as [i N]. destruct (ALL i fi N) as (s & NS & MS & REST).
  apply nth_map_seq in NS as [LT ->]. destruct (REST (NRES i)) as (FC & NM' & V). split; [exact FC|]. split.
  - intros n v IN. rewrite V by (intros j fj _ Nj; exact (NF j fj n v Nj IN)).
    rewrite (fixed_value _ _ _ _ _ _ _ _ _ (unperturbed_reachable _ _ _ _ U) PM n).
    + destruct U as (d00 & C & ->). assert (E : In (n, of_keV v) (map (fun x => (fst x, of_keV (snd x))) kaon_constants)) by (apply in_map_iff; now exists (n, v)).
      assert (E2 : Forall (fun x => exists y, In (fst x, y) kaon_initial /\ of_keV (snd x) = y) kaon_constants).
      { unfold kaon_constants. repeat (apply Forall_cons; [eexists; split; [cbn; repeat (first [left; reflexivity|right])|unfold of_keV; cbn; lra]|]). apply Forall_nil. }
      rewrite Forall_forall in E2. destruct (E2 _ IN) as (y & I2 & E3). cbn [fst snd] in *. rewrite E3. exact (C02_constructor_values _ _ _ C n y I2).
    + intros Q. pose proof (unperturbed_reachable _ _ _ _ U) as RC. unfold free_names_of in Q. apply in_map_iff in Q as (q & <- & Q). apply filter_In in Q as [Q1 Q2].
      assert (MF : In (par_name q) (must_stay_fixed PKaonB)).
      { clear - IN. cbn in IN. repeat (destruct IN as [E|IN]; [injection E as <- _; cbn; tauto|]). destruct IN. }
      rewrite (proj2 (C01_always_fixed_stay_fixed _ _ _ RC MF) q Q1 eq_refl) in Q2. discriminate.
  - unfold kaon_stage in MS. destruct (i <? 230)%nat eqn:LB; [apply Nat.ltb_lt in LB; left|right].
    + exists i. split; [exact LB|]. destruct MS as (T & _ & _ & CNT & SUB & _). split; [exact T|]. cbn [freed] in CNT. split; [lia|].
      intros L10 n Q. apply SUB in Q. unfold available in Q. apply filter_In in Q as [_ Q]. apply Nat.ltb_lt in L10. rewrite L10 in Q.
      destruct (resonance_parameter n); [|reflexivity]. cbn in Q. now rewrite andb_false_r in Q.
    + destruct MS as (T & _ & _ & E & _). split; [rewrite T; apply final_names|]. rewrite E. unfold available. rewrite NM'. reflexivity.
Qed.
Print Assumptions C53_kaon_script.

Lemma published_initial : forall n v, published n = Some v -> resonance_parameter n = true /\ In (n, of_keV v) nucleon_initial.
Proof.
  intros n v P. unfold published in P. match type of P with option_map _ (List.find ?f ?l) = _ => destruct (List.find f l) as [x|] eqn:E; [|discriminate] end.
  apply find_some in E as [I E]. apply String.eqb_eq in E. cbn in P. injection P as P.
  assert (A : Forall (fun x => resonance_parameter (fst x) = true /\ exists y, In (fst x, y) nucleon_initial /\ of_keV (snd x) = y)
   [ ("mass_omega", 782660); ("decay_rate_omega", 8680);
     ("mass_omega_prime", 1410000); ("decay_rate_omega_prime", 290000);
     ("mass_omega_double_prime", 1670000); ("decay_rate_omega_double_prime", 315000);
     ("mass_phi", 1019461); ("decay_rate_phi", 4249);
     ("mass_phi_prime", 1680000); ("decay_rate_phi_prime", 150000);
     ("mass_phi_double_prime", 2159000); ("decay_rate_phi_double_prime", 137000);
     ("mass_rho", 775260); ("decay_rate_rho", 147400);
     ("mass_rho_prime", 1465000); ("decay_rate_rho_prime", 400000);
     ("mass_rho_double_prime", 1720000); ("decay_rate_rho_double_prime", 250000) ]%Z).
  { repeat (apply Forall_cons; [split; [reflexivity|]; eexists; split; [cbn; repeat (first [left; reflexivity|right])|unfold of_keV; cbn; lra]|]). apply Forall_nil. }
  rewrite Forall_forall in A. destruct (A x I) as (A1 & y & A2 & A3). subst n v. split; [exact A1|]. now rewrite A3.
Qed.

Lemma nucleon_available : forall d, map par_name d = class_names PNucleon -> available PNucleon true d =
  [ "t_in_dirac_isoscalar"; "t_in_dirac_isovector"; "t_in_pauli_isoscalar"; "t_in_pauli_isovector";
           "a_dirac_omega"; "a_pauli_omega"; "a_dirac_omega_prime"; "a_dirac_phi"; "a_pauli_phi"; "a_dirac_phi_prime"; "a_pauli_phi_prime"; "a_dirac_rho" ].
Proof. intros d N. unfold available. rewrite N. vm_compute. reflexivity. Qed.

Theorem C53_nucleon_script : forall o draws ts css errors w res w', nucleon_script o draws ts css errors w = (res, w') ->
  exists l, w_fits w' = (w_fits w ++ l)%list /\ Forall nucleon_fit l.
Proof.
  intros o draws ts css errors w res w' H. destruct (C48_nucleon_resonances _ _ _ _ _ _ _ _ H) as (l & F & RS).
  assert (X : exists l, w_fits w' = (w_fits w ++ l)%list /\
    Forall (fun fi => (fi_class fi = POscillations /\ fi_task fi = "Task#176:ResidualOscillationsTask") \/
      (fi_class fi = PNucleon /\
       ((exists i, (i < 175)%nat /\ fi_task fi = "Task#" ++ str_nat i ++ ":TaskFixAccordingToParametersFit" /\
           length (free_names_of (fi_store fi)) = nucleon_round i) \/
        (fi_task fi = "Task#175:Full fit (Fixed resonances)" /\
         free_names_of (fi_store fi) = [ "t_in_dirac_isoscalar"; "t_in_dirac_isovector"; "t_in_pauli_isoscalar"; "t_in_pauli_isovector";
           "a_dirac_omega"; "a_pauli_omega"; "a_dirac_omega_prime"; "a_dirac_phi"; "a_pauli_phi"; "a_dirac_phi_prime"; "a_pauli_phi_prime"; "a_dirac_rho" ])))) l).
  { clear l F RS. unfold nucleon_script in H. eapply script_fits; [|exact H]. clear w res w' H.
    intros name w res w' H. unfold nucleon_run in H. apply run_cases in H; [|apply nucleon_measured].
    destruct H as [(p & w1 & d & p' & evs & L & R & _)|(e & _ & F & _)].
    2: { exists []. split; [now rewrite app_nil_r|constructor]. }
    destruct L as [ST NM K X CL FR LL FI _ _ (NB & LI & _) _]. rewrite <- FI.
    destruct (fit_of_stage _ _ _ _ _ _ _ ST R) as (l & F & ALL). exists l. split; [exact F|]. rewrite K, NB, LI, CL, nucleon_plan in ALL.
    apply Forall_forall. intros fi IN. apply In_nth_error in IN as [i N]. destruct (ALL i fi N) as (s & NS & MS & REST).
    apply nth_map_seq in NS as [LT ->]. unfold nucleon_stage in MS, REST. destruct (i <? 175)%nat eqn:LB.
    - right. destruct REST as (FC & NM' & _); [discriminate|]. split; [exact FC|]. left. apply Nat.ltb_lt in LB. exists i. split; [exact LB|].
      destruct MS as (T & _ & _ & CNT & _). split; [exact T|]. rewrite (nucleon_available _ NM') in CNT. cbn [freed length] in CNT.
      assert (LE : (nucleon_round i <= 12)%nat) by (unfold nucleon_round; repeat match goal with |- context [if ?b then _ else _] => destruct b end; lia). lia.
    - destruct (i =? 175)%nat.
      + right. destruct REST as (FC & NM' & _); [discriminate|]. split; [exact FC|]. right. destruct MS as (T & _ & _ & E & _). split; [rewrite T; apply final_names|].
        rewrite E. exact (nucleon_available _ NM').
      + left. destruct MS as (T & C & _). split; [exact C|]. rewrite T. apply final_names. }
  destruct X as (l' & F' & X). assert (l' = l) by (rewrite F in F'; now apply app_inv_head in F'). subst l'. exists l. split; [exact F|].
  rewrite Forall_forall in *. intros fi IN. specialize (RS fi IN). specialize (X fi IN). destruct X as [X|(C & X)]; [now right|]. left.
  destruct RS as [RS|(_ & RS)]; [rewrite C in RS; discriminate|]. split; [exact C|]. split; [|exact X].
  intros n v P. destruct (published_initial n v P) as [A B]. destruct (RS n (of_keV v) B A) as [Q1 Q2]. now split.
Qed.
Print Assumptions C53_nucleon_script.

(** Windows of the phi in two classes, and the script of [C48_instance]. *)
Example C53_instance :
  (exists d d', reachable PKaonSimplified d /\ reachable PNucleon d' /\
     given_window PKaonSimplified d "mass_phi" (window (10000, 10500)%Z) /\ given_window PNucleon d' "mass_phi" (window (10000, 10500)%Z)) /\
  published "mass_phi" = Some 1019461%Z /\ published "a_phi" = None /\
  forall draws, exists w', kaon_script hopeless draws [2] [1] [1] demo_world = (Ok ([], None), w') /\ length (w_fits w') = 3465%nat /\ Forall kaon_fit (w_fits w').
Proof.
  split; [|split; [reflexivity|split; [reflexivity|]]].
  - assert (X : forall c, no_resonances c = false -> In "mass_phi" (class_names c) -> str_in "mass_phi" (always_fixed c) = false -> c <> PKaonFixedSelected ->
      exists d, reachable c d /\ given_window c d "mass_phi" (window (10000, 10500)%Z)).
    { intros c NR IN NA NS. set (d := map (fun n => mkPar n 1 (negb (String.eqb n "mass_phi"))) (class_names c)).
      assert (I : inv c d).
      { split; [unfold d, names; rewrite map_map; apply map_id|]. intros p P Q. unfold d in P. apply in_map_iff in P as (n & <- & P). cbn in *.
        destruct (String.eqb n "mass_phi") eqn:E; [|reflexivity]. apply String.eqb_eq in E. subst n. apply str_in_In in Q. congruence. }
      exists d. assert (R : reachable c d) by now apply inv_reachable. split; [exact R|].
      assert (FR : filter (fun q => negb (par_fixed q)) d = [mkPar "mass_phi" 1 false]).
      { unfold d. clear - NR IN NS. destruct c; try discriminate; try (now destruct NS); reflexivity. }
      destruct (C06_bounds_aligned c true d R ltac:(discriminate)) as (lo & up & GB & _ & _ & ALL). rewrite FR in ALL.
      destruct (ALL 0%nat _ eq_refl) as (a & b & La & Lb & _).
      assert (G : given_window c d "mass_phi" (a, b)).
      { exists lo, up, 0%nat, (mkPar "mass_phi" 1 false). rewrite FR. now repeat split. }
      destruct (C53_windows c d "mass_phi" (a, b) NR R eq_refl G) as (m & IM & [[E W]|[E _]]); [|discriminate].
      assert (TB : meson_table c = mesons) by (destruct c; try reflexivity; now destruct NS). rewrite TB in IM. injection E as E.
      rewrite (table_function m (mkMeson "phi" (10000, 10500)%Z (40, 45)%Z) IM ltac:(cbn; tauto) (eq_sym E)) in W. cbn in W. rewrite W in G. exact G. }
    destruct (X PKaonSimplified eq_refl ltac:(cbn; tauto) eq_refl ltac:(discriminate)) as (d & R & G).
    destruct (X PNucleon eq_refl ltac:(cbn; tauto) eq_refl ltac:(discriminate)) as (d' & R' & G'). now exists d, d'.
  - intros draws. destruct (C48_instance draws) as (w' & l & H & <- & L). exists w'. split; [exact H|]. split; [exact L|].
    destruct (C53_kaon_script hopeless draws _ _ _ _ _ _ H) as (l & F & A). cbn [w_fits demo_world app] in F. rewrite F. exact A.
Qed.
