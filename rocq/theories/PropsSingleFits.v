(** C58: the two scripts that make one fit. *)
From Coq Require Import String Ascii Reals ZArith List Bool Arith Lia Lra Permutation.
From Verif Require Import PyBase CNum PyExpr Params ParamClasses ParamSpec ParamProofs PropsParams PropsParams2 BoundsProofs PropsPerturb CommonUtils
  UtilsSpec UtilsProofs Scripts World WorldSpec WorldProofs DataSets PropsScripts PropsData Task TaskSpec TaskProofs PropsTask
  Pipeline FitScripts PropsMeasurements PropsFeasible PropsResonances PropsRuns SingleFits.
Import ListNotations.
Local Open Scope R_scope.
Local Open Scope string_scope.
Local Open Scope list_scope.

#[local] Arguments String.append : simpl never.

(** ** Specification *)

Definition dec (z : Z) (digits : Z) : R := IZR z / IZR (10 ^ digits).

(** The values written in the scripts, in the order in which they are written. *)
Definition kaon_listed : list (string * R) :=
  [ ("t_in_isoscalar", dec 4104732671275326 15); ("t_in_isovector", dec 6945876504806479 15); ("mass_rho", dec 77526 5);
    ("mass_rho_prime", dec 1465 3); ("mass_rho_double_prime", dec 172 2); ("mass_rho_triple_prime", dec 215 2);
    ("decay_rate_rho", dec 1474 4); ("decay_rate_rho_prime", dec 4 1);
    ("decay_rate_rho_double_prime", dec 5220413015662677 16); ("decay_rate_rho_triple_prime", dec 9262000511188161 16);
    ("a_rho", dec 5579553419980545 16); ("a_rho_prime", - dec 6608398477649186 17);
    ("a_rho_double_prime", dec 19847722499260162 17); ("mass_omega", dec 78266 5); ("mass_phi", dec 10190415494118024 16);
    ("mass_omega_prime", dec 141 2); ("mass_omega_double_prime", dec 167 2); ("mass_phi_prime", dec 168 2);
    ("mass_phi_double_prime", dec 2159 3); ("decay_rate_omega", dec 868 5); ("decay_rate_phi", dec 4249 6);
    ("decay_rate_omega_prime", dec 9228912480513007 16); ("decay_rate_omega_double_prime", dec 315 3);
    ("decay_rate_phi_prime", dec 15 2); ("decay_rate_phi_double_prime", dec 137 3); ("a_omega", dec 20006026821487782 17);
    ("a_phi", dec 3317378089249629 16); ("a_omega_prime", dec 14633274655460118 17);
    ("a_omega_double_prime", - dec 17367426366140964 17); ("a_phi_prime", - dec 10680398179201966 18) ].

Definition nucleon_listed : list (string * R) :=
  [ ("t_in_dirac_isoscalar", dec 1921505175780696 15); ("t_in_dirac_isovector", dec 15790639230453043 16);
    ("t_in_pauli_isoscalar", dec 19520233934653979 16); ("t_in_pauli_isovector", dec 14222095291234824 16);
    ("a_dirac_omega", dec 5392755402487763 16); ("a_dirac_phi", dec 8486878507497419 18);
    ("a_dirac_omega_prime", dec 19466200713482615 17); ("a_dirac_phi_prime", - dec 875921846784497 17);
    ("a_dirac_rho", dec 15592815589971398 17); ("a_pauli_omega", dec 19825369592717146 17);
    ("a_pauli_phi", - dec 6864173123697644 18); ("a_pauli_phi_prime", - dec 9856559678755873 17);
    ("mass_omega", dec 78266 5); ("mass_phi", dec 1019461 6); ("mass_omega_prime", dec 141 2);
    ("mass_omega_double_prime", dec 167 2); ("mass_phi_prime", dec 168 2); ("mass_phi_double_prime", dec 2159 3);
    ("decay_rate_omega", dec 868 5); ("decay_rate_phi", dec 4249 6); ("decay_rate_omega_prime", dec 29 2);
    ("decay_rate_omega_double_prime", dec 315 3); ("decay_rate_phi_prime", dec 15 2);
    ("decay_rate_phi_double_prime", dec 137 3); ("mass_rho", dec 77526 5); ("mass_rho_prime", dec 1465 3);
    ("mass_rho_double_prime", dec 172 2); ("decay_rate_rho", dec 1474 4); ("decay_rate_rho_prime", dec 4 1);
    ("decay_rate_rho_double_prime", dec 25 2) ].

(** The constants of the models; the thresholds are the squared masses of three and of two charged pions. *)
Definition pion_mass : R := dec 13957039 8.
Definition kaon_consts : list (string * R) :=
  [("t_0_isoscalar", Rsqr (3 * pion_mass)); ("t_0_isovector", Rsqr (2 * pion_mass))].
Definition nucleon_consts : list (string * R) :=
  [("nucleon_mass", dec 938272 6); ("magnetic_moment_proton", dec 2792847351 9); ("magnetic_moment_neutron", - dec 191304273 8);
   ("t_0_dirac_isoscalar", Rsqr (3 * pion_mass)); ("t_0_dirac_isovector", Rsqr (2 * pion_mass));
   ("t_0_pauli_isoscalar", Rsqr (3 * pion_mass)); ("t_0_pauli_isovector", Rsqr (2 * pion_mass))].

(** The parameters that are fitted, in the order in which the optimiser gets them. *)
Definition kaon_fitted : list string :=
  ["t_in_isoscalar"; "t_in_isovector"; "a_omega"; "a_omega_prime"; "decay_rate_omega_prime"; "a_omega_double_prime"; "a_phi";
   "mass_phi"; "decay_rate_phi"; "a_phi_prime"; "mass_phi_prime"; "decay_rate_phi_prime"; "mass_phi_double_prime";
   "decay_rate_phi_double_prime"; "a_rho"; "a_rho_prime"; "a_rho_double_prime"; "decay_rate_rho_double_prime";
   "decay_rate_rho_triple_prime"].
Definition nucleon_fitted : list string :=
  ["t_in_dirac_isoscalar"; "t_in_dirac_isovector"; "t_in_pauli_isoscalar"; "t_in_pauli_isovector"; "a_dirac_omega";
   "a_pauli_omega"; "a_dirac_omega_prime"; "a_dirac_phi"; "a_pauli_phi"; "a_dirac_phi_prime"; "a_pauli_phi_prime"; "a_dirac_rho"].

(** The value a table gives to a name. *)
Definition value_in (T : list (string * R)) (n : string) : R :=
  match List.find (fun x => String.eqb (fst x) n) T with Some x => snd x | None => 0 end.

(** The table with the optimum in place of the values that were fitted. *)
Definition with_optimum (T : list (string * R)) (fitted : list string) (popt : list R) : list (string * R) :=
  map (fun x => (fst x, value_in (combine fitted popt ++ T) (fst x))) T.

(** Two lines are printed, the first with the values of [T]. *)
Definition printed (o : Oracle) (T : list (string * R)) (evs : list event) : Prop :=
  exists text, evs = [EvPrint (list_text o (map snd T)); EvPrint text].

(** What the optimiser is answered: the cross-sections of the model, with the constants of nature, for particles of this mass. *)
Definition answer (c : param_class) (mass : R) (x : FitInput) (args : list R) : Res (list R) :=
  bind (mapM array_of (fi_points x)) (fun points =>
  closure_result (CrossSectionOf mass (dec 72973525693 13) (dec 3893793721 4) (c, fi_store x)) points args).

(** Exactly one fit was made, and this is what it was given and what was printed of it. *)
Definition one_fit (o : Oracle) (c : param_class) (name : string) (mass : R) (T K : list (string * R)) (fitted : list string) (rows : list row)
  (w : World) (res : Res unit) (w' : World) : Prop :=
  exists sorted x evs,
    in_time_order rows sorted /\ fits_on sorted x /\
    fi_task x = name /\ fi_class x = c /\ map par_name (fi_store x) = class_names c /\
    (forall n, In n (class_names c) -> val (fi_store x) n = value_in (K ++ T) n) /\
    map par_name (filter (fun p => negb (par_fixed p)) (fi_store x)) = fitted /\ fi_start x = map (value_in T) fitted /\ feasible x /\
    w_fits w' = w_fits w ++ [x] /\ w_events w' = w_events w ++ evs /\
    match optimise (answer c mass x) (o_fit o (length (w_fits w)) x) with
    | Err RuntimeError => res = Ok tt /\ printed o T evs
    | Err e => res = Err e /\ evs = []
    | Ok (popt, _) => (exists e, res = Err e /\ evs = []) \/
        (res = Ok tt /\ length popt = length fitted /\ printed o (with_optimum T fitted popt) evs)
    end.

(** ** Proofs *)

(** The store with these values, in which only the fitted parameters are free. *)
Definition store_of (c : param_class) (T K : list (string * R)) (fitted : list string) : data :=
  map (fun n => mkPar n (value_in (K ++ T) n) (negb (str_in n fitted))) (class_names c).

Definition built (x : Res data) : data := match x with Ok d => d | Err _ => [] end.

Lemma kaon_store_eq :
  let d0 := built (from_ordered PKaon kaon_single_values [script_t_0_isoscalar; script_t_0_isovector]) in
  from_ordered PKaon kaon_single_values [script_t_0_isoscalar; script_t_0_isovector] = Ok d0 /\
  snd (mutate PKaon (MRelease kaon_single_released) (snd (mutate PKaon MFixResonances (snd (mutate PKaon MReleaseAll
    (snd (mutate PKaon (MSetValue "decay_rate_phi_prime" (15/100)) d0))))))) = store_of PKaon kaon_listed kaon_consts kaon_fitted.
Proof. split; reflexivity. Qed.

Lemma nucleon_store_eq :
  let d0 := built (from_ordered PNucleon nucleon_single_values [config_proton_mass; config_proton_moment; config_neutron_moment;
     script_t_0_isoscalar; script_t_0_isovector; script_t_0_isoscalar; script_t_0_isovector]) in
  from_ordered PNucleon nucleon_single_values [config_proton_mass; config_proton_moment; config_neutron_moment;
     script_t_0_isoscalar; script_t_0_isovector; script_t_0_isoscalar; script_t_0_isovector] = Ok d0 /\
  snd (mutate PNucleon MFixResonances d0) = store_of PNucleon nucleon_listed nucleon_consts nucleon_fitted.
Proof. split; reflexivity. Qed.

(** ** Running a task and printing what came out *)

(** What is shown of a run that came to an end: the values in the order of [names] and the report. *)
Definition shows (o : Oracle) (initial : data) (names : list string) (final : data) (status : string) (evs : list event) : Prop :=
  exists rep, rp_status rep = status /\
    evs = [EvPrint (list_text o (map (val final) names));
           EvPrint (o_show_report o rep initial (if String.eqb status "finished" then Some final else None))].

Lemma printed_run : forall o t w d a d0 res w',
  nth_error (w_lists w) (r_data (tk_parameters t)) = Some d -> reachable (r_class (tk_parameters t)) d ->
  tk_class t <> ResidualTask -> tk_reports_dir t = None -> rp_initial (tk_report t) = a -> rp_final (tk_report t) = None ->
  a <> r_data (tk_parameters t) -> nth_error (w_lists w) a = Some d0 ->
  run_and_print o t w = (res, w') ->
  let d1 := prepared (tk_class t) (r_class (tk_parameters t)) d in
  let names := ct_ordered (table (r_class (tk_parameters t))) in
  w_fits w' = w_fits w ++ fits_made t d1 /\
  exists evs, w_events w' = w_events w ++ evs /\
    match fit_result o (length (w_fits w)) t d1 with
    | Err RuntimeError => res = Ok tt /\ shows o d0 names d1 "failed" evs
    | Err e => res = Err e /\ evs = []
    | Ok (popt, _) => (exists e, res = Err e /\ evs = []) \/
        (res = Ok tt /\ length popt = count_free d1 /\ shows o d0 names (fill d1 popt) "finished" evs)
    end.
Proof.
  intros o t w d a d0 res w' S RC K ND RI RF NA S0 H d1 names. pose proof (reachable_inv _ _ RC) as I.
  destruct (run_spec o t w d S I K) as (res1 & t1 & h' & evs & E & ST & FR & OUT). fold d1 in E, OUT.
  unfold run_and_print in H. rewrite E in H. destruct ST as (_ & _ & TP & _).
  assert (FA : nth_error h' a = Some d0).
  { destruct FR as [_ FR]. rewrite FR; [exact S0| |exact NA]. apply nth_error_Some. congruence. }
  assert (N1 : ParamProofs.names d1 = class_names (r_class (tk_parameters t))).
  { destruct I as [N _]. unfold d1, prepared, ParamProofs.names in *. rewrite map_map. exact N. }
  unfold run_outcome in OUT.
  assert (ERR : forall e, res1 = Err e -> evs = [] -> w_fits w' = w_fits w ++ fits_made t d1 /\ exists evs, w_events w' = w_events w ++ evs /\ res = Err e /\ evs = []).
  { intros e -> ->. unfold mbind, lift in H. injection H as <- <-. split; [reflexivity|]. exists []. split; [reflexivity|]. now split. }
  assert (GO : forall d2, nth_error h' (r_data (tk_parameters t)) = Some d2 -> ParamProofs.names d2 = class_names (r_class (tk_parameters t)) ->
    res1 = Ok (tk_parameters t) -> evs = [] -> forall final, (rp_final (tk_report t1) = None /\ final = None \/ exists b, rp_final (tk_report t1) = Some b /\ nth_error h' b = Some d2 /\ final = Some d2) ->
    rp_initial (tk_report t1) = a ->
    res = Ok tt /\ w_fits w' = w_fits w ++ fits_made t d1 /\
    w_events w' = w_events w ++ [EvPrint (list_text o (map (val d2) names)); EvPrint (o_show_report o (tk_report t1) d0 final)]).
  { intros d2 S2 N2 -> -> final FIN RI1. unfold mbind at 1, lift at 1 in H. cbn [Datatypes.id] in H.
    unfold obj_read, mbind at 1, mbind at 1 in H. erewrite read_ok in H by exact S2. unfold lift in H.
    rewrite (get_ordered_values _ _ N2) in H. fold names in H. unfold mbind at 1, emit at 1 in H. unfold mbind at 1, report_text, mbind at 1 in H.
    rewrite RI1 in H. erewrite read_ok in H by exact FA. unfold mbind at 1 in H. unfold read_option in H.
    destruct FIN as [(FN & ->)|(b & FN & FB & ->)]; rewrite FN in H.
    - unfold mbind, ret, emit in H. cbn in H. injection H as <- <-. split; [reflexivity|]. split; [reflexivity|]. cbn. now rewrite app_nil_r, <- app_assoc.
    - unfold mbind at 1 in H. erewrite read_ok in H by exact FB. unfold ret, mbind, emit in H. cbn in H. injection H as <- <-.
      split; [reflexivity|]. split; [reflexivity|]. cbn. now rewrite app_nil_r, <- app_assoc. }
  destruct (fit_result o (length (w_fits w)) t d1) as [[popt cov]|e] eqn:F.
  - destruct (Nat.eq_dec _ _) as [L|L].
    2: { destruct OUT as (-> & _ & _ & ->). destruct (ERR _ eq_refl eq_refl) as (A & evs & B & C). split; [exact A|]. exists evs. split; [exact B|]. left. eexists. exact C. }
    destruct OUT as (S2 & OUT). destruct (closure_result _ _ _) as [fits|e].
    2: { destruct OUT as (-> & _ & ->). destruct (ERR _ eq_refl eq_refl) as (A & evs & B & C). split; [exact A|]. exists evs. split; [exact B|]. left. eexists. exact C. }
    cbv zeta in OUT. destruct (text_of _ _ _) as [chi|e].
    2: { destruct OUT as (-> & _ & ->). destruct (ERR _ eq_refl eq_refl) as (A & evs & B & C). split; [exact A|]. exists evs. split; [exact B|]. left. eexists. exact C. }
    destruct OUT as (_ & (final & values & RP & _ & _ & FN & _) & _ & (R1 & EV)). unfold plot_result in R1. unfold plot_events in EV. rewrite ND in R1, EV.
    destruct (GO (fill d1 popt) S2) with (final := Some (fill d1 popt)) as (A & B & C); auto.
    + rewrite fill_names. exact N1.
    + right. exists final. rewrite RP. now cbn.
    + now rewrite RP.
    + split; [exact B|]. eexists. split; [exact C|]. right. split; [exact A|]. split; [exact L|].
      exists (tk_report t1). rewrite RP at 1. split; reflexivity.
  - destruct e; try (destruct OUT as (-> & _ & _ & ->); destruct (ERR _ eq_refl eq_refl) as (A & evs & B & C); split; [exact A|]; exists evs; now split).
    destruct OUT as (-> & RP & S2 & ->). destruct (GO d1 S2) with (final := @None data) as (A & B & C); auto.
    + left. rewrite RP. now cbn.
    + now rewrite RP.
    + split; [exact B|]. eexists. split; [exact C|]. split; [exact A|]. exists (tk_report t1). rewrite RP at 1. split; reflexivity.
Qed.

Lemma start_feasible : forall c d T fitted, reachable c d -> (forall n, In n (threshold_parameters c) -> 0 <= val d n) ->
  map par_name (filter (fun p => negb (par_fixed p)) d) = fitted -> free_values d = map (value_in T) fitted ->
  (forall n, In n fitted -> within (fst (maximal_bounds_of c d n)) (value_in T n) (snd (maximal_bounds_of c d n))) ->
  exists b, get_bounds c false d = Ok b /\
    length (fst b) = length (free_values d) /\ length (snd b) = length (free_values d) /\ in_box (free_values d) b.
Proof.
  intros c d T fitted RC TH FN FV WI. destruct (C06_bounds_aligned c false d RC (fun _ => TH)) as (lo & up & GB & L1 & L2 & AL).
  exists (lo, up). split; [exact GB|]. cbn [fst snd]. unfold free_values in *. rewrite map_length. split; [exact L1|]. split; [exact L2|].
  intros j v a b V A B. cbn [fst snd] in A, B.
  destruct (nth_error (filter (fun p => negb (par_fixed p)) d) j) as [p|] eqn:P.
  2: { rewrite nth_error_map, P in V. discriminate. }
  destruct (AL j p P) as (a' & b' & A' & B' & _ & M & _). specialize (M eq_refl).
  rewrite A in A'. rewrite B in B'. injection A' as <-. injection B' as <-.
  assert (N : nth_error fitted j = Some (par_name p)) by (rewrite <- FN; rewrite nth_error_map, P; reflexivity).
  rewrite FV in V. rewrite nth_error_map, N in V. injection V as <-.
  specialize (WI _ (nth_error_In _ _ N)). rewrite <- M in WI. exact WI.
Qed.

Lemma single_fit : forall o c k name T K fitted d mass a ts ys es rows w res w',
  reachable c d -> prepared k c d = d -> k <> ResidualTask -> k <> TwoPolesTask -> form_factor_task k = false -> charged_only k = false ->
  (forall n, In n (threshold_parameters c) -> 0 <= val d n) ->
  map par_name (filter (fun p => negb (par_fixed p)) d) = fitted -> free_values d = map (value_in T) fitted ->
  (forall n, In n fitted -> within (fst (maximal_bounds_of c d n)) (value_in T n) (snd (maximal_bounds_of c d n))) ->
  (forall n, In n (class_names c) -> val d n = value_in (K ++ T) n) ->
  map (val d) (ct_ordered (table c)) = map snd T ->
  (forall popt, length popt = length fitted -> map (val (fill d popt)) (ct_ordered (table c)) = map snd (with_optimum T fitted popt)) ->
  in_time_order rows (zip3 ts ys es) -> length ys = length ts -> length es = length ts ->
  nth_error (w_lists w) a = Some d ->
  mbind (Task_init k name (mkRef c a) ts ys es mass config_alpha config_hc_squared true None true false) (run_and_print o) w = (res, w') ->
  one_fit o c name mass T K fitted rows w res w'.
Proof.
  intros o c k name T K fitted d mass a ts ys es rows w res w' RC PR NK N2 FF CO TH FN FV WI VS OR OF ST LY LE S H.
  destruct (start_feasible c d T fitted RC TH FN FV WI) as (b & GB & B1 & B2 & BX).
  unfold mbind at 1, Task_init, mbind at 1, obj_to_list, mbind at 1 in H. cbn [r_data] in H. rewrite (read_ok _ _ _ S) in H.
  unfold alloc, ret in H.
  set (t := mkTask _ _ _ _ _ _ _ _ _ _ _ _ _ _ _ _ _ _ _) in H. set (w1 := set_lists _ _) in H.
  assert (LA : (a < length (w_lists w))%nat) by (apply nth_error_Some; congruence).
  destruct (printed_run o t w1 d (length (w_lists w)) d res w') as (FM & evs & EV & OUT); try reflexivity; try assumption.
  - cbn. now apply nth_extend.
  - cbn. intros E. rewrite E in LA. exact (Nat.lt_irrefl _ LA).
  - cbn. apply nth_alloc.
  - assert (FI : fit_input t d = Ok (mkFitInput name c d ts ys es (free_values d) b)).
    { unfold fit_input, fit_data. cbn [tk_class t]. rewrite CO. cbn [bind tk_ts_fit tk_ys_fit tk_errors_fit tk_parameters r_class tk_handpicked t tk_name].
      rewrite GB. reflexivity. }
    cbn [tk_class tk_parameters r_class t] in FM, OUT. rewrite PR in FM, OUT. unfold fits_made in FM. rewrite FI in FM.
    destruct (zip3_parts ts ys es LY LE) as (Z1 & Z2 & Z3).
    exists (zip3 ts ys es), (mkFitInput name c d ts ys es (free_values d) b), evs.
    split; [exact ST|]. split; [split; [|split]; symmetry; [exact Z1|exact Z2|exact Z3]|]. split; [reflexivity|]. split; [reflexivity|].
    split; [apply (reachable_inv _ _ RC)|]. split; [exact VS|]. split; [exact FN|]. split; [exact FV|].
    split; [exact (conj B1 (conj B2 BX))|]. split; [exact FM|]. split; [exact EV|].
    assert (FR : fit_result o (length (w_fits w1)) t d =
      optimise (answer c mass (mkFitInput name c d ts ys es (free_values d) b)) (o_fit o (length (w_fits w)) (mkFitInput name c d ts ys es (free_values d) b))).
    { unfold fit_result. rewrite FI. cbn [bind]. unfold fitted_closure. cbn [tk_class t]. rewrite FF. destruct k; try reflexivity; now elim N2. }
    rewrite FR in OUT. destruct (optimise _ _) as [[popt cov]|e].
    + destruct OUT as [X|(R & L & rep & _ & E)]; [left; exact X|right]. split; [exact R|].
      assert (LF : length popt = length fitted). { rewrite L. unfold count_free. rewrite <- FN, map_length. reflexivity. }
      split; [exact LF|]. rewrite (OF popt LF) in E. eexists. exact E.
    + destruct e; try exact OUT. destruct OUT as (R & rep & _ & E). split; [exact R|]. rewrite OR in E. eexists. exact E.
Qed.

Ltac each_name := repeat (apply Forall_cons; [|]); [..|apply Forall_nil].

Ltac powers := repeat match goal with |- context [(10 ^ ?k)%Z] => let x := eval vm_compute in (10 ^ k)%Z in change (10 ^ k)%Z with x end.

Ltac spelled := repeat match goal with |- context [String.append ?a ?b] => let x := eval vm_compute in (String.append a b) in change (String.append a b) with x end.

Lemma pion_bounds : 0 < pion_mass < 14/100.
Proof. unfold pion_mass, dec. powers. lra. Qed.

Lemma kaon_values : forall n, In n (class_names PKaon) ->
  val (store_of PKaon kaon_listed kaon_consts kaon_fitted) n = value_in (kaon_consts ++ kaon_listed) n.
Proof.
  apply Forall_forall. let x := eval vm_compute in (class_names PKaon) in change (class_names PKaon) with x at 1. each_name; reflexivity.
Qed.

Lemma nucleon_values : forall n, In n (class_names PNucleon) ->
  val (store_of PNucleon nucleon_listed nucleon_consts nucleon_fitted) n = value_in (nucleon_consts ++ nucleon_listed) n.
Proof.
  apply Forall_forall. let x := eval vm_compute in (class_names PNucleon) in change (class_names PNucleon) with x at 1. each_name; reflexivity.
Qed.

Lemma kaon_box : forall n, In n kaon_fitted ->
  let d := store_of PKaon kaon_listed kaon_consts kaon_fitted in
  within (fst (maximal_bounds_of PKaon d n)) (value_in kaon_listed n) (snd (maximal_bounds_of PKaon d n)).
Proof.
  apply Forall_forall. pose proof pion_bounds as P.
  assert (V1 : val (store_of PKaon kaon_listed kaon_consts kaon_fitted) "t_0_isoscalar" = Rsqr (3 * pion_mass)) by reflexivity.
  assert (V2 : val (store_of PKaon kaon_listed kaon_consts kaon_fitted) "t_0_isovector" = Rsqr (2 * pion_mass)) by reflexivity.
  generalize dependent (store_of PKaon kaon_listed kaon_consts kaon_fitted). intros d V1 V2. unfold kaon_fitted.
  each_name; cbn; spelled; rewrite ?V1, ?V2, ?sqrt_Rsqr by lra; split; try exact Logic.I; unfold dec, Rsqr; powers; nra.
Qed.

Lemma nucleon_box : forall n, In n nucleon_fitted ->
  let d := store_of PNucleon nucleon_listed nucleon_consts nucleon_fitted in
  within (fst (maximal_bounds_of PNucleon d n)) (value_in nucleon_listed n) (snd (maximal_bounds_of PNucleon d n)).
Proof.
  apply Forall_forall. pose proof pion_bounds as P.
  assert (V1 : val (store_of PNucleon nucleon_listed nucleon_consts nucleon_fitted) "t_0_dirac_isoscalar" = Rsqr (3 * pion_mass)) by reflexivity.
  assert (V2 : val (store_of PNucleon nucleon_listed nucleon_consts nucleon_fitted) "t_0_dirac_isovector" = Rsqr (2 * pion_mass)) by reflexivity.
  assert (V3 : val (store_of PNucleon nucleon_listed nucleon_consts nucleon_fitted) "t_0_pauli_isoscalar" = Rsqr (3 * pion_mass)) by reflexivity.
  assert (V4 : val (store_of PNucleon nucleon_listed nucleon_consts nucleon_fitted) "t_0_pauli_isovector" = Rsqr (2 * pion_mass)) by reflexivity.
  generalize dependent (store_of PNucleon nucleon_listed nucleon_consts nucleon_fitted). intros d V1 V2 V3 V4. unfold nucleon_fitted.
  each_name; cbn; spelled; rewrite ?V1, ?V2, ?V3, ?V4; split; try exact Logic.I; unfold dec, Rsqr; powers; nra.
Qed.

Lemma kaon_reachable : reachable PKaon (store_of PKaon kaon_listed kaon_consts kaon_fitted).
Proof.
  destruct kaon_store_eq as (B & <-). do 4 apply reach_step. eapply reach_from_ordered. exact B.
Qed.

Lemma nucleon_reachable : reachable PNucleon (store_of PNucleon nucleon_listed nucleon_consts nucleon_fitted).
Proof.
  destruct nucleon_store_eq as (B & <-). apply reach_step. eapply reach_from_ordered. exact B.
Qed.

Lemma kaon_printed : forall popt, length popt = length kaon_fitted ->
  map (val (fill (store_of PKaon kaon_listed kaon_consts kaon_fitted) popt)) (ct_ordered (table PKaon)) =
  map snd (with_optimum kaon_listed kaon_fitted popt).
Proof.
  intros popt L. cbn [kaon_fitted length] in L. do 19 (destruct popt as [|? popt]; [discriminate|]). destruct popt; [|discriminate]. reflexivity.
Qed.

Lemma nucleon_printed : forall popt, length popt = length nucleon_fitted ->
  map (val (fill (store_of PNucleon nucleon_listed nucleon_consts nucleon_fitted) popt)) (ct_ordered (table PNucleon)) =
  map snd (with_optimum nucleon_listed nucleon_fitted popt).
Proof.
  intros popt L. cbn [nucleon_fitted length] in L. do 12 (destruct popt as [|? popt]; [discriminate|]). destruct popt; [|discriminate]. reflexivity.
Qed.

(** One step of a script on the store it has made. *)
Lemma on_last : forall c h d m w A (k : W A), fst (mutate c m d) = Ok tt ->
  mbind (obj_mutate (mkRef c (length h)) m) (fun _ => k) (set_lists (h ++ [d]) w) = k (set_lists (h ++ [snd (mutate c m d)]) w).
Proof.
  intros c h d m w A k E. unfold mbind at 1. rewrite (obj_mutate_eq (mkRef c (length h)) m d) by apply nth_alloc. cbn [r_class r_data].
  rewrite E. cbn [w_lists set_lists]. rewrite replace_end. reflexivity.
Qed.

(** ** The two scripts *)

Theorem C58_kaon_script : forall o charged neutral w res w',
  kaon_single o (map me_t charged) (map me_value charged) (map me_error charged)
                (map me_t neutral) (map me_value neutral) (map me_error neutral) w = (res, w') ->
  (charged ++ neutral = [] -> res = Err ValueError /\ w_fits w' = w_fits w /\ w_events w' = w_events w) /\
  (charged ++ neutral <> [] ->
   one_fit o PKaon "Fit" (dec 493677 6) kaon_listed kaon_consts kaon_fitted (kaon_rows charged neutral) w res w').
Proof.
  intros o charged neutral w res w' H. destruct kaon_store_eq as (B & SE). set (d0 := built _) in B, SE.
  unfold kaon_single, obj_from_ordered in H. unfold mbind at 1, mbind at 1 in H. unfold lift at 1 in H. rewrite B in H.
  unfold mbind at 1, alloc, ret in H.
  destruct (C37_kaon_data charged neutral) as [(E & P)|(NE & ts & ys & es & P & L1 & L2 & ST)]; rewrite P in H.
  - unfold mbind at 1, lift in H. injection H as <- <-. split; [intros _; split; [reflexivity|split; reflexivity]|]. intros C. exfalso. apply C.
    apply app_eq_nil in E as [E1 E2]. apply map_eq_nil in E1. apply map_eq_nil in E2. subst charged neutral. reflexivity.
  - split.
    { intros C. exfalso. apply NE. apply app_eq_nil in C as [-> ->]. reflexivity. }
    intros _. unfold mbind at 1, lift at 1 in H.
    rewrite !on_last in H by reflexivity. rewrite SE in H. cbn [fst snd] in H.
    set (w1 := set_lists _ w) in H. change (w_fits w) with (w_fits w1).
    assert (X : one_fit o PKaon "Fit" (dec 493677 6) kaon_listed kaon_consts kaon_fitted (kaon_rows charged neutral) w1 res w').
    { eapply (single_fit o PKaon KCS_FixAccording "Fit" kaon_listed kaon_consts kaon_fitted) with (ts := ts) (ys := ys) (es := es);
        [exact kaon_reachable|reflexivity|intros Q; discriminate Q|intros Q; discriminate Q|reflexivity|reflexivity| |reflexivity|reflexivity|exact kaon_box|exact kaon_values|reflexivity|exact kaon_printed
        |exact ST|exact L1|exact L2| |exact H].
      - apply Forall_forall. unfold threshold_parameters, thresholds_kaon. each_name; apply Rle_0_sqr.
      - apply nth_alloc. }
    exact X.
Qed.
Print Assumptions C58_kaon_script.

Theorem C58_nucleon_script : forall o proton w res w',
  nucleon_single o (map me_t proton) (map me_value proton) (map me_error proton) w = (res, w') ->
  (proton = [] -> res = Err ValueError /\ w_fits w' = w_fits w /\ w_events w' = w_events w) /\
  (proton <> [] ->
   one_fit o PNucleon "Full Fit" (dec 938272 6) nucleon_listed nucleon_consts nucleon_fitted (nucleon_rows proton [] [] []) w res w').
Proof.
  intros o proton w res w' H. destruct nucleon_store_eq as (B & SE). set (d0 := built _) in B, SE.
  unfold nucleon_single, obj_from_ordered in H. unfold mbind at 1, mbind at 1 in H. unfold lift at 1 in H. rewrite B in H.
  unfold mbind at 1, alloc, ret in H.
  destruct (C37_nucleon_script_data proton []) as [(E & P)|(NE & ts & ys & es & P & L1 & L2 & ST)]; cbn [map] in P; rewrite P in H.
  - unfold mbind at 1, lift in H. injection H as <- <-. split; [intros _; split; [reflexivity|split; reflexivity]|]. intros C. exfalso. apply C.
    apply app_eq_nil in E as [E1 E2]. apply map_eq_nil in E1. exact E1.
  - split.
    { intros C. exfalso. apply NE. rewrite C. reflexivity. }
    intros _. unfold mbind at 1, lift at 1 in H.
    rewrite !on_last in H by reflexivity. rewrite SE in H. cbn [fst snd] in H.
    set (w1 := set_lists _ w) in H.
    assert (X : one_fit o PNucleon "Full Fit" (dec 938272 6) nucleon_listed nucleon_consts nucleon_fitted (nucleon_rows proton [] [] []) w1 res w').
    { eapply (single_fit o PNucleon NCS_FixAccording "Full Fit" nucleon_listed nucleon_consts nucleon_fitted) with (ts := ts) (ys := ys) (es := es);
        [exact nucleon_reachable|reflexivity|intros Q; discriminate Q|intros Q; discriminate Q|reflexivity|reflexivity| |reflexivity|reflexivity|exact nucleon_box|exact nucleon_values|reflexivity|exact nucleon_printed
        |exact ST|exact L1|exact L2| |exact H].
      - apply Forall_forall. unfold threshold_parameters. each_name; apply Rle_0_sqr.
      - apply nth_alloc. }
    exact X.
Qed.
Print Assumptions C58_nucleon_script.

(** What is kept fixed is kept at the published value. *)
Theorem C58_fixed_at_published_values : forall n z, published n = Some z ->
  (In n (map fst kaon_listed) /\ ~ In n kaon_fitted -> value_in kaon_listed n = of_keV z) /\
  (In n (map fst nucleon_listed) -> value_in nucleon_listed n = of_keV z).
Proof.
  intros n z P. unfold published in P. match type of P with option_map _ (List.find ?f ?l) = _ => destruct (List.find f l) as [x|] eqn:E; [|discriminate] end.
  apply find_some in E as [I E]. apply String.eqb_eq in E. cbn in P. injection P as <-. subst n. cbn in I.
  repeat (destruct I as [<-|I];
    [split; [intros [_ NF]; first [exfalso; apply NF; unfold kaon_fitted; cbn; tauto|cbn; unfold of_keV, dec; powers; lra]
            |intros _; cbn; unfold of_keV, dec; powers; lra]|]). destruct I.
Qed.
Print Assumptions C58_fixed_at_published_values.

(** An optimiser that gives up. *)
Example C58_instance : exists w' x text,
  kaon_single hopeless [3; 1] [5; 7] [1/2; 1/4] [2] [9] [1] demo_world = (Ok tt, w') /\ w_fits w' = [x] /\
  fi_points x = [KaonDatapoint (RtoC 1) true; KaonDatapoint (RtoC 2) false; KaonDatapoint (RtoC 3) true] /\ fi_values x = [7; 9; 5] /\
  length (fi_start x) = 19%nat /\ nth_error (fi_start x) 11 = Some (dec 15 2) /\
  w_events w' = [EvPrint (list_text hopeless (map snd kaon_listed)); EvPrint text].
Proof.
  destruct (kaon_single hopeless [3; 1] [5; 7] [1/2; 1/4] [2] [9] [1] demo_world) as [res w'] eqn:H.
  destruct (C58_kaon_script hopeless [mkMeasurement 3 5 (1/2); mkMeasurement 1 7 (1/4)] [mkMeasurement 2 9 1] demo_world res w' H) as (_ & ONE).
  destruct ONE as (sorted & x & evs & ST & (P1 & P2 & _) & _ & _ & _ & _ & _ & FS & _ & F & EV & OUT); [discriminate|].
  assert (SO : sorted = [(KaonDatapoint (RtoC 1) true, 7, 1/4); (KaonDatapoint (RtoC 2) false, 9, 1); (KaonDatapoint (RtoC 3) true, 5, 1/2)]).
  { rewrite (stable_sort_unique _ _ _ _ _ ST (sorted_by_stable _ _ _)). unfold sorted_by.
    unfold kaon_rows. cbn [map app me_t me_value me_error fold_right].
    repeat (cbn [insert_by]; match goal with |- context [Rle_dec ?a ?b] =>
      let x := fresh in destruct (Rle_dec a b) as [x|x]; simpl in x; try (exfalso; lra) end). reflexivity. }
  cbn [optimise hopeless demo_oracle o_fit] in OUT. destruct OUT as (-> & text & E).
  exists w', x, text. split; [reflexivity|]. split; [exact F|]. rewrite P1, P2, SO, FS. repeat split. rewrite EV, E. reflexivity.
Qed.
