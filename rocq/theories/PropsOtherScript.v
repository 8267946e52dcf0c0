(** C57: tasks for cross-sections in pipelines for form factors, and the script that fits the two other models. *)
From Coq Require Import String Ascii Reals ZArith List Bool Arith Lia Lra Permutation.
From Verif Require Import PyBase CNum PyExpr Params ParamClasses ParamSpec ParamProofs PropsParams PropsBounds PropsPerturb CommonUtils
  UtilsSpec UtilsProofs Scripts World WorldSpec WorldProofs DataSets PropsScripts PropsData Task TaskSpec TaskProofs PropsTask PropsResidual
  Pipeline PipelineSpec PipelineReports PropsReports PipelineProofs PropsPipeline PropsRuns PropsStarts BoundsProofs PropsMeasurements
  FitScripts OtherScript.
Import ListNotations.
Local Open Scope R_scope.
Local Open Scope string_scope.
Local Open Scope list_scope.

#[local] Arguments String.append : simpl never.

(** ** Tasks for cross-sections in form factor pipelines *)

Lemma misplaced_err : forall s rows args, rows <> [] -> exists e, closure_result (MisplacedOf s) rows args = Err e.
Proof.
  intros s rows args NE. cbn [closure_result]. destruct (with_free_values args s) as [s'|e]; [|now eexists]. cbn [bind].
  destruct (buildable (fst s') (snd s')); [|now eexists]. cbn [bind]. destruct rows as [|p rows]; [congruence|].
  destruct (family_of (fst s')); cbn [mapM bind]; now eexists.
Qed.

Lemma background_err : forall t d, tk_numbers t = false -> tk_ts t <> [] -> exists e, residuals t d = Err e.
Proof.
  intros t d K NE. unfold residuals, background, cross_section_closure. rewrite K.
  destruct (misplaced_err (r_class (tk_parameters t), everything_fixed d) (tk_ts t) [] NE) as (e & ->). now exists e.
Qed.

(** A task whose function raises at every optimum ends only when the fit raises RuntimeError. *)
Lemma ends_failed : forall o t w d r t' w', ready t w d ->
  (forall popt, exists e, closure_result (fitted_closure t (prepared (tk_class t) (r_class (tk_parameters t)) d)) (tk_ts t) popt = Err e) ->
  Task_run o (t, w) = (Ok r, (t', w')) ->
  rp_status (tk_report t') = "failed" /\ fit_result o (length (w_fits w)) t (prepared (tk_class t) (r_class (tk_parameters t)) d) = Err RuntimeError.
Proof.
  intros o t w d r t' w' (S & RC & K) BAD H. pose proof (reachable_inv _ _ RC) as I.
  destruct (run_spec o t w d S I K) as (res & t1 & h' & evs & E & ST & FR & OUT). rewrite E in H. injection H as -> -> _.
  set (d1 := prepared _ _ _) in *. unfold run_outcome in OUT. destruct (fit_result _ _ _ _) as [[popt cov]|e].
  - exfalso. destruct (Nat.eq_dec _ _) as [_|_]; [|destruct OUT; discriminate]. destruct OUT as [_ OUT]. destruct (BAD popt) as (e & Q). rewrite Q in OUT.
    destruct OUT; discriminate.
  - destruct e; destruct OUT as (Q & RP & _); try discriminate. now rewrite RP.
Qed.

Lemma cross_section_task_fails : forall o t w d r t' w', ready t w d -> kind_of (tk_class t) = CrossSectionKind -> tk_numbers t = false -> tk_ts t <> [] ->
  Task_run o (t, w) = (Ok r, (t', w')) -> rp_status (tk_report t') = "failed".
Proof.
  intros o t w d r t' w' RD K N NE H. refine (proj1 (ends_failed _ _ _ _ _ _ _ RD _ H)). intros popt.
  unfold fitted_closure, cross_section_closure. rewrite N. destruct (tk_class t); try discriminate; cbn [form_factor_task]; now apply misplaced_err.
Qed.

(** Every task that ends: it is not the fit of residuals, and if it fits cross-sections, it has failed. *)
Lemma ended_kinds : forall o p d classes before l xs i x c, ended o p d classes before l xs -> passes_masses (pl_kind p) = false -> pl_ts p <> [] ->
  nth_error xs i = Some x -> nth_error classes i = Some c ->
  c <> ResidualTask /\ (kind_of c = CrossSectionKind -> chi_text x = None).
Proof.
  intros o p d classes before l xs i x c EN K NE X C. destruct (EN i x X) as (t & w & r & fi & TR & _ & _ & _ & _ & _ & SE & C' & SA & dt & S & RC & _).
  rewrite C in C'. injection C' as ->. destruct SA as [(D1 & _) _ _ _ _ SN]. rewrite K in SN. cbn [orb] in SN.
  assert (NT : tk_ts t <> []) by congruence.
  assert (NR : tk_class t <> ResidualTask).
  { intros Q. rewrite Q in SN. destruct (background_err t dt SN NT) as (e & RE).
    pose proof (run_residual o t w dt S (reachable_inv _ _ RC) Q) as RR. rewrite RE in RR. destruct RR as (h & E & _). rewrite TR in E. discriminate. }
  split; [exact NR|]. intros KC. rewrite KC in SN.
  pose proof (cross_section_task_fails o t w dt r _ _ (conj S (conj RC NR)) KC SN NT TR) as F. unfold chi_text.
  destruct SE as [(A & _)|(_ & ->)]; [congruence|reflexivity].
Qed.

(** The result of a form factor pipeline with data is not the fit of a cross-section or of residuals, whatever tasks it was
    given; with a fit of residuals it has no result at all. *)
Theorem C57_form_factor_pipelines : forall o p w d b p' w', started p w d -> passes_masses (pl_kind p) = false -> pl_ts p <> [] ->
  Pipeline_run o (p, w) = (Ok b, (p', w')) ->
  ~ In ResidualTask (pl_tasks p) /\
  (b = no_fit \/ exists i c, nth_error (pl_tasks p) i = Some c /\ kind_of c = FormFactorKind /\
     bf_name b = Some (pl_name p ++ ":" ++ "Task#" ++ str_nat i ++ ":" ++ class_name c)%string).
Proof.
  intros o p w d b p' w' ST K NE H. destruct (C36_plain_pipelines _ _ _ _ _ _ _ ST H) as (l & xs & _ & L1 & L2 & EN & NM & BO).
  assert (ALL : forall i x c, nth_error xs i = Some x -> nth_error (pl_tasks p) i = Some c -> c <> ResidualTask /\ (kind_of c = CrossSectionKind -> chi_text x = None))
    by (intros i x c X C; exact (ended_kinds _ _ _ _ _ _ _ i x c EN K NE X C)).
  split.
  - intros IN. apply In_nth_error in IN as [i C]. destruct (nth_error xs i) as [x|] eqn:X.
    + now destruct (ALL i x _ X C) as [F _].
    + apply nth_error_None in X. apply nth_lt in C. lia.
  - destruct BO as [(i & x & s & (X & CT & _) & (_ & BN & _))|(_ & ->)]; [right|now left].
    destruct (nth_error (pl_tasks p) i) as [c|] eqn:C; [|apply nth_error_None in C; apply nth_lt in X; lia].
    exists i, c. split; [exact C|]. destruct (ALL i x c X C) as [_ F]. split.
    + destruct (kind_of c); [|reflexivity]. rewrite F in CT by reflexivity. discriminate.
    + rewrite BN. now rewrite (NM i c x C X).
Qed.
Print Assumptions C57_form_factor_pipelines.

(** ** The two auxiliary models *)

Definition auxiliary (c : param_class) : Prop := c = PETGMR \/ c = PTwoPoles.
Definition auxiliary_task (c : task_class) : Prop := c = ETGMRTask \/ c = TwoPolesTask.

(** A point of the kaon data. *)
Definition kaon_measured (p : datapoint) : Prop := exists t b, p = KaonDatapoint (RtoC t) b.

Definition verdict (n : nat) (args : list R) : exn := if Nat.eqb (length args) n then IndexError else ValueError.

(** What the fit of a function that only raises comes to; [n]: the number of free parameters. *)
Definition exception (n : nat) (fit : Fit) : exn :=
  match fit with
  | FitCall args _ => verdict n args
  | FitReturn popt _ => verdict n popt
  | FitRaise RuntimeError => IndexError
  | FitRaise e => e
  end.

Lemma auxiliary_closure : forall t d rows args, auxiliary (r_class (tk_parameters t)) -> auxiliary_task (tk_class t) \/ tk_class t = ResidualTask ->
  rows <> [] -> Forall (fun p => nucleon_point p = None) rows ->
  closure_result (match tk_class t with TwoPolesTask => CrossSectionOf 0 0 0 (r_class (tk_parameters t), d) | _ => cross_section_closure t (r_class (tk_parameters t), d) end)
    rows args = Err (verdict (count_free d) args).
Proof.
  intros t d rows args A K NE P. destruct rows as [|p rows]; [congruence|]. inversion P as [|? ? P1 _]. subst. unfold verdict.
  assert (G : forall m a hc, closure_result (CrossSectionOf m a hc (r_class (tk_parameters t), d)) (p :: rows) args = Err (verdict (count_free d) args)).
  { intros m a hc. cbn [closure_result]. unfold with_free_values, verdict. cbn [fst snd]. destruct (Nat.eqb _ _); [|reflexivity]. cbn [bind fst snd].
    unfold buildable, cross_section_at. destruct A as [-> | ->]; cbn [family_of bind mapM]; now rewrite P1. }
  assert (G' : closure_result (MisplacedOf (r_class (tk_parameters t), d)) (p :: rows) args = Err (verdict (count_free d) args)).
  { cbn [closure_result]. unfold with_free_values, verdict. cbn [fst snd]. destruct (Nat.eqb _ _); [|reflexivity]. cbn [bind fst snd].
    unfold buildable. destruct A as [-> | ->]; cbn [family_of bind mapM]; now rewrite P1. }
  unfold verdict in G, G'. unfold cross_section_closure. destruct K as [[-> | ->] | ->]; try apply G; destruct (tk_numbers t); auto.
Qed.

Lemma kaon_rows_array : forall ts, Forall kaon_measured ts -> exists rows, mapM array_of ts = Ok rows /\ length rows = length ts /\ Forall (fun p => nucleon_point p = None) rows.
Proof.
  induction ts as [|p ts IH]; intros H; [exists []; now repeat split|]. inversion H as [|? ? (t & b & ->) H']. subst.
  destruct (IH H') as (rows & E & L & F). cbn [mapM array_of RtoC Im Re]. destruct (Req_EM_T 0 0) as [_|N]; [|now destruct N]. cbn [bind]. rewrite E.
  cbn [bind]. eexists. split; [reflexivity|]. cbn [length]. split; [now rewrite L|]. constructor; [reflexivity|exact F].
Qed.

Lemma auxiliary_bounds : forall c h d, auxiliary c -> reachable c d -> exists b, get_bounds c h d = Ok b.
Proof.
  intros c h d A RC. destruct (get_bounds_total c h d (reachable_inv _ _ RC)) as (b & E & _); [|eexists; exact E].
  intros _ n IN. exfalso. destruct A as [-> | ->]; exact IN.
Qed.

Lemma prepared_reachable : forall k c d, reachable c d -> reachable c (prepared k c d).
Proof. intros k c d RC. apply inv_reachable. apply prepared_inv. now apply reachable_inv. Qed.

Lemma count_free_values : forall d, count_free d = length (free_values d).
Proof. intros d. unfold free_values. now rewrite map_length. Qed.

(** The first task: one call of the optimiser, then the exception, or the task is reported as failed. *)
Lemma auxiliary_first : forall o t w d res t' w', nth_error (w_lists w) (r_data (tk_parameters t)) = Some d -> reachable (r_class (tk_parameters t)) d ->
  auxiliary (r_class (tk_parameters t)) -> auxiliary_task (tk_class t) ->
  tk_ts t <> [] -> tk_ts_fit t = tk_ts t -> Forall kaon_measured (tk_ts t) ->
  Task_run o (t, w) = (res, (t', w')) -> exists input,
    w_fits w' = w_fits w ++ [input] /\ fi_class input = r_class (tk_parameters t) /\
    fi_points input = tk_ts_fit t /\ fi_values input = tk_ys_fit t /\ fi_sigma input = tk_errors_fit t /\
    (forall e, res = Err e -> e = exception (length (fi_start input)) (o_fit o (length (w_fits w)) input)) /\
    (is_ok res -> o_fit o (length (w_fits w)) input = FitRaise RuntimeError).
Proof.
  intros o t w d res t' w' S RC A K NE TF KM H. pose proof (reachable_inv _ _ RC) as I.
  assert (K' : tk_class t <> ResidualTask) by (intros Q; rewrite Q in K; destruct K; discriminate).
  assert (CO : charged_only (tk_class t) = false) by (destruct K as [-> | ->]; reflexivity).
  assert (FT : form_factor_task (tk_class t) = false) by (destruct K as [-> | ->]; reflexivity).
  destruct (run_spec o t w d S I K') as (res1 & t1 & h' & evs & E & ST & FR & OUT). rewrite E in H. injection H as <- <- <-.
  set (d1 := prepared (tk_class t) (r_class (tk_parameters t)) d) in *.
  assert (CL : forall rows args, rows <> [] -> Forall (fun p => nucleon_point p = None) rows ->
    closure_result (fitted_closure t d1) rows args = Err (verdict (count_free d1) args)).
  { intros rows args N1 N2. unfold fitted_closure. rewrite FT. apply (auxiliary_closure t d1 rows args A (or_introl K) N1 N2). }
  destruct (auxiliary_bounds _ (tk_handpicked t) d1 A (prepared_reachable _ _ _ RC)) as (b & GB).
  assert (FI : exists input, fit_input t d1 = Ok input /\ fi_class input = r_class (tk_parameters t) /\
    fi_points input = tk_ts_fit t /\ fi_values input = tk_ys_fit t /\ fi_sigma input = tk_errors_fit t /\ length (fi_start input) = count_free d1).
  { unfold fit_input, fit_data. rewrite CO. cbn [bind]. rewrite GB. cbn [bind]. eexists. split; [reflexivity|]. repeat (split; [reflexivity|]).
    cbn [fi_start]. now rewrite count_free_values. }
  destruct FI as (input & FI & F1 & F2 & F3 & F4 & F5). exists input. unfold fits_made. rewrite FI. split; [reflexivity|].
  repeat (split; [assumption|]). rewrite F5. unfold fit_result in OUT. rewrite FI in OUT. cbn [bind] in OUT. rewrite F2, TF in OUT.
  destruct (kaon_rows_array _ KM) as (rows & RA & RL & RN). rewrite RA in OUT. cbn [bind] in OUT.
  assert (NR : rows <> []) by (destruct rows; [destruct (tk_ts t); [congruence|discriminate]|discriminate]).
  assert (NP : Forall (fun p => nucleon_point p = None) (tk_ts t)).
  { rewrite Forall_forall in *. intros p IN. destruct (KM p IN) as (u & v & ->). reflexivity. }
  destruct (o_fit o (length (w_fits w)) input) as [args k|popt cov|e]; cbn [optimise exception] in *.
  - rewrite (CL rows args NR RN) in OUT. cbn [bind] in OUT. unfold run_outcome, verdict in *.
    destruct (Nat.eqb _ _); destruct OUT as (-> & _); (split; [congruence|intros [? ?]; discriminate]).
  - unfold run_outcome in OUT. rewrite (CL (tk_ts t) popt NE NP) in OUT. unfold verdict in *. destruct (Nat.eq_dec _ _) as [Q|Q].
    + rewrite Q, Nat.eqb_refl in *. destruct OUT as (_ & -> & _). split; [congruence|intros [? ?]; discriminate].
    + apply Nat.eqb_neq in Q. rewrite Q. destruct OUT as (-> & _). split; [congruence|intros [? ?]; discriminate].
  - unfold run_outcome in OUT. destruct e; destruct OUT as (-> & _); (split; [intros e' [= <-]; reflexivity || intros ? ?; discriminate|intros [? ?]; discriminate || reflexivity]).
Qed.

(** A pipeline that fits an auxiliary model and then the oscillations of the residuals: one call of the optimiser, and the
    run ends in an exception whatever the optimiser does. *)
Theorem C57_auxiliary_pipelines : forall o p w d k res p' w', started p w d -> passes_masses (pl_kind p) = false ->
  auxiliary (r_class (pl_parameters p)) -> auxiliary_task k -> pl_tasks p = [k; ResidualTask] ->
  pl_ts p <> [] -> Forall kaon_measured (pl_ts p) ->
  Pipeline_run o (p, w) = (res, (p', w')) -> exists input,
    w_fits w' = w_fits w ++ [input] /\ fi_class input = r_class (pl_parameters p) /\
    fi_points input = pl_ts p /\ fi_values input = pl_ys p /\ fi_sigma input = pl_errors p /\
    res = Err (exception (length (fi_start input)) (o_fit o (length (w_fits w)) input)).
Proof.
  intros o p w d k res p' w' ST KD A AK TS NE KM H.
  assert (FIRST : forall t w1 dt r1 t1 w2, starts_as p t -> tk_class t = k -> nth_error (w_lists w1) (r_data (tk_parameters t)) = Some dt ->
    reachable (r_class (tk_parameters t)) dt -> r_class (tk_parameters t) = r_class (pl_parameters p) ->
    Task_run o (t, w1) = (r1, (t1, w2)) -> exists input,
    w_fits w2 = w_fits w1 ++ [input] /\ fi_class input = r_class (pl_parameters p) /\
    fi_points input = pl_ts p /\ fi_values input = pl_ys p /\ fi_sigma input = pl_errors p /\
    (forall e, r1 = Err e -> e = exception (length (fi_start input)) (o_fit o (length (w_fits w1)) input)) /\
    (is_ok r1 -> o_fit o (length (w_fits w1)) input = FitRaise RuntimeError)).
  { intros t w1 dt r1 t1 w2 [(D1 & D2 & D3) (G1 & G2 & G3) _ _ _ _] TC S RC CL TR. rewrite <- CL, <- G1, <- G2, <- G3.
    apply (auxiliary_first o t w1 dt r1 t1 w2 S RC); try congruence; rewrite ?CL, ?TC, ?D1; assumption. }
  destruct res as [b|e].
  { exfalso. destruct (C57_form_factor_pipelines _ _ _ _ _ _ _ ST KD NE H) as [F _]. apply F. rewrite TS. right. now left. }
  destruct (C36_plain_exceptions _ _ _ _ _ _ _ ST H) as [(t & w1 & t' & l & xs & dt & TR & WF & LX & EN & C & SA & S & RC & HA)|(_ & c & _ & FK)].
  2: { unfold fits_kind in FK. rewrite KD in FK. discriminate. }
  rewrite TS in C, EN. destruct l as [|fi [|fj l]].
  - cbn [length nth_error] in C. injection C as C. rewrite app_nil_r in WF. cbn [length handed] in HA. destruct HA as (CL & _).
    destruct (FIRST t w1 dt _ _ _ SA (eq_sym C) S RC CL TR) as (input & F1 & F2 & F3 & F4 & F5 & F6 & _). exists input.
    rewrite WF in F1, F6. repeat (split; [assumption|]). now rewrite (F6 e eq_refl).
  - cbn [length nth_error] in C. injection C as C. destruct xs as [|x [|y xs]]; try discriminate.
    destruct (EN 0%nat x eq_refl) as (t0 & w0 & r0 & fi' & TR0 & _ & L0 & _ & W0 & W0' & _ & C0 & SA0 & dt0 & S0 & RC0 & (CL0 & _)).
    cbn [nth_error] in C0, L0. injection C0 as C0. injection L0 as <-. cbn [firstn] in W0, W0'. rewrite app_nil_r in W0.
    destruct (FIRST t0 w0 dt0 _ _ _ SA0 (eq_sym C0) S0 RC0 CL0 TR0) as (input & F1 & F2 & F3 & F4 & F5 & _ & F6). exists input.
    rewrite W0 in F1, F6. rewrite W0' in F1. apply app_inv_head in F1. injection F1 as ->.
    assert (R0 : ready t0 w0 dt0). { split; [exact S0|]. split; [exact RC0|]. rewrite <- C0. destruct AK as [-> | ->]; discriminate. }
    destruct (C34_frame _ _ _ _ _ _ _ R0 TR0) as ((_ & _ & SP & _) & _).
    cbn [length handed] in HA. destruct HA as (x' & dx & X & _ & CL & _). cbn [nth_error] in X. injection X as <-. rewrite SP, CL0 in CL.
    assert (RE : residuals t dt = Err IndexError).
    { unfold residuals, background. pose proof (auxiliary_closure t (everything_fixed dt) (tk_ts t) []) as Q. rewrite <- C in Q. rewrite Q.
      - unfold verdict. replace (count_free (everything_fixed dt)) with 0%nat; [reflexivity|]. clear. unfold everything_fixed, count_free.
        induction dt as [|q dt IH]; [reflexivity|]. cbn. exact IH.
      - now rewrite CL.
      - now right.
      - destruct SA as [(D1 & _) _ _ _ _ _]. congruence.
      - destruct SA as [(D1 & _) _ _ _ _ _]. rewrite D1. rewrite Forall_forall in *. intros q IN. destruct (KM q IN) as (u & v & ->). reflexivity. }
    pose proof (run_residual o t w1 dt S (reachable_inv _ _ RC) (eq_sym C)) as RR. rewrite RE in RR. destruct RR as (h & E & _). rewrite TR in E.
    injection E as -> _ ->. cbn [w_fits set_lists]. split; [exact WF|]. repeat (split; [assumption|]). rewrite F6 by now eexists. reflexivity.
  - cbn [length nth_error] in C. destruct (length l); discriminate.
Qed.
Print Assumptions C57_auxiliary_pipelines.

(** ** The script *)

Definition known_model (model : string) : Prop := lower model = "etgmr" \/ lower model = "twopoles".

(** What one run of the script does between [w] and [w'], [m] being the measurements: it stops before the first fit, with
    nothing written, or after it, having made a directory and shown messages of the pipeline. *)
Definition comes_to_nothing (o : Oracle) (m : list Measurement) (model name : string) (e : exn) (w w' : World) : Prop :=
  let full := (model ++ "_" ++ name)%string in
  let dir := ("/home/lukas/reports/ff/" ++ full)%string in
  (w_fits w' = w_fits w /\ w_events w' = w_events w /\
   ((m = [] /\ e = ValueError) \/
    (m <> [] /\ (o_exists o dir = true \/ In (EvMkdir dir) (w_events w)) /\ e = ValueError) \/
    (m <> [] /\ o_mkdir o dir = false /\ e = OtherError))) \/
  (exists sorted input evs messages, m <> [] /\ o_exists o dir = false /\ ~ In (EvMkdir dir) (w_events w) /\
     in_time_order (kaon_rows m []) sorted /\ fits_on sorted input /\ fi_class input = (if String.eqb (lower model) "etgmr" then PETGMR else PTwoPoles) /\
     w_fits w' = w_fits w ++ [input] /\ e = exception (length (fi_start input)) (o_fit o (length (w_fits w)) input) /\
     w_events w' = w_events w ++ EvMkdir dir :: evs /\ Forall (confined dir) evs /\ printed evs = map (console_line full) messages).

Lemma kaon_rows_measured : forall m, Forall (fun x => kaon_measured (fst (fst x))) (kaon_rows m []).
Proof.
  intros m. unfold kaon_rows. rewrite app_nil_r. apply Forall_forall. intros x IN. apply in_map_iff in IN as (y & <- & _). cbn. now repeat eexists.
Qed.

(** Every run of the script, whatever is measured, drawn, optimised or already on the disk, ends in an exception. *)
Theorem C57_every_run : forall o draws m model name w res w', known_model model ->
  other_run o draws (map me_t m) (map me_value m) (map me_error m) model name w = (res, w') ->
  exists e, res = Err e /\ comes_to_nothing o m model name e w w'.
Proof.
  intros o draws m model name w res w' KM H. unfold other_run in H.
  assert (X : exists c d0 k, auxiliary c /\ auxiliary_task k /\ reachable c d0 /\ c = (if String.eqb (lower model) "etgmr" then PETGMR else PTwoPoles) /\
    make_initial_parameters model w = (Ok (mkRef c (length (w_lists w))), set_lists (w_lists w ++ [d0]) w) /\ task_list model = Ok [k; ResidualTask]).
  { unfold make_initial_parameters, task_list. destruct KM as [-> | ->]; cbn [String.eqb Ascii.eqb Bool.eqb andb bind].
    - assert (C : exists d0, construct PETGMR [("a", 1); ("m_a", 1); ("m_d", sqrt (71/100))] = Ok d0) by (eexists; reflexivity). destruct C as (d0 & C).
      exists PETGMR, d0, ETGMRTask. split; [now left|]. split; [now left|]. split; [now apply (reach_init _ _ _ C)|]. split; [reflexivity|].
      split; [now apply obj_new_ok|reflexivity].
    - assert (C : exists d0, construct PTwoPoles [("a", 1); ("m_1", 5/10); ("m_2", 2)] = Ok d0) by (eexists; reflexivity). destruct C as (d0 & C).
      exists PTwoPoles, d0, TwoPolesTask. split; [now right|]. split; [now right|]. split; [now apply (reach_init _ _ _ C)|]. split; [reflexivity|].
      split; [now apply obj_new_ok|reflexivity]. }
  destruct X as (c & d0 & k & A & AK & RC0 & EC & MK & TL). unfold mbind at 1 in H. rewrite MK in H. set (r := mkRef c (length (w_lists w))) in H.
  set (w2 := set_lists (w_lists w ++ [d0]) w) in H. unfold mbind at 1 in H.
  assert (N : nth_error (w_lists w2) (r_data r) = Some d0) by (cbn; apply nth_alloc).
  unfold obj_perturb, mbind at 1 in H. rewrite (read_ok _ _ _ N) in H. cbn [r_class r] in H.
  destruct (auxiliary_bounds c false d0 A RC0) as ((lo, up) & GB).
  destruct (C09_perturb_effect c false d0 lo up draws (w_draws w2) 1 (Some (1/10)) RC0 GB) as (d & PM & _ & _ & _ & _ & RC & _).
  rewrite PM in H. set (k2 := (w_draws w2 + _)%nat) in H.
  unfold mbind at 1, write in H. unfold mbind at 1, ret in H. unfold mbind at 1, lift at 1 in H. rewrite TL in H.
  cbn [set_draws set_lists w2 w_lists w_draws w_samples w_fits w_events r_data r] in H. rewrite replace_end in H.
  set (w3 := mkWorld (w_lists w ++ [d]) k2 (w_samples w) (w_fits w) (w_events w)). change (set_draws k2 (set_lists (w_lists w ++ [d]) w2)) with w3 in H.
  unfold mbind at 1 in H. set (full := (model ++ "_" ++ name)%string) in *.
  assert (DIR : path_join "/home/lukas/reports/ff" full = ("/home/lukas/reports/ff/" ++ full)%string).
  { unfold path_join. replace (prefix "/" full) with false; [reflexivity|]. subst full. clear - KM. destruct model as [|a s]; [destruct KM; discriminate|].
    change (false = if ascii_dec "/" a then prefix "" (s ++ "_" ++ name)%string else false).
    destruct (ascii_dec "/" a) as [<-|]; [destruct KM; discriminate|reflexivity]. }
  destruct (KaonPipeline_init o KaonFF full r [k; ResidualTask] (map me_t m) (map me_value m) (map me_error m) [] [] [] 0 0 0 "/home/lukas/reports/ff" true false w3)
    as [[p|e] w4] eqn:B; unfold KaonPipeline_init in B.
  2: { injection H as <- <-. exists e. split; [reflexivity|]. left. pose proof B as B0. apply C38_constructor in B as [(_ & ->)|(F & _)]; [|now destruct F].
       split; [reflexivity|]. split; [reflexivity|]. unfold Pipeline_init, mbind, lift in B0.
       pose proof (C37_kaon_data m []) as PD. cbn [map] in PD. destruct PD as [(R0 & E0)|(R0 & ts & ys & es & E0 & _)].
       - left. rewrite E0 in B0. split; [|congruence]. rewrite app_nil_r in R0. now destruct m.
       - right. assert (NM : m <> []) by (intros ->; now apply R0). rewrite E0, DIR in B0. unfold set_up_reports_directory in B0.
         destruct (_ || _)%bool eqn:Q; [left|right; destruct (o_mkdir _ _) eqn:MKD; [discriminate|split; [exact NM|]; split; [reflexivity|congruence]]].
         split; [exact NM|]. split; [|congruence]. apply orb_true_iff in Q as [Q|Q]; [now left|right].
         apply existsb_exists in Q as (ev & IN & Q). unfold made in Q. destruct ev; try discriminate. apply String.eqb_eq in Q. now subst. }
  assert (S3 : nth_error (w_lists w3) (r_data r) = Some d) by (cbn; apply nth_alloc).
  assert (SR : exists ts ys es, prepare_data_kaon (map me_t m) (map me_value m) (map me_error m) [] [] [] = sort_rows ts ys es) by (unfold prepare_data_kaon; now repeat eexists).
  destruct (built_started _ _ _ _ _ _ _ _ _ _ _ _ _ _ _ _ _ _ SR S3 RC B) as (ST & K & NM & PP & PT & _ & _ & XX & FI & LL).
  pose proof (C38_constructor _ _ _ _ _ _ _ _ _ _ _ _ _ _ _ _ _ B) as [(F & _)|(_ & EX & NI & W4)]; [exfalso; apply F; now eexists|].
  destruct (Pipeline_run o (p, w4)) as [res1 [p' w5]] eqn:R. injection H as <- <-.
  pose proof (C37_kaon_data m []) as PD. cbn [map] in PD. rewrite XX in PD. destruct PD as [(_ & E0)|(R0 & ts & ys & es & E0 & L1 & L2 & SS)]; [discriminate|].
  injection E0 as <- <- <-. fold (kaon_rows m []) in R0, SS.
  destruct (zip3_parts _ _ _ L1 L2) as (Z1 & Z2 & Z3).
  assert (PTS : Forall kaon_measured (pl_ts p)).
  { rewrite <- Z1. apply Forall_forall. intros q IN. apply in_map_iff in IN as (x & <- & IN). pose proof (kaon_rows_measured m) as KR. rewrite Forall_forall in KR.
    apply KR. destruct SS as (PE & _). apply (Permutation_in _ (Permutation_sym PE)). exact IN. }
  assert (NE : pl_ts p <> []).
  { intros Q. destruct SS as (PE & _). rewrite Q in PE. cbn [zip3] in PE. apply Permutation_sym, Permutation_nil in PE. now apply R0. }
  destruct (C57_auxiliary_pipelines o p w4 d k res1 p' w5 ST) as (input & F1 & F2 & F3 & F4 & F5 & F6); try assumption; try (now rewrite K); try (now rewrite PP).
  exists (exception (length (fi_start input)) (o_fit o (length (w_fits w)) input)). rewrite FI in F1, F6. cbn [w_fits w3] in F1, F6. split; [exact F6|]. right.
  destruct (C38_own_directory _ _ _ _ _ _ _ _ _ _ _ _ _ _ _ _ _ _ _ _ B (or_introl R)) as (evs & EV & OWN).
  destruct (C38_plain_pipelines _ _ _ _ _ _ _ _ _ _ _ _ _ _ _ _ _ _ _ _ B R) as (evs' & EV' & (AC & _) & _).
  rewrite EV in EV'. apply app_inv_head in EV'. subst evs'. cbn [w_events w3] in EV, NI. rewrite DIR in *.
  destruct (AC (length (EvMkdir ("/home/lukas/reports/ff/" ++ full) :: evs))) as (gs & pd & PR & _). rewrite firstn_all in PR.
  exists (zip3 (pl_ts p) (pl_ys p) (pl_errors p)), input, evs, (concat gs ++ pd). 
  split; [intros ->; now apply R0|]. split; [exact EX|]. split; [exact NI|]. split; [exact SS|].
  split; [unfold fits_on; split; [now rewrite F3|split; [now rewrite F4|now rewrite F5]]|]. split; [rewrite F2, PP; exact EC|]. split; [exact F1|]. split; [reflexivity|]. split; [exact EV|]. split; [exact OWN|].
  exact PR.
Qed.
Print Assumptions C57_every_run.

(** The script as it stands runs once, with the model ETGMR, and never gets to a print of its own. *)
Theorem C57_script : forall o draws m w res w',
  other_script o draws (map me_t m) (map me_value m) (map me_error m) w = (res, w') ->
  exists e, res = Err e /\ comes_to_nothing o m "etgmr" "_1_0" e w w'.
Proof.
  intros o draws m w res w' H. unfold other_script, best_of_runs, mbind at 1 in H.
  change (run_names "_1_" 1) with ["_1_0"] in H. cbn [try_all] in H. unfold mbind at 1 in H.
  destruct (other_run o draws (map me_t m) (map me_value m) (map me_error m) "etgmr" "_1_0" w) as [res1 w1] eqn:R.
  assert (KM : known_model "etgmr") by (left; reflexivity).
  destruct (C57_every_run _ _ _ _ _ _ _ _ KM R) as (e & -> & CN). injection H as <- <-. now exists e.
Qed.
Print Assumptions C57_script.

(** Another name of a model: [raise 'Unknown model'] raises TypeError, before anything is constructed. *)
Theorem C57_unknown_model : forall o draws ts ys es model name w, ~ known_model model ->
  other_run o draws ts ys es model name w = (Err TypeError, w).
Proof.
  intros o draws ts ys es model name w N. unfold other_run, make_initial_parameters, mbind at 1.
  destruct (String.eqb_spec (lower model) "etgmr") as [Q|_]; [exfalso; apply N; now left|].
  destruct (String.eqb_spec (lower model) "twopoles") as [Q|_]; [exfalso; apply N; now right|]. reflexivity.
Qed.
Print Assumptions C57_unknown_model.

(** ** A concrete case *)

(** Even an optimiser that gives back the start, or that gives up at once, does not help: IndexError, after one fit. *)
Example C57_instance : forall draws (fit : FitInput -> Fit), fit = (fun x => FitReturn (fi_start x) []) \/ fit = (fun _ => FitRaise RuntimeError) ->
  exists input w', other_script (demo_oracle (fun _ => fit) DivRaises) draws [3; 1] [5; 7] [1/2; 1/4] demo_world = (Err IndexError, w') /\
    w_fits w' = [input] /\ fi_class input = PETGMR /\ length (fi_values input) = 2%nat /\ In 5 (fi_values input) /\ In (KaonDatapoint (RtoC 1) true) (fi_points input).
Proof.
  intros draws fit FIT. destruct (other_script _ draws [3; 1] [5; 7] [1/2; 1/4] demo_world) as [res w'] eqn:H.
  destruct (C57_script _ draws [mkMeasurement 3 5 (1/2); mkMeasurement 1 7 (1/4)] demo_world res w' H) as (e & -> & CN).
  destruct CN as [(_ & _ & [(F & _)|[(_ & F & _)|(_ & F & _)]])|(sorted & input & evs & ms & _ & _ & _ & (PE & _) & (P1 & P2 & _) & CL & FS & E & _)].
  - discriminate.
  - cbn in F. destruct F as [F|[]]. discriminate.
  - discriminate.
  - exists input, w'. cbn [w_fits demo_world app length o_fit demo_oracle] in *. split.
    { rewrite E. destruct FIT as [-> | ->]; cbn [exception]; [|reflexivity]. unfold verdict. now rewrite Nat.eqb_refl. }
    split; [exact FS|]. split; [exact CL|]. rewrite P1, P2, map_length. split; [now rewrite <- (Permutation_length PE)|].
    split; [apply (Permutation_in _ (Permutation_map _ PE)); now left|]. apply (Permutation_in _ (Permutation_map _ PE)). cbn. now right; left.
Qed.
