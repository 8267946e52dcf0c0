(** C36, C39: complete runs of pipelines. *)
From Coq Require Import String Ascii Reals ZArith List Bool Arith Lia Lra.
From Verif Require Import PyBase CNum PyExpr Params ParamClasses ParamSpec ParamProofs PropsParams CrossSections CommonUtils
  UtilsSpec UtilsProofs World WorldSpec WorldProofs DataSets BoundsProofs
  OtherModels PropsOther Scripts Task TaskSpec TaskProofs PropsTask Pipeline PipelineSpec PipelineReports PipelineFreeze PropsReports PipelineProofs PropsPipeline.
Import ListNotations.
Local Open Scope string_scope.
Local Open Scope list_scope.
Local Open Scope R_scope.

#[local] Arguments String.append : simpl never.

(** ** The text of chi-squared decides *)

(** Four points where the model with poles at one and two has the value [2 a]; measured: zero.  The first optimum is worse than the second. *)
Definition wrong_points : list datapoint := [demo_point; demo_point; demo_point; demo_point].

Definition two_optima (n : nat) (x : FitInput) : Fit :=
  FitReturn [match n with O => 1 | _ => 1/2 end; 1; 2] [[Fin 1]].

Definition text_of_number (v : R) : string :=
  if Req_EM_T v 16 then decimal [1; 6]%nat [0%nat] else if Req_EM_T v 4 then decimal [4%nat] [0%nat] else "0.0".

Definition two_optima_oracle : Oracle := {|
  o_fit := two_optima; o_message := fun _ => ""; o_sample := fun _ => []; o_exists := fun _ => false;
  o_mkdir := fun _ => true; o_render := fun _ => None; o_str := text_of_number; o_division := fun _ => DivRaises;
  o_show_list := fun _ => ""; o_show_names := fun _ => ""; o_show_report := fun _ _ _ => ""; o_show_best := fun _ _ => "" |}%string.

Definition two_fits : Pipeline :=
  mkPipeline NucleonFF "demo" (mkRef PTwoPoles 0%nat) [NFF_FullFit; NFF_FullFit] wrong_points [0; 0; 0; 0] [1; 1; 1; 1] "out/demo" false true 0 0 0 "" no_fit [] 0.

Lemma poles_shape : forall d, inv PTwoPoles d -> exists a fa m fm n fn, d = [mkPar "a" a fa; mkPar "m_1" m fm; mkPar "m_2" n fn].
Proof.
  intros d [N _]. destruct d as [|[n1 v1 f1] [|[n2 v2 f2] [|[n3 v3 f3] [|x r]]]]; try discriminate. injection N as -> -> ->. now repeat eexists.
Qed.

Definition free_poles (a : R) : data := [mkPar "a" a false; mkPar "m_1" 1 false; mkPar "m_2" 2 false].

Lemma free_poles_closure : forall a v fa m fm n fn p points, 0 < a ->
  Forall (fun q => nucleon_point q = Some (RtoC 2, true, true)) (p :: points) ->
  closure_result (FormFactorOf (PTwoPoles, prepared NFF_FullFit PTwoPoles [mkPar "a" v fa; mkPar "m_1" m fm; mkPar "m_2" n fn])) (p :: points) [a; 1; 2]
  = Ok (map (fun _ => 2 * a) (p :: points)).
Proof.
  intros a v fa m fm n fn p points Ha F.
  match goal with |- ?G = _ => change G with (mapM (form_factor_at PTwoPoles (free_poles a)) (p :: points)) end.
  assert (V : Cabs (RtoC (- (2 * a))) = 2 * a).
  { rewrite Cabs_RtoC. rewrite Rabs_left; lra. }
  induction F as [|q l Q F IH]; [reflexivity|]. cbn [mapM map].
  assert (FF : form_factor_at PTwoPoles (free_poles a) q = Ok (2 * a)).
  { unfold form_factor_at. cbn [family_of]. rewrite Q.
    change (bind (TwoPolesModel_call (TwoPolesModel_init a 1 2) (RtoC 2)) (fun v => Ok (Cabs v)) = Ok (2 * a)).
    rewrite demo_value by lra. cbn [bind]. now rewrite V. }
  rewrite FF. cbn [bind]. now rewrite IH.
Qed.

(** One of the tasks, after any number of fits. *)
Lemma two_fits_task : forall t w d, starts_as two_fits t -> tk_class t = NFF_FullFit -> r_class (tk_parameters t) = PTwoPoles ->
  nth_error (w_lists w) (r_data (tk_parameters t)) = Some d -> reachable PTwoPoles d ->
  let a := match length (w_fits w) with O => 1 | _ => 1/2 end in
  exists t' w', Task_run two_optima_oracle (t, w) = (Ok (tk_parameters t), (t', w')) /\ tk_parameters t' = tk_parameters t /\
    rp_chi_squared (tk_report t') = Some (text_of_number (16 * a ^ 2)).
Proof.
  intros t w d ST TC PC S RC a. pose proof ST as [(D1 & D2 & D3) (G1 & G2 & G3) _ SS _ _].
  destruct SS as (SD & _ & HP). { right. now rewrite TC. } cbn in D1, D2, D3, G1, G2, G3, SD, HP.
  destruct (poles_shape d (reachable_inv _ _ RC)) as (v & fa & m & fm & n & fn & ->).
  set (d := [mkPar "a" v fa; mkPar "m_1" m fm; mkPar "m_2" n fn]) in *.
  assert (RD : ready t w d). { split; [exact S|]. rewrite PC, TC. split; [exact RC|discriminate]. }
  assert (A : 0 < a) by (unfold a; destruct (length (w_fits w)); lra).
  assert (PR : prepared (tk_class t) (r_class (tk_parameters t)) d = prepared NFF_FullFit PTwoPoles d) by now rewrite TC, PC.
  assert (FE : fit_result two_optima_oracle (length (w_fits w)) t (prepared (tk_class t) (r_class (tk_parameters t)) d) = Ok ([a; 1; 2], [[Fin 1]])).
  { rewrite PR. unfold fit_result, fit_input, fit_data. rewrite TC, PC, HP. cbn [charged_only bind].
    destruct (get_bounds_total PTwoPoles true (prepared NFF_FullFit PTwoPoles d)) as (b & -> & _).
    - apply prepared_inv. now apply reachable_inv.
    - discriminate.
    - reflexivity. }
  assert (EN : length [a; 1; 2] = length (free_values (prepared (tk_class t) (r_class (tk_parameters t)) d))) by (rewrite PR; reflexivity).
  assert (CL : closure_result (fitted_closure t (prepared (tk_class t) (r_class (tk_parameters t)) d)) (tk_ts t) [a; 1; 2] = Ok (map (fun _ => 2 * a) wrong_points)).
  { rewrite PR, D1. unfold fitted_closure. rewrite TC, PC. apply free_poles_closure; [exact A|]. repeat constructor. }
  assert (DK : length (tk_ys t) = length (tk_ts t) /\ length (tk_errors t) = length (tk_ts t)) by (rewrite D1, D2, D3; now split).
  assert (NZ : Forall (fun e => e <> 0) (tk_errors t)) by (rewrite D3; repeat constructor; lra).
  assert (NL : length (tk_ys t) <> length [a; 1; 2]) by (rewrite D2; discriminate).
  destruct (C34_success two_optima_oracle t w d [a; 1; 2] [[Fin 1]] _ RD FE EN CL DK NZ NL) as (res & t' & w' & d' & E & _ & _ & FI & _ & _).
  destruct (C34_plot two_optima_oracle t w d [a; 1; 2] [[Fin 1]] _ RD FE EN CL DK NZ NL) as (res2 & t2 & w2 & E2 & _ & PL).
  rewrite E in E2. injection E2 as <- <- <-. rewrite SD in PL.
  assert (DR : drawable t). { unfold drawable. rewrite TC, D1. cbn [style_of]. split; [repeat constructor|discriminate]. }
  apply proj1 in PL. specialize (PL DR). cbn [o_render two_optima_oracle] in PL. destruct PL as [-> _].
  exists t', w'. split; [exact E|]. split; [destruct (C34_frame _ _ _ _ _ _ _ RD E) as (SM & _); apply SM|]. destruct FI as (_ & CH & _). rewrite CH. rewrite D2, D3. cbn [o_str two_optima_oracle]. do 2 f_equal.
  unfold reduced_chi_squared. simpl. field.
Qed.

Lemma two_fits_started : started two_fits demo_world demo_poles.
Proof. split; [split; [reflexivity|exact demo_poles_reachable]|]. now repeat split. Qed.

Lemma texts : text_of_number (16 * 1 ^ 2) = "16.0" /\ text_of_number (16 * (1/2) ^ 2) = "4.0".
Proof.
  unfold text_of_number. replace (16 * 1 ^ 2) with 16 by ring. replace (16 * (1 / 2) ^ 2) with 4 by field.
  destruct (Req_EM_T 16 16); [|congruence]. destruct (Req_EM_T 4 16); [lra|]. destruct (Req_EM_T 4 4); [|congruence]. split; reflexivity.
Qed.

(** What the tasks of a run leave behind. *)
Lemma two_fits_ended : forall before l xs, ended two_optima_oracle two_fits demo_poles (pl_tasks two_fits) before l xs -> before = [] ->
  (length xs <= length l)%nat -> forall i x, nth_error xs i = Some x ->
  r_class (tk_parameters (en_task x)) = PTwoPoles /\ rp_chi_squared (tk_report (en_task x)) = Some (match i with O => "16.0" | _ => "4.0" end).
Proof.
  intros before l xs EN -> LL. induction i as [|i IH]; intros x N.
  - destruct (EN _ _ N) as (t & w & r & fi & E & _ & _ & _ & F & _ & _ & C & ST & dt & S & RC & HA & _). cbn [firstn app] in F.
    cbn in HA, C. injection C as C. rewrite HA in RC. destruct (two_fits_task t w dt ST (eq_sym C) HA S RC) as (t' & w' & E' & PA & CH).
    rewrite E in E'. injection E' as _ <- _. rewrite CH, F. cbn [length]. rewrite (proj1 texts). split; [|reflexivity].
    congruence.
  - destruct (EN _ _ N) as (t & w & r & fi & E & _ & NF & _ & F & _ & _ & C & ST & dt & S & RC & x0 & d0 & N0 & _ & HA & _).
    destruct (IH x0 N0) as [P0 _]. rewrite P0 in HA.
    assert (C' : tk_class t = NFF_FullFit). { cbn in C. destruct i as [|[|i]]; cbn in C; congruence. }
    rewrite HA in RC. destruct (two_fits_task t w dt ST C' HA S RC) as (t' & w' & E' & PA & CH).
    rewrite E in E'. injection E' as _ <- _. rewrite CH, F. cbn [app].
    assert (L : length (firstn (Datatypes.S i) l) = Datatypes.S i). { apply firstn_length_le. apply nth_lt in NF. lia. }
    rewrite L, (proj2 texts). split; [|reflexivity]. congruence.
Qed.

(** The run that takes sixteen to be better than four. *)
Lemma two_fits_run : exists b p' w' l xs, Pipeline_run two_optima_oracle (two_fits, demo_world) = (Ok b, (p', w')) /\
  ended two_optima_oracle two_fits demo_poles (pl_tasks two_fits) [] l xs /\ length xs = 2%nat /\
  bf_chi_squared b = Some "16.0" /\ bf_name b = Some "demo:Task#0:TaskFullFit".
Proof.
  destruct (Pipeline_run two_optima_oracle (two_fits, demo_world)) as [[b|e] [p' w']] eqn:E.
  - destruct (C36_plain_pipelines _ _ _ _ _ _ _ two_fits_started E) as (l & xs & _ & L1 & L2 & EN & NA & B).
    exists b, p', w', l, xs. split; [reflexivity|]. split; [exact EN|]. split; [exact L2|]. clear E.
    pose proof (two_fits_ended _ l xs EN eq_refl ltac:(rewrite L1, L2; lia)) as T.
    change (length xs = 2%nat) in L2. destruct xs as [|x0 [|x1 [|x2 r]]]; try discriminate L2.
    pose proof (T 0%nat x0 eq_refl) as (_ & C0). pose proof (T 1%nat x1 eq_refl) as (_ & C1).
    destruct B as [(i & x & s & (N & CH & LE) & DE)|[F _]].
    2: { apply Forall_inv in F. unfold chi_text in F. now rewrite C0 in F. }
    assert (X : i = 0%nat /\ x = x0 /\ s = "16.0").
    { destruct i as [|[|[|i]]]; cbn in N; try discriminate.
      - injection N as <-. unfold chi_text in CH. rewrite C0 in CH. injection CH as <-. auto.
      - injection N as <-. unfold chi_text in CH. rewrite C1 in CH. injection CH as <-.
        destruct (LE 0%nat x0 "16.0" eq_refl) as [_ Q]; [unfold chi_text; now rewrite C0|]. specialize (Q ltac:(lia)).
        apply before_cons_inv in Q as [Q|[Q _]]; [cbn in Q; lia|discriminate]. }
    destruct X as (-> & -> & ->). destruct DE as (D1 & D2 & _). split; [exact D1|]. rewrite D2.
    rewrite (NA 0%nat NFF_FullFit x0 eq_refl eq_refl). reflexivity.
  - exfalso. destruct (C36_plain_exceptions _ _ _ _ _ _ _ two_fits_started E) as [R|(_ & c & IN & F)].
    2: { cbn in IN. destruct IN as [<-|[<-|[]]]; discriminate. }
    destruct R as (t & w & t' & l & xs & dt & TR & WF & LX & EN & C & ST & S & RC & HA).
    pose proof (two_fits_ended _ l xs EN eq_refl ltac:(lia)) as T.
    assert (PC : r_class (tk_parameters t) = PTwoPoles).
    { destruct (length l) as [|j]; [apply HA|]. destruct HA as (x & dx & N & _ & -> & _). now apply (T j). }
    assert (TC : tk_class t = NFF_FullFit). { cbn in C. destruct (length l) as [|[|[|]]]; cbn in C; congruence. }
    rewrite PC in RC. destruct (two_fits_task t w dt ST TC PC S RC) as (t2 & w2 & E2 & _). congruence.
Qed.

(** Here the hypotheses of [C36_plain_pipelines] hold; those of [C36_iterative_pipelines] hold in [C39_instance]. *)
Example C36_instance : exists b p' w', Pipeline_run two_optima_oracle (two_fits, demo_world) = (Ok b, (p', w')) /\
  bf_chi_squared b = Some "16.0" /\ bf_name b = Some "demo:Task#0:TaskFullFit".
Proof. destruct two_fits_run as (b & p' & w' & l & xs & E & _ & _ & B). exists b, p', w'. split; [exact E|exact B]. Qed.

(** The best fit need not have the least chi-squared. *)
Theorem C36_least_number_refuted : exists o p w d b p' w' l xs i x s v k j y s' v' m,
  started p w d /\ Pipeline_run o (p, w) = (Ok b, (p', w')) /\ ended o p d (pl_tasks p) (w_fits w) l xs /\
  nth_error xs i = Some x /\ chi_text x = Some s /\ numeral k s v /\
  nth_error xs j = Some y /\ chi_text y = Some s' /\ numeral m s' v' /\
  v' < v /\ bf_chi_squared b = Some s.
Proof.
  destruct two_fits_run as (b & p' & w' & l & xs & E & EN & L & B & _).
  destruct xs as [|x [|y [|z r]]]; try discriminate L.
  assert (LL : (length [x; y] <= length l)%nat). { destruct (EN 1%nat y eq_refl) as (t & w & r & fi & _ & _ & N & _). apply nth_lt in N. cbn. lia. }
  pose proof (two_fits_ended _ l _ EN eq_refl LL) as T. destruct (T 0%nat x eq_refl) as [_ C0]. destruct (T 1%nat y eq_refl) as [_ C1].
  exists two_optima_oracle, two_fits, demo_world, demo_poles, b, p', w', l, [x; y], 0%nat, x, "16.0", 16, 2%nat, 1%nat, y, "4.0", 4, 1%nat.
  split; [exact two_fits_started|]. split; [exact E|]. split; [exact EN|]. split; [reflexivity|].
  split; [unfold chi_text; now rewrite C0|]. split.
  { exists [1; 6]%nat, [0%nat]. repeat split; try (repeat constructor; lia). unfold decimal_value. simpl. field. }
  split; [reflexivity|]. split; [unfold chi_text; now rewrite C1|]. split; [|split; [lra|exact B]].
  exists [4]%nat, [0%nat]. repeat split; try (repeat constructor; lia). unfold decimal_value. simpl. field.
Qed.

(** ** From the constructor on *)

(** The points the constructors prepare. *)
Definition from_measurements (x : Res Prepared) : Prop :=
  (exists a b c d e f, x = prepare_data_kaon a b c d e f) \/
  (exists a b c d e f g h i j k l, x = prepare_data_nucleon a b c d e f g h i j k l).

Lemma from_sorted : forall x, from_measurements x -> exists ts ys es, x = sort_rows ts ys es.
Proof.
  intros x [(a & b & c & d & e & f & ->)|(a & b & c & d & e & f & g & h & i & j & k & l & ->)];
    unfold prepare_data_kaon, prepare_data_nucleon; now repeat eexists.
Qed.

(** The schedule given to the constructor is what [run] follows. *)
Theorem C39_as_constructed : forall o kind name r x mass alpha hc dir plot handpicked counts repetitions limit w p w1 d res p' w',
  from_measurements x -> nth_error (w_lists w) (r_data r) = Some d -> reachable (r_class r) d ->
  IterativePipeline_init o kind name r x mass alpha hc dir plot handpicked counts repetitions limit w = (Ok p, w1) ->
  IterativePipeline_run o (p, w1) = (res, (p', w')) ->
  let numbers := concat (map (fun y => repeat (fst y) (Z.to_nat (snd y))) (combine counts repetitions)) in
  let plan := stages kind numbers limit in
  exists ts ys es l, x = Ok (ts, ys, es) /\ w_fits w' = w_fits w ++ l /\ (length l <= length plan)%nat /\
    Forall2 (meets kind (r_class r) ts) (firstn (length l) plan) l /\
    (forall b, res = Ok b -> length l = length plan) /\
    length plan = (length numbers + match kind with NucleonCS => 2 | _ => 1 end)%nat.
Proof.
  intros o kind name r x mass alpha hc dir plot handpicked counts repetitions limit w p w1 d res p' w' FM S RC C H numbers plan.
  destruct (built_started _ _ _ _ _ _ _ _ _ _ _ _ _ _ _ _ _ _ (from_sorted _ FM) S RC C) as (ST & K & _ & P & _ & N & L & X & F & _).
  destruct (C39_schedule _ _ _ _ _ _ _ ST H) as (l & A1 & A2 & A3 & A4). rewrite K, N, L, P in *.
  assert (E : schedule counts repetitions = numbers) by apply (C39_requested_numbers counts repetitions). rewrite E in *. fold plan in A2, A3, A4.
  exists (pl_ts p), (pl_ys p), (pl_errors p), l. split; [exact X|]. split; [congruence|]. split; [exact A2|]. split; [exact A3|]. split.
  - intros b ->. exact A4.
  - unfold plan, stages. rewrite app_length, rounds_length. now destruct kind.
Qed.

(** ** Two random rounds and a full fit with an optimiser that always gives up *)

Definition hopeless : Oracle := demo_oracle (fun _ _ => FitRaise RuntimeError) DivRaises.

Definition hopeless_prepared : Res Prepared := prepare_data_nucleon [2] [12] [1] [] [] [] [] [] [] [] [] [].

Definition hopeless_pipeline : Pipeline :=
  mkPipeline NucleonFF "demo" (mkRef PTwoPoles 0%nat) [] [NucleonDatapoint (RtoC 2) true true] [12] [1] "out/demo" false true 0 0 0
    ("Report demo:" ++ newline)%string no_fit [2; 1]%Z 0.

Lemma hopeless_built : exists w1, IterativePipeline_init hopeless NucleonFF "demo" (mkRef PTwoPoles 0%nat) hopeless_prepared 0 0 0 "out" false true [2; 1]%Z [1; 1]%Z 0
  demo_world = (Ok hopeless_pipeline, w1) /\ w_lists w1 = w_lists demo_world /\ w_fits w1 = [].
Proof. eexists (mkWorld _ _ _ _ _). split; [lazy -[IZR RtoC]; reflexivity|]. now split. Qed.

Lemma hopeless_started : forall w1, w_lists w1 = w_lists demo_world -> started hopeless_pipeline w1 demo_poles.
Proof. intros w1 H. split; [split; [now rewrite H|exact demo_poles_reachable]|]. now repeat split. Qed.

Lemma hopeless_task : forall t w d, starts_as hopeless_pipeline t -> In (tk_class t) [NFF_FixAccording; NFF_FullFit] ->
  nth_error (w_lists w) (r_data (tk_parameters t)) = Some d -> reachable (r_class (tk_parameters t)) d ->
  exists t' w', Task_run hopeless (t, w) = (Ok (tk_parameters t), (t', w')).
Proof.
  intros t w d ST TC S RC. destruct ST as [_ _ _ SS _ _]. destruct SS as (_ & _ & HP).
  { right. destruct TC as [<-|[<-|[]]]; reflexivity. } cbn in HP.
  assert (RD : ready t w d). { split; [exact S|]. split; [exact RC|]. intros Q. rewrite Q in TC. cbn in TC. intuition discriminate. }
  assert (CO : charged_only (tk_class t) = false) by (destruct TC as [<-|[<-|[]]]; reflexivity).
  destruct (C34_runtime_error hopeless t w d RD) as (t' & w' & E & _).
  - unfold fit_result, fit_input, fit_data. rewrite CO, HP. cbn [bind].
    destruct (get_bounds_total (r_class (tk_parameters t)) true (prepared (tk_class t) (r_class (tk_parameters t)) d)) as (b & -> & _).
    + apply prepared_inv. now apply reachable_inv.
    + discriminate.
    + reflexivity.
  - now exists t', w'.
Qed.

(** The run ends well: every round is recorded with the requested number of free parameters, and there is no best fit. *)
Example C39_instance : exists w1 b p' w' x y z,
  IterativePipeline_init hopeless NucleonFF "demo" (mkRef PTwoPoles 0%nat) hopeless_prepared 0 0 0 "out" false true [2; 1]%Z [1; 1]%Z 0
    demo_world = (Ok hopeless_pipeline, w1) /\
  IterativePipeline_run hopeless (hopeless_pipeline, w1) = (Ok b, (p', w')) /\ w_fits w' = [x; y; z] /\
  fi_task x = "Task#0:TaskFixAccordingToParametersFit" /\ length (free_names_of (fi_store x)) = 2%nat /\
  fi_task y = "Task#1:TaskFixAccordingToParametersFit" /\ length (free_names_of (fi_store y)) = 1%nat /\
  fi_task z = "Task#2:TaskFullFit" /\ free_names_of (fi_store z) = available PTwoPoles false (fi_store z).
Proof.
  destruct hopeless_built as (w1 & C & HL & HF). exists w1.
  pose proof (hopeless_started w1 HL) as ST.
  destruct (IterativePipeline_run hopeless (hopeless_pipeline, w1)) as [res [p' w']] eqn:E.
  destruct (C39_schedule _ _ _ _ _ _ _ ST E) as (l & A1 & _ & A3 & A4). rewrite HF in *. cbn [app] in A1.
  assert (OK : exists b, res = Ok b).
  { destruct res as [b|e]; [now exists b|exfalso]. clear E. destruct A4 as [R|(s & I & IM)].
    - destruct R as (t & w & t' & k & xs & dt & TR & _ & _ & _ & N & SA & S & RC & _).
      destruct (hopeless_task t w dt SA) as (t2 & w2 & E2); [|exact S|exact RC|congruence].
      apply nth_error_In in N. cbn in N. cbn. tauto.
    - cbn in I. destruct I as [<-|[<-|[<-|[]]]]; cbn in IM.
      + destruct IM as [(_ & Q & _)|(_ & Q)]; [discriminate|lia].
      + destruct IM as [(_ & Q & _)|(_ & Q)]; [discriminate|lia].
      + destruct IM as (_ & Q & _). discriminate. }
  destruct OK as [b ->]. rewrite A4 in A3. clear E ST.
  change (length (stages (pl_kind hopeless_pipeline) (pl_numbers hopeless_pipeline) (pl_fixed_rounds hopeless_pipeline))) with 3%nat in *.
  destruct l as [|x [|y [|z [|u l]]]]; try discriminate A4. exists b, p', w', x, y, z.
  split; [exact C|]. split; [reflexivity|]. split; [exact A1|].
  change (Forall2 (meets NucleonFF PTwoPoles [NucleonDatapoint (RtoC 2) true true])
    [RandomRound 0 2 false; RandomRound 1 1 false; FinalFit 2 false] [x; y; z]) in A3.
  inversion A3 as [|? ? ? ? M1 A5]; subst. inversion A5 as [|? ? ? ? M2 A6]; subst. inversion A6 as [|? ? ? ? M3 _]; subst.
  destruct M1 as (N1 & _ & _ & F1 & _). destruct M2 as (N2 & _ & _ & F2 & _). destruct M3 as (N3 & _ & _ & F3 & _). cbn [freed] in F1, F2.
  split; [exact N1|]. split; [lia|]. split; [exact N2|]. split; [lia|]. split; [exact N3|exact F3].
Qed.

Print Assumptions C36_least_number_refuted.
Print Assumptions C39_as_constructed.
