(** C48: the nucleon and the kaon script, with their own numbers. *)
From Coq Require Import String Ascii Reals ZArith List Bool Arith Lia Lra Permutation.
From Verif Require Import PyBase CNum PyExpr KaonProofs Params ParamClasses ParamSpec ParamProofs PropsParams PropsParams2 PerturbProofs CommonUtils PipelineFreeze
  UtilsSpec UtilsProofs World WorldSpec WorldProofs DataSets BoundsProofs Task TaskSpec TaskProofs PropsTask Pipeline PipelineSpec
  PipelineReports PropsReports PipelineProofs PropsPipeline PropsPerturb PropsRuns FitScripts PropsFitScripts PropsStarts.
Import ListNotations.
Local Open Scope string_scope.
Local Open Scope list_scope.
Local Open Scope R_scope.

#[local] Arguments String.append : simpl never.

(** ** The fits of a script, whatever its result *)

Lemma fits_nil : forall A (l : list A), exists r, l = l ++ r /\ forall P : A -> Prop, Forall P r.
Proof. intros A l. exists []. split; [now rewrite app_nil_r|constructor]. Qed.

Lemma print_fits : forall o r w res w', print_result o r w = (res, w') -> w_fits w' = w_fits w.
Proof.
  intros o r w res w' H. unfold print_result, best_text, read_option, mbind, read, ret, emit in H. destruct (bf_parameters r) as [a|].
  - unfold mbind in H. destruct (nth_error (w_lists w) a); injection H as <- <-; reflexivity.
  - injection H as <- <-. reflexivity.
Qed.

Lemma script_fits : forall o f names (P : FitInput -> Prop),
  (forall name w res w', f name w = (res, w') -> exists l, w_fits w' = w_fits w ++ l /\ Forall P l) ->
  forall w res w', best_of_runs o f names w = (res, w') -> exists l, w_fits w' = w_fits w ++ l /\ Forall P l.
Proof.
  intros o f names P RUN.
  assert (TRY : forall names s w res w', try_all o f names s w = (res, w') -> exists l, w_fits w' = w_fits w ++ l /\ Forall P l).
  { clear names. induction names as [|name names IH]; intros s w res w' H; cbn [try_all] in H.
    - injection H as _ <-. exists []. split; [now rewrite app_nil_r|constructor].
    - unfold mbind at 1 in H. destruct (f name w) as [[r|e] w1] eqn:F; destruct (RUN _ _ _ _ F) as (l & E & A); [|injection H as _ <-; now exists l].
      unfold mbind in H. destruct (print_result o r w1) as [[u|e] w2] eqn:PR; pose proof (print_fits _ _ _ _ _ PR) as PF.
      + destruct (IH _ _ _ _ H) as (l' & E' & A'). exists (l ++ l'). split; [now rewrite E', PF, E, app_assoc|now apply Forall_app].
      + injection H as _ <-. exists l. split; [congruence|exact A]. }
  assert (MF : forall rs w res w', mfor rs (print_result o) w = (res, w') -> w_fits w' = w_fits w).
  { induction rs as [|r rs IH]; intros w res w' H; cbn [mfor] in H; [now injection H as _ <-|].
    unfold mbind in H. destruct (print_result o r w) as [[u|e] w1] eqn:PR; pose proof (print_fits _ _ _ _ _ PR) as PF; [|now injection H as _ <-].
    rewrite (IH _ _ _ H). exact PF. }
  intros w res w' H. unfold best_of_runs in H. unfold mbind at 1 in H.
  destruct (try_all o f names ([], None) w) as [[[fin bst]|e] w1] eqn:T; destruct (TRY _ _ _ _ _ T) as (l & E & A); [|injection H as _ <-; now exists l].
  exists l. split; [|exact A]. rewrite <- E. cbn [fst snd] in H. unfold mbind at 1 in H.
  match type of H with (let (_, _) := ?G in _) = _ => remember G as g eqn:Q end. destruct g as [res1 w2].
  assert (F2 : w_fits w2 = w_fits w1).
  { destruct bst as [b|]; [|unfold emit in Q; injection Q as _ ->; reflexivity].
    unfold best_text, read_option, mbind, read, ret, emit in Q. destruct (bf_parameters b) as [a|].
    - unfold mbind in Q. destruct (nth_error (w_lists w1) a); injection Q as -> ->; reflexivity.
    - injection Q as -> ->. reflexivity. }
  destruct res1 as [u|e]; [|now injection H as _ <-]. unfold mbind in H.
  destruct (mfor _ (print_result o) w2) as [[v|e] w3] eqn:M; pose proof (MF _ _ _ _ M) as F3; injection H as _ <-; congruence.
Qed.

(** ** The initial parameters *)

Lemma same_names : forall a b, nodupb a = true -> forallb (fun n => mem n b) a = true -> length b = length a -> Permutation a b.
Proof.
  intros a b D F L. apply NoDup_Permutation_bis; [now apply nodupb_NoDup|now rewrite L|].
  intros n H. rewrite forallb_forall in F. now apply mem_In, F.
Qed.

Lemma nucleon_names_ok : Permutation (map fst nucleon_initial) (class_names PNucleon).
Proof. now apply same_names. Qed.

Lemma kaon_names_ok : Permutation (map fst kaon_initial) (class_names PKaonB).
Proof. now apply same_names. Qed.

(** What the stores of a script have in common before the perturbation. *)
Lemma unperturbed_reachable : forall c initial fix_first d, unperturbed c initial fix_first d -> reachable c d.
Proof.
  intros c initial fix_first d (d0 & C & U). assert (R : reachable c d0) by (eapply reach_init; exact C).
  destruct fix_first; [|now subst]. replace d with (snd (mutate c MFixResonances d0)) by now rewrite U. now apply reach_step.
Qed.

Lemma fix_resonances_ok : forall c d, reachable c d -> no_resonances c = false ->
  exists d', mutate c MFixResonances d = (Ok tt, d') /\ same_values d d' /\
    forall p, In p d' -> resonance_parameter (par_name p) = true -> par_fixed p = true.
Proof.
  intros c d R NR. apply reachable_inv in R as (N & A). pose proof (resonances_listed c) as H. cbn [mutate]. unfold fix_resonances, fix_resonances_table.
  destruct (ct_fix_resonances (table c)) as [l|]; [|congruence]. destruct H as (_ & K & E).
  unfold fix_parameters. rewrite set_flags_known.
  - eexists. split; [reflexivity|]. split; [|].
    + split; rewrite map_map; apply map_ext; intros p; now destruct (str_in _ _).
    + intros q I RP. apply in_map_iff in I as (p & <- & I). destruct (str_in (par_name p) l) eqn:Q; [reflexivity|].
      rewrite E in Q by (rewrite <- N; now apply in_map). congruence.
  - rewrite N. apply class_names_NoDup.
  - intros n I. rewrite N. now apply K.
Qed.

(** A fixed parameter has the value of the list in the script when the pipeline starts. *)
Lemma fixed_value : forall c draws k size sizes h d0 d k', reachable c d0 ->
  perturb_model_parameters c draws k size sizes h d0 = (Ok tt, d, k') ->
  forall n, ~ In n (free_names_of d0) -> val d n = val d0 n.
Proof.
  intros c draws k size sizes h d0 d k' R PM n NI.
  destruct (get_bounds c h d0) as [[lo up]|e] eqn:GB; [|rewrite (C09_raises _ _ _ _ _ _ _ _ R GB) in PM; discriminate].
  destruct (C09_perturb_effect c h d0 lo up draws k size sizes R GB) as (d' & E & N & _ & F & _). rewrite PM in E. injection E as <- _.
  clear - NI N F. unfold free_names_of in NI. induction F as [|p q d0 d H F IH]; [reflexivity|]. injection N as N1 N2. cbn [val]. rewrite N1.
  cbn [filter] in NI. destruct (par_fixed p) eqn:E; cbn [negb] in NI.
  - rewrite (H eq_refl). destruct (String.eqb _ _); [reflexivity|]. now apply IH.
  - cbn [map In] in NI. destruct (String.eqb _ _) eqn:Q; [exfalso; apply NI; left; now apply String.eqb_eq in Q|]. apply IH; [|exact N2]. intros X. apply NI. now right.
Qed.

(** ** C48: the nucleon script *)

Lemma nucleon_measured : forall ts css errors, from_measurements (prepare_data_nucleon ts css errors [] [] [] [] [] [] [] [] []).
Proof. intros. right. now repeat eexists. Qed.

Lemma kaon_measured : forall ts ys errors, from_measurements (prepare_data_kaon ts ys errors [] [] []).
Proof. intros. left. now repeat eexists. Qed.

(** A complete run of the script: ten pipelines, 1770 fits; the result is the best over all of them. *)
Theorem C48_nucleon_script : forall o draws ts css errors w final best w',
  nucleon_script o draws ts css errors w = (Ok (final, best), w') ->
  let names := ["run7_0"; "run7_1"; "run7_2"; "run7_3"; "run7_4"; "run7_5"; "run7_6"; "run7_7"; "run7_8"; "run7_9"] in
  exists xss l, length xss = 10%nat /\ Forall (fun xs => length xs = 176%nat) xss /\
    least_of_all names xss (w_lists w') best /\ (length final <= 10)%nat /\
    w_fits w' = w_fits w ++ l /\ length l = 1770%nat /\
    forall name, In name names -> o_exists o (path_join "/home/lukas/reports/oscillations" name) = false.
Proof.
  intros o draws ts css errors w final best w' H names. unfold nucleon_script, nucleon_run in H.
  pose proof (nucleon_measured ts css errors) as M. pose proof H as H2.
  apply C48_best_over_all_runs in H as (xss & rs & l & L1 & L2 & A & FI & LE & F & FL); [|exact M].
  apply C48_directories in H2 as (_ & DI); [|exact M].
  change nucleon_names with names in *. exists xss, l. split; [exact L1|]. split; [|split; [exact LE|split; [|split; [exact F|split; [exact FL|]]]]].
  - apply Forall_forall. intros xs IN. apply In_nth_error in IN as [i N]. assert (LI : (i < length names)%nat) by (apply nth_lt in N; lia).
    destruct (nth_some _ names i LI) as [name NM]. destruct (nth_some _ rs i ltac:(lia)) as [r NR].
    destruct (A i name xs r NM N NR) as ((v0 & p & v & d & l' & _ & LX & _) & _). rewrite LX. reflexivity.
  - rewrite FI. change 10%nat with (length names). rewrite <- L2. clear. induction rs as [|r rs IH]; [apply Nat.le_refl|]. cbn [filter]. destruct (has_fit r); cbn [length]; lia.
  - intros name IN. now apply DI.
Qed.

(** The masses and widths are never fitted, in no run: they have the values of the list in the script in every fit of the form factors. *)
Theorem C48_nucleon_resonances : forall o draws ts css errors w res w', nucleon_script o draws ts css errors w = (res, w') ->
  exists l, w_fits w' = w_fits w ++ l /\
    Forall (fun fi => fi_class fi = POscillations \/
      (fi_class fi = PNucleon /\ forall n v, In (n, v) nucleon_initial -> resonance_parameter n = true ->
        ~ In n (free_names_of (fi_store fi)) /\ val (fi_store fi) n = v)) l.
Proof.
  intros o draws ts css errors w res w' H. unfold nucleon_script in H. eapply script_fits; [|exact H]. clear w res w' H.
  intros name w res w' H. unfold nucleon_run in H. apply run_cases in H; [|apply nucleon_measured].
  destruct H as [(p & w1 & d & p' & evs & L & R & _)|(e & _ & F & _)].
  2: { exists []. split; [now rewrite app_nil_r|constructor]. }
  destruct L as [ST NM K X CL FR LL FI _ _ (NB & LI & _) (d0 & U & PM)]. rewrite <- FI.
  destruct (C39_schedule _ _ _ _ _ _ _ ST R) as (l & F & LE & ME & _). destruct (C39_resonances_wait _ _ _ _ _ _ _ ST R) as (l' & F' & W).
  assert (l' = l) by (rewrite F in F'; now apply app_inv_head in F'). subst l'. clear F'. exists l. split; [exact F|].
  rewrite K, NB, LI in LE, ME. rewrite CL in ME. rewrite K, LI, NB in W. 
  apply Forall_forall. intros fi IN. apply In_nth_error in IN as [i N].
  assert (LT : (i < 177)%nat) by (apply nth_lt in N; change 177%nat with (length (stages NucleonCS (schedule nucleon_numbers nucleon_repetitions) 200)); lia).
  assert (VAL : forall n v, In (n, v) nucleon_initial -> resonance_parameter n = true -> val d n = v).
  { intros n v IN RP. pose proof U as (d00 & C & U1). assert (R0 : reachable PNucleon d00) by (eapply reach_init; exact C).
    destruct (fix_resonances_ok PNucleon d00 R0 eq_refl) as (d1 & E & SV & FX). rewrite U1 in E. injection E as <-.
    rewrite (fixed_value _ _ _ _ _ _ _ _ _ (unperturbed_reachable _ _ _ _ U) PM n).
    - rewrite (val_same _ _ _ SV). exact (C02_constructor_values _ _ _ C n v IN).
    - unfold free_names_of. intros Q. apply in_map_iff in Q as (q & <- & Q). apply filter_In in Q as [Q1 Q2]. rewrite (FX q Q1 RP) in Q2. discriminate. }
  assert (ST2 : exists s, nth_error (stages NucleonCS (schedule nucleon_numbers nucleon_repetitions) 200) i = Some s /\ meets NucleonCS PNucleon (pl_ts p) s fi).
  { clear - N ME LE. remember (stages NucleonCS (schedule nucleon_numbers nucleon_repetitions) 200) as S. clear HeqS. revert i S N ME LE.
      induction l as [|y l IH]; intros [|j] [|s S] N ME LE; try discriminate; cbn [length firstn] in *; try (exfalso; lia).
      - injection N as ->. inversion ME. now exists s.
      - inversion ME. apply (IH j S); [exact N|assumption|lia]. }
  destruct ST2 as (s & NS & MS). destruct (Nat.lt_ge_cases i 176) as [L|L].
  - right. assert (FM : fits_model p i).
    { intros k Q. rewrite K, NB, LI, NS in Q. injection Q as ->. assert (RL : i = S (length (schedule nucleon_numbers nucleon_repetitions))).
      { apply (residual_last NucleonCS _ 200). rewrite nth_error_map, NS. reflexivity. }
      assert (L175 : length (schedule nucleon_numbers nucleon_repetitions) = 175%nat) by reflexivity. lia. }
    split. { destruct s; [apply MS|apply MS|]. exfalso. apply (FM n). now rewrite K, NB, LI. }
    intros n v IN RP. destruct (W i fi n N FM ltac:(lia) RP) as (_ & V & NF). rewrite V. split; [|now apply VAL]. apply NF. split; [lia|now right].
  - left. assert (i = 176%nat) by lia. subst i.
    assert (s = ResidualFit 176) by (vm_compute in NS; congruence). subst s. apply MS.
Qed.

(** ** C48: the kaon script *)

(** A complete run of the script: fifteen pipelines, 3465 fits; the result is the best over all of them. *)
Theorem C48_kaon_script : forall o draws ts ff_values errors w final best w',
  kaon_script o draws ts ff_values errors w = (Ok (final, best), w') ->
  let names := ["iterative7_0"; "iterative7_1"; "iterative7_2"; "iterative7_3"; "iterative7_4"; "iterative7_5"; "iterative7_6"; "iterative7_7";
                "iterative7_8"; "iterative7_9"; "iterative7_10"; "iterative7_11"; "iterative7_12"; "iterative7_13"; "iterative7_14"] in
  exists xss l, length xss = 15%nat /\ Forall (fun xs => length xs = 231%nat) xss /\
    least_of_all names xss (w_lists w') best /\ (length final <= 15)%nat /\
    w_fits w' = w_fits w ++ l /\ length l = 3465%nat /\
    forall name, In name names -> o_exists o (path_join "/home/lukas/reports/ff" name) = false.
Proof.
  intros o draws ts ff_values errors w final best w' H names. unfold kaon_script, kaon_run in H.
  pose proof (kaon_measured ts ff_values errors) as M. pose proof H as H2.
  apply C48_best_over_all_runs in H as (xss & rs & l & L1 & L2 & A & FI & LE & F & FL); [|exact M].
  apply C48_directories in H2 as (_ & DI); [|exact M].
  change kaon_names with names in *. exists xss, l. split; [exact L1|]. split; [|split; [exact LE|split; [|split; [exact F|split]]]].
  - apply Forall_forall. intros xs IN. apply In_nth_error in IN as [i N]. assert (LI : (i < length names)%nat) by (apply nth_lt in N; lia).
    destruct (nth_some _ names i LI) as [name NM]. destruct (nth_some _ rs i ltac:(lia)) as [r NR].
    destruct (A i name xs r NM N NR) as ((v0 & p & v & d & l' & _ & LX & _) & _). rewrite LX. reflexivity.
  - rewrite FI. change 15%nat with (length names). rewrite <- L2. clear. induction rs as [|r rs IH]; [apply Nat.le_refl|]. cbn [filter]. destruct (has_fit r); cbn [length]; lia.
  - rewrite FL. change (length names) with 15%nat. unfold fits_per_run. replace (length (schedule kaon_numbers kaon_repetitions)) with 230%nat by reflexivity. lia.
  - intros name IN. now apply DI.
Qed.

(** ** Exceptions *)

(** The number of parameters a stage asks for is at hand. *)
Definition enough (k : pipeline_kind) (c : param_class) (s : stage) : bool :=
  match s with
  | RandomRound _ number fix_resonances =>
      let n := length (filter (fun n => andb (negb (member n (must_stay_fixed c))) (negb (andb fix_resonances (resonance_parameter n)))) (class_names c)) in
      andb (Z.leb 0 (freed k number n)) (Z.leb (freed k number n) (Z.of_nat n))
  | _ => true
  end.

Lemma enough_possible : forall k c s e, no_resonances c = false -> enough k c s = true -> ~ impossible k c (class_names c) s e.
Proof.
  intros k c s e NR E. destruct s; cbn [impossible enough] in *; [|intros (_ & _ & Q); congruence|tauto].
  apply andb_prop in E as [E1 E2]. apply Z.leb_le in E1. apply Z.leb_le in E2. intros [(_ & _ & Q)|(_ & [Q|Q])]; [congruence|lia|lia].
Qed.

(** Why a run of a script may fail: the data, the directory or a task.  [pipeline]: the pipelines the script runs. *)
Definition run_fails (o : Oracle) (x : Res Prepared) (dir name : string) (kind : pipeline_kind) (numbers : list Z) (limit : Z)
  (pipeline : World -> string -> Pipeline -> World -> data -> Prop) (w1 : World) (e : exn) (w' : World) : Prop :=
  (w_fits w' = w_fits w1 /\ w_events w' = w_events w1 /\
   (x = Err e \/
    (e = ValueError /\ (o_exists o (path_join dir name) = true \/ In (EvMkdir (path_join dir name)) (w_events w1))) \/
    (e = OtherError /\ o_mkdir o (path_join dir name) = false))) \/
  (exists p v d, pipeline w1 name p v d /\
     task_raised o p d (map (stage_class kind) (stages kind numbers limit)) (w_fits v) e w').

Lemma script_exceptions : forall o draws c initial fix_first size sizes h kind x mass alpha hc dir counts repetitions limit,
  from_measurements x -> no_resonances c = false ->
  Permutation (map fst initial) (class_names c) ->
  (h = false -> forall n v, In n (threshold_parameters c) -> In (n, v) initial -> 0 <= v) ->
  forallb (enough kind c) (stages kind (schedule counts repetitions) limit) = true ->
  let run := one_run o draws c initial fix_first size sizes h kind x mass alpha hc dir counts repetitions limit in
  forall names w e w', best_of_runs o run names w = (Err e, w') ->
  exists done name rest rs w1, names = done ++ name :: rest /\ runs o run done w rs w1 /\
    run_fails o x dir name kind (schedule counts repetitions) limit
      (launched o draws c initial fix_first size sizes h kind x dir counts repetitions limit) w1 e w'.
Proof.
  intros o draws c initial fix_first size sizes h kind x mass alpha hc dir counts repetitions limit M NR PN TH EN run names w e w' H.
  unfold run in H. apply C48_exceptions in H as (done & name & rest & rs & w1 & -> & R & H); [|exact M].
  exists done, name, rest, rs, w1. split; [reflexivity|]. split; [exact R|].
  assert (C : construct c initial = Ok (ParamProofs.built (table c) initial)) by (now apply construct_iff).
  destruct H as [(RF & F & EV)|(p & v & d & p' & L & RUN)].
  - left. split; [exact F|]. split; [exact EV|]. destruct RF as [Q|[(d0 & C0 & _ & Q)|[(d0 & U & Q)|Q]]]; [congruence| | |exact Q]; exfalso.
    + assert (RC : reachable c d0) by (eapply reach_init; exact C0). destruct (fix_resonances_ok c d0 RC NR) as (d' & E & _). rewrite E in Q. discriminate.
    + pose proof (unperturbed_reachable _ _ _ _ U) as RC. pose proof U as (d00 & C0 & U0).
      apply C06_raises_exactly in Q as (_ & -> & n & IN & V); [|exact RC].
      assert (VN : val d0 n = val d00 n).
      { destruct fix_first; [|now subst]. assert (RC0 : reachable c d00) by (eapply reach_init; exact C0).
        destruct (fix_resonances_ok c d00 RC0 NR) as (d' & E & SV & _). rewrite U0 in E. injection E as <-. now apply val_same. }
      assert (NI : In n (map fst initial)).
      { apply (Permutation_in n (Permutation_sym PN)). apply thresholds_eq, sqrt_names_fixed in IN. now apply always_fixed_known. }
      apply in_map_iff in NI as ([n' v'] & Q & NI). cbn in Q. subst n'. specialize (TH eq_refl n v' IN NI).
      rewrite VN, (C02_constructor_values _ _ _ C0 n v' NI) in V. lra.
  - right. exists p, v, d. split; [exact L|]. destruct L as [ST NM K X CL FR LL FI _ _ (NB & LI & _) _].
    destruct (C39_schedule _ _ _ _ _ _ _ ST RUN) as (l & _ & _ & _ & [T|(s & IN & IM)]).
    + now rewrite K, NB, LI in T.
    + exfalso. rewrite K, NB, LI in IN. rewrite forallb_forall in EN. pose proof ST as ((_ & RC) & _). rewrite CL in RC.
      assert (N : map par_name d = class_names c) by (apply reachable_inv in RC; apply RC). rewrite K, CL, N in IM.
      exact (enough_possible _ _ _ _ NR (EN s IN) IM).
Qed.

(** The pipelines of the scripts. *)
Definition nucleon_launched (o : Oracle) (draws : nat -> R) (ts css errors : list R) : World -> string -> Pipeline -> World -> data -> Prop :=
  launched o draws PNucleon nucleon_initial true (8/10) (1/10) true NucleonCS (prepare_data_nucleon ts css errors [] [] [] [] [] [] [] [] [])
    nucleon_reports nucleon_numbers nucleon_repetitions 200.
Definition kaon_launched (o : Oracle) (draws : nat -> R) (ts ff_values errors : list R) : World -> string -> Pipeline -> World -> data -> Prop :=
  launched o draws PKaonB kaon_initial false 1 (1/10) false KaonFF (prepare_data_kaon ts ff_values errors [] [] [])
    kaon_reports kaon_numbers kaon_repetitions 10.

(** Neither script fails for want of parameters to free, of a valid store or of bounds. *)
Theorem C48_nucleon_exceptions : forall o draws ts css errors w e w', nucleon_script o draws ts css errors w = (Err e, w') ->
  exists done name rest rs w1, nucleon_names = done ++ name :: rest /\ runs o (nucleon_run o draws ts css errors) done w rs w1 /\
    run_fails o (prepare_data_nucleon ts css errors [] [] [] [] [] [] [] [] []) nucleon_reports name NucleonCS
      (schedule nucleon_numbers nucleon_repetitions) 200 (nucleon_launched o draws ts css errors) w1 e w'.
Proof.
  intros o draws ts css errors w e w' H. unfold nucleon_script, nucleon_run in *. eapply script_exceptions; [| | | | |exact H].
  - apply nucleon_measured.
  - reflexivity.
  - exact nucleon_names_ok.
  - discriminate.
  - vm_compute. reflexivity.
Qed.

Theorem C48_kaon_exceptions : forall o draws ts ff_values errors w e w', kaon_script o draws ts ff_values errors w = (Err e, w') ->
  exists done name rest rs w1, kaon_names = done ++ name :: rest /\ runs o (kaon_run o draws ts ff_values errors) done w rs w1 /\
    run_fails o (prepare_data_kaon ts ff_values errors [] [] []) kaon_reports name KaonFF (schedule kaon_numbers kaon_repetitions) 10
      (kaon_launched o draws ts ff_values errors) w1 e w'.
Proof.
  intros o draws ts ff_values errors w e w' H. unfold kaon_script, kaon_run in *. eapply script_exceptions; [| | | | |exact H].
  - apply kaon_measured.
  - reflexivity.
  - exact kaon_names_ok.
  - intros _ n v IN. cbn in IN. destruct IN as [<-|[<-|[]]]; cbn [In kaon_initial]; intros IN;
      repeat (destruct IN as [IN|IN]; [try discriminate; injection IN as <-; unfold script_t_0_isoscalar, script_t_0_isovector; nra|]); contradiction.
  - vm_compute. reflexivity.
Qed.

(** ** An optimiser that always gives up *)

(** Parameters that must stay fixed keep their values. *)
Lemma handed_fixed : forall o p d before l xs i cl dt n,
  let classes := map (stage_class (pl_kind p)) (stages (pl_kind p) (pl_numbers p) (pl_fixed_rounds p)) in
  ended o p d classes before l xs -> (forall j, (j < i)%nat -> nth_error classes j <> Some ResidualTask) ->
  handed (r_class (pl_parameters p)) d xs i cl dt -> (i <= length xs)%nat -> In n (must_stay_fixed (r_class (pl_parameters p))) -> val dt n = val d n.
Proof.
  intros o p d before l xs i cl dt n classes EN NR HA LE IN. eapply handed_value; [exact EN|exact NR|exact HA|].
  intros j fj L N Q. destruct (nth_some _ xs j ltac:(lia)) as [x NX].
  destruct (ended_step o p d before l xs EN j x NX (NR j L)) as (t & w & r & fj' & dt' & dx & _ & NF & _ & RC & HA' & _ & _ & FI & _).
  rewrite N in NF. injection NF as <-. destruct (fit_input_store _ _ _ FI) as (ES & _). rewrite ES in Q.
  assert (CL : r_class (tk_parameters t) = r_class (pl_parameters p)).
  { eapply handed_class; [exact EN| |exact HA']. intros k K. apply NR. lia. }
  rewrite CL in *. pose proof (prepared_inv (tk_class t) _ _ (reachable_inv _ _ RC)) as (_ & A).
  unfold free_names_of in Q. apply in_map_iff in Q as (q & <- & Q). apply filter_In in Q as [Q1 Q2].
  apply must_stay_fixed_eq in IN. rewrite (A q Q1 IN) in Q2. discriminate.
Qed.

(** A task of the kaon script that has one charged point and such an optimiser. *)
Lemma kaon_gives_up : forall p t w dt, pl_kind p = KaonFF -> pl_handpicked p = false ->
  pl_ts p = [KaonDatapoint (RtoC 2) true] -> pl_ys p = [1] -> pl_errors p = [1] ->
  starts_as p t -> In (tk_class t) [KFF_FixAccording; KFF_FullFitOnlyCharged] -> r_class (tk_parameters t) = PKaonB ->
  nth_error (w_lists w) (r_data (tk_parameters t)) = Some dt -> reachable PKaonB dt ->
  0 <= val dt "t_0_isoscalar" -> 0 <= val dt "t_0_isovector" ->
  exists t' w', Task_run hopeless (t, w) = (Ok (tk_parameters t), (t', w')) /\ rp_chi_squared (tk_report t') = None.
Proof.
  intros p t w dt K HP T Y E SA TC CL S RC V1 V2. destruct SA as [_ (F1 & F2 & F3) (_ & CH & _) SS _ _].
  destruct SS as (_ & _ & H). { right. destruct TC as [<-|[<-|[]]]; reflexivity. }
  assert (RD : ready t w dt). { split; [exact S|]. rewrite CL. split; [exact RC|]. intros Q. rewrite Q in TC. cbn in TC. intuition discriminate. }
  destruct (C34_runtime_error hopeless t w dt RD) as (t' & w' & ER & _ & _ & _ & _ & _ & CT & _).
  - unfold fit_result, fit_input. rewrite H, HP, CL.
    assert (FD : fit_data t = Ok ([KaonDatapoint (RtoC 2) true], [1], [1])).
    { unfold fit_data. rewrite F1, F2, F3, T, Y, E. destruct TC as [<-|[<-|[]]]; reflexivity. }
    rewrite FD. cbn [bind].
    destruct (get_bounds_total PKaonB false (prepared (tk_class t) PKaonB dt)) as (b & -> & _).
    + apply prepared_inv. now apply reachable_inv.
    + intros _ n IN. rewrite prepared_val. apply thresholds_eq in IN. destruct IN as [<-|[<-|[]]]; assumption.
    + reflexivity.
  - exists t', w'. split; [exact ER|]. congruence.
Qed.

(** The classes of the tasks. *)
Lemma kaon_classes : forall numbers limit i c, nth_error (map (stage_class KaonFF) (stages KaonFF numbers limit)) i = Some c ->
  In c [KFF_FixAccording; KFF_FullFitOnlyCharged].
Proof.
  intros numbers limit i c H. apply nth_error_In, in_map_iff in H as (s & <- & IN). unfold stages in IN. apply in_app_iff in IN as [IN|[<-|[]]]; [|cbn; tauto].
  assert (X : forall numbers k, In s (rounds k numbers limit) -> exists a b c, s = RandomRound a b c).
  { clear. induction numbers as [|z l IH]; intros k IN; [contradiction|]. destruct IN as [<-|IN]; [now repeat eexists|eauto]. }
  apply X in IN as (a & b & c & ->). cbn. tauto.
Qed.

Lemma kaon_thresholds : forall draws k size sizes d0 d k', unperturbed PKaonB kaon_initial false d0 ->
  perturb_model_parameters PKaonB draws k size sizes false d0 = (Ok tt, d, k') -> 0 <= val d "t_0_isoscalar" /\ 0 <= val d "t_0_isovector".
Proof.
  intros draws k size sizes d0 d k' U PM. pose proof (unperturbed_reachable _ _ _ _ U) as RC. destruct U as (d00 & C & ->).
  assert (NF : forall n, In n (must_stay_fixed PKaonB) -> ~ In n (free_names_of d00)).
  { intros n IN Q. apply reachable_inv in RC as (_ & A). unfold free_names_of in Q. apply in_map_iff in Q as (q & <- & Q). apply filter_In in Q as [Q1 Q2].
    apply must_stay_fixed_eq in IN. rewrite (A q Q1 IN) in Q2. discriminate. }
  rewrite !(fixed_value _ _ _ _ _ _ _ _ _ RC PM) by (apply NF, mem_In; reflexivity).
  rewrite (C02_constructor_values _ _ _ C "t_0_isoscalar" script_t_0_isoscalar) by (cbn; tauto).
  rewrite (C02_constructor_values _ _ _ C "t_0_isovector" script_t_0_isovector) by (cbn; tauto).
  unfold script_t_0_isoscalar, script_t_0_isovector. split; nra.
Qed.

Lemma hopeless_prepared_kaon : prepare_data_kaon [2] [1] [1] [] [] [] = Ok ([KaonDatapoint (RtoC 2) true], [1], [1]).
Proof. reflexivity. Qed.

(** With one measured point the kaon script ends after 3465 fits without a result; the hypotheses of [C48_best_over_all_runs],
    [C48_kaon_script], [C48_report], [C48_directories] and [C48_second_execution] are met. *)
Example C48_instance : forall draws, exists w' l,
  kaon_script hopeless draws [2] [1] [1] demo_world = (Ok ([], None), w') /\ w_fits w' = l /\ length l = 3465%nat.
Proof.
  intros draws.
  assert (TASK : forall name v p w d l xs t w1 dt,
    kaon_launched hopeless draws [2] [1] [1] v name p w d ->
    ended hopeless p d (map (stage_class KaonFF) (stages KaonFF (schedule kaon_numbers kaon_repetitions) 10)) (w_fits w) l xs ->
    forall i, (i <= length xs)%nat -> nth_error (map (stage_class KaonFF) (stages KaonFF (schedule kaon_numbers kaon_repetitions) 10)) i = Some (tk_class t) ->
    starts_as p t -> nth_error (w_lists w1) (r_data (tk_parameters t)) = Some dt -> reachable (r_class (tk_parameters t)) dt ->
    handed (r_class (pl_parameters p)) d xs i (r_class (tk_parameters t)) dt ->
    exists t' w', Task_run hopeless (t, w1) = (Ok (tk_parameters t), (t', w')) /\ rp_chi_squared (tk_report t') = None).
  { intros name v p w d l xs t w1 dt L EN i LE C SA S RC HA. destruct L as [ST NM K X CL FR LL FI _ _ (NB & LI & HP) (d0 & U & PM)].
    rewrite hopeless_prepared_kaon in X. injection X as X1 X2 X3. destruct (kaon_thresholds _ _ _ _ _ _ _ U PM) as [V1 V2].
    rewrite <- K, <- NB, <- LI in EN.
    assert (NR : forall j, nth_error (map (stage_class (pl_kind p)) (stages (pl_kind p) (pl_numbers p) (pl_fixed_rounds p))) j <> Some ResidualTask).
    { intros j Q. apply residual_last in Q as [_ Q]. congruence. }
    assert (CT : r_class (tk_parameters t) = PKaonB) by (rewrite <- CL; eapply handed_class; [exact EN| |exact HA]; intros; apply NR).
    pose proof (handed_fixed _ _ _ _ _ _ _ _ _ "t_0_isoscalar" EN (fun j _ => NR j) HA LE) as W1. rewrite CL in W1.
    pose proof (handed_fixed _ _ _ _ _ _ _ _ _ "t_0_isovector" EN (fun j _ => NR j) HA LE) as W2. rewrite CL in W2.
    rewrite CT in RC. apply (kaon_gives_up p t w1 dt); auto.
    - exact (kaon_classes _ _ _ _ C).
    - rewrite W1 by (apply mem_In; reflexivity). exact V1.
    - rewrite W2 by (apply mem_In; reflexivity). exact V2. }
  destruct (kaon_script hopeless draws [2] [1] [1] demo_world) as [[[final best]|e] w'] eqn:H.
  - pose proof H as H'. unfold kaon_script, kaon_run in H'. apply C48_best_over_all_runs in H' as (xss & rs & l & L1 & L2 & A & FI & LE & F & FL); [|apply kaon_measured].
    exists w', (w_fits w'). split; [|split; [reflexivity|]].
    2: { destruct (C48_kaon_script _ _ _ _ _ _ _ _ _ H) as (_ & l' & _ & _ & _ & _ & -> & FL' & _). exact FL'. }
    assert (CHI : forall i xs j y, nth_error xss i = Some xs -> nth_error xs j = Some y -> chi_text y = None).
    { intros i xs j y NX E1. assert (LI : (i < length kaon_names)%nat) by (apply nth_lt in NX; lia).
      destruct (nth_some _ kaon_names i LI) as [name NM]. destruct (nth_some _ rs i ltac:(lia)) as [r N].
      destruct (A i name xs r NM NX N) as ((v0 & p & v & d & l' & L & LX & EN) & _).
      destruct (EN j y E1) as (t & w1 & r1 & fj & TR & _ & _ & _ & _ & _ & _ & C & SA & dt & S & RC & HA). pose proof (nth_lt _ _ _ _ E1) as LJ.
      destruct (TASK _ _ _ _ _ _ _ t w1 dt L EN j ltac:(lia) C SA S RC HA) as (t' & w2 & E & CH). rewrite TR in E. injection E as _ E3 _.
      unfold chi_text. now rewrite E3, CH. }
    assert (NONE : Forall (fun r => bf_chi_squared r = None) rs).
    { apply Forall_forall. intros r IN. apply In_nth_error in IN as [i N].
      assert (LI : (i < length kaon_names)%nat) by (apply nth_lt in N; lia).
      destruct (nth_some _ kaon_names i LI) as [name NM]. destruct (nth_some _ xss i ltac:(lia)) as [xs NX].
      destruct (A i name xs r NM NX N) as (_ & [(j & y & s & (E1 & E2 & _) & _)|[_ ->]]); [exfalso|reflexivity].
      rewrite (CHI i xs j y NX E1) in E2. discriminate. }
    assert (B : best = None).
    { destruct best as [b|]; [exfalso|reflexivity]. destruct LE as (i & j & name & xs & y & s & _ & N1 & N2 & CT & _). rewrite (CHI i xs j y N1 N2) in CT. discriminate. }
    assert (FN : final = []). { rewrite FI. clear - NONE. induction NONE as [|r rs Q _ IH]; [reflexivity|]. cbn [filter]. unfold has_fit. now rewrite Q. }
    rewrite B, FN. reflexivity.
  - exfalso. apply C48_kaon_exceptions in H as (done & name & rest & rs & w1 & NM & R & [(_ & _ & [Q|[(_ & [Q|Q])|(_ & Q)]])|(p & v & d & L & T)]).
    + discriminate.
    + discriminate.
    + unfold kaon_run in R. apply runs_all in R as (_ & _ & evs & _ & _ & _ & _ & _ & _ & _ & EV & OWN & _); [|apply kaon_measured].
      rewrite EV in Q. change (w_events demo_world) with (@nil event) in Q. cbn [app] in Q. rewrite Forall_forall in OWN. destruct (OWN _ Q) as (n & IN & E). cbn in E.
      assert (ND : NoDup (map (path_join kaon_reports) kaon_names)) by (apply nodupb_NoDup; reflexivity).
      rewrite NM, map_app in ND. cbn [map] in ND. apply NoDup_remove_2 in ND. apply ND. rewrite E. apply in_app_iff. left. now apply in_map.
    + discriminate.
    + destruct T as (t & w2 & t' & l & xs & dt & TR & _ & LX & EN & C & SA & S & RC & HA).
      destruct (TASK _ _ _ _ _ _ _ t w2 dt L EN (length l) ltac:(lia) C SA S RC HA) as (t2 & w3 & E & _). rewrite TR in E. discriminate.
Qed.

Print Assumptions C48_nucleon_script.
Print Assumptions C48_nucleon_resonances.
Print Assumptions C48_kaon_script.
Print Assumptions C48_nucleon_exceptions.
Print Assumptions C48_kaon_exceptions.
