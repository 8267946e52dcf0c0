(** C39, C49: the values with which the fits of the iterative pipelines start. *)
From Coq Require Import String Ascii Reals ZArith List Bool Arith Lia Lra.
From Verif Require Import PyBase CNum PyExpr Params ParamClasses ParamSpec ParamProofs PropsParams CommonUtils
  UtilsSpec UtilsProofs World WorldSpec WorldProofs DataSets BoundsProofs Task TaskSpec TaskProofs PropsTask Pipeline PipelineSpec
  PipelineReports PropsReports PipelineProofs PropsPipeline PropsPerturb PropsRuns.
Import ListNotations.
Local Open Scope string_scope.
Local Open Scope list_scope.
Local Open Scope R_scope.

#[local] Arguments String.append : simpl never.

Lemma val_same : forall d d' n, same_values d d' -> val d' n = val d n.
Proof.
  induction d as [|p d IH]; intros [|q d'] n [N V]; try discriminate; [reflexivity|]. injection N as N1 N2. injection V as V1 V2.
  cbn [val]. rewrite N1, V1. destruct (String.eqb _ _); [reflexivity|]. apply IH. now split.
Qed.

Lemma kept_val : forall k c d d' n, Forall2 (kept k c) d d' -> ~ In n (free_names_of (prepared k c d)) -> val d' n = val d n.
Proof.
  intros k c d d' n H. induction H as [|p q d d' (N & F & V) _ IH]; intros NI; [reflexivity|]. cbn [val]. rewrite N.
  unfold free_names_of, prepared in *. cbn [map filter par_fixed] in NI. destruct (fixed_in_fit (frees k) c p) eqn:E; cbn [negb] in NI.
  - rewrite V by exact F. destruct (String.eqb _ _); [reflexivity|]. now apply IH.
  - cbn [map In par_name] in NI. destruct (String.eqb _ _) eqn:Q; [exfalso; apply NI; left; apply String.eqb_eq in Q; congruence|]. apply IH. intros Q'. apply NI. now right.
Qed.

Lemma prepared_val : forall k c d n, val (prepared k c d) n = val d n.
Proof. intros k c d n. apply val_same. unfold prepared. split; rewrite map_map; reflexivity. Qed.

Lemma fit_input_store : forall t d x, fit_input t d = Ok x -> fi_store x = d /\ fi_class x = r_class (tk_parameters t) /\ fi_start x = free_values d /\
  get_bounds (r_class (tk_parameters t)) (tk_handpicked t) d = Ok (fi_bounds x).
Proof.
  intros t d x H. unfold fit_input in H. destruct (fit_data t) as [[[ts ys] es]|]; [|discriminate]. cbn [bind] in H.
  destruct (get_bounds _ _ d) as [b|]; [|discriminate]. cbn [bind] in H. injection H as <-. now repeat split.
Qed.

(** A task whose function is not the residual one: its only fit. *)
Lemma fit_made : forall o t w d res t' w' fi, tk_class t <> ResidualTask ->
  nth_error (w_lists w) (r_data (tk_parameters t)) = Some d -> reachable (r_class (tk_parameters t)) d ->
  Task_run o (t, w) = (res, (t', w')) -> w_fits w' = w_fits w ++ [fi] ->
  fit_input t (prepared (tk_class t) (r_class (tk_parameters t)) d) = Ok fi.
Proof.
  intros o t w d res t' w' fi NR S RC TR F. assert (RD : ready t w d) by (now split).
  pose proof (C34_one_fit _ _ _ _ _ _ _ RD TR) as O. rewrite O in F. apply app_inv_head in F.
  destruct (fit_input _ _) as [x|]; [now injection F as ->|discriminate].
Qed.

Lemma residual_last : forall kind numbers limit i, nth_error (map (stage_class kind) (stages kind numbers limit)) i = Some ResidualTask ->
  i = S (length numbers) /\ kind = NucleonCS.
Proof.
  intros kind numbers limit i H. rewrite nth_error_map in H.
  destruct (nth_error (stages kind numbers limit) i) as [s|] eqn:N; [|discriminate]. cbn in H. injection H as E.
  destruct (Nat.lt_ge_cases i (length numbers)) as [L|L].
  - unfold stages in N. rewrite nth_error_app1 in N by (now rewrite rounds_length). rewrite rounds_nth in N.
    destruct (nth_error numbers i); [|discriminate]. injection N as <-. now destruct kind.
  - rewrite stages_final in N by exact L. destruct kind; destruct (i - length numbers)%nat as [|[|k]] eqn:Q; cbn in N; try discriminate;
      try (destruct k; discriminate); injection N as <-; try discriminate. split; [lia|reflexivity].
Qed.

(** ** C39 *)

(** The run with the names of its parts: the fits [l], the ended tasks [xs], the classes of the tasks. *)
Section Fits.
Variables (o : Oracle) (p : Pipeline) (d : data) (before l : list FitInput) (xs : list Ended).
Let c := r_class (pl_parameters p).
Let classes := map (stage_class (pl_kind p)) (stages (pl_kind p) (pl_numbers p) (pl_fixed_rounds p)).
Hypothesis tasks : ended o p d classes before l xs.

Lemma ended_step : forall j x, nth_error xs j = Some x -> nth_error classes j <> Some ResidualTask ->
  exists t w r fj dt dx, Task_run o (t, w) = (Ok r, (en_task x, en_world x)) /\ nth_error l j = Some fj /\
    nth_error (w_lists w) (r_data (tk_parameters t)) = Some dt /\ reachable (r_class (tk_parameters t)) dt /\
    handed c d xs j (r_class (tk_parameters t)) dt /\ starts_as p t /\ nth_error classes j = Some (tk_class t) /\
    fit_input t (prepared (tk_class t) (r_class (tk_parameters t)) dt) = Ok fj /\
    left_behind x = Some dx /\ Forall2 (kept (tk_class t) (r_class (tk_parameters t))) dt dx /\ tk_parameters (en_task x) = tk_parameters t /\
    w_fits w = before ++ firstn j l.
Proof.
  intros j x N NR. destruct (tasks j x N) as (t & w & r & fj & TR & _ & NF & _ & F1 & F2 & _ & C & SA & dt & S & RC & HA).
  assert (K : tk_class t <> ResidualTask) by (intros Q; rewrite Q in C; contradiction).
  assert (RD : ready t w dt) by (now split).
  destruct (C34_frame _ _ _ _ _ _ _ RD TR) as ((_ & _ & SP & _) & (d' & D' & KE) & _).
  exists t, w, r, fj, dt, d'. repeat (split; [assumption|]). split; [|split; [|split; [exact KE|split; [exact SP|exact F1]]]].
  - apply (fit_made o t w dt _ _ _ _ K S RC TR). rewrite F1, F2, <- app_assoc. f_equal. clear - NF. revert l NF.
    induction j as [|i IH]; intros [|y l] N; try discriminate; [now injection N as ->|]. cbn [firstn app]. f_equal. exact (IH l N).
  - unfold left_behind, contents in *. now rewrite SP.
Qed.

Lemma handed_class : forall i cl dt, (forall j, (j < i)%nat -> nth_error classes j <> Some ResidualTask) -> handed c d xs i cl dt -> cl = c.
Proof.
  induction i as [|j IH]; intros cl dt NR HA; cbn [handed] in HA; [apply HA|]. destruct HA as (x & dx & N & _ & -> & _).
  destruct (ended_step j x N (NR j (Nat.lt_succ_diag_r j))) as (t & w & r & fj & dt' & dx' & _ & _ & _ & _ & HA & _ & _ & _ & _ & _ & SP & _).
  rewrite SP. apply (IH _ dt'); [|exact HA]. intros k K. apply NR. lia.
Qed.

(** A parameter that was not free in any of the fits before has its first value. *)
Lemma handed_value : forall n i cl dt, (forall j, (j < i)%nat -> nth_error classes j <> Some ResidualTask) -> handed c d xs i cl dt ->
  (forall j fj, (j < i)%nat -> nth_error l j = Some fj -> ~ In n (free_names_of (fi_store fj))) -> val dt n = val d n.
Proof.
  intros n. induction i as [|j IH]; intros cl dt NR HA FX; cbn [handed] in HA; [now apply val_same|]. destruct HA as (x & dx & N & LB & -> & SV).
  destruct (ended_step j x N (NR j (Nat.lt_succ_diag_r j))) as (t & w & r & fj & dt' & dx' & _ & NF & _ & _ & HA & _ & _ & FI & LB' & KE & _).
  rewrite LB in LB'. injection LB' as <-. rewrite (val_same _ _ _ SV), (kept_val _ _ _ _ _ KE).
  - refine (IH _ dt' _ HA _). { intros k K. apply NR. lia. } intros k fk K. apply FX. lia.
  - destruct (fit_input_store _ _ _ FI) as (<- & _). apply (FX j); [lia|exact NF].
Qed.
End Fits.

(** Before the residual stage. *)
Lemma not_residual_before : forall kind numbers limit i j, (j < i)%nat -> (i < length (stages kind numbers limit))%nat ->
  nth_error (map (stage_class kind) (stages kind numbers limit)) j <> Some ResidualTask.
Proof.
  intros kind numbers limit i j L1 L2 Q. apply residual_last in Q as [-> ->]. unfold stages in L2. rewrite app_length, rounds_length in L2. cbn in L2. lia.
Qed.

(** A fit that is not that of the residuals. *)
Definition fits_model (p : Pipeline) (i : nat) : Prop :=
  forall k, nth_error (stages (pl_kind p) (pl_numbers p) (pl_fixed_rounds p)) i <> Some (ResidualFit k).

Lemma fits_model_class : forall p i t, fits_model p i ->
  nth_error (map (stage_class (pl_kind p)) (stages (pl_kind p) (pl_numbers p) (pl_fixed_rounds p))) i = Some (tk_class t) -> tk_class t <> ResidualTask.
Proof.
  intros p i t FM C Q. rewrite Q, nth_error_map in C. unfold fits_model in FM. destruct (nth_error (stages _ _ _) i) as [s|]; [|discriminate]. cbn in C. injection C as C.
  destruct s; [destruct (pl_kind p); discriminate|destruct (pl_kind p); discriminate|]. now destruct (FM n).
Qed.

(** A parameter keeps its value until the first fit in which it is free. *)
Theorem C39_values_kept : forall o p w d res p' w', started p w d -> IterativePipeline_run o (p, w) = (res, (p', w')) ->
  exists l, w_fits w' = w_fits w ++ l /\
    forall i fi n, nth_error l i = Some fi -> fits_model p i ->
      (forall j fj, (j < i)%nat -> nth_error l j = Some fj -> ~ In n (free_names_of (fi_store fj))) ->
      val (fi_store fi) n = val d n.
Proof.
  intros o p w d res p' w' ST H. destruct (C39_every_fit _ _ _ _ _ _ _ ST H) as (l & xs & F & EN & LL & ALL). exists l. split; [exact F|].
  intros i fi n N FM FX. destruct (ALL i fi N) as (t & w1 & res1 & t1 & w2 & dt & TR & FW & C & SA & S & RC & HA & _).
  assert (NR : forall j, (j < i)%nat -> nth_error (map (stage_class (pl_kind p)) (stages (pl_kind p) (pl_numbers p) (pl_fixed_rounds p))) j <> Some ResidualTask).
  { intros j L. apply (not_residual_before _ _ _ i); [exact L|]. apply nth_lt in C. now rewrite map_length in C. }
  pose proof (handed_value o p d (w_fits w) l xs EN n i _ dt NR HA FX) as V. pose proof (fits_model_class _ _ _ FM C) as Q.
  pose proof (fit_made _ _ _ _ _ _ _ _ Q S RC TR FW) as FI. destruct (fit_input_store _ _ _ FI) as (-> & _). now rewrite prepared_val.
Qed.

(** With fixed resonances until stage [i], masses and widths have the values of the start up to that stage. *)
Theorem C39_resonances_wait : forall o p w d res p' w', started p w d -> IterativePipeline_run o (p, w) = (res, (p', w')) ->
  exists l, w_fits w' = w_fits w ++ l /\
    forall i fi n, nth_error l i = Some fi -> fits_model p i -> (Z.of_nat i <= pl_fixed_rounds p)%Z -> resonance_parameter n = true ->
      (i <= length (pl_numbers p))%nat /\ val (fi_store fi) n = val d n /\
      (((Z.of_nat i < pl_fixed_rounds p)%Z /\ ((i < length (pl_numbers p))%nat \/ pl_kind p = NucleonCS)) -> ~ In n (free_names_of (fi_store fi))).
Proof.
  intros o p w d res p' w' ST H. destruct (C39_values_kept _ _ _ _ _ _ _ ST H) as (l & F & V). destruct (C39_schedule _ _ _ _ _ _ _ ST H) as (l' & F' & LE & ME & _).
  assert (l' = l) by (rewrite F in F'; now apply app_inv_head in F'). subst l'. exists l. split; [exact F|].
  assert (FIX : forall j fj n, nth_error l j = Some fj -> fits_model p j -> (Z.of_nat j < pl_fixed_rounds p)%Z ->
     (j < length (pl_numbers p))%nat \/ pl_kind p = NucleonCS -> resonance_parameter n = true -> ~ In n (free_names_of (fi_store fj))).
  { intros j fj n N FM LT KD RP IN. assert (M : exists s, nth_error (stages (pl_kind p) (pl_numbers p) (pl_fixed_rounds p)) j = Some s /\
      meets (pl_kind p) (r_class (pl_parameters p)) (pl_ts p) s fj).
    { clear - N ME LE. remember (stages (pl_kind p) (pl_numbers p) (pl_fixed_rounds p)) as S. clear HeqS. revert j S N ME LE.
      induction l as [|y l IH]; intros [|j] [|s S] N ME LE; try discriminate; cbn [length firstn] in *; try (exfalso; lia).
      - injection N as ->. inversion ME. now exists s.
      - inversion ME. apply (IH j S); [exact N|assumption|lia]. }
    destruct M as (s & NS & MS). destruct (Nat.lt_ge_cases j (length (pl_numbers p))) as [L|L].
    - destruct (nth_error (pl_numbers p) j) as [k|] eqn:NK; [|apply nth_error_None in NK; lia].
      rewrite (stages_round _ _ _ _ _ NK) in NS. injection NS as <-. destruct MS as (_ & _ & _ & _ & SUB & _). apply SUB in IN.
      unfold available in IN. apply filter_In in IN as [_ IN]. apply Z.ltb_lt in LT. rewrite LT, RP in IN. cbn in IN. now rewrite andb_false_r in IN.
    - destruct KD as [KD|KD]; [lia|]. rewrite stages_final in NS by exact L. rewrite KD in NS.
      destruct (j - length (pl_numbers p))%nat as [|[|q]] eqn:E; cbn in NS; [| |destruct q; discriminate].
      + injection NS as <-. destruct MS as (_ & _ & _ & FN & _). rewrite FN in IN. unfold available in IN. apply filter_In in IN as [_ IN].
        assert (j = length (pl_numbers p)) by lia. subst j. apply Z.ltb_lt in LT. rewrite LT, RP in IN. cbn in IN. now rewrite andb_false_r in IN.
      + apply (FM (length (pl_numbers p) + 1)%nat). rewrite stages_final by exact L. rewrite KD, E. reflexivity. }
  intros i fi n N FM LT RP. assert (LI : (i <= length (pl_numbers p))%nat).
  { destruct (Nat.le_gt_cases i (length (pl_numbers p))) as [Q|Q]; [exact Q|exfalso].
    pose proof (nth_lt _ _ _ _ N) as LN. assert (LS : (i < length (stages (pl_kind p) (pl_numbers p) (pl_fixed_rounds p)))%nat) by lia.
    unfold fits_model in FM. rewrite stages_final in FM by lia. unfold stages in LS. rewrite app_length, rounds_length in LS.
    destruct (pl_kind p); cbn [length] in LS; try lia. replace (i - length (pl_numbers p))%nat with 1%nat in FM by lia. now apply (FM (length (pl_numbers p) + 1)%nat). }
  split; [exact LI|]. split; [|intros [A B]; now apply (FIX i fi n)].
  apply (V i fi n N FM). intros j fj L NJ. apply (FIX j fj n NJ); [|lia|left; lia|exact RP].
  intros k Q. unfold fits_model in FM. destruct (nth_error (pl_numbers p) j) as [q|] eqn:NK; [|apply nth_error_None in NK; lia].
  rewrite (stages_round _ _ _ _ _ NK) in Q. discriminate.
Qed.
Print Assumptions C39_values_kept.
Print Assumptions C39_resonances_wait.

(** The hypotheses hold for the pipeline of [C39_instance]: its first fit starts with the values of the store it was given. *)
Example C39_values_instance : exists w1 res p' w' l, started hopeless_pipeline w1 demo_poles /\
  IterativePipeline_run hopeless (hopeless_pipeline, w1) = (res, (p', w')) /\ w_fits w' = w_fits w1 ++ l /\
  exists fi r, l = fi :: r /\ fits_model hopeless_pipeline 0 /\ val (fi_store fi) "a" = 6 /\ val (fi_store fi) "m_2" = 2.
Proof.
  destruct C39_instance as (w1 & b & p' & w' & x & y & z & C & R & F & _). destruct hopeless_built as (w2 & C2 & HL & HF).
  assert (w2 = w1) by congruence. subst w2. pose proof (hopeless_started w1 HL) as ST.
  exists w1, (Ok b), p', w', [x; y; z]. split; [exact ST|]. split; [exact R|]. split; [rewrite HF; exact F|].
  exists x, [y; z]. split; [reflexivity|]. split; [intros k Q; discriminate|].
  destruct (C39_values_kept _ _ _ _ _ _ _ ST R) as (l & FL & V). clear R C C2. rewrite HF, F in FL. cbn [app] in FL. subst l.
  assert (FM : fits_model hopeless_pipeline 0) by (intros k Q; discriminate).
  split; rewrite (V 0%nat x _ eq_refl FM) by (intros; lia); reflexivity.
Qed.
