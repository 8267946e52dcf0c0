(** C55: the measurements given to the constructor of a pipeline are the ones its fits are made to. *)
From Coq Require Import String Ascii Reals ZArith List Bool Arith Lia Lra Permutation.
From Verif Require Import PyBase CNum PyExpr Params ParamClasses ParamSpec ParamProofs PropsParams CommonUtils
  UtilsSpec UtilsProofs Scripts World WorldSpec WorldProofs DataSets PropsScripts PropsData Task TaskSpec TaskProofs PropsTask PropsResidual
  Pipeline PipelineSpec PipelineReports PropsReports PipelineProofs PropsPipeline PropsRuns PropsStarts BoundsProofs.
Import ListNotations.
Local Open Scope R_scope.
Local Open Scope string_scope.
Local Open Scope list_scope.

(** ** Specification *)

(** A measured point: where, value, error. *)
Definition row : Type := (datapoint * R * R)%type.

Definition kaon_rows (charged neutral : list Measurement) : list row :=
  map (fun m => (KaonDatapoint (RtoC (me_t m)) true, me_value m, me_error m)) charged ++
  map (fun m => (KaonDatapoint (RtoC (me_t m)) false, me_value m, me_error m)) neutral.

Definition nucleon_rows (pe pm ne nm : list Measurement) : list row :=
  map (fun m => (NucleonDatapoint (RtoC (me_t m)) true true, me_value m, me_error m)) pe ++
  map (fun m => (NucleonDatapoint (RtoC (me_t m)) true false, me_value m, me_error m)) pm ++
  map (fun m => (NucleonDatapoint (RtoC (me_t m)) false true, me_value m, me_error m)) ne ++
  map (fun m => (NucleonDatapoint (RtoC (me_t m)) false false, me_value m, me_error m)) nm.

(** In the order of time, ties in the given order. *)
Definition in_time_order (rows sorted : list row) : Prop := stable_sort_of (fun x => time_of (fst (fst x))) rows sorted.

Definition charged_row (x : row) : bool := match x with (KaonDatapoint _ b, _, _) => b | _ => false end.

(** The optimiser is given exactly these points, values and errors. *)
Definition fits_on (rows : list row) (fi : FitInput) : Prop :=
  fi_points fi = map (fun x => fst (fst x)) rows /\ fi_values fi = map (fun x => snd (fst x)) rows /\ fi_sigma fi = map snd rows.

(** What the residual fit sees, given the background [y] of every row. *)
Definition with_background (y : row -> R) (x : row) : Measured := mkMeasured (fst (fst x)) (y x) (snd (fst x)) (snd x).
Definition residual_rows (m a : R) (L : list Measured) : list row :=
  map (fun x => (at_momentum m x, residual m a x, residual_error m a x)) (low m L).

(** The constants of a pipeline. *)
Record Constants := mkConstants { k_mass : R; k_alpha : R; k_hc : R }.

(** The fit of a task of class [c], its parameters being those of the store [d]: everything, the charged points only, or,
    in a pipeline for cross sections, what the background leaves over. *)
Definition right_points (kind : pipeline_kind) (k : Constants) (c : task_class) (cl : param_class) (d : data) (sorted : list row) (fi : FitInput) : Prop :=
  match c with
  | ResidualTask =>
      forall y, let L := map (with_background y) sorted in let m := k_mass k in
        passes_masses kind = true -> 0 < m -> k_alpha k <> 0 -> buildable cl d = Ok tt ->
        (forall x, In x sorted -> cross_section_at cl m (k_alpha k) (k_hc k) d (fst (fst x)) = Ok (y x)) ->
        (forall x, In x L -> usable m x) ->
        fits_on (residual_rows m (k_alpha k) L) fi
  | KFF_FullFitOnlyCharged | KFF_FixAccordingOnlyCharged => fits_on (filter charged_row sorted) fi
  | _ => fits_on sorted fi
  end.

(** Between [w] and [w'] the optimiser was called for tasks of the given classes in turn, each on the right points, the
    parameters of a task being the ones the task before it left behind; [xs] are the tasks that have ended. *)
Definition measured_run (kind : pipeline_kind) (k : Constants) (r : Ref) (d : data) (classes : list task_class) (rows : list row)
  (complete : bool) (w w' : World) : Prop :=
  exists sorted l xs, in_time_order rows sorted /\ w_fits w' = w_fits w ++ l /\ (length xs <= length l <= S (length xs))%nat /\
    (length l <= length classes)%nat /\ (complete = true -> length l = length classes) /\
    forall i fi, nth_error l i = Some fi -> exists c cl dt, nth_error classes i = Some c /\ reachable cl dt /\
      handed (r_class r) d xs i cl dt /\ right_points kind k c cl dt sorted fi.

Definition succeeded {A} (x : Res A) : bool := match x with Ok _ => true | Err _ => false end.

(** ** Proofs *)

Lemma charged_rows_filter : forall rows r, charged_rows rows = Ok r -> r = filter charged_row rows.
Proof.
  induction rows as [|[[p y] e] rows IH]; intros r H; [now injection H as <-|]. cbn [charged_rows] in H.
  destruct p as [t c| |]; try discriminate. destruct (charged_rows rows) as [r'|]; [|discriminate]. cbn [bind] in H. injection H as <-.
  cbn [filter charged_row]. now rewrite (IH r' eq_refl).
Qed.

Lemma zipped_zip3 : forall ts ys es, zipped ts ys es = zip3 ts ys es.
Proof. induction ts as [|t ts IH]; intros [|y ys] [|e es]; cbn; try reflexivity. now rewrite IH. Qed.

Lemma zip3_parts : forall (ts : list datapoint) (ys es : list R), length ys = length ts -> length es = length ts ->
  map (fun x : row => fst (fst x)) (zip3 ts ys es) = ts /\ map (fun x : row => snd (fst x)) (zip3 ts ys es) = ys /\ map snd (zip3 ts ys es) = es.
Proof.
  induction ts as [|t ts IH]; intros [|y ys] [|e es] L1 L2; try discriminate; [repeat split|].
  cbn in L1, L2. destruct (IH ys es) as (A & B & C); [lia|lia|]. cbn [zip3 map fst snd]. now rewrite A, B, C.
Qed.

Definition one_sort (rows : list row) : Prop :=
  (forall x, In x rows -> is_kaon (fst (fst x))) \/ (forall x, In x rows -> is_nucleon (fst (fst x))).

Section TaskFit.
Variables (o : Oracle) (p : Pipeline) (t : Task) (w1 : World) (res : Res Ref) (t1 : Task) (w2 : World) (dt : data) (fi : FitInput).
Hypothesis RUN : Task_run o (t, w1) = (res, (t1, w2)).
Hypothesis FIT : w_fits w2 = w_fits w1 ++ [fi].
Hypothesis SA : starts_as p t.
Hypothesis S : nth_error (w_lists w1) (r_data (tk_parameters t)) = Some dt.
Hypothesis RC : reachable (r_class (tk_parameters t)) dt.
Hypothesis L1 : length (pl_ys p) = length (pl_ts p).
Hypothesis L2 : length (pl_errors p) = length (pl_ts p).
Let sorted := zip3 (pl_ts p) (pl_ys p) (pl_errors p).
Hypothesis OS : one_sort sorted.

Lemma plain_fit : tk_class t <> ResidualTask -> fits_on (if charged_only (tk_class t) then filter charged_row sorted else sorted) fi.
Proof.
  intros NR. pose proof (fit_made _ _ _ _ _ _ _ _ NR S RC RUN FIT) as F. destruct SA as [_ (T & Y & E) _ _ _ _].
  unfold fit_input, fit_data in F. rewrite T, Y, E in F. destruct (charged_only (tk_class t)).
  - rewrite zipped_zip3 in F. fold sorted in F. destruct (charged_rows sorted) as [r|] eqn:CR; [|discriminate]. apply charged_rows_filter in CR. subst r.
    cbn [bind] in F. set (k := filter charged_row sorted) in *. clearbody k.
    assert (X : exists b, fi = mkFitInput (tk_name t) (r_class (tk_parameters t)) (prepared (tk_class t) (r_class (tk_parameters t)) dt)
        (map (fun x => fst (fst x)) k) (map (fun x => snd (fst x)) k) (map snd k) (free_values (prepared (tk_class t) (r_class (tk_parameters t)) dt)) b).
    { destruct k as [|x k]; [discriminate|]. cbn [bind] in F. destruct (get_bounds _ _ _) as [b|]; [|discriminate]. cbn [bind] in F. injection F as <-. now exists b. }
    destruct X as (b & ->). repeat split.
  - cbn [bind] in F. destruct (get_bounds _ _ _) as [b|]; [|discriminate]. cbn [bind] in F. injection F as <-.
    destruct (zip3_parts _ _ _ L1 L2) as (A & B & C). unfold fits_on, sorted. cbn [fi_points fi_values fi_sigma].
    split; [exact (eq_sym A)|split; [exact (eq_sym B)|exact (eq_sym C)]].
Qed.

Lemma residual_points : tk_class t = ResidualTask -> right_points (pl_kind p) (mkConstants (pl_mass p) (pl_alpha p) (pl_hc_squared p)) ResidualTask (r_class (tk_parameters t)) dt sorted fi.
Proof.
  intros K. cbn [right_points k_mass k_alpha k_hc]. intros y PM Hm Ha BU CS US. cbv zeta in *. set (L := map (with_background y) sorted) in *. destruct SA as [(T & Y & E) _ _ _ MA NU].
  destruct (MA PM) as (M1 & M2 & M3). destruct (zip3_parts _ _ _ L1 L2) as (A & B & C). fold sorted in A, B, C.
  assert (RR : residual_run o t w1 dt L res t1 w2).
  { split; auto.
    - now rewrite M1.
    - now rewrite M2.
    - unfold measures, L. rewrite !map_map. cbn [with_background ms_point ms_value ms_error]. change (map (fun x : row => snd x) sorted) with (map snd sorted). rewrite A, B, C, M1, M2, M3.
      repeat (split; [assumption|]). split; [rewrite NU, PM; reflexivity|]. intros x I. apply in_map_iff in I as (z & <- & I). now apply CS.
    - destruct OS as [O|O]; [left|right]; intros x I; apply in_map_iff in I as (z & <- & I); now apply O.
    - now rewrite M1. }
  destruct (C54_fit_input _ _ _ _ _ _ _ _ RR) as [X1 X2]. rewrite M1, M2 in *.
  destruct (low (pl_mass p) L) as [|x0 rest] eqn:LE.
  - destruct X1 as (_ & _ & F & _); [reflexivity|]. exfalso. rewrite F in FIT. apply (f_equal (@length _)) in FIT. rewrite app_length in FIT. cbn in FIT. lia.
  - destruct X2 as (F & _); [discriminate|]. rewrite F in FIT. apply app_inv_head in FIT. injection FIT as <-.
    unfold residual_rows, fits_on, residual_input. cbn [fi_points fi_values fi_sigma]. rewrite !map_map, M1, M2. cbn [fst snd]. repeat split; reflexivity.
Qed.

Lemma any_points : right_points (pl_kind p) (mkConstants (pl_mass p) (pl_alpha p) (pl_hc_squared p)) (tk_class t) (r_class (tk_parameters t)) dt sorted fi.
Proof.
  assert (CK : tk_class t = ResidualTask \/ tk_class t <> ResidualTask) by (destruct (tk_class t); (now left) || (right; discriminate)).
  destruct CK as [K|K]; [rewrite K; now apply residual_points|]. pose proof (plain_fit K) as F. destruct (tk_class t); try exact F. now destruct K.
Qed.
End TaskFit.

(** A fit and the task that made it. *)
Definition made_by (o : Oracle) (p : Pipeline) (d : data) (classes : list task_class) (xs : list Ended) (i : nat) (fi : FitInput) : Prop :=
  exists t w1 res1 t1 w2 dt, Task_run o (t, w1) = (res1, (t1, w2)) /\
    w_fits w2 = w_fits w1 ++ [fi] /\ nth_error classes i = Some (tk_class t) /\ starts_as p t /\
    nth_error (w_lists w1) (r_data (tk_parameters t)) = Some dt /\ reachable (r_class (tk_parameters t)) dt /\
    handed (r_class (pl_parameters p)) d xs i (r_class (tk_parameters t)) dt.

Lemma snoc_firstn : forall A (l : list A) i x, nth_error l i = Some x -> firstn (S i) l = firstn i l ++ [x].
Proof. induction l as [|y l IH]; intros [|i] x N; try discriminate; [now injection N as ->|]. cbn [firstn app]. f_equal. exact (IH i x N). Qed.

Lemma ended_made : forall o p d classes before l xs i fi, ended o p d classes before l xs -> nth_error l i = Some fi -> (i < length xs)%nat ->
  made_by o p d classes xs i fi.
Proof.
  intros o p d classes before l xs i fi EN N L. destruct (nth_error xs i) as [x|] eqn:NX; [|apply nth_error_None in NX; lia].
  destruct (EN i x NX) as (t & w1 & r & fi' & A1 & A2 & A3 & A4 & A5 & A6 & A7 & A8 & A9 & dt & B1 & B2 & B3).
  rewrite N in A3. injection A3 as <-. exists t, w1, (Ok r), (en_task x), (en_world x), dt. split; [exact A1|].
  split; [rewrite A5, A6, <- app_assoc; f_equal; now apply snoc_firstn|]. now repeat (split; [assumption|]).
Qed.

Lemma plain_every_fit : forall o p w d res p' w', started p w d -> Pipeline_run o (p, w) = (res, (p', w')) ->
  exists l xs, w_fits w' = w_fits w ++ l /\ (length xs <= length l <= S (length xs))%nat /\
    (succeeded res = true -> length l = length (pl_tasks p)) /\
    forall i fi, nth_error l i = Some fi -> made_by o p d (pl_tasks p) xs i fi.
Proof.
  intros o p w d res p' w' ST H. pose proof (plain_run_J o p w d (p, w) (started_J _ _ _ _ _ _ _ ST I)) as X. rewrite H in X.
  destruct res as [b|e].
  - destruct X as (_ & l & xs & HJ & L1 & L2). exists l, xs. split; [exact (j_fits _ _ _ _ _ _ _ _ _ _ _ HJ)|]. split; [lia|]. split; [now intros _|].
    intros i fi N. eapply ended_made; [apply traced_ended; exact (j_trace _ _ _ _ _ _ _ _ _ _ _ HJ)|exact N|]. apply nth_lt in N. lia.
  - destruct X as (_ & [R|(_ & l & xs & F & L & T)]).
    + apply raised_ended in R. destruct R as (t & w1 & t' & l1 & xs & dt & TR & F1 & L1 & EN & C & SA & S1 & RC1 & HA). cbn [snd] in *.
      pose proof SA as [_ _ (R1 & R2 & R3) _ _ _].
      destruct (run_any o t w1 dt _ t' w' S1 (reachable_inv _ _ RC1) R1 R2 TR) as [_ _ _ _ _ _ (fs & Q1 & Q2 & _ & _) _ _ _ _].
      exists (l1 ++ fs), xs. split; [rewrite Q1, F1; now rewrite <- app_assoc|]. split; [rewrite app_length; lia|]. split; [discriminate|]. intros i fi N.
      destruct (Nat.lt_ge_cases i (length l1)) as [L|L].
      * rewrite nth_error_app1 in N by exact L. eapply ended_made; [exact EN|exact N|lia].
      * assert (i = length l1) by (pose proof (nth_lt _ _ _ _ N) as Z; rewrite app_length in Z; lia). subst i.
        rewrite nth_error_app2, Nat.sub_diag in N by lia. destruct fs as [|y [|? ?]]; try discriminate; [|cbn in Q2; lia]. injection N as ->.
        exists t, w1, (Err e), t', w', dt. now repeat (split; [assumption|]).
    + exists l, xs. split; [exact F|]. split; [lia|]. split; [discriminate|]. intros i fi N.
      eapply ended_made; [apply traced_ended; exact T|exact N|]. apply nth_lt in N. lia.
Qed.

Lemma iterative_every_fit : forall o p w d res p' w', started p w d -> IterativePipeline_run o (p, w) = (res, (p', w')) ->
  let classes := map (stage_class (pl_kind p)) (stages (pl_kind p) (pl_numbers p) (pl_fixed_rounds p)) in
  exists l xs, w_fits w' = w_fits w ++ l /\ (length xs <= length l <= S (length xs))%nat /\
    (succeeded res = true -> length l = length classes) /\
    forall i fi, nth_error l i = Some fi -> made_by o p d classes xs i fi.
Proof.
  intros o p w d res p' w' ST H classes. destruct (C39_every_fit _ _ _ _ _ _ _ ST H) as (l & xs & F & _ & L & A). exists l, xs.
  split; [exact F|]. split; [exact L|]. split.
  - intros OK. destruct (C39_schedule _ _ _ _ _ _ _ ST H) as (l' & F' & _ & _ & B). rewrite F in F'. apply app_inv_head in F'. subst l'.
    destruct res; [|discriminate]. unfold classes. now rewrite map_length.
  - intros i fi N. destruct (A i fi N) as (t & w1 & r1 & t1 & w2 & dt & A1 & A2 & A3 & A4 & A5 & A6 & A7 & _).
    exists t, w1, r1, t1, w2, dt. now repeat (split; [assumption|]).
Qed.

Lemma built_constants : forall o kind name r tasks x m a hc dir plot hp numbers limit w p w1,
  Pipeline_init o kind name r tasks x m a hc dir plot hp numbers limit w = (Ok p, w1) -> pl_mass p = m /\ pl_alpha p = a /\ pl_hc_squared p = hc.
Proof.
  intros o kind name r tasks x m a hc dir plot hp numbers limit w p w1 H.
  unfold Pipeline_init, mbind, lift in H. destruct x as [[[ts' ys'] es']|e]; [|discriminate].
  unfold set_up_reports_directory in H. destruct (_ || _)%bool; [discriminate|]. destruct (o_mkdir _ _); [|discriminate]. cbn in H.
  injection H as <- _. now repeat split.
Qed.

Lemma sort_keeps_one : forall rows sorted, in_time_order rows sorted -> one_sort rows -> one_sort sorted.
Proof. intros rows sorted (P & _) [O|O]; [left|right]; intros x I; apply O; exact (Permutation_in x (Permutation_sym P) I). Qed.

Lemma measured : forall o kind name r tasks x m a hc dir plot hp numbers limit w p w1 d rows classes w' complete,
  (exists ts ys es, x = sort_rows ts ys es) -> prepares x rows -> one_sort rows ->
  nth_error (w_lists w) (r_data r) = Some d -> reachable (r_class r) d ->
  Pipeline_init o kind name r tasks x m a hc dir plot hp numbers limit w = (Ok p, w1) ->
  (exists l xs, w_fits w' = w_fits w1 ++ l /\ (length xs <= length l <= S (length xs))%nat /\ (complete = true -> length l = length classes) /\
    forall i fi, nth_error l i = Some fi -> made_by o p d classes xs i fi) ->
  measured_run kind (mkConstants m a hc) r d classes rows complete w w'.
Proof.
  intros o kind name r tasks x m a hc dir plot hp numbers limit w p w1 d rows classes w' complete SR PR OS S RC H (l & xs & F & L & LC & M).
  destruct (built_started _ _ _ _ _ _ _ _ _ _ _ _ _ _ _ _ _ _ SR S RC H) as (ST & K & _ & P & _ & _ & _ & X & F0 & _).
  destruct (built_constants _ _ _ _ _ _ _ _ _ _ _ _ _ _ _ _ _ H) as (M1 & M2 & M3).
  destruct PR as [(_ & E)|(_ & ts & ys & es & E & L1 & L2 & SO)]; [rewrite X in E; discriminate|].
  rewrite X in E. injection E as <- <- <-. exists (zip3 (pl_ts p) (pl_ys p) (pl_errors p)), l, xs.
  split; [exact SO|]. split; [congruence|]. split; [exact L|]. split.
  { destruct l as [|y l] using rev_ind; [cbn; lia|]. clear IHl. destruct (M (length l) y) as (t & ? & ? & ? & ? & ? & _ & _ & N & _).
    - rewrite nth_error_app2, Nat.sub_diag by lia. reflexivity.
    - apply nth_lt in N. rewrite app_length. cbn. lia. }
  split; [exact LC|]. intros i fi N. destruct (M i fi N) as (t & v1 & r1 & t1 & w2 & dt & A1 & A2 & A3 & A4 & A5 & A6 & A7).
  exists (tk_class t), (r_class (tk_parameters t)), dt. split; [exact A3|]. split; [exact A6|]. split; [now rewrite <- P|].
  rewrite <- K, <- M1, <- M2, <- M3. eapply any_points; eauto. eapply sort_keeps_one; eassumption.
Qed.

Lemma kaon_one : forall charged neutral, one_sort (kaon_rows charged neutral).
Proof. intros c n. left. intros x I. unfold kaon_rows in I. rewrite in_app_iff, !in_map_iff in I. destruct I as [(m & <- & _)|(m & <- & _)]; exact I || now cbn. Qed.
Lemma nucleon_one : forall pe pm ne nm, one_sort (nucleon_rows pe pm ne nm).
Proof.
  intros pe pm ne nm. right. intros x I. unfold nucleon_rows in I. rewrite !in_app_iff, !in_map_iff in I.
  destruct I as [(m & <- & _)|[(m & <- & _)|[(m & <- & _)|(m & <- & _)]]]; now cbn.
Qed.

(** ** C55 *)

(** The stages of an iterative pipeline, by class of task. *)
Definition iterative_classes (kind : pipeline_kind) (counts repetitions : list Z) (limit : Z) : list task_class :=
  map (stage_class kind) (stages kind (concat (map (fun x => repeat (fst x) (Z.to_nat (snd x))) (combine counts repetitions))) limit).

Theorem C55_kaon_pipelines : forall o kind name r tasks charged neutral m a hc dir plot hp w p w1 d res p' w',
  nth_error (w_lists w) (r_data r) = Some d -> reachable (r_class r) d ->
  KaonPipeline_init o kind name r tasks (map me_t charged) (map me_value charged) (map me_error charged)
    (map me_t neutral) (map me_value neutral) (map me_error neutral) m a hc dir plot hp w = (Ok p, w1) ->
  Pipeline_run o (p, w1) = (res, (p', w')) ->
  measured_run kind (mkConstants m a hc) r d tasks (kaon_rows charged neutral) (succeeded res) w w'.
Proof.
  intros o kind name r tasks charged neutral m a hc dir plot hp w p w1 d res p' w' S RC H R. unfold KaonPipeline_init in H.
  assert (SR : exists ts ys es, prepare_data_kaon (map me_t charged) (map me_value charged) (map me_error charged)
    (map me_t neutral) (map me_value neutral) (map me_error neutral) = sort_rows ts ys es) by (unfold prepare_data_kaon; now repeat eexists).
  destruct (built_started _ _ _ _ _ _ _ _ _ _ _ _ _ _ _ _ _ _ SR S RC H) as (ST & _ & _ & _ & T & _).
  eapply measured; [exact SR|apply C37_kaon_data|apply kaon_one|exact S|exact RC|exact H|]. rewrite <- T. exact (plain_every_fit _ _ _ _ _ _ _ ST R).
Qed.
Print Assumptions C55_kaon_pipelines.

Theorem C55_nucleon_pipelines : forall o kind name r tasks pe pm ne nm m a hc dir plot hp w p w1 d res p' w',
  nth_error (w_lists w) (r_data r) = Some d -> reachable (r_class r) d ->
  NucleonPipeline_init o kind name r tasks (map me_t pe) (map me_value pe) (map me_error pe) (map me_t pm) (map me_value pm) (map me_error pm)
    (map me_t ne) (map me_value ne) (map me_error ne) (map me_t nm) (map me_value nm) (map me_error nm) m a hc dir plot hp w = (Ok p, w1) ->
  Pipeline_run o (p, w1) = (res, (p', w')) ->
  measured_run kind (mkConstants m a hc) r d tasks (nucleon_rows pe pm ne nm) (succeeded res) w w'.
Proof.
  intros o kind name r tasks pe pm ne nm m a hc dir plot hp w p w1 d res p' w' S RC H R. unfold NucleonPipeline_init in H.
  assert (SR : exists ts ys es, prepare_data_nucleon (map me_t pe) (map me_value pe) (map me_error pe) (map me_t pm) (map me_value pm) (map me_error pm)
    (map me_t ne) (map me_value ne) (map me_error ne) (map me_t nm) (map me_value nm) (map me_error nm) = sort_rows ts ys es)
    by (unfold prepare_data_nucleon; now repeat eexists).
  destruct (built_started _ _ _ _ _ _ _ _ _ _ _ _ _ _ _ _ _ _ SR S RC H) as (ST & _ & _ & _ & T & _).
  eapply measured; [exact SR|apply C37_nucleon_data|apply nucleon_one|exact S|exact RC|exact H|]. rewrite <- T. exact (plain_every_fit _ _ _ _ _ _ _ ST R).
Qed.
Print Assumptions C55_nucleon_pipelines.

Theorem C55_kaon_iterative : forall o kind name r charged neutral m a hc dir plot hp counts repetitions limit w p w1 d res p' w',
  nth_error (w_lists w) (r_data r) = Some d -> reachable (r_class r) d ->
  IterativePipeline_init o kind name r (prepare_data_kaon (map me_t charged) (map me_value charged) (map me_error charged)
    (map me_t neutral) (map me_value neutral) (map me_error neutral)) m a hc dir plot hp counts repetitions limit w = (Ok p, w1) ->
  IterativePipeline_run o (p, w1) = (res, (p', w')) ->
  measured_run kind (mkConstants m a hc) r d (iterative_classes kind counts repetitions limit) (kaon_rows charged neutral) (succeeded res) w w'.
Proof.
  intros o kind name r charged neutral m a hc dir plot hp counts repetitions limit w p w1 d res p' w' S RC H R. unfold IterativePipeline_init in H.
  assert (SR : exists ts ys es, prepare_data_kaon (map me_t charged) (map me_value charged) (map me_error charged)
    (map me_t neutral) (map me_value neutral) (map me_error neutral) = sort_rows ts ys es) by (unfold prepare_data_kaon; now repeat eexists).
  destruct (built_started _ _ _ _ _ _ _ _ _ _ _ _ _ _ _ _ _ _ SR S RC H) as (ST & K & _ & _ & _ & N & L & _).
  eapply measured; [exact SR|apply C37_kaon_data|apply kaon_one|exact S|exact RC|exact H|].
  unfold iterative_classes. rewrite <- (proj1 (C39_requested_numbers counts repetitions)), <- N, <- L, <- K. exact (iterative_every_fit _ _ _ _ _ _ _ ST R).
Qed.
Print Assumptions C55_kaon_iterative.

Theorem C55_nucleon_iterative : forall o kind name r pe pm ne nm m a hc dir plot hp counts repetitions limit w p w1 d res p' w',
  nth_error (w_lists w) (r_data r) = Some d -> reachable (r_class r) d ->
  IterativePipeline_init o kind name r (prepare_data_nucleon (map me_t pe) (map me_value pe) (map me_error pe)
    (map me_t pm) (map me_value pm) (map me_error pm) (map me_t ne) (map me_value ne) (map me_error ne)
    (map me_t nm) (map me_value nm) (map me_error nm)) m a hc dir plot hp counts repetitions limit w = (Ok p, w1) ->
  IterativePipeline_run o (p, w1) = (res, (p', w')) ->
  measured_run kind (mkConstants m a hc) r d (iterative_classes kind counts repetitions limit) (nucleon_rows pe pm ne nm) (succeeded res) w w'.
Proof.
  intros o kind name r pe pm ne nm m a hc dir plot hp counts repetitions limit w p w1 d res p' w' S RC H R. unfold IterativePipeline_init in H.
  assert (SR : exists ts ys es, prepare_data_nucleon (map me_t pe) (map me_value pe) (map me_error pe) (map me_t pm) (map me_value pm) (map me_error pm)
    (map me_t ne) (map me_value ne) (map me_error ne) (map me_t nm) (map me_value nm) (map me_error nm) = sort_rows ts ys es)
    by (unfold prepare_data_nucleon; now repeat eexists).
  destruct (built_started _ _ _ _ _ _ _ _ _ _ _ _ _ _ _ _ _ _ SR S RC H) as (ST & K & _ & _ & _ & N & L & _).
  eapply measured; [exact SR|apply C37_nucleon_data|apply nucleon_one|exact S|exact RC|exact H|].
  unfold iterative_classes. rewrite <- (proj1 (C39_requested_numbers counts repetitions)), <- N, <- L, <- K. exact (iterative_every_fit _ _ _ _ _ _ _ ST R).
Qed.
Print Assumptions C55_nucleon_iterative.

(** ** An instance: a proton and a neutron data set, one random round and the full fit, an optimiser that gives up *)

Definition demo_pe : list Measurement := [mkMeasurement 2 12 1].
Definition demo_nm : list Measurement := [mkMeasurement 2 7 3; mkMeasurement 1 5 (1/2)].
Definition demo_prepared : Res Prepared := prepare_data_nucleon (map me_t demo_pe) (map me_value demo_pe) (map me_error demo_pe)
  [] [] [] [] [] [] (map me_t demo_nm) (map me_value demo_nm) (map me_error demo_nm).

Lemma demo_prepared_eq : demo_prepared = Ok
  ([NucleonDatapoint (RtoC 1) false false; NucleonDatapoint (RtoC 2) true true; NucleonDatapoint (RtoC 2) false false], [5; 12; 7], [1/2; 1; 3]).
Proof.
  unfold demo_prepared, prepare_data_nucleon, sort_rows, demo_pe, demo_nm. cbn [map app zip3 me_t me_value me_error]. unfold sorted_by. cbn [fold_right].
  repeat (cbn [insert_by]; match goal with |- context [Rle_dec ?a ?b] =>
    let x := fresh in destruct (Rle_dec a b) as [x|x]; unfold row_key in x; simpl in x; try (exfalso; lra) end).
  reflexivity.
Qed.

Lemma gives_up : forall p t w d, starts_as p t -> pl_handpicked p = true -> In (tk_class t) [NFF_FixAccording; NFF_FullFit] ->
  nth_error (w_lists w) (r_data (tk_parameters t)) = Some d -> reachable (r_class (tk_parameters t)) d ->
  exists t' w', Task_run hopeless (t, w) = (Ok (tk_parameters t), (t', w')).
Proof.
  intros p t w d ST HP0 TC S RC. destruct ST as [_ _ _ SS _ _]. destruct SS as (_ & _ & HP).
  { right. destruct TC as [<-|[<-|[]]]; reflexivity. } rewrite HP0 in HP.
  assert (RD : ready t w d). { split; [exact S|]. split; [exact RC|]. intros Q. rewrite Q in TC. cbn in TC. intuition discriminate. }
  assert (CO : charged_only (tk_class t) = false) by (destruct TC as [<-|[<-|[]]]; reflexivity).
  destruct (C34_runtime_error hopeless t w d RD) as (t' & w' & E & _).
  - unfold fit_result, fit_input, fit_data. rewrite CO, HP. cbn [bind].
    destruct (get_bounds_total (r_class (tk_parameters t)) true (prepared (tk_class t) (r_class (tk_parameters t)) d)) as (b & -> & _).
    + apply prepared_inv. now apply reachable_inv.
    + discriminate.
    + reflexivity.
  - now exists t', w'.
Qed.

Example C55_instance : exists p w1 b p' w' x y,
  IterativePipeline_init hopeless NucleonFF "demo" (mkRef PTwoPoles 0%nat) demo_prepared 0 0 0 "out" false true [2]%Z [1]%Z 0
    demo_world = (Ok p, w1) /\
  IterativePipeline_run hopeless (p, w1) = (Ok b, (p', w')) /\ w_fits w' = [x; y] /\
  (forall z, z = x \/ z = y ->
     fi_points z = [NucleonDatapoint (RtoC 1) false false; NucleonDatapoint (RtoC 2) true true; NucleonDatapoint (RtoC 2) false false] /\
     fi_values z = [5; 12; 7] /\ fi_sigma z = [1/2; 1; 3]).
Proof.
  destruct (IterativePipeline_init hopeless NucleonFF "demo" (mkRef PTwoPoles 0%nat) demo_prepared 0 0 0 "out" false true [2]%Z [1]%Z 0 demo_world)
    as [rp w1] eqn:B.
  assert (OKB : exists p, rp = Ok p /\ pl_handpicked p = true).
  { rewrite demo_prepared_eq in B. unfold IterativePipeline_init, Pipeline_init, mbind, lift in B.
    unfold set_up_reports_directory in B. cbn in B. injection B as <- _. eexists. split; reflexivity. }
  destruct OKB as (p & -> & HP). exists p, w1.
  assert (SR : exists ts ys es, demo_prepared = sort_rows ts ys es) by (unfold demo_prepared, prepare_data_nucleon; now repeat eexists).
  destruct (built_started _ _ _ _ _ _ _ _ _ _ _ _ _ _ _ _ _ _ SR (eq_refl : nth_error (w_lists demo_world) (r_data (mkRef PTwoPoles 0%nat)) = Some demo_poles)
    demo_poles_reachable B) as (ST & K & _ & P & _ & N & L & X & F & _).
  destruct (IterativePipeline_run hopeless (p, w1)) as [res [p' w']] eqn:E.
  pose proof (C55_nucleon_iterative hopeless NucleonFF "demo" (mkRef PTwoPoles 0%nat) demo_pe [] [] demo_nm 0 0 0 "out" false true [2]%Z [1]%Z 0 demo_world p w1
    demo_poles res p' w' eq_refl demo_poles_reachable B E) as (sorted & l & xs & SO & FL & _ & _ & LC & M).
  assert (OK : exists b, res = Ok b).
  { destruct (C39_schedule _ _ _ _ _ _ _ ST E) as (l' & _ & _ & _ & A4). destruct res as [b|e]; [now exists b|exfalso]. clear E. rewrite K, N, L in A4. destruct A4 as [R|(s & I & IM)].
    - destruct R as (t & w & t' & k & zs & dt & TR & _ & _ & _ & NT & SA & S1 & RC & _).
      destruct (gives_up p t w dt SA HP) as (t2 & w2 & E2); [|exact S1|exact RC|congruence].
      apply nth_error_In in NT. cbn in NT. cbn. tauto.
    - rewrite P in IM. cbn in I. destruct I as [<-|[<-|[]]]; cbn in IM.
      + destruct IM as [(_ & Q & _)|(_ & Q)]; [discriminate|lia].
      + destruct IM as (_ & Q & _). discriminate. }
  destruct OK as (b & ->). specialize (LC eq_refl). change (length (iterative_classes NucleonFF [2]%Z [1]%Z 0)) with 2%nat in LC.
  destruct l as [|x [|y [|? ?]]]; try discriminate LC. exists b, p', w', x, y. split; [exact eq_refl|]. split; [exact eq_refl|]. split; [exact FL|].
  assert (SE : sorted = [(NucleonDatapoint (RtoC 1) false false, 5, 1/2); (NucleonDatapoint (RtoC 2) true true, 12, 1); (NucleonDatapoint (RtoC 2) false false, 7, 3)]).
  { pose proof (C37_nucleon_data demo_pe [] [] demo_nm) as PR. change (prepare_data_nucleon _ _ _ _ _ _ _ _ _ _ _ _) with demo_prepared in PR.
    rewrite demo_prepared_eq in PR. destruct PR as [(Q & _)|(_ & ts & ys & es & Q & _ & _ & S2)]; [discriminate|]. injection Q as <- <- <-.
    exact (stable_sort_unique _ _ _ _ _ SO S2). }
  subst sorted. intros z [->| ->].
  - destruct (M O x eq_refl) as (c & cl & dt & C & _ & _ & RP). injection C as <-. exact RP.
  - destruct (M 1%nat y eq_refl) as (c & cl & dt & C & _ & _ & RP). injection C as <-. exact RP.
Qed.
