(** C36: best fit of a pipeline.  C39: schedule of the iterative pipelines. *)
From Coq Require Import String Ascii Reals ZArith List Bool Arith Lia Lra.
From Verif Require Import PyBase CNum PyExpr Params ParamClasses ParamSpec ParamProofs PropsParams CommonUtils World WorldProofs DataSets
  Task TaskSpec TaskProofs PropsTask Pipeline PipelineSpec PipelineReports PipelineFreeze PropsReports PipelineProofs.
Import ListNotations.
Local Open Scope string_scope.
Local Open Scope list_scope.
Local Open Scope m_scope.

#[local] Arguments String.append : simpl never.

(** A pipeline as it leaves the constructor. *)
Definition started (p : Pipeline) (w : World) (d : data) : Prop :=
  holds p w d /\ pl_best p = no_fit /\ length (pl_ys p) = length (pl_ts p) /\ length (pl_errors p) = length (pl_ts p).

Lemma sort_rows_lengths : forall ts ys es a b c, sort_rows ts ys es = Ok (a, b, c) -> length b = length a /\ length c = length a.
Proof.
  intros ts ys es a b c H. unfold sort_rows in H. destruct (sorted_by _ _); [discriminate|]. injection H as <- <- <-.
  cbn [length]. now rewrite !map_length.
Qed.

Lemma built_started : forall o kind name r tasks x m a hc dir plot hp numbers limit w p w1 d,
  (exists ts ys es, x = sort_rows ts ys es) -> nth_error (w_lists w) (r_data r) = Some d -> reachable (r_class r) d ->
  Pipeline_init o kind name r tasks x m a hc dir plot hp numbers limit w = (Ok p, w1) ->
  started p w1 d /\ pl_kind p = kind /\ pl_name p = name /\ pl_parameters p = r /\ pl_tasks p = tasks /\ pl_numbers p = numbers /\
  pl_fixed_rounds p = limit /\ x = Ok (pl_ts p, pl_ys p, pl_errors p) /\ w_fits w1 = w_fits w /\ w_lists w1 = w_lists w.
Proof.
  intros o kind name r tasks x m a hc dir plot hp numbers limit w p w1 d (ts & ys & es & X) S RC H.
  pose proof (C38_constructor _ _ _ _ _ _ _ _ _ _ _ _ _ _ _ _ _ H) as [(F & _)|(_ & _ & _ & E)]; [exfalso; apply F; now eexists|].
  unfold Pipeline_init, mbind, lift in H. destruct x as [[[ts' ys'] es']|e] eqn:EX; [|discriminate].
  symmetry in X. apply sort_rows_lengths in X as [L1 L2].
  unfold set_up_reports_directory in H. destruct (_ || _)%bool; [discriminate|]. destruct (o_mkdir _ _); [|discriminate]. cbn in H.
  injection H as <- _. subst w1. cbn. repeat split; assumption.
Qed.

(** ** Plain pipelines *)

Lemma enumerate_nth : forall A (l : list A) i k, nth_error (enumerate_from i l) k = match nth_error l k with Some x => Some ((i + k)%nat, x) | None => None end.
Proof.
  induction l as [|x l IH]; intros i [|k]; try reflexivity.
  - cbn. now rewrite Nat.add_0_r.
  - cbn [enumerate_from nth_error]. rewrite IH. now rewrite <- plus_n_Sm.
Qed.

Section Plain.
Variables (o : Oracle) (p0 : Pipeline) (w0 : World) (d0 : data).

Definition plain_stage (i : nat) (x : FitInput) : Prop :=
  exists c, nth_error (pl_tasks p0) i = Some c /\ fi_task x = ("Task#" ++ str_nat i ++ ":" ++ class_name c)%string.

Definition listed (i : nat) (c : task_class) : Prop := nth_error (pl_tasks p0) i = Some c.

Definition foreign (e : exn) : Prop := e = TypeError /\ exists c, In c (pl_tasks p0) /\ fits_kind (pl_kind p0) c = false.

Let JP := J o p0 w0 (fun _ => True) plain_stage listed d0.
Let bad := Bad o p0 w0 plain_stage listed d0 foreign.

Definition At (i : nat) (s : Pipeline * World) : Prop := exists l xs, JP l xs s /\ length l = i /\ length xs = i.

Lemma plain_round_J : forall i c, nth_error (pl_tasks p0) i = Some c -> htriple (At i) (plain_round o (i, c)) (fun _ => At (S i)) bad.
Proof.
  intros i c N s (l & xs & HJ & L1 & L2). revert s HJ.
  match goal with |- forall s, _ -> ?G => change (htriple (JP l xs) (plain_round o (i, c)) (fun _ => At (S i)) bad) end.
  unfold plain_round. eapply htriple_bind; [apply show_J|]. intros text. eapply htriple_bind; [apply log_J|]. intros u. cbv zeta.
  intros s HJ. destruct (j_store _ _ _ _ _ _ _ _ _ _ _ HJ) as (d & D). revert s HJ D.
  match goal with |- forall s, _ -> _ -> match ?m s with _ => _ end => enough (X : htriple (fun s => JP l xs s /\ with_store_of d s) m (fun _ => At (S i)) bad)
    by (intros s HJ D; exact (X s (conj HJ D))) end.
  apply task_J with (K := fun task => mutate_parameters MReleaseAll ;;; flush_report ;;; save_report o (str_nat i) (tk_report task)).
  - congruence.
  - unfold listed. now rewrite L1.
  - intros cl x _ A. exists c. rewrite L1. split; [exact N|apply A].
  - intros FK. split; [reflexivity|]. exists c. split; [eapply nth_error_In; exact N|exact FK].
  - intros _. exact I.
  - intros t. eapply htriple_bind; [apply release_noted|]. intros u2.
    eapply htriple_weaken; [apply close_J| | |]; [intros s H; exact H| |intros e s H; exact H].
    intros u3 s (fi & x & HJ). exists (l ++ [fi]), (xs ++ [x]). split; [exact HJ|]. rewrite !app_length. simpl. lia.
Qed.

Lemma plain_rounds_J : forall cs i, (forall k c, nth_error cs k = Some c -> nth_error (pl_tasks p0) (i + k) = Some c) ->
  htriple (At i) (mfor (enumerate_from i cs) (plain_round o)) (fun _ => At (i + length cs)) bad.
Proof.
  induction cs as [|c cs IH]; intros i H; cbn [enumerate_from mfor length].
  - apply htriple_ret. intros s A. now rewrite Nat.add_0_r.
  - eapply htriple_bind; [apply plain_round_J|].
    + specialize (H O c eq_refl). now rewrite Nat.add_0_r in H.
    + intros u. eapply htriple_weaken; [apply (IH (S i))| | |].
      * intros k c' N. rewrite Nat.add_succ_comm. exact (H (S k) c' N).
      * intros s A. exact A.
      * intros u2 s A. now rewrite <- Nat.add_succ_comm.
      * intros e s A. exact A.
Qed.

Lemma plain_run_J : htriple (JP [] []) (Pipeline_run o)
  (fun b s => b = pl_best (fst s) /\ At (length (pl_tasks p0)) s) bad.
Proof.
  unfold Pipeline_run. eapply htriple_bind; [apply log_start_J|]. intros u.
  eapply htriple_bind with (R := fun p s => JP [] [] s /\ pl_tasks p = pl_tasks p0).
  { intros s HJ. cbn [this]. split; [exact HJ|]. apply strip_fields. apply HJ. }
  intros p. intros s [HJ ET]. rewrite ET. clear ET. revert s HJ.
  match goal with |- forall s, _ -> match ?m s with _ => _ end =>
    change (htriple (JP [] []) m (fun b s => b = pl_best (fst s) /\ At (length (pl_tasks p0)) s) bad) end.
  eapply htriple_bind.
  { eapply htriple_weaken; [apply (plain_rounds_J (pl_tasks p0) 0)| | |].
    - intros k c N. exact N.
    - intros s HJ. now exists [], [].
    - intros u2 s A. exact A.
    - intros e s A. exact A. }
  intros u2. cbn [Nat.add]. eapply htriple_bind with (R := fun _ => At (length (pl_tasks p0))).
  { intros s (l & xs & HJ & L). pose proof (log_best_J o p0 w0 (fun _ => True) plain_stage listed d0 foreign l xs s HJ) as X.
    destruct (log_best o s) as [[v|e] s']; [now exists l, xs|exact X]. }
  intros u3. eapply htriple_bind with (R := fun _ => At (length (pl_tasks p0))).
  { intros s (l & xs & HJ & L). destruct (flush_calm s) as (s' & -> & C). exists l, xs. split; [eapply J_calm; eassumption|exact L]. }
  intros u4. intros s A. cbn [mbind this ret]. now split.
Qed.
End Plain.

(** [l]: the calls of the optimiser made by the tasks of [p], in order; [xs]: the tasks that have ended; [classes]: the
    classes of the tasks; [d]: the store at the start. *)
Definition ended (o : Oracle) (p : Pipeline) (d : data) (classes : list task_class) (before l : list FitInput) (xs : list Ended) : Prop :=
  forall i x, nth_error xs i = Some x -> exists t w r fi,
    Task_run o (t, w) = (Ok r, (en_task x, en_world x)) /\ tk_name t = tk_name (en_task x) /\
    nth_error l i = Some fi /\ fi_task fi = tk_name (en_task x) /\
    w_fits w = before ++ firstn i l /\ w_fits (en_world x) = before ++ firstn (S i) l /\ settled (tk_report (en_task x)) /\
    nth_error classes i = Some (tk_class t) /\ starts_as p t /\
    exists dt, nth_error (w_lists w) (r_data (tk_parameters t)) = Some dt /\ reachable (r_class (tk_parameters t)) dt /\
      handed (r_class (pl_parameters p)) d xs i (r_class (tk_parameters t)) dt.

(** The exception came from a task, after the tasks [xs]. *)
Definition task_raised (o : Oracle) (p : Pipeline) (d : data) (classes : list task_class) (before : list FitInput) (e : exn) (w' : World) : Prop :=
  exists t w t' l xs dt, Task_run o (t, w) = (Err e, (t', w')) /\ w_fits w = before ++ l /\ length xs = length l /\
    ended o p d classes before l xs /\ nth_error classes (length l) = Some (tk_class t) /\ starts_as p t /\
    nth_error (w_lists w) (r_data (tk_parameters t)) = Some dt /\ reachable (r_class (tk_parameters t)) dt /\
    handed (r_class (pl_parameters p)) d xs (length l) (r_class (tk_parameters t)) dt.

Lemma traced_ended : forall o p w d classes l xs, traced o p w (fun i c => nth_error classes i = Some c) d l xs -> ended o p d classes (w_fits w) l xs.
Proof.
  intros o p w d classes l xs H i x N. destruct (H i x N) as (t & v & r & fi & A1 & A2 & A3 & A4 & A5 & A6 & A7 & A8 & A9 & dt & B1 & B2 & B3).
  exists t, v, r, fi. repeat (split; [assumption|]). exists dt. split; [exact B1|]. split; [now apply inv_reachable|exact B3].
Qed.

Lemma raised_ended : forall o p w d classes e s, raised o p w (fun i c => nth_error classes i = Some c) d e s ->
  task_raised o p d classes (w_fits w) e (snd s).
Proof.
  intros o p w d classes e s (t & v & t' & l & xs & dt & A1 & A2 & A3 & A4 & A5 & A6 & A7 & A8 & A9).
  exists t, v, t', l, xs, dt. apply traced_ended in A4. apply inv_reachable in A8. now repeat (split; [assumption|]).
Qed.

Lemma started_J : forall o p w d cls stage_ok role, started p w d -> (cls (r_class (pl_parameters p)) : Prop) -> J o p w cls stage_ok role d [] [] (p, w).
Proof.
  intros o p w d cls stage_ok role ((S & RC) & B & _) CL. apply reachable_inv in RC. constructor; cbn [fst snd]; auto.
  - now exists d.
  - now rewrite app_nil_r.
  - intros [|i] x; discriminate.
  - intros [|i] x; discriminate.
  - rewrite B. right. split; [constructor|reflexivity].
  - rewrite B. discriminate.
  - intros _ d' D'. rewrite S in D'. injection D' as <-. repeat split; reflexivity.
  - split; [|now left]. split; [reflexivity|reflexivity].
Qed.

(** The plain pipelines. *)
Theorem C36_plain_pipelines : forall o p w d b p' w', started p w d -> Pipeline_run o (p, w) = (Ok b, (p', w')) ->
  exists l xs, w_fits w' = w_fits w ++ l /\ length l = length (pl_tasks p) /\ length xs = length (pl_tasks p) /\
    ended o p d (pl_tasks p) (w_fits w) l xs /\
    (forall i c x, nth_error (pl_tasks p) i = Some c -> nth_error xs i = Some x ->
       tk_name (en_task x) = ("Task#" ++ str_nat i ++ ":" ++ class_name c)%string) /\
    best_of (pl_name p) (w_lists w') xs b.
Proof.
  intros o p w d b p' w' ST H. pose proof (plain_run_J o p w d (p, w) (started_J _ _ _ _ _ _ _ ST I)) as X. rewrite H in X.
  destruct X as (-> & l & xs & HJ & L1 & L2). exists l, xs. split; [exact (j_fits _ _ _ _ _ _ _ _ _ _ _ HJ)|]. split; [exact L1|]. split; [exact L2|].
  split; [apply traced_ended; exact (j_trace _ _ _ _ _ _ _ _ _ _ _ HJ)|]. split; [|exact (j_best _ _ _ _ _ _ _ _ _ _ _ HJ)].
  intros i c x C X. destruct (j_trace _ _ _ _ _ _ _ _ _ _ _ HJ i x X) as (t & w1 & r & fi & _ & _ & F1 & F2 & _).
  destruct (j_stage _ _ _ _ _ _ _ _ _ _ _ HJ i fi F1) as (c' & C' & E). rewrite C in C'. injection C' as <-. congruence.
Qed.

(** An exception comes from a task, or from a task of the list that the pipeline cannot construct. *)
Theorem C36_plain_exceptions : forall o p w d e p' w', started p w d -> Pipeline_run o (p, w) = (Err e, (p', w')) ->
  task_raised o p d (pl_tasks p) (w_fits w) e w' \/ (e = TypeError /\ exists c, In c (pl_tasks p) /\ fits_kind (pl_kind p) c = false).
Proof.
  intros o p w d e p' w' ST H. pose proof (plain_run_J o p w d (p, w) (started_J _ _ _ _ _ _ _ ST I)) as X. rewrite H in X.
  destruct X as (_ & [R|R]); [left; exact (raised_ended _ _ _ _ _ _ _ R)|right; apply R].
Qed.

(** ** Iterative pipelines *)

(** The class of the task of a stage. *)
Definition stage_class (k : pipeline_kind) (s : stage) : task_class :=
  match s with RandomRound _ _ _ => fix_according k | FinalFit _ _ => final_class k | ResidualFit _ => ResidualTask end.

Lemma prepared_nothing : forall k c d, frees k = FreesNothingNew -> prepared k c d = d.
Proof.
  intros k c d H. unfold prepared. rewrite H. cbn [fixed_in_fit]. rewrite <- (map_id d) at 2. apply map_ext. now intros [].
Qed.

Lemma prepared_all : forall k c d, frees k = FreesAll -> free_names_of (prepared k c d) = available c false (prepared k c d).
Proof.
  intros k c d H. assert (E : prepared k c d = flagged (held c false) d).
  { unfold prepared, flagged. rewrite H. apply map_ext. intros p. unfold held. cbn [andb fixed_in_fit]. now rewrite orb_false_r. }
  rewrite E, held_available. symmetry. apply available_flagged.
Qed.

Lemma charged_filter : forall ts ys es rows, length ys = length ts -> length es = length ts ->
  charged_rows (zipped ts ys es) = Ok rows -> map (fun x => fst (fst x)) rows = filter is_charged ts.
Proof.
  induction ts as [|t ts IH]; intros [|y ys] [|e es] rows L1 L2 H; try discriminate.
  - now injection H as <-.
  - cbn [zipped charged_rows] in H. destruct t as [t c| |]; try discriminate.
    destruct (charged_rows (zipped ts ys es)) as [rest|e'] eqn:E; [|discriminate]. cbn [bind] in H. injection H as <-.
    specialize (IH ys es rest (eq_add_S _ _ L1) (eq_add_S _ _ L2) E). cbn [filter is_charged].
    destruct c; cbn [map fst]; now rewrite IH.
Qed.

Lemma rounds_nth : forall numbers i limit j, nth_error (rounds i numbers limit) j =
  match nth_error numbers j with Some k => Some (RandomRound (i + j) k (Z.ltb (Z.of_nat (i + j)) limit)) | None => None end.
Proof.
  induction numbers as [|k ks IH]; intros i limit [|j]; try reflexivity.
  - cbn. now rewrite Nat.add_0_r.
  - cbn [rounds nth_error]. rewrite IH. rewrite <- plus_n_Sm. reflexivity.
Qed.

Lemma rounds_length : forall numbers i limit, length (rounds i numbers limit) = length numbers.
Proof. induction numbers as [|k ks IH]; intros i limit; [reflexivity|]. cbn [rounds length]. now rewrite IH. Qed.

Lemma stages_round : forall kind numbers limit j k, nth_error numbers j = Some k ->
  nth_error (stages kind numbers limit) j = Some (RandomRound j k (Z.ltb (Z.of_nat j) limit)).
Proof.
  intros kind numbers limit j k H. unfold stages. rewrite nth_error_app1 by (rewrite rounds_length; now apply nth_lt in H).
  rewrite rounds_nth, H. reflexivity.
Qed.

Lemma stages_final : forall kind numbers limit j, (length numbers <= j)%nat -> nth_error (stages kind numbers limit) j =
  nth_error match kind with
   | NucleonCS => [FinalFit (length numbers) (Z.ltb (Z.of_nat (length numbers)) limit); ResidualFit (length numbers + 1)]
   | _ => [FinalFit (length numbers) false]
   end (j - length numbers).
Proof. intros kind numbers limit j H. unfold stages. rewrite nth_error_app2 by (now rewrite rounds_length). now rewrite rounds_length. Qed.

Lemma final_class_facts : forall k, k <> NucleonCS -> final_class k <> ResidualTask /\ fits_kind k (final_class k) = true /\
  class_name (final_class k) = final_name k false /\ frees (final_class k) = FreesAll /\
  charged_only (final_class k) = match k with KaonFF => true | _ => false end.
Proof. intros [] H; try congruence; repeat split; discriminate. Qed.

Lemma stages_full : forall kind numbers limit, kind <> NucleonCS ->
  nth_error (stages kind numbers limit) (length numbers) = Some (FinalFit (length numbers) false).
Proof. intros kind numbers limit H. rewrite stages_final, Nat.sub_diag by lia. destruct kind; try congruence; reflexivity. Qed.

(** A stage that cannot be carried out. *)
Definition impossible (k : pipeline_kind) (c : param_class) (names : list string) (s : stage) (e : exn) : Prop :=
  match s with
  | RandomRound _ number fix_resonances =>
      (e = AttributeError /\ fix_resonances = true /\ no_resonances c = true) \/
      (e = ValueError /\
       let n := length (filter (fun n => andb (negb (member n (must_stay_fixed c))) (negb (andb fix_resonances (resonance_parameter n)))) names) in
       (freed k number n < 0 \/ Z.of_nat n < freed k number n)%Z)
  | FinalFit _ fix_resonances => e = AttributeError /\ fix_resonances = true /\ no_resonances c = true
  | ResidualFit _ => False
  end.

Section Iterative.
Variables (o : Oracle) (p0 : Pipeline) (w0 : World) (d0 : data).
Hypothesis lengths : length (pl_ys p0) = length (pl_ts p0) /\ length (pl_errors p0) = length (pl_ts p0).
Let c := r_class (pl_parameters p0).
Let kind := pl_kind p0.
Let numbers := pl_numbers p0.
Let limit := pl_fixed_rounds p0.
Let plan := stages kind numbers limit.

Definition planned (i : nat) (x : FitInput) : Prop := exists s, nth_error plan i = Some s /\ meets kind c (pl_ts p0) s x.
Definition stuck (e : exn) : Prop := exists i s, nth_error plan i = Some s /\ impossible kind c (class_names c) s e.

Definition stage_role (i : nat) (k : task_class) : Prop := nth_error (map (stage_class kind) plan) i = Some k.

Let JI := J o p0 w0 (fun cl => cl = c) planned stage_role d0.
Let bad := Bad o p0 w0 planned stage_role d0 stuck.

Lemma role_of : forall i s, nth_error plan i = Some s -> stage_role i (stage_class kind s).
Proof. intros i s H. unfold stage_role. now apply map_nth_error. Qed.

Definition Reached (i : nat) (s : Pipeline * World) : Prop := exists l xs, JI l xs s /\ length l = i /\ length xs = i.

Lemma JI_fields : forall l xs s, JI l xs s -> pl_kind (fst s) = kind /\ pl_numbers (fst s) = numbers /\ pl_fixed_rounds (fst s) = limit /\
  r_class (pl_parameters (fst s)) = c.
Proof.
  intros l xs s HJ. destruct (strip_fields _ _ (j_strip _ _ _ _ _ _ _ _ _ _ _ HJ)) as (A & _ & _ & _ & _ & _ & B & C).
  split; [exact A|]. split; [exact B|]. split; [exact C|]. apply HJ.
Qed.

Lemma freeze_J : forall l xs i k, length xs = length l -> nth_error numbers i = Some k ->
  let b := Z.ltb (Z.of_nat i) limit in
  htriple (JI l xs) (randomly_freeze_parameters o k b)
    (fun _ s => exists d, JI l xs s /\ with_store_of d s /\
       Z.of_nat (length (free_names_of d)) = freed kind k (length (available c b d)) /\
       (forall n, In n (free_names_of d) -> In n (available c b d)) /\ (b = true -> no_resonances c = false)) bad.
Proof.
  intros l xs i k LX N b [p w] HJ. destruct (JI_fields _ _ _ HJ) as (F1 & _ & _ & F4). cbn [fst] in *.
  destruct (j_store _ _ _ _ _ _ _ _ _ _ _ HJ) as (d & D & ID). cbn [fst snd] in *.
  rewrite (freeze_eq o p w d D ID k b). rewrite F1, F4 in *.
  assert (ND := available_NoDup c b d ID). set (a := available c b d) in *.
  assert (PL : nth_error plan i = Some (RandomRound i k b)) by (apply stages_round; exact N).
  assert (HE : forall x, inv c (flagged (held c x) d)).
  { intros x. apply flagged_inv; [exact ID|]. intros n M. unfold held. apply member_In in M. now rewrite M. }
  assert (NM : map par_name d = class_names c) by apply ID.
  destruct (andb b (no_resonances c)) eqn:NR.
  { eapply J_bad with (l := l) (xs := xs) (p0 := p0) (cls := fun cl => cl = c).
    - apply (J_store _ _ _ _ _ _ _ _ _ _ _ _ _ HJ); [rewrite F4; apply HE|]. intros d' D'. rewrite D in D'. injection D' as <-. apply same_values_flagged.
    - exact LX.
    - exists i, (RandomRound i k b). split; [exact PL|]. left. apply andb_prop in NR as [-> ->]. now split. }
  cbv zeta. destruct (out_of_range (freed kind k (length a)) (length a)) eqn:OR.
  { eapply J_bad with (l := l) (xs := xs) (p0 := p0) (cls := fun cl => cl = c).
    - apply (J_store _ _ _ _ _ _ _ _ _ _ _ _ _ HJ); [rewrite F4; apply HE|]. intros d' D'. rewrite D in D'. injection D' as <-. apply same_values_flagged.
    - exact LX.
    - exists i, (RandomRound i k b). split; [exact PL|]. right. split; [reflexivity|]. cbv zeta. rewrite <- NM. fold (available c b d). fold a.
      unfold out_of_range in OR. apply orb_prop in OR as [OR|OR]; apply Z.ltb_lt in OR; [now left|now right]. }
  unfold out_of_range in OR. apply orb_false_iff in OR as [O1 O2]. apply Z.ltb_ge in O1, O2.
  destruct (pick_spec (Z.to_nat (freed kind k (length a))) (o_sample o (w_samples w)) a) as (L & NL & IN); [lia|exact ND|].
  set (ch := pick _ _ a) in *. destruct (chosen_free c d ch b ID NL IN) as [E1 E2].
  assert (I' : inv c (flagged (fun n => negb (member n ch)) d)).
  { apply flagged_inv; [exact ID|]. intros m M. apply negb_true_iff. destruct (member m ch) eqn:E; [|reflexivity]. apply member_In in E. apply IN in E.
    unfold a, available in E. apply filter_In in E as [_ E]. apply member_In in M. rewrite M in E. discriminate. }
  exists (flagged (fun n => negb (member n ch)) d). split; [|split; [|split; [|split]]].
  - apply (J_store _ _ _ _ _ _ _ _ _ _ _ _ _ HJ); [rewrite F4; exact I'|]. intros d' D'. rewrite D in D'. injection D' as <-. apply same_values_flagged.
  - split; cbn [fst snd]; [exact (nth_replace_same _ _ _ _ D)|rewrite F4; exact I'].
  - rewrite available_flagged. fold a. lia.
  - intros n M. rewrite available_flagged. apply IN. now apply E2.
  - intros ->. now destruct (no_resonances c).
Qed.

Lemma fix_according_facts : forall k, frees (fix_according k) = FreesNothingNew /\ charged_only (fix_according k) = false /\
  fits_kind k (fix_according k) = true /\ fix_according k <> ResidualTask /\ class_name (fix_according k) = "TaskFixAccordingToParametersFit".
Proof. intros []; repeat split; discriminate. Qed.

Lemma asks_plain : forall k n cl ts ys es d x, k <> ResidualTask -> asks k n cl ts ys es d x ->
  fi_task x = n /\ fi_class x = cl /\ fi_store x = prepared k cl d /\
  if charged_only k then exists rows, charged_rows (zipped ts ys es) = Ok rows /\ fi_points x = map (fun x => fst (fst x)) rows
  else fi_points x = ts.
Proof. intros k n cl ts ys es d x N [A B]. split; [exact A|]. destruct k; try exact B. congruence. Qed.

Lemma iterative_round_J : forall i k, nth_error numbers i = Some k -> htriple (Reached i) (iterative_round o (i, k)) (fun _ => Reached (S i)) bad.
Proof.
  intros i k N s (l & xs & HJ & L1 & L2). destruct (JI_fields _ _ _ HJ) as (F1 & _ & F3 & _).
  unfold iterative_round. erewrite mbind_ok by reflexivity. cbv zeta. rewrite F1, F3. clear F1 F3. revert s HJ.
  match goal with |- forall s, _ -> match ?m s with _ => _ end => change (htriple (JI l xs) m (fun _ => Reached (S i)) bad) end.
  set (b := Z.ltb (Z.of_nat i) limit). eapply htriple_bind; [exact (freeze_J l xs i k (eq_trans L2 (eq_sym L1)) N)|]. fold b. intros fp.
  intros s (d & HJ & WS & X1 & X2 & X3).
  destruct (log_calm ("Initializing Task#" ++ str_nat i ++ ". Free parameters: " ++ o_show_names o fp)%string s) as (s1 & LG & C1 & H1).
  rewrite (mbind_ok _ _ _ _ _ _ _ _ LG).
  assert (HJ1 : JI l xs s1) by (eapply J_calm; eassumption).
  assert (WS1 : with_store_of d s1) by (destruct WS as [W1 W2], C1 as (_ & CP & _); split; [now rewrite H1, CP|now rewrite CP]).
  clear LG C1 H1 HJ WS s. destruct (fix_according_facts kind) as (A1 & A2 & A3 & A4 & A5).
  pose proof (task_J o p0 w0 (fun cl => cl = c) planned stage_role d0 stuck unit ("Task#" ++ str_nat i ++ ":" ++ class_name (fix_according kind))%string (fix_according kind)
    l xs d (fun task => flush_report ;;; save_report o (str_nat i) (tk_report task)) (fun _ => Reached (S i))) as T.
  apply T; try (now split); clear T.
  - congruence.
  - rewrite L1. apply (role_of i (RandomRound i k b)). apply stages_round. exact N.
  - intros cl x -> A. apply asks_plain in A; [|exact A4]. rewrite A2 in A. destruct A as (B1 & B2 & B3 & B4).
    rewrite prepared_nothing in B3 by exact A1. exists (RandomRound i k b). rewrite L1. split; [apply stages_round; exact N|].
    rewrite A5 in B1. cbn [meets]. rewrite B3. now repeat split.
  - fold kind. rewrite A3. discriminate.
  - intros E. now rewrite E in A4.
  - intros t. eapply htriple_weaken; [apply close_J| | |]; [intros s H; exact H| |intros e s H; exact H].
    intros u3 s (fi & x & HJ). exists (l ++ [fi]), (xs ++ [x]). split; [exact HJ|]. rewrite !app_length. simpl. lia.
Qed.

Lemma iterative_rounds_J : forall ks i, (forall j k, nth_error ks j = Some k -> nth_error numbers (i + j) = Some k) ->
  htriple (Reached i) (mfor (enumerate_from i ks) (iterative_round o)) (fun _ => Reached (i + length ks)) bad.
Proof.
  induction ks as [|k ks IH]; intros i H; cbn [enumerate_from mfor length].
  - apply htriple_ret. intros s A. now rewrite Nat.add_0_r.
  - eapply htriple_bind; [apply iterative_round_J|].
    + specialize (H O k eq_refl). now rewrite Nat.add_0_r in H.
    + intros u. eapply htriple_weaken; [apply (IH (S i))| | |].
      * intros j k' N. rewrite Nat.add_succ_comm. exact (H (S j) k' N).
      * intros s A. exact A.
      * intros u2 s A. now rewrite <- Nat.add_succ_comm.
      * intros e s A. exact A.
Qed.

Let n := length numbers.

(** The last fit the best fit takes into account. *)
Lemma final_common_J : forall l xs d tn k, length l = n -> length xs = n -> k <> ResidualTask -> fits_kind kind k = true -> stage_role n k ->
  (forall x, asks k tn c (pl_ts p0) (pl_ys p0) (pl_errors p0) d x -> planned n x) ->
  htriple (fun s => JI l xs s /\ with_store_of d s) (final_common o n tn k) (fun _ => Reached (S n)) bad.
Proof.
  intros l xs d tn k L1 L2 NR FK RO ST. unfold final_common.
  apply task_J with (K := fun task => log_best o ;;; flush_report ;;; save_report o (str_nat n) (tk_report task)).
  - congruence.
  - now rewrite L1.
  - intros cl x -> A. rewrite L1. now apply ST.
  - fold kind. rewrite FK. discriminate.
  - intros E. congruence.
  - intros t. eapply htriple_bind; [apply log_best_noted|]. intros u.
    eapply htriple_weaken; [apply close_J| | |]; [intros s H; exact H| |intros e s H; exact H].
    intros u3 s (fi & x & HJ). exists (l ++ [fi]), (xs ++ [x]). split; [exact HJ|]. rewrite !app_length. simpl. lia.
Qed.

Lemma final_fit_J : kind <> NucleonCS -> htriple (Reached n) (final_fit o n) (fun _ => Reached (S n)) bad.
Proof.
  intros NK s (l & xs & HJ & L1 & L2). destruct (JI_fields _ _ _ HJ) as (F1 & _).
  unfold final_fit. erewrite mbind_ok by reflexivity. rewrite F1. clear F1.
  destruct (log_calm ("Initializing Task#" ++ str_nat n ++ ". Full fit.")%string s) as (s1 & LG & C1 & _).
  rewrite (mbind_ok _ _ _ _ _ _ _ _ LG). cbv zeta. assert (HJ1 : JI l xs s1) by (eapply J_calm; eassumption). clear LG C1 HJ s.
  destruct (j_store _ _ _ _ _ _ _ _ _ _ _ HJ1) as (d & D).
  destruct (final_class_facts kind NK) as (G1 & G2 & G3 & G4 & G5).
  apply (final_common_J l xs d); try (now split); auto.
  - apply (role_of n (FinalFit n false)). exact (stages_full _ _ limit NK).
  - intros x A. apply asks_plain in A; [|exact G1]. rewrite G5 in A. destruct A as (B1 & B2 & B3 & B4).
    exists (FinalFit n false). split; [exact (stages_full _ _ limit NK)|].
    cbn [meets]. split; [rewrite B1, G3; reflexivity|]. split; [exact B2|]. split; [|split; [|discriminate]].
    + revert B4. clear -lengths. destruct kind; try (intros E; exact E). intros (rows & R1 & ->).
      cbn [final_points]. exact (charged_filter _ _ _ _ (proj1 lengths) (proj2 lengths) R1).
    + rewrite B3. now apply prepared_all.
Qed.

Lemma final_nucleon_J : kind = NucleonCS -> htriple (Reached n) (final_fit_nucleon o n) (fun _ => Reached (S n)) bad.
Proof.
  intros NK [p w] (l & xs & HJ & L1 & L2). destruct (JI_fields _ _ _ HJ) as (F1 & _ & F3 & F4). cbn [fst] in *.
  destruct (j_store _ _ _ _ _ _ _ _ _ _ _ HJ) as (d & D & ID). cbn [fst snd] in *. rewrite F4 in ID.
  assert (HE : forall x, inv c (flagged (held c x) d)).
  { intros x. apply flagged_inv; [exact ID|]. intros m M. unfold held. apply member_In in M. now rewrite M. }
  unfold final_fit_nucleon. erewrite mbind_ok by reflexivity. cbn [fst]. rewrite F3.
  pose proof (mutate_parameters_eq MReleaseAll p w d D) as E1. rewrite F4 in E1. cbn [mutate fst snd] in E1.
  rewrite (release_all_flagged c d ID) in E1. rewrite (mbind_ok _ _ _ _ _ _ _ _ E1).
  set (w1 := set_lists _ w). set (b := Z.ltb (Z.of_nat n) limit).
  assert (D1 : nth_error (w_lists w1) (r_data (pl_parameters p)) = Some (flagged (held c false) d)) by exact (nth_replace_same _ _ _ _ D).
  pose proof (mutate_parameters_eq MFixResonances p w1 _ D1) as E2. rewrite F4 in E2. rewrite (fix_resonances_flagged c d ID) in E2.
  assert (J1 : JI l xs (p, w1)).
  { apply (J_store _ _ _ _ _ _ _ _ _ _ _ _ _ HJ); [rewrite F4; apply HE|]. intros d' D'. rewrite D in D'. injection D' as <-. apply same_values_flagged. }
  assert (SV : forall x d', nth_error (w_lists w1) (r_data (pl_parameters p)) = Some d' -> same_values d' (flagged (held c x) d)).
  { intros x d' D'. rewrite D1 in D'. injection D' as <-. destruct (same_values_flagged (held c false) d), (same_values_flagged (held c x) d). split; congruence. }
  set (name := if b then "Full fit (Fixed resonances)" else "Full fit").
  assert (PL : nth_error plan n = Some (FinalFit n b)).
  { unfold plan. rewrite stages_final by (fold n; lia). fold n. rewrite Nat.sub_diag, NK. reflexivity. }
  assert (MID : htriple (fun s => s = (p, w1)) (if b then mutate_parameters MFixResonances ;;; ret "Full fit (Fixed resonances)" else ret "Full fit")
    (fun x s' => x = name /\ JI l xs s' /\ with_store_of (flagged (held c b) d) s' /\ (b = true -> no_resonances c = false)) bad).
  { subst name. intros s0 ->. destruct b eqn:EB.
    - destruct (no_resonances c) eqn:NR.
      + cbn [fst snd] in E2. rewrite (mbind_err _ _ _ _ _ _ _ _ E2). eapply J_bad with (l := l) (xs := xs) (p0 := p0) (cls := fun cl => cl = c).
        * apply (J_store _ _ _ _ _ _ _ _ _ _ _ _ _ J1); [rewrite F4; apply HE|apply SV].
        * congruence.
        * exists n, (FinalFit n true). split; [exact PL|]. now repeat split.
      + cbn [fst snd] in E2. rewrite (mbind_ok _ _ _ _ _ _ _ _ E2). cbn [ret]. split; [reflexivity|]. split; [|split; [|reflexivity]].
        * apply (J_store _ _ _ _ _ _ _ _ _ _ _ _ _ J1); [rewrite F4; apply HE|apply SV].
        * split; cbn [fst snd]; [exact (nth_replace_same _ _ _ _ D1)|rewrite F4; apply HE].
    - cbn [ret]. split; [reflexivity|]. split; [exact J1|]. split; [|discriminate]. split; cbn [fst snd]; [exact D1|rewrite F4; apply HE]. }
  refine (htriple_bind _ _ _ _ _ _ _ _ _ MID _ (p, w1) eq_refl). intros x s2 (-> & J2 & WS & NR).
  destruct (log_calm ("Initializing Task#" ++ str_nat n ++ ". " ++ name ++ ".")%string s2) as (s3 & LG & C3 & H3).
  rewrite (mbind_ok _ _ _ _ _ _ _ _ LG).
  assert (J3 : JI l xs s3) by (eapply J_calm; eassumption).
  assert (WS3 : with_store_of (flagged (held c b) d) s3) by (destruct WS as [W1 W2], C3 as (_ & CP & _); split; [now rewrite H3, CP|now rewrite CP]).
  apply (final_common_J l xs (flagged (held c b) d)); try (now split); auto; [discriminate|now rewrite NK| |].
  { pose proof (role_of n (FinalFit n b) PL) as Y. cbn [stage_class] in Y. rewrite NK in Y. exact Y. }
  intros x A. apply asks_plain in A; [|discriminate]. destruct A as (B1 & B2 & B3 & B4). cbn [charged_only] in B4.
  exists (FinalFit n b). split; [exact PL|]. cbn [meets]. rewrite prepared_nothing in B3 by reflexivity. rewrite NK. cbn [final_name final_points].
  split; [exact B1|]. split; [exact B2|]. split; [exact B4|]. split; [|exact NR]. rewrite B3, held_available. symmetry. apply available_flagged.
Qed.

Definition Over (s : Pipeline * World) : Prop := exists l xs, length l = length plan /\ length xs = S n /\
  w_fits (snd s) = w_fits w0 ++ l /\ (forall i x, nth_error l i = Some x -> planned i x) /\ traced o p0 w0 stage_role d0 l xs /\
  best_of (pl_name p0) (w_lists (snd s)) xs (pl_best (fst s)) /\ framed p0 w0 (w_lists (snd s)) /\
  (forall fi, nth_error l (length xs) = Some fi -> exists t w r t' w' d, Task_run o (t, w) = (Ok r, (t', w')) /\
     w_fits w = w_fits w0 ++ firstn (length xs) l /\ w_fits w' = w_fits w ++ [fi] /\ stage_role (length xs) (tk_class t) /\ starts_as p0 t /\
     nth_error (w_lists w) (r_data (tk_parameters t)) = Some d /\ inv (r_class (tk_parameters t)) d /\
     handed c d0 xs (length xs) (r_class (tk_parameters t)) d).

Lemma residuals_J : kind = NucleonCS -> htriple (Reached (S n)) (residuals_stage o (n + 1)) (fun _ => Over) bad.
Proof.
  intros NK s (l & xs & HJ & L1 & L2).
  assert (HT : J o p0 w0 (fun _ => True) planned stage_role d0 l xs s) by (destruct HJ; constructor; auto).
  unfold residuals_stage. destruct (log_calm ("Initializing Task#" ++ str_nat (n + 1) ++ ". Residuals.")%string s) as (s1 & LG & C1 & _).
  rewrite (mbind_ok _ _ _ _ _ _ _ _ LG). assert (H1 : J o p0 w0 (fun _ => True) planned stage_role d0 l xs s1) by (eapply J_calm; eassumption).
  destruct (j_store _ _ _ _ _ _ _ _ _ _ _ H1) as (d & D).
  pose proof (create_and_run_J o p0 w0 (fun _ => True) planned stage_role d0 stuck ("Task#" ++ str_nat (n + 1) ++ ":" ++ class_name ResidualTask)%string ResidualTask l xs d) as X.
  unfold mbind at 1.
  match type of X with _ -> _ -> _ -> _ -> _ -> ?G => assert (Y : G) end.
  { apply X.
    - congruence.
    - rewrite L1. apply (role_of (S n) (ResidualFit (n + 1))). unfold plan. rewrite stages_final by (fold n; lia). fold n. rewrite NK.
      replace (S n - n)%nat with 1%nat by lia. reflexivity.
    - intros cl x _ [A B]. exists (ResidualFit (n + 1)). split; [|split; [exact A|exact B]].
      unfold plan. rewrite stages_final by (fold n; lia). fold n. rewrite NK, L1. replace (S n - n)%nat with 1%nat by lia. reflexivity.
    - fold kind. rewrite NK. discriminate.
    - intros _. exact I. }
  specialize (Y s1 (conj H1 D)). cbv beta in Y. destruct (create_and_run _ _ _ s1) as [[t|e] s2]; [|exact Y].
  destruct Y as [(fi & HJ2 & FN) (t0 & w1 & w2 & r & TR & _ & FF & FF2 & _ & _ & RO & SA & dt & TD) _ _ _ RD _]. destruct (save_calm o (str_nat (n + 1)) (tk_report t) s2 RD) as (s3 & -> & C3).
  assert (H3 : J_gen o p0 w0 (fun _ => True) planned stage_role d0 false (l ++ [fi]) xs s3) by (eapply J_calm; eassumption).
  exists (l ++ [fi]), xs. split; [|split; [exact L2|split; [apply H3|split; [apply H3|split; [apply H3|split; [apply H3|split; [apply H3|]]]]]]].
  2: { intros fi' N. assert (LX : length xs = length l) by congruence. rewrite LX in N |- *. rewrite nth_error_app2, Nat.sub_diag in N by lia. injection N as <-.
       rewrite firstn_app, Nat.sub_diag, firstn_all, app_nil_r. exists t0, w1, r, t, w2, dt. split; [exact TR|]. split; [exact FF|].
       split; [rewrite FF2, (j_fits _ _ _ _ _ _ _ _ _ _ _ HJ2), FF, app_assoc; reflexivity|]. split; [exact RO|]. split; [exact SA|].
       rewrite LX in TD. exact TD. }
  unfold plan, stages. fold n. rewrite NK, !app_length, rounds_length. fold n. simpl. lia.
Qed.

Lemma reached_over : kind <> NucleonCS -> forall s, Reached (S n) s -> Over s.
Proof.
  intros NK s (l & xs & HJ & L1 & L2). exists l, xs. split; [|split; [exact L2|split; [apply HJ|split; [apply HJ|split; [apply HJ|split; [apply HJ|split; [apply HJ|]]]]]]].
  2: { intros fi N. apply nth_lt in N. lia. }
  unfold plan, stages. fold n. rewrite app_length, rounds_length. fold n. rewrite L1. revert NK. clear. generalize kind. intros [] NK; try congruence; simpl; lia.
Qed.

Lemma iterative_run_J : htriple (JI [] []) (IterativePipeline_run o) (fun b s => b = pl_best (fst s) /\ Over s) bad.
Proof.
  unfold IterativePipeline_run. eapply htriple_bind; [apply log_start_J|]. intros u.
  intros s HJ. destruct (JI_fields _ _ _ HJ) as (F1 & F2 & _). erewrite mbind_ok by reflexivity. rewrite F1, F2. fold n. clear F1 F2. revert s HJ.
  match goal with |- forall s, _ -> match ?m s with _ => _ end => change (htriple (JI [] []) m (fun b s => b = pl_best (fst s) /\ Over s) bad) end.
  eapply htriple_bind.
  { eapply htriple_weaken; [apply (iterative_rounds_J numbers 0)| | |].
    - intros j k N. exact N.
    - intros s HJ. now exists [], [].
    - intros u2 s A. exact A.
    - intros e s A. exact A. }
  intros u2. cbn [Nat.add]. fold n. cbv zeta. eapply htriple_bind with (R := fun _ => Over).
  - assert (NK : kind = NucleonCS \/ kind <> NucleonCS) by (clear; generalize kind; intros []; (now left) || (right; discriminate)). destruct NK as [NK|NK].
    + rewrite NK. eapply htriple_bind; [now apply final_nucleon_J|]. intros u3. now apply residuals_J.
    + match goal with |- htriple _ ?m _ _ => assert (E : m = final_fit o n) by (clear -NK; revert NK; generalize kind; intros [] NK; congruence); rewrite E; clear E end.
      eapply htriple_weaken; [now apply final_fit_J| | |]; [intros s H; exact H| |intros e s H; exact H]. intros u3 s. now apply reached_over.
  - intros u3. intros s A. cbn [mbind this ret]. now split.
Qed.
End Iterative.

Lemma Forall2_planned : forall p l, (forall i x, nth_error l i = Some x -> planned p i x) ->
  let S := stages (pl_kind p) (pl_numbers p) (pl_fixed_rounds p) in
  (length l <= length S)%nat /\ Forall2 (meets (pl_kind p) (r_class (pl_parameters p)) (pl_ts p)) (firstn (length l) S) l.
Proof.
  intros p l H S. unfold planned in H. fold S in H. clearbody S.
  set (P := meets (pl_kind p) (r_class (pl_parameters p)) (pl_ts p)) in *. clearbody P. revert S H.
  induction l as [|x l IH]; intros S H; [split; [simpl; lia|constructor]|].
  destruct (H O x eq_refl) as (s & E & M). destruct S as [|s' S]; [discriminate|]. injection E as ->.
  destruct (IH S) as [A B]. { intros i y Y. exact (H (Datatypes.S i) y Y). } split; [simpl; lia|]. cbn [length firstn]. now constructor.
Qed.

(** ** C39 *)

(** The calls of the optimiser follow the plan, one per stage, until the end or the first exception; an exception comes
    from a task or from a stage that cannot be carried out. *)
Theorem C39_schedule : forall o p w d res p' w', started p w d -> IterativePipeline_run o (p, w) = (res, (p', w')) ->
  let plan := stages (pl_kind p) (pl_numbers p) (pl_fixed_rounds p) in
  let c := r_class (pl_parameters p) in
  exists l, w_fits w' = w_fits w ++ l /\ (length l <= length plan)%nat /\
    Forall2 (meets (pl_kind p) c (pl_ts p)) (firstn (length l) plan) l /\
    match res with
    | Ok _ => length l = length plan
    | Err e => task_raised o p d (map (stage_class (pl_kind p)) plan) (w_fits w) e w' \/
               (exists s, In s plan /\ impossible (pl_kind p) c (map par_name d) s e)
    end.
Proof.
  intros o p w d res p' w' ST H plan c. pose proof ST as ((S & RC) & _ & LN).
  pose proof (iterative_run_J o p w d LN (p, w) (started_J _ _ _ _ _ _ _ ST eq_refl)) as X. rewrite H in X.
  assert (NM : map par_name d = class_names c) by (apply reachable_inv in RC; apply RC).
  destruct res as [b|e].
  - destruct X as (_ & l & xs & L1 & _ & F & PL & _). destruct (Forall2_planned p l PL) as [A B]. exists l. now repeat split.
  - destruct X as ((l & F & PL) & R). destruct (Forall2_planned p l PL) as [A B]. exists l. split; [exact F|]. split; [exact A|]. split; [exact B|].
    destruct R as [R|((i & s & N & IM) & _)]; [left; exact (raised_ended _ _ _ _ _ _ _ R)|]. right. exists s. split; [eapply nth_error_In; exact N|]. now rewrite NM.
Qed.

(** Every call of the optimiser is made by a task that was given what the previous task left behind; all tasks but perhaps
    the last one have ended. *)
Theorem C39_every_fit : forall o p w d res p' w', started p w d -> IterativePipeline_run o (p, w) = (res, (p', w')) ->
  let plan := stages (pl_kind p) (pl_numbers p) (pl_fixed_rounds p) in
  exists l xs, w_fits w' = w_fits w ++ l /\ ended o p d (map (stage_class (pl_kind p)) plan) (w_fits w) l xs /\
    (length xs <= length l <= S (length xs))%nat /\
    forall i fi, nth_error l i = Some fi -> exists t w1 res1 t1 w2 dt, Task_run o (t, w1) = (res1, (t1, w2)) /\
      w_fits w2 = w_fits w1 ++ [fi] /\ nth_error (map (stage_class (pl_kind p)) plan) i = Some (tk_class t) /\ starts_as p t /\
      nth_error (w_lists w1) (r_data (tk_parameters t)) = Some dt /\ reachable (r_class (tk_parameters t)) dt /\
      handed (r_class (pl_parameters p)) d xs i (r_class (tk_parameters t)) dt /\
      (forall x, nth_error xs i = Some x -> t1 = en_task x /\ w2 = en_world x).
Proof.
  intros o p w d res p' w' ST H plan. pose proof ST as ((S & RC) & _ & LN).
  pose proof (iterative_run_J o p w d LN (p, w) (started_J _ _ _ _ _ _ _ ST eq_refl)) as X. rewrite H in X.
  assert (OLD : forall l xs, ended o p d (map (stage_class (pl_kind p)) plan) (w_fits w) l xs -> forall i fi, nth_error l i = Some fi -> (i < length xs)%nat ->
    exists t w1 res1 t1 w2 dt, Task_run o (t, w1) = (res1, (t1, w2)) /\
      w_fits w2 = w_fits w1 ++ [fi] /\ nth_error (map (stage_class (pl_kind p)) plan) i = Some (tk_class t) /\ starts_as p t /\
      nth_error (w_lists w1) (r_data (tk_parameters t)) = Some dt /\ reachable (r_class (tk_parameters t)) dt /\
      handed (r_class (pl_parameters p)) d xs i (r_class (tk_parameters t)) dt /\
      (forall x, nth_error xs i = Some x -> t1 = en_task x /\ w2 = en_world x)).
  { intros l xs EN i fi N L. destruct (nth_error xs i) as [x|] eqn:NX; [|apply nth_error_None in NX; lia].
    destruct (EN i x NX) as (t & w1 & r & fi' & A1 & A2 & A3 & A4 & A5 & A6 & A7 & A8 & A9 & dt & B1 & B2 & B3).
    rewrite N in A3. injection A3 as <-. exists t, w1, (Ok r), (en_task x), (en_world x), dt. split; [exact A1|]. split.
    { rewrite A5, A6, <- app_assoc. f_equal. clear - N. revert l N. induction i as [|i IH]; intros [|y l] N; try discriminate; [now injection N as ->|].
      cbn [firstn app]. f_equal. exact (IH l N). }
    repeat (split; [assumption|]). intros x' E. injection E as <-. now split. }
  destruct res as [b|e].
  - destruct X as (_ & l & xs & L1 & L2 & F & _ & T & _ & _ & LAST). apply traced_ended in T. exists l, xs. split; [exact F|]. split; [exact T|].
    assert (LL : (length xs <= length l <= Datatypes.S (length xs))%nat).
    { rewrite L1, L2. unfold stages. rewrite app_length, rounds_length. destruct (pl_kind p); cbn [length]; lia. }
    split; [exact LL|]. intros i fi N. destruct (Nat.lt_ge_cases i (length xs)) as [L|L]; [exact (OLD l xs T i fi N L)|].
    assert (i = length xs) by (apply nth_lt in N; lia). subst i.
    destruct (LAST fi N) as (t & w1 & r & t1 & w2 & dt & A1 & A2 & A3 & A4 & A5 & A6 & A7 & A8). exists t, w1, (Ok r), t1, w2, dt.
    apply inv_reachable in A7. repeat (split; [assumption|]). intros x E. apply nth_lt in E. lia.
  - destruct X as ((l & F & _) & [R|(_ & l1 & xs & F1 & L1 & T)]).
    + apply raised_ended in R. destruct R as (t & w1 & t' & l1 & xs & dt & TR & F1 & L1 & EN & C & SA & S1 & RC1 & HA). cbn [snd] in *.
      destruct SA as [SD SF (R1 & R2 & R3) SS SM SN]. assert (SA : starts_as p t) by (constructor; auto).
      destruct (run_any o t w1 dt _ t' w' S1 (reachable_inv _ _ RC1) R1 R2 TR) as [_ _ _ _ _ _ (fs & Q1 & Q2 & _ & _) _ _ _ _].
      assert (E : l = l1 ++ fs). { rewrite Q1, F1, <- app_assoc in F. now apply app_inv_head in F. } subst l. exists (l1 ++ fs), xs.
      assert (EN' : ended o p d (map (stage_class (pl_kind p)) plan) (w_fits w) (l1 ++ fs) xs).
      { intros i x N. destruct (EN i x N) as (u & v & r & fi & Z1 & Z2 & Z3 & Z4 & Z5 & Z6 & Z7). exists u, v, r, fi. pose proof (nth_lt _ _ _ _ Z3) as Z8.
        rewrite nth_error_app1, !firstn_app by lia. replace (i - length l1)%nat with O by lia. replace (Datatypes.S i - length l1)%nat with O by lia.
        cbn [firstn]. rewrite !app_nil_r. repeat (split; [assumption|]). exact Z7. }
      split; [exact F|]. split; [exact EN'|]. split; [rewrite app_length; lia|]. intros i fi N.
      destruct (Nat.lt_ge_cases i (length xs)) as [L|L]; [exact (OLD _ xs EN' i fi N L)|].
      assert (i = length xs) by (pose proof (nth_lt _ _ _ _ N) as Z; rewrite app_length in Z; lia). subst i.
      exists t, w1, (Err e), t', w', dt. rewrite L1 in N |- *. rewrite nth_error_app2, Nat.sub_diag in N by lia.
      destruct fs as [|y [|? ?]]; try discriminate; [|cbn in Q2; lia]. injection N as ->.
      split; [exact TR|]. split; [exact Q1|]. repeat (split; [assumption|]). intros x E. apply nth_lt in E. lia.
    + exists l1, xs. apply traced_ended in T. split; [exact F1|]. split; [exact T|]. split; [lia|]. intros i fi N.
      apply (OLD l1 xs T i fi N). apply nth_lt in N. lia.
Qed.

(** The numbers of the schedule. *)
Theorem C39_requested_numbers : forall ps rs,
  schedule ps rs = concat (map (fun x => repeat (fst x) (Z.to_nat (snd x))) (combine ps rs)) /\
  Z.of_nat (length (schedule ps rs)) = fold_right Z.add 0%Z (map (fun x => Z.max 0 (snd x)) (combine ps rs)).
Proof.
  induction ps as [|k ps IH]; intros [|r rs]; try (split; reflexivity). destruct (IH rs) as [A B].
  cbn [schedule combine map concat fold_right fst snd]. split; [now rewrite A|]. rewrite app_length, repeat_length, Nat2Z.inj_add, B. lia.
Qed.

(** ** C36 *)

(** The iterative pipelines; the residual fit of the nucleon cross-section pipeline is left out. *)
Theorem C36_iterative_pipelines : forall o p w d b p' w', started p w d -> IterativePipeline_run o (p, w) = (Ok b, (p', w')) ->
  exists l xs, w_fits w' = w_fits w ++ l /\ length xs = S (length (pl_numbers p)) /\
    length l = (length xs + match pl_kind p with NucleonCS => 1 | _ => 0 end)%nat /\
    ended o p d (map (stage_class (pl_kind p)) (stages (pl_kind p) (pl_numbers p) (pl_fixed_rounds p))) (w_fits w) l xs /\
    best_of (pl_name p) (w_lists w') xs b.
Proof.
  intros o p w d b p' w' ST H. pose proof ST as ((S & RC) & _ & LN).
  pose proof (iterative_run_J o p w d LN (p, w) (started_J _ _ _ _ _ _ _ ST eq_refl)) as X. rewrite H in X.
  destruct X as (-> & l & xs & L1 & L2 & F & _ & T & B & _). exists l, xs. split; [exact F|]. split; [exact L2|]. split; [|split; [now apply traced_ended|exact B]].
  rewrite L1, L2. unfold stages. rewrite app_length, rounds_length. destruct (pl_kind p); simpl; lia.
Qed.

(** A run that returns leaves all other lists that existed at its start alone. *)
Theorem C36_other_objects_untouched : forall o p w d b p' w', started p w d ->
  Pipeline_run o (p, w) = (Ok b, (p', w')) \/ IterativePipeline_run o (p, w) = (Ok b, (p', w')) ->
  (length (w_lists w) <= length (w_lists w'))%nat /\
  (forall a, (a < length (w_lists w))%nat -> a <> r_data (pl_parameters p) -> nth_error (w_lists w') a = nth_error (w_lists w) a) /\
  (forall a, bf_parameters b = Some a -> (a < length (w_lists w'))%nat).
Proof.
  intros o p w d b p' w' ST H.
  assert (X : framed p w (w_lists w') /\ exists xs, best_of (pl_name p) (w_lists w') xs b).
  { destruct H as [H|H].
    - pose proof (plain_run_J o p w d (p, w) (started_J _ _ _ _ _ _ _ ST I)) as X. rewrite H in X.
      destruct X as (-> & l & xs & HJ & _). split; [exact (proj1 (j_frame _ _ _ _ _ _ _ _ _ _ _ HJ))|]. exists xs. exact (j_best _ _ _ _ _ _ _ _ _ _ _ HJ).
    - pose proof ST as (_ & _ & LN). pose proof (iterative_run_J o p w d LN (p, w) (started_J _ _ _ _ _ _ _ ST eq_refl)) as X. rewrite H in X.
      destruct X as (-> & l & xs & _ & _ & _ & _ & _ & B & FR & _). split; [exact FR|]. now exists xs. }
  destruct X as [[L F] (xs & B)]. split; [exact L|]. split; [exact F|]. intros a E.
  destruct B as [(i & x & s & _ & _ & _ & (a' & d' & A1 & A2 & _) & _)|[_ ->]]; [|discriminate].
  rewrite E in A1. injection A1 as <-. now apply nth_lt in A2.
Qed.

(** Order of decimal texts. *)
Lemma digit_code : forall n, (n < 10)%nat -> nat_of_ascii (digit n) = (48 + n)%nat.
Proof. intros n H. do 10 (destruct n as [|n]; [reflexivity|]). lia. Qed.

Lemma before_cons_inv : forall a b r s, before (String a r) (String b s) -> (nat_of_ascii a < nat_of_ascii b)%nat \/ (a = b /\ before r s).
Proof. intros a b r s H. inversion H; subst; [now left|right; now split]. Qed.

Lemma digit_inj : forall a b, (a < 10)%nat -> (b < 10)%nat -> digit a = digit b -> a = b.
Proof. intros a b A B H. apply (f_equal nat_of_ascii) in H. rewrite !digit_code in H by assumption. lia. Qed.

Lemma digits_cons : forall n l, digits (n :: l) = String (digit n) (digits l).
Proof. reflexivity. Qed.

Lemma whole_bound : forall l, all_digits l -> (0 <= whole_value l <= 10 ^ length l - 1)%R.
Proof.
  induction l as [|n l IH]; intros H; [cbn; lra|]. apply Forall_inv in H as N; apply Forall_inv_tail in H. specialize (IH H). cbn [whole_value length pow].
  assert (0 <= INR n <= 9)%R. { split; [apply pos_INR|]. replace 9%R with (INR 9) by (simpl; lra). apply le_INR. lia. }
  assert (0 < 10 ^ length l)%R by (apply pow_lt; lra). nra.
Qed.

Lemma fraction_bound : forall l, all_digits l -> (0 <= fraction_value l <= 1)%R.
Proof.
  induction l as [|n l IH]; intros H; [cbn; lra|]. apply Forall_inv in H as N; apply Forall_inv_tail in H. specialize (IH H). cbn [fraction_value].
  assert (0 <= INR n <= 9)%R. { split; [apply pos_INR|]. replace 9%R with (INR 9) by (simpl; lra). apply le_INR. lia. } lra.
Qed.

Lemma before_digits : forall f g, all_digits f -> all_digits g -> before (digits f) (digits g) -> (fraction_value f <= fraction_value g)%R.
Proof.
  induction f as [|a f IH]; intros [|b g] F G H; try now inversion H.
  - pose proof (fraction_bound _ G). exact (proj1 H0).
  - apply Forall_inv in F as A; apply Forall_inv_tail in F. apply Forall_inv in G as B; apply Forall_inv_tail in G.
    pose proof (fraction_bound _ F). pose proof (fraction_bound _ G). rewrite !digits_cons in H. cbn [fraction_value].
    apply before_cons_inv in H as [L|[E L]].
    + rewrite !digit_code in L by assumption. assert (INR a + 1 <= INR b)%R by (rewrite <- S_INR; apply le_INR; lia). lra.
    + apply digit_inj in E; [|assumption|assumption]. subst b. specialize (IH g F G L). lra.
Qed.

(** The text of a decimal number with [n] digits before the point. *)
Definition numeral (n : nat) (s : string) (v : R) : Prop :=
  exists whole fraction, length whole = n /\ all_digits whole /\ all_digits fraction /\ s = decimal whole fraction /\ v = decimal_value whole fraction.

Lemma before_decimals : forall w w' f g, length w = length w' -> all_digits w -> all_digits w' -> all_digits f -> all_digits g ->
  before (decimal w f) (decimal w' g) -> (decimal_value w f <= decimal_value w' g)%R.
Proof.
  induction w as [|a w IH]; intros [|b w'] f g L W W' F G H; try discriminate; unfold decimal, decimal_value in *.
  - cbn [whole_value digits fold_right] in *. apply Rplus_le_compat_l. apply before_digits; auto.
    change (before (String "." (digits f)) (String "." (digits g))) in H.
    apply before_cons_inv in H as [X|[_ X]]; [simpl in X; lia|exact X].
  - apply Forall_inv in W as A; apply Forall_inv_tail in W. apply Forall_inv in W' as B; apply Forall_inv_tail in W'.
    injection L as L. change (before (String (digit a) (digits w ++ "." ++ digits f)%string) (String (digit b) (digits w' ++ "." ++ digits g)%string)) in H.
    pose proof (whole_bound _ W). pose proof (whole_bound _ W'). pose proof (fraction_bound _ F). pose proof (fraction_bound _ G).
    specialize (IH w' f g L W W' F G). cbn [whole_value]. rewrite <- L in *.
    assert (0 < 10 ^ length w)%R by (apply pow_lt; lra).
    apply before_cons_inv in H as [X|[E X]].
    + rewrite !digit_code in X by assumption. assert (INR a + 1 <= INR b)%R by (rewrite <- S_INR; apply le_INR; lia). nra.
    + apply digit_inj in E; [|assumption|assumption]. subst b. specialize (IH X). lra.
Qed.

(** The earliest text in alphabetical order is the least number when there are equally many digits before the point. *)
Theorem C36_decimals : forall n s v s' v', numeral n s v -> numeral n s' v' ->
  (before s s' -> (v <= v')%R) /\ ((v < v')%R -> before s s').
Proof.
  intros n s v s' v' (a & f & L & A & F & -> & ->) (b & g & L' & B & G & -> & ->). split.
  - apply before_decimals; auto. congruence.
  - intros H. destruct (String.ltb (decimal a f) (decimal b g)) eqn:E; [now apply ltb_before|]. exfalso.
    apply not_before in E as [E|E]; swap 1 2.
    + apply (before_decimals b a g f) in E; auto; [lra|congruence].
    + assert (X : forall a b f g, length a = length b -> all_digits a -> all_digits b -> all_digits f -> all_digits g ->
        decimal a f = decimal b g -> decimal_value a f = decimal_value b g).
      { clear. induction a as [|x a IH]; intros [|y b] f g L A B F G H; try discriminate; unfold decimal, decimal_value in *.
        - cbn [whole_value]. f_equal. cbn [digits fold_right] in H. change (String "." (digits f) = String "." (digits g)) in H. injection H as H.
          revert g G H. induction f as [|x f IHf]; intros [|y g] G H; try discriminate; [reflexivity|]. rewrite !digits_cons in H. injection H as H1 H2.
          apply Forall_inv in F as X; apply Forall_inv_tail in F. apply Forall_inv in G as Y; apply Forall_inv_tail in G.
          apply digit_inj in H1; [|assumption|assumption]. subst y. cbn [fraction_value]. now rewrite (IHf F g G H2).
        - injection L as L. change (String (digit x) (digits a ++ "." ++ digits f)%string = String (digit y) (digits b ++ "." ++ digits g)%string) in H. injection H as H1 H2.
          apply Forall_inv in A as X; apply Forall_inv_tail in A. apply Forall_inv in B as Y; apply Forall_inv_tail in B.
          apply digit_inj in H1; [|assumption|assumption]. subst y. cbn [whole_value]. rewrite L.
          specialize (IH b f g L A B F G H2). lra. }
      rewrite (X b a g f) in H; auto; [lra|congruence].
Qed.

Print Assumptions C36_plain_pipelines.
Print Assumptions C36_plain_exceptions.
Print Assumptions C36_iterative_pipelines.
Print Assumptions C36_other_objects_untouched.
Print Assumptions C36_decimals.
Print Assumptions C39_schedule.
Print Assumptions C39_every_fit.
Print Assumptions C39_requested_numbers.
