(** C08: random choice of free parameters.  C38: what is in the report file. *)
From Coq Require Import String Ascii Reals ZArith List Bool Arith Lia Lra.
From Verif Require Import PyBase CNum PyExpr Params ParamClasses ParamSpec ParamProofs PropsParams CommonUtils World WorldProofs DataSets
  Task TaskSpec TaskProofs PropsTask Pipeline PipelineSpec PipelineReports PipelineFreeze.
Import ListNotations.
Local Open Scope list_scope.
Local Open Scope string_scope.

#[local] Arguments String.append : simpl never.

(** ** C08 *)

(** The pipeline's parameters are in the heap. *)
Definition holds (p : Pipeline) (w : World) (d : data) : Prop :=
  nth_error (w_lists w) (r_data (pl_parameters p)) = Some d /\ reachable (r_class (pl_parameters p)) d.

(** Everything but the list of parameters at [a]. *)
Definition only_list (a : addr) (w w' : World) : Prop :=
  w_fits w' = w_fits w /\ w_events w' = w_events w /\ w_draws w' = w_draws w /\ length (w_lists w') = length (w_lists w) /\
  forall b, b <> a -> nth_error (w_lists w') b = nth_error (w_lists w) b.

(** The outcome for any samples. *)
Theorem C08_random_freezing : forall o p w d k fix_resonances res p' w', holds p w d ->
  randomly_freeze_parameters o k fix_resonances (p, w) = (res, (p', w')) ->
  let c := r_class (pl_parameters p) in
  let a := available c fix_resonances d in
  let k' := freed (pl_kind p) k (length a) in
  p' = p /\ only_list (r_data (pl_parameters p)) w w' /\
  exists d', holds p w' d' /\ same_values d d' /\
  match res with
  | Ok l => (0 <= k' <= Z.of_nat (length a))%Z /\ (fix_resonances = true -> no_resonances c = false) /\
      NoDup l /\ (forall n, In n (free_names_of d') <-> In n l) /\
      Z.of_nat (length l) = k' /\ Z.of_nat (length (free_names_of d')) = k' /\
      (forall n, In n (free_names_of d') -> In n (map par_name d) /\ ~ In n (must_stay_fixed c) /\
         (fix_resonances = true -> starts "mass_" n = false /\ starts "decay_rate_" n = false))
  | Err e => (e = AttributeError /\ fix_resonances = true /\ no_resonances c = true) \/
      (e = ValueError /\ (k' < 0 \/ Z.of_nat (length a) < k')%Z)
  end.
Proof.
  intros o p w d k b res p' w' [S RC] H c a k'. assert (I := reachable_inv _ _ RC). rewrite (freeze_eq o p w d S I k b) in H.
  fold c in H. fold a in H. cbv zeta in H. fold k' in H.
  assert (OL : forall d' n, only_list (r_data (pl_parameters p)) w
    (mkWorld (replace (w_lists w) (r_data (pl_parameters p)) d') (w_draws w) n (w_fits w) (w_events w))).
  { intros d' n. repeat split. - apply replace_length. - intros x X. cbn. apply nth_replace_other. congruence. }
  assert (HO : forall f n, (forall m, In m (must_stay_fixed c) -> f m = true) ->
    holds p (mkWorld (replace (w_lists w) (r_data (pl_parameters p)) (flagged f d)) (w_draws w) n (w_fits w) (w_events w)) (flagged f d)).
  { intros f n F. split; [exact (nth_replace_same _ _ _ _ S)|]. apply inv_reachable. now apply flagged_inv. }
  assert (SV : forall f, same_values d (flagged f d)) by (intros f; split; [apply flagged_names|apply flagged_values]).
  assert (HE : forall x m, In m (must_stay_fixed c) -> held c x m = true).
  { intros x m M. unfold held. apply member_In in M. now rewrite M. }
  destruct (andb b (no_resonances c)) eqn:NR.
  { injection H as <- <- <-. split; [reflexivity|]. split; [apply OL|]. eexists. split; [apply HO, HE|]. split; [apply SV|]. left.
    apply andb_prop in NR as [-> ->]. now split. }
  destruct (out_of_range k' (length a)) eqn:OR; injection H as <- <- <-.
  { split; [reflexivity|]. split; [apply OL|]. eexists. split; [apply HO, HE|]. split; [apply SV|]. right. split; [reflexivity|].
    unfold out_of_range in OR. apply orb_prop in OR as [OR|OR]; apply Z.ltb_lt in OR; [now left|now right]. }
  unfold out_of_range in OR. apply orb_false_iff in OR as [O1 O2]. apply Z.ltb_ge in O1, O2.
  assert (ND := available_NoDup c b d I). fold a in ND.
  destruct (pick_spec (Z.to_nat k') (o_sample o (w_samples w)) a) as (L & NL & IN); [lia|exact ND|].
  set (l := pick _ _ a) in *. destruct (chosen_free c d l b I NL IN) as [E1 E2].
  split; [reflexivity|]. split; [apply OL|]. eexists. split.
  { apply HO. intros m M. apply negb_true_iff. destruct (member m l) eqn:E; [|reflexivity]. apply member_In in E. apply IN in E.
    unfold a, available in E. apply filter_In in E as [_ E]. apply member_In in M. rewrite M in E. discriminate. }
  split; [apply SV|]. split; [lia|]. split; [intros ->; now destruct (no_resonances c)|]. split; [exact NL|]. split; [exact E2|].
  split; [lia|]. split; [lia|]. intros n N. apply E2, IN in N. unfold a, available in N. apply filter_In in N as [N1 N2].
  apply andb_prop in N2 as [N2 N3]. split; [exact N1|]. split.
  - intros M. apply member_In in M. rewrite M in N2. discriminate.
  - intros ->. unfold resonance_parameter in N3. cbn [andb] in N3. apply negb_true_iff, orb_false_iff in N3. exact N3.
Qed.

(** Possible numbers never raise, and too large ones are no problem for the nucleon cross-section pipeline. *)
Theorem C08_possible_numbers : forall o p w d k fix_resonances, holds p w d ->
  (fix_resonances = true -> no_resonances (r_class (pl_parameters p)) = false) -> (0 <= k)%Z ->
  let a := available (r_class (pl_parameters p)) fix_resonances d in
  (pl_kind p = NucleonCS \/ k <= Z.of_nat (length a))%Z ->
  exists l w' d', randomly_freeze_parameters o k fix_resonances (p, w) = (Ok l, (p, w')) /\ holds p w' d' /\
    (pl_kind p = NucleonCS -> (Z.of_nat (length a) <= k)%Z -> free_names_of d' = a) /\
    ((k <= Z.of_nat (length a))%Z -> Z.of_nat (length (free_names_of d')) = k).
Proof.
  intros o p w d k b HD NR K0 a KA. destruct (randomly_freeze_parameters o k b (p, w)) as [res [p' w']] eqn:E.
  pose proof (C08_random_freezing _ _ _ _ _ _ _ _ _ HD E) as (-> & OL & d' & HD' & SV & R). fold a in R. cbv zeta in R.
  assert (F : (0 <= freed (pl_kind p) k (length a) <= Z.of_nat (length a))%Z).
  { unfold freed. destruct KA as [-> |KA]; [lia|]. destruct (pl_kind p); lia. }
  destruct res as [l|e].
  - exists l, w', d'. split; [reflexivity|]. split; [exact HD'|]. destruct R as (_ & _ & ND & FN & L1 & L2 & _). split.
    + intros KN KL. rewrite KN in *. cbn [freed] in *.
      assert (LA : length (free_names_of d') = length a) by lia.
      destruct HD' as [S' _]. destruct HD as [S RC]. assert (I := reachable_inv _ _ RC).
      rewrite (freeze_eq o p w d S I k b) in E. fold a in E. rewrite KN in E. cbn [freed] in E.
      replace (b && no_resonances (r_class (pl_parameters p)))%bool with false in E
        by (destruct b; [now rewrite NR|reflexivity]).
      destruct (out_of_range _ _); [discriminate|]. injection E as El Ew. subst w'. cbn in S'.
      rewrite (nth_replace_same _ _ _ _ S) in S'. injection S' as <-. rewrite El in *. rewrite flagged_free in *.
      assert (IN : forall n, In n a -> In n l).
      { destruct (pick_spec (Z.to_nat (Z.min (Z.of_nat (length a)) k)) (o_sample o (w_samples w)) a) as (PL & PN & PI); [lia|now apply available_NoDup|].
        rewrite El in *. apply NoDup_length_incl; [exact PN|lia|exact PI]. }
      unfold a, available. apply filter_ext_in. intros n N. rewrite negb_involutive.
      destruct (_ && _)%bool eqn:Q.
      * apply member_In. apply IN. unfold a, available. apply filter_In. now split.
      * destruct (member n l) eqn:M; [|reflexivity]. apply member_In in M.
        destruct (pick_spec (Z.to_nat (Z.min (Z.of_nat (length a)) k)) (o_sample o (w_samples w)) a) as (PL & PN & PI); [lia|now apply available_NoDup|].
        rewrite El in PI. apply PI in M. unfold a, available in M. apply filter_In in M as [_ M]. congruence.
    + intros KL. rewrite L2. unfold freed. destruct (pl_kind p); lia.
  - exfalso. destruct R as [(_ & -> & X)|(_ & X)]; [rewrite NR in X by reflexivity; discriminate|lia].
Qed.

(** No choice is excluded. *)
Theorem C08_every_choice_possible : forall p w d fix_resonances l, holds p w d ->
  (fix_resonances = true -> no_resonances (r_class (pl_parameters p)) = false) ->
  NoDup l -> incl l (available (r_class (pl_parameters p)) fix_resonances d) ->
  exists picks, forall o, o_sample o (w_samples w) = picks ->
    exists w', randomly_freeze_parameters o (Z.of_nat (length l)) fix_resonances (p, w) = (Ok l, (p, w')).
Proof.
  intros p w d b l [S RC] NR ND IN. assert (I := reachable_inv _ _ RC). set (a := available _ _ _) in *.
  destruct (pick_all l a) as (picks & P); [now apply available_NoDup|exact ND|exact IN|].
  assert (LE := NoDup_incl_length ND IN). exists picks. intros o E. rewrite (freeze_eq o p w d S I). fold a.
  replace (b && no_resonances (r_class (pl_parameters p)))%bool with false by (destruct b; [now rewrite NR|reflexivity]).
  assert (F : freed (pl_kind p) (Z.of_nat (length l)) (length a) = Z.of_nat (length l)) by (unfold freed; destruct (pl_kind p); lia).
  cbv zeta. rewrite F. replace (out_of_range _ _) with false.
  - rewrite Nat2Z.id, E, P. eexists. reflexivity.
  - symmetry. unfold out_of_range. apply orb_false_iff. split; apply Z.ltb_ge; lia.
Qed.

(** Two of the three parameters of the model with two poles; asking for four. *)
Definition demo_pipeline (k : pipeline_kind) : Pipeline :=
  mkPipeline k "demo" (mkRef PTwoPoles 0%nat) [] [demo_point; demo_point] [12; 15]%R [1; 2]%R "out/demo" false true 0 0 0 "" no_fit [] 0.

Lemma demo_holds : forall k, holds (demo_pipeline k) demo_world demo_poles.
Proof. intros k. split; [reflexivity|exact demo_poles_reachable]. Qed.

Example C08_instance :
  let o := demo_oracle returns_seven DivRaises in
  available PTwoPoles false demo_poles = ["a"; "m_1"; "m_2"] /\
  (exists l w' d', randomly_freeze_parameters o 2 false (demo_pipeline NucleonFF, demo_world) = (Ok l, (demo_pipeline NucleonFF, w')) /\
     holds (demo_pipeline NucleonFF) w' d' /\ length (free_names_of d') = 2%nat) /\
  fst (randomly_freeze_parameters o 4 false (demo_pipeline NucleonFF, demo_world)) = Err ValueError /\
  (exists l w' d', randomly_freeze_parameters o 4 false (demo_pipeline NucleonCS, demo_world) = (Ok l, (demo_pipeline NucleonCS, w')) /\
     holds (demo_pipeline NucleonCS) w' d' /\ free_names_of d' = ["a"; "m_1"; "m_2"]) /\
  fst (randomly_freeze_parameters o 1 true (demo_pipeline NucleonCS, demo_world)) = Err AttributeError.
Proof.
  intros o. assert (A : available PTwoPoles false demo_poles = ["a"; "m_1"; "m_2"]) by reflexivity. split; [exact A|].
  assert (X : false = true -> no_resonances PTwoPoles = false) by discriminate. split; [|split; [|split]].
  - destruct (C08_possible_numbers o _ _ _ 2 false (demo_holds NucleonFF) X ltac:(lia)) as (l & w' & d' & E & H & _ & L).
    { right. cbn [demo_pipeline pl_parameters r_class]. rewrite A. simpl. lia. }
    cbn [demo_pipeline pl_parameters r_class] in L. rewrite A in L. specialize (L ltac:(simpl; lia)). exists l, w', d'. split; [exact E|]. split; [exact H|lia].
  - rewrite (freeze_eq o (demo_pipeline NucleonFF) demo_world demo_poles eq_refl (reachable_inv _ _ demo_poles_reachable)). reflexivity.
  - destruct (C08_possible_numbers o _ _ _ 4 false (demo_holds NucleonCS) X ltac:(lia)) as (l & w' & d' & E & H & L & _); [now left|].
    exists l, w', d'. split; [exact E|]. split; [exact H|]. rewrite L; [exact A|reflexivity|]. cbn [demo_pipeline pl_parameters r_class]. rewrite A. simpl. lia.
  - rewrite (freeze_eq o (demo_pipeline NucleonCS) demo_world demo_poles eq_refl (reachable_inv _ _ demo_poles_reachable)). reflexivity.
Qed.

(** ** C38 *)

(** [evs]: everything printed and written from the moment the constructor was called.  Its beginnings are what a crash leaves. *)
Definition accounted (name path : string) (evs : list event) : Prop :=
  (forall n, exists gs pd, printed (firstn n evs) = map (console_line name) (concat gs ++ pd) /\
                           file path (firstn n evs) = rendered name gs) /\
  (forall n, beginning (file path (firstn n evs)) (file path evs)).

(** [pd]: logged but not in the file. *)
Definition missing (name path : string) (evs : list event) (pd : list string) : Prop :=
  exists gs, printed evs = map (console_line name) (concat gs ++ pd) /\ file path evs = rendered name gs.

Lemma account_accounted : forall name dir evs gs pd, account name dir evs gs pd ->
  accounted name (path_join dir "report.txt") evs /\ missing name (path_join dir "report.txt") evs pd.
Proof.
  intros name dir evs gs pd H. split; [split|].
  - intros n. destruct (account_firstn _ _ _ _ _ H n) as (gs' & pd' & A). exists gs', pd'.
    split; [exact (account_printed _ _ _ _ _ A)|exact (account_file _ _ _ _ _ A)].
  - exact (account_growing _ _ _ _ _ H).
  - exists gs. split; [exact (account_printed _ _ _ _ _ H)|exact (account_file _ _ _ _ _ H)].
Qed.

Section Built.
Variables (o : Oracle) (kind : pipeline_kind) (name : string) (parameters : Ref) (tasks : list task_class) (data : Res Prepared)
  (mass alpha hc : R) (reports_dir : string) (plot handpicked : bool) (numbers : list Z) (limit : Z) (w : World).
Let build := Pipeline_init o kind name parameters tasks data mass alpha hc reports_dir plot handpicked numbers limit w.
Let dir := path_join reports_dir name.

Lemma built : forall p w1, build = (Ok p, w1) ->
  some name dir (w_events w) (p, w1) /\ pl_kind p = kind /\ pl_numbers p = numbers.
Proof.
  intros p w1 H. unfold build, Pipeline_init, mbind, lift in H. destruct data as [[[ts ys] es]|e]; [|discriminate].
  unfold set_up_reports_directory in H. fold dir in H.
  destruct (_ || _)%bool; [discriminate|]. destruct (o_mkdir o dir); [|discriminate]. cbn in H. injection H as <- <-.
  split; [|split; reflexivity]. exists [], []. repeat split.
  - cbn. now rewrite append_nil.
  - exists [EvMkdir dir]. split; [reflexivity|]. apply (AccOther name dir [] [] [] (EvMkdir dir)); [constructor|reflexivity].
Qed.

Theorem C38_plain_pipelines : forall p w1 res p' w2, build = (Ok p, w1) -> Pipeline_run o (p, w1) = (res, (p', w2)) ->
  exists evs, w_events w2 = (w_events w ++ evs)%list /\ accounted name (path_join dir "report.txt") evs /\
    (is_ok res -> missing name (path_join dir "report.txt") evs []).
Proof.
  intros p w1 res p' w2 B H. destruct (built _ _ B) as (S & _). pose proof (plain_accounts name dir (w_events w) o _ S) as X.
  rewrite H in X. destruct res as [b|e].
  - destruct X as (gs & _ & _ & _ & evs & E & A). destruct (account_accounted _ _ _ _ _ A). eauto.
  - destruct X as (gs & pd & _ & _ & _ & evs & E & A). destruct (account_accounted _ _ _ _ _ A). exists evs. split; [exact E|]. split; [assumption|intros [? ?]; discriminate].
Qed.

Theorem C38_iterative_pipelines : forall p w1 res p' w2, build = (Ok p, w1) -> IterativePipeline_run o (p, w1) = (res, (p', w2)) ->
  exists evs, w_events w2 = (w_events w ++ evs)%list /\ accounted name (path_join dir "report.txt") evs /\
    (is_ok res ->
     match kind with
     | NucleonCS => exists text, let i := str_nat (length numbers + 1) in
         missing name (path_join dir "report.txt") evs
           ["Initializing Task#" ++ i ++ ". Residuals."; "Running Task#" ++ i ++ ":ResidualOscillationsTask";
            "Task#" ++ i ++ ":ResidualOscillationsTask" ++ " report: " ++ text]
     | _ => missing name (path_join dir "report.txt") evs []
     end).
Proof.
  intros p w1 res p' w2 B H. destruct (built _ _ B) as (S & K & N).
  pose proof (iterative_accounts name dir (w_events w) o kind numbers (p, w1) (conj S (conj K N))) as X.
  rewrite H in X. destruct res as [b|e].
  - assert (Y : exists gs pd evs, w_events w2 = (w_events w ++ evs)%list /\ account name dir evs gs pd /\
      match kind with NucleonCS => exists text, pd = residual_messages (length numbers + 1) text | _ => pd = [] end).
    { destruct kind; try (destruct X as (gs & _ & _ & _ & evs & E & A); now exists gs, [], evs).
      destruct X as (gs & text & _ & _ & _ & evs & E & A). eexists gs, _, evs. split; [exact E|]. split; [exact A|]. now exists text. }
    destruct Y as (gs & pd & evs & E & A & PD). destruct (account_accounted _ _ _ _ _ A) as [A1 A2]. exists evs. split; [exact E|].
    split; [exact A1|]. intros _. destruct kind; try (now subst pd). destruct PD as (text & ->). exists text. cbv zeta.
    unfold residual_messages in A2. cbv zeta in A2. cbn [class_name] in A2. rewrite !append_assoc in *. exact A2.
  - destruct X as (gs & pd & _ & _ & _ & evs & E & A). destruct (account_accounted _ _ _ _ _ A). exists evs. split; [exact E|]. split; [assumption|intros [? ?]; discriminate].
Qed.

(** All files are in the directory of the pipeline, under names that depend on their purpose. *)
Definition confined (dir : string) (e : event) : Prop :=
  match e with
  | EvPrint _ => True
  | EvMkdir p => p = dir
  | EvAppend p _ => p = path_join dir "report.txt"
  | EvWrite p _ => exists x, p = path_join dir ("report_" ++ x ++ ".txt")
  | EvPlot p => exists x, p = path_join dir (x ++ ".png")
  end.

Theorem C38_own_directory : forall p w1 res p' w2, build = (Ok p, w1) ->
  Pipeline_run o (p, w1) = (res, (p', w2)) \/ IterativePipeline_run o (p, w1) = (res, (p', w2)) ->
  exists evs, w_events w2 = (w_events w ++ EvMkdir dir :: evs)%list /\ Forall (confined dir) evs.
Proof.
  intros p w1 res p' w2 B H. destruct (built _ _ B) as (S & K & N).
  assert (BASE : w_events w1 = (w_events w ++ [EvMkdir dir])%list /\ some name dir (w_events w1) (p, w1)).
  { clear H S K N. unfold build, Pipeline_init, mbind, lift in B. destruct data as [[[ts ys] es]|e]; [|discriminate].
    unfold set_up_reports_directory in B. fold dir in B.
    destruct (_ || _)%bool; [discriminate|]. destruct (o_mkdir o dir); [|discriminate]. cbn in B. injection B as <- <-.
    split; [reflexivity|]. exists [], []. repeat split.
    - cbn. now rewrite append_nil.
    - exists []. split; [now rewrite app_nil_r|constructor]. }
  destruct BASE as (E1 & S1).
  assert (X : exists evs gs pd, w_events w2 = (w_events w1 ++ evs)%list /\ account name dir evs gs pd).
  { destruct H as [H|H].
    - pose proof (plain_accounts name dir (w_events w1) o _ S1) as X. rewrite H in X.
      destruct res; [destruct X as (gs & _ & _ & _ & evs & E & A)|destruct X as (gs & pd & _ & _ & _ & evs & E & A)]; eauto 6.
    - pose proof (iterative_accounts name dir (w_events w1) o kind numbers (p, w1) (conj S1 (conj K N))) as X. rewrite H in X.
      destruct res; [|destruct X as (gs & pd & _ & _ & _ & evs & E & A); eauto 6].
      destruct kind; try (destruct X as (gs & _ & _ & _ & evs & E & A); now eauto 6).
      destruct X as (gs & text & _ & _ & _ & evs & E & A). eauto 6. }
  destruct X as (evs & gs & pd & E & A). exists evs. split; [rewrite E, E1, <- app_assoc; reflexivity|]. exact (account_own _ _ _ _ _ A).
Qed.

(** An existing directory is left alone. *)
Theorem C38_existing_directory : forall x, data = Ok x -> o_exists o dir = true \/ In (EvMkdir dir) (w_events w) ->
  build = (Err ValueError, w).
Proof.
  intros x E H. unfold build, Pipeline_init, mbind, lift. rewrite E. destruct x as [[ts ys] es]. unfold set_up_reports_directory. fold dir.
  replace (_ || _)%bool with true; [reflexivity|]. symmetry. destruct H as [-> |H]; [reflexivity|]. apply orb_true_iff. right.
  apply existsb_exists. exists (EvMkdir dir). split; [exact H|apply String.eqb_refl].
Qed.

(** The constructor fails without a trace or makes one new directory. *)
Theorem C38_constructor : forall r w1, build = (r, w1) ->
  (~ is_ok r /\ w1 = w) \/
  (is_ok r /\ o_exists o dir = false /\ ~ In (EvMkdir dir) (w_events w) /\
   w1 = mkWorld (w_lists w) (w_draws w) (w_samples w) (w_fits w) (w_events w ++ [EvMkdir dir])).
Proof.
  intros r w1 H. unfold build, Pipeline_init, mbind, lift in H. destruct data as [[[ts ys] es]|e]; [|injection H as <- <-; left; split; [intros [? ?]; discriminate|reflexivity]].
  unfold set_up_reports_directory in H. fold dir in H.
  destruct (_ || _)%bool eqn:E; [injection H as <- <-; left; split; [intros [? ?]; discriminate|reflexivity]|]. destruct (o_mkdir o dir); [|injection H as <- <-; left; split; [intros [? ?]; discriminate|reflexivity]].
  cbn in H. injection H as <- <-. right. apply orb_false_iff in E as [E1 E2]. split; [now eexists|]. split; [exact E1|]. split; [|reflexivity].
  intros IM. assert (T : existsb (made dir) (w_events w) = true) by (apply existsb_exists; exists (EvMkdir dir); split; [exact IM|apply String.eqb_refl]).
  congruence.
Qed.
End Built.

(** A second pipeline of the same name. *)
Theorem C38_second_pipeline : forall o k k' name r r' ts ts' x x' m m' a a' h h' dir pl pl' hp hp' ns ns' l l' w p w1 w2 evs,
  Pipeline_init o k name r ts x m a h dir pl hp ns l w = (Ok p, w1) -> w_events w2 = (w_events w1 ++ evs)%list -> is_ok x' ->
  Pipeline_init o k' name r' ts' x' m' a' h' dir pl' hp' ns' l' w2 = (Err ValueError, w2).
Proof.
  intros. match goal with H : is_ok x' |- _ => destruct H as [y ->] end. eapply C38_existing_directory; [reflexivity|]. right.
  match goal with H : Pipeline_init _ _ _ _ _ x _ _ _ _ _ _ _ _ _ = _ |- _ => apply C38_constructor in H as [(F & _)|(_ & _ & _ & E)] end;
    [exfalso; apply F; now eexists|]. subst w1. match goal with H : w_events w2 = _ |- _ => rewrite H end. cbn. apply in_app_iff. left. apply in_app_iff. right. now left.
Qed.

(** No tasks: all is written.  A task class the pipeline cannot create: two messages stay unwritten. *)
Example C38_instance :
  let o := demo_oracle gives_up DivRaises in
  let init kind tasks := Pipeline_init o kind "demo" (mkRef PTwoPoles 0%nat) tasks (Ok ([demo_point; demo_point], [12; 15], [1; 2])%R) 0 0 0
                      "out" false true [] 0 demo_world in
  (exists p w1 p' w2, init NucleonFF [] = (Ok p, w1) /\ Pipeline_run o (p, w1) = (Ok no_fit, (p', w2)) /\
     w_events w2 = [EvMkdir "out/demo"; EvPrint "Pipeline demo: Starting. Initial parameters: 
";
                    EvPrint "Pipeline demo: Best fit: 
";
                    EvAppend "out/demo/report.txt" "Report demo:
Starting. Initial parameters: 
Best fit: 
"]) /\
  (exists p w1 p' w2, init NucleonCS [NFF_FullFit] = (Ok p, w1) /\ Pipeline_run o (p, w1) = (Err TypeError, (p', w2)) /\
     file "out/demo/report.txt" (w_events w2) = "" /\
     printed (w_events w2) = map (console_line "demo") ["Starting. Initial parameters: "; "Initializing Task#0. Parameters: "]) /\
  (forall p w1, init NucleonFF [] = (Ok p, w1) ->
     fst (Pipeline_init o KaonCS "demo" (mkRef PTwoPoles 0%nat) [] (Ok ([], [], [])) 0 0 0 "out" true true [] 0 w1) = Err ValueError).
Proof.
  intros o init. split; [|split].
  - eexists _, _, _, _. split; [cbn; reflexivity|]. split; [lazy -[IZR RtoC]; reflexivity|reflexivity].
  - eexists _, _, _, _. split; [cbn; reflexivity|]. split; [lazy -[IZR RtoC]; reflexivity|]. split; reflexivity.
  - intros p w1 H. erewrite C38_second_pipeline with (evs := []); [reflexivity|exact H|now rewrite app_nil_r|now eexists].
Qed.

Print Assumptions C08_random_freezing.
Print Assumptions C08_possible_numbers.
Print Assumptions C08_every_choice_possible.
Print Assumptions C38_plain_pipelines.
Print Assumptions C38_iterative_pipelines.
Print Assumptions C38_existing_directory.
Print Assumptions C38_constructor.
Print Assumptions C38_own_directory.
Print Assumptions C38_second_pipeline.
