(** C52: the files of a run.  Every stage of a pipeline leaves its own report file and at most one picture, under names
    that tell the stage; no file is written twice; the report file of a stage holds the text that was logged. *)
From Coq Require Import String Ascii Decimal DecimalNat DecimalString Reals ZArith List Bool Arith Lia.
From Verif Require Import PyBase CNum PyExpr Params ParamClasses CommonUtils World DataSets Task Pipeline PipelineSpec PipelineReports
  PropsTask PropsReports.
Import ListNotations.
Local Open Scope list_scope.
Local Open Scope string_scope.
Local Open Scope m_scope.

#[local] Arguments String.append : simpl never.

(** ** Specification *)

(** What is written and drawn, without the common report file (C38). *)
Inductive output := Image (path : string) | Text (path text : string).
Definition path_of (x : output) : string := match x with Image p => p | Text p _ => p end.
Fixpoint outputs (evs : list event) : list output :=
  match evs with
  | [] => []
  | EvPlot p :: r => Image p :: outputs r
  | EvWrite p s :: r => Text p s :: outputs r
  | _ :: r => outputs r
  end.

(** A stage: its number, its name, the name as it appears in the file name of the picture. *)
Record stage := mkStage { st_number : nat; st_label : string; st_file : string }.

Definition label_of (c : task_class) : string * string :=
  match c with
  | KCS_FullFit | KFF_FullFit | NCS_FullFit | NFF_FullFit => ("TaskFullFit", "taskfullfit")
  | KFF_FullFitOnlyCharged => ("TaskFullFitOnlyCharged", "taskfullfitonlycharged")
  | KCS_FixedCoupling | NCS_FixedCoupling => ("TaskFixedCouplingConstants", "taskfixedcouplingconstants")
  | KCS_FixAccording | KFF_FixAccording | NCS_FixAccording | NFF_FixAccording =>
      ("TaskFixAccordingToParametersFit", "taskfixaccordingtoparametersfit")
  | KFF_FixAccordingOnlyCharged =>
      ("TaskFixAccordingToParametersFitOnlyCharged", "taskfixaccordingtoparametersfitonlycharged")
  | ETGMRTask => ("ETGMRModelTask", "etgmrmodeltask")
  | TwoPolesTask => ("TwoPolesModelTask", "twopolesmodeltask")
  | ResidualTask => ("ResidualOscillationsTask", "residualoscillationstask")
  end.
Definition stage_of (ic : nat * task_class) : stage :=
  mkStage (fst ic) (fst (label_of (snd ic))) (snd (label_of (snd ic))).

Definition plain_stages (tasks : list task_class) : list stage := map stage_of (combine (seq 0 (length tasks)) tasks).

Definition round_stage (i : nat) : stage :=
  mkStage i "TaskFixAccordingToParametersFit" "taskfixaccordingtoparametersfit".
Definition iterative_stages (kind : pipeline_kind) (rounds : nat) (fixed_rounds : Z) : list stage :=
  (map round_stage (seq 0 rounds) ++
  match kind with
  | KaonCS | NucleonFF => [mkStage rounds "TaskFullFit" "taskfullfit"]
  | KaonFF => [mkStage rounds "TaskFullFitOnlyCharged" "taskfullfitonlycharged"]
  | NucleonCS =>
      [if Z.ltb (Z.of_nat rounds) fixed_rounds
       then mkStage rounds "Full fit (Fixed resonances)" "full fit (fixed resonances)"
       else mkStage rounds "Full fit" "full fit";
       mkStage (rounds + 1) "ResidualOscillationsTask" "residualoscillationstask"]
  end)%list.

(** A stage that came to its end: was there a picture, and what does its report say? *)
Record finished := mkFinished { fi_stage : stage; fi_image : bool; fi_text : string }.

Section Spec.
Variables (name dir : string).

Definition task_name (s : stage) : string := "Task#" ++ str_nat (st_number s) ++ ":" ++ st_label s.
Definition image_path (s : stage) : string := path_join dir ("task#" ++ str_nat (st_number s) ++ ":" ++ st_file s ++ ".png").
Definition report_path (s : stage) : string := path_join dir ("report_" ++ str_nat (st_number s) ++ ".txt").
Definition image_of (b : bool) (s : stage) : list output := if b then [Image (image_path s)] else [].
Definition files (f : finished) : list output :=
  (image_of (fi_image f) (fi_stage f) ++ [Text (report_path (fi_stage f)) (fi_text f)])%list.
Definition announced (f : finished) : string := task_name (fi_stage f) ++ " report: " ++ fi_text f.

(** [evs]: all events of a run; the finished stages are a beginning of the planned ones, and the stage at which the run
    broke off, if it did, has left at most its picture. *)
Definition left_behind (stages : list stage) (evs : list event) (fs : list finished) (rest : list stage) : Prop :=
  (map fi_stage fs ++ rest)%list = stages /\
  Forall (fun f => In (console_line name (announced f)) (printed evs)) fs /\
  exists extra, outputs evs = (flat_map files fs ++ extra)%list /\
    (extra = [] \/ exists s rest', rest = s :: rest' /\ extra = [Image (image_path s)]).
End Spec.

(** ** Names *)

Lemma lower_app : forall a b, lower (a ++ b) = lower a ++ lower b.
Proof. induction a as [|x a IH]; intros b; [reflexivity|]. change (String (lower_char x) (lower (a ++ b)) = String (lower_char x) (lower a ++ lower b)). now rewrite IH. Qed.

(** Digits only. *)
Fixpoint digital (s : string) : Prop :=
  match s with "" => True | String a r => (48 <= nat_of_ascii a <= 57)%nat /\ digital r end.
Lemma digital_uint : forall u, digital (NilEmpty.string_of_uint u).
Proof. induction u; cbn [NilEmpty.string_of_uint digital]; [exact I|..]; (split; [cbn; lia|assumption]). Qed.
Lemma digital_str : forall n, digital (str_nat n).
Proof. intros n. apply digital_uint. Qed.
Lemma lower_digital : forall s, digital s -> lower s = s.
Proof.
  induction s as [|a s IH]; [reflexivity|]. intros [[A B] H]. cbn [lower]. rewrite IH by exact H. f_equal.
  unfold lower_char. destruct (Nat.leb_spec 65 (nat_of_ascii a)); [lia|reflexivity].
Qed.
Lemma str_nat_inj : forall n m, str_nat n = str_nat m -> n = m.
Proof.
  intros n m H. apply (f_equal NilEmpty.uint_of_string) in H. unfold str_nat in H. rewrite !NilEmpty.usu in H.
  injection H as H. now apply Unsigned.to_uint_inj.
Qed.
(** Digits up to a character that is none. *)
Lemma digital_split : forall a b x y c, digital a -> digital b -> (nat_of_ascii c < 48 \/ 57 < nat_of_ascii c)%nat ->
  a ++ String c x = b ++ String c y -> a = b.
Proof.
  induction a as [|p a IH]; intros [|q b] x y c HA HB HC H.
  - reflexivity.
  - change (String c x = String q (b ++ String c y)) in H. injection H as -> _. destruct HB as [HB _]. lia.
  - change (String p (a ++ String c x) = String c y) in H. injection H as -> _. destruct HA as [HA _]. lia.
  - change (String p (a ++ String c x) = String q (b ++ String c y)) in H. injection H as -> H. f_equal.
    destruct HA as [_ HA], HB as [_ HB]. eapply IH; eassumption.
Qed.

(** The name of the picture. *)
Lemma lower_task_name : forall s, lower (st_label s) = st_file s ->
  lower (task_name s) ++ ".png" = "task#" ++ str_nat (st_number s) ++ ":" ++ st_file s ++ ".png".
Proof.
  intros s H. unfold task_name. rewrite !lower_app, H, (lower_digital _ (digital_str _)).
  change (lower "Task#") with "task#". change (lower ":") with ":". now rewrite !append_assoc.
Qed.

Lemma path_join_inj : forall d a b x y, a <> "/"%char -> b <> "/"%char ->
  path_join d (String a x) = path_join d (String b y) -> String a x = String b y.
Proof.
  assert (P : forall a x, a <> "/"%char -> prefix "/" (String a x) = false).
  { intros a x N. cbn [prefix]. destruct (ascii_dec "/" a) as [E|_]; [congruence|reflexivity]. }
  intros d a b x y A B H. unfold path_join in H. rewrite (P a x A), (P b y B) in H.
  destruct (orb _ _); apply append_cancel in H; [exact H|]. now apply append_cancel in H.
Qed.

Lemma report_path_inj : forall dir s s', report_path dir s = report_path dir s' -> st_number s = st_number s'.
Proof.
  intros dir s s' H. unfold report_path in H.
  apply (path_join_inj dir "r" "r" ("eport_" ++ str_nat (st_number s) ++ ".txt") ("eport_" ++ str_nat (st_number s') ++ ".txt")) in H;
    [|discriminate|discriminate].
  apply str_nat_inj. injection H as H.
  apply (digital_split _ _ "txt" "txt" "."%char); [apply digital_str|apply digital_str|cbn; lia|exact H].
Qed.
Lemma image_path_inj : forall dir s s', image_path dir s = image_path dir s' -> st_number s = st_number s'.
Proof.
  intros dir s s' H. unfold image_path in H.
  apply (path_join_inj dir "t" "t" ("ask#" ++ str_nat (st_number s) ++ ":" ++ st_file s ++ ".png")
           ("ask#" ++ str_nat (st_number s') ++ ":" ++ st_file s' ++ ".png")) in H; [|discriminate|discriminate].
  apply str_nat_inj. injection H as H.
  eapply (digital_split _ _ _ _ ":"%char); [apply digital_str|apply digital_str|cbn; lia|exact H].
Qed.
Lemma image_not_report : forall dir s s', image_path dir s <> report_path dir s'.
Proof.
  intros dir s s' H. unfold image_path, report_path in H.
  apply (path_join_inj dir "t" "r" ("ask#" ++ str_nat (st_number s) ++ ":" ++ st_file s ++ ".png")
           ("eport_" ++ str_nat (st_number s') ++ ".txt")) in H; discriminate.
Qed.
Lemma image_not_common : forall dir s, image_path dir s <> path_join dir "report.txt".
Proof.
  intros dir s H. unfold image_path in H.
  apply (path_join_inj dir "t" "r" ("ask#" ++ str_nat (st_number s) ++ ":" ++ st_file s ++ ".png") "eport.txt") in H; discriminate.
Qed.
Lemma report_not_common : forall dir s, report_path dir s <> path_join dir "report.txt".
Proof. intros dir s. apply saved_is_not_report. Qed.

(** ** The stages have different numbers *)

Lemma plain_numbers : forall tasks, map st_number (plain_stages tasks) = seq 0 (length tasks).
Proof.
  intros tasks. unfold plain_stages. rewrite map_map. generalize 0%nat. induction tasks as [|c l IH]; intros n; [reflexivity|].
  cbn. now rewrite IH.
Qed.
Lemma iterative_numbers : forall kind n limit, exists k, map st_number (iterative_stages kind n limit) = seq 0 k.
Proof.
  intros kind n limit. unfold iterative_stages. rewrite map_app, map_map. cbn [round_stage st_number]. rewrite map_id.
  destruct kind; cbn [map st_number].
  - exists (S n). symmetry. apply seq_S.
  - exists (S n). symmetry. apply seq_S.
  - exists (S (S n)). rewrite !seq_S, <- app_assoc. cbn. rewrite Nat.add_1_r. destruct (Z.ltb _ _); reflexivity.
  - exists (S n). symmetry. apply seq_S.
Qed.

Lemma NoDup_app_intro : forall A (a b : list A), NoDup a -> NoDup b -> (forall x, In x a -> ~ In x b) -> NoDup (a ++ b)%list.
Proof.
  intros A a b HA HB H. induction HA as [|x a N HA IH]; [exact HB|]. cbn. constructor.
  - rewrite in_app_iff. intros [K|K]; [contradiction|]. apply (H x); [now left|exact K].
  - apply IH. intros y Y. apply H. now right.
Qed.

Lemma NoDup_app_left : forall A (a b : list A), NoDup (a ++ b)%list -> NoDup a.
Proof.
  intros A a b. induction a as [|x a IH]; intros H; [constructor|]. cbn in H. inversion H as [|y l N ND]; subst. constructor; [|now apply IH].
  intros K. apply N. apply in_app_iff. now left.
Qed.

Lemma paths_NoDup : forall dir fs, NoDup (map st_number (map fi_stage fs)) -> NoDup (map path_of (flat_map (files dir) fs)).
Proof.
  intros dir fs. induction fs as [|f fs IH]; intros H; [constructor|]. cbn [map] in H. inversion H as [|n l N ND]; subst.
  cbn [flat_map]. rewrite map_app. apply NoDup_app_intro.
  - unfold files, image_of. destruct (fi_image f); cbn.
    + constructor; [intros [E|[]]; symmetry in E; now apply image_not_report in E|]. constructor; [intros []|constructor].
    + constructor; [intros []|constructor].
  - now apply IH.
  - intros x HX HY. apply in_map_iff in HY as (y & <- & HY). apply in_flat_map in HY as (g & G & HY). apply N.
    rewrite map_map. apply in_map_iff. exists g. split; [|exact G].
    unfold files, image_of in HX, HY. destruct (fi_image f), (fi_image g); cbn in HX, HY;
      repeat match goal with H : _ \/ _ |- _ => destruct H | H : False |- _ => destruct H end; subst; cbn [path_of] in *;
      repeat match goal with
      | H : image_path _ _ = image_path _ _ |- _ => apply image_path_inj in H; congruence
      | H : report_path _ _ = report_path _ _ |- _ => apply report_path_inj in H; congruence
      | H : image_path _ _ = report_path _ _ |- _ => now apply image_not_report in H
      | H : report_path _ _ = image_path _ _ |- _ => symmetry in H; now apply image_not_report in H
      end.
Qed.

Lemma left_NoDup : forall name dir stages evs fs rest, NoDup (map st_number stages) -> left_behind name dir stages evs fs rest ->
  NoDup (map path_of (outputs evs)) /\ ~ In (path_join dir "report.txt") (map path_of (outputs evs)).
Proof.
  intros name dir stages evs fs rest ND (E & _ & extra & O & X). subst stages. rewrite map_app in ND.
  assert (A : NoDup (map st_number (map fi_stage fs))) by (apply NoDup_app_left in ND; exact ND).
  rewrite O, map_app. split.
  - apply NoDup_app_intro; [now apply paths_NoDup| |].
    + destruct X as [-> |(s & r & _ & ->)]; [constructor|]. constructor; [intros []|constructor].
    + intros x HX HY. destruct X as [-> |(s & r & -> & ->)]; [exact HY|]. destruct HY as [<- |[]].
      apply in_map_iff in HX as (y & Q & HX). apply in_flat_map in HX as (g & G & HX). cbn [path_of] in Q.
      unfold files in HX. apply in_app_iff in HX as [HX|[<- |[]]].
      * unfold image_of in HX. destruct (fi_image g); [|destruct HX]. destruct HX as [<- |[]]. cbn [path_of] in Q. apply image_path_inj in Q.
        cbn [map] in ND. apply NoDup_remove_2 in ND. apply ND. apply in_app_iff. left. rewrite map_map. apply in_map_iff. now exists g.
      * cbn [path_of] in Q. symmetry in Q. now apply image_not_report in Q.
  - rewrite in_app_iff. intros [H|H].
    + apply in_map_iff in H as (y & Q & H). apply in_flat_map in H as (g & G & H). unfold files in H.
      apply in_app_iff in H as [H|[<- |[]]].
      * unfold image_of in H. destruct (fi_image g); [|destruct H]. destruct H as [<- |[]]. now apply image_not_common in Q.
      * now apply report_not_common in Q.
    + destruct X as [-> |(s & r & _ & ->)]; [exact H|]. destruct H as [H|[]]. now apply image_not_common in H.
Qed.

(** ** The heap: what a task's report refers to is not what the pipeline changes later *)

Definition grows {A : Type} (m : W A) : Prop := forall w, (length (w_lists w) <= length (w_lists (snd (m w))))%nat.

Lemma replace_length : forall h a l, length (replace h a l) = length h.
Proof. induction h as [|x h IH]; intros [|a] l; cbn; auto. Qed.

Lemma grows_bind : forall A B (x : W A) (f : A -> W B), grows x -> (forall a, grows (f a)) -> grows (mbind x f).
Proof.
  intros A B x f H K w. unfold mbind. specialize (H w). destruct (x w) as [[a|e] w']; [|exact H]. cbn [snd] in H.
  specialize (K a w'). lia.
Qed.
Lemma grows_ret : forall A (a : A), grows (ret a).
Proof. intros A a w. cbn. lia. Qed.
Lemma grows_lift : forall A (a : Res A), grows (lift a).
Proof. intros A a w. cbn. lia. Qed.
Lemma grows_read : forall a, grows (read a).
Proof. intros a w. unfold read. now destruct (nth_error _ _). Qed.
Lemma grows_alloc : forall l, grows (alloc l).
Proof. intros l w. cbn. rewrite app_length. lia. Qed.
Lemma grows_write : forall a l, grows (write a l).
Proof. intros a l w. cbn. rewrite replace_length. lia. Qed.
#[local] Hint Resolve grows_ret grows_lift grows_read grows_alloc grows_write : grows.
Ltac grows := first [solve [auto with grows] | apply grows_bind; [grows | intros ?; grows] | idtac].

Lemma grows_mutate : forall r m, grows (obj_mutate r m).
Proof. intros r m. unfold obj_mutate. apply grows_bind; [auto with grows|]. intros d. destruct (mutate _ _ _) as [res d']. grows. Qed.
Lemma grows_to_list : forall r, grows (obj_to_list r).
Proof. intros r. unfold obj_to_list. grows. Qed.
Lemma grows_new : forall c kw, grows (obj_new c kw).
Proof. intros c kw. unfold obj_new. grows. Qed.
#[local] Hint Resolve grows_mutate grows_to_list grows_new : grows.
Lemma grows_from_list : forall c l, grows (obj_from_list c l).
Proof. intros c l. unfold obj_from_list. cbv zeta. grows. Qed.
#[local] Hint Resolve grows_from_list : grows.
Lemma grows_copy : forall r, grows (obj_copy r).
Proof. intros r. unfold obj_copy. grows. Qed.
Lemma grows_obj_read : forall A r (f : data -> Res A), grows (obj_read r f).
Proof. intros A r f. unfold obj_read. grows. Qed.
#[local] Hint Resolve grows_copy grows_obj_read : grows.
Lemma grows_make_cs : forall m a hc r, grows (make_partial_cross_section_for_parameters m a hc r).
Proof. intros. unfold make_partial_cross_section_for_parameters. grows. Qed.
Lemma grows_make_ff : forall r, grows (make_partial_form_factor_for_parameters r).
Proof. intros. unfold make_partial_form_factor_for_parameters. grows. Qed.
Lemma grows_call : forall p ts args, grows (call_partial p ts args).
Proof. intros [r|m a hc r|r] ts args; unfold call_partial; grows. Qed.
Lemma grows_own : forall t, grows (own_cross_section t).
Proof.
  intros t. unfold own_cross_section. destruct (tk_numbers t); [apply grows_make_cs|]. unfold make_partial_misplaced. grows.
Qed.
Lemma grows_note_fit : forall x, grows (note_fit x).
Proof. intros x w. cbn. lia. Qed.
Lemma grows_savefig : forall o d t, grows (savefig o d t).
Proof. intros o d t w. unfold savefig. destruct (o_render _ _); cbn; lia. Qed.
#[local] Hint Resolve grows_own grows_make_cs grows_make_ff grows_call grows_note_fit grows_savefig : grows.

(** The lists of the report exist and are not the parameters themselves. *)
Definition apart (t : Task) : Prop :=
  rp_initial (tk_report t) <> r_data (tk_parameters t) /\ forall a, rp_final (tk_report t) = Some a -> a <> r_data (tk_parameters t).
Definition referred (t : Task) (w : World) : Prop :=
  (r_data (tk_parameters t) < length (w_lists w) /\ rp_initial (tk_report t) < length (w_lists w))%nat /\
  forall a, rp_final (tk_report t) = Some a -> (a < length (w_lists w))%nat.
Definition J (s : Task * World) : Prop := apart (fst s) /\ referred (fst s) (snd s).

Lemma J_inW : forall A (m : W A), grows m -> keeps J (inW m).
Proof.
  intros A m H [t w] (I1 & (I2 & I3) & I4). unfold inW. cbn [fst snd] in *. specialize (H w). destruct (m w) as [r w']. cbn [fst snd] in *.
  split; [exact I1|]. unfold referred. cbn [fst snd]. split; [lia|]. intros a Q. specialize (I4 a Q). lia.
Qed.
Lemma J_modify : forall f, (forall t, tk_parameters (f t) = tk_parameters t /\ rp_initial (tk_report (f t)) = rp_initial (tk_report t) /\
  rp_final (tk_report (f t)) = rp_final (tk_report t)) -> keeps J (modify f).
Proof.
  intros f H [t w] HJ. destruct (H t) as (H1 & H2 & H3). unfold J, apart, referred, modify in *. cbn [fst snd] in *.
  now rewrite H1, H2, H3.
Qed.
Lemma J_self : keeps J self.
Proof. intros s H. exact H. Qed.
#[local] Hint Resolve keeps_ret keeps_raise keeps_lift J_self : keep.
#[local] Hint Extern 1 (keeps J (inW _)) => apply J_inW; auto with grows : keep.
Ltac keep := first [solve [auto with keep] | apply keeps_bind; [keep | intros ?; keep] | idtac].

Lemma J_with_f : forall f, keeps J (modify (with_f f)).
Proof. intros f. apply J_modify. intros []. repeat split. Qed.
Lemma J_failed : forall m, keeps J (modify (fun t => with_report (failed m (tk_report t)) t)).
Proof. intros f. apply J_modify. intros []. repeat split. Qed.
Lemma J_with_fit_data : forall x, keeps J (modify (with_fit_data x)).
Proof. intros [[a b] c]. apply J_modify. intros []. repeat split. Qed.
#[local] Hint Resolve J_with_f J_failed J_with_fit_data : keep.

Lemma J_oscillations : forall ts pars, keeps J (oscillations ts pars).
Proof. intros. unfold oscillations. keep. apply J_inW. grows. Qed.
#[local] Hint Resolve J_oscillations : keep.
Lemma J_call_f : forall ts args, keeps J (call_f ts args).
Proof. intros. unfold call_f. apply keeps_bind; [auto with keep|]. intros t. destruct (tk_f t) as [[p|]|]; auto with keep. Qed.
#[local] Hint Resolve J_call_f : keep.
Lemma J_cs : keeps J partial_cross_section.
Proof. unfold partial_cross_section. keep. Qed.
Lemma J_ff : keeps J partial_form_factor.
Proof. unfold partial_form_factor. keep. Qed.
Lemma J_release : keeps J release_all_parameters.
Proof. unfold release_all_parameters. keep. Qed.
Lemma J_couplings : keeps J fix_couplings.
Proof. unfold fix_couplings. keep. Qed.
Lemma J_charged : keeps J only_charged.
Proof. unfold only_charged. keep. Qed.

(** The residual task takes new parameters. *)
Lemma obj_new_fresh : forall c kw w r w', obj_new c kw w = (Ok r, w') -> r_data r = length (w_lists w) /\ length (w_lists w') = S (length (w_lists w)).
Proof.
  intros c kw w r w' H. unfold obj_new, lift, alloc, mbind, ret in H. destruct (construct c kw); [|discriminate].
  injection H as <- <-. cbn. rewrite app_length. cbn. split; [reflexivity|lia].
Qed.
Lemma J_residuals : keeps J set_up_residuals.
Proof.
  unfold set_up_residuals. apply keeps_bind; [auto with keep|]. intros t. apply keeps_bind; [auto with keep|]. intros _.
  apply keeps_bind; [auto with keep|]. intros f. apply keeps_bind; [auto with keep|]. intros ys. apply keeps_bind; [auto with keep|]. intros x.
  intros [u w] ((I1 & I5) & (I2 & I3) & I4). unfold mbind, inW. cbn [fst snd].
  destruct (obj_new POscillations _ w) as [[r|e] w'] eqn:E.
  - apply obj_new_fresh in E as [F L]. unfold modify. cbn [fst snd].
    assert (X : tk_parameters (with_residuals r (fst x) (snd x) u) = r /\ tk_report (with_residuals r (fst x) (snd x) u) = tk_report u).
    { destruct u, (snd x) as [[? ?] ?]. split; reflexivity. }
    unfold J, apart, referred. cbn [fst snd] in *. destruct X as [-> ->]. rewrite F, L. split; split.
    + lia.
    + intros a A. specialize (I4 a A). lia.
    + lia.
    + intros a A. specialize (I4 a A). lia.
  - assert (G := grows_new POscillations [("a", 100); ("b", 2); ("c", 5); ("d", 0)]%R w). rewrite E in G. cbn [fst snd] in *.
    split; [split; assumption|]. unfold referred. cbn [fst snd]. split; [lia|]. intros a A. specialize (I4 a A). lia.
Qed.
#[local] Hint Resolve J_cs J_ff J_release J_couplings J_charged J_residuals : keep.

Lemma J_set_up : keeps J Task_set_up.
Proof. unfold Task_set_up. apply keeps_bind; [auto with keep|]. intros t. destruct (tk_class t); keep. Qed.
Lemma J_run_fit : forall f x, (forall args, keeps J (f args)) -> keeps J (run_fit f x).
Proof. intros f x H. induction x as [args k IH|popt pcov|e]; simpl; keep. Qed.
Lemma J_curve_fit : forall o, keeps J (call_curve_fit o).
Proof.
  intros o. unfold call_curve_fit. apply keeps_bind; [auto with keep|]. intros t. cbv zeta. apply keeps_bind; [auto with keep|]. intros d.
  apply keeps_bind; [auto with keep|]. intros b. apply keeps_bind; [auto with keep|]. intros n. apply J_run_fit. intros args. keep.
Qed.
Lemma J_fit : forall o, keeps J (Task_fit o).
Proof.
  intros o s H. unfold Task_fit. pose proof (J_curve_fit o s H) as K. destruct (call_curve_fit o s) as [[x|e] s']; [exact K|].
  destruct e; try exact K. cbv zeta.
  apply (keeps_bind _ _ _ J (modify (fun t => with_report (failed (o_message o (length (w_fits (snd s')))) (tk_report t)) t)) (fun _ => ret None)); auto with keep.
Qed.
Lemma J_chi : forall o x, keeps J (chi_squared_text o x).
Proof. intros o x s H. unfold chi_squared_text. destruct x; [exact H|]. destruct (o_division _ _); exact H. Qed.
#[local] Hint Resolve J_chi : keep.

Lemma J_update_report : forall o opt cov, keeps J (update_report o opt cov).
Proof.
  intros o opt cov. unfold update_report. apply keeps_bind; [auto with keep|]. intros t0. apply keeps_bind; [auto with keep|]. intros ys.
  cbv zeta. apply keeps_bind; [auto with keep|]. intros chi [t w] ((I1 & I5) & (I2 & I3) & I4). cbn [fst snd] in *.
  unfold mbind at 1. unfold inW at 1. cbn [fst snd].
  unfold obj_to_list, mbind at 1, read. destruct (nth_error (w_lists w) (r_data (tk_parameters t0))) as [d|]; [|split; [now split|split; [now split|assumption]]].
  unfold alloc. unfold mbind at 1.
  set (w1 := set_lists (w_lists w ++ [d]) w).
  assert (L : length (w_lists w1) = S (length (w_lists w))) by (unfold w1; cbn; rewrite app_length; cbn; lia).
  set (G := fun s : Task * World => fst s = t /\ (S (length (w_lists w)) <= length (w_lists (snd s)))%nat).
  assert (KG : keeps G (inW (obj_read (tk_parameters t0) (get_ordered (r_class (tk_parameters t0)))))).
  { intros [t2 w2] [Q1 Q2]. unfold inW. cbn [fst snd] in *. assert (GG := grows_obj_read _ (tk_parameters t0) (get_ordered (r_class (tk_parameters t0))) w2).
    destruct (obj_read _ _ w2) as [rr w3]. cbn [fst snd] in *. split; [exact Q1|cbn [snd]; lia]. }
  assert (G1 : G (t, w1)) by (split; [reflexivity|cbn [snd]; lia]). specialize (KG _ G1).
  destruct (inW (obj_read (tk_parameters t0) (get_ordered (r_class (tk_parameters t0)))) (t, w1)) as [[v|e] [t2 w2]]; destruct KG as [KT Q]; cbn [fst snd] in KT, Q; subst t2.
  - unfold modify, J, apart, referred. cbn [fst snd].
    match goal with |- context [with_report ?r t] => assert (X : tk_parameters (with_report r t) = tk_parameters t /\ tk_report (with_report r t) = r) by (destruct t; split; reflexivity) end.
    destruct X as [-> ->]. cbn [rp_initial rp_final snd] in *. split; split.
    + assumption.
    + intros a [= <-]. lia.
    + lia.
    + intros a [= <-]. lia.
  - split; [now split|]. unfold referred. cbn [fst snd] in *. split; [lia|]. intros a A. specialize (I4 a A). lia.
Qed.
Lemma J_draw : forall style opt, keeps J (draw style opt).
Proof. intros style opt. unfold draw. apply keeps_bind; [auto with keep|]. intros t. destruct style; keep. Qed.
Lemma J_plot : forall o opt, keeps J (Task_plot o opt).
Proof.
  intros o opt. unfold Task_plot. apply keeps_bind; [auto with keep|]. intros t. destruct (tk_reports_dir t) as [[|a d]|]; [auto with keep| |auto with keep].
  apply keeps_bind; [apply J_draw|]. intros _. auto with keep.
Qed.
#[local] Hint Resolve J_update_report J_plot : keep.
Theorem J_run : forall o, keeps J (Task_run o).
Proof.
  intros o. unfold Task_run. apply keeps_bind; [apply J_set_up|]. intros _. apply keeps_bind; [apply J_fit|]. intros res.
  apply keeps_bind.
  - destruct res as [[opt cov]|]; keep.
  - intros _. keep.
Qed.

(** ** A task draws at most one picture *)

Section Calm.
Variables (base : list event) (D : option string) (N : string).
Definition K (s : Task * World) : Prop := w_events (snd s) = base /\ tk_reports_dir (fst s) = D /\ tk_name (fst s) = N.

Lemma K_inW : forall A (m : W A), quiet m -> keeps K (inW m).
Proof.
  intros A m H [t w] (I1 & I2 & I3). unfold inW. cbn [fst snd] in *. specialize (H w). destruct (m w) as [r w']. cbn [fst snd] in *.
  unfold K. cbn [fst snd]. now rewrite H.
Qed.
Lemma K_modify : forall f, (forall t, tk_reports_dir (f t) = tk_reports_dir t /\ tk_name (f t) = tk_name t) -> keeps K (modify f).
Proof. intros f H [t w] HK. destruct (H t) as (H1 & H2). unfold K, modify in *. cbn [fst snd] in *. now rewrite H1, H2. Qed.
Lemma K_self : keeps K self.
Proof. intros s H. exact H. Qed.
#[local] Hint Resolve K_self : keep.
#[local] Hint Resolve quiet_ret quiet_lift quiet_read quiet_alloc quiet_write quiet_mutate quiet_to_list quiet_new quiet_from_list quiet_copy
  quiet_obj_read quiet_make_cs quiet_make_ff quiet_call quiet_own quiet_note_fit : quiet.
#[local] Hint Extern 1 (keeps K (inW _)) => apply K_inW; auto with quiet : keep.
Ltac fields := intros []; repeat match goal with |- context [let '(_, _) := ?x in _] => destruct x end; split; reflexivity.

Lemma K_with_f : forall f, keeps K (modify (with_f f)).
Proof. intros f. apply K_modify. fields. Qed.
Lemma K_with_report : forall f, keeps K (modify (fun t => with_report (f t) t)).
Proof. intros f. apply K_modify. intros []. split; reflexivity. Qed.
Lemma K_with_fit_data : forall x, keeps K (modify (with_fit_data x)).
Proof. intros [[a b] c]. apply K_modify. fields. Qed.
Lemma K_with_residuals : forall p e x, keeps K (modify (with_residuals p e x)).
Proof. intros p e [[a b] c]. apply K_modify. fields. Qed.
#[local] Hint Resolve K_with_f K_with_report K_with_fit_data K_with_residuals : keep.
Lemma K_oscillations : forall ts pars, keeps K (oscillations ts pars).
Proof. intros. unfold oscillations. keep. apply K_inW. quiet. Qed.
#[local] Hint Resolve K_oscillations : keep.
Lemma K_call_f : forall ts args, keeps K (call_f ts args).
Proof. intros. unfold call_f. apply keeps_bind; [auto with keep|]. intros t. destruct (tk_f t) as [[p|]|]; auto with keep. Qed.
#[local] Hint Resolve K_call_f : keep.
Lemma K_set_up : keeps K Task_set_up.
Proof.
  unfold Task_set_up, release_all_parameters, fix_couplings, only_charged, partial_cross_section, partial_form_factor, set_up_residuals.
  apply keeps_bind; [auto with keep|]. intros t. destruct (tk_class t); keep.
Qed.
Lemma K_run_fit : forall f x, (forall args, keeps K (f args)) -> keeps K (run_fit f x).
Proof. intros f x H. induction x as [args k IH|popt pcov|e]; simpl; keep. Qed.
Lemma K_curve_fit : forall o, keeps K (call_curve_fit o).
Proof.
  intros o. unfold call_curve_fit. apply keeps_bind; [auto with keep|]. intros t. cbv zeta. apply keeps_bind; [auto with keep|]. intros d.
  apply keeps_bind; [auto with keep|]. intros b. apply keeps_bind; [auto with keep|]. intros n. apply K_run_fit. intros args. keep.
Qed.
Lemma K_fit : forall o, keeps K (Task_fit o).
Proof.
  intros o s H. unfold Task_fit. pose proof (K_curve_fit o s H) as X. destruct (call_curve_fit o s) as [[x|e] s']; [exact X|].
  destruct e; try exact X. cbv zeta.
  apply (keeps_bind _ _ _ K (modify (fun t => with_report (failed (o_message o (length (w_fits (snd s')))) (tk_report t)) t)) (fun _ => ret None)); auto with keep.
Qed.
Lemma K_chi : forall o x, keeps K (chi_squared_text o x).
Proof. intros o x s H. unfold chi_squared_text. destruct x; [exact H|]. destruct (o_division _ _); exact H. Qed.
#[local] Hint Resolve K_chi : keep.
Lemma K_update_report : forall o opt cov, keeps K (update_report o opt cov).
Proof. intros o opt cov. unfold update_report. cbv zeta. keep. Qed.
Lemma K_draw : forall style opt, keeps K (draw style opt).
Proof. intros style opt. unfold draw. apply keeps_bind; [auto with keep|]. intros t. destruct style; keep. Qed.
#[local] Hint Resolve K_update_report K_draw : keep.

Definition drawn (s : Task * World) : Prop :=
  w_events (snd s) = base \/ exists d, D = Some d /\ w_events (snd s) = (base ++ [EvPlot (path_join d (lower N ++ ".png"))])%list.

Lemma K_drawn : forall s, K s -> drawn s.
Proof. intros s H. left. apply H. Qed.

Lemma run_drawn : forall o s, K s -> drawn (snd (Task_run o s)).
Proof.
  intros o. change (forall s, K s -> drawn (snd (Task_run o s))).
  assert (T : triple K (Task_run o) (fun _ => drawn) drawn).
  { unfold Task_run. eapply triple_bind with (R := fun _ => K).
    { eapply triple_weaken; [| | |apply keeps_triple; apply K_set_up]; auto using K_drawn. }
    intros _. eapply triple_bind with (R := fun _ => K).
    { eapply triple_weaken; [| | |apply keeps_triple; apply (K_fit o)]; auto using K_drawn. }
    intros res. eapply triple_bind with (R := fun _ => drawn).
    2:{ intros u s H. exact H. }
    destruct res as [[opt cov]|]; [|apply triple_ret; apply K_drawn].
    eapply triple_bind with (R := fun _ => K).
    { eapply triple_weaken; [| | |apply keeps_triple; apply K_self]; auto using K_drawn. }
    intros t. eapply triple_bind with (R := fun _ => K).
    { eapply triple_weaken; [| | |apply keeps_triple; apply K_inW; auto with quiet]; auto using K_drawn. }
    intros _. eapply triple_bind with (R := fun _ => K).
    { eapply triple_weaken; [| | |apply keeps_triple; apply K_update_report]; auto using K_drawn. }
    intros _ s H. unfold Task_plot. unfold mbind at 1. unfold self. pose proof H as (H1 & H2 & H3).
    destruct (tk_reports_dir (fst s)) as [[|a d]|] eqn:Q; [left; exact H1| |left; exact H1].
    pose proof (K_draw (style_of (tk_class (fst s))) opt s H) as X. unfold mbind.
    destruct (draw (style_of (tk_class (fst s))) opt s) as [[u|e] [t1 w1]]; [|left; apply X].
    cbn [snd] in X. destruct X as (X1 & X2 & X3). cbn [fst snd] in X1, X2, X3.
    unfold inW, savefig. cbn [fst snd]. destruct (o_render o (length (w_events w1))); [left; exact X1|].
    right. exists (String a d). split; [congruence|]. cbn. now rewrite X1, H3. }
  intros s H. specialize (T s H). destruct (Task_run o s) as [[r|e] s']; exact T.
Qed.
End Calm.

(** ** The stages of a run *)

Section Run.
Variables (o : Oracle) (name dir : string) (kind : pipeline_kind) (tasks : list task_class) (numbers : list Z) (limit : Z)
  (base : list event) (stages : list stage).
#[local] Hint Resolve quiet_ret quiet_lift quiet_read quiet_alloc quiet_write quiet_mutate quiet_to_list quiet_new quiet_from_list quiet_copy
  quiet_obj_read quiet_make_cs quiet_make_ff quiet_call quiet_note_fit quiet_task_init quiet_read_option quiet_report_text quiet_best_text
  quiet_sample : quiet.

Notation fin := finished.
Definition same_pipeline (p : Pipeline) : Prop :=
  (pl_name p = name /\ pl_reports_dir p = dir) /\ pl_kind p = kind /\ pl_tasks p = tasks /\ pl_numbers p = numbers /\ pl_fixed_rounds p = limit.

(** [fs]: stages that are over; [extra]: what the present one has left; [said]: what it has logged. *)
Definition FI (fs : list fin) (extra : list output) (said : list string) (s : Pipeline * World) : Prop :=
  same_pipeline (fst s) /\
  exists evs, w_events (snd s) = (base ++ evs)%list /\ outputs evs = (flat_map (files dir) fs ++ extra)%list /\
    Forall (fun f => In (console_line name (announced f)) (printed evs)) fs /\
    Forall (fun m => In (console_line name m) (printed evs)) said.

Definition broken (s : Pipeline * World) : Prop :=
  exists fs rest extra, (map fi_stage fs ++ rest)%list = stages /\ FI fs extra [] s /\
    (extra = [] \/ exists st rest', rest = st :: rest' /\ extra = [Image (image_path dir st)]).

Lemma FI_less : forall fs extra said s, FI fs extra said s -> FI fs extra [] s.
Proof. intros fs extra said s (H & evs & E & O & L & _). split; [exact H|]. exists evs. auto. Qed.

Lemma FI_broken : forall fs b said st rest s, (map fi_stage fs ++ st :: rest)%list = stages -> FI fs (image_of dir b st) said s -> broken s.
Proof.
  intros fs b said st rest s E H. exists fs, (st :: rest), (image_of dir b st). split; [exact E|]. split; [now apply FI_less in H|].
  destruct b; [right; now exists st, rest|now left].
Qed.
Lemma FI_broken_between : forall fs rest s, (map fi_stage fs ++ rest)%list = stages -> FI fs [] [] s -> broken s.
Proof. intros fs rest s E H. exists fs, rest, []. auto. Qed.

(** Programs that add nothing but texts. *)
Definition still {A : Type} (m : PM A) : Prop := forall fs extra said, keeps (FI fs extra said) m.

Lemma still_bind : forall A B (x : PM A) (f : A -> PM B), still x -> (forall a, still (f a)) -> still (mbind x f).
Proof. intros A B x f H G fs extra said. apply keeps_bind; [apply H|]. intros a. apply G. Qed.
Lemma still_ret : forall A (a : A), still (ret a).
Proof. intros A a fs extra said. apply keeps_ret. Qed.
Lemma still_raise : forall A e, still (@raise _ A e).
Proof. intros A e fs extra said. apply keeps_raise. Qed.
Lemma still_this : still this.
Proof. intros fs extra said s H. exact H. Qed.
Lemma still_onW : forall A (m : W A), quiet m -> still (onW m).
Proof.
  intros A m H fs extra said [p w] (H1 & evs & H2 & H3). unfold onW. cbn [fst snd] in *. specialize (H w).
  destruct (m w) as [r w']. cbn [snd] in *. split; [exact H1|]. exists evs. cbn [fst snd]. rewrite H. auto.
Qed.
Lemma still_change : forall f, (forall p, same_pipeline p -> same_pipeline (f p)) -> still (change f).
Proof. intros f F fs extra said [p w] (H1 & H2). split; [now apply F|exact H2]. Qed.
Lemma still_with_best : forall b, still (change (with_best b)).
Proof. intros b. apply still_change. intros [] H. exact H. Qed.
Lemma still_with_parameters : forall r, still (change (with_parameters r)).
Proof. intros b. apply still_change. intros [] H. exact H. Qed.

Lemma outputs_app : forall a b, outputs (a ++ b)%list = (outputs a ++ outputs b)%list.
Proof. induction a as [|[] a IH]; intros b; cbn; rewrite ?IH; reflexivity. Qed.

(** Events that leave no file of their own. *)
Lemma FI_emit : forall fs extra said p p' w e more new, FI fs extra said (p, w) -> same_pipeline p' -> outputs [e] = new ->
  (forall m, In m more -> In (console_line name m) (printed [e])) ->
  FI fs (extra ++ new) (said ++ more) (p', mkWorld (w_lists w) (w_draws w) (w_samples w) (w_fits w) (w_events w ++ [e])).
Proof.
  intros fs extra said p p' w e more new (H1 & evs & H2 & H3 & H4 & H5) S N M. split; [exact S|]. exists (evs ++ [e])%list. cbn [fst snd w_events] in *.
  rewrite H2, outputs_app, H3, N, !app_assoc. split; [reflexivity|]. split; [reflexivity|]. split.
  - eapply Forall_impl; [|exact H4]. cbv beta. intros f F. rewrite printed_app. apply in_app_iff. now left.
  - apply Forall_app. split.
    + eapply Forall_impl; [|exact H5]. cbv beta. intros f F. rewrite printed_app. apply in_app_iff. now left.
    + apply Forall_forall. intros m I. rewrite printed_app. apply in_app_iff. right. now apply M.
Qed.

Lemma log_said : forall m fs extra said, triple (FI fs extra said) (log m) (fun _ => FI fs extra (said ++ [m])%list) (fun _ => False).
Proof.
  intros m fs extra said [p w] H. unfold log, this, onW, emit, change, mbind. cbn [fst snd].
  replace extra with (extra ++ [])%list by apply app_nil_r. pose proof H as (((N & _) & _) & _). cbn [fst] in N.
  eapply FI_emit with (p := p); [exact H| |reflexivity|].
  - destruct H as (S & _). cbn [fst] in S. destruct p. exact S.
  - intros x [<- |[]]. rewrite N. now left.
Qed.
Lemma still_log : forall m, still (log m).
Proof.
  intros m fs extra said s H. pose proof (log_said m fs extra said s H) as T. destruct (log m s) as [[u|e] s']; [|destruct T].
  destruct T as (S & evs & E & O & L & M). split; [exact S|]. exists evs. apply Forall_app in M as [M _]. auto.
Qed.
Lemma still_flush : still flush_report.
Proof.
  intros fs extra said [p w] H. unfold flush_report, this, onW, emit, change, mbind. cbn [fst snd].
  replace extra with (extra ++ [])%list by apply app_nil_r. replace said with (said ++ [])%list by apply app_nil_r.
  eapply FI_emit with (p := p); [exact H| |reflexivity|intros m []].
  destruct H as (S & _). cbn [fst] in S. destruct p. exact S.
Qed.

#[local] Hint Resolve still_ret still_raise still_this still_with_best still_with_parameters still_log still_flush : still.
#[local] Hint Extern 1 (still (onW _)) => apply still_onW; auto with quiet : still.
Ltac still := first [solve [auto with still] | apply still_bind; [still | intros ?; still] | idtac].

Lemma still_mutate : forall m, still (mutate_parameters m).
Proof. intros m. unfold mutate_parameters. still. Qed.
#[local] Hint Resolve still_mutate : still.
Lemma still_show : still (show_parameters o).
Proof. unfold show_parameters. still. Qed.
Lemma still_update_best : forall t, still (update_best_fit t).
Proof.
  intros t. unfold update_best_fit. destruct (truthy (rp_chi_squared (tk_report t))); [|still].
  apply still_bind; [still|]. intros p. cbv zeta. match goal with |- still (if ?b then _ else _) => destruct b end; still.
Qed.
Lemma still_create : forall n c, still (create_task n c).
Proof.
  intros n c. unfold create_task. apply still_bind; [still|]. intros p.
  destruct (passes_masses (pl_kind p)), (kind_of c); still.
Qed.
Lemma still_freeze : forall k f, still (randomly_freeze_parameters o k f).
Proof.
  intros k f. unfold randomly_freeze_parameters. apply still_bind; [still|]. intros _.
  apply still_bind; [destruct f; still|]. intros _. apply still_bind; [still|]. intros p. still.
Qed.
#[local] Hint Resolve still_show still_update_best still_create still_freeze : still.
Lemma still_log_start : still (log_start o).
Proof. unfold log_start. still. Qed.
Lemma still_log_best : still (log_best o).
Proof. unfold log_best. still. Qed.
#[local] Hint Resolve still_log_start still_log_best : still.

(** ** What a report says stays *)

Definition shown (t : Task) (text : string) (w : World) : Prop :=
  exists d fd, nth_error (w_lists w) (rp_initial (tk_report t)) = Some d /\
    match rp_final (tk_report t) with
    | None => fd = None
    | Some a => exists d', nth_error (w_lists w) a = Some d' /\ fd = Some d'
    end /\ text = o_show_report o (tk_report t) d fd.

Lemma shown_text : forall t text w, shown t text w -> report_text o (tk_report t) w = (Ok text, w).
Proof.
  intros t text w (d & fd & H1 & H2 & ->). unfold report_text, mbind at 1, read. rewrite H1. unfold read_option.
  destruct (rp_final (tk_report t)) as [a|].
  - destruct H2 as (d' & H2 & ->). unfold mbind, read. now rewrite H2.
  - now subst fd.
Qed.
Lemma referred_shown : forall t w, referred t w -> exists text, shown t text w.
Proof.
  intros t w ((_ & H1) & H2). destruct (nth_error (w_lists w) (rp_initial (tk_report t))) as [d|] eqn:E; [|apply nth_error_None in E; lia].
  destruct (rp_final (tk_report t)) as [a|] eqn:F.
  - specialize (H2 a eq_refl). destruct (nth_error (w_lists w) a) as [d'|] eqn:G; [|apply nth_error_None in G; lia].
    exists (o_show_report o (tk_report t) d (Some d')), d, (Some d'). split; [exact E|]. rewrite F. split; [now exists d'|reflexivity].
  - exists (o_show_report o (tk_report t) d None), d, None. rewrite F. auto.
Qed.

(** Programs that change no list but the one at [x]. *)
Definition spares {A : Type} (x : addr) (m : W A) : Prop := forall w b d, b <> x -> nth_error (w_lists w) b = Some d ->
  nth_error (w_lists (snd (m w))) b = Some d.
Lemma spares_bind : forall A B x (m : W A) (f : A -> W B), spares x m -> (forall a, spares x (f a)) -> spares x (mbind m f).
Proof.
  intros A B x m f H G w b d N E. unfold mbind. specialize (H w b d N E). destruct (m w) as [[a|e] w']; [|exact H]. now apply G.
Qed.
Lemma spares_ret : forall A x (a : A), spares x (ret a).
Proof. intros A x a w b d N E. exact E. Qed.
Lemma spares_lift : forall A x (a : Res A), spares x (lift a).
Proof. intros A x a w b d N E. exact E. Qed.
Lemma spares_read : forall x a, spares x (read a).
Proof. intros x a w b d N E. unfold read. now destruct (nth_error (w_lists w) a). Qed.
Lemma spares_alloc : forall x l, spares x (alloc l).
Proof. intros x l w b d N E. cbn. rewrite nth_error_app1; [exact E|]. apply nth_error_Some. congruence. Qed.
Lemma nth_replace : forall h a b l d, b <> a -> nth_error h b = Some d -> nth_error (replace h a l) b = Some d.
Proof.
  induction h as [|x h IH]; intros [|a] [|b] l d N E; cbn in *; try congruence. apply IH; [congruence|exact E].
Qed.
Lemma spares_write : forall x l, spares x (write x l).
Proof. intros x l w b d N E. cbn. now apply nth_replace. Qed.
#[local] Hint Resolve spares_ret spares_lift spares_read spares_alloc spares_write : spares.
Ltac spares := first [solve [auto with spares] | apply spares_bind; [spares | intros ?; spares] | idtac].
Lemma spares_mutate : forall r m, spares (r_data r) (obj_mutate r m).
Proof. intros r m. unfold obj_mutate. apply spares_bind; [auto with spares|]. intros d. destruct (mutate _ _ _) as [res d']. spares. Qed.
Lemma spares_to_list : forall x r, spares x (obj_to_list r).
Proof. intros x r. unfold obj_to_list. spares. Qed.
Lemma spares_obj_read : forall A x r (f : data -> Res A), spares x (obj_read r f).
Proof. intros A x r f. unfold obj_read. spares. Qed.
Lemma spares_best : forall x b, spares x (best_text o b).
Proof. intros x b. unfold best_text, read_option. apply spares_bind; [destruct (bf_parameters b); spares|]. intros l. spares. Qed.
#[local] Hint Resolve spares_to_list spares_obj_read spares_best : spares.

(** The task's report, and the pipeline's parameters are the task's. *)
Definition RT (t : Task) (text : string) (s : Pipeline * World) : Prop := apart t /\ shown t text (snd s).
Definition RP (t : Task) (text : string) (s : Pipeline * World) : Prop := RT t text s /\ pl_parameters (fst s) = tk_parameters t.

Lemma shown_spares : forall A t text (m : W A) w, apart t -> spares (r_data (tk_parameters t)) m -> shown t text w -> shown t text (snd (m w)).
Proof.
  intros A t text m w [A1 A2] S (d & fd & H1 & H2 & E). exists d, fd. split; [now apply S|]. split; [|exact E].
  destruct (rp_final (tk_report t)) as [a|]; [|exact H2]. destruct H2 as (d' & H2 & ->). exists d'. split; [|reflexivity].
  apply S; [now apply A2|exact H2].
Qed.
Lemma RT_onW : forall A t text (m : W A), spares (r_data (tk_parameters t)) m -> keeps (RT t text) (onW m).
Proof.
  intros A t text m S [p w] (H1 & H2). unfold onW. cbn [fst snd] in *. pose proof (shown_spares _ _ _ m w H1 S H2) as X.
  destruct (m w) as [r w']. split; [exact H1|exact X].
Qed.
Lemma RP_onW : forall A t text (m : W A), spares (r_data (tk_parameters t)) m -> keeps (RP t text) (onW m).
Proof.
  intros A t text m S s (H1 & H2). pose proof (RT_onW _ _ _ m S s H1) as X. unfold onW in *. destruct s as [p w]. cbn [fst snd] in *.
  destruct (m w) as [r w']. split; [exact X|exact H2].
Qed.
Lemma RT_emit : forall t text e, keeps (RT t text) (onW (emit e)).
Proof. intros t text e. apply RT_onW. intros w b d N E. exact E. Qed.
Lemma RP_emit : forall t text e, keeps (RP t text) (onW (emit e)).
Proof. intros t text e. apply RP_onW. intros w b d N E. exact E. Qed.
Lemma RT_change : forall t text f, keeps (RT t text) (change f).
Proof. intros t text f [p w] H. exact H. Qed.
Lemma RP_with_text : forall t text x, keeps (RP t text) (change (with_text x)).
Proof. intros t text x [[] w] H. exact H. Qed.
Lemma RT_this : forall t text, keeps (RT t text) this.
Proof. intros t text s H. exact H. Qed.
Lemma RP_this : forall t text, keeps (RP t text) this.
Proof. intros t text s H. exact H. Qed.
#[local] Hint Resolve RT_emit RP_emit RT_change RP_with_text RT_this RP_this : keep.
#[local] Hint Extern 1 (keeps (RT _ _) (onW _)) => apply RT_onW; auto with spares : keep.
#[local] Hint Extern 1 (keeps (RP _ _) (onW _)) => apply RP_onW; auto with spares : keep.

Lemma RT_update_best : forall t text t', keeps (RT t text) (update_best_fit t').
Proof.
  intros t text t'. unfold update_best_fit. destruct (truthy (rp_chi_squared (tk_report t'))); [|keep].
  apply keeps_bind; [keep|]. intros p. cbv zeta. match goal with |- keeps _ (if ?b then _ else _) => destruct b end; keep.
Qed.
Lemma RP_log : forall t text m, keeps (RP t text) (log m).
Proof. intros t text m. unfold log. apply keeps_bind; [keep|]. intros p. apply keeps_bind; [keep|]. intros _ [[] w] H. exact H. Qed.
Lemma RP_flush : forall t text, keeps (RP t text) flush_report.
Proof. intros t text. unfold flush_report. cbv zeta. keep. Qed.
Lemma RP_mutate : forall t text m, keeps (RP t text) (mutate_parameters m).
Proof.
  intros t text m [p w] H. unfold mutate_parameters, mbind, this. cbn [fst]. apply RP_onW; [|exact H]. destruct H as (_ & H). cbn [fst] in H. rewrite H.
  apply spares_mutate.
Qed.
#[local] Hint Resolve RT_update_best RP_log RP_flush RP_mutate : keep.
Lemma RP_log_best : forall t text, keeps (RP t text) (log_best o).
Proof. intros t text. unfold log_best. keep. Qed.
Lemma RP_start : forall t text, triple (RT t text) (change (with_parameters (tk_parameters t))) (fun _ => RP t text) (fun _ => False).
Proof. intros t text [[] w] H. split; [exact H|reflexivity]. Qed.

(** ** One stage *)

Section Stage.
Variables (fs : list fin) (st : stage) (rest : list stage).
Hypothesis PLAN : (map fi_stage fs ++ st :: rest)%list = stages.
Hypothesis LOWER : lower (st_label st) = st_file st.

Lemma stage_still : forall A (m : PM A) b said, still m -> triple (FI fs (image_of dir b st) said) m (fun _ => FI fs (image_of dir b st) said) broken.
Proof.
  intros A m b said H s HI. specialize (H fs (image_of dir b st) said s HI). destruct (m s) as [[a|e] s']; [exact H|].
  eapply FI_broken; [exact PLAN|exact H].
Qed.

Lemma created : forall n c s t s', create_task n c s = (Ok t, s') ->
  (tk_reports_dir t = Some (pl_reports_dir (fst s)) \/ tk_reports_dir t = None) /\ tk_name t = n /\ J (t, snd s').
Proof.
  intros n c [p w] t s' H. split; [exact (created_dir n c (p, w) t s' H)|]. unfold create_task, mbind at 1, this in H. cbn [fst] in *.
  assert (X : forall m a hc k d pl h, onW (Task_init c n (pl_parameters p) (pl_ts p) (pl_ys p) (pl_errors p) m a hc k d pl h) (p, w) = (Ok t, s') ->
    tk_name t = n /\ J (t, snd s')).
  { intros m a hc k d pl h E. unfold onW, Task_init in E. cbn [snd fst] in E. unfold mbind, obj_to_list, mbind, read, alloc in E.
    destruct (nth_error (w_lists w) (r_data (pl_parameters p))) as [l|] eqn:Q; [|discriminate]. injection E as <- <-.
    assert (L : (r_data (pl_parameters p) < length (w_lists w))%nat) by (apply nth_error_Some; congruence).
    split; [reflexivity|]. split; cbn; [split; cbn; [lia|discriminate]|]. split; cbn; [rewrite app_length; cbn; lia|discriminate]. }
  destruct (passes_masses (pl_kind p)), (kind_of c); try discriminate; eapply X; exact H.
Qed.

Lemma ran : forall t said, (tk_reports_dir t = Some dir \/ tk_reports_dir t = None) -> tk_name t = task_name st ->
  triple (fun s => FI fs [] said s /\ J (t, snd s)) (run_task o t)
    (fun t' s => (exists b, FI fs (image_of dir b st) said s) /\ J (t', snd s)) broken.
Proof.
  intros t said D N [p w] [HI HJ]. unfold run_task. cbn [fst snd] in *.
  pose proof (J_run o _ HJ) as RJ.
  pose proof (run_drawn (w_events w) (tk_reports_dir t) (tk_name t) o (t, w) ltac:(split; [reflexivity|split; reflexivity])) as RD.
  assert (TL : forall e : event, True) by auto. destruct (Task_run o (t, w)) as [res [t' w']]. cbn [fst snd] in *.
  assert (X : exists b, FI fs (image_of dir b st) said (p, w')).
  { destruct HI as (S & evs & E & O & L & M). destruct RD as [RD|(d & Q & RD)]; cbn [fst snd] in *.
    - exists false. split; [exact S|]. exists evs. cbn [snd]. rewrite RD. auto.
    - exists true. split; [exact S|]. exists (evs ++ [EvPlot (path_join d (lower (tk_name t) ++ ".png"))])%list. cbn [snd].
      assert (d = dir) by (destruct D as [D|D]; congruence). subst d. rewrite RD, E, <- app_assoc. split; [reflexivity|].
      rewrite outputs_app, O, app_nil_r. split.
      { cbn [outputs image_of]. unfold image_path. now rewrite N, (lower_task_name _ LOWER). }
      split; (eapply Forall_impl; [|eassumption]); cbv beta; intros f F; rewrite printed_app; apply in_app_iff; now left. }
  destruct res as [r|e].
  - split; [exact X|exact RJ].
  - destruct X as (b & X). eapply FI_broken; [exact PLAN|exact X].
Qed.

Lemma J_log : forall t m, keeps (fun s : Pipeline * World => J (t, snd s)) (log m).
Proof. intros t m [p w] H. exact H. Qed.

Lemma create_and_run_stage : forall c,
  triple (FI fs [] []) (create_and_run o (task_name st) c)
    (fun t s => exists b text, FI fs (image_of dir b st) [(task_name st ++ " report: " ++ text)%string] s /\ RT t text s) broken.
Proof.
  intros c. unfold create_and_run.
  eapply triple_bind with (R := fun t s => (FI fs [] [] s /\ J (t, snd s)) /\
    (tk_reports_dir t = Some dir \/ tk_reports_dir t = None) /\ tk_name t = task_name st).
  { intros s H. pose proof (still_create (task_name st) c fs [] [] s H) as K. pose proof (created (task_name st) c s) as D.
    destruct (create_task (task_name st) c s) as [[t|e] s']; [|eapply (FI_broken fs false); [exact PLAN|exact K]].
    destruct (D t s' eq_refl) as (D1 & D2 & D3). destruct H as (((_ & HD) & _) & _). rewrite HD in D1. auto. }
  intros t. eapply triple_bind with (R := fun _ s => (FI fs [] [("Running " ++ task_name st)%string] s /\ J (t, snd s)) /\
    (tk_reports_dir t = Some dir \/ tk_reports_dir t = None) /\ tk_name t = task_name st).
  { intros s ((H & HJ) & D). pose proof (log_said ("Running " ++ task_name st) fs [] [] s H) as K.
    pose proof (J_log t ("Running " ++ task_name st) s HJ) as KJ. destruct (log _ s) as [[u|e] s']; [auto|destruct K]. }
  intros _. eapply triple_bind with (R := fun t' s => (exists b, FI fs (image_of dir b st) [("Running " ++ task_name st)%string] s) /\ J (t', snd s)).
  { intros s ((H & HJ) & D1 & D2). exact (ran t _ D1 D2 s (conj H HJ)). }
  intros t' [p w] ((b & H) & (A & RF)). cbn [snd fst] in RF, A. destruct (referred_shown _ _ RF) as (text & SH).
  unfold mbind, onW at 1. cbn [fst snd]. rewrite (shown_text _ _ _ SH).
  assert (SH' : RT t' text (p, w)) by (split; [exact A|exact SH]).
  pose proof (log_said (task_name st ++ " report: " ++ text) fs _ _ (p, w) H) as K.
  assert (KR : RT t' text (snd (log (task_name st ++ " report: " ++ text) (p, w)))) by exact SH'.
  destruct (log _ (p, w)) as [[u|e] s']; [|destruct K]. cbn [snd] in KR. unfold ret. exists b, text. split; [|exact KR].
  destruct K as (S & evs & E & O & L & M). split; [exact S|]. exists evs. cbn [app] in M. inversion M; subst. auto.
Qed.

(** The rest of a stage: neither pictures nor changes to what the report says, then the report is saved. *)
Definition mid_stage (b : bool) (text : string) (s : Pipeline * World) : Prop :=
  FI fs (image_of dir b st) [(task_name st ++ " report: " ++ text)%string] s.

Lemma tail_step : forall A (m : PM A) b text (P Q : Pipeline * World -> Prop), still m -> (forall s, P s -> Q (snd (m s))) ->
  triple (fun s => mid_stage b text s /\ P s) m (fun _ s => mid_stage b text s /\ Q s) broken.
Proof.
  intros A m b text P Q S T s [H R]. pose proof (S fs (image_of dir b st) _ s H) as X. specialize (T s R).
  destruct (m s) as [[u|e] s']; [now split|]. eapply FI_broken; [exact PLAN|exact X].
Qed.

Lemma save_step : forall t b text,
  triple (fun s => mid_stage b text s /\ RT t text s) (save_report o (str_nat (st_number st)) (tk_report t))
    (fun _ s => exists f, fi_stage f = st /\ FI (fs ++ [f]) [] [] s) broken.
Proof.
  intros t b text [p w] [H (_ & R)]. cbn [snd] in R. unfold save_report, mbind at 1, this. cbv zeta. cbn [fst snd].
  unfold mbind, onW at 1. cbn [fst snd]. rewrite (shown_text _ _ _ R). unfold onW, emit. cbn [fst snd].
  destruct H as (SP & evs & E & O & L & M). cbn [fst snd] in *. exists (mkFinished st b text). split; [reflexivity|]. split; [exact SP|].
  exists (evs ++ [EvWrite (path_join (pl_reports_dir p) ("report_" ++ str_nat (st_number st) ++ ".txt")) text])%list. cbn [fst snd w_events].
  rewrite E, <- app_assoc. split; [reflexivity|]. destruct SP as ((_ & ->) & _). split; [|split].
  - rewrite outputs_app, O, flat_map_app, app_nil_r, <- !app_assoc. cbn [flat_map files fi_image fi_stage fi_text outputs]. rewrite app_nil_r.
    reflexivity.
  - apply Forall_app. split; [eapply Forall_impl; [|exact L]; cbv beta; intros f F; rewrite printed_app; apply in_app_iff; now left|].
    constructor; [|constructor]. inversion M; subst. unfold announced. cbn [fi_stage fi_text]. rewrite printed_app. apply in_app_iff. now left.
  - constructor.
Qed.

Lemma after_run : forall B c (f : Task -> PM B) Q,
  (forall t b text, triple (fun s => mid_stage b text s /\ RT t text s) (f t) Q broken) ->
  triple (FI fs [] []) (mbind (create_and_run o (task_name st) c) f) Q broken.
Proof.
  intros B c f Q H. eapply triple_bind; [apply create_and_run_stage|]. intros t s (b & text & X). exact (H t b text s X).
Qed.

(** The parts the rounds have in common. *)
Definition done (s : Pipeline * World) : Prop := exists f, fi_stage f = st /\ FI (fs ++ [f]) [] [] s.

Lemma RP_RT : forall t text s, RP t text s -> RT t text s.
Proof. intros t text s [H _]. exact H. Qed.

Lemma take_over : forall B t b text (m : PM B) Q,
  triple (fun s => mid_stage b text s /\ RP t text s) m Q broken ->
  triple (fun s => mid_stage b text s /\ RT t text s) (update_best_fit t ;;; change (with_parameters (tk_parameters t)) ;;; m) Q broken.
Proof.
  intros B t b text m Q H. eapply triple_bind; [apply tail_step with (Q := RT t text); [auto with still|apply RT_update_best]|]. intros ?.
  eapply triple_bind; [apply tail_step with (Q := RP t text); [auto with still|]|intros ?; exact H].
  intros s R. pose proof (RP_start t text s R) as X. destruct (change _ s) as [[u|e] s']; [exact X|destruct X].
Qed.
Lemma flush_save : forall t b text,
  triple (fun s => mid_stage b text s /\ RP t text s) (flush_report ;;; save_report o (str_nat (st_number st)) (tk_report t)) (fun _ => done) broken.
Proof.
  intros t b text. eapply triple_bind; [apply tail_step with (Q := RT t text); [auto with still|]|intros ?; apply save_step].
  intros s R. apply RP_RT. now apply RP_flush.
Qed.
End Stage.

Definition next (fs : list fin) (st : stage) : Pipeline * World -> Prop := done fs st.

Lemma label_lower : forall c, lower (fst (label_of c)) = snd (label_of c).
Proof. destruct c; reflexivity. Qed.
Lemma label_name : forall c, class_name c = fst (label_of c).
Proof. destruct c; reflexivity. Qed.

Lemma plain_round_stage : forall ic fs rest, (map fi_stage fs ++ stage_of ic :: rest)%list = stages ->
  triple (FI fs [] []) (plain_round o ic) (fun _ => next fs (stage_of ic)) broken.
Proof.
  intros [i c] fs rest PLAN. unfold plain_round.
  eapply triple_bind; [apply (stage_still fs _ _ PLAN _ _ false []); auto with still|]. intros text0.
  eapply triple_bind; [apply (stage_still fs _ _ PLAN _ _ false []); auto with still|]. intros ?. cbv zeta.
  rewrite label_name. change ("Task#" ++ str_nat i ++ ":" ++ fst (label_of c)) with (task_name (stage_of (i, c))).
  apply (after_run fs _ _ PLAN (label_lower c)). intros t b text. apply (take_over fs _ _ PLAN).
  eapply triple_bind; [apply (tail_step fs _ _ PLAN) with (Q := RP t text); [auto with still|apply RP_mutate]|]. intros ?.
  exact (flush_save fs _ _ PLAN t b text).
Qed.

Lemma iterative_round_stage : forall ik fs rest, (map fi_stage fs ++ round_stage (fst ik) :: rest)%list = stages ->
  triple (FI fs [] []) (iterative_round o ik) (fun _ => next fs (round_stage (fst ik))) broken.
Proof.
  intros [i k] fs rest PLAN. cbn [fst] in *. unfold iterative_round.
  eapply triple_bind; [apply (stage_still fs _ _ PLAN _ _ false []); auto with still|]. intros p. cbv zeta.
  eapply triple_bind; [apply (stage_still fs _ _ PLAN _ _ false []); auto with still|]. intros names.
  eapply triple_bind; [apply (stage_still fs _ _ PLAN _ _ false []); auto with still|]. intros ?.
  replace (class_name (fix_according (pl_kind p))) with "TaskFixAccordingToParametersFit" by now destruct (pl_kind p).
  change ("Task#" ++ str_nat i ++ ":" ++ "TaskFixAccordingToParametersFit") with (task_name (round_stage i)).
  apply (after_run fs _ _ PLAN eq_refl). intros t b text. apply (take_over fs _ _ PLAN). exact (flush_save fs _ _ PLAN t b text).
Qed.

Lemma final_common_stage : forall n st c fs rest, (map fi_stage fs ++ st :: rest)%list = stages -> lower (st_label st) = st_file st ->
  n = st_number st -> triple (FI fs [] []) (final_common o n (task_name st) c) (fun _ => next fs st) broken.
Proof.
  intros n st c fs rest PLAN LOW ->. unfold final_common. apply (after_run fs _ _ PLAN LOW). intros t b text. apply (take_over fs _ _ PLAN).
  eapply triple_bind; [apply (tail_step fs _ _ PLAN) with (Q := RP t text); [auto with still|apply RP_log_best]|]. intros ?.
  exact (flush_save fs _ _ PLAN t b text).
Qed.

Lemma residuals_stage_stage : forall n fs, (map fi_stage fs ++ [mkStage n "ResidualOscillationsTask" "residualoscillationstask"])%list = stages ->
  triple (FI fs [] []) (residuals_stage o n) (fun _ => next fs (mkStage n "ResidualOscillationsTask" "residualoscillationstask")) broken.
Proof.
  intros n fs PLAN. unfold residuals_stage.
  eapply triple_bind; [apply (stage_still fs _ _ PLAN _ _ false []); auto with still|]. intros ?.
  change ("Task#" ++ str_nat n ++ ":" ++ class_name ResidualTask) with (task_name (mkStage n "ResidualOscillationsTask" "residualoscillationstask")).
  apply (after_run fs _ _ PLAN eq_refl). intros t b text. exact (save_step fs _ t b text).
Qed.

Lemma rounds : forall A (g : A -> stage) (body : A -> PM unit),
  (forall x fs rest, (map fi_stage fs ++ g x :: rest)%list = stages -> triple (FI fs [] []) (body x) (fun _ => next fs (g x)) broken) ->
  forall l fs rest, (map fi_stage fs ++ map g l ++ rest)%list = stages ->
  triple (FI fs [] []) (mfor l body) (fun _ s => exists fs', map fi_stage fs' = (map fi_stage fs ++ map g l)%list /\ FI fs' [] [] s) broken.
Proof.
  intros A g body H l. induction l as [|x l IH]; intros fs rest PLAN.
  - apply triple_ret. intros s HI. exists fs. cbn. now rewrite app_nil_r.
  - cbn [mfor]. eapply triple_bind; [apply (H x fs (map g l ++ rest)%list); exact PLAN|]. intros ? s (f & F & HI).
    assert (PLAN' : (map fi_stage (fs ++ [f]) ++ map g l ++ rest)%list = stages).
    { rewrite map_app. cbn [map]. rewrite F, <- app_assoc. exact PLAN. }
    pose proof (IH (fs ++ [f])%list rest PLAN' s HI) as X. destruct (mfor l body s) as [[u|e] s']; [|exact X].
    destruct X as (fs' & E & X). exists fs'. split; [|exact X]. rewrite E, map_app, <- app_assoc. cbn [map app]. now rewrite F.
Qed.

Lemma between : forall A (m : PM A) fs rest, (map fi_stage fs ++ rest)%list = stages -> still m ->
  triple (FI fs [] []) m (fun _ => FI fs [] []) broken.
Proof.
  intros A m fs rest PLAN H s HI. specialize (H fs [] [] s HI). destruct (m s) as [[a|e] s']; [exact H|].
  eapply FI_broken_between; [exact PLAN|exact H].
Qed.

Definition complete (s : Pipeline * World) : Prop := exists fs, map fi_stage fs = stages /\ FI fs [] [] s.

Lemma complete_still : forall A (m : PM A), still m -> triple complete m (fun _ => complete) broken.
Proof.
  intros A m H s (fs & E & HI). specialize (H fs [] [] s HI). destruct (m s) as [[a|e] s']; [exists fs; auto|].
  apply (FI_broken_between fs []); [now rewrite app_nil_r|exact H].
Qed.

Theorem plain_files : forall fs0, fs0 = [] -> stages = plain_stages tasks -> triple (FI fs0 [] []) (Pipeline_run o) (fun _ => complete) broken.
Proof.
  intros fs0 -> ST. unfold Pipeline_run.
  eapply triple_bind; [apply (between _ _ [] stages eq_refl); auto with still|]. intros ?.
  eapply triple_bind with (R := fun p s => FI [] [] [] s /\ pl_tasks p = tasks).
  { intros s H. split; [exact H|]. destruct H as ((_ & _ & H & _) & _). exact H. }
  intros p. eapply triple_bind with (R := fun _ => complete).
  { intros s (H & T). rewrite T. revert s H.
    assert (EN : forall (l : list task_class) i, enumerate_from i l = combine (seq i (length l)) l) by (induction l as [|c l IH]; intros i; cbn; [reflexivity|now rewrite IH]).
    rewrite (EN tasks 0%nat).
    match goal with |- forall s, FI [] [] [] s -> match ?m s with _ => _ end => change (triple (FI [] [] []) m (fun _ => complete) broken) end.
    eapply triple_post; [apply (rounds _ stage_of (plain_round o) plain_round_stage (combine (seq 0 (length tasks)) tasks) [] [])|].
    - cbn [map app]. rewrite app_nil_r. symmetry. exact ST.
    - intros ? s (fs & E & H). exists fs. split; [|exact H]. rewrite E, ST. reflexivity. }
  intros ?. eapply triple_bind; [apply complete_still; auto with still|]. intros ?.
  eapply triple_bind; [apply complete_still; auto with still|]. intros ?.
  eapply triple_bind; [apply complete_still; auto with still|]. intros ?. apply triple_ret. auto.
Qed.

Lemma final_fit_stage : forall fs st rest, (map fi_stage fs ++ st :: rest)%list = stages -> lower (st_label st) = st_file st ->
  class_name (final_class kind) = st_label st ->
  triple (FI fs [] []) (final_fit o (st_number st)) (fun _ => next fs st) broken.
Proof.
  intros fs st rest PLAN LOW CN. unfold final_fit.
  eapply triple_bind with (R := fun p s => FI fs [] [] s /\ pl_kind p = kind).
  { intros s H. split; [exact H|]. destruct H as ((_ & H & _) & _). exact H. }
  intros p. cbv zeta. intros s (H & T). rewrite T, CN. revert s H.
  match goal with |- forall s, FI fs [] [] s -> match ?m s with _ => _ end => change (triple (FI fs [] []) m (fun _ => next fs st) broken) end.
  eapply triple_bind; [apply (stage_still fs _ _ PLAN _ _ false []); auto with still|]. intros ?.
  exact (final_common_stage _ st _ fs rest PLAN LOW eq_refl).
Qed.

Lemma final_nucleon_stage : forall n fs rest,
  let st := if Z.ltb (Z.of_nat n) limit then mkStage n "Full fit (Fixed resonances)" "full fit (fixed resonances)" else mkStage n "Full fit" "full fit" in
  (map fi_stage fs ++ st :: rest)%list = stages -> triple (FI fs [] []) (final_fit_nucleon o n) (fun _ => next fs st) broken.
Proof.
  intros n fs rest st PLAN. unfold final_fit_nucleon.
  eapply triple_bind with (R := fun p s => FI fs [] [] s /\ pl_fixed_rounds p = limit).
  { intros s H. split; [exact H|]. destruct H as ((_ & _ & _ & _ & H) & _). exact H. }
  intros p s (H & T). rewrite T. revert s H.
  match goal with |- forall s, FI fs [] [] s -> match ?m s with _ => _ end => change (triple (FI fs [] []) m (fun _ => next fs st) broken) end.
  eapply triple_bind; [apply (stage_still fs _ _ PLAN _ _ false []); auto with still|]. intros ?.
  assert (G : forall label file (m : PM unit), still m -> (map fi_stage fs ++ mkStage n label file :: rest)%list = stages -> lower label = file ->
    triple (FI fs [] []) (name <~ (m ;;; ret label) ;; log ("Initializing Task#" ++ str_nat n ++ ". " ++ name ++ ".") ;;;
      final_common o n ("Task#" ++ str_nat n ++ ":" ++ name) NCS_FixAccording) (fun _ => next fs (mkStage n label file)) broken).
  { intros label fl m SM PL LW. eapply triple_bind with (R := fun x s => x = label /\ FI fs [] [] s).
    - eapply triple_bind; [apply (stage_still fs _ _ PL _ _ false []); exact SM|]. intros ?. apply triple_ret. auto.
    - intros x s (-> & H). revert s H.
      match goal with |- forall s, FI fs [] [] s -> match ?k s with _ => _ end => change (triple (FI fs [] []) k (fun _ => next fs (mkStage n label fl)) broken) end.
      eapply triple_bind; [apply (stage_still fs _ _ PL _ _ false []); auto with still|]. intros ?.
      exact (final_common_stage n (mkStage n label fl) NCS_FixAccording fs rest PL LW eq_refl). }
  subst st. destruct (Z.ltb (Z.of_nat n) limit).
  - apply G; [auto with still|exact PLAN|reflexivity].
  - exact (G "Full fit" "full fit" (ret tt) (still_ret _ tt) PLAN eq_refl).
Qed.

Lemma next_complete : forall fs st s, (map fi_stage fs ++ [st])%list = stages -> next fs st s -> complete s.
Proof. intros fs st s E (f & F & H). exists (fs ++ [f])%list. split; [|exact H]. rewrite map_app. cbn [map]. now rewrite F. Qed.

Theorem iterative_files : forall fs0, fs0 = [] -> stages = iterative_stages kind (length numbers) limit ->
  triple (FI fs0 [] []) (IterativePipeline_run o) (fun _ => complete) broken.
Proof.
  intros fs0 -> ST. unfold IterativePipeline_run.
  eapply triple_bind; [apply (between _ _ [] stages eq_refl); auto with still|]. intros ?.
  eapply triple_bind with (R := fun p s => FI [] [] [] s /\ pl_kind p = kind /\ pl_numbers p = numbers).
  { intros s H. split; [exact H|]. destruct H as ((_ & H1 & _ & H2 & _) & _). now split. }
  intros p s (H & T1 & T2). rewrite T1, T2. revert s H.
  match goal with |- forall s, FI [] [] [] s -> match ?m s with _ => _ end => change (triple (FI [] [] []) m (fun _ => complete) broken) end.
  assert (EN : forall l i, map (fun ik : nat * Z => round_stage (fst ik)) (enumerate_from i l) = map round_stage (seq i (length l)))
    by (induction l as [|c l IH]; intros i; cbn; [reflexivity|now rewrite IH]).
  unfold iterative_stages in ST.
  match type of ST with _ = (_ ++ ?l)%list => set (last := l) in * end.
  eapply triple_bind.
  { apply (rounds _ (fun ik : nat * Z => round_stage (fst ik)) (iterative_round o) iterative_round_stage (enumerate_from 0 numbers) [] last).
    cbn [map app]. rewrite EN. symmetry. exact ST. }
  intros ? s (fs & E & H). cbn [map app] in E. rewrite EN in E. rewrite <- E in ST. clear E EN. cbv zeta. revert s H.
  match goal with |- forall s, FI fs [] [] s -> match ?m s with _ => _ end => change (triple (FI fs [] []) m (fun _ => complete) broken) end.
  eapply triple_bind with (R := fun _ => complete).
  2:{ intros ?. eapply triple_bind; [apply complete_still; auto with still|]. intros ?. apply triple_ret. auto. }
  destruct kind eqn:K; subst last.
  - eapply triple_post; [apply (final_fit_stage fs (mkStage (length numbers) "TaskFullFit" "taskfullfit") []); [symmetry; exact ST|reflexivity|rewrite K; reflexivity]|].
    intros ? s. apply next_complete. symmetry. exact ST.
  - eapply triple_post; [apply (final_fit_stage fs (mkStage (length numbers) "TaskFullFitOnlyCharged" "taskfullfitonlycharged") []); [symmetry; exact ST|reflexivity|rewrite K; reflexivity]|].
    intros ? s. apply next_complete. symmetry. exact ST.
  - eapply triple_bind; [eapply (final_nucleon_stage (length numbers) fs); symmetry; exact ST|]. intros ? s (f & F & H). 
    assert (PL : (map fi_stage (fs ++ [f]) ++ [mkStage (length numbers + 1) "ResidualOscillationsTask" "residualoscillationstask"])%list = stages).
    { rewrite map_app, <- app_assoc. cbn [map app]. rewrite F. symmetry. exact ST. }
    pose proof (residuals_stage_stage _ _ PL s H) as X. destruct (residuals_stage o (length numbers + 1) s) as [[u|e] s']; [|exact X].
    now apply next_complete with (1 := PL).
  - eapply triple_post; [apply (final_fit_stage fs (mkStage (length numbers) "TaskFullFit" "taskfullfit") []); [symmetry; exact ST|reflexivity|rewrite K; reflexivity]|].
    intros ? s. apply next_complete. symmetry. exact ST.
Qed.
End Run.

(** ** The theorems *)

(** The file of a stage holds its text. *)
Lemma file_keeps : forall evs path before, ~ In path (map path_of (outputs evs)) -> (forall s, ~ In (EvAppend path s) evs) ->
  file_from before path evs = before.
Proof.
  induction evs as [|e evs IH]; intros path before H A; [reflexivity|].
  assert (A' : forall s, ~ In (EvAppend path s) evs) by (intros s X; apply (A s); now right).
  destruct e as [m|q|q x|q x|q]; cbn [outputs map path_of In] in H; cbn [file_from].
  - now apply IH.
  - now apply IH.
  - destruct (String.eqb_spec q path) as [->|N]; [exfalso; apply (A x); now left|now apply IH].
  - destruct (String.eqb_spec q path) as [->|N]; [exfalso; apply H; now left|apply IH; tauto].
  - destruct (String.eqb_spec q path) as [->|N]; [exfalso; apply H; now left|apply IH; tauto].
Qed.
Lemma file_holds : forall evs path text before, NoDup (map path_of (outputs evs)) -> In (Text path text) (outputs evs) ->
  (forall s, ~ In (EvAppend path s) evs) -> file_from before path evs = text.
Proof.
  induction evs as [|e evs IH]; intros path text before ND H A; [destruct H|].
  assert (A' : forall s, ~ In (EvAppend path s) evs) by (intros s X; apply (A s); now right).
  destruct e as [m|q|q x|q x|q]; cbn [outputs map path_of In] in H, ND; cbn [file_from].
  - now apply IH.
  - now apply IH.
  - now apply IH.
  - inversion ND as [|y l N1 N2]; subst. destruct H as [[= -> ->]|H].
    + rewrite String.eqb_refl. now apply file_keeps.
    + now apply IH.
  - inversion ND as [|y l N1 N2]; subst. destruct H as [H|H]; [discriminate|]. now apply IH.
Qed.

Section Built.
Variables (o : Oracle) (kind : pipeline_kind) (name : string) (parameters : Ref) (tasks : list task_class) (data : Res Prepared)
  (mass alpha hc : R) (reports_dir : string) (plot handpicked : bool) (numbers : list Z) (limit : Z) (w : World).
Let build := Pipeline_init o kind name parameters tasks data mass alpha hc reports_dir plot handpicked numbers limit w.
Let dir := path_join reports_dir name.

Lemma build_starts : forall p w1, build = (Ok p, w1) -> FI name dir kind tasks numbers limit (w_events w) [] [] [] (p, w1).
Proof.
  intros p w1 H. unfold build, Pipeline_init, mbind, lift in H. destruct data as [[[ts ys] es]|e]; [|discriminate].
  unfold set_up_reports_directory in H. fold dir in H.
  destruct (_ || _)%bool; [discriminate|]. destruct (o_mkdir o dir); [|discriminate]. cbn in H. injection H as <- <-.
  split; [repeat split|]. exists [EvMkdir dir]. split; [reflexivity|]. split; [reflexivity|]. split; constructor.
Qed.

(** What is left of a run: the files of the stages, each once, and their contents. *)
Definition leaves (stages : list stage) (completed : Prop) (evs : list event) : Prop :=
  exists fs rest, left_behind name dir stages evs fs rest /\ (completed -> rest = []) /\
    NoDup (map path_of (outputs evs)) /\ ~ In (path_join dir "report.txt") (map path_of (outputs evs)) /\
    Forall (fun f => file (report_path dir (fi_stage f)) evs = fi_text f) fs.

Lemma leaves_intro : forall stages res s evs0, NoDup (map st_number stages) ->
  (w_events (snd s) = w_events w ++ EvMkdir dir :: evs0)%list -> Forall (confined dir) evs0 ->
  match res with
  | Ok _ => complete name dir kind tasks numbers limit (w_events w) stages s
  | Err _ => broken name dir kind tasks numbers limit (w_events w) stages s
  end ->
  exists evs, w_events (snd s) = (w_events w ++ evs)%list /\ leaves stages (@is_ok BestFit res) evs.
Proof.
  intros stages res s evs0 ND EV CO H. exists (EvMkdir dir :: evs0). split; [exact EV|].
  assert (NA : forall st x, ~ In (EvAppend (report_path dir st) x) (EvMkdir dir :: evs0)).
  { intros st x [X|X]; [discriminate|]. rewrite Forall_forall in CO. apply CO in X. cbn in X. now apply report_not_common in X. }
  assert (G : exists fs rest, left_behind name dir stages (EvMkdir dir :: evs0) fs rest /\ (is_ok res -> rest = [])).
  { destruct res as [b|e].
    - destruct H as (fs & E & (_ & evs & E1 & O & L & _)). rewrite EV in E1. apply app_inv_head in E1. subst evs. exists fs, []. split; [|auto].
      split; [now rewrite app_nil_r|]. split; [exact L|]. exists []. auto.
    - destruct H as (fs & rest & extra & E & (_ & evs & E1 & O & L & _) & X). rewrite EV in E1. apply app_inv_head in E1. subst evs. exists fs, rest.
      split; [|intros [? ?]; discriminate]. split; [exact E|]. split; [exact L|]. exists extra. auto. }
  destruct G as (fs & rest & LB & CP). exists fs, rest. split; [exact LB|]. split; [exact CP|].
  destruct (left_NoDup _ _ _ _ _ _ ND LB) as [N1 N2]. split; [exact N1|]. split; [exact N2|].
  apply Forall_forall. intros f F. unfold PipelineSpec.file. apply file_holds; [exact N1| |apply NA].
  destruct LB as (_ & _ & extra & O & _). rewrite O. apply in_app_iff. left. apply in_flat_map. exists f. split; [exact F|].
  unfold files. apply in_app_iff. right. now left.
Qed.

Theorem C52_plain_pipelines : forall p w1 res p' w2, build = (Ok p, w1) -> Pipeline_run o (p, w1) = (res, (p', w2)) ->
  exists evs, w_events w2 = (w_events w ++ evs)%list /\ leaves (plain_stages tasks) (is_ok res) evs.
Proof.
  intros p w1 res p' w2 B H.
  destruct (C38_own_directory _ _ _ _ _ _ _ _ _ _ _ _ _ _ _ _ _ _ _ _ B (or_introl H)) as (evs0 & EV & CO).
  pose proof (plain_files o name dir kind tasks numbers limit (w_events w) (plain_stages tasks) [] eq_refl eq_refl (p, w1)
    (build_starts p w1 B)) as X. rewrite H in X.
  apply (leaves_intro (plain_stages tasks) res (p', w2) evs0); [rewrite plain_numbers; apply seq_NoDup|exact EV|exact CO|exact X].
Qed.

Theorem C52_iterative_pipelines : forall p w1 res p' w2, build = (Ok p, w1) -> IterativePipeline_run o (p, w1) = (res, (p', w2)) ->
  exists evs, w_events w2 = (w_events w ++ evs)%list /\ leaves (iterative_stages kind (length numbers) limit) (is_ok res) evs.
Proof.
  intros p w1 res p' w2 B H.
  destruct (C38_own_directory _ _ _ _ _ _ _ _ _ _ _ _ _ _ _ _ _ _ _ _ B (or_intror H)) as (evs0 & EV & CO).
  pose proof (iterative_files o name dir kind tasks numbers limit (w_events w) (iterative_stages kind (length numbers) limit) [] eq_refl eq_refl (p, w1)
    (build_starts p w1 B)) as X. rewrite H in X.
  apply (leaves_intro (iterative_stages kind (length numbers) limit) res (p', w2) evs0); [|exact EV|exact CO|exact X].
  destruct (iterative_numbers kind (length numbers) limit) as (k & ->). apply seq_NoDup.
Qed.
End Built.
Print Assumptions C52_plain_pipelines.
Print Assumptions C52_iterative_pipelines.

(** Two fits that do not converge: two report files, no picture. *)
Example C52_instance :
  let o := demo_oracle (fun _ _ => FitRaise RuntimeError) DivRaises in
  let init := Pipeline_init o NucleonFF "demo" (mkRef PTwoPoles 0%nat) [TwoPolesTask; TwoPolesTask]
                (Ok ([demo_point; demo_point], [12; 15], [1; 2])%R) 0 0 0 "out" false true [] 0 demo_world in
  exists p w1 b p' w2, init = (Ok p, w1) /\ Pipeline_run o (p, w1) = (Ok b, (p', w2)) /\
    map path_of (outputs (w_events w2)) = ["out/demo/report_0.txt"; "out/demo/report_1.txt"] /\
    plain_stages [TwoPolesTask; TwoPolesTask] =
      [mkStage 0 "TwoPolesModelTask" "twopolesmodeltask"; mkStage 1 "TwoPolesModelTask" "twopolesmodeltask"].
Proof.
  intros o init. eexists _, _, _, _, _. split; [cbn; reflexivity|]. split; [lazy -[IZR RtoC]; reflexivity|]. split; reflexivity.
Qed.
