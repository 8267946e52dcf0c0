(** What pipelines print and write. *)
From Coq Require Import String Ascii Reals ZArith List Bool Arith Lia.
From Verif Require Import PyBase CNum PyExpr OtherModels Params ParamClasses ParamSpec ParamProofs CrossSections CommonUtils Scripts World DataSets
  Task TaskSpec TaskProofs Pipeline PipelineSpec.
Import ListNotations.
Local Open Scope list_scope.
Local Open Scope string_scope.
Local Open Scope m_scope.

#[local] Arguments String.append : simpl never.

(** ** Reasoning about programs that may raise *)

Definition triple {S A : Type} (P : S -> Prop) (m : M S A) (Q : A -> S -> Prop) (E : S -> Prop) : Prop :=
  forall s, P s -> match m s with (Ok a, s') => Q a s' | (Err _, s') => E s' end.

Lemma triple_bind : forall S A B P (x : M S A) (f : A -> M S B) R Q E,
  triple P x R E -> (forall a, triple (R a) (f a) Q E) -> triple P (mbind x f) Q E.
Proof.
  intros S A B P x f R Q E H K s HP. unfold mbind. specialize (H s HP). destruct (x s) as [[a|e] s']; [|exact H].
  exact (K a s' H).
Qed.

Lemma triple_ret : forall S A (P : S -> Prop) (a : A) (Q : A -> S -> Prop) E, (forall s, P s -> Q a s) -> triple P (ret a) Q E.
Proof. intros S A P a Q E H s HP. now apply H. Qed.

Lemma triple_raise : forall S A (P : S -> Prop) e (Q : A -> S -> Prop) (E : S -> Prop), (forall s, P s -> E s) -> triple P (raise e) Q E.
Proof. intros S A P e Q E H s HP. now apply H. Qed.

Lemma triple_lift : forall S A (P : S -> Prop) (r : Res A) (Q : A -> S -> Prop) (E : S -> Prop),
  (forall s a, P s -> r = Ok a -> Q a s) -> (forall s, P s -> E s) -> triple P (lift r) Q E.
Proof. intros S A P r Q E H K s HP. unfold lift. destruct r; auto. Qed.

Lemma triple_weaken : forall S A (P P' : S -> Prop) (m : M S A) (Q Q' : A -> S -> Prop) (E E' : S -> Prop),
  (forall s, P' s -> P s) -> (forall a s, Q a s -> Q' a s) -> (forall s, E s -> E' s) -> triple P m Q E -> triple P' m Q' E'.
Proof.
  intros S A P P' m Q Q' E E' H1 H2 H3 H s HP. specialize (H s (H1 s HP)). destruct (m s) as [[a|e] s']; auto.
Qed.

Lemma triple_post : forall S A (P : S -> Prop) (m : M S A) (Q Q' : A -> S -> Prop) (E : S -> Prop),
  triple P m Q E -> (forall a s, Q a s -> Q' a s) -> triple P m Q' E.
Proof. intros S A P m Q Q' E H K. eapply triple_weaken; [| | |exact H]; auto. Qed.

Lemma triple_mfor : forall S A (l : list A) (body : A -> M S unit) (I : S -> Prop) E,
  (forall x, In x l -> triple I (body x) (fun _ => I) E) -> triple I (mfor l body) (fun _ => I) E.
Proof.
  intros S A l body I E. induction l as [|x l IH]; intros H; [now apply triple_ret|].
  simpl. eapply triple_bind; [apply H; now left|]. intros u. apply IH. intros y Y. apply H. now right.
Qed.

(** Programs that keep a predicate whether they raise or not. *)
Definition keeps {S A : Type} (I : S -> Prop) (m : M S A) : Prop := forall s, I s -> I (snd (m s)).

Lemma keeps_triple : forall S A (I : S -> Prop) (m : M S A), keeps I m -> triple I m (fun _ => I) I.
Proof. intros S A I m H s HI. specialize (H s HI). now destruct (m s) as [[a|e] s']. Qed.

Lemma keeps_bind : forall S A B (I : S -> Prop) (x : M S A) (f : A -> M S B), keeps I x -> (forall a, keeps I (f a)) -> keeps I (mbind x f).
Proof.
  intros S A B I x f H K s HI. unfold mbind. specialize (H s HI). destruct (x s) as [[a|e] s']; [|exact H]. now apply K.
Qed.

Lemma keeps_ret : forall S A (I : S -> Prop) (a : A), keeps I (ret a).
Proof. intros S A I a s H. exact H. Qed.
Lemma keeps_raise : forall S A (I : S -> Prop) e, keeps I (@raise S A e).
Proof. intros S A I e s H. exact H. Qed.
Lemma keeps_lift : forall S A (I : S -> Prop) (r : Res A), keeps I (@lift S A r).
Proof. intros S A I r s H. exact H. Qed.

#[local] Hint Resolve keeps_ret keeps_raise keeps_lift : keep.

(** ** Heap operations write nothing *)

Definition quiet {A : Type} (m : W A) : Prop := forall w, w_events (snd (m w)) = w_events w.

Lemma quiet_bind : forall A B (x : W A) (f : A -> W B), quiet x -> (forall a, quiet (f a)) -> quiet (mbind x f).
Proof.
  intros A B x f H K w. unfold mbind. specialize (H w). destruct (x w) as [[a|e] w']; [|exact H].
  rewrite K. exact H.
Qed.
Lemma quiet_ret : forall A (a : A), quiet (ret a).
Proof. intros A a w. reflexivity. Qed.
Lemma quiet_lift : forall A (a : Res A), quiet (lift a).
Proof. intros A a w. reflexivity. Qed.
Lemma quiet_read : forall a, quiet (read a).
Proof. intros a w. unfold read. now destruct (nth_error _ _). Qed.
Lemma quiet_alloc : forall l, quiet (alloc l).
Proof. intros l w. reflexivity. Qed.
Lemma quiet_write : forall a l, quiet (write a l).
Proof. intros a l w. reflexivity. Qed.

#[local] Hint Resolve quiet_ret quiet_lift quiet_read quiet_alloc quiet_write : quiet.

Ltac quiet := first [solve [auto with quiet] | apply quiet_bind; [quiet | intros ?; quiet] | idtac].

Lemma quiet_mutate : forall r m, quiet (obj_mutate r m).
Proof. intros r m. unfold obj_mutate. apply quiet_bind; [auto with quiet|]. intros d. destruct (mutate _ _ _) as [res d']. quiet. Qed.
Lemma quiet_to_list : forall r, quiet (obj_to_list r).
Proof. intros r. unfold obj_to_list. quiet. Qed.
Lemma quiet_new : forall c kw, quiet (obj_new c kw).
Proof. intros c kw. unfold obj_new. quiet. Qed.
#[local] Hint Resolve quiet_mutate quiet_to_list quiet_new : quiet.
Lemma quiet_from_list : forall c l, quiet (obj_from_list c l).
Proof. intros c l. unfold obj_from_list. cbv zeta. quiet. Qed.
#[local] Hint Resolve quiet_from_list : quiet.
Lemma quiet_copy : forall r, quiet (obj_copy r).
Proof. intros r. unfold obj_copy. quiet. Qed.
Lemma quiet_obj_read : forall A r (f : data -> Res A), quiet (obj_read r f).
Proof. intros A r f. unfold obj_read. quiet. Qed.
#[local] Hint Resolve quiet_copy quiet_obj_read : quiet.
Lemma quiet_make_cs : forall m a hc r, quiet (make_partial_cross_section_for_parameters m a hc r).
Proof. intros. unfold make_partial_cross_section_for_parameters. quiet. Qed.
Lemma quiet_make_ff : forall r, quiet (make_partial_form_factor_for_parameters r).
Proof. intros. unfold make_partial_form_factor_for_parameters. quiet. Qed.
Lemma quiet_call : forall p ts args, quiet (call_partial p ts args).
Proof. intros [r|m a hc r|r] ts args; unfold call_partial; quiet. Qed.
#[local] Hint Resolve quiet_make_cs quiet_make_ff quiet_call : quiet.
Lemma quiet_own : forall t, quiet (own_cross_section t).
Proof. intros t. unfold own_cross_section, make_partial_misplaced. destruct (tk_numbers t); quiet. Qed.
#[local] Hint Resolve quiet_own : quiet.
Lemma quiet_note_fit : forall x, quiet (note_fit x).
Proof. intros x w. reflexivity. Qed.
Lemma quiet_task_init : forall c n r ts ys es m a hc k d p h, quiet (Task_init c n r ts ys es m a hc k d p h).
Proof. intros. unfold Task_init. quiet. Qed.
Lemma quiet_read_option : forall a, quiet (read_option a).
Proof. intros [a|]; unfold read_option; quiet. Qed.
#[local] Hint Resolve quiet_note_fit quiet_task_init quiet_read_option : quiet.
Lemma quiet_report_text : forall o r, quiet (report_text o r).
Proof. intros. unfold report_text. quiet. Qed.
Lemma quiet_best_text : forall o b, quiet (best_text o b).
Proof. intros. unfold best_text. quiet. Qed.
Lemma quiet_sample : forall o l k, quiet (sample o l k).
Proof. intros o l k. unfold sample. destruct (orb _ _); [intros w; reflexivity|]. apply quiet_bind; [intros w; reflexivity|]. quiet. Qed.
#[local] Hint Resolve quiet_report_text quiet_best_text quiet_sample : quiet.

(** ** A task only plots *)

Section TaskEvents.
Variables (o : Oracle) (base : list event) (D : option string) (N : string).

(** Only this task's plot has been added to the events. *)
Definition plots (evs : list event) : Prop :=
  Forall (fun e => exists d, D = Some d /\ e = EvPlot (path_join d (lower N ++ ".png"))) evs.

Definition TI (s : Task * World) : Prop :=
  tk_reports_dir (fst s) = D /\ tk_name (fst s) = N /\ exists evs, w_events (snd s) = (base ++ evs)%list /\ plots evs.

Lemma TI_inW : forall A (m : W A), quiet m -> keeps TI (inW m).
Proof.
  intros A m H [t w] (I1 & I2 & evs & E & P). unfold inW. cbn [fst snd]. specialize (H w). destruct (m w) as [r w']. simpl in *.
  split; [exact I1|]. split; [exact I2|]. exists evs. split; [|exact P]. cbn [snd fst]. now rewrite H.
Qed.

Lemma TI_modify : forall f, (forall t, tk_reports_dir (f t) = tk_reports_dir t /\ tk_name (f t) = tk_name t) -> keeps TI (modify f).
Proof.
  intros f H [t w] (I1 & I2 & I3). destruct (H t) as [H1 H2]. unfold TI, modify. simpl in *. rewrite H1, H2. auto.
Qed.

Lemma TI_self : keeps TI self.
Proof. intros s H. exact H. Qed.

Ltac fields := intros []; repeat match goal with |- context [let '(_, _) := ?x in _] => destruct x end; split; reflexivity.

#[local] Hint Resolve TI_self : keep.
#[local] Hint Extern 1 (keeps TI (inW _)) => apply TI_inW; auto with quiet : keep.

Ltac keep := first [solve [auto with keep] | apply keeps_bind; [keep | intros ?; keep] | idtac].

Lemma TI_with_f : forall f, keeps TI (modify (with_f f)).
Proof. intros f. apply TI_modify. fields. Qed.
Lemma TI_with_report : forall f, keeps TI (modify (fun t => with_report (f t) t)).
Proof. intros f. apply TI_modify. intros []. split; reflexivity. Qed.
Lemma TI_with_fit_data : forall x, keeps TI (modify (with_fit_data x)).
Proof. intros [[a b] c]. apply TI_modify. fields. Qed.
Lemma TI_with_residuals : forall p e x, keeps TI (modify (with_residuals p e x)).
Proof. intros p e [[a b] c]. apply TI_modify. fields. Qed.
#[local] Hint Resolve TI_with_f TI_with_report TI_with_fit_data TI_with_residuals : keep.

Lemma TI_oscillations : forall ts pars, keeps TI (oscillations ts pars).
Proof. intros. unfold oscillations. keep. apply TI_inW. quiet. Qed.
#[local] Hint Resolve TI_oscillations : keep.

Lemma TI_call_f : forall ts args, keeps TI (call_f ts args).
Proof. intros. unfold call_f. apply keeps_bind; [auto with keep|]. intros t. destruct (tk_f t) as [[p|]|]; auto with keep. Qed.
#[local] Hint Resolve TI_call_f : keep.

Lemma TI_cs : keeps TI partial_cross_section.
Proof. unfold partial_cross_section. keep. Qed.
Lemma TI_ff : keeps TI partial_form_factor.
Proof. unfold partial_form_factor. keep. Qed.
Lemma TI_release : keeps TI release_all_parameters.
Proof. unfold release_all_parameters. keep. Qed.
Lemma TI_couplings : keeps TI fix_couplings.
Proof. unfold fix_couplings. keep. Qed.
Lemma TI_charged : keeps TI only_charged.
Proof. unfold only_charged. keep. Qed.
Lemma TI_residuals : keeps TI set_up_residuals.
Proof. unfold set_up_residuals. keep. Qed.
#[local] Hint Resolve TI_cs TI_ff TI_release TI_couplings TI_charged TI_residuals : keep.

Lemma TI_set_up : keeps TI Task_set_up.
Proof. unfold Task_set_up. apply keeps_bind; [auto with keep|]. intros t. destruct (tk_class t); keep. Qed.

Lemma TI_run_fit : forall f x, (forall args, keeps TI (f args)) -> keeps TI (run_fit f x).
Proof. intros f x H. induction x as [args k IH|popt pcov|e]; simpl; keep. Qed.

Lemma TI_curve_fit : keeps TI (call_curve_fit o).
Proof.
  unfold call_curve_fit. apply keeps_bind; [auto with keep|]. intros t. cbv zeta. apply keeps_bind; [auto with keep|]. intros d.
  apply keeps_bind; [auto with keep|]. intros b. apply keeps_bind; [auto with keep|]. intros n. apply TI_run_fit. intros args. keep.
Qed.

Lemma TI_fit : keeps TI (Task_fit o).
Proof.
  intros s H. unfold Task_fit. pose proof (TI_curve_fit s H) as K. destruct (call_curve_fit o s) as [[x|e] s']; [exact K|].
  destruct e; try exact K. cbv zeta.
  apply (keeps_bind _ _ _ TI (modify (fun t => with_report (failed (o_message o (length (w_fits (snd s')))) (tk_report t)) t)) (fun _ => ret None)); auto with keep.
Qed.

Lemma TI_chi : forall x, keeps TI (chi_squared_text o x).
Proof. intros x s H. unfold chi_squared_text. destruct x; [exact H|]. destruct (o_division _ _); exact H. Qed.
#[local] Hint Resolve TI_chi : keep.

Lemma TI_update_report : forall opt cov, keeps TI (update_report o opt cov).
Proof. intros opt cov. unfold update_report. cbv zeta. keep. Qed.

Lemma TI_draw : forall style opt, keeps TI (draw style opt).
Proof. intros style opt. unfold draw. apply keeps_bind; [auto with keep|]. intros t. destruct style; keep. Qed.

Lemma TI_plot : forall opt, keeps TI (Task_plot o opt).
Proof.
  intros opt s H. unfold Task_plot. unfold mbind at 1. unfold self. pose proof H as (H1 & H2 & _).
  destruct (tk_reports_dir (fst s)) as [d|] eqn:Q; [|exact H].
  assert (X : keeps TI (draw (style_of (tk_class (fst s))) opt ;;; inW (savefig o d (tk_name (fst s))))).
  { apply keeps_bind; [apply TI_draw|]. intros _ [t w] (I1 & I2 & evs & E & P). unfold inW, savefig. cbn [fst snd].
    destruct (o_render o _) as [e|].
    - split; [exact I1|]. split; [exact I2|]. now exists evs.
    - split; [exact I1|]. split; [exact I2|]. cbn [fst snd] in *.
      exists (evs ++ [EvPlot (path_join d (lower (tk_name (fst s)) ++ ".png"))])%list. split; [simpl; now rewrite E, app_assoc|].
      apply Forall_app. split; [exact P|]. constructor; [|constructor]. exists d. split; [congruence|]. now rewrite H2. }
  destruct d as [|a d]; [exact H|]. now apply X.
Qed.

#[local] Hint Resolve TI_update_report TI_plot : keep.

Theorem TI_run : keeps TI (Task_run o).
Proof.
  unfold Task_run. apply keeps_bind; [apply TI_set_up|]. intros _. apply keeps_bind; [apply TI_fit|]. intros res.
  apply keeps_bind.
  - destruct res as [[opt cov]|]; keep.
  - intros _. keep.
Qed.
End TaskEvents.

(** ** Texts *)

Lemma append_assoc : forall a b c : string, (a ++ b) ++ c = a ++ (b ++ c).
Proof. induction a as [|x a IH]; intros b c; [reflexivity|]. change (String x ((a ++ b) ++ c) = String x (a ++ (b ++ c))). now rewrite IH. Qed.

Lemma append_nil : forall a, a ++ "" = a.
Proof. induction a as [|x a IH]; [reflexivity|]. change (String x (a ++ "") = String x a). now rewrite IH. Qed.

Lemma append_cancel : forall a b c, a ++ b = a ++ c -> b = c.
Proof.
  induction a as [|x a IH]; intros b c H; [exact H|]. change (String x (a ++ b) = String x (a ++ c)) in H.
  injection H as H. now apply IH.
Qed.

Lemma append_length : forall a b, String.length (a ++ b) = (String.length a + String.length b)%nat.
Proof. induction a as [|x a IH]; intros b; [reflexivity|]. change (S (String.length (a ++ b)) = S (String.length a + String.length b)). now rewrite IH. Qed.

Lemma append_cancel_r : forall c a b, a ++ c = b ++ c -> a = b.
Proof.
  intros c. induction a as [|x a IH]; intros [|y b] H; [reflexivity| | |].
  - apply (f_equal String.length) in H. rewrite !append_length in H. simpl in H. lia.
  - apply (f_equal String.length) in H. rewrite !append_length in H. simpl in H. lia.
  - change (String x (a ++ c) = String y (b ++ c)) in H. injection H as -> H. f_equal. now apply IH.
Qed.

Lemma beginning_refl : forall s, beginning s s.
Proof. induction s; simpl; auto. Qed.

Lemma beginning_app : forall s t, beginning s (s ++ t).
Proof. induction s as [|a s IH]; intros t; [exact I|]. change (a = a /\ beginning s (s ++ t)). auto. Qed.

Lemma beginning_trans : forall s t u, beginning s t -> beginning t u -> beginning s u.
Proof.
  induction s as [|a s IH]; intros [|b t] [|c u]; simpl; try tauto. intros (-> & H) (-> & K). split; [reflexivity|]. eapply IH; eassumption.
Qed.

(** A text cannot end in two ways. *)
Lemma different_ends : forall a b c d x y, x <> y -> a ++ (c ++ String x "") <> b ++ (d ++ String y "").
Proof.
  intros a b c d x y N H. rewrite <- !append_assoc in H. revert H. generalize (a ++ c) (b ++ d). clear a b c d.
  induction s as [|p s IH]; intros [|q t] H.
  - injection H as H. contradiction.
  - change (String x "" = String q (t ++ String y "")) in H. injection H as _ H. destruct t; discriminate.
  - change (String p (s ++ String x "") = String y "") in H. injection H as _ H. destruct s; discriminate.
  - change (String p (s ++ String x "") = String q (t ++ String y "")) in H. injection H as _ H. now apply (IH t).
Qed.

Lemma path_join_cases : forall d x, exists pre, path_join d x = pre ++ x.
Proof.
  intros d x. unfold path_join. destruct (prefix "/" x); [now exists ""|]. destruct (orb _ _); [now exists d|].
  exists (d ++ "/"). now rewrite append_assoc.
Qed.

Lemma path_join_r : forall d, exists pre, forall x, path_join d (String "r" x) = pre ++ String "r" x.
Proof.
  intros d. destruct (orb (String.eqb d "") (ends_with_slash d)) eqn:Q.
  - exists d. intros x. unfold path_join. change (prefix "/" (String "r" x)) with false. now rewrite Q.
  - exists (d ++ "/"). intros x. unfold path_join. change (prefix "/" (String "r" x)) with false. rewrite Q. now rewrite append_assoc.
Qed.

Lemma plot_is_not_report : forall d d' x, path_join d' (x ++ ".png") <> path_join d "report.txt".
Proof.
  intros d d' x H. destruct (path_join_cases d' (x ++ ".png")) as (p & E1). destruct (path_join_cases d "report.txt") as (q & E2).
  rewrite E1, E2 in H. apply (different_ends p q (x ++ ".pn") "report.tx" "g" "t"); [discriminate|]. rewrite append_assoc. exact H.
Qed.

Lemma saved_is_not_report : forall d x, path_join d ("report_" ++ x ++ ".txt") <> path_join d "report.txt".
Proof.
  intros d x H. destruct (path_join_r d) as (p & E). change ("report_" ++ x ++ ".txt") with (String "r" ("eport_" ++ (x ++ ".txt"))) in H.
  change "report.txt" with (String "r" "eport.txt") in H. rewrite !E in H. apply append_cancel in H. discriminate.
Qed.

(** ** Accounting *)

Section Accounting.
Variables (name dir : string).

Definition report_file : string := path_join dir "report.txt".

(** What the next flush starts with. *)
Definition separator (gs : list (list string)) : string :=
  match gs with [] => "Report " ++ name ++ ":" ++ newline | _ => newline end.

Definition harmless (e : event) : Prop :=
  match e with
  | EvMkdir p => p = dir
  | EvWrite p _ => exists x, p = path_join dir ("report_" ++ x ++ ".txt")
  | EvPlot p => exists x, p = path_join dir (x ++ ".png")
  | _ => False
  end.

(** [gs]: messages flushed so far, [pd]: messages not flushed yet. *)
Inductive account : list event -> list (list string) -> list string -> Prop :=
  | AccNothing : account [] [] []
  | AccPrint : forall evs gs pd m, account evs gs pd -> account (evs ++ [EvPrint (console_line name m)]) gs (pd ++ [m])
  | AccFlush : forall evs gs pd, account evs gs pd ->
      account (evs ++ [EvAppend report_file (separator gs ++ lines pd)]) (gs ++ [pd]) []
  | AccOther : forall evs gs pd e, account evs gs pd -> harmless e -> account (evs ++ [e]) gs pd.

Lemma account_firstn : forall evs gs pd, account evs gs pd -> forall n, exists gs' pd', account (firstn n evs) gs' pd'.
Proof.
  assert (G : forall evs e gs pd, account (evs ++ [e]) gs pd -> (forall n, exists gs' pd', account (firstn n evs) gs' pd') ->
    forall n, exists gs' pd', account (firstn n (evs ++ [e])) gs' pd').
  { intros evs e gs pd A H n. rewrite firstn_app. destruct (n - length evs)%nat as [|k] eqn:Q.
    - simpl. rewrite app_nil_r. apply H.
    - simpl. rewrite firstn_nil. rewrite firstn_all2 by lia. eauto. }
  intros evs gs pd A. induction A.
  - intros n. rewrite firstn_nil. exists [], []. constructor.
  - eapply G; [|exact IHA]. apply AccPrint. exact A.
  - eapply G; [|exact IHA]. apply AccFlush. exact A.
  - eapply G; [|exact IHA]. eapply AccOther; eassumption.
Qed.

Lemma printed_app : forall a b, printed (a ++ b) = (printed a ++ printed b)%list.
Proof. induction a as [|[] a IH]; intros b; simpl; rewrite ?IH; reflexivity. Qed.

Lemma file_from_app : forall a p evs x, file_from x p (evs ++ a) = file_from (file_from x p evs) p a.
Proof. intros a p. induction evs as [|[] evs IH]; intros x; simpl; auto. Qed.

Lemma lines_app : forall a b, lines (a ++ b) = lines a ++ lines b.
Proof. induction a as [|x a IH]; intros b; [reflexivity|]. cbn [lines app]. now rewrite IH, !append_assoc. Qed.

Lemma later_app : forall a b, later_groups (a ++ b) = later_groups a ++ later_groups b.
Proof. induction a as [|x a IH]; intros b; [reflexivity|]. cbn [later_groups app]. now rewrite IH, !append_assoc. Qed.

Lemma rendered_snoc : forall gs g, rendered name (gs ++ [g]) = rendered name gs ++ (separator gs ++ lines g).
Proof.
  intros [|h gs] g.
  - cbn [rendered app separator later_groups]. now rewrite append_nil, !append_assoc.
  - cbn [rendered app separator]. rewrite later_app. cbn [later_groups]. now rewrite append_nil, !append_assoc.
Qed.

Lemma account_printed : forall evs gs pd, account evs gs pd -> printed evs = map (console_line name) (concat gs ++ pd)%list.
Proof.
  intros evs gs pd A. induction A; rewrite ?printed_app, ?IHA.
  - reflexivity.
  - simpl. rewrite <- map_last. now rewrite app_assoc.
  - simpl. rewrite concat_app. simpl. now rewrite !app_nil_r.
  - replace (printed [e]) with (@nil string) by (destruct e; simpl in *; tauto). now rewrite app_nil_r.
Qed.

Lemma harmless_file : forall e x, harmless e -> file_from x report_file [e] = x.
Proof.
  intros e x H. destruct e as [s|p|p s|p s|p]; simpl in *; try tauto.
  - destruct H as (y & ->). destruct (String.eqb_spec (path_join dir ("report_" ++ y ++ ".txt")) report_file) as [Q|_]; [|reflexivity].
    exfalso. exact (saved_is_not_report _ _ Q).
  - destruct H as (y & ->). destruct (String.eqb_spec (path_join dir (y ++ ".png")) report_file) as [Q|_]; [|reflexivity].
    exfalso. exact (plot_is_not_report _ _ _ Q).
Qed.

Lemma account_file : forall evs gs pd, account evs gs pd -> file report_file evs = rendered name gs.
Proof.
  unfold file. intros evs gs pd A. induction A; rewrite ?file_from_app, ?IHA.
  - reflexivity.
  - reflexivity.
  - cbn [file_from]. rewrite String.eqb_refl. now rewrite rendered_snoc.
  - now apply harmless_file.
Qed.

Lemma account_growing : forall evs gs pd, account evs gs pd ->
  forall n, beginning (file report_file (firstn n evs)) (file report_file evs).
Proof.
  assert (G : forall evs e gs pd, account (evs ++ [e]) gs pd -> beginning (file report_file evs) (file report_file (evs ++ [e])) ->
    (forall n, beginning (file report_file (firstn n evs)) (file report_file evs)) ->
    forall n, beginning (file report_file (firstn n (evs ++ [e]))) (file report_file (evs ++ [e]))).
  { intros evs e gs pd A B H n. rewrite firstn_app. destruct (n - length evs)%nat as [|k] eqn:Q.
    - simpl. rewrite app_nil_r. eapply beginning_trans; [apply H|exact B].
    - simpl. rewrite firstn_nil. rewrite firstn_all2 by lia. apply beginning_refl. }
  intros evs gs pd A. induction A.
  - intros n. rewrite firstn_nil. apply beginning_refl.
  - eapply G; [eapply AccPrint; exact A| |exact IHA]. unfold file. rewrite file_from_app. apply beginning_refl.
  - eapply G; [eapply AccFlush; exact A| |exact IHA]. unfold file. rewrite file_from_app. cbn [file_from].
    rewrite String.eqb_refl. apply beginning_app.
  - eapply G; [eapply AccOther; eassumption| |exact IHA]. unfold file. rewrite file_from_app, harmless_file by assumption. apply beginning_refl.
Qed.

(** Where the events take place. *)
Definition own (e : event) : Prop :=
  match e with
  | EvPrint _ => True
  | EvMkdir p => p = dir
  | EvAppend p _ => p = report_file
  | EvWrite p _ => exists x, p = path_join dir ("report_" ++ x ++ ".txt")
  | EvPlot p => exists x, p = path_join dir (x ++ ".png")
  end.

Lemma account_own : forall evs gs pd, account evs gs pd -> Forall own evs.
Proof.
  intros evs gs pd A. induction A as [| | |evs gs pd e A IH H]; [constructor| | |]; apply Forall_app; (split; [assumption|]); (constructor; [|constructor]).
  - exact I.
  - reflexivity.
  - destruct e; cbn in *; tauto.
Qed.

(** ** Methods *)

Variable base : list event.

Definition PI (gs : list (list string)) (pd : list string) (s : Pipeline * World) : Prop :=
  pl_name (fst s) = name /\ pl_reports_dir (fst s) = dir /\ pl_report (fst s) = separator gs ++ lines pd /\
  exists evs, w_events (snd s) = (base ++ evs)%list /\ account evs gs pd.

Definition some (s : Pipeline * World) : Prop := exists gs pd, PI gs pd s.

(** Programs that neither print nor write. *)
Definition silent {A : Type} (m : PM A) : Prop := forall gs pd, keeps (PI gs pd) m.

Lemma silent_bind : forall A B (x : PM A) (f : A -> PM B), silent x -> (forall a, silent (f a)) -> silent (mbind x f).
Proof. intros A B x f H K gs pd. apply keeps_bind; [apply H|]. intros a. apply K. Qed.
Lemma silent_ret : forall A (a : A), silent (ret a).
Proof. intros A a gs pd. apply keeps_ret. Qed.
Lemma silent_raise : forall A e, silent (@raise _ A e).
Proof. intros A e gs pd. apply keeps_raise. Qed.
Lemma silent_this : silent this.
Proof. intros gs pd s H. exact H. Qed.
Lemma silent_onW : forall A (m : W A), quiet m -> silent (onW m).
Proof.
  intros A m H gs pd [p w] (H1 & H2 & H3 & evs & H4 & H5). unfold onW. cbn [fst snd] in *. specialize (H w).
  destruct (m w) as [r w']. simpl in H. unfold PI. cbn [fst snd]. rewrite H. eauto 8.
Qed.
Lemma silent_change : forall f, (forall p, pl_name (f p) = pl_name p /\ pl_reports_dir (f p) = pl_reports_dir p /\ pl_report (f p) = pl_report p) ->
  silent (change f).
Proof. intros f F gs pd [p w] H. destruct (F p) as (F1 & F2 & F3). unfold PI, change in *. cbn [fst snd] in *. now rewrite F1, F2, F3. Qed.
Lemma silent_with_best : forall b, silent (change (with_best b)).
Proof. intros b. apply silent_change. intros []. repeat split. Qed.
Lemma silent_with_parameters : forall r, silent (change (with_parameters r)).
Proof. intros b. apply silent_change. intros []. repeat split. Qed.

#[local] Hint Resolve silent_ret silent_raise silent_this silent_with_best silent_with_parameters : silent.
#[local] Hint Extern 1 (silent (onW _)) => apply silent_onW; auto with quiet : silent.
Ltac silent := first [solve [auto with silent] | apply silent_bind; [silent | intros ?; silent] | idtac].

Lemma silent_mutate : forall m, silent (mutate_parameters m).
Proof. intros m. unfold mutate_parameters. silent. Qed.
#[local] Hint Resolve silent_mutate : silent.

Lemma silent_show : forall o, silent (show_parameters o).
Proof. intros o. unfold show_parameters. silent. Qed.

Lemma silent_update_best : forall t, silent (update_best_fit t).
Proof.
  intros t. unfold update_best_fit. destruct (truthy (rp_chi_squared (tk_report t))); [|silent].
  apply silent_bind; [silent|]. intros p. cbv zeta. destruct (match truthy _ with _ => _ end); silent.
Qed.

Lemma silent_create : forall n c, silent (create_task n c).
Proof.
  intros n c. unfold create_task. apply silent_bind; [silent|]. intros p.
  destruct (passes_masses (pl_kind p)), (kind_of c); silent.
Qed.

Lemma silent_freeze : forall o k f, silent (randomly_freeze_parameters o k f).
Proof.
  intros o k f. unfold randomly_freeze_parameters. apply silent_bind; [silent|]. intros _.
  apply silent_bind; [destruct f; silent|]. intros _. apply silent_bind; [silent|]. intros p. silent.
Qed.

#[local] Hint Resolve silent_show silent_update_best silent_create silent_freeze : silent.

Lemma with_text_fields : forall x p, pl_name (with_text x p) = pl_name p /\ pl_reports_dir (with_text x p) = pl_reports_dir p /\
  pl_report (with_text x p) = x.
Proof. intros x []. repeat split. Qed.

Lemma log_spec : forall gs pd m, triple (PI gs pd) (log m) (fun _ => PI gs (pd ++ [m])%list) some.
Proof.
  intros gs pd m [p w] (H1 & H2 & H3 & evs & H4 & H5). unfold log, this, onW, emit, change, mbind, PI. cbn [fst snd] in *.
  change Pipeline.newline with newline. destruct (with_text_fields (pl_report p ++ m ++ newline) p) as (-> & -> & ->). split; [exact H1|]. split; [exact H2|]. split.
  - rewrite H3, lines_app. cbn [lines]. now rewrite append_nil, !append_assoc.
  - eexists. split; [cbn [w_events]; rewrite H4, <- app_assoc, H1; reflexivity|]. now apply AccPrint.
Qed.

Lemma flush_spec : forall gs pd, triple (PI gs pd) flush_report (fun _ => PI (gs ++ [pd])%list []) some.
Proof.
  intros gs pd [p w] (H1 & H2 & H3 & evs & H4 & H5). unfold flush_report, this, onW, emit, change, mbind, PI. cbn [fst snd] in *.
  change Pipeline.newline with newline. destruct (with_text_fields newline p) as (-> & -> & ->). split; [exact H1|]. split; [exact H2|]. split.
  - replace (separator (gs ++ [pd])%list) with newline by now destruct gs. now rewrite append_nil.
  - eexists. split; [cbn [w_events]; rewrite H4, <- app_assoc, H2, H3; reflexivity|]. now apply AccFlush.
Qed.

Lemma silent_spec : forall A (m : PM A) gs pd, silent m -> triple (PI gs pd) m (fun _ => PI gs pd) some.
Proof.
  intros A m gs pd H. eapply triple_weaken; [| | |apply keeps_triple; apply (H gs pd)]; auto. intros s K. now exists gs, pd.
Qed.

Lemma save_spec : forall o x r gs pd, triple (PI gs pd) (save_report o x r) (fun _ => PI gs pd) some.
Proof.
  intros o x r gs pd. unfold save_report. eapply triple_bind with (R := fun p s => PI gs pd s /\ pl_reports_dir p = dir).
  { intros s H. split; [exact H|]. apply H. }
  intros p. cbv zeta. eapply triple_bind with (R := fun _ s => PI gs pd s /\ pl_reports_dir p = dir).
  - intros s [H E]. pose proof (silent_onW _ _ (quiet_report_text o r) gs pd s H) as K.
    destruct (onW (report_text o r) s) as [[a|e] s']; [now split|]. now exists gs, pd.
  - intros text [p' w'] [(K1 & K2 & K3 & evs & K4 & K5) E]. unfold onW, emit, PI. cbn [fst snd w_events] in *.
    repeat split; try assumption. eexists. split; [rewrite K4, <- app_assoc; reflexivity|].
    apply AccOther; [exact K5|]. exists x. now rewrite E.
Qed.

Lemma run_task_spec : forall o t gs pd, tk_reports_dir t = Some dir \/ tk_reports_dir t = None ->
  triple (PI gs pd) (run_task o t) (fun _ => PI gs pd) some.
Proof.
  intros o t gs pd D [p w] (H1 & H2 & H3 & evs & H4 & H5). unfold run_task. cbn [fst snd] in *.
  assert (I0 : TI (base ++ evs) (tk_reports_dir t) (tk_name t) (t, w)).
  { split; [reflexivity|]. split; [reflexivity|]. exists []. split; [now rewrite app_nil_r|constructor]. }
  pose proof (TI_run o _ _ _ _ I0) as (_ & _ & more & E & P). destruct (Task_run o (t, w)) as [res [t' w']]. cbn [fst snd] in *.
  assert (X : PI gs pd (p, w')).
  { unfold PI. cbn [fst snd]. repeat split; try assumption. exists (evs ++ more)%list. split; [now rewrite E, app_assoc|].
    clear E. induction more as [|e more IH] using rev_ind; [now rewrite app_nil_r|].
    apply Forall_app in P as [P1 P2]. rewrite app_assoc. apply AccOther; [now apply IH|]. inversion P2 as [|? ? (d & E1 & E2) _]; subst.
    simpl. destruct D as [D|D]; [|congruence]. exists (lower (tk_name t)). congruence. }
  destruct res; [exact X|]. now exists gs, pd.
Qed.

Lemma created_dir : forall n c s t s', create_task n c s = (Ok t, s') ->
  tk_reports_dir t = Some (pl_reports_dir (fst s)) \/ tk_reports_dir t = None.
Proof.
  intros n c [p w] t s' H. unfold create_task, mbind at 1, this in H. cbn [fst] in *.
  assert (X : forall m a hc k d pl h, onW (Task_init c n (pl_parameters p) (pl_ts p) (pl_ys p) (pl_errors p) m a hc k d pl h) (p, w) = (Ok t, s') ->
    tk_reports_dir t = d).
  { intros m a hc k d pl h E. unfold onW, Task_init in E. cbn [snd fst] in E. unfold mbind in E.
    destruct (obj_to_list (pl_parameters p) w) as [[l|e] w']; [|discriminate]. injection E as <- _. reflexivity. }
  destruct (passes_masses (pl_kind p)), (kind_of c); try discriminate; first [left; eapply X; exact H|right; eapply X; exact H].
Qed.

Lemma create_and_run_spec : forall o n c gs pd,
  triple (PI gs pd) (create_and_run o n c)
    (fun _ s => exists text, PI gs (pd ++ [("Running " ++ n)%string; (n ++ " report: " ++ text)%string])%list s) some.
Proof.
  intros o n c gs pd. unfold create_and_run.
  eapply triple_bind with (R := fun t s => PI gs pd s /\ (tk_reports_dir t = Some dir \/ tk_reports_dir t = None)).
  { intros s H. pose proof (silent_create n c gs pd s H) as K. pose proof (created_dir n c s) as D.
    destruct (create_task n c s) as [[t|e] s'] eqn:E; [|now exists gs, pd]. split; [exact K|].
    specialize (D t s' eq_refl). destruct H as (_ & HD & _). now rewrite HD in D. }
  intros t. eapply triple_bind with (R := fun _ s => PI gs (pd ++ [("Running " ++ n)%string])%list s /\ (tk_reports_dir t = Some dir \/ tk_reports_dir t = None)).
  { intros s [H D]. pose proof (log_spec gs pd ("Running " ++ n) s H) as K. destruct (log _ s) as [[u|e] s']; [now split|exact K]. }
  intros _. eapply triple_bind with (R := fun _ => PI gs (pd ++ [("Running " ++ n)%string])%list).
  { intros s [H D]. exact (run_task_spec o t gs _ D s H). }
  intros t'. eapply triple_bind; [apply silent_spec; auto with silent|]. intros text.
  eapply triple_bind; [apply log_spec|]. intros u. apply triple_ret. intros s H. exists text. now rewrite <- app_assoc in H.
Qed.

Lemma any_spec : forall A (m : PM A), (forall gs pd, triple (PI gs pd) m (fun _ => some) some) -> triple some m (fun _ => some) some.
Proof. intros A m H s (gs & pd & K). exact (H gs pd s K). Qed.

Lemma log_any : forall m, triple some (log m) (fun _ => some) some.
Proof.
  intros m. apply any_spec. intros gs pd. eapply triple_post; [apply log_spec|]. intros u0 s H. now exists gs, (pd ++ [m])%list.
Qed.
Lemma silent_any : forall A (m : PM A), silent m -> triple some m (fun _ => some) some.
Proof. intros A m H. apply any_spec. intros gs pd. eapply triple_post; [apply silent_spec; exact H|]. intros u0 s K. now exists gs, pd. Qed.
Lemma create_any : forall o n c, triple some (create_and_run o n c) (fun _ => some) some.
Proof.
  intros o n c. apply any_spec. intros gs pd. eapply triple_post; [apply create_and_run_spec|].
  intros u0 s (text & H). eexists _, _. exact H.
Qed.
(** After a flush nothing is left. *)
Definition flushed (s : Pipeline * World) : Prop := exists gs, PI gs [] s.
Lemma flush_any : triple some flush_report (fun _ => flushed) some.
Proof. intros s (gs & pd & H). pose proof (flush_spec gs pd s H) as K. destruct (flush_report s) as [[u|e] s']; [now exists (gs ++ [pd])%list|exact K]. Qed.
Lemma save_flushed : forall o x r, triple flushed (save_report o x r) (fun _ => flushed) some.
Proof. intros o x r s (gs & H). pose proof (save_spec o x r gs [] s H) as K. destruct (save_report o x r s) as [[u|e] s']; [now exists gs|exact K]. Qed.

Lemma flushed_some : forall s, flushed s -> some s.
Proof. intros s (gs & H). now exists gs, []. Qed.

Lemma round_end : forall o x r, triple some (flush_report ;;; save_report o x r) (fun _ => flushed) some.
Proof. intros o x r. eapply triple_bind; [apply flush_any|]. intros u. apply save_flushed. Qed.

Lemma triple_flushed_some : forall A P (m : PM A) E, triple P m (fun _ => flushed) E -> triple P m (fun _ => some) E.
Proof. intros A P m E H. eapply triple_post; [exact H|]. intros u0 s K. now apply flushed_some. Qed.

Lemma plain_round_any : forall o ic, triple some (plain_round o ic) (fun _ => some) some.
Proof.
  intros o [i c]. unfold plain_round. eapply triple_bind; [apply silent_any; auto with silent|]. intros text.
  eapply triple_bind; [apply log_any|]. intros u. cbv zeta. eapply triple_bind; [apply create_any|]. intros t.
  eapply triple_bind; [apply silent_any; auto with silent|]. intros u2. eapply triple_bind; [apply silent_any; auto with silent|]. intros u3.
  eapply triple_bind; [apply silent_any; auto with silent|]. intros u4. apply triple_flushed_some. apply round_end.
Qed.

Lemma log_start_any : forall o, triple some (log_start o) (fun _ => some) some.
Proof. intros o. unfold log_start. eapply triple_bind; [apply silent_any; auto with silent|]. intros text. apply log_any. Qed.

Lemma log_best_any : forall o, triple some (log_best o) (fun _ => some) some.
Proof.
  intros o. unfold log_best. eapply triple_bind; [apply silent_any; auto with silent|]. intros p.
  eapply triple_bind; [apply silent_any; auto with silent|]. intros text. apply log_any.
Qed.

Theorem plain_accounts : forall o, triple some (Pipeline_run o) (fun _ => flushed) some.
Proof.
  intros o. unfold Pipeline_run. eapply triple_bind; [apply log_start_any|]. intros u1.
  eapply triple_bind; [apply silent_any; auto with silent|]. intros p.
  eapply triple_bind; [apply triple_mfor; intros x _; apply plain_round_any|]. intros u2.
  eapply triple_bind; [apply log_best_any|]. intros u3. eapply triple_bind; [apply flush_any|]. intros u4.
  intros s (gs & H). now exists gs.
Qed.

Lemma iterative_round_any : forall o ik, triple some (iterative_round o ik) (fun _ => some) some.
Proof.
  intros o [i k]. unfold iterative_round. eapply triple_bind; [apply silent_any; auto with silent|]. intros p. cbv zeta.
  eapply triple_bind; [apply silent_any; auto with silent|]. intros names.
  eapply triple_bind; [apply log_any|]. intros u. eapply triple_bind; [apply create_any|]. intros t.
  eapply triple_bind; [apply silent_any; auto with silent|]. intros u2. eapply triple_bind; [apply silent_any; auto with silent|]. intros u3.
  apply triple_flushed_some. apply round_end.
Qed.

Lemma final_common_any : forall o n tn c, triple some (final_common o n tn c) (fun _ => flushed) some.
Proof.
  intros o n tn c. unfold final_common. eapply triple_bind; [apply create_any|]. intros t.
  eapply triple_bind; [apply silent_any; auto with silent|]. intros u2. eapply triple_bind; [apply silent_any; auto with silent|]. intros u3.
  eapply triple_bind; [apply log_best_any|]. intros u4. apply round_end.
Qed.

Lemma final_fit_any : forall o n, triple some (final_fit o n) (fun _ => flushed) some.
Proof.
  intros o n. unfold final_fit. eapply triple_bind; [apply silent_any; auto with silent|]. intros p. cbv zeta.
  eapply triple_bind; [apply log_any|]. intros u. apply final_common_any.
Qed.

Lemma final_fit_nucleon_any : forall o n, triple some (final_fit_nucleon o n) (fun _ => flushed) some.
Proof.
  intros o n. unfold final_fit_nucleon. eapply triple_bind; [apply silent_any; auto with silent|]. intros p.
  eapply triple_bind; [apply silent_any; auto with silent|]. intros u1.
  eapply triple_bind; [apply silent_any; destruct (Z.ltb _ _); silent|]. intros nm.
  eapply triple_bind; [apply log_any|]. intros u. apply final_common_any.
Qed.

(** The messages of the residual stage. *)
Definition residual_messages (n : nat) (text : string) : list string :=
  let tn := "Task#" ++ str_nat n ++ ":ResidualOscillationsTask" in
  ["Initializing Task#" ++ str_nat n ++ ". Residuals."; "Running " ++ tn; tn ++ " report: " ++ text].

Lemma residuals_stage_spec : forall o n,
  triple flushed (residuals_stage o n) (fun _ s => exists gs text, PI gs (residual_messages n text) s) some.
Proof.
  intros o n s (gs & H). revert s H.
  change (triple (PI gs []) (residuals_stage o n) (fun _ s => exists gs text, PI gs (residual_messages n text) s) some).
  unfold residuals_stage. eapply triple_bind; [apply log_spec|]. intros u.
  eapply triple_bind; [apply create_and_run_spec|]. intros t s (text & H). revert s H.
  match goal with |- forall s, PI gs ?pd s -> _ => change (triple (PI gs pd) (save_report o (str_nat n) (tk_report t))
    (fun _ s => exists gs text, PI gs (residual_messages n text) s) some) end.
  eapply triple_post; [apply save_spec|]. intros u0 s H. exists gs, text. exact H.
Qed.

Theorem iterative_accounts : forall o k numbers,
  triple (fun s => some s /\ pl_kind (fst s) = k /\ pl_numbers (fst s) = numbers) (IterativePipeline_run o)
    (fun _ s => match k with
                | NucleonCS => exists gs text, PI gs (residual_messages (length numbers + 1) text) s
                | _ => flushed s
                end) some.
Proof.
  intros o k numbers. unfold IterativePipeline_run.
  eapply triple_bind with (R := fun _ s => some s /\ pl_kind (fst s) = k /\ pl_numbers (fst s) = numbers).
  { intros s (H & K & NN). pose proof (log_start_any o s H) as L. 
    assert (X : pl_kind (fst (snd (log_start o s))) = pl_kind (fst s) /\ pl_numbers (fst (snd (log_start o s))) = pl_numbers (fst s)).
    { destruct s as [p w]. unfold log_start, show_parameters, log, this, onW, change, emit, mbind. cbn [fst snd].
      destruct (obj_to_list (pl_parameters p) w) as [[a|e] w1]; [|now split]. cbn [fst snd].
      destruct (read a w1) as [[d|e] w2]; [|now split]. cbn. destruct p. now split. }
    destruct (log_start o s) as [[u|e] s']; [|exact L]. cbn [snd] in X. destruct X as [X1 X2]. rewrite X1, X2. auto. }
  intros u. eapply triple_bind with (R := fun p s => some s /\ pl_kind p = k /\ pl_numbers p = numbers).
  { intros s H. exact H. }
  intros p. intros s (H & K & NN). rewrite K, NN. revert s H.
  match goal with |- forall s, some s -> match ?m s with _ => _ end => change (triple some m
    (fun _ s => match k with NucleonCS => exists gs text, PI gs (residual_messages (length numbers + 1) text) s | _ => flushed s end) some) end.
  eapply triple_bind; [apply triple_mfor; intros x _; apply iterative_round_any|]. intros u2. cbv zeta.
  destruct k.
  1, 2, 4: eapply triple_bind; [apply final_fit_any|]; intros u3; intros s (gs & H); now exists gs.
  eapply triple_bind with (R := fun _ s => exists gs text, PI gs (residual_messages (length numbers + 1) text) s).
  - eapply triple_bind; [apply final_fit_nucleon_any|]. intros u3. apply residuals_stage_spec.
  - intros u3 s H. exact H.
Qed.
End Accounting.
