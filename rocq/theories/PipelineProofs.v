(** What a pipeline does to its store, its best fit and the record of fits. *)
From Coq Require Import String Ascii Reals NArith ZArith List Bool Arith Lia.
From Verif Require Import PyBase CNum PyExpr Params ParamClasses ParamSpec ParamProofs PropsParams PropsParams2 CommonUtils World WorldProofs DataSets
  Task TaskSpec TaskProofs PropsTask Pipeline PipelineSpec PipelineReports PipelineFreeze.
Import ListNotations.
Local Open Scope string_scope.
Local Open Scope list_scope.
Local Open Scope m_scope.

#[local] Arguments String.append : simpl never.

(** ** One task of any class *)

Lemma bounds_error : forall c h d e, inv c d -> get_bounds c h d = Err e -> e <> RuntimeError.
Proof.
  intros c h d e I H. apply C06_raises_exactly in H; [|now apply inv_reachable]. destruct H as (-> & _). discriminate.
Qed.

Lemma nth_lt : forall A (l : list A) i x, nth_error l i = Some x -> (i < length l)%nat.
Proof. intros A l i x H. apply nth_error_Some. congruence. Qed.

Lemma outcome_facts : forall o t w d1 F fit n res rep h' evs,
  run_outcome o t w d1 F fit n res rep h' evs -> inv (r_class (tk_parameters t)) d1 -> rp_final (tk_report t) = None ->
  rp_chi_squared (tk_report t) = None ->
  (exists d', nth_error h' (r_data (tk_parameters t)) = Some d' /\ inv (r_class (tk_parameters t)) d') /\
  rp_initial rep = rp_initial (tk_report t) /\ (forall a, rp_final rep = Some a -> (a < length h')%nat) /\
  (res = Ok (tk_parameters t) \/ exists e, res = Err e) /\
  (forall r, res = Ok r -> settled rep) /\
  (forall e, fit = Err e -> e <> RuntimeError -> res = Err e).
Proof.
  intros o t w d1 F fit n res rep h' evs OUT I NF NC. unfold run_outcome in OUT. destruct fit as [[popt cov]|e].
  - assert (Z : forall e : exn, @Ok (list R * matrix) (popt, cov) = Err e -> e <> RuntimeError -> res = Err e) by discriminate.
    destruct (Nat.eq_dec _ _) as [L|L].
    + destruct OUT as [S OUT]. split; [exists (fill d1 popt); split; [exact S|now apply inv_fill]|].
      destruct (F (tk_ts t) popt) as [fs|e].
      2: { destruct OUT as (-> & -> & _). rewrite NF. split; [reflexivity|]. split; [discriminate|]. split; [right; now eexists|].
           split; [discriminate|exact Z]. }
      cbv zeta in OUT. destruct (text_of _ _ _) as [chi|e].
      2: { destruct OUT as (-> & -> & _). rewrite NF. split; [reflexivity|]. split; [discriminate|]. split; [right; now eexists|].
           split; [discriminate|exact Z]. }
      destruct OUT as (A & (final & values & -> & _ & _ & S2 & _) & _). cbn [done rp_initial rp_final rp_chi_squared rp_status].
      split; [reflexivity|]. split; [intros a E; injection E as <-; now apply nth_lt in S2|]. split; [exact A|]. split; [intros r _; left; now split|exact Z].
    + destruct OUT as (-> & -> & S & _). split; [exists d1; now split|]. rewrite NF. split; [reflexivity|]. split; [discriminate|].
      split; [right; now eexists|]. split; [discriminate|exact Z].
  - assert (Y : (exists d', nth_error h' (r_data (tk_parameters t)) = Some d' /\ inv (r_class (tk_parameters t)) d') /\
      (e = RuntimeError /\ res = Ok (tk_parameters t) /\ rep = failed (o_message o n) (tk_report t) \/ res = Err e /\ rep = tk_report t)).
    { destruct e; destruct OUT as (-> & -> & S & _); (split; [exists d1; now split|]); auto. }
    destruct Y as [Y1 [(-> & -> & ->)|(-> & ->)]]; (split; [exact Y1|]).
    + unfold failed. cbn [rp_initial rp_final rp_chi_squared rp_status]. rewrite NF. split; [reflexivity|]. split; [discriminate|].
      split; [now left|]. split; [intros r _; right; now split|]. intros e E N. injection E as <-. congruence.
    + rewrite NF. split; [reflexivity|]. split; [discriminate|]. split; [right; now eexists|]. split; [discriminate|].
      intros e' E _. now injection E as <-.
Qed.

(** What the call of the optimiser made by a task looks like. *)
Definition asks (c : task_class) (name : string) (cl : param_class) (ts : list datapoint) (ys es : list R) (d : data) (x : FitInput) : Prop :=
  fi_task x = name /\
  match c with
  | ResidualTask => fi_class x = POscillations /\ free_names_of (fi_store x) = ["a"; "b"; "c"; "d"]
  | _ => fi_class x = cl /\ fi_store x = prepared c cl d /\
         if charged_only c then exists rows, charged_rows (zipped ts ys es) = Ok rows /\ fi_points x = map (fun x => fst (fst x)) rows
         else fi_points x = ts
  end.

Record ran (o : Oracle) (t : Task) (w : World) (d : data) (res : Res Ref) (t' : Task) (w' : World) : Prop := mkRan {
  ran_class : tk_class t' = tk_class t;
  ran_name : tk_name t' = tk_name t;
  ran_initial : rp_initial (tk_report t') = rp_initial (tk_report t);
  ran_final : forall a, rp_final (tk_report t') = Some a -> (a < length (w_lists w'))%nat;
  ran_status : forall r, res = Ok r -> settled (tk_report t');
  ran_frame : frame (fun b => b = r_data (tk_parameters t)) (w_lists w) (w_lists w');
  ran_fits : exists l, w_fits w' = w_fits w ++ l /\ (length l <= 1)%nat /\ (forall r, res = Ok r -> length l = 1%nat) /\
    forall x, In x l -> asks (tk_class t) (tk_name t) (r_class (tk_parameters t)) (tk_ts_fit t) (tk_ys_fit t) (tk_errors_fit t) d x;
  ran_old : exists d', nth_error (w_lists w') (r_data (tk_parameters t)) = Some d' /\ inv (r_class (tk_parameters t)) d';
  ran_new : exists d', nth_error (w_lists w') (r_data (tk_parameters t')) = Some d' /\ inv (r_class (tk_parameters t')) d';
  ran_ref : tk_parameters t' = tk_parameters t \/
    (tk_class t = ResidualTask /\ r_class (tk_parameters t') = POscillations /\ (length (w_lists w) <= r_data (tk_parameters t'))%nat);
  ran_samples : w_samples w' = w_samples w
}.

Lemma charged_fit_points : forall t x, fit_data t = Ok x ->
  if charged_only (tk_class t) then exists rows, charged_rows (zipped (tk_ts_fit t) (tk_ys_fit t) (tk_errors_fit t)) = Ok rows /\
    fst (fst x) = map (fun x => fst (fst x)) rows
  else fst (fst x) = tk_ts_fit t.
Proof.
  intros t x H. unfold fit_data in H. destruct (charged_only _); [|now injection H as <-].
  destruct (charged_rows _) as [rows|e]; [|discriminate]. exists rows. split; [reflexivity|]. cbn [bind] in H.
  destruct rows; [discriminate|]. now injection H as <-.
Qed.

Lemma everything_fixed_inv : forall c d, inv c d -> inv c (everything_fixed d).
Proof.
  intros c d [N A]. split; [unfold names, everything_fixed; rewrite map_map; exact N|].
  intros p P _. apply in_map_iff in P. now destruct P as (q & <- & _).
Qed.

Lemma damped_inv : forall x, inv POscillations (damped x).
Proof. intros [[[a b] c] e]. split; [reflexivity|]. intros p _ []. Qed.

Lemma run_any : forall o t w d res t' w', nth_error (w_lists w) (r_data (tk_parameters t)) = Some d ->
  inv (r_class (tk_parameters t)) d -> rp_final (tk_report t) = None -> rp_chi_squared (tk_report t) = None ->
  Task_run o (t, w) = (res, (t', w')) -> ran o t w d res t' w'.
Proof.
  intros o t w d res t' w' S I NF NC H.
  assert (CL : tk_class t = ResidualTask \/ tk_class t <> ResidualTask) by (destruct (tk_class t); (now left) || (right; discriminate)).
  destruct CL as [K|K].
  - pose proof (run_residual o t w d S I K) as RR. destruct (residuals t d) as [[eff x]|e].
    + destruct RR as (a & LA & RR). cbv zeta in RR. destruct RR as (res0 & rep & h' & evs & E & FR & S' & OUT).
      rewrite E in H. injection H as <- <- <-. set (t1 := with_residuals (mkRef POscillations a) eff x t) in *.
      assert (T1 : tk_parameters t1 = mkRef POscillations a /\ tk_class t1 = tk_class t /\ tk_name t1 = tk_name t /\ tk_report t1 = tk_report t)
        by (unfold t1; destruct t, x as [[? ?] ?]; repeat split).
      destruct T1 as (T1 & T2 & T3 & T4).
      assert (W1 : forall r y, tk_parameters (with_report r y) = tk_parameters y /\ tk_class (with_report r y) = tk_class y /\
        tk_name (with_report r y) = tk_name y /\ tk_report (with_report r y) = r) by (intros r []; repeat split).
      destruct (W1 rep t1) as (Q1 & Q2 & Q3 & Q4).
      change (run_outcome o t1 w (damped (100, 2, 5, 0)%R) oscillation (optimum o t1 (damped (100, 2, 5, 0)%R) oscillation w)
        (length (w_fits w ++ new_fits t1 (damped (100, 2, 5, 0)%R))) res0 rep h' evs) in OUT.
      destruct (outcome_facts _ _ _ _ _ _ _ _ _ _ _ OUT) as (O1 & O2 & O3 & O4 & O5 & O6).
      { rewrite T1. apply damped_inv. } { now rewrite T4. } { now rewrite T4. }
      rewrite T1, T4 in *. cbn [r_data r_class] in *. constructor; rewrite ?Q1, ?Q2, ?Q3, ?Q4, ?T1; cbn [r_data r_class]; auto.
      * exists (new_fits t1 (damped (100, 2, 5, 0)%R)). split; [reflexivity|].
        unfold new_fits. rewrite T1. cbn [r_class]. destruct (get_bounds _ _ _) as [bounds|e] eqn:GB.
        -- split; [simpl; lia|]. split; [reflexivity|]. intros y [<-|[]]. unfold asks. rewrite K. cbn. rewrite T3, T1. repeat split.
        -- split; [simpl; lia|]. split; [|intros y []]. intros r ER. exfalso.
           assert (N := bounds_error _ _ _ _ (damped_inv _) GB). specialize (O6 e).
           unfold optimum in O6. rewrite T1 in O6. cbn [r_class] in O6. rewrite GB in O6. specialize (O6 eq_refl N). congruence.
      * exists (everything_fixed d). split; [exact S'|now apply everything_fixed_inv].
    + destruct RR as (h' & E & FR & S'). rewrite E in H. injection H as <- <- <-. constructor; auto.
      * intros a. rewrite NF. discriminate.
      * discriminate.
      * exists []. split; [now rewrite app_nil_r|]. split; [simpl; lia|]. split; [discriminate|intros x []].
      * exists (everything_fixed d). split; [exact S'|now apply everything_fixed_inv].
      * exists (everything_fixed d). split; [exact S'|now apply everything_fixed_inv].
  - destruct (run_spec o t w d S I K) as (res0 & t0 & h' & evs & E & ST & FR & OUT). rewrite E in H. injection H as <- <- <-.
    destruct ST as (T1 & T2 & T3 & _). set (d1 := prepared (tk_class t) (r_class (tk_parameters t)) d) in *.
    assert (I1 : inv (r_class (tk_parameters t)) d1) by now apply prepared_inv.
    destruct (outcome_facts _ _ _ _ _ _ _ _ _ _ _ OUT I1 NF NC) as (O1 & O2 & O3 & O4 & O5 & O6).
    constructor; rewrite ?T3; auto. exists (fits_made t d1). split; [reflexivity|]. unfold fits_made.
    destruct (fit_input t d1) as [x|e] eqn:FI.
    + split; [simpl; lia|]. split; [reflexivity|]. intros y [<-|[]]. unfold fit_input in FI.
      destruct (fit_data t) as [z|e] eqn:FD; [|discriminate]. cbn [bind] in FI. apply charged_fit_points in FD. destruct z as [[ts ys] es].
      destruct (get_bounds _ _ _); [|discriminate]. cbn [bind] in FI. injection FI as <-. unfold asks. cbn [fi_task fi_class fi_store fi_points].
      split; [reflexivity|]. cbn [fst] in FD. clear - K FD. destruct (tk_class t); try congruence; (split; [reflexivity|]; split; [reflexivity|exact FD]).
    + split; [simpl; lia|]. split; [|intros y []]. intros r ER. exfalso.
      assert (N : e <> RuntimeError).
      { unfold fit_input in FI. destruct (fit_data t) as [z|e'] eqn:FD.
        - cbn [bind] in FI. destruct z as [[ts ys] es]. destruct (get_bounds _ _ _) as [|e''] eqn:GB; [discriminate|]. cbn [bind] in FI.
          injection FI as <-. eapply bounds_error; [exact I1|exact GB].
        - cbn [bind] in FI. injection FI as <-. eapply fit_data_err; exact FD. }
      specialize (O6 e). unfold fit_result in O6. rewrite FI in O6. specialize (O6 eq_refl N). congruence.
Qed.

(** ** Reasoning about programs that may raise *)

Definition htriple {S A : Type} (P : S -> Prop) (m : M S A) (Q : A -> S -> Prop) (E : exn -> S -> Prop) : Prop :=
  forall s, P s -> match m s with (Ok a, s') => Q a s' | (Err e, s') => E e s' end.

Lemma htriple_bind : forall S A B P (x : M S A) (f : A -> M S B) R Q E,
  htriple P x R E -> (forall a, htriple (R a) (f a) Q E) -> htriple P (mbind x f) Q E.
Proof.
  intros S A B P x f R Q E H K s HP. unfold mbind. specialize (H s HP). destruct (x s) as [[a|e] s']; [|exact H]. exact (K a s' H).
Qed.

Lemma htriple_ret : forall S A (P : S -> Prop) (a : A) (Q : A -> S -> Prop) E, (forall s, P s -> Q a s) -> htriple P (ret a) Q E.
Proof. intros S A P a Q E H s HP. now apply H. Qed.

Lemma htriple_weaken : forall S A (P P' : S -> Prop) (m : M S A) (Q Q' : A -> S -> Prop) (E E' : exn -> S -> Prop),
  htriple P m Q E -> (forall s, P' s -> P s) -> (forall a s, Q a s -> Q' a s) -> (forall e s, E e s -> E' e s) -> htriple P' m Q' E'.
Proof. intros S A P P' m Q Q' E E' H H1 H2 H3 s HP. specialize (H s (H1 s HP)). destruct (m s) as [[a|e] s']; auto. Qed.

(** ** Statements that change nothing of interest *)

Definition strip (p : Pipeline) : Pipeline := with_parameters (mkRef PKaon O) (with_text "" (with_best no_fit p)).

Lemma strip_text : forall x p, strip (with_text x p) = strip p. Proof. now intros x []. Qed.
Lemma strip_best : forall x p, strip (with_best x p) = strip p. Proof. now intros x []. Qed.
Lemma strip_parameters : forall x p, strip (with_parameters x p) = strip p. Proof. now intros x []. Qed.

Lemma strip_fields : forall p q, strip p = strip q -> pl_kind p = pl_kind q /\ pl_name p = pl_name q /\ pl_tasks p = pl_tasks q /\
  pl_ts p = pl_ts q /\ pl_ys p = pl_ys q /\ pl_errors p = pl_errors q /\ pl_numbers p = pl_numbers q /\ pl_fixed_rounds p = pl_fixed_rounds q.
Proof. intros [] [] H. unfold strip in H. cbn in H. injection H. intros. subst. repeat split. Qed.

Definition calm (s s' : Pipeline * World) : Prop :=
  strip (fst s') = strip (fst s) /\ pl_parameters (fst s') = pl_parameters (fst s) /\ pl_best (fst s') = pl_best (fst s) /\
  w_fits (snd s') = w_fits (snd s) /\ exists x, w_lists (snd s') = w_lists (snd s) ++ x.

Lemma calm_refl : forall s, calm s s.
Proof. intros s. repeat split. exists []. now rewrite app_nil_r. Qed.

Lemma calm_trans : forall a b c, calm a b -> calm b c -> calm a c.
Proof.
  intros a b c (A1 & A2 & A3 & A4 & x & A5) (B1 & B2 & B3 & B4 & y & B5). repeat split; try congruence.
  exists (x ++ y). now rewrite B5, A5, app_assoc.
Qed.

Lemma log_calm : forall m s, exists s', log m s = (Ok tt, s') /\ calm s s' /\ w_lists (snd s') = w_lists (snd s).
Proof.
  intros m [p w]. eexists. split; [reflexivity|]. cbn [fst snd emit w_lists w_fits]. split; [|reflexivity]. split; [|split; [|split; [|split]]].
  - apply strip_text.
  - now destruct p.
  - now destruct p.
  - reflexivity.
  - exists []. cbn. now rewrite app_nil_r.
Qed.

Lemma flush_calm : forall s, exists s', flush_report s = (Ok tt, s') /\ calm s s'.
Proof.
  intros [p w]. eexists. split; [unfold flush_report, this, onW, emit, change, mbind; cbn [fst snd]; reflexivity|].
  split; [|split; [|split; [|split]]].
  - apply strip_text.
  - now destruct p.
  - now destruct p.
  - reflexivity.
  - exists []. cbn. now rewrite app_nil_r.
Qed.

Lemma show_calm : forall o s d, nth_error (w_lists (snd s)) (r_data (pl_parameters (fst s))) = Some d ->
  exists text s', show_parameters o s = (Ok text, s') /\ calm s s'.
Proof.
  intros o [p w] d H. cbn [fst snd] in *. unfold show_parameters. erewrite mbind_ok by reflexivity. cbn [fst].
  assert (E : onW (obj_to_list (pl_parameters p)) (p, w) = (Ok (length (w_lists w)), (p, set_lists (w_lists w ++ [d]) w)))
    by (unfold onW; cbn [snd]; now rewrite (obj_to_list_eq _ _ _ H)).
  rewrite (mbind_ok _ _ _ _ _ _ _ _ E).
  assert (F : onW (read (length (w_lists w))) (p, set_lists (w_lists w ++ [d]) w) = (Ok d, (p, set_lists (w_lists w ++ [d]) w))).
  { unfold onW. cbn [snd fst]. rewrite (read_ok _ d (set_lists (w_lists w ++ [d]) w) (nth_alloc (w_lists w) d)). reflexivity. }
  rewrite (mbind_ok _ _ _ _ _ _ _ _ F). eexists _, _. split; [reflexivity|]. repeat split. cbn. now eexists.
Qed.

(** Addresses a report refers to. *)
Definition readable (r : Report) (h : list data) : Prop :=
  (rp_initial r < length h)%nat /\ forall a, rp_final r = Some a -> (a < length h)%nat.

Lemma readable_more : forall r h h', readable r h -> (length h <= length h')%nat -> readable r h'.
Proof. intros r h h' [A B] L. split; [lia|]. intros a E. specialize (B a E). lia. Qed.

Lemma read_lt : forall a w, (a < length (w_lists w))%nat -> exists d, read a w = (Ok d, w).
Proof.
  intros a w L. destruct (nth_error (w_lists w) a) as [d|] eqn:E; [|apply nth_error_None in E; lia]. exists d. now apply read_ok.
Qed.

Lemma read_option_lt : forall a w, (forall b, a = Some b -> (b < length (w_lists w))%nat) -> exists d, read_option a w = (Ok d, w).
Proof.
  intros [a|] w H; [|now exists None]. destruct (read_lt a w (H a eq_refl)) as (d & E). exists (Some d).
  unfold read_option. now rewrite (mbind_ok _ _ _ _ _ _ _ _ E).
Qed.

Lemma report_text_ok : forall o r w, readable r (w_lists w) -> exists text, report_text o r w = (Ok text, w).
Proof.
  intros o r w [A B]. destruct (read_lt _ _ A) as (d & E). destruct (read_option_lt _ _ B) as (f & F). unfold report_text.
  rewrite (mbind_ok _ _ _ _ _ _ _ _ E), (mbind_ok _ _ _ _ _ _ _ _ F). now eexists.
Qed.

Lemma save_calm : forall o n r s, readable r (w_lists (snd s)) -> exists s', save_report o n r s = (Ok tt, s') /\ calm s s'.
Proof.
  intros o n r [p w] R. cbn [snd] in R. destruct (report_text_ok o r w R) as (text & E). unfold save_report.
  erewrite mbind_ok by reflexivity. cbn [fst].
  assert (E' : onW (report_text o r) (p, w) = (Ok text, (p, w))) by (unfold onW; cbn [snd fst]; now rewrite E).
  cbv zeta. rewrite (mbind_ok _ _ _ _ _ _ _ _ E'). eexists. split; [reflexivity|]. repeat split. exists []. cbn. now rewrite app_nil_r.
Qed.

Lemma log_best_calm : forall o s, (forall a, bf_parameters (pl_best (fst s)) = Some a -> (a < length (w_lists (snd s)))%nat) ->
  exists s', log_best o s = (Ok tt, s') /\ calm s s'.
Proof.
  intros o [p w] H. cbn [fst snd] in H. unfold log_best. erewrite mbind_ok by reflexivity. cbn [fst].
  destruct (read_option_lt _ _ H) as (d & E).
  assert (E' : onW (best_text o (pl_best p)) (p, w) = (Ok (o_show_best o (pl_best p) d), (p, w))).
  { unfold onW, best_text. cbn [snd fst]. now rewrite (mbind_ok _ _ _ _ _ _ _ _ E). }
  rewrite (mbind_ok _ _ _ _ _ _ _ _ E'). destruct (log_calm ("Best fit: " ++ o_show_best o (pl_best p) d) (p, w)) as (s' & L & C & _). eauto.
Qed.

(** ** Creation *)

(** The constructors the pipeline can call. *)
Definition fits_kind (k : pipeline_kind) (c : task_class) : bool :=
  match passes_masses k, kind_of c with true, FormFactorKind => false | _, _ => true end.

Record fresh_task (n : string) (c : task_class) (p : Pipeline) (h : list data) (t : Task) : Prop := mkFresh {
  fr_class : tk_class t = c; fr_name : tk_name t = n; fr_parameters : tk_parameters t = pl_parameters p;
  fr_ts : tk_ts_fit t = pl_ts p; fr_ys : tk_ys_fit t = pl_ys p; fr_errors : tk_errors_fit t = pl_errors p;
  fr_initial : rp_initial (tk_report t) = length h; fr_final : rp_final (tk_report t) = None;
  fr_chi : rp_chi_squared (tk_report t) = None; fr_starts : starts_as p t }.

Lemma create_eq : forall n c p w d, nth_error (w_lists w) (r_data (pl_parameters p)) = Some d ->
  if fits_kind (pl_kind p) c
  then exists t, create_task n c (p, w) = (Ok t, (p, set_lists (w_lists w ++ [d]) w)) /\ fresh_task n c p (w_lists w) t
  else create_task n c (p, w) = (Err TypeError, (p, w)).
Proof.
  intros n c p w d H. unfold create_task, fits_kind. erewrite mbind_ok by reflexivity. cbn [fst].
  assert (X : forall m a hc nu dir pl hp,
    (passes_masses (pl_kind p) = true \/ kind_of c = FormFactorKind -> dir = Some (pl_reports_dir p) /\ pl = pl_plot p /\ hp = pl_handpicked p) ->
    (passes_masses (pl_kind p) = true -> m = pl_mass p /\ a = pl_alpha p /\ hc = pl_hc_squared p) ->
    nu = orb (passes_masses (pl_kind p)) (match kind_of c with FormFactorKind => true | CrossSectionKind => false end) ->
    exists t, onW (Task_init c n (pl_parameters p) (pl_ts p) (pl_ys p) (pl_errors p) m a hc nu dir pl hp) (p, w) =
    (Ok t, (p, set_lists (w_lists w ++ [d]) w)) /\ fresh_task n c p (w_lists w) t).
  { intros m a hc nu dir pl hp X1 X2 X3. unfold onW, Task_init. cbn [snd fst]. rewrite (mbind_ok _ _ _ _ _ _ _ _ (obj_to_list_eq _ _ _ H)).
    eexists. split; [reflexivity|]. constructor; try reflexivity. constructor; auto; repeat split. }
  destruct (passes_masses (pl_kind p)), (kind_of c); try reflexivity.
  - apply X; now repeat split.
  - apply X; [|discriminate|reflexivity]. intros [H1|H1]; congruence.
  - apply X; [now repeat split|discriminate|reflexivity].
Qed.

(** ** The best fit *)

Lemma ltb_before : forall s t, String.ltb s t = true <-> before s t.
Proof.
  unfold String.ltb. induction s as [|a s IH]; intros [|b t]; cbn [String.compare].
  - split; [discriminate|]. intros H. inversion H.
  - split; [constructor|reflexivity].
  - split; [discriminate|]. intros H. inversion H.
  - assert (X : Ascii.compare a b = Nat.compare (nat_of_ascii a) (nat_of_ascii b)).
    { unfold Ascii.compare, nat_of_ascii. now rewrite N2Nat.inj_compare. }
    destruct (Ascii.compare a b) eqn:C; symmetry in X.
    + apply Ascii.compare_eq_iff in C. subst b. rewrite IH. split; [now constructor|]. intros H. inversion H; [lia|assumption].
    + apply nat_compare_lt in X. split; [|reflexivity]. intros _. now constructor.
    + apply nat_compare_gt in X. split; [discriminate|]. intros H. inversion H; subst; lia.
Qed.

Lemma before_trans : forall a b c, before a b -> before b c -> before a c.
Proof.
  intros a b c H. revert c. induction H; intros c K; inversion K; subst; try (now constructor).
  - constructor. lia.
  - apply BeforeTail. now apply IHbefore.
Qed.

Lemma before_irrefl : forall a, ~ before a a.
Proof. induction a as [|x a IH]; intros H; inversion H; [lia|]. now apply IH. Qed.

Lemma not_before : forall s t, String.ltb s t = false -> t = s \/ before t s.
Proof.
  intros s t H. unfold String.ltb in H. pose proof (String.compare_antisym s t) as A.
  destruct (String.compare t s) eqn:C.
  - left. now apply String.compare_eq_iff.
  - right. apply ltb_before. unfold String.ltb. now rewrite C.
  - rewrite A in H. discriminate.
Qed.

Lemma chi_truthy : forall x, chi_text x = truthy (rp_chi_squared (tk_report (en_task x))).
Proof. intros x. unfold chi_text, truthy. destruct (rp_chi_squared _) as [[|[] ?]|]; reflexivity. Qed.

Lemma chi_nonempty : forall x s, chi_text x = Some s -> truthy (Some s) = Some s.
Proof. intros x s H. unfold chi_text in H. destruct (rp_chi_squared _) as [[|a r]|]; try discriminate. now injection H as <-. Qed.

Lemma nth_snoc : forall A (l : list A) x i y, nth_error (l ++ [x]) i = Some y -> (nth_error l i = Some y) \/ (i = length l /\ y = x).
Proof.
  intros A l x i y H. destruct (Nat.lt_ge_cases i (length l)) as [L|L].
  - rewrite nth_error_app1 in H by exact L. now left.
  - rewrite nth_error_app2 in H by exact L. right. destruct (i - length l)%nat as [|k] eqn:E; [|destruct k; discriminate].
    injection H as <-. split; [lia|reflexivity].
Qed.

Lemma nth_snoc_old : forall A (l : list A) x i y, nth_error l i = Some y -> nth_error (l ++ [x]) i = Some y.
Proof. intros A l x i y H. rewrite nth_error_app1; [exact H|]. now apply nth_lt in H. Qed.

Lemma best_ignored : forall name h xs b x, best_of name h xs b -> chi_text x = None -> best_of name h (xs ++ [x]) b.
Proof.
  intros name h xs b x [(i & y & s & (E1 & E2 & E3) & D)|[F ->]] N.
  - left. exists i, y, s. split; [|exact D]. split; [now apply nth_snoc_old|]. split; [exact E2|].
    intros j z s' Z C. apply nth_snoc in Z as [Z|[-> ->]]; [now apply (E3 j z)|congruence].
  - right. split; [|reflexivity]. apply Forall_app. split; [exact F|]. now constructor.
Qed.

Lemma best_replaced : forall name h h' xs b b' x s, best_of name h xs b -> chi_text x = Some s ->
  match truthy (bf_chi_squared b) with None => true | Some t => String.ltb s t end = true ->
  describes name h' x s b' -> best_of name h' (xs ++ [x]) b'.
Proof.
  intros name h h' xs b b' x s B C LT D. left. exists (length xs), x, s. split; [|exact D].
  assert (N : forall j z s', nth_error xs j = Some z -> chi_text z = Some s' -> before s s').
  { intros j z s' Z CZ. destruct B as [(i & y & t & (E1 & E2 & E3) & (D1 & _))|[F ->]].
    - rewrite D1 in LT. rewrite (chi_nonempty _ _ E2) in LT. apply ltb_before in LT.
      destruct (E3 j z s' Z CZ) as [[<-|T] _]; [exact LT|]. eapply before_trans; eassumption.
    - rewrite Forall_forall in F. rewrite (F z) in CZ; [discriminate|]. eapply nth_error_In; exact Z. }
  split; [rewrite nth_error_app2, Nat.sub_diag by lia; reflexivity|]. split; [exact C|].
  intros j z s' Z CZ. apply nth_snoc in Z as [Z|[-> ->]].
  - split; [right|intros _]; eapply N; eassumption.
  - rewrite C in CZ. injection CZ as <-. split; [now left|lia].
Qed.

Lemma best_kept : forall name h xs b x s t, best_of name h xs b -> chi_text x = Some s -> truthy (bf_chi_squared b) = Some t ->
  String.ltb s t = false -> best_of name h (xs ++ [x]) b.
Proof.
  intros name h xs b x s t [(i & y & u & (E1 & E2 & E3) & D)|[F ->]] C T LT; [|discriminate].
  left. exists i, y, u. split; [|exact D]. destruct D as (D1 & _). rewrite D1, (chi_nonempty _ _ E2) in T. injection T as <-.
  split; [now apply nth_snoc_old|]. split; [exact E2|]. intros j z s' Z CZ. apply nth_snoc in Z as [Z|[-> ->]]; [now apply (E3 j z)|].
  rewrite C in CZ. injection CZ as <-. split; [now apply not_before|]. intros L. apply nth_lt in E1. lia.
Qed.

Lemma best_heap : forall name h h' xs b, best_of name h xs b ->
  (forall a d, bf_parameters b = Some a -> nth_error h a = Some d -> nth_error h' a = Some d) -> best_of name h' xs b.
Proof.
  intros name h h' xs b [(i & x & s & E & D1 & D2 & (a & d & A1 & A2 & A3) & D3)|R] H; [left|now right].
  exists i, x, s. split; [exact E|]. split; [exact D1|]. split; [exact D2|]. split; [|exact D3]. exists a, d. eauto.
Qed.

(** ** The invariant *)

Lemma same_values_trans : forall a b c, same_values a b -> same_values b c -> same_values a c.
Proof. intros a b c [A1 A2] [B1 B2]. split; congruence. Qed.

Lemma same_values_flagged : forall f d, same_values d (flagged f d).
Proof. intros f d. split; unfold flagged; rewrite map_map; apply map_ext; now intros []. Qed.

Lemma starts_strip : forall p q t, strip p = strip q -> starts_as p t -> starts_as q t.
Proof. intros [] [] t H [A B C D E F]. unfold strip in H. cbn in *. injection H. intros. subst. now constructor. Qed.

Section Run.
Variables (o : Oracle) (p0 : Pipeline) (w0 : World).
Variable cls : param_class -> Prop.
Variable stage_ok : nat -> FitInput -> Prop.
Variable role : nat -> task_class -> Prop.
Variable d0 : data.
Let c0 := r_class (pl_parameters p0).
Variable extra : exn -> Prop.

(** The tasks that have ended, and the fits made until then. *)
Definition traced (l : list FitInput) (xs : list Ended) : Prop :=
  forall i x, nth_error xs i = Some x -> exists t w r fi,
    Task_run o (t, w) = (Ok r, (en_task x, en_world x)) /\ tk_name t = tk_name (en_task x) /\
    nth_error l i = Some fi /\ fi_task fi = tk_name (en_task x) /\
    w_fits w = w_fits w0 ++ firstn i l /\ w_fits (en_world x) = w_fits w0 ++ firstn (S i) l /\ settled (tk_report (en_task x)) /\
    role i (tk_class t) /\ starts_as p0 t /\
    exists d, nth_error (w_lists w) (r_data (tk_parameters t)) = Some d /\ inv (r_class (tk_parameters t)) d /\ handed c0 d0 xs i (r_class (tk_parameters t)) d.

(** The lists that existed at the start, other than the one of the pipeline's store, are as they were. *)
Definition own (a : addr) : Prop := a = r_data (pl_parameters p0) \/ (length (w_lists w0) <= a)%nat.
Definition framed (h : list data) : Prop := frame (fun a => a = r_data (pl_parameters p0)) (w_lists w0) h.

Lemma framed_more : forall h x, framed h -> framed (h ++ x).
Proof.
  intros h x [L F]. split; [rewrite app_length; lia|]. intros b B N. rewrite nth_error_app1 by lia. now apply F.
Qed.

Lemma framed_own : forall h h' a, framed h -> own a -> frame (fun b => b = a) h h' -> framed h'.
Proof.
  intros h h' a [L F] O [L' F']. split; [lia|]. intros b B N. rewrite F'; [now apply F|lia|]. intros ->. destruct O; [contradiction|lia].
Qed.

Lemma replace_frame : forall h a d, frame (fun b => b = a) h (replace h a d).
Proof. intros h a d. split; [rewrite replace_length; lia|]. intros b _ N. apply nth_replace_other. congruence. Qed.

(** [b]: the pipeline has taken over the store of the last task. *)
Record J_gen (b : bool) (l : list FitInput) (xs : list Ended) (s : Pipeline * World) : Prop := mkJ {
  j_strip : strip (fst s) = strip p0;
  j_class : cls (r_class (pl_parameters (fst s)));
  j_store : exists d, nth_error (w_lists (snd s)) (r_data (pl_parameters (fst s))) = Some d /\ inv (r_class (pl_parameters (fst s))) d;
  j_fits : w_fits (snd s) = w_fits w0 ++ l;
  j_stage : forall i x, nth_error l i = Some x -> stage_ok i x;
  j_trace : traced l xs;
  j_best : best_of (pl_name p0) (w_lists (snd s)) xs (pl_best (fst s));
  j_snap : forall a, bf_parameters (pl_best (fst s)) = Some a -> (a < length (w_lists (snd s)))%nat /\ a <> r_data (pl_parameters (fst s));
  j_fed : b = true -> forall d, nth_error (w_lists (snd s)) (r_data (pl_parameters (fst s))) = Some d -> handed c0 d0 xs (length xs) (r_class (pl_parameters (fst s))) d;
  j_frame : framed (w_lists (snd s)) /\ own (r_data (pl_parameters (fst s))) }.
Definition J := J_gen true.

(** A task has just raised [e]; nothing happened after that. *)
Definition raised (e : exn) (s : Pipeline * World) : Prop := exists t w t' l xs d,
  Task_run o (t, w) = (Err e, (t', snd s)) /\ w_fits w = w_fits w0 ++ l /\ length xs = length l /\ traced l xs /\
  role (length l) (tk_class t) /\ starts_as p0 t /\
  nth_error (w_lists w) (r_data (tk_parameters t)) = Some d /\ inv (r_class (tk_parameters t)) d /\
  handed c0 d0 xs (length l) (r_class (tk_parameters t)) d.

Definition Bad (e : exn) (s : Pipeline * World) : Prop :=
  (exists l, w_fits (snd s) = w_fits w0 ++ l /\ forall i x, nth_error l i = Some x -> stage_ok i x) /\
  (raised e s \/ (extra e /\ exists l xs, w_fits (snd s) = w_fits w0 ++ l /\ length xs = length l /\ traced l xs)).

Lemma J_bad : forall b l xs s e, J_gen b l xs s -> length xs = length l -> extra e -> Bad e s.
Proof.
  intros b l xs s e H L R. split; [exists l; split; [apply H|apply H]|]. right. split; [exact R|]. exists l, xs. split; [apply H|]. split; [exact L|apply H].
Qed.

Lemma traced_more : forall l x xs, traced l xs -> traced (l ++ [x]) xs.
Proof.
  intros l x xs T i y Y. destruct (T i y Y) as (t & w & r & fi & A & B & C & D & E & F). exists t, w, r, fi.
  split; [exact A|]. split; [exact B|]. split; [now apply nth_snoc_old|]. split; [exact D|]. apply nth_lt in C. revert E F.
  rewrite !firstn_app. replace (i - length l)%nat with O by lia. replace (S i - length l)%nat with O by lia.
  cbn [firstn]. rewrite !app_nil_r. intros E F. now split.
Qed.

Lemma J_calm : forall b l xs s s', J_gen b l xs s -> calm s s' -> J_gen b l xs s'.
Proof.
  intros b l xs s s' [A B (d & D1 & D2) E F G H I K [L O]] (C1 & C2 & C3 & C4 & x & C5). constructor; rewrite ?C2, ?C3, ?C4, ?C5; auto.
  - congruence.
  - exists d. split; [now rewrite nth_error_app1 by (now apply nth_lt in D1)|exact D2].
  - eapply best_heap; [exact H|]. intros a d' _ N. now rewrite nth_error_app1 by (now apply nth_lt in N).
  - intros a N. destruct (I a N). rewrite app_length. split; [lia|assumption].
  - intros T d' N. rewrite nth_error_app1 in N by (now apply nth_lt in D1). now apply K.
  - split; [now apply framed_more|exact O].
Qed.

Lemma handed_same : forall xs i c d d', handed c0 d0 xs i c d -> same_values d d' -> handed c0 d0 xs i c d'.
Proof.
  intros xs [|i] c d d' H E; [destruct H as [H0 H]; split; [exact H0|exact (same_values_trans _ _ _ H E)]|].
  destruct H as (x & dx & A & B & C & D). exists x, dx.
  split; [exact A|]. split; [exact B|]. split; [exact C|exact (same_values_trans _ _ _ D E)].
Qed.

Lemma handed_more : forall xs ys i c d, (i <= length xs)%nat -> handed c0 d0 xs i c d -> handed c0 d0 (xs ++ ys) i c d.
Proof.
  intros xs ys [|i] c d L H; [exact H|]. destruct H as (x & dx & A & B). exists x, dx. split; [|exact B]. now rewrite nth_error_app1.
Qed.

Lemma J_store : forall b l xs p w d, J_gen b l xs (p, w) -> inv (r_class (pl_parameters p)) d ->
  (forall d', nth_error (w_lists w) (r_data (pl_parameters p)) = Some d' -> same_values d' d) ->
  forall n, J_gen b l xs (p, mkWorld (replace (w_lists w) (r_data (pl_parameters p)) d) (w_draws w) n (w_fits w) (w_events w)).
Proof.
  intros b l xs p w d [A B (d1 & D1 & D2) E F G H I K [L O]] N SV n. cbn [fst snd] in *. constructor; cbn [fst snd w_lists w_fits]; auto.
  - exists d. split; [exact (nth_replace_same _ _ _ _ D1)|exact N].
  - eapply best_heap; [exact H|]. intros a d' P Q. rewrite nth_replace_other; [exact Q|]. destruct (I a P). congruence.
  - rewrite replace_length. exact I.
  - intros T d' N'. rewrite (nth_replace_same _ _ _ _ D1) in N'. injection N' as <-. eapply handed_same; [exact (K T d1 D1)|exact (SV d1 D1)].
  - split; [|exact O]. exact (framed_own _ _ _ L O (replace_frame _ _ _)).
Qed.

(** ** A task in a pipeline *)

Definition with_store_of (d : data) (s : Pipeline * World) : Prop :=
  nth_error (w_lists (snd s)) (r_data (pl_parameters (fst s))) = Some d /\ inv (r_class (pl_parameters (fst s))) d.

(** The state after a task has run, before the pipeline takes note of it. *)
Record after_task (l : list FitInput) (xs : list Ended) (t : Task) (s : Pipeline * World) : Prop := mkAfter {
  at_j : exists fi, J_gen false (l ++ [fi]) xs s /\ fi_task fi = tk_name t;
  at_ran : exists t0 w1 w2 r, Task_run o (t0, w1) = (Ok r, (t, w2)) /\ tk_name t0 = tk_name t /\ w_fits w1 = w_fits w0 ++ l /\
    w_fits w2 = w_fits (snd s) /\ w_lists w2 = w_lists (snd s) /\ settled (tk_report t) /\
    role (length l) (tk_class t0) /\ starts_as p0 t0 /\
    exists d, nth_error (w_lists w1) (r_data (tk_parameters t0)) = Some d /\ inv (r_class (tk_parameters t0)) d /\ handed c0 d0 xs (length xs) (r_class (tk_parameters t0)) d;
  at_new : exists d, nth_error (w_lists (snd s)) (r_data (tk_parameters t)) = Some d /\ inv (r_class (tk_parameters t)) d;
  at_class : cls (r_class (tk_parameters t));
  at_snap : forall a, bf_parameters (pl_best (fst s)) = Some a -> a <> r_data (tk_parameters t);
  at_report : readable (tk_report t) (w_lists (snd s));
  at_own : own (r_data (tk_parameters t)) }.

Lemma create_and_run_J : forall n c l xs d, length xs = length l -> role (length l) c ->
  (forall cl x, cls cl -> asks c n cl (pl_ts p0) (pl_ys p0) (pl_errors p0) d x -> stage_ok (length l) x) ->
  (fits_kind (pl_kind p0) c = false -> extra TypeError) -> (c = ResidualTask -> cls POscillations) ->
  htriple (fun s => J l xs s /\ with_store_of d s) (create_and_run o n c) (after_task l xs) Bad.
Proof.
  intros n c l xs d LX RO ST EX RC [p w] [HJ [SD ID]]. cbn [fst snd] in *. unfold create_and_run.
  destruct (strip_fields _ _ (j_strip _ _ _ _ HJ)) as (K1 & K2 & K3 & K4 & K5 & K6 & _). cbn [fst] in *.
  pose proof (create_eq n c p w d SD) as CR. rewrite K1 in CR. destruct (fits_kind (pl_kind p0) c).
  2: { rewrite (mbind_err _ _ _ _ _ _ _ _ CR). eapply J_bad; [exact HJ|exact LX|]. now apply EX. }
  destruct CR as (t & CR & FT). rewrite (mbind_ok _ _ _ _ _ _ _ _ CR).
  set (w1 := set_lists (w_lists w ++ [d]) w) in *.
  assert (J1 : J l xs (p, w1)).
  { eapply J_calm; [exact HJ|]. repeat split. now exists [d]. }
  destruct (log_calm ("Running " ++ n) (p, w1)) as ([p2 w2] & L2 & C2 & H2). rewrite (mbind_ok _ _ _ _ _ _ _ _ L2).
  assert (J2 : J l xs (p2, w2)) by (eapply J_calm; eassumption). cbn [fst snd] in *.
  destruct C2 as (_ & P2 & B2 & _). cbn [fst snd] in *.
  assert (SD2 : nth_error (w_lists w2) (r_data (tk_parameters t)) = Some d).
  { rewrite H2, (fr_parameters _ _ _ _ _ FT). unfold w1. cbn. rewrite nth_error_app1; [exact SD|now apply nth_lt in SD]. }
  assert (ID2 : inv (r_class (tk_parameters t)) d) by (rewrite (fr_parameters _ _ _ _ _ FT); exact ID).
  assert (RO' : role (length l) (tk_class t)) by (rewrite (fr_class _ _ _ _ _ FT); exact RO).
  assert (SA : starts_as p0 t) by (eapply starts_strip; [exact (j_strip _ _ _ _ HJ)|exact (fr_starts _ _ _ _ _ FT)]).
  assert (HA : handed c0 d0 xs (length xs) (r_class (tk_parameters t)) d).
  { rewrite (fr_parameters _ _ _ _ _ FT). exact (j_fed _ _ _ _ HJ eq_refl d SD). }
  destruct (Task_run o (t, w2)) as [res [t' w3]] eqn:TR.
  destruct (run_any o t w2 d res t' w3 SD2 ID2 (fr_final _ _ _ _ _ FT) (fr_chi _ _ _ _ _ FT) TR)
    as [R1 R2 R3 R4 R5 R6 (fs & R7 & R8 & R9 & R10) R11 R12 R13 R14].
  assert (LW : (length (w_lists w) < length (w_lists w2))%nat) by (rewrite H2; unfold w1; cbn; rewrite app_length; simpl; lia).
  assert (JF : forall x, In x fs -> stage_ok (length l) x).
  { intros x X. specialize (R10 x X). destruct FT as [F1 F2 F3 F4 F5 F6 _ _ _ _]. rewrite F1, F2, F3, F4, F5, F6, K4, K5, K6 in R10.
    eapply ST; [|exact R10]. exact (j_class _ _ _ _ HJ). }
  assert (JS : forall i x, nth_error (l ++ fs) i = Some x -> stage_ok i x).
  { intros i x X. destruct (Nat.lt_ge_cases i (length l)) as [L|L].
    - rewrite nth_error_app1 in X by exact L. now apply (j_stage _ _ _ _ HJ).
    - rewrite nth_error_app2 in X by exact L. pose proof (nth_lt _ _ _ _ X). replace i with (length l) by lia. apply JF. eapply nth_error_In; exact X. }
  assert (FW : w_fits w3 = w_fits w0 ++ (l ++ fs)).
  { rewrite R7. pose proof (j_fits _ _ _ _ J2) as X. cbn [snd] in X. now rewrite X, <- app_assoc. }
  destruct res as [r|e].
  2: { assert (E : run_task o t (p2, w2) = (Err e, (p2, w3))) by (unfold run_task; cbn [snd fst]; now rewrite TR).
       rewrite (mbind_err _ _ _ _ _ _ _ _ E). split; [exists (l ++ fs); split; [exact FW|exact JS]|]. left.
       exists t, w2, t', l, xs, d. split; [exact TR|]. split; [exact (j_fits _ _ _ _ J2)|]. split; [exact LX|]. split; [exact (j_trace _ _ _ _ J2)|].
       split; [exact RO'|]. split; [exact SA|]. split; [exact SD2|]. split; [exact ID2|]. rewrite <- LX. exact HA. }
  assert (E : run_task o t (p2, w2) = (Ok t', (p2, w3))) by (unfold run_task; cbn [snd fst]; now rewrite TR).
  rewrite (mbind_ok _ _ _ _ _ _ _ _ E).
  assert (RD : readable (tk_report t') (w_lists w3)).
  { split; [|exact R4]. rewrite R3, (fr_initial _ _ _ _ _ FT). destruct R6 as [LF _]. lia. }
  destruct (report_text_ok o _ _ RD) as (text & TX).
  assert (TX' : onW (report_text o (tk_report t')) (p2, w3) = (Ok text, (p2, w3))) by (unfold onW; cbn [snd fst]; now rewrite TX).
  rewrite (mbind_ok _ _ _ _ _ _ _ _ TX').
  destruct (log_calm (n ++ " report: " ++ text)%string (p2, w3)) as ([p4 w4] & L4 & C4 & H4). cbn [fst snd] in *.
  rewrite (mbind_ok _ _ _ _ _ _ _ _ L4). cbn [ret].
  destruct fs as [|fi [|? ?]]; [specialize (R9 r eq_refl); discriminate| |simpl in R8; lia].
  assert (J3 : J_gen false (l ++ [fi]) xs (p2, w3)).
  { destruct J2 as [A B _ C D F G I _ [FR OW]]. cbn [fst snd] in *. constructor; cbn [fst snd]; auto.
    - rewrite P2, <- (fr_parameters _ _ _ _ _ FT). exact R11.
    - now apply traced_more.
    - eapply best_heap; [exact G|]. intros a d' PA NA. eapply frame_keeps; [exact R6| |exact NA].
      rewrite (fr_parameters _ _ _ _ _ FT), <- P2. destruct (I a PA). assumption.
    - intros a PA. destruct (I a PA) as [I1 I2]. destruct R6 as [LF _]. split; [lia|assumption].
    - discriminate.
    - split; [|exact OW]. eapply framed_own; [exact FR|exact OW|]. rewrite P2, <- (fr_parameters _ _ _ _ _ FT). exact R6. }
  assert (J4 : J_gen false (l ++ [fi]) xs (p4, w4)) by (eapply J_calm; eassumption).
  destruct C4 as (_ & P4 & B4 & F4 & _). cbn [fst snd] in *. constructor; cbn [fst snd].
  - exists fi. split; [exact J4|]. destruct (R10 fi (or_introl eq_refl)) as [X _]. congruence.
  - exists t, w2, w3, r. split; [exact TR|]. split; [congruence|]. split; [exact (j_fits _ _ _ _ J2)|]. split; [congruence|]. split; [congruence|].
    split; [exact (R5 r eq_refl)|]. split; [exact RO'|]. split; [exact SA|]. exists d. split; [exact SD2|]. split; [exact ID2|exact HA].
  - rewrite H4. exact R12.
  - destruct R13 as [R13|(Q1 & -> & _)].
    + rewrite R13, (fr_parameters _ _ _ _ _ FT). exact (j_class _ _ _ _ HJ).
    + apply RC. rewrite <- Q1. symmetry. apply FT.
  - intros a PA. rewrite B4, B2 in PA. destruct (j_snap _ _ _ _ J1 a) as [S1 S2]; [exact PA|]. cbn [fst snd] in *.
    destruct R13 as [R13|(_ & _ & Q)]; [rewrite R13, (fr_parameters _ _ _ _ _ FT); exact S2|].
    rewrite H2 in Q. lia.
  - rewrite H4. exact RD.
  - destruct (j_frame _ _ _ _ J2) as [[LF _] OW]. cbn [fst snd] in *. destruct R13 as [R13|(_ & _ & Q)].
    + rewrite R13, (fr_parameters _ _ _ _ _ FT), <- P2. exact OW.
    + right. lia.
Qed.

(** The pipeline takes note of the result. *)
Definition noted_gen (b : bool) (l : list FitInput) (xs : list Ended) (t : Task) (s : Pipeline * World) : Prop :=
  exists fi x, en_task x = t /\ J_gen b (l ++ [fi]) (xs ++ [x]) s /\ readable (tk_report t) (w_lists (snd s)) /\
    (b = false -> nth_error (w_lists (snd s)) (r_data (tk_parameters t)) = left_behind x).
Definition noted := noted_gen true.

Lemma update_J : forall l xs t, length xs = length l -> htriple (after_task l xs t) (update_best_fit t)
  (fun _ s => noted_gen false l xs t s /\ cls (r_class (tk_parameters t)) /\
     (exists d, nth_error (w_lists (snd s)) (r_data (tk_parameters t)) = Some d /\ inv (r_class (tk_parameters t)) d) /\
     (forall a, bf_parameters (pl_best (fst s)) = Some a -> a <> r_data (tk_parameters t)) /\ own (r_data (tk_parameters t))) Bad.
Proof.
  intros l xs t LX [p w] [(fi & HJ & FN) (t0 & w1 & w2 & r & TR & TN & F1 & F2 & H2 & SE & RO & SA & dt & T1 & T2 & T3) (d & SD & ID) CL SN RD OT]. cbn [fst snd] in *.
  set (x := mkEnded t w2).
  assert (T' : traced (l ++ [fi]) (xs ++ [x])).
  { intros i y Y. pose proof Y as Y'. apply nth_snoc in Y as [Y|[-> ->]].
    { destruct (j_trace _ _ _ _ HJ i y Y) as (t1 & w3 & r1 & f1 & Z1 & Z2 & Z3 & Z4 & Z5 & Z6 & Z7 & Z8 & Z9 & d1 & Z10 & Z11 & Z12).
      exists t1, w3, r1, f1. repeat (split; [assumption|]). exists d1. repeat (split; [assumption|]). apply handed_more; [apply nth_lt in Y; lia|exact Z12]. }
    rewrite LX.
    exists t0, w1, r, fi. split; [exact TR|]. split; [exact TN|]. split; [rewrite nth_error_app2, Nat.sub_diag by lia; reflexivity|].
    split; [exact FN|]. split; [|split; [|split; [exact SE|split; [exact RO|split; [exact SA|]]]]].
    - rewrite firstn_app, Nat.sub_diag, firstn_all. cbn [firstn]. now rewrite app_nil_r.
    - cbn [en_world x]. rewrite F2. pose proof (j_fits _ _ _ _ HJ) as JX. cbn [snd] in JX. rewrite JX. rewrite firstn_all2; [reflexivity|]. rewrite app_length. simpl. lia.
    - exists dt. split; [exact T1|]. split; [exact T2|]. rewrite <- LX. apply handed_more; [lia|exact T3]. }
  assert (GO : forall b h', (exists z, h' = w_lists w ++ z) -> best_of (pl_name p0) h' (xs ++ [x]) b ->
     (forall a, bf_parameters b = Some a -> (a < length h')%nat /\ a <> r_data (pl_parameters p) /\ a <> r_data (tk_parameters t)) ->
     forall p' w', strip p' = strip p -> pl_parameters p' = pl_parameters p -> pl_best p' = b -> w_lists w' = h' -> w_fits w' = w_fits w ->
     noted_gen false l xs t (p', w') /\ cls (r_class (tk_parameters t)) /\
     (exists d, nth_error (w_lists w') (r_data (tk_parameters t)) = Some d /\ inv (r_class (tk_parameters t)) d) /\
     (forall a, bf_parameters (pl_best p') = Some a -> a <> r_data (tk_parameters t)) /\ own (r_data (tk_parameters t))).
  { intros b h' (z & Hz) BO SP p' w' Q1 Q2 Q3 Q4 Q5. destruct HJ as [A B (d1 & D1 & D2) E F G H I _ [FR OW]]. cbn [fst snd] in *.
    split; [|split; [exact CL|split; [|split; [|exact OT]]]].
    - exists fi, x. split; [reflexivity|]. split; [|split; [cbn [snd]; eapply readable_more; [exact RD|]; rewrite Q4, Hz, app_length; lia|]].
      2: { intros _. cbn [snd]. unfold left_behind. cbn [en_world en_task x]. rewrite H2, Q4, Hz, SD. rewrite nth_error_app1; [exact SD|now apply nth_lt in SD]. }
      constructor; cbn [fst snd]; rewrite ?Q2, ?Q3, ?Q4, ?Q5; auto.
      + congruence.
      + exists d1. split; [|exact D2]. rewrite Hz, nth_error_app1; [exact D1|now apply nth_lt in D1].
      + intros a PA. destruct (SP a PA) as (? & ? & _). now split.
      + discriminate.
      + split; [rewrite Hz; now apply framed_more|exact OW].
    - exists d. split; [|exact ID]. rewrite Q4, Hz, nth_error_app1; [exact SD|now apply nth_lt in SD].
    - intros a PA. rewrite Q3 in PA. apply (SP a PA). }
  assert (SAME : best_of (pl_name p0) (w_lists w) (xs ++ [x]) (pl_best p) -> 
     noted_gen false l xs t (p, w) /\ cls (r_class (tk_parameters t)) /\
     (exists d, nth_error (w_lists w) (r_data (tk_parameters t)) = Some d /\ inv (r_class (tk_parameters t)) d) /\
     (forall a, bf_parameters (pl_best p) = Some a -> a <> r_data (tk_parameters t)) /\ own (r_data (tk_parameters t))).
  { intros BO. apply (GO (pl_best p) (w_lists w)); auto.
    - exists []. now rewrite app_nil_r.
    - intros a PA. destruct (j_snap _ _ _ _ HJ a PA). split; [assumption|]. split; [assumption|now apply SN]. }
  unfold update_best_fit. destruct (truthy (rp_chi_squared (tk_report t))) as [current|] eqn:CH.
  2: { cbn [ret]. apply SAME. apply best_ignored; [exact (j_best _ _ _ _ HJ)|exact (eq_trans (chi_truthy x) CH)]. }
  erewrite mbind_ok by reflexivity. cbn [fst]. cbv zeta.
  destruct (match truthy (bf_chi_squared (pl_best p)) with None => true | Some b => String.ltb current b end) eqn:BT.
  2: { cbn [ret]. apply SAME. destruct (truthy (bf_chi_squared (pl_best p))) as [b|] eqn:TB; [|discriminate].
       eapply best_kept; [exact (j_best _ _ _ _ HJ)|exact (eq_trans (chi_truthy x) CH)|exact TB|exact BT]. }
  set (h' := w_lists w ++ [d]).
  assert (E1 : onW (obj_to_list (tk_parameters t)) (p, w) = (Ok (length (w_lists w)), (p, set_lists h' w)))
    by (unfold onW; cbn [snd fst]; now rewrite (obj_to_list_eq _ _ _ SD)).
  rewrite (mbind_ok _ _ _ _ _ _ _ _ E1).
  assert (SD' : nth_error (w_lists (set_lists h' w)) (r_data (tk_parameters t)) = Some d)
    by (unfold h'; cbn; rewrite nth_error_app1; [exact SD|now apply nth_lt in SD]).
  destruct ID as [IN IA]. pose proof (get_ordered_values _ _ IN) as GOV.
  set (vs := map (val d) (ct_ordered (table (r_class (tk_parameters t))))) in *.
  assert (E2 : onW (obj_read (tk_parameters t) (get_ordered (r_class (tk_parameters t)))) (p, set_lists h' w) = (Ok vs, (p, set_lists h' w))).
  { unfold onW, obj_read. cbn [snd fst]. rewrite (mbind_ok _ _ _ _ _ _ _ _ (read_ok _ _ _ SD')). unfold lift. now rewrite GOV. }
  rewrite (mbind_ok _ _ _ _ _ _ _ _ E2). unfold change. cbn [fst snd].
  destruct (strip_fields _ _ (j_strip _ _ _ _ HJ)) as (_ & K2 & _). cbn [fst] in K2.
  match goal with |- context [with_best ?b p] => apply (GO b h'); [now eexists| | |apply strip_best|now destruct p|now destruct p|reflexivity|reflexivity] end.
  - eapply best_replaced; [exact (j_best _ _ _ _ HJ)|exact (eq_trans (chi_truthy x) CH)|exact BT|]. unfold describes. cbn [bf_chi_squared bf_name bf_parameters bf_values bf_covariance bf_errors].
    split; [reflexivity|]. split; [now rewrite K2|]. split; [|split; reflexivity].
    exists (length (w_lists w)), d. split; [reflexivity|]. split; [apply nth_alloc|]. cbn [en_world en_task x]. rewrite H2. split; [exact SD|].
    exists vs. now split.
  - cbn [bf_parameters]. intros a E. injection E as <-. destruct (j_store _ _ _ _ HJ) as (d1 & D1 & _). cbn [fst snd] in D1.
    apply nth_lt in D1, SD. unfold h'. rewrite app_length. simpl. lia.
Qed.

(** Run a task, take note of it, continue with its parameters. *)
Lemma task_J : forall A n c l xs d (K : Task -> PM A) Q, length xs = length l -> role (length l) c ->
  (forall cl x, cls cl -> asks c n cl (pl_ts p0) (pl_ys p0) (pl_errors p0) d x -> stage_ok (length l) x) ->
  (fits_kind (pl_kind p0) c = false -> extra TypeError) -> (c = ResidualTask -> cls POscillations) ->
  (forall t, htriple (noted l xs t) (K t) Q Bad) ->
  htriple (fun s => J l xs s /\ with_store_of d s)
    (task <~ create_and_run o n c ;; update_best_fit task ;;; change (with_parameters (tk_parameters task)) ;;; K task) Q Bad.
Proof.
  intros A n c l xs d K Q LX RO H1 H2 H3 HK. eapply htriple_bind; [now apply create_and_run_J|]. intros t.
  eapply htriple_bind; [now apply update_J|]. intros u. eapply htriple_bind; [|intros u2; apply HK].
  intros [p w] ((fi & x & EX & HJ & RD & LB) & CL & ST & SN & OT). unfold change. cbn [fst snd] in *.
  exists fi, x. split; [exact EX|]. split; [|split; [exact RD|discriminate]]. destruct HJ as [A' B (d1 & D1 & D2) E F G H I _ [FR OW]]. cbn [fst snd] in *.
  assert (PP : pl_parameters (with_parameters (tk_parameters t) p) = tk_parameters t /\ pl_best (with_parameters (tk_parameters t) p) = pl_best p)
    by (destruct p; split; reflexivity).
  destruct PP as [PP1 PP2]. constructor; cbn [fst snd]; rewrite ?PP1, ?PP2; auto.
  - now rewrite strip_parameters.
  - intros a PA. destruct (I a PA). split; [assumption|now apply SN].
  - intros _ d' D'. rewrite app_length. simpl. rewrite Nat.add_1_r. exists x, d'. split; [rewrite nth_error_app2, Nat.sub_diag by lia; reflexivity|].
    rewrite <- LB by reflexivity. split; [exact D'|]. rewrite EX. split; [reflexivity|now split].
Qed.

(** Reports at the end of a round. *)
Lemma calm_J : forall A (m : PM A) l xs, (forall s, J l xs s -> exists a s', m s = (Ok a, s') /\ calm s s') ->
  htriple (J l xs) m (fun _ => J l xs) Bad.
Proof. intros A m l xs H s HJ. destruct (H s HJ) as (a & s' & -> & C). eapply J_calm; eassumption. Qed.

Lemma log_J : forall m l xs, htriple (J l xs) (log m) (fun _ => J l xs) Bad.
Proof. intros m l xs. apply calm_J. intros s _. destruct (log_calm m s) as (s' & E & C & _). eauto. Qed.

Lemma show_J : forall l xs, htriple (J l xs) (show_parameters o) (fun _ => J l xs) Bad.
Proof. intros l xs. apply calm_J. intros s HJ. destruct (j_store _ _ _ _ HJ) as (d & D & _). exact (show_calm o s d D). Qed.

Lemma log_start_J : forall l xs, htriple (J l xs) (log_start o) (fun _ => J l xs) Bad.
Proof. intros l xs. eapply htriple_bind; [apply show_J|]. intros text. apply log_J. Qed.

Lemma log_best_J : forall l xs, htriple (J l xs) (log_best o) (fun _ => J l xs) Bad.
Proof.
  intros l xs. apply calm_J. intros s HJ. destruct (log_best_calm o s) as (s' & E & C); [|eauto].
  intros a PA. now destruct (j_snap _ _ _ _ HJ a PA).
Qed.

Definition next (l : list FitInput) (xs : list Ended) (s : Pipeline * World) : Prop := exists fi x, J (l ++ [fi]) (xs ++ [x]) s.

Lemma noted_calm : forall l xs t s s', noted l xs t s -> calm s s' -> noted l xs t s'.
Proof.
  intros l xs t s s' (fi & x & A & B & C & _) D. exists fi, x. split; [exact A|]. split; [eapply J_calm; eassumption|]. split; [|discriminate].
  eapply readable_more; [exact C|]. destruct D as (_ & _ & _ & _ & y & ->). rewrite app_length. lia.
Qed.

Lemma close_J : forall l xs t n, htriple (noted l xs t) (flush_report ;;; save_report o n (tk_report t)) (fun _ => next l xs) Bad.
Proof.
  intros l xs t n s HN. destruct (flush_calm s) as (s1 & E1 & C1). rewrite (mbind_ok _ _ _ _ _ _ _ _ E1).
  assert (N1 := noted_calm _ _ _ _ _ HN C1). destruct N1 as (fi & x & A & B & C & _).
  destruct (save_calm o n (tk_report t) s1 C) as (s2 & -> & C2). exists fi, x. eapply J_calm; eassumption.
Qed.

Lemma log_best_noted : forall l xs t, htriple (noted l xs t) (log_best o) (fun _ => noted l xs t) Bad.
Proof.
  intros l xs t s HN. destruct (log_best_calm o s) as (s' & -> & C).
  - intros a PA. destruct HN as (fi & x & _ & HJ & _). now destruct (j_snap _ _ _ _ HJ a PA).
  - eapply noted_calm; eassumption.
Qed.

(** Mutations of the store. *)
Lemma mutate_J : forall m l xs, (forall c d, cls c -> inv c d -> inv c (snd (mutate c m d)) /\ exists u, fst (mutate c m d) = Ok u) ->
  (forall c d, same_values d (snd (mutate c m d))) ->
  htriple (J l xs) (mutate_parameters m) (fun _ => J l xs) Bad.
Proof.
  intros m l xs H SV [p w] HJ. destruct (j_store _ _ _ _ HJ) as (d & D & ID). cbn [fst snd] in *.
  rewrite (mutate_parameters_eq m p w d D). pose proof (j_class _ _ _ _ HJ) as JC. cbn [fst] in JC.
  destruct (H _ _ JC ID) as [I [u ->]].
  refine (J_store _ _ _ _ _ _ HJ I _ (w_samples w)). intros d' D'. rewrite D in D'. injection D' as <-. apply SV.
Qed.

Lemma release_noted : forall l xs t, htriple (noted l xs t) (mutate_parameters MReleaseAll) (fun _ => noted l xs t) Bad.
Proof.
  intros l xs t [p w] (fi & x & A & HJ & RD & _). destruct (j_store _ _ _ _ HJ) as (d & D & ID). cbn [fst snd] in *.
  rewrite (mutate_parameters_eq MReleaseAll p w d D). cbn [mutate fst snd].
  exists fi, x. split; [exact A|]. cbn [snd set_lists w_lists]. split; [|split; [eapply readable_more; [exact RD|]; rewrite replace_length; lia|discriminate]].
  apply (J_store _ _ _ _ _ _ HJ).
  - rewrite release_all_flagged by exact ID. apply flagged_inv; [exact ID|].
    intros n N. unfold held. apply member_In in N. now rewrite N.
  - intros d' D'. rewrite D in D'. injection D' as <-. rewrite release_all_flagged by exact ID. apply same_values_flagged.
Qed.

End Run.
