(** Properties C34 and C35: what running a fitting task may change, and what it frees. *)
From Coq Require Import String Ascii Reals List Bool Arith Lia Lra.
From Verif Require Import PyBase CNum PyExpr OtherModels PropsOther Params ParamClasses ParamSpec ParamProofs PropsParams CrossSections CommonUtils
  UtilsSpec UtilsProofs Scripts World WorldSpec WorldProofs DataSets Task TaskSpec TaskProofs.
Import ListNotations.
Local Open Scope R_scope.
Local Open Scope list_scope.

(** ** From the proofs to the specification *)

Lemma charged_rows_eq : forall rows, filterM (fun row : datapoint * R * R => attr_is_charged (fst (fst row))) rows = charged_rows rows.
Proof.
  induction rows as [|[[p y] e] rows IH]; [reflexivity|]. cbn [filterM charged_rows fst]. destruct p; cbn [attr_is_charged bind]; [|reflexivity|reflexivity].
  rewrite IH. reflexivity.
Qed.

Lemma zipped_eq : forall ts ys es, zip3 ts ys es = zipped ts ys es.
Proof. induction ts as [|t ts IH]; intros [|y ys] [|e es]; simpl; try reflexivity. now rewrite IH. Qed.

Lemma restrict_eq : forall f t, restrict (with_f f t) = bind (fit_data t) (fun x => Ok (with_fit_data x (with_f f t))).
Proof.
  intros f t. unfold restrict, fit_data. replace (tk_class (with_f f t)) with (tk_class t) by now destruct t.
  destruct (charged_only (tk_class t)).
  - rewrite charged_rows_eq. unfold rows_of. rewrite zipped_eq.
    replace (zipped (tk_ts_fit (with_f f t)) _ _) with (zipped (tk_ts_fit t) (tk_ys_fit t) (tk_errors_fit t)) by now destruct t.
    destruct (charged_rows _) as [rows|e]; [|reflexivity]. cbn [bind]. destruct rows; reflexivity.
  - cbn [bind]. now destruct t.
Qed.

(** Two states of a task that differ only in the fitted function, the fitted data and the report. *)
Definition same_task (t t' : Task) : Prop :=
  tk_class t' = tk_class t /\ tk_name t' = tk_name t /\ tk_parameters t' = tk_parameters t /\
  tk_ts t' = tk_ts t /\ tk_ys t' = tk_ys t /\ tk_errors t' = tk_errors t /\
  tk_handpicked t' = tk_handpicked t /\ tk_reports_dir t' = tk_reports_dir t.

Definition fits_made (t : Task) (d : data) : list FitInput :=
  match fit_input t d with Ok x => [x] | Err _ => [] end.

(** The outcome of a run as a function of the outcome of the fit. *)
Definition run_outcome (o : Oracle) (t : Task) (w : World) (d1 : data) (F : list datapoint -> list R -> Res (list R))
  (fit : Res (list R * matrix)) (n : nat) (res : Res Ref) (rep : Report) (h' : list data) (evs : list event) : Prop :=
  let r := tk_parameters t in
  match fit with
  | Err RuntimeError =>
      res = Ok r /\ rep = failed (o_message o n) (tk_report t) /\ nth_error h' (r_data r) = Some d1 /\ evs = []
  | Err e => res = Err e /\ rep = tk_report t /\ nth_error h' (r_data r) = Some d1 /\ evs = []
  | Ok (popt, cov) =>
      if Nat.eq_dec (length popt) (count_free d1) then
        nth_error h' (r_data r) = Some (fill d1 popt) /\
        match F (tk_ts t) popt with
        | Err e => res = Err e /\ rep = tk_report t /\ evs = []
        | Ok fit_ys =>
            let r2 := squared_residuals (tk_ys t) fit_ys in
            match text_of o n (chi_squared_value r2 (tk_errors t) (length popt)) with
            | Err e => res = Err e /\ rep = tk_report t /\ evs = []
            | Ok chi =>
                (res = Ok r \/ exists e, res = Err e) /\
                (exists final values, rep = done values final (o_str o (rsum r2)) chi cov (tk_report t) /\
                   get_ordered (r_class r) (fill d1 popt) = Ok values /\
                   (length (w_lists w) <= final)%nat /\ nth_error h' final = Some (fill d1 popt) /\ final <> r_data r) /\
                (forall e, In e evs -> exists p, e = EvPlot p) /\
                plotting o t fit_ys (length (w_events w)) res evs
            end
        end
      else res = Err ValueError /\ rep = tk_report t /\ nth_error h' (r_data r) = Some d1 /\ evs = []
  end.

Lemma charged_rows_err : forall rows e, charged_rows rows = Err e -> e = AttributeError.
Proof.
  induction rows as [|[[p y] x] rows IH]; intros e H; [discriminate|]. destruct p; simpl in H; try congruence.
  destruct (charged_rows rows) as [l|e']; [discriminate|]. injection H as <-. now apply IH.
Qed.

Lemma fit_data_err : forall t e, fit_data t = Err e -> e <> RuntimeError.
Proof.
  intros t e H. unfold fit_data in H. destruct (charged_only _); [|discriminate].
  destruct (charged_rows _) as [l|e'] eqn:C.
  - destruct l; [|discriminate]. cbn in H. congruence.
  - apply charged_rows_err in C. cbn in H. congruence.
Qed.

Lemma run_spec : forall o t w d, nth_error (w_lists w) (r_data (tk_parameters t)) = Some d ->
  inv (r_class (tk_parameters t)) d -> tk_class t <> ResidualTask ->
  let d1 := prepared (tk_class t) (r_class (tk_parameters t)) d in
  exists res t' h' evs,
    Task_run o (t, w) = (res, (t', add_events evs (set_lists h' (add_fits (fits_made t d1) w)))) /\
    same_task t t' /\ frame (fun b => b = r_data (tk_parameters t)) (w_lists w) h' /\
    run_outcome o t w d1 (closure_result (fitted_closure t d1)) (fit_result o (length (w_fits w)) t d1)
      (length (w_fits w ++ fits_made t d1)) res (tk_report t') h' evs.
Proof.
  intros o t w d S I K d1. pose proof (run_common o t w d S I K) as RC. fold d1 in RC. rewrite restrict_eq in RC.
  set (f := Common (own_partial t w)) in *.
  destruct (fit_data t) as [x|e] eqn:FD; cbn [bind] in RC.
  - destruct RC as (res & rep & h' & evs & E & FR & OUT). destruct x as [[ts ys] es].
    set (t1 := with_fit_data (ts, ys, es) (with_f f t)) in *.
    assert (T1 : tk_parameters t1 = tk_parameters t /\ tk_report t1 = tk_report t /\ tk_ts t1 = tk_ts t /\ tk_ys t1 = tk_ys t /\
      tk_errors t1 = tk_errors t /\ tk_reports_dir t1 = tk_reports_dir t /\ tk_name t1 = tk_name t /\ tk_handpicked t1 = tk_handpicked t /\
      tk_ts_fit t1 = ts /\ tk_ys_fit t1 = ys /\ tk_errors_fit t1 = es) by (unfold t1; destruct t; repeat split).
    destruct T1 as (A1 & A2 & A3 & A4 & A5 & A6 & A7 & A8 & A9 & A10 & A11).
    assert (NF : new_fits t1 d1 = fits_made t d1).
    { unfold new_fits, fits_made, fit_input, the_input. rewrite FD, A1, A7, A8, A9, A10, A11. cbn [bind].
      destruct (get_bounds _ _ _); reflexivity. }
    assert (OP : optimum o t1 d1 (closure_result (fitted_closure t d1)) w = fit_result o (length (w_fits w)) t d1).
    { unfold optimum, fit_result, fit_input, the_input, fitted. rewrite FD, A1, A7, A8, A9, A10, A11. cbn [bind].
      destruct (get_bounds _ _ _); reflexivity. }
    exists res, (with_report rep t1), h', evs. split; [now rewrite <- NF|]. split; [unfold same_task, t1; destruct t; repeat split|].
    split; [exact FR|]. unfold outcome_ok in OUT. rewrite OP, NF, A1, A2, A3, A4, A5 in OUT.
    replace (tk_report (with_report rep t1)) with rep by (unfold t1; now destruct t). revert OUT. unfold t1. clearbody f. clear. destruct t. exact (fun H => H).
  - destruct RC as (h' & E & FR & ST). pose proof (fit_data_err _ _ FD) as NR.
    exists (Err e), (with_f f t), h', []. unfold fits_made, fit_result, fit_input. rewrite FD. cbn [bind].
    split; [|split; [|split; [exact FR|]]].
    + rewrite E. unfold add_events, add_fits. simpl. rewrite !app_nil_r. destruct w; reflexivity.
    + unfold same_task. destruct t; repeat split.
    + unfold run_outcome. replace (tk_report (with_f f t)) with (tk_report t) by now destruct t.
      destruct e; try (repeat split; exact ST). congruence.
Qed.

(** ** Chi-squared *)

Lemma rsum_acc : forall l a, fold_left Rplus l a = a + fold_left Rplus l 0.
Proof.
  induction l as [|x l IH]; intros a; simpl; [lra|]. rewrite IH, (IH (0 + x)). lra.
Qed.

Lemma rsum_cons : forall x l, rsum (x :: l) = x + rsum l.
Proof. intros x l. unfold rsum. simpl. rewrite rsum_acc. lra. Qed.

Lemma plain_sum_eq : forall ys fits, rsum (squared_residuals ys fits) = plain_sum ys fits.
Proof.
  induction ys as [|y ys IH]; intros [|f fits]; try reflexivity. unfold squared_residuals in *. cbn [combine map plain_sum].
  rewrite rsum_cons, IH. cbn [fst snd]. lra.
Qed.

Lemma weighted_terms : forall ys fits errors, length fits = length ys -> length errors = length ys ->
  Forall (fun e => e <> 0) errors ->
  exists terms, mapM (fun re => rdiv (fst re) (snd re * snd re)) (combine (squared_residuals ys fits) errors) = Ok terms /\
    rsum terms = weighted_sum ys fits errors.
Proof.
  induction ys as [|y ys IH]; intros [|f fits] [|e errors] L1 L2 N; try discriminate; [now exists []|].
  inversion N as [|? ? N1 N2]; subst. injection L1 as L1. injection L2 as L2.
  destruct (IH fits errors L1 L2 N2) as (terms & E & SUM). unfold squared_residuals in *. cbn [combine map mapM fst snd].
  rewrite rdiv_ok by (intros Q; apply N1; apply Rmult_integral in Q; tauto). cbn [bind]. rewrite E. cbn [bind].
  eexists. split; [reflexivity|]. rewrite rsum_cons, SUM. cbn [weighted_sum]. f_equal. field. exact N1.
Qed.

Lemma squared_length : forall ys fits, length fits = length ys -> length (squared_residuals ys fits) = length ys.
Proof. intros ys fits L. unfold squared_residuals. rewrite map_length, combine_length. lia. Qed.

Lemma chi_value : forall ys fits errors p, length fits = length ys -> length errors = length ys ->
  Forall (fun e => e <> 0) errors -> length ys <> p ->
  chi_squared_value (squared_residuals ys fits) errors p = Ok (reduced_chi_squared ys fits errors p).
Proof.
  intros ys fits errors p L1 L2 N NP. destruct (weighted_terms ys fits errors L1 L2 N) as (terms & E & SUM).
  unfold chi_squared_value. rewrite E. cbn [bind]. rewrite squared_length by exact L1. rewrite rdiv_ok.
  - now rewrite SUM.
  - intros Q. apply NP. apply INR_eq. lra.
Qed.

Lemma chi_degenerate : forall ys fits errors p, length fits = length ys -> length errors = length ys ->
  (Exists (fun e => e = 0) errors \/ length ys = p) ->
  chi_squared_value (squared_residuals ys fits) errors p = Err ZeroDivisionError.
Proof.
  intros ys fits errors p L1 L2 H.
  assert (Z : forall x y, y = 0 -> rdiv x y = Err ZeroDivisionError) by (intros x y ->; unfold rdiv; now destruct (Req_EM_T 0 0)).
  destruct (Exists_dec (fun e => e = 0) errors (fun e => Req_EM_T e 0)) as [X|X].
  - unfold chi_squared_value.
    assert (M : mapM (fun re => rdiv (fst re) (snd re * snd re)) (combine (squared_residuals ys fits) errors) = Err ZeroDivisionError).
    { clear H. revert fits errors L1 L2 X. induction ys as [|y ys IH]; intros [|f fits] [|e errors] L1 L2 X; try discriminate.
      - inversion X.
      - injection L1 as L1. injection L2 as L2. unfold squared_residuals in *. cbn [combine map mapM fst snd].
        destruct (Req_EM_T e 0) as [->|NE].
        + rewrite Z by lra. reflexivity.
        + rewrite rdiv_ok by (intros Q; apply NE; apply Rmult_integral in Q; tauto). cbn [bind].
          rewrite IH; [reflexivity|exact L1|exact L2|]. inversion X; subst; [contradiction|assumption]. }
    rewrite M. reflexivity.
  - destruct H as [H|H]; [contradiction|].
    assert (N : Forall (fun e => e <> 0) errors).
    { apply Forall_forall. intros e I Q. apply X. apply Exists_exists. eauto. }
    destruct (weighted_terms ys fits errors L1 L2 N) as (terms & E & SUM). unfold chi_squared_value. rewrite E. cbn [bind].
    rewrite squared_length by exact L1. apply Z. subst p. lra.
Qed.

Lemma closure_length : forall k ts args l, closure_result k ts args = Ok l -> length l = length ts.
Proof.
  intros [s|m a hc s|s] ts args l H; simpl in H; destruct (with_free_values args s) as [s'|]; try discriminate; cbn [bind] in H;
    destruct (buildable _ _); try discriminate; cbn [bind] in H; try (now apply mapM_Ok_length in H).
  destruct (family_of _); try discriminate; now apply mapM_Ok_length in H.
Qed.

(** ** C34 *)

(** The store [d] belongs to the task, whose function is not the residual one. *)
Definition ready (t : Task) (w : World) (d : data) : Prop :=
  nth_error (w_lists w) (r_data (tk_parameters t)) = Some d /\ reachable (r_class (tk_parameters t)) d /\
  tk_class t <> ResidualTask.

Definition contents (w : World) (r : Ref) : option data := nth_error (w_lists w) (r_data r).

(** What may become of one parameter. *)
Definition kept (k : task_class) (c : param_class) (p p' : Par) : Prop :=
  par_name p' = par_name p /\ par_fixed p' = fixed_in_fit (frees k) c p /\
  (par_fixed p' = true -> par_value p' = par_value p).

Lemma kept_fill : forall k c d vs, Forall2 (kept k c) d (fill (prepared k c d) vs).
Proof.
  intros k c. induction d as [|p d IH]; intros vs; [constructor|]. unfold prepared in *. cbn [map fill].
  cbn [par_fixed]. destruct (fixed_in_fit (frees k) c p) eqn:Q.
  - constructor; [|apply IH]. unfold kept. simpl. now rewrite Q.
  - destruct vs as [|v vs].
    + constructor; [unfold kept; simpl; rewrite Q; repeat split; congruence|].
      clear - Q. induction d as [|q d IH']; constructor; [unfold kept; simpl; auto|exact IH'].
    + constructor; [unfold kept; simpl; repeat split; [now rewrite Q|discriminate]|apply IH].
Qed.

Lemma kept_prepared : forall k c d, Forall2 (kept k c) d (prepared k c d).
Proof.
  intros k c. induction d as [|p d IH]; [constructor|]. constructor; [unfold kept; simpl; auto|exact IH].
Qed.

(** Whatever the optimiser returns or raises: names, fixed values and the flags set by the task's set-up are kept, no
    other object changes, nothing but plots is written. *)
Theorem C34_frame : forall o t w d res t' w', ready t w d -> Task_run o (t, w) = (res, (t', w')) ->
  same_task t t' /\
  (exists d', contents w' (tk_parameters t) = Some d' /\ Forall2 (kept (tk_class t) (r_class (tk_parameters t))) d d') /\
  (forall b, (b < length (w_lists w))%nat -> b <> r_data (tk_parameters t) ->
     nth_error (w_lists w') b = nth_error (w_lists w) b) /\
  w_draws w' = w_draws w /\ w_samples w' = w_samples w /\
  (exists evs, w_events w' = w_events w ++ evs /\ forall e, In e evs -> exists p, e = EvPlot p) /\
  (res = Ok (tk_parameters t) \/ exists e, res = Err e).
Proof.
  intros o t w d res t' w' (S & RC & K) H. pose proof (reachable_inv _ _ RC) as I.
  destruct (run_spec o t w d S I K) as (res0 & t0 & h' & evs & E & ST & FR & OUT). rewrite E in H.
  injection H as <- <- <-. split; [exact ST|].
  set (d1 := prepared (tk_class t) (r_class (tk_parameters t)) d) in *.
  assert (FRB : forall b, (b < length (w_lists w))%nat -> b <> r_data (tk_parameters t) -> nth_error h' b = nth_error (w_lists w) b).
  { intros b L N. now apply FR. }
  unfold contents. simpl.
  assert (X : (exists d', nth_error h' (r_data (tk_parameters t)) = Some d' /\ Forall2 (kept (tk_class t) (r_class (tk_parameters t))) d d') /\
    (forall e, In e evs -> exists p, e = EvPlot p) /\ (res0 = Ok (tk_parameters t) \/ exists e, res0 = Err e)).
  { assert (N0 : forall e, In e [] -> exists p, e = EvPlot p) by (intros e []).
    unfold run_outcome in OUT. destruct (fit_result _ _ _ _) as [[popt cov]|e].
    - destruct (Nat.eq_dec _ _) as [L|L].
      + destruct OUT as [S' OUT]. split; [exists (fill d1 popt); split; [exact S'|apply kept_fill]|].
        destruct (closure_result _ _ _) as [fs|e].
        * cbv zeta in OUT. destruct (text_of _ _ _) as [chi|e].
          -- destruct OUT as (A & _ & B & _). auto.
          -- destruct OUT as (-> & _ & ->). split; [exact N0|]. right. now eexists.
        * destruct OUT as (-> & _ & ->). split; [exact N0|]. right. now eexists.
      + destruct OUT as (-> & _ & S' & ->). split; [exists d1; split; [exact S'|apply kept_prepared]|].
        split; [exact N0|]. right. now eexists.
    - assert (Z : nth_error h' (r_data (tk_parameters t)) = Some d1 /\ evs = [] /\ (res0 = Ok (tk_parameters t) \/ exists e, res0 = Err e)).
      { destruct e; destruct OUT as (A & _ & B & C); (split; [exact B|split; [exact C|]]);
          first [left; exact A | right; eexists; exact A]. }
      destruct Z as (A & -> & B). split; [exists d1; split; [exact A|apply kept_prepared]|]. split; [exact N0|exact B]. }
  destruct X as (X1 & X2 & X3). split; [exact X1|]. split; [exact FRB|]. split; [reflexivity|]. split; [reflexivity|].
  split; [|exact X3]. exists evs. split; [reflexivity|exact X2].
Qed.

(** At most one fit is made, of the prepared store and the data of the task. *)
Theorem C34_one_fit : forall o t w d res t' w', ready t w d -> Task_run o (t, w) = (res, (t', w')) ->
  w_fits w' = w_fits w ++
    match fit_input t (prepared (tk_class t) (r_class (tk_parameters t)) d) with Ok x => [x] | Err _ => [] end.
Proof.
  intros o t w d res t' w' (S & RC & K) H. pose proof (reachable_inv _ _ RC) as I.
  destruct (run_spec o t w d S I K) as (res0 & t0 & h' & evs & E & _). rewrite E in H. injection H as <- <- <-. reflexivity.
Qed.

(** A RuntimeError inside the fit is reported and leaves every value as it was. *)
Theorem C34_runtime_error : forall o t w d, ready t w d ->
  let d1 := prepared (tk_class t) (r_class (tk_parameters t)) d in
  fit_result o (length (w_fits w)) t d1 = Err RuntimeError ->
  exists t' w', Task_run o (t, w) = (Ok (tk_parameters t), (t', w')) /\
    contents w' (tk_parameters t) = Some d1 /\ map par_value d1 = map par_value d /\
    rp_status (tk_report t') = "failed"%string /\
    rp_message (tk_report t') = Some (o_message o (length (w_fits w'))) /\
    rp_final (tk_report t') = rp_final (tk_report t) /\ rp_chi_squared (tk_report t') = rp_chi_squared (tk_report t) /\
    w_events w' = w_events w.
Proof.
  intros o t w d (S & RC & K) d1 FE. pose proof (reachable_inv _ _ RC) as I.
  destruct (run_spec o t w d S I K) as (res0 & t' & h' & evs & E & ST & FR & OUT). fold d1 in OUT, E.
  rewrite FE in OUT. destruct OUT as (-> & RP & S' & ->).
  eexists _, _. split; [exact E|]. split; [exact S'|]. split; [unfold d1, prepared; rewrite map_map; reflexivity|].
  rewrite RP. repeat split. simpl. apply app_nil_r.
Qed.

(** Every other exception of the fit reaches the caller. *)
Theorem C34_other_exceptions_propagate : forall o t w d e, ready t w d ->
  let d1 := prepared (tk_class t) (r_class (tk_parameters t)) d in
  fit_result o (length (w_fits w)) t d1 = Err e -> e <> RuntimeError ->
  exists t' w', Task_run o (t, w) = (Err e, (t', w')) /\ contents w' (tk_parameters t) = Some d1 /\
    tk_report t' = tk_report t /\ w_events w' = w_events w.
Proof.
  intros o t w d e (S & RC & K) d1 FE NE. pose proof (reachable_inv _ _ RC) as I.
  destruct (run_spec o t w d S I K) as (res0 & t' & h' & evs & E & ST & FR & OUT). fold d1 in OUT, E.
  rewrite FE in OUT.
  assert (Z : res0 = Err e /\ tk_report t' = tk_report t /\ nth_error h' (r_data (tk_parameters t)) = Some d1 /\ evs = [])
    by (destruct e; try exact OUT; congruence).
  destruct Z as (-> & RP & S' & ->).
  eexists _, _. split; [exact E|]. split; [exact S'|]. split; [exact RP|]. simpl. apply app_nil_r.
Qed.

(** An optimum with the wrong number of values is refused before anything is stored. *)
Theorem C34_wrong_number_of_values : forall o t w d popt cov, ready t w d ->
  let d1 := prepared (tk_class t) (r_class (tk_parameters t)) d in
  fit_result o (length (w_fits w)) t d1 = Ok (popt, cov) -> length popt <> length (free_values d1) ->
  exists t' w', Task_run o (t, w) = (Err ValueError, (t', w')) /\ contents w' (tk_parameters t) = Some d1 /\
    tk_report t' = tk_report t.
Proof.
  intros o t w d popt cov (S & RC & K) d1 FE L. pose proof (reachable_inv _ _ RC) as I.
  destruct (run_spec o t w d S I K) as (res0 & t' & h' & evs & E & ST & FR & OUT). fold d1 in OUT, E.
  rewrite FE in OUT. unfold run_outcome in OUT. unfold free_values in L. rewrite map_length in L.
  destruct (Nat.eq_dec _ _) as [Q|Q]; [contradiction|]. destruct OUT as (-> & RP & S' & ->).
  eexists _, _. split; [exact E|]. split; [exact S'|exact RP].
Qed.

Definition is_kaon (p : datapoint) : Prop := match p with KaonDatapoint _ _ => True | _ => False end.
Definition is_nucleon (p : datapoint) : Prop := match p with NucleonDatapoint _ _ _ => True | _ => False end.
(** Has an attribute [t]. *)
Definition has_t (p : datapoint) : Prop := is_kaon p \/ is_nucleon p.

(** The report of a finished fit. *)
Definition finished (o : Oracle) (t : Task) (popt : list R) (cov : matrix) (fits : list R) (chi : string)
  (d' : data) (w w' : World) (rep : Report) : Prop :=
  rp_status rep = "finished"%string /\ rp_chi_squared rep = Some chi /\
  rp_r2 rep = Some (o_str o (plain_sum (tk_ys t) fits)) /\ rp_covariance rep = Some cov /\
  rp_name rep = rp_name (tk_report t) /\ rp_initial rep = rp_initial (tk_report t) /\
  rp_values rep = map (val d') (ct_ordered (table (r_class (tk_parameters t)))) /\
  exists final, rp_final rep = Some final /\ (length (w_lists w) <= final)%nat /\ final <> r_data (tk_parameters t) /\
    nth_error (w_lists w') final = Some d'.

(** Points every series plot can be made of. *)
Definition drawable (t : Task) : Prop :=
  match style_of (tk_class t) with
  | SeriesCs => Forall is_kaon (tk_ts t)
  | SeriesFf => Forall is_kaon (tk_ts t) /\ tk_ts t <> []
  | PlainCs => Forall has_t (tk_ts t)
  | SeriesElectric => Forall is_nucleon (tk_ts t) /\ tk_ts t <> []
  | ResidualPlot => True
  end.

Lemma split_loop_cases : forall flag (P : datapoint -> Prop) ys es fs,
  (forall p, (P p /\ (exists b, flag p = Ok b) /\ exists z, attr_t p = Ok z) \/ (~ P p /\ flag p = Err AttributeError)) ->
  forall ts i yes no, (i + length ts <= length ys)%nat -> length es = length ys -> length fs = length ys ->
  (Forall P ts /\ exists a b, split_loop flag ys es fs i ts yes no = Ok (a, b) /\
     (length a + length b = length yes + length no + length ts)%nat) \/
  (~ Forall P ts /\ split_loop flag ys es fs i ts yes no = Err AttributeError).
Proof.
  intros flag P ys es fs H. induction ts as [|p ts IH]; intros i yes no L LE LF.
  - left. split; [constructor|]. exists yes, no. split; [reflexivity|simpl; lia].
  - cbn [split_loop]. cbn [length] in L. destruct (H p) as [(HP & (b & B) & (z & Z))|[HP B]]; rewrite B; cbn [bind].
    + rewrite Z. cbn [bind].
      assert (IT : forall l : list R, length l = length ys -> exists v, item l i = Ok v).
      { intros l Hl. unfold item. destruct (nth_error l i) as [v|] eqn:N; [now eexists|]. apply nth_error_None in N. lia. }
      destruct (IT ys eq_refl) as [y ->], (IT es LE) as [e ->], (IT fs LF) as [f ->]. cbn [bind].
      destruct b.
      * destruct (IH (S i) (yes ++ [(z, y, e, f)]) no ltac:(lia) LE LF) as [(FA & a & b & E & N)|[NF E]].
        -- left. split; [now constructor|]. exists a, b. split; [exact E|]. rewrite N, app_length. simpl. lia.
        -- right. split; [|exact E]. intros Q. apply NF. now apply Forall_inv_tail in Q.
      * destruct (IH (S i) yes (no ++ [(z, y, e, f)]) ltac:(lia) LE LF) as [(FA & a & b & E & N)|[NF E]].
        -- left. split; [now constructor|]. exists a, b. split; [exact E|]. rewrite N, app_length. simpl. lia.
        -- right. split; [|exact E]. intros Q. apply NF. now apply Forall_inv_tail in Q.
    + right. split; [|reflexivity]. intros Q. apply HP. now apply Forall_inv in Q.
Qed.

Lemma attr_t_cases : forall ts, (Forall has_t ts /\ exists l, mapM attr_t ts = Ok l) \/ (~ Forall has_t ts /\ mapM attr_t ts = Err AttributeError).
Proof.
  induction ts as [|p ts IH]; [left; split; [constructor|now exists []]|]. cbn [mapM].
  destruct p; cbn [attr_t bind].
  1, 2: destruct IH as [[F [l ->]]|[F ->]]; [left; split; [constructor; [unfold has_t; simpl; tauto|exact F]|now eexists]|
          right; split; [intros Q; apply F; now apply Forall_inv_tail in Q|reflexivity]].
  right. split; [|reflexivity]. intros Q. apply Forall_inv in Q. now destruct Q.
Qed.

Lemma style_drawable : forall k ts ys es fits, k <> ResidualTask ->
  length ys = length ts -> length es = length ts -> length fits = length ts -> forall eff : Res unit,
  let X := match style_of k with
    | SeriesCs => bind (series_neutral_plus_charged ts ys es fits) (fun _ => Ok tt)
    | SeriesFf => bind (series_neutral_plus_charged ts ys es fits) needs_series
    | PlainCs => bind (mapM attr_t ts) (fun _ => Ok tt)
    | SeriesElectric => bind (series_electric_plus_magnetic ts ys es fits) needs_series
    | ResidualPlot => eff
    end in
  let D := match style_of k with
    | SeriesCs => Forall is_kaon ts
    | SeriesFf => Forall is_kaon ts /\ ts <> []
    | PlainCs => Forall has_t ts
    | SeriesElectric => Forall is_nucleon ts /\ ts <> []
    | ResidualPlot => True
    end in
  (D /\ X = Ok tt) \/ (~ D /\ (X = Err AttributeError \/ X = Err ValueError)).
Proof.
  intros k ts ys es fits NR L1 L2 L3 eff.
  assert (KA : forall p, (is_kaon p /\ (exists b, attr_is_charged p = Ok b) /\ exists z, attr_t p = Ok z) \/ (~ is_kaon p /\ attr_is_charged p = Err AttributeError)).
  { intros [z b| |]; [left; repeat split; now eexists|right; split; [intros []|reflexivity]..]. }
  assert (NU : forall p, (is_nucleon p /\ (exists b, attr_electric p = Ok b) /\ exists z, attr_t p = Ok z) \/ (~ is_nucleon p /\ attr_electric p = Err AttributeError)).
  { intros [|z b c|]; [|left; repeat split; now eexists|]; right; (split; [intros []|reflexivity]). }
  assert (E1 : length es = length ys) by congruence. assert (E2 : length fits = length ys) by congruence.
  pose proof (split_loop_cases attr_is_charged is_kaon ys es fits KA ts 0 [] [] ltac:(simpl; lia) E1 E2) as C1.
  pose proof (split_loop_cases attr_electric is_nucleon ys es fits NU ts 0 [] [] ltac:(simpl; lia) E1 E2) as C2.
  pose proof (attr_t_cases ts) as C3.
  assert (NS : forall a b : list plotted, (length a + length b = length ts)%nat -> (ts <> [] /\ needs_series (a, b) = Ok tt) \/
    (~ ts <> [] /\ needs_series (a, b) = Err ValueError)).
  { intros [|x a] [|y b] Q; destruct ts as [|p ts']; try discriminate; [right; split; [tauto|reflexivity]|left; split; [discriminate|reflexivity]..]. }
  unfold series_neutral_plus_charged, series_electric_plus_magnetic.
  destruct (style_of k) eqn:SK; cbv zeta.
  - destruct C1 as [(F & a & b & -> & _)|(F & ->)]; [left|right]; auto.
  - destruct C1 as [(F & a & b & -> & N)|(F & ->)].
    + cbn [bind]. destruct (NS a b N) as [[Q1 Q2]|[Q1 Q2]]; [left|right]; rewrite Q2; tauto.
    + right. split; [tauto|now left].
  - destruct C3 as [(F & l & ->)|(F & ->)]; [left|right]; auto.
  - destruct C2 as [(F & a & b & -> & N)|(F & ->)].
    + cbn [bind]. destruct (NS a b N) as [[Q1 Q2]|[Q1 Q2]]; [left|right]; rewrite Q2; tauto.
    + right. split; [tauto|now left].
  - destruct k; try discriminate. congruence.
Qed.

Section Success.
Variables (o : Oracle) (t : Task) (w : World) (d : data) (popt : list R) (cov : matrix) (fits : list R).
Let d1 := prepared (tk_class t) (r_class (tk_parameters t)) d.
Hypothesis R : ready t w d.
Hypothesis fit_ok : fit_result o (length (w_fits w)) t d1 = Ok (popt, cov).
Hypothesis enough : length popt = length (free_values d1).
Hypothesis model_ok : closure_result (fitted_closure t d1) (tk_ts t) popt = Ok fits.
Hypothesis data_ok : length (tk_ys t) = length (tk_ts t) /\ length (tk_errors t) = length (tk_ts t).

Lemma success_cases : exists res t' h' evs,
  Task_run o (t, w) = (res, (t', add_events evs (set_lists h' (add_fits (fits_made t d1) w)))) /\
  nth_error h' (r_data (tk_parameters t)) = Some (fill d1 popt) /\
  match text_of o (length (w_fits w ++ fits_made t d1)) (chi_squared_value (squared_residuals (tk_ys t) fits) (tk_errors t) (length popt)) with
  | Err e => res = Err e /\ tk_report t' = tk_report t
  | Ok chi => (res = Ok (tk_parameters t) \/ exists e, res = Err e) /\
      finished o t popt cov fits chi (fill d1 popt) w (set_lists h' w) (tk_report t') /\
      plotting o t fits (length (w_events w)) res evs
  end.
Proof.
  destruct R as (S & RC & K). pose proof (reachable_inv _ _ RC) as I.
  destruct (run_spec o t w d S I K) as (res & t' & h' & evs & E & ST & FR & OUT). fold d1 in OUT, E.
  rewrite fit_ok in OUT. unfold run_outcome in OUT. pose proof enough as L. unfold free_values in L. rewrite map_length in L.
  destruct (Nat.eq_dec _ _) as [Q|Q]; [|contradiction]. destruct OUT as [S' OUT]. rewrite model_ok in OUT. cbv zeta in OUT.
  exists res, t', h', evs. split; [exact E|]. split; [exact S'|].
  destruct (text_of _ _ _) as [chi|e].
  - destruct OUT as (A & (final & values & B & G & C & D & N) & _ & P). split; [exact A|]. split; [|exact P].
    rewrite B. unfold finished. cbn [done rp_status rp_chi_squared rp_r2 rp_covariance rp_name rp_initial rp_values rp_final].
    rewrite plain_sum_eq. repeat (split; [reflexivity|]). split.
    + rewrite get_ordered_values in G; [now injection G as <-|].
      rewrite fill_names. apply prepared_inv; [exact I].
    + exists final. auto.
  - destruct OUT as (A & B & _). auto.
Qed.

(** Success: the optimum is in the free parameters and the reported chi-squared is the reduced one over all data. *)
Theorem C34_success : Forall (fun e => e <> 0) (tk_errors t) -> length (tk_ys t) <> length popt ->
  exists res t' w' d', Task_run o (t, w) = (res, (t', w')) /\
    with_free_values popt (r_class (tk_parameters t), d1) = Ok (r_class (tk_parameters t), d') /\
    contents w' (tk_parameters t) = Some d' /\
    finished o t popt cov fits (o_str o (reduced_chi_squared (tk_ys t) fits (tk_errors t) (length popt))) d' w w' (tk_report t') /\
    (res = Ok (tk_parameters t) \/ exists e, res = Err e) /\
    ((tk_reports_dir t = None \/ tk_reports_dir t = Some ""%string) -> res = Ok (tk_parameters t)).
Proof.
  intros NZ NP. destruct success_cases as (res & t' & h' & evs & E & S & OUT).
  pose proof (closure_length _ _ _ _ model_ok) as LF. destruct data_ok as [LY LE].
  rewrite chi_value in OUT by (auto; lia). cbn [text_of] in OUT. destruct OUT as (A & B & P).
  eexists res, t', _, (fill d1 popt). split; [exact E|]. split; [|split; [exact S|split; [exact B|split; [exact A|exact (plotting_nowhere _ _ _ _ _ _ P)]]]].
  unfold with_free_values. cbn [fst snd]. pose proof enough as L. unfold free_values in L. rewrite map_length in L.
  fold is_free in L. change (length (filter is_free d1)) with (count_free d1) in L. rewrite L, Nat.eqb_refl. reflexivity.
Qed.

(** Plotting comes after the report: nothing without a directory, one picture with one, and an exception when the points
    do not fit the plot. *)
Theorem C34_plot : Forall (fun e => e <> 0) (tk_errors t) -> length (tk_ys t) <> length popt ->
  exists res t' w', Task_run o (t, w) = (res, (t', w')) /\ rp_status (tk_report t') = "finished"%string /\
    match tk_reports_dir t with
    | None | Some ""%string => res = Ok (tk_parameters t) /\ w_events w' = w_events w
    | Some dir =>
        (drawable t -> match o_render o (length (w_events w)) with
           | None => res = Ok (tk_parameters t) /\ w_events w' = w_events w ++ [EvPlot (path_join dir (lower (tk_name t) ++ ".png")%string)]
           | Some e => res = Err e /\ w_events w' = w_events w
           end) /\
        (~ drawable t -> (res = Err AttributeError \/ res = Err ValueError) /\ w_events w' = w_events w)
    end.
Proof.
  intros NZ NP. destruct success_cases as (res & t' & h' & evs & E & S & OUT).
  pose proof (closure_length _ _ _ _ model_ok) as LF. destruct data_ok as [LY LE].
  rewrite chi_value in OUT by (auto; lia). cbn [text_of] in OUT. destruct OUT as (A & B & P & P').
  eexists res, t', _. split; [exact E|]. split; [apply B|]. cbn [w_events add_events set_lists add_fits]. subst evs res.
  unfold plot_result, plot_events. destruct (tk_reports_dir t) as [[|ch dir]|]; try (split; [reflexivity|apply app_nil_r]).
  match goal with |- context [bind ?x (fun _ => match o_render o _ with Some _ => _ | None => _ end)] => set (X := x) end.
  assert (K : (drawable t /\ X = Ok tt) \/ (~ drawable t /\ (X = Err AttributeError \/ X = Err ValueError))).
  { destruct R as (_ & _ & NR). unfold X, drawable. apply style_drawable; [exact NR|lia..]. }
  split; intros DR.
  - destruct K as [[_ K]|[N _]]; [|contradiction]. rewrite K. cbn [bind]. destruct (o_render o _); split; try reflexivity. apply app_nil_r.
  - destruct K as [[D _]|[_ K]]; [contradiction|]. destruct K as [-> | ->]; cbn [bind]; (split; [auto|apply app_nil_r]).
Qed.

(** No degrees of freedom, or an error bar of zero: never a finite chi-squared.  The optimum is stored all the same. *)
Theorem C34_degenerate : (Exists (fun e => e = 0) (tk_errors t) \/ length (tk_ys t) = length popt) ->
  exists res t' w' d', Task_run o (t, w) = (res, (t', w')) /\
    with_free_values popt (r_class (tk_parameters t), d1) = Ok (r_class (tk_parameters t), d') /\
    contents w' (tk_parameters t) = Some d' /\
    (res = Err ZeroDivisionError /\ tk_report t' = tk_report t \/
     exists chi, In chi ["inf"; "-inf"; "nan"]%string /\ finished o t popt cov fits chi d' w w' (tk_report t')).
Proof.
  intros Z. destruct success_cases as (res & t' & h' & evs & E & S & OUT).
  pose proof (closure_length _ _ _ _ model_ok) as LF. destruct data_ok as [LY LE].
  rewrite chi_degenerate in OUT by (auto; lia). cbn [text_of] in OUT.
  eexists res, t', _, (fill d1 popt). split; [exact E|]. split; [|split; [exact S|]].
  - unfold with_free_values. cbn [fst snd]. pose proof enough as L. unfold free_values in L. rewrite map_length in L.
    fold is_free in L. change (length (filter is_free d1)) with (count_free d1) in L. rewrite L, Nat.eqb_refl. reflexivity.
  - destruct (o_division o _); [left; exact OUT| | |]; destruct OUT as (A & B & P); right; eexists; (split; [|exact B]); simpl; auto.
Qed.
End Success.

(** An exception of the model at the optimum reaches the caller after the optimum has been stored. *)
Theorem C34_model_raises_at_optimum : forall o t w d popt cov e, ready t w d ->
  let d1 := prepared (tk_class t) (r_class (tk_parameters t)) d in
  fit_result o (length (w_fits w)) t d1 = Ok (popt, cov) -> length popt = length (free_values d1) ->
  closure_result (fitted_closure t d1) (tk_ts t) popt = Err e ->
  exists t' w' d', Task_run o (t, w) = (Err e, (t', w')) /\
    with_free_values popt (r_class (tk_parameters t), d1) = Ok (r_class (tk_parameters t), d') /\
    contents w' (tk_parameters t) = Some d' /\ tk_report t' = tk_report t.
Proof.
  intros o t w d popt cov e (S & RC & K) d1 FE L ME. pose proof (reachable_inv _ _ RC) as I.
  destruct (run_spec o t w d S I K) as (res0 & t' & h' & evs & E & ST & FR & OUT). fold d1 in OUT, E.
  rewrite FE in OUT. unfold run_outcome in OUT. unfold free_values in L. rewrite map_length in L.
  destruct (Nat.eq_dec _ _) as [Q|Q]; [|contradiction]. rewrite ME in OUT. destruct OUT as (S' & -> & RP & ->).
  eexists _, _, (fill d1 popt). split; [exact E|]. split; [|split; [exact S'|exact RP]].
  unfold with_free_values. cbn [fst snd]. rewrite Q, Nat.eqb_refl. reflexivity.
Qed.

(** The reported parameter errors are the square roots of the diagonal of the covariance matrix. *)
Theorem C34_parameter_errors : forall o t w res t' w' d popt (v : nat -> nat -> R) n,
  let cov := map (fun i => map (fun j => Fin (v i j)) (seq 0 n)) (seq 0 n) in
  let d1 := prepared (tk_class t) (r_class (tk_parameters t)) d in
  ready t w d -> fit_result o (length (w_fits w)) t d1 = Ok (popt, cov) -> (forall i, (i < n)%nat -> 0 <= v i i) ->
  Task_run o (t, w) = (res, (t', w')) -> rp_status (tk_report t) = "started"%string ->
  rp_status (tk_report t') = "finished"%string ->
  rp_errors (tk_report t') = Some (map (fun i => Some (Fin (sqrt (v i i)))) (seq 0 n)).
Proof.
  intros o t w res t' w' d popt v n cov d1 (S & RC & K) FE POS H ST0 ST1. pose proof (reachable_inv _ _ RC) as I.
  destruct (run_spec o t w d S I K) as (res0 & t0 & h' & evs & E & ST & FR & OUT). fold d1 in OUT, E.
  rewrite E in H. injection H as <- <- <-. rewrite FE in OUT. unfold run_outcome in OUT.
  destruct (Nat.eq_dec _ _) as [Q|Q]; [|destruct OUT as (_ & RP & _); rewrite RP, ST0 in ST1; discriminate].
  destruct OUT as [_ OUT]. destruct (closure_result _ _ _) as [fs|e]; [|destruct OUT as (_ & RP & _); rewrite RP, ST0 in ST1; discriminate].
  cbv zeta in OUT. destruct (text_of _ _ _) as [chi|e]; [|destruct OUT as (_ & RP & _); rewrite RP, ST0 in ST1; discriminate].
  destruct OUT as (_ & (final & values & -> & _) & _). cbn [done rp_errors]. f_equal.
  assert (G : forall m k, (k + m = n)%nat -> map ext_sqrt (diagonal k (map (fun i => map (fun j => Fin (v i j)) (seq 0 n)) (seq k m))) =
    map (fun i => Some (Fin (sqrt (v i i)))) (seq k m)).
  { induction m as [|m IH]; intros k L; [reflexivity|]. cbn [seq map diagonal].
    rewrite nth_error_map, (nth_error_nth' _ 0%nat) by (rewrite seq_length; lia). rewrite seq_nth by lia. cbn [option_map map].
    rewrite IH by lia. f_equal. cbn [ext_sqrt]. rewrite Nat.add_0_l. destruct (Rlt_dec (v k k) 0) as [X|X]; [|reflexivity].
    specialize (POS k). lra || (exfalso; assert (0 <= v k k) by (apply POS; lia); lra). }
  apply (G n 0%nat). reflexivity.
Qed.

(** The residual task fixes every parameter of the store it was given, changes no value of it, and continues with a
    new store of its own. *)
Theorem C34_residual_task : forall o t w d res t' w', tk_class t = ResidualTask ->
  contents w (tk_parameters t) = Some d -> reachable (r_class (tk_parameters t)) d ->
  Task_run o (t, w) = (res, (t', w')) ->
  contents w' (tk_parameters t) = Some (map (fun p => mkPar (par_name p) (par_value p) true) d) /\
  (forall b, (b < length (w_lists w))%nat -> b <> r_data (tk_parameters t) ->
     nth_error (w_lists w') b = nth_error (w_lists w) b) /\
  (tk_parameters t' = tk_parameters t /\ (exists e, res = Err e) \/
   r_class (tk_parameters t') = POscillations /\ (length (w_lists w) <= r_data (tk_parameters t'))%nat /\
   (res = Ok (tk_parameters t') \/ exists e, res = Err e) /\
   exists a b c e, contents w' (tk_parameters t') =
     Some [mkPar "a" a false; mkPar "b" b false; mkPar "c" c false; mkPar "d" e false]%string).
Proof.
  intros o t w d res t' w' K S RC H. pose proof (reachable_inv _ _ RC) as I.
  pose proof (run_residual o t w d S I K) as RR.
  destruct (residuals t d) as [[eff x]|e].
  - destruct RR as (a & LA & RR). cbv zeta in RR. destruct RR as (res0 & rep & h' & evs & E & FR & S' & OUT).
    rewrite E in H. injection H as <- <- <-. unfold contents. simpl.
    split; [exact S'|]. split; [intros b L N; now apply FR|]. right.
    set (t1 := with_residuals (mkRef POscillations a) eff x t) in *.
    assert (T1 : tk_parameters t1 = mkRef POscillations a) by (unfold t1; destruct t, x as [[? ?] ?]; reflexivity).
    replace (tk_parameters (with_report rep t1)) with (tk_parameters t1) by now destruct t1.
    unfold outcome_ok in OUT. rewrite T1 in OUT. rewrite T1. split; [reflexivity|]. split; [exact LA|]. cbn [r_data] in *.
    assert (Z : forall y, nth_error h' a = Some (damped y) -> exists a0 b c e, nth_error h' a =
      Some [mkPar "a" a0 false; mkPar "b" b false; mkPar "c" c false; mkPar "d" e false]%string).
    { intros [[[a0 b0] c0] e0] Y. exists a0, b0, c0, e0. exact Y. }
    destruct (optimum _ _ _ _ _) as [[popt cov]|e].
    + destruct (Nat.eq_dec _ _) as [L|L].
      * destruct OUT as [SA OUT]. destruct (damped_fill (100, 2, 5, 0) popt L) as (y & FY). rewrite FY in SA.
        split; [|now apply (Z y)]. destruct (oscillation _ _) as [fs|e].
        -- cbv zeta in OUT. destruct (text_of _ _ _) as [chi|e]; [now destruct OUT as (A & _)|].
           destruct OUT as (-> & _). right. now eexists.
        -- destruct OUT as (-> & _). right. now eexists.
      * destruct OUT as (-> & _ & SA & _). split; [right; now eexists|]. now apply (Z (100, 2, 5, 0)).
    + destruct e; destruct OUT as (-> & _ & SA & _); (split; [first [left; reflexivity | right; now eexists]|now apply (Z (100, 2, 5, 0))]).
  - destruct RR as (h' & E & FR & S'). rewrite E in H. injection H as <- <- <-. unfold contents. simpl.
    split; [exact S'|]. split; [intros b L N; now apply FR|]. left. split; [reflexivity|now eexists].
Qed.

(** The tasks for the two auxiliary models fit a cross-section that does not exist: no run with data can succeed, and
    the exception is never the RuntimeError that would be reported. *)
Theorem C34_auxiliary_tasks_cannot_finish : forall o t w d, ready t w d ->
  r_class (tk_parameters t) = PETGMR \/ r_class (tk_parameters t) = PTwoPoles ->
  tk_class t = ETGMRTask \/ tk_class t = TwoPolesTask ->
  tk_ts t <> [] -> rp_status (tk_report t) = "started"%string ->
  rp_status (tk_report (fst (snd (Task_run o (t, w))))) <> "finished"%string.
Proof.
  intros o t w d (S & RC & K) CL KL NE ST0 ST1. pose proof (reachable_inv _ _ RC) as I.
  destruct (run_spec o t w d S I K) as (res & t' & h' & evs & E & ST & FR & OUT). rewrite E in ST1. cbn [fst snd] in ST1.
  set (d1 := prepared _ _ _) in *. unfold run_outcome in OUT.
  assert (BAD : tk_report t' = tk_report t -> False) by (intros Q; rewrite Q, ST0 in ST1; discriminate).
  destruct (fit_result _ _ _ _) as [[popt cov]|e].
  2: { destruct e; destruct OUT as (_ & RP & _); try exact (BAD RP). rewrite RP in ST1. discriminate. }
  destruct (Nat.eq_dec _ _) as [Q|Q]; [|destruct OUT as (_ & RP & _); exact (BAD RP)].
  destruct OUT as [_ OUT].
  assert (ER : exists e, closure_result (fitted_closure t d1) (tk_ts t) popt = Err e).
  { assert (G : forall m a hc, exists e, closure_result (CrossSectionOf m a hc (r_class (tk_parameters t), d1)) (tk_ts t) popt = Err e).
    { intros m a hc. cbn [closure_result]. unfold with_free_values. cbn [fst snd]. rewrite Q, Nat.eqb_refl. cbn [bind fst snd].
      destruct (buildable _ _); [|now eexists]. cbn [bind]. destruct (tk_ts t) as [|p ts]; [congruence|]. cbn [mapM].
      assert (P : exists e, cross_section_at (r_class (tk_parameters t)) m a hc (fill d1 popt) p = Err e).
      { unfold cross_section_at. destruct CL as [-> | ->]; cbn [family_of]; destruct (nucleon_point p); now eexists. }
      destruct P as (e & ->). now exists e. }
    assert (G' : exists e, closure_result (MisplacedOf (r_class (tk_parameters t), d1)) (tk_ts t) popt = Err e).
    { cbn [closure_result]. unfold with_free_values. cbn [fst snd]. rewrite Q, Nat.eqb_refl. cbn [bind fst snd].
      destruct (buildable _ _); [|now eexists]. cbn [bind]. destruct (tk_ts t) as [|p ts]; [congruence|].
      destruct CL as [-> | ->]; cbn [family_of mapM bind]; now eexists. }
    unfold fitted_closure, cross_section_closure. destruct KL as [-> | ->]; cbn [form_factor_task]; destruct (tk_numbers t); auto. }
  destruct ER as (e & ER). rewrite ER in OUT. destruct OUT as (_ & RP & _). exact (BAD RP).
Qed.

(** ** C35 *)

(** The store and the fitted function after [_set_up], for all tasks but the residual one. *)
Lemma set_up_spec : forall t w d res t' w', ready t w d -> Task_set_up (t, w) = (res, (t', w')) ->
  contents w' (tk_parameters t) = Some (prepared (tk_class t) (r_class (tk_parameters t)) d) /\
  match fit_data t with
  | Ok x => res = Ok tt /\ (tk_ts_fit t', tk_ys_fit t', tk_errors_fit t') = x
  | Err e => res = Err e
  end.
Proof.
  intros t w d res t' w' (S & RC & K) H. pose proof (reachable_inv _ _ RC) as I.
  pose proof (set_up_eq t w d S I K) as SU. pose proof (heap_store t w d S) as HS.
  rewrite restrict_eq in SU. rewrite SU in H. destruct (fit_data t) as [[[x y] z]|e]; cbn [bind] in H; injection H as <- <- <-;
    (split; [exact HS|]); [|reflexivity]. split; [reflexivity|]. destruct t; reflexivity.
Qed.

Definition free_names (d : data) : list string := map par_name (filter (fun p => negb (par_fixed p)) d).

Lemma prepared_free : forall k c d n, In n (free_names (prepared k c d)) <->
  exists p, In p d /\ par_name p = n /\ fixed_in_fit (frees k) c p = false.
Proof.
  intros k c d n. unfold free_names. rewrite in_map_iff. split.
  - intros (q & E & H). apply filter_In in H. destruct H as [H F]. apply in_map_iff in H. destruct H as (p & <- & Ip).
    exists p. split; [exact Ip|]. split; [exact E|]. now apply negb_true_iff in F.
  - intros (p & Ip & E & F). exists (mkPar (par_name p) (par_value p) (fixed_in_fit (frees k) c p)). split; [exact E|].
    apply filter_In. split; [|simpl; now rewrite F]. unfold prepared. apply in_map_iff. now exists p.
Qed.

Definition full_fit (k : task_class) : Prop :=
  In k [KCS_FullFit; KFF_FullFit; KFF_FullFitOnlyCharged; NCS_FullFit; NFF_FullFit].
Definition fixed_couplings_fit (k : task_class) : Prop := In k [KCS_FixedCoupling; NCS_FixedCoupling].
Definition as_given_fit (k : task_class) : Prop :=
  In k [KCS_FixAccording; KFF_FixAccording; KFF_FixAccordingOnlyCharged; NCS_FixAccording; NFF_FixAccording; ETGMRTask; TwoPolesTask].

(** The classes are exhausted by these three groups and the residual task. *)
Lemma task_classes : forall k, full_fit k \/ fixed_couplings_fit k \/ as_given_fit k \/ k = ResidualTask.
Proof. intros k. unfold full_fit, fixed_couplings_fit, as_given_fit. destruct k; simpl; tauto. Qed.

Lemma no_values_changed : forall k c d, map par_value (prepared k c d) = map par_value d /\
  map par_name (prepared k c d) = map par_name d.
Proof. intros k c d. unfold prepared. rewrite !map_map. split; reflexivity. Qed.

Theorem C35_full_fit : forall t w d res t' w', ready t w d -> full_fit (tk_class t) ->
  Task_set_up (t, w) = (res, (t', w')) ->
  exists d', contents w' (tk_parameters t) = Some d' /\
    map par_value d' = map par_value d /\ map par_name d' = map par_name d /\
    (forall n, In n (free_names d') <-> In n (map par_name d) /\ ~ In n (must_stay_fixed (r_class (tk_parameters t)))).
Proof.
  intros t w d res t' w' R K H. destruct (set_up_spec _ _ _ _ _ _ R H) as (S & _).
  eexists. split; [exact S|]. split; [apply no_values_changed|]. split; [apply no_values_changed|]. intros n.
  rewrite prepared_free. assert (F : frees (tk_class t) = FreesAll).
  { unfold full_fit in K. simpl in K. destruct K as [<-|[<-|[<-|[<-|[<-|[]]]]]]; reflexivity. }
  rewrite F. cbn [fixed_in_fit]. split.
  - intros (p & Ip & <- & M). split; [now apply in_map|]. intros Q. apply member_In in Q. congruence.
  - intros (Ip & Q). apply in_map_iff in Ip. destruct Ip as (p & <- & Ip). exists p. split; [exact Ip|]. split; [reflexivity|].
    destruct (member _ _) eqn:M; [|reflexivity]. apply member_In in M. contradiction.
Qed.

Theorem C35_fixed_couplings : forall t w d res t' w', ready t w d -> fixed_couplings_fit (tk_class t) ->
  Task_set_up (t, w) = (res, (t', w')) ->
  exists d', contents w' (tk_parameters t) = Some d' /\
    map par_value d' = map par_value d /\ map par_name d' = map par_name d /\
    (forall n, In n (free_names d') <-> In n (map par_name d) /\ ~ In n (must_stay_fixed (r_class (tk_parameters t))) /\
                                     forall rest, n <> String.append "a_" rest).
Proof.
  intros t w d res t' w' R K H. destruct (set_up_spec _ _ _ _ _ _ R H) as (S & _).
  eexists. split; [exact S|]. split; [apply no_values_changed|]. split; [apply no_values_changed|]. intros n.
  rewrite prepared_free. assert (F : frees (tk_class t) = FreesAllButCouplings).
  { unfold fixed_couplings_fit in K. simpl in K. destruct K as [<-|[<-|[]]]; reflexivity. }
  rewrite F. cbn [fixed_in_fit].
  assert (PX : forall x, starts "a_" x = true <-> exists rest, x = String.append "a_" rest).
  { intros x. unfold starts. destruct x as [|c1 x]; [split; [discriminate|intros (rest & Q); discriminate Q]|].
    destruct x as [|c2 x].
    - cbn [prefix]. destruct (ascii_dec _ _); (split; [discriminate|intros (rest & Q); discriminate Q]).
    - cbn [prefix]. split.
      + destruct (ascii_dec _ _) as [<-|]; [|discriminate]. destruct (ascii_dec _ _) as [<-|]; [|discriminate]. intros _. now exists x.
      + intros (rest & Q). injection Q as -> -> _. destruct (ascii_dec _ _); [|congruence]. destruct (ascii_dec _ _); [now destruct x|congruence]. }
  split.
  - intros (p & Ip & <- & M). apply orb_false_iff in M. destruct M as [M1 M2]. split; [now apply in_map|]. split.
    + intros Q. apply member_In in Q. congruence.
    + intros rest Q. assert (Z : starts "a_" (par_name p) = true) by (apply PX; now exists rest). congruence.
  - intros (Ip & Q & A). apply in_map_iff in Ip. destruct Ip as (p & <- & Ip). exists p. split; [exact Ip|]. split; [reflexivity|].
    apply orb_false_iff. split.
    + destruct (member _ _) eqn:M; [|reflexivity]. apply member_In in M. contradiction.
    + destruct (starts "a_" (par_name p)) eqn:M; [|reflexivity]. apply PX in M. destruct M as (rest & M). now elim (A rest).
Qed.

Theorem C35_as_given : forall t w d res t' w', ready t w d -> as_given_fit (tk_class t) ->
  Task_set_up (t, w) = (res, (t', w')) -> contents w' (tk_parameters t) = Some d.
Proof.
  intros t w d res t' w' R K H. destruct (set_up_spec _ _ _ _ _ _ R H) as (S & _). rewrite S. f_equal.
  assert (F : frees (tk_class t) = FreesNothingNew).
  { unfold as_given_fit in K. simpl in K. destruct K as [<-|[<-|[<-|[<-|[<-|[<-|[<-|[]]]]]]]]; reflexivity. }
  unfold prepared. rewrite F. cbn [fixed_in_fit]. rewrite <- (map_id d) at 2. apply map_ext. now intros [].
Qed.

(** The fit itself sees that store: its start values are those of the freed parameters in order. *)
Theorem C35_fit_sees_prepared_store : forall o t w d res t' w' x, ready t w d -> Task_run o (t, w) = (res, (t', w')) ->
  w_fits w' = w_fits w ++ [x] ->
  fi_store x = prepared (tk_class t) (r_class (tk_parameters t)) d /\
  fi_start x = map par_value (filter (fun p => negb (par_fixed p)) (fi_store x)) /\
  fit_data t = Ok (fi_points x, fi_values x, fi_sigma x).
Proof.
  intros o t w d res t' w' x R H E. rewrite (C34_one_fit _ _ _ _ _ _ _ R H) in E. apply app_inv_head in E.
  unfold fit_input in E. destruct (fit_data t) as [[[ts ys] es]|e]; cbn [bind] in E; [|discriminate].
  destruct (get_bounds _ _ _); cbn [bind] in E; [|discriminate]. injection E as <-. repeat split.
Qed.

(** Only the charged points are fitted, in their order. *)
Definition kaon_row (x : C * bool * R * R) : datapoint * R * R := let '(t, c, y, e) := x in (KaonDatapoint t c, y, e).

Lemma charged_rows_filter : forall rows, charged_rows (map kaon_row rows) =
  Ok (map kaon_row (filter (fun x => snd (fst (fst x))) rows)).
Proof.
  induction rows as [|[[[t c] y] e] rows IH]; [reflexivity|]. cbn [map kaon_row charged_rows filter fst snd]. rewrite IH. cbn [bind].
  destruct c; reflexivity.
Qed.

Lemma zipped_map : forall (rows : list (C * bool * R * R)),
  zipped (map (fun x => fst (fst (kaon_row x))) rows) (map (fun x => snd (fst (kaon_row x))) rows) (map (fun x => snd (kaon_row x)) rows) =
  map kaon_row rows.
Proof. induction rows as [|[[[t c] y] e] rows IH]; [reflexivity|]. cbn [map zipped]. rewrite IH. reflexivity. Qed.

Theorem C35_only_charged_points : forall t w d res t' w' (rows : list (C * bool * R * R)), ready t w d ->
  In (tk_class t) [KFF_FullFitOnlyCharged; KFF_FixAccordingOnlyCharged] ->
  tk_ts_fit t = map (fun x => KaonDatapoint (fst (fst (fst x))) (snd (fst (fst x)))) rows ->
  tk_ys_fit t = map (fun x => snd (fst x)) rows -> tk_errors_fit t = map snd rows ->
  Task_set_up (t, w) = (res, (t', w')) ->
  let charged := filter (fun x => snd (fst (fst x))) rows in
  match charged with
  | [] => res = Err ValueError
  | _ => res = Ok tt /\
      tk_ts_fit t' = map (fun x => KaonDatapoint (fst (fst (fst x))) true) charged /\
      tk_ys_fit t' = map (fun x => snd (fst x)) charged /\ tk_errors_fit t' = map snd charged
  end.
Proof.
  intros t w d res t' w' rows R K E1 E2 E3 H charged. destruct (set_up_spec _ _ _ _ _ _ R H) as (_ & FD).
  assert (CO : charged_only (tk_class t) = true) by (simpl in K; destruct K as [<-|[<-|[]]]; reflexivity).
  unfold fit_data in FD. rewrite CO in FD.
  assert (Z : zipped (tk_ts_fit t) (tk_ys_fit t) (tk_errors_fit t) = map kaon_row rows).
  { rewrite E1, E2, E3, <- zipped_map. f_equal; apply map_ext; now intros [[[? ?] ?] ?]. }
  rewrite Z, charged_rows_filter in FD. cbn [bind] in FD. fold charged in FD.
  destruct charged as [|x l] eqn:CH; [exact FD|]. rewrite <- CH in *.
  destruct (map kaon_row charged) as [|q m] eqn:MK; [rewrite CH in MK; discriminate|]. rewrite <- MK in FD.
  destruct FD as [RE FD]. split; [exact RE|]. injection FD as F1 F2 F3. rewrite F1, F2, F3, !map_map.
  split; [|split].
  - apply map_ext_in. intros [[[a b] y] e] Ix. unfold charged in Ix. apply filter_In in Ix. destruct Ix as [_ Ib]. simpl in Ib. now subst b.
  - apply map_ext. now intros [[[? ?] ?] ?].
  - apply map_ext. now intros [[[? ?] ?] ?].
Qed.

(** Points that are not kaon datapoints have no charge. *)
Theorem C35_only_charged_needs_charges : forall t w d res t' w', ready t w d ->
  In (tk_class t) [KFF_FullFitOnlyCharged; KFF_FixAccordingOnlyCharged] ->
  length (tk_ys_fit t) = length (tk_ts_fit t) -> length (tk_errors_fit t) = length (tk_ts_fit t) ->
  Exists (fun p => match p with KaonDatapoint _ _ => False | _ => True end) (tk_ts_fit t) ->
  Task_set_up (t, w) = (res, (t', w')) -> res = Err AttributeError.
Proof.
  intros t w d res t' w' R K L1 L2 X H. destruct (set_up_spec _ _ _ _ _ _ R H) as (_ & FD).
  assert (CO : charged_only (tk_class t) = true) by (simpl in K; destruct K as [<-|[<-|[]]]; reflexivity).
  unfold fit_data in FD. rewrite CO in FD.
  assert (Z : charged_rows (zipped (tk_ts_fit t) (tk_ys_fit t) (tk_errors_fit t)) = Err AttributeError).
  { clear - L1 L2 X. revert L1 L2. generalize (tk_ys_fit t) as ys, (tk_errors_fit t) as es.
    induction X as [p l B|p l X IH]; intros [|y ys] [|e es] L1 L2; try discriminate; simpl.
    - destruct p; [contradiction|reflexivity|reflexivity].
    - simpl in L1, L2. rewrite IH by lia. now destruct p. }
  rewrite Z in FD. exact FD.
Qed.

(** ** Concrete cases *)

(** Optimisers that evaluate the function once, at five: one subtracts three from the first value, one gives up. *)
Definition demo_oracle (reaction : nat -> FitInput -> Fit) (division : degenerate) : Oracle := {|
  o_fit := reaction; o_message := fun _ => "gave up"; o_sample := fun _ => []; o_exists := fun _ => false;
  o_mkdir := fun _ => true; o_render := fun _ => None; o_str := fun _ => "number"; o_division := fun _ => division;
  o_show_list := fun _ => ""; o_show_names := fun _ => ""; o_show_report := fun _ _ _ => ""; o_show_best := fun _ _ => "" |}%string.

Definition returns_seven (n : nat) (x : FitInput) : Fit :=
  FitCall [5] (fun ys => FitReturn [hd 0 ys - 3] [[Fin 4]]).
Definition gives_up (n : nat) (x : FitInput) : Fit := FitCall [5] (fun _ => FitRaise RuntimeError).

(** Two masses fixed, one constant free. *)
Definition demo_poles : data := [mkPar "a" 6 false; mkPar "m_1" 1 true; mkPar "m_2" 2 true]%string.

Lemma demo_poles_reachable : reachable PTwoPoles demo_poles.
Proof.
  assert (H : construct PTwoPoles [("a", 6); ("m_1", 1); ("m_2", 2)]%string =
    Ok [mkPar "a" 6 false; mkPar "m_1" 1 false; mkPar "m_2" 2 false]%string) by reflexivity.
  change demo_poles with (snd (mutate PTwoPoles (MFix ["m_1"; "m_2"]%string)
    [mkPar "a" 6 false; mkPar "m_1" 1 false; mkPar "m_2" 2 false]%string)).
  apply reach_step. eapply reach_init. exact H.
Qed.

Definition demo_point : datapoint := NucleonDatapoint (RtoC 2) true true.

Definition demo_task (k : task_class) (points : list datapoint) (ys errors : list R) : Task :=
  mkTask k "demo" (mkRef PTwoPoles 0%nat) None points ys errors points ys errors false true None 0 0 0 true None
    (mkReport "demo" 1%nat None None None None None "started" None [])%string.
Definition demo_world : World := mkWorld [demo_poles; demo_poles] 0%nat 0%nat [] [].

Lemma demo_ready : forall points ys errors, ready (demo_task NFF_FixAccording points ys errors) demo_world demo_poles.
Proof. intros. split; [reflexivity|]. split; [exact demo_poles_reachable|discriminate]. Qed.

Lemma demo_value : forall a, a <> 0 ->
  TwoPolesModel_call (TwoPolesModel_init a 1 2) (RtoC 2) = Ok (RtoC (- (2 * a))).
Proof.
  intros a Ha. destruct (proj2 (C33_twopoles_exact a 1 2 (RtoC 2) ltac:(lra) ltac:(lra))) as [v [E F]].
  - intros E. apply RtoC_inj in E. lra.
  - intros E. apply RtoC_inj in E. lra.
  - rewrite E. f_equal.
    match type of F with Cmul _ ?d = _ =>
      replace d with (RtoC (-1/2)) in F by (Cext; unfold Cnorm2; simpl; field) end.
    transitivity (Cmul (Cmul v (RtoC (-1/2))) (RtoC (-2))); [Cext; field|]. rewrite F. Cext; field.
Qed.

Lemma demo_closure : forall a p points, 0 < a ->
  Forall (fun q => nucleon_point q = Some (RtoC 2, true, true)) (p :: points) ->
  closure_result (FormFactorOf (PTwoPoles, demo_poles)) (p :: points) [a] = Ok (map (fun _ => 2 * a) (p :: points)).
Proof.
  intros a p points Ha F. change (closure_result (FormFactorOf (PTwoPoles, demo_poles)) (p :: points) [a]) with
    (mapM (form_factor_at PTwoPoles (fill demo_poles [a])) (p :: points)).
  assert (V : Cabs (RtoC (- (2 * a))) = 2 * a).
  { rewrite Cabs_RtoC. rewrite Rabs_left; lra. }
  induction F as [|q l Q F IH]; [reflexivity|]. cbn [mapM map].
  assert (FF : form_factor_at PTwoPoles (fill demo_poles [a]) q = Ok (2 * a)).
  { unfold form_factor_at. cbn [family_of]. rewrite Q.
    change (bind (TwoPolesModel_call (TwoPolesModel_init a 1 2) (RtoC 2)) (fun v => Ok (Cabs v)) = Ok (2 * a)).
    rewrite demo_value by lra. cbn [bind]. now rewrite V. }
  rewrite FF. cbn [bind]. now rewrite IH.
Qed.

Lemma demo_fit : forall reaction division ys errors args f, reaction = (fun (n : nat) (x : FitInput) => FitCall [args] f) -> 0 < args ->
  let t := demo_task NFF_FixAccording [demo_point; demo_point] ys errors in
  fit_result (demo_oracle reaction division) 0 t demo_poles =
  optimise (fun a => bind (mapM array_of [demo_point; demo_point]) (fun rows => closure_result (FormFactorOf (PTwoPoles, demo_poles)) rows a))
    (f [2 * args; 2 * args]).
Proof.
  intros reaction division ys errors args f -> P t. unfold fit_result, fit_input. cbn [fit_data t demo_task tk_class charged_only bind].
  destruct (get_bounds (r_class (tk_parameters t)) (tk_handpicked t) demo_poles) as [bounds|e] eqn:GB.
  2: { exfalso. cbn in GB. discriminate. }
  cbn [bind]. cbn [o_fit demo_oracle optimise fi_points].
  change (tk_ts_fit t) with [demo_point; demo_point].
  assert (AR : mapM array_of [demo_point; demo_point] = Ok [Row [RtoC 2; RtoC 1; RtoC 1]; Row [RtoC 2; RtoC 1; RtoC 1]]).
  { unfold demo_point. cbn [mapM array_of]. simpl Im. destruct (Req_EM_T 0 0); [reflexivity|congruence]. }
  change (fitted_closure t demo_poles) with (FormFactorOf (PTwoPoles, demo_poles)).
  rewrite AR. cbn [bind]. rewrite demo_closure; [reflexivity|exact P|].
  assert (N : nucleon_point (Row [RtoC 2; RtoC 1; RtoC 1]) = Some (RtoC 2, true, true)).
  { unfold nucleon_point, nonzero. destruct (C_eq_dec (RtoC 1) (RtoC 0)) as [Q|Q]; [apply RtoC_inj in Q; lra|reflexivity]. }
  repeat constructor; exact N.
Qed.

(** Two measurements, one free parameter: chi-squared (12 - 14)^2 + ((15 - 14)/2)^2 = 17/4. *)
Example C34_instance :
  let t := demo_task NFF_FixAccording [demo_point; demo_point] [12; 15] [1; 2] in
  let o := demo_oracle returns_seven DivRaises in
  exists t' w', Task_run o (t, demo_world) = (Ok (mkRef PTwoPoles 0%nat), (t', w')) /\
    contents w' (mkRef PTwoPoles 0%nat) = Some [mkPar "a" 7 false; mkPar "m_1" 1 true; mkPar "m_2" 2 true]%string /\
    nth_error (w_lists w') 1 = Some demo_poles /\ rp_status (tk_report t') = "finished"%string /\
    reduced_chi_squared [12; 15] [14; 14] [1; 2] 1 = 17/4.
Proof.
  intros t o. pose proof (demo_ready [demo_point; demo_point] [12; 15] [1; 2]) as R.
  assert (P : prepared NFF_FixAccording PTwoPoles demo_poles = demo_poles) by reflexivity.
  assert (FE : fit_result o 0 t demo_poles = Ok ([2 * 5 - 3], [[Fin 4]])).
  { unfold o, t. rewrite (demo_fit returns_seven DivRaises [12; 15] [1; 2] 5 (fun ys => FitReturn [hd 0 ys - 3] [[Fin 4]]) eq_refl); [reflexivity|lra]. }
  replace (2 * 5 - 3) with 7 in FE by lra.
  assert (CL : closure_result (FormFactorOf (PTwoPoles, demo_poles)) [demo_point; demo_point] [7] = Ok [2 * 7; 2 * 7]).
  { apply demo_closure; [lra|]. repeat constructor. }
  destruct (C34_success o t demo_world demo_poles [7] [[Fin 4]] [2 * 7; 2 * 7] R FE eq_refl CL (conj eq_refl eq_refl))
    as (res & t' & w' & d' & E & WF & ST & FI & _ & NP).
  { repeat constructor; lra. }
  { discriminate. }
  rewrite (NP (or_introl eq_refl)) in E. exists t', w'. split; [exact E|]. split; [|split; [|split]].
  - change (contents w' (mkRef PTwoPoles 0%nat)) with (contents w' (tk_parameters t)). rewrite ST. f_equal.
    injection WF as <-. reflexivity.
  - destruct (C34_frame o t demo_world demo_poles _ _ _ R E) as (_ & _ & F & _). rewrite F; [reflexivity|simpl; lia|discriminate].
  - apply FI.
  - unfold reduced_chi_squared. simpl. lra.
Qed.

(** An error bar of zero: the division raises after the optimum has been stored. *)
Example C34_degenerate_instance :
  let t := demo_task NFF_FixAccording [demo_point; demo_point] [12; 15] [1; 0] in
  exists t' w', Task_run (demo_oracle returns_seven DivRaises) (t, demo_world) = (Err ZeroDivisionError, (t', w')) /\
    contents w' (mkRef PTwoPoles 0%nat) = Some [mkPar "a" 7 false; mkPar "m_1" 1 true; mkPar "m_2" 2 true]%string.
Proof.
  intros t. set (o := demo_oracle returns_seven DivRaises).
  pose proof (demo_ready [demo_point; demo_point] [12; 15] [1; 0]) as R.
  assert (FE : fit_result o 0 t demo_poles = Ok ([2 * 5 - 3], [[Fin 4]])).
  { unfold o, t. rewrite (demo_fit returns_seven DivRaises [12; 15] [1; 0] 5 (fun ys => FitReturn [hd 0 ys - 3] [[Fin 4]]) eq_refl); [reflexivity|lra]. }
  replace (2 * 5 - 3) with 7 in FE by lra.
  assert (CL : closure_result (FormFactorOf (PTwoPoles, demo_poles)) [demo_point; demo_point] [7] = Ok [2 * 7; 2 * 7]).
  { apply demo_closure; [lra|]. repeat constructor. }
  destruct (success_cases o t demo_world demo_poles [7] [[Fin 4]] [2 * 7; 2 * 7] R FE eq_refl CL) as (res & t' & h' & evs & E & ST & OUT).
  rewrite chi_degenerate in OUT; [|reflexivity|reflexivity|left; simpl; right; left; reflexivity].
  destruct OUT as [-> _]. eexists _, _. split; [exact E|]. exact ST.
Qed.

(** An optimiser that gives up. *)
Example C34_failure_instance :
  let t := demo_task NFF_FixAccording [demo_point; demo_point] [12; 15] [1; 2] in
  exists t' w', Task_run (demo_oracle gives_up DivRaises) (t, demo_world) = (Ok (mkRef PTwoPoles 0%nat), (t', w')) /\
    contents w' (mkRef PTwoPoles 0%nat) = Some demo_poles /\ rp_status (tk_report t') = "failed"%string /\
    rp_message (tk_report t') = Some "gave up"%string.
Proof.
  intros t. set (o := demo_oracle gives_up DivRaises).
  pose proof (demo_ready [demo_point; demo_point] [12; 15] [1; 2]) as R.
  assert (FE : fit_result o 0 t demo_poles = Err RuntimeError).
  { unfold o, t. rewrite (demo_fit gives_up DivRaises [12; 15] [1; 2] 5 (fun _ => FitRaise RuntimeError) eq_refl); [reflexivity|lra]. }
  destruct (C34_runtime_error o t demo_world demo_poles R FE) as (t' & w' & E & ST & _ & S1 & S2 & _).
  exists t', w'. split; [exact E|]. split; [exact ST|]. split; [exact S1|exact S2].
Qed.

(** Three kaon points, the second one neutral. *)
Example C35_instance :
  let points := [KaonDatapoint (RtoC 1) true; KaonDatapoint (RtoC 2) false; KaonDatapoint (RtoC 3) true] in
  let t := demo_task KFF_FullFitOnlyCharged points [10; 20; 30] [1; 2; 3] in
  (exists t' w', Task_set_up (t, demo_world) = (Ok tt, (t', w')) /\
     tk_ts_fit t' = [KaonDatapoint (RtoC 1) true; KaonDatapoint (RtoC 3) true] /\ tk_ys_fit t' = [10; 30] /\
     tk_errors_fit t' = [1; 3] /\
     contents w' (mkRef PTwoPoles 0%nat) = Some [mkPar "a" 6 false; mkPar "m_1" 1 false; mkPar "m_2" 2 false]%string) /\
  fst (Task_set_up (demo_task KFF_FullFitOnlyCharged [KaonDatapoint (RtoC 2) false] [20] [2], demo_world)) = Err ValueError.
Proof.
  intros points t. split.
  - destruct (Task_set_up (t, demo_world)) as [res [t' w']] eqn:E.
    assert (R : ready t demo_world demo_poles) by (split; [reflexivity|]; split; [exact demo_poles_reachable|discriminate]).
    destruct (C35_only_charged_points t demo_world demo_poles res t' w'
      [(RtoC 1, true, 10, 1); (RtoC 2, false, 20, 2); (RtoC 3, true, 30, 3)] R (or_introl eq_refl) eq_refl eq_refl eq_refl E)
      as (-> & A & B & D).
    exists t', w'. split; [reflexivity|]. split; [exact A|]. split; [exact B|]. split; [exact D|].
    destruct (set_up_spec _ _ _ _ _ _ R E) as (S & _). exact S.
  - set (t0 := demo_task _ _ _ _). destruct (Task_set_up (t0, demo_world)) as [res [t' w']] eqn:E.
    assert (R : ready t0 demo_world demo_poles) by (split; [reflexivity|]; split; [exact demo_poles_reachable|discriminate]).
    exact (C35_only_charged_points t0 demo_world demo_poles res t' w' [(RtoC 2, false, 20, 2)] R (or_introl eq_refl) eq_refl eq_refl eq_refl E).
Qed.

Print Assumptions C34_frame.
Print Assumptions C34_one_fit.
Print Assumptions C34_runtime_error.
Print Assumptions C34_other_exceptions_propagate.
Print Assumptions C34_wrong_number_of_values.
Print Assumptions C34_success.
Print Assumptions C34_plot.
Print Assumptions C34_degenerate.
Print Assumptions C34_model_raises_at_optimum.
Print Assumptions C34_parameter_errors.
Print Assumptions C34_residual_task.
Print Assumptions C34_auxiliary_tasks_cannot_finish.
Print Assumptions C35_full_fit.
Print Assumptions C35_fixed_couplings.
Print Assumptions C35_as_given.
Print Assumptions C35_fit_sees_prepared_store.
Print Assumptions C35_only_charged_points.
Print Assumptions C35_only_charged_needs_charges.
