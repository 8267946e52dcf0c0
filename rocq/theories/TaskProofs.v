(** The methods of a task against their specification. *)
From Coq Require Import String Ascii Reals List Bool Arith Lia Lra.
From Verif Require Import PyBase CNum PyExpr OtherModels Params ParamClasses ParamSpec ParamProofs PropsParams CrossSections CommonUtils
  UtilsSpec UtilsProofs Scripts World WorldSpec WorldProofs DataSets Task TaskSpec.
Import ListNotations.
Local Open Scope R_scope.
Local Open Scope list_scope.

(** ** Small facts *)

Lemma mbind_ok : forall S A B (x : M S A) (f : A -> M S B) s a s', x s = (Ok a, s') -> mbind x f s = f a s'.
Proof. intros S A B x f s a s' H. unfold mbind. now rewrite H. Qed.
Lemma mbind_err : forall S A B (x : M S A) (f : A -> M S B) s e s', x s = (Err e, s') -> mbind x f s = (Err e, s').
Proof. intros S A B x f s a s' H. unfold mbind. now rewrite H. Qed.
Lemma inW_eq : forall A (m : W A) t w r w', m w = (r, w') -> inW m (t, w) = (r, (t, w')).
Proof. intros A m t w r w' H. unfold inW. simpl. now rewrite H. Qed.

Lemma member_In : forall n l, member n l = true <-> In n l.
Proof.
  intros n l. unfold member. rewrite existsb_exists. split.
  - intros (x & I & E). apply String.eqb_eq in E. now subst.
  - intros I. exists n. split; [exact I|apply String.eqb_refl].
Qed.

Lemma member_str_in : forall n c, member n (must_stay_fixed c) = str_in n (always_fixed c).
Proof.
  intros n c. apply eq_iff_eq_true. rewrite member_In, str_in_In. apply must_stay_fixed_eq.
Qed.

Lemma coupling_prefix : forall n, is_coupling n = starts "a_" n.
Proof.
  intros n. apply eq_iff_eq_true. unfold is_coupling, starts. rewrite String.eqb_eq, prefix_correct. reflexivity.
Qed.

Lemma array_row_of : forall p, array_row p = array_of p.
Proof.
  intros [t c|t a b|xs]; unfold array_row, array_of; simpl.
  - unfold as_float at 1. destruct (Req_EM_T (Im t) 0); [|reflexivity]. cbn [bind]. unfold as_float. simpl.
    destruct (Req_EM_T 0 0); [reflexivity|congruence].
  - unfold as_float at 1. destruct (Req_EM_T (Im t) 0); [|reflexivity]. cbn [bind]. unfold as_float. simpl.
    destruct (Req_EM_T 0 0); [reflexivity|congruence].
  - assert (E : mapM (fun x => if Req_EM_T (Im x) 0 then Ok (RtoC (Re x)) else Err TypeError) xs =
                bind (mapM as_float xs) (fun ys => Ok (map RtoC ys))).
    { induction xs as [|x xs IH]; [reflexivity|]. simpl. unfold as_float at 1. destruct (Req_EM_T (Im x) 0); [|reflexivity].
      cbn [bind]. rewrite IH. destruct (mapM as_float xs); reflexivity. }
    rewrite E. destruct (mapM as_float xs); reflexivity.
Qed.

(** ** Frames *)

Lemma frame_refl : forall P h, frame P h h.
Proof. intros P h. split; auto. Qed.

Lemma frame_trans : forall P h h' h'', frame P h h' -> frame P h' h'' -> frame P h h''.
Proof.
  intros P h h' h'' (L & E) (L' & E'). split; [lia|]. intros b B N. rewrite E' by (auto; lia). auto.
Qed.

Lemma frame_weaken : forall (P Q : addr -> Prop) h h', (forall b, (b < length h)%nat -> P b -> Q b) -> frame P h h' -> frame Q h h'.
Proof. intros P Q h h' I (L & E). split; [exact L|]. intros b B N. apply E; auto. Qed.

Lemma frame_replace : forall (P : addr -> Prop) h a d, P a -> frame P h (replace h a d).
Proof.
  intros P h a d H. split; [rewrite replace_length; lia|]. intros b B N. apply nth_replace_other. intros ->. auto.
Qed.

Lemma frame_app : forall P h x, frame P h (h ++ x).
Proof. intros P h x. split; [rewrite app_length; lia|]. intros b B N. now rewrite nth_error_app1. Qed.

Lemma frame_keeps : forall P h h' a d, frame P h h' -> ~ P a -> nth_error h a = Some d -> nth_error h' a = Some d.
Proof.
  intros P h h' a d (L & E) N H. rewrite E; [exact H| |exact N]. apply nth_error_Some. congruence.
Qed.

(** ** Set-up *)

Lemma prepared_names : forall k c d, names (prepared k c d) = names d.
Proof. intros k c d. unfold names, prepared. rewrite map_map. reflexivity. Qed.

Lemma prepared_inv : forall k c d, inv c d -> inv c (prepared k c d).
Proof.
  intros k c d (N & A). split; [now rewrite prepared_names|].
  intros p I F. apply in_map_iff in I. destruct I as (q & <- & Q). simpl in *. unfold fixed_in_fit.
  assert (F' : member (par_name q) (must_stay_fixed c) = true) by (rewrite member_str_in; now apply str_in_In).
  destruct (frees k); [exact F'|now rewrite F'|auto].
Qed.

Lemma release_all_prepared : forall k c d, inv c d -> frees k = FreesAll -> release_all (always_fixed c) d = prepared k c d.
Proof.
  intros k c d (_ & A) F. unfold release_all, prepared. apply map_ext_in. intros p I. rewrite F. simpl. rewrite member_str_in.
  destruct (str_in (par_name p) (always_fixed c)) eqn:E; [|reflexivity].
  rewrite <- (A p I) by now apply str_in_In. now destruct p.
Qed.

Lemma couplings_prepared : forall k c d, inv c d -> frees k = FreesAllButCouplings ->
  let d' := release_all (always_fixed c) d in
  mutate c (MFix (filter is_coupling (map par_name d'))) d' = (Ok tt, prepared k c d).
Proof.
  intros k c d I F d'. cbn [mutate]. unfold fix_parameters.
  assert (ND : NoDup (names d')).
  { unfold d'. rewrite release_all_names. destruct I as (-> & _). apply class_names_NoDup. }
  rewrite set_flags_known; [|exact ND|].
  - f_equal. unfold d', release_all. unfold prepared. rewrite map_map. apply map_ext_in. intros p Ip. rewrite F. simpl.
    rewrite member_str_in. destruct I as (N & A).
    set (q := if str_in (par_name p) (always_fixed c) then p else mkPar (par_name p) (par_value p) false).
    assert (Q : par_name q = par_name p) by (unfold q; now destruct (str_in _ _)). rewrite Q.
    assert (Z : str_in (par_name p) (filter is_coupling (map par_name (release_all (always_fixed c) d))) = starts "a_" (par_name p)).
    { apply eq_iff_eq_true. rewrite str_in_In, filter_In, coupling_prefix.
      change (map par_name (release_all (always_fixed c) d)) with (names (release_all (always_fixed c) d)).
      rewrite release_all_names. split; [tauto|]. intros H. split; [|exact H]. now apply in_map. }
    unfold release_all in Z. rewrite Z. unfold q. destruct (str_in (par_name p) (always_fixed c)) eqn:S.
    + assert (B : par_fixed p = true) by (apply A; [exact Ip|now apply str_in_In]).
      destruct (starts "a_" (par_name p)); unfold with_flag; [reflexivity|]. simpl orb. rewrite <- B. now destruct p.
    + simpl. destruct (starts "a_" (par_name p)); reflexivity.
  - intros n H. apply filter_In in H. apply H.
Qed.

(** The rows that are fitted. *)
Definition rows_of (t : Task) : list (datapoint * R * R) := zip3 (tk_ts_fit t) (tk_ys_fit t) (tk_errors_fit t).

Definition restrict (t : Task) : Res Task :=
  if charged_only (tk_class t)
  then bind (filterM (fun row => attr_is_charged (fst (fst row))) (rows_of t)) (fun rows =>
       bind (unzip3 rows) (fun x => Ok (with_fit_data x t)))
  else Ok t.

Section SetUp.
Variables (t : Task) (w : World) (d : data).
Notation r := (tk_parameters t).
Notation c := (r_class (tk_parameters t)).
Hypothesis stored : nth_error (w_lists w) (r_data r) = Some d.
Hypothesis ok : inv c d.
Hypothesis common : tk_class t <> ResidualTask.

Let d1 := prepared (tk_class t) c d.
Let h1 := replace (w_lists w) (r_data r) d1 ++ [d1; d1].
Let private := S (length (w_lists w)).

Definition cross_section_partial (q : Ref) : Partial :=
  if tk_numbers t then PartialCrossSection (tk_mass t) (tk_alpha t) (tk_hc_squared t) q else PartialMisplaced q.

Definition own_partial : Partial :=
  let q := mkRef c private in
  if form_factor_task (tk_class t) then PartialFormFactor q
  else match tk_class t with
       | TwoPolesTask => PartialCrossSection 0 0 0 q
       | _ => cross_section_partial q
       end.

Lemma make_cs : forall m a hc, make_partial_cross_section_for_parameters m a hc r
  (set_lists (replace (w_lists w) (r_data r) d1) w) = (Ok (PartialCrossSection m a hc (mkRef c private)), set_lists h1 w).
Proof.
  intros m a hc. unfold make_partial_cross_section_for_parameters, mbind.
  rewrite (obj_copy_eq r d1).
  - simpl. rewrite replace_length. reflexivity.
  - simpl. eapply nth_replace_same. exact stored.
  - now apply prepared_inv.
Qed.

Lemma make_own : own_cross_section t (set_lists (replace (w_lists w) (r_data r) d1) w) =
  (Ok (cross_section_partial (mkRef c private)), set_lists h1 w).
Proof.
  unfold own_cross_section, cross_section_partial. destruct (tk_numbers t); [apply make_cs|].
  unfold make_partial_misplaced, mbind. rewrite (obj_copy_eq r d1).
  - simpl. rewrite replace_length. reflexivity.
  - simpl. eapply nth_replace_same. exact stored.
  - now apply prepared_inv.
Qed.

Lemma make_ff : make_partial_form_factor_for_parameters r
  (set_lists (replace (w_lists w) (r_data r) d1) w) = (Ok (PartialFormFactor (mkRef c private)), set_lists h1 w).
Proof.
  unfold make_partial_form_factor_for_parameters, mbind.
  rewrite (obj_copy_eq r d1).
  - simpl. rewrite replace_length. reflexivity.
  - simpl. eapply nth_replace_same. exact stored.
  - now apply prepared_inv.
Qed.

Lemma release_eq : forall t', tk_parameters t' = r ->
  release_all_parameters (t', w) = (Ok tt, (t', set_lists (replace (w_lists w) (r_data r) (release_all (always_fixed c) d)) w)).
Proof.
  intros t' E. unfold release_all_parameters, mbind, self. simpl fst. rewrite E.
  unfold inW. simpl snd. rewrite (obj_mutate_eq _ _ _ _ stored). reflexivity.
Qed.

Lemma same_start : frees (tk_class t) = FreesNothingNew -> set_lists (replace (w_lists w) (r_data r) d1) w = w.
Proof.
  intros F. unfold d1, prepared. rewrite F. simpl.
  replace (map (fun p => mkPar (par_name p) (par_value p) (par_fixed p)) d) with d.
  - rewrite replace_id by exact stored. apply set_lists_same.
  - rewrite <- (map_id d) at 1. apply map_ext. now intros [].
Qed.

Lemma only_charged_eq : forall t' w', tk_class t' = tk_class t -> charged_only (tk_class t) = true ->
  only_charged (t', w') = match restrict t' with Ok t'' => (Ok tt, (t'', w')) | Err e => (Err e, (t', w')) end.
Proof.
  intros t' w' E Q. unfold restrict. rewrite E, Q. unfold only_charged, mbind, self, lift. simpl fst. unfold rows_of.
  destruct (filterM _ _) as [rows|e]; [|reflexivity]. cbn [bind]. destruct (unzip3 rows) as [x|e]; reflexivity.
Qed.

Theorem set_up_eq : Task_set_up (t, w) =
  match restrict (with_f (Common own_partial) t) with
  | Ok t' => (Ok tt, (t', set_lists h1 w))
  | Err e => (Err e, (with_f (Common own_partial) t, set_lists h1 w))
  end.
Proof.
  assert (CS : partial_cross_section (t, set_lists (replace (w_lists w) (r_data r) d1) w) =
    (Ok tt, (with_f (Common (cross_section_partial (mkRef c private))) t, set_lists h1 w))).
  { unfold partial_cross_section, mbind, self. simpl fst. rewrite (inW_eq _ _ _ _ _ _ make_own). reflexivity. }
  assert (FF : partial_form_factor (t, set_lists (replace (w_lists w) (r_data r) d1) w) =
    (Ok tt, (with_f (Common (PartialFormFactor (mkRef c private))) t, set_lists h1 w))).
  { unfold partial_form_factor, mbind, self. simpl fst. rewrite (inW_eq _ _ _ _ _ _ make_ff). reflexivity. }
  assert (RA : frees (tk_class t) = FreesAll ->
    release_all_parameters (t, w) = (Ok tt, (t, set_lists (replace (w_lists w) (r_data r) d1) w))).
  { intros F. rewrite release_eq by reflexivity. now rewrite (release_all_prepared _ _ _ ok F). }
  assert (FC : frees (tk_class t) = FreesAllButCouplings ->
    fix_couplings (t, set_lists (replace (w_lists w) (r_data r) (release_all (always_fixed c) d)) w) =
    (Ok tt, (t, set_lists (replace (w_lists w) (r_data r) d1) w))).
  { intros F. pose proof (couplings_prepared _ _ _ ok F) as K. cbv zeta in K.
    assert (S' : nth_error (w_lists (set_lists (replace (w_lists w) (r_data r) (release_all (always_fixed c) d)) w)) (r_data r) =
      Some (release_all (always_fixed c) d)) by (simpl; eapply nth_replace_same; exact stored).
    unfold fix_couplings, mbind, self. simpl fst. unfold inW at 1. unfold obj_read, mbind. simpl snd. rewrite (read_ok _ _ _ S').
    unfold lift. unfold inW. simpl snd. rewrite (obj_mutate_eq _ _ _ _ S'). rewrite K. simpl. rewrite replace_replace. reflexivity. }
  assert (PF : form_factor_task (tk_class t) = true -> own_partial = PartialFormFactor (mkRef c private))
    by (intros E; unfold own_partial; now rewrite E).
  unfold Task_set_up. erewrite mbind_ok by reflexivity. simpl fst.
  assert (NR : charged_only (tk_class t) = false -> restrict (with_f (Common own_partial) t) = Ok (with_f (Common own_partial) t)).
  { intros E. unfold restrict. replace (tk_class (with_f (Common own_partial) t)) with (tk_class t) by now destruct t. now rewrite E. }
  assert (OC : forall x, charged_only (tk_class t) = true -> only_charged (with_f (Common own_partial) t, x) =
    match restrict (with_f (Common own_partial) t) with
    | Ok t'' => (Ok tt, (t'', x)) | Err e => (Err e, (with_f (Common own_partial) t, x)) end).
  { intros x E. apply only_charged_eq; [now destruct t|exact E]. }
  cbn [fst]. pose proof same_start as SS0. pose proof (make_cs 0 0 0) as MC. pose proof release_eq as RE.
  unfold own_partial in *. clearbody h1. clearbody d1.
  destruct (tk_class t) eqn:K; try contradiction; cbn [frees form_factor_task charged_only] in *;
    try (rewrite NR by reflexivity);
    try (rewrite (mbind_ok _ _ _ _ _ _ _ _ (RA eq_refl)));
    try (rewrite (mbind_ok _ _ _ _ _ _ _ _ (RE t eq_refl)), (mbind_ok _ _ _ _ _ _ _ _ (FC eq_refl)));
    try (rewrite CS; reflexivity);
    try (rewrite FF; reflexivity);
    try (rewrite (mbind_ok _ _ _ _ _ _ _ _ FF); apply OC; reflexivity);
    pose proof (SS0 eq_refl) as SS;
    try (rewrite <- SS at 1; rewrite CS; reflexivity);
    try (rewrite <- SS at 1; rewrite FF; reflexivity);
    try (rewrite <- SS at 1; rewrite (mbind_ok _ _ _ _ _ _ _ _ FF); apply OC; reflexivity).
  rewrite <- SS at 1. rewrite (mbind_ok _ _ _ _ _ _ _ _ (inW_eq _ _ _ _ _ _ MC)). reflexivity.
Qed.

(** The heap after set-up. *)
Lemma heap_store : nth_error h1 (r_data r) = Some d1.
Proof.
  unfold h1. apply nth_extend. eapply nth_replace_same. exact stored.
Qed.

Lemma heap_partial : partial_rel h1 own_partial (fitted_closure t d1).
Proof.
  assert (N : nth_error h1 private = Some d1).
  { unfold h1, private. rewrite <- (replace_length (w_lists w) (r_data r) d1). apply nth_alloc2. }
  assert (I : inv c d1) by now apply prepared_inv.
  unfold own_partial, fitted_closure, cross_section_partial, cross_section_closure. destruct (form_factor_task (tk_class t));
    [|destruct (tk_class t), (tk_numbers t)]; (split; [simpl; auto|]); (split; [reflexivity|]); (split; [exact I|]);
    exists d1; (split; [exact N|apply shifted_refl]).
Qed.

Lemma heap_frame : frame (fun b => b = r_data r) (w_lists w) h1.
Proof.
  unfold h1. apply frame_trans with (replace (w_lists w) (r_data r) d1); [now apply frame_replace|apply frame_app].
Qed.

Lemma own_partial_addr : r_data (partial_ref own_partial) = private.
Proof. unfold own_partial, cross_section_partial. destruct (form_factor_task (tk_class t)); [reflexivity|]. now destruct (tk_class t), (tk_numbers t). Qed.
End SetUp.

(** ** From the fit to the end of [run] *)

(** ** Plotting *)

(** What plotting the values [fits] comes to after [n] events. *)
Definition plot_result (o : Oracle) (t : Task) (fits : list R) (n : nat) : Res unit :=
  match tk_reports_dir t with
  | None | Some ""%string => Ok tt
  | Some _ =>
      bind match style_of (tk_class t) with
           | SeriesCs => bind (series_neutral_plus_charged (tk_ts t) (tk_ys t) (tk_errors t) fits) (fun _ => Ok tt)
           | SeriesFf => bind (series_neutral_plus_charged (tk_ts t) (tk_ys t) (tk_errors t) fits) needs_series
           | PlainCs => bind (mapM attr_t (tk_ts t)) (fun _ => Ok tt)
           | SeriesElectric => bind (series_electric_plus_magnetic (tk_ts t) (tk_ys t) (tk_errors t) fits) needs_series
           | ResidualPlot => bind (mapM attr_t (match tk_effective t with Some e => ef_ts e | None => [] end)) (fun _ =>
               bind (mapM attr_t (tk_ts t)) (fun _ => Ok tt))
           end (fun _ => match o_render o n with Some e => Err e | None => Ok tt end)
  end.

Definition plot_events (t : Task) (res : Res unit) : list event :=
  match tk_reports_dir t, res with
  | Some (String a r), Ok _ => [EvPlot (path_join (String a r) (lower (tk_name t) ++ ".png")%string)]
  | _, _ => []
  end.

Definition plotting (o : Oracle) (t : Task) (fits : list R) (n : nat) (res : Res Ref) (evs : list event) : Prop :=
  res = match plot_result o t fits n with Ok _ => Ok (tk_parameters t) | Err e => Err e end /\
  evs = plot_events t (plot_result o t fits n).

Lemma plotting_nowhere : forall o t fits n res evs, plotting o t fits n res evs ->
  (tk_reports_dir t = None \/ tk_reports_dir t = Some ""%string) -> res = Ok (tk_parameters t).
Proof. intros o t fits n res evs [H _] D. rewrite H. unfold plot_result. now destruct D as [-> | ->]. Qed.

Section After.
Variable o : Oracle.
Variable t : Task.
Notation r := (tk_parameters t).
Notation c := (r_class (tk_parameters t)).
Variable d1 : data.
Hypothesis ok : inv c d1.
Variable F : list datapoint -> list R -> Res (list R).
Variable I : list data -> Prop.
Variable Pv : addr -> Prop.

(** The function to be fitted has the value [F] and touches nothing but private objects. *)
Hypothesis call_ok : forall t' w ts args, tk_f t' = tk_f t -> tk_parameters t' = r -> I (w_lists w) ->
  exists h', call_f ts args (t', w) = (F ts args, (t', set_lists h' w)) /\ I h' /\ frame Pv (w_lists w) h'.
Hypothesis I_write : forall h vs, I h -> length vs = count_free d1 -> I (replace h (r_data r) (fill d1 vs)).
Hypothesis I_alloc : forall h x, I h -> I (h ++ [x]).
Hypothesis Pv_other : ~ Pv (r_data r).

Definition fitted (args : list R) : Res (list R) :=
  bind (mapM array_of (tk_ts_fit t)) (fun rows => F rows args).

Lemma array_rows : forall l, mapM array_row l = mapM array_of l.
Proof. induction l as [|x l IH]; [reflexivity|]. simpl. now rewrite array_row_of, IH. Qed.

Definition curve (args : list R) : TM (list R) :=
  mbind (lift (mapM array_row (tk_ts_fit t))) (fun rows => call_f rows args).

Lemma curve_eq : forall args w, I (w_lists w) ->
  exists h', curve args (t, w) = (fitted args, (t, set_lists h' w)) /\ I h' /\ frame Pv (w_lists w) h'.
Proof.
  intros args w HI. unfold curve, fitted. unfold mbind, lift. rewrite array_rows.
  destruct (mapM array_of (tk_ts_fit t)) as [rows|e]; cbn [bind].
  - apply call_ok; auto.
  - exists (w_lists w). rewrite set_lists_same. split; [reflexivity|]. split; [exact HI|apply frame_refl].
Qed.

Lemma run_fit_eq : forall x w, I (w_lists w) ->
  exists h', run_fit curve x (t, w) = (optimise fitted x, (t, set_lists h' w)) /\ I h' /\ frame Pv (w_lists w) h'.
Proof.
  induction x as [args k IH|popt pcov|e]; intros w HI.
  - cbn [run_fit optimise]. unfold mbind. destruct (curve_eq args w HI) as (h' & E & HI' & FR). rewrite E.
    destruct (fitted args) as [ys|e]; cbn [bind].
    + destruct (IH ys (set_lists h' w) HI') as (h'' & E' & HI'' & FR'). exists h''. rewrite E'.
      rewrite set_lists_twice. split; [reflexivity|]. split; [exact HI''|]. eapply frame_trans; [exact FR|exact FR'].
    + exists h'. auto.
  - exists (w_lists w). rewrite set_lists_same. split; [reflexivity|]. split; [exact HI|apply frame_refl].
  - exists (w_lists w). rewrite set_lists_same. split; [reflexivity|]. split; [exact HI|apply frame_refl].
Qed.

Definition the_input (bounds : list ext * list ext) : FitInput :=
  mkFitInput (tk_name t) c d1 (tk_ts_fit t) (tk_ys_fit t) (tk_errors_fit t) (get_free_values d1) bounds.

(** What the optimiser does, and the calls it is recorded with. *)
Definition optimum (w : World) : Res (list R * matrix) :=
  bind (get_bounds c (tk_handpicked t) d1) (fun bounds => optimise fitted (o_fit o (length (w_fits w)) (the_input bounds))).
Definition new_fits : list FitInput :=
  match get_bounds c (tk_handpicked t) d1 with Ok bounds => [the_input bounds] | Err _ => [] end.

Definition add_fits (x : list FitInput) (w : World) : World :=
  mkWorld (w_lists w) (w_draws w) (w_samples w) (w_fits w ++ x) (w_events w).
Definition add_events (x : list event) (w : World) : World :=
  mkWorld (w_lists w) (w_draws w) (w_samples w) (w_fits w) (w_events w ++ x).

Lemma curve_fit_eq : forall w, nth_error (w_lists w) (r_data r) = Some d1 -> I (w_lists w) ->
  exists h', call_curve_fit o (t, w) = (optimum w, (t, set_lists h' (add_fits new_fits w))) /\
    I h' /\ frame Pv (w_lists w) h'.
Proof.
  intros w HS HI. unfold call_curve_fit. erewrite mbind_ok by reflexivity. cbn [fst].
  erewrite mbind_ok by (apply inW_eq; apply read_ok; exact HS). unfold optimum, new_fits. unfold mbind at 1. unfold lift at 1.
  destruct (get_bounds c (tk_handpicked t) d1) as [bounds|e].
  - erewrite mbind_ok by (apply inW_eq; reflexivity). cbn [bind].
    destruct (run_fit_eq (o_fit o (length (w_fits w)) (the_input bounds)) (add_fits [the_input bounds] w) HI) as (h' & E & HI' & FR).
    exists h'. split; [exact E|]. auto.
  - exists (w_lists w). cbn [bind]. split; [|split; [exact HI|apply frame_refl]].
    unfold add_fits. rewrite app_nil_r. destruct w; reflexivity.
Qed.

Lemma plot_eq : forall t' w opt fits, tk_f t' = tk_f t -> tk_parameters t' = r -> I (w_lists w) -> F (tk_ts t') opt = Ok fits ->
  exists h', Task_plot o opt (t', w) = (plot_result o t' fits (length (w_events w)),
      (t', add_events (plot_events t' (plot_result o t' fits (length (w_events w)))) (set_lists h' w))) /\
    I h' /\ frame Pv (w_lists w) h'.
Proof.
  intros t' w opt fits E1 E2 HI HF.
  assert (AE : forall v, add_events [] v = v) by (intros [? ? ? ? ?]; unfold add_events; simpl; now rewrite app_nil_r).
  unfold Task_plot. erewrite mbind_ok by reflexivity. cbn [fst]. unfold plot_result, plot_events.
  destruct (tk_reports_dir t') as [[|ch dir]|].
  1, 3: exists (w_lists w); rewrite AE, set_lists_same; split; [reflexivity|split; [exact HI|apply frame_refl]].
  match goal with |- context [bind ?x (fun _ => match o_render o ?n with Some _ => _ | None => _ end)] => set (X := x); set (k := n) end.
  destruct (call_ok t' w (tk_ts t') opt E1 E2 HI) as (h0 & EC & HI0 & FR0). rewrite HF in EC.
  assert (D : exists h', draw (style_of (tk_class t')) opt (t', w) = (X, (t', set_lists h' w)) /\ I h' /\ frame Pv (w_lists w) h').
  { unfold draw. erewrite mbind_ok by reflexivity. cbn [fst]. unfold X. destruct (style_of (tk_class t')).
    1, 2, 4, 5: exists h0; rewrite (mbind_ok _ _ _ _ _ _ _ _ EC); auto.
    unfold mbind at 1. unfold lift. destruct (mapM attr_t (tk_ts t')) as [xs|e]; cbn [bind].
    - exists h0. rewrite (mbind_ok _ _ _ _ _ _ _ _ EC). auto.
    - exists (w_lists w). rewrite set_lists_same. split; [reflexivity|]. split; [exact HI|apply frame_refl]. }
  destruct D as (h' & E & HI' & FR). exists h'. split; [|now split]. clearbody X. destruct X as [[]|e]; cbn [bind].
  - rewrite (mbind_ok _ _ _ _ _ _ _ _ E). unfold inW. cbn [fst snd]. unfold savefig. change (length (w_events (set_lists h' w))) with k.
    destruct (o_render o k) as [e|]; [now rewrite AE|reflexivity].
  - rewrite (mbind_err _ _ _ _ _ _ _ _ E). now rewrite AE.
Qed.

Definition after : TM Ref :=
  (result <~ Task_fit o ;;
   match result with
   | Some (opt_params, covariance_matrix) =>
       t <~ self ;;
       inW (obj_mutate (tk_parameters t) (MUpdateFree opt_params)) ;;;
       update_report o opt_params covariance_matrix ;;;
       Task_plot o opt_params
   | None => ret tt
   end ;;;
   t <~ self ;; ret (tk_parameters t))%m.

(** The outcome, as a function of what the optimiser does. *)
Definition text_of (n : nat) (x : Res R) : Res string :=
  match x with
  | Ok v => Ok (o_str o v)
  | Err e => match o_division o n with
             | DivRaises => Err e | DivInf => Ok "inf" | DivNegInf => Ok "-inf" | DivNaN => Ok "nan"
             end
  end%string.

Definition done (values : list R) (final : addr) (r2 chi : string) (cov : matrix) (rp : Report) : Report :=
  mkReport (rp_name rp) (rp_initial rp) (Some final) (Some r2) (Some chi) (Some cov)
    (Some (map ext_sqrt (diagonal 0 cov))) "finished" (rp_message rp) values.

Definition outcome_ok (w : World) (res : Res Ref) (rep : Report) (h' : list data) (evs : list event) : Prop :=
  match optimum w with
  | Err RuntimeError =>
      res = Ok r /\ rep = failed (o_message o (length (w_fits w ++ new_fits))) (tk_report t) /\
      nth_error h' (r_data r) = Some d1 /\ evs = []
  | Err e => res = Err e /\ rep = tk_report t /\ nth_error h' (r_data r) = Some d1 /\ evs = []
  | Ok (popt, cov) =>
      if Nat.eq_dec (length popt) (count_free d1) then
        nth_error h' (r_data r) = Some (fill d1 popt) /\
        match F (tk_ts t) popt with
        | Err e => res = Err e /\ rep = tk_report t /\ evs = []
        | Ok fit_ys =>
            let r2 := squared_residuals (tk_ys t) fit_ys in
            match text_of (length (w_fits w ++ new_fits)) (chi_squared_value r2 (tk_errors t) (length popt)) with
            | Err e => res = Err e /\ rep = tk_report t /\ evs = []
            | Ok chi =>
                (res = Ok r \/ exists e, res = Err e) /\
                (exists final values, rep = done values final (o_str o (rsum r2)) chi cov (tk_report t) /\
                   get_ordered c (fill d1 popt) = Ok values /\
                   (length (w_lists w) <= final)%nat /\ nth_error h' final = Some (fill d1 popt) /\ final <> r_data r) /\
                (forall e, In e evs -> exists p, e = EvPlot p) /\
                plotting o t fit_ys (length (w_events w)) res evs
            end
        end
      else res = Err ValueError /\ rep = tk_report t /\ nth_error h' (r_data r) = Some d1 /\ evs = []
  end.

Hypothesis Pv_old : exists k, (forall h, I h -> (k <= length h)%nat) /\ forall b, Pv b -> (b < k)%nat.

Theorem after_eq : forall w, nth_error (w_lists w) (r_data r) = Some d1 -> I (w_lists w) ->
  exists res rep h' evs,
    after (t, w) = (res, (with_report rep t, add_events evs (set_lists h' (add_fits new_fits w)))) /\
    frame (fun b => b = r_data r \/ Pv b) (w_lists w) h' /\ I h' /\ outcome_ok w res rep h' evs.
Proof.
  intros w HS HI. destruct (curve_fit_eq w HS HI) as (h1 & E1 & HI1 & FR1).
  assert (S1 : nth_error h1 (r_data r) = Some d1) by (eapply frame_keeps; [exact FR1|exact Pv_other|exact HS]).
  set (P := fun b => b = r_data r \/ Pv b).
  assert (FR1' : frame P (w_lists w) h1) by (eapply frame_weaken; [|exact FR1]; intros b _ Hb; now right).
  assert (WR : with_report (tk_report t) t = t) by now destruct t.
  set (w1 := set_lists h1 (add_fits new_fits w)) in *.
  assert (SL : forall h, set_lists h w1 = set_lists h (add_fits new_fits w)) by reflexivity.
  assert (AE : forall w0, add_events [] w0 = w0) by (intros [? ? ? ? ?]; unfold add_events; simpl; now rewrite app_nil_r).
  unfold after, outcome_ok.
  destruct (optimum w) as [[popt cov]|e] eqn:O.
  - assert (TF : Task_fit o (t, w) = (Ok (Some (popt, cov)), (t, w1))) by (unfold Task_fit; now rewrite E1).
    rewrite (mbind_ok _ _ _ _ _ _ _ _ TF).
    assert (S1' : nth_error (w_lists w1) (r_data r) = Some d1) by exact S1.
    pose proof (obj_mutate_eq r (MUpdateFree popt) d1 w1 S1') as MU. cbn [mutate] in MU.
    destruct (Nat.eq_dec (length popt) (count_free d1)) as [L|L].
    + rewrite (update_free_ok _ _ L) in MU. cbn [fst snd] in MU.
      set (h2 := replace h1 (r_data r) (fill d1 popt)) in *. change (w_lists w1) with h1 in MU. fold h2 in MU.
      set (w2 := set_lists h2 w1) in *.
      assert (HI2 : I h2) by now apply I_write.
      assert (S2 : nth_error h2 (r_data r) = Some (fill d1 popt)) by (eapply nth_replace_same; exact S1).
      assert (FR2 : frame P (w_lists w) h2).
      { eapply frame_trans; [exact FR1'|]. apply frame_replace. now left. }
      destruct (call_ok t w2 (tk_ts t) popt eq_refl eq_refl HI2) as (h3 & E3 & HI3 & FR3).
      assert (S3 : nth_error h3 (r_data r) = Some (fill d1 popt)) by (eapply frame_keeps; [exact FR3|exact Pv_other|exact S2]).
      assert (FR3' : frame P (w_lists w) h3).
      { eapply frame_trans; [exact FR2|]. eapply frame_weaken; [|exact FR3]. intros b _ Hb. now right. }
      set (w3 := set_lists h3 w2) in *.
      assert (BODY : forall k : TM Ref,
        (mbind (mbind self (fun t => mbind (inW (obj_mutate (tk_parameters t) (MUpdateFree popt)))
           (fun _ => mbind (update_report o popt cov) (fun _ => Task_plot o popt)))) (fun _ => k)) (t, w1) =
        (mbind (mbind (update_report o popt cov) (fun _ => Task_plot o popt)) (fun _ => k)) (t, w2)).
      { intros k. unfold mbind at 1. unfold mbind at 1. unfold self at 1. cbn [fst].
        rewrite (mbind_ok _ _ _ _ _ _ _ _ (inW_eq _ _ _ _ _ _ MU)). reflexivity. }
      rewrite BODY. clear BODY.
      destruct (F (tk_ts t) popt) as [fit_ys|e] eqn:FV.
      * set (r2 := squared_residuals (tk_ys t) fit_ys).
        set (cv := chi_squared_value r2 (tk_errors t) (length popt)).
        assert (CT : chi_squared_text o cv (t, w3) = (text_of (length (w_fits w ++ new_fits)) cv, (t, w3))).
        { unfold chi_squared_text, text_of. destruct cv; [reflexivity|]. cbn [snd].
          change (w_fits w3) with (w_fits w ++ new_fits). destruct (o_division o _); reflexivity. }
        destruct (text_of (length (w_fits w ++ new_fits)) cv) as [chi|e] eqn:TX.
        -- assert (GO : get_ordered c (fill d1 popt) = Ok (map (val (fill d1 popt)) (ct_ordered (table c)))).
           { apply get_ordered_values. rewrite fill_names. apply ok. }
           set (values := map (val (fill d1 popt)) (ct_ordered (table c))) in *.
           set (final := length h3).
           set (t4 := with_report (done values final (o_str o (rsum r2)) chi cov (tk_report t)) t).
           set (w4 := set_lists (h3 ++ [fill d1 popt]) w3).
           assert (S4 : nth_error (w_lists w4) (r_data r) = Some (fill d1 popt)) by (simpl; now apply nth_extend).
           assert (UR : update_report o popt cov (t, w2) = (Ok tt, (t4, w4))).
           { unfold update_report. erewrite mbind_ok by reflexivity. cbn [fst].
             rewrite (mbind_ok _ _ _ _ _ _ _ _ E3). fold w3. fold r2. fold cv. rewrite (mbind_ok _ _ _ _ _ _ _ _ CT).
             rewrite (mbind_ok _ _ _ _ _ _ _ _ (inW_eq _ _ _ _ _ _ (obj_to_list_eq r _ w3 S3))).
             change (w_lists w3) with h3. fold w4.
             assert (RD : obj_read r (get_ordered c) w4 = (Ok values, w4)).
             { unfold obj_read. rewrite (mbind_ok _ _ _ _ _ _ _ _ (read_ok _ _ _ S4)). unfold lift. now rewrite GO. }
             rewrite (mbind_ok _ _ _ _ _ _ _ _ (inW_eq _ _ _ _ _ _ RD)). reflexivity. }
           assert (T4 : tk_f t4 = tk_f t /\ tk_parameters t4 = r) by (unfold t4; now destruct t).
           assert (HI4 : I (w_lists w4)) by (simpl; now apply I_alloc).
           assert (T5 : tk_ts t4 = tk_ts t) by (unfold t4; now destruct t). assert (FV4 := FV). rewrite <- T5 in FV4.
           destruct (plot_eq t4 w4 popt fit_ys (proj1 T4) (proj2 T4) HI4 FV4) as (h5 & E5 & HI5 & FR5).
           assert (PR : plot_result o t4 fit_ys (length (w_events w4)) = plot_result o t fit_ys (length (w_events w))) by (unfold t4; now destruct t).
           assert (PE : forall x, plot_events t4 x = plot_events t x) by (unfold t4; now destruct t). rewrite PR, PE in E5.
           set (res := plot_result o t fit_ys (length (w_events w))) in *. set (evs := plot_events t res) in *.
           assert (EV : forall e, In e evs -> exists p, e = EvPlot p).
           { unfold evs, plot_events. destruct (tk_reports_dir t) as [[|]|]; try (intros ev []). destruct res; [|intros ev []]. intros ev [<-|[]]. now eexists. }
           assert (S5 : nth_error h5 (r_data r) = Some (fill d1 popt)) by (eapply frame_keeps; [exact FR5|exact Pv_other|exact S4]).
           assert (FR5' : frame P (w_lists w) h5).
           { eapply frame_trans; [exact FR3'|]. eapply frame_trans; [apply (frame_app P h3 [fill d1 popt])|].
             eapply frame_weaken; [|exact FR5]. intros b _ Hb. now right. }
           assert (NF : ~ Pv final).
           { intros Hf. destruct Pv_old as (k & K1 & K2). specialize (K1 _ HI3). specialize (K2 _ Hf). unfold final in K2. lia. }
           assert (SF : nth_error h5 final = Some (fill d1 popt)).
           { eapply frame_keeps; [exact FR5|exact NF|]. simpl. apply nth_alloc. }
           exists (match res with Ok _ => Ok r | Err e => Err e end), (done values final (o_str o (rsum r2)) chi cov (tk_report t)), h5, evs.
           split; [|split; [exact FR5'|split; [exact HI5|split; [exact S5|split; [|split; [|split; [exact EV|]]]]]]].
           ++ unfold mbind at 1. rewrite (mbind_ok _ _ _ _ _ _ _ _ UR). rewrite E5.
              destruct res as [[]|e]; [|reflexivity]. unfold mbind, self. cbn [fst]. rewrite (proj2 T4). reflexivity.
           ++ destruct res as [[]|e]; [now left|right; now eexists].
           ++ exists final, values. split; [reflexivity|]. split; [exact GO|]. split; [|split; [exact SF|]].
              ** unfold final. apply FR3'.
              ** unfold final. intros Q. assert (length h3 < length h3)%nat; [|lia].
                 rewrite Q at 1. apply nth_error_Some. congruence.
           ++ split; reflexivity.
        -- exists (Err e), (tk_report t), h3, []. split; [|split; [exact FR3'|split; [exact HI3|split; [exact S3|auto]]]].
           rewrite WR, AE. unfold mbind at 1. unfold mbind at 1. unfold update_report. erewrite mbind_ok by reflexivity. cbn [fst].
           rewrite (mbind_ok _ _ _ _ _ _ _ _ E3). fold w3. fold r2. fold cv. rewrite (mbind_err _ _ _ _ _ _ _ _ CT). reflexivity.
      * exists (Err e), (tk_report t), h3, []. split; [|split; [exact FR3'|split; [exact HI3|split; [exact S3|auto]]]].
        rewrite WR, AE. unfold mbind at 1. unfold mbind at 1. unfold update_report. erewrite mbind_ok by reflexivity. cbn [fst].
        rewrite (mbind_err _ _ _ _ _ _ _ _ E3). reflexivity.
    + rewrite (update_free_bad _ _ L) in MU. cbn [fst snd] in MU.
      exists (Err ValueError), (tk_report t), h1, [].
      split; [|split; [exact FR1'|split; [exact HI1|auto]]].
      unfold mbind at 1. unfold mbind at 1. unfold self at 1. cbn [fst].
      rewrite (mbind_err _ _ _ _ _ _ _ _ (inW_eq _ _ _ _ _ _ MU)). rewrite WR, AE.
      rewrite replace_id by exact S1'. now rewrite set_lists_same.
  - assert (RT : forall res rep, (res = Err e /\ rep = tk_report t /\ e <> RuntimeError \/
        res = Ok r /\ rep = failed (o_message o (length (w_fits w ++ new_fits))) (tk_report t) /\ e = RuntimeError) ->
        (mbind (Task_fit o) (fun result => mbind (match result with
           | Some (opt_params, covariance_matrix) =>
             mbind self (fun t => mbind (inW (obj_mutate (tk_parameters t) (MUpdateFree opt_params))) (fun _ =>
             mbind (update_report o opt_params covariance_matrix) (fun _ => Task_plot o opt_params)))
           | None => ret tt end) (fun _ => mbind self (fun t => ret (tk_parameters t))))) (t, w) = (res, (with_report rep t, w1))).
    { intros res rep [(-> & -> & N)|(-> & -> & ->)].
      - assert (TF : Task_fit o (t, w) = (Err e, (t, w1))) by (unfold Task_fit; rewrite E1; destruct e; congruence).
        rewrite (mbind_err _ _ _ _ _ _ _ _ TF). now rewrite WR.
      - assert (TF : Task_fit o (t, w) = (Ok None, (with_report (failed (o_message o (length (w_fits w ++ new_fits))) (tk_report t)) t, w1)))
          by (unfold Task_fit; rewrite E1; reflexivity).
        rewrite (mbind_ok _ _ _ _ _ _ _ _ TF). unfold mbind, self, ret. cbn [fst]. now destruct t. }
    destruct e;
    match goal with
    | |- context [outcome_ok] => fail
    | _ => idtac
    end;
    (eexists _, _, h1, []; split; [rewrite AE; apply RT; auto; try (left; repeat split; discriminate)|]; (split; [exact FR1'|split; [exact HI1|auto]])).
Qed.
End After.

(** ** A whole run of a task with a common function *)

Lemma run_split : forall o s, Task_run o s = mbind Task_set_up (fun _ => after o) s.
Proof. reflexivity. Qed.

Section RunCommon.
Variable o : Oracle.
Variables (t : Task) (w : World) (d : data).
Notation r := (tk_parameters t).
Notation c := (r_class (tk_parameters t)).
Hypothesis stored : nth_error (w_lists w) (r_data r) = Some d.
Hypothesis ok : inv c d.
Hypothesis common : tk_class t <> ResidualTask.
Let d1 := prepared (tk_class t) c d.

(** The outcome, without reference to the private store of the closure. *)
Theorem run_common : 
  match restrict (with_f (Common (own_partial t w)) t) with
  | Err e => exists h', Task_run o (t, w) = (Err e, (with_f (Common (own_partial t w)) t, set_lists h' w)) /\
      frame (fun b => b = r_data r) (w_lists w) h' /\ nth_error h' (r_data r) = Some d1
  | Ok t1 => exists res rep h' evs,
      Task_run o (t, w) = (res, (with_report rep t1, add_events evs (set_lists h' (add_fits (new_fits t1 d1) w)))) /\
      frame (fun b => b = r_data r) (w_lists w) h' /\
      outcome_ok o t1 d1 (closure_result (fitted_closure t d1)) w res rep h' evs
  end.
Proof.
  rewrite run_split. pose proof (set_up_eq t w d stored ok common) as SU.
  pose proof (heap_store t w d stored) as HS. pose proof (heap_partial t w d ok common) as HP.
  pose proof (heap_frame t w d) as HF. fold d1 in SU, HS, HP, HF.
  set (h1 := replace (w_lists w) (r_data r) d1 ++ [d1; d1]) in *.
  set (p := own_partial t w) in *.
  destruct (restrict (with_f (Common p) t)) as [t1|e] eqn:RS.
  2: { exists h1. rewrite (mbind_err _ _ _ _ _ _ _ _ SU). auto. }
  rewrite (mbind_ok _ _ _ _ _ _ _ _ SU).
  assert (T1 : tk_parameters t1 = r /\ tk_f t1 = Some (Common p)).
  { unfold restrict in RS. destruct (charged_only _).
    - destruct (filterM _ _) as [rows|]; [|discriminate]. cbn [bind] in RS. destruct (unzip3 rows) as [[[x y] z]|]; [|discriminate].
      cbn [bind] in RS. injection RS as <-. now destruct t.
    - injection RS as <-. now destruct t. }
  destruct T1 as [TP TF].
  assert (lt : (r_data r < length (w_lists w))%nat) by (apply nth_error_Some; congruence).
  assert (PA : r_data (partial_ref p) = S (length (w_lists w))) by (eapply own_partial_addr; eassumption).
  set (k := fitted_closure t d1) in *.
  assert (CS : snd (closure_store k) = d1 /\ fst (closure_store k) = c).
  { unfold k, fitted_closure, cross_section_closure. destruct (form_factor_task _); [|destruct (tk_class t), (tk_numbers t)]; split; reflexivity. }
  destruct (after_eq o t1 d1) with (F := closure_result k) (I := fun h => partial_rel h p k)
    (Pv := fun b => b = r_data (partial_ref p)) (w := set_lists h1 w) as (res & rep & h' & evs & E & FR & HI & OUT).
  - rewrite TP. now apply prepared_inv.
  - intros t' w' ts args E1 E2 HI. destruct (call_partial_eq p k ts args w' HI) as (d' & SH & E).
    exists (replace (w_lists w') (r_data (partial_ref p)) d').
    split; [|split].
    + unfold call_f. erewrite mbind_ok by reflexivity. cbn [fst]. rewrite E1, TF. apply inW_eq. exact E.
    + destruct HI as (A & B & C & d2 & D & _). split; [exact A|split; [exact B|split; [exact C|]]].
      exists d'. split; [eapply nth_replace_same; exact D|exact SH].
    + now apply frame_replace.
  - intros h vs HI _. rewrite TP. eapply partial_rel_keep; [|exact HI]. apply nth_replace_other. rewrite PA. lia.
  - intros h x HI. eapply partial_rel_keep; [|exact HI]. destruct HI as (_ & _ & _ & d2 & D & _). rewrite D.
    now apply nth_extend.
  - rewrite TP, PA. lia.
  - exists (S (r_data (partial_ref p))). split.
    + intros h (_ & _ & _ & d2 & D & _). assert (r_data (partial_ref p) < length h)%nat; [|lia]. apply nth_error_Some. congruence.
    + intros b ->. lia.
  - simpl. rewrite TP. exact HS.
  - exact HP.
  - exists res, rep, h', evs. split; [|split].
    + rewrite E. reflexivity.
    + destruct HF as [HL HF]. destruct FR as [FL FR]. simpl in FL, FR. split; [lia|]. intros b L N.
      rewrite <- (HF b L N). apply FR; [lia|]. rewrite TP, PA. intros [Q|Q]; [now apply N|lia].
    + unfold outcome_ok in *. change (optimum o t1 d1 (closure_result k) (set_lists h1 w)) with
        (optimum o t1 d1 (closure_result k) w) in OUT. change (w_fits (set_lists h1 w)) with (w_fits w) in OUT.
      destruct (optimum _ _ _ _ _) as [[popt cov]|e]; [|exact OUT].
      destruct (Nat.eq_dec _ _); [|exact OUT]. destruct OUT as [S5 OUT]. split; [exact S5|].
      destruct (closure_result k (tk_ts t1) popt) as [fs|e0]; [|exact OUT]. cbv zeta in *.
      destruct (text_of _ _ _) as [chi|e0]; [|exact OUT].
      destruct OUT as (O1 & (final & values & O2 & O3 & O4 & O5) & O6). split; [exact O1|]. split; [|exact O6].
      exists final, values. split; [exact O2|]. split; [exact O3|]. split; [|exact O5]. eapply Nat.le_trans; [apply HF|exact O4].
Qed.
End RunCommon.

(** ** The residual task *)

Definition damped (x : R * R * R * R) : data :=
  let '(a, b, c, e) := x in [mkPar "a" a false; mkPar "b" b false; mkPar "c" c false; mkPar "d" e false]%string.

Definition oscillation (ts : list datapoint) (args : list R) : Res (list R) :=
  match args with
  | [a; b; c; e] => mapM (oscillation_at (mkDamped a b c e)) ts
  | _ => Err ValueError
  end.

Definition everything_fixed (d : data) : data := map (fun p => mkPar (par_name p) (par_value p) true) d.

Lemma damped_new : construct POscillations [("a", 100); ("b", 2); ("c", 5); ("d", 0)]%string = Ok (damped (100, 2, 5, 0)).
Proof. reflexivity. Qed.

Lemma damped_copy : forall x, from_list POscillations (damped x) = Ok (damped x).
Proof. intros [[[a b] c] e]. reflexivity. Qed.

Lemma damped_inv : forall x, inv POscillations (damped x).
Proof.
  intros [[[a b] c] e]. split; [reflexivity|]. intros p _ [].
Qed.

Lemma damped_fill : forall x vs, length vs = 4%nat -> exists y, fill (damped x) vs = damped y.
Proof.
  intros [[[a b] c] e] [|v1 [|v2 [|v3 [|v4 [|]]]]] L; try discriminate L. now exists (v1, v2, v3, v4).
Qed.

Lemma oscillations_eq : forall t w x ts args, nth_error (w_lists w) (r_data (tk_parameters t)) = Some (damped x) ->
  exists more, oscillations ts args (t, w) = (oscillation ts args, (t, set_lists (w_lists w ++ more) w)).
Proof.
  intros t w x ts args S. unfold oscillations. erewrite mbind_ok by reflexivity. cbn [fst].
  set (w1 := set_lists (w_lists w ++ [damped x]) w).
  set (w2 := set_lists (w_lists w1 ++ [damped x]) w1).
  set (q := mkRef POscillations (length (w_lists w1))).
  assert (S1 : nth_error (w_lists w1) (length (w_lists w)) = Some (damped x)) by apply nth_alloc.
  assert (S2 : nth_error (w_lists w2) (r_data q) = Some (damped x)) by apply nth_alloc.
  pose proof (obj_from_list_eq POscillations _ _ _ S1) as E2. rewrite damped_copy in E2. fold w2 in E2. fold q in E2.
  pose proof (obj_mutate_eq q (MUpdateFree args) _ _ S2) as E3. cbn [mutate] in E3.
  set (f := fun d : data => bind (getitem d "a") (fun a => bind (getitem d "b") (fun b =>
         bind (getitem d "c") (fun c => bind (getitem d "d") (fun e =>
         mapM (oscillation_at (mkDamped (par_value a) (par_value b) (par_value c) (par_value e))) ts))))).
  assert (LEN : set_lists (w_lists w ++ [damped x; damped x]) w = w2).
  { unfold w2, w1. simpl. now rewrite <- app_assoc. }
  destruct (Nat.eq_dec (length args) (count_free (damped x))) as [L|L].
  - rewrite (update_free_ok _ _ L) in E3. cbn [fst snd] in E3.
    set (w3 := set_lists (replace (w_lists w2) (r_data q) (fill (damped x) args)) w2) in *.
    assert (S3 : nth_error (w_lists w3) (r_data q) = Some (fill (damped x) args)) by (eapply nth_replace_same; exact S2).
    exists [damped x; fill (damped x) args]. 
    assert (L3 : set_lists (w_lists w ++ [damped x; fill (damped x) args]) w = w3).
    { unfold w3, w2. simpl w_lists at 2. unfold q. cbn [r_data]. rewrite replace_end. unfold w1. simpl. now rewrite <- app_assoc. }
    rewrite L3. apply inW_eq.
    rewrite (mbind_ok _ _ _ _ _ _ _ _ (obj_to_list_eq _ _ _ S)). fold w1.
    rewrite (mbind_ok _ _ _ _ _ _ _ _ E2). rewrite (mbind_ok _ _ _ _ _ _ _ _ E3).
    unfold obj_read. rewrite (mbind_ok _ _ _ _ _ _ _ _ (read_ok _ _ _ S3)). unfold lift. f_equal.
    destruct x as [[[a b] c] e]. destruct args as [|v1 [|v2 [|v3 [|v4 [|]]]]]; try discriminate L. reflexivity.
  - rewrite (update_free_bad _ _ L) in E3. cbn [fst snd] in E3. rewrite replace_id in E3 by exact S2. rewrite set_lists_same in E3.
    exists [damped x; damped x]. rewrite LEN. apply inW_eq.
    rewrite (mbind_ok _ _ _ _ _ _ _ _ (obj_to_list_eq _ _ _ S)). fold w1.
    rewrite (mbind_ok _ _ _ _ _ _ _ _ E2). rewrite (mbind_err _ _ _ _ _ _ _ _ E3). f_equal.
    destruct x as [[[a b] c] e]. destruct args as [|v1 [|v2 [|v3 [|v4 [|]]]]]; try reflexivity. now elim L.
Qed.

Lemma fixed_everything : forall d, fix_all d = everything_fixed d.
Proof. intros d. reflexivity. Qed.

Section RunResidual.
Variable o : Oracle.
Variables (t : Task) (w : World) (d : data).
Notation r := (tk_parameters t).
Notation c := (r_class (tk_parameters t)).
Hypothesis stored : nth_error (w_lists w) (r_data r) = Some d.
Hypothesis ok : inv c d.
Hypothesis residual : tk_class t = ResidualTask.

Definition background : Res (list R) :=
  closure_result (cross_section_closure t (c, everything_fixed d)) (tk_ts t) [].

Definition residuals : Res (Effective * (list datapoint * list R * list R)) :=
  bind background (fun ys => residual_data (tk_mass t) (tk_alpha t) ys (tk_ts t) (tk_ys t) (tk_errors t)).

Lemma set_up_residual_eq : exists h1,
  frame (fun b => b = r_data r) (w_lists w) h1 /\ nth_error h1 (r_data r) = Some (everything_fixed d) /\
  match residuals with
  | Err e => Task_set_up (t, w) = (Err e, (t, set_lists h1 w))
  | Ok (eff, x) => exists a, (length (w_lists w) <= a)%nat /\ nth_error h1 a = Some (damped (100, 2, 5, 0)) /\
      Task_set_up (t, w) = (Ok tt, (with_residuals (mkRef POscillations a) eff x t, set_lists h1 w))
  end.
Proof.
  set (d0 := everything_fixed d).
  set (w1 := set_lists (replace (w_lists w) (r_data r) d0) w).
  assert (E1 : obj_mutate r MFixAll w = (Ok tt, w1)) by (rewrite (obj_mutate_eq _ _ _ _ stored); reflexivity).
  assert (S1 : nth_error (w_lists w1) (r_data r) = Some d0) by (eapply nth_replace_same; exact stored).
  assert (I1 : inv c d0).
  { change d0 with (snd (mutate c MFixAll d)). now apply inv_mutate. }
  set (a1 := S (length (w_lists w1))).
  set (w2 := set_lists (w_lists w1 ++ [d0; d0]) w1).
  set (p := cross_section_partial t (mkRef c a1)).
  assert (E2 : own_cross_section t w1 = (Ok p, w2)).
  { unfold own_cross_section, p, cross_section_partial. destruct (tk_numbers t); [unfold make_partial_cross_section_for_parameters|unfold make_partial_misplaced];
      unfold mbind; rewrite (obj_copy_eq r d0 w1 S1 I1); reflexivity. }
  set (k := cross_section_closure t (c, d0)).
  assert (S2 : nth_error (w_lists w2) a1 = Some d0) by apply nth_alloc2.
  assert (PR : partial_rel (w_lists w2) p k).
  { unfold p, k, cross_section_partial, cross_section_closure. destruct (tk_numbers t);
      (split; [simpl; auto|]); (split; [reflexivity|]); (split; [exact I1|]); exists d0; (split; [exact S2|apply shifted_refl]). }
  destruct (call_partial_eq p k (tk_ts t) [] w2 PR) as (d' & SH & E3).
  replace (r_data (partial_ref p)) with a1 in E3 by (unfold p, cross_section_partial; now destruct (tk_numbers t)).
  set (w3 := set_lists (replace (w_lists w2) a1 d') w2) in *.
  assert (LT : (r_data r < length (w_lists w))%nat) by (apply nth_error_Some; congruence).
  assert (LW1 : length (w_lists w1) = length (w_lists w)) by apply replace_length.
  assert (FR3 : frame (fun b => b = r_data r) (w_lists w) (w_lists w3)).
  { unfold w3, w2. cbn [w_lists set_lists]. split.
    - rewrite replace_length, app_length, LW1. lia.
    - intros b L N. rewrite nth_replace_other by (unfold a1; lia). rewrite nth_error_app1 by lia.
      unfold w1. cbn [w_lists set_lists]. apply nth_replace_other. intros Q. now apply N. }
  assert (S3 : nth_error (w_lists w3) (r_data r) = Some d0).
  { unfold w3. cbn [w_lists set_lists]. rewrite nth_replace_other by (unfold a1; lia). unfold w2. cbn [w_lists set_lists]. now apply nth_extend. }
  set (dO := damped (100, 2, 5, 0)).
  assert (UP : Task_set_up (t, w) = match residuals with
     | Ok (eff, x) => (Ok tt, (with_residuals (mkRef POscillations (length (w_lists w3))) eff x t, set_lists (w_lists w3 ++ [dO]) w3))
     | Err e => (Err e, (t, w3)) end).
  { unfold Task_set_up. erewrite mbind_ok by reflexivity. cbn [fst]. rewrite residual. unfold set_up_residuals.
    erewrite mbind_ok by reflexivity. cbn [fst].
    rewrite (mbind_ok _ _ _ _ _ _ _ _ (inW_eq _ _ _ _ _ _ E1)).
    rewrite (mbind_ok _ _ _ _ _ _ _ _ (inW_eq _ _ _ _ _ _ E2)).
    unfold residuals, background. fold d0. fold k. destruct (closure_result k (tk_ts t) []) as [ys|e].
    - rewrite (mbind_ok _ _ _ _ _ _ _ _ (inW_eq _ _ _ _ _ _ E3)). cbn [bind].
      destruct (residual_data _ _ _ _ _ _) as [[eff x]|e]; [|reflexivity].
      erewrite mbind_ok by reflexivity.
      rewrite (mbind_ok _ _ _ _ _ _ _ _ (inW_eq _ _ _ _ _ _ (obj_new_ok _ _ _ w3 damped_new))). reflexivity.
    - rewrite (mbind_err _ _ _ _ _ _ _ _ (inW_eq _ _ _ _ _ _ E3)). reflexivity. }
  destruct residuals as [[eff x]|e].
  - exists (w_lists w3 ++ [dO]). split; [eapply frame_trans; [exact FR3|apply frame_app]|]. split; [now apply nth_extend|].
    exists (length (w_lists w3)). split; [apply FR3|]. split; [apply nth_alloc|]. rewrite UP. reflexivity.
  - exists (w_lists w3). split; [exact FR3|]. split; [exact S3|]. rewrite UP. reflexivity.
Qed.

Theorem run_residual :
  match residuals with
  | Err e => exists h', Task_run o (t, w) = (Err e, (t, set_lists h' w)) /\
      frame (fun b => b = r_data r) (w_lists w) h' /\ nth_error h' (r_data r) = Some (everything_fixed d)
  | Ok (eff, x) => exists a, (length (w_lists w) <= a)%nat /\
      let t1 := with_residuals (mkRef POscillations a) eff x t in
      let d1 := damped (100, 2, 5, 0) in
      exists res rep h' evs,
      Task_run o (t, w) = (res, (with_report rep t1, add_events evs (set_lists h' (add_fits (new_fits t1 d1) w)))) /\
      frame (fun b => b = r_data r) (w_lists w) h' /\ nth_error h' (r_data r) = Some (everything_fixed d) /\
      outcome_ok o t1 d1 oscillation w res rep h' evs
  end.
Proof.
  rewrite run_split. destruct set_up_residual_eq as (h1 & FR1 & S1 & SU).
  destruct residuals as [[eff x]|e].
  2: { exists h1. rewrite (mbind_err _ _ _ _ _ _ _ _ SU). auto. }
  destruct SU as (a & LA & SA & SU). exists a. split; [exact LA|]. intros t1 d1.
  rewrite (mbind_ok _ _ _ _ _ _ _ _ SU). fold t1.
  assert (TP : tk_parameters t1 = mkRef POscillations a) by (unfold t1; destruct t; now destruct x as [[? ?] ?]).
  assert (TF : tk_f t1 = Some Oscillations) by (unfold t1; destruct t; now destruct x as [[? ?] ?]).
  assert (lt : (r_data r < length (w_lists w))%nat) by (apply nth_error_Some; congruence).
  destruct (after_eq o t1 d1) with (F := oscillation) (I := fun h => exists y, nth_error h a = Some (damped y))
    (Pv := fun _ : addr => False) (w := set_lists h1 w) as (res & rep & h' & evs & E & FR & HI & OUT).
  - rewrite TP. apply damped_inv.
  - intros t' w' ts args E1 E2 (y & HI).
    assert (HI' : nth_error (w_lists w') (r_data (tk_parameters t')) = Some (damped y)) by (rewrite E2, TP; exact HI).
    destruct (oscillations_eq t' w' y ts args HI') as (more & E).
    exists (w_lists w' ++ more). split; [|split].
    + unfold call_f. erewrite mbind_ok by reflexivity. cbn [fst]. rewrite E1, TF. exact E.
    + exists y. now apply nth_extend.
    + apply frame_app.
  - intros h vs (y & HI) L. rewrite TP. cbn [r_data]. destruct (damped_fill (100, 2, 5, 0) vs L) as (z & FZ). fold d1 in FZ. rewrite FZ.
    exists z. eapply nth_replace_same. exact HI.
  - intros h z (y & HI). exists y. now apply nth_extend.
  - auto.
  - exists 0%nat. split; [lia|]. intros b [].
  - simpl. rewrite TP. exact SA.
  - now exists (100, 2, 5, 0).
  - exists res, rep, h', evs. split; [|split; [|split]].
    + rewrite E. reflexivity.
    + destruct FR1 as [HL HF]. destruct FR as [FL FR]. simpl in FL, FR. split; [lia|]. intros b L N.
      rewrite <- (HF b L N). apply FR; [lia|]. rewrite TP. cbn [r_data]. intros [Q|[]]. lia.
    + destruct FR as [FL FR]. simpl in FL, FR. rewrite <- S1. apply FR; [destruct FR1; lia|].
      rewrite TP. cbn [r_data]. intros [Q|[]]. lia.
    + unfold outcome_ok in *. change (optimum o t1 d1 oscillation (set_lists h1 w)) with
        (optimum o t1 d1 oscillation w) in OUT. change (w_fits (set_lists h1 w)) with (w_fits w) in OUT.
      destruct (optimum _ _ _ _ _) as [[popt cov]|e]; [|exact OUT].
      destruct (Nat.eq_dec _ _); [|exact OUT]. destruct OUT as [S5 OUT]. split; [exact S5|].
      destruct (oscillation (tk_ts t1) popt) as [fs|e0]; [|exact OUT]. cbv zeta in *.
      destruct (text_of _ _ _) as [chi|e0]; [|exact OUT].
      destruct OUT as (O1 & (final & values & O2 & O3 & O4 & O5) & O6). split; [exact O1|]. split; [|exact O6].
      exists final, values. split; [exact O2|]. split; [exact O3|]. split; [|exact O5]. eapply Nat.le_trans; [apply FR1|exact O4].
Qed.
End RunResidual.
