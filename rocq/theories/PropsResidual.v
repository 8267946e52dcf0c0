(** C54: the task that fits an oscillation to what the background leaves over -- its data, its fit and its report. *)
From Coq Require Import String Ascii Reals List Bool Arith Lia Lra QArith Qreals.
From Verif Require Import PyBase CNum PyExpr UAModels OtherModels Params ParamClasses ParamSpec ParamProofs PropsParams CrossSections PropsCross CommonUtils
  KaonSpec UtilsSpec UtilsProofs Scripts World WorldSpec WorldProofs DataSets Task TaskSpec TaskProofs PropsTask PropsScripts PropsData
  Balls Enclose EncloseCS UnitTests UnitChecks PropsEnclose.
Import ListNotations.
Local Open Scope R_scope.
Local Open Scope list_scope.
Local Open Scope string_scope.

#[local] Arguments String.append : simpl never.

(** ** Specification *)

(** The measurements of a task together with the cross-section of its parameters at each of them. *)
Definition measures (t : Task) (d : data) (L : list Measured) : Prop :=
  tk_ts t = map ms_point L /\ tk_ys t = map ms_value L /\ tk_errors t = map ms_error L /\
  buildable (r_class (tk_parameters t)) d = Ok tt /\ tk_numbers t = true /\
  forall x, In x L -> cross_section_at (r_class (tk_parameters t)) (tk_mass t) (tk_alpha t) (tk_hc_squared t) d (ms_point x) = Ok (ms_background x).

(** A damped oscillation. *)
Definition wave (a b c e p : R) : R := a * exp (- (b * p)) * cos (c * p + e).

Definition oscillator (a b c e : R) : data := [mkPar "a" a false; mkPar "b" b false; mkPar "c" c false; mkPar "d" e false].

Definition oscillator_bounds (handpicked : bool) : list ext * list ext :=
  if handpicked then ([NegInf; Fin 0; Fin 0; NegInf], [PosInf; PosInf; PosInf; PosInf])
  else ([NegInf; NegInf; NegInf; NegInf], [PosInf; PosInf; PosInf; PosInf]).

(** The points of the residual fit. *)
Definition low (m : R) (L : list Measured) : list Measured := filter (survives m) L.
Definition at_momentum (m : R) (x : Measured) : datapoint := moved_to (momentum m x) (ms_point x).

(** What is handed to the optimiser ... *)
Definition residual_input (t : Task) (L : list Measured) : FitInput :=
  let m := tk_mass t in let a := tk_alpha t in
  mkFitInput (tk_name t) POscillations (oscillator 100 2 5 0) (map (at_momentum m) (low m L)) (map (residual m a) (low m L))
    (map (residual_error m a) (low m L)) [100; 2; 5; 0] (oscillator_bounds (tk_handpicked t)).

(** ... and the function it is given. *)
Definition residual_function (m : R) (L : list Measured) (args : list R) : Res (list R) :=
  match args with
  | [a; b; c; e] => Ok (map (fun x => wave a b c e (momentum m x)) (low m L))
  | _ => Err ValueError
  end.

(** The attributes of the task that stay. *)
Definition same_settings (t t' : Task) : Prop :=
  tk_class t' = tk_class t /\ tk_name t' = tk_name t /\ tk_plot t' = tk_plot t /\ tk_handpicked t' = tk_handpicked t /\
  tk_reports_dir t' = tk_reports_dir t /\ tk_mass t' = tk_mass t /\ tk_alpha t' = tk_alpha t /\ tk_hc_squared t' = tk_hc_squared t /\
  tk_numbers t' = tk_numbers t.

(** The picture at the end. *)
Definition drawn (o : Oracle) (t : Task) (k : nat) : Res (list event) :=
  match tk_reports_dir t with
  | None | Some "" => Ok []
  | Some dir => match o_render o k with Some e => Err e | None => Ok [EvPlot (path_join dir (lower (tk_name t) ++ ".png"))] end
  end.

(** ** Proofs *)

Lemma fixed_same : forall d, everything_fixed d = all_fixed d. Proof. reflexivity. Qed.

Lemma background_values : forall t d L, measures t d L -> background t d = Ok (map ms_background L).
Proof.
  intros t d L (T & _ & _ & B & NU & X). unfold background, cross_section_closure. rewrite NU. cbn [closure_result]. unfold with_free_values. cbn [fst snd].
  rewrite fixed_same, count_all_fixed. cbn [length Nat.eqb bind fst snd]. rewrite fill_none, buildable_flags, B. cbn [bind].
  rewrite T, mapM_map'. apply mapM_ok. intros x IN. rewrite cross_section_flags. now apply X.
Qed.

Lemma residuals_values : forall t d L, 0 < tk_mass t -> tk_alpha t <> 0 -> measures t d L -> uniform L -> (forall x, In x L -> usable (tk_mass t) x) ->
  let m := tk_mass t in let a := tk_alpha t in
  residuals t d = match low m L with
    | [] => Err ValueError
    | _ => Ok (mkEffective (map ms_point L) (map (fun x => effective m a (ms_value x) (time_of (ms_point x))) L)
                 (map (fun x => effective m a (ms_background x) (time_of (ms_point x))) L) (map (residual_error m a) L),
               (map (at_momentum m) (low m L), map (residual m a) (low m L), map (residual_error m a) (low m L)))
    end.
Proof.
  intros t d L Hm Ha M U H m a. unfold residuals. rewrite (background_values _ _ _ M). cbn [bind].
  destruct M as (T & Y & E & _). rewrite T, Y, E.
  destruct (C41_points_stay_aligned m a Hm Ha L U H) as [A B]. unfold residuals_of in *. unfold low.
  destruct (filter (survives m) L) as [|x r] eqn:F.
  - now apply B.
  - destruct A as (eff & A1 & A2); [discriminate|]. fold m a. rewrite A1, A2. reflexivity.
Qed.

Lemma unit_factor_pos : forall m a s, 0 < m -> a <> 0 -> 4 * m^2 < s -> 0 < unit_factor m a s.
Proof.
  intros m a s Hm Ha Hs. assert (M : 0 < m^2) by (apply pow_lt; exact Hm). assert (A : 0 < a^2) by (rewrite <- Rsqr_pow2; now apply Rsqr_pos_lt).
  assert (Q : 0 < 4 * m^2 / s < 1). { split; [apply Rdiv_lt_0_compat; lra|]. apply Rmult_lt_reg_r with s; [lra|]. unfold Rdiv. rewrite Rmult_assoc, Rinv_l; lra. }
  assert (B : 0 < sqrt (1 - 4 * m^2 / s)) by (apply sqrt_lt_R0; lra). assert (P := Rtrigo1.PI_RGT_0).
  unfold unit_factor. apply Rdiv_lt_0_compat; [lra|]. apply Rmult_lt_0_compat; [|lra]. apply Rmult_lt_0_compat; [|exact B]. apply Rmult_lt_0_compat; lra.
Qed.

Lemma optimise_ext : forall f g x, (forall a, f a = g a) -> optimise f x = optimise g x.
Proof. induction x as [args k IH|popt pcov|e]; intros Q; cbn; [|reflexivity|reflexivity]. rewrite Q. destruct (g args); cbn; auto. Qed.

Lemma point_float : forall m x, is_real (ms_point x) -> exists r, array_of (at_momentum m x) = Ok (Row (RtoC (momentum m x) :: r)).
Proof.
  intros m x R. unfold at_momentum. destruct (ms_point x) as [t c|t a b|xs]; [| |destruct R]; cbn [moved_to array_of RtoC Im Re];
    (destruct (Req_EM_T 0 0) as [_|N]; [|now destruct N]); eexists; reflexivity.
Qed.

Lemma wave_call : forall a b c e p, DampedOscillations_call (mkDamped a b c e) p = wave a b c e p.
Proof. intros. unfold DampedOscillations_call, wave. cbn. now replace (-1 * b * p) with (- (b * p)) by ring. Qed.

Lemma wave_row : forall a b c e p r, oscillation_at (mkDamped a b c e) (Row (RtoC p :: r)) = Ok (wave a b c e p).
Proof.
  intros. unfold oscillation_at. cbn. unfold as_float. cbn. destruct (Req_EM_T 0 0) as [_|N]; [|now destruct N]. cbn. now rewrite wave_call.
Qed.

Lemma wave_point : forall a b c e m x, is_real (ms_point x) -> oscillation_at (mkDamped a b c e) (at_momentum m x) = Ok (wave a b c e (momentum m x)).
Proof.
  intros a b c e m x R. unfold at_momentum, oscillation_at. destruct (ms_point x) as [t k|t k l|xs]; [| |destruct R]; cbn; unfold as_float; cbn;
    (destruct (Req_EM_T 0 0) as [_|N]; [|now destruct N]); cbn; now rewrite wave_call.
Qed.

Lemma four_or_not : forall l : list R, (exists a b c e, l = [a; b; c; e]) \/ (length l <> 4%nat /\ forall X (F : R -> R -> R -> R -> X) z, match l with [a; b; c; e] => F a b c e | _ => z end = z).
Proof.
  intros [|a [|b [|c [|e [|f l]]]]]; [right|right|right|right|left|right]; try (split; [cbn; lia|reflexivity]). now exists a, b, c, e.
Qed.

Lemma oscillation_points : forall m l args, Forall (fun x => is_real (ms_point x)) l ->
  oscillation (map (at_momentum m) l) args = match args with [a; b; c; e] => Ok (map (fun x => wave a b c e (momentum m x)) l) | _ => Err ValueError end.
Proof.
  intros m l args R. unfold oscillation. destruct (four_or_not args) as [(a & b & c & e & ->)|[_ Q]]; [|now rewrite !Q].
  rewrite mapM_map'. apply mapM_ok. intros x I. apply wave_point. rewrite Forall_forall in R. now apply R.
Qed.

Lemma oscillation_rows : forall m l args, Forall (fun x => is_real (ms_point x)) l ->
  bind (mapM array_of (map (at_momentum m) l)) (fun rows => oscillation rows args) =
  match args with [a; b; c; e] => Ok (map (fun x => wave a b c e (momentum m x)) l) | _ => Err ValueError end.
Proof.
  intros m l args R.
  assert (A : exists rows, mapM array_of (map (at_momentum m) l) = Ok rows /\ Forall2 (fun x row => exists r, row = Row (RtoC (momentum m x) :: r)) l rows).
  { induction R as [|x l Rx R IH]; [now exists []|]. destruct IH as (rows & E & F). destruct (point_float m x Rx) as (r & Q). cbn [map mapM]. rewrite Q, E.
    eexists. split; [reflexivity|]. constructor; [now exists r|exact F]. }
  destruct A as (rows & E & F). rewrite E. cbn [bind]. unfold oscillation. destruct (four_or_not args) as [(a & b & c & e & ->)|[_ Q]]; [|now rewrite !Q].
  clear E R. induction F as [|x row l rows (r & ->) F IH]; [reflexivity|]. cbn [mapM map]. rewrite wave_row, IH. reflexivity.
Qed.

Lemma oscillator_bounds_eq : forall h, get_bounds POscillations h (damped (100, 2, 5, 0)) = Ok (oscillator_bounds h).
Proof. intros []; reflexivity. Qed.

Lemma with_residuals_eq : forall p e tf yf ef t, with_residuals p e (tf, yf, ef) t =
  mkTask (tk_class t) (tk_name t) p (Some Oscillations) tf yf ef tf yf ef (tk_plot t) (tk_handpicked t) (tk_reports_dir t)
    (tk_mass t) (tk_alpha t) (tk_hc_squared t) (tk_numbers t) (Some e) (tk_report t).
Proof. intros. now destruct t. Qed.

Section Run.
Variable o : Oracle.
Variables (t : Task) (w : World) (d : data) (L : list Measured).
Hypothesis K : tk_class t = ResidualTask.
Hypothesis S : nth_error (w_lists w) (r_data (tk_parameters t)) = Some d.
Hypothesis RC : reachable (r_class (tk_parameters t)) d.
Hypothesis Hm : 0 < tk_mass t.
Hypothesis Ha : tk_alpha t <> 0.
Hypothesis ME : measures t d L.
Hypothesis UN : uniform L.
Hypothesis US : forall x, In x L -> usable (tk_mass t) x.
Variables (res : Res Ref) (t' : Task) (w' : World).
Hypothesis RUN : Task_run o (t, w) = (res, (t', w')).

Lemma low_real : Forall (fun x => is_real (ms_point x)) (low (tk_mass t) L).
Proof. apply Forall_forall. intros x I. apply filter_In in I as [I _]. now destruct (US x I). Qed.

Lemma run_form : low (tk_mass t) L <> [] ->
  exists r1 rep h' evs, r_class r1 = POscillations /\
    let m := tk_mass t in let a := tk_alpha t in
    let t1 := mkTask (tk_class t) (tk_name t) r1 (Some Oscillations)
      (map (at_momentum m) (low m L)) (map (residual m a) (low m L)) (map (residual_error m a) (low m L))
      (map (at_momentum m) (low m L)) (map (residual m a) (low m L)) (map (residual_error m a) (low m L))
      (tk_plot t) (tk_handpicked t) (tk_reports_dir t) (tk_mass t) (tk_alpha t) (tk_hc_squared t) (tk_numbers t)
      (Some (mkEffective (map ms_point L) (map (fun x => effective m a (ms_value x) (time_of (ms_point x))) L)
                 (map (fun x => effective m a (ms_background x) (time_of (ms_point x))) L) (map (residual_error m a) L))) (tk_report t) in
    t' = with_report rep t1 /\ w' = add_events evs (set_lists h' (add_fits [residual_input t L] w)) /\
    outcome_ok o t1 (oscillator 100 2 5 0) oscillation w res rep h' evs.
Proof.
  intros NE. pose proof (run_residual o t w d S (reachable_inv _ _ RC) K) as RR. rewrite (residuals_values t d L Hm Ha ME UN US) in RR. cbv zeta in *.
  destruct (low (tk_mass t) L) as [|x0 rest] eqn:LE; [congruence|]. rewrite <- LE in *. clear NE LE.
  destruct RR as (b & LA & res0 & rep & h' & evs & E & FR & S' & OUT).
  rewrite E in RUN. injection RUN as <- <- <-. exists (mkRef POscillations b), rep, h', evs. split; [reflexivity|].
  rewrite with_residuals_eq in *. split; [reflexivity|]. split; [|exact OUT].
  unfold new_fits. cbn [tk_parameters tk_handpicked r_class]. rewrite oscillator_bounds_eq. reflexivity.
Qed.

Lemma run_none : low (tk_mass t) L = [] -> exists h', res = Err ValueError /\ t' = t /\ w' = set_lists h' w.
Proof.
  intros NE. pose proof (run_residual o t w d S (reachable_inv _ _ RC) K) as RR. rewrite (residuals_values t d L Hm Ha ME UN US) in RR. cbv zeta in *.
  rewrite NE in RR. destruct RR as (h' & E & _). rewrite E in RUN. injection RUN as <- <- <-. now exists h'.
Qed.

Lemma optimum_eq : forall r1 f e1 rp1, r_class r1 = POscillations -> let m := tk_mass t in let a := tk_alpha t in
  let t1 := mkTask (tk_class t) (tk_name t) r1 f
      (map (at_momentum m) (low m L)) (map (residual m a) (low m L)) (map (residual_error m a) (low m L))
      (map (at_momentum m) (low m L)) (map (residual m a) (low m L)) (map (residual_error m a) (low m L))
      (tk_plot t) (tk_handpicked t) (tk_reports_dir t) (tk_mass t) (tk_alpha t) (tk_hc_squared t) (tk_numbers t) e1 rp1 in
  optimum o t1 (oscillator 100 2 5 0) oscillation w = optimise (residual_function m L) (o_fit o (length (w_fits w)) (residual_input t L)).
Proof.
  intros r1 f e1 rp1 RK m a t1. unfold optimum. cbn [t1 tk_parameters tk_handpicked]. rewrite RK.
  change (oscillator 100 2 5 0) with (damped (100, 2, 5, 0)). rewrite oscillator_bounds_eq. cbn [bind].
  unfold the_input. cbn [t1 tk_parameters tk_name tk_ts_fit tk_ys_fit tk_errors_fit]. rewrite RK.
  change (mkFitInput _ _ _ _ _ _ _ _) with (residual_input t L). apply optimise_ext.
  intros args. unfold fitted. cbn [t1 tk_ts_fit]. apply oscillation_rows, low_real.
Qed.

Lemma plot_free : forall k h fits r1 f e1 rp1, tk_class t = k -> let m := tk_mass t in let a := tk_alpha t in
  let t1 := mkTask (tk_class t) (tk_name t) r1 f
      (map (at_momentum m) (low m L)) (map (residual m a) (low m L)) (map (residual_error m a) (low m L))
      (map (at_momentum m) (low m L)) (map (residual m a) (low m L)) (map (residual_error m a) (low m L))
      (tk_plot t) (tk_handpicked t) (tk_reports_dir t) (tk_mass t) (tk_alpha t) (tk_hc_squared t) (tk_numbers t) (Some e1) rp1 in
  ef_ts e1 = map ms_point L ->
  plot_result o t1 fits h = match drawn o t h with Ok _ => Ok tt | Err e => Err e end /\
  plot_events t1 (plot_result o t1 fits h) = match drawn o t h with Ok evs => evs | Err _ => [] end.
Proof.
  intros k h fits r1 f e1 rp1 _ m a t1 EF.
  assert (PT : forall l, (forall x, In x l -> is_real (ms_point x)) -> mapM attr_t (map ms_point l) = Ok (map (fun x => RtoC (time_of (ms_point x))) l)).
  { intros l R. rewrite mapM_map'. apply mapM_ok. intros x I. specialize (R x I). destruct (ms_point x) as [[u v] c|[u v] c e|xs]; cbn in *; subst; reflexivity || destruct R. }
  assert (PM : forall l, (forall x, In x l -> is_real (ms_point x)) -> mapM attr_t (map (at_momentum m) l) = Ok (map (fun x => RtoC (momentum m x)) l)).
  { intros l R. rewrite mapM_map'. apply mapM_ok. intros x I. specialize (R x I). unfold at_momentum. destruct (ms_point x); cbn in *; reflexivity || destruct R. }
  unfold plot_result, plot_events, drawn. cbn [t1 tk_reports_dir tk_class tk_effective tk_ts tk_name]. rewrite K. cbn [style_of]. rewrite EF.
  rewrite PT by (intros x I; now destruct (US x I)). cbn [bind].
  rewrite PM by (intros x I; pose proof low_real as LR; rewrite Forall_forall in LR; now apply LR). cbn [bind].
  destruct (tk_reports_dir t) as [[|ch dir]|]; [split; reflexivity| |split; reflexivity].
  destruct (o_render o h); split; reflexivity.
Qed.

Theorem fit_made : low (tk_mass t) L <> [] ->
  w_fits w' = (w_fits w ++ [residual_input t L])%list /\ same_settings t t' /\ r_class (tk_parameters t') = POscillations /\
  tk_ts t' = map (at_momentum (tk_mass t)) (low (tk_mass t) L) /\
  tk_ys t' = map (residual (tk_mass t) (tk_alpha t)) (low (tk_mass t) L) /\
  tk_errors t' = map (residual_error (tk_mass t) (tk_alpha t)) (low (tk_mass t) L) /\
  tk_effective t' = Some (mkEffective (map ms_point L)
    (map (fun x => effective (tk_mass t) (tk_alpha t) (ms_value x) (time_of (ms_point x))) L)
    (map (fun x => effective (tk_mass t) (tk_alpha t) (ms_background x) (time_of (ms_point x))) L)
    (map (residual_error (tk_mass t) (tk_alpha t)) L)).
Proof.
  intros NE. destruct (run_form NE) as (r1 & rep & h' & evs & RK & -> & -> & _). cbv zeta. repeat split; try reflexivity. exact RK.
Qed.

Lemma low_lengths : forall A B (f : Measured -> A) (g : Measured -> B), length (map f (low (tk_mass t) L)) = length (map g (low (tk_mass t) L)).
Proof. intros. now rewrite !map_length. Qed.

Lemma errors_nonzero : (forall x, In x (low (tk_mass t) L) -> ms_error x <> 0) ->
  Forall (fun e => e <> 0) (map (residual_error (tk_mass t) (tk_alpha t)) (low (tk_mass t) L)).
Proof.
  intros NZ. apply Forall_forall. intros e I. apply in_map_iff in I as (x & <- & I). specialize (NZ x I). apply filter_In in I as [I _].
  destruct (US x I) as (R & T & B & V). unfold residual_error, effective_error.
  assert (UP := unit_factor_pos (tk_mass t) (tk_alpha t) (time_of (ms_point x)) Hm Ha T).
  assert (SP : 0 < sqrt (unit_factor (tk_mass t) (tk_alpha t) (time_of (ms_point x)) * ms_background x)) by (apply sqrt_lt_R0; nra).
  unfold Rdiv. apply Rmult_integral_contrapositive. split; [apply Rmult_integral_contrapositive; split; [lra|exact NZ]|apply Rinv_neq_0_compat; lra].
Qed.

Theorem outcome : low (tk_mass t) L <> [] ->
  let m := tk_mass t in let a := tk_alpha t in
  match optimise (residual_function m L) (o_fit o (length (w_fits w)) (residual_input t L)) with
  | Ok ([a0; b0; c0; e0], cov) =>
      let ws := map (fun x => wave a0 b0 c0 e0 (momentum m x)) (low m L) in
      contents w' (tk_parameters t') = Some (oscillator a0 b0 c0 e0) /\
      ((forall x, In x (low m L) -> ms_error x <> 0) -> length (low m L) <> 4%nat ->
        match drawn o t (length (w_events w)) with
        | Ok evs => res = Ok (tk_parameters t') /\ w_events w' = (w_events w ++ evs)%list
        | Err e => res = Err e /\ w_events w' = w_events w
        end /\
        rp_status (tk_report t') = "finished" /\ rp_values (tk_report t') = [a0; b0; c0; e0] /\
        (exists final, rp_final (tk_report t') = Some final /\ nth_error (w_lists w') final = Some (oscillator a0 b0 c0 e0)) /\
        rp_initial (tk_report t') = rp_initial (tk_report t) /\
        rp_covariance (tk_report t') = Some cov /\
        rp_r2 (tk_report t') = Some (o_str o (plain_sum (map (residual m a) (low m L)) ws)) /\
        rp_chi_squared (tk_report t') =
          Some (o_str o (reduced_chi_squared (map (residual m a) (low m L)) ws (map (residual_error m a) (low m L)) 4)))
  | Ok _ => res = Err ValueError /\ tk_report t' = tk_report t /\ w_events w' = w_events w
  | Err RuntimeError => res = Ok (tk_parameters t') /\ rp_status (tk_report t') = "failed" /\ rp_final (tk_report t') = rp_final (tk_report t) /\
      contents w' (tk_parameters t') = Some (oscillator 100 2 5 0) /\ w_events w' = w_events w
  | Err e => res = Err e /\ tk_report t' = tk_report t /\ w_events w' = w_events w
  end.
Proof.
  intros NE. pose proof low_real as LR. destruct (run_form NE) as (r1 & rep & h' & evs & RK & ET & EW & OUT). cbv zeta in *. unfold outcome_ok in OUT.
  rewrite optimum_eq in OUT by exact RK. set (m := tk_mass t) in *. set (a := tk_alpha t) in *.
  match type of ET with t' = with_report rep ?x => set (t1 := x) in * end.
  assert (P1 : tk_parameters t' = r1) by (rewrite ET; reflexivity). assert (RP : tk_report t' = rep) by (rewrite ET; reflexivity).
  assert (EV : w_events w' = (w_events w ++ evs)%list) by (rewrite EW; reflexivity). assert (LS : w_lists w' = h') by (rewrite EW; reflexivity).
  unfold contents. rewrite P1, RP, LS. change (tk_parameters t1) with r1 in OUT. change (tk_report t1) with (tk_report t) in OUT.
  destruct (optimise _ _) as [[popt cov]|e].
  2: { destruct e; destruct OUT as (A1 & A2 & A3 & A4); rewrite EV, A4, app_nil_r; rewrite A2; auto. }
  change (count_free (oscillator 100 2 5 0)) with 4%nat in OUT.
  destruct (four_or_not popt) as [(a0 & b0 & c0 & e0 & ->)|[NL Q]].
  2: { destruct (Nat.eq_dec (length popt) 4); [contradiction|]. destruct OUT as (A1 & A2 & A3 & A4).
       destruct popt as [|? [|? [|? [|? [|? ?]]]]]; try (rewrite EV, A4, app_nil_r, A2; auto). now destruct NL. }
  cbn [length Nat.eq_dec] in OUT. destruct (Nat.eq_dec 4 4) as [_|N]; [|now destruct N]. destruct OUT as [ST OUT].
  change (fill (oscillator 100 2 5 0) [a0; b0; c0; e0]) with (oscillator a0 b0 c0 e0) in *. cbn zeta.
  split; [exact ST|]. intros NZ N4.
  change (tk_ts t1) with (map (at_momentum m) (low m L)) in OUT. rewrite oscillation_points in OUT by exact LR.
  change (tk_ys t1) with (map (residual m a) (low m L)) in OUT. change (tk_errors t1) with (map (residual_error m a) (low m L)) in OUT.
  rewrite chi_value in OUT; [|apply low_lengths|apply low_lengths|now apply errors_nonzero|now rewrite map_length]. cbn [text_of] in OUT.
  destruct OUT as (_ & (final & values & RE & GO & _ & NF & _) & _ & (PL1 & PL2)). rewrite plain_sum_eq in RE.
  destruct (plot_free _ (length (w_events w)) (map (fun x => wave a0 b0 c0 e0 (momentum m x)) (low m L)) r1 (Some Oscillations)
    (mkEffective (map ms_point L) (map (fun x => effective m a (ms_value x) (time_of (ms_point x))) L)
       (map (fun x => effective m a (ms_background x) (time_of (ms_point x))) L) (map (residual_error m a) L)) (tk_report t) eq_refl eq_refl) as [PF1 PF2].
  fold m a t1 in PF1, PF2. rewrite PF2 in PL2. rewrite PF1 in PL1. change (tk_parameters t1) with r1 in PL1.
  rewrite RK in GO. cbn in GO. injection GO as <-. rewrite RE. cbn [done rp_status rp_values rp_final rp_initial rp_covariance rp_r2 rp_chi_squared].
  split; [|split; [reflexivity|split; [reflexivity|split; [exists final; auto|auto]]]].
  rewrite EV, PL2. destruct (drawn o t (length (w_events w))) as [l|e]; rewrite ?app_nil_r; auto.
Qed.

(** With as many points as parameters, or a vanishing error, the statistic divides by zero. *)
Theorem division : forall a0 b0 c0 e0 cov, low (tk_mass t) L <> [] -> o_division o (length (w_fits w) + 1) = DivRaises ->
  optimise (residual_function (tk_mass t) L) (o_fit o (length (w_fits w)) (residual_input t L)) = Ok ([a0; b0; c0; e0], cov) ->
  (length (low (tk_mass t) L) = 4%nat \/ exists x, In x (low (tk_mass t) L) /\ ms_error x = 0) ->
  res = Err ZeroDivisionError /\ tk_report t' = tk_report t /\ w_events w' = w_events w.
Proof.
  intros a0 b0 c0 e0 cov NE DR FE CASE. pose proof low_real as LR. destruct (run_form NE) as (r1 & rep & h' & evs & RK & ET & EW & OUT).
  cbv zeta in *. unfold outcome_ok in OUT. rewrite optimum_eq, FE in OUT by exact RK. set (m := tk_mass t) in *. set (a := tk_alpha t) in *.
  match type of ET with t' = with_report rep ?x => set (t1 := x) in * end.
  assert (RP : tk_report t' = rep) by (rewrite ET; reflexivity). assert (EV : w_events w' = (w_events w ++ evs)%list) by (rewrite EW; reflexivity).
  change (count_free (oscillator 100 2 5 0)) with 4%nat in OUT. cbn [length] in OUT. destruct (Nat.eq_dec 4 4) as [_|N]; [|now destruct N]. destruct OUT as [_ OUT].
  change (tk_ts t1) with (map (at_momentum m) (low m L)) in OUT. rewrite oscillation_points in OUT by exact LR.
  change (tk_ys t1) with (map (residual m a) (low m L)) in OUT. change (tk_errors t1) with (map (residual_error m a) (low m L)) in OUT. cbv zeta in OUT.
  rewrite chi_degenerate in OUT; [|apply low_lengths|apply low_lengths|].
  2: { destruct CASE as [C|(x & I & Z)]; [right; now rewrite map_length|left]. apply Exists_exists. exists (residual_error m a x).
       split; [now apply in_map|]. unfold residual_error, effective_error. rewrite Z. unfold Rdiv. ring. }
  unfold text_of in OUT. rewrite app_length in OUT.
  assert (N1 : length (new_fits t1 (oscillator 100 2 5 0)) = 1%nat).
  { unfold new_fits. change (tk_parameters t1) with r1. change (tk_handpicked t1) with (tk_handpicked t). rewrite RK.
    change (oscillator 100 2 5 0) with (damped (100, 2, 5, 0)). now rewrite oscillator_bounds_eq. }
  rewrite N1, DR in OUT.
  destruct OUT as (-> & A2 & ->). rewrite RP, EV, A2, app_nil_r. auto.
Qed.
End Run.

(** ** C54 *)

(** A run of the residual task on usable measurements. *)
Record residual_run (o : Oracle) (t : Task) (w : World) (d : data) (L : list Measured) (res : Res Ref) (t' : Task) (w' : World) : Prop := mkResidualRun {
  rr_class : tk_class t = ResidualTask;
  rr_store : contents w (tk_parameters t) = Some d;
  rr_reachable : reachable (r_class (tk_parameters t)) d;
  rr_mass : 0 < tk_mass t;
  rr_alpha : tk_alpha t <> 0;
  rr_measures : measures t d L;
  rr_uniform : uniform L;
  rr_usable : forall x, In x L -> usable (tk_mass t) x;
  rr_run : Task_run o (t, w) = (res, (t', w'))
}.

(** The optimiser gets exactly the low points with their residuals and errors, the start and bounds of the oscillation. *)
Theorem C54_fit_input : forall o t w d L res t' w', residual_run o t w d L res t' w' ->
  (low (tk_mass t) L = [] -> res = Err ValueError /\ t' = t /\ w_fits w' = w_fits w /\ w_events w' = w_events w) /\
  (low (tk_mass t) L <> [] ->
     w_fits w' = (w_fits w ++ [residual_input t L])%list /\ same_settings t t' /\ r_class (tk_parameters t') = POscillations /\
     tk_ts t' = map (at_momentum (tk_mass t)) (low (tk_mass t) L) /\
     tk_ys t' = map (residual (tk_mass t) (tk_alpha t)) (low (tk_mass t) L) /\
     tk_errors t' = map (residual_error (tk_mass t) (tk_alpha t)) (low (tk_mass t) L) /\
     tk_effective t' = Some (mkEffective (map ms_point L)
       (map (fun x => effective (tk_mass t) (tk_alpha t) (ms_value x) (time_of (ms_point x))) L)
       (map (fun x => effective (tk_mass t) (tk_alpha t) (ms_background x) (time_of (ms_point x))) L)
       (map (residual_error (tk_mass t) (tk_alpha t)) L))).
Proof.
  intros o t w d L res t' w' [K S RC Hm Ha ME UN US RUN]. split; intros NE.
  - destruct (run_none o t w d L K S RC Hm Ha ME UN US res t' w' RUN NE) as (h' & -> & -> & ->). auto.
  - exact (fit_made o t w d L K S RC Hm Ha ME UN US res t' w' RUN NE).
Qed.
Print Assumptions C54_fit_input.

(** What comes of it: the fitted function is the damped oscillation of the momentum, and the report is computed from
    the residuals of the kept points. *)
Theorem C54_outcome : forall o t w d L res t' w', residual_run o t w d L res t' w' -> low (tk_mass t) L <> [] ->
  let m := tk_mass t in let a := tk_alpha t in
  match optimise (residual_function m L) (o_fit o (length (w_fits w)) (residual_input t L)) with
  | Ok ([a0; b0; c0; e0], cov) =>
      let ws := map (fun x => wave a0 b0 c0 e0 (momentum m x)) (low m L) in
      contents w' (tk_parameters t') = Some (oscillator a0 b0 c0 e0) /\
      ((forall x, In x (low m L) -> ms_error x <> 0) -> length (low m L) <> 4%nat ->
        match drawn o t (length (w_events w)) with
        | Ok evs => res = Ok (tk_parameters t') /\ w_events w' = (w_events w ++ evs)%list
        | Err e => res = Err e /\ w_events w' = w_events w
        end /\
        rp_status (tk_report t') = "finished" /\ rp_values (tk_report t') = [a0; b0; c0; e0] /\
        (exists final, rp_final (tk_report t') = Some final /\ nth_error (w_lists w') final = Some (oscillator a0 b0 c0 e0)) /\
        rp_initial (tk_report t') = rp_initial (tk_report t) /\
        rp_covariance (tk_report t') = Some cov /\
        rp_r2 (tk_report t') = Some (o_str o (plain_sum (map (residual m a) (low m L)) ws)) /\
        rp_chi_squared (tk_report t') =
          Some (o_str o (reduced_chi_squared (map (residual m a) (low m L)) ws (map (residual_error m a) (low m L)) 4)))
  | Ok _ => res = Err ValueError /\ tk_report t' = tk_report t /\ w_events w' = w_events w
  | Err RuntimeError => res = Ok (tk_parameters t') /\ rp_status (tk_report t') = "failed" /\ rp_final (tk_report t') = rp_final (tk_report t) /\
      contents w' (tk_parameters t') = Some (oscillator 100 2 5 0) /\ w_events w' = w_events w
  | Err e => res = Err e /\ tk_report t' = tk_report t /\ w_events w' = w_events w
  end.
Proof. intros o t w d L res t' w' [K S RC Hm Ha ME UN US RUN] NE. exact (outcome o t w d L K S RC Hm Ha ME UN US res t' w' RUN NE). Qed.
Print Assumptions C54_outcome.

(** Four kept points, or one measured without error, end the run with a division by zero when the quotient is computed
    in plain floats. *)
Theorem C54_division_by_zero : forall o t w d L res t' w' a0 b0 c0 e0 cov, residual_run o t w d L res t' w' ->
  low (tk_mass t) L <> [] -> o_division o (length (w_fits w) + 1) = DivRaises ->
  optimise (residual_function (tk_mass t) L) (o_fit o (length (w_fits w)) (residual_input t L)) = Ok ([a0; b0; c0; e0], cov) ->
  (length (low (tk_mass t) L) = 4%nat \/ exists x, In x (low (tk_mass t) L) /\ ms_error x = 0) ->
  res = Err ZeroDivisionError /\ tk_report t' = tk_report t /\ w_events w' = w_events w.
Proof.
  intros o t w d L res t' w' a0 b0 c0 e0 cov [K S RC Hm Ha ME UN US RUN]. exact (division o t w d L K S RC Hm Ha ME UN US res t' w' RUN a0 b0 c0 e0 cov).
Qed.
Print Assumptions C54_division_by_zero.

(** ** An instance *)

Definition demo_rational (n : string) : Q :=
  if String.prefix "t_0" n then 1 else if String.prefix "t_in" n then 2 else if String.prefix "a_" n then 1 # 7 else if String.prefix "mass" n then 2 else 1 # 2.
Definition demo_rationals : list (string * Q) := map (fun n => (n, demo_rational n)) (class_names PKaonB).
Definition rational_store : data := map (fun x => mkPar (fst x) (Q2R (snd x)) true) demo_rationals.
Lemma rational_keywords : keywords rational_store = env_of demo_rationals.
Proof. unfold keywords, rational_store, env_of. rewrite map_map. reflexivity. Qed.
Lemma rational_reachable : reachable PKaonB rational_store.
Proof.
  apply inv_reachable. split.
  - unfold names, rational_store, demo_rationals. rewrite !map_map. apply map_id.
  - intros p I _. apply in_map_iff in I as (x & <- & _). reflexivity.
Qed.
Definition far (b : cball) : bool := ((rad (bre b) <? Z.abs (mid (bre b))) || (rad (bim b) <? Z.abs (mid (bim b))))%Z.
Lemma far_nonzero : forall b z, inC b z -> far b = true -> z <> RtoC 0.
Proof.
  intros b z H F ->. apply Cwithin_inC in H. destruct H as [H1 H2]. unfold within in *. cbn in H1, H2.
  assert (U : 0 < unit72) by (unfold unit72; apply Rinv_0_lt_compat, pow_lt; lra).
  assert (X : forall m r, Rabs (0 - IZR m * unit72) <= IZR r * unit72 -> (Z.abs m <= r)%Z).
  { intros m r Q. rewrite Rminus_0_l, Rabs_Ropp, Rabs_mult, (Rabs_right unit72) in Q by lra. apply Rmult_le_reg_r in Q; [|exact U]. rewrite <- abs_IZR in Q. now apply le_IZR. }
  apply X in H1. apply X in H2. unfold far in F. apply orb_true_iff in F as [F|F]; apply Z.ltb_lt in F; lia.
Qed.
Definition clear_of_zero (q : Q) : bool :=
  match bkaon_init bKaonUAModelB true (benv_of demo_rationals) with
  | Some m => match bkaon_call m (cb_q (q, 0%Q)) with Some b => far b | None => false end
  | None => false
  end.
Lemma demo_kaon_value : forall q, clear_of_zero q = true ->
  exists v, kaon_value ReducedB true (keywords rational_store) (QtoC (q, 0%Q)) = Ok v /\ v <> RtoC 0.
Proof.
  intros q E. unfold clear_of_zero in E. destruct quoted_classes as [_ [QC _]]. unfold kaon_value. cbn [kaon_class]. rewrite <- QC, rational_keywords.
  pose proof (enc_kaon_init bKaonUAModelB true _ _ (enc_env_of demo_rationals)) as K.
  destruct (bkaon_init bKaonUAModelB true (benv_of demo_rationals)) as [b|]; [|discriminate E].
  destruct K as [m [F K]]. rewrite F. cbn [bind].
  pose proof (enc_kaon_call _ _ _ _ K (inC_q (q, 0%Q))) as V. destruct (bkaon_call b (cb_q (q, 0%Q))) as [r|]; [|discriminate E].
  destruct V as (v & G & V). exists v. split; [exact G|]. eapply far_nonzero; eassumption.
Qed.
Lemma demo_background : forall z, (4 < z)%Z -> clear_of_zero (inject_Z z) = true ->
  exists y, 0 < y /\ cross_section_at PKaonB (1/2) 1 1 rational_store (KaonDatapoint (RtoC (IZR z)) true) = Ok y.
Proof.
  intros z Hz E. destruct (demo_kaon_value (inject_Z z) E) as (v & KV & NZ). apply IZR_lt in Hz.
  assert (T : QtoC (inject_Z z, 0%Q) = RtoC (IZR z)). { unfold QtoC, RtoC. cbn. unfold Q2R. cbn. f_equal; lra. }
  rewrite T in KV.
  pose proof (C29_formula_above_threshold (1/2) 1 1 (kaon_value ReducedB true (keywords rational_store)) (IZR z) v KV ltac:(lra) ltac:(lra)) as CS.
  exists (Cabs (RtoC (sigma_scalar (1/2) 1 1 (IZR z) (Cabs v)))). split.
  2: { unfold cross_section_at. cbn [family_of kaon_point]. rewrite CS. reflexivity. }
  assert (A : 0 < Cabs v) by now apply Cabs_pos. set (z0 := IZR z) in *. rewrite Cabs_RtoC.
  assert (P : 0 < sigma_scalar (1/2) 1 1 z0 (Cabs v)).
  { assert (Q : 0 < 1 - 4 * (1/2)^2 / z0). { apply Rmult_lt_reg_r with z0; [lra|]. replace ((1 - 4 * (1/2)^2 / z0) * z0) with (z0 - 1) by (field; lra). lra. }
    unfold sigma_scalar, pow32. assert (PP := Rtrigo1.PI_RGT_0). apply Rmult_lt_0_compat; [|nra]. apply Rmult_lt_0_compat.
    - apply Rdiv_lt_0_compat; lra.
    - apply Rmult_lt_0_compat; [exact Q|now apply sqrt_lt_R0]. }
  rewrite Rabs_right; lra.
Qed.

Lemma clear_at_5 : clear_of_zero (inject_Z 5) = true. Proof. vm_compute. reflexivity. Qed.
Lemma clear_at_10 : clear_of_zero (inject_Z 10) = true. Proof. vm_compute. reflexivity. Qed.

Lemma rational_buildable : buildable PKaonB rational_store = Ok tt.
Proof.
  destruct (demo_kaon_value (inject_Z 5) clear_at_5) as (v & KV & _). unfold kaon_value in KV. unfold buildable. cbn [family_of].
  destruct (Kaon_init _ true _); [reflexivity|discriminate].
Qed.

Lemma momenta : forall z b v e, (1 < z)%Z -> momentum (1/2) (mkMeasured (KaonDatapoint (RtoC (IZR z)) true) b v e) = sqrt (IZR (z * (z - 1))).
Proof.
  intros z b v e Hz. unfold momentum, lab_momentum. cbn [ms_point time_of]. cbn [RtoC Re]. rewrite mult_IZR, minus_IZR.
  replace (2 * (1/2)) with 1 by lra. replace (4 * (1/2)^2) with 1 by lra. field.
Qed.

Definition demo_residual_task (y5 y10 : R) : Task :=
  let ts := [KaonDatapoint (RtoC 5) true; KaonDatapoint (RtoC 10) true; KaonDatapoint (RtoC 5) true] in
  mkTask ResidualTask "Demo" (mkRef PKaonB 0%nat) None ts [y5 + 1; y10; y5] [1; 1; 2] ts [y5 + 1; y10; y5] [1; 1; 2] false true None (1/2) 1 1 true None
    (mkReport "Demo" 0%nat None None None None None "started" None []).

(** Three points, one of which lies above the cutoff: two residuals are fitted, the second of them zero. *)
Example C54_instance : exists y5 y10 res t' w',
  let o := demo_oracle (fun _ _ => FitReturn [1; 2; 3; 4] []) DivRaises in
  let A := mkMeasured (KaonDatapoint (RtoC 5) true) y5 (y5 + 1) 1 in
  let B := mkMeasured (KaonDatapoint (RtoC 10) true) y10 y10 1 in
  let D := mkMeasured (KaonDatapoint (RtoC 5) true) y5 y5 2 in
  residual_run o (demo_residual_task y5 y10) (mkWorld [rational_store] 0%nat 0%nat [] []) rational_store [A; B; D] res t' w' /\
  low (1/2) [A; B; D] = [A; D] /\ 0 < residual (1/2) 1 A /\ residual (1/2) 1 D = 0 /\
  rp_status (tk_report t') = "finished" /\ rp_values (tk_report t') = [1; 2; 3; 4] /\ res = Ok (tk_parameters t').
Proof.
  destruct (demo_background 5 eq_refl clear_at_5) as (y5 & P5 & B5). destruct (demo_background 10 eq_refl clear_at_10) as (y10 & P10 & B10).
  exists y5, y10. set (o := demo_oracle _ _). set (t := demo_residual_task y5 y10). set (w := mkWorld _ _ _ _ _).
  destruct (Task_run o (t, w)) as [res [t' w']] eqn:E. exists res, t', w'. cbv zeta.
  set (A := mkMeasured _ y5 (y5 + 1) 1). set (B := mkMeasured _ y10 y10 1). set (D := mkMeasured _ y5 y5 2).
  assert (US : forall x, In x [A; B; D] -> usable (1/2) x).
  { intros x [<-|[<-|[<-|[]]]]; (split; [reflexivity|]); cbn [ms_point ms_background ms_value A B D time_of RtoC Re]; repeat split; lra. }
  assert (RR : residual_run o t w rational_store [A; B; D] res t' w').
  { split; try reflexivity; cbn [t demo_residual_task tk_mass tk_alpha]; try lra.
    - exact rational_reachable.
    - repeat split; [exact rational_buildable|]. intros x [<-|[<-|[<-|[]]]]; [exact B5|exact B10|exact B5].
    - left. intros x [<-|[<-|[<-|[]]]]; exact I.
    - exact US.
    - exact E. }
  assert (LO : low (1/2) [A; B; D] = [A; D]).
  { assert (S5 : sqrt (IZR (5 * (5 - 1))) < 5) by (replace 5 with (sqrt (5 * 5)) by (apply sqrt_square; lra); apply sqrt_lt_1_alt; cbn; lra).
    assert (S10 : ~ sqrt (IZR (10 * (10 - 1))) < 5).
    { intros Q. apply Rlt_not_le in Q. apply Q. replace 5 with (sqrt (5 * 5)) by (apply sqrt_square; lra). apply sqrt_le_1_alt. cbn. lra. }
    unfold low. cbn [filter]. unfold survives, A, B, D. rewrite !(momenta 5), (momenta 10) by lia.
    destruct (Rlt_dec (sqrt (IZR (5 * (5 - 1)))) 5) as [_|N]; [|contradiction]. destruct (Rlt_dec (sqrt (IZR (10 * (10 - 1)))) 5) as [N|_]; [contradiction|]. reflexivity. }
  split; [exact RR|]. split; [exact LO|].
  assert (UF : 0 < unit_factor (1/2) 1 5) by (apply unit_factor_pos; lra).
  split; [|split].
  - unfold residual, effective. cbn [A ms_point ms_value ms_background time_of RtoC Re]. apply Rlt_Rminus. apply sqrt_lt_1_alt. nra.
  - unfold residual. cbn [D ms_point ms_value ms_background]. ring.
  - assert (NE : low (tk_mass t) [A; B; D] <> []) by (change (tk_mass t) with (1/2); rewrite LO; discriminate).
    pose proof (C54_outcome _ _ _ _ _ _ _ _ RR NE) as OUT. cbv zeta in OUT. change (tk_mass t) with (1/2) in OUT. rewrite LO in OUT.
    change (optimise _ _) with (@Ok (list R * matrix) ([1; 2; 3; 4], [])) in OUT. cbv beta iota in OUT. destruct OUT as (_ & OUT).
    destruct OUT as (DR & ST & VA & _); [intros x [<-|[<-|[]]]; cbn; lra|cbn; lia|].
    change (drawn _ _ _) with (@Ok (list event) []) in DR. destruct DR as (DR & _). auto.
Qed.
