(** Model of task/: one fit.

    What is outside of the model is an arbitrary [Oracle]: the optimiser, the random sampler, the file system, the
    plotting library and the texts Python prints for numbers and containers.

    Simplifications.  An optimiser run is a finite tree of calls of the fitted function, so it always ends
    ([maxfev=7000]).  [curve_fit] hands the datapoints to the function as rows of an array of floats.  Attributes that
    [ResidualOscillationsTask._set_up] has assigned before it raises are not recorded.  Errors of the plotting library
    are raised when the figure is saved. *)
From Coq Require Import String Ascii Reals List Bool Arith.
From Verif Require Import PyBase CNum PyExpr OtherModels Params ParamClasses CrossSections CommonUtils Scripts World DataSets.
Import ListNotations.
Local Open Scope R_scope.
Local Open Scope string_scope.
Local Open Scope list_scope.
Local Open Scope m_scope.

(** ** Dictionaries *)

Definition matrix := list (list ext).

(** Task.py l.31-42: the report dictionary; lists made by [to_list] are list objects. *)
Record Report := mkReport {
  rp_name : string;
  rp_initial : addr;
  rp_final : option addr;
  rp_r2 : option string;
  rp_chi_squared : option string;
  rp_covariance : option matrix;
  rp_errors : option (list (option ext));      (* None inside: NaN *)
  rp_status : string;
  rp_message : option string;
  rp_values : list R
}.

(** Pipeline.py l.31, 80-87: the best fit dictionary. *)
Record BestFit := mkBestFit {
  bf_chi_squared : option string;
  bf_name : option string;
  bf_parameters : option addr;
  bf_values : option (list R);
  bf_covariance : option matrix;
  bf_errors : option (list (option ext))
}.

(** ** The outside *)

(** A run of the optimiser: it calls the function with some parameters, looks at the result, and so on. *)
Inductive Fit :=
  | FitCall (args : list R) (continue : list R -> Fit)
  | FitReturn (popt : list R) (pcov : matrix)
  | FitRaise (e : exn).

(** Result of a float division by zero: numpy floats give infinities or NaN, Python floats raise. *)
Inductive degenerate := DivRaises | DivInf | DivNegInf | DivNaN.

Record Oracle := mkOracle {
  o_fit : nat -> FitInput -> Fit;                  (* the n-th call of curve_fit *)
  o_message : nat -> string;                       (* str(err) *)
  o_sample : nat -> list nat;                      (* the n-th call of random.sample *)
  o_exists : string -> bool;                       (* os.path.exists at the start *)
  o_mkdir : string -> bool;                        (* can the directory be made? *)
  o_render : nat -> option exn;                    (* does plotting raise? *)
  o_str : R -> string;                             (* str of a float *)
  o_division : nat -> degenerate;
  o_show_list : data -> string;                    (* str of a list of parameters *)
  o_show_names : list string -> string;
  o_show_report : Report -> data -> option data -> string;
  o_show_best : BestFit -> option data -> string
}.

(** ** Objects *)

Inductive task_class :=
  | KCS_FullFit | KCS_FixedCoupling | KCS_FixAccording
  | KFF_FullFit | KFF_FullFitOnlyCharged | KFF_FixAccording | KFF_FixAccordingOnlyCharged
  | NCS_FullFit | NCS_FixedCoupling | NCS_FixAccording
  | NFF_FullFit | NFF_FixAccording
  | ETGMRTask | TwoPolesTask | ResidualTask.

(** [cls.__name__]. *)
Definition class_name (c : task_class) : string :=
  match c with
  | KCS_FullFit | KFF_FullFit | NCS_FullFit | NFF_FullFit => "TaskFullFit"
  | KFF_FullFitOnlyCharged => "TaskFullFitOnlyCharged"
  | KCS_FixedCoupling | NCS_FixedCoupling => "TaskFixedCouplingConstants"
  | KCS_FixAccording | KFF_FixAccording | NCS_FixAccording | NFF_FixAccording => "TaskFixAccordingToParametersFit"
  | KFF_FixAccordingOnlyCharged => "TaskFixAccordingToParametersFitOnlyCharged"
  | ETGMRTask => "ETGMRModelTask"
  | TwoPolesTask => "TwoPolesModelTask"
  | ResidualTask => "ResidualOscillationsTask"
  end.

(** The fitted function: a closure of common/utils.py or the inner function of ResidualOscillationsTask.py l.149-166,
    which looks up [self.parameters] whenever it is called. *)
Inductive Function := Common (p : Partial) | Oscillations.

(** Attributes of a task object. *)
Record Task := mkTask {
  tk_class : task_class;
  tk_name : string;
  tk_parameters : Ref;
  tk_f : option Function;
  tk_ts : list datapoint; tk_ys : list R; tk_errors : list R;
  tk_ts_fit : list datapoint; tk_ys_fit : list R; tk_errors_fit : list R;
  tk_plot : bool;
  tk_handpicked : bool;
  tk_reports_dir : option string;
  tk_mass : R; tk_alpha : R; tk_hc_squared : R;
  tk_numbers : bool;      (* false: the three attributes above hold a directory and two truth values *)
  tk_effective : option Effective;
  tk_report : Report
}.

Definition with_f (f : Function) (t : Task) : Task :=
  let '(mkTask c n p _ ts ys es tf yf ef pl h d m a hc k e r) := t in mkTask c n p (Some f) ts ys es tf yf ef pl h d m a hc k e r.
Definition with_report (r : Report) (t : Task) : Task :=
  let '(mkTask c n p f ts ys es tf yf ef pl h d m a hc k e _) := t in mkTask c n p f ts ys es tf yf ef pl h d m a hc k e r.
Definition with_fit_data (x : list datapoint * list R * list R) (t : Task) : Task :=
  let '(mkTask c n p f ts ys es _ _ _ pl h d m a hc k e r) := t in
  let '(tf, yf, ef) := x in mkTask c n p f ts ys es tf yf ef pl h d m a hc k e r.
Definition with_residuals (p : Ref) (e : Effective) (x : list datapoint * list R * list R) (t : Task) : Task :=
  let '(mkTask c n _ _ _ _ _ _ _ _ pl h d m a hc k _ r) := t in
  let '(tf, yf, ef) := x in mkTask c n p (Some Oscillations) tf yf ef tf yf ef pl h d m a hc k (Some e) r.

(** A method of a task. *)
Definition TM := M (Task * World).
Definition inW {A : Type} (m : W A) : TM A := fun s => let '(r, w) := m (snd s) in (r, (fst s, w)).
Definition self : TM Task := fun s => (Ok (fst s), s).
Definition modify (f : Task -> Task) : TM unit := fun s => (Ok tt, (f (fst s), snd s)).

(** Task.py l.13-43, with the attributes set by the subclass constructors (KaonCrossSectionTask.py l.11-27,
    KaonFormFactorTask.py l.11-22, NucleonCrossSectionTask.py l.11-26, NucleonFormFactorTask.py l.11-21,
    ETGMRModelTask.py l.14-30, TwoPolesModelTask.py l.14-24, ResidualOscillationsTask.py l.83-103); classes without
    mass, alpha and hc_squared get 0. *)
Definition Task_init (c : task_class) (name : string) (parameters : Ref) (ts : list datapoint) (ys errors : list R)
  (mass alpha hc_squared : R) (numbers : bool) (reports_dir : option string) (plot handpicked : bool) : W Task :=
  initial <~ obj_to_list parameters ;;
  ret (mkTask c name parameters None ts ys errors ts ys errors plot handpicked reports_dir mass alpha hc_squared numbers None
         (mkReport name initial None None None None None "started" None [])).

Section Methods.
Variable o : Oracle.

(** ** Calling the fitted function *)

(** ResidualOscillationsTask.py l.159-163; both branches read the first entry, which [math.exp] or [float] wants real. *)
Definition oscillation_at (m : Damped) (p : datapoint) : Res R :=
  bind (index p 0) (fun t => bind (as_float t) (fun x => Ok (DampedOscillations_call m x))).

(** ResidualOscillationsTask.py l.149-166. *)
Definition oscillations (ts : list datapoint) (pars : list R) : TM (list R) :=
  t <~ self ;;
  inW (l <~ obj_to_list (tk_parameters t) ;;
       parameters <~ obj_from_list POscillations l ;;
       obj_mutate parameters (MUpdateFree pars) ;;;
       obj_read parameters (fun d =>
         bind (getitem d "a") (fun a => bind (getitem d "b") (fun b =>
         bind (getitem d "c") (fun c => bind (getitem d "d") (fun e =>
         mapM (oscillation_at (mkDamped (par_value a) (par_value b) (par_value c) (par_value e))) ts)))))).

(** [self.partial_f(ts, *args)]; calling [None] raises TypeError. *)
Definition call_f (ts : list datapoint) (args : list R) : TM (list R) :=
  t <~ self ;;
  match tk_f t with
  | None => raise TypeError
  | Some (Common p) => inW (call_partial p ts args)
  | Some Oscillations => oscillations ts args
  end.

(** ** [_set_up] *)

(** [make_partial_cross_section_for_parameters(self.product_particle_mass, self.alpha, self.hc_squared, self.parameters)]. *)
Definition own_cross_section (t : Task) : W Partial :=
  if tk_numbers t then make_partial_cross_section_for_parameters (tk_mass t) (tk_alpha t) (tk_hc_squared t) (tk_parameters t)
  else make_partial_misplaced (tk_parameters t).

Definition partial_cross_section : TM unit :=
  t <~ self ;;
  f <~ inW (own_cross_section t) ;;
  modify (with_f (Common f)).

Definition partial_form_factor : TM unit :=
  t <~ self ;;
  f <~ inW (make_partial_form_factor_for_parameters (tk_parameters t)) ;;
  modify (with_f (Common f)).

(** [p.name[:2] == 'a_']. *)
Definition is_coupling (name : string) : bool := String.eqb (substring 0 2 name) "a_".

(** kaon_cross_section_tasks.py l.18-21, nucleon_cross_section_tasks.py l.18-21. *)
Definition fix_couplings : TM unit :=
  t <~ self ;;
  names <~ inW (obj_read (tk_parameters t) (fun d => Ok (filter is_coupling (map par_name d)))) ;;
  inW (obj_mutate (tk_parameters t) (MFix names)).

(** kaon_form_factor_tasks.py l.18-22, 37-41. *)
Definition only_charged : TM unit :=
  t <~ self ;;
  rows <~ lift (filterM (fun row => attr_is_charged (fst (fst row))) (zip3 (tk_ts_fit t) (tk_ys_fit t) (tk_errors_fit t))) ;;
  x <~ lift (unzip3 rows) ;;
  modify (with_fit_data x).

(** ResidualOscillationsTask.py l.121-166. *)
Definition set_up_residuals : TM unit :=
  t <~ self ;;
  inW (obj_mutate (tk_parameters t) MFixAll) ;;;
  background_f <~ inW (own_cross_section t) ;;
  background_ys <~ inW (call_partial background_f (tk_ts t) []) ;;
  x <~ lift (residual_data (tk_mass t) (tk_alpha t) background_ys (tk_ts t) (tk_ys t) (tk_errors t)) ;;
  p <~ inW (obj_new POscillations [("a", 100); ("b", 2); ("c", 5); ("d", 0)]) ;;
  modify (with_residuals p (fst x) (snd x)).

Definition release_all_parameters : TM unit := t <~ self ;; inW (obj_mutate (tk_parameters t) MReleaseAll).

Definition Task_set_up : TM unit :=
  t <~ self ;;
  match tk_class t with
  | KCS_FullFit | NCS_FullFit => release_all_parameters ;;; partial_cross_section
  | KCS_FixedCoupling | NCS_FixedCoupling => release_all_parameters ;;; fix_couplings ;;; partial_cross_section
  | KCS_FixAccording | NCS_FixAccording => partial_cross_section
  | KFF_FullFit | NFF_FullFit => release_all_parameters ;;; partial_form_factor
  | KFF_FullFitOnlyCharged => release_all_parameters ;;; partial_form_factor ;;; only_charged
  | KFF_FixAccording | NFF_FixAccording => partial_form_factor
  | KFF_FixAccordingOnlyCharged => partial_form_factor ;;; only_charged
  | ETGMRTask => partial_cross_section
  | TwoPolesTask => f <~ inW (make_partial_cross_section_for_parameters 0 0 0 (tk_parameters t)) ;; modify (with_f (Common f))
  | ResidualTask => set_up_residuals
  end.

(** ** [_fit] *)

(** [np.asarray(xdata, float)]: a datapoint becomes a row of floats. *)
Definition array_row (p : datapoint) : Res datapoint :=
  bind (mapM as_float (as_row p)) (fun xs => Ok (Row (map RtoC xs))).

Fixpoint run_fit (f : list R -> TM (list R)) (fit : Fit) : TM (list R * matrix) :=
  match fit with
  | FitCall args continue => ys <~ f args ;; run_fit f (continue ys)
  | FitReturn popt pcov => ret (popt, pcov)
  | FitRaise e => raise e
  end.

Definition note_fit (x : FitInput) : W nat :=
  fun w => (Ok (length (w_fits w)),
            mkWorld (w_lists w) (w_draws w) (w_samples w) (w_fits w ++ [x]) (w_events w)).

(** Task.py l.56-65, the call inside [try]. *)
Definition call_curve_fit : TM (list R * matrix) :=
  t <~ self ;;
  let r := tk_parameters t in
  store <~ inW (read (r_data r)) ;;
  let p0 := get_free_values store in
  bounds <~ lift (get_bounds (r_class r) (tk_handpicked t) store) ;;
  let input := mkFitInput (tk_name t) (r_class r) store (tk_ts_fit t) (tk_ys_fit t) (tk_errors_fit t) p0 bounds in
  n <~ inW (note_fit input) ;;
  run_fit (fun args => rows <~ lift (mapM array_row (tk_ts_fit t)) ;; call_f rows args) (o_fit o n input).

Definition failed (message : string) (r : Report) : Report :=
  mkReport (rp_name r) (rp_initial r) (rp_final r) (rp_r2 r) (rp_chi_squared r) (rp_covariance r) (rp_errors r)
    "failed" (Some message) (rp_values r).

(** Task.py l.54-71. *)
Definition Task_fit : TM (option (list R * matrix)) :=
  fun s => match call_curve_fit s with
           | (Ok x, s') => (Ok (Some x), s')
           | (Err RuntimeError, s') =>
               let message := o_message o (length (w_fits (snd s'))) in
               (modify (fun t => with_report (failed message (tk_report t)) t) ;;; ret None) s'
           | (Err e, s') => (Err e, s')
           end.

(** ** [_update_report] *)

Definition rsum (l : list R) : R := fold_left Rplus l 0.

(** Task.py l.75-79. *)
Definition squared_residuals (ys fit_ys : list R) : list R :=
  map (fun df => (fst df - snd df) * (fst df - snd df)) (combine ys fit_ys).

Definition chi_squared_value (r_squared errors : list R) (parameters : nat) : Res R :=
  bind (mapM (fun re => rdiv (fst re) (snd re * snd re)) (combine r_squared errors)) (fun terms =>
  rdiv (rsum terms) (INR (length r_squared) - INR parameters)).

(** The text of the number, or what division by zero gives. *)
Definition chi_squared_text (x : Res R) : TM string :=
  fun s => match x with
           | Ok v => (Ok (o_str o v), s)
           | Err e => match o_division o (length (w_fits (snd s))) with
                      | DivRaises => (Err e, s)
                      | DivInf => (Ok "inf", s)
                      | DivNegInf => (Ok "-inf", s)
                      | DivNaN => (Ok "nan", s)
                      end
           end.

Fixpoint diagonal (i : nat) (m : matrix) : list ext :=
  match m with
  | [] => []
  | row :: r => match nth_error row i with Some x => x :: diagonal (S i) r | None => [] end
  end.

(** [np.sqrt] of one number: NaN for negative ones. *)
Definition ext_sqrt (x : ext) : option ext :=
  match x with
  | Fin v => if Rlt_dec v 0 then None else Some (Fin (sqrt v))
  | PosInf => Some PosInf
  | NegInf => None
  end.

(** Task.py l.73-89. *)
Definition update_report (opt : list R) (covariance : matrix) : TM unit :=
  t <~ self ;;
  fit_ys <~ call_f (tk_ts t) opt ;;
  let r_squared := squared_residuals (tk_ys t) fit_ys in
  chi_squared <~ chi_squared_text (chi_squared_value r_squared (tk_errors t) (length opt)) ;;
  final <~ inW (obj_to_list (tk_parameters t)) ;;
  values <~ inW (obj_read (tk_parameters t) (get_ordered (r_class (tk_parameters t)))) ;;
  modify (fun t => with_report
    (mkReport (rp_name (tk_report t)) (rp_initial (tk_report t)) (Some final) (Some (o_str o (rsum r_squared)))
       (Some chi_squared) (Some covariance) (Some (map ext_sqrt (diagonal 0 covariance))) "finished"
       (rp_message (tk_report t)) values) t).

(** ** [_plot] *)

Definition lower_char (a : ascii) : ascii :=
  let n := nat_of_ascii a in if andb (Nat.leb 65 n) (Nat.leb n 90) then ascii_of_nat (n + 32) else a.
Fixpoint lower (s : string) : string :=
  match s with EmptyString => EmptyString | String a r => String (lower_char a) (lower r) end.

(** [os.path.join] of two components: an absolute second one replaces the first. *)
Definition ends_with_slash (s : string) : bool := String.eqb (substring (String.length s - 1) 1 s) "/".
Definition path_join (a b : string) : string :=
  if prefix "/" b then b
  else if orb (String.eqb a "") (ends_with_slash a) then (a ++ b)%string else (a ++ "/" ++ b)%string.

Definition emit (e : event) : W unit :=
  fun w => (Ok tt, mkWorld (w_lists w) (w_draws w) (w_samples w) (w_fits w) (w_events w ++ [e])).

(** plot_fit.py, end of every function. *)
Definition savefig (dir title : string) : W unit :=
  fun w => match o_render o (length (w_events w)) with
           | Some e => (Err e, w)
           | None => emit (EvPlot (path_join dir (lower title ++ ".png")%string)) w
           end.

Inductive plot_style := SeriesCs | SeriesFf | PlainCs | SeriesElectric | ResidualPlot.

(** The [_plot] methods of the task base classes. *)
Definition style_of (c : task_class) : plot_style :=
  match c with
  | KCS_FullFit | KCS_FixedCoupling | KCS_FixAccording => SeriesCs
  | KFF_FullFit | KFF_FullFitOnlyCharged | KFF_FixAccording | KFF_FixAccordingOnlyCharged => SeriesFf
  | NCS_FullFit | NCS_FixedCoupling | NCS_FixAccording => PlainCs
  | NFF_FullFit | NFF_FixAccording => SeriesElectric
  | ETGMRTask | TwoPolesTask => SeriesFf
  | ResidualTask => ResidualPlot
  end.

(** plot_fit.py l.121-127, 213-219: [plt.subplots(0, 1)] raises ValueError. *)
Definition needs_series (x : list plotted * list plotted) : Res unit :=
  match x with ([], []) => Err ValueError | _ => Ok tt end.

(** plot_fit.py l.25-249 up to drawing. *)
Definition draw (style : plot_style) (opt : list R) : TM unit :=
  t <~ self ;;
  match style with
  | SeriesCs =>
      fit_css <~ call_f (tk_ts t) opt ;;
      lift (bind (series_neutral_plus_charged (tk_ts t) (tk_ys t) (tk_errors t) fit_css) (fun _ => Ok tt))
  | SeriesFf =>
      fit_ffs <~ call_f (tk_ts t) opt ;;
      lift (bind (series_neutral_plus_charged (tk_ts t) (tk_ys t) (tk_errors t) fit_ffs) needs_series)
  | PlainCs =>
      lift (bind (mapM attr_t (tk_ts t)) (fun _ => Ok tt)) ;;;
      fit_css <~ call_f (tk_ts t) opt ;; ret tt
  | SeriesElectric =>
      fit_ffs <~ call_f (tk_ts t) opt ;;
      lift (bind (series_electric_plus_magnetic (tk_ts t) (tk_ys t) (tk_errors t) fit_ffs) needs_series)
  | ResidualPlot =>
      fit_res <~ call_f (tk_ts t) opt ;;
      lift (bind (mapM attr_t (match tk_effective t with Some e => ef_ts e | None => [] end)) (fun _ =>
            bind (mapM attr_t (tk_ts t)) (fun _ => Ok tt)))
  end.

(** [_plot]: nothing without a directory. *)
Definition Task_plot (opt : list R) : TM unit :=
  t <~ self ;;
  match tk_reports_dir t with
  | None | Some "" => ret tt
  | Some dir => draw (style_of (tk_class t)) opt ;;; inW (savefig dir (tk_name t))
  end.

(** Task.py l.45-52. *)
Definition Task_run : TM Ref :=
  Task_set_up ;;;
  result <~ Task_fit ;;
  match result with
  | Some (opt_params, covariance_matrix) =>
      t <~ self ;;
      inW (obj_mutate (tk_parameters t) (MUpdateFree opt_params)) ;;;
      update_report opt_params covariance_matrix ;;;
      Task_plot opt_params
  | None => ret tt
  end ;;;
  t <~ self ;; ret (tk_parameters t).
End Methods.
