(** Model of pipeline/: sequences of fits with reports.

    The outside is the [Oracle] of Task.v.

    Simplifications.  A pipeline is not used by two threads and nothing else writes to its directory.  A directory made
    earlier in the same program exists; otherwise [o_exists] decides.  Writing to a file of an existing directory does
    not fail.  Strings are compared by the codes of their characters.  The form factor pipelines pass the report
    directory in the place of a mass when they are given a task class of the cross-section kind: this is modelled for
    ETGMRModelTask, whose model never uses the mass; for the other classes it is taken to be a TypeError when the task
    is created. *)
From Coq Require Import String Ascii DecimalString Reals ZArith List Bool Arith.
From Verif Require Import PyBase CNum PyExpr Params ParamClasses CommonUtils World DataSets Task.
Import ListNotations.
Local Open Scope list_scope.
Local Open Scope string_scope.
Local Open Scope m_scope.

#[local] Arguments String.append : simpl never.

Definition newline : string := String (ascii_of_nat 10) EmptyString.

(** [str(i)] of a natural number. *)
Definition str_nat (n : nat) : string := NilEmpty.string_of_uint (Nat.to_uint n).

(** ** Objects *)

Inductive pipeline_kind := KaonCS | KaonFF | NucleonCS | NucleonFF.

(** Attributes of a pipeline object (Pipeline.py l.19-31, KaonCrossSectionPipeline.py l.26-28,
    NucleonCrossSectionPipeline.py l.26-28, KaonCrossSectionIterativePipeline.py l.26-29 and the other iterative
    classes).  Pipelines without masses have zeros, plain ones an empty schedule. *)
Record Pipeline := mkPipeline {
  pl_kind : pipeline_kind;
  pl_name : string;
  pl_parameters : Ref;
  pl_tasks : list task_class;
  pl_ts : list datapoint; pl_ys : list R; pl_errors : list R;
  pl_reports_dir : string;
  pl_plot : bool;
  pl_handpicked : bool;
  pl_mass : R; pl_alpha : R; pl_hc_squared : R;
  pl_report : string;
  pl_best : BestFit;
  pl_numbers : list Z;             (* free_params_numbers *)
  pl_fixed_rounds : Z              (* nr_initial_rounds_with_fixed_resonances *)
}.

Definition with_parameters (r : Ref) (p : Pipeline) : Pipeline :=
  let '(mkPipeline k n _ l ts ys es d pl h m a hc rep b ns f) := p in mkPipeline k n r l ts ys es d pl h m a hc rep b ns f.
Definition with_text (rep : string) (p : Pipeline) : Pipeline :=
  let '(mkPipeline k n r l ts ys es d pl h m a hc _ b ns f) := p in mkPipeline k n r l ts ys es d pl h m a hc rep b ns f.
Definition with_best (b : BestFit) (p : Pipeline) : Pipeline :=
  let '(mkPipeline k n r l ts ys es d pl h m a hc rep _ ns f) := p in mkPipeline k n r l ts ys es d pl h m a hc rep b ns f.

(** A method of a pipeline. *)
Definition PM := M (Pipeline * World).
Definition onW {A : Type} (m : W A) : PM A := fun s => let '(r, w) := m (snd s) in (r, (fst s, w)).
Definition this : PM Pipeline := fun s => (Ok (fst s), s).
Definition change (f : Pipeline -> Pipeline) : PM unit := fun s => (Ok tt, (f (fst s), snd s)).

(** Pipeline.py l.31. *)
Definition no_fit : BestFit := mkBestFit None None None None None None.

Section Methods.
Variable o : Oracle.

(** ** Construction *)

Definition made (path : string) (e : event) : bool :=
  match e with EvMkdir p => String.eqb p path | _ => false end.

(** Pipeline.py l.57-60. *)
Definition set_up_reports_directory (path : string) : W unit :=
  fun w => if orb (o_exists o path) (existsb (made path) (w_events w)) then (Err ValueError, w)
           else if o_mkdir o path then emit (EvMkdir path) w else (Err OtherError, w).

(** Pipeline.py l.13-31, called after [_prepare_data] (KaonCrossSectionPipeline.py l.11-28, KaonFormFactorPipeline.py
    l.11-25, NucleonCrossSectionPipeline.py l.11-28, NucleonFormFactorPipeline.py l.11-32). *)
Definition Pipeline_init (kind : pipeline_kind) (name : string) (parameters : Ref) (tasks : list task_class)
  (prepared : Res Prepared) (mass alpha hc_squared : R) (reports_dir : string) (plot handpicked : bool)
  (numbers : list Z) (fixed_rounds : Z) : W Pipeline :=
  x <~ lift prepared ;;
  let '(ts, ys, errors) := x in
  let dir := path_join reports_dir name in
  set_up_reports_directory dir ;;;
  ret (mkPipeline kind name parameters tasks ts ys errors dir plot handpicked mass alpha hc_squared
         ("Report " ++ name ++ ":" ++ newline) no_fit numbers fixed_rounds).

(** KaonCrossSectionIterativePipeline.py l.26-28 and the same lines of the other iterative classes: [[n] * r] is empty
    for a negative [r]. *)
Fixpoint schedule (nr_free_params nr_iterations : list Z) : list Z :=
  match nr_free_params, nr_iterations with
  | free_pars :: ps, repetitions :: rs => (repeat free_pars (Z.to_nat repetitions) ++ schedule ps rs)%list
  | _, _ => []
  end.

(** The kaon pipelines. *)
Definition KaonPipeline_init (kind : pipeline_kind) (name : string) (parameters : Ref) (tasks : list task_class)
  (t_values_charged ys_charged errors_charged t_values_neutral ys_neutral errors_neutral : list R)
  (mass alpha hc_squared : R) (reports_dir : string) (plot handpicked : bool) : W Pipeline :=
  Pipeline_init kind name parameters tasks
    (prepare_data_kaon t_values_charged ys_charged errors_charged t_values_neutral ys_neutral errors_neutral)
    mass alpha hc_squared reports_dir plot handpicked [] 0.

(** The nucleon pipelines. *)
Definition NucleonPipeline_init (kind : pipeline_kind) (name : string) (parameters : Ref) (tasks : list task_class)
  (ts_pe ys_pe es_pe ts_pm ys_pm es_pm ts_ne ys_ne es_ne ts_nm ys_nm es_nm : list R)
  (mass alpha hc_squared : R) (reports_dir : string) (plot handpicked : bool) : W Pipeline :=
  Pipeline_init kind name parameters tasks
    (prepare_data_nucleon ts_pe ys_pe es_pe ts_pm ys_pm es_pm ts_ne ys_ne es_ne ts_nm ys_nm es_nm)
    mass alpha hc_squared reports_dir plot handpicked [] 0.

(** The iterative pipelines: no task list, a schedule. *)
Definition IterativePipeline_init (kind : pipeline_kind) (name : string) (parameters : Ref) (prepared : Res Prepared)
  (mass alpha hc_squared : R) (reports_dir : string) (plot handpicked : bool)
  (nr_free_params nr_iterations : list Z) (nr_initial_rounds_with_fixed_resonances : Z) : W Pipeline :=
  Pipeline_init kind name parameters [] prepared mass alpha hc_squared reports_dir plot handpicked
    (schedule nr_free_params nr_iterations) nr_initial_rounds_with_fixed_resonances.

(** ** Reports *)

(** Pipeline.py l.53-55. *)
Definition log (msg : string) : PM unit :=
  p <~ this ;;
  onW (emit (EvPrint ("Pipeline " ++ pl_name p ++ ": " ++ msg ++ newline))) ;;;
  change (fun p => with_text (pl_report p ++ (msg ++ newline)) p).

(** Pipeline.py l.62-66. *)
Definition flush_report : PM unit :=
  p <~ this ;;
  let filepath := path_join (pl_reports_dir p) "report.txt" in
  onW (emit (EvAppend filepath (pl_report p))) ;;;
  change (with_text newline).

Definition read_option (a : option addr) : W (option data) :=
  match a with None => ret None | Some a => d <~ read a ;; ret (Some d) end.

(** [str(report)]. *)
Definition report_text (r : Report) : W string :=
  initial <~ read (rp_initial r) ;; final <~ read_option (rp_final r) ;; ret (o_show_report o r initial final).

(** Pipeline.py l.68-72. *)
Definition save_report (name : string) (r : Report) : PM unit :=
  p <~ this ;;
  let filename := "report_" ++ name ++ ".txt" in
  let filepath := path_join (pl_reports_dir p) filename in
  text <~ onW (report_text r) ;;
  onW (emit (EvWrite filepath text)).

(** A text that is [None] or empty is false. *)
Definition truthy (s : option string) : option string :=
  match s with Some "" => None | x => x end.

(** Pipeline.py l.74-87. *)
Definition update_best_fit (t : Task) : PM unit :=
  match truthy (rp_chi_squared (tk_report t)) with
  | None => ret tt
  | Some current =>
      p <~ this ;;
      let better := match truthy (bf_chi_squared (pl_best p)) with
                    | None => true
                    | Some best_so_far => String.ltb current best_so_far
                    end in
      if better then
        l <~ onW (obj_to_list (tk_parameters t)) ;;
        values <~ onW (obj_read (tk_parameters t) (get_ordered (r_class (tk_parameters t)))) ;;
        change (with_best (mkBestFit (Some current) (Some (pl_name p ++ ":" ++ tk_name t)) (Some l) (Some values)
                             (rp_covariance (tk_report t)) (rp_errors (tk_report t))))
      else ret tt
  end.

(** [str(self._best_fit)]. *)
Definition best_text (b : BestFit) : W string :=
  l <~ read_option (bf_parameters b) ;; ret (o_show_best o b l).

(** ** Tasks *)

Inductive task_kind := CrossSectionKind | FormFactorKind.

(** How many arguments the constructor wants: with or without mass, alpha and hc_squared. *)
Definition kind_of (c : task_class) : task_kind :=
  match c with
  | KCS_FullFit | KCS_FixedCoupling | KCS_FixAccording | NCS_FullFit | NCS_FixedCoupling | NCS_FixAccording
  | ETGMRTask | ResidualTask => CrossSectionKind
  | KFF_FullFit | KFF_FullFitOnlyCharged | KFF_FixAccording | KFF_FixAccordingOnlyCharged
  | NFF_FullFit | NFF_FixAccording | TwoPolesTask => FormFactorKind
  end.

Definition passes_masses (k : pipeline_kind) : bool :=
  match k with KaonCS | NucleonCS => true | KaonFF | NucleonFF => false end.

(** KaonCrossSectionPipeline.py l.30-36, NucleonCrossSectionPipeline.py l.30-36 (eleven arguments),
    KaonFormFactorPipeline.py l.27-32, NucleonFormFactorPipeline.py l.34-39 (eight).  Eleven are too many for a task without
    mass, alpha and hc_squared.  Given eight, a task with them takes the directory for its mass and the two truth values for
    alpha and hc_squared, and everything after them has its default. *)
Definition create_task (task_name : string) (c : task_class) : PM Task :=
  p <~ this ;;
  match passes_masses (pl_kind p), kind_of c with
  | true, CrossSectionKind =>
      onW (Task_init c task_name (pl_parameters p) (pl_ts p) (pl_ys p) (pl_errors p) (pl_mass p) (pl_alpha p)
             (pl_hc_squared p) true (Some (pl_reports_dir p)) (pl_plot p) (pl_handpicked p))
  | true, FormFactorKind => raise TypeError
  | false, FormFactorKind =>
      onW (Task_init c task_name (pl_parameters p) (pl_ts p) (pl_ys p) (pl_errors p) 0 0 0 true (Some (pl_reports_dir p))
             (pl_plot p) (pl_handpicked p))
  | false, CrossSectionKind =>
      onW (Task_init c task_name (pl_parameters p) (pl_ts p) (pl_ys p) (pl_errors p) 0 0 0 false None true true)
  end.

(** [task.run()]; gives the task as it is afterwards. *)
Definition run_task (t : Task) : PM Task :=
  fun s => let '(res, (t', w)) := Task_run o (t, snd s) in
           (match res with Ok _ => Ok t' | Err e => Err e end, (fst s, w)).

(** The part all rounds have in common: Pipeline.py l.38-43 and the same statements in the iterative classes. *)
Definition create_and_run (task_name : string) (c : task_class) : PM Task :=
  task <~ create_task task_name c ;;
  log ("Running " ++ task_name) ;;;
  task <~ run_task task ;;
  text <~ onW (report_text (tk_report task)) ;;
  log (task_name ++ " report: " ++ text) ;;;
  ret task.

Definition show_parameters : PM string :=
  p <~ this ;;
  a <~ onW (obj_to_list (pl_parameters p)) ;;
  d <~ onW (read a) ;;
  ret (o_show_list o d).

Definition log_start : PM unit :=
  text <~ show_parameters ;; log ("Starting. Initial parameters: " ++ text).

Definition log_best : PM unit :=
  p <~ this ;; text <~ onW (best_text (pl_best p)) ;; log ("Best fit: " ++ text).

Definition mutate_parameters (m : mutation) : PM unit :=
  p <~ this ;; onW (obj_mutate (pl_parameters p) m).

(** ** The plain pipelines *)

(** Pipeline.py l.35-48. *)
Definition plain_round (ic : nat * task_class) : PM unit :=
  let '(i, c) := ic in
  text <~ show_parameters ;;
  log ("Initializing Task#" ++ str_nat i ++ ". Parameters: " ++ text) ;;;
  let task_name := "Task#" ++ str_nat i ++ ":" ++ class_name c in
  task <~ create_and_run task_name c ;;
  update_best_fit task ;;;
  change (with_parameters (tk_parameters task)) ;;;
  mutate_parameters MReleaseAll ;;;
  flush_report ;;;
  save_report (str_nat i) (tk_report task).

(** [enumerate]. *)
Fixpoint enumerate_from {A : Type} (i : nat) (l : list A) : list (nat * A) :=
  match l with [] => [] | x :: r => (i, x) :: enumerate_from (S i) r end.

(** Pipeline.py l.33-51. *)
Definition Pipeline_run : PM BestFit :=
  log_start ;;;
  p <~ this ;;
  mfor (enumerate_from 0 (pl_tasks p)) plain_round ;;;
  log_best ;;;
  flush_report ;;;
  p <~ this ;;
  ret (pl_best p).

(** ** Random choice *)

Fixpoint remove_at (i : nat) (l : list string) : list string :=
  match l, i with
  | [], _ => []
  | _ :: r, O => r
  | x :: r, S j => x :: remove_at j r
  end.

(** Takes [k] elements out of the list one after the other. *)
Fixpoint pick (k : nat) (picks : list nat) (l : list string) : list string :=
  match k with
  | O => []
  | S k' => let i := Nat.modulo (hd O picks) (length l) in nth i l "" :: pick k' (tl picks) (remove_at i l)
  end.

Definition note_sample : W nat :=
  fun w => (Ok (w_samples w), mkWorld (w_lists w) (w_draws w) (S (w_samples w)) (w_fits w) (w_events w)).

(** [random.sample(names, k)]. *)
Definition sample (l : list string) (k : Z) : W (list string) :=
  if orb (Z.ltb k 0) (Z.ltb (Z.of_nat (length l)) k) then raise ValueError
  else n <~ note_sample ;; ret (pick (Z.to_nat k) (o_sample o n) l).

(** KaonCrossSectionIterativePipeline.py l.74-82, KaonFormFactorIterativePipeline.py l.71-79,
    NucleonFormFactorIterativePipeline.py l.78-86; NucleonCrossSectionIterativePipeline.py l.105-114 has the additional
    minimum. *)
Definition randomly_freeze_parameters (number_of_free_parameters : Z) (fix_resonances : bool) : PM (list string) :=
  mutate_parameters MReleaseAll ;;;
  (if fix_resonances then mutate_parameters MFixResonances else ret tt) ;;;
  p <~ this ;;
  names <~ onW (obj_read (pl_parameters p) (fun d => Ok (map par_name (filter (fun par => negb (par_fixed par)) d)))) ;;
  let k := match pl_kind p with
           | NucleonCS => Z.min (Z.of_nat (length names)) number_of_free_parameters
           | _ => number_of_free_parameters
           end in
  chosen_names <~ onW (sample names k) ;;
  mutate_parameters MFixAll ;;;
  mutate_parameters (MRelease chosen_names) ;;;
  ret chosen_names.

(** ** The iterative pipelines *)

Definition fix_according (k : pipeline_kind) : task_class :=
  match k with KaonCS => KCS_FixAccording | KaonFF => KFF_FixAccording | NucleonCS => NCS_FixAccording | NucleonFF => NFF_FixAccording end.

(** KaonCrossSectionIterativePipeline.py l.33-52, KaonFormFactorIterativePipeline.py l.32-50,
    NucleonCrossSectionIterativePipeline.py l.42-61, NucleonFormFactorIterativePipeline.py l.39-57. *)
Definition iterative_round (ik : nat * Z) : PM unit :=
  let '(i, fp_num) := ik in
  p <~ this ;;
  let fix_resonances := Z.ltb (Z.of_nat i) (pl_fixed_rounds p) in
  free_params <~ randomly_freeze_parameters fp_num fix_resonances ;;
  log ("Initializing Task#" ++ str_nat i ++ ". Free parameters: " ++ o_show_names o free_params) ;;;
  let c := fix_according (pl_kind p) in
  let task_name := "Task#" ++ str_nat i ++ ":" ++ class_name c in
  task <~ create_and_run task_name c ;;
  update_best_fit task ;;;
  change (with_parameters (tk_parameters task)) ;;;
  flush_report ;;;
  save_report (str_nat i) (tk_report task).

(** The final fit: KaonCrossSectionIterativePipeline.py l.54-71, KaonFormFactorIterativePipeline.py l.52-68,
    NucleonFormFactorIterativePipeline.py l.59-75. *)
Definition final_class (k : pipeline_kind) : task_class :=
  match k with KaonCS => KCS_FullFit | KaonFF => KFF_FullFitOnlyCharged | NucleonCS => NCS_FixAccording | NucleonFF => NFF_FullFit end.

Definition final_common (n : nat) (task_name : string) (c : task_class) : PM unit :=
  task <~ create_and_run task_name c ;;
  update_best_fit task ;;;
  change (with_parameters (tk_parameters task)) ;;;
  log_best ;;;
  flush_report ;;;
  save_report (str_nat n) (tk_report task).

Definition final_fit (n : nat) : PM unit :=
  p <~ this ;;
  log ("Initializing Task#" ++ str_nat n ++ ". Full fit.") ;;;
  let c := final_class (pl_kind p) in
  final_common n ("Task#" ++ str_nat n ++ ":" ++ class_name c) c.

(** NucleonCrossSectionIterativePipeline.py l.63-86. *)
Definition final_fit_nucleon (n : nat) : PM unit :=
  p <~ this ;;
  mutate_parameters MReleaseAll ;;;
  name <~ (if Z.ltb (Z.of_nat n) (pl_fixed_rounds p)
           then mutate_parameters MFixResonances ;;; ret "Full fit (Fixed resonances)"
           else ret "Full fit") ;;
  log ("Initializing Task#" ++ str_nat n ++ ". " ++ name ++ ".") ;;;
  final_common n ("Task#" ++ str_nat n ++ ":" ++ name) NCS_FixAccording.

(** NucleonCrossSectionIterativePipeline.py l.88-101. *)
Definition residuals_stage (n : nat) : PM unit :=
  log ("Initializing Task#" ++ str_nat n ++ ". Residuals.") ;;;
  task <~ create_and_run ("Task#" ++ str_nat n ++ ":" ++ class_name ResidualTask) ResidualTask ;;
  save_report (str_nat n) (tk_report task).

(** KaonCrossSectionIterativePipeline.py l.31-72, KaonFormFactorIterativePipeline.py l.30-69,
    NucleonCrossSectionIterativePipeline.py l.40-103, NucleonFormFactorIterativePipeline.py l.37-76. *)
Definition IterativePipeline_run : PM BestFit :=
  log_start ;;;
  p <~ this ;;
  mfor (enumerate_from 0 (pl_numbers p)) iterative_round ;;;
  let n := length (pl_numbers p) in
  match pl_kind p with
  | NucleonCS => final_fit_nucleon n ;;; residuals_stage (n + 1)
  | _ => final_fit n
  end ;;;
  p <~ this ;;
  ret (pl_best p).

End Methods.
