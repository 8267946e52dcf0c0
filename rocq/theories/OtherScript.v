(** Model of kaon_production/fit_ff_other_models.py: the two models of other_models/ are to be fitted to the form factors of
    the charged kaon, followed by the oscillations of the residuals.

    Simplifications as in FitScripts.v: the contents of charged_ff_2.csv are arguments, and [print] of a dictionary is
    [o_show_best].  [raise 'Unknown model'] raises TypeError, because a text is no exception. *)
From Coq Require Import String Ascii Reals ZArith List Bool.
From Verif Require Import PyBase CNum PyExpr Params ParamClasses CommonUtils World DataSets Task Pipeline FitScripts.
Import ListNotations.
Local Open Scope string_scope.
Local Open Scope list_scope.
Local Open Scope R_scope.
Local Open Scope m_scope.

#[local] Arguments String.append : simpl never.

(** l.12-26. *)
Definition make_initial_parameters (model : string) : W Ref :=
  if String.eqb (lower model) "etgmr" then obj_new PETGMR [("a", 1); ("m_a", 1); ("m_d", sqrt (71/100))]
  else if String.eqb (lower model) "twopoles" then obj_new PTwoPoles [("a", 1); ("m_1", 5/10); ("m_2", 2)]
  else raise TypeError.

(** l.40-48. *)
Definition task_list (model : string) : Res (list task_class) :=
  x <- (if String.eqb (lower model) "etgmr" then Ok ETGMRTask
        else if String.eqb (lower model) "twopoles" then Ok TwoPolesTask
        else Err TypeError) ;;
  Ok [x; ResidualTask].

Section Script.
Variables (o : Oracle) (draws : nat -> R) (charged_ts charged_ff_values charged_errors : list R).

(** l.56-69, with l.35-54. *)
Definition other_run (model name : string) : W BestFit :=
  initial_parameters <~ make_initial_parameters model ;;
  initial_parameters <~ obj_perturb draws initial_parameters 1 (Some (1/10)) false ;;
  tasks <~ lift (task_list model) ;;
  pipeline <~ KaonPipeline_init o KaonFF (model ++ "_" ++ name)%string initial_parameters tasks
                charged_ts charged_ff_values charged_errors [] [] [] 0 0 0 "/home/lukas/reports/ff" true false ;;
  fun w => let '(res, (_, w')) := Pipeline_run o (pipeline, w) in (res, w').

(** l.71-83. *)
Definition other_script : W (list BestFit * option BestFit) := best_of_runs o (other_run "etgmr") (run_names "_1_" 1).
End Script.
