(** Model of the import statements of the repository: which statements every file executes when it is imported or run, with
    the part of CPython's import system they use (Lib/importlib/_bootstrap.py [_find_and_load], [_handle_fromlist];
    IMPORT_NAME and IMPORT_FROM of the interpreter).

    A file is transcribed as the sequence of the imports it makes, of the global names it evaluates and of the global names it
    binds (def, class, assignment, for, with) at its top level and, separately, in its block for [__name__ == '__main__'],
    where loops and branches are written once and in order; and the global names the bodies of its functions refer to.  Built-in names are left out.

    Simplifications.  The directory of the repository is where modules are looked for; modules that are not in it (standard
    library, numpy, scipy, matplotlib) are installed and have all the names asked of them.  Relative imports are written with
    the absolute name.  A namespace is a list of names with values, of which the newest counts.  No import renames a name it
    takes from a module.  Deep recursion ends with RecursionError; the depth is counted in imports. *)
From Coq Require Import String List Bool Arith.
Import ListNotations.
Local Open Scope string_scope.
Local Open Scope list_scope.

(** A dotted name. *)
Definition modname : Type := list string.

Fixpoint mod_eqb (a b : modname) : bool :=
  match a, b with
  | [], [] => true
  | x :: a, y :: b => andb (String.eqb x y) (mod_eqb a b)
  | _, _ => false
  end.

Inductive stmt :=
| SImport (m : modname) (alias : option string)      (* import m [as alias] *)
| SFrom (m : modname) (names : list string)          (* from m import names *)
| SUse (names : list string)                         (* evaluates global names *)
| SBind (n : string).                                (* def, class, assignment *)

Record file := mkFile {
  f_name : modname;
  f_package : bool;                                  (* an __init__.py *)
  f_body : list stmt;
  f_main : list stmt;                                (* if __name__ == '__main__' *)
  f_globals : list string                            (* read by the bodies of the functions *)
}.

(** What a name may stand for: a module, or what a statement of a module bound to a name. *)
Inductive value := VModule (m : modname) | VObject (m : modname) (n : string) | VExternal (m : modname) (n : string).

Inductive failure := ImportError | ModuleNotFoundError | NameError | RecursionError.

(** ** sys.modules *)

Definition namespace : Type := list (string * value).
Definition state : Type := list (modname * namespace).

Fixpoint get (st : state) (m : modname) : option namespace :=
  match st with
  | [] => None
  | (m', ns) :: st => if mod_eqb m m' then Some ns else get st m
  end.
Fixpoint lookup (ns : namespace) (n : string) : option value :=
  match ns with
  | [] => None
  | (n', v) :: ns => if String.eqb n n' then Some v else lookup ns n
  end.
Definition loaded (st : state) (m : modname) : bool := match get st m with Some _ => true | None => false end.
Definition attribute (st : state) (m : modname) (n : string) : option value :=
  match get st m with Some ns => lookup ns n | None => None end.
Definition has (st : state) (m : modname) (n : string) : bool := match attribute st m n with Some _ => true | None => false end.
Definition bind_name (st : state) (m : modname) (n : string) (v : value) : state :=
  match get st m with Some ns => (m, (n, v) :: ns) :: st | None => st end.
Definition forget (m : modname) (st : state) : state := filter (fun e => negb (mod_eqb m (fst e))) st.

(** ** import *)

Section Import.
Variable files : list file.

Fixpoint find_in (l : list file) (m : modname) : option file :=
  match l with
  | [] => None
  | f :: l => if mod_eqb m (f_name f) then Some f else find_in l m
  end.
Definition find_file (m : modname) : option file := find_in files m.
Definition is_package (m : modname) : bool := match find_file m with Some f => f_package f | None => false end.

(** Not in the directory of the repository. *)
Definition external (m : modname) : bool :=
  match m with
  | [] => true
  | top :: _ => negb (existsb (fun f => match f_name f with x :: _ => String.eqb top x | [] => false end) files)
  end.

(** a.b.c: a, a.b, a.b.c. *)
Fixpoint prefixes (m : modname) : list modname :=
  match m with
  | [] => []
  | x :: m => [x] :: map (cons x) (prefixes m)
  end.
Definition parent (m : modname) : modname := removelast m.

(** [_find_and_load_unlocked]: only a package has modules in it. *)
Definition find_spec (m : modname) : option file :=
  match parent m with
  | [] => find_file m
  | p => if is_package p then find_file m else None
  end.

Definition outcome : Type := option failure * state.

Section Statements.
Variable import : modname -> state -> outcome.

(** [_handle_fromlist]: names a package does not have yet may be modules in it. *)
Fixpoint from_list (m : modname) (names : list string) (st : state) : outcome :=
  match names with
  | [] => (None, st)
  | n :: names =>
      if orb (has st m n) (match find_file (m ++ [n]) with Some _ => false | None => true end) then from_list m names st
      else match import (m ++ [n]) st with
           | (None, st) => from_list m names st
           | failed => failed
           end
  end.

(** IMPORT_FROM and the assignment of the name, one by one. *)
Fixpoint take_names (self m : modname) (names : list string) (st : state) : outcome :=
  match names with
  | [] => (None, st)
  | n :: names =>
      match attribute st m n with
      | Some v => take_names self m names (bind_name st self n v)
      | None => if loaded st (m ++ [n]) then take_names self m names (bind_name st self n (VModule (m ++ [n])))
                else (Some ImportError, st)
      end
  end.

Definition take_external (self m : modname) (names : list string) (st : state) : state :=
  fold_left (fun st n => bind_name st self n (VExternal m n)) names st.

Definition step (self : modname) (s : stmt) (st : state) : outcome :=
  match s with
  | SUse names => if forallb (has st self) names then (None, st) else (Some NameError, st)
  | SBind n => (None, bind_name st self n (VObject self n))
  | SImport m alias =>
      match import m st with
      | (None, st) => (None, match alias with
                             | Some n => bind_name st self n (VModule m)
                             | None => bind_name st self (hd "" m) (VModule (firstn 1 m))
                             end)
      | failed => failed
      end
  | SFrom m names =>
      match import m st with
      | (None, st) =>
          if external m then (None, take_external self m names st)
          else match (if is_package m then from_list m names st else (None, st)) with
               | (None, st) => take_names self m names st
               | failed => failed
               end
      | failed => failed
      end
  end.

Fixpoint exec (self : modname) (body : list stmt) (st : state) : outcome :=
  match body with
  | [] => (None, st)
  | s :: body => match step self s st with
                 | (None, st) => exec self body st
                 | failed => failed
                 end
  end.

(** [_load_unlocked]: the module is there before its statements are executed and is taken away if they fail; then it
    becomes an attribute of its package. *)
Definition load (m : modname) (st : state) : outcome :=
  match find_spec m with
  | None => (Some ModuleNotFoundError, st)
  | Some f =>
      match exec m (f_body f) ((m, []) :: st) with
      | (None, st) => (None, match parent m with [] => st | p => bind_name st p (last m "") (VModule m) end)
      | (Some e, st) => (Some e, forget m st)
      end
  end.

Fixpoint load_all (ms : list modname) (st : state) : outcome :=
  match ms with
  | [] => (None, st)
  | m :: ms => if loaded st m then load_all ms st
               else match load m st with
                    | (None, st) => load_all ms st
                    | failed => failed
                    end
  end.
End Statements.

Fixpoint import (depth : nat) (m : modname) (st : state) : outcome :=
  match depth with
  | O => (Some RecursionError, st)
  | S depth => if external m then (None, st) else load_all (import depth) (prefixes m) st
  end.

(** [python file.py]: the module __main__, with the block for it. *)
Definition main_name : modname := ["__main__"].
Definition run (depth : nat) (f : file) (st : state) : outcome :=
  exec (import depth) main_name (f_body f ++ f_main f) ((main_name, []) :: st).
End Import.

(** ** The files of the repository *)

Definition modules : list file :=
[
  (* common/__init__.py (empty) *)
  mkFile ["common"] true
    []
    []
    [];
  (* cross_section/__init__.py (empty) *)
  mkFile ["cross_section"] true
    []
    []
    [];
  (* cross_section/NucleonPairToElectronPositronTotalCrossSection.py l.1-60 *)
  mkFile ["cross_section"; "NucleonPairToElectronPositronTotalCrossSection"] false
    [SFrom ["typing"] ["Callable"]; SFrom ["configparser"] ["ConfigParser"]; SImport ["math"] None;
     SUse ["Callable"; "ConfigParser"]; SBind "NucleonPairToElectronPositronTotalCrossSection"]
    []
    ["math"];
  (* cross_section/ScalarMesonProductionTotalCrossSection.py l.1-61 *)
  mkFile ["cross_section"; "ScalarMesonProductionTotalCrossSection"] false
    [SFrom ["typing"] ["Callable"]; SFrom ["configparser"] ["ConfigParser"]; SImport ["math"] None;
     SUse ["Callable"; "ConfigParser"]; SBind "ScalarMesonProductionTotalCrossSection"]
    []
    ["math"];
  (* kaon_production/__init__.py (empty) *)
  mkFile ["kaon_production"] true
    []
    []
    [];
  (* kaon_production/data.py l.1-26 *)
  mkFile ["kaon_production"; "data"] false
    [SImport ["csv"] None; SImport ["os"; "path"] None; SFrom ["collections"] ["namedtuple"]; SFrom ["typing"] ["Tuple"; "List"];
     SUse ["namedtuple"]; SBind "KaonDatapoint"; SBind "DIR_NAME"; SUse ["Tuple"; "List"]; SBind "read_data"]
    []
    ["os"; "DIR_NAME"; "csv"];
  (* kaon_production/convert_cs_data_to_ff_data.py l.1-42 *)
  mkFile ["kaon_production"; "convert_cs_data_to_ff_data"] false
    [SFrom ["configparser"] ["ConfigParser"]; SImport ["csv"] None; SFrom ["kaon_production"; "data"] ["read_data"];
     SImport ["math"] None; SBind "_get_coefficient_function"; SBind "error_for_square_root"]
    [SUse ["ConfigParser"]; SBind "config"; SUse ["config"]; SUse ["_get_coefficient_function"; "config"]; SBind "coefficient_f";
     SUse ["read_data"]; SBind "charged_ts"; SBind "charged_cross_sections_values"; SBind "charged_errors"; SBind "converted";
     SUse ["charged_ts"; "charged_cross_sections_values"; "charged_errors"]; SBind "t"; SBind "cs"; SBind "err";
     SUse ["coefficient_f"; "t"]; SBind "coeff"; SUse ["math"; "cs"; "coeff"]; SBind "ff"; SUse ["err"; "coeff"; "ff"];
     SBind "new_err"; SUse ["converted"; "t"; "ff"; "new_err"]; SBind "f"; SUse ["csv"; "f"]; SBind "writer";
     SUse ["writer"; "converted"]]
    ["math"];
  (* kaon_production/parser.py l.1-22 *)
  mkFile ["kaon_production"; "parser"] false
    [SImport ["os"; "path"] None; SBind "report"]
    [SBind "directory"; SUse ["report"; "directory"]]
    ["os"];
  (* kaon_production/undress_measured_cross_section.py l.1-38 *)
  mkFile ["kaon_production"; "undress_measured_cross_section"] false
    [SFrom ["configparser"] ["ConfigParser"]; SImport ["math"] None; SBind "error_for_addition";
     SBind "error_for_multiplication"; SBind "undress_cross_section_measurement"]
    [SUse ["ConfigParser"]; SBind "config"; SUse ["config"]; SUse ["config"]; SBind "alpha"; SBind "e"; SBind "alpha_s";
     SBind "alpha_err"; SBind "cs"; SBind "cs_err_stat"; SBind "cs_err_sys";
     SUse ["e"; "undress_cross_section_measurement"; "alpha"; "alpha_s"; "alpha_err"; "cs"; "cs_err_stat"; "cs_err_sys"]]
    ["math"; "error_for_addition"; "error_for_multiplication"];
  (* model_parameters/ModelParameters.py l.1-112 *)
  mkFile ["model_parameters"; "ModelParameters"] false
    [SFrom ["abc"] ["ABC"; "abstractmethod"]; SFrom ["collections"] ["namedtuple"];
     SFrom ["typing"] ["Iterator"; "List"; "Tuple"]; SUse ["namedtuple"]; SBind "Parameter";
     SUse ["ABC"; "Tuple"; "abstractmethod"; "List"; "Parameter"; "Iterator"]; SBind "ModelParameters"]
    []
    ["Parameter"];
  (* model_parameters/ETGMRModelParameters.py l.1-65 *)
  mkFile ["model_parameters"; "ETGMRModelParameters"] false
    [SImport ["numpy"] (Some "np"); SFrom ["typing"] ["Dict"; "List"; "Tuple"];
     SFrom ["model_parameters"; "ModelParameters"] ["Parameter"; "ModelParameters"];
     SUse ["ModelParameters"; "List"; "Parameter"; "Tuple"; "Dict"]; SBind "ETGMRModelParameters"]
    []
    ["Parameter"; "np"];
  (* model_parameters/KaonParameters.py l.1-352 *)
  mkFile ["model_parameters"; "KaonParameters"] false
    [SImport ["math"] None; SImport ["numpy"] (Some "np"); SFrom ["typing"] ["Dict"; "List"; "Tuple"];
     SFrom ["model_parameters"; "ModelParameters"] ["Parameter"; "ModelParameters"];
     SUse ["ModelParameters"; "List"; "Parameter"; "Tuple"; "Dict"]; SBind "KaonParameters"]
    []
    ["Parameter"; "np"; "math"];
  (* model_parameters/KaonParametersB.py l.1-313 *)
  mkFile ["model_parameters"; "KaonParametersB"] false
    [SImport ["math"] None; SImport ["numpy"] (Some "np"); SFrom ["typing"] ["Dict"; "List"; "Tuple"];
     SFrom ["model_parameters"; "ModelParameters"] ["Parameter"; "ModelParameters"];
     SUse ["ModelParameters"; "List"; "Parameter"; "Tuple"; "Dict"]; SBind "KaonParametersB"]
    []
    ["Parameter"; "np"; "math"];
  (* model_parameters/KaonParametersFixedRhoOmega.py l.1-349 *)
  mkFile ["model_parameters"; "KaonParametersFixedRhoOmega"] false
    [SImport ["math"] None; SImport ["numpy"] (Some "np"); SFrom ["typing"] ["Dict"; "List"; "Tuple"];
     SFrom ["model_parameters"; "ModelParameters"] ["Parameter"; "ModelParameters"];
     SUse ["ModelParameters"; "List"; "Parameter"; "Tuple"; "Dict"]; SBind "KaonParametersFixedRhoOmega"]
    []
    ["Parameter"; "np"; "math"];
  (* model_parameters/KaonParametersFixedSelected.py l.1-348 *)
  mkFile ["model_parameters"; "KaonParametersFixedSelected"] false
    [SImport ["math"] None; SImport ["numpy"] (Some "np"); SFrom ["typing"] ["Dict"; "List"; "Tuple"];
     SFrom ["model_parameters"; "ModelParameters"] ["Parameter"; "ModelParameters"];
     SUse ["ModelParameters"; "List"; "Parameter"; "Tuple"; "Dict"]; SBind "KaonParametersFixedSelected"]
    []
    ["Parameter"; "np"; "math"];
  (* model_parameters/KaonParametersSimplified.py l.1-304 *)
  mkFile ["model_parameters"; "KaonParametersSimplified"] false
    [SImport ["math"] None; SImport ["numpy"] (Some "np"); SFrom ["typing"] ["Dict"; "List"; "Tuple"];
     SFrom ["model_parameters"; "ModelParameters"] ["Parameter"; "ModelParameters"];
     SUse ["ModelParameters"; "List"; "Parameter"; "Tuple"; "Dict"]; SBind "KaonParametersSimplified"]
    []
    ["Parameter"; "np"; "math"];
  (* model_parameters/NucleonParameters.py l.1-353 *)
  mkFile ["model_parameters"; "NucleonParameters"] false
    [SImport ["math"] None; SImport ["numpy"] (Some "np"); SFrom ["typing"] ["Dict"; "List"; "Tuple"];
     SFrom ["model_parameters"; "ModelParameters"] ["Parameter"; "ModelParameters"];
     SUse ["ModelParameters"; "List"; "Parameter"; "Tuple"; "Dict"]; SBind "NucleonParameters"]
    []
    ["Parameter"; "np"; "math"];
  (* model_parameters/TwoPolesModelParameters.py l.1-65 *)
  mkFile ["model_parameters"; "TwoPolesModelParameters"] false
    [SImport ["numpy"] (Some "np"); SFrom ["typing"] ["Dict"; "List"; "Tuple"];
     SFrom ["model_parameters"; "ModelParameters"] ["Parameter"; "ModelParameters"];
     SUse ["ModelParameters"; "List"; "Parameter"; "Tuple"; "Dict"]; SBind "TwoPolesModelParameters"]
    []
    ["Parameter"; "np"];
  (* model_parameters/__init__.py l.1-9 *)
  mkFile ["model_parameters"] true
    [SFrom ["model_parameters"; "ModelParameters"] ["ModelParameters"; "Parameter"];
     SFrom ["model_parameters"; "KaonParameters"] ["KaonParameters"];
     SFrom ["model_parameters"; "KaonParametersSimplified"] ["KaonParametersSimplified"];
     SFrom ["model_parameters"; "KaonParametersFixedRhoOmega"] ["KaonParametersFixedRhoOmega"];
     SFrom ["model_parameters"; "KaonParametersFixedSelected"] ["KaonParametersFixedSelected"];
     SFrom ["model_parameters"; "KaonParametersB"] ["KaonParametersB"];
     SFrom ["model_parameters"; "ETGMRModelParameters"] ["ETGMRModelParameters"];
     SFrom ["model_parameters"; "TwoPolesModelParameters"] ["TwoPolesModelParameters"];
     SFrom ["model_parameters"; "NucleonParameters"] ["NucleonParameters"]]
    []
    [];
  (* nucleon_production/__init__.py (empty) *)
  mkFile ["nucleon_production"] true
    []
    []
    [];
  (* nucleon_production/data.py l.1-26 *)
  mkFile ["nucleon_production"; "data"] false
    [SImport ["csv"] None; SImport ["os"; "path"] None; SFrom ["collections"] ["namedtuple"]; SFrom ["typing"] ["Tuple"; "List"];
     SUse ["namedtuple"]; SBind "NucleonDatapoint"; SBind "DIR_NAME"; SUse ["Tuple"; "List"]; SBind "read_data"]
    []
    ["os"; "DIR_NAME"; "csv"];
  (* other_models/DampedOscillations.py l.1-13 *)
  mkFile ["other_models"; "DampedOscillations"] false
    [SImport ["math"] None; SBind "DampedOscillations"]
    []
    ["math"];
  (* other_models/ETGMRModel.py l.1-19 *)
  mkFile ["other_models"; "ETGMRModel"] false
    [SBind "ETGMRModel"]
    []
    [];
  (* other_models/TwoPolesModel.py l.1-16 *)
  mkFile ["other_models"; "TwoPolesModel"] false
    [SBind "TwoPolesModel"]
    []
    [];
  (* other_models/VMDModel.py l.1-39 *)
  mkFile ["other_models"; "VMDModel"] false
    [SBind "VMDModel"]
    []
    [];
  (* other_models/__init__.py l.1-4 *)
  mkFile ["other_models"] true
    [SFrom ["other_models"; "ETGMRModel"] ["ETGMRModel"]; SFrom ["other_models"; "TwoPolesModel"] ["TwoPolesModel"];
     SFrom ["other_models"; "VMDModel"] ["VMDModel"]; SFrom ["other_models"; "DampedOscillations"] ["DampedOscillations"]]
    []
    [];
  (* pipeline/__init__.py (empty) *)
  mkFile ["pipeline"] true
    []
    []
    [];
  (* plotting/__init__.py (empty) *)
  mkFile ["plotting"] true
    []
    []
    [];
  (* plotting/plot_fit.py l.1-249 *)
  mkFile ["plotting"; "plot_fit"] false
    [SImport ["os"; "path"] None; SImport ["matplotlib"; "pyplot"] (Some "plt"); SBind "plot_ff_fit"; SBind "plot_cs_fit";
     SBind "plot_cs_fit_neutral_plus_charged"; SBind "plot_ff_fit_neutral_plus_charged"; SBind "plot_background_residuals";
     SBind "plot_ff_fit_electric_plus_magnetic"]
    []
    ["plt"; "os"];
  (* task/__init__.py (empty) *)
  mkFile ["task"] true
    []
    []
    [];
  (* task/Task.py l.1-97 *)
  mkFile ["task"; "Task"] false
    [SFrom ["abc"] ["ABC"; "abstractmethod"]; SImport ["numpy"] (Some "np"); SFrom ["scipy"; "optimize"] ["curve_fit"];
     SFrom ["typing"] ["List"; "Union"]; SFrom ["kaon_production"; "data"] ["KaonDatapoint"];
     SFrom ["nucleon_production"; "data"] ["NucleonDatapoint"]; SFrom ["model_parameters"] ["ModelParameters"];
     SUse ["ABC"; "ModelParameters"; "Union"; "List"; "KaonDatapoint"; "NucleonDatapoint"; "abstractmethod"]; SBind "Task"]
    []
    ["curve_fit"; "np"];
  (* pipeline/Pipeline.py l.1-91 *)
  mkFile ["pipeline"; "Pipeline"] false
    [SFrom ["abc"] ["ABC"; "abstractmethod"]; SFrom ["typing"] ["List"; "Type"; "Union"]; SImport ["os"; "path"] None;
     SFrom ["model_parameters"] ["ModelParameters"]; SFrom ["task"; "Task"] ["Task"];
     SFrom ["kaon_production"; "data"] ["KaonDatapoint"]; SFrom ["nucleon_production"; "data"] ["NucleonDatapoint"];
     SUse ["ABC"; "ModelParameters"; "List"; "Type"; "Task"; "Union"; "KaonDatapoint"; "NucleonDatapoint"; "abstractmethod"];
     SBind "Pipeline"]
    []
    ["os"];
  (* task/KaonCrossSectionTask.py l.1-34 *)
  mkFile ["task"; "KaonCrossSectionTask"] false
    [SFrom ["abc"] ["ABC"]; SFrom ["typing"] ["List"; "Union"; "Optional"]; SFrom ["kaon_production"; "data"] ["KaonDatapoint"];
     SFrom ["plotting"; "plot_fit"] ["plot_cs_fit_neutral_plus_charged"];
     SFrom ["model_parameters"] ["KaonParameters"; "KaonParametersB"; "KaonParametersSimplified"; "KaonParametersFixedSelected"];
     SFrom ["task"; "Task"] ["Task"];
     SUse ["Task"; "ABC"; "Union"; "KaonParameters"; "KaonParametersB"; "KaonParametersSimplified"; "KaonParametersFixedSelected"; "List"; "KaonDatapoint"; "Optional"];
     SBind "KaonCrossSectionTask"]
    []
    ["plot_cs_fit_neutral_plus_charged"];
  (* pipeline/KaonCrossSectionPipeline.py l.1-56 *)
  mkFile ["pipeline"; "KaonCrossSectionPipeline"] false
    [SFrom ["typing"] ["List"; "Tuple"; "Type"; "Union"]; SFrom ["kaon_production"; "data"] ["KaonDatapoint"];
     SFrom ["model_parameters"] ["KaonParameters"; "KaonParametersSimplified"; "KaonParametersFixedSelected"];
     SFrom ["pipeline"; "Pipeline"] ["Pipeline"]; SFrom ["task"; "KaonCrossSectionTask"] ["KaonCrossSectionTask"];
     SUse ["Pipeline"; "Union"; "KaonParameters"; "KaonParametersSimplified"; "KaonParametersFixedSelected"; "List"; "Type"; "KaonCrossSectionTask"; "Tuple"; "KaonDatapoint"];
     SBind "KaonCrossSectionPipeline"]
    []
    ["KaonDatapoint"];
  (* task/KaonFormFactorTask.py l.1-28 *)
  mkFile ["task"; "KaonFormFactorTask"] false
    [SFrom ["abc"] ["ABC"]; SFrom ["typing"] ["List"; "Union"; "Optional"]; SFrom ["kaon_production"; "data"] ["KaonDatapoint"];
     SFrom ["plotting"; "plot_fit"] ["plot_ff_fit_neutral_plus_charged"];
     SFrom ["model_parameters"] ["KaonParameters"; "KaonParametersB"; "KaonParametersSimplified"; "KaonParametersFixedSelected"];
     SFrom ["task"; "Task"] ["Task"];
     SUse ["Task"; "ABC"; "Union"; "KaonParameters"; "KaonParametersB"; "KaonParametersSimplified"; "KaonParametersFixedSelected"; "List"; "KaonDatapoint"; "Optional"];
     SBind "KaonFormFactorTask"]
    []
    ["plot_ff_fit_neutral_plus_charged"];
  (* pipeline/KaonFormFactorPipeline.py l.1-52 *)
  mkFile ["pipeline"; "KaonFormFactorPipeline"] false
    [SFrom ["typing"] ["List"; "Tuple"; "Type"; "Union"];
     SFrom ["model_parameters"] ["KaonParameters"; "KaonParametersB"; "KaonParametersSimplified"; "KaonParametersFixedSelected"];
     SFrom ["kaon_production"; "data"] ["KaonDatapoint"]; SFrom ["pipeline"; "Pipeline"] ["Pipeline"];
     SFrom ["task"; "KaonFormFactorTask"] ["KaonFormFactorTask"];
     SUse ["Pipeline"; "Union"; "KaonParameters"; "KaonParametersB"; "KaonParametersSimplified"; "KaonParametersFixedSelected"; "List"; "Type"; "KaonFormFactorTask"; "Tuple"; "KaonDatapoint"];
     SBind "KaonFormFactorPipeline"]
    []
    ["KaonDatapoint"];
  (* task/NucleonCrossSectionTask.py l.1-33 *)
  mkFile ["task"; "NucleonCrossSectionTask"] false
    [SFrom ["abc"] ["ABC"]; SFrom ["typing"] ["List"; "Union"; "Optional"];
     SFrom ["nucleon_production"; "data"] ["NucleonDatapoint"]; SFrom ["plotting"; "plot_fit"] ["plot_cs_fit"];
     SFrom ["model_parameters"] ["NucleonParameters"; "ETGMRModelParameters"; "TwoPolesModelParameters"];
     SFrom ["task"; "Task"] ["Task"];
     SUse ["Task"; "ABC"; "Union"; "NucleonParameters"; "ETGMRModelParameters"; "TwoPolesModelParameters"; "List"; "NucleonDatapoint"; "Optional"];
     SBind "NucleonCrossSectionTask"]
    []
    ["plot_cs_fit"];
  (* pipeline/NucleonCrossSectionPipeline.py l.1-72 *)
  mkFile ["pipeline"; "NucleonCrossSectionPipeline"] false
    [SFrom ["typing"] ["List"; "Tuple"; "Type"; "Union"]; SFrom ["nucleon_production"; "data"] ["NucleonDatapoint"];
     SFrom ["model_parameters"] ["NucleonParameters"; "ETGMRModelParameters"; "TwoPolesModelParameters"];
     SFrom ["pipeline"; "Pipeline"] ["Pipeline"]; SFrom ["task"; "NucleonCrossSectionTask"] ["NucleonCrossSectionTask"];
     SUse ["Pipeline"; "Union"; "NucleonParameters"; "ETGMRModelParameters"; "TwoPolesModelParameters"; "List"; "Type"; "NucleonCrossSectionTask"; "Tuple"; "NucleonDatapoint"];
     SBind "NucleonCrossSectionPipeline"]
    []
    ["NucleonDatapoint"];
  (* task/NucleonFormFactorTask.py l.1-27 *)
  mkFile ["task"; "NucleonFormFactorTask"] false
    [SFrom ["abc"] ["ABC"]; SFrom ["typing"] ["List"; "Optional"]; SFrom ["nucleon_production"; "data"] ["NucleonDatapoint"];
     SFrom ["plotting"; "plot_fit"] ["plot_ff_fit_electric_plus_magnetic"]; SFrom ["model_parameters"] ["NucleonParameters"];
     SFrom ["task"; "Task"] ["Task"]; SUse ["Task"; "ABC"; "NucleonParameters"; "List"; "NucleonDatapoint"; "Optional"];
     SBind "NucleonFormFactorTask"]
    []
    ["plot_ff_fit_electric_plus_magnetic"];
  (* pipeline/NucleonFormFactorPipeline.py l.1-67 *)
  mkFile ["pipeline"; "NucleonFormFactorPipeline"] false
    [SFrom ["typing"] ["List"; "Tuple"; "Type"; "Union"];
     SFrom ["model_parameters"] ["NucleonParameters"; "ETGMRModelParameters"; "TwoPolesModelParameters"];
     SFrom ["nucleon_production"; "data"] ["NucleonDatapoint"]; SFrom ["pipeline"; "Pipeline"] ["Pipeline"];
     SFrom ["task"; "NucleonFormFactorTask"] ["NucleonFormFactorTask"];
     SUse ["Pipeline"; "Union"; "NucleonParameters"; "ETGMRModelParameters"; "TwoPolesModelParameters"; "List"; "Type"; "NucleonFormFactorTask"; "Tuple"; "NucleonDatapoint"];
     SBind "NucleonFormFactorPipeline"]
    []
    ["NucleonDatapoint"];
  (* ua_model/__init__.py (empty) *)
  mkFile ["ua_model"] true
    []
    []
    [];
  (* ua_model/functions.py l.1-47 *)
  mkFile ["ua_model"; "functions"] false
    [SImport ["cmath"] None; SImport ["math"] None; SBind "z_minus_its_reciprocal"; SBind "square_root"]
    []
    ["cmath"; "math"];
  (* ua_model/ua_components/__init__.py (empty) *)
  mkFile ["ua_model"; "ua_components"] true
    []
    []
    [];
  (* ua_model/ua_components/UAComponent.py l.1-73 *)
  mkFile ["ua_model"; "ua_components"; "UAComponent"] false
    [SFrom ["abc"] ["ABC"; "abstractmethod"]; SUse ["ABC"; "abstractmethod"]; SBind "UAComponent"]
    []
    [];
  (* ua_model/ua_components/UAComponentVariantA.py l.1-32 *)
  mkFile ["ua_model"; "ua_components"; "UAComponentVariantA"] false
    [SFrom ["ua_model"; "ua_components"; "UAComponent"] ["UAComponent"]; SUse ["UAComponent"]; SBind "UAComponentVariantA"]
    []
    [];
  (* ua_model/ua_components/UAComponentVariantB.py l.1-31 *)
  mkFile ["ua_model"; "ua_components"; "UAComponentVariantB"] false
    [SFrom ["ua_model"; "ua_components"; "UAComponent"] ["UAComponent"]; SUse ["UAComponent"]; SBind "UAComponentVariantB"]
    []
    [];
  (* ua_model/utils.py l.1-25 *)
  mkFile ["ua_model"; "utils"] false
    [SBind "validate_branch_point_positions"]
    []
    [];
  (* ua_model/MapFromTtoW.py l.1-58 *)
  mkFile ["ua_model"; "MapFromTtoW"] false
    [SImport ["math"] None; SFrom ["ua_model"; "functions"] ["square_root"];
     SFrom ["ua_model"; "utils"] ["validate_branch_point_positions"]; SBind "MapFromTtoW"]
    []
    ["math"; "square_root"; "validate_branch_point_positions"];
  (* ua_model/KaonUAModel.py l.1-179 *)
  mkFile ["ua_model"; "KaonUAModel"] false
    [SFrom ["ua_model"; "ua_components"; "UAComponent"] ["UAComponent"];
     SFrom ["ua_model"; "ua_components"; "UAComponentVariantA"] ["UAComponentVariantA"];
     SFrom ["ua_model"; "ua_components"; "UAComponentVariantB"] ["UAComponentVariantB"];
     SFrom ["ua_model"; "MapFromTtoW"] ["MapFromTtoW"]; SUse ["UAComponent"]; SBind "KaonUAModel"]
    []
    ["MapFromTtoW"; "UAComponentVariantA"; "UAComponentVariantB"];
  (* ua_model/KaonUAModelB.py l.1-166 *)
  mkFile ["ua_model"; "KaonUAModelB"] false
    [SFrom ["ua_model"; "ua_components"; "UAComponent"] ["UAComponent"];
     SFrom ["ua_model"; "ua_components"; "UAComponentVariantA"] ["UAComponentVariantA"];
     SFrom ["ua_model"; "ua_components"; "UAComponentVariantB"] ["UAComponentVariantB"];
     SFrom ["ua_model"; "MapFromTtoW"] ["MapFromTtoW"]; SUse ["UAComponent"]; SBind "KaonUAModelB"]
    []
    ["MapFromTtoW"; "UAComponentVariantA"; "UAComponentVariantB"];
  (* ua_model/KaonUAModelSimplified.py l.1-167 *)
  mkFile ["ua_model"; "KaonUAModelSimplified"] false
    [SFrom ["ua_model"; "ua_components"; "UAComponent"] ["UAComponent"];
     SFrom ["ua_model"; "ua_components"; "UAComponentVariantA"] ["UAComponentVariantA"];
     SFrom ["ua_model"; "ua_components"; "UAComponentVariantB"] ["UAComponentVariantB"];
     SFrom ["ua_model"; "MapFromTtoW"] ["MapFromTtoW"]; SUse ["UAComponent"]; SBind "KaonUAModelSimplified"]
    []
    ["MapFromTtoW"; "UAComponentVariantA"; "UAComponentVariantB"];
  (* ua_model/MapFromWtoT.py l.1-53 *)
  mkFile ["ua_model"; "MapFromWtoT"] false
    [SFrom ["ua_model"; "functions"] ["z_minus_its_reciprocal"]; SFrom ["ua_model"; "utils"] ["validate_branch_point_positions"];
     SBind "MapFromWtoT"]
    []
    ["z_minus_its_reciprocal"; "validate_branch_point_positions"];
  (* plotting/plot_complex.py l.1-100 *)
  mkFile ["plotting"; "plot_complex"] false
    [SImport ["cmath"] None; SImport ["random"] None; SImport ["matplotlib"; "pyplot"] (Some "plt");
     SImport ["matplotlib"; "colors"] None; SFrom ["ua_model"; "functions"] ["square_root"; "z_minus_its_reciprocal"];
     SFrom ["ua_model"; "MapFromWtoT"] ["MapFromWtoT"]; SFrom ["ua_model"; "MapFromTtoW"] ["MapFromTtoW"];
     SBind "plot_mapped_curves"; SBind "_plot_curve"; SBind "plot_square_root"; SBind "plot_z_minus_its_reciprocal";
     SBind "plot_w_to_t"; SBind "plot_t_to_w"]
    [SUse ["plot_t_to_w"]]
    ["plt"; "matplotlib"; "random"; "_plot_curve"; "plot_mapped_curves"; "cmath"; "square_root"; "z_minus_its_reciprocal";
     "MapFromWtoT"; "MapFromTtoW"];
  (* plotting/plot_various_coordinate_inverse_maps.py l.1-74 *)
  mkFile ["plotting"; "plot_various_coordinate_inverse_maps"] false
    [SImport ["cmath"] None; SFrom ["ua_model"; "MapFromTtoW"] ["MapFromTtoW"]; SFrom ["ua_model"; "functions"] ["square_root"];
     SFrom ["plotting"; "plot_complex"] ["plot_mapped_curves"]; SBind "T_0"; SBind "T_IN"; SUse ["MapFromTtoW"; "T_0"; "T_IN"];
     SBind "t_to_w_version1"; SBind "t_to_w_version2"; SBind "t_to_w_version3"; SBind "plot_t_to_w"]
    [SFrom ["ua_model"; "MapFromWtoT"] ["MapFromWtoT"]; SUse ["MapFromWtoT"; "T_0"; "T_IN"]; SBind "g"; SBind "t";
     SUse ["t"; "g"; "t_to_w_version1"; "t_to_w_version2"; "t_to_w_version3"]; SUse ["plot_t_to_w"; "t_to_w_version3"]]
    ["square_root"; "T_IN"; "T_0"; "cmath"; "plot_mapped_curves"];
  (* ua_model/NucleonUAModel.py l.1-410 *)
  mkFile ["ua_model"; "NucleonUAModel"] false
    [SFrom ["ua_model"; "ua_components"; "UAComponent"] ["UAComponent"];
     SFrom ["ua_model"; "ua_components"; "UAComponentVariantA"] ["UAComponentVariantA"];
     SFrom ["ua_model"; "ua_components"; "UAComponentVariantB"] ["UAComponentVariantB"];
     SFrom ["ua_model"; "MapFromTtoW"] ["MapFromTtoW"]; SUse ["UAComponent"]; SBind "NucleonUAModel"]
    []
    ["MapFromTtoW"; "UAComponentVariantA"; "UAComponentVariantB"];
  (* common/utils.py l.1-216 *)
  mkFile ["common"; "utils"] false
    [SImport ["random"] None; SFrom ["configparser"] ["ConfigParser"];
     SFrom ["typing"] ["Callable"; "List"; "Tuple"; "Union"; "Optional"; "TypeVar"]; SImport ["numpy"] (Some "np");
     SFrom ["cross_section"; "ScalarMesonProductionTotalCrossSection"] ["ScalarMesonProductionTotalCrossSection"];
     SFrom ["cross_section"; "NucleonPairToElectronPositronTotalCrossSection"] ["NucleonPairToElectronPositronTotalCrossSection"];
     SFrom ["ua_model"; "KaonUAModel"] ["KaonUAModel"]; SFrom ["ua_model"; "KaonUAModelSimplified"] ["KaonUAModelSimplified"];
     SFrom ["ua_model"; "KaonUAModelB"] ["KaonUAModelB"]; SFrom ["ua_model"; "NucleonUAModel"] ["NucleonUAModel"];
     SFrom ["other_models"] ["ETGMRModel"; "TwoPolesModel"];
     SFrom ["model_parameters"] ["ModelParameters"; "KaonParameters"; "KaonParametersB"; "KaonParametersSimplified"; "KaonParametersFixedRhoOmega"; "KaonParametersFixedSelected"; "ETGMRModelParameters"; "TwoPolesModelParameters"; "NucleonParameters"];
     SFrom ["kaon_production"; "data"] ["KaonDatapoint"]; SFrom ["nucleon_production"; "data"] ["NucleonDatapoint"];
     SUse ["TypeVar"; "KaonParameters"; "KaonParametersB"; "KaonParametersSimplified"; "KaonParametersFixedRhoOmega"; "KaonParametersFixedSelected"; "ETGMRModelParameters"; "TwoPolesModelParameters"; "NucleonParameters"];
     SBind "T"; SUse ["T"; "Optional"]; SBind "perturb_model_parameters";
     SUse ["ModelParameters"; "Union"; "KaonUAModel"; "KaonUAModelB"; "KaonUAModelSimplified"; "ETGMRModel"; "TwoPolesModel"; "NucleonUAModel"];
     SBind "_get_ff_model"; SUse ["Union"; "KaonDatapoint"; "Tuple"]; SBind "_read_datapoint_kaon";
     SUse ["Union"; "NucleonDatapoint"; "Tuple"]; SBind "_read_datapoint_nucleon"; SUse ["Callable"];
     SBind "_is_kaon_type_model"; SUse ["Union"; "List"; "KaonDatapoint"; "Tuple"; "NucleonDatapoint"; "ModelParameters"];
     SBind "function_form_factor"; SUse ["Union"; "List"; "KaonDatapoint"; "Tuple"; "NucleonDatapoint"; "ModelParameters"];
     SBind "function_cross_section"; SUse ["ModelParameters"; "Callable"]; SBind "make_partial_form_factor_for_parameters";
     SUse ["ModelParameters"; "Callable"]; SBind "make_partial_cross_section_for_parameters"]
    []
    ["random"; "np"; "KaonParameters"; "KaonUAModel"; "KaonParametersB"; "KaonUAModelB"; "KaonParametersSimplified";
     "KaonUAModelSimplified"; "KaonParametersFixedRhoOmega"; "KaonParametersFixedSelected"; "NucleonParameters";
     "NucleonUAModel"; "ETGMRModelParameters"; "ETGMRModel"; "TwoPolesModelParameters"; "TwoPolesModel"; "KaonDatapoint";
     "NucleonDatapoint"; "_get_ff_model"; "_is_kaon_type_model"; "_read_datapoint_kaon"; "_read_datapoint_nucleon";
     "ConfigParser"; "ScalarMesonProductionTotalCrossSection"; "NucleonPairToElectronPositronTotalCrossSection";
     "function_form_factor"; "function_cross_section"];
  (* kaon_production/calculate_deviations.py l.1-96 *)
  mkFile ["kaon_production"; "calculate_deviations"] false
    [SFrom ["configparser"] ["ConfigParser"]; SFrom ["typing"] ["List"; "Union"];
     SFrom ["kaon_production"; "data"] ["read_data"; "KaonDatapoint"];
     SFrom ["model_parameters"] ["Parameter"; "KaonParameters"; "KaonParametersSimplified"; "KaonParametersFixedRhoOmega"];
     SFrom ["common"; "utils"] ["make_partial_cross_section_for_parameters"];
     SUse ["Union"; "KaonParameters"; "KaonParametersSimplified"; "KaonParametersFixedRhoOmega"; "List"];
     SBind "calculate_deviations_from_fit"]
    [SUse ["ConfigParser"]; SBind "config"; SUse ["config"]; SUse ["config"]; SBind "pion_mass"; SUse ["pion_mass"];
     SBind "t_0_isoscalar"; SUse ["pion_mass"]; SBind "t_0_isovector"; SUse ["config"]; SBind "kaon_mass"; SUse ["config"];
     SBind "alpha"; SUse ["config"]; SBind "hc_squared"; SUse ["read_data"]; SBind "charged_ts";
     SBind "charged_cross_sections_values"; SBind "charged_errors"; SUse ["read_data"]; SBind "neutral_ts";
     SBind "neutral_cross_sections_values"; SBind "neutral_errors"; SUse ["KaonParametersFixedRhoOmega"; "Parameter"];
     SBind "parameters";
     SUse ["calculate_deviations_from_fit"; "parameters"; "neutral_ts"; "neutral_cross_sections_values"; "neutral_errors"; "kaon_mass"; "alpha"; "hc_squared"];
     SBind "results"; SUse ["results"]; SBind "r"; SUse ["r"]; SBind "filename"; SUse ["filename"]; SBind "f"; SUse ["f"];
     SUse ["results"]; SBind "t"; SBind "err"; SBind "cs"; SBind "fit"; SBind "dev"; SUse ["f"; "t"; "err"; "cs"; "fit"; "dev"]]
    ["make_partial_cross_section_for_parameters"; "KaonDatapoint"];
  (* task/ETGMRModelTask.py l.1-40 *)
  mkFile ["task"; "ETGMRModelTask"] false
    [SFrom ["typing"] ["List"; "Union"; "Optional"]; SFrom ["plotting"; "plot_fit"] ["plot_ff_fit_neutral_plus_charged"];
     SFrom ["task"; "Task"] ["Task"]; SFrom ["model_parameters"; "ETGMRModelParameters"] ["ETGMRModelParameters"];
     SFrom ["kaon_production"; "data"] ["KaonDatapoint"]; SFrom ["nucleon_production"; "data"] ["NucleonDatapoint"];
     SFrom ["common"; "utils"] ["make_partial_cross_section_for_parameters"];
     SUse ["Task"; "ETGMRModelParameters"; "Union"; "List"; "KaonDatapoint"; "NucleonDatapoint"; "Optional"];
     SBind "ETGMRModelTask"]
    []
    ["plot_ff_fit_neutral_plus_charged"; "make_partial_cross_section_for_parameters"];
  (* task/ResidualOscillationsTask.py l.1-194 *)
  mkFile ["task"; "ResidualOscillationsTask"] false
    [SImport ["math"] None; SImport ["numpy"] (Some "np"); SFrom ["typing"] ["Dict"; "List"; "Tuple"; "Union"; "Optional"];
     SFrom ["plotting"; "plot_fit"] ["plot_background_residuals"]; SFrom ["task"; "Task"] ["Task"];
     SFrom ["model_parameters"] ["ModelParameters"; "Parameter"]; SFrom ["other_models"] ["DampedOscillations"];
     SFrom ["kaon_production"; "data"] ["KaonDatapoint"]; SFrom ["nucleon_production"; "data"] ["NucleonDatapoint"];
     SFrom ["common"; "utils"] ["make_partial_cross_section_for_parameters"];
     SUse ["ModelParameters"; "List"; "Parameter"; "Tuple"; "Dict"]; SBind "_OscillationsParameters";
     SUse ["Task"; "ModelParameters"; "Union"; "List"; "KaonDatapoint"; "NucleonDatapoint"; "Optional"];
     SBind "ResidualOscillationsTask"]
    []
    ["Parameter"; "np"; "plot_background_residuals"; "math"; "make_partial_cross_section_for_parameters";
     "_OscillationsParameters"; "DampedOscillations"; "KaonDatapoint"; "NucleonDatapoint"];
  (* kaon_production/plot_fit.py l.1-88 *)
  mkFile ["kaon_production"; "plot_fit"] false
    [SFrom ["configparser"] ["ConfigParser"]; SFrom ["kaon_production"; "data"] ["read_data"; "KaonDatapoint"];
     SFrom ["common"; "utils"] ["make_partial_form_factor_for_parameters"; "make_partial_cross_section_for_parameters"];
     SFrom ["model_parameters"] ["KaonParametersB"; "Parameter"];
     SFrom ["plotting"; "plot_fit"] ["plot_ff_fit_neutral_plus_charged"];
     SFrom ["task"; "ResidualOscillationsTask"] ["ResidualOscillationsTask"]; SBind "prepare_data"]
    [SUse ["ConfigParser"]; SBind "config"; SUse ["config"]; SUse ["config"]; SBind "pion_mass"; SUse ["pion_mass"];
     SBind "t_0_isoscalar"; SUse ["pion_mass"]; SBind "t_0_isovector"; SUse ["read_data"]; SBind "charged_ts";
     SBind "charged_cross_sections_values"; SBind "charged_errors";
     SUse ["prepare_data"; "charged_ts"; "charged_cross_sections_values"; "charged_errors"]; SBind "ts"; SBind "ffs";
     SBind "errs"; SUse ["KaonParametersB"; "Parameter"]; SBind "parameters"; SUse ["parameters"];
     SUse ["make_partial_form_factor_for_parameters"; "parameters"]; SBind "f"; SUse ["config"]; SBind "kaon_mass";
     SUse ["config"]; SBind "alpha"; SUse ["config"]; SBind "hc_squared";
     SUse ["make_partial_cross_section_for_parameters"; "kaon_mass"; "alpha"; "hc_squared"; "parameters"]; SBind "g";
     SUse ["f"; "KaonDatapoint"]; SUse ["g"; "KaonDatapoint"];
     SUse ["plot_ff_fit_neutral_plus_charged"; "ts"; "ffs"; "errs"; "f"];
     SUse ["ResidualOscillationsTask"; "parameters"; "ts"; "ffs"; "errs"; "kaon_mass"; "alpha"; "hc_squared"]; SBind "task";
     SUse ["task"]]
    ["KaonDatapoint"];
  (* task/TwoPolesModelTask.py l.1-32 *)
  mkFile ["task"; "TwoPolesModelTask"] false
    [SFrom ["typing"] ["List"; "Union"; "Optional"]; SFrom ["plotting"; "plot_fit"] ["plot_ff_fit_neutral_plus_charged"];
     SFrom ["task"; "Task"] ["Task"]; SFrom ["model_parameters"; "TwoPolesModelParameters"] ["TwoPolesModelParameters"];
     SFrom ["kaon_production"; "data"] ["KaonDatapoint"]; SFrom ["nucleon_production"; "data"] ["NucleonDatapoint"];
     SFrom ["common"; "utils"] ["make_partial_cross_section_for_parameters"];
     SUse ["Task"; "TwoPolesModelParameters"; "Union"; "List"; "KaonDatapoint"; "NucleonDatapoint"; "Optional"];
     SBind "TwoPolesModelTask"]
    []
    ["plot_ff_fit_neutral_plus_charged"; "make_partial_cross_section_for_parameters"];
  (* kaon_production/fit_ff_other_models.py l.1-83 *)
  mkFile ["kaon_production"; "fit_ff_other_models"] false
    [SImport ["math"] None; SFrom ["kaon_production"; "data"] ["read_data"];
     SFrom ["model_parameters"] ["ETGMRModelParameters"; "TwoPolesModelParameters"];
     SFrom ["pipeline"; "KaonFormFactorPipeline"] ["KaonFormFactorPipeline"];
     SFrom ["task"; "ETGMRModelTask"] ["ETGMRModelTask"]; SFrom ["task"; "TwoPolesModelTask"] ["TwoPolesModelTask"];
     SFrom ["task"; "ResidualOscillationsTask"] ["ResidualOscillationsTask"];
     SFrom ["common"; "utils"] ["perturb_model_parameters"]; SBind "make_initial_parameters"]
    [SBind "path_to_reports"; SUse ["read_data"]; SBind "charged_ts"; SBind "charged_ff_values"; SBind "charged_errors";
     SBind "make_pipeline"; SBind "f"; SBind "final_results"; SBind "best_fit"; SBind "i"; SUse ["f"; "i"]; SBind "result";
     SUse ["result"]; SUse ["result"]; SUse ["final_results"; "result"]; SUse ["best_fit"; "result"]; SUse ["result"];
     SBind "best_fit"; SUse ["best_fit"]; SUse ["final_results"]; SBind "final_result"; SUse ["final_result"]]
    ["ETGMRModelParameters"; "math"; "TwoPolesModelParameters"; "ETGMRModelTask"; "TwoPolesModelTask";
     "ResidualOscillationsTask"; "KaonFormFactorPipeline"; "make_initial_parameters"; "perturb_model_parameters";
     "make_pipeline"; "charged_ts"; "charged_ff_values"; "charged_errors"; "path_to_reports"];
  (* task/kaon_cross_section_tasks.py l.1-32 *)
  mkFile ["task"; "kaon_cross_section_tasks"] false
    [SFrom ["task"; "KaonCrossSectionTask"] ["KaonCrossSectionTask"];
     SFrom ["common"; "utils"] ["make_partial_cross_section_for_parameters"]; SUse ["KaonCrossSectionTask"]; SBind "TaskFullFit";
     SUse ["KaonCrossSectionTask"]; SBind "TaskFixedCouplingConstants"; SUse ["KaonCrossSectionTask"];
     SBind "TaskFixAccordingToParametersFit"]
    []
    ["make_partial_cross_section_for_parameters"];
  (* kaon_production/run_single_fit.py l.1-70 *)
  mkFile ["kaon_production"; "run_single_fit"] false
    [SFrom ["configparser"] ["ConfigParser"]; SFrom ["kaon_production"; "data"] ["read_data"; "KaonDatapoint"];
     SFrom ["model_parameters"] ["KaonParameters"];
     SFrom ["task"; "kaon_cross_section_tasks"] ["TaskFixAccordingToParametersFit"]; SBind "make_parameters";
     SBind "prepare_data"]
    [SUse ["ConfigParser"]; SBind "config"; SUse ["config"]; SUse ["config"]; SBind "pion_mass"; SUse ["pion_mass"];
     SBind "t_0_isoscalar"; SUse ["pion_mass"]; SBind "t_0_isovector"; SUse ["config"]; SBind "kaon_mass"; SUse ["config"];
     SBind "alpha"; SUse ["config"]; SBind "hc_squared"; SBind "path_to_reports"; SUse ["read_data"]; SBind "charged_ts";
     SBind "charged_cross_sections_values"; SBind "charged_errors"; SUse ["read_data"]; SBind "neutral_ts";
     SBind "neutral_cross_sections_values"; SBind "neutral_errors"; SUse ["make_parameters"; "t_0_isoscalar"; "t_0_isovector"];
     SBind "parameters";
     SUse ["prepare_data"; "charged_ts"; "charged_cross_sections_values"; "charged_errors"; "neutral_ts"; "neutral_cross_sections_values"; "neutral_errors"];
     SBind "ts"; SBind "cross_sections"; SBind "errors"; SUse ["parameters"]; SUse ["parameters"]; SUse ["parameters"];
     SUse ["parameters"];
     SUse ["TaskFixAccordingToParametersFit"; "parameters"; "ts"; "cross_sections"; "errors"; "kaon_mass"; "alpha"; "hc_squared"];
     SBind "task"; SUse ["task"]; SUse ["task"]]
    ["KaonParameters"; "KaonDatapoint"];
  (* pipeline/KaonCrossSectionIterativePipeline.py l.1-82 *)
  mkFile ["pipeline"; "KaonCrossSectionIterativePipeline"] false
    [SFrom ["typing"] ["List"; "Tuple"; "Union"]; SFrom ["random"] ["sample"];
     SFrom ["pipeline"; "KaonCrossSectionPipeline"] ["KaonCrossSectionPipeline"];
     SFrom ["model_parameters"] ["KaonParameters"; "KaonParametersB"; "KaonParametersSimplified"; "KaonParametersFixedSelected"];
     SFrom ["task"; "kaon_cross_section_tasks"] ["TaskFixAccordingToParametersFit"; "TaskFullFit"];
     SUse ["KaonCrossSectionPipeline"; "Union"; "KaonParameters"; "KaonParametersB"; "KaonParametersSimplified"; "KaonParametersFixedSelected"; "List"; "Tuple"];
     SBind "KaonCrossSectionIterativePipeline"]
    []
    ["TaskFixAccordingToParametersFit"; "TaskFullFit"; "sample"];
  (* task/kaon_form_factor_tasks.py l.1-40 *)
  mkFile ["task"; "kaon_form_factor_tasks"] false
    [SFrom ["task"; "KaonFormFactorTask"] ["KaonFormFactorTask"];
     SFrom ["common"; "utils"] ["make_partial_form_factor_for_parameters"]; SUse ["KaonFormFactorTask"]; SBind "TaskFullFit";
     SUse ["KaonFormFactorTask"]; SBind "TaskFullFitOnlyCharged"; SUse ["KaonFormFactorTask"];
     SBind "TaskFixAccordingToParametersFit"; SUse ["KaonFormFactorTask"]; SBind "TaskFixAccordingToParametersFitOnlyCharged"]
    []
    ["make_partial_form_factor_for_parameters"];
  (* pipeline/KaonFormFactorIterativePipeline.py l.1-79 *)
  mkFile ["pipeline"; "KaonFormFactorIterativePipeline"] false
    [SFrom ["typing"] ["List"; "Tuple"; "Union"]; SFrom ["random"] ["sample"];
     SFrom ["pipeline"; "KaonFormFactorPipeline"] ["KaonFormFactorPipeline"];
     SFrom ["model_parameters"] ["KaonParameters"; "KaonParametersB"; "KaonParametersSimplified"; "KaonParametersFixedSelected"];
     SFrom ["task"; "kaon_form_factor_tasks"] ["TaskFixAccordingToParametersFit"; "TaskFullFitOnlyCharged"];
     SUse ["KaonFormFactorPipeline"; "Union"; "KaonParameters"; "KaonParametersB"; "KaonParametersSimplified"; "KaonParametersFixedSelected"; "List"; "Tuple"];
     SBind "KaonFormFactorIterativePipeline"]
    []
    ["TaskFixAccordingToParametersFit"; "TaskFullFitOnlyCharged"; "sample"];
  (* kaon_production/fit_ff_iterative_pipeline.py l.1-83 *)
  mkFile ["kaon_production"; "fit_ff_iterative_pipeline"] false
    [SFrom ["configparser"] ["ConfigParser"]; SFrom ["kaon_production"; "data"] ["read_data"];
     SFrom ["model_parameters"] ["KaonParametersB"];
     SFrom ["pipeline"; "KaonFormFactorIterativePipeline"] ["KaonFormFactorIterativePipeline"];
     SFrom ["common"; "utils"] ["perturb_model_parameters"]; SBind "make_initial_parameters"]
    [SUse ["ConfigParser"]; SBind "config"; SUse ["config"]; SUse ["config"]; SBind "pion_mass"; SUse ["pion_mass"];
     SBind "t_0_isoscalar"; SUse ["pion_mass"]; SBind "t_0_isovector"; SBind "path_to_reports"; SUse ["read_data"];
     SBind "charged_ts"; SBind "charged_ff_values"; SBind "charged_errors"; SBind "f"; SBind "final_results"; SBind "best_fit";
     SBind "i"; SUse ["f"; "i"]; SBind "result"; SUse ["result"]; SUse ["result"]; SUse ["final_results"; "result"];
     SUse ["best_fit"; "result"]; SUse ["result"]; SBind "best_fit"; SUse ["best_fit"]; SUse ["final_results"];
     SBind "final_result"; SUse ["final_result"]]
    ["KaonParametersB"; "make_initial_parameters"; "t_0_isoscalar"; "t_0_isovector"; "perturb_model_parameters";
     "KaonFormFactorIterativePipeline"; "charged_ts"; "charged_ff_values"; "charged_errors"; "path_to_reports"];
  (* task/nucleon_cross_section_tasks.py l.1-32 *)
  mkFile ["task"; "nucleon_cross_section_tasks"] false
    [SFrom ["task"; "NucleonCrossSectionTask"] ["NucleonCrossSectionTask"];
     SFrom ["common"; "utils"] ["make_partial_cross_section_for_parameters"]; SUse ["NucleonCrossSectionTask"];
     SBind "TaskFullFit"; SUse ["NucleonCrossSectionTask"]; SBind "TaskFixedCouplingConstants"; SUse ["NucleonCrossSectionTask"];
     SBind "TaskFixAccordingToParametersFit"]
    []
    ["make_partial_cross_section_for_parameters"];
  (* nucleon_production/run_single_fit.py l.1-71 *)
  mkFile ["nucleon_production"; "run_single_fit"] false
    [SFrom ["configparser"] ["ConfigParser"]; SFrom ["nucleon_production"; "data"] ["read_data"; "NucleonDatapoint"];
     SFrom ["model_parameters"] ["NucleonParameters"];
     SFrom ["task"; "nucleon_cross_section_tasks"] ["TaskFixAccordingToParametersFit"]; SBind "make_parameters";
     SBind "prepare_data"]
    [SUse ["ConfigParser"]; SBind "config"; SUse ["config"]; SUse ["config"]; SBind "pion_mass"; SUse ["pion_mass"];
     SBind "t_0_isoscalar"; SUse ["pion_mass"]; SBind "t_0_isovector"; SUse ["config"]; SBind "proton_mass"; SUse ["config"];
     SBind "magnetic_moment_proton"; SUse ["config"]; SBind "magnetic_moment_neutron"; SUse ["config"]; SBind "alpha";
     SUse ["config"]; SBind "hc_squared"; SBind "path_to_reports"; SUse ["read_data"]; SBind "ts"; SBind "css"; SBind "errors";
     SBind "list_of_values";
     SUse ["make_parameters"; "proton_mass"; "magnetic_moment_proton"; "magnetic_moment_neutron"; "t_0_isoscalar"; "t_0_isovector"; "list_of_values"];
     SBind "parameters"; SUse ["prepare_data"; "ts"; "css"; "errors"]; SBind "ts"; SBind "css"; SBind "errors";
     SUse ["parameters"];
     SUse ["TaskFixAccordingToParametersFit"; "parameters"; "ts"; "css"; "errors"; "proton_mass"; "alpha"; "hc_squared"];
     SBind "task"; SUse ["task"]; SUse ["task"]]
    ["NucleonParameters"; "NucleonDatapoint"];
  (* pipeline/NucleonCrossSectionIterativePipeline.py l.1-114 *)
  mkFile ["pipeline"; "NucleonCrossSectionIterativePipeline"] false
    [SFrom ["typing"] ["List"; "Tuple"; "Union"]; SFrom ["random"] ["sample"];
     SFrom ["pipeline"; "NucleonCrossSectionPipeline"] ["NucleonCrossSectionPipeline"];
     SFrom ["model_parameters"] ["NucleonParameters"; "ETGMRModelParameters"; "TwoPolesModelParameters"];
     SFrom ["task"; "nucleon_cross_section_tasks"] ["TaskFixAccordingToParametersFit"; "TaskFullFit"];
     SFrom ["task"; "ResidualOscillationsTask"] ["ResidualOscillationsTask"];
     SUse ["NucleonCrossSectionPipeline"; "Union"; "NucleonParameters"; "ETGMRModelParameters"; "TwoPolesModelParameters"; "List"; "Tuple"];
     SBind "NucleonCrossSectionIterativePipeline"]
    []
    ["TaskFixAccordingToParametersFit"; "ResidualOscillationsTask"; "sample"];
  (* nucleon_production/fit_cs_iterative_pipeline.py l.1-116 *)
  mkFile ["nucleon_production"; "fit_cs_iterative_pipeline"] false
    [SFrom ["configparser"] ["ConfigParser"]; SFrom ["nucleon_production"; "data"] ["read_data"];
     SFrom ["model_parameters"; "NucleonParameters"] ["NucleonParameters"];
     SFrom ["pipeline"; "NucleonCrossSectionIterativePipeline"] ["NucleonCrossSectionIterativePipeline"];
     SFrom ["common"; "utils"] ["perturb_model_parameters"]; SBind "make_initial_parameters"]
    [SUse ["ConfigParser"]; SBind "config"; SUse ["config"]; SUse ["config"]; SBind "pion_mass"; SUse ["pion_mass"];
     SBind "t_0_isoscalar"; SUse ["pion_mass"]; SBind "t_0_isovector"; SUse ["config"]; SBind "proton_mass"; SUse ["config"];
     SBind "proton_magnetic_moment"; SUse ["config"]; SBind "neutron_magnetic_moment"; SUse ["config"]; SBind "alpha";
     SUse ["config"]; SBind "hc_squared"; SBind "path_to_reports"; SUse ["read_data"]; SBind "ts_proton_electric";
     SBind "css_proton_electric"; SBind "errors_proton_electric"; SBind "f"; SBind "final_results"; SBind "best_fit"; SBind "i";
     SUse ["f"; "i"]; SBind "result"; SUse ["result"]; SUse ["result"]; SUse ["final_results"; "result"];
     SUse ["best_fit"; "result"]; SUse ["result"]; SBind "best_fit"; SUse ["best_fit"]; SUse ["final_results"];
     SBind "final_result"; SUse ["final_result"]]
    ["NucleonParameters"; "make_initial_parameters"; "proton_mass"; "proton_magnetic_moment"; "neutron_magnetic_moment";
     "t_0_isoscalar"; "t_0_isovector"; "perturb_model_parameters"; "NucleonCrossSectionIterativePipeline"; "ts_proton_electric";
     "css_proton_electric"; "errors_proton_electric"; "alpha"; "hc_squared"; "path_to_reports"];
  (* task/nucleon_form_factor_tasks.py l.1-15 *)
  mkFile ["task"; "nucleon_form_factor_tasks"] false
    [SFrom ["task"; "NucleonFormFactorTask"] ["NucleonFormFactorTask"];
     SFrom ["common"; "utils"] ["make_partial_form_factor_for_parameters"]; SUse ["NucleonFormFactorTask"]; SBind "TaskFullFit";
     SUse ["NucleonFormFactorTask"]; SBind "TaskFixAccordingToParametersFit"]
    []
    ["make_partial_form_factor_for_parameters"];
  (* pipeline/NucleonFormFactorIterativePipeline.py l.1-86 *)
  mkFile ["pipeline"; "NucleonFormFactorIterativePipeline"] false
    [SFrom ["typing"] ["List"; "Tuple"; "Union"]; SFrom ["random"] ["sample"];
     SFrom ["pipeline"; "NucleonFormFactorPipeline"] ["NucleonFormFactorPipeline"];
     SFrom ["model_parameters"] ["NucleonParameters"; "ETGMRModelParameters"; "TwoPolesModelParameters"];
     SFrom ["task"; "nucleon_form_factor_tasks"] ["TaskFixAccordingToParametersFit"; "TaskFullFit"];
     SUse ["NucleonFormFactorPipeline"; "Union"; "NucleonParameters"; "ETGMRModelParameters"; "TwoPolesModelParameters"; "List"; "Tuple"];
     SBind "NucleonFormFactorIterativePipeline"]
    []
    ["TaskFixAccordingToParametersFit"; "TaskFullFit"; "sample"];
  (* ua_model/NucleonUAModelOld.py l.1-338 *)
  mkFile ["ua_model"; "NucleonUAModelOld"] false
    [SFrom ["ua_model"; "ua_components"; "UAComponent"] ["UAComponent"];
     SFrom ["ua_model"; "ua_components"; "UAComponentVariantA"] ["UAComponentVariantA"];
     SFrom ["ua_model"; "ua_components"; "UAComponentVariantB"] ["UAComponentVariantB"];
     SFrom ["ua_model"; "MapFromTtoW"] ["MapFromTtoW"]; SUse ["UAComponent"]; SBind "NucleonUAModelOld"]
    []
    ["MapFromTtoW"; "UAComponentVariantA"; "UAComponentVariantB"];
  (* ua_model/SingleComponentModel.py l.1-47 *)
  mkFile ["ua_model"; "SingleComponentModel"] false
    [SFrom ["ua_model"; "ua_components"; "UAComponent"] ["UAComponent"];
     SFrom ["ua_model"; "ua_components"; "UAComponentVariantA"] ["UAComponentVariantA"];
     SFrom ["ua_model"; "ua_components"; "UAComponentVariantB"] ["UAComponentVariantB"];
     SFrom ["ua_model"; "MapFromTtoW"] ["MapFromTtoW"]; SUse ["UAComponent"]; SBind "SingleComponentModel"]
    []
    ["MapFromTtoW"; "UAComponentVariantA"; "UAComponentVariantB"];
  (* kaon_production/plot_single_component.py l.1-78 *)
  mkFile ["kaon_production"; "plot_single_component"] false
    [SFrom ["configparser"] ["ConfigParser"]; SFrom ["typing"] ["Callable"; "List"; "Union"; "Tuple"];
     SFrom ["kaon_production"; "data"] ["read_data"; "KaonDatapoint"];
     SFrom ["cross_section"; "ScalarMesonProductionTotalCrossSection"] ["ScalarMesonProductionTotalCrossSection"];
     SFrom ["ua_model"; "SingleComponentModel"] ["SingleComponentModel"];
     SFrom ["plotting"; "plot_fit"] ["plot_cs_fit_neutral_plus_charged"];
     SUse ["Callable"; "List"; "Union"; "KaonDatapoint"; "Tuple"]; SBind "make_function_cross_section"; SBind "prepare_data"]
    [SUse ["ConfigParser"]; SBind "config"; SUse ["config"]; SUse ["config"]; SBind "pion_mass"; SUse ["pion_mass"];
     SBind "t_0_isoscalar"; SUse ["pion_mass"]; SBind "t_0_isovector"; SUse ["config"]; SBind "kaon_mass"; SUse ["config"];
     SBind "alpha"; SUse ["config"]; SBind "hc_squared"; SUse ["read_data"]; SBind "charged_ts";
     SBind "charged_cross_sections_values"; SBind "charged_errors"; SUse ["read_data"]; SBind "neutral_ts";
     SBind "neutral_cross_sections_values"; SBind "neutral_errors";
     SUse ["prepare_data"; "charged_ts"; "charged_cross_sections_values"; "charged_errors"; "neutral_ts"; "neutral_cross_sections_values"; "neutral_errors"];
     SBind "ts"; SBind "css"; SBind "errs"; SUse ["make_function_cross_section"; "kaon_mass"; "alpha"; "hc_squared"]; SBind "f";
     SUse ["plot_cs_fit_neutral_plus_charged"; "ts"; "css"; "errs"; "f"]]
    ["SingleComponentModel"; "ConfigParser"; "ScalarMesonProductionTotalCrossSection"; "List"; "Union"; "KaonDatapoint"; "Tuple"]
].

Definition broken_scripts : list file :=
[
  (* kaon_production/fit_cs_iterative_pipeline_withneutralkaons_fixed.py l.1-106 *)
  mkFile ["kaon_production"; "fit_cs_iterative_pipeline_withneutralkaons_fixed"] false
    [SFrom ["configparser"] ["ConfigParser"]; SFrom ["multiprocessing"] ["Pool"];
     SFrom ["kaon_production"; "data"] ["read_data"]; SFrom ["model_parameters"] ["KaonParametersFixedSelected"];
     SFrom ["pipeline"; "KaonCrossSectionIterativePipeline"] ["CrossSectionIterativePipeline"];
     SFrom ["common"; "utils"] ["perturb_model_parameters"]; SBind "make_initial_parameters"]
    [SUse ["ConfigParser"]; SBind "config"; SUse ["config"]; SUse ["config"]; SBind "pion_mass"; SUse ["pion_mass"];
     SBind "t_0_isoscalar"; SUse ["pion_mass"]; SBind "t_0_isovector"; SUse ["config"]; SBind "kaon_mass"; SUse ["config"];
     SBind "alpha"; SUse ["config"]; SBind "hc_squared"; SBind "path_to_reports"; SUse ["read_data"]; SBind "charged_ts";
     SBind "charged_cross_sections_values"; SBind "charged_errors"; SUse ["read_data"]; SBind "neutral_ts";
     SBind "neutral_cross_sections_values"; SBind "neutral_errors"; SUse ["neutral_errors"]; SBind "neutral_errors"; SBind "f";
     SBind "final_results"; SUse ["Pool"]; SBind "pool"; SUse ["pool"; "f"]; SBind "results"; SUse ["pool"]; SUse ["pool"];
     SBind "best_fit"; SUse ["results"]; SBind "result"; SUse ["result"]; SBind "r"; SUse ["r"]; SUse ["r"];
     SUse ["final_results"; "r"]; SUse ["best_fit"]; SUse ["r"]; SBind "best_fit"; SUse ["r"; "best_fit"]; SUse ["r"];
     SBind "best_fit"; SUse ["best_fit"]; SUse ["final_results"]; SBind "final_result"; SUse ["final_result"]]
    ["KaonParametersFixedSelected"; "make_initial_parameters"; "t_0_isoscalar"; "t_0_isovector"; "perturb_model_parameters";
     "CrossSectionIterativePipeline"; "charged_ts"; "charged_cross_sections_values"; "charged_errors"; "neutral_ts";
     "neutral_cross_sections_values"; "neutral_errors"; "kaon_mass"; "alpha"; "hc_squared"; "path_to_reports"; "pool"; "f"];
  (* kaon_production/fit_cs_iterative_pipeline_withneutralkaons_simplified.py l.1-97 *)
  mkFile ["kaon_production"; "fit_cs_iterative_pipeline_withneutralkaons_simplified"] false
    [SFrom ["configparser"] ["ConfigParser"]; SFrom ["multiprocessing"] ["Pool"];
     SFrom ["kaon_production"; "data"] ["read_data"];
     SFrom ["model_parameters"; "KaonParametersSimplified"] ["KaonParametersSimplified"];
     SFrom ["pipeline"; "KaonCrossSectionIterativePipeline"] ["CrossSectionIterativePipeline"];
     SFrom ["common"; "utils"] ["perturb_model_parameters"]; SBind "make_initial_parameters"]
    [SUse ["ConfigParser"]; SBind "config"; SUse ["config"]; SUse ["config"]; SBind "pion_mass"; SUse ["pion_mass"];
     SBind "t_0_isoscalar"; SUse ["pion_mass"]; SBind "t_0_isovector"; SUse ["config"]; SBind "kaon_mass"; SUse ["config"];
     SBind "alpha"; SUse ["config"]; SBind "hc_squared"; SBind "path_to_reports"; SUse ["read_data"]; SBind "charged_ts";
     SBind "charged_cross_sections_values"; SBind "charged_errors"; SUse ["read_data"]; SBind "neutral_ts";
     SBind "neutral_cross_sections_values"; SBind "neutral_errors"; SBind "f"; SBind "final_results"; SUse ["Pool"];
     SBind "pool"; SUse ["pool"; "f"]; SBind "results"; SUse ["pool"]; SUse ["pool"]; SBind "best_fit"; SUse ["results"];
     SBind "result"; SUse ["result"]; SBind "r"; SUse ["r"]; SUse ["r"]; SUse ["final_results"; "r"]; SUse ["best_fit"];
     SUse ["r"]; SBind "best_fit"; SUse ["r"; "best_fit"]; SUse ["r"]; SBind "best_fit"; SUse ["best_fit"];
     SUse ["final_results"]; SBind "final_result"; SUse ["final_result"]]
    ["KaonParametersSimplified"; "make_initial_parameters"; "t_0_isoscalar"; "t_0_isovector"; "perturb_model_parameters";
     "CrossSectionIterativePipeline"; "charged_ts"; "charged_cross_sections_values"; "charged_errors"; "neutral_ts";
     "neutral_cross_sections_values"; "neutral_errors"; "kaon_mass"; "alpha"; "hc_squared"; "path_to_reports"; "pool"; "f"];
  (* kaon_production/fit_cs_pipeline_withneutralkaons_simplified.py l.1-113 *)
  mkFile ["kaon_production"; "fit_cs_pipeline_withneutralkaons_simplified"] false
    [SFrom ["configparser"] ["ConfigParser"]; SFrom ["multiprocessing"] ["Pool"];
     SFrom ["kaon_production"; "data"] ["read_data"]; SFrom ["model_parameters"] ["KaonParametersSimplified"];
     SFrom ["task"; "kaon_cross_section_tasks"] ["TaskFixedResonancesFit"];
     SFrom ["pipeline"; "KaonCrossSectionPipeline"] ["CrossSectionPipeline"];
     SFrom ["common"; "utils"] ["perturb_model_parameters"]; SBind "make_initial_parameters"; SBind "make_pipeline_restricted"]
    [SUse ["ConfigParser"]; SBind "config"; SUse ["config"]; SUse ["config"]; SBind "pion_mass"; SUse ["pion_mass"];
     SBind "t_0_isoscalar"; SUse ["pion_mass"]; SBind "t_0_isovector"; SUse ["config"]; SBind "kaon_mass"; SUse ["config"];
     SBind "alpha"; SUse ["config"]; SBind "hc_squared"; SBind "path_to_reports"; SUse ["read_data"]; SBind "charged_ts";
     SBind "charged_cross_sections_values"; SBind "charged_errors"; SUse ["read_data"]; SBind "neutral_ts";
     SBind "neutral_cross_sections_values"; SBind "neutral_errors"; SBind "f"; SBind "final_results"; SUse ["Pool"];
     SBind "pool"; SUse ["pool"; "f"]; SBind "results"; SUse ["pool"]; SUse ["pool"]; SBind "best_fit"; SUse ["results"];
     SBind "result"; SUse ["result"]; SBind "r"; SUse ["r"]; SUse ["r"]; SUse ["final_results"; "r"]; SUse ["best_fit"];
     SUse ["r"]; SBind "best_fit"; SUse ["r"; "best_fit"]; SUse ["r"]; SBind "best_fit"; SUse ["best_fit"];
     SUse ["final_results"]; SBind "final_result"; SUse ["final_result"]]
    ["KaonParametersSimplified"; "TaskFixedResonancesFit"; "CrossSectionPipeline"; "make_initial_parameters"; "t_0_isoscalar";
     "t_0_isovector"; "perturb_model_parameters"; "make_pipeline_restricted"; "charged_ts"; "charged_cross_sections_values";
     "charged_errors"; "neutral_ts"; "neutral_cross_sections_values"; "neutral_errors"; "kaon_mass"; "alpha"; "hc_squared";
     "path_to_reports"; "pool"; "f"]
].

Definition test_files : list file :=
[
  (* tests/test_KaonParameters.py l.1-230 *)
  mkFile ["tests"; "test_KaonParameters"] false
    [SFrom ["unittest"] ["TestCase"]; SImport ["numpy"] (Some "np");
     SFrom ["model_parameters"; "KaonParameters"] ["KaonParameters"; "Parameter"]; SUse ["TestCase"]; SBind "TestModelParameters"]
    []
    ["KaonParameters"; "Parameter"; "np"];
  (* tests/test_KaonParametersFixedRhoOmega.py l.1-217 *)
  mkFile ["tests"; "test_KaonParametersFixedRhoOmega"] false
    [SFrom ["unittest"] ["TestCase"]; SImport ["numpy"] (Some "np");
     SFrom ["model_parameters"; "KaonParametersFixedRhoOmega"] ["KaonParametersFixedRhoOmega"; "Parameter"]; SUse ["TestCase"];
     SBind "TestModelParametersFixedRhoOmega"]
    []
    ["KaonParametersFixedRhoOmega"; "Parameter"; "np"];
  (* tests/test_KaonParametersSimplified.py l.1-210 *)
  mkFile ["tests"; "test_KaonParametersSimplified"] false
    [SFrom ["unittest"] ["TestCase"]; SImport ["numpy"] (Some "np");
     SFrom ["model_parameters"; "KaonParametersSimplified"] ["KaonParametersSimplified"; "Parameter"]; SUse ["TestCase"];
     SBind "TestModelParametersSimplified"]
    []
    ["KaonParametersSimplified"; "Parameter"; "np"];
  (* tests/test_KaonUAModel.py l.1-129 *)
  mkFile ["tests"; "test_KaonUAModel"] false
    [SFrom ["unittest"] ["TestCase"]; SImport ["cmath"] None; SFrom ["ua_model"; "KaonUAModel"] ["KaonUAModel"];
     SUse ["TestCase"]; SBind "TestKaonUAModel"]
    []
    ["KaonUAModel"; "cmath"];
  (* tests/test_KaonUAModelB.py l.1-133 *)
  mkFile ["tests"; "test_KaonUAModelB"] false
    [SFrom ["unittest"] ["TestCase"]; SImport ["cmath"] None; SFrom ["ua_model"; "KaonUAModelB"] ["KaonUAModelB"];
     SUse ["TestCase"]; SBind "TestKaonUAModelB"]
    []
    ["KaonUAModelB"; "cmath"];
  (* tests/test_KaonUAModelSimplified.py l.1-117 *)
  mkFile ["tests"; "test_KaonUAModelSimplified"] false
    [SFrom ["unittest"] ["TestCase"]; SImport ["cmath"] None;
     SFrom ["ua_model"; "KaonUAModelSimplified"] ["KaonUAModelSimplified"]; SUse ["TestCase"]; SBind "TestKaonUAModel"]
    []
    ["KaonUAModelSimplified"; "cmath"];
  (* tests/test_MapFromTtoW.py l.1-30 *)
  mkFile ["tests"; "test_MapFromTtoW"] false
    [SImport ["cmath"] None; SFrom ["unittest"] ["TestCase"]; SFrom ["ua_model"; "MapFromTtoW"] ["MapFromTtoW"];
     SUse ["TestCase"]; SBind "TestMapFromTtoW"]
    []
    ["MapFromTtoW"; "cmath"];
  (* tests/test_MapFromWtoT.py l.1-30 *)
  mkFile ["tests"; "test_MapFromWtoT"] false
    [SImport ["cmath"] None; SFrom ["unittest"] ["TestCase"]; SFrom ["ua_model"; "MapFromWtoT"] ["MapFromWtoT"];
     SUse ["TestCase"]; SBind "TestMapFromWtoT"]
    []
    ["MapFromWtoT"; "cmath"];
  (* tests/test_NucleonPairToElectronPositronTotalCrossSection.py l.1-104 *)
  mkFile ["tests"; "test_NucleonPairToElectronPositronTotalCrossSection"] false
    [SImport ["cmath"] None; SFrom ["unittest"] ["TestCase"]; SFrom ["configparser"] ["ConfigParser"];
     SFrom ["cross_section"; "NucleonPairToElectronPositronTotalCrossSection"] ["NucleonPairToElectronPositronTotalCrossSection"];
     SFrom ["ua_model"; "NucleonUAModel"] ["NucleonUAModel"]; SUse ["TestCase"];
     SBind "TestScalarMesonProductionTotalCrossSection"]
    []
    ["ConfigParser"; "NucleonPairToElectronPositronTotalCrossSection"; "cmath"; "NucleonUAModel"];
  (* tests/test_NucleonParameters.py l.1-100 *)
  mkFile ["tests"; "test_NucleonParameters"] false
    [SFrom ["unittest"] ["TestCase"]; SImport ["numpy"] (Some "np");
     SFrom ["model_parameters"; "NucleonParameters"] ["NucleonParameters"; "Parameter"]; SUse ["TestCase"];
     SBind "TestNucleonParameters"]
    []
    ["NucleonParameters"; "Parameter"];
  (* tests/test_NucleonUAModel.py l.1-249 *)
  mkFile ["tests"; "test_NucleonUAModel"] false
    [SFrom ["unittest"] ["TestCase"]; SImport ["cmath"] None; SFrom ["ua_model"; "NucleonUAModel"] ["NucleonUAModel"];
     SUse ["TestCase"]; SBind "TestNucleonUAModel"]
    []
    ["NucleonUAModel"; "cmath"];
  (* tests/test_NucleonUAModelOld.py l.1-249 *)
  mkFile ["tests"; "test_NucleonUAModelOld"] false
    [SFrom ["unittest"] ["TestCase"]; SImport ["cmath"] None; SFrom ["ua_model"; "NucleonUAModelOld"] ["NucleonUAModelOld"];
     SUse ["TestCase"]; SBind "TestNucleonUAModelOld"]
    []
    ["NucleonUAModelOld"; "cmath"];
  (* tests/test_ScalarMesonProductionTotalCrossSection.py l.1-99 *)
  mkFile ["tests"; "test_ScalarMesonProductionTotalCrossSection"] false
    [SImport ["cmath"] None; SFrom ["unittest"] ["TestCase"]; SFrom ["configparser"] ["ConfigParser"];
     SFrom ["cross_section"; "ScalarMesonProductionTotalCrossSection"] ["ScalarMesonProductionTotalCrossSection"];
     SFrom ["ua_model"; "KaonUAModel"] ["KaonUAModel"]; SUse ["TestCase"]; SBind "TestScalarMesonProductionTotalCrossSection"]
    []
    ["ConfigParser"; "ScalarMesonProductionTotalCrossSection"; "cmath"; "KaonUAModel"];
  (* tests/test_UAComponentVariantA.py l.1-22 *)
  mkFile ["tests"; "test_UAComponentVariantA"] false
    [SFrom ["unittest"] ["TestCase"]; SImport ["cmath"] None;
     SFrom ["ua_model"; "ua_components"; "UAComponentVariantA"] ["UAComponentVariantA"]; SUse ["TestCase"];
     SBind "TestUAComponentVariantA"]
    []
    ["UAComponentVariantA"; "cmath"];
  (* tests/test_UAComponentVariantB.py l.1-22 *)
  mkFile ["tests"; "test_UAComponentVariantB"] false
    [SFrom ["unittest"] ["TestCase"]; SImport ["cmath"] None;
     SFrom ["ua_model"; "ua_components"; "UAComponentVariantB"] ["UAComponentVariantB"]; SUse ["TestCase"];
     SBind "TestUAComponentVariantB"]
    []
    ["UAComponentVariantB"; "cmath"];
  (* tests/test_VMDModel.py l.1-38 *)
  mkFile ["tests"; "test_VMDModel"] false
    [SFrom ["unittest"] ["TestCase"]; SImport ["cmath"] None; SFrom ["other_models"] ["VMDModel"]; SUse ["TestCase"];
     SBind "TestVMDModel"]
    []
    ["VMDModel"; "cmath"];
  (* tests/test_common_utils.py l.1-156 *)
  mkFile ["tests"; "test_common_utils"] false
    [SFrom ["unittest"] ["TestCase"]; SImport ["cmath"] None; SFrom ["common"; "utils"] ["function_cross_section"];
     SFrom ["kaon_production"; "data"] ["KaonDatapoint"];
     SFrom ["model_parameters"] ["KaonParameters"; "KaonParametersSimplified"]; SUse ["TestCase"]; SBind "TestCommonUtils"]
    []
    ["KaonDatapoint"; "KaonParameters"; "function_cross_section"; "cmath"; "KaonParametersSimplified"];
  (* tests/test_consistency_kaon_model_vmd_model.py l.1-72 *)
  mkFile ["tests"; "test_consistency_kaon_model_vmd_model"] false
    [SFrom ["unittest"] ["TestCase"]; SImport ["cmath"] None; SFrom ["other_models"] ["VMDModel"];
     SFrom ["ua_model"; "KaonUAModel"] ["KaonUAModel"]; SUse ["TestCase"]; SBind "TestConsistencyKaonModelVMDModel"]
    []
    ["KaonUAModel"; "VMDModel"; "cmath"];
  (* tests/test_coordinate_maps_consistency.py l.1-47 *)
  mkFile ["tests"; "test_coordinate_maps_consistency"] false
    [SFrom ["unittest"] ["TestCase"]; SImport ["cmath"] None; SFrom ["ua_model"; "MapFromTtoW"] ["MapFromTtoW"];
     SFrom ["ua_model"; "MapFromWtoT"] ["MapFromWtoT"]; SUse ["TestCase"]; SBind "TestCoordinateMapsConsistency"]
    []
    ["MapFromTtoW"; "MapFromWtoT"; "cmath"];
  (* tests/test_functions.py l.1-59 *)
  mkFile ["tests"; "test_functions"] false
    [SImport ["cmath"] None; SFrom ["unittest"] ["TestCase"];
     SFrom ["ua_model"; "functions"] ["z_minus_its_reciprocal"; "square_root"]; SUse ["TestCase"]; SBind "TestFunctions"]
    []
    ["cmath"; "z_minus_its_reciprocal"; "square_root"];
  (* tests/test_kaon_production_utils.py l.1-123 *)
  mkFile ["tests"; "test_kaon_production_utils"] false
    [SFrom ["unittest"] ["TestCase"]; SImport ["cmath"] None; SFrom ["kaon_production"; "data"] ["KaonDatapoint"];
     SFrom ["common"; "utils"] ["make_partial_cross_section_for_parameters"];
     SFrom ["model_parameters"] ["KaonParameters"; "KaonParametersSimplified"]; SUse ["TestCase"];
     SBind "TestKaonProductionUtils"]
    []
    ["KaonParameters"; "KaonParametersSimplified"; "KaonDatapoint"; "cmath"; "make_partial_cross_section_for_parameters"];
  (* tests/test_utils.py l.1-16 *)
  mkFile ["tests"; "test_utils"] false
    [SFrom ["unittest"] ["TestCase"]; SFrom ["ua_model"; "utils"] ["validate_branch_point_positions"]; SUse ["TestCase"];
     SBind "TestFunctionUtils"]
    []
    ["validate_branch_point_positions"]
].


(** The modules of the repository; python finds all of them. *)
Definition sources : list file := modules ++ broken_scripts.
