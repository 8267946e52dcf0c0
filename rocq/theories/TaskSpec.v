(** What a task is supposed to do, written without the methods of the model. *)
From Coq Require Import String Reals List Bool Arith.
From Verif Require Import PyBase CNum PyExpr Params ParamClasses ParamSpec CommonUtils UtilsSpec World WorldSpec DataSets Task.
Import ListNotations.
Local Open Scope R_scope.
Local Open Scope string_scope.
Local Open Scope list_scope.
Local Open Scope py_scope.

Definition member (n : string) (l : list string) : bool := existsb (String.eqb n) l.

(** ** Set-up *)

Inductive freeing := FreesAll | FreesAllButCouplings | FreesNothingNew.

Definition frees (k : task_class) : freeing :=
  match k with
  | KCS_FullFit | KFF_FullFit | KFF_FullFitOnlyCharged | NCS_FullFit | NFF_FullFit => FreesAll
  | KCS_FixedCoupling | NCS_FixedCoupling => FreesAllButCouplings
  | _ => FreesNothingNew
  end.

(** The flag of a parameter when the fit starts. *)
Definition fixed_in_fit (f : freeing) (c : param_class) (p : Par) : bool :=
  match f with
  | FreesAll => member (par_name p) (must_stay_fixed c)
  | FreesAllButCouplings => orb (member (par_name p) (must_stay_fixed c)) (starts "a_" (par_name p))
  | FreesNothingNew => par_fixed p
  end.

Definition prepared (k : task_class) (c : param_class) (d : data) : data :=
  map (fun p => mkPar (par_name p) (par_value p) (fixed_in_fit (frees k) c p)) d.

(** The function that is fitted. *)
Definition form_factor_task (k : task_class) : bool :=
  match k with
  | KFF_FullFit | KFF_FullFitOnlyCharged | KFF_FixAccording | KFF_FixAccordingOnlyCharged | NFF_FullFit | NFF_FixAccording => true
  | _ => false
  end.

Definition cross_section_closure (t : Task) (s : store) : closure :=
  if tk_numbers t then CrossSectionOf (tk_mass t) (tk_alpha t) (tk_hc_squared t) s else MisplacedOf s.

Definition fitted_closure (t : Task) (d : data) : closure :=
  let s := (r_class (tk_parameters t), d) in
  if form_factor_task (tk_class t) then FormFactorOf s
  else match tk_class t with
       | TwoPolesTask => CrossSectionOf 0 0 0 s
       | _ => cross_section_closure t s
       end.

(** Only some tasks leave out the neutral points. *)
Definition charged_only (k : task_class) : bool :=
  match k with KFF_FullFitOnlyCharged | KFF_FixAccordingOnlyCharged => true | _ => false end.

(** ** The optimiser against a function without side effects *)

Fixpoint optimise (f : list R -> Res (list R)) (x : Fit) : Res (list R * matrix) :=
  match x with
  | FitCall args continue => ys <- f args ;; optimise f (continue ys)
  | FitReturn popt pcov => Ok (popt, pcov)
  | FitRaise e => Err e
  end.

(** A datapoint as a row of floats. *)
Definition array_of (p : datapoint) : Res datapoint :=
  match p with
  | KaonDatapoint t c => if Req_EM_T (Im t) 0 then Ok (Row [RtoC (Re t); RtoC (if c then 1 else 0)]) else Err TypeError
  | NucleonDatapoint t a b =>
      if Req_EM_T (Im t) 0 then Ok (Row [RtoC (Re t); RtoC (if a then 1 else 0); RtoC (if b then 1 else 0)]) else Err TypeError
  | Row xs => xs' <- mapM (fun x => if Req_EM_T (Im x) 0 then Ok (RtoC (Re x)) else Err TypeError) xs ;; Ok (Row xs')
  end.

(** ** Chi-squared *)

(** Sum of squared deviations over errors, per degree of freedom. *)
Fixpoint weighted_sum (ys fits errors : list R) : R :=
  match ys, fits, errors with
  | y :: ys', f :: fits', e :: errors' => ((y - f) / e)^2 + weighted_sum ys' fits' errors'
  | _, _, _ => 0
  end.

Fixpoint plain_sum (ys fits : list R) : R :=
  match ys, fits with
  | y :: ys', f :: fits' => (y - f)^2 + plain_sum ys' fits'
  | _, _ => 0
  end.

Definition reduced_chi_squared (ys fits errors : list R) (parameters : nat) : R :=
  weighted_sum ys fits errors / (INR (length ys) - INR parameters).

(** ** What is handed to the optimiser *)

(** The charged points in their original order; anything but a kaon datapoint has no charge. *)
Fixpoint charged_rows (rows : list (datapoint * R * R)) : Res (list (datapoint * R * R)) :=
  match rows with
  | [] => Ok []
  | (KaonDatapoint t charged, y, e) :: rest =>
      rest' <- charged_rows rest ;; Ok (if charged then (KaonDatapoint t charged, y, e) :: rest' else rest')
  | _ :: _ => Err AttributeError
  end.

Fixpoint zipped (ts : list datapoint) (ys errors : list R) : list (datapoint * R * R) :=
  match ts, ys, errors with
  | t :: ts', y :: ys', e :: errors' => (t, y, e) :: zipped ts' ys' errors'
  | _, _, _ => []
  end.

Definition fit_data (t : Task) : Res (list datapoint * list R * list R) :=
  if charged_only (tk_class t) then
    rows <- charged_rows (zipped (tk_ts_fit t) (tk_ys_fit t) (tk_errors_fit t)) ;;
    match rows with
    | [] => Err ValueError
    | _ => Ok (map (fun x => fst (fst x)) rows, map (fun x => snd (fst x)) rows, map snd rows)
    end
  else Ok (tk_ts_fit t, tk_ys_fit t, tk_errors_fit t).

Definition free_values (d : data) : list R := map par_value (filter (fun p => negb (par_fixed p)) d).

(** The arguments of [curve_fit] for a task whose store is [d] when the fit starts. *)
Definition fit_input (t : Task) (d : data) : Res FitInput :=
  x <- fit_data t ;;
  let '(ts, ys, es) := x in
  bounds <- get_bounds (r_class (tk_parameters t)) (tk_handpicked t) d ;;
  Ok (mkFitInput (tk_name t) (r_class (tk_parameters t)) d ts ys es (free_values d) bounds).

(** What comes out of it, [n] calls having been made before. *)
Definition fit_result (o : Oracle) (n : nat) (t : Task) (d : data) : Res (list R * matrix) :=
  x <- fit_input t d ;;
  optimise (fun args => rows <- mapM array_of (fi_points x) ;; closure_result (fitted_closure t d) rows args) (o_fit o n x).

(** ** Frames *)

(** Nothing but the list objects in [P] and new ones differ between the heaps. *)
Definition frame (P : addr -> Prop) (h h' : list data) : Prop :=
  (length h <= length h')%nat /\ forall b, (b < length h)%nat -> ~ P b -> nth_error h' b = nth_error h b.
