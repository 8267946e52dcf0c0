(** Models of the data preparation of the pipelines and single-fit scripts, of the deviation table and of the
    splitting of points into series for plotting.

    Simplifications.  [t], values and errors are real numbers.  [sorted(..., key=...)] is insertion sort, which like
    Python's sort is stable.  Rendering by matplotlib is not modelled. *)
From Coq Require Import String Reals List Bool.
From Verif Require Import PyBase CNum CrossSections CommonUtils Scripts ParamClasses World.
Import ListNotations.
Local Open Scope R_scope.
Local Open Scope py_scope.
Local Open Scope list_scope.

(** ** Sorting *)

Fixpoint insert_by {A : Type} (key : A -> R) (x : A) (l : list A) : list A :=
  match l with
  | [] => [x]
  | y :: r => if Rle_dec (key x) (key y) then x :: l else y :: insert_by key x r
  end.
Definition sorted_by {A : Type} (key : A -> R) (l : list A) : list A := fold_right (insert_by key) [] l.

(** [tup[0].t]; the [t] of a prepared point is a float. *)
Definition point_t (p : datapoint) : R :=
  match p with KaonDatapoint t _ => Re t | NucleonDatapoint t _ _ => Re t | Row _ => 0 end.
Definition row_key (row : datapoint * R * R) : R := point_t (fst (fst row)).

Definition Prepared := (list datapoint * list R * list R)%type.

(** [ts, ys, errors = zip( *sorted(zip(ts, ys, errors), key=lambda tup: tup[0].t))]. *)
Definition sort_rows (ts : list datapoint) (ys errors : list R) : Res Prepared :=
  unzip3 (sorted_by row_key (zip3 ts ys errors)).

(** pipeline/KaonCrossSectionPipeline.py l.38-56, pipeline/KaonFormFactorPipeline.py l.34-52,
    kaon_production/run_single_fit.py l.12-25: the same text up to names.  (In the script the caller unpacks the
    result, which raises the same ValueError when there are no rows.) *)
Definition prepare_data_kaon (ts_charged ys_charged errors_charged ts_neutral ys_neutral errors_neutral : list R)
  : Res Prepared :=
  let ts := map (fun t => KaonDatapoint (RtoC t) true) ts_charged in
  let ys := ys_charged in
  let errors := errors_charged in
  let ts := ts ++ map (fun t => KaonDatapoint (RtoC t) false) ts_neutral in
  let ys := ys ++ ys_neutral in
  let errors := errors ++ errors_neutral in
  sort_rows ts ys errors.

(** pipeline/NucleonCrossSectionPipeline.py l.46-72, pipeline/NucleonFormFactorPipeline.py l.41-67. *)
Definition prepare_data_nucleon
  (ts_proton_electric ys_proton_electric errors_proton_electric
   ts_proton_magnetic ys_proton_magnetic errors_proton_magnetic
   ts_neutron_electric ys_neutron_electric errors_neutron_electric
   ts_neutron_magnetic ys_neutron_magnetic errors_neutron_magnetic : list R) : Res Prepared :=
  let ts := map (fun t => NucleonDatapoint (RtoC t) true true) ts_proton_electric in
  let ys := ys_proton_electric in
  let errors := errors_proton_electric in
  let ts := ts ++ map (fun t => NucleonDatapoint (RtoC t) true false) ts_proton_magnetic in
  let ys := ys ++ ys_proton_magnetic in
  let errors := errors ++ errors_proton_magnetic in
  let ts := ts ++ map (fun t => NucleonDatapoint (RtoC t) false true) ts_neutron_electric in
  let ys := ys ++ ys_neutron_electric in
  let errors := errors ++ errors_neutron_electric in
  let ts := ts ++ map (fun t => NucleonDatapoint (RtoC t) false false) ts_neutron_magnetic in
  let ys := ys ++ ys_neutron_magnetic in
  let errors := errors ++ errors_neutron_magnetic in
  sort_rows ts ys errors.

(** nucleon_production/run_single_fit.py l.20-33. *)
Definition prepare_data_nucleon_script
  (ts_proton css_proton errors_proton ts_neutron css_neutron errors_neutron : list R) : Res Prepared :=
  let ts := map (fun t => NucleonDatapoint (RtoC t) true true) ts_proton in
  let cross_sections := css_proton in
  let errors := errors_proton in
  let ts := ts ++ map (fun t => NucleonDatapoint (RtoC t) false true) ts_neutron in
  let cross_sections := cross_sections ++ css_neutron in
  let errors := errors ++ errors_neutron in
  sort_rows ts cross_sections errors.

(** ** Series of a plot *)

(** One plotted point: [t], value, error, fit. *)
Definition plotted := (C * R * R * R)%type.

Definition item (l : list R) (i : nat) : Res R :=
  match nth_error l i with Some x => Ok x | None => Err IndexError end.

(** [for i in range(len(ts))] with the body of plotting/plot_fit.py l.58-69, 108-119, 200-211; [flag] reads the
    attribute that decides the series.  The eight lists are two lists of rows. *)
Fixpoint split_loop (flag : datapoint -> Res bool) (ys errors fit : list R) (i : nat) (ts : list datapoint)
  (yes no : list plotted) : Res (list plotted * list plotted) :=
  match ts with
  | [] => Ok (yes, no)
  | p :: r =>
      b <- flag p ;;
      t <- attr_t p ;;
      y <- item ys i ;;
      e <- item errors i ;;
      f <- item fit i ;;
      if (b : bool) then split_loop flag ys errors fit (S i) r (yes ++ [(t, y, e, f)]) no
      else split_loop flag ys errors fit (S i) r yes (no ++ [(t, y, e, f)])
  end.

Definition attr_is_charged (p : datapoint) : Res bool :=
  match p with KaonDatapoint _ c => Ok c | _ => Err AttributeError end.
Definition attr_electric (p : datapoint) : Res bool :=
  match p with NucleonDatapoint _ _ e => Ok e | _ => Err AttributeError end.

(** plot_fit.py l.46-69 (cross-section) and l.96-119 (form factor). *)
Definition series_neutral_plus_charged (ts : list datapoint) (ys errors fit : list R)
  : Res (list plotted * list plotted) := split_loop attr_is_charged ys errors fit 0 ts [] [].
(** plot_fit.py l.188-211. *)
Definition series_electric_plus_magnetic (ts : list datapoint) (ys errors fit : list R)
  : Res (list plotted * list plotted) := split_loop attr_electric ys errors fit 0 ts [] [].

(** ** kaon_production/calculate_deviations.py l.9-26 *)

Fixpoint zip4 {A B D E : Type} (a : list A) (b : list B) (c : list D) (d : list E) : list (A * B * D * E) :=
  match a, b, c, d with
  | x :: a', y :: b', z :: c', u :: d' => (x, y, z, u) :: zip4 a' b' c' d'
  | _, _, _, _ => []
  end.

Definition deviation_row (row : R * R * R * R) : Res (R * R * R * R * R) :=
  let '(t, error, cs, fit_val) := row in
  q <- rdiv (Rabs (cs - fit_val)) error ;;
  Ok (t, error, cs, fit_val, q).

Local Open Scope m_scope.
Definition calculate_deviations_from_fit (parameters : Ref) (ts cross_section_values errors : list R)
  (charged_kaons : bool) (kaon_mass alpha hc_squared : R) : W (list (R * R * R * R * R)) :=
  let data := map (fun t => KaonDatapoint (RtoC t) charged_kaons) ts in
  obj_mutate parameters MFixAll ;;;
  f <~ make_partial_cross_section_for_parameters kaon_mass alpha hc_squared parameters ;;
  fit <~ call_partial f data [] ;;
  lift (mapM deviation_row (zip4 ts errors cross_section_values fit)).
