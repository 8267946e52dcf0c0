(** Model of kaon_production/plot_single_component.py: the cross-section of one resonance drawn over the data.

    Simplifications.  The form factor object has no attribute [charged_variant] of its own; the assignments of l.30 and
    l.33 create one that nothing reads, so only the evaluation of their right-hand sides is kept.  The constants and the
    contents of the two data files are arguments (ConfigFiles.v and DataFiles.v model how files are read).  Drawing by
    matplotlib is not modelled: the script ends with what it hands over for drawing. *)
From Coq Require Import String Reals List Bool.
From Verif Require Import PyBase CNum UAModels CrossSections CommonUtils Scripts DataSets.
Import ListNotations.
Local Open Scope R_scope.
Local Open Scope py_scope.
Local Open Scope list_scope.

(** plot_single_component.py l.26-35, the closure [f] over its two objects. *)
Fixpoint single_cross_sections (cross_section_model : ScalarCS) (form_factor : SingleModel) (ts : list datapoint)
  : Res (list C) :=
  match ts with
  | [] => Ok []
  | p :: r =>
      tc <- match p with
            | KaonDatapoint t c => Ok (t, c)
            | _ => c <- index p 1 ;; t <- index p 0 ;; Ok (t, truth c)
            end ;;
      x <- ScalarCS_call cross_section_model (SingleComponentModel_call form_factor) (fst tc) ;;
      xs <- single_cross_sections cross_section_model form_factor r ;;
      Ok (x :: xs)
  end.

(** plot_single_component.py l.10-36 [make_function_cross_section]. *)
Definition make_function_cross_section (k_meson_mass alpha hc_squared a mass decay_rate t_0 t_in : R)
  : Res (list datapoint -> Res (list C)) :=
  ff_model <- SingleComponentModel_init t_0 t_in a mass decay_rate ;;
  Ok (single_cross_sections (ScalarCS_init k_meson_mass alpha hc_squared) ff_model).

(** One point handed over for drawing: [t], value, error and the complex number of [f]. *)
Definition drawn := (C * R * R * C)%type.

(** plotting/plot_fit.py l.58-69, with the complex values of this script ([DataSets.split_loop] has real ones). *)
Fixpoint split_complex (css errors : list R) (fit : list C) (i : nat) (ts : list datapoint) (charged neutral : list drawn)
  : Res (list drawn * list drawn) :=
  match ts with
  | [] => Ok (charged, neutral)
  | p :: r =>
      b <- attr_is_charged p ;;
      t <- attr_t p ;;
      y <- item css i ;;
      e <- item errors i ;;
      f <- match nth_error fit i with Some x => Ok x | None => Err IndexError end ;;
      if (b : bool) then split_complex css errors fit (S i) r (charged ++ [(t, y, e, f)]) neutral
      else split_complex css errors fit (S i) r charged (neutral ++ [(t, y, e, f)])
  end.

(** plotting/plot_fit.py l.46-92 up to drawing: the two titles with their points. *)
Definition figure := list (string * list drawn).
Definition draw_single (ts : list datapoint) (css errors : list R) (f : list datapoint -> Res (list C)) (title : string)
  : Res figure :=
  fit_css <- f ts ;;
  series <- split_complex css errors fit_css 0 ts [] [] ;;
  Ok [((title ++ ": Charged")%string, fst series); ((title ++ ": Neutral")%string, snd series)].

(** plot_single_component.py l.39-54 [prepare_data] is the text of [DataSets.prepare_data_kaon].
    plot_single_component.py l.56-78, after reading the configuration and the two files. *)
Definition single_component_script (kaon_mass alpha hc_squared : R)
  (charged_ts charged_cross_sections_values charged_errors neutral_ts neutral_cross_sections_values neutral_errors : list R)
  : Res figure :=
  prepared <- prepare_data_kaon charged_ts charged_cross_sections_values charged_errors
                neutral_ts neutral_cross_sections_values neutral_errors ;;
  let '(ts, css, errs) := prepared in
  f <- make_function_cross_section kaon_mass alpha hc_squared 1 (78266/100000) (868/100000)
         (17531904388276887/100000000000000000) (10555688365879876/10000000000000000) ;;
  draw_single ts css errs f "phi".
