(** Model of kaon_production/plot_fit.py: the charged form factor of one fit, drawn over its data, and a fit of the
    oscillations that are left over.

    Simplifications as in SingleFits.v: the contents of charged_ff_2.csv are arguments and the constants are those of
    configuration.ini (the two thresholds of l.31-32 are not used by the script).  Drawing by matplotlib and opening
    windows are not modelled: the first picture is what is handed over for drawing. *)
From Coq Require Import String Reals List Bool.
From Verif Require Import PyBase CNum PyExpr Params ParamClasses CommonUtils World DataSets Task Pipeline FitScripts SingleFits.
Import ListNotations.
Local Open Scope string_scope.
Local Open Scope list_scope.
Local Open Scope R_scope.
Local Open Scope m_scope.

#[local] Arguments String.append : simpl never.

(** l.44-71. *)
Definition plot_fit_listed : list Par :=
  [mkPar "t_0_isoscalar" (17531904388276887/100000000000000000) true;
   mkPar "t_0_isovector" (7791957505900839/100000000000000000) true;
   mkPar "t_in_isoscalar" (32291595069331067/10000000000000000) false;
   mkPar "t_in_isovector" (5835126419012053/10000000000000000) false;
   mkPar "a_omega" (32729801061391034/100000000000000000) false;
   mkPar "mass_omega" (78266/100000) true;
   mkPar "decay_rate_omega" (868/100000) true;
   mkPar "a_omega_double_prime" ((-1322560747876571)/10000000000000000) false;
   mkPar "mass_omega_double_prime" (167/100) true;
   mkPar "decay_rate_omega_double_prime" (315/1000) true;
   mkPar "a_phi" (33178701236457975/100000000000000000) false;
   mkPar "mass_phi" (10190536833008472/10000000000000000) false;
   mkPar "decay_rate_phi" (4229702507790191/1000000000000000000) false;
   mkPar "a_phi_prime" (8303027600714324/100000000000000000) false;
   mkPar "mass_phi_prime" (30321618703565654/10000000000000000) false;
   mkPar "decay_rate_phi_prime" (17409626508527738/10000000000000000) false;
   mkPar "mass_phi_double_prime" (1984329537423646/1000000000000000) false;
   mkPar "decay_rate_phi_double_prime" (6816716770166859/10000000000000000) false;
   mkPar "a_rho" (5456549089807899/10000000000000000) false;
   mkPar "mass_rho" (76388/100000) true;
   mkPar "decay_rate_rho" (14428/100000) true;
   mkPar "a_rho_prime" ((-3127769956987407)/100000000000000000) false;
   mkPar "mass_rho_prime" (132635/100000) true;
   mkPar "decay_rate_rho_prime" (32413/100000) true;
   mkPar "mass_rho_double_prime" (177054/100000) true;
   mkPar "decay_rate_rho_double_prime" (26898/100000) true].

(** The panels of a picture with their titles and points. *)
Definition panels := list (string * list plotted).
Definition panel (title : string) (points : list plotted) : panels :=
  match points with [] => [] | _ => [(title, points)] end.

(** plotting/plot_fit.py l.96-157 [plot_ff_fit_neutral_plus_charged] after [f] has been called, up to drawing. *)
Definition ff_panels (title : string) (ts : list datapoint) (ffs errors fit_ffs : list R) : Res panels :=
  bind (series_neutral_plus_charged ts ffs errors fit_ffs) (fun series =>
  bind (needs_series series) (fun _ =>
  Ok (panel (title ++ ": Charged")%string (fst series) ++ panel (title ++ ": Neutral")%string (snd series)))).

Section Script.
Variable o : Oracle.

(** l.34-81: the parameters, the data and the first picture.  [prepare_data] l.10-25 is the text of
    [DataSets.prepare_data_kaon]. *)
Definition plot_fit_picture (charged_ts charged_values charged_errors : list R)
  : W (Ref * (list datapoint * list R * list R) * panels) :=
  prepared <~ lift (prepare_data_kaon charged_ts charged_values charged_errors [] [] []) ;;
  listed <~ alloc plot_fit_listed ;;
  parameters <~ obj_from_list PKaonB listed ;;
  obj_mutate parameters MFixAll ;;;
  f <~ make_partial_form_factor_for_parameters parameters ;;
  g <~ make_partial_cross_section_for_parameters config_kaon_mass config_alpha config_hc_squared parameters ;;
  x <~ call_partial f [KaonDatapoint (RtoC 8) true] [] ;;
  emit (EvPrint (list_text o x)) ;;;
  y <~ call_partial g [KaonDatapoint (RtoC 8) true] [] ;;
  emit (EvPrint (list_text o y)) ;;;
  fit_ffs <~ call_partial f (fst (fst prepared)) [] ;;
  picture <~ lift (ff_panels "plot_fit" (fst (fst prepared)) (snd (fst prepared)) (snd prepared) fit_ffs) ;;
  ret (parameters, prepared, picture).

(** l.28-88. *)
Definition plot_fit_script (charged_ts charged_values charged_errors : list R) : W Ref :=
  x <~ plot_fit_picture charged_ts charged_values charged_errors ;;
  let '(parameters, (ts, ffs, errs), _) := x in
  task <~ Task_init ResidualTask "ResidualOscillationsTask" parameters ts ffs errs
            config_kaon_mass config_alpha config_hc_squared true (Some "/home/lukas/reports/ff") true true ;;
  fun w => let '(res, (_, w')) := Task_run o (task, w) in (res, w').
End Script.
