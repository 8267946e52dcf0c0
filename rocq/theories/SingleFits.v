(** Model of the scripts that make one fit: kaon_production/run_single_fit.py l.28-70 and
    nucleon_production/run_single_fit.py l.36-71.

    Simplifications: the contents of the data files are arguments; the constants are those of configuration.ini (C56), an
    argument of [from_ordered_values] keeps its position; [print] of a list of floats is built from [o_str], [print] of the
    report is [o_show_report]. *)
From Coq Require Import String Reals List Bool.
From Verif Require Import PyBase CNum PyExpr Params ParamClasses CommonUtils World DataSets Task Pipeline FitScripts.
Import ListNotations.
Local Open Scope string_scope.
Local Open Scope list_scope.
Local Open Scope R_scope.
Local Open Scope m_scope.

#[local] Arguments String.append : simpl never.

(** [cls.from_ordered_values(list_of_values, *constants)]; the intermediate list is dropped. *)
Definition obj_from_ordered (c : param_class) (vs consts : list R) : W Ref :=
  d <~ lift (from_ordered c vs consts) ;; a <~ alloc d ;; ret (mkRef c a).

(** configuration.ini l.5. *)
Definition config_kaon_mass : R := 493677 / 1000000.

Section Script.
Variable o : Oracle.

(** [str] of a list of floats. *)
Definition list_text (l : list R) : string := ("[" ++ String.concat ", " (map (o_str o) l) ++ "]")%string.

(** [print(task.run().get_ordered_values())], [print(task.report)]: kaon l.69-70, nucleon l.70-71. *)
Definition run_and_print (task : Task) : W unit :=
  fun w =>
    let '(res, (task', w')) := Task_run o (task, w) in
    (parameters <~ lift res ;;
     values <~ obj_read parameters (get_ordered (r_class parameters)) ;;
     emit (EvPrint (list_text values)) ;;;
     text <~ report_text o (tk_report task') ;;
     emit (EvPrint text)) w'.

(** kaon_production/run_single_fit.py l.46. *)
Definition kaon_single_values : list R :=
  [4104732671275326/1000000000000000; 6945876504806479/1000000000000000; 77526/100000; 1465/1000; 172/100; 215/100; 1474/10000; 4/10;
   5220413015662677/10000000000000000; 9262000511188161/10000000000000000; 5579553419980545/10000000000000000;
   - (6608398477649186/100000000000000000); 19847722499260162/100000000000000000; 78266/100000;
   10190415494118024/10000000000000000; 141/100; 167/100; 168/100; 2159/1000; 868/100000; 4249/1000000;
   9228912480513007/10000000000000000; 315/1000; 15/100; 137/1000; 20006026821487782/100000000000000000;
   3317378089249629/10000000000000000; 14633274655460118/100000000000000000; - (17367426366140964/100000000000000000);
   - (10680398179201966/1000000000000000000)].

(** kaon_production/run_single_fit.py l.56-61. *)
Definition kaon_single_released : list string :=
  ["t_in_isoscalar"; "t_in_isovector";
   "decay_rate_omega_prime";
   "mass_phi"; "decay_rate_phi"; "mass_phi_prime"; "decay_rate_phi_prime"; "mass_phi_double_prime"; "decay_rate_phi_double_prime";
   "decay_rate_rho_double_prime"; "decay_rate_rho_triple_prime"].

(** kaon_production/run_single_fit.py l.41-70; the constants at l.44 are passed in the order of [make_parameters] l.8-9. *)
Definition kaon_single (charged_ts charged_css charged_errors neutral_ts neutral_css neutral_errors : list R) : W unit :=
  parameters <~ obj_from_ordered PKaon kaon_single_values [script_t_0_isoscalar; script_t_0_isovector] ;;
  prepared <~ lift (prepare_data_kaon charged_ts charged_css charged_errors neutral_ts neutral_css neutral_errors) ;;
  obj_mutate parameters (MSetValue "decay_rate_phi_prime" (15/100)) ;;;
  obj_mutate parameters MReleaseAll ;;;
  obj_mutate parameters MFixResonances ;;;
  obj_mutate parameters (MRelease kaon_single_released) ;;;
  task <~ Task_init KCS_FixAccording "Fit" parameters (fst (fst prepared)) (snd (fst prepared)) (snd prepared)
            config_kaon_mass config_alpha config_hc_squared true None true false ;;
  run_and_print task.

(** nucleon_production/run_single_fit.py l.51. *)
Definition nucleon_single_values : list R :=
  [1921505175780696/1000000000000000; 15790639230453043/10000000000000000; 19520233934653979/10000000000000000;
   14222095291234824/10000000000000000; 5392755402487763/10000000000000000; 8486878507497419/1000000000000000000;
   19466200713482615/100000000000000000; - (875921846784497/100000000000000000); 15592815589971398/100000000000000000;
   19825369592717146/100000000000000000; - (6864173123697644/1000000000000000000); - (9856559678755873/100000000000000000);
   78266/100000; 1019461/1000000; 141/100; 167/100; 168/100; 2159/1000; 868/100000; 4249/1000000; 29/100; 315/1000; 15/100;
   137/1000; 77526/100000; 1465/1000; 172/100; 1474/10000; 4/10; 25/100].

(** nucleon_production/run_single_fit.py l.48-71; [make_parameters] l.8-17. *)
Definition nucleon_single (ts css errors : list R) : W unit :=
  parameters <~ obj_from_ordered PNucleon nucleon_single_values
    [config_proton_mass; config_proton_moment; config_neutron_moment;
     script_t_0_isoscalar; script_t_0_isovector; script_t_0_isoscalar; script_t_0_isovector] ;;
  prepared <~ lift (prepare_data_nucleon_script ts css errors [] [] []) ;;
  obj_mutate parameters MFixResonances ;;;
  task <~ Task_init NCS_FixAccording "Full Fit" parameters (fst (fst prepared)) (snd (fst prepared)) (snd prepared)
            config_proton_mass config_alpha config_hc_squared true None true false ;;
  run_and_print task.
End Script.
