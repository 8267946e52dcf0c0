(** Models of the scripts that run a pipeline several times and keep the best result:
    nucleon_production/fit_cs_iterative_pipeline.py and kaon_production/fit_ff_iterative_pipeline.py.

    Simplifications.  The contents of the data files are arguments.  The constants of
    configuration.ini (l.2-8) and the decimals in the scripts are the exact decimals.  [print] of a dictionary is
    [o_show_best]; the dictionary a script starts with is not a [BestFit] (it has three keys) and is [None].  The
    kaon cross-section scripts import names that do not exist and cannot be started; they are not modelled. *)
From Coq Require Import String Ascii Reals ZArith List Bool.
From Verif Require Import PyBase CNum PyExpr Params ParamClasses CommonUtils World DataSets Task Pipeline.
Import ListNotations.
Local Open Scope string_scope.
Local Open Scope list_scope.
Local Open Scope R_scope.
Local Open Scope m_scope.

#[local] Arguments String.append : simpl never.

(** ** Selection *)

(** fit_cs_iterative_pipeline.py l.109-112, fit_ff_iterative_pipeline.py l.76-79.  The dictionary is not empty, so that
    [result and ...] is decided by the second part. *)
Definition consider (result : BestFit) (s : list BestFit * option BestFit) : list BestFit * option BestFit :=
  match bf_chi_squared result with
  | None => s
  | Some chi_squared =>
      let '(final_results, best_fit) := s in
      (final_results ++ [result],
       match best_fit with
       | None => Some result
       | Some best => match bf_chi_squared best with
                      | None => Some result
                      | Some least => if String.ltb chi_squared least then Some result else best_fit
                      end
       end)
  end.

(** [sorted(final_results, key=lambda fr: fr['chi_squared'])] (l.115, l.82): stable; the key is a text for all members of the list. *)
Definition key_of (r : BestFit) : string := match bf_chi_squared r with Some s => s | None => "" end.
Fixpoint insert_result (x : BestFit) (l : list BestFit) : list BestFit :=
  match l with
  | [] => [x]
  | y :: r => if String.ltb (key_of y) (key_of x) then y :: insert_result x r else x :: l
  end.
Definition sorted_results (l : list BestFit) : list BestFit := fold_right insert_result [] l.

Section Script.
Variables (o : Oracle) (draws : nat -> R).

(** [print(result)]; [EvPrint] has the text of a [print] without the end of the line. *)
Definition print_result (result : BestFit) : W unit :=
  text <~ best_text o result ;; emit (EvPrint text).

(** fit_cs_iterative_pipeline.py l.105-112, fit_ff_iterative_pipeline.py l.73-79: the loop. *)
Fixpoint try_all (f : string -> W BestFit) (names : list string) (s : list BestFit * option BestFit)
  : W (list BestFit * option BestFit) :=
  match names with
  | [] => ret s
  | name :: r =>
      result <~ f name ;;
      print_result result ;;;
      try_all f r (consider result s)
  end.

(** fit_cs_iterative_pipeline.py l.103-116, fit_ff_iterative_pipeline.py l.71-83. *)
Definition best_of_runs (f : string -> W BestFit) (names : list string) : W (list BestFit * option BestFit) :=
  s <~ try_all f names ([], None) ;;
  (match snd s with
   | None => emit (EvPrint "Best fit:  {'chi_squared': None, 'name': None, 'parameters': None}")
   | Some best => text <~ best_text o best ;; emit (EvPrint ("Best fit:  " ++ text))
   end) ;;;
  mfor (firstn 3 (sorted_results (fst s))) print_result ;;;
  ret s.

(** [f'{prefix}{i}' for i in range(n)]. *)
Definition run_names (prefix : string) (n : nat) : list string := map (fun i => (prefix ++ str_nat i)%string) (seq 0 n).

(** ** One run *)

(** What the body of [f] of the scripts has in common: new parameters, perhaps with the resonances fixed, perturbed,
    given to a new iterative pipeline that is run. *)
Definition one_run (c : param_class) (initial : env R) (fix_first : bool) (size size_resonances : R) (handpicked : bool)
  (kind : pipeline_kind) (prepared : Res Prepared) (mass alpha hc_squared : R) (path_to_reports : string)
  (numbers repetitions : list Z) (fixed_rounds : Z) (name : string) : W BestFit :=
  parameters <~ obj_new c initial ;;
  (if fix_first then obj_mutate parameters MFixResonances else ret tt) ;;;
  parameters <~ obj_perturb draws parameters size (Some size_resonances) handpicked ;;
  pipeline <~ IterativePipeline_init o kind name parameters prepared mass alpha hc_squared path_to_reports false handpicked
                numbers repetitions fixed_rounds ;;
  fun w => let '(res, (_, w')) := IterativePipeline_run o (pipeline, w) in (res, w').

(** ** Constants *)

(** configuration.ini l.2-8. *)
Definition config_alpha : R := 72973525693 / 10000000000000.
Definition config_hc_squared : R := 3893793721 / 10000.
Definition config_pion_mass : R := 13957039 / 100000000.
Definition config_proton_mass : R := 938272 / 1000000.
Definition config_proton_moment : R := 2792847351 / 1000000000.
Definition config_neutron_moment : R := - (191304273 / 100000000).
(** l.59-60 and l.44-45 of the scripts. *)
Definition script_t_0_isoscalar : R := (3 * config_pion_mass) * (3 * config_pion_mass).
Definition script_t_0_isovector : R := (2 * config_pion_mass) * (2 * config_pion_mass).

(** ** The nucleon script *)

(** fit_cs_iterative_pipeline.py l.9-52, called at l.73-81. *)
Definition nucleon_initial : env R :=
  [ ("nucleon_mass", config_proton_mass);
    ("magnetic_moment_proton", config_proton_moment);
    ("magnetic_moment_neutron", config_neutron_moment);
    ("t_0_dirac_isoscalar", script_t_0_isoscalar);
    ("t_0_dirac_isovector", script_t_0_isovector);
    ("t_0_pauli_isoscalar", script_t_0_isoscalar);
    ("t_0_pauli_isovector", script_t_0_isovector);
    ("t_in_dirac_isoscalar", 1);
    ("t_in_dirac_isovector", 2);
    ("t_in_pauli_isoscalar", 1);
    ("t_in_pauli_isovector", 2);
    ("a_dirac_omega", 1);
    ("a_pauli_omega", - (2/10));
    ("mass_omega", 78266/100000);
    ("decay_rate_omega", 868/100000);
    ("a_dirac_omega_prime", 2/10);
    ("mass_omega_prime", 1410/1000);
    ("decay_rate_omega_prime", 29/100);
    ("mass_omega_double_prime", 1670/1000);
    ("decay_rate_omega_double_prime", 315/1000);
    ("a_dirac_phi", - (1));
    ("a_pauli_phi", 2/10);
    ("mass_phi", 1019461/1000000);
    ("decay_rate_phi", 4249/1000000);
    ("a_dirac_phi_prime", 2/10);
    ("a_pauli_phi_prime", 2/10);
    ("mass_phi_prime", 1680/1000);
    ("decay_rate_phi_prime", 150/1000);
    ("mass_phi_double_prime", 2159/1000);
    ("decay_rate_phi_double_prime", 137/1000);
    ("a_dirac_rho", 4/10);
    ("mass_rho", 77526/100000);
    ("decay_rate_rho", 1474/10000);
    ("mass_rho_prime", 1465/1000);
    ("decay_rate_rho_prime", 4/10);
    ("mass_rho_double_prime", 172/100);
    ("decay_rate_rho_double_prime", 25/100) ].

Definition nucleon_numbers : list Z := [4; 3; 5; 2; 7; 3; 8; 10; 5]%Z.
Definition nucleon_repetitions : list Z := [5; 20; 30; 20; 40; 10; 20; 20; 10]%Z.
Definition nucleon_reports : string := "/home/lukas/reports/oscillations".
Definition nucleon_names : list string := run_names "run7_" 10.

(** fit_cs_iterative_pipeline.py l.72-101. *)
Definition nucleon_run (ts css errors : list R) (name : string) : W BestFit :=
  one_run PNucleon nucleon_initial true (8/10) (1/10) true NucleonCS
    (prepare_data_nucleon ts css errors [] [] [] [] [] [] [] [] []) config_proton_mass config_alpha config_hc_squared
    nucleon_reports nucleon_numbers nucleon_repetitions 200 name.

(** fit_cs_iterative_pipeline.py l.55-116. *)
Definition nucleon_script (ts css errors : list R) : W (list BestFit * option BestFit) :=
  best_of_runs (nucleon_run ts css errors) nucleon_names.

(** ** The kaon script *)

(** fit_ff_iterative_pipeline.py l.9-37. *)
Definition kaon_initial : env R :=
  [ ("t_0_isoscalar", script_t_0_isoscalar);
    ("t_0_isovector", script_t_0_isovector);
    ("t_in_isoscalar", 1);
    ("t_in_isovector", 1);
    ("a_omega", 0);
    ("mass_omega", 78266/100000);
    ("decay_rate_omega", 868/100000);
    ("a_omega_double_prime", 25/1000);
    ("mass_omega_double_prime", 1670/1000);
    ("decay_rate_omega_double_prime", 315/1000);
    ("a_phi", 4/10);
    ("mass_phi", 1019461/1000000);
    ("decay_rate_phi", 4249/1000000);
    ("a_phi_prime", 25/1000);
    ("mass_phi_prime", 1680/1000);
    ("decay_rate_phi_prime", 150/1000);
    ("mass_phi_double_prime", 2159/1000);
    ("decay_rate_phi_double_prime", 137/1000);
    ("a_rho", 0);
    ("mass_rho", 76388/100000);
    ("decay_rate_rho", 14428/100000);
    ("a_rho_prime", 1/6);
    ("mass_rho_prime", 132635/100000);
    ("decay_rate_rho_prime", 32413/100000);
    ("mass_rho_double_prime", 177054/100000);
    ("decay_rate_rho_double_prime", 26898/100000) ].

Definition kaon_numbers : list Z := [3; 3; 5; 2; 7; 5; 8; 12]%Z.
Definition kaon_repetitions : list Z := [10; 40; 30; 20; 30; 40; 30; 30]%Z.
Definition kaon_reports : string := "/home/lukas/reports/ff".
Definition kaon_names : list string := run_names "iterative7_" 15.

(** fit_ff_iterative_pipeline.py l.51-69. *)
Definition kaon_run (ts ff_values errors : list R) (name : string) : W BestFit :=
  one_run PKaonB kaon_initial false 1 (1/10) false KaonFF (prepare_data_kaon ts ff_values errors [] [] []) 0 0 0
    kaon_reports kaon_numbers kaon_repetitions 10 name.

(** fit_ff_iterative_pipeline.py l.40-83. *)
Definition kaon_script (ts ff_values errors : list R) : W (list BestFit * option BestFit) :=
  best_of_runs (kaon_run ts ff_values errors) kaon_names.

End Script.
