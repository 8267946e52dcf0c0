(** The numbers of the repository's unit tests (tests/), and what each test asserts of the model.

    The tables below are the literals of the tests, read as exact rational numbers.  A test holds of the model when
    the modelled constructor and call return normally and the value is close to the expected one in the sense of
    [cmath.isclose] with the tolerances of the test.  The proofs are in PropsEnclose.v. *)
From Coq Require Import String Reals ZArith QArith Qreals List Bool.
From Verif Require Import PyBase CNum UAMaps UAComponents PyExpr UAModels Nucleon OtherModels CrossSections CommonUtils.
Import ListNotations.
Local Open Scope string_scope.

Definition CQ : Type := (Q * Q)%type.
Definition QtoC (z : CQ) : C := mkC (Q2R (fst z)) (Q2R (snd z)).
Definition env_of (kw : list (string * Q)) : env R := map (fun nv => (fst nv, Q2R (snd nv))) kw.

(** [cmath.isclose(a, b, abs_tol=abs_tol)] with the default relative tolerance 1e-9. *)
Definition isclose (abs_tol : R) (a b : C) : Prop :=
  (Cabs (a - b)%C <= Rmax (1 / 10^9 * Rmax (Cabs a) (Cabs b)) abs_tol)%R.
(** The result is a value close to the expected one. *)
Definition gives (abs_tol : R) (r : Res C) (expected : CQ) : Prop :=
  exists v, r = Ok v /\ isclose abs_tol v (QtoC expected).
Definition tol : R := (1 / 10^15)%R.

(** Kaon models: construction with [charged_variant=True], then for each case the assignment of the flag and a
    call (argument, flag, expected value). *)
Definition kaon_case : Type := (CQ * bool * CQ)%type.
Definition kaon_test (cls : KaonClass) (kw : list (string * Q)) (cases : list kaon_case) : Prop :=
  exists m, Kaon_init cls true (env_of kw) = Ok m /\
    Forall (fun c => gives tol (Kaon_call (Kaon_set_charged m (snd (fst c))) (QtoC (fst (fst c)))) (snd c)) cases.

(** Nucleon models: the calls of a test in order, with the dictionary of mass terms left by the calls before.
    [Value t proton electric expected]; [Ratio t1 t2 proton electric centre delta]: the quotient of the moduli at
    [t1] and [t2] lies within [delta] of [centre]. *)
Inductive nucleon_item : Type :=
| Value (t : CQ) (proton electric : bool) (expected : CQ)
| Ratio (t1 t2 : CQ) (proton electric : bool) (centre delta : Q).
Fixpoint nucleon_items (m : NucleonModel) (c : Cache) (l : list nucleon_item) : Prop :=
  match l with
  | [] => True
  | Value t p e expected :: l' =>
      let '(r, c') := Nucleon_call (Nucleon_set_flags m p e) (QtoC t) c in
      gives tol r expected /\ nucleon_items m c' l'
  | Ratio t1 t2 p e centre delta :: l' =>
      let '(r1, c1) := Nucleon_call (Nucleon_set_flags m p e) (QtoC t1) c in
      let '(r2, c2) := Nucleon_call (Nucleon_set_flags m p e) (QtoC t2) c1 in
      (exists v1 v2, r1 = Ok v1 /\ r2 = Ok v2 /\ Cabs v2 <> 0%R /\
        (Rabs (Q2R centre - Cabs v1 / Cabs v2) <= Q2R delta)%R) /\ nucleon_items m c2 l'
  end.
Definition nucleon_test (cls : NucleonClass) (kw : list (string * Q)) (l : list nucleon_item) : Prop :=
  exists m c, Nucleon_init cls true true (env_of kw) = Ok (m, c) /\ nucleon_items m c l.

(** Cross sections: argument and expected value.  The form factor is the function [lambda t: t] or a model. *)
Definition scalar_test (mass alpha hc_squared : Q) (f : C -> Res C) (cases : list (CQ * CQ)) : Prop :=
  Forall (fun c => gives tol
    (ScalarCS_call (ScalarCS_init (Q2R mass) (Q2R alpha) (Q2R hc_squared)) f (QtoC (fst c))) (snd c)) cases.
(** Every call leaves the form factor object behind for the next. *)
Fixpoint pair_items (F : Type) (set_electric : bool -> F -> F) (call : F -> C -> Res C * F) (s : NucleonCS) (f : F)
  (l : list (CQ * CQ)) : Prop :=
  match l with
  | [] => True
  | (t, expected) :: l' =>
      let '(r, f') := NucleonCS_call F set_electric call s f (QtoC t) in
      gives tol r expected /\ pair_items F set_electric call s f' l'
  end.
(** [lambda t: t] as form factor object: its attribute [electric] is written and never read. *)
Definition identity_call (f : bool) (t : C) : Res C * bool := (Ok t, f).

Definition function_test (f : C -> Res C) (cases : list (CQ * CQ)) : Prop :=
  Forall (fun c => gives 0 (f (QtoC (fst c))) (snd c)) cases.

Local Open Scope Q_scope.
(** tests/test_KaonUAModel.py l.10-44. *)
Definition kw_Kaon_1 : list (string * Q) := [
  ("t_0_isoscalar", 1.0); ("t_0_isovector", 0.1); ("t_in_isoscalar", 4.5); ("t_in_isovector", 14.7);
  ("a_omega", 0.21); ("a_omega_prime", 0.09); ("a_omega_double_prime", 0.12); ("a_phi", 0.15);
  ("a_phi_prime", 0.07); ("a_rho", 0.34); ("a_rho_prime", 0.03); ("a_rho_double_prime", 0.09);
  ("mass_omega", 1.4); ("decay_rate_omega", 0.001); ("mass_omega_prime", 1.5); ("decay_rate_omega_prime", 0.001);
  ("mass_omega_double_prime", 1.6); ("decay_rate_omega_double_prime", 0.001); ("mass_phi", 2.0);
  ("decay_rate_phi", 0.01); ("mass_phi_prime", 2.2); ("decay_rate_phi_prime", 0.01);
  ("mass_phi_double_prime", 2.4); ("decay_rate_phi_double_prime", 0.01); ("mass_rho", 3.1);
  ("decay_rate_rho", 0.1); ("mass_rho_prime", 3.2); ("decay_rate_rho_prime", 0.1);
  ("mass_rho_double_prime", 3.3); ("decay_rate_rho_double_prime", 0.1); ("mass_rho_triple_prime", 3.4);
  ("decay_rate_rho_triple_prime", 0.1)].

(** tests/test_KaonUAModel.py l.45-76. *)
Definition cases_Kaon_1 : list kaon_case := [
  ((0, 0), true, (1, 0));
  ((0, 0), false, (0, 0));
  ((1.7, 0), true, (3.073269926471771, -0.02695425107525793));
  ((1.7, 0), false, (1.8755035816025236, 0.0038004114642766432));
  ((0.4, 1.2), true, (0.9475875980415935, 0.33143141222536704));
  ((162.42, -0.647), false, (0.027789176727690115, 0.00011725561280149965));
  ((84.1, -9124.1), true, (-5.691108792051046e-06, -0.0006893509534412159));
  ((0, 62.4), false, (-0.012972244493240833, -0.0646782195188189))].

(** tests/test_KaonUAModel.py l.81-115. *)
Definition kw_Kaon_2 : list (string * Q) := [
  ("t_0_isoscalar", 1753190438827689 # 10000000000000000); ("t_0_isovector", 194798937647521 # 2500000000000000);
  ("t_in_isoscalar", 1.35); ("t_in_isovector", 0.59); ("a_omega", 0.004); ("a_omega_prime", 0.27);
  ("a_omega_double_prime", 0.0); ("a_phi", -0.01); ("a_phi_prime", 0.0); ("a_rho", 0.24); ("a_rho_prime", 0.1);
  ("a_rho_double_prime", -0.1); ("mass_omega", 0.78266); ("decay_rate_omega", 0.00868);
  ("mass_omega_prime", 1.410); ("decay_rate_omega_prime", 0.29); ("mass_omega_double_prime", 1.670);
  ("decay_rate_omega_double_prime", 0.315); ("mass_phi", 1.019461); ("decay_rate_phi", 0.004249);
  ("mass_phi_prime", 1.680); ("decay_rate_phi_prime", 0.150); ("mass_phi_double_prime", 2.159);
  ("decay_rate_phi_double_prime", 0.137); ("mass_rho", 0.77525); ("decay_rate_rho", 0.1474);
  ("mass_rho_prime", 1.465); ("decay_rate_rho_prime", 0.4); ("mass_rho_double_prime", 1.570);
  ("decay_rate_rho_double_prime", 0.144); ("mass_rho_triple_prime", 1.720);
  ("decay_rate_rho_triple_prime", 0.25)].

(** tests/test_KaonUAModel.py l.116-129. *)
Definition cases_Kaon_2 : list kaon_case := [
  ((1.1230, 0), true, (1.2281718258244398, -0.1663965540096885));
  ((1.1230, 0.73200), true, (1.0245709713591054, 0.5280438561870465));
  ((0, 0.73200), true, (0.7804119622898475, 0.3011765340455964));
  ((0, -0.73200), true, (0.7804119622898478, -0.3011765340455964));
  ((1.1230, -0.73200), true, (1.0245709713591045, -0.5280438561870471))].

(** tests/test_KaonUAModelB.py l.10-38. *)
Definition kw_KaonB_1 : list (string * Q) := [
  ("t_0_isoscalar", 1.0); ("t_0_isovector", 0.1); ("t_in_isoscalar", 4.5); ("t_in_isovector", 14.7);
  ("a_omega", 0.21); ("a_omega_double_prime", 0.12); ("a_phi", 0.15); ("a_phi_prime", 0.07); ("a_rho", 0.34);
  ("a_rho_prime", 0.03); ("mass_omega", 1.4); ("decay_rate_omega", 0.001); ("mass_omega_double_prime", 1.6);
  ("decay_rate_omega_double_prime", 0.001); ("mass_phi", 2.0); ("decay_rate_phi", 0.01); ("mass_phi_prime", 2.2);
  ("decay_rate_phi_prime", 0.01); ("mass_phi_double_prime", 2.4); ("decay_rate_phi_double_prime", 0.01);
  ("mass_rho", 3.1); ("decay_rate_rho", 0.1); ("mass_rho_prime", 3.2); ("decay_rate_rho_prime", 0.1);
  ("mass_rho_double_prime", 3.3); ("decay_rate_rho_double_prime", 0.1)].

(** tests/test_KaonUAModelB.py l.39-70. *)
Definition cases_KaonB_1 : list kaon_case := [
  ((0, 0), true, (1, 0));
  ((0, 0), false, (0, 0));
  ((1.7, 0), true, (2.833713686104681, -0.026098804207375276));
  ((1.7, 0), false, (1.6349283545517954, 0.004620037297262777));
  ((0.4, 1.2), true, (0.9626535493160868, 0.3024515794728611));
  ((162.42, -0.647), false, (0.0255536766560733, 0.00011344168647315351));
  ((84.1, -9124.1), true, (-5.962543662602656e-06, -0.0007201950671674711));
  ((0, 62.4), false, (-0.012181619593386869, -0.05928607568642251))].

(** tests/test_KaonUAModelB.py l.73-101. *)
Definition kw_KaonB_2 : list (string * Q) := [
  ("t_0_isoscalar", 0.17531851630709158); ("t_0_isovector", 0.07791934058092959); ("t_in_isoscalar", 4.5);
  ("t_in_isovector", 14.7); ("a_omega", 0.21); ("a_omega_double_prime", 0.12); ("a_phi", 0.15);
  ("a_phi_prime", 0.07); ("a_rho", 0.34); ("a_rho_prime", 0.03); ("mass_omega", 1.4);
  ("decay_rate_omega", 0.001); ("mass_omega_double_prime", 1.6); ("decay_rate_omega_double_prime", 0.001);
  ("mass_phi", 2.0); ("decay_rate_phi", 0.01); ("mass_phi_prime", 2.2); ("decay_rate_phi_prime", 0.01);
  ("mass_phi_double_prime", 2.4); ("decay_rate_phi_double_prime", 0.01); ("mass_rho", 3.1);
  ("decay_rate_rho", 0.1); ("mass_rho_prime", 3.2); ("decay_rate_rho_prime", 0.1);
  ("mass_rho_double_prime", 3.3); ("decay_rate_rho_double_prime", 0.1)].

(** tests/test_KaonUAModelB.py l.102-133. *)
Definition cases_KaonB_2 : list kaon_case := [
  ((0, 0), true, (1, 0));
  ((0, 0), false, (0, 0));
  ((1.7, 0), true, (2.8367557064873146, -0.027743617685714858));
  ((1.7, 0), false, (1.6371740678666105, 0.0031724417146562368));
  ((0.4, 1.2), true, (0.9635319901700389, 0.302257376647137));
  ((162.42, -0.647), false, (0.025559278162859647, 0.00011346805059342094));
  ((84.1, -9124.1), true, (-5.967699168267497e-06, -0.0007208147331877005));
  ((0, 62.4), false, (-0.012187220864615354, -0.05929700651742506))].

(** tests/test_KaonUAModelSimplified.py l.10-38. *)
Definition kw_KaonSimplified_1 : list (string * Q) := [
  ("t_0_isoscalar", 1.0); ("t_0_isovector", 0.1); ("t_in_isoscalar", 4.5); ("t_in_isovector", 14.7);
  ("a_omega_prime", 0.21); ("a_omega_double_prime", 0.12); ("a_phi", 0.15); ("a_phi_prime", 0.07);
  ("a_rho_prime", 0.34); ("a_rho_double_prime", 0.09); ("mass_omega_prime", 1.5);
  ("decay_rate_omega_prime", 0.001); ("mass_omega_double_prime", 1.6); ("decay_rate_omega_double_prime", 0.001);
  ("mass_phi", 2.0); ("decay_rate_phi", 0.01); ("mass_phi_prime", 2.2); ("decay_rate_phi_prime", 0.01);
  ("mass_phi_double_prime", 2.4); ("decay_rate_phi_double_prime", 0.01); ("mass_rho_prime", 3.2);
  ("decay_rate_rho_prime", 0.1); ("mass_rho_double_prime", 3.3); ("decay_rate_rho_double_prime", 0.1);
  ("mass_rho_triple_prime", 3.4); ("decay_rate_rho_triple_prime", 0.1)].

(** tests/test_KaonUAModelSimplified.py l.39-70. *)
Definition cases_KaonSimplified_1 : list kaon_case := [
  ((0, 0), true, (1, 0));
  ((0, 0), false, (0, 0));
  ((1.7, 0), true, (2.1039108007279586, -0.020192045540117224));
  ((1.7, 0), false, (0.9184510967906709, 0.01007442756299409));
  ((0.4, 1.2), true, (0.9763103569027347, 0.2877442282086382));
  ((162.42, -0.647), false, (0.02733388745288759, 0.00012166023857243473));
  ((84.1, -9124.1), true, (-6.256333956869893e-06, -0.0007606879308416056));
  ((0, 62.4), false, (-0.013664137093264453, -0.06287169656749025))].

(** tests/test_KaonUAModelSimplified.py l.75-103. *)
Definition kw_KaonSimplified_2 : list (string * Q) := [
  ("t_0_isoscalar", 1753190438827689 # 10000000000000000); ("t_0_isovector", 194798937647521 # 2500000000000000);
  ("t_in_isoscalar", 1.35); ("t_in_isovector", 0.59); ("a_omega_prime", 0.27); ("a_omega_double_prime", 0.0);
  ("a_phi", -0.01); ("a_phi_prime", 0.0); ("a_rho_prime", 0.1); ("a_rho_double_prime", -0.1);
  ("mass_omega_prime", 1.410); ("decay_rate_omega_prime", 0.29); ("mass_omega_double_prime", 1.670);
  ("decay_rate_omega_double_prime", 0.315); ("mass_phi", 1.019461); ("decay_rate_phi", 0.004249);
  ("mass_phi_prime", 1.680); ("decay_rate_phi_prime", 0.150); ("mass_phi_double_prime", 2.159);
  ("decay_rate_phi_double_prime", 0.137); ("mass_rho_prime", 1.465); ("decay_rate_rho_prime", 0.4);
  ("mass_rho_double_prime", 1.570); ("decay_rate_rho_double_prime", 0.144); ("mass_rho_triple_prime", 1.720);
  ("decay_rate_rho_triple_prime", 0.25)].

(** tests/test_KaonUAModelSimplified.py l.104-117. *)
Definition cases_KaonSimplified_2 : list kaon_case := [
  ((1.1230, 0), true, (1.7105341828412286, -0.10792678569739274));
  ((1.1230, 0.73200), true, (1.4880965701557989, 0.5712687887800826));
  ((0, 0.73200), true, (0.9481530478048945, 0.23311239372786224));
  ((0, -0.73200), true, (0.9481530478048947, -0.23311239372786227));
  ((1.1230, -0.73200), true, (1.4880965701557973, -0.5712687887800828))].

(** tests/test_NucleonUAModel.py l.10-50. *)
Definition kw_Nucleon_1 : list (string * Q) := [
  ("nucleon_mass", 1.0); ("magnetic_moment_proton", 0.3); ("magnetic_moment_neutron", 1.7);
  ("t_0_dirac_isoscalar", 1.0); ("t_0_dirac_isovector", 0.1); ("t_in_dirac_isoscalar", 4.5);
  ("t_in_dirac_isovector", 14.7); ("t_0_pauli_isoscalar", 1.1); ("t_0_pauli_isovector", 0.2);
  ("t_in_pauli_isoscalar", 3.9); ("t_in_pauli_isovector", 14.5); ("a_dirac_omega", 0.21);
  ("a_dirac_omega_prime", 0.09); ("a_dirac_phi", 0.15); ("a_dirac_phi_prime", 0.07); ("a_dirac_rho", 0.34);
  ("a_pauli_omega", -0.17); ("a_pauli_phi", -0.42); ("a_pauli_phi_prime", 0.09); ("mass_omega", 1.4);
  ("decay_rate_omega", 0.001); ("mass_omega_prime", 1.5); ("decay_rate_omega_prime", 0.001);
  ("mass_omega_double_prime", 1.6); ("decay_rate_omega_double_prime", 0.001); ("mass_phi", 2.0);
  ("decay_rate_phi", 0.01); ("mass_phi_prime", 2.2); ("decay_rate_phi_prime", 0.01);
  ("mass_phi_double_prime", 2.4); ("decay_rate_phi_double_prime", 0.01); ("mass_rho", 3.1);
  ("decay_rate_rho", 0.1); ("mass_rho_prime", 3.2); ("decay_rate_rho_prime", 0.1);
  ("mass_rho_double_prime", 3.3); ("decay_rate_rho_double_prime", 0.1)].

(** tests/test_NucleonUAModel.py l.51-128. *)
Definition cases_Nucleon_1 : list nucleon_item := [
  Value (0, 0) true true (1.0, 0);
  Value (0, 0) false true (0.0, 0);
  Value (0, 0) true false (0.3, 0);
  Value (0, 0) false false (1.7, 0);
  Ratio (10000, 0) (20000, 0) false false 4.0 0.1;
  Ratio (10000, 0) (20000, 0) true false 4.0 0.1;
  Ratio (10000, 0) (20000, 0) false true 4.0 0.1;
  Ratio (10000, 0) (20000, 0) true true 4.0 0.1;
  Value (1.7, 0) true false (9.713204625458062, 0.07074134789291299);
  Value (1.7, 0) false true (6.547797226498032, -0.056748829988171726);
  Value (0.4, 1.2) true true (0.7766084566142761, 0.1483752192353497);
  Value (162.42, -0.647) false false (-0.0027582929607558046, -2.5977732227335408e-05);
  Value (84.1, -9124.1) true true (-5.134294004614157e-06, 7.80247424899727e-08);
  Value (0, 62.4) false false (0.009663648292739201, -0.009923990941913124)].

(** tests/test_NucleonUAModel.py l.131-171. *)
Definition kw_Nucleon_2 : list (string * Q) := [
  ("nucleon_mass", 0.938272); ("magnetic_moment_proton", 2.792847351); ("magnetic_moment_neutron", -1.91304273);
  ("t_0_dirac_isoscalar", 0.17531904388276887); ("t_0_dirac_isovector", 0.07791957505900839);
  ("t_in_dirac_isoscalar", 0.9001581776629138); ("t_in_dirac_isovector", 2.713739494786232);
  ("t_0_pauli_isoscalar", 0.17531904388276887); ("t_0_pauli_isovector", 0.07791957505900839);
  ("t_in_pauli_isoscalar", 1.0512202460515163); ("t_in_pauli_isovector", 4.176812892690669);
  ("a_dirac_omega", 1.3200505056850964); ("a_dirac_omega_prime", 0.11215926509622014);
  ("a_dirac_phi", -1.013845791442124); ("a_dirac_phi_prime", 0.26717864421535276);
  ("a_dirac_rho", 0.06479104707666819); ("a_pauli_omega", -0.32774864723704805);
  ("a_pauli_phi", 0.07195092152400877); ("a_pauli_phi_prime", 0.349116996120233); ("mass_omega", 0.78266);
  ("decay_rate_omega", 0.00868); ("mass_omega_prime", 1.41); ("decay_rate_omega_prime", 0.29);
  ("mass_omega_double_prime", 1.67); ("decay_rate_omega_double_prime", 0.315); ("mass_phi", 1.019461);
  ("decay_rate_phi", 0.004249); ("mass_phi_prime", 1.68); ("decay_rate_phi_prime", 0.15);
  ("mass_phi_double_prime", 2.159); ("decay_rate_phi_double_prime", 0.137); ("mass_rho", 0.77526);
  ("decay_rate_rho", 0.1474); ("mass_rho_prime", 1.465); ("decay_rate_rho_prime", 0.4);
  ("mass_rho_double_prime", 1.72); ("decay_rate_rho_double_prime", 0.25)].

(** tests/test_NucleonUAModel.py l.172-249. *)
Definition cases_Nucleon_2 : list nucleon_item := [
  Value (0, 0) true true (1.0, 0);
  Value (0, 0) false true (0.0, 0);
  Value (0, 0) true false (2.792847351, 0);
  Value (0, 0) false false (-1.91304273, 0);
  Ratio (10000, 0) (20000, 0) false false 4.0 0.1;
  Ratio (10000, 0) (20000, 0) true false 4.0 0.1;
  Ratio (10000, 0) (20000, 0) false true 4.0 0.1;
  Ratio (10000, 0) (20000, 0) true true 4.0 0.1;
  Value (1.7, 0) true false (2.5531762636133686, 0.14269472551374163);
  Value (1.7, 0) false true (2.668848634929326, -1.181788739065921);
  Value (0.4, 1.2) true true (-0.20150599617334652, 0.47887099129431737);
  Value (162.42, -0.647) false false (-7.783031593190773e-05, 4.741099873637525e-06);
  Value (84.1, -9124.1) true true (-7.86703523408559e-09, 3.207904724389229e-10);
  Value (0, 62.4) false false (0.0005750756865537021, 3.9141961722643786e-05)].

(** tests/test_NucleonUAModelOld.py l.10-50. *)
Definition kw_NucleonOld_1 : list (string * Q) := [
  ("nucleon_mass", 1.0); ("magnetic_moment_proton", 0.3); ("magnetic_moment_neutron", 1.7);
  ("t_0_dirac_isoscalar", 1.0); ("t_0_dirac_isovector", 0.1); ("t_in_dirac_isoscalar", 4.5);
  ("t_in_dirac_isovector", 14.7); ("t_0_pauli_isoscalar", 1.1); ("t_0_pauli_isovector", 0.2);
  ("t_in_pauli_isoscalar", 3.9); ("t_in_pauli_isovector", 14.5); ("a_dirac_omega", 0.21);
  ("a_dirac_omega_prime", 0.09); ("a_dirac_phi", 0.15); ("a_dirac_phi_prime", 0.07); ("a_dirac_rho", 0.34);
  ("a_pauli_omega", -0.17); ("a_pauli_phi", -0.42); ("a_pauli_phi_prime", 0.09); ("mass_omega", 1.4);
  ("decay_rate_omega", 0.001); ("mass_omega_prime", 1.5); ("decay_rate_omega_prime", 0.001);
  ("mass_omega_double_prime", 1.6); ("decay_rate_omega_double_prime", 0.001); ("mass_phi", 2.0);
  ("decay_rate_phi", 0.01); ("mass_phi_prime", 2.2); ("decay_rate_phi_prime", 0.01);
  ("mass_phi_double_prime", 2.4); ("decay_rate_phi_double_prime", 0.01); ("mass_rho", 3.1);
  ("decay_rate_rho", 0.1); ("mass_rho_prime", 3.2); ("decay_rate_rho_prime", 0.1);
  ("mass_rho_double_prime", 3.3); ("decay_rate_rho_double_prime", 0.1)].

(** tests/test_NucleonUAModelOld.py l.51-128. *)
Definition cases_NucleonOld_1 : list nucleon_item := [
  Value (0, 0) true true (1.0, 0);
  Value (0, 0) false true (0.0, 0);
  Value (0, 0) true false (0.3, 0);
  Value (0, 0) false false (1.7, 0);
  Ratio (10000, 0) (20000, 0) false false 4.0 0.1;
  Ratio (10000, 0) (20000, 0) true false 4.0 0.1;
  Ratio (10000, 0) (20000, 0) false true 4.0 0.1;
  Ratio (10000, 0) (20000, 0) true true 4.0 0.1;
  Value (1.7, 0) true false (9.264041524614782, 0.07288173635849036);
  Value (1.7, 0) false true (6.36801456730032, -0.05590379378968173);
  Value (0.4, 1.2) true true (0.7782203362803921, 0.1525683395543666);
  Value (162.42, -0.647) false false (-0.002759958992972902, -2.598171690422949e-05);
  Value (84.1, -9124.1) true true (-5.1303718120553975e-06, 7.795611633972505e-08);
  Value (0, 62.4) false false (0.009671246342365719, -0.009930048457120286)].

(** tests/test_NucleonUAModelOld.py l.131-171. *)
Definition kw_NucleonOld_2 : list (string * Q) := [
  ("nucleon_mass", 0.938272); ("magnetic_moment_proton", 2.79); ("magnetic_moment_neutron", -1.91);
  ("t_0_dirac_isoscalar", 0.17531904388276887); ("t_0_dirac_isovector", 0.07791957505900839);
  ("t_in_dirac_isoscalar", 0.9001581776629138); ("t_in_dirac_isovector", 2.713739494786232);
  ("t_0_pauli_isoscalar", 0.17531904388276887); ("t_0_pauli_isovector", 0.07791957505900839);
  ("t_in_pauli_isoscalar", 1.0512202460515163); ("t_in_pauli_isovector", 4.176812892690669);
  ("a_dirac_omega", 1.3200505056850964); ("a_dirac_omega_prime", 0.11215926509622014);
  ("a_dirac_phi", -1.013845791442124); ("a_dirac_phi_prime", 0.26717864421535276);
  ("a_dirac_rho", 0.06479104707666819); ("a_pauli_omega", -0.32774864723704805);
  ("a_pauli_phi", 0.07195092152400877); ("a_pauli_phi_prime", 0.349116996120233); ("mass_omega", 0.78266);
  ("decay_rate_omega", 0.00868); ("mass_omega_prime", 1.41); ("decay_rate_omega_prime", 0.29);
  ("mass_omega_double_prime", 1.67); ("decay_rate_omega_double_prime", 0.315); ("mass_phi", 1.019461);
  ("decay_rate_phi", 0.004249); ("mass_phi_prime", 1.68); ("decay_rate_phi_prime", 0.15);
  ("mass_phi_double_prime", 2.159); ("decay_rate_phi_double_prime", 0.137); ("mass_rho", 0.77526);
  ("decay_rate_rho", 0.1474); ("mass_rho_prime", 1.465); ("decay_rate_rho_prime", 0.4);
  ("mass_rho_double_prime", 1.72); ("decay_rate_rho_double_prime", 0.25)].

(** tests/test_NucleonUAModelOld.py l.172-249. *)
Definition cases_NucleonOld_2 : list nucleon_item := [
  Value (0, 0) true true (1.0, 0);
  Value (0, 0) false true (0.0, 0);
  Value (0, 0) true false (2.79, 0);
  Value (0, 0) false false (-1.91, 0);
  Ratio (10000, 0) (20000, 0) false false 4.0 0.1;
  Ratio (10000, 0) (20000, 0) true false 4.0 0.1;
  Ratio (10000, 0) (20000, 0) false true 4.0 0.1;
  Ratio (10000, 0) (20000, 0) true true 4.0 0.1;
  Value (1.7, 0) true false (2.107422993708366, 0.9337984540696413);
  Value (1.7, 0) false true (2.5894982538118754, -0.12916481280320902);
  Value (0.4, 1.2) true true (-0.19619513739474426, 0.4388475016590333);
  Value (162.42, -0.647) false false (-6.642301488991929e-05, 5.521637016319888e-06);
  Value (84.1, -9124.1) true true (-5.5543905991798604e-09, 2.9716623338340846e-10);
  Value (0, 62.4) false false (0.0005048360661170517, 4.787044738370395e-05)].

(** tests/test_ScalarMesonProductionTotalCrossSection.py l.22-28. *)
Definition cases_Scalar_1 : list (CQ * CQ) := [
  ((1.0, 0), (0, -0.0002899141186372558));
  ((4.00, 0), (0.0, 0));
  ((4.72, 0), (1.5689721292965648e-05, 0));
  ((14.31, 8.21), (0.0006291427281578755, -0.00019011327189063848));
  ((862.0, -0.87), (0.04776005175092199, 4.7866214477648565e-05))].

(** tests/test_ScalarMesonProductionTotalCrossSection.py l.40-74. *)
Definition kw_Scalar_2 : list (string * Q) := [
  ("t_0_isoscalar", 1753190438827689 # 10000000000000000); ("t_0_isovector", 194798937647521 # 2500000000000000);
  ("t_in_isoscalar", 1.35); ("t_in_isovector", 0.59); ("a_omega", 0.004); ("a_omega_prime", 0.27);
  ("a_omega_double_prime", 0.0); ("a_phi", -0.01); ("a_phi_prime", 0.0); ("a_rho", 0.24); ("a_rho_prime", 0.1);
  ("a_rho_double_prime", -0.1); ("mass_omega", 0.78266); ("decay_rate_omega", 0.00868);
  ("mass_omega_prime", 1.410); ("decay_rate_omega_prime", 0.29); ("mass_omega_double_prime", 1.670);
  ("decay_rate_omega_double_prime", 0.315); ("mass_phi", 1.019461); ("decay_rate_phi", 0.004249);
  ("mass_phi_prime", 1.680); ("decay_rate_phi_prime", 0.150); ("mass_phi_double_prime", 2.159);
  ("decay_rate_phi_double_prime", 0.137); ("mass_rho", 0.77525); ("decay_rate_rho", 0.1474);
  ("mass_rho_prime", 1.465); ("decay_rate_rho_prime", 0.4); ("mass_rho_double_prime", 1.570);
  ("decay_rate_rho_double_prime", 0.144); ("mass_rho_triple_prime", 1.720);
  ("decay_rate_rho_triple_prime", 0.25)].

(** tests/test_ScalarMesonProductionTotalCrossSection.py l.88-94. *)
Definition cases_Scalar_2 : list (CQ * CQ) := [
  ((1.1230, 0), (1.422899583299445, 0));
  ((1.1230, 0.73200), (7.322169806015914, 5.145404160322535));
  ((0, 0.73200), (43.88590980666062, -8.017152698541237));
  ((0, -0.73200), (43.88590980666064, 8.01715269854124));
  ((1.1230, -0.73200), (7.32216980601591, -5.145404160322531))].

(** tests/test_NucleonPairToElectronPositronTotalCrossSection.py l.22-27. *)
Definition cases_Pair_1 : list (CQ * CQ) := [
  ((4.1, 0), (0.00021261082938175543, 0));
  ((4.21, 0), (0.0003095335115185389, 0));
  ((14.31, 8.21), (0.0029757326393812914, -0.0019301384158627749));
  ((862.0, -0.87), (0.1923761490892198, 0.0001946109906016082))].

(** tests/test_NucleonPairToElectronPositronTotalCrossSection.py l.39-79. *)
Definition kw_Pair_2 : list (string * Q) := [
  ("nucleon_mass", 938272081 # 1000000000); ("magnetic_moment_proton", 2.792847351);
  ("magnetic_moment_neutron", -1.91304273); ("t_0_dirac_isoscalar", 0.17531904388276887);
  ("t_0_dirac_isovector", 0.07791957505900839); ("t_in_dirac_isoscalar", 0.9001581776629138);
  ("t_in_dirac_isovector", 2.713739494786232); ("t_0_pauli_isoscalar", 0.17531904388276887);
  ("t_0_pauli_isovector", 0.07791957505900839); ("t_in_pauli_isoscalar", 1.0512202460515163);
  ("t_in_pauli_isovector", 4.176812892690669); ("a_dirac_omega", 1.3200505056850964);
  ("a_dirac_omega_prime", 0.11215926509622014); ("a_dirac_phi", -1.013845791442124);
  ("a_dirac_phi_prime", 0.26717864421535276); ("a_dirac_rho", 0.06479104707666819);
  ("a_pauli_omega", -0.32774864723704805); ("a_pauli_phi", 0.07195092152400877);
  ("a_pauli_phi_prime", 0.349116996120233); ("mass_omega", 0.78266); ("decay_rate_omega", 0.00868);
  ("mass_omega_prime", 1.41); ("decay_rate_omega_prime", 0.29); ("mass_omega_double_prime", 1.67);
  ("decay_rate_omega_double_prime", 0.315); ("mass_phi", 1.019461); ("decay_rate_phi", 0.004249);
  ("mass_phi_prime", 1.68); ("decay_rate_phi_prime", 0.15); ("mass_phi_double_prime", 2.159);
  ("decay_rate_phi_double_prime", 0.137); ("mass_rho", 0.77526); ("decay_rate_rho", 0.1474);
  ("mass_rho_prime", 1.465); ("decay_rate_rho_prime", 0.4); ("mass_rho_double_prime", 1.72);
  ("decay_rate_rho_double_prime", 0.25)].

(** tests/test_NucleonPairToElectronPositronTotalCrossSection.py l.93-99. *)
Definition cases_Pair_2 : list (CQ * CQ) := [
  ((4.0, 0), (4.037438660548728, 0));
  ((4.1230, 0.73200), (1.074340393409335, -0.3040419016151704));
  ((0, 3.73200), (-0.019159837461526916, -0.5369667339262477));
  ((0, -7.73200), (-0.0007610111434823791, 0.0474064128632346));
  ((12.1230, -0.73200), (0.007284922223154086, 0.0004451300075981765))].

(** tests/test_functions.py l.13-19. *)
Definition cases_z_minus_its_reciprocal : list (CQ * CQ) := [
  ((1, 0), (0, 0));
  ((0, 1), (0, 2));
  ((0, -2), (0, -2.5));
  ((1, 0), (0, 0));
  ((10000000000000000 # 14142135623730951, 10000000000000000 # 14142135623730951), (0, 14142135623730951 # 10000000000000000))].

(** tests/test_functions.py l.44-54. *)
Definition cases_square_root : list (CQ * CQ) := [
  ((1, 0), (1, 0));
  ((-1, 0), (0, 1));
  ((0, 1), (10000000000000000 # 14142135623730951, 10000000000000000 # 14142135623730951));
  ((0, -1), (-10000000000000000 # 14142135623730951, 10000000000000000 # 14142135623730951));
  ((4, 0), (2, 0));
  ((534, 0), (23108440016582687 # 1000000000000000, 0));
  ((-3, -4), (-1, 2));
  ((10000, -0.000000001), (-100, 0));
  ((0, -9), (-10000000000000000 # 4714045207910317, 10000000000000000 # 4714045207910317))].

(** tests/test_MapFromTtoW.py l.19-24. *)
Definition cases_MapFromTtoW : list (CQ * CQ) := [
  ((-4 # 9, 0), (-0.5, 0));
  ((4 # 25, 0), (0, 0.5));
  ((1.0, 0), (-0.86602540378, 0.5));
  ((0.031069896194, 0.035343944637), (-0.1, 0.2))].

(** tests/test_MapFromWtoT.py l.19-24. *)
Definition cases_MapFromWtoT : list (CQ * CQ) := [
  ((2.0, 0), (-4 # 9, 0));
  ((0, 0.5), (4 # 25, 0));
  ((0, -2), (4 # 25, 0));
  ((-0.1, 0.2), (0.031069896194, 0.035343944637))].

(** tests/test_VMDModel.py l.28-32. *)
Definition cases_VMDModel : list (CQ * CQ) := [
  ((0.0, 0), (1.5, 0));
  ((1.0, 0), (1.0050505050505052, 0));
  ((0, 10), (0.9900995099004901, 0.09950990049009551))].

(** tests/test_UAComponentVariantA.py l.12-17. *)
Definition cases_VariantA : list (CQ * CQ) := [
  ((0.0, 0), (0.6444444444444444, 0));
  ((1.0, 0), (0.0, 0));
  ((0, 1), (-0.22032288698955366, 0));
  ((2.1, -4.3), (0.15935491958039452, 0.8787611797211575))].

(** tests/test_UAComponentVariantB.py l.12-17. *)
Definition cases_VariantB : list (CQ * CQ) := [
  ((0.0, 0), (0.057777777777777775, 0));
  ((1.0, 0), (0.0, 0));
  ((0, 1), (0.19753086419753085, 0));
  ((2.1, -4.3), (3.5515073618039743, 1.5943390598942047))].

