(** C51, continued: the unit tests of the nucleon models. *)
From Coq Require Import String Reals ZArith QArith Qreals List Bool.
From Verif Require Import PyBase CNum PyExpr Nucleon CrossSections CommonUtils Balls Enclose EncloseCS UnitTests
  UnitChecks.
Import ListNotations.

(** tests/test_NucleonUAModel.py: normalisations, asymptotic ratios and values, one model object per test. *)
Theorem C51_tests_nucleon :
  nucleon_test NucleonUAModel kw_Nucleon_1 cases_Nucleon_1 /\ nucleon_test NucleonUAModel kw_Nucleon_2 cases_Nucleon_2.
Proof.
  destruct quoted_classes as [_ [_ [_ [<- _]]]].
  split; apply check_nucleon_ok; vm_compute; reflexivity.
Qed.
Print Assumptions C51_tests_nucleon.

(** tests/test_NucleonUAModelOld.py. *)
Theorem C51_tests_nucleon_old :
  nucleon_test NucleonUAModelOld kw_NucleonOld_1 cases_NucleonOld_1 /\
  nucleon_test NucleonUAModelOld kw_NucleonOld_2 cases_NucleonOld_2.
Proof.
  destruct quoted_classes as [_ [_ [_ [_ <-]]]].
  split; apply check_nucleon_ok; vm_compute; reflexivity.
Qed.
Print Assumptions C51_tests_nucleon_old.

(** tests/test_NucleonPairToElectronPositronTotalCrossSection.py, second test: one model object for all calls. *)
Theorem C51_tests_pair_cross_section :
  pair_test NucleonUAModel kw_Pair_2 0.938272081 0.0072973525693 389379.3721 cases_Pair_2.
Proof.
  destruct quoted_classes as [_ [_ [_ [<- _]]]]. apply check_pair_model_ok. vm_compute. reflexivity.
Qed.
Print Assumptions C51_tests_pair_cross_section.
