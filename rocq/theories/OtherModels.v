(** Model of other_models/. *)
From Coq Require Import Reals List.
From Verif Require Import PyBase CNum.
Import ListNotations.
Local Open Scope R_scope.
Local Open Scope py_scope.

(** ** VMDModel.py *)

(** VMDModel.py l.20-23: an entry of [_vector_mesons]. *)
Record VectorMeson : Type := mkMeson { vm_mass : R; vm_coefficient : R }.

(** VMDModel.py l.10-11: the only attribute is the list of mesons. *)
Definition VMD : Type := list VectorMeson.

(** VMDModel.py l.10-11 [__init__]. *)
Definition VMDModel_init : VMD := [].

(** VMDModel.py l.20-23 [add_vector_meson]: append at the end. *)
Definition add_vector_meson (m : VMD) (coefficient mass : R) : VMD :=
  m ++ [mkMeson mass coefficient].

(** VMDModel.py l.13-18 [create]; the argument is a list of dictionaries with the keys
    'coefficient' and 'mass', here pairs (coefficient, mass). *)
Definition VMDModel_create (vector_mesons : list (R * R)) : VMD :=
  fold_left (fun m cm => add_vector_meson m (fst cm) (snd cm)) vector_mesons VMDModel_init.

(** VMDModel.py l.36-39 [_evaluate_meson_contribution]. *)
Definition evaluate_meson_contribution (t : C) (coefficient mass : R) : Res C :=
  let mass_squared := mass * mass in
  cdiv (RtoC (coefficient * mass_squared)) (RtoC mass_squared - t)%C.

(** VMDModel.py l.25-34 [__call__]: [result += contribution] starting from 0. *)
Definition VMDModel_call (m : VMD) (t : C) : Res C :=
  match m with
  | [] => Err OtherError
  | _ => fold_left (fun acc v =>
           result <- acc ;;
           c <- evaluate_meson_contribution t (vm_coefficient v) (vm_mass v) ;;
           Ok (result + c)%C) m (Ok (RtoC 0))
  end.

(** ** ETGMRModel.py *)

(** ETGMRModel.py l.13-16 (attributes). *)
Record ETGMR : Type := mkETGMR { et_a : R; et_m_a_squared : R; et_m_d_squared : R }.

(** ETGMRModel.py l.13-16 [__init__]. *)
Definition ETGMRModel_init (a m_a m_d : R) : ETGMR := mkETGMR a (m_a * m_a) (m_d * m_d).

(** ETGMRModel.py l.18-19 [__call__]. *)
Definition ETGMRModel_call (m : ETGMR) (s : C) : Res C :=
  q1 <- cdiv s (RtoC (et_m_a_squared m)) ;;
  q2 <- cdiv s (RtoC (et_m_d_squared m)) ;;
  cdiv (RtoC (et_a m)) ((1 + q1) * Csq (1 - q2))%C.

(** ** TwoPolesModel.py *)

(** TwoPolesModel.py l.10-13 (attributes). *)
Record TwoPoles : Type := mkTwoPoles { tp_a : R; tp_m_1_squared : R; tp_m_2_squared : R }.

(** TwoPolesModel.py l.10-13 [__init__]. *)
Definition TwoPolesModel_init (a m_1 m_2 : R) : TwoPoles := mkTwoPoles a (m_1 * m_1) (m_2 * m_2).

(** TwoPolesModel.py l.15-16 [__call__]. *)
Definition TwoPolesModel_call (m : TwoPoles) (s : C) : Res C :=
  q1 <- cdiv s (RtoC (tp_m_1_squared m)) ;;
  q2 <- cdiv s (RtoC (tp_m_2_squared m)) ;;
  cdiv (RtoC (tp_a m)) ((1 - q1) * (1 - q2))%C.

(** ** DampedOscillations.py *)

(** DampedOscillations.py l.6-10 (attributes set in [__init__]). *)
Record Damped : Type := mkDamped { da_a : R; da_b : R; da_c : R; da_d : R }.

(** DampedOscillations.py l.12-13 [__call__]. *)
Definition DampedOscillations_call (m : Damped) (x : R) : R :=
  da_a m * exp (-1 * da_b m * x) * cos (da_c m * x + da_d m).
