(** Specifications for the parameter stores, written without the tables and methods of the model. *)
From Coq Require Import Reals String List Bool.
From Verif Require Import PyBase Params ParamClasses.
Import ListNotations.
Open Scope string_scope.
Open Scope list_scope.
Open Scope R_scope.

(** Parameters that must never be fitted, per class. *)
Definition thresholds_kaon := ["t_0_isoscalar"; "t_0_isovector"].

Definition must_stay_fixed (c : param_class) : list string :=
  match c with
  | PKaon | PKaonSimplified => thresholds_kaon
  | PKaonFixedRhoOmega => thresholds_kaon ++ ["mass_omega"; "decay_rate_omega"; "mass_rho"; "decay_rate_rho"]
  | PKaonFixedSelected =>
      thresholds_kaon ++ ["mass_omega"; "decay_rate_omega"; "mass_omega_prime"; "mass_omega_double_prime";
                          "mass_rho"; "decay_rate_rho"]
  | PKaonB =>
      thresholds_kaon ++ ["mass_omega"; "decay_rate_omega"; "mass_omega_double_prime"; "decay_rate_omega_double_prime";
                          "mass_rho"; "decay_rate_rho"; "mass_rho_prime"; "decay_rate_rho_prime";
                          "mass_rho_double_prime"; "decay_rate_rho_double_prime"]
  | PNucleon => ["nucleon_mass"; "magnetic_moment_proton"; "magnetic_moment_neutron";
                 "t_0_dirac_isoscalar"; "t_0_dirac_isovector"; "t_0_pauli_isoscalar"; "t_0_pauli_isovector"]
  | PETGMR | PTwoPoles | POscillations => []
  end.

(** Constants given separately to [from_ordered_values]; [None] where the class has no such method. *)
Definition ordered_constants (c : param_class) : option (list string) :=
  match c with
  | PKaon | PKaonSimplified | PKaonB | PKaonFixedRhoOmega | PKaonFixedSelected =>
      Some ["t_0_isoscalar"; "t_0_isovector"]
  | PNucleon => Some ["nucleon_mass"; "magnetic_moment_proton"; "magnetic_moment_neutron";
                      "t_0_dirac_isoscalar"; "t_0_dirac_isovector"; "t_0_pauli_isoscalar"; "t_0_pauli_isovector"]
  | _ => None
  end.

(** Number of values in an ordered list. *)
Definition ordered_count (c : param_class) : nat :=
  match c with
  | PKaon => 30 | PKaonSimplified => 24 | PKaonB => 24 | PKaonFixedRhoOmega => 30
  | PKaonFixedSelected => 30 | PNucleon => 30 | PETGMR => 2 | PTwoPoles => 3 | POscillations => 4
  end.

(** Value of a named parameter (0 for an unknown name). *)
Fixpoint val (d : data) (n : string) : R :=
  match d with
  | [] => 0
  | p :: r => if String.eqb (par_name p) n then par_value p else val r n
  end.

(** Flag-only change of the parameters whose name satisfies a predicate. *)
Definition reflag (P : string -> Prop) (flag : bool) (d d' : data) : Prop :=
  Forall2 (fun p q => par_name q = par_name p /\ par_value q = par_value p /\
                      (P (par_name p) -> par_fixed q = flag) /\
                      (~ P (par_name p) -> par_fixed q = par_fixed p)) d d'.

(** ** Bounds *)

Definition ext_lt (a b : ext) : Prop :=
  match a, b with
  | NegInf, NegInf => False
  | NegInf, _ => True
  | Fin x, Fin y => x < y
  | Fin _, PosInf => True
  | _, _ => False
  end.

Definition starts (pre n : string) : bool := prefix pre n.

(** A mass or width named after a rho meson belongs to the isovector sector, any other to the isoscalar one. *)
Definition threshold_name (n : string) : string :=
  if starts "mass_rho" n then "isovector" else "isoscalar".

(** Maximal bounds of the parameter [n]: couplings are unbounded, branch points lie above their threshold,
    widths are positive, masses above the square root of the threshold of their sector. *)
Definition maximal_bounds_of (c : param_class) (d : data) (n : string) : ext * ext :=
  let thr := fun s => val d ("t_0_" ++ s)%string in
  match c with
  | POscillations => (NegInf, PosInf)
  | PETGMR | PTwoPoles => if String.eqb n "a" then (NegInf, PosInf) else (Fin 0, PosInf)
  | _ =>
      if starts "a_" n then (NegInf, PosInf)
      else if starts "decay_rate_" n then (Fin 0, PosInf)
      else if starts "mass_" n then
        match c with
        | PNucleon => (Fin (Rmax (sqrt (thr ("dirac_" ++ threshold_name n)%string))
                                 (sqrt (thr ("pauli_" ++ threshold_name n)%string))), PosInf)
        | _ => (Fin (sqrt (thr (threshold_name n))), PosInf)
        end
      else (Fin (val d ("t_0_" ++ substring 5 (String.length n) n)%string), PosInf)   (* t_in_x *)
  end.

(** Shape of the handpicked bounds: couplings and branch points as in the maximal ones, masses and widths in a
    finite interval of positive numbers; for the auxiliary models a constant lower end. *)
Definition handpicked_shape (c : param_class) (d : data) (n : string) (b : ext * ext) : Prop :=
  match c with
  | POscillations | PETGMR | PTwoPoles =>
      snd b = PosInf /\ (fst b = NegInf \/ exists r, fst b = Fin r /\ 0 <= r)
  | _ =>
      if orb (starts "decay_rate_" n) (starts "mass_" n)
      then exists lo up, b = (Fin lo, Fin up) /\ 0 < lo < up
      else b = maximal_bounds_of c d n
  end.

(** Branch points whose square root is taken. *)
Definition threshold_parameters (c : param_class) : list string :=
  match c with
  | PNucleon => ["t_0_dirac_isoscalar"; "t_0_dirac_isovector"; "t_0_pauli_isoscalar"; "t_0_pauli_isovector"]
  | PETGMR | PTwoPoles | POscillations => []
  | _ => thresholds_kaon
  end.
