(** Model of cross_section/ScalarMesonProductionTotalCrossSection.py and
    cross_section/NucleonPairToElectronPositronTotalCrossSection.py.

    Simplifications.  The two constants travel through a ConfigParser as [str(x)] and [getfloat]; this is the
    identity on floats (repr is exact) and is left out.  The form factor model is any callable: for the scalar
    mesons a function that returns or raises, for the nucleons an object with an assignable attribute [electric]
    and a call that may change the object. *)
From Coq Require Import Reals.
From Verif Require Import PyBase CNum.
Local Open Scope R_scope.
Local Open Scope py_scope.

(** [z ** e] for a complex (or float) [z] and a float literal [e > 0]: CPython's [_Py_c_pow] with zero imaginary
    part of the exponent.  A negative float base gives the same complex result, a non-negative one the real power. *)
Definition Cpow (z : C) (e : R) : C :=
  if C_eq_dec z (RtoC 0) then RtoC 0
  else let '(r, phi) := polar z in mkC (Rpower r e * cos (phi * e)) (Rpower r e * sin (phi * e)).

(** ScalarMesonProductionTotalCrossSection.py l.33-39 (attributes used by [__call__]). *)
Record ScalarCS := mkScalarCS { sc_coefficient : R; sc_four_mass_squared : R }.

(** ScalarMesonProductionTotalCrossSection.py l.20-39 [__init__]. *)
Definition ScalarCS_init (meson_mass alpha hc_squared : R) : ScalarCS :=
  mkScalarCS (hc_squared * PI * (alpha * alpha) / 3) (4 * (meson_mass * meson_mass)).

(** ScalarMesonProductionTotalCrossSection.py l.41-61 [__call__]. *)
Definition ScalarCS_call (s : ScalarCS) (form_factor : C -> Res C) (t : C) : Res C :=
  f <- form_factor t ;;
  let form_factor_modulus := Cabs f in
  a <- cdiv (RtoC (sc_coefficient s)) t ;;
  q <- cdiv (RtoC (sc_four_mass_squared s)) t ;;
  Ok (a * Cpow (1 - q) (3/2) * RtoC (form_factor_modulus * form_factor_modulus))%C.

(** NucleonPairToElectronPositronTotalCrossSection.py l.26-32 (attributes used by [__call__]). *)
Record NucleonCS := mkNucleonCS { nc_coefficient : R; nc_four_mass_squared : R }.

(** NucleonPairToElectronPositronTotalCrossSection.py l.13-32 [__init__]. *)
Definition NucleonCS_init (nucleon_mass alpha hc_squared : R) : NucleonCS :=
  mkNucleonCS (hc_squared * 4 * PI * (alpha * alpha) / 3) (4 * (nucleon_mass * nucleon_mass)).

Section Object.
Variable F : Type.                          (* the form factor object *)
Variable set_electric : bool -> F -> F.     (* form_factor.electric = b *)
Variable call : F -> C -> Res C * F.        (* form_factor(t) *)

(** NucleonPairToElectronPositronTotalCrossSection.py l.56-60: the arithmetic after the two evaluations. *)
Definition nucleon_formula (s : NucleonCS) (t : C) (ge gm : R) : Res C :=
  q <- rdiv (nc_four_mass_squared s) (Cabs t) ;;
  beta <- rsqrt (1 - q) ;;
  a <- cdiv (RtoC (nc_coefficient s * beta)) t ;;
  b <- cdiv (RtoC (nc_four_mass_squared s * (ge * ge))) (2 * t)%C ;;
  Ok (a * (RtoC (gm * gm) + b))%C.

(** NucleonPairToElectronPositronTotalCrossSection.py l.34-60 [__call__], with the object left behind. *)
Definition NucleonCS_call (s : NucleonCS) (f0 : F) (t : C) : Res C * F :=
  let '(r1, f1) := call (set_electric true f0) t in
  match r1 with
  | Err e => (Err e, f1)
  | Ok v1 =>
      let ge := Cabs v1 in
      let '(r2, f2) := call (set_electric false f1) t in
      match r2 with
      | Err e => (Err e, f2)
      | Ok v2 => let gm := Cabs v2 in (nucleon_formula s t ge gm, f2)
      end
  end.

End Object.
