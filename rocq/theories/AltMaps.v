(** The alternative definitions of the map from t to W in plotting/plot_various_coordinate_inverse_maps.py. *)
From Coq Require Import Reals Lra.
From Verif Require Import PyBase CNum UAMaps.
Local Open Scope R_scope.
Local Open Scope py_scope.

(** [cmath.sqrt]: the root with non-negative real part, and non-negative imaginary part if the real part is 0.
    (Signed zeros are not modelled: a zero imaginary part counts as positive.) *)
Definition cmath_sqrt (z : C) : C :=
  let x := sqrt ((Cabs z + Re z) / 2) in
  let y := sqrt ((Cabs z - Re z) / 2) in
  mkC x (if Rlt_dec (Im z) 0 then - y else y).

(** l.17-33 [t_to_w_version2] and l.36-52 [t_to_w_version3]: the same formula with either root.
    The module constants T_0 and T_IN (l.11-12: 1.0 and 2.0) are parameters here.
    l.29/48 q_in, l.30/49 q, l.31/50 numerator, l.32/51 denominator, l.33/52 the quotient. *)
Definition literature_map (root : C -> C) (t_0 t_in : R) (t : C) : Res C :=
  d <- rdiv (t_in - t_0) t_0 ;;
  let q_in := root (RtoC d) in
  e <- cdiv (t - RtoC t_0)%C (RtoC t_0) ;;
  let q := root e in
  let numerator := (root (q_in + q) - root (q_in - q))%C in
  let denominator := (root (q_in + q) + root (q_in - q))%C in
  cdiv (Ci * numerator)%C denominator.

Definition t_to_w_version2 (t_0 t_in : R) (t : C) : Res C := literature_map square_root t_0 t_in t.
Definition t_to_w_version3 (t_0 t_in : R) (t : C) : Res C := literature_map cmath_sqrt t_0 t_in t.
