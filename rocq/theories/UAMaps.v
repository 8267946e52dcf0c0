(** Model of ua_model/functions.py, ua_model/utils.py, ua_model/MapFromTtoW.py
    and ua_model/MapFromWtoT.py.  Exact arithmetic (see DESIGN.md). *)
From Coq Require Import Reals.
From Verif Require Import PyBase CNum.
Local Open Scope R_scope.
Local Open Scope py_scope.

(** ua_model/functions.py l.9-25 [z_minus_its_reciprocal]: [z - (1 / z)]. *)
Definition z_minus_its_reciprocal (z : C) : Res C :=
  r <- cdiv 1%C z ;; Ok (z - r)%C.

(** ua_model/functions.py l.28-47 [square_root].
    l.43 polar; l.45-46 shift of a negative phase by 2 pi;
    l.47 [math.sqrt(r) * cmath.exp(1j * phi / 2.0)].  ([math.sqrt] cannot raise
    here because the modulus is not negative.) *)
Definition square_root (z : C) : C :=
  let '(r, phi) := polar z in
  let phi := if Rlt_dec phi 0 then 2 * PI + phi else phi in
  (RtoC (sqrt r) * Cexp (Ci * RtoC phi / 2))%C.

Arguments square_root : simpl never.

(** ua_model/utils.py l.22-25 [validate_branch_point_positions]. *)
Definition validate_branch_point_positions (t_0 t_in : R) : Res unit :=
  if Rlt_dec t_0 0 then Err ValueError
  else if Rlt_dec t_in t_0 then Err ValueError
  else Ok tt.

(** ua_model/MapFromTtoW.py: attributes set in [__init__] l.35-38. *)
Record MapTW : Type := mkMapTW { tw_t_0 : R; tw_t_in : R; tw_a : R }.

(** ua_model/MapFromTtoW.py l.35-38 [__init__]. *)
Definition MapFromTtoW_init (t_0 t_in : R) : Res MapTW :=
  _ <- validate_branch_point_positions t_0 t_in ;;
  a <- rsqrt (t_in - t_0) ;;
  Ok (mkMapTW t_0 t_in a).

(** ua_model/MapFromTtoW.py l.51-54 [__call__]. *)
Definition MapFromTtoW_call (m : MapTW) (t : C) : Res C :=
  let z := square_root (t - tw_t_0 m)%C in
  transformed_z <- cdiv (z + tw_a m)%C (- z + tw_a m)%C ;;
  let v := square_root transformed_z in
  cdiv (Ci * (v - 1))%C (v + 1)%C.

(** ua_model/MapFromWtoT.py: attributes set in [__init__] l.33-36. *)
Record MapWT : Type := mkMapWT { wt_t_0 : R; wt_t_in : R; wt_delta : R }.

(** ua_model/MapFromWtoT.py l.33-36 [__init__]. *)
Definition MapFromWtoT_init (t_0 t_in : R) : Res MapWT :=
  _ <- validate_branch_point_positions t_0 t_in ;;
  Ok (mkMapWT t_0 t_in (t_in - t_0)).

(** ua_model/MapFromWtoT.py l.49 [__call__]. *)
Definition MapFromWtoT_call (m : MapWT) (w : C) : Res C :=
  r <- z_minus_its_reciprocal w ;;
  q <- cdiv (RtoC (4 * wt_delta m)) (Csq r) ;;
  Ok (RtoC (wt_t_0 m) - q)%C.
