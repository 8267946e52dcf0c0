(** Models of the small numerical scripts and of the data transformations of the residual task.

    Numbers here are Python floats (real numbers in the model); a datapoint whose [t] has a non-zero imaginary part
    is a Python complex, on which [math.sqrt] raises TypeError. *)
From Coq Require Import String Reals List Bool.
From Verif Require Import PyBase CNum CrossSections CommonUtils.
Import ListNotations.
Local Open Scope R_scope.
Local Open Scope py_scope.
Local Open Scope list_scope.

(** ** kaon_production/undress_measured_cross_section.py *)

(** l.5-6; [x ** 2] is a product. *)
Definition error_for_addition (err1 err2 : R) : Res R := rsqrt (err1 * err1 + err2 * err2).

(** l.9-12. *)
Definition error_for_multiplication (val1 err1 val2 err2 : R) : Res R :=
  rel_err1 <- rdiv err1 val1 ;;
  rel_err2 <- rdiv err2 val2 ;;
  e <- error_for_addition rel_err1 rel_err2 ;;
  Ok (val1 * val2 * e).

(** l.15-24. *)
Definition undress_cross_section_measurement (alpha_0 alpha_s alpha_err cs_val cs_err_stat : R) (cs_err_sys : option R)
  : Res (R * R) :=
  cs_err <- match cs_err_sys with
            | None => Ok cs_err_stat
            | Some sys => error_for_addition cs_err_stat sys
            end ;;
  q <- rdiv alpha_0 alpha_s ;;
  let factor := q * q in
  r <- rdiv factor alpha_s ;;
  let factor_err := 2 * r * alpha_err in
  e <- error_for_multiplication factor factor_err cs_val cs_err ;;
  Ok (cs_val * factor, e).

(** ** kaon_production/convert_cs_data_to_ff_data.py *)

(** l.7-17: the function returned for given constants, at a float [t].  A negative base of [** (3/2)] gives a complex
    number. *)
Definition coefficient_function (alpha hc_squared kaon_mass t : R) : Res C :=
  let four_mass_squared := 4 * (kaon_mass * kaon_mass) in
  let const := hc_squared * PI * (alpha * alpha) / 3 in
  a <- rdiv const t ;;
  q <- rdiv four_mass_squared t ;;
  Ok (RtoC a * Cpow (RtoC (1 - q)) (3/2))%C.

(** Is the coefficient a Python complex (rather than a float)? *)
Definition coefficient_is_complex (kaon_mass t : R) : bool :=
  if Rlt_dec (1 - 4 * (kaon_mass * kaon_mass) / t) 0 then true else false.

(** l.20-21. *)
Definition error_for_square_root (val err : R) : Res R :=
  s <- rsqrt val ;; r <- rdiv 1 (2 * s) ;; Ok (r * err).

(** l.33-38: one pass of the loop.  [math.sqrt] of a complex raises TypeError. *)
Definition convert_row (alpha hc_squared kaon_mass : R) (row : R * R * R) : Res (R * R * R) :=
  let '(t, cs, err) := row in
  coeff <- coefficient_function alpha hc_squared kaon_mass t ;;
  q <- cdiv (RtoC cs) coeff ;;
  if coefficient_is_complex kaon_mass t then Err TypeError
  else
    ff <- rsqrt (Re q) ;;
    new_err <- rdiv err (2 * Re coeff * ff) ;;
    Ok (t, ff, new_err).

Definition convert (alpha hc_squared kaon_mass : R) (rows : list (R * R * R)) : Res (list (R * R * R)) :=
  mapM (convert_row alpha hc_squared kaon_mass) rows.

(** ** task/ResidualOscillationsTask.py *)

(** l.112-119. *)
Definition transform_to_effective_form_factor (mass alpha cs err t : R) : Res (R * R) :=
  tau <- rdiv t (4 * (mass * mass)) ;;
  i <- rdiv 1 tau ;;
  beta <- rsqrt (1 - i) ;;
  let denominator := 2 * PI * (alpha * alpha) * beta * (2 + i) in
  ff_squared <- rdiv (3 * t * cs) denominator ;;
  error_for_ff_squared <- rdiv (3 * t * err) denominator ;;
  ff <- rsqrt ff_squared ;;
  e <- rdiv (1 / 2 * error_for_ff_squared) ff ;;
  Ok (ff, e).

(** [datapoint.t]: plain tuples have no such attribute. *)
Definition attr_t (p : datapoint) : Res C :=
  match p with
  | KaonDatapoint t _ => Ok t
  | NucleonDatapoint t _ _ => Ok t
  | Row _ => Err AttributeError
  end.

(** A float where [math.sqrt] needs one. *)
Definition as_float (t : C) : Res R := if Req_EM_T (Im t) 0 then Ok (Re t) else Err TypeError.

Fixpoint zip3 {A B D : Type} (a : list A) (b : list B) (c : list D) : list (A * B * D) :=
  match a, b, c with
  | x :: a', y :: b', z :: c' => (x, y, z) :: zip3 a' b' c'
  | _, _, _ => []
  end.

(** [zip( *rows )] unpacked into a fixed number of names: ValueError when there are no rows. *)
Definition unzip2 {A B : Type} (rows : list (A * B)) : Res (list A * list B) :=
  match rows with [] => Err ValueError | _ => Ok (map fst rows, map snd rows) end.
Definition unzip3 {A B D : Type} (rows : list (A * B * D)) : Res (list A * list B * list D) :=
  match rows with
  | [] => Err ValueError
  | _ => Ok (map (fun r => fst (fst r)) rows, map (fun r => snd (fst r)) rows, map snd rows)
  end.

Definition effective_rows (mass alpha : R) (css errors : list R) (ts : list datapoint) : Res (list (R * R)) :=
  mapM (fun row => let '(cs, err, p) := row in
                   t <- attr_t p ;;
                   if Req_EM_T (Im t) 0 then transform_to_effective_form_factor mass alpha cs err (Re t)
                   else tau <- cdiv t (RtoC (4 * (mass * mass))) ;; Err TypeError) (zip3 css errors ts).

(** l.171-178, one point: [math.sqrt(d.t * (d.t - 4 * (m ** 2))) / (2 * m)]. *)
Definition laboratory_momentum (m : R) (p : datapoint) : Res R :=
  t <- attr_t p ;; x <- as_float t ;;
  s <- rsqrt (x * (x - 4 * (m * m))) ;;
  rdiv s (2 * m).

(** l.168-186 [map_ts_to_laboratory_system_momentum]; the type of the first point decides which constructor is used,
    and reading the flags of a point of the other type raises AttributeError. *)
Definition map_ts_to_laboratory_system_momentum (m : R) (ts : list datapoint) : Res (list datapoint) :=
  match ts with
  | [] => Ok ts
  | KaonDatapoint _ _ :: _ =>
      mapM (fun d => p <- laboratory_momentum m d ;;
                     match d with
                     | KaonDatapoint _ c => Ok (KaonDatapoint (RtoC p) c)
                     | _ => Err AttributeError
                     end) ts
  | NucleonDatapoint _ _ _ :: _ =>
      mapM (fun d => p <- laboratory_momentum m d ;;
                     match d with
                     | NucleonDatapoint _ proton electric => Ok (NucleonDatapoint (RtoC p) proton electric)
                     | _ => Err AttributeError
                     end) ts
  | Row _ :: _ => Err TypeError            (* raise of a string *)
  end.

(** [p.t < threshold]: AttributeError without [t], TypeError for a complex. *)
Definition below (threshold : R) (row : datapoint * R * R) : Res bool :=
  t <- attr_t (fst (fst row)) ;; x <- as_float t ;; Ok (if Rlt_dec x threshold then true else false).

Fixpoint filterM {A : Type} (f : A -> Res bool) (l : list A) : Res (list A) :=
  match l with
  | [] => Ok []
  | x :: r => b <- f x ;; r' <- filterM f r ;; Ok (if b then x :: r' else r')
  end.

(** l.188-194. *)
Definition drop_large_momenta (cutoff : R) (ts : list datapoint) (ys errors : list R)
  : Res (list datapoint * list R * list R) :=
  rows <- filterM (below cutoff) (zip3 ts ys errors) ;; unzip3 rows.

(** What the plotting needs of the effective form factors. *)
Record Effective := mkEffective { ef_ts : list datapoint; ef_data : list R; ef_fit : list R; ef_errors : list R }.

(** l.121-147, the part of [_set_up] after the background has been evaluated. *)
Definition residual_data (mass alpha : R) (background_ys : list R) (ts : list datapoint) (ys errors : list R)
  : Res (Effective * (list datapoint * list R * list R)) :=
  rows_fit <- effective_rows mass alpha background_ys errors ts ;;
  fit <- unzip2 rows_fit ;;
  rows_data <- effective_rows mass alpha ys errors ts ;;
  dat <- unzip2 rows_data ;;
  let residuals := map (fun yb => fst yb - snd yb) (combine (fst dat) (fst fit)) in
  ps <- map_ts_to_laboratory_system_momentum mass ts ;;
  kept <- drop_large_momenta 5 ps residuals (snd fit) ;;
  Ok (mkEffective ts (fst dat) (fst fit) (snd fit), kept).
