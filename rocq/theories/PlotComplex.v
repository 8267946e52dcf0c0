(** Model of plotting/plot_complex.py and of the script part of plotting/plot_various_coordinate_inverse_maps.py.

    Simplifications.  Exact arithmetic, so [base * n / 20] does not depend on the order of the operations.  Drawing by
    matplotlib is not modelled: a figure is its two titles and, for every pair of curves, the coordinates handed over with
    their colour.  The shuffled list of the names of matplotlib's CSS4 colours (l.20-21) is an argument. *)
From Coq Require Import String Reals List Bool ZArith.
From Verif Require Import PyBase CNum UAMaps AltMaps.
Import ListNotations.
Local Open Scope R_scope.
Local Open Scope py_scope.
Local Open Scope list_scope.

Definition curve := list C.

(** [range(a, b)]. *)
Definition range (a b : Z) : list R := map (fun k => IZR (a + Z.of_nat k)) (seq 0 (Z.to_nat (b - a))).

(** One drawn pair: coordinates left, coordinates right, colour. *)
Definition drawn_pair := (list (R * R) * list (R * R) * string)%type.
Record Figure := mkFigure { fg_left : string; fg_right : string; fg_pairs : list drawn_pair }.

(** plot_complex.py l.29-32 [_plot_curve], up to drawing. *)
Definition coordinates (c : curve) : list (R * R) := combine (map Re c) (map Im c).

(** [for curve, mapped, color in zip(domain_curves, mapped_curves, colors)], l.23-25. *)
Fixpoint zip_curves (domain_curves mapped_curves : list curve) (colors : list string) : list drawn_pair :=
  match domain_curves, mapped_curves, colors with
  | d :: ds, m :: ms, c :: cs => (coordinates d, coordinates m, c) :: zip_curves ds ms cs
  | _, _, _ => []
  end.

(** plot_complex.py l.12-26 [plot_mapped_curves]. *)
Definition plot_mapped_curves (colors : list string) (domain_title range_title : string)
  (domain_curves mapped_curves : list curve) : Res Figure :=
  if Nat.eqb (length domain_curves) (length mapped_curves) then
    let colors := firstn (length domain_curves) colors in
    Ok (mkFigure domain_title range_title (zip_curves domain_curves mapped_curves colors))
  else Err AssertionError.

(** [[f(z) for z in curve] for curve in curves]. *)
Definition map_curves (f : C -> Res C) (curves : list curve) : Res (list curve) := mapM (mapM f) curves.

(** plot_complex.py l.35-46 [plot_square_root]. *)
Definition plot_square_root (colors : list string) : Res Figure :=
  let bases := map (fun k => Cexp (2 * Ci * RtoC PI * RtoC k / 3)%C) (range 0 3) in
  let curves_outward := map (fun base => map (fun n => (base * RtoC n / 20)%C) (range 1 100)) bases in
  let curves_circles :=
    map (fun r => map (fun k => (RtoC r * Cexp (2 * Ci * RtoC PI * RtoC k / 100))%C) (range 1 100)) [1/10; 1; 5] in
  let curves := curves_outward ++ curves_circles in
  mapped <- map_curves (fun z => Ok (square_root z)) curves ;;
  plot_mapped_curves colors "z" "sqrt(z)" curves mapped.

(** plot_complex.py l.49-62 [plot_z_minus_its_reciprocal]. *)
Definition plot_z_minus_its_reciprocal (colors : list string) (number_of_angles : Z) : Res Figure :=
  let bases := map (fun k => Cexp (2 * Ci * RtoC PI * RtoC k / RtoC (IZR number_of_angles))%C) (range 0 number_of_angles) in
  let curves_inside := map (fun base => map (fun n => (base * RtoC n / 100)%C) (range 10 99)) bases in
  let curves_outside := map (fun base => map (fun n => (base * RtoC (n + 10) / 10)%C) (range 1 100)) bases in
  let curves := curves_inside ++ curves_outside in
  mapped <- map_curves z_minus_its_reciprocal curves ;;
  plot_mapped_curves colors "z" "z - 1/z" curves mapped.

(** plot_complex.py l.65-78 [plot_w_to_t]. *)
Definition plot_w_to_t (colors : list string) (t_0 t_in : R) : Res Figure :=
  let bases := [ Cexp (Ci * RtoC PI * 2 / 3)%C; Cexp (Ci * RtoC PI * 5 / 6)%C; Cexp (Ci * RtoC PI * 8 / 7)%C ] in
  let curves_inside := map (fun base => map (fun n => (base * RtoC n / 1000)%C) (range 100 990)) bases in
  let curves_outside := map (fun base => map (fun n => (base * RtoC (n + 100) / 100)%C) (range 10 1000)) bases in
  let curves := curves_inside ++ curves_outside in
  f <- MapFromWtoT_init t_0 t_in ;;
  mapped <- map_curves (MapFromWtoT_call f) curves ;;
  plot_mapped_curves colors "W-plane" "t-plane" curves mapped.

(** plot_complex.py l.81-96 [plot_t_to_w]. *)
Definition plot_t_to_w (colors : list string) (t_0 t_in : R) : Res Figure :=
  let curves :=
    [ map (fun n => RtoC (n * - (1/10) + t_0)) (range 1 1000);
      map (fun n => RtoC ((t_in - t_0) * n * (1/100) + t_0)) (range 1 100);
      map (fun n => RtoC (n * (1/10) + t_in)) (range 1 1000);
      map (fun n => (RtoC (n * - (1/10)) + RtoC 54 * Ci)%C) (range 1 1000);
      map (fun n => (RtoC (n * (1/10)) + RtoC 54 * Ci)%C) (range 1 1000);
      map (fun n => (RtoC (n * (1/10)) - RtoC 20 * Ci)%C) (range (-1000) 0) ++
        map (fun n => (RtoC (n * (1/10)) - RtoC 20 * Ci)%C) (range 1 1000);
      map (fun n => (RtoC n * (RtoC (1/10) + RtoC (1/10) * Ci))%C) (range 1 1000);
      map (fun n => (RtoC n * (RtoC (1/10) * Ci) + RtoC 17)%C) (range 1 1000) ] in
  f <- MapFromTtoW_init t_0 t_in ;;
  mapped <- map_curves (MapFromTtoW_call f) curves ;;
  plot_mapped_curves colors "t-plane" "W-plane" curves mapped.

(** plot_complex.py l.99-100. *)
Definition plot_complex_script (colors : list string) : Res Figure := plot_t_to_w colors 1 2.

(** plot_various_coordinate_inverse_maps.py l.55-66 [plot_t_to_w]. *)
Definition plot_inverse_map (colors : list string) (f : C -> Res C) : Res Figure :=
  let curves :=
    [ map (fun n => RtoC (n * - (1/10) + 1)) (range 1 1000);
      map (fun n => RtoC ((2 - 1) * n * (1/100) + 1)) (range 1 100);
      map (fun n => RtoC (n * (1/10) + 2)) (range 1 1000);
      map (fun n => (RtoC (n * (1/10)) - RtoC 20 * Ci)%C) (range (-1000) 0) ++
        map (fun n => (RtoC (n * (1/10)) - RtoC 20 * Ci)%C) (range 1 1000);
      map (fun n => (RtoC n * (RtoC (1/10) + RtoC (1/10) * Ci))%C) (range 1 1000) ] in
  mapped <- map_curves f curves ;;
  plot_mapped_curves colors "t-plane" "W-plane" curves mapped.

(** plot_various_coordinate_inverse_maps.py l.14 and l.69-74: the printed rows and the figure. *)
Definition inverse_maps_script (colors : list string) : Res (list (C * C * C * C) * Figure) :=
  t_to_w_version1 <- MapFromTtoW_init 1 2 ;;
  g <- MapFromWtoT_init 1 2 ;;
  rows <- mapM (fun t =>
      w1 <- MapFromTtoW_call t_to_w_version1 t ;; x1 <- MapFromWtoT_call g w1 ;;
      w2 <- t_to_w_version2 1 2 t ;; x2 <- MapFromWtoT_call g w2 ;;
      w3 <- t_to_w_version3 1 2 t ;; x3 <- MapFromWtoT_call g w3 ;;
      Ok (t, x1, x2, x3))
    [RtoC (5/100); mkC (17/10) 1; mkC 8123 (-721); mkC (-74/10) (5/10)] ;;
  figure <- plot_inverse_map colors (t_to_w_version3 1 2) ;;
  Ok (rows, figure).
