(** C61: the pictures of the coordinate maps. *)
From Coq Require Import String Reals List Bool ZArith Arith Lia Lra.
From Verif Require Import PyBase CNum UAMaps MapProofs AltMaps ComponentProofs PropsMaps PropsAltMaps PlotComplex.
Import ListNotations.
Local Open Scope R_scope.
Local Open Scope list_scope.

(** ** Specification *)

(** The point with these polar coordinates; a ray and a circle. *)
Definition polar_point (r theta : R) : C := mkC (r * cos theta) (r * sin theta).
Definition ray (theta : R) (radii : list R) : list C := map (fun r => polar_point r theta) radii.
Definition circle (r : R) (angles : list R) : list C := map (polar_point r) angles.

(** [count] numbers from [first] on, divided by [d]. *)
Definition fractions (d : R) (first count : nat) : list R := map (fun k => INR k / d) (seq first count).

(** A figure shows the curves with their images, a pair per colour as far as the colours last. *)
Definition points (c : list C) : list (R * R) := map (fun z => (Re z, Im z)) c.
Definition shows (fig : Figure) (left right : string) (colors : list string) (curves images : list (list C)) : Prop :=
  fg_left fig = left /\ fg_right fig = right /\
  fg_pairs fig = map (fun x => (points (fst (fst x)), points (snd (fst x)), snd x)) (combine (combine curves images) colors).

(** Every point of every curve is related to the point of the same place of the images. *)
Definition pointwise (rel : C -> C -> Prop) (curves images : list (list C)) : Prop := Forall2 (Forall2 rel) curves images.

(** ** Figures *)

Lemma coordinates_points : forall c, coordinates c = points c.
Proof. unfold coordinates, points. induction c as [|z c IH]; [reflexivity|]. simpl. now rewrite IH. Qed.

Lemma zip_curves_eq : forall ds ms cs,
  zip_curves ds ms cs = map (fun x => (points (fst (fst x)), points (snd (fst x)), snd x)) (combine (combine ds ms) cs).
Proof.
  induction ds as [|d ds IH]; intros [|m ms] [|c cs]; try reflexivity. simpl. now rewrite !coordinates_points, IH.
Qed.

Lemma combine_firstn_r : forall A B n (l : list A) (c : list B), (length l <= n)%nat -> combine l (firstn n c) = combine l c.
Proof.
  intros A B. induction n as [|n IH]; intros [|x l] [|y c] H; simpl in *; try reflexivity; [lia|]. f_equal. apply IH. lia.
Qed.

(** Curves and images in equal number are shown in pairs; otherwise the assertion fails. *)
Theorem C61_figure : forall colors left right curves images,
  (length curves = length images -> exists fig, plot_mapped_curves colors left right curves images = Ok fig /\
     shows fig left right colors curves images /\
     (length (fg_pairs fig) = length curves <-> (length curves <= length colors)%nat) /\
     (length colors <= length curves -> length (fg_pairs fig) = length colors)%nat) /\
  (length curves <> length images -> plot_mapped_curves colors left right curves images = Err AssertionError).
Proof.
  intros colors left right curves images. unfold plot_mapped_curves. split; intros H.
  - rewrite H, Nat.eqb_refl. eexists. split; [reflexivity|].
    assert (E : combine (combine curves images) (firstn (length images) colors) = combine (combine curves images) colors).
    { apply combine_firstn_r. rewrite combine_length. lia. }
    split; [|split].
    + split; [reflexivity|]. split; [reflexivity|]. cbn [fg_pairs]. now rewrite zip_curves_eq, E.
    + cbn [fg_pairs]. rewrite zip_curves_eq, E, map_length, !combine_length. lia.
    + cbn [fg_pairs]. rewrite zip_curves_eq, E, map_length, !combine_length. lia.
  - apply Nat.eqb_neq in H. now rewrite H.
Qed.
Print Assumptions C61_figure.

Lemma mapM_exists : forall (f : C -> Res C) (rel : C -> C -> Prop) l, Forall (fun z => exists w, f z = Ok w /\ rel z w) l ->
  exists l', mapM f l = Ok l' /\ Forall2 rel l l'.
Proof.
  intros f rel. induction 1 as [|z l (w & E & R) _ (l' & M & F)]; [exists []; split; [reflexivity|constructor]|].
  exists (w :: l'). split; [cbn [mapM]; rewrite E; cbn [bind]; rewrite M; reflexivity|now constructor].
Qed.

Lemma mapped_exists : forall (f : C -> Res C) (rel : C -> C -> Prop) curves,
  Forall (Forall (fun z => exists w, f z = Ok w /\ rel z w)) curves ->
  exists images, map_curves f curves = Ok images /\ pointwise rel curves images.
Proof.
  intros f rel. unfold map_curves, pointwise. induction 1 as [|c l K _ (l' & M & F)]; [exists []; split; [reflexivity|constructor]|].
  destruct (mapM_exists f rel c K) as (c' & E & G).
  exists (c' :: l'). split; [cbn [mapM]; rewrite E; cbn [bind]; rewrite M; reflexivity|now constructor].
Qed.

(** A picture of mapped curves. *)
Lemma picture : forall colors left right curves f rel,
  Forall (Forall (fun z => exists w, f z = Ok w /\ rel z w)) curves ->
  exists fig images, bind (map_curves f curves) (fun mapped => plot_mapped_curves colors left right curves mapped) = Ok fig /\
    shows fig left right colors curves images /\ pointwise rel curves images /\
    (length (fg_pairs fig) = length curves <-> (length curves <= length colors)%nat).
Proof.
  intros colors left right curves f rel K. destruct (mapped_exists f rel curves K) as (images & M & P).
  assert (L : length curves = length images) by (clear - P; induction P; simpl; congruence). destruct (proj1 (C61_figure colors left right curves images) L) as (fig & E & S & N & _).
  exists fig, images. rewrite M. cbn [bind]. split; [exact E|]. split; [exact S|]. split; [exact P|exact N].
Qed.

(** ** Curves *)

Lemma seq_from : forall n a, seq a n = map (fun k => (a + k)%nat) (seq 0 n).
Proof.
  induction n as [|n IH]; intros a; [reflexivity|]. simpl. rewrite Nat.add_0_r. f_equal. rewrite (IH (S a)), (IH 1%nat), map_map.
  apply map_ext. intros k. lia.
Qed.

Lemma range_nat : forall a b a' n, a = Z.of_nat a' -> b = Z.of_nat (a' + n) -> range a b = map INR (seq a' n).
Proof.
  intros a b a' n -> ->. unfold range. replace (Z.to_nat (Z.of_nat (a' + n) - Z.of_nat a')) with n by lia.
  rewrite (seq_from n a'), map_map. apply map_ext. intros k. now rewrite INR_IZR_INZ, Nat2Z.inj_add.
Qed.

Lemma range_neg : forall n, range (- Z.of_nat n) 0 = map (fun k => - INR k) (rev (seq 1 n)).
Proof.
  intros n. unfold range. replace (Z.to_nat (0 - - Z.of_nat n)) with n by lia.
  induction n as [|n IH]; [reflexivity|]. rewrite (seq_S n 1), rev_app_distr. cbn [rev app map seq]. f_equal.
  - replace (- Z.of_nat (S n) + Z.of_nat 0)%Z with (- Z.of_nat (1 + n))%Z by lia. now rewrite opp_IZR, <- INR_IZR_INZ.
  - rewrite <- IH, <- seq_shift, map_map. apply map_ext. intros k. f_equal. lia.
Qed.

Lemma unit_exp : forall z a, Re z = 0 -> Im z = a -> Cexp z = mkC (cos a) (sin a).
Proof. intros z a R I. unfold Cexp. rewrite R, I, exp_0, !Rmult_1_l. reflexivity. Qed.

Lemma turn : forall k d, d <> 0 -> Cexp (2 * Ci * RtoC PI * RtoC k / RtoC d)%C = mkC (cos (2 * PI * k / d)) (sin (2 * PI * k / d)).
Proof. intros k d D. apply unit_exp; unfold Cdivt, Cinv, Cnorm2; simpl; field; exact D. Qed.

Lemma half_turn : forall k d, d <> 0 -> Cexp (Ci * RtoC PI * RtoC k / RtoC d)%C = mkC (cos (PI * k / d)) (sin (PI * k / d)).
Proof. intros k d D. apply unit_exp; unfold Cdivt, Cinv, Cnorm2; simpl; field; exact D. Qed.

Lemma scaled : forall theta x d, d <> 0 -> (mkC (cos theta) (sin theta) * RtoC x / RtoC d)%C = polar_point (x / d) theta.
Proof. intros theta x d D. unfold polar_point. apply C_ext; unfold Cdivt, Cinv, Cnorm2; simpl; field; exact D. Qed.

Lemma scaled_as : forall theta theta' x d r, d <> 0 -> theta = theta' -> x / d = r ->
  (mkC (cos theta) (sin theta) * RtoC x / RtoC d)%C = polar_point r theta'.
Proof. intros theta theta' x d r D <- <-. now apply scaled. Qed.

Lemma polar_nonzero : forall r theta, r <> 0 -> polar_point r theta <> RtoC 0.
Proof.
  intros r theta N E. pose proof (f_equal Re E) as E1. pose proof (f_equal Im E) as E2. simpl in E1, E2. apply N.
  pose proof (sin2_cos2 theta) as S. unfold Rsqr in S. assert (Q : r * r * (sin theta * sin theta + cos theta * cos theta) = 0) by nra. rewrite S in Q. nra.
Qed.

Lemma polar_abs : forall r theta, 0 <= r -> Cabs (polar_point r theta) = r.
Proof.
  intros r theta P. unfold Cabs, polar_point, Cnorm2. simpl.
  pose proof (sin2_cos2 theta) as S. unfold Rsqr in S. replace (r * cos theta * (r * cos theta) + r * sin theta * (r * sin theta)) with (r * r) by nra.
  now apply sqrt_square.
Qed.

(** ** The square root *)

Definition square_root_curves : list (list C) :=
  [ ray 0 (fractions 20 1 99); ray (2 * PI / 3) (fractions 20 1 99); ray (4 * PI / 3) (fractions 20 1 99);
    circle (1/10) (map (fun k => 2 * PI * k / 100) (map INR (seq 1 99)));
    circle 1 (map (fun k => 2 * PI * k / 100) (map INR (seq 1 99)));
    circle 5 (map (fun k => 2 * PI * k / 100) (map INR (seq 1 99))) ].

Theorem C61_square_root : forall colors, exists fig images, plot_square_root colors = Ok fig /\
  shows fig "z" "sqrt(z)" colors square_root_curves images /\ pointwise is_upper_root square_root_curves images /\
  (length (fg_pairs fig) = 6%nat <-> (6 <= length colors)%nat).
Proof.
  intros colors. unfold plot_square_root.
  rewrite (range_nat 0 3 0 3 eq_refl eq_refl), (range_nat 1 100 1 99 eq_refl eq_refl).
  match goal with |- context [map_curves _ ?c] => assert (E : c = square_root_curves) end.
  { change (seq 0 3) with [0%nat; 1%nat; 2%nat]. unfold square_root_curves, ray, circle, fractions. rewrite !map_map.
    generalize (seq 1 99) as l. intros l. cbn [map app]. rewrite !map_map.
    apply f_equal2; [apply map_ext; intros k; rewrite turn, scaled by lra; f_equal; simpl; field|].
    apply f_equal2; [apply map_ext; intros k; rewrite turn, scaled by lra; f_equal; simpl; field|].
    apply f_equal2; [apply map_ext; intros k; rewrite turn, scaled by lra; f_equal; simpl; field|].
    repeat (apply f_equal2; [apply map_ext; intros k; rewrite turn by lra; unfold polar_point; apply C_ext; simpl; ring|]). reflexivity. }
  rewrite E. apply picture. apply Forall_forall. intros c _. apply Forall_forall. intros z _. exists (square_root z).
  split; [reflexivity|]. now apply C13_square_root_characterised.
Qed.
Print Assumptions C61_square_root.

(** ** The function z - 1/z *)

Definition angle (n k : nat) : R := 2 * PI * INR k / INR n.
Definition reciprocal_curves (n : nat) : list (list C) :=
  map (fun k => ray (angle n k) (fractions 100 10 89)) (seq 0 n) ++ map (fun k => ray (angle n k) (fractions 10 11 99)) (seq 0 n).

(** All 2 n curves appear as long as there are as many colours. *)
Theorem C61_reciprocal : forall colors n, exists fig images, plot_z_minus_its_reciprocal colors (Z.of_nat n) = Ok fig /\
  shows fig "z" "z - 1/z" colors (reciprocal_curves n) images /\
  pointwise (fun z w => Cmul w z = Csub (Cmul z z) (RtoC 1)) (reciprocal_curves n) images /\
  (length (fg_pairs fig) = (2 * n)%nat <-> (2 * n <= length colors)%nat).
Proof.
  intros colors n. unfold plot_z_minus_its_reciprocal.
  rewrite (range_nat 0 (Z.of_nat n) 0 n eq_refl eq_refl), (range_nat 10 99 10 89 eq_refl eq_refl), (range_nat 1 100 1 99 eq_refl eq_refl).
  match goal with |- context [map_curves _ ?c] => assert (E : c = reciprocal_curves n) end.
  { unfold reciprocal_curves, ray, fractions. rewrite !map_map. rewrite <- (seq_shift 99 10). generalize (seq 10 89) as l. intros l.
    assert (N : forall k, In k (seq 0 n) -> INR n <> 0) by (intros k I; apply in_seq in I; apply not_0_INR; lia).
    apply f_equal2; apply map_ext_in; intros k I; rewrite !map_map; rewrite <- INR_IZR_INZ, turn by (apply (N k I)).
    - apply map_ext. intros x. rewrite scaled by lra. reflexivity.
    - rewrite (seq_from 99 1), (seq_from 99 10), !map_map. apply map_ext. intros x. rewrite scaled by lra. f_equal.
      rewrite S_INR, (plus_INR 1), (plus_INR 10). simpl. field. }
  rewrite E.
  assert (L : length (reciprocal_curves n) = (2 * n)%nat) by (unfold reciprocal_curves; rewrite app_length, !map_length, seq_length; lia).
  rewrite <- L. apply picture. apply Forall_forall. intros c I. apply Forall_forall. intros z Iz.
  assert (Z : z <> RtoC 0).
  { unfold reciprocal_curves, ray, fractions in I. apply in_app_or in I.
    destruct I as [I|I]; apply in_map_iff in I; destruct I as (k & <- & _); rewrite map_map in Iz; apply in_map_iff in Iz; destruct Iz as (r & <- & Ir);
      apply in_seq in Ir; apply polar_nonzero; assert (0 < INR r) by (apply lt_0_INR; lia); lra. }
  destruct (proj2 (C13_z_minus_its_reciprocal z) Z) as (y & A & B & _). exists y. split; [exact A|exact B].
Qed.
Print Assumptions C61_reciprocal.

(** No angles, no curves. *)
Theorem C61_reciprocal_none : forall colors n, (n <= 0)%Z -> exists fig, plot_z_minus_its_reciprocal colors n = Ok fig /\ fg_pairs fig = [].
Proof.
  intros colors n L. unfold plot_z_minus_its_reciprocal. replace (range 0 n) with (@nil R).
  - eexists. split; reflexivity.
  - unfold range. replace (Z.to_nat (n - 0)) with 0%nat by lia. reflexivity.
Qed.
Print Assumptions C61_reciprocal_none.

(** ** From W to t *)

Definition w_angles : list R := [2 * PI / 3; 5 * PI / 6; 8 * PI / 7].
Definition inside_curves : list (list C) := map (fun a => ray a (fractions 1000 100 890)) w_angles.
Definition outside_curves : list (list C) := map (fun a => ray a (fractions 100 110 990)) w_angles.

Lemma left_angles : forall a, In a w_angles -> cos a < 0.
Proof.
  intros a I. pose proof PI_RGT_0. destruct I as [<-|[<-|[<-|[]]]]; apply cos_lt_0; lra.
Qed.

(** The curves inside the unit disc come back from the t-plane, those outside come back as their reciprocals. *)
Theorem C61_w_to_t : forall colors t_0 t_in, 0 <= t_0 < t_in -> exists mt fig inside outside,
  MapFromTtoW_init t_0 t_in = Ok mt /\ plot_w_to_t colors t_0 t_in = Ok fig /\
  shows fig "W-plane" "t-plane" colors (inside_curves ++ outside_curves) (inside ++ outside) /\
  pointwise (fun w t => plane_without_cut t_0 t /\ MapFromTtoW_call mt t = Ok w) inside_curves inside /\
  pointwise (fun w t => plane_without_cut t_0 t /\ MapFromTtoW_call mt t = Ok (Cinv w)) outside_curves outside /\
  (length (fg_pairs fig) = 6%nat <-> (6 <= length colors)%nat).
Proof.
  intros colors t_0 t_in H. destruct (C10_constructors_accept t_0 t_in H) as (mt & mw & A & B).
  destruct (C11_round_trip_W_t_W t_0 t_in mt mw H A B) as (RT & _).
  assert (IN : Forall (Forall (fun w => exists t, MapFromWtoT_call mw w = Ok t /\ (plane_without_cut t_0 t /\ MapFromTtoW_call mt t = Ok w))) inside_curves).
  { apply Forall_forall. intros c I. apply Forall_forall. intros w Iw. unfold inside_curves in I. apply in_map_iff in I. destruct I as (a & <- & Ia).
    unfold ray, fractions in Iw. rewrite map_map in Iw. apply in_map_iff in Iw. destruct Iw as (k & <- & Ik). apply in_seq in Ik.
    assert (K : 0 < INR k / 1000 < 1).
    { assert (0 < INR k) by (apply lt_0_INR; lia). assert (INR k < INR 1000) by (apply lt_INR; lia). replace (INR 1000) with 1000 in H1 by (rewrite INR_IZR_INZ; reflexivity). lra. }
    pose proof (left_angles a Ia) as La.
    destruct (RT (polar_point (INR k / 1000) a)) as (t & P & Q & R).
    { split; [simpl; nra|]. rewrite polar_abs by lra. lra. }
    exists t. split; [exact Q|]. split; [exact P|exact R]. }
  assert (OUT : Forall (Forall (fun w => exists t, MapFromWtoT_call mw w = Ok t /\ (plane_without_cut t_0 t /\ MapFromTtoW_call mt t = Ok (Cinv w)))) outside_curves).
  { apply Forall_forall. intros c I. apply Forall_forall. intros w Iw. unfold outside_curves in I. apply in_map_iff in I. destruct I as (a & <- & Ia).
    unfold ray, fractions in Iw. rewrite map_map in Iw. apply in_map_iff in Iw. destruct Iw as (k & <- & Ik). apply in_seq in Ik.
    assert (K : 1 < INR k / 100).
    { assert (INR 100 < INR k) by (apply lt_INR; lia). replace (INR 100) with 100 in H0 by (rewrite INR_IZR_INZ; reflexivity). lra. }
    pose proof (left_angles a Ia) as La. set (w := polar_point (INR k / 100) a).
    assert (NZ : w <> RtoC 0) by (apply polar_nonzero; lra).
    assert (ND : 0 < Cnorm2 w) by now apply Cnorm2_pos.
    destruct (RT (Cinv w)) as (t & P & Q & R).
    { split.
      - assert (Re w < 0) by (unfold w; simpl; nra). change (Re w / Cnorm2 w < 0). clearbody w. unfold Rdiv. assert (0 < / Cnorm2 w) by now apply Rinv_0_lt_compat. nra.
      - rewrite Cabs_inv by exact NZ. unfold w. rewrite polar_abs by lra. rewrite <- Rinv_1. apply Rinv_lt_contravar; lra. }
    exists t. split; [|split; [exact P|exact R]].
    destruct (WtoT_sheets mw (Cinv w) t Q) as (_ & S). destruct (WtoT_sheets mw (other_sheet (Cinv w)) t S) as (S' & _).
    unfold other_sheet in S'. assert (D : Copp (Copp (Cinv (Cinv w))) = w).
    { transitivity (Cinv (Cinv w)); [ring|]. field. split; [exact NZ|]. intros E. apply (f_equal Re) in E. simpl in E. lra. }
    now rewrite D in S'. }
  destruct (mapped_exists _ _ _ IN) as (inside & M1 & P1). destruct (mapped_exists _ _ _ OUT) as (outside & M2 & P2).
  assert (M : map_curves (MapFromWtoT_call mw) (inside_curves ++ outside_curves) = Ok (inside ++ outside)).
  { clear - M1 M2. unfold map_curves in *. revert inside M1. generalize inside_curves as l. induction l as [|c l IH]; intros inside M1; cbn [mapM app] in *.
    - injection M1 as <-. exact M2.
    - destruct (mapM (MapFromWtoT_call mw) c) as [x|e]; [|discriminate M1]. cbn [bind] in *.
      destruct (mapM (mapM (MapFromWtoT_call mw)) l) as [y|e]; [|discriminate M1]. cbn [bind] in *. injection M1 as <-. now rewrite (IH y eq_refl). }
  assert (LE : length (inside_curves ++ outside_curves) = length (inside ++ outside)).
  { rewrite !app_length. f_equal; [clear - P1; induction P1; simpl; congruence|clear - P2; induction P2; simpl; congruence]. }
  destruct (proj1 (C61_figure colors "W-plane" "t-plane" _ _) LE) as (fig & F & S & N & _).
  exists mt, fig, inside, outside. split; [exact A|]. split; [|split; [exact S|split; [exact P1|split; [exact P2|exact N]]]].
  unfold plot_w_to_t. rewrite (range_nat 100 990 100 890 eq_refl eq_refl), (range_nat 10 1000 10 990 eq_refl eq_refl).
  match goal with |- context [map_curves _ ?c] => assert (E : c = inside_curves ++ outside_curves) end.
  { unfold inside_curves, outside_curves, ray, fractions, w_angles. rewrite (seq_from 990 110), (seq_from 990 10). generalize (seq 100 890) as l. generalize (seq 0 990) as m.
    intros m l. rewrite !half_turn by lra. cbn [map app]. rewrite !map_map.
    assert (X : forall x, INR (10 + x) + 100 = INR (110 + x)).
    { intros x. rewrite !plus_INR. replace (INR 10) with 10 by (rewrite INR_IZR_INZ; reflexivity). replace (INR 110) with 110 by (rewrite INR_IZR_INZ; reflexivity). ring. }
    repeat (apply f_equal2; [apply map_ext; intros k; rewrite ?X; apply scaled_as; [lra|field|reflexivity]|]). reflexivity. }
  rewrite E, B. cbn [bind]. rewrite M. exact F.
Qed.
Print Assumptions C61_w_to_t.

(** ** From t to W *)

Definition below (t_0 : R) : list C := map (fun k => RtoC (t_0 - INR k / 10)) (seq 1 999).
Definition between (t_0 t_in : R) : list C := map (fun k => RtoC (t_0 + (t_in - t_0) * (INR k / 100))) (seq 1 99).
Definition above (t_in : R) : list C := map (fun k => RtoC (t_in + INR k / 10)) (seq 1 999).
Definition level (y : R) (xs : list R) : list C := map (fun x => mkC x y) xs.
Definition minus_20 : list C := level (-20) (map Ropp (rev (fractions 10 1 1000)) ++ fractions 10 1 999).
Definition diagonal : list C := map (fun x => mkC x x) (fractions 10 1 999).
Definition upright : list C := map (fun y => mkC 17 y) (fractions 10 1 999).

Definition off_axis (t w : C) : Prop := Re w < 0 /\ Cabs w < 1 /\ (0 < Im t -> 0 < Im w) /\ (Im t < 0 -> Im w < 0).

Lemma fractions_pos : forall d a n x, 0 < d -> (0 < a)%nat -> In x (fractions d a n) -> 0 < x.
Proof.
  intros d a n x D A I. unfold fractions in I. apply in_map_iff in I. destruct I as (k & <- & I). apply in_seq in I.
  apply Rdiv_lt_0_compat; [apply lt_0_INR; lia|exact D].
Qed.

Section TtoW.
Variables t_0 t_in : R.
Hypothesis order : 0 <= t_0 < t_in.
Variables (mt : MapTW) (mw : MapWT).
Hypothesis A : MapFromTtoW_init t_0 t_in = Ok mt.
Hypothesis B : MapFromWtoT_init t_0 t_in = Ok mw.

Lemma goes_back : forall t, t <> RtoC t_0 -> t <> RtoC t_in -> exists w, MapFromTtoW_call mt t = Ok w /\ MapFromWtoT_call mw w = Ok t.
Proof. exact (proj1 (C10_round_trip_t_W_t t_0 t_in mt mw order A B)). Qed.

Definition image (place : C -> C -> Prop) (t w : C) : Prop := MapFromWtoT_call mw w = Ok t /\ place t w.

Lemma below_image : Forall (fun t => exists w, MapFromTtoW_call mt t = Ok w /\ image (fun _ w => Im w = 0 /\ -1 < Re w < 0) t w) (below t_0).
Proof.
  apply Forall_forall. intros t I. unfold below in I. apply in_map_iff in I. destruct I as (k & <- & I). apply in_seq in I.
  assert (0 < INR k) by (apply lt_0_INR; lia).
  destruct (goes_back (RtoC (t_0 - INR k / 10))) as (w & P & Q); [intros E; apply RtoC_inj in E; lra|intros E; apply RtoC_inj in E; lra|].
  exists w. split; [exact P|]. split; [exact Q|]. apply (C12_image t_0 t_in mt order A _ w P); simpl; [reflexivity|lra].
Qed.

Lemma between_image : Forall (fun t => exists w, MapFromTtoW_call mt t = Ok w /\ image (fun _ w => Re w = 0 /\ 0 < Im w < 1) t w) (between t_0 t_in).
Proof.
  apply Forall_forall. intros t I. unfold between in I. apply in_map_iff in I. destruct I as (k & <- & I). apply in_seq in I.
  assert (0 < INR k) by (apply lt_0_INR; lia). assert (INR k < INR 100) by (apply lt_INR; lia). replace (INR 100) with 100 in H0 by (rewrite INR_IZR_INZ; reflexivity).
  assert (K : 0 < INR k / 100 < 1) by lra. assert (U : t_0 < t_0 + (t_in - t_0) * (INR k / 100) < t_in) by nra.
  destruct (goes_back (RtoC (t_0 + (t_in - t_0) * (INR k / 100)))) as (w & P & Q); [intros E; apply RtoC_inj in E; lra|intros E; apply RtoC_inj in E; lra|].
  exists w. split; [exact P|]. split; [exact Q|]. apply (C12_image t_0 t_in mt order A _ w P); simpl; [reflexivity|exact U].
Qed.

Lemma above_image : Forall (fun t => exists w, MapFromTtoW_call mt t = Ok w /\ image (fun _ w => Cabs w = 1 /\ Re w < 0 /\ 0 < Im w) t w) (above t_in).
Proof.
  apply Forall_forall. intros t I. unfold above in I. apply in_map_iff in I. destruct I as (k & <- & I). apply in_seq in I.
  assert (0 < INR k) by (apply lt_0_INR; lia).
  destruct (goes_back (RtoC (t_in + INR k / 10))) as (w & P & Q); [intros E; apply RtoC_inj in E; lra|intros E; apply RtoC_inj in E; lra|].
  exists w. split; [exact P|]. split; [exact Q|]. apply (C12_image t_0 t_in mt order A _ w P); simpl; [reflexivity|lra].
Qed.

Lemma off_image : forall c, (forall t, In t c -> Im t <> 0) -> Forall (fun t => exists w, MapFromTtoW_call mt t = Ok w /\ image off_axis t w) c.
Proof.
  intros c H. apply Forall_forall. intros t I. specialize (H t I).
  destruct (goes_back t) as (w & P & Q); [intros E; apply H; now rewrite E|intros E; apply H; now rewrite E|].
  exists w. split; [exact P|]. split; [exact Q|].
  destruct (C12_image t_0 t_in mt order A _ w P) as (_ & D & _ & _ & _ & U & L). destruct D as (D1 & D2); [intros (E & _); contradiction|].
  split; [exact D1|]. split; [exact D2|]. split; [exact U|exact L].
Qed.
End TtoW.

Definition t_curves (t_0 t_in : R) : list (list C) :=
  [ below t_0; between t_0 t_in; above t_in; level 54 (map Ropp (fractions 10 1 999)); level 54 (fractions 10 1 999); minus_20; diagonal; upright ].

Lemma off_axis_curves : forall c t, In c [level 54 (map Ropp (fractions 10 1 999)); level 54 (fractions 10 1 999); minus_20; diagonal; upright] -> In t c -> Im t <> 0.
Proof.
  intros c t I J. destruct I as [<-|[<-|[<-|[<-|[<-|[]]]]]]; unfold minus_20, level, diagonal, upright in J; apply in_map_iff in J; destruct J as (x & <- & J); simpl; try lra.
  - pose proof (fractions_pos 10 1 999 x ltac:(lra) ltac:(lia) J). lra.
  - pose proof (fractions_pos 10 1 999 x ltac:(lra) ltac:(lia) J). lra.
Qed.

(** The lists of numbers the two scripts write down. *)
Lemma below_eq : forall t_0, map (fun n => RtoC (n * - (1/10) + t_0)) (range 1 1000) = below t_0.
Proof. intros t_0. rewrite (range_nat 1 1000 1 999 eq_refl eq_refl), map_map. unfold below. apply map_ext. intros k. f_equal. field. Qed.
Lemma between_eq : forall t_0 t_in, map (fun n => RtoC ((t_in - t_0) * n * (1/100) + t_0)) (range 1 100) = between t_0 t_in.
Proof. intros t_0 t_in. rewrite (range_nat 1 100 1 99 eq_refl eq_refl), map_map. unfold between. apply map_ext. intros k. f_equal. field. Qed.
Lemma above_eq : forall t_in, map (fun n => RtoC (n * (1/10) + t_in)) (range 1 1000) = above t_in.
Proof. intros t_in. rewrite (range_nat 1 1000 1 999 eq_refl eq_refl), map_map. unfold above. apply map_ext. intros k. f_equal. field. Qed.
Lemma level_neg_eq : map (fun n => (RtoC (n * - (1/10)) + RtoC 54 * Ci)%C) (range 1 1000) = level 54 (map Ropp (fractions 10 1 999)).
Proof. rewrite (range_nat 1 1000 1 999 eq_refl eq_refl). unfold level, fractions. rewrite !map_map. apply map_ext. intros k. apply C_ext; simpl; field. Qed.
Lemma level_pos_eq : map (fun n => (RtoC (n * (1/10)) + RtoC 54 * Ci)%C) (range 1 1000) = level 54 (fractions 10 1 999).
Proof. rewrite (range_nat 1 1000 1 999 eq_refl eq_refl). unfold level, fractions. rewrite !map_map. apply map_ext. intros k. apply C_ext; simpl; field. Qed.
Lemma minus_20_eq : map (fun n => (RtoC (n * (1/10)) - RtoC 20 * Ci)%C) (range (-1000) 0) ++ map (fun n => (RtoC (n * (1/10)) - RtoC 20 * Ci)%C) (range 1 1000) = minus_20.
Proof.
  assert (E : range (-1000) 0 = map (fun k => - INR k) (rev (seq 1 1000))) by exact (range_neg 1000).
  rewrite E, (range_nat 1 1000 1 999 eq_refl eq_refl). unfold minus_20, level, fractions. rewrite map_app, <- map_rev, !map_map.
  f_equal; apply map_ext; intros k; apply C_ext; simpl; field.
Qed.
Lemma diagonal_eq : map (fun n => (RtoC n * (RtoC (1/10) + RtoC (1/10) * Ci))%C) (range 1 1000) = diagonal.
Proof. rewrite (range_nat 1 1000 1 999 eq_refl eq_refl). unfold diagonal, fractions. rewrite !map_map. apply map_ext. intros k. apply C_ext; simpl; field. Qed.
Lemma upright_eq : map (fun n => (RtoC n * (RtoC (1/10) * Ci) + RtoC 17)%C) (range 1 1000) = upright.
Proof. rewrite (range_nat 1 1000 1 999 eq_refl eq_refl). unfold upright, fractions. rewrite !map_map. apply map_ext. intros k. apply C_ext; simpl; field. Qed.

(** All eight curves have images; each image goes back to its point and lies where it should: the curve below the
    threshold on the real axis, the one between the branch points on the imaginary axis, the one above on the unit circle,
    all others inside the left half disc on the side of the real axis of their point. *)
Theorem C61_t_to_w : forall colors t_0 t_in, 0 <= t_0 < t_in -> exists mw fig b m a others,
  MapFromWtoT_init t_0 t_in = Ok mw /\ plot_t_to_w colors t_0 t_in = Ok fig /\
  shows fig "t-plane" "W-plane" colors (t_curves t_0 t_in) ([b; m; a] ++ others) /\
  Forall2 (image mw (fun _ w => Im w = 0 /\ -1 < Re w < 0)) (below t_0) b /\
  Forall2 (image mw (fun _ w => Re w = 0 /\ 0 < Im w < 1)) (between t_0 t_in) m /\
  Forall2 (image mw (fun _ w => Cabs w = 1 /\ Re w < 0 /\ 0 < Im w)) (above t_in) a /\
  pointwise (image mw off_axis) (skipn 3 (t_curves t_0 t_in)) others /\
  (length (fg_pairs fig) = 8%nat <-> (8 <= length colors)%nat).
Proof.
  intros colors t_0 t_in H. destruct (C10_constructors_accept t_0 t_in H) as (mt & mw & A & B).
  destruct (mapM_exists _ _ _ (below_image t_0 t_in H mt mw A B)) as (b & M1 & P1).
  destruct (mapM_exists _ _ _ (between_image t_0 t_in H mt mw A B)) as (m & M2 & P2).
  destruct (mapM_exists _ _ _ (above_image t_0 t_in H mt mw A B)) as (a & M3 & P3).
  destruct (mapped_exists (MapFromTtoW_call mt) (image mw off_axis) (skipn 3 (t_curves t_0 t_in))) as (others & M4 & P4).
  { apply Forall_forall. intros c I. apply (off_image t_0 t_in H mt mw A B). intros t. exact (off_axis_curves c t I). }
  assert (LE : length (t_curves t_0 t_in) = length ([b; m; a] ++ others)).
  { assert (L : length (skipn 3 (t_curves t_0 t_in)) = length others) by (clear - P4; induction P4; simpl; congruence). exact (f_equal (fun x => S (S (S x))) L). }
  destruct (proj1 (C61_figure colors "t-plane" "W-plane" _ _) LE) as (fig & F & S & N & _).
  exists mw, fig, b, m, a, others. split; [exact B|]. split; [|split; [exact S|split; [exact P1|split; [exact P2|split; [exact P3|split; [exact P4|exact N]]]]]].
  unfold plot_t_to_w. rewrite below_eq, between_eq, above_eq, level_neg_eq, level_pos_eq, minus_20_eq, diagonal_eq, upright_eq.
  change [below t_0; between t_0 t_in; above t_in; level 54 (map Ropp (fractions 10 1 999)); level 54 (fractions 10 1 999); minus_20; diagonal; upright] with (t_curves t_0 t_in).
  rewrite A. cbn [bind].
  assert (M : map_curves (MapFromTtoW_call mt) (t_curves t_0 t_in) = Ok ([b; m; a] ++ others)).
  { change (t_curves t_0 t_in) with ([below t_0; between t_0 t_in; above t_in] ++ skipn 3 (t_curves t_0 t_in)). unfold map_curves in *. cbn [app mapM].
    rewrite M1. cbn [bind]. rewrite M2. cbn [bind]. rewrite M3. cbn [bind]. rewrite M4. reflexivity. }
  rewrite M. exact F.
Qed.
Print Assumptions C61_t_to_w.

(** Otherwise: equal branch points have no image of the second curve; unordered or negative ones are refused. *)
Theorem C61_branch_points : forall colors t_0 t_in,
  (0 <= t_0 -> t_in = t_0 -> plot_t_to_w colors t_0 t_in = Err ZeroDivisionError) /\
  (t_0 < 0 \/ t_in < t_0 -> plot_t_to_w colors t_0 t_in = Err ValueError /\ plot_w_to_t colors t_0 t_in = Err ValueError).
Proof.
  intros colors t_0 t_in. split.
  - intros P ->. unfold plot_t_to_w. rewrite below_eq, between_eq. rewrite MapTW_init_ok by lra. cbn [bind]. unfold map_curves. cbn [mapM].
    change (mkMapTW t_0 t_0 (sqrt (t_0 - t_0))) with (tw t_0 t_0).
    assert (C1 : Forall (fun t => exists w, MapFromTtoW_call (tw t_0 t_0) t = Ok w /\ True) (below t_0)).
    { apply Forall_forall. intros t I. unfold below in I. apply in_map_iff in I. destruct I as (k & <- & I). apply in_seq in I.
      assert (K : 0 < INR k) by (apply lt_0_INR; lia). unfold MapFromTtoW_call, tw. cbn [tw_t_0 tw_a].
      set (z := square_root (RtoC (t_0 - INR k / 10) - RtoC t_0)%C).
      assert (ZZ : Cmul z z = RtoC (- (INR k / 10))).
      { unfold z. rewrite square_root_sq. apply C_ext; simpl; ring. }
      assert (NZ : z <> RtoC 0) by (intros E; rewrite E in ZZ; apply (f_equal Re) in ZZ; simpl in ZZ; lra).
      rewrite Rminus_diag_eq, sqrt_0 by reflexivity.
      rewrite cdiv_ok by (intros E; apply NZ; transitivity (Copp (Cadd (Copp z) (RtoC 0))); [ring|rewrite E; apply C_ext; simpl; ring]).
      cbn [bind].
      assert (Q : Cdivt (Cadd z (RtoC 0)) (Cadd (Copp z) (RtoC 0)) = RtoC (-1)).
      { replace (Cadd z (RtoC 0)) with z by ring. replace (Cadd (Copp z) (RtoC 0)) with (Copp z) by ring.
        transitivity (Copp (RtoC 1)); [field; intros E; apply NZ; transitivity (Copp (Copp z)); [ring|rewrite E; apply C_ext; simpl; ring]|apply C_ext; simpl; ring]. }
      rewrite Q. assert (V : square_root (RtoC (-1)) = Ci).
      { apply C13_square_root_characterised. split; [apply C_ext; simpl; ring|]. simpl. split; [lra|intros E; lra]. }
      rewrite V. rewrite cdiv_ok by (intros E; apply (f_equal Re) in E; simpl in E; lra). eexists. split; [reflexivity|exact Logic.I]. }
    destruct (mapM_exists _ _ _ C1) as (b & -> & _). cbn [bind].
    assert (C2 : mapM (MapFromTtoW_call (tw t_0 t_0)) (between t_0 t_0) = Err ZeroDivisionError).
    { unfold between. cbn [seq map mapM]. unfold MapFromTtoW_call, tw. cbn [tw_t_0 tw_a].
      replace (Csub (RtoC (t_0 + (t_0 - t_0) * (INR 1 / 100))) (RtoC t_0)) with (RtoC 0) by (apply C_ext; simpl; lra).
      rewrite square_root_nonneg by lra. rewrite sqrt_0, Rminus_diag_eq, sqrt_0 by reflexivity.
      replace (Cadd (Copp (RtoC 0)) (RtoC 0)) with (RtoC 0) by (apply C_ext; simpl; ring). rewrite cdiv_zero. reflexivity. }
    rewrite C2. reflexivity.
  - intros H. unfold plot_t_to_w, plot_w_to_t, MapFromTtoW_init, MapFromWtoT_init, validate_branch_point_positions.
    destruct (Rlt_dec t_0 0) as [L|L]; [split; reflexivity|]. destruct (Rlt_dec t_in t_0) as [L'|L']; [split; reflexivity|]. exfalso. destruct H; lra.
Qed.
Print Assumptions C61_branch_points.

(** ** The script that compares the inverse maps *)

Definition compared : list C := [RtoC (5/100); mkC (17/10) 1; mkC 8123 (-721); mkC (-74/10) (5/10)].
Definition script_curves : list (list C) := [below 1; between 1 2; above 2; minus_20; diagonal].

(** All three versions take every printed point back to itself, and every drawn point has an image under each version that
    goes back to it; the figure shows the version with the principal root. *)
Theorem C61_inverse_maps : forall colors, exists mt mw fig images,
  MapFromTtoW_init 1 2 = Ok mt /\ MapFromWtoT_init 1 2 = Ok mw /\
  inverse_maps_script colors = Ok (map (fun t => (t, t, t, t)) compared, fig) /\
  shows fig "t-plane" "W-plane" colors script_curves images /\
  pointwise (fun t w => t_to_w_version3 1 2 t = Ok w /\ MapFromWtoT_call mw w = Ok t) script_curves images /\
  (forall f, In f [MapFromTtoW_call mt; t_to_w_version2 1 2; t_to_w_version3 1 2] -> exists fig', plot_inverse_map colors f = Ok fig') /\
  (length (fg_pairs fig) = 5%nat <-> (5 <= length colors)%nat).
Proof.
  intros colors. assert (H : 0 < 1 < 2) by lra. assert (H' : 0 <= 1 < 2) by lra.
  destruct (C10_constructors_accept 1 2 H') as (mt & mw & A & B).
  destruct (C10_round_trip_t_W_t 1 2 mt mw H' A B) as (R & _).
  assert (AWAY : forall c t, In c script_curves -> In t c -> t <> RtoC 1 /\ t <> RtoC 2).
  { intros c t I J. assert (OFF : Im t <> 0 -> t <> RtoC 1 /\ t <> RtoC 2) by (intros N; split; intros ->; now apply N).
    destruct I as [<-|[<-|[<-|[<-|[<-|[]]]]]].
    - unfold below in J. apply in_map_iff in J. destruct J as (k & <- & K). apply in_seq in K. assert (0 < INR k) by (apply lt_0_INR; lia).
      split; intros E; apply RtoC_inj in E; lra.
    - unfold between in J. apply in_map_iff in J. destruct J as (k & <- & K). apply in_seq in K. assert (0 < INR k) by (apply lt_0_INR; lia).
      assert (INR k < INR 100) by (apply lt_INR; lia). replace (INR 100) with 100 in H1 by (rewrite INR_IZR_INZ; reflexivity).
      split; intros E; apply RtoC_inj in E; lra.
    - unfold above in J. apply in_map_iff in J. destruct J as (k & <- & K). apply in_seq in K. assert (0 < INR k) by (apply lt_0_INR; lia).
      split; intros E; apply RtoC_inj in E; lra.
    - apply OFF. apply (off_axis_curves minus_20 t); [right; right; now left|exact J].
    - apply OFF. apply (off_axis_curves diagonal t); [right; right; right; now left|exact J]. }
  assert (IMG : forall f, In f [MapFromTtoW_call mt; t_to_w_version2 1 2; t_to_w_version3 1 2] -> forall t, t <> RtoC 1 -> t <> RtoC 2 ->
     exists w, f t = Ok w /\ (f t = Ok w /\ MapFromWtoT_call mw w = Ok t)).
  { intros f I t N0 N1. destruct (C47_right_inverses 1 2 mw t H B N0) as ((w2 & P2 & Q2) & (w3 & P3 & Q3)). destruct (R t N0 N1) as (w1 & P1 & Q1).
    destruct I as [<-|[<-|[<-|[]]]]; [exists w1|exists w2|exists w3]; auto. }
  assert (PIC : forall f, In f [MapFromTtoW_call mt; t_to_w_version2 1 2; t_to_w_version3 1 2] -> exists fig images, plot_inverse_map colors f = Ok fig /\
     shows fig "t-plane" "W-plane" colors script_curves images /\ pointwise (fun t w => f t = Ok w /\ MapFromWtoT_call mw w = Ok t) script_curves images /\
     (length (fg_pairs fig) = length script_curves <-> (length script_curves <= length colors)%nat)).
  { intros f I. unfold plot_inverse_map. rewrite below_eq, between_eq, above_eq, minus_20_eq, diagonal_eq. fold script_curves. apply picture.
    apply Forall_forall. intros c Ic. apply Forall_forall. intros t It. destruct (AWAY c t Ic It) as (N0 & N1). exact (IMG f I t N0 N1). }
  destruct (PIC (t_to_w_version3 1 2)) as (fig & images & F & S & P & N); [cbn; tauto|].
  exists mt, mw, fig, images. split; [exact A|]. split; [exact B|]. split; [|split; [exact S|split; [exact P|split; [|exact N]]]].
  - unfold inverse_maps_script. rewrite A, B. cbn [bind]. rewrite F.
    assert (ROW : forall t, t <> RtoC 1 -> t <> RtoC 2 ->
       bind (MapFromTtoW_call mt t) (fun w1 => bind (MapFromWtoT_call mw w1) (fun x1 => bind (t_to_w_version2 1 2 t) (fun w2 =>
       bind (MapFromWtoT_call mw w2) (fun x2 => bind (t_to_w_version3 1 2 t) (fun w3 => bind (MapFromWtoT_call mw w3) (fun x3 => Ok (t, x1, x2, x3))))))) = Ok (t, t, t, t)).
    { intros t N0 N1. destruct (IMG _ (or_introl eq_refl) t N0 N1) as (w1 & -> & _ & E1). cbn [bind]. rewrite E1. cbn [bind].
      destruct (IMG _ (or_intror (or_introl eq_refl)) t N0 N1) as (w2 & -> & _ & E2). cbn [bind]. rewrite E2. cbn [bind].
      destruct (IMG _ (or_intror (or_intror (or_introl eq_refl))) t N0 N1) as (w3 & -> & _ & E3). cbn [bind]. rewrite E3. reflexivity. }
    cbn [mapM]. rewrite !ROW; [reflexivity| | | | | | | |];
      first [intros E; apply RtoC_inj in E; lra | intros E; apply (f_equal Im) in E; simpl in E; lra].
  - intros f I. destruct (PIC f I) as (fig' & _ & E & _). now exists fig'.
Qed.
Print Assumptions C61_inverse_maps.

(** With 148 colours 74 angles are drawn, 75 are not: two of the 150 curves have no colour. *)
Example C61_instance : forall colors, length colors = 148%nat ->
  (exists fig, plot_z_minus_its_reciprocal colors 74 = Ok fig /\ length (fg_pairs fig) = 148%nat) /\
  (exists fig, plot_z_minus_its_reciprocal colors 75 = Ok fig /\ length (fg_pairs fig) = 148%nat) /\
  (exists fig, plot_complex_script colors = Ok fig /\ length (fg_pairs fig) = 8%nat).
Proof.
  intros colors L. split; [|split].
  - destruct (C61_reciprocal colors 74) as (fig & images & E & _ & _ & N). exists fig. split; [exact E|]. apply N. rewrite L. lia.
  - destruct (C61_reciprocal colors 75) as (fig & images & E & (_ & _ & S) & P & _). exists fig. split; [exact E|].
    rewrite S, map_length, !combine_length, L. assert (LE : length (reciprocal_curves 75) = length images) by (clear - P; induction P; simpl; congruence).
    rewrite <- LE. reflexivity.
  - destruct (C61_t_to_w colors 1 2) as (mw & fig & b & m & a & others & _ & E & _ & _ & _ & _ & _ & N); [lra|]. exists fig. split; [exact E|]. apply N. rewrite L. lia.
Qed.
