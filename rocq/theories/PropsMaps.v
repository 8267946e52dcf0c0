(** Properties C10 - C13: the coordinate maps and [square_root]. *)
From Coq Require Import Reals Lra.
From Verif Require Import PyBase CNum UAMaps MapProofs ComponentProofs.
Local Open Scope R_scope.

(** Specification vocabulary. *)
Definition plane_without_cut (t_0 : R) (t : C) : Prop := ~ (Im t = 0 /\ t_0 <= Re t).
Definition open_left_half_disc (w : C) : Prop := Re w < 0 /\ Cabs w < 1.

Lemma plane_cut : forall t_0 t, plane_without_cut t_0 t <-> ~ on_cut (Csub t (RtoC t_0)).
Proof.
  intros t_0 t. unfold plane_without_cut, on_cut. simpl. split; intros H [A B]; apply H; lra.
Qed.

Lemma wt_init_inv : forall t_0 t_in mw, MapFromWtoT_init t_0 t_in = Ok mw ->
  mw = mkMapWT t_0 t_in (t_in - t_0).
Proof. intros t_0 t_in mw H. unfold MapFromWtoT_init in H. res_inv. reflexivity. Qed.

(** ** C10 *)
Theorem C10_round_trip_t_W_t : forall t_0 t_in mt mw, 0 <= t_0 < t_in ->
  MapFromTtoW_init t_0 t_in = Ok mt -> MapFromWtoT_init t_0 t_in = Ok mw ->
  (forall t, t <> RtoC t_0 -> t <> RtoC t_in ->
     exists w, MapFromTtoW_call mt t = Ok w /\ MapFromWtoT_call mw w = Ok t) /\
  MapFromTtoW_call mt (RtoC t_in) = Err ZeroDivisionError /\
  MapFromTtoW_call mt (RtoC t_0) = Ok (RtoC 0) /\
  MapFromWtoT_call mw (RtoC 0) = Err ZeroDivisionError.
Proof.
  intros t_0 t_in mt mw [H0 H1] A B. apply MapTW_init_inv in A. destruct A as [_ ->].
  apply wt_init_inv in B. subst mw. fold (tw t_0 t_in). repeat split.
  - intros t Ht0 Htin. exists (Wt t_0 t_in t). split; [now apply Map_call_ok|].
    now apply round_trip_t.
  - now apply Map_call_tin.
  - rewrite Map_call_ok; [now rewrite Wt_at_t0|assumption|].
    intros E. apply RtoC_inj in E. lra.
  - unfold MapFromWtoT_call, z_minus_its_reciprocal. now rewrite cdiv_zero.
Qed.
Print Assumptions C10_round_trip_t_W_t.

(** Both constructors accept every such pair. *)
Theorem C10_constructors_accept : forall t_0 t_in, 0 <= t_0 < t_in ->
  exists mt mw, MapFromTtoW_init t_0 t_in = Ok mt /\ MapFromWtoT_init t_0 t_in = Ok mw.
Proof.
  intros t_0 t_in H. rewrite MapTW_init_ok by lra. unfold MapFromWtoT_init.
  rewrite (proj2 (validate_ok_iff t_0 t_in)) by lra. simpl. eauto.
Qed.
Print Assumptions C10_constructors_accept.

(** A concrete pair: with branch points 0 and 9 the point -16 goes to -1/2 and back. *)
Example C10_instance : exists mt mw,
  MapFromTtoW_init 0 9 = Ok mt /\ MapFromWtoT_init 0 9 = Ok mw /\
  MapFromTtoW_call mt (RtoC (-16)) = Ok (RtoC (-1/2)) /\
  MapFromWtoT_call mw (RtoC (-1/2)) = Ok (RtoC (-16)).
Proof.
  assert (L : 0 < 9) by lra.
  assert (B : MapFromWtoT_call (mkMapWT 0 9 (9 - 0)) (RtoC (-1/2)) = Ok (RtoC (-16))).
  { unfold MapFromWtoT_call, z_minus_its_reciprocal.
    rewrite cdiv_ok by (apply RtoC_neq0; lra). simpl.
    replace (Csub (RtoC (-1/2)) (Cdivt 1 (RtoC (-1/2)))) with (RtoC (3/2)).
    - rewrite cdiv_ok.
      + simpl. f_equal. Cext; unfold Cnorm2; simpl; field.
      + replace (Csq (RtoC (3/2))) with (RtoC (9/4)) by (Cext; field). apply RtoC_neq0; lra.
    - Cext; unfold Cnorm2; simpl; field. }
  exists (tw 0 9), (mkMapWT 0 9 (9 - 0)).
  split; [now apply MapTW_init_ok; lra|]. split.
  { unfold MapFromWtoT_init. now rewrite (proj2 (validate_ok_iff 0 9)) by lra. }
  split; [|assumption].
  destruct (round_trip_w 0 9 L (RtoC (-1/2))) as [t [E [N F]]].
  { simpl. lra. }
  { apply Cabs_lt_1. unfold Cnorm2. simpl. lra. }
  rewrite B in E. injection E as E. rewrite E.
  rewrite Map_call_ok by assumption. now rewrite F.
Qed.

(** ** C11 *)
Theorem C11_round_trip_W_t_W : forall t_0 t_in mt mw, 0 <= t_0 < t_in ->
  MapFromTtoW_init t_0 t_in = Ok mt -> MapFromWtoT_init t_0 t_in = Ok mw ->
  (forall w, open_left_half_disc w -> exists t, plane_without_cut t_0 t /\
     MapFromWtoT_call mw w = Ok t /\ MapFromTtoW_call mt t = Ok w) /\
  (forall t, plane_without_cut t_0 t -> exists w, open_left_half_disc w /\
     MapFromTtoW_call mt t = Ok w /\ MapFromWtoT_call mw w = Ok t).
Proof.
  intros t_0 t_in mt mw [H0 H1] A B. apply MapTW_init_inv in A. destruct A as [_ ->].
  apply wt_init_inv in B. subst mw. fold (tw t_0 t_in). split.
  - intros w [Hr Ha]. destruct (round_trip_w t_0 t_in H1 w Hr Ha) as [t [E [N F]]].
    exists t. split.
    + apply plane_cut. intros On.
      destruct (on_cut_image t_0 t_in H1 t N On) as [[P _]|[P _]]; rewrite F in P; lra.
    + split; [assumption|]. rewrite Map_call_ok by assumption. now rewrite F.
  - intros t Ht. apply plane_cut in Ht. exists (Wt t_0 t_in t). split.
    + now apply Wt_off_cut.
    + split.
      * apply Map_call_ok; [assumption|]. now apply (off_cut_neq_tin t_0).
      * apply round_trip_t; [assumption| |].
        -- now apply (off_cut_neq_tin t_0).
        -- now apply off_cut_neq_t0.
Qed.
Print Assumptions C11_round_trip_W_t_W.

(** The inverse map's exact domain. *)
Theorem C11_inverse_map_domain : forall t_0 t_in mw, 0 <= t_0 < t_in ->
  MapFromWtoT_init t_0 t_in = Ok mw ->
  forall w, (MapFromWtoT_call mw w = Err ZeroDivisionError <->
             w = RtoC 0 \/ w = RtoC 1 \/ w = RtoC (-1)) /\
            (is_ok (MapFromWtoT_call mw w) \/ MapFromWtoT_call mw w = Err ZeroDivisionError).
Proof.
  intros t_0 t_in mw [H0 H1] B w. apply wt_init_inv in B. subst mw.
  destruct (C_eq_dec w (RtoC 0)) as [->|N0].
  { unfold MapFromWtoT_call, z_minus_its_reciprocal. rewrite cdiv_zero. simpl. tauto. }
  assert (Z : forall u, u = RtoC 1 \/ u = RtoC (-1) ->
    MapFromWtoT_call (mkMapWT t_0 t_in (t_in - t_0)) u = Err ZeroDivisionError).
  { intros u Hu. unfold MapFromWtoT_call, z_minus_its_reciprocal.
    assert (U : u <> RtoC 0) by (destruct Hu as [->| ->]; apply RtoC_neq0; lra).
    rewrite cdiv_ok by assumption. simpl.
    replace (Csq (Csub u (Cdivt 1 u))) with (RtoC 0); [now rewrite cdiv_zero|].
    destruct Hu as [->| ->]; Cext; unfold Cnorm2; simpl; field. }
  destruct (C_eq_dec w (RtoC 1)) as [E1|N1]; [rewrite Z by tauto; tauto|].
  destruct (C_eq_dec w (RtoC (-1))) as [E2|N2]; [rewrite Z by tauto; tauto|].
  destruct (W_to_t_total t_0 t_in H1 w N0 N1 N2) as [t [E _]]. rewrite E. split.
  - split; [discriminate|tauto].
  - left. exists t. reflexivity.
Qed.
Print Assumptions C11_inverse_map_domain.

Example C11_instance : open_left_half_disc (mkC (-1/2) (1/3)) /\ plane_without_cut 1 (mkC 2 (-1)).
Proof.
  split; [split; [simpl; lra|]|].
  - apply Cabs_lt_1. unfold Cnorm2. simpl. lra.
  - intros [A _]. simpl in A. lra.
Qed.

(** ** C12 *)
Theorem C12_image : forall t_0 t_in mt, 0 <= t_0 < t_in ->
  MapFromTtoW_init t_0 t_in = Ok mt ->
  forall t w, MapFromTtoW_call mt t = Ok w ->
  (Re w <= 0 /\ Cabs w <= 1) /\
  (plane_without_cut t_0 t -> Re w < 0 /\ Cabs w < 1) /\
  (Im t = 0 -> t_0 < Re t < t_in -> Re w = 0 /\ 0 < Im w < 1) /\
  (Im t = 0 -> t_in < Re t -> Cabs w = 1 /\ Re w < 0 /\ 0 < Im w) /\
  (Im t = 0 -> Re t < t_0 -> Im w = 0 /\ -1 < Re w < 0) /\
  (0 < Im t -> 0 < Im w) /\ (Im t < 0 -> Im w < 0).
Proof.
  intros t_0 t_in mt [H0 H1] A t w E. apply MapTW_init_inv in A. destruct A as [_ ->].
  fold (tw t_0 t_in) in E.
  destruct (Map_call_cases t_0 t_in H1 t) as [[T F]|[T F]]; rewrite F in E; [discriminate|].
  injection E as <-.
  assert (R : Im t = 0 -> t = RtoC (Re t)) by (intros I; apply C_ext; simpl; lra).
  split; [now apply Wt_half_disc|].
  split; [intros P; apply plane_cut in P; now apply Wt_off_cut|].
  split; [intros I L; rewrite (R I); now apply Wt_between|].
  split; [intros I L; rewrite (R I); now apply Wt_above|].
  split; [intros I L; rewrite (R I); now apply Wt_real_below|].
  apply (Im_W_sign_nonreal t_0 t_in H1 t).
Qed.
Print Assumptions C12_image.

(** Different points have different images. *)
Theorem C12_injective : forall t_0 t_in mt, 0 <= t_0 < t_in ->
  MapFromTtoW_init t_0 t_in = Ok mt ->
  forall t t' w, MapFromTtoW_call mt t = Ok w -> MapFromTtoW_call mt t' = Ok w -> t = t'.
Proof.
  intros t_0 t_in mt [H0 H1] A t t' w E E'. apply MapTW_init_inv in A. destruct A as [_ ->].
  fold (tw t_0 t_in) in E, E'.
  destruct (Map_call_cases t_0 t_in H1 t) as [[T F]|[T F]]; rewrite F in E; [discriminate|].
  destruct (Map_call_cases t_0 t_in H1 t') as [[T' F']|[T' F']]; rewrite F' in E'; [discriminate|].
  apply (Wt_inj t_0 t_in H1 t t'); congruence.
Qed.
Print Assumptions C12_injective.

(** Concrete non-trivial case: a point of the elastic region and one above t_in do map. *)
Example C12_instance : exists mt w w', MapFromTtoW_init 1 4 = Ok mt /\
  MapFromTtoW_call mt (RtoC 2) = Ok w /\ Re w = 0 /\ 0 < Im w < 1 /\
  MapFromTtoW_call mt (RtoC 7) = Ok w' /\ Cabs w' = 1.
Proof.
  exists (tw 1 4), (Wt 1 4 (RtoC 2)), (Wt 1 4 (RtoC 7)).
  assert (L : 1 < 4) by lra.
  split; [apply MapTW_init_ok; lra|].
  split; [apply Map_call_ok; [assumption|]; intros E; apply RtoC_inj in E; lra|].
  destruct (Wt_between 1 4 L 2) as [P Q]; [lra|]. split; [assumption|]. split; [assumption|].
  split; [apply Map_call_ok; [assumption|]; intros E; apply RtoC_inj in E; lra|].
  apply (Wt_above 1 4 L 7). lra.
Qed.

(** ** C13 *)
(** The principal root for the cut along the positive real axis. *)
Definition is_upper_root (z s : C) : Prop :=
  Cmul s s = z /\ 0 <= Im s /\ (Im s = 0 -> 0 <= Re s).

Theorem C13_square_root_characterised : forall z s, square_root z = s <-> is_upper_root z s.
Proof.
  intros z s. unfold is_upper_root. split.
  - intros <-. split; [apply square_root_sq|].
    destruct (square_root_upper z) as [H|[H1 H2]]; split; try lra.
  - intros [E [I R]]. apply square_root_unique; [|assumption]. unfold upper.
    destruct I as [I|I]; [now left|]. right. split; [now symmetry|]. now apply R.
Qed.
Print Assumptions C13_square_root_characterised.

Theorem C13_square_root_nonneg : forall x, 0 <= x ->
  exists y, 0 <= y /\ y * y = x /\ square_root (RtoC x) = RtoC y.
Proof.
  intros x Hx. exists (sqrt x). split; [apply sqrt_pos|]. split; [now apply sqrt_sqrt|].
  now apply square_root_nonneg.
Qed.
Print Assumptions C13_square_root_nonneg.

Theorem C13_z_minus_its_reciprocal : forall z,
  (z_minus_its_reciprocal z = Err ZeroDivisionError <-> z = RtoC 0) /\
  (z <> RtoC 0 -> exists y,
     z_minus_its_reciprocal z = Ok y /\ Cmul y z = Csub (Cmul z z) (RtoC 1) /\
     z_minus_its_reciprocal (Copp z) = Ok (Copp y) /\
     z_minus_its_reciprocal (Copp (Cinv z)) = Ok y).
Proof.
  intros z. unfold z_minus_its_reciprocal.
  destruct (C_eq_dec z (RtoC 0)) as [->|N].
  - rewrite cdiv_zero. simpl. split; [tauto|]. intros H. now elim H.
  - assert (N1 := Copp_neq0 z N). assert (N2 := Copp_neq0 _ (Cinv_neq0 z N)).
    rewrite !cdiv_ok by assumption. simpl. split.
    + split; [discriminate|contradiction].
    + intros _. exists (Csub z (Cdivt 1 z)). split; [reflexivity|]. split; [field; assumption|].
      split; f_equal; field; auto.
      repeat split; try assumption.
      intros E. injection E. lra.
Qed.
Print Assumptions C13_z_minus_its_reciprocal.

(** Concrete values: below the cut the root has negative real part. *)
Example C13_instance : square_root (mkC 3 (-4)) = mkC (-2) 1 /\ square_root (mkC 3 4) = mkC 2 1 /\
  square_root (RtoC (-9)) = mkC 0 3.
Proof.
  repeat split; apply C13_square_root_characterised; unfold is_upper_root; simpl;
    (split; [Cext; lra|split; lra]).
Qed.
