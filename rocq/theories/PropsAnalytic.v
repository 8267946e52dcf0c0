(** Properties C45 and C46: the coordinate maps and the form factors are holomorphic off their cuts, and
    the values on a cut are the limits from above. *)
From Coq Require Import String Reals Lra List.
From Verif Require Import PyBase CNum UAMaps UAComponents PyExpr UAModels MapProofs ComponentProofs ExprProofs
  KaonProofs SectorProofs KaonSpec Nucleon NucleonCache NucleonProofs NucleonView NucleonSpec Analytic AnalyticModels
  PropsMaps PropsOther PropsKaon PropsNucleon PropsNucleon2.
Import ListNotations.
Local Open Scope R_scope.
Local Open Scope string_scope.

#[local] Arguments String.append : simpl never.

(** ** Specification vocabulary *)

(** [F] returns values at [t] and at the points of [A] near [t], and its difference quotients tend to [l]. *)
Definition derivative_within (A : C -> Prop) (F : C -> Res C) (t l : C) : Prop :=
  exists v, F t = Ok v /\
  forall eps, 0 < eps -> exists delta, 0 < delta /\
  forall s, A s -> s <> t -> Cabs (Csub s t) < delta ->
  exists v', F s = Ok v' /\ Cabs (Csub (Cdivt (Csub v' v) (Csub s t)) l) < eps.

(** [F] returns values at the points of [A] near [t], and they tend to [v]. *)
Definition tends_within (A : C -> Prop) (F : C -> Res C) (t v : C) : Prop :=
  forall eps, 0 < eps -> exists delta, 0 < delta /\
  forall s, A s -> Cabs (Csub s t) < delta -> exists v', F s = Ok v' /\ Cabs (Csub v' v) < eps.

Definition holomorphic_at (F : C -> Res C) (t : C) : Prop :=
  exists l, derivative_within (fun _ => True) F t l.

(** The models raise for negative real parts, so that limits are taken in the right half plane. *)
Definition from_the_right : C -> Prop := fun s => 0 <= Re s.
Definition from_above : C -> Prop := fun s => 0 <= Re s /\ 0 <= Im s.
Definition from_below : C -> Prop := fun s => 0 <= Re s /\ Im s < 0.

(** ** Bridges *)

Lemma agrees_derivative : forall A F f t l, agrees A F f t -> diff A f t l -> derivative_within A F t l.
Proof.
  intros A F f t l [E N] D. exists (f t). split; [assumption|]. intros eps P.
  destruct (near_and _ _ _ _ N (diff_quotient _ _ _ _ D eps P)) as [d [Dp H]]. exists d. split; [assumption|].
  intros s As Ne L. destruct (H s As L) as [H1 H2]. exists (f s). split; [assumption|]. now apply H2.
Qed.

Lemma agrees_tends : forall A F f t, agrees A F f t -> cont A f t -> tends_within A F t (f t).
Proof.
  intros A F f t [E N] K eps P. destruct (near_and _ _ _ _ N (K eps P)) as [d [Dp H]].
  exists d. split; [assumption|]. intros s As L. destruct (H s As L) as [H1 H2]. eauto.
Qed.

Lemma sided_plane : forall A t_0 t, plane_without_cut t_0 t -> sided A t_0 t.
Proof. intros A t_0 t H. left. exact (proj1 (plane_cut t_0 t) H). Qed.

Lemma sided_above : forall t_0 t, 0 <= Im t -> sided from_above t_0 t.
Proof. intros t_0 t H. right. split; [|assumption]. intros s [_ Hs]. exact Hs. Qed.

Lemma sided_real : forall t_0 x, sided from_above t_0 (RtoC x).
Proof. intros. apply sided_above. simpl. lra. Qed.

Lemma plane_neq : forall t_0 t, plane_without_cut t_0 t -> t <> RtoC t_0.
Proof. intros t_0 t H E. subst. apply H. simpl. lra. Qed.

Lemma near_from_above : forall t, near from_above t right_half.
Proof. intros t. apply near_all. intros s [H _]. exact H. Qed.

(** Limits are unique where the region has points close to t. *)
Lemma tends_unique : forall A F t v w, (forall d, 0 < d -> exists s, A s /\ Cabs (Csub s t) < d) ->
  tends_within A F t v -> tends_within A F t w -> v = w.
Proof.
  intros A F t v w Q H K. destruct (C_eq_dec v w) as [E|N]; [assumption|]. exfalso.
  assert (P : 0 < Cabs (Csub v w)).
  { apply Cabs_pos. intros Z. now apply N, Csub_eq0. }
  destruct (H (Cabs (Csub v w) / 2)) as [d [D H']]; [lra|].
  destruct (K (Cabs (Csub v w) / 2)) as [d' [D' K']]; [lra|].
  destruct (Q (Rmin d d') (Rmin_pos _ _ D D')) as [s [As L]].
  destruct (H' s As) as [x [X1 X2]]; [apply (Rlt_le_trans _ _ _ L), Rmin_l|].
  destruct (K' s As) as [y [Y1 Y2]]; [apply (Rlt_le_trans _ _ _ L), Rmin_r|].
  assert (x = y) by congruence. subst y.
  assert (T := Cabs_triangle (Csub v x) (Csub x w)).
  replace (Cadd (Csub v x) (Csub x w)) with (Csub v w) in T by ring.
  replace (Csub v x) with (Copp (Csub x v)) in T by ring. rewrite Cabs_opp in T. lra.
Qed.

Lemma points_below : forall x, 0 <= x -> forall d, 0 < d -> exists s, from_below s /\ Cabs (Csub s (RtoC x)) < d.
Proof.
  intros x X d D. exists (mkC x (- (d / 2))). split; [split; simpl; lra|].
  replace (Csub (mkC x (- (d / 2))) (RtoC x)) with (Cmul (Copp Ci) (RtoC (d / 2))) by (apply C_ext; simpl; ring).
  rewrite Cabs_mul, Cabs_opp, Cabs_RtoC. replace (Cabs Ci) with 1.
  - rewrite Rabs_right by lra. lra.
  - unfold Cabs, Cnorm2. simpl. replace (0 * 0 + 1 * 1) with 1 by ring. now rewrite sqrt_1.
Qed.

(** A function that commutes with conjugation off the real axis. *)
Definition reflects (F : C -> Res C) : Prop := forall t, Im t <> 0 -> F (Cconj t) = conj_result (F t).

Lemma tends_below : forall F x v, reflects F -> tends_within from_above F (RtoC x) v ->
  tends_within from_below F (RtoC x) (Cconj v).
Proof.
  intros F x v R H eps P. destruct (H eps P) as [d [D K]]. exists d. split; [assumption|].
  intros s [S1 S2] L. destruct (K (Cconj s)) as [y [Y1 Y2]].
  - split; simpl; lra.
  - replace (Csub (Cconj s) (RtoC x)) with (Cconj (Csub s (RtoC x))); [now rewrite Cabs_conj|].
    rewrite Cconj_sub, Cconj_RtoC. reflexivity.
  - exists (Cconj y). split.
    + rewrite <- (Cconj_invol s). rewrite R by (simpl; lra). now rewrite Y1.
    + rewrite <- Cconj_sub, Cabs_conj. assumption.
Qed.

Lemma continuous_iff_real : forall F x v, 0 <= x -> reflects F -> tends_within from_above F (RtoC x) v ->
  (tends_within from_the_right F (RtoC x) v <-> Im v = 0).
Proof.
  intros F x v X R H. assert (B := tends_below F x v R H). split; intros K.
  - apply Cconj_real_iff. symmetry. apply (tends_unique from_below F (RtoC x)); [now apply points_below| |assumption].
    intros eps P. destruct (K eps P) as [d [D Q]]. exists d. split; [assumption|]. intros s [S _] L. now apply Q.
  - apply Cconj_real_iff in K. rewrite K in B. intros eps P.
    destruct (H eps P) as [d [D Q]]. destruct (B eps P) as [d' [D' Q']].
    exists (Rmin d d'). split; [now apply Rmin_pos|]. intros s S L.
    destruct (Rlt_le_dec (Im s) 0) as [I|I].
    + apply Q'; [split; assumption|]. apply (Rlt_le_trans _ _ _ L), Rmin_r.
    + apply Q; [split; assumption|]. apply (Rlt_le_trans _ _ _ L), Rmin_l.
Qed.

(** A derivative of a function with real values on a real interval to the right is real. *)
Lemma real_derivative : forall F x y l, x < y -> 0 <= x ->
  (forall u v, x <= u < y -> F (RtoC u) = Ok v -> Im v = 0) ->
  derivative_within from_the_right F (RtoC x) l -> Im l = 0.
Proof.
  intros F x y l L X V [v [E D]]. destruct (Req_dec (Im l) 0) as [Z|N]; [assumption|]. exfalso.
  assert (P : 0 < Rabs (Im l)) by now apply Rabs_pos_lt.
  destruct (D _ P) as [d [Dp H]].
  set (h := Rmin (d / 2) ((y - x) / 2)).
  assert (Hp : 0 < h) by (apply Rmin_pos; lra).
  assert (H1 : h <= d / 2) by apply Rmin_l. assert (H2 : h <= (y - x) / 2) by apply Rmin_r.
  assert (Eq : Csub (RtoC (x + h)) (RtoC x) = RtoC h) by (rewrite <- RtoC_sub; f_equal; ring).
  destruct (H (RtoC (x + h))) as [w [W1 W2]].
  - unfold from_the_right. simpl. lra.
  - intros Q. apply RtoC_inj in Q. lra.
  - rewrite Eq, Cabs_RtoC, Rabs_right by lra. lra.
  - assert (I1 := V x v (conj (Rle_refl x) L) E). assert (I2 : Im w = 0) by (apply (V (x + h)); [lra|assumption]).
    rewrite Eq in W2. assert (T := Cabs_Im (Csub (Cdivt (Csub w v) (RtoC h)) l)).
    replace (Im (Csub (Cdivt (Csub w v) (RtoC h)) l)) with (- Im l) in T.
    + rewrite Rabs_Ropp in T. lra.
    + unfold Cdivt. simpl. rewrite I1, I2. unfold Cnorm2. simpl. field. nra.
Qed.

(** ** C45 The maps *)

Theorem C45_map_holomorphic : forall t_0 t_in mt t,
  MapFromTtoW_init t_0 t_in = Ok mt -> t_0 < t_in -> plane_without_cut t_0 t ->
  holomorphic_at (MapFromTtoW_call mt) t.
Proof.
  intros t_0 t_in mt t H L P. apply MapTW_init_inv in H. destruct H as [V ->]. fold (tw t_0 t_in).
  assert (N : t <> RtoC t_in) by (intros E; subst; apply P; simpl; lra).
  destruct (Wt_diff t_0 t_in L everywhere t (sided_plane _ _ _ P) (plane_neq _ _ P) N) as [l D].
  exists l. apply (agrees_derivative everywhere _ (Wt t_0 t_in)); [|assumption]. split; [now apply Map_call_ok|].
  apply (near_imp everywhere t (fun s => s <> RtoC t_in)); [intros s _ Q; now apply Map_call_ok|now apply near_off].
Qed.
Print Assumptions C45_map_holomorphic.

(** The inverse map, with its derivative. *)
Definition Tw (t_0 t_in : R) (w : C) : C :=
  Csub (RtoC t_0) (Cmul (RtoC (4 * (t_in - t_0))) (Cinv (Cmul (Csub w (Cinv w)) (Csub w (Cinv w))))).
Definition Tw_slope (t_0 t_in : R) (w : C) : C :=
  Cdivt (Cmul (RtoC (8 * (t_in - t_0))) (Cmul w (Cadd (Cmul w w) 1)))
    (Cmul (Csub (Cmul w w) 1) (Cmul (Csub (Cmul w w) 1) (Csub (Cmul w w) 1))).

Lemma reciprocal_difference_neq0 : forall w, w <> RtoC 0 -> Cmul w w <> RtoC 1 -> Csub w (Cinv w) <> RtoC 0.
Proof.
  intros w N0 N1 E. apply N1. apply Csub_eq0.
  replace (Csub (Cmul w w) (RtoC 1)) with (Cmul w (Csub w (Cinv w))) by (field; assumption). rewrite E. ring.
Qed.

Lemma Tw_call : forall t_0 t_in w, w <> RtoC 0 -> Cmul w w <> RtoC 1 ->
  MapFromWtoT_call (mkMapWT t_0 t_in (t_in - t_0)) w = Ok (Tw t_0 t_in w).
Proof.
  intros t_0 t_in w N0 N1. assert (R := reciprocal_difference_neq0 w N0 N1).
  unfold MapFromWtoT_call, z_minus_its_reciprocal. rewrite cdiv_ok by assumption. cbn [bind].
  assert (Q : Csub w (Cdivt 1 w) = Csub w (Cinv w)) by (field; assumption). rewrite Q. unfold Csq.
  rewrite cdiv_ok by (apply Cmul_neq0; assumption). cbn [bind]. reflexivity.
Qed.

Lemma Tw_diff : forall A t_0 t_in w, w <> RtoC 0 -> Cmul w w <> RtoC 1 ->
  diff A (Tw t_0 t_in) w (Tw_slope t_0 t_in w).
Proof.
  intros A t_0 t_in w N0 N1. assert (R := reciprocal_difference_neq0 w N0 N1).
  assert (D1 : diff A (fun s => Csub s (Cinv s)) w (Csub 1 (Copp (Cdivt 1 (Cmul w w))))).
  { apply diff_sub; [apply diff_id|]. apply (diff_inv A (fun s => s)); [apply diff_id|assumption]. }
  assert (D2 := diff_mul _ _ _ _ _ _ D1 D1). cbn beta in D2.
  assert (D3 := diff_inv _ _ _ _ D2 (Cmul_neq0 _ _ R R)). cbn beta in D3.
  assert (D4 := diff_sub _ _ _ _ _ _ (diff_const A (RtoC t_0) w)
    (diff_mul _ _ _ _ _ _ (diff_const A (RtoC (4 * (t_in - t_0))) w) D3)). cbn beta in D4.
  unfold Tw. match goal with |- diff _ _ _ ?x => match type of D4 with diff _ _ _ ?y => replace x with y; [exact D4|] end end.
  unfold Tw_slope. replace (8 * (t_in - t_0)) with (2 * (4 * (t_in - t_0))) by ring.
  rewrite (RtoC_mul 2). set (c := RtoC (4 * (t_in - t_0))).
  assert (N2 : Csub (Cmul w w) (RtoC 1) <> RtoC 0) by (intros Z; now apply N1, Csub_eq0).
  replace (RtoC 2) with (Cadd (RtoC 1) (RtoC 1)) by (apply C_ext; simpl; ring).
  field. repeat split; assumption.
Qed.

Lemma diff_unique : forall f t k l, diff everywhere f t k -> diff everywhere f t l -> k = l.
Proof.
  intros f t k l [p [P1 [P2 P3]]] [q [Q1 [Q2 Q3]]].
  destruct (C_eq_dec k l) as [E|N]; [assumption|]. exfalso.
  assert (H : Csub (p t) (q t) <> RtoC 0) by (rewrite P2, Q2; intros Z; now apply N, Csub_eq0).
  assert (K := cont_neq0 everywhere (fun s => Csub (p s) (q s)) t (cont_sub _ _ _ _ P1 Q1) H).
  destruct (near_and _ _ _ _ K (near_and _ _ _ _ P3 Q3)) as [d [D W]].
  set (s := Cadd t (RtoC (d / 2))).
  assert (Es : Csub s t = RtoC (d / 2)) by (unfold s; ring).
  destruct (W s I) as [W1 [W2 W3]]; [rewrite Es, Cabs_RtoC, Rabs_right; lra|].
  apply W1. rewrite Es in W2, W3.
  assert (Z : Cmul (RtoC (d / 2)) (Csub (p s) (q s)) = RtoC 0).
  { transitivity (Csub (Cadd (f t) (Cmul (RtoC (d / 2)) (p s))) (Cadd (f t) (Cmul (RtoC (d / 2)) (q s)))); [ring|].
    rewrite <- W2, <- W3. ring. }
  apply Cmul_integral in Z. destruct Z as [Z|Z]; [|assumption]. apply RtoC_inj in Z. lra.
Qed.

Theorem C45_inverse_map_holomorphic : forall t_0 t_in mw w,
  MapFromWtoT_init t_0 t_in = Ok mw -> w <> RtoC 0 -> w <> RtoC 1 -> w <> RtoC (-1) ->
  derivative_within (fun _ => True) (MapFromWtoT_call mw) w
    (Cdivt (Cmul (RtoC (8 * (t_in - t_0))) (Cmul w (Cadd (Cmul w w) 1)))
      (Cmul (Csub (Cmul w w) 1) (Cmul (Csub (Cmul w w) 1) (Csub (Cmul w w) 1)))).
Proof.
  intros t_0 t_in mw w H N0 N1 N2. apply wt_init_inv in H. subst mw.
  assert (Q : forall u, u <> RtoC 1 -> u <> RtoC (-1) -> Cmul u u <> RtoC 1).
  { intros u U1 U2 E. assert (Z : Cmul (Csub u 1) (Csub u (RtoC (-1))) = RtoC 0).
    { replace (RtoC (-1)) with (Copp (RtoC 1)) by (apply C_ext; simpl; ring).
      transitivity (Csub (Cmul u u) 1); [ring|]. rewrite E. ring. }
    apply Cmul_integral in Z. destruct Z as [Z|Z]; apply Csub_eq in Z; contradiction. }
  apply (agrees_derivative everywhere _ (Tw t_0 t_in)); [|apply Tw_diff; auto].
  split; [apply Tw_call; auto|].
  apply (near_imp everywhere w (fun s => s <> RtoC 0 /\ (s <> RtoC 1 /\ s <> RtoC (-1)))).
  - intros s _ [S0 [S1 S2]]. apply Tw_call; auto.
  - repeat apply near_and; now apply near_off.
Qed.
Print Assumptions C45_inverse_map_holomorphic.

(** The derivative of the map is the reciprocal of the derivative of the inverse map at the image. *)
Theorem C45_map_derivative : forall t_0 t_in mt t,
  MapFromTtoW_init t_0 t_in = Ok mt -> t_0 < t_in -> plane_without_cut t_0 t ->
  exists w, MapFromTtoW_call mt t = Ok w /\
  derivative_within (fun _ => True) (MapFromTtoW_call mt) t
    (Cdivt (Cmul (Csub (Cmul w w) 1) (Cmul (Csub (Cmul w w) 1) (Csub (Cmul w w) 1)))
      (Cmul (RtoC (8 * (t_in - t_0))) (Cmul w (Cadd (Cmul w w) 1)))).
Proof.
  intros t_0 t_in mt t H L P. apply MapTW_init_inv in H. destruct H as [V ->]. fold (tw t_0 t_in).
  assert (N : t <> RtoC t_in) by (intros E; subst; apply P; simpl; lra).
  assert (N0 := plane_neq _ _ P).
  destruct (Wt_diff t_0 t_in L everywhere t (sided_plane _ _ _ P) N0 N) as [l D].
  exists (Wt t_0 t_in t). split; [now apply Map_call_ok|].
  assert (W0 : forall s, s <> RtoC t_in -> s <> RtoC t_0 -> Wt t_0 t_in s <> RtoC 0).
  { intros s S1 S2 Z. apply S2. now apply (Wt_0_iff t_0 t_in L). }
  assert (W1 : forall s, s <> RtoC t_in -> s <> RtoC t_0 -> Cmul (Wt t_0 t_in s) (Wt t_0 t_in s) <> RtoC 1).
  { intros s S1 S2 Z. assert (X := round_trip_t t_0 t_in L s S1 S2).
    unfold MapFromWtoT_call, z_minus_its_reciprocal in X. rewrite cdiv_ok in X by (apply W0; assumption).
    cbn [bind] in X. set (w := Wt t_0 t_in s) in *.
    assert (Nw : w <> RtoC 0) by (apply W0; assumption).
    assert (Y : Csq (Csub w (Cdivt 1 w)) = RtoC 0).
    { unfold Csq. replace (Csub w (Cdivt 1 w)) with (Cdivt (Csub (Cmul w w) 1) w) by (field; assumption).
      rewrite Z. unfold Cdivt. ring. }
    rewrite Y, cdiv_zero in X. discriminate. }
  assert (E := diff_comp everywhere everywhere (Wt t_0 t_in) (Tw t_0 t_in) t _ _ D
    (Tw_diff everywhere t_0 t_in _ (W0 t N N0) (W1 t N N0)) (near_all _ _ _ (fun s _ => I))).
  assert (F : diff everywhere (fun s => Tw t_0 t_in (Wt t_0 t_in s)) t 1%C).
  { apply (diff_ext everywhere (fun s => s)); [| |apply diff_id].
    - assert (X := round_trip_t t_0 t_in L t N N0). rewrite Tw_call in X by auto. congruence.
    - apply (near_imp everywhere t (fun s => s <> RtoC t_in /\ s <> RtoC t_0)); [|apply near_and; now apply near_off].
      intros s _ [S1 S2]. assert (X := round_trip_t t_0 t_in L s S1 S2). rewrite Tw_call in X by auto. congruence. }
  assert (G := diff_unique _ _ _ _ E F).
  set (w := Wt t_0 t_in t) in *.
  assert (M : Cmul l (Tw_slope t_0 t_in w) = RtoC 1) by exact G.
  assert (N2 : Csub (Cmul w w) (RtoC 1) <> RtoC 0) by (intros Z; apply (W1 t N N0); now apply Csub_eq0).
  assert (S : Cmul (RtoC (8 * (t_in - t_0))) (Cmul w (Cadd (Cmul w w) 1)) <> RtoC 0).
  { intros Z. unfold Tw_slope in M. rewrite Z in M. apply C1_neq_0. rewrite <- M. unfold Cdivt. ring. }
  replace (Cdivt _ _) with l.
  - apply (agrees_derivative everywhere _ (Wt t_0 t_in)); [|assumption]. split; [now apply Map_call_ok|].
    apply (near_imp everywhere t (fun s => s <> RtoC t_in)); [intros s _ Q; now apply Map_call_ok|now apply near_off].
  - unfold Tw_slope in M. set (num := Cmul (RtoC (8 * (t_in - t_0))) _) in *.
    set (z := Csub (Cmul w w) (RtoC 1)) in *.
    transitivity (Cdivt (Cmul (Cmul l (Cdivt num (Cmul z (Cmul z z)))) (Cmul z (Cmul z z))) num).
    + field. split; assumption.
    + rewrite M. unfold Cdivt. ring.
Qed.
Print Assumptions C45_map_derivative.

(** ** C45 The form factors *)

Theorem C45_kaon_holomorphic : forall k ch kw m t v,
  Kaon_init (kaon_class k) ch kw = Ok m -> Kaon_call m t = Ok v -> 0 < Re t ->
  plane_without_cut (kwval kw "t_0_isoscalar") t -> plane_without_cut (kwval kw "t_0_isovector") t ->
  holomorphic_at (Kaon_call m) t.
Proof.
  intros k ch kw m t v H E R P1 P2.
  destruct (kaon_agrees everywhere k ch kw m t v H E (near_right _ _ R) (sided_plane _ _ _ P1) (sided_plane _ _ _ P2)) as [G _].
  destruct (kaon_diff everywhere k ch kw m t v H E (sided_plane _ _ _ P1) (sided_plane _ _ _ P2)
    (plane_neq _ _ P1) (plane_neq _ _ P2)) as [l D].
  exists l. exact (agrees_derivative _ _ _ _ _ G D).
Qed.
Print Assumptions C45_kaon_holomorphic.

(** Below the thresholds on the real axis the slope is real; at 0 it is the slope that defines a charge radius. *)
Theorem C45_kaon_real_slope : forall k ch kw m x v,
  Kaon_init (kaon_class k) ch kw = Ok m -> Kaon_call m (RtoC x) = Ok v ->
  x < kwval kw "t_0_isoscalar" -> x < kwval kw "t_0_isovector" ->
  exists r : R, derivative_within from_the_right (Kaon_call m) (RtoC x) (RtoC r).
Proof.
  intros k ch kw m x v H E L1 L2.
  destruct (Kaon_call_parts _ _ _ _ _ _ H E) as [R _]. simpl in R.
  assert (P1 : plane_without_cut (kwval kw "t_0_isoscalar") (RtoC x)) by (intros [_ Q]; simpl in Q; lra).
  assert (P2 : plane_without_cut (kwval kw "t_0_isovector") (RtoC x)) by (intros [_ Q]; simpl in Q; lra).
  destruct (kaon_agrees from_the_right k ch kw m (RtoC x) v H E (near_all _ _ _ (fun s Q => Q))
    (sided_plane _ _ _ P1) (sided_plane _ _ _ P2)) as [G _].
  destruct (kaon_diff from_the_right k ch kw m _ v H E (sided_plane _ _ _ P1) (sided_plane _ _ _ P2)
    (plane_neq _ _ P1) (plane_neq _ _ P2)) as [l D].
  assert (K := agrees_derivative _ _ _ _ _ G D). exists (Re l).
  replace (RtoC (Re l)) with l; [assumption|]. apply C_ext; [reflexivity|]. simpl.
  apply (real_derivative (Kaon_call m) x (Rmin (kwval kw "t_0_isoscalar") (kwval kw "t_0_isovector"))).
  - now apply Rmin_glb_lt.
  - assumption.
  - intros u w [_ U] Q. apply (C14_kaon_real_below_threshold k ch kw m (RtoC u) w H); [reflexivity| | |assumption]; simpl.
    + apply (Rlt_le_trans _ _ _ U), Rmin_l.
    + apply (Rlt_le_trans _ _ _ U), Rmin_r.
  - assumption.
Qed.
Print Assumptions C45_kaon_real_slope.

Lemma Single_call_parts : forall t_0 t_in a m g s t v, SingleComponentModel_init t_0 t_in a m g = Ok s ->
  SingleComponentModel_call s t = Ok v -> 0 <= Re t /\ sector_eval t_0 t_in [(a, m, g)] t = Ok v.
Proof.
  intros t_0 t_in a m g s t v H E. rewrite (Single_view _ _ _ _ _ _ _ H) in E.
  destruct (Rlt_dec (Re t) 0); [discriminate|]. split; [lra|assumption].
Qed.

Lemma single_agrees : forall A t_0 t_in a m g s t v, SingleComponentModel_init t_0 t_in a m g = Ok s ->
  SingleComponentModel_call s t = Ok v -> near A t right_half -> sided A t_0 t ->
  agrees A (SingleComponentModel_call s) (sec_val t_0 t_in [(a, m, g)]) t /\
  cont A (sec_val t_0 t_in [(a, m, g)]) t /\
  (t <> RtoC t_0 -> exists l, diff A (sec_val t_0 t_in [(a, m, g)]) t l).
Proof.
  intros A t_0 t_in a m g s t v H E R S. destruct (Single_call_parts _ _ _ _ _ _ _ _ H E) as [Rt X].
  assert (V := Single_valid _ _ _ _ _ _ H).
  destruct (sector_cont A _ _ _ _ _ V ltac:(discriminate) X S) as [[A1 B1] C1].
  split; [split|split].
  - rewrite (Single_view _ _ _ _ _ _ _ H). destruct (Rlt_dec (Re t) 0); [lra|assumption].
  - assert (N := near_and _ _ _ _ R B1). revert N. apply near_imp. intros u _ [Q1 Q2].
    rewrite (Single_view _ _ _ _ _ _ _ H). unfold right_half in Q1. destruct (Rlt_dec (Re u) 0); [lra|assumption].
  - assumption.
  - intros M. exact (proj2 (sector_diff A _ _ _ _ _ V ltac:(discriminate) X S M)).
Qed.

Theorem C45_single_holomorphic : forall t_0 t_in a m g s t v,
  SingleComponentModel_init t_0 t_in a m g = Ok s -> SingleComponentModel_call s t = Ok v -> 0 < Re t ->
  plane_without_cut t_0 t -> holomorphic_at (SingleComponentModel_call s) t.
Proof.
  intros t_0 t_in a m g s t v H E R P.
  destruct (single_agrees everywhere _ _ _ _ _ _ _ _ H E (near_right _ _ R) (sided_plane _ _ _ P)) as [G [_ D]].
  destruct (D (plane_neq _ _ P)) as [l L]. exists l. exact (agrees_derivative _ _ _ _ _ G L).
Qed.
Print Assumptions C45_single_holomorphic.

(** A point off the four cuts of a nucleon form factor. *)
Definition off_nucleon_cuts (kw : env R) (t : C) : Prop :=
  plane_without_cut (kwval kw "t_0_dirac_isoscalar") t /\ plane_without_cut (kwval kw "t_0_dirac_isovector") t /\
  plane_without_cut (kwval kw "t_0_pauli_isoscalar") t /\ plane_without_cut (kwval kw "t_0_pauli_isovector") t.

Lemma off_nucleon_all : forall kw t, off_nucleon_cuts kw t -> forall s d, plane_without_cut (bp0 (kwval kw) s d) t.
Proof. intros kw t [H1 [H2 [H3 H4]]] [] []; assumption. Qed.

Lemma evaluate_agrees : forall A k p e kw t v, evaluate k p e kw t = Ok v -> near A t right_half ->
  (forall s d, sided A (bp0 (kwval kw) s d) t) ->
  agrees A (evaluate k p e kw) (combined k kw p e) t /\ cont A (combined k kw p e) t /\
  ((forall s d, t <> RtoC (bp0 (kwval kw) s d)) -> exists l, diff A (combined k kw p e) t l).
Proof.
  intros A k p e kw t v H R S.
  destruct (evaluate_built k p e kw) as [[m [c [_ [B X]]]]|[x [_ X]]]; [|rewrite X in H; discriminate].
  rewrite X in H. destruct (call_Ok k p e kw m B t v H) as [Rt [ND [D Ev]]].
  destruct (nucleon_agrees k p e kw m B A t v H R) as [G1 G2].
  split; [split|split].
  - now rewrite X.
  - revert G2. apply near_imp. intros s _ Q. now rewrite X.
  - now apply (combined_cont k p e kw m B).
  - intros M. now apply (combined_diff k p e kw m B).
Qed.

Theorem C45_nucleon_holomorphic : forall k proton electric kw t v,
  evaluate k proton electric kw t = Ok v -> 0 < Re t -> off_nucleon_cuts kw t ->
  holomorphic_at (evaluate k proton electric kw) t.
Proof.
  intros k p e kw t v E R P. assert (Q := off_nucleon_all _ _ P).
  destruct (evaluate_agrees everywhere k p e kw t v E (near_right _ _ R)
    (fun s d => sided_plane _ _ _ (Q s d))) as [G [_ D]].
  destruct (D (fun s d => plane_neq _ _ (Q s d))) as [l L]. exists l. exact (agrees_derivative _ _ _ _ _ G L).
Qed.
Print Assumptions C45_nucleon_holomorphic.

Theorem C45_nucleon_real_slope : forall k proton electric kw x v,
  evaluate k proton electric kw (RtoC x) = Ok v ->
  x < kwval kw "t_0_dirac_isoscalar" -> x < kwval kw "t_0_dirac_isovector" ->
  x < kwval kw "t_0_pauli_isoscalar" -> x < kwval kw "t_0_pauli_isovector" ->
  exists r : R, derivative_within from_the_right (evaluate k proton electric kw) (RtoC x) (RtoC r).
Proof.
  intros k p e kw x v E L1 L2 L3 L4.
  destruct (evaluate_Ok _ _ _ _ _ _ E) as [m [_ [_ [R _]]]]. simpl in R.
  assert (Q : off_nucleon_cuts kw (RtoC x)) by (repeat split; intros [_ Q]; simpl in Q; lra).
  assert (QQ := off_nucleon_all _ _ Q).
  destruct (evaluate_agrees from_the_right k p e kw _ v E (near_all _ _ _ (fun s Q => Q))
    (fun s d => sided_plane _ _ _ (QQ s d))) as [G [_ D]].
  destruct (D (fun s d => plane_neq _ _ (QQ s d))) as [l L].
  assert (K := agrees_derivative _ _ _ _ _ G L). exists (Re l).
  replace (RtoC (Re l)) with l; [assumption|]. apply C_ext; [reflexivity|]. simpl.
  apply (real_derivative (evaluate k p e kw) x
    (Rmin (Rmin (kwval kw "t_0_dirac_isoscalar") (kwval kw "t_0_dirac_isovector"))
          (Rmin (kwval kw "t_0_pauli_isoscalar") (kwval kw "t_0_pauli_isovector")))).
  - repeat apply Rmin_glb_lt; assumption.
  - assumption.
  - intros u w [_ U] W.
    assert (U1 := Rlt_le_trans _ _ _ U (Rmin_l _ _)). assert (U2 := Rlt_le_trans _ _ _ U (Rmin_r _ _)).
    apply (C14_nucleon_real_below_threshold k p e kw (RtoC u) w); [reflexivity| | | | |assumption]; simpl.
    + exact (Rlt_le_trans _ _ _ U1 (Rmin_l _ _)).
    + exact (Rlt_le_trans _ _ _ U1 (Rmin_r _ _)).
    + exact (Rlt_le_trans _ _ _ U2 (Rmin_l _ _)).
    + exact (Rlt_le_trans _ _ _ U2 (Rmin_r _ _)).
  - assumption.
Qed.
Print Assumptions C45_nucleon_real_slope.

(** ** C46 Boundary values *)

Theorem C46_map_boundary : forall t_0 t_in mt x,
  MapFromTtoW_init t_0 t_in = Ok mt -> t_0 < t_in -> x <> t_in ->
  exists w, MapFromTtoW_call mt (RtoC x) = Ok w /\
  tends_within (fun s => 0 <= Im s) (MapFromTtoW_call mt) (RtoC x) w /\
  tends_within (fun s => Im s < 0) (MapFromTtoW_call mt) (RtoC x) (Cconj w).
Proof.
  intros t_0 t_in mt x H L N. apply MapTW_init_inv in H. destruct H as [V ->]. fold (tw t_0 t_in).
  assert (N' : RtoC x <> RtoC t_in) by (intros E; now apply N, RtoC_inj).
  exists (Wt t_0 t_in (RtoC x)). split; [now apply Map_call_ok|].
  assert (T : tends_within (fun s => 0 <= Im s) (MapFromTtoW_call (tw t_0 t_in)) (RtoC x) (Wt t_0 t_in (RtoC x))).
  { apply agrees_tends.
    - split; [now apply Map_call_ok|].
      apply (near_imp _ _ (fun s => s <> RtoC t_in)); [intros s _ Q; now apply Map_call_ok|now apply near_off].
    - apply Wt_cont; [assumption| |assumption]. right. split; [exact (fun s Q => Q)|simpl; lra]. }
  split; [assumption|].
  intros eps P. destruct (T eps P) as [d [D K]]. exists d. split; [assumption|]. intros s S Q.
  destruct (K (Cconj s)) as [y [Y1 Y2]].
  - simpl. lra.
  - replace (Csub (Cconj s) (RtoC x)) with (Cconj (Csub s (RtoC x))); [now rewrite Cabs_conj|].
    rewrite Cconj_sub, Cconj_RtoC. reflexivity.
  - exists (Cconj y). split; [|rewrite <- Cconj_sub, Cabs_conj; assumption].
    assert (Ns : s <> RtoC t_in) by (intros Z; subst; simpl in S; lra).
    assert (Ns' : Cconj s <> RtoC t_in) by (intros Z; apply (f_equal Im) in Z; simpl in Z; lra).
    rewrite Map_call_ok in Y1 by assumption. rewrite Map_call_ok by assumption. f_equal.
    assert (E : y = Wt t_0 t_in (Cconj s)) by congruence. subst y.
    rewrite (Wt_conj t_0 t_in); [now rewrite Cconj_invol|assumption|]. intros [Z _]. simpl in Z. lra.
Qed.
Print Assumptions C46_map_boundary.

Lemma kaon_reflects : forall k ch kw m, Kaon_init (kaon_class k) ch kw = Ok m -> reflects (Kaon_call m).
Proof. intros k ch kw m H t I. apply (C14_kaon_reflection k ch kw m t H); intros [Z _]; contradiction. Qed.

Lemma kaon_above : forall k ch kw m x v, Kaon_init (kaon_class k) ch kw = Ok m -> Kaon_call m (RtoC x) = Ok v ->
  tends_within from_above (Kaon_call m) (RtoC x) v.
Proof.
  intros k ch kw m x v H E.
  destruct (kaon_agrees from_above k ch kw m (RtoC x) v H E (near_from_above _)
    (sided_real _ x) (sided_real _ x)) as [G K].
  assert (T := agrees_tends _ _ _ _ G K). destruct G as [G _]. replace v with (kaon_val k ch kw (RtoC x)); [assumption|congruence].
Qed.

Theorem C46_kaon_boundary : forall k ch kw m x v,
  Kaon_init (kaon_class k) ch kw = Ok m -> Kaon_call m (RtoC x) = Ok v ->
  tends_within from_above (Kaon_call m) (RtoC x) v /\
  tends_within from_below (Kaon_call m) (RtoC x) (Cconj v) /\
  (tends_within from_the_right (Kaon_call m) (RtoC x) v <-> Im v = 0).
Proof.
  intros k ch kw m x v H E. assert (A := kaon_above _ _ _ _ _ _ H E). assert (R := kaon_reflects _ _ _ _ H).
  destruct (Kaon_call_parts _ _ _ _ _ _ H E) as [X _]. simpl in X.
  split; [assumption|]. split; [now apply tends_below|now apply continuous_iff_real].
Qed.
Print Assumptions C46_kaon_boundary.

Theorem C46_kaon_upper_derivative : forall k ch kw m x v,
  Kaon_init (kaon_class k) ch kw = Ok m -> Kaon_call m (RtoC x) = Ok v ->
  x <> kwval kw "t_0_isoscalar" -> x <> kwval kw "t_0_isovector" ->
  exists l, derivative_within from_above (Kaon_call m) (RtoC x) l.
Proof.
  intros k ch kw m x v H E N1 N2.
  assert (M1 : RtoC x <> RtoC (kwval kw "t_0_isoscalar")) by (intros Z; now apply N1, RtoC_inj).
  assert (M2 : RtoC x <> RtoC (kwval kw "t_0_isovector")) by (intros Z; now apply N2, RtoC_inj).
  destruct (kaon_agrees from_above k ch kw m (RtoC x) v H E (near_from_above _)
    (sided_real _ x) (sided_real _ x)) as [G _].
  destruct (kaon_diff from_above k ch kw m (RtoC x) v H E
    (sided_real _ x) (sided_real _ x) M1 M2) as [l D].
  exists l. exact (agrees_derivative _ _ _ _ _ G D).
Qed.
Print Assumptions C46_kaon_upper_derivative.

Theorem C46_single_boundary : forall t_0 t_in a m g s x v,
  SingleComponentModel_init t_0 t_in a m g = Ok s -> SingleComponentModel_call s (RtoC x) = Ok v ->
  tends_within from_above (SingleComponentModel_call s) (RtoC x) v /\
  tends_within from_below (SingleComponentModel_call s) (RtoC x) (Cconj v) /\
  (tends_within from_the_right (SingleComponentModel_call s) (RtoC x) v <-> Im v = 0).
Proof.
  intros t_0 t_in a m g s x v H E.
  destruct (single_agrees from_above _ _ _ _ _ _ _ _ H E (near_from_above _) (sided_real _ x)) as [G [K _]].
  assert (A : tends_within from_above (SingleComponentModel_call s) (RtoC x) v).
  { assert (T := agrees_tends _ _ _ _ G K). destruct G as [G _].
    replace v with (sec_val t_0 t_in [(a, m, g)] (RtoC x)); [assumption|congruence]. }
  assert (R : reflects (SingleComponentModel_call s)).
  { intros t I. apply (C14_single_reflection _ _ _ _ _ _ t H). intros [Z _]; contradiction. }
  destruct (Single_call_parts _ _ _ _ _ _ _ _ H E) as [X _]. simpl in X.
  split; [assumption|]. split; [now apply tends_below|now apply continuous_iff_real].
Qed.
Print Assumptions C46_single_boundary.

Theorem C46_nucleon_boundary : forall k proton electric kw x v,
  evaluate k proton electric kw (RtoC x) = Ok v ->
  tends_within from_above (evaluate k proton electric kw) (RtoC x) v /\
  tends_within from_below (evaluate k proton electric kw) (RtoC x) (Cconj v) /\
  (tends_within from_the_right (evaluate k proton electric kw) (RtoC x) v <-> Im v = 0).
Proof.
  intros k p e kw x v E.
  destruct (evaluate_agrees from_above k p e kw _ v E (near_from_above _) (fun s d => sided_real _ x)) as [G [K _]].
  assert (A : tends_within from_above (evaluate k p e kw) (RtoC x) v).
  { assert (T := agrees_tends _ _ _ _ G K). destruct G as [G _].
    replace v with (combined k kw p e (RtoC x)); [assumption|congruence]. }
  assert (R : reflects (evaluate k p e kw)).
  { intros t I. apply C14_nucleon_reflection; intros [Z _]; contradiction. }
  destruct (evaluate_Ok _ _ _ _ _ _ E) as [m [_ [_ [X _]]]]. simpl in X.
  split; [assumption|]. split; [now apply tends_below|now apply continuous_iff_real].
Qed.
Print Assumptions C46_nucleon_boundary.

Theorem C46_nucleon_upper_derivative : forall k proton electric kw x v,
  evaluate k proton electric kw (RtoC x) = Ok v ->
  x <> kwval kw "t_0_dirac_isoscalar" -> x <> kwval kw "t_0_dirac_isovector" ->
  x <> kwval kw "t_0_pauli_isoscalar" -> x <> kwval kw "t_0_pauli_isovector" ->
  exists l, derivative_within from_above (evaluate k proton electric kw) (RtoC x) l.
Proof.
  intros k p e kw x v E N1 N2 N3 N4.
  destruct (evaluate_agrees from_above k p e kw _ v E (near_from_above _) (fun s d => sided_real _ x)) as [G [_ D]].
  destruct D as [l L].
  - intros [] [] Z; apply RtoC_inj in Z; contradiction.
  - exists l. exact (agrees_derivative _ _ _ _ _ G L).
Qed.
Print Assumptions C46_nucleon_upper_derivative.

(** ** Instances *)

Example C45_instance : forall k, exists m, Kaon_init (kaon_class k) true (demo_kw (1/7) (1/2) k) = Ok m /\
  holomorphic_at (Kaon_call m) (mkC 5 1) /\
  (exists r : R, derivative_within from_the_right (Kaon_call m) (RtoC 0) (RtoC r)) /\
  (exists l, derivative_within from_above (Kaon_call m) (RtoC 5) l).
Proof.
  intros k. destruct (C18_instance k) as [m [H [[v5 E5] _]]]. exists m. split; [assumption|].
  assert (F := C18_kaon_failure_set k true _ m (mkC 5 1) H).
  assert (Z := C15_kaon_returns_at_zero k true _ m H).
  assert (K := C45_kaon_real_slope k true _ m 0 (RtoC 1) H).
  assert (J := fun v => C45_kaon_holomorphic k true _ m (mkC 5 1) v H).
  assert (U := C46_kaon_upper_derivative k true _ m 5 v5 H E5).
  rewrite !demo_kwval in F, Z, K, J, U by (destruct k; inkw).
  change (demo_value (1/7) (1/2) "t_0_isoscalar") with 1 in *.
  change (demo_value (1/7) (1/2) "t_in_isoscalar") with 2 in *.
  change (demo_value (1/7) (1/2) "t_0_isovector") with 1 in *.
  change (demo_value (1/7) (1/2) "t_in_isovector") with 2 in *.
  assert (L : 1 < 2) by lra. split; [|split].
  - destruct (F L L) as [A [B [[v D]|[D|D]]]].
    + apply (J v D); [simpl; lra| |]; intros [Q _]; simpl in Q; lra.
    + apply A in D. simpl in D. lra.
    + exfalso. apply B in D. destruct D as [_ [D|[D|[n [Hn D]]]]];
        [apply (f_equal Im) in D; simpl in D; lra|apply (f_equal Im) in D; simpl in D; lra|].
      assert (M : kwval (demo_kw (1/7) (1/2) k) ("mass_" ++ n) = 2 /\ kwval (demo_kw (1/7) (1/2) k) ("decay_rate_" ++ n) = 1/2).
      { destruct k; simpl in Hn; repeat (destruct Hn as [<-|Hn]; [rewrite !demo_kwval by inkw; split; reflexivity|]); contradiction. }
      destruct M as [M1 M2]. rewrite M1, M2 in D. destruct D as [D|D]; apply (f_equal Re) in D;
        unfold resonance_pole in D; simpl in D; lra.
  - apply K; [now apply Z|lra|lra].
  - apply U; lra.
Qed.

Example C46_instance : forall k p e, exists v,
  evaluate k p e (demo_nucleon (1/2)) (RtoC 0) = Ok v /\
  tends_within from_below (evaluate k p e (demo_nucleon (1/2))) (RtoC 0) (Cconj v) /\
  holomorphic_at (evaluate k p e (demo_nucleon (1/2))) (mkC 5 1).
Proof.
  intros k p e. destruct (nucleon_instance k p e) as [m [v [v0 [_ [E [E0 P]]]]]].
  exists v0. split; [assumption|]. split; [exact (proj1 (proj2 (C46_nucleon_boundary k p e _ 0 v0 E0)))|].
  apply (C45_nucleon_holomorphic k p e _ _ v E); [simpl; lra|].
  repeat split; apply P; simpl; tauto.
Qed.
