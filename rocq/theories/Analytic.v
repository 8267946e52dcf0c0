(** Continuity and complex differentiability of functions of a complex variable, relative to a set of
    points, with the rules needed for the models: sums, products, inverses, compositions and the
    code's square root. *)
From Coq Require Import Reals Lra List.
From Verif Require Import PyBase CNum UAMaps MapProofs ExprProofs.
Import ListNotations.
Local Open Scope R_scope.

Definition region := C -> Prop.
Definition everywhere : region := fun _ => True.

(** [P] holds at the points of [A] close enough to [t]. *)
Definition near (A : region) (t : C) (P : C -> Prop) : Prop :=
  exists d, 0 < d /\ forall s, A s -> Cabs (Csub s t) < d -> P s.

Definition cont (A : region) (f : C -> C) (t : C) : Prop :=
  forall eps, 0 < eps -> near A t (fun s => Cabs (Csub (f s) (f t)) < eps).

(** Caratheodory's form of the derivative. *)
Definition diff (A : region) (f : C -> C) (t l : C) : Prop :=
  exists phi, cont A phi t /\ phi t = l /\
    near A t (fun s => f s = Cadd (f t) (Cmul (Csub s t) (phi s))).

Lemma near_and : forall A t P Q, near A t P -> near A t Q -> near A t (fun s => P s /\ Q s).
Proof.
  intros A t P Q [d [D H]] [e [E K]]. exists (Rmin d e). split; [now apply Rmin_pos|].
  intros s As L. split; [apply H|apply K]; try assumption;
    [apply (Rlt_le_trans _ _ _ L), Rmin_l|apply (Rlt_le_trans _ _ _ L), Rmin_r].
Qed.

Lemma near_imp : forall (A : region) t (P Q : C -> Prop), (forall s, A s -> P s -> Q s) -> near A t P -> near A t Q.
Proof. intros A t P Q H [d [D K]]. exists d. split; [assumption|]. intros s As L. auto. Qed.

Lemma near_all : forall (A : region) t (P : C -> Prop), (forall s, A s -> P s) -> near A t P.
Proof. intros A t P H. exists 1. split; [lra|]. auto. Qed.

Lemma near_sub : forall (A B : region) t P, (forall s, B s -> A s) -> near A t P -> near B t P.
Proof. intros A B t P H [d [D K]]. exists d. split; [assumption|]. intros s Bs L. auto. Qed.

Lemma near_and_region : forall (A B : region) t P, near A t B -> near (fun s => A s /\ B s) t P -> near A t P.
Proof.
  intros A B t P H K. destruct (near_and A t B (fun s => B s -> P s) H) as [d [D L]].
  - destruct K as [e [E K]]. exists e. split; [assumption|]. intros s As Q Bs. apply K; auto.
  - exists d. split; [assumption|]. intros s As Q. destruct (L s As Q). auto.
Qed.

Lemma cont_sub_region : forall (A B : region) f t, (forall s, B s -> A s) -> cont A f t -> cont B f t.
Proof. intros A B f t H K eps E. exact (near_sub A B t _ H (K eps E)). Qed.

Lemma diff_sub_region : forall (A B : region) f t l, (forall s, B s -> A s) -> diff A f t l -> diff B f t l.
Proof.
  intros A B f t l H [phi [K [E N]]]. exists phi. split; [now apply (cont_sub_region A)|].
  split; [assumption|]. now apply (near_sub A).
Qed.

Lemma near_point : forall A t, near A t (fun s => Cabs (Csub s t) < 1).
Proof. intros A t. exists 1. split; [lra|]. auto. Qed.

Lemma Csub_diag : forall a, Csub a a = RtoC 0.
Proof. intros. ring. Qed.
Lemma Cabs_0 : Cabs (RtoC 0) = 0.
Proof. now apply Cabs_0_iff. Qed.

(** ** Continuity *)

Lemma cont_const : forall A c t, cont A (fun _ => c) t.
Proof. intros A c t eps E. apply near_all. intros s _. now rewrite Csub_diag, Cabs_0. Qed.

Lemma cont_id : forall A t, cont A (fun s => s) t.
Proof. intros A t eps E. exists eps. split; [assumption|]. auto. Qed.

Lemma cont_ext : forall A f g t, f t = g t -> near A t (fun s => f s = g s) -> cont A f t -> cont A g t.
Proof.
  intros A f g t E N K eps P. apply (near_imp A t (fun s => f s = g s /\ Cabs (Csub (f s) (f t)) < eps)).
  - intros s _ [-> H]. now rewrite <- E.
  - apply near_and; [assumption|]. now apply K.
Qed.

Lemma cont_add : forall A f g t, cont A f t -> cont A g t -> cont A (fun s => Cadd (f s) (g s)) t.
Proof.
  intros A f g t F G eps E.
  apply (near_imp A t (fun s => Cabs (Csub (f s) (f t)) < eps / 2 /\ Cabs (Csub (g s) (g t)) < eps / 2)).
  - intros s _ [H K].
    replace (Csub (Cadd (f s) (g s)) (Cadd (f t) (g t))) with (Cadd (Csub (f s) (f t)) (Csub (g s) (g t))) by ring.
    assert (T := Cabs_triangle (Csub (f s) (f t)) (Csub (g s) (g t))). lra.
  - apply near_and; [apply F|apply G]; lra.
Qed.

Lemma cont_opp : forall A f t, cont A f t -> cont A (fun s => Copp (f s)) t.
Proof.
  intros A f t F eps E. apply (near_imp A t (fun s => Cabs (Csub (f s) (f t)) < eps)); [|now apply F].
  intros s _ H. replace (Csub (Copp (f s)) (Copp (f t))) with (Copp (Csub (f s) (f t))) by ring.
  now rewrite Cabs_opp.
Qed.

Lemma cont_sub : forall A f g t, cont A f t -> cont A g t -> cont A (fun s => Csub (f s) (g s)) t.
Proof.
  intros A f g t F G. unfold Csub. now apply cont_add; [|apply cont_opp].
Qed.

Lemma cont_mul : forall A f g t, cont A f t -> cont A g t -> cont A (fun s => Cmul (f s) (g s)) t.
Proof.
  intros A f g t F G eps E.
  assert (Pf := Cabs_nonneg (f t)). assert (Pg := Cabs_nonneg (g t)).
  set (k := Cabs (f t) + Cabs (g t) + 1).
  assert (K : 0 < k) by (unfold k; lra).
  set (e := Rmin 1 (eps / k)).
  assert (Ek : 0 < eps / k) by (apply Rdiv_lt_0_compat; lra).
  assert (Pe : 0 < e) by (apply Rmin_pos; lra).
  assert (L1 : e <= 1) by apply Rmin_l.
  assert (L2 : e * k <= eps).
  { apply Rle_trans with (eps / k * k).
    - apply Rmult_le_compat_r; [lra|apply Rmin_r].
    - right. field. lra. }
  apply (near_imp A t (fun s => Cabs (Csub (f s) (f t)) < e /\ Cabs (Csub (g s) (g t)) < e)).
  - intros s _ [H1 H2].
    replace (Csub (Cmul (f s) (g s)) (Cmul (f t) (g t)))
      with (Cadd (Cmul (Csub (f s) (f t)) (Csub (g s) (g t)))
             (Cadd (Cmul (Csub (f s) (f t)) (g t)) (Cmul (f t) (Csub (g s) (g t))))) by ring.
    set (x := Csub (f s) (f t)) in *. set (y := Csub (g s) (g t)) in *.
    assert (Px := Cabs_nonneg x). assert (Py := Cabs_nonneg y).
    assert (T1 := Cabs_triangle (Cmul x y) (Cadd (Cmul x (g t)) (Cmul (f t) y))).
    assert (T2 := Cabs_triangle (Cmul x (g t)) (Cmul (f t) y)).
    rewrite !Cabs_mul in T1. rewrite !Cabs_mul in T2.
    assert (Cabs x * Cabs y <= Cabs x * 1) by (apply Rmult_le_compat_l; lra).
    assert (Cabs x * Cabs (g t) <= e * Cabs (g t)) by (apply Rmult_le_compat_r; lra).
    assert (Cabs (f t) * Cabs y <= Cabs (f t) * e) by (apply Rmult_le_compat_l; lra).
    unfold k in L2. nra.
  - apply near_and; [now apply F|now apply G].
Qed.

(** Away from zero nearby. *)
Lemma cont_away : forall A f t, cont A f t -> f t <> RtoC 0 ->
  near A t (fun s => Cabs (f t) / 2 < Cabs (f s)).
Proof.
  intros A f t F N. assert (P := Cabs_pos _ N).
  apply (near_imp A t (fun s => Cabs (Csub (f s) (f t)) < Cabs (f t) / 2)); [|apply F; lra].
  intros s _ H. assert (T := Cabs_triangle_rev (f t) (Csub (f t) (f s))).
  replace (Csub (f t) (Csub (f t) (f s))) with (f s) in T by ring.
  replace (Csub (f t) (f s)) with (Copp (Csub (f s) (f t))) in T by ring. rewrite Cabs_opp in T. lra.
Qed.

Lemma cont_neq0 : forall A f t, cont A f t -> f t <> RtoC 0 -> near A t (fun s => f s <> RtoC 0).
Proof.
  intros A f t F N. apply (near_imp A t (fun s => Cabs (f t) / 2 < Cabs (f s))); [|now apply cont_away].
  intros s _ H E. rewrite E, Cabs_0 in H. assert (P := Cabs_pos _ N). lra.
Qed.

Lemma cont_neq : forall A f c t, cont A f t -> f t <> c -> near A t (fun s => f s <> c).
Proof.
  intros A f c t F N.
  apply (near_imp A t (fun s => Csub (f s) c <> RtoC 0)).
  - intros s _ H E. apply H. now apply Csub_eq0.
  - apply (cont_neq0 A (fun s => Csub (f s) c)).
    + apply cont_sub; [assumption|apply cont_const].
    + intros E. now apply N, Csub_eq0.
Qed.

Lemma cont_inv : forall A f t, cont A f t -> f t <> RtoC 0 -> cont A (fun s => Cinv (f s)) t.
Proof.
  intros A f t F N eps E. assert (P := Cabs_pos _ N).
  set (a := Cabs (f t)) in *.
  assert (Q : 0 < eps * (a * a) / 2).
  { apply Rmult_lt_0_compat; [|lra]. apply Rmult_lt_0_compat; [assumption|]. now apply Rmult_lt_0_compat. }
  apply (near_imp A t (fun s => (a / 2 < Cabs (f s) /\ f s <> RtoC 0) /\ Cabs (Csub (f s) (f t)) < eps * (a * a) / 2)).
  - intros s _ [[H1 H2] H3].
    replace (Csub (Cinv (f s)) (Cinv (f t))) with (Copp (Cdivt (Csub (f s) (f t)) (Cmul (f s) (f t))))
      by (field; split; assumption).
    rewrite Cabs_opp, Cabs_div by now apply Cmul_neq0. rewrite Cabs_mul. fold a.
    assert (P2 := Cabs_pos _ H2).
    apply Rmult_lt_reg_r with (Cabs (f s) * a); [now apply Rmult_lt_0_compat|].
    replace (Cabs (Csub (f s) (f t)) / (Cabs (f s) * a) * (Cabs (f s) * a)) with (Cabs (Csub (f s) (f t)))
      by (field; lra).
    apply (Rlt_trans _ _ _ H3).
    replace (eps * (a * a) / 2) with (eps * a * (a / 2)) by field.
    replace (eps * (Cabs (f s) * a)) with (eps * a * Cabs (f s)) by ring.
    apply Rmult_lt_compat_l; [now apply Rmult_lt_0_compat|assumption].
  - apply near_and; [apply near_and; [now apply cont_away|now apply cont_neq0]|now apply F].
Qed.

Lemma cont_div : forall A f g t, cont A f t -> cont A g t -> g t <> RtoC 0 ->
  cont A (fun s => Cdivt (f s) (g s)) t.
Proof. intros A f g t F G N. unfold Cdivt. apply cont_mul; [assumption|now apply cont_inv]. Qed.

Lemma cont_comp : forall (A B : region) f g t, cont A f t -> cont B g (f t) -> near A t (fun s => B (f s)) ->
  cont A (fun s => g (f s)) t.
Proof.
  intros A B f g t F G N eps E. destruct (G eps E) as [d [D H]].
  apply (near_imp A t (fun s => B (f s) /\ Cabs (Csub (f s) (f t)) < d)).
  - intros s _ [Bs L]. now apply H.
  - apply near_and; [assumption|now apply F].
Qed.

Lemma cont_csum : forall {X} A (l : list X) (f : X -> C -> C) t,
  (forall x, In x l -> cont A (f x) t) -> cont A (fun s => csum (map (fun x => f x s) l)) t.
Proof.
  intros X A l f t H. induction l as [|x l IH]; simpl.
  - apply cont_const.
  - apply cont_add; [apply H; now left|apply IH; intros; apply H; now right].
Qed.

(** ** Derivatives *)

Lemma diff_cont : forall A f t l, diff A f t l -> cont A f t.
Proof.
  intros A f t l [phi [K [E N]]].
  apply (cont_ext A (fun s => Cadd (f t) (Cmul (Csub s t) (phi s)))).
  - rewrite Csub_diag. ring.
  - apply (near_imp A t (fun s => f s = Cadd (f t) (Cmul (Csub s t) (phi s)))); [|assumption].
    intros s _ H. now symmetry.
  - apply cont_add; [apply cont_const|]. apply cont_mul; [|assumption].
    apply cont_sub; [apply cont_id|apply cont_const].
Qed.

(** The quotient form: the property in the usual words. *)
Lemma diff_quotient : forall A f t l, diff A f t l -> forall eps, 0 < eps ->
  near A t (fun s => s <> t -> Cabs (Csub (Cdivt (Csub (f s) (f t)) (Csub s t)) l) < eps).
Proof.
  intros A f t l [phi [K [E N]]] eps P.
  apply (near_imp A t (fun s => f s = Cadd (f t) (Cmul (Csub s t) (phi s)) /\ Cabs (Csub (phi s) (phi t)) < eps)).
  - intros s _ [H1 H2] Ne. rewrite H1, <- E.
    replace (Cdivt (Csub (Cadd (f t) (Cmul (Csub s t) (phi s))) (f t)) (Csub s t)) with (phi s); [assumption|].
    field. intros Z. now apply Ne, Csub_eq0.
  - apply near_and; [assumption|now apply K].
Qed.

Lemma diff_ext : forall A f g t l, f t = g t -> near A t (fun s => f s = g s) -> diff A f t l -> diff A g t l.
Proof.
  intros A f g t l E N [phi [K [L M]]]. exists phi. split; [assumption|]. split; [assumption|].
  apply (near_imp A t (fun s => f s = g s /\ f s = Cadd (f t) (Cmul (Csub s t) (phi s)))); [|now apply near_and].
  intros s _ [H1 H2]. now rewrite <- H1, <- E.
Qed.

Lemma diff_const : forall A c t, diff A (fun _ => c) t 0%C.
Proof.
  intros A c t. exists (fun _ => 0%C). split; [apply cont_const|]. split; [reflexivity|].
  apply near_all. intros s _. ring.
Qed.

Lemma diff_id : forall A t, diff A (fun s => s) t 1%C.
Proof.
  intros A t. exists (fun _ => 1%C). split; [apply cont_const|]. split; [reflexivity|].
  apply near_all. intros s _. ring.
Qed.

Lemma diff_add : forall A f g t k l, diff A f t k -> diff A g t l -> diff A (fun s => Cadd (f s) (g s)) t (Cadd k l).
Proof.
  intros A f g t k l [p [P1 [P2 P3]]] [q [Q1 [Q2 Q3]]]. exists (fun s => Cadd (p s) (q s)).
  split; [now apply cont_add|]. split; [now rewrite P2, Q2|].
  apply (near_imp A t (fun s => f s = Cadd (f t) (Cmul (Csub s t) (p s)) /\ g s = Cadd (g t) (Cmul (Csub s t) (q s))));
    [|now apply near_and].
  intros s _ [H1 H2]. rewrite H1, H2. ring.
Qed.

Lemma diff_mul : forall A f g t k l, diff A f t k -> diff A g t l ->
  diff A (fun s => Cmul (f s) (g s)) t (Cadd (Cmul k (g t)) (Cmul (f t) l)).
Proof.
  intros A f g t k l Df Dg. assert (Cg := diff_cont _ _ _ _ Dg).
  destruct Df as [p [P1 [P2 P3]]]. destruct Dg as [q [Q1 [Q2 Q3]]].
  exists (fun s => Cadd (Cmul (p s) (g s)) (Cmul (f t) (q s))).
  split; [apply cont_add; apply cont_mul; try assumption; apply cont_const|]. split; [now rewrite P2, Q2|].
  apply (near_imp A t (fun s => f s = Cadd (f t) (Cmul (Csub s t) (p s)) /\ g s = Cadd (g t) (Cmul (Csub s t) (q s))));
    [|now apply near_and].
  intros s _ [H1 H2]. rewrite H1, H2. ring.
Qed.

Lemma diff_opp : forall A f t l, diff A f t l -> diff A (fun s => Copp (f s)) t (Copp l).
Proof.
  intros A f t l [p [P1 [P2 P3]]]. exists (fun s => Copp (p s)). split; [now apply cont_opp|].
  split; [now rewrite P2|]. revert P3. apply near_imp. intros s _ H. rewrite H. ring.
Qed.

Lemma diff_sub : forall A f g t k l, diff A f t k -> diff A g t l -> diff A (fun s => Csub (f s) (g s)) t (Csub k l).
Proof. intros A f g t k l F G. unfold Csub. now apply diff_add; [|apply diff_opp]. Qed.

Lemma diff_inv : forall A f t l, diff A f t l -> f t <> RtoC 0 ->
  diff A (fun s => Cinv (f s)) t (Copp (Cdivt l (Cmul (f t) (f t)))).
Proof.
  intros A f t l D N. assert (K := diff_cont _ _ _ _ D). destruct D as [p [P1 [P2 P3]]].
  exists (fun s => Copp (Cdivt (p s) (Cmul (f t) (f s)))). split; [|split; [now rewrite P2|]].
  - apply cont_opp, cont_div; [assumption| |now apply Cmul_neq0].
    apply cont_mul; [apply cont_const|assumption].
  - apply (near_imp A t (fun s => f s <> RtoC 0 /\ f s = Cadd (f t) (Cmul (Csub s t) (p s)))).
    + intros s _ [H1 H2].
      replace (Cinv (f s)) with (Cadd (Cinv (f t)) (Copp (Cdivt (Csub (f s) (f t)) (Cmul (f t) (f s)))))
        by (field; split; assumption).
      replace (Csub (f s) (f t)) with (Cmul (Csub s t) (p s)) by (rewrite H2; ring).
      unfold Cdivt. ring.
    + apply near_and; [now apply cont_neq0|assumption].
Qed.

Lemma diff_div : forall A f g t k l, diff A f t k -> diff A g t l -> g t <> RtoC 0 ->
  exists m, diff A (fun s => Cdivt (f s) (g s)) t m.
Proof. intros A f g t k l F G N. eexists. unfold Cdivt. apply (diff_mul A f (fun s => Cinv (g s))); [exact F|exact (diff_inv A g t l G N)]. Qed.

Lemma diff_comp : forall (A B : region) f g t k l, diff A f t k -> diff B g (f t) l ->
  near A t (fun s => B (f s)) -> diff A (fun s => g (f s)) t (Cmul k l).
Proof.
  intros A B f g t k l Df [q [Q1 [Q2 Q3]]] N. assert (Cf := diff_cont _ _ _ _ Df).
  destruct Df as [p [P1 [P2 P3]]]. exists (fun s => Cmul (p s) (q (f s))).
  split; [apply cont_mul; [assumption|now apply (cont_comp A B)]|]. split; [now rewrite P2, Q2|].
  destruct Q3 as [d [D Q3]].
  apply (near_imp A t (fun s => (B (f s) /\ Cabs (Csub (f s) (f t)) < d) /\ f s = Cadd (f t) (Cmul (Csub s t) (p s)))).
  - intros s _ [[H1 H2] H3]. rewrite (Q3 _ H1 H2). f_equal.
    replace (Csub (f s) (f t)) with (Cmul (Csub s t) (p s)) by (rewrite H3 at 1; ring). ring.
  - apply near_and; [|assumption]. apply near_and; [assumption|now apply Cf].
Qed.

Lemma diff_csum : forall {X} A (l : list X) (f : X -> C -> C) t,
  (forall x, In x l -> exists m, diff A (f x) t m) ->
  exists m, diff A (fun s => csum (map (fun x => f x s) l)) t m.
Proof.
  intros X A l f t H. induction l as [|x l IH]; simpl.
  - eexists. apply diff_const.
  - destruct (H x (or_introl eq_refl)) as [m M]. destruct IH as [n N]; [intros; apply H; now right|].
    eexists. apply diff_add; eassumption.
Qed.

(** ** The square root *)

(** Points of [A] stay away from the lower half plane, or the point is off the cut. *)
Definition upper_region (A : region) : Prop := forall s, A s -> 0 <= Im s.

Lemma square_root_first_quadrant : forall z, 0 <= Im z -> 0 <= Re (square_root z).
Proof.
  intros z H. assert (S := square_root_sq z). assert (U := square_root_upper z).
  set (s := square_root z) in *.
  assert (E2 : Im z = Re s * Im s + Im s * Re s) by (rewrite <- S; reflexivity).
  unfold upper in U. destruct U as [U|[U1 U2]]; [|assumption]. nra.
Qed.

Lemma Im_square_root_nonneg : forall z, 0 <= Im (square_root z).
Proof. intros z. destruct (square_root_upper z) as [H|[H _]]; lra. Qed.

(** Near a point off the cut, or on the upper side of it, sums of two roots stay away from zero. *)
Lemma root_sum_away : forall A z, (~ on_cut z \/ (upper_region A /\ 0 <= Im z /\ z <> RtoC 0)) ->
  exists b, 0 < b /\ forall s, A s -> b <= Cabs (Cadd (square_root s) (square_root z)).
Proof.
  intros A z [H|[H1 [H2 H3]]].
  - apply square_root_off_cut in H. exists (Im (square_root z)). split; [assumption|].
    intros s _. assert (P := Im_square_root_nonneg s).
    apply Rle_trans with (Rabs (Im (Cadd (square_root s) (square_root z)))); [|apply Cabs_Im].
    simpl. rewrite Rabs_right; lra.
  - destruct (on_cut_dec z) as [[I R]|H].
    + assert (Q := square_root_first_quadrant z H2). exists (Re (square_root z)). split.
      * assert (S := square_root_sq z). destruct (Req_dec (Re (square_root z)) 0) as [Z|Z]; [|lra].
        exfalso. apply H3.
        assert (E1 : Re z = Re (square_root z) * Re (square_root z) - Im (square_root z) * Im (square_root z))
          by (rewrite <- S at 1; reflexivity).
        apply C_ext; simpl; [|assumption]. rewrite Z in E1. nra.
      * intros s As. assert (P := square_root_first_quadrant s (H1 s As)).
        apply Rle_trans with (Rabs (Re (Cadd (square_root s) (square_root z)))); [|apply Cabs_Re].
        simpl. rewrite Rabs_right; lra.
    + apply square_root_off_cut in H. exists (Im (square_root z)). split; [assumption|].
      intros s _. assert (P := Im_square_root_nonneg s).
      apply Rle_trans with (Rabs (Im (Cadd (square_root s) (square_root z)))); [|apply Cabs_Im].
      simpl. rewrite Rabs_right; lra.
Qed.

Lemma root_difference : forall s z, Cadd (square_root s) (square_root z) <> RtoC 0 ->
  Csub (square_root s) (square_root z) = Cdivt (Csub s z) (Cadd (square_root s) (square_root z)).
Proof.
  intros s z N.
  transitivity (Cdivt (Csub (Cmul (square_root s) (square_root s)) (Cmul (square_root z) (square_root z)))
    (Cadd (square_root s) (square_root z))); [field; assumption|]. now rewrite !square_root_sq.
Qed.

Lemma cont_square_root : forall A z, (~ on_cut z \/ (upper_region A /\ 0 <= Im z)) -> cont A square_root z.
Proof.
  intros A z H eps E. destruct (C_eq_dec z (RtoC 0)) as [->|N].
  - exists (eps * eps). split; [now apply Rmult_lt_0_compat|]. intros s _ L.
    rewrite (proj2 (square_root_0_iff 0) eq_refl).
    replace (Csub (square_root s) 0) with (square_root s) by ring.
    replace (Csub s 0) with s in L by ring. rewrite <- (square_root_sq s), Cabs_mul in L.
    assert (P := Cabs_nonneg (square_root s)). nra.
  - destruct (root_sum_away A z) as [b [B K]]; [tauto|].
    exists (eps * b). split; [now apply Rmult_lt_0_compat|]. intros s As L. specialize (K s As).
    assert (M : Cadd (square_root s) (square_root z) <> RtoC 0).
    { intros Z. rewrite Z, Cabs_0 in K. lra. }
    rewrite (root_difference _ _ M), Cabs_div by assumption. assert (P := Cabs_nonneg (Csub s z)).
    apply Rmult_lt_reg_r with (Cabs (Cadd (square_root s) (square_root z))); [lra|].
    unfold Rdiv. rewrite Rmult_assoc, Rinv_l, Rmult_1_r by lra. nra.
Qed.

Lemma diff_square_root : forall A z, (~ on_cut z \/ (upper_region A /\ 0 <= Im z /\ z <> RtoC 0)) ->
  diff A square_root z (Cinv (Cmul 2 (square_root z))).
Proof.
  intros A z H. destruct (root_sum_away A z H) as [b [B K]].
  assert (N : square_root z <> RtoC 0).
  { intros Z. apply (proj1 (square_root_0_iff z)) in Z. subst z. destruct H as [H|H]; [|tauto].
    apply H. split; simpl; lra. }
  assert (N2 : Cadd (square_root z) (square_root z) <> RtoC 0).
  { replace (Cadd (square_root z) (square_root z)) with (Cmul (RtoC 2) (square_root z)) by (apply C_ext; simpl; ring).
    apply Cmul_neq0; [apply RtoC_neq0; lra|assumption]. }
  exists (fun s => Cinv (Cadd (square_root s) (square_root z))). split; [|split].
  - apply cont_inv; [|assumption]. apply cont_add; [|apply cont_const]. apply cont_square_root. tauto.
  - f_equal. apply C_ext; simpl; ring.
  - apply near_all. intros s As. specialize (K s As).
    assert (M : Cadd (square_root s) (square_root z) <> RtoC 0).
    { intros Z. rewrite Z, Cabs_0 in K. lra. }
    replace (square_root s) with (Cadd (square_root z) (Csub (square_root s) (square_root z))) at 1 by ring.
    now rewrite (root_difference _ _ M).
Qed.

(** ** The map from t to W *)

(** Where the map is differentiable relative to [A]: off the cut, or on it when [A] stays above it. *)
Definition sided (A : region) (t_0 : R) (t : C) : Prop :=
  ~ on_cut (Csub t t_0) \/ (upper_region A /\ 0 <= Im t).

(** The quotient inside the map keeps the upper half plane. *)
Lemma quotient_Im : forall a z, 0 < a -> Cadd (Copp z) (RtoC a) <> RtoC 0 ->
  Im (Cdivt (Cadd z (RtoC a)) (Cadd (Copp z) (RtoC a))) =
  2 * a * Im z / Cnorm2 (Cadd (Copp z) (RtoC a)).
Proof.
  intros a z P N. apply Cnorm2_pos in N. unfold Cdivt. simpl. unfold Cnorm2 in *. simpl in *. field. lra.
Qed.

#[local] Transparent zt vt Wt.

Section MapSide.
Variables t_0 t_in : R.
Hypothesis Hlt : t_0 < t_in.
Let a := sqrt (t_in - t_0).

Definition ut (t : C) : C := Cdivt (Cadd (zt t_0 t) (RtoC a)) (Cadd (Copp (zt t_0 t)) (RtoC a)).

Lemma vt_ut : forall t, vt t_0 t_in t = square_root (ut t).
Proof. reflexivity. Qed.

Lemma ut_upper : forall t, t <> RtoC t_in -> 0 <= Im (ut t).
Proof.
  intros t N. unfold ut. assert (D := den_neq0 t_0 t_in Hlt t N).
  rewrite quotient_Im; [|now apply a_pos|assumption].
  apply Cnorm2_pos in D. assert (P := a_pos t_0 t_in Hlt). fold a in P, D.
  assert (Q := Im_square_root_nonneg (Csub t t_0)). rewrite <- zt_eq in Q.
  apply Rmult_le_pos; [|left; now apply Rinv_0_lt_compat]. nra.
Qed.

Lemma ut_off_cut : forall t, t <> RtoC t_in -> ~ on_cut (Csub t t_0) -> ~ on_cut (ut t).
Proof.
  intros t N H [I _]. unfold ut in I. assert (D := den_neq0 t_0 t_in Hlt t N).
  rewrite quotient_Im in I; [|now apply a_pos|assumption].
  apply Cnorm2_pos in D. assert (P := a_pos t_0 t_in Hlt). fold a in P, D.
  apply square_root_off_cut in H. rewrite <- zt_eq in H.
  assert (0 < 2 * a * Im (zt t_0 t) / Cnorm2 (Cadd (Copp (zt t_0 t)) (RtoC a))); [|lra].
  apply Rdiv_lt_0_compat; [nra|assumption].
Qed.

Lemma ut_neq0 : forall t, t <> RtoC t_in -> ut t <> RtoC 0.
Proof.
  intros t N. unfold ut. apply Cdivt_neq0; [|now apply den_neq0].
  intros E. assert (P := a_pos t_0 t_in Hlt). fold a in P.
  assert (E1 : Re (zt t_0 t) = - a) by (apply (f_equal Re) in E; simpl in E; lra).
  assert (E2 : Im (zt t_0 t) = 0) by (apply (f_equal Im) in E; simpl in E; lra).
  assert (U := square_root_upper (Csub t t_0)). rewrite <- zt_eq in U. unfold upper in U. lra.
Qed.

Lemma on_cut_dec' : forall t, t <> RtoC t_0 -> Csub t t_0 <> RtoC 0.
Proof. intros t N E. now apply N, Csub_eq0. Qed.

Lemma Im_shift : forall t, Im (Csub t t_0) = Im t.
Proof. intros. simpl. ring. Qed.

Lemma cont_shift : forall A t, cont A (fun s => Csub s t_0) t.
Proof. intros. apply cont_sub; [apply cont_id|apply cont_const]. Qed.

Lemma zt_cont : forall A t, sided A t_0 t -> cont A (zt t_0) t.
Proof.
  intros A t [S|[S I]].
  - unfold zt. apply (cont_comp A everywhere (fun s => Csub s t_0)); [apply cont_shift| |now apply near_all].
    apply cont_square_root. now left.
  - unfold zt. apply (cont_comp A (fun s => 0 <= Im s) (fun s => Csub s t_0)); [apply cont_shift| |].
    + apply cont_square_root. right. split; [exact (fun s H => H)|]. now rewrite Im_shift.
    + apply near_all. intros s As. rewrite Im_shift. auto.
Qed.

Lemma zt_diff : forall A t, sided A t_0 t -> t <> RtoC t_0 -> exists l, diff A (zt t_0) t l.
Proof.
  intros A t S N. eexists. unfold zt. destruct S as [S|[S I]].
  - apply (diff_comp A everywhere (fun s => Csub s t_0)).
    + apply diff_sub; [apply diff_id|apply diff_const].
    + apply diff_square_root. now left.
    + now apply near_all.
  - apply (diff_comp A (fun s => 0 <= Im s) (fun s => Csub s t_0)).
    + apply diff_sub; [apply diff_id|apply diff_const].
    + apply diff_square_root. right. split; [exact (fun s H => H)|].
      split; [now rewrite Im_shift|now apply on_cut_dec'].
    + apply near_all. intros s As. rewrite Im_shift. auto.
Qed.

Lemma ut_cont : forall A t, sided A t_0 t -> t <> RtoC t_in -> cont A ut t.
Proof.
  intros A t S N. unfold ut. apply cont_div; [| |now apply den_neq0].
  - apply cont_add; [now apply zt_cont|apply cont_const].
  - apply cont_add; [apply cont_opp; now apply zt_cont|apply cont_const].
Qed.

Lemma ut_diff : forall A t, sided A t_0 t -> t <> RtoC t_0 -> t <> RtoC t_in -> exists l, diff A ut t l.
Proof.
  intros A t S N M. destruct (zt_diff A t S N) as [l L]. unfold ut.
  eapply (diff_div A (fun s => Cadd (zt t_0 s) (RtoC a)) (fun s => Cadd (Copp (zt t_0 s)) (RtoC a))); [| |now apply den_neq0].
  - apply diff_add; [eassumption|apply diff_const].
  - apply diff_add; [apply diff_opp; eassumption|apply diff_const].
Qed.

Lemma near_ut_upper : forall A t, t <> RtoC t_in -> near A t (fun s => 0 <= Im (ut s)).
Proof.
  intros A t N. apply (near_imp A t (fun s => s <> RtoC t_in)); [intros s _; apply ut_upper|].
  now apply (cont_neq A (fun s => s)); [apply cont_id|].
Qed.

Lemma vt_cont : forall A t, sided A t_0 t -> t <> RtoC t_in -> cont A (vt t_0 t_in) t.
Proof.
  intros A t S N. apply (cont_comp A (fun s => 0 <= Im s) ut square_root).
  - now apply ut_cont.
  - apply cont_square_root. right. split; [exact (fun s H => H)|now apply ut_upper].
  - now apply near_ut_upper.
Qed.

Lemma vt_diff : forall A t, sided A t_0 t -> t <> RtoC t_0 -> t <> RtoC t_in ->
  exists l, diff A (vt t_0 t_in) t l.
Proof.
  intros A t S N M. destruct (ut_diff A t S N M) as [l L]. eexists.
  apply (diff_comp A (fun s => 0 <= Im s) ut square_root); [exact L| |now apply near_ut_upper].
  apply diff_square_root. right. split; [exact (fun s H => H)|].
  split; [now apply ut_upper|now apply ut_neq0].
Qed.

Lemma Wt_cont : forall A t, sided A t_0 t -> t <> RtoC t_in -> cont A (Wt t_0 t_in) t.
Proof.
  intros A t S N. assert (V := vt_cont A t S N). unfold Wt.
  apply cont_div; [| |apply vt_p1].
  - apply cont_mul; [apply cont_const|]. apply cont_sub; [assumption|apply cont_const].
  - apply cont_add; [assumption|apply cont_const].
Qed.

Lemma Wt_diff : forall A t, sided A t_0 t -> t <> RtoC t_0 -> t <> RtoC t_in ->
  exists l, diff A (Wt t_0 t_in) t l.
Proof.
  intros A t S N M. destruct (vt_diff A t S N M) as [l V]. unfold Wt.
  eapply (diff_div A (fun s => Cmul Ci (Csub (vt t_0 t_in s) 1)) (fun s => Cadd (vt t_0 t_in s) 1)); [| |apply vt_p1].
  - apply diff_mul; [apply diff_const|]. apply diff_sub; [eassumption|apply diff_const].
  - apply diff_add; [eassumption|apply diff_const].
Qed.

End MapSide.
