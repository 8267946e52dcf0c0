(** Verified enclosures: fixed-point ball arithmetic on integers for real and complex numbers.

    A ball is an integer midpoint and an integer radius in units of 2^-prec.  Every operation below comes with
    a proof that it encloses the exact operation; an operation that cannot decide (a divisor ball that touches
    zero, a comparison of overlapping balls) answers [None].  Nothing here is part of the model of the Python
    code; it is the instrument with which the model is evaluated at concrete points (Enclose.v, PropsEnclose.v). *)
From Coq Require Import Reals ZArith Lia Lra List String Bool.
From Verif Require Import PyBase CNum UAMaps MapProofs.
Import ListNotations.
Local Open Scope Z_scope.

Definition prec : Z := 72.
Definition scale : Z := Z.shiftl 1 prec.

Record ball : Type := mkBall { mid : Z; rad : Z }.

(** [x] lies in the ball. *)
Definition inB (b : ball) (x : R) : Prop := (Rabs (x * IZR scale - IZR (mid b)) <= IZR (rad b))%R.

(** Rounding: floor and ceiling of a quotient by the scale or by a positive integer. *)
Definition floor_scale (p : Z) : Z := Z.shiftr p prec.
Definition ceil_scale (p : Z) : Z := - Z.shiftr (- p) prec.
Definition ceil_div (p d : Z) : Z := - ((- p) / d).

Definition b_zero : ball := mkBall 0 0.
Definition b_int (n : Z) : ball := mkBall (Z.shiftl n prec) 0.
Definition b_rat (n : Z) (d : positive) : ball :=
  let '(q, r) := Z.div_eucl (Z.shiftl n prec) (Zpos d) in
  mkBall q (if r =? 0 then 0 else 1).
Definition b_add (a b : ball) : ball := mkBall (mid a + mid b) (rad a + rad b).
Definition b_opp (a : ball) : ball := mkBall (- mid a) (rad a).
Definition b_sub (a b : ball) : ball := mkBall (mid a - mid b) (rad a + rad b).
Definition b_mul (a b : ball) : ball :=
  let p := mid a * mid b in
  let q := floor_scale p in
  let e := rad b * Z.abs (mid a) + rad a * Z.abs (mid b) + rad a * rad b in
  mkBall q (ceil_scale e + (if p =? Z.shiftl q prec then 0 else 1)).
(** Inverse of a ball of positive numbers. *)
Definition b_inv_pos (a : ball) : option ball :=
  let m := mid a in let r := rad a in
  if (0 <=? r) && (r <? m) then
    let '(q, rem) := Z.div_eucl (Z.shiftl scale prec) m in
    Some (mkBall q (ceil_div (r * (q + 1)) (m - r) + (if rem =? 0 then 0 else 1)))
  else None.
Definition b_inv (a : ball) : option ball :=
  if 0 <? mid a then b_inv_pos a
  else match b_inv_pos (b_opp a) with Some b => Some (b_opp b) | None => None end.
Definition b_sqrt (a : ball) : option ball :=
  let m := mid a in let r := rad a in
  if (m =? 0) && (r =? 0) then Some b_zero
  else if (0 <=? r) && (r <? m) then
    let '(s, rem) := Z.sqrtrem (Z.shiftl m prec) in
    Some (mkBall s (ceil_div (Z.shiftl r prec) s + (if rem =? 0 then 0 else 1)))
  else None.

(** Decided comparison [x < y]. *)
Definition b_lt (a b : ball) : option bool :=
  if mid a + rad a <? mid b - rad b then Some true
  else if mid b + rad b <=? mid a - rad a then Some false
  else None.
(** Decided sign of a number that is not zero. *)
Definition b_sign (a : ball) : option bool :=
  if rad a <? mid a then Some true
  else if mid a <? - rad a then Some false
  else None.
Definition b_is_zero (a : ball) : bool := (mid a =? 0) && (rad a =? 0).

(** ** Complex balls *)
Record cball : Type := mkCB { bre : ball; bim : ball }.
Definition inC (b : cball) (z : C) : Prop := inB (bre b) (Re z) /\ inB (bim b) (Im z).
Definition cb_real (a : ball) : cball := mkCB a b_zero.
Definition cb_add (a b : cball) : cball := mkCB (b_add (bre a) (bre b)) (b_add (bim a) (bim b)).
Definition cb_opp (a : cball) : cball := mkCB (b_opp (bre a)) (b_opp (bim a)).
Definition cb_sub (a b : cball) : cball := mkCB (b_sub (bre a) (bre b)) (b_sub (bim a) (bim b)).
Definition cb_mul (a b : cball) : cball :=
  mkCB (b_sub (b_mul (bre a) (bre b)) (b_mul (bim a) (bim b)))
       (b_add (b_mul (bre a) (bim b)) (b_mul (bim a) (bre b))).
Definition cb_conj (a : cball) : cball := mkCB (bre a) (b_opp (bim a)).
Definition cb_norm2 (a : cball) : ball := b_add (b_mul (bre a) (bre a)) (b_mul (bim a) (bim a)).
Definition cb_abs (a : cball) : option ball := b_sqrt (cb_norm2 a).
Definition cb_div (a b : cball) : option cball :=
  match b_inv_pos (cb_norm2 b) with
  | Some i => let p := cb_mul a (cb_conj b) in Some (mkCB (b_mul (bre p) i) (b_mul (bim p) i))
  | None => None
  end.
Definition b_half (a : ball) : ball := mkBall (Z.div2 (mid a)) (Z.div2 (rad a) + 2).

(** The square root of functions.py l.28-47 (the one in the upper half-plane). *)
Definition cb_sqrt (z : cball) : option cball :=
  let x := bre z in let y := bim z in
  if b_is_zero y then
    if 0 <=? mid x then option_map cb_real (b_sqrt x)
    else option_map (fun s => mkCB b_zero s) (b_sqrt (b_opp x))
  else
    match b_sign y with
    | None => None
    | Some up =>
      match cb_abs z with
      | None => None
      | Some r =>
        if 0 <=? mid x then
          match b_sqrt (b_half (b_add r x)) with
          | None => None
          | Some u => match b_inv_pos (b_add u u) with
                      | None => None
                      | Some i => let v := b_mul y i in
                                  Some (if up then mkCB u v else mkCB (b_opp u) (b_opp v))
                      end
          end
        else
          match b_sqrt (b_half (b_sub r x)) with
          | None => None
          | Some v => match b_inv_pos (b_add v v) with
                      | None => None
                      | Some i => Some (mkCB (b_mul y i) v)
                      end
          end
      end
    end.

(** ** Soundness *)
Local Open Scope R_scope.

Lemma scale_pos : (0 < scale)%Z.
Proof. reflexivity. Qed.
Lemma scale_pow : scale = (2 ^ prec)%Z.
Proof. unfold scale. now rewrite Z.shiftl_1_l. Qed.
#[global] Opaque scale prec.
Lemma prec_nonneg : (0 <= prec)%Z.
Proof. Transparent prec. unfold prec. lia. Opaque prec. Qed.
Lemma scaleR_pos : 0 < IZR scale.
Proof. apply IZR_lt, scale_pos. Qed.
#[global] Hint Resolve scaleR_pos scale_pos prec_nonneg : core.

Lemma shiftl_scale : forall n, Z.shiftl n prec = (n * scale)%Z.
Proof. intro n. rewrite Z.shiftl_mul_pow2 by auto. now rewrite scale_pow. Qed.
Lemma shiftr_scale : forall n, Z.shiftr n prec = (n / scale)%Z.
Proof. intro n. rewrite Z.shiftr_div_pow2 by auto. now rewrite scale_pow. Qed.

Lemma floor_div_le : forall p d, (0 < d)%Z -> IZR (p / d) <= IZR p / IZR d < IZR (p / d) + 1.
Proof.
  intros p d Hd. assert (D : 0 < IZR d) by now apply IZR_lt.
  pose proof (Z.div_mod p d ltac:(lia)) as E. pose proof (Z.mod_pos_bound p d Hd) as B.
  assert (E' : IZR p = IZR d * IZR (p / d) + IZR (p mod d)).
  { rewrite E at 1. now rewrite plus_IZR, mult_IZR. }
  assert (Q : IZR p / IZR d = IZR (p / d) + IZR (p mod d) / IZR d) by (rewrite E'; field; lra).
  rewrite Q. destruct B as [B1 B2]. apply IZR_le in B1. apply IZR_lt in B2.
  assert (0 <= IZR (p mod d) / IZR d) by (apply Rmult_le_pos; [lra|apply Rlt_le, Rinv_0_lt_compat; lra]).
  assert (IZR (p mod d) / IZR d < 1).
  { apply (Rmult_lt_reg_r (IZR d)); [lra|]. unfold Rdiv. rewrite Rmult_assoc, Rinv_l by lra. lra. }
  lra.
Qed.

Lemma ceil_div_ge : forall p d, (0 < d)%Z -> IZR p / IZR d <= IZR (ceil_div p d).
Proof.
  intros p d Hd. unfold ceil_div. rewrite opp_IZR.
  pose proof (floor_div_le (- p) d Hd) as [H _]. rewrite opp_IZR in H.
  unfold Rdiv in *. rewrite Ropp_mult_distr_l_reverse in H. lra.
Qed.

Lemma ceil_scale_ge : forall p, IZR p / IZR scale <= IZR (ceil_scale p).
Proof.
  intro p. unfold ceil_scale. rewrite shiftr_scale. apply (ceil_div_ge p scale). auto.
Qed.

Lemma inB_rad : forall b x, inB b x -> (0 <= rad b)%Z.
Proof.
  intros b x H. unfold inB in H. apply le_IZR. eapply Rle_trans; [apply Rabs_pos|exact H].
Qed.

Lemma inB_bounds : forall b x, inB b x <->
  IZR (mid b - rad b) <= x * IZR scale <= IZR (mid b + rad b).
Proof.
  intros b x. unfold inB. rewrite minus_IZR, plus_IZR. split.
  - intro H. unfold Rabs in H. destruct Rcase_abs; lra.
  - intros H. apply Rabs_le. lra.
Qed.

Lemma in_zero : inB b_zero 0.
Proof. unfold inB, b_zero. simpl. rewrite Rmult_0_l, Rminus_0_r, Rabs_R0. lra. Qed.

Lemma in_zero_inv : forall x, inB b_zero x -> x = 0.
Proof.
  intros x H. apply inB_bounds in H. unfold b_zero in H. simpl in H.
  assert (E : x * IZR scale = 0) by lra. apply Rmult_integral in E. pose proof scaleR_pos. destruct E; lra.
Qed.

Lemma is_zero_inv : forall b x, b_is_zero b = true -> inB b x -> x = 0.
Proof.
  intros [m r] x H I. unfold b_is_zero in H. simpl in H. apply andb_true_iff in H as [E1 E2].
  apply Z.eqb_eq in E1. apply Z.eqb_eq in E2. subst. now apply in_zero_inv.
Qed.

Lemma in_int : forall n, inB (b_int n) (IZR n).
Proof.
  intro n. unfold inB, b_int. cbn [mid rad]. rewrite shiftl_scale, mult_IZR.
  replace (IZR n * IZR scale - IZR n * IZR scale) with 0 by ring. rewrite Rabs_R0. lra.
Qed.

Lemma in_rat : forall n d, inB (b_rat n d) (IZR n / IZR (Zpos d)).
Proof.
  intros n d. unfold inB, b_rat. rewrite shiftl_scale.
  pose proof (floor_div_le (n * scale) (Zpos d) ltac:(lia)) as H.
  pose proof (Z.div_mod (n * scale) (Zpos d) ltac:(lia)) as E. unfold Z.div, Z.modulo in H, E.
  destruct (Z.div_eucl (n * scale) (Zpos d)) as [q r]. cbn [mid rad]. rewrite mult_IZR in H.
  assert (D : 0 < IZR (Zpos d)) by (apply IZR_lt; lia).
  replace (IZR n / IZR (Z.pos d) * IZR scale) with (IZR n * IZR scale / IZR (Z.pos d)) by (field; lra).
  destruct (Z.eqb_spec r 0) as [->|].
  - assert (X : IZR n * IZR scale = IZR (Zpos d) * IZR q).
    { rewrite <- !mult_IZR. f_equal. lia. }
    replace (IZR n * IZR scale / IZR (Z.pos d) - IZR q) with 0 by (rewrite X; field; lra).
    rewrite Rabs_R0. lra.
  - apply Rabs_le. lra.
Qed.

Lemma in_add : forall a b x y, inB a x -> inB b y -> inB (b_add a b) (x + y).
Proof.
  intros a b x y Ha Hb. apply inB_bounds in Ha. apply inB_bounds in Hb. apply inB_bounds.
  unfold b_add. cbn [mid rad]. rewrite !minus_IZR, !plus_IZR in *. rewrite Rmult_plus_distr_r. lra.
Qed.

Lemma in_opp : forall a x, inB a x -> inB (b_opp a) (- x).
Proof.
  intros a x Ha. apply inB_bounds in Ha. apply inB_bounds. unfold b_opp. cbn [mid rad].
  rewrite !minus_IZR, !plus_IZR, !opp_IZR in *. lra.
Qed.

Lemma in_sub : forall a b x y, inB a x -> inB b y -> inB (b_sub a b) (x - y).
Proof.
  intros a b x y Ha Hb. apply inB_bounds in Ha. apply inB_bounds in Hb. apply inB_bounds.
  unfold b_sub. cbn [mid rad]. rewrite !minus_IZR, !plus_IZR, ?minus_IZR in *.
  unfold Rminus in *. rewrite Rmult_plus_distr_r. lra.
Qed.

Lemma in_mul : forall a b x y, inB a x -> inB b y -> inB (b_mul a b) (x * y).
Proof.
  intros a b x y Ha Hb. pose proof (inB_rad _ _ Ha) as Ra. pose proof (inB_rad _ _ Hb) as Rb.
  unfold inB in *. unfold b_mul. cbn [mid rad].
  set (m := IZR (mid a)) in *. set (n := IZR (mid b)) in *.
  set (r := IZR (rad a)) in *. set (s := IZR (rad b)) in *.
  set (X := x * IZR scale) in *. set (Y := y * IZR scale) in *.
  pose proof scaleR_pos as S0.
  set (e := (rad b * Z.abs (mid a) + rad a * Z.abs (mid b) + rad a * rad b)%Z).
  assert (Ee : IZR e = s * Rabs m + r * Rabs n + r * s).
  { unfold e. rewrite !plus_IZR, !mult_IZR, !abs_IZR. reflexivity. }
  assert (M : Rabs (X * Y - m * n) <= IZR e).
  { rewrite Ee. replace (X * Y - m * n) with ((X - m) * (Y - n) + (m * (Y - n) + n * (X - m))) by ring.
    eapply Rle_trans; [apply Rabs_triang|]. eapply Rle_trans; [apply Rplus_le_compat_l, Rabs_triang|].
    rewrite !Rabs_mult.
    assert (Rabs (X - m) * Rabs (Y - n) <= r * s) by (apply Rmult_le_compat; auto using Rabs_pos).
    assert (Rabs m * Rabs (Y - n) <= Rabs m * s) by (apply Rmult_le_compat_l; auto using Rabs_pos).
    assert (Rabs n * Rabs (X - m) <= Rabs n * r) by (apply Rmult_le_compat_l; auto using Rabs_pos).
    lra. }
  pose proof (ceil_scale_ge e) as Ce.
  assert (M' : Rabs (x * y * IZR scale - m * n / IZR scale) <= IZR (ceil_scale e)).
  { replace (x * y * IZR scale - m * n / IZR scale) with ((X * Y - m * n) * / IZR scale)
      by (unfold X, Y; field; lra).
    rewrite Rabs_mult, (Rabs_right (/ IZR scale)) by (left; now apply Rinv_0_lt_compat).
    eapply Rle_trans; [|exact Ce]. unfold Rdiv. apply Rmult_le_compat_r; [|exact M].
    left. now apply Rinv_0_lt_compat. }
  set (p := (mid a * mid b)%Z). assert (Ep : IZR p = m * n) by (unfold p; now rewrite mult_IZR).
  rewrite shiftl_scale. unfold floor_scale. rewrite shiftr_scale.
  pose proof (floor_div_le p scale scale_pos) as F. rewrite Ep in F.
  assert (N : Rabs (m * n / IZR scale - IZR (p / scale)) <=
              IZR (if (p =? p / scale * scale)%Z then 0 else 1)).
  { destruct (Z.eqb_spec p (p / scale * scale)) as [E|_].
    - assert (E' : m * n = IZR (p / scale) * IZR scale) by (rewrite <- mult_IZR, <- E; now symmetry).
      rewrite E'. replace (IZR (p / scale) * IZR scale / IZR scale - IZR (p / scale)) with 0 by (field; lra).
      rewrite Rabs_R0. lra.
    - apply Rabs_le. lra. }
  rewrite plus_IZR.
  replace (x * y * IZR scale - IZR (p / scale))
    with ((x * y * IZR scale - m * n / IZR scale) + (m * n / IZR scale - IZR (p / scale))) by ring.
  eapply Rle_trans; [apply Rabs_triang|]. lra.
Qed.

Lemma in_inv_pos : forall a b x, b_inv_pos a = Some b -> inB a x -> 0 < x /\ inB b (/ x).
Proof.
  intros a b x E H. unfold b_inv_pos in E. destruct (Z.leb_spec 0 (rad a)); [|discriminate].
  destruct (Z.ltb_spec (rad a) (mid a)) as [L|]; [|discriminate]. cbn [andb] in E.
  rewrite shiftl_scale in E.
  pose proof (floor_div_le (scale * scale) (mid a) ltac:(lia)) as F.
  pose proof (ceil_div_ge (rad a * (scale * scale / mid a + 1)) (mid a - rad a) ltac:(lia)) as G.
  pose proof (Z.div_mod (scale * scale) (mid a) ltac:(lia)) as DM. unfold Z.div, Z.modulo in F, G, DM.
  destruct (Z.div_eucl (scale * scale) (mid a)) as [qz rem].
  injection E as <-. pose proof (proj1 (inB_bounds _ _) H) as B. unfold inB in H |- *. cbn [mid rad].
  pose proof scaleR_pos as S0.
  set (m := IZR (mid a)) in *. set (r := IZR (rad a)) in *. set (X := x * IZR scale) in *.
  assert (r0 : 0 <= r) by now apply (IZR_le 0). assert (Lr : r < m) by now apply IZR_lt.
  rewrite minus_IZR in B. fold m r in B.
  assert (X0 : 0 < X) by lra.
  assert (x0 : 0 < x). { apply (Rmult_lt_reg_r (IZR scale)); [lra|]. unfold X in X0. lra. }
  split; [exact x0|].
  rewrite mult_IZR, plus_IZR, minus_IZR in G. rewrite mult_IZR in F. fold m r in F, G.
  rewrite plus_IZR. set (q := IZR qz) in *.
  replace (/ x * IZR scale) with (IZR scale * IZR scale / X) by (unfold X; field; lra).
  assert (D : Rabs (IZR scale * IZR scale / X - IZR scale * IZR scale / m) <=
              IZR scale * IZR scale * r / ((m - r) * m)).
  { replace (IZR scale * IZR scale / X - IZR scale * IZR scale / m)
      with ((m - X) * (IZR scale * IZR scale / (X * m))) by (field; lra).
    assert (P : 0 < IZR scale * IZR scale) by nra.
    rewrite Rabs_mult, (Rabs_right (IZR scale * IZR scale / (X * m))).
    2: { left. apply Rdiv_lt_0_compat; nra. }
    replace (IZR scale * IZR scale * r / ((m - r) * m)) with (r * (IZR scale * IZR scale / ((m - r) * m)))
      by (field; lra).
    apply Rmult_le_compat.
    - apply Rabs_pos.
    - left. apply Rdiv_lt_0_compat; nra.
    - now rewrite Rabs_minus_sym.
    - unfold Rdiv. apply Rmult_le_compat_l; [lra|]. apply Rinv_le_contravar; nra. }
  replace (IZR scale * IZR scale / X - q)
    with ((IZR scale * IZR scale / X - IZR scale * IZR scale / m)
          + (IZR scale * IZR scale / m - q)) by ring.
  eapply Rle_trans; [apply Rabs_triang|].
  assert (Rabs (IZR scale * IZR scale / m - q) <= IZR (if (rem =? 0)%Z then 0 else 1)).
  { destruct (Z.eqb_spec rem 0) as [->|_]; [|apply Rabs_le; lra].
    assert (Q : IZR scale * IZR scale = m * q).
    { unfold m, q. rewrite <- !mult_IZR. f_equal. lia. }
    replace (IZR scale * IZR scale / m - q) with 0 by (rewrite Q; field; lra). rewrite Rabs_R0. lra. }
  assert (IZR scale * IZR scale * r / ((m - r) * m) <= r * (q + 1) / (m - r)).
  { replace (IZR scale * IZR scale * r / ((m - r) * m)) with (r * (IZR scale * IZR scale / m) / (m - r))
      by (field; lra).
    unfold Rdiv at 1 3. apply Rmult_le_compat_r; [left; apply Rinv_0_lt_compat; lra|].
    apply Rmult_le_compat_l; lra. }
  lra.
Qed.

Lemma in_inv : forall a b x, b_inv a = Some b -> inB a x -> x <> 0 /\ inB b (/ x).
Proof.
  intros a b x E H. unfold b_inv in E. destruct (0 <? mid a)%Z.
  - destruct (in_inv_pos _ _ _ E H). split; [lra|assumption].
  - destruct (b_inv_pos (b_opp a)) as [c|] eqn:F; [|discriminate]. injection E as <-.
    destruct (in_inv_pos _ _ _ F (in_opp _ _ H)) as [P I]. split; [lra|].
    replace (/ x) with (- / - x) by (field; lra). now apply in_opp.
Qed.

Lemma in_sqrt : forall a b x, b_sqrt a = Some b -> inB a x -> 0 <= x /\ inB b (sqrt x).
Proof.
  intros a b x E H. unfold b_sqrt in E.
  destruct ((mid a =? 0) && (rad a =? 0))%Z eqn:Z0.
  { injection E as <-. assert (x = 0) as -> by now apply (is_zero_inv a).
    split; [lra|]. rewrite sqrt_0. apply in_zero. }
  destruct (Z.leb_spec 0 (rad a)); [|discriminate].
  destruct (Z.ltb_spec (rad a) (mid a)) as [L|]; [|discriminate]. cbn [andb] in E.
  rewrite shiftl_scale in E.
  assert (Sq : (0 <= mid a * scale)%Z) by (pose proof scale_pos; nia).
  pose proof (Z.sqrtrem_spec (mid a * scale) Sq) as SP.
  destruct (Z.sqrtrem (mid a * scale)) as [s rem]. destruct SP as [SP1 SP2].
  injection E as <-. pose proof (proj1 (inB_bounds _ _) H) as B. unfold inB in H |- *. cbn [mid rad].
  rewrite shiftl_scale. pose proof scaleR_pos as S0. pose proof scale_pos as S0'.
  set (m := IZR (mid a)) in *. set (r := IZR (rad a)) in *. set (X := x * IZR scale) in *.
  assert (r0 : 0 <= r) by now apply (IZR_le 0). assert (Lr : r < m) by now apply IZR_lt.
  rewrite minus_IZR in B. fold m r in B.
  assert (X0 : 0 < X) by lra.
  assert (x0 : 0 < x). { apply (Rmult_lt_reg_r (IZR scale)); [lra|]. unfold X in X0. lra. }
  split; [lra|].
  assert (s0 : (0 < s)%Z) by nia.
  assert (s0R : 0 < IZR s) by now apply IZR_lt.
  set (q := sqrt (m * IZR scale)). set (y := sqrt x * IZR scale).
  assert (mS : 0 < m * IZR scale) by nra.
  assert (q0 : 0 < q) by now apply sqrt_lt_R0.
  assert (q2 : q * q = m * IZR scale) by (apply sqrt_sqrt; lra).
  assert (y0 : 0 < y) by (apply Rmult_lt_0_compat; [now apply sqrt_lt_R0|lra]).
  assert (y2 : y * y = X * IZR scale).
  { unfold y, X. transitivity (sqrt x * sqrt x * (IZR scale * IZR scale)); [ring|].
    rewrite sqrt_sqrt by lra. ring. }
  assert (Es : IZR s * IZR s + IZR rem = m * IZR scale).
  { unfold m. rewrite <- !mult_IZR, <- plus_IZR. f_equal. lia. }
  assert (rem0 : 0 <= IZR rem <= 2 * IZR s).
  { split; [apply (IZR_le 0); lia|]. replace (2 * IZR s) with (IZR (2 * s)) by (rewrite mult_IZR; reflexivity).
    apply IZR_le. lia. }
  assert (sq : IZR s <= q) by nra.
  assert (A1 : Rabs (q - IZR s) <= IZR (if (rem =? 0)%Z then 0 else 1)).
  { destruct (Z.eqb_spec rem 0) as [->|_].
    - assert (q = IZR s) as -> by nra. rewrite Rminus_diag_eq by reflexivity. rewrite Rabs_R0. lra.
    - apply Rabs_le. split; [lra|]. assert (q * q <= (IZR s + 1) * (IZR s + 1)) by nra. nra. }
  assert (A2 : Rabs (y - q) <= r * IZR scale / IZR s).
  { assert (E1 : (y - q) * (y + q) = (X - m) * IZR scale) by nra.
    assert (E2 : Rabs (y - q) = Rabs (X - m) * IZR scale / (y + q)).
    { replace (y - q) with ((X - m) * IZR scale / (y + q)) by (rewrite <- E1; field; lra).
      unfold Rdiv. rewrite !Rabs_mult, (Rabs_right (IZR scale)) by lra.
      rewrite (Rabs_right (/ (y + q))) by (left; apply Rinv_0_lt_compat; lra). reflexivity. }
    rewrite E2. unfold Rdiv. apply Rmult_le_compat.
    - apply Rmult_le_pos; [apply Rabs_pos|lra].
    - left. apply Rinv_0_lt_compat. lra.
    - apply Rmult_le_compat_r; lra.
    - apply Rinv_le_contravar; lra. }
  pose proof (ceil_div_ge (rad a * scale) s s0) as G. rewrite mult_IZR in G. fold r in G.
  rewrite plus_IZR. fold y.
  replace (y - IZR s) with ((y - q) + (q - IZR s)) by ring.
  eapply Rle_trans; [apply Rabs_triang|]. lra.
Qed.

Lemma in_lt_true : forall a b x y, b_lt a b = Some true -> inB a x -> inB b y -> x < y.
Proof.
  intros a b x y E Ha Hb. unfold b_lt in E.
  destruct (Z.ltb_spec (mid a + rad a) (mid b - rad b)) as [L|].
  2: { destruct (_ <=? _)%Z; discriminate. }
  apply inB_bounds in Ha. apply inB_bounds in Hb. apply IZR_lt in L. pose proof scaleR_pos.
  apply (Rmult_lt_reg_r (IZR scale)); lra.
Qed.

Lemma in_lt_false : forall a b x y, b_lt a b = Some false -> inB a x -> inB b y -> y <= x.
Proof.
  intros a b x y E Ha Hb. unfold b_lt in E.
  destruct (_ <? _)%Z; [discriminate|].
  destruct (Z.leb_spec (mid b + rad b) (mid a - rad a)) as [L|]; [|discriminate].
  apply inB_bounds in Ha. apply inB_bounds in Hb. apply IZR_le in L. pose proof scaleR_pos.
  apply (Rmult_le_reg_r (IZR scale)); lra.
Qed.

Lemma in_sign : forall a b x, b_sign a = Some b -> inB a x -> if b then 0 < x else x < 0.
Proof.
  intros a b x E H. unfold b_sign in E. apply inB_bounds in H. rewrite minus_IZR, plus_IZR in H.
  pose proof scaleR_pos.
  destruct (Z.ltb_spec (rad a) (mid a)) as [L|].
  - injection E as <-. apply IZR_lt in L. apply (Rmult_lt_reg_r (IZR scale)); lra.
  - destruct (Z.ltb_spec (mid a) (- rad a)) as [L|]; [|discriminate]. injection E as <-.
    apply IZR_lt in L. rewrite opp_IZR in L. apply (Rmult_lt_reg_r (IZR scale)); lra.
Qed.

(** Complex numbers. *)
Lemma inC_real : forall a x, inB a x -> inC (cb_real a) (RtoC x).
Proof. intros a x H. split; [exact H|exact in_zero]. Qed.
Lemma inC_add : forall a b x y, inC a x -> inC b y -> inC (cb_add a b) (x + y)%C.
Proof. intros a b x y [H1 H2] [H3 H4]. split; apply in_add; assumption. Qed.
Lemma inC_opp : forall a x, inC a x -> inC (cb_opp a) (- x)%C.
Proof. intros a x [H1 H2]. split; apply in_opp; assumption. Qed.
Lemma inC_sub : forall a b x y, inC a x -> inC b y -> inC (cb_sub a b) (x - y)%C.
Proof. intros a b x y [H1 H2] [H3 H4]. split; apply in_sub; assumption. Qed.
Lemma inC_mul : forall a b x y, inC a x -> inC b y -> inC (cb_mul a b) (x * y)%C.
Proof.
  intros a b x y [H1 H2] [H3 H4]. split; cbn [bre bim cb_mul Re Im Cmul].
  - apply in_sub; apply in_mul; assumption.
  - apply in_add; apply in_mul; assumption.
Qed.
Lemma inC_conj : forall a x, inC a x -> inC (cb_conj a) (Cconj x).
Proof. intros a x [H1 H2]. split; [exact H1|now apply in_opp]. Qed.
Lemma in_norm2 : forall a x, inC a x -> inB (cb_norm2 a) (Cnorm2 x).
Proof. intros a x [H1 H2]. apply in_add; apply in_mul; assumption. Qed.
Lemma in_abs : forall a b x, cb_abs a = Some b -> inC a x -> inB b (Cabs x).
Proof. intros a b x E H. exact (proj2 (in_sqrt _ _ _ E (in_norm2 _ _ H))). Qed.

Lemma inC_div : forall a b c x y, cb_div a b = Some c -> inC a x -> inC b y ->
  cdiv x y = Ok (Cdivt x y) /\ inC c (Cdivt x y).
Proof.
  intros a b c x y E Ha Hb. unfold cb_div in E.
  destruct (b_inv_pos (cb_norm2 b)) as [i|] eqn:F; [|discriminate]. injection E as <-.
  destruct (in_inv_pos _ _ _ F (in_norm2 _ _ Hb)) as [P I].
  assert (y0 : y <> RtoC 0).
  { intros ->. unfold Cnorm2 in P. simpl in P. lra. }
  split; [now apply cdiv_ok|].
  assert (Eq : Cdivt x y = mkC (Re (Cmul x (Cconj y)) * / Cnorm2 y) (Im (Cmul x (Cconj y)) * / Cnorm2 y)).
  { apply C_ext; simpl; field; lra. }
  rewrite Eq. destruct (inC_mul _ _ _ _ Ha (inC_conj _ _ Hb)) as [H1 H2].
  split; cbn [bre bim Re Im]; apply in_mul; assumption.
Qed.

Lemma in_half : forall a x, inB a x -> inB (b_half a) (x / 2).
Proof.
  intros a x H. apply inB_bounds in H. apply inB_bounds. unfold b_half. cbn [mid rad].
  rewrite !Z.div2_div.
  pose proof (floor_div_le (mid a) 2 ltac:(lia)) as M. pose proof (floor_div_le (rad a) 2 ltac:(lia)) as N.
  rewrite !plus_IZR, !minus_IZR, ?plus_IZR in *.
  assert (E : x / 2 * IZR scale = x * IZR scale / 2) by field. rewrite E. lra.
Qed.

Lemma inC_sqrt : forall a b z, cb_sqrt a = Some b -> inC a z -> inC b (square_root z).
Proof.
  intros a b z E [Hx Hy]. unfold cb_sqrt in E.
  destruct (b_is_zero (bim a)) eqn:Z0.
  - pose proof (is_zero_inv _ _ Z0 Hy) as I0.
    assert (Ez : z = RtoC (Re z)) by (apply C_ext; [reflexivity|exact I0]).
    destruct (0 <=? mid (bre a))%Z.
    + destruct (b_sqrt (bre a)) as [s|] eqn:F; [|discriminate]. injection E as <-.
      destruct (in_sqrt _ _ _ F Hx) as [P I]. rewrite Ez, square_root_nonneg by exact P. now apply inC_real.
    + destruct (b_sqrt (b_opp (bre a))) as [s|] eqn:F; [|discriminate]. injection E as <-.
      destruct (in_sqrt _ _ _ F (in_opp _ _ Hx)) as [P I].
      assert (S : square_root z = mkC 0 (sqrt (- Re z))).
      { apply square_root_unique.
        2: { rewrite Ez at 3. apply C_ext; simpl; [|ring].
          replace (0 * 0 - sqrt (- Re z) * sqrt (- Re z)) with (- (sqrt (- Re z) * sqrt (- Re z))) by ring.
          rewrite sqrt_sqrt by exact P. ring. }
        unfold upper. simpl. pose proof (sqrt_pos (- Re z)). lra. }
      rewrite S. split; [exact in_zero|exact I].
  - destruct (b_sign (bim a)) as [up|] eqn:U; [|discriminate].
    destruct (cb_abs a) as [r|] eqn:A; [|discriminate].
    pose proof (in_abs _ _ _ A (conj Hx Hy)) as Hr.
    pose proof (in_sign _ _ _ U Hy) as Y0.
    pose proof (Cabs_sq z) as R2. unfold Cnorm2 in R2. pose proof (Cabs_nonneg z) as R0.
    set (w := Cabs z) in *.
    destruct (0 <=? mid (bre a))%Z.
    + destruct (b_sqrt (b_half (b_add r (bre a)))) as [u|] eqn:F; [|discriminate].
      destruct (b_inv_pos (b_add u u)) as [i|] eqn:G; [|discriminate]. injection E as <-.
      destruct (in_sqrt _ _ _ F (in_half _ _ (in_add _ _ _ _ Hr Hx))) as [P I].
      destruct (in_inv_pos _ _ _ G (in_add _ _ _ _ I I)) as [P' I'].
      pose proof (sqrt_sqrt _ P) as Q. set (t := sqrt ((w + Re z) / 2)) in *.
      pose proof (in_mul _ _ _ _ Hy I') as V. set (v := Im z * / (t + t)) in *.
      assert (tv : 2 * (t * v) = Im z) by (unfold v; field; lra).
      assert (v2 : v * v = (w - Re z) / 2).
      { assert (T : t * t * (v * v) = t * t * ((w - Re z) / 2)).
        { rewrite Q at 2. transitivity ((t * v) * (t * v)); [ring|].
          replace (t * v) with (Im z / 2) by lra.
          transitivity ((w * w - Re z * Re z) / 4); [rewrite R2; field|field]. }
        apply Rmult_eq_reg_l in T; [exact T|]. nra. }
      assert (S : square_root z = if up then mkC t v else mkC (- t) (- v)).
      { apply square_root_unique; cycle 1.
        - destruct up; apply C_ext; simpl; lra.
        - left. destruct up; simpl; nra. }
      rewrite S. destruct up; split; cbn [bre bim Re Im]; try assumption; now apply in_opp.
    + destruct (b_sqrt (b_half (b_sub r (bre a)))) as [u|] eqn:F; [|discriminate].
      destruct (b_inv_pos (b_add u u)) as [i|] eqn:G; [|discriminate]. injection E as <-.
      destruct (in_sqrt _ _ _ F (in_half _ _ (in_sub _ _ _ _ Hr Hx))) as [P I].
      destruct (in_inv_pos _ _ _ G (in_add _ _ _ _ I I)) as [P' I'].
      pose proof (sqrt_sqrt _ P) as Q. set (v := sqrt ((w - Re z) / 2)) in *.
      pose proof (in_mul _ _ _ _ Hy I') as V. set (t := Im z * / (v + v)) in *.
      assert (tv : 2 * (t * v) = Im z) by (unfold t; field; lra).
      assert (t2 : t * t = (w + Re z) / 2).
      { assert (T : v * v * (t * t) = v * v * ((w + Re z) / 2)).
        { rewrite Q at 2. transitivity ((t * v) * (t * v)); [ring|].
          replace (t * v) with (Im z / 2) by lra.
          transitivity ((w * w - Re z * Re z) / 4); [rewrite R2; field|field]. }
        apply Rmult_eq_reg_l in T; [exact T|]. nra. }
      assert (S : square_root z = mkC t v).
      { apply square_root_unique; cycle 1.
        - apply C_ext; simpl; lra.
        - left. simpl. lra. }
      rewrite S. split; assumption.
Qed.

(** Proofs below and in other files use the lemmas, not the definitions. *)
#[global] Opaque b_zero b_int b_rat b_add b_opp b_sub b_mul b_inv_pos b_inv b_sqrt b_lt b_sign
  cb_add cb_opp cb_sub cb_mul cb_conj cb_norm2 cb_abs cb_div cb_sqrt b_half.
