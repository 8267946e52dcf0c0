(** Properties C40 and C41: undressing a measured cross-section; the data of the residual task. *)
From Coq Require Import String Reals List Bool Lra Lia.
From Verif Require Import PyBase CNum PyExpr CrossSections CommonUtils Scripts PropsCross.
Import ListNotations.
Local Open Scope R_scope.
Local Open Scope py_scope.
Local Open Scope list_scope.

(** ** C40 *)

(** Total error of the measurement. *)
Definition total_error (stat : R) (sys : option R) : R :=
  match sys with None => stat | Some s => sqrt (stat^2 + s^2) end.

(** First-order propagation for v = cs * (a0 / as)^2. *)
Definition undressed (a0 as_ cs : R) : R := cs * (a0 / as_)^2.

Lemma addition_ok : forall a b, error_for_addition a b = Ok (sqrt (a^2 + b^2)).
Proof.
  intros a b. unfold error_for_addition. rewrite rsqrt_ok by nra. f_equal. f_equal. ring.
Qed.

Lemma rabs_sqrt : forall k x, 0 <= x -> Rabs k * sqrt x = sqrt (k^2 * x).
Proof.
  intros k x H. rewrite sqrt_mult by (try assumption; apply pow2_ge_0). f_equal.
  rewrite <- (Rsqr_pow2 k). symmetry. apply sqrt_Rsqr_abs.
Qed.

Theorem C40_value_and_error : forall a0 as_ aerr cs stat sys, a0 <> 0 -> as_ <> 0 -> cs <> 0 ->
  let factor := (a0 / as_)^2 in
  let dfactor := 2 * factor / as_ * aerr in
  let dcs := total_error stat sys in
  exists e, undress_cross_section_measurement a0 as_ aerr cs stat sys = Ok (undressed a0 as_ cs, e) /\
    (0 < cs -> e = sqrt ((cs * dfactor)^2 + (factor * dcs)^2)) /\
    (cs < 0 -> e = - sqrt ((cs * dfactor)^2 + (factor * dcs)^2)).
Proof.
  intros a0 as_ aerr cs stat sys H0 Hs Hc factor dfactor dcs.
  assert (Q : a0 / as_ <> 0) by (unfold Rdiv; apply Rmult_integral_contrapositive; split; [assumption|now apply Rinv_neq_0_compat]).
  assert (Fp : 0 < factor) by now apply sq_pos.
  set (rel := sqrt ((dfactor / factor)^2 + (dcs / cs)^2)).
  exists (factor * cs * rel).
  assert (E : undress_cross_section_measurement a0 as_ aerr cs stat sys = Ok (undressed a0 as_ cs, factor * cs * rel)).
  { unfold undress_cross_section_measurement.
    assert (S : match sys with None => Ok stat | Some s => error_for_addition stat s end = Ok dcs).
    { unfold dcs, total_error. destruct sys; [apply addition_ok|reflexivity]. }
    rewrite S. cbn [bind]. rewrite rdiv_ok by assumption. cbn [bind].
    replace (a0 / as_ * (a0 / as_)) with factor by (unfold factor; ring).
    rewrite rdiv_ok by assumption. cbn [bind]. unfold error_for_multiplication.
    rewrite rdiv_ok by lra. cbn [bind]. rewrite rdiv_ok by assumption. cbn [bind]. rewrite addition_ok. cbn [bind].
    do 2 f_equal. unfold rel, dfactor. do 4 f_equal. field. split; [assumption|lra]. }
  split; [exact E|].
  assert (X : 0 <= (dfactor / factor)^2 + (dcs / cs)^2) by (assert (A := pow2_ge_0 (dfactor / factor)); assert (B := pow2_ge_0 (dcs / cs)); lra).
  assert (Y : (factor * cs)^2 * ((dfactor / factor)^2 + (dcs / cs)^2) = (cs * dfactor)^2 + (factor * dcs)^2)
    by (field; split; [assumption|lra]).
  split; intros S.
  - assert (P : 0 < factor * cs) by nra. unfold rel. rewrite <- Y, <- rabs_sqrt by assumption.
    rewrite Rabs_right by lra. reflexivity.
  - assert (P : factor * cs < 0) by nra. unfold rel. rewrite <- Y, <- rabs_sqrt by assumption.
    rewrite Rabs_left by lra. ring.
Qed.

(** The two terms are the partial derivatives of the undressed value times the errors of their arguments. *)
Theorem C40_terms_are_derivatives : forall a0 as_ cs, as_ <> 0 ->
  derivable_pt_lim (fun x => undressed a0 as_ x) cs ((a0 / as_)^2) /\
  derivable_pt_lim (fun x => undressed a0 x cs) as_ (- (cs * (2 * (a0 / as_)^2 / as_))).
Proof.
  intros a0 as_ cs N. split.
  - unfold undressed. set (k := (a0 / as_)^2).
    pose proof (derivable_pt_lim_scal id k cs 1 (derivable_pt_lim_id cs)) as D. rewrite Rmult_1_r in D.
    intros eps He. destruct (D eps He) as (d & Hd). exists d. intros h Hh Hl. specialize (Hd h Hh Hl).
    unfold mult_real_fct, id in Hd. rewrite (Rmult_comm (cs + h) k), (Rmult_comm cs k). exact Hd.
  - unfold undressed.
    assert (I : derivable_pt_lim (fun x => / x) as_ (- / (as_ * as_))).
    { pose proof (derivable_pt_lim_div (fct_cte 1) id as_ 0 1 (derivable_pt_lim_const 1 as_) (derivable_pt_lim_id as_) N) as D.
      unfold fct_cte, id, Rsqr in D. replace ((0 * as_ - 1 * 1) / (as_ * as_)) with (- / (as_ * as_)) in D by (field; assumption).
      intros eps He. destruct (D eps He) as (d & Hd). exists d. intros h Hh Hl. specialize (Hd h Hh Hl).
      unfold div_fct in Hd. unfold Rdiv in Hd. rewrite !Rmult_1_l in Hd. exact Hd. }
    pose proof (derivable_pt_lim_mult _ _ _ _ _ I I) as D.
    pose proof (derivable_pt_lim_scal _ (cs * a0^2) _ _ D) as D2.
    replace (- (cs * (2 * (a0 / as_)^2 / as_))) with
      (cs * a0^2 * (- / (as_ * as_) * / as_ + / as_ * - / (as_ * as_))) by (field; assumption).
    intros eps He. destruct (D2 eps He) as (d & Hd). exists d. intros h Hh Hl. specialize (Hd h Hh Hl).
    unfold mult_real_fct, mult_fct in Hd.
    replace (cs * (a0 / (as_ + h))^2 - cs * (a0 / as_)^2) with
      (cs * a0^2 * (/ (as_ + h) * / (as_ + h)) - cs * a0^2 * (/ as_ * / as_)) by (unfold Rdiv; ring).
    exact Hd.
Qed.

Theorem C40_error_at_least_scaled_statistical : forall a0 as_ aerr cs stat sys v e, a0 <> 0 -> as_ <> 0 -> 0 < cs ->
  undress_cross_section_measurement a0 as_ aerr cs stat sys = Ok (v, e) -> (a0 / as_)^2 * Rabs stat <= e.
Proof.
  intros a0 as_ aerr cs stat sys v e H0 Hs Hc E.
  destruct (C40_value_and_error a0 as_ aerr cs stat sys H0 Hs ltac:(lra)) as (e' & E' & P & _).
  rewrite E in E'. injection E' as _ <-. rewrite (P Hc). clear P E.
  set (f := (a0 / as_)^2). assert (Fp : 0 <= f) by apply pow2_ge_0. set (x := cs * (2 * f / as_ * aerr)).
  assert (L : Rabs stat <= Rabs (total_error stat sys)).
  { unfold total_error. destruct sys as [s|]; [|lra]. rewrite (Rabs_right (sqrt _)) by (apply Rle_ge, sqrt_pos).
    rewrite <- sqrt_Rsqr_abs. apply sqrt_le_1_alt. unfold Rsqr. assert (X := pow2_ge_0 s). simpl in *. nra. }
  apply Rle_trans with (Rabs (f * total_error stat sys)).
  - rewrite Rabs_mult, (Rabs_right f) by lra. now apply Rmult_le_compat_l.
  - rewrite <- sqrt_Rsqr_abs. apply sqrt_le_1_alt. unfold Rsqr. assert (X := pow2_ge_0 x). simpl in *. nra.
Qed.

Lemma sqr_abs_le : forall x y, Rabs x <= Rabs y -> x^2 <= y^2.
Proof.
  intros x y H. rewrite <- (pow2_abs x), <- (pow2_abs y). apply pow_incr. split; [apply Rabs_pos|assumption].
Qed.

Theorem C40_error_monotone : forall a0 as_ aerr aerr' cs stat stat' sys sys' v e v' e', a0 <> 0 -> as_ <> 0 -> 0 < cs ->
  Rabs aerr <= Rabs aerr' -> Rabs stat <= Rabs stat' ->
  (Rabs (match sys with None => 0 | Some s => s end) <= Rabs (match sys' with None => 0 | Some s => s end)) ->
  undress_cross_section_measurement a0 as_ aerr cs stat sys = Ok (v, e) ->
  undress_cross_section_measurement a0 as_ aerr' cs stat' sys' = Ok (v', e') -> v = v' /\ e <= e'.
Proof.
  intros a0 as_ aerr aerr' cs stat stat' sys sys' v e v' e' H0 Hs Hc A S Y E E'.
  destruct (C40_value_and_error a0 as_ aerr cs stat sys H0 Hs ltac:(lra)) as (x & Ex & P & _).
  destruct (C40_value_and_error a0 as_ aerr' cs stat' sys' H0 Hs ltac:(lra)) as (x' & Ex' & P' & _).
  rewrite E in Ex. injection Ex as -> <-. rewrite E' in Ex'. injection Ex' as -> <-. split; [reflexivity|].
  rewrite (P Hc), (P' Hc). clear P P' E E'. apply sqrt_le_1_alt.
  assert (T : forall st sy, (total_error st sy)^2 = st^2 + (match sy with None => 0 | Some s => s end)^2).
  { intros st [s|]; simpl total_error; [|ring]. rewrite pow2_sqrt; [ring|]. assert (X := pow2_ge_0 st). assert (X' := pow2_ge_0 s). lra. }
  rewrite !(Rpow_mult_distr ((a0 / as_)^2)), !T. apply sqr_abs_le in A, S, Y. apply Rplus_le_compat.
  - replace ((cs * (2 * (a0 / as_)^2 / as_ * aerr))^2) with ((cs * (2 * (a0 / as_)^2 / as_))^2 * aerr^2) by ring.
    replace ((cs * (2 * (a0 / as_)^2 / as_ * aerr'))^2) with ((cs * (2 * (a0 / as_)^2 / as_))^2 * aerr'^2) by ring.
    apply Rmult_le_compat_l; [apply pow2_ge_0|assumption].
  - apply Rmult_le_compat_l; [apply pow2_ge_0|lra].
Qed.

Theorem C40_raises : forall a0 as_ aerr cs stat sys e,
  undress_cross_section_measurement a0 as_ aerr cs stat sys = Err e <->
  (a0 = 0 \/ as_ = 0 \/ cs = 0) /\ e = ZeroDivisionError.
Proof.
  intros a0 as_ aerr cs stat sys e.
  assert (Z : forall a, rdiv a 0 = Err ZeroDivisionError) by (intros a; unfold rdiv; destruct (Req_EM_T 0 0); congruence).
  assert (D : {a0 = 0 \/ as_ = 0 \/ cs = 0} + {a0 <> 0 /\ as_ <> 0 /\ cs <> 0}).
  { destruct (Req_EM_T a0 0); [left; auto|]. destruct (Req_EM_T as_ 0); [left; auto|].
    destruct (Req_EM_T cs 0); [left; auto|right; auto]. }
  destruct D as [D|(H0 & Hs & Hc)].
  - assert (E : undress_cross_section_measurement a0 as_ aerr cs stat sys = Err ZeroDivisionError).
    { unfold undress_cross_section_measurement.
      assert (S : exists x, match sys with None => Ok stat | Some s => error_for_addition stat s end = Ok x)
        by (destruct sys; [rewrite addition_ok|]; eauto).
      destruct S as (x & ->). cbn [bind]. destruct (Req_EM_T as_ 0) as [->|Hs]; [now rewrite Z|].
      rewrite rdiv_ok by assumption. cbn [bind]. rewrite rdiv_ok by assumption. cbn [bind].
      unfold error_for_multiplication.
      destruct (Req_EM_T a0 0) as [->|H0].
      - replace (0 / as_ * (0 / as_)) with 0 by (field; assumption). now rewrite Z.
      - destruct D as [D|[D|D]]; [contradiction|contradiction|]. subst cs.
        assert (0 < (a0 / as_)^2) by (apply sq_pos; unfold Rdiv; apply Rmult_integral_contrapositive; split; [assumption|now apply Rinv_neq_0_compat]).
        rewrite rdiv_ok by (simpl in *; lra). cbn [bind]. now rewrite Z. }
    rewrite E. split; [intros G; injection G as <-; auto|intros (_ & ->); reflexivity].
  - destruct (C40_value_and_error a0 as_ aerr cs stat sys H0 Hs Hc) as (x & E & _). rewrite E.
    split; [discriminate|]. intros ([G|[G|G]] & _); contradiction.
Qed.

(** A negative measured value gets a negative "error". *)
Theorem C40_error_nonnegative_refuted : exists a0 as_ aerr cs stat v e,
  undress_cross_section_measurement a0 as_ aerr cs stat None = Ok (v, e) /\ e < 0.
Proof.
  exists 1, 1, 0, (-1), 1.
  destruct (C40_value_and_error 1 1 0 (-1) 1 None ltac:(lra) ltac:(lra) ltac:(lra)) as (e & E & _ & N).
  exists (undressed 1 1 (-1)), e. split; [exact E|]. rewrite N by lra. simpl total_error.
  apply Ropp_lt_gt_0_contravar. apply sqrt_lt_R0. lra.
Qed.

Example C40_instance : exists e, e = 5 /\
  undress_cross_section_measurement 2 1 (3/8) 1 1 None = Ok (4, e).
Proof.
  destruct (C40_value_and_error 2 1 (3/8) 1 1 None ltac:(lra) ltac:(lra) ltac:(lra)) as (e & E & P & _).
  exists e. split.
  - rewrite (P ltac:(lra)). simpl total_error.
    replace ((1 * (2 * (2 / 1) ^ 2 / 1 * (3 / 8))) ^ 2 + ((2 / 1) ^ 2 * 1) ^ 2) with (5 * 5) by field. apply sqrt_square. lra.
  - rewrite E. unfold undressed. do 2 f_equal. field.
Qed.

(** ** C41 *)

(** One measured point of the residual stage: the point, the background value, the measured value, its error. *)
Record Measured := mkMeasured { ms_point : datapoint; ms_background : R; ms_value : R; ms_error : R }.

Definition time_of (p : datapoint) : R :=
  match p with KaonDatapoint t _ => Re t | NucleonDatapoint t _ _ => Re t | Row _ => 0 end.
Definition is_real (p : datapoint) : Prop :=
  match p with KaonDatapoint t _ => Im t = 0 | NucleonDatapoint t _ _ => Im t = 0 | Row _ => False end.
Definition is_kaon (p : datapoint) : Prop := match p with KaonDatapoint _ _ => True | _ => False end.
Definition is_nucleon (p : datapoint) : Prop := match p with NucleonDatapoint _ _ _ => True | _ => False end.
Definition moved_to (x : R) (p : datapoint) : datapoint :=
  match p with
  | KaonDatapoint _ c => KaonDatapoint (RtoC x) c
  | NucleonDatapoint _ a b => NucleonDatapoint (RtoC x) a b
  | Row l => Row l
  end.

(** Momentum of the anti-nucleon in the rest frame of the nucleon. *)
Definition lab_momentum (m t : R) : R := sqrt (t * (t - 4 * m^2)) / (2 * m).

Theorem C41_momentum_increasing : forall m t t', 0 < m -> 4 * m^2 <= t -> t < t' -> lab_momentum m t < lab_momentum m t'.
Proof.
  intros m t t' Hm T TT. assert (M : 0 < m^2) by (apply sq_pos; lra). unfold lab_momentum.
  apply Rmult_lt_compat_r; [apply Rinv_0_lt_compat; lra|]. apply sqrt_lt_1_alt. split; nra.
Qed.

Theorem C41_momentum_zero_at_threshold : forall m, m <> 0 -> lab_momentum m (4 * m^2) = 0.
Proof.
  intros m H. unfold lab_momentum. replace (4 * m^2 * (4 * m^2 - 4 * m^2)) with 0 by ring. rewrite sqrt_0. field. assumption.
Qed.

(** It is the momentum of that kinematics: with energy E = (t - 2 m^2) / (2 m), p^2 = E^2 - m^2. *)
Theorem C41_momentum_kinematics : forall m t, 0 < m -> 4 * m^2 <= t ->
  0 <= lab_momentum m t /\ (lab_momentum m t)^2 = ((t - 2 * m^2) / (2 * m))^2 - m^2.
Proof.
  intros m t Hm T. assert (M : 0 < m^2) by (apply sq_pos; lra). unfold lab_momentum. split.
  - apply Rmult_le_pos; [apply sqrt_pos|left; apply Rinv_0_lt_compat; lra].
  - unfold Rdiv. rewrite Rpow_mult_distr, pow2_sqrt by nra. field. lra.
Qed.

Section Residuals.
Variables m alpha : R.
Hypothesis Hm : 0 < m.
Hypothesis Ha : alpha <> 0.

(** Effective form factor of a cross-section and its propagated error. *)
Definition unit_factor (t : R) : R := 3 * t / (2 * PI * alpha^2 * sqrt (1 - 4 * m^2 / t) * (2 + 4 * m^2 / t)).
Definition effective (cs t : R) : R := sqrt (unit_factor t * cs).
Definition effective_error (cs err t : R) : R := unit_factor t * err / (2 * sqrt (unit_factor t * cs)).

Definition momentum (x : Measured) : R := lab_momentum m (time_of (ms_point x)).
Definition residual (x : Measured) : R :=
  effective (ms_value x) (time_of (ms_point x)) - effective (ms_background x) (time_of (ms_point x)).
Definition residual_error (x : Measured) : R :=
  effective_error (ms_background x) (ms_error x) (time_of (ms_point x)).
Definition survives (x : Measured) : bool := if Rlt_dec (momentum x) 5 then true else false.

(** A usable point: real, above threshold, positive values. *)
Definition usable (x : Measured) : Prop :=
  is_real (ms_point x) /\ 4 * m^2 < time_of (ms_point x) /\ 0 < ms_background x /\ 0 < ms_value x.

Definition residuals_of (L : list Measured) :=
  residual_data m alpha (map ms_background L) (map ms_point L) (map ms_value L) (map ms_error L).

Lemma zip3_map : forall A B D E (f : E -> A) (g : E -> B) (h : E -> D) L,
  zip3 (map f L) (map g L) (map h L) = map (fun x => (f x, g x, h x)) L.
Proof. induction L; simpl; [reflexivity|now rewrite IHL]. Qed.

Lemma mapM_map' : forall A B D (f : A -> D) (g : D -> Res B) L, mapM g (map f L) = mapM (fun x => g (f x)) L.
Proof. induction L; simpl; [reflexivity|]. destruct (g (f a)); [|reflexivity]. simpl. now rewrite IHL. Qed.

Lemma mapM_ok : forall A B (g : A -> Res B) (v : A -> B) L, (forall x, In x L -> g x = Ok (v x)) -> mapM g L = Ok (map v L).
Proof.
  induction L as [|x L IH]; intros H; simpl; [reflexivity|]. rewrite H by (simpl; auto). cbn [bind].
  rewrite IH by (intros; apply H; simpl; auto). reflexivity.
Qed.

Lemma mapM_first_error : forall A B (g : A -> Res B) (v : A -> B) pre x post e,
  (forall y, In y pre -> g y = Ok (v y)) -> g x = Err e -> mapM g (pre ++ x :: post) = Err e.
Proof.
  induction pre as [|y pre IH]; intros x post e H E; simpl; [now rewrite E|].
  rewrite H by (simpl; auto). cbn [bind]. rewrite (IH x post e); [reflexivity|intros; apply H; simpl; auto|assumption].
Qed.

Definition row_step (f : Measured -> R) (x : Measured) : Res (R * R) :=
  t <- attr_t (ms_point x) ;;
  if Req_EM_T (Im t) 0 then transform_to_effective_form_factor m alpha (f x) (ms_error x) (Re t)
  else tau <- cdiv t (RtoC (4 * (m * m))) ;; Err TypeError.

Lemma rows_eq : forall f L, effective_rows m alpha (map f L) (map ms_error L) (map ms_point L) = mapM (row_step f) L.
Proof. intros f L. unfold effective_rows. rewrite zip3_map, mapM_map'. reflexivity. Qed.

Lemma row_step_real : forall f x, is_real (ms_point x) ->
  row_step f x = transform_to_effective_form_factor m alpha (f x) (ms_error x) (time_of (ms_point x)).
Proof.
  intros f x H. unfold row_step. destruct (ms_point x) as [t c|t a b|l]; simpl in *; try contradiction;
    destruct (Req_EM_T (Im t) 0); congruence.
Qed.

Lemma row_step_ok : forall f x, is_real (ms_point x) -> 4 * m^2 < time_of (ms_point x) -> 0 < f x ->
  row_step f x = Ok (effective (f x) (time_of (ms_point x)), effective_error (f x) (ms_error x) (time_of (ms_point x))).
Proof.
  intros f x H T P. rewrite row_step_real by assumption.
  destruct (C31_formula m alpha (f x) (ms_error x) (time_of (ms_point x)) ltac:(lra) Ha T P) as (_ & E). exact E.
Qed.

Lemma momentum_ok : forall x, is_real (ms_point x) -> 4 * m^2 <= time_of (ms_point x) ->
  laboratory_momentum m (ms_point x) = Ok (momentum x).
Proof.
  intros x H T. assert (M : 0 < m^2) by (apply sq_pos; lra). unfold laboratory_momentum, momentum, lab_momentum.
  assert (E : forall t, Im t = 0 -> 4 * m^2 <= Re t ->
    (x0 <- as_float t ;; s <- rsqrt (x0 * (x0 - 4 * (m * m))) ;; rdiv s (2 * m)) =
    Ok (sqrt (Re t * (Re t - 4 * m^2)) / (2 * m))).
  { intros t I G. unfold as_float. destruct (Req_EM_T (Im t) 0); [|contradiction]. cbn [bind].
    replace (4 * (m * m)) with (4 * m^2) by ring. rewrite rsqrt_ok by nra. cbn [bind]. apply rdiv_ok. lra. }
  destruct (ms_point x) as [t c|t a b|l]; simpl in *; try contradiction; now apply E.
Qed.

Definition uniform (L : list Measured) : Prop :=
  (forall x, In x L -> is_kaon (ms_point x)) \/ (forall x, In x L -> is_nucleon (ms_point x)).

Lemma map_ts_ok : forall L, uniform L ->
  (forall x, In x L -> is_real (ms_point x) /\ 4 * m^2 <= time_of (ms_point x)) ->
  map_ts_to_laboratory_system_momentum m (map ms_point L) = Ok (map (fun x => moved_to (momentum x) (ms_point x)) L).
Proof.
  intros L U H. destruct L as [|x0 L0]; [reflexivity|]. set (L := x0 :: L0) in *.
  destruct U as [U|U].
  - assert (E : map_ts_to_laboratory_system_momentum m (map ms_point L) =
      mapM (fun d => p <- laboratory_momentum m d ;;
              match d with KaonDatapoint _ c => Ok (KaonDatapoint (RtoC p) c) | _ => Err AttributeError end) (map ms_point L)).
    { pose proof (U x0 (or_introl eq_refl)) as K. unfold L. simpl map. destruct (ms_point x0); simpl in K; try contradiction. reflexivity. }
    rewrite E, mapM_map'. apply mapM_ok. intros x I. destruct (H x I) as (A & B). rewrite (momentum_ok x A B). cbn [bind].
    specialize (U x I). destruct (ms_point x); simpl in U; try contradiction. reflexivity.
  - assert (E : map_ts_to_laboratory_system_momentum m (map ms_point L) =
      mapM (fun d => p <- laboratory_momentum m d ;;
              match d with NucleonDatapoint _ a b => Ok (NucleonDatapoint (RtoC p) a b) | _ => Err AttributeError end) (map ms_point L)).
    { pose proof (U x0 (or_introl eq_refl)) as K. unfold L. simpl map. destruct (ms_point x0); simpl in K; try contradiction. reflexivity. }
    rewrite E, mapM_map'. apply mapM_ok. intros x I. destruct (H x I) as (A & B). rewrite (momentum_ok x A B). cbn [bind].
    specialize (U x I). destruct (ms_point x); simpl in U; try contradiction. reflexivity.
Qed.

Lemma filter_ok : forall L, (forall x, In x L -> is_real (ms_point x)) ->
  filterM (below 5) (map (fun x => (moved_to (momentum x) (ms_point x), residual x, residual_error x)) L) =
  Ok (map (fun x => (moved_to (momentum x) (ms_point x), residual x, residual_error x)) (filter survives L)).
Proof.
  induction L as [|x L IH]; intros H; simpl; [reflexivity|].
  assert (B : below 5 (moved_to (momentum x) (ms_point x), residual x, residual_error x) = Ok (survives x)).
  { unfold below, survives, as_float. specialize (H x (or_introl eq_refl)).
    destruct (ms_point x); simpl in *; try contradiction; (destruct (Req_EM_T 0 0); [|congruence]); reflexivity. }
  rewrite B. cbn [bind]. rewrite IH by (intros; apply H; simpl; auto). cbn [bind].
  destruct (survives x); reflexivity.
Qed.

Lemma combine_map2 : forall A B D (f : D -> A) (g : D -> B) L, combine (map f L) (map g L) = map (fun x => (f x, g x)) L.
Proof. induction L; simpl; [reflexivity|now rewrite IHL]. Qed.

Lemma unzip2_map : forall A B D (f : D -> A) (g : D -> B) L, L <> [] ->
  unzip2 (map (fun x => (f x, g x)) L) = Ok (map f L, map g L).
Proof. intros A B D f g [|x L] H; [congruence|]. simpl. rewrite !map_map. reflexivity. Qed.

(** Points, residuals and errors stay together and in order; exactly those below the cutoff are kept. *)
Theorem C41_points_stay_aligned : forall L, uniform L -> (forall x, In x L -> usable x) ->
  let kept := filter survives L in
  (kept <> [] -> exists eff,
     residuals_of L = Ok (eff, (map (fun x => moved_to (momentum x) (ms_point x)) kept, map residual kept, map residual_error kept)) /\
     eff = mkEffective (map ms_point L)
             (map (fun x => effective (ms_value x) (time_of (ms_point x))) L)
             (map (fun x => effective (ms_background x) (time_of (ms_point x))) L) (map residual_error L)) /\
  (kept = [] -> residuals_of L = Err ValueError).
Proof.
  intros L U H kept. unfold residuals_of, residual_data.
  assert (Rb : mapM (row_step ms_background) L = Ok (map (fun x => (effective (ms_background x) (time_of (ms_point x)), residual_error x)) L)).
  { apply mapM_ok. intros x I. destruct (H x I) as (A & B & C1 & C2). now apply (row_step_ok ms_background). }
  assert (Rv : mapM (row_step ms_value) L = Ok (map (fun x => (effective (ms_value x) (time_of (ms_point x)),
                 effective_error (ms_value x) (ms_error x) (time_of (ms_point x)))) L)).
  { apply mapM_ok. intros x I. destruct (H x I) as (A & B & C1 & C2). now apply (row_step_ok ms_value). }
  rewrite !rows_eq, Rb. cbn [bind].
  destruct L as [|x0 L0].
  { split; [intros K; contradiction K; reflexivity|]. intros _. reflexivity. }
  set (L := x0 :: L0) in *. assert (NL : L <> []) by (unfold L; discriminate).
  rewrite (unzip2_map _ _ _ (fun x => effective (ms_background x) (time_of (ms_point x))) residual_error L NL). cbn [bind].
  rewrite Rv. cbn [bind].
  rewrite (unzip2_map _ _ _ (fun x => effective (ms_value x) (time_of (ms_point x))) _ L NL). cbn [bind fst snd].
  rewrite map_ts_ok; [|exact U|intros x I; destruct (H x I) as (A & B & _); split; [exact A|lra]]. cbn [bind].
  rewrite combine_map2, map_map. cbn [fst snd].
  unfold drop_large_momenta.
  change (map (fun x => effective (ms_value x) (time_of (ms_point x)) - effective (ms_background x) (time_of (ms_point x))) L)
    with (map residual L).
  rewrite zip3_map, filter_ok by (intros x I; apply H, I). cbn [bind]. fold kept. split; intros K.
  - destruct kept as [|k kr] eqn:Ek; [congruence|]. eexists. split; [|reflexivity]. unfold unzip3. cbn [map bind].
    rewrite !map_map. reflexivity.
  - rewrite K. reflexivity.
Qed.

(** The first point below threshold stops the task with ValueError. *)
Theorem C41_below_threshold_raises : forall pre x post, (forall y, In y pre -> usable y) ->
  is_real (ms_point x) -> 0 < time_of (ms_point x) < 4 * m^2 -> residuals_of (pre ++ x :: post) = Err ValueError.
Proof.
  intros pre x post H Rx T. unfold residuals_of, residual_data. rewrite rows_eq.
  assert (E : mapM (row_step ms_background) (pre ++ x :: post) = Err ValueError).
  { eapply mapM_first_error.
    - intros y I. destruct (H y I) as (A & B & C1 & _). exact (row_step_ok ms_background y A B C1).
    - rewrite row_step_real by assumption.
      destruct (C31_raises m alpha (ms_background x) (ms_error x) (time_of (ms_point x)) ltac:(lra) Ha) as (_ & V & _). exact (V T). }
  rewrite E. reflexivity.
Qed.

(** So does a point whose background or measured value is negative. *)
Theorem C41_negative_value_raises : forall pre x post, (forall y, In y (pre ++ x :: post) -> is_real (ms_point y) /\
    4 * m^2 < time_of (ms_point y) /\ 0 < ms_background y) ->
  (forall y, In y pre -> 0 < ms_value y) -> ms_value x < 0 -> residuals_of (pre ++ x :: post) = Err ValueError.
Proof.
  intros pre x post H P N. unfold residuals_of, residual_data. rewrite !rows_eq.
  erewrite (mapM_ok _ _ (row_step ms_background)); [|intros y I; destruct (H y I) as (A & B & C1); exact (row_step_ok ms_background y A B C1)].
  cbn [bind]. rewrite unzip2_map by (destruct pre; discriminate). cbn [bind].
  assert (E : mapM (row_step ms_value) (pre ++ x :: post) = Err ValueError).
  { eapply mapM_first_error.
    - intros y I. destruct (H y) as (A & B & C1); [apply in_app_iff; auto|]. exact (row_step_ok ms_value y A B (P y I)).
    - destruct (H x) as (A & B & C1); [apply in_app_iff; simpl; auto|]. rewrite row_step_real by assumption.
      destruct (C31_raises m alpha (ms_value x) (ms_error x) (time_of (ms_point x)) ltac:(lra) Ha) as (_ & _ & _ & V). exact (V B N). }
  rewrite E. reflexivity.
Qed.
End Residuals.

(** Two nucleon points, one of them above the cutoff: mass 1/2, threshold 1. *)
Example C41_instance :
  let a := mkMeasured (NucleonDatapoint (RtoC 2) true false) 1 4 1 in
  let b := mkMeasured (NucleonDatapoint (RtoC 9) false true) 2 3 1 in
  (forall x, In x [b; a] -> usable (1/2) x) /\ filter (survives (1/2)) [b; a] = [a] /\ momentum (1/2) a = sqrt 2.
Proof.
  intros a b. assert (Ma : momentum (1/2) a = sqrt 2).
  { unfold momentum, lab_momentum, a. simpl time_of. replace (2 * (2 - 4 * (1/2)^2)) with 2 by field. field. }
  assert (Mb : momentum (1/2) b = sqrt 72).
  { unfold momentum, lab_momentum, b. simpl time_of. replace (9 * (9 - 4 * (1/2)^2)) with 72 by field. field. }
  split; [|split; [|exact Ma]].
  - intros x [<-|[<-|[]]]; unfold usable; simpl; lra.
  - simpl. unfold survives. rewrite Ma, Mb.
    assert (A : sqrt 2 < 5).
    { apply Rsqr_incrst_0; [|apply sqrt_pos|lra]. rewrite Rsqr_sqrt by lra. unfold Rsqr. lra. }
    assert (B : 5 < sqrt 72).
    { apply Rsqr_incrst_0; [|lra|apply sqrt_pos]. rewrite Rsqr_sqrt by lra. unfold Rsqr. lra. }
    destruct (Rlt_dec (sqrt 72) 5); [lra|]. destruct (Rlt_dec (sqrt 2) 5); [reflexivity|contradiction].
Qed.

Print Assumptions C40_value_and_error.
Print Assumptions C40_terms_are_derivatives.
Print Assumptions C40_error_at_least_scaled_statistical.
Print Assumptions C40_error_monotone.
Print Assumptions C40_raises.
Print Assumptions C40_error_nonnegative_refuted.
Print Assumptions C41_momentum_increasing.
Print Assumptions C41_momentum_zero_at_threshold.
Print Assumptions C41_momentum_kinematics.
Print Assumptions C41_points_stay_aligned.
Print Assumptions C41_below_threshold_raises.
Print Assumptions C41_negative_value_raises.
