(** Lemmas about single components. *)
From Coq Require Import Reals Lra Psatz.
From Verif Require Import PyBase CNum UAMaps UAComponents MapProofs.
Local Open Scope R_scope.

(** Total versions of the factors. *)
Definition Dfac (v : variant) (wm w : C) : C :=
  match v with
  | VariantA => Cmul (Cmul (Cmul (Csub w wm) (Csub w (Cconj wm))) (Csub w (Cinv wm)))
                     (Csub w (Cinv (Cconj wm)))
  | VariantB => Cmul (Cmul (Cmul (Csub w wm) (Csub w (Cconj wm))) (Cadd w wm))
                     (Cadd w (Cconj wm))
  end.
Definition Afac (w : C) : C := Csq (Csub 1 (Csq w)).
Definition comp_val (v : variant) (wn wm w : C) : C :=
  Cmul (Cdivt (Afac w) (Afac wn)) (Cdivt (Dfac v wm wn) (Dfac v wm w)).
Definition the_comp (v : variant) (wn wm : C) : Component :=
  mkComponent v wn wm (Afac wn) (Dfac v wm wn).

Lemma cdiv_1_inv : forall w, w <> RtoC 0 -> cdiv 1%C w = Ok (Cinv w).
Proof. intros w H. rewrite cdiv_ok by assumption. f_equal. field. assumption. Qed.

Lemma Component_init_ok : forall v wn wm, (v = VariantA -> wm <> RtoC 0) ->
  Component_init v wn wm = Ok (the_comp v wn wm).
Proof.
  intros v wn wm H. unfold Component_init, the_comp. destruct v; simpl.
  - unfold numerator_A. rewrite !cdiv_1_inv; [reflexivity| |auto].
    rewrite Cconj_0_iff. auto.
  - reflexivity.
Qed.

Lemma Component_init_A_zero : forall wn, Component_init VariantA wn (RtoC 0) = Err ZeroDivisionError.
Proof. intros. unfold Component_init, numerator_A. rewrite cdiv_zero. reflexivity. Qed.

Lemma Component_init_inv : forall v wn wm c, Component_init v wn wm = Ok c ->
  (v = VariantA -> wm <> RtoC 0) /\ c = the_comp v wn wm.
Proof.
  intros v wn wm c H. destruct v.
  - destruct (C_eq_dec wm (RtoC 0)) as [->|N].
    + rewrite Component_init_A_zero in H. discriminate.
    + rewrite Component_init_ok in H by auto. injection H as <-. auto.
  - rewrite Component_init_ok in H by discriminate. injection H as <-.
    split; [discriminate|reflexivity].
Qed.

Lemma Component_call_ok : forall v wn wm w, (v = VariantA -> wm <> RtoC 0) ->
  Afac wn <> RtoC 0 -> Dfac v wm w <> RtoC 0 ->
  Component_call (the_comp v wn wm) w = Ok (comp_val v wn wm w).
Proof.
  intros v wn wm w H HA HD. unfold Component_call, asymptotic_factor, the_comp; simpl.
  rewrite cdiv_ok by assumption. simpl. destruct v; simpl.
  - unfold resonant_factor_A. rewrite !cdiv_1_inv; [| |auto].
    + simpl. rewrite cdiv_ok by exact HD. reflexivity.
    + rewrite Cconj_0_iff. auto.
  - unfold resonant_factor_B. rewrite cdiv_ok by exact HD. reflexivity.
Qed.

Lemma Component_call_errA : forall v wn wm w, Afac wn = RtoC 0 ->
  Component_call (the_comp v wn wm) w = Err ZeroDivisionError.
Proof.
  intros v wn wm w H. unfold Component_call, asymptotic_factor, the_comp; simpl.
  rewrite H, cdiv_zero. reflexivity.
Qed.

Lemma Component_call_errD : forall v wn wm w, (v = VariantA -> wm <> RtoC 0) ->
  Dfac v wm w = RtoC 0 ->
  Component_call (the_comp v wn wm) w = Err ZeroDivisionError.
Proof.
  intros v wn wm w H HD.
  destruct (C_eq_dec (Afac wn) (RtoC 0)) as [E|N]; [now apply Component_call_errA|].
  unfold Component_call, asymptotic_factor, the_comp; simpl.
  rewrite cdiv_ok by assumption. simpl. destruct v; simpl in *.
  - unfold resonant_factor_A. rewrite !cdiv_1_inv; [| |auto].
    + simpl. rewrite HD, cdiv_zero. reflexivity.
    + rewrite Cconj_0_iff. auto.
  - unfold resonant_factor_B. rewrite HD, cdiv_zero. reflexivity.
Qed.

Lemma Component_call_inv : forall v wn wm w x, (v = VariantA -> wm <> RtoC 0) ->
  Component_call (the_comp v wn wm) w = Ok x ->
  Afac wn <> RtoC 0 /\ Dfac v wm w <> RtoC 0 /\ x = comp_val v wn wm w.
Proof.
  intros v wn wm w x H E.
  destruct (C_eq_dec (Afac wn) (RtoC 0)) as [EA|NA].
  { rewrite Component_call_errA in E by assumption. discriminate. }
  destruct (C_eq_dec (Dfac v wm w) (RtoC 0)) as [ED|ND].
  { rewrite Component_call_errD in E by assumption. discriminate. }
  rewrite Component_call_ok in E by assumption. injection E as <-. auto.
Qed.

Lemma Component_call_err_inv : forall v wn wm w e, (v = VariantA -> wm <> RtoC 0) ->
  Component_call (the_comp v wn wm) w = Err e -> e = ZeroDivisionError.
Proof.
  intros v wn wm w e H E.
  destruct (C_eq_dec (Afac wn) (RtoC 0)) as [EA|NA].
  { rewrite Component_call_errA in E by assumption. congruence. }
  destruct (C_eq_dec (Dfac v wm w) (RtoC 0)) as [ED|ND].
  { rewrite Component_call_errD in E by assumption. congruence. }
  rewrite Component_call_ok in E by assumption. discriminate.
Qed.

(** Normalisation. *)
Lemma comp_val_norm : forall v wn wm, Afac wn <> RtoC 0 -> Dfac v wm wn <> RtoC 0 ->
  comp_val v wn wm wn = RtoC 1.
Proof. intros. unfold comp_val. field. tauto. Qed.

(** Conjugation for a real w_n. *)
Lemma Csq_conj : forall a, Cconj (Csq a) = Csq (Cconj a).
Proof. intros. apply Cconj_mul. Qed.
Lemma Afac_conj : forall w, Cconj (Afac w) = Afac (Cconj w).
Proof. intros. unfold Afac. now rewrite Csq_conj, Cconj_sub, Csq_conj, Cconj_RtoC. Qed.
Lemma Dfac_conj : forall v wm w, Cconj (Dfac v wm w) = Dfac v wm (Cconj w).
Proof.
  intros v wm w. destruct v; simpl;
    rewrite !Cconj_mul, ?Cconj_sub, ?Cconj_add, ?Cconj_inv, ?Cconj_invol; ring.
Qed.
Lemma comp_val_conj : forall v wn wm w, Im wn = 0 ->
  Cconj (comp_val v wn wm w) = comp_val v wn wm (Cconj w).
Proof.
  intros v wn wm w H. apply Cconj_real_iff in H. unfold comp_val.
  rewrite Cconj_mul, !Cconj_div, !Afac_conj, !Dfac_conj, H. reflexivity.
Qed.

(** Result-level conjugation. *)
Definition Res_map {A B : Type} (f : A -> B) (x : Res A) : Res B :=
  match x with Ok a => Ok (f a) | Err e => Err e end.

Lemma Component_call_conj : forall v wn wm w, (v = VariantA -> wm <> RtoC 0) -> Im wn = 0 ->
  Component_call (the_comp v wn wm) (Cconj w) =
  Res_map Cconj (Component_call (the_comp v wn wm) w).
Proof.
  intros v wn wm w H Hr.
  destruct (C_eq_dec (Afac wn) (RtoC 0)) as [EA|NA].
  { now rewrite !Component_call_errA. }
  destruct (C_eq_dec (Dfac v wm w) (RtoC 0)) as [ED|ND].
  { rewrite !Component_call_errD; try assumption; [reflexivity|].
    rewrite <- Dfac_conj, ED. apply Cconj_RtoC. }
  rewrite !Component_call_ok; try assumption.
  - simpl. now rewrite comp_val_conj.
  - rewrite <- Dfac_conj, Cconj_0_iff. assumption.
Qed.

(** ** Components in the t plane *)

(** The relation between a variant and the pole position that the constructors
    establish. *)
Definition good_pole (t_0 t_in : R) (v : variant) (p : C) : Prop :=
  p <> RtoC t_in /\
  match v with
  | VariantA => p <> RtoC t_0 /\ (on_cut (Csub p t_0) -> Re p < t_in)
  | VariantB => on_cut (Csub p t_0) -> t_in < Re p
  end.

Lemma on_cut_real : forall (t_0 : R) p, on_cut (Csub p t_0) -> p = RtoC (Re p) /\ t_0 <= Re p.
Proof.
  intros t_0 p [H1 H2]. simpl in *. split; [apply C_ext; simpl; lra | lra].
Qed.

Section Comp.
Variables t_0 t_in : R.
Hypothesis H0 : 0 <= t_0.
Hypothesis Hlt : t_0 < t_in.

Lemma zero_neq_tin : RtoC 0 <> RtoC t_in.
Proof. intros E. apply RtoC_inj in E. lra. Qed.

Lemma wn_real : Im (Wt t_0 t_in 0) = 0 /\ -1 < Re (Wt t_0 t_in 0) <= 0.
Proof.
  destruct (Rle_lt_or_eq_dec 0 t_0 H0) as [L|E].
  - destruct (Wt_real_below t_0 t_in Hlt 0 L) as [A B]. lra.
  - assert (F : Wt t_0 t_in 0 = RtoC 0).
    { apply Wt_0_iff; [assumption|apply zero_neq_tin|]. now rewrite <- E. }
    rewrite F. simpl. lra.
Qed.

Lemma Afac_0_iff : forall w, Afac w = RtoC 0 <-> w = RtoC 1 \/ w = RtoC (-1).
Proof.
  intros w. unfold Afac. split; intros H.
  - apply Cmul_integral in H.
    assert (E : Csub 1 (Csq w) = RtoC 0) by tauto.
    assert (F : Cmul (Csub w 1) (Csub w (RtoC (-1))) = RtoC 0).
    { replace (RtoC (-1)) with (Copp 1) by (Cext; ring).
      transitivity (Copp (Csub 1 (Csq w))); [unfold Csq; ring|]. rewrite E. ring. }
    apply Cmul_integral in F. destruct F as [F|F]; apply Csub_eq in F; auto.
  - destruct H as [->| ->]; Cext; ring.
Qed.

Lemma Afac_wn : Afac (Wt t_0 t_in 0) <> RtoC 0.
Proof.
  rewrite Afac_0_iff. destruct wn_real as [A B].
  intros [E|E]; rewrite E in B; simpl in B; lra.
Qed.

Lemma on_cut_image : forall t, t <> RtoC t_in -> on_cut (Csub t t_0) ->
  (Re (Wt t_0 t_in t) = 0 /\ 0 <= Im (Wt t_0 t_in t) < 1 /\ Re t < t_in) \/
  (Cabs (Wt t_0 t_in t) = 1 /\ Re (Wt t_0 t_in t) < 0 /\ 0 < Im (Wt t_0 t_in t) /\ t_in < Re t).
Proof.
  intros t Hin H. destruct (on_cut_real _ _ H) as [E L].
  destruct (Rtotal_order (Re t) t_in) as [A|[A|A]].
  - left. destruct (Rle_lt_or_eq_dec t_0 (Re t) L) as [B|B].
    + rewrite E. destruct (Wt_between t_0 t_in Hlt (Re t) (conj B A)) as [P Q]. simpl. lra.
    + rewrite E, <- B. rewrite Wt_at_t0 by assumption. simpl. lra.
  - exfalso. apply Hin. rewrite E, A. reflexivity.
  - right. rewrite E. destruct (Wt_above t_0 t_in Hlt (Re t) A) as [P [Q S]]. simpl. tauto.
Qed.

Lemma good_pole_A_abs : forall p, good_pole t_0 t_in VariantA p ->
  Wt t_0 t_in p <> RtoC 0 /\ Cabs (Wt t_0 t_in p) < 1.
Proof.
  intros p [Hin [Ht0 Hc]]. split.
  - intros E. apply Wt_0_iff in E; auto.
  - destruct (on_cut_dec (Csub p t_0)) as [On|Off].
    + destruct (on_cut_image p Hin On) as [[A [B D]]|[A [B [D F]]]].
      * replace (Wt t_0 t_in p) with (mkC 0 (Im (Wt t_0 t_in p))) by (apply C_ext; simpl; lra).
        apply Cabs_lt_1. unfold Cnorm2; simpl. nra.
      * apply Hc in On. lra.
    + destruct (Wt_off_cut t_0 t_in Hlt p Off). assumption.
Qed.

Lemma good_pole_B_re : forall p, good_pole t_0 t_in VariantB p -> Re (Wt t_0 t_in p) < 0.
Proof.
  intros p [Hin Hc].
  destruct (on_cut_dec (Csub p t_0)) as [On|Off].
  - destruct (on_cut_image p Hin On) as [[A [B D]]|[A [B [D F]]]]; [|assumption].
    apply Hc in On. lra.
  - destruct (Wt_off_cut t_0 t_in Hlt p Off). assumption.
Qed.

Lemma good_pole_wm : forall v p, good_pole t_0 t_in v p ->
  v = VariantA -> Wt t_0 t_in p <> RtoC 0.
Proof. intros v p H ->. now apply good_pole_A_abs. Qed.

(** conj(W(p)) is in the image only as W(conj p). *)
Lemma W_eq_conj : forall v p t, good_pole t_0 t_in v p -> t <> RtoC t_in ->
  Wt t_0 t_in t = Cconj (Wt t_0 t_in p) -> t = Cconj p.
Proof.
  intros v p t [Hin Hp] Ht E.
  destruct (on_cut_dec (Csub p t_0)) as [On|Off].
  - exfalso.
    destruct (on_cut_image p Hin On) as [[A [B D]]|[A [B [D F]]]].
    + assert (R0 : Re (Wt t_0 t_in t) = 0) by (rewrite E; simpl; lra).
      assert (I0 : Im (Wt t_0 t_in t) = - Im (Wt t_0 t_in p)) by (rewrite E; reflexivity).
      assert (Pn : 0 < Im (Wt t_0 t_in p)).
      { destruct v.
        - destruct Hp as [Hp _].
          destruct B as [[B|B] _]; [assumption|]. exfalso. apply Hp.
          apply Wt_0_iff with t_in; try assumption. apply C_ext; simpl; lra.
        - apply Hp in On. lra. }
      destruct (on_cut_dec (Csub t t_0)) as [On'|Off'].
      * destruct (on_cut_image t Ht On') as [[A' [B' D']]|[A' [B' [D' F']]]]; lra.
      * destruct (Wt_off_cut t_0 t_in Hlt t Off'). lra.
    + assert (I0 : Im (Wt t_0 t_in t) = - Im (Wt t_0 t_in p)) by (rewrite E; reflexivity).
      assert (A2 : Cabs (Wt t_0 t_in t) = 1) by (rewrite E, Cabs_conj; assumption).
      destruct (on_cut_dec (Csub t t_0)) as [On'|Off'].
      * destruct (on_cut_image t Ht On') as [[A' [B' D']]|[A' [B' [D' F']]]]; lra.
      * destruct (Wt_off_cut t_0 t_in Hlt t Off'). lra.
  - rewrite <- Wt_conj in E by assumption.
    apply Wt_inj in E; try assumption.
    apply (off_cut_neq_tin t_0 t_in Hlt). now apply off_cut_conj.
Qed.

Lemma W_conj_pole : forall p, p <> RtoC t_in ->
  Dfac VariantB (Wt t_0 t_in p) (Wt t_0 t_in (Cconj p)) = RtoC 0 /\
  Dfac VariantA (Wt t_0 t_in p) (Wt t_0 t_in (Cconj p)) = RtoC 0.
Proof.
  intros p Hin.
  assert (E : Wt t_0 t_in (Cconj p) = Wt t_0 t_in p \/ Wt t_0 t_in (Cconj p) = Cconj (Wt t_0 t_in p)).
  { destruct (on_cut_dec (Csub p t_0)) as [On|Off].
    - left. destruct (on_cut_real _ _ On) as [E _]. rewrite E at 1. rewrite Cconj_RtoC, <- E. reflexivity.
    - right. now apply Wt_conj. }
  destruct E as [E|E]; rewrite E; simpl; split; ring.
Qed.

(** Exact zero set of the resonant denominator. *)
Lemma Dfac_zero_iff : forall v p t, good_pole t_0 t_in v p -> t <> RtoC t_in ->
  (Dfac v (Wt t_0 t_in p) (Wt t_0 t_in t) = RtoC 0 <-> t = p \/ t = Cconj p).
Proof.
  intros v p t G Ht. assert (Hin := proj1 G). split; intros H.
  - assert (Himg := Wt_half_disc t_0 t_in Hlt t Ht). destruct Himg as [HR HA].
    assert (EQ : Wt t_0 t_in t = Wt t_0 t_in p \/ Wt t_0 t_in t = Cconj (Wt t_0 t_in p)).
    { destruct v; simpl in H.
      - destruct (good_pole_A_abs p G) as [Nz La].
        assert (L1 : 1 < Cabs (Cinv (Wt t_0 t_in p))).
        { rewrite Cabs_inv by assumption. rewrite <- Rinv_1.
          apply Rinv_lt_contravar; [|assumption]. rewrite Rmult_1_r. now apply Cabs_pos. }
        apply Cmul_integral in H. destruct H as [H|H].
        + apply Cmul_integral in H. destruct H as [H|H].
          * apply Cmul_integral in H. destruct H as [H|H]; apply Csub_eq in H; auto.
          * apply Csub_eq in H. rewrite H in HA. lra.
        + apply Csub_eq in H. rewrite H in HA.
          rewrite <- Cconj_inv, Cabs_conj in HA. lra.
      - assert (Nr := good_pole_B_re p G).
        apply Cmul_integral in H. destruct H as [H|H].
        + apply Cmul_integral in H. destruct H as [H|H].
          * apply Cmul_integral in H. destruct H as [H|H]; apply Csub_eq in H; auto.
          * apply (f_equal Re) in H. simpl in H. lra.
        + apply (f_equal Re) in H. simpl in H. lra. }
    destruct EQ as [E|E].
    + left. apply (Wt_inj t_0 t_in Hlt); assumption.
    + right. now apply (W_eq_conj v).
  - destruct H as [-> | ->].
    + destruct v; simpl; ring.
    + destruct (W_conj_pole p Hin). destruct v; assumption.
Qed.

(** Evaluation of a component at W(t). *)
Lemma comp_at_t : forall v p t, good_pole t_0 t_in v p -> t <> RtoC t_in ->
  Component_call (the_comp v (Wt t_0 t_in 0) (Wt t_0 t_in p)) (Wt t_0 t_in t) =
  if C_eq_dec t p then Err ZeroDivisionError
  else if C_eq_dec t (Cconj p) then Err ZeroDivisionError
  else Ok (comp_val v (Wt t_0 t_in 0) (Wt t_0 t_in p) (Wt t_0 t_in t)).
Proof.
  intros v p t G Ht. assert (Z := Dfac_zero_iff v p t G Ht).
  assert (N := good_pole_wm v p G).
  destruct (C_eq_dec t p) as [E|Ne]; [apply Component_call_errD; tauto|].
  destruct (C_eq_dec t (Cconj p)) as [E|Ne']; [apply Component_call_errD; tauto|].
  apply Component_call_ok; [assumption|apply Afac_wn|tauto].
Qed.

(** *** Zero width: the vector-meson-dominance form *)

Lemma Afac_t : forall t, t <> RtoC t_in -> t <> RtoC t_0 ->
  Afac (Wt t_0 t_in t) =
  Cmul (Cmul (Wt t_0 t_in t) (Wt t_0 t_in t))
       (Copp (Cdivt (RtoC (4 * (t_in - t_0))) (Csub t t_0))).
Proof.
  intros t Ht Ht0. rewrite <- W_identity_sq by assumption.
  assert (W0 : Wt t_0 t_in t <> RtoC 0) by (intros E; apply Wt_0_iff in E; auto).
  unfold Afac, Csq. field. assumption.
Qed.

(** The denominator when wm is on the imaginary axis (A) or on the unit circle (B). *)
Lemma Dfac_real_pole : forall v (x : R), good_pole t_0 t_in v x -> t_0 < x ->
  forall w, let wm := Wt t_0 t_in x in
  Dfac v wm w = Cmul (Csub (Cmul w w) (Cmul wm wm))
                     (Csub (Cmul w w) (Cinv (Cmul wm wm))).
Proof.
  intros v x G L w wm.
  assert (Hin := proj1 G).
  assert (Wn : wm <> RtoC 0).
  { intros E. apply Wt_0_iff in E; auto. apply RtoC_inj in E. lra. }
  assert (On : on_cut (Csub x t_0)) by (unfold on_cut; simpl; lra).
  destruct (on_cut_image x Hin On) as [[A [B D]]|[A [B [D F]]]]; fold wm in A, B; try fold wm in D.
  - assert (E : Cconj wm = Copp wm) by (Cext; lra).
    destruct v; simpl.
    + rewrite E. field. split; [assumption|]. now apply Copp_neq0.
    + destruct G as [_ G]. apply G in On. simpl in On, D. lra.
  - assert (E : Cconj wm = Cinv wm).
    { assert (M := Cmul_conj wm). rewrite <- Cabs_sq, A in M.
      transitivity (Cmul (Cinv wm) (Cmul wm (Cconj wm))); [field; assumption|].
      rewrite M. replace (1 * 1) with 1 by ring. ring. }
    destruct v; simpl.
    + destruct G as [_ [_ G]]. apply G in On. simpl in On, F. lra.
    + rewrite E. field. assumption.
Qed.

Lemma ratio_real_pole : forall v (x : R) t, good_pole t_0 t_in v x -> t_0 < x ->
  t <> RtoC t_in -> t <> RtoC x ->
  Cdivt (Afac (Wt t_0 t_in t)) (Dfac v (Wt t_0 t_in x) (Wt t_0 t_in t)) =
  Cdivt (RtoC (x - t_0)) (Csub x t).
Proof.
  intros v x t G L Ht Hx.
  assert (Hin := proj1 G).
  assert (Xt0 : RtoC x <> RtoC t_0) by (intros E; apply RtoC_inj in E; lra).
  assert (Wm0 : Wt t_0 t_in x <> RtoC 0) by (intros E; apply Wt_0_iff in E; auto).
  assert (NX : Csub x t <> RtoC 0) by (intros E; apply Csub_eq in E; auto).
  rewrite (Dfac_real_pole v x G L).
  destruct (C_eq_dec t (RtoC t_0)) as [->|Nt0].
  - rewrite Wt_at_t0 by assumption. unfold Afac, Csq.
    rewrite RtoC_sub. set (wm := Wt t_0 t_in x) in *.
    transitivity (RtoC 1).
    + field. split; [assumption|]. split.
      * intros E. injection E. lra.
      * now apply Copp_neq0, Cmul_neq0.
    + field. assumption.
  - assert (W0 : Wt t_0 t_in t <> RtoC 0) by (intros E; apply Wt_0_iff in E; auto).
    assert (It := W_identity_sq t_0 t_in Hlt t Ht Nt0).
    assert (Ix := W_identity_sq t_0 t_in Hlt x Hin Xt0).
    set (w := Wt t_0 t_in t) in *. set (wm := Wt t_0 t_in x) in *.
    assert (E1 : Afac w = Cmul (Cmul w w) (Csq (Csub w (Cinv w)))).
    { unfold Afac, Csq. field. assumption. }
    assert (E2 : Cmul (Csub (Cmul w w) (Cmul wm wm)) (Csub (Cmul w w) (Cinv (Cmul wm wm))) =
                 Cmul (Cmul w w) (Csub (Csq (Csub w (Cinv w))) (Csq (Csub wm (Cinv wm))))).
    { unfold Csq. field. tauto. }
    rewrite E1, E2, It, Ix.
    assert (Tn : Csub t t_0 <> RtoC 0) by (intros E; apply Csub_eq in E; auto).
    assert (Xn : Csub x t_0 <> RtoC 0) by (intros E; apply Csub_eq in E; auto).
    assert (Dn : RtoC (4 * (t_in - t_0)) <> RtoC 0) by (apply RtoC_neq0; lra).
    assert (Dn' := Copp_neq0 _ Dn).
    rewrite RtoC_sub. set (q := RtoC (4 * (t_in - t_0))) in *.
    assert (K : Csub (Copp (Cdivt q (Csub t t_0))) (Copp (Cdivt q (Csub x t_0))) =
                Copp (Cdivt (Cmul q (Csub x t)) (Cmul (Csub t t_0) (Csub x t_0)))).
    { field. tauto. }
    rewrite K. field. repeat split; try assumption. now apply Copp_neq0, Cmul_neq0.
Qed.

Lemma comp_zero_width : forall v (x : R) t, good_pole t_0 t_in v x -> t_0 < x ->
  t <> RtoC t_in -> t <> RtoC x ->
  comp_val v (Wt t_0 t_in 0) (Wt t_0 t_in x) (Wt t_0 t_in t) = Cdivt x (Csub x t).
Proof.
  intros v x t G L Ht Hx.
  assert (X0 : RtoC 0 <> RtoC x) by (intros E; apply RtoC_inj in E; lra).
  assert (R1 := ratio_real_pole v x t G L Ht Hx).
  assert (R2 := ratio_real_pole v x 0%C G L zero_neq_tin X0).
  assert (D1 : Dfac v (Wt t_0 t_in x) (Wt t_0 t_in t) <> RtoC 0).
  { rewrite (Dfac_zero_iff v x t G Ht). rewrite Cconj_RtoC. tauto. }
  assert (D2 : Dfac v (Wt t_0 t_in x) (Wt t_0 t_in 0) <> RtoC 0).
  { rewrite (Dfac_zero_iff v x 0%C G zero_neq_tin). rewrite Cconj_RtoC. tauto. }
  assert (A0 := Afac_wn).
  assert (NX : Csub x t <> RtoC 0) by (intros E; apply Csub_eq in E; auto).
  assert (XX : RtoC x <> RtoC 0) by (apply RtoC_neq0; lra).
  assert (XT : RtoC (x - t_0) <> RtoC 0) by (apply RtoC_neq0; lra).
  unfold comp_val.
  set (d1 := Dfac v (Wt t_0 t_in x) (Wt t_0 t_in t)) in *.
  set (d2 := Dfac v (Wt t_0 t_in x) (Wt t_0 t_in 0)) in *.
  set (a1 := Afac (Wt t_0 t_in t)) in *. set (a2 := Afac (Wt t_0 t_in 0)) in *.
  transitivity (Cdivt (Cdivt a1 d1) (Cdivt a2 d2)).
  - field. tauto.
  - rewrite R1, R2. field. repeat split; try assumption.
Qed.

End Comp.

(** ** What the two [_build_component] methods establish *)

Lemma Re_meson_pole : forall m g, Re (meson_pole m g) = m * m - g * g / 4.
Proof. intros. unfold meson_pole, Csq, Cdivt, Cinv, Cnorm2; simpl. field. Qed.
Lemma Im_meson_pole : forall m g, Im (meson_pole m g) = - (m * g).
Proof. intros. unfold meson_pole, Csq, Cdivt, Cinv, Cnorm2; simpl. field. Qed.
Lemma meson_pole_0 : forall m, meson_pole m 0 = RtoC (m * m).
Proof. intros. apply C_ext; [rewrite Re_meson_pole|rewrite Im_meson_pole]; simpl; field. Qed.

Global Opaque meson_pole.

Definition variant_of (x t_in : R) : variant := if Rlt_dec x t_in then VariantA else VariantB.

(** Successful construction, non-degenerate branch points. *)
Lemma build_component_inv : forall t_0 t_in m g c, t_0 < t_in ->
  build_component t_0 t_in m g = Ok c ->
  0 <= t_0 /\ t_0 <= m * m /\
  good_pole t_0 t_in (variant_of (m * m) t_in) (meson_pole m g) /\
  c = the_comp (variant_of (m * m) t_in) (Wt t_0 t_in 0) (Wt t_0 t_in (meson_pole m g)).
Proof.
  intros t_0 t_in m g c Hlt H. unfold build_component in H.
  apply bind_Ok_inv in H. destruct H as [mp [E H]].
  apply MapTW_init_inv in E. destruct E as [V ->]. fold (tw t_0 t_in) in H.
  apply bind_Ok_inv in H. destruct H as [wn [E1 H]].
  apply bind_Ok_inv in H. destruct H as [wm [E2 H]].
  assert (Z := zero_neq_tin t_0 t_in (proj1 V) Hlt).
  rewrite Map_call_ok in E1 by assumption. injection E1 as <-.
  destruct (Map_call_cases t_0 t_in Hlt (meson_pole m g)) as [[Ep F]|[Np F]];
    rewrite F in E2; [discriminate|]. injection E2 as <-.
  destruct (Rlt_dec (m * m) t_0) as [|Nl]; [discriminate|].
  unfold variant_of.
  assert (Cut : on_cut (Csub (meson_pole m g) t_0) -> Re (meson_pole m g) = m * m \/ m = 0).
  { intros [I _]. simpl in I. rewrite Im_meson_pole in I. rewrite Re_meson_pole.
    assert (J : m * g = 0) by lra. apply Rmult_integral in J. destruct J as [J|J]; [right; assumption|].
    left. subst g. field. }
  destruct (Rlt_dec (m * m) t_in) as [L|NL]; apply Component_init_inv in H; destruct H as [Wm0 ->].
  - repeat split; try lra; try assumption.
    + intros E. apply Wm0; [reflexivity|]. apply Wt_0_iff; assumption.
    + intros On. destruct (Cut On) as [R|R]; [lra|].
      subst m. rewrite Re_meson_pole. nra.
  - repeat split; try lra; try assumption.
    intros On. destruct (Cut On) as [R|R].
    + rewrite R. destruct (Rle_lt_or_eq_dec t_in (m * m)) as [L'|E']; [lra|assumption|].
      exfalso. apply Np. destruct (on_cut_real _ _ On) as [E _]. rewrite E, R, E'. reflexivity.
    + subst m. lra.
Qed.

Lemma build_component_nucleon_inv : forall t_0 t_in m g c, t_0 < t_in ->
  build_component_nucleon t_0 t_in m g = Ok c ->
  0 <= t_0 /\ t_0 <= Re (meson_pole m g) /\
  good_pole t_0 t_in (variant_of (Re (meson_pole m g)) t_in) (meson_pole m g) /\
  c = the_comp (variant_of (Re (meson_pole m g)) t_in) (Wt t_0 t_in 0)
        (Wt t_0 t_in (meson_pole m g)).
Proof.
  intros t_0 t_in m g c Hlt H. unfold build_component_nucleon in H.
  apply bind_Ok_inv in H. destruct H as [mp [E H]].
  apply MapTW_init_inv in E. destruct E as [V ->]. fold (tw t_0 t_in) in H.
  apply bind_Ok_inv in H. destruct H as [wn [E1 H]].
  apply bind_Ok_inv in H. destruct H as [wm [E2 H]].
  assert (Z := zero_neq_tin t_0 t_in (proj1 V) Hlt).
  rewrite Map_call_ok in E1 by assumption. injection E1 as <-.
  destruct (Map_call_cases t_0 t_in Hlt (meson_pole m g)) as [[Ep F]|[Np F]];
    rewrite F in E2; [discriminate|]. injection E2 as <-.
  set (p := meson_pole m g) in *.
  destruct (Rlt_dec (Re p) t_0) as [|Nl]; [discriminate|].
  unfold variant_of.
  destruct (Rlt_dec (Re p) t_in) as [L|NL]; apply Component_init_inv in H; destruct H as [Wm0 ->].
  - repeat split; try lra; try assumption; try (intros; assumption).
    intros E. apply Wm0; [reflexivity|]. apply Wt_0_iff; assumption.
  - repeat split; try lra; try assumption.
    intros On. destruct (on_cut_real _ _ On) as [E _].
    destruct (Rle_lt_or_eq_dec t_in (Re p)) as [L'|E']; [lra|assumption|].
    exfalso. apply Np. now rewrite E, E'.
Qed.

(** Exact acceptance conditions. *)
Definition accept_resonance (t_0 t_in m g : R) : Prop :=
  t_0 <= m * m /\ meson_pole m g <> RtoC t_in /\ (m * m < t_in -> meson_pole m g <> RtoC t_0).

Lemma build_component_ok_iff : forall t_0 t_in m g, 0 <= t_0 < t_in ->
  is_ok (build_component t_0 t_in m g) <-> accept_resonance t_0 t_in m g.
Proof.
  intros t_0 t_in m g [H0 Hlt]. unfold accept_resonance. split.
  - intros [c H]. destruct (build_component_inv _ _ _ _ _ Hlt H) as [_ [L [G _]]].
    unfold variant_of in G. split; [assumption|]. split; [apply G|].
    intros L'. destruct (Rlt_dec (m * m) t_in); [apply G|contradiction].
  - intros [L [Hin Ht0]]. unfold build_component.
    rewrite MapTW_init_ok by lra. simpl. fold (tw t_0 t_in).
    rewrite Map_call_ok by (assumption || (apply (zero_neq_tin t_0 t_in); assumption)). simpl.
    rewrite Map_call_ok by assumption. simpl.
    destruct (Rlt_dec (m * m) t_0); [lra|].
    destruct (Rlt_dec (m * m) t_in) as [L2|L2]; rewrite Component_init_ok;
      try (eexists; reflexivity); try discriminate.
    intros _ E. apply Wt_0_iff in E; auto. now apply Ht0.
Qed.

Definition accept_resonance_nucleon (t_0 t_in m g : R) : Prop :=
  t_0 <= m * m - g * g / 4 /\ meson_pole m g <> RtoC t_in /\ meson_pole m g <> RtoC t_0.

Lemma build_component_nucleon_ok_iff : forall t_0 t_in m g, 0 <= t_0 < t_in ->
  is_ok (build_component_nucleon t_0 t_in m g) <-> accept_resonance_nucleon t_0 t_in m g.
Proof.
  intros t_0 t_in m g [H0 Hlt]. unfold accept_resonance_nucleon. rewrite <- Re_meson_pole. split.
  - intros [c H]. destruct (build_component_nucleon_inv _ _ _ _ _ Hlt H) as [_ [L [G _]]].
    unfold variant_of in G. split; [assumption|]. split; [apply G|].
    destruct (Rlt_dec (Re (meson_pole m g)) t_in) as [L'|L']; [apply G|].
    intros E. rewrite E in L'. simpl in L'. lra.
  - intros [L [Hin Ht0]]. unfold build_component_nucleon.
    rewrite MapTW_init_ok by lra. simpl. fold (tw t_0 t_in).
    rewrite Map_call_ok by (assumption || (apply (zero_neq_tin t_0 t_in); assumption)). simpl.
    rewrite Map_call_ok by assumption. simpl.
    destruct (Rlt_dec (Re (meson_pole m g)) t_0); [lra|].
    destruct (Rlt_dec (Re (meson_pole m g)) t_in) as [L2|L2]; rewrite Component_init_ok;
      try (eexists; reflexivity); try discriminate.
    intros _ E. apply Wt_0_iff in E; auto.
Qed.

(** Kind of error of a failing construction. *)
Lemma build_component_err : forall t_0 t_in m g e, 0 <= t_0 < t_in ->
  build_component t_0 t_in m g = Err e ->
  (e = ZeroDivisionError /\ meson_pole m g = RtoC t_in) \/
  (e = ValueError /\ meson_pole m g <> RtoC t_in /\ m * m < t_0) \/
  (e = ZeroDivisionError /\ meson_pole m g = RtoC t_0 /\ t_0 <= m * m < t_in).
Proof.
  intros t_0 t_in m g e [H0 Hlt] H. unfold build_component in H.
  rewrite MapTW_init_ok in H by lra. simpl in H. fold (tw t_0 t_in) in H.
  rewrite Map_call_ok in H by (assumption || (apply (zero_neq_tin t_0 t_in); assumption)). simpl in H.
  destruct (Map_call_cases t_0 t_in Hlt (meson_pole m g)) as [[Ep F]|[Np F]]; rewrite F in H; simpl in H.
  { left. split; congruence. }
  destruct (Rlt_dec (m * m) t_0) as [L|L]; [right; left; split; [congruence|tauto]|].
  right; right.
  destruct (Rlt_dec (m * m) t_in) as [L2|L2].
  - destruct (C_eq_dec (Wt t_0 t_in (meson_pole m g)) (RtoC 0)) as [E|N].
    + rewrite E, Component_init_A_zero in H. apply Wt_0_iff in E; auto.
      split; [congruence|]. split; [assumption|lra].
    + rewrite Component_init_ok in H by auto. discriminate.
  - rewrite Component_init_ok in H by discriminate. discriminate.
Qed.

(** ** Degenerate branch points t_in = t_0 *)

Lemma degenerate_map : forall (x : R) t, 0 <= x ->
  MapFromTtoW_call (tw x x) t = if C_eq_dec t (RtoC x) then Err ZeroDivisionError else Ok (RtoC (-1)).
Proof.
  intros x t Hx. unfold MapFromTtoW_call, tw; simpl.
  replace (x - x) with 0 by ring. rewrite sqrt_0.
  destruct (C_eq_dec t (RtoC x)) as [->|N].
  - replace (square_root (Csub x x)) with (RtoC 0).
    + replace (Cadd (Copp 0) 0) with (RtoC 0) by ring. rewrite cdiv_zero. reflexivity.
    + symmetry. apply square_root_0_iff. ring.
  - assert (Z : square_root (Csub t x) <> RtoC 0).
    { rewrite square_root_0_iff. intros E. apply Csub_eq in E. contradiction. }
    set (z := square_root (Csub t x)) in *.
    assert (Z' : Cadd (Copp z) 0 <> RtoC 0).
    { intros E. apply Z. transitivity (Copp (Cadd (Copp z) 0)); [ring|]. rewrite E. ring. }
    rewrite cdiv_ok by assumption. simpl.
    replace (Cdivt (Cadd z 0) (Cadd (Copp z) 0)) with (RtoC (-1)).
    + rewrite square_root_neg by lra. replace (- -1) with 1 by ring. rewrite sqrt_1.
      rewrite cdiv_ok.
      * f_equal. Cext; unfold Cnorm2; simpl; field.
      * intros E. injection E. lra.
    + replace (RtoC (-1)) with (Copp 1) by (Cext; ring). field.
      now apply Copp_neq0.
Qed.

Lemma degenerate_component : forall x m g c, build_component x x m g = Ok c ->
  0 < x /\ forall w, Component_call c w = Err ZeroDivisionError.
Proof.
  intros x m g c H. unfold build_component in H.
  apply bind_Ok_inv in H. destruct H as [mp [E H]].
  apply MapTW_init_inv in E. destruct E as [V ->]. fold (tw x x) in H.
  rewrite !degenerate_map in H by lra.
  destruct (C_eq_dec (RtoC 0) (RtoC x)) as [E|N]; [discriminate|]. simpl in H.
  destruct (C_eq_dec (meson_pole m g) (RtoC x)) as [E|N2]; [discriminate|]. simpl in H.
  split.
  - destruct V as [[V|V] _]; [assumption|]. exfalso. apply N. now rewrite V.
  - intros w. destruct (Rlt_dec (m * m) x); [discriminate|].
    apply Component_init_inv in H. destruct H as [_ ->].
    apply Component_call_errA. apply Afac_0_iff. now right.
Qed.

Lemma degenerate_component_nucleon : forall x m g c, build_component_nucleon x x m g = Ok c ->
  0 < x /\ forall w, Component_call c w = Err ZeroDivisionError.
Proof.
  intros x m g c H. unfold build_component_nucleon in H.
  apply bind_Ok_inv in H. destruct H as [mp [E H]].
  apply MapTW_init_inv in E. destruct E as [V ->]. fold (tw x x) in H.
  rewrite !degenerate_map in H by lra.
  destruct (C_eq_dec (RtoC 0) (RtoC x)) as [E|N]; [discriminate|]. simpl in H.
  destruct (C_eq_dec (meson_pole m g) (RtoC x)) as [E|N2]; [discriminate|]. simpl in H.
  split.
  - destruct V as [[V|V] _]; [assumption|]. exfalso. apply N. now rewrite V.
  - intros w. destruct (Rlt_dec (Re (meson_pole m g)) x); [discriminate|].
    apply Component_init_inv in H. destruct H as [_ ->].
    apply Component_call_errA. apply Afac_0_iff. now right.
Qed.
