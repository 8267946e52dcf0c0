(** Evaluation of the model in ball arithmetic, continued: the map from W to t, the vector meson dominance model,
    the public flags of the form factor models and the two cross sections. *)
From Coq Require Import String Reals ZArith QArith Qreals Lia Lra List Bool Machin.
From Verif Require Import PyBase CNum UAMaps UAComponents PyExpr UAModels Nucleon NucleonCache MapProofs
  OtherModels CrossSections CommonUtils PropsCross Balls Enclose.
Import ListNotations.
Local Open Scope R_scope.
Local Open Scope py_scope.

#[local] Hint Resolve inC_one inC_i inC_sq inC_zero in_zero inC_add inC_sub inC_mul inC_opp inC_conj inC_real
  in_add in_sub in_mul in_opp in_int : encl.

(** ** The number pi *)

(** Terms of the alternating series of the standard library ([PI_2_3_7_tg]) as fractions. *)
Fixpoint qpow (x : Q) (n : nat) : Q := match n with O => 1%Q | S n' => Qred (x * qpow x n')%Q end.
Definition pi_term (i : nat) : Q :=
  let k := (2 * i + 1)%nat in
  ((2 * qpow (1 # 3) k + qpow (1 # 7) k) / (Z.of_nat k # 1))%Q.
Fixpoint pi_sum (n : nat) : Q :=
  match n with
  | O => pi_term 0
  | S n' => Qred (if Nat.even n then pi_sum n' + pi_term n else pi_sum n' - pi_term n)%Q
  end.

Lemma Q2R_qpow : forall x n, Q2R (qpow x n) = Q2R x ^ n.
Proof.
  intros x n. induction n as [|n IH]; cbn [qpow pow].
  - unfold Q2R. simpl. field.
  - rewrite (Qeq_eqR _ _ (Qred_correct _)), Q2R_mult, IH. reflexivity.
Qed.

Lemma Q2R_pi_term : forall i, Q2R (pi_term i) = PI_2_3_7_tg i.
Proof.
  intro i. unfold pi_term, PI_2_3_7_tg, Ratan_seq. set (k := (2 * i + 1)%nat).
  assert (K : INR k <> 0) by (apply not_0_INR; unfold k; lia).
  assert (E : Q2R (Z.of_nat k # 1) = INR k).
  { unfold Q2R. simpl. rewrite <- INR_IZR_INZ. field. }
  rewrite Q2R_div.
  - rewrite Q2R_plus, Q2R_mult, !Q2R_qpow, E.
    replace (Q2R (1 # 3)) with (/ 3) by (unfold Q2R; simpl; field).
    replace (Q2R (1 # 7)) with (/ 7) by (unfold Q2R; simpl; field).
    replace (Q2R 2) with 2 by (unfold Q2R; simpl; field). field. exact K.
  - intro H. apply Qeq_eqR in H. rewrite E in H. apply K. rewrite H. unfold Q2R. simpl. field.
Qed.

Lemma Q2R_pi_sum : forall n, Q2R (pi_sum n) = sum_f_R0 (tg_alt PI_2_3_7_tg) n.
Proof.
  intro n. induction n as [|n IH]; cbn [pi_sum sum_f_R0].
  - rewrite Q2R_pi_term. unfold tg_alt. simpl. ring.
  - rewrite (Qeq_eqR _ _ (Qred_correct _)). unfold tg_alt at 2. rewrite <- Q2R_pi_term.
    destruct (Nat.even (S n)) eqn:E.
    + apply Nat.even_spec in E. destruct E as [k E]. rewrite E at 2. rewrite pow_1_even, Q2R_plus, IH. ring.
    + assert (O : Nat.odd (S n) = true) by (unfold Nat.odd; now rewrite E).
      apply Nat.odd_spec in O. destruct O as [k O]. rewrite O at 2.
      replace (2 * k + 1)%nat with (S (2 * k)) by lia. rewrite pow_1_odd, Q2R_minus, IH. ring.
Qed.

Definition b_pi : ball := mkBall 14835751850141947581203 2.

Lemma in_pi : inB b_pi Rtrigo1.PI.
Proof.
  destruct (PI_2_3_7_ineq 12) as [L U]. rewrite <- !Q2R_pi_sum in L, U.
  assert (L' : (Qle ((mid b_pi - rad b_pi # 1) / (4 * scale # 1)) (pi_sum (S (2 * 12)))))
    by (apply Qle_bool_iff; vm_compute; reflexivity).
  assert (U' : (Qle (pi_sum (2 * 12)) ((mid b_pi + rad b_pi # 1) / (4 * scale # 1))))
    by (apply Qle_bool_iff; vm_compute; reflexivity).
  apply Qle_Rle in L'. apply Qle_Rle in U'.
  assert (S0 : ~ (4 * scale # 1 == 0)%Q) by (vm_compute; discriminate).
  rewrite Q2R_div in L', U' by exact S0.
  assert (Z1 : forall z, Q2R (z # 1) = IZR z) by (intro z; unfold Q2R; cbn [Qnum Qden]; field).
  rewrite !Z1, mult_IZR in L', U'. pose proof scaleR_pos as P. apply inB_bounds.
  set (s := IZR scale) in *.
  assert (A : forall x, x / (4 * s) * (4 * s) = x) by (intro; field; lra).
  split.
  - rewrite <- (A (IZR (mid b_pi - rad b_pi))).
    apply Rle_trans with (Rtrigo1.PI / 4 * (4 * s)); [|right; field].
    apply Rmult_le_compat_r; lra.
  - rewrite <- (A (IZR (mid b_pi + rad b_pi))).
    apply Rle_trans with (Rtrigo1.PI / 4 * (4 * s)); [right; field|].
    apply Rmult_le_compat_r; lra.
Qed.
#[global] Opaque b_pi.

(** ** The power 3/2 *)

(** The principal power is [z] times the square root of the model, up to the sign of the root. *)
Lemma Cpow_square_root : forall z,
  Cpow z (3/2) = if Rlt_dec (Im z) 0 then Copp (Cmul z (square_root z)) else Cmul z (square_root z).
Proof.
  intro z. unfold Cpow. destruct (C_eq_dec z (RtoC 0)) as [->|N].
  - simpl Im. destruct (Rlt_dec 0 0) as [L|_]; [lra|]. apply C_ext; simpl; ring.
  - unfold polar. pose proof (Cabs_pos z N) as P. rewrite (Rpower_32 (Cabs z) P). unfold pow32.
    destruct (square_root_re_im z) as [E1 E2]. destruct (polar_correct z) as [P1 P2].
    pose proof (atan2_neg_iff (Im z) (Re z)) as A.
    unfold shifted_phase in E1, E2. set (p := atan2 (Im z) (Re z)) in *.
    set (r := Cabs z) in *. set (q := sqrt r) in *.
    replace (p * (3 / 2)) with (p + p / 2) by field. rewrite cos_plus, sin_plus.
    assert (S : (if Rlt_dec (Im z) 0 then -1 else 1) * Re (square_root z) = q * cos (p / 2) /\
                (if Rlt_dec (Im z) 0 then -1 else 1) * Im (square_root z) = q * sin (p / 2)).
    { rewrite E1, E2. destruct (Rlt_dec (Im z) 0) as [L|L].
      - destruct (Rlt_dec p 0) as [_|K]; [|exfalso; apply K, A, L].
        replace ((2 * Rtrigo1.PI + p) / 2) with (p / 2 + Rtrigo1.PI) by field.
        rewrite neg_cos, neg_sin. split; ring.
      - destruct (Rlt_dec p 0) as [K|_]; [exfalso; apply L, A, K|]. split; ring. }
    destruct S as [S1 S2].
    assert (R1 : r * q * (cos p * cos (p / 2) - sin p * sin (p / 2))
                 = Re z * (q * cos (p / 2)) - Im z * (q * sin (p / 2))) by (rewrite P1, P2; ring).
    assert (R2 : r * q * (sin p * cos (p / 2) + cos p * sin (p / 2))
                 = Re z * (q * sin (p / 2)) + Im z * (q * cos (p / 2))) by (rewrite P1, P2; ring).
    rewrite R1, R2, <- S1, <- S2.
    destruct (Rlt_dec (Im z) 0); apply C_ext; cbn [Re Im Copp Cmul]; ring.
Qed.

Definition cb_pow32 (z : cball) : option cball :=
  s <o- cb_sqrt z ;;
  let p := cb_mul z s in
  if b_is_zero (bim z) then Some p
  else up <o- b_sign (bim z) ;; Some (if up then p else cb_opp p).

Lemma inC_pow32 : forall a b z, cb_pow32 a = Some b -> inC a z -> inC b (Cpow z (3/2)).
Proof.
  intros a b z E H. unfold cb_pow32 in E. destruct (cb_sqrt a) as [s|] eqn:F; [|discriminate].
  cbn [obind] in E. pose proof (inC_mul _ _ _ _ H (inC_sqrt _ _ _ F H)) as M. rewrite Cpow_square_root.
  destruct (b_is_zero (bim a)) eqn:Z0.
  - pose proof (is_zero_inv _ _ Z0 (proj2 H)) as I0. destruct (Rlt_dec (Im z) 0) as [L|_]; [lra|].
    injection E as <-. exact M.
  - destruct (b_sign (bim a)) as [up|] eqn:U; [|discriminate]. cbn [obind] in E. injection E as <-.
    pose proof (in_sign _ _ _ U (proj2 H)) as K.
    destruct up; destruct (Rlt_dec (Im z) 0); try lra; [exact M|now apply inC_opp].
Qed.

(** ** The map from W to t, [z - 1/z] *)

Definition bz_minus_its_reciprocal (z : cball) : option cball := r <o- cb_div cb_one z ;; Some (cb_sub z r).
Lemma enc_z_minus_its_reciprocal : forall a z, inC a z ->
  encl inC (bz_minus_its_reciprocal a) (z_minus_its_reciprocal z).
Proof.
  intros a z H. unfold bz_minus_its_reciprocal, z_minus_its_reciprocal.
  eapply encl_bind; [apply encl_div; [exact inC_one|exact H]|]. intros b r K. apply encl_Ok. auto with encl.
Qed.

Record bmapWT : Type := mkBMapWT { bw_t_0 : ball; bw_delta : ball }.
Definition encWT (b : bmapWT) (m : MapWT) : Prop := inB (bw_t_0 b) (wt_t_0 m) /\ inB (bw_delta b) (wt_delta m).
Definition bmapWT_init (t_0 t_in : ball) : option bmapWT :=
  n <o- b_lt t_0 b_zero ;; if n then None else
  k <o- b_lt t_in t_0 ;; if k then None else
  Some (mkBMapWT t_0 (b_sub t_in t_0)).
Lemma enc_mapWT_init : forall a b t_0 t_in, inB a t_0 -> inB b t_in ->
  encl encWT (bmapWT_init a b) (MapFromWtoT_init t_0 t_in).
Proof.
  intros a b t_0 t_in Ha Hb. unfold bmapWT_init, MapFromWtoT_init, validate_branch_point_positions.
  destruct (b_lt a b_zero) as [[]|] eqn:E; cbn [obind]; try exact I.
  destruct (b_lt b a) as [[]|] eqn:F; cbn [obind]; try exact I.
  pose proof (in_lt_false _ _ _ _ E Ha in_zero). pose proof (in_lt_false _ _ _ _ F Hb Ha).
  destruct (Rlt_dec t_0 0); [lra|]. destruct (Rlt_dec t_in t_0); [lra|]. cbn [bind].
  apply encl_Ok. split; [exact Ha|]. cbn [wt_delta bw_delta]. auto with encl.
Qed.
Definition bmapWT_call (m : bmapWT) (w : cball) : option cball :=
  r <o- bz_minus_its_reciprocal w ;;
  q <o- cb_div (cb_real (b_mul (b_int 4) (bw_delta m))) (cb_sq r) ;;
  Some (cb_sub (cb_real (bw_t_0 m)) q).
Lemma enc_mapWT_call : forall b m a w, encWT b m -> inC a w -> encl inC (bmapWT_call b a) (MapFromWtoT_call m w).
Proof.
  intros b m a w [H0 H1] Hw. unfold bmapWT_call, MapFromWtoT_call.
  eapply encl_bind; [apply enc_z_minus_its_reciprocal; exact Hw|]. intros br r Hr.
  eapply encl_bind; [apply encl_div; auto with encl|]. intros bq q Hq. apply encl_Ok. auto with encl.
Qed.

(** ** Vector meson dominance (pairs of coefficient and mass) *)

Definition bvmd_term (t : cball) (coefficient mass : ball) : option cball :=
  let m2 := b_mul mass mass in cb_div (cb_real (b_mul coefficient m2)) (cb_sub (cb_real m2) t).
Fixpoint bvmd_sum (t acc : cball) (l : list (ball * ball)) : option cball :=
  match l with
  | [] => Some acc
  | (c, m) :: l' => x <o- bvmd_term t c m ;; bvmd_sum t (cb_add acc x) l'
  end.
Definition bvmd_call (l : list (ball * ball)) (t : cball) : option cball :=
  match l with [] => None | _ => bvmd_sum t (cb_real b_zero) l end.
Definition enc_pair (p : ball * ball) (q : R * R) : Prop := inB (fst p) (fst q) /\ inB (snd p) (snd q).

Lemma VMDModel_create_eq : forall l, VMDModel_create l = map (fun cm => mkMeson (snd cm) (fst cm)) l.
Proof.
  intro l. unfold VMDModel_create, VMDModel_init, add_vector_meson.
  enough (H : forall acc, fold_left (fun m cm => (m ++ [mkMeson (snd cm) (fst cm)])%list) l acc
              = (acc ++ map (fun cm => mkMeson (snd cm) (fst cm)) l)%list) by exact (H []).
  induction l as [|x l IH]; intro acc; cbn [fold_left map].
  - now rewrite app_nil_r.
  - rewrite IH, <- app_assoc. reflexivity.
Qed.

Lemma enc_vmd_call : forall bl l a t, Forall2 enc_pair bl l -> inC a t ->
  encl inC (bvmd_call bl a) (VMDModel_call (VMDModel_create l) t).
Proof.
  intros bl l a t H Ht. rewrite VMDModel_create_eq. unfold bvmd_call, VMDModel_call.
  destruct H as [|p q bl l Hp H]; [exact I|]. cbn [map].
  change (mkMeson (snd q) (fst q) :: map (fun cm => mkMeson (snd cm) (fst cm)) l)
    with (map (fun cm => mkMeson (snd cm) (fst cm)) (q :: l)).
  assert (F : Forall2 enc_pair (p :: bl) (q :: l)) by now constructor.
  generalize inC_zero. generalize (RtoC 0) as s. generalize (cb_real b_zero) as bs. clear Hp H.
  induction F as [|[c m] [x y] bl' l' [H1 H2] _ IH]; intros bs s Hs; cbn [bvmd_sum map fold_left].
  - now apply encl_Ok.
  - cbn [fst snd vm_mass vm_coefficient bind] in *.
    destruct (bvmd_term a c m) as [v|] eqn:E; [|exact I]. cbn [obind].
    assert (K : encl inC (bvmd_term a c m) (evaluate_meson_contribution t x y))
      by (apply encl_div; auto with encl).
    rewrite E in K. destruct K as [w [-> K]]. cbn [bind]. apply IH. auto with encl.
Qed.

(** ** Public flags *)

Definition bkaon_set_charged (b : bkaon) (charged : bool) : bkaon :=
  mkBKaon (bk_class b) charged (bk_attrs b) (bk_map_s b) (bk_map_v b) (bk_comps b).
Lemma enc_kaon_set_charged : forall b m c, encKaon b m ->
  encKaon (bkaon_set_charged b c) (Kaon_set_charged m c).
Proof. intros b m c [H1 [_ H2]]. split; [exact H1|]. split; [reflexivity|exact H2]. Qed.

Definition bnuc_set_flags (b : bnuc) (proton electric : bool) : bnuc :=
  mkBNuc (bn_class b) proton electric (bn_attrs b) (bn_ds b) (bn_dv b) (bn_ps b) (bn_pv b) (bn_comps b)
    (bn_masses b).
Lemma enc_nuc_set_flags : forall b m p e, encNuc b m ->
  encNuc (bnuc_set_flags b p e) (Nucleon_set_flags m p e).
Proof.
  intros b m p e [H1 [_ [_ H2]]]. split; [exact H1|]. split; [reflexivity|]. split; [reflexivity|exact H2].
Qed.

(** The value of a nucleon model does not depend on what its cache holds, if that is right. *)
Lemma enc_nuc_call_cached : forall b m a t c, encNuc b m -> inC a t -> cache_ok m c ->
  encl inC (bnuc_call b a) (fst (Nucleon_call m t c)).
Proof.
  intros b m a t c H Ht HC. destruct (Nucleon_call_pure m t c HC) as [-> _]. now apply enc_nuc_call.
Qed.

(** The four contributions once, then all flags. *)
Definition bnuc_parts (m : bnuc) (t : cball) : option (cball * cball * (cball * cball)) :=
  c <o- b_lt (bre t) b_zero ;; if c then None else
  let cls := bn_class m in
  ds <o- bcontribution m (bn_ds m) (bn_ds_locals cls) (bn_ds_expr cls) t ;;
  dv <o- bcontribution m (bn_dv m) (bn_dv_locals cls) (bn_dv_expr cls) t ;;
  ps <o- bcontribution m (bn_ps m) (bn_ps_locals cls) (bn_ps_expr cls) t ;;
  pv <o- bcontribution m (bn_pv m) (bn_pv_locals cls) (bn_pv_expr cls) t ;;
  Some (ds, dv, (ps, pv)).
Definition bnuc_of_parts (m : bnuc) (t : cball) (p : cball * cball * (cball * cball)) (proton electric : bool) :=
  bcombine (bnuc_set_flags m proton electric) t (fst (fst p)) (snd (fst p)) (fst (snd p)) (snd (snd p)).

Lemma bcontribution_flags : forall m p e mp l ex t,
  bcontribution (bnuc_set_flags m p e) mp l ex t = bcontribution m mp l ex t.
Proof.
  intros m p e mp l ex t. unfold bcontribution. destruct (bmap_call mp t) as [w|]; [|reflexivity]. cbn [obind].
  assert (B : forall l ls, blocals (bnuc_set_flags m p e) w l ls = blocals m w l ls).
  { intro l0. induction l0 as [|[x s d r|x e0] l0 IH]; intro ls; cbn [blocals]; [reflexivity| |].
    - unfold bmass. cbn [bn_masses bnuc_set_flags]. destruct (lookup (bn_masses m) _) as [[v|]|]; cbn [obind]; auto.
    - change (bnuc_scope (bnuc_set_flags m p e) w ls (comp_names e0)) with (bnuc_scope m w ls (comp_names e0)).
      destruct (bev _ e0); cbn [obind]; auto. }
  rewrite B. reflexivity.
Qed.

Lemma bnuc_parts_call : forall m t q p e, bnuc_parts m t = Some q ->
  bnuc_call (bnuc_set_flags m p e) t = bnuc_of_parts m t q p e.
Proof.
  intros m t q p e H. unfold bnuc_parts in H. unfold bnuc_call. cbn [bn_class bnuc_set_flags bn_ds bn_dv bn_ps bn_pv].
  destruct (b_lt (bre t) b_zero) as [[]|]; cbn [obind] in *; try discriminate.
  rewrite !bcontribution_flags.
  destruct (bcontribution m (bn_ds m) _ _ t) as [ds|]; [|discriminate]. cbn [obind] in *.
  destruct (bcontribution m (bn_dv m) _ _ t) as [dv|]; [|discriminate]. cbn [obind] in *.
  destruct (bcontribution m (bn_ps m) _ _ t) as [ps|]; [|discriminate]. cbn [obind] in *.
  destruct (bcontribution m (bn_pv m) _ _ t) as [pv|]; [|discriminate]. cbn [obind] in *.
  injection H as <-. reflexivity.
Qed.

(** ** Cross sections *)

Definition bscalar_cs (mass alpha hc2 : ball) (f t : cball) : option cball :=
  third <o- b_inv (b_int 3) ;;
  let coefficient := b_mul (b_mul (b_mul hc2 b_pi) (b_mul alpha alpha)) third in
  a <o- cb_div (cb_real coefficient) t ;;
  q <o- cb_div (cb_real (b_mul (b_int 4) (b_mul mass mass))) t ;;
  p <o- cb_pow32 (cb_sub cb_one q) ;;
  Some (cb_mul (cb_mul a p) (cb_real (cb_norm2 f))).

Lemma enc_scalar_cs : forall bm ba bh bt bf m alpha hc2 t form_factor f,
  inB bm m -> inB ba alpha -> inB bh hc2 -> inC bt t -> form_factor t = Ok f -> inC bf f ->
  encl inC (bscalar_cs bm ba bh bf bt) (ScalarCS_call (ScalarCS_init m alpha hc2) form_factor t).
Proof.
  intros bm ba bh bt bf m alpha hc2 t ff f Hm Ha Hh Ht E Hf. unfold bscalar_cs, ScalarCS_call, ScalarCS_init.
  rewrite E. cbn [bind sc_coefficient sc_four_mass_squared].
  destruct (b_inv (b_int 3)) as [third|] eqn:F; [|exact I]. cbn [obind].
  pose proof (proj2 (in_inv _ _ _ F (in_int 3))) as H3.
  eapply encl_bind.
  { apply encl_div; [|exact Ht]. apply inC_real. unfold Rdiv. apply in_mul; [|exact H3].
    apply in_mul; [apply in_mul; [exact Hh|exact in_pi]|now apply in_mul]. }
  intros b1 a1 G1. eapply encl_bind; [apply encl_div; [|exact Ht]; auto with encl|]. intros b2 a2 G2.
  destruct (cb_pow32 (cb_sub cb_one b2)) as [p|] eqn:K; [|exact I]. cbn [obind].
  pose proof (inC_pow32 _ _ _ K (inC_sub _ _ _ _ inC_one G2)) as HP.
  apply encl_Ok. apply inC_mul; [now apply inC_mul|]. apply inC_real. rewrite Cabs_sq. now apply in_norm2.
Qed.

Definition bnucleon_cs (mass alpha hc2 : ball) (fe fm t : cball) : option cball :=
  third <o- b_inv (b_int 3) ;;
  let coefficient := b_mul (b_mul (b_mul (b_mul hc2 (b_int 4)) b_pi) (b_mul alpha alpha)) third in
  let m4 := b_mul (b_int 4) (b_mul mass mass) in
  r <o- cb_abs t ;;
  q <o- b_div m4 r ;;
  beta <o- b_sqrt (b_sub (b_int 1) q) ;;
  a <o- cb_div (cb_real (b_mul coefficient beta)) t ;;
  b <o- cb_div (cb_real (b_mul m4 (cb_norm2 fe))) (cb_mul (cb_real (b_int 2)) t) ;;
  Some (cb_mul a (cb_add (cb_real (cb_norm2 fm)) b)).

Lemma enc_nucleon_cs : forall F set_electric call bm ba bh bt be bf m alpha hc2 t (f0 f1 : F) e f,
  inB bm m -> inB ba alpha -> inB bh hc2 -> inC bt t ->
  call (set_electric true f0) t = (Ok e, f1) -> inC be e ->
  fst (call (set_electric false f1) t) = Ok f -> inC bf f ->
  encl inC (bnucleon_cs bm ba bh be bf bt)
    (fst (NucleonCS_call F set_electric call (NucleonCS_init m alpha hc2) f0 t)).
Proof.
  intros F set_electric call bm ba bh bt be bf m alpha hc2 t f0 f1 e f Hm Ha Hh Ht E He E' Hf.
  unfold NucleonCS_call. rewrite E. destruct (call (set_electric false f1) t) as [r f2]. cbn [fst] in E'. subst r.
  cbn [fst]. unfold nucleon_formula, bnucleon_cs. cbn [NucleonCS_init nc_coefficient nc_four_mass_squared].
  destruct (b_inv (b_int 3)) as [third|] eqn:G; [|exact I]. cbn [obind].
  pose proof (proj2 (in_inv _ _ _ G (in_int 3))) as H3.
  set (k := b_mul (b_mul (b_mul (b_mul bh (b_int 4)) b_pi) (b_mul ba ba)) third).
  assert (Hk : inB k (hc2 * 4 * Rtrigo1.PI * (alpha * alpha) / 3)).
  { unfold k, Rdiv. apply in_mul; [|exact H3].
    apply in_mul; [apply in_mul; [apply in_mul; [exact Hh|exact (in_int 4)]|exact in_pi]|now apply in_mul]. }
  clearbody k.
  assert (H4 : inB (b_mul (b_int 4) (b_mul bm bm)) (4 * (m * m))) by auto with encl.
  set (m4 := b_mul (b_int 4) (b_mul bm bm)) in *. clearbody m4.
  destruct (cb_abs bt) as [r|] eqn:A; [|exact I]. cbn [obind].
  pose proof (in_abs _ _ _ A Ht) as Hr.
  eapply encl_bind; [apply encl_rdiv; [exact H4|exact Hr]|]. intros bq q Hq.
  eapply encl_bind; [apply encl_rsqrt, in_sub; [exact (in_int 1)|exact Hq]|]. intros bb beta Hb.
  eapply encl_bind; [apply encl_div; [|exact Ht]; apply inC_real; now apply in_mul|]. intros b1 a1 G1.
  eapply encl_bind.
  { apply encl_div.
    - apply inC_real, in_mul; [exact H4|]. rewrite Cabs_sq. now apply in_norm2.
    - apply inC_mul; [apply inC_real, (in_int 2)|exact Ht]. }
  intros b2 a2 G2. apply encl_Ok. apply inC_mul; [exact G1|]. apply inC_add; [|exact G2].
  apply inC_real. rewrite Cabs_sq. now apply in_norm2.
Qed.
