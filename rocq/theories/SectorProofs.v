(** Facts about sectors (sums of coupled components on one pair of branch points). *)
From Coq Require Import String Reals Bool Arith List Lra.
From Verif Require Import PyBase CNum UAMaps UAComponents PyExpr UAModels
  MapProofs ComponentProofs ExprProofs KaonProofs.
Import ListNotations.
Local Open Scope R_scope.
Local Open Scope py_scope.

(** The pole of a resonance and the condition "t is the pole or its conjugate". *)
Definition at_pole (m g : R) (t : C) : Prop :=
  t = meson_pole m g \/ t = Cconj (meson_pole m g).

Lemma at_pole_dec : forall m g t, {at_pole m g t} + {~ at_pole m g t}.
Proof.
  intros. unfold at_pole. destruct (C_eq_dec t (meson_pole m g)); [left; tauto|].
  destruct (C_eq_dec t (Cconj (meson_pole m g))); [left|right]; tauto.
Qed.

Lemma at_pole_conj : forall m g t, at_pole m g (Cconj t) <-> at_pole m g t.
Proof.
  intros m g t. unfold at_pole. split.
  - intros [E|E].
    + right. rewrite <- E. now rewrite Cconj_invol.
    + left. now apply Cconj_inj.
  - intros [->| ->]; [right|left]; [reflexivity|apply Cconj_invol].
Qed.

(** Total value of a component. *)
Definition KC (t_0 t_in m g : R) (t : C) : C :=
  comp_val (variant_of (m * m) t_in) (Wt t_0 t_in 0) (Wt t_0 t_in (meson_pole m g)) (Wt t_0 t_in t).

Definition sec_val (t_0 t_in : R) (l : list resonance) (t : C) : C :=
  csum (map (fun r => RtoC (r_a r) * KC t_0 t_in (r_m r) (r_g r) t)%C l).

Section Nondeg.
Variables t_0 t_in : R.
Hypothesis H0 : 0 <= t_0.
Hypothesis Hlt : t_0 < t_in.

Lemma comp_call_cases : forall m g c t, build_component t_0 t_in m g = Ok c -> t <> RtoC t_in ->
  (at_pole m g t /\ Component_call c (Wt t_0 t_in t) = Err ZeroDivisionError) \/
  (~ at_pole m g t /\ Component_call c (Wt t_0 t_in t) = Ok (KC t_0 t_in m g t)).
Proof.
  intros m g c t B Ht. destruct (build_component_inv _ _ _ _ _ Hlt B) as [_ [_ [G ->]]].
  unfold at_pole, KC. rewrite (comp_at_t t_0 t_in H0 Hlt) by assumption.
  destruct (C_eq_dec t (meson_pole m g)); [left; tauto|].
  destruct (C_eq_dec t (Cconj (meson_pole m g))); [left|right]; tauto.
Qed.

Lemma term_cases : forall r t, is_ok (build_component t_0 t_in (r_m r) (r_g r)) -> t <> RtoC t_in ->
  (at_pole (r_m r) (r_g r) t /\ term t_0 t_in (Wt t_0 t_in t) r = Err ZeroDivisionError) \/
  (~ at_pole (r_m r) (r_g r) t /\
   term t_0 t_in (Wt t_0 t_in t) r = Ok (RtoC (r_a r) * KC t_0 t_in (r_m r) (r_g r) t)%C).
Proof.
  intros r t [c B] Ht. unfold term. rewrite B. simpl.
  destruct (comp_call_cases _ _ _ _ B Ht) as [[A E]|[A E]]; rewrite E; simpl; tauto.
Qed.

Lemma sector_eval_cases : forall l t,
  Forall (fun r => is_ok (build_component t_0 t_in (r_m r) (r_g r))) l ->
  ((t = RtoC t_in \/ Exists (fun r => at_pole (r_m r) (r_g r) t) l) /\
    sector_eval t_0 t_in l t = Err ZeroDivisionError) \/
  (t <> RtoC t_in /\ Forall (fun r => ~ at_pole (r_m r) (r_g r) t) l /\
    sector_eval t_0 t_in l t = Ok (sec_val t_0 t_in l t)).
Proof.
  intros l t V. unfold sector_eval.
  destruct (Map_call_cases t_0 t_in Hlt t) as [[E F]|[N F]]; rewrite F; simpl; [left; tauto|].
  assert (D : (Exists (fun r => at_pole (r_m r) (r_g r) t) l /\
               mapM (term t_0 t_in (Wt t_0 t_in t)) l = Err ZeroDivisionError) \/
              (Forall (fun r => ~ at_pole (r_m r) (r_g r) t) l /\
               mapM (term t_0 t_in (Wt t_0 t_in t)) l =
               Ok (map (fun r => RtoC (r_a r) * KC t_0 t_in (r_m r) (r_g r) t)%C l))).
  { induction V as [|r l Vr V IH]; simpl.
    - right. split; [constructor|reflexivity].
    - destruct (term_cases r t Vr N) as [[A T]|[A T]]; rewrite T; simpl.
      + left. split; [now constructor|reflexivity].
      + destruct IH as [[B M]|[B M]]; rewrite M; simpl.
        * left. split; [now constructor 2|reflexivity].
        * right. split; [now constructor|reflexivity]. }
  destruct D as [[B M]|[B M]]; rewrite M; simpl; [left|right]; tauto.
Qed.

(** Reflection. *)
Lemma KC_conj : forall m g t, ~ on_cut (Csub t t_0) ->
  KC t_0 t_in m g (Cconj t) = Cconj (KC t_0 t_in m g t).
Proof.
  intros m g t Off. unfold KC. rewrite Wt_conj by assumption.
  rewrite comp_val_conj; [reflexivity|]. now apply (wn_real t_0 t_in H0 Hlt).
Qed.

Lemma csum_conj : forall l, Cconj (csum l) = csum (map Cconj l).
Proof.
  induction l as [|x l IH]; simpl; [apply Cconj_RtoC|]. now rewrite Cconj_add, IH.
Qed.

Lemma sec_val_conj : forall l t, ~ on_cut (Csub t t_0) ->
  sec_val t_0 t_in l (Cconj t) = Cconj (sec_val t_0 t_in l t).
Proof.
  intros l t Off. unfold sec_val. rewrite csum_conj, map_map. f_equal. apply map_ext.
  intros r. now rewrite KC_conj, Cconj_mul, Cconj_RtoC.
Qed.

(** Normalisation. *)
Lemma accepted_not_pole_0 : forall m g, is_ok (build_component t_0 t_in m g) -> ~ at_pole m g (RtoC 0).
Proof.
  intros m g B. apply build_component_ok_iff in B; [|lra]. destruct B as [L [N1 N2]].
  assert (P : meson_pole m g <> RtoC 0).
  { intros E. assert (E1 := f_equal Re E). assert (E2 := f_equal Im E).
    rewrite Re_meson_pole in E1. rewrite Im_meson_pole in E2. simpl in E1, E2.
    assert (M : m * g = 0) by lra.
    assert (M0 : m * m = 0).
    { apply Rmult_integral in M. destruct M as [->| ->]; nra. }
    apply N2; [lra|]. rewrite E. f_equal. lra. }
  intros [E|E]; apply P; [now symmetry|].
  apply Cconj_inj. now rewrite <- E, Cconj_RtoC.
Qed.

Lemma KC_0 : forall m g, is_ok (build_component t_0 t_in m g) -> KC t_0 t_in m g 0%C = RtoC 1.
Proof.
  intros m g B. assert (P := accepted_not_pole_0 m g B). destruct B as [c B].
  destruct (build_component_inv _ _ _ _ _ Hlt B) as [_ [_ [G _]]].
  unfold KC. apply comp_val_norm.
  - now apply Afac_wn.
  - rewrite (Dfac_zero_iff t_0 t_in Hlt) by (try assumption; now apply (zero_neq_tin t_0)).
    exact P.
Qed.

Definition total_coupling (l : list resonance) : R := fold_right Rplus 0 (map r_a l).

Lemma sector_eval_0 : forall l,
  Forall (fun r => is_ok (build_component t_0 t_in (r_m r) (r_g r))) l ->
  sector_eval t_0 t_in l 0%C = Ok (RtoC (total_coupling l)).
Proof.
  intros l V. destruct (sector_eval_cases l 0%C V) as [[[E|E] _]|[_ [_ E]]].
  - exfalso. now apply (zero_neq_tin t_0 t_in H0 Hlt).
  - exfalso. rewrite Exists_exists in E. destruct E as [r [Hr A]].
    rewrite Forall_forall in V. exact (accepted_not_pole_0 _ _ (V r Hr) A).
  - rewrite E. f_equal. unfold sec_val, total_coupling. clear E.
    induction V as [|r l Vr V IH]; simpl; [reflexivity|].
    rewrite IH, KC_0 by assumption. rewrite RtoC_add. f_equal. Cext; ring.
Qed.

(** Zero widths. *)
Lemma KC_zero_width : forall m t, is_ok (build_component t_0 t_in m 0) -> t <> RtoC t_in ->
  t <> RtoC (m * m) -> KC t_0 t_in m 0 t = Cdivt (RtoC (m * m)) (Csub (RtoC (m * m)) t).
Proof.
  intros m t B Ht Hp. assert (A := B). apply build_component_ok_iff in A; [|lra].
  destruct A as [L [N1 N2]]. rewrite meson_pole_0 in N1, N2. destruct B as [c B].
  destruct (build_component_inv _ _ _ _ _ Hlt B) as [_ [_ [G _]]]. rewrite meson_pole_0 in G.
  unfold KC. rewrite meson_pole_0. apply comp_zero_width; try assumption.
  destruct L as [L|L]; [assumption|]. exfalso. apply N2; [lra|]. now rewrite L.
Qed.

Lemma at_pole_zero_width : forall m t, at_pole m 0 t <-> t = RtoC (m * m).
Proof. intros. unfold at_pole. rewrite meson_pole_0, Cconj_RtoC. tauto. Qed.

End Nondeg.

(** Degenerate sectors. *)
Lemma sector_eval_degenerate : forall x l t, 0 <= x -> l <> [] ->
  Forall (fun r => is_ok (build_component x x (r_m r) (r_g r))) l ->
  sector_eval x x l t = Err ZeroDivisionError.
Proof.
  intros x l t Hx Hl V. unfold sector_eval. rewrite degenerate_map by assumption.
  destruct (C_eq_dec t (RtoC x)); [reflexivity|]. simpl.
  destruct l as [|r l]; [contradiction|]. inversion V as [|? ? [c B] V']; subst.
  simpl. unfold term at 1. rewrite B. simpl.
  destruct (degenerate_component _ _ _ _ B) as [_ E]. rewrite E. reflexivity.
Qed.

(** Reflection for every accepted sector. *)
Lemma sector_eval_conj : forall t_0 t_in l t, valid_sector t_0 t_in l -> l <> [] ->
  ~ on_cut (Csub t t_0) ->
  sector_eval t_0 t_in l (Cconj t) = Res_map Cconj (sector_eval t_0 t_in l t).
Proof.
  intros t_0 t_in l t [[V0 V1] V] Hl Off.
  destruct V1 as [Hlt|E].
  - destruct (sector_eval_cases t_0 t_in V0 Hlt l t V) as [[A E]|[A [P E]]];
    destruct (sector_eval_cases t_0 t_in V0 Hlt l (Cconj t) V) as [[B F]|[B [Q F]]].
    + now rewrite E, F.
    + exfalso. destruct A as [A|A].
      * apply B. now rewrite A, Cconj_RtoC.
      * apply Exists_exists in A. destruct A as [r [Hr A]]. rewrite Forall_forall in Q.
        apply (Q r Hr). now apply at_pole_conj.
    + exfalso. destruct B as [B|B].
      * apply A. apply Cconj_inj. now rewrite B, Cconj_RtoC.
      * apply Exists_exists in B. destruct B as [r [Hr B]]. rewrite Forall_forall in P.
        apply (P r Hr). now apply at_pole_conj.
    + rewrite E, F. simpl. f_equal. now apply sec_val_conj.
  - subst t_in. rewrite !sector_eval_degenerate by assumption. reflexivity.
Qed.

(** ** Asymptotics *)

Definition decays (n : nat) (f : C -> C) : Prop :=
  exists K T, 0 <= K /\ 0 < T /\ forall t, T <= Cabs t -> Cabs (f t) <= K / Cabs t ^ n.

Section Asym.
Variables t_0 t_in : R.
Hypothesis H0 : 0 <= t_0.
Hypothesis Hlt : t_0 < t_in.

(** W(t) tends to -1. *)
Lemma Afac_bound : forall t, 2 * t_in <= Cabs t ->
  Cabs (Afac (Wt t_0 t_in t)) <= 8 * (t_in - t_0) / Cabs t.
Proof.
  intros t HT.
  assert (Tp : 0 < Cabs t) by lra.
  assert (N1 : t <> RtoC t_in).
  { intros E. rewrite E, Cabs_RtoC, Rabs_pos_eq in HT by lra. lra. }
  assert (N0 : t <> RtoC t_0).
  { intros E. rewrite E, Cabs_RtoC, Rabs_pos_eq in HT by lra. lra. }
  rewrite Afac_t by assumption.
  rewrite !Cabs_mul.
  destruct (Wt_half_disc t_0 t_in Hlt t N1) as [_ W].
  assert (Wp := Cabs_nonneg (Wt t_0 t_in t)).
  assert (D : Cabs t / 2 <= Cabs (Csub t t_0)).
  { assert (Tr := Cabs_triangle (Csub t t_0) t_0).
    replace (Cadd (Csub t t_0) t_0) with t in Tr by ring.
    rewrite Cabs_RtoC, Rabs_pos_eq in Tr by assumption. lra. }
  assert (Dn : Csub t t_0 <> RtoC 0) by (intros E; apply Csub_eq in E; auto).
  rewrite Cabs_opp, Cabs_div by assumption. rewrite Cabs_RtoC, Rabs_pos_eq by lra.
  apply Rle_trans with (1 * (4 * (t_in - t_0) / Cabs (Csub t t_0))).
  - apply Rmult_le_compat_r.
    + apply Rmult_le_pos; [lra|]. apply Rlt_le, Rinv_0_lt_compat. lra.
    + nra.
  - rewrite Rmult_1_l. unfold Rdiv. replace (8 * (t_in - t_0) * / Cabs t) with (4 * (t_in - t_0) * / (Cabs t / 2)).
    + apply Rmult_le_compat_l; [lra|]. apply Rinv_le_contravar; lra.
    + field. lra.
Qed.

Lemma W_plus_1_bound : forall t, t <> RtoC t_in -> 2 * t_in <= Cabs t ->
  Cabs (Cadd (Wt t_0 t_in t) 1) * Cabs (Cadd (Wt t_0 t_in t) 1) <= 8 * (t_in - t_0) / Cabs t.
Proof.
  intros t N1 HT. eapply Rle_trans; [|now apply Afac_bound].
  destruct (Wt_half_disc t_0 t_in Hlt t N1) as [HR _].
  set (w := Wt t_0 t_in t) in *.
  replace (Afac w) with (Cmul (Cmul (Csub 1 w) (Csub 1 w)) (Cmul (Cadd w 1) (Cadd w 1)))
    by (unfold Afac, Csq; ring).
  rewrite !Cabs_mul.
  assert (G : 1 <= Cabs (Csub 1 w)).
  { assert (R := Cabs_Re (Csub 1 w)). simpl in R. rewrite Rabs_pos_eq in R by lra. lra. }
  assert (P := Cabs_nonneg (Cadd w 1)). 
  assert (Q : 0 <= Cabs (Cadd w 1) * Cabs (Cadd w 1)) by nra.
  assert (Q2 : 1 <= Cabs (Csub 1 w) * Cabs (Csub 1 w)) by nra.
  nra.
Qed.

Lemma W_neq_m1 : forall t, t <> RtoC t_in -> Wt t_0 t_in t <> RtoC (-1).
Proof.
  intros t N E. assert (A : Afac (Wt t_0 t_in t) = RtoC 0) by (apply Afac_0_iff; now right).
  destruct (C_eq_dec t (RtoC t_0)) as [->|N0].
  - rewrite Wt_at_t0 in E by assumption. injection E. lra.
  - rewrite Afac_t in A by assumption. rewrite E in A.
    assert (Dn : Csub t t_0 <> RtoC 0) by (intros F; apply Csub_eq in F; auto).
    revert A. apply Cmul_neq0.
    + apply Cmul_neq0; apply RtoC_neq0; lra.
    + apply Copp_neq0, Cdivt_neq0; [apply RtoC_neq0; lra|assumption].
Qed.

(** Each linear factor of the denominator stays away from 0 near w = -1. *)
Lemma factor_bound : forall c w, c <> RtoC (-1) ->
  Cabs (Cadd w 1) <= Cabs (Cadd c 1) / 2 -> Cabs (Cadd c 1) / 2 <= Cabs (Csub w c).
Proof.
  intros c w N H. assert (T := Cabs_triangle (Copp (Csub w c)) (Cadd w 1)).
  replace (Cadd (Copp (Csub w c)) (Cadd w 1)) with (Cadd c 1) in T by ring.
  rewrite Cabs_opp in T. lra.
Qed.

Lemma Cabs_p1_pos : forall c, c <> RtoC (-1) -> 0 < Cabs (Cadd c 1).
Proof.
  intros c N. apply Cabs_pos. intros E. apply N.
  transitivity (Csub (Cadd c 1) 1); [ring|]. rewrite E. Cext; ring.
Qed.

(** Four factors w - c_i. *)
Lemma four_bound : forall c1 c2 c3 c4,
  c1 <> RtoC (-1) -> c2 <> RtoC (-1) -> c3 <> RtoC (-1) -> c4 <> RtoC (-1) ->
  exists d e, 0 < d /\ 0 < e /\ forall w, Cabs (Cadd w 1) <= d ->
    e <= Cabs (Cmul (Cmul (Cmul (Csub w c1) (Csub w c2)) (Csub w c3)) (Csub w c4)).
Proof.
  intros c1 c2 c3 c4 N1 N2 N3 N4.
  assert (P1 := Cabs_p1_pos c1 N1). assert (P2 := Cabs_p1_pos c2 N2).
  assert (P3 := Cabs_p1_pos c3 N3). assert (P4 := Cabs_p1_pos c4 N4).
  set (x1 := Cabs (Cadd c1 1) / 2). set (x2 := Cabs (Cadd c2 1) / 2).
  set (x3 := Cabs (Cadd c3 1) / 2). set (x4 := Cabs (Cadd c4 1) / 2).
  assert (X1 : 0 < x1) by (unfold x1; lra). assert (X2 : 0 < x2) by (unfold x2; lra).
  assert (X3 : 0 < x3) by (unfold x3; lra). assert (X4 : 0 < x4) by (unfold x4; lra).
  exists (Rmin (Rmin x1 x2) (Rmin x3 x4)), (x1 * x2 * x3 * x4).
  split; [repeat apply Rmin_glb_lt; assumption|].
  split; [apply Rmult_lt_0_compat; [apply Rmult_lt_0_compat; [apply Rmult_lt_0_compat|]|]; assumption|].
  intros w Hw.
  assert (M1 := Rmin_l (Rmin x1 x2) (Rmin x3 x4)). assert (M2 := Rmin_r (Rmin x1 x2) (Rmin x3 x4)).
  assert (M3 := Rmin_l x1 x2). assert (M4 := Rmin_r x1 x2).
  assert (M5 := Rmin_l x3 x4). assert (M6 := Rmin_r x3 x4).
  assert (B1 : x1 <= Cabs (Csub w c1)) by (apply factor_bound; [assumption|fold x1; lra]).
  assert (B2 : x2 <= Cabs (Csub w c2)) by (apply factor_bound; [assumption|fold x2; lra]).
  assert (B3 : x3 <= Cabs (Csub w c3)) by (apply factor_bound; [assumption|fold x3; lra]).
  assert (B4 : x4 <= Cabs (Csub w c4)) by (apply factor_bound; [assumption|fold x4; lra]).
  rewrite !Cabs_mul. clearbody x1 x2 x3 x4.
  apply Rmult_le_compat; try lra; [repeat apply Rmult_le_pos; lra|].
  apply Rmult_le_compat; try lra; [repeat apply Rmult_le_pos; lra|].
  apply Rmult_le_compat; lra.
Qed.

Lemma Dfac_bound : forall v p, good_pole t_0 t_in v p ->
  exists d e, 0 < d /\ 0 < e /\ forall w, Cabs (Cadd w 1) <= d ->
    e <= Cabs (Dfac v (Wt t_0 t_in p) w).
Proof.
  intros v p G. assert (Np := W_neq_m1 p (proj1 G)).
  set (wm := Wt t_0 t_in p) in *.
  assert (Nc : Cconj wm <> RtoC (-1)).
  { intros E. apply Np. apply Cconj_inj. rewrite E. symmetry. apply Cconj_RtoC. }
  destruct v.
  - destruct (good_pole_A_abs t_0 t_in Hlt p G) as [W0 W1]. fold wm in W0, W1.
    assert (Ni : forall u, u <> RtoC 0 -> u <> RtoC (-1) -> Cinv u <> RtoC (-1)).
    { intros u U0 U1 E. apply U1. transitivity (Cinv (Cinv u)); [field; split; [assumption|]|].
      - intros F. injection F. lra.
      - rewrite E. Cext; unfold Cnorm2; simpl; field. }
    apply four_bound; auto. apply Ni; auto. now rewrite Cconj_0_iff.
  - assert (HR := good_pole_B_re t_0 t_in Hlt p G). fold wm in HR.
    destruct (four_bound wm (Cconj wm) (Copp wm) (Copp (Cconj wm)) Np Nc) as [d [e [D [E B]]]].
    + intros E. apply (f_equal Re) in E. simpl in E. lra.
    + intros E. apply (f_equal Re) in E. simpl in E. lra.
    + exists d, e. split; [assumption|]. split; [assumption|]. intros w Hw.
      replace (Dfac VariantB wm w) with
        (Cmul (Cmul (Cmul (Csub w wm) (Csub w (Cconj wm))) (Csub w (Copp wm))) (Csub w (Copp (Cconj wm)))).
      * now apply B.
      * simpl. ring.
Qed.

Lemma comp_decays : forall v p, good_pole t_0 t_in v p ->
  decays 1 (fun t => comp_val v (Wt t_0 t_in 0) (Wt t_0 t_in p) (Wt t_0 t_in t)).
Proof.
  intros v p G. destruct (Dfac_bound v p G) as [d [e [D [E B]]]].
  assert (A0 := Afac_wn t_0 t_in H0 Hlt).
  set (an := Afac (Wt t_0 t_in 0)) in *. set (dn := Dfac v (Wt t_0 t_in p) (Wt t_0 t_in 0)).
  assert (An := Cabs_pos an A0). assert (Dn := Cabs_nonneg dn).
  exists (8 * (t_in - t_0) * Cabs dn / (Cabs an * e)), (Rmax (2 * t_in) (8 * (t_in - t_0) / (d * d))).
  assert (dd : 0 < d * d) by nra.
  assert (ae : 0 < Cabs an * e) by nra.
  split.
  { apply Rmult_le_pos; [|apply Rlt_le, Rinv_0_lt_compat; assumption]. nra. }
  split.
  { eapply Rlt_le_trans; [|apply Rmax_l]. lra. }
  intros t HT.
  assert (T1 : 2 * t_in <= Cabs t) by (eapply Rle_trans; [apply Rmax_l|eassumption]).
  assert (T2 : 8 * (t_in - t_0) / (d * d) <= Cabs t) by (eapply Rle_trans; [apply Rmax_r|eassumption]).
  assert (Tp : 0 < Cabs t) by lra.
  assert (N1 : t <> RtoC t_in).
  { intros F. rewrite F, Cabs_RtoC, Rabs_pos_eq in T1 by lra. lra. }
  assert (W1 := W_plus_1_bound t N1 T1).
  assert (W2 : Cabs (Cadd (Wt t_0 t_in t) 1) <= d).
  { assert (S : 8 * (t_in - t_0) / Cabs t <= d * d).
    { apply Rmult_le_reg_r with (Cabs t); [assumption|].
      unfold Rdiv. rewrite Rmult_assoc, Rinv_l, Rmult_1_r by lra.
      apply Rmult_le_reg_r with (/ (d * d)); [now apply Rinv_0_lt_compat|].
      replace (d * d * Cabs t * / (d * d)) with (Cabs t) by (field; lra). assumption. }
    assert (P := Cabs_nonneg (Cadd (Wt t_0 t_in t) 1)). nra. }
  assert (B2 := B _ W2). assert (A2 := Afac_bound t T1).
  unfold comp_val. fold an dn.
  set (w := Wt t_0 t_in t) in *. set (dw := Dfac v (Wt t_0 t_in p) w) in *.
  assert (Dw : dw <> RtoC 0).
  { intros F. rewrite F, Cabs_RtoC, Rabs_R0 in B2. lra. }
  rewrite Cabs_mul, !Cabs_div by assumption. simpl. rewrite Rmult_1_r.
  replace (8 * (t_in - t_0) * Cabs dn / (Cabs an * e) / Cabs t) with
    (8 * (t_in - t_0) / Cabs t / Cabs an * (Cabs dn / e)) by (field; lra).
  assert (IA : 0 <= / Cabs an) by (apply Rlt_le, Rinv_0_lt_compat; assumption).
  apply Rmult_le_compat.
  - apply Rmult_le_pos; [apply Cabs_nonneg|assumption].
  - apply Rmult_le_pos; [assumption|]. apply Rlt_le, Rinv_0_lt_compat. lra.
  - apply Rmult_le_compat_r; assumption.
  - apply Rmult_le_compat_l; [assumption|]. apply Rinv_le_contravar; lra.
Qed.

Lemma KC_decays : forall m g, is_ok (build_component t_0 t_in m g) -> decays 1 (KC t_0 t_in m g).
Proof.
  intros m g [c B]. destruct (build_component_inv _ _ _ _ _ Hlt B) as [_ [_ [G _]]].
  now apply comp_decays.
Qed.

End Asym.

Lemma decays_0 : forall n, decays n (fun _ => RtoC 0).
Proof.
  intros n. exists 0, 1. split; [lra|]. split; [lra|]. intros t _.
  rewrite Cabs_RtoC, Rabs_R0. unfold Rdiv. lra.
Qed.

Lemma decays_add : forall n f g, decays n f -> decays n g -> decays n (fun t => Cadd (f t) (g t)).
Proof.
  intros n f g [K [T [K0 [T0 F]]]] [L [S [L0 [S0 G]]]].
  exists (K + L), (Rmax T S). split; [lra|]. split; [eapply Rlt_le_trans; [exact T0|apply Rmax_l]|].
  intros t Ht. assert (Ht1 := Rmax_l T S). assert (Ht2 := Rmax_r T S).
  eapply Rle_trans; [apply Cabs_triangle|].
  unfold Rdiv. rewrite Rmult_plus_distr_r. apply Rplus_le_compat; [apply F|apply G]; lra.
Qed.

Lemma decays_scale : forall n (c : C) f, decays n f -> decays n (fun t => Cmul c (f t)).
Proof.
  intros n c f [K [T [K0 [T0 F]]]]. assert (P := Cabs_nonneg c).
  exists (Cabs c * K), T. split; [nra|]. split; [assumption|]. intros t Ht.
  rewrite Cabs_mul. unfold Rdiv. rewrite Rmult_assoc. apply Rmult_le_compat_l; [assumption|].
  now apply F.
Qed.

Lemma decays_mul : forall n k f g, decays n f -> decays k g -> decays (n + k) (fun t => Cmul (f t) (g t)).
Proof.
  intros n k f g [K [T [K0 [T0 F]]]] [L [S [L0 [S0 G]]]].
  exists (K * L), (Rmax T S). split; [nra|]. split; [eapply Rlt_le_trans; [exact T0|apply Rmax_l]|].
  intros t Ht. assert (Ht1 := Rmax_l T S). assert (Ht2 := Rmax_r T S).
  assert (Tp : 0 < Cabs t) by lra.
  rewrite Cabs_mul, pow_add.
  assert (Pn := pow_lt (Cabs t) n Tp). assert (Pk := pow_lt (Cabs t) k Tp).
  replace (K * L / (Cabs t ^ n * Cabs t ^ k)) with (K / Cabs t ^ n * (L / Cabs t ^ k)) by (field; lra).
  apply Rmult_le_compat; try apply Cabs_nonneg; [apply F|apply G]; lra.
Qed.

Lemma decays_ext : forall n f g, (forall t, f t = g t) -> decays n f -> decays n g.
Proof.
  intros n f g E [K [T [K0 [T0 F]]]]. exists K, T. repeat split; try assumption.
  intros t Ht. rewrite <- E. now apply F.
Qed.

Lemma decays_weaken : forall n k f, (k <= n)%nat -> decays n f -> decays k f.
Proof.
  intros n k f L [K [T [K0 [T0 F]]]]. exists K, (Rmax T 1).
  split; [assumption|]. split; [eapply Rlt_le_trans; [exact T0|apply Rmax_l]|].
  intros t Ht. assert (Ht1 := Rmax_l T 1). assert (Ht2 := Rmax_r T 1).
  eapply Rle_trans; [apply F; lra|].
  unfold Rdiv. apply Rmult_le_compat_l; [assumption|].
  apply Rinv_le_contravar; [apply pow_lt; lra|]. apply Rle_pow; [lra|assumption].
Qed.

Lemma sec_val_decays : forall t_0 t_in l, 0 <= t_0 -> t_0 < t_in ->
  Forall (fun r => is_ok (build_component t_0 t_in (r_m r) (r_g r))) l ->
  decays 1 (sec_val t_0 t_in l).
Proof.
  intros t_0 t_in l H0 Hlt V. unfold sec_val. induction V as [|r l Vr V IH]; simpl.
  - apply decays_0.
  - apply decays_add; [|assumption]. apply decays_scale. now apply KC_decays.
Qed.
