(** Property C09: perturb_model_parameters. *)
From Coq Require Import String Reals List Bool Arith Lia Lra.
From Verif Require Import PyBase CNum PyExpr ExprProofs KaonProofs KaonSpec Params ParamClasses ParamProofs ParamSpec
  BoundsProofs PropsParams PropsParams2 CommonUtils PerturbProofs.
Import ListNotations.
Local Open Scope R_scope.
Local Open Scope py_scope.
Local Open Scope string_scope.
Local Open Scope list_scope.

(** ** Specification *)

(** A draw [u] in [0,1) moves a value the fraction [size * |2u-1|] of the way to its lower ([u < 1/2]) or upper
    ([u > 1/2]) bound; towards an infinite bound the modulus is enlarged by that fraction and the sign is that of
    the bound. *)
Definition moved (lower upper : ext) (old u size : R) : R :=
  let s := size * Rabs (2 * u - 1) in
  if Rlt_dec u (1/2) then match lower with Fin l => old + s * (l - old) | _ => - (Rabs old * (1 + s)) end
  else if Rlt_dec (1/2) u then match upper with Fin b => old + s * (b - old) | _ => Rabs old * (1 + s) end
  else old.

(** Masses and widths have their own size. *)
Definition size_for (size size_resonances : R) (n : string) : R :=
  if orb (starts "mass_" n) (starts "decay_rate_" n) then size_resonances else size.

Definition within (a : ext) (x : R) (b : ext) : Prop :=
  match a with NegInf => True | Fin l => l <= x | PosInf => False end /\
  match b with NegInf => False | Fin u => x <= u | PosInf => True end.

Definition strictly_within (a : ext) (x : R) (b : ext) : Prop :=
  match a with NegInf => True | Fin l => l < x | PosInf => False end /\
  match b with NegInf => False | Fin u => x < u | PosInf => True end.

Definition free (d : data) : list Par := filter (fun p => negb (par_fixed p)) d.

(** ** Bridges *)

Lemma valueT_moved : forall a b old u size, ext_lt a b ->
  valueT a old b (2 * (u - 1 / 2)) size = moved a b old u size.
Proof.
  intros a b old u size H. unfold valueT, get_perturbed_value, moved.
  destruct (Rlt_dec (2 * (u - 1 / 2)) 0) as [L|L]; destruct (Rlt_dec u (1/2)) as [L'|L']; try lra.
  - rewrite (Rabs_left (2 * (u - 1/2))) by lra. rewrite (Rabs_left (2 * u - 1)) by lra.
    destruct a; try contradiction; field.
  - destruct (Rlt_dec 0 (2 * (u - 1 / 2))) as [G|G]; destruct (Rlt_dec (1/2) u) as [G'|G']; try lra.
    rewrite (Rabs_right (2 * (u - 1/2))) by lra. rewrite (Rabs_right (2 * u - 1)) by lra.
    destruct b; try field. destruct a; contradiction.
Qed.

Lemma size_names : forall c s sr n, In n (class_names c) -> ~ In n (always_fixed c) ->
  get_perturbation_size s sr n = size_for s sr n.
Proof.
  intros c s sr n Hn Ha.
  assert (F : forallb (fun n => str_in n (always_fixed c) ||
     Bool.eqb (contains "mass" n || contains "decay_rate" n) (starts "mass_" n || starts "decay_rate_" n))%bool
     (class_names c) = true) by (destruct c; vm_compute; reflexivity).
  rewrite forallb_forall in F. specialize (F n Hn). apply orb_prop in F. destruct F as [F|F].
  - apply str_in_In in F. contradiction.
  - apply eqb_prop in F. unfold get_perturbation_size, size_for. now rewrite F.
Qed.

Lemma moved_within : forall a b old u size, within a old b -> 0 <= size <= 1 -> 0 <= u < 1 ->
  within a (moved a b old u size) b.
Proof.
  intros a b old u size [Wa Wb] S U. unfold moved.
  assert (A1 := Rle_abs old). assert (A2 := Rle_abs (- old)). rewrite Rabs_Ropp in A2.
  destruct (Rlt_dec u (1/2)) as [L|L].
  - rewrite (Rabs_left (2 * u - 1)) by lra. set (s := size * - (2 * u - 1)).
    assert (B : 0 <= s <= 1).
    { unfold s. split; [apply Rmult_le_pos; lra|]. replace 1 with (1 * 1) by ring. apply Rmult_le_compat; lra. }
    assert (M : 0 <= Rabs old * s) by (apply Rmult_le_pos; [apply Rabs_pos|lra]).
    destruct a as [|l|]; [| |contradiction].
    + split; [exact I|]. destruct b as [|r|]; [contradiction| |exact I]. nra.
    + split; [|destruct b; try exact I; try contradiction]; nra.
  - destruct (Rlt_dec (1/2) u) as [G|G]; [|now split].
    rewrite (Rabs_right (2 * u - 1)) by lra. set (s := size * (2 * u - 1)).
    assert (B : 0 <= s <= 1).
    { unfold s. split; [apply Rmult_le_pos; lra|]. replace 1 with (1 * 1) by ring. apply Rmult_le_compat; lra. }
    assert (M : 0 <= Rabs old * s) by (apply Rmult_le_pos; [apply Rabs_pos|lra]).
    destruct b as [|r|]; [contradiction| |].
    + split; [destruct a; try exact I; try contradiction|]; nra.
    + split; [|exact I]. destruct a as [|l|]; [exact I| |contradiction]. nra.
Qed.

Lemma moved_strictly : forall a b old u size, strictly_within a old b -> 0 <= size < 1 -> 0 <= u < 1 ->
  strictly_within a (moved a b old u size) b.
Proof.
  intros a b old u size [Wa Wb] S U. unfold moved.
  assert (A1 := Rle_abs old). assert (A2 := Rle_abs (- old)). rewrite Rabs_Ropp in A2.
  destruct (Rlt_dec u (1/2)) as [L|L].
  - rewrite (Rabs_left (2 * u - 1)) by lra. set (s := size * - (2 * u - 1)).
    assert (B : 0 <= s < 1).
    { unfold s. split; [apply Rmult_le_pos; lra|]. apply Rle_lt_trans with (size * 1); [|lra].
      apply Rmult_le_compat_l; lra. }
    assert (M : 0 <= Rabs old * s) by (apply Rmult_le_pos; [apply Rabs_pos|lra]).
    destruct a as [|l|]; [| |contradiction].
    + split; [exact I|]. destruct b as [|r|]; [contradiction| |exact I]. nra.
    + split; [|destruct b; try exact I; try contradiction]; nra.
  - destruct (Rlt_dec (1/2) u) as [G|G]; [|now split].
    rewrite (Rabs_right (2 * u - 1)) by lra. set (s := size * (2 * u - 1)).
    assert (B : 0 <= s < 1).
    { unfold s. split; [apply Rmult_le_pos; lra|]. apply Rle_lt_trans with (size * 1); [|lra].
      apply Rmult_le_compat_l; lra. }
    assert (M : 0 <= Rabs old * s) by (apply Rmult_le_pos; [apply Rabs_pos|lra]).
    destruct b as [|r|]; [contradiction| |].
    + split; [destruct a; try exact I; try contradiction|]; nra.
    + split; [|exact I]. destruct a as [|l|]; [exact I| |contradiction]. nra.
Qed.

Lemma fill_nth : forall d vs j p v, length vs = count_free d -> nth_error (free d) j = Some p ->
  nth_error vs j = Some v -> nth_error (free (fill d vs)) j = Some (mkPar (par_name p) v false).
Proof.
  unfold free. induction d as [|q d IH]; intros vs j p v LV Hp NV; [destruct j; discriminate|].
  unfold count_free in LV. simpl in LV. unfold is_free at 1 in LV. simpl in Hp. simpl.
  destruct (par_fixed q) eqn:Fq; cbn [negb] in *.
  - simpl. rewrite Fq. simpl. exact (IH vs j p v LV Hp NV).
  - destruct vs as [|w vs]; [discriminate|]. simpl in LV. simpl. rewrite Fq. simpl.
    destruct j as [|j]; simpl in *.
    + injection Hp as ->. injection NV as ->. unfold with_value. now rewrite Fq.
    + apply IH; [unfold count_free; lia|assumption..].
Qed.

(** ** C09 *)

(** The complete effect: one draw per free parameter, in order; free values move as specified; everything else
    stays; the bounds of the result are those of the original store. *)
Theorem C09_perturb_effect : forall c h d lo up draws k size size_r,
  reachable c d -> get_bounds c h d = Ok (lo, up) ->
  exists d', perturb_model_parameters c draws k size size_r h d = (Ok tt, d', (k + length (free d))%nat) /\
    map par_name d' = map par_name d /\ map par_fixed d' = map par_fixed d /\
    Forall2 (fun p q => par_fixed p = true -> q = p) d d' /\
    get_bounds c h d' = Ok (lo, up) /\ reachable c d' /\
    forall j p a b, nth_error (free d) j = Some p -> nth_error lo j = Some a -> nth_error up j = Some b ->
      nth_error (free d') j = Some (mkPar (par_name p)
        (moved a b (par_value p) (draws (k + j)%nat)
           (size_for size (match size_r with None => size | Some s => s end) (par_name p))) false).
Proof.
  intros c h d lo up draws k size size_r RC GB.
  assert (I := reachable_inv c d RC).
  assert (P : h = false -> forall n, In n (sqrt_names c) -> 0 <= val d n).
  { intros -> n Hn. apply Rnot_lt_le. intros V. rewrite get_bounds_negative in GB; [discriminate|exact I|]. eauto. }
  rewrite (perturb_total c h d draws k size size_r I P).
  set (sr := match size_r with None => size | Some s => s end).
  set (vs := new_values draws size sr (fullT c h d) k (filter is_free d)).
  assert (LV : length vs = count_free d) by (unfold vs; now rewrite new_values_length).
  exists (fill d vs). split; [reflexivity|]. split; [exact (fill_names d vs)|]. split; [apply fill_flags|].
  split; [apply fill_fixed|]. split; [now rewrite get_bounds_fill|].
  split; [apply inv_reachable; now apply inv_fill|].
  intros j p a b Hp Ha Hb.
  destruct (get_bounds_total c h d I P) as [bs [E F]]. rewrite GB in E. injection E as -> ->.
  change (filter is_free d) with (free d) in F.
  assert (Q : lookup (fullT c h d) (par_name p) = Some (a, b)).
  { clear GB LV vs. revert j Hp Ha Hb. induction F as [|x y l l' Hxy F IH]; intros j Hp Ha Hb; [destruct j; discriminate|].
    destruct j as [|j]; simpl in *.
    - injection Hp as ->. injection Ha as <-. injection Hb as <-. rewrite Hxy. now destruct y.
    - exact (IH j Hp Ha Hb). }
  assert (Hin : In p d /\ par_fixed p = false).
  { apply nth_error_In in Hp. apply filter_In in Hp. now rewrite negb_true_iff in Hp. }
  destruct Hin as [Hin Fp].
  assert (Hn : In (par_name p) (class_names c)) by (rewrite <- (proj1 I); now apply in_map).
  assert (Hf : ~ In (par_name p) (always_fixed c)) by (intros C; apply (proj2 I) in C; [congruence|assumption]).
  assert (O : ext_lt a b).
  { destruct h.
    - destruct (handpicked_table c d _ Hn Hf) as [b' [L S]]. rewrite Q in L. injection L as <-.
      exact (handpicked_lt _ _ _ _ S).
    - rewrite (maximal_table c d _ Hn Hf) in Q. injection Q as Q. assert (M := maximal_lt c d (par_name p)).
      now rewrite Q in M. }
  assert (NV : nth_error vs j = Some (moved a b (par_value p) (draws (k + j)%nat) (size_for size sr (par_name p)))).
  { unfold vs. rewrite new_values_nth. change (filter is_free d) with (free d). rewrite Hp. simpl.
    unfold new_value. rewrite Q, (size_names c _ _ _ Hn Hf). now rewrite valueT_moved. }
  exact (fill_nth d vs j p _ LV Hp NV).
Qed.
Print Assumptions C09_perturb_effect.

(** Perturbed values stay within the bounds, also next to an infinite end. *)
Theorem C09_stays_within_bounds : forall c h d lo up draws k size size_r d' k',
  reachable c d -> get_bounds c h d = Ok (lo, up) ->
  (forall j, 0 <= draws j < 1) -> 0 <= size <= 1 -> (forall s, size_r = Some s -> 0 <= s <= 1) ->
  perturb_model_parameters c draws k size size_r h d = (Ok tt, d', k') ->
  (forall j p a b, nth_error (free d) j = Some p -> nth_error lo j = Some a -> nth_error up j = Some b ->
     within a (par_value p) b) ->
  forall j p a b, nth_error (free d') j = Some p -> nth_error lo j = Some a -> nth_error up j = Some b ->
     within a (par_value p) b.
Proof.
  intros c h d lo up draws k size size_r d' k' RC GB U S Sr E W j p a b Hp Ha Hb.
  destruct (C09_perturb_effect c h d lo up draws k size size_r RC GB) as [d1 [E1 [N1 [F1 [_ [_ [_ V]]]]]]].
  rewrite E1 in E. injection E as <- _.
  assert (L : length (free d1) = length (free d)).
  { clear -F1. unfold free. revert d1 F1. induction d as [|x d IH]; intros [|y d1] F1; simpl in *; try discriminate; [reflexivity|].
    injection F1 as E F1. rewrite E. destruct (par_fixed x); simpl; auto. }
  destruct (nth_error (free d) j) as [q|] eqn:Hq.
  - specialize (V j q a b Hq Ha Hb). rewrite Hp in V. injection V as ->. simpl.
    apply moved_within; [exact (W j q a b Hq Ha Hb)| |apply U].
    unfold size_for. destruct (starts "mass_" (par_name q) || starts "decay_rate_" (par_name q))%bool; [|exact S].
    destruct size_r as [s|]; [now apply Sr|exact S].
  - exfalso. apply nth_error_None in Hq. assert (X : nth_error (free d1) j <> None) by congruence.
    apply nth_error_Some in X. lia.
Qed.
Print Assumptions C09_stays_within_bounds.

(** Strictly inside stays strictly inside for sizes below 1 (the optimiser needs a feasible start). *)
Theorem C09_stays_strictly_within : forall c h d lo up draws k size size_r d' k',
  reachable c d -> get_bounds c h d = Ok (lo, up) ->
  (forall j, 0 <= draws j < 1) -> 0 <= size < 1 -> (forall s, size_r = Some s -> 0 <= s < 1) ->
  perturb_model_parameters c draws k size size_r h d = (Ok tt, d', k') ->
  (forall j p a b, nth_error (free d) j = Some p -> nth_error lo j = Some a -> nth_error up j = Some b ->
     strictly_within a (par_value p) b) ->
  forall j p a b, nth_error (free d') j = Some p -> nth_error lo j = Some a -> nth_error up j = Some b ->
     strictly_within a (par_value p) b.
Proof.
  intros c h d lo up draws k size size_r d' k' RC GB U S Sr E W j p a b Hp Ha Hb.
  destruct (C09_perturb_effect c h d lo up draws k size size_r RC GB) as [d1 [E1 [N1 [F1 [_ [_ [_ V]]]]]]].
  rewrite E1 in E. injection E as <- _.
  assert (L : length (free d1) = length (free d)).
  { clear -F1. unfold free. revert d1 F1. induction d as [|x d IH]; intros [|y d1] F1; simpl in *; try discriminate; [reflexivity|].
    injection F1 as E F1. rewrite E. destruct (par_fixed x); simpl; auto. }
  destruct (nth_error (free d) j) as [q|] eqn:Hq.
  - specialize (V j q a b Hq Ha Hb). rewrite Hp in V. injection V as ->. simpl.
    apply moved_strictly; [exact (W j q a b Hq Ha Hb)| |apply U].
    unfold size_for. destruct (starts "mass_" (par_name q) || starts "decay_rate_" (par_name q))%bool; [|exact S].
    destruct size_r as [s|]; [now apply Sr|exact S].
  - exfalso. apply nth_error_None in Hq. assert (X : nth_error (free d1) j <> None) by congruence.
    apply nth_error_Some in X. lia.
Qed.
Print Assumptions C09_stays_strictly_within.

(** When the bounds raise, nothing happens to the store and no number is drawn. *)
Theorem C09_raises : forall c h d e draws k size size_r, reachable c d -> get_bounds c h d = Err e ->
  perturb_model_parameters c draws k size size_r h d = (Err e, d, k).
Proof.
  intros c h d e draws k size size_r RC GB. assert (I := reachable_inv c d RC).
  apply C06_raises_exactly in GB; [|exact RC]. destruct GB as [-> [-> [n [Hn V]]]].
  unfold perturb_model_parameters. rewrite full_bounds_negative; [reflexivity|exact (proj1 I)|].
  exists n. split; [now apply thresholds_eq|exact V].
Qed.
Print Assumptions C09_raises.

(** A perturbation of size zero is not the identity: a coupling changes its sign when the draw points to the infinite
    bound on the other side. *)
Theorem C09_size_zero_identity_refuted : exists c h d draws,
  reachable c d /\ (forall j, 0 <= draws j < 1) /\
  exists d' k', perturb_model_parameters c draws 0 0 None h d = (Ok tt, d', k') /\ d' <> d.
Proof.
  set (d := [mkPar "a" 1 false; mkPar "m_1" 1 true; mkPar "m_2" 1 true]).
  assert (RC : reachable PTwoPoles d).
  { apply inv_reachable. split; [reflexivity|]. intros p _ []. }
  exists PTwoPoles, true, d, (fun _ => 0). split; [exact RC|]. split; [intros; lra|].
  assert (GB : exists lo up, get_bounds PTwoPoles true d = Ok (lo, up)).
  { eexists; eexists; reflexivity. }
  destruct GB as [lo [up GB]].
  destruct (C09_perturb_effect PTwoPoles true d lo up (fun _ => 0) 0 0 None RC GB)
    as [d' [E [_ [_ [_ [_ [_ V]]]]]]].
  eexists; eexists; split; [exact E|]. intros ->.
  cbv in GB. injection GB as <- <-. specialize (V 0%nat _ _ _ eq_refl eq_refl eq_refl). simpl in V.
  injection V as V. unfold moved in V. destruct (Rlt_dec 0 (1/2)); [|lra].
  rewrite (Rabs_right 1) in V by lra. change (size_for 0 0 "a") with 0 in V. lra.
Qed.
Print Assumptions C09_size_zero_identity_refuted.

Lemma reachable_mutate_all : forall c ms d, reachable c d -> reachable c (mutate_all c ms d).
Proof. intros c ms. induction ms as [|m ms IH]; intros d H; [exact H|]. apply IH. now apply reach_step. Qed.

(** Two free parameters, one with two finite bounds; draws 3/4 and 1/4, size 1/2. *)
Example C09_instance : exists d d' lo up, reachable PKaonB d /\
  get_bounds PKaonB true d = Ok (lo, up) /\ length (free d) = 2%nat /\
  perturb_model_parameters PKaonB (fun j => if Nat.eqb j 0 then 3/4 else 1/4) 0 (1/2) None true d =
    (Ok tt, d', 2%nat) /\
  map par_value (free d) = [1/10; 101/100] /\
  nth_error (map par_value (free d')) 0 = Some (1/10 * (1 + 1/4)) /\
  nth_error (map par_value (free d')) 1 = Some (101/100 + 1/4 * (1 - 101/100)).
Proof.
  set (d0 := mutate_all PKaonB [MFixAll; MSetValue "mass_phi" (101/100); MSetValue "a_phi" (1/10);
                               MRelease ["mass_phi"; "a_phi"]] (built (table PKaonB) demo_kaon_kw)).
  assert (RC : reachable PKaonB d0).
  { apply reachable_mutate_all. apply (reach_init _ demo_kaon_kw). reflexivity. }
  assert (GB : exists lo up, get_bounds PKaonB true d0 = Ok (lo, up) /\ lo = [NegInf; Fin 1] /\ up = [PosInf; Fin (21/20)]).
  { eexists; eexists; split; [reflexivity|split; reflexivity]. }
  destruct GB as [lo [up [GB [El Eu]]]].
  destruct (C09_perturb_effect PKaonB true d0 lo up (fun j => if Nat.eqb j 0 then 3/4 else 1/4) 0 (1/2) None RC GB)
    as [d' [E [_ [_ [_ [_ [_ V]]]]]]].
  exists d0, d', lo, up. split; [exact RC|]. split; [exact GB|]. split; [reflexivity|]. split; [exact E|].
  split; [reflexivity|]. rewrite El, Eu in V.
  assert (V0 := V 0%nat _ _ _ eq_refl eq_refl eq_refl). assert (V1 := V 1%nat _ _ _ eq_refl eq_refl eq_refl).
  rewrite !nth_error_map, V0, V1. cbn [option_map par_value par_name Nat.add Nat.eqb]. unfold moved, size_for.
  cbn [starts prefix orb]. simpl.
  destruct (Rlt_dec (3/4) (1/2)); [lra|]. destruct (Rlt_dec (1/2) (3/4)); [|lra].
  destruct (Rlt_dec (1/4) (1/2)); [|lra].
  rewrite (Rabs_right (2 * (3/4) - 1)) by lra. rewrite (Rabs_left (2 * (1/4) - 1)) by lra.
  rewrite (Rabs_right (1/10)) by lra. split; f_equal; field.
Qed.
