(** Properties C14, C15, C17 - C21, C24 and C25 for the kaon models and the
    single-component model.  The vocabulary is in KaonSpec.v (first part). *)
From Coq Require Import String Reals Bool Arith List Lra Permutation.
From Verif Require Import PyBase CNum UAMaps UAComponents PyExpr UAModels OtherModels
  MapProofs ComponentProofs ExprProofs KaonProofs SectorProofs KaonSpec PropsMaps PropsOther.
Import ListNotations.
Local Open Scope R_scope.
Local Open Scope string_scope.

#[local] Arguments String.append : simpl never.

(** ** A concrete accepted parameter set (used in the instances below) *)

Definition demo_value (coupling width : R) (n : string) : R :=
  if String.prefix "t_0" n then 1
  else if String.prefix "t_in" n then 2
  else if String.prefix "a_" n then coupling
  else if String.prefix "mass" n then 2
  else width.
Definition demo_kw (coupling width : R) (k : kaon_kind) : env R :=
  map (fun n => (n, demo_value coupling width n)) (kaon_keywords k).

Ltac inkw := apply mem_In; vm_compute; reflexivity.

Lemma demo_kwval : forall c g k n, In n (kaon_keywords k) ->
  kwval (demo_kw c g k) n = demo_value c g n.
Proof. intros c g k n H. unfold kwval, demo_kw. now rewrite lookup_map_pair. Qed.

Lemma demo_accepted : forall c g k ch, exists m, Kaon_init (kaon_class k) ch (demo_kw c g k) = Ok m.
Proof.
  intros c g k ch. apply Kaon_accept_iff. split.
  { unfold demo_kw. rewrite map_map. simpl. rewrite map_id. reflexivity. }
  assert (A : resonance_accepted 1 2 2 g).
  { unfold resonance_accepted, resonance_pole. split; [lra|]. split; [|lra].
    intros E. assert (E1 := f_equal Re E). assert (E2 := f_equal Im E). simpl in E1, E2.
    assert (G : g = 0) by lra. subst. lra. }
  unfold sector_accepted.
  split; rewrite !demo_kwval by (destruct k; inkw);
    (split; [unfold demo_value; simpl; lra|]); (split; [unfold demo_value; simpl; lra|]);
    intros n Hn; rewrite !demo_kwval by (destruct k; simpl in Hn;
      repeat (destruct Hn as [<-|Hn]; [inkw|]); contradiction);
    destruct k; simpl in Hn; repeat (destruct Hn as [<-|Hn]; [exact A|]); contradiction.
Qed.

(** ** C14 Schwarz reflection *)

Lemma sector_real : forall t_0 t_in l t v, valid_sector t_0 t_in l -> l <> [] ->
  Im t = 0 -> Re t < t_0 -> sector_eval t_0 t_in l t = Ok v -> Im v = 0.
Proof.
  intros t_0 t_in l t v V N I L E.
  assert (Off : ~ on_cut (Csub t t_0)) by (intros [_ B]; simpl in B; lra).
  assert (X := sector_eval_conj _ _ _ _ V N Off).
  apply Cconj_real_iff in I. rewrite I, E in X. simpl in X. apply Cconj_real_iff. congruence.
Qed.

Theorem C14_kaon_reflection : forall k ch kw m t,
  Kaon_init (kaon_class k) ch kw = Ok m ->
  plane_without_cut (kwval kw "t_0_isoscalar") t ->
  plane_without_cut (kwval kw "t_0_isovector") t ->
  Kaon_call m (Cconj t) = conj_result (Kaon_call m t).
Proof.
  intros k ch kw m t H P1 P2. apply plane_cut in P1. apply plane_cut in P2.
  destruct (Kaon_valid _ _ _ _ H) as [V1 V2].
  destruct (spec_sector_nonempty (kwval kw) k) as [N1 N2].
  rewrite !(Kaon_view _ _ _ _ _ H). simpl Re. destruct (Rlt_dec (Re t) 0); [reflexivity|].
  rewrite (sector_eval_conj _ _ _ _ V1 N1 P1), (sector_eval_conj _ _ _ _ V2 N2 P2).
  destruct (sector_eval _ _ (spec_sector _ (isoscalar_resonances k)) t) as [x|]; [|reflexivity]. simpl bind.
  destruct (sector_eval _ _ (spec_sector _ (isovector_resonances k)) t) as [y|]; [|reflexivity]. simpl bind.
  simpl. f_equal. destruct ch; [now rewrite Cconj_add|now rewrite Cconj_sub].
Qed.
Print Assumptions C14_kaon_reflection.

Theorem C14_kaon_real_below_threshold : forall k ch kw m t v,
  Kaon_init (kaon_class k) ch kw = Ok m -> Im t = 0 ->
  Re t < kwval kw "t_0_isoscalar" -> Re t < kwval kw "t_0_isovector" ->
  Kaon_call m t = Ok v -> Im v = 0.
Proof.
  intros k ch kw m t v H I L1 L2 E.
  assert (X := C14_kaon_reflection k ch kw m t H). apply Cconj_real_iff in I. rewrite I, E in X.
  assert (Y : Ok v = Ok (Cconj v)).
  { apply X; intros [_ B]; lra. }
  apply Cconj_real_iff. congruence.
Qed.
Print Assumptions C14_kaon_real_below_threshold.

Theorem C14_single_reflection : forall t_0 t_in a m g s t,
  SingleComponentModel_init t_0 t_in a m g = Ok s ->
  plane_without_cut t_0 t ->
  SingleComponentModel_call s (Cconj t) = conj_result (SingleComponentModel_call s t).
Proof.
  intros t_0 t_in a m g s t H P. apply plane_cut in P.
  rewrite !(Single_view _ _ _ _ _ _ _ H). simpl Re. destruct (Rlt_dec (Re t) 0); [reflexivity|].
  apply (sector_eval_conj _ _ _ _ (Single_valid _ _ _ _ _ _ H)); [discriminate|assumption].
Qed.
Print Assumptions C14_single_reflection.

Theorem C14_single_real_below_threshold : forall t_0 t_in a m g s t v,
  SingleComponentModel_init t_0 t_in a m g = Ok s -> Im t = 0 -> Re t < t_0 ->
  SingleComponentModel_call s t = Ok v -> Im v = 0.
Proof.
  intros t_0 t_in a m g s t v H I L E.
  assert (X := C14_single_reflection t_0 t_in a m g s t H). apply Cconj_real_iff in I. rewrite I, E in X.
  assert (Y : Ok v = Ok (Cconj v)) by (apply X; intros [_ B]; lra).
  apply Cconj_real_iff. congruence.
Qed.
Print Assumptions C14_single_real_below_threshold.

(** ** C18 Exact failure set *)

(** t is one of the resonance poles or the conjugate of one. *)
Definition at_resonance (P : string -> R) (names : list string) (t : C) : Prop :=
  exists n, In n names /\
    (t = resonance_pole (P ("mass_" ++ n)) (P ("decay_rate_" ++ n)) \/
     t = Cconj (resonance_pole (P ("mass_" ++ n)) (P ("decay_rate_" ++ n)))).

Lemma spec_couplings_length : forall P names, names <> [] ->
  length (spec_couplings P names) = length names.
Proof.
  intros P names H. unfold spec_couplings. rewrite app_length, map_length. simpl.
  rewrite (app_removelast_last "" H) at 2. now rewrite app_length.
Qed.

Lemma in_spec_sector : forall P names r, names <> [] -> In r (spec_sector P names) ->
  exists n, In n names /\ r_m r = P ("mass_" ++ n) /\ r_g r = P ("decay_rate_" ++ n).
Proof.
  intros P names r N H. unfold spec_sector in H. apply in_map_iff in H.
  destruct H as [[a n] [<- H]]. apply in_combine_r in H. exists n. auto.
Qed.

Lemma in_spec_sector_name : forall P names n, names <> [] -> In n names ->
  exists a, In (a, P ("mass_" ++ n), P ("decay_rate_" ++ n)) (spec_sector P names).
Proof.
  intros P names n N H. unfold spec_sector.
  assert (L := spec_couplings_length P names N). revert L H. generalize (spec_couplings P names) as l.
  clear N. induction names as [|n' names IH]; intros [|a l] L H; try discriminate; try contradiction.
  simpl in L. injection L as L. destruct H as [<-|H].
  - exists a. now left.
  - destruct (IH l L H) as [b Hb]. exists b. now right.
Qed.

Lemma at_pole_spec : forall P names t, names <> [] ->
  Exists (fun r => at_pole (r_m r) (r_g r) t) (spec_sector P names) <-> at_resonance P names t.
Proof.
  intros P names t N. rewrite Exists_exists. unfold at_resonance, at_pole. split.
  - intros [r [Hr A]]. destruct (in_spec_sector _ _ _ N Hr) as [n [Hn [E1 E2]]].
    rewrite E1, E2, resonance_pole_eq in A. eauto.
  - intros [n [Hn A]]. destruct (in_spec_sector_name P _ _ N Hn) as [a Ha].
    eexists. split; [exact Ha|]. unfold r_m, r_g. simpl. now rewrite resonance_pole_eq.
Qed.

Lemma resonances_nonempty : forall k, isoscalar_resonances k <> [] /\ isovector_resonances k <> [].
Proof. intros []; split; discriminate. Qed.

Lemma sector_outcome : forall P t_0 t_in names t, names <> [] -> 0 <= t_0 -> t_0 < t_in ->
  valid_sector t_0 t_in (spec_sector P names) ->
  ((t = RtoC t_in \/ at_resonance P names t) /\
    sector_eval t_0 t_in (spec_sector P names) t = Err ZeroDivisionError) \/
  (t <> RtoC t_in /\ ~ at_resonance P names t /\
    sector_eval t_0 t_in (spec_sector P names) t = Ok (sec_val t_0 t_in (spec_sector P names) t)).
Proof.
  intros P t_0 t_in names t N H0 Hlt [_ V].
  destruct (sector_eval_cases t_0 t_in H0 Hlt _ t V) as [[A E]|[A [B E]]].
  - left. split; [|assumption]. rewrite <- at_pole_spec by assumption. assumption.
  - right. split; [assumption|]. split; [|assumption].
    rewrite <- at_pole_spec by assumption. now apply Forall_Exists_neg.
Qed.

Theorem C18_kaon_failure_set : forall k ch kw m t,
  Kaon_init (kaon_class k) ch kw = Ok m ->
  kwval kw "t_0_isoscalar" < kwval kw "t_in_isoscalar" ->
  kwval kw "t_0_isovector" < kwval kw "t_in_isovector" ->
  (Kaon_call m t = Err ValueError <-> Re t < 0) /\
  (Kaon_call m t = Err ZeroDivisionError <->
     0 <= Re t /\ (t = RtoC (kwval kw "t_in_isoscalar") \/ t = RtoC (kwval kw "t_in_isovector") \/
       at_resonance (kwval kw) (isoscalar_resonances k ++ isovector_resonances k) t)) /\
  (is_ok (Kaon_call m t) \/ Kaon_call m t = Err ValueError \/ Kaon_call m t = Err ZeroDivisionError).
Proof.
  intros k ch kw m t H L1 L2. destruct (Kaon_valid _ _ _ _ H) as [V1 V2].
  destruct (resonances_nonempty k) as [N1 N2].
  assert (AR : at_resonance (kwval kw) (isoscalar_resonances k ++ isovector_resonances k) t <->
    at_resonance (kwval kw) (isoscalar_resonances k) t \/ at_resonance (kwval kw) (isovector_resonances k) t).
  { unfold at_resonance. split.
    - intros [n [Hn A]]. apply in_app_or in Hn. destruct Hn; [left|right]; eauto.
    - intros [[n [Hn A]]|[n [Hn A]]]; exists n; (split; [apply in_or_app|assumption]); tauto. }
  rewrite AR. clear AR.
  rewrite (Kaon_view _ _ _ _ _ H). destruct (Rlt_dec (Re t) 0) as [Lt|Ge].
  { split; [tauto|]. split; [|tauto]. split; [discriminate|]. lra. }
  assert (G : 0 <= Re t) by lra.
  destruct (sector_outcome _ _ _ _ t N1 (proj1 (proj1 V1)) L1 V1) as [[A E]|[A [B E]]]; rewrite E; simpl bind.
  { split; [split; [discriminate|lra]|]. split; [|tauto]. tauto. }
  destruct (sector_outcome _ _ _ _ t N2 (proj1 (proj1 V2)) L2 V2) as [[A' E']|[A' [B' E']]]; rewrite E'; simpl bind.
  { split; [split; [discriminate|lra]|]. split; [|tauto]. tauto. }
  split; [split; [discriminate|lra]|]. split; [|left; eexists; reflexivity].
  split; [discriminate|]. tauto.
Qed.
Print Assumptions C18_kaon_failure_set.

(** With non-zero masses and widths every real t >= 0 but the two thresholds is fine. *)
Theorem C18_kaon_defined_on_real_axis : forall k ch kw m (x : R),
  Kaon_init (kaon_class k) ch kw = Ok m ->
  kwval kw "t_0_isoscalar" < kwval kw "t_in_isoscalar" ->
  kwval kw "t_0_isovector" < kwval kw "t_in_isovector" ->
  (forall n, In n (isoscalar_resonances k ++ isovector_resonances k) ->
     kwval kw ("mass_" ++ n) <> 0 /\ kwval kw ("decay_rate_" ++ n) <> 0) ->
  0 <= x -> x <> kwval kw "t_in_isoscalar" -> x <> kwval kw "t_in_isovector" ->
  is_ok (Kaon_call m (RtoC x)).
Proof.
  intros k ch kw m x H L1 L2 W X N1 N2.
  destruct (C18_kaon_failure_set k ch kw m (RtoC x) H L1 L2) as [A [B D]].
  destruct D as [D|[D|D]]; [assumption| |].
  - apply A in D. simpl in D. lra.
  - exfalso. apply B in D. destruct D as [_ [D|[D|D]]].
    + apply RtoC_inj in D. contradiction.
    + apply RtoC_inj in D. contradiction.
    + destruct D as [n [Hn D]]. destruct (W n Hn) as [W1 W2].
      assert (I : Im (resonance_pole (kwval kw ("mass_" ++ n)) (kwval kw ("decay_rate_" ++ n))) = 0).
      { destruct D as [D|D]; apply (f_equal Im) in D; simpl in D; simpl; lra. }
      unfold resonance_pole in I. simpl in I.
      apply (Rmult_integral_contrapositive_currified _ _ W1 W2). lra.
Qed.
Print Assumptions C18_kaon_defined_on_real_axis.

(** The poles are on the sheet the models evaluate (when their real part is not negative). *)
Theorem C18_kaon_pole_on_physical_sheet : forall k ch kw m n,
  Kaon_init (kaon_class k) ch kw = Ok m ->
  kwval kw "t_0_isoscalar" < kwval kw "t_in_isoscalar" ->
  kwval kw "t_0_isovector" < kwval kw "t_in_isovector" ->
  In n (isoscalar_resonances k ++ isovector_resonances k) ->
  let p := resonance_pole (kwval kw ("mass_" ++ n)) (kwval kw ("decay_rate_" ++ n)) in
  0 <= Re p -> Kaon_call m p = Err ZeroDivisionError /\ Kaon_call m (Cconj p) = Err ZeroDivisionError.
Proof.
  intros k ch kw m n H L1 L2 Hn p Hp.
  destruct (C18_kaon_failure_set k ch kw m p H L1 L2) as [_ [B _]].
  destruct (C18_kaon_failure_set k ch kw m (Cconj p) H L1 L2) as [_ [B' _]].
  split; [apply B|apply B']; (split; [assumption|]); right; right; exists n; (split; [assumption|]).
  - now left.
  - now right.
Qed.
Print Assumptions C18_kaon_pole_on_physical_sheet.

Theorem C18_single_failure_set : forall t_0 t_in a m g s t,
  SingleComponentModel_init t_0 t_in a m g = Ok s -> t_0 < t_in ->
  (SingleComponentModel_call s t = Err ValueError <-> Re t < 0) /\
  (SingleComponentModel_call s t = Err ZeroDivisionError <->
     0 <= Re t /\ (t = RtoC t_in \/ t = resonance_pole m g \/ t = Cconj (resonance_pole m g))) /\
  (is_ok (SingleComponentModel_call s t) \/ SingleComponentModel_call s t = Err ValueError \/
   SingleComponentModel_call s t = Err ZeroDivisionError).
Proof.
  intros t_0 t_in a m g s t H Hlt. rewrite (Single_view _ _ _ _ _ _ _ H).
  destruct (Rlt_dec (Re t) 0) as [Lt|Ge].
  { split; [tauto|]. split; [|tauto]. split; [discriminate|]. lra. }
  assert (G : 0 <= Re t) by lra.
  destruct (Single_valid _ _ _ _ _ _ H) as [[H0 _] V].
  destruct (sector_eval_cases t_0 t_in H0 Hlt _ t V) as [[A E]|[A [B E]]]; rewrite E.
  - split; [split; [discriminate|lra]|]. split; [|tauto]. split; [|reflexivity].
    intros _. split; [assumption|]. destruct A as [A|A]; [tauto|].
    inversion A as [? ? X|? ? X]; subst; [|inversion X].
    unfold at_pole, r_m, r_g in X. simpl in X. rewrite resonance_pole_eq in X. tauto.
  - split; [split; [discriminate|lra]|]. split; [|left; eexists; reflexivity].
    split; [discriminate|]. intros [_ X]. exfalso. inversion B as [|? ? Y _]; subst. apply Y.
    unfold at_pole, r_m, r_g. simpl. rewrite resonance_pole_eq. tauto.
Qed.
Print Assumptions C18_single_failure_set.

Example C18_instance : forall k, exists m, Kaon_init (kaon_class k) true (demo_kw (1/7) (1/2) k) = Ok m /\
  is_ok (Kaon_call m (RtoC 5)) /\ Kaon_call m (RtoC 2) = Err ZeroDivisionError /\
  Kaon_call m (mkC (63/16) (-1)) = Err ZeroDivisionError /\ Kaon_call m (RtoC (-1)) = Err ValueError.
Proof.
  intros k. destruct (demo_accepted (1/7) (1/2) k true) as [m H]. exists m. split; [assumption|].
  assert (F := fun t => C18_kaon_failure_set k true _ m t H).
  rewrite !demo_kwval in F by (destruct k; inkw).
  change (demo_value (1/7) (1/2) "t_0_isoscalar") with 1 in F.
  change (demo_value (1/7) (1/2) "t_in_isoscalar") with 2 in F.
  change (demo_value (1/7) (1/2) "t_0_isovector") with 1 in F.
  change (demo_value (1/7) (1/2) "t_in_isovector") with 2 in F.
  assert (L : 1 < 2) by lra.
  assert (AR : forall t, at_resonance (kwval (demo_kw (1/7) (1/2) k)) (isoscalar_resonances k ++ isovector_resonances k) t <->
     t = mkC (63/16) (-1) \/ t = mkC (63/16) 1).
  { intros t.
    assert (P1 : resonance_pole 2 (1/2) = mkC (63/16) (-1)) by (apply C_ext; unfold resonance_pole; simpl; field).
    assert (P2 : Cconj (mkC (63/16) (-1)) = mkC (63/16) 1) by (apply C_ext; simpl; lra).
    split.
    - intros [n [Hn A]].
      assert (M : kwval (demo_kw (1/7) (1/2) k) ("mass_" ++ n) = 2 /\ kwval (demo_kw (1/7) (1/2) k) ("decay_rate_" ++ n) = 1/2).
      { destruct k; simpl in Hn; repeat (destruct Hn as [<-|Hn]; [rewrite !demo_kwval by inkw; split; reflexivity|]); contradiction. }
      destruct M as [M1 M2]. rewrite M1, M2, P1, P2 in A. assumption.
    - intros A. exists "phi". split; [destruct k; inkw|].
      rewrite !demo_kwval by (destruct k; inkw).
      change (demo_value (1/7) (1/2) ("mass_" ++ "phi")) with 2.
      change (demo_value (1/7) (1/2) ("decay_rate_" ++ "phi")) with (1/2).
      rewrite P1, P2. assumption. }
  split.
  - destruct (F (RtoC 5) L L) as [A [B [D|[D|D]]]]; [assumption| |].
    + apply A in D. simpl in D. lra.
    + exfalso. apply B in D. destruct D as [_ [D|[D|D]]]; [apply RtoC_inj in D; lra|apply RtoC_inj in D; lra|].
      apply AR in D. destruct D as [D|D]; apply (f_equal Im) in D; simpl in D; lra.
  - split; [apply (F (RtoC 2) L L); simpl; split; [lra|tauto]|].
    split; [apply (F _ L L); simpl; split; [lra|right; right; apply AR; tauto]|].
    apply (F (RtoC (-1)) L L). simpl. lra.
Qed.

(** ** C15 Normalisation *)

Lemma total_spec_sector : forall P names, names <> [] -> total_coupling (spec_sector P names) = 1/2.
Proof.
  intros P names N. unfold total_coupling, spec_sector. rewrite map_map.
  assert (L := spec_couplings_length P names N).
  transitivity (Rsum (spec_couplings P names)).
  - unfold Rsum. f_equal. revert L. generalize (spec_couplings P names). clear N.
    induction names as [|n names IH]; intros [|a l] L; try discriminate; [reflexivity|].
    simpl. injection L as L. rewrite IH by assumption. reflexivity.
  - unfold spec_couplings. set (g := map _ _).
    assert (S : forall l x, Rsum (l ++ [x])%list = Rsum l + x).
    { unfold Rsum. induction l as [|y l IH]; intros x; simpl; [ring|]. rewrite IH. ring. }
    rewrite S. ring.
Qed.

Theorem C15_kaon_normalised : forall k ch kw m v,
  Kaon_init (kaon_class k) ch kw = Ok m -> Kaon_call m (RtoC 0) = Ok v ->
  v = if ch then RtoC 1 else RtoC 0.
Proof.
  intros k ch kw m v H E. destruct (Kaon_valid _ _ _ _ H) as [V1 V2].
  destruct (spec_sector_nonempty (kwval kw) k) as [N1 N2].
  destruct (resonances_nonempty k) as [M1 M2].
  rewrite (Kaon_view _ _ _ _ _ H) in E. simpl Re in E. destruct (Rlt_dec 0 0) as [|_]; [lra|].
  destruct V1 as [[A1 [B1|B1]] V1].
  - destruct V2 as [[A2 [B2|B2]] V2].
    + rewrite !sector_eval_0 in E by assumption. rewrite !total_spec_sector in E by assumption.
      simpl bind in E. injection E as <-. destruct ch; Cext; field.
    + rewrite <- B2 in *. rewrite sector_eval_0 in E by assumption. simpl bind in E.
      rewrite sector_eval_degenerate in E by assumption. discriminate.
  - rewrite <- B1 in *. rewrite sector_eval_degenerate in E by assumption. discriminate.
Qed.
Print Assumptions C15_kaon_normalised.

Theorem C15_kaon_returns_at_zero : forall k ch kw m,
  Kaon_init (kaon_class k) ch kw = Ok m ->
  kwval kw "t_0_isoscalar" < kwval kw "t_in_isoscalar" ->
  kwval kw "t_0_isovector" < kwval kw "t_in_isovector" ->
  Kaon_call m (RtoC 0) = Ok (if ch then RtoC 1 else RtoC 0).
Proof.
  intros k ch kw m H L1 L2. destruct (Kaon_valid _ _ _ _ H) as [[V0 V1] [V2 V3]].
  destruct (resonances_nonempty k) as [M1 M2].
  rewrite (Kaon_view _ _ _ _ _ H). simpl Re. destruct (Rlt_dec 0 0) as [|_]; [lra|].
  rewrite !sector_eval_0 by (assumption || lra). rewrite !total_spec_sector by assumption.
  simpl bind. f_equal. destruct ch; Cext; field.
Qed.
Print Assumptions C15_kaon_returns_at_zero.

Theorem C15_single_value_at_zero : forall t_0 t_in a m g s,
  SingleComponentModel_init t_0 t_in a m g = Ok s ->
  (forall v, SingleComponentModel_call s (RtoC 0) = Ok v -> v = RtoC a) /\
  (t_0 < t_in -> SingleComponentModel_call s (RtoC 0) = Ok (RtoC a)).
Proof.
  intros t_0 t_in a m g s H. rewrite (Single_view _ _ _ _ _ _ _ H).
  simpl Re. destruct (Rlt_dec 0 0) as [|_]; [lra|].
  destruct (Single_valid _ _ _ _ _ _ H) as [[H0 [Hlt|E]] V].
  - rewrite sector_eval_0 by assumption. unfold total_coupling, r_a. simpl. rewrite Rplus_0_r.
    split; [congruence|reflexivity].
  - subst t_in. rewrite sector_eval_degenerate by (assumption || discriminate). split; [discriminate|lra].
Qed.
Print Assumptions C15_single_value_at_zero.

Example C15_instance : forall k ch, exists m,
  Kaon_init (kaon_class k) ch (demo_kw (1/7) (1/2) k) = Ok m /\
  Kaon_call m (RtoC 0) = Ok (if ch then RtoC 1 else RtoC 0).
Proof.
  intros k ch. destruct (demo_accepted (1/7) (1/2) k ch) as [m H]. exists m. split; [assumption|].
  apply (C15_kaon_returns_at_zero k ch _ m H); rewrite !demo_kwval by (destruct k; inkw);
    unfold demo_value; simpl; lra.
Qed.

(** ** C17 Vector-meson dominance at zero width *)

(** The mesons (coefficient, mass) of the corresponding VMD model. *)
Definition vmd_mesons (k : kaon_kind) (ch : bool) (P : string -> R) : list (R * R) :=
  (combine (spec_couplings P (isoscalar_resonances k))
           (map (fun n => P ("mass_" ++ n)%string) (isoscalar_resonances k)) ++
   combine (map (fun a => if ch then a else - a) (spec_couplings P (isovector_resonances k)))
           (map (fun n => P ("mass_" ++ n)%string) (isovector_resonances k)))%list.

Definition sector_mesons (sgn : R) (l : list resonance) : list (R * R) :=
  map (fun r => (sgn * r_a r, r_m r)) l.

Lemma sector_mesons_spec : forall sgn P names, names <> [] ->
  sector_mesons sgn (spec_sector P names) =
  combine (map (fun a => sgn * a) (spec_couplings P names)) (map (fun n => P ("mass_" ++ n)%string) names).
Proof.
  intros sgn P names N. unfold sector_mesons, spec_sector. rewrite map_map.
  assert (L := spec_couplings_length P names N). revert L. generalize (spec_couplings P names). clear N.
  induction names as [|n names IH]; intros [|a l] L; try discriminate; [reflexivity|].
  simpl. injection L as L. rewrite IH by assumption. reflexivity.
Qed.

Lemma vmd_mesons_split : forall k ch P,
  vmd_mesons k ch P =
  (sector_mesons 1 (spec_sector P (isoscalar_resonances k)) ++
   sector_mesons (if ch then 1 else -1) (spec_sector P (isovector_resonances k)))%list.
Proof.
  intros k ch P. destruct (resonances_nonempty k) as [N1 N2].
  rewrite !sector_mesons_spec by assumption. unfold vmd_mesons. f_equal.
  - f_equal. symmetry. rewrite <- (map_id (spec_couplings P (isoscalar_resonances k))) at 2.
    apply map_ext. intros. ring.
  - f_equal. apply map_ext. intros a. destruct ch; ring.
Qed.

Lemma sec_val_vmd : forall t_0 t_in l t sgn, 0 <= t_0 -> t_0 < t_in -> t <> RtoC t_in ->
  Forall (fun r => is_ok (build_component t_0 t_in (r_m r) (r_g r))) l ->
  Forall (fun r => r_g r = 0) l ->
  Forall (fun r => ~ at_pole (r_m r) (r_g r) t) l ->
  Cmul (RtoC sgn) (sec_val t_0 t_in l t) = vmd_sum (sector_mesons sgn l) t /\
  ~ on_a_pole (sector_mesons sgn l) t.
Proof.
  intros t_0 t_in l t sgn H0 Hlt Ht V Z N.
  induction l as [|r l IH].
  - split; [unfold sec_val; simpl; ring|]. intros [c [m [[] _]]].
  - inversion V as [|? ? V1 V2]; subst. inversion Z as [|? ? Z1 Z2]; subst. inversion N as [|? ? N1 N2]; subst.
    destruct (IH V2 Z2 N2) as [E F]. rewrite Z1 in V1, N1. rewrite at_pole_zero_width in N1.
    split.
    + unfold sec_val in *. cbn [map csum fold_right sector_mesons vmd_sum].
      fold (csum (map (fun r0 => Cmul (RtoC (r_a r0)) (KC t_0 t_in (r_m r0) (r_g r0) t)) l)).
      fold (sector_mesons sgn l). rewrite <- E.
      rewrite Z1, KC_zero_width by assumption.
      assert (D : Csub (RtoC (r_m r * r_m r)) t <> RtoC 0) by (intros X; apply Csub_eq in X; auto).
      rewrite !RtoC_mul. rewrite RtoC_mul in D. field. assumption.
    + intros [c [m [[I|I] X]]].
      * injection I as <- <-. contradiction.
      * apply F. exists c, m. tauto.
Qed.

Lemma spec_sector_widths : forall P names, names <> [] ->
  (forall n, In n names -> P ("decay_rate_" ++ n) = 0) ->
  Forall (fun r => r_g r = 0) (spec_sector P names).
Proof.
  intros P names N Z. apply Forall_forall. intros r Hr.
  destruct (in_spec_sector _ _ _ N Hr) as [n [Hn [_ E]]]. rewrite E. auto.
Qed.

Theorem C17_kaon_is_VMD : forall k ch kw m t v,
  Kaon_init (kaon_class k) ch kw = Ok m ->
  (forall n, In n (isoscalar_resonances k ++ isovector_resonances k) -> kwval kw ("decay_rate_" ++ n) = 0) ->
  Kaon_call m t = Ok v ->
  VMDModel_call (VMDModel_create (vmd_mesons k ch (kwval kw))) t = Ok v.
Proof.
  intros k ch kw m t v H Z E. destruct (Kaon_valid _ _ _ _ H) as [V1 V2].
  destruct (spec_sector_nonempty (kwval kw) k) as [N1 N2].
  destruct (resonances_nonempty k) as [M1 M2].
  rewrite (Kaon_view _ _ _ _ _ H) in E. destruct (Rlt_dec (Re t) 0); [discriminate|].
  apply bind_Ok_inv in E. destruct E as [x [E1 E]]. apply bind_Ok_inv in E. destruct E as [y [E2 E]].
  injection E as <-.
  destruct V1 as [[A1 [B1|B1]] V1]; [|rewrite <- B1 in *; rewrite sector_eval_degenerate in E1 by assumption; discriminate].
  destruct V2 as [[A2 [B2|B2]] V2]; [|rewrite <- B2 in *; rewrite sector_eval_degenerate in E2 by assumption; discriminate].
  destruct (sector_eval_cases _ _ A1 B1 _ t V1) as [[_ F1]|[T1 [P1 F1]]]; rewrite F1 in E1; [discriminate|].
  destruct (sector_eval_cases _ _ A2 B2 _ t V2) as [[_ F2]|[T2 [P2 F2]]]; rewrite F2 in E2; [discriminate|].
  injection E1 as <-. injection E2 as <-.
  destruct (sec_val_vmd _ _ _ t 1 A1 B1 T1 V1) as [X1 Y1]; [|assumption|].
  { apply spec_sector_widths; [assumption|]. intros nm Hn. apply Z, in_or_app. now left. }
  destruct (sec_val_vmd _ _ _ t (if ch then 1 else -1) A2 B2 T2 V2) as [X2 Y2]; [|assumption|].
  { apply spec_sector_widths; [assumption|]. intros nm Hn. apply Z, in_or_app. now right. }
  rewrite vmd_mesons_split.
  set (l1 := sector_mesons 1 _) in *. set (l2 := sector_mesons (if ch then 1 else -1) _) in *.
  assert (NE : (l1 ++ l2)%list <> []).
  { intros F. apply app_eq_nil in F. destruct F as [F _]. apply N1. unfold l1, sector_mesons in F.
    apply map_eq_nil in F. assumption. }
  destruct (C32_vmd_exact _ t NE) as [_ W]. rewrite W.
  - f_equal. rewrite vmd_sum_app, <- X1, <- X2. destruct ch.
    + ring.
    + replace (RtoC (-1)) with (Copp (RtoC 1)) by (Cext; ring). ring.
  - intros [c [mm [I F]]]. apply in_app_or in I. destruct I as [I|I]; [apply Y1|apply Y2]; exists c, mm; tauto.
Qed.
Print Assumptions C17_kaon_is_VMD.

(** Where it returns: everywhere in Re t >= 0 except the thresholds and the squared masses. *)
Theorem C17_kaon_zero_width_domain : forall k ch kw m t,
  Kaon_init (kaon_class k) ch kw = Ok m ->
  kwval kw "t_0_isoscalar" < kwval kw "t_in_isoscalar" ->
  kwval kw "t_0_isovector" < kwval kw "t_in_isovector" ->
  (forall n, In n (isoscalar_resonances k ++ isovector_resonances k) -> kwval kw ("decay_rate_" ++ n) = 0) ->
  0 <= Re t -> t <> RtoC (kwval kw "t_in_isoscalar") -> t <> RtoC (kwval kw "t_in_isovector") ->
  (forall n, In n (isoscalar_resonances k ++ isovector_resonances k) ->
     t <> RtoC (kwval kw ("mass_" ++ n) * kwval kw ("mass_" ++ n))) ->
  is_ok (Kaon_call m t).
Proof.
  intros k ch kw m t H L1 L2 Z R T1 T2 M.
  destruct (C18_kaon_failure_set k ch kw m t H L1 L2) as [A [B [D|[D|D]]]]; [assumption| |].
  - apply A in D. lra.
  - exfalso. apply B in D. destruct D as [_ [D|[D|[n [Hn D]]]]]; try contradiction.
    rewrite (Z n Hn), <- resonance_pole_eq, meson_pole_0, Cconj_RtoC in D. apply (M n Hn). tauto.
Qed.
Print Assumptions C17_kaon_zero_width_domain.

Theorem C17_single_is_VMD : forall t_0 t_in a m s t v,
  SingleComponentModel_init t_0 t_in a m 0 = Ok s ->
  SingleComponentModel_call s t = Ok v ->
  v = Cdivt (RtoC (a * (m * m))) (Csub (RtoC (m * m)) t) /\ t <> RtoC (m * m).
Proof.
  intros t_0 t_in a m s t v H E. rewrite (Single_view _ _ _ _ _ _ _ H) in E.
  destruct (Rlt_dec (Re t) 0); [discriminate|].
  destruct (Single_valid _ _ _ _ _ _ H) as [[H0 [Hlt|B]] V].
  - destruct (sector_eval_cases _ _ H0 Hlt _ t V) as [[_ F]|[T [P F]]]; rewrite F in E; [discriminate|].
    injection E as <-.
    destruct (sec_val_vmd _ _ _ t 1 H0 Hlt T V) as [X Y]; [|assumption|].
    { constructor; [reflexivity|constructor]. }
    unfold sector_mesons, r_a, r_m in X, Y. cbn [map fst snd vmd_sum] in X.
    split.
    + transitivity (Cmul (RtoC 1) (sec_val t_0 t_in [(a, m, 0)] t)); [ring|]. rewrite X, Rmult_1_l. ring.
    + intros F'. apply Y. exists (1 * a), m. split; [now left|assumption].
  - subst t_in. rewrite sector_eval_degenerate in E by (assumption || discriminate). discriminate.
Qed.
Print Assumptions C17_single_is_VMD.

Example C17_instance : forall k ch, exists m v,
  Kaon_init (kaon_class k) ch (demo_kw (1/7) 0 k) = Ok m /\ Kaon_call m (RtoC 3) = Ok v /\
  (forall n, In n (isoscalar_resonances k ++ isovector_resonances k) ->
     kwval (demo_kw (1/7) 0 k) ("decay_rate_" ++ n) = 0).
Proof.
  intros k ch. destruct (demo_accepted (1/7) 0 k ch) as [m H].
  assert (M : forall n, In n (isoscalar_resonances k ++ isovector_resonances k) ->
    kwval (demo_kw (1/7) 0 k) ("mass_" ++ n) = 2 /\ kwval (demo_kw (1/7) 0 k) ("decay_rate_" ++ n) = 0).
  { intros n Hn. destruct k; simpl in Hn;
      repeat (destruct Hn as [<-|Hn]; [rewrite !demo_kwval by inkw; split; reflexivity|]); contradiction. }
  assert (I : is_ok (Kaon_call m (RtoC 3))).
  { apply (C17_kaon_zero_width_domain k ch _ m _ H); rewrite ?demo_kwval by (destruct k; inkw);
      unfold demo_value; simpl; try lra.
    - intros n Hn. apply (M n Hn).
    - intros E. apply RtoC_inj in E. lra.
    - intros E. apply RtoC_inj in E. lra.
    - intros n Hn E. destruct (M n Hn) as [E1 _]. rewrite E1 in E. apply RtoC_inj in E. lra. }
  destruct I as [v I]. exists m, v. split; [assumption|]. split; [assumption|]. intros n Hn. apply (M n Hn).
Qed.
