(** C51: verified enclosures of the values of the model, and the model against the numbers of the repository's own
    unit tests.

    The first group of theorems holds for all parameters: whenever the ball evaluator answers, the modelled Python
    functions return normally and their value lies in the answer.  The second group applies it: every numerical
    assertion of the unit tests of the maps, components, form factor models and cross sections (tables in
    UnitTests.v) holds of the model, with the tolerance of the test. *)
From Coq Require Import String Reals ZArith QArith Qreals Lia Lra List Bool.
From Verif Require Import PyBase CNum UAMaps UAComponents PyExpr UAModels Nucleon NucleonCache MapProofs
  OtherModels CrossSections CommonUtils Balls Enclose EncloseCS UnitTests UnitChecks.
Import ListNotations.
Local Open Scope R_scope.
Local Open Scope py_scope.
Local Open Scope string_scope.

#[local] Arguments String.append : simpl never.

(** ** Specification: a number within [r] units of 2^-72 of [m] units *)

Definition unit72 : R := / 2 ^ 72.
Definition within (b : ball) (x : R) : Prop := Rabs (x - IZR (mid b) * unit72) <= IZR (rad b) * unit72.
Definition Cwithin (b : cball) (z : C) : Prop := within (bre b) (Re z) /\ within (bim b) (Im z).
Definition kw_within (be : env ball) (kw : env R) : Prop :=
  Forall2 (fun p q => fst p = fst q /\ within (snd p) (snd q)) be kw.

Lemma scale_72 : IZR scale = 2 ^ 72.
Proof.
  assert (E : scale = (2 ^ 72)%Z) by (vm_compute; reflexivity). rewrite E. rewrite <- pow_IZR with (n := 72%nat).
  reflexivity.
Qed.

Lemma within_inB : forall b x, within b x <-> inB b x.
Proof.
  intros b x. unfold within, inB, unit72. rewrite scale_72. assert (P : 0 < 2 ^ 72) by (apply pow_lt; lra).
  set (s := 2 ^ 72) in *. clearbody s.
  replace (x - IZR (mid b) * / s) with ((x * s - IZR (mid b)) * / s) by (field; lra).
  rewrite Rabs_mult, (Rabs_right (/ s)) by (apply Rle_ge, Rlt_le, Rinv_0_lt_compat, P).
  assert (Q : 0 < / s) by (apply Rinv_0_lt_compat, P). split; intro H.
  - apply Rmult_le_reg_r in H; assumption.
  - apply Rmult_le_compat_r; lra.
Qed.
Lemma Cwithin_inC : forall b z, Cwithin b z <-> inC b z.
Proof. intros b z. unfold Cwithin, inC. now rewrite !within_inB. Qed.
Lemma kw_within_enc : forall be kw, kw_within be kw -> enc_env inB be kw.
Proof.
  intros be kw H. induction H as [|p q be kw [E H] _ IH]; constructor; [|exact IH].
  split; [exact E|]. now apply within_inB.
Qed.
Lemma encl_within : forall o r b, encl inC o r -> o = Some b -> exists v, r = Ok v /\ Cwithin b v.
Proof.
  intros o r b H E. subst o. destruct H as [v [F H]]. exists v. split; [exact F|]. now apply Cwithin_inC.
Qed.

(** ** All parameters *)

(** The map from t to W and back. *)
Theorem C51_maps : forall t_0 t_in x y bt t bw w,
  within t_0 x -> within t_in y -> Cwithin bt t -> Cwithin bw w ->
  (forall bm b, bmap_init t_0 t_in = Some bm -> bmap_call bm bt = Some b ->
     exists m v, MapFromTtoW_init x y = Ok m /\ MapFromTtoW_call m t = Ok v /\ Cwithin b v) /\
  (forall bm b, bmapWT_init t_0 t_in = Some bm -> bmapWT_call bm bw = Some b ->
     exists m v, MapFromWtoT_init x y = Ok m /\ MapFromWtoT_call m w = Ok v /\ Cwithin b v).
Proof.
  intros t_0 t_in x y bt t bw w H0 H1 Ht Hw. apply within_inB in H0. apply within_inB in H1.
  apply Cwithin_inC in Ht. apply Cwithin_inC in Hw. split; intros bm b E F.
  - pose proof (enc_map_init _ _ _ _ H0 H1) as K. rewrite E in K. destruct K as [m [G K]]. exists m.
    destruct (encl_within _ _ _ (enc_map_call _ _ _ _ K Ht) F) as [v [V W]]. exists v. auto.
  - pose proof (enc_mapWT_init _ _ _ _ H0 H1) as K. rewrite E in K. destruct K as [m [G K]]. exists m.
    destruct (encl_within _ _ _ (enc_mapWT_call _ _ _ _ K Hw) F) as [v [V W]]. exists v. auto.
Qed.
Print Assumptions C51_maps.

Theorem C51_square_root : forall a b z, Cwithin a z -> cb_sqrt a = Some b -> Cwithin b (square_root z).
Proof. intros a b z H E. apply Cwithin_inC. apply (inC_sqrt a); [exact E|]. now apply Cwithin_inC. Qed.
Print Assumptions C51_square_root.

Theorem C51_pi : within b_pi Rtrigo1.PI /\ rad b_pi = 2%Z.
Proof. split; [apply within_inB, in_pi|reflexivity]. Qed.
Print Assumptions C51_pi.

Theorem C51_components : forall v a b bc w_n w_meson aw w r,
  Cwithin a w_n -> Cwithin b w_meson -> Cwithin aw w ->
  bcomp_init v a b = Some bc -> bcomp_call bc aw = Some r ->
  exists c x, Component_init v w_n w_meson = Ok c /\ Component_call c w = Ok x /\ Cwithin r x.
Proof.
  intros v a b bc w_n w_meson aw w r Ha Hb Hw E F. apply Cwithin_inC in Ha. apply Cwithin_inC in Hb.
  apply Cwithin_inC in Hw. pose proof (enc_comp_init v _ _ _ _ Ha Hb) as K. rewrite E in K. destruct K as [c [G K]].
  exists c. destruct (encl_within _ _ _ (enc_comp_call _ _ _ _ K Hw) F) as [x [X Y]]. exists x. auto.
Qed.
Print Assumptions C51_components.

(** A kaon model of any class: construction, assignment of the flag, call. *)
Theorem C51_kaon : forall cls charged flag be kw bt t bm b,
  kw_within be kw -> Cwithin bt t ->
  bkaon_init cls charged be = Some bm -> bkaon_call (bkaon_set_charged bm flag) bt = Some b ->
  exists m v, Kaon_init (to_kaon_class cls) charged kw = Ok m /\
    Kaon_call (Kaon_set_charged m flag) t = Ok v /\ Cwithin b v.
Proof.
  intros cls charged flag be kw bt t bm b H Ht E F. apply kw_within_enc in H. apply Cwithin_inC in Ht.
  pose proof (enc_kaon_init cls charged _ _ H) as K. rewrite E in K. destruct K as [m [G K]]. exists m.
  destruct (encl_within _ _ _ (enc_kaon_call _ _ _ _ (enc_kaon_set_charged _ _ flag K) Ht) F) as [v [V W]].
  exists v. auto.
Qed.
Print Assumptions C51_kaon.

(** A nucleon model of any class, at any point of its life: after any sequence of earlier calls with any flags the
    value still lies in the ball, whatever the dictionary of mass terms holds by then. *)
Fixpoint after_calls (m : NucleonModel) (c : Cache) (l : list (C * bool * bool)) : Cache :=
  match l with
  | [] => c
  | (t, p, e) :: l' => after_calls m (snd (Nucleon_call (Nucleon_set_flags m p e) t c)) l'
  end.
Lemma after_calls_ok : forall m l c, cache_ok m c -> cache_ok m (after_calls m c l).
Proof.
  intros m l. induction l as [|[[t p] e] l IH]; intros c H; cbn [after_calls]; [exact H|].
  apply IH. destruct (Nucleon_call_pure _ t _ (cache_ok_flags m p e c H)) as [_ K].
  exact (cache_ok_flags _ (nm_proton m) (nm_electric m) _ K).
Qed.

Theorem C51_nucleon : forall cls proton electric p e be kw bt t bm b before,
  kw_within be kw -> Cwithin bt t ->
  bnuc_init cls proton electric be = Some bm -> bnuc_call (bnuc_set_flags bm p e) bt = Some b ->
  exists m c v, Nucleon_init (to_nuc_class cls) proton electric kw = Ok (m, c) /\
    fst (Nucleon_call (Nucleon_set_flags m p e) t (after_calls m c before)) = Ok v /\ Cwithin b v.
Proof.
  intros cls proton electric p e be kw bt t bm b before H Ht E F. apply kw_within_enc in H. apply Cwithin_inC in Ht.
  pose proof (enc_nuc_init cls proton electric _ _ H) as K. rewrite E in K.
  destruct K as [[m c] [G [K1 K2]]]. cbn [fst snd] in *. subst c. exists m, [].
  pose proof (cache_ok_flags m p e _ (after_calls_ok m before [] (cache_ok_nil m))) as HC.
  destruct (encl_within _ _ _ (enc_nuc_call_cached _ _ _ _ _ (enc_nuc_set_flags _ _ p e K1) Ht HC) F) as [v [V W]].
  exists v. auto.
Qed.
Print Assumptions C51_nucleon.

Theorem C51_VMD : forall bl l bt t b,
  Forall2 (fun p q => within (fst p) (fst q) /\ within (snd p) (snd q)) bl l -> Cwithin bt t ->
  bvmd_call bl bt = Some b -> exists v, VMDModel_call (VMDModel_create l) t = Ok v /\ Cwithin b v.
Proof.
  intros bl l bt t b H Ht E. apply Cwithin_inC in Ht.
  assert (H' : Forall2 enc_pair bl l).
  { clear E. induction H as [|p q bl l [H1 H2] _ IH]; constructor; [|exact IH]. split; now apply within_inB. }
  exact (encl_within _ _ _ (enc_vmd_call _ _ _ _ H' Ht) E).
Qed.
Print Assumptions C51_VMD.

(** The cross sections, for any form factor whose values are known up to balls. *)
Theorem C51_scalar_cross_section : forall bm ba bh bt bf m alpha hc2 t form_factor f b,
  within bm m -> within ba alpha -> within bh hc2 -> Cwithin bt t -> form_factor t = Ok f -> Cwithin bf f ->
  bscalar_cs bm ba bh bf bt = Some b ->
  exists v, ScalarCS_call (ScalarCS_init m alpha hc2) form_factor t = Ok v /\ Cwithin b v.
Proof.
  intros bm ba bh bt bf m alpha hc2 t ff f b Hm Ha Hh Ht E Hf F.
  apply within_inB in Hm. apply within_inB in Ha. apply within_inB in Hh. apply Cwithin_inC in Ht. apply Cwithin_inC in Hf.
  eapply encl_within; [|exact F]. eapply enc_scalar_cs; eassumption.
Qed.
Print Assumptions C51_scalar_cross_section.

Theorem C51_nucleon_cross_section : forall F set_electric call bm ba bh bt be bf m alpha hc2 t (f0 f1 : F) e f b,
  within bm m -> within ba alpha -> within bh hc2 -> Cwithin bt t ->
  call (set_electric true f0) t = (Ok e, f1) -> Cwithin be e ->
  fst (call (set_electric false f1) t) = Ok f -> Cwithin bf f ->
  bnucleon_cs bm ba bh be bf bt = Some b ->
  exists v, fst (NucleonCS_call F set_electric call (NucleonCS_init m alpha hc2) f0 t) = Ok v /\ Cwithin b v.
Proof.
  intros F se call bm ba bh bt be bf m alpha hc2 t f0 f1 e f b Hm Ha Hh Ht E He E' Hf G.
  apply within_inB in Hm. apply within_inB in Ha. apply within_inB in Hh. apply Cwithin_inC in Ht.
  apply Cwithin_inC in Hf. apply Cwithin_inC in He.
  eapply encl_within; [|exact G]. eapply enc_nucleon_cs; eassumption.
Qed.
Print Assumptions C51_nucleon_cross_section.

(** ** The unit tests *)

(** tests/test_functions.py, test_MapFromTtoW.py, test_MapFromWtoT.py, test_VMDModel.py, test_UAComponentVariantA.py,
    test_UAComponentVariantB.py. *)
Theorem C51_tests_functions :
  function_test z_minus_its_reciprocal cases_z_minus_its_reciprocal /\
  function_test (fun z => Ok (square_root z)) cases_square_root.
Proof.
  split.
  - apply check_function_ok with (bf := bz_minus_its_reciprocal); [exact enc_z_minus_its_reciprocal|].
    vm_compute. reflexivity.
  - apply check_function_ok with (bf := cb_sqrt); [|vm_compute; reflexivity].
    intros a x H. destruct (cb_sqrt a) as [b|] eqn:E; [|exact I]. exists (square_root x). split; [reflexivity|].
    exact (inC_sqrt _ _ _ E H).
Qed.
Print Assumptions C51_tests_functions.

Theorem C51_tests_maps :
  (exists m, MapFromTtoW_init (Q2R 0.0) (Q2R 0.25) = Ok m /\ function_test (MapFromTtoW_call m) cases_MapFromTtoW) /\
  (exists m, MapFromWtoT_init (Q2R 0.0) (Q2R 0.25) = Ok m /\ function_test (MapFromWtoT_call m) cases_MapFromWtoT).
Proof.
  split.
  - assert (E : match bmap_init (b_q 0.0) (b_q 0.25) with
                | Some m => check_function (bmap_call m) cases_MapFromTtoW | None => false end = true)
      by (vm_compute; reflexivity).
    pose proof (enc_map_init _ _ _ _ (in_q 0.0) (in_q 0.25)) as K.
    destruct (bmap_init (b_q 0.0) (b_q 0.25)) as [bm|]; [|discriminate E]. destruct K as [m [F K]]. exists m.
    split; [exact F|]. apply check_function_ok with (bf := bmap_call bm); [|exact E].
    intros a x H. now apply enc_map_call.
  - assert (E : match bmapWT_init (b_q 0.0) (b_q 0.25) with
                | Some m => check_function (bmapWT_call m) cases_MapFromWtoT | None => false end = true)
      by (vm_compute; reflexivity).
    pose proof (enc_mapWT_init _ _ _ _ (in_q 0.0) (in_q 0.25)) as K.
    destruct (bmapWT_init (b_q 0.0) (b_q 0.25)) as [bm|]; [|discriminate E]. destruct K as [m [F K]]. exists m.
    split; [exact F|]. apply check_function_ok with (bf := bmapWT_call bm); [|exact E].
    intros a x H. now apply enc_mapWT_call.
Qed.
Print Assumptions C51_tests_maps.

Theorem C51_tests_components :
  (exists c, Component_init VariantA (QtoC (2, 0)%Q) (QtoC (3, 1)%Q) = Ok c /\
     function_test (Component_call c) cases_VariantA) /\
  (exists c, Component_init VariantB (QtoC (2, 0)%Q) (QtoC (3, 1)%Q) = Ok c /\
     function_test (Component_call c) cases_VariantB).
Proof.
  assert (G : forall v cases,
    match bcomp_init v (cb_q (2, 0)%Q) (cb_q (3, 1)%Q) with
    | Some c => check_function (bcomp_call c) cases | None => false end = true ->
    exists c, Component_init v (QtoC (2, 0)%Q) (QtoC (3, 1)%Q) = Ok c /\ function_test (Component_call c) cases).
  { intros v cases E. pose proof (enc_comp_init v _ _ _ _ (inC_q (2, 0)%Q) (inC_q (3, 1)%Q)) as K.
    destruct (bcomp_init v (cb_q (2, 0)%Q) (cb_q (3, 1)%Q)) as [bc|]; [|discriminate E].
    destruct K as [c [F K]]. exists c. split; [exact F|].
    apply check_function_ok with (bf := bcomp_call bc); [|exact E]. intros a x H. now apply enc_comp_call. }
  split; apply G; vm_compute; reflexivity.
Qed.
Print Assumptions C51_tests_components.

Theorem C51_tests_VMD :
  function_test (VMDModel_call (VMDModel_create [(Q2R 1.0, Q2R 10.0); (Q2R 0.5, Q2R 0.1)])) cases_VMDModel.
Proof.
  apply check_function_ok with (bf := bvmd_call [(b_q 1.0, b_q 10.0); (b_q 0.5, b_q 0.1)]).
  - intros a x H. apply enc_vmd_call; [|exact H].
    constructor; [split; apply in_q|]. constructor; [split; apply in_q|constructor].
  - vm_compute. reflexivity.
Qed.
Print Assumptions C51_tests_VMD.

(** tests/test_KaonUAModel.py, test_KaonUAModelB.py, test_KaonUAModelSimplified.py, both tests of each. *)
Theorem C51_tests_kaon :
  kaon_test KaonUAModel kw_Kaon_1 cases_Kaon_1 /\ kaon_test KaonUAModel kw_Kaon_2 cases_Kaon_2 /\
  kaon_test KaonUAModelB kw_KaonB_1 cases_KaonB_1 /\ kaon_test KaonUAModelB kw_KaonB_2 cases_KaonB_2 /\
  kaon_test KaonUAModelSimplified kw_KaonSimplified_1 cases_KaonSimplified_1 /\
  kaon_test KaonUAModelSimplified kw_KaonSimplified_2 cases_KaonSimplified_2.
Proof.
  destruct quoted_classes as [<- [<- [<- _]]].
  split; [|split; [|split; [|split; [|split]]]]; apply check_kaon_ok; vm_compute; reflexivity.
Qed.
Print Assumptions C51_tests_kaon.

(** tests/test_ScalarMesonProductionTotalCrossSection.py: the identity and a kaon model as form factor. *)
Theorem C51_tests_scalar_cross_section :
  scalar_test 1.0 (1 # 137) 1.0 (fun t => Ok t) cases_Scalar_1 /\
  (exists m, Kaon_init KaonUAModel true (env_of kw_Scalar_2) = Ok m /\
     scalar_test 0.493677 0.0072973525693 389379.3721 (Kaon_call m) cases_Scalar_2).
Proof.
  split.
  - apply check_scalar_ok with (bf := fun t => Some t); [|vm_compute; reflexivity].
    intros a x H. exists x. now split.
  - assert (E : match bkaon_init bKaonUAModel true (benv_of kw_Scalar_2) with
                | Some m => check_scalar 0.493677 0.0072973525693 389379.3721 (bkaon_call m) cases_Scalar_2
                | None => false end = true) by (vm_compute; reflexivity).
    destruct quoted_classes as [<- _].
    pose proof (enc_kaon_init bKaonUAModel true _ _ (enc_env_of kw_Scalar_2)) as K.
    destruct (bkaon_init bKaonUAModel true (benv_of kw_Scalar_2)) as [b|]; [|discriminate E].
    destruct K as [m [F K]]. exists m. split; [exact F|].
    apply check_scalar_ok with (bf := bkaon_call b); [|exact E]. intros a x H. now apply enc_kaon_call.
Qed.
Print Assumptions C51_tests_scalar_cross_section.

(** tests/test_NucleonPairToElectronPositronTotalCrossSection.py, first test. *)
Theorem C51_tests_pair_cross_section_identity : forall f,
  pair_items bool (fun b _ => b) identity_call (NucleonCS_init (Q2R 1.0) (Q2R (1 # 137)) (Q2R 1.0)) f cases_Pair_1.
Proof. apply check_pair_identity_ok. vm_compute. reflexivity. Qed.
Print Assumptions C51_tests_pair_cross_section_identity.

(** ** An instance *)

(** The hypotheses of the general theorems are met by concrete balls, and the answers are narrow: a point of the upper
    side of the cut is mapped to a W known to 2^-60, a component at that W too. *)
Definition narrow (b : cball) : bool := ((rad (bre b) <? 4096) && (rad (bim b) <? 4096))%Z.
Example C51_instance :
  exists bm b bc r m v c x,
    bmap_init (b_q 0.0) (b_q 0.25) = Some bm /\ bmap_call bm (cb_q (2, 0)%Q) = Some b /\ narrow b = true /\
    bcomp_init VariantB (cb_q (2, 0)%Q) (cb_q (3, 1)%Q) = Some bc /\ bcomp_call bc b = Some r /\ narrow r = true /\
    MapFromTtoW_init (Q2R 0.0) (Q2R 0.25) = Ok m /\ MapFromTtoW_call m (QtoC (2, 0)%Q) = Ok v /\ Cwithin b v /\
    Component_init VariantB (QtoC (2, 0)%Q) (QtoC (3, 1)%Q) = Ok c /\ Component_call c v = Ok x /\ Cwithin r x.
Proof.
  assert (E : match bmap_init (b_q 0.0) (b_q 0.25) with
              | Some bm => match bmap_call bm (cb_q (2, 0)%Q) with
                           | Some b => match bcomp_init VariantB (cb_q (2, 0)%Q) (cb_q (3, 1)%Q) with
                                       | Some bc => match bcomp_call bc b with
                                                    | Some r => narrow b && narrow r | None => false end
                                       | None => false end
                           | None => false end
              | None => false end = true) by (vm_compute; reflexivity).
  destruct (bmap_init (b_q 0.0) (b_q 0.25)) as [bm|] eqn:E1; [|discriminate E].
  destruct (bmap_call bm (cb_q (2, 0)%Q)) as [b|] eqn:E2; [|discriminate E].
  destruct (bcomp_init VariantB (cb_q (2, 0)%Q) (cb_q (3, 1)%Q)) as [bc|] eqn:E3; [|discriminate E].
  destruct (bcomp_call bc b) as [r|] eqn:E4; [|discriminate E].
  apply andb_prop in E. destruct E as [N1 N2].
  assert (H0 : within (b_q 0.0) (Q2R 0.0)) by apply within_inB, in_q.
  assert (H1 : within (b_q 0.25) (Q2R 0.25)) by apply within_inB, in_q.
  assert (HC : forall q, Cwithin (cb_q q) (QtoC q)) by (intro q; apply Cwithin_inC, inC_q).
  destruct (C51_maps _ _ _ _ _ _ _ _ H0 H1 (HC (2, 0)%Q) (HC (2, 0)%Q)) as [M _].
  destruct (M bm b E1 E2) as [m [v [M1 [M2 M3]]]].
  destruct (C51_components VariantB _ _ bc _ _ b v r (HC (2, 0)%Q) (HC (3, 1)%Q) M3 E3 E4) as [c [x [X1 [X2 X3]]]].
  exists bm, b, bc, r, m, v, c, x.
  split; [reflexivity|]. split; [exact E2|]. split; [exact N1|]. split; [reflexivity|]. split; [exact E4|].
  split; [exact N2|]. split; [exact M1|]. split; [exact M2|]. split; [exact M3|]. split; [exact X1|].
  split; [exact X2|exact X3].
Qed.
