(** Property C25, continued: points strictly inside the maximal bounds. *)
From Coq Require Import String Reals List Bool Arith Lra Permutation.
From Verif Require Import PyBase CNum UAComponents PyExpr UAModels Nucleon MapProofs ComponentProofs NucleonProofs
  OtherModels Params ParamClasses ParamProofs ParamSpec BoundsProofs CommonUtils ExprProofs KaonProofs KaonSpec NucleonSpec
  UtilsSpec UtilsProofs PropsKaon PropsKaon2 PropsNucleon2 PropsParams PropsParams2 PropsUtils PerturbProofs.
Import ListNotations.
Local Open Scope R_scope.
Local Open Scope py_scope.
Local Open Scope string_scope.
Local Open Scope list_scope.

#[local] Arguments String.append : simpl never.

(** Strictly between the two ends of an interval. *)
Definition strictly_between (b : ext * ext) (x : R) : Prop := ext_lt (fst b) (Fin x) /\ ext_lt (Fin x) (snd b).

(** The maximal bounds can be computed and every parameter that may be fitted lies strictly inside. *)
Definition inside_maximal (c : param_class) (d : data) : Prop :=
  exists t, full_bounds c false d = Ok t /\
    forall n b, ~ In n (must_stay_fixed c) -> lookup t n = Some b -> strictly_between b (val d n).

Lemma kwval_keywords : forall d n, kwval (keywords d) n = val d n.
Proof.
  intros d n. unfold kwval, keywords. induction d as [|p d IH]; [reflexivity|]. simpl.
  destruct (String.eqb (par_name p) n); [reflexivity|exact IH].
Qed.

(** What being inside means for the single parameters. *)
Lemma inside_thresholds : forall c d, reachable c d -> inside_maximal c d ->
  forall n, In n (threshold_parameters c) -> 0 <= val d n.
Proof.
  intros c d R [t [E _]] n Hn. apply reachable_inv in R. destruct R as [N _].
  destruct (Rle_lt_dec 0 (val d n)) as [L|L]; [assumption|].
  rewrite full_bounds_negative in E; [discriminate|assumption|]. exists n. split; [now apply thresholds_eq|assumption].
Qed.

Lemma inside_values : forall c d, reachable c d -> inside_maximal c d ->
  forall n, In n (class_names c) -> ~ In n (must_stay_fixed c) -> strictly_between (maximal_bounds_of c d n) (val d n).
Proof.
  intros c d R I n Hn Ha. assert (T := inside_thresholds c d R I).
  apply reachable_inv in R. destruct R as [N _]. destruct I as [t [E I]].
  rewrite full_bounds_total in E; [|assumption|intros _ m Hm; apply T; now apply thresholds_eq].
  injection E as <-. apply I; [assumption|]. apply maximal_table; [assumption|]. now rewrite <- must_stay_fixed_eq.
Qed.

Lemma above_sqrt : forall x m, 0 <= x -> sqrt x < m -> 0 < m /\ x < m * m.
Proof.
  intros x m H L. assert (P := sqrt_pos x). split; [lra|]. rewrite <- (sqrt_sqrt x H). nra.
Qed.

(** A resonance of positive mass and width has no real pole. *)
Lemma pole_not_real : forall m g x, 0 < m -> 0 < g -> resonance_pole m g <> RtoC x.
Proof.
  intros m g x Hm Hg E. apply (f_equal Im) in E. unfold resonance_pole in E. simpl in E. nra.
Qed.

(** ** Kaons *)

Lemma kaon_mass_bound : forall c k d r, family_of c = FKaon k ->
  (In r (isoscalar_resonances k) -> In ("mass_" ++ r)%string (class_names c) /\
     maximal_bounds_of c d ("mass_" ++ r) = (Fin (sqrt (val d "t_0_isoscalar")), PosInf)) /\
  (In r (isovector_resonances k) -> In ("mass_" ++ r)%string (class_names c) /\
     maximal_bounds_of c d ("mass_" ++ r) = (Fin (sqrt (val d "t_0_isovector")), PosInf)) /\
  (In r (isoscalar_resonances k ++ isovector_resonances k) -> In ("decay_rate_" ++ r)%string (class_names c) /\
     maximal_bounds_of c d ("decay_rate_" ++ r) = (Fin 0, PosInf)).
Proof.
  intros c k d r F. destruct c; try discriminate F; injection F as <-; (split; [|split]); intros H; cbn in H;
    repeat (destruct H as [<-|H]; [split; [apply mem_In; reflexivity|reflexivity]|]); contradiction.
Qed.

(** The resonances with a mass or a width that is never fitted, hence without bounds. *)
Definition pinned (c : param_class) (r : string) : Prop :=
  In ("mass_" ++ r)%string (must_stay_fixed c) \/ In ("decay_rate_" ++ r)%string (must_stay_fixed c).

Lemma pinned_dec : forall c r, pinned c r \/ ~ pinned c r.
Proof.
  intros c r. unfold pinned.
  destruct (in_dec string_dec ("mass_" ++ r)%string (must_stay_fixed c)); [tauto|].
  destruct (in_dec string_dec ("decay_rate_" ++ r)%string (must_stay_fixed c)); tauto.
Qed.

Lemma get_ff_model_kaon : forall c k d, family_of c = FKaon k -> reachable c d ->
  get_ff_model c d = (m <- Kaon_init (kaon_class k) true (keywords d) ;; Ok (FFKaon m)).
Proof.
  intros c k d F R. apply reachable_inv in R. assert (ND := inv_names_NoDup c d R).
  unfold get_ff_model. rewrite (dict_of_keywords d ND).
  destruct c; try discriminate F; injection F as <-; reflexivity.
Qed.

Lemma t_in_bound : forall c k d, family_of c = FKaon k ->
  (In "t_in_isoscalar" (class_names c) /\ ~ In "t_in_isoscalar" (must_stay_fixed c) /\
   maximal_bounds_of c d "t_in_isoscalar" = (Fin (val d "t_0_isoscalar"), PosInf)) /\
  (In "t_in_isovector" (class_names c) /\ ~ In "t_in_isovector" (must_stay_fixed c) /\
   maximal_bounds_of c d "t_in_isovector" = (Fin (val d "t_0_isovector"), PosInf)).
Proof.
  intros c k d F. destruct c; try discriminate F; (split; (split; [apply mem_In; reflexivity|]); (split; [|reflexivity]));
    intros H; cbn in H; repeat (destruct H as [H|H]; [discriminate H|]); contradiction.
Qed.

(** Strictly inside the maximal bounds the kaon model is built without error, up to the resonances whose mass or width the
    class never fits: those have no bounds and must be acceptable by themselves. *)
Theorem C25_kaon_inside_bounds : forall c k d, family_of c = FKaon k -> reachable c d -> inside_maximal c d ->
  (is_ok (get_ff_model c d) <->
   forall r, pinned c r ->
     (In r (isoscalar_resonances k) -> resonance_accepted (val d "t_0_isoscalar") (val d "t_in_isoscalar")
                                         (val d ("mass_" ++ r)) (val d ("decay_rate_" ++ r))) /\
     (In r (isovector_resonances k) -> resonance_accepted (val d "t_0_isovector") (val d "t_in_isovector")
                                         (val d ("mass_" ++ r)) (val d ("decay_rate_" ++ r)))).
Proof.
  intros c k d F R I. rewrite (get_ff_model_kaon c k d F R).
  assert (T := inside_thresholds c d R I). assert (V := inside_values c d R I).
  assert (TP : threshold_parameters c = thresholds_kaon) by (destruct c; try discriminate F; reflexivity).
  rewrite TP in T. assert (T1 := T "t_0_isoscalar" (or_introl eq_refl)).
  assert (T2 := T "t_0_isovector" (or_intror (or_introl eq_refl))).
  destruct (t_in_bound c k d F) as [(A1 & A2 & A3) (B1 & B2 & B3)].
  assert (S1 := V _ A1 A2). rewrite A3 in S1. destruct S1 as [S1 _]. simpl in S1.
  assert (S2 := V _ B1 B2). rewrite B3 in S2. destruct S2 as [S2 _]. simpl in S2.
  assert (K := C26_store_matches_model c d R). rewrite F in K.
  assert (X : is_ok (m <- Kaon_init (kaon_class k) true (keywords d) ;; Ok (FFKaon m)) <->
              is_ok (Kaon_init (kaon_class k) true (keywords d))).
  { destruct (Kaon_init (kaon_class k) true (keywords d)) as [m|]; simpl; split; intros [x E]; try discriminate; eexists; reflexivity. }
  rewrite X, C25_kaon_accepts_iff. unfold sector_accepted. rewrite !kwval_keywords.
  split.
  - intros (_ & (_ & _ & H1) & (_ & _ & H2)) r _. split; intros Hr; [specialize (H1 r Hr)|specialize (H2 r Hr)];
      rewrite !kwval_keywords in *; assumption.
  - intros H. split; [assumption|].
    assert (Y : forall r t_0 t_in, 0 <= t_0 -> ~ pinned c r ->
      In r (isoscalar_resonances k ++ isovector_resonances k) -> In ("mass_" ++ r)%string (class_names c) ->
      maximal_bounds_of c d ("mass_" ++ r) = (Fin (sqrt t_0), PosInf) ->
      resonance_accepted t_0 t_in (val d ("mass_" ++ r)) (val d ("decay_rate_" ++ r))).
    { intros r t_0 t_in P0 NP Hr Mc Mb. destruct (kaon_mass_bound c k d r F) as (_ & _ & D).
      destruct (D Hr) as [Dc Db].
      assert (NM : ~ In ("mass_" ++ r)%string (must_stay_fixed c)) by (intros Q; apply NP; now left).
      assert (NDr : ~ In ("decay_rate_" ++ r)%string (must_stay_fixed c)) by (intros Q; apply NP; now right).
      assert (M := V _ Mc NM). assert (G := V _ Dc NDr). rewrite Mb in M. rewrite Db in G.
      destruct M as [M _], G as [G _]. simpl in M, G. destruct (above_sqrt _ _ P0 M) as [M1 M2].
      split; [lra|]. split; [|intros _]; now apply pole_not_real. }
    split; (split; [lra|]); (split; [lra|]); intros r Hr; rewrite !kwval_keywords;
      destruct (kaon_mass_bound c k d r F) as (MS & MV & _).
    + destruct (pinned_dec c r) as [P|P]; [now apply (H r P)|].
      apply Y; try assumption; [apply in_or_app; now left|now apply MS|now apply MS].
    + destruct (pinned_dec c r) as [P|P]; [now apply (H r P)|].
      apply Y; try assumption; [apply in_or_app; now right|now apply MV|now apply MV].
Qed.
Print Assumptions C25_kaon_inside_bounds.

(** The two classes that fit every mass and width accept every point strictly inside the maximal bounds. *)
Theorem C25_kaon_inside_bounds_accepted : forall c d, c = PKaon \/ c = PKaonSimplified -> reachable c d ->
  inside_maximal c d -> is_ok (get_ff_model c d).
Proof.
  intros c d H R I.
  assert (F : exists k, family_of c = FKaon k) by (destruct H; subst; eexists; reflexivity). destruct F as [k F].
  apply (C25_kaon_inside_bounds c k d F R I). intros r P. exfalso.
  assert (Q : forall s, In s thresholds_kaon -> prefix "t_0" s = true).
  { intros s [<-|[<-|[]]]; reflexivity. }
  assert (E : must_stay_fixed c = thresholds_kaon) by (destruct H; subst; reflexivity).
  unfold pinned in P. rewrite E in P. destruct P as [P|P]; apply Q in P; discriminate P.
Qed.
Print Assumptions C25_kaon_inside_bounds_accepted.

(** ** Nucleons *)

(** A list of constructions that either succeed or raise a ValueError. *)
Definition ok_or_value_error {A : Type} (r : Res A) : Prop := is_ok r \/ r = Err ValueError.

Lemma mapM_ok_or : forall (A B : Type) (f : A -> Res B) l, (forall x, In x l -> ok_or_value_error (f x)) ->
  ok_or_value_error (mapM f l).
Proof.
  induction l as [|x l IH]; intros H; [left; eexists; reflexivity|]. cbn [mapM].
  destruct (H x (or_introl eq_refl)) as [[y ->]| ->]; [|right; reflexivity]. cbn [bind].
  destruct IH as [[ys ->]| ->]; [intros; apply H; now right| |right; reflexivity].
  left. eexists. reflexivity.
Qed.

Lemma bind_ok_or : forall (A B : Type) (r : Res A) (f : A -> Res B), ok_or_value_error r ->
  (forall x, ok_or_value_error (f x)) -> ok_or_value_error (x <- r ;; f x).
Proof. intros A B r f [[x ->]| ->] H; [apply H|right; reflexivity]. Qed.

Lemma nucleon_build_value_error : forall t_0 t_in m g, 0 <= t_0 < t_in -> 0 < m -> 0 < g ->
  ok_or_value_error (build_component_nucleon t_0 t_in m g).
Proof.
  intros t_0 t_in m g V M G.
  assert (Q : forall x, meson_pole m g <> RtoC x) by (intros x; rewrite resonance_pole_eq; now apply pole_not_real).
  destruct (Rlt_dec (Re (meson_pole m g)) t_0) as [L|L].
  - right. unfold build_component_nucleon. rewrite MapTW_init_ok by lra. simpl. fold (tw t_0 t_in).
    rewrite Map_call_ok by (apply V || (apply (zero_neq_tin t_0 t_in); apply V)). simpl.
    rewrite Map_call_ok by (apply V || apply Q). simpl. destruct (Rlt_dec (Re (meson_pole m g)) t_0); [reflexivity|contradiction].
  - left. apply build_component_nucleon_ok_iff; [assumption|]. unfold accept_resonance_nucleon.
    rewrite <- Re_meson_pole. split; [lra|]. split; apply Q.
Qed.

Lemma nucleon_bounds : forall d s r, In r (iso_names s) ->
  (In ("mass_" ++ r)%string (class_names PNucleon) /\ ~ In ("mass_" ++ r)%string (must_stay_fixed PNucleon) /\
   maximal_bounds_of PNucleon d ("mass_" ++ r) =
     (Fin (Rmax (sqrt (bp0 (val d) s true)) (sqrt (bp0 (val d) s false))), PosInf)) /\
  (In ("decay_rate_" ++ r)%string (class_names PNucleon) /\ ~ In ("decay_rate_" ++ r)%string (must_stay_fixed PNucleon) /\
   maximal_bounds_of PNucleon d ("decay_rate_" ++ r) = (Fin 0, PosInf)).
Proof.
  intros d s r H. destruct s; cbn in H; repeat (destruct H as [<-|H]; [
    split; (split; [apply mem_In; reflexivity|]); (split; [|reflexivity]);
    intros Q; cbn in Q; repeat (destruct Q as [Q|Q]; [discriminate Q|]); contradiction|]); contradiction.
Qed.

Lemma nucleon_t_in_bound : forall d s e,
  In (("t_in_" ++ ff_name e ++ "_" ++ iso_name s)%string) (class_names PNucleon) /\
  ~ In (("t_in_" ++ ff_name e ++ "_" ++ iso_name s)%string) (must_stay_fixed PNucleon) /\
  maximal_bounds_of PNucleon d ("t_in_" ++ ff_name e ++ "_" ++ iso_name s) = (Fin (bp0 (val d) s e), PosInf).
Proof.
  intros d [] []; (split; [apply mem_In; reflexivity|]); (split; [|reflexivity]);
    intros Q; cbn in Q; repeat (destruct Q as [Q|Q]; [discriminate Q|]); contradiction.
Qed.

(** Strictly inside the maximal bounds the nucleon model is built exactly when no resonance is so wide that the real part
    of its pole, m^2 - g^2/4, falls below one of the thresholds of its isospin; otherwise a ValueError is raised. *)
Definition narrow_enough (d : data) : Prop :=
  let ok t_0 r := val d t_0 <= val d ("mass_" ++ r) * val d ("mass_" ++ r)
                                - val d ("decay_rate_" ++ r) * val d ("decay_rate_" ++ r) / 4 in
  (forall r, In r isoscalar_mesons -> ok "t_0_dirac_isoscalar" r /\ ok "t_0_pauli_isoscalar" r) /\
  (forall r, In r isovector_mesons -> ok "t_0_dirac_isovector" r /\ ok "t_0_pauli_isovector" r).

Lemma inside_nucleon : forall d, reachable PNucleon d -> inside_maximal PNucleon d ->
  forall s e, 0 <= bp0 (val d) s e < bpin (val d) s e /\
    forall r, In r (iso_names s) -> 0 < val d ("mass_" ++ r) /\ 0 < val d ("decay_rate_" ++ r) /\
      bp0 (val d) s e < val d ("mass_" ++ r) * val d ("mass_" ++ r).
Proof.
  intros d R I s e. assert (T := inside_thresholds _ d R I). assert (V := inside_values _ d R I).
  assert (TP : forall s' e', 0 <= bp0 (val d) s' e').
  { intros [] []; apply T; cbn; tauto. }
  destruct (nucleon_t_in_bound d s e) as (B1 & B2 & B3). assert (B := V _ B1 B2). rewrite B3 in B. destruct B as [B _]. simpl in B.
  split; [split; [apply TP|exact B]|]. intros r Hr.
  destruct (nucleon_bounds d s r Hr) as [(M1 & M2 & M3) (G1 & G2 & G3)].
  assert (M := V _ M1 M2). rewrite M3 in M. destruct M as [M _]. simpl in M.
  assert (G := V _ G1 G2). rewrite G3 in G. destruct G as [G _]. simpl in G.
  assert (L := Rmax_l (sqrt (bp0 (val d) s true)) (sqrt (bp0 (val d) s false))).
  assert (L' := Rmax_r (sqrt (bp0 (val d) s true)) (sqrt (bp0 (val d) s false))).
  assert (Q : sqrt (bp0 (val d) s e) < val d ("mass_" ++ r)) by (destruct e; lra).
  destruct (above_sqrt _ _ (TP s e) Q) as [Q1 Q2]. auto.
Qed.

Lemma get_ff_model_nucleon : forall d, reachable PNucleon d ->
  get_ff_model PNucleon d = (mc <- Nucleon_init NucleonUAModel true true (keywords d) ;; Ok (FFNucleon (fst mc) (snd mc))).
Proof.
  intros d R. apply reachable_inv in R. assert (ND := inv_names_NoDup _ d R).
  unfold get_ff_model. now rewrite (dict_of_keywords d ND).
Qed.

Theorem C25_nucleon_inside_bounds : forall d, reachable PNucleon d -> inside_maximal PNucleon d ->
  (narrow_enough d -> is_ok (get_ff_model PNucleon d)) /\
  (~ narrow_enough d -> get_ff_model PNucleon d = Err ValueError).
Proof.
  intros d R I. rewrite (get_ff_model_nucleon d R). assert (X := inside_nucleon d R I).
  assert (K := C26_store_matches_model _ d R). cbn [family_of] in K.
  change NucleonUAModel with (nucleon_class New).
  assert (IFF : is_ok (Nucleon_init (nucleon_class New) true true (keywords d)) <-> narrow_enough d).
  { rewrite C25_nucleon_accepts_iff. unfold nucleon_sector_accepted, narrow_enough. rewrite !kwval_keywords.
    cbn [nucleon_resonance_accepted]. split.
    - intros (_ & (_ & _ & H1) & (_ & _ & H2) & (_ & _ & H3) & (_ & _ & H4)).
      split; intros r Hr; [specialize (H1 r Hr); specialize (H3 r Hr)|specialize (H2 r Hr); specialize (H4 r Hr)];
        rewrite !kwval_keywords in *; split; tauto.
    - intros [H1 H2]. split; [assumption|].
      assert (Z : forall s e r, In r (iso_names s) ->
        bp0 (val d) s e <= val d ("mass_" ++ r) * val d ("mass_" ++ r) - val d ("decay_rate_" ++ r) * val d ("decay_rate_" ++ r) / 4 ->
        forall x, resonance_pole (val d ("mass_" ++ r)) (val d ("decay_rate_" ++ r)) <> RtoC x).
      { intros s e r Hr _ x. destruct (X s e) as [_ Y]. destruct (Y r Hr) as (Y1 & Y2 & _). now apply pole_not_real. }
      assert (B1 := proj1 (X true true)). assert (B2 := proj1 (X false true)).
      assert (B3 := proj1 (X true false)). assert (B4 := proj1 (X false false)).
      unfold bp0, bpin in B1, B2, B3, B4.
      change ("t_0_" ++ ff_name true ++ "_" ++ iso_name true)%string with "t_0_dirac_isoscalar" in B1.
      change ("t_in_" ++ ff_name true ++ "_" ++ iso_name true)%string with "t_in_dirac_isoscalar" in B1.
      change ("t_0_" ++ ff_name true ++ "_" ++ iso_name false)%string with "t_0_dirac_isovector" in B2.
      change ("t_in_" ++ ff_name true ++ "_" ++ iso_name false)%string with "t_in_dirac_isovector" in B2.
      change ("t_0_" ++ ff_name false ++ "_" ++ iso_name true)%string with "t_0_pauli_isoscalar" in B3.
      change ("t_in_" ++ ff_name false ++ "_" ++ iso_name true)%string with "t_in_pauli_isoscalar" in B3.
      change ("t_0_" ++ ff_name false ++ "_" ++ iso_name false)%string with "t_0_pauli_isovector" in B4.
      change ("t_in_" ++ ff_name false ++ "_" ++ iso_name false)%string with "t_in_pauli_isovector" in B4.
      split; [|split; [|split]]; (split; [lra|]); (split; [lra|]); intros r Hr; rewrite !kwval_keywords.
      + destruct (H1 r Hr) as [A _]. split; [exact A|]. split; exact (Z true true r Hr A _).
      + destruct (H2 r Hr) as [A _]. split; [exact A|]. split; exact (Z false true r Hr A _).
      + destruct (H1 r Hr) as [_ A]. split; [exact A|]. split; exact (Z true false r Hr A _).
      + destruct (H2 r Hr) as [_ A]. split; [exact A|]. split; exact (Z false false r Hr A _). }
  split.
  - intros N. apply IFF in N. destruct N as [mc ->]. eexists. reflexivity.
  - intros N.
    assert (OV : ok_or_value_error (Nucleon_init (nucleon_class New) true true (keywords d))).
    { assert (PK : is_ok (bind_kwargs (nc_formals (nucleon_class New)) (keywords d))).
      { apply bind_kwargs_ok_iff; [apply nucleon_formals_NoDup|].
        eapply Permutation_trans; [exact K|apply nucleon_keywords_formals]. }
      destruct PK as [args E]. destruct (assign_identity New args (keywords d) E) as [attrs [E2 HA]].
      unfold Nucleon_init. rewrite E. cbn [bind]. rewrite E2. cbn [bind].
      assert (HA' : forall n, mem n NucleonUAModel_formals = true -> attr attrs n = Ok (val d n)).
      { intros n Hn. rewrite <- kwval_keywords. now apply HA. }
      assert (M : forall s e, nucleon_map attrs (ff_name e ++ "_" ++ iso_name s) = Ok (the_map (val d) s e)).
      { intros s e. apply nucleon_map_ok; [assumption|]. destruct (X s e) as [Y _]. lra. }
      assert (M1 := M true true). assert (M2 := M false true). assert (M3 := M true false). assert (M4 := M false false).
      change (ff_name true ++ "_" ++ iso_name true)%string with "dirac_isoscalar" in M1. rewrite M1. cbn [bind].
      change (ff_name true ++ "_" ++ iso_name false)%string with "dirac_isovector" in M2. rewrite M2. cbn [bind].
      change (ff_name false ++ "_" ++ iso_name true)%string with "pauli_isoscalar" in M3. rewrite M3. cbn [bind].
      change (ff_name false ++ "_" ++ iso_name false)%string with "pauli_isovector" in M4. rewrite M4. cbn [bind].
      destruct (nucleon_names New) as [NS NV]. rewrite NS, NV.
      assert (CO : forall s e, ok_or_value_error (nucleon_init_components (nucleon_class New) attrs (ff_name e) (iso_name s) (iso_names s))).
      { intros s e. unfold nucleon_init_components. apply mapM_ok_or. intros r Hr.
        destruct (in_iso_names s r Hr) as [F1 F2]. destruct (bp_names s e) as [G1 G2].
        rewrite (HA' _ F1), (HA' _ F2), (HA' _ G1), (HA' _ G2). cbn [bind].
        destruct (X s e) as [Y1 Y2]. destruct (Y2 r Hr) as (Y3 & Y4 & _).
        apply bind_ok_or; [|intros; left; eexists; reflexivity].
        exact (nucleon_build_value_error _ _ _ _ Y1 Y3 Y4). }
      apply bind_ok_or; [exact (CO true true)|intros c1].
      apply bind_ok_or; [exact (CO false true)|intros c2].
      apply bind_ok_or; [exact (CO true false)|intros c3].
      apply bind_ok_or; [exact (CO false false)|intros c4].
      left. eexists. reflexivity. }
    destruct OV as [O|O]; [exfalso; apply N, IFF, O|]. now rewrite O.
Qed.
Print Assumptions C25_nucleon_inside_bounds.

(** ** The points an optimiser may try *)

Lemma fill_free_value : forall d xs p, NoDup (names d) -> In p d -> par_fixed p = false -> length xs = count_free d ->
  exists k x, nth_error (filter (fun p => negb (par_fixed p)) d) k = Some p /\ nth_error xs k = Some x /\
    val (fill d xs) (par_name p) = x.
Proof.
  unfold count_free, is_free. induction d as [|q d IH]; intros xs p ND Hp Fp L; [contradiction|].
  simpl in ND. apply NoDup_cons_iff in ND. destruct ND as [NI ND]. simpl in L. simpl. destruct Hp as [->|Hp].
  - rewrite Fp in *. simpl in L. simpl. destruct xs as [|x xs]; [discriminate|]. exists 0%nat, x. simpl. rewrite String.eqb_refl. auto.
  - assert (NE : String.eqb (par_name q) (par_name p) = false).
    { apply String.eqb_neq. intros E. apply NI. rewrite E. now apply in_map. }
    destruct (par_fixed q) eqn:Fq; simpl in L; simpl.
    + destruct (IH xs p ND Hp Fp L) as [k [x [A [B C]]]]. exists k, x. rewrite NE. auto.
    + destruct xs as [|y xs]; [discriminate|]. simpl in L. injection L as L.
      destruct (IH xs p ND Hp Fp L) as [k [x [A [B C]]]]. exists (S k), x. simpl. rewrite NE. auto.
Qed.

Lemma val_member : forall d p, NoDup (names d) -> In p d -> val d (par_name p) = par_value p.
Proof.
  induction d as [|q d IH]; intros p ND Hp; [contradiction|]. simpl in ND. apply NoDup_cons_iff in ND. destruct ND as [NI ND].
  simpl. destruct Hp as [->|Hp]; [now rewrite String.eqb_refl|].
  destruct (String.eqb_spec (par_name q) (par_name p)) as [E|E]; [|now apply IH].
  exfalso. apply NI. rewrite E. now apply in_map.
Qed.

Lemma same_member : forall d p q, NoDup (names d) -> In p d -> In q d -> par_name p = par_name q -> p = q.
Proof.
  induction d as [|r d IH]; intros p q ND Hp Hq E; [contradiction|]. simpl in ND. apply NoDup_cons_iff in ND. destruct ND as [NI ND].
  destruct Hp as [->|Hp], Hq as [->|Hq]; [reflexivity| | |now apply IH].
  - exfalso. apply NI. rewrite E. now apply in_map.
  - exfalso. apply NI. rewrite <- E. now apply in_map.
Qed.

(** Every parameter of the maximal table belongs to the class. *)
Lemma table_name : forall c d n b, lookup (fullT c false d) n = Some b -> In n (class_names c).
Proof.
  intros c d n b Lb.
  assert (Q : forallb (fun m => mem m (class_names c)) (map fst (ct_maximal (table c))) = true) by (destruct c; vm_compute; reflexivity).
  rewrite forallb_forall in Q. apply mem_In, Q.
  unfold fullT, boundsT in Lb. apply lookup_In in Lb. apply (in_map fst) in Lb. rewrite map_map in Lb. exact Lb.
Qed.

(** Any list of values strictly between the maximal bounds handed to the optimiser, written into a store whose fixed
    parameters are inside as well, gives a store strictly inside the maximal bounds. *)
Lemma fit_point_inside : forall c d xs lo up, reachable c d -> get_bounds c false d = Ok (lo, up) ->
  (forall p, In p d -> par_fixed p = true -> ~ In (par_name p) (must_stay_fixed c) ->
     strictly_between (maximal_bounds_of c d (par_name p)) (par_value p)) ->
  length xs = length lo ->
  (forall k x a b, nth_error xs k = Some x -> nth_error lo k = Some a -> nth_error up k = Some b -> strictly_between (a, b) x) ->
  exists d', update_free_values xs d = (Ok tt, d') /\ reachable c d' /\ inside_maximal c d'.
Proof.
  intros c d xs lo up R E FX L B. assert (I := reachable_inv c d R). assert (ND := inv_names_NoDup c d I).
  assert (T : forall n, In n (threshold_parameters c) -> 0 <= val d n).
  { intros n Hn. destruct (Rle_lt_dec 0 (val d n)) as [W|W]; [assumption|].
    rewrite (proj2 (C06_raises_exactly c false d ValueError R)) in E; [discriminate|]. eauto. }
  destruct (C06_bounds_aligned c false d R (fun _ => T)) as [lo' [up' [E' [L1 [L2 A]]]]].
  rewrite E in E'. injection E' as <- <-.
  assert (LX : length xs = count_free d) by (unfold count_free, is_free; congruence).
  exists (fill d xs). split; [now apply update_free_ok|].
  assert (RF : reachable c (fill d xs)).
  { assert (H := reach_step c d (MUpdateFree xs) R). simpl in H. now rewrite update_free_ok in H. }
  split; [assumption|].
  assert (V : forall n, In n (always_fixed c) -> val (fill d xs) n = val d n).
  { intros n Hn. apply fill_val_fixed. intros p Hp Ep. apply (proj2 I); [exact Hp|now rewrite Ep]. }
  assert (I' := reachable_inv c _ RF).
  exists (fullT c false d). split.
  { rewrite <- (fullT_agree c false (fill d xs) d V). apply full_bounds_total; [exact (proj1 I')|].
    intros _ n Hn. rewrite V by now apply sqrt_names_fixed. apply T. now apply thresholds_eq. }
  intros n b Hn Lb. assert (Hd : In n (names d)) by (rewrite (proj1 I); eapply table_name; exact Lb).
  unfold names in Hd. apply in_map_iff in Hd. destruct Hd as [p [<- Hp]].
  assert (Hc : In (par_name p) (class_names c)) by (rewrite <- (proj1 I); now apply in_map).
  assert (Ha : ~ In (par_name p) (always_fixed c)) by now rewrite <- must_stay_fixed_eq.
  rewrite (maximal_table c d (par_name p) Hc Ha) in Lb. injection Lb as <-.
  destruct (par_fixed p) eqn:Fp.
  - assert (EV : val (fill d xs) (par_name p) = par_value p).
    { rewrite fill_val_fixed; [now apply val_member|]. intros q Hq Eq. now rewrite (same_member d q p ND Hq Hp Eq). }
    rewrite EV. now apply FX.
  - destruct (fill_free_value d xs p ND Hp Fp LX) as [k [x [K1 [K2 ->]]]].
    destruct (A k p K1) as [a [b [A1 [A2 [_ [A3 _]]]]]]. rewrite <- (A3 eq_refl). eapply B; eassumption.
Qed.

(** Whatever values strictly between the maximal bounds the optimiser tries, the kaon model is built. *)
Theorem C25_kaon_fit_points_accepted : forall c d xs lo up, c = PKaon \/ c = PKaonSimplified -> reachable c d ->
  get_bounds c false d = Ok (lo, up) ->
  (forall p, In p d -> par_fixed p = true -> ~ In (par_name p) (must_stay_fixed c) ->
     strictly_between (maximal_bounds_of c d (par_name p)) (par_value p)) ->
  length xs = length lo ->
  (forall k x a b, nth_error xs k = Some x -> nth_error lo k = Some a -> nth_error up k = Some b -> strictly_between (a, b) x) ->
  exists d', update_free_values xs d = (Ok tt, d') /\ is_ok (get_ff_model c d').
Proof.
  intros c d xs lo up H R E FX L B. destruct (fit_point_inside c d xs lo up R E FX L B) as [d' [U [R' I']]].
  exists d'. split; [assumption|]. now apply C25_kaon_inside_bounds_accepted.
Qed.
Print Assumptions C25_kaon_fit_points_accepted.

(** ** Concrete stores *)

#[local] Arguments String.append _ _ : simpl nomatch.

Definition demo_inside (c : param_class) (g : R) : data :=
  built (table c) (map (fun n => (n, demo_value (1/3) g n)) (class_names c)).

Lemma demo_inside_reachable : forall c g, reachable c (demo_inside c g).
Proof.
  intros c g. eapply reach_init. apply construct_iff. split; [|reflexivity]. rewrite map_map, map_id. reflexivity.
Qed.

Lemma demo_inside_eq : forall c g,
  demo_inside c g = map (fun s => mkPar (set_name s) (demo_value (1/3) g (set_name s)) (snd s)) (ct_setup (table c)).
Proof.
  intros c g. unfold demo_inside, built. apply map_ext_in. intros s Hs. f_equal. unfold kwval. rewrite lookup_map_pair; [reflexivity|].
  unfold class_names. now apply in_map.
Qed.

Lemma demo_inside_free : forall c g g', get_free_values (demo_inside c g) =
  map (fun p => demo_value (1/3) g (par_name p)) (filter (fun p => negb (par_fixed p)) (demo_inside c g')).
Proof.
  intros c g g'. rewrite !demo_inside_eq. unfold get_free_values. induction (ct_setup (table c)) as [|s l IH]; [reflexivity|].
  simpl. destruct (snd s); simpl; [exact IH|]. now rewrite IH.
Qed.

Lemma demo_inside_val : forall c g n, In n (class_names c) -> val (demo_inside c g) n = demo_value (1/3) g n.
Proof.
  intros c g n H.
  assert (E := demo_inside_eq c g).
  assert (R := demo_inside_reachable c g). apply reachable_inv in R. assert (ND := inv_names_NoDup _ _ R).
  unfold class_names in H. apply in_map_iff in H. destruct H as [s [<- Hs]].
  assert (M : In (mkPar (set_name s) (demo_value (1/3) g (set_name s)) (snd s)) (demo_inside c g)).
  { rewrite E. apply in_map_iff. exists s. auto. }
  apply val_member in M; [|assumption]. exact M.
Qed.

Lemma demo_inside_inside : forall c g, c = PKaon \/ c = PKaonSimplified \/ c = PNucleon -> 0 < g ->
  inside_maximal c (demo_inside c g).
Proof.
  intros c g H G. assert (R := demo_inside_reachable c g). apply reachable_inv in R.
  assert (T : forall n, In n (threshold_parameters c) -> val (demo_inside c g) n = 1).
  { intros n Hn. assert (P : In n (class_names c) /\ demo_value (1/3) g n = 1).
    { destruct H as [->|[->| ->]]; cbn in Hn; repeat (destruct Hn as [<-|Hn]; [split; [apply mem_In; reflexivity|reflexivity]|]); contradiction. }
    rewrite demo_inside_val; apply P. }
  exists (fullT c false (demo_inside c g)). split.
  { apply full_bounds_total; [exact (proj1 R)|]. intros _ n Hn. rewrite T by now apply thresholds_eq. lra. }
  intros n b Hn Lb. assert (Hc := table_name _ _ _ _ Lb).
  rewrite maximal_table in Lb; [|assumption|now rewrite <- must_stay_fixed_eq]. injection Lb as <-.
  rewrite (demo_inside_val c g n Hc).
  assert (Q : Forall (fun n => In n (must_stay_fixed c) \/
                strictly_between (maximal_bounds_of c (demo_inside c g) n) (demo_value (1/3) g n)) (class_names c)).
  { clear Hn Hc n. revert T. generalize (demo_inside c g). intros d T.
    destruct H as [->|[->| ->]];
      repeat match goal with T : forall n, In n (threshold_parameters _) -> _ |- _ =>
        pose proof (T "t_0_isoscalar"); pose proof (T "t_0_isovector"); pose proof (T "t_0_dirac_isoscalar");
        pose proof (T "t_0_dirac_isovector"); pose proof (T "t_0_pauli_isoscalar"); pose proof (T "t_0_pauli_isovector"); clear T end;
      cbn [threshold_parameters thresholds_kaon In] in *;
      repeat match goal with H : _ \/ _ -> _ |- _ => first [specialize (H ltac:(tauto))|clear H] end;
      repeat (apply Forall_cons; [first [left; apply mem_In; reflexivity|right; split; cbn;
        repeat match goal with H : val d _ = 1 |- _ => rewrite H end; rewrite ?sqrt_1, ?Rmax_left by lra; first [exact I|lra]]|]); apply Forall_nil. }
  rewrite Forall_forall in Q. destruct (Q n Hc) as [C|C]; [contradiction|exact C].
Qed.

(** A point strictly inside the maximal bounds that the nucleon model rejects. *)
Theorem C25_nucleon_inside_bounds_rejected : exists d, reachable PNucleon d /\ inside_maximal PNucleon d /\
  get_ff_model PNucleon d = Err ValueError.
Proof.
  exists (demo_inside PNucleon 10). assert (R := demo_inside_reachable PNucleon 10).
  assert (I : inside_maximal PNucleon (demo_inside PNucleon 10)) by (apply demo_inside_inside; [tauto|lra]).
  split; [assumption|]. split; [assumption|]. apply (C25_nucleon_inside_bounds _ R I).
  intros [N _]. destruct (N "omega" (or_introl eq_refl)) as [A _].
  rewrite !demo_inside_val in A by (apply mem_In; reflexivity). cbn in A. lra.
Qed.
Print Assumptions C25_nucleon_inside_bounds_rejected.

(** Acceptance inside the bounds: a kaon store with wide resonances, a nucleon store with narrow ones. *)
Example C25_inside_instance : is_ok (get_ff_model PKaon (demo_inside PKaon 10)) /\
  is_ok (get_ff_model PKaonSimplified (demo_inside PKaonSimplified 10)) /\
  is_ok (get_ff_model PNucleon (demo_inside PNucleon 1)).
Proof.
  split; [|split].
  - apply C25_kaon_inside_bounds_accepted; [tauto|apply demo_inside_reachable|apply demo_inside_inside; [tauto|lra]].
  - apply C25_kaon_inside_bounds_accepted; [tauto|apply demo_inside_reachable|apply demo_inside_inside; [tauto|lra]].
  - apply (C25_nucleon_inside_bounds _ (demo_inside_reachable PNucleon 1)); [apply demo_inside_inside; [tauto|lra]|].
    split; intros r Hr; cbn in Hr;
      repeat (destruct Hr as [<-|Hr]; [rewrite !demo_inside_val by (apply mem_In; reflexivity); cbn; lra|]); contradiction.
Qed.

(** The starting point itself is a list of values an optimiser may try. *)
Example C25_fit_instance : exists lo up d', get_bounds PKaon false (demo_inside PKaon 10) = Ok (lo, up) /\
  update_free_values (get_free_values (demo_inside PKaon 7)) (demo_inside PKaon 10) = (Ok tt, d') /\
  is_ok (get_ff_model PKaon d').
Proof.
  assert (R := demo_inside_reachable PKaon 10).
  assert (T : forall n, In n (threshold_parameters PKaon) -> 0 <= val (demo_inside PKaon 10) n).
  { intros n [<-|[<-|[]]]; rewrite demo_inside_val by (apply mem_In; reflexivity); cbn; lra. }
  destruct (C06_bounds_aligned PKaon false _ R (fun _ => T)) as [lo [up [E [L1 [L2 A]]]]].
  assert (I7 : inside_maximal PKaon (demo_inside PKaon 7)) by (apply demo_inside_inside; [tauto|lra]).
  assert (V7 := inside_values _ _ (demo_inside_reachable PKaon 7) I7).
  destruct (C25_kaon_fit_points_accepted PKaon (demo_inside PKaon 10) (get_free_values (demo_inside PKaon 7)) lo up)
    as [d' [U O]]; try assumption; [tauto| | | |].
  - intros p Hp Fp Hn. exfalso. apply Hn.
    assert (Q : forallb (fun p => orb (negb (par_fixed p)) (mem (par_name p) (must_stay_fixed PKaon))) (demo_inside PKaon 10) = true)
      by reflexivity.
    rewrite forallb_forall in Q. specialize (Q p Hp). rewrite Fp in Q. now apply mem_In.
  - rewrite L1, (demo_inside_free PKaon 7 10). apply map_length.
  - intros k x a b Hx Ha Hb.
    assert (HP : exists p, nth_error (filter (fun p => negb (par_fixed p)) (demo_inside PKaon 10)) k = Some p).
    { destruct (nth_error (filter _ _) k) as [p|] eqn:N; [eauto|]. apply nth_error_None in N. rewrite <- L1 in N.
      apply nth_error_None in N. congruence. }
    destruct HP as [p Hp]. destruct (A k p Hp) as [a' [b' [A1 [A2 [_ [A3 _]]]]]].
    rewrite Ha in A1. rewrite Hb in A2. injection A1 as <-. injection A2 as <-. rewrite (A3 eq_refl).
    assert (HQ : x = demo_value (1/3) 7 (par_name p) /\ In (par_name p) (class_names PKaon) /\ ~ In (par_name p) (must_stay_fixed PKaon)).
    { rewrite (demo_inside_free PKaon 7 10) in Hx. erewrite map_nth_error in Hx by exact Hp. injection Hx as <-. split; [reflexivity|].
      apply nth_error_In in Hp. apply filter_In in Hp. destruct Hp as [Hp Fp]. rewrite negb_true_iff in Fp.
      assert (I := reachable_inv _ _ R). split; [rewrite <- (proj1 I); now apply in_map|].
      rewrite must_stay_fixed_eq. intros Q. rewrite (proj2 I p Hp Q) in Fp. discriminate Fp. }
    destruct HQ as (-> & Hc & Hn). specialize (V7 _ Hc Hn). rewrite demo_inside_val in V7 by assumption.
    assert (EQ : Forall (fun n => maximal_bounds_of PKaon (demo_inside PKaon 10) n = maximal_bounds_of PKaon (demo_inside PKaon 7) n)
      (class_names PKaon)) by (repeat (apply Forall_cons; [reflexivity|]); apply Forall_nil).
    rewrite Forall_forall in EQ. now rewrite (EQ _ Hc).
  - exists lo, up, d'. auto.
Qed.
