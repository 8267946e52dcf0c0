(** C62: the script that draws one fit of the charged form factor and looks for oscillations around it. *)
From Coq Require Import String Ascii Reals ZArith List Bool Arith Lia Lra QArith Qreals Permutation Sorted.
From Verif Require Import PyBase CNum PyExpr UAModels Params ParamClasses ParamSpec ParamProofs PropsParams CrossSections PropsCross CommonUtils
  ExprProofs KaonProofs KaonSpec PropsKaon UtilsSpec UtilsProofs Scripts World WorldSpec WorldProofs DataSets PropsScripts PropsData Task TaskSpec TaskProofs PropsTask
  Balls Enclose EncloseCS UnitTests UnitChecks PropsEnclose PropsResidual Pipeline FitScripts PropsMeasurements PropsResonances
  SingleFits PropsSingleFits PropsSinglePlot PlotFit.
Import ListNotations.
Local Open Scope R_scope.
Local Open Scope string_scope.
Local Open Scope list_scope.

#[local] Arguments String.append : simpl never.

(** ** Specification *)

(** The parameters of the fit: numerator and number of decimal places. *)
Definition listed : list (string * (Z * Z)) :=
  [ ("t_0_isoscalar", (17531904388276887, 17));
    ("t_0_isovector", (7791957505900839, 17));
    ("t_in_isoscalar", (32291595069331067, 16));
    ("t_in_isovector", (5835126419012053, 16));
    ("a_omega", (32729801061391034, 17));
    ("mass_omega", (78266, 5));
    ("decay_rate_omega", (868, 5));
    ("a_omega_double_prime", (-1322560747876571, 16));
    ("mass_omega_double_prime", (167, 2));
    ("decay_rate_omega_double_prime", (315, 3));
    ("a_phi", (33178701236457975, 17));
    ("mass_phi", (10190536833008472, 16));
    ("decay_rate_phi", (4229702507790191, 18));
    ("a_phi_prime", (8303027600714324, 17));
    ("mass_phi_prime", (30321618703565654, 16));
    ("decay_rate_phi_prime", (17409626508527738, 16));
    ("mass_phi_double_prime", (1984329537423646, 15));
    ("decay_rate_phi_double_prime", (6816716770166859, 16));
    ("a_rho", (5456549089807899, 16));
    ("mass_rho", (76388, 5));
    ("decay_rate_rho", (14428, 5));
    ("a_rho_prime", (-3127769956987407, 17));
    ("mass_rho_prime", (132635, 5));
    ("decay_rate_rho_prime", (32413, 5));
    ("mass_rho_double_prime", (177054, 5));
    ("decay_rate_rho_double_prime", (26898, 5)) ]%Z.

Definition fit_store : data := map (fun x => mkPar (fst x) (dec (fst (snd x)) (snd (snd x))) true) listed.

(** The form factor of the charged kaon with these parameters. *)
Definition form_factor (t : R) : Res C := kaon_value ReducedB true (keywords fit_store) (RtoC t).
Definition modulus (t : R) : R := match form_factor t with Ok v => Cabs v | Err _ => 0 end.

Definition t_in_s : R := dec 32291595069331067 16.
Definition t_in_v : R := dec 5835126419012053 16.
Definition drawable (t : R) : Prop := 0 <= t /\ t <> t_in_s /\ t <> t_in_v.

(** Constants of the configuration, and the threshold of the pair of kaons. *)
Definition kaon_mass : R := dec 493677 6.
Definition fine_structure : R := dec 72973525693 13.
Definition conversion : R := dec 3893793721 4.
Definition pair_threshold : R := 4 * kaon_mass^2.

Definition cross_section (t : R) : R := sigma_scalar kaon_mass fine_structure conversion t (modulus t).

Definition printed (o : Oracle) : list event :=
  [EvPrint ("[" ++ o_str o (modulus 8) ++ "]"); EvPrint ("[" ++ o_str o (cross_section 8) ++ "]")].

Definition charged_point (x : Measurement) : datapoint := KaonDatapoint (RtoC (me_t x)) true.

(** ** The parameters *)

Lemma listed_store : exists d0, from_list PKaonB plot_fit_listed = Ok d0 /\ all_fixed d0 = fit_store.
Proof. eexists. split; reflexivity. Qed.

Lemma fit_reachable : reachable PKaonB fit_store.
Proof.
  destruct listed_store as (d0 & E & <-). change (all_fixed d0) with (snd (mutate PKaonB MFixAll d0)). apply reach_step. eapply reach_from_list. exact E.
Qed.

Lemma fit_fixed : all_fixed fit_store = fit_store.
Proof. reflexivity. Qed.

(** The same numbers as rationals. *)
Definition rationals : list (string * Q) := map (fun x => (fst x, fst (snd x) # Z.to_pos (10 ^ snd (snd x)))%Q) listed.

Lemma rational_dec : forall z k, (0 <= k)%Z -> Q2R (z # Z.to_pos (10 ^ k))%Q = dec z k.
Proof. intros z k K. unfold Q2R, dec, Rdiv. cbn [Qnum Qden]. rewrite Z2Pos.id by (apply Z.pow_pos_nonneg; lia). reflexivity. Qed.

Lemma fit_keywords : keywords fit_store = env_of rationals.
Proof.
  unfold keywords, fit_store, env_of, rationals. rewrite !map_map. apply map_ext_in. intros x I. cbn [par_name par_value fst snd].
  rewrite rational_dec; [reflexivity|]. revert x I. apply Forall_forall. unfold listed. repeat (constructor; [cbn; lia|]). constructor.
Qed.

Definition on {A B} (x : option A) (y : B) (f : A -> B) : B := match x with Some a => f a | None => y end.

Definition ball_model : option bkaon := bkaon_init bKaonUAModelB true (benv_of rationals).
Definition ball_at_8 : option cball := on ball_model None (fun m => bkaon_call m (cb_q (inject_Z 8, 0%Q))).

(** |F(8)| lies between these many units of 10^-15. *)
Definition modulus_check : bool :=
  on ball_at_8 false (fun b =>
    ((129083558798119 * scale) * (129083558798119 * scale) <=? lo2 b * 10 ^ 30)%Z &&
    (hi2 b * 10 ^ 30 <=? (129083558798121 * scale) * (129083558798121 * scale))%Z).
Lemma modulus_checked : modulus_check = true. Proof. vm_compute. reflexivity. Qed.

Lemma model_built : exists m, Kaon_init (kaon_class ReducedB) true (keywords fit_store) = Ok m.
Proof.
  pose proof modulus_checked as H. unfold modulus_check, ball_at_8, ball_model, on in H.
  destruct quoted_classes as [_ [QC _]]. cbn [kaon_class]. rewrite <- QC, fit_keywords.
  pose proof (enc_kaon_init bKaonUAModelB true _ _ (enc_env_of rationals)) as K.
  destruct (bkaon_init bKaonUAModelB true (benv_of rationals)) as [b|]; [|discriminate H]. destruct K as [m [F _]]. now exists m.
Qed.

Lemma at_8 : exists b v, ball_at_8 = Some b /\ form_factor 8 = Ok v /\ inC b v.
Proof.
  pose proof modulus_checked as H. unfold modulus_check in H. unfold ball_at_8, ball_model, on in *. unfold form_factor, kaon_value. cbn [kaon_class].
  destruct quoted_classes as [_ [QC _]]. rewrite <- QC, fit_keywords.
  pose proof (enc_kaon_init bKaonUAModelB true _ _ (enc_env_of rationals)) as K.
  destruct (bkaon_init bKaonUAModelB true (benv_of rationals)) as [b|]; [|discriminate H]. destruct K as [m [F K]]. rewrite F. cbn [bind].
  pose proof (enc_kaon_call _ _ _ _ K (inC_q (inject_Z 8, 0%Q))) as V.
  destruct (bkaon_call b (cb_q (inject_Z 8, 0%Q))) as [r|]; [|discriminate H]. destruct V as (v & G & V).
  assert (T : QtoC (inject_Z 8, 0%Q) = RtoC 8) by (unfold QtoC, RtoC, Q2R; cbn; f_equal; lra). rewrite T in G.
  exists r, v. auto.
Qed.

Lemma modulus_8 : Rabs (modulus 8 - dec 129083558798120 15) <= dec 1 15.
Proof.
  destruct at_8 as (b & v & E & F & V). unfold modulus. rewrite F. pose proof modulus_checked as H. unfold modulus_check in H. rewrite E in H. cbn [on] in H.
  apply andb_prop in H as [H1 H2]. apply Z.leb_le in H1. apply Z.leb_le in H2. apply IZR_le in H1. apply IZR_le in H2.
  destruct (hi2_lo2 _ _ V) as [A1 A2]. pose proof scaleR_pos as S. pose proof (Cabs_nonneg v) as N.
  rewrite !mult_IZR in H1, H2. set (s := IZR scale) in *. set (c := Cabs v) in *. unfold dec. powers.
  let x := eval vm_compute in (10 ^ 30)%Z in change (10 ^ 30)%Z with x in H1, H2.
  set (l := IZR (lo2 b)) in *. set (h := IZR (hi2 b)) in *. clearbody s c l h.
  assert (U : forall x y, 0 <= x -> 0 <= y -> x * x <= y * y -> x <= y) by (intros x y X Y Q; nra).
  assert (L : 129083558798119 * s <= c * s * 10^15). { apply U; [nra|nra|]. replace (c * s * 10^15 * (c * s * 10^15)) with (c * s * (c * s) * 10^30) by ring. nra. }
  assert (G : c * s * 10^15 <= 129083558798121 * s). { apply U; [nra|nra|]. replace (c * s * 10^15 * (c * s * 10^15)) with (c * s * (c * s) * 10^30) by ring. nra. }
  assert (L' : 129083558798119 <= c * 10^15) by (apply Rmult_le_reg_r with s; [exact S|]; lra).
  assert (G' : c * 10^15 <= 129083558798121) by (apply Rmult_le_reg_r with s; [exact S|]; lra).
  apply Rabs_le. lra.
Qed.

Lemma threshold_values : 0 < kaon_mass < 1/2 /\ 97/100 < pair_threshold < 1 /\ 0 < fine_structure /\ 0 < conversion /\ pair_threshold < t_in_s /\ t_in_v < pair_threshold.
Proof. unfold pair_threshold, kaon_mass, fine_structure, conversion, t_in_s, t_in_v, dec. powers. repeat split; lra. Qed.

(** ** Where there is a value *)

Lemma fit_value : forall n z k, In (n, (z, k)) listed -> kwval (keywords fit_store) n = dec z k.
Proof.
  assert (X : Forall (fun x => kwval (keywords fit_store) (fst x) = dec (fst (snd x)) (snd (snd x))) listed)
    by (unfold listed at 1; repeat (constructor; [reflexivity|]); constructor).
  intros n z k I. rewrite Forall_forall in X. exact (X _ I).
Qed.

Lemma no_zero_resonance : forall n, In n (isoscalar_resonances ReducedB ++ isovector_resonances ReducedB) ->
  kwval (keywords fit_store) ("mass_" ++ n) <> 0 /\ kwval (keywords fit_store) ("decay_rate_" ++ n) <> 0.
Proof.
  apply Forall_forall. cbn [isoscalar_resonances isovector_resonances app].
  each_name; spelled; (split; (erewrite fit_value; [|unfold listed; cbn; eauto 40]); unfold dec; powers; lra).
Qed.

Lemma value_of : forall t, (drawable t -> exists v, form_factor t = Ok v /\ modulus t = Cabs v) /\
  (t < 0 -> form_factor t = Err ValueError) /\ (0 <= t -> ~ drawable t -> form_factor t = Err ZeroDivisionError).
Proof.
  intros t. destruct model_built as (m & B). unfold modulus, form_factor, kaon_value. rewrite B. cbn [bind].
  assert (V1 : kwval (keywords fit_store) "t_in_isoscalar" = t_in_s) by reflexivity.
  assert (V2 : kwval (keywords fit_store) "t_in_isovector" = t_in_v) by reflexivity.
  assert (L1 : kwval (keywords fit_store) "t_0_isoscalar" < kwval (keywords fit_store) "t_in_isoscalar").
  { rewrite V1. erewrite fit_value; [|unfold listed; cbn; eauto]. unfold t_in_s, dec. powers. lra. }
  assert (L2 : kwval (keywords fit_store) "t_0_isovector" < kwval (keywords fit_store) "t_in_isovector").
  { rewrite V2. erewrite fit_value; [|unfold listed; cbn; eauto]. unfold t_in_v, dec. powers. lra. }
  destruct (C18_kaon_failure_set ReducedB true _ m (RtoC t) B L1 L2) as (VE & ZE & _). cbn [RtoC Re] in VE, ZE. split; [|split].
  - intros (P & N1 & N2). rewrite <- V1 in N1. rewrite <- V2 in N2.
    destruct (C18_kaon_defined_on_real_axis ReducedB true _ m t B L1 L2 no_zero_resonance P N1 N2) as (v & E). exists v. rewrite E. now split.
  - intros N. now apply VE.
  - intros P D. apply ZE. split; [exact P|]. rewrite V1, V2.
    destruct (Req_EM_T t t_in_s) as [->|N1]; [now left|]. destruct (Req_EM_T t t_in_v) as [->|N2]; [right; now left|].
    exfalso. apply D. now split.
Qed.

Lemma value_at : forall t, form_factor_at PKaonB fit_store (KaonDatapoint (RtoC t) true) = match form_factor t with Ok v => Ok (Cabs v) | Err e => Err e end.
Proof. intros t. unfold form_factor_at. cbn [family_of kaon_point]. fold (form_factor t). now destruct (form_factor t). Qed.

Lemma fit_buildable : buildable PKaonB fit_store = Ok tt.
Proof. destruct model_built as (m & B). unfold buildable. cbn [family_of]. rewrite B. reflexivity. Qed.

Lemma cross_section_value : forall t, pair_threshold <= t -> drawable t ->
  ScalarCS_call (ScalarCS_init kaon_mass fine_structure conversion) (kaon_value ReducedB true (keywords fit_store)) (RtoC t) = Ok (RtoC (cross_section t)) /\
  cross_section_at PKaonB kaon_mass fine_structure conversion fit_store (KaonDatapoint (RtoC t) true) = Ok (cross_section t) /\ 0 <= cross_section t.
Proof.
  intros t T D. destruct threshold_values as (M & P & A & H & _). destruct (proj1 (value_of t) D) as (v & E & EM).
  unfold cross_section_at. cbn [family_of kaon_point].
  assert (CS := C29_formula_above_threshold kaon_mass fine_structure conversion (kaon_value ReducedB true (keywords fit_store)) t v E ltac:(lra) T).
  rewrite <- EM in CS. fold (cross_section t) in CS. split; [exact CS|]. rewrite CS. cbn [bind]. rewrite Cabs_RtoC.
  assert (Q : 0 <= cross_section t); [|now rewrite Rabs_pos_eq].
  unfold cross_section, sigma_scalar, pow32. assert (PP := Rtrigo1.PI_RGT_0). assert (N : 0 <= modulus t) by (rewrite EM; apply Cabs_nonneg).
  assert (B : 0 <= 1 - 4 * kaon_mass^2 / t).
  { fold pair_threshold. apply Rmult_le_reg_r with t; [lra|]. replace ((1 - pair_threshold / t) * t) with (t - pair_threshold) by (field; lra). lra. }
  apply Rmult_le_pos; [|nra]. apply Rmult_le_pos.
  - apply Rlt_le, Rdiv_lt_0_compat; [|lra]. apply Rmult_lt_0_compat; [apply Rmult_lt_0_compat; lra|nra].
  - apply Rmult_le_pos; [exact B|apply sqrt_pos].
Qed.

(** The cross-section at 8. *)
Definition section_check : bool :=
  on ball_at_8 false (fun b =>
  on (bscalar_cs (b_q (493677 # 1000000)) (b_q (72973525693 # 10000000000000)) (b_q (3893793721 # 10000)) b (cb_q (inject_Z 8, 0%Q))) false (fun r =>
    ((37216099252818 * scale <=? (mid (bre r) - rad (bre r)) * 10 ^ 15) && ((mid (bre r) + rad (bre r)) * 10 ^ 15 <=? 37216099252820 * scale))%Z)).
Lemma section_checked : section_check = true. Proof. vm_compute. reflexivity. Qed.

Lemma drawable_8 : drawable 8.
Proof. unfold drawable, t_in_s, t_in_v, dec. powers. repeat split; lra. Qed.

Lemma section_8 : Rabs (cross_section 8 - dec 37216099252819 15) <= dec 1 15.
Proof.
  destruct at_8 as (b & v & E & F & V). pose proof section_checked as H. unfold section_check in H. rewrite E in H. cbn [on] in H.
  destruct threshold_values as (M & P & _). destruct (cross_section_value 8 ltac:(lra) drawable_8) as (CS & _).
  destruct (bscalar_cs _ _ _ b _) as [r|] eqn:S; [|discriminate H]. cbn [on] in H.
  assert (T : QtoC (inject_Z 8, 0%Q) = RtoC 8) by (unfold QtoC, RtoC, Q2R; cbn; f_equal; lra).
  assert (M1 : Q2R (493677 # 1000000) = kaon_mass) by (unfold Q2R, kaon_mass, dec; powers; cbn; lra).
  assert (M2 : Q2R (72973525693 # 10000000000000) = fine_structure) by (unfold Q2R, fine_structure, dec; powers; cbn; lra).
  assert (M3 : Q2R (3893793721 # 10000) = conversion) by (unfold Q2R, conversion, dec; powers; cbn; lra).
  destruct (C51_scalar_cross_section _ _ _ _ _ (Q2R (493677 # 1000000)) (Q2R (72973525693 # 10000000000000)) (Q2R (3893793721 # 10000)) (QtoC (inject_Z 8, 0%Q))
    (kaon_value ReducedB true (keywords fit_store)) v r
    (proj2 (within_inB _ _) (in_q _)) (proj2 (within_inB _ _) (in_q _)) (proj2 (within_inB _ _) (in_q _)) (proj2 (Cwithin_inC _ _) (inC_q _))
    ltac:(rewrite T; exact F) (proj2 (Cwithin_inC _ _) V) S) as (y & Y & W).
  rewrite T, M1, M2, M3, CS in Y. injection Y as <-. apply Cwithin_inC in W. destruct W as [W _]. cbn [RtoC Re] in W. unfold inB in W.
  apply andb_prop in H as [H1 H2]. apply Z.leb_le in H1. apply Z.leb_le in H2. apply IZR_le in H1. apply IZR_le in H2.
  rewrite !mult_IZR in H1, H2. rewrite minus_IZR in H1. rewrite plus_IZR in H2. pose proof scaleR_pos as SP.
  let x := eval vm_compute in (10 ^ 15)%Z in change (10 ^ 15)%Z with x in H1, H2. unfold dec. powers.
  set (s := IZR scale) in *. set (m := IZR (mid (bre r))) in *. set (d := IZR (rad (bre r))) in *. set (c := cross_section 8) in *.
  clearbody s m d c. clear CS. assert (W1 := Rle_abs (c * s - m)). assert (W2 := Rle_abs (- (c * s - m))). rewrite Rabs_Ropp in W2.
  assert (L : 37216099252818 <= c * 1000000000000000) by (apply Rmult_le_reg_r with s; [exact SP|]; lra).
  assert (G : c * 1000000000000000 <= 37216099252820) by (apply Rmult_le_reg_r with s; [exact SP|]; lra).
  apply Rabs_le. lra.
Qed.

(** ** The picture *)

Lemma call_fixed : forall (f : list datapoint -> data -> Res (list R)) a w ts, nth_error (w_lists w) a = Some fit_store ->
  mbind (obj_mutate (mkRef PKaonB a) (MUpdateFree [])) (fun _ => obj_read (mkRef PKaonB a) (f ts)) w = (f ts fit_store, w).
Proof.
  intros f a w ts S. unfold mbind at 1. rewrite (obj_mutate_eq (mkRef PKaonB a) _ _ _ S). cbn [mutate r_data r_class].
  rewrite update_free_ok by reflexivity. cbn [fst snd]. change (fill fit_store []) with fit_store. rewrite replace_id by exact S.
  replace (set_lists (w_lists w) w) with w by now destruct w. unfold obj_read, mbind. cbn [r_data]. rewrite (read_ok _ _ _ S). reflexivity.
Qed.

Lemma call_form_factor : forall a w ts, nth_error (w_lists w) a = Some fit_store ->
  call_partial (PartialFormFactor (mkRef PKaonB a)) ts [] w = (mapM (form_factor_at PKaonB fit_store) ts, w).
Proof.
  intros a w ts S. unfold call_partial. cbn [r_class]. rewrite (call_fixed (function_form_factor PKaonB) a w ts S).
  rewrite function_form_factor_spec by exact (reachable_inv _ _ fit_reachable). rewrite fit_buildable. reflexivity.
Qed.

Lemma call_cross_section : forall a w ts, nth_error (w_lists w) a = Some fit_store ->
  call_partial (PartialCrossSection config_kaon_mass config_alpha config_hc_squared (mkRef PKaonB a)) ts [] w =
  (mapM (cross_section_at PKaonB kaon_mass fine_structure conversion fit_store) ts, w).
Proof.
  intros a w ts S. unfold call_partial. cbn [r_class].
  rewrite (call_fixed (fun ts => function_cross_section PKaonB ts config_kaon_mass config_alpha config_hc_squared) a w ts S).
  rewrite function_cross_section_spec by exact (reachable_inv _ _ fit_reachable). rewrite fit_buildable. reflexivity.
Qed.

(** The world after the two lines have been printed. *)
Definition after (o : Oracle) (w : World) : World :=
  mkWorld (w_lists w ++ [plot_fit_listed; fit_store; fit_store; fit_store; fit_store; fit_store]) (w_draws w) (w_samples w) (w_fits w)
    (w_events w ++ printed o).
Definition own_parameters (w : World) : Ref := mkRef PKaonB (S (length (w_lists w))).

Lemma nth_plus : forall (h x : list data) k d, nth_error x k = Some d -> nth_error (h ++ x) (length h + k) = Some d.
Proof. intros h x k d E. rewrite nth_error_app2, Nat.add_comm, Nat.add_sub by lia. exact E. Qed.

Lemma picture_run : forall o ts0 ys0 es0 ts ys es w, prepare_data_kaon ts0 ys0 es0 [] [] [] = Ok (ts, ys, es) ->
  plot_fit_picture o ts0 ys0 es0 w =
  (bind (mapM (form_factor_at PKaonB fit_store) ts) (fun fit => bind (ff_panels "plot_fit" ts ys es fit) (fun p => Ok (own_parameters w, (ts, ys, es), p))), after o w).
Proof.
  intros o ts0 ys0 es0 ts ys es w P. destruct listed_store as (d0 & FL & AF).
  unfold plot_fit_picture. unfold mbind at 1, lift at 1. rewrite P. unfold mbind at 1, alloc at 1.
  set (w1 := set_lists _ _). assert (S1 : nth_error (w_lists w1) (length (w_lists w)) = Some plot_fit_listed) by apply nth_alloc.
  unfold mbind at 1. pose proof (obj_from_list_eq PKaonB _ _ _ S1) as E. rewrite FL in E. rewrite E. clear E.
  unfold mbind at 1. set (w2 := set_lists _ w1). assert (S2 : nth_error (w_lists w2) (length (w_lists w1)) = Some d0) by apply nth_alloc.
  rewrite (obj_mutate_eq (mkRef PKaonB _) _ _ _ S2). cbn [mutate fst snd r_data]. change (fix_all d0) with (all_fixed d0). rewrite AF.
  cbn [w_lists set_lists w2]. rewrite replace_end.
  set (w3 := set_lists _ w2). assert (S3 : nth_error (w_lists w3) (length (w_lists w1)) = Some fit_store) by apply nth_alloc.
  set (r := mkRef PKaonB (length (w_lists w1))).
  assert (I : inv PKaonB fit_store) by exact (reachable_inv _ _ fit_reachable).
  unfold make_partial_form_factor_for_parameters. unfold mbind at 1, mbind at 1. rewrite (obj_copy_eq r _ _ S3 I). cbn [ret r_class r].
  set (w4 := set_lists _ w3). assert (S4 : nth_error (w_lists w4) (length (w_lists w1)) = Some fit_store) by (apply nth_extend; exact S3).
  assert (F4 : nth_error (w_lists w4) (S (length (w_lists w3))) = Some fit_store) by apply nth_alloc2.
  unfold make_partial_cross_section_for_parameters. unfold mbind at 1, mbind at 1. rewrite (obj_copy_eq r _ _ S4 I). cbn [ret r_class r].
  set (w5 := set_lists _ w4). assert (G5 : nth_error (w_lists w5) (S (length (w_lists w4))) = Some fit_store) by apply nth_alloc2.
  assert (F5 : nth_error (w_lists w5) (S (length (w_lists w3))) = Some fit_store) by (apply nth_extend; exact F4).
  assert (LS : w_lists w5 = w_lists w ++ [plot_fit_listed; fit_store; fit_store; fit_store; fit_store; fit_store]).
  { unfold w5, w4, w3, w2, w1. cbn [w_lists set_lists]. rewrite <- !app_assoc. reflexivity. }
  destruct (proj1 (value_of 8) drawable_8) as (v & FF & EM). destruct threshold_values as (M & T & _).
  destruct (cross_section_value 8 ltac:(lra) drawable_8) as (_ & CS & _).
  unfold mbind at 1. rewrite (call_form_factor _ _ _ F5). cbn [mapM]. rewrite value_at, FF, <- EM. cbn [bind].
  unfold mbind at 1, emit at 1. set (w6 := mkWorld _ _ _ _ _).
  unfold mbind at 1. rewrite (call_cross_section _ w6 _ G5). cbn [mapM]. rewrite CS. cbn [bind].
  unfold mbind at 1, emit at 1. set (w7 := mkWorld _ _ _ _ _). cbn [fst snd].
  unfold mbind at 1. rewrite (call_form_factor _ w7 ts F5).
  assert (W7 : w7 = after o w).
  { unfold w7, w6, after. f_equal; [exact LS|]. cbn [w_events w5 w4 w3 w2 w1 set_lists]. rewrite <- app_assoc. reflexivity. }
  rewrite W7. destruct (mapM _ ts) as [fit|e]; [|reflexivity]. cbn [bind]. unfold mbind, lift, ret.
  destruct (ff_panels _ ts ys es fit) as [p|e]; [|reflexivity]. cbn [bind]. unfold own_parameters, r. cbn [w1 w_lists set_lists].
  do 4 f_equal. f_equal. rewrite app_length. apply Nat.add_comm.
Qed.

Lemma prepared_sorted : forall charged, charged <> [] -> exists sorted, stable_sort_of me_t charged sorted /\
  prepare_data_kaon (map me_t charged) (map me_value charged) (map me_error charged) [] [] [] =
  Ok (map charged_point sorted, map me_value sorted, map me_error sorted).
Proof.
  intros charged NE. pose proof (sorted_by_stable _ me_t charged) as ST. set (sorted := sorted_by me_t charged) in ST. exists sorted. split; [exact ST|].
  destruct (C37_kaon_data charged []) as [(E & _)|(_ & ts & ys & es & P & L1 & L2 & SR)].
  { exfalso. apply app_eq_nil in E as [E _]. apply map_eq_nil in E. contradiction. }
  cbn [map] in P, SR. rewrite P. rewrite app_nil_r in SR.
  pose proof (sorted_map _ _ (tagged (fun t => KaonDatapoint t true)) (fun row => match fst (fst row) with
                                | KaonDatapoint t _ => Re t | NucleonDatapoint t _ _ => Re t | Row _ => 0 end) charged sorted ST) as S2.
  pose proof (stable_sort_unique _ _ _ _ _ SR S2) as Z. destruct (zip3_parts ts ys es L1 L2) as (Z1 & Z2 & Z3). rewrite Z in Z1, Z2, Z3.
  rewrite !map_map in Z1, Z2, Z3. unfold charged_point. f_equal. f_equal; [f_equal|].
  - symmetry. exact Z1.
  - symmetry. exact Z2.
  - symmetry. exact Z3.
Qed.

Lemma sorted_in : forall A (key : A -> R) l l' x, stable_sort_of key l l' -> (In x l <-> In x l').
Proof. intros A key l l' x (P & _). split; apply Permutation_in; [exact P|now apply Permutation_sym]. Qed.

Lemma first_least : forall A (key : A -> R) l x r, stable_sort_of key l (x :: r) -> forall y, In y l -> key x <= key y.
Proof.
  intros A key l x r ST y I. apply (sorted_in _ _ _ _ _ ST) in I. destruct ST as (_ & S & _). inversion S as [|? ? _ D]; subst.
  destruct I as [<-|I]; [apply Rle_refl|]. rewrite Forall_forall in D. now apply D.
Qed.

(** The points of the picture. *)
Definition shown_at (x : Measurement) : plotted := (RtoC (me_t x), me_value x, me_error x, modulus (me_t x)).

Lemma panels_of : forall sorted, sorted <> [] ->
  ff_panels "plot_fit" (map charged_point sorted) (map me_value sorted) (map me_error sorted) (map (fun x => modulus (me_t x)) sorted) =
  Ok [("plot_fit: Charged", map shown_at sorted)].
Proof.
  intros sorted NE. unfold ff_panels, series_neutral_plus_charged.
  set (l := map (fun x => mkFitted (charged_point x) (me_value x) (me_error x) (modulus (me_t x))) sorted).
  pose proof (split_loop_spec attr_is_charged (fun _ => true) (fun x => match fi_point x with KaonDatapoint t _ => t | _ => RtoC 0 end) l [] [] []) as S.
  cbn [app length] in S. unfold l in S. rewrite !map_map in S. cbn [fi_point fi_value fi_error fi_fit] in S.
  change (map me_value sorted) with (map (fun x => me_value x) sorted). change (map me_error sorted) with (map (fun x => me_error x) sorted).
  change (map charged_point sorted) with (map (fun x => charged_point x) sorted). rewrite S; clear S.
  2: { intros x I. apply in_map_iff in I as (y & <- & _). split; reflexivity. }
  assert (F1 : forall A (z : list A), filter (fun _ => true) z = z) by (induction z; cbn; congruence).
  assert (F2 : forall A (z : list A), filter (fun _ => negb true) z = []) by (induction z; [reflexivity|assumption]).
  rewrite F1, F2. cbn [bind fst snd map]. rewrite map_map. change (map _ sorted) with (map shown_at sorted).
  destruct sorted as [|x r]; [congruence|]. reflexivity.
Qed.

(** ** C62 *)

(** The stored numbers: 26 parameters, the two thresholds those of the pions, and what is printed for t = 8. *)
Theorem C62_numbers :
  map fst listed = class_names PKaonB /\
  Rabs (dec 17531904388276887 17 - (3 * pion_mass)^2) <= dec 1 16 /\ Rabs (dec 7791957505900839 17 - (2 * pion_mass)^2) <= dec 1 16 /\
  (exists v, form_factor 8 = Ok v /\ modulus 8 = Cabs v) /\
  Rabs (modulus 8 - dec 129083558798120 15) <= dec 1 15 /\ Rabs (cross_section 8 - dec 37216099252819 15) <= dec 1 15.
Proof.
  split; [reflexivity|]. split; [|split].
  - unfold dec, pion_mass, dec. powers. apply Rabs_le. lra.
  - unfold dec, pion_mass, dec. powers. apply Rabs_le. lra.
  - split; [exact (proj1 (value_of 8) drawable_8)|]. split; [exact modulus_8|exact section_8].
Qed.
Print Assumptions C62_numbers.

(** The parameters that were free in the stored fit: the two t_in, the residues and everything of the phi. *)
Theorem C62_stored_flags : forall p, In p plot_fit_listed ->
  (par_fixed p = false <-> prefix "t_in_" (par_name p) = true \/ prefix "a_" (par_name p) = true \/
                           prefix "mass_phi" (par_name p) = true \/ prefix "decay_rate_phi" (par_name p) = true).
Proof.
  intros p I. unfold plot_fit_listed in I. cbn [In] in I.
  repeat (destruct I as [<-|I]; [cbn; intuition congruence|]). contradiction.
Qed.
Print Assumptions C62_stored_flags.

(** The panels of any set of points: one for each kind that occurs, with all points of the kind in their order. *)
Definition of_kind (charged : bool) (l : list (C * bool * (R * R * R))) : list plotted :=
  flat_map (fun x => let '(t, c, (value, error, fit)) := x in if Bool.eqb c charged then [(t, value, error, fit)] else []) l.

Theorem C62_panels : forall title l,
  let result := ff_panels title (map (fun x => KaonDatapoint (fst (fst x)) (snd (fst x))) l) (map (fun x => fst (fst (snd x))) l)
                                (map (fun x => snd (fst (snd x))) l) (map (fun x => snd (snd x)) l) in
  (l = [] -> result = Err ValueError) /\
  (l <> [] -> exists shown, result = Ok shown /\ NoDup (map fst shown) /\
     forall name points, In (name, points) shown <->
       points <> [] /\ (name = (title ++ ": Charged")%string /\ points = of_kind true l \/ name = (title ++ ": Neutral")%string /\ points = of_kind false l)).
Proof.
  intros title l result. split; [intros ->; reflexivity|]. intros NE. unfold result, ff_panels, series_neutral_plus_charged.
  set (m := map (fun x => mkFitted (KaonDatapoint (fst (fst x)) (snd (fst x))) (fst (fst (snd x))) (snd (fst (snd x))) (snd (snd x))) l).
  pose proof (split_loop_spec attr_is_charged (fun x => match fi_point x with KaonDatapoint _ c => c | _ => true end)
    (fun x => match fi_point x with KaonDatapoint t _ => t | _ => RtoC 0 end) m [] [] []) as S.
  cbn [app length] in S. unfold m in S. rewrite !map_map in S. cbn [fi_point fi_value fi_error fi_fit] in S. rewrite S; clear S.
  2: { intros x I. apply in_map_iff in I as (y & <- & _). split; reflexivity. }
  assert (K1 : forall l : list (C * bool * (R * R * R)), map (fun x => shown match fi_point x with KaonDatapoint t _ => t | _ => RtoC 0 end x) (filter (fun x => match fi_point x with KaonDatapoint _ c => c | _ => true end)
     (map (fun x => mkFitted (KaonDatapoint (fst (fst x)) (snd (fst x))) (fst (fst (snd x))) (snd (fst (snd x))) (snd (snd x))) l)) = of_kind true l).
  { induction l0 as [|[[t [|]] [[v e] f]] l0 IH]; [reflexivity| |]; cbn; [f_equal|]; exact IH. }
  assert (K2 : forall l : list (C * bool * (R * R * R)), map (fun x => shown match fi_point x with KaonDatapoint t _ => t | _ => RtoC 0 end x) (filter (fun x => negb match fi_point x with KaonDatapoint _ c => c | _ => true end)
     (map (fun x => mkFitted (KaonDatapoint (fst (fst x)) (snd (fst x))) (fst (fst (snd x))) (snd (fst (snd x))) (snd (snd x))) l)) = of_kind false l).
  { induction l0 as [|[[t [|]] [[v e] f]] l0 IH]; [reflexivity| |]; cbn; [|f_equal]; exact IH. }
  rewrite K1, K2. cbn [bind fst snd].
  assert (DT : (title ++ ": Charged")%string <> (title ++ ": Neutral")%string).
  { clear. induction title as [|a t IH]; [discriminate|]. intros E. apply IH. now injection E. }
  assert (SOME : of_kind true l <> [] \/ of_kind false l <> []) by (destruct l as [|[[t [|]] [[v e] f]] l]; [congruence|left|right]; discriminate).
  assert (NSER : needs_series (of_kind true l, of_kind false l) = Ok tt) by (unfold needs_series; destruct (of_kind true l), (of_kind false l); try reflexivity; destruct SOME; congruence).
  rewrite NSER. cbn [bind]. eexists. split; [reflexivity|]. unfold panel. split.
  - destruct (of_kind true l), (of_kind false l); cbn; repeat constructor; cbn; intuition.
  - intros name points. split.
    + intros I. destruct (of_kind true l) as [|a r] eqn:A, (of_kind false l) as [|b q] eqn:B; cbn in I; repeat (destruct I as [I|I]; [injection I as <- <-; split; [discriminate|auto]|]); contradiction.
    + intros (N & [(-> & ->)|(-> & ->)]); apply in_or_app; [left|right]; [destruct (of_kind true l)|destruct (of_kind false l)]; try congruence; now left.
Qed.
Print Assumptions C62_panels.

Example C62_panels_instance : forall title, exists points others,
  ff_panels title [KaonDatapoint (RtoC 2) false; KaonDatapoint (RtoC 1) true; KaonDatapoint (RtoC 3) false] [5; 6; 7] [8; 9; 10] [11; 12; 13] =
  Ok [((title ++ ": Charged")%string, points); ((title ++ ": Neutral")%string, others)] /\
  points = [(RtoC 1, 6, 9, 12)] /\ others = [(RtoC 2, 5, 8, 11); (RtoC 3, 7, 10, 13)].
Proof. intros title. do 2 eexists. split; [reflexivity|]. split; reflexivity. Qed.

(** The first picture: the rows of the file in order of time, all of them charged, each with the modulus of the form
    factor at its time.  The two lines are printed before; a time at which there is no form factor prevents the picture. *)
Theorem C62_picture : forall o charged w,
  (charged = [] -> plot_fit_picture o (map me_t charged) (map me_value charged) (map me_error charged) w = (Err ValueError, w)) /\
  (charged <> [] -> exists res w1,
    plot_fit_picture o (map me_t charged) (map me_value charged) (map me_error charged) w = (res, w1) /\
    w_fits w1 = w_fits w /\ w_events w1 = w_events w ++ printed o /\
    ((forall x, In x charged -> drawable (me_t x)) -> exists sorted r, stable_sort_of me_t charged sorted /\ contents w1 r = Some fit_store /\
       res = Ok (r, (map charged_point sorted, map me_value sorted, map me_error sorted), [("plot_fit: Charged", map shown_at sorted)])) /\
    ((exists x, In x charged /\ me_t x < 0) -> res = Err ValueError) /\
    ((forall x, In x charged -> 0 <= me_t x) -> (exists x, In x charged /\ ~ drawable (me_t x)) -> res = Err ZeroDivisionError)).
Proof.
  intros o charged w. split.
  { intros ->. reflexivity. }
  intros NE. destruct (prepared_sorted charged NE) as (sorted & ST & P).
  assert (NS : sorted <> []). { intros ->. destruct ST as (PM & _). apply Permutation_sym, Permutation_nil in PM. contradiction. }
  rewrite (picture_run o _ _ _ _ _ _ w P). eexists. eexists. split; [reflexivity|]. split; [reflexivity|]. split; [reflexivity|].
  rewrite mapM_map'.
  assert (VX : forall x, form_factor_at PKaonB fit_store (charged_point x) = match form_factor (me_t x) with Ok v => Ok (Cabs v) | Err e => Err e end)
    by (intros x; apply value_at).
  assert (VA : forall x, drawable (me_t x) -> form_factor_at PKaonB fit_store (charged_point x) = Ok (modulus (me_t x))).
  { intros x D. rewrite VX. destruct (proj1 (value_of (me_t x)) D) as (v & -> & ->). reflexivity. }
  split; [|split].
  - intros D. exists sorted, (own_parameters w). split; [exact ST|]. split.
    { unfold contents, own_parameters, after. cbn [w_lists r_data]. replace (S (length (w_lists w))) with (length (w_lists w) + 1)%nat by lia.
      apply nth_plus. reflexivity. }
    rewrite (mapM_ok _ _ _ (fun x => modulus (me_t x))).
    2: { intros x I. apply VA, D. now apply (sorted_in _ _ _ _ _ ST). }
    cbn [bind]. rewrite panels_of by exact NS. reflexivity.
  - intros (x & I & N). destruct sorted as [|y r]; [congruence|]. pose proof (first_least _ _ _ _ _ ST x I) as L.
    cbn [mapM]. rewrite VX, (proj1 (proj2 (value_of (me_t y)))) by lra. reflexivity.
  - intros P0 (x & I & N). apply (sorted_in _ _ _ _ _ ST) in I.
    assert (Q : forall l, (forall y, In y l -> 0 <= me_t y) -> (exists y, In y l /\ ~ drawable (me_t y)) ->
      mapM (fun x => form_factor_at PKaonB fit_store (charged_point x)) l = Err ZeroDivisionError).
    { clear - VA VX. induction l as [|z l IH]; intros P (y & I & N); [destruct I|]. cbn [mapM].
      assert (DD : drawable (me_t z) \/ ~ drawable (me_t z)).
      { unfold drawable. destruct (Req_EM_T (me_t z) t_in_s), (Req_EM_T (me_t z) t_in_v), (Rle_dec 0 (me_t z)); tauto. }
      destruct DD as [D|D].
      - rewrite VA by exact D. cbn [bind]. rewrite IH; [reflexivity|intros q J; apply P; now right|].
        destruct I as [->|I]; [contradiction|]. now exists y.
      - rewrite VX, (proj2 (proj2 (value_of (me_t z)))); [reflexivity|apply P; now left|exact D]. }
    rewrite Q; [reflexivity| |now exists x]. intros y J. apply P0. now apply (sorted_in _ _ _ _ _ ST).
Qed.
Print Assumptions C62_picture.

(** ** The oscillations *)

(** Momentum of one kaon in the rest system of the other; factor from a cross-section to the square of an effective form
    factor; what the factor makes of the cross-section of the fit, divided by its form factor. *)
Definition lab (x : Measurement) : R := sqrt (me_t x * (me_t x - pair_threshold)) / (2 * kaon_mass).
Definition factor (t : R) : R :=
  3 * t / (2 * Rtrigo1.PI * fine_structure^2 * sqrt (1 - pair_threshold / t) * (2 + pair_threshold / t)).
Definition background_factor (t : R) : R := sqrt (conversion * (t - pair_threshold) / (4 * t + 2 * pair_threshold)).

(** The form factors of the file are taken for cross-sections. *)
Definition leftover (x : Measurement) : R := sqrt (factor (me_t x) * me_value x) - modulus (me_t x) * background_factor (me_t x).
Definition leftover_error (x : Measurement) : R :=
  factor (me_t x) * me_error x / (2 * (modulus (me_t x) * background_factor (me_t x))).

Definition slow (x : Measurement) : bool := if Rlt_dec (lab x) 5 then true else false.

Definition oscillation_input (low : list Measurement) : FitInput :=
  mkFitInput "ResidualOscillationsTask" POscillations
    [mkPar "a" 100 false; mkPar "b" 2 false; mkPar "c" 5 false; mkPar "d" 0 false]
    (map (fun x => KaonDatapoint (RtoC (lab x)) true) low) (map leftover low) (map leftover_error low)
    [100; 2; 5; 0] ([NegInf; Fin 0; Fin 0; NegInf], [PosInf; PosInf; PosInf; PosInf]).

Definition oscillation_function (low : list Measurement) (args : list R) : Res (list R) :=
  match args with
  | [a; b; c; e] => Ok (map (fun x => a * exp (- (b * lab x)) * cos (c * lab x + e)) low)
  | _ => Err ValueError
  end.

Definition fittable (x : Measurement) : Prop := pair_threshold < me_t x /\ me_t x <> t_in_s /\ modulus (me_t x) <> 0 /\ 0 < me_value x.

(** What comes of the fit: the world and the result after the printed lines. *)
Definition fit_outcome (o : Oracle) (w : World) (low : list Measurement) (res : Res Ref) (w' : World) : Prop :=
  match optimise (oscillation_function low) (o_fit o (length (w_fits w)) (oscillation_input low)) with
  | Ok ([a; b; c; e], _) =>
      (forall x, In x low -> me_error x <> 0) -> length low <> 4%nat ->
      match o_render o (length (w_events w) + 2) with
      | None => w_events w' = w_events w ++ printed o ++ [EvPlot "/home/lukas/reports/ff/residualoscillationstask.png"] /\
          exists r, res = Ok r /\ contents w' r = Some [mkPar "a" a false; mkPar "b" b false; mkPar "c" c false; mkPar "d" e false]
      | Some e => w_events w' = w_events w ++ printed o /\ res = Err e
      end
  | Ok _ => w_events w' = w_events w ++ printed o /\ res = Err ValueError
  | Err RuntimeError => w_events w' = w_events w ++ printed o /\
      exists r, res = Ok r /\ contents w' r = Some [mkPar "a" 100 false; mkPar "b" 2 false; mkPar "c" 5 false; mkPar "d" 0 false]
  | Err e => w_events w' = w_events w ++ printed o /\ res = Err e
  end.

Definition with_background (x : Measurement) : Measured :=
  mkMeasured (charged_point x) (match cross_section_at PKaonB kaon_mass fine_structure conversion fit_store (charged_point x) with Ok y => y | Err _ => 0 end)
    (me_value x) (me_error x).

Lemma fittable_drawable : forall x, fittable x -> drawable (me_t x).
Proof. intros x (T & N & _). destruct threshold_values as (_ & P & _ & _ & _ & V). split; [lra|]. split; [exact N|lra]. Qed.

Lemma factor_product : forall m a h t f, 0 < m -> 0 < a -> 0 < h -> 4 * m^2 < t -> 0 < f ->
  0 < sigma_scalar m a h t f /\ effective m a (sigma_scalar m a h t f) t = f * sqrt (h * (t - 4 * m^2) / (4 * t + 2 * (4 * m^2))) /\
  0 < sqrt (h * (t - 4 * m^2) / (4 * t + 2 * (4 * m^2))).
Proof.
  intros m a h t f M A H T F. assert (PP := Rtrigo1.PI_RGT_0). assert (M2 : 0 < m^2) by (apply pow_lt; exact M). set (s := 4 * m^2) in *.
  assert (S0 : 0 < s) by (unfold s; lra). assert (B : 0 < 1 - s / t).
  { apply Rmult_lt_reg_r with t; [lra|]. replace ((1 - s / t) * t) with (t - s) by (field; lra). lra. }
  assert (B' := sqrt_lt_R0 _ B). assert (BB := sqrt_sqrt _ (Rlt_le _ _ B)).
  split; [|split].
  - unfold sigma_scalar, pow32. fold s. apply Rmult_lt_0_compat; [|nra]. apply Rmult_lt_0_compat; [|nra].
    apply Rdiv_lt_0_compat; [|lra]. apply Rmult_lt_0_compat; [nra|apply pow_lt; exact A].
  - unfold effective. rewrite <- (sqrt_square f) at 2 by lra. rewrite <- sqrt_mult_alt by nra. f_equal.
    unfold unit_factor, sigma_scalar, pow32. fold s.
    assert (E : 1 - s / t = (t - s) / t) by (field; lra). rewrite E at 2. set (b := sqrt (1 - s / t)) in *. field. repeat split; lra.
  - apply sqrt_lt_R0, Rdiv_lt_0_compat; [apply Rmult_lt_0_compat; lra|lra].
Qed.

Lemma background_eq : forall x, fittable x -> let t := me_t x in
  ms_background (with_background x) = cross_section t /\ 0 < cross_section t /\
  effective kaon_mass fine_structure (cross_section t) t = modulus t * background_factor t /\ 0 < modulus t * background_factor t.
Proof.
  intros x F. pose proof (fittable_drawable x F) as D. destruct F as (T & N & Z & V). destruct threshold_values as (M & P & A & H & _).
  destruct (cross_section_value (me_t x) ltac:(lra) D) as (_ & CS & _). cbn [with_background ms_background]. unfold charged_point. rewrite CS.
  split; [reflexivity|]. destruct (proj1 (value_of (me_t x)) D) as (v & _ & EM). assert (MP : 0 <= modulus (me_t x)) by (rewrite EM; apply Cabs_nonneg).
  assert (MP' : 0 < modulus (me_t x)) by lra. destruct (factor_product kaon_mass fine_structure conversion (me_t x) (modulus (me_t x)) ltac:(lra) A H T MP') as (X1 & X2 & X3).
  split; [exact X1|]. split; [exact X2|]. now apply Rmult_lt_0_compat.
Qed.

Lemma script_run : forall o ts0 ys0 es0 ts ys es p w,
  plot_fit_picture o ts0 ys0 es0 w = (Ok (own_parameters w, (ts, ys, es), p), after o w) ->
  exists t w2, plot_fit_script o ts0 ys0 es0 w = (let '(res, (_, w')) := Task_run o (t, w2) in (res, w')) /\
    w_fits w2 = w_fits w /\ w_events w2 = w_events w ++ printed o /\ contents w2 (own_parameters w) = Some fit_store /\
    tk_class t = ResidualTask /\ tk_name t = "ResidualOscillationsTask" /\ tk_parameters t = own_parameters w /\
    tk_ts t = ts /\ tk_ys t = ys /\ tk_errors t = es /\ tk_handpicked t = true /\ tk_reports_dir t = Some "/home/lukas/reports/ff" /\
    tk_mass t = kaon_mass /\ tk_alpha t = fine_structure /\ tk_hc_squared t = conversion /\ tk_numbers t = true.
Proof.
  intros o ts0 ys0 es0 ts ys es p w E. unfold plot_fit_script. rewrite (mbind_ok _ _ _ _ _ _ _ _ E). cbv beta iota.
  assert (S0 : nth_error (w_lists (after o w)) (r_data (own_parameters w)) = Some fit_store).
  { unfold own_parameters, after. cbn [w_lists r_data]. replace (S (length (w_lists w))) with (length (w_lists w) + 1)%nat by lia. apply nth_plus. reflexivity. }
  unfold Task_init. unfold mbind at 1 2. rewrite (obj_to_list_eq _ _ _ S0). unfold ret.
  eexists. eexists. split; [reflexivity|]. cbn [tk_class tk_name tk_parameters tk_ts tk_ys tk_errors tk_handpicked tk_reports_dir tk_mass tk_alpha tk_hc_squared tk_numbers].
  repeat split. unfold contents. cbn [w_lists set_lists]. apply nth_extend. exact S0.
Qed.

Lemma low_rows : forall l, low kaon_mass (map with_background l) = map with_background (filter slow l).
Proof.
  intros l. unfold low. induction l as [|x l IH]; [reflexivity|]. cbn [map filter]. rewrite IH.
  assert (Q : survives kaon_mass (with_background x) = slow x) by reflexivity. rewrite Q. now destruct (slow x).
Qed.

(** The whole script.  When every row of the file lies above the threshold of the pair, off the branch point and is positive,
    and the form factor does not vanish there, one fit is made: of the differences at low momentum. *)
Theorem C62_fit : forall o charged w res w',
  charged <> [] -> (forall x, In x charged -> fittable x) ->
  plot_fit_script o (map me_t charged) (map me_value charged) (map me_error charged) w = (res, w') ->
  exists sorted, stable_sort_of me_t charged sorted /\
    let low := filter slow sorted in
    (low = [] -> res = Err ValueError /\ w_fits w' = w_fits w /\ w_events w' = w_events w ++ printed o) /\
    (low <> [] -> w_fits w' = w_fits w ++ [oscillation_input low] /\ fit_outcome o w low res w').
Proof.
  intros o charged w res w' NE FI RUN. destruct (prepared_sorted charged NE) as (sorted & ST & P). exists sorted. split; [exact ST|].
  assert (NS : sorted <> []). { intros ->. destruct ST as (PM & _). apply Permutation_sym, Permutation_nil in PM. contradiction. }
  assert (FS : forall x, In x sorted -> fittable x) by (intros x I; apply FI; now apply (sorted_in _ _ _ _ _ ST)).
  pose proof (picture_run o _ _ _ _ _ _ w P) as PR. rewrite mapM_map', (mapM_ok _ _ _ (fun x => modulus (me_t x))) in PR.
  2: { intros x I. unfold charged_point. rewrite value_at. destruct (proj1 (value_of (me_t x)) (fittable_drawable x (FS x I))) as (v & -> & ->). reflexivity. }
  cbn [bind] in PR. rewrite panels_of in PR by exact NS. cbn [bind] in PR.
  destruct (script_run _ _ _ _ _ _ _ _ _ PR) as (t & w2 & E & W1 & W2 & S & T1 & T2 & T3 & T4 & T5 & T6 & T7 & T8 & T9 & T10 & T11 & T12).
  rewrite E in RUN. clear E PR. destruct (Task_run o (t, w2)) as [res0 [t' w0]] eqn:E. injection RUN as <- <-.
  destruct threshold_values as (M & TH & A & H & _).
  assert (RR : residual_run o t w2 fit_store (map with_background sorted) res0 t' w0).
  { split.
    - exact T1.
    - rewrite T3. exact S.
    - rewrite T3. exact fit_reachable.
    - rewrite T9. lra.
    - rewrite T10. lra.
    - split; [|split; [|split; [|split; [|split]]]].
      + rewrite T4, map_map. reflexivity.
      + rewrite T5, map_map. reflexivity.
      + rewrite T6, map_map. reflexivity.
      + rewrite T3. exact fit_buildable.
      + exact T12.
      + intros y I. apply in_map_iff in I as (x & <- & I). rewrite T3, T9, T10, T11. destruct (FS x I) as (Q1 & _).
        destruct (cross_section_value (me_t x) ltac:(lra) (fittable_drawable x (FS x I))) as (_ & CS & _).
        cbn [with_background ms_point ms_background own_parameters r_class]. unfold charged_point. rewrite CS. reflexivity.
    - left. intros y I. apply in_map_iff in I as (x & <- & _). exact Logic.I.
    - intros y I. apply in_map_iff in I as (x & <- & I). rewrite T9. destruct (background_eq x (FS x I)) as (B1 & B2 & _). destruct (FS x I) as (Q1 & _ & _ & Q2).
      split; [reflexivity|]. split; [exact Q1|]. rewrite B1. split; [exact B2|exact Q2].
    - exact E. }
  destruct (C54_fit_input _ _ _ _ _ _ _ _ RR) as (F1 & F2). pose proof (C54_outcome _ _ _ _ _ _ _ _ RR) as OUT. cbv zeta in OUT. rewrite T9, low_rows in *.
  set (low := filter slow sorted) in *. cbv zeta.
  assert (FL : forall x, In x low -> fittable x) by (intros x I; apply FS; now apply filter_In in I as [I _]).
  assert (LE : forall x, In x low -> residual kaon_mass fine_structure (with_background x) = leftover x).
  { intros x I. destruct (background_eq x (FL x I)) as (B1 & _ & B3 & _). unfold residual, leftover. rewrite B1.
    change (time_of (ms_point (with_background x))) with (me_t x). rewrite B3. reflexivity. }
  assert (LR : forall x, In x low -> residual_error kaon_mass fine_structure (with_background x) = leftover_error x).
  { intros x I. destruct (background_eq x (FL x I)) as (B1 & _ & B3 & _). unfold residual_error, effective_error, leftover_error. rewrite B1.
    change (time_of (ms_point (with_background x))) with (me_t x). unfold effective in B3. rewrite B3. reflexivity. }
  assert (IN : residual_input t (map with_background sorted) = oscillation_input low).
  { unfold residual_input, oscillation_input. cbv zeta. rewrite T2, T7, T9, T10, low_rows, !map_map. fold low. f_equal; [now apply map_ext_in..]. }
  split.
  - intros Z. rewrite Z in F1. destruct (F1 eq_refl) as (R1 & _ & R2 & R3). split; [exact R1|]. split; [now rewrite R2|now rewrite R3].
  - intros Z. assert (Z' : map with_background low <> []) by (intros Q; apply map_eq_nil in Q; contradiction).
    destruct (F2 Z') as (G1 & _). specialize (OUT Z'). rewrite IN in G1, OUT. split; [rewrite G1, W1; reflexivity|].
    unfold fit_outcome. rewrite (optimise_ext _ (oscillation_function low)) in OUT.
    2: { intros args. unfold residual_function, oscillation_function. rewrite low_rows. fold low.
         destruct args as [|a [|b [|c [|e [|f args]]]]]; try reflexivity. rewrite map_map. reflexivity. }
    rewrite W1, W2 in OUT. destruct (optimise _ _) as [[popt cov]|e].
    + destruct (four_or_not popt) as [(a & b & c & e & ->)|[NL Q]].
      * destruct OUT as (C0 & OUT). intros NZ N4. destruct OUT as (OUT & _).
        { intros y I. apply in_map_iff in I as (x & <- & I). now apply NZ. }
        { now rewrite map_length. }
        unfold drawn in OUT. rewrite T2, T8, app_length in OUT. change (length (printed o)) with 2%nat in OUT.
        destruct (o_render o (length (w_events w) + 2)).
        -- destruct OUT as (O1 & O2). now split.
        -- destruct OUT as (O1 & O2). rewrite <- app_assoc in O2. split; [exact O2|]. exists (tk_parameters t'). now split.
      * rewrite Q. rewrite Q in OUT. destruct OUT as (O1 & _ & O2). now split.
    + destruct e; try (destruct OUT as (O1 & _ & O2); now split).
      destruct OUT as (O1 & _ & _ & O2 & O3). split; [exact O3|]. exists (tk_parameters t'). now split.
Qed.
Print Assumptions C62_fit.

Lemma cross_section_below : forall t, 0 < t < pair_threshold -> drawable t ->
  exists y, cross_section_at PKaonB kaon_mass fine_structure conversion fit_store (KaonDatapoint (RtoC t) true) = Ok y.
Proof.
  intros t T D. destruct (proj1 (value_of t) D) as (v & E & _). unfold cross_section_at. cbn [family_of kaon_point].
  rewrite (C29_below_threshold_imaginary kaon_mass fine_structure conversion (kaon_value ReducedB true (keywords fit_store)) t v E (proj1 T) (proj2 T)).
  eexists. reflexivity.
Qed.

Lemma cross_section_at_0 : cross_section_at PKaonB kaon_mass fine_structure conversion fit_store (KaonDatapoint (RtoC 0) true) = Err ZeroDivisionError.
Proof.
  assert (D : drawable 0) by (unfold drawable, t_in_s, t_in_v, dec; powers; repeat split; lra). destruct (proj1 (value_of 0) D) as (v & E & _).
  unfold cross_section_at. cbn [family_of kaon_point].
  rewrite (proj2 (C29_raises kaon_mass fine_structure conversion (kaon_value ReducedB true (keywords fit_store)) (RtoC 0) ZeroDivisionError));
    [reflexivity|right; eauto].
Qed.

(** Without a fit: no rows, a time without form factor, or a time not above the threshold of the pair.  The two lines are
    printed all the same, except when there are no rows. *)
Theorem C62_no_fit : forall o charged w res w',
  plot_fit_script o (map me_t charged) (map me_value charged) (map me_error charged) w = (res, w') ->
  (charged = [] -> res = Err ValueError /\ w' = w) /\
  ((exists x, In x charged /\ (me_t x <= pair_threshold \/ me_t x = t_in_s)) ->
     w_fits w' = w_fits w /\ w_events w' = w_events w ++ printed o /\ (res = Err ValueError \/ res = Err ZeroDivisionError) /\
     ((exists x, In x charged /\ me_t x < 0) -> res = Err ValueError) /\
     ((forall x, In x charged -> 0 <= me_t x) -> (exists x, In x charged /\ (me_t x = 0 \/ me_t x = t_in_s \/ me_t x = t_in_v)) -> res = Err ZeroDivisionError) /\
     ((forall x, In x charged -> 0 < me_t x /\ me_t x <> t_in_s /\ me_t x <> t_in_v) ->
        ((exists x, In x charged /\ me_t x < pair_threshold) -> res = Err ValueError) /\
        ((forall x, In x charged -> pair_threshold <= me_t x) -> res = Err ZeroDivisionError))).
Proof.
  intros o charged w res w' RUN. destruct (C62_picture o charged w) as (P1 & P2).
  assert (FAIL : forall e w1, plot_fit_picture o (map me_t charged) (map me_value charged) (map me_error charged) w = (Err e, w1) -> res = Err e /\ w' = w1).
  { intros e w1 E. unfold plot_fit_script, mbind at 1 in RUN. rewrite E in RUN. injection RUN as <- <-. now split. }
  split; [intros Z; exact (FAIL _ _ (P1 Z))|]. intros (x0 & I0 & B0).
  assert (NE : charged <> []) by (intros ->; destruct I0). destruct (P2 NE) as (pr & w1 & E & W1 & W2 & P3 & P4 & P5). clear P1 P2.
  destruct threshold_values as (M & TH & A & H & TS & TV).
  destruct (Forall_dec (fun x => 0 <= me_t x) (fun x => Rle_dec 0 (me_t x)) charged) as [N0|N0].
  2: { apply neg_Forall_Exists_neg in N0; [|intros x; destruct (Rle_dec 0 (me_t x)); tauto]. apply Exists_exists in N0 as (y & J & N).
       assert (Y : exists x, In x charged /\ me_t x < 0) by (exists y; split; [exact J|lra]).
       rewrite (P4 Y) in E. destruct (FAIL _ _ E) as (-> & ->). split; [exact W1|]. split; [exact W2|]. split; [now left|]. split; [reflexivity|]. split.
       - intros Q. specialize (Q y J). lra.
       - intros Q. destruct (Q y J). lra. }
  rewrite Forall_forall in N0.
  assert (DD : forall x, {drawable (me_t x)} + {~ drawable (me_t x)}).
  { intros x. unfold drawable. destruct (Rle_dec 0 (me_t x)); [|right; tauto]. destruct (Req_EM_T (me_t x) t_in_s); [right; tauto|]. destruct (Req_EM_T (me_t x) t_in_v); [right|left]; tauto. }
  assert (NN : ~ exists x, In x charged /\ me_t x < 0) by (intros (x & I & L); specialize (N0 x I); lra).
  destruct (Forall_dec (fun x => drawable (me_t x)) DD charged) as [D|D].
  2: { apply neg_Forall_Exists_neg in D; [|exact DD]. apply Exists_exists in D as (y & J & N).
       rewrite (P5 N0 (ex_intro _ y (conj J N))) in E. destruct (FAIL _ _ E) as (-> & ->). split; [exact W1|]. split; [exact W2|]. split; [now right|]. split; [now intros Q|]. split; [reflexivity|].
       intros Q. exfalso. apply N. destruct (Q y J) as (Q1 & Q2 & Q3). split; [lra|]. now split. }
  rewrite Forall_forall in D. clear P3 P4 P5.
  destruct (prepared_sorted charged NE) as (sorted & ST & P).
  assert (NS : sorted <> []). { intros ->. destruct ST as (PM & _). apply Permutation_sym, Permutation_nil in PM. contradiction. }
  assert (DS : forall x, In x sorted -> drawable (me_t x)) by (intros x I; apply D; now apply (sorted_in _ _ _ _ _ ST)).
  pose proof (picture_run o _ _ _ _ _ _ w P) as PR. rewrite mapM_map', (mapM_ok _ _ _ (fun x => modulus (me_t x))) in PR.
  2: { intros x I. unfold charged_point. rewrite value_at. destruct (proj1 (value_of (me_t x)) (DS x I)) as (v & -> & ->). reflexivity. }
  cbn [bind] in PR. rewrite panels_of in PR by exact NS. cbn [bind] in PR.
  destruct (script_run _ _ _ _ _ _ _ _ _ PR) as (t & w2 & E2 & V1 & V2 & S & T1 & T2 & T3 & T4 & T5 & T6 & T7 & T8 & T9 & T10 & T11 & T12).
  rewrite E2 in RUN. clear E2 PR E.
  assert (IV : inv (r_class (tk_parameters t)) fit_store) by (rewrite T3; exact (reachable_inv _ _ fit_reachable)).
  assert (S' : nth_error (w_lists w2) (r_data (tk_parameters t)) = Some fit_store) by (rewrite T3; exact S).
  pose proof (run_residual o t w2 fit_store S' IV T1) as RR.
  destruct sorted as [|y rest] eqn:ES; [congruence|]. rewrite <- ES in *. pose proof ST as ST'. rewrite ES in ST'.
  assert (YI : In y charged) by (apply (sorted_in _ _ _ _ _ ST'); now left). pose proof (first_least _ _ _ _ _ ST' x0 I0) as LE.
  destruct (D _ I0) as (_ & X1 & X2). destruct (D _ YI) as (Y0 & _ & _). assert (Y1 : me_t y <= pair_threshold) by (destruct B0; [lra|contradiction]). clear B0.
  assert (BG : background t fit_store = mapM (fun x => cross_section_at PKaonB kaon_mass fine_structure conversion fit_store (charged_point x)) sorted).
  { unfold background, cross_section_closure. rewrite T12. cbn [closure_result]. unfold with_free_values. cbn [fst snd].
    rewrite fixed_same, count_all_fixed. cbn [length Nat.eqb bind fst snd]. rewrite fill_none, buildable_flags, T3, T4, T9, T10, T11. cbn [own_parameters r_class].
    rewrite fit_buildable. cbn [bind]. rewrite mapM_map'. reflexivity. }
  assert (CLOSE : forall e, residuals t fit_store = Err e -> res = Err e /\ w_fits w' = w_fits w /\ w_events w' = w_events w ++ printed o).
  { intros e RE. rewrite RE in RR. destruct RR as (h' & E & _). rewrite E in RUN. injection RUN as <- <-. cbn [w_fits w_events set_lists]. auto. }
  destruct (Req_EM_T (me_t y) 0) as [Z|NZ].
  - assert (RE : residuals t fit_store = Err ZeroDivisionError).
    { unfold residuals. rewrite BG, ES. cbn [mapM]. unfold charged_point at 1. rewrite Z, cross_section_at_0. reflexivity. }
    destruct (CLOSE _ RE) as (-> & C1 & C2). split; [exact C1|]. split; [exact C2|]. split; [now right|]. split; [now intros Q|]. split; [reflexivity|].
    intros Q. destruct (Q y YI). lra.
  - assert (PB : forall x, In x sorted -> 0 < me_t x). { intros x I. pose proof (first_least _ _ _ _ _ ST' x (proj2 (sorted_in _ _ _ _ x ST) I)). lra. }
    assert (BE : background t fit_store = Ok (map (fun x => ms_background (with_background x)) sorted)).
    { rewrite BG. apply mapM_ok. intros x I. cbn [with_background ms_background]. unfold charged_point.
      destruct (Rlt_le_dec (me_t x) pair_threshold) as [L|G].
      - destruct (cross_section_below (me_t x) (conj (PB x I) L) (DS x I)) as (z & ->). reflexivity.
      - destruct (cross_section_value (me_t x) G (DS x I)) as (_ & -> & _). reflexivity. }
    assert (RE0 : residuals t fit_store = residuals_of kaon_mass fine_structure (map with_background sorted)).
    { unfold residuals, residuals_of. rewrite BE, T4, T5, T6, T9, T10, !map_map. reflexivity. }
    assert (RE : residuals t fit_store = Err (if Rlt_dec (me_t y) pair_threshold then ValueError else ZeroDivisionError)).
    { rewrite RE0, ES. unfold residuals_of, residual_data. rewrite rows_eq. cbn [map mapM]. rewrite row_step_real by reflexivity.
      change (time_of (ms_point (with_background y))) with (me_t y).
      destruct (C31_raises kaon_mass fine_structure (ms_background (with_background y)) (ms_error (with_background y)) (me_t y) ltac:(lra) ltac:(lra)) as (R1 & R2 & _).
      destruct (Rlt_dec (me_t y) pair_threshold) as [L|L].
      - rewrite R2 by (split; [lra|exact L]). reflexivity.
      - rewrite R1 by (right; fold pair_threshold; lra). reflexivity. }
    destruct (CLOSE _ RE) as (-> & C1 & C2). split; [exact C1|]. split; [exact C2|].
    split; [destruct (Rlt_dec (me_t y) pair_threshold); [now left|now right]|]. split; [now intros Q|]. split.
    { intros _ (x & I & Q). exfalso. destruct (D x I) as (_ & Q1 & Q2). pose proof (PB x (proj1 (sorted_in _ _ _ _ x ST) I)). destruct Q as [Q|[Q|Q]]; [lra|contradiction|contradiction]. }
    intros _. split.
    + intros (x & I & L). pose proof (first_least _ _ _ _ _ ST' x I). destruct (Rlt_dec (me_t y) pair_threshold); [reflexivity|lra].
    + intros Q. specialize (Q y YI). destruct (Rlt_dec (me_t y) pair_threshold); [lra|reflexivity].
Qed.
Print Assumptions C62_no_fit.

Lemma factor_pos : forall t, pair_threshold < t -> 0 < factor t.
Proof.
  intros t T. destruct threshold_values as (M & _ & A & _). exact (unit_factor_pos kaon_mass fine_structure t ltac:(lra) ltac:(lra) T).
Qed.

(** The file holds form factors, and the task takes them for cross-sections: a row that agrees with the fit leaves a
    difference nevertheless, except where the two conversions happen to agree.  At t = 8 it is larger than 20. *)
Theorem C62_agreement_leaves_a_difference : forall x, fittable x -> me_value x = modulus (me_t x) ->
  (leftover x = 0 <-> factor (me_t x) = modulus (me_t x) * (conversion * (me_t x - pair_threshold) / (4 * me_t x + 2 * pair_threshold))) /\
  (me_t x = 8 -> 20 < leftover x).
Proof.
  intros x F V. destruct (background_eq x F) as (_ & _ & _ & BP). destruct F as (T & _ & Z & VP). rewrite V in VP.
  destruct threshold_values as (M & TH & A & H & _). assert (FP := factor_pos _ T). unfold leftover. rewrite V. unfold background_factor in *.
  set (g := conversion * (me_t x - pair_threshold) / (4 * me_t x + 2 * pair_threshold)) in *.
  assert (G : 0 < g) by (unfold g; apply Rdiv_lt_0_compat; [apply Rmult_lt_0_compat; lra|lra]). split.
  - set (u := factor (me_t x)) in *. set (f := modulus (me_t x)) in *. clearbody u f g. assert (SG := sqrt_sqrt g (Rlt_le _ _ G)). assert (SU := sqrt_sqrt (u * f) ltac:(nra)).
    split; intros Q.
    + assert (Q' : sqrt (u * f) = f * sqrt g) by lra. rewrite Q' in SU. assert (X : f * (f * g) = f * u) by (rewrite <- SG; lra). apply Rmult_eq_reg_l in X; [lra|lra].
    + rewrite Q. replace (f * g * f) with (f * f * g) by ring. rewrite sqrt_mult_alt, sqrt_square by nra. ring.
  - intros E. assert (GE : g = conversion * (8 - pair_threshold) / (4 * 8 + 2 * pair_threshold)) by (unfold g; rewrite E; reflexivity). clearbody g. rewrite E in *. clear E V.
    assert (U : 26000 < factor 8).
    { unfold factor. assert (PP := Rtrigo1.PI_RGT_0). assert (P4 := Rtrigo1.PI_4). assert (AA : fine_structure < 73/10000) by (unfold fine_structure, dec; powers; lra).
      assert (B0 : 0 < 1 - pair_threshold / 8 < 1) by lra. assert (B1 : 0 < sqrt (1 - pair_threshold / 8)) by (apply sqrt_lt_R0; lra).
      assert (B2 : sqrt (1 - pair_threshold / 8) < 1) by (apply Rlt_le_trans with (sqrt 1); [apply sqrt_lt_1_alt; lra|rewrite sqrt_1; lra]).
      set (b := sqrt (1 - pair_threshold / 8)) in *. clearbody b. set (q := 2 + pair_threshold / 8) in *. assert (Q : 2 < q < 213/100) by (unfold q; lra). clearbody q.
      set (a := fine_structure) in *. set (p := Rtrigo1.PI) in *. clearbody a p. assert (A2 : 0 < a^2 < 5329/100000000) by (simpl; nra). set (c := a^2) in *. clearbody c.
      assert (X1 : 0 < 2 * p * c < 8 * (5329/100000000)) by nra. set (y := 2 * p * c) in *. clearbody y.
      assert (X2 : 0 < y * b < 8 * (5329/100000000)) by nra. set (z := y * b) in *. clearbody z.
      apply Rmult_lt_reg_r with (z * q); [nra|]. unfold Rdiv. rewrite Rmult_assoc, Rinv_l by nra. nra. }
    assert (G2 : g < 81000). { rewrite GE. unfold conversion, dec. powers. unfold Rdiv. apply Rmult_lt_reg_r with (4 * 8 + 2 * pair_threshold); [lra|]. rewrite Rmult_assoc, Rinv_l by lra. lra. }
    pose proof modulus_8 as M8. assert (M1 := Rle_abs (modulus 8 - dec 129083558798120 15)). assert (M2 := Rle_abs (- (modulus 8 - dec 129083558798120 15))). rewrite Rabs_Ropp in M2.
    assert (MB : 129/1000 < modulus 8 < 1291/10000). { unfold dec in *. revert M8 M1 M2. powers. intros. lra. }
    assert (S1 : 575/10 < sqrt (factor 8 * modulus 8)). { rewrite <- (sqrt_square (575/10)) by lra. apply sqrt_lt_1_alt. split; [lra|]. nra. }
    assert (S2 : sqrt g < 285). { rewrite <- (sqrt_square 285) by lra. apply sqrt_lt_1_alt. lra. }
    assert (S3 := sqrt_lt_R0 g G). nra.
Qed.
Print Assumptions C62_agreement_leaves_a_difference.

(** ** An instance *)

Definition clear_at (q : Q) : bool :=
  on ball_model false (fun m => on (bkaon_call m (cb_q (q, 0%Q))) false far).
Lemma clear_at_4 : clear_at (inject_Z 4) = true. Proof. vm_compute. reflexivity. Qed.

Lemma modulus_4 : modulus 4 <> 0.
Proof.
  pose proof clear_at_4 as H. unfold clear_at, ball_model, on in H. unfold modulus, form_factor, kaon_value. cbn [kaon_class].
  destruct quoted_classes as [_ [QC _]]. rewrite <- QC, fit_keywords.
  pose proof (enc_kaon_init bKaonUAModelB true _ _ (enc_env_of rationals)) as K.
  destruct (bkaon_init bKaonUAModelB true (benv_of rationals)) as [b|]; [|discriminate H]. destruct K as [m [F K]]. rewrite F. cbn [bind].
  pose proof (enc_kaon_call _ _ _ _ K (inC_q (inject_Z 4, 0%Q))) as V.
  destruct (bkaon_call b (cb_q (inject_Z 4, 0%Q))) as [r|]; [|discriminate H]. destruct V as (v & G & V).
  assert (T : QtoC (inject_Z 4, 0%Q) = RtoC 4) by (unfold QtoC, RtoC, Q2R; cbn; f_equal; lra). rewrite T in G. rewrite G.
  apply Rgt_not_eq, Cabs_pos. exact (far_nonzero _ _ V H).
Qed.

(** A file with two rows, the later one first and in agreement with the fit: only the other one is slow. *)
Definition later : Measurement := mkMeasurement 8 (modulus 8) (1/100).
Definition earlier : Measurement := mkMeasurement 4 (1/2) (1/10).

Lemma rows_fittable : forall x, In x [later; earlier] -> fittable x.
Proof.
  destruct threshold_values as (_ & TH & _). pose proof modulus_8 as M8. assert (M2 := Rle_abs (- (modulus 8 - dec 129083558798120 15))). rewrite Rabs_Ropp in M2.
  assert (M1 : 0 < modulus 8) by (unfold dec in *; revert M8 M2; powers; intros; lra).
  intros x [<-|[<-|[]]]; unfold fittable, later, earlier; cbn [me_t me_value]; (split; [lra|]); (split; [unfold t_in_s, dec; powers; lra|]); (split; [|lra]).
  - lra.
  - exact modulus_4.
Qed.

Lemma earlier_slow : slow earlier = true /\ slow later = false.
Proof.
  destruct threshold_values as (M & TH & _). assert (KM : 49/100 < kaon_mass) by (unfold kaon_mass, dec; powers; lra). unfold slow, lab, earlier, later. cbn [me_t]. split.
  - destruct (Rlt_dec _ 5) as [_|N]; [reflexivity|]. destruct N. apply Rmult_lt_reg_r with (2 * kaon_mass); [lra|]. unfold Rdiv. rewrite Rmult_assoc, Rinv_l by lra.
    assert (S : sqrt (4 * (4 - pair_threshold)) < 4) by (rewrite <- (sqrt_square 4) at 3 by lra; apply sqrt_lt_1_alt; lra). lra.
  - destruct (Rlt_dec _ 5) as [N|_]; [|reflexivity]. exfalso. apply (Rmult_lt_compat_r (2 * kaon_mass)) in N; [|lra]. unfold Rdiv in N. rewrite Rmult_assoc, Rinv_l in N by lra.
    assert (S : 7 < sqrt (8 * (8 - pair_threshold))) by (rewrite <- (sqrt_square 7) at 1 by lra; apply sqrt_lt_1_alt; lra). lra.
Qed.

Lemma two_rows : forall v sorted, stable_sort_of me_t [mkMeasurement 8 v (1/100); earlier] sorted -> sorted = [earlier; mkMeasurement 8 v (1/100)].
Proof.
  intros v sorted ST. pose proof (sorted_by_stable _ me_t [mkMeasurement 8 v (1/100); earlier]) as S2. rewrite (stable_sort_unique _ _ _ _ _ ST S2).
  unfold sorted_by, earlier. cbn.
  repeat (match goal with |- context [Rle_dec ?a ?b] => destruct (Rle_dec a b) end; cbn); try reflexivity; exfalso; lra.
Qed.

Example C62_instance : exists res w',
  plot_fit_script (demo_oracle (fun _ _ => FitReturn [1; 2; 3; 4] []) DivRaises) [8; 4] [modulus 8; 1/2] [1/100; 1/10] (mkWorld [] 0%nat 0%nat [] []) = (res, w') /\
  w_fits w' = [oscillation_input [earlier]] /\ 20 < leftover later /\
  (exists r, res = Ok r /\ contents w' r = Some [mkPar "a" 1 false; mkPar "b" 2 false; mkPar "c" 3 false; mkPar "d" 4 false]) /\
  last (w_events w') (EvPrint "") = EvPlot "/home/lukas/reports/ff/residualoscillationstask.png".
Proof.
  set (o := demo_oracle _ _). set (w := mkWorld _ _ _ _ _). destruct (plot_fit_script o [8; 4] [modulus 8; 1/2] [1/100; 1/10] w) as [res w'] eqn:E.
  exists res, w'. split; [reflexivity|].
  destruct (C62_fit o [later; earlier] w res w' ltac:(discriminate) rows_fittable E) as (sorted & ST & _ & OUT).
  pose proof (two_rows _ _ ST) as SE. fold later in SE.
  destruct earlier_slow as (L1 & L2). rewrite SE in OUT. cbn [filter] in OUT. rewrite L1, L2 in OUT. destruct OUT as (F1 & F2); [discriminate|].
  split; [exact F1|]. split.
  { apply (proj2 (C62_agreement_leaves_a_difference later (rows_fittable later (or_introl eq_refl)) eq_refl)). reflexivity. }
  unfold fit_outcome in F2. change (optimise _ _) with (@Ok (list R * matrix) ([1; 2; 3; 4], [])) in F2. cbv beta iota in F2.
  destruct F2 as (G1 & G2); [intros x [<-|[]]; cbn [earlier me_error]; lra|cbn; lia|]. split; [exact G2|]. rewrite G1. reflexivity.
Qed.
