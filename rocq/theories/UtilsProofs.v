(** The loops of common/utils.py evaluate every point independently. *)
From Coq Require Import String Reals List Bool Arith Lra Permutation.
From Verif Require Import PyBase CNum PyExpr UAModels Nucleon NucleonCache NucleonProofs OtherModels Params ParamClasses
  ParamProofs ParamSpec BoundsProofs CrossSections CommonUtils ExprProofs KaonProofs KaonSpec NucleonSpec UtilsSpec
  PropsKaon2.
Import ListNotations.
Local Open Scope R_scope.
Local Open Scope py_scope.
Local Open Scope string_scope.
Local Open Scope list_scope.

Lemma dict_set_new : forall V (e : env V) k v, ~ In k (map fst e) -> dict_set e k v = e ++ [(k, v)].
Proof.
  intros V e k v. induction e as [|[k' v'] e IH]; intros H; [reflexivity|]. simpl in *.
  destruct (String.eqb_spec k' k) as [->|N]; [exfalso; apply H; now left|]. rewrite IH; tauto.
Qed.

Lemma dict_of_keywords : forall d, NoDup (names d) -> dict_of d = keywords d.
Proof.
  induction d as [|p d IH] using rev_ind; intros ND; [reflexivity|].
  rewrite names_app in ND. simpl in ND. apply NoDup_remove in ND. destruct ND as [ND NI].
  rewrite app_nil_r in ND, NI. rewrite dict_of_snoc, dict_set_new.
  - rewrite IH by assumption. unfold keywords. now rewrite map_app.
  - intros C. apply NI. now apply dict_of_keys.
Qed.

Lemma reads_kaon : forall p, read_datapoint_kaon p =
  match kaon_point p with Some x => Ok x | None => Err IndexError end.
Proof.
  intros [t b|t pr el|xs]; simpl; [reflexivity| |].
  - unfold index. simpl. unfold truth, CofBool. destruct pr.
    + destruct (C_eq_dec 1 0) as [E|E]; [apply (f_equal Re) in E; simpl in E; lra|reflexivity].
    + destruct (C_eq_dec 0 0) as [E|E]; [reflexivity|congruence].
  - unfold index. simpl. destruct xs as [|t [|x r]]; reflexivity.
Qed.

Lemma reads_nucleon : forall p, read_datapoint_nucleon p =
  match nucleon_point p with Some x => Ok x | None => Err IndexError end.
Proof.
  intros [t b|t pr el|xs]; simpl; [reflexivity|reflexivity|].
  unfold index. simpl. destruct xs as [|t [|x [|y r]]]; reflexivity.
Qed.

(** ** Kaons *)

Section Kaon.
Variables (k : kaon_kind) (kw : env R).

Lemma Kaon_any_flag : forall b m, Kaon_init (kaon_class k) true kw = Ok m ->
  Kaon_init (kaon_class k) b kw = Ok (Kaon_set_charged m b).
Proof. intros b m H. exact (C20_kaon_flag k true b kw m H). Qed.

Definition kaon_ff (p : datapoint) : Res R :=
  match kaon_point p with
  | Some (t, charged) => v <- kaon_value k charged kw t ;; Ok (Cabs v)
  | None => Err IndexError
  end.

Lemma kaon_ff_loop : forall ts m b, Kaon_init (kaon_class k) true kw = Ok m ->
  form_factor_kaon_loop (FFKaon (Kaon_set_charged m b)) ts = mapM kaon_ff ts.
Proof.
  induction ts as [|p ts IH]; intros m b H; [reflexivity|].
  cbn [form_factor_kaon_loop mapM]. unfold kaon_ff at 1. rewrite reads_kaon.
  destruct (kaon_point p) as [[t c]|]; [|reflexivity]. cbn [bind fst snd ff_set_charged ff_call].
  unfold kaon_value. rewrite (Kaon_any_flag c m H). cbn [bind].
  change (Kaon_set_charged (Kaon_set_charged m b) c) with (Kaon_set_charged m c).
  destruct (Kaon_call (Kaon_set_charged m c) t); [|reflexivity]. cbn [bind]. now rewrite (IH m c H).
Qed.

Definition kaon_cs (s : ScalarCS) (p : datapoint) : Res R :=
  match kaon_point p with
  | Some (t, charged) => v <- ScalarCS_call s (kaon_value k charged kw) t ;; Ok (Cabs v)
  | None => Err IndexError
  end.

Lemma kaon_cs_loop : forall s ts m b, Kaon_init (kaon_class k) true kw = Ok m ->
  cross_section_kaon_loop s (FFKaon (Kaon_set_charged m b)) ts = mapM (kaon_cs s) ts.
Proof.
  intros s. induction ts as [|p ts IH]; intros m b H; [reflexivity|].
  cbn [cross_section_kaon_loop mapM]. unfold kaon_cs at 1. rewrite reads_kaon.
  destruct (kaon_point p) as [[t c]|]; [|reflexivity]. cbn [bind fst snd ff_set_charged].
  change (Kaon_set_charged (Kaon_set_charged m b) c) with (Kaon_set_charged m c).
  assert (E : ScalarCS_call s (fun t0 => fst (ff_call (FFKaon (Kaon_set_charged m c)) t0)) t =
              ScalarCS_call s (kaon_value k c kw) t).
  { unfold ScalarCS_call, kaon_value. rewrite (Kaon_any_flag c m H). reflexivity. }
  rewrite E. destruct (ScalarCS_call s (kaon_value k c kw) t); [|reflexivity]. cbn [bind].
  now rewrite (IH m c H).
Qed.
End Kaon.

(** ** Nucleons *)

Section Nucleon.
Variable kw : env R.

Definition nucleon_ff (p : datapoint) : Res R :=
  match nucleon_point p with
  | Some (t, proton, electric) => v <- evaluate New proton electric kw t ;; Ok (Cabs v)
  | None => Err IndexError
  end.

Lemma evaluate_flags : forall m c0 c p e t, Nucleon_init NucleonUAModel true true kw = Ok (m, c0) ->
  cache_ok m c -> fst (Nucleon_call (Nucleon_set_flags m p e) t c) = evaluate New p e kw t /\
  cache_ok m (snd (Nucleon_call (Nucleon_set_flags m p e) t c)).
Proof.
  intros m c0 c p e t H K. destruct (Nucleon_init_flags _ _ _ _ _ _ p e H) as [E _].
  assert (K' := cache_ok_flags m p e c K).
  destruct (Nucleon_call_pure (Nucleon_set_flags m p e) t c K') as [A B]. split; [|exact B].
  rewrite A. unfold evaluate. change (nucleon_class New) with NucleonUAModel. rewrite E.
  rewrite (Nucleon_init_cache _ _ _ _ _ _ E). symmetry. now apply Nucleon_call_pure, cache_ok_nil.
Qed.

Lemma nucleon_ff_loop : forall ts m c0 c p e, Nucleon_init NucleonUAModel true true kw = Ok (m, c0) ->
  cache_ok m c ->
  form_factor_nucleon_loop (FFNucleon (Nucleon_set_flags m p e) c) ts = mapM nucleon_ff ts.
Proof.
  induction ts as [|q ts IH]; intros m c0 c p e H K; [reflexivity|].
  cbn [form_factor_nucleon_loop mapM]. unfold nucleon_ff at 1. rewrite reads_nucleon.
  destruct (nucleon_point q) as [[[t pr] el]|]; [|reflexivity].
  cbn [bind ff_set_proton ff_set_electric ff_call].
  change (Nucleon_set_flags (Nucleon_set_flags (Nucleon_set_flags m p e) pr _) _ el) with (Nucleon_set_flags m pr el).
  destruct (evaluate_flags m c0 c pr el t H K) as [A B].
  destruct (Nucleon_call (Nucleon_set_flags m pr el) t c) as [r c']. simpl in A, B. subst r.
  destruct (evaluate New pr el kw t); [|reflexivity]. cbn [bind]. now rewrite (IH m c0 c' pr el H B).
Qed.

Definition nucleon_cs (s : NucleonCS) (p : datapoint) : Res R :=
  match nucleon_point p with
  | Some (t, proton, _) =>
      ge <- evaluate New proton true kw t ;;
      gm <- evaluate New proton false kw t ;;
      v <- nucleon_formula s t (Cabs ge) (Cabs gm) ;; Ok (Cabs v)
  | None => Err IndexError
  end.

Lemma nucleon_cs_loop : forall s ts m c0 c p e, Nucleon_init NucleonUAModel true true kw = Ok (m, c0) ->
  cache_ok m c ->
  cross_section_nucleon_loop (Some s) (FFNucleon (Nucleon_set_flags m p e) c) ts = mapM (nucleon_cs s) ts.
Proof.
  intros s. induction ts as [|q ts IH]; intros m c0 c p e H K; [reflexivity|].
  cbn [cross_section_nucleon_loop mapM]. unfold nucleon_cs at 1. rewrite reads_nucleon.
  destruct (nucleon_point q) as [[[t pr] el]|]; [|reflexivity].
  cbn [bind ff_set_proton]. unfold NucleonCS_call. cbn [ff_set_electric ff_call].
  change (Nucleon_set_flags (Nucleon_set_flags (Nucleon_set_flags m p e) pr _) _ true) with (Nucleon_set_flags m pr true).
  destruct (evaluate_flags m c0 c pr true t H K) as [A B].
  destruct (Nucleon_call (Nucleon_set_flags m pr true) t c) as [r c1]. simpl in A, B. subst r.
  destruct (evaluate New pr true kw t) as [ge|]; [|reflexivity]. cbn [bind ff_set_electric ff_call].
  change (Nucleon_set_flags (Nucleon_set_flags m pr true) _ false) with (Nucleon_set_flags m pr false).
  destruct (evaluate_flags m c0 c1 pr false t H B) as [A2 B2].
  destruct (Nucleon_call (Nucleon_set_flags m pr false) t c1) as [r c2]. simpl in A2, B2. subst r.
  destruct (evaluate New pr false kw t) as [gm|]; [|reflexivity]. cbn [bind].
  destruct (nucleon_formula s t (Cabs ge) (Cabs gm)); [|reflexivity]. cbn [bind].
  now rewrite (IH m c0 c2 pr false H B2).
Qed.
End Nucleon.

(** ** Auxiliary models *)

Lemma aux_ff_loop : forall f (call : C -> Res C) ts, (forall t, ff_call f t = (call t, f)) ->
  (forall b, ff_set_proton b f = f) -> (forall b, ff_set_electric b f = f) ->
  form_factor_nucleon_loop f ts = mapM (fun p => match nucleon_point p with
    | Some (t, _, _) => v <- call t ;; Ok (Cabs v) | None => Err IndexError end) ts.
Proof.
  intros f call ts H1 H2 H3. induction ts as [|q ts IH]; [reflexivity|].
  cbn [form_factor_nucleon_loop mapM]. rewrite reads_nucleon.
  destruct (nucleon_point q) as [[[t pr] el]|]; [|reflexivity]. cbn [bind].
  rewrite H2, H3, H1. destruct (call t); [|reflexivity]. cbn [bind]. now rewrite IH.
Qed.

Lemma getitem_in : forall d n, In n (names d) -> (p <- getitem d n ;; Ok (par_value p)) = Ok (val d n).
Proof. intros d n H. destruct (getitem_value d n H) as [p [E [_ [_ V]]]]. rewrite E. simpl. now rewrite V. Qed.

(** ** The two functions *)

Theorem function_form_factor_spec : forall c ts d, inv c d ->
  function_form_factor c ts d = (_ <- buildable c d ;; mapM (form_factor_at c d) ts).
Proof.
  intros c ts d I. assert (ND := inv_names_NoDup c d I). destruct I as [N A].
  unfold function_form_factor, buildable, get_ff_model. rewrite (dict_of_keywords d ND).
  assert (KA : forall k, (ff_model <- (m <- Kaon_init (kaon_class k) true (keywords d) ;; Ok (FFKaon m)) ;;
      (if is_kaon_type_model ff_model then form_factor_kaon_loop ff_model ts else form_factor_nucleon_loop ff_model ts)) =
      (_ <- (m <- Kaon_init (kaon_class k) true (keywords d) ;; Ok tt) ;; mapM (kaon_ff k (keywords d)) ts)).
  { intros k. destruct (Kaon_init (kaon_class k) true (keywords d)) as [m|] eqn:E; [|reflexivity].
    cbn [bind is_kaon_type_model]. rewrite <- (kaon_ff_loop k (keywords d) ts m (km_charged_variant m) E).
    now destruct m. }
  destruct c; cbn [family_of]; try (exact (KA Full)); try (exact (KA ReducedB)); try (exact (KA Simplified)).
  - destruct (Nucleon_init NucleonUAModel true true (keywords d)) as [[m c0]|] eqn:E; [|reflexivity].
    cbn [bind is_kaon_type_model fst snd].
    assert (G := nucleon_ff_loop (keywords d) ts m c0 c0 (nm_proton m) (nm_electric m) E).
    rewrite (Nucleon_init_cache _ _ _ _ _ _ E) in *. specialize (G (cache_ok_nil m)).
    etransitivity; [|exact G]. now destruct m.
  - rewrite !getitem_in by (rewrite N; apply mem_In; reflexivity). cbn [bind is_kaon_type_model].
    rewrite (aux_ff_loop _ (ETGMRModel_call (ETGMRModel_init (val d "a") (val d "m_a") (val d "m_d")))) by reflexivity.
    apply mapM_ext_in. intros p _. unfold form_factor_at. cbn [family_of].
    now destruct (nucleon_point p) as [[[t pr] el]|].
  - rewrite !getitem_in by (rewrite N; apply mem_In; reflexivity). cbn [bind is_kaon_type_model].
    rewrite (aux_ff_loop _ (TwoPolesModel_call (TwoPolesModel_init (val d "a") (val d "m_1") (val d "m_2")))) by reflexivity.
    apply mapM_ext_in. intros p _. unfold form_factor_at. cbn [family_of].
    now destruct (nucleon_point p) as [[[t pr] el]|].
  - reflexivity.
Qed.

Theorem function_cross_section_spec : forall c ts mass alpha hc d, inv c d ->
  function_cross_section c ts mass alpha hc d = (_ <- buildable c d ;; mapM (cross_section_at c mass alpha hc d) ts).
Proof.
  intros c ts mass alpha hc d I. assert (ND := inv_names_NoDup c d I). destruct I as [N A].
  unfold function_cross_section, buildable, get_ff_model. rewrite (dict_of_keywords d ND).
  assert (KA : forall k, (ff_model <- (m <- Kaon_init (kaon_class k) true (keywords d) ;; Ok (FFKaon m)) ;;
      match ff_model with
      | FFKaon _ => cross_section_kaon_loop (ScalarCS_init mass alpha hc) ff_model ts
      | FFETGMR _ | FFTwoPoles _ => cross_section_nucleon_loop None ff_model ts
      | FFNucleon _ _ => cross_section_nucleon_loop (Some (NucleonCS_init mass alpha hc)) ff_model ts
      end) =
      (_ <- (m <- Kaon_init (kaon_class k) true (keywords d) ;; Ok tt) ;;
       mapM (kaon_cs k (keywords d) (ScalarCS_init mass alpha hc)) ts)).
  { intros k. destruct (Kaon_init (kaon_class k) true (keywords d)) as [m|] eqn:E; [|reflexivity].
    cbn [bind]. rewrite <- (kaon_cs_loop k (keywords d) _ ts m (km_charged_variant m) E).
    now destruct m. }
  assert (AUX : forall f, cross_section_nucleon_loop None f ts =
    mapM (fun p => match nucleon_point p with Some _ => Err AttributeError | None => Err IndexError end) ts).
  { intros f. destruct ts as [|q r]; [reflexivity|]. cbn [cross_section_nucleon_loop mapM]. rewrite reads_nucleon.
    now destruct (nucleon_point q) as [[[t pr] el]|]. }
  destruct c; cbn [family_of]; try (exact (KA Full)); try (exact (KA ReducedB)); try (exact (KA Simplified)).
  - destruct (Nucleon_init NucleonUAModel true true (keywords d)) as [[m c0]|] eqn:E; [|reflexivity].
    cbn [bind fst snd].
    assert (G := nucleon_cs_loop (keywords d) (NucleonCS_init mass alpha hc) ts m c0 c0 (nm_proton m) (nm_electric m) E).
    rewrite (Nucleon_init_cache _ _ _ _ _ _ E) in *. specialize (G (cache_ok_nil m)).
    etransitivity; [|exact G]. now destruct m.
  - rewrite !getitem_in by (rewrite N; apply mem_In; reflexivity). cbn [bind]. apply AUX.
  - rewrite !getitem_in by (rewrite N; apply mem_In; reflexivity). cbn [bind]. apply AUX.
  - reflexivity.
Qed.
