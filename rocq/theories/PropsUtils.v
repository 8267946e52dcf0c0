(** Properties C26 and C27: function_form_factor and function_cross_section (common/utils.py l.123-190).  The meaning
    of a datapoint and the value belonging to it are in UtilsSpec.v; every point is evaluated there with a fresh model. *)
From Coq Require Import String Reals List Bool Arith Lra Permutation.
From Verif Require Import PyBase CNum PyExpr UAModels Nucleon NucleonProofs OtherModels Params ParamClasses
  ParamProofs ParamSpec BoundsProofs CrossSections CommonUtils ExprProofs KaonProofs KaonSpec NucleonSpec UtilsSpec UtilsProofs
  PropsKaon PropsKaon2 PropsNucleon2.
Import ListNotations.
Local Open Scope R_scope.
Local Open Scope py_scope.
Local Open Scope string_scope.
Local Open Scope list_scope.

#[local] Arguments String.append : simpl never.

(** ** Consequences of pointwise evaluation, for any function of this shape *)

Section Pointwise.
Variables (f : list datapoint -> Res (list R)) (ready : Res unit) (at_point : datapoint -> Res R).
Hypothesis F : forall ts, f ts = (_ <- ready ;; mapM at_point ts).

Lemma pw_entries : forall ts rs, f ts = Ok rs <-> ready = Ok tt /\ Forall2 (fun p r => at_point p = Ok r) ts rs.
Proof.
  intros ts rs. rewrite F. destruct ready as [[]|e]; cbn [bind].
  - rewrite mapM_Ok_iff. tauto.
  - split; [discriminate|intros [? _]; discriminate].
Qed.

Lemma pw_app : forall a b, f (a ++ b) = (x <- f a ;; y <- f b ;; Ok (x ++ y)).
Proof. intros a b. rewrite !F. destruct ready as [[]|e]; cbn [bind]; [apply mapM_app|reflexivity]. Qed.

Lemma pw_perm : forall ts ts' rs, Permutation ts ts' -> f ts = Ok rs ->
  exists rs', f ts' = Ok rs' /\ Permutation (combine ts rs) (combine ts' rs').
Proof.
  intros ts ts' rs P. revert rs.
  assert (G : forall rs, Forall2 (fun p r => at_point p = Ok r) ts rs ->
    exists rs', Forall2 (fun p r => at_point p = Ok r) ts' rs' /\ Permutation (combine ts rs) (combine ts' rs')).
  { clear F. induction P as [|x l l' P IH|x y l|l l' l'' P1 IH1 P2 IH2]; intros rs H.
    - exists rs. split; [assumption|reflexivity].
    - inversion H; subst. destruct (IH _ H4) as [rs' [A B]]. exists (y :: rs'). split; [now constructor|].
      simpl. now constructor.
    - inversion H; subst. inversion H4; subst. eexists (_ :: _ :: _). split; [repeat constructor; eassumption|].
      simpl. apply perm_swap.
    - destruct (IH1 _ H) as [r1 [A1 B1]]. destruct (IH2 _ A1) as [r2 [A2 B2]].
      exists r2. split; [assumption|]. now transitivity (combine l' r1). }
  intros rs H. apply pw_entries in H. destruct H as [Z H]. destruct (G rs H) as [rs' [A B]].
  exists rs'. split; [now apply pw_entries|assumption].
Qed.

Lemma mapM_first_error : forall (l : list datapoint) e, mapM at_point l = Err e <->
  exists pre p post, l = pre ++ p :: post /\ is_ok (mapM at_point pre) /\ at_point p = Err e.
Proof.
  induction l as [|x l IH]; intros e; simpl.
  - split; [discriminate|]. intros [pre [p [post [A _]]]]. now destruct pre.
  - split.
    + destruct (at_point x) as [r|e'] eqn:E; cbn [bind].
      * destruct (mapM at_point l) as [rs|e'] eqn:E2; cbn [bind]; [discriminate|]. intros [= ->].
        destruct (proj1 (IH e) eq_refl) as [pre [p [post [A [[rs B] D]]]]].
        exists (x :: pre), p, post. rewrite A. split; [reflexivity|]. split; [|assumption].
        exists (r :: rs). simpl. rewrite E. cbn [bind]. now rewrite B.
      * intros [= ->]. exists [], x, l. split; [reflexivity|]. split; [now exists []|assumption].
    + intros [pre [p [post [A [[rs B] D]]]]]. destruct pre as [|x' pre]; injection A as -> ->.
      * now rewrite D.
      * simpl in B. destruct (at_point x'); [|discriminate]. cbn [bind] in *.
        destruct (mapM at_point pre) as [q|] eqn:E2; [|discriminate].
        assert (X : mapM at_point (pre ++ p :: post) = Err e).
        { apply IH. exists pre, p, post. split; [reflexivity|]. split; [now exists q|assumption]. }
        now rewrite X.
Qed.

Lemma pw_error : forall ts e, f ts = Err e <-> ready = Err e \/
  (ready = Ok tt /\ exists pre p post, ts = pre ++ p :: post /\ is_ok (f pre) /\ at_point p = Err e).
Proof.
  intros ts e. rewrite F. destruct ready as [[]|e'] eqn:Z; cbn [bind].
  - rewrite mapM_first_error. split.
    + intros [pre [p [post [A [B D]]]]]. right. split; [reflexivity|]. exists pre, p, post.
      rewrite F. cbn [bind]. tauto.
    + intros [X|[_ [pre [p [post [A [B D]]]]]]]; [discriminate|]. exists pre, p, post. rewrite F in B. tauto.
  - split; [intros [= ->]; now left|]. intros [X|[X _]]; congruence.
Qed.
End Pointwise.

(** ** C26 *)

(** One entry per datapoint: the modulus of a fresh model's value with that datapoint's flags. *)
Theorem C26_form_factor_entries : forall c d ts rs, reachable c d ->
  (function_form_factor c ts d = Ok rs <->
   buildable c d = Ok tt /\ Forall2 (fun p r => form_factor_at c d p = Ok r) ts rs).
Proof.
  intros c d ts rs H. apply (pw_entries (fun ts => function_form_factor c ts d)).
  intros l. apply function_form_factor_spec. now apply reachable_inv.
Qed.
Print Assumptions C26_form_factor_entries.

Theorem C26_form_factor_length : forall c d ts rs, reachable c d ->
  function_form_factor c ts d = Ok rs -> length rs = length ts.
Proof.
  intros c d ts rs H E. apply C26_form_factor_entries in E; [|assumption]. destruct E as [_ E].
  induction E; simpl; congruence.
Qed.
Print Assumptions C26_form_factor_length.

Theorem C26_form_factor_concatenation : forall c d a b, reachable c d ->
  function_form_factor c (a ++ b) d =
  (x <- function_form_factor c a d ;; y <- function_form_factor c b d ;; Ok (x ++ y)).
Proof.
  intros c d a b H. apply (pw_app (fun ts => function_form_factor c ts d) (buildable c d) (form_factor_at c d)).
  intros l. apply function_form_factor_spec. now apply reachable_inv.
Qed.
Print Assumptions C26_form_factor_concatenation.

(** Reordering the points reorders the results and nothing else. *)
Theorem C26_form_factor_permutation : forall c d ts ts' rs, reachable c d -> Permutation ts ts' ->
  function_form_factor c ts d = Ok rs ->
  exists rs', function_form_factor c ts' d = Ok rs' /\ Permutation (combine ts rs) (combine ts' rs').
Proof.
  intros c d ts ts' rs H. apply (pw_perm (fun ts => function_form_factor c ts d) (buildable c d) (form_factor_at c d)).
  intros l. apply function_form_factor_spec. now apply reachable_inv.
Qed.
Print Assumptions C26_form_factor_permutation.

(** The error raised is the constructor's or that of the first failing point. *)
Theorem C26_form_factor_first_error : forall c d ts e, reachable c d ->
  (function_form_factor c ts d = Err e <-> buildable c d = Err e \/
   (buildable c d = Ok tt /\ exists pre p post, ts = pre ++ p :: post /\
      is_ok (function_form_factor c pre d) /\ form_factor_at c d p = Err e)).
Proof.
  intros c d ts e H. apply (pw_error (fun ts => function_form_factor c ts d)).
  intros l. apply function_form_factor_spec. now apply reachable_inv.
Qed.
Print Assumptions C26_form_factor_first_error.

Lemma nonzero_flag : forall b : bool, nonzero (RtoC (if b then 1 else 0)) = b.
Proof.
  intros b. unfold nonzero. destruct (C_eq_dec _ _) as [E|E]; destruct b; try reflexivity; exfalso.
  - apply RtoC_inj in E. lra.
  - now apply E.
Qed.

Lemma plain_kaon : forall p, kaon_point (plain p) = kaon_point p.
Proof. intros [t b|t b e|xs]; cbn [plain kaon_point]; now rewrite ?nonzero_flag. Qed.

Lemma plain_nucleon : forall p, nucleon_point (plain p) = nucleon_point p.
Proof. intros [t b|t b e|xs]; cbn [plain nucleon_point]; now rewrite ?nonzero_flag. Qed.

Lemma mapM_map : forall A B D (f : B -> Res D) (g : A -> B) l, mapM f (map g l) = mapM (fun x => f (g x)) l.
Proof. intros A B D f g l. induction l as [|x l IH]; [reflexivity|]. simpl. now rewrite IH. Qed.

(** Plain numeric rows give the same results as datapoint objects (this is what scipy's curve_fit passes on). *)
Theorem C26_form_factor_plain_rows : forall c d ts, reachable c d ->
  function_form_factor c (map plain ts) d = function_form_factor c ts d.
Proof.
  intros c d ts H. apply reachable_inv in H. rewrite !(function_form_factor_spec c _ d H).
  destruct (buildable c d); [|reflexivity]. cbn [bind]. rewrite mapM_map. apply mapM_ext_in. intros p _.
  unfold form_factor_at. destruct (family_of c); now rewrite ?plain_kaon, ?plain_nucleon.
Qed.
Print Assumptions C26_form_factor_plain_rows.

(** A store always supplies exactly the keyword arguments its model asks for, so building the model never raises a
    TypeError; the oscillation parameters have no model. *)
Theorem C26_store_matches_model : forall c d, reachable c d ->
  match family_of c with
  | FKaon k => Permutation (map fst (keywords d)) (kaon_keywords k)
  | FNucleon => Permutation (map fst (keywords d)) nucleon_keywords
  | FETGMR => map fst (keywords d) = ["a"; "m_a"; "m_d"]
  | FTwoPoles => map fst (keywords d) = ["a"; "m_1"; "m_2"]
  | FNone => buildable c d = Err TypeError
  end.
Proof.
  intros c d H. apply reachable_inv in H. destruct H as [N _].
  assert (E : map fst (keywords d) = class_names c).
  { unfold keywords. rewrite map_map. exact N. }
  destruct c; cbn [family_of]; try rewrite E; try (apply perm_check_ok; vm_compute; reflexivity); reflexivity.
Qed.
Print Assumptions C26_store_matches_model.

(** A concrete store, built from values in another order than the class's. *)
Definition demo_store : data := built (table PKaonB) (demo_kw (1/7) (1/2) ReducedB).

Lemma demo_store_built : construct PKaonB (demo_kw (1/7) (1/2) ReducedB) = Ok demo_store.
Proof.
  apply construct_iff. split; [|reflexivity]. unfold demo_kw. rewrite map_map. cbn [fst]. rewrite map_id.
  apply perm_check_ok. vm_compute. reflexivity.
Qed.

Lemma demo_store_reachable : reachable PKaonB demo_store.
Proof. eapply reach_init. exact demo_store_built. Qed.

Lemma demo_store_kwval : forall n, In n (kaon_keywords ReducedB) -> kwval (keywords demo_store) n = demo_value (1/7) (1/2) n.
Proof.
  assert (B : forallb (fun n => existsb (String.eqb n) (class_names PKaonB)) (kaon_keywords ReducedB) = true)
    by (vm_compute; reflexivity).
  assert (E : keywords demo_store = map (fun n => (n, demo_value (1/7) (1/2) n)) (class_names PKaonB)).
  { unfold keywords, demo_store, built, class_names, names. rewrite !map_map. cbn [par_name par_value].
    apply map_ext_in. intros s Hs. f_equal. apply demo_kwval.
    assert (P := perm_check_ok (class_names PKaonB) (kaon_keywords ReducedB) ltac:(vm_compute; reflexivity)).
    eapply Permutation_in; [exact P|]. unfold class_names. now apply in_map. }
  intros n H. unfold kwval. rewrite E. rewrite lookup_map_pair; [reflexivity|].
  rewrite forallb_forall in B. apply B in H. apply existsb_exists in H. destruct H as [x [Hx Ex]].
  apply String.eqb_eq in Ex. now subst.
Qed.

(** The order of keyword arguments does not matter. *)
Lemma bind_kwargs_order : forall V formals (kw kw' : env V), length kw = length kw' ->
  (forall n, lookup kw n = lookup kw' n) -> bind_kwargs formals kw = bind_kwargs formals kw'.
Proof.
  intros V formals kw kw' L E. unfold bind_kwargs. rewrite L. destruct (Nat.eqb _ _); [|reflexivity].
  apply mapM_ext_in. intros f _. now rewrite E.
Qed.

Lemma evaluate_order : forall p e kw kw' t, length kw = length kw' -> (forall n, lookup kw n = lookup kw' n) ->
  evaluate New p e kw t = evaluate New p e kw' t.
Proof.
  intros p e kw kw' t L E. unfold evaluate, Nucleon_init. now rewrite (bind_kwargs_order _ _ kw kw' L E).
Qed.

Example C26_instance : exists x y,
  function_form_factor PKaonB [KaonDatapoint (RtoC 5) true; Row [RtoC 5; RtoC 0]] demo_store = Ok [x; y] /\
  function_form_factor PKaonB [Row [RtoC 5; RtoC 1]; KaonDatapoint (RtoC 2) false; Row [RtoC 5]] demo_store =
    Err ZeroDivisionError /\
  function_form_factor PKaonB [Row [RtoC 5; RtoC 1]; Row [RtoC 5]; KaonDatapoint (RtoC 2) false] demo_store =
    Err IndexError.
Proof.
  assert (RC := demo_store_reachable).
  assert (P := C26_store_matches_model _ _ RC). cbn [family_of] in P.
  assert (AC : forall ch, is_ok (Kaon_init (kaon_class ReducedB) ch (keywords demo_store))).
  { intros ch. apply Kaon_accept_iff. split; [exact P|].
    destruct (proj1 (Kaon_accept_iff ReducedB ch (demo_kw (1/7) (1/2) ReducedB)) (demo_accepted _ _ _ _)) as [_ [A B]].
    rewrite !demo_kwval in A, B by inkw. rewrite !demo_store_kwval by inkw.
    unfold sector_accepted in *. split.
    - destruct A as [A1 [A2 A3]]. split; [assumption|]. split; [assumption|]. intros n Hn. specialize (A3 n Hn).
      cbn in Hn. repeat (destruct Hn as [<-|Hn]; [rewrite !demo_kwval in A3 by inkw; rewrite !demo_store_kwval by inkw; exact A3|]).
      contradiction.
    - destruct B as [A1 [A2 A3]]. split; [assumption|]. split; [assumption|]. intros n Hn. specialize (A3 n Hn).
      cbn in Hn. repeat (destruct Hn as [<-|Hn]; [rewrite !demo_kwval in A3 by inkw; rewrite !demo_store_kwval by inkw; exact A3|]).
      contradiction. }
  assert (BU : buildable PKaonB demo_store = Ok tt).
  { unfold buildable. cbn [family_of]. destruct (AC true) as [m ->]. reflexivity. }
  assert (V5 : forall ch, is_ok (kaon_value ReducedB ch (keywords demo_store) (RtoC 5)) /\
                          kaon_value ReducedB ch (keywords demo_store) (RtoC 2) = Err ZeroDivisionError).
  { intros ch. unfold kaon_value. destruct (AC ch) as [m H]. rewrite H. cbn [bind].
    split.
    - apply (C18_kaon_defined_on_real_axis ReducedB ch _ m 5 H); rewrite ?demo_store_kwval by inkw; unfold demo_value; cbn [prefix]; simpl; try lra.
      intros n Hn. cbn in Hn.
      repeat (destruct Hn as [<-|Hn]; [rewrite !demo_store_kwval by inkw; unfold demo_value; simpl; lra|]). contradiction.
    - apply (C18_kaon_failure_set ReducedB ch _ m (RtoC 2) H); rewrite ?demo_store_kwval by inkw; unfold demo_value; simpl; try lra.
      split; [lra|]. now left. }
  assert (N1 : nonzero (RtoC 1) = true) by exact (nonzero_flag true).
  assert (N0 : nonzero (RtoC 0) = false) by exact (nonzero_flag false).
  assert (S := fun ts => function_form_factor_spec PKaonB ts demo_store (reachable_inv _ _ RC)).
  destruct (V5 true) as [[x Vx] Zt]. destruct (V5 false) as [[y Vy] Zf].
  exists (Cabs x), (Cabs y). rewrite !S, BU. cbn [bind].
  cbn [mapM form_factor_at family_of kaon_point]. rewrite ?N1, ?N0, ?Vx, ?Vy, ?Zf. cbn [bind]. auto.
Qed.

(** ** C27 *)

Theorem C27_cross_section_entries : forall c mass alpha hc d ts rs, reachable c d ->
  (function_cross_section c ts mass alpha hc d = Ok rs <->
   buildable c d = Ok tt /\ Forall2 (fun p r => cross_section_at c mass alpha hc d p = Ok r) ts rs).
Proof.
  intros c mass alpha hc d ts rs H. apply (pw_entries (fun ts => function_cross_section c ts mass alpha hc d)).
  intros l. apply function_cross_section_spec. now apply reachable_inv.
Qed.
Print Assumptions C27_cross_section_entries.

Theorem C27_cross_section_length : forall c mass alpha hc d ts rs, reachable c d ->
  function_cross_section c ts mass alpha hc d = Ok rs -> length rs = length ts.
Proof.
  intros c mass alpha hc d ts rs H E. apply C27_cross_section_entries in E; [|assumption]. destruct E as [_ E].
  induction E; simpl; congruence.
Qed.
Print Assumptions C27_cross_section_length.

Theorem C27_cross_section_concatenation : forall c mass alpha hc d a b, reachable c d ->
  function_cross_section c (a ++ b) mass alpha hc d =
  (x <- function_cross_section c a mass alpha hc d ;; y <- function_cross_section c b mass alpha hc d ;; Ok (x ++ y)).
Proof.
  intros c mass alpha hc d a b H.
  apply (pw_app (fun ts => function_cross_section c ts mass alpha hc d) (buildable c d) (cross_section_at c mass alpha hc d)).
  intros l. apply function_cross_section_spec. now apply reachable_inv.
Qed.
Print Assumptions C27_cross_section_concatenation.

Theorem C27_cross_section_permutation : forall c mass alpha hc d ts ts' rs, reachable c d -> Permutation ts ts' ->
  function_cross_section c ts mass alpha hc d = Ok rs ->
  exists rs', function_cross_section c ts' mass alpha hc d = Ok rs' /\ Permutation (combine ts rs) (combine ts' rs').
Proof.
  intros c mass alpha hc d ts ts' rs H.
  apply (pw_perm (fun ts => function_cross_section c ts mass alpha hc d) (buildable c d) (cross_section_at c mass alpha hc d)).
  intros l. apply function_cross_section_spec. now apply reachable_inv.
Qed.
Print Assumptions C27_cross_section_permutation.

Theorem C27_cross_section_first_error : forall c mass alpha hc d ts e, reachable c d ->
  (function_cross_section c ts mass alpha hc d = Err e <-> buildable c d = Err e \/
   (buildable c d = Ok tt /\ exists pre p post, ts = pre ++ p :: post /\
      is_ok (function_cross_section c pre mass alpha hc d) /\ cross_section_at c mass alpha hc d p = Err e)).
Proof.
  intros c mass alpha hc d ts e H. apply (pw_error (fun ts => function_cross_section c ts mass alpha hc d)).
  intros l. apply function_cross_section_spec. now apply reachable_inv.
Qed.
Print Assumptions C27_cross_section_first_error.

Theorem C27_cross_section_plain_rows : forall c mass alpha hc d ts, reachable c d ->
  function_cross_section c (map plain ts) mass alpha hc d = function_cross_section c ts mass alpha hc d.
Proof.
  intros c mass alpha hc d ts H. apply reachable_inv in H. rewrite !(function_cross_section_spec c _ _ _ _ d H).
  destruct (buildable c d); [|reflexivity]. cbn [bind]. rewrite mapM_map. apply mapM_ext_in. intros p _.
  unfold cross_section_at. destruct (family_of c); now rewrite ?plain_kaon, ?plain_nucleon.
Qed.
Print Assumptions C27_cross_section_plain_rows.

(** The electric flags of the datapoints are irrelevant, whatever each of them is replaced by. *)
Theorem C27_electric_flag_irrelevant : forall mass alpha hc d ts ts', reachable PNucleon d ->
  Forall2 (fun p q => exists b, q = with_electric b p) ts ts' ->
  function_cross_section PNucleon ts' mass alpha hc d = function_cross_section PNucleon ts mass alpha hc d.
Proof.
  intros mass alpha hc d ts ts' H F. apply reachable_inv in H. rewrite !(function_cross_section_spec _ _ _ _ _ d H).
  destruct (buildable PNucleon d); [|reflexivity]. cbn [bind]. induction F as [|p q l l' [b ->] F IH]; [reflexivity|].
  cbn [mapM]. rewrite IH. f_equal. unfold cross_section_at. cbn [family_of].
  destruct p as [t c|t pr el|[|t [|x [|y r]]]]; reflexivity.
Qed.
Print Assumptions C27_electric_flag_irrelevant.

(** The two auxiliary models: AttributeError on non-empty lists of nucleon datapoints, IndexError when the first
    datapoint has two entries.  No non-empty list gives a result. *)
Theorem C27_auxiliary_models_unsupported : forall c mass alpha hc d p ts, c = PETGMR \/ c = PTwoPoles -> reachable c d ->
  function_cross_section c (p :: ts) mass alpha hc d =
    Err (match p with
         | NucleonDatapoint _ _ _ => AttributeError
         | KaonDatapoint _ _ => IndexError
         | Row xs => if Nat.ltb (length xs) 3 then IndexError else AttributeError
         end) /\
  function_cross_section c [] mass alpha hc d = Ok [].
Proof.
  intros c mass alpha hc d p ts K H. apply reachable_inv in H. rewrite !(function_cross_section_spec _ _ _ _ _ d H).
  destruct K as [-> | ->]; unfold buildable; cbn [family_of bind mapM]; (split; [|reflexivity]);
    unfold cross_section_at; cbn [family_of];
    destruct p as [t b|t pr el|[|t [|x [|y r]]]]; reflexivity.
Qed.
Print Assumptions C27_auxiliary_models_unsupported.

(** What the comment at l.167-168 promises does not happen. *)
Theorem C27_auxiliary_models_supported_refuted : exists d t, reachable PETGMR d /\
  is_ok (function_form_factor PETGMR [NucleonDatapoint t true true] d) /\
  ~ is_ok (function_cross_section PETGMR [NucleonDatapoint t true true] 1 1 1 d).
Proof.
  exists (built (table PETGMR) [("a", 1); ("m_a", 2); ("m_d", 3)]), (RtoC 0).
  assert (RC : reachable PETGMR (built (table PETGMR) [("a", 1); ("m_a", 2); ("m_d", 3)])).
  { apply (reach_init _ [("a", 1); ("m_a", 2); ("m_d", 3)]). reflexivity. }
  split; [exact RC|]. split.
  - rewrite (function_form_factor_spec _ _ _ (reachable_inv _ _ RC)). unfold buildable. cbn [family_of bind mapM].
    unfold form_factor_at. cbn [family_of nucleon_point].
    change (val _ "a") with 1. change (val _ "m_a") with 2. change (val _ "m_d") with 3.
    unfold ETGMRModel_call, ETGMRModel_init.
    repeat first [rewrite cdiv_ok by (intros E; apply (f_equal Re) in E; simpl in E; lra); cbn [bind] | eexists; reflexivity].
  - intros [r X]. destruct (C27_auxiliary_models_unsupported PETGMR 1 1 1 _ (NucleonDatapoint (RtoC 0) true true) []
      (or_introl eq_refl) RC) as [Y _]. congruence.
Qed.
Print Assumptions C27_auxiliary_models_supported_refuted.

(** A nucleon store in another order than the keywords of the model. *)
Definition demo_nucleon_store : data := built (table PNucleon) (demo_nucleon (1/2)).

Lemma demo_nucleon_store_reachable : reachable PNucleon demo_nucleon_store.
Proof.
  apply (reach_init _ (demo_nucleon (1/2))). apply construct_iff. split; [|reflexivity].
  apply perm_check_ok. vm_compute. reflexivity.
Qed.

Lemma demo_nucleon_lookup : length (keywords demo_nucleon_store) = length (demo_nucleon (1/2)) /\
  forall n, lookup (keywords demo_nucleon_store) n = lookup (demo_nucleon (1/2)) n.
Proof.
  assert (P := perm_check_ok (class_names PNucleon) (map fst (demo_nucleon (1/2))) ltac:(vm_compute; reflexivity)).
  split.
  - apply Permutation_length in P. rewrite map_length in P. rewrite <- P.
    unfold keywords, demo_nucleon_store, built, class_names. now rewrite !map_length.
  - assert (E : keywords demo_nucleon_store = map (fun n => (n, kwval (demo_nucleon (1/2)) n)) (class_names PNucleon)).
    { unfold keywords, demo_nucleon_store, built, class_names. rewrite !map_map. reflexivity. }
    intros n. rewrite E. destruct (in_dec string_dec n (class_names PNucleon)) as [I|N].
    + rewrite lookup_map_pair by assumption. unfold kwval.
      destruct (lookup (demo_nucleon (1/2)) n) eqn:L; [reflexivity|]. exfalso. apply lookup_None in L. apply L.
      eapply Permutation_in; eassumption.
    + transitivity (@None R); [|symmetry]; apply lookup_None.
      * rewrite map_map. cbn [fst]. now rewrite map_id.
      * intros I. apply N. eapply Permutation_in; [apply Permutation_sym; exact P|exact I].
Qed.

Example C27_instance : exists x y,
  function_cross_section PNucleon [NucleonDatapoint (mkC 5 1) true true; Row [mkC 5 1; RtoC 0; RtoC 1]] (1/2) 1 1
    demo_nucleon_store = Ok [x; y] /\
  function_cross_section PNucleon [NucleonDatapoint (mkC 5 1) true false; NucleonDatapoint (mkC 5 1) false false] (1/2) 1 1
    demo_nucleon_store = Ok [x; y] /\
  function_cross_section PNucleon [NucleonDatapoint (mkC 5 1) true false; KaonDatapoint (mkC 5 1) false] (1/2) 1 1
    demo_nucleon_store = Err IndexError.
Proof.
  assert (RC := demo_nucleon_store_reachable). destruct demo_nucleon_lookup as [LE LO].
  assert (BU : buildable PNucleon demo_nucleon_store = Ok tt).
  { unfold buildable. cbn [family_of]. unfold Nucleon_init. rewrite (bind_kwargs_order _ _ _ _ LE LO).
    destruct (nucleon_instance New true true) as [m [_ [_ [H _]]]]. change (nucleon_class New) with NucleonUAModel in H.
    unfold Nucleon_init in H. rewrite H. reflexivity. }
  assert (EV : forall p e, exists v, evaluate New p e (keywords demo_nucleon_store) (mkC 5 1) = Ok v).
  { intros p e. rewrite (evaluate_order _ _ _ _ _ LE LO).
    destruct (nucleon_instance New p e) as [_ [v [_ [_ [H _]]]]]. now exists v. }
  assert (FO : forall ge gm, exists v, nucleon_formula (NucleonCS_init (1/2) 1 1) (mkC 5 1) ge gm = Ok v).
  { intros ge gm. unfold nucleon_formula. cbn [nc_four_mass_squared NucleonCS_init].
    assert (A : 1 < Cabs (mkC 5 1)).
    { unfold Cabs, Cnorm2. simpl. rewrite <- sqrt_1 at 1. apply sqrt_lt_1; lra. }
    unfold rdiv. destruct (Req_EM_T (Cabs (mkC 5 1)) 0); [lra|]. cbn [bind].
    rewrite rsqrt_ok.
    - cbn [bind]. rewrite cdiv_ok by (intros E; apply (f_equal Re) in E; simpl in E; lra). cbn [bind].
      rewrite cdiv_ok by (intros E; apply (f_equal Re) in E; simpl in E; lra). eexists. reflexivity.
    - assert (4 * (1/2 * (1/2)) / Cabs (mkC 5 1) <= 1); [|lra]. apply (Rmult_le_reg_r (Cabs (mkC 5 1))); [lra|].
      unfold Rdiv. rewrite Rmult_assoc, Rinv_l; lra. }
  assert (V : forall p, exists x, forall e, cross_section_at PNucleon (1/2) 1 1 demo_nucleon_store (NucleonDatapoint (mkC 5 1) p e) = Ok x).
  { intros p. destruct (EV p true) as [ge Ge]. destruct (EV p false) as [gm Gm]. destruct (FO (Cabs ge) (Cabs gm)) as [v Hv].
    exists (Cabs v). intros e. unfold cross_section_at. cbn [family_of nucleon_point].
    rewrite Ge. cbn [bind]. rewrite Gm. cbn [bind]. now rewrite Hv. }
  destruct (V true) as [x Vx]. destruct (V false) as [y Vy]. exists x, y.
  assert (S := fun ts => function_cross_section_spec PNucleon ts (1/2) 1 1 demo_nucleon_store (reachable_inv _ _ RC)).
  assert (Q : cross_section_at PNucleon (1/2) 1 1 demo_nucleon_store (Row [mkC 5 1; RtoC 0; RtoC 1]) = Ok y).
  { rewrite <- (Vy true). unfold cross_section_at. cbn [family_of nucleon_point].
    now rewrite (nonzero_flag false), ?(nonzero_flag true). }
  rewrite !S, BU. cbn [bind mapM]. rewrite ?Vx, ?Vy, Q. cbn [bind]. auto.
Qed.
