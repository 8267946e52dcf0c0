(** C70: the functions handed to the optimiser depend continuously on the parameters. *)
From Coq Require Import String Reals Bool Arith List Lra Lia Permutation.
From Verif Require Import PyBase CNum UAMaps UAComponents PyExpr UAModels Nucleon OtherModels Params ParamClasses ParamProofs ParamSpec BoundsProofs CrossSections CommonUtils
  MapProofs ComponentProofs ExprProofs KaonProofs SectorProofs KaonSpec PropsKaon PropsKaon2 NucleonCache NucleonProofs NucleonView NucleonSpec PropsNucleon2
  UtilsSpec UtilsProofs PropsUtils PropsBounds PropsCouplings WorldSpec PropsParams
  Analytic AnalyticModels PropsAmbiguity Masses PropsMasses Limits PropsBranchPoints.
Import ListNotations.
Local Open Scope R_scope.
Local Open Scope py_scope.
Local Open Scope string_scope.
Local Open Scope list_scope.

#[local] Arguments String.append : simpl never.

(** ** Specification *)

(** All values of the store are close. *)
Definition close (delta : R) (c : param_class) (d d' : data) : Prop :=
  forall n, In n (class_names c) -> Rabs (val d' n - val d n) < delta.

(** No resonance is where the model switches between the two kinds of component. *)
Definition off_thresholds (c : param_class) (d : data) : Prop :=
  match family_of c with
  | FKaon k => forall s n, In n (part k s) -> ~ at_threshold (keywords d) s n
  | FNucleon => forall s f n, In n (mesons s) -> ~ nucleon_threshold New (keywords d) s f n
  | _ => True
  end.

(** The weighted sum of squared differences, the weights being 1 or one over the squared errors. *)
Definition squares (measured : list (R * R)) (rs : list R) : R :=
  Rsum (map (fun x => fst (fst x) * ((snd x - snd (fst x)) * (snd x - snd (fst x)))) (combine measured rs)).

(** A function of the store, given as a list of values, is continuous at [d]: it also returns at stores of the same class that are
    close and from which the model can be built, and its entries and every weighted sum of squares are close. *)
Definition continuous_at (c : param_class) (f : data -> Res (list R)) (d : data) (rs : list R) : Prop :=
  forall eps, 0 < eps -> forall measured, exists delta, 0 < delta /\
    forall d', reachable c d' -> buildable c d' = Ok tt -> close delta c d d' ->
    exists rs', f d' = Ok rs' /\ Forall2 (fun r r' => Rabs (r' - r) < eps) rs rs' /\ Rabs (squares measured rs' - squares measured rs) < eps.

(** ** Limits over stores *)

Section Stores.
Variables (c : param_class) (d0 : data).
Hypothesis R0 : reachable c d0.
Hypothesis T0 : off_thresholds c d0.

Definition B (delta : R) (x : data) : Prop := close delta c d0 x /\ reachable c x /\ buildable c x = Ok tt.

Lemma mono : forall d e x, d <= e -> B d x -> B e x.
Proof. intros d e x L (N & R). split; [|exact R]. intros n I. eapply Rlt_le_trans; [now apply N|exact L]. Qed.

Definition tends (f : data -> Res C) (v : C) : Prop := exists g, soon B (fun x => f x = Ok (g x)) /\ lim B g v.
Definition rtends (f : data -> Res R) (v : R) : Prop := exists g, soon B (fun x => f x = Ok (g x)) /\ rlim B g v.

Lemma tends_intro : forall f v, (forall eps, 0 < eps -> soon B (fun x => exists v', f x = Ok v' /\ Cabs (Csub v' v) < eps)) -> tends f v.
Proof.
  intros f v H. exists (fun x => match f x with Ok y => y | Err _ => RtoC 0 end). split.
  - generalize (H 1 ltac:(lra)). apply soon_imp. intros x (v' & E & _). now rewrite E.
  - intros eps P. generalize (H eps P). apply soon_imp. intros x (v' & E & L). now rewrite E.
Qed.

Lemma lim_Cabs : forall g v, lim B g v -> rlim B (fun x => Cabs (g x)) (Cabs v).
Proof.
  intros g v L eps P. generalize (L eps P). apply soon_imp. intros x Q. assert (A := Cabs_triangle_rev (g x) v). assert (A' := Cabs_triangle_rev v (g x)).
  replace (Csub v (g x)) with (Copp (Csub (g x) v)) in A' by ring. rewrite Cabs_opp in A'. apply Rabs_def1; lra.
Qed.

Lemma tends_abs : forall f v, tends f v -> rtends (fun x => y <- f x ;; Ok (Cabs y)) (Cabs v).
Proof.
  intros f v (g & S & L). exists (fun x => Cabs (g x)). split; [|now apply lim_Cabs]. generalize S. apply soon_imp. intros x E. now rewrite E.
Qed.

Lemma tends_ok : forall g v, lim B g v -> tends (fun x => Ok (g x)) v.
Proof. intros g v L. exists g. split; [|exact L]. apply soon_all. reflexivity. Qed.

Lemma tends_div : forall g h u v w, lim B g u -> lim B h v -> cdiv u v = Ok w -> tends (fun x => cdiv (g x) (h x)) w.
Proof.
  intros g h u v w G H E. unfold cdiv in E. destruct (C_eq_dec v (RtoC 0)) as [|N]; [discriminate|]. injection E as <-.
  exists (fun x => Cdivt (g x) (h x)). split; [|now apply (lim_div B mono)].
  generalize (lim_neq B mono _ _ _ _ H (lim_const B (RtoC 0)) N). apply soon_imp. intros x Q. unfold cdiv. now destruct (C_eq_dec (h x) (RtoC 0)).
Qed.

Lemma tends_bind : forall f u (h : data -> C -> Res C) v, tends f u -> (forall g, lim B g u -> tends (fun x => h x (g x)) v) -> tends (fun x => y <- f x ;; h x y) v.
Proof.
  intros f u h v (g & S & L) H. destruct (H g L) as (g' & S' & L'). exists g'. split; [|exact L'].
  generalize (soon_and B mono _ _ S S'). apply soon_imp. intros x (E & E'). now rewrite E.
Qed.

Lemma values_lim : forall n, In n (class_names c) -> rlim B (fun x => val x n) (val d0 n).
Proof. intros n I eps P. exists eps. split; [exact P|]. intros x (N & _). now apply N. Qed.

Lemma close_within : forall names delta x, incl names (class_names c) -> close delta c d0 x -> within delta names (keywords d0) (keywords x).
Proof. intros names delta x I N n J. rewrite !kwval_keywords. now apply N, I. Qed.

Lemma model_names : forall x names, reachable c x -> Permutation (map fst (keywords x)) names -> incl names (class_names c).
Proof. intros x names R P n I. rewrite <- (names_kw c x R). apply Permutation_in with (2 := I). now apply Permutation_sym. Qed.

Lemma kaon_tends : forall k ch t v, family_of c = FKaon k -> kaon_value k ch (keywords d0) t = Ok v -> tends (fun x => kaon_value k ch (keywords x) t) v.
Proof.
  intros k ch t v F E. assert (M := C26_store_matches_model c d0 R0). rewrite F in M. assert (T := T0). unfold off_thresholds in T. rewrite F in T.
  unfold kaon_value in E. destruct (Kaon_init (kaon_class k) ch (keywords d0)) as [m|] eqn:I; [|discriminate]. cbn [bind] in E.
  apply tends_intro. intros eps P. destruct (C69_kaon k ch _ m t v I E T eps P) as (d & D & L). exists d. split; [exact D|]. intros x (N & R & Y).
  assert (A : is_ok (Kaon_init (kaon_class k) ch (keywords x))).
  { unfold buildable in Y. rewrite F in Y. destruct (Kaon_init (kaon_class k) true (keywords x)) as [m'|] eqn:I'; [|discriminate]. apply Kaon_accept_iff. apply (Kaon_accept_iff k true). now exists m'. }
  destruct A as (m' & I'). destruct (L (keywords x) m') as (v' & E' & L'); [apply close_within; [exact (model_names d0 _ R0 M)|exact N]|exact I'|].
  exists v'. split; [|exact L']. unfold kaon_value. rewrite I'. exact E'.
Qed.

Lemma nucleon_tends : forall p e t v, family_of c = FNucleon -> evaluate New p e (keywords d0) t = Ok v -> tends (fun x => evaluate New p e (keywords x) t) v.
Proof.
  intros p e t v F E. assert (M := C26_store_matches_model c d0 R0). rewrite F in M. assert (T := T0). unfold off_thresholds in T. rewrite F in T.
  apply tends_intro. intros eps P. destruct (C69_nucleon New p e _ t v E T eps P) as (d & D & L). exists d. split; [exact D|]. intros x (N & R & Y).
  apply L; [apply close_within; [exact (model_names d0 _ R0 M)|exact N]|].
  unfold buildable in Y. rewrite F in Y. change NucleonUAModel with (nucleon_class New) in Y. destruct (Nucleon_init (nucleon_class New) true true (keywords x)) as [m'|] eqn:I'; [|discriminate].
  apply Nucleon_accept_iff. apply (Nucleon_accept_iff New true true). now exists m'.
Qed.

Lemma square_lim : forall n, In n (class_names c) -> lim B (fun x => RtoC (val x n * val x n)) (RtoC (val d0 n * val d0 n)).
Proof. intros n I. apply rlim_lim. apply (rlim_mul B mono); now apply values_lim. Qed.

Lemma form_factor_tends : forall p r, form_factor_at c d0 p = Ok r -> rtends (fun x => form_factor_at c x p) r.
Proof.
  intros p r E. unfold form_factor_at in *. assert (ABS : forall f v, f d0 = Ok v -> tends f v -> (y <- f d0 ;; Ok (Cabs y)) = Ok r -> rtends (fun x => y <- f x ;; Ok (Cabs y)) r).
  { intros f v Ef L Er. rewrite Ef in Er. cbn [bind] in Er. injection Er as <-. now apply tends_abs. }
  assert (TWO : forall a0 m1 m2 (h : C -> C -> C) t v, In a0 (class_names c) -> In m1 (class_names c) -> In m2 (class_names c) ->
    (forall g g' u u', lim B g u -> lim B g' u' -> lim B (fun x => h (g x) (g' x)) (h u u')) ->
    (q1 <- cdiv t (RtoC (val d0 m1 * val d0 m1)) ;; q2 <- cdiv t (RtoC (val d0 m2 * val d0 m2)) ;; cdiv (RtoC (val d0 a0)) (h q1 q2)) = Ok v ->
    tends (fun x => q1 <- cdiv t (RtoC (val x m1 * val x m1)) ;; q2 <- cdiv t (RtoC (val x m2 * val x m2)) ;; cdiv (RtoC (val x a0)) (h q1 q2)) v).
  { intros a0 m1 m2 h t v Ia I1 I2 Hh Ev.
    destruct (cdiv t (RtoC (val d0 m1 * val d0 m1))) as [q1|] eqn:E1; [|discriminate]. cbn [bind] in Ev. destruct (cdiv t (RtoC (val d0 m2 * val d0 m2))) as [q2|] eqn:E2; [|discriminate]. cbn [bind] in Ev.
    apply tends_bind with (u := q1); [exact (tends_div _ _ _ _ _ (lim_const B t) (square_lim m1 I1) E1)|]. intros g1 L1.
    apply tends_bind with (u := q2); [exact (tends_div _ _ _ _ _ (lim_const B t) (square_lim m2 I2) E2)|]. intros g2 L2.
    apply tends_div with (2 := Hh g1 g2 q1 q2 L1 L2) (3 := Ev). apply rlim_lim. now apply values_lim. }
  destruct (family_of c) as [k| | | |] eqn:F.
  - destruct (kaon_point p) as [(t & ch)|]; [|discriminate]. destruct (kaon_value k ch (keywords d0) t) as [v|] eqn:Ev; [|discriminate].
    apply (ABS (fun x => kaon_value k ch (keywords x) t) v Ev (kaon_tends k ch t v F Ev)). rewrite Ev. exact E.
  - destruct (nucleon_point p) as [((t & pr) & el)|]; [|discriminate]. destruct (evaluate New pr el (keywords d0) t) as [v|] eqn:Ev; [|discriminate].
    apply (ABS (fun x => evaluate New pr el (keywords x) t) v Ev (nucleon_tends pr el t v F Ev)). rewrite Ev. exact E.
  - destruct (nucleon_point p) as [((t & pr) & el)|]; [|discriminate].
    set (f := fun x => ETGMRModel_call (ETGMRModel_init (val x "a") (val x "m_a") (val x "m_d")) t). fold (f d0) in E. destruct (f d0) as [v|] eqn:Ev; [|discriminate].
    apply (ABS f v Ev); [|rewrite Ev; exact E].
    assert (IN : In "a" (class_names c) /\ In "m_a" (class_names c) /\ In "m_d" (class_names c)) by (clear - F; destruct c; try discriminate F; vm_compute; tauto). destruct IN as (I1 & I2 & I3).
    apply (TWO "a" "m_a" "m_d" (fun q1 q2 => ((1 + q1) * Csq (1 - q2))%C) t v); [exact I1|exact I2|exact I3| |exact Ev].
    intros g g' u u' L L'. apply (lim_mul B mono); [apply (lim_add B mono); [apply lim_const|exact L]|]. apply (lim_sq B mono). apply (lim_sub B mono); [apply lim_const|exact L'].
  - destruct (nucleon_point p) as [((t & pr) & el)|]; [|discriminate].
    set (f := fun x => TwoPolesModel_call (TwoPolesModel_init (val x "a") (val x "m_1") (val x "m_2")) t). fold (f d0) in E. destruct (f d0) as [v|] eqn:Ev; [|discriminate].
    apply (ABS f v Ev); [|rewrite Ev; exact E].
    assert (IN : In "a" (class_names c) /\ In "m_1" (class_names c) /\ In "m_2" (class_names c)) by (clear - F; destruct c; try discriminate F; vm_compute; tauto). destruct IN as (I1 & I2 & I3).
    apply (TWO "a" "m_1" "m_2" (fun q1 q2 => ((1 - q1) * (1 - q2))%C) t v); [exact I1|exact I2|exact I3| |exact Ev].
    intros g g' u u' L L'. apply (lim_mul B mono); apply (lim_sub B mono); try apply lim_const; assumption.
  - exists (fun _ => r). split; [|apply rlim_const]. exists 1. split; [lra|]. intros x (_ & _ & Y). unfold buildable in Y. rewrite F in Y. discriminate Y.
Qed.

Lemma abs_square_lim : forall g v, lim B g v -> lim B (fun x => RtoC (Cabs (g x) * Cabs (g x))) (RtoC (Cabs v * Cabs v)).
Proof. intros g v L. apply rlim_lim. apply (rlim_mul B mono); now apply lim_Cabs. Qed.

Lemma cross_section_tends : forall mass alpha hc p r, cross_section_at c mass alpha hc d0 p = Ok r -> rtends (fun x => cross_section_at c mass alpha hc x p) r.
Proof.
  intros mass alpha hc p r E. unfold cross_section_at in *.
  destruct (family_of c) as [k| | | |] eqn:F; try (destruct (nucleon_point p); discriminate E).
  - destruct (kaon_point p) as [(t & ch)|]; [|discriminate]. unfold ScalarCS_call in *. set (s := ScalarCS_init mass alpha hc) in *.
    destruct (kaon_value k ch (keywords d0) t) as [v|] eqn:Ev; [|discriminate]. cbn [bind] in E.
    destruct (cdiv (RtoC (sc_coefficient s)) t) as [a|]; [|discriminate]. cbn [bind] in E. destruct (cdiv (RtoC (sc_four_mass_squared s)) t) as [q|]; [|discriminate]. cbn [bind] in E. injection E as <-.
    destruct (kaon_tends k ch t v F Ev) as (g & S & L). exists (fun x => Cabs (a * Cpow (1 - q) (3/2) * RtoC (Cabs (g x) * Cabs (g x)))%C). split.
    + generalize S. apply soon_imp. intros x Q. rewrite Q. reflexivity.
    + apply lim_Cabs. apply (lim_mul B mono); [apply lim_const|]. now apply abs_square_lim.
  - destruct (nucleon_point p) as [((t & pr) & el)|]; [|discriminate]. set (s := NucleonCS_init mass alpha hc) in *.
    destruct (evaluate New pr true (keywords d0) t) as [ge|] eqn:Ee; [|discriminate]. cbn [bind] in E. destruct (evaluate New pr false (keywords d0) t) as [gm|] eqn:Em; [|discriminate]. cbn [bind] in E.
    destruct (nucleon_tends pr true t ge F Ee) as (g & S & L). destruct (nucleon_tends pr false t gm F Em) as (h & S' & L'). unfold nucleon_formula in *.
    destruct (rdiv (nc_four_mass_squared s) (Cabs t)) as [q|]; [|discriminate]. cbn [bind] in E |- *. destruct (rsqrt (1 - q)) as [beta|]; [|discriminate]. cbn [bind] in E |- *.
    destruct (cdiv (RtoC (nc_coefficient s * beta)) t) as [a|]; [|discriminate]. cbn [bind] in E |- *. unfold cdiv in *. destruct (C_eq_dec (2 * t)%C (RtoC 0)) as [Z|Z]; [discriminate|]. cbn [bind] in E |- *. injection E as <-.
    exists (fun x => Cabs (a * (RtoC (Cabs (h x) * Cabs (h x)) + Cdivt (RtoC (nc_four_mass_squared s * (Cabs (g x) * Cabs (g x)))) (2 * t)))%C). split.
    + generalize (soon_and B mono _ _ S S'). apply soon_imp. intros x (Q & Q'). rewrite Q, Q'. reflexivity.
    + apply lim_Cabs. apply (lim_mul B mono); [apply lim_const|]. apply (lim_add B mono); [now apply abs_square_lim|]. apply (lim_div B mono); [|apply lim_const|exact Z].
      apply rlim_lim. apply (rlim_mul B mono); [apply rlim_const|]. apply (rlim_mul B mono); now apply lim_Cabs.
Qed.

(** ** Lists *)

Lemma pointwise : forall (f : list datapoint -> data -> Res (list R)) (at_point : data -> datapoint -> Res R),
  (forall x ts rs, reachable c x -> (f ts x = Ok rs <-> buildable c x = Ok tt /\ Forall2 (fun p r => at_point x p = Ok r) ts rs)) ->
  (forall p r, at_point d0 p = Ok r -> rtends (fun x => at_point x p) r) ->
  forall ts rs, f ts d0 = Ok rs -> continuous_at c (f ts) d0 rs.
Proof.
  intros f at_point S T ts rs E eps P measured. apply S in E; [|exact R0]. destruct E as (Y0 & E).
  assert (Z : exists G : list (data -> R), soon B (fun x => Forall2 (fun p r => at_point x p = Ok r) ts (map (fun g => g x) G)) /\ Forall2 (fun g r => rlim B g r) G rs).
  { clear measured Y0. induction E as [|p r ts rs Ep E IH].
    - exists []. split; [|constructor]. apply soon_all. intros x. constructor.
    - destruct IH as (G & S1 & L1). destruct (T p r Ep) as (g & S2 & L2). exists (g :: G). split; [|now constructor].
      generalize (soon_and B mono _ _ S1 S2). apply soon_imp. intros x (Q1 & Q2). cbn [map]. now constructor. }
  destruct Z as (G & S1 & L).
  assert (S2 : soon B (fun x => Forall2 (fun r r' => Rabs (r' - r) < eps) rs (map (fun g => g x) G))).
  { clear S1 E. induction L as [|g r G rs Lg L IH]; [apply soon_all; intros x; constructor|].
    generalize (soon_and B mono _ _ (Lg eps P) IH). apply soon_imp. intros x (Q1 & Q2). cbn [map]. now constructor. }
  assert (S3 : rlim B (fun x => squares measured (map (fun g => g x) G)) (squares measured rs)).
  { clear S1 S2 E. revert measured. induction L as [|g r G rs Lg L IH]; intros [|(w & y) measured]; try (apply rlim_ext with (fun _ => 0); [reflexivity|apply rlim_const]).
    apply rlim_ext with (fun x => w * ((g x - y) * (g x - y)) + squares measured (map (fun g => g x) G)); [reflexivity|].
    change (squares ((w, y) :: measured) (r :: rs)) with (w * ((r - y) * (r - y)) + squares measured rs). apply (rlim_add B mono); [|apply IH].
    apply (rlim_mul B mono); [apply rlim_const|]. apply (rlim_mul B mono); apply (rlim_sub B mono); try assumption; apply rlim_const. }
  destruct (soon_and B mono _ _ S1 (soon_and B mono _ _ S2 (S3 eps P))) as (delta & D & H). exists delta. split; [exact D|]. intros d' R' Y' N.
  destruct (H d' (conj N (conj R' Y'))) as (Q1 & Q2 & Q3). exists (map (fun g => g d') G). split; [apply S; [exact R'|]; now split|]. now split.
Qed.
End Stores.

Theorem C70_continuous : forall c d, reachable c d -> off_thresholds c d ->
  (forall ts rs, function_form_factor c ts d = Ok rs -> continuous_at c (function_form_factor c ts) d rs) /\
  (forall ts mass alpha hc_squared rs, function_cross_section c ts mass alpha hc_squared d = Ok rs ->
     continuous_at c (function_cross_section c ts mass alpha hc_squared) d rs).
Proof.
  intros c d R T. split.
  - intros ts rs E. apply (pointwise c d R (fun ts => function_form_factor c ts) (form_factor_at c)); [|now apply form_factor_tends|exact E].
    intros x ts' rs' Rx. now apply C26_form_factor_entries.
  - intros ts mass alpha hc rs E. apply (pointwise c d R (fun ts => function_cross_section c ts mass alpha hc) (cross_section_at c mass alpha hc)); [|now apply cross_section_tends|exact E].
    intros x ts' rs' Rx. now apply C27_cross_section_entries.
Qed.
Print Assumptions C70_continuous.

(** ** As functions of the free parameters *)

(** The closures over a store, which is what the optimiser calls with the free values. *)
Definition closure_over (c : param_class) (d : data) (k : closure) : Prop :=
  k = FormFactorOf (c, d) \/ exists mass alpha hc_squared, k = CrossSectionOf mass alpha hc_squared (c, d).

Lemma fill_close : forall delta d args args' n, 0 < delta -> Forall2 (fun x x' => Rabs (x' - x) < delta) args args' -> length args = count_free d ->
  Rabs (val (fill d args') n - val (fill d args) n) < delta.
Proof.
  intros delta d args args' n D F. assert (Z : forall x, Rabs (x - x) < delta) by (intros x; rewrite Rminus_diag_eq, Rabs_R0 by reflexivity; exact D).
  revert args args' F. induction d as [|p d IH]; intros args args' F L; [apply Z|].
  assert (V : forall q r, val (q :: r) n = if String.eqb (par_name q) n then par_value q else val r n).
  { intros q r. unfold val. cbn. destruct (String.eqb (par_name q) n); reflexivity. }
  cbn [fill]. destruct (par_fixed p) eqn:FX.
  - rewrite !V. destruct (String.eqb (par_name p) n); [apply Z|]. apply IH; [exact F|]. rewrite L. unfold count_free, is_free. cbn. now rewrite FX.
  - inversion F as [|x x' l l' Lx Ll]; subst.
    + exfalso. unfold count_free, is_free in L. cbn in L. rewrite FX in L. discriminate L.
    + rewrite !V. cbn [with_value par_name par_value]. destruct (String.eqb (par_name p) n); [exact Lx|]. apply IH; [exact Ll|]. unfold count_free, is_free in *. cbn in L. rewrite FX in L. cbn in L. now injection L.
Qed.

Theorem C70_closures : forall c d k args d1 ts rs,
  reachable c d -> closure_over c d k -> update_free_values args d = (Ok tt, d1) -> off_thresholds c d1 -> closure_result k ts args = Ok rs ->
  forall eps, 0 < eps -> forall measured, exists delta, 0 < delta /\
    forall args' d1', Forall2 (fun x x' => Rabs (x' - x) < delta) args args' -> update_free_values args' d = (Ok tt, d1') -> buildable c d1' = Ok tt ->
    exists rs', closure_result k ts args' = Ok rs' /\ Forall2 (fun r r' => Rabs (r' - r) < eps) rs rs' /\ Rabs (squares measured rs' - squares measured rs) < eps.
Proof.
  intros c d k args d1 ts rs R K U T E eps P measured.
  assert (Q : forall a e, update_free_values a d = (Ok tt, e) -> length a = count_free d /\ e = fill d a /\ reachable c e).
  { intros a e Ue. destruct (Nat.eq_dec (length a) (count_free d)) as [L|L]; [|rewrite (update_free_bad _ _ L) in Ue; discriminate Ue].
    assert (S := reach_step c d (MUpdateFree a) R). cbn [mutate] in S. rewrite Ue in S. cbn [snd] in S. rewrite (update_free_ok _ _ L) in Ue. injection Ue as <-. now split. }
  destruct (Q _ _ U) as (L & D1 & R1). destruct (C70_continuous c d1 R1 T) as (CF & CC).
  assert (W : forall a, length a = count_free d -> with_free_values a (c, d) = Ok (c, fill d a)) by (intros a La; unfold with_free_values; cbn [fst snd]; now rewrite La, Nat.eqb_refl).
  assert (STEP : exists f, (forall a e, update_free_values a d = (Ok tt, e) -> closure_result k ts a = f e) /\ continuous_at c f d1 rs).
  { destruct K as [->|(mass & alpha & hc & ->)].
    - exists (function_form_factor c ts). assert (S : forall a e, update_free_values a d = (Ok tt, e) -> closure_result (FormFactorOf (c, d)) ts a = function_form_factor c ts e).
      { intros a e Ue. destruct (Q _ _ Ue) as (La & -> & Re). cbn [closure_result]. rewrite (W a La). cbn [bind fst snd]. symmetry. apply function_form_factor_spec. now apply reachable_inv. }
      split; [exact S|]. apply CF. now rewrite <- (S _ _ U).
    - exists (function_cross_section c ts mass alpha hc). assert (S : forall a e, update_free_values a d = (Ok tt, e) -> closure_result (CrossSectionOf mass alpha hc (c, d)) ts a = function_cross_section c ts mass alpha hc e).
      { intros a e Ue. destruct (Q _ _ Ue) as (La & -> & Re). cbn [closure_result]. rewrite (W a La). cbn [bind fst snd]. symmetry. apply function_cross_section_spec. now apply reachable_inv. }
      split; [exact S|]. apply CC. now rewrite <- (S _ _ U). }
  destruct STEP as (f & S & CO). destruct (CO eps P measured) as (delta & D & H). exists delta. split; [exact D|]. intros args' d1' F U' Y'.
  destruct (Q _ _ U') as (L' & D1' & R1'). rewrite (S _ _ U'). apply H; [exact R1'|exact Y'|]. intros n _. rewrite D1, D1'. now apply fill_close.
Qed.
Print Assumptions C70_closures.

(** ** Concrete stores *)

Lemma line_off : forall a, off_thresholds PKaonB (line_store a).
Proof.
  intros a s n I T. unfold at_threshold in T. rewrite !kwval_keywords in T.
  assert (V : val (line_store a) (inelastic s) = 2 /\ val (line_store a) ("mass_" ++ n)%string = 2).
  { destruct s; cbn in I; repeat (destruct I as [<-|I]; [split; rewrite line_store_values by inkw; reflexivity|]); destruct I. }
  destruct V as (V1 & V2). rewrite V1, V2 in T. lra.
Qed.

Example C70_instance : exists rs, let ts := [KaonDatapoint (RtoC 5) true; Row [RtoC 5; RtoC 0]] in
  function_form_factor PKaonB ts (line_store (1/7)) = Ok rs /\ length rs = 2%nat /\ continuous_at PKaonB (function_form_factor PKaonB ts) (line_store (1/7)) rs /\
  forall delta, 0 < delta -> exists d', reachable PKaonB d' /\ d' <> line_store (1/7) /\ close delta PKaonB (line_store (1/7)) d' /\ buildable PKaonB d' = Ok tt.
Proof.
  destruct C26_instance as (y & z & E & _). change demo_store with (line_store (1/7)) in E. exists [y; z]. split; [exact E|]. split; [reflexivity|].
  split; [exact (proj1 (C70_continuous PKaonB _ (line_store_reachable _) (line_off _)) _ _ E)|].
  intros delta D. exists (line_store (1/7 + delta/2)). split; [apply line_store_reachable|]. split; [|split].
  - intros Q. apply (f_equal (fun x => val x "a_omega")) in Q. rewrite !line_store_values in Q by inkw. cbn in Q. lra.
  - intros n I. rewrite !line_store_values by exact I. cbn in I. repeat (destruct I as [<-|I]; [cbn; first [rewrite Rminus_diag_eq, Rabs_R0 by reflexivity; exact D | replace (1/7 + delta/2 - 1/7) with (delta/2) by ring; rewrite Rabs_pos_eq; lra]|]). contradiction.
  - assert (L : on_line (class_names PKaonB) (1/2) (val (line_store (1/7))) (val (line_store (1/7 + delta))) (val (line_store (1/7 + delta/2)))).
    { intros n I. rewrite !line_store_values by exact I. cbn in I. repeat (destruct I as [<-|I]; [cbn; first [split; reflexivity|lra]|]). contradiction. }
    destruct (ready_line PKaonB (1/2) _ _ _ (line_store_reachable _) (line_store_reachable _) (line_store_reachable _) L ltac:(lra)) as (A & _).
    assert (Y : is_ok (buildable PKaonB (line_store (1/7)))) by (apply C26_form_factor_entries in E; [|apply line_store_reachable]; destruct E as (-> & _); now exists tt).
    destruct (proj1 A Y) as ([] & ->). reflexivity.
Qed.

Example C70_instance_nucleon : exists rs, let ts := [NucleonDatapoint (mkC 5 1) true true; Row [mkC 5 1; RtoC 0; RtoC 1]] in
  function_cross_section PNucleon ts (1/2) 1 1 demo_nucleon_store = Ok rs /\ length rs = 2%nat /\
  continuous_at PNucleon (function_cross_section PNucleon ts (1/2) 1 1) demo_nucleon_store rs.
Proof.
  destruct C27_instance as (y & z & E & _). exists [y; z]. split; [exact E|]. split; [reflexivity|].
  refine (proj2 (C70_continuous PNucleon _ demo_nucleon_store_reachable _) _ _ _ _ _ E).
  intros s f n I. unfold nucleon_threshold.
  assert (V : forall q, kwval (keywords demo_nucleon_store) q = kwval (demo_nucleon (1/2)) q) by (intros q; unfold kwval; now rewrite (proj2 demo_nucleon_lookup)).
  rewrite !V. exact (demo_off New s f n I).
Qed.

Lemma closure_at_store : forall c d ts, reachable c d -> closure_result (FormFactorOf (c, d)) ts (get_free_values d) = function_form_factor c ts d.
Proof.
  intros c d ts R. cbn [closure_result]. assert (U := C03_write_back_is_noop d). destruct (Nat.eq_dec (length (get_free_values d)) (count_free d)) as [L|L]; [|rewrite (update_free_bad _ _ L) in U; discriminate U].
  rewrite (update_free_ok _ _ L) in U. apply (f_equal snd) in U. cbn [snd] in U. unfold with_free_values. cbn [fst snd]. rewrite L, Nat.eqb_refl. cbn [bind fst snd]. rewrite U.
  symmetry. apply function_form_factor_spec. now apply reachable_inv.
Qed.

(** All values that are free in the store as constructed. *)
Example C70_instance_closure : exists d d1 rs, reachable PKaonB d /\ (10 < count_free d)%nat /\ let k := FormFactorOf (PKaonB, d) in let ts := [KaonDatapoint (RtoC 5) true; Row [RtoC 5; RtoC 0]] in
  closure_over PKaonB d k /\ update_free_values (get_free_values d) d = (Ok tt, d1) /\ off_thresholds PKaonB d1 /\ closure_result k ts (get_free_values d) = Ok rs /\ length rs = 2%nat.
Proof.
  destruct C26_instance as (y & z & E & _). change demo_store with (line_store (1/7)) in E. revert E. generalize (line_store_reachable (1/7)), (line_off (1/7)). intros R T E. exists (line_store (1/7)), (line_store (1/7)), [y; z].
  split; [exact R|]. split; [apply Nat.ltb_lt; lazy; reflexivity|]. split; [now left|]. split; [apply C03_write_back_is_noop|]. split; [exact T|]. split; [|reflexivity].
  rewrite closure_at_store by exact R. exact E.
Qed.
