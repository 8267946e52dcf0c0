(** Properties C14, C16, C18 - C20 and C22 - C25 for the nucleon models. *)
From Coq Require Import String Reals Bool Arith List Lra Permutation.
From Verif Require Import PyBase CNum UAMaps UAComponents PyExpr Nucleon MapProofs ComponentProofs
  ExprProofs KaonProofs SectorProofs KaonSpec NucleonCache NucleonProofs NucleonView NucleonSpec
  PropsMaps PropsOther PropsKaon PropsKaon2.
Import ListNotations.
Local Open Scope R_scope.
Local Open Scope py_scope.
Local Open Scope string_scope.

#[local] Arguments String.append : simpl never.

(** ** C23 The cache is transparent *)

(** Everything a client can do with an object: evaluate it, assign the public flags. *)
Inductive op : Type :=
| OpCall (t : C)
| OpSetProton (b : bool)
| OpSetElectric (b : bool).

(** Running operations on one object, collecting the results of the evaluations. *)
Fixpoint run_object (m : NucleonModel) (cache : Cache) (ops : list op) : list (Res C) :=
  match ops with
  | [] => []
  | OpCall t :: ops' =>
    let (r, cache') := Nucleon_call m t cache in r :: run_object m cache' ops'
  | OpSetProton b :: ops' => run_object (Nucleon_set_flags m b (nm_electric m)) cache ops'
  | OpSetElectric b :: ops' => run_object (Nucleon_set_flags m (nm_proton m) b) cache ops'
  end.

(** The same operations, building a new object for every evaluation. *)
Fixpoint run_fresh (k : nucleon_kind) (proton electric : bool) (kw : env R) (ops : list op) : list (Res C) :=
  match ops with
  | [] => []
  | OpCall t :: ops' => evaluate k proton electric kw t :: run_fresh k proton electric kw ops'
  | OpSetProton b :: ops' => run_fresh k b electric kw ops'
  | OpSetElectric b :: ops' => run_fresh k proton b kw ops'
  end.

Fixpoint cache_after (m : NucleonModel) (cache : Cache) (ops : list op) : Cache :=
  match ops with
  | [] => cache
  | OpCall t :: ops' => cache_after m (snd (Nucleon_call m t cache)) ops'
  | OpSetProton b :: ops' => cache_after (Nucleon_set_flags m b (nm_electric m)) cache ops'
  | OpSetElectric b :: ops' => cache_after (Nucleon_set_flags m (nm_proton m) b) cache ops'
  end.

Theorem C23_history_independent : forall k proton electric kw m cache ops,
  Nucleon_init (nucleon_class k) proton electric kw = Ok (m, cache) ->
  run_object m cache ops = run_fresh k proton electric kw ops.
Proof.
  intros k p e kw m cache ops H.
  assert (X : forall ops p e m c0 c, Nucleon_init (nucleon_class k) p e kw = Ok (m, c0) -> cache_ok m c ->
    run_object m c ops = run_fresh k p e kw ops).
  { clear. induction ops as [|[t|b|b] ops IH]; intros p e m c0 c H I; [reflexivity| | |].
    - cbn [run_object run_fresh]. destruct (Nucleon_call_pure m t c I) as [E J].
      destruct (Nucleon_call m t c) as [r c']. cbn [fst snd] in E, J. f_equal.
      + unfold evaluate. rewrite H. rewrite (Nucleon_init_cache _ _ _ _ _ _ H).
        rewrite (proj1 (Nucleon_call_pure m t [] (cache_ok_nil m))). assumption.
      + now apply (IH p e m c0).
    - cbn [run_object run_fresh]. destruct (Nucleon_init_flags _ _ _ _ _ _ b e H) as [E [_ <-]].
      apply (IH b (nm_electric m) _ c0); [assumption|]. now apply cache_ok_flags.
    - cbn [run_object run_fresh]. destruct (Nucleon_init_flags _ _ _ _ _ _ p b H) as [E [<- _]].
      apply (IH (nm_proton m) b _ c0); [assumption|]. now apply cache_ok_flags. }
  apply (X ops p e m cache cache H). rewrite (Nucleon_init_cache _ _ _ _ _ _ H). apply cache_ok_nil.
Qed.
Print Assumptions C23_history_independent.

(** Whatever is stored after any history is stored under the key of exactly one sector and
    resonance, and is the mass term of that sector and resonance. *)
Theorem C23_cache_contents : forall k proton electric kw m cache ops key v,
  Nucleon_init (nucleon_class k) proton electric kw = Ok (m, cache) ->
  lookup (cache_after m cache ops) key = Some v ->
  exists scalar dirac r, key = build_cache_key scalar dirac r /\
    calculate_mass_term m scalar dirac r = Ok v /\
    forall s' d' r', key = build_cache_key s' d' r' -> s' = scalar /\ d' = dirac /\ r' = r.
Proof.
  intros k p e kw m cache ops key v H L.
  assert (X : forall ops m c, cache_ok m c ->
    forall m', (forall s d r, calculate_mass_term m' s d r = calculate_mass_term m s d r) ->
    cache_ok m' (cache_after m c ops)).
  { clear. induction ops as [|[t|b|b] ops IH]; intros m c I m' E; cbn [cache_after].
    - intros key v L. destruct (I key v L) as [s [d [r [K F]]]]. exists s, d, r. now rewrite E.
    - apply IH; [now apply Nucleon_call_pure|assumption].
    - apply IH; [now apply cache_ok_flags|assumption].
    - apply IH; [now apply cache_ok_flags|assumption]. }
  assert (I : cache_ok m (cache_after m cache ops)).
  { apply X; [|reflexivity]. rewrite (Nucleon_init_cache _ _ _ _ _ _ H). apply cache_ok_nil. }
  destruct (I key v L) as [s [d [r [K F]]]]. exists s, d, r. split; [assumption|]. split; [assumption|].
  intros s' d' r' K'. rewrite K in K'. apply build_cache_key_inj in K'. intuition congruence.
Qed.
Print Assumptions C23_cache_contents.

(** ** C16 Normalisation *)

Definition magnetic_moment (proton : bool) (kw : env R) : R :=
  if proton then kwval kw "magnetic_moment_proton" else kwval kw "magnetic_moment_neutron".
Definition charge (proton : bool) : R := if proton then 1 else 0.

Lemma NC_0 : forall k t_0 t_in m g, t_0 < t_in -> is_ok (nc_build (nucleon_class k) t_0 t_in m g) ->
  ~ at_pole m g 0%C -> NC k t_0 t_in m g 0%C = RtoC 1.
Proof.
  intros k t_0 t_in m g Hlt [c B] A. destruct (nbuild_inv _ _ _ _ _ _ Hlt B) as [H0 [G _]].
  unfold NC. apply comp_val_norm; [now apply Afac_wn|].
  rewrite (Dfac_zero_iff t_0 t_in Hlt) by (try assumption; now apply (zero_neq_tin t_0)). exact A.
Qed.

Lemma Fv_0 : forall k p e kw m, nucleon_built k p e kw m -> nondegenerate kw -> call_defined k kw e 0%C ->
  forall s d r, In r (iso_names s) -> Fv k (kwval kw) s d 0%C r = RtoC 1.
Proof.
  intros k p e kw m B ND [D _] s d r Hr. unfold Fv. apply NC_0.
  - apply ND.
  - destruct (nb_comp _ _ _ _ _ B s d r Hr) as [c [_ Bc]]. now exists c.
  - now apply (D s d).
Qed.

Lemma combo2_1 : forall c F x y r, F x = RtoC 1 -> F y = RtoC 1 -> F r = RtoC 1 -> c x <> c y ->
  combo2 c F x y r = RtoC 0.
Proof.
  intros c F x y r E1 E2 E3 N. unfold combo2. rewrite E1, E2, E3.
  assert (N1 := proj2 (Csub_neq0 _ _) N). field. split; [|assumption].
  intros Z. apply N1. transitivity (Copp (Csub (c y) (c x))); [ring|]. rewrite Z. ring.
Qed.

Lemma combo3_1 : forall c F x y z r, F x = RtoC 1 -> F y = RtoC 1 -> F z = RtoC 1 -> F r = RtoC 1 ->
  c x <> c y -> c z <> c y -> c z <> c x -> combo3 c F x y z r = RtoC 0.
Proof.
  intros c F x y z r E1 E2 E3 E4 N1 N2 N3. unfold combo3. rewrite E1, E2, E3, E4.
  assert (M : forall a b, a <> b -> Csub a b <> RtoC 0) by (intros a b; apply Csub_neq0).
  field. repeat split; apply M; auto.
Qed.

Lemma part_0 : forall k p e kw m, nucleon_built k p e kw m -> nondegenerate kw -> call_defined k kw e 0%C ->
  part k kw true true 0%C = RtoC (1/2) /\ part k kw false true 0%C = RtoC (1/2) /\
  part k kw true false 0%C = RtoC (1/2 * (kwval kw "magnetic_moment_proton" + kwval kw "magnetic_moment_neutron" - 1)) /\
  part k kw false false 0%C = RtoC (1/2 * (kwval kw "magnetic_moment_proton" - kwval kw "magnetic_moment_neutron" - 1)).
Proof.
  intros k p e kw m B ND D. assert (F := Fv_0 k p e kw m B ND D). destruct D as [D _].
  assert (IS : forall r, mem r (iso_names true) = true -> In r (iso_names true)) by (intros; now apply mem_In).
  assert (IV : forall r, mem r (iso_names false) = true -> In r (iso_names false)) by (intros; now apply mem_In).
  repeat split; unfold part, formula.
  - destruct (D true true) as [_ [_ N]]. cbn [distinct_terms] in N.
    rewrite !combo2_1 by (try assumption; apply F, IS; reflexivity).
    rewrite !(F true true) by (apply IS; reflexivity). Cext; ring.
  - destruct (D false true) as [_ [_ N]]. cbn [distinct_terms] in N.
    rewrite !combo2_1 by (try assumption; apply F, IV; reflexivity).
    rewrite !(F false true) by (apply IV; reflexivity). Cext; ring.
  - destruct (D true false) as [_ [_ N]]. cbn [distinct_terms] in N.
    rewrite !combo3_1 by (try tauto; apply F, IS; reflexivity).
    rewrite !(F true false) by (apply IS; reflexivity). Cext; ring.
  - rewrite !(F false false) by (apply IV; reflexivity). Cext; ring.
Qed.

(** Electric form factor: the charge; magnetic form factor: the magnetic moment. *)
Theorem C16_nucleon_normalised : forall k proton kw v,
  (evaluate k proton true kw (RtoC 0) = Ok v -> v = RtoC (charge proton)) /\
  (evaluate k proton false kw (RtoC 0) = Ok v -> v = RtoC (magnetic_moment proton kw)).
Proof.
  intros k p kw v. split; intros H; apply evaluate_Ok in H; destruct H as [m [B [ND [_ [D ->]]]]];
    destruct (part_0 _ _ _ _ _ B ND D) as [E1 [E2 [E3 E4]]]; unfold combined; rewrite E1, E2, E3, E4.
  - assert (Q : Cdivt (RtoC 0) (RtoC (4 * (kwval kw "nucleon_mass" * kwval kw "nucleon_mass"))) = RtoC 0)
      by (unfold Cdivt; ring).
    rewrite Q. destruct p; Cext; simpl; field.
  - unfold magnetic_moment. destruct p; Cext; simpl; field.
Qed.
Print Assumptions C16_nucleon_normalised.

(** Every resonance with an accepted, non-zero pole leaves t = 0 defined; the evaluation at 0
    returns unless mass terms coincide (or the nucleon mass is 0, for the electric one). *)
Theorem C16_nucleon_returns_at_zero : forall k proton electric kw m cache,
  Nucleon_init (nucleon_class k) proton electric kw = Ok (m, cache) ->
  (forall s d, bp0 (kwval kw) s d < bpin (kwval kw) s d) ->
  (forall s d, distinct_terms s d (cv k (kwval kw) s d)) ->
  (electric = true -> kwval kw "nucleon_mass" <> 0) ->
  exists v, evaluate k proton electric kw (RtoC 0) = Ok v.
Proof.
  intros k p e kw m cache H ND DT NM.
  destruct (evaluate_built k p e kw) as [[m' [c' [E [B X]]]]|[x [E _]]]; [|congruence].
  rewrite X. destruct (call_cases k p e kw m' B 0%C ND) as [[_ Y]|[Y _]]; [simpl; lra|eauto|].
  exfalso. apply Y. split; [|assumption]. intros s d. split; [|split].
  - assert (V := nb_valid _ _ _ _ _ B s d). intros Z. apply RtoC_inj in Z. specialize (ND s d). lra.
  - intros r Hr. destruct (nb_comp _ _ _ _ _ B s d r Hr) as [c [_ Bc]].
    assert (V := nb_valid _ _ _ _ _ B s d). specialize (ND s d).
    destruct k.
    + assert (I : is_ok (nc_build (nucleon_class New) (bp0 (kwval kw) s d) (bpin (kwval kw) s d)
        (kwval kw ("mass_" ++ r)) (kwval kw ("decay_rate_" ++ r)))) by (now exists c).
      apply nbuild_accept in I; [|assumption]. destruct I as [_ [L [_ N0]]]. rewrite <- resonance_pole_eq in N0.
      intros [Z|Z].
      * assert (Z1 := f_equal Re Z). rewrite Re_meson_pole in Z1. simpl in Z1.
        apply N0. rewrite <- Z. f_equal. lra.
      * assert (Z1 := f_equal Re Z). cbn [Cconj Re] in Z1. rewrite Re_meson_pole in Z1. simpl in Z1.
        apply N0. apply Cconj_inj. rewrite <- Z, Cconj_RtoC. f_equal. lra.
    + apply (accepted_not_pole_0 (bp0 (kwval kw) s d) (bpin (kwval kw) s d)); try tauto. now exists c.
  - apply DT.
Qed.
Print Assumptions C16_nucleon_returns_at_zero.

(** ** C14 Reflection *)

Lemma Cabs_real : forall x : R, Cconj (RtoC x) = RtoC x.
Proof. intros. apply Cconj_RtoC. Qed.

Lemma MT_real : forall k t_0 t_in m g, 0 <= t_0 -> t_0 < t_in -> Cconj (MT k t_0 t_in m g) = MT k t_0 t_in m g.
Proof.
  intros [] t_0 t_in m g H0 Hlt; unfold MT.
  - rewrite Cconj_div, Cconj_RtoC, Dfac_conj.
    assert (W := proj1 (wn_real t_0 t_in H0 Hlt)). apply Cconj_real_iff in W. now rewrite W.
  - now rewrite Cconj_mul, Cconj_RtoC.
Qed.

Lemma NC_conj : forall k t_0 t_in m g t, 0 <= t_0 -> t_0 < t_in -> ~ on_cut (Csub t t_0) ->
  NC k t_0 t_in m g (Cconj t) = Cconj (NC k t_0 t_in m g t).
Proof.
  intros k t_0 t_in m g t H0 Hlt Off. unfold NC. rewrite Wt_conj by assumption.
  rewrite comp_val_conj; [reflexivity|]. now apply (wn_real t_0 t_in H0 Hlt).
Qed.

Lemma combo2_conj : forall c F F' x y r, (forall r, Cconj (c r) = c r) -> (forall r, F' r = Cconj (F r)) ->
  combo2 c F' x y r = Cconj (combo2 c F x y r).
Proof.
  intros c F F' x y r Hc HF. unfold combo2.
  now rewrite Cconj_sub, Cconj_add, !Cconj_div, !Cconj_mul, !Cconj_sub, !Hc, !HF.
Qed.

Lemma combo3_conj : forall c F F' x y z r, (forall r, Cconj (c r) = c r) -> (forall r, F' r = Cconj (F r)) ->
  combo3 c F' x y z r = Cconj (combo3 c F x y z r).
Proof.
  intros c F F' x y z r Hc HF. unfold combo3.
  now rewrite Cconj_sub, !Cconj_add, !Cconj_mul, !Cconj_div, !Cconj_sub, !Hc, !HF.
Qed.

Lemma formula_conj : forall P s d c F F', (forall r, Cconj (c r) = c r) -> (forall r, F' r = Cconj (F r)) ->
  formula P s d c F' = Cconj (formula P s d c F).
Proof.
  intros P s d c F F' Hc HF. destruct s, d; cbn [formula];
    rewrite !Cconj_add || idtac; rewrite !Cconj_mul, !Cconj_RtoC;
    rewrite <- ?(combo2_conj c F F') by assumption; rewrite <- ?(combo3_conj c F F') by assumption;
    now rewrite !HF.
Qed.

Lemma contribution_defined_conj : forall k kw s d t,
  contribution_defined k kw s d (Cconj t) <-> contribution_defined k kw s d t.
Proof.
  assert (X : forall k kw s d t, contribution_defined k kw s d t -> contribution_defined k kw s d (Cconj t)).
  { intros k kw s d t [A [B D]]. split; [|split; [|assumption]].
    - intros E. apply A. apply Cconj_inj. now rewrite E, Cconj_RtoC.
    - intros r Hr. rewrite at_pole_conj. now apply B. }
  intros. split; intros H; [|now apply X]. rewrite <- (Cconj_invol t). now apply X.
Qed.

Theorem C14_nucleon_reflection : forall k proton electric kw t,
  plane_without_cut (kwval kw "t_0_dirac_isoscalar") t ->
  plane_without_cut (kwval kw "t_0_dirac_isovector") t ->
  plane_without_cut (kwval kw "t_0_pauli_isoscalar") t ->
  plane_without_cut (kwval kw "t_0_pauli_isovector") t ->
  evaluate k proton electric kw (Cconj t) = conj_result (evaluate k proton electric kw t).
Proof.
  intros k p e kw t P1 P2 P3 P4.
  apply plane_cut in P1. apply plane_cut in P2. apply plane_cut in P3. apply plane_cut in P4.
  assert (Off : forall s d, ~ on_cut (Csub t (bp0 (kwval kw) s d))) by (intros [] []; assumption).
  clear P1 P2 P3 P4.
  destruct (evaluate_built k p e kw) as [[m [c [E [B X]]]]|[x [E X]]]; rewrite !X; [|reflexivity].
  destruct (Rlt_dec (Re t) 0) as [L|L].
  { unfold call_pure. simpl Re. destruct (Rlt_dec (Re t) 0); [reflexivity|contradiction]. }
  assert (ND : nondegenerate kw \/ ~ nondegenerate kw).
  { destruct (Rlt_dec (bp0 (kwval kw) true true) (bpin (kwval kw) true true)); [|right; intros N; now specialize (N true true)].
    destruct (Rlt_dec (bp0 (kwval kw) true false) (bpin (kwval kw) true false)); [|right; intros N; now specialize (N true false)].
    destruct (Rlt_dec (bp0 (kwval kw) false true) (bpin (kwval kw) false true)); [|right; intros N; now specialize (N false true)].
    destruct (Rlt_dec (bp0 (kwval kw) false false) (bpin (kwval kw) false false)); [|right; intros N; now specialize (N false false)].
    left. intros [] []; assumption. }
  destruct ND as [ND|ND]; [|rewrite !(call_degenerate k p e kw m B) by (simpl; assumption || lra); reflexivity].
  assert (PC : forall s d, part k kw s d (Cconj t) = Cconj (part k kw s d t)).
  { intros s d. unfold part. assert (V := nb_valid _ _ _ _ _ B s d). apply formula_conj.
    - intros r. apply MT_real; [tauto|apply ND].
    - intros r. unfold Fv. apply NC_conj; [tauto|apply ND|apply Off]. }
  assert (CC : combined k kw p e (Cconj t) = Cconj (combined k kw p e t)).
  { unfold combined. rewrite !PC. destruct p, e;
      rewrite ?Cconj_add, ?Cconj_sub, ?Cconj_mul, ?Cconj_div, ?Cconj_add, ?Cconj_sub, ?Cconj_RtoC; reflexivity. }
  assert (DC : call_defined k kw e (Cconj t) <-> call_defined k kw e t).
  { unfold call_defined. split; intros [A1 A2]; (split; [|assumption]); intros s d; apply contribution_defined_conj, A1. }
  destruct (call_cases k p e kw m B t ND) as [[D1 Y1]|[D1 Y1]]; [lra| |];
  (destruct (call_cases k p e kw m B (Cconj t) ND) as [[D2 Y2]|[D2 Y2]]; [simpl; lra| |]); rewrite Y1, Y2; try tauto.
  - simpl. now rewrite CC.
Qed.
Print Assumptions C14_nucleon_reflection.

Theorem C14_nucleon_real_below_threshold : forall k proton electric kw t v,
  Im t = 0 ->
  Re t < kwval kw "t_0_dirac_isoscalar" -> Re t < kwval kw "t_0_dirac_isovector" ->
  Re t < kwval kw "t_0_pauli_isoscalar" -> Re t < kwval kw "t_0_pauli_isovector" ->
  evaluate k proton electric kw t = Ok v -> Im v = 0.
Proof.
  intros k p e kw t v I L1 L2 L3 L4 E.
  assert (X := C14_nucleon_reflection k p e kw t). apply Cconj_real_iff in I. rewrite I, E in X.
  assert (Y : Ok v = Ok (Cconj v)) by (apply X; intros [_ B]; lra).
  apply Cconj_real_iff. congruence.
Qed.
Print Assumptions C14_nucleon_real_below_threshold.

(** ** C18 Failure set *)

(** Mass terms on whose differences the contributions divide coincide. *)
Definition coinciding_mass_terms (k : nucleon_kind) (P : string -> R) : Prop :=
  exists s d, ~ distinct_terms s d (cv k P s d).

Theorem C18_nucleon_failure_set : forall k proton electric kw m cache t,
  Nucleon_init (nucleon_class k) proton electric kw = Ok (m, cache) ->
  (forall s d, bp0 (kwval kw) s d < bpin (kwval kw) s d) ->
  (evaluate k proton electric kw t = Err ValueError <-> Re t < 0) /\
  (0 <= Re t ->
   (evaluate k proton electric kw t = Err ZeroDivisionError <->
    t = RtoC (kwval kw "t_in_dirac_isoscalar") \/ t = RtoC (kwval kw "t_in_dirac_isovector") \/
    t = RtoC (kwval kw "t_in_pauli_isoscalar") \/ t = RtoC (kwval kw "t_in_pauli_isovector") \/
    at_resonance (kwval kw) (isoscalar_mesons ++ isovector_mesons)%list t \/
    coinciding_mass_terms k (kwval kw) \/
    (electric = true /\ kwval kw "nucleon_mass" = 0)) /\
   (forall x, evaluate k proton electric kw t = Err x -> x = ZeroDivisionError)).
Proof.
  intros k p e kw m cache t H ND.
  destruct (evaluate_built k p e kw) as [[m' [c' [E [B X]]]]|[x [E _]]]; [|congruence]. rewrite X.
  destruct (Rlt_dec (Re t) 0) as [L|L].
  { unfold call_pure. destruct (Rlt_dec (Re t) 0); [|contradiction]. split; [tauto|lra]. }
  assert (Q : call_defined k kw e t <-> ~ (t = RtoC (kwval kw "t_in_dirac_isoscalar") \/ t = RtoC (kwval kw "t_in_dirac_isovector") \/
    t = RtoC (kwval kw "t_in_pauli_isoscalar") \/ t = RtoC (kwval kw "t_in_pauli_isovector") \/
    at_resonance (kwval kw) (isoscalar_mesons ++ isovector_mesons)%list t \/
    coinciding_mass_terms k (kwval kw) \/
    (e = true /\ kwval kw "nucleon_mass" = 0))).
  { unfold call_defined, at_resonance, coinciding_mass_terms. split.
    - intros [D N] W. destruct W as [W|[W|[W|[W|[[n [Hn W]]|[[s [d W]]|[W1 W2]]]]]]].
      + exact (proj1 (D true true) W).
      + exact (proj1 (D false true) W).
      + exact (proj1 (D true false) W).
      + exact (proj1 (D false false) W).
      + rewrite <- resonance_pole_eq in W. apply in_app_or in Hn. destruct Hn as [Hn|Hn].
        * destruct (D true true) as [_ [A _]]. exact (A n Hn W).
        * destruct (D false true) as [_ [A _]]. exact (A n Hn W).
      + apply W. apply (D s d).
      + exact (N W1 W2).
    - intros W. split; [|intros E1 E2; apply W; tauto]. intros s d. split; [|split].
      + intros Z. apply W. destruct s, d; auto 6.
      + intros r Hr A. apply W. right; right; right; right; left. exists r. rewrite <- resonance_pole_eq.
        split; [|exact A]. apply in_or_app. destruct s; [left|right]; exact Hr.
      + assert (DD : distinct_terms s d (cv k (kwval kw) s d) \/ ~ distinct_terms s d (cv k (kwval kw) s d)).
        { apply Classical_Prop.classic. }
        destruct DD as [DD|DD]; [assumption|]. exfalso. apply W. right; right; right; right; right; left. eauto. }
  destruct (call_cases k p e kw m' B t ND) as [[D Y]|[D Y]]; [lra| |]; rewrite Y.
  - split; [split; [discriminate|lra]|]. intros _. split; [|discriminate].
    split; [discriminate|]. intros W. exfalso. apply (proj1 Q D). exact W.
  - split; [split; [discriminate|lra]|]. intros _. split; [|congruence].
    split; [intros _|reflexivity].
    assert (DN : forall A : Prop, (A \/ ~ A) -> ~ ~ A -> A) by tauto.
    apply DN; [|tauto].
    apply Classical_Prop.classic.
Qed.
Print Assumptions C18_nucleon_failure_set.

(** ** C20 Isospin *)

Lemma part_ext : forall k kw kw' (s d : bool) t,
  (forall n, In n (shared_parameters ++ (if s then isoscalar_parameters else isovector_parameters))%list ->
     kwval kw n = kwval kw' n) ->
  part k kw s d t = part k kw' s d t.
Proof.
  intros k kw kw' s d t H. unfold part.
  set (P := kwval kw) in *. set (P' := kwval kw') in *. clearbody P P'.
  assert (X : forall n, mem n (shared_parameters ++ (if s then isoscalar_parameters else isovector_parameters))%list = true -> P n = P' n).
  { intros n Hn. apply H. now apply mem_In. }
  clear H.
  assert (B0 : bp0 P s d = bp0 P' s d) by (unfold bp0; apply X; destruct s, d; reflexivity).
  assert (BI : bpin P s d = bpin P' s d) by (unfold bpin; apply X; destruct s, d; reflexivity).
  assert (M : forall r, mem r (iso_names s) = true -> P ("mass_" ++ r) = P' ("mass_" ++ r) /\
     P ("decay_rate_" ++ r) = P' ("decay_rate_" ++ r)).
  { intros r Hr. apply mem_In in Hr. destruct s; simpl in Hr;
      repeat (destruct Hr as [<-|Hr]; [split; apply X; reflexivity|]); contradiction. }
  assert (FE : forall r, mem r (iso_names s) = true -> Fv k P s d t r = Fv k P' s d t r).
  { intros r Hr. unfold Fv. destruct (M r Hr) as [-> ->]. now rewrite B0, BI. }
  assert (CE : forall r, mem r (iso_names s) = true -> cv k P s d r = cv k P' s d r).
  { intros r Hr. unfold cv. destruct (M r Hr) as [-> ->]. now rewrite B0, BI. }
  generalize dependent (Fv k P s d t). intros F FE. generalize dependent (Fv k P' s d t). intros F' FE.
  generalize dependent (cv k P s d). intros c CE. generalize dependent (cv k P' s d). intros c' CE.
  destruct s, d; unfold formula, combo2, combo3;
    rewrite ?(X _ eq_refl), ?(FE "omega" eq_refl), ?(FE "omega_prime" eq_refl), ?(FE "omega_double_prime" eq_refl),
      ?(FE "phi" eq_refl), ?(FE "phi_prime" eq_refl), ?(FE "phi_double_prime" eq_refl),
      ?(CE "omega" eq_refl), ?(CE "omega_prime" eq_refl), ?(CE "omega_double_prime" eq_refl),
      ?(CE "phi" eq_refl), ?(CE "phi_prime" eq_refl), ?(CE "phi_double_prime" eq_refl),
      ?(FE "rho" eq_refl), ?(FE "rho_prime" eq_refl), ?(FE "rho_double_prime" eq_refl),
      ?(CE "rho" eq_refl), ?(CE "rho_prime" eq_refl), ?(CE "rho_double_prime" eq_refl);
    rewrite ?X by reflexivity; reflexivity.
Qed.

Theorem C20_nucleon_sum_isoscalar_only : forall k electric kw kw' t vp vn vp' vn',
  (forall n, In n (shared_parameters ++ isoscalar_parameters)%list -> kwval kw n = kwval kw' n) ->
  evaluate k true electric kw t = Ok vp -> evaluate k false electric kw t = Ok vn ->
  evaluate k true electric kw' t = Ok vp' -> evaluate k false electric kw' t = Ok vn' ->
  Cadd vp vn = Cadd vp' vn'.
Proof.
  intros k e kw kw' t vp vn vp' vn' H E1 E2 E3 E4.
  apply evaluate_Ok in E1. destruct E1 as [_ [_ [_ [_ [_ ->]]]]].
  apply evaluate_Ok in E2. destruct E2 as [_ [_ [_ [_ [_ ->]]]]].
  apply evaluate_Ok in E3. destruct E3 as [_ [_ [_ [_ [_ ->]]]]].
  apply evaluate_Ok in E4. destruct E4 as [_ [_ [_ [_ [_ ->]]]]].
  unfold combined. rewrite (part_ext k kw kw' true true t H), (part_ext k kw kw' true false t H).
  rewrite (H "nucleon_mass") by (now left). destruct e; ring.
Qed.
Print Assumptions C20_nucleon_sum_isoscalar_only.

Theorem C20_nucleon_difference_isovector_only : forall k electric kw kw' t vp vn vp' vn',
  (forall n, In n (shared_parameters ++ isovector_parameters)%list -> kwval kw n = kwval kw' n) ->
  evaluate k true electric kw t = Ok vp -> evaluate k false electric kw t = Ok vn ->
  evaluate k true electric kw' t = Ok vp' -> evaluate k false electric kw' t = Ok vn' ->
  Csub vp vn = Csub vp' vn'.
Proof.
  intros k e kw kw' t vp vn vp' vn' H E1 E2 E3 E4.
  apply evaluate_Ok in E1. destruct E1 as [_ [_ [_ [_ [_ ->]]]]].
  apply evaluate_Ok in E2. destruct E2 as [_ [_ [_ [_ [_ ->]]]]].
  apply evaluate_Ok in E3. destruct E3 as [_ [_ [_ [_ [_ ->]]]]].
  apply evaluate_Ok in E4. destruct E4 as [_ [_ [_ [_ [_ ->]]]]].
  unfold combined. rewrite (part_ext k kw kw' false true t H), (part_ext k kw kw' false false t H).
  rewrite (H "nucleon_mass") by (now left). destruct e; ring.
Qed.
Print Assumptions C20_nucleon_difference_isovector_only.
