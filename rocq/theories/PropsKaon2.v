(** Properties C19 - C21, C24 and C25 for the coordinate maps, the kaon models and the
    single-component model. *)
From Coq Require Import String Reals Bool Arith List Lra Permutation.
From Verif Require Import PyBase CNum UAMaps UAComponents PyExpr UAModels
  MapProofs ComponentProofs ExprProofs KaonProofs SectorProofs KaonSpec PropsMaps PropsKaon.
Import ListNotations.
Local Open Scope R_scope.
Local Open Scope py_scope.
Local Open Scope string_scope.

#[local] Arguments String.append : simpl never.

(** ** C19 Branch points *)

Theorem C19_MapFromTtoW_validation : forall t_0 t_in,
  (MapFromTtoW_init t_0 t_in = Err ValueError <-> t_0 < 0 \/ t_in < t_0) /\
  (is_ok (MapFromTtoW_init t_0 t_in) <-> 0 <= t_0 <= t_in).
Proof.
  intros t_0 t_in. unfold MapFromTtoW_init, validate_branch_point_positions.
  destruct (Rlt_dec t_0 0); [split; [tauto|split; [intros [? [=]]|lra]]|].
  destruct (Rlt_dec t_in t_0); [split; [tauto|split; [intros [? [=]]|lra]]|].
  simpl. rewrite rsqrt_ok by lra. simpl. split.
  - split; [discriminate|lra].
  - split; [lra|]. intros _. eexists. reflexivity.
Qed.
Print Assumptions C19_MapFromTtoW_validation.

Theorem C19_MapFromWtoT_validation : forall t_0 t_in,
  (MapFromWtoT_init t_0 t_in = Err ValueError <-> t_0 < 0 \/ t_in < t_0) /\
  (is_ok (MapFromWtoT_init t_0 t_in) <-> 0 <= t_0 <= t_in).
Proof.
  intros t_0 t_in. unfold MapFromWtoT_init, validate_branch_point_positions.
  destruct (Rlt_dec t_0 0); [split; [tauto|split; [intros [? [=]]|lra]]|].
  destruct (Rlt_dec t_in t_0); [split; [tauto|split; [intros [? [=]]|lra]]|].
  simpl. split.
  - split; [discriminate|lra].
  - split; [lra|]. intros _. eexists. reflexivity.
Qed.
Print Assumptions C19_MapFromWtoT_validation.

Theorem C19_single_rejects : forall t_0 t_in a m g, t_0 < 0 \/ t_in < t_0 ->
  SingleComponentModel_init t_0 t_in a m g = Err ValueError.
Proof.
  intros t_0 t_in a m g H. unfold SingleComponentModel_init.
  apply C19_MapFromTtoW_validation in H. now rewrite H.
Qed.
Print Assumptions C19_single_rejects.

Lemma Kaon_init_keywords : forall k (kw : env R), Permutation (map fst kw) (kaon_keywords k) ->
  is_ok (bind_kwargs (kc_formals (kaon_class k)) kw).
Proof.
  intros k kw P. apply bind_kwargs_ok_iff; [apply kaon_formals_NoDup|].
  eapply Permutation_trans; [exact P|]. apply kaon_keywords_formals.
Qed.

Lemma kaon_attr : forall k n v, lookup (kc_assign (kaon_class k)) n = Some v -> forall val,
  attr (attrs_of (kaon_class k) val) n = Ok (evT val v).
Proof.
  intros k n v H val. rewrite attr_aval; [unfold aval; now rewrite H|].
  apply existsb_exists. exists n. split; [|apply String.eqb_refl].
  apply lookup_In in H. now apply (in_map fst) in H.
Qed.

Lemma kaon_closed : forall k,
  forallb (fun ne => closed_in (kc_formals (kaon_class k)) (snd ne)) (kc_assign (kaon_class k)) = true.
Proof. intros []; vm_compute; reflexivity. Qed.

Theorem C19_kaon_rejects : forall k ch kw, Permutation (map fst kw) (kaon_keywords k) ->
  let p := kwval kw in
  p "t_0_isoscalar" < 0 \/ p "t_in_isoscalar" < p "t_0_isoscalar" \/
  p "t_0_isovector" < 0 \/ p "t_in_isovector" < p "t_0_isovector" ->
  Kaon_init (kaon_class k) ch kw = Err ValueError.
Proof.
  intros k ch kw P p H. destruct (Kaon_init_keywords k kw P) as [args A].
  unfold Kaon_init. rewrite A. simpl bind.
  rewrite (run_assign_closed _ _ _ _ A (kaon_closed k)). simpl bind.
  fold (attrs_of (kaon_class k) (kwval kw)).
  rewrite !(kaon_attr k _ (ELoc "t_0_isoscalar")) by (destruct k; reflexivity).
  rewrite !(kaon_attr k _ (ELoc "t_in_isoscalar")) by (destruct k; reflexivity).
  rewrite !(kaon_attr k _ (ELoc "t_0_isovector")) by (destruct k; reflexivity).
  rewrite !(kaon_attr k _ (ELoc "t_in_isovector")) by (destruct k; reflexivity).
  simpl bind. fold p.
  destruct (C19_MapFromTtoW_validation (p "t_0_isoscalar") (p "t_in_isoscalar")) as [E1 O1].
  destruct (C19_MapFromTtoW_validation (p "t_0_isovector") (p "t_in_isovector")) as [E2 O2].
  destruct (Rlt_dec (p "t_0_isoscalar") 0) as [L|L]; [rewrite (proj2 E1) by tauto; reflexivity|].
  destruct (Rlt_dec (p "t_in_isoscalar") (p "t_0_isoscalar")) as [L'|L']; [rewrite (proj2 E1) by tauto; reflexivity|].
  destruct (proj2 O1) as [m1 M1]; [lra|]. rewrite M1. simpl bind.
  rewrite (proj2 E2) by (destruct H as [H|[H|H]]; tauto). reflexivity.
Qed.
Print Assumptions C19_kaon_rejects.

(** The degenerate pair. *)
Theorem C19_degenerate_single : forall x a m g,
  (0 < x -> (is_ok (SingleComponentModel_init x x a m g) <->
     x <= m * m /\ resonance_pole m g <> RtoC x)) /\
  (SingleComponentModel_init 0 0 a m g = Err ZeroDivisionError) /\
  (forall s t, SingleComponentModel_init x x a m g = Ok s -> 0 <= Re t ->
     SingleComponentModel_call s t = Err ZeroDivisionError).
Proof.
  intros x a m g. split; [|split].
  - intros X. rewrite Single_accept_iff. unfold resonance_accepted. split.
    + intros [_ [_ [A [B _]]]]. tauto.
    + intros [A B]. repeat split; try lra; assumption.
  - unfold SingleComponentModel_init, build_component. rewrite MapTW_init_ok by lra. cbn [bind].
    fold (tw 0 0). rewrite degenerate_map by lra. destruct (C_eq_dec (RtoC 0) (RtoC 0)); [reflexivity|contradiction].
  - intros s t H HR. rewrite (Single_view _ _ _ _ _ _ _ H). destruct (Rlt_dec (Re t) 0); [lra|].
    destruct (Single_valid _ _ _ _ _ _ H) as [[H0 _] V].
    apply sector_eval_degenerate; [assumption|discriminate|assumption].
Qed.
Print Assumptions C19_degenerate_single.

Theorem C19_degenerate_kaon_accepted : forall k ch kw, Permutation (map fst kw) (kaon_keywords k) ->
  let p := kwval kw in
  0 < p "t_0_isoscalar" -> p "t_in_isoscalar" = p "t_0_isoscalar" ->
  0 < p "t_0_isovector" -> p "t_in_isovector" = p "t_0_isovector" ->
  (forall n, In n (isoscalar_resonances k) ->
     p "t_0_isoscalar" <= p ("mass_" ++ n) * p ("mass_" ++ n) /\
     resonance_pole (p ("mass_" ++ n)) (p ("decay_rate_" ++ n)) <> RtoC (p "t_0_isoscalar")) ->
  (forall n, In n (isovector_resonances k) ->
     p "t_0_isovector" <= p ("mass_" ++ n) * p ("mass_" ++ n) /\
     resonance_pole (p ("mass_" ++ n)) (p ("decay_rate_" ++ n)) <> RtoC (p "t_0_isovector")) ->
  is_ok (Kaon_init (kaon_class k) ch kw).
Proof.
  intros k ch kw P p A1 B1 A2 B2 S V. apply Kaon_accept_iff. split; [assumption|].
  unfold sector_accepted, resonance_accepted. fold p. rewrite B1, B2.
  split; (split; [lra|]); (split; [lra|]); intros n Hn; [destruct (S n Hn) as [X Y]|destruct (V n Hn) as [X Y]];
    repeat split; try assumption; intros _; assumption.
Qed.
Print Assumptions C19_degenerate_kaon_accepted.

Theorem C19_degenerate_kaon_never_returns : forall k ch kw m t,
  Kaon_init (kaon_class k) ch kw = Ok m ->
  kwval kw "t_in_isoscalar" = kwval kw "t_0_isoscalar" \/
  kwval kw "t_in_isovector" = kwval kw "t_0_isovector" ->
  0 <= Re t -> Kaon_call m t = Err ZeroDivisionError.
Proof.
  intros k ch kw m t H D HR. destruct (Kaon_valid _ _ _ _ H) as [V1 V2].
  destruct (spec_sector_nonempty (kwval kw) k) as [N1 N2].
  rewrite (Kaon_view _ _ _ _ _ H). destruct (Rlt_dec (Re t) 0); [lra|].
  assert (X : forall a b l, valid_sector a b l -> l <> [] ->
    sector_eval a b l t = Err ZeroDivisionError \/
    (a < b /\ sector_eval a b l t = Ok (sec_val a b l t))).
  { intros a b l [[P [Q|Q]] V] N.
    - destruct (sector_eval_cases _ _ P Q _ t V) as [[_ E]|[_ [_ E]]]; tauto.
    - left. rewrite <- Q in *. now apply sector_eval_degenerate. }
  destruct (X _ _ _ V1 N1) as [E|[L1 E]]; rewrite E; simpl bind; [reflexivity|].
  destruct (X _ _ _ V2 N2) as [F|[L2 F]]; rewrite F; simpl bind; [reflexivity|]. lra.
Qed.
Print Assumptions C19_degenerate_kaon_never_returns.

Example C19_instance :
  MapFromTtoW_init (-1) 3 = Err ValueError /\ MapFromTtoW_init 3 2 = Err ValueError /\
  is_ok (MapFromTtoW_init 2 2) /\
  (exists s, SingleComponentModel_init 2 2 (1/2) 3 (1/10) = Ok s /\
     SingleComponentModel_call s (RtoC 7) = Err ZeroDivisionError).
Proof.
  split; [apply C19_MapFromTtoW_validation; lra|].
  split; [apply C19_MapFromTtoW_validation; lra|].
  split; [apply C19_MapFromTtoW_validation; lra|].
  destruct (C19_degenerate_single 2 (1/2) 3 (1/10)) as [A [_ D]].
  destruct (proj2 (A ltac:(lra))) as [s S].
  - split; [lra|]. intros E. apply (f_equal Im) in E. unfold resonance_pole in E. simpl in E. lra.
  - exists s. split; [assumption|]. apply (D s _ S). simpl. lra.
Qed.

(** ** C20 Isospin decomposition (kaons) *)

(** Sum of the values of independent single-component models. *)
Fixpoint sum_of_singles (t_0 t_in : R) (l : list resonance) (t : C) : Res C :=
  match l with
  | [] => Ok (RtoC 0)
  | (a, m, g) :: rest =>
    s <- SingleComponentModel_init t_0 t_in a m g ;;
    x <- SingleComponentModel_call s t ;;
    y <- sum_of_singles t_0 t_in rest t ;;
    Ok (Cadd x y)
  end.

Lemma single_init_of_build : forall t_0 t_in a m g, is_ok (build_component t_0 t_in m g) ->
  is_ok (SingleComponentModel_init t_0 t_in a m g).
Proof.
  intros t_0 t_in a m g [c B]. unfold SingleComponentModel_init. rewrite B.
  unfold build_component in B. apply bind_Ok_inv in B. destruct B as [mp [E _]]. rewrite E.
  eexists. reflexivity.
Qed.

Lemma sum_of_singles_nondeg : forall t_0 t_in l t, 0 <= t_0 -> t_0 < t_in -> 0 <= Re t ->
  Forall (fun r => is_ok (build_component t_0 t_in (r_m r) (r_g r))) l -> t <> RtoC t_in ->
  sum_of_singles t_0 t_in l t = sector_eval t_0 t_in l t.
Proof.
  intros t_0 t_in l t H0 Hlt HR V Ht. induction V as [|[[a m] g] l Vr V IH].
  - destruct (sector_eval_cases t_0 t_in H0 Hlt [] t (Forall_nil _)) as [[[E|E] _]|[_ [_ E]]].
    + contradiction.
    + inversion E.
    + rewrite E. reflexivity.
  - cbn [sum_of_singles]. destruct (single_init_of_build _ _ a _ _ Vr) as [s S].
    unfold r_m, r_g in S. simpl in S. rewrite S. cbn [bind].
    rewrite (Single_view _ _ _ _ _ _ _ S). destruct (Rlt_dec (Re t) 0); [lra|]. rewrite IH. clear IH.
    assert (V1 : Forall (fun r => is_ok (build_component t_0 t_in (r_m r) (r_g r))) [(a, m, g)])
      by (constructor; [exact Vr|constructor]).
    assert (V2 := Forall_cons (a, m, g) Vr V).
    destruct (sector_eval_cases t_0 t_in H0 Hlt _ t V1) as [[A E]|[_ [A E]]]; rewrite E; cbn [bind].
    { destruct (sector_eval_cases t_0 t_in H0 Hlt _ t V2) as [[B F]|[B1 [B2 F]]];
        (etransitivity; [|symmetry; exact F]); [reflexivity|].
      exfalso. destruct A as [A|A]; [contradiction|]. inversion B2; subst.
      inversion A as [? ? X|? ? X]; subst; [contradiction|inversion X]. }
    destruct (sector_eval_cases t_0 t_in H0 Hlt _ t V) as [[B F]|[_ [B F]]]; rewrite F; cbn [bind];
    destruct (sector_eval_cases t_0 t_in H0 Hlt _ t V2) as [[B' F']|[_ [B' F']]];
      (etransitivity; [|symmetry; exact F']).
    + reflexivity.
    + exfalso. destruct B as [B|B]; [contradiction|]. inversion B'; subst.
      apply Exists_exists in B. destruct B as [x [X1 X2]].
      match goal with Q : Forall _ l |- _ => rewrite Forall_forall in Q; exact (Q x X1 X2) end.
    + exfalso. destruct B' as [B'|B']; [contradiction|]. inversion B' as [? ? X|? ? X]; subst.
      * inversion A; subst. contradiction.
      * apply Exists_exists in X. destruct X as [x [X1 X2]]. rewrite Forall_forall in B. exact (B x X1 X2).
    + f_equal. unfold sec_val. simpl. ring.
Qed.

Lemma sum_of_singles_sector : forall t_0 t_in l t, valid_sector t_0 t_in l -> l <> [] -> 0 <= Re t ->
  sum_of_singles t_0 t_in l t = sector_eval t_0 t_in l t.
Proof.
  intros t_0 t_in l t [[H0 Hle] V] N HR.
  assert (First : sector_eval t_0 t_in l t = Err ZeroDivisionError -> (t_0 = t_in \/ t = RtoC t_in) ->
    sum_of_singles t_0 t_in l t = Err ZeroDivisionError).
  { intros _ D. destruct l as [|[[a m] g] l]; [contradiction|]. inversion V as [|? ? Vr V']; subst.
    cbn [sum_of_singles]. destruct (single_init_of_build _ _ a _ _ Vr) as [s S].
    unfold r_m, r_g in S. simpl in S. rewrite S. cbn [bind].
    rewrite (Single_view _ _ _ _ _ _ _ S). destruct (Rlt_dec (Re t) 0); [lra|].
    assert (V1 : Forall (fun r => is_ok (build_component t_0 t_in (r_m r) (r_g r))) [(a, m, g)])
      by (constructor; [exact Vr|constructor]).
    destruct D as [<-|D].
    - rewrite sector_eval_degenerate by (assumption || discriminate). reflexivity.
    - destruct Hle as [Hlt|E].
      + destruct (sector_eval_cases t_0 t_in H0 Hlt _ t V1) as [[A E]|[A [_ E]]]; rewrite E; [reflexivity|contradiction].
      + rewrite <- E in *. rewrite sector_eval_degenerate by (assumption || discriminate). reflexivity. }
  destruct Hle as [Hlt|E].
  - destruct (C_eq_dec t (RtoC t_in)) as [Ht|Ht].
    + destruct (sector_eval_cases t_0 t_in H0 Hlt _ t V) as [[A E]|[A [_ E]]]; [|contradiction].
      rewrite E. apply First; tauto.
    + now apply sum_of_singles_nondeg.
  - rewrite <- E in *. rewrite sector_eval_degenerate by assumption.
    apply First; [|tauto]. now apply sector_eval_degenerate.
Qed.

(** The kaon model is exactly the combination of independent single-component models,
    the flag deciding only the sign (results and exceptions). *)
Theorem C20_kaon_combines_single_components : forall k ch kw m t,
  Kaon_init (kaon_class k) ch kw = Ok m -> 0 <= Re t ->
  Kaon_call m t =
  (s <- sum_of_singles (kwval kw "t_0_isoscalar") (kwval kw "t_in_isoscalar")
          (spec_sector (kwval kw) (isoscalar_resonances k)) t ;;
   v <- sum_of_singles (kwval kw "t_0_isovector") (kwval kw "t_in_isovector")
          (spec_sector (kwval kw) (isovector_resonances k)) t ;;
   Ok (if ch then Cadd s v else Csub s v)).
Proof.
  intros k ch kw m t H HR. destruct (Kaon_valid _ _ _ _ H) as [V1 V2].
  destruct (spec_sector_nonempty (kwval kw) k) as [N1 N2].
  rewrite (Kaon_view _ _ _ _ _ H). destruct (Rlt_dec (Re t) 0); [lra|].
  now rewrite !sum_of_singles_sector.
Qed.
Print Assumptions C20_kaon_combines_single_components.

(** Construction does not depend on the flag, and setting the flag on an existing object
    is the same as constructing with that flag. *)
Theorem C20_kaon_flag : forall k ch b kw m,
  Kaon_init (kaon_class k) ch kw = Ok m ->
  Kaon_init (kaon_class k) b kw = Ok (Kaon_set_charged m b).
Proof.
  intros k ch b kw m H. unfold Kaon_init in *. repeat res_inv. simpl in *.
  repeat match goal with E : ?x = Ok _ |- context [bind ?x _] => rewrite E; simpl bind end.
  reflexivity.
Qed.
Print Assumptions C20_kaon_flag.

Theorem C20_kaon_charged_plus_minus_neutral : forall k kw mc mn t c n,
  Kaon_init (kaon_class k) true kw = Ok mc -> Kaon_init (kaon_class k) false kw = Ok mn ->
  Kaon_call mc t = Ok c -> Kaon_call mn t = Ok n ->
  exists s v,
    sum_of_singles (kwval kw "t_0_isoscalar") (kwval kw "t_in_isoscalar")
          (spec_sector (kwval kw) (isoscalar_resonances k)) t = Ok s /\
    sum_of_singles (kwval kw "t_0_isovector") (kwval kw "t_in_isovector")
          (spec_sector (kwval kw) (isovector_resonances k)) t = Ok v /\
    Cadd c n = Cmul (RtoC 2) s /\ Csub c n = Cmul (RtoC 2) v.
Proof.
  intros k kw mc mn t c n Hc Hn Ec En.
  assert (R : 0 <= Re t).
  { rewrite (Kaon_view _ _ _ _ _ Hc) in Ec. destruct (Rlt_dec (Re t) 0); [discriminate|lra]. }
  rewrite (C20_kaon_combines_single_components _ _ _ _ _ Hc R) in Ec.
  rewrite (C20_kaon_combines_single_components _ _ _ _ _ Hn R) in En.
  apply bind_Ok_inv in Ec. destruct Ec as [s [Es Ec]]. apply bind_Ok_inv in Ec. destruct Ec as [v [Ev Ec]].
  rewrite Es, Ev in En. cbn [bind] in En. injection Ec as <-. injection En as <-.
  exists s, v. split; [assumption|]. split; [assumption|].
  replace (RtoC 2) with (Cadd (RtoC 1) (RtoC 1)) by (Cext; ring). split; ring.
Qed.
Print Assumptions C20_kaon_charged_plus_minus_neutral.

(** Parameters belonging to a sector. *)
Definition sector_keywords (sector : string) (names : list string) : list string :=
  ((("t_0_" ++ sector)%string :: ("t_in_" ++ sector)%string :: nil) ++
   map (fun n => "a_" ++ n)%string (removelast names) ++ map (fun n => "mass_" ++ n)%string names ++
   map (fun n => "decay_rate_" ++ n)%string names)%list.

Lemma spec_sector_ext : forall P Q names,
  (forall n, In n (removelast names) -> P ("a_" ++ n) = Q ("a_" ++ n)) ->
  (forall n, In n names -> P ("mass_" ++ n) = Q ("mass_" ++ n)) ->
  (forall n, In n names -> P ("decay_rate_" ++ n) = Q ("decay_rate_" ++ n)) ->
  spec_sector P names = spec_sector Q names.
Proof.
  intros P Q names A M G. unfold spec_sector.
  assert (E : spec_couplings P names = spec_couplings Q names).
  { unfold spec_couplings.
    replace (map (fun n => P ("a_" ++ n)) (removelast names)) with (map (fun n => Q ("a_" ++ n)) (removelast names)); [reflexivity|].
    apply map_ext_in. intros n Hn. symmetry. now apply A. }
  rewrite E. apply map_ext_in. intros [a n] H. apply in_combine_r in H. simpl.
  now rewrite M, G.
Qed.

Lemma sector_agree : forall sector kw kw' names t,
  (forall n, In n (sector_keywords sector names) -> kwval kw n = kwval kw' n) ->
  sum_of_singles (kwval kw ("t_0_" ++ sector)) (kwval kw ("t_in_" ++ sector)) (spec_sector (kwval kw) names) t =
  sum_of_singles (kwval kw' ("t_0_" ++ sector)) (kwval kw' ("t_in_" ++ sector)) (spec_sector (kwval kw') names) t.
Proof.
  intros sector kw kw' names t A. unfold sector_keywords in A.
  rewrite (spec_sector_ext (kwval kw) (kwval kw') names).
  - rewrite !A; [reflexivity| |]; simpl; tauto.
  - intros n Hn. apply A. apply in_or_app. right. apply in_or_app. left.
    apply in_map_iff. exists n. tauto.
  - intros n Hn. apply A. apply in_or_app. right. apply in_or_app. right. apply in_or_app. left.
    apply in_map_iff. exists n. tauto.
  - intros n Hn. apply A. apply in_or_app. right. apply in_or_app. right. apply in_or_app. right.
    apply in_map_iff. exists n. tauto.
Qed.

Theorem C20_kaon_sum_isoscalar_only : forall k kw kw' mc mn mc' mn' t c n c' n',
  Kaon_init (kaon_class k) true kw = Ok mc -> Kaon_init (kaon_class k) false kw = Ok mn ->
  Kaon_init (kaon_class k) true kw' = Ok mc' -> Kaon_init (kaon_class k) false kw' = Ok mn' ->
  (forall x, In x (sector_keywords "isoscalar" (isoscalar_resonances k)) -> kwval kw x = kwval kw' x) ->
  Kaon_call mc t = Ok c -> Kaon_call mn t = Ok n -> Kaon_call mc' t = Ok c' -> Kaon_call mn' t = Ok n' ->
  Cadd c n = Cadd c' n'.
Proof.
  intros k kw kw' mc mn mc' mn' t c n c' n' H1 H2 H3 H4 A E1 E2 E3 E4.
  destruct (C20_kaon_charged_plus_minus_neutral _ _ _ _ _ _ _ H1 H2 E1 E2) as [s [v [S [V [P M]]]]].
  destruct (C20_kaon_charged_plus_minus_neutral _ _ _ _ _ _ _ H3 H4 E3 E4) as [s' [v' [S' [V' [P' M']]]]].
  assert (X := sector_agree "isoscalar" kw kw' (isoscalar_resonances k) t A). simpl String.append in X.
  change ("t_0_" ++ "isoscalar") with "t_0_isoscalar" in X. change ("t_in_" ++ "isoscalar") with "t_in_isoscalar" in X.
  rewrite S, S' in X. injection X as <-. congruence.
Qed.
Print Assumptions C20_kaon_sum_isoscalar_only.

Theorem C20_kaon_difference_isovector_only : forall k kw kw' mc mn mc' mn' t c n c' n',
  Kaon_init (kaon_class k) true kw = Ok mc -> Kaon_init (kaon_class k) false kw = Ok mn ->
  Kaon_init (kaon_class k) true kw' = Ok mc' -> Kaon_init (kaon_class k) false kw' = Ok mn' ->
  (forall x, In x (sector_keywords "isovector" (isovector_resonances k)) -> kwval kw x = kwval kw' x) ->
  Kaon_call mc t = Ok c -> Kaon_call mn t = Ok n -> Kaon_call mc' t = Ok c' -> Kaon_call mn' t = Ok n' ->
  Csub c n = Csub c' n'.
Proof.
  intros k kw kw' mc mn mc' mn' t c n c' n' H1 H2 H3 H4 A E1 E2 E3 E4.
  destruct (C20_kaon_charged_plus_minus_neutral _ _ _ _ _ _ _ H1 H2 E1 E2) as [s [v [S [V [P M]]]]].
  destruct (C20_kaon_charged_plus_minus_neutral _ _ _ _ _ _ _ H3 H4 E3 E4) as [s' [v' [S' [V' [P' M']]]]].
  assert (X := sector_agree "isovector" kw kw' (isovector_resonances k) t A).
  change ("t_0_" ++ "isovector") with "t_0_isovector" in X. change ("t_in_" ++ "isovector") with "t_in_isovector" in X.
  rewrite V, V' in X. injection X as <-. congruence.
Qed.
Print Assumptions C20_kaon_difference_isovector_only.

Example C20_instance : forall k, exists mc mn c n,
  Kaon_init (kaon_class k) true (demo_kw (1/7) (1/2) k) = Ok mc /\
  Kaon_init (kaon_class k) false (demo_kw (1/7) (1/2) k) = Ok mn /\
  Kaon_call mc (RtoC 5) = Ok c /\ Kaon_call mn (RtoC 5) = Ok n.
Proof.
  intros k. destruct (C18_instance k) as [mc [H [[c E] _]]].
  assert (F := C20_kaon_flag k true false _ _ H).
  exists mc, (Kaon_set_charged mc false), c.
  assert (R : 0 <= Re (RtoC 5)) by (simpl; lra).
  rewrite (C20_kaon_combines_single_components _ _ _ _ _ H R) in E.
  apply bind_Ok_inv in E. destruct E as [s [Es E]]. apply bind_Ok_inv in E. destruct E as [v [Ev E]].
  exists (Csub s v). split; [assumption|]. split; [assumption|].
  rewrite (C20_kaon_combines_single_components _ _ _ _ _ H R).
  rewrite (C20_kaon_combines_single_components _ _ _ _ _ F R). rewrite Es, Ev. cbn [bind].
  split; [assumption|reflexivity].
Qed.

(** ** C24 Fall-off (kaons) *)

Theorem C24_kaon_falls_off : forall k ch kw m, Kaon_init (kaon_class k) ch kw = Ok m ->
  exists K T, 0 <= K /\ 0 < T /\
  forall t v, T <= Cabs t -> Kaon_call m t = Ok v -> Cabs v <= K / Cabs t.
Proof.
  intros k ch kw m H. destruct (Kaon_valid _ _ _ _ H) as [V1 V2].
  destruct (spec_sector_nonempty (kwval kw) k) as [N1 N2].
  assert (X : forall a b l, valid_sector a b l -> l <> [] -> exists f, decays 1 f /\
    forall t v, sector_eval a b l t = Ok v -> v = f t).
  { intros a b l [[P [Q|Q]] V] N.
    - exists (sec_val a b l). split; [now apply sec_val_decays|]. intros t v E.
      destruct (sector_eval_cases _ _ P Q _ t V) as [[_ F]|[_ [_ F]]]; congruence.
    - exists (fun _ => RtoC 0). split; [apply decays_0|]. intros t v E. rewrite <- Q in *.
      rewrite sector_eval_degenerate in E by assumption. discriminate. }
  destruct (X _ _ _ V1 N1) as [f [Df Ff]]. destruct (X _ _ _ V2 N2) as [g [Dg Fg]].
  assert (D : decays 1 (fun t => Cadd (f t) (Cmul (RtoC (if ch then 1 else -1)) (g t)))).
  { apply decays_add; [assumption|]. now apply decays_scale. }
  destruct D as [K [T [K0 [T0 D]]]]. exists K, T. split; [assumption|]. split; [assumption|].
  intros t v HT E. rewrite (Kaon_view _ _ _ _ _ H) in E. destruct (Rlt_dec (Re t) 0); [discriminate|].
  apply bind_Ok_inv in E. destruct E as [x [E1 E]]. apply bind_Ok_inv in E. destruct E as [y [E2 E]].
  injection E as <-. apply Ff in E1. apply Fg in E2. subst.
  specialize (D t HT). rewrite pow_1 in D.
  replace (if ch then Cadd (f t) (g t) else Csub (f t) (g t))
    with (Cadd (f t) (Cmul (RtoC (if ch then 1 else -1)) (g t))); [assumption|].
  destruct ch; Cext; ring.
Qed.
Print Assumptions C24_kaon_falls_off.

Theorem C24_single_falls_off : forall t_0 t_in a m g s,
  SingleComponentModel_init t_0 t_in a m g = Ok s ->
  exists K T, 0 <= K /\ 0 < T /\
  forall t v, T <= Cabs t -> SingleComponentModel_call s t = Ok v -> Cabs v <= K / Cabs t.
Proof.
  intros t_0 t_in a m g s H. destruct (Single_valid _ _ _ _ _ _ H) as [[H0 [Hlt|E]] V].
  - destruct (sec_val_decays _ _ _ H0 Hlt V) as [K [T [K0 [T0 D]]]]. exists K, T.
    split; [assumption|]. split; [assumption|]. intros t v HT E.
    rewrite (Single_view _ _ _ _ _ _ _ H) in E. destruct (Rlt_dec (Re t) 0); [discriminate|].
    destruct (sector_eval_cases _ _ H0 Hlt _ t V) as [[_ F]|[_ [_ F]]]; rewrite F in E; [discriminate|].
    injection E as <-. specialize (D t HT). now rewrite pow_1 in D.
  - exists 0, 1. split; [lra|]. split; [lra|]. intros t v _ F.
    rewrite (Single_view _ _ _ _ _ _ _ H) in F. destruct (Rlt_dec (Re t) 0); [discriminate|].
    rewrite <- E in *. rewrite sector_eval_degenerate in F by (assumption || discriminate). discriminate.
Qed.
Print Assumptions C24_single_falls_off.

(** ** C25 Acceptance (kaons) *)

(** A sector is accepted: valid branch points, t_in <> 0, and every resonance has
    m^2 >= t_0 and its pole is not t_in (nor t_0 when m^2 < t_in). *)
Theorem C25_kaon_accepts_iff : forall k ch kw,
  is_ok (Kaon_init (kaon_class k) ch kw) <->
  Permutation (map fst kw) (kaon_keywords k) /\
  sector_accepted (kwval kw) (kwval kw "t_0_isoscalar") (kwval kw "t_in_isoscalar") (isoscalar_resonances k) /\
  sector_accepted (kwval kw) (kwval kw "t_0_isovector") (kwval kw "t_in_isovector") (isovector_resonances k).
Proof. exact Kaon_accept_iff. Qed.
Print Assumptions C25_kaon_accepts_iff.

(** Outside the degenerate points: with t_0 < t_in and every m^2 > t_0, m^2 <> t_in the
    constructor accepts whatever the couplings and widths. *)
Lemma pole_real_cases : forall m g (x : R), 0 <= x -> resonance_pole m g = RtoC x -> m * m = x \/ (m = 0 /\ x = 0) .
Proof.
  intros m g x X E. assert (E1 := f_equal Re E). assert (E2 := f_equal Im E).
  unfold resonance_pole in E1, E2. simpl in E1, E2.
  assert (M : m * g = 0) by lra. apply Rmult_integral in M. destruct M as [M|M]; subst.
  - right. split; [reflexivity|]. assert (0 <= (- g / 2) * (- g / 2)) by nra. lra.
  - left. nra.
Qed.

Theorem C25_kaon_generic_accepted : forall k ch kw,
  Permutation (map fst kw) (kaon_keywords k) ->
  let p := kwval kw in
  0 <= p "t_0_isoscalar" < p "t_in_isoscalar" -> 0 <= p "t_0_isovector" < p "t_in_isovector" ->
  (forall n, In n (isoscalar_resonances k) ->
    p "t_0_isoscalar" < p ("mass_" ++ n) * p ("mass_" ++ n) /\
    p ("mass_" ++ n) * p ("mass_" ++ n) <> p "t_in_isoscalar") ->
  (forall n, In n (isovector_resonances k) ->
    p "t_0_isovector" < p ("mass_" ++ n) * p ("mass_" ++ n) /\
    p ("mass_" ++ n) * p ("mass_" ++ n) <> p "t_in_isovector") ->
  is_ok (Kaon_init (kaon_class k) ch kw).
Proof.
  intros k ch kw P p B1 B2 M1 M2. apply Kaon_accept_iff. split; [assumption|].
  assert (X : forall t_0 t_in m g, 0 <= t_0 < t_in -> t_0 < m * m -> m * m <> t_in ->
    resonance_accepted t_0 t_in m g).
  { intros t_0 t_in m g B L N. split; [lra|]. split; [|intros _]; intros E;
      (apply pole_real_cases in E; [destruct E as [F|[F G]]; [|rewrite F in L]; lra|lra]). }
  split; (split; [fold p; lra|]); (split; [fold p; lra|]); intros n Hn; fold p; apply X; try assumption;
    [apply (M1 n Hn)|apply (M1 n Hn)|apply (M2 n Hn)|apply (M2 n Hn)].
Qed.
Print Assumptions C25_kaon_generic_accepted.

Theorem C25_single_accepts_iff : forall t_0 t_in a m g,
  is_ok (SingleComponentModel_init t_0 t_in a m g) <->
  0 <= t_0 <= t_in /\ t_in <> 0 /\ t_0 <= m * m /\ resonance_pole m g <> RtoC t_in /\
  (m * m < t_in -> resonance_pole m g <> RtoC t_0).
Proof. exact Single_accept_iff. Qed.
Print Assumptions C25_single_accepts_iff.

(** The kind of exception tells the reason for the rejection. *)
Lemma mapM_err : forall (A B : Type) (f : A -> Res B) l e, mapM f l = Err e ->
  exists x, In x l /\ f x = Err e.
Proof.
  induction l as [|x l IH]; intros e H; simpl in H; [discriminate|].
  destruct (f x) as [y|e'] eqn:E.
  - simpl in H. destruct (mapM f l) as [r|e']; simpl in H; [discriminate|].
    destruct (IH e) as [z [Z1 Z2]]; [congruence|]. exists z. split; [now right|assumption].
  - simpl in H. exists x. split; [now left|congruence].
Qed.

Lemma init_components_err : forall attrs t_0 t_in names e P,
  (forall n, In n names -> attr attrs ("mass_" ++ n) = Ok (P ("mass_" ++ n)) /\
     attr attrs ("decay_rate_" ++ n) = Ok (P ("decay_rate_" ++ n))) ->
  init_components attrs t_0 t_in names = Err e ->
  exists n, In n names /\ build_component t_0 t_in (P ("mass_" ++ n)) (P ("decay_rate_" ++ n)) = Err e.
Proof.
  intros attrs t_0 t_in names e P A H. apply mapM_err in H. destruct H as [n [Hn H]].
  exists n. split; [assumption|]. destruct (A n Hn) as [A1 A2]. rewrite A1, A2 in H. simpl bind in H.
  destruct (build_component _ _ _ _); [discriminate|]. simpl in H. congruence.
Qed.

Lemma kaon_mass_attrs : forall k val n, In n (isoscalar_resonances k ++ isovector_resonances k) ->
  attr (attrs_of (kaon_class k) val) ("mass_" ++ n) = Ok (val ("mass_" ++ n)) /\
  attr (attrs_of (kaon_class k) val) ("decay_rate_" ++ n) = Ok (val ("decay_rate_" ++ n)).
Proof.
  intros k val n Hn. split.
  - apply (kaon_attr k _ (ELoc ("mass_" ++ n))).
    destruct k; simpl in Hn; repeat (destruct Hn as [<-|Hn]; [vm_compute; reflexivity|]); contradiction.
  - apply (kaon_attr k _ (ELoc ("decay_rate_" ++ n))).
    destruct k; simpl in Hn; repeat (destruct Hn as [<-|Hn]; [vm_compute; reflexivity|]); contradiction.
Qed.

Theorem C25_kaon_rejection_reasons : forall k ch kw e,
  let p := kwval kw in
  (p "t_0_isoscalar" < 0 \/ p "t_in_isoscalar" < p "t_0_isoscalar" \/
   p "t_0_isovector" < 0 \/ p "t_in_isovector" < p "t_0_isovector") \/
  (p "t_0_isoscalar" < p "t_in_isoscalar" /\ p "t_0_isovector" < p "t_in_isovector") ->
  Kaon_init (kaon_class k) ch kw = Err e ->
  (e = TypeError /\ ~ Permutation (map fst kw) (kaon_keywords k)) \/
  (e = ValueError /\
    (p "t_0_isoscalar" < 0 \/ p "t_in_isoscalar" < p "t_0_isoscalar" \/
     p "t_0_isovector" < 0 \/ p "t_in_isovector" < p "t_0_isovector" \/
     (exists n, In n (isoscalar_resonances k) /\ p ("mass_" ++ n) * p ("mass_" ++ n) < p "t_0_isoscalar") \/
     (exists n, In n (isovector_resonances k) /\ p ("mass_" ++ n) * p ("mass_" ++ n) < p "t_0_isovector"))) \/
  (e = ZeroDivisionError /\
    ((exists n, In n (isoscalar_resonances k) /\
       let pole := resonance_pole (p ("mass_" ++ n)) (p ("decay_rate_" ++ n)) in
       pole = RtoC (p "t_in_isoscalar") \/ pole = RtoC (p "t_0_isoscalar")) \/
     (exists n, In n (isovector_resonances k) /\
       let pole := resonance_pole (p ("mass_" ++ n)) (p ("decay_rate_" ++ n)) in
       pole = RtoC (p "t_in_isovector") \/ pole = RtoC (p "t_0_isovector")))).
Proof.
  intros k ch kw e p D H.
  destruct (bind_kwargs (kc_formals (kaon_class k)) kw) as [args|e'] eqn:A.
  2: { left. unfold Kaon_init in H. rewrite A in H. simpl in H. injection H as <-.
       split; [now apply bind_kwargs_err in A|]. intros P.
       destruct (Kaon_init_keywords k kw P) as [x X]. congruence. }
  right.
  assert (P : Permutation (map fst kw) (kaon_keywords k)).
  { eapply Permutation_trans; [|apply Permutation_sym, kaon_keywords_formals].
    apply (bind_kwargs_ok_iff _ _ kw (kaon_formals_NoDup k)). now exists args. }
  destruct (C19_MapFromTtoW_validation (p "t_0_isoscalar") (p "t_in_isoscalar")) as [_ O1].
  destruct (C19_MapFromTtoW_validation (p "t_0_isovector") (p "t_in_isovector")) as [_ O2].
  destruct (Rlt_dec (p "t_0_isoscalar") 0) as [L|L];
    [left; rewrite (C19_kaon_rejects k ch kw P) in H by (fold p; tauto); split; [congruence|tauto]|].
  destruct (Rlt_dec (p "t_in_isoscalar") (p "t_0_isoscalar")) as [L'|L'];
    [left; rewrite (C19_kaon_rejects k ch kw P) in H by (fold p; tauto); split; [congruence|tauto]|].
  destruct (Rlt_dec (p "t_0_isovector") 0) as [M|M];
    [left; rewrite (C19_kaon_rejects k ch kw P) in H by (fold p; tauto); split; [congruence|tauto]|].
  destruct (Rlt_dec (p "t_in_isovector") (p "t_0_isovector")) as [M'|M'];
    [left; rewrite (C19_kaon_rejects k ch kw P) in H by (fold p; tauto); split; [congruence|tauto]|].
  destruct D as [D|[D1 D2]]; [exfalso; tauto|].
  unfold Kaon_init in H. rewrite A in H. simpl bind in H.
  rewrite (run_assign_closed _ _ _ _ A (kaon_closed k)) in H. simpl bind in H.
  fold (attrs_of (kaon_class k) (kwval kw)) in H.
  rewrite !(kaon_attr k _ (ELoc "t_0_isoscalar")) in H by (destruct k; reflexivity).
  rewrite !(kaon_attr k _ (ELoc "t_in_isoscalar")) in H by (destruct k; reflexivity).
  rewrite !(kaon_attr k _ (ELoc "t_0_isovector")) in H by (destruct k; reflexivity).
  rewrite !(kaon_attr k _ (ELoc "t_in_isovector")) in H by (destruct k; reflexivity).
  simpl bind in H. fold p in H.
  destruct (proj2 O1) as [m1 M1]; [lra|]. rewrite M1 in H. simpl bind in H.
  destruct (proj2 O2) as [m2 M2]; [lra|]. rewrite M2 in H. simpl bind in H.
  destruct (kaon_names k) as [K1 K2]. rewrite K1, K2 in H.
  assert (X : forall t_0 t_in n, 0 <= t_0 < t_in ->
    build_component t_0 t_in (p ("mass_" ++ n)) (p ("decay_rate_" ++ n)) = Err e ->
    (e = ValueError /\ p ("mass_" ++ n) * p ("mass_" ++ n) < t_0) \/
    (e = ZeroDivisionError /\ (resonance_pole (p ("mass_" ++ n)) (p ("decay_rate_" ++ n)) = RtoC t_in \/
       resonance_pole (p ("mass_" ++ n)) (p ("decay_rate_" ++ n)) = RtoC t_0))).
  { intros t_0 t_in n V E. apply build_component_err in E; [|assumption]. rewrite resonance_pole_eq in E. tauto. }
  destruct (init_components (attrs_of (kaon_class k) p) (p "t_0_isoscalar") (p "t_in_isoscalar") (isoscalar_resonances k)) as [cs|e1] eqn:E1.
  - simpl bind in H.
    destruct (init_components (attrs_of (kaon_class k) p) (p "t_0_isovector") (p "t_in_isovector") (isovector_resonances k)) as [cv|e2] eqn:E2;
      simpl bind in H; [discriminate|]. injection H as ->.
    apply (init_components_err _ _ _ _ _ p) in E2; [|intros n Hn; apply kaon_mass_attrs, in_or_app; tauto].
    destruct E2 as [n [Hn E2]]. apply X in E2; [|lra]. destruct E2 as [[-> E2]|[-> E2]].
    + left. split; [reflexivity|]. do 5 right. exists n. tauto.
    + right. split; [reflexivity|]. right. exists n. tauto.
  - simpl bind in H. injection H as ->.
    apply (init_components_err _ _ _ _ _ p) in E1; [|intros n Hn; apply kaon_mass_attrs, in_or_app; tauto].
    destruct E1 as [n [Hn E1]]. apply X in E1; [|lra]. destruct E1 as [[-> E1]|[-> E1]].
    + left. split; [reflexivity|]. do 4 right. left. exists n. tauto.
    + right. split; [reflexivity|]. left. exists n. tauto.
Qed.
Print Assumptions C25_kaon_rejection_reasons.

Example C25_instance :
  is_ok (Kaon_init (kaon_class Full) true (demo_kw (1/7) (1/2) Full)) /\
  is_ok (SingleComponentModel_init 1 2 (1/2) 3 0) /\
  ~ is_ok (SingleComponentModel_init 1 2 (1/2) (1/2) 0) /\      (* m^2 < t_0 *)
  ~ is_ok (SingleComponentModel_init 1 4 (1/2) 2 0) /\          (* pole = t_in *)
  ~ is_ok (SingleComponentModel_init 1 4 (1/2) 1 0).            (* pole = t_0 < t_in *)
Proof.
  assert (Z : forall m, resonance_pole m 0 = RtoC (m * m)).
  { intros m. rewrite <- resonance_pole_eq. apply meson_pole_0. }
  split; [destruct (demo_accepted (1/7) (1/2) Full true) as [m H]; now exists m|].
  rewrite !C25_single_accepts_iff, !Z. split; [|split; [|split]].
  - split; [lra|]. split; [lra|]. split; [lra|]. split; [|lra]. intros E. apply RtoC_inj in E. lra.
  - intros [_ [_ [A _]]]. lra.
  - intros [_ [_ [_ [A _]]]]. apply A. Cext; ring.
  - intros [_ [_ [_ [_ A]]]]. apply A; [lra|]. Cext; ring.
Qed.

(** ** C21 The reduced models are special cases *)

Lemma drop_zero : forall t_0 t_in l1 r l2 t v, valid_sector t_0 t_in (l1 ++ r :: l2)%list ->
  (l1 ++ r :: l2)%list <> [] -> r_a r = 0 ->
  sector_eval t_0 t_in (l1 ++ r :: l2)%list t = Ok v ->
  sector_eval t_0 t_in (l1 ++ l2)%list t = Ok v.
Proof.
  intros t_0 t_in l1 r l2 t v [[H0 [Hlt|Q]] V] N Z E.
  - assert (V' : Forall (fun r => is_ok (build_component t_0 t_in (r_m r) (r_g r))) (l1 ++ l2)%list).
    { apply Forall_app in V. destruct V as [V1 V2]. inversion V2; subst. apply Forall_app. tauto. }
    destruct (sector_eval_cases _ _ H0 Hlt _ t V) as [[_ F]|[A [B F]]]; rewrite F in E; [discriminate|].
    injection E as <-.
    destruct (sector_eval_cases _ _ H0 Hlt _ t V') as [[A' _]|[_ [_ F']]].
    + exfalso. destruct A' as [A'|A']; [contradiction|].
      apply Forall_app in B. destruct B as [B1 B2]. inversion B2; subst.
      apply Exists_app in A'. rewrite Forall_forall in *.
      destruct A' as [A'|A']; apply Exists_exists in A'; destruct A' as [x [X1 X2]].
      * exact (B1 x X1 X2).
      * exact (B2 x (or_intror X1) X2).
    + rewrite F'. f_equal. unfold sec_val. rewrite !map_app, !csum_app. simpl. rewrite Z. ring.
  - rewrite <- Q in *. rewrite sector_eval_degenerate in E by assumption. discriminate.
Qed.

(** Keyword arguments of the full model restricting to those of a reduced model. *)
Definition extends (kf kr : env R) (k : kaon_kind) : Prop :=
  Permutation (map fst kr) (kaon_keywords k) /\
  forall n, In n (kaon_keywords k) -> kwval kr n = kwval kf n.

Lemma extends_accepted : forall k ch kf kr mf, extends kf kr k ->
  incl (isoscalar_resonances k) (isoscalar_resonances Full) ->
  incl (isovector_resonances k) (isovector_resonances Full) ->
  Kaon_init (kaon_class Full) ch kf = Ok mf -> exists mr, Kaon_init (kaon_class k) ch kr = Ok mr.
Proof.
  intros k ch kf kr mf [P E] I1 I2 H.
  assert (A : is_ok (Kaon_init (kaon_class Full) ch kf)) by now exists mf.
  apply Kaon_accept_iff in A. destruct A as [_ [A1 A2]].
  apply Kaon_accept_iff. split; [assumption|].
  unfold sector_accepted in *. rewrite !E by (destruct k; inkw).
  destruct A1 as [A1 [A1' A1'']]. destruct A2 as [A2 [A2' A2'']].
  assert (X : forall n, In n (isoscalar_resonances k) \/ In n (isovector_resonances k) ->
    kwval kr ("mass_" ++ n) = kwval kf ("mass_" ++ n) /\ kwval kr ("decay_rate_" ++ n) = kwval kf ("decay_rate_" ++ n)).
  { intros n Hn. destruct k; simpl in Hn;
      repeat match goal with Q : _ \/ _ |- _ => destruct Q end; subst; try contradiction;
      (split; apply E; inkw). }
  split; (split; [assumption|split; [assumption|intros n Hn]]).
  - destruct (X n (or_introl Hn)) as [-> ->]. apply A1'', I1, Hn.
  - destruct (X n (or_intror Hn)) as [-> ->]. apply A2'', I2, Hn.
Qed.

Lemma Rsum_app : forall l l', Rsum (l ++ l')%list = Rsum l + Rsum l'.
Proof. unfold Rsum. induction l as [|x l IH]; intros l'; simpl; [ring|]. rewrite IH. ring. Qed.

(** A resonance with a vanishing given coupling splits off. *)
Lemma spec_sector_split : forall P l1 n l2, l2 <> [] -> P ("a_" ++ n) = 0 ->
  exists c1 c2 : list resonance, spec_sector P (l1 ++ n :: l2) = (c1 ++ (0, P ("mass_" ++ n)%string, P ("decay_rate_" ++ n)%string) :: c2)%list /\
    spec_sector P (l1 ++ l2) = (c1 ++ c2)%list.
Proof.
  intros P l1 n l2 N Z.
  assert (R1 : removelast (l1 ++ n :: l2) = (l1 ++ n :: removelast l2)%list).
  { rewrite removelast_app by discriminate. f_equal. destruct l2; [contradiction|reflexivity]. }
  assert (R2 : removelast (l1 ++ l2) = (l1 ++ removelast l2)%list) by now apply removelast_app.
  set (u := map (fun x => P ("a_" ++ x)) l1). set (w := spec_couplings P (l1 ++ l2)).
  assert (W : exists w2, w = (u ++ w2)%list /\ spec_couplings P (l1 ++ n :: l2) = (u ++ 0 :: w2)%list).
  { unfold w, spec_couplings. rewrite R1, R2, !map_app. fold u. simpl map. rewrite Z.
    eexists. rewrite <- !app_assoc. split; [reflexivity|]. simpl. do 5 f_equal.
    rewrite !Rsum_app. unfold Rsum at 2. simpl. fold (Rsum (map (fun x => P ("a_" ++ x)) (removelast l2))). ring. }
  destruct W as [w2 [W1 W2]].
  assert (CA : forall (a b : list R) (c d : list string), length a = length c ->
    combine (a ++ b) (c ++ d) = (combine a c ++ combine b d)%list).
  { induction a as [|x a IH]; intros b [|y c] d L; try discriminate; [reflexivity|].
    simpl. injection L as L. now rewrite IH. }
  unfold spec_sector. fold w. rewrite W1, W2.
  rewrite !CA by (unfold u; now rewrite map_length). rewrite !map_app. simpl combine. simpl map.
  eexists _, _. split; reflexivity.
Qed.

(** A last resonance whose dependent coupling vanishes splits off. *)
Lemma spec_sector_split_last : forall P l n1 n2,
  P ("a_" ++ n1) = 1/2 - Rsum (map (fun x => P ("a_" ++ x)) l) ->
  spec_sector P (l ++ [n1; n2]) =
  (spec_sector P (l ++ [n1]) ++ (0, P ("mass_" ++ n2)%string, P ("decay_rate_" ++ n2)%string) :: nil)%list.
Proof.
  intros P l n1 n2 Z. unfold spec_sector.
  assert (R1 : removelast (l ++ [n1; n2]) = (l ++ [n1])%list) by now rewrite removelast_app.
  assert (R2 : removelast (l ++ [n1]) = l) by (rewrite removelast_app by discriminate; apply app_nil_r).
  assert (W : spec_couplings P (l ++ [n1; n2]) = (spec_couplings P (l ++ [n1]) ++ [0])%list).
  { unfold spec_couplings. rewrite R1, R2, map_app. simpl map. rewrite Rsum_app. unfold Rsum at 2. simpl.
    rewrite Z. do 2 f_equal. f_equal. ring. }
  rewrite W. change [n1; n2] with ([n1] ++ [n2])%list. rewrite app_assoc.
  assert (L : length (spec_couplings P (l ++ [n1])) = length (l ++ [n1])%list).
  { apply spec_couplings_length. intros E. apply app_eq_nil in E. now destruct E. }
  revert L. generalize (spec_couplings P (l ++ [n1])) as u. generalize (l ++ [n1])%list as w.
  intros w u. revert w.
  induction u as [|x a IH]; intros [|y c] E; try discriminate; [reflexivity|].
  simpl. injection E as E. exact (f_equal (cons _) (IH c E)).
Qed.

Theorem C21_simplified_is_special_case : forall ch kf kr mf,
  Kaon_init (kaon_class Full) ch kf = Ok mf ->
  kwval kf "a_omega" = 0 -> kwval kf "a_rho" = 0 -> extends kf kr Simplified ->
  exists mr, Kaon_init (kaon_class Simplified) ch kr = Ok mr /\
  forall t v, Kaon_call mf t = Ok v -> Kaon_call mr t = Ok v.
Proof.
  intros ch kf kr mf H Z1 Z2 X.
  destruct (extends_accepted Simplified ch kf kr mf X) as [mr Hr]; try assumption.
  { intros n Hn. simpl in *. tauto. } { intros n Hn. simpl in *. tauto. }
  exists mr. split; [assumption|]. intros t v E. destruct X as [_ X].
  destruct (Kaon_valid _ _ _ _ H) as [V1 V2].
  rewrite (Kaon_view _ _ _ _ _ H) in E. rewrite (Kaon_view _ _ _ _ _ Hr).
  destruct (Rlt_dec (Re t) 0); [discriminate|].
  apply bind_Ok_inv in E. destruct E as [x [E1 E]]. apply bind_Ok_inv in E. destruct E as [y [E2 E]].
  rewrite !X by inkw.
  rewrite (spec_sector_ext (kwval kr) (kwval kf) (isoscalar_resonances Simplified)) by
      (intros nm Hn; apply X; simpl in Hn; repeat (destruct Hn as [<-|Hn]; [inkw|]); contradiction).
  rewrite (spec_sector_ext (kwval kr) (kwval kf) (isovector_resonances Simplified)) by
      (intros nm Hn; apply X; simpl in Hn; repeat (destruct Hn as [<-|Hn]; [inkw|]); contradiction).
  destruct (spec_sector_split (kwval kf) [] "omega" (isoscalar_resonances Simplified)) as [c1 [c2 [S1 S2]]];
    [discriminate|exact Z1|].
  destruct (spec_sector_split (kwval kf) [] "rho" (isovector_resonances Simplified)) as [d1 [d2 [T1 T2]]];
    [discriminate|exact Z2|].
  change ([] ++ "omega" :: isoscalar_resonances Simplified)%list with (isoscalar_resonances Full) in S1.
  change ([] ++ "rho" :: isovector_resonances Simplified)%list with (isovector_resonances Full) in T1.
  change ([] ++ isoscalar_resonances Simplified)%list with (isoscalar_resonances Simplified) in S2.
  change ([] ++ isovector_resonances Simplified)%list with (isovector_resonances Simplified) in T2.
  rewrite S1 in E1, V1. rewrite T1 in E2, V2. rewrite S2, T2.
  assert (NE : forall (a b : list resonance) r, (a ++ r :: b)%list <> []) by (intros [|] ? ?; discriminate).
  apply (fun V N Z => drop_zero _ _ _ _ _ _ _ V N Z E1) in V1; [|apply NE|reflexivity].
  apply (fun V N Z => drop_zero _ _ _ _ _ _ _ V N Z E2) in V2; [|apply NE|reflexivity].
  rewrite V1, V2. exact E.
Qed.
Print Assumptions C21_simplified_is_special_case.

Theorem C21_B_is_special_case : forall ch kf kr mf,
  Kaon_init (kaon_class Full) ch kf = Ok mf ->
  kwval kf "a_omega_prime" = 0 ->
  kwval kf "a_rho_double_prime" = 1/2 - kwval kf "a_rho" - kwval kf "a_rho_prime" ->
  extends kf kr ReducedB ->
  exists mr, Kaon_init (kaon_class ReducedB) ch kr = Ok mr /\
  forall t v, Kaon_call mf t = Ok v -> Kaon_call mr t = Ok v.
Proof.
  intros ch kf kr mf H Z1 Z2 X.
  destruct (extends_accepted ReducedB ch kf kr mf X) as [mr Hr]; try assumption.
  { intros n Hn. simpl in *. tauto. } { intros n Hn. simpl in *. tauto. }
  exists mr. split; [assumption|]. intros t v E. destruct X as [_ X].
  destruct (Kaon_valid _ _ _ _ H) as [V1 V2].
  rewrite (Kaon_view _ _ _ _ _ H) in E. rewrite (Kaon_view _ _ _ _ _ Hr).
  destruct (Rlt_dec (Re t) 0); [discriminate|].
  apply bind_Ok_inv in E. destruct E as [x [E1 E]]. apply bind_Ok_inv in E. destruct E as [y [E2 E]].
  rewrite !X by inkw.
  rewrite (spec_sector_ext (kwval kr) (kwval kf) (isoscalar_resonances ReducedB)) by
      (intros nm Hn; apply X; simpl in Hn; repeat (destruct Hn as [<-|Hn]; [inkw|]); contradiction).
  rewrite (spec_sector_ext (kwval kr) (kwval kf) (isovector_resonances ReducedB)) by
      (intros nm Hn; apply X; simpl in Hn; repeat (destruct Hn as [<-|Hn]; [inkw|]); contradiction).
  destruct (spec_sector_split (kwval kf) ["omega"] "omega_prime"
    ["omega_double_prime"; "phi"; "phi_prime"; "phi_double_prime"]) as [c1 [c2 [S1 S2]]];
    [discriminate|exact Z1|].
  assert (T := spec_sector_split_last (kwval kf) ["rho"; "rho_prime"] "rho_double_prime" "rho_triple_prime").
  change (["omega"] ++ ["omega_double_prime"; "phi"; "phi_prime"; "phi_double_prime"])%list with (isoscalar_resonances ReducedB) in S2.
  change (["omega"] ++ ["omega_prime"; "omega_double_prime"; "phi"; "phi_prime"; "phi_double_prime"])%list with (isoscalar_resonances Full) in S1.
  change (["rho"; "rho_prime"] ++ ["rho_double_prime"; "rho_triple_prime"])%list with (isovector_resonances Full) in T.
  change (["rho"; "rho_prime"] ++ ["rho_double_prime"])%list with (isovector_resonances ReducedB) in T.
  rewrite S1 in E1, V1. rewrite T in E2, V2.
  2, 3: unfold Rsum; simpl map; simpl fold_right;
    change ("a_" ++ "rho") with "a_rho"; change ("a_" ++ "rho_prime") with "a_rho_prime";
    change ("a_" ++ "rho_double_prime") with "a_rho_double_prime"; rewrite Z2; ring.
  rewrite S2.
  assert (NE : forall (a b : list resonance) r, (a ++ r :: b)%list <> []) by (intros [|] ? ?; discriminate).
  apply (fun V N Z => drop_zero _ _ _ _ _ _ _ V N Z E1) in V1; [|apply NE|reflexivity].
  apply (fun V N Z => drop_zero _ _ _ _ _ _ _ V N Z E2) in V2; [|apply NE|reflexivity].
  rewrite app_nil_r in V2. rewrite V1, V2. exact E.
Qed.
Print Assumptions C21_B_is_special_case.

(** Conversely the full model can fail where the reduced one returns: at the pole of a
    resonance with a vanishing coupling. *)
Example C21_instance : exists mf mr vf,
  let kf := demo_kw 0 (1/2) Full in
  let kr := demo_kw 0 (1/2) Simplified in
  Kaon_init (kaon_class Full) true kf = Ok mf /\ kwval kf "a_omega" = 0 /\ kwval kf "a_rho" = 0 /\
  extends kf kr Simplified /\ Kaon_init (kaon_class Simplified) true kr = Ok mr /\
  Kaon_call mf (RtoC 5) = Ok vf /\ Kaon_call mr (RtoC 5) = Ok vf.
Proof.
  destruct (demo_accepted 0 (1/2) Full true) as [mf H].
  assert (X : extends (demo_kw 0 (1/2) Full) (demo_kw 0 (1/2) Simplified) Simplified).
  { split; [unfold demo_kw; rewrite map_map; simpl; reflexivity|].
    intros n Hn. rewrite demo_kwval by assumption. symmetry. apply demo_kwval.
    simpl in Hn. repeat (destruct Hn as [<-|Hn]; [inkw|]); contradiction. }
  assert (Z1 : kwval (demo_kw 0 (1/2) Full) "a_omega" = 0) by (rewrite demo_kwval by inkw; reflexivity).
  assert (Z2 : kwval (demo_kw 0 (1/2) Full) "a_rho" = 0) by (rewrite demo_kwval by inkw; reflexivity).
  destruct (C21_simplified_is_special_case true _ _ mf H Z1 Z2 X) as [mr [Hr C]].
  assert (I : is_ok (Kaon_call mf (RtoC 5))).
  { apply (C18_kaon_defined_on_real_axis Full true _ mf 5 H);
      rewrite ?demo_kwval by inkw; unfold demo_value; simpl; try lra.
    intros n Hn. repeat (destruct Hn as [<-|Hn]; [rewrite !demo_kwval by inkw; unfold demo_value; simpl; lra|]); contradiction. }
  destruct I as [v I]. exists mf, mr, v. simpl. split; [assumption|]. split; [assumption|]. split; [assumption|].
  split; [assumption|]. split; [assumption|]. split; [assumption|]. now apply C.
Qed.

Example C14_instance : forall k, exists m v,
  Kaon_init (kaon_class k) true (demo_kw (1/7) (1/2) k) = Ok m /\
  plane_without_cut (kwval (demo_kw (1/7) (1/2) k) "t_0_isoscalar") (mkC 5 1) /\
  plane_without_cut (kwval (demo_kw (1/7) (1/2) k) "t_0_isovector") (mkC 5 1) /\
  Kaon_call m (mkC 5 1) = Ok v.
Proof.
  intros k. destruct (demo_accepted (1/7) (1/2) k true) as [m H].
  assert (F := C18_kaon_failure_set k true _ m (mkC 5 1) H).
  rewrite !demo_kwval in F by (destruct k; inkw).
  change (demo_value (1/7) (1/2) "t_0_isoscalar") with 1 in F.
  change (demo_value (1/7) (1/2) "t_in_isoscalar") with 2 in F.
  change (demo_value (1/7) (1/2) "t_0_isovector") with 1 in F.
  change (demo_value (1/7) (1/2) "t_in_isovector") with 2 in F.
  destruct F as [A [B [[v D]|[D|D]]]]; try lra.
  - exists m, v. split; [assumption|].
    split; [intros [X _]; simpl in X; lra|]. split; [intros [X _]; simpl in X; lra|assumption].
  - exfalso. apply A in D. simpl in D. lra.
  - exfalso. apply B in D. destruct D as [_ [D|[D|[n [Hn D]]]]].
    + apply (f_equal Im) in D. simpl in D. lra.
    + apply (f_equal Im) in D. simpl in D. lra.
    + assert (M : kwval (demo_kw (1/7) (1/2) k) ("mass_" ++ n) = 2 /\ kwval (demo_kw (1/7) (1/2) k) ("decay_rate_" ++ n) = 1/2).
      { destruct k; simpl in Hn; repeat (destruct Hn as [<-|Hn]; [rewrite !demo_kwval by inkw; split; reflexivity|]); contradiction. }
      destruct M as [M1 M2]. rewrite M1, M2 in D.
      destruct D as [D|D]; apply (f_equal Re) in D; unfold resonance_pole in D; simpl in D; lra.
Qed.

Example C24_instance : forall k, exists m K T,
  Kaon_init (kaon_class k) true (demo_kw (1/7) (1/2) k) = Ok m /\ 0 <= K /\ 0 < T /\
  forall t v, T <= Cabs t -> Kaon_call m t = Ok v -> Cabs v <= K / Cabs t.
Proof.
  intros k. destruct (demo_accepted (1/7) (1/2) k true) as [m H].
  destruct (C24_kaon_falls_off k true _ m H) as [K [T X]]. exists m, K, T. tauto.
Qed.
