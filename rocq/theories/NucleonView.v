(** The contributions of a built nucleon model in closed form, the exact conditions under
    which they raise, and the model's value as a function of its parameters. *)
From Coq Require Import String Reals Bool Arith List Lra.
From Verif Require Import PyBase CNum UAMaps UAComponents PyExpr Nucleon MapProofs ComponentProofs
  ExprProofs KaonProofs SectorProofs NucleonCache NucleonProofs.
Import ListNotations.
Local Open Scope R_scope.
Local Open Scope py_scope.
Local Open Scope string_scope.

#[local] Arguments String.append : simpl never.

Definition subset (a b : list string) : bool := forallb (fun n => mem n b) a.
Lemma subset_In : forall a b n, subset a b = true -> In n a -> In n b.
Proof.
  intros a b n H I. unfold subset in H. rewrite forallb_forall in H. now apply mem_In, H.
Qed.

Definition local_names (k : nucleon_kind) (s d : bool) : list string :=
  ((match k with New => if orb s d then map (fun r => ("c_" ++ r)%string) (iso_names s) else [] | Old => [] end) ++
   (if d then [] else ["norm"]))%list.

Lemma used_loc_names : forall k s d, subset (used_loc (sector_expr k s d)) (local_names k s d) = true.
Proof. intros [] [] []; vm_compute; reflexivity. Qed.
Lemma used_attr_names : forall k s d, subset (used_attr (sector_expr k s d)) NucleonUAModel_formals = true.
Proof. intros [] [] []; vm_compute; reflexivity. Qed.
Lemma used_comp_names : forall k s d, subset (used_comp (sector_expr k s d)) (map (ckey d) (iso_names s)) = true.
Proof. intros [] [] []; vm_compute; reflexivity. Qed.
Lemma comp_names_used : forall k s d, subset (map (ckey d) (iso_names s)) (used_comp (sector_expr k s d)) = true.
Proof. intros [] [] []; vm_compute; reflexivity. Qed.

Lemma Kv_ckey : forall s d F r, In r (iso_names s) -> Kv s d F (ckey d r) = F r.
Proof.
  intros s d F r H. destruct s, d; simpl in H;
    repeat (destruct H as [<-|H]; [reflexivity|]); contradiction.
Qed.

Section Built.
Variables (k : nucleon_kind) (p e : bool) (kw : env R) (m : NucleonModel).
Hypothesis B : nucleon_built k p e kw m.
Let P := kwval kw.

Lemma built_mass : forall s r, In r (iso_names s) ->
  attr (nm_attrs m) ("mass_" ++ r) = Ok (P ("mass_" ++ r)) /\
  attr (nm_attrs m) ("decay_rate_" ++ r) = Ok (P ("decay_rate_" ++ r)).
Proof.
  intros s r H. destruct (in_iso_names s r H). split; now apply (nb_attr _ _ _ _ _ B).
Qed.

Lemma built_mass_term : forall s d r, k = New -> bp0 P s d < bpin P s d -> In r (iso_names s) ->
  calculate_mass_term m s d r = Ok (cv k P s d r).
Proof.
  intros s d r E Hlt I. destruct (built_mass s r I) as [E1 E2].
  destruct (nb_comp _ _ _ _ _ B s d r I) as [c [_ Bc]].
  destruct (nbuild_inv _ _ _ _ _ _ Hlt Bc) as [H0 [G _]].
  unfold cv. rewrite E in *. apply mass_term_ok; try assumption. exact (nb_map _ _ _ _ _ B s d).
Qed.

Lemma built_mass_term_degenerate : forall s d r, bp0 P s d = bpin P s d -> In r (iso_names s) ->
  calculate_mass_term m s d r = Err ZeroDivisionError.
Proof.
  intros s d r E I. destruct (built_mass s r I) as [E1 E2].
  apply (mass_term_degenerate m (bp0 P s d) (P ("mass_" ++ r)) (P ("decay_rate_" ++ r))); try assumption.
  - exact (proj1 (nb_valid _ _ _ _ _ B s d)).
  - rewrite (nb_map _ _ _ _ _ B s d). unfold the_map. fold P. now rewrite <- E.
Qed.

Lemma norm_plus : forall w ls,
  ev (nucleon_scope m w ls) (ENum (1/2) * ((EAttr "magnetic_moment_proton" + EAttr "magnetic_moment_neutron") - ENum 1))%expr =
  Ok (Lv P true (fun _ => RtoC 0) "norm").
Proof.
  intros. cbn [ev nucleon_scope sc_attr]. rewrite !(nb_attr _ _ _ _ _ B) by reflexivity. reflexivity.
Qed.
Lemma norm_minus : forall w ls,
  ev (nucleon_scope m w ls) (ENum (1/2) * ((EAttr "magnetic_moment_proton" - EAttr "magnetic_moment_neutron") - ENum 1))%expr =
  Ok (Lv P false (fun _ => RtoC 0) "norm").
Proof.
  intros. cbn [ev nucleon_scope sc_attr]. rewrite !(nb_attr _ _ _ _ _ B) by reflexivity. reflexivity.
Qed.

Lemma built_locals : forall s d w, bp0 P s d < bpin P s d ->
  exists ls, locals_pure m w (sector_locals k s d) [] = Ok ls /\
  forall n, In n (local_names k s d) -> sc_loc (nucleon_scope m w ls) n = Ok (Lv P s (cv k P s d) n).
Proof.
  intros s d w Hlt.
  assert (M := fun r => built_mass_term s d r). assert (NP := norm_plus). assert (NM := norm_minus).
  destruct k.
  - destruct s, d; cbn [sector_locals nucleon_class nc_dirac_isoscalar_locals nc_dirac_isovector_locals
      nc_pauli_isoscalar_locals nc_pauli_isovector_locals NucleonUAModel
      NucleonUAModel_dirac_isoscalar_locals NucleonUAModel_dirac_isovector_locals
      NucleonUAModel_pauli_isoscalar_locals NucleonUAModel_pauli_isovector_locals locals_pure];
    rewrite ?M by (try reflexivity; try assumption; apply mem_In; reflexivity); cbn [bind locals_pure];
    rewrite ?NP, ?NM; cbn [bind locals_pure];
    (eexists; split; [reflexivity|]); intros n Hn; unfold local_names in Hn; cbn [orb iso_names map app] in Hn;
    repeat (destruct Hn as [<-|Hn]; [reflexivity|]); contradiction.
  - destruct s, d; cbn [sector_locals nucleon_class nc_dirac_isoscalar_locals nc_dirac_isovector_locals
      nc_pauli_isoscalar_locals nc_pauli_isovector_locals NucleonUAModelOld
      NucleonUAModelOld_dirac_isoscalar_locals NucleonUAModelOld_dirac_isovector_locals
      NucleonUAModelOld_pauli_isoscalar_locals NucleonUAModelOld_pauli_isovector_locals locals_pure];
    rewrite ?NP, ?NM; cbn [bind locals_pure];
    (eexists; split; [reflexivity|]); intros n Hn; unfold local_names in Hn; cbn [orb iso_names map app] in Hn;
    repeat (destruct Hn as [<-|Hn]; [reflexivity|]); contradiction.
Qed.

(** Conditions for a contribution to be defined. *)
Definition contribution_defined (s d : bool) (t : C) : Prop :=
  t <> RtoC (bpin P s d) /\
  (forall r, In r (iso_names s) -> ~ at_pole (P ("mass_" ++ r)) (P ("decay_rate_" ++ r)) t) /\
  distinct_terms s d (cv k P s d).

Lemma mass_terms_cv : forall s d, mass_terms_of k P (cv k P s d).
Proof. intros s d E r. unfold cv. rewrite E. reflexivity. Qed.

Lemma contribution_cases : forall s d t, bp0 P s d < bpin P s d ->
  (contribution_defined s d t /\
   contribution k m s d t = Ok (formula P s d (cv k P s d) (Fv k P s d t))) \/
  (~ contribution_defined s d t /\ contribution k m s d t = Err ZeroDivisionError).
Proof.
  intros s d t Hlt. unfold contribution, contribution_pure, contribution_defined.
  rewrite (nb_map _ _ _ _ _ B s d). unfold the_map. fold P.
  destruct (Map_call_cases _ _ Hlt t) as [[E F]|[N F]]; rewrite F; cbn [bind]; [right; tauto|].
  destruct (built_locals s d (Wt (bp0 P s d) (bpin P s d) t) Hlt) as [ls [EL HL]]. rewrite EL. cbn [bind].
  set (sc := nucleon_scope m (Wt (bp0 P s d) (bpin P s d) t) ls) in *.
  assert (HC : forall r, In r (iso_names s) ->
    (at_pole (P ("mass_" ++ r)) (P ("decay_rate_" ++ r)) t /\ sc_comp sc (ckey d r) = Err ZeroDivisionError) \/
    (~ at_pole (P ("mass_" ++ r)) (P ("decay_rate_" ++ r)) t /\ sc_comp sc (ckey d r) = Ok (Kv s d (Fv k P s d t) (ckey d r)))).
  { intros r Hr. destruct (nb_comp _ _ _ _ _ B s d r Hr) as [c [L Bc]].
    unfold sc. cbn [nucleon_scope sc_comp]. rewrite L. cbn [bind]. rewrite Kv_ckey by assumption.
    exact (ncomp_cases _ _ _ _ _ _ _ Hlt Bc N). }
  assert (OKK : comps_ok (Kv s d (Fv k P s d t)) sc (sector_expr k s d) <->
    (forall r, In r (iso_names s) -> ~ at_pole (P ("mass_" ++ r)) (P ("decay_rate_" ++ r)) t)).
  { unfold comps_ok. split.
    - intros H r Hr A. destruct (HC r Hr) as [[_ X]|[X _]]; [|contradiction].
      rewrite H in X; [discriminate|].
      apply (subset_In _ _ _ (comp_names_used k s d)). now apply in_map.
    - intros H n Hn. apply (subset_In _ _ _ (used_comp_names k s d)) in Hn.
      apply in_map_iff in Hn. destruct Hn as [r [<- Hr]].
      destruct (HC r Hr) as [[X _]|[_ X]]; [exfalso; exact (H r Hr X)|assumption]. }
  destruct (ev_total P (Lv P s (cv k P s d)) (Kv s d (Fv k P s d t)) sc (sector_expr k s d))
    as [[O1 [Z E]]|[O1 E]].
  - intros n Hn. apply (nb_attr _ _ _ _ _ B).
    assert (U := used_attr_names k s d). unfold subset in U. rewrite forallb_forall in U. exact (U n Hn).
  - intros n Hn. apply HL. now apply (subset_In _ _ _ (used_loc_names k s d)).
  - intros n Hn. apply (subset_In _ _ _ (used_comp_names k s d)) in Hn.
    apply in_map_iff in Hn. destruct Hn as [r [<- Hr]]. destruct (HC r Hr) as [[_ X]|[_ X]]; auto.
  - left. rewrite E, formula_evC by apply mass_terms_cv. rewrite formula_nz in Z by apply mass_terms_cv.
    rewrite OKK in O1. tauto.
  - right. rewrite formula_nz in O1 by apply mass_terms_cv. rewrite OKK in O1. tauto.
Qed.

Lemma contribution_degenerate : forall s d t, bp0 P s d = bpin P s d ->
  contribution k m s d t = Err ZeroDivisionError.
Proof.
  intros s d t E. unfold contribution, contribution_pure.
  rewrite (nb_map _ _ _ _ _ B s d). unfold the_map. fold P. rewrite <- E.
  assert (V := nb_valid _ _ _ _ _ B s d). fold P in V.
  rewrite degenerate_map by tauto.
  destruct (C_eq_dec t (RtoC (bp0 P s d))); [reflexivity|]. cbn [bind].
  assert (HC : forall ls r, In r (iso_names s) ->
    sc_comp (nucleon_scope m (RtoC (-1)) ls) (ckey d r) = Err ZeroDivisionError).
  { intros ls r Hr. destruct (nb_comp _ _ _ _ _ B s d r Hr) as [c [L Bc]].
    cbn [nucleon_scope sc_comp]. rewrite L. cbn [bind]. fold P in Bc. rewrite <- E in Bc.
    destruct k; [now apply (degenerate_component_nucleon _ _ _ _ Bc)|now apply (degenerate_component _ _ _ _ Bc)]. }
  assert (EX : forall ls, (forall n, In n (local_names k s d) -> exists v, sc_loc (nucleon_scope m (RtoC (-1)) ls) n = Ok v) ->
    ev (nucleon_scope m (RtoC (-1)) ls) (sector_expr k s d) = Err ZeroDivisionError).
  { intros ls HL.
    destruct (ev_total P (fun n => match sc_loc (nucleon_scope m (RtoC (-1)) ls) n with Ok v => v | Err _ => RtoC 0 end)
      (fun _ => RtoC 0) (nucleon_scope m (RtoC (-1)) ls) (sector_expr k s d)) as [[O1 _]|[_ X]]; [| | | |assumption].
    - intros n1 Hn. apply (nb_attr _ _ _ _ _ B).
      assert (U := used_attr_names k s d). unfold subset in U. rewrite forallb_forall in U. exact (U n1 Hn).
    - intros n1 Hn. destruct (HL n1) as [v Ev]; [now apply (subset_In _ _ _ (used_loc_names k s d))|]. now rewrite Ev.
    - intros n1 Hn. apply (subset_In _ _ _ (used_comp_names k s d)) in Hn.
      apply in_map_iff in Hn. destruct Hn as [r [<- Hr]]. right. now apply HC.
    - exfalso. assert (I : exists r, In r (iso_names s)) by (destruct s; simpl; eauto).
      destruct I as [r Hr]. assert (X := HC ls r Hr). rewrite O1 in X; [discriminate|].
      apply (subset_In _ _ _ (comp_names_used k s d)). now apply in_map. }
  assert (M := fun r => built_mass_term_degenerate s d r E). assert (NP := norm_plus). assert (NM := norm_minus).
  destruct k.
  - destruct s, d; cbn [sector_locals nucleon_class nc_dirac_isoscalar_locals nc_dirac_isovector_locals
      nc_pauli_isoscalar_locals nc_pauli_isovector_locals NucleonUAModel
      NucleonUAModel_dirac_isoscalar_locals NucleonUAModel_dirac_isovector_locals
      NucleonUAModel_pauli_isoscalar_locals NucleonUAModel_pauli_isovector_locals locals_pure];
    try (rewrite M by (apply mem_In; reflexivity); reflexivity).
    rewrite NM. cbn [bind locals_pure]. apply EX.
    intros n1 [<-|[]]. eexists. reflexivity.
  - destruct s, d; cbn [sector_locals nucleon_class nc_dirac_isoscalar_locals nc_dirac_isovector_locals
      nc_pauli_isoscalar_locals nc_pauli_isovector_locals NucleonUAModelOld
      NucleonUAModelOld_dirac_isoscalar_locals NucleonUAModelOld_dirac_isovector_locals
      NucleonUAModelOld_pauli_isoscalar_locals NucleonUAModelOld_pauli_isovector_locals locals_pure];
    rewrite ?NP, ?NM; cbn [bind locals_pure]; apply EX;
    intros n1 Hn1; unfold local_names in Hn1; cbn [orb app] in Hn1;
    repeat (destruct Hn1 as [<-|Hn1]; [eexists; reflexivity|]); contradiction.
Qed.

(** ** The whole call *)

Lemma call_contributions : forall t,
  call_pure m t =
  if Rlt_dec (Re t) 0 then Err ValueError else
  ds <- contribution k m true true t ;;
  dv <- contribution k m false true t ;;
  ps <- contribution k m true false t ;;
  pv <- contribution k m false false t ;;
  combine_contributions m t ds dv ps pv.
Proof.
  intros t. unfold call_pure, dirac_isoscalar_pure, dirac_isovector_pure, pauli_isoscalar_pure, pauli_isovector_pure.
  rewrite (nb_class _ _ _ _ _ B). reflexivity.
Qed.

Definition nondegenerate : Prop := forall s d, bp0 P s d < bpin P s d.
Definition part (s d : bool) (t : C) : C := formula P s d (cv k P s d) (Fv k P s d t).

(** Proton or neutron, electric or magnetic combination of the four contributions. *)
Definition combined (proton electric : bool) (t : C) : C :=
  let D := if proton then (part true true t + part false true t)%C else (part true true t - part false true t)%C in
  let F := if proton then (part true false t + part false false t)%C else (part true false t - part false false t)%C in
  if electric then (D + Cdivt t (RtoC (4 * (P "nucleon_mass" * P "nucleon_mass"))) * F)%C else (D + F)%C.

Definition call_defined (electric : bool) (t : C) : Prop :=
  (forall s d, contribution_defined s d t) /\ (electric = true -> P "nucleon_mass" <> 0).

Lemma call_cases : forall t, nondegenerate -> 0 <= Re t ->
  (call_defined e t /\ call_pure m t = Ok (combined p e t)) \/
  (~ call_defined e t /\ call_pure m t = Err ZeroDivisionError).
Proof.
  intros t ND Ht. rewrite call_contributions. destruct (Rlt_dec (Re t) 0); [lra|]. unfold call_defined.
  destruct (contribution_cases true true t (ND true true)) as [[D1 E1]|[D1 E1]]; rewrite E1; cbn [bind];
    [|right; split; [intros [H _]; exact (D1 (H _ _))|reflexivity]].
  destruct (contribution_cases false true t (ND false true)) as [[D2 E2]|[D2 E2]]; rewrite E2; cbn [bind];
    [|right; split; [intros [H _]; exact (D2 (H _ _))|reflexivity]].
  destruct (contribution_cases true false t (ND true false)) as [[D3 E3]|[D3 E3]]; rewrite E3; cbn [bind];
    [|right; split; [intros [H _]; exact (D3 (H _ _))|reflexivity]].
  destruct (contribution_cases false false t (ND false false)) as [[D4 E4]|[D4 E4]]; rewrite E4; cbn [bind];
    [|right; split; [intros [H _]; exact (D4 (H _ _))|reflexivity]].
  assert (DD : forall s d, contribution_defined s d t) by (intros [] []; assumption).
  unfold combine_contributions, combined. rewrite (nb_proton _ _ _ _ _ B), (nb_electric _ _ _ _ _ B).
  destruct e.
  - rewrite (nb_attr _ _ _ _ _ B) by reflexivity. cbn [bind]. fold P.
    destruct (Req_EM_T (P "nucleon_mass") 0) as [Z|Z].
    + right. split; [intros [_ H]; now apply H|]. rewrite Z.
      replace (4 * (0 * 0)) with 0 by ring. now rewrite cdiv_zero.
    + left. split; [auto|]. rewrite cdiv_ok.
      * reflexivity.
      * apply RtoC_neq0. nra.
  - left. split; [split; [assumption|discriminate]|reflexivity].
Qed.

Lemma call_degenerate : forall t, ~ nondegenerate -> 0 <= Re t -> call_pure m t = Err ZeroDivisionError.
Proof.
  intros t ND Ht. rewrite call_contributions. destruct (Rlt_dec (Re t) 0); [lra|].
  assert (X : forall s d, contribution k m s d t = Err ZeroDivisionError \/
     (bp0 P s d < bpin P s d /\ exists v, contribution k m s d t = Ok v)).
  { intros s d. assert (V := nb_valid _ _ _ _ _ B s d). fold P in V.
    destruct (Rle_lt_or_eq_dec _ _ (proj2 V)) as [L|E].
    - destruct (contribution_cases s d t L) as [[_ E]|[_ E]]; rewrite E; eauto.
    - left. now apply contribution_degenerate. }
  destruct (X true true) as [->|[L1 [v1 ->]]]; [reflexivity|]. cbn [bind].
  destruct (X false true) as [->|[L2 [v2 ->]]]; [reflexivity|]. cbn [bind].
  destruct (X true false) as [->|[L3 [v3 ->]]]; [reflexivity|]. cbn [bind].
  destruct (X false false) as [->|[L4 [v4 ->]]]; [reflexivity|].
  exfalso. apply ND. intros [] []; assumption.
Qed.

Lemma call_Ok : forall t v, call_pure m t = Ok v ->
  0 <= Re t /\ nondegenerate /\ call_defined e t /\ v = combined p e t.
Proof.
  intros t v H.
  assert (Ht : 0 <= Re t).
  { unfold call_pure in H. destruct (Rlt_dec (Re t) 0); [discriminate|lra]. }
  assert (ND : nondegenerate).
  { intros s d. assert (V := nb_valid _ _ _ _ _ B s d). fold P in V.
    destruct (Rle_lt_or_eq_dec _ _ (proj2 V)) as [L|E]; [assumption|]. exfalso.
    rewrite call_degenerate in H; [discriminate| |assumption].
    intros N. specialize (N s d). lra. }
  destruct (call_cases t ND Ht) as [[D E]|[D E]]; rewrite E in H; [|discriminate].
  injection H as <-. auto.
Qed.
End Built.
