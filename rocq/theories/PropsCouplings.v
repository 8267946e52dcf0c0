(** C66: the form factors are affine functions of the couplings and of the magnetic moments; whether a model can be built and
    evaluated does not depend on them; the functions that are fitted are convex in them. *)
From Coq Require Import String Reals List Bool Arith Lia Lra Permutation.
From Verif Require Import PyBase CNum UAMaps UAComponents PyExpr UAModels Nucleon OtherModels Params ParamClasses ParamProofs ParamSpec BoundsProofs CrossSections CommonUtils
  MapProofs ComponentProofs ExprProofs KaonProofs SectorProofs KaonSpec NucleonProofs NucleonView NucleonSpec UtilsSpec UtilsProofs PropsKaon PropsKaon2 PropsNucleon2 PropsCross PropsUtils PropsBounds.
Import ListNotations.
Local Open Scope R_scope.
Local Open Scope py_scope.
Local Open Scope string_scope.
Local Open Scope list_scope.

#[local] Arguments String.append : simpl never.

(** ** Specification *)

(** The couplings and the magnetic moments, by their names. *)
Definition strength (n : string) : bool := orb (orb (String.eqb n "a") (prefix "a_" n)) (prefix "magnetic_moment_" n).

(** [P] lies on the line through [P0] and [P1]: the strengths are mixed, everything else is the same. *)
Definition on_line (names : list string) (x : R) (P0 P1 P : string -> R) : Prop :=
  forall n, In n names -> if strength n then P n = (1 - x) * P0 n + x * P1 n else P n = P0 n /\ P1 n = P0 n.

(** Three evaluations raise the same exception, or the value of the third one is mixed from the values of the others. *)
Definition affine (x : R) (r0 r1 r : Res C) : Prop :=
  match r0, r1, r with
  | Ok v0, Ok v1, Ok v => v = Cadd (Cmul (RtoC (1 - x)) v0) (Cmul (RtoC x) v1)
  | Err e0, Err e1, Err e => e0 = e /\ e1 = e
  | _, _, _ => False
  end.

(** Three lists of results: all return or none does; entry by entry, the third one is not above the chord. *)
Definition below_chord (x : R) (f0 f1 f : Res (list R)) : Prop :=
  (is_ok f0 <-> is_ok f) /\ (is_ok f1 <-> is_ok f) /\
  forall l0 l1 l, f0 = Ok l0 -> f1 = Ok l1 -> f = Ok l ->
    length l0 = length l /\ length l1 = length l /\ forall i, nth i l 0 <= (1 - x) * nth i l0 0 + x * nth i l1 0.

(** ** Kaons *)

Inductive mixed (x : R) : list resonance -> list resonance -> list resonance -> Prop :=
| M_nil : mixed x [] [] []
| M_cons : forall a0 a1 m g l0 l1 l, mixed x l0 l1 l -> mixed x ((a0, m, g) :: l0) ((a1, m, g) :: l1) (((1 - x) * a0 + x * a1, m, g) :: l).

Lemma mixed_next : forall x a0 a1 a m0 m1 m g0 g1 g l0 l1 l, a = (1 - x) * a0 + x * a1 -> m = m0 -> m1 = m0 -> g = g0 -> g1 = g0 -> mixed x l0 l1 l ->
  mixed x ((a0, m0, g0) :: l0) ((a1, m1, g1) :: l1) ((a, m, g) :: l).
Proof. intros. subst. now apply M_cons. Qed.

Lemma mixed_terms : forall x t_0 t_in w l0 l1 l, mixed x l0 l1 l ->
  match mapM (term t_0 t_in w) l0, mapM (term t_0 t_in w) l1, mapM (term t_0 t_in w) l with
  | Ok a, Ok b, Ok c => csum c = Cadd (Cmul (RtoC (1 - x)) (csum a)) (Cmul (RtoC x) (csum b))
  | Err e0, Err e1, Err e => e0 = e /\ e1 = e
  | _, _, _ => False
  end.
Proof.
  intros x t_0 t_in w l0 l1 l M. induction M as [|a0 a1 m g l0 l1 l M IH]; cbn [mapM].
  - cbn [csum fold_right]. Cext; ring.
  - assert (T : forall a, term t_0 t_in w (a, m, g) = (c <- build_component t_0 t_in m g ;; v <- Component_call c w ;; Ok (RtoC a * v)%C)) by reflexivity. rewrite !T.
    destruct (build_component t_0 t_in m g) as [c|e]; cbn [bind]; [|split; reflexivity]. destruct (Component_call c w) as [v|e]; cbn [bind]; [|split; reflexivity].
    destruct (mapM (term t_0 t_in w) l0) as [a|e0]; destruct (mapM (term t_0 t_in w) l1) as [b|e1]; destruct (mapM (term t_0 t_in w) l) as [d|e]; cbn [bind]; try contradiction; try exact IH.
    unfold csum in *. cbn [fold_right].
    rewrite IH. Cext; ring.
Qed.

Lemma mixed_sector : forall x t_0 t_in l0 l1 l t, mixed x l0 l1 l -> affine x (sector_eval t_0 t_in l0 t) (sector_eval t_0 t_in l1 t) (sector_eval t_0 t_in l t).
Proof.
  intros x t_0 t_in l0 l1 l t M. unfold sector_eval. destruct (MapFromTtoW_call (tw t_0 t_in) t) as [w|e]; cbn [bind]; [|split; reflexivity].
  pose proof (mixed_terms x t_0 t_in w l0 l1 l M) as H.
  destruct (mapM (term t_0 t_in w) l0) as [a|e0]; destruct (mapM (term t_0 t_in w) l1) as [b|e1]; destruct (mapM (term t_0 t_in w) l) as [d|e]; cbn [bind]; try contradiction; exact H.
Qed.

Lemma keyword_line : forall names x P0 P1 P n, on_line names x P0 P1 P -> In n names -> strength n = true -> P n = (1 - x) * P0 n + x * P1 n.
Proof. intros names x P0 P1 P n L I S. specialize (L n I). now rewrite S in L. Qed.
Lemma keyword_same : forall names x P0 P1 P n, on_line names x P0 P1 P -> In n names -> strength n = false -> P n = P0 n /\ P1 n = P0 n.
Proof. intros names x P0 P1 P n L I S. specialize (L n I). now rewrite S in L. Qed.

Ltac in_names := apply mem_In; vm_compute; reflexivity.

Lemma kaon_sectors : forall k x P0 P1 P, on_line (kaon_keywords k) x P0 P1 P ->
  mixed x (spec_sector P0 (isoscalar_resonances k)) (spec_sector P1 (isoscalar_resonances k)) (spec_sector P (isoscalar_resonances k)) /\
  mixed x (spec_sector P0 (isovector_resonances k)) (spec_sector P1 (isovector_resonances k)) (spec_sector P (isovector_resonances k)).
Proof.
  intros k x P0 P1 P L.
  assert (A : forall n, mem n (kaon_keywords k) = true -> strength n = true -> P n = (1 - x) * P0 n + x * P1 n) by (intros n I S; eapply keyword_line; [exact L|now apply mem_In|exact S]).
  assert (B : forall n, mem n (kaon_keywords k) = true -> strength n = false -> P n = P0 n) by (intros n I S; eapply (keyword_same _ _ _ _ _ n L); [now apply mem_In|exact S]).
  assert (D : forall n, mem n (kaon_keywords k) = true -> strength n = false -> P1 n = P0 n) by (intros n I S; eapply (keyword_same _ _ _ _ _ n L); [now apply mem_In|exact S]).
  destruct k; (split; unfold spec_sector, spec_couplings; cbn [isoscalar_resonances isovector_resonances removelast map app combine Rsum fold_right fst snd];
    repeat (apply mixed_next; [rewrite ?A by (vm_compute; reflexivity); ring|apply B; vm_compute; reflexivity|apply D; vm_compute; reflexivity|apply B; vm_compute; reflexivity|apply D; vm_compute; reflexivity|]); apply M_nil).
Qed.

Lemma affine_bind : forall x r0 r1 r q0 q1 q (sign : bool), affine x r0 r1 r -> affine x q0 q1 q ->
  let f (s v : C) := if sign then Cadd s v else Csub s v in
  affine x (s <- r0 ;; v <- q0 ;; Ok (f s v)) (s <- r1 ;; v <- q1 ;; Ok (f s v)) (s <- r ;; v <- q ;; Ok (f s v)).
Proof.
  intros x r0 r1 r q0 q1 q sign A B. destruct r0, r1, r; cbn in A; try contradiction; cbn [bind]; [|exact A]. destruct q0, q1, q; cbn in B; try contradiction; cbn [bind]; [|exact B].
  subst. destruct sign; cbn; Cext; ring.
Qed.

Lemma kaon_accept_same : forall k P Q, (forall n, mem n (kaon_keywords k) = true -> strength n = false -> Q n = P n) ->
  sector_accepted P (P "t_0_isoscalar") (P "t_in_isoscalar") (isoscalar_resonances k) /\ sector_accepted P (P "t_0_isovector") (P "t_in_isovector") (isovector_resonances k) ->
  sector_accepted Q (Q "t_0_isoscalar") (Q "t_in_isoscalar") (isoscalar_resonances k) /\ sector_accepted Q (Q "t_0_isovector") (Q "t_in_isovector") (isovector_resonances k).
Proof.
  intros k P Q S ((A1 & A2 & A3) & (B1 & B2 & B3)).
  rewrite !(S "t_0_isoscalar"), !(S "t_in_isoscalar"), !(S "t_0_isovector"), !(S "t_in_isovector") by (destruct k; vm_compute; reflexivity).
  split; (split; [assumption|]); (split; [assumption|]); intros n I; [specialize (A3 n I); rename A3 into X|specialize (B3 n I); rename B3 into X];
    (rewrite (S ("mass_" ++ n)%string), (S ("decay_rate_" ++ n)%string); [exact X| | | |]); destruct k; cbn in I;
    repeat (destruct I as [<-|I]; [vm_compute; reflexivity|]); contradiction.
Qed.

(** Whatever the couplings: a kaon model can be built or not, and it returns a value or raises the same exception; the value is an affine function of the couplings. *)
Theorem C66_kaon : forall k charged x kw0 kw1 kw,
  Permutation (map fst kw0) (kaon_keywords k) -> Permutation (map fst kw1) (kaon_keywords k) -> Permutation (map fst kw) (kaon_keywords k) ->
  on_line (kaon_keywords k) x (kwval kw0) (kwval kw1) (kwval kw) ->
  (is_ok (Kaon_init (kaon_class k) charged kw0) <-> is_ok (Kaon_init (kaon_class k) charged kw)) /\
  (is_ok (Kaon_init (kaon_class k) charged kw1) <-> is_ok (Kaon_init (kaon_class k) charged kw)) /\
  forall m0 m1 m t, Kaon_init (kaon_class k) charged kw0 = Ok m0 -> Kaon_init (kaon_class k) charged kw1 = Ok m1 -> Kaon_init (kaon_class k) charged kw = Ok m ->
    affine x (Kaon_call m0 t) (Kaon_call m1 t) (Kaon_call m t).
Proof.
  intros k ch x kw0 kw1 kw N0 N1 N L.
  assert (B : forall n, mem n (kaon_keywords k) = true -> strength n = false -> kwval kw n = kwval kw0 n /\ kwval kw1 n = kwval kw0 n) by (intros n I S; apply (keyword_same _ _ _ _ _ n L); [now apply mem_In|exact S]).
  split; [|split].
  - rewrite !Kaon_accept_iff. split; intros (_ & A); (split; [assumption|]); (eapply kaon_accept_same; [|exact A]); intros n I S; destruct (B n I S); congruence.
  - rewrite !Kaon_accept_iff. split; intros (_ & A); (split; [assumption|]); (eapply kaon_accept_same; [|exact A]); intros n I S; destruct (B n I S); congruence.
  - intros m0 m1 m t E0 E1 E. rewrite (Kaon_view _ _ _ _ _ E0), (Kaon_view _ _ _ _ _ E1), (Kaon_view _ _ _ _ _ E). destruct (Rlt_dec (Re t) 0); [split; reflexivity|].
    destruct (kaon_sectors k x _ _ _ L) as (M1 & M2).
    assert (S : forall n, mem n (kaon_keywords k) = true -> strength n = false -> kwval kw0 n = kwval kw n /\ kwval kw1 n = kwval kw n) by (intros y I S; destruct (B y I S); split; congruence).
    rewrite (proj1 (S "t_0_isoscalar" ltac:(destruct k; reflexivity) eq_refl)), (proj1 (S "t_in_isoscalar" ltac:(destruct k; reflexivity) eq_refl)), (proj1 (S "t_0_isovector" ltac:(destruct k; reflexivity) eq_refl)), (proj1 (S "t_in_isovector" ltac:(destruct k; reflexivity) eq_refl)),
      (proj2 (S "t_0_isoscalar" ltac:(destruct k; reflexivity) eq_refl)), (proj2 (S "t_in_isoscalar" ltac:(destruct k; reflexivity) eq_refl)), (proj2 (S "t_0_isovector" ltac:(destruct k; reflexivity) eq_refl)), (proj2 (S "t_in_isovector" ltac:(destruct k; reflexivity) eq_refl)).
    exact (affine_bind x _ _ _ _ _ _ ch (mixed_sector x _ _ _ _ _ t M1) (mixed_sector x _ _ _ _ _ t M2)).
Qed.
Print Assumptions C66_kaon.

(** ** Nucleons *)

Lemma nucleon_accept_same : forall k p e kw kw', Permutation (map fst kw) nucleon_keywords -> Permutation (map fst kw') nucleon_keywords ->
  (forall n, mem n nucleon_keywords = true -> strength n = false -> kwval kw' n = kwval kw n) ->
  is_ok (Nucleon_init (nucleon_class k) p e kw) -> is_ok (Nucleon_init (nucleon_class k) p e kw').
Proof.
  intros k p e kw kw' N N' S. rewrite !Nucleon_accept_iff. unfold nucleon_sector_accepted. intros (_ & A). split; [exact N'|]. revert A.
  rewrite !S by (vm_compute; reflexivity).
  intros ((A1 & A2 & A3) & (B1 & B2 & B3) & (C1 & C2 & C3) & (D1 & D2 & D3)).
  assert (Q : forall n, In n (isoscalar_mesons ++ isovector_mesons) -> kwval kw' ("mass_" ++ n)%string = kwval kw ("mass_" ++ n)%string /\ kwval kw' ("decay_rate_" ++ n)%string = kwval kw ("decay_rate_" ++ n)%string).
  { intros n I. cbn in I. repeat (destruct I as [<-|I]; [split; apply S; vm_compute; reflexivity|]). contradiction. }
  repeat split; try tauto; intros n I; destruct (Q n) as (-> & ->); try (apply in_or_app; tauto); auto.
Qed.

Lemma nucleon_same : forall k kw kw' s d t, (forall n, mem n nucleon_keywords = true -> strength n = false -> kwval kw' n = kwval kw n) ->
  bp0 (kwval kw') s d = bp0 (kwval kw) s d /\ bpin (kwval kw') s d = bpin (kwval kw) s d /\
  (forall r, In r (iso_names s) -> Fv k (kwval kw') s d t r = Fv k (kwval kw) s d t r /\ cv k (kwval kw') s d r = cv k (kwval kw) s d r /\
     kwval kw' ("mass_" ++ r)%string = kwval kw ("mass_" ++ r)%string /\ kwval kw' ("decay_rate_" ++ r)%string = kwval kw ("decay_rate_" ++ r)%string).
Proof.
  intros k kw kw' s d t S. unfold bp0, bpin.
  assert (A : kwval kw' ("t_0_" ++ ff_name d ++ "_" ++ iso_name s)%string = kwval kw ("t_0_" ++ ff_name d ++ "_" ++ iso_name s)%string) by (destruct s, d; apply S; vm_compute; reflexivity).
  assert (B : kwval kw' ("t_in_" ++ ff_name d ++ "_" ++ iso_name s)%string = kwval kw ("t_in_" ++ ff_name d ++ "_" ++ iso_name s)%string) by (destruct s, d; apply S; vm_compute; reflexivity).
  split; [exact A|]. split; [exact B|]. intros r I.
  assert (Q : kwval kw' ("mass_" ++ r)%string = kwval kw ("mass_" ++ r)%string /\ kwval kw' ("decay_rate_" ++ r)%string = kwval kw ("decay_rate_" ++ r)%string).
  { destruct s; cbn in I; repeat (destruct I as [<-|I]; [split; apply S; vm_compute; reflexivity|]); contradiction. }
  unfold Fv, cv, bp0, bpin. destruct Q as (Q1 & Q2). rewrite A, B, Q1, Q2. repeat split; reflexivity.
Qed.

Lemma formula_same : forall P s d c F c' F', (forall r, In r (iso_names s) -> F' r = F r /\ c' r = c r) -> formula P s d c' F' = formula P s d c F.
Proof.
  intros P s d c F c' F' S. destruct s, d; unfold formula, combo2, combo3;
    repeat match goal with
    | |- context [F' ?r] => rewrite (proj1 (S r ltac:(vm_compute; tauto)))
    | |- context [c' ?r] => rewrite (proj2 (S r ltac:(vm_compute; tauto)))
    end; reflexivity.
Qed.

Lemma formula_line : forall x P0 P1 P s d c F, on_line nucleon_keywords x P0 P1 P ->
  formula P s d c F = Cadd (Cmul (RtoC (1 - x)) (formula P0 s d c F)) (Cmul (RtoC x) (formula P1 s d c F)).
Proof.
  intros x P0 P1 P s d c F L.
  assert (A : forall n, mem n nucleon_keywords = true -> strength n = true -> P n = (1 - x) * P0 n + x * P1 n) by (intros n I S; eapply keyword_line; [exact L|now apply mem_In|exact S]).
  assert (R1 : RtoC (1 - x) = Csub (RtoC 1) (RtoC x)) by (Cext; ring).
  assert (AC : forall n, mem n nucleon_keywords = true -> strength n = true -> RtoC (P n) = Cadd (Cmul (Csub (RtoC 1) (RtoC x)) (RtoC (P0 n))) (Cmul (RtoC x) (RtoC (P1 n)))) by (intros n I S; rewrite (A n I S); Cext; ring).
  destruct s, d; unfold formula.
  - rewrite !AC by (vm_compute; reflexivity). rewrite R1. ring.
  - rewrite !AC by (vm_compute; reflexivity).
    replace (RtoC (1/2 * (P "magnetic_moment_proton" + P "magnetic_moment_neutron" - 1))) with (Cadd (Cmul (Csub (RtoC 1) (RtoC x)) (RtoC (1/2 * (P0 "magnetic_moment_proton" + P0 "magnetic_moment_neutron" - 1)))) (Cmul (RtoC x) (RtoC (1/2 * (P1 "magnetic_moment_proton" + P1 "magnetic_moment_neutron" - 1))))) by (rewrite !A by (vm_compute; reflexivity); Cext; field).
    rewrite R1. ring.
  - rewrite !AC by (vm_compute; reflexivity). rewrite R1. ring.
  - replace (RtoC (1/2 * (P "magnetic_moment_proton" - P "magnetic_moment_neutron" - 1))) with (Cadd (Cmul (Csub (RtoC 1) (RtoC x)) (RtoC (1/2 * (P0 "magnetic_moment_proton" - P0 "magnetic_moment_neutron" - 1)))) (Cmul (RtoC x) (RtoC (1/2 * (P1 "magnetic_moment_proton" - P1 "magnetic_moment_neutron" - 1))))) by (rewrite !A by (vm_compute; reflexivity); Cext; field).
    rewrite R1. ring.
Qed.

Lemma part_line : forall k x kw0 kw1 kw s d t, on_line nucleon_keywords x (kwval kw0) (kwval kw1) (kwval kw) ->
  part k kw s d t = Cadd (Cmul (RtoC (1 - x)) (part k kw0 s d t)) (Cmul (RtoC x) (part k kw1 s d t)).
Proof.
  intros k x kw0 kw1 kw s d t L. unfold part. rewrite (formula_line x _ _ _ s d _ _ L).
  assert (B : forall n, mem n nucleon_keywords = true -> strength n = false -> kwval kw n = kwval kw0 n /\ kwval kw1 n = kwval kw0 n) by (intros n I S; apply (keyword_same _ _ _ _ _ n L); [now apply mem_In|exact S]).
  destruct (nucleon_same k kw kw0 s d t) as (_ & _ & S0); [intros n I S; destruct (B n I S); congruence|]. destruct (nucleon_same k kw kw1 s d t) as (_ & _ & S1); [intros n I S; destruct (B n I S); congruence|].
  rewrite (formula_same (kwval kw0) s d (cv k (kwval kw) s d) (Fv k (kwval kw) s d t) (cv k (kwval kw0) s d) (Fv k (kwval kw0) s d t)) by (intros r I; destruct (S0 r I) as (? & ? & _); split; assumption).
  rewrite (formula_same (kwval kw1) s d (cv k (kwval kw) s d) (Fv k (kwval kw) s d t) (cv k (kwval kw1) s d) (Fv k (kwval kw1) s d t)) by (intros r I; destruct (S1 r I) as (? & ? & _); split; assumption).
  reflexivity.
Qed.

Lemma distinct_same : forall s d c c', (forall r, In r (iso_names s) -> c' r = c r) -> distinct_terms s d c -> distinct_terms s d c'.
Proof. intros s d c c' S. destruct s, d; unfold distinct_terms; rewrite ?S by (vm_compute; tauto); tauto. Qed.

Lemma defined_same : forall k kw kw' e t, (forall n, mem n nucleon_keywords = true -> strength n = false -> kwval kw' n = kwval kw n) ->
  (nondegenerate kw -> nondegenerate kw') /\ (call_defined k kw e t -> call_defined k kw' e t).
Proof.
  intros k kw kw' e t S. split.
  - intros N s d. destruct (nucleon_same k kw kw' s d t S) as (-> & -> & _). apply N.
  - intros (D & M). split; [|now rewrite (S "nucleon_mass") by (vm_compute; reflexivity)]. intros s d. specialize (D s d). destruct D as (D1 & D2 & D3).
    destruct (nucleon_same k kw kw' s d t S) as (A & B & Q). split; [now rewrite B|]. split.
    + intros r I. destruct (Q r I) as (_ & _ & -> & ->). now apply D2.
    + eapply distinct_same; [|exact D3]. intros r I. now destruct (Q r I) as (_ & -> & _).
Qed.

(** The same for nucleons, the magnetic moments included. *)
Theorem C66_nucleon : forall k proton electric x kw0 kw1 kw,
  Permutation (map fst kw0) nucleon_keywords -> Permutation (map fst kw1) nucleon_keywords -> Permutation (map fst kw) nucleon_keywords ->
  on_line nucleon_keywords x (kwval kw0) (kwval kw1) (kwval kw) ->
  (is_ok (Nucleon_init (nucleon_class k) proton electric kw0) <-> is_ok (Nucleon_init (nucleon_class k) proton electric kw)) /\
  (is_ok (Nucleon_init (nucleon_class k) proton electric kw1) <-> is_ok (Nucleon_init (nucleon_class k) proton electric kw)) /\
  (is_ok (Nucleon_init (nucleon_class k) proton electric kw) ->
   forall t, affine x (evaluate k proton electric kw0 t) (evaluate k proton electric kw1 t) (evaluate k proton electric kw t)).
Proof.
  intros k p e x kw0 kw1 kw N0 N1 N L.
  assert (B : forall n, mem n nucleon_keywords = true -> strength n = false -> kwval kw n = kwval kw0 n /\ kwval kw1 n = kwval kw0 n) by (intros n I S; apply (keyword_same _ _ _ _ _ n L); [now apply mem_In|exact S]).
  assert (B0 : forall n, mem n nucleon_keywords = true -> strength n = false -> kwval kw n = kwval kw0 n) by (intros n I S; now destruct (B n I S)).
  assert (B0' : forall n, mem n nucleon_keywords = true -> strength n = false -> kwval kw0 n = kwval kw n) by (intros n I S; now destruct (B n I S)).
  assert (B1 : forall n, mem n nucleon_keywords = true -> strength n = false -> kwval kw n = kwval kw1 n) by (intros n I S; destruct (B n I S); congruence).
  assert (B1' : forall n, mem n nucleon_keywords = true -> strength n = false -> kwval kw1 n = kwval kw n) by (intros n I S; destruct (B n I S); congruence).
  assert (A0 : is_ok (Nucleon_init (nucleon_class k) p e kw0) <-> is_ok (Nucleon_init (nucleon_class k) p e kw)) by (split; apply nucleon_accept_same; assumption).
  assert (A1 : is_ok (Nucleon_init (nucleon_class k) p e kw1) <-> is_ok (Nucleon_init (nucleon_class k) p e kw)) by (split; apply nucleon_accept_same; assumption).
  split; [exact A0|]. split; [exact A1|]. intros I t.
  destruct (evaluate_built k p e kw) as [(m & c & E & U & ->)|(y & E & _)]; [|destruct I as (? & I); congruence].
  destruct (evaluate_built k p e kw0) as [(m0 & c0 & E0 & U0 & ->)|(y & E0 & _)]; [|destruct (proj2 A0 I) as (? & I0); congruence].
  destruct (evaluate_built k p e kw1) as [(m1 & c1 & E1 & U1 & ->)|(y & E1 & _)]; [|destruct (proj2 A1 I) as (? & I1); congruence].
  destruct (Rlt_dec (Re t) 0) as [Z|Z]; [rewrite (call_contributions k p e kw m U), (call_contributions k p e kw0 m0 U0), (call_contributions k p e kw1 m1 U1); destruct (Rlt_dec (Re t) 0); [split; reflexivity|contradiction]|].
  assert (T : 0 <= Re t) by lra.
  assert (ND : nondegenerate kw \/ ~ nondegenerate kw).
  { unfold nondegenerate. destruct (Rlt_dec (bp0 (kwval kw) true true) (bpin (kwval kw) true true)); [|right; intros H; apply n, H]. destruct (Rlt_dec (bp0 (kwval kw) true false) (bpin (kwval kw) true false)); [|right; intros H; apply n, H].
    destruct (Rlt_dec (bp0 (kwval kw) false true) (bpin (kwval kw) false true)); [|right; intros H; apply n, H]. destruct (Rlt_dec (bp0 (kwval kw) false false) (bpin (kwval kw) false false)); [|right; intros H; apply n, H].
    left. intros [] []; assumption. }
  destruct ND as [ND|ND].
  - assert (ND0 : nondegenerate kw0) by (apply (defined_same k kw kw0 e t B0'); exact ND). assert (ND1 : nondegenerate kw1) by (apply (defined_same k kw kw1 e t B1'); exact ND).
    destruct (call_cases k p e kw m U t ND T) as [(D & ->)|(D & ->)]; destruct (call_cases k p e kw0 m0 U0 t ND0 T) as [(D0 & ->)|(D0 & ->)]; destruct (call_cases k p e kw1 m1 U1 t ND1 T) as [(D1 & ->)|(D1 & ->)];
      try (exfalso; first [apply D0, (defined_same k kw kw0 e t B0'), D | apply D1, (defined_same k kw kw1 e t B1'), D | apply D, (defined_same k kw0 kw e t B0), D0 | apply D, (defined_same k kw1 kw e t B1), D1]); [|split; reflexivity].
    unfold affine, combined. rewrite !(part_line k x kw0 kw1 kw _ _ t L). rewrite (B1' "nucleon_mass"), (B0' "nucleon_mass") by (vm_compute; reflexivity).
    unfold Cdivt. destruct p, e; ring.
  - rewrite (call_degenerate k p e kw m U t ND T), (call_degenerate k p e kw0 m0 U0 t), (call_degenerate k p e kw1 m1 U1 t); try assumption; try (split; reflexivity); intros X; apply ND; [apply (defined_same k kw1 kw e t B1), X|apply (defined_same k kw0 kw e t B0), X].
Qed.
Print Assumptions C66_nucleon.

(** ** The functions that are fitted *)

Definition chord (x : R) (r0 r1 r : Res R) : Prop :=
  match r0, r1, r with Ok a, Ok b, Ok c => c <= (1 - x) * a + x * b | Err _, Err _, Err _ => True | _, _, _ => False end.
Definition loose (x : R) (r0 r1 r : Res C) : Prop :=
  match r0, r1, r with
  | Ok v0, Ok v1, Ok v => v = Cadd (Cmul (RtoC (1 - x)) v0) (Cmul (RtoC x) v1)
  | Err _, Err _, Err _ => True
  | _, _, _ => False
  end.
Lemma affine_loose : forall x r0 r1 r, affine x r0 r1 r -> loose x r0 r1 r.
Proof. intros x [v0|e0] [v1|e1] [v|e] A; cbn in *; tauto. Qed.

Lemma convex_abs : forall x v0 v1, 0 <= x <= 1 -> Cabs (Cadd (Cmul (RtoC (1 - x)) v0) (Cmul (RtoC x) v1)) <= (1 - x) * Cabs v0 + x * Cabs v1.
Proof. intros x v0 v1 X. eapply Rle_trans; [apply Cabs_triangle|]. rewrite !Cabs_mul, !Cabs_RtoC, !Rabs_right by lra. lra. Qed.

Lemma convex_square : forall x a b c, 0 <= x <= 1 -> 0 <= c -> c <= (1 - x) * a + x * b -> c * c <= (1 - x) * (a * a) + x * (b * b).
Proof.
  intros x a b c X C L. apply Rle_trans with (((1 - x) * a + x * b) * ((1 - x) * a + x * b)); [apply Rmult_le_compat; assumption|].
  assert (0 <= x * (1 - x) * ((a - b) * (a - b))) by (apply Rmult_le_pos; [nra|apply Rle_0_sqr]). nra.
Qed.

Lemma chords_mapM : forall A x (f0 f1 f : A -> Res R) ts, (forall p, chord x (f0 p) (f1 p) (f p)) -> below_chord x (mapM f0 ts) (mapM f1 ts) (mapM f ts).
Proof.
  intros A x f0 f1 f ts H. induction ts as [|p ts IH]; cbn [mapM].
  - split; [tauto|]. split; [tauto|]. intros l0 l1 l [= <-] [= <-] [= <-]. split; [reflexivity|]. split; [reflexivity|]. intros [|i]; cbn; lra.
  - specialize (H p). destruct (f0 p) as [a|e0], (f1 p) as [b|e1], (f p) as [c|e]; cbn in H; try contradiction; cbn [bind].
    + destruct IH as (I0 & I1 & I). destruct (mapM f0 ts) as [l0|e0]; destruct (mapM f1 ts) as [l1|e1]; destruct (mapM f ts) as [l|e]; cbn [bind];
        try (exfalso; first [destruct (proj1 I0 (ex_intro _ _ eq_refl)); discriminate|destruct (proj2 I0 (ex_intro _ _ eq_refl)); discriminate|destruct (proj1 I1 (ex_intro _ _ eq_refl)); discriminate|destruct (proj2 I1 (ex_intro _ _ eq_refl)); discriminate]).
      * split; [split; intros _; eexists; reflexivity|]. split; [split; intros _; eexists; reflexivity|]. intros q0 q1 q [= <-] [= <-] [= <-]. destruct (I l0 l1 l eq_refl eq_refl eq_refl) as (L0 & L1 & L).
        cbn [length]. split; [congruence|]. split; [congruence|]. intros [|i]; cbn [nth]; [exact H|apply L].
      * split; [split; intros (? & ?); discriminate|]. split; [split; intros (? & ?); discriminate|]. intros ? ? ? X. discriminate X.
    + split; [split; intros (? & ?); discriminate|]. split; [split; intros (? & ?); discriminate|]. intros ? ? ? X. discriminate X.
Qed.

Lemma chords_ready : forall A x (b0 b1 b : Res unit) (f0 f1 f : A -> Res R) ts, (is_ok b0 <-> is_ok b) -> (is_ok b1 <-> is_ok b) -> (forall p, chord x (f0 p) (f1 p) (f p)) ->
  below_chord x (_ <- b0 ;; mapM f0 ts) (_ <- b1 ;; mapM f1 ts) (_ <- b ;; mapM f ts).
Proof.
  intros A x b0 b1 b f0 f1 f ts B0 B1 H. destruct b as [u|e].
  - destruct (proj2 B0 (ex_intro _ _ eq_refl)) as (u0 & ->). destruct (proj2 B1 (ex_intro _ _ eq_refl)) as (u1 & ->). cbn [bind]. now apply chords_mapM.
  - destruct b0 as [u0|e0]; [destruct (proj1 B0 (ex_intro _ _ eq_refl)); discriminate|]. destruct b1 as [u1|e1]; [destruct (proj1 B1 (ex_intro _ _ eq_refl)); discriminate|]. cbn [bind].
    split; [split; intros (? & ?); discriminate|]. split; [split; intros (? & ?); discriminate|]. intros ? ? ? X. discriminate X.
Qed.

Lemma chord_abs : forall x r0 r1 r, 0 <= x <= 1 -> loose x r0 r1 r -> chord x (v <- r0 ;; Ok (Cabs v)) (v <- r1 ;; Ok (Cabs v)) (v <- r ;; Ok (Cabs v)).
Proof. intros x [v0|e0] [v1|e1] [v|e] X L; cbn in *; try tauto. subst v. now apply convex_abs. Qed.

Lemma line_keywords : forall names names' x d0 d1 d, on_line names x (val d0) (val d1) (val d) -> incl names' names -> on_line names' x (kwval (keywords d0)) (kwval (keywords d1)) (kwval (keywords d)).
Proof. intros names names' x d0 d1 d L I n N. rewrite !kwval_keywords. apply L, I, N. Qed.

Lemma is_ok_bind_tt : forall A (r : Res A), is_ok (m <- r ;; Ok tt) <-> is_ok r.
Proof. intros A [a|e]; cbn [bind]; split; intros (? & E); try discriminate; eexists; reflexivity. Qed.

Section Stores.
Variables (c : param_class) (x : R) (d0 d1 d : data).
Hypothesis (H0 : reachable c d0) (H1 : reachable c d1) (H : reachable c d).
Hypothesis L : on_line (class_names c) x (val d0) (val d1) (val d).
Hypothesis X : 0 <= x <= 1.

Lemma names_kw : forall y, reachable c y -> map fst (keywords y) = class_names c.
Proof. intros y R. apply reachable_inv in R. destruct R as (N & _). unfold keywords. rewrite map_map. exact N. Qed.

Lemma kaon_line : forall k, family_of c = FKaon k -> forall ch,
  (is_ok (Kaon_init (kaon_class k) ch (keywords d0)) <-> is_ok (Kaon_init (kaon_class k) ch (keywords d))) /\
  (is_ok (Kaon_init (kaon_class k) ch (keywords d1)) <-> is_ok (Kaon_init (kaon_class k) ch (keywords d))) /\
  forall t, loose x (kaon_value k ch (keywords d0) t) (kaon_value k ch (keywords d1) t) (kaon_value k ch (keywords d) t).
Proof.
  intros k F ch. pose proof (C26_store_matches_model c d0 H0) as P0. pose proof (C26_store_matches_model c d1 H1) as P1. pose proof (C26_store_matches_model c d H) as P. rewrite F in P0, P1, P.
  assert (LK : on_line (kaon_keywords k) x (kwval (keywords d0)) (kwval (keywords d1)) (kwval (keywords d))).
  { eapply line_keywords; [exact L|]. intros n I. rewrite <- (names_kw d H). apply Permutation_in with (2 := I). now apply Permutation_sym. }
  destruct (C66_kaon k ch x _ _ _ P0 P1 P LK) as (A0 & A1 & A). split; [exact A0|]. split; [exact A1|]. intros t. unfold kaon_value.
  destruct (Kaon_init (kaon_class k) ch (keywords d)) as [m|e] eqn:E.
  - destruct (proj2 A0 (ex_intro _ _ eq_refl)) as (m0 & E0). destruct (proj2 A1 (ex_intro _ _ eq_refl)) as (m1 & E1). rewrite E0, E1. cbn [bind]. apply affine_loose. now apply A.
  - destruct (Kaon_init (kaon_class k) ch (keywords d0)) as [m0|e0]; [destruct (proj1 A0 (ex_intro _ _ eq_refl)); discriminate|]. destruct (Kaon_init (kaon_class k) ch (keywords d1)) as [m1|e1]; [destruct (proj1 A1 (ex_intro _ _ eq_refl)); discriminate|]. exact I.
Qed.

Lemma nucleon_line : family_of c = FNucleon -> forall p e,
  (is_ok (Nucleon_init NucleonUAModel p e (keywords d0)) <-> is_ok (Nucleon_init NucleonUAModel p e (keywords d))) /\
  (is_ok (Nucleon_init NucleonUAModel p e (keywords d1)) <-> is_ok (Nucleon_init NucleonUAModel p e (keywords d))) /\
  forall t, loose x (evaluate New p e (keywords d0) t) (evaluate New p e (keywords d1) t) (evaluate New p e (keywords d) t).
Proof.
  intros F p e. pose proof (C26_store_matches_model c d0 H0) as P0. pose proof (C26_store_matches_model c d1 H1) as P1. pose proof (C26_store_matches_model c d H) as P. rewrite F in P0, P1, P.
  assert (LK : on_line nucleon_keywords x (kwval (keywords d0)) (kwval (keywords d1)) (kwval (keywords d))).
  { eapply line_keywords; [exact L|]. intros n I. rewrite <- (names_kw d H). apply Permutation_in with (2 := I). now apply Permutation_sym. }
  destruct (C66_nucleon New p e x _ _ _ P0 P1 P LK) as (A0 & A1 & A). split; [exact A0|]. split; [exact A1|]. intros t. change (nucleon_class New) with NucleonUAModel in *.
  destruct (Nucleon_init NucleonUAModel p e (keywords d)) as [m|y] eqn:E.
  - apply affine_loose, A. now exists m.
  - unfold evaluate. change (nucleon_class New) with NucleonUAModel. rewrite E.
    destruct (Nucleon_init NucleonUAModel p e (keywords d0)) as [m0|e0]; [destruct (proj1 A0 (ex_intro _ _ eq_refl)); discriminate|]. destruct (Nucleon_init NucleonUAModel p e (keywords d1)) as [m1|e1]; [destruct (proj1 A1 (ex_intro _ _ eq_refl)); discriminate|]. exact I.
Qed.

Lemma ready_line : (is_ok (buildable c d0) <-> is_ok (buildable c d)) /\ (is_ok (buildable c d1) <-> is_ok (buildable c d)).
Proof.
  unfold buildable. destruct (family_of c) as [k| | | |] eqn:F; try tauto; rewrite !is_ok_bind_tt.
  - destruct (kaon_line k F true) as (A0 & A1 & _). split; assumption.
  - destruct (nucleon_line F true true) as (A0 & A1 & _). split; assumption.
Qed.

Lemma quotient_line : forall a0 a1 a z, a = (1 - x) * a0 + x * a1 -> loose x (cdiv (RtoC a0) z) (cdiv (RtoC a1) z) (cdiv (RtoC a) z).
Proof.
  intros a0 a1 a z ->. unfold cdiv. destruct (C_eq_dec z (RtoC 0)); [exact I|]. cbn. unfold Cdivt. Cext; ring.
Qed.

Lemma form_factor_chord : family_of c <> FNone -> forall p, chord x (form_factor_at c d0 p) (form_factor_at c d1 p) (form_factor_at c d p).
Proof.
  intros NF p. unfold form_factor_at. destruct (family_of c) as [k| | | |] eqn:F.
  - destruct (kaon_point p) as [[t ch]|]; [|exact I]. apply chord_abs; [exact X|]. now apply kaon_line.
  - destruct (nucleon_point p) as [[[t pr] el]|]; [|exact I]. apply chord_abs; [exact X|]. now apply nucleon_line.
  - destruct (nucleon_point p) as [[[t pr] el]|]; [|exact I]. apply chord_abs; [exact X|]. destruct c; try discriminate F.
    pose proof (L "a" ltac:(vm_compute; tauto)) as La. pose proof (L "m_a" ltac:(vm_compute; tauto)) as (M & M1). pose proof (L "m_d" ltac:(vm_compute; tauto)) as (N & N1). cbn in La.
    rewrite M, M1, N, N1. unfold ETGMRModel_call, ETGMRModel_init. cbn [et_a et_m_a_squared et_m_d_squared].
    destruct (cdiv t (RtoC (val d0 "m_a" * val d0 "m_a"))) as [q1|]; cbn [bind]; [|exact I]. destruct (cdiv t (RtoC (val d0 "m_d" * val d0 "m_d"))) as [q2|]; cbn [bind]; [|exact I]. now apply quotient_line.
  - destruct (nucleon_point p) as [[[t pr] el]|]; [|exact I]. apply chord_abs; [exact X|]. destruct c; try discriminate F.
    pose proof (L "a" ltac:(vm_compute; tauto)) as La. pose proof (L "m_1" ltac:(vm_compute; tauto)) as (M & M1). pose proof (L "m_2" ltac:(vm_compute; tauto)) as (N & N1). cbn in La.
    rewrite M, M1, N, N1. unfold TwoPolesModel_call, TwoPolesModel_init. cbn [tp_a tp_m_1_squared tp_m_2_squared].
    destruct (cdiv t (RtoC (val d0 "m_1" * val d0 "m_1"))) as [q1|]; cbn [bind]; [|exact I]. destruct (cdiv t (RtoC (val d0 "m_2" * val d0 "m_2"))) as [q2|]; cbn [bind]; [|exact I]. now apply quotient_line.
  - contradiction.
Qed.

Lemma scalar_chord : forall mass alpha hc t r0 r1 r, loose x (r0 t) (r1 t) (r t) ->
  let s := ScalarCS_init mass alpha hc in chord x (v <- ScalarCS_call s r0 t ;; Ok (Cabs v)) (v <- ScalarCS_call s r1 t ;; Ok (Cabs v)) (v <- ScalarCS_call s r t ;; Ok (Cabs v)).
Proof.
  intros mass alpha hc t r0 r1 r A s. unfold ScalarCS_call. destruct (r0 t) as [v0|e0], (r1 t) as [v1|e1], (r t) as [v|e]; cbn in A; try contradiction; cbn [bind]; [|exact I].
  destruct (cdiv (RtoC (sc_coefficient s)) t) as [a|]; cbn [bind]; [|exact I]. destruct (cdiv (RtoC (sc_four_mass_squared s)) t) as [q|]; cbn [bind]; [|exact I].
  unfold chord. rewrite !Cabs_mul, !Cabs_RtoC. set (K := (Cabs a * Cabs (Cpow (1 - q)%C (3 / 2)))%R).
  assert (KP : 0 <= K) by (apply Rmult_le_pos; apply Cabs_nonneg). pose proof (Cabs_nonneg v0). pose proof (Cabs_nonneg v1). pose proof (Cabs_nonneg v).
  rewrite !Rabs_right by (apply Rle_ge, Rmult_le_pos; assumption).
  assert (Q : Cabs v * Cabs v <= (1 - x) * (Cabs v0 * Cabs v0) + x * (Cabs v1 * Cabs v1)) by (apply convex_square; [exact X|assumption|rewrite A; now apply convex_abs]).
  apply Rle_trans with (K * ((1 - x) * (Cabs v0 * Cabs v0) + x * (Cabs v1 * Cabs v1))); [now apply Rmult_le_compat_l|]. right. ring.
Qed.

Lemma mono_sum : forall z u v u' v', 0 <= Re z -> 0 <= u <= u' -> 0 <= v <= v' -> Cabs (Cadd (RtoC u) (Cmul (RtoC v) z)) <= Cabs (Cadd (RtoC u') (Cmul (RtoC v') z)).
Proof.
  intros [a b] u v u' v' Z U V. unfold Cabs. apply sqrt_le_1_alt. unfold Cnorm2. cbn [Re Im Cadd Cmul RtoC] in *.
  assert (P1 : 0 <= u + (v * a - 0 * b) <= u' + (v' * a - 0 * b)) by (split; [assert (0 <= v * a) by (apply Rmult_le_pos; lra); lra|assert (v * a <= v' * a) by (apply Rmult_le_compat_r; lra); lra]).
  assert (P2 : (v * b) * (v * b) <= (v' * b) * (v' * b)).
  { replace (v * b * (v * b)) with ((v * v) * (b * b)) by ring. replace (v' * b * (v' * b)) with ((v' * v') * (b * b)) by ring. apply Rmult_le_compat_r; [apply Rle_0_sqr|apply Rmult_le_compat; lra]. }
  apply Rplus_le_compat; [apply Rmult_le_compat; lra|]. replace (0 + (v * b + 0 * a)) with (v * b) by ring. replace (0 + (v' * b + 0 * a)) with (v' * b) by ring. exact P2.
Qed.

Lemma nucleon_chord : forall mass alpha hc t ge0 ge1 ge gm0 gm1 gm, 0 <= Re t ->
  0 <= ge <= (1 - x) * ge0 + x * ge1 -> 0 <= gm <= (1 - x) * gm0 + x * gm1 ->
  let s := NucleonCS_init mass alpha hc in chord x (v <- nucleon_formula s t ge0 gm0 ;; Ok (Cabs v)) (v <- nucleon_formula s t ge1 gm1 ;; Ok (Cabs v)) (v <- nucleon_formula s t ge gm ;; Ok (Cabs v)).
Proof.
  intros mass alpha hc t ge0 ge1 ge gm0 gm1 gm T GE GM s. unfold nucleon_formula.
  destruct (rdiv (nc_four_mass_squared s) (Cabs t)) as [q|]; cbn [bind]; [|exact I]. destruct (rsqrt (1 - q)) as [beta|]; cbn [bind]; [|exact I].
  destruct (cdiv (RtoC (nc_coefficient s * beta)) t) as [a|]; cbn [bind]; [|exact I]. unfold cdiv. destruct (C_eq_dec (2 * t)%C (RtoC 0)) as [Z|Z]; cbn [bind]; [exact I|].
  unfold chord. set (z := Cmul (RtoC (nc_four_mass_squared s)) (Cinv (2 * t)%C)).
  assert (E : forall g, Cdivt (RtoC (nc_four_mass_squared s * (g * g))) (2 * t)%C = Cmul (RtoC (g * g)) z) by (intros g; unfold z, Cdivt; Cext; ring). rewrite !E, !Cabs_mul.
  assert (ZP : 0 <= Re z).
  { unfold z. assert (0 <= Re (Cinv (2 * t)%C)).
    { cbn [Cinv Re]. apply Rmult_le_pos; [cbn; lra|]. left. apply Rinv_0_lt_compat. pose proof (Cabs_pos _ Z) as P. assert (P2 : 0 < Cabs (2 * t)%C * Cabs (2 * t)%C) by (now apply Rmult_lt_0_compat). rewrite Cabs_sq in P2. exact P2. }
    cbn [Cmul Re RtoC Im]. rewrite Rmult_0_l, Rminus_0_r. apply Rmult_le_pos; [|assumption]. cbn. assert (0 <= mass * mass) by apply Rle_0_sqr. lra. }
  assert (GE2 : ge * ge <= (1 - x) * (ge0 * ge0) + x * (ge1 * ge1)) by (apply convex_square; tauto). assert (GM2 : gm * gm <= (1 - x) * (gm0 * gm0) + x * (gm1 * gm1)) by (apply convex_square; tauto).
  assert (Q : Cabs (RtoC (gm * gm) + RtoC (ge * ge) * z)%C <= (1 - x) * Cabs (RtoC (gm0 * gm0) + RtoC (ge0 * ge0) * z)%C + x * Cabs (RtoC (gm1 * gm1) + RtoC (ge1 * ge1) * z)%C).
  { eapply Rle_trans; [apply mono_sum with (u' := (1 - x) * (gm0 * gm0) + x * (gm1 * gm1)) (v' := (1 - x) * (ge0 * ge0) + x * (ge1 * ge1)); [exact ZP|split; [apply Rle_0_sqr|exact GM2]|split; [apply Rle_0_sqr|exact GE2]]|].
    eapply Rle_trans; [|apply convex_abs; exact X]. right. f_equal. Cext; ring. }
  apply Rle_trans with (Cabs a * ((1 - x) * Cabs (RtoC (gm0 * gm0) + RtoC (ge0 * ge0) * z)%C + x * Cabs (RtoC (gm1 * gm1) + RtoC (ge1 * ge1) * z)%C)); [apply Rmult_le_compat_l; [apply Cabs_nonneg|exact Q]|]. right. ring.
Qed.

Lemma cross_section_chord : forall mass alpha hc p, chord x (cross_section_at c mass alpha hc d0 p) (cross_section_at c mass alpha hc d1 p) (cross_section_at c mass alpha hc d p).
Proof.
  intros mass alpha hc p. unfold cross_section_at. destruct (family_of c) as [k| | | |] eqn:F; try (destruct (nucleon_point p); exact I).
  - destruct (kaon_point p) as [[t ch]|]; [|exact I]. apply scalar_chord. now apply kaon_line.
  - destruct (nucleon_point p) as [[[t pr] el]|]; [|exact I]. destruct (nucleon_line F pr true) as (_ & _ & E). destruct (nucleon_line F pr false) as (_ & _ & M). specialize (E t). specialize (M t).
    destruct (evaluate New pr true (keywords d0) t) as [e0|y0] eqn:E0, (evaluate New pr true (keywords d1) t) as [e1|y1], (evaluate New pr true (keywords d) t) as [e|y]; cbn in E; try contradiction; cbn [bind]; [|exact I].
    destruct (evaluate New pr false (keywords d0) t) as [m0|y0], (evaluate New pr false (keywords d1) t) as [m1|y1], (evaluate New pr false (keywords d) t) as [m|y]; cbn in M; try contradiction; cbn [bind]; [|exact I].
    apply nucleon_chord.
    + apply evaluate_Ok in E0. destruct E0 as (_ & _ & _ & T & _). exact T.
    + split; [apply Cabs_nonneg|rewrite E; now apply convex_abs].
    + split; [apply Cabs_nonneg|rewrite M; now apply convex_abs].
Qed.
End Stores.

(** The two functions handed to the optimiser, as functions of the strengths: all three return or none does, and no entry is above the chord. *)
Theorem C66_convex : forall c x d0 d1 d, reachable c d0 -> reachable c d1 -> reachable c d -> on_line (class_names c) x (val d0) (val d1) (val d) -> 0 <= x <= 1 ->
  (forall ts, below_chord x (function_form_factor c ts d0) (function_form_factor c ts d1) (function_form_factor c ts d)) /\
  (forall ts mass alpha hc_squared, below_chord x (function_cross_section c ts mass alpha hc_squared d0) (function_cross_section c ts mass alpha hc_squared d1) (function_cross_section c ts mass alpha hc_squared d)).
Proof.
  intros c x d0 d1 d H0 H1 H L X. pose proof (reachable_inv _ _ H0) as I0. pose proof (reachable_inv _ _ H1) as I1. pose proof (reachable_inv _ _ H) as I.
  destruct (ready_line c x d0 d1 d H0 H1 H L X) as (R0 & R1). split.
  - intros ts. rewrite !function_form_factor_spec by assumption.
    destruct (family_of c) eqn:F; try (apply chords_ready; [exact R0|exact R1|]; apply form_factor_chord; try assumption; rewrite F; discriminate).
    unfold buildable. rewrite F. cbn [bind]. split; [tauto|]. split; [tauto|]. intros ? ? ? E. discriminate E.
  - intros ts mass alpha hc. rewrite !function_cross_section_spec by assumption. apply chords_ready; [exact R0|exact R1|]. now apply cross_section_chord.
Qed.
Print Assumptions C66_convex.

(** ** Instances *)

(** Kaons: all couplings 1/7 or 3/7, and half way between. *)
Definition line_store (a : R) : data := built (table PKaonB) (demo_kw a (1/2) ReducedB).

Lemma line_store_reachable : forall a, reachable PKaonB (line_store a).
Proof.
  intros a. apply (reach_init _ (demo_kw a (1/2) ReducedB)). apply construct_iff. split; [|reflexivity]. unfold demo_kw. rewrite map_map. cbn [fst]. rewrite map_id. apply perm_check_ok. vm_compute. reflexivity.
Qed.

Lemma line_store_values : forall a n, In n (class_names PKaonB) -> val (line_store a) n = demo_value a (1/2) n.
Proof. intros a n I. cbn in I. repeat (destruct I as [<-|I]; [reflexivity|]). contradiction. Qed.

Lemma line_stores : on_line (class_names PKaonB) (1/2) (val (line_store (1/7))) (val (line_store (3/7))) (val (line_store (2/7))).
Proof.
  intros n I. rewrite !line_store_values by exact I. cbn in I. repeat (destruct I as [<-|I]; [cbn; first [split; reflexivity|lra]|]). contradiction.
Qed.

Example C66_instance : exists l0 l1 l, let ts := [KaonDatapoint (RtoC 5) true; Row [RtoC 5; RtoC 0]] in
  function_form_factor PKaonB ts (line_store (1/7)) = Ok l0 /\ function_form_factor PKaonB ts (line_store (3/7)) = Ok l1 /\ function_form_factor PKaonB ts (line_store (2/7)) = Ok l /\
  length l = 2%nat /\ forall i, nth i l 0 <= (nth i l0 0 + nth i l1 0) / 2.
Proof.
  destruct C26_instance as (y & z & E & _). change demo_store with (line_store (1/7)) in E.
  destruct (C66_convex PKaonB (1/2) _ _ _ (line_store_reachable _) (line_store_reachable _) (line_store_reachable _) line_stores ltac:(lra)) as (F & _).
  destruct (F [KaonDatapoint (RtoC 5) true; Row [RtoC 5; RtoC 0]]) as (A0 & A1 & A). destruct (proj1 A0 (ex_intro _ _ E)) as (l & El). destruct (proj2 A1 (ex_intro _ _ El)) as (l1 & El1).
  destruct (A _ _ _ E El1 El) as (L0 & _ & Q). exists [y; z], l1, l. split; [exact E|]. split; [exact El1|]. split; [exact El|]. split; [symmetry; exact L0|]. intros i. specialize (Q i). lra.
Qed.

(** Nucleons: one coupling and one magnetic moment changed. *)
Definition moved_nucleon (a mu : R) : data := snd (mutate PNucleon (MSetValue "magnetic_moment_proton" mu) (snd (mutate PNucleon (MSetValue "a_dirac_rho" a) demo_nucleon_store))).

Lemma moved_reachable : forall a mu, reachable PNucleon (moved_nucleon a mu).
Proof. intros a mu. do 2 apply reach_step. exact demo_nucleon_store_reachable. Qed.

Lemma moved_line : on_line (class_names PNucleon) (1/4) (val demo_nucleon_store) (val (moved_nucleon 1 3)) (val (moved_nucleon (1/3) (57/20))).
Proof. intros n I. cbn in I. repeat (destruct I as [<-|I]; [cbn; first [split; reflexivity|lra]|]). contradiction. Qed.

Example C66_instance_nucleon : exists l0 l1 l, let ts := [NucleonDatapoint (mkC 5 1) true true; Row [mkC 5 1; RtoC 0; RtoC 1]] in
  function_cross_section PNucleon ts (1/2) 1 1 demo_nucleon_store = Ok l0 /\ function_cross_section PNucleon ts (1/2) 1 1 (moved_nucleon 1 3) = Ok l1 /\
  function_cross_section PNucleon ts (1/2) 1 1 (moved_nucleon (1/3) (57/20)) = Ok l /\ length l = 2%nat /\ forall i, nth i l 0 <= 3/4 * nth i l0 0 + 1/4 * nth i l1 0.
Proof.
  destruct C27_instance as (y & z & E & _).
  destruct (C66_convex PNucleon (1/4) _ _ _ demo_nucleon_store_reachable (moved_reachable _ _) (moved_reachable _ _) moved_line ltac:(lra)) as (_ & F).
  destruct (F [NucleonDatapoint (mkC 5 1) true true; Row [mkC 5 1; RtoC 0; RtoC 1]] (1/2) 1 1) as (A0 & A1 & A). destruct (proj1 A0 (ex_intro _ _ E)) as (l & El). destruct (proj2 A1 (ex_intro _ _ El)) as (l1 & El1).
  destruct (A _ _ _ E El1 El) as (L0 & _ & Q). exists [y; z], l1, l. split; [exact E|]. split; [exact El1|]. split; [exact El|]. split; [symmetry; exact L0|]. intros i. specialize (Q i). lra.
Qed.
