(** C69: how the form factors depend on all their arguments together, branch points included. *)
From Coq Require Import String Reals Bool Arith List Lra Lia Permutation.
From Verif Require Import PyBase CNum UAMaps UAComponents PyExpr UAModels Nucleon
  MapProofs ComponentProofs ExprProofs KaonProofs SectorProofs KaonSpec PropsKaon NucleonCache NucleonProofs NucleonView NucleonSpec PropsNucleon2
  Analytic AnalyticModels PropsAmbiguity Masses PropsMasses Limits.
Import ListNotations.
Local Open Scope R_scope.
Local Open Scope py_scope.
Local Open Scope string_scope.
Local Open Scope list_scope.

#[local] Arguments String.append : simpl never.

(** ** Specification *)

(** All the named arguments are close. *)
Definition within (d : R) (names : list string) (kw kw' : env R) : Prop :=
  forall x, In x names -> Rabs (kwval kw' x - kwval kw x) < d.

(** The mesons and the branch points of the four contributions to the nucleon form factors: isoscalar ([true]) or isovector, Dirac
    ([true]) or Pauli. *)
Definition mesons (s : bool) : list string := if s then isoscalar_mesons else isovector_mesons.
Definition nucleon_inelastic (s d : bool) : string :=
  match s, d with
  | true, true => "t_in_dirac_isoscalar"
  | true, false => "t_in_pauli_isoscalar"
  | false, true => "t_in_dirac_isovector"
  | false, false => "t_in_pauli_isovector"
  end.

(** Where the nucleon models switch between the two kinds of component: the new one compares the real part of the pole, the old one
    the squared mass. *)
Definition nucleon_threshold (k : nucleon_kind) (kw : env R) (s d : bool) (n : string) : Prop :=
  let m := kwval kw ("mass_" ++ n)%string in
  let g := kwval kw ("decay_rate_" ++ n)%string in
  match k with New => m * m - g * g / 4 | Old => m * m end = kwval kw (nucleon_inelastic s d).

(** ** Kaons *)

Section Sectors.
Context {X : Type}.
Variable B : R -> X -> Prop.
Hypothesis mono : forall d e x, d <= e -> B d x -> B e x.
Variables (P : X -> string -> R) (P0 : string -> R) (e0 ein : string) (names : list string).
Hypothesis N : names <> [].
Hypothesis LP : forall n, In n names -> rlim B (fun x => P x ("mass_" ++ n)%string) (P0 ("mass_" ++ n)%string) /\
  rlim B (fun x => P x ("decay_rate_" ++ n)%string) (P0 ("decay_rate_" ++ n)%string).
Hypothesis LA : forall n, In n (removelast names) -> rlim B (fun x => P x ("a_" ++ n)%string) (P0 ("a_" ++ n)%string).
Hypothesis LE : rlim B (fun x => P x e0) (P0 e0) /\ rlim B (fun x => P x ein) (P0 ein).
Hypothesis V0 : valid_sector (P0 e0) (P0 ein) (spec_sector P0 names).
Hypothesis V : forall d x, B d x -> valid_sector (P x e0) (P x ein) (spec_sector (P x) names).

Definition strengths : list ((string -> R) -> R) :=
  map (fun n Q => Q ("a_" ++ n)%string) (removelast names) ++ [fun Q => 1/2 - Rsum (map (fun n => Q ("a_" ++ n)%string) (removelast names))].

Lemma sector_strengths : forall Q, spec_sector Q names = map (fun c => (fst c Q, Q ("mass_" ++ snd c)%string, Q ("decay_rate_" ++ snd c)%string)) (combine strengths names).
Proof.
  intros Q. unfold spec_sector. assert (E : spec_couplings Q names = map (fun c => c Q) strengths).
  { unfold spec_couplings, strengths. rewrite map_app, map_map. reflexivity. }
  rewrite E. generalize strengths. intros l. generalize names. intros l'. revert l'. induction l as [|c l IH]; intros [|n l']; cbn [map combine]; try reflexivity.
  f_equal. apply IH.
Qed.

Lemma strengths_lim : forall c, In c strengths -> rlim B (fun x => c (P x)) (c P0).
Proof.
  intros c I. unfold strengths in I. apply in_app_or in I. destruct I as [I|[<-|[]]].
  - apply in_map_iff in I. destruct I as (n & <- & I). now apply LA.
  - apply (rlim_sub B mono); [apply rlim_const|]. apply (rlim_Rsum B mono (removelast names) (fun n x => P x ("a_" ++ n)%string) (fun n => P0 ("a_" ++ n)%string)). exact LA.
Qed.

(** The limit of a part when the variant of every component is given. *)
Lemma sector_lim_with : forall VV t v, P0 e0 < P0 ein -> sector_eval (P0 e0) (P0 ein) (spec_sector P0 names) t = Ok v ->
  (forall n, In n names -> good_pole (P0 e0) (P0 ein) (VV n) (Csq (corner (P0 ("mass_" ++ n)%string) (P0 ("decay_rate_" ++ n)%string)))) ->
  soon B (fun x => forall n, In n names -> variant_of (P x ("mass_" ++ n)%string * P x ("mass_" ++ n)%string) (P x ein) = VV n) ->
  forall eps, 0 < eps -> soon B (fun x => exists v', sector_eval (P x e0) (P x ein) (spec_sector (P x) names) t = Ok v' /\
    Cabs (Csub v' (SV (P0 e0) (P0 ein) (map VV names) (spec_sector P0 names) t)) < eps).
Proof.
  intros VV t v Hlt E G S1 eps X0. destruct V0 as ((H0 & _) & F). destruct LE as (L0 & Lin).
  destruct (sector_eval_cases _ _ H0 Hlt _ t F) as [(_ & Q)|(NT & NP & Q)]; [congruence|]. clear Q E.
  assert (NP' : forall n, In n names -> ~ at_pole (P0 ("mass_" ++ n)%string) (P0 ("decay_rate_" ++ n)%string) t).
  { intros n I. destruct (Forall_sector _ _ _ NP n I N) as (a & A). exact A. }
  assert (LC : forall n, In n names -> lim B (fun x => corner (P x ("mass_" ++ n)%string) (P x ("decay_rate_" ++ n)%string)) (corner (P0 ("mass_" ++ n)%string) (P0 ("decay_rate_" ++ n)%string))).
  { intros n I. destruct (LP n I). now apply corner_lim. }
  assert (SE : forall b0 bin Q, SV b0 bin (map VV names) (spec_sector Q names) t =
    csum (map (fun c => Cmul (RtoC (fst c Q)) (KS b0 bin (VV (snd c)) (corner (Q ("mass_" ++ snd c)%string) (Q ("decay_rate_" ++ snd c)%string)) t)) (combine strengths names))).
  { intros b0 bin Q. rewrite sector_strengths. unfold SV. f_equal. generalize strengths. intros l. generalize names. clear. intros l'. revert l'.
    induction l as [|c l IH]; intros [|n l']; cbn [map combine]; try reflexivity. unfold r_a, r_m, r_g. cbn [fst snd]. f_equal. apply IH. }
  assert (LS : lim B (fun x => SV (P x e0) (P x ein) (map VV names) (spec_sector (P x) names) t) (SV (P0 e0) (P0 ein) (map VV names) (spec_sector P0 names) t)).
  { rewrite SE. apply (lim_ext B mono (fun x => csum (map (fun c => Cmul (RtoC (fst c (P x))) (KS (P x e0) (P x ein) (VV (snd c)) (corner (P x ("mass_" ++ snd c)%string) (P x ("decay_rate_" ++ snd c)%string)) t)) (combine strengths names)))); [apply soon_all; intros x; symmetry; apply SE|].
    apply (lim_csum B mono (combine strengths names) (fun c x => Cmul (RtoC (fst c (P x))) (KS (P x e0) (P x ein) (VV (snd c)) (corner (P x ("mass_" ++ snd c)%string) (P x ("decay_rate_" ++ snd c)%string)) t))
      (fun c => Cmul (RtoC (fst c P0)) (KS (P0 e0) (P0 ein) (VV (snd c)) (corner (P0 ("mass_" ++ snd c)%string) (P0 ("decay_rate_" ++ snd c)%string)) t))).
    intros (c & n) I. cbn [fst snd]. assert (I1 := in_combine_l _ _ _ _ I). assert (I2 := in_combine_r _ _ _ _ I). apply (lim_mul B mono); [now apply rlim_lim, strengths_lim|].
    assert (A := NP' n I2). rewrite corner_at_pole in A.
    apply (component_lim B mono (fun x => P x e0) (fun x => P x ein) (P0 e0) (P0 ein) H0 Hlt L0 Lin); [now apply LC|apply corner_in|apply soon_all; intros x; apply corner_in|now apply G|exact NT|tauto|tauto]. }
  assert (S2 : soon B (fun x => forall n, In n names -> ~ at_pole (P x ("mass_" ++ n)%string) (P x ("decay_rate_" ++ n)%string) t)).
  { apply (soon_Forall B mono names (fun n x => ~ at_pole (P x ("mass_" ++ n)%string) (P x ("decay_rate_" ++ n)%string) t)). intros n I. assert (A := NP' n I). rewrite corner_at_pole in A.
    assert (L := lim_sq B mono _ _ (LC n I)).
    generalize (soon_and B mono _ _ (lim_neq B mono _ _ _ _ L (lim_const B t) ltac:(tauto)) (lim_neq B mono _ _ _ _ L (lim_const B (Cconj t)) ltac:(tauto))).
    apply soon_imp. intros x (A1 & A2). rewrite corner_at_pole. tauto. }
  assert (S3 : soon B (fun x => t <> RtoC (P x ein))).
  { apply (lim_neq B mono _ _ _ _ (lim_const B t) (proj1 (rlim_lim B _ _) Lin) NT). }
  assert (S4 : soon B (fun x => P x e0 < P x ein)) by (now apply (rlim_lt B mono _ _ _ _ L0 Lin)).
  assert (S5 : soon B (fun x => valid_sector (P x e0) (P x ein) (spec_sector (P x) names))) by (exists 1; split; [lra|]; intros x Q; exact (V _ _ Q)).
  generalize (soon_and B mono _ _ (LS eps X0) (soon_and B mono _ _ S1 (soon_and B mono _ _ S2 (soon_and B mono _ _ S3 (soon_and B mono _ _ S4 S5))))). apply soon_imp.
  intros x (K0 & K1 & K2 & K3 & K4 & K5).
  destruct (sector_eval_cases _ _ (proj1 (proj1 K5)) K4 _ t (proj2 K5)) as [([Y|Y] & _)|(_ & _ & Y)]; [contradiction| |].
  - exfalso. rewrite Exists_exists in Y. destruct Y as (r & Hr & Y). rewrite sector_strengths in Hr. apply in_map_iff in Hr. destruct Hr as ((c & n) & <- & I).
    apply in_combine_r in I. exact (K2 n I Y).
  - exists (sec_val (P x e0) (P x ein) (spec_sector (P x) names) t). split; [exact Y|].
    rewrite (sector_value _ _ (proj1 (proj1 K5)) K4 names (P x) t _ K5 N Y).
    replace (map (fun n => variant_of (P x ("mass_" ++ n)%string * P x ("mass_" ++ n)%string) (P x ein)) names) with (map VV names); [exact K0|].
    apply map_ext_in. intros n I. symmetry. now apply K1.
Qed.

Lemma sector_lim : forall t v, P0 e0 < P0 ein -> sector_eval (P0 e0) (P0 ein) (spec_sector P0 names) t = Ok v ->
  (forall n, In n names -> P0 ("mass_" ++ n)%string * P0 ("mass_" ++ n)%string <> P0 ein) ->
  forall eps, 0 < eps -> soon B (fun x => exists v', sector_eval (P x e0) (P x ein) (spec_sector (P x) names) t = Ok v' /\ Cabs (Csub v' v) < eps).
Proof.
  intros t v Hlt E T eps X0. rewrite (sector_value _ _ (proj1 (proj1 V0)) Hlt names P0 t v V0 N E).
  apply (sector_lim_with _ t v Hlt E); [| |exact X0].
  - intros n I. apply (corner_good _ _ (proj1 (proj1 V0)) Hlt). exact (names_accepted _ _ names P0 N V0 n I).
  - apply (soon_Forall B mono names (fun n x => variant_of (P x ("mass_" ++ n)%string * P x ("mass_" ++ n)%string) (P x ein) = variant_of (P0 ("mass_" ++ n)%string * P0 ("mass_" ++ n)%string) (P0 ein))).
    intros n I. destruct (LP n I) as (LM & _). destruct LE as (_ & Lin).
    apply (variant_soon B mono (fun x => P x ein) (P0 ein) Lin (fun x => P x ("mass_" ++ n)%string * P x ("mass_" ++ n)%string)); [now apply (rlim_mul B mono)|now apply T].
Qed.

End Sectors.

Lemma within_mono : forall names kw (Q : env R -> Prop) d e x, d <= e -> within d names kw x /\ Q x -> within e names kw x /\ Q x.
Proof. intros names kw Q d e x L (W & q). split; [|exact q]. intros n I. eapply Rlt_le_trans; [now apply W|exact L]. Qed.

Lemma within_rlim : forall names kw (Q : env R -> Prop) n, In n names -> rlim (fun d x => within d names kw x /\ Q x) (fun x => kwval x n) (kwval kw n).
Proof. intros names kw Q n I eps E. exists eps. split; [exact E|]. intros x (W & _). now apply W. Qed.

Lemma branch_keywords : forall k s, In (elastic s) (kaon_keywords k) /\ In (inelastic s) (kaon_keywords k).
Proof. intros k s. unfold kaon_keywords. destruct s; cbn; tauto. Qed.

(** Off the thresholds the kaon form factor depends continuously on all its arguments together. *)
Theorem C69_kaon : forall k ch kw m t v,
  Kaon_init (kaon_class k) ch kw = Ok m -> Kaon_call m t = Ok v ->
  (forall s n, In n (part k s) -> ~ at_threshold kw s n) ->
  forall eps, 0 < eps -> exists d, 0 < d /\
    forall kw' m', within d (kaon_keywords k) kw kw' -> Kaon_init (kaon_class k) ch kw' = Ok m' ->
    exists v', Kaon_call m' t = Ok v' /\ Cabs (Csub v' v) < eps.
Proof.
  intros k ch kw m t v I E T eps X. destruct (proj1 (call_sectors _ _ _ _ _ I) v E) as (R & x & y & Ex & Ey & ->).
  set (Q := fun kw' => is_ok (Kaon_init (kaon_class k) ch kw')). set (B := fun d kw' => within d (kaon_keywords k) kw kw' /\ Q kw').
  assert (M : forall d e kw', d <= e -> B d kw' -> B e kw') by (apply within_mono).
  assert (K : forall s z, sector k kw s t = Ok z -> soon B (fun kw' => exists v', sector k kw' s t = Ok v' /\ Cabs (Csub v' z) < eps / 2)).
  { intros s z Ez. destruct (in_keywords k s) as (K1 & K2). destruct (branch_keywords k s) as (K3 & K4). destruct (sector_order _ _ _ _ _ _ _ I Ez) as (_ & O).
    apply (sector_lim B M kwval (kwval kw) (elastic s) (inelastic s) (part k s) (part_nonempty k s)); try assumption; try lra.
    - intros n J. destruct (K2 n J). split; now apply within_rlim.
    - intros n J. apply within_rlim. now apply K1.
    - split; now apply within_rlim.
    - exact (sector_valid k ch kw m s I).
    - intros d kw' (_ & m' & I'). exact (sector_valid k ch kw' m' s I').
    - exact (T s). }
  destruct (soon_and B M _ _ (K true x Ex) (K false y Ey)) as (d & D & L). exists d. split; [exact D|]. intros kw' m' W I'.
  destruct (L kw' (conj W (ex_intro _ m' I'))) as ((x' & X1 & X2) & (y' & Y1 & Y2)).
  exists (Cadd (sign ch true x') (sign ch false y')). split; [now apply (proj2 (call_sectors _ _ _ _ _ I'))|].
  replace (Csub (Cadd (sign ch true x') (sign ch false y')) (Cadd (sign ch true x) (sign ch false y)))
    with (Cadd (Csub (sign ch true x') (sign ch true x)) (Csub (sign ch false y') (sign ch false y))) by ring.
  eapply Rle_lt_trans; [apply Cabs_triangle|]. rewrite !sign_abs. lra.
Qed.
Print Assumptions C69_kaon.

(** Where the square of one mass is the inelastic branch point, the form factor jumps when all arguments move: its value depends on the
    side on which the square of that mass stays, and on nothing else. *)
Theorem C69_jump : forall k ch s kw m t v i n a,
  Kaon_init (kaon_class k) ch kw = Ok m -> Kaon_call m t = Ok v -> t <> RtoC 0 ->
  nth_error (part k s) i = Some n -> nth_error (spec_couplings (kwval kw) (part k s)) i = Some a -> a <> 0 ->
  at_threshold kw s n -> (forall s' n', In n' (part k s') -> at_threshold kw s' n' -> s' = s /\ n' = n) ->
  exists J, J <> RtoC 0 /\ forall eps, 0 < eps -> exists d, 0 < d /\
    forall kw' m', within d (kaon_keywords k) kw kw' -> Kaon_init (kaon_class k) ch kw' = Ok m' ->
    exists v', Kaon_call m' t = Ok v' /\
      (kwval kw' (inelastic s) <= kwval kw' ("mass_" ++ n)%string * kwval kw' ("mass_" ++ n)%string -> Cabs (Csub v' v) < eps) /\
      (kwval kw' ("mass_" ++ n)%string * kwval kw' ("mass_" ++ n)%string < kwval kw' (inelastic s) -> Cabs (Csub v' (Cadd v J)) < eps).
Proof.
  intros k ch s kw m t v i n a I E T In_ Ia A Th Only.
  destruct (proj1 (call_sectors _ _ _ _ _ I) v E) as (R & xt & xf & Et & Ef & EV).
  assert (Z : exists x y, sector k kw s t = Ok x /\ sector k kw (negb s) t = Ok y /\ v = Cadd (sign ch s x) (sign ch (negb s) y) /\
    forall kw' m' x' y', Kaon_init (kaon_class k) ch kw' = Ok m' -> sector k kw' s t = Ok x' -> sector k kw' (negb s) t = Ok y' -> Kaon_call m' t = Ok (Cadd (sign ch s x') (sign ch (negb s) y'))).
  { destruct s; [exists xt, xf|exists xf, xt]; (split; [assumption|]); (split; [assumption|]); (split; [rewrite EV; cbn [negb]; ring|]); intros kw' m' x' y' I' X Y.
    - exact (proj2 (call_sectors _ _ _ _ _ I') x' y' R X Y).
    - cbn [negb] in *. rewrite (proj2 (call_sectors _ _ _ _ _ I') y' x' R Y X). f_equal. ring. }
  clear xt xf Et Ef EV. destruct Z as (x & y & Ex & Ey & -> & CALL).
  destruct (sector_order _ _ _ _ _ _ _ I Ex) as (H0 & Hlt). assert (VS := sector_valid _ _ _ _ s I). assert (NE := part_nonempty k s).
  set (t_0 := kwval kw (elastic s)) in *. set (t_in := kwval kw (inelastic s)) in *. set (P := kwval kw) in *.
  assert (IN : In n (part k s)) by (eapply nth_error_In; exact In_).
  assert (AC := names_accepted t_0 t_in (part k s) P NE VS). assert (Th' := Th). unfold at_threshold in Th. fold P t_in in Th.
  set (V := fun q : string => variant_of (P ("mass_" ++ q)%string * P ("mass_" ++ q)%string) t_in).
  set (V' := fun q : string => if String.eqb q n then VariantA else V q).
  destruct (threshold_pole t_0 t_in H0 Hlt _ _ (AC n IN) Th) as (OC & PZ).
  assert (VB : V n = VariantB) by (unfold V, variant_of; destruct (Rlt_dec _ _); [lra|reflexivity]).
  assert (VA : V' n = VariantA) by (unfold V'; now rewrite String.eqb_refl).
  assert (G : forall q, In q (part k s) -> good_pole t_0 t_in (V q) (Csq (corner (P ("mass_" ++ q)%string) (P ("decay_rate_" ++ q)%string)))).
  { intros q Q. apply corner_good; try assumption. now apply AC. }
  assert (G' : forall q, In q (part k s) -> good_pole t_0 t_in (V' q) (Csq (corner (P ("mass_" ++ q)%string) (P ("decay_rate_" ++ q)%string)))).
  { intros q Q. unfold V'. destruct (String.eqb_spec q n) as [->|]; [|now apply G]. split; [now apply (off_cut_neq_tin t_0 t_in Hlt)|]. split; [now apply off_cut_neq_t0|contradiction]. }
  assert (SX := sector_value t_0 t_in H0 Hlt (part k s) P t x VS NE Ex). fold V in SX.
  assert (CH := SV_change t_0 t_in (part k s) P V V' i n a t (part_nodup k s) NE In_ Ia). rewrite VA, VB, <- SX in CH.
  set (cr := corner (P ("mass_" ++ n)%string) (P ("decay_rate_" ++ n)%string)) in *.
  assert (CH' := CH ltac:(intros q Q; unfold V'; now apply String.eqb_neq in Q as ->)). clear CH.
  set (j := Cmul (RtoC a) (Csub (KS t_0 t_in VariantA cr t) (KS t_0 t_in VariantB cr t))) in *.
  assert (VS2 := VS). destruct VS2 as (VS1 & F). destruct (sector_eval_cases t_0 t_in H0 Hlt _ t F) as [(_ & Q)|(TN & NP & _)]; [unfold sector in Ex; fold P t_0 t_in in Ex; congruence|].
  destruct (Forall_sector _ _ _ NP n IN NE) as (a' & NPn). unfold r_m, r_g in NPn. cbn [fst snd] in NPn. rewrite corner_at_pole in NPn. fold cr in NPn.
  assert (J0 : j <> RtoC 0).
  { unfold j. apply Cmul_neq0; [intros Q; apply RtoC_inj in Q; contradiction|]. intros Q. apply Csub_eq in Q. revert Q.
    apply (variants_differ t_0 t_in H0 Hlt); try assumption; tauto. }
  exists (sign ch s j). split; [unfold sign; destruct s; [exact J0|]; destruct ch; [exact J0|]; intros Q; apply J0; apply (f_equal Copp) in Q; replace (Copp (Copp j)) with j in Q by ring; rewrite Q; ring|].
  intros eps X.
  set (ok := fun kw' => is_ok (Kaon_init (kaon_class k) ch kw')).
  set (below := fun kw' => kwval kw' ("mass_" ++ n)%string * kwval kw' ("mass_" ++ n)%string < kwval kw' (inelastic s)).
  destruct (in_keywords k s) as (K1 & K2). destruct (branch_keywords k s) as (K3 & K4).
  assert (SIDE : forall (low : bool) W, (forall q, In q (part k s) -> good_pole t_0 t_in (W q) (Csq (corner (P ("mass_" ++ q)%string) (P ("decay_rate_" ++ q)%string)))) ->
    W n = (if low then VariantA else VariantB) -> (forall q, q <> n -> W q = V q) ->
    soon (fun d kw' => within d (kaon_keywords k) kw kw' /\ ok kw' /\ (if low then below kw' else ~ below kw'))
      (fun kw' => exists v', sector k kw' s t = Ok v' /\ Cabs (Csub v' (SV t_0 t_in (map W (part k s)) (spec_sector P (part k s)) t)) < eps / 2)).
  { intros low W GW Wn Wq. set (B := fun d kw' => within d (kaon_keywords k) kw kw' /\ ok kw' /\ (if low then below kw' else ~ below kw')).
    assert (M : forall d e kw', d <= e -> B d kw' -> B e kw') by (exact (within_mono (kaon_keywords k) kw (fun kw' => ok kw' /\ (if low then below kw' else ~ below kw')))).
    assert (LB : forall q, In q (kaon_keywords k) -> rlim B (fun z => kwval z q) (kwval kw q)) by (intros q J; exact (within_rlim (kaon_keywords k) kw (fun kw' => ok kw' /\ (if low then below kw' else ~ below kw')) q J)).
    apply (sector_lim_with B M kwval P (elastic s) (inelastic s) (part k s) NE) with (v := x); try assumption; try lra.
    - intros q J. destruct (K2 q J). split; now apply LB.
    - intros q J. apply LB. now apply K1.
    - split; now apply LB.
    - intros d kw' (_ & (m' & I') & _). exact (sector_valid k ch kw' m' s I').
    - apply (soon_Forall B M (part k s) (fun q z => variant_of (kwval z ("mass_" ++ q)%string * kwval z ("mass_" ++ q)%string) (kwval z (inelastic s)) = W q)). intros q J.
      destruct (String.string_dec q n) as [->|NQ].
      + exists 1. split; [lra|]. intros z (_ & _ & Z). rewrite Wn. unfold variant_of. unfold below in Z. destruct (Rlt_dec _ _), low; try reflexivity; contradiction.
      + rewrite (Wq q NQ). unfold V. destruct (K2 q J) as (KM & _).
        apply (variant_soon B M (fun z => kwval z (inelastic s)) t_in (LB _ K4) (fun z => kwval z ("mass_" ++ q)%string * kwval z ("mass_" ++ q)%string)); [apply (rlim_mul B M); exact (LB _ KM)|].
        intros Q. apply NQ. exact (proj2 (Only s q J Q)). }
  destruct (SIDE true V' G' VA) as (d1 & D1 & L1); [intros q Q; unfold V'; now apply String.eqb_neq in Q as ->|].
  destruct (SIDE false V G VB (fun q _ => eq_refl)) as (d2 & D2 & L2).
  assert (OTHER : soon (fun d kw' => within d (kaon_keywords k) kw kw' /\ ok kw') (fun kw' => exists v', sector k kw' (negb s) t = Ok v' /\ Cabs (Csub v' y) < eps / 2)).
  { set (B := fun d kw' => within d (kaon_keywords k) kw kw' /\ ok kw').
    assert (M : forall d e kw', d <= e -> B d kw' -> B e kw') by (exact (within_mono (kaon_keywords k) kw ok)).
    assert (LB : forall q, In q (kaon_keywords k) -> rlim B (fun z => kwval z q) (kwval kw q)) by (intros q J; exact (within_rlim (kaon_keywords k) kw ok q J)).
    destruct (in_keywords k (negb s)) as (K5 & K6). destruct (branch_keywords k (negb s)) as (K7 & K8). destruct (sector_order _ _ _ _ _ _ _ I Ey) as (_ & O).
    apply (sector_lim B M kwval P (elastic (negb s)) (inelastic (negb s)) (part k (negb s)) (part_nonempty k (negb s))); try assumption; try lra.
    - intros q J. destruct (K6 q J). split; now apply LB.
    - intros q J. apply LB. now apply K5.
    - split; now apply LB.
    - exact (sector_valid k ch kw m (negb s) I).
    - intros d kw' (_ & m' & I'). exact (sector_valid k ch kw' m' (negb s) I').
    - intros q J Q. destruct (Only (negb s) q J Q) as (Q1 & _). destruct s; discriminate Q1. }
  destruct OTHER as (d3 & D3 & L3).
  assert (D : 0 < Rmin (Rmin d1 d2) d3) by (apply Rmin_pos; [now apply Rmin_pos|exact D3]). exists (Rmin (Rmin d1 d2) d3). split; [exact D|]. intros kw' m' W I'.
  assert (M1 := Rmin_l (Rmin d1 d2) d3). assert (M2 := Rmin_r (Rmin d1 d2) d3). assert (M3 := Rmin_l d1 d2). assert (M4 := Rmin_r d1 d2).
  assert (WW : forall e, Rmin (Rmin d1 d2) d3 <= e -> within e (kaon_keywords k) kw kw') by (intros e L q J; eapply Rlt_le_trans; [now apply W|exact L]).
  assert (OK : ok kw') by (now exists m').
  destruct (L3 kw' (conj (WW d3 M2) OK)) as (y' & Ey' & Ly).
  assert (FIN : forall x' z, sector k kw' s t = Ok x' -> Cabs (Csub x' z) < eps / 2 ->
    Kaon_call m' t = Ok (Cadd (sign ch s x') (sign ch (negb s) y')) /\ Cabs (Csub (Cadd (sign ch s x') (sign ch (negb s) y')) (Cadd (sign ch s z) (sign ch (negb s) y))) < eps).
  { intros x' z Ex' Lx. split; [now apply (CALL kw' m')|].
    replace (Csub (Cadd (sign ch s x') (sign ch (negb s) y')) (Cadd (sign ch s z) (sign ch (negb s) y))) with (Cadd (Csub (sign ch s x') (sign ch s z)) (Csub (sign ch (negb s) y') (sign ch (negb s) y))) by ring.
    eapply Rle_lt_trans; [apply Cabs_triangle|]. rewrite !sign_abs. lra. }
  destruct (Rlt_dec (kwval kw' ("mass_" ++ n)%string * kwval kw' ("mass_" ++ n)%string) (kwval kw' (inelastic s))) as [L|L].
  - destruct (L1 kw' (conj (WW d1 ltac:(lra)) (conj OK L))) as (x' & Ex' & Lx). rewrite CH' in Lx. destruct (FIN x' _ Ex' Lx) as (F1 & F2).
    eexists. split; [exact F1|]. split; [intros; lra|]. intros _. replace (Cadd (Cadd (sign ch s x) (sign ch (negb s) y)) (sign ch s j)) with (Cadd (sign ch s (Cadd x j)) (sign ch (negb s) y)); [exact F2|].
    unfold sign. destruct s, ch; ring.
  - destruct (L2 kw' (conj (WW d2 ltac:(lra)) (conj OK L))) as (x' & Ex' & Lx). rewrite <- SX in Lx. destruct (FIN x' _ Ex' Lx) as (F1 & F2).
    eexists. split; [exact F1|]. split; [intros _; exact F2|]. intros; lra.
Qed.
Print Assumptions C69_jump.

(** ** Nucleons *)

Lemma pole_side : forall t_0 t_in m g, t_0 < t_in -> Wt t_0 t_in (meson_pole m g) = Wt t_0 t_in (Csq (corner m g)) \/
  Wt t_0 t_in (meson_pole m g) = Cconj (Wt t_0 t_in (Csq (corner m g))).
Proof.
  intros t_0 t_in m g L. rewrite <- corner_pole.
  destruct (pole_cases (Rabs m) (- Rabs g) m g) as [-> | ->]; [now rewrite abs_sq|replace (- Rabs g * - Rabs g) with (Rabs g * Rabs g) by ring; now rewrite abs_sq|now left|].
  set (p := meson_pole (Rabs m) (- Rabs g)). destruct (on_cut_dec (Csub p t_0)) as [O|O].
  - left. destruct (on_cut_real _ _ O) as (E & _). assert (Q : Cconj p = p) by (rewrite E; apply Cconj_RtoC). now rewrite Q.
  - right. now apply (Wt_conj t_0 t_in L).
Qed.

Lemma Dfac_side : forall v w x, Dfac v (Cconj w) x = Dfac v w x.
Proof. intros v w x. unfold Dfac. rewrite Cconj_invol. destruct v; ring. Qed.

Lemma good_side : forall t_0 t_in v m g, good_pole t_0 t_in v (meson_pole m g) -> good_pole t_0 t_in v (Csq (corner m g)).
Proof.
  intros t_0 t_in v m g G. rewrite <- corner_pole.
  destruct (pole_cases m g (Rabs m) (- Rabs g)) as [-> | ->]; [now rewrite abs_sq|replace (- Rabs g * - Rabs g) with (Rabs g * Rabs g) by ring; now rewrite abs_sq|exact G|].
  set (p := meson_pole m g) in *. destruct G as (G1 & G2).
  assert (C : forall x : R, p <> RtoC x -> Cconj p <> RtoC x).
  { intros x N E. apply N. apply Cconj_inj. now rewrite E, Cconj_RtoC. }
  assert (O : on_cut (Csub (Cconj p) t_0) -> on_cut (Csub p t_0)).
  { intros (O1 & O2). cbn in O1, O2. split; cbn; lra. }
  split; [now apply C|]. destruct v; cbn [Re Cconj].
  - destruct G2 as (G2 & G3). split; [now apply C|]. intros Q. apply G3. now apply O.
  - intros Q. apply G2. now apply O.
Qed.

Lemma NC_corner : forall k t_0 t_in m g t, t_0 < t_in -> NC k t_0 t_in m g t = KS t_0 t_in (nvariant k t_in m g) (corner m g) t.
Proof.
  intros k t_0 t_in m g t L. unfold NC, KS, comp_val. destruct (pole_side t_0 t_in m g L) as [-> | ->]; [reflexivity|]. now rewrite !Dfac_side.
Qed.

(** The mass term of the new model from the image of the pole and the variant. *)
Definition mass_term (v : variant) (wn w : C) : C := Cdivt (Dfac v w wn) (Copp (Cmul (Csub w (Cinv w)) (Cconj (Csub w (Cinv w))))).

Lemma abs_conj : forall z, RtoC (- (Cabs z * Cabs z)) = Copp (Cmul z (Cconj z)).
Proof. intros z. rewrite Cabs_sq. unfold Cnorm2. Cext; ring. Qed.

Lemma MT_corner : forall t_0 t_in m g, t_0 < t_in ->
  MT New t_0 t_in m g = mass_term (nvariant New t_in m g) (Wt t_0 t_in 0) (Wt t_0 t_in (Csq (corner m g))).
Proof.
  intros t_0 t_in m g L. unfold MT, mass_term. rewrite abs_conj. destruct (pole_side t_0 t_in m g L) as [-> | ->]; [reflexivity|].
  set (w := Wt t_0 t_in (Csq (corner m g))) in *. rewrite Dfac_side. f_equal. f_equal.
  replace (Csub (Cconj w) (Cinv (Cconj w))) with (Cconj (Csub w (Cinv w))) by (rewrite Cconj_sub, Cconj_inv; reflexivity). rewrite Cconj_invol. ring.
Qed.

Section Nucleons.
Context {X : Type}.
Variable B : R -> X -> Prop.
Hypothesis mono : forall d e x, d <= e -> B d x -> B e x.
Variables (k : nucleon_kind) (P : X -> string -> R) (P0 : string -> R).
Hypothesis LP : forall n, In n nucleon_keywords -> rlim B (fun x => P x n) (P0 n).

Lemma LPm : forall n, mem n nucleon_keywords = true -> rlim B (fun x => P x n) (P0 n).
Proof. intros n I. apply LP. now apply mem_In. Qed.

Lemma bp_lim : forall s d, rlim B (fun x => bp0 (P x) s d) (bp0 P0 s d) /\ rlim B (fun x => bpin (P x) s d) (bpin P0 s d).
Proof. intros [] []; split; apply LPm; reflexivity. Qed.

Lemma meson_lim : forall s r, In r (iso_names s) -> rlim B (fun x => P x ("mass_" ++ r)%string) (P0 ("mass_" ++ r)%string) /\
  rlim B (fun x => P x ("decay_rate_" ++ r)%string) (P0 ("decay_rate_" ++ r)%string).
Proof.
  intros s r I. destruct s; cbn in I; repeat (destruct I as [<-|I]; [split; apply LPm; reflexivity|]); destruct I.
Qed.

Section Part.
Variables (s d : bool) (t : C).
Hypothesis H0 : 0 <= bp0 P0 s d.
Hypothesis Hlt : bp0 P0 s d < bpin P0 s d.
Hypothesis G : forall r, In r (iso_names s) -> good_pole (bp0 P0 s d) (bpin P0 s d) (nvariant k (bpin P0 s d) (P0 ("mass_" ++ r)%string) (P0 ("decay_rate_" ++ r)%string)) (meson_pole (P0 ("mass_" ++ r)%string) (P0 ("decay_rate_" ++ r)%string)) /\
  (k = New -> meson_pole (P0 ("mass_" ++ r)%string) (P0 ("decay_rate_" ++ r)%string) <> RtoC (bp0 P0 s d)).
Hypothesis T : forall r, In r (iso_names s) ->
  match k with New => P0 ("mass_" ++ r)%string * P0 ("mass_" ++ r)%string - P0 ("decay_rate_" ++ r)%string * P0 ("decay_rate_" ++ r)%string / 4
             | Old => P0 ("mass_" ++ r)%string * P0 ("mass_" ++ r)%string end <> bpin P0 s d.

Lemma nvariant_soon : forall r, In r (iso_names s) ->
  soon B (fun x => nvariant k (bpin (P x) s d) (P x ("mass_" ++ r)%string) (P x ("decay_rate_" ++ r)%string) = nvariant k (bpin P0 s d) (P0 ("mass_" ++ r)%string) (P0 ("decay_rate_" ++ r)%string)).
Proof.
  intros r I. destruct (meson_lim s r I) as (LM & LG). destruct (bp_lim s d) as (_ & Lin). assert (Q := T r I). unfold nvariant. clear G T. destruct k.
  - rewrite Re_meson_pole. assert (L : rlim B (fun x => Re (meson_pole (P x ("mass_" ++ r)%string) (P x ("decay_rate_" ++ r)%string))) (P0 ("mass_" ++ r)%string * P0 ("mass_" ++ r)%string - P0 ("decay_rate_" ++ r)%string * P0 ("decay_rate_" ++ r)%string / 4)).
    { apply (rlim_ext B (fun x => P x ("mass_" ++ r)%string * P x ("mass_" ++ r)%string - P x ("decay_rate_" ++ r)%string * P x ("decay_rate_" ++ r)%string / 4)); [intros x; now rewrite Re_meson_pole|].
      apply (rlim_sub B mono); [now apply (rlim_mul B mono)|]. apply (rlim_div B mono); [now apply (rlim_mul B mono)|apply rlim_const|lra]. }
    exact (variant_soon B mono _ _ Lin _ _ L Q).
  - exact (variant_soon B mono _ _ Lin _ _ (rlim_mul B mono _ _ _ _ LM LM) Q).
Qed.

Lemma order_here : soon B (fun x => bp0 (P x) s d < bpin (P x) s d).
Proof. destruct (bp_lim s d) as (L0 & Lin). now apply (rlim_lt B mono _ _ _ _ L0 Lin). Qed.

Lemma meson_corner : forall r, In r (iso_names s) -> lim B (fun x => corner (P x ("mass_" ++ r)%string) (P x ("decay_rate_" ++ r)%string)) (corner (P0 ("mass_" ++ r)%string) (P0 ("decay_rate_" ++ r)%string)).
Proof. intros r I. destruct (meson_lim s r I). now apply corner_lim. Qed.

Lemma Fv_lim : forall r, In r (iso_names s) -> t <> RtoC (bpin P0 s d) -> ~ at_pole (P0 ("mass_" ++ r)%string) (P0 ("decay_rate_" ++ r)%string) t ->
  lim B (fun x => Fv k (P x) s d t r) (Fv k P0 s d t r).
Proof.
  intros r I NT A. rewrite corner_at_pole in A. destruct (bp_lim s d) as (L0 & Lin). unfold Fv. rewrite (NC_corner _ _ _ _ _ _ Hlt).
  apply (lim_ext B mono (fun x => KS (bp0 (P x) s d) (bpin (P x) s d) (nvariant k (bpin P0 s d) (P0 ("mass_" ++ r)%string) (P0 ("decay_rate_" ++ r)%string)) (corner (P x ("mass_" ++ r)%string) (P x ("decay_rate_" ++ r)%string)) t)).
  - generalize (soon_and B mono _ _ order_here (nvariant_soon r I)). apply soon_imp. intros x (O & V). now rewrite (NC_corner _ _ _ _ _ _ O), V.
  - apply (component_lim B mono (fun x => bp0 (P x) s d) (fun x => bpin (P x) s d) _ _ H0 Hlt L0 Lin); [now apply meson_corner|apply corner_in|apply soon_all; intros x; apply corner_in| |exact NT|tauto|tauto].
    apply good_side. now apply G.
Qed.

Lemma cv_lim : forall r, In r (iso_names s) -> lim B (fun x => cv k (P x) s d r) (cv k P0 s d r).
Proof.
  intros r I. destruct (bp_lim s d) as (L0 & Lin). destruct (meson_lim s r I) as (LM & LG). destruct (G r I) as (Gr & Gn). assert (NS := nvariant_soon r I).
  assert (GC := good_side _ _ _ _ _ Gr). unfold cv. clear G T. destruct k.
  - rewrite (MT_corner _ _ _ _ Hlt). set (v := nvariant New (bpin P0 s d) (P0 ("mass_" ++ r)%string) (P0 ("decay_rate_" ++ r)%string)) in *.
    apply (lim_ext B mono (fun x => mass_term v (Wt (bp0 (P x) s d) (bpin (P x) s d) 0) (Wt (bp0 (P x) s d) (bpin (P x) s d) (Csq (corner (P x ("mass_" ++ r)%string) (P x ("decay_rate_" ++ r)%string)))))).
    + generalize (soon_and B mono _ _ order_here NS). apply soon_imp. intros x (O & V). now rewrite (MT_corner _ _ _ _ O), V.
    + assert (W0 := W0_lim B mono (fun x => bp0 (P x) s d) (fun x => bpin (P x) s d) _ _ H0 Hlt L0 Lin).
      assert (WP := Wpole_lim B mono (fun x => bp0 (P x) s d) (fun x => bpin (P x) s d) _ _ Hlt L0 Lin _ _ (meson_corner r I) (corner_in _ _) (soon_all B _ (fun x => corner_in _ _)) (proj1 GC)).
      assert (Z : Wt (bp0 P0 s d) (bpin P0 s d) (Csq (corner (P0 ("mass_" ++ r)%string) (P0 ("decay_rate_" ++ r)%string))) <> RtoC 0).
      { rewrite (Wt_0_iff _ _ Hlt) by exact (proj1 GC). intros E. apply (Gn eq_refl). rewrite <- corner_pole in E.
        destruct (pole_cases (Rabs (P0 ("mass_" ++ r)%string)) (- Rabs (P0 ("decay_rate_" ++ r)%string)) (P0 ("mass_" ++ r)%string) (P0 ("decay_rate_" ++ r)%string)) as [-> | ->]; [now rewrite abs_sq| |exact E|rewrite E; apply Cconj_RtoC].
        rewrite Rmult_opp_opp. now rewrite abs_sq. }
      assert (A := Afac_t_neq0 _ _ Hlt _ (proj1 GC)). set (w := Wt (bp0 P0 s d) (bpin P0 s d) (Csq (corner (P0 ("mass_" ++ r)%string) (P0 ("decay_rate_" ++ r)%string)))) in *.
      assert (D : Csub w (Cinv w) <> RtoC 0).
      { intros E. apply A. unfold Afac. replace (Csub 1 (Csq w)) with (Copp (Cmul w (Csub w (Cinv w)))) by (unfold Csq; field; exact Z). rewrite E. unfold Csq. ring. }
      assert (D' : Cconj (Csub w (Cinv w)) <> RtoC 0) by (intros E; now apply D, Cconj_0_iff).
      assert (L : lim B (fun x => Csub (Wt (bp0 (P x) s d) (bpin (P x) s d) (Csq (corner (P x ("mass_" ++ r)%string) (P x ("decay_rate_" ++ r)%string)))) (Cinv (Wt (bp0 (P x) s d) (bpin (P x) s d) (Csq (corner (P x ("mass_" ++ r)%string) (P x ("decay_rate_" ++ r)%string)))))) (Csub w (Cinv w))).
      { apply (lim_sub B mono); [exact WP|]. now apply (lim_inv B mono). }
      unfold mass_term. apply (lim_div B mono).
      * apply (Dfac_lim B mono); [exact WP|exact W0|intros _; exact Z].
      * apply (lim_opp B mono). apply (lim_mul B mono); [exact L|now apply (lim_conj B mono)].
      * intros E. apply (Cmul_neq0 _ _ D D'). transitivity (Copp (Copp (Cmul (Csub w (Cinv w)) (Cconj (Csub w (Cinv w)))))); [ring|]. rewrite E. ring.
  - unfold MT. apply (lim_mul B mono); now apply rlim_lim.
Qed.

Lemma formula_lim : distinct_terms s d (cv k P0 s d) -> t <> RtoC (bpin P0 s d) ->
  (forall r, In r (iso_names s) -> ~ at_pole (P0 ("mass_" ++ r)%string) (P0 ("decay_rate_" ++ r)%string) t) ->
  lim B (fun x => formula (P x) s d (cv k (P x) s d) (Fv k (P x) s d t)) (formula P0 s d (cv k P0 s d) (Fv k P0 s d t)).
Proof.
  intros D NT A. assert (LF := fun r I => Fv_lim r I NT (A r I)). assert (LC := cv_lim).
  assert (SUB : forall a b : C, a <> b -> Csub a b <> RtoC 0) by (intros a b Q E; apply Q; now apply Csub_eq0).
  assert (LN : forall n, mem n nucleon_keywords = true -> lim B (fun x => RtoC (P x n)) (RtoC (P0 n))) by (intros n I; apply rlim_lim; now apply LPm).
  assert (LMU : rlim B (fun x => 1/2 * (P x "magnetic_moment_proton" + P x "magnetic_moment_neutron" - 1)) (1/2 * (P0 "magnetic_moment_proton" + P0 "magnetic_moment_neutron" - 1)) /\
    rlim B (fun x => 1/2 * (P x "magnetic_moment_proton" - P x "magnetic_moment_neutron" - 1)) (1/2 * (P0 "magnetic_moment_proton" - P0 "magnetic_moment_neutron" - 1))).
  { split; (apply (rlim_mul B mono); [apply rlim_const|]); (apply (rlim_sub B mono); [|apply rlim_const]); [apply (rlim_add B mono)|apply (rlim_sub B mono)]; apply LPm; reflexivity. }
  destruct LMU as (LM1 & LM2). apply rlim_lim in LM1, LM2.
  clear G T H0 Hlt A. revert LF LC D. generalize (fun x => Fv k (P x) s d t) (Fv k P0 s d t) (fun x => cv k (P x) s d) (cv k P0 s d). intros F F0 c c0 LF LC D.
  clear NT. destruct s, d; unfold formula, combo2, combo3; cbn [distinct_terms] in D;
  repeat first [ apply LN; reflexivity | exact LM1 | exact LM2 | apply lim_const | apply LF; apply mem_In; reflexivity | apply LC; apply mem_In; reflexivity
    | apply (lim_div B mono); [| |apply SUB; first [apply D|apply not_eq_sym; apply D]] | apply (lim_mul B mono) | apply (lim_sub B mono) | apply (lim_add B mono) ].
Qed.

End Part.
End Nucleons.

Lemma iso_mesons : forall s, iso_names s = mesons s.
Proof. intros []; reflexivity. Qed.

Lemma inelastic_name : forall Q s d, bpin Q s d = Q (nucleon_inelastic s d).
Proof. intros Q [] []; reflexivity. Qed.

(** Off the thresholds the nucleon form factor depends continuously on all its arguments together. *)
Theorem C69_nucleon : forall k proton electric kw t v,
  evaluate k proton electric kw t = Ok v ->
  (forall s d n, In n (mesons s) -> ~ nucleon_threshold k kw s d n) ->
  forall eps, 0 < eps -> exists d, 0 < d /\
    forall kw', within d nucleon_keywords kw kw' -> is_ok (Nucleon_init (nucleon_class k) proton electric kw') ->
    exists v', evaluate k proton electric kw' t = Ok v' /\ Cabs (Csub v' v) < eps.
Proof.
  intros k p e kw t v E T eps EP. destruct (evaluate_Ok k p e kw t v E) as (m & BM & ND & RT & (CD & NM) & ->).
  set (Q := fun kw' => is_ok (Nucleon_init (nucleon_class k) p e kw')). set (B := fun d kw' => within d nucleon_keywords kw kw' /\ Q kw').
  assert (M : forall d e kw', d <= e -> B d kw' -> B e kw') by (apply within_mono).
  assert (LP : forall n, In n nucleon_keywords -> rlim B (fun x => kwval x n) (kwval kw n)) by (intros n I; now apply within_rlim).
  assert (H0 : forall s d, 0 <= bp0 (kwval kw) s d) by (intros s d; exact (proj1 (nb_valid _ _ _ _ _ BM s d))).
  assert (G : forall s d r, In r (iso_names s) -> good_pole (bp0 (kwval kw) s d) (bpin (kwval kw) s d) (nvariant k (bpin (kwval kw) s d) (kwval kw ("mass_" ++ r)%string) (kwval kw ("decay_rate_" ++ r)%string)) (meson_pole (kwval kw ("mass_" ++ r)%string) (kwval kw ("decay_rate_" ++ r)%string)) /\
    (k = New -> meson_pole (kwval kw ("mass_" ++ r)%string) (kwval kw ("decay_rate_" ++ r)%string) <> RtoC (bp0 (kwval kw) s d))).
  { intros s d r I. destruct (nb_comp _ _ _ _ _ BM s d r I) as (c & _ & Bc). destruct (nbuild_inv _ _ _ _ _ _ (ND s d) Bc) as (_ & Gr & _). split; [exact Gr|].
    intros ->. assert (A := proj1 (nbuild_accept New _ _ _ _ (nb_valid _ _ _ _ _ BM s d)) (ex_intro _ c Bc)). destruct A as (_ & _ & _ & A). rewrite <- resonance_pole_eq in A. exact A. }
  assert (T' : forall s d r, In r (iso_names s) -> match k with New => kwval kw ("mass_" ++ r)%string * kwval kw ("mass_" ++ r)%string - kwval kw ("decay_rate_" ++ r)%string * kwval kw ("decay_rate_" ++ r)%string / 4
             | Old => kwval kw ("mass_" ++ r)%string * kwval kw ("mass_" ++ r)%string end <> bpin (kwval kw) s d).
  { intros s d r I. rewrite inelastic_name. rewrite iso_mesons in I. exact (T s d r I). }
  assert (LF : forall s d, lim B (fun x => NucleonView.part k x s d t) (NucleonView.part k kw s d t)).
  { intros s d. destruct (CD s d) as (D1 & D2 & D3). unfold NucleonView.part. now apply (formula_lim B M k kwval (kwval kw) LP s d t (H0 s d) (ND s d) (G s d) (T' s d)). }
  assert (LC : forall s d r, In r (iso_names s) -> lim B (fun x => cv k (kwval x) s d r) (cv k (kwval kw) s d r)).
  { intros s d r I. now apply (cv_lim B M k kwval (kwval kw) LP s d (H0 s d) (ND s d) (G s d) (T' s d)). }
  assert (LM : rlim B (fun x => kwval x "nucleon_mass") (kwval kw "nucleon_mass")) by (apply LP; apply mem_In; reflexivity).
  assert (LV : lim B (fun x => combined k x p e t) (combined k kw p e t)).
  { unfold combined. assert (A1 := LF true true). assert (A2 := LF true false). assert (A3 := LF false true). assert (A4 := LF false false).
    assert (AD : lim B (fun x => if p then (NucleonView.part k x true true t + NucleonView.part k x false true t)%C else (NucleonView.part k x true true t - NucleonView.part k x false true t)%C)
      (if p then (NucleonView.part k kw true true t + NucleonView.part k kw false true t)%C else (NucleonView.part k kw true true t - NucleonView.part k kw false true t)%C)) by (destruct p; [now apply (lim_add B M)|now apply (lim_sub B M)]).
    assert (AP : lim B (fun x => if p then (NucleonView.part k x true false t + NucleonView.part k x false false t)%C else (NucleonView.part k x true false t - NucleonView.part k x false false t)%C)
      (if p then (NucleonView.part k kw true false t + NucleonView.part k kw false false t)%C else (NucleonView.part k kw true false t - NucleonView.part k kw false false t)%C)) by (destruct p; [now apply (lim_add B M)|now apply (lim_sub B M)]).
    destruct e; apply (lim_add B M); try assumption. apply (lim_mul B M); [|exact AP]. apply (lim_div B M); [apply lim_const| |].
    - apply rlim_lim. apply (rlim_mul B M); [apply rlim_const|now apply (rlim_mul B M)].
    - intros Z. apply RtoC_inj in Z. apply (NM eq_refl). nra. }
  assert (S1 : forall s d, soon B (fun x => bp0 (kwval x) s d < bpin (kwval x) s d)).
  { intros s d. destruct (bp_lim B kwval (kwval kw) LP s d) as (L0 & Lin). exact (rlim_lt B M _ _ _ _ L0 Lin (ND s d)). }
  assert (S2 : forall s d, soon B (fun x => contribution_defined k x s d t)).
  { intros s d. destruct (CD s d) as (D1 & D2 & D3). destruct (bp_lim B kwval (kwval kw) LP s d) as (_ & Lin). unfold contribution_defined.
    apply (soon_and B M); [exact (lim_neq B M _ _ _ _ (lim_const B t) (proj1 (rlim_lim B _ _) Lin) D1)|]. apply (soon_and B M).
    - apply (soon_Forall B M (iso_names s) (fun r x => ~ at_pole (kwval x ("mass_" ++ r)%string) (kwval x ("decay_rate_" ++ r)%string) t)). intros r I. assert (A := D2 r I). rewrite corner_at_pole in A.
      destruct (meson_lim B kwval (kwval kw) LP s r I) as (LMs & LG). assert (L := lim_sq B M _ _ (corner_lim B M _ _ _ _ LMs LG)).
      generalize (soon_and B M _ _ (lim_neq B M _ _ _ _ L (lim_const B t) ltac:(tauto)) (lim_neq B M _ _ _ _ L (lim_const B (Cconj t)) ltac:(tauto))).
      apply soon_imp. intros x (A1 & A2). rewrite corner_at_pole. tauto.
    - assert (L := LC s d). clear LC. destruct s, d; cbn [distinct_terms] in *.
      + apply (lim_neq B M _ _ _ _ (L "phi_double_prime" ltac:(apply mem_In; reflexivity)) (L "omega_double_prime" ltac:(apply mem_In; reflexivity)) D3).
      + destruct D3 as (D3 & D4 & D5). apply (soon_and B M); [|apply (soon_and B M)].
        * apply (lim_neq B M _ _ _ _ (L "phi_double_prime" ltac:(apply mem_In; reflexivity)) (L "omega_double_prime" ltac:(apply mem_In; reflexivity)) D3).
        * apply (lim_neq B M _ _ _ _ (L "omega_prime" ltac:(apply mem_In; reflexivity)) (L "omega_double_prime" ltac:(apply mem_In; reflexivity)) D4).
        * apply (lim_neq B M _ _ _ _ (L "omega_prime" ltac:(apply mem_In; reflexivity)) (L "phi_double_prime" ltac:(apply mem_In; reflexivity)) D5).
      + apply (lim_neq B M _ _ _ _ (L "rho_prime" ltac:(apply mem_In; reflexivity)) (L "rho_double_prime" ltac:(apply mem_In; reflexivity)) D3).
      + now apply soon_all. }
  assert (S3 : soon B (fun x => e = true -> kwval x "nucleon_mass" <> 0)).
  { destruct e; [|apply soon_all; discriminate]. assert (Z : RtoC (kwval kw "nucleon_mass") <> RtoC 0) by (intros Z; apply RtoC_inj in Z; now apply NM).
    generalize (lim_neq B M _ _ _ _ (proj1 (rlim_lim B _ _) LM) (lim_const B (RtoC 0)) Z). apply soon_imp. intros x A _ Y. apply A. now rewrite Y. }
  assert (BB : forall R : bool -> bool -> env R -> Prop, (forall s d, soon B (R s d)) -> soon B (fun x => forall s d, R s d x)).
  { intros W H. generalize (soon_and B M _ _ (soon_and B M _ _ (H true true) (H true false)) (soon_and B M _ _ (H false true) (H false false))). apply soon_imp.
    intros x ((A1 & A2) & A3 & A4) [] []; assumption. }
  destruct (soon_and B M _ _ (LV eps EP) (soon_and B M _ _ (BB _ S1) (soon_and B M _ _ (BB _ S2) S3))) as (d & D & L). exists d. split; [exact D|].
  intros kw' W O. destruct (L kw' (conj W O)) as (L1 & L2 & L3 & L4). exists (combined k kw' p e t). split; [|exact L1].
  destruct (evaluate_built k p e kw') as [(m' & c & I' & BM' & ->)|(x & I' & _)]; [|destruct O as (y & O); congruence].
  destruct (call_cases k p e kw' m' BM' t L2 RT) as [(_ & Y)|(Y & _)]; [exact Y|]. exfalso. apply Y. now split.
Qed.
Print Assumptions C69_nucleon.

(** ** Concrete models *)

Example C69_instance_kaon : forall k ch, exists m v, Kaon_init (kaon_class k) ch (threshold_kw (5/2) k) = Ok m /\ Kaon_call m (RtoC 100) = Ok v /\
  forall eps, 0 < eps -> exists d, 0 < d /\ forall kw' m', within d (kaon_keywords k) (threshold_kw (5/2) k) kw' -> Kaon_init (kaon_class k) ch kw' = Ok m' ->
    exists v', Kaon_call m' (RtoC 100) = Ok v' /\ Cabs (Csub v' v) < eps.
Proof.
  intros k ch. destruct (threshold_accepted (5/2) k ch ltac:(lra)) as (m & I). destruct (threshold_call (5/2) k ch m ltac:(lra) I) as (v & E).
  exists m, v. split; [exact I|]. split; [exact E|]. apply (C69_kaon k ch _ m _ v I E). intros s n J. apply threshold_not; [lra|exact J].
Qed.

(** The squared mass of rho' is the inelastic branch point of the isovector part. *)
Example C69_instance_jump : forall k ch, exists m v J, Kaon_init (kaon_class k) ch (threshold_kw 2 k) = Ok m /\ Kaon_call m (RtoC 100) = Ok v /\ J <> RtoC 0 /\
  forall eps, 0 < eps -> exists d, 0 < d /\ forall kw' m', within d (kaon_keywords k) (threshold_kw 2 k) kw' -> Kaon_init (kaon_class k) ch kw' = Ok m' ->
    exists v', Kaon_call m' (RtoC 100) = Ok v' /\
      (kwval kw' "t_in_isovector" <= kwval kw' "mass_rho_prime" * kwval kw' "mass_rho_prime" -> Cabs (Csub v' v) < eps) /\
      (kwval kw' "mass_rho_prime" * kwval kw' "mass_rho_prime" < kwval kw' "t_in_isovector" -> Cabs (Csub v' (Cadd v J)) < eps).
Proof.
  intros k ch. destruct (threshold_accepted 2 k ch ltac:(lra)) as (m & I). destruct (threshold_call 2 k ch m ltac:(lra) I) as (v & E). exists m, v.
  assert (IN : In "rho_prime" (part k false)) by (destruct k; cbn; tauto).
  assert (Q : exists i, nth_error (part k false) i = Some "rho_prime" /\ nth_error (spec_couplings (kwval (threshold_kw 2 k)) (part k false)) i = Some (1/7)).
  { assert (W : kwval (threshold_kw 2 k) "a_rho_prime" = 1/7) by (rewrite threshold_kwval by (destruct k; inkw); reflexivity).
    rewrite <- W. generalize (kwval (threshold_kw 2 k)). intros P. destruct k; [exists 1%nat|exists 1%nat|exists 0%nat]; split; reflexivity. }
  destruct Q as (i & Q1 & Q2).
  destruct (C69_jump k ch false _ m (RtoC 100) v i "rho_prime" (1/7) I E) as (J & J0 & L); [intros Q; apply RtoC_inj in Q; lra|exact Q1|exact Q2|lra| | |].
  - unfold at_threshold. destruct (threshold_values 2 k false _ IN) as (_ & -> & _ & ->). cbn. lra.
  - intros s n K T. unfold at_threshold in T. destruct (threshold_values 2 k s n K) as (_ & V1 & _ & V2). rewrite V1, V2 in T.
    destruct (String.eqb_spec n "rho_prime") as [->|]; [|lra]. split; [|reflexivity]. destruct s; [|reflexivity]. exfalso. destruct k; cbn in K; repeat (destruct K as [K|K]; [discriminate K|]); exact K.
  - exists J. split; [exact I|]. split; [exact E|]. split; [exact J0|]. exact L.
Qed.

Lemma demo_off : forall k s d n, In n (mesons s) -> ~ nucleon_threshold k (demo_nucleon (1/2)) s d n.
Proof.
  intros k.
  assert (B : forall s d, kwval (demo_nucleon (1/2)) (nucleon_inelastic s d) = 2) by (intros [] []; reflexivity).
  assert (A : forall s n, In n (mesons s) -> 2 <= kwval (demo_nucleon (1/2)) ("mass_" ++ n)%string /\ 0 <= kwval (demo_nucleon (1/2)) ("decay_rate_" ++ n)%string <= 1/2).
  { assert (K : forall a b, 2 <= a -> 0 <= b <= 1/2 -> 2 <= a /\ 0 <= b <= 1/2) by (intros; split; assumption). intros s n I. destruct s; cbn in I.
    - destruct I as [<-|[<-|[<-|[<-|[<-|[<-|[]]]]]]];
        [exact (K 2 (1/2) ltac:(lra) ltac:(lra))|exact (K 3 0 ltac:(lra) ltac:(lra))|exact (K 4 0 ltac:(lra) ltac:(lra))|exact (K 5 0 ltac:(lra) ltac:(lra))|exact (K 6 0 ltac:(lra) ltac:(lra))|exact (K 7 0 ltac:(lra) ltac:(lra))].
    - destruct I as [<-|[<-|[<-|[]]]]; [exact (K 2 (1/2) ltac:(lra) ltac:(lra))|exact (K 3 0 ltac:(lra) ltac:(lra))|exact (K 4 0 ltac:(lra) ltac:(lra))]. }
  intros s d n I T. unfold nucleon_threshold in T. rewrite B in T. destruct (A s n I) as (A1 & A2 & A3).
  destruct k; nra.
Qed.

Example C69_instance_nucleon : forall k p e, exists v, evaluate k p e (demo_nucleon (1/2)) (mkC 5 1) = Ok v /\
  forall eps, 0 < eps -> exists d, 0 < d /\ forall kw', within d nucleon_keywords (demo_nucleon (1/2)) kw' -> is_ok (Nucleon_init (nucleon_class k) p e kw') ->
    exists v', evaluate k p e kw' (mkC 5 1) = Ok v' /\ Cabs (Csub v' v) < eps.
Proof.
  intros k p e. destruct (nucleon_instance k p e) as (m & v & _ & _ & E & _). exists v. split; [exact E|]. apply (C69_nucleon k p e _ _ v E). exact (demo_off k).
Qed.
