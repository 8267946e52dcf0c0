(** C68: how the kaon form factors depend on couplings, masses and widths: continuously, unless the square of a mass is
    the inelastic branch point, where they jump. *)
From Coq Require Import String Reals Bool Arith List Lra Lia Permutation.
From Verif Require Import PyBase CNum UAMaps UAComponents PyExpr UAModels
  MapProofs ComponentProofs ExprProofs KaonProofs SectorProofs KaonSpec PropsKaon Analytic AnalyticModels PropsAmbiguity Masses.
Import ListNotations.
Local Open Scope R_scope.
Local Open Scope py_scope.
Local Open Scope string_scope.
Local Open Scope list_scope.

#[local] Arguments String.append : simpl never.

(** ** Specification *)

(** The resonances and the branch points of the isoscalar ([true]) and of the isovector part. *)
Definition part (k : kaon_kind) (s : bool) : list string := if s then isoscalar_resonances k else isovector_resonances k.
Definition elastic (s : bool) : string := if s then "t_0_isoscalar" else "t_0_isovector".
Definition inelastic (s : bool) : string := if s then "t_in_isoscalar" else "t_in_isovector".

(** The mass of the resonance is the square root of the inelastic branch point. *)
Definition at_threshold (kw : env R) (s : bool) (n : string) : Prop :=
  kwval kw ("mass_" ++ n)%string * kwval kw ("mass_" ++ n)%string = kwval kw (inelastic s).

(** Arguments with the same branch points and everything else close. *)
Definition nearby (d : R) (k : kaon_kind) (kw kw' : env R) : Prop :=
  same_branch_points kw kw' /\ forall x, In x (kaon_keywords k) -> Rabs (kwval kw' x - kwval kw x) < d.

(** ** Lists of resonances from names *)

Lemma couplings_length : forall P names, names <> [] -> length (spec_couplings P names) = length names.
Proof.
  intros P names N. pose proof (spec_sector_length P names N) as L. unfold spec_sector in L. rewrite map_length, combine_length in L.
  unfold spec_couplings in *. rewrite app_length, map_length in *. cbn [length] in *.
  assert (Q := f_equal (@length _) (app_removelast_last "" N)). rewrite app_length in Q. cbn in Q. lia.
Qed.

Lemma Forall2_sector : forall (Q : variant -> resonance -> Prop) V P names, names <> [] ->
  (forall a n, In n names -> Q (V n) (a, P ("mass_" ++ n)%string, P ("decay_rate_" ++ n)%string)) -> Forall2 Q (map V names) (spec_sector P names).
Proof.
  intros Q V P names N. unfold spec_sector. generalize (couplings_length P names N). generalize (spec_couplings P names). clear N.
  induction names as [|n names IH]; intros [|a l] L H; cbn in L; try discriminate; [constructor|]. cbn [map combine fst snd]. constructor.
  - apply H. now left.
  - apply IH; [lia|]. intros b x I. apply H. now right.
Qed.

Lemma Forall_sector : forall (Q : resonance -> Prop) P names, Forall Q (spec_sector P names) -> forall n, In n names -> names <> [] ->
  exists a, Q (a, P ("mass_" ++ n)%string, P ("decay_rate_" ++ n)%string).
Proof.
  intros Q P names F n I N. revert F I. unfold spec_sector. generalize (couplings_length P names N). generalize (spec_couplings P names). clear N.
  induction names as [|x names IH]; intros [|a l] L F I; cbn in L; try discriminate; [destruct I|]. cbn [map combine fst snd] in F. inversion F as [|? ? F1 F2]; subst.
  destruct I as [->|I]; [now exists a|]. apply (IH l); [lia|exact F2|exact I].
Qed.

Lemma Rsum_close : forall (l l' : list R) d, Forall2 (fun x y => Rabs (y - x) < d) l l' -> Rabs (Rsum l' - Rsum l) <= INR (length l) * d.
Proof.
  intros l l' d F. induction F as [|x y l l' X F IH].
  - cbn. rewrite Rminus_0_r, Rabs_R0. lra.
  - unfold Rsum in *. cbn [fold_right length]. rewrite S_INR. replace (y + fold_right Rplus 0 l' - (x + fold_right Rplus 0 l)) with ((y - x) + (fold_right Rplus 0 l' - fold_right Rplus 0 l)) by ring.
    eapply Rle_trans; [apply Rabs_triang|]. lra.
Qed.

Lemma couplings_close : forall P P' names d, (forall n, In n (removelast names) -> Rabs (P' ("a_" ++ n)%string - P ("a_" ++ n)%string) < d) -> 0 < d ->
  Forall2 (fun x y => Rabs (y - x) < (INR (length names) + 1) * d) (spec_couplings P names) (spec_couplings P' names).
Proof.
  intros P P' names d H D. unfold spec_couplings.
  assert (F : Forall2 (fun x y => Rabs (y - x) < d) (map (fun n => P ("a_" ++ n)%string) (removelast names)) (map (fun n => P' ("a_" ++ n)%string) (removelast names))).
  { revert H. induction (removelast names) as [|x l IH]; intros H; cbn; constructor; [apply H; now left|]. apply IH. intros n I. apply H. now right. }
  assert (LN : (length (removelast names) <= length names)%nat).
  { clear. induction names as [|x [|y l] IH]; cbn in *; lia. }
  apply le_INR in LN. assert (S := Rsum_close _ _ _ F). rewrite map_length in S. assert (P0 := pos_INR (length (removelast names))).
  apply Forall2_app.
  - clear S. induction F as [|x y l l' L F IH]; constructor; [nra|exact IH].
  - constructor; [|constructor]. match goal with |- Rabs ?e < _ => replace e with (- (Rsum (map (fun n => P' ("a_" ++ n)%string) (removelast names)) - Rsum (map (fun n => P ("a_" ++ n)%string) (removelast names)))) by ring end.
    rewrite Rabs_Ropp. nra.
Qed.

Lemma sector_close : forall P P' names d, names <> [] -> 0 < d -> (forall n, In n (removelast names) -> Rabs (P' ("a_" ++ n)%string - P ("a_" ++ n)%string) < d) ->
  (forall n, In n names -> Rabs (P' ("mass_" ++ n)%string - P ("mass_" ++ n)%string) < d /\ Rabs (P' ("decay_rate_" ++ n)%string - P ("decay_rate_" ++ n)%string) < d) ->
  Forall2 (close ((INR (length names) + 1) * d)) (spec_sector P names) (spec_sector P' names).
Proof.
  intros P P' names d N D A H. assert (F := couplings_close P P' names d A D). unfold spec_sector.
  assert (E : d <= (INR (length names) + 1) * d) by (pose proof (pos_INR (length names)); nra).
  revert F E. generalize ((INR (length names) + 1) * d). intros e. generalize (spec_couplings P names) (spec_couplings P' names). clear A N.
  induction names as [|n names IH]; intros l l' F E; destruct F as [|x y l l' X F]; cbn [combine map]; constructor.
  - destruct (H n (or_introl eq_refl)) as (M & G). unfold close, r_a, r_m, r_g. cbn [fst snd]. repeat split; lra.
  - apply IH; [|exact F|exact E]. intros q I. apply H. now right.
Qed.

(** ** One sector *)

Section OneSector.
Variables t_0 t_in : R.
Hypothesis H0 : 0 <= t_0.
Hypothesis Hlt : t_0 < t_in.

Lemma corner_good : forall m g, accepted t_0 t_in m g -> good_pole t_0 t_in (variant_of (m * m) t_in) (Csq (corner m g)).
Proof.
  intros m g A. assert (A' : accepted t_0 t_in (Rabs m) (- Rabs g)).
  { apply (accepted_alike t_0 t_in H0 Hlt m g); [apply abs_sq|rewrite <- (abs_sq g); ring|exact A]. }
  apply (accepted_good t_0 t_in Hlt) in A'. now rewrite corner_pole, abs_sq in A'.
Qed.

(** At the threshold the pole is off the cut. *)
Lemma threshold_pole : forall m g, accepted t_0 t_in m g -> m * m = t_in -> ~ on_cut (Csub (Csq (corner m g)) t_0) /\ Csq (corner m g) <> RtoC 0.
Proof.
  intros m g A E. destruct (corner_good m g A) as (N & _).
  assert (I : Im (Csq (corner m g)) = Rabs m * Rabs g) by (unfold Csq, corner; cbn; field).
  assert (M : 0 < Rabs m) by (apply Rabs_pos_lt; intros Q; rewrite Q in E; lra).
  assert (G : 0 < Rabs g).
  { apply Rabs_pos_lt. intros ->. apply N. unfold Csq, corner. rewrite Rabs_R0. replace (0 / 2) with 0 by field. apply C_ext; cbn; [rewrite abs_sq; lra|ring]. }
  assert (P : 0 < Im (Csq (corner m g))) by (rewrite I; now apply Rmult_lt_0_compat).
  split; [intros (Q & _); cbn [Im Csub Cadd Copp RtoC] in Q; unfold RtoC in Q; cbn in Q, P; lra|].
  intros Q. rewrite Q in P. cbn in P. lra.
Qed.

Lemma sector_limit : forall names P V t v, names <> [] -> valid_sector t_0 t_in (spec_sector P names) -> sector_eval t_0 t_in (spec_sector P names) t = Ok v ->
  (forall n, In n names -> good_pole t_0 t_in (V n) (Csq (corner (P ("mass_" ++ n)%string) (P ("decay_rate_" ++ n)%string)))) ->
  forall eps, 0 < eps -> exists d, 0 < d /\ forall P', (forall n, In n (removelast names) -> Rabs (P' ("a_" ++ n)%string - P ("a_" ++ n)%string) < d) ->
    (forall n, In n names -> Rabs (P' ("mass_" ++ n)%string - P ("mass_" ++ n)%string) < d /\ Rabs (P' ("decay_rate_" ++ n)%string - P ("decay_rate_" ++ n)%string) < d) ->
    valid_sector t_0 t_in (spec_sector P' names) -> (forall n, In n names -> variant_of (P' ("mass_" ++ n)%string * P' ("mass_" ++ n)%string) t_in = V n) ->
    exists v', sector_eval t_0 t_in (spec_sector P' names) t = Ok v' /\ Cabs (Csub v' (SV t_0 t_in (map V names) (spec_sector P names) t)) < eps.
Proof.
  intros names P V t v N VS E G eps X. destruct VS as (_ & F).
  destruct (sector_eval_cases t_0 t_in H0 Hlt _ t F) as [(_ & Q)|(T & NP & Q)]; [congruence|].
  destruct (sector_side t_0 t_in Hlt (map V names) (spec_sector P names) t T) with (eps := eps) as (d & D & L); [|exact NP|exact X|].
  { apply Forall2_sector; [exact N|]. intros a n I. unfold r_m, r_g. cbn [fst snd]. now apply G. }
  set (c := INR (length names) + 1). assert (C : 0 < c) by (pose proof (pos_INR (length names)); unfold c; lra).
  exists (d / c). split; [now apply Rdiv_lt_0_compat|]. intros P' A MG VS' V'.
  assert (CL := sector_close P P' names (d / c) N ltac:(now apply Rdiv_lt_0_compat) A MG). fold c in CL. replace (c * (d / c)) with d in CL by (field; lra).
  destruct (L _ CL (proj2 VS')) as (L1 & L2).
  { apply Forall2_sector; [exact N|]. intros a n I. unfold r_m. cbn [fst snd]. now apply V'. }
  destruct (sector_eval_cases t_0 t_in H0 Hlt _ t (proj2 VS')) as [([Q'|Q'] & _)|(_ & _ & Q')]; [contradiction| |].
  - apply Forall_Exists_neg in L1. contradiction.
  - eexists. split; [exact Q'|exact L2].
Qed.

Lemma variants_near : forall names (P : string -> R), (forall n, In n names -> P ("mass_" ++ n)%string * P ("mass_" ++ n)%string <> t_in) ->
  exists d, 0 < d /\ forall P' : string -> R, (forall n, In n names -> Rabs (P' ("mass_" ++ n)%string - P ("mass_" ++ n)%string) < d) ->
  forall n, In n names -> variant_of (P' ("mass_" ++ n)%string * P' ("mass_" ++ n)%string) t_in = variant_of (P ("mass_" ++ n)%string * P ("mass_" ++ n)%string) t_in.
Proof.
  induction names as [|n names IH]; intros P H; [exists 1; split; [lra|]; intros ? _ ? []|].
  destruct (IH P (fun q I => H q (or_intror I))) as (d & D & L). destruct (variant_near t_in (P ("mass_" ++ n)%string) (H n (or_introl eq_refl))) as (e & E & M).
  exists (Rmin d e). split; [now apply Rmin_pos|]. intros P' C q [<-|I].
  - apply M. eapply Rlt_le_trans; [apply C; now left|apply Rmin_r].
  - apply L; [|exact I]. intros x J. eapply Rlt_le_trans; [apply C; now right|apply Rmin_l].
Qed.

Lemma sector_value : forall names P t v, valid_sector t_0 t_in (spec_sector P names) -> names <> [] -> sector_eval t_0 t_in (spec_sector P names) t = Ok v ->
  v = SV t_0 t_in (map (fun n => variant_of (P ("mass_" ++ n)%string * P ("mass_" ++ n)%string) t_in) names) (spec_sector P names) t.
Proof.
  intros names P t v (_ & F) N E. destruct (sector_eval_cases t_0 t_in H0 Hlt _ t F) as [(_ & Q)|(_ & _ & Q)]; [congruence|].
  rewrite E in Q. injection Q as ->. rewrite (sec_SV t_0 t_in Hlt) by exact F. f_equal.
  unfold spec_sector. generalize (couplings_length P names N). generalize (spec_couplings P names). clear. intros l. revert l.
  induction names as [|n names IH]; intros [|a l] L; cbn in L; try discriminate; [reflexivity|]. cbn [map combine fst snd]. f_equal. apply IH. lia.
Qed.

Lemma names_accepted : forall names P, names <> [] -> valid_sector t_0 t_in (spec_sector P names) -> forall n, In n names -> accepted t_0 t_in (P ("mass_" ++ n)%string) (P ("decay_rate_" ++ n)%string).
Proof. intros names P N (_ & F) n I. destruct (Forall_sector _ _ _ F n I N) as (a & A). exact A. Qed.

Lemma sector_continuous : forall names P t v, names <> [] -> valid_sector t_0 t_in (spec_sector P names) -> sector_eval t_0 t_in (spec_sector P names) t = Ok v ->
  (forall n, In n names -> P ("mass_" ++ n)%string * P ("mass_" ++ n)%string <> t_in) ->
  forall eps, 0 < eps -> exists d, 0 < d /\ forall P', (forall n, In n (removelast names) -> Rabs (P' ("a_" ++ n)%string - P ("a_" ++ n)%string) < d) ->
    (forall n, In n names -> Rabs (P' ("mass_" ++ n)%string - P ("mass_" ++ n)%string) < d /\ Rabs (P' ("decay_rate_" ++ n)%string - P ("decay_rate_" ++ n)%string) < d) ->
    valid_sector t_0 t_in (spec_sector P' names) ->
    exists v', sector_eval t_0 t_in (spec_sector P' names) t = Ok v' /\ Cabs (Csub v' v) < eps.
Proof.
  intros names P t v N VS E T eps X. destruct (variants_near names P T) as (d1 & D1 & L1).
  destruct (sector_limit names P _ t v N VS E (fun n I => corner_good _ _ (names_accepted names P N VS n I)) eps X) as (d2 & D2 & L2).
  exists (Rmin d1 d2). split; [now apply Rmin_pos|]. intros P' A MG VS'. rewrite (sector_value names P t v VS N E). apply L2.
  - intros n I. eapply Rlt_le_trans; [now apply A|apply Rmin_r].
  - intros n I. destruct (MG n I). split; (eapply Rlt_le_trans; [eassumption|apply Rmin_r]).
  - exact VS'.
  - apply L1. intros n I. eapply Rlt_le_trans; [now apply MG|apply Rmin_l].
Qed.

(** Changing the variant of one resonance. *)
Lemma SV_change : forall names P V V' i n a t, NoDup names -> names <> [] -> nth_error names i = Some n -> nth_error (spec_couplings P names) i = Some a ->
  (forall x, x <> n -> V' x = V x) ->
  SV t_0 t_in (map V' names) (spec_sector P names) t =
  Cadd (SV t_0 t_in (map V names) (spec_sector P names) t)
       (Cmul (RtoC a) (Csub (KS t_0 t_in (V' n) (corner (P ("mass_" ++ n)%string) (P ("decay_rate_" ++ n)%string)) t) (KS t_0 t_in (V n) (corner (P ("mass_" ++ n)%string) (P ("decay_rate_" ++ n)%string)) t))).
Proof.
  intros names P V V' i n a t ND N I A O. unfold spec_sector, SV. generalize dependent (spec_couplings P names). revert i I. clear N.
  induction ND as [|x names NI ND IH]; intros i I l A; [destruct i; discriminate|]. destruct l as [|b l]; [destruct i; discriminate|].
  cbn [map combine fst snd]. unfold csum. cbn [fold_right].
  destruct i as [|i].
  - injection I as ->. injection A as ->. assert (M : map V' names = map V names). { apply map_ext_in. intros y Y. apply O. intros ->. contradiction. }
    rewrite M. unfold r_a, r_m, r_g. cbn [fst snd]. ring.
  - cbn in I, A. assert (Q := IH i I l A). unfold csum in Q. rewrite Q. rewrite (O x); [ring|]. intros ->. apply NI. eapply nth_error_In. exact I.
Qed.

End OneSector.

(** ** The kaon models *)

Lemma in_keywords : forall k s, (forall n, In n (removelast (part k s)) -> In ("a_" ++ n)%string (kaon_keywords k)) /\
  (forall n, In n (part k s) -> In ("mass_" ++ n)%string (kaon_keywords k) /\ In ("decay_rate_" ++ n)%string (kaon_keywords k)).
Proof.
  intros k s. unfold kaon_keywords. split; intros n I.
  - apply in_or_app. right. apply in_or_app. left. apply (in_map (fun n => "a_" ++ n)%string). apply in_or_app. destruct s; [left|right]; exact I.
  - assert (J : In n (isoscalar_resonances k ++ isovector_resonances k)) by (apply in_or_app; destruct s; [left|right]; exact I).
    split; apply in_or_app; right; apply in_or_app; right; apply in_or_app; [left; apply (in_map (fun n => "mass_" ++ n)%string)|right; apply (in_map (fun n => "decay_rate_" ++ n)%string)]; exact J.
Qed.

Lemma part_nonempty : forall k s, part k s <> [].
Proof. intros k []; apply resonances_nonempty. Qed.

Lemma part_nodup : forall k s, NoDup (part k s).
Proof. intros [] []; cbn; repeat (constructor; [cbn; intros H; repeat (destruct H as [H|H]; [discriminate H|]); exact H|]); constructor. Qed.

Lemma part_disjoint : forall k s n, In n (part k s) -> ~ In n (part k (negb s)).
Proof.
  intros k s n I J. destruct k, s; cbn in I, J; repeat (destruct I as [<-|I]; [repeat (destruct J as [J|J]; [discriminate J|]); exact J|]); exact I.
Qed.

(** The call as the sum or difference of the two parts. *)
Definition sector (k : kaon_kind) (kw : env R) (s : bool) (t : C) : Res C :=
  sector_eval (kwval kw (elastic s)) (kwval kw (inelastic s)) (spec_sector (kwval kw) (part k s)) t.
Definition sign (ch s : bool) (x : C) : C := if s then x else if ch then x else Copp x.

Lemma call_sectors : forall k ch kw m t, Kaon_init (kaon_class k) ch kw = Ok m ->
  (forall v, Kaon_call m t = Ok v -> 0 <= Re t /\ exists x y, sector k kw true t = Ok x /\ sector k kw false t = Ok y /\ v = Cadd (sign ch true x) (sign ch false y)) /\
  (forall x y, 0 <= Re t -> sector k kw true t = Ok x -> sector k kw false t = Ok y -> Kaon_call m t = Ok (Cadd (sign ch true x) (sign ch false y))).
Proof.
  intros k ch kw m t I. split.
  - intros v E. destruct (Kaon_call_parts _ _ _ _ _ _ I E) as (R & x & y & X & Y). split; [exact R|]. exists x, y. split; [exact X|]. split; [exact Y|].
    rewrite (Kaon_view _ _ _ _ _ I) in E. destruct (Rlt_dec (Re t) 0); [discriminate|]. rewrite X, Y in E. cbn [bind] in E. injection E as <-. destruct ch; unfold sign; ring.
  - intros x y R X Y. rewrite (Kaon_view _ _ _ _ _ I). destruct (Rlt_dec (Re t) 0); [lra|]. unfold sector in X, Y. cbn [part elastic inelastic] in X, Y.
    rewrite X. cbn [bind]. rewrite Y. cbn [bind]. f_equal. destruct ch; unfold sign; ring.
Qed.

Lemma sector_valid : forall k ch kw m s, Kaon_init (kaon_class k) ch kw = Ok m -> valid_sector (kwval kw (elastic s)) (kwval kw (inelastic s)) (spec_sector (kwval kw) (part k s)).
Proof. intros k ch kw m s I. destruct (Kaon_valid _ _ _ _ I). destruct s; assumption. Qed.

Lemma sector_order : forall k ch kw m s t x, Kaon_init (kaon_class k) ch kw = Ok m -> sector k kw s t = Ok x ->
  0 <= kwval kw (elastic s) /\ kwval kw (elastic s) < kwval kw (inelastic s).
Proof.
  intros k ch kw m s t x I E. assert (V := sector_valid k ch kw m s I). split; [exact (proj1 (proj1 V))|].
  apply (sector_nondegenerate _ _ _ t x V); [|exact E]. destruct (spec_sector_nonempty (kwval kw) k). destruct s; assumption.
Qed.

Lemma same_bp : forall kw kw' s, same_branch_points kw kw' -> kwval kw' (elastic s) = kwval kw (elastic s) /\ kwval kw' (inelastic s) = kwval kw (inelastic s).
Proof. intros kw kw' s B. destruct s; split; apply B; cbn; tauto. Qed.

Lemma part_continuous : forall k ch s kw m t v, Kaon_init (kaon_class k) ch kw = Ok m -> sector k kw s t = Ok v ->
  (forall n, In n (part k s) -> ~ at_threshold kw s n) ->
  forall eps, 0 < eps -> exists d, 0 < d /\ forall kw' m', nearby d k kw kw' -> Kaon_init (kaon_class k) ch kw' = Ok m' ->
  exists v', sector k kw' s t = Ok v' /\ Cabs (Csub v' v) < eps.
Proof.
  intros k ch s kw m t v I E T eps X. destruct (sector_order _ _ _ _ _ _ _ I E) as (H0 & Hlt). destruct (in_keywords k s) as (K1 & K2).
  destruct (sector_continuous _ _ H0 Hlt (part k s) (kwval kw) t v (part_nonempty k s) (sector_valid _ _ _ _ s I) E T eps X) as (d & D & L).
  exists d. split; [exact D|]. intros kw' m' (B & N) I'. destruct (same_bp kw kw' s B) as (B1 & B2). unfold sector. rewrite B1, B2.
  apply L; [intros n J; now apply N, K1|intros n J; split; now apply N, K2|]. rewrite <- B1, <- B2. exact (sector_valid _ _ _ _ s I').
Qed.

Lemma sign_abs : forall ch s x y, Cabs (Csub (sign ch s x) (sign ch s y)) = Cabs (Csub x y).
Proof.
  intros ch s x y. unfold sign. destruct s; [reflexivity|]. destruct ch; [reflexivity|].
  replace (Csub (Copp x) (Copp y)) with (Copp (Csub x y)) by ring. apply Cabs_opp.
Qed.

(** Off the thresholds the form factor depends continuously on all couplings, masses and widths together. *)
Theorem C68_continuous : forall k ch kw m t v,
  Kaon_init (kaon_class k) ch kw = Ok m -> Kaon_call m t = Ok v ->
  (forall s n, In n (part k s) -> ~ at_threshold kw s n) ->
  forall eps, 0 < eps -> exists d, 0 < d /\
    forall kw' m', nearby d k kw kw' -> Kaon_init (kaon_class k) ch kw' = Ok m' ->
    exists v', Kaon_call m' t = Ok v' /\ Cabs (Csub v' v) < eps.
Proof.
  intros k ch kw m t v I E T eps X. destruct (proj1 (call_sectors _ _ _ _ _ I) v E) as (R & x & y & Ex & Ey & ->).
  destruct (part_continuous _ _ _ _ _ _ _ I Ex (T true) (eps / 2) ltac:(lra)) as (d1 & D1 & L1).
  destruct (part_continuous _ _ _ _ _ _ _ I Ey (T false) (eps / 2) ltac:(lra)) as (d2 & D2 & L2).
  exists (Rmin d1 d2). split; [now apply Rmin_pos|]. intros kw' m' (B & N) I'.
  destruct (L1 kw' m') as (x' & Ex' & Lx); [split; [exact B|]; intros n J; eapply Rlt_le_trans; [now apply N|apply Rmin_l]|exact I'|].
  destruct (L2 kw' m') as (y' & Ey' & Ly); [split; [exact B|]; intros n J; eapply Rlt_le_trans; [now apply N|apply Rmin_r]|exact I'|].
  eexists. split; [exact (proj2 (call_sectors _ _ _ _ _ I') x' y' R Ex' Ey')|].
  replace (Csub (Cadd (sign ch true x') (sign ch false y')) (Cadd (sign ch true x) (sign ch false y)))
    with (Cadd (Csub (sign ch true x') (sign ch true x)) (Csub (sign ch false y') (sign ch false y))) by ring.
  eapply Rle_lt_trans; [apply Cabs_triangle|]. rewrite !sign_abs. lra.
Qed.
Print Assumptions C68_continuous.

(** Only the mass of one resonance is changed. *)
Definition only_mass (n : string) (kw kw' : env R) : Prop := forall x, x <> ("mass_" ++ n)%string -> kwval kw' x = kwval kw x.

Lemma mass_neq : forall n x, x <> n -> ("mass_" ++ x)%string <> ("mass_" ++ n)%string.
Proof. intros n x N E. apply N. cbn in E. unfold String.append in E. injection E as E. exact E. Qed.

Lemma spec_sector_same : forall n P P' names, (forall x, x <> ("mass_" ++ n)%string -> P' x = P x) -> spec_couplings P' names = spec_couplings P names /\
  (~ In n names -> spec_sector P' names = spec_sector P names).
Proof.
  intros n P P' names H. assert (C : spec_couplings P' names = spec_couplings P names).
  { unfold spec_couplings. assert (M : map (fun x => P' ("a_" ++ x)%string) (removelast names) = map (fun x => P ("a_" ++ x)%string) (removelast names)) by (apply map_ext; intros x; apply H; discriminate). now rewrite M. }
  split; [exact C|]. intros NI. unfold spec_sector. rewrite C. apply map_ext_in. intros (a & x) I. apply in_combine_r in I. cbn [fst snd].
  rewrite !H; [reflexivity|discriminate|]. apply mass_neq. intros ->. contradiction.
Qed.

(** Where the square of the mass of a resonance with a coupling is the inelastic branch point, the form factor jumps at every t but 0:
    the limit from below differs from the value, which is the limit from above. *)
Theorem C68_jump : forall k ch s kw m t v i n a,
  Kaon_init (kaon_class k) ch kw = Ok m -> Kaon_call m t = Ok v -> t <> RtoC 0 ->
  nth_error (part k s) i = Some n -> nth_error (spec_couplings (kwval kw) (part k s)) i = Some a -> a <> 0 ->
  at_threshold kw s n ->
  exists J, J <> RtoC 0 /\ forall eps, 0 < eps -> exists d, 0 < d /\
    forall kw' m', only_mass n kw kw' -> Rabs (kwval kw' ("mass_" ++ n)%string - kwval kw ("mass_" ++ n)%string) < d ->
    Kaon_init (kaon_class k) ch kw' = Ok m' ->
    exists v', Kaon_call m' t = Ok v' /\
      (kwval kw (inelastic s) <= kwval kw' ("mass_" ++ n)%string * kwval kw' ("mass_" ++ n)%string -> Cabs (Csub v' v) < eps) /\
      (kwval kw' ("mass_" ++ n)%string * kwval kw' ("mass_" ++ n)%string < kwval kw (inelastic s) -> Cabs (Csub v' (Cadd v J)) < eps).
Proof.
  intros k ch s kw m t v i n a I E T In_ Ia A Th.
  destruct (proj1 (call_sectors _ _ _ _ _ I) v E) as (R & xt & xf & Et & Ef & EV).
  assert (Z : exists x y, sector k kw s t = Ok x /\ sector k kw (negb s) t = Ok y /\ v = Cadd (sign ch s x) (sign ch (negb s) y) /\
    forall kw' m' x' y', Kaon_init (kaon_class k) ch kw' = Ok m' -> sector k kw' s t = Ok x' -> sector k kw' (negb s) t = Ok y' -> Kaon_call m' t = Ok (Cadd (sign ch s x') (sign ch (negb s) y'))).
  { destruct s; [exists xt, xf|exists xf, xt]; (split; [assumption|]); (split; [assumption|]); (split; [rewrite EV; cbn [negb]; ring|]); intros kw' m' x' y' I' X Y.
    - exact (proj2 (call_sectors _ _ _ _ _ I') x' y' R X Y).
    - cbn [negb] in *. rewrite (proj2 (call_sectors _ _ _ _ _ I') y' x' R Y X). f_equal. ring. }
  clear xt xf Et Ef EV. destruct Z as (x & y & Ex & Ey & -> & CALL).
  destruct (sector_order _ _ _ _ _ _ _ I Ex) as (H0 & Hlt). assert (VS := sector_valid _ _ _ _ s I). assert (NE := part_nonempty k s).
  set (t_0 := kwval kw (elastic s)) in *. set (t_in := kwval kw (inelastic s)) in *. set (P := kwval kw) in *.
  assert (IN : In n (part k s)) by (eapply nth_error_In; exact In_).
  assert (AC := names_accepted t_0 t_in (part k s) P NE VS). unfold at_threshold in Th. fold P t_in in Th.
  set (V := fun q : string => variant_of (P ("mass_" ++ q)%string * P ("mass_" ++ q)%string) t_in).
  set (V' := fun q : string => if String.eqb q n then VariantA else V q).
  destruct (threshold_pole t_0 t_in H0 Hlt _ _ (AC n IN) Th) as (OC & PZ).
  assert (VB : V n = VariantB) by (unfold V, variant_of; destruct (Rlt_dec _ _); [lra|reflexivity]).
  assert (VA : V' n = VariantA) by (unfold V'; now rewrite String.eqb_refl).
  assert (G : forall q, In q (part k s) -> good_pole t_0 t_in (V q) (Csq (corner (P ("mass_" ++ q)%string) (P ("decay_rate_" ++ q)%string)))).
  { intros q Q. apply corner_good; try assumption. now apply AC. }
  assert (G' : forall q, In q (part k s) -> good_pole t_0 t_in (V' q) (Csq (corner (P ("mass_" ++ q)%string) (P ("decay_rate_" ++ q)%string)))).
  { intros q Q. unfold V'. destruct (String.eqb_spec q n) as [->|]; [|now apply G]. split; [now apply (off_cut_neq_tin t_0 t_in Hlt)|]. split; [now apply off_cut_neq_t0|contradiction]. }
  assert (SX := sector_value t_0 t_in H0 Hlt (part k s) P t x VS NE Ex). fold V in SX.
  assert (CH := SV_change t_0 t_in (part k s) P V V' i n a t (part_nodup k s) NE In_ Ia). rewrite VA, VB, <- SX in CH.
  set (cr := corner (P ("mass_" ++ n)%string) (P ("decay_rate_" ++ n)%string)) in *.
  assert (CH' := CH ltac:(intros q Q; unfold V'; now apply String.eqb_neq in Q as ->)). clear CH.
  set (j := Cmul (RtoC a) (Csub (KS t_0 t_in VariantA cr t) (KS t_0 t_in VariantB cr t))) in *.
  destruct VS as (VS1 & F). destruct (sector_eval_cases t_0 t_in H0 Hlt _ t F) as [(_ & Q)|(TN & NP & _)]; [unfold sector in Ex; fold P t_0 t_in in Ex; congruence|].
  assert (VS : valid_sector t_0 t_in (spec_sector P (part k s))) by (split; assumption).
  destruct (Forall_sector _ _ _ NP n IN NE) as (a' & NPn). unfold r_m, r_g in NPn. cbn [fst snd] in NPn. rewrite corner_at_pole in NPn. fold cr in NPn.
  assert (J0 : j <> RtoC 0).
  { unfold j. apply Cmul_neq0; [intros Q; apply RtoC_inj in Q; contradiction|]. intros Q. apply Csub_eq in Q. revert Q.
    apply (variants_differ t_0 t_in H0 Hlt); try assumption; tauto. }
  exists (sign ch s j). split; [unfold sign; destruct s; [exact J0|]; destruct ch; [exact J0|]; intros Q; apply J0; apply (f_equal Copp) in Q; replace (Copp (Copp j)) with j in Q by ring; rewrite Q; ring|].
  intros eps X.
  destruct (sector_limit t_0 t_in H0 Hlt (part k s) P V t x NE VS Ex G eps X) as (d1 & D1 & L1).
  destruct (sector_limit t_0 t_in H0 Hlt (part k s) P V' t x NE VS Ex G' eps X) as (d2 & D2 & L2).
  exists (Rmin d1 d2). split; [now apply Rmin_pos|]. intros kw' m' OM M I'.
  assert (B : same_branch_points kw kw') by (intros z Z; apply OM; cbn in Z; intros ->; repeat (destruct Z as [Z|Z]; [discriminate Z|]); exact Z).
  destruct (same_bp kw kw' s B) as (B1 & B2).
  assert (Ey' : sector k kw' (negb s) t = Ok y).
  { unfold sector. destruct (same_bp kw kw' (negb s) B) as (B3 & B4). rewrite B3, B4. rewrite (proj2 (spec_sector_same n _ _ (part k (negb s)) OM) (part_disjoint k s n IN)). exact Ey. }
  assert (C1 : forall d, 0 < d -> forall q, In q (removelast (part k s)) -> Rabs (kwval kw' ("a_" ++ q)%string - P ("a_" ++ q)%string) < d).
  { intros d D q _. rewrite OM by discriminate. unfold P. rewrite Rminus_diag_eq, Rabs_R0 by reflexivity. exact D. }
  assert (C2 : forall d, 0 < d -> Rmin d1 d2 <= d -> forall q, In q (part k s) -> Rabs (kwval kw' ("mass_" ++ q)%string - P ("mass_" ++ q)%string) < d /\ Rabs (kwval kw' ("decay_rate_" ++ q)%string - P ("decay_rate_" ++ q)%string) < d).
  { intros d D L q _. split.
    - destruct (String.string_dec q n) as [->|N]; [eapply Rlt_le_trans; [exact M|exact L]|]. rewrite OM by now apply mass_neq. unfold P. rewrite Rminus_diag_eq, Rabs_R0 by reflexivity. exact D.
    - rewrite OM by discriminate. unfold P. rewrite Rminus_diag_eq, Rabs_R0 by reflexivity. exact D. }
  assert (VS' : valid_sector t_0 t_in (spec_sector (kwval kw') (part k s))) by (unfold t_0, t_in, P; rewrite <- B1, <- B2; exact (sector_valid _ _ _ _ s I')).
  assert (OV : forall q, q <> n -> variant_of (kwval kw' ("mass_" ++ q)%string * kwval kw' ("mass_" ++ q)%string) t_in = V q).
  { intros q N. rewrite OM by now apply mass_neq. reflexivity. }
  unfold sector in CALL.
  destruct (Rlt_dec (kwval kw' ("mass_" ++ n)%string * kwval kw' ("mass_" ++ n)%string) t_in) as [L|L].
  - destruct (L2 (kwval kw')) as (x' & Ex' & LX); [now apply C1|apply C2; [exact D2|apply Rmin_r]|exact VS'| |].
    { intros q _. unfold V'. destruct (String.eqb_spec q n) as [->|N]; [|now apply OV]. unfold variant_of. destruct (Rlt_dec _ _); [reflexivity|contradiction]. }
    exists (Cadd (sign ch s x') (sign ch (negb s) y)). split; [apply (CALL kw' m' x' y I'); [rewrite B1, B2; exact Ex'|exact Ey']|]. split; [intros; lra|]. intros _.
    rewrite CH' in LX. rewrite <- (sign_abs ch s) in LX.
    replace (Csub (Cadd (sign ch s x') (sign ch (negb s) y)) (Cadd (Cadd (sign ch s x) (sign ch (negb s) y)) (sign ch s j))) with (Csub (sign ch s x') (sign ch s (Cadd x j))); [exact LX|].
    unfold sign. destruct s, ch; ring.
  - destruct (L1 (kwval kw')) as (x' & Ex' & LX); [now apply C1|apply C2; [exact D1|apply Rmin_l]|exact VS'| |].
    { intros q _. destruct (String.string_dec q n) as [->|N]; [|now apply OV]. rewrite VB. unfold variant_of. destruct (Rlt_dec _ _); [contradiction|reflexivity]. }
    exists (Cadd (sign ch s x') (sign ch (negb s) y)). split; [apply (CALL kw' m' x' y I'); [rewrite B1, B2; exact Ex'|exact Ey']|]. split; [|intros; lra]. intros _.
    rewrite <- SX in LX. rewrite <- (sign_abs ch s) in LX.
    replace (Csub (Cadd (sign ch s x') (sign ch (negb s) y)) (Cadd (sign ch s x) (sign ch (negb s) y))) with (Csub (sign ch s x') (sign ch s x)) by ring. exact LX.
Qed.
Print Assumptions C68_jump.

(** ** Instances *)

(** Branch points 1 and 4, mass 3 for every resonance but rho', whose mass is [x]. *)
Definition threshold_value (x : R) (n : string) : R :=
  if String.prefix "t_0" n then 1 else if String.prefix "t_in" n then 4 else if String.prefix "a_" n then 1/7
  else if String.eqb n "mass_rho_prime" then x else if String.prefix "mass" n then 3 else 1/2.
Definition threshold_kw (x : R) (k : kaon_kind) : env R := map (fun n => (n, threshold_value x n)) (kaon_keywords k).

Lemma threshold_kwval : forall x k n, In n (kaon_keywords k) -> kwval (threshold_kw x k) n = threshold_value x n.
Proof. intros x k n H. unfold kwval, threshold_kw. now rewrite lookup_map_pair. Qed.

Lemma threshold_other : forall x y k n, n <> "mass_rho_prime" -> kwval (threshold_kw x k) n = kwval (threshold_kw y k) n.
Proof.
  intros x y k n N. unfold kwval, threshold_kw. induction (kaon_keywords k) as [|q l IH]; [reflexivity|]. cbn [map lookup].
  destruct (String.eqb q n) eqn:Q; [|exact IH]. apply String.eqb_eq in Q as ->. unfold threshold_value. apply String.eqb_neq in N. now rewrite N.
Qed.

Lemma threshold_values : forall x k s n, In n (part k s) -> kwval (threshold_kw x k) (elastic s) = 1 /\ kwval (threshold_kw x k) (inelastic s) = 4 /\
  kwval (threshold_kw x k) ("decay_rate_" ++ n)%string = 1/2 /\
  (kwval (threshold_kw x k) ("mass_" ++ n)%string = if String.eqb n "rho_prime" then x else 3).
Proof.
  intros x k s n I. destruct (in_keywords k s) as (_ & K). destruct (K n I) as (K1 & K2).
  rewrite !threshold_kwval by (try assumption; destruct s; cbn; tauto).
  destruct s; (split; [reflexivity|]); (split; [reflexivity|]); (split; [reflexivity|]); destruct k; cbn in I; repeat (destruct I as [<-|I]; [reflexivity|]); destruct I.
Qed.

Lemma threshold_accepted : forall x k ch, 1 <= x -> exists m, Kaon_init (kaon_class k) ch (threshold_kw x k) = Ok m.
Proof.
  intros x k ch X. apply Kaon_accept_iff. split.
  { unfold threshold_kw. rewrite map_map. cbn [fst]. rewrite map_id. reflexivity. }
  assert (A : forall y, 1 <= y -> resonance_accepted 1 4 y (1/2)).
  { intros y Y. unfold resonance_accepted, resonance_pole. split; [nra|]. split; [|intros _]; intros E; apply (f_equal Im) in E; cbn in E; nra. }
  assert (S : forall s, sector_accepted (kwval (threshold_kw x k)) (kwval (threshold_kw x k) (elastic s)) (kwval (threshold_kw x k) (inelastic s)) (part k s)).
  { intros s. destruct (part k s) as [|n0 l] eqn:Q; [destruct (part_nonempty k s Q)|]. destruct (threshold_values x k s n0) as (-> & -> & _); [rewrite Q; now left|]. rewrite <- Q.
    split; [lra|]. split; [lra|]. intros n I. destruct (threshold_values x k s n I) as (_ & _ & -> & ->). apply A. destruct (String.eqb n "rho_prime"); lra. }
  split; [exact (S true)|exact (S false)].
Qed.

Lemma threshold_call : forall x k ch m, 1 <= x -> Kaon_init (kaon_class k) ch (threshold_kw x k) = Ok m -> exists v, Kaon_call m (RtoC 100) = Ok v.
Proof.
  intros x k ch m X I. assert (S : forall s, exists y, sector k (threshold_kw x k) s (RtoC 100) = Ok y).
  { intros s. assert (V := sector_valid _ _ _ _ s I). unfold sector.
    destruct (part k s) as [|n0 l] eqn:Q; [destruct (part_nonempty k s Q)|]. destruct (threshold_values x k s n0) as (-> & -> & _); [rewrite Q; now left|]. rewrite <- Q.
    destruct (threshold_values x k s n0) as (B1 & B2 & _); [rewrite Q; now left|]. rewrite B1, B2, <- Q in V.
    destruct (sector_eval_cases 1 4 ltac:(lra) ltac:(lra) _ (RtoC 100) (proj2 V)) as [([Y|Y] & _)|(_ & _ & Y)]; [apply RtoC_inj in Y; lra| |eexists; exact Y].
    exfalso. apply Exists_exists in Y as (r & IR & AP). unfold spec_sector in IR. apply in_map_iff in IR as ((a & n) & <- & IR). apply in_combine_r in IR.
    destruct (threshold_values x k s n IR) as (_ & _ & V1 & V2). unfold r_m, r_g in AP. cbn [fst snd] in AP. rewrite V1, V2 in AP.
    unfold at_pole in AP. rewrite resonance_pole_eq in AP. unfold resonance_pole in AP. destruct AP as [AP|AP]; apply (f_equal Im) in AP; cbn in AP; destruct (String.eqb n "rho_prime"); lra. }
  destruct (S true) as (y & Y). destruct (S false) as (z & Z). eexists. refine (proj2 (call_sectors _ _ _ _ _ I) y z _ Y Z). cbn. lra.
Qed.

Lemma threshold_not : forall x k s n, x * x <> 4 -> In n (part k s) -> ~ at_threshold (threshold_kw x k) s n.
Proof. intros x k s n X I. unfold at_threshold. destruct (threshold_values x k s n I) as (_ & -> & _ & ->). destruct (String.eqb n "rho_prime"); lra. Qed.

Example C68_instance_continuous : forall k ch, exists m v, Kaon_init (kaon_class k) ch (threshold_kw (5/2) k) = Ok m /\ Kaon_call m (RtoC 100) = Ok v /\
  forall eps, 0 < eps -> exists d, 0 < d /\ forall kw' m', nearby d k (threshold_kw (5/2) k) kw' -> Kaon_init (kaon_class k) ch kw' = Ok m' ->
    exists v', Kaon_call m' (RtoC 100) = Ok v' /\ Cabs (Csub v' v) < eps.
Proof.
  intros k ch. destruct (threshold_accepted (5/2) k ch ltac:(lra)) as (m & I). destruct (threshold_call (5/2) k ch m ltac:(lra) I) as (v & E).
  exists m, v. split; [exact I|]. split; [exact E|]. apply (C68_continuous k ch _ m _ v I E). intros s n J. apply threshold_not; [lra|exact J].
Qed.

(** The form factors are not continuous in the parameters the constructors accept. *)
Theorem C68_continuous_refuted : forall k ch, exists kw m t v, Kaon_init (kaon_class k) ch kw = Ok m /\ Kaon_call m t = Ok v /\
  exists eps, 0 < eps /\ forall d, 0 < d -> exists kw' m' v',
    nearby d k kw kw' /\ Kaon_init (kaon_class k) ch kw' = Ok m' /\ Kaon_call m' t = Ok v' /\ eps <= Cabs (Csub v' v).
Proof.
  intros k ch. destruct (threshold_accepted 2 k ch ltac:(lra)) as (m & I). destruct (threshold_call 2 k ch m ltac:(lra) I) as (v & E).
  exists (threshold_kw 2 k), m, (RtoC 100), v. split; [exact I|]. split; [exact E|].
  assert (IN : In "rho_prime" (part k false)) by (destruct k; cbn; tauto).
  assert (Q : exists i, nth_error (part k false) i = Some "rho_prime" /\ nth_error (spec_couplings (kwval (threshold_kw 2 k)) (part k false)) i = Some (1/7)).
  { assert (W : kwval (threshold_kw 2 k) "a_rho_prime" = 1/7) by (rewrite threshold_kwval by (destruct k; inkw); reflexivity).
    rewrite <- W. generalize (kwval (threshold_kw 2 k)). intros P. destruct k; [exists 1%nat|exists 1%nat|exists 0%nat]; split; reflexivity. }
  destruct Q as (i & Q1 & Q2).
  destruct (C68_jump k ch false _ m (RtoC 100) v i "rho_prime" (1/7) I E) as (J & J0 & L); [intros Q; apply RtoC_inj in Q; lra|exact Q1|exact Q2|lra| |].
  { unfold at_threshold. destruct (threshold_values 2 k false _ IN) as (_ & -> & _ & ->). cbn. lra. }
  assert (JP := Cabs_pos J J0). exists (Cabs J / 2). split; [lra|]. intros d D.
  destruct (L (Cabs J / 2) ltac:(lra)) as (d0 & D0 & LL). set (e := Rmin (Rmin d d0) 1 / 2).
  assert (M1 : Rmin (Rmin d d0) 1 <= 1) by apply Rmin_r. assert (M2 : Rmin (Rmin d d0) 1 <= Rmin d d0) by apply Rmin_l.
  assert (M3 := Rmin_l d d0). assert (M4 := Rmin_r d d0).
  assert (EP : 0 < e) by (unfold e; assert (0 < Rmin (Rmin d d0) 1) by (repeat apply Rmin_pos; lra); lra).
  destruct (threshold_accepted (2 - e) k ch ltac:(unfold e; lra)) as (m' & I').
  destruct (threshold_values (2 - e) k false _ IN) as (_ & _ & _ & W'). destruct (threshold_values 2 k false _ IN) as (_ & W0 & _ & W).
  change (String.eqb "rho_prime" "rho_prime") with true in W, W'. cbv iota in W, W'.
  destruct (LL (threshold_kw (2 - e) k) m') as (v' & E' & _ & L2).
  - intros x X. apply threshold_other. exact X.
  - rewrite W, W'. replace (2 - e - 2) with (- e) by ring. rewrite Rabs_Ropp, Rabs_pos_eq by lra. unfold e in *. lra.
  - exact I'.
  - exists (threshold_kw (2 - e) k), m', v'. split; [|split; [exact I'|split; [exact E'|]]].
    + split.
      * intros x X. apply threshold_other. intros ->. cbn in X. repeat (destruct X as [X|X]; [discriminate X|]). exact X.
      * intros x X. destruct (String.string_dec x "mass_rho_prime") as [->|N].
        -- change "mass_rho_prime" with ("mass_" ++ "rho_prime")%string. rewrite W, W'. replace (2 - e - 2) with (- e) by ring. rewrite Rabs_Ropp, Rabs_pos_eq by lra. unfold e in *. lra.
        -- rewrite (threshold_other (2 - e) 2 k x N), Rminus_diag_eq, Rabs_R0 by reflexivity. exact D.
    + assert (LT := L2 ltac:(rewrite W0, W'; unfold e in *; nra)).
      replace (Csub v' v) with (Csub J (Copp (Csub v' (Cadd v J)))) by ring. pose proof (Cabs_triangle_rev J (Copp (Csub v' (Cadd v J)))) as TR. rewrite Cabs_opp in TR. lra.
Qed.
Print Assumptions C68_continuous_refuted.
