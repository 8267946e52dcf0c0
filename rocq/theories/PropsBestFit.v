(** C71: within finite bounds a best fit exists. *)
From Coq Require Import String Reals Bool Arith List Lra Lia Permutation Classical_Prop.
From Verif Require Import PyBase CNum UAMaps UAComponents PyExpr UAModels Nucleon OtherModels Params ParamClasses ParamProofs ParamSpec BoundsProofs CrossSections CommonUtils
  ExprProofs KaonProofs SectorProofs KaonSpec PropsKaon PropsKaon2 NucleonProofs NucleonSpec PropsNucleon2
  UtilsSpec UtilsProofs PropsUtils PropsBounds PropsCouplings WorldSpec PropsParams
  Masses PropsMasses Limits PropsBranchPoints PropsFitFunctions.
Import ListNotations.
Local Open Scope R_scope.
Local Open Scope py_scope.
Local Open Scope string_scope.
Local Open Scope list_scope.

#[local] Arguments String.append : simpl never.

(** ** Specification *)

(** Values between lower and upper bounds. *)
Definition in_box (box : list (R * R)) (x : list R) : Prop := Forall2 (fun b y => fst b <= y <= snd b) box x.

(** Values in the box whose weighted sum of squares no other values in the box improve on. *)
Definition best_in (box : list (R * R)) (f : list R -> Res (list R)) (measured : list (R * R)) (best : list R) : Prop :=
  in_box box best /\ exists rs, f best = Ok rs /\ forall x rs', in_box box x -> f x = Ok rs' -> squares measured rs <= squares measured rs'.

(** ** Boxes are compact *)

Lemma interval_bound : forall a b (H : R -> R -> Prop), (forall y c c', 0 < c' <= c -> H y c -> H y c') ->
  (forall y, a <= y <= b -> exists d, 0 < d /\ forall y', a <= y' <= b -> Rabs (y' - y) < d -> H y' d) ->
  exists c, 0 < c /\ forall y, a <= y <= b -> H y c.
Proof.
  intros a b H M L. destruct (Rle_dec a b) as [AB|AB]; [|exists 1; split; [lra|]; intros y Y; lra].
  set (E := fun z => a <= z <= b /\ exists c, 0 < c /\ forall y, a <= y <= z -> H y c).
  assert (Ea : E a).
  { split; [lra|]. destruct (L a ltac:(lra)) as (d & D & Q). exists d. split; [exact D|]. intros y Y. apply Q; [lra|]. replace (y - a) with 0 by lra. now rewrite Rabs_R0. }
  destruct (completeness E) as (s & U & S); [exists b; intros z (Z & _); lra|now exists a|].
  assert (SA : a <= s) by (now apply U). assert (SB : s <= b) by (apply S; intros z (Z & _); lra).
  destruct (L s ltac:(lra)) as (d & D & Q).
  assert (Z : exists z, E z /\ s - d < z).
  { apply NNPP. intros N. assert (s <= s - d); [|lra]. apply S. intros z Ez. apply Rnot_lt_le. intros K. apply N. now exists z. }
  destruct Z as (z & (Z & c & C0 & Hc) & Zs). assert (Zu : z <= s) by (apply U; split; [exact Z|now exists c]).
  assert (STEP : forall w, a <= w <= b -> w < s + d -> exists c, 0 < c /\ forall y, a <= y <= w -> H y c).
  { intros w W K. exists (Rmin c d). assert (P : 0 < Rmin c d) by (now apply Rmin_pos). split; [exact P|]. intros y Y. destruct (Rle_dec y z) as [J|J].
    - apply M with c; [split; [exact P|apply Rmin_l]|apply Hc; lra].
    - apply M with d; [split; [exact P|apply Rmin_r]|apply Q; [lra|]]. apply Rabs_def1; lra. }
  destruct (Rle_dec b s) as [J|J]; [apply STEP; lra|]. exfalso.
  assert (X : a <= Rmin b (s + d/2) <= b) by (split; [apply Rmin_glb; lra|apply Rmin_l]). assert (X' := Rmin_r b (s + d/2)).
  assert (E (Rmin b (s + d/2))) by (split; [exact X|apply STEP; [exact X|lra]]). assert (K : Rmin b (s + d/2) <= s) by (now apply U).
  unfold Rmin in K. destruct (Rle_dec b (s + d/2)); lra.
Qed.

Lemma box_bound : forall box (G : list R -> R -> Prop), (forall x c c', 0 < c' <= c -> G x c -> G x c') ->
  (forall p, in_box box p -> exists d, 0 < d /\ forall x, in_box box x -> Forall2 (fun u v => Rabs (v - u) < d) p x -> G x d) ->
  exists c, 0 < c /\ forall x, in_box box x -> G x c.
Proof.
  induction box as [|(a & b) box IH]; intros G M L.
  - destruct (L [] ltac:(constructor)) as (d & D & Q). exists d. split; [exact D|]. intros x X. apply Q; [exact X|]. inversion X. constructor.
  - destruct (interval_bound a b (fun y c => forall x, in_box box x -> G (y :: x) c)) as (c & C0 & H).
    + intros y c c' K Q x X. apply M with c; [exact K|now apply Q].
    + intros y Y. destruct (IH (fun x c => forall y', a <= y' <= b -> Rabs (y' - y) < c -> G (y' :: x) c)) as (d & D & Q).
      * intros x c c' K Q y' Y' N. apply M with c; [exact K|]. apply Q; [exact Y'|lra].
      * intros p P. destruct (L (y :: p)) as (d & D & Q); [constructor; [exact Y|exact P]|]. exists d. split; [exact D|]. intros x X N y' Y' N'. apply Q; [constructor; [exact Y'|exact X]|]. now constructor.
      * exists d. split; [exact D|]. intros y' Y' N x X. now apply Q.
    + exists c. split; [exact C0|]. intros x X. inversion X as [|? y ? x' Y X']; subst. now apply H.
Qed.

Lemma closer : forall d e p x, d <= e -> Forall2 (fun u v => Rabs (v - u) < d) p x -> Forall2 (fun u v => Rabs (v - u) < e) p x.
Proof. intros d e p x L N. induction N as [|u v p x Q N IH]; constructor; [lra|exact IH]. Qed.

(** A continuous function attains its minimum. *)
Lemma minimum : forall box (F : list R -> R), (exists x, in_box box x) ->
  (forall p, in_box box p -> forall eps, 0 < eps -> exists d, 0 < d /\ forall x, in_box box x -> Forall2 (fun u v => Rabs (v - u) < d) p x -> Rabs (F x - F p) < eps) ->
  exists p, in_box box p /\ forall x, in_box box x -> F p <= F x.
Proof.
  intros box F (x0 & X0) L.
  destruct (box_bound box (fun x c => - / c <= F x)) as (c & C0 & LB).
  { intros x c c' K Q. assert (/ c <= / c') by (apply Rinv_le_contravar; lra). lra. }
  { intros p P. destruct (L p P 1 ltac:(lra)) as (d & D & Q). set (e := / (Rabs (F p) + 1)). assert (A := Rabs_pos (F p)). assert (E0 : 0 < e) by (apply Rinv_0_lt_compat; lra).
    exists (Rmin d e). assert (M0 : 0 < Rmin d e) by (now apply Rmin_pos). split; [exact M0|]. intros x X N.
    assert (N' : Forall2 (fun u v => Rabs (v - u) < d) p x).
    { now apply closer with (Rmin d e); [apply Rmin_l|]. }
    specialize (Q x X N'). apply Rabs_def2 in Q. assert (K : / e <= / Rmin d e) by (apply Rinv_le_contravar; [exact M0|apply Rmin_r]). unfold e in K at 1. rewrite Rinv_inv in K.
    assert (B := Rle_abs (- F p)). rewrite Rabs_Ropp in B. lra. }
  set (E := fun z => exists x, in_box box x /\ z = - F x).
  destruct (completeness E) as (s & U & S); [exists (/ c); intros z (x & X & ->); specialize (LB x X); lra|now exists (- F x0), x0|].
  apply NNPP. intros N.
  assert (ST : forall p, in_box box p -> - s < F p).
  { intros p P. assert (K : - F p <= s) by (apply U; now exists p). destruct (Req_dec (F p) (- s)) as [J|J]; [|lra]. exfalso. apply N. exists p. split; [exact P|]. intros x X.
    assert (- F x <= s) by (apply U; now exists x). lra. }
  destruct (box_bound box (fun x c => - s + c <= F x)) as (c1 & C1 & Q).
  { intros x c1 c' K Q. lra. }
  { intros p P. assert (T := ST p P). destruct (L p P ((F p + s)/2) ltac:(lra)) as (d & D & Q). set (e := (F p + s)/2) in *. assert (E0 : 0 < e) by (unfold e; lra).
    exists (Rmin d e). split; [now apply Rmin_pos|]. intros x X K.
    assert (K' : Forall2 (fun u v => Rabs (v - u) < d) p x).
    { now apply closer with (Rmin d e); [apply Rmin_l|]. }
    specialize (Q x X K'). apply Rabs_def2 in Q. assert (J := Rmin_r d e). unfold e in *. lra. }
  assert (s <= s - c1); [|lra]. apply S. intros z (x & X & ->). specialize (Q x X). lra.
Qed.

(** ** Best fits *)

Theorem C71_best_fit : forall c d k ts box,
  reachable c d -> closure_over c d k -> (exists x, in_box box x) ->
  (forall x, in_box box x -> exists d1 rs, update_free_values x d = (Ok tt, d1) /\ off_thresholds c d1 /\ closure_result k ts x = Ok rs) ->
  forall measured, exists best, best_in box (closure_result k ts) measured best.
Proof.
  intros c d k ts box R K NE H measured.
  set (F := fun x => match closure_result k ts x with Ok rs => squares measured rs | Err _ => 0 end).
  destruct (minimum box F NE) as (best & IB & MIN).
  - intros p P eps EP. destruct (H p P) as (d1 & rs & U & T & E). destruct (C70_closures c d k p d1 ts rs R K U T E eps EP measured) as (delta & D & L). exists delta. split; [exact D|].
    intros x X N. destruct (H x X) as (d1' & rs' & U' & _ & E'). destruct (L x d1' N U') as (rs'' & E'' & _ & Q).
    + assert (LE : length x = count_free d) by (destruct (Nat.eq_dec (length x) (count_free d)) as [J|J]; [exact J|rewrite (update_free_bad _ _ J) in U'; discriminate U']).
      rewrite (update_free_ok _ _ LE) in U'. assert (D1 : d1' = fill d x) by (now injection U'). rewrite D1.
      assert (W : with_free_values x (c, d) = Ok (c, fill d x)) by (unfold with_free_values; cbn [fst snd]; now rewrite LE, Nat.eqb_refl).
      destruct K as [->|(mass & alpha & hc & ->)]; cbn [closure_result] in E'; rewrite W in E'; cbn [bind fst snd] in E'; destruct (buildable c (fill d x)) as [[]|]; (reflexivity || discriminate E').
    + unfold F. rewrite E, E''. exact Q.
  - exists best. split; [exact IB|]. destruct (H best IB) as (d1 & rs & _ & _ & E). exists rs. split; [exact E|]. intros x rs' X E'. specialize (MIN x X). unfold F in MIN. now rewrite E, E' in MIN.
Qed.
Print Assumptions C71_best_fit.

(** If only couplings and magnetic moments are free, it is enough that the function returns at one list of values. *)
Lemma fill_line : forall d args, (forall p, In p d -> par_fixed p = false -> strength (par_name p) = true) -> length args = count_free d ->
  forall n, strength n = false -> val (fill d args) n = val d n.
Proof.
  induction d as [|p d IH]; intros args H L n N; [reflexivity|].
  assert (V : forall q r, val (q :: r) n = if String.eqb (par_name q) n then par_value q else val r n).
  { intros q r. unfold val. cbn. destruct (String.eqb (par_name q) n); reflexivity. }
  assert (H' : forall q, In q d -> par_fixed q = false -> strength (par_name q) = true) by (intros q Q; apply H; now right).
  cbn [fill]. destruct (par_fixed p) eqn:FX.
  - rewrite !V. destruct (String.eqb (par_name p) n); [reflexivity|]. apply IH; try assumption. rewrite L. unfold count_free, is_free. cbn. now rewrite FX.
  - destruct args as [|v args]; [reflexivity|]. rewrite !V. cbn [with_value par_name par_value]. destruct (String.eqb_spec (par_name p) n) as [<-|]; [rewrite (H p (or_introl eq_refl) FX) in N; discriminate N|].
    apply IH; try assumption. unfold count_free, is_free in *. cbn in L. rewrite FX in L. cbn in L. now injection L.
Qed.

Lemma off_same : forall c d d', reachable c d -> (forall n, strength n = false -> val d' n = val d n) -> off_thresholds c d -> off_thresholds c d'.
Proof.
  intros c d d' R V T. unfold off_thresholds in *. destruct (family_of c) as [k| | | |]; try exact T.
  - intros s n I. unfold at_threshold. rewrite !kwval_keywords. assert (Q := T s n I). unfold at_threshold in Q. rewrite !kwval_keywords in Q. rewrite !V; [exact Q| |]; [destruct s; reflexivity|].
    clear - I. destruct k, s; cbn in I; repeat (destruct I as [<-|I]; [reflexivity|]); destruct I.
  - intros s f n I. unfold nucleon_threshold. rewrite !kwval_keywords. assert (Q := T s f n I). unfold nucleon_threshold in Q. rewrite !kwval_keywords in Q. rewrite !V; [exact Q| | |]; [destruct s, f; reflexivity| |];
      (clear - I; destruct s; cbn in I; repeat (destruct I as [<-|I]; [reflexivity|]); destruct I).
Qed.

Theorem C71_couplings : forall c d k ts box x0 d0 rs0,
  reachable c d -> closure_over c d k -> (forall p, In p d -> par_fixed p = false -> strength (par_name p) = true) ->
  off_thresholds c d -> update_free_values x0 d = (Ok tt, d0) -> closure_result k ts x0 = Ok rs0 ->
  length box = count_free d -> Forall (fun b => fst b <= snd b) box ->
  forall measured, exists best, best_in box (closure_result k ts) measured best.
Proof.
  intros c d k ts box x0 d0 rs0 R K ST T U0 E0 LB NE measured. apply (C71_best_fit c d k ts box R K).
  - exists (map fst box). unfold in_box. clear - NE. induction NE as [|b box B NE IH]; constructor; [lra|exact IH].
  - intros x X. assert (LX : length x = count_free d) by (rewrite <- LB; clear - X; induction X; cbn; congruence).
    assert (L0 : length x0 = count_free d) by (destruct (Nat.eq_dec (length x0) (count_free d)) as [J|J]; [exact J|rewrite (update_free_bad _ _ J) in U0; discriminate U0]).
    assert (Rf : forall a, length a = count_free d -> reachable c (fill d a)).
    { intros a La. assert (S := reach_step c d (MUpdateFree a) R). cbn [mutate] in S. now rewrite (update_free_ok _ _ La) in S. }
    assert (V : forall a, length a = count_free d -> forall n, strength n = false -> val (fill d a) n = val d n) by (intros a La; now apply fill_line).
    assert (L : on_line (class_names c) 1 (val (fill d x0)) (val (fill d x)) (val (fill d x))).
    { intros n _. destruct (strength n) eqn:N; [ring|]. rewrite !V by assumption. now split. }
    destruct (C66_convex c 1 _ _ _ (Rf x0 L0) (Rf x LX) (Rf x LX) L ltac:(lra)) as (CF & CC).
    assert (W : forall a, length a = count_free d -> with_free_values a (c, d) = Ok (c, fill d a)) by (intros a La; unfold with_free_values; cbn [fst snd]; now rewrite La, Nat.eqb_refl).
    assert (OK : is_ok (closure_result k ts x)).
    { destruct K as [->|(mass & alpha & hc & ->)]; cbn [closure_result] in E0 |- *; rewrite (W _ L0) in E0; rewrite (W _ LX); cbn [bind fst snd] in E0 |- *.
      - rewrite <- function_form_factor_spec in E0 |- * by (apply reachable_inv; now apply Rf). apply (proj1 (proj1 (CF ts))). now exists rs0.
      - rewrite <- function_cross_section_spec in E0 |- * by (apply reachable_inv; now apply Rf). apply (proj1 (proj1 (CC ts mass alpha hc))). now exists rs0. }
    destruct OK as (rs & E). exists (fill d x), rs. split; [now apply update_free_ok|]. split; [|exact E]. apply (off_same c d); [exact R|now apply V|exact T].
Qed.
Print Assumptions C71_couplings.

(** ** A concrete store *)

(** Resonances and branch points fixed, six couplings free. *)
Definition coupling_store : data :=
  snd (mutate PKaonB (MFix ["t_in_isoscalar"; "t_in_isovector"]) (snd (mutate PKaonB MFixResonances (line_store (1/7))))).

Lemma coupling_store_reachable : reachable PKaonB coupling_store.
Proof. do 2 apply reach_step. apply line_store_reachable. Qed.

Lemma coupling_store_keywords : keywords coupling_store = keywords (line_store (1/7)).
Proof. reflexivity. Qed.

Lemma coupling_store_free : map par_name (filter is_free coupling_store) = ["a_omega"; "a_omega_double_prime"; "a_phi"; "a_phi_prime"; "a_rho"; "a_rho_prime"].
Proof. lazy. reflexivity. Qed.

Lemma keywords_enough : forall c k d d' ts, family_of c = FKaon k -> reachable c d -> reachable c d' -> keywords d' = keywords d ->
  function_form_factor c ts d' = function_form_factor c ts d.
Proof.
  intros c k d d' ts F R R' E. rewrite !function_form_factor_spec by (now apply reachable_inv). unfold buildable. rewrite F, E.
  destruct (Kaon_init (kaon_class k) true (keywords d)); cbn [bind]; [|reflexivity].
  induction ts as [|p ts IH]; [reflexivity|]. cbn [mapM]. rewrite IH. unfold form_factor_at. now rewrite F, E.
Qed.

Example C71_instance : forall measured lo hi, lo <= hi -> exists best, length best = 6%nat /\
  best_in (repeat (lo, hi) 6) (closure_result (FormFactorOf (PKaonB, coupling_store)) [KaonDatapoint (RtoC 5) true; Row [RtoC 5; RtoC 0]]) measured best.
Proof.
  intros measured lo hi L. destruct C26_instance as (y & z & E & _). change demo_store with (line_store (1/7)) in E.
  rewrite <- (keywords_enough PKaonB ReducedB (line_store (1/7)) coupling_store _ eq_refl (line_store_reachable _) coupling_store_reachable coupling_store_keywords) in E.
  rewrite <- (closure_at_store _ _ _ coupling_store_reachable) in E.
  assert (CF : count_free coupling_store = 6%nat) by (unfold count_free; rewrite <- (map_length par_name), coupling_store_free; reflexivity).
  destruct (C71_couplings PKaonB coupling_store (FormFactorOf (PKaonB, coupling_store)) [KaonDatapoint (RtoC 5) true; Row [RtoC 5; RtoC 0]] (repeat (lo, hi) 6)
    (get_free_values coupling_store) coupling_store [y; z]) with (measured := measured) as (best & BB); try exact E.
  - exact coupling_store_reachable.
  - now left.
  - intros p I FX. assert (J : In (par_name p) (map par_name (filter is_free coupling_store))) by (apply in_map, filter_In; split; [exact I|unfold is_free; now rewrite FX]).
    rewrite coupling_store_free in J. cbn in J. repeat (destruct J as [<-|J]; [reflexivity|]). destruct J.
  - intros s n I. unfold at_threshold. rewrite coupling_store_keywords. exact (line_off (1/7) s n I).
  - apply C03_write_back_is_noop.
  - rewrite CF. reflexivity.
  - apply Forall_forall. intros b B. apply repeat_spec in B. subst b. exact L.
  - exists best. split; [|exact BB]. destruct BB as (IB & _). assert (Q : length (repeat (lo, hi) 6) = length best) by (clear - IB; unfold in_box in IB; induction IB; cbn; congruence). symmetry. exact Q.
Qed.
