(** The random choice of free parameters. *)
From Coq Require Import String Ascii Reals ZArith List Bool Arith Lia.
From Verif Require Import PyBase CNum PyExpr Params ParamClasses ParamSpec ParamProofs PropsParams CommonUtils World WorldProofs DataSets
  Task TaskSpec TaskProofs Pipeline PipelineSpec PipelineReports.
Import ListNotations.
Local Open Scope list_scope.
Local Open Scope m_scope.

(** ** Stores with given flags *)

Definition flagged (fixed : string -> bool) (d : data) : data :=
  map (fun p => mkPar (par_name p) (par_value p) (fixed (par_name p))) d.

Lemma flagged_names : forall f d, names (flagged f d) = names d.
Proof. intros f d. unfold names, flagged. rewrite map_map. reflexivity. Qed.

Lemma flagged_values : forall f d, map par_value (flagged f d) = map par_value d.
Proof. intros f d. unfold flagged. rewrite map_map. reflexivity. Qed.

Lemma flagged_flagged : forall f g d, flagged f (flagged g d) = flagged f d.
Proof. intros f g d. unfold flagged. rewrite map_map. reflexivity. Qed.

Lemma flagged_ext : forall f g d, (forall n, In n (names d) -> f n = g n) -> flagged f d = flagged g d.
Proof. intros f g d H. unfold flagged. apply map_ext_in. intros p I. rewrite H; [reflexivity|]. now apply in_map. Qed.

Lemma flagged_free : forall f d, free_names_of (flagged f d) = filter (fun n => negb (f n)) (map par_name d).
Proof.
  intros f d. unfold free_names_of, flagged. induction d as [|p d IH]; [reflexivity|]. simpl.
  destruct (f (par_name p)); simpl; now rewrite IH.
Qed.

Lemma flagged_inv : forall c f d, inv c d -> (forall n, In n (must_stay_fixed c) -> f n = true) -> inv c (flagged f d).
Proof.
  intros c f d (N & A) H. split; [now rewrite flagged_names|]. intros p I F. apply in_map_iff in I. destruct I as (q & <- & Q).
  simpl in *. apply H. now apply must_stay_fixed_eq.
Qed.

Lemma available_flagged : forall c b f d, available c b (flagged f d) = available c b d.
Proof. intros c b f d. unfold available. fold (names (flagged f d)). now rewrite flagged_names. Qed.

Lemma available_names : forall c b d d', names d' = names d -> available c b d' = available c b d.
Proof. intros c b d d' H. unfold available. fold (names d') (names d). now rewrite H. Qed.

(** Fixed: what must stay so, and resonances if asked. *)
Definition held (c : param_class) (b : bool) (n : string) : bool :=
  orb (member n (must_stay_fixed c)) (andb b (resonance_parameter n)).

Lemma held_available : forall c b d, free_names_of (flagged (held c b) d) = available c b d.
Proof.
  intros c b d. rewrite flagged_free. unfold available, held. apply filter_ext. intros n. now rewrite negb_orb.
Qed.

Lemma release_all_flagged : forall c d, inv c d -> release_all (always_fixed c) d = flagged (held c false) d.
Proof.
  intros c d (_ & A). unfold release_all, flagged. apply map_ext_in. intros p I. unfold held. simpl. rewrite orb_false_r, member_str_in.
  destruct (str_in (par_name p) (always_fixed c)) eqn:E; [|reflexivity].
  rewrite <- (A p I) by now apply str_in_In. now destruct p.
Qed.

(** The listed resonance parameters are exactly those with such a name. *)
Definition resonances_ok (c : param_class) : bool :=
  match ct_fix_resonances (table c) with
  | None => no_resonances c
  | Some l => andb (negb (no_resonances c)) (forallb (fun n => Bool.eqb (str_in n l) (resonance_parameter n)) (class_names c))
  end.

Lemma all_resonances_ok : forall c, resonances_ok c = true.
Proof. destruct c; vm_compute; reflexivity. Qed.

Lemma resonances_listed : forall c, match ct_fix_resonances (table c) with
  | None => no_resonances c = true
  | Some l => no_resonances c = false /\ (forall n, In n l -> In n (class_names c)) /\
              forall n, In n (class_names c) -> str_in n l = resonance_parameter n
  end.
Proof.
  intros c. pose proof (all_resonances_ok c) as H. unfold resonances_ok in H.
  destruct (ct_facts _ (tables_ok c)) as (_ & _ & _ & _ & _ & _ & _ & F & _).
  destruct (ct_fix_resonances (table c)) as [l|]; [|exact H]. apply andb_prop in H as [H1 H2]. apply negb_true_iff in H1.
  split; [exact H1|]. split; [now apply F|]. intros n I. rewrite forallb_forall in H2. apply eqb_prop. now apply H2.
Qed.

Lemma fix_resonances_flagged : forall c d, inv c d ->
  mutate c MFixResonances (flagged (held c false) d) =
  if no_resonances c then (Err AttributeError, flagged (held c false) d) else (Ok tt, flagged (held c true) d).
Proof.
  intros c d (N & A). pose proof (resonances_listed c) as H. cbn [mutate]. unfold fix_resonances, fix_resonances_table.
  destruct (ct_fix_resonances (table c)) as [l|]; [|now rewrite H].
  destruct H as (-> & K & E). unfold fix_parameters. rewrite set_flags_known.
  - f_equal. unfold flagged. rewrite map_map. apply map_ext_in. intros p I. cbn [par_name].
    rewrite E by (rewrite <- N; now apply in_map). unfold held, with_flag. cbn [par_name par_value andb].
    destruct (resonance_parameter (par_name p)); rewrite ?orb_true_r, ?orb_false_r; reflexivity.
  - rewrite flagged_names, N. apply class_names_NoDup.
  - intros n I. rewrite flagged_names, N. now apply K.
Qed.

Lemma fix_all_flagged : forall f d, fix_all (flagged f d) = flagged (fun _ => true) d.
Proof. intros f d. unfold fix_all, flagged. rewrite map_map. reflexivity. Qed.

Lemma release_flagged : forall c d l, inv c d -> (forall n, In n l -> In n (available c false d)) ->
  mutate c (MRelease l) (flagged (fun _ => true) d) = (Ok tt, flagged (fun n => negb (member n l)) d).
Proof.
  intros c d l (N & A) H. cbn [mutate]. unfold release_parameters.
  assert (X : existsb (fun n => str_in n (always_fixed c)) l = false).
  { destruct (existsb _ l) eqn:E; [|reflexivity]. apply existsb_exists in E as (n & I & E). specialize (H n I).
    unfold available in H. apply filter_In in H as [_ H]. rewrite member_str_in, E in H. discriminate. }
  rewrite X, set_flags_known.
  - f_equal. unfold flagged. rewrite map_map. apply map_ext. intros p. cbn [par_name].
    replace (str_in (par_name p) l) with (member (par_name p) l) by (apply eq_iff_eq_true; now rewrite member_In, str_in_In).
    destruct (member (par_name p) l); reflexivity.
  - rewrite flagged_names, N. apply class_names_NoDup.
  - intros n I. specialize (H n I). unfold available in H. apply filter_In in H. rewrite flagged_names. apply H.
Qed.

(** ** Choosing *)

Lemma remove_at_nth : forall l i x, nth_error l i = Some x ->
  exists a b, l = a ++ x :: b /\ remove_at i l = a ++ b.
Proof.
  induction l as [|y l IH]; intros [|i] x H; try discriminate.
  - injection H as ->. now exists [], l.
  - destruct (IH i x H) as (a & b & -> & E). exists (y :: a), b. simpl. now rewrite E.
Qed.

Lemma nth_index : forall (l : list string) i, l <> [] -> exists x, nth_error l (Nat.modulo i (length l)) = Some x /\ nth (Nat.modulo i (length l)) l ""%string = x.
Proof.
  intros l i N. assert (L : (Nat.modulo i (length l) < length l)%nat) by (apply Nat.mod_upper_bound; destruct l; simpl; congruence).
  destruct (nth_error l (Nat.modulo i (length l))) as [x|] eqn:E.
  - exists x. split; [reflexivity|]. now apply nth_error_nth.
  - apply nth_error_None in E. lia.
Qed.

Lemma pick_spec : forall k picks l, (k <= length l)%nat -> NoDup l ->
  length (pick k picks l) = k /\ NoDup (pick k picks l) /\ incl (pick k picks l) l.
Proof.
  induction k as [|k IH]; intros picks l L ND; [split; [reflexivity|split; [constructor|intros x []]]|].
  cbn [pick]. destruct (nth_index l (hd O picks)) as (x & E & E'); [destruct l; simpl in L; [lia|discriminate]|].
  rewrite E'. destruct (remove_at_nth _ _ _ E) as (a & b & El & Er). rewrite Er.
  assert (ND' : NoDup (a ++ b) /\ ~ In x (a ++ b)) by (rewrite El in ND; apply NoDup_remove in ND; exact ND).
  destruct ND' as [ND' NI].
  destruct (IH (tl picks) (a ++ b)) as (A & B & C); [|exact ND'|].
  { rewrite El, app_length in L. simpl in L. rewrite app_length. lia. }
  split; [simpl; now rewrite A|]. split.
  - constructor; [|exact B]. intros I. apply NI. now apply C.
  - intros y [<-|I]; rewrite El; apply in_app_iff.
    + right. now left.
    + apply C in I. apply in_app_iff in I. destruct I; [now left|right; now right].
Qed.

(** Every choice without repetitions is possible. *)
Lemma pick_all : forall s l, NoDup l -> NoDup s -> incl s l -> exists picks, pick (length s) picks l = s.
Proof.
  induction s as [|x s IH]; intros l NL NS I; [now exists []|].
  assert (Ix : In x l) by (apply I; now left). destruct (In_nth_error _ _ Ix) as (i & E).
  destruct (remove_at_nth _ _ _ E) as (a & b & El & Er).
  assert (L : (i < length l)%nat) by (apply nth_error_Some; congruence).
  inversion NS as [|? ? N1 N2]; subst x0 l0.
  destruct (IH (a ++ b)) as (picks & P).
  - rewrite El in NL. now apply NoDup_remove_1 in NL.
  - exact N2.
  - intros y Y. assert (Iy : In y l) by (apply I; now right). rewrite El in Iy. apply in_app_iff in Iy.
    destruct Iy as [Iy|[->|Iy]]; [apply in_app_iff; now left|contradiction|apply in_app_iff; now right].
  - exists (i :: picks). cbn [length pick hd tl]. rewrite Nat.mod_small by exact L. rewrite Er, P. f_equal.
    now apply nth_error_nth.
Qed.

(** ** The method *)

Lemma bind_run : forall S A B (x : M S A) (f : A -> M S B) s, mbind x f s = match x s with (Ok a, s') => f a s' | (Err e, s') => (Err e, s') end.
Proof. reflexivity. Qed.

Lemma mutate_parameters_eq : forall m p w d, nth_error (w_lists w) (r_data (pl_parameters p)) = Some d ->
  mutate_parameters m (p, w) =
  (fst (mutate (r_class (pl_parameters p)) m d),
   (p, set_lists (replace (w_lists w) (r_data (pl_parameters p)) (snd (mutate (r_class (pl_parameters p)) m d))) w)).
Proof.
  intros m p w d H. unfold mutate_parameters. rewrite bind_run. cbn [this fst]. unfold onW. cbn [snd].
  now rewrite (obj_mutate_eq _ _ _ _ H).
Qed.

Definition count_sample (w : World) : World := mkWorld (w_lists w) (w_draws w) (S (w_samples w)) (w_fits w) (w_events w).

Definition out_of_range (k : Z) (n : nat) : bool := orb (Z.ltb k 0) (Z.ltb (Z.of_nat n) k).

Section Freeze.
Variables (o : Oracle) (p : Pipeline) (w : World) (d : data).
Let r := pl_parameters p.
Let c := r_class r.
Let h := w_lists w.
Hypothesis stored : nth_error h (r_data r) = Some d.
Hypothesis invariant : inv c d.

Definition with_store (d' : data) : World := set_lists (replace h (r_data r) d') w.

Lemma with_store_nth : forall d', nth_error (w_lists (with_store d')) (r_data r) = Some d'.
Proof. intros d'. simpl. eapply nth_replace_same. exact stored. Qed.

Lemma step_mutate : forall m d1, mutate_parameters m (p, with_store d1) =
  (fst (mutate c m d1), (p, with_store (snd (mutate c m d1)))).
Proof.
  intros m d1. rewrite (mutate_parameters_eq m p _ _ (with_store_nth d1)). unfold with_store, r, c. simpl.
  rewrite replace_replace. reflexivity.
Qed.

Theorem freeze_eq : forall k b,
  randomly_freeze_parameters o k b (p, w) =
  if andb b (no_resonances c) then (Err AttributeError, (p, with_store (flagged (held c false) d)))
  else let l := available c b d in
       let k' := freed (pl_kind p) k (length l) in
       if out_of_range k' (length l) then (Err ValueError, (p, with_store (flagged (held c b) d)))
       else let chosen := pick (Z.to_nat k') (o_sample o (w_samples w)) l in
            (Ok chosen, (p, count_sample (with_store (flagged (fun n => negb (member n chosen)) d)))).
Proof.
  intros k b. unfold randomly_freeze_parameters.
  assert (W0 : w = with_store d) by (unfold with_store; rewrite (replace_id _ _ _ stored); unfold h; now rewrite set_lists_same).
  rewrite bind_run. rewrite W0 at 1. rewrite step_mutate. cbn [mutate fst snd].
  rewrite (release_all_flagged c d invariant).
  assert (F : (if b then mutate_parameters MFixResonances else ret tt) (p, with_store (flagged (held c false) d)) =
    if andb b (no_resonances c) then (Err AttributeError, (p, with_store (flagged (held c false) d)))
    else (Ok tt, (p, with_store (flagged (held c b) d)))).
  { destruct b; [|reflexivity]. rewrite step_mutate, (fix_resonances_flagged c d invariant). simpl andb. now destruct (no_resonances c). }
  destruct (andb b (no_resonances c)); [now rewrite (mbind_err _ _ _ _ _ _ _ _ F)|]. rewrite (mbind_ok _ _ _ _ _ _ _ _ F).
  set (d2 := flagged (held c b) d). erewrite mbind_ok by reflexivity. cbn [fst].
  assert (RD : onW (obj_read (pl_parameters p) (fun d => Ok (map par_name (filter (fun par => negb (par_fixed par)) d)))) (p, with_store d2)
    = (Ok (available c b d), (p, with_store d2))).
  { unfold onW, obj_read. cbn [snd]. rewrite (mbind_ok _ _ _ _ _ _ _ _ (read_ok _ _ _ (with_store_nth d2))). unfold lift. cbn [fst snd].
    rewrite <- (held_available c b d). reflexivity. }
  rewrite (mbind_ok _ _ _ _ _ _ _ _ RD). clear RD F. set (l := available c b d). cbv zeta.
  change (match pl_kind p with NucleonCS => Z.min (Z.of_nat (length l)) k | _ => k end) with (freed (pl_kind p) k (length l)).
  set (k' := freed (pl_kind p) k (length l)). set (chosen := pick (Z.to_nat k') (o_sample o (w_samples w)) l).
  assert (SM : onW (sample o l k') (p, with_store d2) =
    if out_of_range k' (length l) then (Err ValueError, (p, with_store d2)) else (Ok chosen, (p, count_sample (with_store d2)))).
  { unfold onW, sample. fold (out_of_range k' (length l)). cbn [snd fst]. destruct (out_of_range k' (length l)); reflexivity. }
  destruct (out_of_range k' (length l)) eqn:OR; [now rewrite (mbind_err _ _ _ _ _ _ _ _ SM)|]. rewrite (mbind_ok _ _ _ _ _ _ _ _ SM).
  assert (CH : forall n, In n chosen -> In n (available c false d)).
  { unfold chosen. intros n I. destruct (pick_spec (Z.to_nat k') (o_sample o (w_samples w)) l) as (_ & _ & C).
    - unfold out_of_range in OR. apply orb_false_iff in OR as [O1 O2]. apply Z.ltb_ge in O1, O2. lia.
    - unfold l, available. apply NoDup_filter. fold (names d). destruct invariant as [-> _]. apply class_names_NoDup.
    - apply C in I. unfold l, available in *. apply filter_In in I as [I1 I2]. apply filter_In. split; [exact I1|].
      apply andb_prop in I2 as [I2 _]. now rewrite I2. }
  assert (X : forall m d1, mutate_parameters m (p, count_sample (with_store d1)) =
    (fst (mutate c m d1), (p, count_sample (with_store (snd (mutate c m d1)))))).
  { intros m d1. rewrite (mutate_parameters_eq m p _ d1) by exact (with_store_nth d1). unfold count_sample, with_store, r, c. simpl.
    rewrite replace_replace. reflexivity. }
  pose proof (X MFixAll d2) as X1. cbn [mutate fst snd] in X1. unfold d2 in X1 at 2. rewrite fix_all_flagged in X1.
  rewrite (mbind_ok _ _ _ _ _ _ _ _ X1).
  pose proof (X (MRelease chosen) (flagged (fun _ => true) d)) as X2. rewrite (release_flagged c d chosen invariant CH) in X2.
  rewrite (mbind_ok _ _ _ _ _ _ _ _ X2). reflexivity.
Qed.
End Freeze.

Lemma available_NoDup : forall c b d, inv c d -> NoDup (available c b d).
Proof. intros c b d [N _]. unfold available. apply NoDup_filter. fold (names d). rewrite N. apply class_names_NoDup. Qed.

(** Freed are exactly the chosen ones. *)
Lemma chosen_free : forall c d l b, inv c d -> NoDup l -> incl l (available c b d) ->
  length (free_names_of (flagged (fun n => negb (member n l)) d)) = length l /\
  (forall n, In n (free_names_of (flagged (fun n => negb (member n l)) d)) <-> In n l).
Proof.
  intros c d l b I NL IN. rewrite flagged_free.
  assert (E : forall n, In n (filter (fun n => negb (negb (member n l))) (map par_name d)) <-> In n l).
  { intros n. rewrite filter_In, negb_involutive, member_In. split; [tauto|]. intros H. split; [|exact H].
    apply IN in H. unfold available in H. now apply filter_In in H. }
  split; [|exact E]. apply Nat.le_antisymm; apply NoDup_incl_length.
  - apply NoDup_filter. fold (names d). destruct I as [-> _]. apply class_names_NoDup.
  - intros n. apply E.
  - exact NL.
  - intros n. apply E.
Qed.
