(** Lemmas about [perturb_model_parameters]. *)
From Coq Require Import String Reals List Bool Arith Lia Lra.
From Verif Require Import PyBase CNum PyExpr ExprProofs KaonProofs KaonSpec Params ParamClasses ParamProofs ParamSpec
  BoundsProofs PropsParams PropsParams2 CommonUtils.
Import ListNotations.
Local Open Scope R_scope.
Local Open Scope py_scope.
Local Open Scope string_scope.
Local Open Scope list_scope.

(** The new value when the bounds are on the right side. *)
Definition valueT (lower : ext) (old : R) (upper : ext) (rnd ps : R) : R :=
  match get_perturbed_value lower old upper rnd ps with Ok v => v | Err _ => 0 end.

Lemma value_ok : forall a old b rnd ps, ext_lt a b ->
  get_perturbed_value a old b rnd ps = Ok (valueT a old b rnd ps).
Proof.
  intros a old b rnd ps H. unfold valueT, get_perturbed_value.
  destruct (Rlt_dec rnd 0); [destruct a; try reflexivity; contradiction|].
  destruct (Rlt_dec 0 rnd); [|reflexivity]. destruct b; try reflexivity; destruct a; contradiction.
Qed.

Section Loop.
Variables (draws : nat -> R) (size size_r : R) (bounds : env (ext * ext)).

Definition new_value (k : nat) (p : Par) : R :=
  match lookup bounds (par_name p) with
  | Some (a, b) => valueT a (par_value p) b (2 * (draws k - 1 / 2)) (get_perturbation_size size size_r (par_name p))
  | None => 0
  end.

Fixpoint new_values (k : nat) (l : list Par) : list R :=
  match l with
  | [] => []
  | p :: r => new_value k p :: new_values (S k) r
  end.

Lemma new_values_nth : forall l k j, nth_error (new_values k l) j =
  option_map (new_value (k + j)) (nth_error l j).
Proof.
  induction l as [|p l IH]; intros k j; destruct j; simpl; try reflexivity.
  - now rewrite Nat.add_0_r.
  - rewrite IH. now rewrite <- plus_n_Sm.
Qed.

Lemma new_values_length : forall l k, length (new_values k l) = length l.
Proof. induction l; intros; simpl; auto. Qed.

Lemma set_value_split : forall pre p post v, NoDup (names (pre ++ p :: post)) ->
  set_value (par_name p) v (pre ++ p :: post) = (Ok tt, pre ++ with_value v p :: post).
Proof.
  intros pre p post v ND. rewrite set_value_known; [|assumption|].
  - f_equal. now apply (upd_split (par_name p) (with_value v)).
  - rewrite names_app. apply in_or_app. right. now left.
Qed.

Lemma perturb_loop_ok : forall rest pre k, NoDup (names (pre ++ rest)) ->
  (forall p, In p rest -> par_fixed p = false ->
     exists a b, lookup bounds (par_name p) = Some (a, b) /\ ext_lt a b) ->
  perturb_loop draws size size_r bounds (length rest) (length pre) k (pre ++ rest) =
  (Ok tt, pre ++ fill rest (new_values k (filter is_free rest)), (k + count_free rest)%nat).
Proof.
  induction rest as [|p rest IH]; intros pre k ND H; cbn [length perturb_loop].
  - simpl. unfold count_free. simpl. now rewrite Nat.add_0_r.
  - rewrite nth_error_app2 by lia. rewrite Nat.sub_diag. cbn [nth_error].
    unfold count_free. cbn [fill filter].
    destruct (par_fixed p) eqn:F;
      [assert (Q : is_free p = false) by (unfold is_free; now rewrite F)
      |assert (Q : is_free p = true) by (unfold is_free; now rewrite F)]; rewrite Q.
    + specialize (IH (pre ++ [p]) k). rewrite app_length in IH. simpl length in IH.
      rewrite Nat.add_1_r, <- !app_assoc in IH. cbn [app] in IH. rewrite IH; [reflexivity|assumption|].
      intros; apply H; [now right|assumption].
    + destruct (H p (or_introl eq_refl) F) as [a [b [L O]]].
      cbn [new_values length]. unfold new_value. rewrite L. rewrite value_ok by assumption.
      rewrite set_value_split by assumption.
      specialize (IH (pre ++ [with_value (valueT a (par_value p) b (2 * (draws k - 1 / 2))
         (get_perturbation_size size size_r (par_name p))) p]) (S k)).
      rewrite app_length in IH. simpl length in IH.
      rewrite Nat.add_1_r, <- !app_assoc in IH. cbn [app] in IH. rewrite IH.
      * rewrite <- Nat.add_succ_comm. reflexivity.
      * rewrite names_replace with (p := p) by reflexivity. exact ND.
      * intros; apply H; [now right|assumption].
Qed.
End Loop.

Lemma perturb_total : forall c h d draws k size size_r, inv c d ->
  (h = false -> forall n, In n (sqrt_names c) -> 0 <= val d n) ->
  perturb_model_parameters c draws k size size_r h d =
  (Ok tt, fill d (new_values draws size (match size_r with None => size | Some s => s end) (fullT c h d) k
                    (filter is_free d)), (k + count_free d)%nat).
Proof.
  intros c h d draws k size size_r I P. unfold perturb_model_parameters.
  rewrite full_bounds_total; [|exact (proj1 I)|exact P].
  apply (perturb_loop_ok draws size _ (fullT c h d) d [] k).
  - exact (inv_names_NoDup c d I).
  - intros p Hp F.
    assert (Hn : In (par_name p) (class_names c)) by (rewrite <- (proj1 I); now apply in_map).
    assert (Ha : ~ In (par_name p) (always_fixed c)) by (intros C; apply (proj2 I) in C; [congruence|assumption]).
    destruct h.
    + destruct (handpicked_table c d _ Hn Ha) as [[a b] [L S]]. exists a, b. split; [exact L|].
      exact (handpicked_lt _ _ _ _ S).
    + exists (fst (maximal_bounds_of c d (par_name p))), (snd (maximal_bounds_of c d (par_name p))).
      split; [|apply maximal_lt]. rewrite (maximal_table c d _ Hn Ha). now destruct (maximal_bounds_of c d (par_name p)).
Qed.

(** ** The bounds depend only on always-fixed parameters *)

Definition bexp_names_ok (af : list string) (b : bexp) : bool := forallb (fun n => str_in n af) (b_names b).

Definition bounds_names_ok (ct : ClassTable) : bool :=
  let ok b := bexp_names_ok (ct_always_fixed ct) b in
  forallb (fun nb => ok (fst (snd nb)) && ok (snd (snd nb))) (ct_handpicked ct) &&
  forallb (fun xb => ok (snd xb)) (ct_maximal_locals ct) &&
  forallb (fun nb => ok (fst (snd nb)) && ok (snd (snd nb))) (ct_maximal ct).

Lemma all_bounds_names_ok : forall c, bounds_names_ok (table c) = true.
Proof. destruct c; vm_compute; reflexivity. Qed.

Lemma extT_agree : forall af v w e b, (forall n, In n af -> v n = w n) -> bexp_names_ok af b = true ->
  extT v e b = extT w e b.
Proof.
  intros af v w e b H O. destruct b; simpl in *; try reflexivity;
    unfold bexp_names_ok in O; simpl in O; rewrite andb_true_r in O; apply str_in_In in O; now rewrite (H _ O).
Qed.

Lemma locsT_agree : forall af v w l e, (forall n, In n af -> v n = w n) ->
  forallb (fun xb => bexp_names_ok af (snd xb)) l = true -> locsT v e l = locsT w e l.
Proof.
  intros af v w l. induction l as [|[x b] l IH]; intros e H O; [reflexivity|]. simpl in *.
  apply andb_prop in O. destruct O as [O1 O2]. rewrite (extT_agree af v w e b H O1). now apply IH.
Qed.

Lemma boundsT_agree : forall af v w e t, (forall n, In n af -> v n = w n) ->
  forallb (fun nb => bexp_names_ok af (fst (snd nb)) && bexp_names_ok af (snd (snd nb))) t = true ->
  boundsT v e t = boundsT w e t.
Proof.
  intros af v w e t H O. unfold boundsT. apply map_ext_in. intros nb Hn.
  rewrite forallb_forall in O. specialize (O nb Hn). apply andb_prop in O. destruct O as [O1 O2].
  now rewrite (extT_agree af v w e _ H O1), (extT_agree af v w e _ H O2).
Qed.

Lemma fullT_agree : forall c h d d', (forall n, In n (always_fixed c) -> val d n = val d' n) ->
  fullT c h d = fullT c h d'.
Proof.
  intros c h d d' H. assert (O := all_bounds_names_ok c). unfold bounds_names_ok in O.
  apply andb_prop in O. destruct O as [O O3]. apply andb_prop in O. destruct O as [O1 O2].
  unfold fullT. destruct h.
  - exact (boundsT_agree _ _ _ _ _ H O1).
  - rewrite (locsT_agree _ _ _ _ _ H O2). exact (boundsT_agree _ _ _ _ _ H O3).
Qed.

Lemma fill_val_fixed : forall d vs n, (forall p, In p d -> par_name p = n -> par_fixed p = true) ->
  val (fill d vs) n = val d n.
Proof.
  induction d as [|p d IH]; intros vs n H; [reflexivity|]. simpl.
  assert (H' : forall q, In q d -> par_name q = n -> par_fixed q = true) by (intros; apply H; [now right|assumption]).
  destruct (par_fixed p) eqn:F; simpl.
  - destruct (String.eqb (par_name p) n); [reflexivity|now apply IH].
  - destruct vs as [|v vs]; simpl; [reflexivity|].
    destruct (String.eqb_spec (par_name p) n) as [E|E]; [|now apply IH].
    specialize (H p (or_introl eq_refl) E). congruence.
Qed.

Lemma sqrt_names_fixed : forall c n, In n (sqrt_names c) -> In n (always_fixed c).
Proof.
  intros c n H. assert (O := all_bounds_names_ok c). unfold bounds_names_ok in O.
  apply andb_prop in O. destruct O as [O _]. apply andb_prop in O. destruct O as [_ O].
  rewrite forallb_forall in O. unfold sqrt_names in H. apply in_flat_map in H. destruct H as [[x b] [Hx Hb]].
  specialize (O _ Hx). simpl in O, Hb. destruct b; simpl in Hb; try contradiction. destruct Hb as [<-|[]].
  unfold bexp_names_ok in O. simpl in O. rewrite andb_true_r in O. now apply str_in_In.
Qed.

(** Bounds do not change when only free values change. *)
Lemma get_bounds_fill : forall c h d vs, inv c d -> get_bounds c h (fill d vs) = get_bounds c h d.
Proof.
  intros c h d vs I. assert (I' := inv_fill c d vs I).
  assert (V : forall n, In n (always_fixed c) -> val (fill d vs) n = val d n).
  { intros n Hn. apply fill_val_fixed. intros p Hp E. apply (proj2 I); [exact Hp|now rewrite E]. }
  assert (D : (h = false /\ exists n, In n (sqrt_names c) /\ val d n < 0) \/
              (h = false -> forall n, In n (sqrt_names c) -> 0 <= val d n)).
  { destruct h; [right; discriminate|].
    assert (G : forall l : list string, (exists n, In n l /\ val d n < 0) \/ forall n, In n l -> 0 <= val d n).
    { induction l as [|m l IH]; [right; intros n []|].
      destruct (Rlt_dec (val d m) 0) as [L|L]; [left; exists m; split; [now left|exact L]|].
      destruct IH as [[n [Hn W]]|IH]; [left; exists n; split; [now right|exact W]|].
      right. intros n [<-|Hn]; [lra|auto]. }
    destruct (G (sqrt_names c)) as [E|E]; [left; auto|right; auto]. }
  destruct D as [[-> [n [Hn W]]]|D].
  - rewrite !get_bounds_negative; [reflexivity|exact I| |exact I'|].
    + exists n. auto.
    + exists n. split; [exact Hn|]. rewrite V; [exact W|now apply sqrt_names_fixed].
  - unfold get_bounds, bounds_table. fold (full_bounds c h d). fold (full_bounds c h (fill d vs)).
    rewrite (full_bounds_total c h d); [|exact (proj1 I)|exact D].
    rewrite (full_bounds_total c h (fill d vs)); [|exact (proj1 I')|].
    2:{ intros Eh n Hn. rewrite V; [auto|now apply sqrt_names_fixed]. }
    rewrite (fullT_agree c h (fill d vs) d V). cbn [bind].
    match goal with |- bind (mapM ?f ?a) _ = bind (mapM ?g ?b) _ => assert (M : mapM f a = mapM g b) end.
    { generalize (fullT c h d). intros E. clear. revert vs. induction d as [|p r IH]; intros vs; [reflexivity|].
      simpl. destruct (par_fixed p) eqn:F; simpl; [rewrite F; simpl; apply IH|].
      destruct vs as [|v vs]; simpl; rewrite ?F; simpl; [reflexivity|].
      now rewrite IH. }
    now rewrite M.
Qed.
