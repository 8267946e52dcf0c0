(** Properties C37 (data preparation) and C42 (deviation table, plotted series). *)
From Coq Require Import String Reals List Bool Arith Lia Lra Permutation Sorted.
From Verif Require Import PyBase CNum PyExpr Params ParamClasses ParamSpec ParamProofs CrossSections CommonUtils KaonSpec UtilsSpec
  UtilsProofs PropsUtils PropsCross Scripts World WorldSpec WorldProofs DataSets.
Import ListNotations.
Local Open Scope R_scope.
Local Open Scope list_scope.

(** ** Stable sorting *)

Definition same_key {A : Type} (key : A -> R) (k : R) (x : A) : bool := if Req_EM_T (key x) k then true else false.

(** [l'] is [l] sorted by [key], with ties in their original order. *)
Definition stable_sort_of {A : Type} (key : A -> R) (l l' : list A) : Prop :=
  Permutation l l' /\ StronglySorted (fun x y => key x <= key y) l' /\
  forall k, filter (same_key key k) l' = filter (same_key key k) l.

Section Sorting.
Variables (A : Type) (key : A -> R).
Notation ins := (insert_by key).

Lemma insert_perm : forall x l, Permutation (x :: l) (ins x l).
Proof.
  induction l as [|y l IH]; simpl; [reflexivity|]. destruct (Rle_dec (key x) (key y)); [reflexivity|].
  rewrite perm_swap. now constructor.
Qed.

Lemma insert_sorted : forall x l, StronglySorted (fun x y => key x <= key y) l ->
  StronglySorted (fun x y => key x <= key y) (ins x l).
Proof.
  induction l as [|y l IH]; intros H; simpl; [repeat constructor|]. inversion H as [|y' l' S F]; subst.
  destruct (Rle_dec (key x) (key y)) as [L|L].
  - constructor; [exact H|]. constructor; [exact L|]. eapply Forall_impl; [|exact F]. simpl. intros z Hz. lra.
  - constructor; [now apply IH|]. rewrite Forall_forall in *. intros z I.
    apply (Permutation_in z (Permutation_sym (insert_perm x l))) in I. destruct I as [<-|I]; [lra|now apply F].
Qed.

Lemma insert_stable : forall x l k, filter (same_key key k) (ins x l) = filter (same_key key k) (x :: l).
Proof.
  induction l as [|y l IH]; intros k; [reflexivity|]. simpl ins. destruct (Rle_dec (key x) (key y)) as [L|L]; [reflexivity|].
  simpl filter at 1. rewrite IH. simpl. unfold same_key.
  destruct (Req_EM_T (key y) k) as [E|E], (Req_EM_T (key x) k) as [E'|E']; try reflexivity. exfalso. lra.
Qed.

Lemma sorted_by_stable : forall l, stable_sort_of key l (sorted_by key l).
Proof.
  induction l as [|x l (P & S & F)]; simpl; [repeat split; constructor|]. unfold sorted_by in *. simpl. split; [|split].
  - etransitivity; [|apply insert_perm]. now constructor.
  - now apply insert_sorted.
  - intros k. rewrite insert_stable. simpl. rewrite F. reflexivity.
Qed.

(** The stable sort is unique. *)
Lemma stable_sort_unique : forall l a b, stable_sort_of key l a -> stable_sort_of key l b -> a = b.
Proof.
  assert (G : forall a b, StronglySorted (fun x y => key x <= key y) a -> StronglySorted (fun x y => key x <= key y) b ->
    (forall k, filter (same_key key k) a = filter (same_key key k) b) -> a = b).
  { assert (N : forall l, (forall k, filter (same_key key k) l = []) -> l = []).
    { intros [|x l] H; [reflexivity|]. specialize (H (key x)). simpl in H. unfold same_key in H at 1.
      destruct (Req_EM_T (key x) (key x)); congruence. }
    assert (Mn : forall x a y b, StronglySorted (fun x y => key x <= key y) (x :: a) ->
      (forall k, filter (same_key key k) (x :: a) = filter (same_key key k) (y :: b)) -> key x <= key y).
    { intros x a y b S F. specialize (F (key y)). simpl filter at 2 in F. unfold same_key in F at 2.
      destruct (Req_EM_T (key y) (key y)); [|congruence].
      assert (I : In y (filter (same_key key (key y)) (x :: a))) by (rewrite F; now left).
      apply filter_In in I. destruct I as ([->|I] & _); [lra|]. inversion S as [|? ? ? Fa]; subst.
      rewrite Forall_forall in Fa. now apply Fa. }
    induction a as [|x a IH]; intros b Sa Sb F.
    - symmetry. apply N. intros k. now rewrite <- F.
    - destruct b as [|y b]; [apply N in F; exact F|].
      assert (E : key x = key y) by (apply Rle_antisym; [exact (Mn x a y b Sa F)|apply (Mn y b x a Sb); intros k; now rewrite F]).
      assert (T : forall z, key z = key x -> same_key key (key x) z = true)
        by (intros z Z; unfold same_key; destruct (Req_EM_T (key z) (key x)); congruence).
      pose proof (F (key x)) as F0. simpl in F0. rewrite (T x eq_refl), (T y (eq_sym E)) in F0.
      injection F0 as -> F0. f_equal. inversion Sa; inversion Sb; subst. apply IH; auto.
      intros k. specialize (F k). simpl in F. destruct (same_key key k y); [now injection F|exact F]. }
  intros l a b (_ & Sa & Fa) (_ & Sb & Fb). apply G; auto. intros k. now rewrite Fa, Fb.
Qed.
End Sorting.

(** ** C37 *)

(** A measurement: t, value, error. *)
Record Measurement := mkMeasurement { me_t : R; me_value : R; me_error : R }.

Definition tagged (tag : C -> datapoint) (m : Measurement) : datapoint * R * R :=
  (tag (RtoC (me_t m)), me_value m, me_error m).

(** A prepared dataset: three lists of the same length whose rows are the stable sort of the given rows. *)
Definition prepares (res : Res Prepared) (rows : list (datapoint * R * R)) : Prop :=
  (rows = [] /\ res = Err ValueError) \/
  (rows <> [] /\ exists ts ys errors, res = Ok (ts, ys, errors) /\ length ys = length ts /\ length errors = length ts /\
     stable_sort_of (fun row => match fst (fst row) with
                                | KaonDatapoint t _ => Re t | NucleonDatapoint t _ _ => Re t | Row _ => 0 end)
       rows (zip3 ts ys errors)).

Lemma zip3_app : forall A B D (a a' : list A) (b b' : list B) (c c' : list D), length b = length a -> length c = length a ->
  zip3 (a ++ a') (b ++ b') (c ++ c') = zip3 a b c ++ zip3 a' b' c'.
Proof.
  induction a as [|x a IH]; intros a' [|y b] b' [|z c] c' H H'; try discriminate; [reflexivity|].
  simpl. rewrite IH by (simpl in *; congruence). reflexivity.
Qed.

Lemma zip3_tagged : forall (g : R -> datapoint) l,
  zip3 (map g (map me_t l)) (map me_value l) (map me_error l) = map (fun m => (g (me_t m), me_value m, me_error m)) l.
Proof. induction l; simpl; [reflexivity|now rewrite IHl]. Qed.

Lemma zip3_unzip : forall (rows : list (datapoint * R * R)),
  zip3 (map (fun r => fst (fst r)) rows) (map (fun r => snd (fst r)) rows) (map snd rows) = rows.
Proof. induction rows as [|[[a b] c] r IH]; simpl; [reflexivity|now rewrite IH]. Qed.

Lemma sort_rows_prepares : forall ts ys errors rows, zip3 ts ys errors = rows -> prepares (sort_rows ts ys errors) rows.
Proof.
  intros ts ys errors rows E. unfold sort_rows. rewrite E. pose proof (sorted_by_stable _ row_key rows) as S.
  destruct rows as [|r rs]; [left; split; reflexivity|]. right. split; [discriminate|].
  set (rows := r :: rs) in *. unfold unzip3. destruct (sorted_by row_key rows) as [|x xs] eqn:Q.
  - destruct S as (P & _). apply Permutation_sym, Permutation_nil in P. discriminate.
  - rewrite <- Q in *. exists (map (fun r => fst (fst r)) (sorted_by row_key rows)), (map (fun r => snd (fst r)) (sorted_by row_key rows)),
      (map snd (sorted_by row_key rows)). rewrite !map_length, zip3_unzip. repeat split; apply S.
Qed.

Theorem C37_kaon_data : forall charged neutral,
  prepares (prepare_data_kaon (map me_t charged) (map me_value charged) (map me_error charged)
                              (map me_t neutral) (map me_value neutral) (map me_error neutral))
    (map (tagged (fun t => KaonDatapoint t true)) charged ++ map (tagged (fun t => KaonDatapoint t false)) neutral).
Proof.
  intros charged neutral. apply sort_rows_prepares. rewrite zip3_app by (rewrite !map_length; reflexivity).
  rewrite !zip3_tagged. reflexivity.
Qed.

Theorem C37_nucleon_data : forall pe pm ne nm,
  prepares (prepare_data_nucleon (map me_t pe) (map me_value pe) (map me_error pe)
                                 (map me_t pm) (map me_value pm) (map me_error pm)
                                 (map me_t ne) (map me_value ne) (map me_error ne)
                                 (map me_t nm) (map me_value nm) (map me_error nm))
    (map (tagged (fun t => NucleonDatapoint t true true)) pe ++ map (tagged (fun t => NucleonDatapoint t true false)) pm ++
     map (tagged (fun t => NucleonDatapoint t false true)) ne ++ map (tagged (fun t => NucleonDatapoint t false false)) nm).
Proof.
  intros pe pm ne nm. apply sort_rows_prepares.
  rewrite !zip3_app by (rewrite ?app_length, !map_length; reflexivity). rewrite !zip3_tagged, !app_assoc. reflexivity.
Qed.

Theorem C37_nucleon_script_data : forall proton neutron,
  prepares (prepare_data_nucleon_script (map me_t proton) (map me_value proton) (map me_error proton)
                                        (map me_t neutron) (map me_value neutron) (map me_error neutron))
    (map (tagged (fun t => NucleonDatapoint t true true)) proton ++ map (tagged (fun t => NucleonDatapoint t false true)) neutron).
Proof.
  intros charged neutral. apply sort_rows_prepares. rewrite zip3_app by (rewrite !map_length; reflexivity).
  rewrite !zip3_tagged. reflexivity.
Qed.

(** The prepared rows are determined by the specification. *)
Theorem C37_result_unique : forall key (rows a b : list (datapoint * R * R)),
  stable_sort_of key rows a -> stable_sort_of key rows b -> a = b.
Proof. intros key rows a b. apply stable_sort_unique. Qed.

(** Lists of unequal length: a neutral point gets the value measured for a charged one. *)
Theorem C37_points_keep_their_values_refuted : exists ts_c ys_c es_c ts_n ys_n es_n ts ys es,
  prepare_data_kaon ts_c ys_c es_c ts_n ys_n es_n = Ok (ts, ys, es) /\
  In (KaonDatapoint (RtoC 5) false, 7, 1) (zip3 ts ys es) /\ In 7 ys_c /\ ~ In 7 ys_n /\ ts_n = [5].
Proof.
  exists [1], [3; 7], [1; 1], [5], [9], [1]. unfold prepare_data_kaon, sort_rows. cbn [map app zip3].
  unfold sorted_by. cbn [fold_right insert_by]. unfold row_key at 1 2. simpl.
  destruct (Rle_dec 1 5); [|exfalso; lra]. simpl. do 3 eexists. split; [reflexivity|]. simpl.
  split; [auto|]. split; [auto|]. split; [|reflexivity]. intros [H|[]]. lra.
Qed.

Example C37_instance :
  prepare_data_kaon [3; 1] [30; 10] [1; 2] [1; 2] [11; 20] [3; 4] =
  Ok ([KaonDatapoint (RtoC 1) true; KaonDatapoint (RtoC 1) false; KaonDatapoint (RtoC 2) false; KaonDatapoint (RtoC 3) true],
      [10; 11; 20; 30], [2; 3; 4; 1]).
Proof.
  unfold prepare_data_kaon, sort_rows. cbn [map app zip3]. unfold sorted_by. cbn [fold_right].
  repeat (cbn [insert_by]; match goal with |- context [Rle_dec ?a ?b] =>
    let x := fresh in destruct (Rle_dec a b) as [x|x]; unfold row_key in x; simpl in x; try (exfalso; lra) end).
  reflexivity.
Qed.

(** ** C42: plotted series *)

(** A point with everything that belongs to it. *)
Record Fitted := mkFitted { fi_point : datapoint; fi_value : R; fi_error : R; fi_fit : R }.

Definition shown (t : C) (x : Fitted) : plotted := (t, fi_value x, fi_error x, fi_fit x).

Lemma split_loop_spec : forall (flag : datapoint -> Res bool) (test : Fitted -> bool) (time : Fitted -> C) post pre yes no,
  (forall x, In x post -> flag (fi_point x) = Ok (test x) /\ attr_t (fi_point x) = Ok (time x)) ->
  split_loop flag (map fi_value (pre ++ post)) (map fi_error (pre ++ post)) (map fi_fit (pre ++ post)) (length pre)
    (map fi_point post) yes no =
  Ok (yes ++ map (fun x => shown (time x) x) (filter test post),
      no ++ map (fun x => shown (time x) x) (filter (fun x => negb (test x)) post)).
Proof.
  intros flag test time. induction post as [|x post IH]; intros pre yes no H; simpl split_loop.
  - simpl. now rewrite !app_nil_r.
  - destruct (H x (or_introl eq_refl)) as (F & T). rewrite F, T. cbn [bind].
    assert (I : forall f : Fitted -> R, item (map f (pre ++ x :: post)) (length pre) = Ok (f x)).
    { intros f. unfold item. rewrite map_app, nth_error_app2 by (rewrite map_length; lia).
      rewrite map_length, Nat.sub_diag. reflexivity. }
    rewrite !I. cbn [bind].
    assert (E : forall y n, split_loop flag (map fi_value (pre ++ x :: post)) (map fi_error (pre ++ x :: post))
       (map fi_fit (pre ++ x :: post)) (S (length pre)) (map fi_point post) y n =
       Ok (y ++ map (fun x => shown (time x) x) (filter test post),
           n ++ map (fun x => shown (time x) x) (filter (fun x => negb (test x)) post))).
    { intros y n. replace (pre ++ x :: post) with ((pre ++ [x]) ++ post) by now rewrite <- app_assoc.
      replace (S (length pre)) with (length (pre ++ [x])) by (rewrite app_length; simpl; lia).
      apply IH. intros z I'. apply H. now right. }
    simpl filter. destruct (test x); simpl; rewrite E, <- app_assoc; reflexivity.
Qed.

(** Kaon points are split by their charge, in order, each with its own value, error and fit. *)
Theorem C42_charged_and_neutral_series : forall l : list Fitted,
  (forall x, In x l -> exists t c, fi_point x = KaonDatapoint t c) ->
  exists time charged,
    (forall x, In x l -> fi_point x = KaonDatapoint (time x) (charged x)) /\
    series_neutral_plus_charged (map fi_point l) (map fi_value l) (map fi_error l) (map fi_fit l) =
    Ok (map (fun x => shown (time x) x) (filter charged l),
        map (fun x => shown (time x) x) (filter (fun x => negb (charged x)) l)).
Proof.
  intros l H. exists (fun x => match fi_point x with KaonDatapoint t _ => t | _ => RtoC 0 end),
    (fun x => match fi_point x with KaonDatapoint _ c => c | _ => false end). split.
  - intros x I. destruct (H x I) as (t & c & E). now rewrite E.
  - unfold series_neutral_plus_charged. refine (split_loop_spec _ _ _ l [] [] [] _).
    intros x I. destruct (H x I) as (t & c & E). rewrite E. split; reflexivity.
Qed.

Theorem C42_electric_and_magnetic_series : forall l : list Fitted,
  (forall x, In x l -> exists t p e, fi_point x = NucleonDatapoint t p e) ->
  exists time proton electric,
    (forall x, In x l -> fi_point x = NucleonDatapoint (time x) (proton x) (electric x)) /\
    series_electric_plus_magnetic (map fi_point l) (map fi_value l) (map fi_error l) (map fi_fit l) =
    Ok (map (fun x => shown (time x) x) (filter electric l),
        map (fun x => shown (time x) x) (filter (fun x => negb (electric x)) l)).
Proof.
  intros l H. exists (fun x => match fi_point x with NucleonDatapoint t _ _ => t | _ => RtoC 0 end),
    (fun x => match fi_point x with NucleonDatapoint _ p _ => p | _ => false end),
    (fun x => match fi_point x with NucleonDatapoint _ _ e => e | _ => false end). split.
  - intros x I. destruct (H x I) as (t & p & e & E). now rewrite E.
  - unfold series_electric_plus_magnetic. refine (split_loop_spec _ _ _ l [] [] [] _).
    intros x I. destruct (H x I) as (t & p & e & E). rewrite E. split; reflexivity.
Qed.

(** No point is lost or shown twice. *)
Theorem C42_series_partition : forall (l : list Fitted) (test : Fitted -> bool),
  Permutation (filter test l ++ filter (fun x => negb (test x)) l) l.
Proof.
  induction l as [|x l IH]; intros test; [constructor|]. simpl. destruct (test x); simpl.
  - constructor. apply IH.
  - rewrite <- Permutation_middle. constructor. apply IH.
Qed.

(** A point of the wrong kind stops the plot. *)
Theorem C42_wrong_kind_raises : forall pre x post, (forall y, In y pre -> exists t c, fi_point y = KaonDatapoint t c) ->
  (forall t c, fi_point x <> KaonDatapoint t c) ->
  let l := pre ++ x :: post in
  series_neutral_plus_charged (map fi_point l) (map fi_value l) (map fi_error l) (map fi_fit l) = Err AttributeError.
Proof.
  intros pre x post H N l. unfold series_neutral_plus_charged.
  assert (G : forall todo done yes no, pre = done ++ todo ->
    split_loop attr_is_charged (map fi_value l) (map fi_error l) (map fi_fit l) (length done) (map fi_point (todo ++ x :: post)) yes no
    = Err AttributeError).
  { induction todo as [|y todo IH]; intros dn yes no E.
    - simpl. destruct (fi_point x) as [t c|t p e|r] eqn:P; simpl; [exfalso; exact (N t c eq_refl)|reflexivity|reflexivity].
    - simpl. destruct (H y) as (t & c & P); [rewrite E; apply in_app_iff; simpl; auto|]. rewrite P. cbn [attr_is_charged attr_t bind].
      assert (I : forall f : Fitted -> R, item (map f l) (length dn) = Ok (f y)).
      { intros f. unfold item, l. rewrite E, <- app_assoc, map_app, nth_error_app2 by (rewrite map_length; lia).
        rewrite map_length, Nat.sub_diag. reflexivity. }
      rewrite !I. cbn [bind].
      assert (Q : pre = (dn ++ [y]) ++ todo) by now rewrite <- app_assoc.
      replace (S (length dn)) with (length (dn ++ [y])) by (rewrite app_length; simpl; lia).
      destruct c; now apply IH. }
  exact (G pre [] [] [] eq_refl).
Qed.

Example C42_series_instance :
  series_neutral_plus_charged [KaonDatapoint (RtoC 1) true; KaonDatapoint (RtoC 2) false; KaonDatapoint (RtoC 3) true]
    [10; 20; 30] [1; 2; 3] [11; 21; 31] =
  Ok ([(RtoC 1, 10, 1, 11); (RtoC 3, 30, 3, 31)], [(RtoC 2, 20, 2, 21)]).
Proof. reflexivity. Qed.

(** ** C42: deviation table *)

Definition all_fixed (d : data) : data := map (fun p => mkPar (par_name p) (par_value p) true) d.

(** The cross-section model of the store at a point, and the row of the table. *)
Definition is_deviation_row (c : param_class) (mass alpha hc : R) (charged : bool) (d : data) (x : Measurement)
  (row : R * R * R * R * R) : Prop :=
  exists fit, cross_section_at c mass alpha hc d (KaonDatapoint (RtoC (me_t x)) charged) = Ok fit /\ me_error x <> 0 /\
    row = (me_t x, me_error x, me_value x, fit, Rabs (me_value x - fit) / me_error x).

Lemma keywords_flags : forall d, keywords (all_fixed d) = keywords d.
Proof. intros d. unfold keywords, all_fixed. rewrite map_map. apply map_ext. reflexivity. Qed.

Lemma buildable_flags : forall c d, buildable c (all_fixed d) = buildable c d.
Proof. intros c d. unfold buildable. destruct (family_of c); rewrite ?keywords_flags; reflexivity. Qed.

Lemma cross_section_flags : forall c m a h d p, cross_section_at c m a h (all_fixed d) p = cross_section_at c m a h d p.
Proof. intros c m a h d p. unfold cross_section_at. destruct (family_of c); rewrite ?keywords_flags; reflexivity. Qed.

Lemma count_all_fixed : forall d, count_free (all_fixed d) = 0%nat.
Proof. unfold count_free. induction d; [reflexivity|exact IHd]. Qed.

Lemma fill_none : forall d, fill (all_fixed d) [] = all_fixed d.
Proof. induction d as [|p d IH]; [reflexivity|]. simpl. now rewrite IH. Qed.

Lemma inv_all_fixed : forall c d, inv c d -> inv c (all_fixed d).
Proof.
  intros c d (N & A). split.
  - rewrite <- N. unfold names, all_fixed. rewrite map_map. reflexivity.
  - intros p I _. apply in_map_iff in I. destruct I as (q & <- & _). reflexivity.
Qed.

Lemma mapM_Forall2 : forall A B (f : A -> Res B) l r, mapM f l = Ok r <-> Forall2 (fun x y => f x = Ok y) l r.
Proof.
  induction l as [|x l IH]; intros r; simpl.
  - split; [intros H; injection H as <-; constructor|intros H; inversion H; reflexivity].
  - split.
    + destruct (f x) as [y|e] eqn:E; [|discriminate]. simpl. destruct (mapM f l) as [ys|e'] eqn:Q; [|discriminate].
      simpl. intros H. injection H as <-. constructor; [exact E|now apply IH].
    + intros H. inversion H as [|a b c0 d0 E F]; subst. rewrite E. simpl. apply IH in F. now rewrite F.
Qed.

Section Deviations.
Variables (r : Ref) (d : data) (w : World).
Hypothesis stored : nth_error (w_lists w) (r_data r) = Some d.
Hypothesis ok : reachable (r_class r) d.

Lemma deviations_eq : forall ts css errors charged m a h,
  exists h', calculate_deviations_from_fit r ts css errors charged m a h w =
    ((bind (bind (buildable (r_class r) d) (fun _ => mapM (cross_section_at (r_class r) m a h d)
               (map (fun t => KaonDatapoint (RtoC t) charged) ts)))
        (fun fit => mapM deviation_row (zip4 ts errors css fit))), set_lists h' w) /\
    nth_error h' (r_data r) = Some (all_fixed d) /\
    forall b, b <> r_data r -> (b < length (w_lists w))%nat -> nth_error h' b = nth_error (w_lists w) b.
Proof.
  intros ts css errors charged m a h. assert (I := reachable_inv _ _ ok).
  assert (V : (r_data r < length (w_lists w))%nat) by (apply nth_error_Some; congruence).
  set (w1 := set_lists (replace (w_lists w) (r_data r) (all_fixed d)) w).
  set (w2 := set_lists (w_lists w1 ++ [all_fixed d; all_fixed d]) w1).
  assert (S1 : nth_error (w_lists w1) (r_data r) = Some (all_fixed d)) by (simpl; eapply nth_replace_same; eauto).
  assert (L1 : length (w_lists w1) = length (w_lists w)) by (simpl; apply replace_length).
  set (r2 := mkRef (r_class r) (S (length (w_lists w1)))).
  assert (P : partial_rel (w_lists w2) (PartialCrossSection m a h r2) (CrossSectionOf m a h (r_class r, all_fixed d))).
  { split; [simpl; auto|]. split; [reflexivity|]. split; [now apply inv_all_fixed|].
    exists (all_fixed d). split; [apply nth_alloc2|apply shifted_refl]. }
  destruct (call_partial_eq _ _ (map (fun t => KaonDatapoint (RtoC t) charged) ts) [] w2 P) as (d' & _ & E).
  exists (replace (w_lists w2) (r_data r2) d'). split; [|split].
  - unfold calculate_deviations_from_fit, mbind. rewrite (obj_mutate_eq _ _ _ _ stored). cbn [mutate fst snd].
    change (fix_all d) with (all_fixed d). fold w1. unfold make_partial_cross_section_for_parameters, mbind.
    rewrite (obj_copy_eq _ _ _ S1) by now apply inv_all_fixed. fold w2. cbn [ret]. fold r2. unfold ret. rewrite E.
    unfold closure_result, with_free_values. cbn [fst snd]. rewrite count_all_fixed. cbn [length Nat.eqb bind fst snd].
    rewrite fill_none, buildable_flags.
    replace (mapM (cross_section_at (r_class r) m a h (all_fixed d)) (map (fun t => KaonDatapoint (RtoC t) charged) ts))
      with (mapM (cross_section_at (r_class r) m a h d) (map (fun t => KaonDatapoint (RtoC t) charged) ts)).
    2:{ assert (X : forall l, mapM (cross_section_at (r_class r) m a h d) l = mapM (cross_section_at (r_class r) m a h (all_fixed d)) l).
        { induction l as [|x l IHl]; [reflexivity|]. simpl. now rewrite cross_section_flags, IHl. }
        apply X. }
    set (res := bind (buildable (r_class r) d) _). destruct res as [fit|e]; reflexivity.
  - rewrite nth_replace_other; [|simpl; rewrite replace_length; lia]. simpl. rewrite nth_error_app1 by (rewrite replace_length; lia).
    exact S1.
  - intros b N B. rewrite nth_replace_other; [|simpl; rewrite replace_length; lia]. simpl.
    rewrite nth_error_app1 by (rewrite replace_length; lia). apply nth_replace_other. lia.
Qed.

(** One row per point, in order. *)
Theorem C42_deviation_rows : forall (L : list Measurement) charged m a h rows,
  fst (calculate_deviations_from_fit r (map me_t L) (map me_value L) (map me_error L) charged m a h w) = Ok rows <->
  buildable (r_class r) d = Ok tt /\ Forall2 (is_deviation_row (r_class r) m a h charged d) L rows.
Proof.
  intros L charged m a h rows. destruct (deviations_eq (map me_t L) (map me_value L) (map me_error L) charged m a h) as (h' & E & _).
  rewrite E. simpl. rewrite map_map. clear E.
  set (f := fun x => cross_section_at (r_class r) m a h d (KaonDatapoint (RtoC (me_t x)) charged)).
  assert (Q : mapM (cross_section_at (r_class r) m a h d) (map (fun x => KaonDatapoint (RtoC (me_t x)) charged) L) = mapM f L).
  { induction L as [|x L IH]; [reflexivity|]. simpl. unfold f at 1. now rewrite IH. }
  rewrite Q. destruct (buildable (r_class r) d) as [[]|e]; simpl; [|split; [discriminate|intros (X & _); discriminate]].
  transitivity (exists fits, mapM f L = Ok fits /\
    mapM deviation_row (zip4 (map me_t L) (map me_error L) (map me_value L) fits) = Ok rows).
  { split.
    - destruct (mapM f L) as [fits|e]; [|discriminate]. simpl. eauto.
    - intros (fits & -> & X). exact X. }
  assert (G : forall L rows, (exists fits, mapM f L = Ok fits /\
    mapM deviation_row (zip4 (map me_t L) (map me_error L) (map me_value L) fits) = Ok rows) <->
    Forall2 (is_deviation_row (r_class r) m a h charged d) L rows).
  { clear. induction L as [|x L IH]; intros rows.
    - split; [intros (fits & A & B); simpl in *; injection B as <-; constructor|].
      intros X. inversion X; subst. exists []. split; reflexivity.
    - split.
      + intros (fits & A & B). simpl in A. destruct (f x) as [y|e] eqn:Fx; [|discriminate]. simpl in A.
        destruct (mapM f L) as [ys|e] eqn:FL; [|discriminate]. simpl in A. injection A as <-. simpl in B.
        unfold rdiv in B. destruct (Req_EM_T (me_error x) 0) as [Z|Z]; [discriminate|]. cbn [bind] in B.
        destruct (mapM deviation_row _) as [rs|e] eqn:DR; [|discriminate]. cbn [bind] in B. injection B as <-.
        constructor; [exists y; auto|]. apply IH. exists ys. auto.
      + intros X. inversion X as [|x' row L' rows' (fit & A & B & ->) F]; subst. apply IH in F. destruct F as (fits & P1 & P2).
        exists (fit :: fits). split; simpl; [unfold f at 1; rewrite A; cbn [bind]; now rewrite P1|].
        unfold rdiv. destruct (Req_EM_T (me_error x) 0) as [Z|Z]; [contradiction|]. cbn [bind]. now rewrite P2. }
  rewrite (G L rows). split; [auto|intros (_ & X); exact X].
Qed.

(** Whatever the outcome: all parameters end up fixed with their values, and no other list object changes. *)
Theorem C42_store_afterwards : forall ts css errors charged m a h,
  let w' := snd (calculate_deviations_from_fit r ts css errors charged m a h w) in
  nth_error (w_lists w') (r_data r) = Some (map (fun p => mkPar (par_name p) (par_value p) true) d) /\
  (forall b, b <> r_data r -> (b < length (w_lists w))%nat -> nth_error (w_lists w') b = nth_error (w_lists w) b) /\
  w_events w' = w_events w.
Proof.
  intros ts css errors charged m a h. destruct (deviations_eq ts css errors charged m a h) as (h' & E & A & B).
  rewrite E. simpl. auto.
Qed.
End Deviations.

(** The model of a concrete kaon store at t = 5: two measurements give two rows. *)
Example C42_instance : exists fit : R,
  let r := mkRef PKaonB 0%nat in
  let w := mkWorld [demo_store] 0%nat 0%nat [] [] in
  let '(res, w') := calculate_deviations_from_fit r [5; 5] [fit; fit + 3] [2; 4] true (1/2) 1 1 w in
  res = Ok [(5, 2, fit, fit, 0); (5, 4, fit + 3, fit, 3/4)] /\
  nth_error (w_lists w') 0%nat = Some (map (fun p => mkPar (par_name p) (par_value p) true) demo_store) /\
  exists p, In p demo_store /\ par_fixed p = false.
Proof.
  assert (RC := demo_store_reachable).
  destruct C26_instance as (x & y & E & _). rewrite function_form_factor_spec in E by now apply reachable_inv.
  destruct (buildable PKaonB demo_store) as [[]|] eqn:BU; [|discriminate]. simpl in E.
  unfold form_factor_at in E at 1. cbn [family_of kaon_point] in E.
  destruct (kaon_value ReducedB true (keywords demo_store) (RtoC 5)) as [v|] eqn:KV; [|discriminate]. clear E.
  pose proof (C29_formula_above_threshold (1/2) 1 1 (kaon_value ReducedB true (keywords demo_store)) 5 v KV ltac:(lra) ltac:(lra)) as CS.
  set (fit := Cabs (RtoC (sigma_scalar (1/2) 1 1 5 (Cabs v)))) in *. exists fit. intros r w.
  assert (ST : nth_error (w_lists w) (r_data r) = Some demo_store) by reflexivity.
  assert (CA : cross_section_at PKaonB (1/2) 1 1 demo_store (KaonDatapoint (RtoC 5) true) = Ok fit).
  { unfold cross_section_at. cbn [family_of kaon_point]. rewrite CS. reflexivity. }
  pose proof (C42_deviation_rows r demo_store w ST RC [mkMeasurement 5 fit 2; mkMeasurement 5 (fit + 3) 4] true (1/2) 1 1
    [(5, 2, fit, fit, 0); (5, 4, fit + 3, fit, 3/4)]) as RW.
  destruct (C42_store_afterwards r demo_store w ST RC [5; 5] [fit; fit + 3] [2; 4] true (1/2) 1 1) as (SA & _).
  cbn [map me_t me_value me_error] in RW.
  destruct (calculate_deviations_from_fit r [5; 5] [fit; fit + 3] [2; 4] true (1/2) 1 1 w) as [res w'].
  split; [|split; [exact SA|]].
  - apply RW. split; [exact BU|]. constructor; [|constructor; [|constructor]]; exists fit; cbn [me_t me_value me_error];
      (split; [exact CA|]); (split; [lra|]).
    + replace (fit - fit) with 0 by ring. rewrite Rabs_R0. repeat f_equal; lra.
    + replace (fit + 3 - fit) with 3 by ring. rewrite Rabs_right by lra. reflexivity.
  - assert (B : existsb (fun p => negb (par_fixed p)) demo_store = true) by reflexivity.
    apply existsb_exists in B. destruct B as (p & I & B). exists p. split; [exact I|]. now apply negb_true_iff.
Qed.

(** A zero error stops the table. *)
Theorem C42_zero_error_raises : forall t cs fit rest,
  mapM deviation_row ((t, 0, cs, fit) :: rest) = Err ZeroDivisionError.
Proof. intros. simpl. unfold rdiv. destruct (Req_EM_T 0 0); [reflexivity|congruence]. Qed.

Print Assumptions C37_kaon_data.
Print Assumptions C37_nucleon_data.
Print Assumptions C37_nucleon_script_data.
Print Assumptions C37_result_unique.
Print Assumptions C37_points_keep_their_values_refuted.
Print Assumptions C42_charged_and_neutral_series.
Print Assumptions C42_electric_and_magnetic_series.
Print Assumptions C42_series_partition.
Print Assumptions C42_wrong_kind_raises.
Print Assumptions C42_deviation_rows.
Print Assumptions C42_store_afterwards.
Print Assumptions C42_zero_error_raises.
