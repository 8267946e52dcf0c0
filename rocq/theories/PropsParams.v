(** Properties C01-C05 and C07: the parameter stores. *)
From Coq Require Import Reals String List Bool Arith Lia Lra Permutation.
From Verif Require Import PyBase CNum PyExpr ExprProofs KaonProofs KaonSpec Params ParamClasses ParamProofs
  BoundsProofs ParamSpec.
Import ListNotations.
Open Scope string_scope.
Open Scope list_scope.
Open Scope R_scope.
Open Scope py_scope.

(** ** Auxiliary facts *)

Lemma must_stay_fixed_eq : forall c n, In n (must_stay_fixed c) <-> In n (always_fixed c).
Proof.
  intros c n. assert (P : Permutation (must_stay_fixed c) (always_fixed c)).
  { apply perm_check_ok. destruct c; vm_compute; reflexivity. }
  split; apply Permutation_in; [assumption|now symmetry].
Qed.

(** A concrete call history used as an instance: build, free everything, fix two, try to free a threshold
    (raises), set a value, update the free values with a list of the wrong length (raises). *)
Definition demo_etgmr : data := [mkPar "a" 1 false; mkPar "m_a" 2 false; mkPar "m_d" 3 false].
Lemma demo_etgmr_built : construct PETGMR [("m_d", 3); ("a", 1); ("m_a", 2)] = Ok demo_etgmr.
Proof. reflexivity. Qed.

Definition demo_kaon_kw : env R := map (fun n => (n, 1)) (class_names PKaonB).
Lemma demo_kaon_built : exists d, construct PKaonB demo_kaon_kw = Ok d /\ length d = 26%nat /\
  map par_fixed (firstn 3 d) = [true; true; false].
Proof. eexists. split; [reflexivity|]. split; reflexivity. Qed.

(** ** C01 *)

Theorem C01_always_fixed_stay_fixed : forall c d n, reachable c d -> In n (must_stay_fixed c) ->
  (exists p, In p d /\ par_name p = n) /\ forall p, In p d -> par_name p = n -> par_fixed p = true.
Proof.
  intros c d n H I. apply reachable_inv in H. destruct H as [N A]. apply must_stay_fixed_eq in I. split.
  - assert (K := always_fixed_known c n I). rewrite <- N in K. apply in_map_iff in K.
    destruct K as [p [E Hp]]. exists p. auto.
  - intros p Hp <-. now apply A.
Qed.
Print Assumptions C01_always_fixed_stay_fixed.

(** The always-fixed parameters are exactly the ones that no call sequence can free. *)
Theorem C01_exactly_those : forall c d p, reachable c d -> In p d ->
  (In (par_name p) (must_stay_fixed c) <->
   forall ms q, In q (mutate_all c ms d) -> par_name q = par_name p -> par_fixed q = true).
Proof.
  intros c d p H Hp. split.
  - intros I ms q Hq E. assert (R : reachable c (mutate_all c ms d)).
    { unfold mutate_all. clear Hq. revert d H Hp. induction ms as [|m ms IH]; intros d H Hp; simpl; [exact H|].
      assert (H' := reach_step c d m H).
      destruct (proj1 (C01_always_fixed_stay_fixed c _ _ H' I)) as [p' [Hp' Ep']].
      clear IH. revert H'. generalize (snd (mutate c m d)). clear.
      induction ms as [|m ms IH]; intros d H; simpl; [exact H|]. apply IH. now apply reach_step. }
    exact (proj2 (C01_always_fixed_stay_fixed c _ _ R I) q Hq E).
  - intros H1. destruct (in_dec string_dec (par_name p) (must_stay_fixed c)) as [I|I]; [exact I|exfalso].
    specialize (H1 [MReleaseAll]). simpl in H1.
    specialize (H1 (mkPar (par_name p) (par_value p) false)).
    assert (C : false = true); [|discriminate C].
    apply H1; [|reflexivity]. unfold mutate_all. simpl. unfold release_all. apply in_map_iff. exists p.
    split; [|exact Hp]. destruct (str_in (par_name p) (always_fixed c)) eqn:E; [|reflexivity].
    apply str_in_In in E. apply must_stay_fixed_eq in E. contradiction.
Qed.
Print Assumptions C01_exactly_those.

(** Instance: a history with raising calls. *)
Example C01_instance : exists d0 d, construct PKaonB demo_kaon_kw = Ok d0 /\
  d = mutate_all PKaonB [MReleaseAll; MRelease ["mass_rho"]; MSetItem "t_0_isovector" (Some (mkPar "t_0_isovector" 2 false));
                         MSetValue "mass_rho" 7; MUpdateFree [1; 2]; MFix ["a_phi"; "unknown"]] d0 /\
  reachable PKaonB d /\ getitem d "mass_rho" = Ok (mkPar "mass_rho" 7 true) /\
  getitem d "a_phi" = Ok (mkPar "a_phi" 1 true) /\ getitem d "a_rho" = Ok (mkPar "a_rho" 1 false).
Proof.
  destruct demo_kaon_built as [d0 [E _]]. exists d0. eexists. split; [exact E|]. split; [reflexivity|].
  split.
  - do 6 apply reach_step. now apply reach_init with (kw := demo_kaon_kw).
  - unfold construct in E. rewrite (construct_ok_table _ (tables_ok PKaonB)) in E by (apply perm_check_ok; reflexivity).
    injection E as <-. repeat split.
Qed.

(** ** C02 *)

Theorem C02_names_never_change : forall c kw d0 d, construct c kw = Ok d0 -> reachable c d ->
  map par_name d = map par_name d0 /\ NoDup (map par_name d) /\ Permutation (map par_name d) (map fst kw).
Proof.
  intros c kw d0 d H0 H. assert (I0 := reachable_inv c d0 (reach_init c kw d0 H0)).
  assert (I := reachable_inv c d H). split; [|split].
  - destruct I0 as [N0 _], I as [N _]. unfold names in *. congruence.
  - exact (inv_names_NoDup c d I).
  - apply construct_iff in H0. destruct H0 as [P _]. destruct I as [N _]. unfold names in N. rewrite N.
    now symmetry.
Qed.
Print Assumptions C02_names_never_change.

(** Right after construction every parameter carries the given value. *)
Theorem C02_constructor_values : forall c kw d, construct c kw = Ok d ->
  forall n v, In (n, v) kw -> val d n = v.
Proof.
  intros c kw d H n v I. apply construct_iff in H. destruct H as [P ->].
  assert (ND : NoDup (map fst kw)).
  { eapply Permutation_NoDup; [symmetry; exact P|apply class_names_NoDup]. }
  assert (Hn : In n (class_names c)).
  { apply (Permutation_in _ P). change n with (fst (n, v)). now apply in_map. }
  assert (L := lookup_NoDup_In _ _ _ _ ND I).
  unfold built. unfold class_names in Hn. revert Hn. induction (ct_setup (table c)) as [|s l IH]; [intros []|].
  intros Hn. simpl. destruct (String.eqb_spec (set_name s) n) as [E|N]; simpl.
  - unfold kwval. rewrite E, L. reflexivity.
  - apply IH. destruct Hn; [contradiction|assumption].
Qed.
Print Assumptions C02_constructor_values.

(** A constructor call raises TypeError unless it gets every parameter exactly once. *)
Theorem C02_constructor_rejects : forall c kw d, reachable c d ->
  ~ Permutation (map fst kw) (map par_name d) -> construct c kw = Err TypeError.
Proof.
  intros c kw d H P. apply reachable_inv in H. destruct H as [N _]. unfold names in N. rewrite N in P.
  exact (construct_err_table _ (tables_ok c) kw P).
Qed.
Print Assumptions C02_constructor_rejects.

Example C02_instance : reachable PETGMR (mutate_all PETGMR [MFix ["m_d"]; MUpdateFree [5; 6]] demo_etgmr) /\
  mutate_all PETGMR [MFix ["m_d"]; MUpdateFree [5; 6]] demo_etgmr =
  [mkPar "a" 5 false; mkPar "m_a" 6 false; mkPar "m_d" 3 true].
Proof.
  split; [|reflexivity]. do 2 apply reach_step. now apply reach_init with (kw := [("m_d", 3); ("a", 1); ("m_a", 2)]).
Qed.

(** ** C03: for every list of parameters, reachable or not *)

Theorem C03_wrong_length_rejected : forall d vs,
  length vs <> length (filter (fun p => negb (par_fixed p)) d) ->
  update_free_values vs d = (Err ValueError, d).
Proof. exact update_free_bad. Qed.
Print Assumptions C03_wrong_length_rejected.

Theorem C03_update_then_get : forall d vs,
  length vs = length (filter (fun p => negb (par_fixed p)) d) ->
  exists d', update_free_values vs d = (Ok tt, d') /\ get_free_values d' = vs /\
    map par_name d' = map par_name d /\ map par_fixed d' = map par_fixed d /\
    get_fixed_values d' = get_fixed_values d /\
    Forall2 (fun p q => par_fixed p = true -> q = p) d d'.
Proof.
  intros d vs L. exists (fill d vs). split; [now apply update_free_ok|]. split; [now apply fill_free|].
  split; [exact (fill_names d vs)|]. split; [apply fill_flags|]. split; [|apply fill_fixed].
  unfold get_fixed_values. clear L. revert vs. induction d as [|p d IH]; intros vs; simpl; [reflexivity|].
  destruct (par_fixed p) eqn:F; simpl.
  - rewrite F. simpl. now rewrite IH.
  - destruct vs; simpl; rewrite F; [reflexivity|apply IH].
Qed.
Print Assumptions C03_update_then_get.

Theorem C03_write_back_is_noop : forall d, update_free_values (get_free_values d) d = (Ok tt, d).
Proof.
  intros d. rewrite update_free_ok; [now rewrite fill_self|].
  unfold get_free_values. now rewrite map_length.
Qed.
Print Assumptions C03_write_back_is_noop.

Theorem C03_second_update_wins : forall d vs ws d1,
  update_free_values vs d = (Ok tt, d1) -> length ws = length vs ->
  update_free_values ws d1 = update_free_values ws d.
Proof.
  intros d vs ws d1 H L. destruct (Nat.eq_dec (length vs) (count_free d)) as [E|E].
  2:{ rewrite update_free_bad in H by assumption. discriminate. }
  rewrite update_free_ok in H by assumption. injection H as <-.
  assert (C : count_free (fill d vs) = count_free d).
  { unfold count_free, is_free. rewrite <- (map_length par_value). fold (get_free_values (fill d vs)).
    rewrite fill_free by assumption. exact E. }
  rewrite !update_free_ok by congruence. f_equal.
  assert (G : forall d vs ws, length vs = count_free d -> length ws = count_free d -> fill (fill d vs) ws = fill d ws).
  { clear. unfold count_free, is_free. induction d as [|p d IH]; intros vs ws L1 L2; simpl in *; [reflexivity|].
    destruct (par_fixed p) eqn:F; simpl in *.
    - rewrite F. f_equal. now apply IH.
    - destruct vs as [|v vs]; [discriminate|]. destruct ws as [|w ws]; [discriminate|].
      simpl. rewrite F. simpl in *. f_equal. apply IH; congruence. }
  apply G; congruence.
Qed.
Print Assumptions C03_second_update_wins.

Example C03_instance :
  update_free_values [8; 9] [mkPar "a" 5 false; mkPar "m_a" 6 true; mkPar "m_d" 3 false] =
    (Ok tt, [mkPar "a" 8 false; mkPar "m_a" 6 true; mkPar "m_d" 9 false]) /\
  update_free_values [8] [mkPar "a" 5 false; mkPar "m_a" 6 true; mkPar "m_d" 3 false] =
    (Err ValueError, [mkPar "a" 5 false; mkPar "m_a" 6 true; mkPar "m_d" 3 false]).
Proof. split; reflexivity. Qed.

(** ** C04 (isolation of copies is in PropsWorld.v) *)

Theorem C04_copy_equal : forall c d, reachable c d -> copy c d = Ok d.
Proof. intros c d H. apply copy_self. now apply reachable_inv. Qed.
Print Assumptions C04_copy_equal.

Theorem C04_from_list_permutation : forall c l l', NoDup (map par_name l) -> Permutation l l' ->
  from_list c l = from_list c l'.
Proof.
  intros c l l' ND P.
  assert (PN : Permutation (names l) (names l')) by now apply Permutation_map.
  assert (In_eq : forall n, In n (names l) <-> In n (names l')).
  { intros n. split; apply Permutation_in; [assumption|now symmetry]. }
  assert (ND' : NoDup (names l')) by (eapply Permutation_NoDup; eassumption).
  destruct (from_list c l) as [d|e] eqn:E1.
  - apply from_list_iff in E1. destruct E1 as [K ->]. symmetry. apply from_list_iff.
    split; [intros n; now rewrite <- In_eq|].
    unfold rebuilt. apply map_ext. intros s.
    assert (V : kwval (dict_of l) (set_name s) = kwval (dict_of l') (set_name s)).
    { unfold kwval. rewrite !dict_of_lookup.
      destruct (in_dec string_dec (set_name s) (names l)) as [I|I].
      - apply in_map_iff in I. destruct I as [p [<- Hp]].
        rewrite (lookup_last_NoDup l p ND Hp).
        rewrite (lookup_last_NoDup l' p ND' (Permutation_in _ P Hp)). reflexivity.
      - assert (Nn : forall l0, ~ In (set_name s) (names l0) -> last_value l0 (set_name s) = None).
        { intros l0 H0. rewrite <- dict_of_lookup. apply lookup_None. now rewrite dict_of_keys. }
        rewrite !Nn; [reflexivity| |exact I]. now rewrite <- In_eq. }
    assert (F : str_in (set_name s) (names (filter par_fixed l)) = str_in (set_name s) (names (filter par_fixed l'))).
    { apply eq_true_iff_eq. rewrite !str_in_In.
      assert (PF : Permutation (names (filter par_fixed l)) (names (filter par_fixed l'))).
      { apply Permutation_map. clear - P. induction P; simpl.
        - constructor.
        - destruct (par_fixed x); [now constructor|assumption].
        - destruct (par_fixed x), (par_fixed y); try constructor; apply Permutation_refl.
        - etransitivity; eassumption. }
      split; apply Permutation_in; [assumption|now symmetry]. }
    now rewrite V, F.
  - destruct (from_list c l') as [d|e'] eqn:E2.
    + exfalso. apply from_list_iff in E2. destruct E2 as [K _].
      assert (from_list c l = Ok (rebuilt (table c) l)); [|congruence].
      apply from_list_iff. split; [intros n; now rewrite In_eq|reflexivity].
    + rewrite (from_list_raises _ _ _ E1), (from_list_raises _ _ _ E2). reflexivity.
Qed.
Print Assumptions C04_from_list_permutation.

(** Accepted lists: exactly those mentioning every parameter of the class and nothing else. *)
Theorem C04_from_list_accepts : forall c l d0, reachable c d0 ->
  ((exists d, from_list c l = Ok d) <-> (forall n, In n (map par_name l) <-> In n (map par_name d0))) /\
  (forall e, from_list c l = Err e -> e = TypeError).
Proof.
  intros c l d0 H. apply reachable_inv in H. destruct H as [N _]. unfold names in N. rewrite N. split.
  - split.
    + intros [d E]. apply from_list_iff in E. tauto.
    + intros K. eexists. apply from_list_iff. split; [exact K|reflexivity].
  - apply from_list_raises.
Qed.
Print Assumptions C04_from_list_accepts.

Lemma find_last : forall n (l : list Par) p, List.find (fun q => String.eqb (par_name q) n) (rev l) = Some p ->
  exists pre post, l = pre ++ p :: post /\ par_name p = n /\ ~ In n (names post).
Proof.
  intros n l p. induction l as [|q l IH] using rev_ind; [discriminate|].
  rewrite rev_app_distr. simpl. destruct (String.eqb_spec (par_name q) n) as [E|E]; intros H.
  - injection H as ->. exists l, []. auto.
  - destruct (IH H) as [pre [post [-> [En NI]]]]. exists pre, (post ++ [q]). rewrite <- app_assoc.
    split; [reflexivity|]. split; [assumption|]. rewrite names_app, in_app_iff. simpl. tauto.
Qed.

(** Contents: the last entry of a name gives the value; a parameter is fixed when the class demands it or
    when any entry of that name is fixed. *)
Theorem C04_from_list_contents : forall c l d p, from_list c l = Ok d -> In p d ->
  (exists pre q post, l = pre ++ q :: post /\ par_name q = par_name p /\ par_value q = par_value p /\
     ~ In (par_name p) (map par_name post)) /\
  (par_fixed p = true <->
   In (par_name p) (must_stay_fixed c) \/ exists q, In q l /\ par_name q = par_name p /\ par_fixed q = true).
Proof.
  intros c l d p H Hp. apply from_list_iff in H. destruct H as [K ->].
  unfold rebuilt in Hp. apply in_map_iff in Hp. destruct Hp as [s [<- Hs]]. cbn [par_name par_value par_fixed]. split.
  - assert (Hn : In (set_name s) (names l)) by (apply K; unfold class_names; now apply in_map).
    unfold kwval. rewrite dict_of_lookup. unfold last_value.
    destruct (List.find (fun q => String.eqb (par_name q) (set_name s)) (rev l)) as [q|] eqn:E.
    + destruct (find_last _ _ _ E) as [pre [post [-> [En NI]]]]. exists pre, q, post. auto.
    + exfalso. apply in_map_iff in Hn. destruct Hn as [q [Eq Hq]].
      apply in_rev in Hq. assert (F := find_none _ _ E q Hq). simpl in F. rewrite Eq, String.eqb_refl in F. discriminate.
  - rewrite orb_true_iff, !str_in_In, must_stay_fixed_eq. unfold always_fixed. apply or_iff_compat_l.
    unfold names. rewrite in_map_iff. split.
    + intros [q [Eq Hq]]. apply filter_In in Hq. exists q. tauto.
    + intros [q [Hq [Eq Fq]]]. exists q. split; [assumption|]. apply filter_In. tauto.
Qed.
Print Assumptions C04_from_list_contents.

(** Without distinct names the order matters. *)
Theorem C04_permutation_with_duplicates_refuted : exists c l l', Permutation l l' /\
  (exists d d', from_list c l = Ok d /\ from_list c l' = Ok d' /\ d <> d').
Proof.
  exists PETGMR, [mkPar "a" 1 false; mkPar "a" 2 false; mkPar "m_a" 2 false; mkPar "m_d" 3 false],
    [mkPar "a" 2 false; mkPar "a" 1 false; mkPar "m_a" 2 false; mkPar "m_d" 3 false].
  split; [constructor|]. eexists. eexists. split; [reflexivity|]. split; [reflexivity|].
  intros E. injection E as E. lra.
Qed.
Print Assumptions C04_permutation_with_duplicates_refuted.

Example C04_instance : from_list PETGMR [mkPar "m_d" 3 true; mkPar "a" 1 false; mkPar "m_a" 2 false] =
    Ok [mkPar "a" 1 false; mkPar "m_a" 2 false; mkPar "m_d" 3 true] /\
  from_list PETGMR [mkPar "m_d" 3 true; mkPar "a" 1 false] = Err TypeError /\
  NoDup (map par_name [mkPar "m_d" 3 true; mkPar "a" 1 false; mkPar "m_a" 2 false]).
Proof. split; [reflexivity|]. split; [reflexivity|]. apply nodupb_NoDup. reflexivity. Qed.

(** ** C05 *)

Lemma ordered_constants_eq : forall c fo, ct_from_ordered (table c) = Some fo -> ordered_constants c = Some (fo_formals fo).
Proof. intros c fo. destruct c; simpl; intros H; try discriminate; injection H as <-; reflexivity. Qed.

Lemma ordered_constants_fixed : forall c cs, ordered_constants c = Some cs -> forall n, In n cs -> In n (must_stay_fixed c).
Proof.
  intros c cs O n H. assert (K : forallb (fun m => mem m (must_stay_fixed c)) cs = true).
  { destruct c; simpl in O; try discriminate; injection O as <-; reflexivity. }
  rewrite forallb_forall in K. apply mem_In. now apply K.
Qed.

Lemma ordered_constants_some : forall c l, ordered_constants c = Some l ->
  exists fo, ct_from_ordered (table c) = Some fo /\ fo_formals fo = l /\ length (fo_names fo) = ordered_count c.
Proof.
  intros c l. destruct c; simpl; intros H; try discriminate; injection H as <-;
    eexists; (split; [reflexivity|]; split; reflexivity).
Qed.

Lemma get_ordered_values : forall c d, names d = class_names c ->
  get_ordered c d = Ok (map (val d) (ct_ordered (table c))).
Proof.
  intros c d N. unfold get_ordered, ordered_table.
  assert (K := proj2 (proj2 (proj2 (proj2 (proj2 (proj2 (proj2 (proj2 (proj2 (ct_facts _ (tables_ok c))))))))))).
  revert K. induction (ct_ordered (table c)) as [|n l IH]; intros K; [reflexivity|].
  cbn [mapM]. destruct (getitem_value d n) as [p [G [_ [_ V]]]].
  { rewrite N. apply K. now left. }
  rewrite G. cbn [bind]. rewrite IH by (intros; apply K; now right). cbn [bind map].
  now rewrite V.
Qed.

Lemma combine_map_self : forall (f : string -> R) l, combine l (map f l) = map (fun n => (n, f n)) l.
Proof. intros f. induction l as [|n l IH]; simpl; [reflexivity|]. now rewrite IH. Qed.

(** The list handed to [from_list]. *)
Lemma from_ordered_eq : forall c fo vs consts, ct_from_ordered (table c) = Some fo ->
  length consts = length (fo_formals fo) -> length vs = length (fo_names fo) ->
  exists l, from_ordered c vs consts = from_list c l /\
    map par_name l = fo_names fo ++ fo_formals fo /\ map par_value l = vs ++ consts /\
    map par_fixed l = repeat false (length vs) ++ repeat true (length consts).
Proof.
  intros c fo vs consts E L1 L2. unfold from_ordered, from_ordered_table. rewrite E.
  rewrite L1, L2, !Nat.eqb_refl. cbn [negb].
  destruct (ct_facts _ (tables_ok c)) as [_ [_ [_ [_ [_ [_ [_ [_ [F _]]]]]]]]].
  destruct (F fo E) as [_ [_ [C1 [C2 C3]]]].
  assert (M : exists ext, mapM (fun s => let '(n, x, f) := s in
                              v <- local (combine (fo_formals fo) consts) x ;; Ok (mkPar n v f)) (fo_constants fo) = Ok ext /\
            map par_name ext = fo_formals fo /\ map par_value ext = consts /\
            map par_fixed ext = repeat true (length consts)).
  { assert (ND : NoDup (fo_formals fo)).
    { assert (O := ordered_constants_eq c fo E). apply nodupb_NoDup.
      destruct c; simpl in O; try discriminate; injection O as <-; reflexivity. }
    set (e := combine (fo_formals fo) consts).
    assert (Ke : forall n v, In (n, v) e -> lookup e n = Some v).
    { intros n v. apply lookup_NoDup_In. unfold e.
      assert (Q : forall (a : list string) (b : list R), length b = length a -> map fst (combine a b) = a).
      { induction a as [|x a IHa]; intros [|y b] Hl; try discriminate; [reflexivity|]. simpl. f_equal. apply IHa. simpl in Hl. congruence. }
      rewrite Q by assumption. exact ND. }
    assert (G : forall sl (xs : list string) (ys : list R), map set_name sl = xs -> map (fun s => snd (fst s)) sl = xs ->
        (forall s, In s sl -> snd s = true) -> length ys = length xs -> (forall n v, In (n, v) (combine xs ys) -> In (n, v) e) ->
        exists ext, mapM (fun s => let '(n, x, f) := s in v <- local e x ;; Ok (mkPar n v f)) sl = Ok ext /\
            map par_name ext = xs /\ map par_value ext = ys /\ map par_fixed ext = repeat true (length ys)).
    { induction sl as [|[[n x] b] sl IH]; intros xs ys H1 H2 H3 H4 H5.
      - simpl in H1. subst xs. destruct ys; [|discriminate]. exists []. repeat split.
      - destruct xs as [|x0 xs]; [discriminate|]. destruct ys as [|y ys]; [discriminate|].
        unfold set_name in H1. simpl in H1, H2. injection H1 as -> H1. injection H2 as -> H2.
        assert (B := H3 _ (or_introl eq_refl)). simpl in B. subst b.
        destruct (IH xs ys) as [ext [M1 [M2 [M3 M4]]]]; auto.
        + intros s Hs. apply H3. now right.
        + intros n v Hn. apply H5. now right.
        + exists (mkPar x0 y true :: ext). cbn [mapM]. unfold local at 1.
          rewrite (Ke x0 y) by (apply H5; now left). cbn [bind]. rewrite M1. cbn [bind].
          simpl. rewrite M2, M3, M4. auto. }
    apply G; auto. }
  destruct M as [ext [M1 [M2 [M3 M4]]]]. rewrite M1. cbn [bind].
  eexists. split; [reflexivity|]. rewrite !map_app, !map_map. cbn [par_name par_value par_fixed].
  rewrite M2, M3, M4.
  assert (Q : forall (a : list string) (b : list R), length b = length a ->
     map (fun x : string * R => fst x) (combine a b) = a /\ map (fun x : string * R => snd x) (combine a b) = b /\
     map (fun _ : string * R => false) (combine a b) = repeat false (length b)).
  { induction a as [|x a IHa]; intros [|y b] Hl; try discriminate; [repeat split|].
    simpl in Hl. destruct (IHa b) as [I1 [I2 I3]]; [congruence|]. simpl. rewrite I1, I2, I3. auto. }
  destruct (Q (fo_names fo) vs L2) as [Q1 [Q2 Q3]]. rewrite Q1, Q2, Q3, <- L1, <- L2. auto.
Qed.

Lemma app_split_length : forall A (a a' b b' : list A), length a = length a' -> a ++ b = a' ++ b' -> a = a' /\ b = b'.
Proof.
  induction a as [|x a IH]; intros [|y a'] b b' L H; try discriminate; [auto|].
  simpl in *. injection H as -> H. destruct (IH a' b b') as [-> ->]; auto.
Qed.

Lemma val_rebuilt : forall c l p, NoDup (map par_name l) -> In p l -> In (par_name p) (class_names c) ->
  val (rebuilt (table c) l) (par_name p) = par_value p.
Proof.
  intros c l p ND Hp Hn. unfold rebuilt. unfold class_names in Hn.
  assert (V : kwval (dict_of l) (par_name p) = par_value p).
  { unfold kwval. rewrite dict_of_lookup, (lookup_last_NoDup l p ND Hp). reflexivity. }
  revert Hn. induction (ct_setup (table c)) as [|s sl IH]; intros Hn; [contradiction|].
  simpl. destruct (String.eqb_spec (set_name s) (par_name p)) as [E|N].
  - rewrite E. exact V.
  - apply IH. destruct Hn; [contradiction|assumption].
Qed.

Lemma map_val_self : forall d, NoDup (map par_name d) -> map (val d) (map par_name d) = map par_value d.
Proof.
  intros d ND. rewrite map_map. apply map_ext_in. intros p Hp.
  induction d as [|q d IH]; [contradiction|]. simpl in *. inversion ND; subst.
  destruct Hp as [->|Hp].
  - now rewrite String.eqb_refl.
  - destruct (String.eqb_spec (par_name q) (par_name p)) as [E|N]; [|auto].
    exfalso. apply H1. rewrite E. now apply in_map.
Qed.

(** Any list of the right length is accepted; reading it back returns it; exactly the class's always-fixed
    parameters are fixed. *)
Theorem C05_from_ordered_then_get : forall c cs vs consts, ordered_constants c = Some cs ->
  length vs = ordered_count c -> length consts = length cs ->
  exists d, from_ordered c vs consts = Ok d /\ get_ordered c d = Ok vs /\ map (val d) cs = consts /\
    forall p, In p d -> (par_fixed p = true <-> In (par_name p) (must_stay_fixed c)).
Proof.
  intros c cs vs consts O L1 L2. destruct (ordered_constants_some c cs O) as [fo [E [Ef Ec]]].
  destruct (from_ordered_eq c fo vs consts E) as [l [El [Nl [Vl Fl]]]]; [congruence|congruence|].
  destruct (ct_facts _ (tables_ok c)) as [NDc [_ [_ [_ [_ [_ [_ [_ [F _]]]]]]]]].
  destruct (F fo E) as [Eo [Pn [C1 _]]]. rewrite C1 in Pn.
  assert (ND : NoDup (map par_name l)).
  { rewrite Nl. eapply Permutation_NoDup; [symmetry; exact Pn|exact NDc]. }
  assert (K : forall n, In n (names l) <-> In n (class_names c)).
  { intros n. unfold names. rewrite Nl. split; apply Permutation_in; [exact Pn|now symmetry]. }
  exists (rebuilt (table c) l).
  assert (V : map (val (rebuilt (table c) l)) (fo_names fo ++ fo_formals fo) = vs ++ consts).
  { rewrite <- Nl, <- Vl, map_map. apply map_ext_in. intros p Hp. apply val_rebuilt; auto.
    apply K. unfold names. now apply in_map. }
  rewrite map_app in V. apply app_split_length in V; [|rewrite map_length; congruence].
  destruct V as [V1 V2]. split; [|split; [|split]].
  - rewrite El. apply from_list_iff. auto.
  - rewrite get_ordered_values by exact (rebuilt_names _ l). rewrite <- Eo. now rewrite V1.
  - now rewrite <- Ef.
  - intros p Hp.
    assert (H : from_list c l = Ok (rebuilt (table c) l)) by (apply from_list_iff; auto).
    destruct (C04_from_list_contents c l _ p H Hp) as [_ Q]. rewrite Q.
    split; [|tauto]. intros [I|[q [Hq [Eq Fq]]]]; [exact I|].
    rewrite <- Eq. (* the fixed entries are the constants *)
    assert (In (par_name q) (fo_formals fo)).
    { assert (G : forall (l : list Par) xs ys n, map par_name l = xs ++ ys -> map par_fixed l = repeat false (length xs) ++ repeat true n ->
         In q l -> In (par_name q) ys).
      { clear - Fq. induction l as [|x l IH]; intros xs ys n H1 H2 Hq; [contradiction|].
        destruct xs as [|y xs]; simpl in H1, H2.
        - rewrite <- H1. destruct Hq as [->|Hq]; [now left|right; now apply in_map].
        - injection H1 as E1 H1. injection H2 as E2 H2. destruct Hq as [->|Hq]; [congruence|]. eapply IH; eassumption. }
      apply (G l (fo_names fo) (fo_formals fo) (length consts)); auto.
      rewrite Fl. f_equal. f_equal. congruence. }
    rewrite Ef in H0. exact (ordered_constants_fixed c cs O _ H0).
Qed.
Print Assumptions C05_from_ordered_then_get.

Theorem C05_round_trip : forall c cs d, ordered_constants c = Some cs -> reachable c d ->
  exists vs d', get_ordered c d = Ok vs /\ length vs = ordered_count c /\
    from_ordered c vs (map (val d) cs) = Ok d' /\
    map par_name d' = map par_name d /\ map par_value d' = map par_value d.
Proof.
  intros c cs d O R. assert (I := reachable_inv c d R). assert (ND := inv_names_NoDup c d I).
  destruct (ordered_constants_some c cs O) as [fo [E [Ef Ec]]].
  destruct (ct_facts _ (tables_ok c)) as [NDc [_ [_ [_ [_ [_ [_ [_ [F _]]]]]]]]].
  destruct (F fo E) as [Eo [Pn [C1 _]]]. rewrite C1 in Pn.
  assert (G := get_ordered_values c d (proj1 I)).
  assert (L : length (map (val d) (ct_ordered (table c))) = ordered_count c)
    by (rewrite map_length, <- Eo; exact Ec).
  destruct (C05_from_ordered_then_get c cs (map (val d) (ct_ordered (table c))) (map (val d) cs) O L)
    as [d' [H1 [H2 [H3 _]]]]; [now rewrite map_length|].
  assert (R' : reachable c d') by (eapply reach_from_ordered; exact H1).
  assert (I' := reachable_inv c d' R'). assert (ND' := inv_names_NoDup c d' I').
  assert (EN : map par_name d' = map par_name d).
  { destruct I as [N _], I' as [N' _]. unfold names in *. congruence. }
  exists (map (val d) (ct_ordered (table c))), d'. split; [exact G|]. split; [exact L|]. split; [exact H1|].
  split; [exact EN|].
  rewrite <- (map_val_self d ND), <- (map_val_self d' ND'), EN.
  apply map_ext_in. intros n Hn.
  rewrite get_ordered_values in H2 by exact (proj1 I'). injection H2 as H2.
  assert (Hn' : In n (ct_ordered (table c) ++ cs)).
  { rewrite <- Eo, <- Ef. apply (Permutation_in _ (Permutation_sym Pn)).
    destruct I as [N _]. unfold names in N. now rewrite N in Hn. }
  assert (PW : forall l (f g : string -> Rdefinitions.RbaseSymbolsImpl.R), map f l = map g l -> forall x, In x l -> f x = g x).
  { clear. induction l as [|y l IH]; intros f g H x []; simpl in H; injection H as Ha Hb; [now subst|now apply IH]. }
  apply in_app_or in Hn'. destruct Hn' as [Hn'|Hn']; [exact (PW _ _ _ H2 n Hn')|exact (PW _ _ _ H3 n Hn')].
Qed.
Print Assumptions C05_round_trip.

Theorem C05_wrong_length : forall c cs vs consts, ordered_constants c = Some cs -> length consts = length cs ->
  length vs <> ordered_count c -> from_ordered c vs consts = Err AssertionError.
Proof.
  intros c cs vs consts O L N. destruct (ordered_constants_some c cs O) as [fo [E [Ef Ec]]].
  unfold from_ordered, from_ordered_table. rewrite E, L, Ef, Nat.eqb_refl. cbn [negb].
  destruct (Nat.eqb_spec (length vs) (length (fo_names fo))) as [C|C]; [exfalso; congruence|reflexivity].
Qed.
Print Assumptions C05_wrong_length.

(** [ETGMRModelParameters.get_ordered_values] does not determine the store. *)
Theorem C05_etgmr_reconstruction_refuted : exists d d', reachable PETGMR d /\ reachable PETGMR d' /\
  get_ordered PETGMR d = get_ordered PETGMR d' /\ map par_value d <> map par_value d'.
Proof.
  exists demo_etgmr, [mkPar "a" 1 false; mkPar "m_a" 2 false; mkPar "m_d" 4 false].
  split; [exact (reach_init PETGMR _ _ demo_etgmr_built)|].
  split; [apply (reach_init PETGMR [("m_d", 4); ("a", 1); ("m_a", 2)]); reflexivity|].
  split; [reflexivity|]. simpl. intros H. injection H as H. lra.
Qed.
Print Assumptions C05_etgmr_reconstruction_refuted.

Example C05_instance : exists d vs, reachable PNucleon d /\ get_ordered PNucleon d = Ok vs /\ nth 4 vs 0 = 5.
Proof.
  assert (O : ordered_constants PNucleon = Some ["nucleon_mass"; "magnetic_moment_proton"; "magnetic_moment_neutron";
     "t_0_dirac_isoscalar"; "t_0_dirac_isovector"; "t_0_pauli_isoscalar"; "t_0_pauli_isovector"]) by reflexivity.
  destruct (C05_from_ordered_then_get PNucleon _ (1 :: 2 :: 3 :: 4 :: 5 :: repeat 6 25) (repeat 7 7) O) as [d [H1 [H2 _]]];
    [reflexivity|reflexivity|].
  exists d. eexists. split; [exact (reach_from_ordered PNucleon _ _ d H1)|]. split; [exact H2|reflexivity].
Qed.

(** ** C07 *)

Lemma reflag_map : forall b l d,
  reflag (fun n => In n l) b d (map (fun p => if str_in (par_name p) l then with_flag b p else p) d).
Proof.
  intros b l. unfold reflag. induction d as [|p d IH]; simpl; constructor; [|exact IH].
  destruct (str_in (par_name p) l) eqn:E.
  - apply str_in_In in E. repeat split; auto. intros N. contradiction.
  - apply str_in_not in E. repeat split; auto. intros I. contradiction.
Qed.

Theorem C07_release_always_fixed_rejected : forall c d ns, (exists n, In n ns /\ In n (must_stay_fixed c)) ->
  mutate c (MRelease ns) d = (Err ValueError, d).
Proof.
  intros c d ns [n [Hn Ha]]. simpl. unfold release_parameters.
  destruct (existsb (fun m => str_in m (always_fixed c)) ns) eqn:E; [reflexivity|].
  exfalso. apply (proj1 (release_check _ _) E n Hn). now apply must_stay_fixed_eq.
Qed.
Print Assumptions C07_release_always_fixed_rejected.

Theorem C07_release_frees_exactly : forall c d ns, reachable c d ->
  (forall n, In n ns -> In n (map par_name d) /\ ~ In n (must_stay_fixed c)) ->
  exists d', mutate c (MRelease ns) d = (Ok tt, d') /\ reflag (fun n => In n ns) false d d'.
Proof.
  intros c d ns R H. assert (ND := inv_names_NoDup c d (reachable_inv c d R)).
  simpl. unfold release_parameters.
  assert (E : existsb (fun m => str_in m (always_fixed c)) ns = false).
  { apply release_check. intros n Hn C. destruct (H n Hn) as [_ N]. apply N. now apply must_stay_fixed_eq. }
  rewrite E. rewrite set_flags_known; [|exact ND|intros n Hn; exact (proj1 (H n Hn))].
  eexists. split; [reflexivity|apply reflag_map].
Qed.
Print Assumptions C07_release_frees_exactly.

Theorem C07_fix_fixes_exactly : forall c d ns, reachable c d ->
  (forall n, In n ns -> In n (map par_name d)) ->
  exists d', mutate c (MFix ns) d = (Ok tt, d') /\ reflag (fun n => In n ns) true d d'.
Proof.
  intros c d ns R H. assert (ND := inv_names_NoDup c d (reachable_inv c d R)).
  simpl. unfold fix_parameters. rewrite set_flags_known by assumption.
  eexists. split; [reflexivity|apply reflag_map].
Qed.
Print Assumptions C07_fix_fixes_exactly.

(** An unknown name: KeyError, with the flags of the names before it already changed. *)
Theorem C07_unknown_name : forall c d pre n post, reachable c d ->
  (forall m, In m pre -> In m (map par_name d)) -> ~ In n (map par_name d) ->
  (exists d', mutate c (MFix (pre ++ n :: post)) d = (Err KeyError, d') /\ reflag (fun m => In m pre) true d d') /\
  ((forall m, In m (pre ++ n :: post) -> ~ In m (must_stay_fixed c)) ->
   exists d', mutate c (MRelease (pre ++ n :: post)) d = (Err KeyError, d') /\ reflag (fun m => In m pre) false d d').
Proof.
  intros c d pre n post R K U. assert (ND := inv_names_NoDup c d (reachable_inv c d R)). split.
  - simpl. unfold fix_parameters. rewrite set_flags_unknown by assumption.
    eexists. split; [reflexivity|apply reflag_map].
  - intros H. simpl. unfold release_parameters.
    assert (E : existsb (fun m => str_in m (always_fixed c)) (pre ++ n :: post) = false).
    { apply release_check. intros m Hm C. apply (H m Hm). now apply must_stay_fixed_eq. }
    rewrite E, set_flags_unknown by assumption. eexists. split; [reflexivity|apply reflag_map].
Qed.
Print Assumptions C07_unknown_name.

(** fix_all / release_all. *)
Theorem C07_all : forall c d,
  (exists d', mutate c MFixAll d = (Ok tt, d') /\ reflag (fun _ => True) true d d') /\
  (exists d', mutate c MReleaseAll d = (Ok tt, d') /\ reflag (fun n => ~ In n (must_stay_fixed c)) false d d').
Proof.
  intros c d. split; eexists; (split; [reflexivity|]); unfold reflag.
  - unfold fix_all. induction d as [|p d IH]; simpl; constructor; [|exact IH].
    repeat split; auto. tauto.
  - unfold release_all. induction d as [|p d IH]; simpl; constructor; [|exact IH].
    destruct (str_in (par_name p) (always_fixed c)) eqn:E.
    + apply str_in_In in E. apply must_stay_fixed_eq in E. repeat split; auto. contradiction.
    + apply str_in_not in E. repeat split; auto. intros N. exfalso. apply N. intros C.
      apply must_stay_fixed_eq in C. contradiction.
Qed.
Print Assumptions C07_all.

Example C07_instance :
  mutate PETGMR (MFix ["m_d"; "zzz"; "a"]) demo_etgmr =
    (Err KeyError, [mkPar "a" 1 false; mkPar "m_a" 2 false; mkPar "m_d" 3 true]) /\
  reachable PETGMR demo_etgmr /\ ~ In "zzz" (map par_name demo_etgmr).
Proof.
  split; [reflexivity|]. split; [exact (reach_init PETGMR _ _ demo_etgmr_built)|].
  simpl. intros [H|[H|[H|[]]]]; discriminate.
Qed.
