(** Programs with shared objects behave like programs with values. *)
From Coq Require Import String Reals List Bool Arith Lia.
From Verif Require Import PyBase CNum PyExpr Params ParamClasses ParamProofs PerturbProofs CommonUtils UtilsSpec UtilsProofs
  World WorldSpec.
Import ListNotations.
Local Open Scope list_scope.
Local Open Scope py_scope.

(** ** Heap *)

Lemma set_lists_same : forall w, set_lists (w_lists w) w = w. Proof. now destruct w. Qed.
Lemma set_draws_same : forall w, set_draws (w_draws w) w = w. Proof. now destruct w. Qed.
Lemma set_lists_twice : forall a b w, set_lists a (set_lists b w) = set_lists a w. Proof. now destruct w. Qed.

Lemma nth_alloc : forall (h : list data) d, nth_error (h ++ [d]) (length h) = Some d.
Proof. intros h d. rewrite nth_error_app2, Nat.sub_diag by lia. reflexivity. Qed.

Lemma nth_alloc2 : forall (h : list data) d d', nth_error (h ++ [d; d']) (S (length h)) = Some d'.
Proof. induction h as [|x h IH]; intros d d'; [reflexivity|]. apply (IH d d'). Qed.

Lemma nth_extend : forall (h x : list data) a d, nth_error h a = Some d -> nth_error (h ++ x) a = Some d.
Proof.
  intros h x a d H. rewrite nth_error_app1; [exact H|]. apply nth_error_Some. congruence.
Qed.

Lemma nth_replace_same : forall h a (d d' : data), nth_error h a = Some d -> nth_error (replace h a d') a = Some d'.
Proof. induction h; intros [|a'] d d' H; simpl in *; try discriminate; auto. eapply IHh; eauto. Qed.

Lemma nth_replace_other : forall h a b (d : data), a <> b -> nth_error (replace h a d) b = nth_error h b.
Proof. induction h; intros [|a'] [|b] d H; simpl in *; auto; try congruence. Qed.

Lemma replace_end : forall h (d d' : data), replace (h ++ [d]) (length h) d' = h ++ [d'].
Proof. induction h; intros; simpl; [reflexivity|now rewrite IHh]. Qed.

Lemma replace_length : forall h a (d : data), length (replace h a d) = length h.
Proof. induction h; intros [|a'] d; simpl; auto. Qed.

Lemma replace_replace : forall h a (d d' : data), replace (replace h a d) a d' = replace h a d'.
Proof. induction h; intros [|a'] d d'; simpl; auto. now rewrite IHh. Qed.

Lemma replace_id : forall h a (d : data), nth_error h a = Some d -> replace h a d = h.
Proof. induction h; intros [|a'] d H; simpl in *; auto; try congruence. now rewrite IHh. Qed.

(** ** Objects *)

Lemma read_ok : forall a d w, nth_error (w_lists w) a = Some d -> read a w = (Ok d, w).
Proof. intros a d w H. unfold read. now rewrite H. Qed.

Lemma obj_new_ok : forall c kw d w, construct c kw = Ok d ->
  obj_new c kw w = (Ok (mkRef c (length (w_lists w))), set_lists (w_lists w ++ [d]) w).
Proof. intros c kw d w H. unfold obj_new, mbind, lift. rewrite H. reflexivity. Qed.

Lemma obj_new_err : forall c kw e w, construct c kw = Err e -> obj_new c kw w = (Err e, w).
Proof. intros c kw d w H. unfold obj_new, mbind, lift. now rewrite H. Qed.

Lemma obj_mutate_eq : forall r m d w, nth_error (w_lists w) (r_data r) = Some d ->
  obj_mutate r m w = (fst (mutate (r_class r) m d),
                      set_lists (replace (w_lists w) (r_data r) (snd (mutate (r_class r) m d))) w).
Proof.
  intros r m d w H. unfold obj_mutate, mbind. rewrite (read_ok _ _ _ H).
  destruct (mutate (r_class r) m d) as [res d']. reflexivity.
Qed.

Lemma obj_to_list_eq : forall r d w, nth_error (w_lists w) (r_data r) = Some d ->
  obj_to_list r w = (Ok (length (w_lists w)), set_lists (w_lists w ++ [d]) w).
Proof. intros r d w H. unfold obj_to_list, mbind. now rewrite (read_ok _ _ _ H). Qed.

Lemma obj_from_list_eq : forall c a l w, nth_error (w_lists w) a = Some l ->
  match from_list c l with
  | Ok d => obj_from_list c a w = (Ok (mkRef c (length (w_lists w))), set_lists (w_lists w ++ [d]) w)
  | Err e => obj_from_list c a w = (Err e, w) \/
             exists d, obj_from_list c a w = (Err e, set_lists (w_lists w ++ [d]) w)
  end.
Proof.
  intros c a l w H. unfold obj_from_list, mbind. rewrite (read_ok _ _ _ H).
  unfold from_list, from_list_table. change (construct_table (table c) (dict_of l)) with (construct c (dict_of l)).
  destruct (construct c (dict_of l)) as [d|e] eqn:K.
  - rewrite (obj_new_ok _ _ _ w K). cbn [bind].
    rewrite (obj_mutate_eq _ _ d) by (simpl; apply nth_alloc).
    simpl fst. simpl snd. simpl w_lists. rewrite replace_end, set_lists_twice.
    cbn [mutate fst]. fold (always_fixed c).
    rewrite (obj_mutate_eq _ _ (release_all (always_fixed c) d)) by (simpl; apply nth_alloc).
    cbn [r_class r_data mutate w_lists set_lists]. rewrite replace_end.
    change (set_lists ?x (mkWorld ?y _ _ _ _)) with (set_lists x w).
    destruct (fix_parameters (map par_name (filter par_fixed l)) (release_all (always_fixed c) d)) as [[[]|e] d2]; simpl.
    + reflexivity.
    + right. now exists d2.
  - rewrite (obj_new_err _ _ _ w K). cbn [bind]. now left.
Qed.

Lemma obj_copy_eq : forall r d w, nth_error (w_lists w) (r_data r) = Some d -> inv (r_class r) d ->
  obj_copy r w = (Ok (mkRef (r_class r) (S (length (w_lists w)))), set_lists (w_lists w ++ [d; d]) w).
Proof.
  intros r d w H I. unfold obj_copy, mbind. rewrite (obj_to_list_eq _ _ _ H).
  assert (K : nth_error (w_lists (set_lists (w_lists w ++ [d]) w)) (length (w_lists w)) = Some d) by apply nth_alloc.
  pose proof (obj_from_list_eq (r_class r) _ _ _ K) as E.
  pose proof (copy_self _ _ I) as Z. unfold copy in Z. rewrite Z in E. rewrite E.
  simpl w_lists. rewrite app_length, Nat.add_1_r, <- app_assoc, set_lists_twice. reflexivity.
Qed.

Lemma obj_perturb_eq : forall draws r size sr h d w, nth_error (w_lists w) (r_data r) = Some d ->
  snd (obj_perturb draws r size sr h w) =
  (let '(_, d', k') := perturb_model_parameters (r_class r) draws (w_draws w) size sr h d in
   set_draws k' (set_lists (replace (w_lists w) (r_data r) d') w)).
Proof.
  intros draws r size sr h d w H. unfold obj_perturb, mbind. rewrite (read_ok _ _ _ H).
  destruct (perturb_model_parameters (r_class r) draws (w_draws w) size sr h d) as [[[[]|e] d'] k']; reflexivity.
Qed.

(** ** Closures *)

Definition partial_ref (p : Partial) : Ref :=
  match p with PartialFormFactor r => r | PartialCrossSection _ _ _ r => r | PartialMisplaced r => r end.

Definition closure_store (k : closure) : store :=
  match k with FormFactorOf s => s | CrossSectionOf _ _ _ s => s | MisplacedOf s => s end.

Definition kind_rel (p : Partial) (k : closure) : Prop :=
  match p, k with
  | PartialFormFactor _, FormFactorOf _ => True
  | PartialCrossSection m a h _, CrossSectionOf m' a' h' _ => m = m' /\ a = a' /\ h = h'
  | PartialMisplaced _, MisplacedOf _ => True
  | _, _ => False
  end.

(** The private store of a closure differs from the store at creation only in free values. *)
Definition shifted (d d' : data) : Prop := exists vs, length vs = count_free d /\ d' = fill d vs.

Definition partial_rel (h : list data) (p : Partial) (k : closure) : Prop :=
  kind_rel p k /\ r_class (partial_ref p) = fst (closure_store k) /\
  inv (fst (closure_store k)) (snd (closure_store k)) /\
  exists d', nth_error h (r_data (partial_ref p)) = Some d' /\ shifted (snd (closure_store k)) d'.

Lemma shifted_refl : forall d, shifted d d.
Proof.
  intros d. exists (get_free_values d). split; [apply map_length|now rewrite fill_self].
Qed.

Lemma fill_count : forall d vs, count_free (fill d vs) = count_free d.
Proof.
  unfold count_free. induction d as [|p d IH]; intros vs; simpl; [reflexivity|].
  unfold is_free. destruct (par_fixed p) eqn:F; simpl; [rewrite F; simpl; apply IH|].
  destruct vs; simpl; rewrite F; simpl; [reflexivity|]. f_equal. apply IH.
Qed.

Lemma fill_fill : forall d vs ws, length vs = count_free d -> length ws = count_free d ->
  fill (fill d vs) ws = fill d ws.
Proof.
  unfold count_free, is_free. induction d as [|p d IH]; intros vs ws L L'; simpl in *; [reflexivity|].
  destruct (par_fixed p) eqn:F; simpl in *.
  - rewrite F. f_equal. now apply IH.
  - destruct vs as [|v vs]; [discriminate|]. destruct ws as [|x ws]; [discriminate|].
    simpl. rewrite F. simpl in *. unfold with_value at 1. simpl. f_equal. apply IH; congruence.
Qed.

Lemma misplaced_spec : forall c ts d, inv c d -> function_cross_section_misplaced c ts d =
  (_ <- buildable c d ;;
   match family_of c with
   | FKaon _ | FNucleon => Err ValueError
   | _ => mapM (fun p => Err (match nucleon_point p with Some _ => AttributeError | None => IndexError end)) ts
   end).
Proof.
  intros c ts d I. assert (ND := inv_names_NoDup c d I). destruct I as [N A].
  unfold function_cross_section_misplaced, buildable, get_ff_model. rewrite (dict_of_keywords d ND).
  assert (AUX : forall f, cross_section_nucleon_loop None f ts =
    mapM (fun p => Err (match nucleon_point p with Some _ => AttributeError | None => IndexError end)) ts).
  { intros f. destruct ts as [|q r]; [reflexivity|]. cbn [cross_section_nucleon_loop mapM]. rewrite reads_nucleon.
    now destruct (nucleon_point q) as [[[t pr] el]|]. }
  destruct c; cbn [family_of KaonSpec.kaon_class]; 
    try (match goal with |- context [UAModels.Kaon_init ?k true (keywords d)] => now destruct (UAModels.Kaon_init k true (keywords d)) end);
    try (match goal with |- context [Nucleon.Nucleon_init ?k true true (keywords d)] => now destruct (Nucleon.Nucleon_init k true true (keywords d)) as [[m c0]|] end).
  - rewrite !getitem_in by (rewrite N; cbn; tauto). cbn [bind]. apply AUX.
  - rewrite !getitem_in by (rewrite N; cbn; tauto). cbn [bind]. apply AUX.
  - reflexivity.
Qed.

Lemma call_partial_eq : forall p k ts args w, partial_rel (w_lists w) p k ->
  exists d', shifted (snd (closure_store k)) d' /\
    call_partial p ts args w = (closure_result k ts args, set_lists (replace (w_lists w) (r_data (partial_ref p)) d') w).
Proof.
  intros p k ts args w (K & C & I & d1 & H & vs & L & E).
  assert (A : forall (f : data -> Res (list R)) r, r = partial_ref p ->
    exists d', shifted (snd (closure_store k)) d' /\
      (mbind (obj_mutate r (MUpdateFree args)) (fun _ => obj_read r f)) w =
      ((s' <- with_free_values args (closure_store k) ;; f (snd s')),
       set_lists (replace (w_lists w) (r_data r) d') w)).
  { intros f r ->. unfold mbind. rewrite (obj_mutate_eq _ _ _ _ H). cbn [mutate].
    unfold with_free_values. destruct (Nat.eqb_spec (length args) (count_free (snd (closure_store k)))) as [Q|Q].
    - assert (Q' : length args = count_free d1) by (subst d1; now rewrite fill_count).
      rewrite (update_free_ok _ _ Q'). exists (fill d1 args). split.
      + exists args. split; [exact Q|]. subst d1. now apply fill_fill.
      + cbn [fst snd bind]. unfold obj_read, mbind.
        rewrite (read_ok _ (fill d1 args)) by (simpl; eapply nth_replace_same; eauto).
        unfold lift. f_equal. subst d1. now rewrite fill_fill.
    - assert (Q' : length args <> count_free d1) by (subst d1; now rewrite fill_count).
      rewrite (update_free_bad _ _ Q'). exists d1. split; [now exists vs|reflexivity]. }
  destruct p as [r|m a h r|r], k as [s|m' a' h' s|s]; simpl in K; try contradiction.
  - simpl in C. destruct (A (function_form_factor (r_class r) ts) r eq_refl) as (d' & S & Q).
    exists d'. split; [exact S|]. unfold call_partial. rewrite Q. f_equal. simpl. simpl in I.
    unfold with_free_values. destruct (Nat.eqb (length args) (count_free (snd s))); [|reflexivity].
    cbn [bind fst snd]. rewrite C. apply function_form_factor_spec. now apply inv_fill.
  - destruct K as (-> & -> & ->). simpl in C.
    destruct (A (function_cross_section (r_class r) ts m' a' h') r eq_refl) as (d' & S & Q).
    exists d'. split; [exact S|]. unfold call_partial. rewrite Q. f_equal. simpl. simpl in I.
    unfold with_free_values. destruct (Nat.eqb (length args) (count_free (snd s))); [|reflexivity].
    cbn [bind fst snd]. rewrite C. apply function_cross_section_spec. now apply inv_fill.
  - simpl in C. destruct (A (function_cross_section_misplaced (r_class r) ts) r eq_refl) as (d' & S & Q).
    exists d'. split; [exact S|]. unfold call_partial. rewrite Q. f_equal. simpl. simpl in I.
    unfold with_free_values. destruct (Nat.eqb (length args) (count_free (snd s))); [|reflexivity].
    cbn [bind fst snd]. rewrite C. apply misplaced_spec. now apply inv_fill.
Qed.

(** ** Simulation *)

Definition store_rel (h : list data) (r : Ref) (s : store) : Prop :=
  r_class r = fst s /\ nth_error h (r_data r) = Some (snd s) /\ inv (fst s) (snd s).

Definition list_rel (h : list data) (a : addr) (l : data) : Prop := nth_error h a = Some l.

Definition addresses (s : Prog) : list addr :=
  map r_data (pg_stores s) ++ map (fun p => r_data (partial_ref p)) (pg_partials s) ++ pg_lists s.

Definition sim (s : Prog) (v : VProg) : Prop :=
  let h := w_lists (pg_world s) in
  NoDup (addresses s) /\
  Forall2 (store_rel h) (pg_stores s) (v_stores v) /\
  Forall2 (partial_rel h) (pg_partials s) (v_closures v) /\
  Forall2 (list_rel h) (pg_lists s) (v_lists v) /\
  w_draws (pg_world s) = v_draws v.

Lemma Forall2_nth : forall A B (P : A -> B -> Prop) l l' i, Forall2 P l l' ->
  match nth_error l i, nth_error l' i with
  | Some a, Some b => P a b
  | None, None => True
  | _, _ => False
  end.
Proof.
  intros A B P l l' i F. revert i. induction F; intros [|i]; simpl; auto. apply IHF.
Qed.

Lemma Forall2_mono : forall A B (P Q : A -> B -> Prop) l l', (forall a b, In a l -> P a b -> Q a b) ->
  Forall2 P l l' -> Forall2 Q l l'.
Proof.
  intros A B P Q l l' H F. induction F; constructor.
  - apply H; simpl; auto.
  - apply IHF. intros a b I. apply H. simpl. auto.
Qed.

(** Keeping what a cell holds keeps the relations. *)
Lemma store_rel_keep : forall h h' r s, nth_error h' (r_data r) = nth_error h (r_data r) ->
  store_rel h r s -> store_rel h' r s.
Proof. intros h h' r s E (A & B & C). unfold store_rel. rewrite E. auto. Qed.

Lemma partial_rel_keep : forall h h' p k, nth_error h' (r_data (partial_ref p)) = nth_error h (r_data (partial_ref p)) ->
  partial_rel h p k -> partial_rel h' p k.
Proof. intros h h' p k E (A & B & C & D). unfold partial_rel. rewrite E. auto. Qed.

Lemma valid : forall s v a, sim s v -> In a (addresses s) -> exists d, nth_error (w_lists (pg_world s)) a = Some d.
Proof.
  intros s v a (_ & F1 & F2 & F3 & _) I. unfold addresses in I. rewrite !in_app_iff in I.
  destruct I as [I|[I|I]].
  - apply in_map_iff in I. destruct I as (r & <- & I).
    induction F1 as [|x y l l' H]; [destruct I|]. destruct I as [->|I]; [|auto]. destruct H as (_ & H & _). eauto.
  - apply in_map_iff in I. destruct I as (r & <- & I).
    induction F2 as [|x y l l' H]; [destruct I|]. destruct I as [->|I]; [|auto].
    destruct H as (_ & _ & _ & d & H & _). eauto.
  - induction F3 as [|x y l l' H]; [destruct I|]. destruct I as [->|I]; [|auto]. red in H. eauto.
Qed.

Lemma fresh : forall s v n, sim s v -> (length (w_lists (pg_world s)) <= n)%nat -> ~ In n (addresses s).
Proof.
  intros s v n S L I. destruct (valid _ _ _ S I) as (d & H).
  assert (n < length (w_lists (pg_world s)))%nat by (apply nth_error_Some; congruence). lia.
Qed.

(** Allocation only: everything visible is kept. *)
Lemma rels_extend : forall s v x, sim s v ->
  let h' := w_lists (pg_world s) ++ x in
  Forall2 (store_rel h') (pg_stores s) (v_stores v) /\
  Forall2 (partial_rel h') (pg_partials s) (v_closures v) /\
  Forall2 (list_rel h') (pg_lists s) (v_lists v).
Proof.
  intros s v x S h'. pose proof S as (_ & F1 & F2 & F3 & _).
  assert (E : forall a, In a (addresses s) -> nth_error h' a = nth_error (w_lists (pg_world s)) a).
  { intros a I. destruct (valid _ _ _ S I) as (d & H). rewrite H. now apply nth_extend. }
  unfold addresses in E. repeat split.
  - eapply Forall2_mono; [|exact F1]. intros r y I. apply store_rel_keep, E. rewrite in_app_iff. left. now apply in_map.
  - eapply Forall2_mono; [|exact F2]. intros r y I. apply partial_rel_keep, E. rewrite !in_app_iff. right. left.
    apply in_map_iff. eauto.
  - eapply Forall2_mono; [|exact F3]. intros r y I. unfold list_rel. rewrite E; auto. rewrite !in_app_iff. auto.
Qed.

Lemma sim_extend : forall w st ps ls v x k, sim (mkProg w st ps ls) v ->
  sim (mkProg (set_draws k (set_lists (w_lists w ++ x) w)) st ps ls)
      (mkVProg (v_stores v) (v_closures v) (v_lists v) k).
Proof.
  intros w st ps ls v x k S. destruct (rels_extend _ _ x S) as (A & B & C). destruct S as (N & _ & _ & _ & D).
  split; [exact N|]. simpl in *. auto.
Qed.

Lemma NoDup_insert : forall (a b : list addr) n, NoDup (a ++ b) -> ~ In n (a ++ b) -> NoDup ((a ++ [n]) ++ b).
Proof.
  intros a b n N F. rewrite <- app_assoc. simpl.
  apply (Permutation.Permutation_NoDup (l := n :: a ++ b)); [apply Permutation.Permutation_middle|now constructor].
Qed.

(** A new store at a fresh address. *)
Lemma sim_store : forall w st ps ls v x c d n, sim (mkProg w st ps ls) v ->
  (length (w_lists w) <= n)%nat -> nth_error (w_lists w ++ x) n = Some d -> inv c d ->
  sim (mkProg (set_lists (w_lists w ++ x) w) (st ++ [mkRef c n]) ps ls)
      (mkVProg (v_stores v ++ [(c, d)]) (v_closures v) (v_lists v) (v_draws v)).
Proof.
  intros w st ps ls v x c d n S L H I. destruct (rels_extend _ _ x S) as (A & B & C).
  pose proof (fresh _ _ _ S L) as F. destruct S as (N & _ & _ & _ & D).
  unfold sim, addresses in *. simpl in *. rewrite map_app. simpl. split; [|split; [|auto]].
  - now apply NoDup_insert.
  - apply Forall2_app; [exact A|]. constructor; [|constructor]. split; [|split]; auto.
Qed.

Lemma sim_partial : forall w st ps ls v x p q n, sim (mkProg w st ps ls) v ->
  (length (w_lists w) <= n)%nat -> r_data (partial_ref p) = n -> partial_rel (w_lists w ++ x) p q ->
  sim (mkProg (set_lists (w_lists w ++ x) w) st (ps ++ [p]) ls)
      (mkVProg (v_stores v) (v_closures v ++ [q]) (v_lists v) (v_draws v)).
Proof.
  intros w st ps ls v x p q n S L E H. destruct (rels_extend _ _ x S) as (A & B & C).
  pose proof (fresh _ _ _ S L) as F. destruct S as (N & _ & _ & _ & D).
  unfold sim, addresses in *. simpl in *. rewrite map_app. simpl. rewrite E.
  split; [|split; [exact A|split; [|auto]]].
  - rewrite app_assoc, (app_assoc (map r_data st)). rewrite app_assoc in N, F.
    apply NoDup_insert; auto.
  - apply Forall2_app; [exact B|]. constructor; [exact H|constructor].
Qed.

Lemma sim_list : forall w st ps ls v x d n, sim (mkProg w st ps ls) v ->
  (length (w_lists w) <= n)%nat -> nth_error (w_lists w ++ x) n = Some d ->
  sim (mkProg (set_lists (w_lists w ++ x) w) st ps (ls ++ [n]))
      (mkVProg (v_stores v) (v_closures v) (v_lists v ++ [d]) (v_draws v)).
Proof.
  intros w st ps ls v x d n S L H. destruct (rels_extend _ _ x S) as (A & B & C).
  pose proof (fresh _ _ _ S L) as F. destruct S as (N & _ & _ & _ & D).
  unfold sim, addresses in *. simpl in *. split; [|split; [exact A|split; [exact B|split; [|exact D]]]].
  - pose proof (NoDup_insert (map r_data st ++ map (fun p => r_data (partial_ref p)) ps ++ ls) [] n) as G.
    rewrite !app_nil_r, <- !app_assoc in G. now apply G.
  - apply Forall2_app; [exact C|]. constructor; [exact H|constructor].
Qed.

(** Overwriting one visible cell. *)
Lemma Forall2_set_at : forall A B (P Q : A -> B -> Prop) l l' i a b, Forall2 P l l' -> nth_error l i = Some a ->
  (forall j x y, nth_error l j = Some x -> j <> i -> P x y -> Q x y) -> Q a b -> Forall2 Q l (set_at l' i b).
Proof.
  intros A B P Q l l' i a b F. revert i. induction F as [|x y l l' H F IH]; intros [|i] E K Z; simpl in *; try discriminate.
  - injection E as ->. constructor; [exact Z|]. clear -F K.
    assert (G : forall j x y, nth_error l j = Some x -> P x y -> Q x y) by (intros j x0 y0 J; apply (K (S j) x0 y0 J); lia).
    clear K. induction F as [|u w l l' H F IH]; constructor; [exact (G 0%nat u w eq_refl H)|].
    apply IH. intros j. apply (G (S j)).
  - constructor; [apply (K 0%nat); auto|]. eapply IH; eauto. intros j u w J N. apply (K (S j)); auto.
Qed.

Lemma nth_NoDup : forall A (l : list A) i j x, NoDup l -> nth_error l i = Some x -> nth_error l j = Some x -> i = j.
Proof.
  intros A l i j x N I J. apply (proj1 (NoDup_nth_error l) N); [apply nth_error_Some|]; congruence.
Qed.

Lemma NoDup_app_remove_l : forall A (a b : list A), NoDup (a ++ b) -> NoDup b.
Proof. induction a; intros b H; [exact H|]. apply NoDup_cons_iff in H. now apply IHa. Qed.

Lemma NoDup_app_remove_r : forall A (a b : list A), NoDup (a ++ b) -> NoDup a.
Proof.
  induction a; intros b H; [constructor|]. apply NoDup_cons_iff in H. destruct H as (H & G). constructor; [|eauto].
  intros I. apply H, in_app_iff. auto.
Qed.

Lemma NoDup_disjoint : forall (a b : list addr) x, NoDup (a ++ b) -> In x a -> In x b -> False.
Proof.
  induction a; intros b x N I J; [destruct I|]. simpl in N. apply NoDup_cons_iff in N. destruct N as (N & N').
  destruct I as [->|I]; [apply N, in_app_iff; auto|eauto].
Qed.

Lemma sim_write_store : forall w st ps ls v i r c d', sim (mkProg w st ps ls) v -> nth_error st i = Some r ->
  r_class r = c -> inv c d' ->
  sim (mkProg (set_lists (replace (w_lists w) (r_data r) d') w) st ps ls)
      (mkVProg (set_at (v_stores v) i (c, d')) (v_closures v) (v_lists v) (v_draws v)).
Proof.
  intros w st ps ls v i r c d' S E C I. pose proof S as (N & F1 & F2 & F3 & D).
  destruct (valid _ _ (r_data r) S) as (d & H); [unfold addresses; simpl; rewrite in_app_iff; left; apply in_map; eapply nth_error_In; eauto|].
  unfold sim, addresses in *. simpl in *. split; [exact N|split; [|split; [|split; [|exact D]]]].
  - eapply Forall2_set_at; eauto.
    + intros j x y J Q. apply store_rel_keep, nth_replace_other. intros G. apply Q.
      apply (nth_NoDup _ (map r_data st) j i (r_data r)).
      * now apply NoDup_app_remove_r in N.
      * rewrite nth_error_map, J. simpl. now rewrite G.
      * now rewrite nth_error_map, E.
    + split; [|split]; simpl; auto. eapply nth_replace_same; eauto.
  - eapply Forall2_mono; [|exact F2]. intros p q J. apply partial_rel_keep, nth_replace_other. intros G.
    apply (NoDup_disjoint _ _ (r_data r) N).
    + apply in_map. eapply nth_error_In; eauto.
    + rewrite G, in_app_iff. left. apply in_map_iff. eauto.
  - eapply Forall2_mono; [|exact F3]. intros p q J. unfold list_rel. rewrite nth_replace_other; auto. intros G.
    apply (NoDup_disjoint _ _ (r_data r) N).
    + apply in_map. eapply nth_error_In; eauto.
    + rewrite G, in_app_iff. auto.
Qed.

Lemma sim_write_list : forall w st ps ls v i a d', sim (mkProg w st ps ls) v -> nth_error ls i = Some a ->
  sim (mkProg (set_lists (replace (w_lists w) a d') w) st ps ls)
      (mkVProg (v_stores v) (v_closures v) (set_at (v_lists v) i d') (v_draws v)).
Proof.
  intros w st ps ls v i a d' S E. pose proof S as (N & F1 & F2 & F3 & D).
  destruct (valid _ _ a S) as (d & H); [unfold addresses; simpl; rewrite !in_app_iff; right; right; eapply nth_error_In; eauto|].
  unfold sim, addresses in *. simpl in *. split; [exact N|split; [|split; [|split; [|exact D]]]].
  - eapply Forall2_mono; [|exact F1]. intros p q J. apply store_rel_keep, nth_replace_other. intros G.
    apply (NoDup_disjoint _ _ a N).
    + rewrite G. now apply in_map.
    + rewrite in_app_iff. right. eapply nth_error_In; eauto.
  - eapply Forall2_mono; [|exact F2]. intros p q J. apply partial_rel_keep, nth_replace_other. intros G.
    apply NoDup_app_remove_l in N. apply (NoDup_disjoint _ _ a N).
    + rewrite G. apply in_map_iff. eauto.
    + eapply nth_error_In; eauto.
  - eapply Forall2_set_at; eauto.
    + intros j x y J Q. unfold list_rel. rewrite nth_replace_other; auto. intros G. apply Q.
      apply NoDup_app_remove_l, NoDup_app_remove_l in N. subst x. exact (nth_NoDup _ _ _ _ _ N J E).
    + red. eapply nth_replace_same; eauto.
Qed.

Lemma sim_write_partial : forall w st ps ls v j p q d', sim (mkProg w st ps ls) v -> nth_error ps j = Some p ->
  nth_error (v_closures v) j = Some q -> shifted (snd (closure_store q)) d' ->
  sim (mkProg (set_lists (replace (w_lists w) (r_data (partial_ref p)) d') w) st ps ls) v.
Proof.
  intros w st ps ls v i p q d' S E Eq K. pose proof S as (N & F1 & F2 & F3 & D). set (a := r_data (partial_ref p)) in *.
  assert (Ia : In a (map (fun p => r_data (partial_ref p)) ps)) by (apply in_map_iff; exists p; split; [reflexivity|eapply nth_error_In; eauto]).
  destruct (valid _ _ a S) as (d & H); [unfold addresses; simpl; rewrite !in_app_iff; auto|].
  unfold sim, addresses in *. simpl in *. split; [exact N|split; [|split; [|split; [|exact D]]]].
  - eapply Forall2_mono; [|exact F1]. intros x y J. apply store_rel_keep, nth_replace_other. intros G.
    apply (NoDup_disjoint _ _ a N).
    + rewrite G. now apply in_map.
    + rewrite in_app_iff. auto.
  - assert (Z : set_at (v_closures v) i q = v_closures v).
    { clear -Eq. revert i Eq. induction (v_closures v); intros [|i] Eq; simpl in *; try discriminate; [congruence|]. f_equal; auto. }
    rewrite <- Z. eapply Forall2_set_at; eauto.
    + intros j x y J Q. apply partial_rel_keep, nth_replace_other. intros G. apply Q.
      apply NoDup_app_remove_l, NoDup_app_remove_r in N.
      apply (nth_NoDup _ _ j i a N); rewrite nth_error_map; [rewrite J; simpl; now rewrite G|now rewrite E].
    + pose proof (Forall2_nth _ _ _ _ _ i F2) as G. rewrite E, Eq in G. destruct G as (G1 & G2 & G3 & _).
      split; [exact G1|split; [exact G2|split; [exact G3|]]]. exists d'. split; [eapply nth_replace_same; eauto|exact K].
  - eapply Forall2_mono; [|exact F3]. intros x y J. unfold list_rel. rewrite nth_replace_other; auto. intros G.
    apply NoDup_app_remove_l in N. apply (NoDup_disjoint _ _ a N); auto. now rewrite G.
Qed.

Lemma perturb_inv : forall c draws k size sr h d, inv c d ->
  inv c (snd (fst (perturb_model_parameters c draws k size sr h d))).
Proof.
  intros c draws k size sr h d I. unfold perturb_model_parameters. destruct (full_bounds c h d) as [b|e]; [|exact I].
  generalize (length d) as fuel, 0%nat as i. intros fuel. revert k d I.
  induction fuel as [|fuel IH]; intros k d I i; simpl; [exact I|].
  destruct (nth_error d i) as [p|]; [|exact I]. destruct (par_fixed p); [now apply IH|].
  destruct (lookup b (par_name p)) as [[lo up]|]; [|exact I].
  destruct (get_perturbed_value _ _ _ _ _) as [x|e]; [|exact I].
  pose proof (inv_mutate c (MSetValue (par_name p) x) d I) as J. simpl in J.
  destruct (set_value (par_name p) x d) as [[u|e] d']; simpl in J |- *; [now apply IH|exact J].
Qed.

Theorem step_sim : forall draws o s v, sim s v ->
  fst (step draws o s) = fst (vstep draws o v) /\ sim (snd (step draws o s)) (snd (vstep draws o v)).
Proof.
  intros draws o [w st ps ls] [vst vcl vls vk] S. pose proof S as (N & F1 & F2 & F3 & D). simpl in N, F1, F2, F3, D.
  destruct o as [c kw|i|i|i l|c i|i m|i size sr h|i|mass alpha hc i|j ts args]; unfold step, vstep.
  - destruct (construct c kw) as [d|e] eqn:K.
    + rewrite (obj_new_ok _ _ _ _ K). simpl. split; [reflexivity|].
      refine (sim_store w st ps ls _ [d] c d _ S _ _ _); [lia|apply nth_alloc|].
      apply reachable_inv. econstructor; eauto.
    + rewrite (obj_new_err _ _ _ _ K). simpl. auto.
  - pose proof (Forall2_nth _ _ _ _ _ i F1) as G.
    destruct (nth_error st i) as [r|], (nth_error vst i) as [[c d]|]; try contradiction; [|split; auto].
    destruct G as (G1 & G2 & G3). simpl in *. subst c. rewrite (obj_copy_eq _ _ _ G2 G3). simpl. split; [reflexivity|].
    refine (sim_store w st ps ls _ [d; d] _ d _ S _ _ G3); [lia|].
    exact (nth_alloc2 (w_lists w) d d).
  - pose proof (Forall2_nth _ _ _ _ _ i F1) as G.
    destruct (nth_error st i) as [r|], (nth_error vst i) as [[c d]|]; try contradiction; [|split; auto].
    destruct G as (G1 & G2 & G3). simpl in *. rewrite (obj_to_list_eq _ _ _ G2). simpl. split; [reflexivity|].
    refine (sim_list w st ps ls _ [d] d _ S _ _); [lia|apply nth_alloc].
  - pose proof (Forall2_nth _ _ _ _ _ i F3) as G.
    destruct (nth_error ls i) as [a|] eqn:E, (nth_error vls i) as [d|] eqn:E'; try contradiction; simpl.
    + split; [reflexivity|]. exact (sim_write_list w st ps ls _ i a l S E).
    + split; [reflexivity|]. replace (set_at vls i l) with vls; [exact S|].
      clear -E'. revert i E'. induction vls; intros [|i] E'; simpl in *; try discriminate; auto. f_equal. auto.
  - pose proof (Forall2_nth _ _ _ _ _ i F3) as G.
    destruct (nth_error ls i) as [a|] eqn:E, (nth_error vls i) as [l|] eqn:E'; try contradiction; [|split; auto].
    red in G. pose proof (obj_from_list_eq c _ _ _ G) as Q. destruct (from_list c l) as [d|e] eqn:K.
    + rewrite Q. simpl. split; [reflexivity|]. refine (sim_store w st ps ls _ [d] c d _ S _ _ _); [lia|apply nth_alloc|].
      eapply from_list_inv; eauto.
    + destruct Q as [Q|(x & Q)]; rewrite Q; simpl; (split; [reflexivity|]); [exact S|].
      pose proof (sim_extend _ _ _ _ _ [x] vk S) as T. simpl in T. rewrite <- D in T |- *.
      exact T.
  - pose proof (Forall2_nth _ _ _ _ _ i F1) as G.
    destruct (nth_error st i) as [r|] eqn:E, (nth_error vst i) as [[c d]|]; try contradiction; [|split; auto].
    destruct G as (G1 & G2 & G3). simpl in *. rewrite (obj_mutate_eq _ _ _ _ G2). simpl. split; [reflexivity|]. rewrite G1.
    refine (sim_write_store w st ps ls _ i r c _ S E G1 _). now apply inv_mutate.
  - pose proof (Forall2_nth _ _ _ _ _ i F1) as G.
    destruct (nth_error st i) as [r|] eqn:E, (nth_error vst i) as [[c d]|]; try contradiction; [|split; auto].
    destruct G as (G1 & G2 & G3). simpl in *. rewrite (obj_perturb_eq _ _ _ _ _ _ _ G2), G1, D.
    pose proof (perturb_inv c draws vk size sr h d G3) as P.
    destruct (perturb_model_parameters c draws vk size sr h d) as [[res d'] k']. simpl in *. split; [reflexivity|].
    pose proof (sim_write_store w st ps ls _ i r c d' S E G1 P) as (T1 & T2 & T3 & T4 & T5).
    split; [exact T1|]. simpl in *. auto.
  - pose proof (Forall2_nth _ _ _ _ _ i F1) as G.
    destruct (nth_error st i) as [r|] eqn:E, (nth_error vst i) as [[c d]|]; try contradiction; [|split; auto].
    destruct G as (G1 & G2 & G3). simpl in *. subst c. unfold make_partial_form_factor_for_parameters, mbind.
    rewrite (obj_copy_eq _ _ _ G2 G3). simpl. split; [reflexivity|].
    refine (sim_partial w st ps ls _ [d; d] _ _ _ S _ eq_refl _); [simpl; lia|].
    split; [exact I|split; [reflexivity|split; [exact G3|]]]. simpl. exists d. split; [|apply shifted_refl].
    exact (nth_alloc2 (w_lists w) d d).
  - pose proof (Forall2_nth _ _ _ _ _ i F1) as G.
    destruct (nth_error st i) as [r|] eqn:E, (nth_error vst i) as [[c d]|]; try contradiction; [|split; auto].
    destruct G as (G1 & G2 & G3). simpl in *. subst c. unfold make_partial_cross_section_for_parameters, mbind.
    rewrite (obj_copy_eq _ _ _ G2 G3). simpl. split; [reflexivity|].
    refine (sim_partial w st ps ls _ [d; d] _ _ _ S _ eq_refl _); [simpl; lia|].
    split; [simpl; auto|split; [reflexivity|split; [exact G3|]]]. simpl. exists d. split; [|apply shifted_refl].
    exact (nth_alloc2 (w_lists w) d d).
  - pose proof (Forall2_nth _ _ _ _ _ j F2) as G.
    destruct (nth_error ps j) as [p|] eqn:E, (nth_error vcl j) as [q|] eqn:E'; try contradiction; [|split; auto].
    destruct (call_partial_eq _ _ ts args _ G) as (d' & K & Q). rewrite Q. simpl. split; [reflexivity|].
    exact (sim_write_partial w st ps ls _ j p q d' S E E' K).
Qed.

Lemma sim_empty : sim empty_program empty_values.
Proof. repeat split; constructor. Qed.

Theorem run_sim : forall draws os s v, sim s v -> sim (run draws os s) (vrun draws os v).
Proof.
  induction os as [|o os IH]; intros s v S; [exact S|]. simpl. apply IH. now apply step_sim.
Qed.
