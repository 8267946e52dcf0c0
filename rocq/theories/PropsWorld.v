(** Properties C28 and the isolation part of C04: programs with shared parameter stores and closures. *)
From Coq Require Import String Reals List Bool Arith Lia Lra.
From Verif Require Import PyBase CNum PyExpr OtherModels Params ParamClasses ParamProofs ParamSpec CommonUtils UtilsSpec
  World WorldSpec WorldProofs PropsOther.
Import ListNotations.
Local Open Scope string_scope.
Local Open Scope list_scope.
Local Open Scope py_scope.

(** What a program can see: contents of its stores and of its lists, and how many closures it holds. *)
Definition contents (s : Prog) : list (param_class * option data) :=
  map (fun r => (r_class r, nth_error (w_lists (pg_world s)) (r_data r))) (pg_stores s).
Definition lists (s : Prog) : list (option data) := map (nth_error (w_lists (pg_world s))) (pg_lists s).

Section WithDraws.
Variable draws : nat -> R.

(** A state some sequence of statements leads to. *)
Definition after (os : list op) : Prog := run draws os empty_program.
Definition values (os : list op) : VProg := vrun draws os empty_values.

Lemma after_sim : forall os, sim (after os) (values os).
Proof. intros os. apply run_sim, sim_empty. Qed.

Lemma after_app : forall a b, after (a ++ b) = run draws b (after a).
Proof. intros a b. apply fold_left_app. Qed.
Lemma values_app : forall a b, values (a ++ b) = vrun draws b (values a).
Proof. intros a b. apply fold_left_app. Qed.

Lemma sim_contents : forall s v, sim s v -> contents s = map (fun x : store => (fst x, Some (snd x))) (v_stores v).
Proof.
  intros s v (_ & F & _). unfold contents. induction F as [|r x l l' (A & B & _) F IH]; simpl; [reflexivity|].
  rewrite A, B. f_equal. exact IH.
Qed.

Lemma sim_lists : forall s v, sim s v -> lists s = map Some (v_lists v).
Proof.
  intros s v (_ & _ & _ & F & _). unfold lists. induction F as [|r x l l' A F IH]; simpl; [reflexivity|].
  rewrite A. f_equal. exact IH.
Qed.

Lemma sim_closures : forall s v, sim s v -> length (pg_partials s) = length (v_closures v).
Proof. intros s v (_ & _ & F & _). induction F; simpl; auto. Qed.

(** ** Programs behave as if every store were a value and every closure remembered only the store it was made from *)

Theorem C28_program_has_value_semantics : forall os o,
  contents (after os) = map (fun x : store => (fst x, Some (snd x))) (v_stores (values os)) /\
  lists (after os) = map Some (v_lists (values os)) /\
  length (pg_partials (after os)) = length (v_closures (values os)) /\
  fst (step draws o (after os)) = fst (vstep draws o (values os)).
Proof.
  intros os o. pose proof (after_sim os) as S.
  split; [|split; [|split]]; [now apply sim_contents|now apply sim_lists|now apply sim_closures|now apply step_sim].
Qed.

(** A closure once made is never changed. *)
Lemma vclosure_step : forall o v j q, nth_error (v_closures v) j = Some q ->
  nth_error (v_closures (snd (vstep draws o v))) j = Some q.
Proof.
  intros o [st cl ls k] j q H. simpl in H.
  assert (E : forall x, nth_error (cl ++ x) j = Some q).
  { intros x. rewrite nth_error_app1; [exact H|]. apply nth_error_Some. congruence. }
  destruct o; simpl; repeat match goal with
    | |- context [match ?x with _ => _ end] => destruct x
    end; simpl; auto.
Qed.

Lemma vclosure_run : forall os v j q, nth_error (v_closures v) j = Some q ->
  nth_error (v_closures (vrun draws os v)) j = Some q.
Proof. induction os as [|o os IH]; intros v j q H; [exact H|]. simpl. apply IH. now apply vclosure_step. Qed.

Lemma store_values : forall os i c d, nth_error (contents (after os)) i = Some (c, Some d) ->
  nth_error (v_stores (values os)) i = Some (c, d).
Proof.
  intros os i c d H. rewrite (sim_contents _ _ (after_sim os)), nth_error_map in H.
  change (option_map (fun x : store => (fst x, Some (snd x))) (nth_error (v_stores (values os)) i) = Some (c, Some d)) in H.
  revert H. generalize (nth_error (v_stores (values os)) i). intros [[c' d']|] H; [|discriminate H].
  injection H as -> ->. reflexivity.
Qed.

(** ** C28: history independence *)

(** [os]: anything before; store [i] then has class [c] and contents [d]; [os']: anything afterwards, including other
    calls of the same closure, failing ones, and mutations of the original store. *)
Theorem C28_form_factor_depends_on_creation_only : forall os i c d os' ts args,
  nth_error (contents (after os)) i = Some (c, Some d) ->
  let j := length (pg_partials (after os)) in
  fst (step draws (OpCall j ts args) (after (os ++ OpMakeFormFactor i :: os'))) =
  Some (closure_result (FormFactorOf (c, d)) ts args).
Proof.
  intros os i c d os' ts args H j. rewrite (proj1 (step_sim _ _ _ _ (after_sim _))), values_app.
  apply store_values in H. subst j. rewrite (sim_closures _ _ (after_sim os)). simpl.
  destruct (values os) as [st cl ls k]. simpl in *. rewrite H.
  assert (E : nth_error (v_closures (vrun draws os' (mkVProg st (cl ++ [FormFactorOf (c, d)]) ls k))) (length cl) =
              Some (FormFactorOf (c, d))).
  { apply vclosure_run. simpl. rewrite nth_error_app2, Nat.sub_diag by lia. reflexivity. }
  destruct (vrun draws os' _) as [st' cl' ls' k']. simpl in *. now rewrite E.
Qed.

Theorem C28_cross_section_depends_on_creation_only : forall os i c d os' mass alpha hc ts args,
  nth_error (contents (after os)) i = Some (c, Some d) ->
  let j := length (pg_partials (after os)) in
  fst (step draws (OpCall j ts args) (after (os ++ OpMakeCrossSection mass alpha hc i :: os'))) =
  Some (closure_result (CrossSectionOf mass alpha hc (c, d)) ts args).
Proof.
  intros os i c d os' mass alpha hc ts args H j. rewrite (proj1 (step_sim _ _ _ _ (after_sim _))), values_app.
  apply store_values in H. subst j. rewrite (sim_closures _ _ (after_sim os)). simpl.
  destruct (values os) as [st cl ls k]. simpl in *. rewrite H.
  assert (E : nth_error (v_closures (vrun draws os' (mkVProg st (cl ++ [CrossSectionOf mass alpha hc (c, d)]) ls k))) (length cl) =
              Some (CrossSectionOf mass alpha hc (c, d))).
  { apply vclosure_run. simpl. rewrite nth_error_app2, Nat.sub_diag by lia. reflexivity. }
  destruct (vrun draws os' _) as [st' cl' ls' k']. simpl in *. now rewrite E.
Qed.

(** A call changes nothing the program can see. *)
Theorem C28_call_changes_no_store : forall os j ts args,
  let s := after os in let s' := snd (step draws (OpCall j ts args) s) in
  contents s' = contents s /\ lists s' = lists s /\ length (pg_partials s') = length (pg_partials s).
Proof.
  intros os j ts args s s'. pose proof (after_sim os) as S.
  pose proof (proj2 (step_sim draws (OpCall j ts args) _ _ S)) as S'.
  assert (E : snd (vstep draws (OpCall j ts args) (values os)) = values os) by now destruct (values os).
  rewrite E in S'. unfold s', s.
  rewrite (sim_contents _ _ S), (sim_contents _ _ S'), (sim_lists _ _ S), (sim_lists _ _ S'),
    (sim_closures _ _ S), (sim_closures _ _ S'). auto.
Qed.

(** Making a closure changes no store either. *)
Theorem C28_creation_changes_no_store : forall os i mass alpha hc,
  contents (snd (step draws (OpMakeFormFactor i) (after os))) = contents (after os) /\
  contents (snd (step draws (OpMakeCrossSection mass alpha hc i) (after os))) = contents (after os).
Proof.
  intros os i mass alpha hc. pose proof (after_sim os) as S. rewrite (sim_contents _ _ S). split.
  - rewrite (sim_contents _ _ (proj2 (step_sim draws (OpMakeFormFactor i) _ _ S))).
    destruct (values os) as [st cl ls k]. simpl. now destruct (nth_error st i).
  - rewrite (sim_contents _ _ (proj2 (step_sim draws (OpMakeCrossSection mass alpha hc i) _ _ S))).
    destruct (values os) as [st cl ls k]. simpl. now destruct (nth_error st i).
Qed.

End WithDraws.

Theorem C28_wrong_number_of_arguments : forall c d mass alpha hc ts args,
  length args <> length (filter (fun p => negb (par_fixed p)) d) ->
  closure_result (FormFactorOf (c, d)) ts args = Err ValueError /\
  closure_result (CrossSectionOf mass alpha hc (c, d)) ts args = Err ValueError.
Proof.
  intros c d mass alpha hc ts args H. unfold closure_result, with_free_values. simpl fst. simpl snd.
  assert (E : Nat.eqb (length args) (count_free d) = false) by (apply Nat.eqb_neq; exact H).
  rewrite E. auto.
Qed.

(** With the right number, the results are those of the store whose free values are [args]. *)
Theorem C28_call_value : forall c d ts args,
  length args = length (filter (fun p => negb (par_fixed p)) d) ->
  exists d', map par_name d' = map par_name d /\ map par_fixed d' = map par_fixed d /\
    Forall2 (fun p q => par_fixed p = true -> q = p) d d' /\ get_free_values d' = args /\
    closure_result (FormFactorOf (c, d)) ts args = (_ <- buildable c d' ;; mapM (form_factor_at c d') ts) /\
    forall mass alpha hc, closure_result (CrossSectionOf mass alpha hc (c, d)) ts args =
                          (_ <- buildable c d' ;; mapM (cross_section_at c mass alpha hc d') ts).
Proof.
  intros c d ts args H. exists (fill d args).
  split; [exact (fill_names d args)|]. split; [exact (fill_flags d args)|]. split; [exact (fill_fixed d args)|].
  split; [now apply fill_free|].
  assert (E : Nat.eqb (length args) (count_free d) = true) by (apply Nat.eqb_eq; exact H).
  unfold closure_result, with_free_values. simpl fst. simpl snd. rewrite E. auto.
Qed.

(** ** C04: isolation *)

Section Isolation.
Variable draws : nat -> R.
Notation after := (after draws).
Notation values := (values draws).

(** Statements that address store [i] itself. *)
Definition targets (i : nat) (o : op) : Prop :=
  match o with OpMutate k _ => k = i | OpPerturb k _ _ _ => k = i | _ => False end.

Lemma set_at_other : forall A (l : list A) k i x, k <> i -> nth_error (set_at l k x) i = nth_error l i.
Proof. induction l; intros [|k] [|i] x H; simpl; auto; congruence. Qed.

Lemma vstore_step : forall o v i s, ~ targets i o -> nth_error (v_stores v) i = Some s ->
  nth_error (v_stores (snd (vstep draws o v))) i = Some s.
Proof.
  intros o [st cl ls k] i s T H. simpl in H.
  assert (E : forall x, nth_error (st ++ x) i = Some s).
  { intros x. rewrite nth_error_app1; [exact H|]. apply nth_error_Some. congruence. }
  destruct o; simpl in *; repeat match goal with
    | |- context [match ?x with _ => _ end] => destruct x
    end; simpl; auto; rewrite set_at_other; auto.
Qed.

Lemma vstore_run : forall os v i s, (forall o, In o os -> ~ targets i o) -> nth_error (v_stores v) i = Some s ->
  nth_error (v_stores (vrun draws os v)) i = Some s.
Proof.
  induction os as [|o os IH]; intros v i s T H; [exact H|]. simpl. apply IH; [intros; apply T; simpl; auto|].
  apply vstore_step; [apply T; simpl; auto|exact H].
Qed.

Lemma contents_of : forall os i c d, nth_error (v_stores (values os)) i = Some (c, d) ->
  nth_error (contents (after os)) i = Some (c, Some d).
Proof. intros os i c d H. now rewrite (sim_contents _ _ (after_sim draws os)), nth_error_map, H. Qed.

(** A store changes only through statements that address it. *)
Theorem C04_stores_change_only_when_addressed : forall os os' i c d,
  nth_error (contents (after os)) i = Some (c, Some d) -> (forall o, In o os' -> ~ targets i o) ->
  nth_error (contents (after (os ++ os'))) i = Some (c, Some d).
Proof.
  intros os os' i c d H T. apply contents_of. rewrite values_app. apply vstore_run; [exact T|].
  now apply store_values.
Qed.

(** The copy is a new store with equal contents; afterwards either one changes only through its own statements. *)
Theorem C04_copy_isolated : forall os i c d os',
  nth_error (contents (after os)) i = Some (c, Some d) ->
  let n := length (pg_stores (after os)) in
  n <> i /\
  nth_error (contents (after (os ++ [OpCopy i]))) n = Some (c, Some d) /\
  ((forall o, In o os' -> ~ targets i o) ->
   nth_error (contents (after (os ++ OpCopy i :: os'))) i = Some (c, Some d)) /\
  ((forall o, In o os' -> ~ targets n o) ->
   nth_error (contents (after (os ++ OpCopy i :: os'))) n = Some (c, Some d)).
Proof.
  intros os i c d os' H n.
  assert (Ln : n = length (contents (after os))) by (unfold n, contents; now rewrite map_length).
  assert (Lv : n = length (v_stores (values os)))
    by (rewrite Ln, (sim_contents _ _ (after_sim draws os)); now rewrite map_length).
  assert (Li : (i < length (contents (after os)))%nat) by (apply nth_error_Some; congruence).
  assert (C : nth_error (contents (after (os ++ [OpCopy i]))) n = Some (c, Some d)).
  { apply contents_of. rewrite values_app. apply store_values in H. simpl.
    destruct (values os) as [st cl ls k]. simpl in *. rewrite H. simpl. rewrite Lv, nth_error_app2, Nat.sub_diag by lia.
    reflexivity. }
  split; [lia|]. split; [exact C|]. replace (os ++ OpCopy i :: os') with ((os ++ [OpCopy i]) ++ os') by now rewrite <- app_assoc.
  split; intros T; (apply C04_stores_change_only_when_addressed; [|exact T]); [|exact C].
  apply C04_stores_change_only_when_addressed; [exact H|]. intros o [<-|[]]. simpl. auto.
Qed.

(** The list returned by [to_list] is the program's own: changing it changes no store, and the store's later changes
    do not show in it. *)
Theorem C04_to_list_isolated : forall os i c d,
  nth_error (contents (after os)) i = Some (c, Some d) ->
  let n := length (pg_lists (after os)) in
  nth_error (lists (after (os ++ [OpToList i]))) n = Some (Some d) /\
  (forall l, contents (after (os ++ [OpToList i; OpSetList n l])) = contents (after os)) /\
  (forall m, nth_error (lists (after (os ++ [OpToList i; OpMutate i m]))) n = Some (Some d)).
Proof.
  intros os i c d H n.
  assert (Lv : n = length (v_lists (values os))).
  { pose proof (sim_lists _ _ (after_sim draws os)) as E. apply (f_equal (@length _)) in E.
    unfold lists in E. rewrite !map_length in E. exact E. }
  apply store_values in H.
  split; [|split].
  - rewrite (sim_lists _ _ (after_sim draws _)), values_app. simpl. destruct (values os) as [st cl ls k].
    simpl in *. rewrite H. simpl. rewrite map_app, nth_error_app2; rewrite map_length; rewrite Lv; [|lia].
    now rewrite Nat.sub_diag.
  - intros l. rewrite !(sim_contents _ _ (after_sim draws _)), values_app. simpl. destruct (values os) as [st cl ls k].
    simpl in *. rewrite H. simpl. reflexivity.
  - intros m. rewrite (sim_lists _ _ (after_sim draws _)), values_app. simpl. destruct (values os) as [st cl ls k].
    simpl in *. rewrite H. simpl. rewrite H. simpl. rewrite map_app, nth_error_app2; rewrite map_length; rewrite Lv; [|lia].
    now rewrite Nat.sub_diag.
Qed.
End Isolation.

(** ** Instances *)

(** Build a store, make a closure, call it with too few arguments (raises), call it, fix a parameter of the original
    and change its value; then call again. *)
Definition demo_program : list op :=
  [OpNew PETGMR [("m_d", 3%R); ("a", 1%R); ("m_a", 2%R)]; OpMutate 0 (MFix ["m_d"]); OpMakeFormFactor 0].
Definition demo_rest : list op :=
  [OpCall 0 [NucleonDatapoint (RtoC 0) true true] [5%R]; OpCall 0 [NucleonDatapoint (RtoC 0) true true] [5%R; 6%R];
   OpMutate 0 (MReleaseAll); OpMutate 0 (MUpdateFree [7%R; 8%R; 9%R])].

Example C28_instance : forall draws,
  contents (after draws [OpNew PETGMR [("m_d", 3%R); ("a", 1%R); ("m_a", 2%R)]; OpMutate 0 (MFix ["m_d"])]) =
    [(PETGMR, Some [mkPar "a" 1 false; mkPar "m_a" 2 false; mkPar "m_d" 3 true])] /\
  fst (step draws (OpCall 0 [NucleonDatapoint (RtoC 0) true true] [-4; 2]%R) (after draws (demo_program ++ demo_rest))) =
    Some (Ok [4%R]) /\
  fst (step draws (OpCall 0 [NucleonDatapoint (RtoC 0) true true] [-4; 2; 3]%R) (after draws (demo_program ++ demo_rest))) =
    Some (Err ValueError) /\
  contents (after draws (demo_program ++ demo_rest)) =
    [(PETGMR, Some [mkPar "a" 7 false; mkPar "m_a" 8 false; mkPar "m_d" 9 false])].
Proof.
  intros draws. split; [reflexivity|].
  pose proof (fun ts args => C28_form_factor_depends_on_creation_only draws
    [OpNew PETGMR [("m_d", 3%R); ("a", 1%R); ("m_a", 2%R)]; OpMutate 0 (MFix ["m_d"])] 0 PETGMR
    [mkPar "a" 1 false; mkPar "m_a" 2 false; mkPar "m_d" 3 true] demo_rest ts args eq_refl) as K.
  cbn [length pg_partials] in K.
  split; [|split].
  - etransitivity; [exact (K _ _)|]. f_equal. unfold closure_result, with_free_values. cbn [fst snd length].
    assert (E : Nat.eqb 2 (count_free [mkPar "a" 1 false; mkPar "m_a" 2 false; mkPar "m_d" 3 true]) = true) by reflexivity.
    rewrite E. cbn [bind]. unfold buildable, form_factor_at. cbn [family_of fst snd bind mapM nucleon_point].
    assert (V : val (fill [mkPar "a" 1 false; mkPar "m_a" 2 false; mkPar "m_d" 3 true] [(-4)%R; 2%R]) "a" = (-4)%R) by reflexivity.
    assert (V2 : val (fill [mkPar "a" 1 false; mkPar "m_a" 2 false; mkPar "m_d" 3 true] [(-4)%R; 2%R]) "m_a" = 2%R) by reflexivity.
    assert (V3 : val (fill [mkPar "a" 1 false; mkPar "m_a" 2 false; mkPar "m_d" 3 true] [(-4)%R; 2%R]) "m_d" = 3%R) by reflexivity.
    rewrite V, V2, V3. rewrite C33_etgmr_at_zero by lra. cbn [bind]. rewrite Cabs_RtoC, Rabs_left by lra. f_equal. f_equal. lra.
  - etransitivity; [exact (K _ _)|]. reflexivity.
  - reflexivity.
Qed.

Example C04_isolation_instance : forall draws,
  let os := [OpNew PETGMR [("m_d", 3%R); ("a", 1%R); ("m_a", 2%R)]; OpCopy 0; OpMutate 1 (MSetValue "a" 5%R); OpToList 0;
             OpSetList 0 []; OpMutate 0 MFixAll; OpMakeCrossSection 1 1 1 1; OpCall 0 [] [6; 7; 8]%R] in
  contents (after draws os) =
    [(PETGMR, Some [mkPar "a" 1 true; mkPar "m_a" 2 true; mkPar "m_d" 3 true]);
     (PETGMR, Some [mkPar "a" 5 false; mkPar "m_a" 2 false; mkPar "m_d" 3 false])].
Proof. intros draws os. reflexivity. Qed.

Print Assumptions C28_program_has_value_semantics.
Print Assumptions C28_form_factor_depends_on_creation_only.
Print Assumptions C28_cross_section_depends_on_creation_only.
Print Assumptions C28_call_changes_no_store.
Print Assumptions C28_creation_changes_no_store.
Print Assumptions C28_wrong_number_of_arguments.
Print Assumptions C28_call_value.
Print Assumptions C04_stores_change_only_when_addressed.
Print Assumptions C04_copy_isolated.
Print Assumptions C04_to_list_isolated.
