(** C48: scripts that run a pipeline several times and keep the best result. *)
From Coq Require Import String Ascii Reals ZArith List Bool Arith Lia Lra Permutation Sorted.
From Verif Require Import PyBase CNum PyExpr Params ParamClasses ParamSpec ParamProofs PropsParams CommonUtils
  UtilsSpec UtilsProofs World WorldSpec WorldProofs DataSets BoundsProofs Task TaskSpec TaskProofs PropsTask Pipeline PipelineSpec
  PipelineReports PropsReports PipelineProofs PropsPipeline PropsPerturb PropsRuns FitScripts.
Import ListNotations.
Local Open Scope string_scope.
Local Open Scope list_scope.
Local Open Scope R_scope.

#[local] Arguments String.append : simpl never.

(** ** The best of several results *)

Definition has_fit (r : BestFit) : bool := match bf_chi_squared r with Some _ => true | None => false end.

(** The earliest among those with the alphabetically least chi-squared, if there is any. *)
Definition least_result (rs : list BestFit) (best : option BestFit) : Prop :=
  match best with
  | Some b => exists i s, nth_error rs i = Some b /\ bf_chi_squared b = Some s /\
      forall j r s', nth_error rs j = Some r -> bf_chi_squared r = Some s' -> (s = s' \/ before s s') /\ ((j < i)%nat -> before s s')
  | None => Forall (fun r => bf_chi_squared r = None) rs
  end.

Lemma ltb_not : forall a b, String.ltb a b = false -> b = a \/ before b a.
Proof. intros a b H. apply not_before in H as [H|H]; auto. Qed.

Lemma consider_none : forall r s, bf_chi_squared r = None -> consider r s = s.
Proof. intros r s H. unfold consider. now rewrite H. Qed.

Lemma consider_least : forall rs, let s := fold_left (fun s r => consider r s) rs ([], None) in
  fst s = filter has_fit rs /\ least_result rs (snd s).
Proof.
  induction rs as [|r rs IH] using rev_ind; [split; [reflexivity|constructor]|]. cbv zeta in *. rewrite fold_left_app. cbn [fold_left].
  set (s := fold_left _ rs _) in *. destruct s as [final best]. cbn [fst snd] in IH. destruct IH as [-> L].
  rewrite filter_app. cbn [filter]. change (has_fit r) with (match bf_chi_squared r with Some _ => true | None => false end). unfold consider. destruct (bf_chi_squared r) as [chi|] eqn:C; cbn [fst snd].
  2: { rewrite app_nil_r. split; [reflexivity|]. destruct best as [b|].
       - destruct L as (i & s & N & B & L). exists i, s. split; [now apply nth_snoc_old|]. split; [exact B|].
         intros j x s' J X. apply nth_snoc in J as [J|[_ ->]]; [eauto|congruence].
       - apply Forall_app. split; [exact L|]. now constructor. }
  split; [reflexivity|].
  assert (NEW : (forall j x s', nth_error rs j = Some x -> bf_chi_squared x = Some s' -> before chi s') -> least_result (rs ++ [r]) (Some r)).
  { intros A. exists (length rs), chi. split; [rewrite nth_error_app2, Nat.sub_diag by lia; reflexivity|]. split; [exact C|].
    intros j x s' J X. apply nth_snoc in J as [J|[-> ->]].
    - specialize (A j x s' J X). split; [now right|now intros _].
    - rewrite C in X. injection X as <-. split; [now left|lia]. }
  destruct best as [b|].
  - destruct L as (i & s & N & B & L). rewrite B. destruct (String.ltb chi s) eqn:E.
    + apply NEW. intros j x s' J X. apply ltb_before in E. destruct (L j x s' J X) as [[->|Q] _]; [exact E|]. exact (before_trans _ _ _ E Q).
    + exists i, s. split; [now apply nth_snoc_old|]. split; [exact B|]. intros j x s' J X. apply nth_snoc in J as [J|[-> ->]]; [eauto|].
      rewrite C in X. injection X as <-. apply ltb_not in E. split; [exact E|]. intros Q. apply nth_lt in N. lia.
  - apply NEW. intros j x s' J X. apply nth_error_In in J. cbn in L. rewrite Forall_forall in L. specialize (L x J). congruence.
Qed.

Lemma least_unique : forall rs b b', least_result rs b -> least_result rs b' -> b = b'.
Proof.
  assert (X : forall rs b, least_result rs (Some b) -> least_result rs None -> False).
  { intros rs b (i & s & N & B & _) F. cbn in F. rewrite Forall_forall in F. apply nth_error_In in N. specialize (F b N). congruence. }
  intros rs [b|] [b'|] H H'; [|exfalso; eauto|exfalso; eauto|reflexivity].
  destruct H as (i & s & N & B & L). destruct H' as (i' & s' & N' & B' & L'). f_equal.
  destruct (Nat.lt_trichotomy i i') as [Q|[->|Q]]; [| congruence |].
  - pose proof (proj2 (L' i b s N B) Q) as P. destruct (proj1 (L i' b' s' N' B')) as [->|P']; [now apply before_irrefl in P|].
    exfalso. exact (before_irrefl _ (before_trans _ _ _ P P')).
  - pose proof (proj2 (L i' b' s' N' B') Q) as P. destruct (proj1 (L' i b s N B)) as [->|P']; [now apply before_irrefl in P|].
    exfalso. exact (before_irrefl _ (before_trans _ _ _ P P')).
Qed.

(** ** Ranking *)

Definition not_after (a b : BestFit) : Prop :=
  forall s s', bf_chi_squared a = Some s -> bf_chi_squared b = Some s' -> s = s' \/ before s s'.

(** Sorted by the text; results with the same text keep their order. *)
Definition ranking (rs l : list BestFit) : Prop :=
  Permutation rs l /\ StronglySorted not_after l /\
  forall s, filter (fun r => match bf_chi_squared r with Some s' => String.eqb s' s | None => false end) l
          = filter (fun r => match bf_chi_squared r with Some s' => String.eqb s' s | None => false end) rs.

Lemma insert_permutation : forall x l, Permutation (x :: l) (insert_result x l).
Proof.
  induction l as [|y l IH]; cbn [insert_result]; [reflexivity|]. destruct (String.ltb _ _); [|reflexivity].
  rewrite perm_swap. now constructor.
Qed.

Lemma not_after_key : forall a b, has_fit a = true -> has_fit b = true -> (not_after a b <-> String.ltb (key_of b) (key_of a) = false).
Proof.
  intros a b A B. unfold has_fit, not_after, key_of in *. destruct (bf_chi_squared a) as [s|]; [|discriminate]. destruct (bf_chi_squared b) as [s'|]; [|discriminate].
  split.
  - intros H. destruct (H s s' eq_refl eq_refl) as [->|Q].
    + destruct (String.ltb s' s') eqn:E; [|reflexivity]. apply ltb_before in E. now apply before_irrefl in E.
    + destruct (String.ltb s' s) eqn:E; [|reflexivity]. apply ltb_before in E. destruct (before_irrefl s). exact (before_trans _ _ _ Q E).
  - intros H u u' E E'. injection E as <-. injection E' as <-. now apply ltb_not.
Qed.

Lemma key_trans : forall a b c, String.ltb b a = false -> String.ltb c b = false -> String.ltb c a = false.
Proof.
  intros a b c H1 H2. apply ltb_not in H1. apply ltb_not in H2. destruct (String.ltb c a) eqn:E; [|reflexivity]. apply ltb_before in E. exfalso.
  apply (before_irrefl a). destruct H1 as [-> |H1]; destruct H2 as [-> |H2]; try assumption.
  - exact (before_trans _ _ _ H2 E).
  - exact (before_trans _ _ _ H1 E).
  - exact (before_trans _ _ _ (before_trans _ _ _ H1 H2) E).
Qed.

Lemma filter_all : forall A (f : A -> bool) l, Forall (fun x => f x = true) l -> filter f l = l.
Proof. intros A f l H. induction H; [reflexivity|]. cbn [filter]. rewrite H. congruence. Qed.

Definition all_fits (rs : list BestFit) : Prop := Forall (fun r => has_fit r = true) rs.

Lemma sorted_ranking : forall rs, all_fits rs -> ranking rs (sorted_results rs).
Proof.
  induction rs as [|x rs IH]; intros A; [split; [reflexivity|]; split; [constructor|reflexivity]|].
  apply Forall_cons_iff in A as [X A]. destruct (IH A) as (P & S & F). clear IH. cbn [sorted_results fold_right]. fold (sorted_results rs).
  assert (AS : all_fits (sorted_results rs)) by (unfold all_fits; rewrite <- P; exact A). unfold all_fits in AS.
  set (l := sorted_results rs) in *. clearbody l. split; [rewrite P; apply insert_permutation|]. split.
  - clear P F A. induction l as [|y l IH]; cbn [insert_result]; [repeat constructor|]. apply Forall_cons_iff in AS as [Y AS].
    apply StronglySorted_inv in S as [S SY]. destruct (String.ltb _ _) eqn:E.
    + constructor; [now apply IH|]. rewrite <- insert_permutation. constructor; [|exact SY]. apply not_after_key; [assumption..|].
      destruct (String.ltb (key_of x) (key_of y)) eqn:E2; [|reflexivity]. apply ltb_before in E, E2. destruct (before_irrefl (key_of y)). exact (before_trans _ _ _ E E2).
    + constructor; [now constructor|]. constructor; [now apply not_after_key|]. rewrite Forall_forall in *. intros z Z.
      apply not_after_key; [exact X|exact (AS z Z)|]. apply key_trans with (key_of y); [exact E|].
      apply not_after_key; [exact Y|exact (AS z Z)|exact (SY z Z)].
  - intros s. cbn [filter]. rewrite <- F. clear P F A S. induction l as [|y l IH]; cbn [insert_result]; [reflexivity|].
    apply Forall_cons_iff in AS as [Y AS]. specialize (IH AS). destruct (String.ltb _ _) eqn:E; [|reflexivity]. cbn [filter]. rewrite IH.
    unfold has_fit, key_of in *. destruct (bf_chi_squared x) as [sx|]; [|discriminate]. destruct (bf_chi_squared y) as [sy|]; [|discriminate].
    destruct (String.eqb_spec sx s) as [->|]; [|reflexivity]. destruct (String.eqb_spec sy s) as [->|]; [|reflexivity].
    apply ltb_before in E. now apply before_irrefl in E.
Qed.

Lemma sorted_least : forall rs, all_fits rs -> least_result rs (hd_error (sorted_results rs)).
Proof.
  induction rs as [|x rs IH]; intros A; [constructor|]. apply Forall_cons_iff in A as [X A]. specialize (IH A).
  cbn [sorted_results fold_right]. fold (sorted_results rs). pose proof (proj1 (sorted_ranking rs A)) as P.
  destruct (sorted_results rs) as [|y l]; cbn [insert_result hd_error] in *.
  - apply Permutation_sym, Permutation_nil in P. subst rs. unfold has_fit in X. destruct (bf_chi_squared x) as [s|] eqn:C; [|discriminate].
    exists 0%nat, s. split; [reflexivity|]. split; [exact C|]. intros [|[|j]] r s' J R; try discriminate. injection J as <-. rewrite C in R. injection R as <-. split; [now left|lia].
  - destruct IH as (i & s & N & C & L). unfold has_fit in X. unfold key_of. rewrite C. destruct (bf_chi_squared x) as [sx|] eqn:CX; [|discriminate].
    destruct (String.ltb s sx) eqn:E; cbn [hd_error].
    + apply ltb_before in E. exists (S i), s. split; [exact N|]. split; [exact C|]. intros [|j] r s' J R.
      * injection J as <-. rewrite CX in R. injection R as <-. split; [now right|now intros _].
      * destruct (L j r s' J R) as [Q1 Q2]. split; [exact Q1|]. intros Q. apply Q2. lia.
    + apply ltb_not in E. exists 0%nat, sx. split; [reflexivity|]. split; [exact CX|]. intros [|j] r s' J R.
      * injection J as <-. rewrite CX in R. injection R as <-. split; [now left|lia].
      * destruct (L j r s' J R) as [Q1 _]. split; [|lia]. destruct E as [->|E]; [exact Q1|]. right. destruct Q1 as [->|Q1]; [exact E|exact (before_trans _ _ _ E Q1)].
Qed.

Lemma consider_filter : forall rs s, fold_left (fun s r => consider r s) (filter has_fit rs) s = fold_left (fun s r => consider r s) rs s.
Proof.
  induction rs as [|r rs IH]; intros s; [reflexivity|]. cbn [filter fold_left]. destruct (has_fit r) eqn:H; cbn [fold_left]; [apply IH|].
  rewrite consider_none; [apply IH|]. unfold has_fit in H. now destruct (bf_chi_squared r).
Qed.

Lemma filter_fits : forall rs, all_fits (filter has_fit rs).
Proof. intros rs. apply Forall_forall. intros r H. now apply filter_In in H. Qed.

(** ** The loop *)

(** What is left of the world when something was printed. *)
Definition after_print (w : World) (text : string) (w' : World) : Prop :=
  w' = mkWorld (w_lists w) (w_draws w) (w_samples w) (w_fits w) (w_events w ++ [EvPrint text]).

(** The content of the parameters of a result, [None] if it has none. *)
Definition parameters_of (r : BestFit) (w : World) (l : option data) : Prop :=
  match bf_parameters r, l with
  | None, None => True
  | Some a, Some d => nth_error (w_lists w) a = Some d
  | _, _ => False
  end.

Lemma print_inv : forall o r w u w', print_result o r w = (Ok u, w') ->
  exists l, parameters_of r w l /\ after_print w (o_show_best o r l) w'.
Proof.
  intros o r w u w' H. unfold print_result, best_text, mbind, read_option, read, ret, emit, parameters_of, after_print in *.
  destruct (bf_parameters r) as [a|].
  - unfold mbind in H. destruct (nth_error (w_lists w) a) as [d|] eqn:N; [|discriminate]. injection H as _ <-. now exists (Some d).
  - injection H as _ <-. now exists None.
Qed.

(** The runs of the loop: each starts in the world the previous one and the printing of its result have left. *)
Inductive runs (o : Oracle) (f : string -> W BestFit) : list string -> World -> list BestFit -> World -> Prop :=
  | RunsEnd : forall w, runs o f [] w [] w
  | RunsNext : forall name names w r w1 l w2 rs w',
      f name w = (Ok r, w1) -> parameters_of r w1 l -> after_print w1 (o_show_best o r l) w2 ->
      runs o f names w2 rs w' -> runs o f (name :: names) w (r :: rs) w'.

Lemma try_all_runs : forall o f names s w s' w', try_all o f names s w = (Ok s', w') ->
  exists rs, runs o f names w rs w' /\ s' = fold_left (fun s r => consider r s) rs s.
Proof.
  induction names as [|name names IH]; intros s w s' w' H; cbn [try_all] in H.
  - injection H as <- <-. exists []. split; [constructor|reflexivity].
  - unfold mbind at 1 in H. destruct (f name w) as [[r|e] w1] eqn:F; [|discriminate]. unfold mbind in H.
    destruct (print_result o r w1) as [[u|e] w2] eqn:P; [|discriminate]. destruct (IH _ _ _ _ H) as (rs & R & ->).
    destruct (print_inv _ _ _ _ _ P) as (l & L & A). exists (r :: rs). split; [|reflexivity]. eapply RunsNext; eauto.
Qed.

Lemma mfor_print : forall o l w u w', mfor l (print_result o) w = (Ok u, w') ->
  exists texts, length texts = length l /\ w' = mkWorld (w_lists w) (w_draws w) (w_samples w) (w_fits w) (w_events w ++ map EvPrint texts) /\
    forall i r text, nth_error l i = Some r -> nth_error texts i = Some text ->
      exists d, parameters_of r w d /\ text = o_show_best o r d.
Proof.
  induction l as [|r l IH]; intros w u w' H; cbn [mfor] in H.
  - injection H as _ <-. exists []. split; [reflexivity|]. split; [rewrite app_nil_r; now destruct w|]. intros [|i] r t N; discriminate.
  - unfold mbind in H. destruct (print_result o r w) as [[v|e] w1] eqn:P; [|discriminate].
    destruct (print_inv _ _ _ _ _ P) as (d & D & ->). destruct (IH _ _ _ H) as (texts & L & -> & T). cbn [w_lists w_draws w_samples w_fits w_events] in *.
    exists (o_show_best o r d :: texts). split; [cbn; now rewrite L|]. split; [now rewrite <- app_assoc|].
    intros [|i] x t N M; [|exact (T i x t N M)]. injection N as <-. injection M as <-. now exists d.
Qed.

(** Everything [best_of_runs] does. *)
Lemma best_of_runs_inv : forall o f names w final best w', best_of_runs o f names w = (Ok (final, best), w') ->
  exists rs w1, runs o f names w rs w1 /\ final = filter has_fit rs /\ least_result rs best /\ best = hd_error (sorted_results final) /\
    exists l texts,
      (match best with Some b => parameters_of b w1 l | None => True end) /\
      w' = mkWorld (w_lists w1) (w_draws w1) (w_samples w1) (w_fits w1)
             (w_events w1 ++ map EvPrint (match best with
                                          | Some b => "Best fit:  " ++ o_show_best o b l
                                          | None => "Best fit:  {'chi_squared': None, 'name': None, 'parameters': None}"
                                          end :: texts)%string) /\
      length texts = Nat.min 3 (length final) /\
      forall i r text, nth_error (sorted_results final) i = Some r -> nth_error texts i = Some text ->
        exists d, parameters_of r w1 d /\ text = o_show_best o r d.
Proof.
  intros o f names w final best w' H. unfold best_of_runs in H. unfold mbind at 1 in H.
  destruct (try_all o f names ([], None) w) as [[s|e] w1] eqn:T; [|discriminate]. destruct (try_all_runs _ _ _ _ _ _ _ T) as (rs & R & ES). clear T.
  pose proof (consider_least rs) as K. cbv zeta in K. rewrite <- ES in K. destruct s as [fin bst]. cbn [fst snd] in H, K. destruct K as [K1 K2]. subst fin.
  pose proof (sorted_least _ (filter_fits rs)) as SL.
  assert (HB : bst = hd_error (sorted_results (filter has_fit rs))).
  { apply (least_unique (filter has_fit rs)); [|exact SL]. pose proof (consider_least (filter has_fit rs)) as [_ Z]. rewrite consider_filter, <- ES in Z. exact Z. }
  assert (X : exists l u w2, match bst with Some b => parameters_of b w1 l | None => True end /\
    after_print w1 (match bst with
                                          | Some b => "Best fit:  " ++ o_show_best o b l
                                          | None => "Best fit:  {'chi_squared': None, 'name': None, 'parameters': None}"
                                          end)%string w2 /\
    mbind (mfor (firstn 3 (sorted_results (filter has_fit rs))) (print_result o)) (fun _ => ret (filter has_fit rs, bst)) w2 = (Ok u, w') /\ u = (final, best)).
  { unfold mbind at 1 in H. set (k := mbind (mfor _ _) _) in *. clearbody k. destruct bst as [b|].
    - unfold best_text, read_option, parameters_of in *. destruct (bf_parameters b) as [a|].
      + unfold mbind, read in H. destruct (nth_error (w_lists w1) a) as [d|] eqn:N; [|discriminate]. exists (Some d). eexists _, _. split; [reflexivity|]. split; [reflexivity|]. split; [exact H|reflexivity].
      + exists None. eexists _, _. split; [exact I|]. split; [reflexivity|]. split; [exact H|reflexivity].
    - exists None. eexists _, _. split; [exact I|]. split; [reflexivity|]. split; [exact H|reflexivity]. }
  clear H. destruct X as (l & u & w2 & PL & AP & H & ->). unfold mbind in H.
  destruct (mfor _ _ w2) as [[v|e] w3] eqn:M; [|discriminate]. injection H as <- <- <-. destruct (mfor_print _ _ _ _ _ M) as (texts & L & -> & TX).
  unfold after_print in AP. subst w2. cbn [w_lists w_draws w_samples w_fits w_events] in *.
  exists rs, w1. split; [exact R|]. split; [reflexivity|]. split; [exact K2|]. split; [exact HB|]. exists l, texts. split; [exact PL|]. split; [|split].
  - now rewrite <- app_assoc.
  - rewrite L, firstn_length. f_equal. apply Permutation_length. symmetry. apply (sorted_ranking _ (filter_fits rs)).
  - intros i r text N1 N2. apply (TX i r text); [|exact N2]. assert (i < 3)%nat.
    { apply nth_lt in N2. rewrite L, firstn_length in N2. lia. }
    rewrite <- (firstn_skipn 3 (sorted_results (filter has_fit rs))) in N1. rewrite nth_error_app1 in N1; [exact N1|]. rewrite firstn_length.
    apply nth_lt in N2. rewrite L, firstn_length in N2. exact N2.
Qed.

(** ** One run *)

Section Run.
Variables (o : Oracle) (draws : nat -> R) (c : param_class) (initial : env R) (fix_first : bool) (size size_resonances : R) (handpicked : bool)
  (kind : pipeline_kind) (x : Res Prepared) (mass alpha hc_squared : R) (dir : string) (counts repetitions : list Z) (limit : Z).
Hypothesis measured : from_measurements x.
Let run := one_run o draws c initial fix_first size size_resonances handpicked kind x mass alpha hc_squared dir counts repetitions limit.

(** The store before the perturbation. *)
Definition unperturbed (d : data) : Prop :=
  exists d0, construct c initial = Ok d0 /\ if fix_first then mutate c MFixResonances d0 = (Ok tt, d) else d = d0.

(** A pipeline of the given name that is about to run, with a store of its own. *)
Record launched (w : World) (name : string) (p : Pipeline) (w1 : World) (d : data) : Prop := mkLaunched {
  la_started : started p w1 d;
  la_name : pl_name p = name;
  la_kind : pl_kind p = kind;
  la_data : x = Ok (pl_ts p, pl_ys p, pl_errors p);
  la_class : r_class (pl_parameters p) = c;
  la_fresh : r_data (pl_parameters p) = length (w_lists w);
  la_lists : w_lists w1 = w_lists w ++ [d];
  la_fits : w_fits w1 = w_fits w;
  la_new : o_exists o (path_join dir name) = false /\ ~ In (EvMkdir (path_join dir name)) (w_events w);
  la_events : w_events w1 = w_events w ++ [EvMkdir (path_join dir name)];
  la_numbers : pl_numbers p = schedule counts repetitions /\ pl_fixed_rounds p = limit /\ pl_handpicked p = handpicked;
  la_perturbed : exists d0, unperturbed d0 /\ perturb_model_parameters c draws (w_draws w) size (Some size_resonances) handpicked d0 = (Ok tt, d, w_draws w1) }.

(** Why a run does not get as far as that. *)
Definition refused (w : World) (name : string) (e : exn) : Prop :=
  construct c initial = Err e \/
  (exists d0, construct c initial = Ok d0 /\ fix_first = true /\ fst (mutate c MFixResonances d0) = Err e) \/
  (exists d0, unperturbed d0 /\ get_bounds c handpicked d0 = Err e) \/
  x = Err e \/
  (e = ValueError /\ (o_exists o (path_join dir name) = true \/ In (EvMkdir (path_join dir name)) (w_events w))) \/
  (e = OtherError /\ o_mkdir o (path_join dir name) = false).

(** Every fit is made by a pipeline launched in this way. *)
Lemma run_cases : forall name w res w', run name w = (res, w') ->
  (exists p w1 d p' evs, launched w name p w1 d /\ IterativePipeline_run o (p, w1) = (res, (p', w')) /\ w_events w' = w_events w1 ++ evs /\ Forall (confined (path_join dir name)) evs) \/
  (exists e, res = Err e /\ w_fits w' = w_fits w /\ w_events w' = w_events w /\ refused w name e).
Proof.
  intros name w res w' H. unfold run, one_run in H. unfold mbind at 1 in H.
  destruct (construct c initial) as [d0|e] eqn:C.
  2: { rewrite (obj_new_err _ _ _ _ C) in H. injection H as <- <-. right. exists e. repeat (split; [reflexivity|]). now left. }
  rewrite (obj_new_ok _ _ _ _ C) in H. set (wn := set_lists _ w) in H. set (r := mkRef c (length (w_lists w))) in H.
  assert (RD0 : reachable c d0) by (eapply reach_init; exact C).
  assert (X : exists res1 d1 , (if fix_first then obj_mutate r MFixResonances else ret tt) wn = (res1, set_lists (w_lists w ++ [d1]) w) /\
     reachable c d1 /\ (res1 = Ok tt -> unperturbed d1) /\ (forall e, res1 = Err e -> fix_first = true /\ fst (mutate c MFixResonances d0) = Err e)).
  { destruct fix_first eqn:FF.
    - assert (N : nth_error (w_lists wn) (r_data r) = Some d0) by (cbn; apply nth_alloc).
      rewrite (obj_mutate_eq _ _ _ _ N). exists (fst (mutate c MFixResonances d0)), (snd (mutate c MFixResonances d0)).
      split; [|split; [|split]].
      + cbn [r_class r r_data]. f_equal. unfold wn, set_lists. cbn [w_lists w_draws w_samples w_fits w_events]. now rewrite replace_end.
      + now apply reach_step.
      + intros E. exists d0. split; [exact C|]. rewrite FF. destruct (mutate c MFixResonances d0) as [a b]. cbn in *. now subst a.
      + intros e E. now split.
    - exists (Ok tt), d0. split; [reflexivity|]. split; [exact RD0|]. split; [|intros e E; discriminate]. intros _. exists d0. split; [exact C|]. now rewrite FF. }
  destruct X as (res1 & d1 & E1 & RD1 & U & UE). unfold mbind at 1 in H.
  match type of H with (let (_, _) := ?G in _) = _ => replace G with (res1, set_lists (w_lists w ++ [d1]) w) in H by (symmetry; exact E1) end. destruct res1 as [[]|e].
  2: { injection H as <- <-. right. exists e. repeat (split; [reflexivity|]). destruct (UE e eq_refl) as [U1 U2]. right. left. now exists d0. }
  specialize (U eq_refl). clear UE. set (w2 := set_lists (w_lists w ++ [d1]) w) in H. unfold mbind at 1 in H.
  assert (N : nth_error (w_lists w2) (r_data r) = Some d1) by (cbn; apply nth_alloc).
  unfold obj_perturb, mbind at 1 in H. rewrite (read_ok _ _ _ N) in H. cbn [r_class r] in H.
  destruct (perturb_model_parameters c draws (w_draws w2) size (Some size_resonances) handpicked d1) as [[res2 d2] k2] eqn:PM.
  unfold mbind at 1, write in H. unfold mbind at 1 in H. destruct res2 as [[]|e].
  2: { injection H as <- <-. right. exists e. repeat (split; [reflexivity|]). right. right. left. exists d1. split; [exact U|].
       destruct (get_bounds c handpicked d1) as [[lo up]|e'] eqn:GB.
       - destruct (C09_perturb_effect c handpicked d1 lo up draws (w_draws w2) size (Some size_resonances) RD1 GB) as (d' & E & _). rewrite PM in E. discriminate.
       - rewrite (C09_raises c handpicked d1 e' draws (w_draws w2) size (Some size_resonances) RD1 GB) in PM. now injection PM as -> _ _. }
  unfold ret in H. cbn [set_draws set_lists w2 w_lists w_draws w_samples w_fits w_events r_data r] in H. rewrite replace_end in H.
  assert (RD2 : reachable c d2).
  { destruct (get_bounds c handpicked d1) as [[lo up]|e] eqn:GB.
    - destruct (C09_perturb_effect c handpicked d1 lo up draws (w_draws w2) size (Some size_resonances) RD1 GB) as (d' & E & _ & _ & _ & _ & RC & _).
      rewrite PM in E. injection E as <- _. exact RC.
    - rewrite (C09_raises c handpicked d1 e draws (w_draws w2) size (Some size_resonances) RD1 GB) in PM. discriminate. }
  set (w3 := mkWorld (w_lists w ++ [d2]) k2 (w_samples w) (w_fits w) (w_events w)). change (set_draws k2 (set_lists (w_lists w ++ [d2]) w2)) with w3 in H.
  unfold mbind at 1 in H. destruct (IterativePipeline_init o kind name r x mass alpha hc_squared dir false handpicked counts repetitions limit w3) as [[p|e] w4] eqn:B.
  2: { injection H as <- <-. unfold IterativePipeline_init in B. pose proof B as B0. apply C38_constructor in B as [(_ & ->)|(F & _)]; [|now destruct F]. right. exists e.
       repeat (split; [reflexivity|]). right. right. right. clear - B0. unfold Pipeline_init, mbind, lift in B0. destruct x as [[[? ?] ?]|e0]; [|left; congruence].
       unfold set_up_reports_directory in B0. right. destruct (_ || _)%bool eqn:Q; [|right; destruct (o_mkdir _ _) eqn:MK; [discriminate|split; [congruence|reflexivity]]].
       left. split; [congruence|]. apply orb_true_iff in Q as [Q|Q]; [now left|right]. apply existsb_exists in Q as (ev & IN & Q). unfold made in Q.
       destruct ev; try discriminate. apply String.eqb_eq in Q. now subst. }
  destruct (IterativePipeline_run o (p, w4)) as [res3 [p' w5]] eqn:R. injection H as <- <-. left.
  unfold IterativePipeline_init in B.
  enough (L : launched w name p w4 d2).
  { pose proof B as B'. destruct (C38_own_directory _ _ _ _ _ _ _ _ _ _ _ _ _ _ _ _ _ _ _ _ B' (or_intror R)) as (evs & EV & OWN).
    exists p, w4, d2, p', evs. split; [exact L|]. split; [exact R|]. split; [|exact OWN]. rewrite EV, (la_events _ _ _ _ _ L). now rewrite <- app_assoc. }
  assert (S3 : nth_error (w_lists w3) (r_data r) = Some d2) by (cbn; apply nth_alloc).
  destruct (built_started _ _ _ _ _ _ _ _ _ _ _ _ _ _ _ _ _ _ (from_sorted _ measured) S3 RD2 B) as (ST & K & NM & PP & _ & NB & LI & XX & FI & LL).
  pose proof (C38_constructor _ _ _ _ _ _ _ _ _ _ _ _ _ _ _ _ _ B) as [(F & _)|(_ & EX & NI & W4)]; [exfalso; apply F; now eexists|].
  assert (HP : pl_handpicked p = handpicked).
  { unfold Pipeline_init, mbind, lift in B. destruct x as [[[? ?] ?]|]; [|discriminate]. unfold set_up_reports_directory in B.
    destruct (_ || _)%bool; [discriminate|]. destruct (o_mkdir _ _); [|discriminate]. cbn in B. injection B as <- _. reflexivity. }
  constructor; auto; try (rewrite PP; reflexivity); try (rewrite W4; reflexivity).
  exists d1. split; [exact U|]. rewrite W4. exact PM.
Qed.

(** The tasks of a complete run of a pipeline of the given name, without the fit of residuals. *)
Definition attempted (name : string) (xs : list Ended) : Prop :=
  exists w0 p w d l, launched w0 name p w d /\ length xs = S (length (schedule counts repetitions)) /\
    ended o p d (map (stage_class kind) (stages kind (schedule counts repetitions) limit)) (w_fits w) l xs.

Definition fits_per_run : nat := S (length (schedule counts repetitions)) + match kind with NucleonCS => 1 | _ => 0 end.

Lemma run_ok : forall name w r w', run name w = (Ok r, w') ->
  exists xs l evs, attempted name xs /\ best_of name (w_lists w') xs r /\
    (length (w_lists w) <= length (w_lists w'))%nat /\
    (forall a, (a < length (w_lists w))%nat -> nth_error (w_lists w') a = nth_error (w_lists w) a) /\
    (forall a, bf_parameters r = Some a -> (a < length (w_lists w'))%nat) /\
    w_fits w' = w_fits w ++ l /\ length l = fits_per_run /\
    w_events w' = w_events w ++ EvMkdir (path_join dir name) :: evs /\ Forall (confined (path_join dir name)) evs /\
    o_exists o (path_join dir name) = false /\ ~ In (EvMkdir (path_join dir name)) (w_events w).
Proof.
  intros name w r w' H. destruct (run_cases _ _ _ _ H) as [(p & w1 & d & p' & evs & L & R & EV & OWN)|(e & E & _)]; [|discriminate].
  pose proof L as [ST NM K X CL FR LL FI [EX NI] EV1 (NB & LI & _) _].
  destruct (C36_iterative_pipelines _ _ _ _ _ _ _ ST R) as (l & xs & F & L1 & L2 & EN & BO).
  destruct (C36_other_objects_untouched _ _ _ _ _ _ _ ST (or_intror R)) as (G1 & G2 & G3).
  rewrite NM in BO. rewrite K, NB, LI in EN. rewrite NB in L1. rewrite K in L2. rewrite LL, app_length in G1. cbn [length] in G1.
  exists xs, l, evs. split; [exists w, p, w1, d, l; split; [exact L|]; split; [congruence|exact EN]|]. split; [exact BO|]. split; [lia|]. split.
  { intros a A. rewrite G2; [rewrite LL; now apply nth_error_app1|rewrite LL, app_length; lia|rewrite FR; lia]. }
  split; [exact G3|]. split; [congruence|]. split; [unfold fits_per_run; rewrite L2, L1; reflexivity|].
  split; [rewrite EV, EV1, <- app_assoc; reflexivity|]. split; [exact OWN|]. split; assumption.
Qed.

(** All runs together. *)
Lemma runs_all : forall names w rs w', runs o run names w rs w' ->
  exists xss l evs, length rs = length names /\ length xss = length names /\
    (forall i name xs r, nth_error names i = Some name -> nth_error xss i = Some xs -> nth_error rs i = Some r ->
       attempted name xs /\ best_of name (w_lists w') xs r) /\
    (length (w_lists w) <= length (w_lists w'))%nat /\
    (forall a, (a < length (w_lists w))%nat -> nth_error (w_lists w') a = nth_error (w_lists w) a) /\
    w_fits w' = w_fits w ++ l /\ length l = (length names * fits_per_run)%nat /\
    w_events w' = w_events w ++ evs /\ Forall (fun e => exists name, In name names /\ confined (path_join dir name) e) evs /\
    (forall name, In name names -> In (EvMkdir (path_join dir name)) evs /\ o_exists o (path_join dir name) = false /\
       ~ In (EvMkdir (path_join dir name)) (w_events w)) /\
    NoDup (map (path_join dir) names).
Proof.
  intros names w rs w' H. induction H as [w|name names w r w1 l0 w2 rs w' F PA AP R IH].
  - exists [], [], []. split; [reflexivity|]. split; [reflexivity|]. split; [intros [|i]; discriminate|]. split; [lia|]. split; [reflexivity|].
    split; [now rewrite app_nil_r|]. split; [reflexivity|]. split; [now rewrite app_nil_r|]. split; [constructor|]. split; [intros ? []|constructor].
  - destruct (run_ok _ _ _ _ F) as (xs & l & evs & A & B & G1 & G2 & G3 & F1 & F2 & E1 & OWN & E2 & E3).
    destruct IH as (xss & l' & evs' & L1 & L2 & S & H1 & H2 & F1' & F2' & E1' & OWN' & E2' & ND). unfold after_print in AP. subst w2.
    cbn [w_lists w_draws w_samples w_fits w_events] in *.
    exists (xs :: xss), (l ++ l'), (EvMkdir (path_join dir name) :: evs ++ [EvPrint (o_show_best o r l0)] ++ evs').
    split; [cbn; lia|]. split; [cbn; lia|]. split; [|split; [lia|split; [|split; [|split; [|split; [|split; [|split]]]]]]].
    + intros [|i] n ys q N1 N2 N3; [|exact (S i n ys q N1 N2 N3)]. injection N1 as <-. injection N2 as <-. injection N3 as <-. split; [exact A|].
      eapply best_heap; [exact B|]. intros a d Q1 Q2. rewrite H2; [exact Q2|]. exact (G3 a Q1).
    + intros a Q. rewrite H2 by lia. now apply G2.
    + rewrite F1', F1. now rewrite app_assoc.
    + rewrite app_length, F2, F2'. cbn. lia.
    + rewrite E1', E1. repeat (rewrite <- app_assoc; cbn [app]). reflexivity.
    + constructor; [exists name; split; [now left|reflexivity]|]. apply Forall_app. split; [|apply Forall_app; split].
      * eapply Forall_impl; [|exact OWN]. intros ev Q. exists name. split; [now left|exact Q].
      * constructor; [|constructor]. exists name. split; [now left|exact I].
      * eapply Forall_impl; [|exact OWN']. intros ev (n & IN & Q). exists n. split; [now right|exact Q].
    + intros n [<-|IN].
      * split; [now left|]. split; assumption.
      * destruct (E2' n IN) as (Q1 & Q2 & Q3). split; [right; rewrite !in_app_iff; auto|]. split; [exact Q2|]. intros Q. apply Q3. rewrite E1. rewrite !in_app_iff. auto.
    + cbn [map]. constructor; [|exact ND]. intros IN. apply in_map_iff in IN as (n & EQ & IN). destruct (E2' n IN) as (_ & _ & Q). apply Q. rewrite EQ, E1.
      rewrite !in_app_iff. left. right. now left.
Qed.

(** ** C48 *)

(** The fit [b] is that of a task whose chi-squared is alphabetically least among all tasks of all runs, the earliest of them. *)
Definition least_of_all (names : list string) (xss : list (list Ended)) (h : list data) (best : option BestFit) : Prop :=
  match best with
  | Some b => exists i j name xs y s, nth_error names i = Some name /\ nth_error xss i = Some xs /\ nth_error xs j = Some y /\
      chi_text y = Some s /\ describes name h y s b /\
      forall i' j' xs' y' s', nth_error xss i' = Some xs' -> nth_error xs' j' = Some y' -> chi_text y' = Some s' ->
        (s = s' \/ before s s') /\ ((i' < i)%nat \/ (i' = i /\ (j' < j)%nat) -> before s s')
  | None => Forall (Forall (fun y => chi_text y = None)) xss
  end.

Lemma nth_some : forall A (l : list A) i, (i < length l)%nat -> exists a, nth_error l i = Some a.
Proof. intros A l i H. destruct (nth_error l i) as [a|] eqn:E; [now exists a|]. apply nth_error_None in E. lia. Qed.

Lemma least_runs : forall names xss h rs best, length rs = length names -> length xss = length names ->
  (forall i name xs r, nth_error names i = Some name -> nth_error xss i = Some xs -> nth_error rs i = Some r -> best_of name h xs r) ->
  least_result rs best -> least_of_all names xss h best.
Proof.
  intros names xss h rs best L1 L2 B LR.
  assert (ALL : forall i' xs', nth_error xss i' = Some xs' -> exists name r, nth_error names i' = Some name /\ nth_error rs i' = Some r /\ best_of name h xs' r).
  { intros i xs N. assert (i < length names)%nat by (apply nth_lt in N; lia).
    destruct (nth_some _ names i) as [name NM]; [lia|]. destruct (nth_some _ rs i) as [r NR]; [lia|]. exists name, r. eauto. }
  destruct best as [b|].
  - destruct LR as (i & s & N & C & L). assert (LI : (i < length names)%nat) by (apply nth_lt in N; lia).
    destruct (nth_some _ names i LI) as [name NM]. destruct (nth_some _ xss i ltac:(lia)) as [xs NX].
    destruct (B i name xs b NM NX N) as [(j & y & s0 & (E1 & E2 & E3) & D)|[_ ->]]; [|discriminate].
    assert (s0 = s) by (destruct D as (D & _); congruence). subst s0.
    exists i, j, name, xs, y, s. repeat (split; [assumption|]). intros i' j' xs' y' s' N1 N2 C'.
    destruct (ALL i' xs' N1) as (name' & r' & NM' & NR' & [(k & z & s2 & (K1 & K2 & K3) & D')|[F _]]).
    2: { rewrite Forall_forall in F. apply nth_error_In in N2. specialize (F _ N2). congruence. }
    destruct (K3 j' y' s' N2 C') as [Q1 Q2]. destruct D' as (D' & _). destruct (L i' r' s2 NR' D') as [P1 P2]. split.
    + destruct P1 as [->|P1]; [exact Q1|]. right. destruct Q1 as [->|Q1]; [exact P1|exact (before_trans _ _ _ P1 Q1)].
    + intros [LT|[-> LT]].
      * specialize (P2 LT). destruct Q1 as [->|Q1]; [exact P2|exact (before_trans _ _ _ P2 Q1)].
      * rewrite N1 in NX. injection NX as <-. exact (proj2 (E3 j' y' s' N2 C') LT).
  - apply Forall_forall. intros xs IN. apply In_nth_error in IN as [i N]. destruct (ALL i xs N) as (name & r & NM & NR & [(k & z & s2 & _ & D & _)|[F _]]); [|exact F].
    cbn in LR. rewrite Forall_forall in LR. apply nth_error_In in NR. specialize (LR _ NR). congruence.
Qed.

(** What the script returns and prints. *)
Theorem C48_best_over_all_runs : forall names w final best w', best_of_runs o run names w = (Ok (final, best), w') ->
  exists xss rs l, length xss = length names /\ length rs = length names /\
    (forall i name xs r, nth_error names i = Some name -> nth_error xss i = Some xs -> nth_error rs i = Some r ->
       attempted name xs /\ best_of name (w_lists w') xs r) /\
    final = filter has_fit rs /\ least_of_all names xss (w_lists w') best /\
    w_fits w' = w_fits w ++ l /\ length l = (length names * fits_per_run)%nat.
Proof.
  intros names w final best w' H. destruct (best_of_runs_inv _ _ _ _ _ _ _ H) as (rs & w1 & R & FI & LR & HD & l0 & texts & _ & W' & _).
  destruct (runs_all _ _ _ _ R) as (xss & l & evs & L1 & L2 & S & _ & _ & F & FL & _). exists xss, rs, l.
  subst w'. cbn [w_lists w_fits]. repeat (split; [assumption|]). split; [|split; assumption].
  eapply least_runs; [exact L1|exact L2| |exact LR]. intros i name xs r N1 N2 N3. now apply (S i).
Qed.

(** What the script prints at its end: the best fit and the three best results, which come first in the ranking of all results. *)
Theorem C48_report : forall names w final best w', best_of_runs o run names w = (Ok (final, best), w') ->
  exists before l texts order, ranking final order /\ hd_error order = best /\
    w_events w' = before ++ map EvPrint (match best with
                                         | Some b => "Best fit:  " ++ o_show_best o b l
                                         | None => "Best fit:  {'chi_squared': None, 'name': None, 'parameters': None}"
                                         end :: texts)%string /\
    (match best with Some b => parameters_of b w' l | None => final = [] end) /\
    length texts = Nat.min 3 (length final) /\
    forall i r text, nth_error order i = Some r -> nth_error texts i = Some text ->
      exists d, parameters_of r w' d /\ text = o_show_best o r d.
Proof.
  intros names w final best w' H. destruct (best_of_runs_inv _ _ _ _ _ _ _ H) as (rs & w1 & R & FI & LR & HD & l0 & texts & PL & W' & TL & TX).
  exists (w_events w1), l0, texts, (sorted_results final). split; [rewrite FI; apply sorted_ranking, filter_fits|]. split; [now symmetry|].
  assert (PE : forall r d, parameters_of r w1 d -> parameters_of r w' d) by (intros r d; rewrite W'; exact (fun z => z)).
  split; [now rewrite W'|]. split; [|split; [exact TL|]].
  - destruct best as [b|]; [now apply PE|]. cbn in LR. rewrite FI. clear - LR. induction LR as [|r rs H _ IH]; [reflexivity|].
    cbn [filter]. unfold has_fit. now rewrite H.
  - intros i r text N1 N2. destruct (TX i r text N1 N2) as (d & D & E). exists d. split; [now apply PE|exact E].
Qed.

(** A complete script has made the directories of all runs, and none of them existed before. *)
Theorem C48_directories : forall names w final best w', best_of_runs o run names w = (Ok (final, best), w') ->
  NoDup (map (path_join dir) names) /\
  forall name, In name names -> o_exists o (path_join dir name) = false /\ ~ In (EvMkdir (path_join dir name)) (w_events w) /\
    In (EvMkdir (path_join dir name)) (w_events w').
Proof.
  intros names w final best w' H. destruct (best_of_runs_inv _ _ _ _ _ _ _ H) as (rs & w1 & R & FI & LR & HD & l0 & texts & _ & W' & _).
  destruct (runs_all _ _ _ _ R) as (xss & l & evs & _ & _ & _ & _ & _ & _ & _ & EV & _ & DI & ND). split; [exact ND|].
  intros name IN. destruct (DI name IN) as (D1 & D2 & D3). split; [exact D2|]. split; [exact D3|]. rewrite W'. cbn [w_events]. rewrite EV, !in_app_iff. auto.
Qed.

(** A second execution is refused at the first run, before anything is fitted, printed or written. *)
Theorem C48_second_execution : forall names w final best w', best_of_runs o run names w = (Ok (final, best), w') -> names <> [] ->
  exists w2, best_of_runs o run names w' = (Err ValueError, w2) /\ w_fits w2 = w_fits w' /\ w_events w2 = w_events w'.
Proof.
  intros [|name names] w final best w' H NE; [now destruct NE|]. destruct (C48_directories _ _ _ _ _ H) as (_ & DI).
  destruct (DI name (or_introl eq_refl)) as (_ & _ & MADE). clear DI.
  destruct (best_of_runs_inv _ _ _ _ _ _ _ H) as (rs & w1 & R & _). inversion R as [|n ns w0 r w0' l0 w2 rs' w'' F PA AP R']. subst. clear R R' H AP.
  destruct (run_cases _ _ _ _ F) as [(p & v1 & d & p' & evs & L & _)|(e & E & _)]; [|discriminate].
  destruct L as [_ _ _ X _ _ _ _ _ _ _ (d0 & (d00 & C & U) & PM)].
  assert (RD0 : reachable c d00) by (eapply reach_init; exact C).
  assert (RD : reachable c d0).
  { destruct fix_first; [|now subst]. replace d0 with (snd (mutate c MFixResonances d00)) by now rewrite U. now apply reach_step. }
  destruct (get_bounds c handpicked d0) as [[lo up]|e] eqn:GB.
  2: { rewrite (C09_raises c handpicked d0 e draws (w_draws w) size (Some size_resonances) RD GB) in PM. discriminate. }
  destruct (C09_perturb_effect c handpicked d0 lo up draws (w_draws w') size (Some size_resonances) RD GB) as (d1 & PM' & _).
  assert (RUN : exists w2, run name w' = (Err ValueError, w2) /\ w_fits w2 = w_fits w' /\ w_events w2 = w_events w').
  { unfold run, one_run. unfold mbind at 1. rewrite (obj_new_ok _ _ _ _ C). set (wn := set_lists _ w'). set (rf := mkRef c (length (w_lists w'))).
    assert (E1 : (if fix_first then obj_mutate rf MFixResonances else ret tt) wn = (Ok tt, set_lists (w_lists w' ++ [d0]) w')).
    { destruct fix_first; [|now subst]. assert (N : nth_error (w_lists wn) (r_data rf) = Some d00) by (cbn; apply nth_alloc).
      rewrite (obj_mutate_eq _ _ _ _ N). cbn [r_class rf]. rewrite U. cbn [fst snd]. f_equal. unfold wn, set_lists. cbn [w_lists w_draws w_samples w_fits w_events r_data rf].
      now rewrite replace_end. }
    unfold mbind at 1. match goal with |- context [let (_, _) := ?G in _] => replace G with (@Ok unit tt, set_lists (w_lists w' ++ [d0]) w') by (symmetry; exact E1) end.
    set (v2 := set_lists (w_lists w' ++ [d0]) w'). assert (N : nth_error (w_lists v2) (r_data rf) = Some d0) by (cbn; apply nth_alloc).
    unfold mbind at 1. unfold obj_perturb, mbind at 1. rewrite (read_ok _ _ _ N). cbn [r_class rf]. change (w_draws v2) with (w_draws w'). rewrite PM'.
    unfold mbind at 1, write. unfold mbind at 1. unfold ret. unfold mbind at 1.
    set (v3 := set_draws _ _). unfold IterativePipeline_init.
    rewrite (C38_existing_directory o kind name rf [] x mass alpha hc_squared dir false handpicked (schedule counts repetitions) limit v3 _ X).
    - eexists. split; [reflexivity|]. split; reflexivity.
    - right. exact MADE. }
  destruct RUN as (v & E & E1 & E2). exists v. split; [|split; assumption]. unfold best_of_runs. unfold mbind at 1. cbn [try_all]. unfold mbind at 1. now rewrite E.
Qed.

(** An exception of the script is that of one of the runs: the run is refused before its first fit, or the pipeline raises. *)
Theorem C48_exceptions : forall names w e w', best_of_runs o run names w = (Err e, w') ->
  exists done name rest rs w1, names = done ++ name :: rest /\ runs o run done w rs w1 /\
    ((refused w1 name e /\ w_fits w' = w_fits w1 /\ w_events w' = w_events w1) \/
     (exists p v d p', launched w1 name p v d /\ IterativePipeline_run o (p, v) = (Err e, (p', w')))).
Proof.
  intros names w e w' H.
  assert (TRY : forall names w s e w', try_all o run names s w = (Err e, w') ->
    exists done name rest rs w1, names = done ++ name :: rest /\ runs o run done w rs w1 /\ run name w1 = (Err e, w')).
  { clear names w e w' H. induction names as [|name names IH]; intros w s e w' H; [discriminate|]. cbn [try_all] in H. unfold mbind at 1 in H.
    destruct (run name w) as [[r|e0] w1] eqn:F.
    - unfold mbind in H. destruct (print_result o r w1) as [[u|e1] w2] eqn:P.
      + destruct (IH _ _ _ _ H) as (done & n & rest & rs & w3 & -> & R & E). destruct (print_inv _ _ _ _ _ P) as (l & L & A).
        exists (name :: done), n, rest, (r :: rs), w3. split; [reflexivity|]. split; [|exact E]. eapply RunsNext; eauto.
      + exfalso. destruct (run_ok _ _ _ _ F) as (_ & _ & _ & _ & _ & _ & _ & B & _). unfold print_result, best_text, read_option, mbind, read, ret, emit in P.
        destruct (bf_parameters r) as [a|]; [|discriminate]. unfold mbind in P. destruct (nth_error (w_lists w1) a) eqn:N; [discriminate|].
        apply nth_error_None in N. specialize (B a eq_refl). lia.
    - injection H as <- <-. exists [], name, names, [], w. split; [reflexivity|]. split; [constructor|exact F]. }
  unfold best_of_runs in H. unfold mbind at 1 in H. destruct (try_all o run names ([], None) w) as [[s|e0] w1] eqn:T.
  - exfalso. destruct (try_all_runs _ _ _ _ _ _ _ T) as (rs & R & ES). pose proof (consider_least rs) as K. cbv zeta in K. rewrite <- ES in K.
    destruct s as [fin bst]. cbn [fst snd] in H, K. destruct K as [K1 K2]. subst fin.
    assert (PAR : Forall (fun r => forall a, bf_parameters r = Some a -> (a < length (w_lists w1))%nat) rs).
    { clear - R measured. induction R as [w|name names w r w1 l w2 rs w' F PA AP R IH]; constructor; [|exact IH].
      destruct (run_ok _ _ _ _ F) as (_ & _ & _ & _ & _ & _ & _ & B & _). destruct (runs_all _ _ _ _ R) as (_ & _ & _ & _ & _ & _ & G & _).
      unfold after_print in AP. subst w2. cbn [w_lists] in G. intros a A. specialize (B a A). lia. }
    assert (PRINT : forall r v, w_lists v = w_lists w1 -> In r rs -> exists text, best_text o r v = (Ok text, v)).
    { intros r v V IN. rewrite Forall_forall in PAR. specialize (PAR r IN). unfold best_text, read_option, mbind, read, ret. destruct (bf_parameters r) as [a|].
      - rewrite V. unfold mbind. destruct (nth_error (w_lists w1) a) eqn:N; [eauto|]. apply nth_error_None in N. specialize (PAR a eq_refl). lia.
      - eauto. }
    assert (FIRST : exists u w2, w_lists w2 = w_lists w1 /\
      (match bst with
       | None => emit (EvPrint "Best fit:  {'chi_squared': None, 'name': None, 'parameters': None}")
       | Some best => mbind (best_text o best) (fun text => emit (EvPrint ("Best fit:  " ++ text)))
       end)%string w1 = (Ok u, w2)).
    { destruct bst as [b|]; [|exists tt; eexists; split; [|reflexivity]; reflexivity]. destruct K2 as (i & s & N & _). apply nth_error_In in N.
      destruct (PRINT b w1 eq_refl N) as (text & E). unfold mbind. rewrite E. exists tt. eexists. split; [|reflexivity]. reflexivity. }
    destruct FIRST as (u & w2 & V & FIRST). unfold mbind at 1 in H.
    match type of H with (let (_, _) := ?G in _) = _ => replace G with (@Ok unit u, w2) in H by (symmetry; exact FIRST) end.
    assert (MF : forall l v, w_lists v = w_lists w1 -> (forall r, In r l -> In r rs) -> exists u v', mfor l (print_result o) v = (Ok u, v')).
    { clear - PRINT. induction l as [|r l IH]; intros v V IN; [exists tt, v; reflexivity|]. cbn [mfor]. unfold mbind. unfold print_result at 1, mbind.
      destruct (PRINT r v V (IN r (or_introl eq_refl))) as (text & ->). unfold emit. apply IH; [exact V|]. intros q Q. apply IN. now right. }
    unfold mbind in H. destruct (MF (firstn 3 (sorted_results (filter has_fit rs))) w2 V) as (u' & w3 & E); [|rewrite E in H; discriminate].
    intros r IN. assert (IN' : In r (sorted_results (filter has_fit rs))) by (rewrite <- (firstn_skipn 3); apply in_app_iff; now left).
    destruct (sorted_ranking _ (filter_fits rs)) as (P & _). apply (Permutation_in r (Permutation_sym P)) in IN'. now apply filter_In in IN'.
  - injection H as <- <-. destruct (TRY _ _ _ _ _ T) as (done & name & rest & rs & w2 & -> & R & E).
    exists done, name, rest, rs, w2. split; [reflexivity|]. split; [exact R|].
    destruct (run_cases _ _ _ _ E) as [(p & v & d & p' & evs & L & RUN & _)|(e' & E' & F & EV & RF)].
    + right. now exists p, v, d, p'.
    + left. injection E' as <-. now repeat split.
Qed.
End Run.
Print Assumptions C48_best_over_all_runs.
Print Assumptions C48_report.
Print Assumptions C48_directories.
Print Assumptions C48_second_execution.
Print Assumptions C48_exceptions.
