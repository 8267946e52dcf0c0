(** C49: no fit of an iterative pipeline starts outside its bounds. *)
From Coq Require Import String Ascii Reals ZArith List Bool Arith Lia Lra.
From Verif Require Import PyBase CNum PyExpr KaonProofs Params ParamClasses ParamSpec ParamProofs PropsParams PropsParams2 PerturbProofs CommonUtils
  UtilsSpec UtilsProofs World WorldSpec WorldProofs DataSets BoundsProofs Task TaskSpec TaskProofs PropsTask Pipeline PipelineSpec
  PipelineReports PropsReports PipelineProofs PropsPipeline PropsPerturb PropsRuns FitScripts PropsFitScripts PropsStarts PropsScriptRuns.
Import ListNotations.
Local Open Scope string_scope.
Local Open Scope list_scope.
Local Open Scope R_scope.

#[local] Arguments String.append : simpl never.

(** ** Statement *)

(** Each number lies between the two bounds at its place. *)
Definition in_box (xs : list R) (bounds : list ext * list ext) : Prop :=
  forall j v a b, nth_error xs j = Some v -> nth_error (fst bounds) j = Some a -> nth_error (snd bounds) j = Some b -> within a v b.

(** What scipy checks of the start before it does anything. *)
Definition feasible (x : FitInput) : Prop :=
  length (fst (fi_bounds x)) = length (fi_start x) /\ length (snd (fi_bounds x)) = length (fi_start x) /\
  in_box (fi_start x) (fi_bounds x).

(** The values an optimiser may return, whatever the fitted function answers. *)
Inductive may_return : Fit -> list R -> Prop :=
  | ReturnsNow : forall popt cov, may_return (FitReturn popt cov) popt
  | ReturnsLater : forall args continue ys popt, may_return (continue ys) popt -> may_return (FitCall args continue) popt.

(** An optimiser that does not leave the box it is given, if it starts in it. *)
Definition respects_bounds (o : Oracle) : Prop :=
  forall n x popt, feasible x -> may_return (o_fit o n x) popt -> in_box popt (fi_bounds x).

(** The store with everything free that may be free, and the start that a fit of all this would have. *)
Definition released (c : param_class) (d : data) : data :=
  map (fun p => mkPar (par_name p) (par_value p) (member (par_name p) (must_stay_fixed c))) d.
Definition allowed (c : param_class) (handpicked : bool) (d : data) : Prop :=
  exists bounds, get_bounds c handpicked (released c d) = Ok bounds /\ in_box (free_values (released c d)) bounds.

(** ** Proofs *)

Definition ok (c : param_class) (T : env (ext * ext)) (d : data) : Prop :=
  forall p b, In p d -> ~ In (par_name p) (always_fixed c) -> lookup T (par_name p) = Some b -> within (fst b) (par_value p) (snd b).

Lemma ok_same : forall c T d d', same_values d d' -> ok c T d -> ok c T d'.
Proof.
  intros c T d. induction d as [|p d IH]; intros [|q d'] [N V] K; try discriminate; [intros ? ? []|].
  injection N as N1 N2. injection V as V1 V2. intros r b [<-|I] NF L.
  - rewrite V1. rewrite N1 in *. apply (K p b); [now left|congruence|congruence].
  - apply (IH d' (conj N2 V2)) with (p := r); auto. intros s b' Is. apply K. now right.
Qed.

Lemma bounds_pairs : forall c h d bounds, inv c d -> get_bounds c h d = Ok bounds ->
  exists bs, bounds = (map fst bs, map snd bs) /\ Forall2 (fun p b => lookup (fullT c h d) (par_name p) = Some b) (filter is_free d) bs.
Proof.
  intros c h d bounds I GB.
  assert (P : h = false -> forall n, In n (sqrt_names c) -> 0 <= val d n).
  { intros -> n Hn. apply Rnot_lt_le. intros V. rewrite get_bounds_negative in GB; [discriminate|exact I|]. eauto. }
  destruct (get_bounds_total c h d I P) as (bs & E & F). rewrite GB in E. injection E as ->. now exists bs.
Qed.

Lemma free_not_fixed : forall c d p, inv c d -> In p (filter is_free d) -> In p d /\ ~ In (par_name p) (always_fixed c).
Proof.
  intros c d p [_ A] H. apply filter_In in H as [H1 H2]. split; [exact H1|]. intros Q. unfold is_free in H2. now rewrite (A p H1 Q) in H2.
Qed.

Lemma pairs_box : forall (bs : list (ext * ext)) xs,
  in_box xs (map fst bs, map snd bs) <-> forall j v b, nth_error xs j = Some v -> nth_error bs j = Some b -> within (fst b) v (snd b).
Proof.
  intros bs xs. unfold in_box. cbn [fst snd]. split; intros H.
  - intros j v b X B. apply (H j); [exact X| |]; rewrite nth_error_map, B; reflexivity.
  - intros j v a b X A B. rewrite nth_error_map in A, B. destruct (nth_error bs j) as [y|] eqn:Y; [|discriminate].
    injection A as <-. injection B as <-. exact (H j v y X Y).
Qed.

(** Values within the table make a feasible start. *)
Lemma ok_box : forall c h d bounds, inv c d -> get_bounds c h d = Ok bounds -> ok c (fullT c h d) d ->
  length (fst bounds) = length (free_values d) /\ length (snd bounds) = length (free_values d) /\ in_box (free_values d) bounds.
Proof.
  intros c h d bounds I GB K. destruct (bounds_pairs _ _ _ _ I GB) as (bs & -> & F). cbn [fst snd].
  unfold free_values. change (filter (fun p => negb (par_fixed p)) d) with (filter is_free d). rewrite !map_length.
  assert (L : length (filter is_free d) = length bs) by (clear - F; induction F; cbn [length]; congruence). split; [now rewrite L|]. split; [now rewrite L|]. apply pairs_box.
  assert (G : forall p, In p (filter is_free d) -> In p d /\ ~ In (par_name p) (always_fixed c)) by (intros p; now apply free_not_fixed).
  clear L GB. revert G. induction F as [|p b l bs H F IH]; intros G [|j] v b' X B; try discriminate; cbn in X, B.
  - injection X as <-. injection B as <-. destruct (G p (or_introl eq_refl)) as [G1 G2]. now apply K.
  - apply (IH (fun q Q => G q (or_intror Q)) j); assumption.
Qed.

(** Values between the bounds put into the store keep it within the table. *)
Lemma fill_ok : forall c h d bounds vs, inv c d -> get_bounds c h d = Ok bounds -> length vs = count_free d -> in_box vs bounds ->
  ok c (fullT c h d) d -> ok c (fullT c h d) (fill d vs).
Proof.
  intros c h d bounds vs I GB L X K. destruct (bounds_pairs _ _ _ _ I GB) as (bs & -> & F). pose proof (proj1 (pairs_box _ _) X) as X1. clear X. rename X1 into X. clear I GB.
  revert F K. generalize (fullT c h d) as T. intros T F K. unfold count_free in L. revert vs bs L X F.
  induction d as [|p d IH]; intros vs bs L X F; [intros ? ? []|].
  assert (K' : ok c T d) by (intros q b Q; apply K; now right). specialize (IH K'). cbn [fill]. cbn [filter] in F, L. destruct (is_free p) eqn:E; unfold is_free in E.
  - destruct (par_fixed p) eqn:PF; [discriminate|]. destruct vs as [|v vs]; [discriminate|]. cbn [length] in L. injection L as L.
    inversion F as [|? b ? bs' Hb F' E1 E2]; subst. intros q b' [<-|Q] NF LK.
    + unfold with_value in *. cbn [par_name par_value] in *. rewrite Hb in LK. injection LK as <-. now apply (X 0%nat).
    + apply (IH vs bs' L (fun j => X (S j)) F' q b' Q NF LK).
  - destruct (par_fixed p) eqn:PF; [|discriminate]. intros q b' [<-|Q] NF LK; [apply K; [now left|exact NF|exact LK]|].
    now apply (IH vs bs L X F q b').
Qed.

Lemma optimise_returns : forall f x popt cov, optimise f x = Ok (popt, cov) -> may_return x popt.
Proof.
  intros f x. induction x as [args k IH|p c|e]; intros popt cov H; cbn in H; [|injection H as <- _; constructor|discriminate].
  destruct (f args) as [ys|]; [|discriminate]. cbn [bind] in H. apply (ReturnsLater _ _ ys). now apply (IH ys) in H.
Qed.

(** What a task leaves behind. *)
Lemma run_leaves : forall o t w d res t' w', respects_bounds o -> nth_error (w_lists w) (r_data (tk_parameters t)) = Some d ->
  inv (r_class (tk_parameters t)) d -> tk_class t <> ResidualTask -> Task_run o (t, w) = (res, (t', w')) ->
  let d1 := prepared (tk_class t) (r_class (tk_parameters t)) d in
  (forall x, fit_input t d1 = Ok x -> feasible x) ->
  nth_error (w_lists w') (r_data (tk_parameters t)) = Some d1 \/
  exists bounds popt, get_bounds (r_class (tk_parameters t)) (tk_handpicked t) d1 = Ok bounds /\ length popt = count_free d1 /\
    in_box popt bounds /\ nth_error (w_lists w') (r_data (tk_parameters t)) = Some (fill d1 popt).
Proof.
  intros o t w d res t' w' RB S I K H d1 FE. destruct (run_spec o t w d S I K) as (res0 & t0 & h' & evs & E & _ & _ & OUT). fold d1 in E, OUT.
  rewrite H in E. injection E as _ _ ->. cbn [w_lists add_events set_lists]. unfold run_outcome in OUT.
  destruct (fit_result o (length (w_fits w)) t d1) as [[popt cov]|e] eqn:FR.
  2: { left. destruct e; apply OUT. }
  destruct (Nat.eq_dec (length popt) (count_free d1)) as [L|L]; [|left; apply OUT]. right. destruct OUT as (SN & _).
  unfold fit_result in FR. destruct (fit_input t d1) as [x|e] eqn:FI; [|discriminate]. cbn [bind] in FR.
  destruct (fit_input_store _ _ _ FI) as (_ & _ & _ & GB). exists (fi_bounds x), popt. split; [exact GB|]. split; [exact L|]. split; [|exact SN].
  apply (RB (length (w_fits w)) x); [now apply FE|]. now apply optimise_returns in FR.
Qed.

Lemma prepared_same : forall k c d, same_values d (prepared k c d).
Proof. intros k c d. unfold prepared. split; rewrite map_map; reflexivity. Qed.

Lemma released_inv : forall c d, inv c d -> inv c (released c d).
Proof.
  intros c d [N A]. unfold released. split.
  - rewrite <- N. unfold names. rewrite map_map. reflexivity.
  - intros p H Q. apply in_map_iff in H as (q & <- & H). cbn [par_name par_fixed] in *. apply member_In. now apply must_stay_fixed_eq.
Qed.

Lemma allowed_ok : forall c h d, inv c d -> allowed c h d -> ok c (fullT c h d) d.
Proof.
  intros c h d I (bounds & GB & X). pose proof (released_inv c d I) as IR. destruct (bounds_pairs _ _ _ _ IR GB) as (bs & -> & F).
  assert (SV : same_values d (released c d)) by (unfold released; split; rewrite map_map; reflexivity).
  assert (TE : fullT c h (released c d) = fullT c h d) by (apply fullT_agree; intros n _; now apply val_same). rewrite TE in F. clear GB TE IR SV.
  pose proof (proj1 (pairs_box _ _) X) as X1. clear X. rename X1 into X. revert F. generalize (fullT c h d) as T. intros T F. clear I. revert bs X F.
  induction d as [|p d IH]; intros bs X F; [intros ? ? []|]. unfold released, free_values in *. cbn [map filter] in X, F.
  unfold is_free in F at 1. cbn [par_fixed] in X, F. destruct (member (par_name p) (must_stay_fixed c)) eqn:M; cbn [negb map] in X, F.
  - intros q b [<-|Q] NF LK; [exfalso; apply NF; apply must_stay_fixed_eq; now apply member_In|]. now apply (IH bs X F q b).
  - inversion F as [|? b ? bs' Hb F' E1 E2]; subst. cbn [par_name] in Hb. intros q b' [<-|Q] NF LK.
    + rewrite Hb in LK. injection LK as <-. now apply (X 0%nat).
    + apply (IH bs' (fun j => X (S j)) F' q b' Q NF LK).
Qed.

Lemma ok_allowed : forall c h d, inv c d -> (h = false -> forall n, In n (threshold_parameters c) -> 0 <= val d n) ->
  ok c (fullT c h d) d -> allowed c h d.
Proof.
  intros c h d I P K. pose proof (released_inv c d I) as IR.
  assert (SV : same_values d (released c d)) by (unfold released; split; rewrite map_map; reflexivity).
  destruct (get_bounds_total c h (released c d) IR) as (bs & GB & _).
  { intros Eh n Hn. rewrite (val_same _ _ _ SV). apply P; [exact Eh|]. now apply thresholds_eq. }
  exists (map fst bs, map snd bs). split; [exact GB|].
  eapply ok_box; [exact IR|exact GB|]. replace (fullT c h (released c d)) with (fullT c h d) by (apply fullT_agree; intros n _; symmetry; now apply val_same).
  exact (ok_same _ _ _ _ SV K).
Qed.

Section Fits.
Variables (o : Oracle) (p : Pipeline) (d : data) (before l : list FitInput) (xs : list Ended).
Let c := r_class (pl_parameters p).
Let classes := map (stage_class (pl_kind p)) (stages (pl_kind p) (pl_numbers p) (pl_fixed_rounds p)).
Hypothesis tasks : ended o p d classes before l xs.
Hypothesis bounded : respects_bounds o.

Lemma rounds_random : forall numbers i limit s, In s (rounds i numbers limit) -> exists j k b, s = RandomRound j k b.
Proof.
  induction numbers as [|k ks IH]; intros i limit s []; [subst; eauto|eapply IH; eassumption].
Qed.

Lemma stage_not_auxiliary : forall i t, nth_error classes i = Some (tk_class t) ->
  passes_masses (pl_kind p) = true \/ kind_of (tk_class t) = FormFactorKind.
Proof.
  intros i t H. unfold classes in H. rewrite nth_error_map in H. destruct (nth_error (stages _ _ _) i) as [s|] eqn:N; [|discriminate].
  cbn in H. injection H as H. rewrite <- H. apply nth_error_In in N. unfold stages in N. apply in_app_iff in N.
  destruct (pl_kind p); try (left; reflexivity); right; destruct s; try reflexivity; destruct N as [N|[N|[]]]; try discriminate;
    apply rounds_random in N; destruct N as (? & ? & ? & N); discriminate.
Qed.

Lemma handed_table : forall i cl dt, (forall j, (j < i)%nat -> nth_error classes j <> Some ResidualTask) -> handed c d xs i cl dt ->
  fullT c (pl_handpicked p) dt = fullT c (pl_handpicked p) d.
Proof.
  intros i cl dt NR HA. apply fullT_agree. intros n IN. eapply handed_fixed; [exact tasks|exact NR|exact HA| |now apply must_stay_fixed_eq].
  destruct i as [|j]; [lia|]. destruct HA as (x & _ & N & _). apply nth_lt in N. lia.
Qed.

Lemma handed_ok : ok c (fullT c (pl_handpicked p) d) d ->
  forall i cl dt, (forall j, (j < i)%nat -> nth_error classes j <> Some ResidualTask) -> handed c d xs i cl dt ->
  ok c (fullT c (pl_handpicked p) d) dt.
Proof.
  intros K. induction i as [|j IH]; intros cl dt NR HA; [eapply ok_same; [apply HA|exact K]|]. cbn [handed] in HA.
  destruct HA as (x & dx & N & LB & -> & SV). eapply ok_same; [exact SV|].
  destruct (ended_step o p d before l xs tasks j x N (NR j (Nat.lt_succ_diag_r j))) as (t & w & r & fj & dt' & dx' & TR & NF & S & RC & HA & SA & C & FI & LB' & _ & SP & _).
  rewrite LB in LB'. injection LB' as <-. assert (NR' : forall k, (k < j)%nat -> nth_error classes k <> Some ResidualTask) by (intros k Q; apply NR; lia).
  assert (CL : r_class (tk_parameters t) = c) by (eapply handed_class; [exact tasks|exact NR'|exact HA]).
  assert (KT : tk_class t <> ResidualTask) by (intros Q; rewrite Q in C; exact (NR j (Nat.lt_succ_diag_r j) C)).
  pose proof (IH _ dt' NR' HA) as K'. pose proof (handed_table _ _ _ NR' HA) as TE.
  assert (HP : tk_handpicked t = pl_handpicked p) by (apply (sa_settings _ _ SA); eapply stage_not_auxiliary; exact C).
  pose proof (reachable_inv _ _ RC) as I. assert (K1 : ok c (fullT c (pl_handpicked p) d) (prepared (tk_class t) c dt')) by (eapply ok_same; [apply prepared_same|exact K']).
  assert (TE1 : fullT c (pl_handpicked p) (prepared (tk_class t) c dt') = fullT c (pl_handpicked p) d).
  { rewrite <- TE. apply fullT_agree. intros n _. apply prepared_val. }
  unfold left_behind in LB. rewrite SP in LB.
  assert (FE : forall y, fit_input t (prepared (tk_class t) (r_class (tk_parameters t)) dt') = Ok y -> feasible y).
  { intros y FY. destruct (fit_input_store _ _ _ FY) as (_ & _ & ES & GB). rewrite CL, HP in *. unfold feasible. rewrite ES.
    eapply ok_box; [apply prepared_inv; exact I|exact GB|]. now rewrite TE1. }
  destruct (run_leaves o t w dt' _ _ _ bounded S I KT TR FE) as [E|(bounds & popt & GB & LP & X & E)]; unfold contents in LB; rewrite E in LB; injection LB as <-; rewrite CL in *.
  - exact K1.
  - rewrite HP in GB. rewrite <- TE1. eapply fill_ok; [apply prepared_inv; exact I|exact GB|exact LP|exact X|]. now rewrite TE1.
Qed.
End Fits.

(** The start of the fit of the residuals. *)
Lemma residual_start : forall o t w d res t' w' fi, tk_class t = ResidualTask -> nth_error (w_lists w) (r_data (tk_parameters t)) = Some d ->
  inv (r_class (tk_parameters t)) d -> Task_run o (t, w) = (res, (t', w')) -> w_fits w' = w_fits w ++ [fi] ->
  fi_start fi = [100; 2; 5; 0] /\ exists h, get_bounds POscillations h (damped (100, 2, 5, 0)) = Ok (fi_bounds fi).
Proof.
  intros o t w d res t' w' fi K S I H F. pose proof (run_residual o t w d S I K) as RR. destruct (residuals t d) as [[eff x]|e].
  - destruct RR as (a & LA & RR). cbv zeta in RR. destruct RR as (res0 & rep & h' & evs & E & _). rewrite E in H. injection H as _ _ <-.
    cbn [w_fits add_events set_lists add_fits] in F. apply app_inv_head in F. unfold new_fits in F.
    set (t1 := with_residuals (mkRef POscillations a) eff x t) in *.
    assert (T1 : tk_parameters t1 = mkRef POscillations a) by (unfold t1; destruct t, x as [[? ?] ?]; reflexivity).
    rewrite T1 in F. cbn [r_class] in F. unfold damped in F. destruct (get_bounds POscillations (tk_handpicked t1) _) as [bounds|] eqn:GB in F; [|discriminate].
    injection F as <-. split; [reflexivity|]. exists (tk_handpicked t1). exact GB.
  - destruct RR as (h' & E & _). rewrite E in H. injection H as _ _ <-. cbn [w_fits set_lists] in F. exfalso.
    assert (Q : length (w_fits w) = length (w_fits w ++ [fi])) by congruence. rewrite app_length in Q. cbn in Q. lia.
Qed.

(** ** C49 *)

(** If the values given to an iterative pipeline respect the bounds and the optimiser does, every fit has a feasible start. *)
Theorem C49_feasible_starts : forall o p w d res p' w', respects_bounds o -> started p w d ->
  allowed (r_class (pl_parameters p)) (pl_handpicked p) d -> IterativePipeline_run o (p, w) = (res, (p', w')) ->
  exists l, w_fits w' = w_fits w ++ l /\ Forall feasible l.
Proof.
  intros o p w d res p' w' RB ST AL H. destruct (C39_every_fit _ _ _ _ _ _ _ ST H) as (l & xs & F & EN & LL & ALL). exists l. split; [exact F|].
  pose proof ST as ((S0 & RC0) & _). pose proof (allowed_ok _ _ _ (reachable_inv _ _ RC0) AL) as K.
  apply Forall_forall. intros fi IN. apply In_nth_error in IN as [i N].
  destruct (ALL i fi N) as (t & w1 & res1 & t1 & w2 & dt & TR & FW & C & SA & S & RC & HA & _).
  assert (NR : forall j, (j < i)%nat -> nth_error (map (stage_class (pl_kind p)) (stages (pl_kind p) (pl_numbers p) (pl_fixed_rounds p))) j <> Some ResidualTask).
  { intros j L. apply (not_residual_before _ _ _ i); [exact L|]. apply nth_lt in C. now rewrite map_length in C. }
  assert (CK : tk_class t = ResidualTask \/ tk_class t <> ResidualTask) by (destruct (tk_class t); (now left) || (right; discriminate)).
  destruct CK as [CK|CK].
  - destruct (residual_start _ _ _ _ _ _ _ _ CK S (reachable_inv _ _ RC) TR FW) as (ES & h & GB). unfold feasible. rewrite ES.
    apply (ok_box POscillations h (damped (100, 2, 5, 0)) _ (TaskProofs.damped_inv _)) in GB; [exact GB|].
    intros q b Q _ LK. destruct h; cbn in Q; repeat (destruct Q as [<-|Q]; [cbn in LK; injection LK as <-; cbn; split; (exact Logic.I || lra)|]); destruct Q.
  - pose proof (fit_made _ _ _ _ _ _ _ _ CK S RC TR FW) as FI. destruct (fit_input_store _ _ _ FI) as (_ & _ & ES & GB).
    assert (CL : r_class (tk_parameters t) = r_class (pl_parameters p)) by (eapply handed_class; [exact EN|exact NR|exact HA]).
    assert (HP : tk_handpicked t = pl_handpicked p) by (apply (sa_settings _ _ SA); eapply stage_not_auxiliary; eassumption).
    pose proof (handed_ok o p d _ l xs EN RB K i _ dt NR HA) as K'. pose proof (handed_table o p d _ l xs EN i _ dt NR HA) as TE.
    rewrite CL, HP in *. unfold feasible. rewrite ES. eapply ok_box; [apply prepared_inv, reachable_inv; exact RC|exact GB|].
    replace (fullT _ _ (prepared _ _ dt)) with (fullT (r_class (pl_parameters p)) (pl_handpicked p) d).
    + eapply ok_same; [apply prepared_same|exact K'].
    + rewrite <- TE. apply fullT_agree. intros n _. symmetry. apply prepared_val.
Qed.
Print Assumptions C49_feasible_starts.

(** ** The scripts *)

Lemma box_ok : forall c h d bounds, inv c d -> get_bounds c h d = Ok bounds -> in_box (free_values d) bounds ->
  (forall p b, In p d -> par_fixed p = true -> ~ In (par_name p) (always_fixed c) -> lookup (fullT c h d) (par_name p) = Some b -> within (fst b) (par_value p) (snd b)) ->
  ok c (fullT c h d) d.
Proof.
  intros c h d bounds I GB X FX. destruct (bounds_pairs _ _ _ _ I GB) as (bs & -> & F). pose proof (proj1 (pairs_box _ _) X) as X1. clear X I GB.
  revert F FX. generalize (fullT c h d) as T. intros T F FX. revert bs X1 F.
  induction d as [|p d IH]; intros bs X F; [intros ? ? []|]. unfold free_values in *. cbn [map filter] in X, F.
  assert (FX' : forall q b, In q d -> par_fixed q = true -> ~ In (par_name q) (always_fixed c) -> lookup T (par_name q) = Some b -> within (fst b) (par_value q) (snd b))
    by (intros q b Q; apply FX; now right).
  unfold is_free in F at 1. destruct (par_fixed p) eqn:E; cbn [negb map] in X, F.
  - intros q b [<-|Q] NF LK; [apply FX; auto; now left|]. now apply (IH FX' bs X F q b).
  - inversion F as [|? b ? bs' Hb F' E1 E2]; subst. intros q b' [<-|Q] NF LK.
    + rewrite Hb in LK. injection LK as <-. now apply (X 0%nat).
    + apply (IH FX' bs' (fun j => X (S j)) F' q b' Q NF LK).
Qed.

Lemma perturbed_ok : forall c draws k size sr h d0 d k', reachable c d0 -> (forall j, 0 <= draws j < 1) -> 0 <= size <= 1 -> 0 <= sr <= 1 ->
  perturb_model_parameters c draws k size (Some sr) h d0 = (Ok tt, d, k') -> ok c (fullT c h d0) d0 ->
  reachable c d /\ ok c (fullT c h d) d.
Proof.
  intros c draws k size sr h d0 d k' R U S1 S2 PM K. pose proof (reachable_inv _ _ R) as I.
  destruct (get_bounds c h d0) as [[lo up]|e] eqn:GB; [|rewrite (C09_raises _ _ _ _ _ _ _ _ R GB) in PM; discriminate].
  destruct (C09_perturb_effect c h d0 lo up draws k size (Some sr) R GB) as (d' & E & N & FL & F & GB' & RC & _). rewrite PM in E. injection E as <- _.
  split; [exact RC|]. assert (TE : fullT c h d = fullT c h d0).
  { apply fullT_agree. intros n Hn. eapply fixed_value; [exact R|exact PM|]. unfold free_names_of. intros Q. apply in_map_iff in Q as (q & <- & Q).
    apply filter_In in Q as [Q1 Q2]. now rewrite (proj2 I q Q1 Hn) in Q2. }
  eapply box_ok; [apply reachable_inv; exact RC|exact GB'| |].
  - pose proof (ok_box _ _ _ _ I GB K) as (_ & _ & B0). intros j v a b X A B. unfold free_values in X. rewrite nth_error_map in X.
    destruct (nth_error (filter _ d) j) as [q|] eqn:Q; [|discriminate]. injection X as <-.
    eapply (C09_stays_within_bounds c h d0 lo up draws k size (Some sr) d k' R GB U S1); [intros s Q'; now injection Q' as <-|exact PM| |exact Q|exact A|exact B].
    intros j' q' a' b' Q' A' B'. apply (B0 j'); [|exact A'|exact B']. unfold free_values. rewrite nth_error_map. unfold free in Q'. now rewrite Q'.
  - rewrite TE. intros q b Q FQ NF LK. revert q Q FQ NF LK. clear - F K FL.
    assert (G : forall q, In q d -> par_fixed q = true -> In q d0).
    { clear K. revert FL. induction F as [|x y d0 d H F IH]; intros FL q Q FQ; [contradiction|]. injection FL as FL1 FL2. destruct Q as [<-|Q].
      - left. symmetry. apply H. congruence.
      - right. now apply IH. }
    intros q Q FQ NF LK. apply K; [now apply G|exact NF|exact LK].
Qed.

(** One run of a script. *)
Lemma run_feasible : forall o draws c initial fix_first size sr h kind x mass alpha hc dir numbers repetitions limit name w res w',
  from_measurements x -> respects_bounds o -> (forall j, 0 <= draws j < 1) -> 0 <= size <= 1 -> 0 <= sr <= 1 ->
  (fix_first = true -> no_resonances c = false) ->
  (h = false -> forall d0, construct c initial = Ok d0 -> forall n, In n (threshold_parameters c) -> 0 <= val d0 n) ->
  (forall d0, construct c initial = Ok d0 -> ok c (fullT c h d0) d0) ->
  one_run o draws c initial fix_first size sr h kind x mass alpha hc dir numbers repetitions limit name w = (res, w') ->
  exists l, w_fits w' = w_fits w ++ l /\ Forall feasible l.
Proof.
  intros o draws c initial fix_first size sr h kind x mass alpha hc dir numbers repetitions limit name w res w' M RB U S1 S2 NR TH K H.
  apply run_cases in H; [|exact M]. destruct H as [(p & w1 & d & p' & evs & L & R & _)|(e & _ & F & _)].
  2: { exists []. split; [now rewrite app_nil_r|constructor]. }
  destruct L as [ST NM KD X CL FR LL FI _ _ (NB & LI & HP) (d0 & UN & PM)]. rewrite <- FI.
  pose proof (unperturbed_reachable _ _ _ _ UN) as R0. destruct UN as (d00 & C & UN).
  assert (SV : same_values d00 d0).
  { destruct fix_first; [|now subst]. assert (R00 : reachable c d00) by (eapply reach_init; exact C).
    destruct (fix_resonances_ok c d00 R00 (NR eq_refl)) as (d1 & E & SV & _). rewrite UN in E. now injection E as <-. }
  assert (TE : fullT c h d0 = fullT c h d00) by (apply fullT_agree; intros n _; now apply val_same).
  assert (K0 : ok c (fullT c h d0) d0) by (rewrite TE; eapply ok_same; [exact SV|now apply K]).
  destruct (perturbed_ok _ _ _ _ _ _ _ _ _ R0 U S1 S2 PM K0) as (RC & K1).
  apply (C49_feasible_starts o p w1 d res p' w' RB ST); [|exact R]. rewrite CL, HP. apply ok_allowed; [now apply reachable_inv| |exact K1].
  intros Eh n Hn. assert (IN : In n (always_fixed c)) by (apply sqrt_names_fixed; now apply thresholds_eq).
  rewrite (fixed_value _ _ _ _ _ _ _ _ _ R0 PM n).
  - rewrite (val_same _ _ _ SV). now apply (TH Eh).
  - unfold free_names_of. intros Q. apply in_map_iff in Q as (q & <- & Q).
    apply filter_In in Q as [Q1 Q2]. now rewrite (proj2 (reachable_inv _ _ R0) q Q1 IN) in Q2.
Qed.

Lemma val_In : forall d p, NoDup (names d) -> In p d -> val d (par_name p) = par_value p.
Proof.
  intros d p ND Ip. unfold names in ND. induction d as [|q d IH]; [contradiction|]. cbn [val].
  inversion ND as [|? ? NI ND' E]; subst. destruct Ip as [<-|Ip]; [now rewrite String.eqb_refl|].
  destruct (String.eqb (par_name q) (par_name p)) eqn:E; [|now apply IH]. apply String.eqb_eq in E. exfalso. apply NI. rewrite E. now apply in_map.
Qed.

(** The values of a new store at the names. *)
Lemma ok_values : forall c T d, names d = class_names c ->
  Forall (fun n => str_in n (always_fixed c) = true \/ exists b, lookup T n = Some b /\ within (fst b) (val d n) (snd b)) (class_names c) -> ok c T d.
Proof.
  intros c T d N F p b Ip NF LK. rewrite Forall_forall in F.
  assert (IN : In (par_name p) (class_names c)) by (rewrite <- N; now apply in_map).
  destruct (F _ IN) as [Q|(b' & L & W)]; [exfalso; apply NF; now apply str_in_In|]. rewrite LK in L. injection L as <-.
  rewrite <- (val_In d p); [exact W| |exact Ip]. rewrite N. apply class_names_NoDup.
Qed.

Ltac initial_value V := repeat (apply Forall_cons; [first [left; reflexivity|right; eexists; split; [reflexivity|]; cbn;
  repeat match goal with |- context [val ?d ?n] => erewrite (V n) by (repeat first [left; reflexivity|right]) end;
  unfold script_t_0_isoscalar, script_t_0_isovector, config_pion_mass; rewrite ?sqrt_square by lra; split; (exact Logic.I || lra)]|]); apply Forall_nil.

Lemma nucleon_initial_ok : forall d0, construct PNucleon nucleon_initial = Ok d0 -> ok PNucleon (fullT PNucleon true d0) d0.
Proof.
  intros d0 C. assert (V : forall n v, In (n, v) nucleon_initial -> val d0 n = v) by (intros n v; exact (C02_constructor_values _ _ _ C n v)).
  assert (I : inv PNucleon d0) by (apply reachable_inv; eapply reach_init; exact C). apply ok_values; [exact (proj1 I)|]. clear C I.
  let x := eval vm_compute in (class_names PNucleon) in change (class_names PNucleon) with x. unfold nucleon_initial in V. initial_value V.
Qed.

Lemma kaon_initial_ok : forall d0, construct PKaonB kaon_initial = Ok d0 ->
  ok PKaonB (fullT PKaonB false d0) d0 /\ forall n, In n (threshold_parameters PKaonB) -> 0 <= val d0 n.
Proof.
  intros d0 C. assert (V : forall n v, In (n, v) kaon_initial -> val d0 n = v) by (intros n v; exact (C02_constructor_values _ _ _ C n v)).
  assert (I : inv PKaonB d0) by (apply reachable_inv; eapply reach_init; exact C). split.
  - apply ok_values; [exact (proj1 I)|]. clear C I.
    let x := eval vm_compute in (class_names PKaonB) in change (class_names PKaonB) with x. unfold kaon_initial in V. initial_value V.
  - intros n [<-|[<-|[]]]; erewrite V by (unfold kaon_initial; repeat first [left; reflexivity|right]); apply Rle_0_sqr.
Qed.

(** The fits of the nucleon script: as long as the optimiser stays within its bounds, none of them starts outside. *)
Theorem C49_nucleon_script : forall o draws ts css errors w res w', respects_bounds o -> (forall j, 0 <= draws j < 1) ->
  nucleon_script o draws ts css errors w = (res, w') -> exists l, w_fits w' = w_fits w ++ l /\ Forall feasible l.
Proof.
  intros o draws ts css errors w res w' RB U H. unfold nucleon_script in H. eapply script_fits; [|exact H]. clear w res w' H.
  intros name w res w' H. unfold nucleon_run in H. refine (run_feasible _ _ _ _ _ _ _ _ _ _ _ _ _ _ _ _ _ _ _ _ _ (nucleon_measured ts css errors) RB U _ _ _ _ nucleon_initial_ok H); [lra|lra|reflexivity|discriminate].
Qed.

Theorem C49_kaon_script : forall o draws ts ff_values errors w res w', respects_bounds o -> (forall j, 0 <= draws j < 1) ->
  kaon_script o draws ts ff_values errors w = (res, w') -> exists l, w_fits w' = w_fits w ++ l /\ Forall feasible l.
Proof.
  intros o draws ts ff_values errors w res w' RB U H. unfold kaon_script in H. eapply script_fits; [|exact H]. clear w res w' H.
  intros name w res w' H. unfold kaon_run in H. refine (run_feasible _ _ _ _ _ _ _ _ _ _ _ _ _ _ _ _ _ _ _ _ _ (kaon_measured ts ff_values errors) RB U _ _ _ _ _ H); [lra|lra|discriminate| |].
  - intros _ d0 C. now apply kaon_initial_ok.
  - intros d0 C. now apply kaon_initial_ok.
Qed.
Print Assumptions C49_nucleon_script.
Print Assumptions C49_kaon_script.

(** An optimiser that evaluates the function at the start and returns it meets the condition, and so does one that gives up. *)
Definition stays : Oracle := demo_oracle (fun _ x => FitCall (fi_start x) (fun _ => FitReturn (fi_start x) [])) DivRaises.

Example stays_respects : respects_bounds stays /\ exists n x popt, feasible x /\ may_return (o_fit stays n x) popt /\ popt = [1].
Proof.
  split.
  - intros n x popt (_ & _ & X) M. cbn in M. inversion M as [|? ? ys ? M1 E1 E2]; subst. now inversion M1; subst.
  - exists 0%nat, (mkFitInput "demo" POscillations [] [] [] [] [1] ([Fin 0], [PosInf])), [1]. split; [|split; [|reflexivity]].
    + split; [reflexivity|]. split; [reflexivity|]. intros [|[|j]] v a b X A B; try discriminate. injection X as <-. injection A as <-. injection B as <-. cbn. split; [lra|exact Logic.I].
    + cbn. apply (ReturnsLater _ _ []). constructor.
Qed.

(** The script of [C48_instance] meets the hypotheses with any draws of [random.random]; its 3465 fits have feasible starts. *)
Example C49_instance : forall draws, (forall j, 0 <= draws j < 1) -> exists w',
  kaon_script hopeless draws [2] [1] [1] demo_world = (Ok ([], None), w') /\ length (w_fits w') = 3465%nat /\ Forall feasible (w_fits w').
Proof.
  intros draws U. destruct (C48_instance draws) as (w' & l & H & <- & L). exists w'. split; [exact H|]. split; [exact L|].
  destruct (C49_kaon_script hopeless draws _ _ _ _ _ _ ltac:(intros n x popt _ M; cbn in M; inversion M) U H) as (l & F & A).
  cbn [w_fits demo_world app] in F. rewrite F. exact A.
Qed.

Lemma kaon_initial_free : forall d0 q, construct PKaonB kaon_initial = Ok d0 -> In q d0 -> par_name q = "t_in_isoscalar" -> par_fixed q = false.
Proof.
  intros d0 q C Q QN. apply (proj1 (construct_iff _ _ _)) in C as (_ & ->). unfold ParamProofs.built in Q. apply in_map_iff in Q as (s & <- & Q).
  cbn [par_name par_fixed] in *. cbn [table ct_setup table_KaonB] in Q.
  repeat (destruct Q as [<-|Q]; [cbn in QN |- *; discriminate || reflexivity|]). contradiction.
Qed.

(** The start may lie on the boundary: the kaon script perturbs with size 1, and with the draws 0 the branch points coincide. *)
Theorem C49_interior_start_refuted : exists draws d0 d k, (forall j, 0 <= draws j < 1) /\ construct PKaonB kaon_initial = Ok d0 /\
  perturb_model_parameters PKaonB draws 0 1 (Some (1/10)) false d0 = (Ok tt, d, k) /\
  val d "t_in_isoscalar" = val d "t_0_isoscalar".
Proof.
  destruct (construct PKaonB kaon_initial) as [d0|e] eqn:C.
  2: { exfalso. assert (Q : exists d, construct PKaonB kaon_initial = Ok d) by (eexists; reflexivity). destruct Q as (d & Q). congruence. }
  assert (R : reachable PKaonB d0) by (eapply reach_init; exact C). destruct (kaon_initial_ok d0 C) as (K & TH).
  destruct (get_bounds_total PKaonB false d0 (reachable_inv _ _ R)) as (bs & GB & F). { intros _ n Hn. apply TH. now apply thresholds_eq. }
  destruct (C09_perturb_effect PKaonB false d0 _ _ (fun _ => 0) 0 1 (Some (1/10)) R GB) as (d & E & N & FL & FX & GB' & RC & V).
  exists (fun _ => 0), d0, d, (0 + length (free d0))%nat. split; [intros; lra|]. split; [reflexivity|]. split; [exact E|].
  assert (T0 : val d "t_0_isoscalar" = val d0 "t_0_isoscalar").
  { eapply fixed_value; [exact R|exact E|]. unfold free_names_of. intros Q. apply in_map_iff in Q as (q & QN & Q).
    apply filter_In in Q as [Q1 Q2]. assert (In (par_name q) (always_fixed PKaonB)) by (rewrite QN; apply mem_In; reflexivity).
    now rewrite (proj2 (reachable_inv _ _ R) q Q1 H) in Q2. }
  rewrite T0. clear T0. pose proof (reachable_inv _ _ R) as (N0 & A0).
  assert (I1 : In "t_in_isoscalar" (class_names PKaonB)) by (apply mem_In; reflexivity).
  assert (I2 : ~ In "t_in_isoscalar" (always_fixed PKaonB)) by (intros Q; apply str_in_In in Q; discriminate).
  assert (P : exists j q, nth_error (free d0) j = Some q /\ par_name q = "t_in_isoscalar").
  { rewrite <- N0 in I1. apply in_map_iff in I1 as (q & QN & Q). assert (FQ : par_fixed q = false).
    { apply kaon_initial_free with (d0 := d0); [exact C|exact Q|exact QN]. }
    assert (IF : In q (free d0)) by (unfold free; apply filter_In; split; [exact Q|now rewrite FQ]).
    apply In_nth_error in IF as [j J]. now exists j, q. }
  destruct P as (j & q & J & QN).
  assert (B : nth_error bs j = Some (maximal_bounds_of PKaonB d0 "t_in_isoscalar")).
  { clear - F J QN I1 I2. unfold free in J. change (filter (fun p => negb (par_fixed p)) d0) with (filter is_free d0) in J.
    revert j J. induction F as [|x b l bs H F IH]; intros [|j] J; try discriminate; cbn in J |- *; [|now apply IH].
    injection J as ->. rewrite QN, maximal_table in H by assumption. now rewrite <- H. }
  specialize (V j q (Fin (val d0 "t_0_isoscalar")) PosInf J). rewrite !nth_error_map, B in V. specialize (V eq_refl eq_refl). rewrite QN in V.
  apply nth_error_In in V. unfold free in V. apply filter_In in V as [V _].
  apply val_In in V; [|rewrite (proj1 (reachable_inv _ _ RC)); apply class_names_NoDup]. cbn [par_name par_value] in V. rewrite V.
  unfold moved. destruct (Rlt_dec 0 (1/2)) as [_|Q]; [|lra]. change (size_for 1 (1/10) "t_in_isoscalar") with 1.
  replace (2 * 0 - 1) with (-(1)) by lra. rewrite Rabs_Ropp, Rabs_R1. lra.
Qed.
Print Assumptions C49_interior_start_refuted.
