(** C60: the cross-section of one resonance drawn over the kaon data. *)
From Coq Require Import String Reals List Bool Arith Lia Lra Permutation Sorted.
From Verif Require Import PyBase CNum UAModels KaonSpec PropsKaon CrossSections PropsCross CommonUtils Scripts DataSets PropsData
  FitScripts PropsResonances SinglePlot.
Import ListNotations.
Local Open Scope R_scope.
Local Open Scope list_scope.

(** ** Specification *)

(** [p] asks for the value at the real [t]: a kaon point of any charge, or a tuple that starts with [t]. *)
Definition asks (p : datapoint) (t : R) : Prop :=
  (exists c, p = KaonDatapoint (RtoC t) c) \/ (exists c rest, p = Row (RtoC t :: c :: rest)).

(** Times without a value, and the exception there. *)
Definition usable (t_in t : R) : Prop := 0 < t /\ t <> t_in.
Definition failure (t : R) : exn := if Rlt_dec t 0 then ValueError else ZeroDivisionError.

(** [sigma] is the cross-section of a scalar pair of mass [km] with the form factor [F]: the textbook formula, continued
    below the threshold by the imaginary power. *)
Definition pair_cross_section (km alpha hc : R) (F : R -> C) (sigma : R -> C) (t : R) : Prop :=
  (4 * km^2 <= t -> sigma t = RtoC (sigma_scalar km alpha hc t (Cabs (F t)))) /\
  (t < 4 * km^2 -> sigma t = mkC 0 (- (hc * PI * alpha^2 / (3 * t) * pow32 (4 * km^2 / t - 1) * (Cabs (F t))^2))).

(** ** The function *)

Section Function.
Variables km alpha hc a m g t_0 t_in : R.
Hypothesis order : t_0 < t_in.
Hypothesis resonant : m * g <> 0.
Variable s : SingleModel.
Hypothesis built : SingleComponentModel_init t_0 t_in a m g = Ok s.

Definition ff_value (t : R) : C := match SingleComponentModel_call s (RtoC t) with Ok v => v | Err _ => RtoC 0 end.
Definition cs_value (t : R) : C :=
  match ScalarCS_call (ScalarCS_init km alpha hc) (SingleComponentModel_call s) (RtoC t) with Ok v => v | Err _ => RtoC 0 end.

Lemma pole_not_real : forall t, RtoC t <> resonance_pole m g /\ RtoC t <> Cconj (resonance_pole m g).
Proof.
  intros t. unfold resonance_pole. split; intros E; apply (f_equal Im) in E; simpl in E; apply resonant; lra.
Qed.

Lemma call_cases : forall t, (0 <= t -> t <> t_in -> SingleComponentModel_call s (RtoC t) = Ok (ff_value t)) /\
  (t < 0 -> SingleComponentModel_call s (RtoC t) = Err ValueError) /\
  (0 <= t -> t = t_in -> SingleComponentModel_call s (RtoC t) = Err ZeroDivisionError).
Proof.
  intros t. destruct (C18_single_failure_set _ _ _ _ _ _ (RtoC t) built order) as (V & Z & T). simpl Re in V, Z.
  destruct (pole_not_real t) as (P1 & P2). split; [|split].
  - intros N D. unfold ff_value. destruct T as [(v & ->)|[E|E]]; [reflexivity| |].
    + apply V in E. lra.
    + apply Z in E. destruct E as (_ & [E|[E|E]]); [|contradiction|contradiction]. apply (f_equal Re) in E. simpl in E. contradiction.
  - intros L. now apply V.
  - intros N ->. apply Z. split; [exact N|now left].
Qed.

Lemma cs_cases : forall t,
  (usable t_in t -> ScalarCS_call (ScalarCS_init km alpha hc) (SingleComponentModel_call s) (RtoC t) = Ok (cs_value t)) /\
  (~ usable t_in t -> ScalarCS_call (ScalarCS_init km alpha hc) (SingleComponentModel_call s) (RtoC t) = Err (failure t)).
Proof.
  intros t. destruct (call_cases t) as (A & B & D). unfold usable, failure. split.
  - intros (P & N). unfold cs_value.
    destruct (ScalarCS_call (ScalarCS_init km alpha hc) (SingleComponentModel_call s) (RtoC t)) as [v|e] eqn:E; [reflexivity|].
    apply C29_raises in E. rewrite A in E by lra. destruct E as [E|(_ & E & _)]; [discriminate E|].
    apply (f_equal Re) in E. simpl in E. lra.
  - intros N. apply C29_raises. destruct (Rlt_dec t 0) as [L|L]; [left; now apply B|].
    destruct (Req_EM_T t t_in) as [E|E]; [left; apply D; [lra|exact E]|]. right.
    assert (Z : t = 0) by (destruct (Req_EM_T t 0); [assumption|exfalso; apply N; split; [lra|exact E]]).
    split; [exists (ff_value t); apply A; [lra|exact E]|]. split; [now rewrite Z|reflexivity].
Qed.

Lemma values_are : forall pts ts, Forall2 asks pts ts -> Forall (usable t_in) ts -> forall rest,
  single_cross_sections (ScalarCS_init km alpha hc) s (pts ++ rest) =
  bind (single_cross_sections (ScalarCS_init km alpha hc) s rest) (fun xs => Ok (map cs_value ts ++ xs)).
Proof.
  induction 1 as [|p t pts ts K _ IH]; intros U rest.
  - simpl. now destruct (single_cross_sections _ _ rest).
  - inversion U as [|? ? U1 U2]; subst. specialize (IH U2 rest). apply (proj1 (cs_cases t)) in U1.
    destruct K as [(c & ->)|(c & r & ->)]; cbn [app single_cross_sections index as_row nth_error bind fst snd];
      rewrite U1; cbn [bind]; rewrite IH; destruct (single_cross_sections _ _ rest); reflexivity.
Qed.

Lemma fails_at : forall p t rest, asks p t -> ~ usable t_in t ->
  single_cross_sections (ScalarCS_init km alpha hc) s (p :: rest) = Err (failure t).
Proof.
  intros p t rest K U. apply (proj2 (cs_cases t)) in U.
  destruct K as [(c & ->)|(c & r & ->)]; cbn [single_cross_sections index as_row nth_error bind fst snd]; rewrite U; reflexivity.
Qed.

Lemma value_formula : forall t, usable t_in t -> pair_cross_section km alpha hc ff_value cs_value t.
Proof.
  intros t (P & N). assert (F : SingleComponentModel_call s (RtoC t) = Ok (ff_value t)) by (apply call_cases; [lra|exact N]).
  assert (U : usable t_in t) by (split; assumption). apply (proj1 (cs_cases t)) in U. split; intros T.
  - rewrite (C29_formula_above_threshold km alpha hc _ t _ F P T) in U. exact (eq_sym (f_equal (fun r => match r with Ok v => v | Err _ => RtoC 0 end) U)).
  - rewrite (C29_below_threshold_imaginary km alpha hc _ t _ F P T) in U. exact (eq_sym (f_equal (fun r => match r with Ok v => v | Err _ => RtoC 0 end) U)).
Qed.
End Function.

(** What the function returns: the values at the points of a list, in order, whatever their charge; the first point
    without a value decides the exception. *)
Theorem C60_function : forall km alpha hc a m g t_0 t_in f, t_0 < t_in -> m * g <> 0 ->
  make_function_cross_section km alpha hc a m g t_0 t_in = Ok f ->
  exists s F sigma, SingleComponentModel_init t_0 t_in a m g = Ok s /\
    (forall t, 0 <= t -> t <> t_in -> SingleComponentModel_call s (RtoC t) = Ok (F t)) /\
    (forall t, usable t_in t -> pair_cross_section km alpha hc F sigma t) /\
    forall pts ts, Forall2 asks pts ts -> Forall (usable t_in) ts ->
      f pts = Ok (map sigma ts) /\
      forall p t rest, asks p t -> ~ usable t_in t -> f (pts ++ p :: rest) = Err (failure t).
Proof.
  intros km alpha hc a m g t_0 t_in f L N H. unfold make_function_cross_section in H.
  destruct (SingleComponentModel_init t_0 t_in a m g) as [s|e] eqn:B; [|discriminate H]. cbn [bind] in H. injection H as <-.
  exists s, (ff_value s), (cs_value km alpha hc s). split; [reflexivity|]. split.
  { intros t. exact (proj1 (call_cases _ _ _ _ _ L N _ B t)). }
  split. { intros t U. exact (value_formula _ _ _ _ _ _ _ _ L N _ B t U). }
  intros pts ts K U. split.
  - rewrite <- (app_nil_r pts), (values_are _ _ _ _ _ _ _ _ L N _ B _ _ K U []). simpl. now rewrite app_nil_r.
  - intros p t rest Q D. rewrite (values_are _ _ _ _ _ _ _ _ L N _ B _ _ K U (p :: rest)).
    rewrite (fails_at _ _ _ _ _ _ _ _ L N _ B p t rest Q D). reflexivity.
Qed.
Print Assumptions C60_function.

(** When there is a function at all. *)
Theorem C60_accepted : forall km alpha hc a m g t_0 t_in,
  is_ok (make_function_cross_section km alpha hc a m g t_0 t_in) <->
  0 <= t_0 <= t_in /\ t_in <> 0 /\ t_0 <= m * m /\ resonance_pole m g <> RtoC t_in /\ (m * m < t_in -> resonance_pole m g <> RtoC t_0).
Proof.
  intros km alpha hc a m g t_0 t_in. rewrite <- (Single_accept_iff t_0 t_in a m g). unfold make_function_cross_section.
  destruct (SingleComponentModel_init t_0 t_in a m g) as [s|e]; cbn [bind].
  - split; intros _; eexists; reflexivity.
  - split; intros (x & E); discriminate E.
Qed.
Print Assumptions C60_accepted.

(** ** The script *)

(** Part of a stable sort. *)
Lemma sorted_filter : forall A (key : A -> R) (p : A -> bool) l l', stable_sort_of key l l' ->
  stable_sort_of key (filter p l) (filter p l').
Proof.
  intros A key p l l' (P & S & F). split; [|split].
  - clear S F. induction P as [|x l l' P IH|x y l|l l2 l3 P1 IH1 P2 IH2]; simpl; [constructor| | |now transitivity (filter p l2)].
    + destruct (p x); [now constructor|exact IH].
    + destruct (p x), (p y); try reflexivity. apply perm_swap.
  - clear P F. induction S as [|x z S IH D]; simpl; [constructor|]. destruct (p x); [|exact IH]. constructor; [exact IH|].
    rewrite Forall_forall in *. intros y I. apply filter_In in I. now apply D.
  - intros k. assert (C : forall z, filter (same_key key k) (filter p z) = filter p (filter (same_key key k) z)).
    { clear. induction z as [|x z IH]; [reflexivity|]. simpl. destruct (p x) eqn:A1, (same_key key k x) eqn:A2; simpl; rewrite ?A1, ?A2, IH; reflexivity. }
    now rewrite !C, F.
Qed.

Lemma filter_map : forall A B (f : A -> B) p l, filter p (map f l) = map f (filter (fun x => p (f x)) l).
Proof. induction l as [|x l IH]; [reflexivity|]. simpl. destruct (p (f x)); simpl; now rewrite IH. Qed.

Lemma sorted_map : forall A B (f : A -> B) (key : B -> R) l l', stable_sort_of (fun x => key (f x)) l l' ->
  stable_sort_of key (map f l) (map f l').
Proof.
  intros A B f key l l' (P & S & F). split; [now apply Permutation_map|]. split.
  - clear P F. induction S as [|x z S IH D]; simpl; constructor; [exact IH|]. rewrite Forall_forall in *. intros y I. apply in_map_iff in I.
    destruct I as (y0 & <- & I). now apply D.
  - intros k. rewrite !filter_map. f_equal. exact (F k).
Qed.

(** A measurement with its charge. *)
Definition charged_point (x : Measurement * bool) : datapoint * R * R :=
  (KaonDatapoint (RtoC (me_t (fst x))) (snd x), me_value (fst x), me_error (fst x)).

Definition both (charged neutral : list Measurement) : list (Measurement * bool) :=
  map (fun x => (x, true)) charged ++ map (fun x => (x, false)) neutral.

Lemma both_split : forall charged neutral,
  filter snd (both charged neutral) = map (fun x => (x, true)) charged /\
  filter (fun x => negb (snd x)) (both charged neutral) = map (fun x => (x, false)) neutral.
Proof.
  intros charged neutral. unfold both. rewrite !filter_app, !filter_map. simpl.
  assert (Y : forall A (l : list A), filter (fun _ => true) l = l) by (induction l; simpl; congruence).
  assert (Z : forall A (l : list A), filter (fun _ => false) l = []) by (induction l; simpl; congruence).
  rewrite !Y, !Z. simpl. now rewrite app_nil_r.
Qed.

(** The points handed to the figure: the measurements of one charge in order of time, each with the curve's value. *)
Definition figure_point (sigma : R -> C) (x : Measurement) : drawn :=
  (RtoC (me_t x), me_value x, me_error x, sigma (me_t x)).

Lemma split_spec : forall (sigma : R -> C) (post pre : list (Measurement * bool)) yes no,
  let row x := figure_point sigma (fst x) in
  split_complex (map (fun x => me_value (fst x)) (pre ++ post)) (map (fun x => me_error (fst x)) (pre ++ post))
    (map (fun x => sigma (me_t (fst x))) (pre ++ post)) (length pre)
    (map (fun x => KaonDatapoint (RtoC (me_t (fst x))) (snd x)) post) yes no =
  Ok (yes ++ map row (filter snd post), no ++ map row (filter (fun x => negb (snd x)) post)).
Proof.
  intros sigma. induction post as [|x post IH]; intros pre yes no row; [simpl; now rewrite !app_nil_r|].
  assert (N : forall A (f : Measurement * bool -> A), nth_error (map f (pre ++ x :: post)) (length pre) = Some (f x)).
  { intros A f. rewrite map_app, nth_error_app2 by (rewrite map_length; lia). rewrite map_length, Nat.sub_diag. reflexivity. }
  cbn [map split_complex attr_is_charged bind Scripts.attr_t]. unfold item. rewrite !N. cbn [bind].
  assert (G : forall y n, split_complex (map (fun x => me_value (fst x)) (pre ++ x :: post)) (map (fun x => me_error (fst x)) (pre ++ x :: post))
    (map (fun x => sigma (me_t (fst x))) (pre ++ x :: post)) (S (length pre))
    (map (fun x => KaonDatapoint (RtoC (me_t (fst x))) (snd x)) post) y n =
    Ok (y ++ map row (filter snd post), n ++ map row (filter (fun x => negb (snd x)) post))).
  { intros y n. replace (pre ++ x :: post) with ((pre ++ [x]) ++ post) by now rewrite <- app_assoc.
    replace (S (length pre)) with (length (pre ++ [x])) by (rewrite app_length; simpl; lia). apply IH. }
  cbn [filter]. destruct (snd x); cbn [negb]; rewrite G, <- app_assoc; reflexivity.
Qed.

(** The literals of the script. *)
Definition script_t_0 : R := IZR 17531904388276887 / IZR (10 ^ 17).
Definition script_t_in : R := IZR 10555688365879876 / IZR (10 ^ 16).

Lemma script_built : is_ok (SingleComponentModel_init script_t_0 script_t_in 1 (of_keV 782660) (of_keV 8680)) /\
  script_t_0 < script_t_in /\ of_keV 782660 * of_keV 8680 <> 0.
Proof.
  unfold script_t_0, script_t_in, of_keV. let p := eval vm_compute in (10 ^ 17)%Z in change (10 ^ 17)%Z with p.
  let p := eval vm_compute in (10 ^ 16)%Z in change (10 ^ 16)%Z with p. split; [|split; lra].
  apply Single_accept_iff. split; [lra|]. split; [lra|]. split; [lra|].
  assert (I : Im (resonance_pole (782660 / 1000000) (8680 / 1000000)) <> 0) by (simpl; lra).
  split; [|intros _]; intros E; apply I; rewrite E; reflexivity.
Qed.

(** The script: exceptions depend only on which times occur; otherwise both charges are drawn over the same curve, the
    cross-section of one resonance, each measurement once and in order of time. *)
Theorem C60_script : forall km alpha hc charged neutral,
  let out := single_component_script km alpha hc (map me_t charged) (map me_value charged) (map me_error charged)
               (map me_t neutral) (map me_value neutral) (map me_error neutral) in
  let times := map me_t (charged ++ neutral) in
  (times = [] -> out = Err ValueError) /\
  ((exists t, In t times /\ t < 0) -> out = Err ValueError) /\
  ((forall t, In t times -> 0 <= t) -> In 0 times \/ In script_t_in times -> out = Err ZeroDivisionError) /\
  (times <> [] -> (forall t, In t times -> usable script_t_in t) ->
   exists s F sigma c n, SingleComponentModel_init script_t_0 script_t_in 1 (of_keV 782660) (of_keV 8680) = Ok s /\
     (forall t, 0 <= t -> t <> script_t_in -> SingleComponentModel_call s (RtoC t) = Ok (F t)) /\
     (forall t, usable script_t_in t -> pair_cross_section km alpha hc F sigma t) /\
     stable_sort_of me_t charged c /\ stable_sort_of me_t neutral n /\
     out = Ok [("phi: Charged"%string, map (figure_point sigma) c); ("phi: Neutral"%string, map (figure_point sigma) n)]).
Proof.
  intros km alpha hc charged neutral out times.
  set (all := sorted_by (fun x : Measurement * bool => me_t (fst x)) (both charged neutral)).
  pose proof (sorted_by_stable _ (fun x : Measurement * bool => me_t (fst x)) (both charged neutral)) as ST. fold all in ST.
  destruct script_built as ((s & B) & L & N).
  (* the data *)
  assert (TM : times = map (fun x => me_t (fst x)) (both charged neutral)).
  { unfold times, both. rewrite !map_app, !map_map. reflexivity. }
  assert (PD : prepare_data_kaon (map me_t charged) (map me_value charged) (map me_error charged)
      (map me_t neutral) (map me_value neutral) (map me_error neutral) =
      match times with [] => Err ValueError | _ => Ok (map (fun x => KaonDatapoint (RtoC (me_t (fst x))) (snd x)) all,
        map (fun x => me_value (fst x)) all, map (fun x => me_error (fst x)) all) end).
  { pose proof (sorted_map _ _ charged_point row_key _ _ ST) as SM.
    assert (RW : map charged_point (both charged neutral) = map (tagged (fun t => KaonDatapoint t true)) charged ++ map (tagged (fun t => KaonDatapoint t false)) neutral).
    { unfold both. rewrite map_app, !map_map. reflexivity. }
    unfold prepare_data_kaon, sort_rows. rewrite zip3_app by (rewrite !map_length; reflexivity). rewrite !zip3_tagged.
    change (map (fun m => (KaonDatapoint (RtoC (me_t m)) true, me_value m, me_error m)) charged ++
            map (fun m => (KaonDatapoint (RtoC (me_t m)) false, me_value m, me_error m)) neutral) with
      (map (tagged (fun t => KaonDatapoint t true)) charged ++ map (tagged (fun t => KaonDatapoint t false)) neutral).
    rewrite <- RW, <- (stable_sort_unique _ _ _ _ _ SM (sorted_by_stable _ row_key _)).
    destruct times as [|t0 times'] eqn:TE.
    - symmetry in TM. apply map_eq_nil in TM. assert (A0 : all = []) by (unfold all; now rewrite TM). now rewrite A0.
    - destruct all as [|x r] eqn:AE.
      + destruct ST as (P & _). apply Permutation_sym, Permutation_nil in P. rewrite P in TM. discriminate TM.
      + unfold unzip3. cbn [map fst snd charged_point]. now rewrite !map_map. }
  assert (IA : forall t, In t (map (fun x => me_t (fst x)) all) <-> In t times).
  { intros t. rewrite TM. destruct ST as (P & _). split; apply Permutation_in; [apply Permutation_map, Permutation_sym, P|apply Permutation_map, P]. }
  assert (AS : forall l : list (Measurement * bool), Forall2 asks (map (fun x => KaonDatapoint (RtoC (me_t (fst x))) (snd x)) l) (map (fun x => me_t (fst x)) l)).
  { induction l as [|x l IH]; constructor; [left; eexists; reflexivity|exact IH]. }
  assert (OUT : times <> [] -> out = draw_single (map (fun x => KaonDatapoint (RtoC (me_t (fst x))) (snd x)) all)
      (map (fun x => me_value (fst x)) all) (map (fun x => me_error (fst x)) all)
      (single_cross_sections (ScalarCS_init km alpha hc) s) "phi").
  { intros NE. unfold out, single_component_script. rewrite PD. destruct times as [|t0 r]; [contradiction|]. cbn [bind].
    unfold make_function_cross_section.
    change (17531904388276887 / 100000000000000000) with script_t_0. change (10555688365879876 / 10000000000000000) with script_t_in.
    replace (78266 / 100000) with (of_keV 782660) by (unfold of_keV; lra). replace (868 / 100000) with (of_keV 8680) by (unfold of_keV; lra).
    rewrite B. reflexivity. }
  assert (BAD : forall t, In t times -> ~ usable script_t_in t -> exists t', In t' times /\ ~ usable script_t_in t' /\ out = Err (failure t') /\
            forall u, In u times -> ~ usable script_t_in u -> t' <= u).
  { intros t I U. assert (NE : times <> []) by (intros E; rewrite E in I; contradiction). rewrite (OUT NE). unfold draw_single.
    assert (D : forall u, usable script_t_in u \/ ~ usable script_t_in u).
    { intros u. unfold usable. destruct (Rlt_dec 0 u), (Req_EM_T u script_t_in); tauto. }
    assert (SP : exists pre x post, all = pre ++ x :: post /\ Forall (usable script_t_in) (map (fun x => me_t (fst x)) pre) /\ ~ usable script_t_in (me_t (fst x))).
    { apply IA in I. clear - I U D. induction all as [|y r IH]; [contradiction|]. destruct (D (me_t (fst y))) as [Y|Y].
      - destruct I as [<-|I]; [contradiction|]. destruct (IH I) as (pre & x & post & -> & F & X). exists (y :: pre), x, post. split; [reflexivity|]. split; [now constructor|exact X].
      - exists [], y, r. split; [reflexivity|]. split; [constructor|exact Y]. }
    destruct SP as (pre & x & post & E & F & X). exists (me_t (fst x)). split; [apply IA; rewrite E, map_app; apply in_or_app; right; now left|].
    split; [exact X|]. split.
    - rewrite E, map_app. cbn [map]. rewrite (values_are km alpha hc _ _ _ _ _ L N _ B _ _ (AS pre) F).
      rewrite (fails_at km alpha hc _ _ _ _ _ L N _ B _ (me_t (fst x))); [reflexivity|left; eexists; reflexivity|exact X].
    - intros u Iu Uu. apply IA in Iu. rewrite E, map_app in Iu. apply in_app_or in Iu. destruct Iu as [Iu|[<-|Iu]].
      + rewrite Forall_forall in F. elim Uu. now apply F.
      + apply Rle_refl.
      + destruct ST as (_ & SS & _). rewrite E in SS. clear - SS Iu. induction pre as [|y pre IH]; simpl in SS; inversion SS as [|? ? S1 F1]; subst; [|now apply IH].
        apply in_map_iff in Iu. destruct Iu as (z & <- & Iz). rewrite Forall_forall in F1. exact (F1 z Iz). }
  split; [|split; [|split]].
  - intros E. unfold out, single_component_script. rewrite PD, E. reflexivity.
  - intros (t & I & T). destruct (BAD t I) as (t' & I' & U' & -> & M); [intros (P & _); lra|].
    assert (Q : t' <= t) by (apply M; [exact I|intros (P & _); lra]). unfold failure. destruct (Rlt_dec t' 0); [reflexivity|lra].
  - intros P Z. assert (Q : exists t, In t times /\ ~ usable script_t_in t).
    { destruct Z as [Z|Z]; [exists 0|exists script_t_in]; (split; [exact Z|]); intros (A1 & A2); [lra|now apply A2]. }
    destruct Q as (t & I & U). destruct (BAD t I U) as (t' & I' & _ & -> & _). unfold failure. destruct (Rlt_dec t' 0); [|reflexivity].
    specialize (P t' I'). lra.
  - intros NE U. exists s, (ff_value s), (cs_value km alpha hc s), (map fst (filter snd all)), (map fst (filter (fun x => negb (snd x)) all)).
    split; [exact B|]. split. { intros t. exact (proj1 (call_cases _ _ _ _ _ L N _ B t)). }
    split. { intros t V. exact (value_formula _ _ _ _ _ _ _ _ L N _ B t V). }
    assert (MS : forall b l, map fst (map (fun x : Measurement => (x, b : bool)) l) = l) by (intros b l; rewrite map_map; apply map_id).
    split. { rewrite <- (MS true charged). apply sorted_map. rewrite <- (proj1 (both_split charged neutral)). now apply sorted_filter. }
    split. { rewrite <- (MS false neutral). apply sorted_map. rewrite <- (proj2 (both_split charged neutral)). now apply sorted_filter. }
    rewrite (OUT NE). unfold draw_single.
    assert (V : Forall (usable script_t_in) (map (fun x => me_t (fst x)) all)) by (apply Forall_forall; intros t I; apply U, IA, I).
    rewrite <- (app_nil_r (map (fun x => KaonDatapoint _ _) all)) at 1.
    rewrite (values_are km alpha hc _ _ _ _ _ L N _ B _ _ (AS all) V []). cbn [single_cross_sections bind]. rewrite app_nil_r, map_map.
    pose proof (split_spec (cs_value km alpha hc s) all [] [] []) as SPL. cbn [app length] in SPL. rewrite SPL. cbn [bind fst snd].
    rewrite !map_map. reflexivity.
Qed.
Print Assumptions C60_script.

(** The figure is titled after the phi, but the resonance drawn is the omega: its published mass and width.  It lies below
    the threshold of a pair of charged kaons (493.677 MeV each) -- and above the literal [t_0], which is nine squared pion
    masses to sixteen digits. *)
Theorem C60_resonance_is_omega :
  published "mass_omega" = Some 782660%Z /\ published "decay_rate_omega" = Some 8680%Z /\ published "mass_phi" <> Some 782660%Z /\
  script_t_0 < (of_keV 782660)^2 < script_t_in /\ (of_keV 782660)^2 < 4 * (of_keV 493677)^2 < script_t_in /\
  Rabs (script_t_0 - (3 * (IZR 13957039 / IZR (10 ^ 8)))^2) < 1 / IZR (10 ^ 16).
Proof.
  split; [reflexivity|]. split; [reflexivity|]. split; [discriminate|]. unfold script_t_0, script_t_in, of_keV.
  let p := eval vm_compute in (10 ^ 17)%Z in change (10 ^ 17)%Z with p. let p := eval vm_compute in (10 ^ 16)%Z in change (10 ^ 16)%Z with p.
  let p := eval vm_compute in (10 ^ 8)%Z in change (10 ^ 8)%Z with p.
  split; [lra|]. split; [lra|]. apply Rabs_def1; lra.
Qed.
Print Assumptions C60_resonance_is_omega.

Example C60_instance : exists sigma : R -> C,
  single_component_script (of_keV 493677) (1/137) 389379 [2; 1] [30; 10] [3; 1] [4] [5] [1/2] =
  Ok [("phi: Charged"%string, [(RtoC 1, 10, 1, sigma 1); (RtoC 2, 30, 3, sigma 2)]);
      ("phi: Neutral"%string, [(RtoC 4, 5, 1/2, sigma 4)])] /\
  single_component_script (of_keV 493677) (1/137) 389379 [2; 0] [30; 10] [3; 1] [4] [5] [1/2] = Err ZeroDivisionError /\
  single_component_script (of_keV 493677) (1/137) 389379 [2; 0] [30; 10] [3; 1] [-4] [5] [1/2] = Err ValueError.
Proof.
  destruct (C60_script (of_keV 493677) (1/137) 389379 [mkMeasurement 2 30 3; mkMeasurement 1 10 1] [mkMeasurement 4 5 (1/2)]) as (_ & _ & _ & H).
  cbn [map me_t me_value me_error app] in H.
  destruct H as (s & F & sigma & c & n & _ & _ & _ & SC & SN & H); [discriminate| |].
  { intros t I. unfold script_t_in. let p := eval vm_compute in (10 ^ 16)%Z in change (10 ^ 16)%Z with p.
    destruct I as [<-|[<-|[<-|[]]]]; split; lra. }
  exists sigma. split; [|split].
  - rewrite H. rewrite (stable_sort_unique _ _ _ _ _ SC (sorted_by_stable _ me_t _)), (stable_sort_unique _ _ _ _ _ SN (sorted_by_stable _ me_t _)).
    unfold sorted_by. cbn [fold_right insert_by me_t]. destruct (Rle_dec 2 1); [lra|]. reflexivity.
  - destruct (C60_script (of_keV 493677) (1/137) 389379 [mkMeasurement 2 30 3; mkMeasurement 0 10 1] [mkMeasurement 4 5 (1/2)]) as (_ & _ & G & _).
    cbn [map me_t me_value me_error app] in G. apply G; [intros t [<-|[<-|[<-|[]]]]; lra|]. left. right. now left.
  - destruct (C60_script (of_keV 493677) (1/137) 389379 [mkMeasurement 2 30 3; mkMeasurement 0 10 1] [mkMeasurement (-4) 5 (1/2)]) as (_ & G & _ & _).
    cbn [map me_t me_value me_error app] in G. apply G. exists (-4). split; [cbn; tauto|lra].
Qed.
