(** Specification vocabulary for the kaon and single-component models, written without
    the helpers of the model, and its connection to the model. *)
From Coq Require Import String Reals Bool Arith List Lra Permutation.
From Verif Require Import PyBase CNum UAMaps UAComponents PyExpr UAModels
  MapProofs ComponentProofs ExprProofs KaonProofs SectorProofs.
Import ListNotations.
Local Open Scope R_scope.
Local Open Scope py_scope.
Local Open Scope string_scope.

#[local] Arguments String.append : simpl never.

(** ** Specification *)

(** The three kaon models, their resonances, and what the keyword arguments mean. *)
Inductive kaon_kind : Type := Full | ReducedB | Simplified.

Definition kaon_class (k : kaon_kind) : KaonClass :=
  match k with Full => KaonUAModel | ReducedB => KaonUAModelB | Simplified => KaonUAModelSimplified end.

Definition isoscalar_resonances (k : kaon_kind) : list string :=
  match k with
  | Full => ["omega"; "omega_prime"; "omega_double_prime"; "phi"; "phi_prime"; "phi_double_prime"]
  | ReducedB => ["omega"; "omega_double_prime"; "phi"; "phi_prime"; "phi_double_prime"]
  | Simplified => ["omega_prime"; "omega_double_prime"; "phi"; "phi_prime"; "phi_double_prime"]
  end.

Definition isovector_resonances (k : kaon_kind) : list string :=
  match k with
  | Full => ["rho"; "rho_prime"; "rho_double_prime"; "rho_triple_prime"]
  | ReducedB => ["rho"; "rho_prime"; "rho_double_prime"]
  | Simplified => ["rho_prime"; "rho_double_prime"; "rho_triple_prime"]
  end.

(** Keyword arguments a constructor wants (in any order): the branch points, a coupling for
    every resonance but the last one of each sector, a mass and a width for every resonance. *)
Definition kaon_keywords (k : kaon_kind) : list string :=
  (["t_0_isoscalar"; "t_in_isoscalar"; "t_0_isovector"; "t_in_isovector"] ++
   map (fun n => "a_" ++ n)%string
     (removelast (isoscalar_resonances k) ++ removelast (isovector_resonances k)) ++
   map (fun n => "mass_" ++ n)%string (isoscalar_resonances k ++ isovector_resonances k) ++
   map (fun n => "decay_rate_" ++ n)%string (isoscalar_resonances k ++ isovector_resonances k))%list.

Definition Rsum (l : list R) : R := fold_right Rplus 0 l.

(** Couplings of a sector: the given ones, and the last one makes the sum 1/2. *)
Definition spec_couplings (P : string -> R) (names : list string) : list R :=
  let given := map (fun n => P ("a_" ++ n)) (removelast names) in
  (given ++ [1/2 - Rsum given])%list.

(** The (coupling, mass, width) triples of a sector. *)
Definition spec_sector (P : string -> R) (names : list string) : list resonance :=
  map (fun an => (fst an, P ("mass_" ++ snd an), P ("decay_rate_" ++ snd an)))
      (combine (spec_couplings P names) names).

(** The pole (m - i Gamma/2)^2 of a resonance. *)
Definition resonance_pole (m g : R) : C := Cmul (mkC m (- g / 2)) (mkC m (- g / 2)).

(** ** Connection *)

Lemma resonance_pole_eq : forall m g, meson_pole m g = resonance_pole m g.
Proof.
  intros. apply C_ext; [rewrite Re_meson_pole|rewrite Im_meson_pole]; unfold resonance_pole; simpl; field.
Qed.

Lemma kaon_wf : forall k, wf_class (kaon_class k) = true.
Proof.
  intros []; [apply wf_KaonUAModel|apply wf_KaonUAModelB|apply wf_KaonUAModelSimplified].
Qed.

Lemma secs_spec : forall k kw,
  secs (kaon_class k) kw = spec_sector (kwval kw) (isoscalar_resonances k).
Proof.
  intros k kw. unfold secs. generalize (kwval kw) as P. intros P.
  destruct k; unfold sector_s, spec_sector;
    cbv -[Rplus Rminus Rdiv Rinv IZR Rmult Ropp];
    repeat (apply f_equal2; [f_equal; f_equal; try ring|]); reflexivity.
Qed.

Lemma secv_spec : forall k kw,
  secv (kaon_class k) kw = spec_sector (kwval kw) (isovector_resonances k).
Proof.
  intros k kw. unfold secv. generalize (kwval kw) as P. intros P.
  destruct k; unfold sector_v, spec_sector;
    cbv -[Rplus Rminus Rdiv Rinv IZR Rmult Ropp];
    repeat (apply f_equal2; [f_equal; f_equal; try ring|]); reflexivity.
Qed.

Lemma branch_points_spec : forall k kw,
  t0s (kaon_class k) kw = kwval kw "t_0_isoscalar" /\
  tis (kaon_class k) kw = kwval kw "t_in_isoscalar" /\
  t0v (kaon_class k) kw = kwval kw "t_0_isovector" /\
  tiv (kaon_class k) kw = kwval kw "t_in_isovector".
Proof.
  intros k kw. unfold t0s, tis, t0v, tiv. destruct k; repeat split; reflexivity.
Qed.

(** Decidable permutation for the keyword lists. *)
Definition perm_check (a b : list string) : bool :=
  nodupb a && nodupb b && Nat.eqb (length a) (length b) && forallb (fun x => mem x b) a.

Lemma perm_check_ok : forall a b, perm_check a b = true -> Permutation a b.
Proof.
  intros a b H. unfold perm_check in H.
  apply andb_prop in H. destruct H as [H H4]. apply andb_prop in H. destruct H as [H H3].
  apply andb_prop in H. destruct H as [H1 H2].
  apply nodupb_NoDup in H1. apply Nat.eqb_eq in H3.
  apply NoDup_Permutation_bis; [assumption| |].
  - rewrite H3. apply le_n.
  - intros x Hx. rewrite forallb_forall in H4. apply H4 in Hx. now apply existsb_In.
Qed.

Lemma kaon_keywords_formals : forall k, Permutation (kaon_keywords k) (kc_formals (kaon_class k)).
Proof. intros k. apply perm_check_ok. destruct k; vm_compute; reflexivity. Qed.

Lemma kaon_formals_NoDup : forall k, NoDup (kc_formals (kaon_class k)).
Proof. intros k. apply nodupb_NoDup. destruct k; vm_compute; reflexivity. Qed.

(** The call in terms of the specification. *)
Lemma Kaon_view : forall k ch kw m t, Kaon_init (kaon_class k) ch kw = Ok m ->
  Kaon_call m t =
  if Rlt_dec (Re t) 0 then Err ValueError else
  s <- sector_eval (kwval kw "t_0_isoscalar") (kwval kw "t_in_isoscalar")
         (spec_sector (kwval kw) (isoscalar_resonances k)) t ;;
  v <- sector_eval (kwval kw "t_0_isovector") (kwval kw "t_in_isovector")
         (spec_sector (kwval kw) (isovector_resonances k)) t ;;
  Ok (if ch then (s + v)%C else (s - v)%C).
Proof.
  intros k ch kw m t H.
  rewrite (Kaon_call_view _ _ _ _ (kaon_wf k) H).
  rewrite secs_spec, secv_spec.
  destruct (branch_points_spec k kw) as [-> [-> [-> ->]]]. reflexivity.
Qed.

Lemma Kaon_valid : forall k ch kw m, Kaon_init (kaon_class k) ch kw = Ok m ->
  valid_sector (kwval kw "t_0_isoscalar") (kwval kw "t_in_isoscalar")
         (spec_sector (kwval kw) (isoscalar_resonances k)) /\
  valid_sector (kwval kw "t_0_isovector") (kwval kw "t_in_isovector")
         (spec_sector (kwval kw) (isovector_resonances k)).
Proof.
  intros k ch kw m H.
  assert (A := secs_valid _ _ _ _ (kaon_wf k) H). assert (B := secv_valid _ _ _ _ (kaon_wf k) H).
  rewrite secs_spec in A. rewrite secv_spec in B.
  destruct (branch_points_spec k kw) as [E1 [E2 [E3 E4]]]. rewrite E1, E2 in A. rewrite E3, E4 in B. tauto.
Qed.

Lemma spec_sector_nonempty : forall P k,
  spec_sector P (isoscalar_resonances k) <> [] /\ spec_sector P (isovector_resonances k) <> [].
Proof. intros P k. destruct k; split; discriminate. Qed.

(** ** Acceptance *)

(** Which (mass, width) pairs a sector accepts. *)
Definition resonance_accepted (t_0 t_in m g : R) : Prop :=
  t_0 <= m * m /\ resonance_pole m g <> RtoC t_in /\ (m * m < t_in -> resonance_pole m g <> RtoC t_0).

Definition sector_accepted (P : string -> R) (t_0 t_in : R) (names : list string) : Prop :=
  0 <= t_0 <= t_in /\ t_in <> 0 /\
  forall n, In n names -> resonance_accepted t_0 t_in (P ("mass_" ++ n)) (P ("decay_rate_" ++ n)).

Lemma build_component_accept : forall t_0 t_in m g, 0 <= t_0 <= t_in ->
  is_ok (build_component t_0 t_in m g) <-> t_in <> 0 /\ resonance_accepted t_0 t_in m g.
Proof.
  intros t_0 t_in m g [H0 [Hlt|E]].
  - rewrite build_component_ok_iff by lra. unfold accept_resonance, resonance_accepted.
    rewrite resonance_pole_eq. split; [|tauto]. intros A. split; [lra|assumption].
  - subst t_in. unfold resonance_accepted. rewrite <- resonance_pole_eq. unfold build_component.
    rewrite MapTW_init_ok by lra. simpl bind. fold (tw t_0 t_0). rewrite !degenerate_map by assumption.
    destruct (C_eq_dec (RtoC 0) (RtoC t_0)) as [Z|Z].
    { simpl. apply RtoC_inj in Z. split; [intros [c H]; discriminate|]. intros [A _]. congruence. }
    simpl bind. assert (N0 : t_0 <> 0) by (intros F; apply Z; now rewrite F).
    destruct (C_eq_dec (meson_pole m g) (RtoC t_0)) as [F|F].
    { simpl. split; [intros [c H]; discriminate|]. intros [_ [_ [A _]]]. contradiction. }
    simpl bind. destruct (Rlt_dec (m * m) t_0) as [L|L].
    + split; [intros [c H]; discriminate|]. lra.
    + rewrite Component_init_ok by discriminate. split; [|intros _; eexists; reflexivity].
      intros _. repeat split; try assumption; try lra. 
Qed.

Lemma init_components_ok_iff : forall cls val t_0 t_in names,
  (forall n, In n names -> mem ("mass_" ++ n) (map fst (kc_assign cls)) = true /\
    mem ("decay_rate_" ++ n) (map fst (kc_assign cls)) = true) ->
  is_ok (init_components (attrs_of cls val) t_0 t_in names) <->
  (forall n, In n names ->
    is_ok (build_component t_0 t_in (aval cls val ("mass_" ++ n)) (aval cls val ("decay_rate_" ++ n)))).
Proof.
  intros cls val t_0 t_in names. unfold init_components.
  induction names as [|n names IH]; intros H.
  - split; [intros _ n []|]. intros _. eexists. reflexivity.
  - destruct (H n (or_introl eq_refl)) as [M1 M2].
    assert (IH' := IH (fun x Hx => H x (or_intror Hx))). clear IH.
    cbn [mapM]. rewrite !attr_aval by assumption. cbn [bind].
    split.
    + intros [cs E]. res_inv. intros n' [<-|Hin]; [eexists; eassumption|].
      apply IH'; [eexists; eassumption|assumption].
    + intros A. destruct (A n (or_introl eq_refl)) as [c B]. rewrite B. cbn [bind].
      destruct (proj2 IH') as [cs D]; [intros; apply A; now right|].
      rewrite D. cbn [bind]. eexists. reflexivity.
Qed.

Lemma Kaon_init_ok_iff : forall cls ch kw, wf_class cls = true ->
  is_ok (Kaon_init cls ch kw) <->
  is_ok (bind_kwargs (kc_formals cls) kw) /\
  (0 <= t0s cls kw <= tis cls kw) /\ (0 <= t0v cls kw <= tiv cls kw) /\
  (forall n, In n (kc_isoscalar cls) ->
     is_ok (build_component (t0s cls kw) (tis cls kw)
       (aval cls (kwval kw) ("mass_" ++ n)) (aval cls (kwval kw) ("decay_rate_" ++ n)))) /\
  (forall n, In n (kc_isovector cls) ->
     is_ok (build_component (t0v cls kw) (tiv cls kw)
       (aval cls (kwval kw) ("mass_" ++ n)) (aval cls (kwval kw) ("decay_rate_" ++ n)))).
Proof.
  intros cls ch kw Hwf.
  assert (Hwf' := Hwf). unfold wf_class in Hwf.
  apply andb_prop in Hwf. destruct Hwf as [Hwf WV].
  apply andb_prop in Hwf. destruct Hwf as [Hwf WS].
  apply andb_prop in Hwf. destruct Hwf as [Hwf WN].
  apply andb_prop in Hwf. destruct Hwf as [Hwf WT].
  apply andb_prop in Hwf. destruct Hwf as [Hwf WC]. clear Hwf.
  simpl in WT.
  apply andb_prop in WT. destruct WT as [WT1 WT].
  apply andb_prop in WT. destruct WT as [WT2 WT].
  apply andb_prop in WT. destruct WT as [WT3 WT].
  apply andb_prop in WT. destruct WT as [WT4 _].
  split.
  - intros [m H]. assert (B := Kaon_init_inv _ _ _ _ Hwf' H). destruct B.
    split.
    { unfold Kaon_init in H. apply bind_Ok_inv in H. destruct H as [args [EA _]]. now exists args. }
    split; [assumption|]. split; [assumption|].
    split; intros n Hn; [destruct (kb_comp_s n Hn) as [c [_ B]]|destruct (kb_comp_v n Hn) as [c [_ B]]];
      exists c; exact B.
  - intros [[args EA] [V1 [V2 [B1 B2]]]]. unfold Kaon_init. rewrite EA. cbn [bind].
    rewrite (run_assign_closed _ _ _ _ EA WC). cbn [bind]. fold (attrs_of cls (kwval kw)).
    rewrite !attr_aval by assumption. cbn [bind].
    fold (t0s cls kw) (tis cls kw) (t0v cls kw) (tiv cls kw).
    rewrite !MapTW_init_ok by assumption. cbn [bind].
    apply init_components_ok_iff in B1; [|apply (wf_sector_names _ _ _ WS)].
    apply init_components_ok_iff in B2; [|apply (wf_sector_names _ _ _ WV)].
    destruct B1 as [cs E1]. destruct B2 as [cv E2]. rewrite E1, E2. cbn [bind]. eexists. reflexivity.
Qed.

Lemma kaon_names : forall k, kc_isoscalar (kaon_class k) = isoscalar_resonances k /\
  kc_isovector (kaon_class k) = isovector_resonances k.
Proof. intros []; split; reflexivity. Qed.

Lemma kaon_masses : forall k P n, In n (isoscalar_resonances k ++ isovector_resonances k)%list ->
  aval (kaon_class k) P ("mass_" ++ n) = P ("mass_" ++ n) /\
  aval (kaon_class k) P ("decay_rate_" ++ n) = P ("decay_rate_" ++ n).
Proof.
  intros k P n H. destruct k; simpl in H;
    repeat (destruct H as [<-|H]; [split; reflexivity|]); contradiction.
Qed.

Lemma Kaon_accept_iff : forall k ch kw,
  is_ok (Kaon_init (kaon_class k) ch kw) <->
  Permutation (map fst kw) (kaon_keywords k) /\
  sector_accepted (kwval kw) (kwval kw "t_0_isoscalar") (kwval kw "t_in_isoscalar") (isoscalar_resonances k) /\
  sector_accepted (kwval kw) (kwval kw "t_0_isovector") (kwval kw "t_in_isovector") (isovector_resonances k).
Proof.
  intros k ch kw. rewrite (Kaon_init_ok_iff _ _ _ (kaon_wf k)).
  destruct (branch_points_spec k kw) as [-> [-> [-> ->]]].
  destruct (kaon_names k) as [-> ->].
  rewrite bind_kwargs_ok_iff by apply kaon_formals_NoDup.
  assert (PK : Permutation (map fst kw) (kc_formals (kaon_class k)) <->
               Permutation (map fst kw) (kaon_keywords k)).
  { assert (Q := kaon_keywords_formals k).
    split; intros A; eapply Permutation_trans; try eassumption. now symmetry. }
  rewrite PK. clear PK. unfold sector_accepted.
  assert (NE : exists n1, In n1 (isoscalar_resonances k)) by (destruct k; simpl; eauto).
  assert (NV : exists n1, In n1 (isovector_resonances k)) by (destruct k; simpl; eauto).
  assert (M := kaon_masses k (kwval kw)).
  split.
  - intros [PP [V1 [V2 [B1 B2]]]]. split; [assumption|].
    assert (X1 : forall n, In n (isoscalar_resonances k) -> kwval kw "t_in_isoscalar" <> 0 /\
      resonance_accepted (kwval kw "t_0_isoscalar") (kwval kw "t_in_isoscalar")
        (kwval kw ("mass_" ++ n)) (kwval kw ("decay_rate_" ++ n))).
    { intros n Hn. destruct (M n (in_or_app _ _ _ (or_introl Hn))) as [E1 E2].
      specialize (B1 n Hn). rewrite E1, E2 in B1. now apply build_component_accept. }
    assert (X2 : forall n, In n (isovector_resonances k) -> kwval kw "t_in_isovector" <> 0 /\
      resonance_accepted (kwval kw "t_0_isovector") (kwval kw "t_in_isovector")
        (kwval kw ("mass_" ++ n)) (kwval kw ("decay_rate_" ++ n))).
    { intros n Hn. destruct (M n (in_or_app _ _ _ (or_intror Hn))) as [E1 E2].
      specialize (B2 n Hn). rewrite E1, E2 in B2. now apply build_component_accept. }
    destruct NE as [n1 N1]. destruct NV as [n2 N2].
    split; (split; [assumption|]); split; try (intros n Hn; now apply X1 || now apply X2).
    + exact (proj1 (X1 n1 N1)).
    + exact (proj1 (X2 n2 N2)).
  - intros [PP [[V1 [Z1 A1]] [V2 [Z2 A2]]]].
    split; [assumption|]. split; [assumption|]. split; [assumption|]. split.
    + intros n Hn. destruct (M n (in_or_app _ _ _ (or_introl Hn))) as [E1 E2]. rewrite E1, E2.
      apply build_component_accept; [assumption|]. split; [assumption|]. now apply A1.
    + intros n Hn. destruct (M n (in_or_app _ _ _ (or_intror Hn))) as [E1 E2]. rewrite E1, E2.
      apply build_component_accept; [assumption|]. split; [assumption|]. now apply A2.
Qed.

(** ** Single component *)
Lemma Single_view : forall t_0 t_in a m g s t, SingleComponentModel_init t_0 t_in a m g = Ok s ->
  SingleComponentModel_call s t =
  if Rlt_dec (Re t) 0 then Err ValueError else sector_eval t_0 t_in [(a, m, g)] t.
Proof.
  intros t_0 t_in a m g s t H. unfold SingleComponentModel_init in H.
  apply bind_Ok_inv in H. destruct H as [mp [E H]]. apply MapTW_init_inv in E. destruct E as [V ->].
  fold (tw t_0 t_in) in H. apply bind_Ok_inv in H. destruct H as [c [B H]]. injection H as <-.
  unfold SingleComponentModel_call. simpl sm_t_to_W. simpl sm_component. simpl sm_coupling_constant.
  destruct (Rlt_dec (Re t) 0); [reflexivity|]. unfold sector_eval.
  destruct (MapFromTtoW_call (tw t_0 t_in) t) as [w|]; [|reflexivity]. simpl bind.
  cbn [mapM]. unfold term, r_m, r_g, r_a. simpl fst. simpl snd. rewrite B. simpl bind.
  destruct (Component_call c w) as [v|]; [|reflexivity]. simpl. f_equal. ring.
Qed.

Lemma Single_valid : forall t_0 t_in a m g s, SingleComponentModel_init t_0 t_in a m g = Ok s ->
  valid_sector t_0 t_in [(a, m, g)].
Proof.
  intros t_0 t_in a m g s H. unfold SingleComponentModel_init in H.
  apply bind_Ok_inv in H. destruct H as [mp [E H]]. apply MapTW_init_inv in E. destruct E as [V ->].
  apply bind_Ok_inv in H. destruct H as [c [B H]]. split; [assumption|].
  constructor; [exists c; exact B|constructor].
Qed.

Lemma Single_accept_iff : forall t_0 t_in a m g,
  is_ok (SingleComponentModel_init t_0 t_in a m g) <->
  0 <= t_0 <= t_in /\ t_in <> 0 /\ resonance_accepted t_0 t_in m g.
Proof.
  intros t_0 t_in a m g. split.
  - intros [s H]. assert (V := Single_valid _ _ _ _ _ _ H). destruct V as [V F].
    inversion F; subst. split; [assumption|]. now apply build_component_accept.
  - intros [V A]. unfold SingleComponentModel_init. rewrite MapTW_init_ok by assumption. simpl bind.
    apply build_component_accept in A; [|assumption]. destruct A as [c B]. rewrite B. eexists. reflexivity.
Qed.
