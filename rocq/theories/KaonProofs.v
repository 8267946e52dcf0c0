(** Reduction of the kaon and single-component models to "sectors": lists of
    (coupling, mass, width) with a pair of branch points. *)
From Coq Require Import String Reals Bool Arith List Lra.
From Verif Require Import PyBase CNum UAMaps UAComponents PyExpr UAModels
  MapProofs ComponentProofs ExprProofs.
Import ListNotations.
Local Open Scope R_scope.
Local Open Scope py_scope.
Local Open Scope string_scope.

#[local] Arguments String.append : simpl never.

Definition resonance : Type := (R * R * R)%type.  (* coupling, mass, width *)
Definition r_a (r : resonance) : R := fst (fst r).
Definition r_m (r : resonance) : R := snd (fst r).
Definition r_g (r : resonance) : R := snd r.

(** Evaluation of a sector. *)
Definition term (t_0 t_in : R) (w : C) (r : resonance) : Res C :=
  c <- build_component t_0 t_in (r_m r) (r_g r) ;;
  v <- Component_call c w ;;
  Ok (RtoC (r_a r) * v)%C.

Definition sector_eval (t_0 t_in : R) (l : list resonance) (t : C) : Res C :=
  w <- MapFromTtoW_call (tw t_0 t_in) t ;;
  ts <- mapM (term t_0 t_in w) l ;;
  Ok (csum ts).

Definition valid_sector (t_0 t_in : R) (l : list resonance) : Prop :=
  0 <= t_0 <= t_in /\ Forall (fun r => is_ok (build_component t_0 t_in (r_m r) (r_g r))) l.

(** ** Generic kaon class *)

Definition aval (cls : KaonClass) (val : string -> R) (n : string) : R :=
  match lookup (kc_assign cls) n with Some e => evT val e | None => 0 end.

Definition couplings (e : expr) : list string :=
  match lin_of e with Some l => map fst l | None => [] end.

Definition sector_of (cls : KaonClass) (val : string -> R) (e : expr) (names : list string)
  : list resonance :=
  map (fun an => (aval cls val (fst an), aval cls val ("mass_" ++ snd an),
                  aval cls val ("decay_rate_" ++ snd an)))
      (combine (couplings e) names).
Definition sector_s (cls : KaonClass) (val : string -> R) : list resonance :=
  sector_of cls val (kc_isoscalar_expr cls) (kc_isoscalar cls).
Definition sector_v (cls : KaonClass) (val : string -> R) : list resonance :=
  sector_of cls val (kc_isovector_expr cls) (kc_isovector cls).

Definition mem (n : string) (l : list string) : bool := existsb (String.eqb n) l.

Definition list_string_eqb (a b : list string) : bool :=
  if list_eq_dec string_dec a b then true else false.

Fixpoint nodupb (l : list string) : bool :=
  match l with [] => true | x :: r => negb (mem x r) && nodupb r end.

Lemma nodupb_NoDup : forall l, nodupb l = true -> NoDup l.
Proof.
  induction l as [|x l IH]; intros H; constructor; simpl in H; apply andb_prop in H; destruct H as [H1 H2].
  - intros I. apply existsb_In in I. unfold mem in H1. rewrite I in H1. discriminate.
  - auto.
Qed.

(** The part of the well-formedness that concerns one sector. *)
Definition wf_sector (cls : KaonClass) (e : expr) (names : list string) : bool :=
  match lin_of e with
  | None => false
  | Some l =>
    list_string_eqb (map snd l) (map (fun n => "_component_" ++ n) names) &&
    forallb (fun a => mem a (map fst (kc_assign cls))) (map fst l) &&
    forallb (fun n => mem ("mass_" ++ n) (map fst (kc_assign cls)) &&
                      mem ("decay_rate_" ++ n) (map fst (kc_assign cls))) names
  end.

Definition wf_class (cls : KaonClass) : bool :=
  nodupb (kc_formals cls) &&
  nodupb (map fst (kc_assign cls)) &&
  forallb (fun ne => closed_in (kc_formals cls) (snd ne)) (kc_assign cls) &&
  forallb (fun n => mem n (map fst (kc_assign cls)))
    ["t_0_isoscalar"; "t_in_isoscalar"; "t_0_isovector"; "t_in_isovector"] &&
  nodupb (kc_isoscalar cls ++ kc_isovector cls)%list &&
  wf_sector cls (kc_isoscalar_expr cls) (kc_isoscalar cls) &&
  wf_sector cls (kc_isovector_expr cls) (kc_isovector cls).

Lemma wf_KaonUAModel : wf_class KaonUAModel = true.
Proof. reflexivity. Qed.
Lemma wf_KaonUAModelB : wf_class KaonUAModelB = true.
Proof. reflexivity. Qed.
Lemma wf_KaonUAModelSimplified : wf_class KaonUAModelSimplified = true.
Proof. reflexivity. Qed.

Lemma mem_In : forall n l, mem n l = true -> In n l.
Proof.
  intros n l H. apply existsb_exists in H. destruct H as [x [Hx E]]. apply String.eqb_eq in E. now subst.
Qed.

Lemma mem_lookup : forall V (l : env V) n, mem n (map fst l) = true -> exists v, lookup l n = Some v.
Proof.
  intros V l n H. destruct (lookup l n) as [v|] eqn:E; [eauto|].
  apply lookup_None in E. apply existsb_In in H. contradiction.
Qed.

Definition attrs_of (cls : KaonClass) (val : string -> R) : env R :=
  map (fun ne => (fst ne, evT val (snd ne))) (kc_assign cls).

Lemma attr_aval : forall cls val n, mem n (map fst (kc_assign cls)) = true ->
  attr (attrs_of cls val) n = Ok (aval cls val n).
Proof.
  intros cls val n H. apply mem_lookup in H. destruct H as [e E].
  unfold attr, attrs_of, aval. rewrite lookup_assign, E. reflexivity.
Qed.

(** Components of a sector. *)
Definition built_of (attrs : env R) (t_0 t_in : R) (n : string) (c : Component) : Prop :=
  exists m g, attr attrs ("mass_" ++ n) = Ok m /\ attr attrs ("decay_rate_" ++ n) = Ok g /\
    build_component t_0 t_in m g = Ok c.

Lemma init_components_inv : forall attrs t_0 t_in names cs,
  init_components attrs t_0 t_in names = Ok cs ->
  Forall2 (fun n nc => fst nc = "_component_" ++ n /\ built_of attrs t_0 t_in n (snd nc)) names cs.
Proof.
  intros attrs t_0 t_in names cs H. apply mapM_Ok_iff in H.
  induction H as [|n nc l l' H1 H IH]; constructor; [|assumption].
  res_inv. split; [reflexivity|]. unfold built_of. cbn [snd]. eauto.
Qed.

Lemma string_app_inj : forall p a b, p ++ a = p ++ b -> a = b.
Proof. induction p as [|c p IH]; simpl; intros a b H; [assumption|]. injection H. auto. Qed.

Lemma lookup_app_l : forall V (a b : env V) n v, lookup a n = Some v -> lookup (a ++ b)%list n = Some v.
Proof.
  induction a as [|[k x] a IH]; simpl; intros b n v H; [discriminate|].
  destruct (String.eqb k n); auto.
Qed.

Lemma lookup_app_r : forall V (a b : env V) n, lookup a n = None -> lookup (a ++ b)%list n = lookup b n.
Proof.
  induction a as [|[k x] a IH]; simpl; intros b n H; [reflexivity|].
  destruct (String.eqb k n); [discriminate|auto].
Qed.

Lemma lookup_cons : forall V k (v : V) l n,
  lookup ((k, v) :: l) n = if String.eqb k n then Some v else lookup l n.
Proof. reflexivity. Qed.

Lemma Forall2_combine_lookup : forall (P : string -> Component -> Prop) names (cs : env Component),
  Forall2 (fun n nc => fst nc = "_component_" ++ n /\ P n (snd nc)) names cs ->
  NoDup names ->
  forall n, In n names -> exists c, lookup cs ("_component_" ++ n) = Some c /\ P n c.
Proof.
  intros P names cs H. induction H as [|n [k c] names cs [E1 E2] H IH]; intros ND n' Hin; [contradiction|].
  inversion ND; subst. change (k = "_component_" ++ n) in E1. change (P n c) in E2.
  subst k. rewrite lookup_cons.
  destruct Hin as [->|Hin].
  - rewrite String.eqb_refl. eauto.
  - destruct (String.eqb_spec ("_component_" ++ n) ("_component_" ++ n')) as [E|N].
    + apply string_app_inj in E. subst. contradiction.
    + auto.
Qed.

Lemma comps_lookup_notin : forall (P : string -> Component -> Prop) names (cs : env Component),
  Forall2 (fun n nc => fst nc = "_component_" ++ n /\ P n (snd nc)) names cs ->
  forall n, ~ In n names -> lookup cs ("_component_" ++ n) = None.
Proof.
  intros P names cs H n Hn. apply lookup_None. intros I. apply Hn. clear Hn.
  induction H as [|n' [k c] names cs [E1 E2] H IH]; [contradiction|].
  change (k = "_component_" ++ n') in E1. subst k.
  destruct I as [E|I]; [left; change ("_component_" ++ n' = "_component_" ++ n) in E; now apply string_app_inj in E|right; auto].
Qed.

(** Everything known about a successfully built kaon object. *)
Record kaon_built (cls : KaonClass) (ch : bool) (kw : env R) (m : KaonModel) : Prop := {
  kb_class : km_class m = cls;
  kb_charged : km_charged_variant m = ch;
  kb_attrs : km_attrs m = attrs_of cls (kwval kw);
  kb_valid_s : 0 <= aval cls (kwval kw) "t_0_isoscalar" <= aval cls (kwval kw) "t_in_isoscalar";
  kb_valid_v : 0 <= aval cls (kwval kw) "t_0_isovector" <= aval cls (kwval kw) "t_in_isovector";
  kb_map_s : km_t_to_W_isoscalar m =
    tw (aval cls (kwval kw) "t_0_isoscalar") (aval cls (kwval kw) "t_in_isoscalar");
  kb_map_v : km_t_to_W_isovector m =
    tw (aval cls (kwval kw) "t_0_isovector") (aval cls (kwval kw) "t_in_isovector");
  kb_comp_s : forall n, In n (kc_isoscalar cls) -> exists c,
    attr (km_components m) ("_component_" ++ n) = Ok c /\
    build_component (aval cls (kwval kw) "t_0_isoscalar") (aval cls (kwval kw) "t_in_isoscalar")
      (aval cls (kwval kw) ("mass_" ++ n)) (aval cls (kwval kw) ("decay_rate_" ++ n)) = Ok c;
  kb_comp_v : forall n, In n (kc_isovector cls) -> exists c,
    attr (km_components m) ("_component_" ++ n) = Ok c /\
    build_component (aval cls (kwval kw) "t_0_isovector") (aval cls (kwval kw) "t_in_isovector")
      (aval cls (kwval kw) ("mass_" ++ n)) (aval cls (kwval kw) ("decay_rate_" ++ n)) = Ok c
}.

Lemma wf_sector_names : forall cls e names, wf_sector cls e names = true ->
  forall n, In n names -> mem ("mass_" ++ n) (map fst (kc_assign cls)) = true /\
    mem ("decay_rate_" ++ n) (map fst (kc_assign cls)) = true.
Proof.
  intros cls e names H n Hin. unfold wf_sector in H. destruct (lin_of e); [|discriminate].
  apply andb_prop in H. destruct H as [_ H]. rewrite forallb_forall in H.
  apply H in Hin. now apply andb_prop in Hin.
Qed.

Lemma NoDup_app_both : forall (a b : list string), NoDup (a ++ b)%list ->
  NoDup a /\ NoDup b /\ forall x, In x b -> ~ In x a.
Proof.
  induction a as [|x a IH]; simpl; intros b H.
  - split; [constructor|]. split; [assumption|]. intros y _ [].
  - inversion H; subst. destruct (IH b H3) as [A [B D]]. split.
    + constructor; [|assumption]. intros I. apply H2, in_or_app. now left.
    + split; [assumption|]. intros y Hy [->|I].
      * apply H2, in_or_app. now right.
      * exact (D y Hy I).
Qed.

Ltac split_andb H :=
  repeat match type of H with
  | (_ && _)%bool = true => let H' := fresh H in apply andb_prop in H; destruct H as [H H']
  end.

Lemma Kaon_init_inv : forall cls ch kw m, wf_class cls = true ->
  Kaon_init cls ch kw = Ok m -> kaon_built cls ch kw m.
Proof.
  intros cls ch kw m Hwf H. unfold wf_class in Hwf.
  apply andb_prop in Hwf. destruct Hwf as [Hwf WV].
  apply andb_prop in Hwf. destruct Hwf as [Hwf WS].
  apply andb_prop in Hwf. destruct Hwf as [Hwf WN].
  apply andb_prop in Hwf. destruct Hwf as [Hwf WT].
  apply andb_prop in Hwf. destruct Hwf as [Hwf WC]. clear Hwf.
  simpl in WT.
  apply andb_prop in WT. destruct WT as [WT1 WT].
  apply andb_prop in WT. destruct WT as [WT2 WT].
  apply andb_prop in WT. destruct WT as [WT3 WT].
  apply andb_prop in WT. destruct WT as [WT4 _].
  unfold Kaon_init in H.
  apply bind_Ok_inv in H. destruct H as [args [EA H]].
  rewrite (run_assign_closed _ _ _ _ EA WC) in H. cbn [bind] in H. fold (attrs_of cls (kwval kw)) in H.
  rewrite !attr_aval in H by assumption. cbn [bind] in H.
  apply bind_Ok_inv in H. destruct H as [ms [E1 H]].
  apply bind_Ok_inv in H. destruct H as [mv [E2 H]].
  apply bind_Ok_inv in H. destruct H as [cs [E3 H]].
  apply bind_Ok_inv in H. destruct H as [cv [E4 H]].
  injection H as <-.
  apply MapTW_init_inv in E1. destruct E1 as [V1 ->].
  apply MapTW_init_inv in E2. destruct E2 as [V2 ->].
  apply nodupb_NoDup in WN. apply NoDup_app_both in WN. destruct WN as [N1 [N2 N3]].
  apply init_components_inv in E3. apply init_components_inv in E4.
  assert (S3 := E3). assert (S4 := E4).
  constructor; try reflexivity; try assumption; cbn [km_components].
  - intros n Hn. destruct (wf_sector_names _ _ _ WS n Hn) as [M1 M2].
    destruct (Forall2_combine_lookup (built_of _ _ _) _ _ E3 N1 n Hn) as [c [L [mm [g [A [B D]]]]]].
    exists c. rewrite attr_aval in A, B by assumption. injection A as <-. injection B as <-.
    split; [|assumption]. unfold attr. rewrite (lookup_app_l _ _ _ _ _ L). reflexivity.
  - intros n Hn. destruct (wf_sector_names _ _ _ WV n Hn) as [M1 M2].
    destruct (Forall2_combine_lookup (built_of _ _ _) _ _ E4 N2 n Hn) as [c [L [mm [g [A [B D]]]]]].
    exists c. rewrite attr_aval in A, B by assumption. injection A as <-. injection B as <-.
    split; [|assumption]. unfold attr. rewrite lookup_app_r.
    + now rewrite L.
    + apply (comps_lookup_notin (built_of _ _ _) _ _ E3). auto.
Qed.

(** The evaluated sums, as sectors. *)
Lemma lin_sector : forall cls val m w t_0 t_in e names,
  wf_sector cls e names = true ->
  km_attrs m = attrs_of cls val ->
  (forall n, In n names -> exists c,
    attr (km_components m) ("_component_" ++ n) = Ok c /\
    build_component t_0 t_in (aval cls val ("mass_" ++ n)) (aval cls val ("decay_rate_" ++ n)) = Ok c) ->
  ev (kaon_scope m w) e = bind (mapM (term t_0 t_in w) (sector_of cls val e names)) (fun ts => Ok (csum ts)).
Proof.
  intros cls val m w t_0 t_in e names Hwf HA HC.
  unfold wf_sector in Hwf. destruct (lin_of e) as [l|] eqn:EL; [|discriminate].
  apply andb_prop in Hwf. destruct Hwf as [Hwf _].
  apply andb_prop in Hwf. destruct Hwf as [W1 W2].
  rewrite (lin_of_ev _ _ _ EL). f_equal.
  unfold list_string_eqb in W1. destruct (list_eq_dec string_dec (map snd l) _) as [EN|]; [|discriminate].
  unfold sector_of, couplings. rewrite EL. clear EL W1.
  revert l EN W2. induction names as [|n names IH]; intros [|[a c] l] EN W2; try discriminate; [reflexivity|].
  simpl in EN. injection EN as E1 E2. simpl in W2. apply andb_prop in W2. destruct W2 as [Wa W2].
  unfold lin_terms in *. cbn [mapM map combine fst snd].
  rewrite IH; [|intros; apply HC; now right|assumption|assumption].
  f_equal. simpl. rewrite HA, attr_aval by assumption. cbn [bind].
  subst c. destruct (HC n (or_introl eq_refl)) as [cc [L B]]. rewrite L. cbn [bind].
  unfold term, r_a, r_m, r_g. cbn [fst snd]. rewrite B. reflexivity.
Qed.

(** The sector form of a built model. *)
Section View.
Variables (cls : KaonClass) (ch : bool) (kw : env R) (m : KaonModel).
Hypothesis Hwf : wf_class cls = true.
Hypothesis Hm : Kaon_init cls ch kw = Ok m.

Definition t0s := aval cls (kwval kw) "t_0_isoscalar".
Definition tis := aval cls (kwval kw) "t_in_isoscalar".
Definition t0v := aval cls (kwval kw) "t_0_isovector".
Definition tiv := aval cls (kwval kw) "t_in_isovector".
Definition secs := sector_s cls (kwval kw).
Definition secv := sector_v cls (kwval kw).

Lemma wf_sectors : wf_sector cls (kc_isoscalar_expr cls) (kc_isoscalar cls) = true /\
  wf_sector cls (kc_isovector_expr cls) (kc_isovector cls) = true.
Proof.
  unfold wf_class in Hwf. apply andb_prop in Hwf. destruct Hwf as [H1 H2].
  apply andb_prop in H1. tauto.
Qed.

Lemma Kaon_isoscalar_view : forall t, Kaon_isoscalar m t = sector_eval t0s tis secs t.
Proof.
  intros t. destruct (Kaon_init_inv _ _ _ _ Hwf Hm). destruct wf_sectors as [W1 W2].
  unfold Kaon_isoscalar, sector_eval. rewrite kb_map_s0, kb_class0.
  fold t0s tis. destruct (MapFromTtoW_call (tw t0s tis) t) as [w|]; [|reflexivity].
  cbn [bind]. apply lin_sector; assumption.
Qed.

Lemma Kaon_isovector_view : forall t, Kaon_isovector m t = sector_eval t0v tiv secv t.
Proof.
  intros t. destruct (Kaon_init_inv _ _ _ _ Hwf Hm). destruct wf_sectors as [W1 W2].
  unfold Kaon_isovector, sector_eval. rewrite kb_map_v0, kb_class0.
  fold t0v tiv. destruct (MapFromTtoW_call (tw t0v tiv) t) as [w|]; [|reflexivity].
  cbn [bind]. apply lin_sector; assumption.
Qed.

Lemma sector_of_valid : forall e names t_0 t_in, wf_sector cls e names = true ->
  (forall n, In n names ->
    is_ok (build_component t_0 t_in (aval cls (kwval kw) ("mass_" ++ n)) (aval cls (kwval kw) ("decay_rate_" ++ n)))) ->
  Forall (fun r => is_ok (build_component t_0 t_in (r_m r) (r_g r))) (sector_of cls (kwval kw) e names).
Proof.
  intros e names t_0 t_in W H. apply Forall_forall. intros r Hr. unfold sector_of in Hr.
  apply in_map_iff in Hr. destruct Hr as [[a n] [<- Hin]]. apply in_combine_r in Hin.
  apply (H n Hin).
Qed.

Lemma secs_valid : valid_sector t0s tis secs.
Proof.
  destruct (Kaon_init_inv _ _ _ _ Hwf Hm). destruct wf_sectors as [W1 W2].
  split; [assumption|]. apply sector_of_valid; [assumption|].
  intros n Hn. destruct (kb_comp_s0 n Hn) as [c [_ B]]. exists c. exact B.
Qed.

Lemma secv_valid : valid_sector t0v tiv secv.
Proof.
  destruct (Kaon_init_inv _ _ _ _ Hwf Hm). destruct wf_sectors as [W1 W2].
  split; [assumption|]. apply sector_of_valid; [assumption|].
  intros n Hn. destruct (kb_comp_v0 n Hn) as [c [_ B]]. exists c. exact B.
Qed.

Lemma Kaon_call_view : forall t, Kaon_call m t =
  if Rlt_dec (Re t) 0 then Err ValueError else
  s <- sector_eval t0s tis secs t ;;
  v <- sector_eval t0v tiv secv t ;;
  Ok (if ch then (s + v)%C else (s - v)%C).
Proof.
  intros t. unfold Kaon_call. destruct (Rlt_dec (Re t) 0); [reflexivity|].
  rewrite Kaon_isoscalar_view, Kaon_isovector_view.
  rewrite (kb_charged _ _ _ _ (Kaon_init_inv _ _ _ _ Hwf Hm)).
  destruct (sector_eval t0s tis secs t); [|reflexivity]. cbn [bind].
  destruct (sector_eval t0v tiv secv t); [|reflexivity]. cbn [bind].
  destruct ch; reflexivity.
Qed.

End View.
