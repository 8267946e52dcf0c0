(** What a successfully built nucleon model evaluates to: explicit formulas for the four
    contributions and the exact conditions under which they raise. *)
From Coq Require Import String Reals Bool Arith List Lra.
From Verif Require Import PyBase CNum UAMaps UAComponents PyExpr Nucleon MapProofs ComponentProofs
  ExprProofs KaonProofs SectorProofs NucleonCache.
Import ListNotations.
Local Open Scope R_scope.
Local Open Scope py_scope.
Local Open Scope string_scope.

#[local] Arguments String.append : simpl never.

(** ** Total evaluation of an expression *)

Fixpoint used_attr (e : expr) : list string :=
  match e with
  | EAttr n => [n]
  | ENum _ | ELoc _ | EComp _ => []
  | EAdd a b | ESub a b | EMul a b | EDiv a b => (used_attr a ++ used_attr b)%list
  | ESq a => used_attr a
  end.
Fixpoint used_loc (e : expr) : list string :=
  match e with
  | ELoc n => [n]
  | ENum _ | EAttr _ | EComp _ => []
  | EAdd a b | ESub a b | EMul a b | EDiv a b => (used_loc a ++ used_loc b)%list
  | ESq a => used_loc a
  end.
Fixpoint used_comp (e : expr) : list string :=
  match e with
  | EComp n => [n]
  | ENum _ | EAttr _ | ELoc _ => []
  | EAdd a b | ESub a b | EMul a b | EDiv a b => (used_comp a ++ used_comp b)%list
  | ESq a => used_comp a
  end.

Section Total.
Variables (A : string -> R) (L K : string -> C).

Fixpoint evC (e : expr) : C :=
  match e with
  | ENum r => RtoC r
  | EAttr n => RtoC (A n)
  | ELoc n => L n
  | EComp n => K n
  | EAdd a b => (evC a + evC b)%C
  | ESub a b => (evC a - evC b)%C
  | EMul a b => (evC a * evC b)%C
  | EDiv a b => Cdivt (evC a) (evC b)
  | ESq a => (evC a * evC a)%C
  end.

Fixpoint nz (e : expr) : Prop :=
  match e with
  | ENum _ | EAttr _ | ELoc _ | EComp _ => True
  | EAdd a b | ESub a b | EMul a b => nz a /\ nz b
  | EDiv a b => nz a /\ nz b /\ evC b <> RtoC 0
  | ESq a => nz a
  end.

Variable s : Scope.

Definition comps_ok (e : expr) : Prop := forall n, In n (used_comp e) -> sc_comp s n = Ok (K n).
Definition comps_known (e : expr) : Prop := forall n, In n (used_comp e) ->
  sc_comp s n = Ok (K n) \/ sc_comp s n = Err ZeroDivisionError.

Definition total (e : expr) : Prop :=
  (comps_ok e /\ nz e /\ ev s e = Ok (evC e)) \/
  (~ (comps_ok e /\ nz e) /\ ev s e = Err ZeroDivisionError).

Lemma ev_total : forall e,
  (forall n, In n (used_attr e) -> sc_attr s n = Ok (A n)) ->
  (forall n, In n (used_loc e) -> sc_loc s n = Ok (L n)) ->
  comps_known e -> total e.
Proof.
  assert (X : forall a b : expr,
    comps_ok a /\ comps_ok b <-> (forall n, In n (used_comp a ++ used_comp b)%list -> sc_comp s n = Ok (K n))).
  { intros a b. unfold comps_ok. split.
    - intros [P Q] n I. apply in_app_or in I. destruct I; auto.
    - intros H. split; intros n I; apply H, in_or_app; auto. }
  assert (Y : forall a b : expr,
    (forall n, In n (used_comp a ++ used_comp b)%list -> sc_comp s n = Ok (K n) \/ sc_comp s n = Err ZeroDivisionError) ->
    comps_known a /\ comps_known b).
  { intros a b H. split; intros n I; apply H, in_or_app; auto. }
  unfold total.
  induction e; intros HA HL HK; unfold comps_ok, comps_known in HK |- *; cbn [used_attr used_loc used_comp nz ev evC] in *.
  - left. split; [intros ? []|auto].
  - left. rewrite HA by (now left). split; [intros ? []|auto].
  - left. rewrite HL by (now left). split; [intros ? []|auto].
  - destruct (HK name (or_introl eq_refl)) as [E|E]; rewrite E; [left|right].
    + split; [|auto]. intros n [<-|[]]. assumption.
    + split; [|reflexivity]. intros [H _]. rewrite (H name (or_introl eq_refl)) in E. discriminate.
  - destruct (Y e1 e2 HK) as [K1 K2]. specialize (X e1 e2).
    destruct IHe1 as [[O1 [N1 E1]]|[F1 E1]]; [| | |rewrite E1|rewrite E1]; try (intros; apply HA || apply HL; apply in_or_app; now left); [assumption| |].
    + simpl bind. destruct IHe2 as [[O2 [N2 E2]]|[F2 E2]]; [| | |rewrite E2|rewrite E2]; try (intros; apply HA || apply HL; apply in_or_app; now right); [assumption| |]; simpl bind; [left|right]; tauto.
    + right. simpl bind. tauto.
  - destruct (Y e1 e2 HK) as [K1 K2]. specialize (X e1 e2).
    destruct IHe1 as [[O1 [N1 E1]]|[F1 E1]]; [| | |rewrite E1|rewrite E1]; try (intros; apply HA || apply HL; apply in_or_app; now left); [assumption| |].
    + simpl bind. destruct IHe2 as [[O2 [N2 E2]]|[F2 E2]]; [| | |rewrite E2|rewrite E2]; try (intros; apply HA || apply HL; apply in_or_app; now right); [assumption| |]; simpl bind; [left|right]; tauto.
    + right. simpl bind. tauto.
  - destruct (Y e1 e2 HK) as [K1 K2]. specialize (X e1 e2).
    destruct IHe1 as [[O1 [N1 E1]]|[F1 E1]]; [| | |rewrite E1|rewrite E1]; try (intros; apply HA || apply HL; apply in_or_app; now left); [assumption| |].
    + simpl bind. destruct IHe2 as [[O2 [N2 E2]]|[F2 E2]]; [| | |rewrite E2|rewrite E2]; try (intros; apply HA || apply HL; apply in_or_app; now right); [assumption| |]; simpl bind; [left|right]; tauto.
    + right. simpl bind. tauto.
  - destruct (Y e1 e2 HK) as [K1 K2]. specialize (X e1 e2).
    destruct IHe1 as [[O1 [N1 E1]]|[F1 E1]]; [| | |rewrite E1|rewrite E1]; try (intros; apply HA || apply HL; apply in_or_app; now left); [assumption| |].
    + simpl bind. destruct IHe2 as [[O2 [N2 E2]]|[F2 E2]]; [| | |rewrite E2|rewrite E2]; try (intros; apply HA || apply HL; apply in_or_app; now right); [assumption| |]; simpl bind; [|right; tauto].
      destruct (C_eq_dec (evC e2) (RtoC 0)) as [Z|Z].
      * right. rewrite Z, cdiv_zero. tauto.
      * left. rewrite cdiv_ok by assumption. tauto.
    + right. simpl bind. tauto.
  - destruct IHe as [[O1 [N1 E1]]|[F1 E1]]; try assumption; rewrite E1; simpl bind; [left|right]; tauto.
Qed.
End Total.

(** ** Kinds, names *)

Inductive nucleon_kind : Type := New | Old.
Definition nucleon_class (k : nucleon_kind) : NucleonClass :=
  match k with New => NucleonUAModel | Old => NucleonUAModelOld end.

Definition iso_names (scalar : bool) : list string :=
  if scalar then ["omega"; "omega_prime"; "omega_double_prime"; "phi"; "phi_prime"; "phi_double_prime"]
  else ["rho"; "rho_prime"; "rho_double_prime"].

Definition ff_name (dirac : bool) : string := if dirac then "dirac" else "pauli".
Definition iso_name (scalar : bool) : string := if scalar then "isoscalar" else "isovector".
Definition ckey (dirac : bool) (r : string) : string := "_" ++ ff_name dirac ++ "_component_" ++ r.

(** Branch points of a sector. *)
Definition bp0 (P : string -> R) (s d : bool) : R := P ("t_0_" ++ ff_name d ++ "_" ++ iso_name s).
Definition bpin (P : string -> R) (s d : bool) : R := P ("t_in_" ++ ff_name d ++ "_" ++ iso_name s).

Definition sector_map (m : NucleonModel) (s d : bool) : MapTW :=
  match s, d with
  | true, true => nm_t_to_W_dirac_isoscalar m
  | true, false => nm_t_to_W_pauli_isoscalar m
  | false, true => nm_t_to_W_dirac_isovector m
  | false, false => nm_t_to_W_pauli_isovector m
  end.

Definition the_map (P : string -> R) (s d : bool) : MapTW := tw (bp0 P s d) (bpin P s d).

Record nucleon_built (k : nucleon_kind) (p e : bool) (kw : env R) (m : NucleonModel) : Prop := {
  nb_class : nm_class m = nucleon_class k;
  nb_proton : nm_proton m = p;
  nb_electric : nm_electric m = e;
  nb_attr : forall n, mem n NucleonUAModel_formals = true -> attr (nm_attrs m) n = Ok (kwval kw n);
  nb_valid : forall s d, 0 <= bp0 (kwval kw) s d <= bpin (kwval kw) s d;
  nb_map : forall s d, sector_map m s d = the_map (kwval kw) s d;
  nb_comp : forall s d r, In r (iso_names s) -> exists c,
    attr (nm_components m) (ckey d r) = Ok c /\
    nc_build (nucleon_class k) (bp0 (kwval kw) s d) (bpin (kwval kw) s d)
      (kwval kw ("mass_" ++ r)) (kwval kw ("decay_rate_" ++ r)) = Ok c
}.

Lemma assign_identity : forall k args kw, bind_kwargs (nc_formals (nucleon_class k)) kw = Ok args ->
  exists attrs, run_assign args (nc_assign (nucleon_class k)) = Ok attrs /\
  forall n, mem n NucleonUAModel_formals = true -> attr attrs n = Ok (kwval kw n).
Proof.
  intros k args kw H.
  assert (Cl : forallb (fun ne => closed_in (nc_formals (nucleon_class k)) (snd ne)) (nc_assign (nucleon_class k)) = true)
    by (destruct k; reflexivity).
  rewrite (run_assign_closed _ _ _ _ H Cl). eexists. split; [reflexivity|].
  intros n Hn. unfold attr. rewrite lookup_assign.
  assert (Q : forallb (fun n => match lookup (nc_assign (nucleon_class k)) n with
     | Some (ELoc n') => String.eqb n' n | _ => false end) NucleonUAModel_formals = true)
    by (destruct k; reflexivity).
  rewrite forallb_forall in Q. specialize (Q n (mem_In _ _ Hn)).
  destruct (lookup (nc_assign (nucleon_class k)) n) as [[]|]; try discriminate.
  apply String.eqb_eq in Q. subst. reflexivity.
Qed.

Lemma nucleon_comps_inv : forall cls attrs name suffix names cs,
  nucleon_init_components cls attrs name suffix names = Ok cs ->
  map fst cs = map (fun r => "_" ++ name ++ "_component_" ++ r) names /\
  forall r, In r names -> exists c mass decay t0 tin,
    In ("_" ++ name ++ "_component_" ++ r, c) cs /\
    attr attrs ("mass_" ++ r) = Ok mass /\ attr attrs ("decay_rate_" ++ r) = Ok decay /\
    attr attrs ("t_0_" ++ name ++ "_" ++ suffix) = Ok t0 /\
    attr attrs ("t_in_" ++ name ++ "_" ++ suffix) = Ok tin /\
    nc_build cls t0 tin mass decay = Ok c.
Proof.
  intros cls attrs name suffix names cs H. apply mapM_Ok_iff in H.
  induction H as [|r [key c] names cs H1 H [IH1 IH2]].
  - split; [reflexivity|intros r []].
  - apply bind_Ok_inv in H1. destruct H1 as [mass [E1 H1]].
    apply bind_Ok_inv in H1. destruct H1 as [decay [E2 H1]].
    apply bind_Ok_inv in H1. destruct H1 as [t0 [E3 H1]].
    apply bind_Ok_inv in H1. destruct H1 as [tin [E4 H1]].
    apply bind_Ok_inv in H1. destruct H1 as [c' [E5 H1]]. injection H1 as <- <-.
    split; [cbn [map fst]; now rewrite IH1|].
    intros r' [<-|I].
    + exists c', mass, decay, t0, tin. repeat split; try assumption. now left.
    + destruct (IH2 r' I) as [c2 [m2 [d2 [t02 [tin2 [J Q]]]]]].
      exists c2, m2, d2, t02, tin2. split; [now right|assumption].
Qed.

Lemma nucleon_names : forall k, nc_isoscalar (nucleon_class k) = iso_names true /\
  nc_isovector (nucleon_class k) = iso_names false.
Proof. intros []; split; reflexivity. Qed.

Definition all_ckeys : list string :=
  (map (ckey true) (iso_names true) ++ map (ckey true) (iso_names false) ++
   map (ckey false) (iso_names true) ++ map (ckey false) (iso_names false))%list.
Lemma all_ckeys_NoDup : NoDup all_ckeys.
Proof. apply nodupb_NoDup. vm_compute. reflexivity. Qed.

Lemma in_iso_names : forall s r, In r (iso_names s) ->
  mem ("mass_" ++ r) NucleonUAModel_formals = true /\ mem ("decay_rate_" ++ r) NucleonUAModel_formals = true.
Proof.
  intros [] r H; simpl in H; repeat (destruct H as [<-|H]; [split; vm_compute; reflexivity|]); contradiction.
Qed.

Lemma bp_names : forall s d,
  mem ("t_0_" ++ ff_name d ++ "_" ++ iso_name s) NucleonUAModel_formals = true /\
  mem ("t_in_" ++ ff_name d ++ "_" ++ iso_name s) NucleonUAModel_formals = true.
Proof. intros [] []; split; vm_compute; reflexivity. Qed.

Lemma nucleon_map_inv : forall attrs P s d mp,
  (forall n, mem n NucleonUAModel_formals = true -> attr attrs n = Ok (P n)) ->
  nucleon_map attrs (ff_name d ++ "_" ++ iso_name s) = Ok mp ->
  0 <= bp0 P s d <= bpin P s d /\ mp = the_map P s d.
Proof.
  intros attrs P s d mp HA H. unfold nucleon_map in H.
  destruct (bp_names s d) as [B1 B2].
  rewrite (HA _ B1), (HA _ B2) in H. cbn [bind] in H.
  apply MapTW_init_inv in H. exact H.
Qed.

Lemma Nucleon_init_inv : forall k p e kw m c, Nucleon_init (nucleon_class k) p e kw = Ok (m, c) ->
  nucleon_built k p e kw m.
Proof.
  intros k p e kw m c H. unfold Nucleon_init in H.
  apply bind_Ok_inv in H. destruct H as [args [E1 H]].
  destruct (assign_identity k args kw E1) as [attrs [E2 HA]]. rewrite E2 in H. cbn [bind] in H.
  apply bind_Ok_inv in H. destruct H as [mds [M1 H]].
  apply bind_Ok_inv in H. destruct H as [mdv [M2 H]].
  apply bind_Ok_inv in H. destruct H as [mps [M3 H]].
  apply bind_Ok_inv in H. destruct H as [mpv [M4 H]].
  apply bind_Ok_inv in H. destruct H as [cds [C1 H]].
  apply bind_Ok_inv in H. destruct H as [cdv [C2 H]].
  apply bind_Ok_inv in H. destruct H as [cps [C3 H]].
  apply bind_Ok_inv in H. destruct H as [cpv [C4 H]].
  injection H as <- <-.
  destruct (nucleon_names k) as [NS NV]. rewrite NS in C1, C3. rewrite NV in C2, C4.
  apply (nucleon_map_inv attrs (kwval kw) true true) in M1; [|assumption].
  apply (nucleon_map_inv attrs (kwval kw) false true) in M2; [|assumption].
  apply (nucleon_map_inv attrs (kwval kw) true false) in M3; [|assumption].
  apply (nucleon_map_inv attrs (kwval kw) false false) in M4; [|assumption].
  destruct M1 as [V1 ->]. destruct M2 as [V2 ->]. destruct M3 as [V3 ->]. destruct M4 as [V4 ->].
  apply nucleon_comps_inv in C1. apply nucleon_comps_inv in C2.
  apply nucleon_comps_inv in C3. apply nucleon_comps_inv in C4.
  constructor; try reflexivity; try assumption.
  - intros [] []; assumption.
  - intros [] []; reflexivity.
  - cbn [nm_components].
    assert (ND : NoDup (map fst (cds ++ cdv ++ cps ++ cpv)%list)).
    { rewrite !map_app, (proj1 C1), (proj1 C2), (proj1 C3), (proj1 C4). exact all_ckeys_NoDup. }
    intros s d r Hr.
    assert (X : exists c mass decay t0 tin, In (ckey d r, c) (cds ++ cdv ++ cps ++ cpv)%list /\
      attr attrs ("mass_" ++ r) = Ok mass /\ attr attrs ("decay_rate_" ++ r) = Ok decay /\
      attr attrs ("t_0_" ++ ff_name d ++ "_" ++ iso_name s) = Ok t0 /\
      attr attrs ("t_in_" ++ ff_name d ++ "_" ++ iso_name s) = Ok tin /\
      nc_build (nucleon_class k) t0 tin mass decay = Ok c).
    { destruct s, d.
      - destruct (proj2 C1 r Hr) as [x [m1 [d1 [t0 [ti [I J]]]]]]. exists x, m1, d1, t0, ti.
        split; [|exact J]. rewrite !in_app_iff. left. exact I.
      - destruct (proj2 C3 r Hr) as [x [m1 [d1 [t0 [ti [I J]]]]]]. exists x, m1, d1, t0, ti.
        split; [|exact J]. rewrite !in_app_iff. right; right; left. exact I.
      - destruct (proj2 C2 r Hr) as [x [m1 [d1 [t0 [ti [I J]]]]]]. exists x, m1, d1, t0, ti.
        split; [|exact J]. rewrite !in_app_iff. right; left. exact I.
      - destruct (proj2 C4 r Hr) as [x [m1 [d1 [t0 [ti [I J]]]]]]. exists x, m1, d1, t0, ti.
        split; [|exact J]. rewrite !in_app_iff. right; right; right. exact I. }
    destruct X as [x [m1 [d1 [t0 [ti [I [A1 [A2 [A3 [A4 B]]]]]]]]]].
    destruct (in_iso_names s r Hr) as [F1 F2]. destruct (bp_names s d) as [G1 G2].
    rewrite (HA _ F1) in A1. rewrite (HA _ F2) in A2. rewrite (HA _ G1) in A3. rewrite (HA _ G2) in A4.
    injection A1 as <-. injection A2 as <-. injection A3 as <-. injection A4 as <-.
    exists x. split; [|exact B]. unfold attr. now rewrite (lookup_NoDup_In _ _ _ _ ND I).
Qed.

(** ** Values of components and mass terms (non-degenerate sectors) *)

(** The squared mass (old class) or the real part of the pole (new class) selects the variant. *)
Definition nvariant (k : nucleon_kind) (t_in m g : R) : variant :=
  match k with
  | New => variant_of (Re (meson_pole m g)) t_in
  | Old => variant_of (m * m) t_in
  end.

Definition NC (k : nucleon_kind) (t_0 t_in m g : R) (t : C) : C :=
  comp_val (nvariant k t_in m g) (Wt t_0 t_in 0) (Wt t_0 t_in (meson_pole m g)) (Wt t_0 t_in t).

(** The mass term of the new class; the old class uses the squared mass instead. *)
Definition MT (k : nucleon_kind) (t_0 t_in m g : R) : C :=
  match k with
  | New =>
    let wr := Wt t_0 t_in (meson_pole m g) in
    let x := Cabs (wr - Cinv wr)%C in
    Cdivt (Dfac (nvariant New t_in m g) wr (Wt t_0 t_in 0)) (RtoC (- (x * x)))
  | Old => (RtoC m * RtoC m)%C
  end.

Lemma nbuild_inv : forall k t_0 t_in m g c, t_0 < t_in ->
  nc_build (nucleon_class k) t_0 t_in m g = Ok c ->
  0 <= t_0 /\ good_pole t_0 t_in (nvariant k t_in m g) (meson_pole m g) /\
  c = the_comp (nvariant k t_in m g) (Wt t_0 t_in 0) (Wt t_0 t_in (meson_pole m g)).
Proof.
  intros [] t_0 t_in m g c Hlt H.
  - destruct (build_component_nucleon_inv _ _ _ _ _ Hlt H) as [A [_ [B D]]]. auto.
  - destruct (build_component_inv _ _ _ _ _ Hlt H) as [A [_ [B D]]]. auto.
Qed.

Lemma ncomp_cases : forall k t_0 t_in m g c t, t_0 < t_in ->
  nc_build (nucleon_class k) t_0 t_in m g = Ok c -> t <> RtoC t_in ->
  (at_pole m g t /\ Component_call c (Wt t_0 t_in t) = Err ZeroDivisionError) \/
  (~ at_pole m g t /\ Component_call c (Wt t_0 t_in t) = Ok (NC k t_0 t_in m g t)).
Proof.
  intros k t_0 t_in m g c t Hlt B Ht. destruct (nbuild_inv _ _ _ _ _ _ Hlt B) as [H0 [G ->]].
  unfold at_pole, NC. rewrite (comp_at_t t_0 t_in H0 Hlt) by assumption.
  destruct (C_eq_dec t (meson_pole m g)); [left; tauto|].
  destruct (C_eq_dec t (Cconj (meson_pole m g))); [left|right]; tauto.
Qed.

Lemma pole2_eq : forall m g, Csq (RtoC m - mkC 0 (1 / 2) * RtoC g)%C = meson_pole m g.
Proof.
  intros. apply C_ext; [rewrite Re_meson_pole|rewrite Im_meson_pole]; unfold Csq; simpl; field.
Qed.

Lemma wr_bounds : forall v t_0 t_in p, t_0 < t_in -> good_pole t_0 t_in v p ->
  Wt t_0 t_in p <> RtoC 0 /\ Csub (Wt t_0 t_in p) (Cinv (Wt t_0 t_in p)) <> RtoC 0.
Proof.
  intros v t_0 t_in p Hlt G.
  assert (N0 : Wt t_0 t_in p <> RtoC 0).
  { destruct v; [now apply (good_pole_A_abs t_0 t_in Hlt p)|].
    intros E. assert (X := good_pole_B_re t_0 t_in Hlt p G). rewrite E in X. simpl in X. lra. }
  split; [assumption|]. set (w := Wt t_0 t_in p) in *. intros E.
  assert (F : Cmul w w = RtoC 1).
  { transitivity (Cadd (Cmul w (Csub w (Cinv w))) (RtoC 1)); [field; assumption|]. rewrite E. ring. }
  assert (Z : Afac w = RtoC 0).
  { unfold Afac, Csq. rewrite F. ring. }
  apply Afac_0_iff in Z. destruct Z as [Z|Z].
  - assert (HR := Wt_half_disc t_0 t_in Hlt p (proj1 G)). fold w in HR. rewrite Z in HR. simpl in HR. lra.
  - revert Z. now apply (W_neq_m1 t_0 t_in Hlt), (proj1 G).
Qed.

Lemma mass_term_ok : forall m t_0 t_in mass g s d r, 0 <= t_0 -> t_0 < t_in ->
  sector_map m s d = tw t_0 t_in ->
  attr (nm_attrs m) ("mass_" ++ r) = Ok mass -> attr (nm_attrs m) ("decay_rate_" ++ r) = Ok g ->
  good_pole t_0 t_in (nvariant New t_in mass g) (meson_pole mass g) ->
  calculate_mass_term m s d r = Ok (MT New t_0 t_in mass g).
Proof.
  intros m t_0 t_in mass g s d r H0 Hlt EM E1 E2 G. unfold calculate_mass_term.
  fold (sector_map m s d). rewrite EM, E1, E2. cbn [bind]. rewrite pole2_eq.
  destruct (Map_call_cases t_0 t_in Hlt (meson_pole mass g)) as [[E _]|[_ E]];
    [exfalso; exact (proj1 G E)|]. rewrite E. cbn [bind].
  destruct (Map_call_cases t_0 t_in Hlt (RtoC 0)) as [[F _]|[_ F]];
    [exfalso; exact (zero_neq_tin t_0 t_in H0 Hlt F)|]. rewrite F. cbn [bind].
  destruct (wr_bounds _ _ _ _ Hlt G) as [N0 N1].
  assert (D : RtoC (- (Cabs (Csub (Wt t_0 t_in (meson_pole mass g)) (Cinv (Wt t_0 t_in (meson_pole mass g)))) *
    Cabs (Csub (Wt t_0 t_in (meson_pole mass g)) (Cinv (Wt t_0 t_in (meson_pole mass g)))))) <> RtoC 0).
  { apply RtoC_neq0. assert (X := Cabs_pos _ N1). nra. }
  unfold MT, nvariant in *. unfold variant_of in *. change (tw_t_in (tw t_0 t_in)) with t_in.
  destruct (Rlt_dec (Re (meson_pole mass g)) t_in) as [L|L].
  - unfold calculate_mass_term_a. rewrite !cdiv_1_inv by (try assumption; now rewrite Cconj_0_iff).
    cbn [bind]. rewrite cdiv_ok by assumption. reflexivity.
  - unfold calculate_mass_term_b. rewrite !cdiv_1_inv by assumption.
    cbn [bind]. rewrite cdiv_ok by assumption. reflexivity.
Qed.

Lemma mass_term_degenerate : forall m x mass g s d r, 0 <= x ->
  sector_map m s d = tw x x ->
  attr (nm_attrs m) ("mass_" ++ r) = Ok mass -> attr (nm_attrs m) ("decay_rate_" ++ r) = Ok g ->
  calculate_mass_term m s d r = Err ZeroDivisionError.
Proof.
  intros m x mass g s d r Hx EM E1 E2. unfold calculate_mass_term.
  fold (sector_map m s d). rewrite EM, E1, E2. cbn [bind]. rewrite pole2_eq.
  rewrite !degenerate_map by assumption.
  destruct (C_eq_dec (meson_pole mass g) (RtoC x)); [reflexivity|]. cbn [bind].
  destruct (C_eq_dec (RtoC 0) (RtoC x)); [reflexivity|]. cbn [bind].
  assert (N1 : RtoC (-1) <> RtoC 0) by (apply RtoC_neq0; lra).
  assert (I1 : Cinv (RtoC (-1)) = RtoC (-1)) by (Cext; unfold Cnorm2; simpl; field).
  assert (Z : RtoC (- (Cabs (Csub (RtoC (-1)) (RtoC (-1))) * Cabs (Csub (RtoC (-1)) (RtoC (-1))))) = RtoC 0).
  { replace (Csub (RtoC (-1)) (RtoC (-1))) with (RtoC 0) by ring. rewrite Cabs_RtoC, Rabs_R0. f_equal. ring. }
  destruct (Rlt_dec _ _).
  - unfold calculate_mass_term_a. rewrite Cconj_RtoC, !cdiv_1_inv by assumption. cbn [bind].
    rewrite I1, Z. apply cdiv_zero.
  - unfold calculate_mass_term_b. rewrite !cdiv_1_inv by assumption. cbn [bind].
    rewrite I1, Z. apply cdiv_zero.
Qed.

(** ** Contributions *)

Definition sector_locals (k : nucleon_kind) (s d : bool) : list local_def :=
  match s, d with
  | true, true => nc_dirac_isoscalar_locals (nucleon_class k)
  | true, false => nc_pauli_isoscalar_locals (nucleon_class k)
  | false, true => nc_dirac_isovector_locals (nucleon_class k)
  | false, false => nc_pauli_isovector_locals (nucleon_class k)
  end.
Definition sector_expr (k : nucleon_kind) (s d : bool) : expr :=
  match s, d with
  | true, true => nc_dirac_isoscalar_expr (nucleon_class k)
  | true, false => nc_pauli_isoscalar_expr (nucleon_class k)
  | false, true => nc_dirac_isovector_expr (nucleon_class k)
  | false, false => nc_pauli_isovector_expr (nucleon_class k)
  end.
Definition contribution (k : nucleon_kind) (m : NucleonModel) (s d : bool) : C -> Res C :=
  contribution_pure m (sector_map m s d) (sector_locals k s d) (sector_expr k s d).

(** Values by resonance name. *)
Definition Fv (k : nucleon_kind) (P : string -> R) (s d : bool) (t : C) (r : string) : C :=
  NC k (bp0 P s d) (bpin P s d) (P ("mass_" ++ r)) (P ("decay_rate_" ++ r)) t.
Definition cv (k : nucleon_kind) (P : string -> R) (s d : bool) (r : string) : C :=
  MT k (bp0 P s d) (bpin P s d) (P ("mass_" ++ r)) (P ("decay_rate_" ++ r)).

(** Two- and three-pole combinations: they equal 0 where all components are 1. *)
Definition combo2 (c F : string -> C) (x y r : string) : C :=
  (Cdivt (F x * F r * (c x - c r)) (c x - c y) +
   Cdivt (F y * F r * (c y - c r)) (c y - c x) - F x * F y)%C.
Definition combo3 (c F : string -> C) (x y z r : string) : C :=
  (F x * F z * F r * Cdivt (c x - c r) (c x - c y) * Cdivt (c z - c r) (c z - c y) +
   F y * F z * F r * Cdivt (c y - c r) (c y - c x) * Cdivt (c z - c r) (c z - c x) +
   F y * F x * F r * Cdivt (c y - c r) (c y - c z) * Cdivt (c x - c r) (c x - c z) -
   F y * F x * F z)%C.

(** The four contributions as functions of mass terms c and components F. *)
Definition formula (P : string -> R) (s d : bool) (c F : string -> C) : C :=
  match s, d with
  | true, true =>
    (RtoC (1/2) * (F "omega_double_prime" * F "phi_double_prime") +
     RtoC (P "a_dirac_omega_prime") * combo2 c F "phi_double_prime" "omega_double_prime" "omega_prime" +
     RtoC (P "a_dirac_phi_prime") * combo2 c F "phi_double_prime" "omega_double_prime" "phi_prime" +
     RtoC (P "a_dirac_omega") * combo2 c F "phi_double_prime" "omega_double_prime" "omega" +
     RtoC (P "a_dirac_phi") * combo2 c F "phi_double_prime" "omega_double_prime" "phi")%C
  | false, true =>
    (RtoC (1/2) * (F "rho_prime" * F "rho_double_prime") +
     RtoC (P "a_dirac_rho") * combo2 c F "rho_prime" "rho_double_prime" "rho")%C
  | true, false =>
    (RtoC (1/2 * (P "magnetic_moment_proton" + P "magnetic_moment_neutron" - 1)) *
       (F "omega_double_prime" * F "phi_double_prime" * F "omega_prime") +
     RtoC (P "a_pauli_phi_prime") * combo3 c F "phi_double_prime" "omega_double_prime" "omega_prime" "phi_prime" +
     RtoC (P "a_pauli_omega") * combo3 c F "phi_double_prime" "omega_double_prime" "omega_prime" "omega" +
     RtoC (P "a_pauli_phi") * combo3 c F "phi_double_prime" "omega_double_prime" "omega_prime" "phi")%C
  | false, false =>
    (RtoC (1/2 * (P "magnetic_moment_proton" - P "magnetic_moment_neutron" - 1)) *
       (F "rho" * F "rho_prime" * F "rho_double_prime"))%C
  end.

(** Mass terms that must differ pairwise. *)
Definition distinct_terms (s d : bool) (c : string -> C) : Prop :=
  match s, d with
  | true, true => c "phi_double_prime" <> c "omega_double_prime"
  | false, true => c "rho_prime" <> c "rho_double_prime"
  | true, false => c "phi_double_prime" <> c "omega_double_prime" /\
      c "omega_prime" <> c "omega_double_prime" /\ c "omega_prime" <> c "phi_double_prime"
  | false, false => True
  end.

(** Local variables in the scope of the expression. *)
Definition Lv (P : string -> R) (s : bool) (c : string -> C) (n : string) : C :=
  if String.eqb n "norm" then
    (RtoC (1/2) * ((if s then RtoC (P "magnetic_moment_proton") + RtoC (P "magnetic_moment_neutron")
                    else RtoC (P "magnetic_moment_proton") - RtoC (P "magnetic_moment_neutron")) - RtoC 1))%C
  else c (String.substring 2 (String.length n - 2) n).
Definition Kv (s d : bool) (F : string -> C) (n : string) : C :=
  match lookup (map (fun r => (ckey d r, F r)) (iso_names s)) n with Some v => v | None => RtoC 0 end.

Lemma Csub_neq0 : forall a b, Csub a b <> RtoC 0 <-> a <> b.
Proof.
  intros a b. split; intros H E; apply H; [subst; ring|now apply Csub_eq].
Qed.

Ltac kv_name s d F r :=
  let n := eval vm_compute in (ckey d r) in change (Kv s d F n) with (F r).
Ltac kv_names s d F :=
  kv_name s d F "omega"; kv_name s d F "omega_prime"; kv_name s d F "omega_double_prime";
  kv_name s d F "phi"; kv_name s d F "phi_prime"; kv_name s d F "phi_double_prime".
Ltac kv_names_v s d F :=
  kv_name s d F "rho"; kv_name s d F "rho_prime"; kv_name s d F "rho_double_prime".
Ltac mass_names :=
  change ("mass_" ++ "omega") with "mass_omega";
  change ("mass_" ++ "omega_prime") with "mass_omega_prime";
  change ("mass_" ++ "omega_double_prime") with "mass_omega_double_prime";
  change ("mass_" ++ "phi") with "mass_phi";
  change ("mass_" ++ "phi_prime") with "mass_phi_prime";
  change ("mass_" ++ "phi_double_prime") with "mass_phi_double_prime";
  change ("mass_" ++ "rho") with "mass_rho";
  change ("mass_" ++ "rho_prime") with "mass_rho_prime";
  change ("mass_" ++ "rho_double_prime") with "mass_rho_double_prime".

Definition mass_terms_of (k : nucleon_kind) (P : string -> R) (c : string -> C) : Prop :=
  k = Old -> forall r, c r = (RtoC (P ("mass_" ++ r)) * RtoC (P ("mass_" ++ r)))%C.

Lemma formula_evC : forall k P s d c F, mass_terms_of k P c ->
  evC P (Lv P s c) (Kv s d F) (sector_expr k s d) = formula P s d c F.
Proof.
  intros k P s d c F H.
  assert (Q : forall a b r, RtoC (1/2 * (a + b - r)) = (RtoC (1/2) * ((RtoC a + RtoC b) - RtoC r))%C) by (intros; Cext; ring).
  assert (Q' : forall a b r, RtoC (1/2 * (a - b - r)) = (RtoC (1/2) * ((RtoC a - RtoC b) - RtoC r))%C) by (intros; Cext; ring).
  destruct k.
  - destruct s, d; cbn -[Rdiv Rmult Rplus Rminus RtoC]; unfold combo2, combo3; rewrite ?Q, ?Q'.
    + kv_names true true F. unfold Cdivt. ring.
    + kv_names true false F. unfold Cdivt. ring.
    + kv_names_v false true F. unfold Cdivt. ring.
    + kv_names_v false false F. unfold Cdivt. ring.
  - destruct s, d; cbn -[Rdiv Rmult Rplus Rminus RtoC]; unfold combo2, combo3; rewrite ?Q, ?Q', ?(H eq_refl); mass_names.
    + kv_names true true F. unfold Cdivt. ring.
    + kv_names true false F. unfold Cdivt. ring.
    + kv_names_v false true F. unfold Cdivt. ring.
    + kv_names_v false false F. unfold Cdivt. ring.
Qed.

Lemma formula_nz : forall k P s d c F, mass_terms_of k P c ->
  (nz P (Lv P s c) (Kv s d F) (sector_expr k s d) <-> distinct_terms s d c).
Proof.
  intros k P s d c F H. 
  assert (SY : forall a b : C, a <> b <-> b <> a) by (intros; split; congruence).
  destruct k.
  - destruct s, d; cbn -[Rdiv Rmult Rplus Rminus RtoC]; rewrite ?Csub_neq0.
    + rewrite (SY (c "omega_double_prime")). tauto.
    + rewrite (SY (c "omega_double_prime")), (SY (c "phi_double_prime") (c "omega_prime")),
        (SY (c "omega_double_prime") (c "omega_prime")). tauto.
    + rewrite (SY (c "rho_double_prime")). tauto.
    + tauto.
  - destruct s, d; cbn -[Rdiv Rmult Rplus Rminus RtoC]; rewrite ?Csub_neq0, ?(H eq_refl); mass_names.
    + rewrite (SY (RtoC (P "mass_omega_double_prime") * _)%C). tauto.
    + rewrite (SY (RtoC (P "mass_omega_double_prime") * _)%C (RtoC (P "mass_phi_double_prime") * _)%C),
        (SY (RtoC (P "mass_phi_double_prime") * _)%C (RtoC (P "mass_omega_prime") * _)%C),
        (SY (RtoC (P "mass_omega_double_prime") * _)%C (RtoC (P "mass_omega_prime") * _)%C). tauto.
    + rewrite (SY (RtoC (P "mass_rho_double_prime") * _)%C). tauto.
    + tauto.
Qed.
