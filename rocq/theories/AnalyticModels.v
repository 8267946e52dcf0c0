(** Differentiability and continuity of components, sectors and form factors as functions of t. *)
From Coq Require Import String Reals Lra List.
From Verif Require Import PyBase CNum UAMaps UAComponents PyExpr UAModels MapProofs ComponentProofs ExprProofs
  KaonProofs SectorProofs KaonSpec Nucleon NucleonCache NucleonProofs NucleonView NucleonSpec Analytic.
Import ListNotations.
Local Open Scope R_scope.
Local Open Scope py_scope.

(** ** Functions with errors *)

(** Near [t] within [A] the function returns the values of [f], which is differentiable there. *)
Definition agrees (A : region) (F : C -> Res C) (f : C -> C) (t : C) : Prop :=
  F t = Ok (f t) /\ near A t (fun s => F s = Ok (f s)).

Lemma agrees_sub : forall (A B : region) F f t, (forall s, B s -> A s) -> agrees A F f t -> agrees B F f t.
Proof. intros A B F f t H [E N]. split; [assumption|]. now apply (near_sub A). Qed.

(** ** Components *)

Ltac cont_step := first [assumption | apply cont_const | apply cont_mul | apply cont_sub | apply cont_add].

Lemma Afac_cont : forall A f t, cont A f t -> cont A (fun s => Afac (f s)) t.
Proof. intros A f t H. unfold Afac, Csq. repeat cont_step. Qed.
Lemma Dfac_cont : forall A v wm f t, cont A f t -> cont A (fun s => Dfac v wm (f s)) t.
Proof. intros A v wm f t H. destruct v; simpl; repeat cont_step. Qed.

Ltac diff_step := first [eassumption | apply diff_const | apply diff_mul | apply diff_sub | apply diff_add].

Lemma Afac_diff : forall A f t l, diff A f t l -> exists m, diff A (fun s => Afac (f s)) t m.
Proof. intros A f t l H. eexists. unfold Afac, Csq. repeat diff_step. Qed.
Lemma Dfac_diff : forall A v wm f t l, diff A f t l -> exists m, diff A (fun s => Dfac v wm (f s)) t m.
Proof. intros A v wm f t l H. destruct v; simpl; eexists; repeat diff_step. Qed.

Lemma comp_val_cont : forall A v wn wm f t, cont A f t -> Dfac v wm (f t) <> RtoC 0 ->
  cont A (fun s => comp_val v wn wm (f s)) t.
Proof.
  intros A v wn wm f t H N. unfold comp_val. apply cont_mul.
  - unfold Cdivt. apply cont_mul; [now apply Afac_cont|apply cont_const].
  - apply cont_div; [apply cont_const|now apply Dfac_cont|assumption].
Qed.

Lemma comp_val_diff : forall A v wn wm f t l, diff A f t l -> Dfac v wm (f t) <> RtoC 0 ->
  exists m, diff A (fun s => comp_val v wn wm (f s)) t m.
Proof.
  intros A v wn wm f t l H N. unfold comp_val.
  destruct (Afac_diff A f t l H) as [m1 M1]. destruct (Dfac_diff A v wm f t l H) as [m2 M2].
  destruct (diff_div A (fun _ => Dfac v wm wn) (fun s => Dfac v wm (f s)) t _ _ (diff_const _ _ _) M2 N) as [m3 M3].
  eexists. apply diff_mul; [|exact M3]. unfold Cdivt. apply diff_mul; [exact M1|apply diff_const].
Qed.

(** ** Sectors *)

Lemma near_off : forall A t c, t <> c -> near A t (fun s => s <> c).
Proof. intros A t c N. now apply (cont_neq A (fun s => s)); [apply cont_id|]. Qed.

Lemma near_not_pole : forall A m g t, ~ at_pole m g t -> near A t (fun s => ~ at_pole m g s).
Proof.
  intros A m g t N. unfold at_pole in *.
  apply (near_imp A t (fun s => s <> meson_pole m g /\ s <> Cconj (meson_pole m g))); [intros s _ [H K]; tauto|].
  apply near_and; apply near_off; tauto.
Qed.

Lemma near_Forall : forall {X} A t (P : X -> C -> Prop) l, Forall (fun x => near A t (P x)) l ->
  near A t (fun s => Forall (fun x => P x s) l).
Proof.
  intros X A t P l H. induction H as [|x l Hx H IH]; [now apply near_all|].
  apply (near_imp A t (fun s => P x s /\ Forall (fun x => P x s) l)); [|now apply near_and].
  intros s _ [H1 H2]. now constructor.
Qed.

Section Sec.
Variables t_0 t_in : R.
Hypothesis H0 : 0 <= t_0.
Hypothesis Hlt : t_0 < t_in.

Lemma KC_den : forall m g t, is_ok (build_component t_0 t_in m g) -> t <> RtoC t_in -> ~ at_pole m g t ->
  Dfac (variant_of (m * m) t_in) (Wt t_0 t_in (meson_pole m g)) (Wt t_0 t_in t) <> RtoC 0.
Proof.
  intros m g t [c B] N P. destruct (build_component_inv _ _ _ _ _ Hlt B) as [_ [_ [G _]]].
  rewrite (Dfac_zero_iff t_0 t_in Hlt) by assumption. unfold at_pole in P. tauto.
Qed.

Lemma KC_cont : forall A m g t, is_ok (build_component t_0 t_in m g) -> t <> RtoC t_in -> ~ at_pole m g t ->
  sided A t_0 t -> cont A (KC t_0 t_in m g) t.
Proof. intros A m g t B N P S. unfold KC. apply comp_val_cont; [now apply Wt_cont|now apply KC_den]. Qed.

Lemma KC_diff : forall A m g t, is_ok (build_component t_0 t_in m g) -> t <> RtoC t_in -> ~ at_pole m g t ->
  sided A t_0 t -> t <> RtoC t_0 -> exists l, diff A (KC t_0 t_in m g) t l.
Proof.
  intros A m g t B N P S M. destruct (Wt_diff t_0 t_in Hlt A t S M N) as [l L].
  unfold KC. apply (comp_val_diff A _ _ _ (Wt t_0 t_in) t l); [assumption|now apply KC_den].
Qed.

Lemma sec_val_cont : forall A l t, Forall (fun r => is_ok (build_component t_0 t_in (r_m r) (r_g r))) l ->
  t <> RtoC t_in -> Forall (fun r => ~ at_pole (r_m r) (r_g r) t) l -> sided A t_0 t ->
  cont A (sec_val t_0 t_in l) t.
Proof.
  intros A l t V N P S. rewrite Forall_forall in V, P.
  apply (cont_csum A l (fun r s => RtoC (r_a r) * KC t_0 t_in (r_m r) (r_g r) s)%C).
  intros r Hr. apply cont_mul; [apply cont_const|]. apply KC_cont; auto.
Qed.

Lemma sec_val_diff : forall A l t, Forall (fun r => is_ok (build_component t_0 t_in (r_m r) (r_g r))) l ->
  t <> RtoC t_in -> Forall (fun r => ~ at_pole (r_m r) (r_g r) t) l -> sided A t_0 t -> t <> RtoC t_0 ->
  exists d, diff A (sec_val t_0 t_in l) t d.
Proof.
  intros A l t V N P S M. rewrite Forall_forall in V, P.
  apply (diff_csum A l (fun r s => RtoC (r_a r) * KC t_0 t_in (r_m r) (r_g r) s)%C).
  intros r Hr. destruct (KC_diff A _ _ t (V r Hr) N (P r Hr) S M) as [d D].
  eexists. apply diff_mul; [apply diff_const|exact D].
Qed.

Lemma sector_near : forall A l t v, Forall (fun r => is_ok (build_component t_0 t_in (r_m r) (r_g r))) l ->
  sector_eval t_0 t_in l t = Ok v ->
  (t <> RtoC t_in /\ Forall (fun r => ~ at_pole (r_m r) (r_g r) t) l) /\
  agrees A (sector_eval t_0 t_in l) (sec_val t_0 t_in l) t.
Proof.
  intros A l t v V E.
  destruct (sector_eval_cases t_0 t_in H0 Hlt l t V) as [[_ X]|[N [P X]]]; [congruence|].
  split; [tauto|]. split; [assumption|].
  apply (near_imp A t (fun s => s <> RtoC t_in /\ Forall (fun r => ~ at_pole (r_m r) (r_g r) s) l)).
  - intros s _ [K1 K2].
    destruct (sector_eval_cases t_0 t_in H0 Hlt l s V) as [[[Y|Y] _]|[_ [_ Y]]]; [contradiction| |assumption].
    exfalso. rewrite Exists_exists in Y. destruct Y as [r [Hr Y]]. rewrite Forall_forall in K2. exact (K2 r Hr Y).
  - apply near_and; [now apply near_off|]. apply (near_Forall A t (fun r s => ~ at_pole (r_m r) (r_g r) s)).
    apply Forall_forall. intros r Hr. rewrite Forall_forall in P. apply near_not_pole. auto.
Qed.

End Sec.

Lemma sector_Ok_nondegenerate : forall t_0 t_in l t v, valid_sector t_0 t_in l -> l <> [] ->
  sector_eval t_0 t_in l t = Ok v -> t_0 < t_in.
Proof.
  intros t_0 t_in l t v [V F] N E. destruct V as [V1 [V2|V2]]; [assumption|]. subst t_in.
  rewrite sector_eval_degenerate in E by assumption. discriminate.
Qed.

(** A sector where it returns a value: continuous, and differentiable away from t_0. *)
Lemma sector_cont : forall A t_0 t_in l t v, valid_sector t_0 t_in l -> l <> [] ->
  sector_eval t_0 t_in l t = Ok v -> sided A t_0 t ->
  agrees A (sector_eval t_0 t_in l) (sec_val t_0 t_in l) t /\ cont A (sec_val t_0 t_in l) t.
Proof.
  intros A t_0 t_in l t v V N E S. assert (L := sector_Ok_nondegenerate _ _ _ _ _ V N E). destruct V as [V F].
  destruct (sector_near t_0 t_in (proj1 V) L A l t v F E) as [[T P] G]. split; [assumption|].
  apply sec_val_cont; tauto || assumption.
Qed.

Lemma sector_diff : forall A t_0 t_in l t v, valid_sector t_0 t_in l -> l <> [] ->
  sector_eval t_0 t_in l t = Ok v -> sided A t_0 t -> t <> RtoC t_0 ->
  agrees A (sector_eval t_0 t_in l) (sec_val t_0 t_in l) t /\ exists d, diff A (sec_val t_0 t_in l) t d.
Proof.
  intros A t_0 t_in l t v V N E S M. assert (L := sector_Ok_nondegenerate _ _ _ _ _ V N E). destruct V as [V F].
  destruct (sector_near t_0 t_in (proj1 V) L A l t v F E) as [[T P] G]. split; [assumption|].
  apply sec_val_diff; tauto || assumption.
Qed.

(** ** Kaon models *)

Definition kaon_val (k : kaon_kind) (ch : bool) (kw : env R) (t : C) : C :=
  let s := sec_val (kwval kw "t_0_isoscalar") (kwval kw "t_in_isoscalar") (spec_sector (kwval kw) (isoscalar_resonances k)) t in
  let v := sec_val (kwval kw "t_0_isovector") (kwval kw "t_in_isovector") (spec_sector (kwval kw) (isovector_resonances k)) t in
  if ch then (s + v)%C else (s - v)%C.

Definition right_half : region := fun s => 0 <= Re s.

Lemma near_right : forall A t, 0 < Re t -> near A t right_half.
Proof.
  intros A t P. exists (Re t). split; [assumption|]. intros s _ L. unfold right_half.
  assert (H := Cabs_Re (Csub s t)). simpl in H.
  assert (K := Rle_abs (- (Re s + - Re t))). rewrite Rabs_Ropp in K. lra.
Qed.

Lemma Kaon_call_parts : forall k ch kw m t v, Kaon_init (kaon_class k) ch kw = Ok m -> Kaon_call m t = Ok v ->
  0 <= Re t /\ exists x y,
  sector_eval (kwval kw "t_0_isoscalar") (kwval kw "t_in_isoscalar") (spec_sector (kwval kw) (isoscalar_resonances k)) t = Ok x /\
  sector_eval (kwval kw "t_0_isovector") (kwval kw "t_in_isovector") (spec_sector (kwval kw) (isovector_resonances k)) t = Ok y.
Proof.
  intros k ch kw m t v H E. rewrite (Kaon_view _ _ _ _ _ H) in E. destruct (Rlt_dec (Re t) 0); [discriminate|].
  split; [lra|]. apply bind_Ok_inv in E. destruct E as [x [X E]]. apply bind_Ok_inv in E. destruct E as [y [Y E]]. eauto.
Qed.

Lemma kaon_agrees : forall A k ch kw m t v,
  Kaon_init (kaon_class k) ch kw = Ok m -> Kaon_call m t = Ok v -> near A t right_half ->
  sided A (kwval kw "t_0_isoscalar") t -> sided A (kwval kw "t_0_isovector") t ->
  agrees A (Kaon_call m) (kaon_val k ch kw) t /\ cont A (kaon_val k ch kw) t.
Proof.
  intros A k ch kw m t v H E R S1 S2. destruct (Kaon_call_parts _ _ _ _ _ _ H E) as [Rt [x [y [X Y]]]].
  destruct (Kaon_valid _ _ _ _ H) as [V1 V2]. destruct (spec_sector_nonempty (kwval kw) k) as [N1 N2].
  destruct (sector_cont A _ _ _ _ _ V1 N1 X S1) as [[A1 B1] C1].
  destruct (sector_cont A _ _ _ _ _ V2 N2 Y S2) as [[A2 B2] C2].
  split; [split|].
  - rewrite (Kaon_view _ _ _ _ _ H). destruct (Rlt_dec (Re t) 0); [lra|].
    rewrite A1. cbn [bind]. rewrite A2. cbn [bind]. reflexivity.
  - assert (N := near_and _ _ _ _ R (near_and _ _ _ _ B1 B2)). revert N. apply near_imp.
    intros s _ [Q1 [Q2 Q3]]. rewrite (Kaon_view _ _ _ _ _ H). unfold right_half in Q1.
    destruct (Rlt_dec (Re s) 0); [lra|]. rewrite Q2. cbn [bind]. rewrite Q3. reflexivity.
  - unfold kaon_val. destruct ch; [now apply cont_add|now apply cont_sub].
Qed.

Lemma kaon_diff : forall A k ch kw m t v,
  Kaon_init (kaon_class k) ch kw = Ok m -> Kaon_call m t = Ok v ->
  sided A (kwval kw "t_0_isoscalar") t -> sided A (kwval kw "t_0_isovector") t ->
  t <> RtoC (kwval kw "t_0_isoscalar") -> t <> RtoC (kwval kw "t_0_isovector") ->
  exists l, diff A (kaon_val k ch kw) t l.
Proof.
  intros A k ch kw m t v H E S1 S2 M1 M2. destruct (Kaon_call_parts _ _ _ _ _ _ H E) as [Rt [x [y [X Y]]]].
  destruct (Kaon_valid _ _ _ _ H) as [V1 V2]. destruct (spec_sector_nonempty (kwval kw) k) as [N1 N2].
  destruct (sector_diff A _ _ _ _ _ V1 N1 X S1 M1) as [_ [d1 D1]].
  destruct (sector_diff A _ _ _ _ _ V2 N2 Y S2 M2) as [_ [d2 D2]].
  unfold kaon_val. destruct ch; eexists; [exact (diff_add _ _ _ _ _ _ D1 D2)|exact (diff_sub _ _ _ _ _ _ D1 D2)].
Qed.

(** ** Nucleon models *)

Section Nuc.
Variables (k : nucleon_kind) (p e : bool) (kw : env R) (m : NucleonModel).
Hypothesis B : nucleon_built k p e kw m.
Let P := kwval kw.

Lemma near_bools2 : forall A t (Q : bool -> bool -> C -> Prop), (forall s d, near A t (Q s d)) ->
  near A t (fun x => forall s d, Q s d x).
Proof.
  intros A t Q H.
  assert (N := near_and _ _ _ _ (near_and _ _ _ _ (H true true) (H true false)) (near_and _ _ _ _ (H false true) (H false false))).
  revert N. apply near_imp. intros x _ [[H1 H2] [H3 H4]] [] []; assumption.
Qed.

Lemma near_call_defined : forall A el t, call_defined k kw el t -> near A t (fun s => call_defined k kw el s).
Proof.
  intros A el t [D Q].
  apply (near_imp A t (fun x => forall s d, contribution_defined k kw s d x)); [intros x _ H; split; assumption|].
  apply near_bools2. intros s d. destruct (D s d) as [D1 [D2 D3]].
  apply (near_imp A t (fun x => x <> RtoC (bpin (kwval kw) s d) /\
    Forall (fun r => ~ at_pole (kwval kw ("mass_" ++ r)) (kwval kw ("decay_rate_" ++ r)) x) (iso_names s))).
  - intros x _ [X1 X2]. rewrite Forall_forall in X2. split; [assumption|]. split; assumption.
  - apply near_and; [now apply near_off|].
    apply (near_Forall A t (fun r x => ~ at_pole (kwval kw ("mass_" ++ r)) (kwval kw ("decay_rate_" ++ r)) x)).
    apply Forall_forall. intros r Hr. apply near_not_pole. auto.
Qed.

Lemma nucleon_agrees : forall A t v, call_pure m t = Ok v -> near A t right_half ->
  agrees A (call_pure m) (combined k kw p e) t.
Proof.
  intros A t v E R. destruct (call_Ok k p e kw m B t v E) as [Rt [ND [D ->]]]. split; [assumption|].
  assert (N := near_and _ _ _ _ R (near_call_defined A e t D)). revert N. apply near_imp.
  intros s _ [H1 H2]. destruct (call_cases k p e kw m B s ND H1) as [[_ X]|[X _]]; [assumption|contradiction].
Qed.

Lemma NC_den : forall s d r t, bp0 P s d < bpin P s d -> In r (iso_names s) -> t <> RtoC (bpin P s d) ->
  ~ at_pole (P ("mass_" ++ r)) (P ("decay_rate_" ++ r)) t ->
  Dfac (nvariant k (bpin P s d) (P ("mass_" ++ r)) (P ("decay_rate_" ++ r)))
    (Wt (bp0 P s d) (bpin P s d) (meson_pole (P ("mass_" ++ r)) (P ("decay_rate_" ++ r))))
    (Wt (bp0 P s d) (bpin P s d) t) <> RtoC 0.
Proof.
  intros s d r t L Hr N Q. destruct (nb_comp _ _ _ _ _ B s d r Hr) as [c [_ Bc]]. fold P in Bc.
  assert (V := nb_valid _ _ _ _ _ B s d). fold P in V.
  destruct (nbuild_inv _ _ _ _ _ _ L Bc) as [_ [G _]].
  rewrite (Dfac_zero_iff _ _ L) by assumption. unfold at_pole in Q. tauto.
Qed.

Lemma Fv_cont : forall A s d r t, nondegenerate kw -> call_defined k kw e t -> In r (iso_names s) ->
  sided A (bp0 P s d) t -> cont A (fun x => Fv k P s d x r) t.
Proof.
  intros A s d r t ND [D _] Hr S. destruct (D s d) as [D1 [D2 _]]. unfold Fv, NC.
  apply comp_val_cont; [apply Wt_cont; auto; apply ND|apply NC_den; auto; apply ND].
Qed.

Lemma Fv_diff : forall A s d r t, nondegenerate kw -> call_defined k kw e t -> In r (iso_names s) ->
  sided A (bp0 P s d) t -> t <> RtoC (bp0 P s d) -> exists l, diff A (fun x => Fv k P s d x r) t l.
Proof.
  intros A s d r t ND [D _] Hr S M. destruct (D s d) as [D1 [D2 _]]. unfold Fv, NC.
  destruct (Wt_diff _ _ (ND s d) A t S M D1) as [l L].
  apply (comp_val_diff A _ _ _ (Wt (bp0 P s d) (bpin P s d)) t l); [assumption|apply NC_den; auto; apply ND].
Qed.

Lemma formula_cont : forall A s d c (F : C -> string -> C) t, (forall r, In r (iso_names s) -> cont A (fun x => F x r) t) ->
  cont A (fun x => formula P s d c (F x)) t.
Proof.
  intros A s d c F t H.
  destruct s, d; unfold formula, combo2, combo3, Cdivt;
    repeat first [apply cont_const | apply cont_mul | apply cont_sub | apply cont_add | apply H; apply mem_In; reflexivity].
Qed.

Lemma formula_diff : forall A s d c (F : C -> string -> C) t,
  (forall r, In r (iso_names s) -> exists l, diff A (fun x => F x r) t l) ->
  exists l, diff A (fun x => formula P s d c (F x)) t l.
Proof.
  intros A s d c F t H.
  assert (G : exists D, forall r, In r (iso_names s) -> diff A (fun x => F x r) t (D r)).
  { assert (K : forall l, (forall r, In r l -> exists n, diff A (fun x => F x r) t n) ->
      exists D, forall r, In r l -> diff A (fun x => F x r) t (D r)).
    { induction l as [|x l IH]; intros Q; [exists (fun _ => 0%C); intros r []|].
      destruct IH as [D E]; [intros; apply Q; now right|]. destruct (Q x (or_introl eq_refl)) as [n N].
      exists (fun r => if String.string_dec x r then n else D r). intros r [->|I].
      - destruct (String.string_dec r r); [assumption|contradiction].
      - destruct (String.string_dec x r) as [->|_]; [assumption|auto]. }
    apply K. exact H. }
  destruct G as [D G].
  destruct s, d; eexists; unfold formula, combo2, combo3, Cdivt;
    repeat first [apply diff_const | apply diff_mul | apply diff_sub | apply diff_add | apply G; apply mem_In; reflexivity].
Qed.

Definition sided_all (A : region) (t : C) : Prop := forall s d, sided A (bp0 P s d) t.

Lemma part_cont : forall A s d t, nondegenerate kw -> call_defined k kw e t -> sided A (bp0 P s d) t ->
  cont A (part k kw s d) t.
Proof. intros A s d t ND D S. unfold part. apply formula_cont. intros r Hr. now apply Fv_cont. Qed.

Lemma part_diff : forall A s d t, nondegenerate kw -> call_defined k kw e t -> sided A (bp0 P s d) t ->
  t <> RtoC (bp0 P s d) -> exists l, diff A (part k kw s d) t l.
Proof.
  intros A s d t ND D S M. unfold part.
  apply (formula_diff A s d (cv k (kwval kw) s d) (Fv k (kwval kw) s d)). intros r Hr. now apply Fv_diff.
Qed.

Lemma combined_cont : forall A t, nondegenerate kw -> call_defined k kw e t -> sided_all A t ->
  cont A (combined k kw p e) t.
Proof.
  intros A t ND D S. assert (K := fun s d => part_cont A s d t ND D (S s d)).
  unfold combined. destruct p, e; unfold Cdivt;
    repeat first [apply K | apply cont_const | apply cont_id | apply cont_mul | apply cont_sub | apply cont_add].
Qed.

Lemma combined_diff : forall A t, nondegenerate kw -> call_defined k kw e t -> sided_all A t ->
  (forall s d, t <> RtoC (bp0 P s d)) -> exists l, diff A (combined k kw p e) t l.
Proof.
  intros A t ND D S M. assert (K := fun s d => part_diff A s d t ND D (S s d) (M s d)).
  destruct (K true true) as [l1 L1]. destruct (K true false) as [l2 L2].
  destruct (K false true) as [l3 L3]. destruct (K false false) as [l4 L4]. clear K.
  unfold combined. revert L1 L2 L3 L4.
  generalize (part k kw true true) (part k kw true false) (part k kw false true) (part k kw false false).
  intros f1 f2 f3 f4 L1 L2 L3 L4. destruct p, e; eexists; unfold Cdivt;
    repeat first [exact L1 | exact L2 | exact L3 | exact L4 | apply diff_const | apply diff_id
      | apply diff_mul | apply diff_sub | apply diff_add].
Qed.

End Nuc.
