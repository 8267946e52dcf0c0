(** Checking the statements of UnitTests.v by evaluation in ball arithmetic: the checkers and their correctness. *)
From Coq Require Import String Reals ZArith QArith Qreals Lia Lra List Bool.
From Verif Require Import PyBase CNum UAMaps UAComponents PyExpr UAModels Nucleon NucleonCache MapProofs
  OtherModels CrossSections CommonUtils Balls Enclose EncloseCS UnitTests.
Import ListNotations.
Local Open Scope R_scope.
Local Open Scope py_scope.
Local Open Scope string_scope.

#[local] Arguments String.append : simpl never.

(** ** The modelled classes as data for the evaluator *)

Ltac quote_expr e :=
  lazymatch e with
  | ENum (IZR ?a / IZR (Zpos ?b)) => constr:(INum a b)
  | ENum (IZR ?a) => constr:(INum a 1)
  | EAttr ?n => constr:(IAttr n)
  | ELoc ?n => constr:(ILoc n)
  | EComp ?n => constr:(IComp n)
  | EAdd ?a ?b => let x := quote_expr a in let y := quote_expr b in constr:(IAdd x y)
  | ESub ?a ?b => let x := quote_expr a in let y := quote_expr b in constr:(ISub x y)
  | EMul ?a ?b => let x := quote_expr a in let y := quote_expr b in constr:(IMul x y)
  | EDiv ?a ?b => let x := quote_expr a in let y := quote_expr b in constr:(IDiv x y)
  | ESq ?a => let x := quote_expr a in constr:(ISq x)
  end.
Ltac quote_assign l :=
  lazymatch l with
  | nil => constr:(@nil (string * iexpr))
  | cons (?n, ?e) ?l' => let x := quote_expr e in let y := quote_assign l' in constr:(cons (n, x) y)
  end.
Ltac quote_locals l :=
  lazymatch l with
  | nil => constr:(@nil ilocal)
  | cons (LMass ?x ?s ?d ?r) ?l' => let y := quote_locals l' in constr:(cons (ILMass x s d r) y)
  | cons (LExpr ?x ?e) ?l' => let z := quote_expr e in let y := quote_locals l' in constr:(cons (ILExpr x z) y)
  end.
Ltac quote_kaon K :=
  let k := eval cbv [K] in K in
  lazymatch k with
  | mkKaonClass ?f ?a ?s ?v ?es ?ev =>
    let a' := quote_assign a in let es' := quote_expr es in let ev' := quote_expr ev in
    exact (mkBKaonClass f a' s v es' ev')
  end.
Ltac quote_nucleon K :=
  let f := eval hnf in (nc_formals K) in
  let a := eval hnf in (nc_assign K) in let a' := quote_assign a in
  let s := eval hnf in (nc_isoscalar K) in let v := eval hnf in (nc_isovector K) in
  let b := eval cbv beta iota delta [nc_build K] in (nc_build K) in
  let r := lazymatch b with build_component_nucleon => constr:(true) | build_component => constr:(false) end in
  let l1 := eval hnf in (nc_dirac_isoscalar_locals K) in let l1' := quote_locals l1 in
  let e1 := eval hnf in (nc_dirac_isoscalar_expr K) in let e1' := quote_expr e1 in
  let l2 := eval hnf in (nc_dirac_isovector_locals K) in let l2' := quote_locals l2 in
  let e2 := eval hnf in (nc_dirac_isovector_expr K) in let e2' := quote_expr e2 in
  let l3 := eval hnf in (nc_pauli_isoscalar_locals K) in let l3' := quote_locals l3 in
  let e3 := eval hnf in (nc_pauli_isoscalar_expr K) in let e3' := quote_expr e3 in
  let l4 := eval hnf in (nc_pauli_isovector_locals K) in let l4' := quote_locals l4 in
  let e4 := eval hnf in (nc_pauli_isovector_expr K) in let e4' := quote_expr e4 in
  exact (mkBNucClass f a' s v r l1' e1' l2' e2' l3' e3' l4' e4').

Definition bKaonUAModel : bkaon_class. Proof. quote_kaon KaonUAModel. Defined.
Definition bKaonUAModelB : bkaon_class. Proof. quote_kaon KaonUAModelB. Defined.
Definition bKaonUAModelSimplified : bkaon_class. Proof. quote_kaon KaonUAModelSimplified. Defined.
Definition bNucleonUAModel : bnuc_class. Proof. quote_nucleon NucleonUAModel. Defined.
Definition bNucleonUAModelOld : bnuc_class. Proof. quote_nucleon NucleonUAModelOld. Defined.

Lemma quoted_classes :
  to_kaon_class bKaonUAModel = KaonUAModel /\ to_kaon_class bKaonUAModelB = KaonUAModelB /\
  to_kaon_class bKaonUAModelSimplified = KaonUAModelSimplified /\
  to_nuc_class bNucleonUAModel = NucleonUAModel /\ to_nuc_class bNucleonUAModelOld = NucleonUAModelOld.
Proof. split; [|split; [|split; [|split]]]; reflexivity. Qed.

(** ** Rational numbers as balls *)

Definition b_q (q : Q) : ball := b_rat (Qnum q) (Qden q).
Definition cb_q (z : CQ) : cball := mkCB (b_q (fst z)) (b_q (snd z)).
Lemma in_q : forall q, inB (b_q q) (Q2R q).
Proof. intro q. exact (in_rat (Qnum q) (Qden q)). Qed.
Lemma inC_q : forall z, inC (cb_q z) (QtoC z).
Proof. intro z. split; apply in_q. Qed.

Definition benv_of (kw : list (string * Q)) : env ball := map (fun nv => (fst nv, b_q (snd nv))) kw.
Lemma enc_env_of : forall kw, enc_env inB (benv_of kw) (env_of kw).
Proof.
  intro kw. unfold benv_of, env_of. induction kw as [|[n q] kw IH]; constructor; [|exact IH].
  split; [reflexivity|apply in_q].
Qed.

(** ** Bounds of moduli *)

Definition hi (b : ball) : Z := (Z.abs (mid b) + rad b)%Z.
Definition lo (b : ball) : Z := Z.max 0 (Z.abs (mid b) - rad b).
Lemma hi_lo : forall b x, inB b x -> IZR (lo b) <= Rabs x * IZR scale <= IZR (hi b).
Proof.
  intros b x H. pose proof scaleR_pos as S. unfold inB in H.
  assert (E : Rabs x * IZR scale = Rabs (x * IZR scale)) by (rewrite Rabs_mult, (Rabs_right (IZR scale)); lra).
  rewrite E. set (y := x * IZR scale) in *. unfold lo, hi. rewrite plus_IZR, abs_IZR. split.
  - destruct (Z.max_spec 0 (Z.abs (mid b) - rad b)) as [[_ ->]|[_ ->]].
    + rewrite minus_IZR, abs_IZR. pose proof (Rabs_triang_inv (IZR (mid b)) y) as T.
      rewrite Rabs_minus_sym in T. lra.
    + apply Rabs_pos.
  - pose proof (Rabs_triang_inv y (IZR (mid b))) as T. lra.
Qed.

Lemma Cabs_le_sum : forall z, Cabs z <= Rabs (Re z) + Rabs (Im z).
Proof.
  intro z. pose proof (Rabs_pos (Re z)). pose proof (Rabs_pos (Im z)). pose proof (Cabs_nonneg z).
  pose proof (Cabs_sq z) as S. unfold Cnorm2 in S.
  assert (A : Re z * Re z = Rabs (Re z) * Rabs (Re z)) by (rewrite <- Rabs_mult; symmetry; apply Rabs_right; nra).
  assert (B : Im z * Im z = Rabs (Im z) * Rabs (Im z)) by (rewrite <- Rabs_mult; symmetry; apply Rabs_right; nra).
  rewrite A, B in S. nra.
Qed.

(** Closeness with the absolute tolerance [k] units of 1e-15. *)
Definition close (k : Z) (z : cball) (e : CQ) : bool :=
  let w := cb_q e in
  let d := cb_sub z w in
  let u := (hi (bre d) + hi (bim d))%Z in
  ((u * 10^9 <=? Z.max (lo (bre w)) (lo (bim w))) || (u * 10^15 <=? k * scale))%Z.

Lemma close_ok : forall k z e v, inC z v -> close k z e = true -> isclose (IZR k / 10^15) v (QtoC e).
Proof.
  intros k z e v H E. unfold close in E. pose proof (inC_q e) as Hw. set (w := cb_q e) in *.
  pose proof (inC_sub _ _ _ _ H Hw) as [D1 D2]. set (d := cb_sub z w) in *. set (y := QtoC e) in *.
  pose proof scaleR_pos as S.
  assert (U : Cabs (v - y)%C * IZR scale <= IZR (hi (bre d) + hi (bim d))).
  { pose proof (Cabs_le_sum (v - y)%C) as L. pose proof (proj2 (hi_lo _ _ D1)). pose proof (proj2 (hi_lo _ _ D2)).
    rewrite plus_IZR. apply Rle_trans with ((Rabs (Re (v - y)%C) + Rabs (Im (v - y)%C)) * IZR scale).
    - apply Rmult_le_compat_r; [lra|exact L].
    - rewrite Rmult_plus_distr_r. lra. }
  unfold isclose. set (u := (hi (bre d) + hi (bim d))%Z) in *.
  apply orb_true_iff in E. destruct E as [E|E]; apply Z.leb_le, IZR_le in E; rewrite mult_IZR in E.
  - eapply Rle_trans; [|apply Rmax_l].
    assert (W : IZR (Z.max (lo (bre w)) (lo (bim w))) <= Cabs y * IZR scale).
    { destruct (Z.max_spec (lo (bre w)) (lo (bim w))) as [[_ ->]|[_ ->]].
      - eapply Rle_trans; [apply (proj1 (hi_lo _ _ (proj2 Hw)))|].
        apply Rmult_le_compat_r; [lra|apply Cabs_Im].
      - eapply Rle_trans; [apply (proj1 (hi_lo _ _ (proj1 Hw)))|].
        apply Rmult_le_compat_r; [lra|apply Cabs_Re]. }
    assert (M : Cabs y <= Rmax (Cabs v) (Cabs y)) by apply Rmax_r.
    apply Rle_trans with (1 / 10 ^ 9 * Cabs y); [|apply Rmult_le_compat_l; [lra|exact M]].
    apply Rmult_le_reg_r with (IZR scale); [exact S|].
    change (10 ^ 9)%Z with 1000000000%Z in E. lra.
  - eapply Rle_trans; [|apply Rmax_r].
    rewrite mult_IZR in E. apply Rmult_le_reg_r with (IZR scale); [exact S|].
    change (10 ^ 15)%Z with 1000000000000000%Z in E. lra.
Qed.

Definition check (k : Z) (o : option cball) (e : CQ) : bool :=
  match o with Some z => close k z e | None => false end.
Lemma check_ok : forall k o e r, encl inC o r -> check k o e = true -> gives (IZR k / 10^15) r e.
Proof.
  intros k [z|] e r H E; [|discriminate]. destruct H as [v [-> H]]. exists v. split; [reflexivity|].
  exact (close_ok _ _ _ _ H E).
Qed.
Lemma tol_1 : tol = IZR 1 / 10^15.
Proof. reflexivity. Qed.
Lemma tol_0 : 0 = IZR 0 / 10^15.
Proof. unfold Rdiv. now rewrite Rmult_0_l. Qed.

(** ** Tests of functions of one argument *)

Definition check_function (f : cball -> option cball) (cases : list (CQ * CQ)) : bool :=
  forallb (fun c => check 0 (f (cb_q (fst c))) (snd c)) cases.
Lemma check_function_ok : forall bf f cases, (forall a x, inC a x -> encl inC (bf a) (f x)) ->
  check_function bf cases = true -> function_test f cases.
Proof.
  intros bf f cases H E. unfold function_test. rewrite tol_0. apply Forall_forall. intros c I.
  unfold check_function in E. rewrite forallb_forall in E. eapply check_ok; [apply H, inC_q|exact (E c I)].
Qed.

(** ** Kaon models *)

Definition check_kaon (cls : bkaon_class) (kw : list (string * Q)) (cases : list kaon_case) : bool :=
  match bkaon_init cls true (benv_of kw) with
  | None => false
  | Some m => forallb (fun c => check 1 (bkaon_call (bkaon_set_charged m (snd (fst c))) (cb_q (fst (fst c)))) (snd c))
                cases
  end.
Lemma check_kaon_ok : forall cls kw cases, check_kaon cls kw cases = true ->
  kaon_test (to_kaon_class cls) kw cases.
Proof.
  intros cls kw cases E. unfold check_kaon in E.
  pose proof (enc_kaon_init cls true _ _ (enc_env_of kw)) as K.
  destruct (bkaon_init cls true (benv_of kw)) as [b|]; [|discriminate]. destruct K as [m [E1 K]].
  exists m. split; [exact E1|]. apply Forall_forall. intros c I. rewrite forallb_forall in E. specialize (E c I).
  rewrite tol_1. eapply check_ok; [|exact E]. apply enc_kaon_call; [|apply inC_q]. now apply enc_kaon_set_charged.
Qed.

(** ** Nucleon models *)

Definition parts : Type := (cball * cball * (cball * cball))%type.
(** The contributions at each argument, computed once. *)
Definition qkey (t : CQ) (u : CQ) : bool :=
  Z.eqb (Qnum (fst t)) (Qnum (fst u)) && Pos.eqb (Qden (fst t)) (Qden (fst u)) &&
  Z.eqb (Qnum (snd t)) (Qnum (snd u)) && Pos.eqb (Qden (snd t)) (Qden (snd u)).
Fixpoint find_parts (l : list (CQ * parts)) (t : CQ) : option parts :=
  match l with
  | [] => None
  | (u, p) :: l' => if qkey u t then Some p else find_parts l' t
  end.
Definition add_parts (m : bnuc) (t : CQ) (acc : list (CQ * parts)) : list (CQ * parts) :=
  match find_parts acc t with
  | Some _ => acc
  | None => match bnuc_parts m (cb_q t) with Some p => (t, p) :: acc | None => acc end
  end.
Fixpoint all_parts (m : bnuc) (l : list nucleon_item) (acc : list (CQ * parts)) : list (CQ * parts) :=
  match l with
  | [] => acc
  | Value t _ _ _ :: l' => all_parts m l' (add_parts m t acc)
  | Ratio t1 t2 _ _ _ _ :: l' => all_parts m l' (add_parts m t2 (add_parts m t1 acc))
  end.
Definition eval_parts (m : bnuc) (l : list (CQ * parts)) (t : CQ) (p e : bool) : option cball :=
  match find_parts l t with Some q => bnuc_of_parts m (cb_q t) q p e | None => None end.

Definition hi2 (z : cball) : Z := let a := hi (bre z) in let b := hi (bim z) in (a * a + b * b)%Z.
Definition lo2 (z : cball) : Z := let a := lo (bre z) in let b := lo (bim z) in (a * a + b * b)%Z.
(** [centre] plus or minus [delta] as fractions with the common denominator [d]: bounds of the squared quotient. *)
Definition check_ratio (z1 z2 : cball) (centre delta : Q) : bool :=
  let d := Zpos (Qden centre * Qden delta) in
  let c := (Qnum centre * Zpos (Qden delta))%Z in
  let r := (Qnum delta * Zpos (Qden centre))%Z in
  (0 <? lo2 z2)%Z && (0 <=? c - r)%Z && (0 <=? c + r)%Z &&
  ((c - r) * (c - r) * hi2 z2 <=? d * d * lo2 z1)%Z && (d * d * hi2 z1 <=? (c + r) * (c + r) * lo2 z2)%Z.

Fixpoint check_items (m : bnuc) (ps : list (CQ * parts)) (l : list nucleon_item) : bool :=
  match l with
  | [] => true
  | Value t p e expected :: l' => check 1 (eval_parts m ps t p e) expected && check_items m ps l'
  | Ratio t1 t2 p e centre delta :: l' =>
      match eval_parts m ps t1 p e, eval_parts m ps t2 p e with
      | Some z1, Some z2 => check_ratio z1 z2 centre delta && check_items m ps l'
      | _, _ => false
      end
  end.
Definition check_nucleon (cls : bnuc_class) (kw : list (string * Q)) (l : list nucleon_item) : bool :=
  match bnuc_init cls true true (benv_of kw) with
  | None => false
  | Some m => check_items m (all_parts m l []) l
  end.

Definition parts_ok (m : bnuc) (ps : list (CQ * parts)) : Prop :=
  forall t p, find_parts ps t = Some p -> bnuc_parts m (cb_q t) = Some p.
Lemma qkey_eq : forall t u, qkey t u = true -> t = u.
Proof.
  intros [[a b] [c d]] [[a' b'] [c' d']] H. unfold qkey in H. cbn [fst snd Qnum Qden] in H.
  repeat rewrite andb_true_iff in H. destruct H as [[[H1 H2] H3] H4].
  apply Z.eqb_eq in H1. apply Pos.eqb_eq in H2. apply Z.eqb_eq in H3. apply Pos.eqb_eq in H4. now subst.
Qed.
Lemma add_parts_ok : forall m t ps, parts_ok m ps -> parts_ok m (add_parts m t ps).
Proof.
  intros m t ps H. unfold add_parts. destruct (find_parts ps t); [exact H|].
  destruct (bnuc_parts m (cb_q t)) as [p|] eqn:E; [|exact H].
  intros u q. cbn [find_parts]. destruct (qkey t u) eqn:K; [|apply H].
  apply qkey_eq in K. subst u. intro F. injection F as <-. exact E.
Qed.
Lemma all_parts_ok : forall m l ps, parts_ok m ps -> parts_ok m (all_parts m l ps).
Proof.
  intros m l. induction l as [|[t p e x|t1 t2 p e c d] l IH]; intros ps H; cbn [all_parts]; [exact H| |].
  - apply IH, add_parts_ok, H.
  - apply IH, add_parts_ok, add_parts_ok, H.
Qed.

Lemma eval_parts_ok : forall b m ps t p e c, encNuc b m -> parts_ok b ps ->
  cache_ok (Nucleon_set_flags m p e) c ->
  encl inC (eval_parts b ps t p e) (fst (Nucleon_call (Nucleon_set_flags m p e) (QtoC t) c)).
Proof.
  intros b m ps t p e c H HP HC. unfold eval_parts. destruct (find_parts ps t) as [q|] eqn:E; [|exact I].
  apply HP in E. rewrite <- (bnuc_parts_call _ _ _ p e E).
  apply enc_nuc_call_cached; [now apply enc_nuc_set_flags|apply inC_q|exact HC].
Qed.

Lemma hi2_lo2 : forall z v, inC z v ->
  IZR (lo2 z) <= (Cabs v * IZR scale) * (Cabs v * IZR scale) <= IZR (hi2 z).
Proof.
  intros z v [H1 H2]. destruct (hi_lo _ _ H1) as [A1 A2]. destruct (hi_lo _ _ H2) as [B1 B2].
  assert (E : (Cabs v * IZR scale) * (Cabs v * IZR scale)
              = (Rabs (Re v) * IZR scale) * (Rabs (Re v) * IZR scale) + (Rabs (Im v) * IZR scale) * (Rabs (Im v) * IZR scale)).
  { replace ((Cabs v * IZR scale) * (Cabs v * IZR scale)) with (Cabs v * Cabs v * (IZR scale * IZR scale)) by ring.
    rewrite Cabs_sq. unfold Cnorm2.
    replace (Re v * Re v) with (Rabs (Re v) * Rabs (Re v)) by (rewrite <- Rabs_mult; apply Rabs_right; nra).
    replace (Im v * Im v) with (Rabs (Im v) * Rabs (Im v)) by (rewrite <- Rabs_mult; apply Rabs_right; nra). ring. }
  rewrite E. unfold lo2, hi2. rewrite !plus_IZR, !mult_IZR.
  assert (0 <= IZR (lo (bre z))) by (apply IZR_le; unfold lo; lia).
  assert (0 <= IZR (lo (bim z))) by (apply IZR_le; unfold lo; lia).
  split; apply Rplus_le_compat; apply Rmult_le_compat; lra.
Qed.

Lemma check_ratio_ok : forall z1 z2 c d v1 v2, inC z1 v1 -> inC z2 v2 -> check_ratio z1 z2 c d = true ->
  Cabs v2 <> 0 /\ Rabs (Q2R c - Cabs v1 / Cabs v2) <= Q2R d.
Proof.
  intros z1 z2 c d v1 v2 H1 H2 E. unfold check_ratio in E. repeat rewrite andb_true_iff in E.
  destruct E as [[[[E1 E2] E3] E4] E5].
  apply Z.ltb_lt, IZR_lt in E1. apply Z.leb_le, IZR_le in E2, E3, E4, E5.
  destruct (hi2_lo2 _ _ H1) as [A1 A2]. destruct (hi2_lo2 _ _ H2) as [B1 B2].
  pose proof scaleR_pos as S. pose proof (Cabs_nonneg v1) as N1. pose proof (Cabs_nonneg v2) as N2.
  set (a := Cabs v1) in *. set (b := Cabs v2) in *. set (s := IZR scale) in *.
  assert (Pb : 0 < b).
  { destruct (Rle_lt_or_eq_dec 0 b N2) as [L|L]; [exact L|]. rewrite <- L in B1.
    rewrite Rmult_0_l, Rmult_0_l in B1. lra. }
  split; [lra|].
  set (x := (Qnum c * Z.pos (Qden d) - Qnum d * Z.pos (Qden c))%Z) in *.
  set (y := (Qnum c * Z.pos (Qden d) + Qnum d * Z.pos (Qden c))%Z) in *.
  set (k := Z.pos (Qden c * Qden d)) in *.
  rewrite !mult_IZR in E4, E5.
  assert (Pk : 0 < IZR k) by (apply IZR_lt; reflexivity).
  assert (Sq : forall p q, 0 <= p -> 0 <= q -> p * p <= q * q -> p <= q) by (intros p q Hp Hq L; nra).
  assert (Pbs : 0 < b * s) by (apply Rmult_lt_0_compat; assumption).
  assert (Pas : 0 <= a * s) by (apply Rmult_le_pos; lra).
  assert (Pkb : 0 < IZR k * (b * s)) by (apply Rmult_lt_0_compat; assumption).
  assert (Px : 0 <= IZR x * (b * s)) by (apply Rmult_le_pos; lra).
  assert (Py : 0 <= IZR y * (b * s)) by (apply Rmult_le_pos; lra).
  assert (Pka : 0 <= IZR k * (a * s)) by (apply Rmult_le_pos; lra).
  assert (L1 : IZR x * (b * s) <= IZR k * (a * s)).
  { apply Sq; [assumption|assumption|].
    apply Rle_trans with (IZR x * IZR x * IZR (hi2 z2)).
    - replace (IZR x * (b * s) * (IZR x * (b * s))) with (IZR x * IZR x * (b * s * (b * s))) by ring.
      apply Rmult_le_compat_l; [nra|exact B2].
    - eapply Rle_trans; [exact E4|].
      replace (IZR k * (a * s) * (IZR k * (a * s))) with (IZR k * IZR k * (a * s * (a * s))) by ring.
      apply Rmult_le_compat_l; [nra|exact A1]. }
  assert (L2 : IZR k * (a * s) <= IZR y * (b * s)).
  { apply Sq; [assumption|assumption|].
    apply Rle_trans with (IZR k * IZR k * IZR (hi2 z1)).
    - replace (IZR k * (a * s) * (IZR k * (a * s))) with (IZR k * IZR k * (a * s * (a * s))) by ring.
      apply Rmult_le_compat_l; [nra|exact A2].
    - eapply Rle_trans; [exact E5|].
      replace (IZR y * (b * s) * (IZR y * (b * s))) with (IZR y * IZR y * (b * s * (b * s))) by ring.
      apply Rmult_le_compat_l; [nra|exact B1]. }
  assert (M1 : IZR x / IZR k <= a / b).
  { apply Rmult_le_reg_r with (IZR k * (b * s)); [exact Pkb|].
    replace (IZR x / IZR k * (IZR k * (b * s))) with (IZR x * (b * s)) by (field; lra).
    replace (a / b * (IZR k * (b * s))) with (IZR k * (a * s)) by (field; lra). exact L1. }
  assert (M2 : a / b <= IZR y / IZR k).
  { apply Rmult_le_reg_r with (IZR k * (b * s)); [exact Pkb|].
    replace (IZR y / IZR k * (IZR k * (b * s))) with (IZR y * (b * s)) by (field; lra).
    replace (a / b * (IZR k * (b * s))) with (IZR k * (a * s)) by (field; lra). exact L2. }
  assert (X : IZR x / IZR k = Q2R c - Q2R d).
  { unfold x, k, Q2R. rewrite minus_IZR, Pos2Z.inj_mul, !mult_IZR. field. split; apply not_0_IZR; discriminate. }
  assert (Y : IZR y / IZR k = Q2R c + Q2R d).
  { unfold y, k, Q2R. rewrite plus_IZR, Pos2Z.inj_mul, !mult_IZR. field. split; apply not_0_IZR; discriminate. }
  rewrite X in M1. rewrite Y in M2. apply Rabs_le. lra.
Qed.

Lemma check_items_ok : forall b m ps, encNuc b m -> parts_ok b ps -> forall l c, cache_ok m c ->
  check_items b ps l = true -> nucleon_items m c l.
Proof.
  intros b m ps H HP l. induction l as [|[t p e x|t1 t2 p e q d] l IH]; intros c HC E; cbn [check_items nucleon_items] in *.
  - exact I.
  - apply andb_true_iff in E. destruct E as [E1 E2].
    pose proof (cache_ok_flags m p e c HC) as HC'.
    pose proof (eval_parts_ok _ _ _ t p e _ H HP HC') as K.
    destruct (Nucleon_call_pure _ (QtoC t) _ HC') as [_ HC2].
    destruct (Nucleon_call (Nucleon_set_flags m p e) (QtoC t) c) as [r c'] eqn:F. cbn [fst snd] in *.
    split; [rewrite tol_1; exact (check_ok _ _ _ _ K E1)|]. apply IH; [|exact E2].
    exact (cache_ok_flags _ (nm_proton m) (nm_electric m) _ HC2).
  - destruct (eval_parts b ps t1 p e) as [z1|] eqn:G1; [|discriminate].
    destruct (eval_parts b ps t2 p e) as [z2|] eqn:G2; [|discriminate].
    apply andb_true_iff in E. destruct E as [E1 E2].
    pose proof (cache_ok_flags m p e c HC) as HC'.
    pose proof (eval_parts_ok _ _ _ t1 p e _ H HP HC') as K1. rewrite G1 in K1.
    destruct (Nucleon_call_pure _ (QtoC t1) _ HC') as [_ HC1].
    destruct (Nucleon_call (Nucleon_set_flags m p e) (QtoC t1) c) as [r1 c1] eqn:F1. cbn [fst snd] in *.
    pose proof (eval_parts_ok _ _ _ t2 p e _ H HP HC1) as K2. rewrite G2 in K2.
    destruct (Nucleon_call_pure _ (QtoC t2) _ HC1) as [_ HC2].
    destruct (Nucleon_call (Nucleon_set_flags m p e) (QtoC t2) c1) as [r2 c2] eqn:F2. cbn [fst snd] in *.
    destruct K1 as [v1 [-> K1]]. destruct K2 as [v2 [-> K2]].
    destruct (check_ratio_ok _ _ _ _ _ _ K1 K2 E1) as [N L].
    split; [exists v1, v2; split; [reflexivity|]; split; [reflexivity|]; split; [exact N|exact L]|].
    apply IH; [|exact E2]. exact (cache_ok_flags _ (nm_proton m) (nm_electric m) _ HC2).
Qed.

Lemma check_nucleon_ok : forall cls kw l, check_nucleon cls kw l = true -> nucleon_test (to_nuc_class cls) kw l.
Proof.
  intros cls kw l E. unfold check_nucleon in E.
  pose proof (enc_nuc_init cls true true _ _ (enc_env_of kw)) as K.
  destruct (bnuc_init cls true true (benv_of kw)) as [b|]; [|discriminate].
  destruct K as [[m c] [E1 [K1 K2]]]. cbn [fst snd] in *. subst c. exists m, []. split; [exact E1|].
  eapply check_items_ok; [exact K1| |apply cache_ok_nil|exact E].
  apply all_parts_ok. intros t p F. discriminate.
Qed.

(** ** Cross sections *)

Definition check_scalar (mass alpha hc2 : Q) (f : cball -> option cball) (cases : list (CQ * CQ)) : bool :=
  forallb (fun c => let t := cb_q (fst c) in
    check 1 (v <o- f t ;; bscalar_cs (b_q mass) (b_q alpha) (b_q hc2) v t) (snd c)) cases.
Lemma check_scalar_ok : forall mass alpha hc2 bf f cases, (forall a x, inC a x -> encl inC (bf a) (f x)) ->
  check_scalar mass alpha hc2 bf cases = true -> scalar_test mass alpha hc2 f cases.
Proof.
  intros mass alpha hc2 bf f cases H E. unfold scalar_test. apply Forall_forall. intros c I.
  unfold check_scalar in E. rewrite forallb_forall in E. specialize (E c I). cbv zeta in E.
  rewrite tol_1. eapply check_ok; [|exact E].
  pose proof (H _ _ (inC_q (fst c))) as K. destruct (bf (cb_q (fst c))) as [v|]; [|exact Logic.I]. cbn [obind].
  destruct K as [w [F K]]. eapply enc_scalar_cs; try apply in_q; try apply inC_q; eassumption.
Qed.

Definition check_pair_identity (mass alpha hc2 : Q) (cases : list (CQ * CQ)) : bool :=
  forallb (fun c => let t := cb_q (fst c) in check 1 (bnucleon_cs (b_q mass) (b_q alpha) (b_q hc2) t t t) (snd c)) cases.
Lemma check_pair_identity_ok : forall mass alpha hc2 cases, check_pair_identity mass alpha hc2 cases = true ->
  forall f, pair_items bool (fun b _ => b) identity_call (NucleonCS_init (Q2R mass) (Q2R alpha) (Q2R hc2)) f cases.
Proof.
  intros mass alpha hc2 cases. induction cases as [|[t e] l IH]; intros E f; [exact I|].
  unfold check_pair_identity in E. cbn [forallb fst snd] in E. apply andb_true_iff in E. destruct E as [E1 E2].
  cbn [pair_items].
  assert (K : encl inC (bnucleon_cs (b_q mass) (b_q alpha) (b_q hc2) (cb_q t) (cb_q t) (cb_q t))
    (fst (NucleonCS_call bool (fun b _ => b) identity_call (NucleonCS_init (Q2R mass) (Q2R alpha) (Q2R hc2)) f (QtoC t)))).
  { eapply enc_nucleon_cs; try apply in_q; try apply inC_q; reflexivity. }
  destruct (NucleonCS_call bool _ identity_call _ f (QtoC t)) as [r f']. cbn [fst] in K.
  split; [rewrite tol_1; exact (check_ok _ _ _ _ K E1)|]. now apply IH.
Qed.

Definition check_pair_model (cls : bnuc_class) (kw : list (string * Q)) (mass alpha hc2 : Q) (cases : list (CQ * CQ))
  : bool :=
  match bnuc_init cls true true (benv_of kw) with
  | None => false
  | Some m => forallb (fun c => let t := cb_q (fst c) in
      match bnuc_parts m t with
      | None => false
      | Some p => match bnuc_of_parts m t p true true, bnuc_of_parts m t p true false with
                  | Some fe, Some fm => check 1 (bnucleon_cs (b_q mass) (b_q alpha) (b_q hc2) fe fm t) (snd c)
                  | _, _ => false
                  end
      end) cases
  end.

(** The form factor object of the test: a model and its dictionary of mass terms. *)
Definition pair_test (cls : NucleonClass) (kw : list (string * Q)) (mass alpha hc2 : Q) (cases : list (CQ * CQ)) : Prop :=
  exists m c, Nucleon_init cls true true (env_of kw) = Ok (m, c) /\
    pair_items FFModel ff_set_electric ff_call (NucleonCS_init (Q2R mass) (Q2R alpha) (Q2R hc2)) (FFNucleon m c) cases.

Lemma check_pair_model_ok : forall cls kw mass alpha hc2 cases,
  check_pair_model cls kw mass alpha hc2 cases = true -> pair_test (to_nuc_class cls) kw mass alpha hc2 cases.
Proof.
  intros cls kw mass alpha hc2 cases E. unfold check_pair_model in E.
  pose proof (enc_nuc_init cls true true _ _ (enc_env_of kw)) as K.
  assert (P : forall mc, Nucleon_init (to_nuc_class cls) true true (env_of kw) = Ok mc -> nm_proton (fst mc) = true).
  { intros mc H. unfold Nucleon_init in H. repeat (apply bind_Ok_inv in H; destruct H as [? [_ H]]).
    injection H as <-. reflexivity. }
  destruct (bnuc_init cls true true (benv_of kw)) as [b|]; [|discriminate].
  destruct K as [[m c] [E1 [K1 K2]]]. cbn [fst snd] in *. subst c. exists m, []. split; [exact E1|].
  specialize (P _ E1). cbn [fst] in P. clear E1.
  assert (G : forall el c, cache_ok m c -> pair_items FFModel ff_set_electric ff_call
    (NucleonCS_init (Q2R mass) (Q2R alpha) (Q2R hc2)) (FFNucleon (Nucleon_set_flags m true el) c) cases).
  2: { replace m with (Nucleon_set_flags m true (nm_electric m)).
       - apply G, cache_ok_nil.
       - rewrite <- P. destruct m. reflexivity. }
  induction cases as [|[t e] l IH]; intros el c HC; [exact I|].
  cbn [forallb fst snd] in E. apply andb_true_iff in E. destruct E as [E1 E2].
  destruct (bnuc_parts b (cb_q t)) as [p|] eqn:F; [|discriminate].
  destruct (bnuc_of_parts b (cb_q t) p true true) as [fe|] eqn:Fe; [|discriminate].
  destruct (bnuc_of_parts b (cb_q t) p true false) as [fm|] eqn:Fm; [|discriminate].
  rewrite <- (bnuc_parts_call _ _ _ true true F) in Fe. rewrite <- (bnuc_parts_call _ _ _ true false F) in Fm.
  set (me := Nucleon_set_flags m true true). set (mm := Nucleon_set_flags m true false).
  pose proof (enc_nuc_call_cached _ _ _ _ c (enc_nuc_set_flags _ _ true true K1) (inC_q t)
                (cache_ok_flags m true true c HC)) as Ve. rewrite Fe in Ve. fold me in Ve.
  destruct (Nucleon_call_pure me (QtoC t) c (cache_ok_flags m true true c HC)) as [_ HC1].
  destruct (Nucleon_call me (QtoC t) c) as [r1 c1] eqn:N1. cbn [fst snd] in *.
  pose proof (cache_ok_flags me true false _ HC1) as HC1'. change (Nucleon_set_flags me true false) with mm in HC1'.
  pose proof (enc_nuc_call_cached _ _ _ _ c1 (enc_nuc_set_flags _ _ true false K1) (inC_q t) HC1') as Vm.
  rewrite Fm in Vm. fold mm in Vm.
  destruct (Nucleon_call_pure mm (QtoC t) c1 HC1') as [_ HC2].
  destruct (Nucleon_call mm (QtoC t) c1) as [r2 c2] eqn:N2. cbn [fst snd] in *.
  destruct Ve as [ve [-> Ve]]. destruct Vm as [vm [-> Vm]].
  assert (C1 : ff_call (ff_set_electric true (FFNucleon (Nucleon_set_flags m true el) c)) (QtoC t)
               = (Ok ve, FFNucleon me c1)).
  { cbn [ff_set_electric ff_call]. change (Nucleon_set_flags (Nucleon_set_flags m true el) _ true) with me.
    rewrite N1. reflexivity. }
  assert (C2 : ff_call (ff_set_electric false (FFNucleon me c1)) (QtoC t) = (Ok vm, FFNucleon mm c2)).
  { cbn [ff_set_electric ff_call]. change (Nucleon_set_flags me _ false) with mm. rewrite N2. reflexivity. }
  cbn [pair_items].
  set (cs := NucleonCS_init (Q2R mass) (Q2R alpha) (Q2R hc2)).
  assert (R : encl inC (bnucleon_cs (b_q mass) (b_q alpha) (b_q hc2) fe fm (cb_q t))
    (fst (NucleonCS_call FFModel ff_set_electric ff_call cs (FFNucleon (Nucleon_set_flags m true el) c) (QtoC t)))).
  { eapply enc_nucleon_cs; try apply in_q; try apply inC_q; [exact C1|exact Ve| |exact Vm]. rewrite C2. reflexivity. }
  assert (L : snd (NucleonCS_call FFModel ff_set_electric ff_call cs
                     (FFNucleon (Nucleon_set_flags m true el) c) (QtoC t)) = FFNucleon mm c2).
  { unfold NucleonCS_call. rewrite C1, C2. reflexivity. }
  destruct (NucleonCS_call FFModel ff_set_electric ff_call cs _ (QtoC t)) as [r f']. cbn [fst snd] in R, L. subst f'.
  split; [rewrite tol_1; exact (check_ok _ _ _ _ R E1)|]. unfold mm. apply (IH E2).
  exact (cache_ok_flags _ (nm_proton m) (nm_electric m) _ HC2).
Qed.
