(** Evaluation of the model in ball arithmetic: for every modelled function on the way from the parameters to
    a form factor value, its counterpart on balls and the proof that the counterpart encloses it.

    The counterparts answer [None] when they cannot decide; an answer [Some b] means that the model returns
    normally and that its value lies in [b]. *)
From Coq Require Import String Reals ZArith Lia Lra List Bool.
From Verif Require Import PyBase CNum UAMaps UAComponents PyExpr UAModels Nucleon NucleonCache MapProofs Balls.
Import ListNotations.
Local Open Scope R_scope.
Local Open Scope py_scope.
Local Open Scope string_scope.

#[local] Arguments String.append : simpl never.

(** ** Enclosure of results *)

Definition encl {A B : Type} (P : B -> A -> Prop) (o : option B) (r : Res A) : Prop :=
  match o with Some b => exists a, r = Ok a /\ P b a | None => True end.

Definition obind {A B : Type} (x : option A) (f : A -> option B) : option B :=
  match x with Some a => f a | None => None end.
Notation "x <o- e ;; f" := (obind e (fun x => f)) (at level 61, e at next level, right associativity).

Fixpoint omapM {A B : Type} (f : A -> option B) (l : list A) : option (list B) :=
  match l with
  | [] => Some []
  | x :: l' => y <o- f x ;; ys <o- omapM f l' ;; Some (y :: ys)
  end.

Lemma encl_bind : forall A B A' B' (P : B -> A -> Prop) (Q : B' -> A' -> Prop) o r f g,
  encl P o r -> (forall b a, P b a -> encl Q (f b) (g a)) ->
  encl Q (obind o f) (bind r g).
Proof.
  intros A B A' B' P Q [b|] r f g H K; [|exact I]. destruct H as [a [-> H]]. exact (K b a H).
Qed.

Lemma encl_Ok : forall A B (P : B -> A -> Prop) b a, P b a -> encl P (Some b) (Ok a).
Proof. intros A B P b a H. exists a. now split. Qed.

Lemma encl_mapM : forall A B C' (P : B -> C' -> Prop) (f : A -> option B) (g : A -> Res C') l,
  (forall x, encl P (f x) (g x)) -> encl (Forall2 P) (omapM f l) (mapM g l).
Proof.
  intros A B C' P f g l H. induction l as [|x l IH]; cbn [omapM mapM].
  - now apply encl_Ok.
  - eapply encl_bind; [apply H|]. intros b a K. eapply encl_bind; [apply IH|]. intros bs l' K'.
    apply encl_Ok. now constructor.
Qed.

(** Named values. *)
Definition enc_env {A B : Type} (P : B -> A -> Prop) : env B -> env A -> Prop :=
  Forall2 (fun p q => fst p = fst q /\ P (snd p) (snd q)).

Lemma enc_lookup : forall A B (P : B -> A -> Prop) be e k, enc_env P be e ->
  match lookup be k, lookup e k with
  | Some b, Some a => P b a
  | None, None => True
  | _, _ => False
  end.
Proof.
  intros A B P be e k H. induction H as [|[n b] [n' a] be e [E K] H IH]; cbn [lookup].
  - exact I.
  - cbn [fst snd] in E, K. subst n'. destruct (String.eqb n k) eqn:F; [exact K|exact IH].
Qed.

Lemma enc_attr : forall A B (P : B -> A -> Prop) be e k, enc_env P be e ->
  encl P (lookup be k) (attr e k).
Proof.
  intros A B P be e k H. pose proof (enc_lookup _ _ _ _ _ k H) as K. unfold attr.
  destruct (lookup be k); [|exact I]. destruct (lookup e k); [|contradiction]. now apply encl_Ok.
Qed.

Definition okR (x : Res (env ball)) : option (env ball) := match x with Ok a => Some a | Err _ => None end.

Lemma enc_length : forall A B (P : B -> A -> Prop) be e, enc_env P be e -> length be = length e.
Proof. intros A B P be e H. induction H; simpl; congruence. Qed.

Lemma enc_bind_kwargs : forall formals be e, enc_env inB be e ->
  encl (enc_env inB) (okR (bind_kwargs formals be)) (bind_kwargs formals e).
Proof.
  intros formals be e H. unfold bind_kwargs. rewrite (enc_length _ _ _ _ _ H).
  destruct (Nat.eqb _ _); [|exact I].
  induction formals as [|f l IH]; cbn [mapM].
  - apply encl_Ok. constructor.
  - pose proof (enc_lookup _ _ _ _ _ f H) as K.
    destruct (lookup be f) as [b|]; [|exact I]. destruct (lookup e f) as [a|]; [|contradiction].
    cbn [bind]. destruct (mapM _ l) as [l1|]; [|exact I]. cbn [okR encl] in IH.
    destruct IH as [l2 [E F]]. rewrite E. cbn [bind okR]. apply encl_Ok. constructor; [now split|exact F].
Qed.

(** ** Arithmetic *)

Lemma encl_div : forall a b x y, inC a x -> inC b y -> encl inC (cb_div a b) (cdiv x y).
Proof.
  intros a b x y Ha Hb. destruct (cb_div a b) as [c|] eqn:E; [|exact I].
  destruct (inC_div _ _ _ _ _ E Ha Hb) as [F G]. exists (Cdivt x y). now split.
Qed.

Definition b_div (a b : ball) : option ball := i <o- b_inv b ;; Some (b_mul a i).
Lemma encl_rdiv : forall a b x y, inB a x -> inB b y -> encl inB (b_div a b) (rdiv x y).
Proof.
  intros a b x y Ha Hb. unfold b_div. destruct (b_inv b) as [i|] eqn:E; [|exact I]. cbn [obind].
  destruct (in_inv _ _ _ E Hb) as [N I1]. rewrite rdiv_ok by exact N. apply encl_Ok. now apply in_mul.
Qed.
Lemma encl_rsqrt : forall a x, inB a x -> encl inB (b_sqrt a) (rsqrt x).
Proof.
  intros a x H. destruct (b_sqrt a) as [s|] eqn:E; [|exact I].
  destruct (in_sqrt _ _ _ E H) as [P K]. rewrite rsqrt_ok by exact P. now apply encl_Ok.
Qed.

(** Case distinctions [if x < y then .. else ..]. *)
Lemma encl_if : forall A B (P : B -> A -> Prop) a b x y (f1 f2 : option B) (g1 g2 : Res A),
  inB a x -> inB b y -> encl P f1 g1 -> encl P f2 g2 ->
  encl P (c <o- b_lt a b ;; if c then f1 else f2) (if Rlt_dec x y then g1 else g2).
Proof.
  intros A B P a b x y f1 f2 g1 g2 Ha Hb H1 H2. destruct (b_lt a b) as [[]|] eqn:E; cbn [obind]; [| |exact I].
  - pose proof (in_lt_true _ _ _ _ E Ha Hb). now destruct (Rlt_dec x y).
  - pose proof (in_lt_false _ _ _ _ E Ha Hb). destruct (Rlt_dec x y); [lra|assumption].
Qed.

Definition cb_one : cball := cb_real (b_int 1).
Definition cb_i : cball := mkCB b_zero (b_int 1).
Definition cb_sq (a : cball) : cball := cb_mul a a.
Lemma inC_one : inC cb_one 1%C.
Proof. apply inC_real, in_int. Qed.
Lemma inC_i : inC cb_i Ci.
Proof. split; [exact in_zero|exact (in_int 1)]. Qed.
Lemma inC_sq : forall a x, inC a x -> inC (cb_sq a) (Csq x).
Proof. intros a x H. unfold cb_sq, Csq. apply inC_mul; assumption. Qed.
Lemma inC_zero : inC (cb_real b_zero) (RtoC 0).
Proof. apply inC_real, in_zero. Qed.
#[local] Hint Resolve inC_one inC_i inC_sq inC_zero in_zero inC_add inC_sub inC_mul inC_opp inC_conj inC_real
  in_add in_sub in_mul in_opp in_int : encl.

(** ** Maps (UAMaps.v) *)

Record bmap : Type := mkBMap { bm_t_0 : ball; bm_t_in : ball; bm_a : ball }.
Definition encM (b : bmap) (m : MapTW) : Prop :=
  inB (bm_t_0 b) (tw_t_0 m) /\ inB (bm_t_in b) (tw_t_in m) /\ inB (bm_a b) (tw_a m).

Definition bmap_init (t_0 t_in : ball) : option bmap :=
  n <o- b_lt t_0 b_zero ;; if n then None else
  k <o- b_lt t_in t_0 ;; if k then None else
  a <o- b_sqrt (b_sub t_in t_0) ;; Some (mkBMap t_0 t_in a).

Lemma enc_map_init : forall t_0 t_in x y, inB t_0 x -> inB t_in y ->
  encl encM (bmap_init t_0 t_in) (MapFromTtoW_init x y).
Proof.
  intros t_0 t_in x y H K. unfold bmap_init, MapFromTtoW_init, validate_branch_point_positions.
  destruct (b_lt t_0 b_zero) as [[]|] eqn:E; cbn [obind]; try exact I.
  destruct (b_lt t_in t_0) as [[]|] eqn:F; cbn [obind]; try exact I.
  pose proof (in_lt_false _ _ _ _ E H in_zero). pose proof (in_lt_false _ _ _ _ F K H).
  destruct (Rlt_dec x 0); [lra|]. destruct (Rlt_dec y x); [lra|]. cbn [bind].
  eapply encl_bind; [apply encl_rsqrt, in_sub; eassumption|]. intros a s As. apply encl_Ok. now split.
Qed.

Definition bmap_call (m : bmap) (t : cball) : option cball :=
  z <o- cb_sqrt (cb_sub t (cb_real (bm_t_0 m))) ;;
  tz <o- cb_div (cb_add z (cb_real (bm_a m))) (cb_add (cb_opp z) (cb_real (bm_a m))) ;;
  v <o- cb_sqrt tz ;;
  cb_div (cb_mul cb_i (cb_sub v cb_one)) (cb_add v cb_one).

Lemma enc_map_call : forall b m a t, encM b m -> inC a t -> encl inC (bmap_call b a) (MapFromTtoW_call m t).
Proof.
  intros b m a t [H0 [H1 H2]] Ht. unfold bmap_call, MapFromTtoW_call.
  destruct (cb_sqrt (cb_sub a (cb_real (bm_t_0 b)))) as [z|] eqn:E; [|exact I].
  pose proof (inC_sqrt _ _ _ E (inC_sub _ _ _ _ Ht (inC_real _ _ H0))) as Z.
  cbn [obind]. eapply encl_bind.
  { apply encl_div; auto with encl. }
  intros q y Q. destruct (cb_sqrt q) as [v|] eqn:F; [|exact I]. cbn [obind].
  pose proof (inC_sqrt _ _ _ F Q) as V. apply encl_div; auto with encl.
Qed.

(** ** Components (UAComponents.v) *)

(** In the ball counterpart of a component the quotient of the two constants is formed once. *)
Record bcomp : Type := mkBComp {
  bc_variant : variant;
  bc_w_meson : cball;
  bc_inv : cball;        (* variant A: the inverse of [bc_w_meson] *)
  bc_const : cball       (* numerator of the resonant factor over denominator of the asymptotic factor *)
}.
Definition encK (b : bcomp) (c : Component) : Prop :=
  bc_variant b = c_variant c /\ inC (bc_w_meson b) (c_w_meson c) /\
  (c_variant c = VariantA -> c_w_meson c <> RtoC 0 /\ inC (bc_inv b) (Cdivt 1 (c_w_meson c))%C) /\
  c_asymptotic_factor_denominator c <> RtoC 0 /\
  inC (bc_const b) (Cdivt (c_resonant_factor_numerator c) (c_asymptotic_factor_denominator c)).

(** The four factors of variant A and of variant B. *)
Definition factors_A (w w_meson inv : cball) : cball :=
  cb_mul (cb_mul (cb_mul (cb_sub w w_meson) (cb_sub w (cb_conj w_meson))) (cb_sub w inv)) (cb_sub w (cb_conj inv)).
Definition factors_B (w w_meson : cball) : cball :=
  cb_mul (cb_mul (cb_mul (cb_sub w w_meson) (cb_sub w (cb_conj w_meson))) (cb_add w w_meson))
    (cb_add w (cb_conj w_meson)).

Lemma Cdivt_conj_1 : forall w, (Cdivt 1 (Cconj w) = Cconj (Cdivt 1 w))%C.
Proof. intro w. rewrite Cconj_div, Cconj_RtoC. reflexivity. Qed.

Lemma cdiv_Ok_neq0 : forall a b c, cdiv a b = Ok c -> b <> RtoC 0.
Proof. intros a b c H. exact (proj1 (cdiv_inv _ _ _ H)). Qed.

Definition bcomp_init (v : variant) (w_n w_meson : cball) : option bcomp :=
  let den := cb_sq (cb_sub cb_one (cb_sq w_n)) in
  match v with
  | VariantA => inv <o- cb_div cb_one w_meson ;;
                k <o- cb_div (factors_A w_n w_meson inv) den ;;
                Some (mkBComp v w_meson inv k)
  | VariantB => k <o- cb_div (factors_B w_n w_meson) den ;;
                Some (mkBComp v w_meson cb_one k)
  end.

Lemma enc_comp_init : forall v a b w_n w_meson, inC a w_n -> inC b w_meson ->
  encl encK (bcomp_init v a b) (Component_init v w_n w_meson).
Proof.
  intros v a b w_n w_meson Ha Hb. unfold bcomp_init, Component_init.
  assert (Hden : inC (cb_sq (cb_sub cb_one (cb_sq a))) (Csq (1 - Csq w_n))%C) by auto with encl.
  destruct v.
  - unfold numerator_A.
    destruct (cb_div cb_one b) as [inv|] eqn:E; [|exact I]. cbn [obind].
    destruct (inC_div _ _ _ _ _ E inC_one Hb) as [E1 Hi]. pose proof (cdiv_Ok_neq0 _ _ _ E1) as N.
    rewrite E1. cbn [bind].
    rewrite cdiv_ok by (rewrite Cconj_0_iff; exact N). cbn [bind]. rewrite Cdivt_conj_1.
    destruct (cb_div (factors_A a b inv) _) as [k|] eqn:F; [|exact I]. cbn [obind].
    assert (Hf : inC (factors_A a b inv)
      ((w_n - w_meson) * (w_n - Cconj w_meson) * (w_n - Cdivt 1 w_meson) * (w_n - Cconj (Cdivt 1 w_meson)))%C)
      by (unfold factors_A; auto 10 with encl).
    destruct (inC_div _ _ _ _ _ F Hf Hden) as [E2 Hk].
    apply encl_Ok. split; [reflexivity|]. split; [exact Hb|]. split; [intros _; split; [exact N|exact Hi]|].
    split; [exact (cdiv_Ok_neq0 _ _ _ E2)|exact Hk].
  - unfold numerator_B. cbn [bind].
    destruct (cb_div (factors_B a b) _) as [k|] eqn:F; [|exact I]. cbn [obind].
    assert (Hf : inC (factors_B a b)
      ((w_n - w_meson) * (w_n - Cconj w_meson) * (w_n + w_meson) * (w_n + Cconj w_meson))%C)
      by (unfold factors_B; auto 10 with encl).
    destruct (inC_div _ _ _ _ _ F Hf Hden) as [E2 Hk].
    apply encl_Ok. split; [reflexivity|]. split; [exact Hb|]. split; [discriminate|].
    split; [exact (cdiv_Ok_neq0 _ _ _ E2)|exact Hk].
Qed.

Definition bcomp_call (c : bcomp) (w : cball) : option cball :=
  cb_div (cb_mul (cb_sq (cb_sub cb_one (cb_sq w))) (bc_const c))
    (match bc_variant c with
     | VariantA => factors_A w (bc_w_meson c) (bc_inv c)
     | VariantB => factors_B w (bc_w_meson c)
     end).

Lemma enc_comp_call : forall b c a w, encK b c -> inC a w -> encl inC (bcomp_call b a) (Component_call c w).
Proof.
  intros b c a w [V [H1 [H2 [H3 H4]]]] Hw. unfold bcomp_call, Component_call, asymptotic_factor.
  rewrite cdiv_ok by exact H3. cbn [bind]. rewrite V.
  set (num := c_resonant_factor_numerator c) in *. set (den := c_asymptotic_factor_denominator c) in *.
  assert (Hn : inC (cb_mul (cb_sq (cb_sub cb_one (cb_sq a))) (bc_const b)) (Csq (1 - Csq w) * (Cdivt num den))%C)
    by (apply inC_mul; [auto with encl|exact H4]).
  destruct (c_variant c).
  - destruct (H2 eq_refl) as [N Hi]. unfold resonant_factor_A.
    rewrite cdiv_ok by exact N. cbn [bind].
    rewrite cdiv_ok by (rewrite Cconj_0_iff; exact N). cbn [bind]. rewrite Cdivt_conj_1.
    set (f := ((w - c_w_meson c) * (w - Cconj (c_w_meson c)) * (w - Cdivt 1 (c_w_meson c))
               * (w - Cconj (Cdivt 1 (c_w_meson c))))%C).
    assert (Hf : inC (factors_A a (bc_w_meson b) (bc_inv b)) f) by (unfold factors_A, f; auto 10 with encl).
    destruct (cb_div _ _) as [q|] eqn:F; [|exact I].
    destruct (inC_div _ _ _ _ _ F Hn Hf) as [E2 Hk]. pose proof (cdiv_Ok_neq0 _ _ _ E2) as N2.
    rewrite cdiv_ok by exact N2. cbn [bind]. apply encl_Ok.
    replace (Cdivt (Csq (1 - Csq w)) den * Cdivt num f)%C with (Cdivt (Csq (1 - Csq w) * Cdivt num den) f)%C
      by (field; auto). exact Hk.
  - unfold resonant_factor_B.
    set (f := ((w - c_w_meson c) * (w - Cconj (c_w_meson c)) * (w + c_w_meson c) * (w + Cconj (c_w_meson c)))%C).
    assert (Hf : inC (factors_B a (bc_w_meson b)) f) by (unfold factors_B, f; auto 10 with encl).
    destruct (cb_div _ _) as [q|] eqn:F; [|exact I].
    destruct (inC_div _ _ _ _ _ F Hn Hf) as [E2 Hk]. pose proof (cdiv_Ok_neq0 _ _ _ E2) as N2.
    rewrite cdiv_ok by exact N2. cbn [bind]. apply encl_Ok.
    replace (Cdivt (Csq (1 - Csq w)) den * Cdivt num f)%C with (Cdivt (Csq (1 - Csq w) * Cdivt num den) f)%C
      by (field; auto). exact Hk.
Qed.

Definition bpole (mass decay_rate : ball) : option cball :=
  h <o- cb_div (cb_mul cb_i (cb_real decay_rate)) (cb_real (b_int 2)) ;;
  Some (cb_sq (cb_sub (cb_real mass) h)).

Lemma enc_pole : forall a b m d p, inB a m -> inB b d -> bpole a b = Some p -> inC p (meson_pole m d).
Proof.
  intros a b m d p Ha Hb E. unfold bpole in E.
  destruct (cb_div (cb_mul cb_i (cb_real b)) (cb_real (b_int 2))) as [h|] eqn:F; [|discriminate].
  injection E as <-. unfold meson_pole.
  destruct (inC_div _ _ _ _ _ F (inC_mul _ _ _ _ inC_i (inC_real _ _ Hb)) (inC_real _ _ (in_int 2)))
    as [_ H]; auto with encl.
Qed.

(** The map and the image of zero are the same for all components of one sector; they are computed once. *)
Record bsector : Type := mkBSector { bs_map : bmap; bs_w_n : cball }.
Definition bsector_init (t_0 t_in : ball) : option bsector :=
  m <o- bmap_init t_0 t_in ;;
  w_n <o- bmap_call m (cb_real b_zero) ;;
  Some (mkBSector m w_n).
(** [pole_rule]: the real part of the pole decides (NucleonUAModel.py) or the squared mass (the other classes). *)
Definition bbuild (pole_rule : bool) (s : bsector) (mass decay_rate : ball) : option bcomp :=
  let m := bs_map s in
  p <o- bpole mass decay_rate ;;
  w_meson <o- bmap_call m p ;;
  let m2 := if pole_rule then bre p else b_mul mass mass in
  c <o- b_lt m2 (bm_t_0 m) ;; if c then None else
  c' <o- b_lt m2 (bm_t_in m) ;;
  if c' then bcomp_init VariantA (bs_w_n s) w_meson else bcomp_init VariantB (bs_w_n s) w_meson.

(** What a sector was computed from. *)
Definition encSec (s : bsector) (t_0 t_in : R) : Prop :=
  exists m w_n, MapFromTtoW_init t_0 t_in = Ok m /\ MapFromTtoW_call m (RtoC 0) = Ok w_n /\
    encM (bs_map s) m /\ inC (bs_w_n s) w_n.
Lemma enc_sector : forall a b t_0 t_in s, inB a t_0 -> inB b t_in -> bsector_init a b = Some s ->
  encSec s t_0 t_in.
Proof.
  intros a b t_0 t_in s Ha Hb E. unfold bsector_init in E.
  pose proof (enc_map_init _ _ _ _ Ha Hb) as K. destruct (bmap_init a b) as [bm|]; [|discriminate].
  destruct K as [m [K1 K2]]. cbn [obind] in E.
  pose proof (enc_map_call _ _ _ _ K2 inC_zero) as L. destruct (bmap_call bm (cb_real b_zero)) as [bw|]; [|discriminate].
  destruct L as [w [L1 L2]]. injection E as <-. exists m, w. now repeat (split; [assumption|]).
Qed.

Lemma MapFromTtoW_init_fields : forall t_0 t_in m, MapFromTtoW_init t_0 t_in = Ok m ->
  tw_t_0 m = t_0 /\ tw_t_in m = t_in.
Proof.
  intros t_0 t_in m H. unfold MapFromTtoW_init in H.
  apply bind_Ok_inv in H. destruct H as [u [_ H]]. apply bind_Ok_inv in H. destruct H as [a [_ H]].
  injection H as <-. now split.
Qed.

Lemma enc_build : forall rule s t_0 t_in a3 a4 x3 x4, encSec s t_0 t_in -> inB a3 x3 -> inB a4 x4 ->
  encl encK (bbuild rule s a3 a4)
    ((if rule then build_component_nucleon else build_component) t_0 t_in x3 x4).
Proof.
  intros rule s t_0 t_in a3 a4 x3 x4 [m [wn [E1 [E2 [Hm Hn]]]]] H3 H4. unfold bbuild.
  destruct (bpole a3 a4) as [p|] eqn:E; [|exact I]. cbn [obind].
  pose proof (enc_pole _ _ _ _ _ H3 H4 E) as Hp.
  destruct (MapFromTtoW_init_fields _ _ _ E1) as [F1 F2].
  pose proof Hm as [G1 [G2 _]]. rewrite F1 in G1. rewrite F2 in G2.
  destruct rule; [unfold build_component_nucleon|unfold build_component]; rewrite E1; cbn [bind]; rewrite E2; cbn [bind];
    (eapply encl_bind; [apply enc_map_call; eassumption|]); intros bw w Hw.
  - apply encl_if; [exact (proj1 Hp)|assumption|exact I|].
    apply encl_if; [exact (proj1 Hp)|assumption| |]; now apply enc_comp_init.
  - apply encl_if; [apply in_mul; assumption|assumption|exact I|].
    apply encl_if; [apply in_mul; assumption|assumption| |]; now apply enc_comp_init.
Qed.

(** ** Expressions (PyExpr.v), with rational literals *)

Inductive iexpr : Type :=
| INum (n : Z) (d : positive)
| IAttr (name : string) | ILoc (name : string) | IComp (name : string)
| IAdd (a b : iexpr) | ISub (a b : iexpr) | IMul (a b : iexpr) | IDiv (a b : iexpr) | ISq (a : iexpr).

Fixpoint to_expr (e : iexpr) : expr :=
  match e with
  | INum n d => ENum (match d with xH => IZR n | _ => IZR n / IZR (Zpos d) end)
  | IAttr n => EAttr n | ILoc n => ELoc n | IComp n => EComp n
  | IAdd a b => EAdd (to_expr a) (to_expr b)
  | ISub a b => ESub (to_expr a) (to_expr b)
  | IMul a b => EMul (to_expr a) (to_expr b)
  | IDiv a b => EDiv (to_expr a) (to_expr b)
  | ISq a => ESq (to_expr a)
  end.

Record bscope : Type := mkBScope {
  bs_attr : string -> option ball; bs_loc : string -> option cball; bs_comp : string -> option cball }.
Definition encS (b : bscope) (s : Scope) : Prop :=
  (forall n, encl inB (bs_attr b n) (sc_attr s n)) /\
  (forall n, encl inC (bs_loc b n) (sc_loc s n)) /\
  (forall n, encl inC (bs_comp b n) (sc_comp s n)).

Fixpoint bev (s : bscope) (e : iexpr) : option cball :=
  match e with
  | INum n d => Some (cb_real (b_rat n d))
  | IAttr n => a <o- bs_attr s n ;; Some (cb_real a)
  | ILoc n => bs_loc s n
  | IComp n => bs_comp s n
  | IAdd a b => x <o- bev s a ;; y <o- bev s b ;; Some (cb_add x y)
  | ISub a b => x <o- bev s a ;; y <o- bev s b ;; Some (cb_sub x y)
  | IMul a b => x <o- bev s a ;; y <o- bev s b ;; Some (cb_mul x y)
  | IDiv a b => x <o- bev s a ;; y <o- bev s b ;; cb_div x y
  | ISq a => x <o- bev s a ;; Some (cb_sq x)
  end.

Lemma in_literal : forall n d, inB (b_rat n d) (match d with xH => IZR n | _ => IZR n / IZR (Zpos d) end).
Proof.
  intros n d. pose proof (in_rat n d) as H. destruct d; try exact H.
  replace (IZR n) with (IZR n / 1) by field. exact H.
Qed.

Lemma enc_ev : forall b s, encS b s -> forall e, encl inC (bev b e) (ev s (to_expr e)).
Proof.
  intros b s [HA [HL HC]] e. induction e as [n d|n|n|n|e1 IH1 e2 IH2|e1 IH1 e2 IH2|e1 IH1 e2 IH2|e1 IH1 e2 IH2|e1 IH1];
    cbn [bev to_expr ev].
  - apply encl_Ok, inC_real, in_literal.
  - eapply encl_bind; [apply HA|]. intros a x H. apply encl_Ok. auto with encl.
  - apply HL.
  - apply HC.
  - eapply encl_bind; [exact IH1|]. intros a x H. eapply encl_bind; [exact IH2|]. intros a' y H'.
    apply encl_Ok. auto with encl.
  - eapply encl_bind; [exact IH1|]. intros a x H. eapply encl_bind; [exact IH2|]. intros a' y H'.
    apply encl_Ok. auto with encl.
  - eapply encl_bind; [exact IH1|]. intros a x H. eapply encl_bind; [exact IH2|]. intros a' y H'.
    apply encl_Ok. auto with encl.
  - eapply encl_bind; [exact IH1|]. intros a x H. eapply encl_bind; [exact IH2|]. intros a' y H'.
    now apply encl_div.
  - eapply encl_bind; [exact IH1|]. intros a x H. apply encl_Ok. auto with encl.
Qed.

(** The right-hand sides of [__init__]. *)
Fixpoint bev_real (args : env ball) (e : iexpr) : option ball :=
  match e with
  | INum n d => Some (b_rat n d)
  | ILoc n => lookup args n
  | IAttr n => None
  | IComp n => None
  | IAdd a b => x <o- bev_real args a ;; y <o- bev_real args b ;; Some (b_add x y)
  | ISub a b => x <o- bev_real args a ;; y <o- bev_real args b ;; Some (b_sub x y)
  | IMul a b => x <o- bev_real args a ;; y <o- bev_real args b ;; Some (b_mul x y)
  | IDiv a b => x <o- bev_real args a ;; y <o- bev_real args b ;; b_div x y
  | ISq a => x <o- bev_real args a ;; Some (b_mul x x)
  end.

Lemma enc_ev_real : forall be args, enc_env inB be args ->
  forall e, encl inB (bev_real be e) (ev_real args (to_expr e)).
Proof.
  intros be args HE e.
  induction e as [n d|n|n|n|e1 IH1 e2 IH2|e1 IH1 e2 IH2|e1 IH1 e2 IH2|e1 IH1 e2 IH2|e1 IH1];
    cbn [bev_real to_expr ev_real]; try exact I.
  - apply encl_Ok, in_literal.
  - pose proof (enc_lookup _ _ _ _ _ n HE) as K.
    destruct (lookup be n); [|exact I]. destruct (lookup args n); [|contradiction]. now apply encl_Ok.
  - eapply encl_bind; [exact IH1|]. intros a x H. eapply encl_bind; [exact IH2|]. intros a' y H'.
    apply encl_Ok. auto with encl.
  - eapply encl_bind; [exact IH1|]. intros a x H. eapply encl_bind; [exact IH2|]. intros a' y H'.
    apply encl_Ok. auto with encl.
  - eapply encl_bind; [exact IH1|]. intros a x H. eapply encl_bind; [exact IH2|]. intros a' y H'.
    apply encl_Ok. auto with encl.
  - eapply encl_bind; [exact IH1|]. intros a x H. eapply encl_bind; [exact IH2|]. intros a' y H'.
    now apply encl_rdiv.
  - eapply encl_bind; [exact IH1|]. intros a x H. apply encl_Ok. auto with encl.
Qed.

Definition to_assign (l : list (string * iexpr)) : list (string * expr) :=
  map (fun ne => (fst ne, to_expr (snd ne))) l.

Definition brun_assign (args : env ball) (l : list (string * iexpr)) : option (env ball) :=
  omapM (fun ne => v <o- bev_real args (snd ne) ;; Some (fst ne, v)) l.

Lemma enc_run_assign : forall be args l, enc_env inB be args ->
  encl (enc_env inB) (brun_assign be l) (run_assign args (to_assign l)).
Proof.
  intros be args l H. unfold brun_assign, run_assign, to_assign.
  induction l as [|[n e] l IH]; cbn [omapM mapM map fst snd].
  - apply encl_Ok. constructor.
  - eapply encl_bind.
    { eapply encl_bind; [exact (enc_ev_real _ _ H e)|]. intros b x Hb.
      apply (encl_Ok _ _ (fun p q => fst p = fst q /\ inB (snd p) (snd q)) (n, b) (n, x)). now split. }
    intros b x Hb. eapply encl_bind; [exact IH|]. intros bs xs Hbs. apply encl_Ok. now constructor.
Qed.

(** The component values an expression uses, computed once. *)
Fixpoint comp_names (e : iexpr) : list string :=
  match e with
  | INum _ _ | IAttr _ | ILoc _ => []
  | IComp n => [n]
  | IAdd a b | ISub a b | IMul a b | IDiv a b => (comp_names a ++ comp_names b)%list
  | ISq a => comp_names a
  end.

Definition comp_table (comps : env bcomp) (w : cball) (names : list string) : env (option cball) :=
  map (fun n => (n, c <o- lookup comps n ;; bcomp_call c w)) (nodup string_dec names).

Lemma enc_comp_table : forall bcs cs a w names n, enc_env encK bcs cs -> inC a w ->
  encl inC (match lookup (comp_table bcs a names) n with Some o => o | None => None end)
           (c <- attr cs n ;; Component_call c w).
Proof.
  intros bcs cs a w names n H Hw.
  destruct (lookup (comp_table bcs a names) n) as [o|] eqn:E; [|exact I].
  apply lookup_In in E. unfold comp_table in E. apply in_map_iff in E. destruct E as [k [E _]].
  injection E as -> <-. eapply encl_bind; [apply enc_attr; exact H|]. intros b c Hc. now apply enc_comp_call.
Qed.

(** ** The kaon models (UAModels.v) *)

Record bkaon_class : Type := mkBKaonClass {
  bk_formals : list string; bk_assign : list (string * iexpr);
  bk_isoscalar : list string; bk_isovector : list string;
  bk_isoscalar_expr : iexpr; bk_isovector_expr : iexpr }.
Definition to_kaon_class (c : bkaon_class) : KaonClass :=
  mkKaonClass (bk_formals c) (to_assign (bk_assign c)) (bk_isoscalar c) (bk_isovector c)
    (to_expr (bk_isoscalar_expr c)) (to_expr (bk_isovector_expr c)).

Record bkaon : Type := mkBKaon {
  bk_class : bkaon_class; bk_charged : bool; bk_attrs : env ball;
  bk_map_s : bmap; bk_map_v : bmap; bk_comps : env bcomp }.
Definition encKaon (b : bkaon) (m : KaonModel) : Prop :=
  to_kaon_class (bk_class b) = km_class m /\ bk_charged b = km_charged_variant m /\
  enc_env inB (bk_attrs b) (km_attrs m) /\ encM (bk_map_s b) (km_t_to_W_isoscalar m) /\
  encM (bk_map_v b) (km_t_to_W_isovector m) /\ enc_env encK (bk_comps b) (km_components m).

Definition binit_components (attrs : env ball) (s : bsector) (names : list string) : option (env bcomp) :=
  omapM (fun name =>
    mass <o- lookup attrs ("mass_" ++ name) ;;
    decay_rate <o- lookup attrs ("decay_rate_" ++ name) ;;
    c <o- bbuild false s mass decay_rate ;;
    Some ("_component_" ++ name, c)) names.

Lemma enc_init_components : forall be e s t_0 t_in names, enc_env inB be e -> encSec s t_0 t_in ->
  encl (enc_env encK) (binit_components be s names) (init_components e t_0 t_in names).
Proof.
  intros be e s t_0 t_in names H Hs. unfold binit_components, init_components.
  apply encl_mapM. intro x.
  eapply encl_bind; [apply enc_attr; exact H|]. intros bm m Hm.
  eapply encl_bind; [apply enc_attr; exact H|]. intros bd d Hd.
  eapply encl_bind; [apply (enc_build false); eassumption|]. intros bc c Hc.
  apply encl_Ok. now split.
Qed.

Definition bkaon_init (cls : bkaon_class) (charged : bool) (kw : env ball) : option bkaon :=
  args <o- okR (bind_kwargs (bk_formals cls) kw) ;;
  attrs <o- brun_assign args (bk_assign cls) ;;
  t_0_s <o- lookup attrs "t_0_isoscalar" ;;
  t_in_s <o- lookup attrs "t_in_isoscalar" ;;
  ss <o- bsector_init t_0_s t_in_s ;;
  t_0_v <o- lookup attrs "t_0_isovector" ;;
  t_in_v <o- lookup attrs "t_in_isovector" ;;
  sv <o- bsector_init t_0_v t_in_v ;;
  cs <o- binit_components attrs ss (bk_isoscalar cls) ;;
  cv <o- binit_components attrs sv (bk_isovector cls) ;;
  Some (mkBKaon cls charged attrs (bs_map ss) (bs_map sv) (cs ++ cv)%list).

Lemma enc_app : forall A B (P : B -> A -> Prop) be e be' e', enc_env P be e -> enc_env P be' e' ->
  enc_env P (be ++ be')%list (e ++ e')%list.
Proof. intros. now apply Forall2_app. Qed.

Lemma enc_kaon_init : forall cls charged be kw, enc_env inB be kw ->
  encl encKaon (bkaon_init cls charged be) (Kaon_init (to_kaon_class cls) charged kw).
Proof.
  intros cls charged be kw H. unfold bkaon_init, Kaon_init.
  eapply encl_bind; [apply enc_bind_kwargs; exact H|]. intros bargs args Hargs.
  eapply encl_bind; [apply enc_run_assign; exact Hargs|]. intros battrs attrs Hattrs.
  eapply encl_bind; [apply enc_attr; exact Hattrs|]. intros b0s t0s H0s.
  eapply encl_bind; [apply enc_attr; exact Hattrs|]. intros bis tis His.
  destruct (bsector_init b0s bis) as [ss|] eqn:Es; [|exact I]. cbn [obind].
  pose proof (enc_sector _ _ _ _ _ H0s His Es) as Ss. pose proof Ss as [ms [ws [Ems [_ [Hms _]]]]].
  rewrite Ems. cbn [bind].
  eapply encl_bind; [apply enc_attr; exact Hattrs|]. intros b0v t0v H0v.
  eapply encl_bind; [apply enc_attr; exact Hattrs|]. intros biv tiv Hiv.
  destruct (bsector_init b0v biv) as [sv|] eqn:Ev; [|exact I]. cbn [obind].
  pose proof (enc_sector _ _ _ _ _ H0v Hiv Ev) as Sv. pose proof Sv as [mv [wv [Emv [_ [Hmv _]]]]].
  rewrite Emv. cbn [bind].
  eapply encl_bind; [apply enc_init_components; eassumption|]. intros bcs cs Hcs.
  eapply encl_bind; [apply enc_init_components; eassumption|]. intros bcv cv Hcv.
  apply encl_Ok. split; [reflexivity|]. split; [reflexivity|]. split; [exact Hattrs|].
  split; [exact Hms|]. split; [exact Hmv|]. now apply enc_app.
Qed.

Definition bkaon_part (m : bkaon) (mp : bmap) (e : iexpr) (t : cball) : option cball :=
  w <o- bmap_call mp t ;;
  let table := comp_table (bk_comps m) w (comp_names e) in
  bev (mkBScope (lookup (bk_attrs m)) (fun _ => None)
         (fun n => match lookup table n with Some o => o | None => None end)) e.

Definition bkaon_call (m : bkaon) (t : cball) : option cball :=
  c <o- b_lt (bre t) b_zero ;; if c then None else
  s <o- bkaon_part m (bk_map_s m) (bk_isoscalar_expr (bk_class m)) t ;;
  v <o- bkaon_part m (bk_map_v m) (bk_isovector_expr (bk_class m)) t ;;
  Some (if bk_charged m then cb_add s v else cb_sub s v).

Lemma enc_kaon_part : forall b m bmp mp e a t, encKaon b m -> encM bmp mp -> inC a t ->
  encl inC (bkaon_part b bmp e a) (w <- MapFromTtoW_call mp t ;; ev (kaon_scope m w) (to_expr e)).
Proof.
  intros b m bmp mp e a t [_ [_ [HA [_ [_ HC]]]]] Hm Ht. unfold bkaon_part.
  eapply encl_bind; [apply enc_map_call; eassumption|]. intros bw w Hw. apply enc_ev.
  split; [|split]; intro n; cbn [bs_attr bs_loc bs_comp sc_attr sc_loc sc_comp kaon_scope].
  - now apply enc_attr.
  - exact I.
  - now apply enc_comp_table.
Qed.

Lemma enc_kaon_call : forall b m a t, encKaon b m -> inC a t -> encl inC (bkaon_call b a) (Kaon_call m t).
Proof.
  intros b m a t H Ht. pose proof H as [E1 [E2 [HA [Hs [Hv HC]]]]].
  unfold bkaon_call, Kaon_call, Kaon_isoscalar, Kaon_isovector. rewrite <- E1, <- E2.
  cbn [to_kaon_class kc_isoscalar_expr kc_isovector_expr].
  apply encl_if; [exact (proj1 Ht)|exact in_zero|exact I|].
  eapply encl_bind; [apply enc_kaon_part; eassumption|]. intros bs s HS.
  eapply encl_bind; [apply enc_kaon_part; eassumption|]. intros bv v HV.
  destruct (bk_charged b); apply encl_Ok; auto with encl.
Qed.

(** ** The nucleon models (Nucleon.v, evaluated without cache: NucleonCache.v) *)

Inductive ilocal : Type :=
| ILMass (x : string) (scalar dirac : bool) (resonance : string)
| ILExpr (x : string) (e : iexpr).
Definition to_local (l : ilocal) : local_def :=
  match l with ILMass x s d r => LMass x s d r | ILExpr x e => LExpr x (to_expr e) end.

Record bnuc_class : Type := mkBNucClass {
  bn_formals : list string; bn_assign : list (string * iexpr);
  bn_isoscalar : list string; bn_isovector : list string;
  bn_pole_rule : bool;       (* true: the real part of the pole decides; false: the squared mass *)
  bn_ds_locals : list ilocal; bn_ds_expr : iexpr;
  bn_dv_locals : list ilocal; bn_dv_expr : iexpr;
  bn_ps_locals : list ilocal; bn_ps_expr : iexpr;
  bn_pv_locals : list ilocal; bn_pv_expr : iexpr }.
Definition to_nuc_class (c : bnuc_class) : NucleonClass :=
  mkNucleonClass (bn_formals c) (to_assign (bn_assign c)) (bn_isoscalar c) (bn_isovector c)
    (if bn_pole_rule c then build_component_nucleon else build_component)
    (map to_local (bn_ds_locals c)) (to_expr (bn_ds_expr c))
    (map to_local (bn_dv_locals c)) (to_expr (bn_dv_expr c))
    (map to_local (bn_ps_locals c)) (to_expr (bn_ps_expr c))
    (map to_local (bn_pv_locals c)) (to_expr (bn_pv_expr c)).

(** The four sectors; [bn_masses] holds the mass terms, computed once. *)
Record bnuc : Type := mkBNuc {
  bn_class : bnuc_class; bn_proton : bool; bn_electric : bool; bn_attrs : env ball;
  bn_ds : bmap; bn_dv : bmap; bn_ps : bmap; bn_pv : bmap; bn_comps : env bcomp;
  bn_masses : env (option cball) }.
Definition encNuc (b : bnuc) (m : NucleonModel) : Prop :=
  to_nuc_class (bn_class b) = nm_class m /\ bn_proton b = nm_proton m /\ bn_electric b = nm_electric m /\
  enc_env inB (bn_attrs b) (nm_attrs m) /\
  encM (bn_ds b) (nm_t_to_W_dirac_isoscalar m) /\ encM (bn_dv b) (nm_t_to_W_dirac_isovector m) /\
  encM (bn_ps b) (nm_t_to_W_pauli_isoscalar m) /\ encM (bn_pv b) (nm_t_to_W_pauli_isovector m) /\
  enc_env encK (bn_comps b) (nm_components m) /\
  (forall s d r o, lookup (bn_masses b) (build_cache_key s d r) = Some o ->
     encl inC o (calculate_mass_term m s d r)).

Definition bnuc_components (cls : bnuc_class) (attrs : env ball) (s : bsector) (name : string) (names : list string)
  : option (env bcomp) :=
  omapM (fun r =>
    mass <o- lookup attrs ("mass_" ++ r) ;;
    decay_rate <o- lookup attrs ("decay_rate_" ++ r) ;;
    c <o- bbuild (bn_pole_rule cls) s mass decay_rate ;;
    Some ("_" ++ name ++ "_component_" ++ r, c)) names.

Definition bnuc_sector (attrs : env ball) (x : string) : option bsector :=
  t_0 <o- lookup attrs ("t_0_" ++ x) ;;
  t_in <o- lookup attrs ("t_in_" ++ x) ;;
  bsector_init t_0 t_in.

(** Mass terms. *)
Definition bmass_term (attrs : env ball) (sec : bsector) (r : string) : option cball :=
  let mp := bs_map sec in
  mass <o- lookup attrs ("mass_" ++ r) ;;
  decay_rate <o- lookup attrs ("decay_rate_" ++ r) ;;
  let pole2 := cb_sq (cb_sub (cb_real mass) (cb_mul (mkCB b_zero (b_rat 1 2)) (cb_real decay_rate))) in
  w_r <o- bmap_call mp pole2 ;;
  let w_n := bs_w_n sec in
  i1 <o- cb_div cb_one w_r ;;
  let den := cb_real (b_opp (cb_norm2 (cb_sub w_r i1))) in
  c <o- b_lt (bre pole2) (bm_t_in mp) ;;
  if c then cb_div (factors_A w_n w_r i1) den else cb_div (factors_B w_n w_r) den.

Definition sector_masses (attrs : env ball) (sec : bsector) (s d : bool) (l : list ilocal) : env (option cball) :=
  flat_map (fun x => match x with
                     | ILMass _ s' d' r =>
                       if Bool.eqb s s' && Bool.eqb d d'
                       then [(build_cache_key s d r, bmass_term attrs sec r)] else []
                     | ILExpr _ _ => []
                     end) l.

Definition bnuc_init (cls : bnuc_class) (proton electric : bool) (kw : env ball) : option bnuc :=
  args <o- okR (bind_kwargs (bn_formals cls) kw) ;;
  attrs <o- brun_assign args (bn_assign cls) ;;
  mds <o- bnuc_sector attrs "dirac_isoscalar" ;;
  mdv <o- bnuc_sector attrs "dirac_isovector" ;;
  mps <o- bnuc_sector attrs "pauli_isoscalar" ;;
  mpv <o- bnuc_sector attrs "pauli_isovector" ;;
  cds <o- bnuc_components cls attrs mds "dirac" (bn_isoscalar cls) ;;
  cdv <o- bnuc_components cls attrs mdv "dirac" (bn_isovector cls) ;;
  cps <o- bnuc_components cls attrs mps "pauli" (bn_isoscalar cls) ;;
  cpv <o- bnuc_components cls attrs mpv "pauli" (bn_isovector cls) ;;
  Some (mkBNuc cls proton electric attrs (bs_map mds) (bs_map mdv) (bs_map mps) (bs_map mpv)
          (cds ++ cdv ++ cps ++ cpv)%list
          (sector_masses attrs mds true true (bn_ds_locals cls) ++
           sector_masses attrs mdv false true (bn_dv_locals cls) ++
           sector_masses attrs mps true false (bn_ps_locals cls) ++
           sector_masses attrs mpv false false (bn_pv_locals cls))%list).

Lemma enc_nuc_sector : forall be e x s, enc_env inB be e -> bnuc_sector be x = Some s ->
  exists t_0 t_in, attr e ("t_0_" ++ x) = Ok t_0 /\ attr e ("t_in_" ++ x) = Ok t_in /\ encSec s t_0 t_in /\
    exists m, nucleon_map e x = Ok m /\ encM (bs_map s) m /\
    exists w_n, MapFromTtoW_call m (RtoC 0) = Ok w_n /\ inC (bs_w_n s) w_n.
Proof.
  intros be e x s H E. unfold bnuc_sector in E.
  pose proof (enc_attr _ _ _ _ _ ("t_0_" ++ x) H) as A0. destruct (lookup be ("t_0_" ++ x)) as [b0|]; [|discriminate].
  pose proof (enc_attr _ _ _ _ _ ("t_in_" ++ x) H) as A1. cbn [obind] in E.
  destruct (lookup be ("t_in_" ++ x)) as [b1|]; [|discriminate]. cbn [obind] in E.
  destruct A0 as [t_0 [A0 H0]]. destruct A1 as [t_in [A1 H1]]. exists t_0, t_in.
  split; [exact A0|]. split; [exact A1|]. pose proof (enc_sector _ _ _ _ _ H0 H1 E) as S. split; [exact S|].
  destruct S as [m [w [S1 [S2 [S3 S4]]]]]. exists m. unfold nucleon_map. rewrite A0, A1. cbn [bind].
  split; [exact S1|]. split; [exact S3|]. exists w. now split.
Qed.

Lemma enc_nuc_components : forall cls be e s name suffix names t_0 t_in, enc_env inB be e -> encSec s t_0 t_in ->
  attr e ("t_0_" ++ name ++ "_" ++ suffix) = Ok t_0 -> attr e ("t_in_" ++ name ++ "_" ++ suffix) = Ok t_in ->
  encl (enc_env encK) (bnuc_components cls be s name names)
    (nucleon_init_components (to_nuc_class cls) e name suffix names).
Proof.
  intros cls be e s name suffix names t_0 t_in H Hs E0 E1. unfold bnuc_components, nucleon_init_components.
  apply encl_mapM. intro x.
  eapply encl_bind; [apply enc_attr; exact H|]. intros bm m Hm.
  eapply encl_bind; [apply enc_attr; exact H|]. intros bd d Hd.
  rewrite E0, E1. cbn [bind to_nuc_class nc_build].
  eapply encl_bind; [apply (enc_build (bn_pole_rule cls)); eassumption|]. intros bc c Hc.
  apply encl_Ok. now split.
Qed.

Definition sector_map (m : NucleonModel) (s d : bool) : MapTW :=
  match s, d with
  | true, true => nm_t_to_W_dirac_isoscalar m | true, false => nm_t_to_W_pauli_isoscalar m
  | false, true => nm_t_to_W_dirac_isovector m | false, false => nm_t_to_W_pauli_isovector m
  end.

Lemma enc_mass_term : forall be sec m s d r w_n, enc_env inB be (nm_attrs m) ->
  encM (bs_map sec) (sector_map m s d) -> MapFromTtoW_call (sector_map m s d) (RtoC 0) = Ok w_n ->
  inC (bs_w_n sec) w_n ->
  encl inC (bmass_term be sec r) (calculate_mass_term m s d r).
Proof.
  intros be sec m s d r n HA HM En Hn. unfold bmass_term, calculate_mass_term.
  fold (sector_map m s d). set (mp := sector_map m s d) in *. clearbody mp.
  eapply encl_bind; [apply enc_attr; exact HA|]. intros bm x Hx.
  eapply encl_bind; [apply enc_attr; exact HA|]. intros bd y Hy.
  set (bp := cb_sq (cb_sub (cb_real bm) (cb_mul {| bre := b_zero; bim := b_rat 1 2 |} (cb_real bd)))).
  set (p := Csq (x - mkC 0 (1 / 2) * y)%C).
  assert (Hp : inC bp p).
  { apply inC_sq, inC_sub; [auto with encl|]. apply inC_mul; [|auto with encl].
    split; [exact in_zero|exact (in_rat 1 2)]. }
  clearbody bp p.
  eapply encl_bind; [apply enc_map_call; eassumption|]. intros bw w Hw.
  rewrite En. cbn [bind].
  destruct (cb_div cb_one bw) as [i|] eqn:E; [|exact I]. cbn [obind].
  destruct (inC_div _ _ _ _ _ E inC_one Hw) as [EO Hi]. pose proof (cdiv_Ok_neq0 _ _ _ EO) as N.
  assert (Hden : inC (cb_real (b_opp (cb_norm2 (cb_sub bw i))))
                     (RtoC (- (Cabs (w - Cdivt 1 w)%C * Cabs (w - Cdivt 1 w)%C)))).
  { rewrite Cabs_sq. apply inC_real, in_opp, in_norm2. auto with encl. }
  apply encl_if; [exact (proj1 Hp)|exact (proj1 (proj2 HM))| |].
  - unfold calculate_mass_term_a, factors_A. rewrite EO. cbn [bind].
    rewrite cdiv_ok by (rewrite Cconj_0_iff; exact N). cbn [bind]. rewrite Cdivt_conj_1.
    apply encl_div; [auto 10 with encl|exact Hden].
  - unfold calculate_mass_term_b, factors_B. rewrite EO. cbn [bind].
    apply encl_div; [auto 10 with encl|exact Hden].
Qed.

Lemma in_sector_masses : forall attrs sec s d l k o, In (k, o) (sector_masses attrs sec s d l) ->
  exists r, k = build_cache_key s d r /\ o = bmass_term attrs sec r.
Proof.
  intros attrs sec s d l k o H. unfold sector_masses in H. apply in_flat_map in H. destruct H as [x [_ H]].
  destruct x as [y s' d' r|]; [|contradiction]. destruct (_ && _)%bool; [|contradiction].
  destruct H as [H|[]]. injection H as <- <-. now exists r.
Qed.

Lemma enc_nuc_init : forall cls proton electric be kw, enc_env inB be kw ->
  encl (fun b mc => encNuc b (fst mc) /\ snd mc = []) (bnuc_init cls proton electric be)
    (Nucleon_init (to_nuc_class cls) proton electric kw).
Proof.
  intros cls proton electric be kw H. unfold bnuc_init, Nucleon_init.
  eapply encl_bind; [apply enc_bind_kwargs; exact H|]. intros bargs args Hargs.
  eapply encl_bind; [apply enc_run_assign; exact Hargs|]. intros battrs attrs Hattrs.
  destruct (bnuc_sector battrs "dirac_isoscalar") as [s1|] eqn:B1; [|exact I]. cbn [obind].
  destruct (enc_nuc_sector _ _ _ _ Hattrs B1) as [t01 [ti1 [A1 [A1' [S1 [m1 [N1 [M1 [w1 [W1 I1]]]]]]]]]].
  rewrite N1. cbn [bind].
  destruct (bnuc_sector battrs "dirac_isovector") as [s2|] eqn:B2; [|exact I]. cbn [obind].
  destruct (enc_nuc_sector _ _ _ _ Hattrs B2) as [t02 [ti2 [A2 [A2' [S2 [m2 [N2 [M2 [w2 [W2 I2]]]]]]]]]].
  rewrite N2. cbn [bind].
  destruct (bnuc_sector battrs "pauli_isoscalar") as [s3|] eqn:B3; [|exact I]. cbn [obind].
  destruct (enc_nuc_sector _ _ _ _ Hattrs B3) as [t03 [ti3 [A3 [A3' [S3 [m3 [N3 [M3 [w3 [W3 I3]]]]]]]]]].
  rewrite N3. cbn [bind].
  destruct (bnuc_sector battrs "pauli_isovector") as [s4|] eqn:B4; [|exact I]. cbn [obind].
  destruct (enc_nuc_sector _ _ _ _ Hattrs B4) as [t04 [ti4 [A4 [A4' [S4 [m4 [N4 [M4 [w4 [W4 I4]]]]]]]]]].
  rewrite N4. cbn [bind].
  eapply encl_bind; [exact (enc_nuc_components _ _ _ _ "dirac" "isoscalar" _ _ _ Hattrs S1 A1 A1')|]. intros c1 d1 G1.
  eapply encl_bind; [exact (enc_nuc_components _ _ _ _ "dirac" "isovector" _ _ _ Hattrs S2 A2 A2')|]. intros c2 d2 G2.
  eapply encl_bind; [exact (enc_nuc_components _ _ _ _ "pauli" "isoscalar" _ _ _ Hattrs S3 A3 A3')|]. intros c3 d3 G3.
  eapply encl_bind; [exact (enc_nuc_components _ _ _ _ "pauli" "isovector" _ _ _ Hattrs S4 A4 A4')|]. intros c4 d4 G4.
  apply encl_Ok. split; [|reflexivity]. cbn [fst].
  split; [reflexivity|]. split; [reflexivity|]. split; [reflexivity|]. split; [exact Hattrs|].
  split; [exact M1|]. split; [exact M2|]. split; [exact M3|]. split; [exact M4|].
  split; [now repeat apply enc_app|].
  cbn [bn_masses]. intros s d r o L. apply lookup_In in L.
  repeat (apply in_app_or in L; destruct L as [L|L]);
    apply in_sector_masses in L; destruct L as [r' [E ->]]; apply build_cache_key_inj in E;
    destruct E as [-> [-> ->]].
  - apply (enc_mass_term _ _ _ true true _ w1); assumption.
  - apply (enc_mass_term _ _ _ false true _ w2); assumption.
  - apply (enc_mass_term _ _ _ true false _ w3); assumption.
  - apply (enc_mass_term _ _ _ false false _ w4); assumption.
Qed.

Definition bnuc_scope (m : bnuc) (w : cball) (locals : env cball) (names : list string) : bscope :=
  let table := comp_table (bn_comps m) w names in
  mkBScope (lookup (bn_attrs m)) (lookup locals)
    (fun n => match lookup table n with Some o => o | None => None end).

Lemma enc_nuc_scope : forall b m a w bl l names, encNuc b m -> inC a w -> enc_env inC bl l ->
  encS (bnuc_scope b a bl names) (nucleon_scope m w l).
Proof.
  intros b m a w bl l names [_ [_ [_ [HA [_ [_ [_ [_ [HC _]]]]]]]]] Hw HL.
  split; [|split]; intro n; cbn [bs_attr bs_loc bs_comp sc_attr sc_loc sc_comp nucleon_scope bnuc_scope].
  - now apply enc_attr.
  - pose proof (enc_lookup _ _ _ _ _ n HL) as K.
    destruct (lookup bl n); [|exact I]. destruct (lookup l n); [|contradiction]. now apply encl_Ok.
  - now apply enc_comp_table.
Qed.

Definition bmass (m : bnuc) (s d : bool) (r : string) : option cball :=
  match lookup (bn_masses m) (build_cache_key s d r) with Some o => o | None => None end.

Fixpoint blocals (m : bnuc) (w : cball) (l : list ilocal) (locals : env cball) : option (env cball) :=
  match l with
  | [] => Some locals
  | ILMass x s d r :: l' => v <o- bmass m s d r ;; blocals m w l' ((x, v) :: locals)
  | ILExpr x e :: l' => v <o- bev (bnuc_scope m w locals (comp_names e)) e ;; blocals m w l' ((x, v) :: locals)
  end.

Lemma enc_locals : forall b m a w l bl ls, encNuc b m -> inC a w -> enc_env inC bl ls ->
  encl (enc_env inC) (blocals b a l bl) (locals_pure m w (map to_local l) ls).
Proof.
  intros b m a w l. induction l as [|[x s d r|x e] l IH]; intros bl ls H Hw HL; cbn [blocals map to_local locals_pure].
  - now apply encl_Ok.
  - apply encl_bind with (P := inC).
    { unfold bmass. destruct (lookup (bn_masses b) _) as [o|] eqn:E; [|exact I].
      destruct H as [_ [_ [_ [_ [_ [_ [_ [_ [_ HM]]]]]]]]]. exact (HM _ _ _ _ E). }
    intros v y Hv. apply IH; try assumption.
    constructor; [now split|exact HL].
  - eapply encl_bind; [apply enc_ev, enc_nuc_scope; eassumption|]. intros v y Hv. apply IH; try assumption.
    constructor; [now split|exact HL].
Qed.

Definition bcontribution (m : bnuc) (mp : bmap) (l : list ilocal) (e : iexpr) (t : cball) : option cball :=
  w <o- bmap_call mp t ;;
  ls <o- blocals m w l [] ;;
  bev (bnuc_scope m w ls (comp_names e)) e.

Lemma enc_contribution : forall b m bmp mp l e a t, encNuc b m -> encM bmp mp -> inC a t ->
  encl inC (bcontribution b bmp l e a) (contribution_pure m mp (map to_local l) (to_expr e) t).
Proof.
  intros b m bmp mp l e a t H Hm Ht. unfold bcontribution, contribution_pure.
  eapply encl_bind; [apply enc_map_call; eassumption|]. intros bw w Hw.
  eapply encl_bind; [apply enc_locals; [exact H|exact Hw|constructor]|]. intros bl ls HL.
  apply enc_ev. now apply enc_nuc_scope.
Qed.

Definition bcombine (m : bnuc) (t ds dv ps pv : cball) : option cball :=
  let d := if bn_proton m then cb_add ds dv else cb_sub ds dv in
  let p := if bn_proton m then cb_add ps pv else cb_sub ps pv in
  if bn_electric m then
    mass <o- lookup (bn_attrs m) "nucleon_mass" ;;
    q <o- cb_div t (cb_real (b_mul (b_int 4) (b_mul mass mass))) ;;
    Some (cb_add d (cb_mul q p))
  else Some (cb_add d p).

Lemma enc_combine : forall b m a t b1 b2 b3 b4 ds dv ps pv, encNuc b m -> inC a t ->
  inC b1 ds -> inC b2 dv -> inC b3 ps -> inC b4 pv ->
  encl inC (bcombine b a b1 b2 b3 b4) (combine_contributions m t ds dv ps pv).
Proof.
  intros b m a t b1 b2 b3 b4 ds dv ps pv [_ [E1 [E2 [HA _]]]] Ht H1 H2 H3 H4.
  unfold bcombine, combine_contributions. rewrite E1, E2.
  assert (D : inC (if nm_proton m then cb_add b1 b2 else cb_sub b1 b2)
                  (if nm_proton m then (ds + dv)%C else (ds - dv)%C))
    by (destruct (nm_proton m); auto with encl).
  assert (P : inC (if nm_proton m then cb_add b3 b4 else cb_sub b3 b4)
                  (if nm_proton m then (ps + pv)%C else (ps - pv)%C))
    by (destruct (nm_proton m); auto with encl).
  destruct (nm_electric m).
  - eapply encl_bind; [apply enc_attr; exact HA|]. intros bm x Hx.
    eapply encl_bind; [apply encl_div; [exact Ht|auto with encl]|]. intros q y Hq.
    apply encl_Ok. auto with encl.
  - apply encl_Ok. auto with encl.
Qed.

Definition bnuc_call (m : bnuc) (t : cball) : option cball :=
  c <o- b_lt (bre t) b_zero ;; if c then None else
  let cls := bn_class m in
  ds <o- bcontribution m (bn_ds m) (bn_ds_locals cls) (bn_ds_expr cls) t ;;
  dv <o- bcontribution m (bn_dv m) (bn_dv_locals cls) (bn_dv_expr cls) t ;;
  ps <o- bcontribution m (bn_ps m) (bn_ps_locals cls) (bn_ps_expr cls) t ;;
  pv <o- bcontribution m (bn_pv m) (bn_pv_locals cls) (bn_pv_expr cls) t ;;
  bcombine m t ds dv ps pv.

Lemma enc_nuc_call : forall b m a t, encNuc b m -> inC a t -> encl inC (bnuc_call b a) (call_pure m t).
Proof.
  intros b m a t H Ht. pose proof H as [E [_ [_ [_ [H1 [H2 [H3 [H4 _]]]]]]]].
  unfold bnuc_call, call_pure, dirac_isoscalar_pure, dirac_isovector_pure, pauli_isoscalar_pure,
    pauli_isovector_pure. rewrite <- E.
  apply encl_if; [exact (proj1 Ht)|exact in_zero|exact I|].
  eapply encl_bind; [apply enc_contribution; eassumption|]. intros b1 v1 G1.
  eapply encl_bind; [apply enc_contribution; eassumption|]. intros b2 v2 G2.
  eapply encl_bind; [apply enc_contribution; eassumption|]. intros b3 v3 G3.
  eapply encl_bind; [apply enc_contribution; eassumption|]. intros b4 v4 G4.
  now apply enc_combine.
Qed.
