(** C69, for the model with one component (SingleComponentModel.py). *)
From Coq Require Import String Reals Bool Arith List Lra Lia Permutation.
From Verif Require Import PyBase CNum UAMaps UAComponents PyExpr UAModels Nucleon
  MapProofs ComponentProofs ExprProofs KaonProofs SectorProofs KaonSpec PropsKaon NucleonCache NucleonProofs NucleonView NucleonSpec PropsNucleon2
  Analytic AnalyticModels PropsAmbiguity Masses PropsMasses Limits PropsBranchPoints.
Import ListNotations.
Local Open Scope R_scope.
Local Open Scope py_scope.
Local Open Scope string_scope.
Local Open Scope list_scope.

#[local] Arguments String.append : simpl never.

(** ** The model with one component *)

(** The five arguments of the model with one component: branch points, coupling, mass and width. *)
Record arguments := mkArguments { g_t_0 : R; g_t_in : R; g_a : R; g_m : R; g_g : R }.
Definition single (x : arguments) : Res SingleModel := SingleComponentModel_init (g_t_0 x) (g_t_in x) (g_a x) (g_m x) (g_g x).
Definition alike (d : R) (x y : arguments) : Prop :=
  Rabs (g_t_0 y - g_t_0 x) < d /\ Rabs (g_t_in y - g_t_in x) < d /\ Rabs (g_a y - g_a x) < d /\ Rabs (g_m y - g_m x) < d /\ Rabs (g_g y - g_g x) < d.

Theorem C69_single : forall x s t v, single x = Ok s -> SingleComponentModel_call s t = Ok v -> g_m x * g_m x <> g_t_in x ->
  forall eps, 0 < eps -> exists d, 0 < d /\
    forall y s', alike d x y -> single y = Ok s' -> exists v', SingleComponentModel_call s' t = Ok v' /\ Cabs (Csub v' v) < eps.
Proof.
  intros x s t v I E T eps EP. unfold single in I. assert (V0 := Single_valid _ _ _ _ _ _ I). rewrite (Single_view _ _ _ _ _ _ _ I) in E. destruct (Rlt_dec (Re t) 0) as [|RT]; [discriminate|].
  assert (Hlt : g_t_0 x < g_t_in x) by (apply (sector_nondegenerate _ _ _ t v V0); [discriminate|exact E]).
  set (B := fun d y => alike d x y /\ is_ok (single y)).
  assert (M : forall d e y, d <= e -> B d y -> B e y) by (intros d e y L ((A1 & A2 & A3 & A4 & A5) & R); split; [repeat split; lra|exact R]).
  assert (LP : rlim B g_t_0 (g_t_0 x) /\ rlim B g_t_in (g_t_in x) /\ rlim B g_a (g_a x) /\ rlim B g_m (g_m x) /\ rlim B g_g (g_g x)).
  { repeat split; intros e P; exists e; (split; [exact P|]); intros y ((A1 & A2 & A3 & A4 & A5) & _); assumption. }
  destruct LP as (L0 & Lin & La & Lm & Lg). destruct V0 as ((H0 & _) & F).
  destruct (sector_eval_cases _ _ H0 Hlt _ t F) as [(_ & Q)|(NT & NP & Q)]; [congruence|]. rewrite E in Q. injection Q as EV.
  assert (ONE : forall b0 bin a m g, b0 < bin -> Forall (fun r => accepted b0 bin (r_m r) (r_g r)) [(a, m, g)] ->
    sec_val b0 bin [(a, m, g)] t = Cmul (RtoC a) (KS b0 bin (variant_of (m * m) bin) (corner m g) t)).
  { intros b0 bin a m g L A. rewrite (sec_SV b0 bin L) by exact A. unfold SV, csum. cbn [map combine fold_right fst snd]. unfold r_a, r_m, r_g. cbn [fst snd]. Cext; ring. }
  rewrite ONE in EV by assumption. assert (Ac := Forall_inv F). unfold r_m, r_g in Ac. cbn [fst snd] in Ac.
  assert (NPm := Forall_inv NP). unfold r_m, r_g in NPm. cbn [fst snd] in NPm. assert (NPc := NPm). rewrite corner_at_pole in NPc.
  assert (LC : lim B (fun y => corner (g_m y) (g_g y)) (corner (g_m x) (g_g x))) by (now apply corner_lim).
  assert (LS : lim B (fun y => Cmul (RtoC (g_a y)) (KS (g_t_0 y) (g_t_in y) (variant_of (g_m x * g_m x) (g_t_in x)) (corner (g_m y) (g_g y)) t)) v).
  { rewrite EV. apply (lim_mul B M); [now apply rlim_lim|].
    apply (component_lim B M g_t_0 g_t_in (g_t_0 x) (g_t_in x) H0 Hlt L0 Lin); [exact LC|apply corner_in|apply soon_all; intros y; apply corner_in| |exact NT|tauto|tauto].
    apply (corner_good _ _ H0 Hlt). exact Ac. }
  assert (S1 : soon B (fun y => variant_of (g_m y * g_m y) (g_t_in y) = variant_of (g_m x * g_m x) (g_t_in x))).
  { apply (variant_soon B M g_t_in (g_t_in x) Lin (fun y => g_m y * g_m y)); [now apply (rlim_mul B M)|exact T]. }
  assert (S2 : soon B (fun y => ~ at_pole (g_m y) (g_g y) t)).
  { assert (L := lim_sq B M _ _ LC).
    generalize (soon_and B M _ _ (lim_neq B M _ _ _ _ L (lim_const B t) ltac:(tauto)) (lim_neq B M _ _ _ _ L (lim_const B (Cconj t)) ltac:(tauto))).
    apply soon_imp. intros y (A1 & A2). rewrite corner_at_pole. tauto. }
  assert (S3 : soon B (fun y => t <> RtoC (g_t_in y))) by (apply (lim_neq B M _ _ _ _ (lim_const B t) (proj1 (rlim_lim B _ _) Lin) NT)).
  assert (S4 : soon B (fun y => g_t_0 y < g_t_in y)) by (now apply (rlim_lt B M _ _ _ _ L0 Lin)).
  destruct (soon_and B M _ _ (LS eps EP) (soon_and B M _ _ S1 (soon_and B M _ _ S2 (soon_and B M _ _ S3 S4)))) as (d & D & H). exists d. split; [exact D|]. intros y s' A I'.
  destruct (H y) as (K0 & K1 & K2 & K3 & K4); [split; [exact A|now exists s']|]. unfold single in I'. assert (V' := Single_valid _ _ _ _ _ _ I'). rewrite (Single_view _ _ _ _ _ _ _ I'). destruct (Rlt_dec (Re t) 0) as [|_]; [lra|].
  destruct (sector_eval_cases _ _ (proj1 (proj1 V')) K4 _ t (proj2 V')) as [([Y|Y] & _)|(_ & _ & Y)]; [contradiction| |].
  - exfalso. apply Exists_cons in Y. destruct Y as [Y|Y]; [exact (K2 Y)|inversion Y].
  - eexists. split; [exact Y|]. rewrite ONE by (try exact K4; exact (proj2 V')). rewrite K1. exact K0.
Qed.
Print Assumptions C69_single.

Example C69_instance_single : exists s v, single (mkArguments 1 4 (2/3) 3 (1/2)) = Ok s /\ SingleComponentModel_call s (RtoC 100) = Ok v /\
  forall eps, 0 < eps -> exists d, 0 < d /\ forall y s', alike d (mkArguments 1 4 (2/3) 3 (1/2)) y -> single y = Ok s' ->
    exists v', SingleComponentModel_call s' (RtoC 100) = Ok v' /\ Cabs (Csub v' v) < eps.
Proof.
  assert (N : forall x, resonance_pole 3 (1/2) <> RtoC x) by (intros x Q; apply (f_equal Im) in Q; cbn in Q; lra).
  assert (A : is_ok (single (mkArguments 1 4 (2/3) 3 (1/2)))).
  { apply Single_accept_iff. cbn. split; [lra|]. split; [lra|]. split; [lra|]. split; [apply N|intros _; apply N]. }
  destruct A as (s & I). destruct (C18_single_failure_set _ _ _ _ _ _ (RtoC 100) I ltac:(cbn; lra)) as (FV & FZ & [(v & E)|[E|E]]).
  - exists s, v. split; [exact I|]. split; [exact E|]. apply (C69_single _ s _ v I E). cbn. lra.
  - apply FV in E. cbn in E. lra.
  - apply FZ in E. cbn [g_t_in g_m g_g] in E. destruct E as (_ & [E|[E|E]]); [apply RtoC_inj in E; lra|symmetry in E; now apply N in E|apply (f_equal Im) in E; cbn in E; lra].
Qed.
