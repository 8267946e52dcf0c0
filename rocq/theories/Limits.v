(** Limits when several parameters change together, and how the map from t to W, a component and a sum of components depend
    on the branch points.  No code is modelled here; PropsBranchPoints.v uses it. *)
From Coq Require Import String Reals Bool Arith List Lra Lia.
From Verif Require Import PyBase CNum UAMaps UAComponents PyExpr UAModels
  MapProofs ComponentProofs ExprProofs KaonProofs SectorProofs KaonSpec PropsKaon Analytic AnalyticModels PropsAmbiguity Masses.
Import ListNotations.
Local Open Scope R_scope.
Local Open Scope py_scope.
Local Open Scope list_scope.

Section Lim.
Context {X : Type}.
(** [B d x]: the parameters [x] are closer than [d] to the given ones. *)
Variable B : R -> X -> Prop.
Hypothesis mono : forall d e x, d <= e -> B d x -> B e x.

Definition soon (P : X -> Prop) : Prop := exists d, 0 < d /\ forall x, B d x -> P x.
Definition lim (f : X -> C) (l : C) : Prop := forall eps, 0 < eps -> soon (fun x => Cabs (Csub (f x) l) < eps).
Definition rlim (f : X -> R) (l : R) : Prop := forall eps, 0 < eps -> soon (fun x => Rabs (f x - l) < eps).

Lemma soon_and : forall P Q, soon P -> soon Q -> soon (fun x => P x /\ Q x).
Proof.
  intros P Q (d & D & H) (e & E & K). exists (Rmin d e). split; [now apply Rmin_pos|].
  intros x L. split; [apply H|apply K]; revert L; apply mono; [apply Rmin_l|apply Rmin_r].
Qed.

Lemma soon_imp : forall P Q : X -> Prop, (forall x, P x -> Q x) -> soon P -> soon Q.
Proof. intros P Q H (d & D & K). exists d. split; [exact D|]. auto. Qed.

Lemma soon_all : forall P : X -> Prop, (forall x, P x) -> soon P.
Proof. intros P H. exists 1. split; [lra|]. auto. Qed.

Lemma soon_Forall : forall {Y} (l : list Y) (P : Y -> X -> Prop), (forall y, In y l -> soon (P y)) -> soon (fun x => forall y, In y l -> P y x).
Proof.
  intros Y l P. induction l as [|y l IH]; intros H; [apply soon_all; intros ? ? []|].
  generalize (soon_and _ _ (H y (or_introl eq_refl)) (IH (fun z I => H z (or_intror I)))). apply soon_imp.
  intros x (A & K) z [<-|I]; [exact A|now apply K].
Qed.

Lemma lim_const : forall c, lim (fun _ => c) c.
Proof. intros c eps E. apply soon_all. intros x. now rewrite Csub_diag, Cabs_0. Qed.

Lemma lim_ext : forall f g l, soon (fun x => f x = g x) -> lim f l -> lim g l.
Proof. intros f g l S F eps E. generalize (soon_and _ _ S (F eps E)). apply soon_imp. intros x (<- & H). exact H. Qed.

Lemma lim_add : forall f g l k, lim f l -> lim g k -> lim (fun x => Cadd (f x) (g x)) (Cadd l k).
Proof.
  intros f g l k F G eps E. generalize (soon_and _ _ (F (eps / 2) ltac:(lra)) (G (eps / 2) ltac:(lra))). apply soon_imp.
  intros x (H & K). replace (Csub (Cadd (f x) (g x)) (Cadd l k)) with (Cadd (Csub (f x) l) (Csub (g x) k)) by ring.
  assert (T := Cabs_triangle (Csub (f x) l) (Csub (g x) k)). lra.
Qed.

Lemma lim_mul : forall f g l k, lim f l -> lim g k -> lim (fun x => Cmul (f x) (g x)) (Cmul l k).
Proof.
  intros f g l k F G eps E. assert (Pf := Cabs_nonneg l). assert (Pg := Cabs_nonneg k).
  set (q := Cabs l + Cabs k + 1). assert (K : 0 < q) by (unfold q; lra).
  set (e := Rmin 1 (eps / q)). assert (Ek : 0 < eps / q) by (apply Rdiv_lt_0_compat; lra).
  assert (Pe : 0 < e) by (apply Rmin_pos; lra). assert (L1 : e <= 1) by apply Rmin_l.
  assert (L2 : e * q <= eps).
  { apply Rle_trans with (eps / q * q); [apply Rmult_le_compat_r; [lra|apply Rmin_r]|]. right. field. lra. }
  generalize (soon_and _ _ (F e Pe) (G e Pe)). apply soon_imp. intros s (H1 & H2).
  replace (Csub (Cmul (f s) (g s)) (Cmul l k))
    with (Cadd (Cmul (Csub (f s) l) (Csub (g s) k)) (Cadd (Cmul (Csub (f s) l) k) (Cmul l (Csub (g s) k)))) by ring.
  set (x := Csub (f s) l) in *. set (y := Csub (g s) k) in *.
  assert (Px := Cabs_nonneg x). assert (Py := Cabs_nonneg y).
  assert (T1 := Cabs_triangle (Cmul x y) (Cadd (Cmul x k) (Cmul l y))).
  assert (T2 := Cabs_triangle (Cmul x k) (Cmul l y)). rewrite !Cabs_mul in T1. rewrite !Cabs_mul in T2.
  assert (Cabs x * Cabs y <= Cabs x * 1) by (apply Rmult_le_compat_l; lra).
  assert (Cabs x * Cabs k <= e * Cabs k) by (apply Rmult_le_compat_r; lra).
  assert (Cabs l * Cabs y <= Cabs l * e) by (apply Rmult_le_compat_l; lra).
  unfold q in L2. nra.
Qed.

(** A continuous function of something with a limit. *)
Lemma lim_cont : forall A g f l, cont A g l -> soon (fun x => A (f x)) -> lim f l -> lim (fun x => g (f x)) (g l).
Proof.
  intros A g f l G S F eps E. destruct (G eps E) as (d & D & H). generalize (soon_and _ _ S (F d D)). apply soon_imp.
  intros x (P & Q). now apply H.
Qed.

Lemma lim_opp : forall f l, lim f l -> lim (fun x => Copp (f x)) (Copp l).
Proof. intros f l. apply (lim_cont everywhere Copp); [apply cont_opp, cont_id|now apply soon_all]. Qed.

Lemma lim_sub : forall f g l k, lim f l -> lim g k -> lim (fun x => Csub (f x) (g x)) (Csub l k).
Proof. intros f g l k F G. unfold Csub. apply lim_add; [exact F|now apply lim_opp]. Qed.

Lemma lim_conj : forall f l, lim f l -> lim (fun x => Cconj (f x)) (Cconj l).
Proof. intros f l. apply (lim_cont everywhere Cconj); [apply (cont_conj _ (fun z => z)), cont_id|now apply soon_all]. Qed.

Lemma lim_inv : forall f l, lim f l -> l <> RtoC 0 -> lim (fun x => Cinv (f x)) (Cinv l).
Proof. intros f l F N. revert F. apply (lim_cont everywhere Cinv); [apply (cont_inv _ (fun z => z)); [apply cont_id|exact N]|now apply soon_all]. Qed.

Lemma lim_div : forall f g l k, lim f l -> lim g k -> k <> RtoC 0 -> lim (fun x => Cdivt (f x) (g x)) (Cdivt l k).
Proof. intros f g l k F G N. unfold Cdivt. apply lim_mul; [exact F|now apply lim_inv]. Qed.

Lemma lim_sq : forall f l, lim f l -> lim (fun x => Csq (f x)) (Csq l).
Proof. intros f l F. unfold Csq. now apply lim_mul. Qed.

Lemma lim_neq : forall f g l k, lim f l -> lim g k -> l <> k -> soon (fun x => f x <> g x).
Proof.
  intros f g l k F G N. assert (D := lim_sub _ _ _ _ F G).
  assert (P : 0 < Cabs (Csub l k)) by (apply Cabs_pos; intros E; apply N; now apply Csub_eq0).
  generalize (D _ P). apply soon_imp. intros x H E. rewrite E, Csub_diag in H.
  replace (Csub (RtoC 0) (Csub l k)) with (Copp (Csub l k)) in H by ring. rewrite Cabs_opp in H. lra.
Qed.

Lemma rlim_lim : forall f l, rlim f l <-> lim (fun x => RtoC (f x)) (RtoC l).
Proof.
  intros f l. split; intros F eps E; generalize (F eps E); apply soon_imp; intros x H;
    replace (Csub (RtoC (f x)) (RtoC l)) with (RtoC (f x - l)) in * by (Cext; ring); rewrite Cabs_RtoC in *; exact H.
Qed.

Lemma rlim_const : forall c, rlim (fun _ => c) c.
Proof. intros c. apply rlim_lim. apply lim_const. Qed.

Lemma rlim_lt : forall f g l k, rlim f l -> rlim g k -> l < k -> soon (fun x => f x < g x).
Proof.
  intros f g l k F G L. generalize (soon_and _ _ (F ((k - l) / 2) ltac:(lra)) (G ((k - l) / 2) ltac:(lra))). apply soon_imp.
  intros x (H & K). unfold Rabs in H, K. destruct (Rcase_abs _), (Rcase_abs _); lra.
Qed.

Lemma rlim_add : forall f g l k, rlim f l -> rlim g k -> rlim (fun x => f x + g x) (l + k).
Proof.
  intros f g l k F G. apply rlim_lim in F, G. apply rlim_lim. generalize (lim_add _ _ _ _ F G).
  replace (Cadd (RtoC l) (RtoC k)) with (RtoC (l + k)) by (Cext; ring). apply lim_ext, soon_all. intros x. Cext; ring.
Qed.

Lemma rlim_mul : forall f g l k, rlim f l -> rlim g k -> rlim (fun x => f x * g x) (l * k).
Proof.
  intros f g l k F G. apply rlim_lim in F, G. apply rlim_lim. generalize (lim_mul _ _ _ _ F G).
  replace (Cmul (RtoC l) (RtoC k)) with (RtoC (l * k)) by (Cext; ring). apply lim_ext, soon_all. intros x. Cext; ring.
Qed.

Lemma rlim_opp : forall f l, rlim f l -> rlim (fun x => - f x) (- l).
Proof.
  intros f l F eps E. generalize (F eps E). apply soon_imp. intros x H. replace (- f x - - l) with (- (f x - l)) by ring. now rewrite Rabs_Ropp.
Qed.

Lemma rlim_sub : forall f g l k, rlim f l -> rlim g k -> rlim (fun x => f x - g x) (l - k).
Proof. intros f g l k F G. unfold Rminus. apply rlim_add; [exact F|now apply rlim_opp]. Qed.

Lemma rlim_div : forall f g l k, rlim f l -> rlim g k -> k <> 0 -> rlim (fun x => f x / g x) (l / k).
Proof.
  intros f g l k F G N. assert (NC : RtoC k <> RtoC 0) by (intros E; apply RtoC_inj in E; contradiction).
  assert (F' := proj1 (rlim_lim _ _) F). assert (G' := proj1 (rlim_lim _ _) G). apply rlim_lim.
  assert (Q : forall a b, b <> 0 -> Cdivt (RtoC a) (RtoC b) = RtoC (a / b)) by (intros a b Nb; assert (Nc : RtoC b <> RtoC 0) by (intros E; apply RtoC_inj in E; contradiction); replace (RtoC a) with (Cmul (RtoC (a / b)) (RtoC b)) by (Cext; field; exact Nb); unfold Cdivt; field; exact Nc).
  generalize (lim_div _ _ _ _ F' G' NC). rewrite (Q l k N). apply lim_ext.
  generalize (lim_neq _ _ _ _ G' (lim_const (RtoC 0)) NC). apply soon_imp. intros x H. apply Q. intros E. apply H. now rewrite E.
Qed.

Lemma rlim_abs : forall f l, rlim f l -> rlim (fun x => Rabs (f x)) (Rabs l).
Proof. intros f l F eps E. generalize (F eps E). apply soon_imp. intros x H. eapply Rle_lt_trans; [apply Rabs_triang_inv2|exact H]. Qed.

Lemma rlim_ext : forall f g l, (forall x, f x = g x) -> rlim f l -> rlim g l.
Proof. intros f g l H F eps E. generalize (F eps E). apply soon_imp. intros x. now rewrite H. Qed.

Lemma lim_mkC : forall f g l k, rlim f l -> rlim g k -> lim (fun x => mkC (f x) (g x)) (mkC l k).
Proof.
  intros f g l k F G. apply rlim_lim in F, G. generalize (lim_add _ _ _ _ F (lim_mul _ _ _ _ (lim_const Ci) G)).
  replace (Cadd (RtoC l) (Cmul Ci (RtoC k))) with (mkC l k) by (Cext; ring). apply lim_ext, soon_all. intros x. Cext; ring.
Qed.

Lemma lim_csum : forall {Y} (l : list Y) (f : Y -> X -> C) (v : Y -> C), (forall y, In y l -> lim (f y) (v y)) ->
  lim (fun x => csum (map (fun y => f y x) l)) (csum (map v l)).
Proof.
  intros Y l f v H. induction l as [|y l IH]; cbn [map csum fold_right]; unfold csum in *; cbn [fold_right]; [apply lim_const|].
  apply lim_add; [apply H; now left|apply IH; intros; apply H; now right].
Qed.

Lemma rlim_Rsum : forall {Y} (l : list Y) (f : Y -> X -> R) (v : Y -> R), (forall y, In y l -> rlim (f y) (v y)) ->
  rlim (fun x => Rsum (map (fun y => f y x) l)) (Rsum (map v l)).
Proof.
  intros Y l f v H. induction l as [|y l IH]; unfold Rsum in *; cbn [map fold_right] in *; [apply rlim_const|].
  apply rlim_add; [apply H; now left|apply IH; intros; apply H; now right].
Qed.

End Lim.

#[local] Transparent vt Wt.

(** ** The map depends on the branch points through a change of scale only *)

Lemma square_root_scale : forall c z, 0 < c -> square_root (Cmul (RtoC (c * c)) z) = Cmul (RtoC c) (square_root z).
Proof.
  intros c z P. apply square_root_unique.
  - destruct (square_root_upper z) as [U|(U & V)]; unfold upper; cbn.
    + left. nra.
    + right. rewrite U. split; nra.
  - replace (Cmul (Cmul (RtoC c) (square_root z)) (Cmul (RtoC c) (square_root z))) with (Cmul (RtoC (c * c)) (Cmul (square_root z) (square_root z))) by (Cext; ring).
    now rewrite square_root_sq.
Qed.

(** The point which the branch points [t_0], [t_in] see as [t_0'], [t_in'] see [t]. *)
Definition moved (t_0 t_in t_0' t_in' : R) (t : C) : C := Cadd (RtoC t_0) (Cmul (RtoC ((t_in - t_0) / (t_in' - t_0'))) (Csub t (RtoC t_0'))).

Lemma Wt_moved : forall t_0 t_in t_0' t_in' t, t_0 < t_in -> t_0' < t_in' -> t <> RtoC t_in' ->
  Wt t_0' t_in' t = Wt t_0 t_in (moved t_0 t_in t_0' t_in' t).
Proof.
  intros t_0 t_in t_0' t_in' t H H' N. set (a := sqrt (t_in - t_0)). set (a' := sqrt (t_in' - t_0')).
  assert (A : 0 < a) by (apply sqrt_lt_R0; lra). assert (A' : 0 < a') by (apply sqrt_lt_R0; lra).
  assert (S : a * a = t_in - t_0) by (apply sqrt_sqrt; lra). assert (S' : a' * a' = t_in' - t_0') by (apply sqrt_sqrt; lra).
  assert (Z : zt t_0 (moved t_0 t_in t_0' t_in' t) = Cmul (RtoC (a / a')) (zt t_0' t)).
  { rewrite !zt_eq. rewrite <- square_root_scale by (now apply Rdiv_lt_0_compat). f_equal. unfold moved. rewrite <- S, <- S'.
    replace (a * a / (a' * a')) with (a / a' * (a / a')) by (field; lra). ring. }
  assert (V : vt t_0 t_in (moved t_0 t_in t_0' t_in' t) = vt t_0' t_in' t).
  { unfold vt. fold a a'. rewrite Z. f_equal. set (z := zt t_0' t) in *.
    replace (RtoC a) with (Cmul (RtoC (a / a')) (RtoC a')) by (Cext; field; lra).
    assert (Q : RtoC (a / a') <> RtoC 0) by (intros E; apply RtoC_inj in E; assert (0 < a / a') by (now apply Rdiv_lt_0_compat); lra).
    assert (D : Cadd (Copp z) (RtoC a') <> RtoC 0).
    { intros E. apply N. assert (E' : z = RtoC a') by (replace z with (Csub (RtoC a') (Cadd (Copp z) (RtoC a'))) by ring; rewrite E; ring).
      assert (E2 := square_root_sq (Csub t (RtoC t_0'))). rewrite <- zt_eq in E2. fold z in E2. rewrite E' in E2.
      replace t with (Cadd (Csub t (RtoC t_0')) (RtoC t_0')) by ring. rewrite <- E2. replace t_in' with (a' * a' + t_0') by lra. Cext; ring. }
    unfold Cdivt. set (c := RtoC (a / a')) in *. set (b := RtoC a') in *.
    assert (D2 : Cadd (Copp (Cmul c z)) (Cmul c b) = Cmul c (Cadd (Copp z) b)) by ring. rewrite D2.
    field. split; [|exact Q]. exact D. }
  unfold Wt. now rewrite V.
Qed.

#[local] Opaque vt Wt.

(** ** Components and sums of components when everything changes *)
Section Parameters.
Context {X : Type}.
Variable B : R -> X -> Prop.
Hypothesis mono : forall d e x, d <= e -> B d x -> B e x.
Variables (b0 bin : X -> R) (t_0 t_in : R).
Hypothesis H0 : 0 <= t_0.
Hypothesis Hlt : t_0 < t_in.
Hypothesis L0 : rlim B b0 t_0.
Hypothesis Lin : rlim B bin t_in.

Lemma order_soon : soon B (fun x => b0 x < bin x).
Proof. now apply (rlim_lt B mono b0 bin t_0 t_in). Qed.

Lemma moved_lim : forall p l, lim B p l -> lim B (fun x => moved t_0 t_in (b0 x) (bin x) (p x)) l.
Proof.
  intros p l P. unfold moved.
  assert (Q : rlim B (fun x => (t_in - t_0) / (bin x - b0 x)) ((t_in - t_0) / (t_in - t_0))).
  { apply (rlim_div B mono); [apply rlim_const|now apply (rlim_sub B mono)|lra]. }
  apply rlim_lim in Q. assert (L0' := proj1 (rlim_lim B _ _) L0).
  assert (R := lim_add B mono _ _ _ _ (lim_const B (RtoC t_0)) (lim_mul B mono _ _ _ _ Q (lim_sub B mono _ _ _ _ P L0'))).
  replace (Cadd (RtoC t_0) (Cmul (RtoC ((t_in - t_0) / (t_in - t_0))) (Csub l (RtoC t_0)))) with l in R; [exact R|].
  replace ((t_in - t_0) / (t_in - t_0)) with 1 by (field; lra). ring.
Qed.

(** The map has a limit at a point approached from above or off the cut. *)
Lemma Wt_lim : forall p l, lim B p l -> l <> RtoC t_in -> (Im l < 0 \/ 0 <= Im l /\ soon B (fun x => 0 <= Im (p x))) ->
  lim B (fun x => Wt (b0 x) (bin x) (p x)) (Wt t_0 t_in l).
Proof.
  intros p l P N S. assert (M := moved_lim p l P).
  assert (Lin' := proj1 (rlim_lim B _ _) Lin).
  assert (E : soon B (fun x => Wt t_0 t_in (moved t_0 t_in (b0 x) (bin x) (p x)) = Wt (b0 x) (bin x) (p x))).
  { generalize (soon_and B mono _ _ order_soon (lim_neq B mono _ _ _ _ P Lin' N)). apply soon_imp. intros x (O & Q). symmetry. now apply Wt_moved. }
  revert E. intros E. apply (lim_ext B mono _ _ _ E). clear E. destruct S as [S|(S & U)].
  - apply (lim_cont B mono everywhere (Wt t_0 t_in)); [|now apply soon_all|exact M].
    apply (Wt_cont t_0 t_in Hlt); [|exact N]. left. intros (Q & _). cbn in Q. lra.
  - apply (lim_cont B mono upper_half (Wt t_0 t_in)); [| |exact M].
    + apply (Wt_cont t_0 t_in Hlt); [|exact N]. right. split; [intros x Q; exact Q|exact S].
    + generalize (soon_and B mono _ _ order_soon U). apply soon_imp. intros x (O & Q). unfold upper_half, moved. cbn.
      assert (K : 0 < (t_in - t_0) / (bin x - b0 x)) by (apply Rdiv_lt_0_compat; lra). unfold Rdiv in K. nra.
Qed.

Lemma W0_lim : lim B (fun x => Wt (b0 x) (bin x) 0) (Wt t_0 t_in 0).
Proof.
  apply (Wt_lim (fun _ => RtoC 0)); [apply lim_const| |].
  - intros E. apply RtoC_inj in E. lra.
  - right. cbn. split; [lra|]. apply soon_all. intros _. lra.
Qed.

Lemma Wpole_lim : forall s l, lim B s l -> quadrant l -> soon B (fun x => quadrant (s x)) -> Csq l <> RtoC t_in ->
  lim B (fun x => Wt (b0 x) (bin x) (Csq (s x))) (Wt t_0 t_in (Csq l)).
Proof.
  intros s l S (Q1 & Q2) Q N. apply Wt_lim; [now apply lim_sq|exact N|]. right. split; [unfold Csq; cbn; nra|].
  revert Q. apply soon_imp. intros x (A & D). unfold Csq. cbn. nra.
Qed.

Lemma Wconst_lim : forall t, t <> RtoC t_in -> lim B (fun x => Wt (b0 x) (bin x) t) (Wt t_0 t_in t).
Proof.
  intros t N. apply (Wt_lim (fun _ => t)); [apply lim_const|exact N|]. destruct (Rlt_le_dec (Im t) 0) as [L|L]; [now left|].
  right. split; [exact L|]. now apply soon_all.
Qed.

Lemma Dfac_lim : forall v f g l k, lim B f l -> lim B g k -> (v = VariantA -> l <> RtoC 0) -> lim B (fun x => Dfac v (f x) (g x)) (Dfac v l k).
Proof.
  intros v f g l k F G N. assert (FC := lim_conj B mono _ _ F). destruct v; unfold Dfac.
  - assert (N1 := N eq_refl). assert (N2 : Cconj l <> RtoC 0) by (intros E; apply N1; apply Cconj_inj; rewrite E; symmetry; apply Cconj_RtoC).
    repeat apply (lim_mul B mono); apply (lim_sub B mono); try assumption; now apply (lim_inv B mono).
  - repeat apply (lim_mul B mono); try apply (lim_sub B mono); try apply (lim_add B mono); assumption.
Qed.

Lemma Afac_lim : forall f l, lim B f l -> lim B (fun x => Afac (f x)) (Afac l).
Proof. intros f l F. unfold Afac. apply (lim_sq B mono). apply (lim_sub B mono); [apply lim_const|]. now apply (lim_sq B mono). Qed.

(** A component of a given variant. *)
Lemma component_lim : forall v s l t, lim B s l -> quadrant l -> soon B (fun x => quadrant (s x)) -> good_pole t_0 t_in v (Csq l) ->
  t <> RtoC t_in -> Csq l <> t -> Csq l <> Cconj t ->
  lim B (fun x => KS (b0 x) (bin x) v (s x) t) (KS t_0 t_in v l t).
Proof.
  intros v s l t S Q QS G T N1 N2. assert (WP := Wpole_lim s l S Q QS (proj1 G)). assert (W0 := W0_lim). assert (WT := Wconst_lim t T).
  assert (Z : v = VariantA -> Wt t_0 t_in (Csq l) <> RtoC 0).
  { intros ->. destruct G as (G1 & G2 & _). rewrite (Wt_0_iff t_0 t_in Hlt) by exact G1. exact G2. }
  unfold KS, comp_val. apply (lim_mul B mono).
  - apply (lim_div B mono); [now apply Afac_lim|now apply Afac_lim|apply (Afac_wn t_0 t_in H0 Hlt)].
  - apply (lim_div B mono); [now apply Dfac_lim|now apply Dfac_lim|].
    rewrite (Dfac_zero_iff t_0 t_in Hlt) by assumption. intros [E|E]; [now apply N1|]. apply N2. rewrite E. now rewrite Cconj_invol.
Qed.

Lemma variant_soon : forall m l, rlim B m l -> l <> t_in -> soon B (fun x => variant_of (m x) (bin x) = variant_of l t_in).
Proof.
  intros m l M N. unfold variant_of at 2. destruct (Rlt_dec l t_in) as [L|L].
  - generalize (rlim_lt B mono _ _ _ _ M Lin L). apply soon_imp. intros x Q. unfold variant_of. destruct (Rlt_dec _ _); [reflexivity|contradiction].
  - generalize (rlim_lt B mono _ _ _ _ Lin M ltac:(lra)). apply soon_imp. intros x Q. unfold variant_of. destruct (Rlt_dec _ _); [lra|reflexivity].
Qed.

Lemma corner_lim : forall m g a b, rlim B m a -> rlim B g b -> lim B (fun x => corner (m x) (g x)) (corner a b).
Proof.
  intros m g a b M G. unfold corner. apply (lim_mkC B mono); [now apply (rlim_abs B)|].
  apply (rlim_div B mono); [now apply (rlim_abs B)|apply rlim_const|lra].
Qed.

End Parameters.
