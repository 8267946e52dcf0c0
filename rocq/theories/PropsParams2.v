(** Property C06: bounds for the optimiser. *)
From Coq Require Import Reals String List Bool Arith Lia Lra Permutation.
From Verif Require Import PyBase CNum PyExpr ExprProofs KaonProofs KaonSpec Params ParamClasses ParamProofs
  ParamSpec BoundsProofs PropsParams.
Import ListNotations.
Open Scope string_scope.
Open Scope list_scope.
Open Scope R_scope.
Open Scope py_scope.

Lemma maximal_table : forall c d n, In n (class_names c) -> ~ In n (always_fixed c) ->
  lookup (fullT c false d) n = Some (maximal_bounds_of c d n).
Proof.
  intros c d.
  assert (F : Forall (fun n => str_in n (always_fixed c) = true \/
                               lookup (fullT c false d) n = Some (maximal_bounds_of c d n)) (class_names c)).
  { destruct c; repeat (apply Forall_cons; [first [left; reflexivity | right; reflexivity]|]); apply Forall_nil. }
  intros n Hn Ha. rewrite Forall_forall in F. destruct (F n Hn) as [C|C]; [|exact C].
  exfalso. apply Ha. now apply str_in_In.
Qed.

Lemma handpicked_table : forall c d n, In n (class_names c) -> ~ In n (always_fixed c) ->
  exists b, lookup (fullT c true d) n = Some b /\ handpicked_shape c d n b.
Proof.
  intros c d.
  assert (F : Forall (fun n => str_in n (always_fixed c) = true \/
                exists b, lookup (fullT c true d) n = Some b /\ handpicked_shape c d n b) (class_names c)).
  { destruct c; repeat (apply Forall_cons;
      [first [left; reflexivity
             | right; eexists; split; [reflexivity|]; cbn;
               first [ reflexivity
                     | eexists; eexists; split; [reflexivity|]; lra
                     | split; [reflexivity|]; left; reflexivity
                     | split; [reflexivity|]; right; eexists; split; [reflexivity|]; lra ] ]|]); apply Forall_nil. }
  intros n Hn Ha. rewrite Forall_forall in F. destruct (F n Hn) as [C|C]; [|exact C].
  exfalso. apply Ha. now apply str_in_In.
Qed.

Lemma maximal_lt : forall c d n, ext_lt (fst (maximal_bounds_of c d n)) (snd (maximal_bounds_of c d n)).
Proof.
  intros c d n. unfold maximal_bounds_of.
  destruct c; repeat match goal with |- context [if ?b then _ else _] => destruct b end; exact I.
Qed.

Lemma handpicked_lt : forall c d n b, handpicked_shape c d n b -> ext_lt (fst b) (snd b).
Proof.
  intros c d n b H. unfold handpicked_shape in H.
  assert (G : forall P : Prop, (if orb (starts "decay_rate_" n) (starts "mass_" n)
      then exists lo up, b = (Fin lo, Fin up) /\ 0 < lo < up else b = maximal_bounds_of c d n) -> ext_lt (fst b) (snd b)).
  { intros _ K. destruct (orb (starts "decay_rate_" n) (starts "mass_" n)).
    - destruct K as [lo [up [-> K]]]. simpl. lra.
    - rewrite K. apply maximal_lt. }
  destruct c; try (exact (G True H)); destruct b as [x y]; simpl in *; destruct H as [-> [->|[r [-> _]]]]; exact I.
Qed.

Lemma thresholds_eq : forall c n, In n (threshold_parameters c) <-> In n (sqrt_names c).
Proof.
  intros c n. assert (P : Permutation (threshold_parameters c) (sqrt_names c)).
  { apply perm_check_ok. destruct c; reflexivity. }
  split; apply Permutation_in; [assumption|now symmetry].
Qed.

(** ** C06 *)

Theorem C06_bounds_aligned : forall c h d, reachable c d ->
  (h = false -> forall n, In n (threshold_parameters c) -> 0 <= val d n) ->
  let free := filter (fun p => negb (par_fixed p)) d in
  exists lo up, get_bounds c h d = Ok (lo, up) /\ length lo = length free /\ length up = length free /\
    forall k p, nth_error free k = Some p ->
      exists a b, nth_error lo k = Some a /\ nth_error up k = Some b /\ ext_lt a b /\
        (h = false -> (a, b) = maximal_bounds_of c d (par_name p)) /\
        (h = true -> handpicked_shape c d (par_name p) (a, b)).
Proof.
  intros c h d R P free. assert (I := reachable_inv c d R).
  destruct (get_bounds_total c h d I) as [bs [E F]].
  { intros Eh n Hn. apply (P Eh). now apply thresholds_eq. }
  exists (map fst bs), (map snd bs). split; [exact E|].
  change (filter is_free d) with free in F.
  assert (L : length free = length bs) by (clear -F; induction F; simpl; congruence).
  rewrite !map_length. split; [congruence|]. split; [congruence|].
  intros k p Hk.
  assert (Q : exists b, nth_error bs k = Some b /\ lookup (fullT c h d) (par_name p) = Some b).
  { clear E L P. revert k Hk. induction F as [|x y l l' Hxy F IH]; intros k Hk; [destruct k; discriminate|].
    destruct k as [|k]; simpl in *; [injection Hk as ->; eauto|auto]. }
  destruct Q as [[a b] [Hb Lb]]. exists a, b.
  assert (Hp : In p d /\ par_fixed p = false).
  { apply nth_error_In in Hk. unfold free in Hk. apply filter_In in Hk. now rewrite negb_true_iff in Hk. }
  destruct Hp as [Hp Fp]. destruct I as [N A].
  assert (Hn : In (par_name p) (class_names c)) by (rewrite <- N; now apply in_map).
  assert (Ha : ~ In (par_name p) (always_fixed c)) by (intros C; apply A in C; [congruence|assumption]).
  split; [rewrite nth_error_map, Hb; reflexivity|]. split; [rewrite nth_error_map, Hb; reflexivity|].
  destruct h.
  - destruct (handpicked_table c d (par_name p) Hn Ha) as [b' [Lb' Sh]].
    rewrite Lb in Lb'. injection Lb' as <-. split; [exact (handpicked_lt _ _ _ _ Sh)|]. split; [discriminate|auto].
  - rewrite (maximal_table c d (par_name p) Hn Ha) in Lb. injection Lb as Lb.
    split; [assert (M := maximal_lt c d (par_name p)); rewrite Lb in M; exact M|].
    split; [now rewrite Lb|discriminate].
Qed.
Print Assumptions C06_bounds_aligned.

Theorem C06_raises_exactly : forall c h d e, reachable c d ->
  (get_bounds c h d = Err e <->
   e = ValueError /\ h = false /\ exists n, In n (threshold_parameters c) /\ val d n < 0).
Proof.
  intros c h d e R. assert (I := reachable_inv c d R).
  assert (D : (exists n, In n (threshold_parameters c) /\ val d n < 0) \/
              (forall n, In n (threshold_parameters c) -> 0 <= val d n)).
  { induction (threshold_parameters c) as [|m l IH]; [right; intros n []|].
    destruct (Rlt_dec (val d m) 0) as [L|L].
    - left. exists m. split; [now left|assumption].
    - destruct IH as [[n [Hn V]]|IH].
      + left. exists n. split; [now right|assumption].
      + right. intros n [<-|Hn]; [now apply Rnot_lt_le|auto]. }
  assert (NT : (h = false -> forall n, In n (threshold_parameters c) -> 0 <= val d n) -> get_bounds c h d <> Err e).
  { intros P E. destruct (C06_bounds_aligned c h d R P) as [lo [up [E' _]]]. congruence. }
  assert (NG : h = false -> (exists n, In n (threshold_parameters c) /\ val d n < 0) -> get_bounds c h d = Err ValueError).
  { intros -> [n [Hn V]]. apply get_bounds_negative; [exact I|]. exists n. split; [now apply thresholds_eq|exact V]. }
  split.
  - intros E. destruct h; [exfalso; apply NT; [discriminate|exact E]|].
    destruct D as [D|D]; [|exfalso; apply NT; auto].
    rewrite (NG eq_refl D) in E. injection E as <-. auto.
  - intros [-> [Eh D']]. now apply NG.
Qed.
Print Assumptions C06_raises_exactly.

Example C06_instance : exists d, reachable PKaonB d /\ val d "t_0_isovector" = 1 /\
  get_bounds PKaonB true (mutate_all PKaonB [MFixAll; MRelease ["mass_phi"; "t_in_isovector"; "a_phi"]] d) =
    Ok ([Fin 1; NegInf; Fin 1], [PosInf; PosInf; Fin (21/20)]) /\
  get_bounds PKaonB false (mutate_all PKaonB [MFixAll; MRelease ["mass_phi"; "t_in_isovector"; "a_phi"]] d) =
    Ok ([Fin 1; NegInf; Fin (sqrt 1)], [PosInf; PosInf; PosInf]).
Proof.
  exists (built (table PKaonB) demo_kaon_kw).
  assert (E : construct PKaonB demo_kaon_kw = Ok (built (table PKaonB) demo_kaon_kw)) by reflexivity.
  split; [exact (reach_init _ _ _ E)|]. split; [reflexivity|]. split; [reflexivity|].
  unfold get_bounds, bounds_table. fold (full_bounds PKaonB false (mutate_all PKaonB [MFixAll; MRelease ["mass_phi"; "t_in_isovector"; "a_phi"]] (built (table PKaonB) demo_kaon_kw))).
  rewrite full_bounds_total; [reflexivity|reflexivity|].
  intros _ n Hn. apply thresholds_eq in Hn. destruct Hn as [<-|[<-|[]]]; cbn; lra.
Qed.
