(** C65: exactly which parameters of the kaon models give the same form factors. *)
From Coq Require Import String Reals Bool Arith List Lra Lia Permutation.
From Verif Require Import PyBase CNum UAMaps UAComponents PyExpr UAModels
  MapProofs ComponentProofs ExprProofs KaonProofs SectorProofs KaonSpec PropsKaon.
Import ListNotations.
Local Open Scope R_scope.
Local Open Scope py_scope.
Local Open Scope string_scope.
Local Open Scope list_scope.

#[local] Arguments String.append : simpl never.

(** ** Specification *)

(** The sum of the couplings of the resonances with the given mass and width, both up to the sign. *)
Definition alike (m g : R) (r : resonance) : Prop := r_m r * r_m r = m * m /\ r_g r * r_g r = g * g.

Inductive total : list resonance -> R -> R -> R -> Prop :=
| T_nil : forall m g, total [] m g 0
| T_alike : forall r l m g x, alike m g r -> total l m g x -> total (r :: l) m g (r_a r + x)
| T_other : forall r l m g x, ~ alike m g r -> total l m g x -> total (r :: l) m g x.

(** Two sectors have the same total coupling for every mass and width. *)
Definition same_couplings (l l' : list resonance) : Prop := forall m g x, total l m g x <-> total l' m g x.

(** ** Polynomials *)

Fixpoint peval (p : list C) (x : C) : C := match p with [] => RtoC 0 | a :: p => Cadd a (Cmul x (peval p x)) end.

Lemma divide : forall p r, exists q, length q = pred (length p) /\ forall x, peval p x = Cadd (Cmul (Csub x r) (peval q x)) (peval p r).
Proof.
  induction p as [|a p IH]; intros r.
  - exists []. split; [reflexivity|]. intros x. cbn. ring.
  - destruct (IH r) as (q & L & E). destruct p as [|b p].
    + exists []. split; [reflexivity|]. intros x. cbn. ring.
    + exists (peval (b :: p) r :: q). split; [cbn in *; lia|]. intros x. cbn [peval] in *. rewrite (E x). ring.
Qed.

Lemma root_bound : forall n p roots, (length p <= n)%nat -> (n <= length roots)%nat -> NoDup roots -> (forall x, In x roots -> peval p x = RtoC 0) ->
  forall x, peval p x = RtoC 0.
Proof.
  induction n as [|n IH]; intros p roots L N D Z x.
  - destruct p; [reflexivity|cbn in L; lia].
  - destruct roots as [|r roots]; [cbn in N; lia|]. destruct (divide p r) as (q & LQ & E).
    assert (Zr : peval p r = RtoC 0) by (apply Z; now left). inversion D as [|u w NI D']; subst.
    rewrite E, Zr. rewrite (IH q roots); [ring|destruct p; cbn in *; lia|cbn in N; lia|exact D'|].
    intros y I. assert (Zy : peval p y = RtoC 0) by (apply Z; now right). rewrite E, Zr in Zy.
    assert (Y : Cmul (Csub y r) (peval q y) = RtoC 0) by (rewrite <- Zy; ring).
    apply Cmul_integral in Y as [Y|Y]; [|exact Y]. apply Csub_eq in Y. subst y. contradiction.
Qed.

Definition is_poly (n : nat) (f : C -> C) : Prop := exists p, (length p <= n)%nat /\ forall x, f x = peval p x.

Lemma poly_mono : forall n m f, (n <= m)%nat -> is_poly n f -> is_poly m f.
Proof. intros n m f L (p & P & E). exists p. split; [lia|exact E]. Qed.

Lemma poly_ext : forall n f g, (forall x, f x = g x) -> is_poly n f -> is_poly n g.
Proof. intros n f g X (p & P & E). exists p. split; [exact P|]. intros x. now rewrite <- X. Qed.

Lemma poly_const : forall c, is_poly 1 (fun _ => c).
Proof. intros c. exists [c]. split; [cbn; lia|]. intros x. cbn. ring. Qed.

Lemma peval_scale : forall c p x, peval (map (Cmul c) p) x = Cmul c (peval p x).
Proof. intros c p x. induction p as [|a p IH]; cbn; [ring|]. rewrite IH. ring. Qed.

Lemma poly_scale : forall n c f, is_poly n f -> is_poly n (fun x => Cmul c (f x)).
Proof. intros n c f (p & P & E). exists (map (Cmul c) p). split; [now rewrite map_length|]. intros x. now rewrite peval_scale, E. Qed.

Fixpoint padd (p q : list C) : list C := match p, q with [], _ => q | _, [] => p | a :: p, b :: q => Cadd a b :: padd p q end.
Lemma padd_eval : forall p q x, peval (padd p q) x = Cadd (peval p x) (peval q x).
Proof. induction p as [|a p IH]; intros [|b q] x; cbn; try ring. rewrite IH. ring. Qed.
Lemma padd_length : forall p q n, (length p <= n)%nat -> (length q <= n)%nat -> (length (padd p q) <= n)%nat.
Proof. induction p as [|a p IH]; intros [|b q] n A B; cbn in *; try lia. destruct n as [|n]; [lia|]. assert (length (padd p q) <= n)%nat by (apply IH; lia). lia. Qed.

Lemma poly_add : forall n f g, is_poly n f -> is_poly n g -> is_poly n (fun x => Cadd (f x) (g x)).
Proof. intros n f g (p & P & E) (q & Q & F). exists (padd p q). split; [now apply padd_length|]. intros x. now rewrite padd_eval, E, F. Qed.

Lemma poly_shift : forall n f, is_poly n f -> is_poly (S n) (fun x => Cmul x (f x)).
Proof. intros n f (p & P & E). exists (RtoC 0 :: p). split; [cbn; lia|]. intros x. cbn. rewrite E. ring. Qed.

Lemma poly_factor : forall n c f, is_poly n f -> is_poly (S n) (fun x => Cmul (Csub x c) (f x)).
Proof.
  intros n c f P. apply (poly_ext _ (fun x => Cadd (Cmul x (f x)) (Cmul (Copp c) (f x)))); [intros x; ring|].
  apply poly_add; [now apply poly_shift|]. apply poly_scale. now apply (poly_mono n); [lia|].
Qed.

(** ** Sums of fractions with these denominators *)

Definition place : Type := (C * (variant * C))%type.
Definition den (e : variant * C) (w : C) : C := Dfac (fst e) (snd e) w.

Lemma poly_den : forall n e f, is_poly n f -> is_poly (4 + n) (fun w => Cmul (den e w) (f w)).
Proof.
  intros n [v wm] f P. unfold den. cbn [fst snd].
  destruct v.
  - apply (poly_ext _ (fun w => Cmul (Csub w wm) (Cmul (Csub w (Cconj wm)) (Cmul (Csub w (Cinv wm)) (Cmul (Csub w (Cinv (Cconj wm))) (f w)))))).
    + intros w. unfold Dfac. ring.
    + do 4 apply (poly_factor (_ + n)). exact P.
  - apply (poly_ext _ (fun w => Cmul (Csub w wm) (Cmul (Csub w (Cconj wm)) (Cmul (Csub w (Copp wm)) (Cmul (Csub w (Copp (Cconj wm))) (f w)))))).
    + intros w. unfold Dfac. ring.
    + do 4 apply (poly_factor (_ + n)). exact P.
Qed.

Fixpoint dens (l : list place) (w : C) : C := match l with [] => RtoC 1 | x :: l => Cmul (den (snd x) w) (dens l w) end.
Fixpoint cleared (l : list place) (w : C) : C :=
  match l with [] => RtoC 0 | x :: l => Cadd (Cmul (fst x) (dens l w)) (Cmul (den (snd x) w) (cleared l w)) end.
Definition fractions (l : list place) (w : C) : C := csum (map (fun x => Cdivt (fst x) (den (snd x) w)) l).

Lemma dens_poly : forall l, is_poly (4 * length l + 1) (dens l).
Proof.
  induction l as [|x l IH]; [apply poly_const|]. replace (4 * length (x :: l) + 1)%nat with (4 + (4 * length l + 1))%nat by (cbn; lia). now apply poly_den.
Qed.

Lemma cleared_poly : forall l, is_poly (4 * length l - 3) (cleared l).
Proof.
  induction l as [|x l IH]; [exists []; split; [cbn; lia|reflexivity]|].
  apply (poly_mono (4 * length l + 1)); [cbn; lia|]. apply poly_add.
  - apply poly_scale, dens_poly.
  - destruct l as [|y l].
    + exists []. split; [cbn; lia|]. intros w. cbn. ring.
    + apply (poly_mono (4 + (4 * length (y :: l) - 3))); [cbn; lia|]. now apply poly_den.
Qed.

Lemma dens_neq0 : forall l w, (forall x, In x l -> den (snd x) w <> RtoC 0) -> dens l w <> RtoC 0.
Proof.
  induction l as [|x l IH]; intros w N; cbn; [apply RtoC_neq0; lra|]. apply Cmul_neq0; [apply N; now left|]. apply IH. intros y I. apply N. now right.
Qed.

Lemma cleared_fractions : forall l w, (forall x, In x l -> den (snd x) w <> RtoC 0) -> cleared l w = Cmul (dens l w) (fractions l w).
Proof.
  induction l as [|x l IH]; intros w N; [cbn; ring|]. unfold fractions in *. cbn [cleared dens map csum fold_right]. rewrite IH by (intros y I; apply N; now right).
  assert (D : den (snd x) w <> RtoC 0) by (apply N; now left). unfold csum. cbn. unfold Cdivt. field. exact D.
Qed.

Lemma dens_app : forall a b w, dens (a ++ b) w = Cmul (dens a w) (dens b w).
Proof. induction a as [|x a IH]; intros b w; cbn; [ring|]. rewrite IH. ring. Qed.

Lemma cleared_at : forall a x b w, den (snd x) w = RtoC 0 -> cleared (a ++ x :: b) w = Cmul (fst x) (Cmul (dens a w) (dens b w)).
Proof.
  induction a as [|y a IH]; intros x b w Z; cbn [List.app cleared].
  - rewrite Z. cbn. ring.
  - rewrite (IH x b w Z), dens_app. cbn [dens]. rewrite Z. ring.
Qed.

(** Fractions with different poles are independent, on enough points. *)
Lemma independent : forall (l : list place) ws, NoDup ws -> (4 * length l - 3 <= length ws)%nat ->
  (forall w x, In w ws -> In x l -> den (snd x) w <> RtoC 0) -> (forall w, In w ws -> fractions l w = RtoC 0) ->
  forall a x b, l = a ++ x :: b -> (exists w, den (snd x) w = RtoC 0 /\ forall y, In y (a ++ b) -> den (snd y) w <> RtoC 0) -> fst x = RtoC 0.
Proof.
  intros l ws D L N Z a x b E (w & Zx & Ny). destruct (cleared_poly l) as (p & P & F).
  assert (A : cleared l w = RtoC 0).
  { rewrite F. apply (root_bound (4 * length l - 3) p ws P L D). intros u I. rewrite <- F. rewrite cleared_fractions by (intros y J; now apply N). rewrite (Z u I). ring. }
  rewrite E, cleared_at in A by exact Zx. apply Cmul_integral in A as [A|A]; [exact A|]. exfalso. revert A.
  apply Cmul_neq0; apply dens_neq0; intros y I; apply Ny; apply in_or_app; auto.
Qed.

(** ** Masses and widths up to the sign *)

Lemma alike_dec : forall m g r, {alike m g r} + {~ alike m g r}.
Proof.
  intros m g r. unfold alike. destruct (Req_EM_T (r_m r * r_m r) (m * m)), (Req_EM_T (r_g r * r_g r) (g * g)); try (left; tauto); right; tauto.
Qed.

Lemma pole_cases : forall m g m' g', m' * m' = m * m -> g' * g' = g * g -> meson_pole m' g' = meson_pole m g \/ meson_pole m' g' = Cconj (meson_pole m g).
Proof.
  intros m g m' g' M G.
  assert (E : m' * g' = m * g \/ m' * g' = - (m * g)).
  { assert (Q : (m' * g' - m * g) * (m' * g' + m * g) = 0) by (replace ((m' * g' - m * g) * (m' * g' + m * g)) with ((m' * m') * (g' * g') - (m * m) * (g * g)) by ring; rewrite M, G; ring).
    apply Rmult_integral in Q. lra. }
  destruct E as [E|E]; [left|right]; apply C_ext; cbn [Re Im Cconj]; rewrite ?Re_meson_pole, ?Im_meson_pole, ?M, ?G, ?E; try reflexivity; ring.
Qed.

Lemma pole_alike : forall m g m' g', at_pole m g (meson_pole m' g') -> m' * m' = m * m /\ g' * g' = g * g.
Proof.
  intros m g m' g' H.
  assert (RE : m' * m' - g' * g' / 4 = m * m - g * g / 4).
  { destruct H as [H|H]; apply (f_equal Re) in H; cbn [Re Cconj] in H; rewrite ?Re_meson_pole in H; exact H. }
  assert (IM : (m' * g') * (m' * g') = (m * g) * (m * g)).
  { destruct H as [H|H]; apply (f_equal Im) in H; cbn [Im Cconj] in H; rewrite ?Im_meson_pole in H; [replace (m' * g') with (m * g) by lra|replace (m' * g') with (- (m * g)) by lra]; ring. }
  assert (S : (m' * m' + g' * g' / 4) * (m' * m' + g' * g' / 4) = (m * m + g * g / 4) * (m * m + g * g / 4)).
  { replace ((m' * m' + g' * g' / 4) * (m' * m' + g' * g' / 4)) with ((m' * m' - g' * g' / 4) * (m' * m' - g' * g' / 4) + (m' * g') * (m' * g')) by field.
    replace ((m * m + g * g / 4) * (m * m + g * g / 4)) with ((m * m - g * g / 4) * (m * m - g * g / 4) + (m * g) * (m * g)) by field. now rewrite RE, IM. }
  assert (P : m' * m' + g' * g' / 4 = m * m + g * g / 4).
  { apply Rsqr_inj; [nra|nra|exact S]. }
  lra.
Qed.

Lemma alike_pole_iff : forall m g m' g' t, m' * m' = m * m -> g' * g' = g * g -> (at_pole m' g' t <-> at_pole m g t).
Proof.
  intros m g m' g' t M G. unfold at_pole. destruct (pole_cases m g m' g' M G) as [-> | ->]; [tauto|]. rewrite Cconj_invol. tauto.
Qed.

Section Nondegenerate.
Variables t_0 t_in : R.
Hypothesis H0 : 0 <= t_0.
Hypothesis Hlt : t_0 < t_in.

Definition accepted (m g : R) : Prop := is_ok (build_component t_0 t_in m g).

Lemma accepted_alike : forall m g m' g', m' * m' = m * m -> g' * g' = g * g -> accepted m g -> accepted m' g'.
Proof.
  intros m g m' g' M G A. unfold accepted in *. apply build_component_ok_iff in A; [|lra]. apply build_component_ok_iff; [lra|].
  destruct A as (A1 & A2 & A3). unfold accept_resonance. rewrite M.
  assert (R : forall x : R, meson_pole m g <> RtoC x -> meson_pole m' g' <> RtoC x).
  { intros x N E. apply N. destruct (pole_cases m g m' g' M G) as [Q|Q]; rewrite Q in E; [exact E|]. apply Cconj_inj. now rewrite E, Cconj_RtoC. }
  split; [exact A1|]. split; [now apply R|]. intros L. apply R. now apply A3.
Qed.

Lemma accepted_good : forall m g, accepted m g -> good_pole t_0 t_in (variant_of (m * m) t_in) (meson_pole m g).
Proof. intros m g (c & B). now destruct (build_component_inv _ _ _ _ _ Hlt B) as (_ & _ & G & _). Qed.

(** The value of a component depends on the mass and the width up to their signs. *)
Lemma KC_alike : forall m g m' g' t, accepted m g -> m' * m' = m * m -> g' * g' = g * g -> KC t_0 t_in m' g' t = KC t_0 t_in m g t.
Proof.
  intros m g m' g' t A M G. unfold KC. rewrite M. destruct (pole_cases m g m' g' M G) as [-> | ->]; [reflexivity|].
  destruct (on_cut_dec (Csub (meson_pole m g) t_0)) as [O|O].
  - destruct (on_cut_real _ _ O) as (E & _). assert (Q : Cconj (meson_pole m g) = meson_pole m g) by (rewrite E; apply Cconj_RtoC). now rewrite Q.
  - rewrite (Wt_conj t_0 t_in Hlt) by exact O. unfold comp_val.
    assert (D : forall w, Dfac (variant_of (m * m) t_in) (Cconj (Wt t_0 t_in (meson_pole m g))) w = Dfac (variant_of (m * m) t_in) (Wt t_0 t_in (meson_pole m g)) w).
    { intros w. unfold Dfac. rewrite Cconj_invol. destruct (variant_of (m * m) t_in); ring. }
    now rewrite !D.
Qed.

(** ** Putting alike resonances together *)

Definition tot (l : list resonance) (m g : R) : R := fold_right (fun r x => if alike_dec m g r then r_a r + x else x) 0 l.

Fixpoint insert (r : resonance) (l : list resonance) : list resonance :=
  match l with
  | [] => [r]
  | x :: l => if alike_dec (r_m r) (r_g r) x then (r_a r + r_a x, r_m x, r_g x) :: l else x :: insert r l
  end.
Definition merge (l : list resonance) : list resonance := fold_right insert [] l.

Lemma insert_length : forall r l, (length (insert r l) <= S (length l))%nat.
Proof. intros r l. induction l as [|x l IH]; cbn; [lia|]. destruct (alike_dec (r_m r) (r_g r) x); cbn; lia. Qed.
Lemma merge_length : forall l, (length (merge l) <= length l)%nat.
Proof. induction l as [|r l IH]; [cbn; lia|]. cbn [merge fold_right length]. fold (merge l). pose proof (insert_length r (merge l)). lia. Qed.

Lemma insert_in : forall r l x, In x (insert r l) -> exists y, In y (r :: l) /\ r_m y = r_m x /\ r_g y = r_g x.
Proof.
  intros r l. induction l as [|z l IH]; intros x I; cbn in I.
  - destruct I as [<-|[]]. exists r. now split; [left|].
  - destruct (alike_dec (r_m r) (r_g r) z).
    + destruct I as [<-|I]; [exists z; split; [right; now left|split; reflexivity]|]. exists x. split; [right; now right|split; reflexivity].
    + destruct I as [<-|I]; [exists z; split; [right; now left|split; reflexivity]|]. destruct (IH x I) as (y & [<-|J] & E); [exists r; split; [now left|exact E]|].
      exists y. split; [right; now right|exact E].
Qed.

Lemma merge_in : forall l x, In x (merge l) -> exists y, In y l /\ r_m y = r_m x /\ r_g y = r_g x.
Proof.
  induction l as [|r l IH]; intros x I; [destruct I|]. cbn in I. destruct (insert_in _ _ _ I) as (y & [<-|J] & E1 & E2).
  - exists r. split; [now left|now split].
  - destruct (IH y J) as (z & K & F1 & F2). exists z. split; [now right|]. split; congruence.
Qed.

Lemma alike_same : forall m g r r', alike (r_m r) (r_g r) r' -> (alike m g r' <-> alike m g r).
Proof. intros m g r r' (A & B). unfold alike. rewrite A, B. tauto. Qed.

Lemma tot_insert : forall r l m g, tot (insert r l) m g = (if alike_dec m g r then r_a r else 0) + tot l m g.
Proof.
  intros r l m g. induction l as [|x l IH]; cbn [insert].
  - cbn. destruct (alike_dec m g r); lra.
  - destruct (alike_dec (r_m r) (r_g r) x) as [A|A].
    + assert (W := alike_same m g r x A). assert (Q : alike m g (r_a r + r_a x, r_m x, r_g x) <-> alike m g x) by (unfold alike, r_m, r_g; cbn; tauto).
      unfold tot. cbn [fold_right]. fold (tot l m g).
      change (r_a (r_a r + r_a x, r_m x, r_g x)) with (r_a r + r_a x).
      destruct (alike_dec m g r), (alike_dec m g x), (alike_dec m g (r_a r + r_a x, r_m x, r_g x)); try tauto; lra.
    + unfold tot in *. cbn [fold_right]. rewrite IH. destruct (alike_dec m g x), (alike_dec m g r); lra.
Qed.

Lemma tot_merge : forall l m g, tot (merge l) m g = tot l m g.
Proof.
  induction l as [|r l IH]; intros m g; [reflexivity|]. cbn [merge fold_right]. fold (merge l). rewrite tot_insert, IH. unfold tot. cbn [fold_right].
  destruct (alike_dec m g r); lra.
Qed.

Definition apart (l : list resonance) : Prop := ForallOrdPairs (fun x y => ~ alike (r_m x) (r_g x) y) l.

Lemma insert_apart : forall r l, apart l -> apart (insert r l).
Proof.
  intros r l A. induction A as [|x l F A IH]; cbn [insert]; [constructor; [constructor|constructor]|]. destruct (alike_dec (r_m r) (r_g r) x) as [Q|Q].
  - constructor; [|exact A]. exact F.
  - constructor; [|exact IH]. rewrite Forall_forall in *. intros y I. destruct (insert_in _ _ _ I) as (z & [<-|J] & E1 & E2).
    + intros (B1 & B2). apply Q. unfold alike. rewrite E1, E2. split; now symmetry.
    + intros (B1 & B2). apply (F z J). unfold alike. now rewrite E1, E2.
Qed.
Lemma merge_apart : forall l, apart (merge l).
Proof. induction l as [|r l IH]; [constructor|]. now apply insert_apart. Qed.

Lemma apart_split : forall a x b, apart (a ++ x :: b) -> forall y, In y (a ++ b) -> ~ alike (r_m x) (r_g x) y.
Proof.
  induction a as [|z a IH]; intros x b A y I; cbn in A, I; inversion A as [|u w F A']; subst.
  - rewrite Forall_forall in F. now apply F.
  - destruct I as [<-|I]; [|now apply (IH x b A' y)]. rewrite Forall_forall in F. intros (Q1 & Q2). apply (F x); [apply in_or_app; right; now left|]. split; now symmetry.
Qed.

Lemma sec_insert : forall r l t, accepted (r_m r) (r_g r) -> sec_val t_0 t_in (insert r l) t = Cadd (Cmul (RtoC (r_a r)) (KC t_0 t_in (r_m r) (r_g r) t)) (sec_val t_0 t_in l t).
Proof.
  intros r l t A. unfold sec_val. induction l as [|x l IH]; cbn [insert map]; [reflexivity|]. destruct (alike_dec (r_m r) (r_g r) x) as [(Q1 & Q2)|Q].
  - unfold csum in *. cbn [map fold_right]. change (r_a (r_a r + r_a x, r_m x, r_g x)) with (r_a r + r_a x).
    change (r_m (r_a r + r_a x, r_m x, r_g x)) with (r_m x). change (r_g (r_a r + r_a x, r_m x, r_g x)) with (r_g x).
    rewrite (KC_alike _ _ (r_m x) (r_g x) t A Q1 Q2), RtoC_add. ring.
  - unfold csum in *. cbn [map fold_right]. rewrite IH. ring.
Qed.

Lemma sec_merge : forall l t, Forall (fun r => accepted (r_m r) (r_g r)) l -> sec_val t_0 t_in (merge l) t = sec_val t_0 t_in l t.
Proof.
  intros l t F. induction F as [|r l A F IH]; [reflexivity|]. cbn [merge fold_right]. fold (merge l). rewrite sec_insert by exact A. now rewrite IH.
Qed.

(** ** One sector *)

Definition placed (r : resonance) : place :=
  (Cmul (RtoC (r_a r)) (Dfac (variant_of (r_m r * r_m r) t_in) (Wt t_0 t_in (meson_pole (r_m r) (r_g r))) (Wt t_0 t_in 0)),
   (variant_of (r_m r * r_m r) t_in, Wt t_0 t_in (meson_pole (r_m r) (r_g r)))).

Lemma sec_fractions : forall l t, sec_val t_0 t_in l t = Cmul (Cdivt (Afac (Wt t_0 t_in t)) (Afac (Wt t_0 t_in 0))) (fractions (map placed l) (Wt t_0 t_in t)).
Proof.
  intros l t. unfold sec_val, fractions, csum. induction l as [|r l IH]; cbn; [ring|]. rewrite IH. unfold KC, comp_val, den, Cdivt. cbn [fst snd placed]. ring.
Qed.

Lemma Afac_t_neq0 : forall t, t <> RtoC t_in -> Afac (Wt t_0 t_in t) <> RtoC 0.
Proof.
  intros t N E. apply Afac_0_iff in E as [E|E]; [|now apply (W_neq_m1 t_0 t_in Hlt t N)].
  destruct (Wt_half_disc t_0 t_in Hlt t N) as (Q & _). rewrite E in Q. cbn in Q. lra.
Qed.

(** A sum that vanishes at enough points has no coupling. *)
Lemma vanishing : forall l ts, Forall (fun r => accepted (r_m r) (r_g r)) l -> NoDup ts -> (4 * length l - 3 <= length ts)%nat ->
  (forall t, In t ts -> t <> RtoC t_in /\ Forall (fun r => ~ at_pole (r_m r) (r_g r) t) l /\ sec_val t_0 t_in l t = RtoC 0) ->
  forall m g, tot l m g = 0.
Proof.
  intros l ts F D L Z m g. rewrite <- tot_merge.
  assert (FM : forall x, In x (merge l) -> accepted (r_m x) (r_g x)).
  { intros x I. destruct (merge_in l x I) as (y & J & <- & <-). rewrite Forall_forall in F. now apply F. }
  assert (ZERO : forall x, In x (merge l) -> r_a x = 0).
  { intros x I. apply in_split in I as (a & b & E).
    assert (Q : fst (placed x) = RtoC 0).
    { apply (independent (map placed (merge l)) (map (Wt t_0 t_in) ts)) with (a := map placed a) (b := map placed b).
      - assert (INJ : forall l', NoDup l' -> (forall t, In t l' -> t <> RtoC t_in) -> NoDup (map (Wt t_0 t_in) l')).
        { induction 1 as [|u w NI ND IH]; intros N; cbn; constructor; [|apply IH; intros t J; apply N; now right].
          intros J. apply in_map_iff in J as (u' & E' & J). apply (Wt_inj t_0 t_in Hlt) in E'; [subst u'; contradiction|apply N; now right|apply N; now left]. }
        apply INJ; [exact D|]. intros t J. now apply Z.
      - rewrite !map_length. pose proof (merge_length l). lia.
      - intros w y J K. apply in_map_iff in J as (t & <- & J). apply in_map_iff in K as (r & <- & K). unfold den, placed. cbn [fst snd].
        destruct (Z t J) as (N & P & _). rewrite (Dfac_zero_iff t_0 t_in Hlt) by (try exact N; apply accepted_good; now apply FM).
        destruct (merge_in l r K) as (y & KY & E1 & E2). rewrite Forall_forall in P. specialize (P y KY). rewrite E1, E2 in P. exact P.
      - intros w J. apply in_map_iff in J as (t & <- & J). destruct (Z t J) as (N & P & S). rewrite <- sec_merge in S by exact F. rewrite sec_fractions in S.
        apply Cmul_integral in S as [S|S]; [|exact S]. exfalso. revert S. apply Cdivt_neq0; [now apply Afac_t_neq0|]. now apply Afac_wn.
      - rewrite E, map_app. reflexivity.
      - exists (Wt t_0 t_in (meson_pole (r_m x) (r_g x))). assert (GX : accepted (r_m x) (r_g x)) by (apply FM; rewrite E; apply in_or_app; right; now left).
        pose proof (accepted_good _ _ GX) as G. assert (NI := proj1 G). split.
        + unfold den, placed. cbn [fst snd]. apply (Dfac_zero_iff t_0 t_in Hlt); [exact G|exact NI|now left].
        + intros y J. rewrite <- map_app in J. apply in_map_iff in J as (r & <- & J). unfold den, placed. cbn [fst snd].
          assert (GR : accepted (r_m r) (r_g r)). { apply FM. rewrite E. apply in_app_or in J. apply in_or_app. destruct J; [now left|right; now right]. }
          rewrite (Dfac_zero_iff t_0 t_in Hlt) by (try exact NI; now apply accepted_good). intros AP.
          apply (pole_alike (r_m r) (r_g r)) in AP. pose proof (merge_apart l) as AM. rewrite E in AM. apply (apart_split _ _ _ AM r J). split; symmetry; apply AP. }
    cbn [placed fst] in Q. apply Cmul_integral in Q as [Q|Q]; [now apply RtoC_inj|]. exfalso. revert Q.
    assert (GX : accepted (r_m x) (r_g x)) by (apply FM; rewrite E; apply in_or_app; right; now left).
    rewrite (Dfac_zero_iff t_0 t_in Hlt) by (try (now apply accepted_good); now apply (zero_neq_tin t_0)). exact (accepted_not_pole_0 t_0 t_in H0 Hlt _ _ GX). }
  clear - ZERO. induction (merge l) as [|x q IH]; [reflexivity|]. unfold tot in *. cbn [fold_right]. rewrite IH by (intros y I; apply ZERO; now right).
  destruct (alike_dec m g x); [|reflexivity]. rewrite (ZERO x) by now left. lra.
Qed.
End Nondegenerate.

(** ** The relation of the specification *)

Lemma total_tot : forall l m g x, total l m g x <-> x = tot l m g.
Proof.
  intros l m g x. split.
  - induction 1 as [m g|r l m g x A T IH|r l m g x A T IH]; unfold tot in *; cbn [fold_right]; [reflexivity| |]; destruct (alike_dec m g r); try contradiction; now subst.
  - intros ->. induction l as [|r l IH]; [constructor|]. unfold tot in *. cbn [fold_right]. destruct (alike_dec m g r); now constructor.
Qed.

Lemma same_tot : forall l l', same_couplings l l' <-> forall m g, tot l m g = tot l' m g.
Proof.
  intros l l'. unfold same_couplings. split.
  - intros H m g. apply total_tot. apply H. now apply total_tot.
  - intros H m g x. rewrite !total_tot, (H m g). reflexivity.
Qed.

Definition negated (l : list resonance) : list resonance := map (fun r => (- r_a r, r_m r, r_g r)) l.

Lemma tot_app : forall l l' m g, tot (l ++ l') m g = tot l m g + tot l' m g.
Proof. intros l l' m g. induction l as [|r l IH]; unfold tot in *; cbn [fold_right app]; [lra|]. rewrite IH. destruct (alike_dec m g r); lra. Qed.
Lemma tot_negated : forall l m g, tot (negated l) m g = - tot l m g.
Proof.
  intros l m g. induction l as [|r l IH]; unfold tot in *; cbn [fold_right negated map]; [lra|]. fold (negated l). rewrite IH. change (r_a (- r_a r, r_m r, r_g r)) with (- r_a r).
  assert (Q : alike m g (- r_a r, r_m r, r_g r) <-> alike m g r) by (unfold alike, r_m, r_g; cbn; tauto).
  destruct (alike_dec m g r), (alike_dec m g (- r_a r, r_m r, r_g r)); try tauto; lra.
Qed.
Lemma sec_app : forall t_0 t_in l l' t, sec_val t_0 t_in (l ++ l') t = Cadd (sec_val t_0 t_in l t) (sec_val t_0 t_in l' t).
Proof. intros. unfold sec_val. now rewrite map_app, csum_app. Qed.
Lemma sec_negated : forall t_0 t_in l t, sec_val t_0 t_in (negated l) t = Copp (sec_val t_0 t_in l t).
Proof.
  intros t_0 t_in l t. unfold sec_val, csum. induction l as [|r l IH]; cbn [negated map fold_right]; [ring|]. fold (negated l). rewrite IH.
  change (r_a (- r_a r, r_m r, r_g r)) with (- r_a r). change (r_m (- r_a r, r_m r, r_g r)) with (r_m r). change (r_g (- r_a r, r_m r, r_g r)) with (r_g r). rewrite RtoC_opp. ring.
Qed.
Lemma Forall_negated : forall (P : R -> R -> Prop) l, Forall (fun r => P (r_m r) (r_g r)) l -> Forall (fun r => P (r_m r) (r_g r)) (negated l).
Proof. intros P l F. unfold negated. rewrite Forall_map. exact F. Qed.

(** The couplings of a merged sector are the totals. *)
Lemma tot_apart : forall l x, apart l -> In x l -> tot l (r_m x) (r_g x) = r_a x.
Proof.
  intros l x A I. apply in_split in I as (a & b & ->). pose proof (apart_split a x b A) as N. rewrite tot_app.
  assert (Z : forall q, (forall y, In y q -> In y (a ++ b)) -> tot q (r_m x) (r_g x) = 0).
  { induction q as [|y q IH]; intros S; [reflexivity|]. unfold tot in *. cbn [fold_right]. destruct (alike_dec (r_m x) (r_g x) y) as [Q|Q]; [exfalso; apply (N y); [apply S; now left|exact Q]|].
    apply IH. intros z J. apply S. now right. }
  rewrite (Z a) by (intros y J; apply in_or_app; now left). unfold tot. cbn [fold_right]. fold (tot b (r_m x) (r_g x)). rewrite (Z b) by (intros y J; apply in_or_app; now right).
  destruct (alike_dec (r_m x) (r_g x) x) as [Q|Q]; [lra|]. exfalso. apply Q. now split.
Qed.

Lemma none : forall t_0 t_in l t, 0 <= t_0 -> t_0 < t_in -> Forall (fun r => accepted t_0 t_in (r_m r) (r_g r)) l -> (forall m g, tot l m g = 0) -> sec_val t_0 t_in l t = RtoC 0.
Proof.
  intros t_0 t_in l t H0 Hlt F Z. rewrite <- (sec_merge t_0 t_in Hlt) by exact F. pose proof (merge_apart l) as A.
  assert (Q : forall x, In x (merge l) -> r_a x = 0). { intros x I. rewrite <- (tot_apart _ x A I). rewrite tot_merge. apply Z. }
  clear - Q. unfold sec_val, csum. induction (merge l) as [|x q IH]; cbn; [reflexivity|]. rewrite IH by (intros y I; apply Q; now right). rewrite (Q x) by now left. ring.
Qed.

(** ** Sectors *)

Lemma sector_nondegenerate : forall t_0 t_in l t v, valid_sector t_0 t_in l -> l <> [] -> sector_eval t_0 t_in l t = Ok v -> t_0 < t_in.
Proof.
  intros t_0 t_in l t v ((A & [B|B]) & V) N E; [exact B|]. exfalso. subst t_in. rewrite sector_eval_degenerate in E by assumption. discriminate.
Qed.

Lemma sectors_determined : forall t_0 t_in l l' ts, valid_sector t_0 t_in l -> valid_sector t_0 t_in l' -> l <> [] -> NoDup ts -> (4 * (length l + length l') - 3 <= length ts)%nat ->
  (forall t, In t ts -> exists v, sector_eval t_0 t_in l t = Ok v /\ sector_eval t_0 t_in l' t = Ok v) -> same_couplings l l'.
Proof.
  intros t_0 t_in l l' ts V V' N D L Z. assert (H0 := proj1 (proj1 V)).
  assert (Hlt : t_0 < t_in).
  { destruct ts as [|t ts]; [destruct l; [congruence|cbn in L; lia]|]. destruct (Z t (or_introl eq_refl)) as (v & E & _). exact (sector_nondegenerate _ _ _ _ _ V N E). }
  apply same_tot. intros m g. assert (T : tot (l ++ negated l') m g = 0).
  { apply (vanishing t_0 t_in H0 Hlt) with (ts := ts).
    - apply Forall_app. split; [exact (proj2 V)|]. apply (Forall_negated (accepted t_0 t_in)). exact (proj2 V').
    - exact D.
    - rewrite app_length. unfold negated. rewrite map_length. exact L.
    - intros t I. destruct (Z t I) as (v & E & E').
      destruct (sector_eval_cases t_0 t_in H0 Hlt l t (proj2 V)) as [(_ & Q)|(T & P & Q)]; [congruence|].
      destruct (sector_eval_cases t_0 t_in H0 Hlt l' t (proj2 V')) as [(_ & Q')|(_ & P' & Q')]; [congruence|].
      split; [exact T|]. split; [apply Forall_app; split; [exact P|]; apply (Forall_negated (fun m g => ~ at_pole m g t)); exact P'|].
      rewrite sec_app, sec_negated. assert (W : sec_val t_0 t_in l t = sec_val t_0 t_in l' t) by congruence. rewrite W. ring. }
  rewrite tot_app, tot_negated in T. lra.
Qed.

Lemma sectors_agree : forall t_0 t_in l l' t v v', valid_sector t_0 t_in l -> valid_sector t_0 t_in l' -> l <> [] -> same_couplings l l' ->
  sector_eval t_0 t_in l t = Ok v -> sector_eval t_0 t_in l' t = Ok v' -> v = v'.
Proof.
  intros t_0 t_in l l' t v v' V V' N S E E'. assert (H0 := proj1 (proj1 V)). assert (Hlt := sector_nondegenerate _ _ _ _ _ V N E). rewrite same_tot in S.
  destruct (sector_eval_cases t_0 t_in H0 Hlt l t (proj2 V)) as [(_ & Q)|(T & P & Q)]; [congruence|].
  destruct (sector_eval_cases t_0 t_in H0 Hlt l' t (proj2 V')) as [(_ & Q')|(_ & P' & Q')]; [congruence|].
  assert (W : sec_val t_0 t_in (l ++ negated l') t = RtoC 0).
  { apply none; [exact H0|exact Hlt| |intros m g; rewrite tot_app, tot_negated, S; lra].
    apply Forall_app. split; [exact (proj2 V)|]. apply (Forall_negated (accepted t_0 t_in)). exact (proj2 V'). }
  rewrite sec_app, sec_negated in W. rewrite E in Q. rewrite E' in Q'. injection Q as ->. injection Q' as ->. apply Csub_eq. rewrite <- W. ring.
Qed.

(** ** The kaon models *)

Definition same_branch_points (kw kw' : env R) : Prop :=
  forall n, In n ["t_0_isoscalar"; "t_in_isoscalar"; "t_0_isovector"; "t_in_isovector"] -> kwval kw' n = kwval kw n.

Lemma sector_length : forall P k, (length (spec_sector P (isoscalar_resonances k)) <= 6)%nat /\ (length (spec_sector P (isovector_resonances k)) <= 4)%nat.
Proof. intros P []; cbn; lia. Qed.

(** The parts of a call. *)
Lemma Kaon_parts : forall k kw mc mn t c n, Kaon_init (kaon_class k) true kw = Ok mc -> Kaon_init (kaon_class k) false kw = Ok mn -> Kaon_call mc t = Ok c -> Kaon_call mn t = Ok n ->
  exists s v, sector_eval (kwval kw "t_0_isoscalar") (kwval kw "t_in_isoscalar") (spec_sector (kwval kw) (isoscalar_resonances k)) t = Ok s /\
    sector_eval (kwval kw "t_0_isovector") (kwval kw "t_in_isovector") (spec_sector (kwval kw) (isovector_resonances k)) t = Ok v /\ c = Cadd s v /\ n = Csub s v.
Proof.
  intros k kw mc mn t c n I J E F. rewrite (Kaon_view _ _ _ _ _ I) in E. rewrite (Kaon_view _ _ _ _ _ J) in F. destruct (Rlt_dec (Re t) 0); [discriminate|].
  destruct (sector_eval (kwval kw "t_0_isoscalar") _ _ t) as [s|]; [|discriminate]. cbn [bind] in E, F.
  destruct (sector_eval (kwval kw "t_0_isovector") _ _ t) as [v|]; [|discriminate]. cbn [bind] in E, F. injection E as <-. injection F as <-.
  exists s, v. repeat split; reflexivity.
Qed.

(** Agreement of the charged and of the neutral form factor of two models at 45 points means agreement of the total coupling of every pole. *)
Theorem C65_determined : forall k k' kw kw' mc mn mc' mn' ts,
  Kaon_init (kaon_class k) true kw = Ok mc -> Kaon_init (kaon_class k) false kw = Ok mn ->
  Kaon_init (kaon_class k') true kw' = Ok mc' -> Kaon_init (kaon_class k') false kw' = Ok mn' ->
  same_branch_points kw kw' -> NoDup ts -> (45 <= length ts)%nat ->
  (forall t, In t ts -> exists c n, Kaon_call mc t = Ok c /\ Kaon_call mc' t = Ok c /\ Kaon_call mn t = Ok n /\ Kaon_call mn' t = Ok n) ->
  same_couplings (spec_sector (kwval kw) (isoscalar_resonances k)) (spec_sector (kwval kw') (isoscalar_resonances k')) /\
  same_couplings (spec_sector (kwval kw) (isovector_resonances k)) (spec_sector (kwval kw') (isovector_resonances k')).
Proof.
  intros k k' kw kw' mc mn mc' mn' ts I J I' J' B D L Z.
  destruct (Kaon_valid _ _ _ _ I) as (V1 & V2). destruct (Kaon_valid _ _ _ _ I') as (V1' & V2').
  destruct (spec_sector_nonempty (kwval kw) k) as (N1 & N2). pose proof (sector_length (kwval kw) k). pose proof (sector_length (kwval kw') k').
  assert (Q : forall t, In t ts -> exists s v,
    sector_eval (kwval kw "t_0_isoscalar") (kwval kw "t_in_isoscalar") (spec_sector (kwval kw) (isoscalar_resonances k)) t = Ok s /\
    sector_eval (kwval kw' "t_0_isoscalar") (kwval kw' "t_in_isoscalar") (spec_sector (kwval kw') (isoscalar_resonances k')) t = Ok s /\
    sector_eval (kwval kw "t_0_isovector") (kwval kw "t_in_isovector") (spec_sector (kwval kw) (isovector_resonances k)) t = Ok v /\
    sector_eval (kwval kw' "t_0_isovector") (kwval kw' "t_in_isovector") (spec_sector (kwval kw') (isovector_resonances k')) t = Ok v).
  { intros t IT. destruct (Z t IT) as (c & n & E1 & E2 & E3 & E4).
    destruct (Kaon_parts _ _ _ _ _ _ _ I J E1 E3) as (s & v & S & V & C1 & C2). destruct (Kaon_parts _ _ _ _ _ _ _ I' J' E2 E4) as (s' & v' & S' & V' & C1' & C2').
    assert (ES : s = s').
    { assert (A : Cmul (RtoC 2) s = Cmul (RtoC 2) s'). { transitivity (Cadd c n); [rewrite C1, C2|rewrite C1', C2']; Cext; ring. }
      apply C_ext; [apply (f_equal Re) in A|apply (f_equal Im) in A]; cbn in A; lra. }
    assert (EV : v = v').
    { assert (A : Cmul (RtoC 2) v = Cmul (RtoC 2) v'). { transitivity (Csub c n); [rewrite C1, C2|rewrite C1', C2']; Cext; ring. }
      apply C_ext; [apply (f_equal Re) in A|apply (f_equal Im) in A]; cbn in A; lra. }
    subst s' v'. exists s, v. tauto. }
  rewrite !B in V1', V2' by (cbn; tauto).
  split; eapply sectors_determined with (ts := ts); try eassumption; try lia; intros t IT; destruct (Q t IT) as (s & v & Q1 & Q2 & Q3 & Q4); rewrite ?B in Q2 by (cbn; tauto); rewrite ?B in Q4 by (cbn; tauto);
    [exists s|exists v]; split; assumption.
Qed.
Print Assumptions C65_determined.

(** The converse, at every point at which both models have values, for each charge. *)
Theorem C65_agree : forall k k' ch kw kw' m m' t v v',
  Kaon_init (kaon_class k) ch kw = Ok m -> Kaon_init (kaon_class k') ch kw' = Ok m' -> same_branch_points kw kw' ->
  same_couplings (spec_sector (kwval kw) (isoscalar_resonances k)) (spec_sector (kwval kw') (isoscalar_resonances k')) ->
  same_couplings (spec_sector (kwval kw) (isovector_resonances k)) (spec_sector (kwval kw') (isovector_resonances k')) ->
  Kaon_call m t = Ok v -> Kaon_call m' t = Ok v' -> v = v'.
Proof.
  intros k k' ch kw kw' m m' t x x' I I' B S1 S2 E E'.
  destruct (Kaon_valid _ _ _ _ I) as (V1 & V2). destruct (Kaon_valid _ _ _ _ I') as (V1' & V2').
  destruct (spec_sector_nonempty (kwval kw) k) as (N1 & N2). rewrite (Kaon_view _ _ _ _ _ I) in E. rewrite (Kaon_view _ _ _ _ _ I') in E'.
  rewrite !B in E', V1', V2' by (cbn; tauto). destruct (Rlt_dec (Re t) 0); [discriminate|].
  destruct (sector_eval _ _ (spec_sector (kwval kw) (isoscalar_resonances k)) t) as [s|] eqn:Q1; [|discriminate]. cbn [bind] in E.
  destruct (sector_eval _ _ (spec_sector (kwval kw) (isovector_resonances k)) t) as [v|] eqn:Q2; [|discriminate]. cbn [bind] in E.
  destruct (sector_eval _ _ (spec_sector (kwval kw') (isoscalar_resonances k')) t) as [s'|] eqn:Q1'; [|discriminate]. cbn [bind] in E'.
  destruct (sector_eval _ _ (spec_sector (kwval kw') (isovector_resonances k')) t) as [v'|] eqn:Q2'; [|discriminate]. cbn [bind] in E'.
  rewrite !B in Q2' by (cbn; tauto). rewrite (sectors_agree _ _ _ _ _ _ _ V1 V1' N1 S1 Q1 Q1') in E. rewrite (sectors_agree _ _ _ _ _ _ _ V2 V2' N2 S2 Q2 Q2') in E. congruence.
Qed.
Print Assumptions C65_agree.

(** ** When the resonances can be told apart, the parameters are determined up to signs and order *)

(** A resonance without the signs of its mass and its width. *)
Definition unsigned (r : resonance) : R * R * R := (r_a r, Rabs (r_m r), Rabs (r_g r)).
Definition distinguishable (l : list resonance) : Prop :=
  (forall r, In r l -> r_a r <> 0) /\ NoDup (map (fun r => (Rabs (r_m r), Rabs (r_g r))) l).

Lemma alike_abs : forall m g r, alike m g r <-> (Rabs (r_m r), Rabs (r_g r)) = (Rabs m, Rabs g).
Proof.
  intros m g r. unfold alike. split.
  - intros (A & B). f_equal; apply Rsqr_eq_abs_0; assumption.
  - intros E. injection E as A B. split; [apply (f_equal (fun x => x * x)) in A|apply (f_equal (fun x => x * x)) in B]; rewrite <- !Rabs_mult in *; rewrite !Rabs_pos_eq in * by nra; assumption.
Qed.

Lemma nodup_apart : forall l, NoDup (map (fun r => (Rabs (r_m r), Rabs (r_g r))) l) -> apart l.
Proof.
  induction l as [|x l IH]; intros D; [constructor|]. cbn in D. inversion D as [|u w NI D']; subst. constructor; [|now apply IH].
  apply Forall_forall. intros y I A. apply alike_abs in A. apply NI. rewrite <- A. now apply (in_map (fun r => (Rabs (r_m r), Rabs (r_g r)))).
Qed.

Lemma tot_witness : forall l m g, tot l m g <> 0 -> exists r, In r l /\ alike m g r.
Proof.
  induction l as [|x l IH]; intros m g N; [exfalso; now apply N|]. unfold tot in N. cbn [fold_right] in N. destruct (alike_dec m g x) as [A|A]; [exists x; split; [now left|exact A]|].
  destruct (IH m g N) as (r & I & B). exists r. split; [now right|exact B].
Qed.

Lemma sectors_unique : forall l l', distinguishable l -> length l' = length l -> same_couplings l l' -> Permutation (map unsigned l) (map unsigned l').
Proof.
  intros l l' (N & D) L S. rewrite same_tot in S. pose proof (nodup_apart l D) as A.
  assert (W : forall x, In x l -> exists y, In y l' /\ alike (r_m x) (r_g x) y).
  { intros x I. apply tot_witness. rewrite <- S, tot_apart by assumption. now apply N. }
  assert (P : Permutation (map (fun r => (Rabs (r_m r), Rabs (r_g r))) l) (map (fun r => (Rabs (r_m r), Rabs (r_g r))) l')).
  { apply NoDup_Permutation_bis; [exact D|rewrite !map_length; lia|]. intros u I. apply in_map_iff in I as (x & <- & I). destruct (W x I) as (y & J & Q). apply alike_abs in Q. rewrite <- Q.
    now apply (in_map (fun r => (Rabs (r_m r), Rabs (r_g r)))). }
  assert (A' : apart l') by (apply nodup_apart; now apply (Permutation_NoDup P)).
  apply NoDup_Permutation_bis.
  - clear - D. induction l as [|x l IH]; cbn in *; [constructor|]. inversion D as [|u w NI D']; subst. constructor; [|now apply IH].
    intros I. apply NI. apply in_map_iff in I as (y & E & I). injection E as _ E1 E2. rewrite <- E1, <- E2. now apply (in_map (fun r => (Rabs (r_m r), Rabs (r_g r)))).
  - rewrite !map_length. lia.
  - intros u I. apply in_map_iff in I as (x & <- & I). destruct (W x I) as (y & J & Q). apply in_map_iff. exists y. split; [|exact J].
    assert (T : r_a y = r_a x).
    { rewrite <- (tot_apart l' y A' J), <- (tot_apart l x A I), S. destruct Q as (Q1 & Q2). clear - Q1 Q2.
      induction l' as [|z q IH]; [reflexivity|]. unfold tot in *. cbn [fold_right]. rewrite IH. assert (X : alike (r_m y) (r_g y) z <-> alike (r_m x) (r_g x) z) by (unfold alike; rewrite Q1, Q2; tauto).
      destruct (alike_dec (r_m y) (r_g y) z), (alike_dec (r_m x) (r_g x) z); tauto || reflexivity. }
    apply alike_abs in Q. injection Q as Q1 Q2. unfold unsigned. now rewrite T, Q1, Q2.
Qed.

Lemma spec_sector_length : forall P names, names <> [] -> length (spec_sector P names) = length names.
Proof. intros P names N. unfold spec_sector. rewrite map_length, combine_length, spec_couplings_length by exact N. apply Nat.min_id. Qed.

Theorem C65_unique : forall k kw kw' mc mn mc' mn' ts,
  Kaon_init (kaon_class k) true kw = Ok mc -> Kaon_init (kaon_class k) false kw = Ok mn ->
  Kaon_init (kaon_class k) true kw' = Ok mc' -> Kaon_init (kaon_class k) false kw' = Ok mn' ->
  same_branch_points kw kw' -> NoDup ts -> (45 <= length ts)%nat ->
  (forall t, In t ts -> exists c n, Kaon_call mc t = Ok c /\ Kaon_call mc' t = Ok c /\ Kaon_call mn t = Ok n /\ Kaon_call mn' t = Ok n) ->
  (distinguishable (spec_sector (kwval kw) (isoscalar_resonances k)) ->
   Permutation (map unsigned (spec_sector (kwval kw) (isoscalar_resonances k))) (map unsigned (spec_sector (kwval kw') (isoscalar_resonances k)))) /\
  (distinguishable (spec_sector (kwval kw) (isovector_resonances k)) ->
   Permutation (map unsigned (spec_sector (kwval kw) (isovector_resonances k))) (map unsigned (spec_sector (kwval kw') (isovector_resonances k)))).
Proof.
  intros k kw kw' mc mn mc' mn' ts I J I' J' B D L Z. destruct (C65_determined _ _ _ _ _ _ _ _ _ I J I' J' B D L Z) as (S1 & S2).
  destruct (resonances_nonempty k) as (N1 & N2).
  split; intros X; apply sectors_unique; try assumption; now rewrite !spec_sector_length.
Qed.
Print Assumptions C65_unique.

(** ** Signs *)

(** The same branch points and couplings, the same masses and widths up to signs. *)
Definition up_to_signs (names : list string) (kw kw' : env R) : Prop :=
  forall n, In n names -> kwval kw' ("a_" ++ n)%string = kwval kw ("a_" ++ n)%string /\
    Rabs (kwval kw' ("mass_" ++ n)%string) = Rabs (kwval kw ("mass_" ++ n)%string) /\
    Rabs (kwval kw' ("decay_rate_" ++ n)%string) = Rabs (kwval kw ("decay_rate_" ++ n)%string).

Lemma abs_square : forall x y, Rabs x = Rabs y -> x * x = y * y.
Proof. intros x y E. apply (f_equal (fun x => x * x)) in E. rewrite <- !Rabs_mult in E. rewrite !Rabs_pos_eq in E by nra. exact E. Qed.

Lemma sector_signs : forall names kw kw' t_0 t_in t, names <> [] -> up_to_signs names kw kw' ->
  valid_sector t_0 t_in (spec_sector (kwval kw) names) -> valid_sector t_0 t_in (spec_sector (kwval kw') names) ->
  sector_eval t_0 t_in (spec_sector (kwval kw') names) t = sector_eval t_0 t_in (spec_sector (kwval kw) names) t.
Proof.
  intros names kw kw' t_0 t_in t N U V V'. destruct (V) as ((H0 & [Hlt|E]) & F); destruct V' as (_ & F').
  2: { subst t_in. assert (NE : forall P, spec_sector P names <> []) by (intros P Q; apply (f_equal (@length _)) in Q; rewrite spec_sector_length in Q by exact N; destruct names; [congruence|discriminate]).
       rewrite !sector_eval_degenerate by (try assumption; apply NE). reflexivity. }
  assert (C : spec_couplings (kwval kw') names = spec_couplings (kwval kw) names).
  { unfold spec_couplings. assert (M : map (fun n => kwval kw' ("a_" ++ n)%string) (removelast names) = map (fun n => kwval kw ("a_" ++ n)%string) (removelast names)).
    { apply map_ext_in. intros n I. apply U. rewrite (app_removelast_last "" N). apply in_or_app. now left. }
    now rewrite M. }
  assert (P : Forall2 (fun r r' => r_a r' = r_a r /\ r_m r' * r_m r' = r_m r * r_m r /\ r_g r' * r_g r' = r_g r * r_g r) (spec_sector (kwval kw) names) (spec_sector (kwval kw') names)).
  { unfold spec_sector. rewrite C. clear - U. revert U. generalize (spec_couplings (kwval kw) names). induction names as [|n names IH]; intros l U; destruct l as [|a l]; cbn; try constructor.
    - destruct (U n (or_introl eq_refl)) as (_ & A & B). unfold r_a, r_m, r_g. cbn. split; [reflexivity|]. split; now apply abs_square.
    - apply IH. intros n' I. apply U. now right. }
  assert (EX : Exists (fun r => at_pole (r_m r) (r_g r) t) (spec_sector (kwval kw') names) <-> Exists (fun r => at_pole (r_m r) (r_g r) t) (spec_sector (kwval kw) names)).
  { clear - P. induction P as [|r r' l l' (_ & A & B) P IH]; [rewrite !Exists_nil; tauto|]. rewrite !Exists_cons, IH, (alike_pole_iff _ _ _ _ t A B). tauto. }
  assert (S : sec_val t_0 t_in (spec_sector (kwval kw') names) t = sec_val t_0 t_in (spec_sector (kwval kw) names) t).
  { clear - P F H0 Hlt. unfold sec_val, csum. revert F. induction P as [|r r' l l' (A & B & D) P IH]; intros F; [reflexivity|]. cbn [map fold_right]. inversion F as [|u w Fr F']; subst.
    rewrite IH by exact F'. rewrite A. now rewrite (KC_alike t_0 t_in Hlt (r_m r) (r_g r) (r_m r') (r_g r') t Fr B D). }
  destruct (sector_eval_cases t_0 t_in H0 Hlt _ t F) as [(A & Q)|(A & B & Q)]; destruct (sector_eval_cases t_0 t_in H0 Hlt _ t F') as [(A' & Q')|(A' & B' & Q')]; rewrite Q, Q'; try reflexivity.
  - exfalso. destruct A as [A|A]; [contradiction|]. apply EX in A. apply Forall_Exists_neg in B'. contradiction.
  - exfalso. destruct A' as [A'|A']; [contradiction|]. apply EX in A'. apply Forall_Exists_neg in B. contradiction.
  - now rewrite S.
Qed.

Lemma accepted_signs : forall t_0 t_in m g m' g', Rabs m' = Rabs m -> Rabs g' = Rabs g -> resonance_accepted t_0 t_in m g -> resonance_accepted t_0 t_in m' g'.
Proof.
  intros t_0 t_in m g m' g' M G (A & B & D). apply abs_square in M, G. unfold resonance_accepted. rewrite M, <- resonance_pole_eq in *.
  assert (R : forall x : R, meson_pole m g <> RtoC x -> meson_pole m' g' <> RtoC x).
  { intros x N E. apply N. destruct (pole_cases m g m' g' M G) as [Q|Q]; rewrite Q in E; [exact E|]. apply Cconj_inj. now rewrite E, Cconj_RtoC. }
  split; [exact A|]. split; [now apply R|]. intros L. apply R. now apply D.
Qed.

(** Signs of masses and widths change neither the acceptance nor any result, errors included. *)
Theorem C65_signs : forall k ch kw kw', Permutation (map fst kw') (map fst kw) -> same_branch_points kw kw' ->
  up_to_signs (isoscalar_resonances k ++ isovector_resonances k) kw kw' ->
  (is_ok (Kaon_init (kaon_class k) ch kw') <-> is_ok (Kaon_init (kaon_class k) ch kw)) /\
  (forall m m' t, Kaon_init (kaon_class k) ch kw = Ok m -> Kaon_init (kaon_class k) ch kw' = Ok m' -> Kaon_call m' t = Kaon_call m t).
Proof.
  intros k ch kw kw' P B U.
  assert (U1 : up_to_signs (isoscalar_resonances k) kw kw') by (intros n I; apply U, in_or_app; now left).
  assert (U2 : up_to_signs (isovector_resonances k) kw kw') by (intros n I; apply U, in_or_app; now right).
  split.
  - assert (ONE : forall w w' n1 n2 names, up_to_signs names w w' -> kwval w' n1 = kwval w n1 -> kwval w' n2 = kwval w n2 ->
      sector_accepted (kwval w) (kwval w n1) (kwval w n2) names -> sector_accepted (kwval w') (kwval w' n1) (kwval w' n2) names).
    { intros w w' n1 n2 names X -> -> (A & D & E). split; [exact A|]. split; [exact D|]. intros n I. destruct (X n I) as (_ & X1 & X2). apply (accepted_signs _ _ _ _ _ _ X1 X2). now apply E. }
    assert (SYM : forall names, up_to_signs names kw kw' -> up_to_signs names kw' kw).
    { intros names X n I. destruct (X n I) as (X1 & X2 & X3). repeat split; now symmetry. }
    rewrite !Kaon_accept_iff. split; intros (A & S1 & S2).
    + split; [now rewrite <- P|]. split; [revert S1|revert S2]; apply ONE; try (now apply SYM); symmetry; apply B; cbn; tauto.
    + split; [now rewrite P|]. split; [revert S1|revert S2]; apply ONE; try assumption; apply B; cbn; tauto.
  - intros m m' t I I'. destruct (Kaon_valid _ _ _ _ I) as (V1 & V2). destruct (Kaon_valid _ _ _ _ I') as (V1' & V2'). destruct (resonances_nonempty k) as (N1 & N2).
    rewrite (Kaon_view _ _ _ _ _ I), (Kaon_view _ _ _ _ _ I'). rewrite !(B "t_0_isoscalar"), !(B "t_in_isoscalar") in * by (cbn; tauto).
    rewrite (B "t_0_isovector"), (B "t_in_isovector") in * by (cbn; tauto).
    rewrite (sector_signs _ kw kw' _ _ t N1 U1 V1 V1'), (sector_signs _ kw kw' _ _ t N2 U2 V2 V2'). reflexivity.
Qed.
Print Assumptions C65_signs.

(** ** Instances *)

(** All resonances alike: every coupling of the given ones gives the same form factors. *)
Lemma demo_sector : forall c k names, (forall n, In n names -> In ("mass_" ++ n)%string (kaon_keywords k) /\ In ("decay_rate_" ++ n)%string (kaon_keywords k)) ->
  forall r, In r (spec_sector (kwval (demo_kw c (1/2) k)) names) -> r_m r = 2 /\ r_g r = 1/2.
Proof.
  intros c k names K r I. unfold spec_sector in I. apply in_map_iff in I as ((a & n) & <- & I). apply in_combine_r in I. destruct (K n I) as (K1 & K2).
  unfold r_m, r_g. cbn [fst snd]. rewrite !demo_kwval by assumption. unfold demo_value. split; reflexivity.
Qed.

Lemma demo_same : forall l l', (forall r, In r (l ++ l') -> r_m r = 2 /\ r_g r = 1/2) -> total_coupling l = total_coupling l' -> same_couplings l l'.
Proof.
  intros l l' H E. apply same_tot. intros m g.
  assert (T : forall q, (forall r, In r q -> r_m r = 2 /\ r_g r = 1/2) -> tot q m g = if alike_dec m g (0, 2, 1/2) then total_coupling q else 0).
  { unfold total_coupling. induction q as [|r q IH]; intros Q; [cbn; now destruct (alike_dec m g (0, 2, 1/2))|]. unfold tot in *. cbn [fold_right map]. rewrite IH by (intros y I; apply Q; now right).
    destruct (Q r (or_introl eq_refl)) as (Q1 & Q2). assert (X : alike m g r <-> alike m g (0, 2, 1/2)) by (unfold alike; rewrite Q1, Q2; unfold r_m, r_g; cbn; tauto).
    destruct (alike_dec m g r), (alike_dec m g (0, 2, 1/2)); try tauto; reflexivity. }
  rewrite !T by (intros r I; apply H, in_or_app; tauto). now rewrite E.
Qed.

Example C65_instance_alike : forall k ch, exists m m', Kaon_init (kaon_class k) ch (demo_kw (1/7) (1/2) k) = Ok m /\ Kaon_init (kaon_class k) ch (demo_kw (-3) (1/2) k) = Ok m' /\
  forall t v v', Kaon_call m t = Ok v -> Kaon_call m' t = Ok v' -> v = v'.
Proof.
  intros k ch. destruct (demo_accepted (1/7) (1/2) k ch) as (m & I). destruct (demo_accepted (-3) (1/2) k ch) as (m' & I'). exists m, m'. split; [exact I|]. split; [exact I'|].
  intros t v v' E E'. destruct (resonances_nonempty k) as (N1 & N2). revert E E'. apply (C65_agree k k ch _ _ m m' t v v' I I').
  - intros n J. rewrite !demo_kwval by (destruct k; cbn in J; repeat (destruct J as [<-|J]; [inkw|]); contradiction). cbn in J. repeat (destruct J as [<-|J]; [reflexivity|]). contradiction.
  - apply demo_same; [|now rewrite !total_spec_sector]. intros r J. apply in_app_or in J as [J|J]; eapply demo_sector; try exact J;
    intros n K; destruct k; cbn in K; repeat (destruct K as [<-|K]; [split; inkw|]); contradiction.
  - apply demo_same; [|now rewrite !total_spec_sector]. intros r J. apply in_app_or in J as [J|J]; eapply demo_sector; try exact J;
    intros n K; destruct k; cbn in K; repeat (destruct K as [<-|K]; [split; inkw|]); contradiction.
Qed.

(** Different masses: the name of the resonance decides; the sign of the masses is [s], the one of the widths [u]. *)
Definition apart_value (s u : R) (n : string) : R :=
  if String.prefix "t_0" n then 1
  else if String.prefix "t_in" n then 2
  else if String.prefix "a_" n then 1/7
  else if String.prefix "mass_rho_triple" n then s * 30
  else if String.prefix "mass" n then s * INR (String.length n)
  else u / 2.
Definition apart_kw (s u : R) (k : kaon_kind) : env R := map (fun n => (n, apart_value s u n)) (kaon_keywords k).

Lemma apart_kwval : forall s u k n, In n (kaon_keywords k) -> kwval (apart_kw s u k) n = apart_value s u n.
Proof. intros s u k n H. unfold kwval, apart_kw. now rewrite lookup_map_pair. Qed.

Lemma apart_accepted : forall k ch, exists m, Kaon_init (kaon_class k) ch (apart_kw 1 1 k) = Ok m.
Proof.
  intros k ch. apply Kaon_accept_iff. split.
  { unfold apart_kw. rewrite map_map. cbn [fst]. rewrite map_id. reflexivity. }
  assert (A : forall x, 2 <= x -> resonance_accepted 1 2 x (1/2)).
  { intros x X. unfold resonance_accepted, resonance_pole. split; [nra|]. split; [|nra].
    intros E. apply (f_equal Im) in E. cbn in E. nra. }
  unfold sector_accepted.
  split; rewrite !apart_kwval by (destruct k; inkw);
    (split; [unfold apart_value; simpl; lra|]); (split; [unfold apart_value; simpl; lra|]);
    intros n Hn; rewrite !apart_kwval by (destruct k; simpl in Hn;
      repeat (destruct Hn as [<-|Hn]; [inkw|]); contradiction);
    destruct k; simpl in Hn; repeat (destruct Hn as [<-|Hn]; [apply A; unfold apart_value; simpl; lra|]); contradiction.
Qed.

Definition forty_five : list C := map (fun n => RtoC (INR n)) (seq 3 45).
Lemma forty_five_in : forall t, In t forty_five -> exists x, t = RtoC x /\ 3 <= x.
Proof. intros t I. apply in_map_iff in I as (n & <- & I). exists (INR n). split; [reflexivity|]. apply in_seq in I. replace 3 with (INR 3) by (cbn; lra). apply le_INR. lia. Qed.

Example C65_instance : forall k, exists mc mn mc' mn',
  Kaon_init (kaon_class k) true (apart_kw 1 1 k) = Ok mc /\ Kaon_init (kaon_class k) false (apart_kw 1 1 k) = Ok mn /\
  Kaon_init (kaon_class k) true (apart_kw (-1) (-1) k) = Ok mc' /\ Kaon_init (kaon_class k) false (apart_kw (-1) (-1) k) = Ok mn' /\
  same_branch_points (apart_kw 1 1 k) (apart_kw (-1) (-1) k) /\ NoDup forty_five /\ (45 <= length forty_five)%nat /\
  (forall t, In t forty_five -> exists c n, Kaon_call mc t = Ok c /\ Kaon_call mc' t = Ok c /\ Kaon_call mn t = Ok n /\ Kaon_call mn' t = Ok n) /\
  distinguishable (spec_sector (kwval (apart_kw 1 1 k)) (isoscalar_resonances k)) /\ distinguishable (spec_sector (kwval (apart_kw 1 1 k)) (isovector_resonances k)).
Proof.
  intros k. destruct (apart_accepted k true) as (mc & I). destruct (apart_accepted k false) as (mn & J).
  assert (B : same_branch_points (apart_kw 1 1 k) (apart_kw (-1) (-1) k)).
  { intros n N. rewrite !apart_kwval by (destruct k; cbn in N; repeat (destruct N as [<-|N]; [inkw|]); contradiction). cbn in N. repeat (destruct N as [<-|N]; [reflexivity|]). contradiction. }
  assert (P : Permutation (map fst (apart_kw (-1) (-1) k)) (map fst (apart_kw 1 1 k))) by (unfold apart_kw; rewrite !map_map; reflexivity).
  assert (NEG : forall x, Rabs (-1 * x) = Rabs (1 * x)) by (intros x; rewrite <- Rabs_Ropp; f_equal; ring).
  assert (NEG2 : Rabs (-1 / 2) = Rabs (1 / 2)) by (rewrite <- Rabs_Ropp; f_equal; field).
  assert (U : up_to_signs (isoscalar_resonances k ++ isovector_resonances k) (apart_kw 1 1 k) (apart_kw (-1) (-1) k)).
  { intros n N. split.
    - destruct k; cbn in N; repeat (destruct N as [<-|N]; [reflexivity|]); contradiction.
    - rewrite !apart_kwval by (destruct k; cbn in N; repeat (destruct N as [<-|N]; [inkw|]); contradiction).
      destruct k; cbn in N; repeat (destruct N as [<-|N]; [split; [apply NEG|exact NEG2]|]); contradiction. }
  destruct (C65_signs k true _ _ P B U) as ((_ & SI) & SC). destruct (C65_signs k false _ _ P B U) as ((_ & SJ) & SN).
  destruct SI as (mc' & I'); [now exists mc|]. destruct SJ as (mn' & J'); [now exists mn|].
  exists mc, mn, mc', mn'. repeat (split; [assumption|]). split; [|split; [unfold forty_five; rewrite map_length, seq_length; lia|split]].
  - unfold forty_five. apply FinFun.Injective_map_NoDup; [|apply seq_NoDup]. intros a b E. apply RtoC_inj in E. now apply INR_eq.
  - intros t T. destruct (forty_five_in t T) as (x & -> & X).
    assert (DEF : forall ch m, Kaon_init (kaon_class k) ch (apart_kw 1 1 k) = Ok m -> is_ok (Kaon_call m (RtoC x))).
    { intros ch m H. apply (C18_kaon_defined_on_real_axis k ch (apart_kw 1 1 k) m x H); rewrite ?apart_kwval by (destruct k; inkw); try (unfold apart_value; cbn; lra).
      intros n N. rewrite !apart_kwval by (destruct k; cbn in N; repeat (destruct N as [<-|N]; [inkw|]); contradiction).
      destruct k; cbn in N; repeat (destruct N as [<-|N]; [unfold apart_value; simpl; split; apply Rgt_not_eq; lra|]); contradiction. }
    destruct (DEF true mc I) as (c & EC). destruct (DEF false mn J) as (n & EN). exists c, n. split; [exact EC|]. split; [rewrite (SC mc mc' _ I I'); exact EC|].
    split; [exact EN|]. rewrite (SN mn mn' _ J J'). exact EN.
  - unfold distinguishable, spec_sector, spec_couplings.
    destruct k; cbn [isoscalar_resonances isovector_resonances removelast map app combine Rsum fold_right fst snd r_m r_g r_a];
      rewrite !apart_kwval by inkw; unfold apart_value; simpl; (split; (split;
      [intros r R; repeat (destruct R as [<-|R]; [unfold r_a; cbn; lra|]); contradiction|
       unfold r_m, r_g; cbn; rewrite !Rabs_pos_eq by lra;
       repeat (apply NoDup_cons; [cbn; intros Q; repeat (destruct Q as [Q|Q]; [injection Q as Q; lra|]); exact Q|]); apply NoDup_nil])).
Qed.
