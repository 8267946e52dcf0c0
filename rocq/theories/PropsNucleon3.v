(** Properties C43 and C44: the nucleon form factors as electric and magnetic combinations, and as
    sums over vector mesons when all widths are zero. *)
From Coq Require Import String Reals Bool Arith List Lra Permutation.
From Verif Require Import PyBase CNum UAMaps UAComponents PyExpr Nucleon MapProofs ComponentProofs
  ExprProofs KaonProofs SectorProofs KaonSpec NucleonCache NucleonProofs NucleonView NucleonSpec
  PropsMaps PropsOther PropsKaon PropsKaon2 PropsNucleon PropsNucleon2.
Import ListNotations.
Local Open Scope R_scope.
Local Open Scope py_scope.
Local Open Scope string_scope.

#[local] Arguments String.append : simpl never.

(** ** C43 Electric and magnetic form factors *)

(** A value for one pair of flags gives a value for every other. *)
Lemma evaluate_other_flags : forall k p e kw t v p' e', evaluate k p e kw t = Ok v ->
  (e' = true -> kwval kw "nucleon_mass" <> 0) -> evaluate k p' e' kw t = Ok (combined k kw p' e' t).
Proof.
  intros k p e kw t v p' e' H N.
  assert (A : is_ok (Nucleon_init (nucleon_class k) p' e' kw)).
  { apply Nucleon_accept_iff. apply (Nucleon_accept_iff k p e). unfold evaluate in H.
    destruct (Nucleon_init (nucleon_class k) p e kw) as [x|]; [now exists x|discriminate]. }
  apply evaluate_Ok in H. destruct H as [m [B [ND [Ht [D _]]]]].
  destruct (evaluate_built k p' e' kw) as [[m' [c [E [B' X]]]]|[x [E X]]].
  2:{ destruct A as [a A]. congruence. }
  rewrite X. destruct (call_cases k p' e' kw m' B' t ND Ht) as [[_ Y]|[Y _]]; [assumption|].
  exfalso. apply Y. split; [apply D|assumption].
Qed.

(** The momentum transfer at which a pair of nucleons is created. *)
Definition pair_threshold (kw : env R) : R := 4 * (kwval kw "nucleon_mass" * kwval kw "nucleon_mass").

Theorem C43_equal_at_threshold : forall k proton kw v, kwval kw "nucleon_mass" <> 0 ->
  evaluate k proton true kw (RtoC (pair_threshold kw)) = Ok v <->
  evaluate k proton false kw (RtoC (pair_threshold kw)) = Ok v.
Proof.
  intros k p kw v N.
  assert (X : combined k kw p true (RtoC (pair_threshold kw)) = combined k kw p false (RtoC (pair_threshold kw))).
  { unfold combined. fold (pair_threshold kw).
    assert (P : RtoC (pair_threshold kw) <> RtoC 0).
    { apply RtoC_neq0. unfold pair_threshold. assert (0 < kwval kw "nucleon_mass" * kwval kw "nucleon_mass") by nra. lra. }
    assert (Q : Cdivt (RtoC (pair_threshold kw)) (RtoC (pair_threshold kw)) = RtoC 1) by (field; assumption).
    rewrite Q. destruct p; ring. }
  split; intros H.
  - assert (E := H). apply evaluate_Ok in E. destruct E as [_ [_ [_ [_ [_ ->]]]]].
    rewrite X. now apply (evaluate_other_flags _ _ _ _ _ _ p false H).
  - assert (E := H). apply evaluate_Ok in E. destruct E as [_ [_ [_ [_ [_ ->]]]]].
    rewrite <- X. now apply (evaluate_other_flags _ _ _ _ _ _ p true H).
Qed.
Print Assumptions C43_equal_at_threshold.

(** The parameters agree except perhaps for the mass of the nucleon. *)
Definition same_but_nucleon_mass (kw kw' : env R) : Prop :=
  forall n, In n nucleon_keywords -> n <> "nucleon_mass" -> kwval kw n = kwval kw' n.

Lemma part_nucleon_mass : forall k kw kw' s d t, same_but_nucleon_mass kw kw' -> part k kw s d t = part k kw' s d t.
Proof.
  intros k kw kw' s d t H.
  (* [part] does not read the mass of the nucleon: give it the same one *)
  set (kw1 := (("nucleon_mass", kwval kw' "nucleon_mass") :: kw)%list).
  assert (E : forall n, kwval kw1 n = if String.eqb "nucleon_mass" n then kwval kw' "nucleon_mass" else kwval kw n).
  { intros n. unfold kw1, kwval. cbn [lookup]. destruct (String.eqb "nucleon_mass" n); reflexivity. }
  transitivity (part k kw1 s d t).
  - unfold part. assert (B0 : bp0 (kwval kw) s d = bp0 (kwval kw1) s d) by (unfold bp0; rewrite E; destruct s, d; reflexivity).
    assert (BI : bpin (kwval kw) s d = bpin (kwval kw1) s d) by (unfold bpin; rewrite E; destruct s, d; reflexivity).
    assert (ME : forall r, kwval kw1 ("mass_" ++ r) = kwval kw ("mass_" ++ r)) by (intros r; rewrite E; reflexivity).
    assert (DE : forall r, kwval kw1 ("decay_rate_" ++ r) = kwval kw ("decay_rate_" ++ r)) by (intros r; rewrite E; reflexivity).
    assert (CE : forall r, cv k (kwval kw1) s d r = cv k (kwval kw) s d r).
    { intros r. unfold cv. now rewrite ME, DE, <- B0, <- BI. }
    assert (FE : forall r, Fv k (kwval kw1) s d t r = Fv k (kwval kw) s d t r).
    { intros r. unfold Fv. now rewrite ME, DE, <- B0, <- BI. }
    destruct s, d; unfold formula, combo2, combo3; rewrite ?CE, ?FE, ?E; reflexivity.
  - apply part_ext. intros n Hn. rewrite E. destruct (String.eqb "nucleon_mass" n) eqn:Q.
    + apply String.eqb_eq in Q. now subst n.
    + apply H; [|intros F; subst n; discriminate].
      unfold nucleon_keywords. apply in_app_iff in Hn. destruct Hn as [Hn|Hn]; [apply in_or_app; now left|].
      apply in_or_app; right. apply in_or_app. destruct s; [now left|now right].
Qed.

(** The magnetic form factor does not depend on the mass of the nucleon; the difference between the
    electric and the magnetic one is [t/(4m^2) - 1] times a function that does not depend on it. *)
Theorem C43_mass_of_the_nucleon : forall k proton kw kw' t gm gm',
  same_but_nucleon_mass kw kw' ->
  evaluate k proton false kw t = Ok gm -> evaluate k proton false kw' t = Ok gm' ->
  gm' = gm /\
  exists pauli : C, forall kw'' ge, same_but_nucleon_mass kw kw'' -> evaluate k proton true kw'' t = Ok ge ->
    Csub ge gm = Cmul (Csub (Cdivt t (RtoC (pair_threshold kw''))) 1%C) pauli.
Proof.
  intros k p kw kw' t gm gm' H E E'.
  apply evaluate_Ok in E. destruct E as [_ [_ [_ [_ [_ ->]]]]].
  apply evaluate_Ok in E'. destruct E' as [_ [_ [_ [_ [_ ->]]]]].
  split.
  - unfold combined. now rewrite !(part_nucleon_mass k kw kw').
  - exists (if p then (part k kw true false t + part k kw false false t)%C
            else (part k kw true false t - part k kw false false t)%C).
    intros kw'' ge S E. apply evaluate_Ok in E. destruct E as [_ [_ [_ [_ [_ ->]]]]].
    unfold combined. fold (pair_threshold kw''). rewrite <- !(part_nucleon_mass k kw kw'') by assumption.
    destruct p; ring.
Qed.
Print Assumptions C43_mass_of_the_nucleon.


(** ** C44 Zero widths: a sum over vector mesons *)

(** [m^2] of a resonance. *)
Definition mass_squared (kw : env R) (r : string) : R := kwval kw ("mass_" ++ r) * kwval kw ("mass_" ++ r).

(** Sums over the mesons of one kind: [sum of w m^(2n)] and [sum of w m^2/(m^2 - t)]. *)
Definition moment (kw : env R) (mesons : list string) (w : string -> R) (n : nat) : R :=
  fold_right (fun r acc => w r * mass_squared kw r ^ n + acc) 0 mesons.
Definition meson_sum (kw : env R) (mesons : list string) (w : string -> R) (t : C) : C :=
  fold_right (fun r acc => (RtoC (w r) * Cdivt (RtoC (mass_squared kw r)) (RtoC (mass_squared kw r) - t) + acc)%C)
    (RtoC 0) mesons.

(** Weights of the mesons in the Dirac and Pauli form factors: the couplings of the model where it has
    one; the normalisation at 0; vanishing moments, which make the sums fall off as [1/t^2] and [1/t^3]. *)
Record meson_weights (kw : env R) (dirac pauli : string -> R) : Prop := {
  mw_dirac : forall r, In r ["omega"; "omega_prime"; "phi"; "phi_prime"; "rho"] -> dirac r = kwval kw ("a_dirac_" ++ r);
  mw_pauli : forall r, In r ["omega"; "phi"; "phi_prime"] -> pauli r = kwval kw ("a_pauli_" ++ r);
  mw_dirac_isoscalar_norm : moment kw isoscalar_mesons dirac 0 = 1 / 2;
  mw_dirac_isovector_norm : moment kw isovector_mesons dirac 0 = 1 / 2;
  mw_pauli_isoscalar_norm : moment kw isoscalar_mesons pauli 0 =
    (kwval kw "magnetic_moment_proton" + kwval kw "magnetic_moment_neutron" - 1) / 2;
  mw_pauli_isovector_norm : moment kw isovector_mesons pauli 0 =
    (kwval kw "magnetic_moment_proton" - kwval kw "magnetic_moment_neutron" - 1) / 2;
  mw_dirac_isoscalar : moment kw isoscalar_mesons dirac 1 = 0;
  mw_dirac_isovector : moment kw isovector_mesons dirac 1 = 0;
  mw_pauli_isoscalar : moment kw isoscalar_mesons pauli 1 = 0 /\ moment kw isoscalar_mesons pauli 2 = 0;
  mw_pauli_isovector : moment kw isovector_mesons pauli 1 = 0 /\ moment kw isovector_mesons pauli 2 = 0
}.

(** The masses of the mesons without a coupling of their own differ. *)
Definition distinct_masses (kw : env R) : Prop :=
  let m := mass_squared kw in
  m "omega_prime" <> m "omega_double_prime" /\ m "omega_prime" <> m "phi_double_prime" /\
  m "omega_double_prime" <> m "phi_double_prime" /\
  m "rho" <> m "rho_prime" /\ m "rho" <> m "rho_double_prime" /\ m "rho_prime" <> m "rho_double_prime".

(** The form factor of a nucleon with these weights. *)
Definition meson_form_factor (kw : env R) (dirac pauli : string -> R) (proton electric : bool) (t : C) : C :=
  let nucleon w := let s := meson_sum kw isoscalar_mesons w t in let v := meson_sum kw isovector_mesons w t in
    if proton then (s + v)%C else (s - v)%C in
  let q := if electric then Cdivt t (RtoC (pair_threshold kw)) else 1%C in
  (nucleon dirac + q * nucleon pauli)%C.

(** Coefficients of the other mesons: Lagrange polynomials in the squared mass. *)
Definition lag2 (x y r : R) : R := (r - y) / (x - y).
Definition lag3 (x y z r : R) : R := (r - y) * (r - z) / ((x - y) * (x - z)).

(** A pole in [t]. *)
Definition pole_at (x : R) (t : C) : C := Cdivt (RtoC x) (RtoC x - t)%C.

Lemma combo2_poles : forall (x y r : R) (t : C), x <> y -> t <> RtoC x -> t <> RtoC y -> t <> RtoC r ->
  (Cdivt (pole_at x t * pole_at r t * (RtoC x - RtoC r)) (RtoC x - RtoC y) +
   Cdivt (pole_at y t * pole_at r t * (RtoC y - RtoC r)) (RtoC y - RtoC x) - pole_at x t * pole_at y t =
   pole_at r t - RtoC (lag2 x y r) * pole_at x t - RtoC (lag2 y x r) * pole_at y t)%C.
Proof.
  intros x y r t N X Y Z. unfold lag2, pole_at. rewrite !RtoC_div by lra. rewrite !RtoC_sub.
  assert (D : forall a : R, t <> RtoC a -> (RtoC a - t)%C <> RtoC 0).
  { intros a H F. apply H. symmetry. now apply Csub_eq. }
  assert (N1 : (RtoC x - RtoC y)%C <> RtoC 0) by (rewrite <- RtoC_sub; apply RtoC_neq0; lra).
  assert (N2 : (RtoC y - RtoC x)%C <> RtoC 0) by (rewrite <- RtoC_sub; apply RtoC_neq0; lra).
  apply D in X. apply D in Y. apply D in Z. clear D N.
  generalize dependent (RtoC x). generalize dependent (RtoC y). generalize dependent (RtoC r). intros c Z a A2 b B1 N1 N2.
  field. tauto.
Qed.

Lemma product2_poles : forall (x y : R) (t : C), x <> y -> t <> RtoC x -> t <> RtoC y ->
  (pole_at x t * pole_at y t = RtoC (lag2 x y 0) * pole_at x t + RtoC (lag2 y x 0) * pole_at y t)%C.
Proof.
  intros x y t N X Y. unfold lag2, pole_at. rewrite !RtoC_div by lra. rewrite !RtoC_sub.
  assert (D : forall a : R, t <> RtoC a -> (RtoC a - t)%C <> RtoC 0).
  { intros a H F. apply H. symmetry. now apply Csub_eq. }
  assert (N1 : (RtoC x - RtoC y)%C <> RtoC 0) by (rewrite <- RtoC_sub; apply RtoC_neq0; lra).
  assert (N2 : (RtoC y - RtoC x)%C <> RtoC 0) by (rewrite <- RtoC_sub; apply RtoC_neq0; lra).
  apply D in X. apply D in Y. clear D N.
  generalize dependent (RtoC x). generalize dependent (RtoC y). intros a A2 b B1 N1 N2.
  field. tauto.
Qed.

Lemma combo3_poles : forall (x y z r : R) (t : C), x <> y -> x <> z -> y <> z ->
  t <> RtoC x -> t <> RtoC y -> t <> RtoC z -> t <> RtoC r ->
  (pole_at x t * pole_at z t * pole_at r t * Cdivt (RtoC x - RtoC r) (RtoC x - RtoC y) * Cdivt (RtoC z - RtoC r) (RtoC z - RtoC y) +
   pole_at y t * pole_at z t * pole_at r t * Cdivt (RtoC y - RtoC r) (RtoC y - RtoC x) * Cdivt (RtoC z - RtoC r) (RtoC z - RtoC x) +
   pole_at y t * pole_at x t * pole_at r t * Cdivt (RtoC y - RtoC r) (RtoC y - RtoC z) * Cdivt (RtoC x - RtoC r) (RtoC x - RtoC z) -
   pole_at y t * pole_at x t * pole_at z t =
   pole_at r t - RtoC (lag3 x y z r) * pole_at x t - RtoC (lag3 y x z r) * pole_at y t - RtoC (lag3 z x y r) * pole_at z t)%C.
Proof.
  intros x y z r t Nxy Nxz Nyz X Y Z Q. unfold lag3, pole_at.
  rewrite !RtoC_div by (apply Rmult_integral_contrapositive; split; lra). rewrite !RtoC_mul, !RtoC_sub.
  assert (D : forall a : R, t <> RtoC a -> (RtoC a - t)%C <> RtoC 0).
  { intros a H F. apply H. symmetry. now apply Csub_eq. }
  assert (N : forall a b, a <> b -> (RtoC a - RtoC b)%C <> RtoC 0 /\ (RtoC b - RtoC a)%C <> RtoC 0).
  { intros a b H. rewrite <- !RtoC_sub. split; apply RtoC_neq0; lra. }
  apply N in Nxy. apply N in Nxz. apply N in Nyz.
  apply D in X. apply D in Y. apply D in Z. apply D in Q. clear D N.
  generalize dependent (RtoC x). generalize dependent (RtoC y). generalize dependent (RtoC z). generalize dependent (RtoC r).
  intros r' Q z' Z y' Nyz Y x' Nxy Nxz X.
  field. tauto.
Qed.

Lemma product3_poles : forall (x y z : R) (t : C), x <> y -> x <> z -> y <> z ->
  t <> RtoC x -> t <> RtoC y -> t <> RtoC z ->
  (pole_at x t * pole_at y t * pole_at z t =
   RtoC (lag3 x y z 0) * pole_at x t + RtoC (lag3 y x z 0) * pole_at y t + RtoC (lag3 z x y 0) * pole_at z t)%C.
Proof.
  intros x y z t Nxy Nxz Nyz X Y Z. unfold lag3, pole_at.
  rewrite !RtoC_div by (apply Rmult_integral_contrapositive; split; lra). rewrite !RtoC_mul, !RtoC_sub.
  assert (D : forall a : R, t <> RtoC a -> (RtoC a - t)%C <> RtoC 0).
  { intros a H F. apply H. symmetry. now apply Csub_eq. }
  assert (N : forall a b, a <> b -> (RtoC a - RtoC b)%C <> RtoC 0 /\ (RtoC b - RtoC a)%C <> RtoC 0).
  { intros a b H. rewrite <- !RtoC_sub. split; apply RtoC_neq0; lra. }
  apply N in Nxy. apply N in Nxz. apply N in Nyz.
  apply D in X. apply D in Y. apply D in Z. clear D N.
  generalize dependent (RtoC x). generalize dependent (RtoC y). generalize dependent (RtoC z).
  intros z' Z y' Nyz Y x' Nxy Nxz X.
  field. tauto.
Qed.

Lemma lag3_sym : forall x y z r, lag3 x y z r = lag3 x z y r.
Proof. intros. unfold lag3. now rewrite (Rmult_comm (x - y)), (Rmult_comm (r - y)). Qed.

(** The weights. *)
Definition dirac_weight (kw : env R) (r : string) : R :=
  let a n := kwval kw ("a_dirac_" ++ n) in let m := mass_squared kw in
  let fill x y := 1 / 2 * lag2 (m x) (m y) 0 -
    (a "omega" * lag2 (m x) (m y) (m "omega") + a "omega_prime" * lag2 (m x) (m y) (m "omega_prime") +
     a "phi" * lag2 (m x) (m y) (m "phi") + a "phi_prime" * lag2 (m x) (m y) (m "phi_prime")) in
  let fillv x y := 1 / 2 * lag2 (m x) (m y) 0 - a "rho" * lag2 (m x) (m y) (m "rho") in
  if String.eqb r "phi_double_prime" then fill "phi_double_prime" "omega_double_prime"
  else if String.eqb r "omega_double_prime" then fill "omega_double_prime" "phi_double_prime"
  else if String.eqb r "rho_prime" then fillv "rho_prime" "rho_double_prime"
  else if String.eqb r "rho_double_prime" then fillv "rho_double_prime" "rho_prime"
  else a r.
Definition pauli_weight (kw : env R) (r : string) : R :=
  let a n := kwval kw ("a_pauli_" ++ n) in let m := mass_squared kw in
  let ns := (kwval kw "magnetic_moment_proton" + kwval kw "magnetic_moment_neutron" - 1) / 2 in
  let nv := (kwval kw "magnetic_moment_proton" - kwval kw "magnetic_moment_neutron" - 1) / 2 in
  let fill x y z := ns * lag3 (m x) (m y) (m z) 0 -
    (a "omega" * lag3 (m x) (m y) (m z) (m "omega") + a "phi" * lag3 (m x) (m y) (m z) (m "phi") +
     a "phi_prime" * lag3 (m x) (m y) (m z) (m "phi_prime")) in
  if String.eqb r "phi_double_prime" then fill "phi_double_prime" "omega_double_prime" "omega_prime"
  else if String.eqb r "omega_double_prime" then fill "omega_double_prime" "phi_double_prime" "omega_prime"
  else if String.eqb r "omega_prime" then fill "omega_prime" "phi_double_prime" "omega_double_prime"
  else if String.eqb r "rho" then nv * lag3 (m "rho") (m "rho_prime") (m "rho_double_prime") 0
  else if String.eqb r "rho_prime" then nv * lag3 (m "rho_prime") (m "rho") (m "rho_double_prime") 0
  else if String.eqb r "rho_double_prime" then nv * lag3 (m "rho_double_prime") (m "rho") (m "rho_prime") 0
  else a r.

Lemma weights_exist : forall kw, distinct_masses kw -> meson_weights kw (dirac_weight kw) (pauli_weight kw).
Proof.
  intros kw (D1 & D2 & D3 & D4 & D5 & D6). constructor.
  1,2: intros r Hr; simpl in Hr; repeat (destruct Hr as [<-|Hr]; [reflexivity|]); contradiction.
  all: unfold moment, isoscalar_mesons, isovector_mesons, dirac_weight, pauli_weight; cbn [fold_right String.eqb Ascii.eqb Bool.eqb pow];
    set (m := mass_squared kw) in *; unfold lag2, lag3.
  all: try split; field; repeat split; lra.
Qed.

(** Vandermonde *)
Lemma V2 : forall x y u v : R, x <> y -> u + v = 0 -> u * x + v * y = 0 -> u = 0 /\ v = 0.
Proof.
  intros x y u v N S1 S2. assert (v = - u) by lra. subst v. assert (P : u * (x - y) = 0) by lra.
  destruct (Rmult_integral _ _ P); lra.
Qed.
Lemma V3 : forall x y z u v w : R, x <> y -> x <> z -> y <> z -> u + v + w = 0 -> u * x + v * y + w * z = 0 ->
  u * (x * x) + v * (y * y) + w * (z * z) = 0 -> u = 0 /\ v = 0 /\ w = 0.
Proof.
  intros x y z u v w N1 N2 N3 S1 S2 S3.
  assert (W : w = - u - v) by lra. subst w.
  assert (P1 : u * (x - z) + v * (y - z) = 0) by lra.
  assert (P2 : (u * (x - z)) * x + (v * (y - z)) * y = 0).
  { assert (E : u * (x * x) + v * (y * y) + (- u - v) * (z * z) =
      (u * (x - z)) * x + (v * (y - z)) * y + z * (u * (x - z) + v * (y - z))) by ring.
    rewrite P1 in E. lra. }
  destruct (V2 x y _ _ N1 P1 P2) as [Q1 Q2]. clear S1 S2 S3 P1 P2.
  destruct (Rmult_integral _ _ Q1), (Rmult_integral _ _ Q2); lra.
Qed.

(** No other weights satisfy the conditions: they determine the form factors. *)
Theorem C44_weights_unique : forall kw dirac pauli dirac' pauli', distinct_masses kw ->
  meson_weights kw dirac pauli -> meson_weights kw dirac' pauli' ->
  forall r, In r (isoscalar_mesons ++ isovector_mesons)%list -> dirac r = dirac' r /\ pauli r = pauli' r.
Proof.
  intros kw f g f' g' (D1 & D2 & D3 & D4 & D5 & D6) H H'.
  destruct H as [A1 A2 A3 A4 A5 A6 A7 A8 [A9 A10] [A11 A12]], H' as [B1 B2 B3 B4 B5 B6 B7 B8 [B9 B10] [B11 B12]].
  rewrite <- B3 in A3. rewrite <- B4 in A4. rewrite <- B5 in A5. rewrite <- B6 in A6. rewrite <- B7 in A7. rewrite <- B8 in A8.
  rewrite <- B9 in A9. rewrite <- B10 in A10. rewrite <- B11 in A11. rewrite <- B12 in A12. clear B3 B4 B5 B6 B7 B8 B9 B10 B11 B12.
  assert (EF : forall r, In r ["omega"; "omega_prime"; "phi"; "phi_prime"; "rho"] -> f r = f' r) by (intros r Hr; now rewrite A1, B1).
  assert (EG : forall r, In r ["omega"; "phi"; "phi_prime"] -> g r = g' r) by (intros r Hr; now rewrite A2, B2).
  clear A1 B1 A2 B2.
  assert (F1 := EF "omega" ltac:(simpl; tauto)). assert (F2 := EF "omega_prime" ltac:(simpl; tauto)).
  assert (F3 := EF "phi" ltac:(simpl; tauto)). assert (F4 := EF "phi_prime" ltac:(simpl; tauto)).
  assert (F5 := EF "rho" ltac:(simpl; tauto)).
  assert (G1 := EG "omega" ltac:(simpl; tauto)). assert (G2 := EG "phi" ltac:(simpl; tauto)).
  assert (G3 := EG "phi_prime" ltac:(simpl; tauto)). clear EF EG.
  unfold moment, isoscalar_mesons, isovector_mesons in A3, A4, A5, A6, A7, A8, A9, A10, A11, A12.
  cbn [fold_right pow] in A3, A4, A5, A6, A7, A8, A9, A10, A11, A12.
  set (m := mass_squared kw) in *.
  assert (X1 := V2 (m "omega_double_prime") (m "phi_double_prime")
    (f "omega_double_prime" - f' "omega_double_prime") (f "phi_double_prime" - f' "phi_double_prime") D3
    ltac:(lra) ltac:(rewrite F1, F2, F3, F4 in A7; lra)).
  assert (X2 := V2 (m "rho_prime") (m "rho_double_prime")
    (f "rho_prime" - f' "rho_prime") (f "rho_double_prime" - f' "rho_double_prime") D6
    ltac:(lra) ltac:(rewrite F5 in A8; lra)).
  assert (X3 := V3 (m "omega_prime") (m "omega_double_prime") (m "phi_double_prime") (g "omega_prime" - g' "omega_prime")
    (g "omega_double_prime" - g' "omega_double_prime") (g "phi_double_prime" - g' "phi_double_prime") D1 D2 D3
    ltac:(lra) ltac:(rewrite G1, G2, G3 in A9; lra) ltac:(rewrite G1, G2, G3 in A10; lra)).
  assert (X4 := V3 (m "rho") (m "rho_prime") (m "rho_double_prime") (g "rho" - g' "rho")
    (g "rho_prime" - g' "rho_prime") (g "rho_double_prime" - g' "rho_double_prime") D4 D5 D6
    ltac:(lra) ltac:(lra) ltac:(lra)).
  intros r Hr. unfold isoscalar_mesons, isovector_mesons in Hr. simpl in Hr.
  repeat (destruct Hr as [<-|Hr]; [lra|]). contradiction.
Qed.
Print Assumptions C44_weights_unique.

(** Both sides as combinations of the same poles. *)
Ltac spread weight :=
  unfold meson_sum, isoscalar_mesons, isovector_mesons, weight; cbn [fold_right String.eqb Ascii.eqb Bool.eqb];
  repeat match goal with |- context [Cdivt (RtoC (mass_squared ?kw ?r)) (RtoC (mass_squared ?kw ?r) - ?t)%C] =>
    change (Cdivt (RtoC (mass_squared kw r)) (RtoC (mass_squared kw r) - t)%C) with (pole_at (mass_squared kw r) t) end;
  repeat match goal with |- context [("a_dirac_" ++ ?r)%string] =>
    let n := eval compute in ("a_dirac_" ++ r)%string in change ("a_dirac_" ++ r)%string with n end;
  repeat match goal with |- context [("a_pauli_" ++ ?r)%string] =>
    let n := eval compute in ("a_pauli_" ++ r)%string in change ("a_pauli_" ++ r)%string with n end;
  repeat match goal with |- context [lag2 ?x ?y ?r] => generalize (lag2 x y r); intros ? end;
  repeat match goal with |- context [lag3 ?x ?y ?z ?r] => generalize (lag3 x y z r); intros ? end;
  repeat match goal with |- context [pole_at ?x ?t] => generalize (pole_at x t); intros ? end;
  repeat match goal with |- context [kwval ?kw ?n] => generalize (kwval kw n); intros ? end;
  unfold Rdiv; rewrite ?RtoC_sub, ?RtoC_add, ?RtoC_mul, ?RtoC_sub, ?RtoC_add; ring.

Theorem C44_sum_over_mesons : forall kw,
  (forall r, kwval kw ("decay_rate_" ++ r) = 0) -> distinct_masses kw ->
  exists dirac pauli, meson_weights kw dirac pauli /\
    forall k proton electric t v, evaluate k proton electric kw t = Ok v ->
      v = meson_form_factor kw dirac pauli proton electric t.
Proof.
  intros kw Z D. exists (dirac_weight kw), (pauli_weight kw). split; [now apply weights_exist|].
  intros k p e t v H.
  assert (H' : evaluate Old p e kw t = Ok v) by (destruct k; [now rewrite <- C22_zero_width_agreement|assumption]).
  clear k H. apply evaluate_Ok in H'. destruct H' as [m [B [ND [Ht [[CD MN] ->]]]]].
  assert (NP : forall s r, In r (iso_names s) -> t <> RtoC (mass_squared kw r)).
  { intros s r Hr. destruct (CD s true) as [_ [P _]]. specialize (P r Hr). rewrite Z, at_pole_zero_width in P. assumption. }
  assert (FE : forall s d r, In r (iso_names s) -> Fv Old (kwval kw) s d t r = pole_at (mass_squared kw r) t).
  { intros s d r Hr. unfold Fv. rewrite Z. destruct (nb_comp _ _ _ _ _ B s d r Hr) as [c [_ Bc]]. rewrite Z in Bc.
    assert (V := nb_valid _ _ _ _ _ B s d).
    apply (KC_zero_width (bp0 (kwval kw) s d) (bpin (kwval kw) s d)); [apply V|apply ND|now exists c|apply CD|now apply (NP s)]. }
  assert (CE : forall s d r, cv Old (kwval kw) s d r = RtoC (mass_squared kw r)).
  { intros s d r. unfold cv, MT, mass_squared. now rewrite RtoC_mul. }
  destruct D as (D1 & D2 & D3 & D4 & D5 & D6).
  assert (P1 : part Old kw true true t = meson_sum kw isoscalar_mesons (dirac_weight kw) t).
  { unfold part, formula, combo2, combo3. rewrite ?CE, !FE by (apply mem_In; reflexivity).
    rewrite ?combo2_poles by (first [apply (NP true), mem_In; reflexivity|congruence]).
    rewrite product2_poles by (first [apply (NP true), mem_In; reflexivity|congruence]).
    spread dirac_weight. }
  assert (P2 : part Old kw false true t = meson_sum kw isovector_mesons (dirac_weight kw) t).
  { unfold part, formula, combo2, combo3. rewrite ?CE, !FE by (apply mem_In; reflexivity).
    rewrite ?combo2_poles by (first [apply (NP false), mem_In; reflexivity|congruence]).
    rewrite product2_poles by (first [apply (NP false), mem_In; reflexivity|congruence]).
    spread dirac_weight. }
  assert (P3 : part Old kw true false t = meson_sum kw isoscalar_mesons (pauli_weight kw) t).
  { unfold part, formula, combo2, combo3. rewrite ?CE, !FE by (apply mem_In; reflexivity).
    rewrite ?combo3_poles by (first [apply (NP true), mem_In; reflexivity|congruence]).
    rewrite product3_poles by (first [apply (NP true), mem_In; reflexivity|congruence]).
    rewrite (lag3_sym _ (mass_squared kw "omega_double_prime") (mass_squared kw "phi_double_prime") 0).
    spread pauli_weight. }
  assert (P4 : part Old kw false false t = meson_sum kw isovector_mesons (pauli_weight kw) t).
  { unfold part, formula, combo2, combo3. rewrite ?CE, !FE by (apply mem_In; reflexivity).
    rewrite ?combo3_poles by (first [apply (NP false), mem_In; reflexivity|congruence]).
    rewrite product3_poles by (first [apply (NP false), mem_In; reflexivity|congruence]).
    spread pauli_weight. }
  unfold combined, meson_form_factor. rewrite P1, P2, P3, P4. fold (pair_threshold kw). destruct e; [reflexivity|]. ring.
Qed.
Print Assumptions C44_sum_over_mesons.

(** A model with zero widths satisfies the hypotheses and returns a value. *)
Example C44_instance : forall p e, exists v,
  (forall r, kwval (demo_nucleon 0) ("decay_rate_" ++ r) = 0) /\ distinct_masses (demo_nucleon 0) /\
  evaluate New p e (demo_nucleon 0) (RtoC 0) = Ok v.
Proof.
  intros p e. destruct (C22_instance p e) as [v [Z [E _]]]. exists v. split; [assumption|]. split; [|assumption].
  assert (M : mass_squared (demo_nucleon 0) "omega_prime" = 3 * 3 /\ mass_squared (demo_nucleon 0) "omega_double_prime" = 4 * 4 /\
    mass_squared (demo_nucleon 0) "phi_double_prime" = 7 * 7 /\ mass_squared (demo_nucleon 0) "rho" = 2 * 2 /\
    mass_squared (demo_nucleon 0) "rho_prime" = 3 * 3 /\ mass_squared (demo_nucleon 0) "rho_double_prime" = 4 * 4)
    by (repeat split; reflexivity).
  destruct M as (M1 & M2 & M3 & M4 & M5 & M6). unfold distinct_masses. rewrite M1, M2, M3, M4, M5, M6. lra.
Qed.

(** A nucleon of mass 1 at the threshold [t = 4]: both form factors return. *)
Example C43_instance : forall k p, exists v,
  kwval (demo_nucleon (1/2)) "nucleon_mass" <> 0 /\
  evaluate k p true (demo_nucleon (1/2)) (RtoC (pair_threshold (demo_nucleon (1/2)))) = Ok v.
Proof.
  intros k p. assert (T : RtoC (pair_threshold (demo_nucleon (1/2))) = RtoC 4).
  { f_equal. unfold pair_threshold. change (kwval (demo_nucleon (1/2)) "nucleon_mass") with 1. lra. }
  rewrite T. clear T.
  destruct (demo_nucleon_accepted k p true (1/2) ltac:(lra)) as [[m c] H].
  assert (ND : forall s d, bp0 (kwval (demo_nucleon (1/2))) s d < bpin (kwval (demo_nucleon (1/2))) s d).
  { intros s d. destruct (demo_bp (1/2) s d) as [-> ->]. lra. }
  destruct (C18_nucleon_failure_set k p true _ m c (RtoC 4) H ND) as [F1 F2].
  assert (Ht : 0 <= Re (RtoC 4)) by (simpl; lra). destruct (F2 Ht) as [F3 F4].
  destruct (evaluate k p true (demo_nucleon (1/2)) (RtoC 4)) as [v|x] eqn:E.
  - exists v. split; [|reflexivity]. change (kwval (demo_nucleon (1/2)) "nucleon_mass") with 1. lra.
  - exfalso. specialize (F4 x eq_refl). subst x. destruct (proj1 F3 eq_refl) as [W|[W|[W|[W|[W|[W|W]]]]]];
      try (apply RtoC_inj in W; match type of W with _ = ?x => change x with 2 in W end; lra).
    + destruct W as [n [Hn W]].
      assert (Q : forall m g, ((m = 3 \/ m = 4 \/ m = 5 \/ m = 6 \/ m = 7) /\ g = 0 \/ (m = 2 /\ g = 1/2)) ->
        RtoC 4 <> resonance_pole m g /\ RtoC 4 <> Cconj (resonance_pole m g)).
      { intros m0 g [[M ->]|[-> ->]]; rewrite <- resonance_pole_eq; rewrite ?meson_pole_0.
        - split; intros F; apply (f_equal Re) in F; simpl in F; destruct M as [-> | [-> | [-> | [-> | ->]]]]; lra.
        - split; intros F; apply (f_equal Re) in F; cbn [Cconj Re] in F; rewrite Re_meson_pole in F; simpl in F; lra. }
      simpl in Hn.
      repeat (destruct Hn as [<-|Hn]; [
        refine (match W with or_introl a => proj1 (Q _ _ _) a | or_intror b => proj2 (Q _ _ _) b end);
        first [right; split; reflexivity
              |left; split; [first [left; reflexivity|right; left; reflexivity|right; right; left; reflexivity
                |right; right; right; left; reflexivity|right; right; right; right; reflexivity]|reflexivity]]|]). contradiction.
    + destruct W as [s [d W]]. apply W. apply demo_distinct.
    + destruct W as [_ W]. change (kwval (demo_nucleon (1/2)) "nucleon_mass") with 1 in W. lra.
Qed.
