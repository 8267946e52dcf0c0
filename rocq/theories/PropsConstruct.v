(** C02 and C53: the flags right after construction, and the windows of the classes without resonances. *)
From Coq Require Import String Reals List Bool Lra Permutation.
From Verif Require Import PyBase Params ParamClasses ParamSpec ParamProofs PropsParams BoundsProofs PropsParams2 PropsResonances.
Import ListNotations.
Local Open Scope R_scope.
Local Open Scope string_scope.
Local Open Scope list_scope.

(** Right after construction exactly the parameters that must never be fitted are fixed. *)
Theorem C02_constructor_flags : forall c kw d p, construct c kw = Ok d -> In p d ->
  (par_fixed p = true <-> In (par_name p) (must_stay_fixed c)).
Proof.
  intros c kw d p H IN. pose proof (reachable_inv _ _ (reach_init _ _ _ H)) as [_ A]. split.
  - intros F. apply construct_iff in H as [_ ->]. unfold ParamProofs.built in IN. apply in_map_iff in IN as (s & <- & IN).
    cbn [par_name par_fixed] in *. apply must_stay_fixed_eq.
    assert (T : forallb (fun s => implb (snd s) (str_in (set_name s) (always_fixed c))) (ct_setup (table c)) = true) by (destruct c; reflexivity).
    rewrite forallb_forall in T. specialize (T s IN). rewrite F in T. now apply str_in_In.
  - intros I. apply A; [exact IN|]. now apply must_stay_fixed_eq.
Qed.
Print Assumptions C02_constructor_flags.

(** The only handpicked limits in the classes without resonances: least masses of the poles, in units of 10 MeV, and the
    damping and the frequency of the oscillations, which are not negative. *)
Definition least (n : string) : option Z :=
  option_map snd (List.find (fun x => String.eqb (fst x) n) [("m_a", 10); ("m_d", 10); ("m_1", 1); ("m_2", 10); ("b", 0); ("c", 0)]%Z).

Theorem C53_windows_without_resonances : forall c d n b, In c [PETGMR; PTwoPoles; POscillations] -> reachable c d -> given_window c d n b ->
  b = (match least n with Some z => Fin (IZR z / 100) | None => NegInf end, PosInf).
Proof.
  intros c d n b I R G. apply given_lookup in G as (L & IN & _); [|exact R].
  assert (Q : forall r, lookup (fullT c true d) n = Some (Fin r, PosInf) -> (exists z, least n = Some z /\ r = IZR z / 100) ->
    b = (match least n with Some z => Fin (IZR z / 100) | None => NegInf end, PosInf)).
  { intros r L1 (z & -> & ->). congruence. }
  assert (Q' : lookup (fullT c true d) n = Some (NegInf, PosInf) -> least n = None -> b = (match least n with Some z => Fin (IZR z / 100) | None => NegInf end, PosInf)).
  { intros L1 ->. congruence. }
  clear L. cbn [In] in I. destruct I as [<-|[<-|[<-|[]]]]; cbn in IN; repeat destruct IN as [<-|IN]; try contradiction IN;
    try (apply Q'; reflexivity); (eapply Q; [cbn; reflexivity|eexists; split; [cbn; reflexivity|]]); cbn; lra.
Qed.
Print Assumptions C53_windows_without_resonances.

Example C53_instance_poles : exists d, construct PTwoPoles [("a", 1); ("m_1", 5/10); ("m_2", 2)] = Ok d /\
  (forall p, In p d -> par_fixed p = false) /\ given_window PTwoPoles d "m_1" (Fin (1/100), PosInf).
Proof.
  eexists. split; [reflexivity|]. split.
  - intros p [<-|[<-|[<-|[]]]]; reflexivity.
  - do 4 eexists. split; [reflexivity|]. split; [cbn; instantiate (2 := 1%nat); reflexivity|]. split; [reflexivity|]. split; reflexivity.
Qed.

(** Instance of the flags: the thresholds and the omega and rho are fixed, the triple rho is not. *)
Example C02_instance_flags : exists d, construct PKaonFixedRhoOmega (map (fun n => (n, 1)) (class_names PKaonFixedRhoOmega)) = Ok d /\
  map par_name (filter par_fixed d) = ["t_0_isoscalar"; "t_0_isovector"; "mass_omega"; "decay_rate_omega"; "mass_rho"; "decay_rate_rho"] /\
  length d = 32%nat.
Proof. eexists. split; [reflexivity|]. split; reflexivity. Qed.
