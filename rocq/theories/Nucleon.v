(** Model of ua_model/NucleonUAModel.py and ua_model/NucleonUAModelOld.py. *)
From Coq Require Import String Reals List.
From Verif Require Import PyBase CNum UAMaps UAComponents PyExpr.
Import ListNotations.
Local Open Scope R_scope.
Local Open Scope py_scope.
Local Open Scope string_scope.

(** Local variable definitions of the [_eval_..._contribution] methods:
    [LMass x s d r] is [x = self._get_mass_term(scalar=s, dirac=d, resonance=r)],
    [LExpr x e] is [x = e]. *)
Inductive local_def : Type :=
| LMass (x : string) (scalar dirac : bool) (resonance : string)
| LExpr (x : string) (e : expr).
Arguments LMass x%string scalar dirac resonance%string.
Arguments LExpr x%string e%expr.

(** What differs between the two classes; the remaining methods are modelled once. *)
Record NucleonClass : Type := mkNucleonClass {
  nc_formals : list string;                 (* after [proton], [electric] *)
  nc_assign : list (string * expr);
  nc_isoscalar : list string;
  nc_isovector : list string;
  nc_build : R -> R -> R -> R -> Res Component;
  nc_dirac_isoscalar_locals : list local_def;
  nc_dirac_isoscalar_expr : expr;
  nc_dirac_isovector_locals : list local_def;
  nc_dirac_isovector_expr : expr;
  nc_pauli_isoscalar_locals : list local_def;
  nc_pauli_isoscalar_expr : expr;
  nc_pauli_isovector_locals : list local_def;
  nc_pauli_isovector_expr : expr
}.

Record NucleonModel : Type := mkNucleonModel {
  nm_class : NucleonClass;
  nm_proton : bool;                         (* public, mutable attribute *)
  nm_electric : bool;                       (* public, mutable attribute *)
  nm_attrs : env R;
  nm_t_to_W_dirac_isoscalar : MapTW;
  nm_t_to_W_dirac_isovector : MapTW;
  nm_t_to_W_pauli_isoscalar : MapTW;
  nm_t_to_W_pauli_isovector : MapTW;
  nm_components : env Component
}.

(** The dictionary [_mass_terms_cache] (NucleonUAModel.py l.143), newest entry first.
    It is the only part of the object that evaluation changes. *)
Definition Cache := env C.

(** [_initialize_isoscalar_components] (suffix "isoscalar") and
    [_initialize_isovector_components] (suffix "isovector")
    (NucleonUAModel.py l.325-346, NucleonUAModelOld.py l.302-323). *)
Definition nucleon_init_components (cls : NucleonClass) (attrs : env R)
  (name suffix : string) (names : list string) : Res (env Component) :=
  mapM (fun resonance_name =>
    mass <- attr attrs ("mass_" ++ resonance_name) ;;
    decay_rate <- attr attrs ("decay_rate_" ++ resonance_name) ;;
    t_0 <- attr attrs ("t_0_" ++ name ++ "_" ++ suffix) ;;
    t_in <- attr attrs ("t_in_" ++ name ++ "_" ++ suffix) ;;
    c <- nc_build cls t_0 t_in mass decay_rate ;;
    Ok ("_" ++ name ++ "_component_" ++ resonance_name, c)) names.

(** One of the four constructions [self._t_to_W_x = MapFromTtoW(t_0=self.t_0_x, t_in=self.t_in_x)]
    (NucleonUAModel.py l.103-118, NucleonUAModelOld.py l.103-118). *)
Definition nucleon_map (attrs : env R) (x : string) : Res MapTW :=
  t_0 <- attr attrs ("t_0_" ++ x) ;;
  t_in <- attr attrs ("t_in_" ++ x) ;;
  MapFromTtoW_init t_0 t_in.

(** [__init__] (NucleonUAModel.py l.12-143, NucleonUAModelOld.py l.12-141). *)
Definition Nucleon_init (cls : NucleonClass) (proton electric : bool) (kw : env R)
  : Res (NucleonModel * Cache) :=
  args <- bind_kwargs (nc_formals cls) kw ;;
  attrs <- run_assign args (nc_assign cls) ;;
  mds <- nucleon_map attrs "dirac_isoscalar" ;;
  mdv <- nucleon_map attrs "dirac_isovector" ;;
  mps <- nucleon_map attrs "pauli_isoscalar" ;;
  mpv <- nucleon_map attrs "pauli_isovector" ;;
  cds <- nucleon_init_components cls attrs "dirac" "isoscalar" (nc_isoscalar cls) ;;
  cdv <- nucleon_init_components cls attrs "dirac" "isovector" (nc_isovector cls) ;;
  cps <- nucleon_init_components cls attrs "pauli" "isoscalar" (nc_isoscalar cls) ;;
  cpv <- nucleon_init_components cls attrs "pauli" "isovector" (nc_isovector cls) ;;
  Ok (mkNucleonModel cls proton electric attrs mds mdv mps mpv
        (cds ++ cdv ++ cps ++ cpv)%list, []).

(** Assignment to the public attributes [proton] and [electric]
    (used by common/utils.py l.143-144, l.187 and by the nucleon cross-section). *)
Definition Nucleon_set_flags (m : NucleonModel) (proton electric : bool) : NucleonModel :=
  mkNucleonModel (nm_class m) proton electric (nm_attrs m)
    (nm_t_to_W_dirac_isoscalar m) (nm_t_to_W_dirac_isovector m)
    (nm_t_to_W_pauli_isoscalar m) (nm_t_to_W_pauli_isovector m) (nm_components m).

(** NucleonUAModel.py l.371-375 [_build_cache_key]. *)
Definition build_cache_key (scalar dirac : bool) (resonance : string) : string :=
  (if scalar then "isoscalar_" else "isovector_") ++
  (if dirac then "dirac_" else "pauli_") ++ resonance.

(** NucleonUAModel.py l.398-403 [_calculate_mass_term_a]. *)
Definition calculate_mass_term_a (w_r w_n : C) : Res C :=
  i1 <- cdiv 1%C w_r ;;
  i2 <- cdiv 1%C (Cconj w_r) ;;
  let numerator := ((w_n - w_r) * (w_n - Cconj w_r) * (w_n - i1) * (w_n - i2))%C in
  let denominator := - (Cabs (w_r - i1)%C * Cabs (w_r - i1)%C) in
  cdiv numerator (RtoC denominator).

(** NucleonUAModel.py l.405-410 [_calculate_mass_term_b]. *)
Definition calculate_mass_term_b (w_r w_n : C) : Res C :=
  let numerator := ((w_n - w_r) * (w_n - Cconj w_r) * (w_n + w_r) * (w_n + Cconj w_r))%C in
  i1 <- cdiv 1%C w_r ;;
  let denominator := - (Cabs (w_r - i1)%C * Cabs (w_r - i1)%C) in
  cdiv numerator (RtoC denominator).

(** NucleonUAModel.py l.377-396 [_calculate_mass_term].  The pole is written
    [(mass - 0.5j * decay_rate)**2] there, the same number as [meson_pole]. *)
Definition calculate_mass_term (m : NucleonModel) (scalar dirac : bool) (resonance : string)
  : Res C :=
  let t_to_w := match scalar, dirac with
                | true, true => nm_t_to_W_dirac_isoscalar m
                | true, false => nm_t_to_W_pauli_isoscalar m
                | false, true => nm_t_to_W_dirac_isovector m
                | false, false => nm_t_to_W_pauli_isovector m
                end in
  mass <- attr (nm_attrs m) ("mass_" ++ resonance) ;;
  decay_rate <- attr (nm_attrs m) ("decay_rate_" ++ resonance) ;;
  let pole2 := Csq (RtoC mass - mkC 0 (1 / 2) * RtoC decay_rate)%C in
  w_resonance <- MapFromTtoW_call t_to_w pole2 ;;
  w_norm <- MapFromTtoW_call t_to_w (RtoC 0) ;;
  if Rlt_dec (Re pole2) (tw_t_in t_to_w) then calculate_mass_term_a w_resonance w_norm
  else calculate_mass_term_b w_resonance w_norm.

(** NucleonUAModel.py l.362-369 [_get_mass_term]; [if cached_val] is false for a missing
    entry and for the number zero. *)
Definition get_mass_term (m : NucleonModel) (scalar dirac : bool) (resonance : string)
  (cache : Cache) : Res C * Cache :=
  let key := build_cache_key scalar dirac resonance in
  let compute :=
    match calculate_mass_term m scalar dirac resonance with
    | Ok val => (Ok val, (key, val) :: cache)
    | Err e => (Err e, cache)
    end in
  match lookup cache key with
  | Some cached_val => if C_eq_dec cached_val (RtoC 0) then compute else (Ok cached_val, cache)
  | None => compute
  end.

(** Names visible in the [_eval_..._contribution] methods. *)
Definition nucleon_scope (m : NucleonModel) (w : C) (locals : env C) : Scope := {|
  sc_attr := attr (nm_attrs m);
  sc_loc := fun n => match lookup locals n with Some v => Ok v | None => Err OtherError end;
  sc_comp := fun n => c <- attr (nm_components m) n ;; Component_call c w
|}.

(** The assignments to local variables, in order. *)
Fixpoint run_locals (m : NucleonModel) (w : C) (l : list local_def) (locals : env C)
  (cache : Cache) : Res (env C) * Cache :=
  match l with
  | [] => (Ok locals, cache)
  | LMass x s d r :: l' =>
    match get_mass_term m s d r cache with
    | (Ok v, cache') => run_locals m w l' ((x, v) :: locals) cache'
    | (Err e, cache') => (Err e, cache')
    end
  | LExpr x e :: l' =>
    match ev (nucleon_scope m w locals) e with
    | Ok v => run_locals m w l' ((x, v) :: locals) cache
    | Err e => (Err e, cache)
    end
  end.

(** The common shape of the four [_eval_..._contribution] methods: map t, define the local
    variables, return the expression (line ranges at the class tables below). *)
Definition eval_contribution (m : NucleonModel) (t_to_w : MapTW) (locals : list local_def)
  (e : expr) (t : C) (cache : Cache) : Res C * Cache :=
  match MapFromTtoW_call t_to_w t with
  | Err x => (Err x, cache)
  | Ok w =>
    match run_locals m w locals [] cache with
    | (Err x, cache') => (Err x, cache')
    | (Ok ls, cache') => (ev (nucleon_scope m w ls) e, cache')
    end
  end.

(** Sequencing in the object's state. *)
Definition sbind {A B : Type} (x : Cache -> Res A * Cache) (f : A -> Cache -> Res B * Cache)
  : Cache -> Res B * Cache :=
  fun c => match x c with
           | (Ok a, c') => f a c'
           | (Err e, c') => (Err e, c')
           end.

Definition eval_dirac_isoscalar (m : NucleonModel) (t : C) : Cache -> Res C * Cache :=
  eval_contribution m (nm_t_to_W_dirac_isoscalar m)
    (nc_dirac_isoscalar_locals (nm_class m)) (nc_dirac_isoscalar_expr (nm_class m)) t.
Definition eval_dirac_isovector (m : NucleonModel) (t : C) : Cache -> Res C * Cache :=
  eval_contribution m (nm_t_to_W_dirac_isovector m)
    (nc_dirac_isovector_locals (nm_class m)) (nc_dirac_isovector_expr (nm_class m)) t.
Definition eval_pauli_isoscalar (m : NucleonModel) (t : C) : Cache -> Res C * Cache :=
  eval_contribution m (nm_t_to_W_pauli_isoscalar m)
    (nc_pauli_isoscalar_locals (nm_class m)) (nc_pauli_isoscalar_expr (nm_class m)) t.
Definition eval_pauli_isovector (m : NucleonModel) (t : C) : Cache -> Res C * Cache :=
  eval_contribution m (nm_t_to_W_pauli_isovector m)
    (nc_pauli_isovector_locals (nm_class m)) (nc_pauli_isovector_expr (nm_class m)) t.

(** NucleonUAModel.py l.154-164 (NucleonUAModelOld.py l.152-162): combination of the four
    contributions. *)
Definition combine_contributions (m : NucleonModel) (t ds dv ps pv : C) : Res C :=
  let dirac_form_factor := if nm_proton m then (ds + dv)%C else (ds - dv)%C in
  let pauli_form_factor := if nm_proton m then (ps + pv)%C else (ps - pv)%C in
  if nm_electric m then
    nucleon_mass <- attr (nm_attrs m) "nucleon_mass" ;;
    q <- cdiv t (RtoC (4 * (nucleon_mass * nucleon_mass))) ;;
    Ok (dirac_form_factor + q * pauli_form_factor)%C
  else Ok (dirac_form_factor + pauli_form_factor)%C.

(** NucleonUAModel.py l.145-164, NucleonUAModelOld.py l.143-162 [__call__]. *)
Definition Nucleon_call (m : NucleonModel) (t : C) : Cache -> Res C * Cache :=
  fun cache =>
  if Rlt_dec (Re t) 0 then (Err ValueError, cache) else
  sbind (eval_dirac_isoscalar m t) (fun ds =>
  sbind (eval_dirac_isovector m t) (fun dv =>
  sbind (eval_pauli_isoscalar m t) (fun ps =>
  sbind (eval_pauli_isovector m t) (fun pv =>
  fun c => (combine_contributions m t ds dv ps pv, c))))) cache.

Local Open Scope list_scope.
Local Open Scope expr_scope.

(** ua_model/NucleonUAModel.py: formals and attribute assignments of [__init__] (l.12-143),
    resonance names of [_initialize_isoscalar_components] (l.325-337) and
    [_initialize_isovector_components] (l.339-346). *)
Definition NucleonUAModel_formals : list string :=
    [ "nucleon_mass"; "magnetic_moment_proton"; "magnetic_moment_neutron"; "t_0_dirac_isoscalar";
      "t_in_dirac_isoscalar"; "t_0_dirac_isovector"; "t_in_dirac_isovector"; "t_0_pauli_isoscalar";
      "t_in_pauli_isoscalar"; "t_0_pauli_isovector"; "t_in_pauli_isovector"; "a_dirac_omega";
      "a_dirac_omega_prime"; "a_dirac_phi"; "a_dirac_phi_prime"; "a_dirac_rho";
      "a_pauli_omega"; "a_pauli_phi"; "a_pauli_phi_prime"; "mass_omega";
      "decay_rate_omega"; "mass_omega_prime"; "decay_rate_omega_prime"; "mass_omega_double_prime";
      "decay_rate_omega_double_prime"; "mass_phi"; "decay_rate_phi"; "mass_phi_prime";
      "decay_rate_phi_prime"; "mass_phi_double_prime"; "decay_rate_phi_double_prime"; "mass_rho";
      "decay_rate_rho"; "mass_rho_prime"; "decay_rate_rho_prime"; "mass_rho_double_prime";
      "decay_rate_rho_double_prime" ].
Definition NucleonUAModel_assign : list (string * expr) :=
    [ ("nucleon_mass", ELoc "nucleon_mass"); ("magnetic_moment_proton", ELoc "magnetic_moment_proton");
      ("magnetic_moment_neutron", ELoc "magnetic_moment_neutron"); ("t_0_dirac_isoscalar", ELoc "t_0_dirac_isoscalar");
      ("t_in_dirac_isoscalar", ELoc "t_in_dirac_isoscalar"); ("t_0_dirac_isovector", ELoc "t_0_dirac_isovector");
      ("t_in_dirac_isovector", ELoc "t_in_dirac_isovector"); ("t_0_pauli_isoscalar", ELoc "t_0_pauli_isoscalar");
      ("t_in_pauli_isoscalar", ELoc "t_in_pauli_isoscalar"); ("t_0_pauli_isovector", ELoc "t_0_pauli_isovector");
      ("t_in_pauli_isovector", ELoc "t_in_pauli_isovector"); ("mass_omega", ELoc "mass_omega");
      ("decay_rate_omega", ELoc "decay_rate_omega"); ("mass_omega_prime", ELoc "mass_omega_prime");
      ("decay_rate_omega_prime", ELoc "decay_rate_omega_prime"); ("mass_omega_double_prime", ELoc "mass_omega_double_prime");
      ("decay_rate_omega_double_prime", ELoc "decay_rate_omega_double_prime"); ("mass_phi", ELoc "mass_phi");
      ("decay_rate_phi", ELoc "decay_rate_phi"); ("mass_phi_prime", ELoc "mass_phi_prime");
      ("decay_rate_phi_prime", ELoc "decay_rate_phi_prime"); ("mass_phi_double_prime", ELoc "mass_phi_double_prime");
      ("decay_rate_phi_double_prime", ELoc "decay_rate_phi_double_prime"); ("mass_rho", ELoc "mass_rho");
      ("decay_rate_rho", ELoc "decay_rate_rho"); ("mass_rho_prime", ELoc "mass_rho_prime");
      ("decay_rate_rho_prime", ELoc "decay_rate_rho_prime"); ("mass_rho_double_prime", ELoc "mass_rho_double_prime");
      ("decay_rate_rho_double_prime", ELoc "decay_rate_rho_double_prime"); ("a_dirac_omega", ELoc "a_dirac_omega");
      ("a_dirac_omega_prime", ELoc "a_dirac_omega_prime"); ("a_dirac_phi", ELoc "a_dirac_phi");
      ("a_dirac_phi_prime", ELoc "a_dirac_phi_prime"); ("a_dirac_rho", ELoc "a_dirac_rho");
      ("a_pauli_omega", ELoc "a_pauli_omega"); ("a_pauli_phi", ELoc "a_pauli_phi");
      ("a_pauli_phi_prime", ELoc "a_pauli_phi_prime") ].
Definition NucleonUAModel_isoscalar : list string := [ "omega"; "omega_prime"; "omega_double_prime"; "phi";
      "phi_prime"; "phi_double_prime" ].
Definition NucleonUAModel_isovector : list string := [ "rho"; "rho_prime"; "rho_double_prime" ].

(** ua_model/NucleonUAModel.py l.167-215 [_eval_dirac_isoscalar_contribution]: local variables, returned expression. *)
Definition NucleonUAModel_dirac_isoscalar_locals : list local_def :=
    [ LMass "c_omega" true true "omega";
      LMass "c_omega_prime" true true "omega_prime";
      LMass "c_omega_double_prime" true true "omega_double_prime";
      LMass "c_phi" true true "phi";
      LMass "c_phi_prime" true true "phi_prime";
      LMass "c_phi_double_prime" true true "phi_double_prime" ].
Definition NucleonUAModel_dirac_isoscalar_expr : expr :=
    ((((((ENum (1/2) * EComp "_dirac_component_omega_double_prime")
     * EComp "_dirac_component_phi_double_prime")
     + (EAttr "a_dirac_omega_prime"
        * (((((EComp "_dirac_component_phi_double_prime" * EComp "_dirac_component_omega_prime")
           * (ELoc "c_phi_double_prime" - ELoc "c_omega_prime"))
           / (ELoc "c_phi_double_prime" - ELoc "c_omega_double_prime"))
           + (((EComp "_dirac_component_omega_double_prime" * EComp "_dirac_component_omega_prime")
              * (ELoc "c_omega_double_prime" - ELoc "c_omega_prime"))
              / (ELoc "c_omega_double_prime" - ELoc "c_phi_double_prime")))
           - (EComp "_dirac_component_omega_double_prime" * EComp "_dirac_component_phi_double_prime"))))
     + (EAttr "a_dirac_phi_prime"
        * (((((EComp "_dirac_component_phi_double_prime" * EComp "_dirac_component_phi_prime")
           * (ELoc "c_phi_double_prime" - ELoc "c_phi_prime"))
           / (ELoc "c_phi_double_prime" - ELoc "c_omega_double_prime"))
           + (((EComp "_dirac_component_omega_double_prime" * EComp "_dirac_component_phi_prime")
              * (ELoc "c_omega_double_prime" - ELoc "c_phi_prime"))
              / (ELoc "c_omega_double_prime" - ELoc "c_phi_double_prime")))
           - (EComp "_dirac_component_omega_double_prime" * EComp "_dirac_component_phi_double_prime"))))
     + (EAttr "a_dirac_omega"
        * (((((EComp "_dirac_component_phi_double_prime" * EComp "_dirac_component_omega")
           * (ELoc "c_phi_double_prime" - ELoc "c_omega"))
           / (ELoc "c_phi_double_prime" - ELoc "c_omega_double_prime"))
           + (((EComp "_dirac_component_omega_double_prime" * EComp "_dirac_component_omega")
              * (ELoc "c_omega_double_prime" - ELoc "c_omega"))
              / (ELoc "c_omega_double_prime" - ELoc "c_phi_double_prime")))
           - (EComp "_dirac_component_omega_double_prime" * EComp "_dirac_component_phi_double_prime"))))
     + (EAttr "a_dirac_phi"
        * (((((EComp "_dirac_component_phi_double_prime" * EComp "_dirac_component_phi")
           * (ELoc "c_phi_double_prime" - ELoc "c_phi"))
           / (ELoc "c_phi_double_prime" - ELoc "c_omega_double_prime"))
           + (((EComp "_dirac_component_omega_double_prime" * EComp "_dirac_component_phi")
              * (ELoc "c_omega_double_prime" - ELoc "c_phi"))
              / (ELoc "c_omega_double_prime" - ELoc "c_phi_double_prime")))
           - (EComp "_dirac_component_omega_double_prime" * EComp "_dirac_component_phi_double_prime")))).

(** ua_model/NucleonUAModel.py l.217-235 [_eval_dirac_isovector_contribution]: local variables, returned expression. *)
Definition NucleonUAModel_dirac_isovector_locals : list local_def :=
    [ LMass "c_rho" false true "rho";
      LMass "c_rho_prime" false true "rho_prime";
      LMass "c_rho_double_prime" false true "rho_double_prime" ].
Definition NucleonUAModel_dirac_isovector_expr : expr :=
    (((ENum (1/2) * EComp "_dirac_component_rho_prime")
     * EComp "_dirac_component_rho_double_prime")
     + (EAttr "a_dirac_rho"
        * (((((EComp "_dirac_component_rho" * EComp "_dirac_component_rho_prime")
           * (ELoc "c_rho_prime" - ELoc "c_rho"))
           / (ELoc "c_rho_prime" - ELoc "c_rho_double_prime"))
           + (((EComp "_dirac_component_rho" * EComp "_dirac_component_rho_double_prime")
              * (ELoc "c_rho_double_prime" - ELoc "c_rho"))
              / (ELoc "c_rho_double_prime" - ELoc "c_rho_prime")))
           - (EComp "_dirac_component_rho_prime" * EComp "_dirac_component_rho_double_prime")))).

(** ua_model/NucleonUAModel.py l.237-317 [_eval_pauli_isoscalar_contribution]: local variables, returned expression. *)
Definition NucleonUAModel_pauli_isoscalar_locals : list local_def :=
    [ LMass "c_omega" true false "omega";
      LMass "c_omega_prime" true false "omega_prime";
      LMass "c_omega_double_prime" true false "omega_double_prime";
      LMass "c_phi" true false "phi";
      LMass "c_phi_prime" true false "phi_prime";
      LMass "c_phi_double_prime" true false "phi_double_prime";
      LExpr "norm" (ENum (1/2) * ((EAttr "magnetic_moment_proton" + EAttr "magnetic_moment_neutron") - ENum 1)) ].
Definition NucleonUAModel_pauli_isoscalar_expr : expr :=
    ((((((ELoc "norm" * EComp "_pauli_component_omega_double_prime")
     * EComp "_pauli_component_phi_double_prime")
     * EComp "_pauli_component_omega_prime")
     + (EAttr "a_pauli_phi_prime"
        * (((((((EComp "_pauli_component_phi_double_prime" * EComp "_pauli_component_phi_prime")
           * EComp "_pauli_component_omega_prime")
           * ((ELoc "c_phi_double_prime" - ELoc "c_phi_prime")
              / (ELoc "c_phi_double_prime" - ELoc "c_omega_double_prime")))
           * ((ELoc "c_omega_prime" - ELoc "c_phi_prime")
              / (ELoc "c_omega_prime" - ELoc "c_omega_double_prime")))
           + ((((EComp "_pauli_component_omega_double_prime" * EComp "_pauli_component_omega_prime")
              * EComp "_pauli_component_phi_prime")
              * ((ELoc "c_omega_double_prime" - ELoc "c_phi_prime")
                 / (ELoc "c_omega_double_prime" - ELoc "c_phi_double_prime")))
              * ((ELoc "c_omega_prime" - ELoc "c_phi_prime")
                 / (ELoc "c_omega_prime" - ELoc "c_phi_double_prime"))))
           + ((((EComp "_pauli_component_omega_double_prime" * EComp "_pauli_component_phi_double_prime")
              * EComp "_pauli_component_phi_prime")
              * ((ELoc "c_omega_double_prime" - ELoc "c_phi_prime")
                 / (ELoc "c_omega_double_prime" - ELoc "c_omega_prime")))
              * ((ELoc "c_phi_double_prime" - ELoc "c_phi_prime")
                 / (ELoc "c_phi_double_prime" - ELoc "c_omega_prime"))))
           - ((EComp "_pauli_component_omega_double_prime" * EComp "_pauli_component_phi_double_prime")
              * EComp "_pauli_component_omega_prime"))))
     + (EAttr "a_pauli_omega"
        * (((((((EComp "_pauli_component_phi_double_prime" * EComp "_pauli_component_omega_prime")
           * EComp "_pauli_component_omega")
           * ((ELoc "c_phi_double_prime" - ELoc "c_omega")
              / (ELoc "c_phi_double_prime" - ELoc "c_omega_double_prime")))
           * ((ELoc "c_omega_prime" - ELoc "c_omega")
              / (ELoc "c_omega_prime" - ELoc "c_omega_double_prime")))
           + ((((EComp "_pauli_component_omega_double_prime" * EComp "_pauli_component_omega_prime")
              * EComp "_pauli_component_omega")
              * ((ELoc "c_omega_double_prime" - ELoc "c_omega")
                 / (ELoc "c_omega_double_prime" - ELoc "c_phi_double_prime")))
              * ((ELoc "c_omega_prime" - ELoc "c_omega")
                 / (ELoc "c_omega_prime" - ELoc "c_phi_double_prime"))))
           + ((((EComp "_pauli_component_omega_double_prime" * EComp "_pauli_component_phi_double_prime")
              * EComp "_pauli_component_omega")
              * ((ELoc "c_omega_double_prime" - ELoc "c_omega")
                 / (ELoc "c_omega_double_prime" - ELoc "c_omega_prime")))
              * ((ELoc "c_phi_double_prime" - ELoc "c_omega")
                 / (ELoc "c_phi_double_prime" - ELoc "c_omega_prime"))))
           - ((EComp "_pauli_component_omega_double_prime" * EComp "_pauli_component_phi_double_prime")
              * EComp "_pauli_component_omega_prime"))))
     + (EAttr "a_pauli_phi"
        * (((((((EComp "_pauli_component_phi_double_prime" * EComp "_pauli_component_omega_prime")
           * EComp "_pauli_component_phi")
           * ((ELoc "c_phi_double_prime" - ELoc "c_phi")
              / (ELoc "c_phi_double_prime" - ELoc "c_omega_double_prime")))
           * ((ELoc "c_omega_prime" - ELoc "c_phi")
              / (ELoc "c_omega_prime" - ELoc "c_omega_double_prime")))
           + ((((EComp "_pauli_component_omega_double_prime" * EComp "_pauli_component_omega_prime")
              * EComp "_pauli_component_phi")
              * ((ELoc "c_omega_double_prime" - ELoc "c_phi")
                 / (ELoc "c_omega_double_prime" - ELoc "c_phi_double_prime")))
              * ((ELoc "c_omega_prime" - ELoc "c_phi")
                 / (ELoc "c_omega_prime" - ELoc "c_phi_double_prime"))))
           + ((((EComp "_pauli_component_omega_double_prime" * EComp "_pauli_component_phi_double_prime")
              * EComp "_pauli_component_phi")
              * ((ELoc "c_omega_double_prime" - ELoc "c_phi")
                 / (ELoc "c_omega_double_prime" - ELoc "c_omega_prime")))
              * ((ELoc "c_phi_double_prime" - ELoc "c_phi")
                 / (ELoc "c_phi_double_prime" - ELoc "c_omega_prime"))))
           - ((EComp "_pauli_component_omega_double_prime" * EComp "_pauli_component_phi_double_prime")
              * EComp "_pauli_component_omega_prime")))).

(** ua_model/NucleonUAModel.py l.319-323 [_eval_pauli_isovector_contribution]: local variables, returned expression. *)
Definition NucleonUAModel_pauli_isovector_locals : list local_def :=
    [ LExpr "norm" (ENum (1/2) * ((EAttr "magnetic_moment_proton" - EAttr "magnetic_moment_neutron") - ENum 1)) ].
Definition NucleonUAModel_pauli_isovector_expr : expr :=
    (((ELoc "norm" * EComp "_pauli_component_rho") * EComp "_pauli_component_rho_prime")
     * EComp "_pauli_component_rho_double_prime").

(** ua_model/NucleonUAModelOld.py: formals and attribute assignments of [__init__] (l.12-141),
    resonance names of [_initialize_isoscalar_components] (l.302-314) and
    [_initialize_isovector_components] (l.316-323). *)
Definition NucleonUAModelOld_formals : list string :=
    [ "nucleon_mass"; "magnetic_moment_proton"; "magnetic_moment_neutron"; "t_0_dirac_isoscalar";
      "t_in_dirac_isoscalar"; "t_0_dirac_isovector"; "t_in_dirac_isovector"; "t_0_pauli_isoscalar";
      "t_in_pauli_isoscalar"; "t_0_pauli_isovector"; "t_in_pauli_isovector"; "a_dirac_omega";
      "a_dirac_omega_prime"; "a_dirac_phi"; "a_dirac_phi_prime"; "a_dirac_rho";
      "a_pauli_omega"; "a_pauli_phi"; "a_pauli_phi_prime"; "mass_omega";
      "decay_rate_omega"; "mass_omega_prime"; "decay_rate_omega_prime"; "mass_omega_double_prime";
      "decay_rate_omega_double_prime"; "mass_phi"; "decay_rate_phi"; "mass_phi_prime";
      "decay_rate_phi_prime"; "mass_phi_double_prime"; "decay_rate_phi_double_prime"; "mass_rho";
      "decay_rate_rho"; "mass_rho_prime"; "decay_rate_rho_prime"; "mass_rho_double_prime";
      "decay_rate_rho_double_prime" ].
Definition NucleonUAModelOld_assign : list (string * expr) :=
    [ ("nucleon_mass", ELoc "nucleon_mass"); ("magnetic_moment_proton", ELoc "magnetic_moment_proton");
      ("magnetic_moment_neutron", ELoc "magnetic_moment_neutron"); ("t_0_dirac_isoscalar", ELoc "t_0_dirac_isoscalar");
      ("t_in_dirac_isoscalar", ELoc "t_in_dirac_isoscalar"); ("t_0_dirac_isovector", ELoc "t_0_dirac_isovector");
      ("t_in_dirac_isovector", ELoc "t_in_dirac_isovector"); ("t_0_pauli_isoscalar", ELoc "t_0_pauli_isoscalar");
      ("t_in_pauli_isoscalar", ELoc "t_in_pauli_isoscalar"); ("t_0_pauli_isovector", ELoc "t_0_pauli_isovector");
      ("t_in_pauli_isovector", ELoc "t_in_pauli_isovector"); ("mass_omega", ELoc "mass_omega");
      ("decay_rate_omega", ELoc "decay_rate_omega"); ("mass_omega_prime", ELoc "mass_omega_prime");
      ("decay_rate_omega_prime", ELoc "decay_rate_omega_prime"); ("mass_omega_double_prime", ELoc "mass_omega_double_prime");
      ("decay_rate_omega_double_prime", ELoc "decay_rate_omega_double_prime"); ("mass_phi", ELoc "mass_phi");
      ("decay_rate_phi", ELoc "decay_rate_phi"); ("mass_phi_prime", ELoc "mass_phi_prime");
      ("decay_rate_phi_prime", ELoc "decay_rate_phi_prime"); ("mass_phi_double_prime", ELoc "mass_phi_double_prime");
      ("decay_rate_phi_double_prime", ELoc "decay_rate_phi_double_prime"); ("mass_rho", ELoc "mass_rho");
      ("decay_rate_rho", ELoc "decay_rate_rho"); ("mass_rho_prime", ELoc "mass_rho_prime");
      ("decay_rate_rho_prime", ELoc "decay_rate_rho_prime"); ("mass_rho_double_prime", ELoc "mass_rho_double_prime");
      ("decay_rate_rho_double_prime", ELoc "decay_rate_rho_double_prime"); ("a_dirac_omega", ELoc "a_dirac_omega");
      ("a_dirac_omega_prime", ELoc "a_dirac_omega_prime"); ("a_dirac_phi", ELoc "a_dirac_phi");
      ("a_dirac_phi_prime", ELoc "a_dirac_phi_prime"); ("a_dirac_rho", ELoc "a_dirac_rho");
      ("a_pauli_omega", ELoc "a_pauli_omega"); ("a_pauli_phi", ELoc "a_pauli_phi");
      ("a_pauli_phi_prime", ELoc "a_pauli_phi_prime") ].
Definition NucleonUAModelOld_isoscalar : list string := [ "omega"; "omega_prime"; "omega_double_prime"; "phi";
      "phi_prime"; "phi_double_prime" ].
Definition NucleonUAModelOld_isovector : list string := [ "rho"; "rho_prime"; "rho_double_prime" ].

(** ua_model/NucleonUAModelOld.py l.165-205 [_eval_dirac_isoscalar_contribution]: local variables, returned expression. *)
Definition NucleonUAModelOld_dirac_isoscalar_locals : list local_def :=
    [  ].
Definition NucleonUAModelOld_dirac_isoscalar_expr : expr :=
    ((((((ENum (1/2) * EComp "_dirac_component_omega_double_prime")
     * EComp "_dirac_component_phi_double_prime")
     + (EAttr "a_dirac_omega_prime"
        * (((((EComp "_dirac_component_phi_double_prime" * EComp "_dirac_component_omega_prime")
           * ((ESq (EAttr "mass_phi_double_prime")) - (ESq (EAttr "mass_omega_prime"))))
           / ((ESq (EAttr "mass_phi_double_prime")) - (ESq (EAttr "mass_omega_double_prime"))))
           + (((EComp "_dirac_component_omega_double_prime" * EComp "_dirac_component_omega_prime")
              * ((ESq (EAttr "mass_omega_double_prime")) - (ESq (EAttr "mass_omega_prime"))))
              / ((ESq (EAttr "mass_omega_double_prime")) - (ESq (EAttr "mass_phi_double_prime")))))
           - (EComp "_dirac_component_omega_double_prime" * EComp "_dirac_component_phi_double_prime"))))
     + (EAttr "a_dirac_phi_prime"
        * (((((EComp "_dirac_component_phi_double_prime" * EComp "_dirac_component_phi_prime")
           * ((ESq (EAttr "mass_phi_double_prime")) - (ESq (EAttr "mass_phi_prime"))))
           / ((ESq (EAttr "mass_phi_double_prime")) - (ESq (EAttr "mass_omega_double_prime"))))
           + (((EComp "_dirac_component_omega_double_prime" * EComp "_dirac_component_phi_prime")
              * ((ESq (EAttr "mass_omega_double_prime")) - (ESq (EAttr "mass_phi_prime"))))
              / ((ESq (EAttr "mass_omega_double_prime")) - (ESq (EAttr "mass_phi_double_prime")))))
           - (EComp "_dirac_component_omega_double_prime" * EComp "_dirac_component_phi_double_prime"))))
     + (EAttr "a_dirac_omega"
        * (((((EComp "_dirac_component_phi_double_prime" * EComp "_dirac_component_omega")
           * ((ESq (EAttr "mass_phi_double_prime")) - (ESq (EAttr "mass_omega"))))
           / ((ESq (EAttr "mass_phi_double_prime")) - (ESq (EAttr "mass_omega_double_prime"))))
           + (((EComp "_dirac_component_omega_double_prime" * EComp "_dirac_component_omega")
              * ((ESq (EAttr "mass_omega_double_prime")) - (ESq (EAttr "mass_omega"))))
              / ((ESq (EAttr "mass_omega_double_prime")) - (ESq (EAttr "mass_phi_double_prime")))))
           - (EComp "_dirac_component_omega_double_prime" * EComp "_dirac_component_phi_double_prime"))))
     + (EAttr "a_dirac_phi"
        * (((((EComp "_dirac_component_phi_double_prime" * EComp "_dirac_component_phi")
           * ((ESq (EAttr "mass_phi_double_prime")) - (ESq (EAttr "mass_phi"))))
           / ((ESq (EAttr "mass_phi_double_prime")) - (ESq (EAttr "mass_omega_double_prime"))))
           + (((EComp "_dirac_component_omega_double_prime" * EComp "_dirac_component_phi")
              * ((ESq (EAttr "mass_omega_double_prime")) - (ESq (EAttr "mass_phi"))))
              / ((ESq (EAttr "mass_omega_double_prime")) - (ESq (EAttr "mass_phi_double_prime")))))
           - (EComp "_dirac_component_omega_double_prime" * EComp "_dirac_component_phi_double_prime")))).

(** ua_model/NucleonUAModelOld.py l.207-220 [_eval_dirac_isovector_contribution]: local variables, returned expression. *)
Definition NucleonUAModelOld_dirac_isovector_locals : list local_def :=
    [  ].
Definition NucleonUAModelOld_dirac_isovector_expr : expr :=
    (((ENum (1/2) * EComp "_dirac_component_rho_prime")
     * EComp "_dirac_component_rho_double_prime")
     + (EAttr "a_dirac_rho"
        * (((((EComp "_dirac_component_rho" * EComp "_dirac_component_rho_prime")
           * ((ESq (EAttr "mass_rho_prime")) - (ESq (EAttr "mass_rho"))))
           / ((ESq (EAttr "mass_rho_prime")) - (ESq (EAttr "mass_rho_double_prime"))))
           + (((EComp "_dirac_component_rho" * EComp "_dirac_component_rho_double_prime")
              * ((ESq (EAttr "mass_rho_double_prime")) - (ESq (EAttr "mass_rho"))))
              / ((ESq (EAttr "mass_rho_double_prime")) - (ESq (EAttr "mass_rho_prime")))))
           - (EComp "_dirac_component_rho_prime" * EComp "_dirac_component_rho_double_prime")))).

(** ua_model/NucleonUAModelOld.py l.222-294 [_eval_pauli_isoscalar_contribution]: local variables, returned expression. *)
Definition NucleonUAModelOld_pauli_isoscalar_locals : list local_def :=
    [ LExpr "norm" (ENum (1/2) * ((EAttr "magnetic_moment_proton" + EAttr "magnetic_moment_neutron") - ENum 1)) ].
Definition NucleonUAModelOld_pauli_isoscalar_expr : expr :=
    ((((((ELoc "norm" * EComp "_pauli_component_omega_double_prime")
     * EComp "_pauli_component_phi_double_prime")
     * EComp "_pauli_component_omega_prime")
     + (EAttr "a_pauli_phi_prime"
        * (((((((EComp "_pauli_component_phi_double_prime" * EComp "_pauli_component_phi_prime")
           * EComp "_pauli_component_omega_prime")
           * (((ESq (EAttr "mass_phi_double_prime")) - (ESq (EAttr "mass_phi_prime")))
              / ((ESq (EAttr "mass_phi_double_prime")) - (ESq (EAttr "mass_omega_double_prime")))))
           * (((ESq (EAttr "mass_omega_prime")) - (ESq (EAttr "mass_phi_prime")))
              / ((ESq (EAttr "mass_omega_prime")) - (ESq (EAttr "mass_omega_double_prime")))))
           + ((((EComp "_pauli_component_omega_double_prime" * EComp "_pauli_component_omega_prime")
              * EComp "_pauli_component_phi_prime")
              * (((ESq (EAttr "mass_omega_double_prime")) - (ESq (EAttr "mass_phi_prime")))
                 / ((ESq (EAttr "mass_omega_double_prime")) - (ESq (EAttr "mass_phi_double_prime")))))
              * (((ESq (EAttr "mass_omega_prime")) - (ESq (EAttr "mass_phi_prime")))
                 / ((ESq (EAttr "mass_omega_prime")) - (ESq (EAttr "mass_phi_double_prime"))))))
           + ((((EComp "_pauli_component_omega_double_prime" * EComp "_pauli_component_phi_double_prime")
              * EComp "_pauli_component_phi_prime")
              * (((ESq (EAttr "mass_omega_double_prime")) - (ESq (EAttr "mass_phi_prime")))
                 / ((ESq (EAttr "mass_omega_double_prime")) - (ESq (EAttr "mass_omega_prime")))))
              * (((ESq (EAttr "mass_phi_double_prime")) - (ESq (EAttr "mass_phi_prime")))
                 / ((ESq (EAttr "mass_phi_double_prime")) - (ESq (EAttr "mass_omega_prime"))))))
           - ((EComp "_pauli_component_omega_double_prime" * EComp "_pauli_component_phi_double_prime")
              * EComp "_pauli_component_omega_prime"))))
     + (EAttr "a_pauli_omega"
        * (((((((EComp "_pauli_component_phi_double_prime" * EComp "_pauli_component_omega_prime")
           * EComp "_pauli_component_omega")
           * (((ESq (EAttr "mass_phi_double_prime")) - (ESq (EAttr "mass_omega")))
              / ((ESq (EAttr "mass_phi_double_prime")) - (ESq (EAttr "mass_omega_double_prime")))))
           * (((ESq (EAttr "mass_omega_prime")) - (ESq (EAttr "mass_omega")))
              / ((ESq (EAttr "mass_omega_prime")) - (ESq (EAttr "mass_omega_double_prime")))))
           + ((((EComp "_pauli_component_omega_double_prime" * EComp "_pauli_component_omega_prime")
              * EComp "_pauli_component_omega")
              * (((ESq (EAttr "mass_omega_double_prime")) - (ESq (EAttr "mass_omega")))
                 / ((ESq (EAttr "mass_omega_double_prime")) - (ESq (EAttr "mass_phi_double_prime")))))
              * (((ESq (EAttr "mass_omega_prime")) - (ESq (EAttr "mass_omega")))
                 / ((ESq (EAttr "mass_omega_prime")) - (ESq (EAttr "mass_phi_double_prime"))))))
           + ((((EComp "_pauli_component_omega_double_prime" * EComp "_pauli_component_phi_double_prime")
              * EComp "_pauli_component_omega")
              * (((ESq (EAttr "mass_omega_double_prime")) - (ESq (EAttr "mass_omega")))
                 / ((ESq (EAttr "mass_omega_double_prime")) - (ESq (EAttr "mass_omega_prime")))))
              * (((ESq (EAttr "mass_phi_double_prime")) - (ESq (EAttr "mass_omega")))
                 / ((ESq (EAttr "mass_phi_double_prime")) - (ESq (EAttr "mass_omega_prime"))))))
           - ((EComp "_pauli_component_omega_double_prime" * EComp "_pauli_component_phi_double_prime")
              * EComp "_pauli_component_omega_prime"))))
     + (EAttr "a_pauli_phi"
        * (((((((EComp "_pauli_component_phi_double_prime" * EComp "_pauli_component_omega_prime")
           * EComp "_pauli_component_phi")
           * (((ESq (EAttr "mass_phi_double_prime")) - (ESq (EAttr "mass_phi")))
              / ((ESq (EAttr "mass_phi_double_prime")) - (ESq (EAttr "mass_omega_double_prime")))))
           * (((ESq (EAttr "mass_omega_prime")) - (ESq (EAttr "mass_phi")))
              / ((ESq (EAttr "mass_omega_prime")) - (ESq (EAttr "mass_omega_double_prime")))))
           + ((((EComp "_pauli_component_omega_double_prime" * EComp "_pauli_component_omega_prime")
              * EComp "_pauli_component_phi")
              * (((ESq (EAttr "mass_omega_double_prime")) - (ESq (EAttr "mass_phi")))
                 / ((ESq (EAttr "mass_omega_double_prime")) - (ESq (EAttr "mass_phi_double_prime")))))
              * (((ESq (EAttr "mass_omega_prime")) - (ESq (EAttr "mass_phi")))
                 / ((ESq (EAttr "mass_omega_prime")) - (ESq (EAttr "mass_phi_double_prime"))))))
           + ((((EComp "_pauli_component_omega_double_prime" * EComp "_pauli_component_phi_double_prime")
              * EComp "_pauli_component_phi")
              * (((ESq (EAttr "mass_omega_double_prime")) - (ESq (EAttr "mass_phi")))
                 / ((ESq (EAttr "mass_omega_double_prime")) - (ESq (EAttr "mass_omega_prime")))))
              * (((ESq (EAttr "mass_phi_double_prime")) - (ESq (EAttr "mass_phi")))
                 / ((ESq (EAttr "mass_phi_double_prime")) - (ESq (EAttr "mass_omega_prime"))))))
           - ((EComp "_pauli_component_omega_double_prime" * EComp "_pauli_component_phi_double_prime")
              * EComp "_pauli_component_omega_prime")))).

(** ua_model/NucleonUAModelOld.py l.296-300 [_eval_pauli_isovector_contribution]: local variables, returned expression. *)
Definition NucleonUAModelOld_pauli_isovector_locals : list local_def :=
    [ LExpr "norm" (ENum (1/2) * ((EAttr "magnetic_moment_proton" - EAttr "magnetic_moment_neutron") - ENum 1)) ].
Definition NucleonUAModelOld_pauli_isovector_expr : expr :=
    (((ELoc "norm" * EComp "_pauli_component_rho") * EComp "_pauli_component_rho_prime")
     * EComp "_pauli_component_rho_double_prime").

(** The class ua_model/NucleonUAModel.py: the tables above and its [_build_component]. *)
Definition NucleonUAModel : NucleonClass := {|
  nc_formals := NucleonUAModel_formals;
  nc_assign := NucleonUAModel_assign;
  nc_isoscalar := NucleonUAModel_isoscalar;
  nc_isovector := NucleonUAModel_isovector;
  nc_build := build_component_nucleon;
  nc_dirac_isoscalar_locals := NucleonUAModel_dirac_isoscalar_locals;
  nc_dirac_isoscalar_expr := NucleonUAModel_dirac_isoscalar_expr;
  nc_dirac_isovector_locals := NucleonUAModel_dirac_isovector_locals;
  nc_dirac_isovector_expr := NucleonUAModel_dirac_isovector_expr;
  nc_pauli_isoscalar_locals := NucleonUAModel_pauli_isoscalar_locals;
  nc_pauli_isoscalar_expr := NucleonUAModel_pauli_isoscalar_expr;
  nc_pauli_isovector_locals := NucleonUAModel_pauli_isovector_locals;
  nc_pauli_isovector_expr := NucleonUAModel_pauli_isovector_expr
|}.

(** The class ua_model/NucleonUAModelOld.py: the tables above and its [_build_component]. *)
Definition NucleonUAModelOld : NucleonClass := {|
  nc_formals := NucleonUAModelOld_formals;
  nc_assign := NucleonUAModelOld_assign;
  nc_isoscalar := NucleonUAModelOld_isoscalar;
  nc_isovector := NucleonUAModelOld_isovector;
  nc_build := build_component;
  nc_dirac_isoscalar_locals := NucleonUAModelOld_dirac_isoscalar_locals;
  nc_dirac_isoscalar_expr := NucleonUAModelOld_dirac_isoscalar_expr;
  nc_dirac_isovector_locals := NucleonUAModelOld_dirac_isovector_locals;
  nc_dirac_isovector_expr := NucleonUAModelOld_dirac_isovector_expr;
  nc_pauli_isoscalar_locals := NucleonUAModelOld_pauli_isoscalar_locals;
  nc_pauli_isoscalar_expr := NucleonUAModelOld_pauli_isoscalar_expr;
  nc_pauli_isovector_locals := NucleonUAModelOld_pauli_isovector_locals;
  nc_pauli_isovector_expr := NucleonUAModelOld_pauli_isovector_expr
|}.
