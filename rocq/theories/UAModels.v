(** Model of ua_model/SingleComponentModel.py, KaonUAModel.py, KaonUAModelB.py and
    KaonUAModelSimplified.py. *)
From Coq Require Import String Reals List.
From Verif Require Import PyBase CNum UAMaps UAComponents PyExpr.
Import ListNotations.
Local Open Scope R_scope.
Local Open Scope py_scope.
Local Open Scope string_scope.

(** ** SingleComponentModel *)

(** SingleComponentModel.py: the attributes used after construction (l.18-25). *)
Record SingleModel : Type := mkSingleModel {
  sm_coupling_constant : R;
  sm_t_to_W : MapTW;
  sm_component : Component
}.

(** SingleComponentModel.py l.12-25 [__init__]. *)
Definition SingleComponentModel_init
  (t_0 t_in coupling_constant mass_resonance decay_rate_resonance : R) : Res SingleModel :=
  m <- MapFromTtoW_init t_0 t_in ;;
  c <- build_component t_0 t_in mass_resonance decay_rate_resonance ;;
  Ok (mkSingleModel coupling_constant m c).

(** SingleComponentModel.py l.27-32 [__call__]. *)
Definition SingleComponentModel_call (s : SingleModel) (t : C) : Res C :=
  if Rlt_dec (Re t) 0 then Err ValueError else
  w <- MapFromTtoW_call (sm_t_to_W s) t ;;
  c <- Component_call (sm_component s) w ;;
  Ok (RtoC (sm_coupling_constant s) * c)%C.

(** ** The kaon models

    The three classes have the same methods; they differ in the formals and assignments of
    [__init__], in the resonance names and in the two returned sums.  These are the fields
    of [KaonClass]; the shared methods are modelled once. *)
Record KaonClass : Type := mkKaonClass {
  kc_formals : list string;                 (* after [charged_variant] *)
  kc_assign : list (string * expr);
  kc_isoscalar : list string;
  kc_isovector : list string;
  kc_isoscalar_expr : expr;
  kc_isovector_expr : expr
}.

Record KaonModel : Type := mkKaonModel {
  km_class : KaonClass;
  km_charged_variant : bool;                (* public, mutable attribute *)
  km_attrs : env R;
  km_t_to_W_isoscalar : MapTW;
  km_t_to_W_isovector : MapTW;
  km_components : env Component
}.

(** [_initialize_isoscalar_components] / [_initialize_isovector_components]
    (KaonUAModel.py l.147-164, KaonUAModelB.py l.134-151, KaonUAModelSimplified.py l.135-152):
    one component per resonance name, attributes looked up by the computed name. *)
Definition init_components (attrs : env R) (t_0 t_in : R) (names : list string)
  : Res (env Component) :=
  mapM (fun name =>
    mass <- attr attrs ("mass_" ++ name) ;;
    decay_rate <- attr attrs ("decay_rate_" ++ name) ;;
    c <- build_component t_0 t_in mass decay_rate ;;
    Ok ("_component_" ++ name, c)) names.

(** [__init__] (KaonUAModel.py l.12-113, KaonUAModelB.py l.15-102,
    KaonUAModelSimplified.py l.16-103). *)
Definition Kaon_init (cls : KaonClass) (charged_variant : bool) (kw : env R) : Res KaonModel :=
  args <- bind_kwargs (kc_formals cls) kw ;;
  attrs <- run_assign args (kc_assign cls) ;;
  t_0_s <- attr attrs "t_0_isoscalar" ;;
  t_in_s <- attr attrs "t_in_isoscalar" ;;
  ms <- MapFromTtoW_init t_0_s t_in_s ;;
  t_0_v <- attr attrs "t_0_isovector" ;;
  t_in_v <- attr attrs "t_in_isovector" ;;
  mv <- MapFromTtoW_init t_0_v t_in_v ;;
  cs <- init_components attrs t_0_s t_in_s (kc_isoscalar cls) ;;
  cv <- init_components attrs t_0_v t_in_v (kc_isovector cls) ;;
  Ok (mkKaonModel cls charged_variant attrs ms mv (cs ++ cv)%list).

(** Assignment to the public attribute [charged_variant]
    (used by common/utils.py l.138, l.182). *)
Definition Kaon_set_charged (m : KaonModel) (b : bool) : KaonModel :=
  mkKaonModel (km_class m) b (km_attrs m) (km_t_to_W_isoscalar m)
              (km_t_to_W_isovector m) (km_components m).

(** Names visible in the two [_eval_..._contribution] methods. *)
Definition kaon_scope (m : KaonModel) (w : C) : Scope := {|
  sc_attr := attr (km_attrs m);
  sc_loc := fun _ => Err OtherError;
  sc_comp := fun n => c <- attr (km_components m) n ;; Component_call c w
|}.

(** [_eval_isoscalar_contribution] (KaonUAModel.py l.127-136, KaonUAModelB.py l.116-124,
    KaonUAModelSimplified.py l.117-125). *)
Definition Kaon_isoscalar (m : KaonModel) (t : C) : Res C :=
  w <- MapFromTtoW_call (km_t_to_W_isoscalar m) t ;;
  ev (kaon_scope m w) (kc_isoscalar_expr (km_class m)).

(** [_eval_isovector_contribution] (KaonUAModel.py l.138-145, KaonUAModelB.py l.126-132,
    KaonUAModelSimplified.py l.127-133). *)
Definition Kaon_isovector (m : KaonModel) (t : C) : Res C :=
  w <- MapFromTtoW_call (km_t_to_W_isovector m) t ;;
  ev (kaon_scope m w) (kc_isovector_expr (km_class m)).

(** [__call__] (KaonUAModel.py l.115-125, KaonUAModelB.py l.104-114,
    KaonUAModelSimplified.py l.105-115). *)
Definition Kaon_call (m : KaonModel) (t : C) : Res C :=
  if Rlt_dec (Re t) 0 then Err ValueError else
  s <- Kaon_isoscalar m t ;;
  v <- Kaon_isovector m t ;;
  if km_charged_variant m then Ok (s + v)%C else Ok (s - v)%C.

Local Open Scope list_scope.
Local Open Scope expr_scope.

(** ua_model/KaonUAModel.py: formals and attribute assignments of [__init__] (l.12-113),
    the resonance names of [_initialize_isoscalar_components] (l.147-157) and
    [_initialize_isovector_components] (l.159-164), the returned expressions of
    [_eval_isoscalar_contribution] (l.127-136) and [_eval_isovector_contribution] (l.138-145). *)
Definition KaonUAModel : KaonClass := {|
  kc_formals :=
    [ "t_0_isoscalar"; "t_in_isoscalar"; "t_0_isovector"; "t_in_isovector";
      "a_omega"; "a_omega_prime"; "a_omega_double_prime"; "a_phi";
      "a_phi_prime"; "a_rho"; "a_rho_prime"; "a_rho_double_prime";
      "mass_omega"; "decay_rate_omega"; "mass_omega_prime"; "decay_rate_omega_prime";
      "mass_omega_double_prime"; "decay_rate_omega_double_prime"; "mass_phi"; "decay_rate_phi";
      "mass_phi_prime"; "decay_rate_phi_prime"; "mass_phi_double_prime"; "decay_rate_phi_double_prime";
      "mass_rho"; "decay_rate_rho"; "mass_rho_prime"; "decay_rate_rho_prime";
      "mass_rho_double_prime"; "decay_rate_rho_double_prime"; "mass_rho_triple_prime"; "decay_rate_rho_triple_prime" ];
  kc_assign :=
    [ ("t_0_isoscalar", ELoc "t_0_isoscalar"); ("t_in_isoscalar", ELoc "t_in_isoscalar");
      ("t_0_isovector", ELoc "t_0_isovector"); ("t_in_isovector", ELoc "t_in_isovector");
      ("a_omega", ELoc "a_omega"); ("a_omega_prime", ELoc "a_omega_prime");
      ("a_omega_double_prime", ELoc "a_omega_double_prime"); ("a_phi", ELoc "a_phi");
      ("a_phi_prime", ELoc "a_phi_prime"); ("a_phi_double_prime", (((((ENum (1/2) - ELoc "a_omega") - ELoc "a_omega_prime") - ELoc "a_omega_double_prime") - ELoc "a_phi") - ELoc "a_phi_prime"));
      ("a_rho", ELoc "a_rho"); ("a_rho_prime", ELoc "a_rho_prime");
      ("a_rho_double_prime", ELoc "a_rho_double_prime"); ("a_rho_triple_prime", (((ENum (1/2) - ELoc "a_rho") - ELoc "a_rho_prime") - ELoc "a_rho_double_prime"));
      ("mass_omega", ELoc "mass_omega"); ("decay_rate_omega", ELoc "decay_rate_omega");
      ("mass_omega_prime", ELoc "mass_omega_prime"); ("decay_rate_omega_prime", ELoc "decay_rate_omega_prime");
      ("mass_omega_double_prime", ELoc "mass_omega_double_prime"); ("decay_rate_omega_double_prime", ELoc "decay_rate_omega_double_prime");
      ("mass_phi", ELoc "mass_phi"); ("decay_rate_phi", ELoc "decay_rate_phi");
      ("mass_phi_prime", ELoc "mass_phi_prime"); ("decay_rate_phi_prime", ELoc "decay_rate_phi_prime");
      ("mass_phi_double_prime", ELoc "mass_phi_double_prime"); ("decay_rate_phi_double_prime", ELoc "decay_rate_phi_double_prime");
      ("mass_rho", ELoc "mass_rho"); ("decay_rate_rho", ELoc "decay_rate_rho");
      ("mass_rho_prime", ELoc "mass_rho_prime"); ("decay_rate_rho_prime", ELoc "decay_rate_rho_prime");
      ("mass_rho_double_prime", ELoc "mass_rho_double_prime"); ("decay_rate_rho_double_prime", ELoc "decay_rate_rho_double_prime");
      ("mass_rho_triple_prime", ELoc "mass_rho_triple_prime"); ("decay_rate_rho_triple_prime", ELoc "decay_rate_rho_triple_prime") ];
  kc_isoscalar := [ "omega"; "omega_prime"; "omega_double_prime"; "phi";
      "phi_prime"; "phi_double_prime" ];
  kc_isovector := [ "rho"; "rho_prime"; "rho_double_prime"; "rho_triple_prime" ];
  kc_isoscalar_expr :=
    ((((((EAttr "a_omega" * EComp "_component_omega")
     + (EAttr "a_omega_prime" * EComp "_component_omega_prime"))
     + (EAttr "a_omega_double_prime" * EComp "_component_omega_double_prime"))
     + (EAttr "a_phi" * EComp "_component_phi"))
     + (EAttr "a_phi_prime" * EComp "_component_phi_prime"))
     + (EAttr "a_phi_double_prime" * EComp "_component_phi_double_prime"));
  kc_isovector_expr :=
    ((((EAttr "a_rho" * EComp "_component_rho")
     + (EAttr "a_rho_prime" * EComp "_component_rho_prime"))
     + (EAttr "a_rho_double_prime" * EComp "_component_rho_double_prime"))
     + (EAttr "a_rho_triple_prime" * EComp "_component_rho_triple_prime"))
|}.

(** ua_model/KaonUAModelB.py: formals and attribute assignments of [__init__] (l.15-102),
    the resonance names of [_initialize_isoscalar_components] (l.134-144) and
    [_initialize_isovector_components] (l.146-151), the returned expressions of
    [_eval_isoscalar_contribution] (l.116-124) and [_eval_isovector_contribution] (l.126-132). *)
Definition KaonUAModelB : KaonClass := {|
  kc_formals :=
    [ "t_0_isoscalar"; "t_in_isoscalar"; "t_0_isovector"; "t_in_isovector";
      "a_omega"; "a_omega_double_prime"; "a_phi"; "a_phi_prime";
      "a_rho"; "a_rho_prime"; "mass_omega"; "decay_rate_omega";
      "mass_omega_double_prime"; "decay_rate_omega_double_prime"; "mass_phi"; "decay_rate_phi";
      "mass_phi_prime"; "decay_rate_phi_prime"; "mass_phi_double_prime"; "decay_rate_phi_double_prime";
      "mass_rho"; "decay_rate_rho"; "mass_rho_prime"; "decay_rate_rho_prime";
      "mass_rho_double_prime"; "decay_rate_rho_double_prime" ];
  kc_assign :=
    [ ("t_0_isoscalar", ELoc "t_0_isoscalar"); ("t_in_isoscalar", ELoc "t_in_isoscalar");
      ("t_0_isovector", ELoc "t_0_isovector"); ("t_in_isovector", ELoc "t_in_isovector");
      ("a_omega", ELoc "a_omega"); ("a_omega_double_prime", ELoc "a_omega_double_prime");
      ("a_phi", ELoc "a_phi"); ("a_phi_prime", ELoc "a_phi_prime");
      ("a_phi_double_prime", ((((ENum (1/2) - ELoc "a_omega") - ELoc "a_omega_double_prime") - ELoc "a_phi") - ELoc "a_phi_prime")); ("a_rho", ELoc "a_rho");
      ("a_rho_prime", ELoc "a_rho_prime"); ("a_rho_double_prime", ((ENum (1/2) - ELoc "a_rho") - ELoc "a_rho_prime"));
      ("mass_omega", ELoc "mass_omega"); ("decay_rate_omega", ELoc "decay_rate_omega");
      ("mass_omega_double_prime", ELoc "mass_omega_double_prime"); ("decay_rate_omega_double_prime", ELoc "decay_rate_omega_double_prime");
      ("mass_phi", ELoc "mass_phi"); ("decay_rate_phi", ELoc "decay_rate_phi");
      ("mass_phi_prime", ELoc "mass_phi_prime"); ("decay_rate_phi_prime", ELoc "decay_rate_phi_prime");
      ("mass_phi_double_prime", ELoc "mass_phi_double_prime"); ("decay_rate_phi_double_prime", ELoc "decay_rate_phi_double_prime");
      ("mass_rho", ELoc "mass_rho"); ("decay_rate_rho", ELoc "decay_rate_rho");
      ("mass_rho_prime", ELoc "mass_rho_prime"); ("decay_rate_rho_prime", ELoc "decay_rate_rho_prime");
      ("mass_rho_double_prime", ELoc "mass_rho_double_prime"); ("decay_rate_rho_double_prime", ELoc "decay_rate_rho_double_prime") ];
  kc_isoscalar := [ "omega"; "omega_double_prime"; "phi"; "phi_prime";
      "phi_double_prime" ];
  kc_isovector := [ "rho"; "rho_prime"; "rho_double_prime" ];
  kc_isoscalar_expr :=
    (((((EAttr "a_omega" * EComp "_component_omega")
     + (EAttr "a_omega_double_prime" * EComp "_component_omega_double_prime"))
     + (EAttr "a_phi" * EComp "_component_phi"))
     + (EAttr "a_phi_prime" * EComp "_component_phi_prime"))
     + (EAttr "a_phi_double_prime" * EComp "_component_phi_double_prime"));
  kc_isovector_expr :=
    (((EAttr "a_rho" * EComp "_component_rho")
     + (EAttr "a_rho_prime" * EComp "_component_rho_prime"))
     + (EAttr "a_rho_double_prime" * EComp "_component_rho_double_prime"))
|}.

(** ua_model/KaonUAModelSimplified.py: formals and attribute assignments of [__init__] (l.16-103),
    the resonance names of [_initialize_isoscalar_components] (l.135-145) and
    [_initialize_isovector_components] (l.147-152), the returned expressions of
    [_eval_isoscalar_contribution] (l.117-125) and [_eval_isovector_contribution] (l.127-133). *)
Definition KaonUAModelSimplified : KaonClass := {|
  kc_formals :=
    [ "t_0_isoscalar"; "t_in_isoscalar"; "t_0_isovector"; "t_in_isovector";
      "a_omega_prime"; "a_omega_double_prime"; "a_phi"; "a_phi_prime";
      "a_rho_prime"; "a_rho_double_prime"; "mass_omega_prime"; "decay_rate_omega_prime";
      "mass_omega_double_prime"; "decay_rate_omega_double_prime"; "mass_phi"; "decay_rate_phi";
      "mass_phi_prime"; "decay_rate_phi_prime"; "mass_phi_double_prime"; "decay_rate_phi_double_prime";
      "mass_rho_prime"; "decay_rate_rho_prime"; "mass_rho_double_prime"; "decay_rate_rho_double_prime";
      "mass_rho_triple_prime"; "decay_rate_rho_triple_prime" ];
  kc_assign :=
    [ ("t_0_isoscalar", ELoc "t_0_isoscalar"); ("t_in_isoscalar", ELoc "t_in_isoscalar");
      ("t_0_isovector", ELoc "t_0_isovector"); ("t_in_isovector", ELoc "t_in_isovector");
      ("a_omega_prime", ELoc "a_omega_prime"); ("a_omega_double_prime", ELoc "a_omega_double_prime");
      ("a_phi", ELoc "a_phi"); ("a_phi_prime", ELoc "a_phi_prime");
      ("a_phi_double_prime", ((((ENum (1/2) - ELoc "a_omega_prime") - ELoc "a_omega_double_prime") - ELoc "a_phi") - ELoc "a_phi_prime")); ("a_rho_prime", ELoc "a_rho_prime");
      ("a_rho_double_prime", ELoc "a_rho_double_prime"); ("a_rho_triple_prime", ((ENum (1/2) - ELoc "a_rho_prime") - ELoc "a_rho_double_prime"));
      ("mass_omega_prime", ELoc "mass_omega_prime"); ("decay_rate_omega_prime", ELoc "decay_rate_omega_prime");
      ("mass_omega_double_prime", ELoc "mass_omega_double_prime"); ("decay_rate_omega_double_prime", ELoc "decay_rate_omega_double_prime");
      ("mass_phi", ELoc "mass_phi"); ("decay_rate_phi", ELoc "decay_rate_phi");
      ("mass_phi_prime", ELoc "mass_phi_prime"); ("decay_rate_phi_prime", ELoc "decay_rate_phi_prime");
      ("mass_phi_double_prime", ELoc "mass_phi_double_prime"); ("decay_rate_phi_double_prime", ELoc "decay_rate_phi_double_prime");
      ("mass_rho_prime", ELoc "mass_rho_prime"); ("decay_rate_rho_prime", ELoc "decay_rate_rho_prime");
      ("mass_rho_double_prime", ELoc "mass_rho_double_prime"); ("decay_rate_rho_double_prime", ELoc "decay_rate_rho_double_prime");
      ("mass_rho_triple_prime", ELoc "mass_rho_triple_prime"); ("decay_rate_rho_triple_prime", ELoc "decay_rate_rho_triple_prime") ];
  kc_isoscalar := [ "omega_prime"; "omega_double_prime"; "phi"; "phi_prime";
      "phi_double_prime" ];
  kc_isovector := [ "rho_prime"; "rho_double_prime"; "rho_triple_prime" ];
  kc_isoscalar_expr :=
    (((((EAttr "a_omega_prime" * EComp "_component_omega_prime")
     + (EAttr "a_omega_double_prime" * EComp "_component_omega_double_prime"))
     + (EAttr "a_phi" * EComp "_component_phi"))
     + (EAttr "a_phi_prime" * EComp "_component_phi_prime"))
     + (EAttr "a_phi_double_prime" * EComp "_component_phi_double_prime"));
  kc_isovector_expr :=
    (((EAttr "a_rho_prime" * EComp "_component_rho_prime")
     + (EAttr "a_rho_double_prime" * EComp "_component_rho_double_prime"))
     + (EAttr "a_rho_triple_prime" * EComp "_component_rho_triple_prime"))
|}.
