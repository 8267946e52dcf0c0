(** Model of ua_model/ua_components/ and of the [_build_component] static methods
    of the model classes. *)
From Coq Require Import Reals.
From Verif Require Import PyBase CNum UAMaps.
Local Open Scope R_scope.
Local Open Scope py_scope.

(** The two subclasses of [UAComponent]. *)
Inductive variant : Type := VariantA | VariantB.

(** ua_components/UAComponent.py: attributes set in [__init__] l.18-24. *)
Record Component : Type := mkComponent {
  c_variant : variant;
  c_w_n : C;
  c_w_meson : C;
  c_asymptotic_factor_denominator : C;
  c_resonant_factor_numerator : C
}.

(** ua_components/UAComponentVariantA.py l.26-32 [_eval_resonant_factor_numerator]. *)
Definition numerator_A (w_n w_meson : C) : Res C :=
  i1 <- cdiv 1%C w_meson ;;
  i2 <- cdiv 1%C (Cconj w_meson) ;;
  Ok ((w_n - w_meson) * (w_n - Cconj w_meson) * (w_n - i1) * (w_n - i2))%C.

(** ua_components/UAComponentVariantB.py l.25-31 [_eval_resonant_factor_numerator]. *)
Definition numerator_B (w_n w_meson : C) : Res C :=
  Ok ((w_n - w_meson) * (w_n - Cconj w_meson) *
      (w_n + w_meson) * (w_n + Cconj w_meson))%C.

(** ua_components/UAComponentVariantA.py l.17-24 [_eval_resonant_factor]. *)
Definition resonant_factor_A (num w_meson w : C) : Res C :=
  i1 <- cdiv 1%C w_meson ;;
  i2 <- cdiv 1%C (Cconj w_meson) ;;
  cdiv num ((w - w_meson) * (w - Cconj w_meson) * (w - i1) * (w - i2))%C.

(** ua_components/UAComponentVariantB.py l.16-23 [_eval_resonant_factor]. *)
Definition resonant_factor_B (num w_meson w : C) : Res C :=
  cdiv num ((w - w_meson) * (w - Cconj w_meson) *
            (w + w_meson) * (w + Cconj w_meson))%C.

(** ua_components/UAComponent.py l.18-24 [__init__], dispatching to the subclass. *)
Definition Component_init (v : variant) (w_n w_meson : C) : Res Component :=
  num <- match v with
         | VariantA => numerator_A w_n w_meson
         | VariantB => numerator_B w_n w_meson
         end ;;
  Ok (mkComponent v w_n w_meson (Csq (1 - Csq w_n))%C num).

(** ua_components/UAComponent.py l.39-42 [_eval_asymptotic_factor]. *)
Definition asymptotic_factor (c : Component) (w : C) : Res C :=
  cdiv (Csq (1 - Csq w))%C (c_asymptotic_factor_denominator c).

(** ua_components/UAComponent.py l.26-37 [__call__]. *)
Definition Component_call (c : Component) (w : C) : Res C :=
  f1 <- asymptotic_factor c w ;;
  f2 <- match c_variant c with
        | VariantA => resonant_factor_A (c_resonant_factor_numerator c) (c_w_meson c) w
        | VariantB => resonant_factor_B (c_resonant_factor_numerator c) (c_w_meson c) w
        end ;;
  Ok (f1 * f2)%C.

(** The pole position [(mass - 1j * decay_rate / 2) ** 2]
    (e.g. SingleComponentModel.py l.38, KaonUAModel.py l.170, NucleonUAModel.py l.352). *)
Definition meson_pole (mass decay_rate : R) : C :=
  Csq (RtoC mass - Ci * RtoC decay_rate / 2)%C.

(** [_build_component] of SingleComponentModel.py l.34-47, KaonUAModel.py l.166-179,
    KaonUAModelB.py l.153-166, KaonUAModelSimplified.py l.154-167 and
    NucleonUAModelOld.py l.326-338 (the same text in all five classes): the squared mass
    decides between rejection and the two variants. *)
Definition build_component (t_0 t_in mass decay_rate : R) : Res Component :=
  m <- MapFromTtoW_init t_0 t_in ;;
  w_n <- MapFromTtoW_call m (RtoC 0) ;;
  w_meson <- MapFromTtoW_call m (meson_pole mass decay_rate) ;;
  let mass_squared := mass * mass in
  if Rlt_dec mass_squared t_0 then Err ValueError
  else if Rlt_dec mass_squared t_in then Component_init VariantA w_n w_meson
  else Component_init VariantB w_n w_meson.

(** [_build_component] of NucleonUAModel.py l.348-360: the real part of the pole decides. *)
Definition build_component_nucleon (t_0 t_in mass decay_rate : R) : Res Component :=
  m <- MapFromTtoW_init t_0 t_in ;;
  w_n <- MapFromTtoW_call m (RtoC 0) ;;
  let t_meson_pole := meson_pole mass decay_rate in
  w_meson <- MapFromTtoW_call m t_meson_pole ;;
  if Rlt_dec (Re t_meson_pole) t_0 then Err ValueError
  else if Rlt_dec (Re t_meson_pole) t_in then Component_init VariantA w_n w_meson
  else Component_init VariantB w_n w_meson.
