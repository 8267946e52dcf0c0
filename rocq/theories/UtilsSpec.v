(** Specification vocabulary for common/utils.py: what one datapoint means and what value belongs to it, built from
    a fresh model for every point. *)
From Coq Require Import String Reals List Bool Arith.
From Verif Require Import PyBase CNum PyExpr UAModels Nucleon NucleonProofs OtherModels Params ParamClasses ParamSpec
  CrossSections CommonUtils KaonSpec NucleonSpec.
Import ListNotations.
Local Open Scope R_scope.
Local Open Scope py_scope.
Local Open Scope string_scope.
Local Open Scope list_scope.

(** The model family of a parameter class. *)
Inductive family := FKaon (k : kaon_kind) | FNucleon | FETGMR | FTwoPoles | FNone.

Definition family_of (c : param_class) : family :=
  match c with
  | PKaon | PKaonFixedRhoOmega | PKaonFixedSelected => FKaon Full
  | PKaonB => FKaon ReducedB
  | PKaonSimplified => FKaon Simplified
  | PNucleon => FNucleon
  | PETGMR => FETGMR
  | PTwoPoles => FTwoPoles
  | POscillations => FNone
  end.

(** The store as keyword arguments. *)
Definition keywords (d : data) : env R := map (fun p => (par_name p, par_value p)) d.

(** Meaning of a datapoint: [None] when it has too few entries. *)
Definition nonzero (x : C) : bool := if C_eq_dec x (RtoC 0) then false else true.

Definition kaon_point (p : datapoint) : option (C * bool) :=
  match p with
  | KaonDatapoint t charged => Some (t, charged)
  | NucleonDatapoint t proton _ => Some (t, proton)
  | Row (t :: x :: _) => Some (t, nonzero x)
  | Row _ => None
  end.

Definition nucleon_point (p : datapoint) : option (C * bool * bool) :=
  match p with
  | NucleonDatapoint t proton electric => Some (t, proton, electric)
  | Row (t :: x :: y :: _) => Some (t, nonzero x, nonzero y)
  | _ => None
  end.

(** Fresh evaluation of the kaon form factor. *)
Definition kaon_value (k : kaon_kind) (charged : bool) (kw : env R) (t : C) : Res C :=
  m <- Kaon_init (kaon_class k) charged kw ;; Kaon_call m t.

(** Can the model of the store be built at all? *)
Definition buildable (c : param_class) (d : data) : Res unit :=
  match family_of c with
  | FKaon k => m <- Kaon_init (kaon_class k) true (keywords d) ;; Ok tt
  | FNucleon => m <- Nucleon_init NucleonUAModel true true (keywords d) ;; Ok tt
  | FETGMR | FTwoPoles => Ok tt
  | FNone => Err TypeError
  end.

(** The form factor modulus belonging to one datapoint. *)
Definition form_factor_at (c : param_class) (d : data) (p : datapoint) : Res R :=
  match family_of c with
  | FKaon k =>
      match kaon_point p with
      | Some (t, charged) => v <- kaon_value k charged (keywords d) t ;; Ok (Cabs v)
      | None => Err IndexError
      end
  | fam =>
      match nucleon_point p with
      | Some (t, proton, electric) =>
          v <- match fam with
               | FNucleon => evaluate New proton electric (keywords d) t
               | FETGMR => ETGMRModel_call (ETGMRModel_init (val d "a") (val d "m_a") (val d "m_d")) t
               | _ => TwoPolesModel_call (TwoPolesModel_init (val d "a") (val d "m_1") (val d "m_2")) t
               end ;;
          Ok (Cabs v)
      | None => Err IndexError
      end
  end.

(** The cross-section belonging to one datapoint. *)
Definition cross_section_at (c : param_class) (mass alpha hc_squared : R) (d : data) (p : datapoint) : Res R :=
  match family_of c with
  | FKaon k =>
      match kaon_point p with
      | Some (t, charged) =>
          v <- ScalarCS_call (ScalarCS_init mass alpha hc_squared) (kaon_value k charged (keywords d)) t ;; Ok (Cabs v)
      | None => Err IndexError
      end
  | FNucleon =>
      match nucleon_point p with
      | Some (t, proton, _) =>
          ge <- evaluate New proton true (keywords d) t ;;
          gm <- evaluate New proton false (keywords d) t ;;
          v <- nucleon_formula (NucleonCS_init mass alpha hc_squared) t (Cabs ge) (Cabs gm) ;; Ok (Cabs v)
      | None => Err IndexError
      end
  | _ => match nucleon_point p with Some _ => Err AttributeError | None => Err IndexError end
  end.

(** The same point written as a plain row of numbers. *)
Definition plain (p : datapoint) : datapoint :=
  match p with
  | KaonDatapoint t charged => Row [t; RtoC (if charged then 1 else 0)]
  | NucleonDatapoint t proton electric => Row [t; RtoC (if proton then 1 else 0); RtoC (if electric then 1 else 0)]
  | Row xs => Row xs
  end.

(** The same point with another electric flag. *)
Definition with_electric (b : bool) (p : datapoint) : datapoint :=
  match p with
  | NucleonDatapoint t proton _ => NucleonDatapoint t proton b
  | Row (t :: x :: y :: r) => Row (t :: x :: RtoC (if b then 1 else 0) :: r)
  | q => q
  end.
