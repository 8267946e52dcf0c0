(** Model of common/utils.py (whole file), kaon_production/data.py l.5 and nucleon_production/data.py l.5 (the
    datapoint named tuples).

    Simplifications.  [random.random()] is a stream of reals and a position in it.  A datapoint is one of the two
    named tuples or a plain row of numbers; every number of a row is complex ([complex(x)] is then the identity).
    The string raised at l.120 (a TypeError) cannot be reached: the model classes are a closed type here. *)
From Coq Require Import String Reals List Bool Arith.
From Verif Require Import PyBase CNum PyExpr UAModels Nucleon OtherModels Params ParamClasses CrossSections.
Import ListNotations.
Local Open Scope R_scope.
Local Open Scope py_scope.
Local Open Scope string_scope.
Local Open Scope list_scope.

(** ** perturb_model_parameters (l.27-72) *)

(** [sub in s] for strings. *)
Fixpoint contains (sub s : string) : bool :=
  if prefix sub s then true
  else match s with EmptyString => false | String _ r => contains sub r end.

(** l.36-40; l.33-34 resolved by the caller. *)
Definition get_perturbation_size (size size_resonances : R) (name : string) : R :=
  if orb (contains "mass" name) (contains "decay_rate" name) then size_resonances else size.

(** l.42-54.  A finite end on the wrong side of infinity ([inf] as lower bound) would give an infinite value, which
    the model has no room for; no table contains such an entry. *)
Definition get_perturbed_value (lower : ext) (old : R) (upper : ext) (rnd ps : R) : Res R :=
  if Rlt_dec rnd 0 then
    match lower with
    | NegInf => Ok (-1 * Rabs old * (1 + ps * Rabs rnd))
    | Fin l => Ok (old + ps * (old - l) * rnd)
    | PosInf => Err OtherError
    end
  else if Rlt_dec 0 rnd then
    match upper with
    | PosInf => Ok (Rabs old * (1 + ps * Rabs rnd))
    | Fin u => Ok (old + ps * (u - old) * rnd)
    | NegInf => Err OtherError
    end
  else Ok old.

(** l.61-71: the generator of [__iter__] (ModelParameters.py l.110-112) reads the list by position while the loop
    body replaces entries.  [k] counts the draws; [fuel] bounds the remaining positions. *)
Fixpoint perturb_loop (draws : nat -> R) (size size_r : R) (bounds : env (ext * ext))
  (fuel i k : nat) (d : data) : Res unit * data * nat :=
  match fuel with
  | O => (Ok tt, d, k)
  | S fuel' =>
      match nth_error d i with
      | None => (Ok tt, d, k)
      | Some p =>
          if par_fixed p then perturb_loop draws size size_r bounds fuel' (S i) k d
          else
            let random_number := 2 * (draws k - 1 / 2) in
            match lookup bounds (par_name p) with
            | None => (Err KeyError, d, S k)
            | Some (lower, upper) =>
                match get_perturbed_value lower (par_value p) upper random_number
                        (get_perturbation_size size size_r (par_name p)) with
                | Err e => (Err e, d, S k)
                | Ok v =>
                    match set_value (par_name p) v d with
                    | (Err e, d') => (Err e, d', S k)
                    | (Ok _, d') => perturb_loop draws size size_r bounds fuel' (S i) (S k) d'
                    end
                end
            end
      end
  end.

(** l.27-72 for a store of class [c]: outcome, the store left behind and the number of draws made so far. *)
Definition perturb_model_parameters (c : param_class) (draws : nat -> R) (k : nat) (size : R) (size_resonances : option R)
  (use_handpicked : bool) (d : data) : Res unit * data * nat :=
  let size_r := match size_resonances with None => size | Some s => s end in
  match full_bounds c use_handpicked d with
  | Err e => (Err e, d, k)
  | Ok bounds => perturb_loop draws size size_r bounds (length d) 0 k d
  end.

(** ** Form factor models of a store (l.75-95) *)

Inductive FFModel :=
  | FFKaon (m : KaonModel)
  | FFNucleon (m : NucleonModel) (cache : Cache)
  | FFETGMR (m : ETGMR)
  | FFTwoPoles (m : TwoPoles).

Definition get_ff_model (c : param_class) (d : data) : Res FFModel :=
  let kaon cls := m <- Kaon_init cls true (dict_of d) ;; Ok (FFKaon m) in
  let value n := p <- getitem d n ;; Ok (par_value p) in
  match c with
  | PKaon => kaon KaonUAModel
  | PKaonB => kaon KaonUAModelB
  | PKaonSimplified => kaon KaonUAModelSimplified
  | PKaonFixedRhoOmega => kaon KaonUAModel
  | PKaonFixedSelected => kaon KaonUAModel
  | PNucleon => mc <- Nucleon_init NucleonUAModel true true (dict_of d) ;; Ok (FFNucleon (fst mc) (snd mc))
  | PETGMR => a <- value "a" ;; m_a <- value "m_a" ;; m_d <- value "m_d" ;; Ok (FFETGMR (ETGMRModel_init a m_a m_d))
  | PTwoPoles => a <- value "a" ;; m_1 <- value "m_1" ;; m_2 <- value "m_2" ;;
                 Ok (FFTwoPoles (TwoPolesModel_init a m_1 m_2))
  | POscillations => Err TypeError
  end.

(** ** Datapoints (l.98-111) *)

Inductive datapoint :=
  | KaonDatapoint (t : C) (is_charged : bool)
  | NucleonDatapoint (t : C) (proton electric : bool)
  | Row (xs : list C).

(** [datapoint[i]]; booleans are the numbers 0 and 1. *)
Definition CofBool (b : bool) : C := RtoC (if b then 1 else 0).
Definition as_row (p : datapoint) : list C :=
  match p with
  | KaonDatapoint t c => [t; CofBool c]
  | NucleonDatapoint t pr el => [t; CofBool pr; CofBool el]
  | Row xs => xs
  end.
Definition index (p : datapoint) (i : nat) : Res C :=
  match nth_error (as_row p) i with Some x => Ok x | None => Err IndexError end.

(** [bool(x)]. *)
Definition truth (x : C) : bool := if C_eq_dec x (RtoC 0) then false else true.

Definition read_datapoint_kaon (p : datapoint) : Res (C * bool) :=
  match p with
  | KaonDatapoint t c => Ok (t, c)
  | _ => t <- index p 0 ;; c <- index p 1 ;; Ok (t, truth c)
  end.

Definition read_datapoint_nucleon (p : datapoint) : Res (C * bool * bool) :=
  match p with
  | NucleonDatapoint t pr el => Ok (t, pr, el)
  | _ => t <- index p 0 ;; pr <- index p 1 ;; el <- index p 2 ;; Ok (t, truth pr, truth el)
  end.

(** ** Attribute assignment and call of a form factor object *)

(** [ff_model.charged_variant = b] (only used on kaon models). *)
Definition ff_set_charged (f : FFModel) (b : bool) : FFModel :=
  match f with FFKaon m => FFKaon (Kaon_set_charged m b) | _ => f end.

(** [ff_model.proton = b], [ff_model.electric = b].  On the auxiliary models the new attribute is never read. *)
Definition ff_set_proton (b : bool) (f : FFModel) : FFModel :=
  match f with FFNucleon m c => FFNucleon (Nucleon_set_flags m b (nm_electric m)) c | _ => f end.
Definition ff_set_electric (b : bool) (f : FFModel) : FFModel :=
  match f with FFNucleon m c => FFNucleon (Nucleon_set_flags m (nm_proton m) b) c | _ => f end.

(** [ff_model(t)]. *)
Definition ff_call (f : FFModel) (t : C) : Res C * FFModel :=
  match f with
  | FFKaon m => (Kaon_call m t, f)
  | FFNucleon m c => let '(r, c') := Nucleon_call m t c in (r, FFNucleon m c')
  | FFETGMR m => (ETGMRModel_call m t, f)
  | FFTwoPoles m => (TwoPolesModel_call m t, f)
  end.

(** l.114-120. *)
Definition is_kaon_type_model (f : FFModel) : bool :=
  match f with FFKaon _ => true | _ => false end.

(** ** function_form_factor (l.123-147) *)

Fixpoint form_factor_kaon_loop (f : FFModel) (ts : list datapoint) : Res (list R) :=
  match ts with
  | [] => Ok []
  | p :: r =>
      tc <- read_datapoint_kaon p ;;
      let f1 := ff_set_charged f (snd tc) in
      let '(v, f2) := ff_call f1 (fst tc) in
      x <- v ;; xs <- form_factor_kaon_loop f2 r ;; Ok (Cabs x :: xs)
  end.

Fixpoint form_factor_nucleon_loop (f : FFModel) (ts : list datapoint) : Res (list R) :=
  match ts with
  | [] => Ok []
  | p :: r =>
      tpe <- read_datapoint_nucleon p ;;
      let '(t, pr, el) := tpe in
      let f1 := ff_set_electric el (ff_set_proton pr f) in
      let '(v, f2) := ff_call f1 t in
      x <- v ;; xs <- form_factor_nucleon_loop f2 r ;; Ok (Cabs x :: xs)
  end.

Definition function_form_factor (c : param_class) (ts : list datapoint) (d : data) : Res (list R) :=
  ff_model <- get_ff_model c d ;;
  if is_kaon_type_model ff_model then form_factor_kaon_loop ff_model ts
  else form_factor_nucleon_loop ff_model ts.

(** ** function_cross_section (l.150-190) *)

Fixpoint cross_section_kaon_loop (s : ScalarCS) (f : FFModel) (ts : list datapoint) : Res (list R) :=
  match ts with
  | [] => Ok []
  | p :: r =>
      tc <- read_datapoint_kaon p ;;
      let f1 := ff_set_charged f (snd tc) in
      x <- ScalarCS_call s (fun t => fst (ff_call f1 t)) (fst tc) ;;
      xs <- cross_section_kaon_loop s f1 r ;; Ok (Cabs x :: xs)
  end.

(** [cross_section_model] is the nucleon cross-section ([Some]) or the auxiliary model itself ([None]), which has
    no attribute [form_factor]. *)
Fixpoint cross_section_nucleon_loop (s : option NucleonCS) (f : FFModel) (ts : list datapoint) : Res (list R) :=
  match ts with
  | [] => Ok []
  | p :: r =>
      tpe <- read_datapoint_nucleon p ;;
      let '(t, pr, _) := tpe in
      match s with
      | None => Err AttributeError
      | Some cs =>
          let f1 := ff_set_proton pr f in
          let '(v, f2) := NucleonCS_call FFModel ff_set_electric ff_call cs f1 t in
          x <- v ;; xs <- cross_section_nucleon_loop s f2 r ;; Ok (Cabs x :: xs)
      end
  end.

Definition function_cross_section (c : param_class) (ts : list datapoint) (mass alpha hc_squared : R) (d : data)
  : Res (list R) :=
  ff_model <- get_ff_model c d ;;
  match ff_model with
  | FFKaon _ => cross_section_kaon_loop (ScalarCS_init mass alpha hc_squared) ff_model ts
  | FFETGMR _ | FFTwoPoles _ => cross_section_nucleon_loop None ff_model ts
  | FFNucleon _ _ => cross_section_nucleon_loop (Some (NucleonCS_init mass alpha hc_squared)) ff_model ts
  end.
