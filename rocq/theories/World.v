(** Objects with identity: parameter stores and the closures of common/utils.py.

    A Python list of [Parameter]s is a cell of the heap; a store ([ModelParameters] object) is its class and the
    address of its private list [_data] (the attribute is assigned once, in [__init__], ModelParameters.py l.13).
    Two names of the same object are two copies of the same reference.  The world also holds the position in the
    random stream, the number of [random.sample] calls and the list of [curve_fit] calls made so far, and the list of
    all effects on the outside (console, files), in order.

    Simplifications.  [Parameter] is an immutable named tuple, so list cells hold values.  Lists of numbers and of
    datapoints are never mutated by the code and are values. *)
From Coq Require Import String Reals List Bool Arith.
From Verif Require Import PyBase CNum PyExpr Params ParamClasses CrossSections CommonUtils.
Import ListNotations.
Local Open Scope R_scope.
Local Open Scope list_scope.

(** ** State and exceptions *)

Definition M (S A : Type) := S -> Res A * S.
Definition ret {S A : Type} (a : A) : M S A := fun s => (Ok a, s).
Definition raise {S A : Type} (e : exn) : M S A := fun s => (Err e, s).
Definition lift {S A : Type} (r : Res A) : M S A := fun s => (r, s).
Definition mbind {S A B : Type} (x : M S A) (f : A -> M S B) : M S B :=
  fun s => match x s with (Ok a, s') => f a s' | (Err e, s') => (Err e, s') end.

Declare Scope m_scope.
Delimit Scope m_scope with m.
Notation "x <~ e ;; f" := (mbind e (fun x => f)) (at level 61, e at next level, right associativity) : m_scope.
Notation "e ;;; f" := (mbind e (fun _ => f)) (at level 61, right associativity) : m_scope.
Local Open Scope m_scope.

(** A [for] loop. *)
Fixpoint mfor {S A : Type} (l : list A) (body : A -> M S unit) : M S unit :=
  match l with
  | [] => ret tt
  | x :: r => body x ;;; mfor r body
  end.

(** ** The world *)

Definition addr := nat.

(** Effects on the outside. *)
Inductive event :=
  | EvPrint (s : string)
  | EvMkdir (path : string)
  | EvAppend (path text : string)      (* open(path, 'a'), write *)
  | EvWrite (path text : string)       (* open(path, 'w'), write *)
  | EvPlot (path : string).            (* savefig(path) *)

(** What a call of [scipy.optimize.curve_fit] gets.  [fi_store] and [fi_task] are not arguments of the call; they
    say on whose behalf it is made. *)
Record FitInput := mkFitInput {
  fi_task : string;
  fi_class : param_class;
  fi_store : data;
  fi_points : list datapoint;
  fi_values : list R;
  fi_sigma : list R;
  fi_start : list R;
  fi_bounds : list ext * list ext
}.

Record World := mkWorld {
  w_lists : list data;
  w_draws : nat;
  w_samples : nat;
  w_fits : list FitInput;
  w_events : list event
}.

Definition set_lists (h : list data) (w : World) : World :=
  mkWorld h (w_draws w) (w_samples w) (w_fits w) (w_events w).
Definition set_draws (k : nat) (w : World) : World :=
  mkWorld (w_lists w) k (w_samples w) (w_fits w) (w_events w).

Definition W := M World.

(** A new list object. *)
Definition alloc (l : data) : W addr :=
  fun w => (Ok (length (w_lists w)), set_lists (w_lists w ++ [l]) w).

Definition read (a : addr) : W data :=
  fun w => match nth_error (w_lists w) a with Some l => (Ok l, w) | None => (Err OtherError, w) end.

Fixpoint replace (h : list data) (a : addr) (l : data) : list data :=
  match h, a with
  | [], _ => []
  | _ :: r, O => l :: r
  | x :: r, S b => x :: replace r b l
  end.

Definition write (a : addr) (l : data) : W unit :=
  fun w => (Ok tt, set_lists (replace (w_lists w) a l) w).

(** ** Stores *)

Record Ref := mkRef { r_class : param_class; r_data : addr }.

(** [cls( **kwargs )]. *)
Definition obj_new (c : param_class) (kw : env R) : W Ref :=
  d <~ lift (construct c kw) ;; a <~ alloc d ;; ret (mkRef c a).

(** A public mutating method called on the object. *)
Definition obj_mutate (r : Ref) (m : mutation) : W unit :=
  d <~ read (r_data r) ;;
  let '(res, d') := mutate (r_class r) m d in
  write (r_data r) d' ;;; lift res.

(** ModelParameters.py l.32-33 [to_list]: [list(self._data)], a new list. *)
Definition obj_to_list (r : Ref) : W addr :=
  d <~ read (r_data r) ;; alloc d.

(** [from_list] (the same text in all nine classes, e.g. KaonParameters.py l.125-132). *)
Definition obj_from_list (c : param_class) (list_of_parameters : addr) : W Ref :=
  l <~ read list_of_parameters ;;
  instance <~ obj_new c (dict_of l) ;;
  let parameters_to_fix := map par_name (filter par_fixed l) in
  obj_mutate instance MReleaseAll ;;;
  obj_mutate instance (MFix parameters_to_fix) ;;;
  ret instance.

(** ModelParameters.py l.35-36 [copy]. *)
Definition obj_copy (r : Ref) : W Ref :=
  l <~ obj_to_list r ;; obj_from_list (r_class r) l.

(** A method that only reads. *)
Definition obj_read {A : Type} (r : Ref) (f : data -> Res A) : W A :=
  d <~ read (r_data r) ;; lift (f d).

(** common/utils.py l.27-72 [perturb_model_parameters]: mutates and returns its argument. *)
Definition obj_perturb (draws : nat -> R) (r : Ref) (size : R) (size_resonances : option R) (handpicked : bool) : W Ref :=
  d <~ read (r_data r) ;;
  fun w => let '(res, d', k') := perturb_model_parameters (r_class r) draws (w_draws w) size size_resonances handpicked d in
           (write (r_data r) d' ;;; (fun w' => (res, set_draws k' w')) ;;; ret r) w.

(** ** Closures of common/utils.py l.193-221 *)

Inductive Partial :=
  | PartialFormFactor (parameters : Ref)
  | PartialCrossSection (product_particle_mass alpha hc_squared : R) (parameters : Ref)
  | PartialMisplaced (parameters : Ref).

Definition make_partial_form_factor_for_parameters (parameters : Ref) : W Partial :=
  parameters <~ obj_copy parameters ;; ret (PartialFormFactor parameters).

Definition make_partial_cross_section_for_parameters (product_particle_mass alpha hc_squared : R) (parameters : Ref)
  : W Partial :=
  parameters <~ obj_copy parameters ;;
  ret (PartialCrossSection product_particle_mass alpha hc_squared parameters).

(** The same call with a directory and two truth values in the places of mass, alpha and hc_squared, as the form factor
    pipelines make it for tasks that fit cross-sections (see [create_task] in Pipeline.v). *)
Definition make_partial_misplaced (parameters : Ref) : W Partial :=
  parameters <~ obj_copy parameters ;; ret (PartialMisplaced parameters).

(** common/utils.py l.150-190 with those arguments: [getfloat] cannot read the text of a truth value
    (ScalarMesonProductionTotalCrossSection.py l.35, NucleonPairToElectronPositronTotalCrossSection.py l.28); the
    auxiliary models do not look at them. *)
Definition function_cross_section_misplaced (c : param_class) (ts : list datapoint) (d : data) : Res (list R) :=
  bind (get_ff_model c d) (fun ff_model =>
  match ff_model with
  | FFETGMR _ | FFTwoPoles _ => cross_section_nucleon_loop None ff_model ts
  | _ => Err ValueError
  end).

(** [partial_f(ts, *args)]. *)
Definition call_partial (p : Partial) (ts : list datapoint) (args : list R) : W (list R) :=
  match p with
  | PartialFormFactor parameters =>
      obj_mutate parameters (MUpdateFree args) ;;;
      obj_read parameters (function_form_factor (r_class parameters) ts)
  | PartialCrossSection mass alpha hc_squared parameters =>
      obj_mutate parameters (MUpdateFree args) ;;;
      obj_read parameters (function_cross_section (r_class parameters) ts mass alpha hc_squared)
  | PartialMisplaced parameters =>
      obj_mutate parameters (MUpdateFree args) ;;;
      obj_read parameters (function_cross_section_misplaced (r_class parameters) ts)
  end.

(** ** Programs using these objects

    A program holds references to stores and closures and may call the public functions in any order, going on
    after exceptions. *)

Record Prog := mkProg { pg_world : World; pg_stores : list Ref; pg_partials : list Partial; pg_lists : list addr }.

Inductive op :=
  | OpNew (c : param_class) (kw : env R)
  | OpCopy (i : nat)
  | OpToList (i : nat)
  | OpSetList (i : nat) (l : data)      (* any change of a list the program holds *)
  | OpFromList (c : param_class) (i : nat)
  | OpMutate (i : nat) (m : mutation)
  | OpPerturb (i : nat) (size : R) (size_resonances : option R) (handpicked : bool)
  | OpMakeFormFactor (i : nat)
  | OpMakeCrossSection (mass alpha hc_squared : R) (i : nat)
  | OpCall (j : nat) (ts : list datapoint) (args : list R).

Section Program.
Variable draws : nat -> R.

(** Effect of one statement; the result of a call of a closure is kept for the reader. *)
Definition step (o : op) (s : Prog) : option (Res (list R)) * Prog :=
  let '(mkProg w st ps ls) := s in
  let on_store i (f : Ref -> option (Res (list R)) * Prog) :=
    match nth_error st i with Some r => f r | None => (None, s) end in
  let new_store (x : Res Ref * World) : option (Res (list R)) * Prog :=
    match x with (Ok r, w') => (None, mkProg w' (st ++ [r]) ps ls) | (Err _, w') => (None, mkProg w' st ps ls) end in
  let new_partial (x : Res Partial * World) : option (Res (list R)) * Prog :=
    match x with (Ok p, w') => (None, mkProg w' st (ps ++ [p]) ls) | (Err _, w') => (None, mkProg w' st ps ls) end in
  match o with
  | OpNew c kw => new_store (obj_new c kw w)
  | OpCopy i => on_store i (fun r => new_store (obj_copy r w))
  | OpToList i => on_store i (fun r => match obj_to_list r w with
                                       | (Ok a, w') => (None, mkProg w' st ps (ls ++ [a]))
                                       | (Err _, w') => (None, mkProg w' st ps ls)
                                       end)
  | OpSetList i l => match nth_error ls i with
                     | Some a => (None, mkProg (snd (write a l w)) st ps ls)
                     | None => (None, s)
                     end
  | OpFromList c i => match nth_error ls i with Some a => new_store (obj_from_list c a w) | None => (None, s) end
  | OpMutate i m => on_store i (fun r => (None, mkProg (snd (obj_mutate r m w)) st ps ls))
  | OpPerturb i sz szr h => on_store i (fun r => (None, mkProg (snd (obj_perturb draws r sz szr h w)) st ps ls))
  | OpMakeFormFactor i => on_store i (fun r => new_partial (make_partial_form_factor_for_parameters r w))
  | OpMakeCrossSection mass alpha hc i =>
      on_store i (fun r => new_partial (make_partial_cross_section_for_parameters mass alpha hc r w))
  | OpCall j ts args =>
      match nth_error ps j with
      | Some p => let '(r, w') := call_partial p ts args w in (Some r, mkProg w' st ps ls)
      | None => (None, s)
      end
  end.

Definition run (os : list op) (s : Prog) : Prog := fold_left (fun s o => snd (step o s)) os s.
End Program.

Definition empty_world : World := mkWorld [] 0 0 [] [].
Definition empty_program : Prog := mkProg empty_world [] [] [].
