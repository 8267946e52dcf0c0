(** Model of the parameter stores: /repo/model_parameters/ModelParameters.py (whole file) and the
    methods repeated in its subclasses.  The per-class tables are in [ParamClasses.v].

    Simplifications.  A store is its private list [_data]; the tuple [_always_fixed] is that of
    its class (it is assigned once, in [__init__], and never changed).  Values are reals.  A method that
    mutates the store is a function to the result and the list left behind, so the state after an
    exception is visible.  Sharing of stores between objects is modelled in [World.v]. *)
From Coq Require Import Reals String List Bool Arith.
From Verif Require Import PyBase CNum PyExpr.
Import ListNotations.
Open Scope string_scope.
Open Scope list_scope.
Open Scope R_scope.
Open Scope py_scope.

(** The named tuple [Parameter], ModelParameters.py l.6 ([Par] here: [Parameter] is a keyword of Coq). *)
Record Par := mkPar { par_name : string; par_value : R; par_fixed : bool }.

Definition data := list Par.

(** Result of a mutating method and the list left behind. *)
Definition Eff (A : Type) := (Res A * data)%type.

(** ** Lookup: [_find] (l.41-45), [__getitem__] (l.47-49) *)

Fixpoint find_from (i : nat) (d : data) (name : string) : Res (nat * Par) :=
  match d with
  | [] => Err KeyError
  | p :: r => if String.eqb (par_name p) name then Ok (i, p) else find_from (S i) r name
  end.

Definition find (d : data) (name : string) : Res (nat * Par) := find_from 0 d name.

Definition getitem (d : data) (name : string) : Res Par :=
  ip <- find d name ;; Ok (snd ip).

(** [self._data[index] = new] for an index that occurs. *)
Fixpoint set_nth (d : data) (i : nat) (p : Par) : data :=
  match d, i with
  | [], _ => []
  | _ :: r, O => p :: r
  | q :: r, S j => q :: set_nth r j p
  end.

(** Python's [x in tuple_of_strings]. *)
Fixpoint str_in (s : string) (l : list string) : bool :=
  match l with
  | [] => false
  | x :: r => if String.eqb x s then true else str_in s r
  end.

(** ** Mutating methods.  The first argument is [self._always_fixed]. *)

(** [__setitem__] (l.51-59); the new value is [None] when it is not a [Parameter]. *)
Definition setitem (af : list string) (key : string) (new : option Par) (d : data) : Eff unit :=
  match find d key with
  | Err e => (Err e, d)
  | Ok (i, p) =>
      match new with
      | None => (Err TypeError, d)
      | Some q =>
          if negb (String.eqb (par_name p) (par_name q)) then (Err ValueError, d)
          else if andb (str_in (par_name q) af) (negb (par_fixed q)) then (Err ValueError, d)
          else (Ok tt, set_nth d i q)
      end
  end.

(** [set_value] (l.61-64). *)
Definition set_value (name : string) (v : R) (d : data) : Eff unit :=
  match find d name with
  | Err e => (Err e, d)
  | Ok (i, old) => (Ok tt, set_nth d i (mkPar name v (par_fixed old)))
  end.

(** The loop of [fix_parameters] (l.66-69) and the second loop of [release_parameters] (l.75-77). *)
Fixpoint set_flags (flag : bool) (names : list string) (d : data) : Eff unit :=
  match names with
  | [] => (Ok tt, d)
  | n :: r =>
      match find d n with
      | Err e => (Err e, d)
      | Ok (i, p) => set_flags flag r (set_nth d i (mkPar (par_name p) (par_value p) flag))
      end
  end.

Definition fix_parameters (names : list string) (d : data) : Eff unit := set_flags true names d.

(** [release_parameters] (l.71-77): the first loop checks all names. *)
Definition release_parameters (af : list string) (names : list string) (d : data) : Eff unit :=
  if existsb (fun n => str_in n af) names then (Err ValueError, d)
  else set_flags false names d.

(** [fix_all_parameters] (l.79-81), [release_all_parameters] (l.83-86): the loops replace each element in
    place by a function of itself, which is [map]. *)
Definition fix_all (d : data) : data :=
  map (fun p => mkPar (par_name p) (par_value p) true) d.

Definition release_all (af : list string) (d : data) : data :=
  map (fun p => if str_in (par_name p) af then p else mkPar (par_name p) (par_value p) false) d.

(** ** Readers (l.88-95, 106-108) *)

Definition get_fixed_values (d : data) : list R := map par_value (filter par_fixed d).
Definition get_free_values (d : data) : list R := map par_value (filter (fun p => negb (par_fixed p)) d).
Definition get_all_values (d : data) : list R := map par_value d.

(** [update_free_values] (l.97-104). *)
Fixpoint enumerate_from (i : nat) (d : data) : list (nat * Par) :=
  match d with
  | [] => []
  | p :: r => (i, p) :: enumerate_from (S i) r
  end.

Definition update_free_values (vs : list R) (d : data) : Eff unit :=
  let free := filter (fun ip => negb (par_fixed (snd ip))) (enumerate_from 0 d) in
  if negb (Nat.eqb (length free) (length vs)) then (Err ValueError, d)
  else (Ok tt, fold_left (fun d' ipv => let '((i, p), v) := ipv in
                                        set_nth d' i (mkPar (par_name p) v (par_fixed p)))
                         (combine free vs) d).

(** ** Class tables *)

(** Values that may be infinite (bounds). *)
Inductive ext := NegInf | Fin (r : R) | PosInf.

(** Expressions in the bounds tables: [-np.inf], [np.inf], a literal, [self[name].value],
    [math.sqrt(self[name].value)], [max(local1, local2)], a local variable. *)
Inductive bexp :=
  | BNegInf | BPosInf | BNum (r : R) | BValue (name : string) | BSqrt (name : string)
  | BMax (l1 l2 : string) | BLoc (l : string).

(** [from_ordered_values]: formals after [list_of_values], local [names], entries of [pars.extend]. *)
Record FromOrdered := {
  fo_formals : list string;
  fo_names : list string;
  fo_constants : list (string * string * bool)
}.

Record ClassTable := {
  ct_formals : list string;             (* formals of __init__ *)
  ct_super_args : list string;          (* positional arguments of super().__init__ *)
  ct_always_fixed : list string;
  ct_setup_formals : list string;       (* formals of _setup_data *)
  ct_setup : list (string * string * bool);   (* name, variable holding the value, is_fixed *)
  ct_handpicked : list (string * (bexp * bexp));
  ct_maximal_locals : list (string * bexp);
  ct_maximal : list (string * (bexp * bexp));
  ct_ordered : list string;             (* names read by get_ordered_values *)
  ct_from_ordered : option FromOrdered; (* None: no such method *)
  ct_fix_resonances : option (list string)
}.

Inductive param_class :=
  | PKaon | PKaonSimplified | PKaonB | PKaonFixedRhoOmega | PKaonFixedSelected
  | PNucleon | PETGMR | PTwoPoles | POscillations.

(** Reading a local variable; the interpreter would raise UnboundLocalError/NameError. *)
Definition local {V : Type} (e : env V) (x : string) : Res V :=
  match lookup e x with Some v => Ok v | None => Err OtherError end.

Definition ext_of (e : env R) (d : data) (b : bexp) : Res ext :=
  match b with
  | BNegInf => Ok NegInf
  | BPosInf => Ok PosInf
  | BNum r => Ok (Fin r)
  | BValue n => p <- getitem d n ;; Ok (Fin (par_value p))
  | BSqrt n => p <- getitem d n ;; s <- rsqrt (par_value p) ;; Ok (Fin s)
  | BMax l1 l2 => a <- local e l1 ;; b <- local e l2 ;; Ok (Fin (Rmax a b))
  | BLoc l => a <- local e l ;; Ok (Fin a)
  end.

(** The assignments to local variables at the head of the maximal bounds table. *)
Fixpoint run_locals (e : env R) (d : data) (l : list (string * bexp)) : Res (env R) :=
  match l with
  | [] => Ok e
  | (x, b) :: r =>
      v <- ext_of e d b ;;
      match v with
      | Fin a => run_locals (e ++ [(x, a)]) d r
      | _ => Err OtherError       (* no local of the sources is infinite *)
      end
  end.

Definition eval_bounds (e : env R) (d : data) (t : list (string * (bexp * bexp))) : Res (env (ext * ext)) :=
  mapM (fun nb => lo <- ext_of e d (fst (snd nb)) ;; up <- ext_of e d (snd (snd nb)) ;;
                  Ok (fst nb, (lo, up))) t.

Section Class.
Variable ct : ClassTable.

(** [cls( **kw )]: __init__ of the subclass, then of [ModelParameters] (l.11-13), then [_setup_data]. *)
Definition construct_table (kw : env R) : Res data :=
  args <- bind_kwargs (ct_formals ct) kw ;;
  pos <- mapM (local args) (ct_super_args ct) ;;
  if Nat.eqb (length pos) (length (ct_setup_formals ct)) then
    mapM (fun s => let '(n, x, f) := s in
                   v <- local (combine (ct_setup_formals ct) pos) x ;; Ok (mkPar n v f)) (ct_setup ct)
  else Err TypeError.

(** [{par.name: par.value for par in list_of_parameters}]: a later entry replaces the value. *)
Fixpoint dict_set {V : Type} (e : env V) (k : string) (v : V) : env V :=
  match e with
  | [] => [(k, v)]
  | (k', v') :: r => if String.eqb k' k then (k', v) :: r else (k', v') :: dict_set r k v
  end.

Definition dict_of (l : list Par) : env R :=
  fold_left (fun e p => dict_set e (par_name p) (par_value p)) l [].

(** [from_list] (the same text in all nine classes, e.g. KaonParameters.py l.125-132). *)
Definition from_list_table (l : list Par) : Res data :=
  d <- construct_table (dict_of l) ;;
  let d1 := release_all (ct_always_fixed ct) d in
  let '(r, d2) := fix_parameters (map par_name (filter par_fixed l)) d1 in
  u <- r ;; Ok d2.

(** [get_model_parameters_bounds_handpicked] / [..._maximal]. *)
Definition full_bounds_table (handpicked : bool) (d : data) : Res (env (ext * ext)) :=
  if handpicked then eval_bounds [] d (ct_handpicked ct)
  else e <- run_locals [] d (ct_maximal_locals ct) ;; eval_bounds e d (ct_maximal ct).

(** [get_bounds_for_free_parameters] (the same text in all classes, e.g. KaonParameters.py l.134-146). *)
Definition bounds_table (handpicked : bool) (d : data) : Res (list ext * list ext) :=
  full <- full_bounds_table handpicked d ;;
  bs <- mapM (fun p => match lookup full (par_name p) with
                       | Some b => Ok b
                       | None => Err KeyError
                       end) (filter (fun p => negb (par_fixed p)) d) ;;
  Ok (map fst bs, map snd bs).

(** [get_ordered_values]. *)
Definition ordered_table (d : data) : Res (list R) :=
  mapM (fun n => p <- getitem d n ;; Ok (par_value p)) (ct_ordered ct).

(** [from_ordered_values(list_of_values, *constants)]. *)
Definition from_ordered_table (vs : list R) (consts : list R) : Res data :=
  match ct_from_ordered ct with
  | None => Err AttributeError
  | Some fo =>
      if negb (Nat.eqb (length consts) (length (fo_formals fo))) then Err TypeError
      else if negb (Nat.eqb (length vs) (length (fo_names fo))) then Err AssertionError
      else
        ext <- mapM (fun s => let '(n, x, f) := s in
                              v <- local (combine (fo_formals fo) consts) x ;; Ok (mkPar n v f))
                    (fo_constants fo) ;;
        from_list_table (map (fun nv => mkPar (fst nv) (snd nv) false) (combine (fo_names fo) vs) ++ ext)
  end.

(** [fix_resonances]. *)
Definition fix_resonances_table (d : data) : Eff unit :=
  match ct_fix_resonances ct with
  | None => (Err AttributeError, d)
  | Some names => fix_parameters names d
  end.

End Class.
