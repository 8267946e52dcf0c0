(** A small expression language for the long arithmetic expressions of the model
    classes, with Python's left-to-right evaluation, and keyword-argument binding.

    The expressions themselves (UAModels.v, Nucleon.v) are transcribed term by term from
    the Python syntax trees of the cited methods. *)
From Coq Require Import String Reals Arith List.
From Verif Require Import PyBase CNum.
Import ListNotations.
Local Open Scope R_scope.
Local Open Scope py_scope.
Local Open Scope string_scope.

Inductive expr : Type :=
| ENum (r : R)            (* numeric literal *)
| EAttr (name : string)   (* self.name, a real number *)
| ELoc (name : string)    (* local variable or formal argument *)
| EComp (name : string)   (* self.name(w): call of a stored component *)
| EAdd (a b : expr)
| ESub (a b : expr)
| EMul (a b : expr)
| EDiv (a b : expr)
| ESq (a : expr).         (* a ** 2 *)

Declare Scope expr_scope.
Delimit Scope expr_scope with expr.
Notation "a + b" := (EAdd a b) : expr_scope.
Notation "a - b" := (ESub a b) : expr_scope.
Notation "a * b" := (EMul a b) : expr_scope.
Notation "a / b" := (EDiv a b) : expr_scope.
Bind Scope expr_scope with expr.
Arguments ENum r%R.
Arguments EAttr name%string.
Arguments ELoc name%string.
Arguments EComp name%string.

(** Names an expression may refer to. *)
Record Scope : Type := mkScope {
  sc_attr : string -> Res R;
  sc_loc : string -> Res C;
  sc_comp : string -> Res C
}.

(** Python evaluation: left operand first, the first exception wins, division by
    zero raises ZeroDivisionError. *)
Fixpoint ev (s : Scope) (e : expr) : Res C :=
  match e with
  | ENum r => Ok (RtoC r)
  | EAttr n => r <- sc_attr s n ;; Ok (RtoC r)
  | ELoc n => sc_loc s n
  | EComp n => sc_comp s n
  | EAdd a b => x <- ev s a ;; y <- ev s b ;; Ok (x + y)%C
  | ESub a b => x <- ev s a ;; y <- ev s b ;; Ok (x - y)%C
  | EMul a b => x <- ev s a ;; y <- ev s b ;; Ok (x * y)%C
  | EDiv a b => x <- ev s a ;; y <- ev s b ;; cdiv x y
  | ESq a => x <- ev s a ;; Ok (Csq x)
  end.

(** Evaluation of the right-hand sides in [__init__], which only use the (real) formal
    arguments.  An undefined name would be a NameError ([OtherError]). *)
Fixpoint ev_real (args : env R) (e : expr) : Res R :=
  match e with
  | ENum r => Ok r
  | ELoc n => match lookup args n with Some v => Ok v | None => Err OtherError end
  | EAttr n => Err OtherError
  | EComp n => Err OtherError
  | EAdd a b => x <- ev_real args a ;; y <- ev_real args b ;; Ok (x + y)
  | ESub a b => x <- ev_real args a ;; y <- ev_real args b ;; Ok (x - y)
  | EMul a b => x <- ev_real args a ;; y <- ev_real args b ;; Ok (x * y)
  | EDiv a b => x <- ev_real args a ;; y <- ev_real args b ;; rdiv x y
  | ESq a => x <- ev_real args a ;; Ok (x * x)
  end.

(** Binding of keyword arguments [f( **kw )] to formals without defaults: Python raises
    TypeError for a missing, an unknown or a repeated keyword.  (With distinct formals,
    "all found and as many keywords as formals" excludes unknown and repeated ones.) *)
Definition bind_kwargs {V : Type} (formals : list string) (kw : env V) : Res (env V) :=
  if Nat.eqb (length kw) (length formals) then
    mapM (fun f => match lookup kw f with
                   | Some v => Ok (f, v)
                   | None => Err TypeError
                   end) formals
  else Err TypeError.

(** The assignments [self.name = expression] of a constructor, in order. *)
Definition run_assign (args : env R) (l : list (string * expr)) : Res (env R) :=
  mapM (fun ne => v <- ev_real args (snd ne) ;; Ok (fst ne, v)) l.
