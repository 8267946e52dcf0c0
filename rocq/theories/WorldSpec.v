(** Value semantics of programs that use parameter stores and closures: no references, no sharing.  A store is its
    class and contents, a closure is what it was created from. *)
From Coq Require Import String Reals List Bool Arith.
From Verif Require Import PyBase CNum PyExpr Params ParamClasses ParamProofs CommonUtils UtilsSpec World.
Import ListNotations.
Local Open Scope list_scope.
Local Open Scope py_scope.

Definition store := (param_class * data)%type.

Inductive closure :=
  | FormFactorOf (s : store)
  | CrossSectionOf (mass alpha hc_squared : R) (s : store)
  | MisplacedOf (s : store).     (* a cross-section that was given no numbers for mass, alpha and hc_squared *)

(** The store with its free values replaced by [args], in order. *)
Definition with_free_values (args : list R) (s : store) : Res store :=
  if Nat.eqb (length args) (count_free (snd s)) then Ok (fst s, fill (snd s) args) else Err ValueError.

(** What a call must return: every datapoint evaluated on its own. *)
Definition closure_result (k : closure) (ts : list datapoint) (args : list R) : Res (list R) :=
  match k with
  | FormFactorOf s =>
      s' <- with_free_values args s ;; _ <- buildable (fst s') (snd s') ;; mapM (form_factor_at (fst s') (snd s')) ts
  | CrossSectionOf mass alpha hc s =>
      s' <- with_free_values args s ;; _ <- buildable (fst s') (snd s') ;;
      mapM (cross_section_at (fst s') mass alpha hc (snd s')) ts
  | MisplacedOf s =>
      s' <- with_free_values args s ;; _ <- buildable (fst s') (snd s') ;;
      match family_of (fst s') with
      | FKaon _ | FNucleon => Err ValueError
      | _ => mapM (fun p => Err (match nucleon_point p with Some _ => AttributeError | None => IndexError end)) ts
      end
  end.

Record VProg := mkVProg { v_stores : list store; v_closures : list closure; v_lists : list data; v_draws : nat }.

Fixpoint set_at {A : Type} (l : list A) (i : nat) (x : A) : list A :=
  match l, i with
  | [], _ => []
  | _ :: r, O => x :: r
  | y :: r, S j => y :: set_at r j x
  end.

Section Values.
Variable draws : nat -> R.

Definition vstep (o : op) (v : VProg) : option (Res (list R)) * VProg :=
  let '(mkVProg st cl ls k) := v in
  match o with
  | OpNew c kw => (None, match construct c kw with Ok d => mkVProg (st ++ [(c, d)]) cl ls k | Err _ => v end)
  | OpCopy i => (None, match nth_error st i with Some s => mkVProg (st ++ [s]) cl ls k | None => v end)
  | OpToList i => (None, match nth_error st i with Some s => mkVProg st cl (ls ++ [snd s]) k | None => v end)
  | OpSetList i l => (None, mkVProg st cl (set_at ls i l) k)
  | OpFromList c i =>
      (None, match nth_error ls i with
             | Some l => match from_list c l with Ok d => mkVProg (st ++ [(c, d)]) cl ls k | Err _ => v end
             | None => v
             end)
  | OpMutate i m =>
      (None, match nth_error st i with
             | Some (c, d) => mkVProg (set_at st i (c, snd (mutate c m d))) cl ls k
             | None => v
             end)
  | OpPerturb i size sr h =>
      (None, match nth_error st i with
             | Some (c, d) => let '(_, d', k') := perturb_model_parameters c draws k size sr h d in
                              mkVProg (set_at st i (c, d')) cl ls k'
             | None => v
             end)
  | OpMakeFormFactor i =>
      (None, match nth_error st i with Some s => mkVProg st (cl ++ [FormFactorOf s]) ls k | None => v end)
  | OpMakeCrossSection mass alpha hc i =>
      (None, match nth_error st i with Some s => mkVProg st (cl ++ [CrossSectionOf mass alpha hc s]) ls k | None => v end)
  | OpCall j ts args => (match nth_error cl j with Some q => Some (closure_result q ts args) | None => None end, v)
  end.

Definition vrun (os : list op) (v : VProg) : VProg := fold_left (fun v o => snd (vstep o v)) os v.
End Values.

Definition empty_values : VProg := mkVProg [] [] [] 0.
