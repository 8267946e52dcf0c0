(** Python exceptions as values, the result monad and small list helpers.

    No /repo function is modelled in this file.  It fixes how raising is
    represented everywhere else: a Python call either returns ([Ok v]) or raises
    ([Err e]).  Simplification: only the class of the exception is kept, not its
    message or traceback. *)
From Coq Require Import String Bool Arith List.
Import ListNotations.

Inductive exn : Type :=
| ValueError
| KeyError
| TypeError
| ZeroDivisionError
| IndexError
| AttributeError
| RuntimeError
| AssertionError
| OtherError (* any other exception class; used for oracles and for [raise Exception] *).

Inductive Res (A : Type) : Type :=
| Ok (a : A)
| Err (e : exn).
Arguments Ok {A} a.
Arguments Err {A} e.

Definition bind {A B : Type} (x : Res A) (f : A -> Res B) : Res B :=
  match x with
  | Ok a => f a
  | Err e => Err e
  end.

Declare Scope py_scope.
Delimit Scope py_scope with py.
Notation "x <- e ;; f" := (bind e (fun x => f))
  (at level 61, e at next level, right associativity) : py_scope.

Definition is_ok {A : Type} (x : Res A) : Prop := exists a, x = Ok a.

(** Sequencing of a list of calls, first error wins (a Python list
    comprehension or a [for] loop with [append]). *)
Fixpoint mapM {A B : Type} (f : A -> Res B) (l : list A) : Res (list B) :=
  match l with
  | [] => Ok []
  | x :: r =>
    bind (f x) (fun y => bind (mapM f r) (fun ys => Ok (y :: ys)))
  end.

Lemma bind_Ok_inv : forall (A B : Type) (x : Res A) (f : A -> Res B) b,
  bind x f = Ok b -> exists a, x = Ok a /\ f a = Ok b.
Proof. intros A B [a|e] f b H; simpl in H; [eauto | discriminate]. Qed.

Lemma bind_Err_inv : forall (A B : Type) (x : Res A) (f : A -> Res B) e,
  bind x f = Err e -> x = Err e \/ exists a, x = Ok a /\ f a = Err e.
Proof. intros A B [a|e0] f e H; simpl in H; [right; eauto | left; congruence]. Qed.

Ltac res_inv :=
  repeat match goal with
  | H : bind _ _ = Ok _ |- _ =>
      let a := fresh "r" in let H1 := fresh "E" in let H2 := fresh "E" in
      apply bind_Ok_inv in H; destruct H as [a [H1 H2]]
  | H : Ok _ = Ok _ |- _ => injection H as H; try subst
  | H : Err _ = Ok _ |- _ => discriminate H
  | H : Ok _ = Err _ |- _ => discriminate H
  end.

Lemma mapM_Ok_length : forall (A B : Type) (f : A -> Res B) l r,
  mapM f l = Ok r -> length r = length l.
Proof.
  induction l as [|x l IH]; intros r H; simpl in H.
  - injection H as <-. reflexivity.
  - res_inv. simpl. f_equal. eauto.
Qed.

Lemma mapM_Ok_iff : forall (A B : Type) (f : A -> Res B) l r,
  mapM f l = Ok r <-> Forall2 (fun x y => f x = Ok y) l r.
Proof.
  induction l as [|x l IH]; intros r; simpl; split; intros H.
  - injection H as <-. constructor.
  - inversion H. reflexivity.
  - res_inv. constructor; [assumption | now apply IH].
  - inversion H; subst. rewrite H2. simpl.
    assert (E : mapM f l = Ok l') by now apply IH.
    rewrite E. reflexivity.
Qed.

Lemma mapM_app : forall (A B : Type) (f : A -> Res B) l1 l2,
  mapM f (l1 ++ l2) =
  bind (mapM f l1) (fun r1 => bind (mapM f l2) (fun r2 => Ok (r1 ++ r2))).
Proof.
  induction l1 as [|x l1 IH]; intros l2; simpl.
  - destruct (mapM f l2); reflexivity.
  - destruct (f x); simpl; [|reflexivity].
    rewrite IH. destruct (mapM f l1); simpl; [|reflexivity].
    destruct (mapM f l2); reflexivity.
Qed.

Lemma mapM_ext_in : forall (A B : Type) (f g : A -> Res B) l,
  (forall x, In x l -> f x = g x) -> mapM f l = mapM g l.
Proof.
  induction l as [|x l IH]; intros H; simpl; [reflexivity|].
  rewrite (H x (or_introl eq_refl)). rewrite IH; [reflexivity|].
  intros y Hy. apply H. now right.
Qed.

(** Association lists with string keys (Python dictionaries built once, and
    instance attributes). *)
Definition env (V : Type) := list (string * V).

Fixpoint lookup {V : Type} (e : env V) (k : string) : option V :=
  match e with
  | [] => None
  | (k', v) :: r => if String.eqb k' k then Some v else lookup r k
  end.

(** Attribute access [self.name] / [self.__getattribute__(name)]. *)
Definition attr {V : Type} (e : env V) (k : string) : Res V :=
  match lookup e k with
  | Some v => Ok v
  | None => Err AttributeError
  end.

Lemma lookup_In : forall V (e : env V) k v, lookup e k = Some v -> In (k, v) e.
Proof.
  induction e as [|[k' v'] e IH]; simpl; intros k v H; [discriminate|].
  destruct (String.eqb_spec k' k).
  - injection H as <-. subst. now left.
  - right. auto.
Qed.

Lemma lookup_None : forall V (e : env V) k, lookup e k = None <-> ~ In k (map fst e).
Proof.
  induction e as [|[k' v'] e IH]; simpl; intros k.
  - tauto.
  - destruct (String.eqb_spec k' k); split; intros H.
    + discriminate.
    + exfalso. apply H. now left.
    + intros [E|I]; [congruence|]. apply IH in H. tauto.
    + apply IH. tauto.
Qed.

Lemma lookup_NoDup_In : forall V (e : env V) k v,
  NoDup (map fst e) -> In (k, v) e -> lookup e k = Some v.
Proof.
  induction e as [|[k' v'] e IH]; simpl; intros k v ND I; [contradiction|].
  inversion ND; subst. destruct I as [E|I].
  - injection E as -> ->. now rewrite String.eqb_refl.
  - destruct (String.eqb_spec k' k) as [->|N]; [|auto].
    exfalso. apply H1. change k with (fst (k, v)). now apply in_map.
Qed.
