(** Model of kaon_production/parser.py l.4-18.

    Simplifications: the text of the file is an argument; [eval] is a function [evaluate] from texts to values that may raise
    and has no other effect; [val['chi_squared']] is [chi_squared], whose value is a number or [None].  Sorting a list of two or
    more pairs compares every key with another one, which raises TypeError for [None]. *)
From Coq Require Import String Ascii Reals List Bool Arith.
From Verif Require Import PyBase Params World DataSets DataFiles Task Pipeline.
Import ListNotations.
Local Open Scope string_scope.
Local Open Scope list_scope.
Local Open Scope m_scope.

#[local] Arguments String.append : simpl never.

Definition COLON : ascii := ":"%char.

(** [s.split(':')]. *)
Fixpoint split_colon (s : string) : list string :=
  match s with
  | EmptyString => [EmptyString]
  | String c r =>
      if Ascii.eqb c COLON then EmptyString :: split_colon r
      else match split_colon r with
           | p :: ps => String c p :: ps
           | [] => [String c EmptyString]
           end
  end.

(** [s.strip(' \n')]. *)
Definition stripped (c : ascii) : bool := orb (Ascii.eqb c SP) (Ascii.eqb c LF).
Fixpoint strip_left (s : string) : string :=
  match s with
  | EmptyString => EmptyString
  | String c r => if stripped c then strip_left r else s
  end.
Fixpoint strip_right (s : string) : string :=
  match s with
  | EmptyString => EmptyString
  | String c r => match strip_right r with
                  | EmptyString => if stripped c then EmptyString else String c EmptyString
                  | r' => String c r'
                  end
  end.
Definition strip (s : string) : string := strip_right (strip_left s).

Section Parser.
Context {V : Type}.
Variable evaluate : string -> Res V.
Variable chi_squared : V -> Res (option R).

(** l.8-10. *)
Definition parse_line (line : string) : string * string :=
  let parts := split_colon line in
  (String.concat ":" (firstn 2 parts), strip (String.concat ":" (skipn 2 parts))).

(** l.7-11. *)
Fixpoint read_results (lines : list string) (results : env V) : Res (env V) :=
  match lines with
  | [] => Ok results
  | line :: rest =>
      let '(name, data) := parse_line line in
      bind (evaluate data) (fun v => read_results rest (dict_set results name v))
  end.

(** l.13. *)
Definition chi_pairs (results : env V) : Res (list (string * option R)) :=
  mapM (fun kv => bind (chi_squared (snd kv)) (fun x => Ok (fst kv, x))) results.

(** l.14. *)
Definition is_none (p : string * option R) : bool := match snd p with None => true | Some _ => false end.
Definition key_of (p : string * option R) : R := match snd p with None => 0%R | Some x => x end.
Definition sort_pairs (l : list (string * option R)) : Res (list (string * option R)) :=
  if andb (Nat.leb 2 (length l)) (existsb is_none l) then Err TypeError else Ok (sorted_by key_of l).

(** l.4-17. *)
Definition parser_report (text : string) : W (list (string * option R)) :=
  results <~ lift (read_results (file_lines (universal text)) []) ;;
  chi_data <~ lift (chi_pairs results) ;;
  chi_data <~ lift (sort_pairs chi_data) ;;
  emit (EvPrint (str_nat (length chi_data))) ;;;
  ret chi_data.
End Parser.
