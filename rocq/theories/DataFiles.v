(** Models of the code that reads and writes the data files: [read_data] of kaon_production/data.py l.12-25 and
    nucleon_production/data.py l.12-25 (they differ in the default file name only) and the file handling of
    kaon_production/convert_cs_data_to_ff_data.py l.30-42.

    Simplifications.  A file is its text; characters are the ascii ones, a missing file is not modelled.  Text mode
    translates line ends when reading and nothing when writing (as on Linux).  The csv module is the automaton of CPython's
    Modules/_csv.c for the default dialect with a space as delimiter; its limit on the length of a field is left out.
    [float] takes the texts of finite decimal numbers to their exact values; "inf", "nan" and digits grouped with
    underscores are rejected here although Python accepts them. *)
From Coq Require Import String Ascii Reals ZArith List Bool Arith.
From Verif Require Import PyBase CNum Scripts.
Import ListNotations.
Local Open Scope string_scope.
Local Open Scope list_scope.
Local Open Scope R_scope.
Local Open Scope py_scope.

Definition LF : ascii := ascii_of_nat 10.
Definition CR : ascii := ascii_of_nat 13.
Definition SP : ascii := ascii_of_nat 32.
Definition QUOTE : ascii := ascii_of_nat 34.

(** ** Text files *)

(** [open(path, 'r')]: every line end becomes a newline character. *)
Fixpoint universal (s : string) : string :=
  match s with
  | EmptyString => EmptyString
  | String c r =>
      if Ascii.eqb c CR then
        String LF (match r with
                   | String c' r' => if Ascii.eqb c' LF then universal r' else universal r
                   | EmptyString => EmptyString
                   end)
      else String c (universal r)
  end.

(** Iterating over a file: lines with their newline character. *)
Fixpoint file_lines (s : string) : list string :=
  match s with
  | EmptyString => []
  | String c r =>
      if Ascii.eqb c LF then String LF EmptyString :: file_lines r
      else match file_lines r with
           | [] => [String c EmptyString]
           | l :: ls => String c l :: ls
           end
  end.

(** ** csv.reader(f, delimiter=' ') *)

Inductive csv_state := StartRecord | StartField | InField | InQuotedField | QuoteInQuotedField | EatNewline.
Record Reader := mkReader { rd_state : csv_state; rd_field : string; rd_fields : list string }.
Definition new_record : Reader := mkReader StartRecord EmptyString [].

(** parse_add_char, parse_save_field. *)
Definition add_char (c : ascii) (st : csv_state) (r : Reader) : Reader :=
  mkReader st (rd_field r ++ String c EmptyString) (rd_fields r).
Definition save_field (st : csv_state) (r : Reader) : Reader := mkReader st EmptyString (rd_fields r ++ [rd_field r]).
Definition set_state (st : csv_state) (r : Reader) : Reader := mkReader st (rd_field r) (rd_fields r).

Definition is_newline (c : ascii) : bool := orb (Ascii.eqb c LF) (Ascii.eqb c CR).

(** parse_process_char; [None] is the end of the line that the reader adds. *)
Definition start_field (c : option ascii) (r : Reader) : Reader :=
  match c with
  | None => save_field StartRecord r
  | Some c =>
      if is_newline c then save_field EatNewline r
      else if Ascii.eqb c QUOTE then set_state InQuotedField r
      else if Ascii.eqb c SP then save_field StartField r
      else add_char c InField r
  end.

Definition process (c : option ascii) (r : Reader) : Res Reader :=
  match rd_state r, c with
  | StartRecord, None => Ok r
  | StartRecord, Some x => if is_newline x then Ok (set_state EatNewline r) else Ok (start_field c r)
  | StartField, _ => Ok (start_field c r)
  | InField, None => Ok (save_field StartRecord r)
  | InField, Some x =>
      if is_newline x then Ok (save_field EatNewline r)
      else if Ascii.eqb x SP then Ok (save_field StartField r)
      else Ok (add_char x InField r)
  | InQuotedField, None => Ok r
  | InQuotedField, Some x =>
      if Ascii.eqb x QUOTE then Ok (set_state QuoteInQuotedField r) else Ok (add_char x InQuotedField r)
  | QuoteInQuotedField, None => Ok (save_field StartRecord r)
  | QuoteInQuotedField, Some x =>
      if Ascii.eqb x QUOTE then Ok (add_char x InQuotedField r)
      else if Ascii.eqb x SP then Ok (save_field StartField r)
      else if is_newline x then Ok (save_field EatNewline r)
      else Ok (add_char x InField r)
  | EatNewline, None => Ok (set_state StartRecord r)
  | EatNewline, Some x => if is_newline x then Ok r else Err OtherError     (* _csv.Error *)
  end.

Fixpoint process_line (line : string) (r : Reader) : Res Reader :=
  match line with
  | EmptyString => process None r
  | String c l => r' <- process (Some c) r ;; process_line l r'
  end.

(** ** float *)

Definition digit_of (c : ascii) : option nat :=
  let n := nat_of_ascii c in if andb (Nat.leb 48 n) (Nat.leb n 57) then Some (n - 48)%nat else None.

Fixpoint take_digits (s : string) : list nat * string :=
  match s with
  | EmptyString => ([], EmptyString)
  | String c r => match digit_of c with
                  | Some n => let '(l, r') := take_digits r in (n :: l, r')
                  | None => ([], s)
                  end
  end.

Definition is_blank (c : ascii) : bool :=
  let n := nat_of_ascii c in orb (Nat.eqb n 32) (orb (andb (Nat.leb 9 n) (Nat.leb n 13)) (andb (Nat.leb 28 n) (Nat.leb n 31))).

Fixpoint lstrip (s : string) : string :=
  match s with String c r => if is_blank c then lstrip r else s | EmptyString => EmptyString end.
Fixpoint rstrip (s : string) : string :=
  match s with
  | EmptyString => EmptyString
  | String c r => match rstrip r with
                  | EmptyString => if is_blank c then EmptyString else String c EmptyString
                  | r' => String c r'
                  end
  end.

Definition take_sign (s : string) : bool * string :=
  match s with
  | String c r => if Ascii.eqb c "-"%char then (true, r) else if Ascii.eqb c "+"%char then (false, r) else (false, s)
  | EmptyString => (false, s)
  end.

Definition integer (l : list nat) : Z := fold_left (fun v n => (10 * v + Z.of_nat n)%Z) l 0%Z.

Definition py_float (s : string) : Res R :=
  let '(negative, s) := take_sign (lstrip (rstrip s)) in
  let '(whole, s) := take_digits s in
  let '(fraction, s) := match s with String "."%char r => take_digits r | _ => ([], s) end in
  match whole ++ fraction with
  | [] => Err ValueError
  | all =>
      let value (e : Z) := (if negative then -1 else 1) * (IZR (integer all) * powerRZ 10 (e - Z.of_nat (length fraction))%Z) in
      match s with
      | EmptyString => Ok (value 0%Z)
      | String c r =>
          if orb (Ascii.eqb c "e"%char) (Ascii.eqb c "E"%char) then
            let '(down, r) := take_sign r in
            let '(e, r) := take_digits r in
            match e, r with
            | _ :: _, EmptyString => Ok (value (if down then - integer e else integer e)%Z)
            | _, _ => Err ValueError
            end
          else Err ValueError
      end
  end.

(** ** read_data *)

(** l.20-23: the loop from a state of the reader; a record of another length cannot be unpacked.  At the end of the file an
    unfinished field is a record. *)
Definition columns : Type := list R * list R * list R.
Definition append_row (fields : list string) (acc : columns) : Res columns :=
  match fields with
  | [x; y; err] =>
      let '(xs, ys, errs) := acc in
      vx <- py_float x ;; vy <- py_float y ;; ve <- py_float err ;; Ok (xs ++ [vx], ys ++ [vy], errs ++ [ve])
  | _ => Err ValueError
  end.

Fixpoint read_loop (lines : list string) (r : Reader) (acc : columns) : Res columns :=
  match lines with
  | [] =>
      match rd_state r, rd_field r with
      | InQuotedField, _ | _, String _ _ => append_row (rd_fields r ++ [rd_field r]) acc
      | _, _ => Ok acc
      end
  | line :: rest =>
      r' <- process_line line r ;;
      match rd_state r' with
      | StartRecord => acc' <- append_row (rd_fields r') acc ;; read_loop rest new_record acc'
      | _ => read_loop rest r' acc
      end
  end.

Definition read_data (text : string) : Res columns := read_loop (file_lines (universal text)) new_record ([], [], []).

(** ** csv.writer with a space as delimiter and QUOTE_MINIMAL (l.41) *)

Definition special (c : ascii) : bool := orb (Ascii.eqb c SP) (orb (Ascii.eqb c QUOTE) (is_newline c)).
Fixpoint has_special (s : string) : bool :=
  match s with EmptyString => false | String c r => orb (special c) (has_special r) end.
Fixpoint doubled (s : string) : string :=
  match s with
  | EmptyString => EmptyString
  | String c r => if Ascii.eqb c QUOTE then String c (String c (doubled r)) else String c (doubled r)
  end.
Definition written_field (s : string) : string :=
  if has_special s then String QUOTE (doubled s) ++ String QUOTE EmptyString else s.

Section Write.
(** [str] of a float. *)
Variable str : R -> string.

Definition written_row (row : R * R * R) : string :=
  let '(x, y, z) := row in
  written_field (str x) ++ String SP (written_field (str y) ++ String SP (written_field (str z) ++ String CR (String LF EmptyString))).

(** [writerows]. *)
Definition written_rows (rows : list (R * R * R)) : string := fold_right (fun row s => (written_row row ++ s)%string) EmptyString rows.

(** convert_cs_data_to_ff_data.py l.30-42: from the text of the one file to the text of the other. *)
Definition convert_file (alpha hc_squared kaon_mass : R) (text : string) : Res string :=
  cols <- read_data text ;;
  let '(ts, css, errors) := cols in
  converted <- convert alpha hc_squared kaon_mass (zip3 ts css errors) ;;
  Ok (written_rows converted).
End Write.
