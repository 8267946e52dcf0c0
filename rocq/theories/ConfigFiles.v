(** Model of the way the scripts read configuration.ini: [ConfigParser(inline_comment_prefixes='#')], [config.read] and
    [config.getfloat], as in kaon_production/fit_ff_iterative_pipeline.py l.41-43, nucleon_production/
    fit_cs_iterative_pipeline.py l.55-66 and the same lines of the other scripts.

    The parser is CPython's Lib/configparser.py, [RawConfigParser._read], [_join_multiline_values] and [get], with the
    settings of the scripts: '=' and ':' as delimiters, '#' and ';' for comment lines, '#' for comments at the end of a
    line, strict, empty lines in values.

    Simplifications.  A file is its text; characters are the ascii ones.  One file is read into a new parser, so that a
    section or option is known exactly if it was read before in the same file.  The section DEFAULT is kept with the
    others and exists from the start.  Values with a percent sign (interpolation) are not modelled: [Interpolated].
    [getfloat] uses the model of [float] of DataFiles.v. *)
From Coq Require Import String Ascii Reals ZArith List Bool Arith.
From Verif Require Import PyBase DataFiles.
Import ListNotations.
Local Open Scope string_scope.
Local Open Scope list_scope.

Inductive config_error := DuplicateSection | DuplicateOption | MissingHeader | ParsingError | NoSection | NoOption | NotANumber | Interpolated.

Inductive Read (A : Type) : Type := Done (a : A) | Fail (e : config_error).
Arguments Done {A} a.
Arguments Fail {A} e.

Definition options : Type := list (string * list string).

(** The variables of [_read]; [ps_option] is empty for [None]. *)
Record Parser := mkParser {
  ps_sections : list (string * options); ps_current : option string; ps_option : string; ps_indent : nat; ps_bad : bool }.

Definition DEFAULT : string := "DEFAULT".
Definition new_parser : Parser := mkParser [(DEFAULT, [])] None "" 0 false.

(** ** Characters *)

Definition strip (s : string) : string := lstrip (rstrip s).

(** The comment at the end of a line: the first '#' at the start or behind a blank. *)
Fixpoint has_comment (free : bool) (s : string) : bool :=
  match s with
  | EmptyString => false
  | String c r => orb (andb free (Ascii.eqb c "#"%char)) (has_comment (is_blank c) r)
  end.
Fixpoint before_comment (free : bool) (s : string) : string :=
  match s with
  | EmptyString => EmptyString
  | String c r => if andb free (Ascii.eqb c "#"%char) then EmptyString else String c (before_comment (is_blank c) r)
  end.

Definition comment_line (s : string) : bool :=
  match strip s with String c _ => orb (Ascii.eqb c "#"%char) (Ascii.eqb c ";"%char) | EmptyString => false end.

Fixpoint indentation (s : string) : nat :=
  match s with String c r => if is_blank c then S (indentation r) else O | EmptyString => O end.

(** [SECTCRE]: an opening bracket, as much as possible but not nothing, a closing bracket; the rest is ignored. *)
Fixpoint up_to_last_bracket (s : string) : option string :=
  match s with
  | EmptyString => None
  | String c r => match up_to_last_bracket r with
                  | Some h => Some (String c h)
                  | None => if Ascii.eqb c "]"%char then Some EmptyString else None
                  end
  end.
Definition section_header (s : string) : option string :=
  match s with
  | String c r => if Ascii.eqb c "["%char then match up_to_last_bracket r with Some EmptyString => None | x => x end else None
  | EmptyString => None
  end.

(** [OPTCRE]: the text before the first delimiter, and what follows it. *)
Fixpoint split_option (s : string) : option (string * string) :=
  match s with
  | EmptyString => None
  | String c r => if orb (Ascii.eqb c "="%char) (Ascii.eqb c ":"%char) then Some (EmptyString, r)
                  else match split_option r with Some (k, v) => Some (String c k, v) | None => None end
  end.

(** [optionxform]. *)
Definition lower_char (c : ascii) : ascii :=
  let n := nat_of_ascii c in if andb (Nat.leb 65 n) (Nat.leb n 90) then ascii_of_nat (n + 32) else c.
Fixpoint lower (s : string) : string :=
  match s with String c r => String (lower_char c) (lower r) | EmptyString => EmptyString end.

(** ** Dictionaries *)

Fixpoint lookup {A : Type} (k : string) (l : list (string * A)) : option A :=
  match l with [] => None | (k', v) :: r => if String.eqb k k' then Some v else lookup k r end.
Fixpoint alter {A : Type} (k : string) (f : A -> A) (l : list (string * A)) : list (string * A) :=
  match l with [] => [] | (k', v) :: r => if String.eqb k k' then (k', f v) :: r else (k', v) :: alter k f r end.
Definition known {A : Type} (k : string) (l : list (string * A)) : bool := match lookup k l with Some _ => true | None => false end.

(** ** The loop over the lines *)

(** [cursect[optname].append(value)]. *)
Definition continue_value (section value : string) (ps : Parser) : Parser :=
  mkParser (alter section (alter (ps_option ps) (fun l => l ++ [value])) (ps_sections ps))
    (ps_current ps) (ps_option ps) (ps_indent ps) (ps_bad ps).

Definition open_option (ps : Parser) : option string :=
  match ps_current ps with
  | Some section => if String.eqb (ps_option ps) "" then None else Some section
  | None => None
  end.

Definition header_or_option (value : string) (indent : nat) (ps : Parser) : Read Parser :=
  match section_header value with
  | Some name =>
      if String.eqb name DEFAULT then Done (mkParser (ps_sections ps) (Some name) "" indent (ps_bad ps))
      else if known name (ps_sections ps) then Fail DuplicateSection
      else Done (mkParser (ps_sections ps ++ [(name, [])]) (Some name) "" indent (ps_bad ps))
  | None =>
      match ps_current ps with
      | None => Fail MissingHeader
      | Some section =>
          match split_option value with
          | Some (k, v) =>
              let key := lower (rstrip k) in
              if match lookup section (ps_sections ps) with Some l => known key l | None => false end then Fail DuplicateOption
              else Done (mkParser (alter section (fun l => l ++ [(key, [strip v])]) (ps_sections ps)) (Some section) key indent
                           (orb (ps_bad ps) (String.eqb (rstrip k) "")))
          | None => Done (mkParser (ps_sections ps) (Some section) (ps_option ps) indent true)
          end
      end
  end.

Definition read_line (line : string) (ps : Parser) : Read Parser :=
  let commented := orb (comment_line line) (has_comment true line) in
  let value := if comment_line line then "" else strip (before_comment true line) in
  if String.eqb value "" then
    Done (if commented then ps else match open_option ps with Some section => continue_value section "" ps | None => ps end)
  else
    let indent := indentation line in
    match open_option ps with
    | Some section => if Nat.ltb (ps_indent ps) indent then Done (continue_value section value ps) else header_or_option value indent ps
    | None => header_or_option value indent ps
    end.

Fixpoint read_lines (lines : list string) (ps : Parser) : Read Parser :=
  match lines with
  | [] => Done ps
  | l :: r => match read_line l ps with Done ps' => read_lines r ps' | Fail e => Fail e end
  end.

(** [_join_multiline_values]. *)
Definition newline_text : string := String LF EmptyString.
Definition joined (l : list string) : string := rstrip (String.concat newline_text l).

Definition Config : Type := list (string * list (string * string)).
Definition empty_config : Config := [(DEFAULT, [])].

Definition read_text (text : string) : Read Config :=
  match read_lines (file_lines (universal text)) new_parser with
  | Done ps => if ps_bad ps then Fail ParsingError
               else Done (map (fun s => (fst s, map (fun x => (fst x, joined (snd x))) (snd s))) (ps_sections ps))
  | Fail e => Fail e
  end.

(** [config.read]: a file that cannot be opened is skipped. *)
Definition read_config (file : option string) : Read Config := match file with Some text => read_text text | None => Done empty_config end.

(** ** getfloat *)

Fixpoint has_percent (s : string) : bool :=
  match s with String c r => orb (Ascii.eqb c "%"%char) (has_percent r) | EmptyString => false end.

Definition get (config : Config) (section option : string) : Read string :=
  match lookup section config with
  | None => Fail NoSection
  | Some l =>
      let key := lower option in
      let found := match lookup key l with Some v => Some v
                   | None => match lookup DEFAULT config with Some d => lookup key d | None => None end end in
      match found with
      | None => Fail NoOption
      | Some v => if has_percent v then Fail Interpolated else Done v
      end
  end.

Definition getfloat (config : Config) (section option : string) : Read R :=
  match get config section option with
  | Done v => match py_float v with Ok x => Done x | Err _ => Fail NotANumber end
  | Fail e => Fail e
  end.

(** A script reads the file and then some constants, in this order. *)
Fixpoint getfloats (config : Config) (keys : list (string * string)) : Read (list R) :=
  match keys with
  | [] => Done []
  | (s, k) :: r => match getfloat config s k with
                   | Done x => match getfloats config r with Done xs => Done (x :: xs) | Fail e => Fail e end
                   | Fail e => Fail e
                   end
  end.
Definition script_constants (file : option string) (keys : list (string * string)) : Read (list R) :=
  match read_config file with Done c => getfloats c keys | Fail e => Fail e end.

(** ** What the scripts read *)

(** kaon_production/calculate_deviations.py l.32-38, fit_cs_iterative_pipeline_withneutralkaons_fixed.py l.51-57,
    fit_cs_iterative_pipeline_withneutralkaons_simplified.py l.45-51, fit_cs_pipeline_withneutralkaons_simplified.py l.62-68,
    plot_fit.py l.30, l.74-76, plot_single_component.py l.59-65, run_single_fit.py l.31-37. *)
Definition kaon_cs_keys : list (string * string) :=
  [("constants", "charged_pion_mass"); ("constants", "charged_kaon_mass"); ("constants", "alpha"); ("constants", "hc_squared")].
(** kaon_production/convert_cs_data_to_ff_data.py l.8-10. *)
Definition conversion_keys : list (string * string) :=
  [("constants", "alpha"); ("constants", "hc_squared"); ("constants", "charged_kaon_mass")].
(** kaon_production/fit_ff_iterative_pipeline.py l.43. *)
Definition kaon_ff_keys : list (string * string) := [("constants", "charged_pion_mass")].
(** kaon_production/undress_measured_cross_section.py l.30. *)
Definition undress_keys : list (string * string) := [("constants", "alpha")].
(** nucleon_production/fit_cs_iterative_pipeline.py l.58-66, run_single_fit.py l.38-45. *)
Definition nucleon_keys : list (string * string) :=
  [("constants", "charged_pion_mass"); ("constants", "proton_mass"); ("constants", "proton_magnetic_moment");
   ("constants", "neutron_magnetic_moment"); ("constants", "alpha"); ("constants", "hc_squared")].

(** The file itself, configuration.ini l.1-30. *)
Definition configuration_ini : string :=
"[constants]
alpha=0.0072973525693
hc_squared=389379.3721  # in GeV^2 * nb
charged_pion_mass=0.13957039  # in GeV
charged_kaon_mass=0.493677  # in GeV
proton_mass=0.938272  # in GeV
proton_magnetic_moment=2.792847351  # in nuclear magnetons
neutron_magnetic_moment=-1.91304273  # in nuclear magnetons

[resonances]
omega_mass=0.78266  # GeV
omega_decay_rate=0.00868  # GeV
omega_prime_mass=1.41  # GeV
omega_prime_decay_rate=0.29  # GeV
omega_double_prime_mass=1.67  # GeV
omega_double_prime_decay_rate=0.315  # GeV
phi_mass=1.019461  # GeV
phi_decay_rate=0.004249  # GeV
phi_prime_mass=1.680  # GeV
phi_prime_decay_rate=0.150  # GeV
phi_double_prime_mass=2.159  # GeV
phi_double_prime_decay_rate=0.137  # GeV
rho_mass=0.77526  # GeV  version2: 0.75823  version3: 0.76388
rho_decay_rate=0.1474  # GeV  version2: 0.14456  version3: 0.14428
rho_prime_mass=1.465  # GeV  version2: 1.342  version3: 1.32635
rho_prime_decay_rate=0.4  # GeV  version2: 0.492  version3: 0.32413
rho_double_prime_mass=1.72  # GeV  version2: 1.719  version3: 1.77054
rho_double_prime_decay_rate=0.25  # GeV  version2: 0.490  version3: 0.26898
rho_triple_prime_mass=2.15  # GeV
rho_triple_prime_decay_rate=0.3  # GeV
".
