(** What a pipeline is supposed to do, written without the methods of the model. *)
From Coq Require Import String Ascii Reals ZArith List Bool Arith.
From Verif Require Import PyBase CNum PyExpr Params ParamClasses ParamSpec ParamProofs CommonUtils World DataSets Task TaskSpec Pipeline.
Import ListNotations.
Local Open Scope list_scope.
Local Open Scope string_scope.

#[local] Arguments String.append : simpl never.

(** ** Parameters a round may free *)

Definition resonance_parameter (n : string) : bool := orb (starts "mass_" n) (starts "decay_rate_" n).

(** Names of the store that may be free in a round. *)
Definition available (c : param_class) (fix_resonances : bool) (d : data) : list string :=
  filter (fun n => andb (negb (member n (must_stay_fixed c))) (negb (andb fix_resonances (resonance_parameter n))))
         (map par_name d).

Definition free_names_of (d : data) : list string := map par_name (filter (fun p => negb (par_fixed p)) d).

(** Only flags differ. *)
Definition same_values (d d' : data) : Prop :=
  map par_name d' = map par_name d /\ map par_value d' = map par_value d.

(** Models without resonances. *)
Definition no_resonances (c : param_class) : bool :=
  match c with PETGMR | PTwoPoles | POscillations => true | _ => false end.

(** ** The schedule *)

Inductive stage :=
  | RandomRound (i : nat) (number : Z) (fix_resonances : bool)
  | FinalFit (n : nat) (fix_resonances : bool)
  | ResidualFit (n : nat).

(** Rounds [i], [i+1], ... with the requested numbers. *)
Fixpoint rounds (i : nat) (numbers : list Z) (limit : Z) : list stage :=
  match numbers with
  | [] => []
  | k :: ks => RandomRound i k (Z.ltb (Z.of_nat i) limit) :: rounds (S i) ks limit
  end.

Definition stages (k : pipeline_kind) (numbers : list Z) (limit : Z) : list stage :=
  let n := length numbers in
  (rounds 0 numbers limit ++
   match k with
   | NucleonCS => [FinalFit n (Z.ltb (Z.of_nat n) limit); ResidualFit (n + 1)]
   | _ => [FinalFit n false]
   end)%list.

(** How many parameters a round that asks for [number] frees. *)
Definition freed (k : pipeline_kind) (number : Z) (available : nat) : Z :=
  match k with NucleonCS => Z.min (Z.of_nat available) number | _ => number end.

(** The points of the final fit. *)
Definition is_charged (p : datapoint) : bool := match p with KaonDatapoint _ c => c | _ => false end.
Definition final_points (k : pipeline_kind) (ts : list datapoint) : list datapoint :=
  match k with KaonFF => filter is_charged ts | _ => ts end.

Definition final_name (k : pipeline_kind) (fix_resonances : bool) : string :=
  match k with
  | KaonCS | NucleonFF => "TaskFullFit"
  | KaonFF => "TaskFullFitOnlyCharged"
  | NucleonCS => if fix_resonances then "Full fit (Fixed resonances)" else "Full fit"
  end.

(** The call of the optimiser made on behalf of a stage. *)
Definition meets (k : pipeline_kind) (c : param_class) (ts : list datapoint) (s : stage) (x : FitInput) : Prop :=
  match s with
  | RandomRound i number fix_resonances =>
      fi_task x = "Task#" ++ str_nat i ++ ":TaskFixAccordingToParametersFit" /\ fi_class x = c /\ fi_points x = ts /\
      let a := available c fix_resonances (fi_store x) in
      Z.of_nat (length (free_names_of (fi_store x))) = freed k number (length a) /\
      (forall n, In n (free_names_of (fi_store x)) -> In n a) /\
      (fix_resonances = true -> no_resonances c = false)
  | FinalFit n fix_resonances =>
      fi_task x = "Task#" ++ str_nat n ++ ":" ++ final_name k fix_resonances /\ fi_class x = c /\
      fi_points x = final_points k ts /\ free_names_of (fi_store x) = available c fix_resonances (fi_store x) /\
      (fix_resonances = true -> no_resonances c = false)
  | ResidualFit n =>
      fi_task x = "Task#" ++ str_nat n ++ ":ResidualOscillationsTask" /\ fi_class x = POscillations /\
      free_names_of (fi_store x) = ["a"; "b"; "c"; "d"]
  end.

(** ** Order of texts *)

(** Alphabetical order by character codes: the first difference decides, a proper beginning comes first. *)
Inductive before : string -> string -> Prop :=
  | BeforeEnd : forall a r, before "" (String a r)
  | BeforeHead : forall a b r s, (nat_of_ascii a < nat_of_ascii b)%nat -> before (String a r) (String b s)
  | BeforeTail : forall a r s, before r s -> before (String a r) (String a s).

(** ** Best fit *)

(** A task that has run to its end, and the world at that moment. *)
Record Ended := mkEnded { en_task : Task; en_world : World }.

(** How a task that has run to its end looks like. *)
Definition settled (r : Report) : Prop :=
  (rp_status r = "finished" /\ rp_chi_squared r <> None) \/ (rp_status r = "failed" /\ rp_chi_squared r = None).

(** The chi-squared text, if there is one. *)
Definition chi_text (x : Ended) : option string :=
  match rp_chi_squared (tk_report (en_task x)) with Some "" => None | y => y end.

(** [x] is the earliest among the least. *)
Definition earliest_least (xs : list Ended) (i : nat) (x : Ended) (s : string) : Prop :=
  nth_error xs i = Some x /\ chi_text x = Some s /\
  forall j y s', nth_error xs j = Some y -> chi_text y = Some s' ->
    (s = s' \/ before s s') /\ ((j < i)%nat -> before s s').

(** What the dictionary of the best fit must contain; the snapshot is looked up in the heap [h]. *)
Definition describes (pipeline_name : string) (h : list data) (x : Ended) (s : string) (b : BestFit) : Prop :=
  bf_chi_squared b = Some s /\
  bf_name b = Some (pipeline_name ++ ":" ++ tk_name (en_task x)) /\
  (exists a d, bf_parameters b = Some a /\ nth_error h a = Some d /\
     nth_error (w_lists (en_world x)) (r_data (tk_parameters (en_task x))) = Some d /\
     exists vs, bf_values b = Some vs /\ get_ordered (r_class (tk_parameters (en_task x))) d = Ok vs) /\
  bf_covariance b = rp_covariance (tk_report (en_task x)) /\ bf_errors b = rp_errors (tk_report (en_task x)).

Definition best_of (pipeline_name : string) (h : list data) (xs : list Ended) (b : BestFit) : Prop :=
  (exists i x s, earliest_least xs i x s /\ describes pipeline_name h x s b) \/
  (Forall (fun x => chi_text x = None) xs /\ b = no_fit).

(** What the store of an ended task contains. *)
Definition left_behind (x : Ended) : option data := nth_error (w_lists (en_world x)) (r_data (tk_parameters (en_task x))).

(** Class, names and values of the store given to task [i]: those of the start, then those the previous task left behind. *)
Definition handed (c0 : param_class) (d0 : data) (xs : list Ended) (i : nat) (c : param_class) (d : data) : Prop :=
  match i with
  | O => c = c0 /\ same_values d0 d
  | S j => exists x dx, nth_error xs j = Some x /\ left_behind x = Some dx /\ c = r_class (tk_parameters (en_task x)) /\ same_values dx d
  end.

(** A new task of a pipeline. *)
Record starts_as (p : Pipeline) (t : Task) : Prop := mkStarts {
  sa_data : tk_ts t = pl_ts p /\ tk_ys t = pl_ys p /\ tk_errors t = pl_errors p;
  sa_fitted : tk_ts_fit t = pl_ts p /\ tk_ys_fit t = pl_ys p /\ tk_errors_fit t = pl_errors p;
  sa_report : rp_final (tk_report t) = None /\ rp_chi_squared (tk_report t) = None /\ rp_status (tk_report t) = "started";
  sa_settings : passes_masses (pl_kind p) = true \/ kind_of (tk_class t) = FormFactorKind ->
    tk_reports_dir t = Some (pl_reports_dir p) /\ tk_plot t = pl_plot p /\ tk_handpicked t = pl_handpicked p;
  sa_masses : passes_masses (pl_kind p) = true -> tk_mass t = pl_mass p /\ tk_alpha t = pl_alpha p /\ tk_hc_squared t = pl_hc_squared p;
  sa_numbers : tk_numbers t = orb (passes_masses (pl_kind p)) (match kind_of (tk_class t) with FormFactorKind => true | CrossSectionKind => false end) }.

(** ** Decimal texts *)

Definition digit (n : nat) : ascii := ascii_of_nat (48 + n).
Definition digits (l : list nat) : string := fold_right (fun n s => String (digit n) s) "" l.

(** The text of a decimal number with the given integer and fractional digits. *)
Definition decimal (whole fraction : list nat) : string := digits whole ++ "." ++ digits fraction.

Fixpoint whole_value (l : list nat) : R :=
  match l with [] => 0%R | n :: r => (INR n * 10 ^ length r + whole_value r)%R end.
Fixpoint fraction_value (l : list nat) : R :=
  match l with [] => 0%R | n :: r => ((INR n + fraction_value r) / 10)%R end.
Definition decimal_value (whole fraction : list nat) : R := (whole_value whole + fraction_value fraction)%R.
Definition all_digits (l : list nat) : Prop := Forall (fun n => (n < 10)%nat) l.

(** ** Files *)

(** Content of a file that did not exist before the events; a plot is not text. *)
Fixpoint file_from (before : string) (path : string) (evs : list event) : string :=
  match evs with
  | [] => before
  | EvAppend p text :: r => file_from (if String.eqb p path then before ++ text else before) path r
  | EvWrite p text :: r => file_from (if String.eqb p path then text else before) path r
  | EvPlot p :: r => file_from (if String.eqb p path then "<image>" else before) path r
  | _ :: r => file_from before path r
  end.
Definition file (path : string) (evs : list event) : string := file_from "" path evs.

(** What was printed on the console. *)
Fixpoint printed (evs : list event) : list string :=
  match evs with
  | [] => []
  | EvPrint s :: r => s :: printed r
  | _ :: r => printed r
  end.

(** The newline character. *)
Definition newline : string := "
".

Definition console_line (pipeline_name msg : string) : string := "Pipeline " ++ pipeline_name ++ ": " ++ msg ++ newline.

Fixpoint lines (msgs : list string) : string :=
  match msgs with [] => "" | m :: r => m ++ newline ++ lines r end.

(** The report: a title, then the messages; every flush but the first one starts with an empty line. *)
Fixpoint later_groups (gs : list (list string)) : string :=
  match gs with [] => "" | g :: r => newline ++ lines g ++ later_groups r end.
Definition rendered (pipeline_name : string) (gs : list (list string)) : string :=
  match gs with
  | [] => ""
  | g :: r => "Report " ++ pipeline_name ++ ":" ++ newline ++ lines g ++ later_groups r
  end.

Fixpoint beginning (s t : string) : Prop :=
  match s, t with
  | "", _ => True
  | String a r, String b u => a = b /\ beginning r u
  | _, _ => False
  end.
