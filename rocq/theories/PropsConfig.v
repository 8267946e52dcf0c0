(** C56: the configuration file. *)
From Coq Require Import String Ascii Reals ZArith List Bool Arith Lia Lra Permutation.
From Verif Require Import PyBase CNum DataFiles PipelineSpec PropsFiles ConfigFiles.
From Verif Require FitScripts PropsResonances.
Import ListNotations.
Local Open Scope list_scope.
Local Open Scope string_scope.
Local Open Scope R_scope.

#[local] Arguments String.append : simpl never.

(** ** Specification *)

(** The lines of a configuration file. *)
Inductive item :=
  | Blank (b : string)                                         (** nothing but blanks *)
  | Remark (b : string) (mark : ascii) (text : string)         (** a comment of its own *)
  | Header (name tail : string)                                (** [name] *)
  | Entry (key b : string) (delim : ascii) (b' value tail : string)
  | More (indent text tail : string).                          (** an indented line: continues the value above *)

Definition item_text (i : item) : string :=
  match i with
  | Blank b => b
  | Remark b m t => b ++ String m t
  | Header n t => "[" ++ n ++ "]" ++ t
  | Entry k b d b' v t => k ++ b ++ String d (b' ++ v ++ t)
  | More b s t => b ++ s ++ t
  end.
Definition newline : string := String (ascii_of_nat 10) "".
Definition text_of (l : list item) : string := fold_right (fun i s => item_text i ++ newline ++ s) "" l.

Definition blank_char (c : ascii) : Prop := In (nat_of_ascii c) blank_codes.
Definition one_line (s : string) : Prop := all_chars (fun c => nat_of_ascii c <> 10 /\ nat_of_ascii c <> 13)%nat s.
Definition begins (P : ascii -> Prop) (s : string) : Prop := exists c r, s = String c r /\ P c.
Definition ends (P : ascii -> Prop) (s : string) : Prop := exists r c, s = r ++ String c "" /\ P c.

(** No blank at either end. *)
Definition trimmed (s : string) : Prop := ~ begins blank_char s /\ ~ ends blank_char s.
(** Every hash follows a character that is not blank, so that none starts a comment. *)
Definition no_comment (s : string) : Prop := forall p q, s = p ++ "#" ++ q -> ends (fun c => ~ blank_char c) p.
(** The end of a line: blanks, or a comment after at least one blank. *)
Definition line_end (t : string) : Prop := blanks t \/ exists b text, b <> "" /\ blanks b /\ t = b ++ "#" ++ text.
Definition delimiter (c : ascii) : Prop := c = "="%char \/ c = ":"%char.

Definition well_formed (i : item) : Prop :=
  one_line (item_text i) /\
  match i with
  | Blank b => blanks b
  | Remark b m t => blanks b /\ (m = "#"%char \/ m = ";"%char)
  | Header n t => n <> "" /\ no_comment n /\ line_end t
  | Entry k b d b' v t => k <> "" /\ trimmed k /\ no_comment k /\ all_chars (fun c => ~ delimiter c) k /\
      ~ begins (fun c => c = "["%char \/ c = ";"%char) k /\ blanks b /\ delimiter d /\ blanks b' /\ trimmed v /\ no_comment v /\ line_end t
  | More b s t => b <> "" /\ blanks b /\ s <> "" /\ trimmed s /\ no_comment s /\ ~ begins (fun c => c = ";"%char) s /\ line_end t
  end.

(** The sections named, and the one that is open at the end. *)
Fixpoint header_names (l : list item) : list string :=
  match l with [] => [] | Header n _ :: r => n :: header_names r | _ :: r => header_names r end.
Fixpoint current (open : option string) (l : list item) : option string :=
  match l with [] => open | Header n _ :: r => current (Some n) r | _ :: r => current open r end.

(** The indented lines that follow an entry; empty lines between them are kept. *)
Fixpoint continuation (pending : string) (l : list item) : string :=
  match l with
  | Blank _ :: r => continuation (pending ++ newline) r
  | Remark _ _ _ :: r => continuation pending r
  | More _ s _ :: r => pending ++ newline ++ s ++ continuation "" r
  | _ => ""
  end.

(** The settings: section, key in small letters, value. *)
Fixpoint settings (section : string) (l : list item) : list (string * string * string) :=
  match l with
  | [] => []
  | Header n _ :: r => settings n r
  | Entry k _ _ _ v _ :: r => (section, lower k, v ++ continuation "" r) :: settings section r
  | _ :: r => settings section r
  end.
Definition settings_of (l : list item) : list (string * string * string) := settings "" l.

(** A line that is refused after the lines [l]. *)
Inductive offends (l : list item) : item -> config_error -> Prop :=
  | EntryOutside : forall k b d b' v t, current None l = None -> offends l (Entry k b d b' v t) MissingHeader
  | SectionAgain : forall n t, n <> "DEFAULT" -> In n (header_names l) -> offends l (Header n t) DuplicateSection
  | KeyAgain : forall s k b d b' v t w, current None l = Some s -> In (s, lower k, w) (settings_of l) -> offends l (Entry k b d b' v t) DuplicateOption.

(** Indented lines come after an entry. *)
Fixpoint in_entry (inside : bool) (l : list item) : bool :=
  match l with [] => inside | Header _ _ :: r => in_entry false r | Entry _ _ _ _ _ _ :: r => in_entry true r | _ :: r => in_entry inside r end.
Definition is_more (i : item) : bool := match i with More _ _ _ => true | _ => false end.

Inductive accepted : list item -> Prop :=
  | NoLines : accepted []
  | OneMore : forall l i, accepted l -> well_formed i -> (forall e, ~ offends l i e) -> (is_more i = true -> in_entry false l = true) ->
      accepted (l ++ [i])%list.

(** The section [s] sets [k] to [v], itself or through the section DEFAULT. *)
Definition set_to (l : list item) (s k v : string) : Prop :=
  In (s, lower k, v) (settings_of l) \/ (In ("DEFAULT", lower k, v) (settings_of l) /\ forall w, ~ In (s, lower k, w) (settings_of l)).
Definition has_section (l : list item) (s : string) : Prop := s = "DEFAULT" \/ In s (header_names l).
Definition plain (v : string) : Prop := all_chars (fun c => c <> "%"%char) v.

(** ** Strings *)

Lemma app_assoc_s : forall a b c, (a ++ b) ++ c = a ++ b ++ c.
Proof. induction a as [|x a IH]; intros b c; [reflexivity|]. rewrite !app_cons. now rewrite IH. Qed.

Lemma last_char : forall s, s <> "" -> exists r c, s = r ++ String c "".
Proof.
  induction s as [|c s IH]; intros N; [congruence|]. destruct s as [|c' s]; [now exists "", c|].
  destruct IH as (r & d & E); [discriminate|]. exists (String c r), d. now rewrite E, app_cons.
Qed.

Lemma blank_dec : forall c, {blank_char c} + {~ blank_char c}.
Proof. intros c. destruct (is_blank c) eqn:E; [left; now apply is_blank_iff|right; intros H; apply is_blank_iff in H; congruence]. Defined.

Lemma not_blank : forall c, ~ blank_char c -> is_blank c = false.
Proof. intros c H. destruct (is_blank c) eqn:E; [|reflexivity]. now apply is_blank_iff in E. Qed.

Lemma blanks_app : forall a b, blanks (a ++ b) <-> blanks a /\ blanks b.
Proof. intros a b. apply all_app. Qed.

Lemma trimmed_first : forall c r, trimmed (String c r) -> is_blank c = false.
Proof. intros c r [H _]. apply not_blank. intros B. apply H. now exists c, r. Qed.

Lemma strip_right : forall s b, s <> "" -> ~ ends blank_char s -> blanks b -> rstrip (s ++ b) = s.
Proof.
  intros s b N E B. destruct (last_char s N) as (r & c & ->). rewrite app_assoc_s. apply (rstrip_core r c "" b); [|exact B|constructor].
  apply not_blank. intros H. apply E. now exists r, c.
Qed.

Lemma strip_trimmed : forall s b, s <> "" -> trimmed s -> blanks b -> strip (s ++ b) = s.
Proof.
  intros s b N T B. unfold strip. rewrite strip_right by (try apply T; assumption). destruct s as [|c s]; [congruence|]. cbn [lstrip]. now rewrite (trimmed_first c s T).
Qed.

Lemma rstrip_keeps : forall c r, is_blank c = false -> exists r', rstrip (String c r) = String c r'.
Proof. intros c r H. cbn [rstrip]. destruct (rstrip r); [rewrite H|]; now eexists. Qed.

Lemma strip_first : forall b c r, blanks b -> is_blank c = false -> exists r', strip (b ++ String c r) = String c r'.
Proof.
  intros b c r B H. unfold strip. assert (X : exists r', rstrip (b ++ String c r) = b ++ String c r').
  { clear B. induction b as [|x b (r' & IH)]; [now apply rstrip_keeps|]. rewrite app_cons. cbn [rstrip]. rewrite IH.
    destruct (b ++ String c r') as [|y z] eqn:E; [destruct b; discriminate|]. exists r'. now rewrite app_cons, E. }
  destruct X as (r' & ->). exists r'. rewrite lstrip_blanks by exact B. cbn [lstrip]. now rewrite H.
Qed.

Lemma strip_blank : forall b, blanks b -> strip b = "".
Proof. intros b B. unfold strip. now rewrite rstrip_blanks. Qed.

(** *** Comments *)

Fixpoint free_after (free : bool) (s : string) : bool := match s with "" => free | String c r => free_after (is_blank c) r end.

Lemma has_comment_app : forall a f b, has_comment f (a ++ b) = orb (has_comment f a) (has_comment (free_after f a) b).
Proof. induction a as [|c a IH]; intros f b; [reflexivity|]. rewrite app_cons. cbn [has_comment free_after]. rewrite IH. apply orb_assoc. Qed.

Lemma has_comment_mono : forall s f, has_comment true s = false -> has_comment f s = false.
Proof. intros [|c s] f H; [reflexivity|]. cbn [has_comment andb] in *. apply orb_false_iff in H as [A B]. now rewrite A, B, andb_false_r. Qed.

Lemma before_app : forall a f b, has_comment f a = false -> before_comment f (a ++ b) = a ++ before_comment (free_after f a) b.
Proof.
  induction a as [|c a IH]; intros f b H; [reflexivity|]. cbn [has_comment] in H. apply orb_false_iff in H as [A B].
  rewrite !app_cons. cbn [before_comment free_after]. rewrite A. f_equal. now apply IH.
Qed.

Lemma blanks_no_comment : forall b f, blanks b -> has_comment f b = false.
Proof.
  induction b as [|c b IH]; intros f B; [reflexivity|]. apply all_cons in B as [C B]. cbn [has_comment]. rewrite IH by exact B.
  assert (Ascii.eqb c "#" = false) as ->; [|now rewrite andb_false_r]. apply Ascii.eqb_neq. intros ->. cbn in C. unfold blank_codes in C. cbn in C. lia.
Qed.

Lemma blanks_free : forall b f, blanks b -> b <> "" -> free_after f b = true.
Proof.
  induction b as [|c b IH]; intros f B N; [congruence|]. apply all_cons in B as [C B]. cbn [free_after]. apply is_blank_iff in C. rewrite C.
  destruct b as [|c' b]; [reflexivity|]. apply IH; [exact B|discriminate].
Qed.

Lemma newline_blank : blanks newline.
Proof. apply all_cons. split; [cbn; unfold blank_codes; cbn; tauto|constructor]. Qed.

(** A line end with its newline, cut. *)
Lemma end_cut : forall t f, line_end t -> exists b, blanks b /\ before_comment f (t ++ newline) = b.
Proof.
  intros t f [B|(b & x & N & B & ->)].
  - exists (t ++ newline). assert (BB : blanks (t ++ newline)) by (apply blanks_app; split; [exact B|exact newline_blank]). split; [exact BB|].
    rewrite <- (app_nil (t ++ newline)) at 1. rewrite before_app by (now apply blanks_no_comment). cbn [before_comment]. apply app_nil.
  - exists b. split; [exact B|]. rewrite app_assoc_s, before_app by (now apply blanks_no_comment). rewrite blanks_free by assumption.
    change ("#" ++ x) with (String "#" x). rewrite app_cons. cbn. apply app_nil.
Qed.

Lemma no_comment_flag : forall s, no_comment s -> has_comment true s = false.
Proof.
  intros s H. enough (G : forall a b, s = a ++ b -> has_comment (free_after true a) b = false) by exact (G "" s eq_refl).
  intros a b. revert a. induction b as [|c b IH]; intros a E; [reflexivity|]. cbn [has_comment]. apply orb_false_iff. split.
  - destruct (Ascii.eqb c "#") eqn:C; [|now rewrite andb_false_r]. apply Ascii.eqb_eq in C as ->. rewrite andb_true_r.
    destruct (H a b E) as (r & d & -> & D). clear - D. apply not_blank in D. generalize true. induction r as [|x r IH]; intros f; [exact D|]. rewrite app_cons. cbn [free_after]. apply IH.
  - replace (is_blank c) with (free_after true (a ++ String c "")). { apply IH. now rewrite app_assoc_s. }
    generalize true. clear. induction a as [|x a IH]; intros f; [reflexivity|]. rewrite app_cons. cbn [free_after]. apply IH.
Qed.

(** *** The content of a line *)

Definition content (x : string) : Prop :=
  x <> "" /\ trimmed x /\ has_comment true x = false /\ ~ begins (fun c => c = ";"%char) x.

Lemma content_line : forall i x t, blanks i -> content x -> line_end t ->
  comment_line (i ++ x ++ t ++ newline) = false /\ strip (before_comment true (i ++ x ++ t ++ newline)) = x.
Proof.
  intros i [|c x] t B (N & T & H & S) E; [congruence|]. pose proof (trimmed_first c x T) as C. split.
  - unfold comment_line. rewrite (app_cons c x). destruct (strip_first i c (x ++ t ++ newline) B C) as (r & ->).
    cbn [has_comment andb] in H. apply orb_false_iff in H as [H _]. rewrite H. cbn [orb]. apply Ascii.eqb_neq. intros ->. apply S. now exists ";"%char, x.
  - rewrite before_app by (now apply blanks_no_comment). rewrite before_app by (now apply has_comment_mono).
    destruct (end_cut t (free_after (free_after true i) (String c x)) E) as (b & Bb & ->).
    transitivity (strip (String c x ++ b)); [|now apply strip_trimmed]. unfold strip.
    assert (X : rstrip (i ++ String c x ++ b) = i ++ String c x).
    { destruct (last_char (String c x) N) as (r & d & Q). rewrite Q, app_assoc_s, <- app_assoc_s.
      rewrite (rstrip_core (i ++ r) d "" b); [now rewrite app_assoc_s| |exact Bb|constructor]. apply not_blank. intros D. apply T. now exists r, d. }
    rewrite X, lstrip_blanks by exact B. f_equal. symmetry. apply strip_right; [exact N|apply T|exact Bb].
Qed.

Lemma indentation_blanks : forall b s, blanks b -> (match s with String c _ => is_blank c = false | "" => True end) -> indentation (b ++ s) = String.length b.
Proof.
  induction b as [|c b IH]; intros s B H.
  - change ("" ++ s) with s. destruct s as [|c s]; [reflexivity|]. cbn [indentation]. now rewrite H.
  - apply all_cons in B as [C B]. rewrite app_cons. cbn [indentation String.length]. apply is_blank_iff in C. rewrite C. f_equal. now apply IH.
Qed.

Lemma ends_app : forall P a b, b <> "" -> ends P (a ++ b) -> ends P b.
Proof.
  intros P a b N (r & c & E & H). destruct (last_char b N) as (r' & c' & ->). exists r', c'. split; [reflexivity|].
  rewrite <- app_assoc_s in E. clear N.
  assert (X : forall x y d d', x ++ String d "" = y ++ String d' "" -> d = d').
  { clear. induction x as [|u x IH]; intros [|v y] d d' Q; rewrite ?app_cons in Q.
    - now injection Q.
    - injection Q as _ Q. destruct y; discriminate.
    - injection Q as _ Q. destruct x; discriminate.
    - injection Q as _ Q. eapply IH; exact Q. }
  apply X in E. now subst c.
Qed.

Lemma header_content : forall n, n <> "" -> no_comment n -> content ("[" ++ n ++ "]").
Proof.
  intros n N H. split; [discriminate|]. split; [split|split].
  - intros (c & r & E & B). injection E as <- _. unfold blank_char, blank_codes in B. cbn in B. lia.
  - intros E. rewrite <- app_assoc_s in E. apply ends_app in E; [|discriminate]. destruct E as (r & c & E & B). destruct r as [|x [|? ?]]; try discriminate.
    injection E as <-. unfold blank_char, blank_codes in B. cbn in B. lia.
  - change ("[" ++ n ++ "]") with (String "[" (n ++ "]")). cbn [has_comment]. rewrite has_comment_app. rewrite (has_comment_mono n _ (no_comment_flag n H)). cbn. now rewrite andb_false_r.
  - intros (c & r & E & B). injection E as <- _. discriminate.
Qed.

Lemma header_parsed : forall n, n <> "" -> section_header ("[" ++ n ++ "]") = Some n.
Proof.
  intros n N. change ("[" ++ n ++ "]") with (String "[" (n ++ "]")). cbn [section_header Ascii.eqb].
  assert (X : up_to_last_bracket (n ++ "]") = Some n).
  { clear N. induction n as [|c n IH]; [reflexivity|]. rewrite app_cons. cbn [up_to_last_bracket]. now rewrite IH. }
  rewrite X. cbn. destruct n; [congruence|reflexivity].
Qed.

Definition entry_content (k b : string) (d : ascii) (b' v : string) : string := k ++ b ++ String d (match v with "" => "" | _ => b' ++ v end).

Lemma delimiter_flags : forall d, delimiter d -> orb (Ascii.eqb d "=") (Ascii.eqb d ":") = true /\ is_blank d = false /\ Ascii.eqb d "#" = false.
Proof. intros d [-> | ->]; repeat split; reflexivity. Qed.

Lemma entry_content_ok : forall k b d b' v, k <> "" -> trimmed k -> no_comment k -> ~ begins (fun c => c = "["%char \/ c = ";"%char) k ->
  blanks b -> delimiter d -> blanks b' -> trimmed v -> no_comment v -> content (entry_content k b d b' v).
Proof.
  intros [|c k] b d b' v N T H NB B D B' TV HV; [congruence|]. unfold entry_content. destruct (delimiter_flags d D) as (D1 & D2 & D3). repeat split.
  - discriminate.
  - rewrite app_cons. intros (x & r & E & Q). injection E as <- _. apply (proj1 T). now exists c, k.
  - intros E. apply ends_app in E; [|destruct b; discriminate]. apply ends_app in E; [|discriminate].
    assert (X : exists y, ends blank_char y /\ (y = String d "" \/ (y = v /\ v <> ""))).
    { destruct v as [|x v]; [exists (String d ""); split; [exact E|now left]|]. exists (String x v). split; [|right; split; [reflexivity|discriminate]].
      change (String d (b' ++ String x v)) with (String d "" ++ (b' ++ String x v)) in E. apply ends_app in E; [|destruct b'; discriminate]. now apply ends_app in E. }
    destruct X as (y & (r & x & E1 & Q) & [->|[-> _]]).
    + destruct r as [|? [|? ?]]; try discriminate. injection E1 as <-. apply is_blank_iff in Q. congruence.
    + apply TV. now exists r, x.
  - rewrite !has_comment_app. rewrite (no_comment_flag _ H). cbn [orb]. rewrite (blanks_no_comment b) by exact B. cbn [orb has_comment]. rewrite D3, andb_false_r. cbn [orb].
    destruct v as [|x v]; [reflexivity|]. rewrite has_comment_app, (blanks_no_comment b') by exact B'. cbn [orb]. apply has_comment_mono, no_comment_flag, HV.
  - rewrite app_cons. intros (x & r & E & ->). injection E as -> _. apply NB. exists ";"%char, k. now split; [|right].
Qed.

Lemma split_key : forall k d r, all_chars (fun c => ~ delimiter c) k -> delimiter d -> split_option (k ++ String d r) = Some (k, r).
Proof.
  induction k as [|c k IH]; intros d r H D.
  - change ("" ++ String d r) with (String d r). cbn [split_option]. now rewrite (proj1 (delimiter_flags d D)).
  - apply all_cons in H as [C H]. rewrite app_cons. cbn [split_option]. rewrite IH by assumption.
    destruct (Ascii.eqb c "=") eqn:E1; [apply Ascii.eqb_eq in E1; exfalso; apply C; now left|].
    destruct (Ascii.eqb c ":") eqn:E2; [apply Ascii.eqb_eq in E2; exfalso; apply C; now right|]. reflexivity.
Qed.

Lemma blanks_no_delimiter : forall b, blanks b -> all_chars (fun c => ~ delimiter c) b.
Proof. unfold blanks, all_chars. intros b. apply Forall_impl. intros c B [-> | ->]; unfold blank_codes in B; cbn in B; lia. Qed.

Lemma entry_parsed : forall k b d b' v, k <> "" -> trimmed k -> all_chars (fun c => ~ delimiter c) k -> ~ begins (fun c => c = "["%char \/ c = ";"%char) k ->
  blanks b -> delimiter d -> blanks b' -> trimmed v ->
  section_header (entry_content k b d b' v) = None /\
  exists r, split_option (entry_content k b d b' v) = Some (k ++ b, r) /\ rstrip (k ++ b) = k /\ strip r = v.
Proof.
  intros k b d b' v N T A NB B D B' TV. split.
  - destruct k as [|c k]; [congruence|]. unfold entry_content. rewrite app_cons. cbn [section_header].
    destruct (Ascii.eqb c "[") eqn:E; [|reflexivity]. apply Ascii.eqb_eq in E as ->. exfalso. apply NB. exists "["%char, k. now split; [|left].
  - exists (match v with "" => "" | _ => b' ++ v end). split; [|split].
    + unfold entry_content. rewrite <- app_assoc_s. apply split_key; [|exact D]. apply all_app. split; [exact A|now apply blanks_no_delimiter].
    + apply strip_right; [exact N|apply T|exact B].
    + destruct v as [|c v]; [reflexivity|]. unfold strip. rewrite <- (app_nil (b' ++ String c v)).
      destruct (last_char (String c v)) as (r & x & E); [discriminate|]. rewrite E, app_assoc_s, app_assoc_s, <- app_assoc_s.
      rewrite (rstrip_core (b' ++ r) x "" ""); [|apply not_blank; intros Q; apply TV; now exists r, x|constructor|constructor].
      rewrite app_assoc_s, <- E, lstrip_blanks by exact B'. cbn [lstrip]. now rewrite (trimmed_first c v TV).
Qed.

Lemma line_end_app : forall b t, blanks b -> line_end t -> line_end (b ++ t).
Proof.
  intros b t B [H|(c & x & N & C & ->)]; [left; now apply blanks_app|]. right. exists (b ++ c), x. split; [destruct b; [exact N|discriminate]|].
  split; [now apply blanks_app|now rewrite app_assoc_s].
Qed.

Lemma entry_text : forall k b d b' v t, line_end t -> blanks b' -> exists t', line_end t' /\
  item_text (Entry k b d b' v t) ++ newline = entry_content k b d b' v ++ t' ++ newline.
Proof.
  intros k b d b' v t E B. cbn [item_text]. unfold entry_content. destruct v as [|c v].
  - exists (b' ++ t). split; [now apply line_end_app|]. rewrite !app_assoc_s, !app_cons, !app_assoc_s. reflexivity.
  - exists t. split; [exact E|]. repeat (rewrite app_assoc_s || rewrite app_cons). reflexivity.
Qed.

(** ** The parser follows the document *)

Record Doc := mkDoc { d_heads : list string; d_cur : option string; d_ents : list (string * string * list string); d_open : bool }.

Fixpoint add_line (s : string) (l : list (string * string * list string)) : list (string * string * list string) :=
  match l with [] => [] | [(a, k, ls)] => [(a, k, ls ++ [s])%list] | x :: r => x :: add_line s r end.

Definition cur_name (o : option string) : string := match o with Some s => s | None => "" end.

Definition grow (d : Doc) (i : item) : Doc :=
  match i with
  | Blank _ => if d_open d then mkDoc (d_heads d) (d_cur d) (add_line "" (d_ents d)) true else d
  | Remark _ _ _ => d
  | Header n _ => mkDoc (if String.eqb n "DEFAULT" then d_heads d else (d_heads d ++ [n])%list) (Some n) (d_ents d) false
  | Entry k _ _ _ v _ => mkDoc (d_heads d) (d_cur d) (d_ents d ++ [(cur_name (d_cur d), lower k, [v])])%list true
  | More _ s _ => if d_open d then mkDoc (d_heads d) (d_cur d) (add_line s (d_ents d)) true else d
  end.
Definition grown (d : Doc) (l : list item) : Doc := fold_left grow l d.
Definition no_doc : Doc := mkDoc [] None [] false.

Lemma add_line_last : forall s l a k ls, add_line s (l ++ [(a, k, ls)])%list = (l ++ [(a, k, ls ++ [s])])%list.
Proof. induction l as [|x l IH]; intros a k ls; [reflexivity|]. cbn [List.app]. destruct x as [[x y] z]. cbn [add_line]. rewrite IH. destruct l; reflexivity. Qed.

Definition opts (s : string) (es : list (string * string * list string)) : options :=
  map (fun e => (snd (fst e), snd e)) (filter (fun e => String.eqb (fst (fst e)) s) es).

Definition follows (ps : Parser) (d : Doc) : Prop :=
  ps_sections ps = map (fun s => (s, opts s (d_ents d))) (DEFAULT :: d_heads d) /\ ps_current ps = d_cur d /\
  ps_indent ps = O /\ ps_bad ps = false /\ NoDup (DEFAULT :: d_heads d) /\ NoDup (map fst (d_ents d)) /\
  (forall s, d_cur d = Some s -> In s (DEFAULT :: d_heads d)) /\ (forall e, In e (map fst (d_ents d)) -> In (fst e) (DEFAULT :: d_heads d)) /\
  (if d_open d then exists es s k ls, d_ents d = (es ++ [(s, k, ls)])%list /\ d_cur d = Some s /\ ps_option ps = k /\ k <> "" else ps_option ps = "").

Lemma lookup_table : forall A (f : string -> A) l s, lookup s (map (fun s => (s, f s)) l) = if in_dec string_dec s l then Some (f s) else None.
Proof.
  induction l as [|x l IH]; intros s; [reflexivity|]. cbn [map lookup]. destruct (String.eqb s x) eqn:E.
  - apply String.eqb_eq in E as ->. destruct (in_dec string_dec x (x :: l)) as [|n]; [reflexivity|]. exfalso. apply n. now left.
  - rewrite IH. apply String.eqb_neq in E. destruct (in_dec string_dec s l) as [i|n], (in_dec string_dec s (x :: l)) as [i'|n']; try reflexivity.
    + exfalso. apply n'. now right.
    + exfalso. destruct i' as [->|i']; [congruence|now apply n].
Qed.

Lemma alter_table : forall A (f : string -> A) g l s, NoDup l -> alter s g (map (fun s => (s, f s)) l) = map (fun x => (x, if String.eqb x s then g (f x) else f x)) l.
Proof.
  induction l as [|x l IH]; intros s N; [reflexivity|]. inversion N as [|? ? NI N']; subst. cbn [map alter]. rewrite (String.eqb_sym x s). destruct (String.eqb s x) eqn:E.
  - apply String.eqb_eq in E as ->. f_equal. apply map_ext_in. intros y I. assert (y <> x) by (intros ->; contradiction). apply String.eqb_neq in H. now rewrite H.
  - f_equal. now apply IH.
Qed.

Lemma alter_last : forall A (g : A -> A) l k v, ~ In k (map fst l) -> alter k g (l ++ [(k, v)])%list = (l ++ [(k, g v)])%list.
Proof.
  induction l as [|[k' v'] l IH]; intros k v N; cbn [List.app alter]; [now rewrite String.eqb_refl|].
  cbn [map In] in N. destruct (String.eqb k k') eqn:E; [apply String.eqb_eq in E; exfalso; apply N; now left|]. f_equal. apply IH. tauto.
Qed.

Lemma NoDup_app_one : forall A (l : list A) x, NoDup l -> ~ In x l -> NoDup (l ++ [x])%list.
Proof. intros A l x N H. apply (Permutation_NoDup (l := x :: l)); [apply Permutation_cons_append|now constructor]. Qed.

Lemma opts_app : forall s es es', opts s (es ++ es')%list = (opts s es ++ opts s es')%list.
Proof. intros s es es'. unfold opts. now rewrite filter_app, map_app. Qed.

Lemma opts_one : forall s a k ls, opts s [(a, k, ls)] = if String.eqb a s then [(k, ls)] else [].
Proof. intros s a k ls. unfold opts. cbn [filter fst]. destruct (String.eqb a s); reflexivity. Qed.

Lemma opts_keys : forall s es k, In k (map fst (opts s es)) <-> In (s, k) (map fst es).
Proof.
  intros s es k. unfold opts. rewrite map_map. cbn [fst]. rewrite !in_map_iff. split.
  - intros (e & <- & I). apply filter_In in I as [I E]. apply String.eqb_eq in E. exists e. destruct e as [[a b] c]. cbn in *. now subst.
  - intros ([[a b] c] & E & I). cbn in E. injection E as -> ->. exists (s, k, c). split; [reflexivity|]. apply filter_In. split; [exact I|]. apply String.eqb_refl.
Qed.

Lemma known_keys : forall A k (l : list (string * A)), known k l = true <-> In k (map fst l).
Proof.
  intros A k l. unfold known. induction l as [|[k' v] l IH]; cbn [lookup map In fst]; [split; [discriminate|tauto]|].
  destruct (String.eqb k k') eqn:E; [apply String.eqb_eq in E; split; [now left|reflexivity]|]. apply String.eqb_neq in E. rewrite IH.
  split; [now right|]. intros [Q|Q]; [congruence|exact Q].
Qed.

(** Another line for the open value. *)
Lemma continue_follows : forall ps d x, follows ps d -> d_open d = true -> exists s,
  open_option ps = Some s /\ follows (continue_value s x ps) (mkDoc (d_heads d) (d_cur d) (add_line x (d_ents d)) true).
Proof.
  intros ps d x (S & C & I & B & N & NE & CU & EI & O) OP. rewrite OP in O. destruct O as (es & s & k & ls & E & Ec & Ek & Nk). exists s. split.
  - unfold open_option. rewrite C, Ec, Ek. apply String.eqb_neq in Nk. now rewrite Nk.
  - unfold follows, continue_value. cbn [ps_sections ps_current ps_option ps_indent ps_bad d_heads d_cur d_ents d_open].
    rewrite E, add_line_last. repeat split; try assumption.
    + rewrite S, alter_table by exact N. apply map_ext_in. intros y Iy. f_equal. rewrite E, !opts_app, !opts_one, (String.eqb_sym y s).
      destruct (String.eqb s y) eqn:Q; [|reflexivity]. apply String.eqb_eq in Q as <-. rewrite Ek, alter_last; [reflexivity|].
      rewrite opts_keys. rewrite E, map_app in NE. cbn [map fst] in NE. apply NoDup_remove_2 in NE. now rewrite app_nil_r in NE.
    + rewrite E, map_app in NE. rewrite map_app. exact NE.
    + rewrite E, map_app in EI. rewrite map_app. exact EI.
    + now exists es, s, k, (ls ++ [x])%list.
Qed.

Lemma no_open : forall ps d, follows ps d -> d_open d = false -> open_option ps = None.
Proof. intros ps d (_ & _ & _ & _ & _ & _ & _ & _ & O) E. rewrite E in O. unfold open_option. rewrite O. now destruct (ps_current ps). Qed.

(** The lines that say nothing. *)
Lemma blank_line : forall b, blanks b -> comment_line (b ++ newline) = false /\ has_comment true (b ++ newline) = false /\ strip (before_comment true (b ++ newline)) = "".
Proof.
  intros b B. assert (BB : blanks (b ++ newline)) by (apply blanks_app; split; [exact B|exact newline_blank]). split; [|split].
  - unfold comment_line. now rewrite strip_blank.
  - now apply blanks_no_comment.
  - rewrite <- (app_nil (b ++ newline)), before_app by (now apply blanks_no_comment). cbn [before_comment]. now rewrite app_nil, strip_blank.
Qed.

Lemma remark_line : forall b m t, blanks b -> m = "#"%char \/ m = ";"%char -> comment_line ((b ++ String m t) ++ newline) = true.
Proof.
  intros b m t B M. unfold comment_line. rewrite app_assoc_s, app_cons.
  destruct (strip_first b m (t ++ newline) B) as (r & ->); [now destruct M as [-> | ->]|]. now destruct M as [-> | ->].
Qed.

(** The lines with a content. *)
Lemma content_read : forall i x t ps, blanks i -> content x -> line_end t ->
  read_line (i ++ x ++ t ++ newline) ps =
    match open_option ps with
    | Some s => if Nat.ltb (ps_indent ps) (String.length i) then Done (continue_value s x ps) else header_or_option x (String.length i) ps
    | None => header_or_option x (String.length i) ps
    end.
Proof.
  intros i x t ps B X T. destruct (content_line i x t B X T) as [A S]. unfold read_line. rewrite A, S. destruct X as (N & TR & _).
  destruct x as [|c x]; [congruence|]. cbn [String.eqb]. rewrite indentation_blanks; [reflexivity|exact B|]. rewrite app_cons. exact (trimmed_first c x TR).
Qed.

Lemma unindented : forall x t ps d, follows ps d -> content x -> line_end t -> read_line (x ++ t ++ newline) ps = header_or_option x 0 ps.
Proof.
  intros x t ps d (_ & _ & I & _) X T. pose proof (content_read "" x t ps (all_nil _) X T) as E. change ("" ++ x ++ t ++ newline) with (x ++ t ++ newline) in E.
  rewrite E. cbn [String.length]. rewrite I. cbn. now destruct (open_option ps).
Qed.

Definition goes (d : Doc) (i : item) : Prop :=
  match i with
  | Header n _ => n = "DEFAULT" \/ ~ In n (d_heads d)
  | Entry k _ _ _ _ _ => exists s, d_cur d = Some s /\ ~ In (s, lower k) (map fst (d_ents d))
  | More _ _ _ => d_open d = true
  | _ => True
  end.

Lemma step_follows : forall ps d i, follows ps d -> well_formed i -> goes d i ->
  exists ps', read_line (item_text i ++ newline) ps = Done ps' /\ follows ps' (grow d i).
Proof.
  intros ps d i F (_ & W) G. destruct i as [b|b m t|n t|k b dl b' v t|b s t]; cbn [item_text grow] in *.
  - destruct (blank_line b W) as (A & B & C). unfold read_line. rewrite A, B, C. cbn [orb String.eqb]. destruct (d_open d) eqn:O.
    + destruct (continue_follows ps d "" F O) as (s & -> & Q). now exists (continue_value s "" ps).
    + rewrite (no_open ps d F O). now exists ps.
  - destruct W as [B M]. unfold read_line. rewrite (remark_line b m t B M). cbn. now exists ps.
  - destruct W as (N & H & T). replace (("[" ++ n ++ "]" ++ t) ++ newline) with (("[" ++ n ++ "]") ++ t ++ newline) by (now repeat (rewrite app_assoc_s || rewrite app_cons)).
    rewrite (unindented _ t ps d F (header_content n N H) T). unfold header_or_option. rewrite header_parsed by exact N.
    destruct F as (S & C & I & B & ND & NE & CU & EI & O). cbn [goes] in G. change "DEFAULT" with DEFAULT in *. destruct (String.eqb n DEFAULT) eqn:E.
    + apply String.eqb_eq in E as ->. eexists. split; [reflexivity|]. unfold follows. cbn [ps_sections ps_current ps_option ps_indent ps_bad d_heads d_cur d_ents d_open].
      repeat split; try assumption. intros s Q. injection Q as <-. now left.
    + apply String.eqb_neq in E. assert (NI : ~ In n (DEFAULT :: d_heads d)) by (cbn; intros [Q|Q]; [congruence|destruct G; [congruence|contradiction]]).
      assert (K : known n (ps_sections ps) = false).
      { rewrite S. unfold known. rewrite lookup_table. now destruct (in_dec string_dec n (DEFAULT :: d_heads d)). }
      rewrite K. eexists. split; [reflexivity|]. unfold follows. cbn [ps_sections ps_current ps_option ps_indent ps_bad d_heads d_cur d_ents d_open].
      change (DEFAULT :: d_heads d ++ [n])%list with ((DEFAULT :: d_heads d) ++ [n])%list.
      split; [|split; [reflexivity|split; [reflexivity|split; [exact B|split; [|split; [exact NE|split; [|split; [|reflexivity]]]]]]]].
      * rewrite S, map_app. cbn [map]. f_equal. f_equal. f_equal.
        destruct (opts n (d_ents d)) as [|[k ls] r] eqn:Q; [reflexivity|exfalso]. apply NI. apply (EI (n, k)). rewrite <- opts_keys, Q. now left.
      * apply NoDup_app_one; assumption.
      * intros s Q. injection Q as <-. apply in_or_app. right. now left.
      * intros e Ie. apply in_or_app. left. now apply EI.
  - destruct W as (N & TK & HK & AK & BK & Bb & D & Bb' & TV & HV & T). destruct (entry_text k b dl b' v t T Bb') as (t' & T' & ET). cbn [item_text] in ET. rewrite ET.
    rewrite (unindented _ t' ps d F (entry_content_ok k b dl b' v N TK HK BK Bb D Bb' TV HV) T').
    destruct (entry_parsed k b dl b' v N TK AK BK Bb D Bb' TV) as (SH & r & SO & RK & SR). unfold header_or_option. rewrite SH, SO.
    destruct F as (S & C & I & B & ND & NE & CU & EI & O). destruct G as (s & Gs & Gn). rewrite C, Gs, RK, SR. pose proof (CU s Gs) as Is.
    assert (KN : match lookup s (ps_sections ps) with Some l => known (lower k) l | None => false end = false).
    { rewrite S, lookup_table. destruct (in_dec string_dec s (DEFAULT :: d_heads d)) as [_|n]; [|contradiction].
      destruct (known (lower k) (opts s (d_ents d))) eqn:Q; [|reflexivity]. apply known_keys, opts_keys in Q. contradiction. }
    rewrite KN. eexists. split; [reflexivity|]. unfold follows. cbn [ps_sections ps_current ps_option ps_indent ps_bad d_heads d_cur d_ents d_open cur_name].
    split; [|split; [congruence|split; [reflexivity|split; [|split; [exact ND|split; [|split; [rewrite <- Gs; exact CU|split; [|]]]]]]]].
    + rewrite S, alter_table by exact ND. apply map_ext. intros y. f_equal. rewrite opts_app, opts_one, (String.eqb_sym y s). destruct (String.eqb s y); [reflexivity|now rewrite app_nil_r].
    + rewrite B. cbn [orb]. destruct k; [congruence|reflexivity].
    + rewrite map_app. cbn [map fst]. apply NoDup_app_one; assumption.
    + intros e Ie. rewrite map_app in Ie. apply in_app_or in Ie as [Ie|[<-|[]]]; [now apply EI|exact Is].
    + exists (d_ents d), s, (lower k), [v]. repeat split; try (now rewrite ?Gs). destruct k; [congruence|discriminate].
  - destruct W as (N & B & NS & TS & HS & BS & T). destruct (continue_follows ps d s F G) as (sec & OO & FF). cbn [goes] in G. rewrite G.
    exists (continue_value sec s ps). split; [|exact FF]. rewrite !app_assoc_s. rewrite content_read; [|exact B| |exact T].
    + rewrite OO. destruct F as (_ & _ & I & _). rewrite I. destruct b; [congruence|reflexivity].
    + split; [exact NS|]. split; [exact TS|]. split; [now apply no_comment_flag|exact BS].
Qed.

(** ** The text as lines *)

Lemma universal_app : forall a b, one_line a -> universal (a ++ newline ++ b) = a ++ newline ++ universal b.
Proof.
  induction a as [|c a IH]; intros b H; [reflexivity|]. apply all_cons in H as [[_ C] H]. rewrite !app_cons. cbn [universal].
  destruct (Ascii.eqb c CR) eqn:E; [apply Ascii.eqb_eq in E as ->; exfalso; now apply C|]. f_equal. now apply IH.
Qed.

Lemma file_lines_app : forall a b, one_line a -> file_lines (a ++ newline ++ b) = (a ++ newline) :: file_lines b.
Proof.
  induction a as [|c a IH]; intros b H; [reflexivity|]. apply all_cons in H as [[C _] H]. rewrite !app_cons. cbn [file_lines].
  destruct (Ascii.eqb c LF) eqn:E; [apply Ascii.eqb_eq in E as ->; exfalso; now apply C|]. now rewrite (IH b H).
Qed.

Definition line_text (i : item) : string := item_text i ++ newline.

Lemma text_lines : forall l rest, Forall well_formed l ->
  file_lines (universal (text_of l ++ rest)) = (map line_text l ++ file_lines (universal rest))%list.
Proof.
  induction l as [|i l IH]; intros rest W; [reflexivity|]. inversion W as [|? ? Wi Wl]; subst. cbn [text_of fold_right map List.app].
  change (fold_right _ "" l) with (text_of l). rewrite !app_assoc_s, universal_app, file_lines_app by apply Wi. now rewrite IH.
Qed.

Lemma read_lines_app : forall a b ps, read_lines (a ++ b)%list ps = match read_lines a ps with Done ps' => read_lines b ps' | Fail e => Fail e end.
Proof. induction a as [|x a IH]; intros b ps; [reflexivity|]. cbn [List.app read_lines]. destruct (read_line x ps); [apply IH|reflexivity]. Qed.

(** ** The document and the specification *)

Lemma grown_snoc : forall l i d, grown d (l ++ [i])%list = grow (grown d l) i.
Proof. intros l i d. unfold grown. now rewrite fold_left_app. Qed.

Lemma grown_cur : forall l d, d_cur (grown d l) = current (d_cur d) l.
Proof.
  induction l as [|i l IH]; intros d; [reflexivity|]. change (grown d (i :: l)) with (grown (grow d i) l). rewrite IH.
  destruct i; cbn [grow current d_cur]; try reflexivity; destruct (d_open d); reflexivity.
Qed.

Lemma grown_open : forall l d, d_open (grown d l) = in_entry (d_open d) l.
Proof.
  induction l as [|i l IH]; intros d; [reflexivity|]. change (grown d (i :: l)) with (grown (grow d i) l). rewrite IH.
  destruct i; cbn [grow in_entry d_open]; try reflexivity; destruct (d_open d) eqn:E; cbn [d_open]; now rewrite ?E.
Qed.

Lemma grown_heads : forall l d n, In n (d_heads (grown d l)) <-> In n (d_heads d) \/ (n <> "DEFAULT" /\ In n (header_names l)).
Proof.
  induction l as [|i l IH]; intros d n; [cbn; tauto|]. change (grown d (i :: l)) with (grown (grow d i) l). rewrite IH.
  destruct i as [b|b m t|h t|k b dl b' v t|b s t]; cbn [grow header_names d_heads]; try tauto; try (destruct (d_open d); cbn [d_heads]; tauto).
  destruct (String.eqb h "DEFAULT") eqn:E.
  - apply String.eqb_eq in E as ->. cbn [In]. intuition congruence.
  - apply String.eqb_neq in E. rewrite in_app_iff. cbn [In]. intuition congruence.
Qed.

Definition finished (e : string * string * list string) : string * string * string := (fst (fst e), snd (fst e), joined (snd e)).

Lemma concat_snoc : forall sep l x, l <> [] -> String.concat sep (l ++ [x])%list = String.concat sep l ++ sep ++ x.
Proof.
  induction l as [|y l IH]; intros x N; [congruence|]. destruct l as [|z l]; [reflexivity|].
  transitivity (y ++ sep ++ String.concat sep ((z :: l) ++ [x])%list); [reflexivity|]. rewrite IH by discriminate.
  transitivity ((y ++ sep ++ String.concat sep (z :: l)) ++ sep ++ x); [|reflexivity]. now rewrite !app_assoc_s.
Qed.

(** A value is its text so far and the empty lines after it. *)
Definition so_far (ls : list string) (core pend : string) : Prop :=
  ls <> [] /\ String.concat newline_text ls = core ++ pend /\ blanks pend /\ ~ ends blank_char core.

Lemma so_far_joined : forall ls core pend, so_far ls core pend -> joined ls = core.
Proof.
  intros ls core pend (_ & E & B & N). unfold joined. rewrite E. destruct core as [|c core]; [now apply rstrip_blanks|]. now apply strip_right; [discriminate| |].
Qed.

Lemma nothing_ends : forall P, ~ ends P "".
Proof. intros P (r & c & E & _). destruct r; discriminate. Qed.

Lemma new_so_far : forall v, trimmed v -> so_far [v] v "".
Proof. intros v T. split; [discriminate|]. split; [cbn; now rewrite app_nil|]. split; [constructor|apply T]. Qed.

Lemma grown_settings : forall l, Forall well_formed l ->
  (forall h c ents, map finished (d_ents (grown (mkDoc h c ents false) l)) = (map finished ents ++ settings (cur_name c) l)%list) /\
  (forall h c ents a k ls core pend, so_far ls core pend ->
     map finished (d_ents (grown (mkDoc h c (ents ++ [(a, k, ls)])%list true) l)) = (map finished ents ++ (a, k, (core ++ continuation pend l)%string) :: settings (cur_name c) l)%list).
Proof.
  induction l as [|i l IH]; intros W.
  - split; [intros; cbn; now rewrite app_nil_r|]. intros h c ents a k ls core pend S. cbn [grown fold_left d_ents continuation settings]. rewrite map_app. cbn [map].
    unfold finished at 2. cbn [fst snd]. now rewrite (so_far_joined _ _ _ S), app_nil.
  - inversion W as [|? ? [_ Wi] Wl]; subst. destruct (IH Wl) as [IC IO]. split.
    + intros h c ents. change (grown (mkDoc h c ents false) (i :: l)) with (grown (grow (mkDoc h c ents false) i) l).
      destruct i as [b|b m t|n t|key b dl b' v t|b s t]; cbn [grow d_open d_heads d_cur d_ents settings cur_name]; try apply IC.
      rewrite (IO h c ents (cur_name c) (lower key) [v] v ""); [reflexivity|]. apply new_so_far, Wi.
    + intros h c ents a k ls core pend S. change (grown (mkDoc h c (ents ++ [(a, k, ls)])%list true) (i :: l)) with (grown (grow (mkDoc h c (ents ++ [(a, k, ls)])%list true) i) l).
      destruct i as [b|b m t|n t|key b dl b' v t|b s t]; cbn [grow d_open d_heads d_cur d_ents settings cur_name continuation].
      * rewrite add_line_last. apply IO. destruct S as (N & E & B & NE). split; [destruct ls; discriminate|]. rewrite concat_snoc by exact N.
        rewrite E. split; [now rewrite app_assoc_s|]. split; [apply blanks_app; split; [exact B|exact newline_blank]|exact NE].
      * now apply IO.
      * rewrite IC, map_app, <- app_assoc. cbn [map List.app cur_name]. unfold finished at 2. cbn [fst snd]. now rewrite (so_far_joined _ _ _ S), app_nil.
      * rewrite (IO h c (ents ++ [(a, k, ls)])%list (cur_name c) (lower key) [v] v "") by (apply new_so_far, Wi).
        rewrite map_app, <- app_assoc. cbn [map List.app]. unfold finished at 2. cbn [fst snd]. now rewrite (so_far_joined _ _ _ S), app_nil.
      * rewrite add_line_last. rewrite (IO h c ents a k (ls ++ [s])%list (core ++ pend ++ newline ++ s) "").
        { now rewrite !app_assoc_s. }
        destruct S as (N & E & B & NE). split; [destruct ls; discriminate|]. rewrite concat_snoc by exact N. rewrite E.
        split; [now rewrite app_nil, !app_assoc_s|]. split; [constructor|]. destruct Wi as (_ & _ & Ns & [_ Ts] & _).
        intros Q. apply Ts. apply ends_app in Q; [|destruct pend; discriminate]. apply ends_app in Q; [|discriminate]. now apply ends_app in Q.
Qed.

Lemma doc_settings : forall l, Forall well_formed l -> map finished (d_ents (grown no_doc l)) = settings_of l.
Proof. intros l W. exact (proj1 (grown_settings l W) [] None []). Qed.

Lemma doc_pairs : forall l s k, Forall well_formed l -> In (s, k) (map fst (d_ents (grown no_doc l))) <-> exists v, In (s, k, v) (settings_of l).
Proof.
  intros l s k W. rewrite <- (doc_settings l W). rewrite in_map_iff. setoid_rewrite in_map_iff. split.
  - intros ([[a b] ls] & E & I). cbn in E. injection E as -> ->. exists (joined ls), (s, k, ls). now split.
  - intros (v & [[a b] ls] & E & I). unfold finished in E. cbn in E. injection E as -> -> _. exists (s, k, ls). now split.
Qed.

Lemma accepted_forms : forall l, accepted l -> Forall well_formed l.
Proof. induction 1 as [|l i A IH W _ _]; [constructor|]. apply Forall_app. now split; [|constructor]. Qed.

(** What is not refused goes. *)
Lemma not_offending : forall l i, Forall well_formed l -> (forall e, ~ offends l i e) -> (is_more i = true -> in_entry false l = true) -> goes (grown no_doc l) i.
Proof.
  intros l i W N M. destruct i as [b|b m t|n t|k b dl b' v t|b s t]; cbn [goes]; try exact I.
  - destruct (string_dec n "DEFAULT") as [E|E]; [now left|]. right. rewrite grown_heads. intros [[]|[_ Q]]. now apply (N DuplicateSection (SectionAgain l n t E Q)).
  - rewrite grown_cur. cbn [no_doc d_cur]. destruct (current None l) as [s|] eqn:C; [|exfalso; now apply (N MissingHeader (EntryOutside l k b dl b' v t C))].
    exists s. split; [reflexivity|]. rewrite (doc_pairs l s (lower k) W). intros (w & Q). now apply (N DuplicateOption (KeyAgain l s k b dl b' v t w C Q)).
  - rewrite grown_open. now apply M.
Qed.

Lemma new_follows : follows new_parser no_doc.
Proof. unfold follows, new_parser, no_doc. cbn. repeat split; try reflexivity; try discriminate; try tauto; [repeat constructor; tauto|constructor]. Qed.

Lemma accepted_read : forall l, accepted l -> exists ps, read_lines (map line_text l) new_parser = Done ps /\ follows ps (grown no_doc l).
Proof.
  induction 1 as [|l i A (ps & R & F) W N M]; [exists new_parser; split; [reflexivity|exact new_follows]|].
  destruct (step_follows ps _ i F W (not_offending l i (accepted_forms l A) N M)) as (ps' & R' & F'). exists ps'.
  rewrite map_app, read_lines_app, R, grown_snoc. cbn [map read_lines]. unfold line_text. rewrite R'. now split.
Qed.

(** ** C56 *)

Lemma offending_read : forall l i e ps, Forall well_formed l -> well_formed i -> offends l i e -> follows ps (grown no_doc l) -> read_line (item_text i ++ newline) ps = Fail e.
Proof.
  intros l i e ps WL (_ & W) O F. destruct O as [k b dl b' v t C|n t E I|s k b dl b' v t w C I].
  - destruct W as (N & TK & HK & AK & BK & Bb & D & Bb' & TV & HV & T). destruct (entry_text k b dl b' v t T Bb') as (t' & T' & ET). rewrite ET.
    rewrite (unindented _ t' ps _ F (entry_content_ok k b dl b' v N TK HK BK Bb D Bb' TV HV) T').
    destruct (entry_parsed k b dl b' v N TK AK BK Bb D Bb' TV) as (SH & r & SO & RK & SR). unfold header_or_option. rewrite SH.
    destruct F as (_ & Q & _). rewrite grown_cur in Q. cbn [no_doc d_cur] in Q. now rewrite Q, C.
  - destruct W as (N & H & T). cbn [item_text]. replace (("[" ++ n ++ "]" ++ t) ++ newline) with (("[" ++ n ++ "]") ++ t ++ newline) by (now repeat (rewrite app_assoc_s || rewrite app_cons)).
    rewrite (unindented _ t ps _ F (header_content n N H) T). unfold header_or_option. rewrite header_parsed by exact N.
    change DEFAULT with "DEFAULT". pose proof E as E'. apply String.eqb_neq in E'. rewrite E'. destruct F as (S & _). unfold known. rewrite S, lookup_table.
    destruct (in_dec string_dec n (DEFAULT :: d_heads (grown no_doc l))) as [_|Q]; [reflexivity|]. exfalso. apply Q. right. apply grown_heads. right. now split.
  - destruct W as (N & TK & HK & AK & BK & Bb & D & Bb' & TV & HV & T). destruct (entry_text k b dl b' v t T Bb') as (t' & T' & ET). rewrite ET.
    rewrite (unindented _ t' ps _ F (entry_content_ok k b dl b' v N TK HK BK Bb D Bb' TV HV) T').
    destruct (entry_parsed k b dl b' v N TK AK BK Bb D Bb' TV) as (SH & r & SO & RK & SR). unfold header_or_option. rewrite SH, SO.
    destruct F as (S & Q & _ & _ & _ & _ & CU & _). assert (Q' : d_cur (grown no_doc l) = Some s) by (now rewrite grown_cur). rewrite Q, Q', RK.
    rewrite S, lookup_table. destruct (in_dec string_dec s (DEFAULT :: d_heads (grown no_doc l))) as [_|X]; [|exfalso; apply X; now apply CU].
    assert (K : known (lower k) (opts s (d_ents (grown no_doc l))) = true) by (apply known_keys, opts_keys, doc_pairs; [exact WL|now exists w]). now rewrite K.
Qed.

(** A section, a key or an entry in the wrong place is refused whatever comes after it. *)
Theorem C56_refuses : forall l i e rest, accepted l -> well_formed i -> offends l i e ->
  read_config (Some (text_of (l ++ [i]) ++ rest)) = Fail e.
Proof.
  intros l i e rest A W O. destruct (accepted_read l A) as (ps & R & F). cbn [read_config]. unfold read_text.
  rewrite text_lines by (apply Forall_app; split; [now apply accepted_forms|now constructor]). rewrite map_app, !read_lines_app, R. cbn [map read_lines]. unfold line_text.
  now rewrite (offending_read l i e ps (accepted_forms l A) W O F).
Qed.
Print Assumptions C56_refuses.

(** Every file of such lines is accepted, or refused at its first offending line. *)
Theorem C56_accepted_or_refused : forall l, Forall well_formed l -> (forall a i b, l = (a ++ i :: b)%list -> is_more i = true -> in_entry false a = true) ->
  accepted l \/ exists a i b e, l = (a ++ i :: b)%list /\ accepted a /\ offends a i e.
Proof.
  intros l. induction l as [|i l IH] using rev_ind; intros W M; [left; constructor|]. apply Forall_app in W as [W Wi]. inversion Wi as [|? ? Hi _]; subst.
  destruct IH as [A|(a & j & b & e & -> & A & O)]; [exact W| | |].
  - intros a j b E J. apply (M a j (b ++ [i])%list); [now rewrite E, <- app_assoc|exact J].
  - assert (D : (exists e, offends l i e) \/ forall e, ~ offends l i e).
    { destruct i as [b|b m t|n t|k b dl b' v t|b s t]; try (right; intros e O; inversion O; fail).
      - destruct (string_dec n "DEFAULT") as [E|E]; [right; intros e O; inversion O; congruence|].
        destruct (in_dec string_dec n (header_names l)) as [I|I]; [left; eexists; now apply SectionAgain|right; intros e O; now inversion O].
      - destruct (current None l) as [s|] eqn:C; [|left; eexists; now apply EntryOutside].
        destruct (in_dec string_dec (lower k) (map (fun x => snd (fst x)) (filter (fun x => String.eqb (fst (fst x)) s) (settings_of l)))) as [I|I].
        + left. apply in_map_iff in I as ([[s' k'] w] & E & I). apply filter_In in I as [I Q]. cbn in E, Q. apply String.eqb_eq in Q. subst s' k'. eexists. eapply KeyAgain; eassumption.
        + right. intros e O. inversion O as [|? ? ? ?|s' ? ? ? ? ? ? w C' I']; subst; [congruence|]. rewrite C in C'. injection C' as <-. apply I.
          apply in_map_iff. exists (s, lower k, w). split; [reflexivity|]. apply filter_In. split; [exact I'|]. apply String.eqb_refl. }
    destruct D as [(e & O)|N]; [right; now exists l, i, [], e|left]. constructor; [exact A|exact Hi|exact N|]. intros J. now apply (M l i []).
  - right. exists a, j, (b ++ [i])%list, e. split; [now rewrite <- app_assoc|now split].
Qed.
Print Assumptions C56_accepted_or_refused.

Lemma lookup_in : forall A k (v : A) l, NoDup (map fst l) -> lookup k l = Some v <-> In (k, v) l.
Proof.
  induction l as [|[k' v'] l IH]; intros N; cbn [lookup In map fst] in *; [split; [discriminate|tauto]|]. inversion N as [|? ? NI N']; subst.
  destruct (String.eqb k k') eqn:E.
  - apply String.eqb_eq in E as ->. split; [intros H; injection H as ->; now left|]. intros [H|H]; [now injection H as ->|]. exfalso. apply NI. apply in_map_iff. now exists (k', v).
  - apply String.eqb_neq in E. rewrite (IH N'). split; [now right|]. intros [H|H]; [congruence|exact H].
Qed.

Definition final_options (s : string) (es : list (string * string * list string)) : list (string * string) := map (fun x => (fst x, joined (snd x))) (opts s es).

Lemma final_lookup : forall s k v es, NoDup (map fst es) -> lookup k (final_options s es) = Some v <-> In (s, k, v) (map finished es).
Proof.
  intros s k v es N. rewrite lookup_in.
  - unfold final_options, opts. rewrite map_map. cbn [fst snd]. rewrite !in_map_iff. split.
    + intros ([[a b] ls] & E & I). apply filter_In in I as [I Q]. cbn in E, Q. apply String.eqb_eq in Q as ->. injection E as -> <-. exists (s, k, ls). now split.
    + intros ([[a b] ls] & E & I). unfold finished in E. cbn in E. injection E as -> -> <-. exists (s, k, ls). split; [reflexivity|]. apply filter_In. split; [exact I|apply String.eqb_refl].
  - unfold final_options, opts. rewrite !map_map. cbn [fst]. clear k v. induction es as [|[[a b] ls] es IH]; [constructor|]. cbn [map fst] in N. inversion N as [|? ? NI N']; subst.
    cbn [filter fst]. destruct (String.eqb a s) eqn:E; [|now apply IH]. apply String.eqb_eq in E as ->. cbn [map fst snd]. constructor; [|now apply IH].
    intros Q. apply in_map_iff in Q as ([[a' b'] ls'] & E & I). apply filter_In in I as [I Q]. cbn in E, Q. apply String.eqb_eq in Q. subst a' b'. apply NI. apply in_map_iff. now exists (s, b, ls').
Qed.

Definition config_of (d : Doc) : Config := map (fun s => (s, final_options s (d_ents d))) (DEFAULT :: d_heads d).

Lemma accepted_config : forall l, accepted l -> read_config (Some (text_of l)) = Done (config_of (grown no_doc l)) /\ NoDup (map fst (d_ents (grown no_doc l))).
Proof.
  intros l A. destruct (accepted_read l A) as (ps & R & S & _ & _ & B & _ & NE & _). split; [|exact NE]. cbn [read_config]. unfold read_text.
  rewrite <- (app_nil (text_of l)), text_lines by (now apply accepted_forms). change (file_lines (universal "")) with (@nil string). rewrite app_nil_r, R, B, S. f_equal.
  rewrite map_map. reflexivity.
Qed.

Lemma plain_percent : forall v, plain v -> has_percent v = false.
Proof.
  induction v as [|c v IH]; intros P; [reflexivity|]. apply all_cons in P as [C P]. cbn [has_percent]. rewrite (IH P), orb_false_r. now apply Ascii.eqb_neq.
Qed.

Section Lookup.
Variables (l : list item).
Hypothesis A : accepted l.
Let c := config_of (grown no_doc l).

Lemma lookup_config : forall s, lookup s c = if in_dec string_dec s (DEFAULT :: d_heads (grown no_doc l)) then Some (final_options s (d_ents (grown no_doc l))) else None.
Proof. intros s. unfold c, config_of. apply lookup_table. Qed.

Lemma section_known : forall s, In s (DEFAULT :: d_heads (grown no_doc l)) <-> has_section l s.
Proof.
  intros s. unfold has_section. cbn [In]. rewrite grown_heads. change DEFAULT with "DEFAULT". cbn [no_doc d_heads In].
  destruct (string_dec s "DEFAULT") as [->|N]; intuition congruence.
Qed.

Lemma option_found : forall s k v, lookup k (final_options s (d_ents (grown no_doc l))) = Some v <-> In (s, k, v) (settings_of l).
Proof. intros s k v. rewrite final_lookup by (now apply accepted_config). now rewrite doc_settings by (now apply accepted_forms). Qed.

Lemma get_none : forall s k, ~ has_section l s -> get c s k = Fail NoSection.
Proof. intros s k H. unfold get. rewrite lookup_config. destruct (in_dec _ s _) as [i|_]; [|reflexivity]. exfalso. now apply H, section_known. Qed.

Lemma get_found : forall s k, has_section l s ->
  (forall v, set_to l s k v -> get c s k = if has_percent v then Fail Interpolated else Done v) /\
  ((forall v, ~ set_to l s k v) -> get c s k = Fail NoOption).
Proof.
  intros s k H. unfold get. rewrite !lookup_config. destruct (in_dec _ s _) as [_|n]; [|exfalso; now apply n, section_known].
  destruct (in_dec _ DEFAULT _) as [_|n]; [|exfalso; apply n; now left]. cbv zeta.
  destruct (lookup (lower k) (final_options s _)) as [w|] eqn:E1.
  - apply option_found in E1. split.
    + intros v [I|(_ & N)]; [|exfalso; now apply (N w)]. apply option_found in I, E1. rewrite I in E1. now injection E1 as ->.
    + intros N. exfalso. apply (N w). now left.
  - assert (NO : forall w, ~ In (s, lower k, w) (settings_of l)) by (intros w I; apply option_found in I; congruence).
    destruct (lookup (lower k) (final_options DEFAULT _)) as [w|] eqn:E2.
    + apply option_found in E2. split.
      * intros v [I|(I & _)]; [exfalso; now apply (NO v)|]. apply option_found in I, E2. change "DEFAULT" with DEFAULT in I. rewrite I in E2. now injection E2 as ->.
      * intros N. exfalso. apply (N w). right. now split.
    + split; [|reflexivity]. intros v [I|(I & _)]; [exfalso; now apply (NO v)|]. apply option_found in I. change "DEFAULT" with DEFAULT in I. congruence.
Qed.
End Lookup.

(** What is read is what is written. *)
Theorem C56_getfloat : forall l, accepted l -> exists c, read_config (Some (text_of l)) = Done c /\ forall s k,
  (~ has_section l s -> getfloat c s k = Fail NoSection) /\
  (has_section l s -> (forall v, ~ set_to l s k v) -> getfloat c s k = Fail NoOption) /\
  (forall v, has_section l s -> set_to l s k v -> plain v ->
     (forall x, number v x -> getfloat c s k = Done x) /\ ((forall x, ~ number v x) -> getfloat c s k = Fail NotANumber)).
Proof.
  intros l A. exists (config_of (grown no_doc l)). split; [now apply accepted_config|]. intros s k. unfold getfloat. split; [|split].
  - intros H. now rewrite (get_none l s k H).
  - intros H N. now rewrite (proj2 (get_found l A s k H) N).
  - intros v H S P. rewrite (proj1 (get_found l A s k H) v S), (plain_percent v P). split.
    + intros x X. apply C50_float in X. now rewrite X.
    + intros N. destruct (py_float v) as [x|] eqn:E; [|reflexivity]. exfalso. apply (N x). now apply C50_float.
Qed.
Print Assumptions C56_getfloat.

(** Comments, blank lines, the order of entries and sections, capital letters in keys and the spacing do not matter. *)
Theorem C56_layout : forall l l' c c', accepted l -> accepted l' -> read_config (Some (text_of l)) = Done c -> read_config (Some (text_of l')) = Done c' ->
  (forall x, In x (settings_of l) <-> In x (settings_of l')) -> (forall s, has_section l s <-> has_section l' s) ->
  forall s k k', lower k = lower k' -> get c s k = get c' s k'.
Proof.
  intros l l' c c' A A' R R' S H s k k' K. rewrite (proj1 (accepted_config l A)) in R. rewrite (proj1 (accepted_config l' A')) in R'. injection R as <-. injection R' as <-.
  assert (ST : forall v, set_to l s k v <-> set_to l' s k' v) by (intros v; unfold set_to; rewrite K; setoid_rewrite S; reflexivity).
  destruct (in_dec string_dec s (DEFAULT :: d_heads (grown no_doc l))) as [i|n].
  - apply section_known in i. pose proof (proj1 (H s) i) as i'. destruct (get_found l A s k i) as [F N]. destruct (get_found l' A' s k' i') as [F' N'].
    assert (D : (exists v, set_to l s k v) \/ forall v, ~ set_to l s k v).
    { destruct (lookup (lower k) (final_options s (d_ents (grown no_doc l)))) as [w|] eqn:E1; [left; exists w; left; now apply option_found|].
      assert (NO : forall w, ~ In (s, lower k, w) (settings_of l)) by (intros w I; apply option_found in I; [congruence|exact A]).
      destruct (lookup (lower k) (final_options DEFAULT (d_ents (grown no_doc l)))) as [w|] eqn:E2; [left; exists w; right; split; [now apply option_found in E2|exact NO]|].
      right. intros v [I|(I & _)]; [now apply (NO v)|]. apply option_found in I; [|exact A]. change "DEFAULT" with DEFAULT in I. congruence. }
    destruct D as [(v & V)|V]; [rewrite (F v V); symmetry; apply F'; now apply ST|]. rewrite (N V). symmetry. apply N'. intros v Q. now apply (V v), ST.
  - assert (n1 : ~ has_section l s) by (now rewrite <- section_known). assert (n2 : ~ has_section l' s) by (now rewrite <- H).
    now rewrite (get_none l s k n1), (get_none l' s k' n2).
Qed.
Print Assumptions C56_layout.

Lemma percent_plain : forall v, has_percent v = false -> plain v.
Proof.
  induction v as [|c v IH]; intros P; [constructor|]. cbn [has_percent] in P. apply orb_false_iff in P as [C P]. apply all_cons. split; [now apply Ascii.eqb_neq|now apply IH].
Qed.

Lemma set_or_not : forall l s k, accepted l -> (exists v, set_to l s k v) \/ forall v, ~ set_to l s k v.
Proof.
  intros l s k A. destruct (lookup (lower k) (final_options s (d_ents (grown no_doc l)))) as [w|] eqn:E1; [left; exists w; left; now apply option_found|].
  assert (NO : forall w, ~ In (s, lower k, w) (settings_of l)) by (intros w I; apply option_found in I; [congruence|exact A]).
  destruct (lookup (lower k) (final_options DEFAULT (d_ents (grown no_doc l)))) as [w|] eqn:E2; [left; exists w; right; split; [now apply option_found in E2|exact NO]|].
  right. intros v [I|(I & _)]; [now apply (NO v)|]. apply option_found in I; [|exact A]. change "DEFAULT" with DEFAULT in I. congruence.
Qed.

(** A script gets its constants exactly if all of them are set to numbers. *)
Theorem C56_constants : forall l keys xs, accepted l ->
  script_constants (Some (text_of l)) keys = Done xs <->
  Forall2 (fun key x => has_section l (fst key) /\ exists v, set_to l (fst key) (snd key) v /\ plain v /\ number v x) keys xs.
Proof.
  intros l keys xs A. unfold script_constants. rewrite (proj1 (accepted_config l A)).
  assert (G : forall s k x, getfloat (config_of (grown no_doc l)) s k = Done x <-> has_section l s /\ exists v, set_to l s k v /\ plain v /\ number v x).
  { intros s k x. unfold getfloat. split.
    - intros H. destruct (in_dec string_dec s (DEFAULT :: d_heads (grown no_doc l))) as [i|n].
      + apply section_known in i. split; [exact i|]. destruct (get_found l A s k i) as [F N]. destruct (set_or_not l s k A) as [(v & V)|V].
        * rewrite (F v V) in H. destruct (has_percent v) eqn:P; [discriminate|]. destruct (py_float v) as [y|] eqn:Y; [|discriminate]. injection H as ->.
          exists v. split; [exact V|]. split; [now apply percent_plain|now apply C50_float].
        * rewrite (N V) in H. discriminate.
      + rewrite section_known in n. rewrite (get_none l s k n) in H. discriminate.
    - intros (i & v & V & P & X). rewrite (proj1 (get_found l A s k i) v V), (plain_percent v P). apply C50_float in X. now rewrite X. }
  revert xs. induction keys as [|[s k] keys IH]; intros xs; cbn [getfloats].
  - split; [intros H; injection H as <-; constructor|]. intros H. now inversion H.
  - split.
    + intros H. destruct (getfloat _ s k) as [x|] eqn:E; [|discriminate]. destruct (getfloats _ keys) as [ys|] eqn:E'; [|discriminate]. injection H as <-. constructor; [now apply G|now apply IH].
    + intros H. inversion H as [|? x ? ys HX HY]; subst. apply G in HX. apply IH in HY. cbn [fst snd] in HX. now rewrite HX, HY.
Qed.
Print Assumptions C56_constants.

(** A missing file is not noticed when it is read, but by the first constant asked for. *)
Theorem C56_missing_file : read_config None = Done [("DEFAULT", [])] /\
  forall s k keys, s <> "DEFAULT" -> script_constants None ((s, k) :: keys) = Fail NoSection.
Proof.
  split; [reflexivity|]. intros s k keys N. cbn [script_constants read_config getfloats]. unfold getfloat, get, empty_config. cbn [lookup].
  apply String.eqb_neq in N. change DEFAULT with "DEFAULT". now rewrite N.
Qed.
Print Assumptions C56_missing_file.

(** *** Values that are no numbers *)

Lemma number_no_hash : forall v x, number v x -> all_chars (fun c => c <> "#"%char) v.
Proof.
  assert (DG : forall l, all_digits l -> all_chars (fun c => c <> "#"%char) (digits l)).
  { induction l as [|n l IH]; intros H; [constructor|]. rewrite digits_cons. apply all_cons. inversion H as [|? ? Hn Hl]; subst. split; [|now apply IH].
    do 10 (destruct n as [|n]; [discriminate|]). lia. }
  assert (BL : forall b, blanks b -> all_chars (fun c => c <> "#"%char) b).
  { unfold blanks, all_chars. intros b. apply Forall_impl. intros c B ->. unfold blank_codes in B. cbn in B. lia. }
  assert (SG : forall s v, sign_text s v -> all_chars (fun c => c <> "#"%char) s) by (intros s v []; repeat constructor; discriminate).
  intros v x (b & sg & m & e & b' & vs & vm & ve & -> & B & B' & S & M & E & _).
  apply all_app. split; [now apply BL|]. apply all_app. split; [eapply SG; exact S|]. apply all_app. split; [|apply all_app; split; [|now apply BL]].
  - destruct M as [w W _|w f W F _]; [now apply DG|]. unfold decimal. apply all_app. split; [now apply DG|]. apply all_app. split; [repeat constructor; discriminate|now apply DG].
  - destruct E as [|c s d k C Sd D _ _|c s d k C Sd D _ _]; [constructor| |]; apply all_cons; (split; [destruct C as [-> | ->]; discriminate|]); apply all_app; (split; [eapply SG; exact Sd|now apply DG]).
Qed.

(** A comment that touches the value becomes part of it. *)
Theorem C56_glued_comment : forall l s k v text, accepted l -> has_section l s -> set_to l s k (v ++ "#" ++ text) -> plain (v ++ "#" ++ text) ->
  exists c, read_config (Some (text_of l)) = Done c /\ getfloat c s k = Fail NotANumber.
Proof.
  intros l s k v text A H S P. destruct (C56_getfloat l A) as (c & R & G). exists c. split; [exact R|]. apply (G s k) with (v := v ++ "#" ++ text); try assumption.
  intros x X. apply number_no_hash in X. apply all_app in X as [_ X]. apply all_app in X as [X _]. apply all_cons in X as [X _]. congruence.
Qed.
Print Assumptions C56_glued_comment.

Lemma number_no_newline : forall a b x, a <> "" -> b <> "" -> trimmed a -> ~ ends blank_char b -> ~ number (a ++ newline ++ b) x.
Proof.
  intros [|c a] b x Na Nb Ta Tb (bl & sg & m & e & bl' & vs & vm & ve & E & B & B' & S & M & Sc & _); [congruence|].
  assert (bl = "") as ->.
  { destruct bl as [|d bl]; [reflexivity|exfalso]. rewrite !app_cons in E. injection E as -> _. apply all_cons in B as [D _]. apply (proj1 Ta). now exists d, a. }
  assert (bl' = "") as ->.
  { destruct bl' as [|d bl']; [reflexivity|exfalso]. destruct (last_char (String d bl')) as (r & y & Q); [discriminate|]. rewrite Q in *. apply Tb.
    apply (ends_app blank_char (String c a ++ newline)); [exact Nb|]. rewrite app_assoc_s, E. change ("" ++ sg ++ m ++ e ++ r ++ String y "") with (sg ++ m ++ e ++ r ++ String y "").
    exists (sg ++ m ++ e ++ r), y. split; [now rewrite !app_assoc_s|]. apply blanks_app in B' as [_ B']. now apply all_cons in B' as [B' _]. }
  change ("" ++ sg ++ m ++ e ++ "") with (sg ++ m ++ e ++ "") in E. rewrite app_nil in E.
  assert (X : sound (sg ++ m ++ e)). { apply all_app. split; [eapply sign_sound; exact S|]. apply all_app. split; [eapply mantissa_sound; exact M|eapply scale_sound; exact Sc]. }
  rewrite <- E in X. apply all_app in X as [_ X]. apply all_app in X as [X _]. apply all_cons in X as [X _]. discriminate.
Qed.

Lemma settings_at : forall a o b k bk d b' v t, In (cur_name (current o a), lower k, v ++ continuation "" b) (settings (cur_name o) (a ++ Entry k bk d b' v t :: b)%list).
Proof.
  induction a as [|i a IH]; intros o b k bk d b' v t; [now left|]. cbn [List.app]. destruct i; cbn [settings current]; try (right; now apply IH); try (now apply IH).
  all: exact (IH (Some name) b k bk d b' v t).
Qed.

Lemma current_section : forall a o s, current o a = Some s -> o = Some s \/ In s (header_names a).
Proof.
  induction a as [|i a IH]; intros o s H; [now left|]. destruct i; cbn [current header_names] in *; try (now apply IH).
  right. destruct (IH _ _ H) as [E|I]; [left; now injection E|now right].
Qed.

Lemma header_names_app : forall a b, header_names (a ++ b)%list = (header_names a ++ header_names b)%list.
Proof. induction a as [|i a IH]; intros b; [reflexivity|]. destruct i; cbn [List.app header_names]; now rewrite IH. Qed.

Lemma accepted_all : forall l, accepted l -> Forall well_formed l.
Proof. induction 1; [constructor|]. apply Forall_app. split; [assumption|]. now constructor. Qed.

Lemma continuation_end : forall b, Forall well_formed b -> forall p, continuation p b = "" \/ ~ ends blank_char (continuation p b) /\ continuation p b <> "".
Proof.
  induction 1 as [|i b W F IH]; intros p; [now left|]. destruct i; cbn [continuation]; try (now left); try apply IH. right.
  destruct W as (_ & _ & _ & N & (_ & T) & _).
  assert (X : ~ ends blank_char (text ++ continuation "" b) /\ text ++ continuation "" b <> "").
  { destruct (IH "") as [E|(E & N')]; [rewrite E, app_nil; now split|]. split; [|destruct text; [congruence|discriminate]]. intros Q. apply E. now apply (ends_app blank_char text). }
  destruct X as [X X']. split; [|destruct p; discriminate]. intros Q. apply X. apply (ends_app blank_char newline); [exact X'|]. apply (ends_app blank_char p); [discriminate|exact Q].
Qed.

(** An indented line under a number is no line of its own: it becomes part of the value and spoils the number. *)
Theorem C56_indented_line : forall a b s k bk d b' v t ind text tl, accepted (a ++ Entry k bk d b' v t :: More ind text tl :: b)%list ->
  current None a = Some s -> v <> "" -> plain (v ++ newline ++ text ++ continuation "" b) ->
  exists c, read_config (Some (text_of (a ++ Entry k bk d b' v t :: More ind text tl :: b)%list)) = Done c /\ getfloat c s k = Fail NotANumber.
Proof.
  intros a b s k bk d b' v t ind text tl A C N P. destruct (C56_getfloat _ A) as (c & R & G). exists c. split; [exact R|].
  pose proof (accepted_all _ A) as F. apply Forall_app in F as [_ F]. inversion F as [|? ? W F']; subst. inversion F' as [|? ? W' F'']; subst.
  pose proof (settings_at a None (More ind text tl :: b) k bk d b' v t) as I. rewrite C in I. cbn [cur_name continuation] in I.
  apply (G s k) with (v := v ++ newline ++ text ++ continuation "" b).
  - right. rewrite header_names_app. apply in_or_app. left. destruct (current_section _ _ _ C) as [Q|Q]; [discriminate|exact Q].
  - left. exact I.
  - exact P.
  - destruct W as (_ & _ & _ & _ & _ & _ & _ & _ & _ & T & _). destruct W' as (_ & _ & _ & N' & (_ & T') & _).
    intros x. apply number_no_newline; [exact N| |exact T|].
    + destruct text; [congruence|discriminate].
    + destruct (continuation_end b F'' "") as [Q|(Q & Q')]; [now rewrite Q, app_nil|]. intros E. apply Q. now apply (ends_app blank_char text).
Qed.
Print Assumptions C56_indented_line.


(** *** Lines that are nothing *)

Lemma bad_stays : forall line ps ps', read_line line ps = Done ps' -> ps_bad ps = true -> ps_bad ps' = true.
Proof.
  intros line ps ps' H B.
  assert (HO : forall v n p, header_or_option v n ps = Done p -> ps_bad p = true).
  { clear H. intros v n p H. unfold header_or_option in H. destruct (section_header v) as [h|].
    - destruct (String.eqb h DEFAULT); [now injection H as <-|]. destruct (known h (ps_sections ps)); [discriminate|now injection H as <-].
    - destruct (ps_current ps) as [s|]; [|discriminate]. destruct (split_option v) as [[k w]|]; [|now injection H as <-].
      destruct (match lookup s (ps_sections ps) with Some l => known (lower (rstrip k)) l | None => false end); [discriminate|]. injection H as <-. cbn [ps_bad]. now rewrite B. }
  unfold read_line in H. destruct (String.eqb (if comment_line line then "" else strip (before_comment true line)) "").
  - injection H as <-. destruct (comment_line line || has_comment true line)%bool; [exact B|]. now destruct (open_option ps).
  - destruct (open_option ps) as [s|]; [|now apply HO in H]. destruct (Nat.ltb (ps_indent ps) (indentation line)); [now injection H as <-|now apply HO in H].
Qed.

Lemma bad_read : forall lines ps, ps_bad ps = true -> match read_lines lines ps with Done ps' => ps_bad ps' = true | Fail _ => True end.
Proof.
  induction lines as [|x l IH]; intros ps B; [exact B|]. cbn [read_lines]. destruct (read_line x ps) as [ps'|] eqn:E; [|exact I]. apply IH. eapply bad_stays; eassumption.
Qed.

(** A line without a delimiter in a section: the file is refused whatever comes after it. *)
Theorem C56_no_delimiter : forall l s x t rest, accepted l -> current None l = Some s -> x <> "" -> trimmed x -> no_comment x -> line_end t -> one_line (x ++ t) ->
  all_chars (fun c => ~ delimiter c) x -> ~ begins (fun c => c = "["%char \/ c = ";"%char) x ->
  exists e, read_config (Some (text_of l ++ x ++ t ++ newline ++ rest)) = Fail e.
Proof.
  intros l s x t rest A C N T H E O D B. destruct (accepted_read l A) as (ps & R & F). cbn [read_config]. unfold read_text.
  rewrite text_lines by (now apply accepted_forms). rewrite <- (app_assoc_s x t), universal_app, file_lines_app by exact O. rewrite read_lines_app, R. cbn [read_lines].
  assert (Q : content x). { split; [exact N|]. split; [exact T|]. split; [now apply no_comment_flag|]. intros (c & r & -> & ->). apply B. exists ";"%char, r. now split; [|right]. }
  rewrite app_assoc_s, (unindented x t ps _ F Q E). unfold header_or_option.
  assert (SH : section_header x = None).
  { destruct x as [|c x]; [reflexivity|]. cbn [section_header]. destruct (Ascii.eqb c "[") eqn:Q'; [|reflexivity]. apply Ascii.eqb_eq in Q' as ->. exfalso. apply B. exists "["%char, x. now split; [|left]. }
  assert (SO : split_option x = None).
  { clear - D. induction x as [|c x IH]; [reflexivity|]. apply all_cons in D as [C D]. cbn [split_option]. rewrite (IH D).
    destruct (Ascii.eqb c "=") eqn:E1; [apply Ascii.eqb_eq in E1; exfalso; apply C; now left|].
    destruct (Ascii.eqb c ":") eqn:E2; [apply Ascii.eqb_eq in E2; exfalso; apply C; now right|]. reflexivity. }
  rewrite SH, SO. assert (PC : ps_current ps = Some s) by (destruct F as (_ & -> & _); rewrite grown_cur; exact C). rewrite PC.
  match goal with |- exists e, match read_lines ?ls ?p with _ => _ end = _ => pose proof (bad_read ls p eq_refl) as X; destruct (read_lines ls p) as [ps'|e]; [rewrite X|] end; eexists; reflexivity.
Qed.
Print Assumptions C56_no_delimiter.

(** ** The file of the repository *)

Lemma getfloat_of : forall c s k v x, get c s k = Done v -> number v x -> getfloat c s k = Done x.
Proof. intros c s k v x G X. unfold getfloat. apply C50_float in X. now rewrite G, X. Qed.

Definition read_repository : Config := Eval vm_compute in match read_config (Some configuration_ini) with Done c => c | Fail _ => [] end.

Lemma repository_read : read_config (Some configuration_ini) = Done read_repository.
Proof. vm_compute. reflexivity. Qed.

Lemma py_val : forall v y x, py_float v = Ok y -> y = x -> number v x.
Proof. intros v y x E <-. now apply C50_float. Qed.

Ltac numeral :=
  match goal with |- ?a * (IZR ?z * powerRZ 10 ?e) = ?rhs =>
    let z' := eval vm_compute in z in let e' := eval vm_compute in e in let a' := eval cbv iota beta in a in
    change (a' * (IZR z' * powerRZ 10 e') = rhs); match e' with Z.neg ?p => let n := eval vm_compute in (Pos.to_nat p) in change (powerRZ 10 e') with (/ 10 ^ n) end
  end; cbn [pow]; lra.

(** The constants used by the models are those of the file. *)
Theorem C56_repository_constants : exists c, read_config (Some configuration_ini) = Done c /\
  getfloat c "constants" "alpha" = Done FitScripts.config_alpha /\
  getfloat c "constants" "hc_squared" = Done FitScripts.config_hc_squared /\
  getfloat c "constants" "charged_pion_mass" = Done FitScripts.config_pion_mass /\
  getfloat c "constants" "charged_kaon_mass" = Done (493677 / 1000000) /\
  getfloat c "constants" "proton_mass" = Done FitScripts.config_proton_mass /\
  getfloat c "constants" "proton_magnetic_moment" = Done FitScripts.config_proton_moment /\
  getfloat c "constants" "neutron_magnetic_moment" = Done FitScripts.config_neutron_moment.
Proof.
  exists read_repository. split; [exact repository_read|].
  unfold FitScripts.config_alpha, FitScripts.config_hc_squared, FitScripts.config_pion_mass, FitScripts.config_proton_mass, FitScripts.config_proton_moment, FitScripts.config_neutron_moment.
  repeat split; (eapply getfloat_of; [reflexivity|]); (eapply py_val; [reflexivity|]); numeral.
Qed.
Print Assumptions C56_repository_constants.

Definition meson_names : list string :=
  ["omega"; "omega_prime"; "omega_double_prime"; "phi"; "phi_prime"; "phi_double_prime"; "rho"; "rho_prime"; "rho_double_prime"].

(** The published masses and widths of C53 are those of the file. *)
Theorem C56_repository_resonances : exists c, read_config (Some configuration_ini) = Done c /\ forall m, In m meson_names ->
  exists mass width, PropsResonances.published ("mass_" ++ m) = Some mass /\ getfloat c "resonances" (m ++ "_mass") = Done (PropsResonances.of_keV mass) /\
    PropsResonances.published ("decay_rate_" ++ m) = Some width /\ getfloat c "resonances" (m ++ "_decay_rate") = Done (PropsResonances.of_keV width).
Proof.
  exists read_repository. split; [exact repository_read|]. intros m I. unfold PropsResonances.of_keV. cbn in I.
  repeat (destruct I as [<-|I]; [eexists; eexists; split; [vm_compute; reflexivity|split; [|split; [vm_compute; reflexivity|]]]; (eapply getfloat_of; [vm_compute; reflexivity|]); (eapply py_val; [reflexivity|]); numeral|]).
  destruct I.
Qed.
Print Assumptions C56_repository_resonances.

(** What the scripts get from the file. *)
Theorem C56_scripts :
  script_constants (Some configuration_ini) kaon_cs_keys = Done [FitScripts.config_pion_mass; 493677 / 1000000; FitScripts.config_alpha; FitScripts.config_hc_squared] /\
  script_constants (Some configuration_ini) conversion_keys = Done [FitScripts.config_alpha; FitScripts.config_hc_squared; 493677 / 1000000] /\
  script_constants (Some configuration_ini) kaon_ff_keys = Done [FitScripts.config_pion_mass] /\
  script_constants (Some configuration_ini) undress_keys = Done [FitScripts.config_alpha] /\
  script_constants (Some configuration_ini) nucleon_keys =
    Done [FitScripts.config_pion_mass; FitScripts.config_proton_mass; FitScripts.config_proton_moment; FitScripts.config_neutron_moment;
          FitScripts.config_alpha; FitScripts.config_hc_squared].
Proof.
  destruct C56_repository_constants as (c & R & E1 & E2 & E3 & E4 & E5 & E6 & E7). unfold script_constants. rewrite R.
  unfold kaon_cs_keys, conversion_keys, kaon_ff_keys, undress_keys, nucleon_keys. cbn [getfloats]. rewrite E1, E2, E3, E4, E5, E6, E7. repeat split; reflexivity.
Qed.
Print Assumptions C56_scripts.

(** ** Instances *)

Definition sample_lines : list item :=
  [Remark "" "#" " constants"; Header "constants" ""; Entry "Alpha" " " "=" " " "0.5" "  # one half"; Blank ""; Header "DEFAULT" ""; Entry "mass" "" ":" "" "1.25" ""; Header "other" " # empty"].

Ltac short_text := unfold one_line, all_chars, blanks, plain; cbn; repeat (apply Forall_cons; [cbn; first [lia | discriminate | tauto | (split; lia) | (unfold blank_codes; cbn; lia)]|]); try apply Forall_nil.

Lemma not_begins : forall P c r, ~ P c -> ~ begins P (String c r).
Proof. intros P c r H (d & s & E & Q). injection E as -> _. contradiction. Qed.

Lemma not_begins_nothing : forall P, ~ begins P "".
Proof. intros P (d & s & E & _). discriminate. Qed.

Lemma not_ends : forall P a c, ~ P c -> ~ ends P (a ++ String c "").
Proof. intros P a c H Q. apply ends_app in Q; [|discriminate]. destruct Q as (r & d & E & Q). destruct r as [|? [|? ?]]; try discriminate. injection E as <-. contradiction. Qed.

Lemma no_hash : forall s, all_chars (fun c => c <> "#"%char) s -> no_comment s.
Proof. intros s H p q ->. apply all_app in H as [_ H]. apply all_app in H as [H _]. apply all_cons in H as [H _]. congruence. Qed.

Ltac not_blank_char := unfold blank_char, blank_codes; cbn; lia.

Lemma sample_forms : Forall well_formed sample_lines.
Proof.
  unfold sample_lines. repeat apply Forall_cons; try apply Forall_nil; unfold well_formed; (split; [short_text|]).
  - split; [short_text|now left].
  - split; [discriminate|]. split; [apply no_hash; short_text|left; short_text].
  - split; [discriminate|]. split; [split; [apply not_begins; not_blank_char|apply (not_ends _ "Alph"); not_blank_char]|]. split; [apply no_hash; short_text|].
    split; [unfold all_chars; cbn; repeat (apply Forall_cons; [intros [Q|Q]; discriminate|]); apply Forall_nil|].
    split; [apply not_begins; intros [Q|Q]; discriminate|]. split; [short_text|]. split; [now left|]. split; [short_text|].
    split; [split; [apply not_begins; not_blank_char|apply (not_ends _ "0."); not_blank_char]|]. split; [apply no_hash; short_text|].
    right. exists "  ", " one half". split; [discriminate|]. split; [short_text|reflexivity].
  - short_text.
  - split; [discriminate|]. split; [apply no_hash; short_text|left; short_text].
  - split; [discriminate|]. split; [split; [apply not_begins; not_blank_char|apply (not_ends _ "mas"); not_blank_char]|]. split; [apply no_hash; short_text|].
    split; [unfold all_chars; cbn; repeat (apply Forall_cons; [intros [Q|Q]; discriminate|]); apply Forall_nil|].
    split; [apply not_begins; intros [Q|Q]; discriminate|]. split; [short_text|]. split; [now right|]. split; [short_text|].
    split; [split; [apply not_begins; not_blank_char|apply (not_ends _ "1.2"); not_blank_char]|]. split; [apply no_hash; short_text|]. left. short_text.
  - split; [discriminate|]. split; [apply no_hash; short_text|]. right. exists " ", " empty". split; [discriminate|]. split; [short_text|reflexivity].
Qed.

(** The key of the section, the one of DEFAULT seen from another section, and three refusals. *)
Example C56_instance : accepted sample_lines /\
  script_constants (Some (text_of sample_lines)) [("constants", "alpha"); ("other", "MASS"); ("constants", "mass")] = Done [1 / 2; 5 / 4; 5 / 4] /\
  script_constants (Some (text_of sample_lines)) [("other", "alpha")] = Fail NoOption /\
  script_constants (Some (text_of sample_lines)) [("missing", "alpha")] = Fail NoSection /\
  read_config (Some (text_of (sample_lines ++ [Header "constants" ""]))) = Fail DuplicateSection /\
  script_constants (Some (text_of (sample_lines ++ [Entry "x" "" "=" " " "1.5#half" ""]))) [("other", "x")] = Fail NotANumber /\
  script_constants (Some (text_of (sample_lines ++ [Entry "x" "" "=" " " "1.5" ""; More " " "y = 2" ""]))) [("other", "x")] = Fail NotANumber /\
  read_config (Some (text_of sample_lines ++ "alpha 0.5" ++ newline)) = Fail ParsingError.
Proof.
  split; [|split; [|repeat split; reflexivity]].
  - destruct (C56_accepted_or_refused sample_lines sample_forms) as [A|(a & i & b & e & E & A & O)]; [|exact A|].
    + intros a i b E M. exfalso. assert (I : In i sample_lines) by (rewrite E; apply in_or_app; right; now left). cbn in I.
      repeat (destruct I as [<-|I]; [discriminate|]). destruct I.
    + exfalso. unfold sample_lines in E.
      repeat (destruct a as [|? a]; [injection E as <- _; inversion O; subst; cbn in *; intuition congruence|injection E as <- E]). destruct a; discriminate.
  - unfold script_constants. replace (read_config (Some (text_of sample_lines))) with (Done (match read_config (Some (text_of sample_lines)) with Done c => c | Fail _ => [] end)) by reflexivity.
    cbn [getfloats]. erewrite !getfloat_of; [reflexivity| | | | | |]; try reflexivity; (eapply py_val; [reflexivity|]); numeral.
Qed.
