(** C59: the summary of many runs. *)
From Coq Require Import String Ascii Reals List Bool Arith Lia Lra Permutation Sorted.
From Verif Require Import PyBase CNum Params ParamProofs UtilsSpec UtilsProofs World WorldProofs DataSets PropsData DataFiles PropsFiles Task TaskSpec TaskProofs PropsTask Pipeline Parser.
Import ListNotations.
Local Open Scope R_scope.
Local Open Scope list_scope.
Local Open Scope string_scope.

#[local] Arguments String.append : simpl never.

(** ** Specification *)

(** A line of the file: a path, a label and a text, separated by colons; the text may be surrounded by spaces and contain more
    colons. *)
Record Entry := mkEntry { e_path : string; e_label : string; e_before : string; e_data : string; e_after : string }.

Definition without (c : ascii) (s : string) : Prop := ~ In c (list_ascii_of_string s).
Definition spaces (s : string) : Prop := forall c, In c (list_ascii_of_string s) -> c = " "%char.
Definition trimmed (s : string) : Prop := forall r, s <> " " ++ r /\ s <> r ++ " ".

Definition well_formed (e : Entry) : Prop :=
  without ":" (e_path e) /\ without ":" (e_label e) /\ spaces (e_before e) /\ spaces (e_after e) /\ trimmed (e_data e) /\
  forall c, nat_of_ascii c = 10%nat \/ nat_of_ascii c = 13%nat -> without c (e_path e) /\ without c (e_label e) /\ without c (e_data e).

Definition name_of (e : Entry) : string := e_path e ++ ":" ++ e_label e.
Definition line_of (e : Entry) : string := name_of e ++ ":" ++ e_before e ++ e_data e ++ e_after e.
Definition text_of_entries (l : list Entry) : string := String.concat "" (map (fun e => line_of e ++ String "010" "") l).

(** The names in the order of their first appearance. *)
Fixpoint distinct (seen l : list string) : list string :=
  match l with
  | [] => []
  | n :: r => if in_dec string_dec n seen then distinct seen r else n :: distinct (n :: seen) r
  end.

(** The last entry with a name. *)
Definition last_with (l : list Entry) (n : string) : option Entry := List.find (fun e => String.eqb (name_of e) n) (rev l).

(** Smallest value first, equal values in the given order. *)
Definition ranking (l ranked : list (string * R)) : Prop := stable_sort_of snd l ranked.

(** ** Proofs *)

Lemma app_assoc_s : forall a b c, (a ++ b) ++ c = a ++ b ++ c.
Proof. induction a as [|x a IH]; intros; [reflexivity|]. rewrite !app_cons. now rewrite IH. Qed.

Lemma app_empty : forall a, a ++ "" = a.
Proof. induction a as [|x a IH]; [reflexivity|]. rewrite app_cons. now rewrite IH. Qed.

Lemma split_colon_cut : forall a b, without ":" a -> split_colon (a ++ ":" ++ b) = a :: split_colon b.
Proof.
  induction a as [|c a IH]; intros b H; [reflexivity|]. rewrite app_cons. cbn [split_colon].
  destruct (Ascii.eqb c COLON) eqn:E.
  - apply Ascii.eqb_eq in E. subst c. exfalso. apply H. now left.
  - rewrite IH; [reflexivity|]. intros I. apply H. now right.
Qed.

Lemma split_colon_some : forall s, exists p ps, split_colon s = p :: ps.
Proof.
  induction s as [|c s (p & ps & E)]; [now repeat eexists|]. cbn [split_colon]. rewrite E. destruct (Ascii.eqb c COLON); now repeat eexists.
Qed.

Lemma join_split : forall s, String.concat ":" (split_colon s) = s.
Proof.
  induction s as [|c s IH]; [reflexivity|]. cbn [split_colon]. destruct (split_colon_some s) as (p & ps & E). rewrite E in *.
  destruct (Ascii.eqb c COLON) eqn:C.
  - apply Ascii.eqb_eq in C. subst c. cbn [String.concat] in *. rewrite IH. reflexivity.
  - cbn [String.concat] in *. destruct ps; [now rewrite IH|]. rewrite app_cons. now rewrite IH.
Qed.

Lemma strip_left_spaces : forall a s, (forall c, In c (list_ascii_of_string a) -> stripped c = true) -> strip_left (a ++ s) = strip_left s.
Proof.
  induction a as [|c a IH]; intros s H; [reflexivity|]. rewrite app_cons. cbn [strip_left]. rewrite (H c) by now left. apply IH. intros x I. apply H. now right.
Qed.

Lemma strip_right_spaces : forall a, (forall c, In c (list_ascii_of_string a) -> stripped c = true) -> strip_right a = "".
Proof.
  induction a as [|c a IH]; intros H; [reflexivity|]. cbn [strip_right]. rewrite IH, (H c); [reflexivity|now left|]. intros x I. apply H. now right.
Qed.

Lemma strip_right_app : forall s a, (forall c, In c (list_ascii_of_string a) -> stripped c = true) -> strip_right (s ++ a) = strip_right s.
Proof.
  induction s as [|c s IH]; intros a H; [now apply strip_right_spaces|]. rewrite app_cons. cbn [strip_right]. now rewrite IH.
Qed.

Lemma strip_right_id : forall s, (forall r c, s = r ++ String c "" -> stripped c = false) -> strip_right s = s.
Proof.
  induction s as [|c s IH]; intros H; [reflexivity|]. cbn [strip_right]. rewrite IH.
  - destruct s as [|c' s]; [|reflexivity]. now rewrite (H "" c eq_refl).
  - intros r x ->. apply (H (String c r)). reflexivity.
Qed.

Lemma trimmed_strip : forall s, trimmed s -> without LF s -> strip_left s = s /\ strip_right s = s.
Proof.
  intros s T N. split.
  - destruct s as [|c s]; [reflexivity|]. cbn [strip_left]. unfold stripped. destruct (Ascii.eqb c SP) eqn:E.
    { apply Ascii.eqb_eq in E. subst c. destruct (T s) as [A _]. now elim A. }
    destruct (Ascii.eqb c LF) eqn:E'; [|reflexivity]. apply Ascii.eqb_eq in E'. subst c. exfalso. apply N. now left.
  - apply strip_right_id. intros r c ->. unfold stripped. destruct (Ascii.eqb c SP) eqn:E.
    { apply Ascii.eqb_eq in E. subst c. destruct (T r) as [_ A]. now elim A. }
    destruct (Ascii.eqb c LF) eqn:E'; [|reflexivity]. apply Ascii.eqb_eq in E'. subst c. exfalso. apply N.
    clear. induction r as [|x r IH]; [now left|]. rewrite app_cons. now right.
Qed.

Lemma parse_entry : forall e, well_formed e -> parse_line (line_of e ++ String LF "") = (name_of e, e_data e).
Proof.
  intros e (P & L & B & A & T & NL). unfold parse_line, line_of, name_of. rewrite !app_assoc_s. rewrite split_colon_cut by exact P.
  rewrite split_colon_cut by exact L. cbn [firstn skipn]. rewrite join_split. f_equal.
  destruct (NL LF) as (_ & _ & N); [now left|]. destruct (trimmed_strip _ T N) as [S1 S2]. unfold strip.
  rewrite strip_left_spaces by (intros c I; rewrite (B c I); reflexivity).
  assert (ALL : forall c, In c (list_ascii_of_string (e_after e ++ String LF "")) -> stripped c = true).
  { intros c. generalize (e_after e) A. clear. induction s as [|x s IH]; intros A; [intros [<-|[]]; reflexivity|].
    rewrite app_cons. cbn [list_ascii_of_string]. intros [<-|I]; [now rewrite (A x (or_introl eq_refl))|]. apply IH; [|exact I]. intros y Y. apply A. now right. }
  destruct (e_data e) as [|c d] eqn:D.
  - change (strip_right (strip_left (e_after e ++ String LF "")) = ""). rewrite <- (app_empty (e_after e ++ String LF "")). rewrite strip_left_spaces by exact ALL. reflexivity.
  - rewrite app_cons. cbn [strip_left] in S1 |- *. destruct (stripped c).
    + exfalso. assert (Q : (String.length (strip_left d) <= String.length d)%nat).
      { clear. induction d as [|x d IH]; [cbn; lia|]. cbn [strip_left]. destruct (stripped x); cbn [String.length]; lia. }
      rewrite S1 in Q. cbn [String.length] in Q. lia.
    + rewrite <- app_cons. now rewrite strip_right_app.
Qed.

Lemma without_newlines : forall e, well_formed e -> no_newline (line_of e).
Proof.
  intros e (P & L & B & A & T & NL). unfold no_newline, all_chars, line_of, name_of.
  assert (G : forall s, without LF s -> without CR s -> Forall (fun c => is_newline c = false) (list_ascii_of_string s)).
  { intros s N1 N2. apply Forall_forall. intros c I. unfold is_newline. apply orb_false_iff. split; apply Ascii.eqb_neq; intros ->; auto. }
  assert (K : forall s, spaces s -> Forall (fun c => is_newline c = false) (list_ascii_of_string s)).
  { intros s S. apply Forall_forall. intros c I. now rewrite (S c I). }
  assert (AP : forall a b, Forall (fun c => is_newline c = false) (list_ascii_of_string a) -> Forall (fun c => is_newline c = false) (list_ascii_of_string b) ->
    Forall (fun c => is_newline c = false) (list_ascii_of_string (a ++ b))).
  { induction a as [|x a IH]; intros b Ha Hb; [exact Hb|]. rewrite app_cons. cbn [list_ascii_of_string] in *. inversion Ha; subst. constructor; auto. }
  destruct (NL LF) as (N1 & N2 & N3); [now left|]. destruct (NL CR) as (M1 & M2 & M3); [now right|].
  repeat apply AP; auto; repeat constructor.
Qed.

Lemma lines_of_entries : forall l, Forall well_formed l ->
  file_lines (universal (text_of_entries l)) = map (fun e => line_of e ++ String LF "") l.
Proof.
  unfold text_of_entries. induction 1 as [|e l W F IH]; [reflexivity|]. cbn [map].
  assert (E : String.concat "" ((line_of e ++ String "010" "") :: map (fun e => line_of e ++ String "010" "") l) =
    line_of e ++ String LF "" ++ String.concat "" (map (fun e => line_of e ++ String "010" "") l)).
  { cbn [String.concat]. destruct l as [|e' l]; [cbn [map String.concat]; now rewrite app_empty|]. cbn [map]. rewrite app_assoc_s. reflexivity. }
  rewrite E, universal_line; [|now apply without_newlines|constructor|discriminate]. rewrite lines_line by now apply without_newlines. now rewrite IH.
Qed.

Lemma distinct_ext : forall l s s', (forall x, In x s <-> In x s') -> distinct s l = distinct s' l.
Proof.
  induction l as [|n l IH]; intros s s' H; [reflexivity|]. cbn [distinct].
  destruct (in_dec string_dec n s) as [I|I], (in_dec string_dec n s') as [I'|I']; try (exfalso; apply H in I; contradiction); try (exfalso; apply H in I'; contradiction); [now apply IH|].
  f_equal. apply IH. intros x. cbn. now rewrite H.
Qed.

Lemma dict_set_keys_eq : forall V (e : env V) k v,
  map fst (dict_set e k v) = (map fst e ++ (if in_dec string_dec k (map fst e) then [] else [k]))%list.
Proof.
  induction e as [|[k' v'] e IH]; intros k v; [reflexivity|]. cbn [dict_set map fst].
  destruct (String.eqb k' k) eqn:E.
  - apply String.eqb_eq in E. subst k'. cbn [map fst]. destruct (in_dec _ _ _) as [I|I]; [now rewrite app_nil_r|]. exfalso. apply I. now left.
  - apply String.eqb_neq in E. cbn [map fst]. rewrite IH. cbn [app]. f_equal. f_equal.
    destruct (in_dec string_dec k (map fst e)) as [I|I], (in_dec string_dec k (k' :: map fst e)) as [I'|I']; try reflexivity.
    + exfalso. apply I'. now right.
    + exfalso. destruct I'; congruence.
Qed.

Section Dictionary.
Context {V : Type}.
Variable v : Entry -> V.

Definition remember (l : list Entry) (acc : env V) : env V := fold_left (fun d e => dict_set d (name_of e) (v e)) l acc.

Lemma remember_keys : forall l acc, map fst (remember l acc) = (map fst acc ++ distinct (map fst acc) (map name_of l))%list.
Proof.
  induction l as [|e l IH]; intros acc; [cbn; now rewrite app_nil_r|]. cbn [remember fold_left]. change (fold_left _ l ?a) with (remember l a). rewrite IH, dict_set_keys_eq.
  cbn [map distinct]. destruct (in_dec string_dec (name_of e) (map fst acc)) as [I|I]; [now rewrite app_nil_r|].
  rewrite <- app_assoc. f_equal. cbn [app]. f_equal. apply distinct_ext. intros x. rewrite in_app_iff. cbn. tauto.
Qed.

Lemma remember_lookup : forall l acc n, lookup (remember l acc) n = match last_with l n with Some e => Some (v e) | None => lookup acc n end.
Proof.
  intros l acc n. unfold last_with, remember. induction l as [|e l IH] using rev_ind; [reflexivity|].
  rewrite rev_app_distr. cbn [rev app List.find]. rewrite fold_left_app. cbn [fold_left]. rewrite dict_set_lookup.
  destruct (String.eqb (name_of e) n); [reflexivity|]. exact IH.
Qed.

Lemma env_by_lookup : forall (d : env V) f, NoDup (map fst d) -> (forall n x, lookup d n = Some x -> f n = x) -> d = map (fun n => (n, f n)) (map fst d).
Proof.
  induction d as [|[k x] d IH]; intros f ND H; [reflexivity|]. cbn [map fst]. inversion ND as [|? ? NI ND']; subst.
  rewrite (H k x); [|cbn; now rewrite String.eqb_refl]. f_equal. apply IH; [exact ND'|]. intros n y L. apply H. cbn [lookup].
  destruct (String.eqb k n) eqn:E; [|exact L]. apply String.eqb_eq in E. subst n. exfalso. apply NI. clear - L.
  induction d as [|[k' x'] d IH]; [discriminate|]. cbn [lookup] in L. destruct (String.eqb k' k) eqn:E; [left; now apply String.eqb_eq|right; now apply IH].
Qed.
End Dictionary.

Section Report.
Context {V : Type}.
Variable evaluate : string -> Res V.
Variable chi_squared : V -> Res (option R).
Notation report := (parser_report evaluate chi_squared).

Lemma read_entries : forall v l acc, Forall well_formed l -> (forall e, In e l -> evaluate (e_data e) = Ok (v e)) ->
  read_results evaluate (map (fun e => line_of e ++ String LF "") l) acc = Ok (remember v l acc).
Proof.
  intros v. induction l as [|e l IH]; intros acc F E; [reflexivity|]. inversion F; subst. cbn [map read_results]. rewrite parse_entry by assumption.
  rewrite (E e (or_introl eq_refl)). cbn [bind]. apply IH; [assumption|]. intros x I. apply E. now right.
Qed.

Lemma read_entries_err : forall v l e r err acc, Forall well_formed (l ++ e :: r)%list -> (forall x, In x l -> evaluate (e_data x) = Ok (v x)) ->
  evaluate (e_data e) = Err err -> read_results evaluate (map (fun e => line_of e ++ String LF "") (l ++ e :: r)%list) acc = Err err.
Proof.
  intros v. induction l as [|x l IH]; intros e r err acc F E EE; inversion F; subst; cbn [map app read_results]; rewrite parse_entry by assumption.
  - now rewrite EE.
  - rewrite (E x (or_introl eq_refl)). cbn [bind]. eapply IH; eauto. intros y I. apply E. now right.
Qed.

(** The remembered value of a name. *)
Definition remembered (x : Entry -> option R) (l : list Entry) (n : string) : option R :=
  match last_with l n with Some e => x e | None => None end.

Lemma last_with_in : forall l n, In n (map name_of l) -> exists e, last_with l n = Some e /\ In e l /\ name_of e = n.
Proof.
  intros l n I. unfold last_with. destruct (List.find _ (rev l)) as [e|] eqn:E.
  - apply find_some in E as [A B]. apply in_rev in A. apply String.eqb_eq in B. eauto.
  - exfalso. apply in_map_iff in I as (e & EN & I). apply in_rev in I. pose proof (find_none _ _ E e I) as Q. cbn in Q. rewrite EN, String.eqb_refl in Q. discriminate.
Qed.

Lemma distinct_in : forall l s n, In n (distinct s l) -> In n l /\ ~ In n s.
Proof.
  induction l as [|x l IH]; intros s n I; [destruct I|]. cbn [distinct] in I. destruct (in_dec string_dec x s) as [J|J].
  - destruct (IH _ _ I). split; [now right|assumption].
  - destruct I as [<-|I]; [split; [now left|assumption]|]. destruct (IH _ _ I) as [A B]. split; [now right|]. intros C. apply B. now right.
Qed.

Lemma distinct_NoDup : forall l s, NoDup (distinct s l).
Proof.
  induction l as [|x l IH]; intros s; [constructor|]. cbn [distinct]. destruct (in_dec string_dec x s); [apply IH|]. constructor; [|apply IH].
  intros I. apply distinct_in in I as [_ N]. apply N. now left.
Qed.

Lemma chi_of_entries : forall v x l, (forall e, In e l -> chi_squared (v e) = Ok (x e)) ->
  chi_pairs chi_squared (remember v l []) = Ok (map (fun n => (n, remembered x l n)) (distinct [] (map name_of l))).
Proof.
  intros v x l E.
  pose proof (remember_keys v l []) as K. cbn [map app] in K.
  assert (G : forall k : list string, (forall n, In n k -> In n (map name_of l)) ->
    forall d : env V, map fst d = k -> (forall n y, In (n, y) d -> exists e, last_with l n = Some e /\ y = v e) ->
    chi_pairs chi_squared d = Ok (map (fun n => (n, remembered x l n)) k)).
  { intros k. induction k as [|n k IH]; intros IN d D L; destruct d as [|[n' y] d]; try discriminate; [reflexivity|].
    cbn [map fst] in D. injection D as -> D. unfold chi_pairs in *. cbn [mapM fst snd].
    destruct (L n y (or_introl eq_refl)) as (e & LE & ->).
    assert (IE : In e l). { unfold last_with in LE. apply find_some in LE as [A _]. now apply in_rev in A. }
    rewrite (E e IE). cbn [bind]. rewrite (IH (fun m J => IN m (or_intror J)) d D (fun m z J => L m z (or_intror J))). cbn [bind map].
    unfold remembered at 2. now rewrite LE. }
  apply G; [intros n I; now apply distinct_in in I|exact K|].
  intros n y I. assert (LK : lookup (remember v l []) n = Some y).
  { assert (ND : NoDup (map fst (remember v l []))) by (rewrite K; apply distinct_NoDup). clear - I ND.
    induction (remember v l []) as [|[k z] d IH]; [destruct I|]. cbn [lookup]. inversion ND as [|? ? NI ND']; subst. destruct I as [Q|I].
    - injection Q as -> ->. now rewrite String.eqb_refl.
    - destruct (String.eqb k n) eqn:Q; [|now apply IH]. apply String.eqb_eq in Q. subst. exfalso. apply NI. change n with (fst (n, y)). now apply in_map. }
  rewrite remember_lookup in LK. destruct (last_with l n) as [e|]; [|discriminate]. injection LK as <-. now exists e.
Qed.

Lemma sort_map : forall (A B : Type) (f : A -> B) (ka : A -> R) (kb : B -> R), (forall a, kb (f a) = ka a) ->
  forall l, sorted_by kb (map f l) = map f (sorted_by ka l).
Proof.
  intros A B f ka kb H. assert (INS : forall x l, insert_by kb (f x) (map f l) = map f (insert_by ka x l)).
  { intros x. induction l as [|y l IH]; [reflexivity|]. cbn [map insert_by]. rewrite !H. destruct (Rle_dec (ka x) (ka y)); [reflexivity|]. cbn [map]. now rewrite IH. }
  induction l as [|x l IH]; [reflexivity|]. unfold sorted_by in *. cbn [map fold_right]. now rewrite IH, INS.
Qed.

Lemma report_entries : forall v x l w, Forall well_formed l ->
  (forall e, In e l -> evaluate (e_data e) = Ok (v e)) -> (forall e, In e l -> chi_squared (v e) = Ok (x e)) ->
  report (text_of_entries l) w =
    match sort_pairs (map (fun n => (n, remembered x l n)) (distinct [] (map name_of l))) with
    | Ok s => (Ok s, add_events [EvPrint (str_nat (length s))] w)
    | Err e => (Err e, w)
    end.
Proof.
  intros v x l w F E1 E2. unfold parser_report. rewrite lines_of_entries by exact F. unfold mbind, lift. rewrite (read_entries v) by assumption.
  rewrite (chi_of_entries v x) by assumption. destruct (sort_pairs _); reflexivity.
Qed.

(** Every name is listed once, with the value of its last line, the smallest value first; equal values stay in the order in which the
    names first appear.  The number of names is printed. *)
Theorem C59_ranking : forall l (v : Entry -> V) (x : Entry -> R) w, Forall well_formed l ->
  (forall e, In e l -> evaluate (e_data e) = Ok (v e)) -> (forall e, In e l -> chi_squared (v e) = Ok (Some (x e))) ->
  exists ranked, report (text_of_entries l) w =
      (Ok (map (fun p => (fst p, Some (snd p))) ranked), add_events [EvPrint (str_nat (length (distinct [] (map name_of l))))] w) /\
    ranking (map (fun n => (n, match last_with l n with Some e => x e | None => 0 end)) (distinct [] (map name_of l))) ranked.
Proof.
  intros l v x w F E1 E2. rewrite (report_entries v (fun e => Some (x e)) l w F E1 E2).
  set (names := distinct [] (map name_of l)). set (tab := map (fun n => (n, match last_with l n with Some e => x e | None => 0 end)) names).
  assert (T : map (fun n => (n, remembered (fun e => Some (x e)) l n)) names = map (fun p => (fst p, Some (snd p))) tab).
  { unfold tab. rewrite map_map. apply map_ext_in. intros n I. cbn [fst snd]. unfold remembered.
    destruct (last_with_in l n) as (e & -> & _); [now apply (distinct_in _ [])|]. reflexivity. }
  rewrite T. unfold sort_pairs.
  assert (N : existsb is_none (map (fun p : string * R => (fst p, Some (snd p))) tab) = false).
  { clear. induction tab; [reflexivity|assumption]. }
  rewrite N, andb_false_r. rewrite (sort_map _ _ (fun p => (fst p, Some (snd p))) snd key_of) by reflexivity.
  exists (sorted_by snd tab). split; [|apply sorted_by_stable]. rewrite map_length.
  assert (L : length (sorted_by snd tab) = length names).
  { rewrite <- (Permutation_length (proj1 (sorted_by_stable _ snd tab))). unfold tab. apply map_length. }
  now rewrite L.
Qed.

(** One run without a value among at least two spoils the summary. *)
Theorem C59_run_without_value : forall l (v : Entry -> V) (x : Entry -> option R) w, Forall well_formed l ->
  (forall e, In e l -> evaluate (e_data e) = Ok (v e)) -> (forall e, In e l -> chi_squared (v e) = Ok (x e)) ->
  forall e e', In e l -> last_with l (name_of e) = Some e -> x e = None -> In e' l -> name_of e' <> name_of e ->
  report (text_of_entries l) w = (Err TypeError, w).
Proof.
  intros l v x w F E1 E2 e e' I L X I' NE. rewrite (report_entries v x l w F E1 E2). unfold sort_pairs.
  assert (D : forall z s, In z l -> ~ In (name_of z) s -> In (name_of z) (distinct s (map name_of l))).
  { clear. induction l as [|y l IH]; intros z s I NS; [destruct I|]. cbn [map distinct]. destruct (in_dec string_dec (name_of y) s) as [J|J].
    - destruct I as [->|I]; [contradiction|]. now apply IH.
    - destruct I as [->|I]; [now left|]. destruct (string_dec (name_of y) (name_of z)) as [Q|Q]; [now left|right]. apply IH; [exact I|]. intros [C|C]; contradiction. }
  pose proof (D e [] I (fun q => q)) as D1. pose proof (D e' [] I' (fun q => q)) as D2.
  assert (LE : Nat.leb 2 (length (map (fun n => (n, remembered x l n)) (distinct [] (map name_of l)))) = true).
  { apply Nat.leb_le. rewrite map_length. apply (NoDup_incl_length (l := [name_of e; name_of e'])).
    - constructor; [intros [Q|[]]; congruence|]. constructor; [intros []|constructor].
    - intros n [<-|[<-|[]]]; assumption. }
  rewrite LE. cbn [andb].
  assert (EX : existsb is_none (map (fun n => (n, remembered x l n)) (distinct [] (map name_of l))) = true).
  { apply existsb_exists. exists (name_of e, remembered x l (name_of e)). split; [now apply (in_map (fun n => (n, remembered x l n)))|].
    unfold is_none, remembered. cbn [snd]. now rewrite L, X. }
  now rewrite EX.
Qed.

(** A line that cannot be evaluated stops it, with that exception. *)
Theorem C59_bad_line : forall l e r (v : Entry -> V) err w, Forall well_formed (l ++ e :: r)%list ->
  (forall x, In x l -> evaluate (e_data x) = Ok (v x)) -> evaluate (e_data e) = Err err ->
  report (text_of_entries (l ++ e :: r)%list) w = (Err err, w).
Proof.
  intros l e r v err w F E EE. unfold parser_report. rewrite lines_of_entries by exact F. unfold mbind, lift. now rewrite (read_entries_err v) with (err := err).
Qed.
End Report.
Print Assumptions C59_ranking.
Print Assumptions C59_run_without_value.
Print Assumptions C59_bad_line.

(** ** The lines of finished runs *)

(** What [grep 'Best fit' -r] shows of the last line of a report (pipeline/Pipeline.py l.49), and the entry it is. *)
Definition best_fit_line (path shown : string) : string := path ++ ":" ++ "Best fit: " ++ shown ++ String "010" "".
Definition run_entry (run : string * string) : Entry := mkEntry (fst run) "Best fit" " " (snd run) "".

Definition plain_run (run : string * string) : Prop :=
  without ":" (fst run) /\ trimmed (snd run) /\
  forall c, nat_of_ascii c = 10%nat \/ nat_of_ascii c = 13%nat -> without c (fst run) /\ without c (snd run).

Lemma plain_well_formed : forall run, plain_run run -> well_formed (run_entry run).
Proof.
  intros run (P & T & NL). split; [exact P|]. split; [cbn; unfold without; cbn; intros H; repeat (destruct H as [H|H]; [discriminate|]); exact H|].
  split; [intros c [<-|[]]; reflexivity|]. split; [intros c []|]. split; [exact T|]. intros c C. destruct (NL c C) as [A B]. split; [exact A|]. split; [|exact B].
  cbn. unfold without. cbn. intros H. repeat (destruct H as [<-|H]; [destruct C; discriminate|]). exact H.
Qed.

Lemma runs_text : forall runs, text_of_entries (map run_entry runs) = String.concat "" (map (fun r => best_fit_line (fst r) (snd r)) runs).
Proof.
  intros runs. unfold text_of_entries. rewrite map_map. f_equal. apply map_ext. intros [p t]. unfold line_of, name_of, run_entry, best_fit_line. cbn [e_path e_label e_before e_data e_after fst snd].
  rewrite !app_assoc_s. reflexivity.
Qed.

Lemma distinct_all : forall l s, NoDup l -> (forall n, In n l -> ~ In n s) -> distinct s l = l.
Proof.
  induction l as [|n l IH]; intros s ND D; [reflexivity|]. cbn [distinct]. inversion ND as [|? ? NI ND']; subst.
  destruct (in_dec string_dec n s) as [I|I]; [elim (D n (or_introl eq_refl)); exact I|]. f_equal. apply IH; [exact ND'|].
  intros m J [->|K]; [contradiction|]. exact (D m (or_intror J) K).
Qed.

Lemma last_with_only : forall l e, NoDup (map name_of l) -> In e l -> last_with l (name_of e) = Some e.
Proof.
  intros l e ND I. destruct (last_with_in l (name_of e)) as (e' & L & I' & N); [now apply in_map|]. rewrite L. f_equal.
  clear L. induction l as [|y l IH]; [destruct I|]. cbn [map] in ND. inversion ND as [|? ? NI ND']; subst. destruct I as [->|I], I' as [->|I'].
  - reflexivity.
  - exfalso. apply NI. rewrite <- N. now apply in_map.
  - exfalso. apply NI. rewrite N. now apply in_map.
  - now apply IH.
Qed.

Lemma append_inj_l : forall a b c, a ++ c = b ++ c -> a = b.
Proof.
  intros a b c H. assert (L : forall s t, String.length (s ++ t) = (String.length s + String.length t)%nat).
  { induction s as [|x s IH]; intros t; [reflexivity|]. rewrite app_cons. cbn. now rewrite IH. }
  assert (E : String.length a = String.length b) by (apply (f_equal String.length) in H; rewrite !L in H; lia).
  revert b H E. induction a as [|x a IH]; intros [|y b] H E; try discriminate; [reflexivity|]. rewrite !app_cons in H. injection H as -> H. f_equal. apply IH; [exact H|now injection E].
Qed.

Section Runs.
Context {V : Type}.
Variable evaluate : string -> Res V.
Variable chi_squared : V -> Res (option R).

(** Runs in different directories: one entry for each of them, the best one first. *)
Theorem C59_best_fits : forall (runs : list (string * string)) (v : string * string -> V) (x : string * string -> R) w,
  NoDup (map fst runs) -> Forall plain_run runs ->
  (forall r, In r runs -> evaluate (snd r) = Ok (v r) /\ chi_squared (v r) = Ok (Some (x r))) ->
  exists order, stable_sort_of x runs order /\
    parser_report evaluate chi_squared (String.concat "" (map (fun r => best_fit_line (fst r) (snd r)) runs)) w =
      (Ok (map (fun r => (fst r ++ ":Best fit", Some (x r))) order), add_events [EvPrint (str_nat (length runs))] w).
Proof.
  intros runs v x w ND F E. rewrite <- runs_text.
  set (back := fun e : Entry => (e_path e, e_data e)).
  assert (BK : forall r, back (run_entry r) = r) by (intros [a b]; reflexivity).
  assert (NM : NoDup (map name_of (map run_entry runs))).
  { rewrite map_map. clear - ND. induction runs as [|r runs IH]; [constructor|]. cbn [map] in *. inversion ND as [|? ? NI ND']; subst. constructor; [|now apply IH].
    intros I. apply NI. apply in_map_iff in I as (r' & Q & I). unfold name_of, run_entry in Q. cbn in Q. apply append_inj_l in Q. rewrite <- Q. now apply in_map. }
  destruct (C59_ranking evaluate chi_squared (map run_entry runs) (fun e => v (back e)) (fun e => x (back e)) w) as (ranked & RE & RK).
  - apply Forall_forall. intros e I. apply in_map_iff in I as (r & <- & I). apply plain_well_formed. rewrite Forall_forall in F. now apply F.
  - intros e I. apply in_map_iff in I as (r & <- & I). rewrite BK. cbn [run_entry e_data]. now apply E.
  - intros e I. apply in_map_iff in I as (r & <- & I). rewrite BK. now apply E.
  - rewrite distinct_all in RE, RK by (assumption || (intros ? _ [])).
    assert (T : map (fun n => (n, match last_with (map run_entry runs) n with Some e => x (back e) | None => 0 end)) (map name_of (map run_entry runs)) =
      map (fun r => (fst r ++ ":Best fit", x r)) runs).
    { rewrite !map_map. apply map_ext_in. intros r I. rewrite last_with_only by (assumption || now apply in_map). rewrite BK. f_equal. }
    rewrite T in RK. exists (sorted_by x runs). split; [apply sorted_by_stable|]. rewrite RE, !map_length. f_equal. f_equal.
    rewrite (stable_sort_unique _ _ _ _ _ RK (sorted_by_stable _ snd _)). rewrite (sort_map _ _ (fun r => (fst r ++ ":Best fit", x r)) x snd) by reflexivity.
    rewrite map_map. apply map_ext. reflexivity.
Qed.
End Runs.
Print Assumptions C59_best_fits.

Lemma plain_run_check : forall p t, forallb (fun c => negb (orb (Ascii.eqb c ":") (is_newline c))) (list_ascii_of_string p) = true ->
  forallb (fun c => negb (is_newline c)) (list_ascii_of_string t) = true -> strip t = t -> strip_left t = t -> plain_run (p, t).
Proof.
  intros p t HP HT ST SL. rewrite forallb_forall in HP, HT. split; [|split].
  - intros I. specialize (HP _ I). discriminate.
  - intros r. split; cbn [snd]; intros E; subst t.
    + cbn in SL. assert (Q : forall d, (String.length (strip_left d) <= String.length d)%nat).
      { induction d as [|y d IH]; [cbn; lia|]. cbn [strip_left]. destruct (stripped y); cbn [String.length]; lia. }
      specialize (Q r). change (strip_left r = String " " r) in SL. rewrite SL in Q. cbn in Q. lia.
    + unfold strip in ST. rewrite SL in ST. rewrite strip_right_app in ST by (intros c [<-|[]]; reflexivity).
      assert (Q : forall d, (String.length (strip_right d) <= String.length d)%nat).
      { induction d as [|y d IH]; [cbn; lia|]. cbn [strip_right]. destruct (strip_right d); [destruct (stripped y)|]; cbn [String.length] in *; lia. }
      specialize (Q r). rewrite ST in Q. assert (L : String.length (r ++ " ") = S (String.length r)).
      { clear. induction r as [|y r IH]; [reflexivity|]. rewrite app_cons. cbn. now rewrite IH. }
      lia.
  - intros c C. assert (N : is_newline c = true).
    { unfold is_newline. rewrite <- (ascii_nat_embedding c). destruct C as [-> | ->]; reflexivity. }
    split; intros I; [specialize (HP _ I)|specialize (HT _ I)]; cbn in *; rewrite N in *; [rewrite orb_true_r in HP|]; discriminate.
Qed.

(** Three runs; the texts are evaluated to themselves. *)
Example C59_instance : exists w,
  parser_report (fun s => Ok s) (fun s => Ok (Some (INR (String.length s))))
    ("a/report.txt:Best fit: {'x': 10}" ++ String "010" ("b/report.txt:Best fit: {}" ++ String "010" ("c/report.txt:Best fit: {'name': 'c:0'}" ++ String "010" ""))) demo_world =
  (Ok [("b/report.txt:Best fit", Some (INR 2)); ("a/report.txt:Best fit", Some (INR 9)); ("c/report.txt:Best fit", Some (INR 15))], w) /\
  w_events w = [EvPrint "3"].
Proof.
  destruct (C59_best_fits (fun s => Ok s) (fun s => Ok (Some (INR (String.length s))))
    [("a/report.txt", "{'x': 10}"); ("b/report.txt", "{}"); ("c/report.txt", "{'name': 'c:0'}")] snd (fun r => INR (String.length (snd r))) demo_world) as (order & ST & H).
  - cbn. repeat constructor; cbn; intuition discriminate.
  - repeat (constructor; [apply plain_run_check; reflexivity|]). constructor.
  - intros r _. split; reflexivity.
  - assert (SO : order = [("b/report.txt", "{}"); ("a/report.txt", "{'x': 10}"); ("c/report.txt", "{'name': 'c:0'}")]).
    { rewrite (stable_sort_unique _ _ _ _ _ ST (sorted_by_stable _ _ _)). unfold sorted_by. cbn [fold_right].
      repeat (cbn [insert_by snd String.length]; match goal with |- context [Rle_dec ?a ?b] =>
        let x := fresh in destruct (Rle_dec a b) as [x|x]; cbn [INR] in x; try (exfalso; lra) end). reflexivity. }
    rewrite SO in H. eexists. split; [exact H|reflexivity].
Qed.
