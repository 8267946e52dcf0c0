(** C50: the data files. *)
From Coq Require Import String Ascii Reals ZArith List Bool Arith Lia Lra.
From Verif Require Import PyBase CNum Scripts PropsCross PipelineSpec PipelineReports DataFiles.
Import ListNotations.
Local Open Scope string_scope.
Local Open Scope R_scope.

#[local] Arguments String.append : simpl never.

(** ** Statement *)

(** Texts of decimal numbers. *)
Inductive sign_text : string -> R -> Prop :=
  | NoSign : sign_text "" 1
  | Plus : sign_text "+" 1
  | Minus : sign_text "-" (-1).

Inductive mantissa : string -> R -> Prop :=
  | WholeNumber : forall w, all_digits w -> w <> [] -> mantissa (digits w) (whole_value w)
  | WithPoint : forall w f, all_digits w -> all_digits f -> (w ++ f)%list <> [] -> mantissa (decimal w f) (decimal_value w f).

Inductive scale : string -> R -> Prop :=
  | NoScale : scale "" 1
  | ScaleUp : forall c s e k, c = "e"%char \/ c = "E"%char -> sign_text s 1 -> all_digits e -> e <> [] ->
      INR k = whole_value e -> scale (String c (s ++ digits e)) (10 ^ k)
  | ScaleDown : forall c s e k, c = "e"%char \/ c = "E"%char -> sign_text s (-1) -> all_digits e -> e <> [] ->
      INR k = whole_value e -> scale (String c (s ++ digits e)) (/ 10 ^ k).

(** Tabulator, line feed and the like, separators, space. *)
Definition blank_codes : list nat := [9; 10; 11; 12; 13; 28; 29; 30; 31; 32]%nat.
Definition all_chars (P : ascii -> Prop) (s : string) : Prop := Forall P (list_ascii_of_string s).
Definition blanks (s : string) : Prop := all_chars (fun c => In (nat_of_ascii c) blank_codes) s.

Definition number (s : string) (x : R) : Prop :=
  exists b sg m e b' vs vm ve, s = b ++ sg ++ m ++ e ++ b' /\ blanks b /\ blanks b' /\
    sign_text sg vs /\ mantissa m vm /\ scale e ve /\ x = vs * (vm * ve).

(** ** The number texts *)

Lemma all_app : forall P a b, all_chars P (a ++ b) <-> all_chars P a /\ all_chars P b.
Proof.
  intros P a b. unfold all_chars. induction a as [|c a IH]; [cbn; split; [intros H; split; [constructor|exact H]|now intros [_ H]]|].
  change (String c a ++ b) with (String c (a ++ b)). cbn [list_ascii_of_string]. rewrite !Forall_cons_iff, IH. tauto.
Qed.

Lemma all_cons : forall P c s, all_chars P (String c s) <-> P c /\ all_chars P s.
Proof. intros P c s. unfold all_chars. cbn [list_ascii_of_string]. now rewrite Forall_cons_iff. Qed.

Lemma all_nil : forall P, all_chars P "".
Proof. intros P. constructor. Qed.

Lemma app_nil : forall s, s ++ "" = s.
Proof. induction s as [|c s IH]; [reflexivity|]. change (String c (s ++ "") = String c s). now rewrite IH. Qed.

Lemma app_cons : forall c a b, String c a ++ b = String c (a ++ b).
Proof. reflexivity. Qed.

Lemma is_blank_iff : forall c, is_blank c = true <-> In (nat_of_ascii c) blank_codes.
Proof.
  intros c. unfold is_blank. cbn zeta. set (n := nat_of_ascii c). rewrite !orb_true_iff, !andb_true_iff, !Nat.leb_le, Nat.eqb_eq. unfold blank_codes. cbn [In]. lia.
Qed.

Lemma digit_of_digit : forall n, (n < 10)%nat -> digit_of (digit n) = Some n.
Proof. intros n H. do 10 (destruct n as [|n]; [reflexivity|]). lia. Qed.

Lemma digit_of_inv : forall c n, digit_of c = Some n -> c = digit n /\ (n < 10)%nat.
Proof.
  intros c n H. unfold digit_of in H. cbn zeta in H. destruct (Nat.leb 48 (nat_of_ascii c)) eqn:A; [|discriminate].
  destruct (Nat.leb (nat_of_ascii c) 57) eqn:B; [|discriminate]. cbn in H. injection H as <-. apply Nat.leb_le in A, B. split; [|lia].
  unfold digit. replace (48 + (nat_of_ascii c - 48))%nat with (nat_of_ascii c) by lia. symmetry. apply ascii_nat_embedding.
Qed.

(** Nothing more to take. *)
Definition no_digit (s : string) : Prop := match s with String c _ => digit_of c = None | "" => True end.

Lemma digits_cons : forall n l, digits (n :: l) = String (digit n) (digits l).
Proof. reflexivity. Qed.

Lemma digits_app : forall l m, digits (l ++ m) = digits l ++ digits m.
Proof. induction l as [|n l IH]; intros m; [reflexivity|]. cbn [List.app]. rewrite !digits_cons, IH. reflexivity. Qed.

Lemma take_digits_app : forall l s, all_digits l -> no_digit s -> take_digits (digits l ++ s) = (l, s).
Proof.
  induction l as [|n l IH]; intros s H N.
  - cbn [digits fold_right]. change ("" ++ s) with s. destruct s as [|c s]; [reflexivity|]. cbn [take_digits]. now rewrite N.
  - rewrite digits_cons, app_cons. cbn [take_digits]. apply Forall_inv in H as Hn. apply Forall_inv_tail in H.
    rewrite digit_of_digit by exact Hn. now rewrite IH.
Qed.

Lemma take_digits_inv : forall s l r, take_digits s = (l, r) -> s = digits l ++ r /\ all_digits l /\ no_digit r.
Proof.
  induction s as [|c s IH]; intros l r H; cbn [take_digits] in H; [injection H as <- <-; repeat split; constructor|].
  destruct (digit_of c) as [n|] eqn:D.
  - destruct (take_digits s) as [l' r'] eqn:T. injection H as <- <-. destruct (IH _ _ eq_refl) as (-> & A & N). apply digit_of_inv in D as [-> D].
    split; [reflexivity|]. split; [now constructor|exact N].
  - injection H as <- <-. split; [reflexivity|]. split; [constructor|exact D].
Qed.

Lemma whole_app : forall w f, whole_value (w ++ f) = whole_value w * 10 ^ length f + whole_value f.
Proof.
  induction w as [|n w IH]; intros f; [cbn; lra|]. cbn [List.app whole_value]. rewrite IH, app_length, pow_add. ring.
Qed.

Lemma fraction_whole : forall f, fraction_value f = whole_value f / 10 ^ length f.
Proof.
  induction f as [|n f IH]; [cbn; lra|]. cbn [fraction_value whole_value length pow]. rewrite IH. field. apply pow_nonzero. lra.
Qed.

Lemma integer_whole : forall l, IZR (integer l) = whole_value l.
Proof.
  intros l. unfold integer. enough (G : forall v, IZR (fold_left (fun v n => (10 * v + Z.of_nat n)%Z) l v) = IZR v * 10 ^ length l + whole_value l).
  { rewrite G. lra. }
  induction l as [|n l IH]; intros v; cbn [fold_left whole_value length pow]; [lra|]. rewrite IH, plus_IZR, mult_IZR, <- INR_IZR_INZ. ring.
Qed.

Lemma integer_nonneg : forall l, (0 <= integer l)%Z.
Proof.
  intros l. unfold integer. enough (G : forall v, (0 <= v)%Z -> (0 <= fold_left (fun v n => (10 * v + Z.of_nat n)%Z) l v)%Z) by (apply G; lia).
  induction l as [|n l IH]; intros v H; cbn [fold_left]; [exact H|]. apply IH. lia.
Qed.

Lemma mantissa_value : forall w f e, IZR (integer (w ++ f)) * powerRZ 10 (e - Z.of_nat (length f)) = decimal_value w f * powerRZ 10 e.
Proof.
  intros w f e. rewrite integer_whole, whole_app. unfold decimal_value. rewrite fraction_whole. unfold Zminus. rewrite powerRZ_add by lra.
  rewrite powerRZ_neg'. rewrite <- pow_powerRZ. field. apply pow_nonzero. lra.
Qed.

(** *** Stripping *)

Definition sound (s : string) : Prop := all_chars (fun c => is_blank c = false) s.

Lemma lstrip_spec : forall s, exists b, blanks b /\ s = b ++ lstrip s.
Proof.
  induction s as [|c s (b & B & E)]; [exists ""; split; [constructor|reflexivity]|]. cbn [lstrip]. destruct (is_blank c) eqn:C.
  - exists (String c b). split; [apply all_cons; split; [now apply is_blank_iff|exact B]|]. rewrite app_cons. now rewrite <- E.
  - exists "". split; [constructor|reflexivity].
Qed.

Lemma rstrip_spec : forall s, exists b, blanks b /\ s = rstrip s ++ b.
Proof.
  induction s as [|c s (b & B & E)]; [exists ""; split; [constructor|reflexivity]|]. cbn [rstrip]. destruct (rstrip s) as [|c' r] eqn:R.
  - destruct (is_blank c) eqn:C.
    + exists (String c b). split; [apply all_cons; split; [now apply is_blank_iff|exact B]|]. now rewrite E at 1.
    + exists b. split; [exact B|]. rewrite app_cons. now rewrite E at 1.
  - exists b. split; [exact B|]. rewrite app_cons. now rewrite E at 1.
Qed.

Lemma lstrip_blanks : forall b s, blanks b -> lstrip (b ++ s) = lstrip s.
Proof.
  induction b as [|c b IH]; intros s B; [reflexivity|]. apply all_cons in B as [C B]. rewrite app_cons. cbn [lstrip].
  apply is_blank_iff in C. rewrite C. now apply IH.
Qed.

Lemma rstrip_blanks : forall b, blanks b -> rstrip b = "".
Proof.
  induction b as [|c b IH]; intros B; [reflexivity|]. apply all_cons in B as [C B]. cbn [rstrip]. rewrite IH by exact B.
  apply is_blank_iff in C. now rewrite C.
Qed.

Lemma rstrip_core : forall a c s b, is_blank c = false -> blanks b -> sound s -> rstrip (a ++ String c s ++ b) = a ++ String c s.
Proof.
  assert (G : forall s b, blanks b -> sound s -> rstrip (s ++ b) = s).
  { induction s as [|c s IH]; intros b B S; [now apply rstrip_blanks|]. apply all_cons in S as [C S]. rewrite app_cons. cbn [rstrip].
    rewrite IH by assumption. destruct s; [now rewrite C|reflexivity]. }
  induction a as [|x a IH]; intros c s b C B S.
  - change (rstrip (String c s ++ b) = String c s). apply G; [exact B|]. now apply all_cons.
  - rewrite (app_cons x a), (app_cons x a (String c s)). cbn [rstrip]. rewrite (IH c s b C B S). destruct a; reflexivity.
Qed.

Lemma digit_sound : forall n, (n < 10)%nat -> is_blank (digit n) = false.
Proof. intros n H. do 10 (destruct n as [|n]; [reflexivity|]). lia. Qed.

Lemma digits_sound : forall l, all_digits l -> sound (digits l).
Proof.
  induction l as [|n l IH]; intros H; [constructor|]. rewrite digits_cons. apply all_cons. split; [apply digit_sound; now inversion H|].
  apply IH. now inversion H.
Qed.

Lemma sign_sound : forall s v, sign_text s v -> sound s.
Proof. intros s v []; repeat constructor. Qed.

Lemma mantissa_sound : forall s v, mantissa s v -> sound s.
Proof.
  intros s v [w W _|w f W F _]; [now apply digits_sound|]. unfold decimal. apply all_app. split; [now apply digits_sound|].
  apply all_app. split; [repeat constructor|now apply digits_sound].
Qed.

Lemma scale_sound : forall s v, scale s v -> sound s.
Proof.
  intros s v [|c s' e k C S E _ _|c s' e k C S E _ _]; [constructor| |]; apply all_cons; (split; [now destruct C as [-> | ->]|]);
    apply all_app; (split; [eapply sign_sound; exact S|now apply digits_sound]).
Qed.

Lemma strip_core : forall b core b', core <> "" -> sound core -> blanks b -> blanks b' -> lstrip (rstrip (b ++ core ++ b')) = core.
Proof.
  intros b [|c s] b' N S B B'; [congruence|]. apply all_cons in S as [C S]. rewrite rstrip_core by assumption.
  rewrite lstrip_blanks by exact B. cbn [lstrip]. now rewrite C.
Qed.

(** *** The texts that are numbers *)

Lemma mantissa_nonempty : forall s v, mantissa s v -> s <> "".
Proof. intros s v [[|n w] _ H|[|n w] f _ _ _]; [congruence|discriminate|discriminate|discriminate]. Qed.

Lemma take_sign_text : forall sg v s, sign_text sg v -> (match s with String c _ => c <> "-"%char /\ c <> "+"%char | "" => True end) ->
  take_sign (sg ++ s) = (if Rlt_dec v 0 then true else false, s).
Proof.
  intros sg v s [] H; cbn; destruct (Rlt_dec _ _) as [L|L]; try lra; try reflexivity. destruct s as [|c s]; [reflexivity|]. destruct H as [A B].
  change ("" ++ String c s) with (String c s). cbn. apply Ascii.eqb_neq in A, B. now rewrite A, B.
Qed.

Lemma take_sign_inv : forall s neg r, take_sign s = (neg, r) -> exists sg, s = sg ++ r /\ sign_text sg (if neg then -1 else 1).
Proof.
  intros [|c s] neg r H; cbn in H; [injection H as <- <-; exists ""; split; [reflexivity|constructor]|].
  destruct (Ascii.eqb c "-") eqn:M; [injection H as <- <-; apply Ascii.eqb_eq in M as ->; exists "-"; split; [reflexivity|constructor]|].
  destruct (Ascii.eqb c "+") eqn:P; [injection H as <- <-; apply Ascii.eqb_eq in P as ->; exists "+"; split; [reflexivity|constructor]|].
  injection H as <- <-. exists "". split; [reflexivity|constructor].
Qed.

Lemma digit_not_sign : forall n, (n < 10)%nat -> digit n <> "-"%char /\ digit n <> "+"%char.
Proof. intros n H. do 10 (destruct n as [|n]; [split; discriminate|]). lia. Qed.

Lemma digits_not_sign : forall l s, all_digits l -> l <> [] -> match digits l ++ s with String c _ => c <> "-"%char /\ c <> "+"%char | "" => True end.
Proof. intros [|n l] s H N; [congruence|]. rewrite digits_cons, app_cons. apply digit_not_sign. now inversion H. Qed.

Theorem C50_float : forall s x, py_float s = Ok x <-> number s x.
Proof.
  intros s x. split; intros H.
  - unfold py_float in H. destruct (rstrip_spec s) as (b' & B' & E'). destruct (lstrip_spec (rstrip s)) as (b & B & E).
    destruct (take_sign (lstrip (rstrip s))) as [neg s1] eqn:TS. destruct (take_sign_inv _ _ _ TS) as (sg & E1 & SG).
    destruct (take_digits s1) as [w s2] eqn:TW. destruct (take_digits_inv _ _ _ TW) as (E2 & W & NW).
    assert (P : exists f s3 m, (match s2 with String "."%char r => take_digits r | _ => ([], s2) end) = (f, s3) /\ s1 = m ++ s3 /\
      ((w ++ f)%list <> [] -> mantissa m (decimal_value w f))).
    { assert (G : (s2 = String "."%char (match s2 with String _ r => r | "" => "" end)) \/ (match s2 with String "."%char r => take_digits r | _ => ([], s2) end) = ([], s2)).
      { destruct s2 as [|[[|] [|] [|] [|] [|] [|] [|] [|]] r]; try (right; reflexivity). now left. }
      destruct G as [G|G].
      - set (r := match s2 with String _ r => r | "" => "" end) in *. rewrite G. destruct (take_digits r) as [f s3] eqn:TF.
        destruct (take_digits_inv _ _ _ TF) as (E3 & F & _). exists f, s3, (decimal w f). split; [reflexivity|]. split.
        + rewrite E2, G, E3. unfold decimal. now rewrite !append_assoc.
        + intros N. now constructor.
      - exists [], s2, (digits w). split; [exact G|]. split; [exact E2|]. rewrite app_nil_r. intros N. unfold decimal_value. cbn [fraction_value]. rewrite Rplus_0_r. now constructor. }
    destruct P as (f & s3 & m & P & E3 & M). rewrite P in H. destruct (w ++ f)%list as [|n all] eqn:AL; [discriminate|].
    assert (N : (w ++ f)%list <> []) by now rewrite AL. specialize (M ltac:(discriminate)). rewrite <- AL in H. cbv zeta in H.
    assert (FIN : forall e ve z, s3 = e -> scale e ve -> powerRZ 10 z = ve ->
       number s ((if neg then -1 else 1) * (IZR (integer (w ++ f)) * powerRZ 10 (z - Z.of_nat (length f))))).
    { intros e ve z Es SC PW. exists b, sg, m, e, b', (if neg then -1 else 1), (decimal_value w f), ve. rewrite mantissa_value, PW.
      split; [|repeat (split; [assumption|]); reflexivity]. rewrite E' at 1. rewrite E at 1. rewrite E1, E3, Es. now rewrite !append_assoc. }
    destruct s3 as [|c r].
    + injection H as <-. apply (FIN "" 1 0%Z); [reflexivity|constructor|reflexivity].
    + destruct (orb (Ascii.eqb c "e") (Ascii.eqb c "E")) eqn:C; [|discriminate].
      assert (C' : c = "e"%char \/ c = "E"%char) by (apply orb_true_iff in C as [C|C]; apply Ascii.eqb_eq in C; auto).
      destruct (take_sign r) as [down r1] eqn:TS2. destruct (take_sign_inv _ _ _ TS2) as (sg2 & E4 & SG2).
      destruct (take_digits r1) as [e r2] eqn:TE. destruct (take_digits_inv _ _ _ TE) as (E5 & DE & _).
      destruct e as [|n1 e]; [discriminate|]. destruct r2; [|discriminate]. injection H as <-.
      assert (K : INR (Z.to_nat (integer (n1 :: e))) = whole_value (n1 :: e)) by (rewrite INR_IZR_INZ, Z2Nat.id by apply integer_nonneg; apply integer_whole).
      assert (Z1 : integer (n1 :: e) = Z.of_nat (Z.to_nat (integer (n1 :: e)))) by (rewrite Z2Nat.id; [reflexivity|apply integer_nonneg]).
      rewrite app_nil in E5. destruct down.
      * apply (FIN (String c (sg2 ++ digits (n1 :: e))) (/ 10 ^ Z.to_nat (integer (n1 :: e))) (- integer (n1 :: e))%Z); [now rewrite E4, E5|constructor; auto; discriminate|].
        rewrite Z1 at 1. rewrite powerRZ_neg'. now rewrite <- pow_powerRZ.
      * apply (FIN (String c (sg2 ++ digits (n1 :: e))) (10 ^ Z.to_nat (integer (n1 :: e))) (integer (n1 :: e))); [now rewrite E4, E5|constructor; auto; discriminate|].
        rewrite Z1 at 1. now rewrite <- pow_powerRZ.
  - destruct H as (b & sg & m & e & b' & vs & vm & ve & -> & B & B' & SG & M & SC & ->).
    unfold py_float. assert (ST : lstrip (rstrip (b ++ sg ++ m ++ e ++ b')) = sg ++ m ++ e).
    { replace (b ++ sg ++ m ++ e ++ b') with (b ++ (sg ++ m ++ e) ++ b') by now rewrite !append_assoc. apply strip_core; try assumption.
      - pose proof (mantissa_nonempty _ _ M) as NE. destruct sg as [|? ?]; [|discriminate]. destruct m; [congruence|discriminate].
      - apply all_app. split; [eapply sign_sound; exact SG|]. apply all_app. split; [eapply mantissa_sound; exact M|eapply scale_sound; exact SC]. }
    rewrite ST. rewrite (take_sign_text sg vs).
    2: exact SG.
    2: { destruct M as [w W N|w f W F N]; [now apply digits_not_sign|]. unfold decimal. rewrite append_assoc. destruct w as [|n w]; [cbn; split; discriminate|].
         apply digits_not_sign; [exact W|discriminate]. }
    assert (NE : no_digit e) by (destruct SC as [|c ? ? ? [-> | ->] _ _ _ _|c ? ? ? [-> | ->] _ _ _ _]; reflexivity).
    assert (VS : (if (if Rlt_dec vs 0 then true else false) then -1 else 1) = vs) by (destruct SG, (Rlt_dec _ _); lra).
    assert (P : exists w f, take_digits (m ++ e) = (w, snd (take_digits (m ++ e))) /\
      (match snd (take_digits (m ++ e)) with String "."%char r => take_digits r | _ => ([], snd (take_digits (m ++ e))) end) = (f, e) /\
      (w ++ f)%list <> [] /\ vm = decimal_value w f).
    { destruct M as [w W N|w f W F N].
      - exists w, []. rewrite take_digits_app by assumption. cbn [snd]. split; [reflexivity|]. split; [|split; [now rewrite app_nil_r|unfold decimal_value; cbn; lra]].
        destruct SC as [|c ? ? ? [-> | ->] _ _ _ _|c ? ? ? [-> | ->] _ _ _ _]; reflexivity.
      - exists w, f. unfold decimal. rewrite !append_assoc. rewrite take_digits_app; [|exact W|reflexivity]. cbn [snd].
        split; [reflexivity|]. split; [|split; [exact N|reflexivity]].
        change ("." ++ digits f ++ e) with (String "."%char (digits f ++ e)). cbn. now apply take_digits_app. }
    destruct P as (w & f & P1 & P2 & N & ->). rewrite P1.
    rewrite P2. destruct (w ++ f)%list as [|n all] eqn:AL; [congruence|]. rewrite <- AL. cbv zeta. rewrite VS.
    destruct SC as [|c s e k C S E NE' K|c s e k C S E NE' K].
    + rewrite mantissa_value. reflexivity.
    + replace (orb (Ascii.eqb c "e") (Ascii.eqb c "E")) with true by (now destruct C as [-> | ->]).
      rewrite (take_sign_text s 1) by (assumption || (rewrite <- (app_nil (digits e)); now apply digits_not_sign)).
      rewrite <- (app_nil (digits e)), take_digits_app by (assumption || exact I). destruct e as [|n1 e]; [congruence|].
      destruct (Rlt_dec 1 0) as [L|_]; [lra|]. rewrite mantissa_value. do 3 f_equal.
      assert (Q : integer (n1 :: e) = Z.of_nat k) by (apply eq_IZR; rewrite integer_whole, <- K; apply INR_IZR_INZ).
      rewrite Q. now rewrite <- pow_powerRZ.
    + replace (orb (Ascii.eqb c "e") (Ascii.eqb c "E")) with true by (now destruct C as [-> | ->]).
      rewrite (take_sign_text s (-1)) by (assumption || (rewrite <- (app_nil (digits e)); now apply digits_not_sign)).
      rewrite <- (app_nil (digits e)), take_digits_app by (assumption || exact I). destruct e as [|n1 e]; [congruence|].
      destruct (Rlt_dec (-1) 0) as [_|L]; [|lra]. rewrite mantissa_value. do 3 f_equal.
      assert (Q : integer (n1 :: e) = Z.of_nat k) by (apply eq_IZR; rewrite integer_whole, <- K; apply INR_IZR_INZ).
      rewrite Q, powerRZ_neg'. now rewrite <- pow_powerRZ.
Qed.
Print Assumptions C50_float.

Lemma float_outcome : forall s, (exists x, py_float s = Ok x) \/ py_float s = Err ValueError.
Proof.
  intros s. unfold py_float. destruct (take_sign _) as [neg s1]. destruct (take_digits s1) as [w s2].
  destruct (match s2 with String "."%char r => take_digits r | _ => ([], s2) end) as [f s3].
  destruct (w ++ f)%list; [now right|]. cbv zeta. destruct s3 as [|c r]; [left; eauto|]. destruct (orb _ _); [|now right].
  destruct (take_sign r) as [d r1]. destruct (take_digits r1) as [[|n1 e] r2]; [now right|]. destruct r2; [left; eauto|now right].
Qed.

(** ** The files *)

(** A file of three columns. *)
Definition plain (s : string) : Prop := all_chars (fun c => ~ In (nat_of_ascii c) [10; 13; 32; 34]%nat) s.

Definition field_text (s : string) (x : R) : Prop := plain s /\ number s x.

Definition row_text (line : string) (row : R * R * R) : Prop :=
  let '(x, y, z) := row in
  exists a b c, line = a ++ " " ++ b ++ " " ++ c /\ field_text a x /\ field_text b y /\ field_text c z.

Inductive line_end : string -> Prop :=
  | Unix : line_end (String LF "")
  | Windows : line_end (String CR (String LF ""))
  | OldMac : line_end (String CR "").

Inductive table : string -> list (R * R * R) -> Prop :=
  | NoRows : table "" []
  | LastRow : forall line row, row_text line row -> table line [row]
  | Row : forall line row nl text rows, row_text line row -> line_end nl -> table text rows ->
      table (line ++ nl ++ text) (row :: rows).

Definition column1 (rows : list (R * R * R)) : list R := map (fun row => fst (fst row)) rows.
Definition column2 (rows : list (R * R * R)) : list R := map (fun row => snd (fst row)) rows.
Definition column3 (rows : list (R * R * R)) : list R := map snd rows.

Definition no_quote (s : string) : Prop := all_chars (fun c => c <> QUOTE) s.

(** *** Characters *)

Definition no_newline (s : string) : Prop := all_chars (fun c => is_newline c = false) s.
Definition no_space (s : string) : Prop := all_chars (fun c => c <> SP) s.

Lemma all_imp : forall (P Q : ascii -> Prop) s, (forall c, P c -> Q c) -> all_chars P s -> all_chars Q s.
Proof. intros P Q s H. unfold all_chars. apply Forall_impl. exact H. Qed.

Lemma newline_iff : forall c, is_newline c = false <-> nat_of_ascii c <> 10%nat /\ nat_of_ascii c <> 13%nat.
Proof.
  intros c. unfold is_newline. rewrite orb_false_iff, !Ascii.eqb_neq. unfold LF, CR. split; intros [A B]; split; intros E; [apply A|apply B|apply A|apply B].
  - now rewrite <- (ascii_nat_embedding c), E.
  - now rewrite <- (ascii_nat_embedding c), E.
  - now rewrite E.
  - now rewrite E.
Qed.

Lemma plain_char : forall c, ~ In (nat_of_ascii c) [10; 13; 32; 34]%nat <-> is_newline c = false /\ c <> SP /\ c <> QUOTE.
Proof.
  intros c. rewrite newline_iff. unfold SP, QUOTE. cbn [In]. split.
  - intros H. split; [split; intros E; apply H; auto|]. split; intros E; apply H; rewrite E; cbn; auto.
  - intros ((A & B) & D & E) H. destruct H as [H|[H|[H|[H|[]]]]]; [congruence|congruence|apply D|apply E]; now rewrite <- (ascii_nat_embedding c), <- H.
Qed.

Lemma plain_iff : forall s, plain s <-> no_newline s /\ no_space s /\ no_quote s.
Proof.
  induction s as [|c s IH]; [split; [intros _; repeat split; constructor|constructor]|].
  unfold plain, no_newline, no_space, no_quote in *. rewrite !all_cons, IH, plain_char. tauto.
Qed.

Lemma not_newline_inv : forall c, is_newline c = false -> c <> LF /\ c <> CR.
Proof. intros c H. unfold is_newline in H. apply orb_false_iff in H as [A B]. now apply Ascii.eqb_neq in A, B. Qed.

(** *** Lines *)

Lemma universal_id : forall s, no_newline s -> universal s = s.
Proof.
  induction s as [|c s IH]; intros H; [reflexivity|]. apply all_cons in H as [C H]. apply not_newline_inv in C as [_ C].
  cbn [universal]. apply Ascii.eqb_neq in C. rewrite C. now rewrite IH.
Qed.

Definition starts_LF (s : string) : Prop := exists r, s = String LF r.

Lemma universal_line : forall line nl t, no_newline line -> line_end nl -> (nl = String CR "" -> ~ starts_LF t) ->
  universal (line ++ nl ++ t) = line ++ String LF (universal t).
Proof.
  induction line as [|c line IH]; intros nl t H NL T.
  - destruct NL; [reflexivity|reflexivity|]. specialize (T eq_refl). change (universal (String CR t) = String LF (universal t)).
    cbn [universal]. rewrite Ascii.eqb_refl. destruct t as [|c t]; [reflexivity|]. destruct (Ascii.eqb c LF) eqn:E; [|reflexivity].
    apply Ascii.eqb_eq in E as ->. exfalso. apply T. now exists t.
  - apply all_cons in H as [C H]. rewrite !app_cons. cbn [universal]. apply not_newline_inv in C as [_ C]. apply Ascii.eqb_neq in C. rewrite C. now rewrite IH.
Qed.

Lemma lines_id : forall s, no_newline s -> file_lines s = match s with "" => [] | _ => [s] end.
Proof.
  induction s as [|c s IH]; intros H; [reflexivity|]. apply all_cons in H as [C H]. apply not_newline_inv in C as [C _]. apply Ascii.eqb_neq in C.
  cbn [file_lines]. rewrite C, IH by exact H. now destruct s.
Qed.

Lemma lines_line : forall line t, no_newline line -> file_lines (line ++ String LF t) = (line ++ String LF "") :: file_lines t.
Proof.
  induction line as [|c line IH]; intros t H; [reflexivity|]. apply all_cons in H as [C H]. apply not_newline_inv in C as [C _]. apply Ascii.eqb_neq in C.
  rewrite !app_cons. cbn [file_lines]. rewrite C, IH by exact H. reflexivity.
Qed.

(** A text is a line, or a line, its end and more. *)
Lemma shape : forall s, no_newline s \/
  exists line nl t, s = line ++ nl ++ t /\ no_newline line /\ line_end nl /\ (nl = String CR "" -> ~ starts_LF t).
Proof.
  induction s as [|c s IH]; [left; constructor|]. destruct (is_newline c) eqn:C.
  - right. exists "". unfold is_newline in C. destruct (Ascii.eqb c LF) eqn:L.
    + apply Ascii.eqb_eq in L as ->. exists (String LF ""), s. repeat split; try constructor. discriminate.
    + cbn in C. apply Ascii.eqb_eq in C as ->. destruct s as [|d s].
      * exists (String CR ""), "". repeat split; try constructor. intros _ (r & E). discriminate.
      * destruct (Ascii.ascii_dec d LF) as [->|D].
        -- exists (String CR (String LF "")), s. repeat split; try constructor. discriminate.
        -- exists (String CR ""), (String d s). repeat split; try constructor. intros _ (r & E). congruence.
  - destruct IH as [IH|(line & nl & t & -> & N & NL & T)]; [left; now apply all_cons|]. right. exists (String c line), nl, t.
    repeat split; try assumption. now apply all_cons.
Qed.

(** *** Records *)

Fixpoint split_from (x s : string) : list string :=
  match s with
  | "" => [x]
  | String c r => if Ascii.eqb c SP then x :: split_from "" r else split_from (x ++ String c "") r
  end.

Definition tail (e : string) : Prop := e = "" \/ e = String LF "".

Lemma process_rest : forall s e x fs st, no_newline s -> no_quote s -> tail e -> (st = InField \/ (st = StartField /\ x = "")) ->
  process_line (s ++ e) (mkReader st x fs) = Ok (mkReader StartRecord "" (fs ++ split_from x s)).
Proof.
  induction s as [|c s IH]; intros e x fs st N Q T S.
  - change ("" ++ e) with e. destruct T as [-> | ->], S as [-> |[-> ->]]; reflexivity.
  - apply all_cons in N as [C N]. apply all_cons in Q as [CQ Q]. rewrite app_cons. cbn [process_line split_from].
    destruct (Ascii.eqb c SP) eqn:B.
    + apply Ascii.eqb_eq in B as ->. assert (P : process (Some SP) (mkReader st x fs) = Ok (mkReader StartField "" (fs ++ [x]))) by (destruct S as [-> |[-> ->]]; reflexivity).
      rewrite P. cbn [bind]. rewrite IH by auto. now rewrite <- app_assoc.
    + assert (P : process (Some c) (mkReader st x fs) = Ok (mkReader InField (x ++ String c "") fs)).
      { apply Ascii.eqb_neq in CQ. destruct S as [-> |[-> ->]]; unfold process, start_field; cbn [rd_state]; rewrite C, ?CQ, B; reflexivity. }
      rewrite P. cbn [bind]. now rewrite IH by auto.
Qed.

Definition record_of (s : string) : list string := match s with "" => [] | _ => split_from "" s end.

Lemma process_record : forall s e, no_newline s -> no_quote s -> tail e ->
  process_line (s ++ e) new_record = Ok (mkReader StartRecord "" (record_of s)).
Proof.
  intros [|c s] e N Q T; [destruct T as [-> | ->]; reflexivity|].
  pose proof (process_rest (String c s) e "" [] StartField N Q T (or_intror (conj eq_refl eq_refl))) as G.
  cbn [List.app] in G. unfold record_of. rewrite <- G. rewrite app_cons. cbn [process_line]. f_equal.
  apply all_cons in N as [C N]. unfold process, new_record. cbn [rd_state]. now rewrite C.
Qed.

Lemma split_spaceless : forall s x, no_space s -> split_from x s = [x ++ s].
Proof.
  induction s as [|c s IH]; intros x N; [cbn; now rewrite app_nil|]. apply all_cons in N as [C N]. cbn [split_from].
  apply Ascii.eqb_neq in C. rewrite C, IH by exact N. now rewrite append_assoc.
Qed.

Lemma split_space : forall s t x, no_space s -> split_from x (s ++ String SP t) = (x ++ s) :: split_from "" t.
Proof.
  induction s as [|c s IH]; intros t x N; [change ("" ++ String SP t) with (String SP t); cbn [split_from]; rewrite Ascii.eqb_refl; now rewrite app_nil|].
  apply all_cons in N as [C N]. rewrite app_cons. cbn [split_from]. apply Ascii.eqb_neq in C. rewrite C, IH by exact N. now rewrite append_assoc.
Qed.

Lemma split_inv : forall s x a rest, split_from x s = a :: rest ->
  exists u, no_space u /\ a = x ++ u /\ ((s = u /\ rest = []) \/ (exists t, s = u ++ String SP t /\ rest = split_from "" t)).
Proof.
  induction s as [|c s IH]; intros x a rest H; cbn [split_from] in H.
  - injection H as <- <-. exists "". split; [constructor|]. split; [now rewrite app_nil|left; auto].
  - destruct (Ascii.eqb c SP) eqn:C.
    + apply Ascii.eqb_eq in C as ->. injection H as <- <-. exists "". split; [constructor|]. split; [now rewrite app_nil|right; exists s; auto].
    + destruct (IH _ _ _ H) as (u & N & -> & R). exists (String c u). split; [apply all_cons; split; [now apply Ascii.eqb_neq|exact N]|].
      split; [now rewrite append_assoc|]. destruct R as [[-> ->]|(t & -> & ->)]; [left; auto|right; exists t; auto].
Qed.

Lemma split_nonempty : forall s x, split_from x s <> [].
Proof. induction s as [|c s IH]; intros x; cbn [split_from]; [discriminate|]. destruct (Ascii.eqb c SP); [discriminate|apply IH]. Qed.

Lemma append_row_ok : forall fs acc res, append_row fs acc = Ok res <->
  exists a b c x y z, fs = [a; b; c] /\ number a x /\ number b y /\ number c z /\
    res = (fst (fst acc) ++ [x], snd (fst acc) ++ [y], snd acc ++ [z])%list.
Proof.
  intros fs [[xs ys] zs] res. split.
  - intros H. destruct fs as [|a [|b [|c [|d fs]]]]; try discriminate. cbn [append_row] in H.
    destruct (py_float a) as [x|] eqn:A; [|discriminate]. destruct (py_float b) as [y|] eqn:B; [|discriminate].
    destruct (py_float c) as [z|] eqn:D; [|discriminate]. cbn [bind] in H. injection H as <-. exists a, b, c, x, y, z.
    split; [reflexivity|]. repeat (split; [now apply C50_float|]). reflexivity.
  - intros (a & b & c & x & y & z & -> & A & B & D & ->). pose proof (proj2 (C50_float _ _) A) as A'. pose proof (proj2 (C50_float _ _) B) as B'.
    pose proof (proj2 (C50_float _ _) D) as D'. cbn [append_row]. rewrite A', B', D'. reflexivity.
Qed.

Lemma append_row_outcome : forall fs acc, (exists x y z, append_row fs acc = Ok (fst (fst acc) ++ [x], snd (fst acc) ++ [y], snd acc ++ [z])%list) \/ append_row fs acc = Err ValueError.
Proof.
  intros fs [[xs ys] zs]. destruct fs as [|a [|b [|c [|d fs]]]]; try (right; reflexivity). cbn [append_row].
  destruct (float_outcome a) as [[x ->]| ->]; [|now right]. destruct (float_outcome b) as [[y ->]| ->]; [|now right].
  destruct (float_outcome c) as [[z ->]| ->]; [|now right]. left. exists x, y, z. reflexivity.
Qed.

Definition extend (acc : columns) (rows : list (R * R * R)) : columns :=
  (fst (fst acc) ++ column1 rows, snd (fst acc) ++ column2 rows, snd acc ++ column3 rows)%list.

Lemma row_record : forall line x y z acc, row_text line (x, y, z) ->
  append_row (record_of line) acc = Ok (extend acc [(x, y, z)]) /\ no_newline line /\ no_quote line /\ ~ starts_LF line /\ line <> "".
Proof.
  intros line x y z acc (a & b & c & -> & (Pa & Na) & (Pb & Nb) & (Pc & Nc)).
  apply plain_iff in Pa as (La & Sa & Qa). apply plain_iff in Pb as (Lb & Sb & Qb). apply plain_iff in Pc as (Lc & Sc & Qc).
  change (" " ++ c) with (String SP c). change (" " ++ (b ++ String SP c)) with (String SP (b ++ String SP c)).
  assert (NE : a ++ String SP (b ++ String SP c) <> "") by (destruct a; discriminate).
  split; [|split; [|split; [|split]]].
  - apply append_row_ok. exists a, b, c, x, y, z. split; [|auto]. unfold record_of. destruct (a ++ String SP (b ++ String SP c)) as [|d s] eqn:E; [congruence|].
    rewrite <- E. rewrite split_space, split_space, split_spaceless by assumption. reflexivity.
  - apply all_app. split; [exact La|]. apply all_cons. split; [reflexivity|]. apply all_app. split; [exact Lb|]. apply all_cons. split; [reflexivity|exact Lc].
  - apply all_app. split; [exact Qa|]. apply all_cons. split; [discriminate|]. apply all_app. split; [exact Qb|]. apply all_cons. split; [discriminate|exact Qc].
  - intros (r & E). destruct a as [|d a]; [discriminate|]. injection E as E _. subst d. apply all_cons in La as [La _]. discriminate.
  - exact NE.
Qed.

Lemma record_row : forall line acc res, no_newline line -> no_quote line -> append_row (record_of line) acc = Ok res ->
  exists row, row_text line row /\ res = extend acc [row].
Proof.
  intros line acc res N Q H. apply append_row_ok in H as (a & b & c & x & y & z & R & A & B & D & ->). exists (x, y, z). split; [|reflexivity].
  unfold record_of in R. destruct line as [|d s] eqn:E; [discriminate|]. rewrite <- E in *. clear E d s.
  destruct (split_inv _ _ _ _ R) as (u & Su & -> & [[-> F]|(t & -> & Rt)]); [discriminate|].
  symmetry in Rt. destruct (split_inv _ _ _ _ Rt) as (v & Sv & -> & [[-> F]|(t' & -> & Rt')]); [discriminate|].
  symmetry in Rt'. destruct (split_inv _ _ _ _ Rt') as (w & Sw & -> & [[-> F]|(t'' & -> & Rt'')]); [|exfalso; symmetry in Rt''; eapply split_nonempty; exact Rt''].
  change ("" ++ u) with u in *. change ("" ++ v) with v in *. change ("" ++ w) with w in *.
  apply all_app in N as [Nu N]. apply all_cons in N as [_ N]. apply all_app in N as [Nv N]. apply all_cons in N as [_ Nw].
  apply all_app in Q as [Qu Q]. apply all_cons in Q as [_ Q]. apply all_app in Q as [Qv Q]. apply all_cons in Q as [_ Qw].
  exists u, v, w. split; [reflexivity|]. repeat split; try assumption; apply plain_iff; auto.
Qed.

Lemma read_line : forall line e rest acc, no_newline line -> no_quote line -> tail e ->
  read_loop ((line ++ e) :: rest) new_record acc = (acc' <- append_row (record_of line) acc ;; read_loop rest new_record acc')%py.
Proof. intros line e rest acc N Q T. cbn [read_loop]. rewrite process_record by assumption. reflexivity. Qed.

Lemma extend_extend : forall acc a b, extend (extend acc a) b = extend acc (a ++ b).
Proof. intros acc a b. unfold extend, column1, column2, column3. cbn [fst snd]. now rewrite !map_app, !app_assoc. Qed.

Lemma table_no_LF : forall text rows, table text rows -> ~ starts_LF text.
Proof.
  intros text rows [|line [[x y] z] R|line [[x y] z] nl t rs R NL T] (r & E); [discriminate| |];
    apply (row_record _ _ _ _ ([], [], [])) in R as (_ & _ & _ & S & NE); apply S.
  - now exists r.
  - destruct line as [|c line]; [congruence|]. injection E as -> _. now exists line.
Qed.

Lemma table_read : forall text rows, table text rows -> forall acc,
  read_loop (file_lines (universal text)) new_record acc = Ok (extend acc rows).
Proof.
  intros text rows T. induction T as [|line [[x y] z] R|line [[x y] z] nl text rows R NL T IH]; intros acc.
  - cbn. unfold extend. cbn. rewrite !app_nil_r. now destruct acc as [[? ?] ?].
  - destruct (row_record _ _ _ _ acc R) as (A & N & Q & _ & NE). rewrite universal_id, lines_id by exact N. destruct line as [|c s] eqn:E; [congruence|]. rewrite <- E in *.
    rewrite <- (app_nil line) at 1. rewrite read_line by (assumption || now left). now rewrite A.
  - destruct (row_record _ _ _ _ acc R) as (A & N & Q & _ & NE). rewrite universal_line; [|exact N|exact NL|intros _; eapply table_no_LF; exact T].
    rewrite lines_line by exact N. rewrite read_line by (assumption || now right). rewrite A. cbn [bind]. rewrite IH, extend_extend. reflexivity.
Qed.

Lemma read_table : forall n text acc res, (String.length text <= n)%nat -> no_quote text ->
  read_loop (file_lines (universal text)) new_record acc = Ok res -> exists rows, table text rows /\ res = extend acc rows.
Proof.
  induction n as [|n IH]; intros text acc res L Q H.
  - destruct text; [|cbn in L; lia]. cbn in H. injection H as <-. exists []. split; [constructor|]. unfold extend. cbn. rewrite !app_nil_r. now destruct acc as [[? ?] ?].
  - destruct (shape text) as [N|(line & nl & t & -> & N & NL & T)].
    + rewrite universal_id, lines_id in H by exact N. destruct text as [|c s] eqn:E.
      { cbn in H. injection H as <-. exists []. split; [constructor|]. unfold extend. cbn. rewrite !app_nil_r. now destruct acc as [[? ?] ?]. }
      rewrite <- E in *. rewrite <- (app_nil text) in H. rewrite read_line in H by (assumption || now left).
      destruct (append_row _ acc) as [acc'|] eqn:A; [|discriminate]. cbn in H. injection H as <-.
      destruct (record_row _ _ _ N Q A) as (row & R & ->). exists [row]. split; [now constructor|reflexivity].
    + rewrite universal_line, lines_line in H by assumption. apply all_app in Q as [Ql Q]. apply all_app in Q as [_ Q].
      rewrite read_line in H by (assumption || now right). destruct (append_row _ acc) as [acc'|] eqn:A; [|discriminate]. cbn [bind] in H.
      destruct (record_row _ _ _ N Ql A) as (row & R & ->). apply IH in H as (rows & TB & ->); [| |exact Q].
      * exists (row :: rows). split; [now constructor|]. rewrite extend_extend. reflexivity.
      * rewrite !PipelineReports.append_length in L. assert (1 <= String.length nl)%nat by (destruct NL; cbn; lia). lia.
Qed.

(** A file without quotes is read exactly when it is such a table, and then its columns are returned. *)
Theorem C50_read_data : forall text xs ys errs, no_quote text ->
  (read_data text = Ok (xs, ys, errs) <->
   exists rows, table text rows /\ xs = column1 rows /\ ys = column2 rows /\ errs = column3 rows).
Proof.
  intros text xs ys errs Q. unfold read_data. split.
  - intros H. destruct (read_table _ _ _ _ (le_n _) Q H) as (rows & T & E). unfold extend in E. cbn [fst snd List.app] in E. injection E as -> -> ->. now exists rows.
  - intros (rows & T & -> & -> & ->). now rewrite (table_read _ _ T).
Qed.
Print Assumptions C50_read_data.

(** *** Every file *)

Definition whole_line (l : string) : Prop := exists s e, l = s ++ e /\ no_newline s /\ tail e.

Lemma universal_no_CR : forall n s, (String.length s <= n)%nat -> all_chars (fun c => c <> CR) (universal s).
Proof.
  induction n as [|n IH]; intros [|c s] L; cbn [String.length] in L; try constructor; try lia. cbn [universal]. destruct (Ascii.eqb c CR) eqn:C.
  - apply all_cons. split; [discriminate|]. destruct s as [|d s]; [constructor|]. cbn [String.length] in L. destruct (Ascii.eqb d LF); apply IH; cbn [String.length]; lia.
  - apply all_cons. split; [now apply Ascii.eqb_neq|]. apply IH. lia.
Qed.

Lemma lines_whole : forall s, all_chars (fun c => c <> CR) s -> Forall whole_line (file_lines s).
Proof.
  induction s as [|c s IH]; intros H; [constructor|]. apply all_cons in H as [C H]. specialize (IH H). cbn [file_lines]. destruct (Ascii.eqb c LF) eqn:L.
  - constructor; [|exact IH]. exists "", (String LF ""). split; [reflexivity|]. split; [constructor|now right].
  - assert (NC : is_newline c = false) by (unfold is_newline; rewrite L; now apply Ascii.eqb_neq in C as ->).
    destruct (file_lines s) as [|l ls]; [constructor; [|constructor]|].
    + exists (String c ""), "". split; [reflexivity|]. split; [apply all_cons; split; [exact NC|constructor]|now left].
    + apply Forall_inv_tail in IH as TL. apply Forall_inv in IH as (b & e & -> & N & T). constructor; [|exact TL].
      exists (String c b), e. split; [reflexivity|]. split; [now apply all_cons|exact T].
Qed.

Lemma process_whole : forall s e r, no_newline s -> tail e -> rd_state r <> EatNewline ->
  exists r', process_line (s ++ e) r = Ok r' /\ rd_state r' <> EatNewline.
Proof.
  induction s as [|c s IH]; intros e [st x fs] N T S; cbn [rd_state] in S.
  - change ("" ++ e) with e. destruct T as [-> | ->]; destruct st; try congruence; eexists; (split; [reflexivity|discriminate]).
  - apply all_cons in N as [C N]. rewrite app_cons. cbn [process_line].
    assert (P : exists r', process (Some c) (mkReader st x fs) = Ok r' /\ rd_state r' <> EatNewline).
    { unfold process, start_field. cbn [rd_state]. rewrite C.
      destruct st; try congruence; destruct (Ascii.eqb c QUOTE), (Ascii.eqb c SP); eexists; (split; [reflexivity|discriminate]). }
    destruct P as (r' & -> & S'). cbn [bind]. now apply IH.
Qed.

Lemma read_outcome : forall lines r acc, Forall whole_line lines -> rd_state r <> EatNewline ->
  (exists rows, read_loop lines r acc = Ok (extend acc rows)) \/ read_loop lines r acc = Err ValueError.
Proof.
  assert (AR : forall fs acc, (exists rows, append_row fs acc = Ok (extend acc rows)) \/ append_row fs acc = Err ValueError).
  { intros fs acc. destruct (append_row_outcome fs acc) as [(x & y & z & E)|E]; [left; exists [(x, y, z)]; exact E|now right]. }
  induction lines as [|l lines IH]; intros r acc W S; cbn [read_loop].
  - assert (NO : exists rows, Ok acc = Ok (extend acc rows)) by (exists []; unfold extend; cbn; rewrite !app_nil_r; now destruct acc as [[? ?] ?]).
    destruct (rd_state r); try apply AR; destruct (rd_field r); try apply AR; now left.
  - apply Forall_inv in W as WL. apply Forall_inv_tail in W. destruct WL as (s & e & -> & N & T).
    destruct (process_whole s e r N T S) as (r' & -> & S'). cbn [bind]. destruct (rd_state r') eqn:ST; try congruence; try (apply IH; [exact W|congruence]).
    destruct (AR (rd_fields r') acc) as [(rows & ->)| ->]; [|now right]. cbn [bind].
    destruct (IH new_record (extend acc rows) W) as [(rows' & ->)| ->]; [discriminate| |now right]. left. exists (rows ++ rows')%list. now rewrite extend_extend.
Qed.

(** Whatever the file, with quotes or without: three columns of one length, or a ValueError. *)
Theorem C50_outcome : forall text,
  (exists xs ys errs, read_data text = Ok (xs, ys, errs) /\ length xs = length ys /\ length xs = length errs) \/
  read_data text = Err ValueError.
Proof.
  intros text. unfold read_data. destruct (read_outcome (file_lines (universal text)) new_record ([], [], [])) as [(rows & E)|E]; [| |left|now right].
  - apply lines_whole. eapply universal_no_CR. apply le_n.
  - discriminate.
  - exists (column1 rows), (column2 rows), (column3 rows). split; [exact E|]. unfold column1, column2, column3. now rewrite !map_length.
Qed.
Print Assumptions C50_outcome.

(** A blank line, be it at the end of the file, makes reading fail. *)
Definition blank_line (text : string) : Prop :=
  (exists b, text = String LF b) \/ exists a b, text = a ++ String LF (String LF b).

Lemma skip_line : forall line s a b, no_newline line -> line ++ s = a ++ String LF b -> exists a', s = a' ++ String LF b.
Proof.
  induction line as [|c line IH]; intros s a b N E; [now exists a|]. apply all_cons in N as [C N]. rewrite app_cons in E. destruct a as [|d a].
  - injection E as -> _. discriminate.
  - rewrite app_cons in E. injection E as _ E. eapply IH; [exact N|exact E].
Qed.

Lemma table_no_blank : forall text rows, table text rows -> ~ blank_line text.
Proof.
  intros text rows T [S|(a & b & E)]; [eapply table_no_LF; [exact T|exact S]|]. revert a b E.
  induction T as [|line [[x y] z] R|line [[x y] z] nl text rows R NL T IH]; intros a b E.
  - destruct a; discriminate.
  - destruct (row_record _ _ _ _ ([], [], []) R) as (_ & N & _). rewrite <- (app_nil line) in E. destruct (skip_line _ _ _ _ N E) as (a' & E'). destruct a'; discriminate.
  - destruct (row_record _ _ _ _ ([], [], []) R) as (_ & N & _). destruct (skip_line _ _ _ _ N E) as (a' & E'). pose proof (table_no_LF _ _ T) as NL'.
    destruct NL.
    + destruct a' as [|c a']; [injection E' as E'; apply NL'; eexists; exact E'|]. injection E' as _ E'. eapply IH. exact E'.
    + destruct a' as [|c a']; [discriminate|]. injection E' as _ E'. destruct a' as [|c' a']; [injection E' as E'; apply NL'; eexists; exact E'|].
      injection E' as _ E'. eapply IH. exact E'.
    + destruct a' as [|c a']; [discriminate|]. injection E' as _ E'. eapply IH. exact E'.
Qed.

Theorem C50_blank_line : forall text, no_quote text -> blank_line text -> read_data text = Err ValueError.
Proof.
  intros text Q B. destruct (C50_outcome text) as [(xs & ys & errs & E & _)|E]; [|exact E]. exfalso.
  apply (C50_read_data _ _ _ _ Q) in E as (rows & T & _). exact (table_no_blank _ _ T B).
Qed.
Print Assumptions C50_blank_line.

(** *** Writing and reading back *)

(** [str] prints x as the text of x' (of x itself, unless digits are dropped). *)
Definition printed (str : R -> string) (row row' : R * R * R) : Prop :=
  let '(x, y, z) := row in let '(x', y', z') := row' in field_text (str x) x' /\ field_text (str y) y' /\ field_text (str z) z'.

Lemma plain_unquoted : forall s, plain s -> written_field s = s.
Proof.
  intros s P. unfold written_field. replace (has_special s) with false; [reflexivity|]. symmetry. apply plain_iff in P as (N & S & Q).
  induction s as [|c s IH]; [reflexivity|]. apply all_cons in N as [C N]. apply all_cons in S as [D S]. apply all_cons in Q as [E Q].
  cbn [has_special]. rewrite IH by assumption. unfold special. apply Ascii.eqb_neq in D, E. now rewrite C, D, E.
Qed.

Lemma written_table : forall str rows rows', Forall2 (printed str) rows rows' -> table (written_rows str rows) rows'.
Proof.
  intros str rows rows' H. induction H as [|[[x y] z] [[x' y'] z'] rows rows' (X & Y & Z) H IH]; [constructor|].
  change (written_rows str ((x, y, z) :: rows)) with (written_row str (x, y, z) ++ written_rows str rows). unfold written_row.
  rewrite !plain_unquoted by (apply X || apply Y || apply Z).
  replace ((str x ++ String SP (str y ++ String SP (str z ++ String CR (String LF "")))) ++ written_rows str rows)
    with ((str x ++ " " ++ str y ++ " " ++ str z) ++ String CR (String LF "") ++ written_rows str rows).
  - constructor; [|constructor|exact IH]. exists (str x), (str y), (str z). auto.
  - change (String SP (str y ++ String SP (str z ++ String CR (String LF "")))) with (" " ++ (str y ++ (" " ++ (str z ++ String CR (String LF ""))))).
    now rewrite !append_assoc.
Qed.

Lemma table_no_quote : forall text rows, table text rows -> no_quote text.
Proof.
  intros text rows T. induction T as [|line [[x y] z] R|line [[x y] z] nl text rows R NL T IH]; [constructor| |].
  - now apply (row_record _ _ _ _ ([], [], [])) in R.
  - apply (row_record _ _ _ _ ([], [], [])) in R as (_ & _ & Q & _). apply all_app. split; [exact Q|]. apply all_app. split; [destruct NL; repeat constructor; discriminate|exact IH].
Qed.

Theorem C50_round_trip : forall str rows rows', Forall2 (printed str) rows rows' ->
  read_data (written_rows str rows) = Ok (column1 rows', column2 rows', column3 rows').
Proof.
  intros str rows rows' H. pose proof (written_table _ _ _ H) as T. apply C50_read_data; [eapply table_no_quote; exact T|]. now exists rows'.
Qed.
Print Assumptions C50_round_trip.

(** *** Any three texts: the reader takes back what the writer quoted *)

Fixpoint scan (s : string) (r : Reader) : Res Reader :=
  match s with EmptyString => Ok r | String c l => bind (process (Some c) r) (scan l) end.

Lemma scan_line : forall s t r, process_line (s ++ t) r = bind (scan s r) (process_line t).
Proof.
  induction s as [|c s IH]; intros t r; [reflexivity|]. rewrite app_cons. cbn [process_line scan]. destruct (process (Some c) r) as [r'|]; [|reflexivity]. cbn [bind]. apply IH.
Qed.

Lemma scan_app : forall s t r, scan (s ++ t) r = bind (scan s r) (scan t).
Proof.
  induction s as [|c s IH]; intros t r; [reflexivity|]. rewrite app_cons. cbn [scan]. destruct (process (Some c) r) as [r'|]; [|reflexivity]. cbn [bind]. apply IH.
Qed.

Lemma scan_doubled : forall s x fs, scan (doubled s) (mkReader InQuotedField x fs) = Ok (mkReader InQuotedField (x ++ s) fs).
Proof.
  induction s as [|c s IH]; intros x fs; [cbn [doubled scan]; now rewrite app_nil|].
  assert (A : (x ++ String c "") ++ s = x ++ String c s) by now rewrite append_assoc.
  cbn [doubled]. destruct (Ascii.eqb c QUOTE) eqn:Q; cbn [scan process rd_state]; rewrite Q; cbn [bind set_state process scan rd_state rd_field rd_fields]; rewrite ?Q; cbn [bind];
    unfold add_char; rewrite IH; cbn [set_state rd_field rd_fields]; now rewrite A.
Qed.

Lemma scan_plain : forall s x fs, plain s -> scan s (mkReader InField x fs) = Ok (mkReader InField (x ++ s) fs).
Proof.
  induction s as [|c s IH]; intros x fs P; [cbn [scan]; now rewrite app_nil|]. apply all_cons in P as [C P]. apply plain_char in C as (N & S & Q).
  apply Ascii.eqb_neq in S. cbn [scan process rd_state]. rewrite N, S. cbn [bind]. unfold add_char. cbn [rd_field rd_fields].
  rewrite IH by exact P. now rewrite append_assoc.
Qed.

Lemma special_plain : forall s, has_special s = false -> plain s.
Proof.
  induction s as [|c s IH]; intros H; [constructor|]. cbn [has_special] in H. apply orb_false_iff in H as [C H]. apply all_cons. split; [|now apply IH].
  unfold special in C. apply orb_false_iff in C as [S C]. apply orb_false_iff in C as [Q N]. apply plain_char. split; [exact N|]. split; now apply Ascii.eqb_neq.
Qed.

(** After a written field: its text, or nothing for the empty text. *)
Lemma scan_written : forall s st fs, st = StartRecord \/ st = StartField ->
  exists st', scan (written_field s) (mkReader st "" fs) = Ok (mkReader st' s fs) /\
    (st' = InField \/ st' = QuoteInQuotedField \/ st' = st /\ s = "").
Proof.
  intros s st fs S. unfold written_field. destruct (has_special s) eqn:H.
  - exists QuoteInQuotedField. split; [|auto]. rewrite app_cons. cbn [scan].
    replace (process (Some QUOTE) (mkReader st "" fs)) with (@Ok Reader (mkReader InQuotedField "" fs)) by (destruct S as [-> | ->]; reflexivity).
    cbn [bind]. rewrite scan_app, scan_doubled. reflexivity.
  - apply special_plain in H. destruct s as [|c s]; [exists st; auto|]. apply all_cons in H as [C P]. exists InField. split; [|auto].
    apply plain_char in C as (N & B & Q). apply Ascii.eqb_neq in B, Q. cbn [scan].
    replace (process (Some c) (mkReader st "" fs)) with (@Ok Reader (mkReader InField (String c "") fs))
      by (destruct S as [-> | ->]; unfold process, start_field; cbn [rd_state]; rewrite ?N, ?Q, ?B; reflexivity).
    cbn [bind]. rewrite scan_plain by exact P. reflexivity.
Qed.

Lemma scan_separated : forall s st fs, st = StartRecord \/ st = StartField ->
  scan (written_field s ++ " ") (mkReader st "" fs) = Ok (mkReader StartField "" (fs ++ [s])).
Proof.
  intros s st fs S. rewrite scan_app. destruct (scan_written s st fs S) as (st' & -> & [-> |[-> |(-> & ->)]]); [reflexivity..|]. destruct S as [-> | ->]; reflexivity.
Qed.

Definition row_line (str : R -> string) (row : R * R * R) : string :=
  let '(x, y, z) := row in (written_field (str x) ++ " ") ++ (written_field (str y) ++ " ") ++ written_field (str z).

Lemma row_line_fields : forall str x y z, process_line (row_line str (x, y, z) ++ String LF "") new_record = Ok (mkReader StartRecord "" [str x; str y; str z]).
Proof.
  intros str x y z. unfold row_line. rewrite scan_line, (scan_app (_ ++ " ") _). unfold new_record. rewrite scan_separated by auto. cbn [bind].
  rewrite (scan_app (_ ++ " ") _), scan_separated by auto. cbn [bind List.app].
  destruct (scan_written (str z) StartField [str x; str y] (or_intror eq_refl)) as (st' & -> & [-> |[-> |(-> & ->)]]); reflexivity.
Qed.

Lemma written_newlines : forall s, no_newline s -> no_newline (written_field s).
Proof.
  intros s N. unfold written_field. destruct (has_special s); [|exact N]. rewrite app_cons. apply all_cons. split; [reflexivity|]. apply all_app. split; [|repeat constructor].
  induction s as [|c s IH]; [constructor|]. apply all_cons in N as [C N]. cbn [doubled]. destruct (Ascii.eqb c QUOTE) eqn:Q; repeat (apply all_cons; split; [exact C|]); now apply IH.
Qed.

Definition on_one_line (str : R -> string) (row : R * R * R) : Prop :=
  let '(x, y, z) := row in no_newline (str x) /\ no_newline (str y) /\ no_newline (str z).

Lemma row_line_newlines : forall str row, on_one_line str row -> no_newline (row_line str row).
Proof.
  intros str [[x y] z] (X & Y & Z). unfold row_line. repeat (apply all_app; split); try now apply written_newlines. all: repeat constructor.
Qed.

Lemma written_row_line : forall str row, written_row str row = row_line str row ++ String CR (String LF "").
Proof.
  intros str [[x y] z]. unfold written_row, row_line. rewrite !append_assoc. reflexivity.
Qed.

Lemma written_rows_lines : forall str rows, Forall (on_one_line str) rows ->
  file_lines (universal (written_rows str rows)) = map (fun row => row_line str row ++ String LF "") rows.
Proof.
  intros str rows H. induction H as [|row rows L H IH]; [reflexivity|].
  change (written_rows str (row :: rows)) with (written_row str row ++ written_rows str rows). rewrite written_row_line, append_assoc.
  rewrite universal_line; [|now apply row_line_newlines|constructor|intros Q; discriminate Q]. rewrite lines_line by now apply row_line_newlines. cbn [map]. now rewrite IH.
Qed.

(** Spaces, quotes and all: one record of three texts for every row, in order. *)
Theorem C50_quoted_fields : forall str rows, Forall (on_one_line str) rows ->
  Forall2 (fun line row => let '(x, y, z) := row in process_line line new_record = Ok (mkReader StartRecord "" [str x; str y; str z]))
    (file_lines (universal (written_rows str rows))) rows.
Proof.
  intros str rows H. rewrite written_rows_lines by exact H. clear H. induction rows as [|[[x y] z] rows IH]; [constructor|]. constructor; [apply row_line_fields|exact IH].
Qed.
Print Assumptions C50_quoted_fields.

(** So the file is read exactly when all the texts are numbers. *)
Theorem C50_quoted_numbers : forall str rows cols, Forall (on_one_line str) rows ->
  (read_data (written_rows str rows) = Ok cols <->
   exists rows', Forall2 (fun row row' => let '(x, y, z) := row in let '(x', y', z') := row' in number (str x) x' /\ number (str y) y' /\ number (str z) z') rows rows' /\
     cols = (column1 rows', column2 rows', column3 rows')).
Proof.
  intros str rows cols H. unfold read_data. rewrite written_rows_lines by exact H. clear H.
  assert (G : forall acc cols, read_loop (map (fun row => row_line str row ++ String LF "") rows) new_record acc = Ok cols <->
    exists rows', Forall2 (fun row row' => let '(x, y, z) := row in let '(x', y', z') := row' in number (str x) x' /\ number (str y) y' /\ number (str z) z') rows rows' /\ cols = extend acc rows').
  { clear cols. induction rows as [|[[x y] z] rows IH]; intros acc cols.
    - cbn. split.
      + intros E. injection E as <-. exists []. split; [constructor|]. unfold extend. cbn. rewrite !app_nil_r. now destruct acc as [[? ?] ?].
      + intros (rows' & F & ->). inversion F. unfold extend. cbn. rewrite !app_nil_r. now destruct acc as [[? ?] ?].
    - cbn [map read_loop]. rewrite row_line_fields. cbn [bind rd_state rd_fields]. split.
      + intros E. destruct (append_row _ acc) as [acc'|] eqn:A; [|discriminate]. cbn [bind] in E.
        apply append_row_ok in A as (a & b & c & x' & y' & z' & Q & X & Y & Z & ->). injection Q as <- <- <-.
        apply IH in E as (rows' & F & ->). exists ((x', y', z') :: rows'). split; [|reflexivity || (unfold extend; cbn; rewrite <- !app_assoc; reflexivity)].
        constructor; [auto|exact F].
      + intros (rows' & F & ->). inversion F as [|q [[x' y'] z'] q2 rows2 XYZ F2]; subst. destruct XYZ as (X & Y & Z).
        apply C50_float in X, Y, Z. unfold append_row. destruct acc as [[xs ys] es]. rewrite X, Y, Z. cbn [bind]. apply IH. exists rows2. split; [exact F2|].
        unfold extend. cbn. now rewrite <- !app_assoc. }
  rewrite G. unfold extend. cbn [fst snd List.app]. reflexivity.
Qed.
Print Assumptions C50_quoted_numbers.

(** A text with a space and quotes is quoted once and comes back. *)
Example C50_quoted_instance :
  let str := fun x : R => if Req_EM_T x 1 then "a ""b""" else " 2.5" in
  written_rows str [(1, 2, 2)] = """a """"b"""""" "" 2.5"" "" 2.5""" ++ String CR (String LF "").
Proof. intros str. unfold written_rows, written_row, str. cbn [fold_right]. destruct (Req_EM_T 1 1) as [_|N]; [|now destruct N]. destruct (Req_EM_T 2 1) as [E|_]; [lra|]. reflexivity. Qed.

(** A file of cross sections, those of form factor values g above the threshold, is converted to the file of these values with
    their errors, which reads back as such. *)
Definition of_form_factor (m alpha hc_squared : R) (row converted : R * R * R) : Prop :=
  let '(t, cs, err) := row in
  exists g, 0 < g /\ 4 * m^2 < t /\ 0 < t /\ cs = sigma_scalar m alpha hc_squared t g /\ converted = (t, g, err * g / (2 * cs)).

Lemma zip_columns : forall rows, zip3 (column1 rows) (column2 rows) (column3 rows) = rows.
Proof. induction rows as [|[[x y] z] rows IH]; [reflexivity|]. cbn. f_equal. exact IH. Qed.

Lemma Cabs_pos_real : forall g, 0 < g -> Cabs (RtoC g) = g.
Proof. intros g H. rewrite Cabs_RtoC. apply Rabs_right. lra. Qed.

Theorem C50_conversion : forall str m alpha hc_squared text rows converted, 0 < hc_squared -> alpha <> 0 ->
  table text rows -> Forall2 (of_form_factor m alpha hc_squared) rows converted ->
  exists out, convert_file str alpha hc_squared m text = Ok out /\
    (forall read_back, Forall2 (printed str) converted read_back ->
       read_data out = Ok (column1 read_back, column2 read_back, column3 read_back)).
Proof.
  intros str m alpha hc text rows converted H A T F. exists (written_rows str converted). split; [|intros; now apply C50_round_trip].
  unfold convert_file. replace (read_data text) with (@Ok columns (column1 rows, column2 rows, column3 rows)).
  2: { symmetry. apply C50_read_data; [eapply table_no_quote; exact T|]. now exists rows. }
  cbn [bind]. rewrite zip_columns. replace (convert alpha hc m rows) with (Ok converted); [reflexivity|]. symmetry. clear T text. unfold convert.
  induction F as [|[[t cs] err] c rows converted (g & G & T & P & -> & ->) F IH]; [reflexivity|]. cbn [mapM]. 
  destruct (C29_convert_back m alpha hc (fun _ => Ok (RtoC g)) t (RtoC g) err eq_refl T P H A) as (v & V & E); [apply RtoC_nz; lra|].
  rewrite (C29_formula_above_threshold m alpha hc (fun _ => Ok (RtoC g)) t (RtoC g) eq_refl P) in V by lra. injection V as V.
  rewrite Cabs_pos_real in V, E by exact G. rewrite <- V in E. rewrite E. cbn [bind]. now rewrite IH.
Qed.
Print Assumptions C50_conversion.

(** ** Instances *)

Ltac plain_text := unfold plain, all_chars; cbn; repeat (apply Forall_cons; [cbn; lia|]); apply Forall_nil.

Lemma decimal_field : forall w f x, all_digits w -> all_digits f -> (w ++ f)%list <> [] -> plain (decimal w f) -> decimal_value w f = x ->
  field_text (decimal w f) x.
Proof.
  intros w f x W F N P <-. split; [exact P|]. exists "", "", (decimal w f), "", "", 1, (decimal_value w f), 1.
  split; [now rewrite !app_nil|]. split; [constructor|]. split; [constructor|]. split; [constructor|]. split; [now constructor|]. split; [constructor|]. lra.
Qed.

Ltac decimal_text := apply decimal_field; [repeat (constructor; try lia)|repeat (constructor; try lia)|discriminate|plain_text|unfold decimal_value; cbn; lra].

(** The first two lines of data/charged_new_data2.csv. *)
Definition sample_file : string :=
  "0.97515625 0.03404300 0.05225675" ++ String CR (String LF "0.98505625 0.52023100 0.20090772") ++ String CR (String LF "").

Example C50_instance : read_data sample_file =
  Ok ([97515625 / 100000000; 98505625 / 100000000], [340430 / 10000000; 520231 / 1000000], [5225675 / 100000000; 20090772 / 100000000]).
Proof.
  apply C50_read_data; [unfold no_quote, all_chars; cbn; repeat constructor; discriminate|].
  exists [(97515625 / 100000000, 340430 / 10000000, 5225675 / 100000000); (98505625 / 100000000, 520231 / 1000000, 20090772 / 100000000)].
  split; [|auto]. change sample_file with ("0.97515625 0.03404300 0.05225675" ++ String CR (String LF "") ++ "0.98505625 0.52023100 0.20090772" ++ String CR (String LF "") ++ "").
  constructor; [|constructor|constructor; [|constructor|constructor]].
  - exists (decimal [0] [9;7;5;1;5;6;2;5])%nat, (decimal [0] [0;3;4;0;4;3;0;0])%nat, (decimal [0] [0;5;2;2;5;6;7;5])%nat. split; [reflexivity|]. split; [|split]; decimal_text.
  - exists (decimal [0] [9;8;5;0;5;6;2;5])%nat, (decimal [0] [5;2;0;2;3;1;0;0])%nat, (decimal [0] [2;0;0;9;0;7;7;2])%nat. split; [reflexivity|]. split; [|split]; decimal_text.
Qed.

(** A blank line, two spaces, a space at the end of a line, a comment: all ValueError. *)
Example C50_rejected :
  Forall (fun text => read_data text = Err ValueError)
    ["1.0 2.0 3.0" ++ String LF (String LF ""); "1.0  2.0 3.0"; "1.0 2.0 3.0 " ++ String LF ""; "# t sigma error" ++ String LF "1.0 2.0 3.0"; "1.0,2.0,3.0"].
Proof. repeat (apply Forall_cons; [reflexivity|]). apply Forall_nil. Qed.

(** g = 2.5 at t = 1 for the mass 0.3. *)
Definition sample_str (x : R) : string := if Req_EM_T x 1 then "1.0" else if Req_EM_T x (5 / 2) then "2.5" else "0.25".

Example C50_conversion_instance : exists out, convert_file sample_str 1 (3 / Rtrigo1.PI) (3 / 10) "1.0 3.2 0.64" = Ok out /\
  read_data out = Ok ([1], [5 / 2], [1 / 4]).
Proof.
  pose proof PI_RGT_0 as PP.
  destruct (C50_conversion sample_str (3 / 10) 1 (3 / Rtrigo1.PI) "1.0 3.2 0.64" [(1, 16 / 5, 64 / 100)] [(1, 5 / 2, 1 / 4)]) as (out & E & RB).
  - apply Rdiv_lt_0_compat; lra.
  - lra.
  - apply LastRow. exists (decimal [1] [0])%nat, (decimal [3] [2])%nat, (decimal [0] [6;4])%nat. split; [reflexivity|]. split; [|split]; decimal_text.
  - constructor; [|constructor]. exists (5 / 2). split; [lra|]. split; [lra|]. split; [lra|]. split; [|f_equal; field].
    unfold sigma_scalar, pow32. replace (1 - 4 * (3 / 10) ^ 2 / 1) with ((4 / 5) * (4 / 5)) by field. rewrite sqrt_square by lra. field. lra.
  - exists out. split; [exact E|]. apply (RB [(1, 5 / 2, 1 / 4)]). constructor; [|constructor]. unfold printed, sample_str.
    repeat (destruct (Req_EM_T _ _); [|try lra]); try lra. split; [|split].
    + change "1.0" with (decimal [1] [0])%nat. decimal_text.
    + change "2.5" with (decimal [2] [5])%nat. decimal_text.
    + change "0.25" with (decimal [0] [2;5])%nat. decimal_text.
Qed.
