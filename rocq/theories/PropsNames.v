(** C29, C42, C52, C56, C57, C58, C60: small letters, paths of pictures, too short points and lists, the error of a square root. *)
From Coq Require Import String Ascii Reals List Bool Arith Lia Lra.
From Verif Require Import PyBase CNum UAModels CrossSections CommonUtils Scripts DataSets SinglePlot PropsSinglePlot.
From Verif Require ConfigFiles Task SingleFits.
Import ListNotations.
Local Open Scope list_scope.
Local Open Scope string_scope.

#[local] Arguments String.append : simpl never.

(** ** Specification *)

Definition capitals : string := "ABCDEFGHIJKLMNOPQRSTUVWXYZ".
Definition smalls : string := "abcdefghijklmnopqrstuvwxyz".
Definition letters : list (ascii * ascii) := combine (list_ascii_of_string capitals) (list_ascii_of_string smalls).

(** The second text is the first one with small letters for the capital ones. *)
Inductive lowered : string -> string -> Prop :=
| L_nil : lowered "" ""
| L_capital : forall c d s r, In (c, d) letters -> lowered s r -> lowered (String c s) (String d r)
| L_other : forall c s r, (forall d, ~ In (c, d) letters) -> lowered s r -> lowered (String c s) (String c r).

Definition char_cases (f : ascii -> ascii) : Prop := forall c, In (c, f c) letters \/ (f c = c /\ forall d, ~ In (c, d) letters).

Definition capital_check (f : ascii -> ascii) (n : nat) : bool :=
  let c := ascii_of_nat n in
  match find (fun x => Ascii.eqb (fst x) c) letters with
  | Some x => Ascii.eqb (f c) (snd x)
  | None => Ascii.eqb (f c) c
  end.

Lemma check_cases : forall f, forallb (capital_check f) (seq 0 256) = true -> char_cases f.
Proof.
  intros f H c. rewrite forallb_forall in H. assert (I : In (nat_of_ascii c) (seq 0 256)) by (apply in_seq; pose proof (nat_ascii_bounded c); lia).
  specialize (H _ I). unfold capital_check in H. rewrite ascii_nat_embedding in H. destruct (find _ letters) as [[a b]|] eqn:F.
  - left. apply find_some in F as (J & E). cbn in E, H. apply Ascii.eqb_eq in E, H. subst a. now rewrite H.
  - right. apply Ascii.eqb_eq in H. split; [exact H|]. intros d J. pose proof (find_none _ _ F _ J) as Q. cbn in Q. rewrite Ascii.eqb_refl in Q. discriminate.
Qed.

Lemma letters_functional : forall c d d', In (c, d) letters -> In (c, d') letters -> d = d'.
Proof.
  assert (N : NoDup (map fst letters)) by (vm_compute; repeat (constructor; [cbn; intuition congruence|]); constructor).
  intros c d d' I J. revert N I J. generalize letters. induction l as [|[a b] l IH]; intros N I J; [contradiction|]. cbn in N. inversion N as [|x y NI N']; subst.
  destruct I as [E|I], J as [F|J].
  - congruence.
  - injection E as -> ->. exfalso. apply NI. exact (in_map fst _ _ J).
  - injection F as -> ->. exfalso. apply NI. exact (in_map fst _ _ I).
  - now apply IH.
Qed.

Lemma lowered_functional : forall s r, lowered s r -> forall r', lowered s r' -> r = r'.
Proof.
  induction 1 as [|c d s r I L IH|c s r N L IH]; intros r' L'; inversion L' as [|c' d' s' q' I' Q|c' s' q' N' Q]; subst.
  - reflexivity.
  - rewrite (letters_functional _ _ _ I I'). now rewrite (IH _ Q).
  - exfalso. now apply (N' d).
  - exfalso. now apply (N d').
  - now rewrite (IH _ Q).
Qed.

(** ** Keys of the configuration file: [optionxform] *)

Lemma config_char : char_cases ConfigFiles.lower_char.
Proof. apply check_cases. vm_compute. reflexivity. Qed.
Lemma task_char : char_cases Task.lower_char.
Proof. apply check_cases. vm_compute. reflexivity. Qed.

Theorem C56_keys : forall s r, lowered s r <-> ConfigFiles.lower s = r.
Proof.
  assert (L : forall s, lowered s (ConfigFiles.lower s)).
  { induction s as [|c s IH]; [constructor|]. cbn [ConfigFiles.lower]. destruct (config_char c) as [I|(-> & N)]; now constructor. }
  intros s r. split; [intros H; exact (lowered_functional _ _ (L s) _ H)|intros <-; apply L].
Qed.
Print Assumptions C56_keys.

(** ** Names of models and of pictures: [str.lower] *)

Theorem C57_model_names : forall s r, lowered s r <-> Task.lower s = r.
Proof.
  assert (L : forall s, lowered s (Task.lower s)).
  { induction s as [|c s IH]; [constructor|]. cbn [Task.lower]. destruct (task_char c) as [I|(-> & N)]; now constructor. }
  intros s r. split; [intros H; exact (lowered_functional _ _ (L s) _ H)|intros <-; apply L].
Qed.
Print Assumptions C57_model_names.

Example C56_keys_instance : lowered "Kaon_Mass2:AZ[`{@" "kaon_mass2:az[`{@" /\ ~ lowered "A" "A".
Proof. split; [now apply C56_keys|]. intros H. apply C56_keys in H. discriminate. Qed.

(** ** [os.path.join] for the files of a run *)

Lemma prefix_slash : forall b, String.prefix "/" b = true -> exists r, b = "/" ++ r.
Proof. intros [|c r] H; [discriminate|]. change ((if ascii_dec "/" c then String.prefix "" r else false) = true) in H. destruct (ascii_dec "/" c) as [<-|]; [|discriminate]. now exists r. Qed.

Lemma substring_end : forall a b, String.substring (String.length a) (String.length b) (a ++ b) = b.
Proof.
  induction a as [|c a IH]; intros b.
  - change ("" ++ b) with b. induction b as [|d b IHb]; [reflexivity|]. cbn. f_equal. exact IHb.
  - change (String c a ++ b) with (String c (a ++ b)). cbn [String.length String.substring]. apply IH.
Qed.

Lemma length_append : forall a b, String.length (a ++ b) = String.length a + String.length b.
Proof. induction a as [|c a IH]; intros b; [reflexivity|]. change (String c a ++ b) with (String c (a ++ b)). cbn. now rewrite IH. Qed.

Lemma slash_end : forall a c, Task.ends_with_slash (a ++ String c "") = Ascii.eqb c "/".
Proof.
  intros a c. unfold Task.ends_with_slash. rewrite length_append. cbn [String.length]. replace (String.length a + 1 - 1)%nat with (String.length a) by lia.
  change 1%nat with (String.length (String c "")). rewrite substring_end. cbn. now destruct (Ascii.eqb c "/").
Qed.

(** A path that is not absolute is put behind the directory, with exactly one slash more where there is none at the end. *)
Theorem C52_paths : forall b, (forall r, b <> "/" ++ r) ->
  Task.path_join "" b = b /\
  (forall a, Task.path_join (a ++ "/") b = a ++ "/" ++ b) /\
  (forall a c, c <> "/"%char -> Task.path_join (a ++ String c "") b = a ++ String c ("/" ++ b)).
Proof.
  intros b N. assert (P : String.prefix "/" b = false) by (destruct (String.prefix "/" b) eqn:E; [|reflexivity]; apply prefix_slash in E as (r & E); now destruct (N r)).
  assert (AS : forall x y z, (x ++ y) ++ z = x ++ (y ++ z)) by (induction x as [|c x IH]; intros y z; [reflexivity|]; change (String c ((x ++ y) ++ z) = String c (x ++ (y ++ z))); now rewrite IH).
  unfold Task.path_join. rewrite P. split; [reflexivity|]. split.
  - intros a. rewrite (slash_end a "/"). cbn [Ascii.eqb Bool.eqb]. rewrite orb_true_r. apply AS.
  - intros a c D. rewrite slash_end. apply Ascii.eqb_neq in D. rewrite D. replace (a ++ String c "" =? "") with false by (destruct a; reflexivity). cbn [orb]. rewrite AS. reflexivity.
Qed.
Print Assumptions C52_paths.

Example C52_paths_instance : Task.path_join "/reports/" "x.png" = "/reports/x.png" /\ Task.path_join "/reports" "x.png" = "/reports/x.png" /\ Task.path_join "/reports" "/x.png" = "/x.png".
Proof. repeat split; reflexivity. Qed.

(** ** Points for the curve of one resonance *)

(** A tuple that is too short raises IndexError, whatever comes after it. *)
Theorem C60_short_points : forall km alpha hc a m g t_0 t_in f pts ts p rest, (t_0 < t_in)%R -> (m * g <> 0)%R ->
  make_function_cross_section km alpha hc a m g t_0 t_in = Ok f -> Forall2 asks pts ts -> Forall (usable t_in) ts ->
  (p = Row [] \/ exists x, p = Row [x]) -> f ((pts ++ p :: rest)%list) = Err IndexError.
Proof.
  intros km alpha hc a m g t_0 t_in f pts ts p rest L N H K U Q. unfold make_function_cross_section in H.
  destruct (SingleComponentModel_init t_0 t_in a m g) as [s|e] eqn:B; [|discriminate H]. cbn [bind] in H. injection H as <-.
  rewrite (values_are _ _ _ _ _ _ _ _ L N _ B _ _ K U (p :: rest)). destruct Q as [-> |(x & ->)]; reflexivity.
Qed.
Print Assumptions C60_short_points.

Example C60_short_points_instance : exists f, make_function_cross_section 1 1 1 1 2 1 1 2 = Ok f /\ f [KaonDatapoint (RtoC 3) true; Row [RtoC 3]] = Err IndexError.
Proof.
  destruct (proj2 (C60_accepted 1 1 1 1 2 1 1 2)) as (f & E).
  { unfold KaonSpec.resonance_pole. repeat split; try lra; intros H; intros; apply (f_equal Im) in H || idtac; cbn in *; try lra. }
  exists f. split; [exact E|]. change [KaonDatapoint (RtoC 3) true; Row [RtoC 3]] with ([KaonDatapoint (RtoC 3) true] ++ [Row [RtoC 3]])%list.
  apply (C60_short_points 1 1 1 1 2 1 1 2 f [KaonDatapoint (RtoC 3) true] [3%R] (Row [RtoC 3]) []); [lra|lra|exact E| | |right; now eexists].
  - constructor; [left; now eexists|constructor].
  - constructor; [split; lra|constructor].
Qed.

(** ** Lists that are shorter than the list of points *)

Lemma short_loop : forall flag ys es fs ts i yes no, (forall p, In p ts -> exists b t, flag p = Ok b /\ attr_t p = Ok t) ->
  (length ys < i + length ts \/ length es < i + length ts \/ length fs < i + length ts)%nat -> (i <= length ys)%nat -> (i <= length es)%nat -> (i <= length fs)%nat ->
  split_loop flag ys es fs i ts yes no = Err IndexError.
Proof.
  intros flag ys es fs. induction ts as [|p ts IH]; intros i yes no K S A B C; [cbn in S; lia|]. cbn [split_loop].
  destruct (K p (or_introl eq_refl)) as (b & t & -> & ->). cbn [bind]. unfold item.
  destruct (nth_error ys i) as [y|] eqn:Y; [|reflexivity]. cbn [bind]. destruct (nth_error es i) as [e|] eqn:E; [|reflexivity]. cbn [bind].
  destruct (nth_error fs i) as [f|] eqn:F; [|reflexivity]. cbn [bind].
  assert (i < length ys)%nat by (apply nth_error_Some; congruence). assert (i < length es)%nat by (apply nth_error_Some; congruence). assert (i < length fs)%nat by (apply nth_error_Some; congruence).
  cbn [length] in S. destruct b; apply IH; try lia; intros q Q; apply K; now right.
Qed.

(** Fewer values, errors or values of the fit than points: IndexError, in both pictures. *)
Theorem C42_short_lists : forall ts ys es fs, (length ys < length ts \/ length es < length ts \/ length fs < length ts)%nat ->
  ((forall p, In p ts -> exists t c, p = KaonDatapoint t c) -> series_neutral_plus_charged ts ys es fs = Err IndexError) /\
  ((forall p, In p ts -> exists t pr el, p = NucleonDatapoint t pr el) -> series_electric_plus_magnetic ts ys es fs = Err IndexError).
Proof.
  intros ts ys es fs S. split; intros K; apply short_loop; try lia; intros p I.
  - destruct (K p I) as (t & c & ->). now exists c, t.
  - destruct (K p I) as (t & pr & el & ->). now exists el, t.
Qed.
Print Assumptions C42_short_lists.

Example C42_short_lists_instance : series_neutral_plus_charged [KaonDatapoint (RtoC 1) true; KaonDatapoint (RtoC 2) false] [1%R; 2%R] [1%R] [1%R; 2%R] = Err IndexError.
Proof. apply C42_short_lists; [cbn; lia|]. intros p [<-|[<-|[]]]; now do 2 eexists. Qed.

(** ** The error of a square root (convert_cs_data_to_ff_data.py) *)

(** The slope of the square root times the error; there is none at 0. *)
Theorem C29_error_of_square_root : forall val err,
  ((0 < val)%R -> exists slope, derivable_pt_lim sqrt val slope /\ error_for_square_root val err = Ok (slope * err)%R) /\
  (val = 0%R -> error_for_square_root val err = Err ZeroDivisionError) /\
  ((val < 0)%R -> error_for_square_root val err = Err ValueError).
Proof.
  intros val err. unfold error_for_square_root. split; [|split].
  - intros P. pose proof (sqrt_lt_R0 val P) as Q. exists (/ (2 * sqrt val))%R. split; [now apply derivable_pt_lim_sqrt|]. rewrite rsqrt_ok by lra. cbn [bind]. rewrite rdiv_ok by lra. cbn [bind]. f_equal. field. lra.
  - intros ->. rewrite rsqrt_ok by lra. cbn [bind]. rewrite sqrt_0. unfold rdiv. destruct (Req_EM_T (2 * 0) 0); [reflexivity|lra].
  - intros N. unfold rsqrt. destruct (Rlt_dec val 0); [reflexivity|lra].
Qed.
Print Assumptions C29_error_of_square_root.

Example C29_error_of_square_root_instance : error_for_square_root 4 3 = Ok (3/4)%R.
Proof.
  destruct (C29_error_of_square_root 4 3) as (H & _). destruct H as (s & D & ->); [lra|]. assert (E : s = (/ (2 * sqrt 4))%R) by (apply (uniqueness_limite sqrt 4); [exact D|apply derivable_pt_lim_sqrt; lra]).
  rewrite E. replace 4%R with (2 * 2)%R by ring. rewrite sqrt_square by lra. f_equal. field.
Qed.

(** ** How a list of numbers is printed *)

(** The entries in brackets, each but the last one followed by a comma and a blank. *)
Inductive listed : list string -> string -> Prop :=
| Listed_last : forall a, listed [a] (a ++ "]")%string
| Listed_more : forall a b l s, listed (b :: l) s -> listed (a :: b :: l) (a ++ String "," (String " " s))%string.

Lemma str_assoc : forall a b c : string, ((a ++ b) ++ c = a ++ (b ++ c))%string.
Proof. induction a as [|x a IH]; intros; [reflexivity|]. exact (f_equal (String x) (IH b c)). Qed.

Theorem C58_list_text : forall o l, (l = [] -> SingleFits.list_text o l = "[]"%string) /\
  (l <> [] -> exists s, SingleFits.list_text o l = String "[" s /\ listed (map (Task.o_str o) l) s).
Proof.
  intros o l. split; [intros ->; reflexivity|]. intros N. unfold SingleFits.list_text. set (m := map (Task.o_str o) l). assert (M : m <> []) by (destruct l; [contradiction|discriminate]).
  exists (String.concat ", " m ++ "]")%string. split; [reflexivity|]. clearbody m. clear N l. induction m as [|a [|b m] IH]; [contradiction|apply Listed_last|].
  change (String.concat ", " (a :: b :: m)) with (a ++ ", " ++ String.concat ", " (b :: m))%string. rewrite !str_assoc. change (", " ++ (String.concat ", " (b :: m) ++ "]"))%string with (String "," (String " " (String.concat ", " (b :: m) ++ "]"))).
  apply Listed_more, IH. discriminate.
Qed.
Print Assumptions C58_list_text.

Example C58_list_text_instance : forall o, Task.o_str o 1%R = "1.0"%string -> Task.o_str o 2%R = "2.0"%string -> SingleFits.list_text o [1%R; 2%R] = "[1.0, 2.0]"%string.
Proof.
  intros o A B. destruct (C58_list_text o [1%R; 2%R]) as (_ & H). destruct H as (s & -> & L); [discriminate|]. cbn [map] in L. rewrite A, B in L. inversion L as [|a b l s' L' E1 E2]; subst. inversion L'; subst. reflexivity.
Qed.
