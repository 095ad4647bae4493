(** Python strings: decimal printing and parsing, splitting and joining.
    This file models Python built-ins used throughout /repo (str(int), zfill,
    int(str), str.split, str.join), not repository code. *)
From Coq Require Import List ZArith Lia Bool Ascii String.
From Verif Require Import Base.
Import ListNotations.
Local Open Scope string_scope.
Local Open Scope Z_scope.

(** ** Characters *)

(** ASCII part of [str.isspace].  Used by the [split()] of ConfigData.py:213, 216. *)
Definition is_ws (c : ascii) : bool :=
  let n := nat_of_ascii c in
  ((9 <=? n)%nat && (n <=? 13)%nat) || ((28 <=? n)%nat && (n <=? 32)%nat).

(** The value of a digit, for [int] e.g. in ConfigData.py:213. *)
Definition digit_val (c : ascii) : option Z :=
  let n := nat_of_ascii c in
  if (48 <=? n)%nat && (n <=? 57)%nat then Some (Z.of_nat (n - 48)) else None.

(** The digit of a value, for [str] e.g. in init_functions.py:164. *)
Definition digit_char (d : Z) : ascii := ascii_of_nat (48 + Z.to_nat d).

(** The end of a line, e.g. ConfigData.py:209, step_3_functions.py:87-89. *)
Definition nl : ascii := ascii_of_nat 10.

(** ** Printing integers: [str(n)] *)

(** The digits from the last to the first, [str] e.g. in init_functions.py:164-172. *)
Fixpoint show_digits (fuel : nat) (n : Z) (tail : string) : string :=
  match fuel with
  | O => tail
  | S f =>
    let t := String (digit_char (n mod 10)) tail in
    if n / 10 =? 0 then t else show_digits f (n / 10) t
  end.

(** [str(n)] for [n >= 0], e.g. init_functions.py:164-172. *)
Definition show_nonneg (n : Z) : string := show_digits (S (Z.to_nat (Z.log2 n))) n "".

(** [str(n)], e.g. init_functions.py:164-172, parser_arguments_run.py:221. *)
Definition str_of_Z (n : Z) : string :=
  if n <? 0 then String "-"%char (show_nonneg (- n)) else show_nonneg n.

(** ** Parsing integers: [int(s)] (ASCII digits; single underscores between
    digits are allowed, surrounding whitespace is skipped). *)

(** The digits after the sign, [int] e.g. in ConfigData.py:213. *)
Fixpoint digits_val (s : string) (acc : Z) (after_digit : bool) : option Z :=
  match s with
  | "" => if after_digit then Some acc else None
  | String c s' =>
    match digit_val c with
    | Some d => digits_val s' (10 * acc + d) true
    | None => if Ascii.eqb c "_"%char && after_digit then digits_val s' acc false else None
    end
  end.

(** Blanks at the beginning are skipped by [int], e.g. DataExtractor.py:98-99; [strip] in
    ConfigDataAnalysis.py:136. *)
Fixpoint lstrip (s : string) : string :=
  match s with
  | "" => ""
  | String c s' => if is_ws c then lstrip s' else s
  end.

(** Blanks at the end, e.g. DataExtractor.py:98-99, ConfigDataAnalysis.py:136. *)
Fixpoint rstrip (s : string) : string :=
  match s with
  | "" => ""
  | String c s' =>
    match rstrip s' with
    | "" => if is_ws c then "" else String c ""
    | t => String c t
    end
  end.

(** [s.strip()], ConfigDataAnalysis.py:136, photo_renamer.py:37-38. *)
Definition strip (s : string) : string := rstrip (lstrip s).

(** The sign, [int] e.g. in DataExtractor.py:98-99. *)
Definition parse_signed (s : string) : option Z :=
  match s with
  | String "-"%char s' => option_map Z.opp (digits_val s' 0 false)
  | String "+"%char s' => digits_val s' 0 false
  | _ => digits_val s 0 false
  end.

(** The four separators which [split] and [strip] take for blanks and [int] does not.
    ConfigData.py:213-216. *)
Definition separator (c : ascii) : bool :=
  let n := nat_of_ascii c in (28 <=? n)%nat && (n <=? 31)%nat.

(** All characters have a property; used by [int], e.g. ConfigData.py:213-216, and to state
    what a text consists of, e.g. the names of images read in image_handling.py:34-38. *)
Fixpoint all_chars (P : ascii -> bool) (s : string) : bool :=
  match s with
  | "" => true
  | String a s' => P a && all_chars P s'
  end.

(** [int(s)], e.g. DataExtractor.py:98-99, ConfigData.py:213-216. *)
Definition int_of_str (s : string) : res Z :=
  if all_chars (fun c => negb (separator c)) s then
    match parse_signed (strip s) with Some n => Ok n | None => Err ValueError end
  else Err ValueError.

(** [s.zfill(w)]: zeros are inserted after a leading sign.  init_functions.py:164-172. *)
Fixpoint zeros (k : nat) (s : string) : string :=
  match k with O => s | S k' => String "0"%char (zeros k' s) end.

(** [s.zfill(w)], init_functions.py:164-172. *)
Definition zfill (w : nat) (s : string) : string :=
  let k := (w - String.length s)%nat in
  match s with
  | String "-"%char s' => String "-"%char (zeros k s')
  | String "+"%char s' => String "+"%char (zeros k s')
  | _ => zeros k s
  end.

(** ** Splitting and joining *)

(** [s.split(c)] for a single character.  E.g. ConfigData.py:209,
    init_functions.py:118, step_2_functions.py:247. *)
Fixpoint split_on (c : ascii) (s : string) : list string :=
  match s with
  | "" => [""]
  | String a s' =>
    if Ascii.eqb a c then "" :: split_on c s'
    else match split_on c s' with
         | w :: ws => String a w :: ws
         | [] => [String a ""]          (* does not occur *)
         end
  end.

(** [s.split()]: maximal runs of non-whitespace.  ConfigData.py:213, 216. *)
Fixpoint words (s : string) (cur : string) : list string :=
  match s with
  | "" => if (cur =? "")%string then [] else [cur]
  | String a s' =>
    if is_ws a
    then if (cur =? "")%string then words s' "" else cur :: words s' ""
    else words s' (cur ++ String a "")
  end.

(** [s.split()], ConfigData.py:213, 216, ConfigDataAnalysis.py:141. *)
Definition split_ws (s : string) : list string := words s "".

(** [sep.join(l)], file_handling.py:62. *)
Definition join (sep : string) (l : list string) : string := String.concat sep l.

(** [c in s] for a character, e.g. init_functions.py:141. *)
Fixpoint has_char (c : ascii) (s : string) : bool :=
  match s with
  | "" => false
  | String a s' => Ascii.eqb a c || has_char c s'
  end.

(** ** Facts *)

Lemma app_nil_s : forall s, s ++ "" = s.
Proof. induction s as [|a s IH]; simpl; [reflexivity|]. now rewrite IH. Qed.

Lemma app_assoc_s : forall a b c, (a ++ b) ++ c = a ++ (b ++ c).
Proof. induction a as [|x a IH]; intros; simpl; [reflexivity|]. now rewrite IH. Qed.

Lemma length_app_s : forall a b, String.length (a ++ b) = (String.length a + String.length b)%nat.
Proof. induction a as [|x a IH]; intros; simpl; [reflexivity|]. now rewrite IH. Qed.

Lemma digit_val_char : forall d, 0 <= d <= 9 -> digit_val (digit_char d) = Some d.
Proof.
  intros d H.
  assert (E : d = 0 \/ d = 1 \/ d = 2 \/ d = 3 \/ d = 4 \/ d = 5 \/ d = 6 \/ d = 7 \/ d = 8 \/ d = 9) by lia.
  repeat (destruct E as [->|E]; [reflexivity|]). subst. reflexivity.
Qed.

Lemma digit_char_cases : forall d (P : ascii -> Prop), 0 <= d <= 9 ->
  P "0"%char -> P "1"%char -> P "2"%char -> P "3"%char -> P "4"%char -> P "5"%char ->
  P "6"%char -> P "7"%char -> P "8"%char -> P "9"%char -> P (digit_char d).
Proof.
  intros d P H. intros.
  assert (E : d = 0 \/ d = 1 \/ d = 2 \/ d = 3 \/ d = 4 \/ d = 5 \/ d = 6 \/ d = 7 \/ d = 8 \/ d = 9) by lia.
  repeat (destruct E as [->|E]; [assumption|]). subst. assumption.
Qed.

Lemma digits_val_cons : forall c s acc b, digits_val (String c s) acc b =
  match digit_val c with
  | Some d => digits_val s (10 * acc + d) true
  | None => if Ascii.eqb c "_"%char && b then digits_val s acc false else None
  end.
Proof. reflexivity. Qed.

(** Value of the printed digits in front of any tail. *)
Lemma show_digits_val : forall f n tail b, 0 <= n -> n < 2 ^ Z.of_nat f ->
  (0 < f)%nat ->
  digits_val (show_digits f n tail) 0 b = digits_val tail n true.
Proof.
  assert (G : forall f n tail b, 0 <= n -> n < 2 ^ Z.of_nat f -> (0 < f)%nat ->
    exists k, 0 <= k /\ forall acc, digits_val (show_digits f n tail) acc b = digits_val tail (acc * 10 ^ k + n) true).
  { induction f as [|f IH]; intros n tail b H0 H1 Hf; [lia|]. simpl show_digits.
    assert (Hd : 0 <= n mod 10 <= 9) by (pose proof (Z.mod_pos_bound n 10); lia).
    destruct (n / 10 =? 0) eqn:E.
    - apply Z.eqb_eq in E. exists 1. split; [lia|]. intros acc. rewrite digits_val_cons.
      rewrite digit_val_char by exact Hd. f_equal.
      pose proof (Z.div_mod n 10). change (10 ^ 1) with 10. lia.
    - apply Z.eqb_neq in E.
      assert (Hq : 0 <= n / 10) by (apply Z.div_pos; lia).
      assert (Hq2 : n / 10 < 2 ^ Z.of_nat f).
      { apply Z.div_lt_upper_bound; [lia|]. rewrite Nat2Z.inj_succ, Z.pow_succ_r in H1 by lia. lia. }
      assert (Hf' : (0 < f)%nat).
      { destruct f; [|lia]. simpl in Hq2. lia. }
      destruct (IH (n / 10) (String (digit_char (n mod 10)) tail) b Hq Hq2 Hf') as (k & Hk & Hv).
      exists (k + 1). split; [lia|]. intros acc. rewrite Hv. rewrite digits_val_cons.
      rewrite digit_val_char by exact Hd. f_equal.
      rewrite Z.pow_add_r by lia. change (10 ^ 1) with 10.
      pose proof (Z.div_mod n 10). lia. }
  intros f n tail b H0 H1 Hf. destruct (G f n tail b H0 H1 Hf) as (k & Hk & Hv).
  rewrite Hv. rewrite Z.mul_0_l, Z.add_0_l. reflexivity.
Qed.

Lemma show_nonneg_val : forall n b, 0 <= n -> digits_val (show_nonneg n) 0 b = Some n.
Proof.
  intros n b H. unfold show_nonneg. rewrite show_digits_val; [reflexivity|exact H| |lia].
  rewrite Nat2Z.inj_succ, Z2Nat.id by apply Z.log2_nonneg.
  destruct (Z.eq_dec n 0) as [->|]; [reflexivity|].
  apply Z.log2_spec. lia.
Qed.

Lemma show_digits_all : forall (P : ascii -> bool),
  (forall d, 0 <= d <= 9 -> P (digit_char d) = true) ->
  forall f n tail, all_chars P tail = true -> all_chars P (show_digits f n tail) = true.
Proof.
  intros P HP. induction f as [|f IH]; intros n tail Ht; simpl; [exact Ht|].
  assert (Hd : 0 <= n mod 10 <= 9) by (pose proof (Z.mod_pos_bound n 10); lia).
  assert (H : all_chars P (String (digit_char (n mod 10)) tail) = true)
    by (simpl; rewrite HP by exact Hd; exact Ht).
  destruct (n / 10 =? 0); [exact H|]. apply IH. exact H.
Qed.

(** A digit, e.g. in the pattern of step_3_functions.py:203. *)
Definition is_digit (c : ascii) : bool := match digit_val c with Some _ => true | None => false end.

Lemma is_digit_char : forall d, 0 <= d <= 9 -> is_digit (digit_char d) = true.
Proof. intros d H. unfold is_digit. rewrite digit_val_char by exact H. reflexivity. Qed.

Lemma show_nonneg_digits : forall n, all_chars is_digit (show_nonneg n) = true.
Proof. intros n. unfold show_nonneg. apply show_digits_all; [apply is_digit_char|reflexivity]. Qed.

Lemma show_digits_nonempty : forall f n tail, tail <> "" -> show_digits f n tail <> "".
Proof.
  induction f as [|f IH]; intros n tail H; simpl; [exact H|].
  destruct (n / 10 =? 0); [discriminate|]. apply IH. discriminate.
Qed.

Lemma show_nonneg_nonempty : forall n, show_nonneg n <> "".
Proof.
  intros n. unfold show_nonneg. simpl. destruct (n / 10 =? 0); [discriminate|].
  apply show_digits_nonempty. discriminate.
Qed.

Lemma all_chars_imp : forall (P Q : ascii -> bool) s,
  (forall c, P c = true -> Q c = true) -> all_chars P s = true -> all_chars Q s = true.
Proof.
  intros P Q s H. induction s as [|a s IH]; simpl; [reflexivity|].
  rewrite !andb_true_iff. intros [H1 H2]. split; auto.
Qed.

Lemma all_chars_app : forall P a b, all_chars P (a ++ b) = all_chars P a && all_chars P b.
Proof.
  intros P a b. induction a as [|x a IH]; simpl; [reflexivity|]. rewrite IH. now rewrite andb_assoc.
Qed.

Lemma all_chars_zeros : forall P k s, P "0"%char = true -> all_chars P s = true ->
  all_chars P (zeros k s) = true.
Proof. intros P k s H0 Hs. induction k as [|k IH]; simpl; [exact Hs|]. now rewrite H0, IH. Qed.

(** Characters of a printed integer.  E.g. init_functions.py:164-172. *)
Definition int_char (c : ascii) : bool := is_digit c || Ascii.eqb c "-"%char.

Lemma str_of_Z_chars : forall n, all_chars int_char (str_of_Z n) = true.
Proof.
  intros n. unfold str_of_Z. destruct (n <? 0).
  - change (all_chars int_char (show_nonneg (- n)) = true).
    apply (all_chars_imp is_digit); [|apply show_nonneg_digits].
    intros c H. unfold int_char. now rewrite H.
  - apply (all_chars_imp is_digit); [|apply show_nonneg_digits].
    intros c H. unfold int_char. now rewrite H.
Qed.

Lemma has_char_all : forall c P s, all_chars P s = true -> P c = false -> has_char c s = false.
Proof.
  intros c P s. induction s as [|a s IH]; simpl; [reflexivity|].
  rewrite andb_true_iff. intros [H1 H2] H. rewrite IH by assumption.
  destruct (Ascii.eqb a c) eqn:E; [|reflexivity]. apply Ascii.eqb_eq in E. subst. congruence.
Qed.

Lemma is_digit_not_ws : forall c, is_digit c = true -> is_ws c = false.
Proof.
  intros c. unfold is_digit, digit_val, is_ws.
  destruct ((48 <=? nat_of_ascii c)%nat && (nat_of_ascii c <=? 57)%nat) eqn:E; [|discriminate].
  intros _. apply andb_true_iff in E. destruct E as [E1 E2].
  apply Nat.leb_le in E1, E2.
  destruct (nat_of_ascii c <=? 13)%nat eqn:A; [apply Nat.leb_le in A; lia|].
  destruct (nat_of_ascii c <=? 32)%nat eqn:B; [apply Nat.leb_le in B; lia|].
  rewrite !andb_false_r. reflexivity.
Qed.

Lemma int_char_not_ws : forall c, int_char c = true -> is_ws c = false.
Proof.
  intros c H. unfold int_char in H. apply orb_true_iff in H. destruct H as [H|H].
  - apply is_digit_not_ws. exact H.
  - apply Ascii.eqb_eq in H. subst. reflexivity.
Qed.

Lemma rstrip_id : forall s, all_chars (fun c => negb (is_ws c)) s = true -> rstrip s = s.
Proof.
  induction s as [|a s IH]; simpl; [reflexivity|]. rewrite andb_true_iff. intros [H1 H2].
  rewrite IH by exact H2. destruct s; [|reflexivity].
  apply negb_true_iff in H1. rewrite H1. reflexivity.
Qed.

Lemma strip_id : forall s, all_chars (fun c => negb (is_ws c)) s = true -> strip s = s.
Proof.
  intros s H. unfold strip. replace (lstrip s) with s; [apply rstrip_id; exact H|].
  destruct s as [|a s]; [reflexivity|]. simpl in *. apply andb_true_iff in H. destruct H as [H _].
  apply negb_true_iff in H. rewrite H. reflexivity.
Qed.

Lemma strip_int : forall s, all_chars int_char s = true -> strip s = s.
Proof.
  intros s H. apply strip_id. apply (all_chars_imp int_char); [|exact H].
  intros c Hc. rewrite int_char_not_ws by exact Hc. reflexivity.
Qed.

Lemma int_char_not_separator : forall c, int_char c = true -> separator c = false.
Proof. intros [[] [] [] [] [] [] [] []] H; try reflexivity; discriminate H. Qed.

(** Digits and signs only: nothing is skipped. *)
Lemma int_of_ints : forall s, all_chars int_char s = true ->
  int_of_str s = match parse_signed s with Some n => Ok n | None => Err ValueError end.
Proof.
  intros s H. unfold int_of_str. rewrite (all_chars_imp int_char); [rewrite strip_int by exact H; reflexivity| |exact H].
  intros c Hc. rewrite int_char_not_separator by exact Hc. reflexivity.
Qed.

Lemma digits_val_zeros : forall k s b, s <> "" ->
  digits_val (zeros k s) 0 b = digits_val s 0 (match k with O => b | _ => true end).
Proof.
  induction k as [|k IH]; intros s b Hs; [reflexivity|]. simpl. rewrite IH by exact Hs.
  destruct k; reflexivity.
Qed.

Lemma zfill_nonneg_shape : forall w n, 0 <= n ->
  exists k, zfill w (show_nonneg n) = zeros k (show_nonneg n).
Proof.
  intros w n Hn. pose proof (show_nonneg_digits n) as Hd. pose proof (show_nonneg_nonempty n) as Hne.
  unfold zfill. destruct (show_nonneg n) as [|a s] eqn:E; [congruence|].
  exists (w - String.length (String a s))%nat.
  simpl in Hd. apply andb_true_iff in Hd. destruct Hd as [Hd _].
  destruct a as [[] [] [] [] [] [] [] []]; try reflexivity; discriminate.
Qed.

(** A digit string is parsed without looking at signs. *)
Lemma parse_signed_digits : forall s, s <> "" -> all_chars is_digit s = true ->
  parse_signed s = digits_val s 0 false.
Proof.
  intros s Hne Hd. destruct s as [|a s]; [congruence|]. simpl in Hd.
  apply andb_true_iff in Hd. destruct Hd as [Hd _].
  destruct a as [[] [] [] [] [] [] [] []]; try reflexivity; discriminate.
Qed.

Lemma zeros_nonempty : forall k s, s <> "" -> zeros k s <> "".
Proof. intros [|k] s H; simpl; [exact H|discriminate]. Qed.

(** [int(str(n).zfill(w)) = n] *)
Theorem int_of_zfill : forall w n, int_of_str (zfill w (str_of_Z n)) = Ok n.
Proof.
  intros w n. unfold str_of_Z. destruct (n <? 0) eqn:E.
  - apply Z.ltb_lt in E. unfold zfill. set (k := (w - _)%nat).
    rewrite int_of_ints.
    + simpl parse_signed. rewrite digits_val_zeros by apply show_nonneg_nonempty.
      rewrite show_nonneg_val by lia. simpl. f_equal. lia.
    + change (all_chars int_char (zeros k (show_nonneg (- n))) = true).
      apply all_chars_zeros; [reflexivity|].
      apply (all_chars_imp is_digit); [|apply show_nonneg_digits].
      intros c H. unfold int_char. now rewrite H.
  - apply Z.ltb_ge in E. destruct (zfill_nonneg_shape w n E) as (k & ->).
    assert (Hd : all_chars is_digit (zeros k (show_nonneg n)) = true)
      by (apply all_chars_zeros; [reflexivity|apply show_nonneg_digits]).
    rewrite int_of_ints.
    2:{ apply (all_chars_imp is_digit); [|exact Hd]. intros c H. unfold int_char. now rewrite H. }
    rewrite parse_signed_digits; [|apply zeros_nonempty, show_nonneg_nonempty|exact Hd].
    rewrite digits_val_zeros by apply show_nonneg_nonempty.
    rewrite show_nonneg_val by lia. reflexivity.
Qed.

(** [int(str(n)) = n] *)
Theorem int_of_str_of_Z : forall n, int_of_str (str_of_Z n) = Ok n.
Proof.
  intros n. pose proof (int_of_zfill 0 n) as H. replace (zfill 0 (str_of_Z n)) with (str_of_Z n) in H; [exact H|].
  unfold zfill. change (0 - String.length (str_of_Z n))%nat with 0%nat.
  destruct (str_of_Z n) as [|a s]; [reflexivity|].
  destruct a as [[] [] [] [] [] [] [] []]; reflexivity.
Qed.

Lemma str_of_Z_inj : forall a b, str_of_Z a = str_of_Z b -> a = b.
Proof.
  intros a b H. pose proof (int_of_str_of_Z a) as Ha. rewrite H, int_of_str_of_Z in Ha. congruence.
Qed.

Lemma split_on_nonempty : forall c s, split_on c s <> [].
Proof.
  intros c s. destruct s as [|a s]; simpl; [discriminate|].
  destruct (Ascii.eqb a c); [discriminate|]. destruct (split_on c s); discriminate.
Qed.

Lemma split_on_no_char : forall c s, has_char c s = false -> split_on c s = [s].
Proof.
  intros c s. induction s as [|a s IH]; simpl; [reflexivity|].
  rewrite orb_false_iff. intros [H1 H2]. rewrite H1, IH by exact H2. reflexivity.
Qed.

Lemma split_on_app : forall c s t, has_char c s = false ->
  split_on c (s ++ String c t) = s :: split_on c t.
Proof.
  intros c s t. induction s as [|a s IH]; simpl.
  - rewrite Ascii.eqb_refl. reflexivity.
  - rewrite orb_false_iff. intros [H1 H2]. rewrite H1, IH by exact H2. reflexivity.
Qed.

Theorem split_on_join : forall c fields, fields <> [] ->
  Forall (fun f => has_char c f = false) fields ->
  split_on c (join (String c "") fields) = fields.
Proof.
  intros c fields Hne H. induction H as [|f fs Hf Hfs IH]; [congruence|].
  destruct fs as [|g fs].
  - apply split_on_no_char. exact Hf.
  - unfold join in *. change (String.concat (String c "") (f :: g :: fs))
      with (f ++ String c (String.concat (String c "") (g :: fs))).
    rewrite split_on_app by exact Hf. f_equal. apply IH. discriminate.
Qed.

Lemma eqb_nil_app : forall s a, (s ++ String a "" =? "")%string = false.
Proof. intros [|x s] a; reflexivity. Qed.

Lemma words_word : forall s cur, all_chars (fun c => negb (is_ws c)) s = true ->
  words s cur = words "" (cur ++ s).
Proof.
  induction s as [|a s IH]; intros cur H; simpl.
  - rewrite ?app_nil_s. reflexivity.
  - apply andb_true_iff in H. destruct H as [H1 H2]. apply negb_true_iff in H1. rewrite H1.
    rewrite IH by exact H2. rewrite app_assoc_s. reflexivity.
Qed.

Lemma words_app_ws : forall s t cur a, all_chars (fun c => negb (is_ws c)) s = true -> is_ws a = true ->
  words (s ++ String a t) cur =
  (if (cur ++ s =? "")%string then words t "" else (cur ++ s) :: words t "").
Proof.
  induction s as [|b s IH]; intros t cur a Hs Ha; simpl.
  - rewrite Ha, app_nil_s. reflexivity.
  - apply andb_true_iff in Hs. destruct Hs as [H1 H2]. apply negb_true_iff in H1. rewrite H1.
    rewrite IH by assumption. rewrite app_assoc_s. reflexivity.
Qed.

Lemma split_ws_skip : forall w t, all_chars is_ws w = true -> split_ws (w ++ t) = split_ws t.
Proof.
  unfold split_ws. induction w as [|a w IH]; intros t H; simpl; [reflexivity|].
  simpl in H. apply andb_true_iff in H. destruct H as [H1 H2]. rewrite H1. apply IH. exact H2.
Qed.

Lemma split_ws_word : forall s a t, s <> "" -> all_chars (fun c => negb (is_ws c)) s = true ->
  is_ws a = true -> split_ws (s ++ String a t) = s :: split_ws t.
Proof.
  intros s a t Hne Hs Ha. unfold split_ws. rewrite words_app_ws by assumption. simpl.
  destruct s; [congruence|]. reflexivity.
Qed.

Lemma split_ws_last : forall s, s <> "" -> all_chars (fun c => negb (is_ws c)) s = true ->
  split_ws s = [s].
Proof.
  intros s Hne Hs. unfold split_ws. rewrite words_word by exact Hs. simpl.
  destruct s; [congruence|]. reflexivity.
Qed.
