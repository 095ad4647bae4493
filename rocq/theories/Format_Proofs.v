(** Lemmas about the text format: rounding, printing and parsing. *)
From Coq Require Import ZArith QArith Qround Qpower Qabs Lia Lqa Bool Ascii String List.
From Verif Require Import Base Str Images_Model Step3_Model Format_Model.
Import ListNotations.
Local Open Scope string_scope.
Local Open Scope Z_scope.

(** The value of the printed digits. *)
Definition sci_value (x : Q) : Q := dec_val (fst (sci x), snd (sci x) - 4).

(** ** Powers of ten *)

Lemma ten_neq : ~ (ten == 0)%Q.
Proof. unfold ten, Qeq. simpl. lia. Qed.

Lemma p10_pos : forall e, (0 < Qpower ten e)%Q.
Proof.
  intros e. assert (H : (0 <= Qpower ten e)%Q) by (apply Qpower_0_le; unfold ten, Qle; simpl; lia).
  destruct (Qle_lt_or_eq _ _ H) as [G|G]; [exact G|]. exfalso.
  symmetry in G. revert G. apply Qpower_not_0. exact ten_neq.
Qed.

Lemma p10_plus : forall a b, (Qpower ten (a + b) == Qpower ten a * Qpower ten b)%Q.
Proof. intros. apply Qpower_plus. exact ten_neq. Qed.

Lemma p10_succ : forall a, (Qpower ten (a + 1) == ten * Qpower ten a)%Q.
Proof. intros. rewrite p10_plus. change (Qpower ten 1) with ten. ring. Qed.

Lemma p10_Z : forall n, 0 <= n -> (Qpower ten n == inject_Z (10 ^ n))%Q.
Proof. intros n Hn. unfold ten. change (10 # 1) with (inject_Z 10). symmetry. apply Zpower_Qpower. exact Hn. Qed.

Lemma p10_cancel : forall a, (Qpower ten a * Qpower ten (- a) == 1)%Q.
Proof. intros. rewrite <- p10_plus. rewrite Z.add_opp_diag_r. reflexivity. Qed.

(** ** Decimal exponent *)

Lemma find_up_spec : forall fuel x e, (Qpower ten e <= x)%Q -> (x < Qpower ten (e + Z.of_nat fuel + 1))%Q ->
  (Qpower ten (find_up fuel x e) <= x)%Q /\ (x < Qpower ten (find_up fuel x e + 1))%Q.
Proof.
  induction fuel as [|f IH]; intros x e H1 H2; simpl.
  - split; [exact H1|]. replace (e + 1) with (e + Z.of_nat 0 + 1) by lia. exact H2.
  - destruct (Qle_bool (Qpower ten (e + 1)) x) eqn:E.
    + apply Qle_bool_iff in E. apply IH; [exact E|].
      replace (e + 1 + Z.of_nat f + 1) with (e + Z.of_nat (S f) + 1) by lia. exact H2.
    + split; [exact H1|]. apply Qnot_le_lt. intros C. apply Qle_bool_iff in C. congruence.
Qed.

Lemma find_down_spec : forall fuel x e, (x < Qpower ten (e + 1))%Q -> (Qpower ten (e - Z.of_nat fuel + 1) <= x)%Q ->
  (Qpower ten (find_down fuel x e) <= x)%Q /\ (x < Qpower ten (find_down fuel x e + 1))%Q.
Proof.
  induction fuel as [|f IH]; intros x e H1 H2; cbn [find_down].
  - exfalso. replace (e - Z.of_nat 0 + 1) with (e + 1) in H2 by lia. lra.
  - destruct (Qle_bool (Qpower ten e) x) eqn:E.
    + apply Qle_bool_iff in E. split; [exact E|exact H1].
    + assert (L : (x < Qpower ten e)%Q) by (apply Qnot_le_lt; intros C; apply Qle_bool_iff in C; congruence).
      apply IH.
      * replace (e - 1 + 1) with e by lia. exact L.
      * replace (e - 1 - Z.of_nat f + 1) with (e - Z.of_nat (S f) + 1) by lia. exact H2.
Qed.

Lemma log2_pow10 : forall n, 0 < n -> n < 10 ^ (Z.log2 n + 1).
Proof.
  intros n Hn. pose proof (Z.log2_spec n Hn) as [_ H]. pose proof (Z.log2_nonneg n).
  replace (Z.succ (Z.log2 n)) with (Z.log2 n + 1) in H by lia.
  eapply Z.lt_le_trans; [exact H|]. apply Z.pow_le_mono_l. lia.
Qed.

Lemma exp10_spec : forall x, (0 < x)%Q -> (Qpower ten (exp10 x) <= x)%Q /\ (x < Qpower ten (exp10 x + 1))%Q.
Proof.
  intros [a b] Hx. assert (Ha : 0 < a) by (unfold Qlt in Hx; simpl in Hx; lia).
  unfold exp10. cbn [Qnum Qden]. destruct (Qle_bool 1 (a # b)) eqn:E.
  - apply Qle_bool_iff in E. apply find_up_spec; [exact E|].
    pose proof (Z.log2_nonneg a).
    replace (0 + Z.of_nat (Z.to_nat (Z.log2 a)) + 1) with (Z.log2 a + 1) by lia.
    rewrite p10_Z by lia. pose proof (log2_pow10 a Ha).
    unfold Qlt, inject_Z. cbn [Qnum Qden]. nia.
  - assert (L : (a # b < 1)%Q) by (apply Qnot_le_lt; intros C; apply Qle_bool_iff in C; congruence).
    pose proof (Z.log2_nonneg (Zpos b)).
    apply find_down_spec; [exact L|].
    replace (-1 - Z.of_nat (Z.to_nat (Z.log2 (Zpos b) + 1)) + 1) with (- (Z.log2 (Zpos b) + 1)) by lia.
    set (k := Z.log2 (Zpos b) + 1). assert (Hk : 0 <= k) by lia.
    assert (P : (Qpower ten k * (a # b) >= 1)%Q).
    { rewrite p10_Z by lia. pose proof (log2_pow10 (Zpos b) ltac:(lia)). fold k in H0.
      unfold Qle, Qmult, inject_Z. cbn [Qnum Qden]. nia. }
    pose proof (p10_cancel k) as C. pose proof (p10_pos k) as Pk. pose proof (p10_pos (- k)) as Pm.
    assert ((Qpower ten (- k) * 1 <= Qpower ten (- k) * (Qpower ten k * (a # b)))%Q).
    { apply Qmult_le_l; assumption. }
    assert (D : (Qpower ten (- k) * (Qpower ten k * (a # b)) == (Qpower ten k * Qpower ten (- k)) * (a # b))%Q) by ring.
    rewrite D, C in H0. lra.
Qed.

(** ** Rounding *)

Lemma round_half_even_spec : forall y, (Qabs (y - inject_Z (round_half_even y)) <= 1 # 2)%Q.
Proof.
  intros y. unfold round_half_even.
  pose proof (Qfloor_le y) as L. pose proof (Qlt_floor y) as U. rewrite inject_Z_plus in U. change (inject_Z 1) with 1%Q in U.
  set (q := Qfloor y) in *.
  destruct (Qcompare (y - inject_Z q) (1 # 2)) eqn:E.
  - apply Qeq_alt in E. destruct (Z.even q).
    + rewrite E. discriminate.
    + rewrite inject_Z_plus. change (inject_Z 1) with 1%Q. apply Qabs_Qle_condition. lra.
  - apply Qlt_alt in E. apply Qabs_Qle_condition. lra.
  - apply Qgt_alt in E. rewrite inject_Z_plus. change (inject_Z 1) with 1%Q. apply Qabs_Qle_condition. lra.
Qed.

Lemma round_int : forall y z, (y == inject_Z z)%Q -> round_half_even y = z.
Proof.
  intros y z H. unfold round_half_even. assert (F : Qfloor y = z) by (rewrite H; apply Qfloor_Z).
  rewrite F. assert (E : Qcompare (y - inject_Z z) (1 # 2) = Lt).
  { assert (Z0 : (y - inject_Z z == 0)%Q) by (rewrite H; ring). apply Qlt_alt. rewrite Z0. reflexivity. }
  rewrite E. reflexivity.
Qed.

Lemma inject_Z_le : forall a b, (inject_Z a <= inject_Z b)%Q -> a <= b.
Proof. intros a b H. rewrite <- Zle_Qle in H. exact H. Qed.

Lemma sci_spec : forall x, (0 < x)%Q ->
  10000 <= fst (sci x) <= 99999 /\
  (Qabs (sci_value x - x) * 20000 <= x)%Q.
Proof.
  intros x Hx. unfold sci_value, sci.
  destruct (Qeq_bool x 0) eqn:E0; [apply Qeq_bool_iff in E0; lra|].
  destruct (exp10_spec x Hx) as [E1 E2]. set (e := exp10 x) in *.
  set (y := (x * Qpower ten (4 - e))%Q).
  assert (P4 : (Qpower ten 4 == 10000)%Q) by reflexivity.
  assert (P5 : (Qpower ten 5 == 100000)%Q) by reflexivity.
  pose proof (p10_pos (4 - e)) as Pp. pose proof (p10_pos (e - 4)) as Pq.
  assert (Y1 : (10000 <= y)%Q).
  { unfold y. rewrite <- P4. replace 4 with (e + (4 - e)) at 1 by lia. rewrite p10_plus. apply Qmult_le_compat_r; lra. }
  assert (Y2 : (y < 100000)%Q).
  { unfold y. rewrite <- P5. replace 5 with ((e + 1) + (4 - e)) at 1 by lia. rewrite (p10_plus (e + 1)).
    apply Qmult_lt_compat_r; assumption. }
  pose proof (round_half_even_spec y) as R. set (r := round_half_even y) in *.
  apply Qabs_Qle_condition in R. destruct R as [R1 R2].
  assert (r1 : 10000 <= r).
  { assert (9999 < r); [|lia]. rewrite (Zlt_Qlt 9999 r). change (inject_Z 9999) with 9999%Q. lra. }
  assert (r2 : r <= 100000).
  { assert (r < 100001); [|lia]. rewrite (Zlt_Qlt r 100001). change (inject_Z 100001) with 100001%Q. lra. }
  assert (Yx : (x == y * Qpower ten (e - 4))%Q).
  { unfold y. rewrite <- Qmult_assoc, <- p10_plus. replace (4 - e + (e - 4)) with 0 by lia. change (Qpower ten 0) with 1%Q. ring. }
  assert (Err : (Qabs (inject_Z r * Qpower ten (e - 4) - x) * 20000 <= x)%Q).
  { revert Yx. generalize x at 1 2 3. intros x' Yx. rewrite Yx.
    assert (A : (inject_Z r * Qpower ten (e - 4) - y * Qpower ten (e - 4) == (inject_Z r - y) * Qpower ten (e - 4))%Q) by ring.
    rewrite A, Qabs_Qmult, (Qabs_pos (Qpower ten (e - 4))) by lra.
    assert (B : (Qabs (inject_Z r - y) <= 1 # 2)%Q) by (apply Qabs_Qle_condition; lra).
    assert (C : (Qabs (inject_Z r - y) * 20000 <= y)%Q) by lra.
    assert (D : (Qabs (inject_Z r - y) * Qpower ten (e - 4) * 20000 == Qabs (inject_Z r - y) * 20000 * Qpower ten (e - 4))%Q) by ring.
    rewrite D. apply Qmult_le_compat_r; lra. }
  destruct (r =? 100000) eqn:Er.
  - apply Z.eqb_eq in Er. cbn [fst snd]. split; [lia|].
    assert (V : (dec_val (10000, e + 1 - 4)%Z == inject_Z r * Qpower ten (e - 4))%Q).
    { unfold dec_val. cbn [fst snd]. replace (e + 1 - 4) with ((e - 4) + 1) by lia. rewrite p10_succ, Er. unfold ten. simpl inject_Z. ring. }
    rewrite V. exact Err.
  - apply Z.eqb_neq in Er. cbn [fst snd]. split; [lia|]. unfold dec_val. cbn [fst snd]. exact Err.
Qed.

(** ** Printing and scanning *)

Lemma scan_digits_all : forall s acc n t,
  all_chars is_digit s = true ->
  match t with "" => True | String c _ => digit_val c = None end ->
  exists v, digits_val s acc true = Some v /\ scan_digits (s ++ t) acc n = (v, n + Z.of_nat (String.length s), t).
Proof.
  induction s as [|c s IH]; intros acc n t Hs Ht.
  - exists acc. split; [reflexivity|]. simpl. rewrite Z.add_0_r. destruct t as [|d t]; [reflexivity|]. simpl. rewrite Ht. reflexivity.
  - simpl in Hs. apply andb_true_iff in Hs. destruct Hs as [Hc Hs]. unfold is_digit in Hc.
    destruct (digit_val c) as [d|] eqn:E; [|discriminate].
    destruct (IH (10 * acc + d) (n + 1) t Hs Ht) as (v & V1 & V2). exists v. split.
    + rewrite digits_val_cons, E. exact V1.
    + cbn [append scan_digits]. rewrite E, V2. do 2 f_equal. cbn [String.length]. lia.
Qed.

Lemma zfill_digits : forall w n, 0 <= n ->
  all_chars is_digit (zfill w (str_of_Z n)) = true /\ zfill w (str_of_Z n) <> "" /\
  digits_val (zfill w (str_of_Z n)) 0 true = Some n.
Proof.
  intros w n Hn. assert (E : str_of_Z n = show_nonneg n) by (unfold str_of_Z; destruct (n <? 0) eqn:E; [lia|reflexivity]).
  rewrite E. destruct (zfill_nonneg_shape w n Hn) as (k & ->). split; [|split].
  - apply all_chars_zeros; [reflexivity|apply show_nonneg_digits].
  - apply zeros_nonempty. apply show_nonneg_nonempty.
  - rewrite digits_val_zeros by apply show_nonneg_nonempty. apply show_nonneg_val. exact Hn.
Qed.

Lemma parse_exponent_text : forall e,
  parse_exponent (String (if e <? 0 then "-"%char else "+"%char) (zfill 2 (str_of_Z (Z.abs e)))) = Some e.
Proof.
  intros e. destruct (zfill_digits 2 (Z.abs e) (Z.abs_nonneg e)) as (D1 & D2 & D3).
  destruct (scan_digits_all _ 0 0 "" D1 I) as (v & V1 & V2). rewrite D3 in V1. injection V1 as <-.
  rewrite app_nil_s in V2.
  assert (L : (0 + Z.of_nat (String.length (zfill 2 (str_of_Z (Z.abs e)))) =? 0) = false).
  { apply Z.eqb_neq. destruct (zfill 2 (str_of_Z (Z.abs e))); [congruence|]. cbn [String.length]. lia. }
  unfold parse_exponent. destruct (e <? 0) eqn:E; cbn [Ascii.eqb Bool.eqb]; simpl Ascii.eqb; cbn iota;
    rewrite V2, L; cbn; f_equal; lia.
Qed.

Lemma parse_mantissa : forall m e, 0 <= m <= 99999 ->
  parse_unsigned (mantissa_text m ++ exponent_text e) = Some (m, e - 4).
Proof.
  intros m e Hm. unfold parse_unsigned, mantissa_text.
  assert (D0 : digit_val (digit_char (m / 10000)) = Some (m / 10000)).
  { apply digit_val_char. split; [apply Z.div_pos; lia|]. enough (m / 10000 < 10) by lia. apply Z.div_lt_upper_bound; lia. }
  assert (D1 : digit_val (digit_char (m / 1000 mod 10)) = Some (m / 1000 mod 10)) by (apply digit_val_char; pose proof (Z.mod_pos_bound (m/1000) 10); lia).
  assert (D2 : digit_val (digit_char (m / 100 mod 10)) = Some (m / 100 mod 10)) by (apply digit_val_char; pose proof (Z.mod_pos_bound (m/100) 10); lia).
  assert (D3 : digit_val (digit_char (m / 10 mod 10)) = Some (m / 10 mod 10)) by (apply digit_val_char; pose proof (Z.mod_pos_bound (m/10) 10); lia).
  assert (D4 : digit_val (digit_char (m mod 10)) = Some (m mod 10)) by (apply digit_val_char; pose proof (Z.mod_pos_bound m 10); lia).
  cbn [append scan_digits]. rewrite D0. change (digit_val "."%char) with (@None Z). cbn iota. change (Ascii.eqb "." ".") with true. cbn iota.
  cbn [scan_digits]. rewrite D1, D2, D3, D4. unfold exponent_text. cbn [append scan_digits]. change (digit_val "e"%char) with (@None Z). cbn iota.
  replace (0 + 1 + (0 + 1 + 1 + 1 + 1) =? 0) with false by reflexivity.
  change (Ascii.eqb "e" "e" || Ascii.eqb "e" "E") with true. cbn iota.
  rewrite parse_exponent_text. f_equal. f_equal.
  assert (A : m / 100 = m / 10 / 10) by (rewrite Z.div_div by lia; reflexivity).
  assert (B : m / 1000 = m / 10 / 10 / 10) by (rewrite !Z.div_div by lia; reflexivity).
  assert (C : m / 10000 = m / 10 / 10 / 10 / 10) by (rewrite !Z.div_div by lia; reflexivity).
  rewrite A, B, C.
  pose proof (Z.div_mod m 10). pose proof (Z.div_mod (m/10) 10). pose proof (Z.div_mod (m/10/10) 10). pose proof (Z.div_mod (m/10/10/10) 10). lia.
Qed.

(** Characters of the fields: no blank (before padding), no comma, no '#'. *)
Definition num_char (c : ascii) : bool :=
  is_digit c || Ascii.eqb c "."%char || Ascii.eqb c "e"%char || Ascii.eqb c "+"%char || Ascii.eqb c "-"%char.

Lemma num_char_not_ws : forall c, num_char c = true -> is_ws c = false.
Proof. intros c. destruct c as [[] [] [] [] [] [] [] []]; vm_compute; congruence. Qed.

Definition field_char (c : ascii) : bool := negb (Ascii.eqb c ","%char) && negb (Ascii.eqb c "#"%char).

Lemma num_field_char : forall c, num_char c = true -> field_char c = true.
Proof. intros c. destruct c as [[] [] [] [] [] [] [] []]; vm_compute; congruence. Qed.

Lemma digit_num_char : forall c, is_digit c = true -> num_char c = true.
Proof. intros c H. unfold num_char. rewrite H. reflexivity. Qed.

Lemma digit_char_is_digit : forall d, 0 <= d <= 9 -> is_digit (digit_char d) = true.
Proof. exact is_digit_char. Qed.

Lemma exponent_text_chars : forall e, all_chars num_char (exponent_text e) = true.
Proof.
  intros e. unfold exponent_text. cbn [all_chars].
  destruct (zfill_digits 2 (Z.abs e) (Z.abs_nonneg e)) as (D & _).
  rewrite (all_chars_imp is_digit num_char _ digit_num_char D).
  destruct (e <? 0); reflexivity.
Qed.

Lemma mantissa_text_chars : forall m, 0 <= m <= 99999 -> all_chars num_char (mantissa_text m) = true.
Proof.
  intros m Hm. unfold mantissa_text. cbn [all_chars].
  rewrite !andb_true_iff. repeat split; try (apply digit_num_char, digit_char_is_digit).
  - split; [apply Z.div_pos; lia|]. enough (m / 10000 < 10) by lia. apply Z.div_lt_upper_bound; lia.
  - pose proof (Z.mod_pos_bound (m/1000) 10); lia.
  - pose proof (Z.mod_pos_bound (m/100) 10); lia.
  - pose proof (Z.mod_pos_bound (m/10) 10); lia.
  - pose proof (Z.mod_pos_bound m 10); lia.
Qed.

Lemma sci_range : forall x, (0 <= x)%Q -> 0 <= fst (sci x) <= 99999.
Proof.
  intros x Hx. destruct (Qeq_bool x 0) eqn:E.
  - unfold sci. rewrite E. simpl. lia.
  - assert (H : (0 < x)%Q). { destruct (Qle_lt_or_eq _ _ Hx) as [G|G]; [exact G|]. exfalso. symmetry in G. apply Qeq_bool_iff in G. congruence. }
    pose proof (proj1 (sci_spec x H)). lia.
Qed.

Definition qabs_val (x : Q) : Q := if Qle_bool 0 x then x else (- x)%Q.

Lemma qabs_val_nonneg : forall x, (0 <= qabs_val x)%Q.
Proof.
  intros x. unfold qabs_val. destruct (Qle_bool 0 x) eqn:E; [apply Qle_bool_iff; exact E|].
  assert (~ (0 <= x)%Q) by (intros C; apply Qle_bool_iff in C; congruence). apply Qnot_le_lt in H. lra.
Qed.

Lemma sci_text_chars : forall x, all_chars num_char (sci_text x) = true.
Proof.
  intros x. unfold sci_text. fold (qabs_val x). pose proof (sci_range _ (qabs_val_nonneg x)) as R.
  destruct (sci (qabs_val x)) as [m e]. cbn [fst] in R.
  assert (A : all_chars num_char (mantissa_text m ++ exponent_text e) = true).
  { rewrite all_chars_app, mantissa_text_chars, exponent_text_chars by exact R. reflexivity. }
  destruct (Qle_bool 0 x); [exact A|]. cbn [all_chars]. rewrite A. reflexivity.
Qed.

Lemma str_of_Z_num_chars : forall n, all_chars num_char (str_of_Z n) = true.
Proof.
  intros n. unfold str_of_Z. destruct (n <? 0).
  - cbn [all_chars]. rewrite (all_chars_imp _ _ _ digit_num_char (show_nonneg_digits _)). reflexivity.
  - apply (all_chars_imp _ _ _ digit_num_char (show_nonneg_digits _)).
Qed.

Lemma spaces_chars : forall (P : ascii -> bool) k s, P " "%char = true -> all_chars P s = true -> all_chars P (spaces k s) = true.
Proof. intros P k s H1 H2. induction k as [|k IH]; simpl; [exact H2|]. rewrite H1, IH. reflexivity. Qed.

Lemma pad_field_chars : forall w s, all_chars num_char s = true -> all_chars field_char (pad w s) = true.
Proof. intros w s H. unfold pad. apply spaces_chars; [reflexivity|]. apply (all_chars_imp _ _ _ num_field_char H). Qed.

Lemma lstrip_spaces : forall k s, lstrip (spaces k s) = lstrip s.
Proof. intros k s. induction k as [|k IH]; simpl; [reflexivity|exact IH]. Qed.

Lemma strip_pad : forall w s, all_chars num_char s = true -> strip (pad w s) = s.
Proof.
  intros w s H. unfold pad, strip. rewrite lstrip_spaces. change (strip s = s). apply strip_id.
  eapply all_chars_imp; [|exact H]. intros c Hc. apply num_char_not_ws in Hc. rewrite Hc. reflexivity.
Qed.

(** *** Reading numbers back *)

Lemma parse_decimal_digit_head : forall s, match s with String c _ => is_digit c = true | "" => False end ->
  parse_decimal s = parse_unsigned s.
Proof.
  intros [|c s] H; [destruct H|]. unfold parse_decimal.
  destruct (Ascii.eqb c "-"%char) eqn:E1; [apply Ascii.eqb_eq in E1; subst; discriminate|].
  destruct (Ascii.eqb c "+"%char) eqn:E2; [apply Ascii.eqb_eq in E2; subst; discriminate|]. reflexivity.
Qed.

Lemma parse_unsigned_digits : forall s v, s <> "" -> all_chars is_digit s = true -> digits_val s 0 true = Some v ->
  parse_unsigned s = Some (v, 0).
Proof.
  intros s v Hne Hs Hv. destruct (scan_digits_all s 0 0 "" Hs I) as (v' & V1 & V2). rewrite Hv in V1. injection V1 as <-.
  rewrite app_nil_s in V2. unfold parse_unsigned. rewrite V2.
  assert (L : (0 + Z.of_nat (String.length s) + 0 =? 0) = false).
  { apply Z.eqb_neq. destruct s; [congruence|]. cbn [String.length]. lia. }
  rewrite L. reflexivity.
Qed.

Lemma float_of_int_text : forall w n, exists q, float_of_str (fmt_d w n) = Ok q /\ (q == inject_Z n)%Q.
Proof.
  intros w n. unfold float_of_str, fmt_d. rewrite strip_pad by apply str_of_Z_num_chars.
  assert (P : parse_decimal (str_of_Z n) = Some (n, 0)).
  { unfold str_of_Z. destruct (n <? 0) eqn:E.
    - apply Z.ltb_lt in E. unfold parse_decimal. change (Ascii.eqb "-" "-") with true. cbn iota.
      rewrite (parse_unsigned_digits _ (- n)); [|apply show_nonneg_nonempty|apply show_nonneg_digits|apply show_nonneg_val; lia].
      simpl. f_equal. f_equal. lia.
    - apply Z.ltb_ge in E. rewrite parse_decimal_digit_head.
      + apply parse_unsigned_digits; [apply show_nonneg_nonempty|apply show_nonneg_digits|apply show_nonneg_val; lia].
      + pose proof (show_nonneg_digits n) as D. pose proof (show_nonneg_nonempty n) as Ne.
        destruct (show_nonneg n); [congruence|]. simpl in D. apply andb_true_iff in D. apply D. }
  rewrite P. eexists. split; [reflexivity|]. unfold dec_val. cbn [fst snd]. change (Qpower ten 0) with 1%Q. ring.
Qed.

Lemma float_of_max_text : forall n, exists q, float_of_str (str_of_Z n) = Ok q /\ (q == inject_Z n)%Q.
Proof.
  intros n. destruct (float_of_int_text 0 n) as (q & H). exists q. unfold fmt_d, pad in H. exact H.
Qed.

Lemma mantissa_head_digit : forall m t, 0 <= m <= 99999 ->
  match mantissa_text m ++ t with String c _ => is_digit c = true | "" => False end.
Proof.
  intros m t Hm. unfold mantissa_text. cbn [append]. apply digit_char_is_digit.
  split; [apply Z.div_pos; lia|]. enough (m / 10000 < 10) by lia. apply Z.div_lt_upper_bound; lia.
Qed.

Lemma float_of_sci_text : forall x, (0 <= x)%Q ->
  float_of_str (fmt_e x) = Ok (sci_value x).
Proof.
  intros x Hx. unfold float_of_str, fmt_e. rewrite strip_pad by apply sci_text_chars.
  unfold sci_text. assert (E : Qle_bool 0 x = true) by (apply Qle_bool_iff; exact Hx). rewrite E.
  pose proof (sci_range x Hx) as R. unfold sci_value. destruct (sci x) as [m e]. cbn [fst snd] in *.
  rewrite parse_decimal_digit_head by (apply mantissa_head_digit; exact R).
  rewrite parse_mantissa by exact R. reflexivity.
Qed.

(** Closeness of a value read back to the value written. *)
Definition close5 (x v : Q) : Prop := (Qabs (v - x) * 20000 <= Qabs x)%Q.

Lemma float_of_sci_close : forall x, (0 <= x)%Q -> exists v, float_of_str (fmt_e x) = Ok v /\ close5 x v /\
  (forall z, (x == inject_Z z)%Q -> z <= 99999 -> (v == inject_Z z)%Q).
Proof.
  intros x Hx. rewrite float_of_sci_text by exact Hx. eexists. split; [reflexivity|].
  destruct (Qeq_bool x 0) eqn:E.
  - apply Qeq_bool_iff in E. assert (S : sci x = (0, 0)).
    { unfold sci. apply Qeq_bool_iff in E. rewrite E. reflexivity. }
    unfold sci_value. rewrite S. cbn [fst snd]. assert (V : (dec_val (0, 0 - 4)%Z == 0)%Q) by reflexivity. split.
    + unfold close5. rewrite V, E. discriminate.
    + intros z Hz _. rewrite V, <- Hz, E. reflexivity.
  - assert (H : (0 < x)%Q). { destruct (Qle_lt_or_eq _ _ Hx) as [G|G]; [exact G|]. exfalso. symmetry in G. apply Qeq_bool_iff in G. congruence. }
    split.
    + unfold close5. rewrite (Qabs_pos x) by lra. apply (proj2 (sci_spec x H)).
    + intros z Hz Hs. 
      assert (Hpos : 0 < z). { rewrite (Zlt_Qlt 0 z). rewrite <- Hz. exact H. }
      (* sci depends on the value only through comparisons; use the defining bound *)
      destruct (sci_spec x H) as [M1 M2].
      destruct (exp10_spec x H) as [E1 E2].
      assert (G : (sci_value x == x)%Q); [|rewrite G; exact Hz].
      clear M1 M2. unfold sci_value, sci. rewrite E. set (e := exp10 x) in *.
      assert (He : e <= 4).
      { destruct (Z_le_gt_dec e 4) as [He|He]; [exact He|]. exfalso.
        assert (P : (inject_Z (10 ^ 5) <= Qpower ten e)%Q).
        { rewrite p10_Z by lia. rewrite <- Zle_Qle. apply Z.pow_le_mono_r; lia. }
        assert (C : (inject_Z (10 ^ 5) <= inject_Z z)%Q) by lra. apply inject_Z_le in C. change (10 ^ 5) with 100000 in C. lia. }
      assert (Hr : (x * Qpower ten (4 - e) == inject_Z (z * 10 ^ (4 - e)))%Q).
      { rewrite p10_Z by lia. rewrite Hz, <- inject_Z_mult. reflexivity. }
      rewrite (round_int _ _ Hr).
      assert (V : (inject_Z (z * 10 ^ (4 - e)) * Qpower ten (e - 4) == x)%Q).
      { rewrite <- Hr, <- Qmult_assoc, <- p10_plus. replace (4 - e + (e - 4)) with 0 by lia. change (Qpower ten 0) with 1%Q. ring. }
      destruct (z * 10 ^ (4 - e) =? 100000) eqn:Er.
      * apply Z.eqb_eq in Er. rewrite Er in V. unfold dec_val. cbn [fst snd].
        replace (e + 1 - 4) with ((e - 4) + 1) by lia. rewrite p10_succ. rewrite <- V. unfold ten. simpl inject_Z. ring.
      * unfold dec_val. cbn [fst snd]. exact V.
Qed.

(** ** Lines *)

Lemma cut_comment_id : forall s, has_char "#"%char s = false -> cut_comment s = s.
Proof.
  induction s as [|c s IH]; intros H; [reflexivity|]. simpl in H |- *. apply orb_false_iff in H. destruct H as [H1 H2].
  rewrite H1, IH by exact H2. reflexivity.
Qed.

Lemma field_no_comma : forall s, all_chars field_char s = true -> has_char ","%char s = false.
Proof. intros s H. apply (has_char_all _ field_char); [exact H|reflexivity]. Qed.

Lemma field_no_hash : forall s, all_chars field_char s = true -> has_char "#"%char s = false.
Proof. intros s H. apply (has_char_all _ field_char); [exact H|reflexivity]. Qed.

Lemma has_char_app : forall c a b, has_char c (a ++ b) = has_char c a || has_char c b.
Proof. intros c a b. induction a as [|x a IH]; simpl; [reflexivity|]. rewrite IH, orb_assoc. reflexivity. Qed.

Lemma has_char_join : forall c fields, Ascii.eqb ","%char c = false -> (forall f, In f fields -> has_char c f = false) ->
  has_char c (join "," fields) = false.
Proof.
  intros c fields Hc. induction fields as [|f fs IH]; intros H; [reflexivity|].
  assert (Hf : has_char c f = false) by (apply H; left; reflexivity).
  specialize (IH (fun g Hg => H g (or_intror Hg))).
  unfold join in *. destruct fs as [|g fs]; [exact Hf|].
  change (String.concat "," (f :: g :: fs)) with (f ++ "," ++ String.concat "," (g :: fs)).
  rewrite !has_char_app, Hf, IH. cbn [has_char]. rewrite Hc. reflexivity.
Qed.

(** A line made of such fields is read as these fields. *)
Lemma csv_line : forall fields, fields <> [] -> (exists f, In f fields /\ f <> "") ->
  (forall f, In f fields -> all_chars field_char f = true) ->
  csv_rows [join "," fields] = [fields].
Proof.
  intros fields Hne Hnon H. unfold csv_rows. cbn [map].
  rewrite cut_comment_id by (apply has_char_join; [reflexivity|]; intros f Hf; apply field_no_hash, H, Hf).
  cbn [filter]. assert (E : (join "," fields =? "")%string = false).
  { apply String.eqb_neq. intros C. destruct Hnon as (f & Hf & Hn).
    assert (S : split_on ","%char (join "," fields) = fields).
    { apply split_on_join; [exact Hne|]. apply Forall_forall. intros g Hg. apply field_no_comma, H, Hg. }
    rewrite C in S. simpl in S. subst fields. destruct Hf as [<-|[]]. congruence. }
  rewrite E. cbn [negb map]. f_equal. apply split_on_join; [exact Hne|]. apply Forall_forall. intros g Hg. apply field_no_comma, H, Hg.
Qed.

Lemma csv_rows_app : forall a b, csv_rows (a ++ b) = (csv_rows a ++ csv_rows b)%list.
Proof.
  intros a b. unfold csv_rows. rewrite map_app.
  assert (F : forall (P : string -> bool) l1 l2, filter P (l1 ++ l2) = (filter P l1 ++ filter P l2)%list).
  { intros P l1 l2. induction l1 as [|x l1 IH]; simpl; [reflexivity|]. destruct (P x); simpl; rewrite IH; reflexivity. }
  rewrite F, map_app. reflexivity.
Qed.

Lemma csv_header : forall b i c t f, csv_rows (header_lines b i c t f) = [].
Proof. reflexivity. Qed.
