(** C25, C26 (file side): the result file of an image and reading it back. *)
From Coq Require Import ZArith QArith Qround Qpower Qabs Lia Lqa Bool Ascii String List.
From Verif Require Import Base Str Images_Model Step3_Model Step2_Proofs Format_Model Format_Proofs.
Import ListNotations.
Local Open Scope string_scope.
Local Open Scope Z_scope.

(** ** Helper lemmas *)

Lemma app_assoc_s : forall a b c : string, (a ++ b) ++ c = a ++ (b ++ c).
Proof. induction a as [|x a IH]; intros b c; simpl; [reflexivity|]. rewrite IH. reflexivity. Qed.

Lemma length_app_s : forall a b, String.length (a ++ b) = (String.length a + String.length b)%nat.
Proof. induction a as [|x a IH]; intros b; simpl; [reflexivity|]. rewrite IH. reflexivity. Qed.

Lemma length_zeros_ge : forall k s, (k <= String.length (zeros k s))%nat.
Proof. induction k as [|k IH]; intros s; simpl; [lia|]. specialize (IH s). lia. Qed.

(** A number printed with '10.4e' fills its field. *)
Lemma fmt_e_unpadded : forall x, fmt_e x = sci_text x.
Proof.
  intros x. unfold fmt_e, pad. enough (H : (10 <= String.length (sci_text x))%nat).
  { replace (10 - String.length (sci_text x))%nat with 0%nat by lia. reflexivity. }
  unfold sci_text. destruct (sci _) as [m e].
  assert (L : (2 <= String.length (zfill 2 (str_of_Z (Z.abs e))))%nat).
  { assert (E : str_of_Z (Z.abs e) = show_nonneg (Z.abs e)) by (unfold str_of_Z; destruct (Z.abs e <? 0) eqn:E; [lia|reflexivity]).
    pose proof (zfill_digits 2 (Z.abs e) (Z.abs_nonneg e)) as (D & N & V).
    destruct (zfill 2 (str_of_Z (Z.abs e))) as [|c [|c2 s]] eqn:F; [congruence| |simpl; lia].
    exfalso. rewrite E in F. unfold zfill in F.
    destruct (show_nonneg (Z.abs e)) as [|a [|b t]] eqn:G.
    - apply (show_nonneg_nonempty (Z.abs e) G).
    - destruct a as [[] [] [] [] [] [] [] []]; try discriminate F; pose proof (show_nonneg_digits (Z.abs e)) as X; rewrite G in X; vm_compute in X; congruence.
    - destruct a as [[] [] [] [] [] [] [] []]; simpl in F; destruct (String.length t) in F; simpl in F; congruence. }
  assert (M : (10 <= String.length (mantissa_text m ++ exponent_text e))%nat).
  { rewrite length_app_s. unfold mantissa_text, exponent_text. cbn [String.length]. lia. }
  destruct (Qle_bool 0 x); [exact M|]. cbn [String.length]. lia.
Qed.

Lemma scan_digits_through : forall s acc n t v, all_chars is_digit s = true -> digits_val s acc true = Some v ->
  scan_digits (s ++ t) acc n = scan_digits t v (n + Z.of_nat (String.length s)).
Proof.
  induction s as [|c s IH]; intros acc n t v Hs Hv.
  - simpl in Hv. injection Hv as <-. simpl. rewrite Z.add_0_r. reflexivity.
  - simpl in Hs. apply andb_true_iff in Hs. destruct Hs as [Hc Hs]. unfold is_digit in Hc.
    rewrite digits_val_cons in Hv. cbn [append scan_digits].
    destruct (digit_val c) as [d|] eqn:E; [|discriminate].
    rewrite (IH _ _ t v Hs Hv). f_equal. cbn [String.length]. lia.
Qed.

(** Digits running into a printed number: the fields [max] and [led_center_x]. *)
Lemma parse_glued : forall k m e, 0 <= k -> 0 <= m <= 99999 ->
  parse_unsigned (str_of_Z k ++ mantissa_text m ++ exponent_text e) = Some (k * 100000 + m, e - 4).
Proof.
  intros k m e Hk Hm.
  assert (E : str_of_Z k = show_nonneg k) by (unfold str_of_Z; destruct (k <? 0) eqn:E; [lia|reflexivity]). rewrite E.
  unfold parse_unsigned.
  rewrite (scan_digits_through _ 0 0 _ k (show_nonneg_digits k) (show_nonneg_val k true Hk)).
  set (len := Z.of_nat (String.length (show_nonneg k))). assert (Hl : 0 <= len) by (unfold len; lia). clearbody len.
  unfold mantissa_text.
  assert (D0 : digit_val (digit_char (m / 10000)) = Some (m / 10000)).
  { apply digit_val_char. split; [apply Z.div_pos; lia|]. enough (m / 10000 < 10) by lia. apply Z.div_lt_upper_bound; lia. }
  assert (D1 : digit_val (digit_char (m / 1000 mod 10)) = Some (m / 1000 mod 10)) by (apply digit_val_char; pose proof (Z.mod_pos_bound (m/1000) 10); lia).
  assert (D2 : digit_val (digit_char (m / 100 mod 10)) = Some (m / 100 mod 10)) by (apply digit_val_char; pose proof (Z.mod_pos_bound (m/100) 10); lia).
  assert (D3 : digit_val (digit_char (m / 10 mod 10)) = Some (m / 10 mod 10)) by (apply digit_val_char; pose proof (Z.mod_pos_bound (m/10) 10); lia).
  assert (D4 : digit_val (digit_char (m mod 10)) = Some (m mod 10)) by (apply digit_val_char; pose proof (Z.mod_pos_bound m 10); lia).
  cbn [append scan_digits]. rewrite D0. change (digit_val "."%char) with (@None Z). cbn iota. change (Ascii.eqb "." ".") with true. cbn iota.
  cbn [scan_digits]. rewrite D1, D2, D3, D4. unfold exponent_text. cbn [append scan_digits]. change (digit_val "e"%char) with (@None Z). cbn iota.
  replace (0 + len + 1 + (0 + 1 + 1 + 1 + 1) =? 0) with false by (symmetry; apply Z.eqb_neq; lia).
  change (Ascii.eqb "e" "e" || Ascii.eqb "e" "E") with true. cbn iota.
  rewrite parse_exponent_text. f_equal. f_equal.
  assert (A : m / 100 = m / 10 / 10) by (rewrite Z.div_div by lia; reflexivity).
  assert (B : m / 1000 = m / 10 / 10 / 10) by (rewrite !Z.div_div by lia; reflexivity).
  assert (C : m / 10000 = m / 10 / 10 / 10 / 10) by (rewrite !Z.div_div by lia; reflexivity).
  rewrite A, B, C.
  pose proof (Z.div_mod m 10). pose proof (Z.div_mod (m/10) 10). pose proof (Z.div_mod (m/10/10) 10). pose proof (Z.div_mod (m/10/10/10) 10). lia.
Qed.

(** Any number comes back to within 5 digits. *)
Lemma float_of_sci_any : forall x, exists v, float_of_str (fmt_e x) = Ok v /\ close5 x v.
Proof.
  intros x. destruct (Qle_bool 0 x) eqn:E.
  - apply Qle_bool_iff in E. destruct (float_of_sci_close x E) as (v & V1 & V2 & _). exists v. split; assumption.
  - assert (Hx : (0 < - x)%Q).
    { assert (~ (0 <= x)%Q) by (intros C; apply Qle_bool_iff in C; congruence). apply Qnot_le_lt in H. lra. }
    exists (- sci_value (- x))%Q. split.
    + unfold float_of_str, fmt_e. rewrite strip_pad by apply sci_text_chars. unfold sci_text. rewrite E.
      pose proof (sci_range (- x) ltac:(lra)) as R. unfold sci_value. destruct (sci (- x)) as [m e]. cbn [fst snd] in *.
      unfold parse_decimal. change (Ascii.eqb "-" "-") with true. cbn iota.
      rewrite parse_mantissa by exact R. cbn [option_map fst snd]. f_equal. unfold dec_val. cbn [fst snd].
      rewrite inject_Z_opp. unfold Qopp, Qmult. cbn [Qnum Qden]. f_equal. lia.
    + destruct (sci_spec (- x) Hx) as [_ M]. unfold close5. rewrite (Qabs_neg x) by lra.
      setoid_replace (- sci_value (- x) - x)%Q with (- (sci_value (- x) - - x))%Q by ring.
      rewrite Qabs_opp. exact M.
Qed.

(** A field that is read as a number. *)
Definition field_ok (f : string) (v : Q) : Prop :=
  all_chars field_char f = true /\ f <> "" /\ float_of_str f = Ok v.

Lemma pad_nonempty : forall w s, s <> "" -> pad w s <> "".
Proof. intros w s H. unfold pad. destruct (w - String.length s)%nat; [exact H|discriminate]. Qed.

Lemma sci_text_nonempty : forall x, sci_text x <> "".
Proof. intros x. unfold sci_text, mantissa_text. destruct (sci _). destruct (Qle_bool 0 x); discriminate. Qed.

Lemma str_of_Z_ne : forall n, str_of_Z n <> "".
Proof. intros n. unfold str_of_Z. destruct (n <? 0); [discriminate|apply show_nonneg_nonempty]. Qed.

Lemma field_fmt_d : forall w n, exists v, field_ok (fmt_d w n) v /\ (v == inject_Z n)%Q.
Proof.
  intros w n. destruct (float_of_int_text w n) as (v & V1 & V2). exists v. split; [|exact V2].
  split; [|split; [|exact V1]].
  - apply pad_field_chars, str_of_Z_num_chars.
  - apply pad_nonempty, str_of_Z_ne.
Qed.

Lemma field_max : forall n, exists v, field_ok (str_of_Z n) v /\ (v == inject_Z n)%Q.
Proof. intros n. destruct (field_fmt_d 0 n) as (v & H). exists v. exact H. Qed.

Lemma field_fmt_e : forall x, exists v, field_ok (fmt_e x) v /\ close5 x v.
Proof.
  intros x. destruct (float_of_sci_any x) as (v & V1 & V2). exists v. split; [|exact V2].
  split; [|split; [|exact V1]].
  - apply pad_field_chars, sci_text_chars.
  - apply pad_nonempty, sci_text_nonempty.
Qed.

Lemma field_blank : forall f v, field_ok f v -> field_ok (String " "%char f) v.
Proof.
  intros f v (A & B & C). split; [|split].
  - cbn [all_chars]. rewrite A. reflexivity.
  - discriminate.
  - unfold float_of_str in *. replace (strip (String " " f)) with (strip f); [exact C|]. reflexivity.
Qed.

Lemma mapM_fields : forall fs vs, Forall2 field_ok fs vs -> mapM float_of_str fs = Ok vs.
Proof.
  intros fs vs H. induction H as [|f v fs vs (A & B & C) H IH]; [reflexivity|].
  cbn [mapM]. rewrite C. cbn [bind]. rewrite IH. reflexivity.
Qed.

(** A line whose fields are numbers. *)
Definition line_ok (line : string) (row : list Q) : Prop :=
  exists fs, line = join "," fs /\ fs <> [] /\ Forall2 field_ok fs row.

Lemma csv_rows_lines : forall lines rows, Forall2 line_ok lines rows ->
  exists fss, csv_rows lines = fss /\ mapM (mapM float_of_str) fss = Ok rows.
Proof.
  intros lines rows H. induction H as [|line row lines rows (fs & -> & Hne & Hf) H (fss & IH1 & IH2)].
  - exists []. split; reflexivity.
  - exists (fs :: fss). split.
    + change (join "," fs :: lines) with ([join "," fs] ++ lines)%list. rewrite csv_rows_app, IH1.
      rewrite csv_line; [reflexivity|exact Hne| |].
      * destruct fs as [|f fs]; [congruence|]. exists f. split; [left; reflexivity|]. inversion Hf as [|? ? ? ? Hf1 Hf2]; subst. apply Hf1.
      * intros f Hi. clear - Hf Hi. induction Hf as [|g v gs vs (A & _) Hg IH]; [destruct Hi|].
        destruct Hi as [<-|Hi]; [exact A|apply IH; exact Hi].
    + cbn [mapM]. rewrite (mapM_fields _ _ Hf). cbn [bind]. rewrite IH2. reflexivity.
Qed.

Lemma read_floats_lines : forall hdr lines rows n, csv_rows hdr = [] ->
  Forall2 line_ok lines rows -> Forall (fun r => List.length r = n) rows ->
  read_floats (hdr ++ lines) = Ok rows.
Proof.
  intros hdr lines rows n Hh H Hn. destruct (csv_rows_lines _ _ H) as (fss & E1 & E2).
  unfold read_floats. rewrite csv_rows_app, Hh. cbn [app]. rewrite E1, E2. cbn [bind].
  destruct rows as [|r rs]; [reflexivity|]. inversion Hn as [|? ? Hr Hrs]; subst.
  assert (F : forallb (fun x => (List.length x =? List.length r)%nat) rs = true).
  { apply forallb_forall. intros x Hx. apply Nat.eqb_eq. rewrite Forall_forall in Hrs. apply Hrs, Hx. }
  rewrite F. reflexivity.
Qed.

(** ** C25 *)

(** What a fast-mode row of the file must contain for a record. *)
Definition reads_back (d : led_data fit_data) (row : list Q) : Prop :=
  exists i a s mn mx, row = [i; a; s; mn; mx] /\
    (i == inject_Z (d_id d))%Q /\ (a == inject_Z (d_array d))%Q /\ (mx == inject_Z (d_max d))%Q /\
    close5 (inject_Z (d_sum d)) s /\ close5 (d_mean d) mn /\
    (0 <= d_sum d <= 99999 -> (s == inject_Z (d_sum d))%Q) /\
    (0 <= d_sum d -> exists z, (s == inject_Z z)%Q).

(** Sums come back as whole numbers. *)
Lemma sum_whole : forall n v, 0 <= n -> float_of_str (fmt_e (inject_Z n)) = Ok v -> exists z, (v == inject_Z z)%Q.
Proof.
  intros n v Hn Hv. assert (Hq : (0 <= inject_Z n)%Q) by (change 0%Q with (inject_Z 0); rewrite <- Zle_Qle; exact Hn).
  destruct (Z_le_gt_dec n 99999) as [L|G].
  - destruct (float_of_sci_close _ Hq) as (w & W1 & _ & W3). rewrite Hv in W1. apply Ok_inj in W1. subst w.
    exists n. apply W3; [reflexivity|exact L].
  - rewrite float_of_sci_text in Hv by exact Hq. apply Ok_inj in Hv. subst v.
    assert (Hpos : (0 < inject_Z n)%Q) by (change 0%Q with (inject_Z 0); rewrite <- Zlt_Qlt; lia).
    assert (He : 4 <= snd (sci (inject_Z n))).
    { destruct (exp10_spec _ Hpos) as [_ U]. unfold sci. destruct (Qeq_bool (inject_Z n) 0) eqn:E0; [apply Qeq_bool_iff in E0; lra|].
      assert (K : 4 <= exp10 (inject_Z n)).
      { destruct (Z_le_gt_dec 4 (exp10 (inject_Z n))) as [K|K]; [exact K|]. exfalso.
        assert (B : (Qpower ten (exp10 (inject_Z n) + 1) <= inject_Z (10 ^ 4))%Q).
        { destruct (Z_le_gt_dec 0 (exp10 (inject_Z n) + 1)) as [P|P].
          - rewrite p10_Z by exact P. rewrite <- Zle_Qle. apply Z.pow_le_mono_r; lia.
          - pose proof (p10_cancel (exp10 (inject_Z n) + 1)) as C. pose proof (p10_pos (exp10 (inject_Z n) + 1)) as P1.
            assert (P2 : (1 <= Qpower ten (- (exp10 (inject_Z n) + 1)))%Q).
            { rewrite p10_Z by lia. change 1%Q with (inject_Z 1). rewrite <- Zle_Qle.
              assert (0 < 10 ^ (- (exp10 (inject_Z n) + 1))) by (apply Z.pow_pos_nonneg; lia). lia. }
            assert (Qpower ten (exp10 (inject_Z n) + 1) <= 1)%Q by nra.
            assert (1 <= inject_Z (10 ^ 4))%Q by (vm_compute; discriminate). lra. }
        assert (D : (inject_Z n < inject_Z (10 ^ 4))%Q) by lra. rewrite <- Zlt_Qlt in D. change (10 ^ 4) with 10000 in D. lia. }
      destruct (_ =? 100000); cbn [snd]; lia. }
    exists (fst (sci (inject_Z n)) * 10 ^ (snd (sci (inject_Z n)) - 4)).
    unfold sci_value, dec_val. cbn [fst snd]. rewrite p10_Z by lia. rewrite <- inject_Z_mult. reflexivity.
Qed.

Lemma fast_line_ok : forall d, d_fit d = None -> exists row, line_ok (led_line d) row /\ reads_back d row.
Proof.
  intros d Hd. unfold led_line, main_data_string. rewrite Hd, app_nil_s.
  destruct (field_fmt_d 4 (d_id d)) as (i & I1 & I2).
  destruct (field_fmt_d 2 (d_array d)) as (a & A1 & A2).
  destruct (field_fmt_e (inject_Z (d_sum d))) as (s & S1 & S2).
  destruct (field_fmt_e (d_mean d)) as (mn & M1 & M2).
  destruct (field_max (d_max d)) as (mx & X1 & X2).
  exists [i; a; s; mn; mx]. split.
  - exists [fmt_d 4 (d_id d); fmt_d 2 (d_array d); fmt_e (inject_Z (d_sum d)); fmt_e (d_mean d); str_of_Z (d_max d)].
    split; [reflexivity|]. split; [discriminate|]. repeat (constructor; [assumption|]). constructor.
  - exists i, a, s, mn, mx. split; [reflexivity|]. do 5 (split; [assumption|]). destruct S1 as (_ & _ & S1). split.
    + intros R. destruct (float_of_sci_close (inject_Z (d_sum d))) as (s' & T1 & _ & T3).
      { change 0%Q with (inject_Z 0). rewrite <- Zle_Qle. lia. }
      rewrite S1 in T1. apply Ok_inj in T1. subst s'. apply T3; [reflexivity|lia].
    + intros R. apply (sum_whole _ _ R S1).
Qed.

Theorem C25_result_file_read_back : forall basename img channel time (ds : list (led_data fit_data)),
  Forall (fun d => d_fit d = None) ds ->
  exists rows, read_floats (result_file basename img channel time false ds) = Ok rows /\
               Forall2 reads_back ds rows.
Proof.
  intros b i c t ds H. unfold result_file.
  assert (X : exists rows, Forall2 line_ok (map led_line ds) rows /\ Forall2 reads_back ds rows).
  { induction H as [|d ds Hd H (rows & R1 & R2)]; [exists []; split; constructor|].
    destruct (fast_line_ok d Hd) as (row & W1 & W2). exists (row :: rows). split; constructor; assumption. }
  destruct X as (rows & R1 & R2). exists rows. split; [|exact R2].
  apply (read_floats_lines _ _ _ 5); [apply csv_header|exact R1|].
  clear R1 H. induction R2 as [|d row ds rows (? & ? & ? & ? & ? & -> & _) R2 IH]; constructor; [reflexivity|exact IH].
Qed.
Print Assumptions C25_result_file_read_back.

Definition ex_record : led_data fit_data := LedData 7 1 123456 (123456 # 400) 255 None.

(** The hypothesis holds, and the line looks as the code writes it. *)
Example C25_example_line : led_line ex_record = "   7, 1,1.2346e+05,3.0864e+02,255".
Proof. vm_compute. reflexivity. Qed.

Example C25_example_file :
  exists i a mn mx, read_floats (result_file "IMG_{}.JPG" "IMG_7.JPG" 0 "3" false [ex_record]) = Ok [[i; a; 123460; mn; mx]]%Q
  /\ (i == 7)%Q /\ (mx == 255)%Q.
Proof. do 4 eexists. split; [vm_compute; reflexivity|]. split; reflexivity. Qed.

(** Sums above 99999 do not come back exactly. *)
Theorem C25_large_sums_are_rounded_refuted :
  exists d : led_data fit_data, d_fit d = None /\
  exists i a s mn mx, read_floats (result_file "IMG_{}.JPG" "IMG_7.JPG" 0 "3" false [d]) = Ok [[i; a; s; mn; mx]] /\
  ~ (s == inject_Z (d_sum d))%Q.
Proof.
  exists ex_record. split; [reflexivity|]. do 5 eexists. split; [vm_compute; reflexivity|].
  vm_compute. discriminate.
Qed.
Print Assumptions C25_large_sums_are_rounded_refuted.

(** ** C26: lines written in fit mode *)

(** The value at the fifth place: the maximum's digits run into those of
    [led_center_x], whose decimal exponent is [e]. *)
Definition glued (max : Z) (cx v : Q) : Prop :=
  exists e w, (v == inject_Z max * Qpower ten (e + 1) + w)%Q /\ close5 cx w /\ ((1 <= cx)%Q -> 0 <= e).

Lemma head_digit_max : forall k t, 0 <= k -> match str_of_Z k ++ t with String c _ => is_digit c = true | "" => False end.
Proof.
  intros k t Hk. assert (E : str_of_Z k = show_nonneg k) by (unfold str_of_Z; destruct (k <? 0) eqn:E; [lia|reflexivity]).
  rewrite E. pose proof (show_nonneg_digits k) as D. pose proof (show_nonneg_nonempty k) as N.
  destruct (show_nonneg k) as [|ch s]; [congruence|]. cbn [append]. cbn [all_chars] in D.
  apply andb_true_iff in D. apply D.
Qed.

Lemma field_glued : forall k x, 0 <= k -> (0 <= x)%Q -> exists v, field_ok (str_of_Z k ++ fmt_e x) v /\ glued k x v.
Proof.
  intros k x Hk Hx. rewrite fmt_e_unpadded.
  assert (C : all_chars num_char (str_of_Z k ++ sci_text x) = true) by (rewrite all_chars_app, str_of_Z_num_chars, sci_text_chars; reflexivity).
  destruct (float_of_sci_close x Hx) as (w & W1 & W2 & _). rewrite float_of_sci_text in W1 by exact Hx. apply Ok_inj in W1. subst w.
  pose proof (sci_range x Hx) as R.
  exists (dec_val (k * 100000 + fst (sci x), snd (sci x) - 4)). split.
  - split; [|split].
    + apply (all_chars_imp _ _ _ num_field_char C).
    + pose proof (str_of_Z_ne k). destruct (str_of_Z k); [congruence|discriminate].
    + unfold float_of_str. rewrite strip_id.
      2:{ eapply all_chars_imp; [|exact C]. intros c Hc. apply num_char_not_ws in Hc. rewrite Hc. reflexivity. }
      unfold sci_text. assert (E : Qle_bool 0 x = true) by (apply Qle_bool_iff; exact Hx). rewrite E.
      destruct (sci x) as [m e] eqn:S. cbn [fst snd] in R |- *.
      rewrite parse_decimal_digit_head; [rewrite parse_glued by assumption; reflexivity|].
      apply head_digit_max. exact Hk.
  - exists (snd (sci x)), (sci_value x). split; [|split; [exact W2|]].
    + unfold sci_value, dec_val. cbn [fst snd]. rewrite inject_Z_plus, inject_Z_mult.
      replace (snd (sci x) + 1) with (5 + (snd (sci x) - 4)) by lia. rewrite p10_plus.
      change (Qpower ten 5) with (inject_Z 100000). ring.
    + intros H1. unfold sci. destruct (Qeq_bool x 0) eqn:E0; [simpl; lia|].
      assert (He : 0 <= exp10 x).
      { destruct (exp10_spec x ltac:(lra)) as [_ U]. destruct (Z_le_gt_dec 0 (exp10 x)) as [G|G]; [exact G|]. exfalso.
        assert (P : (Qpower ten (exp10 x + 1) <= 1)%Q).
        { pose proof (p10_cancel (exp10 x + 1)) as K. pose proof (p10_pos (exp10 x + 1)) as P1.
          assert (P2 : (1 <= Qpower ten (- (exp10 x + 1)))%Q).
          { rewrite p10_Z by lia. change 1%Q with (inject_Z 1). rewrite <- Zle_Qle. assert (0 < 10 ^ (- (exp10 x + 1))) by (apply Z.pow_pos_nonneg; lia). lia. }
          nra. }
        lra. }
      destruct (_ =? 100000); cbn [snd]; lia.
Qed.

(** What a fit-mode row of the file contains: 18 numbers, the fifth being no
    recorded quantity; [led_center_y] and everything after it stand one place
    further left than in the header. *)
Definition fit_row (d : led_data fit_data) (f : fit_data) (row : list Q) : Prop :=
  exists i a s mn g cy ps su fu nf ti,
    row = ([i; a; s; mn; g; cy] ++ ps ++ [su; fu; nf; ti])%list /\
    (i == inject_Z (d_id d))%Q /\ (a == inject_Z (d_array d))%Q /\
    close5 (inject_Z (d_sum d)) s /\ close5 (d_mean d) mn /\
    (0 <= d_sum d <= 99999 -> (s == inject_Z (d_sum d))%Q) /\ (0 <= d_sum d -> exists z, (s == inject_Z z)%Q) /\
    glued (d_max d) (f_cx f) g /\
    close5 (f_cy f) cy /\ Forall2 close5 (f_pars f) ps /\
    (su == if f_success f then 1 else 0)%Q /\ close5 (f_fun f) fu /\
    (nf == inject_Z (f_nfev f))%Q /\ close5 (f_time f) ti.

Lemma fit_line_ok : forall d f, d_fit d = Some f -> List.length (f_pars f) = 8%nat -> 0 <= d_max d -> (0 <= f_cx f)%Q ->
  exists row, line_ok (led_line d) row /\ fit_row d f row.
Proof.
  intros d f Hd Hp Hm Hx. unfold led_line, main_data_string, fit_data_string. rewrite Hd.
  destruct (field_fmt_d 4 (d_id d)) as (i & I1 & I2).
  destruct (field_fmt_d 2 (d_array d)) as (a & A1 & A2).
  destruct (field_fmt_e (inject_Z (d_sum d))) as (s & S1 & S2).
  destruct (field_fmt_e (d_mean d)) as (mn & M1 & M2).
  destruct (field_glued (d_max d) (f_cx f) Hm Hx) as (g & G1 & G2).
  destruct (field_fmt_e (f_cy f)) as (cy & Y1 & Y2). apply field_blank in Y1.
  destruct (field_fmt_d 12 (if f_success f then 1 else 0)) as (su & U1 & U2).
  destruct (field_fmt_e (f_fun f)) as (fu & F1 & F2).
  destruct (field_fmt_d 9 (f_nfev f)) as (nf & N1 & N2).
  destruct (field_fmt_e (f_time f)) as (ti & T1 & T2).
  assert (P : exists ps, Forall2 field_ok (map fmt_e (f_pars f)) ps /\ Forall2 close5 (f_pars f) ps).
  { generalize (f_pars f). intros l. induction l as [|p l (ps & P1 & P2)]; [exists []; split; constructor|].
    destruct (field_fmt_e p) as (v & V1 & V2). exists (v :: ps). split; constructor; assumption. }
  destruct P as (ps & P1 & P2).
  exists ([i; a; s; mn; g; cy] ++ ps ++ [su; fu; nf; ti])%list. split.
  - exists ([fmt_d 4 (d_id d); fmt_d 2 (d_array d); fmt_e (inject_Z (d_sum d)); fmt_e (d_mean d);
             (str_of_Z (d_max d) ++ fmt_e (f_cx f))%string; String " "%char (fmt_e (f_cy f))] ++ map fmt_e (f_pars f) ++
            [fmt_d 12 (if f_success f then 1 else 0); fmt_e (f_fun f); fmt_d 9 (f_nfev f); fmt_e (f_time f)])%list.
    split; [|split; [discriminate|]].
    + destruct (f_pars f) as [|p1 [|p2 [|p3 [|p4 [|p5 [|p6 [|p7 [|p8 [|p9 l]]]]]]]]]; try discriminate Hp.
      cbn [map app join String.concat]. unfold join. cbn [String.concat]. rewrite !app_assoc_s. reflexivity.
    + cbn [app]. do 6 (constructor; [assumption|]). apply Forall2_app; [exact P1|]. repeat (constructor; [assumption|]). constructor.
  - exists i, a, s, mn, g, cy, ps, su, fu, nf, ti. split; [reflexivity|]. do 4 (split; [assumption|]). split.
    + intros R. destruct (float_of_sci_close (inject_Z (d_sum d))) as (s' & V1 & _ & V3).
      { change 0%Q with (inject_Z 0). rewrite <- Zle_Qle. lia. }
      destruct S1 as (_ & _ & S1). rewrite S1 in V1. apply Ok_inj in V1. subst s'. apply V3; [reflexivity|lia].
    + split; [intros R; destruct S1 as (_ & _ & S1); apply (sum_whole _ _ R S1)|]. do 3 (split; [assumption|]). split; [|repeat (split; [assumption|]); assumption].
      rewrite U2. destruct (f_success f); reflexivity.
Qed.

Definition fit_record_ok (d : led_data fit_data) : Prop :=
  0 <= d_max d /\ exists f, d_fit d = Some f /\ List.length (f_pars f) = 8%nat /\ (0 <= f_cx f)%Q.

Theorem C26_fit_file_rows : forall basename img channel time (ds : list (led_data fit_data)),
  Forall fit_record_ok ds ->
  exists rows, read_floats (result_file basename img channel time true ds) = Ok rows /\
    Forall2 (fun d row => List.length row = 18%nat /\ exists f, d_fit d = Some f /\ fit_row d f row) ds rows.
Proof.
  intros b i c t ds H. unfold result_file.
  assert (X : exists rows, Forall2 line_ok (map led_line ds) rows /\
     Forall2 (fun d row => List.length row = 18%nat /\ exists f, d_fit d = Some f /\ fit_row d f row) ds rows).
  { induction H as [|d ds (Hm & f & Hf & Hp & Hx) H (rows & R1 & R2)]; [exists []; split; constructor|].
    destruct (fit_line_ok d f Hf Hp Hm Hx) as (row & W1 & W2). exists (row :: rows). split; constructor; try assumption.
    split; [|exists f; split; assumption].
    destruct W2 as (? & ? & ? & ? & ? & ? & ps & ? & ? & ? & ? & -> & _ & _ & _ & _ & _ & _ & _ & _ & P & _).
    apply Forall2_len in P. rewrite !app_length. simpl. lia. }
  destruct X as (rows & R1 & R2). exists rows. split; [|exact R2].
  apply (read_floats_lines _ _ _ 18); [apply csv_header|exact R1|].
  clear R1 H. induction R2 as [|d row ds rows (L & _) R2 IH]; constructor; assumption.
Qed.
Print Assumptions C26_fit_file_rows.

Definition ex_fit : fit_data := FitData 12 (61 # 2) [5; 6; 2; 2; 200; 1 # 10; 3; 3]%Q true (3 # 1000) 412 (1 # 8).
Definition ex_fit_record : led_data fit_data := LedData 7 1 4711 (4711 # 400) 255 (Some ex_fit).

Example C26_example_line : led_line ex_fit_record =
  "   7, 1,4.7110e+03,1.1778e+01,2551.2000e+01, 3.0500e+01,5.0000e+00,6.0000e+00,2.0000e+00,2.0000e+00,2.0000e+02,1.0000e-01,3.0000e+00,3.0000e+00,           1,3.0000e-03,      412,1.2500e-01".
Proof. vm_compute. reflexivity. Qed.

Example C26_example_hypothesis : fit_record_ok ex_fit_record.
Proof. split; [simpl; lia|]. exists ex_fit. split; [reflexivity|]. split; [reflexivity|]. unfold Qle; simpl; lia. Qed.

(** A negative [led_center_x] makes the file unreadable. *)
Theorem C26_negative_centre_unreadable : forall basename img channel time (d : led_data fit_data) f,
  d_fit d = Some f -> 0 <= d_max d -> (f_cx f < 0)%Q ->
  float_of_str (str_of_Z (d_max d) ++ fmt_e (f_cx f)) = Err ValueError /\
  (List.length (f_pars f) = 8%nat -> read_floats (result_file basename img channel time true [d]) = Err ValueError).
Proof.
  intros b i c t d f Hd Hm Hx.
  assert (X : float_of_str (str_of_Z (d_max d) ++ fmt_e (f_cx f)) = Err ValueError).
  { rewrite fmt_e_unpadded. unfold float_of_str.
    assert (C : all_chars num_char (str_of_Z (d_max d) ++ sci_text (f_cx f)) = true) by (rewrite all_chars_app, str_of_Z_num_chars, sci_text_chars; reflexivity).
    rewrite strip_id.
    2:{ eapply all_chars_imp; [|exact C]. intros ch Hc. apply num_char_not_ws in Hc. rewrite Hc. reflexivity. }
    unfold sci_text. assert (E : Qle_bool 0 (f_cx f) = false).
    { destruct (Qle_bool 0 (f_cx f)) eqn:E; [|reflexivity]. apply Qle_bool_iff in E. lra. }
    rewrite E. destruct (sci _) as [m e].
    assert (E2 : str_of_Z (d_max d) = show_nonneg (d_max d)) by (unfold str_of_Z; destruct (d_max d <? 0) eqn:E2; [lia|reflexivity]).
    rewrite E2. rewrite parse_decimal_digit_head.
    2:{ pose proof (show_nonneg_digits (d_max d)) as D. pose proof (show_nonneg_nonempty (d_max d)) as N.
        destruct (show_nonneg (d_max d)) as [|ch s]; [congruence|]. cbn [append]. cbn [all_chars] in D.
        apply andb_true_iff in D. apply D. }
    unfold parse_unsigned.
    rewrite (scan_digits_through _ 0 0 _ _ (show_nonneg_digits _) (show_nonneg_val _ true Hm)).
    cbn [scan_digits]. change (digit_val "-"%char) with (@None Z). cbn iota. change (Ascii.eqb "-" ".") with false. cbn iota.
    change (Ascii.eqb "-" "e" || Ascii.eqb "-" "E") with false. cbn iota. destruct (_ =? 0); reflexivity. }
  split; [exact X|]. intros Hp.
  unfold result_file. unfold read_floats. rewrite csv_rows_app, csv_header. cbn [map app].
  unfold led_line, main_data_string, fit_data_string. rewrite Hd.
  set (fs := ([fmt_d 4 (d_id d); fmt_d 2 (d_array d); fmt_e (inject_Z (d_sum d)); fmt_e (d_mean d);
             (str_of_Z (d_max d) ++ fmt_e (f_cx f))%string; String " "%char (fmt_e (f_cy f))] ++ map fmt_e (f_pars f) ++
            [fmt_d 12 (if f_success f then 1 else 0); fmt_e (f_fun f); fmt_d 9 (f_nfev f); fmt_e (f_time f)])%list).
  match goal with |- context [csv_rows [?l]] => replace l with (join "," fs) end.
  2:{ unfold fs. destruct (f_pars f) as [|p1 [|p2 [|p3 [|p4 [|p5 [|p6 [|p7 [|p8 [|p9 l]]]]]]]]]; try discriminate Hp.
      cbn [map app join String.concat]. unfold join. cbn [String.concat]. rewrite !app_assoc_s. reflexivity. }
  assert (Fe : forall x, all_chars field_char (fmt_e x) = true) by (intros x; apply pad_field_chars, sci_text_chars).
  assert (Fd : forall w x, all_chars field_char (fmt_d w x) = true) by (intros w x; apply pad_field_chars, str_of_Z_num_chars).
  rewrite csv_line.
  - cbn [mapM]. unfold fs at 1. cbn [app mapM].
    destruct (float_of_int_text 4 (d_id d)) as (v1 & -> & _).
    destruct (float_of_int_text 2 (d_array d)) as (v2 & -> & _).
    destruct (float_of_sci_any (inject_Z (d_sum d))) as (v3 & -> & _).
    destruct (float_of_sci_any (d_mean d)) as (v4 & -> & _).
    cbn [bind]. rewrite X. reflexivity.
  - discriminate.
  - exists (fmt_d 4 (d_id d)). split; [left; reflexivity|]. apply pad_nonempty, str_of_Z_ne.
  - intros g Hg. unfold fs in Hg. apply in_app_or in Hg. destruct Hg as [Hg|Hg].
    + destruct Hg as [<-|[<-|[<-|[<-|[<-|[<-|[]]]]]]]; auto.
      * rewrite all_chars_app, Fe. rewrite (all_chars_imp _ _ _ num_field_char (str_of_Z_num_chars _)). reflexivity.
      * cbn [all_chars]. rewrite Fe. reflexivity.
    + apply in_app_or in Hg. destruct Hg as [Hg|Hg].
      * apply in_map_iff in Hg. destruct Hg as (p & <- & _). apply Fe.
      * destruct Hg as [<-|[<-|[<-|[<-|[]]]]]; auto.
Qed.
Print Assumptions C26_negative_centre_unreadable.

(** The maximum recorded in fit mode comes back at least tenfold as soon as the
    centre lies one pixel or more to the right of the origin. *)
Theorem C26_fit_mode_maximum_is_lost : forall max cx v, glued max cx v -> 0 <= max -> (1 <= cx)%Q ->
  (v >= inject_Z (10 * max) + (1 # 2))%Q.
Proof.
  intros max cx v (e & w & V & C & E) Hm Hx. specialize (E Hx).
  assert (W : (1 # 2 <= w)%Q).
  { unfold close5 in C. rewrite (Qabs_pos cx) in C by lra.
    assert (A := Qle_Qabs (- (w - cx))). rewrite Qabs_opp in A. lra. }
  assert (P : (ten <= Qpower ten (e + 1))%Q).
  { rewrite p10_Z by lia. unfold ten. change (10 # 1) with (inject_Z 10). rewrite <- Zle_Qle. replace 10 with (10 ^ 1) at 1 by reflexivity. apply Z.pow_le_mono_r; lia. }
  assert (M : (0 <= inject_Z max)%Q) by (change 0%Q with (inject_Z 0); rewrite <- Zle_Qle; exact Hm).
  rewrite V, inject_Z_mult. change (inject_Z 10) with ten. nra.
Qed.
Print Assumptions C26_fit_mode_maximum_is_lost.
