(** Properties C16-C19 and C62. *)
From Coq Require Import List ZArith Lia Bool Ascii String.
From Verif Require Import Base Str Images_Model Images_Spec.
Import ListNotations.
Local Open Scope string_scope.
Local Open Scope Z_scope.

(** ** C16 *)

Lemma length_zrange_step : forall a b s, List.length (zrange_step a b s) = Z.to_nat ((b - a + s - 1) / s).
Proof. intros. unfold zrange_step. rewrite map_length, seq_length. reflexivity. Qed.

Lemma nth_error_map_seq : forall {A} (f : nat -> A) n j,
  nth_error (map f (seq 0 n)) j = if (j <? n)%nat then Some (f j) else None.
Proof.
  intros A f n j. rewrite nth_error_map. destruct (j <? n)%nat eqn:E.
  - apply Nat.ltb_lt in E. rewrite (nth_error_nth' _ 0%nat) by (rewrite seq_length; exact E).
    rewrite seq_nth by exact E. reflexivity.
  - apply Nat.ltb_ge in E. replace (nth_error (seq 0 n) j) with (@None nat); [reflexivity|].
    symmetry. apply nth_error_None. rewrite seq_length. exact E.
Qed.

Lemma nth_error_zrange' : forall a b j, nth_error (zrange a b) j =
  if a + Z.of_nat j <? b then Some (a + Z.of_nat j) else None.
Proof.
  intros a b j. unfold zrange. rewrite nth_error_map_seq.
  destruct (j <? Z.to_nat (b - a))%nat eqn:E; destruct (a + Z.of_nat j <? b) eqn:E2; try reflexivity;
  [apply Nat.ltb_lt in E; apply Z.ltb_ge in E2|apply Nat.ltb_ge in E; apply Z.ltb_lt in E2]; lia.
Qed.

Lemma ceil_lt : forall n d j, 0 < d -> (j < Z.to_nat ((n + d - 1) / d))%nat <-> Z.of_nat j * d < n.
Proof.
  intros n d j Hd. split; intros H.
  - assert (Hj : Z.of_nat j < (n + d - 1) / d) by lia.
    assert ((n + d - 1) / d * d <= n + d - 1) by (pose proof (Z.mul_div_le (n + d - 1) d); lia).
    nia.
  - assert (Z.of_nat j < (n + d - 1) / d); [|lia].
    assert (Z.of_nat j + 1 <= (n + d - 1) / d); [|lia].
    apply Z.div_le_lower_bound; [lia|]. nia.
Qed.

Lemma nth_error_zrange_step : forall a b s j, 0 < s -> nth_error (zrange_step a b s) j =
  if a + s * Z.of_nat j <? b then Some (a + s * Z.of_nat j) else None.
Proof.
  intros a b s j Hs. unfold zrange_step. rewrite nth_error_map_seq.
  pose proof (ceil_lt (b - a) s j Hs) as C.
  destruct (j <? Z.to_nat ((b - a + s - 1) / s))%nat eqn:E; destruct (a + s * Z.of_nat j <? b) eqn:E2; try reflexivity.
  - apply Nat.ltb_lt in E. apply Z.ltb_ge in E2. apply C in E. nia.
  - apply Nat.ltb_ge in E. apply Z.ltb_lt in E2.
    assert (Z.of_nat j * s < b - a) by nia. apply C in H. lia.
Qed.

(** For a positive increment and a first number up to 9999 the list is every
    increment-th number of the camera counter, printed with (at least) four
    digits. *)
Theorem C16_numbers_follow_the_camera_counter :
  forall first last increment, 1 <= increment -> first <= 9999 ->
  exists l, find_img_number_list first last increment = Ok l /\
  every (Z.to_nat increment) (fun n => zfill 4 (str_of_Z n)) (counter first last) l.
Proof.
  intros first last inc Hi Hf. unfold find_img_number_list, counter.
  assert (Hp : forall a b, prange a b inc = Ok (zrange_step a b inc)).
  { intros a b. unfold prange. destruct (inc =? 0) eqn:E; [lia|]. destruct (0 <? inc) eqn:E2; [reflexivity|lia]. }
  destruct (first <=? last) eqn:E.
  - rewrite Hp. simpl. eexists. split; [reflexivity|].
    intros j. rewrite nth_error_map, nth_error_zrange_step, nth_error_zrange' by lia.
    replace (Z.of_nat (j * Z.to_nat inc)) with (inc * Z.of_nat j) by lia.
    destruct (_ <? _); reflexivity.
  - apply Z.leb_gt in E. rewrite Hp. cbn [bind].
    cbv zeta. change (9999 + 1) with 10000.
    set (l1 := zrange_step first 10000 inc).
    set (n1 := List.length l1).
    assert (Hn1 : n1 = Z.to_nat ((10000 - first + inc - 1) / inc)) by apply length_zrange_step.
    assert (Hpos : (0 < n1)%nat).
    { rewrite Hn1. apply (ceil_lt (10000 - first) inc 0); lia. }
    set (L := first + inc * Z.of_nat (n1 - 1)).
    assert (HL : L < 10000 /\ 10000 <= L + inc).
    { pose proof (proj1 (ceil_lt (10000 - first) inc (n1 - 1) ltac:(lia))) as A.
      pose proof (proj2 (ceil_lt (10000 - first) inc n1 ltac:(lia))) as B.
      rewrite <- Hn1 in A, B. unfold L. split; [nia|].
      destruct (Z_lt_le_dec (Z.of_nat n1 * inc) (10000 - first)) as [H|H]; [specialize (B H); lia|nia]. }
    assert (Hlast : exists r, rev (map (fun e => zfill 4 (str_of_Z e)) l1) = zfill 4 (str_of_Z L) :: r).
    { assert (Hnth : nth_error l1 (n1 - 1) = Some L).
      { unfold l1. rewrite nth_error_zrange_step by lia. fold L. destruct (L <? 10000) eqn:E2; [reflexivity|lia]. }
      destruct (@exists_last _ l1) as (l' & x & Hx); [destruct l1; [simpl in n1; lia|discriminate]|].
      assert (x = L).
      { rewrite Hx in Hnth. unfold n1 in Hnth. rewrite Hx, app_length in Hnth. simpl in Hnth.
        rewrite nth_error_app2 in Hnth by lia.
        replace (List.length l' + 1 - 1 - List.length l')%nat with 0%nat in Hnth by lia.
        simpl in Hnth. congruence. }
      subst x. rewrite Hx, map_app, rev_app_distr. simpl. eexists. reflexivity. }
    destruct Hlast as (r & Hr). rewrite Hr. rewrite int_of_zfill. cbn [bind]. rewrite Hp. cbn [bind].
    eexists. split; [reflexivity|]. intros j.
    destruct (Nat.lt_ge_cases j n1) as [Hj|Hj].
    + assert (Hv : first + inc * Z.of_nat j <= L) by (unfold L; nia).
      rewrite nth_error_app1 by (rewrite map_length; exact Hj).
      rewrite nth_error_map. unfold l1. rewrite nth_error_zrange_step by lia.
      destruct (_ <? _) eqn:E2; [|lia].
      rewrite nth_error_app1 by (rewrite length_zrange; nia).
      rewrite nth_error_zrange'.
      replace (Z.of_nat (j * Z.to_nat inc)) with (inc * Z.of_nat j) by lia.
      rewrite E2. reflexivity.
    + rewrite nth_error_app2 by (rewrite map_length; exact Hj). rewrite map_length.
      fold n1. rewrite nth_error_map, nth_error_zrange_step by lia.
      assert (Hv : 10000 <= first + inc * Z.of_nat j) by (unfold L in HL; nia).
      rewrite nth_error_app2 by (rewrite length_zrange; nia).
      rewrite length_zrange, nth_error_zrange'.
      replace (1 + Z.of_nat (j * Z.to_nat inc - Z.to_nat (10000 - first)))
        with (first + inc * Z.of_nat j - 9999) by nia.
      replace (inc - (9999 - L) + inc * Z.of_nat (j - n1)) with (first + inc * Z.of_nat j - 9999)
        by (unfold L; nia).
      destruct (_ <? _); reflexivity.
Qed.
Print Assumptions C16_numbers_follow_the_camera_counter.

(** With wrap-around and a first number above 9999 the function fails. *)
Theorem C16_first_above_9999_fails :
  forall first last increment, 1 <= increment -> 9999 < first -> last < first ->
  find_img_number_list first last increment = Err IndexError.
Proof.
  intros first last inc Hi Hf Hl. unfold find_img_number_list.
  destruct (first <=? last) eqn:E; [lia|]. unfold prange.
  destruct (inc =? 0) eqn:E1; [lia|]. destruct (0 <? inc) eqn:E2; [|lia]. cbn [bind].
  replace (zrange_step first (9999 + 1) inc) with (@nil Z); [reflexivity|].
  symmetry. apply length_zero_iff_nil. rewrite length_zrange_step.
  replace ((9999 + 1 - first + inc - 1) / inc) with ((9999 - first + inc) / inc) by (f_equal; lia).
  assert ((9999 - first + inc) / inc < 1) by (apply Z.div_lt_upper_bound; lia). lia.
Qed.
Print Assumptions C16_first_above_9999_fails.

(** A non-positive increment (num_skip_imgs < 0): zero raises, negative gives
    no image at all. *)
Theorem C16_bad_increment :
  forall first last, first <= last ->
  find_img_number_list first last 0 = Err ValueError /\
  (forall increment, increment < 0 -> find_img_number_list first last increment = Ok []).
Proof.
  intros first last H. unfold find_img_number_list. destruct (first <=? last) eqn:E; [|lia].
  split; [reflexivity|]. intros inc Hi. unfold prange.
  destruct (inc =? 0) eqn:E1; [lia|]. destruct (0 <? inc) eqn:E2; [lia|].
  replace (Z.to_nat _) with 0%nat; [reflexivity|].
  assert ((first - (last + 1) - inc - 1) / - inc < 1) by (apply Z.div_lt_upper_bound; lia). lia.
Qed.
Print Assumptions C16_bad_increment.

Example C16_example :
  find_img_number_list 9996 5 2 = Ok ["9996"; "9998"; "0001"; "0003"; "0005"] /\
  find_img_number_list 7 12 3 = Ok ["0007"; "0010"].
Proof. split; reflexivity. Qed.

(** ** C17 *)

(** The columns of a table row. *)
Definition row_of (c : config) (t : Z -> Z) (off idx n : Z) : list string :=
  [str_of_Z idx; format_int (c_name c) n; hms ((1000 * t n - off) / 1000 mod 86400);
   str_of_seconds (t n - (86400 * c_date c + c_start c))].

Lemma csv_safe_int : forall s, all_chars int_char s = true -> csv_safe s.
Proof. intros s H. split; eapply has_char_all; try exact H; reflexivity. Qed.

Lemma has_char_app : forall c a b, has_char c (a ++ b) = has_char c a || has_char c b.
Proof. intros c a b. induction a as [|x a IH]; simpl; [reflexivity|]. rewrite IH. now rewrite orb_assoc. Qed.

Lemma csv_safe_app : forall a b, csv_safe a -> csv_safe b -> csv_safe (a ++ b).
Proof. intros a b [A1 A2] [B1 B2]. split; rewrite has_char_app; [rewrite A1, B1|rewrite A2, B2]; reflexivity. Qed.

Lemma zfill_int_chars : forall w n, all_chars int_char (zfill w (str_of_Z n)) = true.
Proof.
  intros w n. pose proof (str_of_Z_chars n) as H. unfold zfill.
  set (k := (w - _)%nat). clearbody k.
  destruct (str_of_Z n) as [|a s]; [apply all_chars_zeros; [reflexivity|exact H]|].
  destruct a as [[] [] [] [] [] [] [] []];
    try (apply all_chars_zeros; [reflexivity|exact H]); try discriminate;
    cbn [all_chars] in H |- *; (apply andb_true_iff in H; destruct H as [Hc Hs]; rewrite Hc; cbn [andb];
    apply all_chars_zeros; [reflexivity|exact Hs]).
Qed.

Lemma csv_safe_hms : forall s, csv_safe (hms s).
Proof.
  intros s. unfold hms. repeat apply csv_safe_app; try (apply csv_safe_int, zfill_int_chars); split; reflexivity.
Qed.

Lemma csv_safe_format : forall t n, csv_safe (t_pre t) -> csv_safe (t_suf t) -> csv_safe (format_int t n).
Proof.
  intros t n Hp Hs. unfold format_int. apply csv_safe_app; [exact Hp|]. apply csv_safe_app; [|exact Hs].
  destruct (t_width t); apply csv_safe_int; [apply zfill_int_chars|apply str_of_Z_chars].
Qed.

Lemma cut_comment_id : forall s, has_char "#"%char s = false -> cut_comment s = s.
Proof.
  induction s as [|a s IH]; simpl; [reflexivity|]. rewrite orb_false_iff. intros [H1 H2].
  rewrite H1, IH by exact H2. reflexivity.
Qed.

Lemma str_of_Z_nonempty : forall n, str_of_Z n <> "".
Proof. intros n. unfold str_of_Z. destruct (n <? 0); [discriminate|apply show_nonneg_nonempty]. Qed.

(** A written line is read back as its four fields. *)
Lemma table_line_fields : forall idx name real exp, csv_safe name ->
  cut_comment (table_line idx name real exp) = table_line idx name real exp /\
  table_line idx name real exp <> "" /\
  split_on ","%char (table_line idx name real exp) = [str_of_Z idx; name; hms real; str_of_seconds exp].
Proof.
  intros idx name real exp Hn.
  pose proof (csv_safe_int _ (str_of_Z_chars idx)) as H1.
  pose proof (csv_safe_hms real) as H3.
  assert (H4 : csv_safe (str_of_seconds exp)).
  { unfold str_of_seconds. apply csv_safe_app; [apply csv_safe_int, str_of_Z_chars|split; reflexivity]. }
  assert (E : table_line idx name real exp = join (String ","%char "") [str_of_Z idx; name; hms real; str_of_seconds exp])
    by reflexivity.
  split; [|split].
  - apply cut_comment_id. unfold table_line. rewrite !has_char_app.
    destruct H1 as [_ H1], Hn as [_ Hn], H3 as [_ H3], H4 as [_ H4]. rewrite H1, Hn, H3, H4. reflexivity.
  - unfold table_line. pose proof (str_of_Z_nonempty idx). destruct (str_of_Z idx); [congruence|discriminate].
  - rewrite E. apply split_on_join; [discriminate|].
    repeat constructor; [apply H1|apply Hn|apply H3|apply H4].
Qed.

Definition name_safe (c : config) : Prop := csv_safe (t_pre (c_name c)) /\ csv_safe (t_suf (c_name c)).

(** The rows of a successfully built table. *)
Lemma table_lines_rows : forall ex c imgs ns idx lines,
  name_safe c ->
  Forall2 (fun s n => int_of_str s = Ok n) imgs ns ->
  table_lines ex c idx imgs = Ok lines ->
  exists t off, (imgs <> [] -> offset_ms (c_offset c) = Ok off) /\
    Forall (fun n => ex (path_join (c_dir c) (format_int (c_name c) n)) = Ok (t n)) ns /\
    csv_rows lines = map (fun p => row_of c t off (fst p) (snd p)) (combine (zrange idx (idx + Z.of_nat (List.length ns))) ns).
Proof.
  intros ex c imgs ns idx lines Hsafe HF H.
  exists (fun n => match ex (path_join (c_dir c) (format_int (c_name c) n)) with Ok t => t | Err _ => 0 end).
  exists (match offset_ms (c_offset c) with Ok o => o | Err _ => 0 end).
  revert idx lines H. induction HF as [|s n imgs ns Hs HF IH]; intros idx lines H.
  - simpl in H. injection H as <-. rewrite zrange_nil by (simpl; lia).
    split; [congruence|]. split; [constructor|reflexivity].
  - cbn [table_lines] in H. unfold experiment_and_real_time in H. rewrite Hs in H. cbn [bind] in H.
    destruct (ex (path_join (c_dir c) (format_int (c_name c) n))) as [t|] eqn:Et; [|discriminate].
    cbn [bind] in H. destruct (offset_ms (c_offset c)) as [off|] eqn:Eo; [|discriminate]. cbn [bind] in H.
    destruct (table_lines ex c (idx + 1) imgs) as [rest|] eqn:Er; [|discriminate]. cbn [bind] in H.
    apply Ok_inj in H. subst lines. destruct (IH _ _ Er) as (_ & A & B).
    split; [intros _; reflexivity|]. split.
    + constructor; [|exact A]. rewrite Et. reflexivity.
    + rewrite zrange_cons by (simpl List.length; lia). cbn [combine map fst snd].
      destruct Hsafe as [Hp Hsu].
      destruct (table_line_fields idx (format_int (c_name c) n) ((1000 * t - off) / 1000 mod 86400)
                  (t - (86400 * c_date c + c_start c)) (csv_safe_format _ n Hp Hsu)) as (C1 & C2 & C3).
      unfold csv_rows. cbn [map filter fst snd]. rewrite C1.
      destruct (String.eqb_spec (table_line idx (format_int (c_name c) n) ((1000 * t - off) / 1000 mod 86400)
                  (t - (86400 * c_date c + c_start c))) "") as [Hx|Hx]; [congruence|].
      cbn [negb map]. rewrite C3. f_equal.
      * unfold row_of. rewrite Et. reflexivity.
      * fold (csv_rows rest). rewrite B. replace (idx + 1 + Z.of_nat (List.length ns)) with (idx + Z.of_nat (List.length (n :: ns))) by (simpl List.length; lia). reflexivity.
Qed.

Lemma every_zfill_ints : forall k l l', (0 < k)%nat -> every k (fun n => zfill 4 (str_of_Z n)) l l' ->
  exists ns, every k (fun n => n) l ns /\ Forall2 (fun s n => int_of_str s = Ok n) l' ns.
Proof.
  intros k l l' Hk. revert l. induction l' as [|s l' IH]; intros l H.
  - exists []. split; [|constructor]. intros j. specialize (H j).
    destruct (nth_error l (j * k)); destruct j; simpl in *; try discriminate; reflexivity.
  - pose proof (H 0%nat) as H0. simpl in H0. destruct l as [|x l]; [discriminate|]. simpl in H0. injection H0 as ->.
    destruct (IH (skipn k (x :: l))) as (ns & A & B).
    + intros j. specialize (H (S j)). simpl nth_error in H at 1. rewrite H. f_equal.
      rewrite <- (firstn_skipn k (x :: l)) at 1.
      destruct (Nat.le_gt_cases k (List.length (x :: l))) as [Hle|Hgt].
      * rewrite nth_error_app2; rewrite firstn_length_le by exact Hle; [|simpl; lia].
        f_equal. simpl. lia.
      * rewrite skipn_all2 by lia. rewrite app_nil_r, firstn_all2 by lia.
        transitivity (@None Z).
        -- apply nth_error_None. simpl. simpl in Hgt. nia.
        -- destruct (j * k)%nat; reflexivity.
    + exists (x :: ns). split.
      * intros [|j]; [reflexivity|]. simpl nth_error at 1. rewrite A. f_equal.
        rewrite <- (firstn_skipn k (x :: l)) at 2.
        destruct (Nat.le_gt_cases k (List.length (x :: l))) as [Hle|Hgt].
        -- rewrite nth_error_app2; rewrite firstn_length_le by exact Hle; [|simpl; lia].
           f_equal. simpl. lia.
        -- rewrite skipn_all2 by lia. rewrite app_nil_r, firstn_all2 by lia.
           transitivity (@None Z); [destruct (j * k)%nat; reflexivity|].
           symmetry. apply nth_error_None. simpl. simpl in Hgt. nia.
      * constructor; [apply int_of_zfill|exact B].
Qed.

Lemma every_id_unique : forall {A} k (l a b : list A), every k (fun n => n) l a -> every k (fun n => n) l b -> a = b.
Proof. intros A k l a b Ha Hb. apply nth_error_ext_Z. intros j. rewrite Ha, Hb. reflexivity. Qed.

(** The table has one row per image; ids are 1, 2, ..., names are those of
    every (num_skip_imgs+1)-th number of the counter from
    first_img_EXPERIMENT_id to last_img_analysis_id. *)
Theorem C17_analysis_table_rows :
  forall ex c lines, name_safe c -> 0 <= c_skip c -> c_first_exp c <= 9999 ->
  image_table Analysis ex c = Ok lines ->
  exists ns t off,
    every (Z.to_nat (c_skip c + 1)) (fun n => n) (counter (c_first_exp c) (c_last_ana c)) ns /\
    Forall (fun n => ex (path_join (c_dir c) (format_int (c_name c) n)) = Ok (t n)) ns /\
    csv_rows lines =
      map (fun p => row_of c t off (fst p) (snd p)) (combine (zrange 1 (1 + Z.of_nat (List.length ns))) ns).
Proof.
  intros ex c lines Hsafe Hskip Hfirst H. unfold image_table, build_numbers in H.
  destruct (C16_numbers_follow_the_camera_counter (c_first_exp c) (c_last_ana c) (c_skip c + 1) ltac:(lia) Hfirst)
    as (l & El & Hev). rewrite El in H. cbn [bind] in H.
  destruct (table_lines ex c 1 l) as [ls|] eqn:Et; [|discriminate]. cbn [bind] in H. injection H as <-.
  destruct (every_zfill_ints (Z.to_nat (c_skip c + 1)) _ _ ltac:(lia) Hev) as (ns & A & B).
  destruct (table_lines_rows ex c l ns 1 ls Hsafe B Et) as (t & off & _ & C & D).
  exists ns, t, off. split; [exact A|]. split; [exact C|].
  unfold csv_rows in *. simpl map at 2. exact D.
Qed.
Print Assumptions C17_analysis_table_rows.

(** Names in the second column of the table. *)
Definition table_names (lines : list string) : list string := map (fun r => nth 1 r "") (csv_rows lines).

Lemma every_map : forall {A B C} k (f : A -> B) (g : B -> C) l l', every k f l l' ->
  every k (fun x => g (f x)) l (map g l').
Proof.
  intros A B C k f g l l' H j. rewrite nth_error_map, H. destruct (nth_error l (j * k)); reflexivity.
Qed.

Lemma map_snd_combine : forall {A B} (a : list A) (b : list B), List.length a = List.length b -> map snd (combine a b) = b.
Proof. induction a as [|x a IH]; intros [|y b] H; simpl in *; try congruence. f_equal. apply IH. congruence. Qed.

Lemma map_fst_combine : forall {A B} (a : list A) (b : list B), List.length a = List.length b -> map fst (combine a b) = a.
Proof. induction a as [|x a IH]; intros [|y b] H; simpl in *; try congruence. f_equal. apply IH. congruence. Qed.

(** "The analysed images are those from first_img_ANALYSIS_id to
    last_img_analysis_id" holds exactly if both first ids agree. *)
Theorem C17_requested_range_is_used_iff_first_ids_agree :
  forall ex c lines, name_safe c -> 0 <= c_skip c -> c_first_exp c <= 9999 -> c_first_ana c <= 9999 ->
  (forall a b, format_int (c_name c) a = format_int (c_name c) b -> a = b) ->
  image_table Analysis ex c = Ok lines ->
  every (Z.to_nat (c_skip c + 1)) (format_int (c_name c)) (counter (c_first_ana c) (c_last_ana c)) (table_names lines)
  <-> c_first_ana c = c_first_exp c.
Proof.
  intros ex c lines Hsafe Hskip H1 H2 Hinj H.
  destruct (C17_analysis_table_rows ex c lines Hsafe Hskip H1 H) as (ns & t & off & A & _ & D).
  assert (En : table_names lines = map (format_int (c_name c)) ns).
  { unfold table_names. rewrite D, map_map.
    transitivity (map (fun p => format_int (c_name c) (snd p)) (combine (zrange 1 (1 + Z.of_nat (List.length ns))) ns));
      [reflexivity|].
    rewrite <- (map_map snd). rewrite map_snd_combine by (rewrite length_zrange; lia). reflexivity. }
  rewrite En.
  assert (Hc : forall f l, f <= 9999 -> nth_error (counter f l) 0 = Some f).
  { intros f l Hf. unfold counter. destruct (f <=? l) eqn:E.
    - rewrite zrange_cons by lia. reflexivity.
    - rewrite zrange_cons by lia. reflexivity. }
  split.
  - intros Hev. pose proof (Hev 0%nat) as E0. rewrite nth_error_map, A in E0. simpl (0 * _)%nat in E0.
    rewrite !Hc in E0 by assumption. simpl in E0. injection E0 as E0. symmetry. apply Hinj, E0.
  - intros ->. apply (every_map _ (fun n => n) (format_int (c_name c))). exact A.
Qed.
Print Assumptions C17_requested_range_is_used_iff_first_ids_agree.

Definition demo_template : template := Template "IMG_" (Some 4%nat) ".JPG".
Definition demo_config : config := Config "imgs" demo_template 9998 3 9999 2 1 100 36000 "-3".
(* image n of the demo is taken n seconds after 10:00:05 of day 100 *)
Definition demo_exif : exif := fun p =>
  if (p =? "imgs/IMG_9998.JPG")%string then Ok (100 * 86400 + 36005)
  else if (p =? "imgs/IMG_0001.JPG")%string then Ok (100 * 86400 + 36007)
  else if (p =? "imgs/IMG_0003.JPG")%string then Ok (100 * 86400 + 36010)
  else Err SystemExit.

Theorem C17_requested_range_ignored_refuted :
  exists ex c lines, name_safe c /\ image_table Analysis ex c = Ok lines /\
  c_first_ana c <> c_first_exp c /\ In (format_int (c_name c) (c_first_exp c)) (table_names lines).
Proof.
  exists demo_exif, demo_config.
  exists ["#ID,Name,Time[s],Experiment_Time[s]"; "1,IMG_9998.JPG,10:00:08,5.0"; "2,IMG_0001.JPG,10:00:10,7.0"].
  split; [repeat split; reflexivity|]. split; [reflexivity|]. split; [discriminate|]. left. reflexivity.
Qed.
Print Assumptions C17_requested_range_ignored_refuted.

Example C17_example : image_table Analysis demo_exif (Config "imgs" demo_template 9998 3 9998 3 1 100 36000 "-3.5") = 
  Ok ["#ID,Name,Time[s],Experiment_Time[s]"; "1,IMG_9998.JPG,10:00:07,5.0"; "2,IMG_0001.JPG,10:00:09,7.0";
      "3,IMG_0003.JPG,10:00:12,10.0"].
Proof. reflexivity. Qed.

(** ** C18 *)

(** Differences of experiment times are differences of EXIF times. *)
Theorem C18_experiment_time_differences :
  forall ex c i j n m ti tj ei ej ri rj,
  int_of_str i = Ok n -> int_of_str j = Ok m ->
  ex (path_join (c_dir c) (format_int (c_name c) n)) = Ok ti ->
  ex (path_join (c_dir c) (format_int (c_name c) m)) = Ok tj ->
  experiment_and_real_time ex c i = Ok (ei, ri) -> experiment_and_real_time ex c j = Ok (ej, rj) ->
  ei - ej = ti - tj.
Proof.
  intros ex c i j n m ti tj ei ej ri rj Hn Hm Hti Htj Hi Hj.
  unfold experiment_and_real_time in *. rewrite Hn in Hi. rewrite Hm in Hj. cbn [bind] in *.
  rewrite Hti in Hi. rewrite Htj in Hj. cbn [bind] in *.
  destruct (offset_ms (c_offset c)); [|discriminate]. cbn [bind] in *. injection Hi as <- _. injection Hj as <- _. lia.
Qed.
Print Assumptions C18_experiment_time_differences.

Definition with_start (c : config) (s : Z) : config :=
  Config (c_dir c) (c_name c) (c_first_exp c) (c_last_exp c) (c_first_ana c) (c_last_ana c) (c_skip c)
         (c_date c) s (c_offset c).

(** Start time derived from the first image (EXIF time [t], clock offset [o]):
    the first image gets experiment time [o], plus one day for every midnight
    between the configured date and the corrected capture date. *)
Theorem C18_first_image_time :
  forall ex c s i n t o,
  int_of_str i = Ok n -> int_of_str (c_offset c) = Ok o ->
  ex (path_join (c_dir c) (format_int (c_name c) n)) = Ok t ->
  s = (t - o) mod 86400 ->
  forall e r, experiment_and_real_time ex (with_start c s) i = Ok (e, r) ->
  e = o + 86400 * ((t - o) / 86400 - c_date c).
Proof.
  intros ex c s i n t o Hn Ho Ht Hs e r H. unfold experiment_and_real_time in H. cbn [c_dir c_name c_offset c_date c_start with_start] in H.
  rewrite Hn in H. cbn [bind] in H. rewrite Ht in H. cbn [bind] in H.
  destruct (offset_ms (c_offset c)); [|discriminate]. cbn [bind] in H. apply Ok_inj in H.
  assert (E : e = t - (86400 * c_date c + s)) by congruence. clear H.
  pose proof (Z.div_mod (t - o) 86400 ltac:(lia)) as Hd. rewrite <- Hs in Hd. lia.
Qed.
Print Assumptions C18_first_image_time.

Theorem C18_midnight_refuted :
  exists ex c s i t o e r, int_of_str (c_offset c) = Ok o /\
    ex (path_join (c_dir c) (format_int (c_name c) 1)) = Ok t /\ int_of_str i = Ok 1 /\
    c_date c = t / 86400 /\ s = (t - o) mod 86400 /\
    experiment_and_real_time ex (with_start c s) i = Ok (e, r) /\ e <> o.
Proof.
  exists (fun _ => Ok (100 * 86400 + 30)), (Config "imgs" demo_template 1 9 1 9 0 100 0 "60"), 86370, "0001",
         (100 * 86400 + 30), 60, (-86340), 86370.
  repeat split; try reflexivity. discriminate.
Qed.
Print Assumptions C18_midnight_refuted.

(** A fractional offset 's.f' shifts the displayed time by s seconds and f
    MILLIseconds, and cannot be used to derive the start time. *)
Theorem C18_fractional_offset :
  forall s f, 0 <= f -> offset_ms (str_of_Z s ++ "." ++ str_of_Z f) = Ok (1000 * s + f).
Proof.
  intros s f Hf. unfold offset_ms. simpl (_ ++ _).
  change (str_of_Z s ++ String "." (str_of_Z f)) with (str_of_Z s ++ String "."%char (str_of_Z f)).
  rewrite split_on_app by (eapply has_char_all; [apply str_of_Z_chars|reflexivity]).
  rewrite split_on_no_char by (eapply has_char_all; [apply str_of_Z_chars|reflexivity]).
  rewrite !int_of_str_of_Z. reflexivity.
Qed.
Print Assumptions C18_fractional_offset.

Example C18_example : offset_ms "12.5" = Ok 12005 /\ offset_ms "-3" = Ok (-3000) /\
  get_start_time (fun _ => Ok (100 * 86400 + 36005)) (Config "imgs/" (Template "a" None ".jpg") 1 2 1 2 0 100 0 "12.5") "1" = Err ValueError.
Proof. repeat split; reflexivity. Qed.

(** ** C19 *)

Lemma read_table_rows : forall lines rows, csv_rows lines = rows -> rows <> [] ->
  (forall r, In r rows -> List.length r = 4%nat) -> read_table lines = Ok rows.
Proof.
  intros lines rows H Hne Hlen. unfold read_table. rewrite H. destruct rows as [|r rs]; [congruence|].
  replace (forallb _ rs) with true; [reflexivity|]. symmetry. apply forallb_forall. intros x Hx.
  apply Nat.eqb_eq. rewrite !Hlen; [reflexivity|left; reflexivity|right; exact Hx].
Qed.

(** Look-up in rows made from ids and numbers. *)
Lemma find_name_rows : forall c t off (ids ns : list Z) k,
  NoDup ids -> List.length ids = List.length ns ->
  forall rows, rows = map (fun p => row_of c t off (fst p) (snd p)) (combine ids ns) ->
  (forall i n, nth_error ids k = Some i -> nth_error ns k = Some n ->
     find_name rows i = Ok (format_int (c_name c) n)) /\
  (forall i, ~ In i ids -> find_name rows i = Err NameError).
Proof.
  intros c t off ids. induction ids as [|i0 ids IH]; intros ns k Hnd Hlen rows ->; destruct ns as [|n0 ns]; try discriminate.
  - split; [intros i n H; destruct k; discriminate|intros; reflexivity].
  - inversion Hnd as [|? ? Hni Hnd']; subst. simpl in Hlen. injection Hlen as Hlen.
    assert (Hstep : forall i, find_name (map (fun p => row_of c t off (fst p) (snd p)) (combine (i0 :: ids) (n0 :: ns))) i =
       if i0 =? i then Ok (format_int (c_name c) n0)
       else find_name (map (fun p => row_of c t off (fst p) (snd p)) (combine ids ns)) i).
    { intros i. cbn [combine map fst snd row_of find_name field nth_error bind]. rewrite int_of_str_of_Z. reflexivity. }
    split.
    + intros i n Hi Hn. rewrite Hstep. destruct k as [|k]; simpl in Hi, Hn.
      * injection Hi as ->. injection Hn as ->. rewrite Z.eqb_refl. reflexivity.
      * destruct (i0 =? i) eqn:E.
        -- apply Z.eqb_eq in E. subst. apply nth_error_In in Hi. contradiction.
        -- apply (IH ns k Hnd' Hlen _ eq_refl); assumption.
    + intros i Hi. rewrite Hstep. simpl in Hi. destruct (i0 =? i) eqn:E; [apply Z.eqb_eq in E; tauto|].
      apply (IH ns k Hnd' Hlen _ eq_refl). tauto.
Qed.

Lemma find_id_rows : forall c t off (ids ns : list Z) k,
  NoDup (map (format_int (c_name c)) ns) -> List.length ids = List.length ns ->
  forall rows, rows = map (fun p => row_of c t off (fst p) (snd p)) (combine ids ns) ->
  (forall i n, nth_error ids k = Some i -> nth_error ns k = Some n ->
     find_id rows (format_int (c_name c) n) = Ok (str_of_Z i)) /\
  (forall s, ~ In s (map (format_int (c_name c)) ns) -> find_id rows s = Err NameError).
Proof.
  intros c t off ids. induction ids as [|i0 ids IH]; intros ns k Hnd Hlen rows ->; destruct ns as [|n0 ns]; try discriminate.
  - split; [intros i n H; destruct k; discriminate|intros; reflexivity].
  - simpl in Hnd. inversion Hnd as [|? ? Hni Hnd']; subst. simpl in Hlen. injection Hlen as Hlen.
    assert (Hstep : forall s, find_id (map (fun p => row_of c t off (fst p) (snd p)) (combine (i0 :: ids) (n0 :: ns))) s =
       if (format_int (c_name c) n0 =? s)%string then Ok (str_of_Z i0)
       else find_id (map (fun p => row_of c t off (fst p) (snd p)) (combine ids ns)) s) by reflexivity.
    split.
    + intros i n Hi Hn. rewrite Hstep. destruct k as [|k]; simpl in Hi, Hn.
      * injection Hi as ->. injection Hn as ->. rewrite String.eqb_refl. reflexivity.
      * destruct (String.eqb_spec (format_int (c_name c) n0) (format_int (c_name c) n)) as [E|E].
        -- exfalso. apply Hni. rewrite E. apply in_map. eapply nth_error_In, Hn.
        -- apply (IH ns k Hnd' Hlen _ eq_refl); assumption.
    + intros s Hs. rewrite Hstep. simpl in Hs.
      destruct (String.eqb_spec (format_int (c_name c) n0) s) as [E|E]; [tauto|].
      apply (IH ns k Hnd' Hlen _ eq_refl). tauto.
Qed.

(** In a generated table with at least one image: the k-th image has id k (from
    1) and its name, both look-ups find it, and unknown ids and names raise
    NameError.  (Looking up ids by name needs distinct names.) *)
Theorem C19_lookups_are_inverse :
  forall ex c lines, name_safe c -> 0 <= c_skip c -> c_first_exp c <= 9999 ->
  image_table Analysis ex c = Ok lines ->
  exists ns, every (Z.to_nat (c_skip c + 1)) (fun n => n) (counter (c_first_exp c) (c_last_ana c)) ns /\
    (forall k n, nth_error ns k = Some n ->
       get_img_name lines (Z.of_nat k + 1) = Ok (format_int (c_name c) n)) /\
    (forall i, ~ 1 <= i <= Z.of_nat (List.length ns) -> get_img_name lines i = Err NameError) /\
    (NoDup (map (format_int (c_name c)) ns) ->
       (forall k n, nth_error ns k = Some n ->
          get_img_id lines (format_int (c_name c) n) = Ok (str_of_Z (Z.of_nat k + 1))) /\
       (forall s, ~ In s (map (format_int (c_name c)) ns) -> get_img_id lines s = Err NameError)).
Proof.
  intros ex c lines Hsafe Hskip Hf H.
  destruct (C17_analysis_table_rows ex c lines Hsafe Hskip Hf H) as (ns & t & off & A & _ & D).
  assert (Hne : ns <> []).
  { intros ->. specialize (A 0%nat). simpl in A. unfold counter in A.
    destruct (_ <=? _) eqn:E in A.
    - rewrite zrange_cons in A by lia. discriminate.
    - rewrite zrange_cons in A by lia. discriminate. }
  set (ids := zrange 1 (1 + Z.of_nat (List.length ns))) in *.
  assert (Hlen : List.length ids = List.length ns) by (unfold ids; rewrite length_zrange; lia).
  assert (Hnth : forall k n, nth_error ns k = Some n -> nth_error ids k = Some (Z.of_nat k + 1)).
  { intros k n Hk. unfold ids. assert (k < List.length ns)%nat by (apply nth_error_Some; congruence).
    rewrite nth_error_zrange by lia. f_equal. lia. }
  assert (Hrows : read_table lines = Ok (map (fun p => row_of c t off (fst p) (snd p)) (combine ids ns))).
  { apply read_table_rows; [exact D| |].
    - intros E. apply map_eq_nil in E. destruct ns; [congruence|]. destruct ids; discriminate.
    - intros r Hr. apply in_map_iff in Hr. destruct Hr as (p & <- & _). reflexivity. }
  exists ns. split; [exact A|]. unfold get_img_name, get_img_id. rewrite Hrows. cbn [bind].
  split; [|split].
  - intros k n Hk. apply (proj1 (find_name_rows c t off ids ns k (NoDup_zrange _ _) Hlen _ eq_refl) _ n); [|exact Hk].
    apply (Hnth k n Hk).
  - intros i Hi. apply (proj2 (find_name_rows c t off ids ns 0 (NoDup_zrange _ _) Hlen _ eq_refl)).
    unfold ids. rewrite in_zrange. lia.
  - intros Hnd. split.
    + intros k n Hk. apply (proj1 (find_id_rows c t off ids ns k Hnd Hlen _ eq_refl)); [|exact Hk].
      apply (Hnth k n Hk).
    + intros s Hs. apply (proj2 (find_id_rows c t off ids ns 0 Hnd Hlen _ eq_refl)). exact Hs.
Qed.
Print Assumptions C19_lookups_are_inverse.

(** With a repeated name (counter overflow within one analysis) the second
    image is found under the first one's id. *)
Theorem C19_repeated_name_refuted :
  exists lines name i, get_img_name lines i = Ok name /\ get_img_id lines name <> Ok (str_of_Z i).
Proof.
  exists ["#ID,Name,Time[s],Experiment_Time[s]"; "1,a.JPG,10:00:08,5.0"; "2,a.JPG,10:00:10,7.0"], "a.JPG", 2.
  split; [reflexivity|discriminate].
Qed.
Print Assumptions C19_repeated_name_refuted.

Example C19_example :
  match image_table Analysis demo_exif demo_config with
  | Ok lines => get_img_name lines 2 = Ok "IMG_0001.JPG" /\ get_img_id lines "IMG_0001.JPG" = Ok "2" /\
                get_img_name lines 3 = Err NameError
  | Err _ => False
  end.
Proof. vm_compute. repeat split; reflexivity. Qed.

(** ** C62 Deriving the start time *)

(** The start time is the corrected EXIF time of the first experiment image
    if the image directory is written with a trailing slash, or left empty, and
    the name pattern contains a plain placeholder. *)
Theorem C62_start_time_of_first_image :
  forall ex c t o, ends_with_slash (c_dir c) = true \/ c_dir c = "" -> t_width (c_name c) = None ->
  ex (path_join (c_dir c) (format_int (c_name c) (c_first_exp c))) = Ok t ->
  int_of_str (c_offset c) = Ok o ->
  get_start_time ex c (str_of_Z (c_first_exp c)) = Ok ((t - o) mod 86400).
Proof.
  intros ex c t o Hd Hw Ht Ho. unfold get_start_time, format_str. rewrite Hw. cbn [bind].
  unfold path_join, format_int in Ht. rewrite Hw in Ht.
  assert (E : ex (c_dir c ++ t_pre (c_name c) ++ str_of_Z (c_first_exp c) ++ t_suf (c_name c)) = Ok t).
  { rewrite <- Ht. destruct (String.eqb_spec (c_dir c) "") as [e|e]; [rewrite e; reflexivity|]. destruct Hd as [Hd|Hd]; [rewrite Hd; reflexivity|contradiction]. }
  rewrite E. cbn [bind]. rewrite Ho. reflexivity.
Qed.
Print Assumptions C62_start_time_of_first_image.

(** Without the slash a different file is read; with a numeric placeholder
    such as '{:04d}' it always fails. *)
Theorem C62_directory_without_slash_refuted :
  forall ex c, ends_with_slash (c_dir c) = false -> c_dir c <> "" -> t_width (c_name c) = None ->
  exists p, p <> path_join (c_dir c) (format_int (c_name c) (c_first_exp c)) /\
    (forall e, ex p = Err e -> get_start_time ex c (str_of_Z (c_first_exp c)) = Err e).
Proof.
  intros ex c Hd Hne Hw. exists (c_dir c ++ format_int (c_name c) (c_first_exp c)). split.
  - unfold path_join. destruct (String.eqb_spec (c_dir c) ""); [contradiction|]. rewrite Hd. intros E.
    assert (L : String.length (c_dir c ++ format_int (c_name c) (c_first_exp c)) =
                String.length (c_dir c ++ "/" ++ format_int (c_name c) (c_first_exp c))) by (rewrite E at 1; reflexivity).
    rewrite !length_app_s in L. simpl in L. lia.
  - intros e He. unfold get_start_time, format_str. rewrite Hw. cbn [bind].
    unfold format_int in He. rewrite Hw in He. rewrite He. reflexivity.
Qed.
Print Assumptions C62_directory_without_slash_refuted.

Theorem C62_numeric_placeholder_fails :
  forall ex c w id, t_width (c_name c) = Some w -> get_start_time ex c id = Err ValueError.
Proof. intros ex c w id H. unfold get_start_time, format_str. rewrite H. reflexivity. Qed.
Print Assumptions C62_numeric_placeholder_fails.

Example C62_example :
  let ex := fun p => if (p =? "imgs/a7.jpg")%string then Ok (100 * 86400 + 36005) else Err SystemExit in
  get_start_time ex (Config "imgs/" (Template "a" None ".jpg") 7 9 7 9 0 100 0 "5") "7" = Ok 36000 /\
  get_start_time ex (Config "imgs" (Template "a" None ".jpg") 7 9 7 9 0 100 0 "5") "7" = Err SystemExit /\
  get_start_time (fun p => if (p =? "a7.jpg")%string then Ok (100 * 86400 + 36005) else Err SystemExit)
    (Config "" (Template "a" None ".jpg") 7 9 7 9 0 100 0 "5") "7" = Ok 36000.
Proof. repeat split; reflexivity. Qed.
