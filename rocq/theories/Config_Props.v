(** Properties C49 - C52: configuration values. *)
From Coq Require Import ZArith Lia Bool Ascii String List.
From Verif Require Import Base Str Config_Model.
Import ListNotations.
Local Open Scope string_scope.
Local Open Scope Z_scope.

(** ** Splitting *)

Lemma words_app_gen : forall s t cur a, is_ws a = true ->
  words (s ++ String a t) cur = (words s cur ++ words t "")%list.
Proof.
  induction s as [|b s IH]; intros t cur a Ha.
  - cbn [append words]. rewrite Ha. destruct (cur =? "")%string; reflexivity.
  - cbn [append words]. destruct (is_ws b).
    + destruct (cur =? "")%string; rewrite IH by exact Ha; reflexivity.
    + apply IH. exact Ha.
Qed.

Lemma split_ws_app : forall s t a, is_ws a = true ->
  split_ws (s ++ String a t) = (split_ws s ++ split_ws t)%list.
Proof. intros. apply words_app_gen. assumption. Qed.

Lemma split_ws_blank_end : forall s a, is_ws a = true -> split_ws (s ++ String a "") = split_ws s.
Proof. intros s a Ha. rewrite split_ws_app by exact Ha. apply app_nil_r. Qed.

Lemma fold_prompt : forall lines acc,
  fold_left (fun acc l => acc ++ String tab ("    " ++ l ++ String nl "")) lines acc
  = acc ++ fold_left (fun acc l => acc ++ String tab ("    " ++ l ++ String nl "")) lines "".
Proof.
  induction lines as [|l lines IH]; intros acc.
  - cbn [fold_left]. now rewrite app_nil_s.
  - cbn [fold_left]. rewrite IH. symmetry. rewrite IH. rewrite !app_assoc_s. reflexivity.
Qed.

Lemma prompt_tokens : forall lines,
  split_ws (prompt_text lines) = concat (map split_ws lines).
Proof.
  intros lines. unfold prompt_text.
  change (split_ws (String nl ?x)) with (split_ws x).
  induction lines as [|l lines IH]; [reflexivity|].
  cbn [fold_left]. rewrite fold_prompt.
  change ("" ++ ?x) with x.
  change (String tab ("    " ++ l ++ String nl "")) with (String tab "    " ++ (l ++ String nl "")).
  rewrite app_assoc_s. rewrite split_ws_skip by reflexivity.
  rewrite app_assoc_s.
  match goal with |- context [String nl "" ++ ?x] => change (String nl "" ++ x) with (String nl x) end.
  rewrite split_ws_app by reflexivity.
  rewrite IH. reflexivity.
Qed.

Lemma mapM_app : forall {A B} (f : A -> res B) a b ra rb,
  mapM f a = Ok ra -> mapM f b = Ok rb -> mapM f (a ++ b) = Ok (ra ++ rb)%list.
Proof.
  intros A B f a. induction a as [|x a IH]; intros b ra rb Ha Hb.
  - simpl in Ha. assert (ra = []) by congruence. subst. exact Hb.
  - simpl in *. destruct (f x) as [y|]; [|discriminate]. simpl in *.
    destruct (mapM f a) as [l|]; [|discriminate]. simpl in *.
    assert (ra = y :: l) by congruence. subst ra.
    rewrite (IH b l rb eq_refl Hb). reflexivity.
Qed.

(** ** C49 *)

Lemma rows_of_concat : forall {A} c (rows : list (list A)) extra, (0 < c)%nat ->
  Forall (fun r => List.length r = c) rows -> (List.length extra < c)%nat ->
  map (fun i => row_slice c i (concat rows ++ extra)) (seq 0 (List.length (concat rows ++ extra) / c)) = rows.
Proof.
  intros A c rows extra Hc Hr Hx.
  assert (L : (List.length (concat rows ++ extra) / c = List.length rows)%nat).
  { rewrite app_length. symmetry. apply (Nat.div_unique _ _ _ (List.length extra)); [exact Hx|].
    f_equal. induction Hr as [|r rows Hl Hr IH]; [simpl; lia|].
    cbn [concat List.length]. rewrite app_length, IH, Hl. lia. }
  rewrite L. clear L. induction Hr as [|r rows Hl Hr IH]; [reflexivity|].
  cbn [List.length seq map concat]. rewrite <- seq_shift, map_map. f_equal.
  - unfold row_slice. rewrite Nat.mul_0_r. cbn [skipn]. rewrite <- app_assoc.
    rewrite <- Hl. rewrite firstn_app, firstn_all, Nat.sub_diag. simpl. apply app_nil_r.
  - rewrite <- IH at 2. apply map_ext. intros i. unfold row_slice.
    replace (c * S i)%nat with (List.length r + c * i)%nat by lia.
    rewrite <- app_assoc. rewrite skipn_app.
    rewrite skipn_all2 by lia. cbn [app].
    replace (List.length r + c * i - List.length r)%nat with (c * i)%nat by lia. reflexivity.
Qed.

(** A value whose numbers are [k] rows of [c] numbers followed by fewer than [c]
    others gives exactly these rows; the others are dropped without notice. *)
Theorem C49_rows_in_order_and_rest_dropped :
  forall {A} (parse : string -> res A) c v rows extra,
  (0 < c)%nat -> v <> "None" ->
  Forall (fun r => List.length r = c) rows -> (List.length extra < c)%nat ->
  mapM parse (split_ws v) = Ok (concat rows ++ extra)%list ->
  get2d parse c v = Ok (Some rows).
Proof.
  intros A parse c v rows extra Hc Hv Hr Hx Hp. unfold get2d.
  destruct (String.eqb_spec v "None"); [contradiction|].
  rewrite Hp. cbn [bind]. rewrite rows_of_concat by assumption. reflexivity.
Qed.
Print Assumptions C49_rows_in_order_and_rest_dropped.

(** Line ends carry no meaning: the numbers of all lines typed in are taken as
    one sequence. *)
Theorem C49_only_the_sequence_of_tokens_counts :
  forall {A} (parse : string -> res A) c lines,
  get2d parse c (prompt_text lines) = 
  bind (mapM parse (concat (map split_ws lines))) (fun tmp =>
    Ok (Some (map (fun i => row_slice c i tmp) (seq 0 (List.length tmp / c))))).
Proof.
  intros A parse c lines. unfold get2d.
  replace (prompt_text lines =? "None")%string with false by reflexivity.
  rewrite prompt_tokens. reflexivity.
Qed.
Print Assumptions C49_only_the_sequence_of_tokens_counts.

(** If every line typed in holds exactly [c] numbers, the stored text is read
    back as these lines. *)
Theorem C49_prompt_is_read_back :
  forall {A} (parse : string -> res A) c lines rows,
  (0 < c)%nat ->
  Forall2 (fun line row => mapM parse (split_ws line) = Ok row /\ List.length row = c) lines rows ->
  get2d parse c (prompt_text lines) = Ok (Some rows).
Proof.
  intros A parse c lines rows Hc H.
  apply (C49_rows_in_order_and_rest_dropped parse c _ rows []); [exact Hc|discriminate| |exact Hc|].
  - induction H as [|l r ls rs [_ Hl] _ IH]; constructor; assumption.
  - rewrite prompt_tokens, app_nil_r.
    induction H as [|l r ls rs [Hp _] _ IH]; [reflexivity|].
    cbn [map concat]. apply mapM_app; assumption.
Qed.
Print Assumptions C49_prompt_is_read_back.

(** In particular for the edge indices typed as 'first last'. *)
Lemma int_word : forall n, str_of_Z n <> "" /\ all_chars (fun c => negb (is_ws c)) (str_of_Z n) = true.
Proof.
  intros n. split.
  - unfold str_of_Z. destruct (n <? 0); [discriminate|apply show_nonneg_nonempty].
  - apply (all_chars_imp int_char); [|apply str_of_Z_chars].
    intros c H. rewrite int_char_not_ws by exact H. reflexivity.
Qed.

Theorem C49_edge_indices_are_read_back :
  forall pairs : list (Z * Z),
  get2d int_of_str 2 (prompt_text (map (fun p => str_of_Z (fst p) ++ " " ++ str_of_Z (snd p)) pairs))
  = Ok (Some (map (fun p => [fst p; snd p]) pairs)).
Proof.
  intros pairs. apply C49_prompt_is_read_back; [lia|].
  induction pairs as [|[a b] l IH]; constructor; [|exact IH].
  cbn [fst snd]. change (" " ++ str_of_Z b) with (String " " (str_of_Z b)).
  destruct (int_word a) as [A1 A2]. destruct (int_word b) as [B1 B2].
  rewrite split_ws_word; [|exact A1|exact A2|reflexivity]. rewrite split_ws_last by assumption.
  cbn [mapM]. rewrite !int_of_str_of_Z. split; reflexivity.
Qed.
Print Assumptions C49_edge_indices_are_read_back.

(** A missing number on one line shifts all later rows without notice. *)
Theorem C49_line_structure_is_kept_refuted :
  exists lines rows,
    get2d int_of_str 2 (prompt_text lines) = Ok (Some rows) /\
    lines = ["0 5"; "6"; "12 17"] /\ rows = [[0; 5]; [6; 12]].
Proof. eexists. eexists. split; [|split; reflexivity]. vm_compute. reflexivity. Qed.
Print Assumptions C49_line_structure_is_kept_refuted.

(** With variable row length every line becomes one row. *)
Theorem C49_variable_rows :
  forall {A} (parse : string -> res A) lines rows,
  lines <> [] -> join (String nl "") lines <> "None" ->
  Forall (fun l => l <> "" /\ has_char nl l = false) lines ->
  Forall2 (fun line row => mapM parse (split_ws line) = Ok row) lines rows ->
  get2d_var parse (join (String nl "") lines) = Ok (Some rows).
Proof.
  intros A parse lines rows Hne Hn Hl H. unfold get2d_var.
  destruct (String.eqb_spec (join (String nl "") lines) "None"); [contradiction|].
  rewrite split_on_join; [|exact Hne|].
  2:{ eapply Forall_impl; [|exact Hl]. intros l [_ X]. exact X. }
  replace (filter (fun s => negb (s =? "")%string) lines) with lines.
  - assert (E : mapM (fun line => mapM parse (split_ws line)) lines = Ok rows).
    { clear Hne Hn n Hl. induction H as [|l r ls rs Hp _ IH]; [reflexivity|].
      cbn [mapM]. rewrite Hp, IH. reflexivity. }
    rewrite E. reflexivity.
  - clear -Hl. induction Hl as [|l ls [X _] _ IH]; [reflexivity|].
    cbn [filter]. destruct (String.eqb_spec l ""); [contradiction|]. cbn [negb]. now rewrite <- IH.
Qed.
Print Assumptions C49_variable_rows.

Example C49_example :
  get2d int_of_str 2 "0 5 6 11 12" = Ok (Some [[0; 5]; [6; 11]])
  /\ get2d int_of_str 2 (prompt_text ["0 5"; " 6  11"]) = Ok (Some [[0; 5]; [6; 11]])
  /\ get2d int_of_str 2 "None" = Ok None
  /\ get2d int_of_str 2 "0 x" = Err ValueError
  /\ get2d_var int_of_str (String nl ("0 1" ++ String nl "2 3 4")) = Ok (Some [[0; 1]; [2; 3; 4]]).
Proof. vm_compute. repeat split; reflexivity. Qed.

(** ** C50 *)

(** The result of [get_list_of_values], by cases on the text. *)
Theorem C50_list_values :
  forall {A} (parse : string -> res A) fallback v,
  (lower (strip v) = "none" \/ strip v = "" ->
     get_list_of_values parse fallback (Some (Some v)) = None) /\
  (lower (strip v) <> "none" -> strip v <> "" ->
     (forall l, Forall2 (fun tok x => parse tok = Ok x) (split_ws (strip v)) l ->
        get_list_of_values parse fallback (Some (Some v)) = Some l) /\
     ((exists tok e, In tok (split_ws (strip v)) /\ parse tok = Err e) ->
        get_list_of_values parse fallback (Some (Some v)) = fallback)) /\
  get_list_of_values parse fallback None = fallback /\
  get_list_of_values parse fallback (Some None) = fallback.
Proof.
  intros A parse fb v. split; [|split; [|split; reflexivity]].
  - intros [H|H]; cbn [get_list_of_values]; rewrite H; [reflexivity|].
    rewrite orb_true_r. reflexivity.
  - intros H1 H2. cbn [get_list_of_values].
    destruct (String.eqb_spec (lower (strip v)) "none"); [contradiction|].
    destruct (String.eqb_spec (strip v) ""); [contradiction|]. cbn [orb].
    split.
    + intros l H. assert (E : mapM parse (split_ws (strip v)) = Ok l).
      { clear -H. induction H as [|t x ts xs Hp _ IH]; [reflexivity|]. cbn [mapM]. rewrite Hp, IH. reflexivity. }
      rewrite E. reflexivity.
    + intros (tok & e & Hin & He).
      assert (E : exists e', mapM parse (split_ws (strip v)) = Err e').
      { clear -Hin He. induction (split_ws (strip v)) as [|t ts IH]; [destruct Hin|].
        cbn [mapM]. destruct Hin as [->|Hin].
        - rewrite He. eexists. reflexivity.
        - destruct (parse t); [|eexists; reflexivity]. cbn [bind].
          destruct (IH Hin) as [e' ->]. eexists. reflexivity. }
      destruct E as [e' ->]. reflexivity.
Qed.
Print Assumptions C50_list_values.

(** A list written with single blanks is read back, unless it is empty. *)
Theorem C50_written_list_is_read_back :
  forall fallback (l : list Z), l <> [] ->
  get_list_of_values int_of_str fallback (Some (Some (join " " (map str_of_Z l)))) = Some l.
Proof.
  assert (T : forall l, l <> [] -> split_ws (join " " (map str_of_Z l)) = map str_of_Z l).
  { induction l as [|a [|b l] IH]; intros H; [congruence| |].
    - cbn [map join String.concat]. destruct (int_word a). apply split_ws_last; assumption.
    - change (join " " (map str_of_Z (a :: b :: l)))
        with (str_of_Z a ++ String " " (join " " (map str_of_Z (b :: l)))).
      destruct (int_word a) as [A1 A2]. rewrite split_ws_word; [|exact A1|exact A2|reflexivity].
      rewrite IH by discriminate. reflexivity. }
  assert (R : forall s, (exists s' c, s = s' ++ String c "" /\ is_ws c = false) -> rstrip s = s).
  { intros s (s' & c & -> & Hc). induction s' as [|x s' IH].
    - cbn. rewrite Hc. reflexivity.
    - cbn [append rstrip]. rewrite IH. destruct (s' ++ String c "") eqn:E; [|reflexivity].
      destruct s'; discriminate. }
  assert (LC : forall s, s <> "" -> all_chars int_char s = true ->
             exists s' c, s = s' ++ String c "" /\ is_ws c = false).
  { intros s. induction s as [|x s IH]; intros Hn Hc; [congruence|].
    cbn [all_chars] in Hc. apply andb_true_iff in Hc. destruct Hc as [C1 C2].
    destruct s as [|y s].
    - exists "", x. split; [reflexivity|]. apply int_char_not_ws. exact C1.
    - destruct IH as (s' & c & E & Hw); [discriminate|exact C2|].
      exists (String x s'), c. rewrite E. split; [reflexivity|exact Hw]. }
  assert (S : forall l, l <> [] -> strip (join " " (map str_of_Z l)) = join " " (map str_of_Z l)).
  { intros l Hl. unfold strip.
    assert (L : lstrip (join " " (map str_of_Z l)) = join " " (map str_of_Z l)).
    { destruct l as [|a l]; [congruence|]. destruct (int_word a) as [A1 A2].
      assert (E : exists r, join " " (map str_of_Z (a :: l)) = str_of_Z a ++ r).
      { destruct l as [|b l]; [exists ""; cbn [map join String.concat]; now rewrite app_nil_s|].
        exists (String " " (join " " (map str_of_Z (b :: l)))). reflexivity. }
      destruct E as [r ->]. destruct (str_of_Z a) as [|c s]; [congruence|].
      cbn [append lstrip]. cbn [all_chars] in A2. apply andb_true_iff in A2. destruct A2 as [A2 _].
      apply negb_true_iff in A2. rewrite A2. reflexivity. }
    rewrite L. apply R.
    clear L. induction l as [|a [|b l] IH]; [congruence| |].
    - cbn [map join String.concat]. apply LC; [apply int_word|apply str_of_Z_chars].
    - destruct IH as (s' & c & E & Hw); [discriminate|].
      exists (str_of_Z a ++ String " " s'), c. split; [|exact Hw].
      change (join " " (map str_of_Z (a :: b :: l)))
        with (str_of_Z a ++ String " " (join " " (map str_of_Z (b :: l)))).
      rewrite E. rewrite app_assoc_s. reflexivity. }
  intros fb l Hl.
  destruct (C50_list_values int_of_str fb (join " " (map str_of_Z l))) as (_ & H & _).
  rewrite (S l Hl), (T l Hl) in H.
  destruct l as [|a l]; [congruence|].
  destruct (int_word a) as [A1 _]. pose proof (str_of_Z_chars a) as A3.
  assert (E : exists r, join " " (map str_of_Z (a :: l)) = str_of_Z a ++ r).
  { destruct l as [|b l]; [exists ""; cbn [map join String.concat]; now rewrite app_nil_s|].
    exists (String " " (join " " (map str_of_Z (b :: l)))). reflexivity. }
  apply H.
  - destruct E as [r ->]. destruct (str_of_Z a) as [|c s]; [congruence|].
    cbn [all_chars] in A3. apply andb_true_iff in A3. destruct A3 as [A3 _].
    cbn [append lower]. intros X. assert (Xc : lower_char c = "n"%char) by congruence.
    clear -A3 Xc. destruct c as [[] [] [] [] [] [] [] []]; cbv in A3, Xc; discriminate.
  - destruct E as [r ->]. destruct (str_of_Z a); [congruence|discriminate].
  - clear. induction (a :: l) as [|x xs IH]; constructor; [apply int_of_str_of_Z|exact IH].
Qed.
Print Assumptions C50_written_list_is_read_back.

Example C50_example :
  get_list_of_values int_of_str (Some [7]) (Some (Some " 1 2  3 ")) = Some [1; 2; 3]
  /\ get_list_of_values int_of_str (Some [7]) (Some (Some "NonE ")) = None
  /\ get_list_of_values int_of_str (Some [7]) (Some (Some "   ")) = None
  /\ get_list_of_values int_of_str (Some [7]) (Some (Some "1, 2")) = Some [7].
Proof. vm_compute. repeat split; reflexivity. Qed.

(** ** C52 *)

Lemma mapM_ok_iff : forall {A B} (f : A -> res B) l r,
  mapM f l = Ok r <-> Forall2 (fun a b => f a = Ok b) l r.
Proof.
  intros A B f l. induction l as [|a l IH]; intros r.
  - cbn. split; intros H; [assert (r = []) by congruence; subst; constructor|inversion H; reflexivity].
  - cbn [mapM]. split.
    + intros H. destruct (f a) as [b|] eqn:E; [|discriminate]. cbn [bind] in H.
      destruct (mapM f l) as [bs|] eqn:E2; [|discriminate]. cbn [bind] in H.
      assert (r = b :: bs) by congruence. subst. constructor; [exact E|]. apply IH. reflexivity.
    + intros H. inversion H as [|x b xs bs Hb Hbs]; subst. rewrite Hb. cbn [bind].
      apply IH in Hbs. rewrite Hbs. reflexivity.
Qed.

(** If every piece between single blanks is an integer, exactly these LEDs are
    ignored; as soon as one piece is not, none is. *)
Theorem C52_ignore_list_all_or_nothing :
  forall s, s <> "None" ->
  (forall l, Forall2 (fun piece n => int_of_str piece = Ok n) (split_on " "%char s) l ->
     ignored_leds (Some s) = l) /\
  ((exists piece e, In piece (split_on " "%char s) /\ int_of_str piece = Err e) ->
     ignored_leds (Some s) = []).
Proof.
  intros s Hs. unfold ignored_leds. destruct (String.eqb_spec s "None"); [contradiction|]. split.
  - intros l H. apply mapM_ok_iff in H. rewrite H. reflexivity.
  - intros (p & e & Hin & He). destruct (mapM int_of_str (split_on " "%char s)) as [l|] eqn:E; [|reflexivity].
    apply mapM_ok_iff in E. exfalso. clear -E Hin He.
    induction E as [|a b xs ys Hab _ IH]; [destruct Hin|]. destruct Hin as [->|Hin]; [congruence|auto].
Qed.
Print Assumptions C52_ignore_list_all_or_nothing.

(** Numbers joined by single blanks are honoured ... *)
Theorem C52_single_blanks_are_honoured :
  forall l, l <> [] -> ignored_leds (Some (join " " (map str_of_Z l))) = l.
Proof.
  intros l Hl.
  assert (Sp : split_on " "%char (join " " (map str_of_Z l)) = map str_of_Z l).
  { apply split_on_join; [destruct l; [congruence|discriminate]|].
    apply Forall_forall. intros x Hx. apply in_map_iff in Hx. destruct Hx as (n & <- & _).
    apply (has_char_all _ int_char); [apply str_of_Z_chars|reflexivity]. }
  assert (Nn : join " " (map str_of_Z l) <> "None").
  { intros E. destruct l as [|a l]; [congruence|]. destruct (int_word a) as [A1 _].
    pose proof (str_of_Z_chars a) as A3.
    assert (E' : exists r, join " " (map str_of_Z (a :: l)) = str_of_Z a ++ r).
    { destruct l as [|b l]; [exists ""; cbn [map join String.concat]; now rewrite app_nil_s|].
      exists (String " " (join " " (map str_of_Z (b :: l)))). reflexivity. }
    destruct E' as [r E']. rewrite E' in E. destruct (str_of_Z a) as [|c s]; [congruence|].
    cbn [all_chars] in A3. apply andb_true_iff in A3. destruct A3 as [A3 _].
    cbn [append] in E. assert (Xc : c = "N"%char) by congruence. subst c. discriminate A3. }
  apply (proj1 (C52_ignore_list_all_or_nothing _ Nn)).
  rewrite Sp. clear. induction l; constructor; [apply int_of_str_of_Z|assumption].
Qed.
Print Assumptions C52_single_blanks_are_honoured.

Lemma split_on_app_gen : forall c s t, split_on c (s ++ String c t) = (split_on c s ++ split_on c t)%list.
Proof.
  intros c s t. induction s as [|a s IH].
  - cbn [append split_on]. rewrite Ascii.eqb_refl. reflexivity.
  - cbn [append split_on]. destruct (Ascii.eqb a c); [rewrite IH; reflexivity|].
    rewrite IH. pose proof (split_on_nonempty c s) as N. destruct (split_on c s); [congruence|reflexivity].
Qed.

(** ... while a blank too many anywhere disables the whole list: two blanks in a
    row, a leading blank, or a trailing blank. *)
Theorem C52_extra_blank_disables_the_list :
  forall a b,
  ignored_leds (Some (a ++ "  " ++ b)) = [] /\
  ignored_leds (Some (" " ++ b)) = [] /\
  ignored_leds (Some (a ++ " ")) = [].
Proof.
  assert (K : forall s, In "" (split_on " "%char s) -> s <> "None" -> ignored_leds (Some s) = []).
  { intros s H Hn. apply (proj2 (C52_ignore_list_all_or_nothing s Hn)).
    exists "", ValueError. split; [exact H|reflexivity]. }
  assert (N : forall a b, a ++ String " " b <> "None").
  { intros a b H. assert (C : has_char " "%char (a ++ String " " b) = true).
    { clear. induction a as [|x a IH]; cbn [append has_char]; [rewrite Ascii.eqb_refl; reflexivity|].
      rewrite IH. apply orb_true_r. }
    rewrite H in C. discriminate. }
  intros a b. split; [|split].
  - change ("  " ++ b) with (String " " (String " " b)). apply K; [|apply N].
    rewrite split_on_app_gen. apply in_or_app. right. left. reflexivity.
  - apply (K (" " ++ b)); [left; reflexivity|apply (N "")].
  - apply (K (a ++ " ")); [|apply N]. rewrite split_on_app_gen. apply in_or_app. right. left. reflexivity.
Qed.
Print Assumptions C52_extra_blank_disables_the_list.

Example C52_example :
  ignored_leds (Some "3 15 7") = [3; 15; 7]
  /\ ignored_leds (Some "3  15 7") = []
  /\ ignored_leds (Some "3, 15") = []
  /\ ignored_leds (Some "None") = [] /\ ignored_leds None = [].
Proof. vm_compute. repeat split; reflexivity. Qed.

(** ** C51 *)

(** A value counts as absent if the option is missing or 'None'. *)
Definition absent (s : store) (k : key) : Prop := s k = None \/ s k = Some "None".

(** What an outcome of the dialogue means for the options [ks]; [new] are the
    prompts shown, [r] tells whether it failed. *)
Record effect (ans : key -> string) (ks new : list key) (st st' : state) (r : option exn) : Prop := {
  eff_asked : asked st' = (asked st ++ new)%list;
  eff_in : forall k, In k new -> In k ks;
  eff_askable : forall k, In k new -> k <> KOffset /\ k <> KDate;
  eff_nodup : NoDup new;
  eff_absent : forall k, In k new -> absent (cur st) k;
  eff_stored : forall k, In k new -> cur st' k = Some (ans k);
  eff_other : forall k, ~ In k ks -> cur st' k = cur st k;
  eff_kept : forall k, k <> KDate -> ~ absent (cur st) k -> cur st' k = cur st k;
  eff_saved : (forall k, saved st k = cur st k) ->
              match r with
              | None => forall k, saved st' k = cur st' k
              | Some _ => forall k, k <> KTimeRefTime -> k <> KDate -> saved st' k = cur st' k
              end }.

Definition concerns (ans : key -> string) (ks : list key) (a : step) : Prop :=
  forall st, exists new, effect ans ks new st (fst (a st)) (snd (a st)).

Lemma effect_none : forall ans ks st r, effect ans ks [] st st r.
Proof.
  intros ans ks st r. constructor.
  - now rewrite app_nil_r.
  - intros k [].
  - intros k [].
  - constructor.
  - intros k [].
  - intros k [].
  - reflexivity.
  - reflexivity.
  - intros H. destruct r; auto.
Qed.

Lemma nodup_app : forall (l m : list key), NoDup l -> NoDup m ->
  (forall x, In x l -> In x m -> False) -> NoDup (l ++ m)%list.
Proof.
  intros l m Hl Hm D. induction Hl as [|a l Ha Hl IH]; [exact Hm|]. cbn [app]. constructor.
  - intros H. apply in_app_or in H. destruct H; [auto|]. apply (D a); [left; reflexivity|assumption].
  - apply IH. intros x Hx. apply D. right. exact Hx.
Qed.

Lemma effect_trans : forall ans ks1 ks2 n1 n2 a b c r,
  (forall k, In k ks1 -> In k ks2 -> False) ->
  effect ans ks1 n1 a b None -> effect ans ks2 n2 b c r ->
  effect ans (ks1 ++ ks2) (n1 ++ n2) a c r.
Proof.
  intros ans ks1 ks2 n1 n2 a b c r D A B.
  destruct A as [A1 A2 A0 A3 A4 A5 A6 A7 A8]. destruct B as [B1 B2 B0 B3 B4 B5 B6 B7 B8].
  constructor.
  - rewrite B1, A1. now rewrite app_assoc.
  - intros k H. apply in_or_app. apply in_app_or in H. destruct H; auto.
  - intros k H. apply in_app_or in H. destruct H; auto.
  - apply nodup_app; [exact A3|exact B3|]. intros x H1 H2. apply (D x); auto.
  - intros k H. apply in_app_or in H. destruct H as [H|H]; [auto|].
    specialize (B4 k H). unfold absent in *. rewrite A6 in B4; [exact B4|].
    intros X. apply (D k X). auto.
  - intros k H. apply in_app_or in H. destruct H as [H|H]; [|auto].
    rewrite B6; [auto|]. intros X. apply (D k); auto.
  - intros k H. rewrite B6, A6; [reflexivity| |]; intros X; apply H, in_or_app; auto.
  - intros k Hd Hk. rewrite B7; [apply A7; assumption|exact Hd|].
    unfold absent in *. rewrite A7; assumption.
  - intros H. apply B8. apply A8. exact H.
Qed.

Lemma effect_weaken : forall ans ks ks' n a b r, incl ks ks' ->
  effect ans ks n a b r -> effect ans ks' n a b r.
Proof.
  intros ans ks ks' n a b r I [A1 A2 A0 A3 A4 A5 A6 A7 A8]. constructor; auto.
Qed.

Lemma concerns_seqs : forall ans ks1 ks2 a b,
  (forall k, In k ks1 -> In k ks2 -> False) ->
  concerns ans ks1 a -> concerns ans ks2 b -> concerns ans (ks1 ++ ks2) (seqs a b).
Proof.
  intros ans ks1 ks2 a b D A B st. unfold seqs. destruct (A st) as [n1 A'].
  destruct (a st) as [st' [e|]]; cbn [fst snd] in *.
  - exists n1. eapply effect_weaken; [|exact A']. apply incl_appl, incl_refl.
  - destruct (B st') as [n2 B']. exists (n1 ++ n2)%list. eapply effect_trans; eassumption.
Qed.

(** Asking and saving one absent option. *)
Lemma effect_ask_save : forall ans k st, k <> KOffset -> k <> KDate -> absent (cur st) k ->
  effect ans [k] [k] st (fst (seqs (ask ans k) save st)) (snd (seqs (ask ans k) save st)).
Proof.
  intros ans k st N1 N2 Ha. unfold seqs, ask, save. cbn [fst snd]. constructor; cbn [cur saved asked].
  - reflexivity.
  - auto.
  - intros k' [<-|[]]. auto.
  - constructor; [intros []|constructor].
  - intros k' [<-|[]]. exact Ha.
  - intros k' [<-|[]]. unfold upd. destruct (key_eq_dec k k); [reflexivity|congruence].
  - intros k' H. unfold upd. destruct (key_eq_dec k k') as [->|]; [|reflexivity].
    exfalso. apply H. left. reflexivity.
  - intros k' _ H. unfold upd. destruct (key_eq_dec k k') as [->|]; [contradiction|reflexivity].
  - reflexivity.
Qed.

Lemma concerns_request : forall ans k, k <> KOffset -> k <> KDate -> concerns ans [k] (request ans k).
Proof.
  intros ans k N1 N2 st. unfold request, with_value.
  destruct (cur st k) as [v|] eqn:E; [|exists []; apply effect_none].
  destruct (String.eqb_spec v "None") as [->|]; [|exists []; apply effect_none].
  exists [k]. apply effect_ask_save; [exact N1|exact N2|]. right. exact E.
Qed.

Lemma concerns_reference : forall ans k, k = KTimeRefId \/ k = KTimeRefFile ->
  concerns ans [k] (request_reference ans k).
Proof.
  intros ans k Hk st. unfold request_reference.
  destruct (String.eqb_spec (get_or_none (cur st) KTimeRefId) "None") as [E1|];
    [|exists []; apply effect_none].
  destruct (String.eqb_spec (get_or_none (cur st) KTimeRefFile) "None") as [E2|];
    [|exists []; apply effect_none].
  cbn [andb]. unfold with_value. destruct (cur st KOffset) as [v|]; [|exists []; apply effect_none].
  destruct (String.eqb_spec v "None") as [->|]; [|exists []; apply effect_none].
  exists [k]. apply effect_ask_save; [destruct Hk; congruence|destruct Hk; congruence|].
  unfold absent, get_or_none in *.
  destruct Hk as [-> | ->].
  - destruct (cur st KTimeRefId); [right; congruence|left; reflexivity].
  - destruct (cur st KTimeRefFile); [right; congruence|left; reflexivity].
Qed.

(** The clock time, the offset and the date. *)
Definition clock_keys := [KTimeRefTime; KOffset; KDate].

(** State of [in_time_diff] before it is saved: nothing else is written. *)
Record clock_effect (ans : key -> string) (st st' : state) : Prop := {
  ce_asked : asked st' = asked st \/
             (asked st' = (asked st ++ [KTimeRefTime])%list /\
              cur st KTimeRefTime = Some "None" /\ cur st' KTimeRefTime = Some (ans KTimeRefTime));
  ce_time : cur st' KTimeRefTime = cur st KTimeRefTime \/ cur st KTimeRefTime = Some "None";
  ce_other : forall k, ~ In k clock_keys -> cur st' k = cur st k;
  ce_saved : saved st' = saved st }.

Lemma upd_same : forall s k v, upd s k v k = Some v.
Proof. intros. unfold upd. destruct (key_eq_dec k k); congruence. Qed.

Lemma upd_other : forall s k v k', k <> k' -> upd s k v k' = s k'.
Proof. intros. unfold upd. destruct (key_eq_dec k k'); congruence. Qed.

Lemma clock_refl : forall ans st, clock_effect ans st st.
Proof. intros. constructor; auto. Qed.

(** Everything after the image has been chosen. *)
Definition clock_part (w : world) (ans : key -> string) (path : string) : step :=
     seqs (with_value KTimeRefTime (fun t => if (t =? "None")%string then ask ans KTimeRefTime else done))
    (with_value KTimeRefTime (fun t =>
     lift (entry w path) (fun e =>
     match split_on " "%char e with
     | [date; time_meta] =>
       seqs (put KDate date)
      (lift (clock w date time_meta) (fun img_time =>
       lift (clock w date t) (fun real_time =>
       put KOffset (str_of_Z (img_time - real_time)))))
     | _ => raise ValueError
     end))).

(** What a successful [in_time_diff] has stored. *)
Definition offset_stored (w : world) (path : string) (s : store) : Prop :=
  exists e date tm t img real,
    entry w path = Ok e /\ split_on " "%char e = [date; tm] /\
    s KTimeRefTime = Some t /\ clock w date tm = Ok img /\ clock w date t = Ok real /\
    s KDate = Some date /\ s KOffset = Some (str_of_Z (img - real)).

Lemma clock_part_effect : forall w ans path st,
  clock_effect ans st (fst (clock_part w ans path st)) /\
  (snd (clock_part w ans path st) = None ->
     offset_stored w path (cur (fst (clock_part w ans path st)))) /\
  (snd (clock_part w ans path st) <> None -> 
     cur (fst (clock_part w ans path st)) KOffset = cur st KOffset).
Proof.
  intros w ans path st. unfold clock_part, seqs, with_value.
  destruct (cur st KTimeRefTime) as [t0|] eqn:Et; cbn [fst snd].
  2:{ split; [apply clock_refl|]. split; [discriminate|reflexivity]. }
  set (st1 := fst ((if (t0 =? "None")%string then ask ans KTimeRefTime else done) st)).
  assert (H1 : (if (t0 =? "None")%string then ask ans KTimeRefTime else done) st = (st1, None)).
  { unfold st1. destruct (t0 =? "None")%string; reflexivity. }
  rewrite H1.
  assert (S1 : saved st1 = saved st) by (unfold st1; destruct (t0 =? "None")%string; reflexivity).
  assert (O1 : forall k, k <> KTimeRefTime -> cur st1 k = cur st k).
  { intros k Hk. unfold st1. destruct (t0 =? "None")%string; [|reflexivity].
    cbn. apply upd_other. congruence. }
  assert (A1 : asked st1 = asked st \/
             (asked st1 = (asked st ++ [KTimeRefTime])%list /\
              cur st KTimeRefTime = Some "None" /\ cur st1 KTimeRefTime = Some (ans KTimeRefTime))).
  { unfold st1. destruct (String.eqb_spec t0 "None") as [->|]; [|left; reflexivity].
    right. cbn [fst ask asked cur]. rewrite upd_same. auto. }
  assert (T1 : cur st1 KTimeRefTime = cur st KTimeRefTime \/ cur st KTimeRefTime = Some "None").
  { unfold st1. destruct (String.eqb_spec t0 "None") as [->|]; [right; exact Et|left; reflexivity]. }
  assert (C1 : clock_effect ans st st1).
  { constructor; auto. intros k Hk. apply O1. intros ->. apply Hk. left. reflexivity. }
  clearbody st1.
  destruct (cur st1 KTimeRefTime) as [t|] eqn:Et1; cbn [fst snd].
  2:{ split; [exact C1|]. split; [discriminate|]. intros _. apply O1. discriminate. }
  destruct (entry w path) as [e|] eqn:Ee; cbn [lift raise fst snd].
  2:{ split; [exact C1|]. split; [discriminate|]. intros _. apply O1. discriminate. }
  destruct (split_on " "%char e) as [|date [|tm [|x l]]] eqn:Es;
    try (split; [exact C1|]; split; [discriminate|]; intros _; apply O1; discriminate).
  cbn [put fst snd].
  set (st2 := State (upd (cur st1) KDate date) (saved st1) (asked st1)).
  assert (C2 : clock_effect ans st st2).
  { constructor; cbn [st2 asked cur saved].
    - rewrite upd_other by discriminate. rewrite Et1. exact A1.
    - rewrite upd_other by discriminate. rewrite Et1. exact T1.
    - intros k Hk. rewrite upd_other; [apply O1|]; intros E; subst k; apply Hk; cbn; auto.
    - exact S1. }
  assert (F2 : Some ValueError <> None -> cur st2 KOffset = cur st KOffset).
  { intros _. cbn [st2 cur]. rewrite upd_other by discriminate. apply O1. discriminate. }
  destruct (clock w date tm) as [img|] eqn:E1; cbn [lift raise fst snd].
  2:{ split; [exact C2|]. split; [discriminate|]. intros _. apply F2. discriminate. }
  destruct (clock w date t) as [real|] eqn:E2; cbn [lift raise fst snd].
  2:{ split; [exact C2|]. split; [discriminate|]. intros _. apply F2. discriminate. }
  cbn [put fst snd]. split; [|split].
  - destruct C2 as [c1 c2 c3 c4]. constructor; cbn [asked cur saved].
    + rewrite upd_other by discriminate. exact c1.
    + rewrite upd_other by discriminate. exact c2.
    + intros k Hk. rewrite upd_other; [apply c3; exact Hk|]. intros <-. apply Hk. cbn. auto.
    + exact c4.
  - intros _. exists e, date, tm, t, img, real. cbn [cur].
    rewrite upd_same. rewrite !upd_other by discriminate. cbn [st2 cur]. rewrite upd_same.
    rewrite upd_other by discriminate. auto 8.
  - intros H. congruence.
Qed.

(** Which image is taken as the time reference image. *)
Definition reference_image (w : world) (s : store) (path : string) : Prop :=
  exists id file, s KTimeRefId = Some id /\ s KTimeRefFile = Some file /\
  ((file <> "None" /\ path = file) \/
   (file = "None" /\ id <> "None" /\
    exists dir name f, s KImgDir = Some dir /\ s KImgName = Some name /\
      name_format w name id = Ok f /\ path = path_of w dir f)).

Lemma in_time_diff_shape : forall w ans st,
  (exists e, in_time_diff w ans st = (st, Some e)) \/
  (exists path, reference_image w (cur st) path /\ in_time_diff w ans st = clock_part w ans path st).
Proof.
  intros w ans st. remember (in_time_diff w ans st) as r eqn:Er.
  unfold in_time_diff in Er. unfold with_value at 1 in Er.
  destruct (cur st KTimeRefId) as [id|] eqn:Eid; [|left; eexists; exact Er].
  unfold with_value at 1 in Er.
  destruct (cur st KTimeRefFile) as [file|] eqn:Ef; [|left; eexists; exact Er].
  destruct (String.eqb_spec id "None") as [->|Hid]; destruct (String.eqb_spec file "None") as [->|Hf];
    cbn [negb andb] in Er.
  - left. eexists. exact Er.
  - right. exists file. split; [|exact Er]. exists "None", file. auto.
  - unfold with_value at 1 in Er. destruct (cur st KImgDir) as [dir|] eqn:Ed; [|left; eexists; exact Er].
    unfold with_value at 1 in Er. destruct (cur st KImgName) as [name|] eqn:En; [|left; eexists; exact Er].
    destruct (name_format w name id) as [f|] eqn:Efmt; [|left; eexists; exact Er].
    right. exists (path_of w dir f). split; [|exact Er].
    exists id, "None". split; [exact Eid|]. split; [exact Ef|]. right.
    split; [reflexivity|]. split; [exact Hid|]. exists dir, name, f. auto.
  - unfold with_value at 1 in Er. destruct (cur st KImgDir) as [dir|] eqn:Ed; [|left; eexists; exact Er].
    unfold with_value at 1 in Er. destruct (cur st KImgName) as [name|] eqn:En; [|left; eexists; exact Er].
    destruct (name_format w name id) as [f|] eqn:Efmt; [|left; eexists; exact Er].
    right. exists file. split; [|exact Er].
    exists id, file. split; [exact Eid|]. split; [exact Ef|]. left. auto.
Qed.

(** The part of the dialogue that determines the offset. *)
Definition offset_part (w : world) (ans : key -> string) : step :=
  with_value KOffset (fun v => if (v =? "None")%string then seqs (in_time_diff w ans) save else done).

Lemma offset_part_effect : forall w ans, concerns ans clock_keys (offset_part w ans).
Proof.
  intros w ans st. unfold offset_part, with_value.
  destruct (cur st KOffset) as [v|] eqn:Eo; [|exists []; apply effect_none].
  destruct (String.eqb_spec v "None") as [->|]; [|exists []; apply effect_none].
  unfold seqs. destruct (in_time_diff_shape w ans st) as [[e ->]|(path & _ & ->)].
  - exists []. apply effect_none.
  - destruct (clock_part_effect w ans path st) as ([c1 c2 c3 c4] & _ & Hfail).
    destruct (clock_part w ans path st) as [st' r]. cbn [fst snd] in *.
    assert (N : exists nw, asked st' = (asked st ++ nw)%list /\
       (nw = [] \/ (nw = [KTimeRefTime] /\ cur st KTimeRefTime = Some "None" /\ cur st' KTimeRefTime = Some (ans KTimeRefTime)))).
    { destruct c1 as [E|(E & E2 & E3)]; [exists []; rewrite app_nil_r; auto|].
      exists [KTimeRefTime]. auto. }
    destruct N as (nw & En & Hn). exists nw.
    assert (C : forall st2, asked st2 = asked st' -> cur st2 = cur st' ->
       ((forall k, saved st k = cur st k) ->
              match r with
              | None => forall k, saved st2 k = cur st2 k
              | Some _ => forall k, k <> KTimeRefTime -> k <> KDate -> saved st2 k = cur st2 k
              end) -> effect ans clock_keys nw st st2 r).
    { intros st2 Ha Hc Hs. constructor.
      - congruence.
      - intros k Hk. destruct Hn as [->|(-> & _)]; [destruct Hk|]. destruct Hk as [<-|[]]. left. reflexivity.
      - intros k Hk. destruct Hn as [->|(-> & _)]; [destruct Hk|]. destruct Hk as [<-|[]]. split; discriminate.
      - destruct Hn as [->|(-> & _)]; [constructor|]. constructor; [intros []|constructor].
      - intros k Hk. destruct Hn as [->|(-> & H & _)]; [destruct Hk|]. destruct Hk as [<-|[]]. right. exact H.
      - intros k Hk. destruct Hn as [->|(-> & _ & H)]; [destruct Hk|]. destruct Hk as [<-|[]]. rewrite Hc. exact H.
      - intros k Hk. rewrite Hc. apply c3. exact Hk.
      - intros k Hd Ha'. rewrite Hc. destruct (key_eq_dec k KTimeRefTime) as [->|Hk1].
        + destruct c2 as [c2|c2]; [exact c2|]. exfalso. apply Ha'. right. exact c2.
        + destruct (key_eq_dec k KOffset) as [->|Hk2].
          * exfalso. apply Ha'. right. exact Eo.
          * apply c3. cbn. intros [H|[H|[H|[]]]]; congruence.
      - exact Hs. }
    destruct r as [e|]; cbn [fst snd save].
    + apply C; try reflexivity. intros Hs k H1 H2. rewrite c4, Hs.
      destruct (key_eq_dec k KOffset) as [->|Hk2]; [symmetry; apply Hfail; discriminate|].
      symmetry. apply c3. cbn. intros [H|[H|[H|[]]]]; congruence.
    + apply (C (State (cur st') (cur st') (asked st'))); reflexivity.
Qed.

Definition all_keys :=
  [KImgDir; KImgName; KTimeRefId; KTimeRefFile; KTimeRefTime; KOffset; KDate;
   KRefImg; KMaxLeds; KFirstExp; KLastExp; KNumArrays].

Lemma request_all_effect : forall w ans, concerns ans all_keys (request_config_parameters w ans).
Proof.
  intros w ans. unfold request_config_parameters.
  change all_keys with ([KImgDir] ++ [KImgName] ++ [KTimeRefId] ++ [KTimeRefFile] ++ clock_keys ++
    [KRefImg] ++ [KMaxLeds] ++ [KFirstExp] ++ [KLastExp] ++ [KNumArrays])%list.
  assert (D : forall k (l : list key), ~ In k l -> forall x, In x [k] -> In x l -> False).
  { intros k l H x [->|[]] Hx. auto. }
  apply concerns_seqs; [apply D; cbn; intuition discriminate|apply concerns_request; discriminate|].
  apply concerns_seqs; [apply D; cbn; intuition discriminate|apply concerns_request; discriminate|].
  apply concerns_seqs; [apply D; cbn; intuition discriminate|apply concerns_reference; auto|].
  apply concerns_seqs; [apply D; cbn; intuition discriminate|apply concerns_reference; auto|].
  apply concerns_seqs; [cbn; intros k H1 H2; intuition congruence|apply offset_part_effect|].
  apply concerns_seqs; [apply D; cbn; intuition discriminate|apply concerns_request; discriminate|].
  apply concerns_seqs; [apply D; cbn; intuition discriminate|apply concerns_request; discriminate|].
  apply concerns_seqs; [apply D; cbn; intuition discriminate|apply concerns_request; discriminate|].
  apply concerns_seqs; [apply D; cbn; intuition discriminate|apply concerns_request; discriminate|].
  apply concerns_request; discriminate.
Qed.

(** The user is asked only for absent values, each at most once, and the answers
    are stored - whether or not the dialogue ends with an error. *)
Theorem C51_only_absent_values_are_asked_once :
  forall w ans s,
  let fin := fst (request_config_parameters w ans (start s)) in
  NoDup (asked fin) /\
  forall k, In k (asked fin) -> absent s k /\ cur fin k = Some (ans k).
Proof.
  intros w ans s fin. destruct (request_all_effect w ans (start s)) as [new [E1 E2 _ E3 E4 E5 _ _ _]].
  fold fin in E1, E5. cbn [start asked cur] in *. rewrite E1. cbn [app]. split; [exact E3|].
  intros k Hk. split; auto.
Qed.
Print Assumptions C51_only_absent_values_are_asked_once.

(** Values that are present are never changed - except the date, which is
    replaced by the date of the time reference image when the offset is
    determined. *)
Theorem C51_present_values_are_kept :
  forall w ans s k v,
  let fin := fst (request_config_parameters w ans (start s)) in
  s k = Some v -> v <> "None" -> k <> KDate -> cur fin k = Some v.
Proof.
  intros w ans s k v fin Hk Hv Hd.
  destruct (request_all_effect w ans (start s)) as [new [_ _ _ _ _ _ _ E7 _]]. fold fin in E7.
  rewrite <- Hk. apply E7; [exact Hd|]. cbn. unfold absent. intros [H|H]; congruence.
Qed.
Print Assumptions C51_present_values_are_kept.

(** The file holds all answers when the dialogue succeeds; when it fails, only
    the clock time (and the date of the image) may be missing from it. *)
Theorem C51_answers_are_saved :
  forall w ans s,
  let fin := fst (request_config_parameters w ans (start s)) in
  (snd (request_config_parameters w ans (start s)) = None -> forall k, saved fin k = cur fin k) /\
  (forall k, k <> KTimeRefTime -> k <> KDate -> saved fin k = cur fin k).
Proof.
  intros w ans s fin. destruct (request_all_effect w ans (start s)) as [new [_ _ _ _ _ _ _ _ E8]].
  fold fin in E8. specialize (E8 (fun k => eq_refl)).
  destruct (snd (request_config_parameters w ans (start s))); split; auto; discriminate.
Qed.
Print Assumptions C51_answers_are_saved.

(** Nothing to ask: nothing happens. *)
Definition required := [KImgDir; KImgName; KOffset; KRefImg; KMaxLeds; KFirstExp; KLastExp; KNumArrays].

Theorem C51_complete_configuration_is_left_alone :
  forall w ans s,
  (forall k, In k required -> ~ absent s k) ->
  request_config_parameters w ans (start s) = (start s, None).
Proof.
  intros w ans s H.
  assert (V : forall k, In k required -> exists v, s k = Some v /\ (v =? "None")%string = false).
  { intros k Hk. specialize (H k Hk). unfold absent in H. destruct (s k) as [v|]; [|tauto].
    exists v. split; [reflexivity|]. destruct (String.eqb_spec v "None") as [->|]; tauto. }
  assert (R : forall k, In k required -> request ans k (start s) = (start s, None)).
  { intros k Hk. destruct (V k Hk) as (v & E & Hv). unfold request, with_value. cbn [start cur].
    rewrite E, Hv. reflexivity. }
  assert (O : exists v, s KOffset = Some v /\ (v =? "None")%string = false) by (apply V; cbn; tauto).
  destruct O as (v & Ev & Hv).
  assert (RR : forall k, request_reference ans k (start s) = (start s, None)).
  { intros k. unfold request_reference, with_value. cbn [start cur]. rewrite Ev, Hv.
    match goal with |- (if ?b then _ else _) = _ => destruct b end; reflexivity. }
  unfold request_config_parameters, seqs.
  rewrite (R KImgDir) by (cbn; tauto). rewrite (R KImgName) by (cbn; tauto).
  rewrite !RR.
  unfold with_value at 1. cbn [start cur]. rewrite Ev, Hv. unfold done at 1.
  change {| cur := s; saved := s; asked := [] |} with (start s).
  rewrite (R KRefImg) by (cbn; tauto). rewrite (R KMaxLeds) by (cbn; tauto).
  rewrite (R KFirstExp) by (cbn; tauto). rewrite (R KLastExp) by (cbn; tauto).
  apply R. cbn; tauto.
Qed.
Print Assumptions C51_complete_configuration_is_left_alone.

Definition filled (ans : key -> string) (st : state) (k : key) : Prop :=
  exists v, cur st k = Some v /\ (v <> "None" \/ (In k (asked st) /\ ans k = "None")).

Lemma filled_kept : forall ans ks k a st, concerns ans ks a -> ~ In k ks ->
  filled ans st k -> filled ans (fst (a st)) k.
Proof.
  intros ans ks k a st C Hk (v & E & H). destruct (C st) as [n [E1 _ _ _ _ _ E6 _ _]].
  exists v. rewrite E6 by exact Hk. split; [exact E|].
  destruct H as [H|[H1 H2]]; [left; exact H|right]. rewrite E1. split; [apply in_or_app; left; exact H1|exact H2].
Qed.

Lemma seqs_ok : forall a b st, snd (seqs a b st) = None ->
  snd (a st) = None /\ seqs a b st = b (fst (a st)).
Proof.
  intros a b st. unfold seqs. destruct (a st) as [st' [e|]]; cbn [fst snd]; [discriminate|auto].
Qed.

Lemma request_filled : forall ans k st, snd (request ans k st) = None -> filled ans (fst (request ans k st)) k.
Proof.
  intros ans k st. unfold request, with_value. destruct (cur st k) as [v|] eqn:E; [|discriminate].
  destruct (String.eqb_spec v "None") as [->|Hv]; intros _.
  - unfold seqs, ask, save. cbn [fst]. exists (ans k). cbn [cur asked]. rewrite upd_same.
    split; [reflexivity|]. destruct (String.eqb_spec (ans k) "None") as [H|H]; [right|left; exact H].
    split; [apply in_or_app; right; left; reflexivity|exact H].
  - exists v. cbn [fst done]. auto.
Qed.

Lemma str_of_Z_not_none : forall n, str_of_Z n <> "None".
Proof.
  intros n E. pose proof (int_of_str_of_Z n) as H. rewrite E in H. discriminate.
Qed.

Lemma offset_filled : forall w ans st, snd (offset_part w ans st) = None ->
  filled ans (fst (offset_part w ans st)) KOffset.
Proof.
  intros w ans st. unfold offset_part, with_value. destruct (cur st KOffset) as [v|] eqn:E; [|discriminate].
  destruct (String.eqb_spec v "None") as [->|Hv].
  - intros H. apply seqs_ok in H. destruct H as [H ->]. cbn [save fst].
    destruct (in_time_diff_shape w ans st) as [[e Ee]|(path & _ & Ep)]; [rewrite Ee in H; discriminate|].
    rewrite Ep in *. destruct (clock_part_effect w ans path st) as (_ & Hok & _).
    destruct (Hok H) as (e & date & tm & t & img & real & _ & _ & _ & _ & _ & _ & O).
    exists (str_of_Z (img - real)). cbn [cur]. split; [exact O|]. left. apply str_of_Z_not_none.
  - intros _. exists v. cbn [fst done]. auto.
Qed.

(** After a dialogue without error every required value is present, unless the
    user answered 'None'; the offset is always a number. *)
Theorem C51_all_required_values_are_present :
  forall w ans s,
  snd (request_config_parameters w ans (start s)) = None ->
  let fin := fst (request_config_parameters w ans (start s)) in
  forall k, In k required ->
  exists v, cur fin k = Some v /\
    (v <> "None" \/ (k <> KOffset /\ In k (asked fin) /\ ans k = "None")).
Proof.
  intros w ans s Hs fin k Hk.
  assert (F : filled ans fin k).
  { unfold fin. clear fin. unfold request_config_parameters in *. fold (offset_part w ans) in *.
    pose proof (seqs_ok _ _ _ Hs) as [A1 B1]. rewrite B1 in *. clear B1.
    pose proof (seqs_ok _ _ _ Hs) as [A2 B2]. rewrite B2 in *. clear B2.
    pose proof (seqs_ok _ _ _ Hs) as [A3 B3]. rewrite B3 in *. clear B3.
    pose proof (seqs_ok _ _ _ Hs) as [A4 B4]. rewrite B4 in *. clear B4.
    pose proof (seqs_ok _ _ _ Hs) as [A5 B5]. rewrite B5 in *. clear B5.
    pose proof (seqs_ok _ _ _ Hs) as [A6 B6]. rewrite B6 in *. clear B6.
    pose proof (seqs_ok _ _ _ Hs) as [A7 B7]. rewrite B7 in *. clear B7.
    pose proof (seqs_ok _ _ _ Hs) as [A8 B8]. rewrite B8 in *. clear B8.
    pose proof (seqs_ok _ _ _ Hs) as [A9 B9]. rewrite B9 in *. clear B9.
    assert (N : forall k', k <> k' -> ~ In k [k']) by (intros k' H [X|[]]; congruence).
    cbn [required In] in Hk.
    destruct Hk as [<-|[<-|[<-|[<-|[<-|[<-|[<-|[<-|[]]]]]]]]];
    repeat first
      [ apply request_filled; assumption
      | apply offset_filled; assumption
      | apply (filled_kept ans [KNumArrays]); [apply concerns_request; discriminate|apply N; discriminate|]
      | apply (filled_kept ans [KLastExp]); [apply concerns_request; discriminate|apply N; discriminate|]
      | apply (filled_kept ans [KFirstExp]); [apply concerns_request; discriminate|apply N; discriminate|]
      | apply (filled_kept ans [KMaxLeds]); [apply concerns_request; discriminate|apply N; discriminate|]
      | apply (filled_kept ans [KRefImg]); [apply concerns_request; discriminate|apply N; discriminate|]
      | apply (filled_kept ans clock_keys); [apply offset_part_effect|cbn; intuition discriminate|]
      | apply (filled_kept ans [KTimeRefFile]); [apply concerns_reference; auto|apply N; discriminate|]
      | apply (filled_kept ans [KTimeRefId]); [apply concerns_reference; auto|apply N; discriminate|]
      | apply (filled_kept ans [KImgName]); [apply concerns_request; discriminate|apply N; discriminate|]
      | apply (filled_kept ans [KImgDir]); [apply concerns_request; discriminate|apply N; discriminate|] ]. }
  destruct F as (v & E & H). exists v. split; [exact E|].
  destruct H as [H|[H1 H2]]; [left; exact H|].
  destruct (key_eq_dec k KOffset) as [->|Hk2]; [|right; auto].
  exfalso.
  (* the offset is never typed in *)
  destruct (request_all_effect w ans (start s)) as [new [E1 _ E0 _ _ _ _ _ _]].
  fold fin in E1. cbn [start asked app] in E1. rewrite E1 in H1. destruct (E0 _ H1). congruence.
Qed.
Print Assumptions C51_all_required_values_are_present.

(** If the offset was absent, it becomes the EXIF time of the reference image
    minus the time on the clock, and the date becomes the date of this image;
    a configured file takes precedence over an image id. *)
Theorem C51_offset_is_image_time_minus_clock_time :
  forall w ans s,
  s KOffset = Some "None" ->
  snd (request_config_parameters w ans (start s)) = None ->
  let fin := fst (request_config_parameters w ans (start s)) in
  exists path, reference_image w (cur fin) path /\ offset_stored w path (cur fin).
Proof.
  intros w ans s Ho Hs fin. unfold fin. clear fin.
  unfold request_config_parameters in *. fold (offset_part w ans) in *.
  set (rest := seqs (request ans KRefImg)
      (seqs (request ans KMaxLeds) (seqs (request ans KFirstExp)
      (seqs (request ans KLastExp) (request ans KNumArrays))))) in *.
  pose proof (seqs_ok _ _ _ Hs) as [A1 B1]. rewrite B1 in *. clear B1.
  pose proof (seqs_ok _ _ _ Hs) as [A2 B2]. rewrite B2 in *. clear B2.
  pose proof (seqs_ok _ _ _ Hs) as [A3 B3]. rewrite B3 in *. clear B3.
  pose proof (seqs_ok _ _ _ Hs) as [A4 B4]. rewrite B4 in *. clear B4.
  pose proof (seqs_ok _ _ _ Hs) as [A5 B5]. rewrite B5 in *. clear B5.
  assert (N : forall k k' : key, k <> k' -> ~ In k [k']) by (intros k k' H [X|[]]; congruence).
  assert (K : forall a ks st k, concerns ans ks a -> ~ In k ks -> cur (fst (a st)) k = cur st k).
  { intros a ks st k C Hk. destruct (C st) as [n [_ _ _ _ _ _ E6 _ _]]. apply E6. exact Hk. }
  match goal with |- context [rest (fst (offset_part w ans ?x))] => set (st := x) in * end.
  assert (Eo : cur st KOffset = Some "None").
  { unfold st.
    rewrite (K _ [KTimeRefFile]); [|apply concerns_reference; auto|apply N; discriminate].
    rewrite (K _ [KTimeRefId]); [|apply concerns_reference; auto|apply N; discriminate].
    rewrite (K _ [KImgName]); [|apply concerns_request; discriminate|apply N; discriminate].
    rewrite (K _ [KImgDir]); [|apply concerns_request; discriminate|apply N; discriminate].
    exact Ho. }
  clearbody st.
  unfold offset_part, with_value in A5 |- *. rewrite Eo in *. cbn [String.eqb Ascii.eqb Bool.eqb] in *.
  apply seqs_ok in A5. destruct A5 as [A5 B5]. rewrite B5. cbn [save fst].
  destruct (in_time_diff_shape w ans st) as [[e Ee]|(path & Hp & Ep)]; [rewrite Ee in A5; discriminate|].
  rewrite Ep in *. destruct (clock_part_effect w ans path st) as ([c1 c2 c3 c4] & Hok & _).
  specialize (Hok A5).
  set (st2 := fst (clock_part w ans path st)) in *. clearbody st2.
  assert (R : concerns ans [KRefImg; KMaxLeds; KFirstExp; KLastExp; KNumArrays] rest).
  { unfold rest.
    change [KRefImg; KMaxLeds; KFirstExp; KLastExp; KNumArrays]
      with ([KRefImg] ++ [KMaxLeds] ++ [KFirstExp] ++ [KLastExp] ++ [KNumArrays])%list.
    assert (D : forall k (l : list key), ~ In k l -> forall x, In x [k] -> In x l -> False).
    { intros k l H x [->|[]] Hx. auto. }
    apply concerns_seqs; [apply D; cbn; intuition discriminate|apply concerns_request; discriminate|].
    apply concerns_seqs; [apply D; cbn; intuition discriminate|apply concerns_request; discriminate|].
    apply concerns_seqs; [apply D; cbn; intuition discriminate|apply concerns_request; discriminate|].
    apply concerns_seqs; [apply D; cbn; intuition discriminate|apply concerns_request; discriminate|].
    apply concerns_request; discriminate. }
  assert (M : forall k, In k [KImgDir; KImgName; KTimeRefId; KTimeRefFile; KTimeRefTime; KOffset; KDate] ->
     cur (fst (rest {| cur := cur st2; saved := cur st2; asked := asked st2 |})) k = cur st2 k).
  { intros k Hk. rewrite (K _ _ _ k R); [reflexivity|]. cbn in *. intuition congruence. }
  exists path. split.
  - destruct Hp as (id & file & E1 & E2 & H). exists id, file.
    assert (C3 : forall k, In k [KImgDir; KImgName; KTimeRefId; KTimeRefFile] -> cur st2 k = cur st k).
    { intros k Hk. apply c3. cbn in *. intuition congruence. }
    rewrite !M by (cbn; tauto). rewrite !C3 by (cbn; tauto).
    split; [exact E1|]. split; [exact E2|].
    destruct H as [H|(H1 & H2 & dir & name & f & H3 & H4 & H5 & H6)]; [left; exact H|right].
    split; [exact H1|]. split; [exact H2|]. exists dir, name, f. auto.
  - destruct Hok as (e & date & tm & t & img & real & H1 & H2 & H3 & H4 & H5 & H6 & H7).
    exists e, date, tm, t, img, real. rewrite !M by (cbn; tauto). auto 8.
Qed.
Print Assumptions C51_offset_is_image_time_minus_clock_time.

(** The file written by [--config] has the option 'time_img_id' instead of
    'time_ref_img_id'.  If such a file gives only the path of the time reference
    image, as its comments propose, the dialogue fails, whatever the user types. *)
Theorem C51_reference_file_alone_refuted :
  forall w ans s file,
  s KImgDir <> None -> s KImgName <> None ->
  s KTimeRefId = None -> s KTimeRefFile = Some file -> file <> "None" ->
  s KOffset = Some "None" ->
  snd (request_config_parameters w ans (start s)) = Some KeyError.
Proof.
  intros w ans s file Hd Hn Hi Hf Hfn Ho.
  assert (R : forall k st, k <> KTimeRefId -> k <> KTimeRefFile -> k <> KOffset ->
     cur st KTimeRefId = None -> cur st KTimeRefFile = Some file -> cur st KOffset = Some "None" ->
     cur st k <> None ->
     exists st', request ans k st = (st', None) /\
       cur st' KTimeRefId = None /\ cur st' KTimeRefFile = Some file /\ cur st' KOffset = Some "None" /\
       (forall k', cur st k' <> None -> cur st' k' <> None)).
  { intros k st N1 N2 N3 E1 E2 E3 E4. unfold request, with_value.
    destruct (cur st k) as [v|] eqn:E; [|congruence]. destruct (v =? "None")%string.
    - eexists. split; [reflexivity|]. cbn [cur]. rewrite !upd_other by assumption.
      repeat split; try assumption. intros k' Hk'. unfold upd. destruct (key_eq_dec k k'); [discriminate|exact Hk'].
    - exists st. split; [reflexivity|]. auto. }
  destruct (R KImgDir (start s)) as (s1 & E1 & A1 & A2 & A3 & A4); try discriminate; try assumption.
  destruct (R KImgName s1) as (s2 & E2 & B1 & B2 & B3 & B4); try discriminate; try assumption; [apply A4; exact Hn|].
  unfold request_config_parameters, seqs. rewrite E1, E2.
  assert (Q : forall k, request_reference ans k s2 = (s2, None)).
  { intros k. unfold request_reference, get_or_none. rewrite B1, B2.
    destruct (String.eqb_spec file "None"); [contradiction|]. reflexivity. }
  rewrite !Q. unfold with_value at 1. rewrite B3. cbn [String.eqb Ascii.eqb Bool.eqb].
  unfold in_time_diff, with_value. rewrite B1. reflexivity.
Qed.
Print Assumptions C51_reference_file_alone_refuted.

(** The option 'time_img_id' is never looked at. *)
Definition alike (a b : store) : Prop := forall k, k <> KTimeImgId -> a k = b k.

Definition alike_st (a b : state) : Prop :=
  alike (cur a) (cur b) /\ alike (saved a) (saved b) /\ asked a = asked b.

Definition blind (a : step) : Prop := forall x y, alike_st x y ->
  snd (a x) = snd (a y) /\ alike_st (fst (a x)) (fst (a y)).

Lemma blind_done : blind done.
Proof. intros x y H. split; [reflexivity|exact H]. Qed.

Lemma blind_raise : forall e, blind (raise e).
Proof. intros e x y H. split; [reflexivity|exact H]. Qed.

Lemma blind_seqs : forall a b, blind a -> blind b -> blind (seqs a b).
Proof.
  intros a b A B x y H. unfold seqs. destruct (A x y H) as [E F].
  destruct (a x) as [x' [e|]], (a y) as [y' [e'|]]; cbn [fst snd] in *; try discriminate.
  - split; [exact E|exact F].
  - apply B. exact F.
Qed.

Lemma blind_value : forall k f, k <> KTimeImgId -> (forall v, blind (f v)) -> blind (with_value k f).
Proof.
  intros k f Hk H x y A. unfold with_value. rewrite (proj1 A k Hk).
  destruct (cur y k); [apply H; exact A|]. split; [reflexivity|exact A].
Qed.

Lemma alike_upd : forall a b k v, alike a b -> alike (upd a k v) (upd b k v).
Proof. intros a b k v H k' Hk. unfold upd. destruct (key_eq_dec k k'); auto. Qed.

Lemma blind_put : forall k v, blind (put k v).
Proof.
  intros k v x y (A & B & C). split; [reflexivity|]. cbn. split; [apply alike_upd; exact A|split; assumption].
Qed.

Lemma blind_ask : forall ans k, blind (ask ans k).
Proof.
  intros ans k x y (A & B & C). split; [reflexivity|]. cbn. split; [apply alike_upd; exact A|].
  split; [exact B|]. cbn. now rewrite C.
Qed.

Lemma blind_save : blind save.
Proof. intros x y (A & B & C). split; [reflexivity|]. cbn. split; [exact A|split; [exact A|exact C]]. Qed.

Lemma blind_lift : forall {A} (r : res A) f, (forall a, blind (f a)) -> blind (lift r f).
Proof. intros A [a|e] f H; [apply H|apply blind_raise]. Qed.

Lemma blind_request : forall ans k, k <> KTimeImgId -> blind (request ans k).
Proof.
  intros ans k Hk. apply blind_value; [exact Hk|]. intros v. destruct (v =? "None")%string; [|apply blind_done].
  apply blind_seqs; [apply blind_ask|apply blind_save].
Qed.

Lemma blind_reference : forall ans k, blind (request_reference ans k).
Proof.
  intros ans k x y H. unfold request_reference, get_or_none. pose proof (proj1 H) as A.
  rewrite (A KTimeRefId), (A KTimeRefFile) by discriminate.
  match goal with |- context [if ?b then _ else _] => destruct b end.
  - apply blind_value; [discriminate| |exact H]. intros v. destruct (v =? "None")%string; [|apply blind_done].
    apply blind_seqs; [apply blind_ask|apply blind_save].
  - split; [reflexivity|exact H].
Qed.

Lemma blind_clock : forall w ans path, blind (clock_part w ans path).
Proof.
  intros w ans path. unfold clock_part. apply blind_seqs.
  - apply blind_value; [discriminate|]. intros v. destruct (v =? "None")%string; [apply blind_ask|apply blind_done].
  - apply blind_value; [discriminate|]. intros t. apply blind_lift. intros e.
    destruct (split_on " "%char e) as [|d [|m [|z l]]]; try apply blind_raise.
    apply blind_seqs; [apply blind_put|]. apply blind_lift. intros i. apply blind_lift. intros r. apply blind_put.
Qed.

Theorem C51_time_img_id_is_never_used :
  forall w ans s v,
  let s' := upd s KTimeImgId v in
  snd (request_config_parameters w ans (start s')) = snd (request_config_parameters w ans (start s)) /\
  asked (fst (request_config_parameters w ans (start s'))) = asked (fst (request_config_parameters w ans (start s))) /\
  forall k, k <> KTimeImgId ->
    cur (fst (request_config_parameters w ans (start s'))) k = cur (fst (request_config_parameters w ans (start s))) k.
Proof.
  intros w ans s v s'.
  assert (B : blind (request_config_parameters w ans)).
  { unfold request_config_parameters.
    repeat (apply blind_seqs; [first [apply blind_request; discriminate|apply blind_reference|
      apply blind_value; [discriminate|]; intros o; destruct (o =? "None")%string; [|apply blind_done];
      apply blind_seqs; [|apply blind_save]]|]).
    2: apply blind_request; discriminate.
    unfold in_time_diff. apply blind_value; [discriminate|]. intros id. apply blind_value; [discriminate|].
    intros file. fold (clock_part w ans).
    match goal with |- context [if ?b then _ else _] => destruct b end; [apply blind_raise|].
    match goal with |- context [if ?b then _ else _] => destruct b end.
    - apply blind_value; [discriminate|]. intros dir. apply blind_value; [discriminate|]. intros name.
      apply blind_lift. intros f. apply blind_clock.
    - apply blind_clock. }
  destruct (B (start s') (start s)) as [E (A & _ & C)].
  { split; [|split]; cbn; try reflexivity; intros k Hk; apply upd_other; congruence. }
  split; [exact E|]. split; [exact C|]. exact A.
Qed.
Print Assumptions C51_time_img_id_is_never_used.

(** A concrete dialogue: the file written by [--config] with the directory and
    the name filled in. *)
Definition demo_store : store := fun k =>
  match k with
  | KImgDir => Some "imgs/" | KImgName => Some "a{}.jpg"
  | KTimeRefId => None | KTimeImgId => Some "3"
  | KNumArrays => Some "2"
  | _ => Some "None"
  end.

Definition demo_world : world :=
  World (fun name id => Ok ("a" ++ id ++ ".jpg")) (fun d f => d ++ f)
        (fun p => if (p =? "imgs/a7.jpg")%string then Ok "2018:11:27 15:36:10" else Err FileNotFoundError)
        (fun d t => if (t =? "15:36:10")%string then Ok 70 else Ok 67).

Definition demo_answers : key -> string := fun k =>
  match k with KTimeRefId => "7" | KTimeRefTime => "15:36:07" | KMaxLeds => "None" | _ => "12" end.

Example C51_example :
  let r := request_config_parameters demo_world demo_answers (start demo_store) in
  snd r = None /\
  asked (fst r) = [KTimeRefId; KTimeRefTime; KRefImg; KMaxLeds; KFirstExp; KLastExp] /\
  cur (fst r) KOffset = Some "3" /\ cur (fst r) KDate = Some "2018:11:27" /\
  saved (fst r) KTimeRefTime = Some "15:36:07" /\ cur (fst r) KMaxLeds = Some "None".
Proof. vm_compute. repeat split; reflexivity. Qed.

Example C51_example_failure :
  let s := upd demo_store KTimeRefFile "clock.jpg" in
  snd (request_config_parameters demo_world demo_answers (start s)) = Some KeyError.
Proof. vm_compute. reflexivity. Qed.
