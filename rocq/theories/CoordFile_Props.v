(** C113: the file with the coordinates of the LEDs, written and read back. *)
From Coq Require Import ZArith QArith Qround Qabs Lia Lqa Bool Ascii String List Permutation Sorted.
From Verif Require Import Base Str Step3_Model Step2_Model Format_Model Format_Proofs Format_Props Table_Model Table_Spec Table_Proofs Table_Props
  Cache_Model Cache_Props CoordFile_Model.
Import ListNotations.
Local Open Scope string_scope.
Local Open Scope Z_scope.

(** ** Specification *)

(** Equal up to half a millionth. *)
Definition near6 (x v : Q) : Prop := (Qabs (v - x) <= 1 # 2000000)%Q.

(** Id, width and height of a row as the tables get them. *)
Definition plane_entry (r : coord_row) (c : Q * (Q * Q)) : Prop :=
  (fst c == inject_Z (c_id r))%Q /\ near6 (c_width r) (fst (snd c)) /\ near6 (c_height r) (snd (snd c)).

(** The position in the room as the distance calculation gets it. *)
Definition room_entry (r : coord_row) (p : Q * Q * Q) : Prop :=
  near6 (c_x r) (fst (fst p)) /\ near6 (c_y r) (snd (fst p)) /\ near6 (c_z r) (snd p).

(** ** Lemmas *)

Lemma parse_fixed : forall n, 0 <= n -> parse_unsigned (fixed_text n) = Some (n, -6).
Proof.
  intros n Hn. unfold fixed_text. set (k := n / 1000000). set (m := n mod 1000000).
  assert (Hk : 0 <= k) by (apply Z.div_pos; lia). assert (Hm : 0 <= m < 1000000) by (apply Z.mod_pos_bound; lia).
  assert (Hd : n = k * 1000000 + m) by (unfold k, m; pose proof (Z.div_mod n 1000000); lia). clearbody k m.
  assert (E : str_of_Z k = show_nonneg k) by (unfold str_of_Z; destruct (k <? 0) eqn:E; [lia|reflexivity]). rewrite E.
  unfold parse_unsigned. rewrite (scan_digits_through _ 0 0 _ k (show_nonneg_digits k) (show_nonneg_val k true Hk)).
  set (len := Z.of_nat (String.length (show_nonneg k))). assert (Hl : 0 <= len) by (unfold len; lia). clearbody len.
  unfold frac_text.
  assert (D0 : digit_val (digit_char (m / 100000)) = Some (m / 100000)).
  { apply digit_val_char. split; [apply Z.div_pos; lia|]. enough (m / 100000 < 10) by lia. apply Z.div_lt_upper_bound; lia. }
  assert (D : forall a, digit_val (digit_char (a mod 10)) = Some (a mod 10)) by (intros a; apply digit_val_char; pose proof (Z.mod_pos_bound a 10); lia).
  cbn [append scan_digits]. change (digit_val "."%char) with (@None Z). cbn iota. change (Ascii.eqb "." ".") with true. cbn iota.
  cbn [scan_digits]. rewrite D0, !D.
  replace (0 + len + (0 + 1 + 1 + 1 + 1 + 1 + 1) =? 0) with false by (symmetry; apply Z.eqb_neq; lia).
  f_equal. f_equal.
  assert (A2 : m / 100 = m / 10 / 10) by (rewrite Z.div_div by lia; reflexivity).
  assert (A3 : m / 1000 = m / 10 / 10 / 10) by (rewrite !Z.div_div by lia; reflexivity).
  assert (A4 : m / 10000 = m / 10 / 10 / 10 / 10) by (rewrite !Z.div_div by lia; reflexivity).
  assert (A5 : m / 100000 = m / 10 / 10 / 10 / 10 / 10) by (rewrite !Z.div_div by lia; reflexivity).
  rewrite A2, A3, A4, A5.
  pose proof (Z.div_mod m 10). pose proof (Z.div_mod (m/10) 10). pose proof (Z.div_mod (m/10/10) 10). pose proof (Z.div_mod (m/10/10/10) 10).
  pose proof (Z.div_mod (m/10/10/10/10) 10). lia.
Qed.

Lemma fixed_chars : forall n, 0 <= n -> all_chars num_char (fixed_text n) = true.
Proof.
  intros n Hn. unfold fixed_text. rewrite all_chars_app, str_of_Z_num_chars. cbn [andb]. unfold frac_text. cbn [all_chars].
  assert (Hm : 0 <= n mod 1000000 < 1000000) by (apply Z.mod_pos_bound; lia). set (m := n mod 1000000) in *. clearbody m.
  assert (D : forall a, num_char (digit_char (a mod 10)) = true) by (intros a; apply digit_num_char, digit_char_is_digit; pose proof (Z.mod_pos_bound a 10); lia).
  rewrite !D. rewrite (digit_num_char (digit_char (m / 100000))); [reflexivity|]. apply digit_char_is_digit.
  split; [apply Z.div_pos; lia|]. enough (m / 100000 < 10) by lia. apply Z.div_lt_upper_bound; lia.
Qed.

Lemma fixed_head : forall n, 0 <= n -> exists c s, fixed_text n = String c s /\ is_digit c = true.
Proof.
  intros n Hn. pose proof (head_digit_max (n / 1000000) (frac_text (n mod 1000000)) ltac:(apply Z.div_pos; lia)) as H. unfold fixed_text.
  destruct (str_of_Z (n / 1000000) ++ frac_text (n mod 1000000)) as [|c s]; [contradiction|]. exists c, s. split; [reflexivity|exact H].
Qed.

Lemma rounded_nonneg : forall x, (0 <= x)%Q -> 0 <= round_half_even (x * 1000000).
Proof.
  intros x Hx. pose proof (round_half_even_spec (x * 1000000)) as R. apply Qabs_Qle_condition in R. set (n := round_half_even (x * 1000000)) in *.
  assert (-1 < n); [|lia]. rewrite (Zlt_Qlt (-1) n). change (inject_Z (-1)) with (-1)%Q. lra.
Qed.

Lemma rounded_near : forall x, near6 x (dec_val (round_half_even (x * 1000000), -6)).
Proof.
  intros x. unfold near6, dec_val. cbn [fst snd]. change (Qpower ten (-6)) with (1 # 1000000)%Q.
  pose proof (round_half_even_spec (x * 1000000)) as R. apply Qabs_Qle_condition in R. apply Qabs_Qle_condition. lra.
Qed.

Lemma field_fmt_f : forall x, exists v, field_ok (fmt_f x) v /\ near6 x v.
Proof.
  intros x. unfold fmt_f. destruct (Qle_bool 0 x) eqn:E.
  - apply Qle_bool_iff in E. pose proof (rounded_nonneg x E) as N. exists (dec_val (round_half_even (x * 1000000), -6)). split; [|apply rounded_near].
    pose proof (fixed_chars _ N) as C. destruct (fixed_head _ N) as (c & s & F & D). split; [|split].
    + apply (all_chars_imp _ _ _ num_field_char C).
    + rewrite F. discriminate.
    + unfold float_of_str. rewrite strip_id; [|eapply all_chars_imp; [|exact C]; intros a Ha; apply num_char_not_ws in Ha; rewrite Ha; reflexivity].
      unfold parse_decimal. rewrite F. assert (G : Ascii.eqb c "-" = false /\ Ascii.eqb c "+" = false).
      { clear - D. destruct c as [[] [] [] [] [] [] [] []]; try discriminate D; split; reflexivity. }
      destruct G as [-> ->]. rewrite <- F, parse_fixed by exact N. reflexivity.
  - assert (E' : (0 <= - x)%Q). { assert (~ (0 <= x)%Q) by (intros C; apply Qle_bool_iff in C; congruence). apply Qnot_le_lt in H. lra. }
    pose proof (rounded_nonneg _ E') as N. pose proof (rounded_near (- x)) as Rn. set (n := round_half_even (- x * 1000000)) in *.
    exists (dec_val (- n, -6)). split.
    + pose proof (fixed_chars _ N) as C. assert (C' : all_chars num_char (String "-" (fixed_text n)) = true) by (cbn [all_chars]; rewrite C; reflexivity).
      split; [|split].
      * apply (all_chars_imp _ _ _ num_field_char C').
      * discriminate.
      * unfold float_of_str. rewrite strip_id; [|eapply all_chars_imp; [|exact C']; intros a Ha; apply num_char_not_ws in Ha; rewrite Ha; reflexivity].
        unfold parse_decimal. change (Ascii.eqb "-" "-") with true. cbn iota. rewrite parse_fixed by exact N. reflexivity.
    + unfold near6, dec_val in *. cbn [fst snd] in *. rewrite inject_Z_opp. apply Qabs_Qle_condition in Rn. apply Qabs_Qle_condition. lra.
Qed.

(** All eight numbers of a row. *)
Definition whole_row (r : coord_row) (row : list Q) : Prop :=
  exists i l c x y z w h, row = [i; l; c; x; y; z; w; h] /\ (i == inject_Z (c_id r))%Q /\ (l == inject_Z (c_line r))%Q /\ (c == inject_Z (c_column r))%Q /\
    near6 (c_x r) x /\ near6 (c_y r) y /\ near6 (c_z r) z /\ near6 (c_width r) w /\ near6 (c_height r) h.

Lemma coord_line_ok : forall r, exists row, line_ok (coord_line r) row /\ whole_row r row.
Proof.
  intros r. destruct (field_max (c_id r)) as (i & I1 & I2). destruct (field_max (c_line r)) as (l & L1 & L2). destruct (field_max (c_column r)) as (c & C1 & C2).
  destruct (field_fmt_f (c_x r)) as (x & X1 & X2). destruct (field_fmt_f (c_y r)) as (y & Y1 & Y2). destruct (field_fmt_f (c_z r)) as (z & Z1 & Z2).
  destruct (field_fmt_f (c_width r)) as (w & W1 & W2). destruct (field_fmt_f (c_height r)) as (h & H1 & H2).
  exists [i; l; c; x; y; z; w; h]. split.
  - eexists. split; [reflexivity|]. split; [discriminate|]. repeat (constructor; [assumption|]). constructor.
  - exists i, l, c, x, y, z, w, h. repeat (split; [first [reflexivity | assumption]|]). assumption.
Qed.

Lemma coord_lines_ok : forall rs, exists m, Forall2 line_ok (map coord_line rs) m /\ Forall2 whole_row rs m.
Proof.
  induction rs as [|r rs (m & A & B)]; [exists []; split; constructor|]. destruct (coord_line_ok r) as (row & R1 & R2).
  exists (row :: m). split; constructor; assumption.
Qed.

Lemma coord_file_floats : forall rs, exists m, read_floats (coord_file rs) = Ok m /\ Forall2 whole_row rs m.
Proof.
  intros rs. destruct (coord_lines_ok rs) as (m & A & B). exists m. split; [|exact B].
  change (coord_file rs) with (["# LED id, pixel position x, pixel position y, x, y, z, width, height"] ++ map coord_line rs)%list.
  apply (read_floats_lines _ _ m 8); [vm_compute; reflexivity|exact A|].
  clear A. induction B as [|r row rs m (i & l & c & x & y & z & w & h & -> & _) B IH]; constructor; [reflexivity|exact IH].
Qed.

(** ** The theorems *)

(** What the tables get: id, width and height of every LED in the order of the
    file, to half a millionth. *)
Theorem C113_coordinates_are_read_back : forall rs, (2 <= List.length rs)%nat ->
  exists co, read_coords (Some (coord_file rs)) = Ok (Some co) /\ Forall2 plane_entry rs co.
Proof.
  intros rs Hn. destruct (coord_file_floats rs) as (m & M & F). unfold read_coords, read_matrix. rewrite M. cbn [bind].
  pose proof (Forall2_len _ _ _ F) as L. destruct m as [|r1 [|r2 m]]; try (cbn [List.length] in L; lia). set (mm := r1 :: r2 :: m) in *.
  assert (P : exists co, mapM pick_columns mm = Ok co /\ Forall2 plane_entry rs co).
  { clearbody mm. clear - F. induction F as [|r row rs mm' (i & l & c & x & y & z & w & h & -> & R) F (co & C1 & C2)]; [exists []; split; [reflexivity|constructor]|].
    exists ((i, (w, h)) :: co). split; [cbn [mapM]; change (pick_columns [i; l; c; x; y; z; w; h]) with (Ok (i, (w, h))); cbn [bind]; rewrite C1; reflexivity|].
    constructor; [|exact C2]. destruct R as (R1 & _ & _ & _ & _ & _ & R7 & R8). split; [exact R1|]. split; assumption. }
  destruct P as (co & P1 & P2). exists co. cbn [bind]. rewrite P1. split; [reflexivity|exact P2].
Qed.
Print Assumptions C113_coordinates_are_read_back.

(** What the distance calculation gets: the row whose position in the file is
    the id of the LED. *)
Theorem C113_positions_are_read_back : forall rs ids, (2 <= List.length rs)%nat -> ids <> [] ->
  (forall id, In id ids -> 0 <= id < Z.of_nat (List.length rs)) ->
  exists ps, get_led_positions (coord_file rs) ids = Ok ps /\
    Forall2 (fun id p => exists r, nth_error rs (Z.to_nat id) = Some r /\ room_entry r p) ids ps.
Proof.
  intros rs ids Hn Hne Hids. destruct (coord_file_floats rs) as (m & M & F). unfold get_led_positions. rewrite M. cbn [bind].
  pose proof (Forall2_len _ _ _ F) as L. assert (P : exists ps, bind (mapM (np_index m) ids) (mapM columns_345) = Ok ps /\
    Forall2 (fun id p => exists r, nth_error rs (Z.to_nat id) = Some r /\ room_entry r p) ids ps).
  { clear M Hne Hn. induction ids as [|id ids IH]; [exists []; split; [reflexivity|constructor]|].
    destruct IH as (ps & P1 & P2); [intros x Hx; apply Hids; right; exact Hx|]. specialize (Hids id ltac:(left; reflexivity)).
    destruct (nth_error rs (Z.to_nat id)) as [r|] eqn:Er; [|apply nth_error_None in Er; lia].
    assert (G : exists row, nth_error m (Z.to_nat id) = Some row /\ whole_row r row).
    { clear - F Er. revert Er. generalize (Z.to_nat id). induction F as [|r' row rs m W F IH]; intros [|n] Er; try discriminate.
      - apply Some_inj in Er. subst r'. exists row. split; [reflexivity|exact W].
      - apply IH. exact Er. }
    destruct G as (row & G1 & G2). assert (N : np_index m id = Ok row).
    { unfold np_index. destruct (Z.ltb_spec id 0) as [Q|Q]; [lia|]. destruct (Z.leb_spec (Z.of_nat (List.length m)) id) as [Q'|Q']; [lia|].
      destruct (Z.ltb_spec id 0) as [Q3|Q3]; [lia|]. cbn [orb]. rewrite G1. reflexivity. }
    destruct G2 as (i & l & c & x & y & z & w & h & -> & _ & _ & _ & X & Y & Zz & _).
    exists ((x, y, z) :: ps). cbn [mapM]. rewrite N. cbn [bind]. destruct (mapM (np_index m) ids) as [t|e]; [|discriminate P1]. cbn [bind mapM columns_345] in *.
    rewrite P1. split; [reflexivity|]. constructor; [|exact P2]. exists r. split; [exact Er|]. split; [exact X|]. split; assumption. }
  destruct P as (ps & P1 & P2). exists ps. destruct m as [|r1 [|r2 m]]; try (cbn [List.length] in L; lia).
  destruct ids as [|i ids]; [congruence|]. split; assumption.
Qed.
Print Assumptions C113_positions_are_read_back.

(** After the coordinates have been written, the first process that builds a
    table puts the width and the height of its LED into every row, if the ids
    in the file ascend and contain the measured LEDs. *)
Theorem C113_new_table_after_writing : forall srt o w rs c recs,
  sorts srt -> (2 <= List.length rs)%nat -> StronglySorted Z.lt (map c_id rs) ->
  w_tables w c = None -> measured o (w_results w c) recs ->
  (forall i, 1 <= i <= images_of o -> NoDup (map d_id (recs i)) /\ forall d, In d (recs i) -> In (d_id d) (map c_id rs)) ->
  exists t parts, fst (read_channel srt o (run srt o [WriteCoordinates (coord_file rs); NewProcess] w) c) = Ok t /\ rows t = concat parts /\
    Forall2 (fun i part => rows_of_image (fun d row => row_of_record (cols t) i d row /\
               exists r wd ht, In r rs /\ c_id r = d_id d /\ get (cols t) row "width" = Some (Some wd) /\ get (cols t) row "height" = Some (Some ht) /\
                               near6 (c_width r) wd /\ near6 (c_height r) ht) (recs i) part)
            (zrange 1 (images_of o + 1)) parts.
Proof.
  intros srt o w rs c recs Hs Hn Hsort Ht Hm Hc. destruct (C113_coordinates_are_read_back rs Hn) as (co & C1 & C2).
  assert (U : usable o recs (Some co)).
  { intros i Hi. destruct (Hc i Hi) as (Nd & Hin). split; [|split; [exact Nd|]].
    - clear - C2 Hsort. induction C2 as [|r e rs co (E1 & _) C2 IH]; [constructor|]. cbn [map] in Hsort. inversion Hsort as [|? ? S1 S2]; subst.
      constructor; [apply IH; exact S1|]. clear IH S1 Hsort. induction C2 as [|r' e' rs co (E1' & _) C2 IH]; [constructor|].
      cbn [map] in S2. inversion S2 as [|? ? S3 S4]; subst. constructor; [rewrite E1, E1', <- Zlt_Qlt; exact S3|apply IH; exact S4].
    - intros d Hd. specialize (Hin d Hd). apply in_map_iff in Hin. destruct Hin as (r & Er & Hr). clear - C2 Er Hr.
      induction C2 as [|r' e' rs co (E1 & _) C2 IH]; [destruct Hr|]. destruct Hr as [->|Hr].
      + exists e'. split; [left; reflexivity|]. rewrite E1, Er. reflexivity.
      + destruct (IH Hr) as (x & X1 & X2). exists x. split; [right; exact X1|exact X2]. }
  set (w1 := run srt o [WriteCoordinates (coord_file rs); NewProcess] w).
  destruct (read_fills_cache srt o w1 c (Some co) recs) as (R & _); [exact Hm|exact Ht|reflexivity|exact C1|].
  destruct (table_of_measured srt o (w_results w1 c) recs (Some co) Hs Hm U) as (t & T1 & parts & T2 & T3).
  exists t, parts. rewrite R. split; [exact T1|]. split; [exact T2|]. eapply Forall2_imp; [|exact T3].
  intros i part (ds & D1 & D2 & D3). exists ds. split; [exact D1|]. split; [exact D2|]. eapply Forall2_imp; [|exact D3].
  intros d row (A & e & E1 & E2 & E3 & E4). split; [exact A|].
  assert (G : exists r, In r rs /\ plane_entry r e).
  { clear - C2 E1. induction C2 as [|r x rs co H C2 IH]; [destruct E1|]. destruct E1 as [->|E1].
    - exists r. split; [left; reflexivity|exact H].
    - destruct (IH E1) as (y & Y1 & Y2). exists y. split; [right; exact Y1|exact Y2]. }
  destruct G as (r & G1 & G2 & G3 & G4). exists r, (fst (snd e)), (snd (snd e)). split; [exact G1|]. split.
  - assert (Q : (inject_Z (c_id r) == inject_Z (d_id d))%Q) by (rewrite <- G2; exact E2). unfold Qeq in Q. cbn in Q. lia.
  - split; [exact E3|]. split; [exact E4|]. split; assumption.
Qed.
Print Assumptions C113_new_table_after_writing.

(** With a single LED, or none, the positions cannot be read. *)
Theorem C113_single_row_fails : forall rs ids, (List.length rs <= 1)%nat -> get_led_positions (coord_file rs) ids = Err IndexError.
Proof.
  intros rs ids H. destruct (coord_file_floats rs) as (m & E & F). unfold get_led_positions. rewrite E. cbn [bind].
  apply Forall2_len in F. destruct m as [|a [|b m]]; [reflexivity|reflexivity|]. cbn in F. lia.
Qed.
Print Assumptions C113_single_row_fails.

(** ** Examples *)

Definition eg_rows : list coord_row :=
  [CoordRow 0 10 20 (1 # 1) (2 # 1) (3 # 1) (0 # 1) (3 # 1); CoordRow 1 10 30 (- (1 # 3)) (2 # 1) (5 # 2) (1 # 3) (5 # 2)].

Example C113_the_text : coord_file eg_rows =
  ["# LED id, pixel position x, pixel position y, x, y, z, width, height";
   "0,10,20,1.000000,2.000000,3.000000,0.000000,3.000000"; "1,10,30,-0.333333,2.000000,2.500000,0.333333,2.500000"].
Proof. vm_compute. reflexivity. Qed.

(** Ties to even, carries into the whole part, negative zero. *)
Example C113_formats : map fmt_f [1 # 2000000; 3 # 2000000; 9999999 # 10000000; - (1 # 10000000); 123456789 # 1000]%Q
  = ["0.000000"; "0.000002"; "1.000000"; "-0.000000"; "123456.789000"].
Proof. vm_compute. reflexivity. Qed.

Example C113_read_back_example : exists co, read_coords (Some (coord_file eg_rows)) = Ok (Some co) /\ Forall2 plane_entry eg_rows co.
Proof. apply C113_coordinates_are_read_back. cbn. lia. Qed.

Example C113_positions_example : exists ps, get_led_positions (coord_file eg_rows) [1; 0] = Ok ps /\
  Forall2 (fun id p => exists r, nth_error eg_rows (Z.to_nat id) = Some r /\ room_entry r p) [1; 0] ps.
Proof. apply C113_positions_are_read_back; [cbn; lia|discriminate|]. intros id [<-|[<-|[]]]; cbn; lia. Qed.

Example C113_table_example : exists t parts,
  fst (read_channel isort eg_options (run isort eg_options [WriteCoordinates (coord_file eg_rows); NewProcess] (eg_world None)) 0) = Ok t /\ rows t = concat parts /\
    Forall2 (fun i part => rows_of_image (fun d row => row_of_record (cols t) i d row /\
               exists r wd ht, In r eg_rows /\ c_id r = d_id d /\ get (cols t) row "width" = Some (Some wd) /\ get (cols t) row "height" = Some (Some ht) /\
                               near6 (c_width r) wd /\ near6 (c_height r) ht) eg_recs part)
            (zrange 1 (images_of eg_options + 1)) parts.
Proof.
  apply (C113_new_table_after_writing isort eg_options (eg_world None) eg_rows 0 (fun _ => eg_recs) isort_sorts).
  - cbn. lia.
  - cbn. constructor; [constructor; constructor|]. constructor; [lia|constructor].
  - reflexivity.
  - exact eg_measured.
  - intros i _. split.
    + cbn. constructor; [intros [C|[]]; discriminate|]. constructor; [intros []|constructor].
    + intros d [<-|[<-|[]]]; cbn; [left|right; left]; reflexivity.
Qed.

(** The id in the file is not looked at: when a search area has been removed by
    hand, later LEDs get the position of another LED, and the table rows of the same
    LED its own width and height. *)
Theorem C113_position_of_the_id_refuted : exists rs r p co c,
  StronglySorted Z.lt (map c_id rs) /\ In r rs /\
  get_led_positions (coord_file rs) [0; c_id r] = Ok [fst p; snd p] /\ ~ room_entry r (snd p) /\
  read_coords (Some (coord_file rs)) = Ok (Some co) /\ In c co /\ plane_entry r c.
Proof.
  set (r0 := CoordRow 0 10 20 (1 # 1) (2 # 1) (3 # 1) (0 # 1) (3 # 1)). set (r2 := CoordRow 2 10 40 (1 # 1) (2 # 1) (2 # 1) (0 # 1) (2 # 1)).
  set (r3 := CoordRow 3 10 50 (1 # 1) (2 # 1) (1 # 1) (0 # 1) (1 # 1)). set (rs := [r0; r2; r3]).
  destruct (C113_positions_are_read_back rs [0; 2]) as (ps & P1 & P2); [cbn; lia|discriminate|intros id [<-|[<-|[]]]; cbn; lia|].
  destruct (C113_coordinates_are_read_back rs) as (co & C1 & C2); [cbn; lia|].
  inversion P2 as [|? p0 ? ps1 _ P3]; subst. inversion P3 as [|? p2 ? ps2 (r & R1 & R2) P4]; subst. inversion P4; subst.
  inversion C2 as [|? c0 ? co1 _ C3]; subst. inversion C3 as [|? c2 ? co2 Hc C4]; subst.
  exists rs, r2, (p0, p2), (c0 :: c2 :: co2), c2. split.
  - cbn. constructor; [constructor; [constructor; constructor|constructor; [lia|constructor]]|constructor; [lia|constructor; [lia|constructor]]].
  - split; [right; left; reflexivity|]. split; [exact P1|]. split; [|split; [exact C1|split; [right; left; reflexivity|exact Hc]]].
    apply Some_inj in R1. subst r. intros (_ & _ & N). destruct R2 as (_ & _ & N'). unfold near6 in N, N'. unfold r2 in N. unfold r3 in N'. cbn [c_z snd] in N, N'.
    apply Qabs_Qle_condition in N, N'. destruct N as [N1 N2]. destruct N' as [N3 N4]. lra.
Qed.
Print Assumptions C113_position_of_the_id_refuted.

Example C113_single_row_example : get_led_positions (coord_file [CoordRow 0 10 20 (1 # 1) (2 # 1) (3 # 1) (0 # 1) (3 # 1)]) [0] = Err IndexError.
Proof. vm_compute. reflexivity. Qed.
