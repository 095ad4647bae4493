(** Properties C58 and C67 - C70: result files, labels, pixels and reference
    values in post-processing. *)
From Coq Require Import ZArith QArith Qabs Lia Lqa Bool Ascii String List.
From Verif Require Import Base Str Substr Cli_Model Sim_Model Sim_Props.
Import ListNotations.
Local Open Scope string_scope.
Local Open Scope Z_scope.

(** ** C58 *)

(** No occurrence of [sep] starts in [p], whatever follows: there is a mismatch
    within [p] for every start. *)
Fixpoint mismatch (sep p : string) : bool :=
  match sep, p with
  | String a sep', String b p' => negb (Ascii.eqb a b) || mismatch sep' p'
  | _, _ => false
  end.

Fixpoint never (sep p : string) : bool :=
  match p with "" => true | String _ p' => mismatch sep p && never sep p' end.

Lemma mismatch_starts : forall sep p s, mismatch sep p = true -> starts sep (p ++ s) = false.
Proof.
  induction sep as [|a sep IH]; intros [|b p] s H; cbn in *; try discriminate.
  destruct (Ascii.eqb a b); [|reflexivity]. cbn in *. apply IH. exact H.
Qed.

Lemma never_clean : forall sep p s, never sep p = true -> clean sep p s = true.
Proof.
  intros sep p s. induction p as [|b p IH]; [reflexivity|]. cbn [never clean].
  rewrite !andb_true_iff. intros [H1 H2]. split; [|apply IH; exact H2].
  rewrite (mismatch_starts sep (String b p) s H1). reflexivity.
Qed.

Lemma int_no_char : forall c n, int_char c = false -> has_char c (str_of_Z n) = false.
Proof. intros c n H. apply (has_char_all c int_char); [apply str_of_Z_chars|exact H]. Qed.

(** Channel and LED array can be recovered from the path of a result file, if
    the directory contains neither word and the property (followed by an
    underscore) does not contain "array_". *)
Theorem C58_file_name_round_trip :
  forall dir k channel property array,
  contains "channel_" dir = false -> contains "array_" dir = false ->
  contains "array_" (property ++ "_") = false ->
  channel_of_file (result_path dir k channel property array) = Ok channel /\
  array_of_file (result_path dir k channel property array) = Ok array.
Proof.
  intros dir k channel property array H1 H2 H3. split.
  - unfold channel_of_file, result_path, result_name.
    set (rest := property ++ "_led_array_" ++ str_of_Z array ++ ".csv").
    assert (E : (dir ++ "/analysis/extinction_coefficients/" ++ kind_name k ++ "/" ++
                 "extinction_coefficients_" ++ kind_name k ++ "_channel_" ++ str_of_Z channel ++ "_" ++ rest =
                 (dir ++ "/analysis/extinction_coefficients/" ++ kind_name k ++ "/extinction_coefficients_" ++
                  kind_name k ++ "_") ++ "channel_" ++ (str_of_Z channel ++ "_") ++ rest)).
    { rewrite !app_assoc_s. destruct k; cbn [kind_name append]; reflexivity. }
    rewrite E, split_str_first; [|discriminate|].
    + unfold item at 1. cbn [nth_error].
      destruct (split_str_head "channel_" (str_of_Z channel ++ "_") rest) as (r & l & F).
      { apply (clean_chars "c"%char "hannel_"). rewrite has_char_app, int_no_char by reflexivity. reflexivity. }
      rewrite F. cbn [nth_error bind]. rewrite app_assoc_s.
      change ("_" ++ r) with (String "_"%char r).
      destruct (split_on_head "_"%char (str_of_Z channel) r) as (l' & ->); [apply int_no_char; reflexivity|].
      cbn [item nth_error bind]. apply int_of_str_of_Z.
    + rewrite clean_app. apply andb_true_iff. split.
      * apply clean_stop; [reflexivity|exact H1].
      * apply never_clean. destruct k; reflexivity.
  - unfold array_of_file, result_path, result_name.
    assert (E : (dir ++ "/analysis/extinction_coefficients/" ++ kind_name k ++ "/" ++
                 "extinction_coefficients_" ++ kind_name k ++ "_channel_" ++ str_of_Z channel ++ "_" ++
                 property ++ "_led_array_" ++ str_of_Z array ++ ".csv" =
                 (dir ++ ("/analysis/extinction_coefficients/" ++ kind_name k ++ "/extinction_coefficients_" ++
                  kind_name k ++ "_channel_") ++ (str_of_Z channel ++ "_") ++ property ++ "_led_") ++
                 "array_" ++ str_of_Z array ++ ".csv")).
    { rewrite !app_assoc_s. destruct k; cbn [kind_name append]; reflexivity. }
    rewrite E, split_str_first; [|discriminate|].
    + unfold item at 1. cbn [nth_error].
      destruct (split_str_head "array_" (str_of_Z array ++ ".csv") "") as (r & l & F).
      { apply (clean_chars "a"%char "rray_"). rewrite has_char_app, int_no_char by reflexivity. reflexivity. }
      rewrite app_nil_s in F. rewrite F. cbn [nth_error bind]. rewrite app_assoc_s.
      change (".csv" ++ r) with (String "."%char ("csv" ++ r)).
      destruct (split_on_head "."%char (str_of_Z array) ("csv" ++ r)) as (l' & ->); [apply int_no_char; reflexivity|].
      cbn [item nth_error bind]. apply int_of_str_of_Z.
    + rewrite !clean_app, !andb_true_iff. repeat split.
      all: first [ apply clean_stop; [reflexivity|exact H2]
                 | apply never_clean; reflexivity
                 | apply (clean_end "array" property "_"%char); [reflexivity|exact H3]
                 | apply (clean_chars "a"%char "rray_"); apply int_no_char; reflexivity
                 | destruct k; reflexivity ].
Qed.
Print Assumptions C58_file_name_round_trip.

Example C58_file_name_round_trip_ex :
  result_path "/home/u/exp_1" Linear 2 "sum_col_val" 13 =
  "/home/u/exp_1/analysis/extinction_coefficients/linear/extinction_coefficients_linear_channel_2_sum_col_val_led_array_13.csv" /\
  channel_of_file (result_path "/home/u/exp_1" Linear 2 "sum_col_val" 13) = Ok 2 /\
  array_of_file (result_path "/home/u/exp_1" Linear 2 "sum_col_val" 13) = Ok 13.
Proof. repeat split; vm_compute; reflexivity. Qed.

(** Without these conditions the wrong numbers are read without any error: a
    directory named after a channel or an array wins over the file name. *)
Theorem C58_any_directory_refuted :
  exists dir, forall k channel property array,
  channel_of_file (result_path dir k channel property array) = Ok 7 /\
  array_of_file (result_path dir k channel property array) = Ok 5.
Proof.
  exists "/data/channel_7_array_5.b". intros k channel property array.
  unfold result_path, result_name.
  set (rest := str_of_Z channel ++ "_" ++ property ++ "_led_array_" ++ str_of_Z array ++ ".csv").
  split.
  - unfold channel_of_file.
    replace ("/data/channel_7_array_5.b" ++ "/analysis/extinction_coefficients/" ++ kind_name k ++ "/" ++
             "extinction_coefficients_" ++ kind_name k ++ "_channel_" ++ rest)
      with ("/data/" ++ "channel_" ++ "7_array_5.b/analysis/extinction_coefficients/" ++ kind_name k ++ "/" ++
            "extinction_coefficients_" ++ kind_name k ++ "_channel_" ++ rest) by reflexivity.
    rewrite split_str_first by (try discriminate; apply never_clean; reflexivity).
    unfold item at 1. cbn [nth_error].
    destruct (split_str_head "channel_" "7_" ("array_5.b/analysis/extinction_coefficients/" ++ kind_name k ++ "/" ++
            "extinction_coefficients_" ++ kind_name k ++ "_channel_" ++ rest)) as (r & l & F);
      [apply never_clean; reflexivity|].
    cbn [append] in F |- *. rewrite F. reflexivity.
  - unfold array_of_file.
    replace ("/data/channel_7_array_5.b" ++ "/analysis/extinction_coefficients/" ++ kind_name k ++ "/" ++
             "extinction_coefficients_" ++ kind_name k ++ "_channel_" ++ rest)
      with ("/data/channel_7_" ++ "array_" ++ "5.b/analysis/extinction_coefficients/" ++ kind_name k ++ "/" ++
            "extinction_coefficients_" ++ kind_name k ++ "_channel_" ++ rest) by reflexivity.
    rewrite split_str_first by (try discriminate; apply never_clean; reflexivity).
    unfold item at 1. cbn [nth_error].
    destruct (split_str_head "array_" "5.b/" ("analysis/extinction_coefficients/" ++ kind_name k ++ "/" ++
            "extinction_coefficients_" ++ kind_name k ++ "_channel_" ++ rest)) as (r & l & F);
      [apply never_clean; reflexivity|].
    cbn [append] in F |- *. rewrite F. reflexivity.
Qed.
Print Assumptions C58_any_directory_refuted.

(** ** C69 *)

Definition one_line (s : string) : Prop := has_char nl s = false.

(** No value printed in the header contains a newline. *)
Definition head_ok (h : head) : Prop :=
  Forall one_line [h_channel h; h_array h; h_amount h; h_bottom h; h_top h; h_x h; h_y h; h_z h;
                   h_property h; h_ref h; h_solver h; h_lambda h; h_version h] /\
  Forall one_line (h_bottoms h) /\ Forall one_line (h_tops h) /\ Forall one_line (h_centers h).

Lemma has_char_join : forall c sep l, has_char c sep = false -> Forall (fun s => has_char c s = false) l ->
  has_char c (join sep l) = false.
Proof.
  intros c sep l Hs H. induction H as [|a l Ha Hl IH]; [reflexivity|]. unfold join in *.
  destruct l as [|b l]; [exact Ha|]. change (String.concat sep (a :: b :: l)) with (a ++ sep ++ String.concat sep (b :: l)).
  rewrite !has_char_app, Ha, Hs, IH. reflexivity.
Qed.

Lemma split_lines : forall a b, has_char nl a = false -> split_on nl (a ++ nls ++ b) = a :: split_on nl b.
Proof. intros a b H. apply (split_on_app nl a b H). Qed.

Lemma layer_columns_spec : forall amount, (1 <= amount)%nat ->
  layer_columns amount = join "," (map (fun i => "layer" ++ str_of_Z (Z.of_nat i)) (seq 0 amount)).
Proof.
  assert (G : forall n k p, p ++ String.concat "" (map (fun i => ",layer" ++ str_of_Z (Z.of_nat i + 1)) (seq k n)) =
    join "," (p :: map (fun i => "layer" ++ str_of_Z (Z.of_nat i)) (seq (S k) n))).
  { induction n as [|n IH]; intros k p.
    - cbn. rewrite app_nil_s. reflexivity.
    - cbn [seq map].
      assert (C : forall x (l : list string), String.concat "" (x :: l) = x ++ String.concat "" l).
      { intros x [|y l]; cbn; [rewrite app_nil_s|]; reflexivity. }
      rewrite C. unfold join. change (String.concat "," (p :: ?a :: ?l)) with (p ++ "," ++ String.concat "," (a :: l)).
      fold (join "," (("layer" ++ str_of_Z (Z.of_nat (S k)))
            :: map (fun i => "layer" ++ str_of_Z (Z.of_nat i)) (seq (S (S k)) n))).
      rewrite <- IH. rewrite Nat2Z.inj_succ. unfold Z.succ. reflexivity. }
  intros amount H. destruct amount as [|n]; [lia|]. unfold layer_columns.
  cbn [seq map]. rewrite Nat.sub_succ, Nat.sub_0_r. rewrite G. reflexivity.
Qed.

(** A saved result table is read back: the first column is the time, the others
    are the layers in order, and every row has the fields that were written. *)
Theorem C69_result_table_is_read_back :
  forall h amount rows, head_ok h -> (1 <= amount)%nat ->
  Forall (fun r => r <> [] /\ Forall (fun f => has_char ","%char f = false) r) rows ->
  read_lines (saved_lines h amount rows) =
  Ok ("# Experiment_Time[s]" :: map (fun i => "layer" ++ str_of_Z (Z.of_nat i)) (seq 0 amount), rows).
Proof.
  intros h amount rows (H & Hb & Ht & Hc) Ha Hr. unfold read_lines, saved_lines, header.
  repeat match goal with X : Forall _ (_ :: _) |- _ => inversion X; clear X; subst end.
  unfold one_line in *.
  assert (J : forall l, Forall one_line l -> has_char nl (join "," l) = false)
    by (intros l Hl; apply has_char_join; [reflexivity|exact Hl]).
  assert (L : has_char nl ("Experiment_Time[s]," ++ layer_columns amount) = false).
  { rewrite layer_columns_spec, has_char_app by exact Ha. rewrite J; [reflexivity|].
    apply Forall_forall. intros x Hx. apply in_map_iff in Hx. destruct Hx as (i & <- & _).
    unfold one_line. rewrite has_char_app, int_no_char by reflexivity. reflexivity. }
  assert (S8 : forall l1 l2 l3 l4 l5 l6 l7 l8, Forall one_line [l1; l2; l3; l4; l5; l6; l7; l8] ->
    split_on nl (l1 ++ nls ++ l2 ++ nls ++ l3 ++ nls ++ l4 ++ nls ++ l5 ++ nls ++ l6 ++ nls ++ l7 ++ nls ++ l8) =
    [l1; l2; l3; l4; l5; l6; l7; l8]).
  { intros l1 l2 l3 l4 l5 l6 l7 l8 F. unfold one_line in F.
    repeat match goal with X : Forall _ (_ :: _) |- _ => inversion X; clear X; subst end.
    rewrite !split_lines, split_on_no_char by assumption. reflexivity. }
  match goal with |- context [split_on nl ?t] =>
    assert (E : exists l1 l2 l3 l4 l5 l6 l7, split_on nl t =
      [l1; l2; l3; l4; l5; l6; l7; "Experiment_Time[s]," ++ layer_columns amount]) end.
  { do 7 eexists. rewrite <- (S8
      ("channel: " ++ h_channel h ++ ", led_array: " ++ h_array h)
      ("num_of_layers: " ++ h_amount h ++ ", bottom_border: " ++ h_bottom h ++ ", top_border: " ++ h_top h)
      ("Camera: (" ++ h_x h ++ ", " ++ h_y h ++ ", " ++ h_z h ++ ")")
      ("Reference_property: " ++ h_property h ++ ", Ref_img_indices: " ++ h_ref h ++ ", Solver: " ++ h_solver h ++
       ", Lambda_reg: " ++ h_lambda h ++ ", LEDSA " ++ h_version h)
      ("Layer_bottom_height[m]," ++ join "," (h_bottoms h))
      ("Layer_top_height[m]," ++ join "," (h_tops h))
      ("Layer_center_height[m]," ++ join "," (h_centers h))
      ("Experiment_Time[s]," ++ layer_columns amount)).
    - rewrite !app_assoc_s. reflexivity.
    - repeat constructor; unfold one_line; try exact L; rewrite ?has_char_app, ?J by assumption;
      repeat match goal with X : has_char nl (_ h) = false |- _ => rewrite X; clear X end; reflexivity. }
  destruct E as (l1 & l2 & l3 & l4 & l5 & l6 & l7 & ->). cbn [map skipn app].
  f_equal. f_equal.
  - rewrite layer_columns_spec by exact Ha.
    replace ("# " ++ "Experiment_Time[s]," ++ join "," (map (fun i => "layer" ++ str_of_Z (Z.of_nat i)) (seq 0 amount)))
      with (join "," ("# Experiment_Time[s]" :: map (fun i => "layer" ++ str_of_Z (Z.of_nat i)) (seq 0 amount)))
      by (destruct amount; [lia|reflexivity]).
    apply (split_on_join ","%char); [discriminate|]. constructor; [reflexivity|].
    apply Forall_forall. intros x Hx. apply in_map_iff in Hx. destruct Hx as (i & <- & _).
    rewrite has_char_app, int_no_char by reflexivity. reflexivity.
  - rewrite map_map. rewrite <- (map_id rows) at 2. apply map_ext_in. intros r Hin.
    rewrite Forall_forall in Hr. destruct (Hr r Hin) as [Hne Hf]. apply (split_on_join ","%char); assumption.
Qed.
Print Assumptions C69_result_table_is_read_back.

Definition head_ex : head :=
  Head "0" "1" "2" "1.0" "3.0" "0.1" "0.2" "0.3" "sum_col_val" "None" "linear" "0.001" "1.0"
       ["1.0"; "2.0"] ["2.0"; "3.0"] ["1.50"; "2.50"].

Example C69_result_table_is_read_back_ex :
  head_ok head_ex /\
  read_lines (saved_lines head_ex 2 [["0"; "0.1"; "0.2"]; ["1"; "0.3"; "0.4"]]) =
  Ok (["# Experiment_Time[s]"; "layer0"; "layer1"], [["0"; "0.1"; "0.2"]; ["1"; "0.3"; "0.4"]]).
Proof. split; [repeat (constructor || split)|reflexivity]. Qed.

(** A printed value with a newline - the text of a long array of reference
    image ids - moves the data: the line of column names is no longer the eighth one. *)
Theorem C69_multi_line_header_refuted :
  exists h amount rows, (1 <= amount)%nat /\
  Forall (fun r => r <> [] /\ Forall (fun f => has_char ","%char f = false) r) rows /\
  forall cols, read_lines (saved_lines h amount rows) <> Ok (cols, rows).
Proof.
  exists (Head "0" "1" "2" "1.0" "3.0" "0.1" "0.2" "0.3" "sum_col_val" ("[1 2" ++ nls ++ " 3]") "linear" "0.001" "1.0"
       ["1.0"; "2.0"] ["2.0"; "3.0"] ["1.50"; "2.50"]), 2%nat, [["0"; "0.1"; "0.2"]].
  split; [lia|]. split; [repeat (constructor; try discriminate)|].
  intros cols. vm_compute. congruence.
Qed.
Print Assumptions C69_multi_line_header_refuted.

(** ** C67 *)

(** With yaxis='height' the heights are used as labels of the rows, which are
    times: the call succeeds only if there happen to be as many times as layers,
    and then the times are lost and the columns still have layer numbers. *)
Theorem C67_heights_label_the_times :
  forall agg times tab channel array heights w t,
  filter (fun c => (c_channel c =? channel) && (c_array c =? array)) tab = t -> t <> [] ->
  (* by layer: times in the rows, layers in the columns *)
  get_extco_at_led_array agg times tab channel array Layer w =
    Ok (times, map c_layer t, map (fun c => moving_average agg w (c_values c)) t) /\
  (* by height *)
  get_extco_at_led_array agg times tab channel array (Height heights) w =
    (if (length heights =? length times)%nat
     then Ok (heights, map c_layer t, map (fun c => moving_average agg w (c_values c)) t)
     else Err ValueError).
Proof.
  intros agg times tab channel array heights w t Ht Hne.
  assert (ff : forall {A} (f g : A -> bool) l, filter g (filter f l) = filter (fun x => f x && g x) l).
  { intros A f g l. induction l as [|a l IH]; simpl; [reflexivity|].
    destruct (f a); simpl; [destruct (g a); rewrite IH; reflexivity|exact IH]. }
  rewrite <- ff in Ht. unfold get_extco_at_led_array.
  set (u := filter (fun c => c_channel c =? channel) tab) in *. clearbody u.
  destruct u as [|c u]; [cbn in Ht; congruence|]. rewrite Ht.
  destruct t as [|c' t]; [congruence|]. split; reflexivity.
Qed.
Print Assumptions C67_heights_label_the_times.

(** Contrary to its documentation the call fails for a normal table. *)
Theorem C67_heights_of_led_array_refuted :
  exists tab times heights, length (filter (fun c => (c_channel c =? 0) && (c_array c =? 0)) tab) = length heights /\
  get_extco_at_led_array mean times tab 0 0 (Height heights) 1 = Err ValueError.
Proof.
  exists (file_columns 0 0 [[Some 1%Q; Some 2%Q; Some 3%Q]; [Some 4%Q; Some 5%Q; Some 6%Q]]), [0; 1; 2]%Q, [1; 2]%Q.
  split; reflexivity.
Qed.
Print Assumptions C67_heights_of_led_array_refuted.

(** ** C70 *)

Lemma sumQ_div : forall l d, ~ (d == 0)%Q -> (sumQ (map (fun v => v / d)%Q l) == sumQ l / d)%Q.
Proof.
  intros l d Hd. induction l as [|x l IH]; cbn [map sumQ fold_right].
  - field. exact Hd.
  - change (fold_right Qplus 0%Q (map (fun v => (v / d)%Q) l)) with (sumQ (map (fun v => (v / d)%Q) l)).
    rewrite IH. change (fold_right Qplus 0%Q l) with (sumQ l). field. exact Hd.
Qed.

Definition num_ref_of (num_ref : Z) (n : nref) : option Z :=
  match n with NFalse => None | NNone => Some num_ref | NInt 0 => None | NInt k => Some k end.

(** With k >= 1 reference images the first k relative values of a LED have mean
    1, provided the LED was visible in them (mean not 0). *)
Theorem C70_reference_values_have_mean_one :
  forall num_ref delta tab led n k vals,
  num_ref_of num_ref n = Some k -> 1 <= k ->
  vals = map r_val (filter (fun r => r_led r =? led) tab) -> vals <> [] ->
  ~ (sumQ (firstn (Z.to_nat k) vals) == 0)%Q ->
  exists rel, map snd (ledparams_at_led_id num_ref delta tab led n) = map Some rel /\
    length rel = length vals /\ (mean (firstn (Z.to_nat k) rel) == 1)%Q.
Proof.
  intros num_ref delta tab led n k vals Hn Hk Ev Hne Hs.
  unfold ledparams_at_led_id. rewrite map_map. cbn [snd].
  rewrite <- (map_map r_val (fun v => relative num_ref n _ v)), <- Ev.
  assert (F : firstn (Z.to_nat (adjust_bound (Z.of_nat (length vals)) k)) vals = firstn (Z.to_nat k) vals).
  { unfold adjust_bound. replace (k <? 0) with false by lia.
    destruct (Z.le_gt_cases k (Z.of_nat (length vals))) as [G|G].
    - rewrite Z.min_l by exact G. reflexivity.
    - rewrite Z.min_r by lia. rewrite Nat2Z.id, firstn_all. symmetry. apply firstn_all2. lia. }
  assert (Hf : firstn (Z.to_nat k) vals <> []).
  { destruct vals; [congruence|]. destruct (Z.to_nat k) eqn:E; [lia|]. discriminate. }
  assert (M : mean_first k vals = Some (mean (firstn (Z.to_nat k) vals))).
  { unfold mean_first. rewrite F. destruct (firstn (Z.to_nat k) vals); [congruence|reflexivity]. }
  set (len := length (firstn (Z.to_nat k) vals)).
  assert (Hl : ~ (inject_Z (Z.of_nat len) == 0)%Q).
  { apply inject_nz. unfold len. destruct (firstn (Z.to_nat k) vals); [congruence|]. cbn [length]. lia. }
  set (m := mean (firstn (Z.to_nat k) vals)) in *.
  assert (Hm : ~ (m == 0)%Q).
  { unfold m, mean. fold len. intros C. apply Hs.
    rewrite <- (Qmult_div_r (sumQ (firstn (Z.to_nat k) vals)) (inject_Z (Z.of_nat len))) by exact Hl.
    rewrite C. ring. }
  exists (map (fun v => v / m)%Q vals). split; [|split; [apply map_length|]].
  - rewrite map_map. apply map_ext. intros v. unfold relative.
    assert (Q : quotient v (mean_first k vals) = Some (v / m)%Q).
    { rewrite M. unfold quotient. destruct (Qeq_bool m 0) eqn:E; [|reflexivity].
      apply Qeq_bool_eq in E. contradiction. }
    destruct n as [| |j]; cbn [num_ref_of] in Hn; [discriminate|injection Hn as ->; exact Q|].
    destruct (j =? 0) eqn:E; [apply Z.eqb_eq in E; subst; discriminate|].
    destruct j; try (injection Hn as <-; exact Q). discriminate.
  - rewrite firstn_map. unfold mean. rewrite sumQ_div by exact Hm. rewrite map_length. fold len.
    unfold m, mean. fold len. field. split; assumption.
Qed.
Print Assumptions C70_reference_values_have_mean_one.

Example C70_reference_values_have_mean_one_ex :
  map snd (ledparams_at_led_id 2 0 [Row 0 5 0 8%Q; Row 1 5 0 12%Q; Row 2 5 0 5%Q] 5 NNone) =
  [Some (8 / (20 # 2)); Some (12 / (20 # 2)); Some (5 / (20 # 2))]%Q.
Proof. reflexivity. Qed.

(** If the reference values add up to 0 (dark LED, or no reference image) no
    value of the LED is a number. *)
Theorem C70_dark_references_give_no_numbers :
  forall num_ref delta tab led n k vals,
  num_ref_of num_ref n = Some k -> 0 <= k ->
  vals = map r_val (filter (fun r => r_led r =? led) tab) ->
  (sumQ (firstn (Z.to_nat k) vals) == 0)%Q ->
  map snd (ledparams_at_led_id num_ref delta tab led n) = map (fun _ => None) vals.
Proof.
  intros num_ref delta tab led n k vals Hn Hk Ev Hs.
  unfold ledparams_at_led_id. rewrite map_map. cbn [snd]. rewrite <- (map_map r_val (fun v => relative num_ref n _ v)), <- Ev.
  apply map_ext. intros v.
  assert (F : firstn (Z.to_nat (adjust_bound (Z.of_nat (length vals)) k)) vals = firstn (Z.to_nat k) vals).
  { unfold adjust_bound. replace (k <? 0) with false by lia.
    destruct (Z.le_gt_cases k (Z.of_nat (length vals))) as [G|G].
    - rewrite Z.min_l by exact G. reflexivity.
    - rewrite Z.min_r by lia. rewrite Nat2Z.id, firstn_all. symmetry. apply firstn_all2. lia. }
  assert (Q : quotient v (mean_first k vals) = None).
  { unfold mean_first. rewrite F. destruct (firstn (Z.to_nat k) vals) as [|x l] eqn:E; [reflexivity|]. unfold quotient.
    destruct (Qeq_bool (mean (x :: l)) 0) eqn:B; [reflexivity|]. exfalso. apply Qeq_bool_neq in B. apply B. unfold mean. rewrite Hs. reflexivity. }
  unfold relative. destruct n as [| |j]; cbn [num_ref_of] in Hn; [discriminate|injection Hn as ->; exact Q|].
  destruct (j =? 0) eqn:E; [apply Z.eqb_eq in E; subst; discriminate|].
  destruct j; try (injection Hn as <-; exact Q). discriminate.
Qed.
Print Assumptions C70_dark_references_give_no_numbers.

Example C70_dark_references_give_no_numbers_ex :
  map snd (ledparams_at_led_id 2 0 [Row 0 5 0 0%Q; Row 1 5 0 0%Q; Row 2 5 0 7%Q] 5 NNone) = [None; None; None].
Proof. reflexivity. Qed.

(** The values per LED array contain, for each of its LEDs, exactly the values
    per LED; only the times differ by the time shift. *)
Theorem C70_array_and_led_agree :
  forall num_ref delta tab array led n,
  (forall r, In r tab -> r_led r = led -> r_array r = array) ->
  map (fun p => (fst (fst p), snd p))
      (filter (fun p => snd (fst p) =? led) (ledparams_at_led_array num_ref delta tab array n)) =
  map (fun p => (fst p + delta, snd p)) (ledparams_at_led_id num_ref delta tab led n).
Proof.
  intros num_ref delta tab array led n H. unfold ledparams_at_led_array, ledparams_at_led_id.
  assert (E : filter (fun r => r_led r =? led) (filter (fun r => r_array r =? array) tab) =
              filter (fun r => r_led r =? led) tab).
  { clear n. induction tab as [|r tab IH]; [reflexivity|]. cbn [filter].
    assert (IH' : filter (fun r => r_led r =? led) (filter (fun r => r_array r =? array) tab) =
              filter (fun r => r_led r =? led) tab) by (apply IH; intros x Hx; apply H; right; exact Hx).
    destruct (r_array r =? array) eqn:Ea; cbn [filter]; destruct (r_led r =? led) eqn:El; rewrite ?IH'; try reflexivity.
    exfalso. apply Z.eqb_eq in El. apply Z.eqb_neq in Ea. apply Ea. apply H; [left; reflexivity|exact El]. }
  set (ii := filter (fun r => r_array r =? array) tab) in *.
  assert (V : map r_val (filter (fun r => r_led r =? led) tab) = vals_of_led led ii)
    by (unfold vals_of_led; rewrite E; reflexivity).
  rewrite V, <- E.
  rewrite map_map. cbn [fst snd].
  assert (G : forall l, map (fun p => (fst (fst p), snd p)) (filter (fun p => snd (fst p) =? led)
     (map (fun r => (r_time r + delta, r_led r, relative num_ref n (vals_of_led (r_led r) ii) (r_val r))) l)) =
     map (fun r => (r_time r + delta, relative num_ref n (vals_of_led led ii) (r_val r)))
         (filter (fun r => r_led r =? led) l)).
  { induction l as [|r l IH]; [reflexivity|]. cbn [map filter fst snd].
    destruct (r_led r =? led) eqn:El; [|exact IH]. cbn [map fst snd]. rewrite IH.
    apply Z.eqb_eq in El. rewrite El. reflexivity. }
  rewrite G. reflexivity.
Qed.
Print Assumptions C70_array_and_led_agree.

Example C70_array_and_led_agree_ex :
  let tab := [Row 0 5 1 8%Q; Row 0 6 1 4%Q; Row 0 7 2 9%Q; Row 1 5 1 6%Q] in
  (forall r, In r tab -> r_led r = 5 -> r_array r = 1) /\
  ledparams_at_led_id 1 10 tab 5 NNone = [(0, Some (8 / (8 # 1))%Q); (1, Some (6 / (8 # 1))%Q)] /\
  ledparams_at_led_array 1 10 tab 1 NNone =
    [(10, 5, Some (8 / (8 # 1))%Q); (10, 6, Some (4 / (4 # 1))%Q); (11, 5, Some (6 / (8 # 1))%Q)].
Proof.
  split; [intros r [<-|[<-|[<-|[<-|[]]]]]; cbn; congruence|]. split; reflexivity.
Qed.

(** Zero reference images means: not normalised, like False. *)
Theorem C70_zero_means_absolute :
  forall num_ref delta tab led array,
  ledparams_at_led_id num_ref delta tab led (NInt 0) = ledparams_at_led_id num_ref delta tab led NFalse /\
  ledparams_at_led_array num_ref delta tab array (NInt 0) = ledparams_at_led_array num_ref delta tab array NFalse /\
  map snd (ledparams_at_led_id num_ref delta tab led (NInt 0)) =
  map Some (map r_val (filter (fun r => r_led r =? led) tab)).
Proof.
  intros. split; [reflexivity|split; [reflexivity|]]. unfold ledparams_at_led_id.
  rewrite !map_map. reflexivity.
Qed.
Print Assumptions C70_zero_means_absolute.

(** ** C68 *)

(** Without an explicit radius no pixels are ever returned: the configured
    radius is a text. *)
Theorem C68_default_radius_never_works :
  forall (A : Type) path cfg rows (image : Q -> Z -> res (list (list A))) led channel time v,
  get_pixel_values_of_led path cfg rows image led channel time None = Ok v -> v = None /\ cfg = "".
Proof.
  intros A path cfg rows image led channel time v. unfold get_pixel_values_of_led.
  destruct (path =? "")%string; [discriminate|]. destruct cfg as [|c cfg].
  - intros H. split; [congruence|reflexivity].
  - destruct (pixel_position rows led) as [p|]; [|discriminate]. cbn [bind].
    destruct (image time channel); discriminate.
Qed.
Print Assumptions C68_default_radius_never_works.

Theorem C68_default_radius_refuted :
  exists path cfg rows (image : Q -> Z -> res (list (list Z))),
  get_pixel_values_of_led path cfg rows image 0 0 0%Q (Some 1) = Ok (Some [[6; 7]; [2; 3]]) /\
  get_pixel_values_of_led path cfg rows image 0 0 0%Q None = Err TypeError.
Proof.
  exists "./", "1", [(0, 1, 2)], (fun _ _ => Ok [[1; 2; 3; 4]; [5; 6; 7; 8]; [9; 10; 11; 12]]).
  split; reflexivity.
Qed.
Print Assumptions C68_default_radius_refuted.

Lemma length_slice : forall {A} (l : list A) a b, 0 <= a -> a <= b -> b <= Z.of_nat (length l) ->
  length (slice l a b) = Z.to_nat (b - a).
Proof.
  intros A l a b H1 H2 H3. unfold slice, adjust_bound.
  replace (a <? 0) with false by lia. replace (b <? 0) with false by lia.
  rewrite !Z.min_l by lia. rewrite firstn_length, skipn_length. lia.
Qed.

Lemma nth_error_slice : forall {A} (l : list A) a b i, 0 <= a -> a <= b -> b <= Z.of_nat (length l) ->
  (i < Z.to_nat (b - a))%nat -> nth_error (slice l a b) i = nth_error l (Z.to_nat a + i).
Proof.
  intros A l a b i H1 H2 H3 Hi. unfold slice, adjust_bound.
  replace (a <? 0) with false by lia. replace (b <? 0) with false by lia.
  rewrite !Z.min_l by lia. rewrite nth_error_firstn_lt by exact Hi. apply nth_error_skipn_add.
Qed.

Lemma nth_error_rev_lt : forall {A} (l : list A) i, (i < length l)%nat ->
  nth_error (rev l) i = nth_error l (length l - 1 - i).
Proof.
  intros A l. induction l as [|a l IH]; intros i H; cbn [length] in *; [lia|]. cbn [rev].
  destruct (Nat.eq_dec i (length l)) as [->|N].
  - rewrite nth_error_app2 by (rewrite rev_length; lia). rewrite rev_length, Nat.sub_diag.
    replace (S (length l) - 1 - length l)%nat with 0%nat by lia. reflexivity.
  - rewrite nth_error_app1 by (rewrite rev_length; lia). rewrite IH by lia.
    replace (S (length l) - 1 - i)%nat with (S (length l - 1 - i)) by lia. reflexivity.
Qed.

(** With an explicit radius r the 2r x 2r pixels x-r..x+r-1, y-r..y+r-1 around
    the LED are returned upside down, if this square lies inside the image. *)
Theorem C68_explicit_radius :
  forall (A : Type) path cfg rows (image : Q -> Z -> res (list (list A))) led channel time r img id x y width,
  path <> "" -> 0 < r -> 0 <= led -> nth_error rows (Z.to_nat led) = Some (id, x, y) ->
  image time channel = Ok img -> (forall line, In line img -> Z.of_nat (length line) = width) ->
  r <= x -> x + r <= Z.of_nat (length img) -> r <= y -> y + r <= width ->
  exists out, get_pixel_values_of_led path cfg rows image led channel time (Some r) = Ok (Some out) /\
    length out = Z.to_nat (2 * r) /\
    forall i j, (i < Z.to_nat (2 * r))%nat -> (j < Z.to_nat (2 * r))%nat ->
      exists line line', nth_error out i = Some line /\ length line = Z.to_nat (2 * r) /\
        nth_error img (Z.to_nat (x + r - 1) - i) = Some line' /\
        nth_error line j = nth_error line' (Z.to_nat (y - r) + j).
Proof.
  intros A path cfg rows image led channel time r img id x y width Hp Hr Hl Hrow Himg Hw X1 X2 Y1 Y2.
  unfold get_pixel_values_of_led.
  destruct (path =? "")%string eqn:E; [apply String.eqb_eq in E; contradiction|].
  assert (Hpos : pixel_position rows led = Ok (x, y)).
  { unfold pixel_position, position in *. replace (led <? 0) with false by lia. rewrite Hrow. reflexivity. }
  destruct r as [|r|r]; [lia| |lia]. rewrite Hpos. cbn [bind]. rewrite Himg. cbn [bind fst snd].
  set (R := Zpos r) in *.
  eexists. split; [reflexivity|].
  assert (L : length (slice img (x - R) (x + R)) = Z.to_nat (2 * R)).
  { rewrite length_slice by lia. f_equal. lia. }
  split; [rewrite rev_length, map_length; exact L|].
  intros i j Hi Hj.
  assert (Hin : (Z.to_nat (x + R - 1) - i < length img)%nat) by lia.
  destruct (nth_error img (Z.to_nat (x + R - 1) - i)) as [line'|] eqn:Eimg;
    [|apply nth_error_None in Eimg; lia].
  pose proof (Hw line' (nth_error_In _ _ Eimg)) as Hwl.
  exists (slice line' (y - R) (y + R)), line'. split; [|split; [|split; [reflexivity|]]].
  - rewrite nth_error_rev_lt by (rewrite map_length, L; exact Hi). rewrite map_length, L, nth_error_map.
    rewrite nth_error_slice by lia.
    replace (Z.to_nat (x - R) + (Z.to_nat (2 * R) - 1 - i))%nat with (Z.to_nat (x + R - 1) - i)%nat by lia.
    rewrite Eimg. reflexivity.
  - rewrite length_slice by lia. f_equal. lia.
  - apply nth_error_slice; lia.
Qed.
Print Assumptions C68_explicit_radius.

Example C68_explicit_radius_ex :
  get_pixel_values_of_led "./" "1" [(0, 2, 3)] (fun _ _ => Ok [[11; 12; 13; 14]; [21; 22; 23; 24]; [31; 32; 33; 34]])
    0 0 0%Q (Some 1) = Ok (Some [[33; 34]; [23; 24]]).
Proof. cbv. reflexivity. Qed.

(** A LED closer to the upper border than the radius: nothing is returned for an
    image at least twice the radius high. *)
Theorem C68_led_near_the_border_is_empty :
  forall (A : Type) path cfg rows (image : Q -> Z -> res (list (list A))) led channel time r img id x y,
  path <> "" -> 0 <= led -> nth_error rows (Z.to_nat led) = Some (id, x, y) ->
  image time channel = Ok img -> 0 <= x < r -> 2 * r <= Z.of_nat (length img) ->
  get_pixel_values_of_led path cfg rows image led channel time (Some r) = Ok (Some []).
Proof.
  intros A path cfg rows image led channel time r img id x y Hp Hl Hrow Himg X1 X2.
  unfold get_pixel_values_of_led.
  destruct (path =? "")%string eqn:E; [apply String.eqb_eq in E; contradiction|].
  assert (Hpos : pixel_position rows led = Ok (x, y)).
  { unfold pixel_position, position in *. replace (led <? 0) with false by lia. rewrite Hrow. reflexivity. }
  destruct r as [|r|r]; [lia| |lia]. rewrite Hpos. cbn [bind]. rewrite Himg. cbn [bind fst snd].
  set (R := Zpos r) in *.
  assert (S : slice img (x - R) (x + R) = []).
  { unfold slice, adjust_bound. replace (x - R <? 0) with true by lia. replace (x + R <? 0) with false by lia.
    rewrite Z.max_r by lia. rewrite Z.min_l by lia.
    replace (Z.to_nat (x + R - (Z.of_nat (length img) + (x - R)))) with 0%nat by lia. reflexivity. }
  rewrite S. reflexivity.
Qed.
Print Assumptions C68_led_near_the_border_is_empty.

Example C68_led_near_the_border_is_empty_ex :
  get_pixel_values_of_led "./" "1" [(0, 1, 2)] (fun _ _ => Ok (repeat [1; 2; 3; 4; 5; 6] 6)) 0 0 0%Q (Some 2) = Ok (Some []).
Proof. reflexivity. Qed.

(** The position is looked up by row number: it is that of the LED iff the rows
    are numbered 0, 1, 2, ... *)
Theorem C68_position_of_led :
  forall rows, (forall i p, nth_error rows i = Some p -> fst (fst p) = Z.of_nat i) ->
  forall id x y, In (id, x, y) rows -> pixel_position rows id = Ok (x, y).
Proof.
  intros rows H id x y Hin. destruct (In_nth_error _ _ Hin) as (i & Hi).
  pose proof (H i _ Hi) as E. cbn [fst] in E. subst id. unfold pixel_position, position in *.
  replace (Z.of_nat i <? 0) with false by (symmetry; apply Z.ltb_ge; lia).
  rewrite Nat2Z.id, Hi. reflexivity.
Qed.
Print Assumptions C68_position_of_led.

Example C68_position_of_led_ex :
  pixel_position [(0, 10, 20); (1, 30, 40)] 1 = Ok (30, 40) /\ pixel_position [(3, 10, 20); (1, 30, 40)] 3 = Err IndexError.
Proof. split; reflexivity. Qed.
