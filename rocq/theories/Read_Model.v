(** Reading the results of an analysis: the table of all extinction coefficients,
    the coefficients at one time, the labels of the layers, image names.
    Source: ledsa/postprocessing/simulation.py (class SimData).
    Times and coefficients are rationals (rounding of float arithmetic is not
    modelled); NaN is [None]. *)
From Coq Require Import ZArith QArith Qround Lia Bool Ascii String List.
From Verif Require Import Base Str Substr Cli_Model Sim_Model.
Import ListNotations.
Local Open Scope Z_scope.

(** ** The table of all coefficients *)

(** What a result file holds, ExtinctionCoefficients.py:157-159: one row per image,
    the time and the coefficient of each layer; channel and LED array are read from
    the file name (simulation.py:172-173, see [channel_of_file] in Sim_Model).
    [f_layers] is the number of layer columns. *)
Record rfile := RFile {
  f_channel : Z; f_array : Z; f_layers : nat; f_rows : list (Q * list Q) }.

(** A data frame: the index (times) and the columns.  simulation.py:171-189. *)
Record frame := Frame { fr_times : list Q; fr_cols : list column }.

(** The coefficients of layer [j] by row.  simulation.py:171-184. *)
Definition layer_values (rows : list (Q * list Q)) (j : nat) : list (option Q) :=
  map (fun r => nth_error (snd r) j) rows.

(** One file as a frame, simulation.py:171-184 (files with a time column; the
    branch for older files in lines 175-177 is in OldFiles_Model). *)
Definition file_frame (f : rfile) : frame :=
  Frame (map fst (f_rows f))
        (file_columns (f_channel f) (f_array f) (map (layer_values (f_rows f)) (seq 0 (f_layers f)))).

(** Is the time in the list?.  simulation.py:186-189. *)
Definition has_time (t : Q) (ts : list Q) : bool := existsb (Qeq_bool t) ts.

(** [Index.equals].  simulation.py:186. *)
Fixpoint same_times (a b : list Q) : bool :=
  match a, b with
  | [], [] => true
  | x :: a', y :: b' => Qeq_bool x y && same_times a' b'
  | _, _ => false
  end.

(** No time occurs twice.  simulation.py:186. *)
Fixpoint unique_times (ts : list Q) : bool :=
  match ts with
  | [] => true
  | t :: ts' => negb (has_time t ts') && unique_times ts'
  end.

(** The union of two indices without duplicates: the times of the second that
    are not in the first are appended.  simulation.py:186. *)
Definition union_times (a b : list Q) : list Q := (a ++ filter (fun t => negb (has_time t a)) b)%list.

(** Position of the first row with this time.  simulation.py:186, and [loc], line 237. *)
Fixpoint position_of (t : Q) (ts : list Q) : option nat :=
  match ts with
  | [] => None
  | x :: ts' => if Qeq_bool t x then Some O else option_map S (position_of t ts')
  end.

(** The values of a column for another index; NaN for times it does not have.
    simulation.py:186. *)
Definition reindexed (new old : list Q) (vals : list (option Q)) : list (option Q) :=
  map (fun t => match position_of t old with Some i => nth i vals None | None => None end) new.

(** The columns of one file for another index.  simulation.py:186. *)
Definition reindex_col (new old : list Q) (c : column) : column :=
  Col (c_channel c) (c_array c) (c_layer c) (reindexed new old (c_values c)).

(** [pd.concat(frames, axis=1)], simulation.py:186: with equal indices the columns
    are put side by side; otherwise over the union of the indices.  For indices
    that differ and are not free of duplicates the behaviour depends on the
    version of pandas; it is taken to be an error here, and no theorem uses it. *)
Definition concat_frames (fs : list frame) : res frame :=
  match fs with
  | [] => Err ValueError
  | f :: fs' =>
    if forallb (fun g => same_times (fr_times f) (fr_times g)) fs'
    then Ok (Frame (fr_times f) (flat_map fr_cols fs))
    else if forallb (fun g => unique_times (fr_times g)) fs
    then let ts := fold_left union_times (map fr_times fs') (fr_times f) in
         Ok (Frame ts (flat_map (fun g => map (reindex_col ts (fr_times g)) (fr_cols g)) fs))
    else Err ValueError
  end.

(** The label of a column and its lexicographic order.  simulation.py:182-187. *)
Definition col_key (c : column) : Z * Z * Z := (c_channel c, c_array c, c_layer c).

(** The lexicographic order, simulation.py:187. *)
Definition key_leb (a b : Z * Z * Z) : bool :=
  let '(a1, a2, a3) := a in let '(b1, b2, b3) := b in
  (a1 <? b1) || ((a1 =? b1) && ((a2 <? b2) || ((a2 =? b2) && (a3 <=? b3)))).

(** [sort_index(axis=1)], simulation.py:187 *)
Fixpoint insert_col (c : column) (l : list column) : list column :=
  match l with
  | [] => [c]
  | x :: l' => if key_leb (col_key c) (col_key x) then c :: l else x :: insert_col c l'
  end.

(** [sort_index(axis=1)], simulation.py:187. *)
Definition sort_cols (l : list column) : list column := fold_right insert_col [] l.

(** Which rows are kept by [~index.duplicated(keep='first')], simulation.py:188-189 *)
Fixpoint first_times (seen ts : list Q) : list bool :=
  match ts with
  | [] => []
  | t :: ts' => negb (has_time t seen) :: first_times (t :: seen) ts'
  end.

(** The rows that are kept, simulation.py:188-189. *)
Fixpoint keep {A} (bs : list bool) (l : list A) : list A :=
  match bs, l with
  | b :: bs', a :: l' => if b then a :: keep bs' l' else keep bs' l'
  | _, _ => []
  end.

(** simulation.py:188-189. *)
Definition drop_duplicate_times (f : frame) : frame :=
  let bs := first_times [] (fr_times f) in
  Frame (keep bs (fr_times f))
        (map (fun c => Col (c_channel c) (c_array c) (c_layer c) (keep bs (c_values c))) (fr_cols f)).

(** The directory analysis/extinction_coefficients: the result files by the
    name of the solver's directory.  simulation.py:167-169. *)
Definition results := list (string * rfile).

(** [_get_extco_df_from_path], simulation.py:166-189; [solver] is the text of the
    option in config_analysis.ini (line 61).  The order of the list stands for
    the order in which [glob] returns the files. *)
Definition read_extco (solver : string) (dir : results) : res frame :=
  bind (concat_frames (map (fun p => file_frame (snd p)) (filter (fun p => (fst p =? solver)%string) dir)))
       (fun f => Ok (drop_duplicate_times (Frame (fr_times f) (sort_cols (fr_cols f))))).

(** ** Layer labels *)

(** Rounding to the nearest integer, ties to even (numpy's [rint]).  simulation.py:71-73. *)
Definition rint (x : Q) : Z :=
  let f := Qfloor x in
  let d := (x - inject_Z f)%Q in
  if negb (Qle_bool (1 # 2) d) then f
  else if Qeq_bool d (1 # 2) then (if Z.even f then f else f + 1) else f + 1.

(** [np.round(x, 2)].  simulation.py:71-73. *)
Definition round2 (x : Q) : Q := (inject_Z (rint (x * 100)) / 100)%Q.

(** The borders between the layers, simulation.py:69-70 *)
Definition layer_border (lower upper : Q) (n : nat) (l : nat) : Q :=
  (inject_Z (Z.of_nat l) / inject_Z (Z.of_nat n) * (upper - lower) + lower)%Q.

(** [layer_bottom_heights], [layer_top_heights] and [layer_center_heights],
    simulation.py:71-73, for at least one layer (for none the constructor raises
    ZeroDivisionError in line 69). *)
Definition bottom_heights (lower upper : Q) (n : nat) : list Q :=
  map (fun l => round2 (layer_border lower upper n l)) (seq 0 n).
(** simulation.py:72. *)
Definition top_heights (lower upper : Q) (n : nat) : list Q :=
  map (fun l => round2 (layer_border lower upper n (S l))) (seq 0 n).
(** simulation.py:73. *)
Definition center_heights (lower upper : Q) (n : nat) : list Q :=
  map (fun p => round2 ((fst p + snd p) / 2)) (combine (bottom_heights lower upper n) (top_heights lower upper n)).

(** ** The coefficients at one time *)

(** Distinct values in ascending order.  simulation.py:238-239. *)
Fixpoint zinsert (z : Z) (l : list Z) : list Z :=
  match l with
  | [] => [z]
  | x :: l' => if z <? x then z :: l else if z =? x then l else x :: zinsert z l'
  end.

(** Labels of a pivot table, simulation.py:238-239. *)
Definition zsort (l : list Z) : list Z := fold_right zinsert [] l.

(** One entry of the series [df.loc[time, :]]: LED array, layer and value.
    simulation.py:235-238. *)
Definition entry := (Z * Z * option Q)%type.

(** LED array and layer of an entry, simulation.py:238-239. *)
Definition entry_at (a l : Z) (e : entry) : bool := (fst (fst e) =? a) && (snd (fst e) =? l).

(** Two entries for one cell, simulation.py:238-239. *)
Fixpoint duplicate_entry (es : list entry) : bool :=
  match es with
  | [] => false
  | e :: es' => existsb (entry_at (fst (fst e)) (snd (fst e))) es' || duplicate_entry es'
  end.

(** One cell of the pivot table, simulation.py:238-239. *)
Definition cell_of (es : list entry) (a l : Z) : option Q :=
  match find (entry_at a l) es with Some e => snd e | None => None end.

(** [reset_index().pivot(columns='LED Array', index='Layer')], simulation.py:238-239:
    the arrays, the layers and the rows of the table; duplicate entries raise
    ValueError. *)
Definition pivot (es : list entry) : res (list Z * list Z * list (list (option Q))) :=
  if duplicate_entry es then Err ValueError
  else
    let arrays := zsort (map (fun e => fst (fst e)) es) in
    let layers := zsort (map (fun e => snd (fst e)) es) in
    Ok (arrays, layers, map (fun l => map (fun a => cell_of es a l) arrays) layers).

(** The argument [yaxis] with [height_reference]; any other text for [yaxis]
    leaves the row numbers.  simulation.py:244-251. *)
Inductive reference := Center | Top | Bottom | OtherReference.
(** The argument [yaxis], simulation.py:241-251. *)
Inductive yopt := YLayer | YHeight (r : reference) | YOther.

(** Row labels of the result.  simulation.py:240-252. *)
Inductive labels := Numbers (l : list Z) | Heights (l : list Q).

(** The heights for one reference, simulation.py:244-251 *)
Definition heights_for (lower upper : Q) (n : nat) (r : reference) : res (list Q) :=
  match r with
  | Center => Ok (center_heights lower upper n)
  | Top => Ok (top_heights lower upper n)
  | Bottom => Ok (bottom_heights lower upper n)
  | OtherReference => Err ValueError
  end.

(** [get_extco_at_time], simulation.py:235-253: row labels, LED arrays, rows.
    [n] is the number of layers in the configuration; an index of another length
    than the table raises ValueError. *)
Definition get_extco_at_time (agg : list Q -> Q) (lower upper : Q) (n : nat) (f : frame)
           (channel : Z) (time : Q) (y : yopt) (w : nat)
  : res (labels * list Z * list (list (option Q))) :=
  match filter (fun c => c_channel c =? channel) (fr_cols f) with
  | [] => Err KeyError
  | cols =>
    match position_of time (fr_times f) with
    | None => Err KeyError
    | Some i =>
      bind (pivot (map (fun c => (c_array c, c_layer c, nth i (moving_average agg w (c_values c)) None)) cols))
           (fun '(arrays, layers, rows) =>
      match y with
      | YHeight r =>
        bind (heights_for lower upper n r) (fun hs =>
        if (length hs =? length rows)%nat then Ok (Heights hs, arrays, rows) else Err ValueError)
      | _ => Ok (Numbers (zrange 0 (Z.of_nat (length rows))), arrays, rows)
      end)
    end
  end.

(** ** Images *)

(** A line of image_infos_analysis.csv: id, file name and experiment time.
    simulation.py:78-82. *)
Record iline := ILine { i_id : Z; i_name : string; i_time : Q }.

(** [get_image_name_from_time], simulation.py:448-449 *)
Definition get_image_name_from_time (l : list iline) (time : Q) : res string :=
  match filter (fun r => Qeq_bool (i_time r) time) l with
  | r :: _ => Ok (i_name r)
  | [] => Err IndexError
  end.

(** [set_timeshift] on the table of coefficients, simulation.py:138-139; the list
    of images is left as it is. *)
Definition shift_frame (d : Q) (f : frame) : frame := Frame (map (fun t => t + d)%Q (fr_times f)) (fr_cols f).
