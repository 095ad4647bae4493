(** Averaging over consecutive images.
    Source: ledsa/core/file_handling.py:47-71 and 146-200,
    ledsa/analysis/ExtinctionCoefficients.py:120-160 and 247-252,
    ledsa/postprocessing/simulation.py:78-82 and 151-155 *)
From Coq Require Import ZArith QArith Lia Bool Ascii String List.
From Verif Require Import Base Str Table_Model Analysis_Model.
Import ListNotations.
Local Open Scope string_scope.
Local Open Scope Z_scope.

(** ** Pieces of [k] elements *)

(** [[l[n:n+k] for n in range(0, len(l), k)]], file_handling.py:64; the groups of
    [groupby(np.arange(len(l)) // k)], lines 65 and 187, are the same pieces.
    [n] bounds the number of pieces. *)
Fixpoint pieces_upto {A} (n k : nat) (l : list A) : list (list A) :=
  match n, l with
  | S n', _ :: _ => firstn k l :: pieces_upto n' k (skipn k l)
  | _, _ => []
  end.

(** For a positive [k] there are at most as many pieces as elements.
    file_handling.py:62-63, 186. *)
Definition pieces {A} (k : nat) (l : list A) : list (list A) := pieces_upto (List.length l) k l.

(** [n_summarize = 2] and [n_skip_images = 10], file_handling.py:52-53, and the
    defaults of [average_all_fitpar], line 169 (its only caller does not change
    them). *)
Definition n_summarize : nat := 2.
(** [n_skip_images], file_handling.py:53, 169. *)
Definition n_skip : nat := 10.

(** ** The list of images *)

(** A row of image_infos_analysis.csv as far as it is used: Name and
    Experiment_Time[s].  file_handling.py:55-57. *)
Notation info := (string * Q)%type.

(** [mean] of the times of one piece, file_handling.py:65 *)
Definition mean_time (g : list info) : Q :=
  (qsum (map snd g) / inject_Z (Z.of_nat (List.length g)))%Q.

(** [create_analysis_infos_avg], file_handling.py:47-71: the columns #ID, Name
    and Experiment_Time[s] of image_infos_analysis_avg.csv. *)
Definition infos_avg (l : list info) : list (Z * info) :=
  let head := firstn n_skip l in
  let tail := pieces n_summarize (skipn n_skip l) in
  let rows := (head ++ map (fun g => (join "/" (map fst g), mean_time g)) tail)%list in
  combine (zrange 1 (Z.of_nat (List.length rows) + 1)) rows.

(** ** The table of a channel *)

(** One row: the two index columns, the LED array, [sum_col_val] and the other
    columns.  file_handling.py:180-181. *)
Record prow := PRow { p_img : Z; p_led : Z; p_arr : Z; p_sum : cell; p_rest : list cell }.

(** Python's comparison of the keys (led_array_id, led_id).  file_handling.py:181. *)
Definition key_ltb (a b : Z * Z) : bool :=
  (fst a <? fst b) || ((fst a =? fst b) && (snd a <? snd b)).
(** Equality of the keys, file_handling.py:181. *)
Definition key_eqb (a b : Z * Z) : bool := (fst a =? fst b) && (snd a =? snd b).

(** Keys of a [groupby]: distinct and ascending.  file_handling.py:181. *)
Fixpoint add_key (k : Z * Z) (ks : list (Z * Z)) : list (Z * Z) :=
  match ks with
  | [] => [k]
  | x :: ks' => if key_ltb k x then k :: ks else if key_eqb k x then ks else x :: add_key k ks'
  end.

(** The key of a row, file_handling.py:181 *)
Definition row_key (r : prow) : Z * Z := (p_arr r, p_led r).

(** [groupby(['led_array_id', 'led_id'])], file_handling.py:181 *)
Definition row_groups (t : list prow) : list ((Z * Z) * list prow) :=
  map (fun k => (k, filter (fun r => key_eqb (row_key r) k) t)) (fold_right add_key [] (map row_key t)).

(** Column-wise mean of the other columns of one piece; rows have equally many.
    file_handling.py:186. *)
Fixpoint column_means (n : nat) (ls : list (list cell)) : list cell :=
  match n with
  | O => []
  | S n' => mean (map (fun l => hd None l) ls) :: column_means n' (map (@tl cell) ls)
  end.

(** One averaged row, file_handling.py:187-190.  The mean of the equal
    [led_array_id]s is that id. *)
Definition avg_row (arr led : Z) (img : Z) (g : list prow) : prow :=
  PRow img led arr (mean (map p_sum g))
       (column_means (List.length (match g with r :: _ => p_rest r | [] => [] end)) (map p_rest g)).

(** The rows of one LED, file_handling.py:184-192 *)
Definition avg_group (kg : (Z * Z) * list prow) : list prow :=
  let '((arr, led), g) := kg in
  let tail := pieces n_summarize (skipn n_skip g) in
  (firstn n_skip g ++
   map (fun p => avg_row arr led (fst p) (snd p))
       (combine (zrange (Z.of_nat n_skip + 1) (Z.of_nat n_skip + Z.of_nat (List.length tail) + 1)) tail))%list.

(** [astype(int)] of [sum_col_val], line 194; NaN cannot be converted. *)
Definition sum_to_int (r : prow) : res prow :=
  match p_sum r with
  | Some q => Ok (PRow (p_img r) (p_led r) (p_arr r) (Some (inject_Z (Qtrunc q))) (p_rest r))
  | None => Err ValueError
  end.

(** The averaged table, file_handling.py:180-199 ([sum_col_val_cc], if present,
    is one of the other columns and is not truncated here).  [pd.concat] of no
    frames is a ValueError. *)
Definition averaged (t : list prow) : res (list prow) :=
  match row_groups t with
  | [] => Err ValueError
  | gs => mapM sum_to_int (flat_map avg_group gs)
  end.

(** ** Files *)

(** The files of one channel in the working directory: all_parameters.h5,
    all_parameters_avg.h5 and image_infos_analysis_avg.csv.
    file_handling.py:71-72, 129-140, 159-164, 199-200. *)
Record disk := Disk { plain : option (list prow); avg : option (list prow); infos : option (list (Z * info)) }.

(** [read_hdf], file_handling.py:116-143 (see Table_Model); [create] is what
    [create_binary_data] makes of the result files. *)
Definition read_plain (create : res (list prow)) (d : disk) : res (list prow) * disk :=
  match plain d with
  | Some t => (Ok t, d)
  | None => match create with
            | Ok t => (Ok t, Disk (Some t) (avg d) (infos d))
            | Err e => (Err e, d)
            end
  end.

(** [to_hdf(file_path, ...)], file_handling.py:199-200: because of the comma at
    the end of line 199 the path is a tuple, which pandas takes for an open
    store; a tuple has no attribute [append]. *)
Definition write_avg (t : list prow) (d : disk) : res unit * disk := (Err AttributeError, d).

(** [average_all_fitpar], file_handling.py:169-200 *)
Definition average_all_fitpar (create : res (list prow)) (d : disk) : res unit * disk :=
  match read_plain create d with
  | (Err e, d') => (Err e, d')
  | (Ok t, d') => match averaged t with
                  | Err e => (Err e, d')
                  | Ok a => write_avg a d'
                  end
  end.

(** [read_hdf_avg], file_handling.py:146-166: the file that is read is
    all_parameters.h5. *)
Definition read_avg (create : res (list prow)) (d : disk) : res (list prow) * disk :=
  match plain d with
  | Some t => (Ok t, d)
  | None => match average_all_fitpar create d with
            | (Err e, d') => (Err e, d')
            | (Ok _, d') => match plain d' with Some t => (Ok t, d') | None => (Err FileNotFoundError, d') end
            end
  end.

(** The first part of [load_img_data], ExtinctionCoefficients.py:125-129;
    [l] is the content of image_infos_analysis.csv. *)
Definition load_table (average : bool) (create : res (list prow)) (l : list info) (d : disk)
  : res (list prow) * disk :=
  if average then
    match read_avg create d with
    | (Ok t, d') => (Ok t, Disk (plain d') (avg d') (Some (infos_avg l)))
    | (Err e, d') => (Err e, d')
    end
  else read_plain create d.

(** [_get_experiment_times_from_image_infos_file], ExtinctionCoefficients.py:247-252 *)
Definition experiment_times (average : bool) (l : list info) (d : disk) : res (list Q) :=
  if average then match infos d with Some a => Ok (map (fun r => snd (snd r)) a) | None => Err FileNotFoundError end
  else Ok (map snd l).

(** [np.column_stack] of the times and the coefficients, ExtinctionCoefficients.py:157-158:
    as many rows in both. *)
Definition column_stack {C} (ts : list Q) (cs : list C) : res (list (Q * C)) :=
  if (List.length ts =? List.length cs)%nat then Ok (combine ts cs) else Err ValueError.

(** Loading, computing and saving, ExtinctionCoefficients.py:73-86 and 135-159:
    the rows of the result file.  [compute] gives one value per image. *)
Definition analysis {C} (compute : list prow -> res (list C)) (average : bool) (create : res (list prow))
           (l : list info) (d : disk) : res (list (Q * C)) * disk :=
  match load_table average create l d with
  | (Err e, d') => (Err e, d')
  | (Ok t, d') =>
    (bind (compute t) (fun cs => bind (experiment_times average l d') (fun ts => column_stack ts cs)), d')
  end.

(** [SimData.__init__], simulation.py:78-86: the image list and (by [read_all])
    the table of a channel, lines 151-155. *)
Definition sim_init (average : bool) (l : list info) (d : disk) : res (list Q * list prow) :=
  bind (experiment_times average l d) (fun ts =>
  match (if average then avg d else plain d) with
  | Some t => Ok (ts, t)
  | None => Err FileNotFoundError
  end).
