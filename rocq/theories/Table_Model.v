(** The binary table of all results of a channel.
    Source: ledsa/core/file_handling.py:116-143, 203-400 *)
From Coq Require Import ZArith QArith Lia Bool Ascii String List.
From Verif Require Import Base Str Images_Model Step3_Model Format_Model.
Import ListNotations.
Local Open Scope string_scope.
Local Open Scope Z_scope.

(** A cell of the data frame; [None] is NaN.  A frame has named columns.
    file_handling.py:318-336. *)
Definition cell := option Q.
(** file_handling.py:318-336. *)
Record frame := Frame { cols : list string; rows : list (list cell) }.

(** Position of a column, file_handling.py:268-272. *)
Fixpoint col_index (name : string) (cs : list string) : option nat :=
  match cs with
  | [] => None
  | c :: cs' => if (c =? name)%string then Some 0%nat else option_map S (col_index name cs')
  end.

(** [frame[name]] for one row.  file_handling.py:268-272. *)
Definition get (cs : list string) (row : list cell) (name : string) : option cell :=
  match col_index name cs with None => None | Some k => nth_error row k end.

(** [_get_column_names] and [_get_old_columns], file_handling.py:276-315, as a
    function of the number of columns of the first image's file. *)
Definition fast_columns : list string :=
  ["img_id"; "led_id"; "led_array_id"; "sum_col_val"; "mean_col_val"; "max_col_val"].

(** The columns with fit, file_handling.py:276-315. *)
Definition fit_columns : list string :=
  (fast_columns ++ ["led_center_x"; "led_center_y"] ++
  ["x"; "y"; "dx"; "dy"; "A"; "alpha"; "wx"; "wy"; "fit_success"; "fit_fun"; "fit_nfev"])%list.

(** [_get_old_columns], file_handling.py:276-315. *)
Definition old_columns (w : nat) : list string :=
  if (w =? 15)%nat then
    ["img_id"; "led_id"; "led_array_id"; "x"; "y"; "dx"; "dy"; "A"; "alpha"; "wx"; "wy";
     "fit_success"; "fit_fun"; "fit_nfev"; "sum_col_val"; "mean_col_val"]
  else if (w =? 4)%nat then ["img_id"; "led_id"; "led_array_id"; "sum_col_val"; "mean_col_val"]
  else [].

(** [_get_column_names], file_handling.py:276-315. *)
Definition column_names (w : nat) : list string :=
  let c1 := if (List.length fast_columns <? w)%nat then fit_columns else fast_columns in
  let c2 := if (w =? List.length c1 - 1)%nat then c1 else old_columns w in
  (c2 ++ ["width"; "height"])%list.

(** [read_table] followed by indexing two axes: with fewer than two rows the
    array is one-dimensional and [shape[1]] / [[:, 0]] raise IndexError.
    file_handling.py:248-251. *)
Definition read_matrix (lines : list string) : res (list (list Q)) :=
  bind (read_floats lines) (fun m =>
  match m with
  | [] | [_] => Err IndexError
  | _ => Ok m
  end).

(** [_append_coordinates], [_append_nans_to_params],
    [_append_coordinates_to_params], file_handling.py:339-400.  [coord] is the
    id, width and height columns of led_search_areas_with_coordinates.csv
    (cached by the first call in a process), [None] if there is no such file. *)
Definition led_of (row : list Q) : Q := hd 0%Q row.

(** [_append_coordinates], file_handling.py:339-400. *)
Definition append_coordinates (coord : option (list (Q * (Q * Q)))) (params : list (list Q))
  : res (list (list cell)) :=
  match coord with
  | None => Ok (map (fun r => map Some r ++ [None; None])%list params)
  | Some cs =>
    let cs' := if (List.length params =? List.length cs)%nat then cs
               else filter (fun c => existsb (fun r => Qeq_bool (fst c) (led_of r)) params) cs in
    if (List.length cs' =? List.length params)%nat
    then Ok (map (fun p => map Some (fst p) ++ [Some (fst (snd (snd p))); Some (snd (snd (snd p)))])%list (combine params cs'))
    else Err ValueError
  end.

(** [_param_array_to_dataframe], file_handling.py:318-336: one fragment. *)
Definition to_fragment (cs : list string) (img_id : Z) (m : list (list cell)) : res (list (list cell)) :=
  let m' := map (fun r => Some (inject_Z img_id) :: r) m in
  if forallb (fun r => (List.length r =? List.length cs)%nat) m' then Ok m' else Err ValueError.

(** [frame[name] = frame[name].astype(int)]: truncation towards zero; NaN
    cannot be converted.  file_handling.py:268-272. *)
Definition Qtrunc (q : Q) : Z := Z.quot (Qnum q) (Zpos (Qden q)).

(** One row, file_handling.py:268-272. *)
Definition row_to_int (k : nat) (row : list cell) : res (list cell) :=
  match nth_error row k with
  | Some (Some q) => Ok (firstn k row ++ Some (inject_Z (Qtrunc q)) :: skipn (S k) row)%list
  | Some None => Err ValueError
  | None => Err IndexError
  end.

(** [frame[name].astype(int)], file_handling.py:268-272. *)
Definition column_to_int (name : string) (f : frame) : res frame :=
  match col_index name (cols f) with
  | None => Err KeyError
  | Some k => bind (mapM (row_to_int k) (rows f)) (fun rs => Ok (Frame (cols f) rs))
  end.

(** Number of images loaded, file_handling.py:237-243. *)
Definition number_of_images (overflow : option Z) (first last skip : Z) : Z :=
  let max_id := match overflow with Some m => m | None => 10000000 end in
  ((max_id + last - first) mod max_id + 1) / (skip + 1).

(** [create_binary_data], file_handling.py:220-274.  [files] are the result
    files of the channel, [srt] is [parameters[parameters[:,0].argsort()]].
    A missing file ends in [fit_params.append], an attribute that data frames
    of the required pandas (>= 2.1.2) no longer have.  Console output and the
    HDF encoding are not modelled. *)
Definition load_image (srt : list (list Q) -> list (list Q)) (coord : option (list (Q * (Q * Q))))
           (files : Z -> option (list string)) (cs : list string) (id : Z) : res (list (list cell)) :=
  match files id with
  | None => Err AttributeError
  | Some lines =>
    bind (read_matrix lines) (fun m =>
    bind (append_coordinates coord (srt m)) (fun e =>
    to_fragment cs id e))
  end.

(** [create_binary_data], file_handling.py:220-274. *)
Definition create_table (srt : list (list Q) -> list (list Q)) (coord : option (list (Q * (Q * Q))))
           (files : Z -> option (list string)) (overflow : option Z) (first last skip : Z) : res frame :=
  match files 1 with
  | None => Err FileNotFoundError
  | Some lines1 =>
    bind (read_matrix lines1) (fun m1 =>
    let cs := column_names (List.length (hd [] m1)) in
    let n := number_of_images overflow first last skip in
    bind (mapM (load_image srt coord files cs) (zrange 1 (n + 1))) (fun fragments =>
    match fragments with
    | [] => Err ValueError                                  (* pd.concat([]) *)
    | _ =>
      bind (column_to_int "img_id" (Frame cs (concat fragments))) (fun f1 =>
      bind (column_to_int "led_id" f1) (fun f2 =>
      bind (column_to_int "led_array_id" f2) (fun f3 =>
      bind (column_to_int "max_col_val" f3) (fun f4 =>
      column_to_int "sum_col_val" f4))))
    end))
  end.

(** [read_hdf], file_handling.py:116-143: the stored table if there is one,
    otherwise a new one is built and stored.  (A stored table under the key
    '/table' is returned just the same.) *)
Definition read_hdf (create : res frame) (stored : option frame) : res frame * option frame :=
  match stored with
  | Some t => (Ok t, stored)
  | None => match create with
            | Ok t => (Ok t, Some t)
            | Err e => (Err e, None)
            end
  end.

(** [extend_hdf], file_handling.py:203-217: a column is replaced or added at
    the end; the number of values has to fit. *)
Definition extend_frame (f : frame) (name : string) (values : list cell) : res frame :=
  if (List.length values =? List.length (rows f))%nat then
    Ok (match col_index name (cols f) with
        | Some k => Frame (cols f) (map (fun p => firstn k (fst p) ++ snd p :: skipn (S k) (fst p))%list (combine (rows f) values))
        | None => Frame (cols f ++ [name])%list (map (fun p => fst p ++ [snd p])%list (combine (rows f) values))
        end)
  else Err ValueError.
