(** Coordinates in the binary tables over the life of a python process: the
    function [_append_coordinates] keeps what it read first.
    Source: ledsa/core/file_handling.py *)
From Coq Require Import ZArith QArith Lia Bool Ascii String List.
From Verif Require Import Base Str Format_Model Table_Model.
Import ListNotations.
Local Open Scope string_scope.
Local Open Scope Z_scope.

(** Id, width and height of the LEDs; None: no coordinates (the value False),
    file_handling.py:350-356. *)
Definition coords : Type := option (list (Q * (Q * Q))).

(** [[0, -2, -1]] of one row, file_handling.py:354. *)
Definition pick_columns (row : list Q) : res (Q * (Q * Q)) :=
  match row, rev row with
  | id :: _, height :: width :: _ => Ok (id, (width, height))
  | _, _ => Err IndexError
  end.

(** [read_table(...)[:, [0, -2, -1]]], file_handling.py:352-356: a missing file
    means no coordinates; fewer than two rows make a one-dimensional array,
    other failures are not caught. *)
Definition read_coords (file : option (list string)) : res coords :=
  match file with
  | None => Ok None
  | Some lines => bind (read_matrix lines) (fun m => res_map Some (mapM pick_columns m))
  end.

(** The working directory and the running process: the coordinate file, the
    result files and the table of each channel, and the attribute [coord] of
    [_append_coordinates], file_handling.py:350-356, if there is one. *)
Record world := World {
  w_coord : option (list string);
  w_results : Z -> Z -> option (list string);
  w_tables : Z -> option frame;
  w_cache : option coords }.

(** The options read by [create_binary_data], file_handling.py:234-243. *)
Record options := Options { o_overflow : option Z; o_first : Z; o_last : Z; o_skip : Z }.

(** [create_binary_data], file_handling.py:220-274, with the attribute before
    and after.  The coordinates are needed as soon as the file of image 1 has
    been read; before that everything fails without them. *)
Definition create (srt : list (list Q) -> list (list Q)) (o : options) (file : option (list string)) (cache : option coords)
           (files : Z -> option (list string)) : res frame * option coords :=
  let table co := create_table srt co files (o_overflow o) (o_first o) (o_last o) (o_skip o) in
  match bind (match files 1 with Some lines => Ok lines | None => Err FileNotFoundError end) read_matrix with
  | Err e => (Err e, cache)
  | Ok _ =>
    if number_of_images (o_overflow o) (o_first o) (o_last o) (o_skip o) <? 1 then (Err ValueError, cache)
    else match cache with
         | Some co => (table co, cache)
         | None => match read_coords file with
                   | Ok co => (table co, Some co)
                   | Err e => (Err e, None)
                   end
         end
  end.

(** [read_hdf(channel)], file_handling.py:116-143. *)
Definition read_channel (srt : list (list Q) -> list (list Q)) (o : options) (w : world) (c : Z) : res frame * world :=
  match w_tables w c with
  | Some t => (Ok t, w)
  | None =>
    let (r, cache) := create srt o (w_coord w) (w_cache w) (w_results w c) in
    (r, World (w_coord w) (w_results w)
              (match r with Ok t => fun x => if x =? c then Some t else w_tables w x | Err _ => w_tables w end) cache)
  end.

(** What happens in the working directory: a new python process (the
    attribute is gone, file_handling.py:350-351), calculate_coordinates writes
    its file (coordinates.py:57-69), step 3 writes result files, a table is
    read (file_handling.py:116-143), somebody deletes a table. *)
Inductive event :=
| NewProcess
| WriteCoordinates (lines : list string)
| WriteResults (c : Z) (files : Z -> option (list string))
| ReadTable (c : Z)
| DeleteTable (c : Z).

(** One event, file_handling.py:116-143 and 339-361. *)
Definition step (srt : list (list Q) -> list (list Q)) (o : options) (w : world) (e : event) : world :=
  match e with
  | NewProcess => World (w_coord w) (w_results w) (w_tables w) None
  | WriteCoordinates lines => World (Some lines) (w_results w) (w_tables w) (w_cache w)
  | WriteResults c files => World (w_coord w) (fun x => if x =? c then files else w_results w x) (w_tables w) (w_cache w)
  | ReadTable c => snd (read_channel srt o w c)
  | DeleteTable c => World (w_coord w) (w_results w) (fun x => if x =? c then None else w_tables w x) (w_cache w)
  end.

(** A sequence of events, file_handling.py:116-143 and 339-361. *)
Definition run (srt : list (list Q) -> list (list Q)) (o : options) (es : list event) (w : world) : world :=
  fold_left (step srt o) es w.
