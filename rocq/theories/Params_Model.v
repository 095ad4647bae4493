(** The tables of LED parameters as they are read for post-processing.
    Source: ledsa/postprocessing/simulation.py (class SimData).
    Only one parameter column is followed (the argument [param]); the integer
    columns of the binary file contain no NaN (file_handling.py:268-272), and the
    coordinates are taken to be there (without led_search_areas_with_coordinates.csv
    all heights are NaN: not modelled here). *)
From Coq Require Import ZArith QArith Lia Bool String List.
From Verif Require Import Base Sim_Model Read_Model.
Import ListNotations.
Local Open Scope Z_scope.

(** A row of all_parameters.h5 (file_handling.py:228-273): image, LED, LED array,
    height and the parameter. *)
Record lrow := LRow { l_img : Z; l_led : Z; l_arr : Z; l_height : Q; l_val : Q }.

(** A row together with the time of its image, simulation.py:157-158 *)
Record trow := TRow { t_time : Z; t_row : lrow }.

(** [_get_ledparams_df_from_path], simulation.py:155-160: the times are truncated
    to integers; rows and image list are joined on the image id (inner join). *)
Definition join_times (images : list iline) (table : list lrow) : list trow :=
  flat_map (fun r => map (fun i => TRow (int_of_Q (i_time i)) r)
                         (filter (fun i => i_id i =? l_img r) images)) table.

(** [read_led_params], simulation.py:193-195: the binary files of the channels 0,
    1 and 2; [None] if there is no file. *)
Definition read_led_params (images : list iline) (tables : Z -> option (list lrow))
  : res (list trow * list trow * list trow) :=
  let read ch := match tables ch with Some t => Ok (join_times images t) | None => Err FileNotFoundError end in
  bind (read 0) (fun t0 => bind (read 1) (fun t1 => bind (read 2) (fun t2 => Ok (t0, t1, t2)))).

(** [read_all], simulation.py:199-200 *)
Definition read_all (images : list iline) (tables : Z -> option (list lrow)) (solver : string) (dir : results)
  : res (list trow * list trow * list trow * frame) :=
  bind (read_led_params images tables) (fun t => bind (read_extco solver dir) (fun f => Ok (t, f))).

(** ** Removing duplicate heights *)

(** Same time and height, simulation.py:204-206. *)
Definition same_key (a b : trow) : bool :=
  (t_time a =? t_time b) && Qeq_bool (l_height (t_row a)) (l_height (t_row b)).

(** The order of the groups, simulation.py:204-206. *)
Definition key_before (a b : trow) : bool :=
  (t_time a <? t_time b) ||
  ((t_time a =? t_time b) && negb (Qle_bool (l_height (t_row b)) (l_height (t_row a)))).

(** Insert a row into the groups seen so far (from the right): a row whose key is
    already there comes earlier in the table and is dropped.  simulation.py:204-206. *)
Fixpoint insert_last (r : trow) (l : list trow) : list trow :=
  match l with
  | [] => [r]
  | x :: l' => if same_key r x then l
               else if key_before r x then r :: l
               else x :: insert_last r l'
  end.

(** [groupby(['Experiment_Time[s]', 'height']).last()], simulation.py:204-206: one
    row per time and height, the last one, sorted by time and height. *)
Definition remove_duplicate_heights (t : list trow) : list trow := fold_right insert_last [] t.

(** ** The parameters of one LED array *)

(** The column labels: LED ids or heights, simulation.py:382 *)
Inductive axis := ByLed | ByHeight.

(** The column label of a row, simulation.py:382. *)
Definition label_of (y : axis) (r : trow) : Q :=
  match y with ByLed => inject_Z (l_led (t_row r)) | ByHeight => l_height (t_row r) end.

(** An entry before the pivot: time, label, value.  simulation.py:393. *)
Definition pentry := (Z * Q * option Q)%type.

(** Lines 383-391: the rows of the array, normalised per label.  simulation.py:383-391. *)
Definition array_entries (num_ref delta : Z) (t : list trow) (array : Z) (y : axis) (nr : nref) : list pentry :=
  let ii := filter (fun r => l_arr (t_row r) =? array) t in
  map (fun r => (t_time r + delta, label_of y r,
                 relative num_ref nr
                   (map (fun r' => l_val (t_row r')) (filter (fun r' => Qeq_bool (label_of y r) (label_of y r')) ii))
                   (l_val (t_row r)))) ii.

(** Time and label of an entry, simulation.py:393. *)
Definition pentry_at (tm : Z) (lab : Q) (e : pentry) : bool :=
  (fst (fst e) =? tm) && Qeq_bool lab (snd (fst e)).

(** Two entries for one cell, simulation.py:393. *)
Fixpoint duplicate_pentry (es : list pentry) : bool :=
  match es with
  | [] => false
  | e :: es' => existsb (pentry_at (fst (fst e)) (snd (fst e))) es' || duplicate_pentry es'
  end.

(** One cell of the pivot table, simulation.py:393. *)
Definition pcell (es : list pentry) (tm : Z) (lab : Q) : option Q :=
  match find (pentry_at tm lab) es with Some e => snd e | None => None end.

(** Distinct labels in ascending order.  simulation.py:393. *)
Fixpoint qinsert (q : Q) (l : list Q) : list Q :=
  match l with
  | [] => [q]
  | x :: l' => if Qeq_bool q x then l else if Qle_bool q x then q :: l else x :: qinsert q l'
  end.

(** The column labels of the pivot table, simulation.py:393. *)
Definition qsort (l : list Q) : list Q := fold_right qinsert [] l.

(** [reset_index().pivot(columns=index, index='Experiment_Time[s]')] and the
    smoothing, simulation.py:393-395: times, labels and columns. *)
Definition ppivot (w : nat) (es : list pentry) : res (list Z * list Q * list (list (option Q))) :=
  if duplicate_pentry es then Err ValueError
  else
    let times := zsort (map (fun e => fst (fst e)) es) in
    let labs := qsort (map (fun e => snd (fst e)) es) in
    Ok (times, labs, map (fun lab => moving_average mean w (map (fun tm => pcell es tm lab) times)) labs).

(** [get_ledparams_at_led_array], simulation.py:376-395; a channel other than 0, 1,
    2 leaves [led_params] unbound. *)
Definition get_ledparams_at_led_array (num_ref delta : Z) (ts : list trow * list trow * list trow)
           (channel array : Z) (y : axis) (w : nat) (nr : nref)
  : res (list Z * list Q * list (list (option Q))) :=
  let '(t0, t1, t2) := ts in
  match (if channel =? 0 then Ok t0 else if channel =? 1 then Ok t1 else if channel =? 2 then Ok t2
         else Err UnboundLocalError) with
  | Err e => Err e
  | Ok t => ppivot w (array_entries num_ref delta t array y nr)
  end.
