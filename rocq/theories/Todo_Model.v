(** The file images_to_process.csv between the setup and the work of step 3.
    Source: ledsa/data_extraction/step_3_functions.py:80-90, 209-219,
    DataExtractor.py:222-258, core/file_handling.py:74-113 *)
From Coq Require Import ZArith Bool Ascii String List.
From Verif Require Import Base Str Images_Model Restart_Model.
Import ListNotations.
Local Open Scope string_scope.
Local Open Scope Z_scope.

(** [out_file.write('{}\n'.format(img))] for every name, step_3_functions.py:87-89
    and 216-218: one name per line. *)
Definition todo_file (names : list string) : list string := names.

(** What [np.loadtxt] makes of the file, file_handling.py:93-113: one axis or two axes. *)
Inductive listed :=
| Flat (l : list string)
| Grid (rows : list (list string)).

(** [read_table('images_to_process.csv', dtype=str)], DataExtractor.py:231 with
    file_handling.py:93-113: the delimiter is a single blank, comments are cut, empty lines
    skipped, all rows must have equally many fields, and an axis of length one is removed
    ([np.loadtxt] without ndmin; [np.atleast_1d] keeps one axis for a single value). *)
Definition read_todo (lines : list string) : res listed :=
  let rows := map (split_on " "%char) (filter (fun s => negb (s =? "")%string) (map cut_comment lines)) in
  match rows with
  | [] => Ok (Flat [])
  | [r] => Ok (Flat r)
  | r :: rs =>
    if forallb (fun x => (List.length x =? List.length r)%nat) rs
    then Ok (if (List.length r =? 1)%nat then Flat (concat rows) else Grid rows)
    else Err ValueError
  end.

(** [get_img_id] of a row of several texts, image_handling.py:36-39: the comparison with a
    name is an array, which has no truth value; without any row nothing is compared. *)
Definition id_of_row (tab : table) : exn :=
  match tab with [] => NameError | _ => ValueError end.

(** [process_image_data] with one core, DataExtractor.py:231-241. *)
Definition process_todo (j : job) (tab : table) (chans : list Z) (fit : bool) (lines : list string)
  : list put * res unit :=
  match read_todo lines with
  | Err e => ([], Err e)
  | Ok (Flat names) => process_serial j tab chans fit names
  | Ok (Grid _) => ([], Err (id_of_row tab))
  end.
