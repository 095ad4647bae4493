(** Image number lists, image tables, times, and look-ups.
    Source: ledsa/data_extraction/init_functions.py, ledsa/core/image_handling.py,
    ledsa/core/ConfigData.py *)
From Coq Require Import List ZArith Lia Bool Ascii String.
From Verif Require Import Base Str.
Import ListNotations.
Local Open Scope string_scope.
Local Open Scope Z_scope.

(** Python [range(a, b, s)].  init_functions.py:163-172. *)
Definition prange (a b s : Z) : res (list Z) :=
  if s =? 0 then Err ValueError
  else if 0 <? s then Ok (zrange_step a b s)
  else Ok (map (fun k => a + s * Z.of_nat k) (seq 0 (Z.to_nat ((a - b - s - 1) / - s)))).

(** [_find_img_number_list], init_functions.py:148-173, for the only value of
    [number_string_length] that is used (4). *)
Definition find_img_number_list (first last increment : Z) : res (list string) :=
  if first <=? last then
    res_map (map (fun e => zfill 4 (str_of_Z e))) (prange first (last + 1) increment)
  else
    let largest_number := 9999 in
    bind (prange first (largest_number + 1) increment) (fun l1 =>
    let num_list := map (fun e => zfill 4 (str_of_Z e)) l1 in
    match rev num_list with
    | [] => Err IndexError                                   (* num_list[-1] *)
    | lst :: _ =>
      bind (int_of_str lst) (fun l =>
      bind (prange (increment - (largest_number - l)) (last + 1) increment) (fun l2 =>
      Ok (num_list ++ map (fun e => zfill 4 (str_of_Z e)) l2)%list))
    end).

(** [img_name_string]: 'pre{}suf' ([width = None]) or 'pre{:0Wd}suf'
    ([width = Some W]).  Other format specifications are not modelled. *)
Record template := Template { t_pre : string; t_width : option nat; t_suf : string }.

(** [img_name_string.format(int)].  init_functions.py:204. *)
Definition format_int (t : template) (n : Z) : string :=
  t_pre t ++ (match t_width t with None => str_of_Z n | Some w => zfill w (str_of_Z n) end) ++ t_suf t.

(** [img_name_string.format(str)]: format code 'd' raises ValueError for strings.
    init_functions.py:117, 204. *)
Definition format_str (t : template) (s : string) : res string :=
  match t_width t with
  | None => Ok (t_pre t ++ s ++ t_suf t)
  | Some _ => Err ValueError
  end.

(** Used by [os.path.join], init_functions.py:116. *)
Fixpoint ends_with_slash (s : string) : bool :=
  match s with
  | "" => false
  | String c "" => Ascii.eqb c "/"%char
  | String _ s' => ends_with_slash s'
  end.

(** [os.path.join(dir, name)] (POSIX, relative [name]).  init_functions.py:116. *)
Definition path_join (dir name : string) : string :=
  if (dir =? "")%string then name
  else if ends_with_slash dir then dir ++ name else dir ++ "/" ++ name.

(** The configuration values used here.  Dates are day numbers, times of day
    are seconds 0..86399; points in time are seconds.  init_functions.py:101-127, 176-207. *)
Record config := Config {
  c_dir : string;                       (* DEFAULT img_directory *)
  c_name : template;                    (* DEFAULT img_name_string *)
  c_first_exp : Z;                      (* DEFAULT first_img_experiment_id *)
  c_last_exp : Z;                       (* DEFAULT last_img_experiment_id *)
  c_first_ana : Z;                      (* analyse_photo first_img_analysis_id *)
  c_last_ana : Z;                       (* analyse_photo last_img_analysis_id *)
  c_skip : Z;                           (* analyse_photo num_skip_imgs *)
  c_date : Z;                           (* DEFAULT date *)
  c_start : Z;                          (* DEFAULT start_time *)
  c_offset : string }.                  (* DEFAULT exif_time_infront_real_time *)

(** [build_type], init_functions.py:189-199. *)
Inductive build_type := Experiment | Analysis.

(** Reading the EXIF capture time of a file: [get_exif_entry] and
    [_get_datetime_from_str], image_reading.py:107-127, init_functions.py:130-145.
    The time is a number of seconds. *)
Definition exif := string -> res Z.

(** [timedelta(seconds=int(time_diff[0]), milliseconds=int(time_diff[1]))] in
    milliseconds, init_functions.py:123-126 *)
Definition offset_ms (offset : string) : res Z :=
  match split_on "."%char offset with
  | [] => Err IndexError                                     (* does not occur *)
  | [s] => bind (int_of_str s) (fun a => Ok (1000 * a))
  | s :: f :: _ => bind (int_of_str s) (fun a => bind (int_of_str f) (fun b => Ok (1000 * a + b)))
  end.

(** [_calc_experiment_and_real_time], init_functions.py:101-127: experiment time
    in seconds and the time of day (whole seconds) of the corrected time. *)
Definition experiment_and_real_time (ex : exif) (c : config) (img : string) : res (Z * Z) :=
  bind (int_of_str img) (fun n =>
  bind (ex (path_join (c_dir c) (format_int (c_name c) n))) (fun t =>
  bind (offset_ms (c_offset c)) (fun off =>
  Ok (t - (86400 * c_date c + c_start c), (1000 * t - off) / 1000 mod 86400)))).

(** [time.strftime('%H:%M:%S')].  init_functions.py:205. *)
Definition hms (s : Z) : string :=
  zfill 2 (str_of_Z (s / 3600)) ++ ":" ++ zfill 2 (str_of_Z (s / 60 mod 60)) ++ ":" ++ zfill 2 (str_of_Z (s mod 60)).

(** [str(experiment_time)] of a float that is a whole number of seconds.
    init_functions.py:205. *)
Definition str_of_seconds (t : Z) : string := str_of_Z t ++ ".0".

(** One line of the table, init_functions.py:204-205. *)
Definition table_line (idx : Z) (name : string) (real exp : Z) : string :=
  str_of_Z idx ++ "," ++ name ++ "," ++ hms real ++ "," ++ str_of_seconds exp.

(** The loop over the images, init_functions.py:201-206. *)
Fixpoint table_lines (ex : exif) (c : config) (idx : Z) (imgs : list string) : res (list string) :=
  match imgs with
  | [] => Ok []
  | i :: l =>
    bind (experiment_and_real_time ex c i) (fun p =>
    bind (int_of_str i) (fun n =>
    bind (table_lines ex c (idx + 1) l) (fun rest =>
    Ok (table_line idx (format_int (c_name c) n) (snd p) (fst p) :: rest))))
  end.

(** First and last image number and increment, init_functions.py:192-199. *)
Definition build_numbers (b : build_type) (c : config) : res (list string) :=
  match b with
  | Experiment => find_img_number_list (c_first_exp c) (c_last_exp c) 1
  | Analysis => find_img_number_list (c_first_exp c) (c_last_ana c) (c_skip c + 1)
  end.

(** [_build_img_data_string] and [_save_*_infos], init_functions.py:176-234: the
    lines of the image table file.  (Prompting for missing ids is part of the
    configuration model.) *)
Definition image_table (b : build_type) (ex : exif) (c : config) : res (list string) :=
  bind (build_numbers b c) (fun imgs =>
  bind (table_lines ex c 1 imgs) (fun lines =>
  Ok ((match b with
       | Experiment => "#Count,Name,Time[s],Experiment_Time[s]"
       | Analysis => "#ID,Name,Time[s],Experiment_Time[s]"
       end) :: lines))).

(** ** Reading the table: [np.loadtxt(file, delimiter=',', dtype='str')],
    file_handling.py:74-113: comments are cut, empty lines skipped, all rows
    must have equally many fields. *)
Fixpoint cut_comment (s : string) : string :=
  match s with
  | "" => ""
  | String a s' => if Ascii.eqb a "#"%char then "" else String a (cut_comment s')
  end.

(** The fields of the lines that are not empty, file_handling.py:74-113. *)
Definition csv_rows (lines : list string) : list (list string) :=
  map (split_on ","%char) (filter (fun s => negb (s =? "")%string) (map cut_comment lines)).

(** [read_table] with dtype str, file_handling.py:74-113. *)
Definition read_table (lines : list string) : res (list (list string)) :=
  match csv_rows lines with
  | [] => Ok [[]]                       (* np.atleast_2d of an empty array: one row without columns *)
  | r :: rs => if forallb (fun x => (List.length x =? List.length r)%nat) rs
               then Ok (r :: rs) else Err ValueError
  end.

(** [line[k]], image_handling.py:19-20, 37-38. *)
Definition field (r : list string) (k : nat) : res string :=
  match nth_error r k with Some s => Ok s | None => Err IndexError end.

(** [get_img_name], image_handling.py:6-21 *)
Fixpoint find_name (rows : list (list string)) (img_id : Z) : res string :=
  match rows with
  | [] => Err NameError
  | r :: rs =>
    bind (field r 0) (fun s => bind (int_of_str s) (fun i =>
    if i =? img_id then field r 1 else find_name rs img_id))
  end.

(** The loop applied to the file, image_handling.py:6-21. *)
Definition get_img_name (lines : list string) (img_id : Z) : res string :=
  bind (read_table lines) (fun rows => find_name rows img_id).

(** [get_img_id], image_handling.py:24-39 (the id is returned as text). *)
Fixpoint find_id (rows : list (list string)) (name : string) : res string :=
  match rows with
  | [] => Err NameError
  | r :: rs => bind (field r 1) (fun s => if (s =? name)%string then field r 0 else find_id rs name)
  end.

(** The loop applied to the file, image_handling.py:24-39. *)
Definition get_img_id (lines : list string) (name : string) : res string :=
  bind (read_table lines) (fun rows => find_id rows name).

(** [get_start_time], ConfigData.py:410-423.  The directory and the name are
    concatenated without a separator, and the id is formatted as text.
    [first_id] is the text of first_img_experiment_id. *)
Definition get_start_time (ex : exif) (c : config) (first_id : string) : res Z :=
  bind (format_str (c_name c) first_id) (fun name =>
  bind (ex (c_dir c ++ name)) (fun t =>
  bind (int_of_str (c_offset c)) (fun off =>
  Ok ((t - off) mod 86400)))).
