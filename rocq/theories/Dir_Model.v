(** What the program takes from the names of files: the images that are done, and the
    index files of the LED arrays.
    Source: ledsa/data_extraction/step_3_functions.py, ledsa/data_extraction/DataExtractor.py *)
From Coq Require Import ZArith Lia Bool Ascii String List.
From Verif Require Import Base Str Substr Restart_Model Step2_Model Pipeline_Model.
Import ListNotations.
Local Open Scope string_scope.
Local Open Scope Z_scope.

(** ** The images that are done *)

(** The digits at the beginning, [\d+] of the pattern in step_3_functions.py:203; as the
    next character of the pattern is no digit, a shorter run of digits never matches. *)
Fixpoint span_digits (s : string) : string * string :=
  match s with
  | String a r => if is_digit a then let '(d, t) := span_digits r in (String a d, t) else ("", s)
  | "" => ("", "")
  end.

(** The rest of the pattern, [_led_positions.csv]; the dot stands for any character but
    a newline.  step_3_functions.py:203. *)
Definition tail_matches (s : string) : bool :=
  starts "_led_positions" s &&
  match substring 14 (String.length s - 14) s with
  | String c r => negb (Ascii.eqb c nl) && starts "csv" r
  | "" => false
  end.

(** A match at the beginning of the text, step_3_functions.py:203. *)
Definition match_here (s : string) : option string :=
  let '(d, r) := span_digits s in
  if negb (d =? "")%string && tail_matches r then Some d else None.

(** [re.search(...).group(1)]: the first place where the pattern matches.
    step_3_functions.py:203-205. *)
Fixpoint search (s : string) : option string :=
  match match_here s with
  | Some d => Some d
  | None => match s with String _ r => search r | "" => None end
  end.

(** [_find_analysed_img_ids] on the names in the directory, step_3_functions.py:199-206. *)
Fixpoint analysed_ids (names : list string) : res (list Z) :=
  match names with
  | [] => Ok []
  | f :: l =>
    match search f with
    | None => analysed_ids l
    | Some d => bind (int_of_str d) (fun n => bind (analysed_ids l) (fun r => Ok (n :: r)))
    end
  end.

(** [find_and_save_not_analysed_imgs], step_3_functions.py:93-107: the images of the
    restart, from the names in the directory of the first channel. *)
Definition restart_list (tab : table) (names : list string) : res (list string) :=
  bind (analysed_ids names) (remaining tab).

(** The name of a result file, step_3_functions.py:182. *)
Definition result_name (id : Z) : string := str_of_Z id ++ "_led_positions.csv".

(** ** The index files *)

(** [load_led_array_indices], DataExtractor.py:190-193, for the plain ([KIdx]) or merged
    ([KMerge]) files.  [np.loadtxt] of a missing file raises FileNotFoundError. *)
Definition load_files (mk : Z -> key) (n : Z) (s : fs) : res (list (list Z)) :=
  mapM (fun i => match s (mk i) with Some (Ids l) => Ok l | _ => Err FileNotFoundError end) (zrange 0 n).

(** [load_led_array_indices], DataExtractor.py:179-193: the number of files is taken from
    the configuration, not from what step 2 has written. *)
Definition load_indices (num_arrays : Z) (merge : option (list (list Z))) (s : fs) : res (list (list Z)) :=
  match merge with
  | Some gs => load_files KMerge (Z.of_nat (List.length gs)) s
  | None => load_files KIdx num_arrays s
  end.
