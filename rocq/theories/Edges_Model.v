(** Step 2 from the texts of the configuration: edge labels and merged arrays.
    Source: ledsa/data_extraction/step_2_functions.py, ledsa/data_extraction/DataExtractor.py *)
From Coq Require Import ZArith Lia Bool Ascii String List.
From Verif Require Import Base Str Config_Model Step2_Model Pipeline_Model Dir_Model.
Import ListNotations.
Local Open Scope string_scope.
Local Open Scope Z_scope.

(** The text that is parsed, step_2_functions.py:213-219.  [v] is the value of
    led_array_edge_indices ([None]: no such option, a KeyError); [typed] are the lines
    typed in when it is 'None', or an exception of the prompt (the number of arrays is no
    number, the input ends). *)
Definition edge_text (v : option string) (typed : res (list string)) : res string :=
  match v with
  | None => Err KeyError
  | Some s => if (s =? "None")%string then res_map prompt_text typed else Ok s
  end.

(** [_get_indices_of_outer_leds], step_2_functions.py:206-232: any exception gives an
    empty array.  ([get2dnparray] gives two axes, lines 222-223 never apply.) *)
Definition outer_leds (v : option string) (typed : res (list string)) : list (list Z) :=
  match bind (edge_text v typed) (get2d int_of_str 2) with
  | Ok (Some rows) => rows
  | _ => []
  end.

(** The groups of merge_led_array_indices; DataExtractor.py:175, 183-184 and
    step_2_functions.py:394-399.  [Ok None]: no merging. *)
Definition merge_groups (v : string) : res (option (list (list Z))) := get2d_var int_of_str v.

(** The groups as step 2 sees them: after an exception the arrays are left as they are and
    no file is written.  step_2_functions.py:425-428. *)
Definition merge_in_step2 (v : string) : option (list (list Z)) :=
  match merge_groups v with Ok m => m | Err _ => None end.

(** The environment of steps 1 and 2 with the three texts of the section
    analyse_positions, step_2_functions.py:29-30, DataExtractor.py:175-177.  A missing
    merge_led_array_indices is not modelled. *)
Definition with_texts (E : env) (edges : option string) (typed : res (list string))
           (ignored : option string) (merge : string) : env :=
  Env (e_mml E) (e_image E) (e_radius E) (e_percentile E) (e_max_leds E) (e_geo E)
      (outer_leds edges typed) (ignored_leds ignored) (merge_in_step2 merge) (e_plot E).

(** The [line_indices] of the object after step 2, which step 3 of the same call uses
    without looking at the files.  [arrays] is what the matching gave.
    DataExtractor.py:161-177, 228-229. *)
Definition indices_in_memory (arrays : list (list Z)) (merge : string) : list (list Z) :=
  merge_indices (reorder_led_indices arrays) (merge_in_step2 merge).

(** The [line_indices] of a later call, read from the files.  DataExtractor.py:179-193. *)
Definition indices_from_files (num_arrays : Z) (merge : string) (s : fs) : res (list (list Z)) :=
  bind (merge_groups merge) (fun m => load_indices num_arrays m s).
