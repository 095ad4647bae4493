(** Which index file the analysis reads for a LED array.
    Source: ledsa/analysis/Experiment.py, ledsa/analysis/ExperimentData.py *)
From Coq Require Import ZArith Bool String List.
From Verif Require Import Base Step2_Model Pipeline_Model.
Import ListNotations.
Local Open Scope string_scope.
Local Open Scope Z_scope.

(** [get_led_ids], Experiment.py:284-296: [merge] is the text of
    merge_led_array_indices in config.ini (ExperimentData.py:106), which is not
    parsed here.  [None]: the file is missing. *)
Definition array_file (merge : string) (a : Z) (s : fs) : option (list Z) :=
  match s (if (merge =? "None")%string then KIdx a else KMerge a) with Some (Ids l) => Some l | _ => None end.
