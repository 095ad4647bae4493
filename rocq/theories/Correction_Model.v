(** Colour correction.
    Source: ledsa/analysis/data_preparation.py:7-28 (the same loop stands in
    ExtinctionCoefficients.py:193-216), parser_arguments_declaration.py:107-108,
    parser_arguments_run.py:142-156 *)
From Coq Require Import ZArith QArith Lia Bool List.
From Verif Require Import Base Step2_Model Table_Model.
Import ListNotations.
Local Open Scope Z_scope.

(** Products [np.dot(matrix, vector)]; the lengths have to fit.  data_preparation.py:25. *)
Fixpoint dot (a b : list Q) : Q :=
  match a, b with
  | x :: a', y :: b' => (x * y + dot a' b')%Q
  | _, _ => 0%Q
  end.

(** [np.dot(cc_matrix_inv, ...)], data_preparation.py:25. *)
Definition mat_vec (m : list (list Q)) (v : list Q) : res (list Q) :=
  mapM (fun row => if (List.length row =? List.length v)%nat then Ok (dot row v) else Err ValueError) m.

(** [apply_color_correction], data_preparation.py:7-28.  [raws] has, for each
    table row (image and LED), the value of every channel; the tables of the
    channels are assumed to list the same images and LEDs ([pd.concat(axis=1)]
    aligns them).  [inv] is the result of [np.linalg.inv] ([None]: singular),
    [cast] is [astype(np.int16)].  The result is the list of column writes. *)
Definition apply_cc (cast : Q -> Z) (inv : option (list (list Q))) (raws : list (Z -> Q)) (channels : list Z)
  : res (list (Z * list Z)) :=
  match inv with
  | None => Err LinAlgError
  | Some i =>
    bind (mapM (fun raw => res_map (map cast) (mat_vec i (map raw channels))) raws) (fun cc =>
    mapM (fun ch => res_map (fun col => (ch, col)) (mapM (fun row => np_index row ch) cc)) channels)
  end.

(** The channel list from the command line: [--cc_channels] has the default
    [0, 1, 2] and action 'extend', which appends to a copy of the default.
    parser_arguments_declaration.py:107-108. *)
Definition cc_channels (given : option (list Z)) : list Z :=
  match given with None => [0; 1; 2] | Some l => [0; 1; 2] ++ l end.
