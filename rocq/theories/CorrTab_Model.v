(** Colour correction over the tables of the channels: alignment of the rows and writing
    one channel after the other.
    Source: ledsa/analysis/data_preparation.py:7-28, ledsa/analysis/ExtinctionCoefficients.py:193-216,
    ledsa/core/file_handling.py:116-143, 203-217.  Simplified: only the column that is
    corrected and the new one; a table with two rows for the same image and LED is left out
    (pandas refuses to align it). *)
From Coq Require Import ZArith QArith Lia Bool List.
From Verif Require Import Base Step2_Model Correction_Model.
Import ListNotations.
Local Open Scope Z_scope.

(** Index of a row: image and LED.  file_handling.py:142. *)
Notation rkey := (Z * Z)%type.

(** The file of a channel: the rows with the value to be corrected, and whether it is of
    the old layout, with the table under the key '/table'.  file_handling.py:129-140. *)
Record ctable := CTable { ct_old : bool; ct_rows : list (rkey * Q) }.

(** Equality of the index of two rows, data_preparation.py:24. *)
Definition rkey_eqb (a b : rkey) : bool := (fst a =? fst b) && (snd a =? snd b).

(** The column of a table as a function of the row index, data_preparation.py:22. *)
Fixpoint value_at (k : rkey) (l : list (rkey * Q)) : option Q :=
  match l with [] => None | (k', v) :: l' => if rkey_eqb k k' then Some v else value_at k l' end.

(** [Index.union(..., sort=False)] inside [pd.concat(axis=1)]: the first index, then what
    only the other one has.  data_preparation.py:24. *)
Definition union_index (a b : list rkey) : list rkey := a ++ filter (fun k => negb (existsb (rkey_eqb k) a)) b.

(** The common index of all columns, data_preparation.py:24. *)
Definition common_index (tabs : list ctable) : list rkey :=
  match map (fun t => map fst (ct_rows t)) tabs with
  | [] => []
  | a :: l => fold_left union_index l a
  end.

(** A row of the aligned columns; [None] is nan.  data_preparation.py:24. *)
Definition aligned_row (tabs : list ctable) (k : rkey) : list (option Q) := map (fun t => value_at k (ct_rows t)) tabs.

(** All columns have a value, data_preparation.py:25. *)
Fixpoint full_row (l : list (option Q)) : option (list Q) :=
  match l with
  | [] => Some []
  | None :: _ => None
  | Some v :: l' => match full_row l' with Some r => Some (v :: r) | None => None end
  end.

(** [np.dot(cc_matrix_inv, row)] and the conversion to int16: one nan makes the whole
    row nan; [cast None] is what the conversion of nan gives.  data_preparation.py:25-26. *)
Definition corrected_row (cast : option Q -> Z) (inv : list (list Q)) (row : list (option Q)) : res (list Z) :=
  mapM (fun i => if (List.length i =? List.length row)%nat
                 then Ok (cast (match full_row row with Some v => Some (dot i v) | None => None end))
                 else Err ValueError) inv.

(** The loop over [extend_hdf], data_preparation.py:27-28 and file_handling.py:203-217: the
    columns that were written, and how the loop ended.  The values are an array, so only
    their number has to fit; a file of the old layout has no 'channel_values'. *)
Fixpoint write_columns (cc : list (list Z)) (tabs : list (Z * ctable)) : list (Z * list (rkey * Z)) * res unit :=
  match tabs with
  | [] => ([], Ok tt)
  | (ch, t) :: l =>
    match mapM (fun row => np_index row ch) cc with
    | Err e => ([], Err e)
    | Ok col =>
      if ct_old t then ([], Err KeyError)
      else if (List.length col =? List.length (ct_rows t))%nat
      then let (w, r) := write_columns cc l in ((ch, combine (map fst (ct_rows t)) col) :: w, r)
      else ([], Err ValueError)
    end
  end.

(** [apply_color_correction], data_preparation.py:7-28 and ExtinctionCoefficients.py:193-216
    (there with the channels 0, 1, ..., nchannels - 1). *)
Definition correct_tables (cast : option Q -> Z) (inv : option (list (list Q))) (tabs : list (Z * ctable))
  : list (Z * list (rkey * Z)) * res unit :=
  match inv with
  | None => ([], Err LinAlgError)
  | Some i =>
    match tabs with
    | [] => ([], Err ValueError)                       (* no objects to concatenate *)
    | _ =>
      match mapM (fun k => corrected_row cast i (aligned_row (map snd tabs) k)) (common_index (map snd tabs)) with
      | Err e => ([], Err e)
      | Ok cc => write_columns cc tabs
      end
    end
  end.
