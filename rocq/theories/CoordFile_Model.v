(** The file led_search_areas_with_coordinates.csv: what calculate_coordinates
    writes and what the analysis reads.
    Source: ledsa/ledpositions/coordinates.py, ledsa/analysis/Experiment.py *)
From Coq Require Import ZArith QArith Qround Lia Bool Ascii String List.
From Verif Require Import Base Str Format_Model Table_Model Step2_Model.
Import ListNotations.
Local Open Scope string_scope.
Local Open Scope Z_scope.

(** ** Python's ['%f' % x] for finite numbers, coordinates.py:64-65.  Numbers are
    exact rationals (those of float64), the last of the six decimals is
    correctly rounded, half to even. *)

(** Point and six decimals, coordinates.py:65. *)
Definition frac_text (m : Z) : string :=
  String "."%char (String (digit_char (m / 100000)) (String (digit_char (m / 10000 mod 10)) (String (digit_char (m / 1000 mod 10))
  (String (digit_char (m / 100 mod 10)) (String (digit_char (m / 10 mod 10)) (String (digit_char (m mod 10)) "")))))).

(** A number of millionths, coordinates.py:65. *)
Definition fixed_text (n : Z) : string := str_of_Z (n / 1000000) ++ frac_text (n mod 1000000).

(** ['%f' % x], coordinates.py:65; negative numbers that are rounded to zero keep their
    sign. *)
Definition fmt_f (x : Q) : string :=
  if Qle_bool 0 x then fixed_text (round_half_even (x * 1000000))
  else String "-"%char (fixed_text (round_half_even (- x * 1000000))).

(** One row of [coord]: id, pixel position, position in the room, width and
    height, coordinates.py:59-61. *)
Record coord_row := CoordRow { c_id : Z; c_line : Z; c_column : Z; c_x : Q; c_y : Q; c_z : Q; c_width : Q; c_height : Q }.

(** The format '%d,%d,%d,%f,%f,%f,%f,%f', coordinates.py:65. *)
Definition coord_line (r : coord_row) : string :=
  join "," [str_of_Z (c_id r); str_of_Z (c_line r); str_of_Z (c_column r); fmt_f (c_x r); fmt_f (c_y r); fmt_f (c_z r);
            fmt_f (c_width r); fmt_f (c_height r)].

(** [np.savetxt] with its header, coordinates.py:63-65. *)
Definition coord_file (rs : list coord_row) : list string :=
  "# LED id, pixel position x, pixel position y, x, y, z, width, height" :: map coord_line rs.

(** [search_areas_all[led_id]] and the columns 3, 4, 5, Experiment.py:307-313. *)
Definition columns_345 (row : list Q) : res (Q * Q * Q) :=
  match row with
  | _ :: _ :: _ :: x :: y :: z :: _ => Ok (x, y, z)
  | _ => Err IndexError
  end.

(** [get_led_positions], Experiment.py:298-313.  The columns are taken from
    the selected rows; no id at all makes a one-dimensional array.  A file of one row
    is one-dimensional and its numbers, indexed by an id, are no rows. *)
Definition get_led_positions (lines : list string) (ids : list Z) : res (list (Q * Q * Q)) :=
  bind (read_floats lines) (fun m =>
  match m with
  | [] | [_] => Err IndexError
  | _ => match ids with
         | [] => Err IndexError
         | _ => bind (mapM (np_index m) ids) (mapM columns_345)
         end
  end).
