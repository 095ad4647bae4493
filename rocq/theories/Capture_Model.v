(** The capture time of a photo and the order in which photos are renamed.
    Source: ledsa/tools/photo_renamer.py
    [get_exif_entry] is an argument: it returns a text or ends with exit(1)
    (image_reading.py:119-127), which is the exception SystemExit.  File types are
    taken to contain no wildcard characters. *)
From Coq Require Import Ascii String List ZArith Lia Bool.
From Verif Require Import Base Str Substr Calendar_Model Renamer_Model.
Import ListNotations.
Local Open Scope string_scope.
Local Open Scope Z_scope.

(** The first one to [n] digits of a text and the rests, the longest run first
    ([0-9]{1,6} in the regular expression of %f).  photo_renamer.py:56. *)
Fixpoint digit_runs (n : nat) (s : string) : list (string * string) :=
  match n, s with
  | S n', String c s' =>
    if is_digit c
    then (map (fun p => (String c (fst p), snd p)) (digit_runs n' s') ++ [(String c "", s')])%list
    else []
  | _, _ => []
  end.

(** The microseconds of %f: the digits are filled with zeros on the right.
    photo_renamer.py:56. *)
Definition microseconds (t : string) : res Z := int_of_str (t ++ zeros (6 - String.length t) "").

(** [strptime(s, '%Y:%m:%d %H:%M:%S.%f')] before the [datetime] is built,
    photo_renamer.py:56: the first match, and nothing may remain. *)
Definition strptime_f (s : string) : res (list Z * Z) :=
  match flat_map (fun m => map (fun r => (fst m, fst r, snd r)) (digit_runs 6 (snd m)))
                 (matches (colon_format ++ [Lit "."%char])%list s) with
  | [] => Err ValueError
  | (vs, f, r) :: _ => if (r =? "")%string then bind (microseconds f) (fun us => Ok (vs, us)) else Err ValueError
  end.

(** The [datetime] of the six numbers, photo_renamer.py:56, 59. *)
Definition moment_of (vs : list Z) : res moment :=
  match vs with
  | [y; m; d; h; mi; s] => datetime (Moment y m d h mi s)
  | _ => Err ValueError                                      (* does not occur *)
  end.

(** The capture time of one image, photo_renamer.py:52-59: moment and microseconds.
    [entry] and [sub] are the results of [get_exif_entry] for DateTimeOriginal and
    SubSecTimeDigitized.  The bare [except] also catches the [exit(1)] of a missing
    SubSecTimeDigitized. *)
Definition capture (entry sub : res string) : res (moment * Z) :=
  bind entry (fun capture_date =>
  match bind sub (fun subsec_time =>
        bind (strptime_f (capture_date ++ "." ++ subsec_time)) (fun p =>
        bind (moment_of (fst p)) (fun t => Ok (t, snd p)))) with
  | Ok c => Ok c
  | Err _ => bind (strptime colon_format capture_date) (fun vs => bind (moment_of vs) (fun t => Ok (t, 0)))
  end).

(** The value in the column capture_date, photo_renamer.py:70-74; the time of day
    in microseconds. *)
Definition date_of_capture (c : moment * Z) : date :=
  let t := fst c in
  Date (year t) (month t) (day t) (1000000 * (3600 * hour t + 60 * minute t + second t) + snd c).

(** The answers to the questions for file types, photo_renamer.py:35-38. *)
Definition types_of (answer : string) : list string := map strip (split_on ","%char answer).

(** The keys of [image_dict], photo_renamer.py:40, 70: a file that was found twice
    is there once. *)
Fixpoint dict_keys (seen l : list string) : list string :=
  match l with
  | [] => []
  | x :: l' => if existsb (String.eqb x) seen then dict_keys seen l' else x :: dict_keys (x :: seen) l'
  end.

(** [get_files] before sorting, photo_renamer.py:35-70; [glob ty] are the files
    found for the pattern '*.ty'. *)
Definition read_photos {C} (d : dir C) (glob : string -> list string) (entry sub : string -> res string)
           (image_types raw_types : string) : res (list photo) :=
  mapM (fun i => bind (capture (entry i) (sub i)) (fun c =>
                 Ok (Photo i (date_of_capture c) (raw_partner d i (types_of raw_types)))))
       (dict_keys [] (flat_map glob (types_of image_types))).

(** [main] without the change of the directory, photo_renamer.py:152-155; the user
    continues.  [sort] is [sort_values(by=['capture_date'])] (line 74), which does
    not promise an order of equal dates. *)
Definition photo_tool {C} (sort : list photo -> list photo) (d : dir C) (glob : string -> list string)
           (entry sub : string -> res string) (image_types raw_types name : string) : dir C * option exn :=
  match read_photos d glob entry sub image_types raw_types with
  | Err e => (d, Some e)
  | Ok ps => rename_images_by_date name (sort ps) d
  end.
