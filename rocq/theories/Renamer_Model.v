(** Renaming photos by capture date.
    Source: ledsa/tools/photo_renamer.py
    Here the answers are arguments and the user continues (the questions and the log
    are in Dialogue_Model, the dates in Capture_Model).  Not modelled: sub-directories. *)
From Coq Require Import ZArith Lia Bool Ascii String List.
From Verif Require Import Base Str Substr.
Import ListNotations.
Local Open Scope string_scope.
Local Open Scope Z_scope.

(** A directory: the content of each file name.  photo_renamer.py:62-70, 123-132. *)
Definition dir (C : Type) := string -> option C.

(** [os.rename(a, b)] on POSIX: an existing file [b] is replaced.  photo_renamer.py:130-132. *)
Definition rename {C} (d : dir C) (a b : string) : res (dir C) :=
  match d a with
  | None => Err FileNotFoundError
  | Some c => Ok (fun x => if (x =? b)%string then Some c else if (x =? a)%string then None else d x)
  end.

(** A capture date: year, month, day and the time of day in any unit.
    photo_renamer.py:52-59, 124. *)
Record date := Date { d_year : Z; d_month : Z; d_day : Z; d_time : Z }.

(** The order used by [sort_values(by=['capture_date'])], photo_renamer.py:74 *)
Definition earlier (a b : date) : Prop :=
  d_year a < d_year b \/ (d_year a = d_year b /\
  (d_month a < d_month b \/ (d_month a = d_month b /\
  (d_day a < d_day b \/ (d_day a = d_day b /\ d_time a < d_time b))))).

(** [strftime('%-y%m%d')], photo_renamer.py:103 and 124 *)
Definition day_text (t : date) : string :=
  str_of_Z (d_year t mod 100) ++ zfill 2 (str_of_Z (d_month t)) ++ zfill 2 (str_of_Z (d_day t)).

(** [image.rsplit(".", 1)[0]], photo_renamer.py:63 *)
Fixpoint stem (s : string) : string :=
  match s with
  | "" => ""
  | String c s' => if Ascii.eqb c "."%char && negb (has_char "."%char s') then "" else String c (stem s')
  end.

(** The raw partner, photo_renamer.py:62-68: the first type for which the file
    exists, otherwise the text "NaT". *)
Fixpoint raw_partner {C} (d : dir C) (image : string) (raw_types : list string) : string :=
  match raw_types with
  | [] => "NaT"                          (* does not occur: split(',') is never empty *)
  | t :: r => let f := stem image ++ "." ++ t in
              match d f with Some _ => f | None => raw_partner d image r end
  end.

(** One row of [image_df].  photo_renamer.py:70-74. *)
Record photo := Photo { p_image : string; p_date : date; p_raw : string }.

(** [get_files] before sorting, photo_renamer.py:47-70: one entry per image
    found; [date_of] is the EXIF date. *)
Definition get_files {C} (d : dir C) (date_of : string -> date) (images raw_types : list string) : list photo :=
  map (fun i => Photo i (date_of i) (raw_partner d i raw_types)) images.

(** [s.split('.')[-1]].  photo_renamer.py:127-131. *)
Definition extension (s : string) : string := last (split_on "."%char s) "".

(** The new names, photo_renamer.py:127-131 *)
Definition base_name (name : string) (count : Z) (t : date) : string :=
  day_text t ++ "_" ++ name ++ "_" ++ str_of_Z count.

(** The new name of the image, photo_renamer.py:127-131. *)
Definition new_image (name : string) (count : Z) (p : photo) : string :=
  base_name name count (p_date p) ++ "." ++ "jpg".

(** The new name of the raw file, photo_renamer.py:127-131. *)
Definition new_raw (name : string) (count : Z) (p : photo) : string :=
  base_name name count (p_date p) ++ "." ++ extension (p_raw p).

(** The loop, photo_renamer.py:123-133.  [pd.isnull(raw_old_name)] is False for
    every text, also for "NaT", so that the raw file is always renamed, and first.
    The result is the directory when the loop ends and the exception, if any. *)
Fixpoint rename_photos {C} (name : string) (count : Z) (photos : list photo) (d : dir C)
  : dir C * option exn :=
  match photos with
  | [] => (d, None)
  | p :: r =>
    match rename d (p_raw p) (new_raw name count p) with
    | Err e => (d, Some e)
    | Ok d1 =>
      match rename d1 (p_image p) (new_image name count p) with
      | Err e => (d1, Some e)
      | Ok d2 => rename_photos name (count + 1) r d2
      end
    end
  end.

(** [rename_images_by_date] for the sorted photos, photo_renamer.py:120-134 *)
Definition rename_images_by_date {C} (name : string) (photos : list photo) (d : dir C) : dir C * option exn :=
  rename_photos name 1 photos d.
