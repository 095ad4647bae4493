(** The questions and the log of the tool that renames photos.
    Source: ledsa/tools/photo_renamer.py
    Not modelled: what is printed; the name of the log file, which contains the
    present time, is an argument; the text that csv.writer makes of the rows is an
    argument as well.  The name has no directory separator. *)
From Coq Require Import ZArith Bool Ascii String List.
From Verif Require Import Base Str Substr Renamer_Model.
Import ListNotations.
Local Open Scope string_scope.
Local Open Scope Z_scope.

(** One row of the log: old and new name of the image, old and new name of the raw
    file.  photo_renamer.py:101, 114. *)
Record row := Row { old_image : string; new_image_name : string; old_raw : string; new_raw_name : string }.

(** The rows of the preview, photo_renamer.py:102-115.  As in the loop that renames,
    [pd.isnull(raw_old_name)] is False for every text. *)
Fixpoint preview (name : string) (count : Z) (photos : list photo) : list row :=
  match photos with
  | [] => []
  | p :: r => Row (p_image p) (new_image name count p) (p_raw p) (new_raw name count p) :: preview name (count + 1) r
  end.

(** The log with its head line, photo_renamer.py:101-115. *)
Definition log_rows (name : string) (photos : list photo) : list row :=
  Row "old_image_name" "new_image_name" "old_raw_name" "new_raw_name" :: preview name 1 photos.

(** [open(filename, 'w')] and the rows, photo_renamer.py:99-115. *)
Definition write_file {C} (d : dir C) (f : string) (c : C) : dir C :=
  fun x => if (x =? f)%string then Some c else d x.

(** [os.remove], photo_renamer.py:142. *)
Definition remove_file {C} (d : dir C) (f : string) : res (dir C) :=
  match d f with
  | None => Err FileNotFoundError
  | Some _ => Ok (fun x => if (x =? f)%string then None else d x)
  end.

(** How the tool ends: by [exit()], by an exception, or it still waits for an
    answer.  photo_renamer.py:118-149. *)
Inductive ending := Exited | Raised (e : exn) | Waiting.

(** The loop of the questions, photo_renamer.py:118-149; [answers] are the texts
    that are typed, in order.  After renaming, the answer to the second question
    that is neither 'y' nor 'n' leads back to the first question. *)
Fixpoint questions {C} (name : string) (photos : list photo) (f : string) (answers : list string) (d : dir C)
  : dir C * ending :=
  match answers with
  | [] => (d, Waiting)
  | a :: rest =>
    if (a =? "y")%string then
      match rename_images_by_date name photos d with
      | (d', Some e) => (d', Raised e)
      | (d', None) =>
        match rest with
        | [] => (d', Waiting)
        | keep :: rest' =>
          if (keep =? "y")%string then (d', Exited)
          else if (keep =? "n")%string then
            match remove_file d' f with Ok d'' => (d'', Exited) | Err e => (d', Raised e) end
          else questions name photos f rest' d'
        end
      end
    else if (a =? "n")%string then (d, Exited)
    else questions name photos f rest d
  end.

(** [rename_images_by_date] with its questions, photo_renamer.py:78-149: the log is
    written before the first question. *)
Definition rename_dialogue {C} (csv : list row -> C) (name : string) (photos : list photo) (f : string)
           (answers : list string) (d : dir C) : dir C * ending :=
  questions name photos f answers (write_file d f (csv (log_rows name photos))).
