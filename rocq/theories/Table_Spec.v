(** Specification vocabulary for C26-C30. *)
From Coq Require Import ZArith QArith Qabs Lia Bool Ascii String List Permutation Sorted.
From Verif Require Import Base Str Step3_Model Format_Model Format_Proofs Format_Props Table_Model.
Import ListNotations.
Local Open Scope string_scope.
Local Open Scope Z_scope.

(** Contract of sorting by the first column ([argsort] need not be stable). *)
Definition sorts (srt : list (list Q) -> list (list Q)) : Prop :=
  forall m, Permutation (srt m) m /\ StronglySorted (fun r r' => (led_of r <= led_of r')%Q) (srt m).

(** The named cell of a row is a number satisfying [P]. *)
Definition holds (cs : list string) (row : list cell) (name : string) (P : Q -> Prop) : Prop :=
  exists q, get cs row name = Some (Some q) /\ P q.

Definition is_int (z : Z) (q : Q) : Prop := (q == inject_Z z)%Q.

(** A row of the table tells what step 3 recorded for the LED. *)
Definition row_of_record (cs : list string) (img : Z) (d : led_data fit_data) (row : list cell) : Prop :=
  holds cs row "img_id" (is_int img) /\
  holds cs row "led_id" (is_int (d_id d)) /\
  holds cs row "led_array_id" (is_int (d_array d)) /\
  holds cs row "max_col_val" (is_int (d_max d)) /\
  holds cs row "mean_col_val" (close5 (d_mean d)) /\
  holds cs row "sum_col_val" (fun q => exists z, is_int z q /\ Z.abs (z - d_sum d) * 20000 <= d_sum d /\
                                                 (d_sum d <= 99999 -> z = d_sum d)).

(** The rows of an image: its LEDs ascending by id. *)
Definition rows_of_image (P : led_data fit_data -> list cell -> Prop) (ds : list (led_data fit_data)) (part : list (list cell)) : Prop :=
  exists ds', Permutation ds' ds /\ StronglySorted (fun d d' => d_id d <= d_id d') ds' /\ Forall2 P ds' part.

(** A coordinate table that covers the LEDs: ids strictly ascending. *)
Definition covers (cs : list (Q * (Q * Q))) (ds : list (led_data fit_data)) : Prop :=
  StronglySorted (fun c c' => (fst c < fst c')%Q) cs /\
  NoDup (map d_id ds) /\
  forall d, In d ds -> exists c, In c cs /\ (fst c == inject_Z (d_id d))%Q.

Definition coords_usable (coord : option (list (Q * (Q * Q)))) (ds : list (led_data fit_data)) : Prop :=
  match coord with None => True | Some cs => covers cs ds end.

(** The coordinates in a row are those of its LED (NaN without coordinates). *)
Definition row_coordinates (coord : option (list (Q * (Q * Q)))) (cs : list string) (d : led_data fit_data) (row : list cell) : Prop :=
  match coord with
  | None => get cs row "width" = Some None /\ get cs row "height" = Some None
  | Some co => exists c, In c co /\ (fst c == inject_Z (d_id d))%Q /\
      get cs row "width" = Some (Some (fst (snd c))) /\ get cs row "height" = Some (Some (snd (snd c)))
  end.

(** A fast-mode result file with at least two LEDs. *)
Definition fast_file (lines : list string) (ds : list (led_data fit_data)) : Prop :=
  (exists b img ch t, lines = result_file b img ch t false ds) /\
  Forall (fun d => d_fit d = None /\ 0 <= d_sum d) ds /\ (2 <= List.length ds)%nat.

Definition fit_file (lines : list string) (ds : list (led_data fit_data)) : Prop :=
  (exists b img ch t, lines = result_file b img ch t true ds) /\
  Forall (fun d => fit_record_ok d /\ 0 <= d_sum d) ds /\ (2 <= List.length ds)%nat.
