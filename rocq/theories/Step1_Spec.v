(** Specification vocabulary for step 1. *)
From Coq Require Import List ZArith QArith.
From Verif Require Import Base Step1_Model.
Import ListNotations.
Local Open Scope Z_scope.

(** (row y, column x) is a pixel of the image. *)
Definition in_image (img : image) (y x : Z) : Prop :=
  0 <= y < ih img /\ 0 <= x < iw img.

(** No negative pixel value (camera data). *)
Definition nonneg_image (img : image) : Prop :=
  forall y x, in_image img y x -> 0 <= px img y x.

Definition nonempty_image (img : image) : Prop := 0 < ih img /\ 0 < iw img.

(** (y', x') lies in the search square [y-r, y+r) x [x-r, x+r). *)
Definition in_square (y x r y' x' : Z) : Prop :=
  y - r <= y' < y + r /\ x - r <= x' < x + r.

(** Contract of cv2.minMaxLoc: for a non-empty image it returns the maximum
    and some position (x, y) where it is attained. *)
Definition mml_ok (mml : minmaxloc) : Prop :=
  forall img, nonempty_image img ->
    let m := fst (mml img) in let x := fst (snd (mml img)) in let y := snd (snd (mml img)) in
    in_image img y x /\ px img y x = m /\
    forall y' x', in_image img y' x' -> px img y' x' <= m.

(** The pixel is brighter than the threshold. *)
Definition brighter (v : Z) (t : Q) : Prop := (t < inject_Z v)%Q.

(** [v] is the unique brightest pixel, at (y, x). *)
Definition unique_brightest (img : image) (y x : Z) : Prop :=
  in_image img y x /\
  forall y' x', in_image img y' x' -> (y', x') <> (y, x) -> px img y' x' < px img y x.
