(** Specification vocabulary for C20 and C21. *)
From Coq Require Import List ZArith QArith Lia Bool.
From Verif Require Import Base Step1_Model.
Import ListNotations.
Local Open Scope Z_scope.

(** The pixel values with y0 <= row < y1 and x0 <= column < x1, row by row. *)
Definition window (img : image) (y0 y1 x0 x1 : Z) : list Z :=
  map (fun p => px img (fst p) (snd p)) (list_prod (zrange y0 y1) (zrange x0 x1)).

Definition total (l : list Z) : Z := fold_right Z.add 0 l.

Definition is_max (m : Z) (l : list Z) : Prop := In m l /\ forall v, In v l -> v <= m.

(** LED [i] sits at place [j] of array [k] of the index files. *)
Definition led_at (arrays : list (list Z)) (k j : nat) (i : Z) : Prop :=
  exists a, nth_error arrays k = Some a /\ nth_error a j = Some i.
