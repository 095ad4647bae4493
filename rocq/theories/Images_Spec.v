(** Specification vocabulary for C16-C19. *)
From Coq Require Import List ZArith Lia Bool Ascii String.
From Verif Require Import Base Str.
Import ListNotations.
Local Open Scope string_scope.
Local Open Scope Z_scope.

(** The camera counter from [first] to [last]; after 9999 it restarts at 1. *)
Definition counter (first last : Z) : list Z :=
  if first <=? last then zrange first (last + 1)
  else (zrange first 10000 ++ zrange 1 (last + 1))%list.

(** [l'] consists of every [k]-th element of [l], starting with the first. *)
Definition every {A B} (k : nat) (f : A -> B) (l : list A) (l' : list B) : Prop :=
  forall j, nth_error l' j = option_map f (nth_error l (j * k)).

(** Text that survives a comma-separated file. *)
Definition csv_safe (s : string) : Prop :=
  has_char ","%char s = false /\ has_char "#"%char s = false.
