(** Specification vocabulary for step 2. *)
From Coq Require Import List ZArith.
From Verif Require Import Base Step2_Model.
Import ListNotations.

(** LED ids of the search-area table. *)
Definition ids (rows : list row) : list Z := map fst rows.

(** The table row of an LED. *)
Definition has_loc (rows : list row) (k : Z) (p : loc) : Prop := In (k, p) rows.

(** [sub] is obtained from [l] by dropping elements satisfying [drop]. *)
Inductive dropped (drop : Z -> Prop) : list Z -> list Z -> Prop :=
| dropped_nil : dropped drop [] []
| dropped_keep : forall x l l', ~ drop x -> dropped drop l l' -> dropped drop (x :: l) (x :: l')
| dropped_drop : forall x l l', drop x -> dropped drop l l' -> dropped drop (x :: l) l'.
