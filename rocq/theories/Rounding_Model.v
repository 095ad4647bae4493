(** The borders of the layers with the arithmetic of the machine.
    Source: ledsa/analysis/Experiment.py *)
From Coq Require Import List Arith Reals.
From Verif Require Import Base Layers_Model.
Import ListNotations.
Local Open Scope R_scope.

(** The distance of two borders in [np.linspace], Experiment.py:56; [rnd] rounds
    the result of one operation. *)
Definition rounded_step (rnd : R -> R) (bot top : R) (n : nat) : R := rnd (rnd (top - bot) / INR n).

(** [np.linspace(bottom, top, amount + 1)[i]], Experiment.py:56: multiples of
    the step plus the bottom (or, for a step of zero, shares of the
    difference), the last border is set to the top. *)
Definition rounded_border (rnd : R -> R) (bot top : R) (n i : nat) : R :=
  let step := rounded_step rnd bot top n in
  if (i =? n)%nat then top
  else if Req_EM_T step 0 then rnd (rnd (rnd (INR i / INR n) * rnd (top - bot)) + bot)
  else rnd (rnd (INR i * step) + bot).

(** All borders, Experiment.py:56 *)
Definition rounded_borders (rnd : R -> R) (bot top : R) (n : nat) : list R := map (rounded_border rnd bot top n) (seq 0 (S n)).

(** The layers between them, Experiment.py:57-58 *)
Definition rounded_layers (rnd : R -> R) (bot top : R) (n : nat) : list (R * R) := layers_of (rounded_borders rnd bot top n).
