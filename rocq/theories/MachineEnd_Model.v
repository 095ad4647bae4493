(** The analysis of one LED array with the distances which the machine computes.
    Source: ledsa/analysis/ExtinctionCoefficients.py, Experiment.py *)
From Coq Require Import ZArith QArith String List Reals.
From Verif Require Import Base Table_Model Analysis_Model Layers_Model Solver_Model Rounding_Model Machine_Model End_Model.
Import ListNotations.
Local Open Scope R_scope.

(** ExtinctionCoefficients.py:73-118 and 171-173, with the layers and distances
    of Experiment.py:54-58 and 170-188 as the machine [m] computes them; [avg] is
    its mean over the reference images (ExtinctionCoefficients.py:189). *)
Definition analyse_on (m : machine) (avg : list cell -> cell) (solve : list (option vec) -> option vec -> list quot -> res vec) (bot top : R) (n : nat) (cam : point) (coords : list point)
           (file : option (list Z)) (t : frame) (a : Z) (prop : string) (indices : option (list Z)) (num cpus : Z)
           (order : list nat) : res (list vec) :=
  analyse_avg avg (m_distances m (rounded_layers (rnd m) bot top n) cam) solve coords file t a prop indices num cpus order.
