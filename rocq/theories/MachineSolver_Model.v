(** The linear solver with the arithmetic of the machine.
    Source: ledsa/analysis/ExtinctionCoefficientsLinear.py *)
From Coq Require Import ZArith QArith String List Bool Reals.
From Verif Require Import Base Table_Model Analysis_Model Layers_Model Solver_Model Rounding_Model Machine_Model End_Model MachineEnd_Model.
Import ListNotations.
Local Open Scope R_scope.

(** [-np.log(...)] of a clipped relative intensity, Linear.py:54-60; [log] is
    the logarithm of the machine.  The quotient which is the relative intensity
    is rounded (ExtinctionCoefficients.py:82 and 98). *)
Definition m_depth (m : machine) (log : R -> R) (v : R) : R := - log (clip_rel (rnd m v)).

(** [sqrt_lambda * L], Linear.py:79-83 *)
Definition m_reg (m : machine) (lambda : R) (n : nat) : matrix :=
  map (map (fun x => rnd m (m_sqrt m lambda * x))) (reg_matrix n).

(** [calc_coefficients_of_img], Linear.py:43-92 *)
Definition m_coefficients (m : machine) (log : R -> R) (nnls : matrix -> vec -> vec) (lambda : R) (n : nat) (A : matrix) (rel : vec) : vec :=
  nnls (A ++ m_reg m lambda n) (map (m_depth m log) rel ++ repeat 0 (length (reg_matrix n))).

(** The same for relative intensities that may be nan, as in End_Model,
    Linear.py:43-92. *)
Definition solve_on (m : machine) (log : R -> R) (nnls : matrix -> vec -> vec) (lambda : R) (n : nat) (A : list (option vec))
           (last : option vec) (rel : list quot) : res vec :=
  match all_some A, all_some (map rel_R rel) with
  | Some A', Some rel' =>
      if (length rel' =? length A')%nat then Ok (m_coefficients m log nnls lambda n A' rel') else Err ValueError
  | _, _ => Err ValueError
  end.
