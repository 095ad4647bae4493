(** The non-linear solver with the arithmetic of the machine.
    Source: ledsa/analysis/ExtinctionCoefficientsNonLinear.py *)
From Coq Require Import ZArith QArith String List Bool Reals.
From Verif Require Import Base Table_Model Analysis_Model Layers_Model Solver_Model Machine_Model End_Model.
Import ListNotations.
Local Open Scope R_scope.

(** One LED of [calc_intensities], NonLinear.py:98-107; [mexp] is [np.exp]. *)
Definition m_intensity (m : machine) (mexp : R -> R) (sigmas row : vec) : R :=
  fold_left (fun acc p => rnd m (acc * mexp (rnd m (- fst p * snd p)))) (combine sigmas row) 1.

(** [np.sqrt(np.sum((intensities - target) ** 2)) / len(intensities)],
    NonLinear.py:127 *)
Definition m_rmse (m : machine) (n_leds : nat) (ps : list (R * R)) : R :=
  rnd m (m_sqrt m (m_sum m (map (fun p => m_square m (fst p) (snd p)) ps)) / INR n_leds).

(** [sigmas[0:-2] - 2 * sigmas[1:-1] + sigmas[2:]], NonLinear.py:131 *)
Definition m_differences (m : machine) (s : vec) : vec :=
  map (fun p => rnd m (rnd m (fst (fst p) - rnd m (2 * snd (fst p))) + snd p)) (combine (combine s (tl s)) (tl (tl s))).

(** The smoothness term, NonLinear.py:131-132. *)
Definition m_curvature (m : machine) (wc : R) (n_leds : nat) (s : vec) : R :=
  rnd m (rnd m (rnd m (m_sum m (map Rabs (m_differences m s)) * INR n_leds) * 2) * wc).

(** The preference term, NonLinear.py:135. *)
Definition m_preference (m : machine) (wp : R) (s : vec) : R :=
  rnd m (rnd m (m_sum m s / INR (length s)) * wp).

(** [cost_function], NonLinear.py:110-138, as in [cost_seen] of End_Model; the
    relative intensities are rounded quotients (ExtinctionCoefficients.py:82 and
    98). *)
Definition cost_on (m : machine) (mexp : R -> R) (wc wp : R) (A : list (option vec)) (rel : list quot) (s : vec) : option R :=
  match all_some A, all_some (map number rel), s with
  | Some (row :: A'), Some target, _ :: _ =>
      match np_pairs (map (m_intensity m mexp s) (row :: A')) (map (rnd m) target) with
      | Some ps => Some (rnd m (rnd m (m_rmse m (length (row :: A')) ps + m_curvature m wc (length (row :: A')) s) + m_preference m wp s))
      | None => None
      end
  | _, _, _ => None
  end.

(** [calc_coefficients_of_img], NonLinear.py:58-81, as [solve_nonlinear]. *)
Definition nonlinear_on (m : machine) (mexp : R -> R) (minimize : (vec -> option R) -> vec -> vec) (wc wp : R) (n : nat) (A : list (option vec))
           (last : option vec) (rel : list quot) : res vec :=
  if ((length rel =? length A) || (length rel =? 1) || (length A =? 1))%nat%bool
  then Ok (minimize (cost_on m mexp wc wp A rel) (match last with None => repeat 0 n | Some s => s end))
  else Err ValueError.
