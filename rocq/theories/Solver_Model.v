(** The linear and the nonlinear solver for one image, exact real arithmetic.
    Source: ledsa/analysis/ExtinctionCoefficientsLinear.py and
    ExtinctionCoefficientsNonLinear.py (line numbers of these files) *)
From Coq Require Import List Arith Reals Lra.
From Verif Require Import Base.
Import ListNotations.
Local Open Scope R_scope.

(** Numpy arrays of one and two dimensions, Linear.py:60-86 *)
Notation vec := (list R).
(** Two-dimensional arrays, Linear.py:79-86. *)
Notation matrix := (list (list R)).

(** [np.sum], NonLinear.py:127-135 *)
Fixpoint rsum (l : vec) : R := match l with [] => 0 | x :: l' => x + rsum l' end.

(** One row of a matrix times a vector (inside [nnls], Linear.py:88-89). *)
Fixpoint rdot (a b : vec) : R :=
  match a, b with x :: a', y :: b' => x * y + rdot a' b' | _, _ => 0 end.

(** Matrix times vector, Linear.py:88-89 *)
Definition mul (A : matrix) (x : vec) : vec := map (fun r => rdot r x) A.

(** ** Linear solver *)

(** [np.clip(rel_intensities, eps, 1.0)], Linear.py:54-56 *)
Definition clip_rel (v : R) : R := Rmin (Rmax v (1 / 10000000000)) 1.

(** [-np.log(...)], Linear.py:58-60 *)
Definition optical_depth (v : R) : R := - ln (clip_rel v).

(** Row [i] of the second difference matrix, Linear.py:68-74 *)
Definition diff_row (n i : nat) : vec :=
  map (fun j => if (j =? i)%nat then 1 else if (j =? i + 1)%nat then -2 else if (j =? i + 2)%nat then 1 else 0) (seq 0 n).

(** Row [i] of the identity, Linear.py:77 *)
Definition unit_row (n i : nat) : vec := map (fun j => if (j =? i)%nat then 1 else 0) (seq 0 n).

(** The matrix [L], Linear.py:65-77 *)
Definition reg_matrix (n : nat) : matrix :=
  if (3 <=? n)%nat then map (diff_row n) (seq 0 (n - 2)) else map (unit_row n) (seq 0 n).

(** [A_aug] and [b_aug], Linear.py:79-86 *)
Definition a_aug (lambda : R) (n : nat) (A : matrix) : matrix :=
  A ++ map (map (Rmult (sqrt lambda))) (reg_matrix n).
(** The right hand side, Linear.py:86. *)
Definition b_aug (n : nat) (rel : vec) : vec :=
  map optical_depth rel ++ repeat 0 (length (reg_matrix n)).

(** [calc_coefficients_of_img], Linear.py:43-92; [nnls] is scipy's solver,
    [n] the number of layers (columns of [A]). *)
Definition linear_coefficients (nnls : matrix -> vec -> vec) (lambda : R) (n : nat) (A : matrix) (rel : vec) : vec :=
  nnls (a_aug lambda n A) (b_aug n rel).

(** ** Nonlinear solver *)

(** Inner loop of [calc_intensities], NonLinear.py:98-107: one LED. *)
Definition intensity (sigmas row : vec) : R :=
  fold_left (fun acc p => acc * exp (- fst p * snd p)) (combine sigmas row) 1.

(** [calc_intensities], NonLinear.py:83-108 *)
Definition intensities (A : matrix) (sigmas : vec) : vec := map (intensity sigmas) A.

(** [sigmas[0:-2] - 2 * sigmas[1:-1] + sigmas[2:]], NonLinear.py:131.  For one
    layer all three slices are empty; two layers give none either. *)
Definition second_differences (s : vec) : vec :=
  map (fun p => fst (fst p) - 2 * snd (fst p) + snd p) (combine (combine s (tl s)) (tl (tl s))).

(** [cost_function], NonLinear.py:110-138 *)
Definition misfit (A : matrix) (sigmas target : vec) : R :=
  sqrt (rsum (map (fun p => Rsqr (fst p - snd p)) (combine (intensities A sigmas) target))) / INR (length A).
(** The smoothness term, NonLinear.py:129-132. *)
Definition curvature (w : R) (n_leds : nat) (sigmas : vec) : R :=
  rsum (map Rabs (second_differences sigmas)) * INR n_leds * 2 * w.
(** The preference term, NonLinear.py:134-135. *)
Definition preference (w : R) (sigmas : vec) : R := rsum sigmas / INR (length sigmas) * w.

(** The whole cost, NonLinear.py:123-138. *)
Definition cost (w_curv w_pref : R) (A : matrix) (sigmas target : vec) : R :=
  misfit A sigmas target + curvature w_curv (length A) sigmas + preference w_pref sigmas.

(** [calc_coefficients_of_img], NonLinear.py:58-81: [minimize cost start] is
    scipy's TNC with the bounds (0, 10); the start is zero for the first image,
    afterwards the last result. *)
Definition nonlinear_coefficients (minimize : (vec -> R) -> vec -> vec) (w_curv w_pref : R) (n : nat) (A : matrix)
           (last : option vec) (rel : vec) : vec :=
  minimize (fun s => cost w_curv w_pref A s rel) (match last with None => repeat 0 n | Some s => s end).
