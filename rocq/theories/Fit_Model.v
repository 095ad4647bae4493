(** The light spot that is fitted to every LED and the cost of a fit, with exact
    real arithmetic.
    Source: ledsa/data_extraction/model.py (lines 7-103),
    ledsa/data_extraction/step_3_functions.py (143-150, 222-244) *)
From Coq Require Import List Arith Bool Reals Lra.
From Verif Require Import Base.
Import ListNotations.
Local Open Scope R_scope.

(** [np.arctan2(y, x)], used in model.py:96.  Signed zeros are not modelled. *)
Definition atan2 (y x : R) : R :=
  if Rlt_dec 0 x then atan (y / x)
  else if Rlt_dec x 0 then (if Rle_dec 0 y then atan (y / x) + PI else atan (y / x) - PI)
  else if Rlt_dec 0 y then PI / 2
  else if Rlt_dec y 0 then - (PI / 2)
  else 0.

(** The parameters in the order of the array [params], model.py:44 *)
Record params := Params {
  p_x0 : R; p_y0 : R; p_dx : R; p_dy : R; p_a : R; p_alpha : R; p_wx : R; p_wy : R }.

(** [dr] and [dw], model.py:98-99.  Numpy gives nan or inf if the root
    vanishes, which needs a zero extent; the theorems exclude zero extents. *)
Definition radius (d e phi : R) : R := d * e / sqrt (Rsqr (d * cos phi) + Rsqr (e * sin phi)).

(** [led_model], model.py:60-103 *)
Definition led_model (p : params) (x y : R) : R :=
  let nx := x - p_x0 p in
  let ny := y - p_y0 p in
  let r := sqrt (Rsqr nx + Rsqr ny) in
  let phi := atan2 ny nx + PI + p_alpha p in
  let dr := radius (p_dx p) (p_dy p) phi in
  let dw := radius (p_wx p) (p_wy p) phi in
  p_a p * (1 / 2) * (1 - tanh ((r - dr) / dw)).

(** The values of a two-dimensional array, row by row.  model.py:36-41. *)
Definition cells (n m : nat) (f : nat -> nat -> R) : list R :=
  flat_map (fun i => map (f i) (seq 0 m)) (seq 0 n).

(** [np.sum], model.py:40. *)
Definition rsum (l : list R) : R := fold_right Rplus 0 l.

(** [np.max]; the arrays are not empty where it is used.  model.py:33-37. *)
Definition rmax (l : list R) : R := match l with [] => 0 | x :: l' => fold_right Rmax x l' end.

(** [np.linspace(0.5, n - 0.5, n)[i]], step_3_functions.py:237-238 *)
Definition mid (i : nat) : R := INR i + 1 / 2.

(** [data[data < 0.05 * np.max(data)] = 0], model.py:37 *)
Definition threshold (n m : nat) (d : nat -> nat -> R) (i j : nat) : R :=
  if Rlt_dec (d i j) (5 / 100 * rmax (cells n m d)) then 0 else d i j.

(** The differences [data - led_model(x, y, *params)], model.py:40.  [data] has
    [n] rows and [m] columns; [np.meshgrid(x, y)] gives arrays with [m] rows and
    [n] columns, whose entry (i, j) is the point (x[j], y[i])
    (step_3_functions.py:239).  Numpy broadcasts the two shapes: they have to
    be equal, or one side of the area is 1. *)
Definition differences (p : params) (n m : nat) (d : nat -> nat -> R) : res (list R) :=
  let model i j := led_model p (mid j) (mid i) in
  if (n =? m)%nat then Ok (cells n m (fun i j => d i j - model i j))
  else if (n =? 1)%nat then Ok (cells m m (fun i j => d 0%nat j - model i 0%nat))
  else if (m =? 1)%nat then Ok (cells n n (fun i j => d i 0%nat - model 0%nat j))
  else Err ValueError.

(** The penalty terms, model.py:42-56; [nx] and [ny] are the largest mesh
    coordinates (lines 33-34).  1/0 is not modelled (zero extents excluded in
    the theorems). *)
Definition outside (v lo hi : R) : bool :=
  if Rlt_dec v lo then true else if Rlt_dec hi v then true else false.
(** [v < b], model.py:46-54. *)
Definition below (v b : R) : bool := if Rlt_dec v b then true else false.

(** model.py:42-55. *)
Definition penalty (nx ny : R) (p : params) : R :=
  (if (outside (p_x0 p) 0 nx || outside (p_y0 p) 0 ny)%bool
   then 1000 * Rabs (p_x0 p - nx) + 1000 * Rabs (p_y0 p - ny) else 0) +
  (if (below (p_dx p) 1 || below (p_dy p) 1)%bool
   then 1 / Rabs (p_dx p) ^ 4 + 1 / Rabs (p_dy p) ^ 4 else 0) +
  (if (below (p_wx p) (1 / 1000) || below (p_wy p) (1 / 1000))%bool
   then Rabs (p_wx p - 1 / 1000) * 1000000 + Rabs (p_wy p - 1 / 1000) * 1000000 else 0) +
  (if below (PI / 2) (Rabs (p_alpha p)) then (Rabs (p_alpha p) - PI / 2) * 1000000 else 0).

(** [target_function], model.py:7-58, for the mesh of [_fit_model_to_led]: the
    largest x is [mid (n - 1)], the largest y [mid (m - 1)].  [np.max] of an
    empty mesh raises ValueError. *)
Definition target (n m : nat) (d : nat -> nat -> R) (p : params) : res R :=
  if ((n =? 0)%nat || (m =? 0)%nat)%bool then Err ValueError
  else bind (differences p n m (threshold n m d)) (fun ds =>
       Ok (sqrt (rsum (map Rsqr ds)) / INR (n * m) + penalty (mid (n - 1)) (mid (m - 1)) p)).

(** The start of the optimisation, step_3_functions.py:234-236 *)
Definition start (n m : nat) : params :=
  Params (INR (n / 2)) (INR (m / 2)) 2 2 200 1 1 1.

(** [led_center_x] and [led_center_y], step_3_functions.py:148-149: [cx], [cy]
    are the row and the column of the LED's search area (columns 1 and 2 of the
    table of search areas). *)
Definition led_center (p : params) (cx cy r : R) : R * R := (p_x0 p + cx - r, p_y0 p + cy - r).
