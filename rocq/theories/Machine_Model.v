(** The distances through the layers with the arithmetic of the machine.
    Source: ledsa/analysis/Experiment.py *)
From Coq Require Import List Reals.
From Verif Require Import Base Layers_Model.
Import ListNotations.
Local Open Scope R_scope.

(** What numpy computes instead of the exact operations: [rnd] rounds the result
    of an addition, subtraction, multiplication or division, [m_right] is the
    arcus tangent of infinity, [m_sum] is np.sum.  Experiment.py:179-180, 224
    and 263-265. *)
Record machine := Machine {
  rnd : R -> R;
  m_sqrt : R -> R;
  m_atan : R -> R;
  m_right : R;
  m_sin : R -> R;
  m_sum : list R -> R }.

(** [(a - b) ** 2], Experiment.py:179, 200 and 263-265 *)
Definition m_square (m : machine) (a b : R) : R := rnd m (rnd m (a - b) * rnd m (a - b)).

(** Experiment.py:179 and 200 *)
Definition m_horizontal (m : machine) (cam led : point) : R :=
  m_sqrt m (rnd m (m_square m (px cam) (px led) + m_square m (py cam) (py led))).

(** Experiment.py:263-265 *)
Definition m_euclid (m : machine) (cam led : point) : R :=
  m_sqrt m (rnd m (rnd m (m_square m (px cam) (px led) + m_square m (py cam) (py led)) + m_square m (pz cam) (pz led))).

(** The angle, Experiment.py:180, as in Layers_Model. *)
Definition m_angle (m : machine) (cam led : point) : option R :=
  let dz := rnd m (pz led - pz cam) in
  let hd := m_horizontal m cam led in
  if Req_EM_T hd 0 then
    if Req_EM_T dz 0 then None
    else if Rlt_dec 0 dz then Some (m_right m) else Some (- m_right m)
  else Some (m_atan m (rnd m (dz / hd))).

(** [calc_traversed_height_in_layer], Experiment.py:228-248 *)
Definition m_height (m : machine) (cam_z led_z : R) (l : R * R) : R :=
  let h := rnd m (Rmin (Rmax cam_z led_z) (snd l) - Rmax (Rmin cam_z led_z) (fst l)) in
  if Rlt_dec h 0 then 0 else h.

(** [calc_traversed_dist_in_plane], Experiment.py:190-206 *)
Definition m_in_plane (m : machine) (ls : list (R * R)) (cam led : point) : list R :=
  map (fun l => if in_layer l (pz cam) then m_horizontal m cam led else 0) ls.

(** [calc_traversed_dist_per_layer_with_nonzero_alpha], Experiment.py:208-226 *)
Definition m_with_angle (m : machine) (ls : list (R * R)) (alpha : R) (cam led : point) : list R :=
  map (fun l => Rabs (rnd m (m_height m (pz cam) (pz led) l / m_sin m alpha))) ls.

(** [distance_calculation_is_consistent], Experiment.py:250-271; the constant
    1e-6 is taken as exact. *)
Definition m_consistent (m : machine) (ds : list R) (cam led : point) : bool :=
  if Rlt_dec (1 / 1000000) (Rabs (rnd m (m_sum m ds - m_euclid m cam led))) then false else true.

(** [calc_traversed_dist_per_layer], Experiment.py:170-188 *)
Definition m_distances (m : machine) (ls : list (R * R)) (cam led : point) : distances :=
  match m_angle m cam led with
  | None => NanRow
  | Some alpha =>
      let ds := if Req_EM_T alpha 0 then m_in_plane m ls cam led else m_with_angle m ls alpha cam led in
      if m_consistent m ds cam led then Row ds else NoRow
  end.
