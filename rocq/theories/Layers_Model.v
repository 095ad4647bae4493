(** Layers and distances through them, with exact real arithmetic.
    Source: ledsa/analysis/Experiment.py *)
From Coq Require Import List Reals Lra.
From Verif Require Import Base.
Import ListNotations.
Local Open Scope R_scope.

(** A position: x, y, z.  Experiment.py:70-84 (camera), 93-110 (LED). *)
Record point := Point { px : R; py : R; pz : R }.

(** [np.linspace(bottom, top, amount + 1)[i]], Experiment.py:56 *)
Definition border (bot top : R) (n i : nat) : R := bot + INR i * ((top - bot) / INR n).

(** All borders, Experiment.py:56 *)
Definition borders (bot top : R) (n : nat) : list R := map (border bot top n) (seq 0 (S n)).

(** The layers between neighbouring borders, as pairs (bottom, top),
    Experiment.py:57-58 *)
Definition layers_of (bs : list R) : list (R * R) := combine bs (tl bs).

(** The layers, Experiment.py:54-58 *)
Definition layers (bot top : R) (n : nat) : list (R * R) := layers_of (borders bot top n).

(** [Layer.__contains__], Experiment.py:31-33; the same test stands in line 204. *)
Definition in_layer (l : R * R) (z : R) : bool :=
  if Rle_dec (fst l) z then if Rlt_dec z (snd l) then true else false else false.

(** [np.sum] of a list of distances.  Experiment.py:263. *)
Fixpoint sum (l : list R) : R := match l with [] => 0 | x :: l' => x + sum l' end.

(** Experiment.py:179 and 200 *)
Definition horizontal_dist (cam led : point) : R :=
  sqrt (Rsqr (px cam - px led) + Rsqr (py cam - py led)).

(** The angle, Experiment.py:180.  The positions are numpy floats, so a
    division by zero gives an infinite value (angle +-pi/2) or, for 0/0, nan
    ([None]). *)
Definition angle (cam led : point) : option R :=
  let dz := pz led - pz cam in
  let hd := horizontal_dist cam led in
  if Req_EM_T hd 0 then
    if Req_EM_T dz 0 then None
    else if Rlt_dec 0 dz then Some (PI / 2) else Some (- (PI / 2))
  else Some (atan (dz / hd)).

(** [calc_traversed_height_in_layer], Experiment.py:228-248 *)
Definition traversed_height (cam_z led_z : R) (l : R * R) : R :=
  let top_end := Rmax cam_z led_z in
  let bot_end := Rmin cam_z led_z in
  let bot := Rmax bot_end (fst l) in
  let top := Rmin top_end (snd l) in
  let h := top - bot in
  if Rlt_dec h 0 then 0 else h.

(** [calc_traversed_dist_in_plane], Experiment.py:190-206 *)
Definition dist_in_plane (ls : list (R * R)) (cam led : point) : list R :=
  map (fun l => if in_layer l (pz cam) then horizontal_dist cam led else 0) ls.

(** [calc_traversed_dist_per_layer_with_nonzero_alpha], Experiment.py:208-226 *)
Definition dist_with_angle (ls : list (R * R)) (alpha : R) (cam led : point) : list R :=
  map (fun l => Rabs (traversed_height (pz cam) (pz led) l / sin alpha)) ls.

(** [distance_calculation_is_consistent], Experiment.py:250-271 *)
Definition consistent (ds : list R) (cam led : point) : bool :=
  if Rlt_dec (1 / 1000000)
       (Rabs (sum ds - sqrt (Rsqr (px cam - px led) + Rsqr (py cam - py led) + Rsqr (pz cam - pz led))))
  then false else true.

(** Outcome of [calc_traversed_dist_per_layer]: a row of numbers, the value
    None, or a row of nan (which passes the consistency check, because a
    comparison with nan is False).  Experiment.py:170-188. *)
Inductive distances := Row (ds : list R) | NoRow | NanRow.

(** [calc_traversed_dist_per_layer], Experiment.py:170-188 *)
Definition traversed_distances (ls : list (R * R)) (cam led : point) : distances :=
  match angle cam led with
  | None => NanRow
  | Some alpha =>
      let ds := if Req_EM_T alpha 0 then dist_in_plane ls cam led else dist_with_angle ls alpha cam led in
      if consistent ds cam led then Row ds else NoRow
  end.
