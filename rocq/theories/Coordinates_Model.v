(** 3D and 2D coordinates of the LEDs, exact real arithmetic.
    Source: ledsa/ledpositions/coordinates.py *)
From Coq Require Import ZArith List Reals Lra.
From Verif Require Import Base.
Import ListNotations.
Local Open Scope R_scope.

(** Pixel position (two columns of the search areas), coordinates.py:99 *)
Definition pix := (R * R)%type.

(** Position in the room, coordinates.py:98 *)
Definition pos := (R * R * R)%type.

(** One row of the padded search areas: id, pixel position, room position;
    coordinates.py:80-82 *)
Record led := Led { l_id : Z; l_pix : pix; l_pos : pos }.

(** [np.pad(..., constant_values=(-1, -1))], coordinates.py:82 *)
Definition pad (areas : list (Z * pix)) : list led :=
  map (fun a => Led (fst a) (snd a) (-1, -1, -1)) areas.

(** [search_areas[idx, 1], search_areas[idx, 2]] with
    [idx = np.where(search_areas[:, 0] == led)[0]], coordinates.py:97-99 and
    113-114.  No row or more than one row: the later [reshape] or [dot] fails
    with a ValueError. *)
Definition find_pix (rows : list led) (id : Z) : res pix :=
  match filter (fun r => (l_id r =? id)%Z) rows with
  | [r] => Ok (l_pix r)
  | _ => Err ValueError
  end.

(** A 3x2 matrix, one pair per row, coordinates.py:42-43 *)
Definition mat32 := (pix * pix * pix)%type.

(** [conversion_matrix], coordinates.py:31-43: the solution of the 2x2 system
    by Cramer's rule; [linalg.solve] raises LinAlgError for a singular matrix
    (in floating point only for an exactly singular one). *)
Definition conversion_matrix (p1 p2 : pix) (q1 q2 : pos) : res mat32 :=
  let '(x1, y1) := p1 in
  let '(x2, y2) := p2 in
  let '(a1, b1, c1) := q1 in
  let '(a2, b2, c2) := q2 in
  let det := x1 * y2 - x2 * y1 in
  let column u1 u2 := ((u1 * y2 - u2 * y1) / det, (x1 * u2 - x2 * u1) / det) in
  if Req_EM_T det 0 then Err LinAlgError else Ok (column a1 a2, column b1 b2, column c1 c2).

(** [x @ pix_pos], coordinates.py:116 *)
Definition apply_matrix (m : mat32) (p : pix) : pos :=
  let '(r1, r2, r3) := m in
  (fst r1 * fst p + snd r1 * snd p, fst r2 * fst p + snd r2 * snd p, fst r3 * fst p + snd r3 * snd p).

(** [get_led_array], coordinates.py:45-54 *)
Definition direction (p1 p2 : pix) : pix := (fst p2 - fst p1, snd p2 - snd p1).

(** [_orth_projection], coordinates.py:139-160 *)
Definition orth_projection (p d p0 : pix) : pix :=
  let norm := sqrt (fst d * fst d + snd d * snd d) in
  let hx := fst d / norm in
  let hy := snd d / norm in
  let c0 := fst p0 * hx + snd p0 * hy in
  let ax := fst p0 - c0 * hx in
  let ay := snd p0 - c0 * hy in
  let c := fst p * hx + snd p * hy in
  (c * hx + ax, c * hy + ay).

(** [search_areas[idx, -3:] = pos], coordinates.py:117 *)
Definition set_pos (rows : list led) (id : Z) (q : pos) : list led :=
  map (fun r => if (l_id r =? id)%Z then Led (l_id r) (l_pix r) q else r) rows.

(** Loop over the LEDs of an array, coordinates.py:112-117 *)
Fixpoint place_leds (m : mat32) (d p0 : pix) (ids : list Z) (rows : list led) : res (list led) :=
  match ids with
  | [] => Ok rows
  | id :: ids' =>
    bind (find_pix rows id) (fun p =>
    place_leds m d p0 ids' (set_pos rows id (apply_matrix m (orth_projection p d p0))))
  end.

(** One round of the loop over the arrays, coordinates.py:91-117.  [ids] is the
    content of the index file.  An empty file gives an empty array: indexing with
    -1 fails.  With one number ([np.atleast_1d], file_handling.py:114) both edges are
    the same LED. *)
Definition place_array (q1 q2 : pos) (ids : list Z) (rows : list led) : res (list led) :=
  match ids with
  | [] => Err IndexError
  | first :: _ =>
    bind (find_pix rows (last ids first)) (fun p1 =>
    bind (find_pix rows first) (fun p2 =>
    bind (conversion_matrix p1 p2 q1 q2) (fun m =>
    place_leds m (direction p1 p2) p1 ids rows)))
  end.

(** The loop, coordinates.py:90-118: [files] are the index files of the arrays
    [0 .. num_arrays - 1] ([None]: missing), [coords] the rows of
    led_array_edge_coordinates; too few rows give an IndexError. *)
Fixpoint place_arrays (files : list (option (list Z))) (coords : list (pos * pos)) (rows : list led) : res (list led) :=
  match files with
  | [] => Ok rows
  | None :: _ => Err FileNotFoundError
  | Some ids :: files' =>
    match ids, coords with
    | [], _ => Err IndexError
    | _, [] => Err IndexError
    | _, (q1, q2) :: coords' => bind (place_array q1 q2 ids rows) (place_arrays files' coords')
    end
  end.

(** [_calculate_3d_coordinates], coordinates.py:72-118 *)
Definition calculate_3d (areas : list (Z * pix)) (files : list (option (list Z))) (coords : list (pos * pos)) : res (list led) :=
  place_arrays files coords (pad areas).

(** ** 2D coordinates *)

(** A 3 x m array: three rows, coordinates.py:132-136 *)
Definition arr3 := (list R * list R * list R)%type.

(** [points.T] for the [n x 3] array of the positions, coordinates.py:60, 133 *)
Definition transposed (ps : list pos) : arr3 :=
  (map (fun p => fst (fst p)) ps, map (fun p => snd (fst p)) ps, map snd ps).

(** [points] as an array of three rows: transposed unless there are exactly
    three points, coordinates.py:132-133.  (With any other number of points
    the array is transposed, so this covers all cases.) *)
Definition points_array (ps : list pos) : arr3 :=
  match ps with
  | [p1; p2; p3] =>
    let row (p : pos) := [fst (fst p); snd (fst p); snd p] in (row p1, row p2, row p3)
  | _ => transposed ps
  end.

(** Coefficients a, b and d of the plane; c is 0 ([np.insert]),
    coordinates.py:171-176 *)
Record plane := Plane { pa : R; pb : R; pd : R }.

(** [_project_points_to_plane], coordinates.py:179-195, one column. *)
Definition project (pl : plane) (x y : R) : R * R :=
  let t := - (pa pl * x + pb pl * y + pd pl) / (pa pl * pa pl + pb pl * pb pl) in
  (x + pa pl * t, y + pb pl * t).

(** All columns; the third coefficient of the plane is 0, coordinates.py:190-195 *)
Definition project_array (pl : plane) (a : arr3) : arr3 :=
  let '(xs, ys, zs) := a in
  let ps := map (fun p => project pl (fst p) (snd p)) (combine xs ys) in
  (map fst ps, map snd ps, map (fun z => z + 0) zs).

(** One width before the shift, coordinates.py:212-216 *)
Definition raw_width (pl : plane) (x y : R) : R :=
  let y' := y + pd pl / pb pl in
  sqrt (x * x + y' * y') / ((0 * pa pl + 1 * pb pl) / sqrt (pa pl * pa pl + pb pl * pb pl)).

(** [np.min] of a non-empty array, coordinates.py:219 *)
Fixpoint minimum (x : R) (l : list R) : R := match l with [] => x | y :: l' => minimum (Rmin x y) l' end.

(** [_get_plane_coordinates], coordinates.py:199-222: widths and heights; the
    minimum of no width is a ValueError. *)
Definition plane_coordinates (pl : plane) (a : arr3) : res (list R * list R) :=
  let '(xs, ys, zs) := a in
  let ws := map (fun p => raw_width pl (fst p) (snd p)) (combine xs ys) in
  match ws with
  | [] => Err ValueError
  | w :: ws' => Ok (map (fun v => v - minimum w ws') ws, zs)
  end.

(** [_calculate_2d_coordinates], coordinates.py:123-136; [fit] stands for
    [_fit_plane] (scipy's [curve_fit]), coordinates.py:162-176.  [b = 0] would
    give infinite values in [_fit_plane] and is not modelled. *)
Definition calculate_2d (fit : arr3 -> plane) (ps : list pos) : res (list R * list R) :=
  let a := points_array ps in
  let pl := fit a in
  plane_coordinates pl (project_array pl a).

(** [calculate_coordinates], coordinates.py:57-66, without the file output:
    every row of the table with its width and height. *)
Definition calculate_coordinates (fit : arr3 -> plane) (areas : list (Z * pix)) (files : list (option (list Z)))
           (coords : list (pos * pos)) : res (list (led * (R * R))) :=
  bind (calculate_3d areas files coords) (fun rows =>
  bind (calculate_2d fit (map l_pos rows)) (fun wh =>
  Ok (combine rows (combine (fst wh) (snd wh))))).
