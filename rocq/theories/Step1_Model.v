(** Step 1: searching LEDs in the reference image.
    Source: ledsa/data_extraction/step_1_functions.py *)
From Coq Require Import List ZArith QArith Qround Lia Bool.
From Verif Require Import Base.
Import ListNotations.
Local Open Scope Z_scope.

(** A one-channel image: height, width and the pixel value at (row, column).
    Pixel values are integers (uint8 / int16 arrays in the code; the float
    arrays that matplotlib returns for PNG files are not modelled).
    step_1_functions.py:9-43. *)
Record image := Img { ih : Z; iw : Z; px : Z -> Z -> Z }.

(** Row-major list of all pixel values: what [np.percentile(image, q)] sees.
    step_1_functions.py:28 *)
Definition pixels (img : image) : list Z :=
  flat_map (fun y => map (fun x => px img y x) (zrange 0 (iw img))) (zrange 0 (ih img)).

(** Ascending sort (inside [np.percentile]).  step_1_functions.py:28. *)
Fixpoint insert (x : Z) (l : list Z) : list Z :=
  match l with
  | [] => [x]
  | y :: l' => if x <=? y then x :: l else y :: insert x l'
  end.

(** [np.sort] inside [np.percentile], step_1_functions.py:28. *)
Fixpoint sort (l : list Z) : list Z :=
  match l with [] => [] | x :: l' => insert x (sort l') end.

(** [np.percentile(a, q)] with the default linear interpolation.
    step_1_functions.py:28.  Exact rational arithmetic instead of float64. *)
Definition percentile (l : list Z) (q : Q) : res Q :=
  if negb (Qle_bool 0 q && Qle_bool q 100) then Err ValueError
  else match l with
  | [] => Err IndexError
  | _ =>
    let s := sort l in
    let n := Z.of_nat (length l) in
    let v := (q / 100 * inject_Z (n - 1))%Q in
    let lo := Qfloor v in
    let hi := Z.min (lo + 1) (n - 1) in
    let a := nth (Z.to_nat lo) s 0 in
    let b := nth (Z.to_nat hi) s 0 in
    Ok (inject_Z a + (v - inject_Z lo) * inject_Z (b - a))%Q
  end.

(** [max_pixel_value > threshold].  step_1_functions.py:34. *)
Definition above (v : Z) (t : Q) : bool := negb (Qle_bool (inject_Z v) t).

(** [image[y-r:y+r, x-r:x+r] = 0] with Python slice semantics.
    step_1_functions.py:37 *)
Definition clear (img : image) (r y x : Z) : image :=
  Img (ih img) (iw img)
    (fun y' x' => if in_slice (ih img) (y - r) (y + r) y'
                     && in_slice (iw img) (x - r) (x + r) x'
                  then 0 else px img y' x').

(** [cv2.minMaxLoc] is an argument of the model: it returns the maximum and its
    location as (x, y).  step_1_functions.py:27, 35. *)
Definition minmaxloc := image -> Z * (Z * Z).

(** The while loop, step_1_functions.py:34-40.  [k] is [max_n_leds - led_id];
    [maxv] is the loop-carried [max_pixel_value]. *)
Fixpoint search_loop (mml : minmaxloc) (thr : Q) (r : Z) (k : nat)
         (img : image) (maxv led_id : Z) : list (Z * Z * Z) :=
  match k with
  | O => []
  | S k' =>
    if above maxv thr then
      let '(m, (x, y)) := mml img in
      if above m thr
      then (led_id, y, x) :: search_loop mml thr r k' (clear img r y x) m (led_id + 1)
      else (* max_pixel_value := m, so the while condition is now false *) []
    else []
  end.

(** [find_search_areas], step_1_functions.py:9-43: rows (id, row, column) and
    the threshold.  An empty image makes OpenCV raise. *)
Definition find_search_areas (mml : minmaxloc) (img : image) (r : Z) (q : Q)
           (max_n_leds : Z) : res (list (Z * Z * Z) * Q) :=
  if (ih img <=? 0) || (iw img <=? 0) then Err CvError
  else
    let maxv := fst (mml img) in
    bind (percentile (pixels img) q) (fun thr =>
    Ok (search_loop mml thr r (Z.to_nat max_n_leds) img maxv 0, thr)).

(** A concrete [minMaxLoc]: row-major scan keeping the first maximum (OpenCV's
    reference behaviour); used to run the model.  step_1_functions.py:27, 35. *)
Definition scan_step (img : image) (acc : Z * (Z * Z)) (p : Z * Z) : Z * (Z * Z) :=
  let '(y, x) := p in
  if fst acc <? px img y x then (px img y x, (x, y)) else acc.

(** The positions in row-major order, step_1_functions.py:27, 35. *)
Definition positions (img : image) : list (Z * Z) :=
  flat_map (fun y => map (fun x => (y, x)) (zrange 0 (iw img))) (zrange 0 (ih img)).

(** The scan over the whole image, step_1_functions.py:27, 35. *)
Definition scan (img : image) : Z * (Z * Z) :=
  fold_left (scan_step img) (positions img) (px img 0 0, (0, 0)).

(** Images given as lists of rows (for examples).  step_1_functions.py:9-43. *)
Definition img_of_rows (rows : list (list Z)) : image :=
  Img (Z.of_nat (length rows)) (Z.of_nat (length (hd [] rows)))
      (fun y x => nth (Z.to_nat x) (nth (Z.to_nat y) rows []) 0).
