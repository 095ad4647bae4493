(** From the binary table to relative intensities; distance rows; the loop over
    the images.
    Source: ledsa/analysis/ExtinctionCoefficients.py, Experiment.py:273-313,
    ledsa/data_extraction/data_integrity.py *)
From Coq Require Import ZArith QArith Qabs Lia Bool String List.
From Verif Require Import Base Step2_Model Table_Model.
Import ListNotations.
Local Open Scope string_scope.
Local Open Scope Z_scope.

(** ** LEDs of the experiment and distance rows *)

(** [get_led_ids] and [get_led_positions], Experiment.py:273-313.  [file] is the
    content of the index file of the array ([None]: missing, an IOError that is
    caught and leaves the experiment without LEDs), [coords] the rows of
    led_search_areas_with_coordinates.csv.  A file with one id is read as a
    0-dimensional array that cannot be iterated; for an empty one the column
    access [:, 3] fails. *)
Definition experiment_leds {P} (coords : list P) (file : option (list Z)) : res (option (list (Z * P))) :=
  match file with
  | None => Ok None
  | Some [] => Err IndexError
  | Some [_] => Err TypeError
  | Some ids => bind (mapM (np_index coords) ids) (fun ps => Ok (Some (combine ids ps)))
  end.

(** [calc_distance_array], ExtinctionCoefficients.py:161-175; without LEDs the
    number of rows is None. *)
Definition distance_array {P D} (dist : P -> D) (leds : option (list (Z * P))) : res (list D) :=
  match leds with
  | None => Err TypeError
  | Some l => Ok (map (fun led => dist (snd led)) (rev l))
  end.

(** ** Intensities *)

(** One value of the cropped table: index (img_id, led_id) and value.
    ExtinctionCoefficients.py:130-131. *)
Definition entry := (Z * Z * cell)%type.
(** Index level img_id, ExtinctionCoefficients.py:80, 183. *)
Definition e_img (e : entry) : Z := fst (fst e).
(** Index level led_id, ExtinctionCoefficients.py:189. *)
Definition e_led (e : entry) : Z := snd (fst e).
(** The value, ExtinctionCoefficients.py:81. *)
Definition e_val (e : entry) : cell := snd e.

(** [img_data_cropped['led_array_id'] == led_array], ExtinctionCoefficients.py:131. *)
Definition has_array (cs : list string) (a : Z) (row : list cell) : bool :=
  match get cs row "led_array_id" with Some (Some q) => Qeq_bool q (inject_Z a) | _ => false end.

(** [img_data[['led_array_id', reference_property]]] for one row, ExtinctionCoefficients.py:130. *)
Definition entry_of (cs : list string) (prop : string) (row : list cell) : res entry :=
  match get cs row "img_id", get cs row "led_id", get cs row prop with
  | Some (Some i), Some (Some l), Some v => Ok (Qtrunc i, Qtrunc l, v)
  | _, _, _ => Err KeyError
  end.

(** [load_img_data], ExtinctionCoefficients.py:120-133 *)
Definition load_img_data (t : frame) (a : Z) (prop : string) : res (list entry) :=
  match col_index "led_array_id" (cols t), col_index prop (cols t) with
  | Some _, Some _ =>
    bind (mapM (entry_of (cols t) prop) (filter (has_array (cols t) a) (rows t))) (fun es =>
    match es with [] => Err SystemExit | _ => Ok es end)
  | _, _ => Err KeyError
  end.

(** Keys of a [groupby]: distinct and ascending.
    ExtinctionCoefficients.py:80, 189, 240-241. *)
Fixpoint insert_key (k : Z) (ks : list Z) : list Z :=
  match ks with
  | [] => [k]
  | x :: ks' => if k <? x then k :: ks else if k =? x then ks else x :: insert_key k ks'
  end.
(** All keys of a [groupby], ExtinctionCoefficients.py:80, 189, 240-241. *)
Definition keys (l : list Z) : list Z := fold_right insert_key [] l.

(** [groupby(level=...)]: the order within a group is kept.
    ExtinctionCoefficients.py:80, 189, 240-241. *)
Definition groups (key : entry -> Z) (es : list entry) : list (Z * list entry) :=
  map (fun k => (k, filter (fun e => key e =? k) es)) (keys (map key es)).

(** pandas [mean]: NaN values are skipped.  ExtinctionCoefficients.py:189. *)
Definition numbers (vs : list cell) : list Q := flat_map (fun v => match v with Some q => [q] | None => [] end) vs.
(** Sum of the numbers of a mean, ExtinctionCoefficients.py:189. *)
Definition qsum (qs : list Q) : Q := fold_right Qplus 0%Q qs.
(** [mean()], ExtinctionCoefficients.py:189. *)
Definition mean (vs : list cell) : cell :=
  match numbers vs with
  | [] => None
  | qs => Some (qsum qs / inject_Z (Z.of_nat (List.length qs)))%Q
  end.

(** Reference images, ExtinctionCoefficients.py:182-185: the listed ones, or
    those with an id up to the given number. *)
Definition reference_entries (indices : option (list Z)) (num : Z) (es : list entry) : list entry :=
  filter (fun e => match indices with
                   | Some is => existsb (Z.eqb (e_img e)) is
                   | None => e_img e <=? num
                   end) es.

(** [calc_and_set_ref_intensities], ExtinctionCoefficients.py:177-191: LED id
    and mean, ascending by LED id. *)
Definition ref_intensities (ref : list entry) : list (Z * cell) :=
  map (fun g => (fst g, mean (map e_val (snd g)))) (groups e_led ref).

(** [check_intensity_normalization], data_integrity.py:6-42: the (img_id,
    led_id) pairs that are reported.  x/0 is infinite (reported), 0/0 and NaN
    are not.  The tolerance 0.075 is taken as the exact fraction. *)
Definition exceeds (tol : Q) (m v : cell) : bool :=
  match m, v with
  | Some m, Some v =>
      if Qeq_bool m 0 then negb (Qeq_bool v 0)
      else negb (Qle_bool (Qabs (v - m) / Qabs m) tol)
  | _, _ => false
  end.

(** The mean of one LED, data_integrity.py:24. *)
Fixpoint lookup (k : Z) (l : list (Z * cell)) : cell :=
  match l with [] => None | (x, v) :: l' => if x =? k then v else lookup k l' end.

(** The reported pairs, data_integrity.py:24-42. *)
Definition normalization_hits (tol : Q) (ref : list entry) (means : list (Z * cell)) : list (Z * Z) :=
  map (fun e => (e_img e, e_led e)) (filter (fun e => exceeds tol (lookup (e_led e) means) (e_val e)) ref).

(** The result of a division of two floats in numpy, ExtinctionCoefficients.py:82, 98. *)
Inductive quot := Fin (q : Q) | Inf (positive : bool) | NaN.

(** Element-wise division, ExtinctionCoefficients.py:82, 98.  A mean of 0 is a
    positive zero. *)
Definition cell_div (v m : cell) : quot :=
  match v, m with
  | Some v, Some m =>
      if Qeq_bool m 0 then if Qeq_bool v 0 then NaN else Inf (Qle_bool 0 v)
      else Fin (v / m)%Q
  | _, _ => NaN
  end.

(** [array / self.ref_intensities]: equal lengths, or one of them is 1.
    ExtinctionCoefficients.py:82, 98. *)
Definition np_div (vs ms : list cell) : res (list quot) :=
  if (List.length vs =? List.length ms)%nat then Ok (map (fun p => cell_div (fst p) (snd p)) (combine vs ms))
  else match ms, vs with
       | [m], _ => Ok (map (fun v => cell_div v m) vs)
       | _, [v] => Ok (map (cell_div v) ms)
       | _, _ => Err ValueError
       end.

(** ** The loop over the images.  [solve start rel] is the child class's
    [calc_coefficients_of_img]; [start] are the coefficients of the last image
    that are stored in the object ([None]: the list is still empty). *)

(** [calc_and_set_coefficients], ExtinctionCoefficients.py:73-86 *)
Fixpoint serial_loop {C} (solve : option C -> list quot -> res C) (ms : list cell) (last : option C)
         (gs : list (Z * list entry)) : res (list C) :=
  match gs with
  | [] => Ok []
  | (_, es) :: gs' =>
    bind (np_div (map e_val es) ms) (fun rel =>
    bind (solve last rel) (fun s =>
    bind (serial_loop solve ms (Some s) gs') (fun ss => Ok (s :: ss))))
  end.

(** [calc_and_set_coefficients] with the values loaded, ExtinctionCoefficients.py:79-86. *)
Definition serial {C} (solve : option C -> list quot -> res C) (es : list entry) (ms : list cell) : res (list C) :=
  serial_loop solve ms None (groups e_img es).

(** [multiindex_series_to_nparray], ExtinctionCoefficients.py:231-245: the
    sizes are those of the first image and of the first LED; row [i] is
    [multi_series.loc[i + 1]] (KeyError if there is no such image), which has
    to have as many values as the first image, or one. *)
Definition to_array (es : list entry) : res (list (list cell)) :=
  match groups e_img es, groups e_led es with
  | (_, g1) :: _, (_, l1) :: _ =>
    let num_leds := List.length g1 in
    mapM (fun i =>
      let vs := map e_val (filter (fun e => e_img e =? i) es) in
      match vs with
      | [] => Err KeyError
      | [v] => Ok (repeat v num_leds)
      | _ => if (List.length vs =? num_leds)%nat then Ok vs else Err ValueError
      end) (zrange 1 (Z.of_nat (List.length l1) + 1))
  | _, _ => Err IndexError
  end.

(** [calc_and_set_coefficients_mp], ExtinctionCoefficients.py:88-104: the
    quotient is taken for the whole array; [pool.map] gives every image to some
    worker, which works on a copy of the object whose list of coefficients is
    empty, and puts the results in order.  [order] is the order in which the
    images happen to be worked on. *)
Fixpoint collect {C} (results : list (nat * res C)) (k : nat) : option (res C) :=
  match results with
  | [] => None
  | (j, r) :: l => if (j =? k)%nat then Some r else collect l k
  end.

(** [pool.map], ExtinctionCoefficients.py:101-103. *)
Definition pool_map {A C} (f : A -> res C) (order : list nat) (tasks : list A) : res (list C) :=
  let results := flat_map (fun k => match nth_error tasks k with Some a => [(k, f a)] | None => [] end) order in
  mapM (fun k => match collect results k with Some r => r | None => Err OutOfFuel end) (seq 0 (List.length tasks)).

(** [calc_and_set_coefficients_mp] with the values loaded, ExtinctionCoefficients.py:96-104. *)
Definition parallel {C} (solve : option C -> list quot -> res C) (order : list nat) (es : list entry) (ms : list cell) : res (list C) :=
  bind (to_array es) (fun arr =>
  bind (mapM (fun vs => np_div vs ms) arr) (fun rels =>
  pool_map (solve None) order rels)).
