(** Step 3: measuring the LEDs of one image.
    Source: ledsa/data_extraction/step_3_functions.py *)
From Coq Require Import List ZArith QArith Lia Bool.
From Verif Require Import Base Step1_Model Step2_Model.
Import ListNotations.
Local Open Scope Z_scope.

(** [data[search_area]], step_3_functions.py:138-141: rows of the selected area
    (numpy slices, so negative starts count from the end). *)
Definition area (img : image) (r y x : Z) : list (list Z) :=
  map (fun y' => map (fun x' => px img y' x') (slice_indices (iw img) (x - r) (x + r)))
      (slice_indices (ih img) (y - r) (y + r)).

(** [np.sum]; numpy sums small integers in 64 bits, so no overflow is modelled.  step_3_functions.py:159. *)
Definition np_sum (l : list Z) : Z := fold_left Z.add l 0.

(** [np.amax]: raises ValueError for an empty array.  step_3_functions.py:160. *)
Definition np_amax (l : list Z) : res Z :=
  match l with [] => Err ValueError | x :: l' => Ok (fold_left Z.max l' x) end.

(** [LEDAnalysisData], LEDAnalysisData.py:26-48.  [F] is whatever the fit
    yields (fit_results, led_center_x/y, fit_time); absent in fast mode.  The
    mean of an empty area (NaN) never reaches a record, see [np_amax]. *)
Record led_data (F : Type) := LedData {
  d_id : Z; d_array : Z; d_sum : Z; d_mean : Q; d_max : Z; d_fit : option F }.
Arguments LedData {F}. Arguments d_id {F}. Arguments d_array {F}. Arguments d_sum {F}.
Arguments d_mean {F}. Arguments d_max {F}. Arguments d_fit {F}.

(** [_generate_led_analysis_data], step_3_functions.py:110-162.  The optimiser
    call [_fit_model_to_led] (222-244) is the argument [fit] ([None]: fast mode);
    logging of unsuccessful fits is not modelled. *)
Definition analyse_led {F} (fit : option (list (list Z) -> res F)) (img : image) (r : Z)
           (areas : list row) (iled led_array : Z) : res (led_data F) :=
  bind (np_index areas iled) (fun a =>
  let '(_, (y, x)) := a in
  let sa := area img r y x in
  bind (match fit with None => Ok None | Some f => res_map Some (f sa) end) (fun fr =>
  let ps := concat sa in
  bind (np_amax ps) (fun m =>
  Ok (LedData iled led_array (np_sum ps) (np_sum ps # Pos.of_nat (length ps)) m fr)))).

(** Inner loop over the LEDs of one array, step_3_functions.py:52-57.
    ([num_skip_leds = -1] makes numpy divide by zero; not modelled.) *)
Fixpoint led_loop {F} (fit : option (list (list Z) -> res F)) img r areas (skip idx : Z) (leds : list Z)
  : res (list (led_data F)) :=
  match leds with
  | [] => Ok []
  | iled :: l =>
    if iled mod (skip + 1) =? 0
    then bind (analyse_led fit img r areas iled idx) (fun d =>
         bind (led_loop fit img r areas skip idx l) (fun ds => Ok (d :: ds)))
    else led_loop fit img r areas skip idx l
  end.

(** Outer loop over the arrays, step_3_functions.py:50-58. *)
Fixpoint array_loop {F} (fit : option (list (list Z) -> res F)) img r areas (skip idx : Z) (arrays : list (list Z))
  : res (list (led_data F)) :=
  match arrays with
  | [] => Ok []
  | a :: l =>
    bind (led_loop fit img r areas skip idx a) (fun d1 =>
    bind (array_loop fit img r areas skip (idx + 1) l) (fun d2 => Ok (d1 ++ d2)))
  end.

(** [generate_analysis_data], step_3_functions.py:17-58 (without debug mode).
    [img] is the channel image that was read. *)
Definition generate_analysis_data {F} (fit : option (list (list Z) -> res F)) (img : image) (r : Z)
           (areas : list row) (arrays : list (list Z)) (skip : Z) : res (list (led_data F)) :=
  array_loop fit img r areas skip 0 arrays.
