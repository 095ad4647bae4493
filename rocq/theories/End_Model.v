(** The analysis of one LED array as a whole: LEDs and distances, intensities,
    references, the solver for every image.
    Source: ledsa/analysis/ExtinctionCoefficients.py,
    ExtinctionCoefficientsLinear.py, ExtinctionCoefficientsNonLinear.py, ledsa/core/parser_arguments_run.py:219-250 *)
From Coq Require Import ZArith QArith Qreals String List Bool Reals.
From Verif Require Import Base Table_Model Analysis_Model Layers_Model Solver_Model.
Import ListNotations.
Local Open Scope R_scope.

(** [distances[count] = d], ExtinctionCoefficients.py:171-173: a row of numbers;
    [None] stands for a row of nan, which is also what numpy makes of the value
    None. *)
Definition matrix_row (d : distances) : option vec :=
  match d with Row ds => Some ds | NoRow => None | NanRow => None end.

(** A relative intensity as [np.clip] takes it, Linear.py:54-56: an infinite
    value is clipped to 1 or to eps (as 1 and 0 are), nan ([None]) stays nan. *)
Definition rel_R (r : quot) : option R :=
  match r with Fin q => Some (Q2R q) | Inf true => Some 1 | Inf false => Some 0 | NaN => None end.

(** No nan among the values, as [nnls] requires (Linear.py:89). *)
Fixpoint all_some {A} (l : list (option A)) : option (list A) :=
  match l with
  | [] => Some []
  | Some a :: l' => match all_some l' with Some r => Some (a :: r) | None => None end
  | None :: _ => None
  end.

(** [calc_coefficients_of_img] of the linear solver, Linear.py:43-92: [nnls]
    raises a ValueError for nan and for a right-hand side of the wrong length.
    [n] is the number of columns; the coefficients of the last image are not
    used. *)
Definition solve_linear (nnls : matrix -> vec -> vec) (lambda : R) (n : nat) (A : list (option vec))
           (last : option vec) (rel : list quot) : res vec :=
  match all_some A, all_some (map rel_R rel) with
  | Some A', Some rel' =>
      if (length rel' =? length A')%nat then Ok (linear_coefficients nnls lambda n A' rel') else Err ValueError
  | _, _ => Err ValueError
  end.

(** [calc_and_set_ref_intensities], ExtinctionCoefficients.py:177-191, with any
    function in place of the exact mean; [ref_values mean] is [ref_intensities]. *)
Definition ref_values (avg : list cell -> cell) (ref : list entry) : list (Z * cell) :=
  map (fun g => (fst g, avg (map e_val (snd g)))) (groups e_led ref).

(** The coefficients of all images of array [a], parser_arguments_run.py:224-247
    with ExtinctionCoefficients.py:73-118; [avg] is the mean over the reference
    images, [dist] gives the distances of the line of sight to an LED, [solve A]
    is the solver with the distances [A].
    [file]: the index file of the array; [order]: the order in which a pool
    happens to work on the images.  The text file with the distances (line
    113-114) is not modelled. *)
Definition analyse_avg (avg : list cell -> cell) (dist : point -> distances) (solve : list (option vec) -> option vec -> list quot -> res vec) (coords : list point)
           (file : option (list Z)) (t : frame) (a : Z) (prop : string) (indices : option (list Z)) (num cpus : Z)
           (order : list nat) : res (list vec) :=
  bind (experiment_leds coords file) (fun leds =>
  bind (distance_array (fun p => matrix_row (dist p)) leds) (fun A =>
  bind (load_img_data t a prop) (fun es =>
  let ms := map snd (ref_values avg (reference_entries indices num es)) in
  if (1 <? cpus)%Z then parallel (solve A) order es ms
  else serial (solve A) es ms))).

(** The same with the exact mean, ExtinctionCoefficients.py:73-118 and 177-191. *)
Definition analyse_by (dist : point -> distances) (solve : list (option vec) -> option vec -> list quot -> res vec) (coords : list point)
           (file : option (list Z)) (t : frame) (a : Z) (prop : string) (indices : option (list Z)) (num cpus : Z)
           (order : list nat) : res (list vec) :=
  analyse_avg mean dist solve coords file t a prop indices num cpus order.

(** The same with exact distances, ExtinctionCoefficients.py:73-118 and
    Experiment.py:170-188. *)
Definition analyse_with (solve : list (option vec) -> option vec -> list quot -> res vec) (bot top : R) (n : nat) (cam : point) (coords : list point)
           (file : option (list Z)) (t : frame) (a : Z) (prop : string) (indices : option (list Z)) (num cpus : Z)
           (order : list nat) : res (list vec) :=
  analyse_by (traversed_distances (layers bot top n) cam) solve coords file t a prop indices num cpus order.

(** The same with the linear solver, parser_arguments_run.py:233-237. *)
Definition analyse_array (nnls : matrix -> vec -> vec) (lambda bot top : R) (n : nat) (cam : point) (coords : list point)
           (file : option (list Z)) (t : frame) (a : Z) (prop : string) (indices : option (list Z)) (num cpus : Z)
           (order : list nat) : res (list vec) :=
  analyse_with (solve_linear nnls lambda n) bot top n cam coords file t a prop indices num cpus order.

(** ** The non-linear solver *)

(** A relative intensity that is a number; [None]: infinite or nan, which
    [cost_function] (NonLinear.py:110-138) hands on. *)
Definition number (r : quot) : option R := match r with Fin q => Some (Q2R q) | _ => None end.

(** [intensities - target], NonLinear.py:127: equal lengths, or one of them is 1. *)
Definition np_pairs (a b : vec) : option (list (R * R)) :=
  if (length a =? length b)%nat then Some (combine a b)
  else match a, b with
       | [x], _ => Some (map (fun y => (x, y)) b)
       | _, [y] => Some (map (fun x => (x, y)) a)
       | _, _ => None
       end.

(** [cost_function], NonLinear.py:110-138, as [minimize] sees it; [None] stands
    for nan and infinity (a distance or an intensity is none, no LED, no
    layer). *)
Definition cost_seen (wc wp : R) (A : list (option vec)) (rel : list quot) (s : vec) : option R :=
  match all_some A, all_some (map number rel), s with
  | Some (row :: A'), Some target, _ :: _ =>
      match np_pairs (intensities (row :: A') s) target with
      | Some ps => Some (sqrt (rsum (map (fun p => Rsqr (fst p - snd p)) ps)) / INR (length (row :: A')) +
                         curvature wc (length (row :: A')) s + preference wp s)
      | None => None
      end
  | _, _, _ => None
  end.

(** [calc_coefficients_of_img] of the non-linear solver, NonLinear.py:58-81: the
    first call of the cost raises a ValueError for intensities of the wrong
    length.  [minimize] is scipy's TNC with the bounds (0, 10). *)
Definition solve_nonlinear (minimize : (vec -> option R) -> vec -> vec) (wc wp : R) (n : nat) (A : list (option vec))
           (last : option vec) (rel : list quot) : res vec :=
  if ((length rel =? length A) || (length rel =? 1) || (length A =? 1))%nat%bool
  then Ok (minimize (cost_seen wc wp A rel) (match last with None => repeat 0 n | Some s => s end))
  else Err ValueError.

(** The analysis of array [a] with it, parser_arguments_run.py:226-232. *)
Definition analyse_nonlinear (minimize : (vec -> option R) -> vec -> vec) (wc wp bot top : R) (n : nat) (cam : point) (coords : list point)
           (file : option (list Z)) (t : frame) (a : Z) (prop : string) (indices : option (list Z)) (num cpus : Z)
           (order : list nat) : res (list vec) :=
  analyse_with (solve_nonlinear minimize wc wp n) bot top n cam coords file t a prop indices num cpus order.
