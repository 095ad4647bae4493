(** An object of class ExtinctionCoefficients over several calls of its methods.
    Source: ledsa/analysis/ExtinctionCoefficients.py:41-118, 135-159 *)
From Coq Require Import ZArith QArith Bool List.
From Verif Require Import Base Table_Model Analysis_Model.
Import ListNotations.
Local Open Scope Z_scope.

(** The attributes that the methods change, ExtinctionCoefficients.py:55-63.  An
    empty list is an attribute that is not set yet. *)
Record obj (D C : Type) := Obj {
  o_dist : list D;         (** distances_per_led_and_layer *)
  o_img : list entry;      (** calculated_img_data *)
  o_ref : list cell;       (** ref_intensities *)
  o_coef : list C          (** coefficients_per_image_and_layer *)
}.
Arguments Obj {D C}.
Arguments o_dist {D C}.
Arguments o_img {D C}.
Arguments o_ref {D C}.
Arguments o_coef {D C}.

(** A new object, ExtinctionCoefficients.py:55-63. *)
Definition new_obj {D C} : obj D C := Obj [] [] [] [].

(** What the files give at the time of a call: [calc_distance_array]
    (ExtinctionCoefficients.py:161-175), [load_img_data] (120-133) and the times of
    the images (247-252). *)
Record world (D : Type) := World {
  w_dist : res (list D);
  w_img : res (list entry);
  w_times : res (list Q)
}.
Arguments World {D}.
Arguments w_dist {D}.
Arguments w_img {D}.
Arguments w_times {D}.

(** [set_all_member_variables], ExtinctionCoefficients.py:106-118: what is set is
    not computed again; after a failure the attributes set before keep their new
    values.  [indices] and [num] are ref_img_indices and num_ref_imgs (177-191). *)
Definition set_dist {D C} (w : world D) (o : obj D C) : res (obj D C) :=
  match o_dist o with
  | [] => bind (w_dist w) (fun d => Ok (Obj d (o_img o) (o_ref o) (o_coef o)))
  | _ => Ok o
  end.
(** Loading of the image data, ExtinctionCoefficients.py:115-116. *)
Definition set_img {D C} (w : world D) (o : obj D C) : res (obj D C) :=
  match o_img o with
  | [] => bind (w_img w) (fun es => Ok (Obj (o_dist o) es (o_ref o) (o_coef o)))
  | _ => Ok o
  end.
(** The reference intensities, ExtinctionCoefficients.py:117-118, 177-191. *)
Definition set_ref {D C} (indices : option (list Z)) (num : Z) (o : obj D C) : obj D C :=
  match o_ref o with
  | [] => Obj (o_dist o) (o_img o) (map snd (ref_intensities (reference_entries indices num (o_img o)))) (o_coef o)
  | _ => o
  end.

(** [set_all_member_variables], ExtinctionCoefficients.py:106-118: the new state and
    the exception, if there is one. *)
Definition set_members {D C} (indices : option (list Z)) (num : Z) (w : world D) (o : obj D C) : obj D C * option exn :=
  match set_dist w o with
  | Err e => (o, Some e)
  | Ok o1 =>
    match set_img w o1 with
    | Err e => (o1, Some e)
    | Ok o2 => (set_ref indices num o2, None)
    end
  end.

(** The loop of [calc_and_set_coefficients], ExtinctionCoefficients.py:80-86: each
    result is appended at once; [solve] gets the distances, the last stored
    coefficients and the relative intensities of the image. *)
Fixpoint append_loop {D C} (solve : list D -> option C -> list quot -> res C) (d : list D) (ms : list cell)
         (cs : list C) (gs : list (Z * list entry)) : list C * option exn :=
  match gs with
  | [] => (cs, None)
  | (_, es) :: gs' =>
    match bind (np_div (map e_val es) ms) (solve d (nth_error (rev cs) 0)) with
    | Err e => (cs, Some e)
    | Ok s => append_loop solve d ms (cs ++ [s])%list gs'
    end
  end.

(** The methods, ExtinctionCoefficients.py:73-104 and 135-159. *)
Inductive method := Serial | Parallel (order : list nat) | Save.

(** What a call leaves behind: nothing, a table of times and coefficients in the
    result file, or an exception; ExtinctionCoefficients.py:73-159. *)
Inductive outcome (C : Type) := Done | Saved (table : list (Q * C)) | Raised (e : exn).
Arguments Done {C}.
Arguments Saved {C}.
Arguments Raised {C}.

(** One call, ExtinctionCoefficients.py:73-159.  [calc_and_set_coefficients] (73-86) appends to the stored list;
    [calc_and_set_coefficients_mp] (88-104) gives each worker a copy of the object
    with its list and replaces the list at the end; [save] (135-159) puts times and
    coefficients side by side, which fails if their numbers differ. *)
Definition call {D C} (solve : list D -> option C -> list quot -> res C) (indices : option (list Z)) (num : Z)
           (w : world D) (m : method) (o : obj D C) : obj D C * outcome C :=
  match m with
  | Serial =>
    match set_members indices num w o with
    | (o1, Some e) => (o1, Raised e)
    | (o1, None) =>
      let (cs, e) := append_loop solve (o_dist o1) (o_ref o1) (o_coef o1) (groups e_img (o_img o1)) in
      (Obj (o_dist o1) (o_img o1) (o_ref o1) cs, match e with None => Done | Some e => Raised e end)
    end
  | Parallel order =>
    match set_members indices num w o with
    | (o1, Some e) => (o1, Raised e)
    | (o1, None) =>
      match parallel (fun _ => solve (o_dist o1) (nth_error (rev (o_coef o1)) 0)) order (o_img o1) (o_ref o1) with
      | Err e => (o1, Raised e)
      | Ok cs => (Obj (o_dist o1) (o_img o1) (o_ref o1) cs, Done)
      end
    end
  | Save =>
    match w_times w with
    | Err e => (o, Raised e)
    | Ok ts => if (length ts =? length (o_coef o))%nat then (o, Saved (combine ts (o_coef o))) else (o, Raised ValueError)
    end
  end.

(** A history of calls, each in the world of its time; ExtinctionCoefficients.py:73-159. *)
Fixpoint run {D C} (solve : list D -> option C -> list quot -> res C) (indices : option (list Z)) (num : Z)
         (h : list (world D * method)) (o : obj D C) : obj D C * list (outcome C) :=
  match h with
  | [] => (o, [])
  | (w, m) :: h' =>
    let (o1, r) := call solve indices num w m o in
    let (o2, rs) := run solve indices num h' o1 in (o2, r :: rs)
  end.
