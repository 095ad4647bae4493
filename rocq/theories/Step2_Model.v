(** Step 2: matching LEDs to LED arrays, renumbering, merging.
    Source: ledsa/data_extraction/step_2_functions.py *)
From Coq Require Import List ZArith Lia Bool.
From Verif Require Import Base.
Import ListNotations.
Local Open Scope Z_scope.

(** Positions, step_2_functions.py:33. *)
Definition loc := (Z * Z)%type.                (* (row, column) *)
(** A row of the search areas, step_2_functions.py:33. *)
Notation row := (Z * loc)%type.              (* (LED id, (row, column)) *)
(** Python dict LED id -> location, in insertion order.  step_2_functions.py:33. *)
Definition dict := list (Z * loc).

(** Distances are kept abstract so that every statement that does not depend
    on them holds for any arithmetic (float64, exact, ...):
    [gdist] is [cdist]/[np.linalg.norm], [gtotal ref nb] is
    [distance_weighting_factor * ref + nb], [gltb] is [<].  step_2_functions.py:110-203. *)
Record geometry := Geo {
  gD : Type;
  gltb : gD -> gD -> bool;
  gdist : loc -> loc -> gD;
  gtotal : gD -> gD -> gD }.

(** [d[k]], step_2_functions.py:51-52, 136. *)
Fixpoint dict_get (d : dict) (k : Z) : option loc :=
  match d with
  | [] => None
  | (k', v) :: d' => if k' =? k then Some v else dict_get d' k
  end.

(** [del d[k]], step_2_functions.py:40, 60. *)
Fixpoint dict_del (d : dict) (k : Z) : dict :=
  match d with
  | [] => []
  | (k', v) :: d' => if k' =? k then d' else (k', v) :: dict_del d' k
  end.

(** Assignment [d[k] = v]: replaces in place or appends.  step_2_functions.py:33. *)
Fixpoint dict_set (d : dict) (k : Z) (v : loc) : dict :=
  match d with
  | [] => [(k, v)]
  | (k', v') :: d' => if k' =? k then (k', v) :: d' else (k', v') :: dict_set d' k v
  end.

(** [{row[0]: row[1:] for row in search_areas}], step_2_functions.py:33 *)
Definition dict_of_rows (rows : list row) : dict :=
  fold_left (fun d r => dict_set d (fst r) (snd r)) rows [].

(** [ignore_leds] argument, step_2_functions.py:37-40 ([None] in the pipeline). *)
Definition drop_ignored (d : dict) (ignore : option (list Z)) : dict :=
  match ignore with
  | None => d
  | Some l => fold_left (fun d k => dict_del d k) l d
  end.

(** First index of the minimum: [argmin] / [min(dict, key=...)].
    step_2_functions.py:144, 200. *)
Fixpoint argmin_from {A K} (ltb : K -> K -> bool) (key : A -> K) (best : A) (l : list A) : A :=
  match l with
  | [] => best
  | a :: l' => argmin_from ltb key (if ltb (key a) (key best) then a else best) l'
  end.

(** [_find_closest_node], step_2_functions.py:181-203 *)
Definition find_closest_node (g : geometry) (node : loc) (nodes : dict) : res (loc * Z * gD g) :=
  match nodes with
  | [] => Err ValueError
  | e :: rest =>
    let b := argmin_from (gltb g) (fun e => gdist g node (snd e)) e rest in
    Ok (snd b, fst b, gdist g node (snd b))
  end.

(** Loop of [_find_neighbour_leds], step_2_functions.py:167-176 *)
Fixpoint neighbours_loop (g : geometry) (n : nat) (led_loc : loc) (d : dict) : list (Z * gD g) :=
  match n with
  | O => []
  | S n' =>
    match find_closest_node g led_loc d with
    | Ok (_, k, dn) => (k, dn) :: neighbours_loop g n' led_loc (dict_del d k)
    | Err _ => []
    end
  end.

(** [_find_neighbour_leds], step_2_functions.py:148-178 *)
Definition find_neighbour_leds (g : geometry) (led_loc : loc) (d : dict) (max_n : nat)
  : list (Z * gD g) :=
  neighbours_loop g (Nat.min max_n (length d)) led_loc d.

(** [_find_next_led], step_2_functions.py:110-145 *)
Definition find_next_led (g : geometry) (d : dict) (max_n : nat) (ref_loc led_loc : loc) : res Z :=
  match d with
  | [] => Err ValueError
  | _ =>
    bind (mapM (fun e : Z * gD g =>
                  match dict_get d (fst e) with
                  | None => Err KeyError
                  | Some nl => Ok (fst e, gtotal g (gdist g ref_loc nl) (snd e))
                  end) (find_neighbour_leds g led_loc d max_n))
    (fun totals =>
      match totals with
      | [] => Err ValueError
      | t :: ts => Ok (fst (argmin_from (gltb g) snd t ts))
      end)
  end.

(** The [while search_areas_dict:] loop, step_2_functions.py:58-83.
    [refs] is what is left of [ref_led_id_iter], [last] is
    [ref_led_id_list[-1]].  Returns the LEDs appended to [led_array_list] from
    here on and the remaining dictionary. *)
Fixpoint walk (g : geometry) (max_n fuel : nat) (d : dict) (led : Z) (led_loc : loc)
         (ref : Z) (ref_loc : loc) (refs : list Z) (last : Z) : res (list Z * dict) :=
  match d with
  | [] => Ok ([], d)
  | _ =>
    match fuel with
    | O => Err OutOfFuel
    | S fuel' =>
      match dict_get d led with
      | None => Err KeyError                       (* del search_areas_dict[led_id] *)
      | Some _ =>
        let d1 := dict_del d led in
        match find_next_led g d1 max_n ref_loc led_loc with
        | Err KeyError | Err ValueError => Ok ([led], d1)          (* break *)
        | Err e => Err e
        | Ok nid =>
          match dict_get d1 nid with
          | None => Ok ([led], d1)                                 (* KeyError: break *)
          | Some nloc =>
            if nid =? last then Ok ([led; nid], dict_del d1 nid)   (* break *)
            else if nid =? ref then
              match refs with
              | [] => Ok ([led], d1)                               (* StopIteration: break *)
              | ref' :: refs' =>
                match dict_get d1 ref' with
                | None => Ok ([led], d1)                           (* KeyError: break *)
                | Some rloc' =>
                  res_map (fun p => (led :: fst p, snd p))
                          (walk g max_n fuel' d1 nid nloc ref' rloc' refs' last)
                end
              end
            else
              res_map (fun p => (led :: fst p, snd p))
                      (walk g max_n fuel' d1 nid nloc ref ref_loc refs last)
          end
        end
      end
    end
  end.

(** One iteration of the loop over [edge_indices], step_2_functions.py:43-89.
    [None]: fewer than two labels, the array is skipped. *)
Definition match_one (g : geometry) (max_n : nat) (d : dict) (edges : list Z)
  : res (option (list Z) * dict) :=
  match edges with
  | led :: ref :: refs =>
    match dict_get d led, dict_get d ref with
    | Some led_loc, Some ref_loc =>
      res_map (fun p => (Some (fst p), snd p))
              (walk g max_n (length d) d led led_loc ref ref_loc refs (List.last edges 0))
    | _, _ => Err ValueError
    end
  | _ => Ok (None, d)
  end.

(** The loop over [edge_indices], step_2_functions.py:43-89. *)
Fixpoint match_all (g : geometry) (max_n : nat) (d : dict) (edges : list (list Z))
  : res (list (list Z) * dict) :=
  match edges with
  | [] => Ok ([], d)
  | e :: es =>
    bind (match_one g max_n d e) (fun p =>
    bind (match_all g max_n (snd p) es) (fun q =>
    Ok (match fst p with Some a => a :: fst q | None => fst q end, snd q)))
  end.

(** [list.remove(x)] with the ValueError swallowed (lines 278-283). *)
Fixpoint py_remove (x : Z) (l : list Z) : list Z :=
  match l with
  | [] => []
  | y :: l' => if y =? x then l' else y :: py_remove x l'
  end.

(** [_remove_ignored_leds], step_2_functions.py:259-286 *)
Definition remove_ignored_leds (arrays : list (list Z)) (ignored : list Z) : list (list Z) :=
  map (fun a => fold_left (fun a x => py_remove x a) ignored a) arrays.

(** [match_leds_to_led_arrays], step_2_functions.py:8-107.  [edges] and
    [ignored] are the parsed configuration values (lines 29-30). *)
Definition match_leds_to_led_arrays (g : geometry) (max_n : nat) (rows : list row)
           (edges : list (list Z)) (ignored : list Z) (ignore_leds : option (list Z))
  : res (list (list Z)) :=
  bind (match_all g max_n (drop_ignored (dict_of_rows rows) ignore_leds) edges) (fun p =>
  Ok (remove_ignored_leds (fst p) ignored)).

(** [reorder_led_indices], step_2_functions.py:316-347 *)
Fixpoint reorder_from (start : Z) (arrays : list (list Z)) : list (list Z) :=
  match arrays with
  | [] => []
  | a :: l =>
    let end_id := start + Z.of_nat (length a) in
    zrange start (end_id - 1 + 1) :: reorder_from end_id l
  end.
(** [reorder_led_indices], step_2_functions.py:316-347. *)
Definition reorder_led_indices (arrays : list (list Z)) : list (list Z) := reorder_from 0 arrays.

(** numpy integer indexing of the first axis: negative indices wrap.  step_2_functions.py:372,
    step_3_functions.py:138-139. *)
Definition np_index {A} (l : list A) (i : Z) : res A :=
  let n := Z.of_nat (length l) in
  let j := if i <? 0 then i + n else i in
  if (j <? 0) || (n <=? j) then Err IndexError
  else match nth_error l (Z.to_nat j) with Some a => Ok a | None => Err IndexError end.

(** [search_areas_reordered[:, 0] = range(len(...))], line 375 *)
Fixpoint renumber (start : Z) (rows : list row) : list row :=
  match rows with
  | [] => []
  | r :: l => (start, snd r) :: renumber (start + 1) l
  end.

(** [reorder_search_areas], step_2_functions.py:350-381 *)
Definition reorder_search_areas (rows : list row) (arrays : list (list Z)) : res (list row) :=
  bind (mapM (np_index rows) (concat arrays)) (fun rs => Ok (renumber 0 rs)).

(** [merge_indices_of_led_arrays], step_2_functions.py:384-428: one group. *)
Definition merge_group (arrays : list (list Z)) (group : list Z) : list Z :=
  flat_map (fun i => if (0 <=? i) && (i <? Z.of_nat (length arrays))
                     then nth (Z.to_nat i) arrays [] else []) group.

(** All groups, step_2_functions.py:384-428. *)
Definition merge_indices (arrays : list (list Z)) (groups : option (list (list Z)))
  : list (list Z) :=
  match groups with
  | None => arrays
  | Some gs => filter (fun a => match a with [] => false | _ => true end)
                      (map (merge_group arrays) gs)
  end.

(** [generate_led_array_indices_files], step_2_functions.py:289-313: content
    (one id per line) of file number i. *)
Definition index_files (arrays : list (list Z)) : list (list Z) := map (@rev Z) arrays.

(** [load_led_array_indices], DataExtractor.py:179-193: reads files 0..n-1. *)
Definition load_index_files (files : list (list Z)) (num_arrays : Z) : res (list (list Z)) :=
  mapM (fun i => match nth_error files (Z.to_nat i) with
                 | Some f => Ok f | None => Err FileNotFoundError end) (zrange 0 num_arrays).
