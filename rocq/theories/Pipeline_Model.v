(** Steps 1 and 2 as programs over files; crashes; histories.
    Source: ledsa/data_extraction/DataExtractor.py, ledsa/core/file_handling.py *)
From Coq Require Import List ZArith QArith Lia Bool.
From Verif Require Import Base Step1_Model Step2_Model.
Import ListNotations.
Local Open Scope Z_scope.

(** The files written by steps 1 and 2 (the plot files are not modelled).
    DataExtractor.py:91-177. *)
Inductive key : Type :=
| KAreas                 (* analysis/led_search_areas.csv *)
| KFlag                  (* .reorder_leds.flag, file_handling.py:18 *)
| KIdx (i : Z)           (* analysis/led_array_indices_{i:03}.csv *)
| KMerge (i : Z).        (* analysis/led_array_indices_{i:03}_merge.csv *)

(** The names of the files are different, DataExtractor.py:91-177. *)
Definition key_eqb (a b : key) : bool :=
  match a, b with
  | KAreas, KAreas | KFlag, KFlag => true
  | KIdx i, KIdx j | KMerge i, KMerge j => i =? j
  | _, _ => false
  end.

(** What the files hold, DataExtractor.py:91-177. *)
Inductive content : Type :=
| Rows (r : list row)    (* search-area table, header line left out *)
| Ids (l : list Z)       (* one LED id per line *)
| Empty.                 (* flag file *)

(** The files by name, DataExtractor.py:91-177. *)
Definition fs := key -> option content.

(** Atomic effects on the file system.  A file is written line by line
    (coarser than bytes: a torn last line is not modelled).  DataExtractor.py:91-177. *)
Inductive effect : Type :=
| Put (k : key) (c : content)
| Del (k : key)
| Plot.                  (* writing a PDF: no modelled file changes *)

(** DataExtractor.py:91-177. *)
Definition apply_eff (s : fs) (e : effect) : fs :=
  match e with
  | Put k c => fun k' => if key_eqb k k' then Some c else s k'
  | Del k => fun k' => if key_eqb k k' then None else s k'
  | Plot => s
  end.

(** Several effects one after the other, DataExtractor.py:91-177. *)
Definition apply_all (es : list effect) (s : fs) : fs := fold_left apply_eff es s.

(** Opening a file for writing truncates it; then line after line is added.
    DataExtractor.py:109-111, 165-177. *)
Definition write_file {A} (mk : list A -> content) (k : key) (lines : list A) : list effect :=
  map (fun n => Put k (mk (firstn n lines))) (seq 0 (S (length lines))).

(** Everything the two steps read besides the files: the reference image and
    the configuration ([find_search_areas] and [analyse_positions] sections).
    DataExtractor.py:91-177. *)
Record env := Env {
  e_mml : minmaxloc;                     (* cv2.minMaxLoc *)
  e_image : res image;                   (* reading the reference image *)
  e_radius : Z;
  e_percentile : Q;
  e_max_leds : Z;
  e_geo : geometry;
  e_edges : list (list Z);               (* led_array_edge_indices *)
  e_ignored : list Z;                    (* ignore_led_indices *)
  e_merge : option (list (list Z));      (* merge_led_array_indices *)
  e_plot : list row -> bool }.           (* does drawing the plot succeed *)

(** Rows of [find_search_areas] as table rows.  DataExtractor.py:108. *)
Definition to_row (t : Z * Z * Z) : row := let '(i, y, x) := t in (i, (y, x)).

(** The call of [find_search_areas], DataExtractor.py:95-108. *)
Definition compute_areas (E : env) : res (list row) :=
  bind (e_image E) (fun img =>
  bind (Step1_Model.find_search_areas (e_mml E) img (e_radius E) (e_percentile E) (e_max_leds E)) (fun p =>
  Ok (map to_row (fst p)))).

(** [plot_search_areas], DataExtractor.py:113-144: with no LED there is no column
    (step 1: an array of one axis, IndexError) or the minimum over an empty column
    raises (step 2: ValueError). *)
Definition plot_ok (E : env) (rows : list row) : bool :=
  match rows with [] => false | _ => e_plot E rows end.

(** A run of a method: file effects in order, the object's [search_areas]
    afterwards, and whether it ended normally.  DataExtractor.py:91-177. *)
Record run := Run { r_effects : list effect; r_mem : option (list row); r_res : res unit }.

(** [find_search_areas], DataExtractor.py:91-111 *)
Definition step1 (E : env) (mem : option (list row)) : run :=
  match compute_areas E with
  | Err e => Run [] mem (Err e)
  | Ok rows =>
    if plot_ok E rows
    then Run (write_file Rows KAreas rows ++ [Plot; Del KFlag]) (Some rows) (Ok tt)
    else Run (write_file Rows KAreas rows) (Some rows) (Err (match rows with [] => IndexError | _ => ValueError end))
  end.

(** [load_search_areas], DataExtractor.py:70-75: [np.loadtxt] yields a flat
    array for a single row, which [match_leds_to_led_arrays] cannot iterate
    ([row[0]] of a scalar: IndexError, step_2_functions.py:33). *)
Definition load_search_areas (s : fs) : res (list row) :=
  match s KAreas with
  | Some (Rows [r]) => Err IndexError
  | Some (Rows rows) => Ok rows
  | _ => Err FileNotFoundError
  end.

(** The index files of all arrays, step_2_functions.py:289-313 *)
Fixpoint write_index_files (mk : Z -> key) (i : Z) (arrays : list (list Z)) : list effect :=
  match arrays with
  | [] => []
  | a :: l => write_file Ids (mk i) (rev a) ++ write_index_files mk (i + 1) l
  end.

(** [match_leds_to_led_arrays], DataExtractor.py:152-177 *)
Definition step2 (E : env) (mem : option (list row)) (s : fs) : run :=
  match s KFlag with
  | Some _ => Run [] mem (Err SystemExit)
  | None =>
    match (match mem with Some r => Ok r | None => load_search_areas s end) with
    | Err e => Run [] mem (Err e)
    | Ok rows =>
      match match_leds_to_led_arrays (e_geo E) 5 rows (e_edges E) (e_ignored E) None with
      | Err e => Run [] (Some rows) (Err e)
      | Ok arrays =>
        match rows with
        | [] => Run [] (Some rows) (Err IndexError)      (* 1-d array: search_areas[...][:, 0] *)
        | _ =>
          match reorder_search_areas rows arrays with
          | Err e => Run [] (Some rows) (Err e)
          | Ok rows' =>
            if plot_ok E rows' then
              let li := reorder_led_indices arrays in
              Run (write_file Rows KAreas rows' ++ [Plot; Put KFlag Empty] ++
                   write_index_files KIdx 0 li ++ [Plot] ++
                   match e_merge E with
                   | None => []
                   | Some gs => write_index_files KMerge 0 (merge_indices li (Some gs)) ++ [Plot]
                   end) (Some rows') (Ok tt)
            else Run (write_file Rows KAreas rows') (Some rows') (Err ValueError)
          end
        end
      end
    end
  end.

(** What may happen in a working directory.  The configuration may be edited
    between any two commands, so each command has its own environment.
    parser_arguments_run.py:73-78. *)
Inductive cmd : Type :=
| NewProcess                     (* the old DataExtractor object is gone *)
| Step1 (E : env)
| Step2 (E : env)
| Step1Killed (E : env) (n : nat)   (* killed after n file effects *)
| Step2Killed (E : env) (n : nat).

(** The files and the [search_areas] of the object, DataExtractor.py:44-75. *)
Definition state := (fs * option (list row))%type.

(** The effect of one command, parser_arguments_run.py:73-78. *)
Definition exec (c : cmd) (st : state) : state :=
  let '(s, mem) := st in
  match c with
  | NewProcess => (s, None)
  | Step1 E => let r := step1 E mem in (apply_all (r_effects r) s, r_mem r)
  | Step2 E => let r := step2 E mem s in (apply_all (r_effects r) s, r_mem r)
  | Step1Killed E n => (apply_all (firstn n (r_effects (step1 E mem))) s, None)
  | Step2Killed E n => (apply_all (firstn n (r_effects (step2 E mem s))) s, None)
  end.

(** A history of commands, parser_arguments_run.py:73-78. *)
Definition exec_all (cs : list cmd) (st : state) : state := fold_left (fun st c => exec c st) cs st.

(** Did step 1 (step 2) end normally in this state?.  DataExtractor.py:91-111. *)
Definition step1_completes (E : env) : Prop := r_res (step1 E None) = Ok tt.
(** Did step 2 end normally?  DataExtractor.py:152-177. *)
Definition step2_completes (E : env) (st : state) : Prop :=
  r_res (step2 E (snd st) (fst st)) = Ok tt.
