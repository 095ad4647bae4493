(** Step 3 over all images: result files, worker pool, interruption, restart.
    Source: ledsa/data_extraction/DataExtractor.py, step_3_functions.py *)
From Coq Require Import List ZArith Lia Bool String.
From Verif Require Import Base.
Import ListNotations.
Local Open Scope string_scope.
Local Open Scope Z_scope.

(** analysis/image_infos_analysis.csv: (id, name) of each row.  The reading of
    the file itself is modelled in Images_Model.v.  image_handling.py:6-39. *)
Definition table := list (Z * string).

(** [get_img_name], image_handling.py:6-21, on the rows *)
Fixpoint name_of (tab : table) (img_id : Z) : res string :=
  match tab with
  | [] => Err NameError
  | (i, n) :: l => if i =? img_id then Ok n else name_of l img_id
  end.

(** [get_img_id], image_handling.py:24-39, on the rows *)
Fixpoint id_of (tab : table) (name : string) : res Z :=
  match tab with
  | [] => Err NameError
  | (i, n) :: l => if (n =? name)%string then Ok i else id_of l name
  end.

(** The result file analysis/channel{c}/{id}_led_positions.csv has key (c, id);
    its content is a list of lines (a torn line is not modelled).
    step_3_functions.py:182-187. *)
Definition rkey := (Z * Z)%type.
(** The result files, step_3_functions.py:182-187. *)
Definition files := rkey -> option (list string).
(** Replacing the content of a file, step_3_functions.py:182-188. *)
Definition put := (rkey * list string)%type.

(** Same file, step_3_functions.py:182-187. *)
Definition rkey_eqb (a b : rkey) : bool := (fst a =? fst b) && (snd a =? snd b).

(** step_3_functions.py:182-188. *)
Definition apply_put (s : files) (p : put) : files :=
  fun k => if rkey_eqb (fst p) k then Some (snd p) else s k.

(** Several of them, step_3_functions.py:182-188. *)
Definition apply_puts (ps : list put) (s : files) : files := fold_left apply_put ps s.

(** What is computed for one image: the record lines ([generate_analysis_data]
    and [str(led_data)]) for an image name, channel and [fit_leds]; and the
    header ([_create_header], step_3_functions.py:283-312). *)
Record job := Job {
  j_records : string -> Z -> bool -> res (list string);
  j_header : Z -> Z -> string -> bool -> res string }.

(** [_save_results_in_file], step_3_functions.py:165-188: the file is opened
    (and emptied) before [img_data[0]] and the header are evaluated. *)
Definition save_results (j : job) (fit : bool) (name : string) (id c : Z) (recs : list string)
  : list put * res unit :=
  match recs with
  | [] => ([((c, id), [])], Err IndexError)
  | _ =>
    match j_header j c id name fit with
    | Err e => ([((c, id), [])], Err e)
    | Ok h => (map (fun n => ((c, id), firstn n (h :: recs))) (seq 0 (S (S (List.length recs)))), Ok tt)
    end
  end.

(** The channel loop of [process_img_file], DataExtractor.py:253-258 *)
Fixpoint channel_loop (j : job) (fit : bool) (name : string) (id : Z) (chans : list Z)
  : list put * res unit :=
  match chans with
  | [] => ([], Ok tt)
  | c :: cs =>
    match j_records j name c fit with
    | Err e => ([], Err e)
    | Ok recs =>
      match save_results j fit name id c recs with
      | (es, Err e) => (es, Err e)
      | (es, Ok _) => let '(es', r) := channel_loop j fit name id cs in ((es ++ es')%list, r)
      end
    end
  end.

(** [process_img_file], DataExtractor.py:245-258 *)
Definition process_img (j : job) (tab : table) (chans : list Z) (fit : bool) (name : string)
  : list put * res unit :=
  match id_of tab name with
  | Err e => ([], Err e)
  | Ok id => channel_loop j fit name id chans
  end.

(** [process_image_data] with one core, DataExtractor.py:239-241 *)
Fixpoint process_serial (j : job) (tab : table) (chans : list Z) (fit : bool) (names : list string)
  : list put * res unit :=
  match names with
  | [] => ([], Ok tt)
  | n :: l =>
    match process_img j tab chans fit n with
    | (es, Err e) => (es, Err e)
    | (es, Ok _) => let '(es', r) := process_serial j tab chans fit l in ((es ++ es')%list, r)
    end
  end.

(** Interleavings of several sequences: the worker pool of
    [process_image_data], DataExtractor.py:233-238. *)
Inductive interleave {A} : list (list A) -> list A -> Prop :=
| il_done : forall ls, Forall (fun l => l = []) ls -> interleave ls []
| il_step : forall l1 x l l2 es, interleave (l1 ++ l :: l2) es -> interleave (l1 ++ (x :: l) :: l2) (x :: es).

(** [find_and_save_not_analysed_imgs], step_3_functions.py:93-107.  [ids] are
    the ids of the result files found in the directory of one channel
    ([_find_analysed_img_ids], 191-206).  The result is a Python set; its
    iteration order is arbitrary. *)
Definition remaining (tab : table) (ids : list Z) : res (list string) :=
  bind (mapM (name_of tab) ids) (fun processed =>
  Ok (nodup string_dec (filter (fun n => negb (existsb (String.eqb n) processed)) (map snd tab)))).

(** [setup_step3], DataExtractor.py:259-264 and [create_imgs_to_process_file],
    step_3_functions.py:80-90: all images of the table. *)
Definition all_images (tab : table) : list string := map snd tab.

(** Directory listing of one channel.  step_3_functions.py:93-107. *)
Definition listing (s : files) (c : Z) (ids : list Z) : Prop :=
  forall id, In id ids <-> s (c, id) <> None.

(** The images a restart works on, in some order; [setup_restart] looks at the
    first channel only (DataExtractor.py:266-273). *)
Definition restart_images (s : files) (tab : table) (c0 : Z) (names : list string) : Prop :=
  exists ids r, listing s c0 ids /\ remaining tab ids = Ok r /\
    (forall n, In n names <-> In n r) /\ NoDup names.

(** A run over [names], possibly cut at any file operation, serial or parallel.
    DataExtractor.py:231-258. *)
Definition some_run (j : job) (tab : table) (chans : list Z) (fit : bool) (names : list string)
           (s s' : files) : Prop :=
  exists full es rest, interleave (map (fun n => fst (process_img j tab chans fit n)) names) full /\
    full = (es ++ rest)%list /\ s' = apply_puts es s.

(** A run over [names], possibly cut between images: only the images [done]
    have been processed, each completely.  DataExtractor.py:231-258. *)
Definition image_run (j : job) (tab : table) (chans : list Z) (fit : bool) (names done : list string)
           (s s' : files) : Prop :=
  NoDup done /\ incl done names /\
  exists es, interleave (map (fun n => fst (process_img j tab chans fit n)) done) es /\ s' = apply_puts es s.
