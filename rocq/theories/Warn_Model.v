(** The log of failed fits, written by several workers.
    Source: ledsa/data_extraction/step_3_functions.py, ledsa/data_extraction/DataExtractor.py *)
From Coq Require Import List Bool String.
From Verif Require Import Base.
Import ListNotations.

(** Does the directory logfiles exist, and the entries of warnings.log.
    step_3_functions.py:273-280. *)
Record logs := Logs { l_dir : bool; l_entries : list string }.

(** What a worker still has to do: look for the directory, make it, append an
    entry.  step_3_functions.py:274-280. *)
Inductive op := Look (b : string) | Make | Append (b : string).

(** One operation of [_log_warnings], step_3_functions.py:273-280.  [os.makedirs] of
    an existing directory raises FileExistsError, which is an OSError.  An entry with
    its newline is shorter than the buffer of the file and is appended as a whole when
    the file is closed. *)
Definition log_step (w : logs) (ops : list op) : res (logs * list op) :=
  match ops with
  | [] => Ok (w, [])
  | Look b :: r => Ok (w, (if l_dir w then [Append b] else [Make; Append b]) ++ r)
  | Make :: r => if l_dir w then Err OSError else Ok (Logs true (l_entries w), r)
  | Append b :: r => if l_dir w then Ok (Logs true (l_entries w ++ [b]), r) else Err FileNotFoundError
  end.

(** A worker with its entries, one for each fit that did not succeed.
    step_3_functions.py:154-156. *)
Definition worker (entries : list string) : list op := map Look entries.

(** The operations of the workers in the order [sched], DataExtractor.py:233-241.  The
    run ends with the first exception: [Pool.imap] hands it on. *)
Fixpoint run_pool (sched : list nat) (w : logs) (ws : list (list op)) : logs * list (list op) * option exn :=
  match sched with
  | [] => (w, ws, None)
  | i :: sched' =>
    match log_step w (nth i ws []) with
    | Err e => (w, ws, Some e)
    | Ok (w', ops) => run_pool sched' w' (firstn i ws ++ match skipn i ws with [] => [] | _ :: t => ops :: t end)
    end
  end.
