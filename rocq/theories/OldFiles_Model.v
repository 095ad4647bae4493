(** Result files of earlier versions, which have no column with the time.
    Source: ledsa/postprocessing/simulation.py, lines 166-189. *)
From Coq Require Import ZArith QArith Bool Ascii String List.
From Verif Require Import Base Sim_Model Read_Model.
Import ListNotations.
Local Open Scope Z_scope.

(** A result file with or without the column "# Experiment_Time[s]",
    simulation.py:171-175. *)
Inductive anyfile :=
| Timed (f : rfile)
| Untimed (channel array : Z) (layers : nat) (rows : list (list Q)).

(** [self.image_info_df['Experiment_Time[s]'].astype(int)], simulation.py:176:
    the times of the list of images in its order, cut to whole seconds. *)
Definition whole_times (images : list iline) : list Q := map (fun i => inject_Z (int_of_Q (i_time i))) images.

(** Both branches, simulation.py:175-181.  The merge (line 177) joins row number
    and row number; rows without a partner are left out on both sides. *)
Definition with_times (images : list iline) (f : anyfile) : rfile :=
  match f with
  | Timed g => g
  | Untimed ch a n rows => RFile ch a n (combine (whole_times images) rows)
  end.

(** [_get_extco_df_from_path], simulation.py:166-189, for files of both kinds.
    [images] is the list that was read in lines 78-82. *)
Definition read_any (images : list iline) (solver : string) (dir : list (string * anyfile)) : res frame :=
  read_extco solver (map (fun p => (fst p, with_times images (snd p))) dir).
