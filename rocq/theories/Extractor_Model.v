(** Constructing a DataExtractor: configuration file, channels and directories.
    Source: ledsa/data_extraction/DataExtractor.py,
    ledsa/data_extraction/init_functions.py, ledsa/core/ConfigData.py *)
From Coq Require Import ZArith Bool Ascii String List.
From Verif Require Import Base Str.
Import ListNotations.
Local Open Scope string_scope.
Local Open Scope Z_scope.

(** What stands under a path, init_functions.py:16-27. *)
Inductive entry := Directory | File.

(** The working directory: entries, and the text of config.ini.
    init_functions.py:16-27, ConfigData.py:150-154 and 170-189. *)
Record place := Place { entries : string -> option entry; ini : option string }.

(** [os.mkdir] of a path directly in the working directory, init_functions.py:17, 20. *)
Definition mkdir (p : string) (e : string -> option entry) : string -> option entry :=
  fun q => if (q =? p)%string then Some Directory else e q.

(** [f'channel{channel}'] in 'analysis', init_functions.py:23. *)
Definition channel_dir (c : Z) : string := "analysis/channel" ++ str_of_Z c.

(** [os.path.exists] below 'analysis' needs that to be a directory,
    init_functions.py:24. *)
Definition exists_below (e : string -> option entry) (p : string) : bool :=
  match e "analysis", e p with Some Directory, Some _ => true | _, _ => false end.

(** The directories of the channels, init_functions.py:22-27.  The outcome and
    the entries after it; [os.mkdir] below a file is an OSError. *)
Fixpoint channel_dirs (cs : list Z) (e : string -> option entry) : res unit * (string -> option entry) :=
  match cs with
  | [] => (Ok tt, e)
  | c :: cs' =>
    if exists_below e (channel_dir c) then channel_dirs cs' e
    else match e "analysis" with
         | Some Directory => channel_dirs cs' (mkdir (channel_dir c) e)
         | Some File => (Err OSError, e)
         | None => (Err FileNotFoundError, e)
         end
  end.

(** [if not os.path.exists(p): os.mkdir(p)], init_functions.py:16-21. *)
Definition ensure (p : string) (e : string -> option entry) : string -> option entry :=
  match e p with Some _ => e | None => mkdir p e end.

(** [create_needed_directories], init_functions.py:9-27. *)
Definition create_needed_directories (cs : list Z) (e : string -> option entry) : res unit * (string -> option entry) :=
  channel_dirs cs (ensure "analysis" (ensure "plots" e)).

(** The argument [channels]: several channels, or a number such as the default
    [(0)], which is no tuple.  DataExtractor.py:38, 50. *)
Inductive channels_arg := Several (cs : list Z) | Number (c : Z).

(** [list(channels)], DataExtractor.py:50. *)
Definition list_channels (a : channels_arg) : res (list Z) :=
  match a with Several cs => Ok cs | Number _ => Err TypeError end.

(** The default, DataExtractor.py:38. *)
Definition default_channels : channels_arg := Number 0.

(** [DataExtractor.__init__], DataExtractor.py:38-62.  [fresh] is the text of a
    new config.ini (ConfigData.py:79-154, see Ini_Model), [rest] stands for the
    questions and the image list (lines 60-62; Config_Model, Images_Model).
    A missing config.ini is noticed in [rest] only (ConfigData.py:177-181). *)
Definition construct (fresh : string) (rest : list Z -> place -> res unit * place)
           (load : bool) (a : channels_arg) (w : place) : res unit * place :=
  let w1 := if load then w else Place (entries w) (Some fresh) in
  match list_channels a with
  | Err x => (Err x, w1)
  | Ok cs =>
    let (r, e) := create_needed_directories cs (entries w1) in
    let w2 := Place e (ini w1) in
    match r with
    | Err x => (Err x, w2)
    | Ok tt => rest cs w2
    end
  end.
