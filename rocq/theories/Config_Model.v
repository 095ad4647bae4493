(** Reading, requesting and storing configuration values.
    Source: ledsa/core/ConfigData.py, ledsa/analysis/ConfigDataAnalysis.py,
    ledsa/data_extraction/init_functions.py, ledsa/data_extraction/step_2_functions.py *)
From Coq Require Import ZArith Lia Bool Ascii String List.
From Verif Require Import Base Str.
Import ListNotations.
Local Open Scope string_scope.
Local Open Scope Z_scope.

(** ** Multi-column values *)

(** [indices_tmp[num_col * i:num_col * i + num_col]], ConfigData.py:219 *)
Definition row_slice {A} (c i : nat) (l : list A) : list A := firstn c (skipn (c * i) l).

(** [get2dnparray] with a fixed number of columns, ConfigData.py:191-221.
    [parse] is [dtype]; [v] is the text of the option.  [num_col] is 2, 3 or 6
    in all calls, division by zero is not modelled. *)
Definition get2d {A} (parse : string -> res A) (num_col : nat) (v : string) : res (option (list (list A))) :=
  if (v =? "None")%string then Ok None
  else bind (mapM parse (split_ws v)) (fun tmp =>
       Ok (Some (map (fun i => row_slice num_col i tmp) (seq 0 (List.length tmp / num_col))))).

(** [get2dnparray] with [num_col='var'], ConfigData.py:209-215 *)
Definition get2d_var {A} (parse : string -> res A) (v : string) : res (option (list (list A))) :=
  if (v =? "None")%string then Ok None
  else bind (mapM (fun line => mapM parse (split_ws line))
                  (filter (fun s => negb (s =? "")%string) (split_on nl v)))
            (fun rows => Ok (Some rows)).

(** The tabulator of the prompts, ConfigData.py:389, 406. *)
Definition tab : ascii := ascii_of_nat 9.

(** The text assembled by [in_led_array_edge_indices] and
    [in_led_array_edge_coordinates] from the lines typed in,
    ConfigData.py:377-407. *)
Definition prompt_text (lines : list string) : string :=
  String nl (fold_left (fun acc l => acc ++ String tab ("    " ++ l ++ String nl "")) lines "").

(** ** List-valued analysis options *)

(** One character of [lower()], ConfigDataAnalysis.py:137. *)
Definition lower_char (c : ascii) : ascii :=
  let n := nat_of_ascii c in
  if ((65 <=? n)%nat && (n <=? 90)%nat) then ascii_of_nat (n + 32) else c.

(** [s.lower()] (ASCII).  ConfigDataAnalysis.py:137. *)
Fixpoint lower (s : string) : string :=
  match s with "" => "" | String c s' => String (lower_char c) (lower s') end.

(** [get_list_of_values], ConfigDataAnalysis.py:114-147.  [raw] is [None] for a
    missing option, [Some None] for an option without a value; interpolation of
    '%' is not modelled.  The result is a list or Python's None. *)
Definition get_list_of_values {A} (parse : string -> res A) (fallback : option (list A))
           (raw : option (option string)) : option (list A) :=
  match raw with
  | None => fallback
  | Some None => fallback
  | Some (Some v) =>
    let v := strip v in
    if ((lower v =? "none") || (v =? ""))%string then None
    else match mapM parse (split_ws v) with
         | Ok l => Some l
         | Err _ => fallback
         end
  end.

(** ** The ignore list *)

(** [_get_indices_of_ignored_leds], step_2_functions.py:235-256.  [None] is a
    missing option (KeyError, caught). *)
Definition ignored_leds (v : option string) : list Z :=
  match v with
  | None => []
  | Some s =>
    if (s =? "None")%string then []
    else match mapM int_of_str (split_on " "%char s) with
         | Ok l => l
         | Err _ => []
         end
  end.

(** ** Requesting missing values *)

(** The options that are read or written by [request_config_parameters];
    [KTimeImgId] is the option 'time_img_id' of the file written by [--config]
    (ConfigData.py:106), all others have the name used in the code. *)
Inductive key : Type :=
| KImgDir | KImgName | KTimeRefId | KTimeRefFile | KTimeRefTime | KOffset | KDate
| KRefImg | KMaxLeds | KFirstExp | KLastExp | KNumArrays | KTimeImgId.

(** The option names are different, init_functions.py:29-69. *)
Definition key_eq_dec : forall a b : key, {a = b} + {a <> b}.
Proof. decide equality. Defined.

(** The options with a value, ConfigData.py:79. *)
Definition store := key -> option string.

(** [self[section][option] = value], ConfigData.py:242-293. *)
Definition upd (s : store) (k : key) (v : string) : store :=
  fun k' => if key_eq_dec k k' then Some v else s k'.

(** The configuration object, the file config.ini, and the prompts shown so far.
    init_functions.py:29-69. *)
Record state := State { cur : store; saved : store; asked : list key }.

(** A computation that may fail; the state at the failure is kept.  init_functions.py:29-69. *)
Definition step := state -> state * option exn.

(** Nothing to do, init_functions.py:29-69. *)
Definition done : step := fun st => (st, None).

(** [raise], e.g. ConfigData.py:347. *)
Definition raise (e : exn) : step := fun st => (st, Some e).

(** One statement after the other, init_functions.py:29-69. *)
Definition seqs (a b : step) : step :=
  fun st => match a st with (st', None) => b st' | (st', Some e) => (st', Some e) end.

(** [self[section][option]]: KeyError if the option is missing.  init_functions.py:36-69. *)
Definition with_value (k : key) (f : string -> step) : step :=
  fun st => match cur st k with Some v => f v st | None => (st, Some KeyError) end.

(** [config.get(section, option)], ConfigData.py:156-168: 'None' if missing. *)
Definition get_or_none (s : store) (k : key) : string :=
  match s k with Some v => v | None => "None" end.

(** [self[section][option] = value].  ConfigData.py:242-293. *)
Definition put (k : key) (v : string) : step :=
  fun st => (State (upd (cur st) k v) (saved st) (asked st), None).

(** [self[section][option] = input(...)]; [ans k] is what the user types.
    ConfigData.py:242-293. *)
Definition ask (ans : key -> string) (k : key) : step :=
  fun st => (State (upd (cur st) k (ans k)) (saved st) (asked st ++ [k])%list, None).

(** [save], ConfigData.py:183-189 *)
Definition save : step := fun st => (State (cur st) (cur st) (asked st), None).

(** The world outside: [name_format] is [img_name_string.format], [entry] is
    [get_exif_entry(path, 'DateTimeOriginal')], [clock] is
    [_get_datetime_from_str] (seconds), ConfigData.py:426-445. *)
Record world := World {
  name_format : string -> string -> res string;
  path_of : string -> string -> string;                  (* os.path.join *)
  entry : string -> res string;
  clock : string -> string -> res Z }.

(** The rest of the function after a call that may raise, ConfigData.py:295-347. *)
Definition lift {A} (r : res A) (f : A -> step) : step :=
  match r with Ok a => f a | Err e => raise e end.

(** [in_time_diff_to_img_time], ConfigData.py:295-347.  [os.path.abspath] names
    the same file and is left out. *)
Definition in_time_diff (w : world) (ans : key -> string) : step :=
  with_value KTimeRefId (fun id =>
  with_value KTimeRefFile (fun file =>
  let has_id := negb (id =? "None")%string in
  let has_file := negb (file =? "None")%string in
  if negb has_id && negb has_file then raise ValueError
  else
  (fun read : string -> step =>
     if has_id then
       with_value KImgDir (fun dir => with_value KImgName (fun name =>
       lift (name_format w name id) (fun f =>
       read (if has_file then file else path_of w dir f))))
     else read file)
  (fun path =>
     seqs (with_value KTimeRefTime (fun t => if (t =? "None")%string then ask ans KTimeRefTime else done))
    (with_value KTimeRefTime (fun t =>
     lift (entry w path) (fun e =>
     match split_on " "%char e with
     | [date; time_meta] =>
       seqs (put KDate date)
      (lift (clock w date time_meta) (fun img_time =>
       lift (clock w date t) (fun real_time =>
       put KOffset (str_of_Z (img_time - real_time)))))
     | _ => raise ValueError                              (* unpacking *)
     end)))))).

(** One prompt of [request_config_parameters]: asked and saved iff the value is
    'None'.  init_functions.py:36-69. *)
Definition request (ans : key -> string) (k : key) : step :=
  with_value k (fun v => if (v =? "None")%string then seqs (ask ans k) save else done).

(** The prompts for the time reference image, init_functions.py:42-51: asked iff
    id, file and offset are all 'None'; a missing id or file counts as 'None',
    the offset is looked up (KeyError) only if the other two are 'None'. *)
Definition request_reference (ans : key -> string) (k : key) : step :=
  fun st =>
  if ((get_or_none (cur st) KTimeRefId =? "None") && (get_or_none (cur st) KTimeRefFile =? "None"))%string
  then with_value KOffset (fun v => if (v =? "None")%string then seqs (ask ans k) save else done) st
  else (st, None).

(** [request_config_parameters], init_functions.py:29-69 *)
Definition request_config_parameters (w : world) (ans : key -> string) : step :=
  seqs (request ans KImgDir)
 (seqs (request ans KImgName)
 (seqs (request_reference ans KTimeRefId)
 (seqs (request_reference ans KTimeRefFile)
 (seqs (with_value KOffset (fun v => if (v =? "None")%string then seqs (in_time_diff w ans) save else done))
 (seqs (request ans KRefImg)
 (seqs (request ans KMaxLeds)
 (seqs (request ans KFirstExp)
 (seqs (request ans KLastExp)
       (request ans KNumArrays))))))))).

(** The configuration object just after reading the file.  init_functions.py:36. *)
Definition start (s : store) : state := State s s [].
