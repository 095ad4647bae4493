(** Dates and times as texts: how the capture time of a photo and the start of
    the experiment are read.
    Source: ledsa/data_extraction/init_functions.py, ledsa/core/ConfigData.py;
    [strptime] and the day number are those of the Python library (_strptime.py
    and datetime.py), for ASCII texts. *)
From Coq Require Import Ascii String List ZArith Lia Bool.
From Verif Require Import Base Str Images_Model.
Import ListNotations.
Local Open Scope string_scope.
Local Open Scope Z_scope.

(** The directives of the two format strings, init_functions.py:142, 144. *)
Inductive directive := DYear | DMonth | DDay | DHour | DMinute | DSecond.

(** A part of a format string: a directive, a literal character, or a blank
    (which stands for one or more blanks).  init_functions.py:142, 144. *)
Inductive item := Fld (d : directive) | Lit (c : ascii) | Ws.

(** The class of the digits from [lo] to [hi] in the regular expressions of
    [strptime], used in init_functions.py:142, 144. *)
Definition dig (lo hi : Z) (c : ascii) : bool :=
  match digit_val c with Some d => (lo <=? d) && (d <=? hi) | None => false end.

(** The alternatives of the regular expression of each directive, in the order
    in which they are tried: %Y is \d\d\d\d, %m is 1[0-2]|0[1-9]|[1-9], %d is
    3[0-1]|[1-2]\d|0[1-9]|[1-9]| [1-9], %H is 2[0-3]|[0-1]\d|\d, %M is
    [0-5]\d|\d, %S is 6[0-1]|[0-5]\d|\d.  Used in init_functions.py:142, 144. *)
Definition alternatives (d : directive) : list (list (ascii -> bool)) :=
  match d with
  | DYear => [[dig 0 9; dig 0 9; dig 0 9; dig 0 9]]
  | DMonth => [[dig 1 1; dig 0 2]; [dig 0 0; dig 1 9]; [dig 1 9]]
  | DDay => [[dig 3 3; dig 0 1]; [dig 1 2; dig 0 9]; [dig 0 0; dig 1 9]; [dig 1 9]; [Ascii.eqb " "%char; dig 1 9]]
  | DHour => [[dig 2 2; dig 0 3]; [dig 0 1; dig 0 9]; [dig 0 9]]
  | DMinute => [[dig 0 5; dig 0 9]; [dig 0 9]]
  | DSecond => [[dig 6 6; dig 0 1]; [dig 0 5; dig 0 9]; [dig 0 9]]
  end.

(** One alternative at the beginning of the text: the part that is taken and
    the rest.  Used in init_functions.py:142, 144. *)
Fixpoint take (a : list (ascii -> bool)) (s : string) : option (string * string) :=
  match a with
  | [] => Some ("", s)
  | p :: a' =>
    match s with
    | "" => None
    | String c s' =>
      if p c then match take a' s' with Some (t, r) => Some (String c t, r) | None => None end else None
    end
  end.

(** The ways in which a directive can begin the text, as numbers [int(...)] and
    rests.  Used in init_functions.py:142, 144. *)
Definition options (d : directive) (s : string) : list (Z * string) :=
  flat_map (fun a => match take a s with
                     | Some (t, r) => match int_of_str t with Ok v => [(v, r)] | Err _ => [] end
                     | None => []
                     end) (alternatives d).

(** The rests after one or more blanks, the longest run first (\s+).  Used in
    init_functions.py:142, 144. *)
Fixpoint blanks (s : string) : list string :=
  match s with
  | "" => []
  | String c s' => if is_ws c then (blanks s' ++ [s'])%list else []
  end.

(** All ways to match a format, in the order of the backtracking search.  Used in
    init_functions.py:142, 144. *)
Fixpoint matches (f : list item) (s : string) : list (list Z * string) :=
  match f with
  | [] => [([], s)]
  | Fld d :: f' => flat_map (fun vr => map (fun m => (fst vr :: fst m, snd m)) (matches f' (snd vr))) (options d s)
  | Lit c :: f' => match s with String a s' => if Ascii.eqb a c then matches f' s' else [] | "" => [] end
  | Ws :: f' => flat_map (matches f') (blanks s)
  end.

(** The numbers found by [strptime]: the first match, and nothing may remain.
    init_functions.py:142, 144. *)
Definition strptime (f : list item) (s : string) : res (list Z) :=
  match matches f s with
  | [] => Err ValueError                                     (* does not match format *)
  | (vs, r) :: _ => if (r =? "")%string then Ok vs else Err ValueError   (* unconverted data remains *)
  end.

(** ' %H:%M:%S', init_functions.py:142, 144 *)
Definition time_format : list item :=
  [Ws; Fld DHour; Lit ":"%char; Fld DMinute; Lit ":"%char; Fld DSecond].

(** '%Y:%m:%d %H:%M:%S', init_functions.py:142, ConfigData.py:442 *)
Definition colon_format : list item :=
  ([Fld DYear; Lit ":"%char; Fld DMonth; Lit ":"%char; Fld DDay] ++ time_format)%list.

(** '%d.%m.%Y %H:%M:%S', init_functions.py:144, ConfigData.py:444 *)
Definition dot_format : list item :=
  ([Fld DDay; Lit "."%char; Fld DMonth; Lit "."%char; Fld DYear] ++ time_format)%list.

(** A [datetime] without fraction of a second, init_functions.py:130-145. *)
Record moment := Moment { year : Z; month : Z; day : Z; hour : Z; minute : Z; second : Z }.

(** [_is_leap] of datetime.py, used by init_functions.py:142-144. *)
Definition is_leap (y : Z) : bool :=
  (y mod 4 =? 0) && (negb (y mod 100 =? 0) || (y mod 400 =? 0)).

(** [_DAYS_BEFORE_MONTH] and [_days_before_month] of datetime.py, used by
    init_functions.py:121. *)
Definition days_before_month (y m : Z) : Z :=
  nth (Z.to_nat m) [0; 0; 31; 59; 90; 120; 151; 181; 212; 243; 273; 304; 334] 0
  + (if (2 <? m) && is_leap y then 1 else 0).

(** [_days_in_month] of datetime.py, used by init_functions.py:142-144. *)
Definition days_in_month (y m : Z) : Z :=
  if (m =? 2) && is_leap y then 29 else nth (Z.to_nat m) [0; 31; 28; 31; 30; 31; 30; 31; 31; 30; 31; 30; 31] 0.

(** [_days_before_year] of datetime.py, used by init_functions.py:121. *)
Definition days_before_year (y : Z) : Z :=
  let z := y - 1 in z * 365 + z / 4 - z / 100 + z / 400.

(** [toordinal], used by the subtraction of init_functions.py:121. *)
Definition ordinal (y m d : Z) : Z := days_before_year y + days_before_month y m + d.

(** A [datetime] as a number of seconds; the difference of two is
    [(a - b).total_seconds()], init_functions.py:121-122. *)
Definition seconds (t : moment) : Z :=
  86400 * ordinal (year t) (month t) (day t) + 3600 * hour t + 60 * minute t + second t.

(** The checks of the constructor [datetime(...)], used by
    init_functions.py:142, 144. *)
Definition datetime (t : moment) : res moment :=
  if (1 <=? year t) && (year t <=? 9999) && (1 <=? month t) && (month t <=? 12)
     && (1 <=? day t) && (day t <=? days_in_month (year t) (month t))
     && (0 <=? hour t) && (hour t <=? 23) && (0 <=? minute t) && (minute t <=? 59)
     && (0 <=? second t) && (second t <=? 59)
  then Ok t else Err ValueError.

(** [_get_datetime_from_str], init_functions.py:130-145 and the same function in
    ConfigData.py:426-445. *)
Definition get_datetime_from_str (date time : string) : res moment :=
  if has_char ":"%char date then
    bind (strptime colon_format (date ++ " " ++ time)) (fun v =>
    match v with
    | [y; m; d; h; mi; s] => datetime (Moment y m d h mi s)
    | _ => Err ValueError                                    (* does not occur *)
    end)
  else
    bind (strptime dot_format (date ++ " " ++ time)) (fun v =>
    match v with
    | [d; m; y; h; mi; s] => datetime (Moment y m d h mi s)
    | _ => Err ValueError                                    (* does not occur *)
    end).

(** The capture time of a photo from its EXIF entry,
    init_functions.py:116-119: the entry must have exactly one blank. *)
Definition entry_time (entry : string) : res moment :=
  match split_on " "%char entry with
  | [date; time_meta] => get_datetime_from_str date time_meta
  | _ => Err ValueError                                      (* unpacking *)
  end.

(** [get_datetime], ConfigData.py:223-240: the program ends when the date or the
    time cannot be read. *)
Definition get_datetime (date start_time : string) : res moment :=
  match get_datetime_from_str date start_time with Ok t => Ok t | Err _ => Err SystemExit end.

(** [_calc_experiment_and_real_time] on texts, init_functions.py:101-127: [raw]
    is [get_exif_entry], [date] and [start_time] the texts of the
    configuration.  The experiment time in seconds and the time of day of the
    corrected time. *)
Definition calc_times (raw : string -> res string) (c : config) (date start_time : string) (img : string)
  : res (Z * Z) :=
  bind (int_of_str img) (fun n =>
  bind (raw (path_join (c_dir c) (format_int (c_name c) n))) (fun e =>
  bind (entry_time e) (fun t =>
  bind (get_datetime date start_time) (fun t0 =>
  bind (offset_ms (c_offset c)) (fun off =>
  Ok (seconds t - seconds t0, (1000 * seconds t - off) / 1000 mod 86400)))))).

(** The difference computed by [in_time_diff_to_img_time] from the EXIF entry of
    the time reference image and the time read from the clock in it,
    ConfigData.py:342-347. *)
Definition clock_offset (e clock_time : string) : res Z :=
  match split_on " "%char e with
  | [date; time_meta] =>
    bind (get_datetime_from_str date time_meta) (fun img_time =>
    bind (get_datetime_from_str date clock_time) (fun real_time =>
    Ok (seconds img_time - seconds real_time)))
  | _ => Err ValueError                                      (* unpacking *)
  end.
