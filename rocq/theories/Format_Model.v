(** Text format of the step-3 result files and reading them back.
    Source: ledsa/data_extraction/LEDAnalysisData.py, step_3_functions.py,
    ledsa/core/file_handling.py:74-113 *)
From Coq Require Import ZArith QArith Qround Qpower Lia Bool Ascii String List.
From Verif Require Import Base Str Images_Model Step3_Model.
Import ListNotations.
Local Open Scope string_scope.
Local Open Scope Z_scope.

(** ** Python's [format(x, '10.4e')] for finite numbers.
    Numbers are exact rationals here; the code has float64, whose values are
    rationals, so this is the correctly rounded (half to even) output. *)

(** Base of the decimal notation (format '10.4e'), LEDAnalysisData.py:68-84. *)
Definition ten : Q := 10 # 1.

(** Decimal exponent of a positive number: 10^e <= x < 10^(e+1).  LEDAnalysisData.py:68-84. *)
Fixpoint find_up (fuel : nat) (x : Q) (e : Z) : Z :=
  match fuel with
  | O => e
  | S f => if Qle_bool (Qpower ten (e + 1)) x then find_up f x (e + 1) else e
  end.

(** The same for numbers below 1, LEDAnalysisData.py:68-84. *)
Fixpoint find_down (fuel : nat) (x : Q) (e : Z) : Z :=
  match fuel with
  | O => e
  | S f => if Qle_bool (Qpower ten e) x then e else find_down f x (e - 1)
  end.

(** The decimal exponent, LEDAnalysisData.py:68-84. *)
Definition exp10 (x : Q) : Z :=
  if Qle_bool 1 x then find_up (Z.to_nat (Z.log2 (Qnum x))) x 0
  else find_down (Z.to_nat (Z.log2 (Zpos (Qden x)) + 1)) x (-1).

(** Rounding of the last digit, LEDAnalysisData.py:68-84. *)
Definition round_half_even (y : Q) : Z :=
  let q := Qfloor y in
  match Qcompare (y - inject_Z q) (1 # 2) with
  | Lt => q
  | Gt => q + 1
  | Eq => if Z.even q then q else q + 1
  end.

(** Five-digit mantissa m and exponent e, meaning m * 10^(e-4).  LEDAnalysisData.py:68-84. *)
Definition sci (x : Q) : Z * Z :=
  if Qeq_bool x 0 then (0, 0)
  else
    let e := exp10 x in
    let m := round_half_even (x * Qpower ten (4 - e)) in
    if m =? 100000 then (10000, e + 1) else (m, e).

(** The digits of format '10.4e', LEDAnalysisData.py:68-84. *)
Definition mantissa_text (m : Z) : string :=
  String (digit_char (m / 10000))
  (String "."%char
  (String (digit_char (m / 1000 mod 10))
  (String (digit_char (m / 100 mod 10))
  (String (digit_char (m / 10 mod 10))
  (String (digit_char (m mod 10)) ""))))).

(** The exponent of format '10.4e', at least two digits, LEDAnalysisData.py:68-84. *)
Definition exponent_text (e : Z) : string :=
  String "e"%char (String (if e <? 0 then "-"%char else "+"%char) (zfill 2 (str_of_Z (Z.abs e)))).

(** Blanks in front of a text, LEDAnalysisData.py:68-84. *)
Fixpoint spaces (k : nat) (s : string) : string :=
  match k with O => s | S k' => String " "%char (spaces k' s) end.

(** Right-aligned in a field of width [w].  LEDAnalysisData.py:68-84. *)
Definition pad (w : nat) (s : string) : string := spaces (w - String.length s) s.

(** Format '.4e', LEDAnalysisData.py:68-84. *)
Definition sci_text (x : Q) : string :=
  let '(m, e) := sci (if Qle_bool 0 x then x else - x)%Q in
  let t := mantissa_text m ++ exponent_text e in
  if Qle_bool 0 x then t else String "-"%char t.

(** Format '10.4e', LEDAnalysisData.py:68-84. *)
Definition fmt_e (x : Q) : string := pad 10 (sci_text x).

(** [format(n, 'wd')].  LEDAnalysisData.py:68-84. *)
Definition fmt_d (w : nat) (n : Z) : string := pad w (str_of_Z n).

(** ** [float(s)] for decimal notation (no 'inf', 'nan', underscores): mantissa
    and decimal exponent. *)
(** Called by [np.loadtxt], file_handling.py:96. *)
Fixpoint scan_digits (s : string) (acc : Z) (n : Z) : Z * Z * string :=
  match s with
  | "" => (acc, n, "")
  | String c s' =>
    match digit_val c with
    | Some d => scan_digits s' (10 * acc + d) (n + 1)
    | None => (acc, n, s)
    end
  end.

(** The exponent of a float, read by [np.loadtxt], file_handling.py:96. *)
Definition parse_exponent (s : string) : option Z :=
  let signed (neg : bool) (t : string) :=
    let '(v, n, rest) := scan_digits t 0 0 in
    if (n =? 0) || negb (rest =? "")%string then None else Some (if neg then - v else v) in
  match s with
  | String c t => if Ascii.eqb c "-"%char then signed true t
                  else if Ascii.eqb c "+"%char then signed false t
                  else signed false s
  | "" => None
  end.

(** A float without sign, read by [np.loadtxt], file_handling.py:96. *)
Definition parse_unsigned (s : string) : option (Z * Z) :=
  let '(a, na, r1) := scan_digits s 0 0 in
  let '(b, nb, r2) := match r1 with
                      | String c r => if Ascii.eqb c "."%char then scan_digits r a 0 else (a, 0, r1)
                      | "" => (a, 0, r1)
                      end in
  if na + nb =? 0 then None
  else match r2 with
       | "" => Some (b, - nb)
       | String c r3 =>
         if Ascii.eqb c "e"%char || Ascii.eqb c "E"%char
         then match parse_exponent r3 with Some x => Some (b, x - nb) | None => None end
         else None
       end.

(** A float with optional sign, read by [np.loadtxt], file_handling.py:96. *)
Definition parse_decimal (s : string) : option (Z * Z) :=
  match s with
  | String c t =>
    if Ascii.eqb c "-"%char then option_map (fun p => (- fst p, snd p)) (parse_unsigned t)
    else if Ascii.eqb c "+"%char then parse_unsigned t
    else parse_unsigned s
  | "" => None
  end.

(** The number meant by mantissa and exponent, file_handling.py:96. *)
Definition dec_val (p : Z * Z) : Q := inject_Z (fst p) * Qpower ten (snd p).

(** [float(s)], file_handling.py:96. *)
Definition float_of_str (s : string) : res Q :=
  match parse_decimal (strip s) with Some p => Ok (dec_val p) | None => Err ValueError end.

(** ** The record lines *)

(** Results of a fit, as stored in [LEDAnalysisData].  LEDAnalysisData.py:26-48. *)
Record fit_data := FitData {
  f_cx : Q; f_cy : Q;                       (* led_center_x, led_center_y *)
  f_pars : list Q;                          (* x, y, dx, dy, A, alpha, wx, wy *)
  f_success : bool; f_fun : Q; f_nfev : Z; f_time : Q }.

(** [get_main_data_string], LEDAnalysisData.py:67-76: no comma at the end. *)
Definition main_data_string (id arr sum : Z) (mean : Q) (max : Z) : string :=
  fmt_d 4 id ++ "," ++ fmt_d 2 arr ++ "," ++
  fmt_e (inject_Z sum) ++ "," ++ fmt_e mean ++ "," ++ str_of_Z max.

(** [get_fit_data_string], LEDAnalysisData.py:72-85: no comma at the start. *)
Definition fit_data_string (f : fit_data) : string :=
  fmt_e (f_cx f) ++ ", " ++ fmt_e (f_cy f) ++ "," ++
  join "," (map fmt_e (f_pars f)) ++ "," ++
  fmt_d 12 (if f_success f then 1 else 0) ++ "," ++ fmt_e (f_fun f) ++ "," ++
  fmt_d 9 (f_nfev f) ++ "," ++ fmt_e (f_time f).

(** [__str__], LEDAnalysisData.py:54-65 (line end left out) *)
Definition led_line (d : led_data fit_data) : string :=
  main_data_string (d_id d) (d_array d) (d_sum d) (d_mean d) (d_max d) ++
  match d_fit d with None => "" | Some f => fit_data_string f end.

(** [_create_header], step_3_functions.py:283-312 (two lines). *)
Definition header_lines (basename img : string) (channel : Z) (time : string) (fit : bool) : list string :=
  [ "# image root = " ++ basename ++ ", photo file name = " ++ img ++ ", channel = " ++ str_of_Z channel ++
      ", time[s] = " ++ time;
    "# id,line,sum_col_value,average_col_value,max_col_value" ++
      (if fit then ",led_center_x, led_center_y,x,y,dx,dy,A,alpha,wx,wy,fit_success,fit_fun,fit_nfev,fit_time// all spatial quantities in pixel coordinates"
       else "") ].

(** The lines of a result file, [_save_results_in_file], step_3_functions.py:181-188 *)
Definition result_file (basename img : string) (channel : Z) (time : string) (fit : bool)
           (ds : list (led_data fit_data)) : list string :=
  header_lines basename img channel time fit ++ map led_line ds.

(** [read_table(file, delim=',')] with dtype float, file_handling.py:74-113, as
    a list of rows (the one-dimensional special case is handled by the users). *)
Definition read_floats (lines : list string) : res (list (list Q)) :=
  let rows := csv_rows lines in
  bind (mapM (mapM float_of_str) rows) (fun t =>
  match t with
  | [] => Ok []
  | r :: rs => if forallb (fun x => (List.length x =? List.length r)%nat) rs then Ok t else Err ValueError
  end).
