(** Reading results back in and post-processing them.
    Source: ledsa/postprocessing/simulation.py (class SimData) and
    ExtinctionCoefficients.save.
    Pandas data frames are lists of labelled columns; NaN is [None].  Numbers are
    rationals: rounding of float arithmetic is not modelled. *)
From Coq Require Import ZArith QArith Qabs Lia Bool Ascii String List.
From Verif Require Import Base Str Substr Cli_Model.
Import ListNotations.
Local Open Scope string_scope.
Local Open Scope Z_scope.

(** ** Heights and layers *)

(** Python's [int] on a float: truncation towards zero.  simulation.py:89-90. *)
Definition int_of_Q (x : Q) : Z := Z.quot (Qnum x) (Zpos (Qden x)).

(** [layer_from_height], simulation.py:89-90 *)
Definition layer_from_height (lower upper : Q) (n_layers : Z) (height : Q) : res Z :=
  if Qeq_bool (upper - lower) 0 then Err ZeroDivisionError
  else Ok (int_of_Q ((height - lower) / (upper - lower) * inject_Z n_layers)).

(** A column of [all_extco_df]: channel, LED array, layer and the values by time
    (the column labels are set in simulation.py:182-184). *)
Record column := Col { c_channel : Z; c_array : Z; c_layer : Z; c_values : list (option Q) }.

(** The columns read from one result file, simulation.py:182-185. *)
Definition file_columns (channel array : Z) (data : list (list (option Q))) : list column :=
  map (fun p => Col channel array (Z.of_nat (fst p)) (snd p)) (combine (seq 0 (length data)) data).

(** ** Smoothing *)

(** The values of a window without NaN, simulation.py:113-118. *)
Fixpoint all_some {A} (l : list (option A)) : option (list A) :=
  match l with
  | [] => Some []
  | Some a :: l' => match all_some l' with Some r => Some (a :: r) | None => None end
  | None :: _ => None
  end.

(** [df.rolling(window=w, closed='right').agg()] of one column: the value at
    step i uses the steps i-w+1..i; it is NaN if the window is not full or
    contains a NaN (min_periods defaults to w).  simulation.py:113-118. *)
Definition rolled {A} (agg : list A -> A) (w : nat) (s : list (option A)) (i : nat) : option A :=
  if (S i <? w)%nat then None
  else option_map agg (all_some (firstn w (skipn (S i - w) s))).

(** All steps, simulation.py:113-118. *)
Definition rolling {A} (agg : list A -> A) (w : nat) (s : list (option A)) : list (option A) :=
  map (rolled agg w s) (seq 0 (length s)).

(** [df.shift(k)]: the value at step i is the former value at step i-k, NaN if
    there is none.  simulation.py:113-118. *)
Definition shift {A} (k : Z) (s : list (option A)) : list (option A) :=
  map (fun i => let j := Z.of_nat i - k in
                if j <? 0 then None else nth (Z.to_nat j) s None) (seq 0 (length s)).

(** [_apply_moving_average], simulation.py:113-118; [agg] is the mean or the median. *)
Definition moving_average {A} (agg : list A -> A) (w : nat) (s : list (option A)) : list (option A) :=
  if (w =? 1)%nat then s else shift (- Z.of_nat (w / 2) + 1) (rolling agg w s).

(** Inside [mean], simulation.py:118. *)
Definition sumQ (l : list Q) : Q := fold_right Qplus 0%Q l.
(** simulation.py:118. *)
Definition mean (l : list Q) : Q := (sumQ l / inject_Z (Z.of_nat (length l)))%Q.

(** [get_extco_at_layer], simulation.py:320-321: [xs] raises KeyError if no
    column has the label.  The result is labelled by LED array. *)
Definition get_extco_at_layer (agg : list Q -> Q) (tab : list column) (channel layer : Z) (w : nat)
  : res (list (Z * list (option Q))) :=
  match filter (fun c => c_channel c =? channel) tab with
  | [] => Err KeyError
  | t => match filter (fun c => c_layer c =? layer) t with
         | [] => Err KeyError
         | t' => Ok (map (fun c => (c_array c, moving_average agg w (c_values c))) t')
         end
  end.

(** [get_extco_at_height], simulation.py:345-346 *)
Definition get_extco_at_height (agg : list Q -> Q) (lower upper : Q) (n_layers : Z) (tab : list column)
           (channel : Z) (height : Q) (w : nat) : res (list (Z * list (option Q))) :=
  bind (layer_from_height lower upper n_layers height) (fun k => get_extco_at_layer agg tab channel k w).

(** [get_extco_at_led_array], simulation.py:281-295: the row labels, the column
    labels and the columns of the result.  With yaxis='height' the heights are
    assigned to the index (the rows, i.e. the times); pandas requires as many
    labels as rows. *)
Inductive yaxis := Layer | Height (heights : list Q).

(** simulation.py:281-295. *)
Definition get_extco_at_led_array (agg : list Q -> Q) (times : list Q) (tab : list column)
           (channel array : Z) (y : yaxis) (w : nat) : res (list Q * list Z * list (list (option Q))) :=
  match filter (fun c => c_channel c =? channel) tab with
  | [] => Err KeyError
  | t => match filter (fun c => c_array c =? array) t with
         | [] => Err KeyError
         | t' =>
           let cols := map c_layer t' in
           let vals := map (fun c => moving_average agg w (c_values c)) t' in
           match y with
           | Layer => Ok (times, cols, vals)
           | Height hs => if (length hs =? length times)%nat then Ok (hs, cols, vals) else Err ValueError
           end
         end
  end.

(** ** Times *)

(** [argmin], simulation.py:129. *)
Fixpoint first_min (f : Q -> Q) (best : Q) (l : list Q) : Q :=
  match l with
  | [] => best
  | x :: l' => if Qle_bool (f best) (f x) then first_min f best l' else first_min f x l'
  end.

(** [get_closest_time], simulation.py:129: [argmin] returns the first minimum
    and raises ValueError for an empty index. *)
Definition get_closest_time (index : list Q) (time : Q) : res Q :=
  match index with
  | [] => Err ValueError
  | x :: l => Ok (first_min (fun t => Qabs (t - time)) x l)
  end.

(** The two places where a time shift is kept: the index of [all_extco_df]
    (None before the results are read) and [led_params_timedelta].
    simulation.py:29-36, 131-139. *)
Record sim := Sim { s_extco : option (list Z); s_delta : Z }.

(** [SimData.__init__], simulation.py:29-36 *)
Definition new_sim : sim := Sim None 0.

(** The operations that change them, simulation.py:131-139, 199-200. *)
Inductive op :=
| Shift (d : Z)                (* set_timeshift, simulation.py:138-140 *)
| Read (times : list Z).       (* _get_extco_df_from_path, simulation.py:186-189: a new index *)

Definition apply_op (s : sim) (o : op) : sim :=
  match o with
  | Shift d => Sim (option_map (map (Z.add d)) (s_extco s)) d
  | Read t => Sim (Some t) (s_delta s)
  end.

(** A history of operations, simulation.py:131-139. *)
Definition run (ops : list op) : sim := fold_left apply_op ops new_sim.

(** One row of a LED parameter table: time, LED, LED array, value of the
    requested parameter (simulation.py:155-160). *)
Record row := Row { r_time : Z; r_led : Z; r_array : Z; r_val : Q }.

(** The argument [n_ref], simulation.py:386-391. *)
Inductive nref := NFalse | NNone | NInt (k : Z).

(** [iloc[0:n].mean()]; NaN for no values.  simulation.py:388-391. *)
Definition mean_first (k : Z) (l : list Q) : option Q :=
  match firstn (Z.to_nat (adjust_bound (Z.of_nat (length l)) k)) l with
  | [] => None
  | l' => Some (mean l')
  end.

(** Division by the reference value; NaN resp. infinity is [None].  simulation.py:388-391. *)
Definition quotient (v : Q) (m : option Q) : option Q :=
  match m with
  | Some d => if Qeq_bool d 0 then None else Some (v / d)%Q
  | None => None
  end.

(** The reference value, simulation.py:386-391 and 431-436.  In Python
    [0 == False] holds.  [num_ref] is the configured number of reference images. *)
Definition relative (num_ref : Z) (n : nref) (vals : list Q) (v : Q) : option Q :=
  match n with
  | NFalse => Some v
  | NNone => quotient v (mean_first num_ref vals)
  | NInt k => if k =? 0 then Some v else quotient v (mean_first k vals)
  end.

(** The values of one LED, simulation.py:386-391. *)
Definition vals_of_led (led : Z) (tab : list row) : list Q :=
  map r_val (filter (fun r => r_led r =? led) tab).

(** [get_ledparams_at_led_array] before the pivot and for yaxis='led_id',
    simulation.py:383-391: time, LED and value. *)
Definition ledparams_at_led_array (num_ref delta : Z) (tab : list row) (array : Z) (n : nref)
  : list (Z * Z * option Q) :=
  let ii := filter (fun r => r_array r =? array) tab in
  map (fun r => (r_time r + delta, r_led r, relative num_ref n (vals_of_led (r_led r) ii) (r_val r))) ii.

(** [get_ledparams_at_led_id] for window 1, simulation.py:429-437; the time
    shift is not used. *)
Definition ledparams_at_led_id (num_ref delta : Z) (tab : list row) (led : Z) (n : nref)
  : list (Z * option Q) :=
  let ii := filter (fun r => r_led r =? led) tab in
  map (fun r => (r_time r, relative num_ref n (map r_val ii) (r_val r))) ii.

(** ** Result files *)

(** [l[i]].  simulation.py:171-173. *)
Definition item {A} (l : list A) (i : nat) : res A :=
  match nth_error l i with Some a => Ok a | None => Err IndexError end.

(** Channel and LED array from the path of a result file, simulation.py:172-173 *)
Definition channel_of_file (file : string) : res Z :=
  bind (item (split_str "channel_" file) 1) (fun s => bind (item (split_on "_"%char s) 0) int_of_str).

(** The LED array, simulation.py:173. *)
Definition array_of_file (file : string) : res Z :=
  bind (item (split_str "array_" file) 1) (fun s => bind (item (split_on "."%char s) 0) int_of_str).

(** The path under which [glob] finds a file written by [save],
    simulation.py:167-169 and ExtinctionCoefficients.py:140-143;
    [dir] is [path_simulation]. *)
Definition result_path (dir : string) (k : kind) (channel : Z) (property : string) (array : Z) : string :=
  dir ++ "/analysis/extinction_coefficients/" ++ kind_name k ++ "/" ++ result_name k channel property array.

(** What is written in front of the numbers, ExtinctionCoefficients.py:144-154
    and the [__str__] methods of ExtinctionCoefficients (lines 68-71),
    Experiment (lines 164-168), Layers (63-64) and Camera (86-87).  The
    arguments are the printed values. *)
Record head := Head {
  h_channel : string; h_array : string; h_amount : string; h_bottom : string; h_top : string;
  h_x : string; h_y : string; h_z : string;
  h_property : string; h_ref : string; h_solver : string; h_lambda : string; h_version : string;
  h_bottoms : list string; h_tops : list string; h_centers : list string }.

(** [range(amount - 1)] layer names after the first one, line 154 *)
Definition layer_columns (amount : nat) : string :=
  "layer0" ++ String.concat "" (map (fun i => ",layer" ++ str_of_Z (Z.of_nat i + 1)) (seq 0 (amount - 1))).

(** The line end, ExtinctionCoefficients.py:145-154. *)
Definition nls : string := String nl "".

(** The header, ExtinctionCoefficients.py:68-71, 144-154, with the texts of the
    experiment, the layers and the camera, Experiment.py:63-64, 86-87, 164-168. *)
Definition header (h : head) (amount : nat) : string :=
  "channel: " ++ h_channel h ++ ", led_array: " ++ h_array h ++ nls ++
  "num_of_layers: " ++ h_amount h ++ ", bottom_border: " ++ h_bottom h ++ ", top_border: " ++ h_top h ++ nls ++
  "Camera: (" ++ h_x h ++ ", " ++ h_y h ++ ", " ++ h_z h ++ ")" ++ nls ++
  "Reference_property: " ++ h_property h ++ ", Ref_img_indices: " ++ h_ref h ++ ", Solver: " ++ h_solver h ++
  ", Lambda_reg: " ++ h_lambda h ++ ", LEDSA " ++ h_version h ++ nls ++
  "Layer_bottom_height[m]," ++ join "," (h_bottoms h) ++ nls ++
  "Layer_top_height[m]," ++ join "," (h_tops h) ++ nls ++
  "Layer_center_height[m]," ++ join "," (h_centers h) ++ nls ++
  "Experiment_Time[s]," ++ layer_columns amount.

(** [np.savetxt(..., delimiter=',', header=header)]: every line of the header
    is preceded by "# "; one line per row.  The entries are the printed numbers.
    ExtinctionCoefficients.py:159. *)
Definition saved_lines (h : head) (amount : nat) (rows : list (list string)) : list string :=
  (map (fun l => String.append "# " l) (split_on nl (header h amount)) ++ map (join ",") rows)%list.

(** [pd.read_csv(file, skiprows=7)], simulation.py:171: the column names and
    the fields of the other lines. *)
Definition read_lines (ls : list string) : res (list string * list (list string)) :=
  match skipn 7 ls with
  | [] => Err ValueError
  | c :: rows => Ok (split_on ","%char c, map (split_on ","%char) rows)
  end.

(** ** Pixels of one LED *)

(** Rows of the file led_search_areas_with_coordinates.csv: LED id and pixel position.
    simulation.py:460-463. *)
Definition position := (Z * Z * Z)%type.

(** [get_pixel_cordinates_of_LED], simulation.py:460-463: the row number is
    compared with the LED id. *)
Definition pixel_position (rows : list position) (led : Z) : res (Z * Z) :=
  if led <? 0 then Err IndexError
  else match nth_error rows (Z.to_nat led) with
       | Some (_, x, y) => Ok (x, y)
       | None => Err IndexError
       end.

(** A radius is an integer given by the caller or the text of the configuration
    file, simulation.py:57 and 487. *)
Inductive radius := RInt (r : Z) | RText (s : string).

(** [seq[a:b]].  simulation.py:490-497. *)
Definition slice {A} (l : list A) (a b : Z) : list A :=
  firstn (Z.to_nat (adjust_bound (Z.of_nat (length l)) b - adjust_bound (Z.of_nat (length l)) a))
         (skipn (Z.to_nat (adjust_bound (Z.of_nat (length l)) a)) l).

(** [get_pixel_values_of_led], simulation.py:483-498.  [image time channel] is
    the array read for that time (or the error raised when reading it); an
    integer minus a text is a TypeError; [None] is returned for radius 0 or "". *)
Definition get_pixel_values_of_led {A} (path_images : string) (config_radius : string)
           (rows : list position) (image : Q -> Z -> res (list (list A)))
           (led channel : Z) (time : Q) (arg : option Z) : res (option (list (list A))) :=
  if (path_images =? "")%string then Err ValueError
  else
    let r := match arg with Some r => RInt r | None => RText config_radius end in
    match r with
    | RInt 0 => Ok None
    | RText "" => Ok None
    | _ =>
      bind (pixel_position rows led) (fun p =>
      bind (image time channel) (fun img =>
      match r with
      | RText _ => Err TypeError
      | RInt k => Ok (Some (rev (map (fun line => slice line (snd p - k) (snd p + k))
                                     (slice img (fst p - k) (fst p + k)))))
      end))
    end.
