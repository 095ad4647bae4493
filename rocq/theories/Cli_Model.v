(** The command line: data extraction steps, the analysis run and its parameters.
    Source: ledsa/core/parser_arguments_run.py, ledsa/__main__.py,
    ledsa/analysis/ExperimentData.py, ledsa/analysis/ExtinctionCoefficients.py *)
From Coq Require Import ZArith Lia Bool Ascii String List.
From Verif Require Import Base Str Config_Model.
Import ListNotations.
Local Open Scope string_scope.
Local Open Scope Z_scope.

(** ** Data extraction *)

(** The data extraction options after parsing, parser_arguments_declaration.py:19-52. *)
Record args := Args {
  a_config : option (list string);      (* --config, None if not given *)
  a_s1 : bool; a_s2 : bool; a_s3 : bool; a_fast : bool; a_restart : bool;
  a_red : bool; a_green : bool; a_blue : bool; a_rgb : bool; a_coord : bool }.

(** What is done, in order.  parser_arguments_run.py:38-98. *)
Inductive action :=
| CreateConfig (img_dir ref_img cores : option string)
| FindSearchAreas (channels : list Z)
| MatchLeds (channels : list Z)
| Step3 (channels : list Z) (fit : bool)
| Continue (channels : list Z) (fit : bool)
| Coordinates.

(** [channels], parser_arguments_run.py:57-68 *)
Definition channels_of (a : args) : list Z :=
  let l := if a_rgb a then [0; 1; 2]
           else ((if a_red a then [0] else []) ++ (if a_green a then [1] else []) ++
                 (if a_blue a then [2] else []))%list in
  match l with [] => [0] | _ => l end.

(** [args.step_3] after lines 70-71; [and] binds tighter than [or]. *)
Definition step3_set (a : args) : bool :=
  a_s3 a || (a_red a || a_green a || a_blue a || (a_rgb a && negb (a_fast a))).

(** [--config], parser_arguments_run.py:38-47 *)
Definition config_actions (l : list string) : list action :=
  match l with
  | [] => [CreateConfig None None None]
  | [d] => [CreateConfig (Some d) None None]
  | [d; r] => [CreateConfig (Some d) (Some r) None]
  | [d; r; n] => [CreateConfig (Some d) (Some r) (Some n)]
  | _ => []
  end.

(** [if option: ...], parser_arguments_run.py:73-98. *)
Definition when (b : bool) (l : list action) : list action := if b then l else [].

(** [run_data_extraction_arguments], parser_arguments_run.py:31-98: the actions
    if each of them succeeds. *)
Definition run_data_extraction (config_exists : bool) (a : args) : res (list action) :=
  let ch := channels_of a in
  let steps :=
    (when (a_s1 a) [FindSearchAreas ch] ++
     when (a_s2 a) [MatchLeds ch] ++
     when (step3_set a) [Step3 ch true] ++
     when (a_fast a) [Step3 ch false] ++
     when (a_restart a) [Continue ch false] ++
     when (a_coord a) [Coordinates])%list in
  match a_config a with
  | Some l => Ok (config_actions l ++ steps)%list
  | None =>
    if a_s1 a || a_s2 a || a_s3 a || a_fast a || a_restart a || a_red a || a_green a || a_blue a
       || a_rgb a || a_coord a
    then if config_exists then Ok steps else Err FileNotFoundError
    else Ok steps
  end.

(** ** The solver *)

(** The two solvers, parser_arguments_run.py:207-216. *)
Inductive kind := Linear | Nonlinear.

(** The solver announced for a solver option, parser_arguments_run.py:203-216 *)
Definition kind_of (solver : string) : kind :=
  let s := lower solver in
  if (s =? "linear")%string then Linear
  else if ((s =? "nonlinear") || (s =? "numeric"))%string then Nonlinear
  else Linear.

(** The solver parameters; [None] is Python's None, ExperimentData.py:54-59. *)
Record params (F : Type) := Params { p_pref : option F; p_curv : option F; p_iter : option Z; p_lambda : option F }.
Arguments Params {F}. Arguments p_pref {F}. Arguments p_curv {F}. Arguments p_iter {F}. Arguments p_lambda {F}.

(** Loading them, ExperimentData.py:77-82.  [pf] is [float]; the four texts are
    the options weighting_preference, weighting_curvature, num_iterations and
    lambda_reg. *)
Definition load_params {F} (pf : string -> res F) (solver pref curv iter lam : string) : res (params F) :=
  if (solver =? "nonlinear")%string then
    bind (pf pref) (fun a => bind (pf curv) (fun b => bind (int_of_str iter) (fun n =>
    Ok (Params (Some a) (Some b) (Some n) None))))
  else if (solver =? "linear")%string then
    bind (pf lam) (fun l => Ok (Params None None None (Some l)))
  else Ok (Params None None None None).

(** The coefficients of one image, ExtinctionCoefficientsLinear.py:43-91 and
    ExtinctionCoefficientsNonLinear.py:61-89: a parameter that is None makes
    [np.sqrt(None)] resp. the weighted sum in the cost function fail.
    [solve_lin] and [solve_non] are the solvers themselves. *)
Definition solve_image {F I C} (solve_lin : F -> I -> C) (solve_non : F -> F -> option Z -> I -> C)
           (k : kind) (p : params F) (img : I) : res C :=
  match k with
  | Linear => match p_lambda p with Some l => Ok (solve_lin l img) | None => Err TypeError end
  | Nonlinear => match p_curv p, p_pref p with
                 | Some c, Some w => Ok (solve_non c w (p_iter p) img)
                 | _, _ => Err TypeError
                 end
  end.

(** The coefficients of all images for a solver option.  parser_arguments_run.py:223-245. *)
Definition solve_images {F I C} (solve_lin : F -> I -> C) (solve_non : F -> F -> option Z -> I -> C)
           (pf : string -> res F) (solver pref curv iter lam : string) (imgs : list I) : res (list C) :=
  bind (load_params pf solver pref curv iter lam) (fun p =>
  mapM (solve_image solve_lin solve_non (kind_of solver) p) imgs).

(** ** Result files of the analysis *)

(** The normalised name of the solver, parser_arguments_run.py:207-216. *)
Definition kind_name (k : kind) : string := match k with Linear => "linear" | Nonlinear => "nonlinear" end.

(** The file name, parser_arguments_run.py:221 and ExtinctionCoefficients.py:143 *)
Definition result_name (k : kind) (channel : Z) (property : string) (array : Z) : string :=
  "extinction_coefficients_" ++ kind_name k ++ "_channel_" ++ str_of_Z channel ++ "_" ++ property
  ++ "_led_array_" ++ str_of_Z array ++ ".csv".

(** Absolute paths are lists of directory names, the last one first.
    parser_arguments_run.py:220. *)
Definition path := list string.

(** [os.path.join(os.getcwd(), '../analysis', 'extinction_coefficients', name)],
    parser_arguments_run.py:220-221 *)
Definition looked_for (cwd : path) (k : kind) (channel : Z) (property : string) (array : Z) : path :=
  result_name k channel property array :: "extinction_coefficients" :: "analysis" :: tl cwd.

(** The file written by [save], ExtinctionCoefficients.py:140-143;
    [experiment.path] is the working directory. *)
Definition written (cwd : path) (k : kind) (channel : Z) (property : string) (array : Z) : path :=
  result_name k channel property array :: kind_name k :: "extinction_coefficients" :: "analysis" :: cwd.

(** [os.path.exists] compares paths, parser_arguments_run.py:222. *)
Fixpoint path_eqb (a b : path) : bool :=
  match a, b with
  | [], [] => true
  | x :: a', y :: b' => (x =? y)%string && path_eqb a' b'
  | _, _ => false
  end.

(** The loop over LED arrays and channels, parser_arguments_run.py:218-249:
    the pairs that are computed, and the files afterwards. *)
Fixpoint analyse (cwd : path) (k : kind) (property : string) (jobs : list (Z * Z)) (files : list path)
  : list (Z * Z) * list path :=
  match jobs with
  | [] => ([], files)
  | (array, channel) :: js =>
    if existsb (path_eqb (looked_for cwd k channel property array)) files
    then analyse cwd k property js files
    else let '(done, fs) := analyse cwd k property js (written cwd k channel property array :: files) in
         ((array, channel) :: done, fs)
  end.

(** The jobs in the order of the loops.  parser_arguments_run.py:218-219. *)
Definition jobs_of (arrays channels : list Z) : list (Z * Z) :=
  flat_map (fun a => map (fun c => (a, c)) channels) arrays.

(** ** Colour correction and analysis in one call *)

(** The table of one channel as columns by name.  file_handling.py:203-217. *)
Definition columns (V : Type) := string -> option V.

(** [apply_cc_on_ref_property]: the column [property ++ '_cc'] is added,
    data_preparation.py:26-28, file_handling.py:203-217.  [correct] computes the
    corrected column from the uncorrected one (and the other channels). *)
Definition cc_column {V} (correct : V -> V) (property : string) (t : columns V) : res (columns V) :=
  match t property with
  | None => Err KeyError
  | Some v => Ok (fun c => if (c =? property ++ "_cc")%string then Some (correct v) else t c)
  end.

(** [load_img_data] reads the column [reference_property],
    ExtinctionCoefficients.py:130. *)
Definition read_column {V} (property : string) (t : columns V) : res V :=
  match t property with None => Err KeyError | Some v => Ok v end.

(** [main] without data extraction, __main__.py:40-44: [run_analysis_arguments]
    runs twice, once on its own and once before the extinction coefficients. *)
Definition run_analysis {V C} (correct : V -> V) (coefficients : V -> C)
           (cc analysis : bool) (property : string) (t : columns V) : res (columns V * option C) :=
  let prep := fun t => if cc then cc_column correct property t else Ok t in
  bind (prep t) (fun t1 => bind (prep t1) (fun t2 =>
  if analysis then bind (read_column property t2) (fun v => Ok (t2, Some (coefficients v)))
  else Ok (t2, None))).

(** ** Loading the analysis parameters *)

(** The options read by [load_config_parameters], ExperimentData.py:65-106. *)
Inductive akey := ANumLayers | AChannels | ARefImgs | ANumRef | AArrays | ABounds | ACamera | ACores.

(** The option names are different, ExperimentData.py:65-106. *)
Definition akey_eq_dec : forall a b : akey, {a = b} + {a <> b}.
Proof. decide equality. Defined.

(** The values of config_analysis.ini, ExperimentData.py:70. *)
Definition astore := akey -> option string.

(** [self[section][option] = value], ConfigDataAnalysis.py:153-181. *)
Definition aupd (s : astore) (k : akey) (v : string) : astore :=
  fun k' => if akey_eq_dec k k' then Some v else s k'.

(** The configuration and the prompts shown so far, ExperimentData.py:65-125. *)
Record astate := AState { acur : astore; aasked : list akey }.

(** The part of [ExperimentData] that the analysis uses.  ExperimentData.py:46-62. *)
Record exdata (F : Type) := ExData {
  x_layers : Z * F * F; x_camera : F * F * F; x_channels : option (list Z);
  x_refs : option (list Z); x_num_ref : option Z; x_arrays : option (list Z); x_cpus : Z }.
Arguments ExData {F}. Arguments x_arrays {F}. Arguments x_channels {F}. Arguments x_layers {F}.
Arguments x_camera {F}.

(** [config.get_list_of_values], ExperimentData.py:72-101; ConfigDataAnalysis.py:114-147. *)
Definition alist {A} (pf : string -> res A) (s : astore) (k : akey) : option (list A) :=
  get_list_of_values pf None (option_map Some (s k)).

(** [if value is None: config.in_...(); config.save()].  ExperimentData.py:86-101. *)
Definition ask_if_none {A} (pf : string -> res A) (ans : akey -> string) (k : akey) (st : astate) : astate :=
  match alist pf (acur st) k with
  | Some _ => st
  | None => AState (aupd (acur st) k (ans k)) (aasked st ++ [k])
  end.

(** [config[section][option]], ExperimentData.py:65-106. *)
Definition aget (s : astore) (k : akey) : res string :=
  match s k with Some v => Ok v | None => Err KeyError end.

(** [load_config_parameters], ExperimentData.py:65-106, without the solver
    options; called by the constructor. *)
Definition load_exdata {F} (pf : string -> res F) (ans : akey -> string) (s : astore)
  : astate * res (exdata F) :=
  let st0 := AState s [] in
  match bind (aget s ANumLayers) int_of_str with
  | Err e => (st0, Err e)
  | Ok n =>
    let refs := alist int_of_str s ARefImgs in
    match (match refs with
           | None => bind (aget s ANumRef) (fun v => bind (int_of_str v) (fun k => Ok (Some k)))
           | Some _ => Ok None
           end) with
    | Err e => (st0, Err e)
    | Ok num_ref =>
      let st1 := ask_if_none int_of_str ans AArrays st0 in
      let st2 := ask_if_none pf ans ABounds st1 in
      let st3 := ask_if_none pf ans ACamera st2 in
      (st3,
       match alist pf (acur st3) ABounds with
       | Some [lo; hi] =>
         match alist pf (acur st3) ACamera with
         | Some [x; y; z] =>
           bind (aget s ACores) (fun v => bind (int_of_str v) (fun cpus =>
           Ok (ExData (n, lo, hi) (x, y, z) (alist int_of_str s AChannels) refs num_ref
                      (alist int_of_str (acur st3) AArrays) cpus)))
         | _ => Err TypeError                    (* Camera( *camera_position ) *)
         end
       | _ => Err TypeError                      (* Layers(num_layers, *domain_bounds) *)
       end)
    end
  end.

(** [ask_if_text_none]: one prompt of [request_config_parameters],
    ExperimentData.py:108-125 *)
Definition ask_if_text_none (ans : akey -> string) (k : akey) (st : astate) : res astate :=
  bind (aget (acur st) k) (fun v =>
  Ok (if (v =? "None")%string then AState (aupd (acur st) k (ans k)) (aasked st ++ [k]) else st)).

(** [request_config_parameters], ExperimentData.py:108-125. *)
Definition request_exdata (ans : akey -> string) (st : astate) : res astate :=
  bind (ask_if_text_none ans ACamera st) (fun st =>
  bind (ask_if_text_none ans ANumLayers st) (fun st =>
  bind (ask_if_text_none ans ABounds st) (fun st =>
  ask_if_text_none ans AArrays st))).

(** [ex_data = ExperimentData(); ex_data.request_config_parameters()] and the
    jobs of the loop, parser_arguments_run.py:200-219. *)
Definition prepare_analysis {F} (pf : string -> res F) (ans : akey -> string) (s : astore)
  : astate * res (exdata F * list (Z * Z)) :=
  let '(st, r) := load_exdata pf ans s in
  match r with
  | Err e => (st, Err e)
  | Ok x =>
    match request_exdata ans st with
    | Err e => (st, Err e)
    | Ok st' =>
      (st', match x_arrays x with
            | None => Err TypeError              (* for array in None *)
            | Some [] => Ok (x, [])
            | Some arrays =>
              match x_channels x with
              | None => Err TypeError            (* for channel in None *)
              | Some channels => Ok (x, jobs_of arrays channels)
              end
            end)
    end
  end.
