(** The main program, the demo and its configuration files.
    Source: ledsa/__main__.py, ledsa/core/parser_arguments_run.py,
    ledsa/demo/demo_run.py, ledsa/demo/demo_setup.py *)
From Coq Require Import ZArith Lia Bool Ascii String List.
From Verif Require Import Base Str Substr Demo_Model Config_Model Ini_Model Images_Model Cli_Model.
Import ListNotations.
Local Open Scope string_scope.
Local Open Scope Z_scope.

(** ** The main program *)

(** The parsed command line, parser_arguments_declaration.py:4-109.
    [m_config_analysis] tells whether --config_analysis is given (its values are
    never used); [None] is an option that is not given. *)
Record cmdline := Cmdline {
  m_prepare : bool; m_extract : args;
  m_config_analysis : bool; m_analysis : bool; m_cc : bool;
  m_demo : bool; m_setup : option string; m_run : bool; m_cores : option Z;
  m_test : bool; m_test_debug : bool }.

(** What is called, in order.  __main__.py:32-43. *)
Inductive call :=
| PrepareImages
| Extract (a : action)
| CreateAnalysisConfig
| CorrectColours
| Coefficients
| Tests (debug : bool)
| SetupDemo (path : string)
| RunDemo (cores : Z).

(** [if option: ...], parser_arguments_run.py:25-28, 96-98, 109-115, 166-178. *)
Definition only (b : bool) (l : list call) : list call := if b then l else [].

(** [run_analysis_arguments] when config_analysis.ini is there,
    parser_arguments_run.py:159-178 *)
Definition analysis_calls (c : cmdline) : list call :=
  (only (m_config_analysis c) [CreateAnalysisConfig] ++ only (m_cc c) [CorrectColours])%list.

(** Its check, parser_arguments_run.py:168-174 *)
Definition analysis_config_missing (aconf : bool) (c : cmdline) : bool :=
  negb (m_config_analysis c) && (m_analysis c || m_cc c) && negb aconf.

(** [run_tools_arguments] ... [run_testing_arguments] one after another,
    __main__.py:39-44, parser_arguments_run.py:18-28, 101-115, 181-191: the calls and
    the exception raised after the last of them.  [conf] and [aconf] tell whether
    config.ini and config_analysis.ini exist. *)
Definition normal_calls (conf aconf : bool) (c : cmdline) : list call * option exn :=
  let tools := only (m_prepare c) [PrepareImages] in
  match run_data_extraction conf (m_extract c) with
  | Err e => (tools, Some e)
  | Ok acts =>
    if analysis_config_missing aconf c then ((tools ++ map Extract acts)%list, Some FileNotFoundError)
    else ((tools ++ map Extract acts ++ analysis_calls c ++
           analysis_calls c ++ only (m_analysis c) [Coefficients] ++
           only (m_test c) [Tests false] ++ only (m_test_debug c) [Tests true])%list, None)
  end.

(** Python's truth value of a text and of a number.  parser_arguments_run.py:125-139. *)
Definition truthy_text (s : option string) : bool :=
  match s with Some t => negb (t =? "")%string | None => false end.

(** [if args.n_cores], parser_arguments_run.py:127, 136. *)
Definition truthy_int (n : option Z) : bool :=
  match n with Some k => negb (k =? 0) | None => false end.

(** [run_demo_arguments], parser_arguments_run.py:118-141; [parser.error] exits. *)
Definition demo_calls (c : cmdline) : list call * option exn :=
  if negb (truthy_text (m_setup c)) && negb (m_run c) then ([], Some SystemExit)
  else if truthy_int (m_cores c) && negb (m_run c) then ([], Some SystemExit)
  else ((match m_setup c with
         | Some path => only (truthy_text (m_setup c)) [SetupDemo path]
         | None => []
         end ++
         only (m_run c) [RunDemo (match m_cores c with
                                  | Some n => if n =? 0 then 1 else n
                                  | None => 1
                                  end)])%list, None).

(** The calls one after another; [fails] tells which of them raise an exception.
    __main__.py:32-43. *)
Fixpoint perform (fails : call -> option exn) (l : list call) (e : option exn) : list call * option exn :=
  match l with
  | [] => ([], e)
  | x :: l' =>
    match fails x with
    | Some e' => ([x], Some e')
    | None => let '(done, r) := perform fails l' e in (x :: done, r)
    end
  end.

(** [main], __main__.py:12-44.  [no_args] is [len(argv) == 0]. *)
Definition main (fails : call -> option exn) (no_args conf aconf : bool) (c : cmdline) : list call * option exn :=
  if no_args then ([], Some SystemExit)
  else let '(l, e) := if m_demo c then demo_calls c else normal_calls conf aconf c in
       perform fails l e.

(** ** Running the demo *)

(** A command line without data extraction options, demo_run.py:23-29. *)
Definition no_extraction : args := Args None false false false false false false false false false false.
(** A command line without options, demo_run.py:23-29. *)
Definition no_cmd : cmdline := Cmdline false no_extraction false false false false None false None false false.
(** A command line with data extraction options only, demo_run.py:23-28. *)
Definition with_extraction (a : args) : cmdline := Cmdline false a false false false false None false None false false.

(** The five command lines of [run_demo], demo_run.py:23-29, after parsing. *)
Definition demo_commands : list cmdline :=
  [ with_extraction (Args None true false false false false false false false false false);      (* -s1 *)
    with_extraction (Args None false true false false false false false false false false);      (* -s2 *)
    with_extraction (Args None false false false true false false false false true false);       (* -s3_fast -rgb *)
    with_extraction (Args None false false false false false false false false false true);      (* -coord *)
    Cmdline false no_extraction false true false false None false None false false ].            (* --analysis *)

(** The directory in which the demo runs, demo_run.py:11-15.  [here] are the names
    in the working directory, [answer] what is typed if it has no simulation. *)
Definition demo_directory (here : list string) (answer : string) : string :=
  if existsb (fun n => (n =? "simulation")%string) here then "simulation" else path_join answer "simulation".

(** Editing the number of cores, demo_run.py:17-19, demo_setup.py:209-221: the new
    texts of config.ini and config_analysis.ini. *)
Definition edit_cores (n : Z) (files : string * string) : string * string :=
  if n =? 1 then files
  else (replace_params "num_cores" (str_of_Z n) (fst files), replace_params "num_cores" (str_of_Z n) (snd files)).

(** One [main] after the other; an exception ends the demo.  demo_run.py:23-29. *)
Fixpoint demo_mains (fails : call -> option exn) (conf aconf : bool) (l : list cmdline) : list call * option exn :=
  match l with
  | [] => ([], None)
  | c :: l' =>
    match main fails false conf aconf c with
    | (done, Some e) => (done, Some e)
    | (done, None) => let '(done', r) := demo_mains fails conf aconf l' in ((done ++ done')%list, r)
    end
  end.

(** [run_demo], demo_run.py:5-29 *)
Definition run_demo (fails : call -> option exn) (n : Z) (files : string * string) : (string * string) * (list call * option exn) :=
  (edit_cores n files, demo_mains fails true true demo_commands).

(** The number of cores used by the data extraction (DataExtractor.py:232) and
    the analysis (ExperimentData.py:105). *)
Definition cores_of (text : string) : res Z :=
  bind (load text) (fun t => bind (lookup t "DEFAULT" "num_cores") (fun v =>
  match v with Some x => int_of_str x | None => Err TypeError end)).

(** ** The configuration files of the demo, demo_setup.py:41-102 *)

(** The value of a parameter among the given ones; the text None if it is not given.
    demo_setup.py:44-68, 82-93. *)
Fixpoint given (l : list (string * string)) (p : string) : string :=
  match l with
  | [] => "None"
  | (q, v) :: l' => if (p =? q)%string then v else given l' p
  end.

(** The parameters given to [ConfigData], demo_setup.py:44-68; the others have the
    default None (ConfigData.py:13-21). *)
Definition demo_config_arg : string -> string :=
  given
    [("img_directory", "../image_data/");
     ("img_name_string", "V001_Cam01_{}.CR2");
     ("num_img_overflow", "9999");
     ("first_img_experiment_id", "1");
     ("last_img_experiment_id", "275");
     ("num_cores", "4");
     ("date", "27.11.2018");
     ("start_time", "15:36:07");
     ("time_diff_to_image_time", "-1");
     ("ref_img_id", "1");
     ("pixel_value_percentile", "99.875");
     ("channel", "all");
     ("max_num_leds", "1000");
     ("search_area_radius", "10");
     ("num_arrays", "7");
     ("first_img_analysis_id", "1");
     ("last_img_analysis_id", "275");
     ("num_skip_imgs", "0");
     ("num_skip_leds", "0")].

(** The parameters given to [ConfigDataAnalysis], demo_setup.py:84-95; the others
    have their defaults (ConfigDataAnalysis.py:9-13). *)
Definition demo_analysis_arg : string -> string :=
  given
    [("num_layers", "20");
     ("num_ref_images", "10");
     ("num_cores", "4");
     ("reference_property", "sum_col_val");
     ("average_images", "False");
     ("solver", "linear");
     ("weighting_preference", "-0.006");
     ("weighting_curvature", "1e-06");
     ("num_iterations", "200");
     ("lambda_reg", "0.001");
     ("camera_channels", "0")].

(** Lines, each preceded by a newline and the given blanks.  demo_setup.py:71-78. *)
Fixpoint lines_text (l : list (string * string)) (last : string) : string :=
  match l with
  | [] => String nl last
  | (blanks, x) :: l' => String nl (blanks ++ x ++ lines_text l' last)
  end.

(** The values set afterwards, demo_setup.py:69-80 *)
Definition demo_edge_indices : string :=
  lines_text [("   ", "457 246"); ("    ", "12 347"); ("    ", "578 671"); ("    ", "31 535"); ("    ", "825 838");
              ("    ", "198 698"); ("    ", "965 782")] "   ".

(** The coordinates, demo_setup.py:72-78. *)
Definition demo_edge_coordinates : string :=
  lines_text [("   ", "6.86 3.13 1.14 5.98 2.83 3.32"); ("   ", "5.96 2.83 0.99 5.98 2.83 3.35");
              ("   ", "5.96 2.83 1.17 5.05 2.62 3.32"); ("   ", "5.02 2.62 1.0 5.05 2.62 3.34");
              ("   ", "4.09 2.38 1.19 5.05 2.62 3.32"); ("   ", "4.09 2.38 1.0 4.12 2.38 3.35");
              ("   ", "3.17 2.25 1.17 4.12 2.38 3.32")] "   ".

(** [config.set(section, option, value)] on the new object, demo_setup.py:69-80, 96-100 *)
Definition set_new (c k v : string) (t : ini string) : ini string := put_opt c (lower k) (Some v) t.

(** The two files of the demo, demo_setup.py:82, 102 *)
Definition demo_files : string * string :=
  ( write (set_new "analyse_positions" "   led_array_edge_coordinates" demo_edge_coordinates
          (set_new "analyse_positions" "   led_array_edge_indices" demo_edge_indices
          (set_new "analyse_positions" "   ignore_led_indices" "781 675 746"
          (new_config config_stmts demo_config_arg)))),
    write (set_new "model_parameters" "   led_array_indices" "0 1 2 3 4 5 6"
          (set_new "model_parameters" "   domain_bounds" "0.99 3.35"
          (set_new "DEFAULT" "   camera_channels" "0 1 2"
          (set_new "experiment_geometry" "   camera_position" "7.29 6.46 2.3"
          (new_config analysis_stmts demo_analysis_arg))))) ).

(** The analysis options of a loaded config_analysis.ini as used in Cli_Model.v,
    ExperimentData.py:65-106 *)
Definition analysis_options (t : ini string) : astore := fun k =>
  let f := fun c o => match lookup t c o with Ok (Some v) => Some v | _ => None end in
  match k with
  | ANumLayers => f "model_parameters" "num_layers"
  | AChannels => f "DEFAULT" "camera_channels"
  | ARefImgs => f "DEFAULT" "ref_img_indices"
  | ANumRef => f "DEFAULT" "num_ref_images"
  | AArrays => f "model_parameters" "led_array_indices"
  | ABounds => f "model_parameters" "domain_bounds"
  | ACamera => f "experiment_geometry" "camera_position"
  | ACores => f "DEFAULT" "num_cores"
  end.

(** ** Setting up the demo *)

(** [_proceed_prompt], demo_setup.py:105-126: the answers are read until one of them
    is yes or no; [None] if they end before. *)
Fixpoint proceed_prompt (answers : list string) : option (bool * list string) :=
  match answers with
  | [] => None
  | a :: rest =>
    if (lower a =? "yes")%string then Some (true, rest)
    else if (lower a =? "no")%string then Some (false, rest)
    else proceed_prompt rest
  end.

(** The changes of the file system made by [setup_demo], one after the other.
    demo_setup.py:12-39. *)
Inductive change :=
| MakeDirectories
| ExtractImages
| WriteMarker
| WriteConfig
| WriteAnalysisConfig.

(** [setup_demo], demo_setup.py:12-39, 141-206: the changes it makes.  [marked] tells
    whether the marker file of an earlier setup exists. *)
Definition setup_demo (marked : bool) (answers : list string) : option (list change) :=
  let work := [MakeDirectories; ExtractImages; WriteMarker; WriteConfig; WriteAnalysisConfig] in
  match proceed_prompt answers with
  | None => None
  | Some (false, _) => Some []
  | Some (true, rest) =>
    if marked then
      match proceed_prompt rest with
      | None => None
      | Some (true, _) => Some work
      | Some (false, _) => Some []
      end
    else Some work
  end.

(** [os.path.basename]: what follows the last slash.  demo_setup.py:199. *)
Fixpoint basename (s : string) : string :=
  match s with
  | "" => ""
  | String a r => if has_char "/"%char r then basename r else if Ascii.eqb a "/"%char then r else s
  end.

(** The first component of a path with a slash.  demo_setup.py:194-203. *)
Definition top_directory (s : string) : option string :=
  if has_char "/"%char s then Some (hd "" (split_on "/"%char s)) else None.

(** The files directly in the image directory, by name.  demo_setup.py:186-204. *)
Notation directory := (list (string * string)).

(** The extraction loop, demo_setup.py:190-197.  A member is a name and its content;
    names that end with a slash are directories.  [dirs] are the directories in the
    image directory.  Moving a directory (whose base name is empty) onto the image
    directory, or a file onto a directory, fails. *)
Fixpoint extract_members (first : string) (members : list (string * string)) (dirs : list string) (files : directory)
  : res directory :=
  match members with
  | [] => Ok files
  | (name, content) :: rest =>
    if (name =? first)%string then extract_members first rest dirs files
    else
      let dirs' := match top_directory name with Some d => d :: dirs | None => dirs end in
      let b := basename name in
      if (b =? "")%string then Err OSError
      else if existsb (fun d => (d =? b)%string) dirs' then Err OSError
      else extract_members first rest dirs' (put b content files)
  end.

(** [_download_and_extract_images] without the download, demo_setup.py:188-203.  The
    archive itself is removed from the directory afterwards; the directory named like
    the first member is deleted with everything left in it. *)
Definition extract_images (archive : list (string * string)) (files : directory) : res directory :=
  match archive with
  | [] => Err IndexError
  | (first, _) :: _ => extract_members first archive [] files
  end.
