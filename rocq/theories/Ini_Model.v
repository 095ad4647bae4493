(** Configuration files: the configuration objects, the file they write and
    the file they read.
    Source: ledsa/core/ConfigData.py, ledsa/analysis/ConfigDataAnalysis.py.
    Both classes derive from [configparser.ConfigParser]; its reader and writer
    are modelled from the Python 3.11 standard library (configparser.py).
    Interpolation of '%' in values is modelled in Percent_Model.v; characters above
    ASCII are not modelled. *)
From Coq Require Import ZArith Lia Bool Ascii String List.
From Verif Require Import Base Str Substr Demo_Model Config_Model.
Import ListNotations.
Local Open Scope string_scope.

(** ** Dictionaries that keep the order of insertion *)

(** Python [d.get(k)].  ConfigData.py:79. *)
Fixpoint get {A} (k : string) (l : list (string * A)) : option A :=
  match l with
  | [] => None
  | (k', a) :: l' => if (k' =? k)%string then Some a else get k l'
  end.

(** Python [d[k] = a].  ConfigData.py:79. *)
Fixpoint put {A} (k : string) (a : A) (l : list (string * A)) : list (string * A) :=
  match l with
  | [] => [(k, a)]
  | (k', b) :: l' => if (k' =? k)%string then (k', a) :: l' else (k', b) :: put k a l'
  end.

(** The options of one section.  [None] is an option without a value
    ([allow_no_value=True], ConfigData.py:79, ConfigDataAnalysis.py:48). *)
Notation sect V := (list (string * option V)).

(** The sections of a parser; the first one is DEFAULT.
    ConfigData.py:79, ConfigDataAnalysis.py:48. *)
Notation ini V := (list (string * sect V)).

(** A new parser, ConfigData.py:79, ConfigDataAnalysis.py:48 *)
Definition no_options {V} : ini V := [("DEFAULT", [])].

(** The options of section [c] of a parser.  ConfigData.py:242-293. *)
Definition section {V} (c : string) (t : ini V) : sect V :=
  match get c t with Some s => s | None => [] end.

(** [parser.set(c, k, v)] once the name [k] is normalised.
    ConfigData.py:83-150, ConfigDataAnalysis.py:52-85. *)
Definition put_opt {V} (c k : string) (v : option V) (t : ini V) : ini V :=
  put c (put k v (section c t)) t.

(** ** Writing (configparser.py, [write] and [_write_section]);
    called in ConfigData.py:152-153, 185-186 and
    ConfigDataAnalysis.py:85-86, 109-110 *)

(** [str(value).replace('\n', '\n\t')].  ConfigData.py:183-189. *)
Fixpoint indent_lines (v : string) : string :=
  match v with
  | "" => ""
  | String a v' => if Ascii.eqb a nl then String nl (String tab (indent_lines v')) else String a (indent_lines v')
  end.

(** One option.  ConfigData.py:183-189. *)
Definition write_option (e : string * option string) : string :=
  fst e ++ match snd e with Some v => " = " ++ indent_lines v | None => "" end ++ String nl "".

(** One section.  ConfigData.py:183-189. *)
Definition write_section (s : string * sect string) : string :=
  "[" ++ fst s ++ "]" ++ String nl (String.concat "" (map write_option (snd s)) ++ String nl "").

(** [if self._defaults:] -- an empty DEFAULT section is not written.  ConfigData.py:183-189. *)
Definition skipped (s : string * sect string) : bool :=
  match snd s with [] => (fst s =? "DEFAULT")%string | _ => false end.

(** The text of the file.  ConfigData.py:183-189, ConfigDataAnalysis.py:106-112. *)
Definition write (t : ini string) : string :=
  String.concat "" (map (fun s => if skipped s then "" else write_section s) t).

(** ** Reading (configparser.py, [_read]); called in ConfigData.py:177 and
    ConfigDataAnalysis.py:98 *)

Definition cr : ascii := ascii_of_nat 13.

(** Text files are opened with universal newlines.  ConfigData.py:178. *)
Fixpoint univ_nl (s : string) : string :=
  match s with
  | "" => ""
  | String a s' =>
    if Ascii.eqb a cr
    then match s' with
         | String b s'' => if Ascii.eqb b nl then String nl (univ_nl s'') else String nl (univ_nl s')
         | "" => String nl ""
         end
    else String a (univ_nl s')
  end.

(** Position of the first character that is not white space.  ConfigData.py:178. *)
Fixpoint indent (s : string) : nat :=
  match s with
  | "" => O
  | String a s' => if is_ws a then S (indent s') else O
  end.

(** The line is a comment ([comment_prefixes] is ('#', ';')).  ConfigData.py:178. *)
Definition is_comment (s : string) : bool :=
  match s with String a _ => Ascii.eqb a "#"%char || Ascii.eqb a ";"%char | "" => false end.

(** Text in front of the last occurrence of [c].  ConfigData.py:178. *)
Fixpoint upto_last (c : ascii) (s : string) : option string :=
  match s with
  | "" => None
  | String a s' =>
    match upto_last c s' with
    | Some t => Some (String a t)
    | None => if Ascii.eqb a c then Some "" else None
    end
  end.

(** [SECTCRE.match]: '[', at least one character, ']'.  ConfigData.py:178. *)
Definition header (s : string) : option string :=
  match s with
  | String a r =>
    if Ascii.eqb a "["%char
    then match upto_last "]"%char r with
         | Some "" => None
         | o => o
         end
    else None
  | "" => None
  end.

(** The text before and after the first '=' or ':' ([OPTCRE_NV]).  ConfigData.py:178. *)
Fixpoint cut_delim (s : string) : option (string * string) :=
  match s with
  | "" => None
  | String a s' =>
    if Ascii.eqb a "="%char || Ascii.eqb a ":"%char then Some ("", s')
    else match cut_delim s' with
         | Some (k, v) => Some (String a k, v)
         | None => None
         end
  end.

(** Name and value of an option line that is already stripped.  ConfigData.py:178. *)
Definition parse_option (s : string) : string * option string :=
  match cut_delim s with
  | Some (k, v) => (lower (rstrip k), Some (strip v))
  | None => (lower (rstrip s), None)
  end.

(** State of the reader: the options so far, with the list of lines of each
    value, [cursect], [optname] and [indent_level].  ConfigData.py:178. *)
Record reader := Reader {
  r_tab : ini (list string); r_sect : option string; r_opt : option string; r_ind : nat }.

(** The reader at the start of the file, ConfigData.py:178. *)
Definition new_reader : reader := Reader no_options None None 0.

(** The lines of the current value: [cursect[optname]].  ConfigData.py:178. *)
Definition cur_value (r : reader) : option (string * string * option (list string)) :=
  match r_sect r, r_opt r with
  | Some c, Some k =>
    match get k (section c (r_tab r)) with
    | Some v => Some (c, k, v)
    | None => None                                       (* does not occur *)
    end
  | _, _ => None
  end.

(** A line that starts a section or an option.  An empty option name raises
    an error at once, the library raises it at the end of the file.  The parser
    is new when it reads, so [elements_added] are the options and sections
    read so far.  ConfigData.py:178. *)
Definition new_item (r : reader) (n : nat) (s : string) : res reader :=
  match header s with
  | Some h =>
    if (h =? "DEFAULT")%string then Ok (Reader (r_tab r) (Some h) None n)
    else match get h (r_tab r) with
         | Some _ => Err ConfigParserError               (* DuplicateSectionError *)
         | None => Ok (Reader (put h [] (r_tab r)) (Some h) None n)
         end
  | None =>
    match r_sect r with
    | None => Err ConfigParserError                      (* MissingSectionHeaderError *)
    | Some c =>
      let (k, v) := parse_option s in
      if (k =? "")%string then Err ConfigParserError     (* ParsingError *)
      else match get k (section c (r_tab r)) with
           | Some _ => Err ConfigParserError             (* DuplicateOptionError *)
           | None => Ok (Reader (put_opt c k (option_map (fun x => [x]) v) (r_tab r)) (Some c) (Some k) n)
           end
    end
  end.

(** One line.  ConfigData.py:178. *)
Definition read_line (r : reader) (line : string) : res reader :=
  let s := strip line in
  if is_comment s then Ok r
  else if (s =? "")%string then
    match cur_value r with
    | Some (c, k, Some ls) =>
      Ok (Reader (put_opt c k (Some (ls ++ [""])%list) (r_tab r)) (r_sect r) (r_opt r) (r_ind r))
    | _ => Ok r
    end
  else
    match cur_value r with
    | Some (c, k, v) =>
      if (r_ind r <? indent line)%nat then
        match v with
        | Some ls => Ok (Reader (put_opt c k (Some (ls ++ [s])%list) (r_tab r)) (r_sect r) (r_opt r) (r_ind r))
        | None => Err AttributeError
        end
      else new_item r (indent line) s
    | None => new_item r (indent line) s
    end.

(** All lines.  ConfigData.py:178. *)
Fixpoint read_lines (r : reader) (ls : list string) : res reader :=
  match ls with
  | [] => Ok r
  | l :: ls' => bind (read_line r l) (fun r' => read_lines r' ls')
  end.

(** [_join_multiline_values] for one value.  ConfigData.py:178. *)
Definition join_value (ls : list string) : string := rstrip (join (String nl "") ls).

(** [_join_multiline_values].  ConfigData.py:178. *)
Definition join_values (t : ini (list string)) : ini string :=
  map (fun s => (fst s, map (fun e => (fst e, option_map join_value (snd e))) (snd s))) t.

(** [load] of a file with the given text into a new parser,
    ConfigData.py:170-181, ConfigDataAnalysis.py:91-104 *)
Definition load (text : string) : res (ini string) :=
  bind (read_lines new_reader (readlines (univ_nl text))) (fun r => Ok (join_values (r_tab r))).

(** [config[c][k]]: the section, then DEFAULT; the inner [None] is an option
    without a value.  init_functions.py:36-69. *)
Definition lookup (t : ini string) (c k : string) : res (option string) :=
  match get c t with
  | None => Err KeyError
  | Some s =>
    match get k s with
    | Some v => Ok v
    | None => match get k (section "DEFAULT" t) with Some v => Ok v | None => Err KeyError end
    end
  end.

(** ** The objects built by the constructors *)

(** One statement of a constructor: [self[c] = {}], [self.set(c, text)] or
    [self[c][key] = str(parameter)].  ConfigData.py:83-150, ConfigDataAnalysis.py:52-85. *)
Inductive stmt : Type :=
| New (c : string)
| Note (c text : string)
| Put (c key parameter : string).

(** Its effect.  Option names are put in lower case ([optionxform]).
    [arg p] is [str] of the constructor's parameter [p].
    ConfigData.py:83-150, ConfigDataAnalysis.py:52-85. *)
Definition exec (arg : string -> string) (t : ini string) (s : stmt) : ini string :=
  match s with
  | New c => put c [] t
  | Note c text => put_opt c (lower text) None t
  | Put c key p => put_opt c (lower key) (Some (arg p)) t
  end.

(** [ConfigData.__init__] with [load_config_file=False], ConfigData.py:83-150 *)
Definition config_stmts : list stmt := [
  New "DEFAULT";
  Note "DEFAULT" "# Variables used in multiple parts of LEDSA.";
  Note "DEFAULT" "   # Directory where the images for one experiment are stored.";
  Put "DEFAULT" "   img_directory" "img_directory";
  Note "DEFAULT" "   # String representing the naming convention of the image files.";
  Put "DEFAULT" "   img_name_string" "img_name_string";
  Note "DEFAULT" "   # Maximum number of image counter.";
  Put "DEFAULT" "   num_img_overflow" "num_img_overflow";
  Note "DEFAULT" "# Specify which images ar part of the experiment by image indices.";
  Put "DEFAULT" "   first_img_experiment_id" "first_img_experiment_id";
  Put "DEFAULT" "   last_img_experiment_id" "last_img_experiment_id";
  Note "DEFAULT" "   # Number of CPUs, multicore processing is applied if > 1.";
  Put "DEFAULT" "   num_cores" "num_cores";
  Note "DEFAULT" "";
  Note "DEFAULT" "# Variables used to calculate the timeline of the experiment.";
  Note "DEFAULT" "   # Date of the experiment.";
  Put "DEFAULT" "   date" "date";
  Note "DEFAULT" "   # Beginning of the experiment, will be calculated from image with first_img_experiment_id if None.";
  Put "DEFAULT" "   start_time" "start_time";
  Note "DEFAULT" "   # ID of time reference image name with a clock to calculate the offset of the camera time. Can be None,";
  Note "DEFAULT" "   # if time_diff_to_img_time in seconds is given. You might also use time_ref_img_file instead.";
  Put "DEFAULT" "   time_img_id" "time_ref_img_id";
  Note "DEFAULT" "   # Path of time reference image with a clock to calculate the offset of the camera time. Can be None,";
  Note "DEFAULT" "   # if time_diff_to_img_time in seconds is given. ou might also use time_ref_img_id instead.";
  Put "DEFAULT" "   time_ref_img_file" "time_ref_img_file";
  Note "DEFAULT" "   # Time shown on the time reference image";
  Put "DEFAULT" "   time_ref_img_time" "time_ref_img_time";
  Put "DEFAULT" "   exif_time_infront_real_time" "time_diff_to_image_time";
  New "find_search_areas";
  Note "find_search_areas" "# Variables used to find the pixel positions of every led.";
  Note "find_search_areas" "   # ID of reference image used to find and label the leds.";
  Put "find_search_areas" "   ref_img_id" "ref_img_id";
  Note "find_search_areas" "   # Threshold percentile of pixel value to find LEDs on the reference image.";
  Put "find_search_areas" "   pixel_value_percentile" "pixel_value_percentile";
  Note "find_search_areas" "   # Camera channel on which LEDs should be found, ""all"" only works for RAW image files";
  Put "find_search_areas" "   channel" "channel";
  Note "find_search_areas" "   # Radius of pixels assigned to each LED";
  Put "find_search_areas" "   search_area_radius" "search_area_radius";
  Note "find_search_areas" "   # Maximum number of LEDs to detect on the reference image";
  Put "find_search_areas" "   max_num_leds" "max_num_leds";
  New "analyse_positions";
  Note "analyse_positions" "# Variables used to find the physical positions of every led";
  Note "analyse_positions" "   # Number of LED arrays";
  Put "analyse_positions" "   num_arrays" "num_arrays";
  Note "analyse_positions" "# Indices of LEDs to be ignored in further analysis";
  Put "analyse_positions" "   ignore_led_indices" "ignore_led_indices";
  Note "analyse_positions" "   # Pairs of led indices of the edges of each led array";
  Put "analyse_positions" "   led_array_edge_indices" "led_array_edge_indices";
  Note "analyse_positions" "   # Six coordinates per led array representing the physical positions of the";
  Note "analyse_positions" "   # edges given in led_array_edge_indices.";
  Put "analyse_positions" "   led_array_edge_coordinates" "led_array_edge_coordinates";
  Note "analyse_positions" "   # Indices of the LED arrays to merge for further analysis.";
  Put "analyse_positions" "   merge_led_array_indices" "merge_led_array_indices";
  New "analyse_photo";
  Note "analyse_photo" "# Variables used for the final fitting of the intensity function.";
  Note "analyse_photo" " ";
  Note "analyse_photo" "# Specify which images are used for analysis by image indices.";
  Put "analyse_photo" "   first_img_analysis_id" "first_img_analysis_id";
  Put "analyse_photo" "   last_img_analysis_id" "last_img_analysis_id";
  Note "analyse_photo" "   # In the analysis, only images are considered with id dividable by skip_imgs + 1.";
  Put "analyse_photo" "   num_skip_imgs" "num_skip_imgs";
  Note "analyse_photo" "   # In the analysis, only LEDs are considered with id dividable by skip_leds + 1.";
  Put "analyse_photo" "   num_skip_leds" "num_skip_leds"
].

(** [ConfigDataAnalysis.__init__] with [load_config_file=False],
    ConfigDataAnalysis.py:52-83 *)
Definition analysis_stmts : list stmt := [
  New "DEFAULT";
  Note "DEFAULT" "# Variables used in multiple parts of LEDSA";
  Note "DEFAULT" "   # Number of CPUs, multicore processing is applied if > 1";
  Put "DEFAULT" "   num_cores" "num_cores";
  Put "DEFAULT" "   reference_property" "reference_property";
  Note "DEFAULT" "   # Number images used to compute normalize LED intensities";
  Put "DEFAULT" "   num_ref_images" "num_ref_images";
  Note "DEFAULT" "   # Indices of reference images to use";
  Put "DEFAULT" "   ref_img_indices" "ref_img_indices";
  Note "DEFAULT" "   # Camera channels to be considered in the analysis";
  Put "DEFAULT" "   camera_channels" "camera_channels";
  Note "DEFAULT" "   # Intensities are computed as average from two consecutive images if set to True ";
  Put "DEFAULT" "   average_images" "average_images";
  Note "DEFAULT" "   # Extinction coefficients can be computed by linear or numeric solver ";
  Put "DEFAULT" "   solver" "solver";
  Note "DEFAULT" "   # Options for nonlinear solver (ignored when linear solver is used) ";
  Put "DEFAULT" "   weighting_preference" "weighting_preference";
  Put "DEFAULT" "   weighting_curvature" "weighting_curvature";
  Put "DEFAULT" "   num_iterations" "num_iterations";
  Note "DEFAULT" "   # Options for linear solver (ignored when nonlinear solver is used) ";
  Put "DEFAULT" "   lambda_reg" "lambda_reg";
  New "experiment_geometry";
  Note "experiment_geometry" "# Global X Y Z position of the camera ";
  Put "experiment_geometry" "   camera_position" "camera_position";
  New "model_parameters";
  Note "model_parameters" "# Parameters regarding the discretization of the spatial domain ";
  Note "model_parameters" "   # LED arrays for that the extinction coefficients should be computed  ";
  Put "model_parameters" "   led_array_indices" "led_array_indices";
  Note "model_parameters" "   # Number of horizontal smoke layers  ";
  Put "model_parameters" "   num_layers" "num_layers";
  Note "model_parameters" "   # Lower and upper bounds of the computational domain  ";
  Put "model_parameters" "   domain_bounds" "domain_bounds"
].

(** The new object.  ConfigData.py:83-150, ConfigDataAnalysis.py:52-85. *)
Definition new_config (stmts : list stmt) (arg : string -> string) : ini string :=
  fold_left (exec arg) stmts no_options.

(** The file the constructor writes, ConfigData.py:152-153,
    ConfigDataAnalysis.py:85-86 *)
Definition new_file (stmts : list stmt) (arg : string -> string) : string :=
  write (new_config stmts arg).

(** [config[c][k] = v] on a loaded object, e.g. ConfigData.py:246-293 *)
Definition assign (c k v : string) (t : ini string) : ini string := put_opt c (lower k) (Some v) t.
