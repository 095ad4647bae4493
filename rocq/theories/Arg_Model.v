(** The command line: from the words of the command line to the parsed options.
    Source: ledsa/core/parser_arguments_declaration.py, ledsa/__main__.py.
    The rules are those of [ArgumentParser.parse_args] of Python's argparse
    (Python 3.8 - 3.12) for a parser without positional arguments.  Every way in
    which the parser ends the program is the exception [SystemExit]; the texts it
    prints are not modelled. *)
From Coq Require Import ZArith Lia Bool Ascii String List.
From Verif Require Import Base Str Substr Cli_Model Main_Model.
Import ListNotations.
Local Open Scope string_scope.
Local Open Scope Z_scope.

(** The options with action 'store_true', parser_arguments_declaration.py:14-108. *)
Inductive flag :=
| FPrepare | FStep1 | FStep2 | FStep3 | FFast | FRestart | FRed | FGreen | FBlue | FRgb | FCoord
| FAnalysis | FCorrect | FDemo | FRun | FTest | FTestDebug.

(** All options: the flags, the options with values (nargs='*' for the two config
    options, one value for --setup and --n_cores, nargs='+' for --cc_channels) and
    argparse's own --help.  parser_arguments_declaration.py:4-109. *)
Inductive opt :=
| OHelp | OFlag (f : flag) | OConfig | OConfigAnalysis | OSetup | OCores | OChannels.

(** The option names in the order of the [add_argument] calls, __main__.py:19-25,
    parser_arguments_declaration.py:14, 27-50, 100-108, 79-86, 63-66. *)
Definition options : list (string * opt) :=
  [("-h", OHelp); ("--help", OHelp);
   ("--prepare_images", OFlag FPrepare);
   ("-s1", OFlag FStep1); ("--step_1", OFlag FStep1); ("--find_search_areas", OFlag FStep1);
   ("-s2", OFlag FStep2); ("--step_2", OFlag FStep2); ("--analyse_positions", OFlag FStep2);
   ("-s3", OFlag FStep3); ("--step_3", OFlag FStep3); ("--analyse_photo", OFlag FStep3);
   ("-s3_fast", OFlag FFast); ("--step_3_fast", OFlag FFast); ("--analyse_photo_fast", OFlag FFast);
   ("-conf", OConfig); ("--config", OConfig);
   ("-re", OFlag FRestart); ("--restart", OFlag FRestart);
   ("-r", OFlag FRed); ("--red", OFlag FRed);
   ("-g", OFlag FGreen); ("--green", OFlag FGreen);
   ("-b", OFlag FBlue); ("--blue", OFlag FBlue);
   ("-rgb", OFlag FRgb); ("--rgb", OFlag FRgb);
   ("-coord", OFlag FCoord); ("--coordinates", OFlag FCoord);
   ("-a", OFlag FAnalysis); ("--analysis", OFlag FAnalysis);
   ("-conf_a", OConfigAnalysis); ("--config_analysis", OConfigAnalysis);
   ("--cc", OFlag FCorrect); ("--color_correction", OFlag FCorrect);
   ("--cc_channels", OChannels);
   ("-d", OFlag FDemo); ("--demo", OFlag FDemo);
   ("--setup", OSetup); ("--run", OFlag FRun); ("--n_cores", OCores);
   ("-atest", OFlag FTest); ("--acceptance_test", OFlag FTest);
   ("-atest_debug", OFlag FTestDebug); ("--acceptance_test_debug", OFlag FTestDebug)].

(** The option with exactly this name, [_option_string_actions]; __main__.py:27. *)
Fixpoint option_named (w : string) (l : list (string * opt)) : option opt :=
  match l with
  | [] => None
  | (n, o) :: l' => if (n =? w)%string then Some o else option_named w l'
  end.

(** [w.partition('=')]: the text before and after the first equals sign.  __main__.py:27. *)
Fixpoint partition_eq (w : string) : option (string * string) :=
  match w with
  | "" => None
  | String a r =>
    if Ascii.eqb a "="%char then Some ("", r)
    else match partition_eq r with Some (x, y) => Some (String a x, y) | None => None end
  end.

(** What a word of the command line is taken for, __main__.py:27: an argument, the
    separator [--], an option (with the text joined to it, which follows an equals
    sign or not), or something that looks like an option but is none. *)
Inductive token :=
| TWord
| TDashes
| TOption (o : opt)
| TEquals (o : opt) (value : string)
| TLetters (o : opt) (rest : string)
| TUnknown.

(** [^-\d+$|^-\d*\.\d+$], the negative numbers; a newline at the end of the word is
    not considered.  __main__.py:27. *)
Definition negative_number (w : string) : bool :=
  match w with
  | String "-" r =>
    match split_on "."%char r with
    | [x] => negb (x =? "")%string && all_chars is_digit x
    | [x; y] => all_chars is_digit x && negb (y =? "")%string && all_chars is_digit y
    | _ => false
    end
  | _ => false
  end.

(** [_get_option_tuples]: the possible readings of a word that begins with a hyphen
    and is no option name, __main__.py:27. *)
Definition readings (w : string) : list token :=
  if starts "--" w then
    let '(p, t) := match partition_eq w with
                   | Some (p, v) => (p, fun o => TEquals o v)
                   | None => (w, TOption)
                   end in
    map (fun e => t (snd e)) (filter (fun e => starts p (fst e)) options)
  else
    flat_map (fun e => if (fst e =? substring 0 2 w)%string
                       then [TLetters (snd e) (substring 2 (String.length w - 2) w)]
                       else if starts w (fst e) then [TOption (snd e)] else []) options.

(** [_parse_optional] after the lookups of the whole word and of the text before an
    equals sign, __main__.py:27. *)
Definition classify_rest (w : string) : res token :=
  match readings w with
  | _ :: _ :: _ => Err SystemExit
  | [t] => Ok t
  | [] => if negative_number w then Ok TWord
          else if has_char " "%char w then Ok TWord
          else Ok TUnknown
  end.

(** [_parse_optional], __main__.py:27. *)
Definition classify (w : string) : res token :=
  if negb (starts "-" w) then Ok TWord
  else match option_named w options with
  | Some o => Ok (TOption o)
  | None =>
    if (w =? "-")%string then Ok TWord
    else match partition_eq w with
    | Some (p, v) =>
      match option_named p options with
      | Some o => Ok (TEquals o v)
      | None => classify_rest w
      end
    | None => classify_rest w
    end
  end.

(** The words with what they are taken for; everything after [--] is an argument.
    [_parse_known_args], __main__.py:27. *)
Fixpoint mark (argv : list string) : res (list (string * token)) :=
  match argv with
  | [] => Ok []
  | w :: rest =>
    if (w =? "--")%string then Ok ((w, TDashes) :: map (fun x => (x, TWord)) rest)
    else bind (classify w) (fun t => bind (mark rest) (fun l => Ok ((w, t) :: l)))
  end.

(** The arguments at the beginning, and the options each with the arguments that
    follow it directly.  __main__.py:27. *)
Fixpoint groups (l : list (string * token)) : list string * list (token * list string) :=
  match l with
  | [] => ([], [])
  | (w, t) :: l' =>
    let '(lead, gs) := groups l' in
    match t with
    | TWord => (w :: lead, gs)
    | _ => ([], (t, lead) :: gs)
    end
  end.

(** The namespace: the flags that are set, and the values.  The defaults are None and,
    for --cc_channels, the list 0, 1, 2.  parser_arguments_declaration.py:4-109. *)
Record namespace := Namespace {
  n_flags : list flag;
  n_config : option (list string);
  n_config_analysis : option (list string);
  n_setup : option string;
  n_cores : option Z;
  n_channels : list Z }.

(** The namespace before parsing, __main__.py:27, parser_arguments_declaration.py:35, 102, 107. *)
Definition defaults : namespace := Namespace [] None None None None [0; 1; 2].

(** [type=int]: a text that is no integer ends the program.
    parser_arguments_declaration.py:85, 107. *)
Definition int_arg (t : string) : res Z :=
  match int_of_str t with Ok n => Ok n | Err _ => Err SystemExit end.

(** The action of an option with its arguments: [store_true], [store] and [extend].
    Arguments that the option does not take are unrecognised and end the program.
    parser_arguments_declaration.py:4-109. *)
Definition take (o : opt) (ws : list string) (n : namespace) : res namespace :=
  match o with
  | OHelp => Err SystemExit
  | OFlag f =>
    match ws with
    | [] => Ok (Namespace (f :: n_flags n) (n_config n) (n_config_analysis n) (n_setup n) (n_cores n) (n_channels n))
    | _ => Err SystemExit
    end
  | OConfig => Ok (Namespace (n_flags n) (Some ws) (n_config_analysis n) (n_setup n) (n_cores n) (n_channels n))
  | OConfigAnalysis => Ok (Namespace (n_flags n) (n_config n) (Some ws) (n_setup n) (n_cores n) (n_channels n))
  | OSetup =>
    match ws with
    | [p] => Ok (Namespace (n_flags n) (n_config n) (n_config_analysis n) (Some p) (n_cores n) (n_channels n))
    | _ => Err SystemExit
    end
  | OCores =>
    match ws with
    | [t] => bind (int_arg t) (fun k =>
        Ok (Namespace (n_flags n) (n_config n) (n_config_analysis n) (n_setup n) (Some k) (n_channels n)))
    | _ => Err SystemExit
    end
  | OChannels =>
    match ws with
    | [] => Err SystemExit
    | _ => bind (mapM int_arg ws) (fun l =>
        Ok (Namespace (n_flags n) (n_config n) (n_config_analysis n) (n_setup n) (n_cores n) (n_channels n ++ l)%list))
    end
  end.

(** Joined one-letter options (all of them take no argument), [consume_optional];
    __main__.py:27. *)
Fixpoint take_letters (s : string) (n : namespace) : res namespace :=
  match s with
  | "" => Ok n
  | String c s' =>
    match option_named (String "-" (String c "")) options with
    | Some o => bind (take o [] n) (take_letters s')
    | None => Err SystemExit
    end
  end.

(** [consume_optional] for one option and the arguments that follow it, __main__.py:27.
    A flag takes no text after an equals sign. *)
Definition consume (g : token * list string) (n : namespace) : res namespace :=
  let '(t, ws) := g in
  match t with
  | TOption o => take o ws n
  | TEquals o v =>
    match o with
    | OFlag _ => Err SystemExit
    | _ => match ws with [] => take o [v] n | _ => Err SystemExit end
    end
  | TLetters o rest => match ws with [] => bind (take o [] n) (take_letters rest) | _ => Err SystemExit end
  | _ => Err SystemExit
  end.

(** The options one after another.  __main__.py:27. *)
Fixpoint consume_all (gs : list (token * list string)) (n : namespace) : res namespace :=
  match gs with
  | [] => Ok n
  | g :: gs' => bind (consume g n) (consume_all gs')
  end.

(** [parser.parse_args(argv)], __main__.py:27. *)
Definition parse (argv : list string) : res namespace :=
  bind (mark argv) (fun l =>
  match groups l with
  | ([], gs) => consume_all gs defaults
  | _ => Err SystemExit
  end).

(** Comparison of two flags.  parser_arguments_declaration.py:14-108. *)
Definition flag_eq_dec : forall a b : flag, {a = b} + {a <> b}.
Proof. decide equality. Defined.

(** [args.<flag>], parser_arguments_run.py:25-191. *)
Definition is_set (n : namespace) (f : flag) : bool := if in_dec flag_eq_dec f (n_flags n) then true else false.

(** The parsed command line as used in Main_Model.v, __main__.py:36-43. *)
Definition cmd_of (n : namespace) : cmdline :=
  Cmdline (is_set n FPrepare)
    (Args (n_config n) (is_set n FStep1) (is_set n FStep2) (is_set n FStep3) (is_set n FFast) (is_set n FRestart)
          (is_set n FRed) (is_set n FGreen) (is_set n FBlue) (is_set n FRgb) (is_set n FCoord))
    (match n_config_analysis n with Some _ => true | None => false end)
    (is_set n FAnalysis) (is_set n FCorrect) (is_set n FDemo) (n_setup n) (is_set n FRun) (n_cores n)
    (is_set n FTest) (is_set n FTestDebug).

(** [main(argv)], __main__.py:12-43. *)
Definition main_argv (fails : call -> option exn) (conf aconf : bool) (argv : list string) : list call * option exn :=
  match parse argv with
  | Err e => ([], Some e)
  | Ok n => main fails (match argv with [] => true | _ => false end) conf aconf (cmd_of n)
  end.

(** The command lines of the demo, demo_run.py:23-29. *)
Definition demo_argvs : list (list string) := [["-s1"]; ["-s2"]; ["-s3_fast"; "-rgb"]; ["-coord"]; ["--analysis"]].
