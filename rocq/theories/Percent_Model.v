(** Percent signs in configuration values ([BasicInterpolation] of the Python
    3.11 standard library, configparser.py, which both configuration classes use
    because they call [ConfigParser.__init__] without the argument
    [interpolation], ConfigData.py:79, ConfigDataAnalysis.py:48). *)
From Coq Require Import ZArith Lia Bool Ascii String List.
From Verif Require Import Base Str Substr Demo_Model Config_Model Ini_Model.
Import ListNotations.
Local Open Scope string_scope.

(** The percent sign, ConfigData.py:79. *)
Definition percent : ascii := "%"%char.

(** [value.replace('%%', '')], called when a value is set, e.g. ConfigData.py:86 *)
Fixpoint drop_double (s : string) : string :=
  match s with
  | String a (String b r as s') =>
    if Ascii.eqb a percent && Ascii.eqb b percent then drop_double r else String a (drop_double s')
  | _ => s
  end.

(** The characters before the first closing parenthesis and those after it.
    ConfigData.py:156-168. *)
Fixpoint upto_paren (s : string) : option (string * string) :=
  match s with
  | "" => None
  | String a r =>
    if Ascii.eqb a ")"%char then Some ("", r)
    else match upto_paren r with Some (n, r') => Some (String a n, r') | None => None end
  end.

(** [_KEYCRE.match(s)], the regular expression [%\(([^)]+)\)s]: the name and what
    follows the match.  ConfigData.py:156-168. *)
Definition key_match (s : string) : option (string * string) :=
  match s with
  | String a (String b r) =>
    if Ascii.eqb a percent && Ascii.eqb b "("%char then
      match upto_paren r with
      | Some (String n0 n as name, String c r') => if Ascii.eqb c "s"%char then Some (name, r') else None
      | _ => None
      end
    else None
  | _ => None
  end.

(** [_KEYCRE.sub('', s)]; the first argument bounds the number of steps (the
    length of the text is enough).  ConfigData.py:242-293. *)
Fixpoint drop_keys (fuel : nat) (s : string) : string :=
  match fuel with
  | O => s
  | S f =>
    match s with
    | "" => ""
    | String a r => match key_match s with Some (_, r') => drop_keys f r' | None => String a (drop_keys f r) end
    end
  end.

(** [before_set]: which values are accepted by [config[c][k] = v], e.g.
    ConfigData.py:86-150, 246-293, ConfigDataAnalysis.py:54-83, 153-181 *)
Definition before_set (v : string) : res string :=
  let t := drop_double v in
  if has_char percent (drop_keys (String.length t) t) then Err ValueError else Ok v.

(** [_interpolate_some].  [depth] is the number of levels left (10 at first),
    [fuel] bounds the number of rounds of the loop (the length of the text is
    enough), [vars] are the options of the section and of DEFAULT.  ConfigData.py:156-168. *)
Fixpoint expand (depth : nat) (vars : string -> option (option string)) (fuel : nat) (s : string) {struct depth} : res string :=
  match depth with
  | O => Err ConfigParserError                               (* InterpolationDepthError *)
  | S d =>
    (fix loop (fuel : nat) (s : string) : res string :=
       match s with
       | "" => Ok ""
       | String a r =>
         match fuel with
         | O => Err OutOfFuel
         | S f =>
           if Ascii.eqb a percent then
             match r with
             | String b r' =>
               if Ascii.eqb b percent then bind (loop f r') (fun t => Ok (String percent t))
               else if Ascii.eqb b "("%char then
                 match key_match s with
                 | None => Err ConfigParserError             (* InterpolationSyntaxError *)
                 | Some (name, rest) =>
                   match vars (lower name) with
                   | None => Err ConfigParserError           (* InterpolationMissingOptionError *)
                   | Some None => Err TypeError              (* '%' in None *)
                   | Some (Some v) =>
                     bind (if has_char percent v then expand d vars (String.length v) v else Ok v) (fun x =>
                     bind (loop f rest) (fun t => Ok (x ++ t)))
                   end
                 end
               else Err ConfigParserError                    (* InterpolationSyntaxError *)
             | "" => Err ConfigParserError                   (* InterpolationSyntaxError *)
             end
           else bind (loop f r) (fun t => Ok (String a t))
         end
       end) fuel s
  end.

(** The options visible in section [c]: its own and those of DEFAULT
    (configparser.py, [_unify_values]).  Read through
    ConfigData.py:156-168. *)
Definition visible (t : ini string) (c k : string) : option (option string) :=
  match lookup t c k with Ok v => Some v | Err _ => None end.

(** [config[c][k]] with interpolation ([ConfigParser.get], called through
    ConfigData.py:156-168) *)
Definition read_option (t : ini string) (c k : string) : res (option string) :=
  bind (lookup t c k) (fun v =>
  match v with
  | None => Ok None
  | Some v => bind (expand 10 (visible t c) (String.length v) v) (fun x => Ok (Some x))
  end).

(** [config[c][k] = v] on a loaded object with the section [c], e.g.
    ConfigData.py:246-293 *)
Definition set_option (c k v : string) (t : ini string) : res (ini string) :=
  bind (before_set v) (fun v => Ok (assign c k v t)).

(** The constructors: the file they write, ConfigData.py:83-153,
    ConfigDataAnalysis.py:52-86.  A refused value ends the constructor before the
    file is opened. *)
Fixpoint check_stmts (arg : string -> string) (l : list stmt) : res unit :=
  match l with
  | [] => Ok tt
  | Put _ _ p :: l' => bind (before_set (arg p)) (fun _ => check_stmts arg l')
  | _ :: l' => check_stmts arg l'
  end.

(** The constructor with its checks, ConfigData.py:83-154, ConfigDataAnalysis.py:52-88. *)
Definition create_file (stmts : list stmt) (arg : string -> string) : res string :=
  bind (check_stmts arg stmts) (fun _ => Ok (new_file stmts arg)).
