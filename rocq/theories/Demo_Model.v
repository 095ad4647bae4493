(** Editing one parameter of a configuration file.
    Source: ledsa/demo/demo_setup.py *)
From Coq Require Import ZArith Lia Bool Ascii String List.
From Verif Require Import Base Str Substr.
Import ListNotations.
Local Open Scope string_scope.

(** [file.readlines()]: the lines with their newlines.  demo_setup.py:238. *)
Fixpoint readlines (s : string) : list string :=
  match s with
  | "" => []
  | String c s' =>
    if Ascii.eqb c nl then String c "" :: readlines s'
    else match readlines s' with
         | [] => [String c ""]
         | l :: r => String c l :: r
         end
  end.

(** [file.writelines(lines)].  demo_setup.py:252. *)
Definition writelines (l : list string) : string := String.concat "" l.

(** One line, demo_setup.py:242-247 *)
Definition new_line (word value line : string) : string :=
  if contains word line && has_char "="%char line then
    match split_on "="%char line with
    | [] => line                                       (* does not occur *)
    | lhs :: _ => lhs ++ "=" ++ " " ++ value ++ String nl ""
    end
  else line.

(** [_replace_params_in_file], demo_setup.py:236-252: the new text of the file. *)
Definition replace_params (word value text : string) : string :=
  writelines (map (new_line word value) (readlines text)).
