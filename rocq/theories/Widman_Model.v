(** Extinction by soot for a wavelength.
    Source: ledsa/postprocessing/helper_functions.py *)
From Coq Require Import ZArith Reals.
From Verif Require Import Base.
Local Open Scope R_scope.

(** Python's [l ** e] for a number [l] and a negative exponent that is no whole number:
    [None] stands for a complex number. helper_functions.py:3. *)
Definition python_power (l e : R) : res (option R) :=
  if Req_EM_T l 0 then Err ZeroDivisionError
  else if Rlt_dec 0 l then Ok (Some (Rpower l e)) else Ok None.

(** [get_widman_extco], helper_functions.py:1-3. *)
Definition get_widman_extco (l : R) : res (option R) :=
  res_map (option_map (fun v => 48081 / 10000 * v)) (python_power l (- (10088 / 10000))).
