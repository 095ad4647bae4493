(** Specification of layers and lines of sight (points of a straight line). *)
From Coq Require Import List Reals Lra.
From Verif Require Import Base Layers_Model.
Import ListNotations.
Local Open Scope R_scope.

(** Euclidean distance. *)
Definition euclid (p q : point) : R :=
  sqrt ((px p - px q) * (px p - px q) + (py p - py q) * (py p - py q) + (pz p - pz q) * (pz p - pz q)).

(** The point of the line of sight at the parameter [t] (0: camera, 1: LED). *)
Definition sight (cam led : point) (t : R) : point :=
  Point (px cam + t * (px led - px cam)) (py cam + t * (py led - py cam)) (pz cam + t * (pz led - pz cam)).

(** [d] is the length of the part of the line of sight between the heights
    [b] and [u]: the points strictly between these heights are, up to the two
    end points, those with a parameter from [t1] to [t2], and [d] is the
    distance of the end points. *)
Definition length_between (b u : R) (cam led : point) (d : R) : Prop :=
  exists t1 t2, 0 <= t1 /\ t1 <= t2 /\ t2 <= 1 /\
    (forall t, t1 < t < t2 -> b < pz (sight cam led t) < u) /\
    (forall t, 0 <= t <= 1 -> b < pz (sight cam led t) < u -> t1 <= t <= t2) /\
    d = euclid (sight cam led t1) (sight cam led t2).

(** Within the domain. *)
Definition within (bot top z : R) : Prop := bot <= z <= top.

(** Height of the overlap of the line of sight and the domain. *)
Definition overlap (bot top z1 z2 : R) : R := Rmax 0 (Rmin top (Rmax z1 z2) - Rmax bot (Rmin z1 z2)).
