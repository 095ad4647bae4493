(** Specification vocabulary for the geometry of step 2 (exact reals). *)
From Coq Require Import List ZArith Reals.
From Verif Require Import Base Step2_Model Step2_Spec.
Import ListNotations.

(** Euclidean distance of two pixel positions. *)
Definition edist (p q : loc) : R :=
  sqrt (IZR ((fst p - fst q) * (fst p - fst q) + (snd p - snd q) * (snd p - snd q))).

(** The geometry of the code with exact real arithmetic:
    weighting factor 0.987, step_2_functions.py:11 and 137-138, 199. *)
Definition real_geometry : geometry := {|
  gD := R;
  gltb := fun a b => if Rlt_dec a b then true else false;
  gdist := edist;
  gtotal := fun ref nb => (987 / 1000 * ref + nb)%R |}.

(** What "the next LED" should be, for the set [avail] of LEDs still free, the
    current LED at [cur] and the far edge LED at [edge]: [N] are the (at most)
    five closest free LEDs, and the choice minimises the weighted sum in [N]. *)
Definition greedy_choice (avail : list row) (cur edge : loc) (k : Z) : Prop :=
  exists p (N : list row),
    In (k, p) N /\ incl N avail /\ NoDup (ids N) /\ length N = Nat.min 5 (length avail) /\
    (forall e f, In e N -> In f avail -> ~ In f N ->
       (edist cur (snd e) <= edist cur (snd f))%R) /\
    (forall q, In q N ->
       (987/1000 * edist edge p + edist cur p <=
        987/1000 * edist edge (snd q) + edist cur (snd q))%R).

(** [A] is a straight array ending in [endp]: every LED lies on the segment
    from its predecessor to the end, and is strictly the closest of all LEDs
    that are neither in [used] nor passed already. *)
Definition straight_array (rows : list row) (used : list Z) (A : list row) (endp : loc) : Prop :=
  forall i p q, nth_error A i = Some p -> nth_error A (S i) = Some q ->
    (edist (snd p) (snd q) + edist (snd q) endp = edist (snd p) endp)%R /\
    forall r, In r rows -> ~ In (fst r) (used ++ ids (firstn (S i) A)) -> fst r <> fst q ->
       (edist (snd p) (snd q) < edist (snd p) (snd r))%R.

(** The edge labels the user enters for an array. *)
Definition edge_labels (A : list row) : list Z :=
  match A with
  | [] => []
  | a :: _ => [fst a; fst (last A a)]
  end.
