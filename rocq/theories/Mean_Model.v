(** The mean over the reference images as a machine computes it.
    Source: ledsa/analysis/ExtinctionCoefficients.py *)
From Coq Require Import ZArith QArith List.
From Verif Require Import Base Table_Model Analysis_Model.
Import ListNotations.
Local Open Scope Q_scope.

(** An order in which the numbers of one mean are added, ExtinctionCoefficients.py:189
    (pandas may go from left to right, numpy adds the halves of a long array). *)
Inductive sum_tree := Leaf (q : Q) | Plus (l r : sum_tree).

(** The numbers that are added, ExtinctionCoefficients.py:189. *)
Fixpoint leaves (t : sum_tree) : list Q :=
  match t with Leaf q => [q] | Plus l r => leaves l ++ leaves r end.

(** The sum in this order, [rnd] after every addition, ExtinctionCoefficients.py:189. *)
Fixpoint tree_sum (rnd : Q -> Q) (t : sum_tree) : Q :=
  match t with Leaf q => q | Plus l r => rnd (tree_sum rnd l + tree_sum rnd r) end.

(** [mean()], ExtinctionCoefficients.py:189: empty cells are left out, the sum is
    divided by the number of the others.  The compensated sum of newer versions
    of pandas is not modelled. *)
Definition rounded_mean (rnd : Q -> Q) (tree : list Q -> sum_tree) (vs : list cell) : cell :=
  match numbers vs with
  | [] => None
  | qs => Some (rnd (tree_sum rnd (tree qs) / inject_Z (Z.of_nat (List.length qs))))
  end.

(** From left to right, ExtinctionCoefficients.py:189. *)
Definition left_tree (qs : list Q) : sum_tree :=
  match qs with [] => Leaf 0 | q :: l => fold_left (fun t x => Plus t (Leaf x)) l (Leaf q) end.

(** The halves of the list one after the other, ExtinctionCoefficients.py:189;
    [d] bounds the depth. *)
Fixpoint halves (d : nat) (qs : list Q) : sum_tree :=
  match d with
  | O => left_tree qs
  | S d =>
    let k := Nat.div2 (List.length qs) in
    if (k =? 0)%nat then left_tree qs else Plus (halves d (firstn k qs)) (halves d (skipn k qs))
  end.
