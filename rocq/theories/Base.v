(** Shared vocabulary of the model: exceptions as values, Python integers and
    ranges, Python/numpy slice bounds. *)
From Coq Require Import List ZArith Lia Bool FinFun.
Import ListNotations.
Local Open Scope Z_scope.

(** Python exceptions that occur in the modelled code.  [SystemExit] is what
    [exit(...)] raises, [ConfigParserError] stands for the exceptions of the
    configparser module.  Raised for
    example at step_2_functions.py:52-56, image_handling.py:21, ConfigData.py:170-181. *)
Inductive exn : Type :=
| ValueError | KeyError | IndexError | NameError | TypeError | AttributeError
| FileNotFoundError | LinAlgError | CvError | SystemExit | UnboundLocalError
| StopIteration | ZeroDivisionError | OutOfFuel | ConfigParserError | OSError.

(** The result of a call that may raise, e.g. image_handling.py:24-39. *)
Inductive res (A : Type) : Type :=
| Ok (a : A)
| Err (e : exn).
Arguments Ok {A} a.
Arguments Err {A} e.

(** One statement after another; an exception ends the function, e.g.
    step_3_functions.py:28-58. *)
Definition bind {A B} (x : res A) (f : A -> res B) : res B :=
  match x with Ok a => f a | Err e => Err e end.

(** A result that is only converted, e.g. step_2_functions.py:213-219. *)
Definition res_map {A B} (f : A -> B) (x : res A) : res B :=
  match x with Ok a => Ok (f a) | Err e => Err e end.

(** Left-to-right evaluation of a list comprehension whose body may raise.  E.g.
    ConfigData.py:213, ConfigDataAnalysis.py:141. *)
Fixpoint mapM {A B} (f : A -> res B) (l : list A) : res (list B) :=
  match l with
  | [] => Ok []
  | a :: l' => bind (f a) (fun b => bind (mapM f l') (fun bs => Ok (b :: bs)))
  end.

(** Python [range(a, b)]: the integers a, a+1, ..., b-1.  E.g.
    step_2_functions.py:339, DataExtractor.py:191. *)
Definition zrange (a b : Z) : list Z :=
  map (fun k => a + Z.of_nat k) (seq 0 (Z.to_nat (b - a))).

(** Python [range(a, b, s)] for a positive step [s].  init_functions.py:164-172. *)
Definition zrange_step (a b s : Z) : list Z :=
  map (fun k => a + s * Z.of_nat k) (seq 0 (Z.to_nat ((b - a + s - 1) / s))).

(** Python/numpy adjustment of one slice bound [i] for an axis of length [len]
    (CPython [PySlice_AdjustIndices], step 1): negative bounds count from the
    end, and both bounds are clipped to [0, len].  Used in
    step_1_functions.py:37 and step_3_functions.py:138-141. *)
Definition adjust_bound (len i : Z) : Z :=
  if i <? 0 then Z.max 0 (len + i) else Z.min i len.

(** [in_slice len a b i] tells whether index [i] belongs to [seq[a:b]] for a
    sequence of length [len].  step_1_functions.py:37. *)
Definition in_slice (len a b i : Z) : bool :=
  (adjust_bound len a <=? i) && (i <? adjust_bound len b).

(** The indices selected by [seq[a:b]], in order.  step_3_functions.py:138-141. *)
Definition slice_indices (len a b : Z) : list Z :=
  zrange (adjust_bound len a) (adjust_bound len b).

(** ** Elementary facts *)

Lemma in_zrange : forall a b x, In x (zrange a b) <-> a <= x < b.
Proof.
  intros a b x. unfold zrange. rewrite in_map_iff. split.
  - intros [k [Hk Hin]]. apply in_seq in Hin. lia.
  - intros H. exists (Z.to_nat (x - a)). split; [lia|]. apply in_seq. lia.
Qed.

Lemma length_zrange : forall a b, length (zrange a b) = Z.to_nat (b - a).
Proof. intros. unfold zrange. rewrite map_length, seq_length. reflexivity. Qed.

Lemma nth_error_zrange : forall a b k,
  (k < Z.to_nat (b - a))%nat -> nth_error (zrange a b) k = Some (a + Z.of_nat k).
Proof.
  intros a b k Hk. unfold zrange.
  rewrite nth_error_map.
  rewrite (nth_error_nth' (seq 0 (Z.to_nat (b - a))) 0%nat)
    by (rewrite seq_length; lia).
  rewrite seq_nth by lia. reflexivity.
Qed.

Lemma zrange_nil : forall a b, b <= a -> zrange a b = [].
Proof.
  intros a b H. unfold zrange. replace (Z.to_nat (b - a)) with 0%nat by lia.
  reflexivity.
Qed.

Lemma zrange_cons : forall a b, a < b -> zrange a b = a :: zrange (a + 1) b.
Proof.
  intros a b H. unfold zrange.
  replace (Z.to_nat (b - a)) with (S (Z.to_nat (b - (a + 1)))) by lia.
  simpl. f_equal; [lia|]. rewrite <- seq_shift, map_map.
  apply map_ext. intros k. lia.
Qed.

Lemma zrange_app : forall a b c, a <= b -> b <= c ->
  zrange a c = zrange a b ++ zrange b c.
Proof.
  intros a b c H1. remember (Z.to_nat (b - a)) as n eqn:En. revert a H1 En.
  induction n as [|n IH]; intros a H1 En H2.
  - assert (a = b) by lia. subst. rewrite (zrange_nil b b) by lia. reflexivity.
  - rewrite (zrange_cons a c), (zrange_cons a b) by lia. simpl. f_equal.
    apply IH; lia.
Qed.

Lemma zrange_snoc : forall a b, a <= b -> zrange a (b + 1) = zrange a b ++ [b].
Proof.
  intros a b H. rewrite (zrange_app a b (b + 1)) by lia. f_equal.
  rewrite zrange_cons by lia. rewrite zrange_nil by lia. reflexivity.
Qed.

Lemma NoDup_zrange : forall a b, NoDup (zrange a b).
Proof.
  intros a b. unfold zrange. apply Injective_map_NoDup.
  - intros x y H. lia.
  - apply seq_NoDup.
Qed.

Lemma adjust_bound_range : forall len i, 0 <= len -> 0 <= adjust_bound len i <= len.
Proof. intros. unfold adjust_bound. destruct (i <? 0) eqn:E; lia. Qed.

Lemma in_slice_spec : forall len a b i,
  in_slice len a b i = true <-> adjust_bound len a <= i < adjust_bound len b.
Proof.
  intros. unfold in_slice. rewrite andb_true_iff, Z.leb_le, Z.ltb_lt. reflexivity.
Qed.

Lemma in_slice_indices : forall len a b i,
  In i (slice_indices len a b) <-> in_slice len a b i = true.
Proof. intros. unfold slice_indices. rewrite in_zrange, in_slice_spec. reflexivity. Qed.

Lemma NoDup_app_intro : forall {A} (l l' : list A), NoDup l -> NoDup l' ->
  (forall x, In x l -> ~ In x l') -> NoDup (l ++ l').
Proof.
  intros A l l' H. induction H as [|x l Hx Hl IH]; intros H' Hd; simpl; [exact H'|].
  constructor.
  - intros Hin. apply in_app_or in Hin. destruct Hin as [|Hin]; [contradiction|].
    apply (Hd x (or_introl eq_refl) Hin).
  - apply IH; [exact H'|]. intros y Hy. apply Hd. right. exact Hy.
Qed.

Lemma NoDup_app_inv : forall {A} (l l' : list A), NoDup (l ++ l') ->
  NoDup l /\ NoDup l' /\ (forall x, In x l -> ~ In x l').
Proof.
  intros A l. induction l as [|x l IH]; intros l' H; simpl in *.
  - repeat split; [constructor|exact H|tauto].
  - inversion H as [|? ? Hx Hl]; subst. destruct (IH _ Hl) as (A1 & A2 & A3).
    repeat split; auto.
    + constructor; [|exact A1]. intros Hin. apply Hx. apply in_or_app. auto.
    + intros y [<-|Hy]; [|auto]. intros Hin. apply Hx. apply in_or_app. auto.
Qed.

Lemma nth_error_ext_Z : forall {A} (l l' : list A),
  (forall i, nth_error l i = nth_error l' i) -> l = l'.
Proof.
  induction l as [|a l IH]; intros [|b l'] H; [reflexivity| | |].
  - specialize (H 0%nat). discriminate.
  - specialize (H 0%nat). discriminate.
  - pose proof (H 0%nat) as H0. simpl in H0. injection H0 as ->. f_equal.
    apply IH. intros i. exact (H (S i)).
Qed.

Lemma Forall2_len : forall {A B} (R : A -> B -> Prop) l l', Forall2 R l l' -> length l = length l'.
Proof. intros A B R l l' H. induction H; simpl; congruence. Qed.

Lemma Forall2_imp : forall {A B} (R R' : A -> B -> Prop) l l',
  (forall a b, R a b -> R' a b) -> Forall2 R l l' -> Forall2 R' l l'.
Proof. intros A B R R' l l' H F. induction F; constructor; auto. Qed.

(** [injection] on [Ok] without reducing the arguments. *)
Lemma Ok_inj : forall {A} (a b : A), Ok a = Ok b -> a = b.
Proof. intros A a b H. congruence. Qed.

Lemma Some_inj : forall {A} (a b : A), Some a = Some b -> a = b.
Proof. intros A a b H. congruence. Qed.
