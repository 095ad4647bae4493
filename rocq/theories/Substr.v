(** Python strings: searching for and splitting at a substring.
    This file models Python built-ins ([sub in s], [s.split(sep)]), not
    repository code. *)
From Coq Require Import ZArith Lia Bool Ascii String List.
From Verif Require Import Base Str.
Import ListNotations.
Local Open Scope string_scope.

(** [s.startswith(p)].  Used by the search of demo_setup.py:243. *)
Fixpoint starts (p s : string) : bool :=
  match p, s with
  | "", _ => true
  | String a p', String b s' => Ascii.eqb a b && starts p' s'
  | String _ _, "" => false
  end.

(** [sub in s].  demo_setup.py:243, step_3_functions.py:203. *)
Fixpoint contains (sub s : string) : bool :=
  starts sub s || match s with "" => false | String _ s' => contains sub s' end.

(** [s.split(sep)] for a non-empty separator: [skip] characters of a separator
    that has been found are still to be passed over, [cur] is the current piece.  simulation.py:172-173. *)
Fixpoint split_go (sep s : string) (skip : nat) (cur : string) : list string :=
  match s with
  | "" => [cur]
  | String c s' =>
    match skip with
    | S k => split_go sep s' k cur
    | O => if starts sep s then cur :: split_go sep s' (String.length sep - 1) ""
           else split_go sep s' 0 (cur ++ String c "")
    end
  end.

(** [s.split(sep)], simulation.py:172-173. *)
Definition split_str (sep s : string) : list string := split_go sep s 0 "".

(** ** Facts *)

Lemma starts_refl_app : forall p s, starts p (p ++ s) = true.
Proof. induction p as [|a p IH]; intros s; simpl; [reflexivity|]. now rewrite Ascii.eqb_refl, IH. Qed.

Lemma starts_spec : forall p s, starts p s = true <-> exists t, s = p ++ t.
Proof.
  induction p as [|a p IH]; intros s; simpl.
  - split; [intros _; exists s; reflexivity|reflexivity].
  - destruct s as [|b s]; [split; [discriminate|intros (t & H); discriminate]|].
    rewrite andb_true_iff, Ascii.eqb_eq, IH. split.
    + intros (-> & t & ->). exists t. reflexivity.
    + intros (t & H). injection H as -> ->. split; [reflexivity|]. exists t. reflexivity.
Qed.

Lemma contains_spec : forall sub s, contains sub s = true <-> exists u t, s = u ++ sub ++ t.
Proof.
  intros sub. induction s as [|c s IH]; simpl.
  - rewrite orb_false_r, starts_spec. split.
    + intros (t & H). exists "", t. exact H.
    + intros (u & t & H). destruct u; [|discriminate]. exists t. exact H.
  - rewrite orb_true_iff, starts_spec, IH. split.
    + intros [(t & H)|(u & t & ->)]; [exists "", t; exact H|exists (String c u), t; reflexivity].
    + intros (u & t & H). destruct u as [|d u]; [left; exists t; exact H|].
      right. injection H as -> ->. exists u, t. reflexivity.
Qed.

Lemma contains_app_r : forall sub s t, contains sub s = true -> contains sub (s ++ t) = true.
Proof.
  intros sub s t. rewrite !contains_spec. intros (u & v & ->). exists u, (v ++ t).
  rewrite !app_assoc_s. reflexivity.
Qed.

Lemma contains_app_l : forall sub s t, contains sub t = true -> contains sub (s ++ t) = true.
Proof.
  intros sub s t. rewrite !contains_spec. intros (u & v & ->). exists (s ++ u), v.
  rewrite !app_assoc_s. reflexivity.
Qed.

Lemma app_inj_s : forall a b c, a ++ b = a ++ c -> b = c.
Proof. induction a as [|x a IH]; intros b c H; [exact H|]. injection H as H. apply IH. exact H. Qed.

(** Two ways of cutting the same text. *)
Lemma app_cut : forall a b c d : string, a ++ b = c ++ d ->
  (exists e, a = c ++ e /\ d = e ++ b) \/ (exists e, c = a ++ e /\ b = e ++ d).
Proof.
  induction a as [|x a IH]; intros b c d H.
  - right. exists c. split; [reflexivity|exact H].
  - destruct c as [|y c].
    + left. exists (String x a). split; [reflexivity|symmetry; exact H].
    + injection H as -> H. destruct (IH b c d H) as [(e & -> & ->)|(e & -> & ->)].
      * left. exists e. split; reflexivity.
      * right. exists e. split; reflexivity.
Qed.

(** No occurrence of [sep] starts inside [p] when [p] is followed by [s].  For the names split in
    simulation.py:172-173. *)
Fixpoint clean (sep p s : string) : bool :=
  match p with
  | "" => true
  | String _ p' => negb (starts sep (p ++ s)) && clean sep p' s
  end.

Lemma clean_app : forall sep p q s, clean sep (p ++ q) s = clean sep p (q ++ s) && clean sep q s.
Proof.
  intros sep p q s. induction p as [|a p IH]; simpl; [reflexivity|].
  rewrite IH, app_assoc_s, andb_assoc. reflexivity.
Qed.

(** Characters that do not begin the separator begin no occurrence. *)
Lemma clean_chars : forall a sep p s, has_char a p = false -> clean (String a sep) p s = true.
Proof.
  intros a sep p s. induction p as [|b p IH]; simpl; [reflexivity|].
  rewrite orb_false_iff. intros [H1 H2]. rewrite IH by exact H2.
  rewrite Ascii.eqb_sym in H1. rewrite H1. reflexivity.
Qed.

Lemma starts_stop : forall sep t c s, has_char c sep = false ->
  starts sep (t ++ String c s) = true -> starts sep t = true.
Proof.
  induction sep as [|a sep IH]; intros t c s H; [reflexivity|].
  simpl in H. apply orb_false_iff in H. destruct H as [H1 H2].
  destruct t as [|b t]; simpl.
  - rewrite H1. discriminate.
  - rewrite !andb_true_iff. intros [H3 H4]. split; [exact H3|]. exact (IH t c s H2 H4).
Qed.

(** A text without the separator, followed by a character that does not occur
    in the separator. *)
Lemma clean_stop : forall sep p c s, has_char c sep = false -> contains sep p = false ->
  clean sep p (String c s) = true.
Proof.
  intros sep p c s Hc. induction p as [|b p IH]; [reflexivity|].
  intros H. cbn [contains] in H. apply orb_false_iff in H. destruct H as [H1 H2].
  cbn [clean]. rewrite IH by exact H2. rewrite andb_true_r, negb_true_iff.
  destruct (starts sep (String b p ++ String c s)) eqn:E; [|reflexivity].
  apply starts_stop in E; [congruence|exact Hc].
Qed.

Lemma starts_end : forall sep t c s, has_char c sep = false ->
  starts (sep ++ String c "") (t ++ String c s) = true -> starts (sep ++ String c "") (t ++ String c "") = true.
Proof.
  induction sep as [|a sep IH]; intros t c s H.
  - destruct t as [|b t]; cbn [append starts]; [rewrite Ascii.eqb_refl; reflexivity|].
    intros E; exact E.
  - simpl in H. apply orb_false_iff in H. destruct H as [H1 H2].
    destruct t as [|b t]; cbn [append starts].
    + rewrite H1. discriminate.
    + rewrite !andb_true_iff. intros [H3 H4]. split; [exact H3|]. exact (IH t c s H2 H4).
Qed.

(** The same when the character is the last one of the separator. *)
Lemma clean_end : forall sep p c s, has_char c sep = false ->
  contains (sep ++ String c "") (p ++ String c "") = false ->
  clean (sep ++ String c "") p (String c s) = true.
Proof.
  intros sep p c s Hc. induction p as [|b p IH]; [reflexivity|].
  intros H. cbn [append contains] in H. apply orb_false_iff in H. destruct H as [H1 H2].
  cbn [clean]. rewrite IH by exact H2. rewrite andb_true_r, negb_true_iff.
  destruct (starts (sep ++ String c "") (String b p ++ String c s)) eqn:E; [|reflexivity].
  apply starts_end in E; [|exact Hc]. cbn [append] in E. congruence.
Qed.

Lemma split_go_clean : forall sep p s cur, clean sep p s = true ->
  split_go sep (p ++ s) 0 cur = split_go sep s 0 (cur ++ p).
Proof.
  intros sep p s. induction p as [|a p IH]; intros cur H.
  - rewrite app_nil_s. reflexivity.
  - cbn [clean] in H. apply andb_true_iff in H. destruct H as [H1 H2].
    apply negb_true_iff in H1. cbn [append] in *. cbn [split_go]. rewrite H1.
    rewrite IH by exact H2. rewrite app_assoc_s. reflexivity.
Qed.

Lemma split_go_skip : forall sep p s cur, split_go sep (p ++ s) (String.length p) cur = split_go sep s 0 cur.
Proof. intros sep p s cur. induction p as [|a p IH]; [reflexivity|]. exact IH. Qed.

Lemma split_str_first : forall sep p s, sep <> "" -> clean sep p (sep ++ s) = true ->
  split_str sep (p ++ sep ++ s) = p :: split_str sep s.
Proof.
  intros sep p s Hne H. unfold split_str. rewrite split_go_clean by exact H.
  destruct sep as [|a sep]; [congruence|].
  cbn [append split_go].
  assert (E : starts (String a sep) (String a (sep ++ s)) = true) by exact (starts_refl_app (String a sep) s).
  rewrite E. f_equal. cbn [String.length]. rewrite Nat.sub_succ, Nat.sub_0_r. apply split_go_skip.
Qed.

Lemma split_go_shape : forall sep s k cur, exists r rest, split_go sep s k cur = (cur ++ r) :: rest /\
  (k = 0%nat -> exists t, s = r ++ t).
Proof.
  intros sep. induction s as [|c s IH]; intros k cur.
  - exists "", []. rewrite app_nil_s. split; [reflexivity|]. intros _. exists "". reflexivity.
  - destruct k as [|k]; cbn [split_go].
    + destruct (starts sep (String c s)).
      * exists "". eexists. rewrite app_nil_s. split; [reflexivity|]. intros _. exists (String c s). reflexivity.
      * destruct (IH 0%nat (cur ++ String c "")) as (r & rest & -> & H).
        exists (String c r), rest. rewrite app_assoc_s. split; [reflexivity|].
        intros _. destruct (H eq_refl) as (t & ->). exists t. reflexivity.
    + destruct (IH k cur) as (r & rest & -> & _). exists r, rest. split; [reflexivity|discriminate].
Qed.

(** The first piece starts with any clean prefix. *)
Lemma split_str_head : forall sep p s, clean sep p s = true ->
  exists r rest, split_str sep (p ++ s) = (p ++ r) :: rest.
Proof.
  intros sep p s H. unfold split_str. rewrite split_go_clean by exact H.
  destruct (split_go_shape sep s 0 ("" ++ p)) as (r & rest & -> & _). exists r, rest. reflexivity.
Qed.

Lemma split_str_nonempty : forall sep s, split_str sep s <> [].
Proof.
  intros sep s. unfold split_str. destruct (split_go_shape sep s 0 "") as (r & rest & -> & _). discriminate.
Qed.

Lemma split_str_none : forall sep s, contains sep s = false -> split_str sep s = [s].
Proof.
  intros sep s H. unfold split_str. rewrite <- (app_nil_s s) at 1.
  rewrite split_go_clean; [reflexivity|].
  induction s as [|a s IH]; [reflexivity|]. cbn [contains] in H. apply orb_false_iff in H.
  destruct H as [H1 H2]. cbn [clean]. rewrite IH by exact H2. rewrite app_nil_s, H1. reflexivity.
Qed.

Lemma split_on_head : forall c p s, has_char c p = false ->
  exists rest, split_on c (p ++ String c s) = p :: rest.
Proof. intros c p s H. rewrite split_on_app by exact H. eexists. reflexivity. Qed.

Lemma has_char_app : forall c a b, has_char c (a ++ b) = has_char c a || has_char c b.
Proof. intros c a b. induction a as [|x a IH]; simpl; [reflexivity|]. rewrite IH. apply orb_assoc. Qed.
