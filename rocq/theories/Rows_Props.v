(** C06: a table of search areas in which an id is repeated. *)
From Coq Require Import List ZArith Lia Bool.
From Verif Require Import Base Step2_Model Step2_Spec Step2_Proofs Step2_Props.
Import ListNotations.
Local Open Scope Z_scope.

(** ** Specification *)

(** Every number once, where it is mentioned first. *)
Fixpoint first_mentions (seen l : list Z) : list Z :=
  match l with
  | [] => []
  | k :: l' => if in_dec Z.eq_dec k seen then first_mentions seen l' else k :: first_mentions (k :: seen) l'
  end.

(** The row is the last one with its id. *)
Definition last_row (rows : list row) (r : row) : Prop := exists l1 l2, rows = l1 ++ r :: l2 /\ ~ In (fst r) (ids l2).

(** ** Proofs *)
Lemma first_mentions_snoc : forall l seen k,
  first_mentions seen (l ++ [k]) = first_mentions seen l ++ (if in_dec Z.eq_dec k (l ++ seen) then [] else [k]).
Proof.
  induction l as [|x l IH]; intros seen k; cbn [app first_mentions]; [destruct (in_dec Z.eq_dec k seen); reflexivity|].
  destruct (in_dec Z.eq_dec x seen) as [H|H]; rewrite IH.
  - f_equal. destruct (in_dec Z.eq_dec k (l ++ seen)) as [A|A], (in_dec Z.eq_dec k (x :: l ++ seen)) as [B|B]; try reflexivity; exfalso.
    + apply B. right. exact A.
    + destruct B as [->|B]; [apply A, in_or_app; right; exact H|contradiction].
  - cbn [app]. do 2 f_equal. destruct (in_dec Z.eq_dec k (l ++ x :: seen)) as [A|A], (in_dec Z.eq_dec k (x :: l ++ seen)) as [B|B]; try reflexivity; exfalso.
    + apply B. apply in_app_or in A. destruct A as [A|[->|A]]; [right; apply in_or_app; left; exact A|left; reflexivity|right; apply in_or_app; right; exact A].
    + apply A. destruct B as [->|B]; [apply in_or_app; right; left; reflexivity|]. apply in_app_or in B. apply in_or_app. destruct B as [B|B]; [left; exact B|right; right; exact B].
Qed.

Lemma dict_set_present : forall d k v, In k (keys d) -> keys (dict_set d k v) = keys d.
Proof.
  induction d as [|[k' v'] d IH]; intros k v H; [destruct H|]. cbn [dict_set]. destruct (k' =? k) eqn:E; [reflexivity|]. apply Z.eqb_neq in E.
  cbn [keys map fst]. f_equal. apply IH. destruct H as [H|H]; [contradiction|exact H].
Qed.

Lemma dict_set_in : forall d k v k' v', NoDup (keys d) -> In (k', v') (dict_set d k v) -> (k' = k /\ v' = v) \/ (k' <> k /\ In (k', v') d).
Proof.
  induction d as [|[k0 v0] d IH]; intros k v k' v' Nd H; cbn [dict_set] in H.
  - destruct H as [H|[]]. injection H as <- <-. left. split; reflexivity.
  - inversion Nd as [|? ? N1 N2]; subst. destruct (k0 =? k) eqn:E.
    + apply Z.eqb_eq in E. subst k0. destruct H as [H|H]; [injection H as <- <-; left; split; reflexivity|]. right. split; [|right; exact H].
      intros ->. apply N1. change k with (fst (k, v')). apply in_map. exact H.
    + apply Z.eqb_neq in E. destruct H as [H|H]; [injection H as <- <-; right; split; [exact E|left; reflexivity]|].
      destruct (IH k v k' v' N2 H) as [X|(X & Y)]; [left; exact X|right; split; [exact X|right; exact Y]].
Qed.

Lemma dict_of_rows_snoc : forall rows k v, dict_of_rows (rows ++ [(k, v)]) = dict_set (dict_of_rows rows) k v.
Proof. intros. unfold dict_of_rows. rewrite fold_left_app. reflexivity. Qed.

Lemma dict_of_rows_order : forall rows, keys (dict_of_rows rows) = first_mentions [] (ids rows).
Proof.
  intros rows. induction rows as [|[k v] rows IH] using rev_ind; [reflexivity|]. rewrite dict_of_rows_snoc. unfold ids. rewrite map_app. cbn [map fst].
  rewrite first_mentions_snoc, app_nil_r. fold (ids rows). rewrite <- IH. destruct (in_dec Z.eq_dec k (ids rows)) as [H|H].
  - rewrite app_nil_r. apply dict_set_present. apply dict_of_rows_keys. exact H.
  - rewrite dict_set_fresh by (intros C; apply H; apply dict_of_rows_keys; exact C). unfold keys. rewrite map_app. reflexivity.
Qed.

Lemma dict_of_rows_last : forall rows r, In r (dict_of_rows rows) -> last_row rows r.
Proof.
  intros rows. induction rows as [|[k v] rows IH] using rev_ind; intros [k' v'] H; [destruct H|]. rewrite dict_of_rows_snoc in H.
  apply dict_set_in in H; [|apply dict_of_rows_nodup]. destruct H as [(-> & ->)|(N & H)].
  - exists rows, []. split; [reflexivity|intros []].
  - destruct (IH _ H) as (l1 & l2 & -> & Hl). exists l1, (l2 ++ [(k, v)]). split; [rewrite <- app_assoc; reflexivity|]. cbn [fst] in *.
    unfold ids. rewrite map_app. intros C. apply in_app_or in C. destruct C as [C|[C|[]]]; [contradiction|]. cbn [fst] in C. congruence.
Qed.

Lemma last_row_unique : forall rows k v v', last_row rows (k, v) -> last_row rows (k, v') -> v = v'.
Proof.
  intros rows k v v' (l1 & l2 & -> & H1) (m1 & m2 & E & H2). cbn [fst] in *. revert m1 E. induction l1 as [|a l1 IH]; intros [|b m1] E; cbn [app] in E.
  - congruence.
  - injection E as _ E. exfalso. apply H1. subst l2. unfold ids. rewrite map_app. apply in_or_app. right. left. reflexivity.
  - injection E as _ E. exfalso. apply H2. subst m2. unfold ids. rewrite map_app. apply in_or_app. right. left. reflexivity.
  - injection E as _ E. apply (IH m1). exact E.
Qed.

(** ** The theorem *)

(** An LED whose id is repeated takes part at its first place in the table and
    with its last position. *)
Theorem C06_repeated_ids : forall g max_n rows rows' edges ignored ignore_leds,
  ids rows' = first_mentions [] (ids rows) -> (forall r, In r rows' -> last_row rows r) ->
  match_leds_to_led_arrays g max_n rows edges ignored ignore_leds = match_leds_to_led_arrays g max_n rows' edges ignored ignore_leds.
Proof.
  intros g max_n rows rows' edges ignored ignore_leds Hi Hl.
  assert (E : dict_of_rows rows = rows').
  { pose proof (dict_of_rows_order rows) as Ho. rewrite <- Hi in Ho. pose proof (dict_of_rows_last rows) as Hd. clear Hi. revert rows' Hl Ho.
    induction (dict_of_rows rows) as [|[k v] d IH]; intros [|[k' v'] rows'] Hl Ho; try discriminate; [reflexivity|]. cbn in Ho. injection Ho as <- Ho. f_equal.
    - f_equal. apply (last_row_unique rows k); [apply Hd; left; reflexivity|apply Hl; left; reflexivity].
    - apply IH; [intros r Hr; apply Hd; right; exact Hr|intros r Hr; apply Hl; right; exact Hr|exact Ho]. }
  unfold match_leds_to_led_arrays. rewrite (dict_of_rows_id rows'); [rewrite E; reflexivity|]. rewrite <- E. apply dict_of_rows_nodup.
Qed.
Print Assumptions C06_repeated_ids.

(** LED 1 has been moved by a line at the end of the file. *)
Example C06_repeated_ids_example :
  match_leds_to_led_arrays fixed_geometry 5 [(0, (10, 10)); (1, (90, 90)); (2, (30, 10)); (1, (20, 10))] [[0; 2]] [] None = Ok [[0; 1; 2]] /\
  match_leds_to_led_arrays fixed_geometry 5 [(0, (10, 10)); (1, (20, 10)); (2, (30, 10))] [[0; 2]] [] None = Ok [[0; 1; 2]] /\
  match_leds_to_led_arrays fixed_geometry 5 [(0, (10, 10)); (1, (90, 90)); (2, (30, 10))] [[0; 2]] [] None = Ok [[0; 2]].
Proof. vm_compute. split; [reflexivity|]. split; reflexivity. Qed.
