(** Properties C06 - C08, C11 - C13: matching, renumbering, index files, merging. *)
From Coq Require Import List ZArith Lia Bool Permutation Sorted.
From Verif Require Import Base Step2_Model Step2_Spec Step2_Proofs Step2_Match.
Import ListNotations.
Local Open Scope Z_scope.

(** Fixed-point distances (six decimals), used only to run the model in the
    examples. *)
Definition fixed_geometry : geometry := {|
  gD := Z;
  gltb := Z.ltb;
  gdist := fun p q => Z.sqrt (1000000000000 *
     ((fst p - fst q) * (fst p - fst q) + (snd p - snd q) * (snd p - snd q)));
  gtotal := fun ref nb => 987 * ref + 1000 * nb |}.

(** Two columns of three LEDs, numbered in brightness order, and a stray LED. *)
Definition demo_rows : list row :=
  [(0, (10, 10)); (1, (10, 40)); (2, (20, 10)); (3, (30, 40)); (4, (30, 10)); (5, (20, 41)); (6, (90, 90))].
Definition demo_edges : list (list Z) := [[0; 4]; [1; 3]].

(** ** C06 *)

Theorem C06_no_led_twice :
  forall g max_n rows edges ignored ignore_leds arrays,
  match_leds_to_led_arrays g max_n rows edges ignored ignore_leds = Ok arrays ->
  NoDup (concat arrays) /\ forall x, In x (concat arrays) -> In x (ids rows).
Proof.
  intros g max_n rows edges ig il arrays H.
  destruct (match_leds_inv _ _ _ _ _ _ _ H) as (w & d' & Hm & ->).
  destruct (match_all_partition _ _ _ _ _ _ (start_dict_nodup rows il) Hm) as (A & B & C & _).
  split; [apply remove_ignored_NoDup; exact A|].
  intros x Hx. apply remove_ignored_In in Hx; [|exact A]. destruct Hx as [Hx _].
  assert (Hs : In x (keys (start_dict rows il))) by (apply C; auto).
  apply drop_ignored_spec in Hs; [|apply dict_of_rows_nodup].
  apply dict_of_rows_keys. tauto.
Qed.
Print Assumptions C06_no_led_twice.

Example C06_example :
  match_leds_to_led_arrays fixed_geometry 5 demo_rows demo_edges [5] None = Ok [[0; 2; 4]; [1; 3]].
Proof. vm_compute. reflexivity. Qed.

(** ** C07 *)

(** Failure happens exactly when an edge LED is missing or already used. *)
Theorem C07_fails_exactly_when_edge_led_unavailable :
  forall g max_n rows edges ignored e,
  (0 < max_n)%nat -> Forall (fun l => length l = 2%nat) edges ->
  (match_leds_to_led_arrays g max_n rows edges ignored None = Err e <->
   e = ValueError /\
   exists pre a b post walked,
     edges = pre ++ [a; b] :: post /\
     match_leds_to_led_arrays g max_n rows pre [] None = Ok walked /\
     exists x, (x = a \/ x = b) /\ (~ In x (ids rows) \/ In x (concat walked))).
Proof.
  intros g max_n rows edges ig e Hm Hp.
  pose proof (start_dict_nodup rows None) as Hnd. split.
  - intros H. assert (H' : match_all g max_n (start_dict rows None) edges = Err e).
    { unfold match_leds_to_led_arrays in H. fold (start_dict rows None) in H.
      destruct (match_all _ _ _ _); simpl in H; [discriminate|]. congruence. }
    destruct (match_all_fail g max_n Hm _ _ _ Hnd Hp H') as (-> & pre & a & b & post & w & d' & -> & Em & Hb).
    split; [reflexivity|]. exists pre, a, b, post, w. split; [reflexivity|].
    rewrite match_leds_no_ignore, Em. split; [reflexivity|].
    destruct (match_all_partition _ _ _ _ _ _ Hnd Em) as (A & B & C & D & _).
    assert (G : forall x, ~ In x (keys d') -> ~ In x (ids rows) \/ In x (concat w)).
    { intros x Hx. destruct (in_dec Z.eq_dec x (ids rows)) as [Hi|Hi]; [|auto].
      right. apply start_dict_keys in Hi. apply C in Hi. tauto. }
    destruct Hb as [Hb|Hb]; [exists a|exists b]; auto.
  - intros (-> & pre & a & b & post & w & -> & Em & x & Hx & Hbad).
    rewrite match_leds_no_ignore in Em.
    destruct (match_all g max_n (start_dict rows None) pre) as [[w' d']|] eqn:E; simpl in Em; [|discriminate].
    injection Em as <-.
    destruct (match_all_partition _ _ _ _ _ _ Hnd E) as (A & B & C & D & _).
    assert (Hn : ~ In x (keys d')).
    { destruct Hbad as [Hb|Hb]; [|apply D, Hb]. intros Hi. apply Hb, start_dict_keys, C. auto. }
    unfold match_leds_to_led_arrays. fold (start_dict rows None).
    rewrite (match_all_fail_conv g max_n Hm _ _ pre a b post w' d' Hnd eq_refl E); [reflexivity|].
    destruct Hx as [->| ->]; auto.
Qed.
Print Assumptions C07_fails_exactly_when_edge_led_unavailable.

(** On success every array runs from its first label to its second label. *)
Theorem C07_arrays_run_between_their_edge_leds :
  forall g max_n rows edges walked,
  (0 < max_n)%nat -> Forall (fun l => length l = 2%nat) edges ->
  match_leds_to_led_arrays g max_n rows edges [] None = Ok walked ->
  Forall2 (fun e arr => forall a b, e = [a; b] -> a <> b ->
             hd_error arr = Some a /\ last arr 0 = b /\ (2 <= length arr)%nat) edges walked.
Proof.
  intros g max_n rows edges walked Hm Hp H. rewrite match_leds_no_ignore in H.
  destruct (match_all _ _ _ _) as [[w d']|] eqn:E; simpl in H; [|discriminate]. injection H as <-.
  pose proof (match_all_ends g max_n Hm _ _ _ _ (start_dict_nodup rows None) Hp E) as F.
  eapply Forall2_imp; [|exact F]. simpl. intros e arr Ha a b Eab Hne.
  destruct (Ha a b Eab) as [H1 H2]. destruct (H2 Hne). auto.
Qed.
Print Assumptions C07_arrays_run_between_their_edge_leds.

(** Equal labels: the array takes every LED that is still unmatched. *)
Theorem C07_equal_labels_swallow_all_remaining_leds :
  forall g max_n rows pre walked a,
  (0 < max_n)%nat ->
  match_leds_to_led_arrays g max_n rows pre [] None = Ok walked ->
  In a (ids rows) -> ~ In a (concat walked) ->
  exists arr, match_leds_to_led_arrays g max_n rows (pre ++ [[a; a]]) [] None = Ok (walked ++ [arr]) /\
              NoDup arr /\ forall x, In x arr <-> In x (ids rows) /\ ~ In x (concat walked).
Proof.
  intros g max_n rows pre walked a Hm H Ha Hna. rewrite match_leds_no_ignore in H.
  destruct (match_all g max_n (start_dict rows None) pre) as [[w d']|] eqn:E; simpl in H; [|discriminate].
  injection H as ->. pose proof (start_dict_nodup rows None) as Hnd.
  destruct (match_all_partition _ _ _ _ _ _ Hnd E) as (A & B & C & D & _).
  assert (Hk : In a (keys d')) by (apply start_dict_keys in Ha; apply C in Ha; tauto).
  destruct (match_all_swallow g max_n Hm _ _ _ _ a Hnd E Hk) as (arr & Em & Hperm).
  exists arr. rewrite match_leds_no_ignore, Em. split; [reflexivity|]. split.
  - eapply Permutation_NoDup; [symmetry; exact Hperm|exact B].
  - intros x. rewrite <- (start_dict_keys rows), C. split.
    + intros Hx. apply (Permutation_in _ Hperm) in Hx. split; [auto|]. intros Hc. apply (D _ Hc Hx).
    + intros [[Hx|Hx] Hn]; [contradiction|]. apply (Permutation_in _ (Permutation_sym Hperm)). exact Hx.
Qed.
Print Assumptions C07_equal_labels_swallow_all_remaining_leds.

(** The claim "ends at its second label" without [a <> b] is false. *)
Theorem C07_ends_at_second_label_refuted :
  exists rows edges arr,
    NoDup (ids rows) /\ edges = [[0; 0]] /\
    match_leds_to_led_arrays fixed_geometry 5 rows edges [] None = Ok [arr] /\ last arr 0 <> 0.
Proof.
  exists demo_rows, [[0; 0]]. eexists. split; [|split; [reflexivity|split; [vm_compute; reflexivity|]]].
  - unfold demo_rows, ids. simpl. repeat constructor; simpl; intuition discriminate.
  - vm_compute. discriminate.
Qed.

Example C07_example :
  match_leds_to_led_arrays fixed_geometry 5 demo_rows demo_edges [] None = Ok [[0; 2; 4]; [1; 5; 3]]
  /\ match_leds_to_led_arrays fixed_geometry 5 demo_rows [[0; 4]; [2; 3]] [] None = Err ValueError
  /\ match_leds_to_led_arrays fixed_geometry 5 demo_rows [[0; 4]; [1; 17]] [] None = Err ValueError.
Proof. vm_compute. repeat split; reflexivity. Qed.

(** ** C08 *)

Theorem C08_only_ignored_leds_removed :
  forall g max_n rows edges ignored arrays,
  match_leds_to_led_arrays g max_n rows edges ignored None = Ok arrays ->
  exists walked, match_leds_to_led_arrays g max_n rows edges [] None = Ok walked /\
                 Forall2 (dropped (fun x => In x ignored)) walked arrays.
Proof.
  intros g max_n rows edges ig arrays H.
  destruct (match_leds_inv _ _ _ _ _ _ _ H) as (w & d' & Hm & ->).
  exists w. rewrite match_leds_no_ignore, Hm. split; [reflexivity|].
  apply remove_ignored_dropped.
  apply (match_all_partition _ _ _ _ _ _ (start_dict_nodup rows None) Hm).
Qed.
Print Assumptions C08_only_ignored_leds_removed.

(** Conversely the ignore list never makes matching fail. *)
Theorem C08_ignore_list_never_fails :
  forall g max_n rows edges ignored walked,
  match_leds_to_led_arrays g max_n rows edges [] None = Ok walked ->
  exists arrays, match_leds_to_led_arrays g max_n rows edges ignored None = Ok arrays.
Proof.
  intros g max_n rows edges ig w H. unfold match_leds_to_led_arrays in *.
  destruct (match_all _ _ _ _); simpl in *; [eauto|discriminate].
Qed.
Print Assumptions C08_ignore_list_never_fails.

Example C08_example :
  match_leds_to_led_arrays fixed_geometry 5 demo_rows demo_edges [2; 2; 77; 3] None = Ok [[0; 4]; [1; 5]].
Proof. vm_compute. reflexivity. Qed.

(** ** C11 *)

(** [positional rows]: row i has id i, which is what step 1 writes (C01). *)
Theorem C11_renumbering_keeps_positions :
  forall g max_n rows edges ignored arrays,
  ids rows = zrange 0 (Z.of_nat (length rows)) ->
  match_leds_to_led_arrays g max_n rows edges ignored None = Ok arrays ->
  exists rows',
    reorder_search_areas rows arrays = Ok rows' /\
    ids rows' = zrange 0 (Z.of_nat (length (concat arrays))) /\
    concat (reorder_led_indices arrays) = ids rows' /\
    map (@length Z) (reorder_led_indices arrays) = map (@length Z) arrays /\
    forall k j arr old, nth_error arrays k = Some arr -> nth_error arr j = Some old ->
    exists arr' new p, nth_error (reorder_led_indices arrays) k = Some arr' /\
      nth_error arr' j = Some new /\ has_loc rows old p /\ has_loc rows' new p.
Proof.
  intros g max_n rows edges ig arrays Hpos H. apply positional_ids in Hpos.
  destruct (C06_no_led_twice _ _ _ _ _ _ _ H) as [_ Hin].
  destruct (reorder_ok rows arrays Hpos Hin) as (rows' & E & Hlen & Hp' & Hmap).
  exists rows'. apply positional_ids in Hp'. rewrite Hlen in Hp'.
  split; [exact E|]. split; [exact Hp'|]. split; [|split; [apply reorder_from_lengths|exact Hmap]].
  rewrite Hp'. apply reorder_from_concat.
Qed.
Print Assumptions C11_renumbering_keeps_positions.

(** The position of a new id is unique, so the table really moves every LED. *)
Theorem C11_new_ids_have_one_position :
  forall rows arrays rows' k p q,
  reorder_search_areas rows arrays = Ok rows' -> has_loc rows' k p -> has_loc rows' k q -> p = q.
Proof.
  intros rows arrays rows' k p q H Hp Hq. unfold reorder_search_areas in H.
  destruct (mapM (np_index rows) (concat arrays)) as [rs|] eqn:E; simpl in H; [|discriminate].
  injection H as <-.
  assert (G : forall rs s k p, In (k, p) (renumber s rs) -> s <= k /\ exists r, nth_error rs (Z.to_nat (k - s)) = Some r /\ snd r = p).
  { clear. induction rs as [|r rs IH]; intros s k p Hin; [destruct Hin|].
    destruct Hin as [E|Hin].
    - injection E as <- <-. split; [lia|]. rewrite Z.sub_diag. simpl. eauto.
    - destruct (IH (s + 1) k p Hin) as (Hle & r' & Hn & Hr). split; [lia|]. exists r'. split; [|exact Hr].
      replace (Z.to_nat (k - s)) with (S (Z.to_nat (k - (s + 1)))) by lia. exact Hn. }
  destruct (G _ _ _ _ Hp) as (_ & r1 & N1 & <-). destruct (G _ _ _ _ Hq) as (_ & r2 & N2 & <-). congruence.
Qed.
Print Assumptions C11_new_ids_have_one_position.

Example C11_example :
  reorder_search_areas demo_rows [[0; 2; 4]; [1; 5; 3]]
    = Ok [(0, (10, 10)); (1, (20, 10)); (2, (30, 10)); (3, (10, 40)); (4, (20, 41)); (5, (30, 40))]
  /\ reorder_led_indices [[0; 2; 4]; [1; 5; 3]] = [[0; 1; 2]; [3; 4; 5]]
  /\ ids demo_rows = zrange 0 (Z.of_nat (length demo_rows)).
Proof. vm_compute. repeat split; reflexivity. Qed.

(** Feeding step 2 a second time with the renumbered table loses the stray LED
    and keeps positions; but with a table whose ids are not positional the
    row lookup picks the wrong LED: the hypothesis is needed. *)
Theorem C11_positional_ids_needed_refuted :
  exists rows arrays rows',
    NoDup (ids rows) /\ (forall x, In x (concat arrays) -> In x (ids rows)) /\
    reorder_search_areas rows arrays = Ok rows' /\
    exists p, has_loc rows 1 p /\ nth_error (concat arrays) 0 = Some 1 /\ ~ has_loc rows' 0 p.
Proof.
  exists [(1, (5, 5)); (0, (7, 7))], [[1; 0]], [(0, (7, 7)); (1, (5, 5))].
  split; [simpl; repeat constructor; simpl; intuition discriminate|].
  split; [simpl; tauto|]. split; [vm_compute; reflexivity|].
  exists (5, 5). split; [simpl; left; reflexivity|]. split; [reflexivity|].
  intros [H|[H|[]]]; discriminate.
Qed.

(** ** C12 *)

Theorem C12_index_files_round_trip :
  forall arrays,
  let written := index_files (reorder_led_indices arrays) in
  length written = length arrays /\
  load_index_files written (Z.of_nat (length arrays)) = Ok (map (@rev Z) (reorder_led_indices arrays)) /\
  (forall f, In f written -> StronglySorted Z.gt f) /\
  Permutation (concat written) (zrange 0 (Z.of_nat (length (concat arrays)))).
Proof.
  intros arrays written.
  assert (Hl : length written = length arrays).
  { unfold written, index_files. rewrite map_length.
    rewrite <- (map_length (@length Z) (reorder_led_indices arrays)).
    unfold reorder_led_indices. rewrite reorder_from_lengths, map_length. reflexivity. }
  split; [exact Hl|]. split; [|split].
  - rewrite load_index_files_ok by lia. rewrite Nat2Z.id, <- Hl, firstn_all. reflexivity.
  - intros f Hf. unfold written, index_files in Hf. apply in_map_iff in Hf. destruct Hf as (a & <- & Ha).
    destruct (reorder_from_ranges _ _ _ Ha) as (x & y & ->). apply zrange_rev_sorted.
  - pose proof (reorder_from_concat arrays 0) as Hrc. simpl in Hrc. rewrite <- Hrc. clear Hrc. unfold written, index_files, reorder_led_indices.
    generalize (reorder_from 0 arrays). clear. induction l as [|a l IH]; simpl; [constructor|].
    apply Permutation_app; [symmetry; apply Permutation_rev|exact IH].
Qed.
Print Assumptions C12_index_files_round_trip.

(** With a configured number of arrays larger than the number of files, loading fails. *)
Theorem C12_too_many_arrays_configured :
  forall files n, Z.of_nat (length files) < n -> load_index_files files n = Err FileNotFoundError.
Proof. exact load_index_files_missing. Qed.
Print Assumptions C12_too_many_arrays_configured.

Example C12_example :
  load_index_files (index_files (reorder_led_indices [[0; 2; 4]; [1; 3]])) 2 = Ok [[2; 1; 0]; [4; 3]].
Proof. vm_compute. reflexivity. Qed.

(** ** C13 *)

(** Independent description of one merged group. *)
Inductive merged (arrays : list (list Z)) : list Z -> list Z -> Prop :=
| merged_nil : merged arrays [] []
| merged_known : forall i a g r, 0 <= i -> nth_error arrays (Z.to_nat i) = Some a ->
    merged arrays g r -> merged arrays (i :: g) (a ++ r)
| merged_unknown : forall i g r, (i < 0 \/ Z.of_nat (length arrays) <= i) ->
    merged arrays g r -> merged arrays (i :: g) r.

Lemma merge_group_merged : forall arrays g, merged arrays g (merge_group arrays g).
Proof.
  intros arrays. induction g as [|i g IH]; [constructor|].
  unfold merge_group. cbn [flat_map]. fold (merge_group arrays g).
  destruct ((0 <=? i) && (i <? Z.of_nat (length arrays))) eqn:E.
  - apply andb_true_iff in E. destruct E as [E1 E2]. apply Z.leb_le in E1. apply Z.ltb_lt in E2.
    apply merged_known; [exact E1| |exact IH]. apply nth_error_nth'. lia.
  - apply merged_unknown; [|exact IH]. apply andb_false_iff in E. destruct E as [E|E].
    + apply Z.leb_gt in E. lia.
    + apply Z.ltb_ge in E. lia.
Qed.

Lemma merged_fun : forall arrays g r1 r2, merged arrays g r1 -> merged arrays g r2 -> r1 = r2.
Proof.
  intros arrays g r1 r2 H. revert r2. induction H as [|i a g r Hi Ha H IH|i g r Hi H IH]; intros r2 H2.
  - inversion H2. reflexivity.
  - inversion H2 as [|? a' ? r' _ Ha' Hr'|? ? ? Hi' Hr']; subst.
    + rewrite Ha in Ha'. injection Ha' as <-. f_equal. auto.
    + assert (Z.to_nat i < length arrays)%nat by (apply nth_error_Some; congruence). lia.
  - inversion H2 as [|? a' ? r' Hi0 Ha' Hr'|? ? ? Hi' Hr']; subst; auto.
    assert (Z.to_nat i < length arrays)%nat by (apply nth_error_Some; congruence). lia.
Qed.

Theorem C13_merge_concatenates_listed_arrays :
  forall arrays groups,
  exists parts, Forall2 (merged arrays) groups parts /\
    merge_indices arrays (Some groups) = filter (fun a => negb (Nat.eqb (length a) 0)) parts.
Proof.
  intros arrays groups. exists (map (merge_group arrays) groups). split.
  - induction groups; simpl; constructor; [apply merge_group_merged|assumption].
  - simpl. apply filter_ext. intros [|]; reflexivity.
Qed.
Print Assumptions C13_merge_concatenates_listed_arrays.

Theorem C13_no_configuration_no_change : forall arrays, merge_indices arrays None = arrays.
Proof. reflexivity. Qed.

(** No LED gets lost or duplicated if every array is listed exactly once. *)
Theorem C13_merge_keeps_all_leds :
  forall arrays groups,
  Permutation (concat groups) (zrange 0 (Z.of_nat (length arrays))) ->
  Permutation (concat (merge_indices arrays (Some groups))) (concat arrays).
Proof.
  intros arrays groups Hp.
  assert (E1 : concat (merge_indices arrays (Some groups)) = merge_group arrays (concat groups)).
  { simpl. clear Hp. induction groups as [|g gs IH]; [reflexivity|]. simpl.
    assert (Ea : merge_group arrays (g ++ concat gs) = merge_group arrays g ++ merge_group arrays (concat gs))
      by apply flat_map_app.
    rewrite Ea, <- IH. destruct (merge_group arrays g); reflexivity. }
  rewrite E1. unfold merge_group.
  rewrite (Permutation_flat_map _ Hp).
  assert (G : forall n, (n <= length arrays)%nat -> flat_map (fun i : Z => if (0 <=? i) && (i <? Z.of_nat (length arrays)) then nth (Z.to_nat i) arrays [] else []) (zrange 0 (Z.of_nat n)) = concat (firstn n arrays)).
  { induction n as [|n IH]; intros Hn; [reflexivity|].
    replace (Z.of_nat (S n)) with (Z.of_nat n + 1) by lia. rewrite zrange_snoc by lia.
    rewrite flat_map_app, IH by lia. cbn [flat_map]. rewrite app_nil_r.
    replace ((0 <=? Z.of_nat n) && (Z.of_nat n <? Z.of_nat (length arrays))) with true
      by (symmetry; apply andb_true_iff; split; [apply Z.leb_le|apply Z.ltb_lt]; lia).
    rewrite Nat2Z.id. clear - Hn. revert arrays Hn. induction n as [|n IH]; intros [|a l] Hn; simpl in Hn; try lia.
    - simpl. rewrite app_nil_r. reflexivity.
    - simpl. rewrite <- app_assoc, IH by (simpl; lia). reflexivity. }
  rewrite G by lia. rewrite firstn_all. reflexivity.
Qed.
Print Assumptions C13_merge_keeps_all_leds.

(** An empty group is dropped, so step 3, which looks for one merge file per
    configured group, does not find its last file. *)
Theorem C13_empty_group_makes_step3_fail :
  forall arrays groups g, In g groups ->
  (forall i, In i g -> i < 0 \/ Z.of_nat (length arrays) <= i) ->
  load_index_files (index_files (merge_indices arrays (Some groups))) (Z.of_nat (length groups))
  = Err FileNotFoundError.
Proof.
  intros arrays groups g Hin Hg. apply load_index_files_missing.
  unfold index_files. rewrite map_length.
  assert (E : merge_group arrays g = []).
  { apply (merged_fun arrays g); [apply merge_group_merged|]. clear Hin.
    induction g as [|i g IH]; [constructor|]. apply merged_unknown; [apply Hg; left; reflexivity|].
    apply IH. intros j Hj. apply Hg. right. exact Hj. }
  simpl. clear Hg. induction groups as [|g' gs IH]; [destruct Hin|]. simpl.
  assert (Hle : (length (filter (fun a : list Z => match a with [] => false | _ => true end) (map (merge_group arrays) gs)) <= length gs)%nat).
  { clear. induction gs as [|x gs IH]; simpl; [lia|]. destruct (merge_group arrays x); simpl; lia. }
  destruct Hin as [->|Hin].
  - rewrite E. simpl length. lia.
  - specialize (IH Hin). destruct (merge_group arrays g'); simpl length; lia.
Qed.
Print Assumptions C13_empty_group_makes_step3_fail.

(** If no group is empty, everything written is read back. *)
Theorem C13_nonempty_groups_load :
  forall arrays groups parts,
  Forall2 (merged arrays) groups parts -> Forall (fun p => p <> []) parts ->
  load_index_files (index_files (merge_indices arrays (Some groups))) (Z.of_nat (length groups))
  = Ok (map (@rev Z) parts).
Proof.
  intros arrays groups parts F Hne.
  assert (E : merge_indices arrays (Some groups) = parts).
  { simpl. revert Hne. induction F as [|g p gs ps Hgp F IH]; intros Hne; [reflexivity|].
    inversion Hne; subst. simpl. rewrite (merged_fun _ _ _ _ (merge_group_merged arrays g) Hgp).
    destruct p; [congruence|]. rewrite IH by assumption. reflexivity. }
  rewrite E. rewrite (Forall2_len _ _ _ F). rewrite load_index_files_ok.
  - rewrite Nat2Z.id. unfold index_files. rewrite <- (map_length (@rev Z) parts), firstn_all. reflexivity.
  - unfold index_files. rewrite map_length. lia.
Qed.
Print Assumptions C13_nonempty_groups_load.

Example C13_example :
  merge_indices [[0; 1]; [2]; [3; 4]] (Some [[2; 0]; [1; 9]]) = [[3; 4; 0; 1]; [2]]
  /\ merge_indices [[0; 1]; [2]; [3; 4]] (Some [[2; 0]; [9]; [1]]) = [[3; 4; 0; 1]; [2]]
  /\ load_index_files (index_files (merge_indices [[0; 1]; [2]; [3; 4]] (Some [[2; 0]; [9]; [1]]))) 3
     = Err FileNotFoundError.
Proof. vm_compute. repeat split; reflexivity. Qed.
