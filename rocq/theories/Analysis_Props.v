(** C36, C37, C43: intensities, distance rows, serial and parallel runs. *)
From Coq Require Import ZArith QArith Qabs Lia Lqa Bool String List Permutation Sorted.
From Verif Require Import Base Step1_Model Step2_Model Step2_Proofs Step3_Model Format_Props Table_Model Table_Spec Table_Proofs Table_Props Analysis_Model.
Import ListNotations.
Local Open Scope string_scope.
Local Open Scope Z_scope.

(** ** Sorted lists *)
Lemma sorted_perm_eq : forall l l' : list Z, StronglySorted Z.le l -> StronglySorted Z.le l' -> Permutation l l' -> l = l'.
Proof.
  induction l as [|x l IH]; intros l' H H' P.
  - apply Permutation_nil in P. congruence.
  - destruct l' as [|y l']; [symmetry in P; apply Permutation_nil in P; discriminate|].
    inversion H as [|? ? H1 H2]; subst. inversion H' as [|? ? H1' H2']; subst. rewrite Forall_forall in H2, H2'.
    assert (E : x = y).
    { assert (A : In y (x :: l)) by (eapply Permutation_in; [symmetry; exact P|left; reflexivity]).
      assert (B : In x (y :: l')) by (eapply Permutation_in; [exact P|left; reflexivity]).
      destruct A as [A|A]; [congruence|]. destruct B as [B|B]; [congruence|]. pose proof (H2 _ A). pose proof (H2' _ B). lia. }
    subst y. f_equal. apply IH; try assumption. eapply Permutation_cons_inv. exact P.
Qed.

Lemma sorted_lt_le : forall l, StronglySorted Z.lt l -> StronglySorted Z.le l.
Proof.
  intros l H. induction H as [|x l H IH F]; constructor; [exact IH|]. eapply Forall_impl; [|exact F]. intros y Hy. simpl in Hy. lia.
Qed.

Lemma sorted_lt_NoDup : forall l, StronglySorted Z.lt l -> NoDup l.
Proof.
  intros l H. induction H as [|x l H IH F]; constructor; [|exact IH]. intros C. rewrite Forall_forall in F. pose proof (F x C). lia.
Qed.

Lemma sorted_lt_ext : forall l l', StronglySorted Z.lt l -> StronglySorted Z.lt l' -> (forall x, In x l <-> In x l') -> l = l'.
Proof.
  intros l l' H H' E. apply sorted_perm_eq; try (apply sorted_lt_le; assumption).
  apply NoDup_Permutation; try (apply sorted_lt_NoDup; assumption). exact E.
Qed.

Lemma in_insert_key : forall k ks x, In x (insert_key k ks) <-> x = k \/ In x ks.
Proof.
  intros k ks x. induction ks as [|y ks IH]; cbn [insert_key]; [simpl; intuition|].
  destruct (k <? y) eqn:E1; [simpl; intuition|]. destruct (k =? y) eqn:E2.
  - apply Z.eqb_eq in E2. subst. simpl. intuition.
  - simpl. rewrite IH. intuition.
Qed.

Lemma insert_key_sorted : forall k ks, StronglySorted Z.lt ks -> StronglySorted Z.lt (insert_key k ks).
Proof.
  intros k ks H. induction H as [|y ks H IH F]; cbn [insert_key]; [repeat constructor|].
  destruct (k <? y) eqn:E1; [apply Z.ltb_lt in E1|apply Z.ltb_ge in E1].
  - constructor; [constructor; assumption|]. constructor; [exact E1|]. eapply Forall_impl; [|exact F]. intros z Hz. simpl in Hz. lia.
  - destruct (k =? y) eqn:E2; [constructor; assumption|]. apply Z.eqb_neq in E2. constructor; [exact IH|].
    apply Forall_forall. intros z Hz. apply in_insert_key in Hz. rewrite Forall_forall in F. destruct Hz as [-> | Hz]; [lia|apply F; exact Hz].
Qed.

Lemma keys_sorted : forall l, StronglySorted Z.lt (keys l).
Proof. induction l as [|x l IH]; [constructor|]. apply insert_key_sorted. exact IH. Qed.

Lemma in_keys : forall l x, In x (keys l) <-> In x l.
Proof.
  induction l as [|y l IH]; intros x; [reflexivity|]. change (keys (y :: l)) with (insert_key y (keys l)). rewrite in_insert_key, IH. simpl. intuition.
Qed.

(** ** C36 *)

(** *** Arrays ascend *)
Lemma reorder_above : forall arrays start l x, In l (reorder_from start arrays) -> In x l -> start <= x.
Proof.
  induction arrays as [|a arrays IH]; intros start l x Hl Hx; [destruct Hl|]. cbn [reorder_from] in Hl. destruct Hl as [<-|Hl].
  - apply in_zrange in Hx. lia.
  - pose proof (IH _ _ _ Hl Hx). lia.
Qed.

Lemma reorder_nth : forall arrays start k l, nth_error (reorder_from start arrays) k = Some l ->
  exists a b, l = zrange a b /\ start <= a /\ (forall k' l' x, (k < k')%nat -> nth_error (reorder_from start arrays) k' = Some l' -> In x l' -> b <= x).
Proof.
  induction arrays as [|ar arrays IH]; intros start k l H; [destruct k; discriminate|]. cbn [reorder_from] in *.
  destruct k as [|k]; cbn [nth_error] in H.
  - apply Some_inj in H. subst l. do 2 eexists. split; [reflexivity|]. split; [lia|]. intros k' l' x Hk H' Hx.
    destruct k' as [|k']; [lia|]. cbn [nth_error] in H'. apply nth_error_In in H'. pose proof (reorder_above _ _ _ _ H' Hx). lia.
  - destruct (IH _ _ _ H) as (a & b & -> & H1 & H2). exists a, b. split; [reflexivity|]. split; [lia|].
    intros k' l' x Hk H' Hx. destruct k' as [|k']; [lia|]. cbn [nth_error] in H'. apply (H2 k' l' x); [lia|assumption|assumption].
Qed.

Lemma zrange_lt_sorted : forall a b, StronglySorted Z.lt (zrange a b).
Proof.
  intros a b. remember (Z.to_nat (b - a)) as n eqn:En. revert a En. induction n as [|n IH]; intros a En.
  - rewrite zrange_nil by lia. constructor.
  - rewrite zrange_cons by lia. constructor; [apply IH; lia|]. apply Forall_forall. intros x Hx. apply in_zrange in Hx. lia.
Qed.

Lemma sorted_app : forall l l', StronglySorted Z.lt l -> StronglySorted Z.lt l' -> (forall x y, In x l -> In y l' -> x < y) -> StronglySorted Z.lt (l ++ l').
Proof.
  intros l l' H H' C. induction H as [|x l H IH F]; [exact H'|]. cbn [app]. constructor.
  - apply IH. intros a b Ha Hb. apply C; [right; exact Ha|exact Hb].
  - apply Forall_forall. intros y Hy. apply in_app_iff in Hy. rewrite Forall_forall in F. destruct Hy as [Hy|Hy]; [apply F; exact Hy|apply C; [left; reflexivity|exact Hy]].
Qed.

Lemma merge_ascending : forall A g, StronglySorted Z.lt g -> StronglySorted Z.lt (merge_group (reorder_led_indices A) g).
Proof.
  intros A g H. set (ar := reorder_led_indices A). induction H as [|i g H IH F]; [constructor|]. unfold merge_group in *. cbn [flat_map].
  destruct ((0 <=? i) && (i <? Z.of_nat (List.length ar))) eqn:E; [|exact IH].
  apply andb_true_iff in E. destruct E as (E1 & E2). apply Z.leb_le in E1. apply Z.ltb_lt in E2.
  assert (N : nth_error ar (Z.to_nat i) = Some (nth (Z.to_nat i) ar [])) by (apply nth_error_nth'; lia).
  set (li := nth (Z.to_nat i) ar []) in *. destruct (reorder_nth A 0 _ _ N) as (a & b & Eli & H1 & H2).
  apply sorted_app; [rewrite Eli; apply zrange_lt_sorted|exact IH|]. intros x y Hx Hy.
  rewrite Eli in Hx. apply in_zrange in Hx. apply in_flat_map in Hy. destruct Hy as (j & Hj & Hy).
  destruct ((0 <=? j) && (j <? Z.of_nat (List.length ar))) eqn:Ej; [|destruct Hy].
  apply andb_true_iff in Ej. destruct Ej as (J1 & J2). apply Z.leb_le in J1. apply Z.ltb_lt in J2.
  rewrite Forall_forall in F. pose proof (F j Hj) as Hij. simpl in Hij.
  pose proof (H2 (Z.to_nat j) (nth (Z.to_nat j) ar []) y ltac:(lia) ltac:(apply nth_error_nth'; lia) Hy). lia.
Qed.

(** Merge lists whose array numbers ascend. *)
Definition ascending_merge (groups : option (list (list Z))) : Prop :=
  match groups with None => True | Some gs => Forall (StronglySorted Z.lt) gs end.

Lemma arrays_ascend : forall A groups a l, ascending_merge groups ->
  nth_error (merge_indices (reorder_led_indices A) groups) a = Some l -> StronglySorted Z.lt l.
Proof.
  intros A [gs|] a l Hg H; cbn [merge_indices] in H.
  - apply nth_error_In in H. apply filter_In in H. destruct H as (H & _). apply in_map_iff in H. destruct H as (g & <- & Hgin).
    cbn [ascending_merge] in Hg. rewrite Forall_forall in Hg. apply merge_ascending. apply Hg. exact Hgin.
  - destruct (reorder_nth A 0 _ _ H) as (x & y & -> & _). apply zrange_lt_sorted.
Qed.

(** *** Distance rows *)
Lemma np_index_in : forall A (l : list A) i, 0 <= i < Z.of_nat (List.length l) -> exists a, nth_error l (Z.to_nat i) = Some a /\ np_index l i = Ok a.
Proof.
  intros A l i H. destruct (nth_error l (Z.to_nat i)) as [a|] eqn:E; [|apply nth_error_None in E; lia].
  exists a. split; [reflexivity|]. unfold np_index. replace (i <? 0) with false by (symmetry; apply Z.ltb_ge; lia).
  replace (i <? 0) with false by (symmetry; apply Z.ltb_ge; lia). replace (Z.of_nat (List.length l) <=? i) with false by (symmetry; apply Z.leb_gt; lia).
  cbn [orb]. rewrite E. reflexivity.
Qed.

Lemma Forall2_rev : forall A B (R : A -> B -> Prop) l l', Forall2 R l l' -> Forall2 R (rev l) (rev l').
Proof. intros A B R l l' H. induction H; [constructor|]. cbn [rev]. apply Forall2_app; [assumption|repeat constructor; assumption]. Qed.

Lemma distance_rows : forall P D (coords : list P) (dist : P -> D) arrays a l,
  nth_error arrays a = Some l -> (2 <= List.length l)%nat -> Forall (fun i => 0 <= i < Z.of_nat (List.length coords)) l ->
  exists leds rows, experiment_leds coords (nth_error (index_files arrays) a) = Ok (Some leds) /\
    distance_array dist (Some leds) = Ok rows /\
    Forall2 (fun i d => exists p, nth_error coords (Z.to_nat i) = Some p /\ d = dist p) l rows.
Proof.
  intros P D coords dist arrays a l Ha Hl Hc. unfold index_files. rewrite nth_error_map, Ha. cbn [option_map].
  set (f := rev l). assert (Lf : List.length f = List.length l) by apply rev_length.
  assert (Fc : Forall (fun i => 0 <= i < Z.of_nat (List.length coords)) f) by (apply Forall_rev; exact Hc).
  destruct (mapM_all Z P (np_index coords) (fun i p => nth_error coords (Z.to_nat i) = Some p) f) as (ps & E & F).
  { intros i Hi. rewrite Forall_forall in Fc. destruct (np_index_in _ coords i (Fc i Hi)) as (p & N1 & N2). exists p. split; assumption. }
  exists (combine f ps), (map (fun led => dist (snd led)) (rev (combine f ps))). split; [|split; [reflexivity|]].
  - destruct f as [|x [|y f']]; simpl in Lf; try lia. unfold experiment_leds. rewrite E. reflexivity.
  - assert (G : Forall2 (fun i d => exists p, nth_error coords (Z.to_nat i) = Some p /\ d = dist p) f (map (fun led => dist (snd led)) (combine f ps))).
    { clear - F. induction F as [|i p f ps H F IH]; [constructor|]. cbn [combine map]. constructor; [|exact IH]. exists p. split; [exact H|reflexivity]. }
    apply Forall2_rev in G. unfold f in G at 1. rewrite rev_involutive in G. rewrite map_rev. exact G.
Qed.

(** *** Records of step 3 *)
Lemma led_loop_ids : forall F (fit : option (list (list Z) -> res F)) img r (areas : list row) idx l ds,
  led_loop fit img r areas 0 idx l = Ok ds -> map d_id ds = l /\ Forall (fun d => d_array d = idx) ds.
Proof.
  intros F fit img r areas idx l. induction l as [|i l IH]; intros ds H; cbn [led_loop] in H.
  - apply Ok_inj in H. subst. split; [reflexivity|constructor].
  - replace (i mod (0 + 1) =? 0) with true in H by (symmetry; apply Z.eqb_eq; apply Z.mod_1_r).
    destruct (analyse_led fit img r areas i idx) as [d|] eqn:E; [|discriminate]. cbn [bind] in H.
    destruct (led_loop fit img r areas 0 idx l) as [ds'|]; [|discriminate]. cbn [bind] in H. apply Ok_inj in H. subst ds.
    destruct (IH _ eq_refl) as (I1 & I2). unfold analyse_led in E. destruct (np_index areas i) as [[x [y z]]|]; [|discriminate]. cbn [bind] in E.
    destruct (match fit with None => Ok None | Some f => res_map Some (f (area img r y z)) end); [|discriminate]. cbn [bind] in E.
    destruct (np_amax (concat (area img r y z))); [|discriminate]. cbn [bind] in E. apply Ok_inj in E. subst d. cbn [map d_id d_array].
    split; [f_equal; exact I1|constructor; [reflexivity|exact I2]].
Qed.

Lemma array_loop_ids : forall F (fit : option (list (list Z) -> res F)) img r (areas : list row) arrays idx ds,
  array_loop fit img r areas 0 idx arrays = Ok ds ->
  Forall (fun d => idx <= d_array d) ds /\
  forall a l, nth_error arrays a = Some l -> map d_id (filter (fun d => d_array d =? idx + Z.of_nat a) ds) = l.
Proof.
  intros F fit img r areas arrays. induction arrays as [|ar arrays IH]; intros idx ds H; cbn [array_loop] in H.
  - apply Ok_inj in H. subst. split; [constructor|]. intros [|a] l C; discriminate.
  - destruct (led_loop fit img r areas 0 idx ar) as [d1|] eqn:E1; [|discriminate]. cbn [bind] in H.
    destruct (array_loop fit img r areas 0 (idx + 1) arrays) as [d2|] eqn:E2; [|discriminate]. cbn [bind] in H. apply Ok_inj in H. subst ds.
    destruct (led_loop_ids _ _ _ _ _ _ _ _ E1) as (L1 & L2). destruct (IH _ _ E2) as (I1 & I2). split.
    + apply Forall_app. split; [eapply Forall_impl; [|exact L2]; intros d Hd; simpl in Hd; lia|eapply Forall_impl; [|exact I1]; intros d Hd; simpl in Hd; lia].
    + intros a l Ha. rewrite filter_app, map_app.
      assert (none : forall (ds : list (led_data F)) k, Forall (fun d => d_array d <> k) ds -> filter (fun d => d_array d =? k) ds = []).
      { clear. intros ds k H. induction H as [|d ds H F' IH]; [reflexivity|]. cbn [filter]. apply Z.eqb_neq in H. rewrite H. exact IH. }
      assert (all : forall (ds : list (led_data F)) k, Forall (fun d => d_array d = k) ds -> filter (fun d => d_array d =? k) ds = ds).
      { clear. intros ds k H. induction H as [|d ds H F' IH]; [reflexivity|]. cbn [filter]. apply Z.eqb_eq in H. rewrite H, IH. reflexivity. }
      destruct a as [|a]; cbn [nth_error] in Ha.
      * apply Some_inj in Ha. rewrite Ha in L1. replace (idx + Z.of_nat 0) with idx by lia. rewrite all by exact L2. rewrite (none d2).
        -- cbn [map]. rewrite app_nil_r. exact L1.
        -- eapply Forall_impl; [|exact I1]. intros d Hd. simpl in Hd. lia.
      * rewrite (none d1); [|eapply Forall_impl; [|exact L2]; intros d Hd; simpl in Hd; lia]. cbn [map app].
        rewrite <- (I2 a l Ha). replace (idx + Z.of_nat (S a)) with (idx + 1 + Z.of_nat a) by lia. reflexivity.
Qed.

(** *** The intensities in the table *)

(** The properties a user can choose (fast mode). *)
Definition known_property (prop : string) : Prop := prop = "sum_col_val" \/ prop = "mean_col_val" \/ prop = "max_col_val".

(** The table of the images 1..n, as C28 describes it. *)
Definition table_of_images (t : frame) (n : Z) (recs : Z -> list (led_data Format_Model.fit_data)) : Prop :=
  exists parts, rows t = concat parts /\ Forall2 (fun i part => rows_of_image (row_of_record (cols t) i) (recs i) part) (zrange 1 (n + 1)) parts.

(** What a value of the table says about the record of its LED. *)
Definition value_of_record (prop : string) (d : led_data Format_Model.fit_data) (v : cell) : Prop :=
  exists q, v = Some q /\
    (prop = "max_col_val" -> is_int (d_max d) q) /\
    (prop = "mean_col_val" -> Format_Proofs.close5 (d_mean d) q) /\
    (prop = "sum_col_val" -> exists z, is_int z q /\ Z.abs (z - d_sum d) * 20000 <= d_sum d /\ (d_sum d <= 99999 -> z = d_sum d)).

Lemma row_entry : forall cs i d row prop, known_property prop -> row_of_record cs i d row ->
  exists v, entry_of cs prop row = Ok (i, d_id d, v) /\ value_of_record prop d v /\
    forall a, has_array cs a row = (d_array d =? a).
Proof.
  intros cs i d row prop Hp (H1 & H2 & H3 & H4 & H5 & H6).
  destruct H1 as (q1 & G1 & I1), H2 as (q2 & G2 & I2), H3 as (q3 & G3 & I3), H4 as (q4 & G4 & I4), H5 as (q5 & G5 & I5), H6 as (q6 & G6 & I6).
  unfold is_int in I1, I2, I3.
  assert (V : exists v, get cs row prop = Some v /\ value_of_record prop d v).
  { destruct Hp as [-> | [-> | -> ]]; eexists; (split; [eassumption|]); eexists; (split; [reflexivity|]); repeat split; try discriminate; intros _; assumption. }
  destruct V as (v & Gv & Hv). exists v. unfold entry_of. rewrite G1, G2, Gv. rewrite (Qtrunc_int _ _ I1), (Qtrunc_int _ _ I2).
  split; [reflexivity|]. split; [exact Hv|]. intros a. unfold has_array. rewrite G3.
  destruct (Z.eqb_spec (d_array d) a) as [E|E].
  - apply Qeq_bool_iff. rewrite I3, E. reflexivity.
  - destruct (Qeq_bool q3 (inject_Z a)) eqn:B; [|reflexivity]. apply Qeq_bool_iff in B. rewrite I3 in B. rewrite inject_Z_injective in B. congruence.
Qed.

Lemma filter_sorted : forall A (R : A -> A -> Prop) f l, StronglySorted R l -> StronglySorted R (filter f l).
Proof.
  intros A R f l H. induction H as [|x l H IH F]; [constructor|]. cbn [filter]. destruct (f x); [|exact IH]. constructor; [exact IH|].
  apply Forall_forall. intros y Hy. apply filter_In in Hy. rewrite Forall_forall in F. apply F. apply Hy.
Qed.

Lemma Permutation_filter : forall A (f : A -> bool) l l', Permutation l l' -> Permutation (filter f l) (filter f l').
Proof.
  intros A f l l' H. induction H; cbn [filter].
  - constructor.
  - destruct (f x); [constructor|]; exact IHPermutation.
  - destruct (f x), (f y); try apply Permutation_refl; constructor.
  - eapply Permutation_trans; eassumption.
Qed.

(** Entries of one image for the array [a]. *)
Lemma part_entries : forall cs i prop a ds part, known_property prop -> rows_of_image (row_of_record cs i) ds part ->
  exists es sel, mapM (entry_of cs prop) (filter (has_array cs a) part) = Ok es /\
    Permutation sel (filter (fun d => d_array d =? a) ds) /\ StronglySorted Z.le (map d_id sel) /\
    Forall2 (fun d e => e_img e = i /\ e_led e = d_id d /\ value_of_record prop d (e_val e)) sel es.
Proof.
  intros cs i prop a ds part Hp (ds' & P & S & F).
  set (sel := filter (fun d => d_array d =? a) ds').
  assert (G : exists es, mapM (entry_of cs prop) (filter (has_array cs a) part) = Ok es /\
    Forall2 (fun d e => e_img e = i /\ e_led e = d_id d /\ value_of_record prop d (e_val e)) sel es).
  { unfold sel. clear P S sel. induction F as [|d row ds' part H F IH]; [exists []; split; [reflexivity|constructor]|].
    destruct IH as (es & E1 & E2). destruct (row_entry cs i d row prop Hp H) as (v & V1 & V2 & V3). cbn [filter]. rewrite (V3 a).
    destruct (d_array d =? a); [|exists es; split; assumption]. exists ((i, d_id d, v) :: es). cbn [mapM]. rewrite V1, E1. cbn [bind].
    split; [reflexivity|]. constructor; [|exact E2]. split; [reflexivity|split; [reflexivity|exact V2]]. }
  destruct G as (es & E1 & E2). exists es, sel. split; [exact E1|]. split; [apply Permutation_filter; exact P|]. split; [|exact E2].
  unfold sel. clear - S. apply (filter_sorted _ _ (fun d => d_array d =? a)) in S. induction S as [|d l S IH F']; [constructor|]. cbn [map]. constructor; [exact IH|].
  apply Forall_forall. intros z Hz. apply in_map_iff in Hz. destruct Hz as (d' & <- & Hd). rewrite Forall_forall in F'. apply F'. exact Hd.
Qed.

Lemma mapM_app : forall A B (f : A -> res B) l l' r r', mapM f l = Ok r -> mapM f l' = Ok r' -> mapM f (l ++ l') = Ok (r ++ r')%list.
Proof.
  intros A B f l. induction l as [|x l IH]; intros l' r r' H H'; cbn [app mapM] in *.
  - apply Ok_inj in H. subst. exact H'.
  - destruct (f x); [|discriminate]. cbn [bind] in *. destruct (mapM f l) as [rs|]; [|discriminate]. cbn [bind] in H. apply Ok_inj in H. subst r.
    rewrite (IH l' rs r' eq_refl H'). reflexivity.
Qed.

(** The whole table: one block per image. *)
Lemma blocks : forall t n recs a prop, known_property prop -> table_of_images t n recs ->
  exists ess, mapM (entry_of (cols t) prop) (filter (has_array (cols t) a) (rows t)) = Ok (concat ess) /\
    Forall2 (fun i es => exists sel, Permutation sel (filter (fun d => d_array d =? a) (recs i)) /\ StronglySorted Z.le (map d_id sel) /\
               Forall2 (fun d e => e_img e = i /\ e_led e = d_id d /\ value_of_record prop d (e_val e)) sel es) (zrange 1 (n + 1)) ess.
Proof.
  intros t n recs a prop Hp (parts & -> & F). induction F as [|i part is parts H F IH]; [exists []; split; [reflexivity|constructor]|].
  destruct IH as (ess & E1 & E2). destruct (part_entries _ _ _ a _ _ Hp H) as (es & sel & P1 & P2 & P3 & P4).
  exists (es :: ess). cbn [concat]. rewrite filter_app. split; [apply mapM_app; assumption|]. constructor; [|exact E2].
  exists sel. split; [exact P2|split; [exact P3|exact P4]].
Qed.

Lemma block_filter : forall (is : list Z) ess i, NoDup is ->
  Forall2 (fun i (es : list entry) => Forall (fun e => e_img e = i) es) is ess -> In i is ->
  exists es, filter (fun e => e_img e =? i) (concat ess) = es /\ exists k, nth_error is k = Some i /\ nth_error ess k = Some es.
Proof.
  intros is ess i Nd F Hi.
  assert (none : forall is ess, Forall2 (fun i (es : list entry) => Forall (fun e => e_img e = i) es) is ess -> ~ In i is -> filter (fun e => e_img e =? i) (concat ess) = []).
  { clear. intros is ess F. induction F as [|j es is ess H F IH]; intros Hn; [reflexivity|]. cbn [concat]. rewrite filter_app, IH by (intros C; apply Hn; right; exact C).
    rewrite app_nil_r. assert (j <> i) by (intros C; apply Hn; left; exact C). clear - H H0. induction H as [|e es H F IH]; [reflexivity|]. cbn [filter].
    destruct (Z.eqb_spec (e_img e) i) as [E|E]; [congruence|exact IH]. }
  induction F as [|j es is ess H F IH]; [destruct Hi|]. inversion Nd as [|? ? N1 N2]; subst. destruct (Z.eq_dec j i) as [->|Ne].
  - exists es. split; [|exists 0%nat; split; reflexivity]. cbn [concat]. rewrite filter_app, (none _ _ F N1), app_nil_r. clear - H.
    induction H as [|e es H F IH]; [reflexivity|]. cbn [filter]. apply Z.eqb_eq in H. rewrite H, IH. reflexivity.
  - destruct Hi as [C|Hi]; [contradiction|]. destruct (IH N2 Hi) as (es' & E1 & k & K1 & K2). exists es'. split; [|exists (S k); split; assumption].
    cbn [concat]. rewrite filter_app, E1. replace (filter (fun e => e_img e =? i) es) with (@nil entry); [reflexivity|]. symmetry. clear - H Ne.
    induction H as [|e es H F IH]; [reflexivity|]. cbn [filter]. destruct (Z.eqb_spec (e_img e) i) as [E|E]; [congruence|exact IH].
Qed.

Lemma Forall2_nth : forall A B (R : A -> B -> Prop) l l' k a b, Forall2 R l l' -> nth_error l k = Some a -> nth_error l' k = Some b -> R a b.
Proof.
  intros A B R l l' k a b F. revert k. induction F as [|x y l l' H F IH]; intros [|k] H1 H2; try discriminate; cbn [nth_error] in *.
  - apply Some_inj in H1, H2. subst. exact H.
  - eapply IH; eassumption.
Qed.

(** The entries of the array: for every image the LEDs of [l], in order. *)
Lemma array_entries : forall t n recs a prop l, known_property prop -> table_of_images t n recs -> 1 <= n -> l <> [] ->
  StronglySorted Z.lt l -> col_index "led_array_id" (cols t) <> None -> col_index prop (cols t) <> None ->
  (forall i, 1 <= i <= n -> Permutation (map d_id (filter (fun d => d_array d =? a) (recs i))) l) ->
  exists es, load_img_data t a prop = Ok es /\
    (forall e, In e es -> 1 <= e_img e <= n /\ In (e_led e) l) /\
    forall i, 1 <= i <= n -> exists sel, Permutation sel (filter (fun d => d_array d =? a) (recs i)) /\ map d_id sel = l /\
      Forall2 (fun d e => e_led e = d_id d /\ value_of_record prop d (e_val e)) sel (filter (fun e => e_img e =? i) es).
Proof.
  intros t n recs a prop l Hp Ht Hn Hl Hs Hc1 Hc2 Hr. destruct (blocks t n recs a prop Hp Ht) as (ess & E & F).
  exists (concat ess).
  assert (Fi : Forall2 (fun i (es : list entry) => Forall (fun e => e_img e = i) es) (zrange 1 (n + 1)) ess).
  { eapply Forall2_imp; [|exact F]. intros i es (sel & _ & _ & G). clear - G. induction G as [|d e sel es (G1 & _) G IH]; constructor; assumption. }
  assert (L : forall i es sel, 1 <= i <= n -> Permutation sel (filter (fun d => d_array d =? a) (recs i)) -> StronglySorted Z.le (map d_id sel) ->
    Forall2 (fun d e => e_img e = i /\ e_led e = d_id d /\ value_of_record prop d (e_val e)) sel es -> map d_id sel = l).
  { intros i es sel Hi P1 P2 _. apply sorted_perm_eq; [exact P2|apply sorted_lt_le; exact Hs|]. etransitivity; [apply Permutation_map; exact P1|apply Hr; exact Hi]. }
  assert (V : forall e, In e (concat ess) -> 1 <= e_img e <= n /\ In (e_led e) l).
  { intros e He. apply in_concat in He. destruct He as (es & He1 & He2). apply In_nth_error in He1. destruct He1 as (k & Hk).
    destruct (nth_error (zrange 1 (n + 1)) k) as [i|] eqn:Ei.
    - pose proof (Forall2_nth _ _ _ _ _ _ _ _ F Ei Hk) as (sel & P1 & P2 & P3). apply nth_error_In in Ei. apply in_zrange in Ei.
      assert (Ls := L i es sel ltac:(lia) P1 P2 P3). rewrite <- Ls. clear - P3 He2 Ei.
      induction P3 as [|d e' sel es (G1 & G2 & _) P3 IH]; [destruct He2|]. destruct He2 as [->|He2].
      + split; [lia|]. cbn [map]. left. symmetry. exact G2.
      + destruct (IH He2) as (I1 & I2). split; [exact I1|]. right. exact I2.
    - exfalso. apply nth_error_None in Ei. pose proof (Forall2_len _ _ _ F) as Lz. assert (k < List.length ess)%nat by (apply nth_error_Some; congruence). lia. }
  assert (B : forall i, 1 <= i <= n -> exists sel, Permutation sel (filter (fun d => d_array d =? a) (recs i)) /\ map d_id sel = l /\
      Forall2 (fun d e => e_led e = d_id d /\ value_of_record prop d (e_val e)) sel (filter (fun e => e_img e =? i) (concat ess))).
  { intros i Hi. destruct (block_filter _ _ i (NoDup_zrange 1 (n + 1)) Fi) as (es & E1 & k & K1 & K2); [apply in_zrange; lia|].
    rewrite E1. pose proof (Forall2_nth _ _ _ _ _ _ _ _ F K1 K2) as (sel & P1 & P2 & P3). exists sel. split; [exact P1|].
    split; [apply (L i es sel Hi P1 P2 P3)|]. eapply Forall2_imp; [|exact P3]. intros d e (_ & H). exact H. }
  split; [|split; [exact V|exact B]].
  unfold load_img_data. destruct (col_index "led_array_id" (cols t)); [|congruence]. destruct (col_index prop (cols t)); [|congruence].
  rewrite E. cbn [bind]. destruct (concat ess) as [|e0 es0] eqn:Ec; [|reflexivity]. exfalso.
  destruct (B 1 ltac:(lia)) as (sel & _ & S2 & S3). cbn [filter] in S3. inversion S3. subst. simpl in Hl. congruence.
Qed.

Lemma ref_leds : forall ref l, StronglySorted Z.lt l -> (forall e, In e ref -> In (e_led e) l) ->
  (forall x, In x l -> exists e, In e ref /\ e_led e = x) -> map fst (ref_intensities ref) = l.
Proof.
  intros ref l Hs H1 H2. unfold ref_intensities, groups. rewrite !map_map. cbn [fst]. rewrite map_id.
  apply sorted_lt_ext; [apply keys_sorted|exact Hs|]. intros x. rewrite in_keys, in_map_iff. split.
  - intros (e & <- & He). apply H1. exact He.
  - intros Hx. destruct (H2 x Hx) as (e & E1 & E2). exists e. split; assumption.
Qed.

Lemma row_of_image_columns : forall t n recs, table_of_images t n recs -> 1 <= n -> (exists d, In d (recs 1)) ->
  forall prop, known_property prop -> col_index "led_array_id" (cols t) <> None /\ col_index prop (cols t) <> None.
Proof.
  intros t n recs (parts & _ & F) Hn (d & Hd) prop Hp. rewrite zrange_cons in F by lia. inversion F as [|? part ? ? (ds' & D1 & D2 & D3) F']; subst.
  destruct ds' as [|d0 ds']; [apply Permutation_nil in D1; rewrite D1 in Hd; destruct Hd|]. inversion D3 as [|? row ? ? (R1 & R2 & R3 & R4 & R5 & R6) _]; subst.
  assert (X : forall name P, holds (cols t) row name P -> col_index name (cols t) <> None).
  { intros name P (q & G & _) C. unfold get in G. rewrite C in G. discriminate. }
  split; [eapply X; exact R3|]. destruct Hp as [-> | [-> | -> ]]; eapply X; eassumption.
Qed.

(** *** Main statement.  [A]: the arrays found by the matching; they are
    renumbered, merged as configured, written to the index files, measured in
    step 3 (with the LED lists in memory or loaded from the files, which
    reverses them), and turned into a table.  The distance rows of the array
    [a], the intensities of every image and the reference intensities then all
    list the same LEDs in the same order. *)
Theorem C36_rows_and_intensities_are_aligned :
  forall A groups arrays a l n recs t prop P D (coords : list P) (dist : P -> D) indices num,
  ascending_merge groups -> arrays = merge_indices (reorder_led_indices A) groups ->
  nth_error arrays a = Some l -> (2 <= List.length l)%nat -> 1 <= n ->
  (forall i, 1 <= i <= n -> exists F (fit : option (list (list Z) -> res F)) img r areas arrays' ds,
     Forall2 (@Permutation Z) arrays' arrays /\
     generate_analysis_data fit img r areas arrays' 0 = Ok ds /\
     map (fun d => (d_id d, d_array d)) ds = map (fun d => (d_id d, d_array d)) (recs i)) ->
  table_of_images t n recs -> known_property prop ->
  Forall (fun i => 0 <= i < Z.of_nat (List.length coords)) l ->
  (exists i, 1 <= i <= n /\ match indices with Some is => In i is | None => i <= num end) ->
  exists leds rows es,
    experiment_leds coords (nth_error (index_files arrays) a) = Ok (Some leds) /\
    distance_array dist (Some leds) = Ok rows /\
    load_img_data t (Z.of_nat a) prop = Ok es /\
    Forall2 (fun id d => exists p, nth_error coords (Z.to_nat id) = Some p /\ d = dist p) l rows /\
    (forall i, 1 <= i <= n -> map e_led (filter (fun e => e_img e =? i) es) = l) /\
    map fst (ref_intensities (reference_entries indices num es)) = l /\
    (forall e, In e es -> 1 <= e_img e <= n) /\
    (forall i, 1 <= i <= n -> exists ds, Permutation ds (filter (fun d => d_array d =? Z.of_nat a) (recs i)) /\
       Forall2 (fun d e => e_led e = d_id d /\ value_of_record prop d (e_val e)) ds (filter (fun e => e_img e =? i) es)).
Proof.
  intros A groups arrays a l n recs t prop P D coords dist indices num Hg Harr Ha Hl Hn Hrec Ht Hp Hc (i0 & Hi0 & Href).
  assert (Hs : StronglySorted Z.lt l) by (subst arrays; eapply arrays_ascend; eassumption).
  assert (Hr : forall i, 1 <= i <= n -> Permutation (map d_id (filter (fun d => d_array d =? Z.of_nat a) (recs i))) l).
  { intros i Hi. destruct (Hrec i Hi) as (F & fit & img & r & areas & arrays' & ds & H1 & H2 & H3).
    destruct (array_loop_ids _ _ _ _ _ _ _ _ H2) as (_ & G).
    destruct (nth_error arrays' a) as [l'|] eqn:El.
    - specialize (G a l' El). pose proof (Forall2_nth _ _ _ _ _ _ _ _ H1 El Ha) as Pl. rewrite <- Pl, <- G. cbn [Z.add]. clear - H3.
      assert (X : map d_id (filter (fun d => d_array d =? Z.of_nat a) (recs i)) = map d_id (filter (fun d => d_array d =? Z.of_nat a) ds)); [|rewrite X; apply Permutation_refl].
      revert H3. generalize (recs i). induction ds as [|d ds IH]; intros rs H3; destruct rs as [|d' rs]; try discriminate; [reflexivity|].
      cbn [map] in H3. injection H3 as E1 E2 E3. cbn [filter]. rewrite E2. destruct (d_array d' =? Z.of_nat a); [cbn [map]; rewrite E1; f_equal|]; apply IH; exact E3.
    - exfalso. apply nth_error_None in El. pose proof (Forall2_len _ _ _ H1). assert (a < List.length arrays)%nat by (apply nth_error_Some; congruence). lia. }
  destruct (distance_rows P D coords dist arrays a l Ha Hl Hc) as (leds & rows & L1 & L2 & L3).
  assert (Hne : exists d, In d (recs 1)).
  { pose proof (Hr 1 ltac:(lia)) as Pe. destruct (recs 1) as [|d ds]; [|exists d; left; reflexivity]. cbn in Pe. apply Permutation_nil in Pe. subst l. simpl in Hl. lia. }
  destruct (row_of_image_columns t n recs Ht Hn Hne prop Hp) as (C1 & C2).
  destruct (array_entries t n recs (Z.of_nat a) prop l Hp Ht Hn) as (es & E1 & E2 & E3); try assumption.
  { intros C. subst l. simpl in Hl. lia. }
  assert (Im : forall i, 1 <= i <= n -> map e_led (filter (fun e => e_img e =? i) es) = l).
  { intros i Hi. destruct (E3 i Hi) as (sel & _ & S2 & S3). rewrite <- S2. clear - S3. induction S3 as [|d e sel fs (G & _) S3 IH]; [reflexivity|]. cbn [map]. rewrite G, IH. reflexivity. }
  exists leds, rows, es. split; [exact L1|]. split; [exact L2|]. split; [exact E1|]. split; [exact L3|]. split; [exact Im|].
  split; [|split; [intros e He; apply (E2 e He)|intros i Hi; destruct (E3 i Hi) as (sel & S1 & _ & S3); exists sel; split; assumption]].
  apply ref_leds; [exact Hs| |].
  - intros e He. unfold reference_entries in He. apply filter_In in He. apply E2. apply He.
  - intros x Hx. rewrite <- (Im i0 Hi0) in Hx. apply in_map_iff in Hx. destruct Hx as (e & <- & He). apply filter_In in He. destruct He as (He1 & He2).
    apply Z.eqb_eq in He2. exists e. split; [|reflexivity]. unfold reference_entries. apply filter_In. split; [exact He1|]. rewrite He2.
    destruct indices as [is|]; [|apply Z.leb_le; exact Href]. apply existsb_exists. exists i0. split; [exact Href|apply Z.eqb_refl].
Qed.
Print Assumptions C36_rows_and_intensities_are_aligned.

(** *** A concrete case: two arrays of two LEDs, merged *)
Definition plain_row (img : Z) (d : led_data Format_Model.fit_data) : list cell :=
  [Some (inject_Z img); Some (inject_Z (d_id d)); Some (inject_Z (d_array d)); Some (inject_Z (d_sum d)); Some (d_mean d); Some (inject_Z (d_max d)); None; None].

Lemma plain_row_ok : forall img d, 0 <= d_sum d -> row_of_record fast_table_columns img d (plain_row img d).
Proof.
  intros img d H. unfold row_of_record, holds. repeat split; eexists; (split; [reflexivity|]); try (unfold is_int; reflexivity).
  - unfold Format_Proofs.close5. assert (E : (Qabs (d_mean d - d_mean d) == 0)%Q) by (rewrite Qabs_wd with (y := 0%Q); [reflexivity|ring]).
    rewrite E. rewrite Qmult_0_l. apply Qabs_nonneg.
  - exists (d_sum d). split; [unfold is_int; reflexivity|]. split; [rewrite Z.sub_diag; simpl; exact H|reflexivity].
Qed.

Definition ex_areas : list row := [(0, (2, 2)); (1, (2, 5)); (2, (2, 8)); (3, (2, 11))].
Definition ex_img : image := {| ih := 4; iw := 13; px := fun y x => y + x |}.
Definition measured (arrays : list (list Z)) : list (led_data Format_Model.fit_data) :=
  match generate_analysis_data (F := Format_Model.fit_data) None ex_img 1 ex_areas arrays 0 with Ok ds => ds | Err _ => [] end.
Definition by_id (ds : list (led_data Format_Model.fit_data)) := flat_map (fun k => filter (fun d => d_id d =? k) ds) [0; 1; 2; 3].
Definition ex_table (arrays : list (list Z)) : frame :=
  Frame fast_table_columns (concat (map (fun i => map (plain_row i) (by_id (measured arrays))) [1; 2])).

Lemma ex_table_ok : forall arrays, Permutation (by_id (measured arrays)) (measured arrays) ->
  StronglySorted (fun d d' => d_id d <= d_id d') (by_id (measured arrays)) -> Forall (fun d => 0 <= d_sum d) (by_id (measured arrays)) ->
  table_of_images (ex_table arrays) 2 (fun _ => measured arrays).
Proof.
  intros arrays P S F. exists (map (fun i => map (plain_row i) (by_id (measured arrays))) [1; 2]). split; [reflexivity|].
  assert (X : forall i, rows_of_image (row_of_record (cols (ex_table arrays)) i) (measured arrays) (map (plain_row i) (by_id (measured arrays)))).
  { intros i. exists (by_id (measured arrays)). split; [exact P|]. split; [exact S|]. cbn [cols ex_table]. clear - F.
    induction F as [|d ds H F IH]; [constructor|]. cbn [map]. constructor; [apply plain_row_ok; exact H|exact IH]. }
  change (zrange 1 (2 + 1)) with [1; 2]. cbn [map]. repeat constructor; apply X.
Qed.

Example C36_example :
  let A := [[4; 7]; [1; 9]] in let groups := Some [[0; 1]] in
  let arrays := merge_indices (reorder_led_indices A) groups in
  ascending_merge groups /\ arrays = [[0; 1; 2; 3]] /\
  generate_analysis_data (F := Format_Model.fit_data) None ex_img 1 ex_areas [[3; 2; 1; 0]] 0 = Ok (measured [[3; 2; 1; 0]]) /\
  Forall2 (@Permutation Z) [[3; 2; 1; 0]] arrays /\
  table_of_images (ex_table [[3; 2; 1; 0]]) 2 (fun _ => measured [[3; 2; 1; 0]]) /\
  experiment_leds [10; 11; 12; 13] (nth_error (index_files arrays) 0) = Ok (Some [(3, 13); (2, 12); (1, 11); (0, 10)]) /\
  distance_array (fun p => 2 * p) (Some [(3, 13); (2, 12); (1, 11); (0, 10)]) = Ok [20; 22; 24; 26] /\
  res_map (map e_led) (load_img_data (ex_table [[3; 2; 1; 0]]) 0 "sum_col_val") = Ok [0; 1; 2; 3; 0; 1; 2; 3].
Proof.
  cbv zeta. split; [repeat constructor|]. split; [reflexivity|]. split; [vm_compute; reflexivity|].
  split; [repeat constructor; apply (Permutation_rev [3; 2; 1; 0])|]. split.
  - apply ex_table_ok.
    + vm_compute. apply (Permutation_rev [_; _; _; _]).
    + vm_compute. repeat constructor; intros C; discriminate C.
    + vm_compute. repeat constructor; intros C; discriminate C.
  - split; [reflexivity|]. split; [reflexivity|]. vm_compute. reflexivity.
Qed.

(** Merging the arrays in another order: the distance rows start with the LEDs
    2 and 3, the intensities with 0 and 1. *)
Theorem C36_descending_merge_refuted :
  exists A groups l t, merge_indices (reorder_led_indices A) (Some groups) = [l] /\
    (exists img r areas ds, generate_analysis_data (F := Format_Model.fit_data) None img r areas [l] 0 = Ok ds /\ table_of_images t 2 (fun _ => ds)) /\
    (forall P D (coords : list P) (dist : P -> D), Forall (fun i => 0 <= i < Z.of_nat (List.length coords)) l ->
       exists leds rows, experiment_leds coords (nth_error (index_files [l]) 0) = Ok (Some leds) /\ distance_array dist (Some leds) = Ok rows /\
         Forall2 (fun id d => exists p, nth_error coords (Z.to_nat id) = Some p /\ d = dist p) l rows) /\
    exists es, load_img_data t 0 "sum_col_val" = Ok es /\
      map e_led (filter (fun e => e_img e =? 1) es) <> l /\ map fst (ref_intensities (reference_entries None 2 es)) <> l.
Proof.
  exists [[4; 7]; [1; 9]], [[1; 0]], [2; 3; 0; 1], (ex_table [[2; 3; 0; 1]]). split; [reflexivity|]. split; [|split].
  - exists ex_img, 1, ex_areas, (measured [[2; 3; 0; 1]]). split; [vm_compute; reflexivity|]. apply ex_table_ok.
    + vm_compute. apply (Permutation_app_comm [_; _] [_; _]).
    + vm_compute. repeat constructor; intros C; discriminate C.
    + vm_compute. repeat constructor; intros C; discriminate C.
  - intros P D coords dist H. apply (distance_rows P D coords dist [[2; 3; 0; 1]] 0); [reflexivity|simpl; lia|exact H].
  - eexists. split; [vm_compute; reflexivity|]. split; vm_compute; discriminate.
Qed.
Print Assumptions C36_descending_merge_refuted.

(** [num_skip_leds > 0]: fewer intensities than distance rows. *)
Theorem C36_skipped_leds_break_alignment_refuted :
  exists l img r areas ds, generate_analysis_data (F := Format_Model.fit_data) None img r areas [l] 1 = Ok ds /\
    map d_id ds <> l /\
    (forall P D (coords : list P) (dist : P -> D), Forall (fun i => 0 <= i < Z.of_nat (List.length coords)) l ->
       exists leds rows, experiment_leds coords (nth_error (index_files [l]) 0) = Ok (Some leds) /\ distance_array dist (Some leds) = Ok rows /\
         List.length rows <> List.length ds).
Proof.
  exists [0; 1; 2; 3], ex_img, 1, ex_areas. eexists. split; [vm_compute; reflexivity|]. split; [vm_compute; discriminate|].
  intros P D coords dist H. destruct (distance_rows P D coords dist [[0; 1; 2; 3]] 0 [0; 1; 2; 3] eq_refl ltac:(simpl; lia) H) as (leds & rows & H1 & H2 & H3).
  exists leds, rows. split; [exact H1|]. split; [exact H2|]. apply Forall2_len in H3. rewrite <- H3. discriminate.
Qed.
Print Assumptions C36_skipped_leds_break_alignment_refuted.

(** Arrays of one LED cannot be analysed; without index file there are no LEDs
    and the distance array cannot be built. *)
Theorem C36_single_led_array_fails : forall P (coords : list P) id arrays a,
  nth_error arrays a = Some [id] -> experiment_leds coords (nth_error (index_files arrays) a) = Err TypeError.
Proof. intros P coords id arrays a H. unfold index_files. rewrite nth_error_map, H. reflexivity. Qed.

Theorem C36_missing_index_file : forall P D (coords : list P) (dist : P -> D) arrays a,
  (List.length arrays <= a)%nat ->
  bind (experiment_leds coords (nth_error (index_files arrays) a)) (distance_array dist) = Err TypeError.
Proof.
  intros P D coords dist arrays a H. replace (nth_error (index_files arrays) a) with (@None (list Z)); [reflexivity|].
  symmetry. apply nth_error_None. unfold index_files. rewrite map_length. exact H.
Qed.
Print Assumptions C36_single_led_array_fails.
Print Assumptions C36_missing_index_file.

(** ** C37 *)

Lemma keys_lookup : forall ref k f, In k (keys (map e_led ref)) ->
  lookup k (map (fun g : Z * list entry => (fst g, f (snd g))) (groups e_led ref)) = f (filter (fun e => e_led e =? k) ref).
Proof.
  intros ref k f H. unfold groups. rewrite map_map. cbn [fst snd]. revert H. generalize (keys (map e_led ref)). intros ks H.
  induction ks as [|x ks IH]; [destruct H|]. cbn [map lookup]. destruct (Z.eqb_spec x k) as [->|Ne]; [reflexivity|].
  destruct H as [H|H]; [contradiction|]. apply IH. exact H.
Qed.

Lemma qsum_div : forall qs m, (qsum (map (fun q => q / m) qs) == qsum qs / m)%Q.
Proof.
  intros qs m. unfold Qdiv. induction qs as [|q qs IH]; cbn [map qsum fold_right]; [ring|]. fold (qsum (map (fun q => q * / m)%Q qs)). fold (qsum qs). rewrite IH. ring.
Qed.

(** The values of one LED in the reference images. *)
Definition led_values (k : Z) (ref : list entry) : list Q := numbers (map e_val (filter (fun e => e_led e =? k) ref)).

(** Arithmetic mean. *)
Definition is_mean (m : Q) (qs : list Q) : Prop := (m * inject_Z (Z.of_nat (List.length qs)) == qsum qs)%Q /\ qs <> [].

Theorem C37_reference_is_the_mean : forall ref k, (exists e q, In e ref /\ e_led e = k /\ e_val e = Some q) ->
  exists m, lookup k (ref_intensities ref) = Some m /\ is_mean m (led_values k ref).
Proof.
  intros ref k (e & q & He & Hk & Hq). unfold ref_intensities. rewrite (keys_lookup ref k (fun es => mean (map e_val es))).
  - fold (led_values k ref). unfold mean. fold (led_values k ref).
    assert (N : led_values k ref <> []).
    { intros C. assert (X : In q (led_values k ref)); [|rewrite C in X; destruct X]. unfold led_values, numbers. apply in_flat_map. exists (Some q).
      split; [|left; reflexivity]. apply in_map_iff. exists e. split; [exact Hq|]. apply filter_In. split; [exact He|]. apply Z.eqb_eq. exact Hk. }
    destruct (led_values k ref) as [|x qs] eqn:E; [congruence|]. eexists. split; [reflexivity|]. split; [|discriminate].
    field. intros C. change 0%Q with (inject_Z 0) in C. rewrite inject_Z_injective in C. simpl List.length in C. lia.
  - apply in_keys. apply in_map_iff. exists e. split; [exact Hk|exact He].
Qed.
Print Assumptions C37_reference_is_the_mean.

(** The numbers among quotients. *)
Definition finite (qs : list quot) : list Q := flat_map (fun r => match r with Fin q => [q] | _ => [] end) qs.

(** Dividing by the reference makes the mean over the reference images 1. *)
Theorem C37_normalised_mean_is_one : forall ref k m, lookup k (ref_intensities ref) = Some m -> ~ (m == 0)%Q -> In k (map e_led ref) ->
  is_mean 1 (finite (map (fun e => cell_div (e_val e) (Some m)) (filter (fun e => e_led e =? k) ref))).
Proof.
  intros ref k m H Hm Hk. unfold ref_intensities in H. rewrite (keys_lookup ref k (fun es => mean (map e_val es))) in H by (apply in_keys; exact Hk).
  assert (E : finite (map (fun e => cell_div (e_val e) (Some m)) (filter (fun e => e_led e =? k) ref)) = map (fun q => q / m)%Q (led_values k ref)).
  { unfold led_values, numbers, finite. generalize (filter (fun e => e_led e =? k) ref). intros l. induction l as [|e l IH]; [reflexivity|]. cbn [map flat_map].
    rewrite IH, map_app. f_equal. unfold cell_div. destruct (e_val e) as [v|]; [|reflexivity].
    destruct (Qeq_bool m 0) eqn:B; [apply Qeq_bool_iff in B; contradiction|]. reflexivity. }
  rewrite E. unfold mean in H. fold (led_values k ref) in H. destruct (led_values k ref) as [|x qs] eqn:Eq; [discriminate|].
  apply Some_inj in H. split; [|discriminate]. rewrite qsum_div, map_length, <- H. rewrite <- H in Hm. field.
  assert (L : ~ (inject_Z (Z.of_nat (List.length (x :: qs))) == 0)%Q) by (intros C; change 0%Q with (inject_Z 0) in C; rewrite inject_Z_injective in C; simpl List.length in C; lia).
  split; [exact L|]. intros C. apply Hm. rewrite C. field. exact L.
Qed.
Print Assumptions C37_normalised_mean_is_one.

(** The warning lists exactly the values that deviate by more than the
    tolerance.  For a mean of 0 these are the values other than 0; a missing
    value is never listed. *)
Theorem C37_warning_lists_the_outliers : forall ref i k,
  In (i, k) (normalization_hits (3 # 40) ref (ref_intensities ref)) <->
  exists e v m, In e ref /\ e_img e = i /\ e_led e = k /\ e_val e = Some v /\
     is_mean m (led_values k ref) /\ ((3 # 40) * Qabs m < Qabs (v - m))%Q.
Proof.
  intros ref i k. unfold normalization_hits. rewrite in_map_iff.
  assert (Z0 : forall q, (Qabs q <= 0)%Q -> (q == 0)%Q) by (intros q D; apply Qabs_Qle_condition in D; lra).
  split.
  - intros (e & E & He). apply filter_In in He. destruct He as (He & Hx). injection E as E1 E2.
    destruct (e_val e) as [v|] eqn:V; [|unfold exceeds in Hx; destruct (lookup (e_led e) (ref_intensities ref)); discriminate Hx].
    destruct (C37_reference_is_the_mean ref k) as (m & M1 & M2); [exists e, v; repeat split; assumption|].
    exists e, v, m. repeat (split; [assumption|]). unfold exceeds in Hx. rewrite E2, M1 in Hx.
    destruct (Qeq_bool m 0) eqn:B; apply negb_true_iff in Hx.
    + apply Qeq_bool_iff in B. apply Qnot_le_lt. intros C. rewrite B in C. change (Qabs 0) with 0%Q in C.
      assert (X : (v - 0 == 0)%Q) by (apply Z0; lra). assert (Y : Qeq_bool v 0 = true); [|congruence]. apply Qeq_bool_iff. lra.
    + apply Qnot_le_lt. intros C. assert (X : Qle_bool (Qabs (v - m) / Qabs m) (3 # 40) = true); [|congruence]. apply Qle_bool_iff.
      apply Qle_shift_div_r; [|exact C]. apply Qnot_le_lt. intros D. apply Z0 in D. apply Qeq_bool_iff in D. congruence.
  - intros (e & v & m & He & E1 & E2 & V & M2 & L).
    destruct (C37_reference_is_the_mean ref k) as (m' & M1' & M2'); [exists e, v; repeat split; assumption|].
    assert (Em : (m == m')%Q).
    { destruct M2 as (M2 & Ne), M2' as (M2' & _). rewrite <- M2' in M2. set (c := inject_Z (Z.of_nat (List.length (led_values k ref)))) in *.
      assert (Cn : ~ (c == 0)%Q). { unfold c. intros C. change 0%Q with (inject_Z 0) in C. rewrite inject_Z_injective in C. destruct (led_values k ref); [congruence|simpl List.length in C; lia]. }
      apply (Qmult_inj_r _ _ c Cn). exact M2. }
    exists e. split; [congruence|]. apply filter_In. split; [exact He|]. unfold exceeds. rewrite E2, M1', V. rewrite Em in L.
    destruct (Qeq_bool m' 0) eqn:B; apply negb_true_iff.
    + apply Qeq_bool_iff in B. destruct (Qeq_bool v 0) eqn:Q; [|reflexivity]. exfalso. apply Qeq_bool_iff in Q. rewrite B, Q in L. vm_compute in L. discriminate L.
    + destruct (Qle_bool (Qabs (v - m') / Qabs m') (3 # 40)) eqn:Q; [|reflexivity]. exfalso. apply Qle_bool_iff in Q.
      assert (P : (0 < Qabs m')%Q). { apply Qnot_le_lt. intros D. apply Z0 in D. apply Qeq_bool_iff in D. congruence. }
      assert (Q' : (Qabs (v - m') <= (3 # 40) * Qabs m')%Q).
      { apply (Qmult_le_compat_r _ _ (Qabs m')) in Q; [|lra]. unfold Qdiv in Q. rewrite <- Qmult_assoc, (Qmult_comm (/ _)), Qmult_inv_r in Q by lra. lra. }
      lra.
Qed.
Print Assumptions C37_warning_lists_the_outliers.

(** Three reference images, LEDs 1 and 2; the last value of LED 2 is off.  LED 3
    has mean 0 and a missing value. *)
Definition ex_ref : list entry :=
  [((1, 1), Some 100%Q); ((1, 2), Some 50%Q); ((2, 1), Some 102%Q); ((2, 2), Some 50%Q); ((3, 1), Some 98%Q); ((3, 2), Some 65%Q);
   ((1, 3), Some (-1)%Q); ((2, 3), Some 1%Q); ((3, 3), None)].
Example C37_example :
  map fst (ref_intensities ex_ref) = [1; 2; 3] /\
  normalization_hits (3 # 40) ex_ref (ref_intensities ex_ref) = [(1, 2); (2, 2); (3, 2); (1, 3); (2, 3)] /\
  is_mean 100 (led_values 1 ex_ref) /\ is_mean 55 (led_values 2 ex_ref) /\ is_mean 0 (led_values 3 ex_ref).
Proof.
  split; [reflexivity|split; [vm_compute; reflexivity|split; [|split]; (split; [vm_compute; reflexivity|vm_compute; discriminate])]].
Qed.

(** What a quotient of two values is; missing values give nan. *)
Definition is_quotient (v m : cell) (r : quot) : Prop :=
  match v, m with
  | Some v, Some m =>
    (~ (m == 0)%Q -> exists q, r = Fin q /\ (q * m == v)%Q) /\
    ((m == 0)%Q -> ((v == 0)%Q -> r = NaN) /\ ((0 < v)%Q -> r = Inf true) /\ ((v < 0)%Q -> r = Inf false))
  | _, _ => r = NaN
  end.

(** The relative intensities of an image: one per LED of the image, each value
    divided by the reference of the same position; a single reference serves
    all values and a single value is compared with all references; any other
    mismatch of the numbers is an error. *)
Theorem C37_relative_intensities : forall vs ms,
  let n := List.length vs in let k := List.length ms in
  ((exists rel, np_div vs ms = Ok rel) <-> n = k \/ k = 1%nat \/ n = 1%nat) /\
  (forall e, np_div vs ms = Err e -> e = ValueError) /\
  forall rel j v m, np_div vs ms = Ok rel ->
    nth_error vs (if (n =? 1)%nat then 0 else j) = Some v -> nth_error ms (if (k =? 1)%nat then 0 else j) = Some m ->
    (n <> 1%nat \/ k <> 1%nat \/ j = 0%nat) ->
    exists r, nth_error rel j = Some r /\ is_quotient v m r.
Proof.
  intros vs ms n k.
  assert (Q : forall v m, is_quotient v m (cell_div v m)).
  { intros [v|] [m|]; try reflexivity. unfold cell_div, is_quotient. destruct (Qeq_bool m 0) eqn:M.
    - apply Qeq_bool_iff in M. split; [intros X; contradiction|]. intros _. destruct (Qeq_bool v 0) eqn:V.
      + apply Qeq_bool_iff in V. repeat split; intros X; try reflexivity; exfalso; lra.
      + assert (V' : ~ (v == 0)%Q) by (intros X; apply Qeq_bool_iff in X; congruence).
        destruct (Qle_bool 0 v) eqn:L.
        * apply Qle_bool_iff in L. repeat split; intros X; try reflexivity; exfalso; lra.
        * assert (L' : ~ (0 <= v)%Q) by (intros X; apply Qle_bool_iff in X; congruence).
          repeat split; intros X; try reflexivity; exfalso; lra.
    - assert (M' : ~ (m == 0)%Q) by (intros X; apply Qeq_bool_iff in X; congruence). split; [|intros X; contradiction].
      intros _. eexists. split; [reflexivity|]. field. exact M'. }
  assert (W : forall rel j v m, nth_error rel j = Some (cell_div v m) -> exists r, nth_error rel j = Some r /\ is_quotient v m r).
  { intros rel j v m H. exists (cell_div v m). split; [exact H|apply Q]. }
  cut (((exists rel, np_div vs ms = Ok rel) <-> n = k \/ k = 1%nat \/ n = 1%nat) /\
    (forall e, np_div vs ms = Err e -> e = ValueError) /\
    forall rel j v m, np_div vs ms = Ok rel ->
    nth_error vs (if (n =? 1)%nat then 0 else j) = Some v -> nth_error ms (if (k =? 1)%nat then 0 else j) = Some m ->
    (n <> 1%nat \/ k <> 1%nat \/ j = 0%nat) -> nth_error rel j = Some (cell_div v m)).
  { intros (A & B & C). split; [exact A|]. split; [exact B|]. intros rel j v m H1 H2 H3 H4. apply W. apply C; assumption. }
  clear Q W. unfold np_div. fold n k. destruct (Nat.eqb_spec n k) as [E|E].
  - split; [split; [intros _; left; exact E|intros _; eexists; reflexivity]|]. split; [intros e H; discriminate H|].
    intros rel j v m H Hv Hm Hj. apply Ok_inj in H. subst rel. rewrite nth_error_map.
    assert (C : nth_error (combine vs ms) j = Some (v, m)).
    { destruct (Nat.eqb_spec n 1) as [N|N].
      - rewrite <- E, N in Hm, Hj. assert (j = 0%nat) by lia. subst j. cbn in Hm.
        destruct vs; [discriminate Hv|]; destruct ms; [discriminate Hm|]. cbn in *. congruence.
      - destruct (Nat.eqb_spec k 1) as [N'|N']; [lia|]. clear - Hv Hm. revert ms j Hv Hm. induction vs as [|a vs IH]; intros [|b ms] [|j] Hv Hm; try discriminate; cbn in *; [congruence|].
        apply IH; assumption. }
    rewrite C. reflexivity.
  - destruct ms as [|m0 [|m1 ms]].
    + destruct vs as [|v0 [|v1 vs]]; [elim E; reflexivity| |].
      * split; [split; [intros _; right; right; reflexivity|intros _; eexists; reflexivity]|]. split; [intros e H; discriminate H|].
        intros rel j v m H Hv Hm Hj. destruct j; discriminate Hm.
      * split; [split; [intros (rel & H); discriminate H|subst n k; cbn; lia]|]. split; [intros e H; injection H as <-; reflexivity|]. intros rel j v m H. discriminate H.
    + split; [split; [intros _; right; left; reflexivity|intros _; eexists; destruct vs as [|? [|]]; reflexivity]|].
      assert (X : forall e, match vs with [v] => Ok (map (cell_div v) [m0]) | _ => Ok (map (fun v => cell_div v m0) vs) end <> Err e) by (intros e; destruct vs as [|? [|]]; discriminate).
      split; [intros e H; destruct vs as [|? [|]]; discriminate H|].
      intros rel j v m H Hv Hm Hj. change k with 1%nat in *. cbn in Hm. apply Some_inj in Hm. subst m.
      destruct (Nat.eqb_spec n 1) as [N|N]; [congruence|]. assert (R : rel = map (fun v => cell_div v m0) vs) by (destruct vs as [|? [|]]; apply Ok_inj in H; congruence).
      rewrite R, nth_error_map, Hv. reflexivity.
    + destruct vs as [|v0 [|v1 vs]].
      * split; [split; [intros (rel & H); discriminate H|subst n k; cbn; lia]|]. split; [intros e H; injection H as <-; reflexivity|]. intros rel j v m H. discriminate H.
      * split; [split; [intros _; right; right; reflexivity|intros _; eexists; reflexivity]|]. split; [intros e H; discriminate H|].
        intros rel j v m H Hv Hm Hj. apply Ok_inj in H. subst rel. change n with 1%nat in *. cbn in Hv. apply Some_inj in Hv. subst v.
        destruct (Nat.eqb_spec k 1) as [N|N]; [congruence|]. rewrite nth_error_map, Hm. reflexivity.
      * split; [split; [intros (rel & H); discriminate H|subst n k; cbn in *; lia]|]. split; [intros e H; injection H as <-; reflexivity|]. intros rel j v m H. discriminate H.
Qed.
Print Assumptions C37_relative_intensities.

Example C37_relative_example :
  np_div [Some 50%Q; Some 30%Q; None] [Some 100%Q; Some 0%Q; Some 7%Q] = Ok [Fin (50 / 100)%Q; Inf true; NaN] /\
  np_div [Some 50%Q; Some 30%Q] [Some 100%Q] = Ok [Fin (50 / 100)%Q; Fin (30 / 100)%Q] /\
  np_div [Some 50%Q; Some 30%Q] [Some 1%Q; Some 1%Q; Some 1%Q] = Err ValueError.
Proof. repeat split; reflexivity. Qed.

(** An array that does not occur in the table ends the analysis; it never goes
    on with an empty table. *)
Theorem C37_no_data_ends_the_analysis : forall t a prop,
  load_img_data t a prop <> Ok [] /\
  (col_index "led_array_id" (cols t) <> None -> col_index prop (cols t) <> None ->
   (forall row q, In row (rows t) -> get (cols t) row "led_array_id" = Some (Some q) -> ~ (q == inject_Z a)%Q) ->
   load_img_data t a prop = Err SystemExit).
Proof.
  intros t a prop. unfold load_img_data. split.
  - destruct (col_index "led_array_id" (cols t)); [|discriminate]. destruct (col_index prop (cols t)); [|discriminate].
    destruct (mapM _ _) as [[|e es]|x]; cbn [bind]; discriminate.
  - intros H1 H2 H. destruct (col_index "led_array_id" (cols t)); [|congruence]. destruct (col_index prop (cols t)); [|congruence].
    replace (filter (has_array (cols t) a) (rows t)) with (@nil (list cell)); [reflexivity|]. symmetry.
    induction (rows t) as [|row rs IH]; [reflexivity|]. cbn [filter]. unfold has_array at 1.
    destruct (get (cols t) row "led_array_id") as [[q|]|] eqn:G; [|apply IH; intros r q Hr; apply H; right; exact Hr|apply IH; intros r q Hr; apply H; right; exact Hr].
    destruct (Qeq_bool q (inject_Z a)) eqn:B; [apply Qeq_bool_iff in B; elim (H row q (or_introl eq_refl) G B)|].
    apply IH. intros r q' Hr. apply H. right. exact Hr.
Qed.
Print Assumptions C37_no_data_ends_the_analysis.

(** The table of the example above has no array 5. *)
Example C37_no_data_example : load_img_data (ex_table [[2; 3; 0; 1]]) 5 "sum_col_val" = Err SystemExit /\
  exists es, load_img_data (ex_table [[2; 3; 0; 1]]) 0 "sum_col_val" = Ok es /\ List.length es = 8%nat.
Proof. split; [vm_compute; reflexivity|]. eexists. split; vm_compute; reflexivity. Qed.

(** ** C43 *)

Lemma collect_results : forall A C (f : A -> res C) tasks order k a, nth_error tasks k = Some a -> In k order ->
  collect (flat_map (fun k => match nth_error tasks k with Some a => [(k, f a)] | None => [] end) order) k = Some (f a).
Proof.
  intros A C f tasks order k a Ha Hk. induction order as [|j order IH]; [destruct Hk|]. cbn [flat_map].
  destruct (Nat.eq_dec j k) as [->|Ne].
  - rewrite Ha. cbn [app collect]. rewrite Nat.eqb_refl. reflexivity.
  - destruct Hk as [Hk|Hk]; [contradiction|]. specialize (IH Hk). destruct (nth_error tasks j) as [b|]; [|exact IH].
    cbn [app collect]. destruct (Nat.eqb_spec j k); [contradiction|]. exact IH.
Qed.

Lemma mapM_seq : forall A C (f : A -> res C) tasks k, mapM (fun j => match nth_error (repeat (hd_error tasks) k ++ map Some tasks) j with Some (Some a) => f a | _ => Err OutOfFuel end) (seq k (List.length tasks)) = mapM f tasks.
Proof.
  intros A C f tasks k.
  assert (G : forall (pre : list (option A)), mapM (fun j => match nth_error (pre ++ map Some tasks) j with Some (Some a) => f a | _ => Err OutOfFuel end) (seq (List.length pre) (List.length tasks)) = mapM f tasks).
  { induction tasks as [|a tasks IH]; intros pre; [reflexivity|]. cbn [List.length seq mapM]. rewrite nth_error_app2, Nat.sub_diag by lia. cbn [map nth_error].
    destruct (f a); [|reflexivity]. cbn [bind]. f_equal. specialize (IH (pre ++ [Some a])%list). rewrite app_length in IH. cbn [List.length] in IH.
    rewrite Nat.add_1_r in IH. rewrite <- IH. rewrite <- app_assoc. reflexivity. }
  specialize (G (repeat (hd_error tasks) k)). rewrite repeat_length in G. exact G.
Qed.

Lemma mapM_ext_in : forall A B (f g : A -> res B) l, (forall a, In a l -> f a = g a) -> mapM f l = mapM g l.
Proof.
  intros A B f g l H. induction l as [|a l IH]; [reflexivity|]. cbn [mapM]. rewrite (H a (or_introl eq_refl)), IH; [reflexivity|].
  intros b Hb. apply H. right. exact Hb.
Qed.

Lemma pool_is_map : forall A C (f : A -> res C) order tasks, Permutation order (seq 0 (List.length tasks)) -> pool_map f order tasks = mapM f tasks.
Proof.
  intros A C f order tasks P. unfold pool_map. rewrite <- (mapM_seq A C f tasks 0). apply mapM_ext_in. intros k Hk. cbn [repeat app].
  rewrite nth_error_map. destruct (nth_error tasks k) as [a|] eqn:E.
  - rewrite (collect_results A C f tasks order k a E); [reflexivity|]. eapply Permutation_in; [symmetry; exact P|exact Hk].
  - exfalso. apply in_seq in Hk. apply nth_error_None in E. lia.
Qed.

(** A complete table: images 1..n, every image with the same LEDs [l]. *)
Definition complete (es : list entry) (n : Z) (l : list Z) : Prop :=
  (forall e, In e es -> 1 <= e_img e <= n) /\
  forall i, 1 <= i <= n -> map e_led (filter (fun e => e_img e =? i) es) = l.

Lemma complete_groups : forall es n l, 1 <= n -> l <> [] -> complete es n l ->
  groups e_img es = map (fun i => (i, filter (fun e => e_img e =? i) es)) (zrange 1 (n + 1)).
Proof.
  intros es n l Hn Hl (H1 & H2). unfold groups. f_equal. apply sorted_lt_ext; [apply keys_sorted|apply zrange_lt_sorted|].
  intros x. rewrite in_keys, in_map_iff, in_zrange. split.
  - intros (e & <- & He). pose proof (H1 e He). lia.
  - intros Hx. specialize (H2 x ltac:(lia)). destruct (filter (fun e => e_img e =? x) es) as [|e fs] eqn:E; [simpl in H2; congruence|].
    exists e. assert (In e (filter (fun e => e_img e =? x) es)) as Hf by (rewrite E; left; reflexivity). apply filter_In in Hf. destruct Hf as (F1 & F2).
    apply Z.eqb_eq in F2. split; assumption.
Qed.

Lemma count_led : forall es n l k, 1 <= n -> complete es n l -> NoDup l -> In k l ->
  List.length (filter (fun e => e_led e =? k) es) = Z.to_nat n.
Proof.
  intros es n l k Hn (H1 & H2) Nd Hk.
  assert (G : forall m, 0 <= m <= n -> List.length (filter (fun e => (e_led e =? k) && (e_img e <=? m)) es) = Z.to_nat m).
  { intros m Hm. remember (Z.to_nat m) as c eqn:Ec. revert m Ec Hm. induction c as [|c IH]; intros m Ec Hm.
    - assert (m = 0) by lia. subst m. assert (E : filter (fun e => (e_led e =? k) && (e_img e <=? 0)) es = []); [|rewrite E; reflexivity].
      clear - H1. induction es as [|e es IH]; [reflexivity|]. cbn [filter].
      assert (X : e_img e <=? 0 = false) by (apply Z.leb_gt; pose proof (H1 e (or_introl eq_refl)); lia). rewrite X, andb_false_r. apply IH. intros e' He. apply H1. right. exact He.
    - specialize (IH (m - 1) ltac:(lia) ltac:(lia)). specialize (H2 m ltac:(lia)).
      assert (One : List.length (filter (fun e => e_led e =? k) (filter (fun e => e_img e =? m) es)) = 1%nat).
      { rewrite <- H2 in Nd, Hk. revert Nd Hk. generalize (filter (fun e => e_img e =? m) es). clear. intros fs. induction fs as [|e fs IH]; intros Nd Hk; [destruct Hk|].
        cbn [map] in *. inversion Nd as [|? ? N1 N2]; subst. cbn [filter]. destruct (Z.eqb_spec (e_led e) k) as [E|E].
        - cbn [List.length]. f_equal. subst k. clear - N1. induction fs as [|e' fs IH]; [reflexivity|]. cbn [filter]. destruct (Z.eqb_spec (e_led e') (e_led e)) as [E|E].
          + exfalso. apply N1. left. exact E.
          + apply IH. intros C. apply N1. right. exact C.
        - apply IH; [exact N2|]. destruct Hk as [Hk|Hk]; [contradiction|exact Hk]. }
      clear - IH Ec One Hm. assert (T : List.length (filter (fun e => (e_led e =? k) && (e_img e <=? m)) es) =
        Nat.add (List.length (filter (fun e => (e_led e =? k) && (e_img e <=? m - 1)) es)) (List.length (filter (fun e => e_led e =? k) (filter (fun e => e_img e =? m) es)))).
      { clear. induction es as [|e es IH]; [reflexivity|]. cbn [filter]. destruct (Z.eqb_spec (e_img e) m) as [E|E].
        - replace (e_img e <=? m) with true by (symmetry; apply Z.leb_le; lia). replace (e_img e <=? m - 1) with false by (symmetry; apply Z.leb_gt; lia).
          cbn [filter]. destruct (e_led e =? k); cbn [andb List.length]; lia.
        - replace (e_img e <=? m - 1) with (e_img e <=? m); [destruct ((e_led e =? k) && (e_img e <=? m)); cbn [List.length]; lia|].
          destruct (Z.leb_spec (e_img e) m), (Z.leb_spec (e_img e) (m - 1)); try reflexivity; lia. }
      rewrite T, IH, One. lia. }
  rewrite <- (G n) by lia. f_equal. apply filter_ext_in'. intros e He. pose proof (H1 e He). replace (e_img e <=? n) with true by (symmetry; apply Z.leb_le; lia).
  rewrite andb_true_r. reflexivity.
Qed.

Lemma complete_array : forall es n l, 1 <= n -> l <> [] -> NoDup l -> complete es n l ->
  to_array es = Ok (map (fun i => map e_val (filter (fun e => e_img e =? i) es)) (zrange 1 (n + 1))).
Proof.
  intros es n l Hn Hl Nd Hc. unfold to_array. rewrite (complete_groups es n l Hn Hl Hc). rewrite zrange_cons by lia. cbn [map].
  assert (Lg : forall i, 1 <= i <= n -> List.length (filter (fun e => e_img e =? i) es) = List.length l).
  { intros i Hi. rewrite <- (proj2 Hc i Hi), map_length. reflexivity. }
  destruct (groups e_led es) as [|[k l1] gs] eqn:G.
  - exfalso. unfold groups in G. apply map_eq_nil in G. destruct es as [|e es].
    + specialize (Lg 1 ltac:(lia)). simpl in Lg. destruct l; [congruence|discriminate].
    + assert (X : In (e_led e) (keys (map e_led (e :: es)))) by (apply in_keys; left; reflexivity). rewrite G in X. destruct X.
  - assert (K : l1 = filter (fun e => e_led e =? k) es /\ In k (map e_led es)).
    { assert (X : In (k, l1) (groups e_led es)) by (rewrite G; left; reflexivity). unfold groups in X. apply in_map_iff in X. destruct X as (k' & E & Hk).
      injection E as <- <-. split; [reflexivity|]. apply in_keys. exact Hk. }
    destruct K as (K1 & K2). assert (Kl : In k l).
    { apply in_map_iff in K2. destruct K2 as (e & <- & He). rewrite <- (proj2 Hc (e_img e) (proj1 Hc e He)). apply in_map. apply filter_In. split; [exact He|apply Z.eqb_refl]. }
    assert (N1 : Z.of_nat (List.length l1) = n) by (rewrite K1, (count_led es n l k Hn Hc Nd Kl); lia).
    rewrite N1. change (map e_val (filter (fun e => e_img e =? 1) es) :: map (fun i => map e_val (filter (fun e => e_img e =? i) es)) (zrange (1 + 1) (n + 1)))
      with (map (fun i => map e_val (filter (fun e => e_img e =? i) es)) (1 :: zrange (1 + 1) (n + 1))). rewrite <- zrange_cons by lia.
    apply mapM_map_ok. intros i Hi. apply in_zrange in Hi. specialize (Lg 1 ltac:(lia)) as L1. specialize (Lg i ltac:(lia)) as Li.
    assert (Lv : List.length (map e_val (filter (fun e => e_img e =? i) es)) = List.length l) by (rewrite map_length; exact Li).
    destruct (map e_val (filter (fun e => e_img e =? i) es)) as [|v [|w vs]]; [destruct l; [congruence|discriminate]| |].
    + rewrite L1, <- Lv. reflexivity.
    + rewrite L1, Lv, Nat.eqb_refl. reflexivity.
Qed.

(** A solver that does not use earlier results (the linear one). *)
Definition memoryless {C} (solve : option C -> list quot -> res C) : Prop := forall s rel, solve s rel = solve None rel.

Theorem C43_parallel_equals_serial : forall C (solve : option C -> list quot -> res C) order es ms n l,
  memoryless solve -> 1 <= n -> l <> [] -> NoDup l -> complete es n l -> Permutation order (seq 0 (Z.to_nat n)) ->
  List.length ms = List.length l ->
  parallel solve order es ms = serial solve es ms.
Proof.
  intros C solve order es ms n l Hm Hn Hl Nd Hc Ho Lm. unfold parallel, serial. rewrite (complete_array es n l Hn Hl Nd Hc), (complete_groups es n l Hn Hl Hc). cbn [bind].
  set (is := zrange 1 (n + 1)).
  set (rel := fun i => map (fun p => cell_div (fst p) (snd p)) (combine (map e_val (filter (fun e => e_img e =? i) es)) ms)).
  assert (D : forall i, In i is -> np_div (map e_val (filter (fun e => e_img e =? i) es)) ms = Ok (rel i)).
  { intros i Hi. apply in_zrange in Hi. unfold np_div. rewrite map_length. pose proof (proj2 Hc i ltac:(lia)) as E. rewrite Lm, <- E, map_length, Nat.eqb_refl. reflexivity. }
  assert (E : mapM (fun vs => np_div vs ms) (map (fun i => map e_val (filter (fun e => e_img e =? i) es)) is) = Ok (map rel is)).
  { clear - D. induction is as [|i is IH]; [reflexivity|]. cbn [map mapM]. rewrite D by (left; reflexivity). cbn [bind]. rewrite IH; [reflexivity|]. intros j Hj. apply D. right. exact Hj. }
  rewrite E. cbn [bind]. rewrite pool_is_map.
  - assert (G : forall s, mapM (solve None) (map rel is) = serial_loop solve ms s (map (fun i => (i, filter (fun e => e_img e =? i) es)) is)); [|apply G].
    clear - D Hm. induction is as [|i is IH]; intros s; [reflexivity|]. cbn [map mapM serial_loop]. rewrite D by (left; reflexivity). cbn [bind].
    rewrite (Hm s). destruct (solve None (rel i)) as [c|]; [|reflexivity]. cbn [bind]. rewrite (IH ltac:(intros j Hj; apply D; right; exact Hj) (Some c)). reflexivity.
  - rewrite map_length. unfold is. rewrite length_zrange. replace (n + 1 - 1) with n by lia. exact Ho.
Qed.
Print Assumptions C43_parallel_equals_serial.

(** A gap in the image ids: the parallel run fails, the serial one does not. *)
Theorem C43_other_ids_refuted : exists (es : list entry) ms order, forall C (solve : option C -> list quot -> res C),
  (forall s rel, exists c, solve s rel = Ok c) ->
  (exists cs, serial solve es ms = Ok cs) /\ parallel solve order es ms = Err KeyError.
Proof.
  exists [((2, 0), Some 1%Q); ((2, 1), Some 2%Q)], [Some 1%Q; Some 1%Q], [0%nat]. intros C solve H. split.
  - unfold serial. cbn.
    match goal with |- context [solve None ?r] => destruct (H None r) as (c' & ->) end. cbn. eexists. reflexivity.
  - reflexivity.
Qed.
Print Assumptions C43_other_ids_refuted.

Example C43_example : complete [((1, 3), Some 4%Q); ((1, 5), Some 6%Q); ((2, 3), Some 2%Q); ((2, 5), Some 3%Q)] 2 [3; 5] /\
  memoryless (fun (_ : option (list quot)) rel => Ok rel) /\
  parallel (fun (_ : option (list quot)) rel => Ok rel) [1; 0]%nat
    [((1, 3), Some 4%Q); ((1, 5), Some 6%Q); ((2, 3), Some 2%Q); ((2, 5), Some 3%Q)] [Some 4%Q; Some 6%Q] =
  Ok [[Fin (4 / 4)%Q; Fin (6 / 6)%Q]; [Fin (2 / 4)%Q; Fin (3 / 6)%Q]].
Proof.
  split; [|split; [intros s rel; reflexivity|vm_compute; reflexivity]]. split.
  - intros e H. repeat (destruct H as [<-|H]; [cbn; lia|]). destruct H.
  - intros i Hi. assert (C : i = 1 \/ i = 2) by lia. destruct C as [-> | -> ]; reflexivity.
Qed.
