(** Proofs about the whole matching procedure, renumbering and merging. *)
From Coq Require Import List ZArith Lia Bool Permutation Sorted.
From Verif Require Import Base Step2_Model Step2_Spec Step2_Proofs.
Import ListNotations.
Local Open Scope Z_scope.

Section Match.
Variable g : geometry.
Variable max_n : nat.
Hypothesis Hmax : (0 < max_n)%nat.

Definition is_pair (e : list Z) : Prop := length e = 2%nat.

Lemma match_one_pair : forall d a b, NoDup (keys d) ->
  (In a (keys d) /\ In b (keys d) ->
     exists arr d', match_one g max_n d [a; b] = Ok (Some arr, d') /\
       hd_error arr = Some a /\ (a <> b -> List.last arr 0 = b /\ (2 <= length arr)%nat) /\
       (a = b -> Permutation arr (keys d) /\ d' = [])) /\
  (~ In a (keys d) \/ ~ In b (keys d) -> match_one g max_n d [a; b] = Err ValueError).
Proof.
  intros d a b Hnd. split.
  - intros [Ha Hb]. unfold match_one.
    destruct (dict_get d a) as [la|] eqn:Ea; [|apply dict_get_none_keys in Ea; contradiction].
    destruct (dict_get d b) as [lb|] eqn:Eb; [|apply dict_get_none_keys in Eb; contradiction].
    cbn [List.last].
    destruct (Z.eq_dec a b) as [E|E].
    + subst b. destruct (walk_same_label g max_n Hmax (length d) d a la a lb Hnd ltac:(lia) Ha (or_introl eq_refl))
        as (arr & Ew & H1 & H2).
      rewrite Ew. simpl. exists arr, []. repeat split; auto; congruence.
    + destruct (walk_pair_ok g max_n Hmax (length d) d a la b lb Hnd ltac:(lia) Ha Hb E)
        as (arr & d' & Ew & H1 & H2 & H3).
      rewrite Ew. simpl. exists arr, d'. repeat split; auto; congruence.
  - intros H. unfold match_one.
    destruct (dict_get d a) as [la|] eqn:Ea; [|reflexivity].
    destruct (dict_get d b) as [lb|] eqn:Eb; [|reflexivity].
    apply dict_get_some_keys in Ea. apply dict_get_some_keys in Eb. tauto.
Qed.

Lemma match_all_app : forall pre post d,
  match_all g max_n d (pre ++ post) =
  bind (match_all g max_n d pre) (fun p =>
  bind (match_all g max_n (snd p) post) (fun q => Ok (fst p ++ fst q, snd q))).
Proof.
  induction pre as [|e pre IH]; intros post d; simpl.
  - destruct (match_all g max_n d post) as [[a d']|]; reflexivity.
  - destruct (match_one g max_n d e) as [[o d1]|]; simpl; [|reflexivity].
    rewrite IH. destruct (match_all g max_n d1 pre) as [[a d2]|]; simpl; [|reflexivity].
    destruct (match_all g max_n d2 post) as [[a' d3]|]; simpl; [|reflexivity].
    destruct o; reflexivity.
Qed.

(** Failure analysis. *)
Lemma match_all_fail : forall edges d e, NoDup (keys d) -> Forall is_pair edges ->
  match_all g max_n d edges = Err e ->
  e = ValueError /\
  exists pre a b post walked d',
    edges = pre ++ [a; b] :: post /\ match_all g max_n d pre = Ok (walked, d') /\
    (~ In a (keys d') \/ ~ In b (keys d')).
Proof.
  induction edges as [|ed edges IH]; intros d e Hnd Hp H; [discriminate|].
  inversion Hp as [|? ? H1 H2]; subst.
  destruct ed as [|a [|b [|]]]; unfold is_pair in H1; simpl in H1; try lia. clear H1.
  cbn [match_all] in H.
  destruct (match_one_pair d a b Hnd) as [Hok Hbad].
  destruct (in_dec Z.eq_dec a (keys d)) as [Ia|Ia];
  [destruct (in_dec Z.eq_dec b (keys d)) as [Ib|Ib]|].
  - destruct (Hok (conj Ia Ib)) as (arr & d1 & E1 & _). rewrite E1 in H. cbn [bind fst snd] in H.
    destruct (match_all g max_n d1 edges) as [[as_ d2]|e'] eqn:E2; simpl in H; [discriminate|].
    injection H as <-.
    assert (Hnd1 : NoDup (keys d1)).
    { assert (Em : match_all g max_n d [[a; b]] = Ok ([arr], d1)) by (cbn [match_all]; rewrite E1; reflexivity).
      apply (match_all_partition g max_n _ _ _ _ Hnd Em). }
    destruct (IH d1 e' Hnd1 H2 E2) as (He & pre & a' & b' & post & walked & d' & -> & Em & Hb).
    split; [exact He|]. exists ([a; b] :: pre), a', b', post, (arr :: walked), d'.
    split; [reflexivity|]. split; [|exact Hb]. cbn [match_all]. rewrite E1. cbn [bind fst snd].
    rewrite Em. reflexivity.
  - rewrite (Hbad (or_intror Ib)) in H. injection H as <-. split; [reflexivity|].
    exists [], a, b, edges, [], d. simpl. auto.
  - rewrite (Hbad (or_introl Ia)) in H. injection H as <-. split; [reflexivity|].
    exists [], a, b, edges, [], d. simpl. auto.
Qed.

Lemma match_all_fail_conv : forall edges d pre a b post walked d', NoDup (keys d) ->
  edges = pre ++ [a; b] :: post -> match_all g max_n d pre = Ok (walked, d') ->
  (~ In a (keys d') \/ ~ In b (keys d')) ->
  match_all g max_n d edges = Err ValueError.
Proof.
  intros edges d pre a b post walked d' Hnd -> Hm Hb. rewrite match_all_app, Hm.
  cbn [bind fst snd match_all].
  assert (Hnd' : NoDup (keys d')) by apply (match_all_partition g max_n _ _ _ _ Hnd Hm).
  destruct (match_one_pair d' a b Hnd') as [_ Hbad]. rewrite (Hbad Hb). reflexivity.
Qed.

(** Ends of the arrays. *)
Lemma match_all_ends : forall edges d arrays d', NoDup (keys d) -> Forall is_pair edges ->
  match_all g max_n d edges = Ok (arrays, d') ->
  Forall2 (fun e arr => forall a b, e = [a; b] ->
             hd_error arr = Some a /\ (a <> b -> List.last arr 0 = b /\ (2 <= length arr)%nat)) edges arrays.
Proof.
  induction edges as [|ed edges IH]; intros d arrays d' Hnd Hp H; cbn [match_all] in H.
  - injection H as <- <-. constructor.
  - inversion Hp as [|? ? H1 H2]; subst.
    destruct ed as [|a [|b [|]]]; unfold is_pair in H1; simpl in H1; try lia. clear H1.
    destruct (match_one_pair d a b Hnd) as [Hok Hbad].
    destruct (match_one g max_n d [a; b]) as [[o d1]|] eqn:E1; cbn [bind fst snd] in H; [|discriminate].
    destruct (match_all g max_n d1 edges) as [[as_ d2]|] eqn:E2; cbn [bind fst snd] in H; [|discriminate].
    injection H as <- <-.
    destruct (in_dec Z.eq_dec a (keys d)) as [Ia|Ia]; [|discriminate (Hbad (or_introl Ia))].
    destruct (in_dec Z.eq_dec b (keys d)) as [Ib|Ib]; [|discriminate (Hbad (or_intror Ib))].
    destruct (Hok (conj Ia Ib)) as (arr & d1' & E1' & H1 & H3 & _).
    injection E1' as -> ->.
    assert (Hnd1 : NoDup (keys d1')).
    { assert (Em : match_all g max_n d [[a; b]] = Ok ([arr], d1')) by (cbn [match_all]; rewrite E1; reflexivity).
      apply (match_all_partition g max_n _ _ _ _ Hnd Em). }
    constructor.
    + intros a' b' E. injection E as <- <-. split; assumption.
    + eapply IH; eauto.
Qed.

(** Equal labels swallow everything that is left. *)
Lemma match_all_swallow : forall pre d walked d' a, NoDup (keys d) ->
  match_all g max_n d pre = Ok (walked, d') -> In a (keys d') ->
  exists arr, match_all g max_n d (pre ++ [[a; a]]) = Ok (walked ++ [arr], []) /\
              Permutation arr (keys d').
Proof.
  intros pre d walked d' a Hnd Hm Ha.
  assert (Hnd' : NoDup (keys d')) by apply (match_all_partition g max_n _ _ _ _ Hnd Hm).
  destruct (match_one_pair d' a a Hnd') as [Hok _].
  destruct (Hok (conj Ha Ha)) as (arr & d1 & E1 & _ & _ & H2). destruct (H2 eq_refl) as [Hp ->].
  exists arr. split; [|exact Hp]. rewrite match_all_app, Hm. cbn [bind fst snd match_all].
  rewrite E1. reflexivity.
Qed.

(** Without [ignore_leds] the dictionary is built from the rows. *)
Definition start_dict (rows : list row) (ig : option (list Z)) : dict :=
  drop_ignored (dict_of_rows rows) ig.

Lemma start_dict_nodup : forall rows ig, NoDup (keys (start_dict rows ig)).
Proof. intros. apply drop_ignored_spec, dict_of_rows_nodup. Qed.

Lemma start_dict_keys : forall rows x, In x (keys (start_dict rows None)) <-> In x (ids rows).
Proof. intros. unfold start_dict. simpl. apply dict_of_rows_keys. Qed.

(** *** removal of ignored LEDs *)

Lemma py_remove_filter : forall x l, NoDup l -> py_remove x l = filter (fun y => negb (y =? x)) l.
Proof.
  intros x l H. induction H as [|y l Hy Hl IH]; simpl; [reflexivity|].
  destruct (y =? x) eqn:E; simpl; [|rewrite IH; reflexivity].
  apply Z.eqb_eq in E. subst. symmetry.
  clear IH Hl. induction l as [|z l IHl]; simpl; [reflexivity|].
  destruct (z =? x) eqn:E; simpl.
  - apply Z.eqb_eq in E. subst. exfalso. apply Hy. left. reflexivity.
  - f_equal. apply IHl. intros H. apply Hy. right. exact H.
Qed.

Lemma filter_NoDup' : forall (f : Z -> bool) l, NoDup l -> NoDup (filter f l).
Proof. intros. apply NoDup_filter. assumption. Qed.

Lemma remove_all_filter : forall ig l, NoDup l ->
  fold_left (fun a x => py_remove x a) ig l =
  filter (fun y => negb (existsb (fun x => y =? x) ig)) l.
Proof.
  induction ig as [|x ig IH]; intros l Hl; simpl.
  - induction l as [|y l IHl]; simpl; [reflexivity|]. inversion Hl; subst. f_equal; auto.
  - rewrite py_remove_filter by exact Hl. rewrite IH by (apply filter_NoDup'; exact Hl).
    clear. induction l as [|y l IHl]; simpl; [reflexivity|].
    destruct (y =? x); simpl; [exact IHl|]. destruct (existsb _ ig); simpl; rewrite IHl; reflexivity.
Qed.

Lemma dropped_filter : forall ig l,
  dropped (fun x => In x ig) l (filter (fun y => negb (existsb (fun x => y =? x) ig)) l).
Proof.
  intros ig. induction l as [|y l IH]; simpl; [constructor|].
  destruct (existsb (fun x => y =? x) ig) eqn:E; simpl.
  - apply dropped_drop; [|exact IH]. apply existsb_exists in E. destruct E as (x & Hx & E).
    apply Z.eqb_eq in E. subst. exact Hx.
  - apply dropped_keep; [|exact IH]. intros Hin.
    assert (existsb (fun x => y =? x) ig = true); [|congruence].
    apply existsb_exists. exists y. split; [exact Hin|apply Z.eqb_refl].
Qed.

Lemma NoDup_concat_each : forall (ls : list (list Z)), NoDup (concat ls) -> Forall (@NoDup Z) ls.
Proof.
  induction ls as [|l ls IH]; simpl; intros H; constructor.
  - apply NoDup_app_inv in H. tauto.
  - apply IH. apply NoDup_app_inv in H. tauto.
Qed.

Lemma remove_ignored_dropped : forall arrays ig, NoDup (concat arrays) ->
  Forall2 (dropped (fun x => In x ig)) arrays (remove_ignored_leds arrays ig).
Proof.
  intros arrays ig H. apply NoDup_concat_each in H. unfold remove_ignored_leds.
  induction H as [|a l Ha Hl IH]; simpl; constructor; [|exact IH].
  rewrite remove_all_filter by exact Ha. apply dropped_filter.
Qed.

Lemma remove_ignored_In : forall ig arrays x, NoDup (concat arrays) ->
  In x (concat (remove_ignored_leds arrays ig)) -> In x (concat arrays) /\ ~ In x ig.
Proof.
  intros ig arrays x H Hin. pose proof (remove_ignored_dropped arrays ig H) as F.
  revert F Hin. generalize (remove_ignored_leds arrays ig). clear H.
  intros l F Hin. induction F as [|a b la lb Hab F IH]; simpl in *; [destruct Hin|].
  apply in_app_or in Hin. destruct Hin as [Hin|Hin].
  - split.
    + apply in_or_app. left. clear - Hab Hin. induction Hab; simpl in *; intuition.
    + clear - Hab Hin. induction Hab; simpl in *; intuition. subst. auto.
  - destruct (IH Hin). split; [apply in_or_app; auto|assumption].
Qed.

Lemma dropped_NoDup : forall P l l', dropped P l l' -> NoDup l -> NoDup l' /\ incl l' l.
Proof.
  intros P l l' H. induction H as [|x l l' Hx H IH|x l l' Hx H IH]; intros Hnd.
  - split; [constructor|intros x H; exact H].
  - inversion Hnd; subst. destruct (IH H3) as [A B]. split.
    + constructor; [|exact A]. intros Hin. apply H2, B, Hin.
    + intros y [->|Hy]; [left; reflexivity|right; apply B, Hy].
  - inversion Hnd; subst. destruct (IH H3) as [A B]. split; [exact A|].
    intros y Hy. right. apply B, Hy.
Qed.

Lemma remove_ignored_NoDup : forall ig arrays, NoDup (concat arrays) ->
  NoDup (concat (remove_ignored_leds arrays ig)).
Proof.
  intros ig arrays. induction arrays as [|a l IH]; simpl; intros H; [constructor|].
  pose proof H as H'. apply NoDup_app_inv in H'. destruct H' as (A & B & C).
  rewrite remove_all_filter by exact A.
  apply NoDup_app_intro.
  - apply filter_NoDup'. exact A.
  - apply IH. exact B.
  - intros x Hx Hx'. apply filter_In in Hx. apply (C x (proj1 Hx)).
    apply (remove_ignored_In ig l x B Hx').
Qed.

Lemma match_leds_inv : forall rows edges ig il arrays,
  match_leds_to_led_arrays g max_n rows edges ig il = Ok arrays ->
  exists walked d', match_all g max_n (start_dict rows il) edges = Ok (walked, d') /\
                    arrays = remove_ignored_leds walked ig.
Proof.
  intros rows edges ig il arrays H. unfold match_leds_to_led_arrays in H. fold (start_dict rows il) in H.
  destruct (match_all g max_n (start_dict rows il) edges) as [[w d']|]; simpl in H; [|discriminate].
  injection H as <-. eauto.
Qed.

Lemma remove_ignored_nil : forall arrays, remove_ignored_leds arrays [] = arrays.
Proof. intros. unfold remove_ignored_leds. simpl. apply map_id. Qed.

Lemma match_leds_no_ignore : forall rows edges il,
  match_leds_to_led_arrays g max_n rows edges [] il =
  res_map fst (match_all g max_n (start_dict rows il) edges).
Proof.
  intros. unfold match_leds_to_led_arrays. fold (start_dict rows il).
  destruct (match_all _ _ _ _) as [[w d']|]; simpl; [|reflexivity].
  rewrite remove_ignored_nil. reflexivity.
Qed.

(** Step-by-step choice: between consecutive LEDs of a walked array the code
    calls [find_next_led] on exactly the LEDs not used so far. *)
Lemma walk_steps : forall fuel d led ll ref rl a d',
  NoDup (keys d) -> In (led, ll) d ->
  walk g max_n fuel d led ll ref rl [] ref = Ok (a, d') ->
  forall i c n, nth_error a i = Some c -> nth_error a (S i) = Some n ->
  exists di lc, NoDup (keys di) /\
    (forall e, In e di <-> In e d /\ ~ In (fst e) (firstn (S i) a)) /\
    In (c, lc) d /\ find_next_led g di max_n rl lc = Ok n.
Proof.
  induction fuel as [|fuel IH]; intros d led ll ref rl a d' Hnd Hin Hw i c n Hc Hn.
  - destruct d; [destruct Hin|discriminate].
  - assert (Hd : d <> []) by (intros ->; destruct Hin).
    rewrite (walk_pair_unfold g max_n _ _ _ _ _ _ Hd) in Hw.
    destruct (dict_get d led) as [lv|]; [|discriminate]. cbv zeta in Hw.
    set (d1 := dict_del d led) in *.
    assert (Hnd1 : NoDup (keys d1)) by (apply dict_del_nodup; exact Hnd).
    assert (Hin1 : forall e, In e d1 <-> In e d /\ ~ In (fst e) [led]).
    { intros e. unfold d1. rewrite dict_del_In_iff by exact Hnd. simpl.
      split; intros [A B]; (split; [exact A|]).
      - intros [E|[]]. congruence.
      - intros E. apply B. left. congruence. }
    destruct (find_next_led g d1 max_n rl ll) as [nid|er] eqn:En.
    2:{ destruct er; try discriminate; injection Hw as <- <-; destruct i; discriminate. }
    destruct (dict_get d1 nid) as [nl|] eqn:Eg.
    2:{ injection Hw as <- <-. destruct i; discriminate. }
    destruct (nid =? ref) eqn:E.
    + injection Hw as <- <-. destruct i as [|[|i]]; try discriminate.
      injection Hc as <-. injection Hn as <-. exists d1, ll. auto.
    + destruct (walk g max_n fuel d1 nid nl ref rl [] ref) as [[a0 d0]|] eqn:Ew; simpl in Hw; [|discriminate].
      injection Hw as <- <-.
      assert (Hhd : hd_error a0 = Some nid).
      { assert (Hinn : In nid (keys d1)) by (eapply dict_get_some_keys; eauto).
        assert (Hd1 : d1 <> []) by (intros E1; rewrite E1 in Hinn; destruct Hinn).
        clear IH. destruct fuel as [|fuel0].
        - destruct d1; [congruence|discriminate].
        - rewrite (walk_pair_unfold g max_n _ _ _ _ _ _ Hd1) in Ew. rewrite Eg in Ew. cbv zeta in Ew.
          destruct (find_next_led g (dict_del d1 nid) max_n rl nl) as [k|er].
          + destruct (dict_get (dict_del d1 nid) k); [|injection Ew as <- _; reflexivity].
            destruct (k =? ref); [injection Ew as <- _; reflexivity|].
            destruct (walk g max_n fuel0 _ _ _ _ _ _ _) as [[? ?]|]; simpl in Ew; [|discriminate].
            injection Ew as <- _. reflexivity.
          + destruct er; try discriminate; injection Ew as <- _; reflexivity. }
      destruct i as [|i].
      * injection Hc as <-. simpl in Hn. destruct a0 as [|x a0]; [discriminate|].
        simpl in Hn, Hhd. rewrite Hhd in Hn. injection Hn as <-.
        exists d1, ll. simpl firstn. auto.
      * simpl in Hc, Hn.
        destruct (IH d1 nid nl ref rl a0 d0 Hnd1 (dict_get_In _ _ _ Eg) Ew i c n Hc Hn)
          as (di & lc & A & B & C & D).
        exists di, lc. split; [exact A|]. split; [|split; [apply Hin1 in C; tauto|exact D]].
        intros e. rewrite B, Hin1.
        change (firstn (S (S i)) (led :: a0)) with (led :: firstn (S i) a0). simpl. tauto.
Qed.
End Match.

(** *** renumbering *)

Lemma reorder_from_concat : forall arrays s,
  concat (reorder_from s arrays) = zrange s (s + Z.of_nat (length (concat arrays))).
Proof.
  induction arrays as [|a l IH]; intros s; simpl.
  - rewrite zrange_nil by lia. reflexivity.
  - rewrite IH, app_length.
    rewrite (zrange_app s (s + Z.of_nat (length a)) (s + Z.of_nat (length a + length (concat l)))) by lia.
    replace (s + Z.of_nat (length a) - 1 + 1) with (s + Z.of_nat (length a)) by lia.
    replace (s + Z.of_nat (length a) + Z.of_nat (length (concat l)))
      with (s + Z.of_nat (length a + length (concat l))) by lia. reflexivity.
Qed.

Lemma reorder_from_lengths : forall arrays s,
  map (@length Z) (reorder_from s arrays) = map (@length Z) arrays.
Proof.
  induction arrays as [|a l IH]; intros s; simpl; [reflexivity|].
  rewrite IH, length_zrange. f_equal. lia.
Qed.

Lemma renumber_length : forall rs s, length (renumber s rs) = length rs.
Proof. induction rs; intros; simpl; auto. Qed.

Lemma renumber_nth : forall rs s i r, nth_error rs i = Some r ->
  nth_error (renumber s rs) i = Some (s + Z.of_nat i, snd r).
Proof.
  induction rs as [|x rs IH]; intros s i r H; [destruct i; discriminate|].
  destruct i as [|i]; simpl in *.
  - injection H as ->. do 2 f_equal. lia.
  - rewrite (IH (s + 1) i r H). do 2 f_equal. lia.
Qed.

(** Rows numbered by position: what step 1 and step 2 produce. *)
Definition positional (rows : list row) : Prop :=
  forall i r, nth_error rows i = Some r -> fst r = Z.of_nat i.

Lemma positional_ids : forall rows, positional rows <-> ids rows = zrange 0 (Z.of_nat (length rows)).
Proof.
  intros rows. split.
  - intros H. apply nth_error_ext_Z. intros i. unfold ids. rewrite nth_error_map.
    destruct (nth_error rows i) as [r|] eqn:E; cbn [option_map].
    + pose proof (H i r E) as Hf. assert (i < length rows)%nat by (apply nth_error_Some; congruence).
      rewrite nth_error_zrange by lia.
      f_equal. lia.
    + symmetry. apply nth_error_None. rewrite length_zrange. apply nth_error_None in E. lia.
  - intros H i r Hr. assert (Hi : nth_error (ids rows) i = Some (fst r)).
    { unfold ids. rewrite nth_error_map, Hr. reflexivity. }
    assert (i < length rows)%nat by (apply nth_error_Some; congruence).
    rewrite H, nth_error_zrange in Hi by lia. injection Hi as <-. lia.
Qed.

Lemma positional_In : forall rows k p, positional rows -> In (k, p) rows <->
  0 <= k /\ nth_error rows (Z.to_nat k) = Some (k, p).
Proof.
  intros rows k p H. split.
  - intros Hin. apply In_nth_error in Hin. destruct Hin as [i Hi].
    pose proof (H _ _ Hi) as E. simpl in E. subst k. rewrite Nat2Z.id. split; [lia|exact Hi].
  - intros [_ Hn]. eapply nth_error_In; eauto.
Qed.

Lemma positional_nodup : forall rows, positional rows -> NoDup (ids rows).
Proof. intros rows H. apply positional_ids in H. rewrite H. apply NoDup_zrange. Qed.

Lemma np_index_positional : forall rows k, positional rows -> In k (ids rows) ->
  exists p, np_index rows k = Ok (k, p) /\ In (k, p) rows.
Proof.
  intros rows k H Hin. unfold ids in Hin. apply in_map_iff in Hin.
  destruct Hin as ([k' p] & E & Hin). simpl in E. subst k'.
  pose proof Hin as Hin'. apply (positional_In _ _ _ H) in Hin'. destruct Hin' as [H0 Hn].
  assert (Z.to_nat k < length rows)%nat by (apply nth_error_Some; congruence).
  exists p. split; [|exact Hin]. unfold np_index.
  replace (k <? 0) with false by (symmetry; apply Z.ltb_ge; lia).
  replace (k <? 0) with false by (symmetry; apply Z.ltb_ge; lia).
  replace (Z.of_nat (length rows) <=? k) with false by (symmetry; apply Z.leb_gt; lia).
  simpl. rewrite Hn. reflexivity.
Qed.

Lemma Forall2_nth : forall A B (R : A -> B -> Prop) l l', Forall2 R l l' ->
  forall i a, nth_error l i = Some a -> exists b, nth_error l' i = Some b /\ R a b.
Proof.
  intros A B R l l' H. induction H as [|x y l l' Hxy H IH]; intros i a Ha; [destruct i; discriminate|].
  destruct i as [|i]; simpl in *; [injection Ha as <-; eauto|]. apply IH. exact Ha.
Qed.

Lemma nth_concat : forall (arrays : list (list Z)) k j arr x,
  nth_error arrays k = Some arr -> nth_error arr j = Some x ->
  nth_error (concat arrays) (length (concat (firstn k arrays)) + j) = Some x.
Proof.
  induction arrays as [|a l IH]; intros k j arr x Hk Hj; [destruct k; discriminate|].
  destruct k as [|k]; simpl in *.
  - injection Hk as <-. rewrite nth_error_app1; [exact Hj|]. apply nth_error_Some. congruence.
  - rewrite app_length, nth_error_app2 by lia.
    replace (length a + length (concat (firstn k l)) + j - length a)%nat
      with (length (concat (firstn k l)) + j)%nat by lia.
    eapply IH; eauto.
Qed.

Lemma reorder_from_nth : forall arrays s k j arr x,
  nth_error arrays k = Some arr -> nth_error arr j = Some x ->
  exists arr', nth_error (reorder_from s arrays) k = Some arr' /\
     nth_error arr' j = Some (s + Z.of_nat (length (concat (firstn k arrays)) + j)).
Proof.
  induction arrays as [|a l IH]; intros s k j arr x Hk Hj; [destruct k; discriminate|].
  assert (Hjl : (j < length arr)%nat) by (apply nth_error_Some; congruence).
  destruct k as [|k]; simpl in *.
  - injection Hk as <-. eexists. split; [reflexivity|]. rewrite nth_error_zrange by lia.
    f_equal; lia.
  - destruct (IH (s + Z.of_nat (length a)) k j arr x Hk Hj) as (arr' & H1 & H2).
    exists arr'. split; [exact H1|]. rewrite H2. f_equal. rewrite app_length. lia.
Qed.

Lemma reorder_ok : forall rows arrays, positional rows ->
  (forall x, In x (concat arrays) -> In x (ids rows)) ->
  exists rows', reorder_search_areas rows arrays = Ok rows' /\
    length rows' = length (concat arrays) /\ positional rows' /\
    forall k j arr old, nth_error arrays k = Some arr -> nth_error arr j = Some old ->
    exists arr' new p, nth_error (reorder_led_indices arrays) k = Some arr' /\
      nth_error arr' j = Some new /\ has_loc rows old p /\ has_loc rows' new p.
Proof.
  intros rows arrays Hp Hin. unfold reorder_search_areas.
  destruct (mapM_ok _ _ (np_index rows) (concat arrays)) as (rs & E & F).
  { intros x Hx. destruct (np_index_positional rows x Hp (Hin x Hx)) as (p & Hpx & _). eauto. }
  rewrite E. cbn [bind]. exists (renumber 0 rs). split; [reflexivity|].
  split; [rewrite renumber_length; symmetry; eapply Forall2_len; eauto|]. split.
  - intros i r Hr.
    destruct (nth_error rs i) as [r0|] eqn:Er.
    + rewrite (renumber_nth rs 0 i r0 Er) in Hr. injection Hr as <-. reflexivity.
    + apply nth_error_None in Er. assert (nth_error (renumber 0 rs) i <> None) by congruence.
      apply nth_error_Some in H. rewrite renumber_length in H. lia.
  - intros k j arr old Hk Hj.
    destruct (reorder_from_nth arrays 0 k j arr old Hk Hj) as (arr' & H1 & H2).
    pose proof (nth_concat arrays k j arr old Hk Hj) as Hc.
    destruct (Forall2_nth _ _ _ _ _ F _ _ Hc) as (r & Hr & Hidx).
    assert (Hold : In old (ids rows)) by (apply Hin; eapply nth_error_In; eauto).
    destruct (np_index_positional rows old Hp Hold) as (p & Hidx' & Hinp).
    rewrite Hidx' in Hidx. injection Hidx as <-.
    exists arr', (0 + Z.of_nat (length (concat (firstn k arrays)) + j)), p.
    split; [exact H1|]. split; [exact H2|]. split; [exact Hinp|].
    unfold has_loc. apply (renumber_nth rs 0) in Hr. simpl in Hr.
    eapply nth_error_In. exact Hr.
Qed.

(** *** index files *)

Lemma mapM_nth_ok : forall (files : list (list Z)) n, (n <= length files)%nat ->
  forall s, (forall i, s <= i < s + Z.of_nat n ->
       nth_error files (Z.to_nat i) <> None) -> 0 <= s -> 
  mapM (fun i => match nth_error files (Z.to_nat i) with
                 | Some f => Ok f | None => Err FileNotFoundError end) (zrange s (s + Z.of_nat n))
  = Ok (firstn n (skipn (Z.to_nat s) files)).
Proof.
  intros files. induction n as [|n IH]; intros Hn s Hs H0.
  - rewrite zrange_nil by lia. reflexivity.
  - rewrite zrange_cons by lia. cbn [mapM].
    destruct (nth_error files (Z.to_nat s)) as [f|] eqn:E; [|exfalso; apply (Hs s); [lia|exact E]].
    cbn [bind]. replace (s + Z.of_nat (S n)) with (s + 1 + Z.of_nat n) by lia.
    rewrite (IH ltac:(lia) (s + 1)); [|intros i Hi; apply Hs; lia|lia].
    cbn [bind]. f_equal.
    replace (Z.to_nat (s + 1)) with (S (Z.to_nat s)) by lia.
    clear - E. revert E. generalize (Z.to_nat s). induction files as [|x files IHf]; intros m E.
    + destruct m; discriminate.
    + destruct m as [|m]; simpl in E.
      * injection E as ->. reflexivity.
      * simpl. apply IHf. exact E.
Qed.

Lemma load_index_files_ok : forall files n, 0 <= n <= Z.of_nat (length files) ->
  load_index_files files n = Ok (firstn (Z.to_nat n) files).
Proof.
  intros files n Hn. unfold load_index_files.
  pose proof (mapM_nth_ok files (Z.to_nat n) ltac:(lia) 0) as H.
  simpl in H. rewrite Z2Nat.id in H by lia. apply H; [|lia].
  intros i Hi. apply nth_error_Some. lia.
Qed.

Lemma mapM_err_exists : forall A B (f : A -> res B) e l, 
  (forall a, f a = Err e \/ exists b, f a = Ok b) ->
  (exists a, In a l /\ f a = Err e) -> mapM f l = Err e.
Proof.
  intros A B f e. induction l as [|a l IH]; intros Hf (x & Hx & He); [destruct Hx|]. simpl.
  destruct (Hf a) as [E|[b E]]; rewrite E; simpl; [reflexivity|].
  rewrite IH; [reflexivity|exact Hf|]. destruct Hx as [<-|Hx]; [congruence|eauto].
Qed.

Lemma load_index_files_missing : forall files n, Z.of_nat (length files) < n ->
  load_index_files files n = Err FileNotFoundError.
Proof.
  intros files n Hn. unfold load_index_files. apply mapM_err_exists.
  - intros i. destruct (nth_error files (Z.to_nat i)); [right; eauto|left; reflexivity].
  - exists (Z.of_nat (length files)). split; [apply in_zrange; lia|].
    rewrite Nat2Z.id. rewrite (proj2 (nth_error_None files (length files))) by lia. reflexivity.
Qed.

Lemma zrange_rev_sorted : forall a b, StronglySorted Z.gt (rev (zrange a b)).
Proof.
  intros a b. destruct (Z_le_gt_dec a b) as [H|H].
  2:{ rewrite zrange_nil by lia. constructor. }
  remember (Z.to_nat (b - a)) as n eqn:En. revert b H En.
  induction n as [|n IH]; intros b H En.
  - rewrite zrange_nil by lia. constructor.
  - replace b with (b - 1 + 1) by lia. rewrite zrange_snoc by lia. rewrite rev_app_distr. simpl.
    constructor; [apply IH; lia|]. apply Forall_forall. intros x Hx.
    apply in_rev in Hx. apply in_zrange in Hx. lia.
Qed.

Lemma zrange_sorted : forall a b, StronglySorted Z.lt (zrange a b).
Proof.
  intros a b. destruct (Z_le_gt_dec a b) as [H|H].
  2:{ rewrite zrange_nil by lia. constructor. }
  remember (Z.to_nat (b - a)) as n eqn:En. revert a H En.
  induction n as [|n IH]; intros a H En.
  - rewrite zrange_nil by lia. constructor.
  - rewrite zrange_cons by lia. constructor; [apply IH; lia|].
    apply Forall_forall. intros x Hx. apply in_zrange in Hx. lia.
Qed.

Lemma reorder_from_ranges : forall arrays s arr, In arr (reorder_from s arrays) ->
  exists a b, arr = zrange a b.
Proof.
  induction arrays as [|a l IH]; intros s arr H; [destruct H|].
  destruct H as [<-|H]; [eauto|]. eapply IH; eauto.
Qed.
