(** C80: the averaged list of images; C81: averaged values. *)
From Coq Require Import ZArith QArith Lia Lqa Bool Ascii String Sorted List.
From Verif Require Import Base Str Table_Model Analysis_Model Avg_Model.
Import ListNotations.
Local Open Scope string_scope.
Local Open Scope Z_scope.

(** ** Specification *)

(** The images [10 + 2j] and, if there is one, [11 + 2j] (counted from 0). *)
Definition pair_at {A} (l : list A) (j : nat) : option (A * option A) :=
  match nth_error l (10 + 2 * j) with
  | Some a => Some (a, nth_error l (11 + 2 * j))
  | None => None
  end.

(** Mean of one or two numbers. *)
Definition mean2 (a : Q) (b : option Q) : Q := match b with Some b => ((a + b) / 2)%Q | None => a end.

(** Number of rows that [n] images leave. *)
Definition rows_left (n : nat) : nat := if (n <=? 10)%nat then n else 10 + (n - 9) / 2.

(** ** Pieces *)

Lemma pieces_upto_enough : forall A k n m (l : list A), (1 <= k)%nat -> (List.length l <= n)%nat -> (List.length l <= m)%nat ->
  pieces_upto n k l = pieces_upto m k l.
Proof.
  intros A k n. induction n as [|n IH]; intros m l Hk Hn Hm.
  - destruct l; [destruct m; reflexivity|simpl in Hn; lia].
  - destruct m as [|m]; [destruct l; [reflexivity|simpl in Hm; lia]|]. destruct l as [|a l]; [reflexivity|]. cbn [pieces_upto]. f_equal.
    apply IH; [exact Hk| |]; rewrite skipn_length; simpl List.length in *; lia.
Qed.

Lemma pieces2 : forall A (a b : A) l, pieces 2 (a :: b :: l) = [a; b] :: pieces 2 l.
Proof.
  intros A a b l. unfold pieces. change (List.length (a :: b :: l)) with (S (S (List.length l))).
  transitivity ([a; b] :: pieces_upto (S (List.length l)) 2 l); [reflexivity|]. f_equal. apply pieces_upto_enough; lia.
Qed.

Lemma two_steps : forall A (P : list A -> Prop), P [] -> (forall a, P [a]) -> (forall a b l, P l -> P (a :: b :: l)) -> forall l, P l.
Proof.
  intros A P H0 H1 H2. fix go 1. intros [|a [|b l]]; [exact H0|apply H1|]. apply H2. apply go.
Qed.

Lemma pieces2_nth : forall A (l : list A) j, nth_error (pieces 2 l) j =
  match nth_error l (2 * j) with
  | Some a => Some (match nth_error l (S (2 * j)) with Some b => [a; b] | None => [a] end)
  | None => None
  end.
Proof.
  intros A. apply (two_steps A (fun l => forall j, nth_error (pieces 2 l) j = _)).
  - intros j. destruct j; reflexivity.
  - intros a j. destruct j as [|j]; [reflexivity|]. replace (2 * S j)%nat with (S (S (2 * j))) by lia.
    cbn. destruct j; reflexivity.
  - intros a b l IH j. rewrite pieces2. destruct j as [|j]; [reflexivity|]. replace (2 * S j)%nat with (S (S (2 * j))) by lia. cbn [nth_error].
    rewrite IH. reflexivity.
Qed.

Lemma pieces2_concat : forall A (l : list A), concat (pieces 2 l) = l.
Proof.
  intros A. apply two_steps; [reflexivity|reflexivity|]. intros a b l IH. rewrite pieces2. cbn [concat app]. rewrite IH. reflexivity.
Qed.

Lemma pieces2_length : forall A (l : list A), List.length (pieces 2 l) = ((List.length l + 1) / 2)%nat.
Proof.
  intros A. apply two_steps; [reflexivity|reflexivity|]. intros a b l IH. rewrite pieces2. cbn [List.length]. rewrite IH.
  replace (S (S (List.length l)) + 1)%nat with (List.length l + 1 + 1 * 2)%nat by lia. rewrite Nat.div_add by lia. lia.
Qed.

Lemma pieces2_shape : forall A (l : list A) g, In g (pieces 2 l) -> (exists a, g = [a]) \/ (exists a b, g = [a; b]).
Proof.
  intros A l g H. apply In_nth_error in H. destruct H as (j & H). rewrite pieces2_nth in H.
  destruct (nth_error l (2 * j)) as [a|]; [|discriminate H]. destruct (nth_error l (S (2 * j))) as [b|]; apply Some_inj in H; subst g; [right|left]; eauto.
Qed.

Lemma skipn_nth : forall A (l : list A) n j, nth_error (skipn n l) j = nth_error l (n + j).
Proof. intros A l. induction l as [|a l IH]; intros [|n] j; try reflexivity; [destruct j; reflexivity|]. apply IH. Qed.

Lemma tail_pieces : forall A (l : list A) j, nth_error (pieces 2 (skipn 10 l)) j =
  match pair_at l j with Some (a, Some b) => Some [a; b] | Some (a, None) => Some [a] | None => None end.
Proof.
  intros A l j. rewrite pieces2_nth, !skipn_nth. unfold pair_at. replace (11 + 2 * j)%nat with (10 + S (2 * j))%nat by lia.
  destruct (nth_error l (10 + 2 * j)); [|reflexivity]. destruct (nth_error l (10 + S (2 * j))); reflexivity.
Qed.

Lemma length_rows : forall A (l : list A), (List.length (firstn 10 l) + List.length (pieces 2 (skipn 10 l)))%nat = rows_left (List.length l).
Proof.
  intros A l. rewrite firstn_length, pieces2_length, skipn_length. unfold rows_left. destruct (Nat.leb_spec (List.length l) 10) as [H|H].
  - replace (List.length l - 10)%nat with 0%nat by lia. simpl Nat.div. lia.
  - rewrite Nat.min_l by lia. f_equal. f_equal. lia.
Qed.

Lemma combine_fst : forall A B (l : list A) (m : list B), List.length l = List.length m -> map fst (combine l m) = l.
Proof. intros A B l. induction l as [|a l IH]; intros [|b m] H; try discriminate H; [reflexivity|]. cbn. rewrite IH by (injection H as H; exact H). reflexivity. Qed.
Lemma combine_snd : forall A B (l : list A) (m : list B), List.length l = List.length m -> map snd (combine l m) = m.
Proof. intros A B l. induction l as [|a l IH]; intros [|b m] H; try discriminate H; [reflexivity|]. cbn. rewrite IH by (injection H as H; exact H). reflexivity. Qed.

Lemma infos_avg_rows : forall l, map snd (infos_avg l) =
  (firstn 10 l ++ map (fun g => (join "/" (map fst g), mean_time g)) (pieces 2 (skipn 10 l)))%list.
Proof. intros l. unfold infos_avg, n_skip, n_summarize. apply combine_snd. rewrite length_zrange. lia. Qed.

Lemma mean_time_2 : forall a b : info, (mean_time [a; b] == mean2 (snd a) (Some (snd b)))%Q.
Proof. intros [s a] [t b]. unfold mean_time, mean2, qsum. cbn [map snd fold_right List.length]. change (inject_Z (Z.of_nat 2)) with 2%Q. field. Qed.
Lemma mean_time_1 : forall a : info, (mean_time [a] == snd a)%Q.
Proof. intros [s a]. unfold mean_time, qsum. cbn [map snd fold_right List.length]. change (inject_Z (Z.of_nat 1)) with 1%Q. field. Qed.

(** ** C80 *)

(** The averaged list: ids 1, 2, ...; the first ten images unchanged; then one
    row per pair of images with both names and the mean time.  A last image
    without partner is kept alone. *)
Theorem C80_averaged_image_list : forall l,
  let a := infos_avg l in
  map fst a = zrange 1 (Z.of_nat (rows_left (List.length l)) + 1) /\
  (forall j, (j < 10)%nat -> nth_error (map snd a) j = nth_error l j) /\
  (forall j, match pair_at l j with
             | Some (x, y) => exists t, nth_error (map snd a) (10 + j) =
                 Some (fst x ++ match y with Some y => "/" ++ fst y | None => "" end, t) /\
                 (t == mean2 (snd x) (option_map snd y))%Q
             | None => nth_error (map snd a) (10 + j) = None
             end).
Proof.
  intros l a. split; [|split].
  - unfold a, infos_avg. rewrite combine_fst by (rewrite length_zrange; lia). f_equal. f_equal. f_equal.
    rewrite app_length, map_length. exact (length_rows _ l).
  - intros j Hj. unfold a. rewrite infos_avg_rows. destruct (Nat.lt_ge_cases j (List.length l)) as [L|L].
    + rewrite nth_error_app1 by (rewrite firstn_length; lia). clear a. revert l L Hj. generalize 10%nat. intros n l. revert n j.
      induction l as [|x l IH]; intros [|n] [|j] L Hj; try (cbn in *; lia); try reflexivity. cbn [firstn nth_error]. apply IH; cbn in *; lia.
    + replace (skipn 10 l) with (@nil info) by (symmetry; apply skipn_all2; lia). cbn [pieces pieces_upto List.length map]. rewrite app_nil_r.
      rewrite firstn_all2 by lia. reflexivity.
  - intros j. unfold a. rewrite infos_avg_rows. destruct (Nat.le_gt_cases 10 (List.length l)) as [L|L].
    + rewrite nth_error_app2 by (rewrite firstn_length; lia). rewrite firstn_length, Nat.min_l by lia. replace (10 + j - 10)%nat with j by lia.
      rewrite nth_error_map, tail_pieces. destruct (pair_at l j) as [[x [y|]]|]; [| |reflexivity].
      * eexists. split; [reflexivity|]. apply mean_time_2.
      * eexists. split; [|apply mean_time_1]. cbn [option_map map join String.concat]. f_equal. f_equal. clear. induction (fst x) as [|c s IH]; [reflexivity|]. cbn [String.append]. rewrite <- IH. reflexivity.
    + assert (N : pair_at l j = None). { unfold pair_at. replace (nth_error l (10 + 2 * j)) with (@None info); [reflexivity|]. symmetry. apply nth_error_None. lia. }
      rewrite N. apply nth_error_None. rewrite app_length, map_length, length_rows. unfold rows_left. destruct (Nat.leb_spec (List.length l) 10); lia.
Qed.
Print Assumptions C80_averaged_image_list.

(** Every image is named in exactly one row, and in the old order. *)
Theorem C80_every_image_once : forall l, Forall (fun i => has_char "/"%char (fst i) = false) l ->
  flat_map (fun r => split_on "/"%char (fst (snd r))) (infos_avg l) = map fst l.
Proof.
  intros l H. transitivity (flat_map (fun r => split_on "/"%char (fst r)) (map snd (infos_avg l))).
  { rewrite !flat_map_concat_map, map_map. reflexivity. }
  rewrite infos_avg_rows, flat_map_app.
  assert (H1 : Forall (fun i => has_char "/"%char (fst i) = false) (firstn 10 l) /\ Forall (fun i => has_char "/"%char (fst i) = false) (skipn 10 l)).
  { apply Forall_app. rewrite firstn_skipn. exact H. }
  destruct H1 as (H1 & H2). transitivity (map fst (firstn 10 l) ++ map fst (skipn 10 l))%list; [|rewrite <- map_app, firstn_skipn; reflexivity]. f_equal.
  - clear H H2. induction (firstn 10 l) as [|i m IH]; [reflexivity|]. inversion H1 as [|? ? Hi Hm]; subst. specialize (IH Hm). cbn [flat_map map]. rewrite IH, split_on_no_char by exact Hi. reflexivity.
  - revert H2. generalize (skipn 10 l). apply (two_steps info (fun m => Forall (fun i => has_char "/"%char (fst i) = false) m ->
      flat_map (fun r => split_on "/"%char (fst r)) (map (fun g => (join "/" (map fst g), mean_time g)) (pieces 2 m)) = map fst m)).
    + reflexivity.
    + intros a Ha. inversion Ha as [|? ? A _]; subst. cbn. rewrite split_on_no_char by exact A. reflexivity.
    + intros a b m IH Hm. inversion Hm as [|? ? A Hm']; subst. inversion Hm' as [|? ? B Hm'']; subst. rewrite pieces2. cbn [map flat_map]. rewrite (IH Hm'').
      cbn [fst]. rewrite (split_on_join "/"%char [fst a; fst b]); [reflexivity|discriminate|]. repeat constructor; assumption.
Qed.
Print Assumptions C80_every_image_once.

(** Thirteen images: ten rows, one pair and a single one. *)
Definition ex_infos : list info :=
  map (fun k => ("i" ++ str_of_Z k, inject_Z (3 * k))) (zrange 1 14).
Example C80_example :
  map (fun r => (fst r, fst (snd r))) (skipn 9 (infos_avg ex_infos)) = [(10, "i10"); (11, "i11/i12"); (12, "i13")] /\
  forallb (fun p => Qeq_bool (fst p) (snd p)) (combine (map (fun r => snd (snd r)) (skipn 9 (infos_avg ex_infos))) [30%Q; (69 # 2)%Q; 39%Q]) = true /\
  Forall (fun i => has_char "/"%char (fst i) = false) ex_infos.
Proof. split; [vm_compute; reflexivity|]. split; [vm_compute; reflexivity|]. vm_compute. repeat constructor. Qed.

(** ** C81 *)

(** The rows of one LED of one array. *)
Definition led_rows (arr led : Z) (t : list prow) : list prow :=
  filter (fun r => (p_arr r =? arr) && (p_led r =? led)) t.

Lemma key_eqb_spec : forall a b, key_eqb a b = true <-> a = b.
Proof.
  intros [a1 a2] [b1 b2]. unfold key_eqb. cbn [fst snd]. rewrite andb_true_iff, !Z.eqb_eq. split; [intros (-> & ->); reflexivity|intros H; injection H as -> ->; split; reflexivity].
Qed.

Lemma add_key_in : forall k ks x, In x (add_key k ks) <-> x = k \/ In x ks.
Proof.
  intros k ks x. induction ks as [|y ks IH]; cbn [add_key].
  - cbn. intuition congruence.
  - destruct (key_ltb k y); [cbn; intuition congruence|]. destruct (key_eqb k y) eqn:E; [apply key_eqb_spec in E; subst; cbn; intuition congruence|]. cbn [In]. rewrite IH. intuition congruence.
Qed.

Lemma keys_in : forall t k, In k (fold_right add_key [] (map row_key t)) <-> exists r, In r t /\ row_key r = k.
Proof.
  intros t k. induction t as [|r t IH]; cbn [map fold_right].
  - split; [intros []|intros (r & [] & _)].
  - rewrite add_key_in, IH. split.
    + intros [->|(r' & H & E)]; [exists r; split; [left; reflexivity|reflexivity]|exists r'; split; [right; exact H|exact E]].
    + intros (r' & [<-|H] & E); [left; symmetry; exact E|right; exists r'; split; assumption].
Qed.

Definition key_lt (a b : Z * Z) : Prop := fst a < fst b \/ (fst a = fst b /\ snd a < snd b).

Lemma key_ltb_spec : forall a b, key_ltb a b = true <-> key_lt a b.
Proof. intros [a1 a2] [b1 b2]. unfold key_ltb, key_lt. cbn [fst snd]. rewrite orb_true_iff, andb_true_iff, Z.ltb_lt, Z.eqb_eq, Z.ltb_lt. tauto. Qed.

Lemma add_key_sorted : forall k ks, Sorted.StronglySorted key_lt ks -> Sorted.StronglySorted key_lt (add_key k ks).
Proof.
  intros k ks H. induction H as [|y ks Hs IH F]; cbn [add_key].
  - repeat constructor.
  - destruct (key_ltb k y) eqn:L.
    + apply key_ltb_spec in L. constructor; [constructor; assumption|]. constructor; [exact L|]. eapply Forall_impl; [|exact F].
      intros [z1 z2]. destruct k, y. unfold key_lt in *. cbn [fst snd] in *. lia.
    + destruct (key_eqb k y) eqn:E; [constructor; assumption|]. constructor; [exact IH|]. apply Forall_forall. intros x Hx. apply add_key_in in Hx.
      destruct Hx as [->|Hx]; [|rewrite Forall_forall in F; apply F; exact Hx].
      assert (N : ~ key_lt k y) by (intros C; apply key_ltb_spec in C; congruence). assert (N' : k <> y) by (intros C; apply key_eqb_spec in C; congruence).
      destruct k as [k1 k2], y as [y1 y2]. unfold key_lt in *. cbn [fst snd] in *. assert (k1 = y1 -> k2 <> y2) by (intros -> ->; apply N'; reflexivity). lia.
Qed.

Lemma keys_nodup : forall t, NoDup (fold_right add_key [] (map row_key t)).
Proof.
  intros t. assert (S : Sorted.StronglySorted key_lt (fold_right add_key [] (map row_key t))).
  { induction t as [|r t IH]; [constructor|]. cbn [map fold_right]. apply add_key_sorted. exact IH. }
  induction S as [|k ks Hs IH F]; constructor; [|exact IH]. intros C. rewrite Forall_forall in F. specialize (F k C). destruct k. unfold key_lt in F. cbn in F. lia.
Qed.

Lemma led_rows_key : forall arr led t, led_rows arr led t = filter (fun r => key_eqb (row_key r) (arr, led)) t.
Proof. reflexivity. Qed.

Lemma sum_to_int_key : forall l l', mapM sum_to_int l = Ok l' -> forall arr led, mapM sum_to_int (led_rows arr led l) = Ok (led_rows arr led l').
Proof.
  intros l. induction l as [|r l IH]; intros l' H arr led.
  - apply Ok_inj in H. subst l'. reflexivity.
  - cbn [mapM] in H. destruct (sum_to_int r) as [r'|] eqn:E; [|discriminate H]. cbn [bind] in H. destruct (mapM sum_to_int l) as [l''|] eqn:F; [|discriminate H].
    apply Ok_inj in H. subst l'. specialize (IH l'' eq_refl arr led).
    assert (K : p_arr r' = p_arr r /\ p_led r' = p_led r). { unfold sum_to_int in E. destruct (p_sum r); [|discriminate E]. apply Ok_inj in E. subst r'. split; reflexivity. }
    unfold led_rows in *. cbn [filter]. rewrite (proj1 K), (proj2 K). destruct ((p_arr r =? arr) && (p_led r =? led)); [|exact IH].
    cbn [mapM]. rewrite E. cbn [bind]. rewrite IH. reflexivity.
Qed.

Lemma avg_group_key : forall k g, (forall r, In r g -> row_key r = k) -> forall r, In r (avg_group (k, g)) -> row_key r = k.
Proof.
  intros [arr led] g H r Hr. unfold avg_group in Hr. apply in_app_or in Hr. destruct Hr as [Hr|Hr].
  - apply H. rewrite <- (firstn_skipn n_skip g). apply in_or_app. left. exact Hr.
  - apply in_map_iff in Hr. destruct Hr as ([i x] & <- & _). reflexivity.
Qed.

Lemma filter_none : forall A (f : A -> bool) l, (forall a, In a l -> f a = false) -> filter f l = [].
Proof. intros A f l H. induction l as [|a l IH]; [reflexivity|]. cbn [filter]. rewrite (H a (or_introl eq_refl)). apply IH. intros b Hb. apply H. right. exact Hb. Qed.
Lemma filter_all : forall A (f : A -> bool) l, (forall a, In a l -> f a = true) -> filter f l = l.
Proof. intros A f l H. induction l as [|a l IH]; [reflexivity|]. cbn [filter]. rewrite (H a (or_introl eq_refl)). f_equal. apply IH. intros b Hb. apply H. right. exact Hb. Qed.

Lemma flat_groups : forall t arr led, led_rows arr led (flat_map avg_group (row_groups t)) = 
  match led_rows arr led t with [] => [] | g => avg_group ((arr, led), g) end.
Proof.
  intros t arr led. unfold row_groups. set (ks := fold_right add_key [] (map row_key t)).
  assert (Nd : NoDup ks) by apply keys_nodup.
  assert (Hin : In (arr, led) ks <-> led_rows arr led t <> []).
  { unfold ks. rewrite keys_in. split.
    - intros (r & Hr & E) C. assert (X : In r (led_rows arr led t)); [|rewrite C in X; destruct X]. rewrite led_rows_key. apply filter_In. split; [exact Hr|]. apply key_eqb_spec. exact E.
    - intros C. destruct (led_rows arr led t) as [|r l] eqn:E; [congruence|]. exists r. assert (X : In r (led_rows arr led t)) by (rewrite E; left; reflexivity).
      rewrite led_rows_key in X. apply filter_In in X. destruct X as (X & Y). split; [exact X|]. apply key_eqb_spec. exact Y. }
  assert (G : forall ks, NoDup ks -> led_rows arr led (flat_map avg_group (map (fun k => (k, filter (fun r => key_eqb (row_key r) k) t)) ks)) =
     if existsb (key_eqb (arr, led)) ks then avg_group ((arr, led), led_rows arr led t) else []).
  { clear ks Nd Hin. intros ks Nd. induction Nd as [|k ks Hk Nd IH]; [reflexivity|]. cbn [map flat_map existsb]. rewrite led_rows_key, filter_app, <- !led_rows_key, IH.
    assert (A : forall r, In r (avg_group (k, filter (fun r => key_eqb (row_key r) k) t)) -> row_key r = k).
    { apply avg_group_key. intros r Hr. apply filter_In in Hr. apply key_eqb_spec. exact (proj2 Hr). }
    destruct (key_eqb (arr, led) k) eqn:E.
    - apply key_eqb_spec in E. subst k. cbn [orb]. destruct (existsb (key_eqb (arr, led)) ks) eqn:X.
      + apply existsb_exists in X. destruct X as (x & Hx & E). apply key_eqb_spec in E. subst x. contradiction.
      + rewrite app_nil_r. rewrite led_rows_key. rewrite filter_all; [reflexivity|]. intros r Hr. apply key_eqb_spec. apply A. exact Hr.
    - cbn [orb]. rewrite led_rows_key, filter_none; [reflexivity|]. intros r Hr. rewrite (A r Hr). destruct (key_eqb k (arr, led)) eqn:Y; [|reflexivity].
      apply key_eqb_spec in Y. subst k. assert (Z : key_eqb (arr, led) (arr, led) = true) by (apply key_eqb_spec; reflexivity). congruence. }
  rewrite (G ks Nd). destruct (existsb (key_eqb (arr, led)) ks) eqn:X.
  - apply existsb_exists in X. destruct X as (x & Hx & E). apply key_eqb_spec in E. subst x. apply Hin in Hx. destruct (led_rows arr led t); [congruence|reflexivity].
  - destruct (led_rows arr led t) as [|r l] eqn:E; [reflexivity|]. exfalso. assert (Y : In (arr, led) ks) by (apply Hin; discriminate).
    assert (Z : existsb (key_eqb (arr, led)) ks = true) by (apply existsb_exists; exists (arr, led); split; [exact Y|apply key_eqb_spec; reflexivity]). congruence.
Qed.

Lemma mapM_nth : forall A B (f : A -> res B) l l', mapM f l = Ok l' -> forall j, 
  match nth_error l j with Some a => exists b, nth_error l' j = Some b /\ f a = Ok b | None => nth_error l' j = None end.
Proof.
  intros A B f l. induction l as [|a l IH]; intros l' H j; cbn [mapM] in H.
  - apply Ok_inj in H. subst l'. destruct j; reflexivity.
  - destruct (f a) as [b|] eqn:E; [|discriminate H]. cbn [bind] in H. destruct (mapM f l) as [bs|] eqn:F; [|discriminate H]. apply Ok_inj in H. subst l'.
    destruct j as [|j]; cbn [nth_error]; [exists b; split; [reflexivity|exact E]|]. apply IH. reflexivity.
Qed.

Lemma nth_combine_some : forall A B (l : list A) (m : list B) j a b, nth_error l j = Some a -> nth_error m j = Some b -> nth_error (combine l m) j = Some (a, b).
Proof. intros A B l. induction l as [|x l IH]; intros [|y m] [|j] a b H K; try discriminate; cbn in *; [congruence|]. apply IH; assumption. Qed.

Lemma column_means_nth : forall n ls k, (k < n)%nat -> nth_error (column_means n ls) k = Some (mean (map (fun l : list cell => match nth_error l k with Some c => c | None => None end) ls)).
Proof.
  intros n. induction n as [|n IH]; intros ls k Hk; [lia|]. destruct k as [|k]; cbn [column_means nth_error].
  - f_equal. f_equal. apply map_ext. intros [|c l]; reflexivity.
  - rewrite IH by lia. f_equal. f_equal. rewrite map_map. apply map_ext. intros [|c l]; [destruct k; reflexivity|reflexivity].
Qed.

Lemma avg_rest : forall gr x y k v w arr led i, gr = match y with Some b => [x; b] | None => [x] end ->
  nth_error (p_rest x) k = Some (Some v) -> option_map (fun r' => nth_error (p_rest r') k) y = option_map (fun w' => Some (Some w')) w ->
  exists m, nth_error (p_rest (avg_row arr led i gr)) k = Some (Some m) /\ (m == mean2 v w)%Q.
Proof.
  intros gr x y k v w arr led i -> Hv Hw. assert (Hk : (k < List.length (p_rest x))%nat) by (apply nth_error_Some; congruence).
  destruct y as [y|]; cbn [option_map] in Hw.
  - destruct w as [w|]; [|discriminate Hw]. apply Some_inj in Hw.
    change (p_rest (avg_row arr led i [x; y])) with (column_means (List.length (p_rest x)) [p_rest x; p_rest y]).
    rewrite column_means_nth by exact Hk. cbn [map]. rewrite Hv, Hw. exists ((v + (w + 0)) / 2)%Q. split; [reflexivity|]. unfold mean2. field.
  - destruct w as [w|]; [discriminate Hw|].
    change (p_rest (avg_row arr led i [x])) with (column_means (List.length (p_rest x)) [p_rest x]).
    rewrite column_means_nth by exact Hk. cbn [map]. rewrite Hv. exists ((v + 0) / 1)%Q. split; [reflexivity|]. unfold mean2. field.
Qed.

(** The averaging itself would be right: for every LED the first ten rows are
    kept, then each row is the mean of two images (truncated to an integer, as
    the sums are), with the same ids as the rows of the averaged image list; the other columns
    are means, too. *)
Theorem C81_averaged_rows : forall t a arr led, averaged t = Ok a ->
  let g := led_rows arr led t in let h := led_rows arr led a in
  List.length h = rows_left (List.length g) /\
  (forall j r, (j < 10)%nat -> nth_error g j = Some r -> exists q, p_sum r = Some q /\
     nth_error h j = Some (PRow (p_img r) led arr (Some (inject_Z (Qtrunc q))) (p_rest r))) /\
  (forall j x y, pair_at g j = Some (x, y) -> exists r q, nth_error h (10 + j) = Some r /\
     p_img r = 11 + Z.of_nat j /\ p_led r = led /\ p_arr r = arr /\ p_sum r = Some (inject_Z (Qtrunc q)) /\
     (forall v w, p_sum x = Some v -> option_map p_sum y = option_map Some w -> (q == mean2 v w)%Q) /\
     (forall k v w, nth_error (p_rest x) k = Some (Some v) ->
        option_map (fun r' => nth_error (p_rest r') k) y = option_map (fun w' => Some (Some w')) w ->
        exists m, nth_error (p_rest r) k = Some (Some m) /\ (m == mean2 v w)%Q)).
Proof.
  intros t a arr led H g h. unfold averaged in H.
  assert (M : mapM sum_to_int (flat_map avg_group (row_groups t)) = Ok a) by (destruct (row_groups t); [discriminate H|exact H]). clear H.
  pose proof (sum_to_int_key _ _ M arr led) as K. rewrite flat_groups in K. fold g h in K.
  assert (Kg : forall r, In r g -> p_arr r = arr /\ p_led r = led).
  { intros r Hr. apply filter_In in Hr. destruct Hr as (_ & Hr). apply andb_true_iff in Hr. rewrite !Z.eqb_eq in Hr. exact Hr. }
  clearbody g h. destruct g as [|r0 g0] eqn:Eg.
  { apply Ok_inj in K. subst h. split; [reflexivity|]. split; [intros [|j] r _ C; discriminate C|intros [|j] x y C; discriminate C]. }
  rewrite <- Eg in *. clear r0 g0 Eg.
  pose proof (mapM_nth _ _ _ _ _ K) as N. cbn [avg_group] in N.
  set (tl := pieces n_summarize (skipn n_skip g)) in *.
  set (ids := zrange (Z.of_nat n_skip + 1) (Z.of_nat n_skip + Z.of_nat (List.length tl) + 1)) in *.
  assert (Li : List.length ids = List.length tl) by (unfold ids; rewrite length_zrange; lia).
  split; [|split].
  - assert (L : List.length h = List.length (avg_group ((arr, led), g))).
    { clear - K. revert h K. generalize (avg_group ((arr, led), g)). intros l. induction l as [|x l IH]; intros h K; cbn [mapM] in K; [apply Ok_inj in K; subst h; reflexivity|].
      destruct (sum_to_int x); [|discriminate K]. cbn [bind] in K. destruct (mapM sum_to_int l); [|discriminate K]. apply Ok_inj in K. subst h. cbn. f_equal. apply IH. reflexivity. }
    rewrite L. unfold avg_group. fold tl. fold ids. rewrite app_length, map_length, combine_length, Li, Nat.min_id. apply length_rows.
  - intros j r Hj Hr. specialize (N j).
    assert (Hl : (j < List.length g)%nat) by (apply nth_error_Some; congruence).
    rewrite nth_error_app1 in N by (rewrite firstn_length; change n_skip with 10%nat; lia).
    assert (Hf : nth_error (firstn n_skip g) j = Some r).
    { rewrite <- Hr. clear - Hj. change n_skip with 10%nat. revert g Hj. generalize 10%nat. intros n g. revert n j. induction g as [|x g IH]; intros [|n] [|j] Hj; try lia; try reflexivity. cbn. apply IH. lia. }
    rewrite Hf in N. destruct N as (b & B1 & B2). unfold sum_to_int in B2. destruct (p_sum r) as [q|] eqn:Q; [|discriminate B2]. apply Ok_inj in B2.
    exists q. split; [reflexivity|]. destruct (Kg r) as (K1 & K2); [eapply nth_error_In; exact Hr|]. rewrite <- K1, <- K2. rewrite B1, <- B2. reflexivity.
  - intros j x y Hp. specialize (N (10 + j)%nat).
    assert (Hl : (10 + 2 * j < List.length g)%nat). { unfold pair_at in Hp. apply nth_error_Some. destruct (nth_error g (10 + 2 * j)); congruence. }
    rewrite nth_error_app2 in N by (rewrite firstn_length; change n_skip with 10%nat; lia).
    rewrite firstn_length in N. change n_skip with 10%nat in N. rewrite Nat.min_l in N by lia. replace (10 + j - 10)%nat with j in N by lia.
    pose proof (tail_pieces _ g j) as P. rewrite Hp in P. fold tl in P.
    set (gr := match y with Some b => [x; b] | None => [x] end).
    assert (P' : nth_error tl j = Some gr) by (unfold gr; destruct y; exact P). clear P.
    assert (Hj : (j < List.length tl)%nat) by (apply nth_error_Some; congruence).
    assert (I : nth_error ids j = Some (11 + Z.of_nat j)). { unfold ids. rewrite nth_error_zrange by (change n_skip with 10%nat; lia). f_equal; change n_skip with 10%nat; lia. }
    rewrite nth_error_map, (nth_combine_some _ _ _ _ _ _ _ I P') in N. cbn [option_map fst snd] in N. destruct N as (b & B1 & B2).
    unfold sum_to_int in B2. cbn [p_sum avg_row] in B2. destruct (mean (map p_sum gr)) as [q|] eqn:Q; [|discriminate B2]. apply Ok_inj in B2. subst b.
    eexists. exists q. split; [exact B1|]. repeat (split; [reflexivity|]). split; [|intros k v w Hv Hw; exact (avg_rest gr x y k v w arr led (11 + Z.of_nat j) eq_refl Hv Hw)].
    intros v w Hv Hw. subst gr. unfold mean in Q. destruct y as [y|]; cbn [option_map] in Hw.
    + destruct w as [w|]; [|discriminate Hw]. apply Some_inj in Hw. cbn [map] in Q. rewrite Hv, Hw in Q. cbn [numbers flat_map app] in Q. apply Some_inj in Q. rewrite <- Q. unfold mean2, qsum. cbn [fold_right List.length]. change (inject_Z (Z.of_nat 2)) with 2%Q. field.
    + destruct w as [w|]; [discriminate Hw|]. cbn [map] in Q. rewrite Hv in Q. cbn [numbers flat_map app] in Q. apply Some_inj in Q. rewrite <- Q. unfold mean2, qsum. cbn [fold_right List.length]. change (inject_Z (Z.of_nat 1)) with 1%Q. field.
Qed.
Print Assumptions C81_averaged_rows.

(** A call of the analysis program with its inputs at that time. *)
Record call := Call { k_average : bool; k_create : res (list prow); k_infos : list info }.

(** The files after a history of calls. *)
Definition after {C} (compute : list prow -> res (list C)) (calls : list call) (d : disk) : disk :=
  fold_left (fun d c => snd (analysis compute (k_average c) (k_create c) (k_infos c) d)) calls d.

Lemma read_avg_none : forall create d, avg (snd (read_avg create d)) = avg d.
Proof.
  intros create d. unfold read_avg, average_all_fitpar, read_plain, write_avg. destruct (plain d); [reflexivity|]. destruct create as [t|]; [|reflexivity].
  destruct (averaged t); reflexivity.
Qed.

Lemma analysis_avg : forall C (compute : list prow -> res (list C)) average create l d, avg (snd (analysis compute average create l d)) = avg d.
Proof.
  intros C compute average create l d. unfold analysis, load_table. destruct average.
  - pose proof (read_avg_none create d) as H. destruct (read_avg create d) as [[t|e] d']; exact H.
  - unfold read_plain. destruct (plain d); [reflexivity|]. destruct create; reflexivity.
Qed.

(** No history of calls ever writes an averaged table, so post-processing with
    average_images = True always fails. *)
Theorem C81_averages_are_never_stored : forall C (compute : list prow -> res (list C)) calls d l,
  avg d = None ->
  avg (after compute calls d) = None /\
  sim_init true l (after compute calls d) = Err FileNotFoundError.
Proof.
  intros C compute calls d l H.
  assert (A : avg (after compute calls d) = None).
  { revert d H. induction calls as [|c calls IH]; intros d H; [exact H|]. unfold after in *. cbn [fold_left]. apply IH. rewrite analysis_avg. exact H. }
  split; [exact A|]. unfold sim_init, experiment_times. destruct (infos (after compute calls d)); cbn [bind]; [rewrite A|]; reflexivity.
Qed.
Print Assumptions C81_averages_are_never_stored.

(** What an analysis with average_images = True works on: if the table of the
    channel exists, its single images; otherwise the call fails - and leaves
    that table behind, so that the next call goes ahead. *)
Theorem C81_single_images_are_used : forall C (compute : list prow -> res (list C)) create l d,
  match plain d with
  | Some t => load_table true create l d = (Ok t, Disk (plain d) (avg d) (Some (infos_avg l)))
  | None => (exists e, fst (analysis compute true create l d) = Err e) /\
            (forall t, create = Ok t -> plain (snd (analysis compute true create l d)) = Some t)
  end.
Proof.
  intros C compute create l d. destruct (plain d) as [t|] eqn:P; [unfold load_table, read_avg; rewrite P; rewrite <- P; destruct d; reflexivity|].
  unfold analysis, load_table, read_avg, average_all_fitpar, read_plain, write_avg. rewrite P. destruct create as [t|e].
  - split; [destruct (averaged t); eexists; reflexivity|]. intros t' E. apply Ok_inj in E. subst t'. destruct (averaged t); reflexivity.
  - split; [eexists; reflexivity|discriminate].
Qed.
Print Assumptions C81_single_images_are_used.

(** The result can then be saved only for at most 11 images, and it is the one
    of the analysis without averaging. *)
Theorem C81_saving_fails_from_12_images : forall C (compute : list prow -> res (list C)) create l d t cs,
  plain d = Some t -> compute t = Ok cs -> List.length cs = List.length l ->
  ((12 <= List.length l)%nat -> fst (analysis compute true create l d) = Err ValueError) /\
  ((List.length l <= 11)%nat -> exists r r', fst (analysis compute true create l d) = Ok r /\ fst (analysis compute false create l d) = Ok r' /\
     Forall2 (fun a b => (fst a == fst b)%Q /\ snd a = snd b) r r').
Proof.
  intros C compute create l d t cs P Hc L.
  assert (A : fst (analysis compute true create l d) = column_stack (map (fun r => snd (snd r)) (infos_avg l)) cs).
  { unfold analysis, load_table, read_avg. rewrite P. cbn [fst snd]. rewrite Hc. reflexivity. }
  assert (B : fst (analysis compute false create l d) = column_stack (map snd l) cs).
  { unfold analysis, load_table, read_plain. rewrite P. cbn [fst snd]. rewrite Hc. reflexivity. }
  assert (Ln : List.length (infos_avg l) = rows_left (List.length l)).
  { rewrite <- (map_length snd), infos_avg_rows, app_length, map_length. apply length_rows. }
  rewrite A, B. unfold column_stack. rewrite !map_length, Ln, L. unfold rows_left. split.
  - intros H. destruct (Nat.leb_spec (List.length l) 10) as [G|G]; [lia|]. destruct (Nat.eqb_spec (10 + (List.length l - 9) / 2) (List.length l)) as [E|E]; [|reflexivity].
    exfalso. pose proof (Nat.div_lt_upper_bound (List.length l - 9) 2 (List.length l - 10) ltac:(lia) ltac:(lia)). lia.
  - intros H. assert (E : (if (List.length l <=? 10)%nat then List.length l else (10 + (List.length l - 9) / 2)%nat) = List.length l).
    { destruct (Nat.leb_spec (List.length l) 10) as [G|G]; [reflexivity|]. replace (List.length l) with 11%nat by lia. reflexivity. }
    rewrite E, !Nat.eqb_refl. eexists. eexists. split; [reflexivity|]. split; [reflexivity|].
    assert (F : Forall2 Qeq (map (fun r => snd (snd r)) (infos_avg l)) (map snd l)).
    { rewrite <- (map_map snd snd), infos_avg_rows. rewrite map_app. rewrite <- (firstn_skipn 10 l) at 3. rewrite map_app. apply Forall2_app.
      - generalize (firstn 10 l). intros m. induction m as [|x m IH]; constructor; [reflexivity|exact IH].
      - assert (S : (List.length (skipn 10 l) <= 1)%nat) by (rewrite skipn_length; lia). destruct (skipn 10 l) as [|x [|y m]]; [constructor| |cbn in S; lia].
        cbn [pieces List.length pieces_upto firstn skipn map]. constructor; [|constructor]. cbn [snd]. apply mean_time_1. }
    clear - F L. assert (L' : List.length (map (@snd string Q) l) = List.length cs) by (rewrite map_length; congruence). clear L. revert cs L'.
    induction F as [|a b m m' Hab F IH]; intros cs L; destruct cs as [|c cs]; try discriminate L; cbn [combine]; constructor; [split; [exact Hab|reflexivity]|]. apply IH. injection L as L. exact L.
Qed.
Print Assumptions C81_saving_fails_from_12_images.

(** Two LEDs in twelve images.  The first call with averaging fails, the second
    one reads single images and cannot save the twelve results in eleven rows. *)
Definition ex_rows : list prow :=
  flat_map (fun i => [PRow i 0 0 (Some (inject_Z (100 + i))) []; PRow i 1 0 (Some (inject_Z (200 + 2 * i))) [Some 1%Q]]) (zrange 1 13).
Definition ex_compute (t : list prow) : res (list Z) := Ok (keys (map p_img t)).
Example C81_example : let l := firstn 12 ex_infos in let d0 := Disk None None None in
  let first := analysis ex_compute true (Ok ex_rows) l d0 in
  let second := analysis ex_compute true (Ok ex_rows) l (snd first) in
  fst first = Err AttributeError /\ fst second = Err ValueError /\ infos (snd second) = Some (infos_avg l) /\
  (exists a, averaged ex_rows = Ok a /\ map p_img (led_rows 0 1 a) = zrange 1 12 /\ List.length (led_rows 0 1 a) = 11%nat /\
     exists r, nth_error (led_rows 0 1 a) 10 = Some r /\ p_sum r = Some (inject_Z 223)) /\
  sim_init true l (after ex_compute [Call true (Ok ex_rows) l; Call true (Ok ex_rows) l; Call false (Ok ex_rows) l] d0) = Err FileNotFoundError.
Proof.
  intros l d0 first second. split; [vm_compute; reflexivity|]. split; [vm_compute; reflexivity|]. split; [vm_compute; reflexivity|]. split; [|vm_compute; reflexivity].
  eexists. split; [vm_compute; reflexivity|]. split; [vm_compute; reflexivity|]. split; [vm_compute; reflexivity|]. eexists. split; vm_compute; reflexivity.
Qed.
