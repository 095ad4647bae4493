(** Properties C85 - C88: images, times and LED parameters in post-processing. *)
From Coq Require Import ZArith QArith Lqa Lia Bool String List Sorted Permutation.
From Verif Require Import Base Sim_Model Sim_Props Read_Model Read_Props Params_Model.
Import ListNotations.
Local Open Scope Z_scope.

(** ** C85 *)

(** The image of a time is the first one of the list with this time. *)
Theorem C85_first_image_of_a_time :
  forall images t,
  (forall name, get_image_name_from_time images t = Ok name <->
     exists before im after, images = (before ++ im :: after)%list /\ i_name im = name /\ (i_time im == t)%Q /\
                             (forall x, In x before -> ~ (i_time x == t)%Q)) /\
  (get_image_name_from_time images t = Err IndexError <-> (forall x, In x images -> ~ (i_time x == t)%Q)) /\
  (forall e, get_image_name_from_time images t = Err e -> e = IndexError).
Proof.
  intros images t. unfold get_image_name_from_time.
  induction images as [|im images (IH1 & IH2 & IH3)].
  - cbn. split; [|split].
    + intros name. split; [discriminate|]. intros ([|? ?] & ? & ? & E & _); discriminate.
    + split; [intros _ x []|reflexivity].
    + congruence.
  - cbn [filter]. destruct (Qeq_bool (i_time im) t) eqn:E.
    + apply Qeq_bool_eq in E. repeat split; try discriminate.
      * intros H. apply Ok_inj in H. exists [], im, images. repeat split; try assumption. intros x [].
      * intros (before & x & after & Eq & Nm & Ti & Hb). destruct before as [|y before].
        -- assert (im = x) by (cbn in Eq; congruence). subst. reflexivity.
        -- exfalso. assert (im = y) by (cbn in Eq; congruence). subst y. apply (Hb im (or_introl eq_refl)). exact E.
      * intros H. exfalso. apply (H im (or_introl eq_refl)). exact E.
    + apply Qeq_bool_neq in E. split; [|split].
      * intros name. rewrite IH1. split.
        -- intros (b & x & a & Eq & Nm & Ti & Hb). exists (im :: b), x, a. repeat split; try assumption.
           ++ rewrite Eq. reflexivity.
           ++ intros y [<-|Hy]; [exact E|apply Hb; exact Hy].
        -- intros (b & x & a & Eq & Nm & Ti & Hb). destruct b as [|y b].
           ++ exfalso. assert (im = x) by (cbn in Eq; congruence). subst x. apply E. exact Ti.
           ++ exists b, x, a. repeat split; try assumption; [cbn in Eq; congruence|]. intros z Hz. apply Hb. right. exact Hz.
      * rewrite IH2. split; intros H x; [intros [<-|Hx]; [exact E|apply H; exact Hx]|]. intros Hx. apply H. right. exact Hx.
      * exact IH3.
Qed.
Print Assumptions C85_first_image_of_a_time.

(** The coefficients stored for a time belong to the image of that time, if the
    result file was written for the same list of images (one row of coefficients
    per image).  Later images with the same time cannot be addressed. *)
Theorem C85_coefficients_belong_to_the_image :
  forall images coefs f t,
  length coefs = length images -> f_rows f = combine (map i_time images) coefs ->
  match get_image_name_from_time images t, saved f t with
  | Ok name, Some v =>
      exists k im, nth_error images k = Some im /\ nth_error coefs k = Some v /\ i_name im = name /\
                   (i_time im == t)%Q /\
                   (forall k' im', (k' < k)%nat -> nth_error images k' = Some im' -> ~ (i_time im' == t)%Q)
  | Err _, None => forall im, In im images -> ~ (i_time im == t)%Q
  | _, _ => False
  end.
Proof.
  intros images coefs f t. unfold saved, get_image_name_from_time. intros HL HR. rewrite HR. clear HR f. revert coefs HL.
  induction images as [|im images IH]; intros [|c coefs] HL; cbn in HL; try discriminate.
  - cbn. intros im [].
  - injection HL as HL. specialize (IH coefs HL). cbn [map combine find fst filter].
    replace (Qeq_bool t (i_time im)) with (Qeq_bool (i_time im) t).
    2:{ destruct (Qeq_bool (i_time im) t) eqn:A, (Qeq_bool t (i_time im)) eqn:B; try reflexivity.
        - apply Qeq_bool_eq in A. apply Qeq_bool_neq in B. exfalso. apply B. symmetry. exact A.
        - apply Qeq_bool_eq in B. apply Qeq_bool_neq in A. exfalso. apply A. symmetry. exact B. }
    destruct (Qeq_bool (i_time im) t) eqn:E.
    + cbn [option_map snd]. apply Qeq_bool_eq in E. exists 0%nat, im. repeat split; try assumption. intros k' im' L. lia.
    + apply Qeq_bool_neq in E.
      destruct (filter (fun r => Qeq_bool (i_time r) t) images) as [|x xs];
        destruct (option_map snd (find (fun r => Qeq_bool t (fst r)) (combine (map i_time images) coefs))) as [v|];
        try exact IH.
      * intros y [<-|Hy]; [exact E|apply IH; exact Hy].
      * destruct IH as (k & i & A & B & C & D & F). exists (S k), i. repeat split; try assumption.
        intros [|k'] i' L H; cbn in H; [apply Some_inj in H; subst; exact E|]. apply (F k' i'); [lia|exact H].
Qed.
Print Assumptions C85_coefficients_belong_to_the_image.

Definition ex_images : list iline :=
  [ILine 1 "a.jpg" 0; ILine 2 "b.jpg" 2; ILine 3 "c.jpg" 2; ILine 4 "d.jpg" 5].

Example C85_example :
  get_image_name_from_time ex_images 2 = Ok "b.jpg"%string /\
  get_image_name_from_time ex_images 3 = Err IndexError /\
  saved (RFile 0 3 1 (combine (map i_time ex_images) [[1]; [2]; [3]; [4]]%Q)) 2 = Some [2%Q].
Proof. repeat split. Qed.

Lemma position_of_shift : forall d ts t, position_of (t + d) (map (fun x => x + d)%Q ts) = position_of t ts.
Proof.
  intros d. induction ts as [|x ts IH]; intros t; [reflexivity|]. cbn. rewrite IH.
  replace (Qeq_bool (t + d) (x + d)) with (Qeq_bool t x); [reflexivity|].
  destruct (Qeq_bool t x) eqn:A, (Qeq_bool (t + d) (x + d)) eqn:B; try reflexivity.
  - apply Qeq_bool_eq in A. apply Qeq_bool_neq in B. exfalso. apply B. lra.
  - apply Qeq_bool_eq in B. apply Qeq_bool_neq in A. exfalso. apply A. lra.
Qed.

(** Shifting the times by d makes the coefficients of time t those of t + d ... *)
Theorem C85_shifted_coefficients :
  forall agg lower upper n fr channel t d y w,
  get_extco_at_time agg lower upper n (shift_frame d fr) channel (t + d) y w =
  get_extco_at_time agg lower upper n fr channel t y w.
Proof.
  intros. unfold get_extco_at_time. cbn [shift_frame fr_cols fr_times]. rewrite position_of_shift. reflexivity.
Qed.
Print Assumptions C85_shifted_coefficients.

(** ... but not the images: after a shift, the image found for a time is another
    one than the one its coefficients were computed from. *)
Theorem C85_shifted_images_refuted :
  exists images coefs dir fr d t name v,
    length coefs = length images /\
    dir = [("linear"%string, RFile 0 0 1 (combine (map i_time images) coefs))] /\
    read_extco "linear" dir = Ok fr /\
    get_extco_at_time mean 0 1 1 (shift_frame d fr) 0 t YLayer 1 = Ok (Numbers [0], [0], [[Some v]]) /\
    get_image_name_from_time images t = Ok name /\
    (forall k im, nth_error images k = Some im -> i_name im = name -> nth_error coefs k <> Some [v]).
Proof.
  exists [ILine 1 "a.jpg" 0; ILine 2 "b.jpg" 2], [[5]; [6]]%Q,
    [("linear"%string, RFile 0 0 1 (combine [0; 2]%Q [[5]; [6]]%Q))].
  eexists. exists 2%Q, 2%Q, "b.jpg"%string, 5%Q.
  repeat split; try reflexivity.
  intros [|[|k]] im; cbn; intros H E; try (apply Some_inj in H; subst; cbn in E); try discriminate.
  destruct k; discriminate.
Qed.
Print Assumptions C85_shifted_images_refuted.

(** ** C86 *)

(** A row of the binary file belongs to an image of the list with this (truncated)
    time. *)
Definition taken (images : list iline) (r : lrow) (tm : Z) : Prop :=
  exists im, In im images /\ i_id im = l_img r /\ int_of_Q (i_time im) = tm.

Lemma join_in : forall images table x,
  In x (join_times images table) <-> In (t_row x) table /\ taken images (t_row x) (t_time x).
Proof.
  intros images table x. unfold join_times. rewrite in_flat_map. split.
  - intros (r & Hr & Hx). apply in_map_iff in Hx. destruct Hx as (im & <- & Hi). apply filter_In in Hi. destruct Hi as [Hi E].
    apply Z.eqb_eq in E. cbn. split; [exact Hr|]. exists im. auto.
  - intros (Hr & im & Hi & E & T). exists (t_row x). split; [exact Hr|]. apply in_map_iff. exists im. split.
    + rewrite T. destruct x. reflexivity.
    + apply filter_In. split; [exact Hi|]. apply Z.eqb_eq. exact E.
Qed.

(** Every image is in the list once, and the file has one row per image and LED. *)
Definition clean (images : list iline) (table : list lrow) : Prop :=
  NoDup (map i_id images) /\ NoDup (map (fun r => (l_img r, l_led r)) table).

Lemma filter_id : forall images id, NoDup (map i_id images) ->
  (length (filter (fun i => (i_id i =? id)%Z) images) <= 1)%nat.
Proof.
  induction images as [|i l IH]; intros id H; [cbn; lia|]. cbn [map] in H. inversion H as [|? ? N M]; subst. cbn [filter].
  destruct (i_id i =? id) eqn:E; [|apply IH; exact M]. apply Z.eqb_eq in E. subst id.
  replace (filter (fun x => i_id x =? i_id i) l) with (@nil iline); [cbn; lia|].
  destruct (filter (fun x => i_id x =? i_id i) l) as [|x xs] eqn:F; [reflexivity|].
  exfalso. apply N. assert (In x (filter (fun x => i_id x =? i_id i) l)) by (rewrite F; left; reflexivity).
  apply filter_In in H0. destruct H0 as [A B]. apply Z.eqb_eq in B. rewrite <- B. apply in_map. exact A.
Qed.

(** In a clean table the joined rows are those of the images in the list, in the
    same order, each once. *)
Lemma join_rows : forall images table, NoDup (map i_id images) ->
  map t_row (join_times images table) =
  filter (fun r => existsb (fun i => i_id i =? l_img r) images) table.
Proof.
  intros images table H. unfold join_times. rewrite map_flat_map. induction table as [|r table IH]; [reflexivity|].
  cbn [flat_map filter]. rewrite IH. rewrite map_map. cbn [t_row].
  pose proof (filter_id images (l_img r) H) as L.
  destruct (existsb (fun i => i_id i =? l_img r) images) eqn:E.
  - apply existsb_exists in E. destruct E as (i & Hi & Ei).
    assert (Hin : In i (filter (fun i => i_id i =? l_img r) images)) by (apply filter_In; auto).
    destruct (filter (fun i => i_id i =? l_img r) images) as [|a [|b q]]; [destruct Hin|reflexivity|cbn in L; lia].
  - destruct (filter (fun i => i_id i =? l_img r) images) as [|a q] eqn:F; [reflexivity|].
    exfalso. assert (Hin : In a (filter (fun i => i_id i =? l_img r) images)) by (rewrite F; left; reflexivity).
    apply filter_In in Hin. destruct Hin as [A B].
    assert (existsb (fun i => i_id i =? l_img r) images = true) by (apply existsb_exists; exists a; auto). congruence.
Qed.

Lemma Qeq_bool_sym' : forall a b, Qeq_bool a b = Qeq_bool b a.
Proof.
  intros a b. destruct (Qeq_bool a b) eqn:A, (Qeq_bool b a) eqn:B; try reflexivity.
  - apply Qeq_bool_eq in A. apply Qeq_bool_neq in B. exfalso. apply B. symmetry. exact A.
  - apply Qeq_bool_eq in B. apply Qeq_bool_neq in A. exfalso. apply A. symmetry. exact B.
Qed.

Lemma pentry_at_spec : forall tm lab e, pentry_at tm lab e = true <-> fst (fst e) = tm /\ (lab == snd (fst e))%Q.
Proof.
  intros. unfold pentry_at. rewrite andb_true_iff, Z.eqb_eq. split; intros [A B]; split; try assumption.
  - apply Qeq_bool_eq. exact B.
  - apply Qeq_eq_bool. exact B.
Qed.

(** Two entries at different places of the list with the same time and label. *)
Definition clash (es : list pentry) : Prop :=
  exists i k a b, (i < k)%nat /\ nth_error es i = Some a /\ nth_error es k = Some b /\
    fst (fst a) = fst (fst b) /\ (snd (fst a) == snd (fst b))%Q.

Lemma duplicate_pentry_spec : forall es, duplicate_pentry es = true <-> clash es.
Proof.
  induction es as [|e es IH]; cbn [duplicate_pentry].
  - split; [discriminate|]. intros (i & k & a & b & L & A & _). destruct i; discriminate.
  - rewrite orb_true_iff, IH. split.
    + intros [H|(i & k & a & b & L & A & B & C & D)].
      * apply existsb_exists in H. destruct H as (x & Hx & Ex). apply pentry_at_spec in Ex. destruct Ex as [E1 E2].
        apply In_nth_error in Hx. destruct Hx as [k Hk]. exists 0%nat, (S k), e, x. repeat split; try assumption; [lia|congruence].
      * exists (S i), (S k), a, b. repeat split; try assumption. lia.
    + intros (i & k & a & b & L & A & B & C & D). destruct i as [|i].
      * left. cbn in A. apply Some_inj in A. subst a. destruct k as [|k]; [lia|]. cbn in B.
        apply existsb_exists. exists b. split; [eapply nth_error_In; exact B|]. apply pentry_at_spec. split; [congruence|exact D].
      * right. destruct k as [|k]; [lia|]. exists i, k, a, b. repeat split; try assumption. lia.
Qed.

Lemma pcell_in : forall es tm lab v, ~ clash es -> In (tm, lab, v) es -> pcell es tm lab = v.
Proof.
  induction es as [|e es IH]; intros tm lab v H Hin; [destruct Hin|].
  unfold pcell. cbn [find]. destruct (pentry_at tm lab e) eqn:E.
  - apply pentry_at_spec in E. destruct E as [E1 E2]. destruct Hin as [->|Hin]; [reflexivity|].
    exfalso. apply H. apply In_nth_error in Hin. destruct Hin as [k Hk]. exists 0%nat, (S k), e, (tm, lab, v).
    repeat split; try assumption; [lia|]. cbn. symmetry. exact E2.
  - destruct Hin as [->|Hin].
    + exfalso. assert (pentry_at tm lab (tm, lab, v) = true) by (apply pentry_at_spec; split; reflexivity). congruence.
    + apply (IH tm lab v); [|exact Hin]. intros (i & k & a & b & L & A & B & C & D). apply H.
      exists (S i), (S k), a, b. repeat split; try assumption. lia.
Qed.

Lemma qinsert_in : forall q l x, In x (qinsert q l) -> x = q \/ In x l.
Proof.
  induction l as [|y l IH]; intros x; cbn; [intuition|].
  destruct (Qeq_bool q y); [intuition|]. destruct (Qle_bool q y); cbn; [intuition|]. intros [H|H]; [auto|].
  apply IH in H. intuition.
Qed.

Lemma qinsert_has : forall q l, (exists x, In x (qinsert q l) /\ (x == q)%Q) /\ (forall x, In x l -> In x (qinsert q l)).
Proof.
  induction l as [|y l [IH1 IH2]]; cbn.
  - split; [exists q; split; [left; reflexivity|reflexivity]|intros x []].
  - destruct (Qeq_bool q y) eqn:E; [|destruct (Qle_bool q y)].
    + apply Qeq_bool_eq in E. split; [exists y; split; [left; reflexivity|symmetry; exact E]|auto].
    + split; [exists q; split; [left; reflexivity|reflexivity]|intros x Hx; right; exact Hx].
    + split.
      * destruct IH1 as (x & A & B). exists x. split; [right; exact A|exact B].
      * intros x [->|Hx]; [left; reflexivity|right; apply IH2; exact Hx].
Qed.

Lemma qsort_in : forall l, (forall x, In x (qsort l) -> In x l) /\ (forall x, In x l -> exists y, In y (qsort l) /\ (y == x)%Q).
Proof.
  induction l as [|q l [IH1 IH2]]; cbn; [split; intros x []|].
  fold (qsort l). destruct (qinsert_has q (qsort l)) as [H1 H2]. split.
  - intros x Hx. apply qinsert_in in Hx. destruct Hx as [->|Hx]; [left; reflexivity|right; apply IH1; exact Hx].
  - intros x [<-|Hx]; [exact H1|]. destruct (IH2 x Hx) as (y & A & B). exists y. split; [apply H2; exact A|exact B].
Qed.

Lemma qinsert_sorted : forall q l, StronglySorted Qlt l -> StronglySorted Qlt (qinsert q l).
Proof.
  induction l as [|y l IH]; intros H; cbn; [repeat constructor|].
  destruct (Qeq_bool q y) eqn:E; [exact H|]. apply Qeq_bool_neq in E.
  apply StronglySorted_inv in H. destruct H as [S F].
  destruct (Qle_bool q y) eqn:L.
  - apply Qle_bool_iff in L. assert (q < y)%Q by (apply Qle_lteq in L; destruct L; [assumption|contradiction]).
    constructor; [constructor; assumption|]. constructor; [assumption|].
    rewrite Forall_forall in *. intros x Hx. specialize (F x Hx). lra.
  - assert (y < q)%Q by (apply Qnot_le_lt; intros H; apply Qle_bool_iff in H; congruence).
    constructor; [apply IH; exact S|]. rewrite Forall_forall in *. intros x Hx. apply qinsert_in in Hx.
    destruct Hx as [->|Hx]; [assumption|apply F; exact Hx].
Qed.

Lemma qsort_sorted : forall l, StronglySorted Qlt (qsort l).
Proof. induction l; cbn; [constructor|]. apply qinsert_sorted. exact IHl. Qed.

(** *** Success or failure *)

(** The rows of one array. *)
Definition of_array (array : Z) (t : list trow) : list trow := filter (fun r => l_arr (t_row r) =? array) t.

Lemma array_entries_map : forall num_ref delta t array y nr,
  array_entries num_ref delta t array y nr =
  map (fun r => (t_time r + delta, label_of y r,
                 relative num_ref nr
                   (map (fun r' => l_val (t_row r')) (filter (fun r' => Qeq_bool (label_of y r) (label_of y r')) (of_array array t)))
                   (l_val (t_row r)))) (of_array array t).
Proof. reflexivity. Qed.

Lemma clash_rows : forall num_ref delta t array y nr,
  clash (array_entries num_ref delta t array y nr) <->
  exists i k a b, (i < k)%nat /\ nth_error (of_array array t) i = Some a /\ nth_error (of_array array t) k = Some b /\
    t_time a = t_time b /\ (label_of y a == label_of y b)%Q.
Proof.
  intros. rewrite array_entries_map. set (g := fun r => _). unfold clash. split.
  - intros (i & k & a & b & L & A & B & C & D). rewrite nth_error_map in A, B.
    destruct (nth_error (of_array array t) i) as [x|] eqn:X; [|discriminate].
    destruct (nth_error (of_array array t) k) as [z|] eqn:Y; [|discriminate].
    cbn [option_map] in A, B. apply Some_inj in A. apply Some_inj in B. subst a b. cbn [g fst snd] in C, D.
    exists i, k, x, z. repeat split; try assumption. lia.
  - intros (i & k & a & b & L & A & B & C & D). exists i, k, (g a), (g b).
    rewrite !nth_error_map, A, B. repeat split; try assumption. cbn [g fst]. lia.
Qed.

(** Two different LEDs of the array at one height in one picture, or one LED in
    two pictures with the same (truncated) time; two rows with the same time and
    label in any case. *)
Definition ambiguous (y : axis) (images : list iline) (table : list lrow) (array : Z) : Prop :=
  exists r1 r2 tm, In r1 table /\ In r2 table /\ r1 <> r2 /\ l_arr r1 = array /\ l_arr r2 = array /\
    taken images r1 tm /\ taken images r2 tm /\
    match y with ByLed => l_led r1 = l_led r2 | ByHeight => (l_height r1 == l_height r2)%Q end.

Lemma label_same : forall y a b, (label_of y a == label_of y b)%Q <->
  match y with ByLed => l_led (t_row a) = l_led (t_row b) | ByHeight => (l_height (t_row a) == l_height (t_row b))%Q end.
Proof.
  intros [] a b; cbn; [|tauto]. split; [intros H; apply inject_Z_injective; exact H|intros ->; reflexivity].
Qed.

Lemma join_NoDup : forall images table, clean images table -> NoDup (map t_row (join_times images table)).
Proof.
  intros images table [C1 C2]. rewrite join_rows by exact C1.
  apply NoDup_filter. eapply NoDup_map_inv. exact C2.
Qed.

Lemma nth_filter_before : forall {A} (p : A -> bool) l i k a b, (i < k)%nat ->
  nth_error (filter p l) i = Some a -> nth_error (filter p l) k = Some b ->
  exists i' k', (i' < k')%nat /\ nth_error l i' = Some a /\ nth_error l k' = Some b.
Proof.
  induction l as [|x l IH]; intros i k a b L PA PB; [destruct i; discriminate|]. cbn [filter] in PA, PB.
  destruct (p x).
  - destruct i as [|i].
    + cbn in PA. apply Some_inj in PA. subst x. destruct k as [|k]; [lia|]. cbn in PB.
      apply nth_error_In in PB. apply filter_In in PB. destruct PB as [PB _]. apply In_nth_error in PB. destruct PB as [k' PB].
      exists 0%nat, (S k'). repeat split; [lia|exact PB].
    + destruct k as [|k]; [lia|]. destruct (IH i k a b ltac:(lia) PA PB) as (i' & k' & H1 & H2 & H3).
      exists (S i'), (S k'). repeat split; [lia|assumption|assumption].
  - destruct (IH i k a b L PA PB) as (i' & k' & H1 & H2 & H3). exists (S i'), (S k'). repeat split; [lia|assumption|assumption].
Qed.

Lemma two_positions : forall {A} (l : list A) a b, In a l -> In b l -> a <> b ->
  exists i k, (i < k)%nat /\ ((nth_error l i = Some a /\ nth_error l k = Some b) \/ (nth_error l i = Some b /\ nth_error l k = Some a)).
Proof.
  intros A l a b Ha Hb Hab. apply In_nth_error in Ha. apply In_nth_error in Hb. destruct Ha as [i Ha], Hb as [k Hb].
  destruct (Nat.lt_trichotomy i k) as [L|[L|L]].
  - exists i, k. auto.
  - subst. congruence.
  - exists k, i. auto.
Qed.

Lemma clash_ambiguous : forall num_ref delta images table array y nr, clean images table ->
  clash (array_entries num_ref delta (join_times images table) array y nr) <-> ambiguous y images table array.
Proof.
  intros num_ref delta images table array y nr C. rewrite clash_rows. unfold of_array. split.
  - intros (i & k & a & b & L & A & B & T & D).
    pose proof (nth_error_In _ _ A) as HA. pose proof (nth_error_In _ _ B) as HB.
    apply filter_In in HA. apply filter_In in HB. destruct HA as [HA Ea], HB as [HB Eb].
    apply Z.eqb_eq in Ea. apply Z.eqb_eq in Eb. apply join_in in HA. apply join_in in HB.
    exists (t_row a), (t_row b), (t_time a). destruct HA as [HA TA], HB as [HB TB]. rewrite <- T in TB.
    repeat split; try assumption; [|apply label_same; exact D].
    destruct (nth_filter_before _ _ _ _ _ _ L A B) as (i' & k' & L' & A' & B').
    pose proof (join_NoDup images table C) as N. intros E.
    rewrite NoDup_nth_error in N. apply (map_nth_error t_row) in A'. apply (map_nth_error t_row) in B'.
    assert (i' = k'); [|lia]. apply N; [apply nth_error_Some; rewrite A'; discriminate|]. congruence.
  - intros (r1 & r2 & tm & H1 & H2 & Hne & A1 & A2 & T1 & T2 & S).
    assert (J1 : In (TRow tm r1) (filter (fun r => l_arr (t_row r) =? array) (join_times images table))).
    { apply filter_In. split; [apply join_in; auto|apply Z.eqb_eq; exact A1]. }
    assert (J2 : In (TRow tm r2) (filter (fun r => l_arr (t_row r) =? array) (join_times images table))).
    { apply filter_In. split; [apply join_in; auto|apply Z.eqb_eq; exact A2]. }
    destruct (two_positions _ _ _ J1 J2) as (i & k & L & [[X Y]|[X Y]]); [congruence| |].
    + exists i, k, (TRow tm r1), (TRow tm r2). repeat split; try assumption. apply label_same. destruct y; exact S.
    + exists i, k, (TRow tm r2), (TRow tm r1). repeat split; try assumption. apply label_same. destruct y; [symmetry; exact S|].
      cbn [t_row]. symmetry. exact S.
Qed.

(** The parameters of an array can be read exactly if no LED (for heights: no
    height) of the array is measured twice at one time, where times count in
    whole seconds; otherwise ValueError is raised. *)
Theorem C86_when_parameters_can_be_read :
  forall num_ref delta images table t1 t2 array y w nr, clean images table ->
  let r := get_ledparams_at_led_array num_ref delta (join_times images table, t1, t2) 0 array y w nr in
  ((exists x, r = Ok x) <-> ~ ambiguous y images table array) /\
  (r = Err ValueError <-> ambiguous y images table array).
Proof.
  intros num_ref delta images table t1 t2 array y w nr C. cbv zeta. unfold get_ledparams_at_led_array. cbn [Z.eqb].
  unfold ppivot. pose proof (clash_ambiguous num_ref delta images table array y nr C) as K.
  destruct (duplicate_pentry (array_entries num_ref delta (join_times images table) array y nr)) eqn:E.
  - apply duplicate_pentry_spec in E. apply K in E. split; split; try tauto; try reflexivity.
    intros [x Hx]. discriminate.
  - assert (N : ~ ambiguous y images table array).
    { intros H. apply K in H. apply duplicate_pentry_spec in H. congruence. }
    split; split; try tauto; try discriminate. intros _. eexists. reflexivity.
Qed.
Print Assumptions C86_when_parameters_can_be_read.

(** In particular two images of the same second make an array unreadable; the
    coefficients of the same images can be read (C82: the first one counts). *)
Theorem C86_two_images_in_one_second :
  forall num_ref delta images table t1 t2 array led w nr r1 r2 i1 i2, clean images table ->
  In r1 table -> In r2 table -> l_arr r1 = array -> l_arr r2 = array -> l_led r1 = led -> l_led r2 = led ->
  In i1 images -> In i2 images -> i_id i1 = l_img r1 -> i_id i2 = l_img r2 ->
  l_img r1 <> l_img r2 -> int_of_Q (i_time i1) = int_of_Q (i_time i2) ->
  get_ledparams_at_led_array num_ref delta (join_times images table, t1, t2) 0 array ByLed w nr = Err ValueError.
Proof.
  intros num_ref delta images table t1 t2 array led w nr r1 r2 i1 i2 C H1 H2 A1 A2 L1 L2 I1 I2 D1 D2 N T.
  destruct (C86_when_parameters_can_be_read num_ref delta images table t1 t2 array ByLed w nr C) as [_ H].
  apply H. exists r1, r2, (int_of_Q (i_time i1)). repeat split; try assumption; try congruence.
  - exists i1. auto.
  - exists i2. auto.
Qed.
Print Assumptions C86_two_images_in_one_second.

(** *** The values *)

Lemma nth_error_combine_pos : forall (l : list Z) x, In x l -> exists q, nth_error l q = Some x.
Proof. intros. apply In_nth_error. assumption. Qed.

Lemma filter_row : forall array y r images table, NoDup (map i_id images) -> 
  map (fun r' => l_val (t_row r')) (filter (fun r' => Qeq_bool (label_of y r) (label_of y r')) (of_array array (join_times images table))) =
  map l_val (filter (fun r' => existsb (fun i => i_id i =? l_img r') images && (l_arr r' =? array) &&
     match y with ByLed => l_led (t_row r) =? l_led r' | ByHeight => Qeq_bool (l_height (t_row r)) (l_height r') end) table).
Proof.
  intros array y r images table H.
  rewrite <- (map_map t_row l_val). f_equal.
  assert (G : forall l, map t_row (filter (fun r' => Qeq_bool (label_of y r) (label_of y r')) (of_array array l)) =
     filter (fun r' => (l_arr r' =? array) && match y with ByLed => l_led (t_row r) =? l_led r' | ByHeight => Qeq_bool (l_height (t_row r)) (l_height r') end)
            (map t_row l)).
  { unfold of_array. induction l as [|x l IH]; [reflexivity|]. cbn [filter map].
    destruct (l_arr (t_row x) =? array); cbn [andb filter]; [|exact IH].
    replace (Qeq_bool (label_of y r) (label_of y x)) with
      (match y with ByLed => l_led (t_row r) =? l_led (t_row x) | ByHeight => Qeq_bool (l_height (t_row r)) (l_height (t_row x)) end).
    - destruct y; [destruct (l_led (t_row r) =? l_led (t_row x))|destruct (Qeq_bool (l_height (t_row r)) (l_height (t_row x)))];
        cbn [map]; rewrite IH; reflexivity.
    - destruct y; [|reflexivity]. cbn [label_of].
      destruct (Qeq_bool (inject_Z (l_led (t_row r))) (inject_Z (l_led (t_row x)))) eqn:E.
      + apply Qeq_bool_eq in E. apply Z.eqb_eq. apply inject_Z_injective. exact E.
      + apply Qeq_bool_neq in E. apply Z.eqb_neq. intros F. apply E. rewrite F. reflexivity. }
  rewrite G, join_rows by exact H. clear G. induction table as [|x table IH]; [reflexivity|]. cbn [filter].
  destruct (existsb (fun i => i_id i =? l_img x) images); cbn [andb filter]; [|exact IH].
  destruct ((l_arr x =? array) && _); cbn [filter]; rewrite IH; reflexivity.
Qed.

(** The measurements of a LED of the array (or at a height) in images of the list,
    in the order of the table. *)
Definition series (y : axis) (images : list iline) (table : list lrow) (array : Z) (r : lrow) : list Q :=
  map l_val (filter (fun r' => existsb (fun i => i_id i =? l_img r') images && (l_arr r' =? array) &&
     match y with ByLed => l_led r =? l_led r' | ByHeight => Qeq_bool (l_height r) (l_height r') end) table).

(** Without smoothing: the rows of the result are the shifted times of the images
    in ascending order, the columns the LEDs (heights) of the array, and each
    measurement is found in its place, relative to the mean of the first n_ref
    measurements of its series. *)
Theorem C86_values :
  forall num_ref delta images table t1 t2 array y nr times labs cols, clean images table ->
  get_ledparams_at_led_array num_ref delta (join_times images table, t1, t2) 0 array y 1 nr = Ok (times, labs, cols) ->
  StronglySorted Z.lt times /\ StronglySorted Qlt labs /\ length cols = length labs /\
  (forall tm, In tm times <-> exists r, In r table /\ l_arr r = array /\ taken images r (tm - delta)) /\
  (forall r tm, In r table -> l_arr r = array -> taken images r tm ->
     exists p q lab col, nth_error labs p = Some lab /\ nth_error cols p = Some col /\
       (lab == match y with ByLed => inject_Z (l_led r) | ByHeight => l_height r end)%Q /\
       nth_error times q = Some (tm + delta) /\
       nth_error col q = Some (relative num_ref nr (series y images table array r) (l_val r))).
Proof.
  intros num_ref delta images table t1 t2 array y nr times labs cols C H.
  unfold get_ledparams_at_led_array in H. cbn [Z.eqb] in H. unfold ppivot in H.
  destruct (duplicate_pentry _) eqn:E; [discriminate|].
  set (es := array_entries num_ref delta (join_times images table) array y nr) in *.
  assert (N : ~ clash es) by (intros X; apply duplicate_pentry_spec in X; congruence).
  apply Ok_inj in H.
  assert (Et : times = zsort (map (fun e : pentry => fst (fst e)) es)).
  { apply (f_equal (fun p => fst (fst p))) in H. symmetry. exact H. }
  assert (El : labs = qsort (map (fun e : pentry => snd (fst e)) es)).
  { apply (f_equal (fun p => snd (fst p))) in H. symmetry. exact H. }
  assert (Ec : cols = map (fun lab => moving_average mean 1 (map (fun tm => pcell es tm lab) times)) labs).
  { rewrite Et, El. apply (f_equal snd) in H. symmetry. exact H. }
  clear H. split; [subst; apply zsort_sorted|]. split; [subst; apply qsort_sorted|].
  split; [rewrite Ec; apply map_length|]. split.
  - intros tm. rewrite Et, zsort_in. unfold es. rewrite array_entries_map, map_map. cbn [fst]. rewrite in_map_iff. split.
    + intros (x & X1 & X2). apply filter_In in X2. destruct X2 as [X2 X3]. apply join_in in X2. apply Z.eqb_eq in X3.
      exists (t_row x). destruct X2 as [X2 X4]. repeat split; try assumption. replace (tm - delta) with (t_time x) by lia. exact X4.
    + intros (r & R1 & R2 & R3). exists (TRow (tm - delta) r). split; [cbn; lia|].
      apply filter_In. split; [apply join_in; auto|apply Z.eqb_eq; exact R2].
  - intros r tm R1 R2 R3. set (x := TRow tm r).
    assert (Hx : In x (of_array array (join_times images table))).
    { apply filter_In. split; [apply join_in; auto|apply Z.eqb_eq; exact R2]. }
    set (v := relative num_ref nr (series y images table array r) (l_val r)).
    assert (Hin : In (tm + delta, label_of y x, v) es).
    { unfold es. rewrite array_entries_map. apply in_map_iff. exists x. split; [|exact Hx].
      rewrite filter_row by (destruct C; assumption). reflexivity. }
    destruct (qsort_in (map (fun e : pentry => snd (fst e)) es)) as [_ Q2].
    destruct (Q2 (label_of y x)) as (lab & L1 & L2).
    { apply in_map_iff. exists (tm + delta, label_of y x, v). auto. }
    rewrite <- El in L1. apply In_nth_error in L1. destruct L1 as [p L1].
    assert (T1 : In (tm + delta) times).
    { rewrite Et. apply zsort_in. apply in_map_iff. exists (tm + delta, label_of y x, v). auto. }
    apply In_nth_error in T1. destruct T1 as [q T1].
    exists p, q, lab, (map (fun tm => pcell es tm lab) times). repeat split; try assumption.
    + rewrite Ec, nth_error_map, L1. reflexivity.
    + rewrite nth_error_map, T1. cbn [option_map]. f_equal.
      rewrite <- (pcell_in es (tm + delta) (label_of y x) v N Hin).
      unfold pcell. replace (find (pentry_at (tm + delta) lab) es) with (find (pentry_at (tm + delta) (label_of y x)) es); [reflexivity|].
      clear -L2. induction es as [|e es IH]; [reflexivity|]. cbn [find].
      replace (pentry_at (tm + delta) lab e) with (pentry_at (tm + delta) (label_of y x) e); [rewrite IH; reflexivity|].
      unfold pentry_at. f_equal. destruct (Qeq_bool (label_of y x) (snd (fst e))) eqn:A, (Qeq_bool lab (snd (fst e))) eqn:B; try reflexivity.
      * apply Qeq_bool_eq in A. apply Qeq_bool_neq in B. exfalso. apply B. rewrite L2. exact A.
      * apply Qeq_bool_eq in B. apply Qeq_bool_neq in A. exfalso. apply A. rewrite <- L2. exact B.
Qed.
Print Assumptions C86_values.

(** A cell for which there is no measurement is empty. *)
Theorem C86_missing_measurements :
  forall num_ref delta images table t1 t2 array y nr times labs cols p q lab col tm v,
  get_ledparams_at_led_array num_ref delta (join_times images table, t1, t2) 0 array y 1 nr = Ok (times, labs, cols) ->
  nth_error labs p = Some lab -> nth_error cols p = Some col -> nth_error times q = Some tm -> nth_error col q = Some v ->
  (forall r, In r table -> l_arr r = array -> taken images r (tm - delta) ->
     ~ (lab == match y with ByLed => inject_Z (l_led r) | ByHeight => l_height r end)%Q) ->
  v = None.
Proof.
  intros num_ref delta images table t1 t2 array y nr times labs cols p q lab col tm v H Hp Hc Hq Hv No.
  unfold get_ledparams_at_led_array in H. cbn [Z.eqb] in H. unfold ppivot in H.
  destruct (duplicate_pentry _) eqn:E; [discriminate|].
  set (es := array_entries num_ref delta (join_times images table) array y nr) in *.
  apply Ok_inj in H.
  assert (Ec : cols = map (fun lab => moving_average mean 1 (map (fun tm => pcell es tm lab) times)) labs).
  { apply (f_equal (fun p => (fst (fst p), snd (fst p), snd p))) in H. cbn [fst snd] in H.
    pose proof (f_equal (fun p => fst (fst p)) H) as H1. pose proof (f_equal (fun p => snd (fst p)) H) as H2. cbn [fst snd] in H1, H2. rewrite <- H1, <- H2.
    apply (f_equal snd) in H. symmetry. exact H. }
  rewrite Ec, nth_error_map, Hp in Hc. cbn [option_map] in Hc. apply Some_inj in Hc.
  change (moving_average mean 1 (map (fun tm => pcell es tm lab) times)) with (map (fun tm => pcell es tm lab) times) in Hc. subst col.
  rewrite nth_error_map, Hq in Hv. cbn [option_map] in Hv. apply Some_inj in Hv. subst v. unfold pcell.
  destruct (find (pentry_at tm lab) es) as [e|] eqn:F; [|reflexivity]. exfalso. apply find_some in F. destruct F as (F1 & F2). apply pentry_at_spec in F2. destruct F2 as (F2 & F3).
  unfold es in F1. rewrite array_entries_map in F1. apply in_map_iff in F1. destruct F1 as (x & X1 & X2). apply filter_In in X2. destruct X2 as (X2 & X3). apply Z.eqb_eq in X3.
  apply join_in in X2. destruct X2 as (X2 & X4). subst e. cbn [fst snd] in F2, F3. apply (No (t_row x) X2 X3); [replace (tm - delta) with (t_time x) by lia; exact X4|exact F3].
Qed.
Print Assumptions C86_missing_measurements.

(** Two LEDs of array 0 and one of array 1 in three images; the third image is of
    the same second as the second one. *)
Definition ex_table (imgs : list Z) : list lrow :=
  flat_map (fun i => [LRow i 0 0 1 (inject_Z (100 * i)); LRow i 1 0 2 (inject_Z (10 * i)); LRow i 2 1 2 7]) imgs.

Lemma ex_clean : forall n, clean ex_images (ex_table (zrange 1 n)).
Proof.
  intros n. split.
  - cbn. repeat constructor; cbn; intuition congruence.
  - assert (G : forall l, NoDup l -> NoDup (map (fun r => (l_img r, l_led r)) (ex_table l))).
    { induction l as [|i l IH]; intros H; [constructor|]. inversion H as [|? ? A B]; subst.
      assert (F : forall k, ~ In (i, k) (map (fun r => (l_img r, l_led r)) (ex_table l))).
      { intros k Hk. apply A. apply in_map_iff in Hk. destruct Hk as (r & E & Hr). unfold ex_table in Hr.
        apply in_flat_map in Hr. destruct Hr as (j & Hj & Hr). cbn in Hr.
        destruct Hr as [<-|[<-|[<-|[]]]]; cbn in E; assert (j = i) by congruence; subst; exact Hj. }
      change (NoDup ((i, 0) :: (i, 1) :: (i, 2) :: map (fun r => (l_img r, l_led r)) (ex_table l))).
      constructor; [intros [X|[X|X]]; [congruence|congruence|exact (F _ X)]|].
      constructor; [intros [X|X]; [congruence|exact (F _ X)]|].
      constructor; [exact (F _)|]. apply IH. exact B. }
    apply G. unfold zrange. apply FinFun.Injective_map_NoDup; [intros a b E; lia|apply seq_NoDup].
Qed.

Example C86_example :
  (* the first two images; reference is the first image *)
  get_ledparams_at_led_array 1 0 (join_times ex_images (ex_table [1; 2]), [], []) 0 0 ByLed 1 NNone =
    Ok ([0; 2], [0; 1]%Q, [[Some (100 # 100); Some (200 # 100)]; [Some (10 # 10); Some (20 # 10)]]%Q) /\
  (* all images *)
  get_ledparams_at_led_array 1 0 (join_times ex_images (ex_table [1; 2; 3; 4]), [], []) 0 0 ByLed 1 NNone = Err ValueError /\
  clean ex_images (ex_table [1; 2]) /\ clean ex_images (ex_table [1; 2; 3; 4]).
Proof. repeat split; try reflexivity; [apply (ex_clean 3)|apply (ex_clean 3)|apply (ex_clean 5)|apply (ex_clean 5)]. Qed.

(** The measurement of LED 1 on the second image is missing. *)
Example C86_missing_example :
  get_ledparams_at_led_array 1 0 (join_times ex_images (removelast (removelast (ex_table [1; 2]))), [], []) 0 0 ByLed 1 NFalse =
    Ok ([0; 2], [0; 1]%Q, [[Some 100; Some 200]; [Some 10; None]]%Q).
Proof. vm_compute. reflexivity. Qed.

(** Smoothing changes neither the times nor the LEDs (heights); with a window of
    w >= 2 rows each value is the mean of exactly w values of the unsmoothed
    column, those of the rows t-(w-w/2) .. t+w/2-1, and missing if there are fewer. *)
Theorem C86_smoothing :
  forall num_ref delta ts channel array y w nr times labs cols, (2 <= w)%nat ->
  get_ledparams_at_led_array num_ref delta ts channel array y w nr = Ok (times, labs, cols) ->
  exists raw, get_ledparams_at_led_array num_ref delta ts channel array y 1 nr = Ok (times, labs, raw) /\
    length cols = length raw /\
    forall p c c1, nth_error cols p = Some c -> nth_error raw p = Some c1 ->
      length c1 = length times /\ length c = length times /\
      forall t v, (t < length times)%nat ->
        (nth_error c t = Some (Some v) <->
         exists vs, length vs = w /\ v = (fold_right Qplus 0 vs / inject_Z (Z.of_nat w))%Q /\
           forall j, (j < w)%nat -> exists i, Z.of_nat i = Z.of_nat t - Z.of_nat (w - w / 2) + Z.of_nat j /\
             nth_error c1 i = Some (nth_error vs j)).
Proof.
  intros num_ref delta [[t0 t1] t2] channel array y w nr times labs cols Hw H.
  unfold get_ledparams_at_led_array in *.
  destruct (if channel =? 0 then _ else _) as [t|e]; [|discriminate].
  unfold ppivot in *. destruct (duplicate_pentry _); [discriminate|].
  set (es := array_entries num_ref delta t array y nr) in *. clearbody es.
  apply Ok_inj in H.
  assert (Et : times = zsort (map (fun e : pentry => fst (fst e)) es)).
  { apply (f_equal (fun p => fst (fst p))) in H. symmetry. exact H. }
  assert (El : labs = qsort (map (fun e : pentry => snd (fst e)) es)).
  { apply (f_equal (fun p => snd (fst p))) in H. symmetry. exact H. }
  assert (Ec : cols = map (fun lab => moving_average mean w (map (fun tm => pcell es tm lab) times)) labs).
  { rewrite Et, El. apply (f_equal snd) in H. symmetry. exact H. }
  exists (map (fun lab => moving_average mean 1 (map (fun tm => pcell es tm lab) times)) labs).
  split; [rewrite Et, El; reflexivity|]. split; [rewrite Ec, !map_length; reflexivity|].
  intros p c c1 Hc Hc1. rewrite Ec, nth_error_map in Hc. rewrite nth_error_map in Hc1.
  destruct (nth_error labs p) as [lab|]; [|discriminate]. cbn [option_map] in Hc, Hc1.
  apply Some_inj in Hc. apply Some_inj in Hc1.
  change (moving_average mean 1 (map (fun tm => pcell es tm lab) times)) with (map (fun tm => pcell es tm lab) times) in Hc1.
  destruct (C55_window Q mean w (map (fun tm => pcell es tm lab) times) Hw) as [W1 W2].
  rewrite Hc, Hc1 in *. subst c1. rewrite map_length in *. split; [reflexivity|]. split; [exact W1|].
  intros t3 v Ht. rewrite (W2 t3 Ht v). split; intros (vs & A & B & C); exists vs; (split; [exact A|split; [|exact C]]).
  - rewrite B. unfold mean. rewrite A. reflexivity.
  - rewrite B. unfold mean. rewrite A. reflexivity.
Qed.
Print Assumptions C86_smoothing.

(** Three images and a window of two: the first value is missing. *)
Example C86_smoothing_example :
  get_ledparams_at_led_array 1 0 (join_times ex_images (ex_table [1; 2; 4]), [], []) 0 0 ByLed 1 NFalse =
    Ok ([0; 2; 5], [0; 1]%Q, [[Some 100; Some 200; Some 400]; [Some 10; Some 20; Some 40]]%Q) /\
  get_ledparams_at_led_array 1 0 (join_times ex_images (ex_table [1; 2; 4]), [], []) 0 0 ByLed 2 NFalse =
    Ok ([0; 2; 5], [0; 1]%Q, [[None; Some (300 # 2); Some (600 # 2)]; [None; Some (30 # 2); Some (60 # 2)]]%Q).
Proof. split; vm_compute; reflexivity. Qed.

(** The channels 0, 1 and 2 choose the table; any other number ends in
    UnboundLocalError, whatever the tables hold. *)
Theorem C86_channels :
  forall num_ref delta t0 t1 t2 channel array y w nr,
  let get ch := get_ledparams_at_led_array num_ref delta (t0, t1, t2) ch array y w nr in
  let alone t := get_ledparams_at_led_array num_ref delta (t, [], []) 0 array y w nr in
  get 0 = alone t0 /\ get 1 = alone t1 /\ get 2 = alone t2 /\
  (get channel = Err UnboundLocalError <-> channel < 0 \/ 2 < channel).
Proof.
  intros num_ref delta t0 t1 t2 channel array y w nr. cbv zeta.
  split; [reflexivity|]. split; [reflexivity|]. split; [reflexivity|].
  unfold get_ledparams_at_led_array.
  destruct (Z.eqb_spec channel 0) as [E0|E0]; [|destruct (Z.eqb_spec channel 1) as [E1|E1];
    [|destruct (Z.eqb_spec channel 2) as [E2|E2]]].
  1-3: (split; [|lia]); unfold ppivot; destruct (duplicate_pentry _); discriminate.
  split; [lia|reflexivity].
Qed.
Print Assumptions C86_channels.

(** ** C87 *)

Definition same_key_p (a b : trow) : Prop := t_time a = t_time b /\ (l_height (t_row a) == l_height (t_row b))%Q.
Definition before (a b : trow) : Prop :=
  t_time a < t_time b \/ (t_time a = t_time b /\ (l_height (t_row a) < l_height (t_row b))%Q).

Lemma same_key_spec : forall a b, same_key a b = true <-> same_key_p a b.
Proof.
  intros. unfold same_key, same_key_p. rewrite andb_true_iff, Z.eqb_eq. split; intros [A B]; split; try assumption.
  - apply Qeq_bool_eq. exact B.
  - apply Qeq_eq_bool. exact B.
Qed.

Lemma key_before_spec : forall a b, key_before a b = true <-> before a b.
Proof.
  intros. unfold key_before, before. rewrite orb_true_iff, andb_true_iff, Z.ltb_lt, Z.eqb_eq, negb_true_iff.
  assert (E : Qle_bool (l_height (t_row b)) (l_height (t_row a)) = false <-> (l_height (t_row a) < l_height (t_row b))%Q).
  { split.
    - intros H. apply Qnot_le_lt. intros L. apply Qle_bool_iff in L. congruence.
    - intros H. destruct (Qle_bool _ _) eqn:L; [|reflexivity]. apply Qle_bool_iff in L. lra. }
  rewrite E. tauto.
Qed.

Lemma before_total : forall a b, ~ same_key_p a b -> ~ before a b -> before b a.
Proof.
  intros a b H1 H2. unfold same_key_p, before in *.
  destruct (Z.lt_trichotomy (t_time a) (t_time b)) as [L|[L|L]]; [exfalso; apply H2; left; exact L| |left; exact L].
  right. split; [congruence|].
  destruct (Q_dec (l_height (t_row a)) (l_height (t_row b))) as [[Q|Q]|Q]; [|exact Q|].
  - exfalso. apply H2. right. split; assumption.
  - exfalso. apply H1. split; assumption.
Qed.

Lemma before_trans : forall a b c, before a b -> before b c -> before a c.
Proof.
  unfold before. intros a b c [A|[A A']] [B|[B B']]; [left; lia|left; lia|left; lia|right]. split; [lia|lra].
Qed.

Lemma before_not_same : forall a b, before a b -> ~ same_key_p a b.
Proof. unfold before, same_key_p. intros a b [A|[A A']] [B B']; [lia|lra]. Qed.

Lemma same_before : forall a b c, same_key_p a b -> before b c -> before a c.
Proof. unfold before, same_key_p. intros a b c [A A'] [B|[B B']]; [left; lia|right]. split; [lia|lra]. Qed.

Lemma insert_last_in : forall r l x, StronglySorted before l ->
  (In x (insert_last r l) <-> In x l \/ (x = r /\ forall y, In y l -> ~ same_key_p r y)).
Proof.
  induction l as [|y l IH]; intros x H; cbn [insert_last].
  - cbn. split; [intros [E|[]]; right; split; [auto|intros y []]|intros [[]|[E _]]; left; auto].
  - apply StronglySorted_inv in H. destruct H as [S F]. rewrite Forall_forall in F.
    destruct (same_key r y) eqn:E; [|destruct (key_before r y) eqn:E2].
    + apply same_key_spec in E. split; [auto|]. intros [A|[_ A]]; [exact A|]. exfalso. apply (A y (or_introl eq_refl)). exact E.
    + apply key_before_spec in E2. cbn. split.
      * intros [A|A]; [|left; exact A]. right. split; [auto|]. intros z [<-|Hz].
        -- apply before_not_same. exact E2.
        -- apply before_not_same. eapply before_trans; [exact E2|apply F; exact Hz].
      * intros [A|[A _]]; [right; exact A|left; auto].
    + assert (N : ~ same_key_p r y) by (intros A; apply same_key_spec in A; congruence).
      cbn. rewrite (IH x S). split.
      * intros [A|[A|[A B]]]; [left; left; exact A|left; right; exact A|right]. split; [exact A|].
        intros z [<-|Hz]; [exact N|apply B; exact Hz].
      * intros [[A|A]|[A B]]; [left; exact A|right; left; exact A|right; right]. split; [exact A|]. intros z Hz. apply B. right. exact Hz.
Qed.

Lemma insert_last_sorted : forall r l, StronglySorted before l -> StronglySorted before (insert_last r l).
Proof.
  induction l as [|y l IH]; intros H; cbn [insert_last]; [repeat constructor|].
  destruct (same_key r y) eqn:E; [exact H|]. apply StronglySorted_inv in H. destruct H as [S F].
  destruct (key_before r y) eqn:E2.
  - apply key_before_spec in E2. constructor; [constructor; assumption|]. constructor; [exact E2|].
    rewrite Forall_forall in *. intros z Hz. eapply before_trans; [exact E2|apply F; exact Hz].
  - constructor; [apply IH; exact S|]. rewrite Forall_forall in *. intros z Hz. apply insert_last_in in Hz; [|exact S].
    destruct Hz as [Hz|[-> _]]; [apply F; exact Hz|]. apply before_total.
    + intros A. apply same_key_spec in A. congruence.
    + intros A. apply key_before_spec in A. congruence.
Qed.

Lemma remove_sorted : forall t, StronglySorted before (remove_duplicate_heights t).
Proof. induction t; cbn; [constructor|]. apply insert_last_sorted. exact IHt. Qed.

Lemma remove_has_key : forall t x, In x t -> exists y, In y (remove_duplicate_heights t) /\ same_key_p x y.
Proof.
  induction t as [|r t IH]; intros x H; [destruct H|]. cbn [remove_duplicate_heights fold_right]. fold (remove_duplicate_heights t).
  pose proof (remove_sorted t) as S.
  assert (K : forall z, (exists y, In y (remove_duplicate_heights t) /\ same_key_p z y) ->
              exists y, In y (insert_last r (remove_duplicate_heights t)) /\ same_key_p z y).
  { intros z (y & A & B). exists y. split; [|exact B]. apply insert_last_in; [exact S|]. left. exact A. }
  destruct H as [->|H]; [|apply K; apply IH; exact H].
  destruct (existsb (same_key x) (remove_duplicate_heights t)) eqn:E.
  - apply existsb_exists in E. destruct E as (y & A & B). apply K. exists y. split; [exact A|apply same_key_spec; exact B].
  - exists x. split; [|split; reflexivity]. apply insert_last_in; [exact S|]. right. split; [reflexivity|].
    intros y Hy C. apply same_key_spec in C.
    assert (existsb (same_key x) (remove_duplicate_heights t) = true) by (apply existsb_exists; exists y; auto). congruence.
Qed.

(** Removing duplicate heights keeps a row exactly if no later row - of whatever
    LED array - has the same time and height; the result is sorted by time and
    height without duplicates. *)
Theorem C87_which_rows_are_kept :
  forall t,
  (forall r, In r (remove_duplicate_heights t) <->
     exists t1 t2, t = (t1 ++ r :: t2)%list /\
       forall r', In r' t2 -> ~ (t_time r = t_time r' /\ (l_height (t_row r) == l_height (t_row r'))%Q)) /\
  StronglySorted (fun a b => t_time a < t_time b \/
                             (t_time a = t_time b /\ (l_height (t_row a) < l_height (t_row b))%Q))
    (remove_duplicate_heights t).
Proof.
  intros t. split; [|exact (remove_sorted t)].
  induction t as [|x t IH]; intros r.
  - cbn. split; [intros []|]. intros (t1 & t2 & E & _). destruct t1; discriminate.
  - cbn [remove_duplicate_heights fold_right]. fold (remove_duplicate_heights t).
    rewrite insert_last_in by apply remove_sorted. split.
    + intros [H|[-> H]].
      * apply IH in H. destruct H as (t1 & t2 & E & N). exists (x :: t1), t2. split; [rewrite E; reflexivity|exact N].
      * exists [], t. split; [reflexivity|]. intros r' Hr' A. destruct (remove_has_key t r' Hr') as (y & Y1 & Y2).
        apply (H y Y1). destruct A as [A1 A2], Y2 as [B1 B2]. split; [congruence|]. rewrite A2. exact B2.
    + intros ([|y t1] & t2 & E & N).
      * right. assert (x = r) by (cbn in E; congruence). assert (t = t2) by (cbn in E; congruence). subst. split; [reflexivity|].
        intros y Hy. apply N. apply IH in Hy. destruct Hy as (u1 & u2 & Eu & _). rewrite Eu. apply in_or_app. right. left. reflexivity.
      * left. apply IH. exists t1, t2. split; [cbn in E; congruence|exact N].
Qed.
Print Assumptions C87_which_rows_are_kept.

(** So an array all of whose LEDs have, in every picture, a LED of another array
    at the same height later in the table disappears completely. *)
Theorem C87_an_array_can_disappear :
  forall t array,
  (forall t1 r t2, t = (t1 ++ r :: t2)%list -> l_arr (t_row r) = array ->
     exists r', In r' t2 /\ t_time r' = t_time r /\ (l_height (t_row r') == l_height (t_row r))%Q) ->
  forall r, In r (remove_duplicate_heights t) -> l_arr (t_row r) <> array.
Proof.
  intros t array H r Hr E. apply (proj1 (C87_which_rows_are_kept t)) in Hr. destruct Hr as (t1 & t2 & Et & N).
  destruct (H t1 r t2 Et E) as (r' & A & B & C). apply (N r' A). split; [auto|symmetry; exact C].
Qed.
Print Assumptions C87_an_array_can_disappear.

(** After the removal every array can be read by height. *)
Theorem C87_heights_can_be_read :
  forall num_ref delta t0 t1 t2 channel array w nr, 0 <= channel <= 2 ->
  exists x, get_ledparams_at_led_array num_ref delta
              (remove_duplicate_heights t0, remove_duplicate_heights t1, remove_duplicate_heights t2)
              channel array ByHeight w nr = Ok x.
Proof.
  intros num_ref delta t0 t1 t2 channel array w nr Hc.
  assert (K : forall t, exists x, ppivot w (array_entries num_ref delta (remove_duplicate_heights t) array ByHeight nr) = Ok x).
  { intros t. unfold ppivot. destruct (duplicate_pentry _) eqn:E; [|eexists; reflexivity].
    exfalso. apply duplicate_pentry_spec in E. apply clash_rows in E. destruct E as (i & k & a & b & L & A & B & T & D).
    destruct (nth_filter_before _ _ _ _ _ _ L A B) as (i' & k' & L' & A' & B').
    clear A B L. pose proof (remove_sorted t) as S. revert i' k' L' A' B'. cbn [label_of] in D.
    induction S as [|x l S IH F]; intros i' k' L' A' B'; [destruct i'; discriminate|].
    destruct k' as [|k']; [lia|]. cbn in B'. destruct i' as [|i'].
    - cbn in A'. apply Some_inj in A'. subst x. rewrite Forall_forall in F. apply nth_error_In in B'.
      apply (before_not_same a b (F b B')). split; assumption.
    - apply (IH i' k'); [lia|exact A'|exact B']. }
  unfold get_ledparams_at_led_array.
  assert (C : channel = 0 \/ channel = 1 \/ channel = 2) by lia.
  destruct C as [->|[->| ->]]; cbn [Z.eqb Pos.eqb]; apply K.
Qed.
Print Assumptions C87_heights_can_be_read.

(** LED 1 of array 0 and LED 2 of array 1 are at the same height: the values of
    LED 1 are gone. *)
Example C87_example :
  let t := join_times ex_images (ex_table [1; 4]) in
  map (fun r => (t_time r, l_led (t_row r))) t = [(0, 0); (0, 1); (0, 2); (5, 0); (5, 1); (5, 2)] /\
  map (fun r => (t_time r, l_led (t_row r))) (remove_duplicate_heights t) = [(0, 0); (0, 2); (5, 0); (5, 2)].
Proof. split; reflexivity. Qed.

Example C87_disappear_example :
  let t := [TRow 0 (LRow 1 0 0 1 10); TRow 0 (LRow 1 1 1 1 20); TRow 3 (LRow 2 0 0 1 11); TRow 3 (LRow 2 1 1 1 21)] in
  map (fun r => l_arr (t_row r)) (remove_duplicate_heights t) = [1; 1].
Proof. reflexivity. Qed.

(** ** C88 *)

(** The results can only be read if the LED parameters of all three channels are
    there, whatever channels were analysed. *)
Theorem C88_all_channels_are_needed :
  forall images tables solver dir,
  ((exists x, read_all images tables solver dir = Ok x) <->
     (forall ch, 0 <= ch <= 2 -> tables ch <> None) /\ (exists f, read_extco solver dir = Ok f)) /\
  ((exists ch, 0 <= ch <= 2 /\ tables ch = None) -> read_all images tables solver dir = Err FileNotFoundError).
Proof.
  intros images tables solver dir. unfold read_all, read_led_params. split.
  - split.
    + intros [x H]. split.
      * intros ch Hch E. assert (C : ch = 0 \/ ch = 1 \/ ch = 2) by lia.
        destruct C as [-> | [-> | -> ]]; destruct (tables 0), (tables 1), (tables 2); cbn in H; congruence.
      * destruct (tables 0), (tables 1), (tables 2); cbn in H; try discriminate.
        destruct (read_extco solver dir) as [f|e]; [exists f; reflexivity|discriminate].
    + intros [H [f E]]. pose proof (H 0 ltac:(lia)). pose proof (H 1 ltac:(lia)). pose proof (H 2 ltac:(lia)).
      destruct (tables 0), (tables 1), (tables 2); try congruence. cbn. rewrite E. eexists. reflexivity.
  - intros (ch & Hch & E). assert (C : ch = 0 \/ ch = 1 \/ ch = 2) by lia.
    destruct C as [-> | [-> | -> ]]; rewrite E; [reflexivity| |]; destruct (tables 0); try reflexivity; try (destruct (tables 1); reflexivity).
Qed.
Print Assumptions C88_all_channels_are_needed.

(** An experiment of which only channel 0 was extracted and analysed. *)
Example C88_example :
  (exists f, read_extco "linear" ex_dir = Ok f) /\
  read_all ex_images (fun ch => if ch =? 0 then Some (ex_table [1; 2]) else None) "linear" ex_dir = Err FileNotFoundError /\
  exists x, read_all ex_images (fun _ => Some (ex_table [1; 2])) "linear" ex_dir = Ok x.
Proof. split; [eexists; reflexivity|]. split; [reflexivity|]. eexists. reflexivity. Qed.
