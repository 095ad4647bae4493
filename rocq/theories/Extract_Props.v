(** C102: from the reference image to the measured sums, steps 1, 2 and 3 together. *)
From Coq Require Import List ZArith QArith Lia Bool Permutation Reals Lra.
From Verif Require Import Base Step1_Model Step1_Spec Step1_Proofs Step1_Props Step2_Model Step2_Spec Step2_Proofs Step2_Match Step2_Props
  Step2_GeoSpec Step2_GeoProps Step2_Geometry Nearly_Props Step3_Model Step3_Spec Step3_Props Pipeline_Model Pipeline_Props Dir_Model Dir_Props.
Import ListNotations.
Local Open Scope Z_scope.

(** ** Specification *)

(** Brightness at a position (row, column). *)
Definition light (img : image) (p : loc) : Z := px img (fst p) (snd p).

(** The light spots of a reference image: the positions [P] are brighter than the
    threshold and at least [r] away from the upper and left border, no one lies in the search
    square of another one, and every other bright pixel lies in the square of a brighter
    one of them. *)
Definition spots (img : image) (r : Z) (thr : Q) (P : list loc) : Prop :=
  NoDup P /\
  (forall p, In p P -> in_image img (fst p) (snd p) /\ r <= fst p /\ r <= snd p /\ brighter (light img p) thr) /\
  (forall p q, In p P -> In q P -> p <> q -> ~ in_square (fst p) (snd p) r (fst q) (snd q)) /\
  (forall y x, in_image img y x -> brighter (px img y x) thr ->
     In (y, x) P \/ exists p, In p P /\ in_square (fst p) (snd p) r y x /\ px img y x < light img p).

(** Positions with consecutive numbers. *)
Fixpoint numbered (s : Z) (l : list loc) : list row :=
  match l with [] => [] | p :: l' => (s, p) :: numbered (s + 1) l' end.

(** The arrays with the numbers of their LEDs, counted through all arrays. *)
Fixpoint blocks (s : Z) (lamps : list (list loc)) : list (list row) :=
  match lamps with [] => [] | A :: l => numbered s A :: blocks (s + Z.of_nat (length A)) l end.

(** The rows of lamps are roughly straight, and clear of each other and of the other
    lamps: seen from a lamp, the way over the next one to the last one is hardly longer than the
    direct one, compared with how much closer the next one is than any lamp that is left. *)
Definition lamps_straight (lamps : list (list loc)) (P : list loc) : Prop :=
  forall k A z i p q s, nth_error lamps k = Some A -> last A z = z -> In z A ->
    nth_error A i = Some p -> nth_error A (S i) = Some q ->
    In s P -> ~ In s (concat (firstn k lamps)) -> ~ In s (firstn (S i) A) -> s <> q ->
    (987 * detour p q z < 13 * (edist p s - edist p q))%R.

(** The user enters the numbers which step 1 gave to the first and the last lamp of
    each row. *)
Definition edges_entered (rows : list row) (lamps : list (list loc)) (edges : list (list Z)) : Prop :=
  Forall2 (fun A e => exists a b p, e = [a; b] /\ In (a, hd p A) rows /\ In (b, last A p) rows /\ A <> []) lamps edges.

(** What is to be measured: array by array, in each from the last lamp to the first. *)
Fixpoint to_measure (k : Z) (arrays : list (list row)) : list (Z * row) :=
  match arrays with [] => [] | A :: l => map (pair k) (rev A) ++ to_measure (k + 1) l end.

(** ** Step 1 *)

(** What is left of the image when the lamps [R] are still to be found. *)
Definition rest (img cur : image) (r : Z) (thr : Q) (R : list loc) : Prop :=
  ih cur = ih img /\ iw cur = iw img /\
  (forall p, In p R -> light cur p = light img p) /\
  (forall y x, in_image img y x -> brighter (px cur y x) thr ->
     px cur y x = px img y x /\ (In (y, x) R \/ exists p, In p R /\ in_square (fst p) (snd p) r y x /\ px img y x < light img p)).

Lemma square_cleared : forall img r y x y' x', 1 <= r -> r <= y -> r <= x -> in_image img y x -> in_image img y' x' ->
  px (clear img r y x) y' x' = 0 \/ (px (clear img r y x) y' x' = px img y' x' /\ ~ in_square y x r y' x').
Proof.
  intros img r y x y' x' Hr Hy Hx [I1 I2] [J1 J2]. cbn [clear px].
  destruct (in_slice (ih img) (y - r) (y + r) y' && in_slice (iw img) (x - r) (x + r) x') eqn:E; [left; reflexivity|right].
  split; [reflexivity|]. intros [S1 S2]. apply andb_false_iff in E.
  rewrite (in_slice_interior (ih img) y r y'), (in_slice_interior (iw img) x r x') in E by lia. destruct E; discriminate.
Qed.

Lemma outside_kept : forall img r y x y' x', 0 <= r -> in_image img y x ->
  ~ in_square y x r y' x' -> px (clear img r y x) y' x' = px img y' x'.
Proof.
  intros img r y x y' x' Hr [I1 I2] N. cbn [clear px].
  destruct (in_slice (ih img) (y - r) (y + r) y' && in_slice (iw img) (x - r) (x + r) x') eqn:E; [|reflexivity].
  apply andb_true_iff in E. destruct E as [E1 E2]. apply in_slice_nominal in E1, E2; try assumption. exfalso. apply N. split; assumption.
Qed.

Lemma loop_spots : forall mml thr r img, mml_ok mml -> (0 <= thr)%Q -> 1 <= r -> nonempty_image img ->
  forall k cur maxv i R, rest img cur r thr R -> NoDup R ->
  (forall p, In p R -> in_image img (fst p) (snd p) /\ r <= fst p /\ r <= snd p /\ brighter (light img p) thr) ->
  (forall p q, In p R -> In q R -> p <> q -> ~ in_square (fst p) (snd p) r (fst q) (snd q)) ->
  (length R <= k)%nat -> (forall y x, in_image cur y x -> px cur y x <= maxv) ->
  exists P', Permutation P' R /\ map to_row (search_loop mml thr r k cur maxv i) = numbered i P'.
Proof.
  intros mml thr r img Hm H0 Hr Hne. induction k as [|k IH]; intros cur maxv i R Hrest Nd HR Hsep Hk Hmax.
  { destruct R; [|cbn in Hk; lia]. exists []. split; [constructor|reflexivity]. }
  destruct Hrest as (E1 & E2 & E3 & E4).
  assert (Hi : forall y x, in_image cur y x <-> in_image img y x) by (intros; unfold in_image; rewrite E1, E2; tauto).
  assert (Hnc : nonempty_image cur) by (unfold nonempty_image; rewrite E1, E2; exact Hne).
  destruct (Hm cur Hnc) as (L1 & L2 & L3). cbv zeta in *. rewrite loop_unfold.
  destruct R as [|p0 R0].
  { exists []. split; [constructor|]. destruct (above maxv thr); [|reflexivity].
    destruct (above (fst (mml cur)) thr) eqn:Ea; [|reflexivity]. exfalso. apply above_spec in Ea. rewrite <- L2 in Ea.
    apply Hi in L1. destruct (E4 _ _ L1 Ea) as (_ & [[]|(p & [] & _)]). }
  set (R := p0 :: R0) in *. set (y := snd (snd (mml cur))) in *. set (x := fst (snd (mml cur))) in *.
  destruct (HR p0 (or_introl eq_refl)) as (B1 & _ & _ & B2).
  assert (B3 : brighter (px cur (fst p0) (snd p0)) thr) by (fold (light cur p0); rewrite (E3 p0 (or_introl eq_refl)); exact B2).
  assert (Mono : forall a b, a <= b -> brighter a thr -> brighter b thr).
  { intros a b Hab Ha. unfold brighter in *. eapply Qlt_le_trans; [exact Ha|]. rewrite <- Zle_Qle. exact Hab. }
  assert (A1 : above maxv thr = true) by (apply above_spec; apply (Mono _ _ (Hmax _ _ (proj2 (Hi _ _) B1)) B3)).
  assert (A2 : brighter (fst (mml cur)) thr) by (apply (Mono _ _ (L3 _ _ (proj2 (Hi _ _) B1)) B3)).
  rewrite A1, (proj2 (above_spec _ _) A2). rewrite <- L2 in A2. pose proof (proj1 (Hi _ _) L1) as L1'.
  assert (Hin : In (y, x) R).
  { destruct (E4 _ _ L1' A2) as (Q1 & [Q2|(p & Q2 & _ & Q3)]); [exact Q2|exfalso].
    pose proof (L3 _ _ (proj2 (Hi _ _) (proj1 (HR p Q2)))) as X. fold (light cur p) in X. rewrite (E3 p Q2) in X. rewrite <- Q1, L2 in Q3. lia. }
  destruct (HR _ Hin) as (_ & Y1 & X1 & _). cbn [fst snd] in Y1, X1.
  destruct (in_split _ _ Hin) as (R1 & R2 & ER).
  assert (Sub : forall q, In q (R1 ++ R2) <-> In q R /\ q <> (y, x)).
  { intros q. rewrite ER in Nd |- *. apply NoDup_remove in Nd. destruct Nd as (_ & Nd). rewrite !in_app_iff. cbn [In]. rewrite in_app_iff in Nd.
    split; [intros Hq|intros [[Hq|[Hq|Hq]] Hq2]; [tauto|congruence|tauto]]. split; [tauto|]. intros ->. tauto. }
  destruct (IH (clear cur r y x) (fst (mml cur)) (i + 1) (R1 ++ R2)) as (P' & Pm & EP).
  - repeat split; try assumption.
    + intros q Hq. apply Sub in Hq. destruct Hq as [Hq Hq2]. unfold light at 1. rewrite outside_kept; [apply E3, Hq|lia|exact L1|].
      apply (Hsep (y, x) q Hin Hq). congruence.
    + destruct (square_cleared cur r y x y0 x0 Hr Y1 X1 L1 (proj2 (Hi _ _) H)) as [Z0|[Z0 Z1]]; rewrite Z0 in H1 |- *.
      * exfalso. pose proof (brighter_pos thr 0 H0 H1). lia.
      * exact (proj1 (E4 _ _ H H1)).
    + destruct (square_cleared cur r y x y0 x0 Hr Y1 X1 L1 (proj2 (Hi _ _) H)) as [Z0|[Z0 Z1]]; rewrite Z0 in H1.
      * exfalso. pose proof (brighter_pos thr 0 H0 H1). lia.
      * destruct (E4 _ _ H H1) as (_ & [Q2|(p & Q2 & Q3 & Q4)]).
        -- left. apply Sub. split; [exact Q2|]. intros E. injection E as -> ->. apply Z1. split; lia.
        -- right. exists p. split; [apply Sub; split; [exact Q2|]|split; [exact Q3|exact Q4]].
           intros ->. apply Z1. exact Q3.
  - rewrite ER in Nd. apply NoDup_remove in Nd. tauto.
  - intros q Hq. apply Sub in Hq. apply HR. tauto.
  - intros p q Hp Hq. apply Sub in Hp, Hq. apply Hsep; tauto.
  - rewrite ER, app_length in Hk. cbn [length] in Hk. rewrite app_length. lia.
  - intros y' x' Hyx. assert (Hyx' : in_image cur y' x') by exact Hyx.
    destruct (square_cleared cur r y x y' x' Hr Y1 X1 L1 Hyx') as [Z0|[Z0 _]]; rewrite Z0; [|apply L3, Hyx'].
    pose proof (brighter_pos thr _ H0 A2). lia.
  - exists ((y, x) :: P'). split.
    + rewrite ER. apply Permutation_cons_app. exact Pm.
    + cbn [map to_row numbered]. rewrite EP. reflexivity.
Qed.

(** Step 1 finds exactly the light spots, in the order of their brightness. *)
Theorem C102_step1_finds_the_spots : forall mml img r q max_n thr P,
  mml_ok mml -> nonempty_image img -> nonneg_image img -> 1 <= r ->
  percentile (pixels img) q = Ok thr -> spots img r thr P -> Z.of_nat (length P) <= max_n ->
  exists P' rows, Permutation P' P /\ find_search_areas mml img r q max_n = Ok (rows, thr) /\ map to_row rows = numbered 0 P'.
Proof.
  intros mml img r q max_n thr P Hm Hne Hnn Hr Hp (S1 & S2 & S3 & S4) Hk.
  assert (H0 : (0 <= thr)%Q) by (eapply threshold_nonneg; eauto).
  destruct (loop_spots mml thr r img Hm H0 Hr Hne (Z.to_nat max_n) img (fst (mml img)) 0 P) as (P' & Pm & E); try assumption.
  - split; [reflexivity|]. split; [reflexivity|]. split; [reflexivity|]. intros y x Hi Hb. split; [reflexivity|]. apply S4; assumption.
  - lia.
  - destruct (Hm img Hne) as (_ & _ & M). exact M.
  - exists P'. eexists. split; [exact Pm|]. split; [|exact E].
    unfold find_search_areas. destruct Hne as [N1 N2].
    replace (ih img <=? 0) with false by (symmetry; apply Z.leb_gt; lia).
    replace (iw img <=? 0) with false by (symmetry; apply Z.leb_gt; lia).
    cbn [orb]. rewrite Hp. reflexivity.
Qed.
Print Assumptions C102_step1_finds_the_spots.

(** ** Numbered positions *)

Lemma numbered_app : forall A B s, numbered s (A ++ B) = numbered s A ++ numbered (s + Z.of_nat (length A)) B.
Proof.
  induction A as [|p A IH]; intros B s; cbn [app numbered length]; [f_equal; lia|].
  rewrite IH. do 3 f_equal. lia.
Qed.

Lemma concat_blocks : forall lamps s, concat (blocks s lamps) = numbered s (concat lamps).
Proof. induction lamps as [|A l IH]; intros s; cbn [blocks concat numbered]; [reflexivity|]. rewrite numbered_app, IH. reflexivity. Qed.

Lemma numbered_ids : forall A s, ids (numbered s A) = zrange s (s + Z.of_nat (length A)).
Proof.
  induction A as [|p A IH]; intros s; cbn [numbered length]; [rewrite zrange_nil by lia; reflexivity|].
  cbn [ids map fst]. fold (ids (numbered (s + 1) A)). rewrite IH, (zrange_cons s) by lia. do 2 f_equal. lia.
Qed.

Lemma numbered_snd : forall A s, map snd (numbered s A) = A.
Proof. induction A as [|p A IH]; intros s; cbn; [reflexivity|]. rewrite IH. reflexivity. Qed.

Lemma numbered_length : forall A s, length (numbered s A) = length A.
Proof. intros A s. rewrite <- (map_length snd), numbered_snd. reflexivity. Qed.

Lemma numbered_positional : forall A, positional (numbered 0 A).
Proof. intros A. apply positional_ids. rewrite numbered_ids, numbered_length. f_equal. Qed.

Lemma reorder_blocks : forall lamps (arrays : list (list Z)) s, map (@length Z) arrays = map (@length loc) lamps ->
  reorder_from s arrays = map ids (blocks s lamps).
Proof.
  induction lamps as [|A l IH]; intros [|a arrays] s E; try discriminate; [reflexivity|].
  cbn [map] in E. injection E as E1 E2. cbn [reorder_from blocks map]. rewrite numbered_ids, E1, (IH arrays _ E2). do 2 f_equal. lia.
Qed.

Lemma renumber_numbered : forall rs s, renumber s rs = numbered s (map snd rs).
Proof. induction rs as [|r rs IH]; intros s; cbn [renumber map numbered]; [reflexivity|]. rewrite IH. reflexivity. Qed.

Lemma index_row : forall rows k p, positional rows -> In (k, p) rows -> np_index rows k = Ok (k, p).
Proof.
  intros rows k p Hp Hin. destruct (np_index_positional rows k Hp) as (p' & E & Hin'); [apply (in_map fst) in Hin; exact Hin|].
  rewrite E. f_equal. apply (ids_inj rows); [apply positional_nodup, Hp|exact Hin'|exact Hin|reflexivity].
Qed.

Lemma index_rows : forall rows l, positional rows -> incl l rows -> mapM (np_index rows) (ids l) = Ok l.
Proof.
  intros rows l Hp. induction l as [|[k p] l IH]; intros Hi; [reflexivity|].
  cbn [ids map fst mapM]. rewrite (index_row rows k p Hp (Hi _ (or_introl eq_refl))). cbn [bind].
  fold (ids l). rewrite IH by (intros e He; apply Hi; right; exact He). reflexivity.
Qed.

Lemma concat_ids : forall arrays : list (list row), concat (map ids arrays) = ids (concat arrays).
Proof. intros arrays. unfold ids. rewrite concat_map. reflexivity. Qed.

(** Step 2 renumbers the lamps array by array. *)
Lemma reorder_rows : forall rows (arrays : list (list row)), positional rows -> (forall A, In A arrays -> incl A rows) ->
  reorder_search_areas rows (map ids arrays) = Ok (numbered 0 (concat (map (map snd) arrays))).
Proof.
  intros rows arrays Hp Hi. unfold reorder_search_areas. rewrite concat_ids, index_rows.
  - cbn [bind]. rewrite renumber_numbered, concat_map. reflexivity.
  - exact Hp.
  - intros e He. apply in_concat in He. destruct He as (A & HA & He). exact (Hi A HA e He).
Qed.

(** ** The lamps of the arrays among the numbered rows *)

Lemma label_row : forall P' l, incl l P' -> exists a : list row, map snd a = l /\ incl a (numbered 0 P').
Proof.
  intros P'. induction l as [|p l IH]; intros Hi; [exists []; split; [reflexivity|intros e []]|].
  destruct IH as (a & E & Ha); [intros e He; apply Hi; right; exact He|].
  assert (Hp : In p (map snd (numbered 0 P'))) by (rewrite numbered_snd; apply Hi; left; reflexivity).
  apply in_map_iff in Hp. destruct Hp as (e & <- & He). exists (e :: a). split; [cbn; rewrite E; reflexivity|].
  intros f [<-|Hf]; [exact He|apply Ha, Hf].
Qed.

Lemma label_arrays : forall P' lamps, incl (concat lamps) P' ->
  exists arrays : list (list row), map (map snd) arrays = lamps /\ forall A, In A arrays -> incl A (numbered 0 P').
Proof.
  intros P'. induction lamps as [|l lamps IH]; intros Hi; [exists []; split; [reflexivity|intros A []]|].
  destruct IH as (arrays & E & Ha); [intros e He; apply Hi; cbn [concat]; apply in_or_app; right; exact He|].
  destruct (label_row P' l) as (a & E1 & Ha1); [intros e He; apply Hi; cbn [concat]; apply in_or_app; left; exact He|].
  exists (a :: arrays). split; [cbn [map]; rewrite E1, E; reflexivity|]. intros A [<-|HA]; [exact Ha1|apply Ha, HA].
Qed.

Lemma same_position : forall P' (e f : row), NoDup P' -> In e (numbered 0 P') -> In f (numbered 0 P') -> snd e = snd f -> e = f.
Proof.
  intros P'. generalize 0 as s. induction P' as [|p P' IH]; intros s e f Nd He Hf E; [destruct He|].
  inversion Nd as [|? ? Np Nd']; subst. cbn [numbered] in He, Hf.
  assert (X : forall g, In g (numbered (s + 1) P') -> In (snd g) P').
  { intros g Hg. rewrite <- (numbered_snd P' (s + 1)). apply in_map, Hg. }
  destruct He as [<-|He], Hf as [<-|Hf]; cbn [snd] in E.
  - reflexivity.
  - exfalso. apply Np. rewrite E. apply X, Hf.
  - exfalso. apply Np. rewrite <- E. apply X, He.
  - exact (IH (s + 1) e f Nd' He Hf E).
Qed.

Lemma nodup_ids : forall rows (l : list row), NoDup (ids rows) -> incl l rows -> NoDup l -> NoDup (ids l).
Proof.
  intros rows l Hr. induction l as [|e l IH]; intros Hi Nd; [constructor|].
  inversion Nd; subst. cbn [ids map]. constructor.
  - intros Hin. apply in_map_iff in Hin. destruct Hin as (f & E & Hf).
    assert (f = e) by (apply (ids_inj rows); [exact Hr|apply Hi; right; exact Hf|apply Hi; left; reflexivity|exact E]). subst f. contradiction.
  - apply IH; [intros f Hf; apply Hi; right; exact Hf|assumption].
Qed.

Lemma last_map : forall A B (f : A -> B) l d, last (map f l) (f d) = f (last l d).
Proof. intros A B f l d. induction l as [|a l IH]; [reflexivity|]. cbn [map]. destruct l; [reflexivity|]. cbn [map] in *. exact IH. Qed.

Lemma last_in : forall A (l : list A) d, l <> [] -> In (last l d) l.
Proof. intros A l d. induction l as [|a l IH]; intros N; [congruence|]. destruct l as [|b l]; [left; reflexivity|]. right. apply IH. discriminate. Qed.

Lemma last_any : forall A (l : list A) d d', l <> [] -> last l d = last l d'.
Proof. intros A l d d'. induction l as [|a l IH]; intros N; [congruence|]. destruct l as [|b l]; [reflexivity|]. apply IH. discriminate. Qed.

Lemma edges_are_labels : forall P' (arrays : list (list row)) edges, NoDup P' ->
  (forall A, In A arrays -> incl A (numbered 0 P')) ->
  edges_entered (numbered 0 P') (map (map snd) arrays) edges -> edges = map edge_labels arrays.
Proof.
  intros P' arrays edges Nd Hi H. unfold edges_entered in H. remember (map (map snd) arrays) as lamps eqn:El. revert arrays El Hi.
  induction H as [|A e lamps edges (a & b & p & E1 & E2 & E3 & E4) F IH]; intros [|B arrays] El Hi; try discriminate; [reflexivity|].
  cbn [map] in El. injection El as EA El. cbn [map]. f_equal.
  - destruct B as [|e0 B]; [cbn in EA; congruence|]. subst e. cbn [edge_labels].
    assert (IB : incl (e0 :: B) (numbered 0 P')) by (apply Hi; left; reflexivity).
    assert (X1 : (a, hd p A) = e0).
    { apply (same_position P'); [exact Nd|exact E2|apply IB; left; reflexivity|]. rewrite EA. reflexivity. }
    assert (X2 : (b, last A p) = last (e0 :: B) e0).
    { apply (same_position P'); [exact Nd|exact E3|apply IB, last_in; discriminate|].
      cbn [snd]. rewrite EA. rewrite (last_any _ _ p (snd e0)) by discriminate. apply (last_map _ _ snd (e0 :: B) e0). }
    rewrite <- X2, <- X1. reflexivity.
  - apply IH; [exact El|]. intros C HC. apply Hi. right. exact HC.
Qed.

Lemma straight_rows : forall P P' lamps (arrays : list (list row)), Permutation P' P -> NoDup P' ->
  map (map snd) arrays = lamps -> (forall A, In A arrays -> incl A (numbered 0 P')) -> lamps_straight lamps P ->
  forall k A z, nth_error arrays k = Some A -> last A z = z -> In z A ->
  nearly_straight (numbered 0 P') (concat (map ids (firstn k arrays))) A (snd z).
Proof.
  intros P P' lamps arrays Pm Nd El Hi Hs k A z Hk Hz Hz2 i p q Hp Hq e (He1 & He2) Hne.
  assert (HA : incl A (numbered 0 P')) by (apply Hi; eapply nth_error_In; eauto).
  rewrite in_app_iff in He2.
  assert (Sub : forall l : list row, incl l (numbered 0 P') -> In (snd e) (map snd l) -> In e l).
  { intros l Hl X. apply in_map_iff in X. destruct X as (f & E & Hf). rewrite <- (same_position P' f e Nd (Hl f Hf) He1 E). exact Hf. }
  apply (Hs k (map snd A) (snd z) i (snd p) (snd q) (snd e)).
  - subst lamps. rewrite nth_error_map, Hk. reflexivity.
  - rewrite last_map, Hz. reflexivity.
  - apply in_map, Hz2.
  - rewrite nth_error_map, Hp. reflexivity.
  - rewrite nth_error_map, Hq. reflexivity.
  - apply (Permutation_in _ Pm). rewrite <- (numbered_snd P' 0). apply in_map, He1.
  - intros X. apply He2. left. rewrite concat_ids. apply (in_map fst). apply Sub.
    + intros f Hf. apply in_concat in Hf. destruct Hf as (B & HB & Hf). apply (Hi B); [|exact Hf].
      rewrite <- (firstn_skipn k arrays). apply in_or_app. left. exact HB.
    + subst lamps. rewrite firstn_map in X. rewrite concat_map. exact X.
  - intros X. apply He2. right. apply (in_map fst). apply Sub.
    + intros f Hf. apply HA. rewrite <- (firstn_skipn (S i) A). apply in_or_app. left. exact Hf.
    + rewrite <- firstn_map. exact X.
  - intros X. apply Hne. f_equal. apply (same_position P'); [exact Nd|exact He1|apply HA; eapply nth_error_In; eauto|exact X].
Qed.

(** Step 2 on the table of step 1. *)
Lemma step2_lamps : forall P P' lamps edges, Permutation P' P -> NoDup P -> incl (concat lamps) P -> NoDup (concat lamps) ->
  Forall (fun A => (2 <= length A)%nat) lamps -> lamps_straight lamps P -> edges_entered (numbered 0 P') lamps edges ->
  exists arrays, match_leds_to_led_arrays real_geometry 5 (numbered 0 P') edges [] None = Ok arrays /\
    reorder_search_areas (numbered 0 P') arrays = Ok (numbered 0 (concat lamps)) /\
    reorder_led_indices arrays = map ids (blocks 0 lamps).
Proof.
  intros P P' lamps edges Pm Nd Hi Nl H2 Hs He.
  assert (Nd' : NoDup P') by (apply (Permutation_NoDup (Permutation_sym Pm)), Nd).
  destruct (label_arrays P' lamps) as (arrays & El & Ha).
  { intros e X. apply (Permutation_in _ (Permutation_sym Pm)), Hi, X. }
  pose proof (numbered_positional P') as Hpos.
  exists (map ids arrays). split; [|split].
  - rewrite <- El in He. rewrite (edges_are_labels P' arrays edges Nd' Ha He).
    apply C101_nearly_straight_arrays_are_found.
    + apply positional_nodup, Hpos.
    + rewrite concat_ids. apply (nodup_ids (numbered 0 P')).
      * apply positional_nodup, Hpos.
      * intros e X. apply in_concat in X. destruct X as (A & HA & X). exact (Ha A HA e X).
      * apply (NoDup_map_inv snd). rewrite concat_map, El. exact Nl.
    + intros A HA. split; [apply Ha, HA|]. rewrite Forall_forall in H2. rewrite <- (map_length snd). apply H2. subst lamps. apply in_map, HA.
    + apply (straight_rows P P' lamps arrays Pm Nd' El Ha Hs).
  - rewrite (reorder_rows _ _ Hpos Ha), El. reflexivity.
  - unfold reorder_led_indices. apply reorder_blocks. subst lamps. rewrite !map_map. apply map_ext. intros A.
    unfold ids. rewrite !map_length. reflexivity.
Qed.

(** ** Step 3 *)

(** The record of a lamp: id, array and sum, mean and maximum over the square around the lamp,
    as far as it lies in the image. *)
Definition measured {F} (img : image) (r : Z) (e : Z * row) (d : led_data F) : Prop :=
  let '(k, (led, (y, x))) := e in
  let ps := window img (y - r) (Z.min (y + r) (ih img)) (x - r) (Z.min (x + r) (iw img)) in
  d_id d = led /\ d_array d = k /\
  d_sum d = total ps /\ (d_mean d * inject_Z (Z.of_nat (length ps)) == inject_Z (total ps))%Q /\ is_max (d_max d) ps.

(** Wide enough for the square of every lamp to start inside. *)
Definition holds_lamps (img : image) (r : Z) (P : list loc) : Prop :=
  forall p, In p P -> r <= fst p < ih img /\ r <= snd p < iw img.

Lemma led_loop_lamps : forall F (fit : option (list (list Z) -> res F)) img r rows k (l : list row),
  (forall f a, fit = Some f -> exists v, f a = Ok v) ->
  positional rows -> 1 <= r -> incl l rows -> holds_lamps img r (map snd l) ->
  exists ds, led_loop fit img r rows 0 k (ids l) = Ok ds /\ Forall2 (measured img r) (map (pair k) l) ds.
Proof.
  intros F fit img r rows k l Hf Hp Hr. induction l as [|[led [y x]] l IH]; intros Hi Hh; [exists []; split; [reflexivity|constructor]|].
  destruct IH as (ds & E & Fa); [intros e He; apply Hi; right; exact He|intros p X; apply Hh; right; exact X|].
  destruct (Hh (y, x) (or_introl eq_refl)) as [Y X]. cbn [fst snd] in Y, X.
  destruct (C20_measures_the_square_of_the_led F fit img r rows led k led y x) as (d & Ed & D1 & D2 & D3 & D4 & D5); try lia; try assumption.
  { apply index_row; [exact Hp|apply Hi; left; reflexivity]. }
  exists (d :: ds). cbn [ids map fst led_loop]. fold (ids l). change (0 + 1) with 1. rewrite Z.mod_1_r. cbn [Z.eqb].
  rewrite Ed. cbn [bind]. rewrite E. cbn [bind]. split; [reflexivity|].
  cbn [map]. constructor; [|exact Fa]. split; [exact D1|]. split; [exact D2|]. split; [exact D3|]. split; [exact D4|exact D5].
Qed.

Lemma array_loop_lamps : forall F (fit : option (list (list Z) -> res F)) img r rows arrays k,
  (forall f a, fit = Some f -> exists v, f a = Ok v) ->
  positional rows -> 1 <= r -> (forall A, In A arrays -> incl A rows) -> holds_lamps img r (map snd (concat arrays)) ->
  exists ds, array_loop fit img r rows 0 k (map (@rev Z) (map ids arrays)) = Ok ds /\ Forall2 (measured img r) (to_measure k arrays) ds.
Proof.
  intros F fit img r rows arrays k Hf Hp Hr. revert k. induction arrays as [|A arrays IH]; intros k Hi Hh; [exists []; split; [reflexivity|constructor]|].
  cbn [concat] in Hh. rewrite map_app in Hh.
  destruct (IH (k + 1)) as (ds & E & Fa); [intros B HB; apply Hi; right; exact HB|intros p X; apply Hh; apply in_or_app; right; exact X|].
  destruct (led_loop_lamps F fit img r rows k (rev A) Hf Hp Hr) as (d & Ed & Fd).
  { intros e He. apply (Hi A (or_introl eq_refl)). apply in_rev. exact He. }
  { intros p X. apply Hh, in_or_app. left. rewrite map_rev in X. apply in_rev. exact X. }
  exists (d ++ ds). cbn [map array_loop to_measure]. unfold ids at 1. rewrite <- map_rev. fold (ids (rev A)). rewrite Ed. cbn [bind]. rewrite E.
  split; [reflexivity|]. apply Forall2_app; assumption.
Qed.

Lemma blocks_incl : forall lamps s B, In B (blocks s lamps) -> incl B (concat (blocks s lamps)).
Proof. intros lamps s B HB e He. apply in_concat. exists B. auto. Qed.

Lemma blocks_length : forall lamps s, length (blocks s lamps) = length lamps.
Proof. induction lamps as [|A l IH]; intros s; cbn; [reflexivity|]. rewrite IH. reflexivity. Qed.

(** ** The three steps *)

Lemma index_files_elsewhere : forall mk k i arrays, (forall j, mk j <> k) -> ~ touches k (write_index_files mk i arrays).
Proof.
  intros mk k i arrays N. revert i. induction arrays as [|a l IH]; intros i (e & He & E); [destruct He|].
  cbn [write_index_files] in He. apply in_app_or in He. destruct He as [He|He].
  - assert (T : touches k (write_file Ids (mk i) (rev a))) by (exists e; auto). apply touches_write_file in T. apply (N i). congruence.
  - apply (IH (i + 1)). exists e. auto.
Qed.

Lemma step2_areas : forall E mem s rows arrays rows', s KFlag = None ->
  (match mem with Some r => Ok r | None => load_search_areas s end) = Ok rows -> rows <> [] ->
  match_leds_to_led_arrays (e_geo E) 5 rows (e_edges E) (e_ignored E) None = Ok arrays ->
  reorder_search_areas rows arrays = Ok rows' -> rows' <> [] -> e_plot E rows' = true ->
  r_res (step2 E mem s) = Ok tt /\ apply_all (r_effects (step2 E mem s)) s KAreas = Some (Rows rows').
Proof.
  intros E mem s rows arrays rows' Hf Hl Hn Hm Hr Hn' Hp.
  assert (C : r_res (step2 E mem s) = Ok tt).
  { unfold step2. rewrite Hf, Hl, Hm. destruct rows; [congruence|]. rewrite Hr. unfold plot_ok. destruct rows'; [congruence|]. rewrite Hp. reflexivity. }
  split; [exact C|]. destruct (step2_complete_inv _ _ _ C) as (_ & rows0 & arrays0 & rows0' & L0 & M0 & R0 & _ & Ef).
  assert (rows0 = rows) by congruence. subst rows0. assert (arrays0 = arrays) by congruence. subst arrays0. assert (rows0' = rows') by congruence. subst rows0'.
  rewrite Ef, apply_all_app. rewrite apply_all_untouched; [apply write_file_result|].
  intros (e & He & Et). apply in_app_or in He. destruct He as [[<-|[<-|[]]]|He]; try discriminate Et.
  apply in_app_or in He. destruct He as [He|He]; [apply (index_files_elsewhere KIdx KAreas 0 (reorder_led_indices arrays)); [discriminate|exists e; auto]|].
  apply in_app_or in He. destruct He as [[<-|[]]|He]; [discriminate Et|].
  destruct (e_merge E) as [gs|]; [|destruct He]. apply in_app_or in He. destruct He as [He|[<-|[]]]; [|discriminate Et].
  apply (index_files_elsewhere KMerge KAreas 0 (merge_indices (reorder_led_indices arrays) (Some gs))); [discriminate|exists e; auto].
Qed.

(** Reference image with rows of lamps and strays; step 1; the user enters the edge
    labels; step 2 in a new process; step 3 on any image. *)
Theorem C102_extraction : forall E1 E2 st img thr lamps strays,
  let P := concat lamps ++ strays in
  let r := e_radius E1 in
  mml_ok (e_mml E1) -> e_image E1 = Ok img -> nonempty_image img -> nonneg_image img -> 1 <= r ->
  percentile (pixels img) (e_percentile E1) = Ok thr -> spots img r thr P -> Z.of_nat (length P) <= e_max_leds E1 ->
  (forall rows, e_plot E1 rows = true /\ e_plot E2 rows = true) ->
  lamps <> [] -> Forall (fun A => (2 <= length A)%nat) lamps -> lamps_straight lamps P ->
  e_geo E2 = real_geometry -> e_ignored E2 = [] ->
  let st1 := exec_all [Step1 E1; NewProcess] st in
  (forall rows, fst st1 KAreas = Some (Rows rows) -> edges_entered rows lamps (e_edges E2)) ->
  let s2 := fst (exec (Step2 E2) st1) in
  let n := Z.of_nat (length lamps) in
  step1_completes E1 /\ step2_completes E2 st1 /\
  load_search_areas s2 = Ok (concat (blocks 0 lamps)) /\
  load_indices n None s2 = Ok (map (fun B => rev (map fst B)) (blocks 0 lamps)) /\
  forall F (fit : option (list (list Z) -> res F)) img3 areas arrays,
    (forall f a, fit = Some f -> exists v, f a = Ok v) -> ih img3 = ih img -> iw img3 = iw img ->
    load_search_areas s2 = Ok areas -> load_indices n None s2 = Ok arrays ->
    exists ds, generate_analysis_data fit img3 r areas arrays 0 = Ok ds /\
      Forall2 (measured img3 r) (to_measure 0 (blocks 0 lamps)) ds.
Proof.
  intros E1 E2 st img thr lamps strays P r Hm Hi Hne Hnn Hr Hp Hs Hk Hpl Hl0 Hl2 Hst Hg Hig st1 He s2 n.
  destruct (C102_step1_finds_the_spots _ _ _ _ _ _ _ Hm Hne Hnn Hr Hp Hs Hk) as (P' & rows & Pm & Ef & Er).
  assert (Ec : compute_areas E1 = Ok (numbered 0 P')).
  { unfold compute_areas. rewrite Hi. cbn [bind]. fold r. rewrite Ef. cbn [bind fst]. rewrite Er. reflexivity. }
  assert (Hlen : (2 <= length (concat lamps))%nat).
  { destruct lamps as [|A l]; [congruence|]. inversion Hl2; subst. cbn [concat]. rewrite app_length. lia. }
  assert (Hlen' : (2 <= length P')%nat).
  { rewrite (Permutation_length Pm). unfold P. rewrite app_length. lia. }
  assert (C1 : step1_completes E1).
  { unfold step1_completes, step1. rewrite Ec. destruct (numbered 0 P') eqn:En.
    - apply (f_equal (@length _)) in En. rewrite numbered_length in En. cbn in En. lia.
    - cbn [plot_ok]. rewrite (proj1 (Hpl _)). reflexivity. }
  destruct (C14_step1_allows_step2 E1 st C1) as (Hflag & rows1 & Ec1 & Ea1 & _).
  assert (rows1 = numbered 0 P') by congruence. subst rows1.
  assert (Est : st1 = (fst (exec (Step1 E1) st), None)) by (unfold st1, exec_all; cbn [fold_left]; destruct (exec (Step1 E1) st); reflexivity).
  specialize (He (numbered 0 P')). rewrite Est in He. cbn [fst] in He. specialize (He Ea1).
  pose proof (proj1 Hs) as Nd. pose proof Nd as Nd2. unfold P in Nd2. apply NoDup_app_inv in Nd2. destruct Nd2 as (Nl & _ & _).
  destruct (step2_lamps P P' lamps (e_edges E2) Pm Nd) as (arrays & Hma & Hre & Hli); try assumption.
  { intros e X. unfold P. apply in_or_app. left. exact X. }
  rewrite <- Hg, <- Hig in Hma.
  assert (Eload : load_search_areas (fst (exec (Step1 E1) st)) = Ok (numbered 0 P')).
  { unfold load_search_areas. rewrite Ea1. destruct P' as [|p1 [|p2 P'']]; cbn in Hlen'; try lia. reflexivity. }
  destruct (step2_areas E2 None (fst (exec (Step1 E1) st)) (numbered 0 P') arrays (numbered 0 (concat lamps))) as (C2 & A2); try assumption.
  { intros X. apply (f_equal (@length _)) in X. rewrite numbered_length in X. cbn in X. lia. }
  { intros X. apply (f_equal (@length _)) in X. rewrite numbered_length in X. cbn in X. lia. }
  { apply (proj2 (Hpl _)). }
  assert (Es2 : s2 = apply_all (r_effects (step2 E2 None (fst (exec (Step1 E1) st)))) (fst (exec (Step1 E1) st))) by (unfold s2; rewrite Est; reflexivity).
  assert (L2 : load_search_areas s2 = Ok (concat (blocks 0 lamps))).
  { rewrite concat_blocks. unfold load_search_areas. rewrite Es2, A2. destruct (concat lamps) as [|p1 [|p2 l]]; cbn in Hlen; try lia. reflexivity. }
  assert (L3 : load_indices n None s2 = Ok (map (@rev Z) (map ids (blocks 0 lamps)))).
  { destruct (C98_loaded_arrays E2 None _ C2) as (arrays' & Ha' & Hb). specialize (Ha' _ Eload). assert (arrays' = arrays) by congruence. subst arrays'.
    cbn zeta in Hb. destruct Hb as (_ & Hb & _). rewrite <- Es2 in Hb. rewrite Hli in Hb. rewrite map_length, blocks_length in Hb.
    rewrite (Hb n) by (unfold n; lia). unfold n. rewrite Nat2Z.id. do 2 f_equal.
    rewrite <- (blocks_length lamps 0), <- (map_length ids). apply firstn_all. }
  split; [exact C1|]. split; [rewrite Est; exact C2|]. split; [exact L2|]. split; [rewrite L3, map_map; reflexivity|].
  intros F fit img3 areas arrs Hfit H1 H2 La Li. rewrite L2 in La. apply Ok_inj in La. subst areas. rewrite L3 in Li. apply Ok_inj in Li. subst arrs.
  apply array_loop_lamps; try assumption.
  - rewrite concat_blocks. apply numbered_positional.
  - intros A HA. apply blocks_incl, HA.
  - rewrite concat_blocks, numbered_snd. intros p X. destruct Hs as (_ & Hs & _). destruct (Hs p) as ((I1 & I2) & J1 & J2 & _); [apply in_or_app; left; exact X|].
    rewrite H1, H2. lia.
Qed.
Print Assumptions C102_extraction.

(** What steps 1 and 2 leave behind depends on the positions of the lamps only, not on
    the order of their brightness, on strays, or on how often the steps ran before. *)
Theorem C102_brightness_does_not_matter : forall E1 E2 st img thr strays E1' E2' st' img' thr' strays' lamps,
  let good E1 E2 st img thr strays :=
    let P := concat lamps ++ strays in
    mml_ok (e_mml E1) /\ e_image E1 = Ok img /\ nonempty_image img /\ nonneg_image img /\ 1 <= e_radius E1 /\
    percentile (pixels img) (e_percentile E1) = Ok thr /\ spots img (e_radius E1) thr P /\ Z.of_nat (length P) <= e_max_leds E1 /\
    (forall rows, e_plot E1 rows = true /\ e_plot E2 rows = true) /\ lamps_straight lamps P /\
    e_geo E2 = real_geometry /\ e_ignored E2 = [] /\
    (forall rows, fst (exec_all [Step1 E1; NewProcess] st) KAreas = Some (Rows rows) -> edges_entered rows lamps (e_edges E2)) in
  lamps <> [] -> Forall (fun A => (2 <= length A)%nat) lamps ->
  good E1 E2 st img thr strays -> good E1' E2' st' img' thr' strays' ->
  let s2 := fst (exec (Step2 E2) (exec_all [Step1 E1; NewProcess] st)) in
  let s2' := fst (exec (Step2 E2') (exec_all [Step1 E1'; NewProcess] st')) in
  load_search_areas s2 = load_search_areas s2' /\
  load_indices (Z.of_nat (length lamps)) None s2 = load_indices (Z.of_nat (length lamps)) None s2'.
Proof.
  intros E1 E2 st img thr strays E1' E2' st' img' thr' strays' lamps good H0 H2
    (A1 & A2 & A3 & A4 & A5 & A6 & A7 & A8 & A9 & A10 & A11 & A12 & A13) (B1 & B2 & B3 & B4 & B5 & B6 & B7 & B8 & B9 & B10 & B11 & B12 & B13).
  destruct (C102_extraction E1 E2 st img thr lamps strays) as (_ & _ & X1 & X2 & _); try assumption.
  destruct (C102_extraction E1' E2' st' img' thr' lamps strays') as (_ & _ & Y1 & Y2 & _); try assumption.
  cbv zeta. rewrite X1, X2, Y1, Y2. split; reflexivity.
Qed.
Print Assumptions C102_brightness_does_not_matter.

(** Two rows of lamps, a stray and a halo, which lies in the square of its lamp. *)
Definition hall : image := Img 12 12 (fun y x =>
  if (y =? 2) && (x =? 2) then 90 else if (y =? 2) && (x =? 5) then 100 else if (y =? 2) && (x =? 6) then 50
  else if (y =? 2) && (x =? 8) then 80 else if (y =? 8) && (x =? 2) then 95 else if (y =? 8) && (x =? 5) then 70
  else if (y =? 5) && (x =? 10) then 60 else 0).
Definition hall_lamps : list (list loc) := [[(2, 2); (2, 5); (2, 8)]; [(8, 5); (8, 2)]].
Definition hall_env edges : env := Env scan (Ok hall) 2 90 10 real_geometry edges [] None (fun _ => true).

Lemma hall_spots : spots hall 2 (0 # 100) (concat hall_lamps ++ [(5, 10)]).
Proof.
  assert (V : forall p, In p (concat hall_lamps ++ [(5, 10)]) ->
    p = (2, 2) \/ p = (2, 5) \/ p = (2, 8) \/ p = (8, 5) \/ p = (8, 2) \/ p = (5, 10)).
  { intros p X. cbn in X. intuition congruence. }
  split; [|split; [|split]].
  - cbn. do 6 (apply NoDup_cons; [cbn; intuition congruence|]). apply NoDup_nil.
  - intros p X. apply V in X. destruct X as [->|[->|[->|[->|[->| ->]]]]]; (split; [unfold in_image; cbn [fst snd hall ih iw]; lia|]); (split; [cbn; lia|]); (split; [cbn; lia|]); reflexivity.
  - intros p q X Y N [S1 S2]. apply V in X, Y.
    destruct X as [->|[->|[->|[->|[->| ->]]]]], Y as [->|[->|[->|[->|[->| ->]]]]]; cbn [fst snd] in S1, S2; try lia; congruence.
  - intros y x _ B. unfold brighter, Qlt in B. cbn [Qnum Qden inject_Z] in B. cbn [hall px] in B |- *.
    repeat match type of B with
    | context [if ?c then _ else _] => destruct c eqn:?
    end; try lia;
    match goal with H : (_ =? _) && (_ =? _) = true |- _ => apply andb_true_iff in H; destruct H as [H1 H2]; apply Z.eqb_eq in H1, H2; subst y x end;
    try (left; cbn; tauto).
    right. exists (2, 5). split; [cbn; tauto|]. split; [split; cbn; lia|]. reflexivity.
Qed.

Lemma hall_straight : lamps_straight hall_lamps (concat hall_lamps ++ [(5, 10)]).
Proof.
  intros k A z i p q s Hk Hz _ Hp Hq Hs N1 N2 N3.
  assert (D : (detour p q z = 0 /\ edist p q = 3 /\ 4 <= edist p s)%R); [|destruct D as (-> & -> & D); lra].
  unfold detour. cbn [hall_lamps concat app In] in Hs.
  destruct k as [|[|k]]; cbn in Hk; [| |destruct k; discriminate Hk]; injection Hk as <-; cbn in Hz; subst z.
  - destruct i as [|[|[|i]]]; cbn in Hp, Hq; try discriminate; injection Hp as <-; injection Hq as <-; cbn in N1, N2.
    + rewrite (edist_square (2, 2) (2, 5) 3), (edist_square (2, 5) (2, 8) 3), (edist_square (2, 2) (2, 8) 6) by (cbn; lia).
      split; [lra|]. split; [reflexivity|]. replace 4%R with (4 / 1)%R by field. apply edist_lower; [lia|lia|].
      destruct Hs as [<-|[<-|[<-|[<-|[<-|[<-|[]]]]]]]; try tauto; cbn; lia.
    + rewrite (edist_square (2, 5) (2, 8) 3), (edist_square (2, 8) (2, 8) 0) by (cbn; lia).
      split; [lra|]. split; [reflexivity|]. replace 4%R with (4 / 1)%R by field. apply edist_lower; [lia|lia|].
      destruct Hs as [<-|[<-|[<-|[<-|[<-|[<-|[]]]]]]]; try tauto; cbn; lia.
  - destruct i as [|[|i]]; cbn in Hp, Hq; try discriminate; injection Hp as <-; injection Hq as <-; cbn in N1, N2.
    rewrite (edist_square (8, 5) (8, 2) 3), (edist_square (8, 2) (8, 2) 0) by (cbn; lia).
    split; [lra|]. split; [reflexivity|]. replace 4%R with (4 / 1)%R by field. apply edist_lower; [lia|lia|].
    destruct Hs as [<-|[<-|[<-|[<-|[<-|[<-|[]]]]]]]; try tauto; cbn; lia.
Qed.

(** All hypotheses of [C102_extraction] hold for the hall, and step 3 on the reference
    image itself gives the brightness of the lamps; the halo lies in the squares of two of them
    and is added to both. *)
Example C102_example :
  let E1 := hall_env [] in let E2 := hall_env [[2; 3]; [4; 1]] in
  let st1 := exec_all [Step1 E1; NewProcess] (fun _ => None, None) in
  let s2 := fst (exec (Step2 E2) st1) in
  mml_ok scan /\ nonempty_image hall /\ nonneg_image hall /\ percentile (pixels hall) 90 = Ok (0 # 100) /\
  (forall rows, fst st1 KAreas = Some (Rows rows) -> edges_entered rows hall_lamps [[2; 3]; [4; 1]]) /\
  load_search_areas s2 = Ok [(0, (2, 2)); (1, (2, 5)); (2, (2, 8)); (3, (8, 5)); (4, (8, 2))] /\
  load_indices 2 None s2 = Ok [[2; 1; 0]; [4; 3]] /\
  res_map (map d_sum) (generate_analysis_data (F:=unit) None hall 2 (concat (blocks 0 hall_lamps)) [[2; 1; 0]; [4; 3]] 0)
    = Ok [130; 150; 90; 95; 70].
Proof.
  intros E1 E2 st1 s2.
  assert (Hm : mml_ok scan) by apply scan_ok.
  assert (Hne : nonempty_image hall) by (split; reflexivity).
  assert (Hnn : nonneg_image hall).
  { intros y x _. cbn [hall px]. repeat match goal with |- context [if ?c then _ else _] => destruct c end; lia. }
  assert (Hp : percentile (pixels hall) 90 = Ok (0 # 100)) by (vm_compute; reflexivity).
  assert (Ha : fst st1 KAreas = Some (Rows [(0, (2, 5)); (1, (8, 2)); (2, (2, 2)); (3, (2, 8)); (4, (8, 5)); (5, (5, 10))])) by (vm_compute; reflexivity).
  assert (He : forall rows, fst st1 KAreas = Some (Rows rows) -> edges_entered rows hall_lamps [[2; 3]; [4; 1]]).
  { intros rows H. rewrite Ha in H. apply Some_inj in H. injection H as <-. apply Forall2_cons; [|apply Forall2_cons; [|apply Forall2_nil]].
    - exists 2, 3, (0, 0). split; [reflexivity|]. split; [cbn; tauto|]. split; [cbn; tauto|discriminate].
    - exists 4, 1, (0, 0). split; [reflexivity|]. split; [cbn; tauto|]. split; [cbn; tauto|discriminate]. }
  assert (L2 : Forall (fun A : list loc => (2 <= length A)%nat) hall_lamps).
  { apply Forall_cons; [cbn; lia|]. apply Forall_cons; [cbn; lia|]. apply Forall_nil. }
  pose proof (C102_extraction E1 E2 (fun _ => None, None) hall (0 # 100) hall_lamps [(5, 10)] Hm eq_refl Hne Hnn ltac:(cbn; lia) Hp hall_spots
    ltac:(cbn; lia) (fun rows => conj eq_refl eq_refl) ltac:(discriminate) L2 hall_straight eq_refl eq_refl He) as T.
  cbv zeta in T. destruct T as (_ & _ & X1 & X2 & _).
  split; [exact Hm|]. split; [exact Hne|]. split; [exact Hnn|]. split; [exact Hp|]. split; [exact He|].
  split; [etransitivity; [exact X1|reflexivity]|]. split; [etransitivity; [exact X2|reflexivity]|].
  clear. vm_compute. reflexivity.
Qed.
