(** Proofs about step 1. *)
From Coq Require Import List ZArith QArith Qround Lia Bool Lqa Permutation Sorted.
From Verif Require Import Base Step1_Model Step1_Spec.
Import ListNotations.
Local Open Scope Z_scope.

Lemma above_spec : forall v t, above v t = true <-> brighter v t.
Proof.
  intros v t. unfold above, brighter. rewrite negb_true_iff.
  rewrite <- not_true_iff_false, Qle_bool_iff. split.
  - apply Qnot_le_lt.
  - intros H Hle. apply (Qlt_not_le _ _ H Hle).
Qed.

(** *** slices *)

(** A cleared axis range [c-r, c+r) around a pixel c of the axis selects only
    indices of the nominal range. *)
Lemma in_slice_nominal : forall len c r i,
  0 <= r -> 0 <= c < len -> in_slice len (c - r) (c + r) i = true -> c - r <= i < c + r.
Proof.
  intros len c r i Hr Hc H. apply in_slice_spec in H. unfold adjust_bound in H.
  destruct (c - r <? 0) eqn:Ea; destruct (c + r <? 0) eqn:Eb; lia.
Qed.

Lemma in_slice_interior : forall len c r i,
  0 <= c - r -> 0 <= i < len -> c - r <= i < c + r ->
  in_slice len (c - r) (c + r) i = true.
Proof.
  intros len c r i Hc Hi H. apply in_slice_spec. unfold adjust_bound.
  destruct (c - r <? 0) eqn:Ea; destruct (c + r <? 0) eqn:Eb; lia.
Qed.

Lemma in_slice_border_empty : forall len c r i,
  0 <= c < r -> 2 * r <= len -> in_slice len (c - r) (c + r) i = false.
Proof.
  intros len c r i Hc Hl. unfold in_slice, adjust_bound.
  apply andb_false_iff.
  destruct (c - r <? 0) eqn:Ea; destruct (c + r <? 0) eqn:Eb; lia.
Qed.

(** *** the search loop *)

Section Loop.
Variable mml : minmaxloc.
Hypothesis Hmml : mml_ok mml.
Variable thr : Q.
Variable r : Z.

Lemma loop_unfold : forall k img maxv i,
  search_loop mml thr r (S k) img maxv i =
  if above maxv thr then
    if above (fst (mml img)) thr
    then (i, snd (snd (mml img)), fst (snd (mml img))) ::
         search_loop mml thr r k (clear img r (snd (snd (mml img))) (fst (snd (mml img))))
                     (fst (mml img)) (i + 1)
    else []
  else [].
Proof. intros. simpl. destruct (mml img) as [m [x y]]. reflexivity. Qed.

Lemma loop_ids : forall k img maxv i,
  map (fun row => fst (fst row)) (search_loop mml thr r k img maxv i)
  = zrange i (i + Z.of_nat (length (search_loop mml thr r k img maxv i)))
  /\ (length (search_loop mml thr r k img maxv i) <= k)%nat.
Proof.
  induction k as [|k IH]; intros img maxv i.
  - simpl. split; [rewrite zrange_nil by lia; reflexivity | lia].
  - rewrite loop_unfold.
    destruct (above maxv thr); [|simpl; split; [rewrite zrange_nil by lia; reflexivity|lia]].
    destruct (above (fst (mml img)) thr); [|simpl; split; [rewrite zrange_nil by lia; reflexivity|lia]].
    cbn [map length fst]. specialize (IH (clear img r (snd (snd (mml img))) (fst (snd (mml img))))
                                       (fst (mml img)) (i + 1)).
    destruct IH as [IH1 IH2]. split; [|lia].
    rewrite (zrange_cons i) by lia. f_equal. rewrite IH1. f_equal. lia.
Qed.

(** Relation between the original and the working image: every pixel keeps its
    value or is 0. *)
Definition dimmed (img0 img : image) : Prop :=
  ih img = ih img0 /\ iw img = iw img0 /\
  forall y x, in_image img0 y x -> px img y x = px img0 y x \/ px img y x = 0.

Lemma dimmed_refl : forall img, dimmed img img.
Proof. intros. repeat split; auto. Qed.

Lemma dimmed_clear : forall img0 img y x, dimmed img0 img -> dimmed img0 (clear img r y x).
Proof.
  intros img0 img y x (H1 & H2 & H3). repeat split; simpl; auto.
  intros y' x' Hin. destruct (_ && _); auto.
Qed.

Lemma dimmed_in_image : forall img0 img y x, dimmed img0 img -> in_image img y x <-> in_image img0 y x.
Proof. intros img0 img y x (H1 & H2 & _). unfold in_image. rewrite H1, H2. reflexivity. Qed.

Lemma dimmed_nonempty : forall img0 img, dimmed img0 img -> nonempty_image img0 -> nonempty_image img.
Proof. intros img0 img (H1 & H2 & _) [H3 H4]. unfold nonempty_image. rewrite H1, H2. auto. Qed.

Lemma brighter_pos : forall v, (0 <= thr)%Q -> brighter v thr -> 0 < v.
Proof.
  intros v H0 H. unfold brighter in H.
  assert (0 < inject_Z v)%Q by (eapply Qle_lt_trans; eauto).
  change 0%Q with (inject_Z 0) in H1. rewrite <- Zlt_Qlt in H1. exact H1.
Qed.

(** Every row is a bright pixel of the original image; brightness is bounded
    by any bound of the working image. *)
Lemma loop_sound : forall img0, nonempty_image img0 -> (0 <= thr)%Q ->
  forall k img maxv i, dimmed img0 img ->
  forall row, In row (search_loop mml thr r k img maxv i) ->
  in_image img0 (snd (fst row)) (snd row) /\
  brighter (px img0 (snd (fst row)) (snd row)) thr /\
  (forall b, (forall y x, in_image img y x -> px img y x <= b) ->
             px img0 (snd (fst row)) (snd row) <= b).
Proof.
  intros img0 Hne H0. induction k as [|k IH]; intros img maxv i Hd row Hin; [simpl in Hin; tauto|].
  rewrite loop_unfold in Hin.
  destruct (above maxv thr); [|simpl in Hin; tauto].
  destruct (above (fst (mml img)) thr) eqn:Ea; [|simpl in Hin; tauto].
  destruct (Hmml img (dimmed_nonempty _ _ Hd Hne)) as (Hloc & Hval & Hmax).
  cbv zeta in *.
  destruct Hin as [Hrow | Hin].
  - subst row. simpl. apply above_spec in Ea.
    rewrite (dimmed_in_image _ _ _ _ Hd) in Hloc. split; [exact Hloc|].
    destruct Hd as (H1 & H2 & H3). pose proof (brighter_pos _ H0 Ea).
    destruct (H3 _ _ Hloc) as [E | E].
    + rewrite <- E, Hval. split; [exact Ea|]. intros b Hb.
      rewrite <- Hval. apply Hb. unfold in_image in *. rewrite H1, H2. exact Hloc.
    + lia.
  - specialize (IH _ _ _ (dimmed_clear img0 img _ _ Hd) _ Hin).
    destruct IH as (A & B & C). repeat split; try assumption; try apply A.
    intros b Hb. apply C. intros y x Hyx.
    assert (in_image img y x) by exact Hyx.
    simpl. destruct (_ && _); [|apply Hb; assumption].
    (* cleared pixel: 0 <= b because the maximum is positive *)
    specialize (Hb _ _ Hloc). rewrite Hval in Hb.
    apply above_spec in Ea. pose proof (brighter_pos _ H0 Ea). lia.
Qed.

(** Brightness order. *)
Lemma loop_order : forall img0, nonempty_image img0 -> (0 <= thr)%Q ->
  forall k img maxv i, dimmed img0 img ->
  forall a b ra rb, (a < b)%nat ->
  nth_error (search_loop mml thr r k img maxv i) a = Some ra ->
  nth_error (search_loop mml thr r k img maxv i) b = Some rb ->
  px img0 (snd (fst rb)) (snd rb) <= px img0 (snd (fst ra)) (snd ra).
Proof.
  intros img0 Hne H0. induction k as [|k IH]; intros img maxv i Hd a b ra rb Hab Ha Hb.
  - simpl in Ha. destruct a; discriminate.
  - rewrite loop_unfold in Ha, Hb.
    destruct (above maxv thr); [|destruct a; discriminate].
    destruct (above (fst (mml img)) thr) eqn:Ea; [|destruct a; discriminate].
    destruct (Hmml img (dimmed_nonempty _ _ Hd Hne)) as (Hloc & Hval & Hmax). cbv zeta in *.
    destruct b as [|b]; [lia|]. simpl in Hb.
    destruct a as [|a].
    + simpl in Ha. injection Ha as <-. simpl.
      apply nth_error_In in Hb.
      destruct (loop_sound img0 Hne H0 k _ _ _ (dimmed_clear img0 img _ _ Hd) _ Hb) as (_ & _ & Hbound).
      apply above_spec in Ea. pose proof (brighter_pos _ H0 Ea).
      assert (Hv : px img0 (snd (snd (mml img))) (fst (snd (mml img))) = fst (mml img)).
      { pose proof Hloc as Hloc'. rewrite (dimmed_in_image _ _ _ _ Hd) in Hloc'.
        destruct Hd as (_ & _ & H3). destruct (H3 _ _ Hloc') as [E|E]; lia. }
      rewrite Hv. apply Hbound. intros y x Hyx. simpl. destruct (_ && _); [lia|].
      apply Hmax. exact Hyx.
    + simpl in Ha. eapply (IH _ _ _ (dimmed_clear img0 img _ _ Hd)); [|eassumption|eassumption]. lia.
Qed.

(** Completeness: a bright pixel of the working image that survives lies in
    the square of some row, unless the limit is reached. *)
Lemma loop_complete : 0 <= r -> forall img0, nonempty_image img0 -> (0 <= thr)%Q ->
  forall k img maxv i, dimmed img0 img ->
  (forall y x, in_image img y x -> px img y x <= maxv) ->
  (length (search_loop mml thr r k img maxv i) < k)%nat ->
  forall y x, in_image img y x -> brighter (px img y x) thr ->
  exists row, In row (search_loop mml thr r k img maxv i) /\
              in_square (snd (fst row)) (snd row) r y x.
Proof.
  intros Hr img0 Hne H0. induction k as [|k IH]; intros img maxv i Hd Hmaxv Hlen y x Hin Hbr; [lia|].
  rewrite loop_unfold in *.
  assert (Hab : above maxv thr = true).
  { apply above_spec. unfold brighter in *. eapply Qlt_le_trans; [exact Hbr|].
    rewrite <- Zle_Qle. auto. }
  rewrite Hab in *.
  destruct (Hmml img (dimmed_nonempty _ _ Hd Hne)) as (Hloc & Hval & Hmax). cbv zeta in *.
  assert (Ha : above (fst (mml img)) thr = true).
  { apply above_spec. unfold brighter in *. eapply Qlt_le_trans; [exact Hbr|].
    rewrite <- Zle_Qle. auto. }
  rewrite Ha in *. cbn [length] in Hlen.
  set (my := snd (snd (mml img))) in *. set (mx := fst (snd (mml img))) in *.
  destruct (in_slice (ih img) (my - r) (my + r) y && in_slice (iw img) (mx - r) (mx + r) x) eqn:Ec.
  - apply andb_true_iff in Ec. destruct Ec as [E1 E2].
    exists (i, my, mx). split; [left; reflexivity|]. simpl.
    destruct Hloc as [L1 L2].
    split; [apply (in_slice_nominal _ _ _ _ Hr L1 E1) | apply (in_slice_nominal _ _ _ _ Hr L2 E2)].
  - destruct (IH (clear img r my mx) (fst (mml img)) (i + 1) (dimmed_clear _ _ _ _ Hd)) with (y := y) (x := x)
      as (row & Hrow & Hsq).
    + intros y' x' H'. simpl. destruct (in_slice _ _ _ y' && in_slice _ _ _ x').
      * apply above_spec in Ha. pose proof (brighter_pos _ H0 Ha). lia.
      * apply Hmax. exact H'.
    + lia.
    + exact Hin.
    + simpl. rewrite Ec. exact Hbr.
    + exists row. split; [right; exact Hrow | exact Hsq].
Qed.

(** Pixels that are 0 in the working image are never reported again. *)
Lemma loop_not_cleared : forall img0, nonempty_image img0 -> (0 <= thr)%Q ->
  forall k img maxv i, dimmed img0 img ->
  forall row, In row (search_loop mml thr r k img maxv i) ->
  px img (snd (fst row)) (snd row) <> 0.
Proof.
  intros img0 Hne H0. induction k as [|k IH]; intros img maxv i Hd row Hin; [simpl in Hin; tauto|].
  rewrite loop_unfold in Hin.
  destruct (above maxv thr); [|simpl in Hin; tauto].
  destruct (above (fst (mml img)) thr) eqn:Ea; [|simpl in Hin; tauto].
  destruct (Hmml img (dimmed_nonempty _ _ Hd Hne)) as (Hloc & Hval & Hmax). cbv zeta in *.
  destruct Hin as [Hrow|Hin].
  - subst row. simpl. rewrite Hval. apply above_spec in Ea. pose proof (brighter_pos _ H0 Ea). lia.
  - specialize (IH _ _ _ (dimmed_clear img0 img _ _ Hd) _ Hin). simpl in IH.
    destruct (_ && _); [congruence|exact IH].
Qed.

Lemma loop_separated : forall img0, nonempty_image img0 -> (0 <= thr)%Q ->
  forall k img maxv i, dimmed img0 img ->
  forall a b ra rb, (a < b)%nat ->
  nth_error (search_loop mml thr r k img maxv i) a = Some ra ->
  nth_error (search_loop mml thr r k img maxv i) b = Some rb ->
  r <= snd (fst ra) -> r <= snd ra ->
  ~ in_square (snd (fst ra)) (snd ra) r (snd (fst rb)) (snd rb).
Proof.
  intros img0 Hne H0. induction k as [|k IH]; intros img maxv i Hd a b ra rb Hab Ha Hb Hr1 Hr2.
  - simpl in Ha. destruct a; discriminate.
  - rewrite loop_unfold in Ha, Hb.
    destruct (above maxv thr); [|destruct a; discriminate].
    destruct (above (fst (mml img)) thr) eqn:Ea; [|destruct a; discriminate].
    destruct b as [|b]; [lia|]. simpl in Hb.
    destruct a as [|a].
    + simpl in Ha. injection Ha as <-. simpl in *.
      apply nth_error_In in Hb.
      pose proof (loop_not_cleared img0 Hne H0 k _ _ _ (dimmed_clear img0 img _ _ Hd) _ Hb) as Hnz.
      destruct (loop_sound img0 Hne H0 k _ _ _ (dimmed_clear img0 img _ _ Hd) _ Hb) as (Hin & _).
      intros [S1 S2]. simpl in Hnz.
      destruct Hd as (D1 & D2 & _). destruct Hin as [I1 I2].
      rewrite (in_slice_interior (ih img)), (in_slice_interior (iw img)) in Hnz by lia.
      simpl in Hnz. congruence.
    + simpl in Ha. eapply (IH _ _ _ (dimmed_clear img0 img _ _ Hd)); [|eassumption|eassumption|assumption|assumption]. lia.
Qed.

(** Border failure: nothing is cleared. *)
Lemma loop_stuck : forall img0 y0 x0, nonempty_image img0 ->
  unique_brightest img0 y0 x0 -> brighter (px img0 y0 x0) thr ->
  (y0 < r /\ 2 * r <= ih img0 \/ x0 < r /\ 2 * r <= iw img0) ->
  forall k img i maxv, ih img = ih img0 -> iw img = iw img0 ->
  (forall y x, px img y x = px img0 y x) -> maxv = px img0 y0 x0 ->
  search_loop mml thr r k img maxv i
  = map (fun j => (j, y0, x0)) (zrange i (i + Z.of_nat k)).
Proof.
  intros img0 y0 x0 Hne [Hin Huniq] Hbr Hborder.
  induction k as [|k IH]; intros img i maxv H1 H2 H3 ->.
  - rewrite zrange_nil by lia. reflexivity.
  - rewrite loop_unfold.
    assert (Hne' : nonempty_image img) by (unfold nonempty_image; rewrite H1, H2; exact Hne).
    destruct (Hmml img Hne') as (Hloc & Hval & Hmax). cbv zeta in *.
    assert (Hloc0 : in_image img0 (snd (snd (mml img))) (fst (snd (mml img)))).
    { unfold in_image in *. rewrite H1, H2 in Hloc. exact Hloc. }
    assert (Hin' : in_image img y0 x0) by (unfold in_image in *; rewrite H1, H2; exact Hin).
    assert (Heq : snd (snd (mml img)) = y0 /\ fst (snd (mml img)) = x0).
    { destruct (Z.eq_dec (snd (snd (mml img))) y0) as [E1|E1];
      destruct (Z.eq_dec (fst (snd (mml img))) x0) as [E2|E2]; try (split; assumption); exfalso;
      (assert (Hneq : (snd (snd (mml img)), fst (snd (mml img))) <> (y0, x0)) by congruence;
       specialize (Huniq _ _ Hloc0 Hneq); specialize (Hmax _ _ Hin');
       rewrite <- Hval, !H3 in Hmax; lia). }
    destruct Heq as [E1 E2].
    assert (Hm : fst (mml img) = px img0 y0 x0).
    { rewrite <- Hval, E1, E2. apply H3. }
    rewrite Hm, E1, E2.
    assert (Ha : above (px img0 y0 x0) thr = true) by (apply above_spec; exact Hbr).
    rewrite Ha. rewrite (zrange_cons i) by lia. cbn [map]. f_equal.
    replace (i + Z.of_nat (S k)) with (i + 1 + Z.of_nat k) by lia.
    apply IH; auto.
    intros y x. simpl. rewrite <- H3.
    destruct Hin as [L1 L2].
    destruct Hborder as [[B1 B2]|[B1 B2]].
    + rewrite in_slice_border_empty by lia. reflexivity.
    + rewrite (in_slice_border_empty (iw img)) by lia.
      rewrite andb_false_r. reflexivity.
Qed.
End Loop.

(** *** percentile *)

Lemma insert_perm : forall x l, Permutation (x :: l) (insert x l).
Proof.
  induction l as [|y l IH]; simpl; [reflexivity|].
  destruct (x <=? y); [reflexivity|].
  rewrite perm_swap. constructor. exact IH.
Qed.

Lemma sort_perm : forall l, Permutation l (sort l).
Proof.
  induction l as [|x l IH]; simpl; [reflexivity|].
  rewrite <- insert_perm. constructor. exact IH.
Qed.

Lemma insert_sorted : forall x l, StronglySorted Z.le l -> StronglySorted Z.le (insert x l).
Proof.
  induction l as [|y l IH]; intros H; simpl.
  - repeat constructor.
  - inversion H as [|? ? H1 H2]; subst.
    destruct (x <=? y) eqn:E.
    + constructor; [exact H|]. constructor; [lia|].
      eapply Forall_impl; [|exact H2]. intros; lia.
    + constructor; [apply IH; exact H1|].
      apply Forall_forall. intros z Hz.
      apply (Permutation_in _ (Permutation_sym (insert_perm x l))) in Hz.
      destruct Hz as [->|Hz]; [lia|]. rewrite Forall_forall in H2. apply H2, Hz.
Qed.

Lemma sort_sorted : forall l, StronglySorted Z.le (sort l).
Proof. induction l; simpl; [constructor|]. apply insert_sorted. assumption. Qed.

Lemma sort_length : forall l, length (sort l) = length l.
Proof. intros. symmetry. apply Permutation_length, sort_perm. Qed.

Lemma sorted_nth_le : forall l i j d, StronglySorted Z.le l ->
  (i <= j)%nat -> (j < length l)%nat -> nth i l d <= nth j l d.
Proof.
  intros l i j d H. revert i j. induction H as [|x l Hs IH Hf]; intros i j Hij Hj; simpl in *; [lia|].
  destruct i, j; try lia.
  - rewrite Forall_forall in Hf. apply Hf, nth_In. lia.
  - apply IH; lia.
Qed.

Lemma percentile_ok_inv : forall l q t, percentile l q = Ok t ->
  (0 <= q <= 100)%Q /\ l <> [].
Proof.
  intros l q t H. unfold percentile in H.
  destruct (Qle_bool 0 q && Qle_bool q 100) eqn:E; simpl in H; [|discriminate].
  apply andb_true_iff in E. rewrite !Qle_bool_iff in E. split; [exact E|].
  destruct l; [discriminate|congruence].
Qed.

(** The interpolation position and its floor. *)
Definition vpos (n : Z) (q : Q) : Q := (q / 100 * inject_Z (n - 1))%Q.

Lemma vpos_bounds : forall n q, 1 <= n -> (0 <= q <= 100)%Q ->
  (0 <= vpos n q <= inject_Z (n - 1))%Q.
Proof.
  intros n q Hn [H0 H1]. unfold vpos.
  assert (Hn' : (0 <= inject_Z (n - 1))%Q) by (change 0%Q with (inject_Z 0); rewrite <- Zle_Qle; lia).
  assert (Hq : (0 <= q / 100)%Q) by (apply Qle_shift_div_l; lra).
  assert (Hq1 : (q / 100 <= 1)%Q) by (apply Qle_shift_div_r; lra).
  split.
  - apply Qmult_le_0_compat; assumption.
  - setoid_replace (inject_Z (n - 1)) with (1 * inject_Z (n - 1))%Q at 2 by ring.
    apply Qmult_le_compat_r; assumption.
Qed.

Lemma vpos_floor : forall n q, 1 <= n -> (0 <= q <= 100)%Q ->
  0 <= Qfloor (vpos n q) <= n - 1.
Proof.
  intros n q Hn Hq. destruct (vpos_bounds n q Hn Hq) as [H0 H1]. split.
  - change 0 with (Qfloor 0). apply Qfloor_resp_le. exact H0.
  - rewrite <- (Qfloor_Z (n - 1)). apply Qfloor_resp_le. exact H1.
Qed.

Lemma percentile_form : forall l q t, percentile l q = Ok t ->
  let n := Z.of_nat (length l) in
  let lo := Qfloor (vpos n q) in
  let hi := Z.min (lo + 1) (n - 1) in
  t = (inject_Z (nth (Z.to_nat lo) (sort l) 0%Z) +
       (vpos n q - inject_Z lo) *
       inject_Z (nth (Z.to_nat hi) (sort l) 0%Z - nth (Z.to_nat lo) (sort l) 0%Z))%Q.
Proof.
  intros l q t H. destruct (percentile_ok_inv _ _ _ H) as [_ Hl].
  unfold percentile in H. destruct (negb _); [discriminate|].
  destruct l as [|z l]; [congruence|]. injection H as <-. reflexivity.
Qed.

Lemma percentile_between_lo_hi : forall l q t, percentile l q = Ok t ->
  let n := Z.of_nat (length l) in
  let lo := Qfloor (vpos n q) in
  let hi := Z.min (lo + 1) (n - 1) in
  (inject_Z (nth (Z.to_nat lo) (sort l) 0%Z) <= t <= inject_Z (nth (Z.to_nat hi) (sort l) 0%Z))%Q.
Proof.
  intros l q t H n lo hi.
  pose proof (percentile_form _ _ _ H) as Hf. cbv zeta in Hf. fold n lo hi in Hf.
  destruct (percentile_ok_inv _ _ _ H) as [Hq Hl].
  assert (Hn : 1 <= n) by (unfold n; destruct l; [congruence|simpl; lia]).
  pose proof (vpos_floor n q Hn Hq) as Hlo. fold lo in Hlo.
  assert (Hle : nth (Z.to_nat lo) (sort l) 0%Z <= nth (Z.to_nat hi) (sort l) 0%Z).
  { apply sorted_nth_le; [apply sort_sorted| |rewrite sort_length]; unfold hi, n in *; lia. }
  pose proof (Qfloor_le (vpos n q)) as F1. fold lo in F1.
  pose proof (Qlt_floor (vpos n q)) as F2. fold lo in F2. rewrite inject_Z_plus in F2.
  set (a := nth (Z.to_nat lo) (sort l) 0%Z) in *. set (b := nth (Z.to_nat hi) (sort l) 0%Z) in *.
  set (g := (vpos n q - inject_Z lo)%Q) in *.
  assert (G : (0 <= g <= 1)%Q) by (unfold g; change (inject_Z 1) with 1%Q in F2; lra).
  assert (Hd : (0 <= inject_Z (b - a))%Q) by (change 0%Q with (inject_Z 0); rewrite <- Zle_Qle; lia).
  assert (He : (inject_Z b == inject_Z a + inject_Z (b - a))%Q).
  { rewrite <- inject_Z_plus. replace (a + (b - a)) with b by lia. reflexivity. }
  subst t. rewrite He. destruct G as [G0 G1]. split.
  - pose proof (Qmult_le_0_compat _ _ G0 Hd). lra.
  - pose proof (Qmult_le_compat_r _ _ _ G1 Hd). lra.
Qed.

Lemma percentile_range : forall l q t, percentile l q = Ok t ->
  (exists v, In v l /\ (inject_Z v <= t)%Q) /\ (exists v, In v l /\ (t <= inject_Z v)%Q).
Proof.
  intros l q t H. pose proof (percentile_between_lo_hi _ _ _ H) as Hb. cbv zeta in Hb.
  destruct (percentile_ok_inv _ _ _ H) as [Hq Hl].
  set (n := Z.of_nat (length l)) in *.
  assert (Hn : 1 <= n) by (unfold n; destruct l; [congruence|simpl; lia]).
  pose proof (vpos_floor n q Hn Hq) as Hlo.
  assert (Hin : forall i, (i < length l)%nat -> In (nth i (sort l) 0%Z) l).
  { intros i Hi. apply (Permutation_in _ (Permutation_sym (sort_perm l))).
    apply nth_In. rewrite sort_length. exact Hi. }
  split; eexists; (split; [|apply Hb]); apply Hin; unfold n in *; lia.
Qed.

(** Number of elements strictly above a sorted position. *)
Lemma sorted_count_above : forall l i (t : Z -> bool), StronglySorted Z.le l -> (i < length l)%nat ->
  (forall v, In v l -> v <= nth i l 0 -> t v = false) ->
  (length (filter t l) <= length l - 1 - i)%nat.
Proof.
  intros l i t Hs. revert i. induction Hs as [|x l Hs IH Hf]; intros i Hi Ht; simpl in *; [lia|].
  assert (Hx : t x = false).
  { apply Ht; [left; reflexivity|]. destruct i; [lia|].
    rewrite Forall_forall in Hf. apply Hf, nth_In. lia. }
  rewrite Hx. destruct i as [|i].
  - clear. induction l; simpl; [lia|]. destruct (t a); simpl; lia.
  - specialize (IH i). assert (length (filter t l) <= length l - 1 - i)%nat; [|lia].
    apply IH; [lia|]. intros v Hv. apply Ht. right. exact Hv.
Qed.

Lemma filter_perm_length : forall (t : Z -> bool) l l', Permutation l l' ->
  length (filter t l) = length (filter t l').
Proof.
  intros t l l' H. induction H; simpl; auto.
  - destruct (t x); simpl; auto.
  - destruct (t x), (t y); reflexivity.
  - congruence.
Qed.

Lemma percentile_count : forall l q t, percentile l q = Ok t ->
  Z.of_nat (length (filter (fun v => above v t) l))
  <= Z.of_nat (length l) - 1 - Qfloor (q / 100 * inject_Z (Z.of_nat (length l) - 1)).
Proof.
  intros l q t H. pose proof (percentile_between_lo_hi _ _ _ H) as Hb. cbv zeta in Hb.
  destruct (percentile_ok_inv _ _ _ H) as [Hq Hl].
  set (n := Z.of_nat (length l)) in *.
  assert (Hn : 1 <= n) by (unfold n; destruct l; [congruence|simpl; lia]).
  pose proof (vpos_floor n q Hn Hq) as Hlo. fold (vpos n q).
  set (lo := Qfloor (vpos n q)) in *.
  rewrite (filter_perm_length _ _ _ (sort_perm l)).
  pose proof (sorted_count_above (sort l) (Z.to_nat lo) (fun v => above v t) (sort_sorted l)) as Hc.
  rewrite sort_length in Hc.
  assert ((length (filter (fun v => above v t) (sort l)) <= length l - 1 - Z.to_nat lo)%nat).
  { apply Hc; [unfold n in *; lia|]. intros v Hv Hle.
    unfold above. apply negb_false_iff. apply Qle_bool_iff.
    eapply Qle_trans; [|apply Hb]. rewrite <- Zle_Qle. exact Hle. }
  unfold n in *. lia.
Qed.

Lemma sorted_nth_lerp_mono : forall l v w, StronglySorted Z.le l -> l <> [] ->
  (0 <= v)%Q -> (v <= w)%Q -> (w <= inject_Z (Z.of_nat (length l) - 1))%Q ->
  let f u := (inject_Z (nth (Z.to_nat (Qfloor u)) l 0%Z) +
     (u - inject_Z (Qfloor u)) *
     inject_Z (nth (Z.to_nat (Z.min (Qfloor u + 1) (Z.of_nat (length l) - 1))) l 0%Z
               - nth (Z.to_nat (Qfloor u)) l 0%Z))%Q in
  (f v <= f w)%Q.
Proof.
  intros l v w Hs Hl H0 Hvw Hw f.
  set (n := Z.of_nat (length l)) in *.
  assert (Hn : 1 <= n) by (unfold n; destruct l; [congruence|simpl; lia]).
  assert (Hfv : 0 <= Qfloor v) by (change 0 with (Qfloor 0); apply Qfloor_resp_le; exact H0).
  assert (Hfvw : Qfloor v <= Qfloor w) by (apply Qfloor_resp_le; exact Hvw).
  assert (Hfw : Qfloor w <= n - 1) by (rewrite <- (Qfloor_Z (n-1)); apply Qfloor_resp_le; exact Hw).
  assert (Hmono : forall i j, 0 <= i -> i <= j -> j <= n - 1 ->
                              nth (Z.to_nat i) l 0 <= nth (Z.to_nat j) l 0).
  { intros i j Hi Hij Hj. apply sorted_nth_le; [exact Hs| |]; unfold n in *; lia. }
  assert (Hseg : forall u, 0 <= Qfloor u -> Qfloor u <= n - 1 ->
     (inject_Z (nth (Z.to_nat (Qfloor u)) l 0%Z) <= f u /\
      f u <= inject_Z (nth (Z.to_nat (Z.min (Qfloor u + 1) (n - 1))) l 0%Z))%Q).
  { intros u U0 U1. unfold f.
    pose proof (Hmono (Qfloor u) (Z.min (Qfloor u + 1) (n - 1)) ltac:(lia) ltac:(lia) ltac:(lia)) as Hle.
    pose proof (Qfloor_le u) as F1. pose proof (Qlt_floor u) as F2. rewrite inject_Z_plus in F2.
    change (inject_Z 1) with 1%Q in F2.
    set (a := nth (Z.to_nat (Qfloor u)) l 0) in *.
    set (b := nth (Z.to_nat (Z.min (Qfloor u + 1) (n - 1))) l 0%Z) in *.
    set (g := (u - inject_Z (Qfloor u))%Q) in *.
    assert (G0 : (0 <= g)%Q) by (unfold g; lra). assert (G1 : (g <= 1)%Q) by (unfold g; lra).
    assert (Hd : (0 <= inject_Z (b - a))%Q) by (change 0%Q with (inject_Z 0); rewrite <- Zle_Qle; lia).
    assert (He : (inject_Z b == inject_Z a + inject_Z (b - a))%Q).
    { rewrite <- inject_Z_plus. replace (a + (b - a)) with b by lia. reflexivity. }
    rewrite He. split.
    - pose proof (Qmult_le_0_compat _ _ G0 Hd). lra.
    - pose proof (Qmult_le_compat_r _ _ _ G1 Hd). lra. }
  destruct (Z.eq_dec (Qfloor v) (Qfloor w)) as [E|E].
  - unfold f. rewrite E.
    pose proof (Hmono (Qfloor w) (Z.min (Qfloor w + 1) (n - 1)) ltac:(lia) ltac:(lia) ltac:(lia)) as Hle.
    set (a := nth (Z.to_nat (Qfloor w)) l 0) in *.
    set (b := nth (Z.to_nat (Z.min (Qfloor w + 1) (n - 1))) l 0%Z) in *.
    assert (Hd : (0 <= inject_Z (b - a))%Q) by (change 0%Q with (inject_Z 0); rewrite <- Zle_Qle; lia).
    assert (Hg : (v - inject_Z (Qfloor w) <= w - inject_Z (Qfloor w))%Q) by lra.
    pose proof (Qmult_le_compat_r _ _ _ Hg Hd). lra.
  - destruct (Hseg v ltac:(lia) ltac:(lia)) as [_ A]. destruct (Hseg w ltac:(lia) ltac:(lia)) as [B _].
    eapply Qle_trans; [exact A|]. eapply Qle_trans; [|exact B].
    rewrite <- Zle_Qle. apply Hmono; lia.
Qed.

Lemma percentile_mono : forall l q1 q2 t1 t2, (q1 <= q2)%Q ->
  percentile l q1 = Ok t1 -> percentile l q2 = Ok t2 -> (t1 <= t2)%Q.
Proof.
  intros l q1 q2 t1 t2 Hq H1 H2.
  pose proof (percentile_form _ _ _ H1) as F1. pose proof (percentile_form _ _ _ H2) as F2.
  cbv zeta in F1, F2.
  destruct (percentile_ok_inv _ _ _ H1) as [[Ha Hb] Hl].
  destruct (percentile_ok_inv _ _ _ H2) as [[Hc Hd] _].
  set (n := Z.of_nat (length l)) in *.
  assert (Hn : 1 <= n) by (unfold n; destruct l; [congruence|simpl; lia]).
  rewrite F1, F2. unfold n. rewrite <- (sort_length l).
  apply (sorted_nth_lerp_mono (sort l) (vpos (Z.of_nat (length (sort l))) q1)
                                       (vpos (Z.of_nat (length (sort l))) q2)).
  - apply sort_sorted.
  - intro E. apply (f_equal (@length Z)) in E. rewrite sort_length in E. destruct l; [congruence|discriminate].
  - rewrite sort_length. apply vpos_bounds; auto.
  - rewrite sort_length. unfold vpos. fold n. apply Qmult_le_compat_r.
    + apply Qle_shift_div_l; [lra|]. setoid_replace (q1 / 100 * 100)%Q with q1; [exact Hq|field].
    + change 0%Q with (inject_Z 0). rewrite <- Zle_Qle. lia.
  - rewrite sort_length. apply vpos_bounds; auto.
Qed.

(** *** pixels of an image *)

Lemma in_pixels : forall img v, In v (pixels img) <-> exists y x, in_image img y x /\ px img y x = v.
Proof.
  intros img v. unfold pixels. rewrite in_flat_map. split.
  - intros (y & Hy & Hv). apply in_map_iff in Hv. destruct Hv as (x & Hx & Hin).
    apply in_zrange in Hy. apply in_zrange in Hin. exists y, x. split; [split; lia|exact Hx].
  - intros (y & x & [Hy Hx] & Hv). exists y. split; [apply in_zrange; lia|].
    apply in_map_iff. exists x. split; [exact Hv|apply in_zrange; lia].
Qed.

Lemma pixels_length : forall img, nonempty_image img ->
  Z.of_nat (length (pixels img)) = ih img * iw img.
Proof.
  intros img [Hh Hw]. unfold pixels.
  assert (G : forall l, length (flat_map (fun y => map (fun x => px img y x) (zrange 0 (iw img))) l)
                  = (length l * Z.to_nat (iw img))%nat).
  { induction l; simpl; [reflexivity|].
    rewrite app_length, IHl, map_length, length_zrange. f_equal. f_equal. lia. }
  rewrite G, length_zrange. rewrite Nat2Z.inj_mul, !Z2Nat.id by lia. lia.
Qed.

Lemma pixels_nonempty : forall img, nonempty_image img -> pixels img <> [].
Proof.
  intros img H E. pose proof (pixels_length img H) as L. rewrite E in L. simpl in L.
  destruct H. nia.
Qed.

Lemma find_inv : forall mml img r q n rows thr,
  find_search_areas mml img r q n = Ok (rows, thr) ->
  nonempty_image img /\ percentile (pixels img) q = Ok thr /\
  rows = search_loop mml thr r (Z.to_nat n) img (fst (mml img)) 0.
Proof.
  intros mml img r q n rows thr H. unfold find_search_areas in H.
  destruct ((ih img <=? 0) || (iw img <=? 0)) eqn:E; [discriminate|].
  apply orb_false_iff in E. destruct E as [E1 E2].
  destruct (percentile (pixels img) q) as [t|e] eqn:Ep; simpl in H; [|discriminate].
  injection H as <- <-. split; [split; lia|]. split; reflexivity.
Qed.

Lemma threshold_nonneg : forall img q thr, nonneg_image img ->
  percentile (pixels img) q = Ok thr -> (0 <= thr)%Q.
Proof.
  intros img q thr Hnn Hp. destruct (percentile_range _ _ _ Hp) as [(v & Hv & Hle) _].
  apply in_pixels in Hv. destruct Hv as (y & x & Hin & Hpx). specialize (Hnn _ _ Hin).
  eapply Qle_trans; [|exact Hle]. change 0%Q with (inject_Z 0). rewrite <- Zle_Qle. lia.
Qed.

(** *** the row-major scan meets the contract *)

Lemma scan_fold : forall img l acc,
  (px img (snd (snd acc)) (fst (snd acc)) = fst acc) ->
  let r := fold_left (scan_step img) l acc in
  px img (snd (snd r)) (fst (snd r)) = fst r /\
  (snd r = snd acc \/ exists p, In p l /\ snd r = (snd p, fst p)) /\
  fst acc <= fst r /\ forall p, In p l -> px img (fst p) (snd p) <= fst r.
Proof.
  intros img. induction l as [|[y x] l IH]; intros acc Hacc; simpl.
  - repeat split; auto; try lia.
  - set (acc' := if fst acc <? px img y x then (px img y x, (x, y)) else acc).
    assert (Hacc' : px img (snd (snd acc')) (fst (snd acc')) = fst acc').
    { unfold acc'. destruct (_ <? _); simpl; auto. }
    specialize (IH acc' Hacc'). cbv zeta in IH. destruct IH as (A & B & C & D).
    assert (Hge : fst acc <= fst acc' /\ px img y x <= fst acc').
    { unfold acc'. destruct (fst acc <? px img y x) eqn:E; simpl; lia. }
    repeat split; auto; try lia.
    + destruct B as [B|(p & Hp & B)].
      * unfold acc' in B at 2. destruct (fst acc <? px img y x).
        -- right. exists (y, x). split; [left; reflexivity|exact B].
        -- left. exact B.
      * right. exists p. split; [right; exact Hp|exact B].
    + intros p [<-|Hp]; simpl; [lia|]. apply D, Hp.
Qed.

Lemma in_positions : forall img y x, In (y, x) (positions img) <-> in_image img y x.
Proof.
  intros img y x. unfold positions. rewrite in_flat_map. split.
  - intros (y' & Hy & H). apply in_map_iff in H. destruct H as (x' & E & Hx).
    injection E as -> ->. apply in_zrange in Hy. apply in_zrange in Hx. split; lia.
  - intros [Hy Hx]. exists y. split; [apply in_zrange; lia|].
    apply in_map_iff. exists x. split; [reflexivity|apply in_zrange; lia].
Qed.

Lemma scan_ok : mml_ok scan.
Proof.
  intros img Hne. unfold scan.
  destruct (scan_fold img (positions img) (px img 0 0, (0, 0)) eq_refl) as (A & B & C & D).
  cbv zeta. set (rr := fold_left _ _ _) in *. split; [|split].
  - destruct B as [B|((y & x) & Hp & B)]; rewrite B; simpl.
    + destruct Hne. split; lia.
    + apply in_positions. exact Hp.
  - exact A.
  - intros y x H. apply (D (y, x)). apply in_positions. exact H.
Qed.
