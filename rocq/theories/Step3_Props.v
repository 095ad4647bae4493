(** Properties C20 and C21. *)
From Coq Require Import List ZArith QArith Lia Bool Sorted.
From Verif Require Import Base Step1_Model Step2_Model Step3_Model Step3_Spec.
Import ListNotations.
Local Open Scope Z_scope.

(** ** C20 *)

Lemma np_sum_total : forall l, np_sum l = total l.
Proof.
  intros l. unfold np_sum, total.
  assert (G : forall l a, fold_left Z.add l a = a + fold_right Z.add 0 l).
  { induction l0 as [|x l0 IH]; intros a; simpl; [lia|]. rewrite IH. lia. }
  rewrite G. lia.
Qed.

Lemma fold_max_spec : forall l x, is_max (fold_left Z.max l x) (x :: l).
Proof.
  induction l as [|y l IH]; intros x; simpl.
  - split; [left; reflexivity|]. intros v [<-|[]]. lia.
  - destruct (IH (Z.max x y)) as [H1 H2]. split.
    + destruct H1 as [H1|H1]; [|right; right; exact H1].
      rewrite <- H1. destruct (Z.max_spec x y) as [[_ ->]|[_ ->]]; [right; left|left]; reflexivity.
    + intros v [<-|[<-|Hv]].
      * assert (Z.max x y <= fold_left Z.max l (Z.max x y)) by (apply H2; left; reflexivity). lia.
      * assert (Z.max x y <= fold_left Z.max l (Z.max x y)) by (apply H2; left; reflexivity). lia.
      * apply H2. right. exact Hv.
Qed.

Lemma np_amax_spec : forall l, l <> [] -> exists m, np_amax l = Ok m /\ is_max m l.
Proof.
  intros [|x l] H; [congruence|]. simpl. eexists. split; [reflexivity|apply fold_max_spec].
Qed.

Lemma concat_area : forall (f : Z -> Z -> Z) ys xs,
  concat (map (fun y => map (fun x => f y x) xs) ys) = map (fun p => f (fst p) (snd p)) (list_prod ys xs).
Proof.
  intros f ys xs. induction ys as [|y ys IH]; simpl; [reflexivity|].
  rewrite IH, map_app, map_map. reflexivity.
Qed.

Lemma slice_interior : forall len a b, 0 <= a -> a < len -> a <= b ->
  slice_indices len a b = zrange a (Z.min b len).
Proof.
  intros len a b H1 H2 H3. unfold slice_indices, adjust_bound.
  destruct (a <? 0) eqn:E1; [lia|]. destruct (b <? 0) eqn:E2; [lia|].
  rewrite (Z.min_l a len) by lia. reflexivity.
Qed.

(** For an LED at least r away from the top and left border, sum, mean and
    maximum are those of the pixels of its square (cut at the bottom and right
    border); this also holds with a fit, if the fit itself succeeds. *)
Theorem C20_measures_the_square_of_the_led :
  forall F (fit : option (list (list Z) -> res F)) img r (areas : list row) iled arr lid y x,
  np_index areas iled = Ok (lid, (y, x)) ->
  1 <= r -> r <= y -> y < ih img -> r <= x -> x < iw img ->
  (forall f a, fit = Some f -> exists v, f a = Ok v) ->
  let ps := window img (y - r) (Z.min (y + r) (ih img)) (x - r) (Z.min (x + r) (iw img)) in
  exists d, analyse_led fit img r areas iled arr = Ok d /\
    d_id d = iled /\ d_array d = arr /\
    d_sum d = total ps /\
    (d_mean d * inject_Z (Z.of_nat (length ps)) == inject_Z (total ps))%Q /\
    is_max (d_max d) ps.
Proof.
  intros F fit img r areas iled arr lid y x Hidx Hr Hy1 Hy2 Hx1 Hx2 Hfit ps.
  unfold analyse_led. rewrite Hidx. cbn [bind].
  assert (Ea : concat (area img r y x) = ps).
  { unfold area, ps, window. rewrite !slice_interior by lia. apply concat_area. }
  assert (Hlen : (0 < length ps)%nat).
  { unfold ps, window. rewrite map_length, prod_length, !length_zrange. nia. }
  assert (Hne : ps <> []) by (intros E; rewrite E in Hlen; simpl in Hlen; lia).
  assert (Hf : exists fr, (match fit with None => Ok None | Some f => res_map Some (f (area img r y x)) end) = Ok fr).
  { destruct fit as [f|]; [|eexists; reflexivity].
    destruct (Hfit f (area img r y x) eq_refl) as (v & ->). eexists. reflexivity. }
  destruct Hf as (fr & ->). cbn [bind]. rewrite Ea.
  destruct (np_amax_spec ps Hne) as (m & -> & Hm). cbn [bind].
  eexists. split; [reflexivity|]. cbn [d_id d_array d_sum d_mean d_max].
  rewrite np_sum_total. repeat split; try apply Hm.
  unfold Qeq, Qmult, inject_Z. cbn [Qnum Qden].
  rewrite Pos.mul_1_r, Z.mul_1_r. f_equal.
  rewrite <- positive_nat_Z. rewrite Nat2Pos.id by lia. reflexivity.
Qed.
Print Assumptions C20_measures_the_square_of_the_led.

(** Away from all borders the square has exactly (2r)^2 pixels. *)
Theorem C20_square_size :
  forall img r y x, 1 <= r -> r <= y -> y + r <= ih img -> r <= x -> x + r <= iw img ->
  window img (y - r) (Z.min (y + r) (ih img)) (x - r) (Z.min (x + r) (iw img))
    = window img (y - r) (y + r) (x - r) (x + r) /\
  Z.of_nat (length (window img (y - r) (y + r) (x - r) (x + r))) = (2 * r) * (2 * r).
Proof.
  intros img r y x Hr H1 H2 H3 H4. rewrite !Z.min_l by lia. split; [reflexivity|].
  unfold window. rewrite map_length, prod_length, !length_zrange. nia.
Qed.
Print Assumptions C20_square_size.

Lemma slice_empty_near_start : forall len p r, 0 <= p -> p < r -> 2 * r <= len ->
  slice_indices len (p - r) (p + r) = [].
Proof.
  intros len p r H1 H2 H3. unfold slice_indices. apply zrange_nil. unfold adjust_bound.
  destruct (p - r <? 0) eqn:E1; [|lia]. destruct (p + r <? 0) eqn:E2; lia.
Qed.

(** Nearer than r to the top or the left border (image at least 2r in that
    direction) step 3 fails: the selected area is empty. *)
Theorem C20_fails_near_top_or_left_border :
  forall F (fit : option (list (list Z) -> res F)) img r (areas : list row) iled arr lid y x,
  np_index areas iled = Ok (lid, (y, x)) -> 0 <= y -> 0 <= x ->
  (y < r /\ 2 * r <= ih img) \/ (x < r /\ 2 * r <= iw img) ->
  (exists e, analyse_led fit img r areas iled arr = Err e) /\
  (fit = None -> analyse_led fit img r areas iled arr = Err ValueError).
Proof.
  intros F fit img r areas iled arr lid y x Hidx Hy Hx H.
  assert (Ea : concat (area img r y x) = []).
  { unfold area. destruct H as [[H1 H2]|[H1 H2]].
    - rewrite (slice_empty_near_start (ih img)) by lia. reflexivity.
    - rewrite (slice_empty_near_start (iw img)) by lia. simpl.
      induction (slice_indices (ih img) (y - r) (y + r)); simpl; auto. }
  unfold analyse_led. rewrite Hidx. cbn [bind]. rewrite Ea. split.
  - destruct fit as [f|]; [|exists ValueError; reflexivity].
    destruct (f (area img r y x)) as [v|e]; [exists ValueError|exists e]; reflexivity.
  - intros ->. reflexivity.
Qed.
Print Assumptions C20_fails_near_top_or_left_border.

(** In an image smaller than 2r the measured pixels can even lie away from the LED. *)
Theorem C20_small_image_measures_elsewhere_refuted :
  exists img r y x d, 0 <= y < ih img /\ 0 <= x < iw img /\
    analyse_led (F:=unit) None img r [(0, (y, x))] 0 0 = Ok d /\
    d_sum d <> total (window img (Z.max 0 (y - r)) (Z.min (y + r) (ih img)) (Z.max 0 (x - r)) (Z.min (x + r) (iw img))).
Proof.
  exists (img_of_rows [[7;1;1];[1;1;1];[1;1;1]]), 2, 1, 1. eexists.
  split; [simpl; lia|]. split; [simpl; lia|]. split; [reflexivity|]. vm_compute. discriminate.
Qed.
Print Assumptions C20_small_image_measures_elsewhere_refuted.

Example C20_example :
  let img := img_of_rows [[0;0;0;0;0];[0;1;2;0;0];[0;3;9;0;0];[0;0;0;0;0]] in
  analyse_led (F:=unit) None img 1 [(0, (2, 2))] 0 5 = Ok (LedData 0 5 15 (15 # 4) 9 None) /\
  analyse_led (F:=unit) None img 1 [(0, (0, 2))] 0 5 = Err ValueError.
Proof. split; reflexivity. Qed.

(** ** C21 *)

(** Position (array, place) of the LEDs in reading order. *)
Definition lex (a b : nat * nat) : Prop :=
  (fst a < fst b)%nat \/ (fst a = fst b /\ (snd a < snd b)%nat).

Lemma led_loop_spec : forall F (fit : option (list (list Z) -> res F)) img r areas skip idx leds ds,
  led_loop fit img r areas skip idx leds = Ok ds ->
  map (fun d => (d_array d, d_id d)) ds = map (fun i => (idx, i)) (filter (fun i => i mod (skip + 1) =? 0) leds).
Proof.
  intros F fit img r areas skip idx leds. induction leds as [|i l IH]; intros ds H; simpl in H.
  - injection H as <-. reflexivity.
  - simpl. destruct (i mod (skip + 1) =? 0) eqn:E; [|apply IH; exact H].
    destruct (analyse_led fit img r areas i idx) as [d|] eqn:Ed; [|discriminate]. cbn [bind] in H.
    destruct (led_loop fit img r areas skip idx l) as [ds'|] eqn:El; [|discriminate]. cbn [bind] in H.
    injection H as <-. simpl. rewrite (IH _ eq_refl). f_equal.
    unfold analyse_led in Ed. destruct (np_index areas i) as [[? [y x]]|]; [|discriminate]. cbn [bind] in Ed.
    destruct (match fit with None => Ok None | Some f => res_map Some (f (area img r y x)) end); [|discriminate].
    cbn [bind] in Ed. destruct (np_amax (concat (area img r y x))); [|discriminate]. cbn [bind] in Ed.
    injection Ed as <-. reflexivity.
Qed.

Lemma array_loop_spec : forall F (fit : option (list (list Z) -> res F)) img r areas skip arrays idx ds,
  array_loop fit img r areas skip idx arrays = Ok ds ->
  map (fun d => (d_array d, d_id d)) ds =
  concat (map (fun p => map (fun i => (fst p, i)) (filter (fun i => i mod (skip + 1) =? 0) (snd p)))
              (combine (zrange idx (idx + Z.of_nat (length arrays))) arrays)).
Proof.
  intros F fit img r areas skip arrays. induction arrays as [|a l IH]; intros idx ds H; simpl in H.
  - injection H as <-. rewrite zrange_nil by (simpl; lia). reflexivity.
  - destruct (led_loop fit img r areas skip idx a) as [d1|] eqn:E1; [|discriminate]. cbn [bind] in H.
    destruct (array_loop fit img r areas skip (idx + 1) l) as [d2|] eqn:E2; [|discriminate]. cbn [bind] in H.
    injection H as <-. rewrite map_app, (led_loop_spec _ _ _ _ _ _ _ _ _ E1), (IH _ _ E2).
    rewrite (zrange_cons idx) by (simpl length; lia). cbn [combine map concat fst snd].
    do 2 f_equal. replace (idx + 1 + Z.of_nat (length l)) with (idx + Z.of_nat (length (a :: l))) by (simpl length; lia).
    reflexivity.
Qed.

(** The records are, in order of the index files, exactly the LEDs whose id is
    divisible by num_skip_leds+1; each carries the number of its array. *)
Theorem C21_one_record_per_selected_led :
  forall F (fit : option (list (list Z) -> res F)) img r areas arrays skip ds,
  0 <= skip ->
  generate_analysis_data fit img r areas arrays skip = Ok ds ->
  exists places : list (nat * nat),
    StronglySorted lex places /\
    Forall2 (fun p d => exists i, led_at arrays (fst p) (snd p) i /\ (skip + 1 | i) /\
                          d_id d = i /\ d_array d = Z.of_nat (fst p)) places ds /\
    (forall k j i, led_at arrays k j i -> (skip + 1 | i) -> In (k, j) places).
Proof.
  intros F fit img r areas arrays skip ds Hs H.
  assert (G : forall arrays idx ds, array_loop fit img r areas skip (Z.of_nat idx) arrays = Ok ds ->
    exists places, StronglySorted lex places /\
      Forall2 (fun p d => exists i, (exists k', (fst p = idx + k')%nat /\ led_at arrays k' (snd p) i) /\ (skip + 1 | i) /\
                          d_id d = i /\ d_array d = Z.of_nat (fst p)) places ds /\
      (forall k j i, led_at arrays k j i -> (skip + 1 | i) -> In ((idx + k)%nat, j) places)).
  { clear H ds arrays.
    (* one array *)
    assert (G1 : forall idx leds ds j0, led_loop fit img r areas skip (Z.of_nat idx) leds = Ok ds ->
      exists js, StronglySorted lt js /\ Forall (fun j => (j0 <= j)%nat) js /\
        Forall2 (fun j d => exists i, nth_error leds (j - j0) = Some i /\ (skip + 1 | i) /\ d_id d = i /\ d_array d = Z.of_nat idx) js ds /\
        (forall j i, nth_error leds j = Some i -> (skip + 1 | i) -> In (j0 + j)%nat js)).
    { intros idx leds. induction leds as [|i l IH]; intros ds j0 H.
      - simpl in H. injection H as <-. exists []. repeat split; try constructor.
        intros [|j] i Hn; discriminate.
      - cbn [led_loop] in H. destruct (i mod (skip + 1) =? 0) eqn:E.
        + apply Z.eqb_eq in E.
          destruct (analyse_led fit img r areas i (Z.of_nat idx)) as [d|] eqn:Ed; [|discriminate]. cbn [bind] in H.
          destruct (led_loop fit img r areas skip (Z.of_nat idx) l) as [ds'|] eqn:El; [|discriminate]. cbn [bind] in H.
          injection H as <-. destruct (IH _ (S j0) eq_refl) as (js & S1 & S2 & S3 & S4).
          assert (Hd : d_id d = i /\ d_array d = Z.of_nat idx).
          { unfold analyse_led in Ed. destruct (np_index areas i) as [[? [y x]]|]; [|discriminate]. cbn [bind] in Ed.
            destruct (match fit with None => Ok None | Some f => res_map Some (f (area img r y x)) end); [|discriminate].
            cbn [bind] in Ed. destruct (np_amax (concat (area img r y x))); [|discriminate]. cbn [bind] in Ed.
            injection Ed as <-. split; reflexivity. }
          exists (j0 :: js). split; [|split; [|split]].
          * constructor; [exact S1|]. eapply Forall_impl; [|exact S2]. intros j Hj. simpl in Hj. lia.
          * constructor; [lia|]. eapply Forall_impl; [|exact S2]. intros j Hj. simpl in Hj. lia.
          * constructor.
            -- exists i. rewrite Nat.sub_diag. simpl. split; [reflexivity|]. split; [|exact Hd].
               apply Z.mod_divide; lia.
            -- clear -S2 S3. induction S3 as [|j d js ds (i' & A & B) F2 IH]; [constructor|].
               inversion S2; subst. constructor; [|apply IH; assumption].
               exists i'. split; [|exact B]. replace (j - j0)%nat with (S (j - S j0)) by lia. exact A.
          * intros [|j] i' Hn Hdv; simpl in Hn.
            -- left. lia.
            -- right. replace (j0 + S j)%nat with (S j0 + j)%nat by lia. eapply S4; eauto.
        + destruct (IH _ (S j0) H) as (js & S1 & S2 & S3 & S4).
          exists js. split; [exact S1|]. split; [eapply Forall_impl; [|exact S2]; intros j Hj; simpl in Hj; lia|]. split.
          * clear -S2 S3. induction S3 as [|j d js ds (i' & A & B) F2 IH]; [constructor|].
            inversion S2; subst. constructor; [|apply IH; assumption].
            exists i'. split; [|exact B]. replace (j - j0)%nat with (S (j - S j0)) by lia. exact A.
          * intros [|j] i' Hn Hdv; simpl in Hn.
            -- injection Hn as ->. apply Z.eqb_neq in E. exfalso. apply E. apply Z.mod_divide; [lia|exact Hdv].
            -- replace (j0 + S j)%nat with (S j0 + j)%nat by lia. eapply S4; eauto. }
    induction arrays as [|a l IH]; intros idx ds H.
    - simpl in H. injection H as <-. exists []. repeat split; try constructor.
      intros k j i (a & Ha & _). destruct k; discriminate.
    - cbn [array_loop] in H.
      destruct (led_loop fit img r areas skip (Z.of_nat idx) a) as [d1|] eqn:E1; [|discriminate]. cbn [bind] in H.
      destruct (array_loop fit img r areas skip (Z.of_nat idx + 1) l) as [d2|] eqn:E2; [|discriminate]. cbn [bind] in H.
      injection H as <-.
      destruct (G1 idx a d1 0%nat E1) as (js & S1 & S2 & S3 & S4).
      replace (Z.of_nat idx + 1) with (Z.of_nat (S idx)) in E2 by lia.
      destruct (IH (S idx) d2 E2) as (ps & P1 & P2 & P3).
      assert (Hps : Forall (fun p => (S idx <= fst p)%nat) ps).
      { clear -P2. induction P2 as [|p d ps ds (i & (k' & A & _) & _) F2 IH]; constructor; [lia|exact IH]. }
      exists (map (fun j => (idx, j)) js ++ ps). split; [|split].
      + clear -S1 P1 Hps. induction S1 as [|j js S1 IHs Hj]; simpl; [exact P1|].
        constructor; [exact IHs|]. apply Forall_app. split.
        * apply Forall_map. eapply Forall_impl; [|exact Hj]. intros j' Hlt. right. simpl. auto.
        * eapply Forall_impl; [|exact Hps]. intros p Hp. left. simpl. simpl in Hp. lia.
      + apply Forall2_app.
        * clear -S3. induction S3 as [|j d js ds (i & A & B) F2 IH]; simpl; constructor; [|exact IH].
          exists i. split; [|exact B]. exists 0%nat. simpl. split; [lia|].
          exists a. split; [reflexivity|]. rewrite Nat.sub_0_r in A. exact A.
        * eapply Forall2_imp; [|exact P2]. intros p d (i & (k' & A & B) & C).
          exists i. split; [|exact C]. exists (S k'). split; [lia|]. exact B.
      + intros k j i Hat Hdv. apply in_or_app. destruct k as [|k].
        * left. rewrite Nat.add_0_r. apply in_map_iff. exists j. split; [reflexivity|].
          destruct Hat as (a' & Ha & Hj). simpl in Ha. injection Ha as <-.
          apply (S4 j i Hj Hdv).
        * right. replace (idx + S k)%nat with (S idx + k)%nat by lia. eapply P3; eauto. }
  destruct (G arrays 0%nat ds H) as (ps & P1 & P2 & P3). exists ps. split; [exact P1|]. split.
  - eapply Forall2_imp; [|exact P2]. intros p d (i & (k' & A & B) & C). exists i. split; [|exact C].
    simpl in A. rewrite A. exact B.
  - exact P3.
Qed.
Print Assumptions C21_one_record_per_selected_led.

(** With reversed index files [[2;1;0];[5;4;3]] and every second LED. *)
Example C21_example :
  let img := img_of_rows [[1;2;3;4];[5;6;7;8];[9;10;11;12]] in
  let areas := [(0,(1,1));(1,(1,2));(2,(1,3));(3,(2,1));(4,(2,2));(5,(2,3))] in
  res_map (map (fun d => (d_array d, d_id d, d_sum d)))
    (generate_analysis_data (F:=unit) None img 1 areas [[2;1;0];[5;4;3]] 1)
  = Ok [(0, 2, 22); (0, 0, 14); (1, 4, 34)].
Proof. reflexivity. Qed.

(** The image is processed completely as soon as every selected LED can be measured. *)
Theorem C21_succeeds_if_every_selected_led_can_be_measured :
  forall F (fit : option (list (list Z) -> res F)) img r areas arrays skip,
  0 <= skip ->
  (forall k j i, led_at arrays k j i -> (skip + 1 | i) ->
     exists d, analyse_led fit img r areas i (Z.of_nat k) = Ok d) ->
  exists ds, generate_analysis_data fit img r areas arrays skip = Ok ds.
Proof.
  intros F fit img r areas arrays skip Hs.
  assert (G1 : forall k a, (forall j i, nth_error a j = Some i -> (skip + 1 | i) ->
            exists d, analyse_led fit img r areas i (Z.of_nat k) = Ok d) ->
            exists ds, led_loop fit img r areas skip (Z.of_nat k) a = Ok ds).
  { intros k a. induction a as [|i a IH]; intros H; [exists []; reflexivity|].
    destruct IH as (ds & Hds); [intros j i' Hj; apply (H (S j) i' Hj)|].
    cbn [led_loop]. destruct (i mod (skip + 1) =? 0) eqn:E; [|exists ds; exact Hds].
    destruct (H 0%nat i eq_refl) as (d & Hd); [apply Z.mod_divide; lia|].
    rewrite Hd, Hds. eexists. reflexivity. }
  unfold generate_analysis_data. change 0 with (Z.of_nat 0).
  assert (G : forall arrays k0, (forall k j i, led_at arrays k j i -> (skip + 1 | i) ->
     exists d, analyse_led fit img r areas i (Z.of_nat (k0 + k)) = Ok d) ->
     exists ds, array_loop fit img r areas skip (Z.of_nat k0) arrays = Ok ds).
  { clear arrays. induction arrays as [|a l IH]; intros k0 H; [exists []; reflexivity|].
    cbn [array_loop]. destruct (G1 k0 a) as (d1 & Hd1).
    { intros j i Hj Hd. destruct (H 0%nat j i) as (d & Hd'); [exists a; auto|exact Hd|].
      rewrite Nat.add_0_r in Hd'. exists d. exact Hd'. }
    rewrite Hd1. cbn [bind]. destruct (IH (S k0)) as (d2 & Hd2).
    { intros k j i (a' & Ha & Hj) Hd. replace (S k0 + k)%nat with (k0 + S k)%nat by lia.
      apply (H (S k) j i); [exists a'; auto|exact Hd]. }
    replace (Z.of_nat k0 + 1) with (Z.of_nat (S k0)) by lia. rewrite Hd2. eexists. reflexivity. }
  apply (G arrays 0%nat).
Qed.
Print Assumptions C21_succeeds_if_every_selected_led_can_be_measured.
