(** Properties C01-C05: searching LEDs (step 1). *)
From Coq Require Import List ZArith QArith Qround Lia Lqa.
From Verif Require Import Base Step1_Model Step1_Spec Step1_Proofs.
Import ListNotations.
Local Open Scope Z_scope.

(** A 6x6 image with two bright spots in its interior. *)
Definition demo_img : image := img_of_rows
  [[0;0;0;0;0;0];
   [0;9;1;0;0;0];
   [0;2;8;0;0;0];
   [0;0;0;0;0;0];
   [0;0;0;0;7;1];
   [0;0;0;0;1;3]].
(** An image where radius 2 keeps clear of the border; the bright neighbours of
    the maxima are swallowed by their squares. *)
Definition demo_img2 : image := img_of_rows
  [[0;0;0;0;0;0;0;0];
   [0;0;6;0;0;0;0;0];
   [0;0;7;9;0;0;0;0];
   [0;0;0;0;0;0;0;0];
   [0;0;0;0;0;0;0;0];
   [0;0;0;0;0;7;8;0];
   [0;0;0;0;0;0;0;0];
   [0;0;0;0;0;0;0;0]].
(** A bright pixel in the corner. *)
Definition corner_img : image := img_of_rows
  [[9;0;0;0];
   [0;0;0;0];
   [0;0;0;0];
   [0;0;0;5]].

Lemma mml_ok_satisfiable : mml_ok scan.
Proof. exact scan_ok. Qed.

(** C01 *)
Theorem C01_ids_consecutive_and_bounded :
  forall mml img r q max_n rows thr,
  find_search_areas mml img r q max_n = Ok (rows, thr) ->
  map (fun row => fst (fst row)) rows = zrange 0 (Z.of_nat (length rows)) /\
  Z.of_nat (length rows) <= Z.max 0 max_n.
Proof.
  intros mml img r q max_n rows thr H. apply find_inv in H. destruct H as (_ & _ & ->).
  destruct (loop_ids mml thr r (Z.to_nat max_n) img (fst (mml img)) 0) as [A B].
  split; [exact A | lia].
Qed.
Print Assumptions C01_ids_consecutive_and_bounded.

(** C01, totality: the search returns for every non-empty image and valid percentile. *)
Theorem C01_search_terminates :
  forall mml img r q max_n, nonempty_image img -> (0 <= q <= 100)%Q ->
  exists rows thr, find_search_areas mml img r q max_n = Ok (rows, thr).
Proof.
  intros mml img r q max_n Hne [H0 H1]. unfold find_search_areas.
  destruct Hne as [Hh Hw].
  destruct (Z.leb_spec (ih img) 0); [lia|]. destruct (Z.leb_spec (iw img) 0); [lia|]. simpl.
  assert (Hp : pixels img <> []) by (apply pixels_nonempty; split; assumption).
  unfold percentile. apply Qle_bool_iff in H0. apply Qle_bool_iff in H1.
  rewrite H0, H1. simpl. destruct (pixels img); [congruence|]. simpl. eauto.
Qed.
Print Assumptions C01_search_terminates.

Example C01_example :
  find_search_areas scan demo_img 1 90 10 = Ok ([(0,1,1); (1,2,2); (2,4,4); (3,5,5)], 250 # 100).
Proof. vm_compute. reflexivity. Qed.
Example C01_example_limit :
  find_search_areas scan demo_img 1 90 2 = Ok ([(0,1,1); (1,2,2)], 250 # 100).
Proof. vm_compute. reflexivity. Qed.

(** C02 *)
Theorem C02_reported_pixels_are_bright :
  forall mml, mml_ok mml -> forall img r q max_n rows thr,
  nonneg_image img ->
  find_search_areas mml img r q max_n = Ok (rows, thr) ->
  forall i y x, In (i, y, x) rows -> in_image img y x /\ brighter (px img y x) thr.
Proof.
  intros mml Hm img r q max_n rows thr Hnn H i y x Hin.
  apply find_inv in H. destruct H as (Hne & Hp & ->).
  destruct (loop_sound mml Hm thr r img Hne (threshold_nonneg _ _ _ Hnn Hp) _ _ _ _ (dimmed_refl img) _ Hin)
    as (A & B & _). split; assumption.
Qed.
Print Assumptions C02_reported_pixels_are_bright.

Theorem C02_brightest_first :
  forall mml, mml_ok mml -> forall img r q max_n rows thr,
  nonneg_image img ->
  find_search_areas mml img r q max_n = Ok (rows, thr) ->
  forall a b ia ya xa ib yb xb, (a < b)%nat ->
  nth_error rows a = Some (ia, ya, xa) -> nth_error rows b = Some (ib, yb, xb) ->
  px img yb xb <= px img ya xa.
Proof.
  intros mml Hm img r q max_n rows thr Hnn H a b ia ya xa ib yb xb Hab Ha Hb.
  apply find_inv in H. destruct H as (Hne & Hp & ->).
  exact (loop_order mml Hm thr r img Hne (threshold_nonneg _ _ _ Hnn Hp) _ _ _ _ (dimmed_refl img)
           _ _ _ _ Hab Ha Hb).
Qed.
Print Assumptions C02_brightest_first.

(** The first reported pixel is a brightest pixel of the whole image. *)
Theorem C02_first_is_maximum :
  forall mml, mml_ok mml -> forall img r q max_n rows thr i y x,
  find_search_areas mml img r q max_n = Ok ((i, y, x) :: rows, thr) ->
  forall y' x', in_image img y' x' -> px img y' x' <= px img y x.
Proof.
  intros mml Hm img r q max_n rows thr i y x H y' x' Hin.
  apply find_inv in H. destruct H as (Hne & _ & H).
  destruct (Z.to_nat max_n) as [|k]; [discriminate|]. rewrite loop_unfold in H.
  destruct (above _ _); [|discriminate].
  injection H as _ -> -> _.
  destruct (Hm img Hne) as (_ & Hv & Hmax). cbv zeta in *. rewrite Hv. apply Hmax, Hin.
Qed.
Print Assumptions C02_first_is_maximum.

Example C02_example_nonneg : nonneg_image demo_img.
Proof.
  intros y x [Hy Hx]. cbn in Hy, Hx.
  assert (y = 0 \/ y = 1 \/ y = 2 \/ y = 3 \/ y = 4 \/ y = 5) as Ey by lia.
  assert (x = 0 \/ x = 1 \/ x = 2 \/ x = 3 \/ x = 4 \/ x = 5) as Ex by lia.
  repeat destruct Ey as [->|Ey]; try subst y; repeat destruct Ex as [->|Ex]; try subst x; vm_compute; discriminate.
Qed.
Example C02_example_rows :
  exists rows thr, find_search_areas scan demo_img 1 90 10 = Ok (rows, thr) /\ In (2, 4, 4) rows.
Proof. eexists. eexists. split; [vm_compute; reflexivity|]. simpl. auto. Qed.

(** C03 *)
Theorem C03_no_bright_pixel_missed :
  forall mml, mml_ok mml -> forall img r q max_n rows thr,
  nonneg_image img -> 0 <= r ->
  find_search_areas mml img r q max_n = Ok (rows, thr) ->
  Z.of_nat (length rows) < max_n ->
  forall y x, in_image img y x -> brighter (px img y x) thr ->
  exists i yl xl, In (i, yl, xl) rows /\ in_square yl xl r y x.
Proof.
  intros mml Hm img r q max_n rows thr Hnn Hr H Hlen y x Hin Hbr.
  apply find_inv in H. destruct H as (Hne & Hp & ->).
  destruct (loop_complete mml Hm thr r Hr img Hne (threshold_nonneg _ _ _ Hnn Hp)
              (Z.to_nat max_n) img (fst (mml img)) 0 (dimmed_refl img)) with (y := y) (x := x)
    as ([[i yl] xl] & A & B); try assumption.
  - destruct (Hm img Hne) as (_ & _ & Hmax). exact Hmax.
  - lia.
  - exists i, yl, xl. split; assumption.
Qed.
Print Assumptions C03_no_bright_pixel_missed.

(** Witness: two LEDs are found although five pixels are above the threshold. *)
Example C03_example :
  exists rows thr, find_search_areas scan demo_img2 2 90 10 = Ok (rows, thr) /\
  Z.of_nat (length rows) < 10 /\ rows = [(0,2,3); (1,5,6)] /\ brighter (px demo_img2 1 2) thr.
Proof.
  eexists. eexists. split; [vm_compute; reflexivity|].
  split; [vm_compute; reflexivity|]. split; [reflexivity|vm_compute; reflexivity].
Qed.

(** C04 *)
Theorem C04_separated_away_from_border :
  forall mml, mml_ok mml -> forall img r q max_n rows thr,
  nonneg_image img ->
  find_search_areas mml img r q max_n = Ok (rows, thr) ->
  forall a b ia ya xa ib yb xb, (a < b)%nat ->
  nth_error rows a = Some (ia, ya, xa) -> nth_error rows b = Some (ib, yb, xb) ->
  r <= ya -> r <= xa -> ~ in_square ya xa r yb xb.
Proof.
  intros mml Hm img r q max_n rows thr Hnn H a b ia ya xa ib yb xb Hab Ha Hb Hr1 Hr2.
  apply find_inv in H. destruct H as (Hne & Hp & ->).
  exact (loop_separated mml Hm thr r img Hne (threshold_nonneg _ _ _ Hnn Hp) _ _ _ _ (dimmed_refl img)
           _ _ _ _ Hab Ha Hb Hr1 Hr2).
Qed.
Print Assumptions C04_separated_away_from_border.

(** Hence the positions are pairwise distinct when every reported LED keeps the distance. *)
Theorem C04_distinct_away_from_border :
  forall mml, mml_ok mml -> forall img r q max_n rows thr,
  nonneg_image img -> 1 <= r ->
  find_search_areas mml img r q max_n = Ok (rows, thr) ->
  (forall i y x, In (i, y, x) rows -> r <= y /\ r <= x) ->
  NoDup (map (fun row => (snd (fst row), snd row)) rows).
Proof.
  intros mml Hm img r q max_n rows thr Hnn Hr H Hb.
  apply NoDup_nth_error. intros i j Hi E.
  destruct (Nat.eq_dec i j) as [|Hne]; [assumption|exfalso].
  rewrite map_length in Hi. rewrite !nth_error_map in E.
  destruct (nth_error rows i) as [[[ia ya] xa]|] eqn:Ei; [|apply nth_error_None in Ei; lia].
  destruct (nth_error rows j) as [[[ib yb] xb]|] eqn:Ej; [|discriminate].
  simpl in E. injection E as -> ->.
  destruct (Hb _ _ _ (nth_error_In _ _ Ei)) as [B1 B2].
  assert (Hsq : in_square yb xb r yb xb) by (split; lia).
  destruct (Nat.lt_total i j) as [L|[L|L]]; [|lia|].
  - exact (C04_separated_away_from_border mml Hm img r q max_n rows thr Hnn H _ _ _ _ _ _ _ _ L Ei Ej B1 B2 Hsq).
  - exact (C04_separated_away_from_border mml Hm img r q max_n rows thr Hnn H _ _ _ _ _ _ _ _ L Ej Ei B1 B2 Hsq).
Qed.
Print Assumptions C04_distinct_away_from_border.

(** The unguarded claim fails for EVERY image whose unique brightest pixel is
    in the top or left border strip: the same pixel is reported max_n times. *)
Theorem C04_border_pixel_reported_repeatedly :
  forall mml, mml_ok mml -> forall img r q max_n rows thr y0 x0,
  find_search_areas mml img r q max_n = Ok (rows, thr) ->
  unique_brightest img y0 x0 -> brighter (px img y0 x0) thr ->
  (y0 < r /\ 2 * r <= ih img \/ x0 < r /\ 2 * r <= iw img) ->
  rows = map (fun i => (i, y0, x0)) (zrange 0 (Z.max 0 max_n)).
Proof.
  intros mml Hm img r q max_n rows thr y0 x0 H Hu Hbr Hborder.
  apply find_inv in H. destruct H as (Hne & _ & ->).
  rewrite (loop_stuck mml Hm thr r img y0 x0 Hne Hu Hbr Hborder); auto.
  - f_equal. f_equal. lia.
  - destruct (Hm img Hne) as (L & V & Mx). cbv zeta in *. destruct Hu as [Hin Hlt].
    pose proof (Mx _ _ Hin) as M1.
    destruct (Z.eq_dec (snd (snd (mml img))) y0) as [E1|E1];
    destruct (Z.eq_dec (fst (snd (mml img))) x0) as [E2|E2].
    { rewrite <- V, E1, E2. reflexivity. }
    all: assert (Hn : (snd (snd (mml img)), fst (snd (mml img))) <> (y0, x0)) by congruence;
         specialize (Hlt _ _ L Hn); lia.
Qed.
Print Assumptions C04_border_pixel_reported_repeatedly.

Theorem C04_distinct_positions_refuted :
  exists img r q max_n rows thr, nonneg_image img /\ 1 <= r /\
  find_search_areas scan img r q max_n = Ok (rows, thr) /\
  ~ NoDup (map (fun row => (snd (fst row), snd row)) rows).
Proof.
  exists corner_img, 2, (90 # 1), 3. eexists. eexists.
  split; [|split; [lia|split; [vm_compute; reflexivity|]]].
  - intros y x [Hy Hx]. cbn in Hy, Hx.
    assert (y = 0 \/ y = 1 \/ y = 2 \/ y = 3) as Ey by lia.
    assert (x = 0 \/ x = 1 \/ x = 2 \/ x = 3) as Ex by lia.
    repeat destruct Ey as [->|Ey]; try subst y; repeat destruct Ex as [->|Ex]; try subst x; vm_compute; discriminate.
  - simpl. intros H. inversion H as [|? ? Hni _]. apply Hni. left. reflexivity.
Qed.
Print Assumptions C04_distinct_positions_refuted.

(** C05 *)
Theorem C05_threshold_between_min_and_max :
  forall mml img r q max_n rows thr,
  find_search_areas mml img r q max_n = Ok (rows, thr) ->
  (exists y x, in_image img y x /\ (inject_Z (px img y x) <= thr)%Q) /\
  (exists y x, in_image img y x /\ (thr <= inject_Z (px img y x))%Q).
Proof.
  intros mml img r q max_n rows thr H. apply find_inv in H. destruct H as (_ & Hp & _).
  destruct (percentile_range _ _ _ Hp) as [(v & Hv & A) (w & Hw & B)].
  apply in_pixels in Hv. apply in_pixels in Hw.
  destruct Hv as (y & x & I1 & <-). destruct Hw as (y' & x' & I2 & <-). split; eauto.
Qed.
Print Assumptions C05_threshold_between_min_and_max.

Theorem C05_threshold_monotone :
  forall mml img r r' q q' n n' rows rows' thr thr', (q <= q')%Q ->
  find_search_areas mml img r q n = Ok (rows, thr) ->
  find_search_areas mml img r' q' n' = Ok (rows', thr') -> (thr <= thr')%Q.
Proof.
  intros mml img r r' q q' n n' rows rows' thr thr' Hq H H'.
  apply find_inv in H. apply find_inv in H'. destruct H as (_ & Hp & _). destruct H' as (_ & Hp' & _).
  exact (percentile_mono _ _ _ _ _ Hq Hp Hp').
Qed.
Print Assumptions C05_threshold_monotone.

(** The number of pixels brighter than the threshold, counted independently of
    the model's pixel list by enumerating any duplicate-free list of positions. *)
Theorem C05_few_bright_pixels :
  forall mml img r q max_n rows thr ps,
  find_search_areas mml img r q max_n = Ok (rows, thr) ->
  NoDup ps -> (forall y x, In (y, x) ps -> in_image img y x /\ brighter (px img y x) thr) ->
  Z.of_nat (length ps) <= ih img * iw img - 1 - Qfloor (q / 100 * inject_Z (ih img * iw img - 1)).
Proof.
  intros mml img r q max_n rows thr ps H Hnd Hps.
  apply find_inv in H. destruct H as (Hne & Hp & _).
  pose proof (percentile_count _ _ _ Hp) as Hc. rewrite (pixels_length _ Hne) in Hc.
  eapply Z.le_trans; [|exact Hc]. apply inj_le.
  assert (E : filter (fun v => above v thr) (pixels img)
              = map (fun p => px img (fst p) (snd p))
                    (filter (fun p => above (px img (fst p) (snd p)) thr) (positions img))).
  { unfold pixels, positions. induction (zrange 0 (ih img)) as [|y l IH]; [reflexivity|].
    simpl. rewrite !filter_app, map_app, <- IH. f_equal. clear.
    induction (zrange 0 (iw img)) as [|x l IH]; [reflexivity|]. simpl.
    destruct (above (px img y x) thr); simpl; rewrite IH; reflexivity. }
  rewrite E, map_length. apply NoDup_incl_length; [exact Hnd|].
  intros [y x] Hin. destruct (Hps _ _ Hin) as [A B]. apply filter_In. split.
  - apply in_positions. exact A.
  - apply above_spec. exact B.
Qed.
Print Assumptions C05_few_bright_pixels.

Example C05_example : 
  find_search_areas scan demo_img 1 90 10 = Ok ([(0,1,1); (1,2,2); (2,4,4); (3,5,5)], 250 # 100)
  /\ 36 - 1 - Qfloor (90 / 100 * inject_Z (36 - 1)) = 4.
Proof. split; vm_compute; reflexivity. Qed.
