(** C137: a camera that moved by some pixels. *)
From Coq Require Import List ZArith QArith Lia Bool.
From Verif Require Import Base Step1_Model Step1_Spec Step2_Model Step3_Model Step3_Spec Step3_Props.
Import ListNotations.
Local Open Scope Z_scope.

(** ** Specification *)

(** [img'] shows what [img] shows, [dy] rows lower and [dx] columns further to the right; what comes in at
    the borders is arbitrary. *)
Definition moved (dy dx : Z) (img img' : image) : Prop :=
  ih img' = ih img /\ iw img' = iw img /\
  forall y x, in_image img y x -> in_image img (y - dy) (x - dx) -> px img' y x = px img (y - dy) (x - dx).

(** In the square of half width [w] around the LED, which is in the image, all light is in the one of half
    width [m]. *)
Definition alone (img : image) (m w y x : Z) : Prop :=
  w <= y /\ y + w <= ih img /\ w <= x /\ x + w <= iw img /\
  forall v u, y - w <= v < y + w -> x - w <= u < x + w -> 0 <= px img v u /\ (~ (y - m <= v < y + m /\ x - m <= u < x + m) -> px img v u = 0).

(** ** Sums *)
Definition span (f : Z -> Z) (a b : Z) : Z := total (map f (zrange a b)).

Lemma total_app : forall l l', total (l ++ l') = total l + total l'.
Proof. intros l l'. unfold total. induction l as [|v l IH]; cbn; [reflexivity|]. unfold total in IH. rewrite IH. lia. Qed.

Lemma zrange_split : forall a b c, a <= b <= c -> zrange a c = zrange a b ++ zrange b c.
Proof.
  intros a b c H. unfold zrange. replace (Z.to_nat (c - a)) with (Z.to_nat (b - a) + Z.to_nat (c - b))%nat by lia. rewrite seq_app, map_app. f_equal.
  replace (0 + Z.to_nat (b - a))%nat with (Z.to_nat (b - a) + 0)%nat by lia. generalize (Z.to_nat (c - b)) 0%nat. intros k. induction k as [|k IH]; intros s; [reflexivity|]. cbn [seq map]. f_equal; [lia|].
  replace (S (Z.to_nat (b - a) + s)) with (Z.to_nat (b - a) + S s)%nat by lia. apply IH.
Qed.

Lemma span_split : forall f a b c, a <= b <= c -> span f a c = span f a b + span f b c.
Proof. intros f a b c H. unfold span. rewrite (zrange_split a b c H), map_app, total_app. reflexivity. Qed.

Lemma span_zero : forall f a b, (forall k, a <= k < b -> f k = 0) -> span f a b = 0.
Proof.
  intros f a b H. unfold span. assert (G : forall l, (forall k, In k l -> f k = 0) -> total (map f l) = 0).
  { intros l. induction l as [|k l IH]; intros G; [reflexivity|]. unfold total in *. cbn [map fold_right]. rewrite (G k (or_introl eq_refl)), IH; [reflexivity|]. intros j Hj. apply G. right. exact Hj. }
  apply G. intros k Hk. apply in_zrange in Hk. apply H. exact Hk.
Qed.

Lemma span_ext : forall f g a b, (forall k, a <= k < b -> f k = g k) -> span f a b = span g a b.
Proof. intros f g a b H. unfold span. f_equal. apply map_ext_in. intros k Hk. apply in_zrange in Hk. apply H. exact Hk. Qed.

Lemma span_trim : forall f a b c d, a <= b -> b <= c -> c <= d -> (forall k, a <= k < d -> ~ b <= k < c -> f k = 0) -> span f a d = span f b c.
Proof.
  intros f a b c d H1 H2 H3 H. rewrite (span_split f a b d) by lia. rewrite (span_split f b c d) by lia. rewrite (span_zero f a b) by (intros k Hk; apply H; lia). rewrite (span_zero f c d) by (intros k Hk; apply H; lia). lia.
Qed.

Lemma span_shift : forall f a b d, span (fun k => f (k - d)) (a + d) (b + d) = span f a b.
Proof.
  intros f a b d. unfold span, zrange. rewrite !map_map. replace (b + d - (a + d)) with (b - a) by lia. f_equal. apply map_ext. intros k. f_equal. lia.
Qed.

Lemma window_span : forall img a b c d, total (window img a b c d) = span (fun v => span (px img v) c d) a b.
Proof.
  intros img a b c d. unfold window, span. generalize (zrange a b). intros ys. induction ys as [|y ys IH]; [reflexivity|]. cbn [list_prod map]. rewrite map_app, total_app, IH, map_map. unfold total at 3. cbn [map fold_right]. reflexivity.
Qed.

(** ** One LED *)
Lemma moved_pixel : forall dy dx img img' m r e y x v u, moved dy dx img img' -> Z.abs dy <= e -> Z.abs dx <= e -> 0 <= m -> m + e <= r -> alone img m (r + e) y x ->
  y - r <= v < y + r -> x - r <= u < x + r -> px img' v u = px img (v - dy) (u - dx).
Proof.
  intros dy dx img img' m r e y x v u (M1 & M2 & M3) Hy Hx Hm He (A1 & A2 & A3 & A4 & A5) Hv Hu. apply M3; unfold in_image; lia.
Qed.

Lemma moved_sum : forall dy dx img img' m r e y x, moved dy dx img img' -> Z.abs dy <= e -> Z.abs dx <= e -> 0 <= m -> m + e <= r -> alone img m (r + e) y x ->
  total (window img' (y - r) (y + r) (x - r) (x + r)) = total (window img (y - r) (y + r) (x - r) (x + r)).
Proof.
  intros dy dx img img' m r e y x HM Hy Hx Hm He HA. pose proof HA as (A1 & A2 & A3 & A4 & A5). rewrite !window_span.
  transitivity (span (fun v => span (px img v) (x - m) (x + m)) (y - m) (y + m)).
  - rewrite <- (span_shift (fun v => span (px img v) (x - m) (x + m)) (y - m) (y + m) dy).
    transitivity (span (fun v => span (px img (v - dy)) (x - m) (x + m)) (y - r) (y + r)).
    + apply span_ext. intros v Hv. rewrite <- (span_shift (px img (v - dy)) (x - m) (x + m) dx).
      transitivity (span (fun u => px img (v - dy) (u - dx)) (x - r) (x + r)).
      * apply span_ext. intros u Hu. apply (moved_pixel dy dx img img' m r e y x v u); assumption.
      * apply span_trim; try lia. intros u Hu N. apply A5; lia.
    + apply span_trim; try lia. intros v Hv N. apply span_zero. intros u Hu. apply A5; lia.
  - symmetry. transitivity (span (fun v => span (px img v) (x - m) (x + m)) (y - r) (y + r)).
    + apply span_ext. intros v Hv. apply span_trim; try lia. intros u Hu N. apply A5; lia.
    + apply span_trim; try lia. intros v Hv N. apply span_zero. intros u Hu. apply A5; lia.
Qed.

Lemma in_window : forall img a b c d w, In w (window img a b c d) <-> exists v u, a <= v < b /\ c <= u < d /\ w = px img v u.
Proof.
  intros img a b c d w. unfold window. rewrite in_map_iff. split.
  - intros ((v, u) & <- & H). apply in_prod_iff in H. rewrite !in_zrange in H. exists v, u. cbn [fst snd]. tauto.
  - intros (v & u & Hv & Hu & ->). exists (v, u). split; [reflexivity|]. apply in_prod_iff. rewrite !in_zrange. split; assumption.
Qed.

Lemma moved_max : forall dy dx img img' m r e y x a b, moved dy dx img img' -> Z.abs dy <= e -> Z.abs dx <= e -> 0 <= m -> m + e <= r -> alone img m (r + e) y x ->
  is_max a (window img' (y - r) (y + r) (x - r) (x + r)) -> is_max b (window img (y - r) (y + r) (x - r) (x + r)) -> a = b.
Proof.
  intros dy dx img img' m r e y x a b HM Hy Hx Hm He HA (Ia & Ma) (Ib & Mb). pose proof HA as (A1 & A2 & A3 & A4 & A5). apply in_window in Ia. apply in_window in Ib.
  destruct Ia as (v & u & Hv & Hu & Ea). destruct Ib as (v' & u' & Hv' & Hu' & Eb). rewrite (moved_pixel dy dx img img' m r e y x v u) in Ea by assumption.
  destruct (A5 (v - dy) (u - dx) ltac:(lia) ltac:(lia)) as (P1 & P2). destruct (A5 v' u' ltac:(lia) ltac:(lia)) as (Q1 & Q2).
  assert (D : forall p q, (y - m <= p < y + m /\ x - m <= q < x + m) \/ ~ (y - m <= p < y + m /\ x - m <= q < x + m)) by (intros p q; lia).
  apply Z.le_antisymm.
  - destruct (D (v - dy) (u - dx)) as [I|N]; [|rewrite Ea, (P2 N), Eb; exact Q1]. rewrite Ea. apply Mb. apply in_window. exists (v - dy), (u - dx). split; [lia|]. split; [lia|reflexivity].
  - destruct (D v' u') as [I|N]; [|rewrite Eb, (Q2 N), Ea; exact P1]. rewrite Eb. apply Ma. apply in_window. exists (v' + dy), (u' + dx). split; [lia|]. split; [lia|].
    rewrite (moved_pixel dy dx img img' m r e y x (v' + dy) (u' + dx)) by (assumption || lia). f_equal; lia.
Qed.

Lemma square_pixels : forall img r y x, r <= y -> y + r <= ih img -> r <= x -> x + r <= iw img -> 1 <= r -> concat (area img r y x) = window img (y - r) (y + r) (x - r) (x + r).
Proof.
  intros img r y x H1 H2 H3 H4 H5. unfold area, window. rewrite !slice_interior by lia. rewrite !Z.min_l by lia. apply concat_area.
Qed.

Lemma moved_led : forall F dy dx img img' m r e (areas : list row) led lid y x arr, moved dy dx img img' -> Z.abs dy <= e -> Z.abs dx <= e -> 1 <= r -> 0 <= m -> m + e <= r ->
  np_index areas led = Ok (lid, (y, x)) -> alone img m (r + e) y x ->
  analyse_led (F := F) None img' r areas led arr = analyse_led None img r areas led arr.
Proof.
  intros F dy dx img img' m r e areas led lid y x arr HM Hy Hx Hr Hm He Hi HA. unfold analyse_led. rewrite Hi. cbn [bind]. pose proof HA as (A1 & A2 & A3 & A4 & A5). pose proof HM as (M1 & M2 & _).
  rewrite !square_pixels by (rewrite ?M1, ?M2; lia).
  assert (L : forall i, length (window i (y - r) (y + r) (x - r) (x + r)) = (Z.to_nat (y + r - (y - r)) * Z.to_nat (x + r - (x - r)))%nat) by (intros i; unfold window; rewrite map_length, prod_length, !length_zrange; reflexivity).
  assert (NE : forall i, window i (y - r) (y + r) (x - r) (x + r) <> []) by (intros i E; specialize (L i); rewrite E in L; cbn in L; nia).
  destruct (np_amax_spec _ (NE img')) as (a & -> & Ha). destruct (np_amax_spec _ (NE img)) as (b & -> & Hb). cbn [bind].
  rewrite !np_sum_total, !L, (moved_sum dy dx img img' m r e y x HM Hy Hx Hm He HA), (moved_max dy dx img img' m r e y x a b HM Hy Hx Hm He HA Ha Hb). reflexivity.
Qed.

(** ** The whole photograph *)

(** The light of every LED is far enough from the border of its square: the photograph of a camera that
    moved gives the same records as the one before. *)
Theorem C137_small_moves_do_not_matter : forall F dy dx img img' m r e (areas : list row) arrays skip, moved dy dx img img' -> Z.abs dy <= e -> Z.abs dx <= e -> 1 <= r -> 0 <= m -> m + e <= r ->
  (forall leds led, In leds arrays -> In led leds -> exists lid y x, np_index areas led = Ok (lid, (y, x)) /\ alone img m (r + e) y x) ->
  generate_analysis_data (F := F) None img' r areas arrays skip = generate_analysis_data None img r areas arrays skip.
Proof.
  intros F dy dx img img' m r e areas arrays skip HM Hy Hx Hr Hm He. unfold generate_analysis_data. intros H0.
  assert (All : forall k, array_loop (F := F) None img' r areas skip k arrays = array_loop None img r areas skip k arrays); [|apply All]. revert H0.
  induction arrays as [|leds arrays IH]; intros H k; [reflexivity|]. cbn [array_loop]. rewrite (IH (fun l led Hl => H l led (or_intror Hl)) (k + 1)).
  assert (E : led_loop (F := F) None img' r areas skip k leds = led_loop None img r areas skip k leds); [|rewrite E; reflexivity].
  assert (G : forall led, In led leds -> exists lid y x, np_index areas led = Ok (lid, (y, x)) /\ alone img m (r + e) y x) by (intros led Hl; apply (H leds led (or_introl eq_refl) Hl)).
  clear H IH. induction leds as [|led leds IH]; [reflexivity|]. cbn [led_loop]. rewrite IH by (intros l Hl; apply G; right; exact Hl).
  destruct (G led (or_introl eq_refl)) as (lid & y & x & Hi & HA). rewrite (moved_led F dy dx img img' m r e areas led lid y x k HM Hy Hx Hr Hm He Hi HA). reflexivity.
Qed.
Print Assumptions C137_small_moves_do_not_matter.

(** Two LEDs of one bright pixel each, squares of half width 2, moved by one row and one column. *)
Definition two_leds (dy dx : Z) : image :=
  Img 10 16 (fun y x => if ((y - dy =? 4) && (x - dx =? 4))%bool then 200 else if ((y - dy =? 4) && (x - dx =? 11))%bool then 150 else 0).

Lemma two_leds_alone : forall x, x = 4 \/ x = 11 -> alone (two_leds 0 0) 1 3 4 x.
Proof.
  intros x Hx. unfold alone, two_leds. cbn [ih iw px]. split; [lia|]. split; [lia|]. split; [lia|]. split; [lia|]. intros v u Hv Hu. rewrite !Z.sub_0_r.
  destruct (Z.eqb_spec v 4), (Z.eqb_spec u 4), (Z.eqb_spec u 11); cbn [andb]; lia.
Qed.

Example C137_example : let areas := [(0, (4, 4)); (1, (4, 11))] in
  generate_analysis_data (F := unit) None (two_leds 1 (-1)) 2 areas [[0; 1]] 0 = generate_analysis_data None (two_leds 0 0) 2 areas [[0; 1]] 0 /\
  generate_analysis_data (F := unit) None (two_leds 0 0) 2 areas [[0; 1]] 0 = Ok [LedData 0 0 200 (200 # 16) 200 None; LedData 1 0 150 (150 # 16) 150 None].
Proof.
  split; [|reflexivity]. apply (C137_small_moves_do_not_matter unit 1 (-1) (two_leds 0 0) (two_leds 1 (-1)) 1 2 1); try lia.
  - split; [reflexivity|]. split; [reflexivity|]. intros y x _ _. unfold two_leds. cbn [px]. rewrite !Z.sub_0_r. reflexivity.
  - intros leds led [<-|[]] [<-|[<-|[]]]; [exists 0, 4, 4|exists 1, 4, 11]; (split; [reflexivity|]); apply two_leds_alone; lia.
Qed.

(** Two rows are too much for these squares: all light is lost, as if smoke had taken it. *)
Theorem C137_larger_moves_refuted : exists img img' r (areas : list row) arrays, moved 2 0 img img' /\ 2 <= r /\
  (forall leds led, In leds arrays -> In led leds -> exists lid y x, np_index areas led = Ok (lid, (y, x)) /\ alone img 1 (r + 1) y x) /\
  (exists ds, generate_analysis_data (F := unit) None img r areas arrays 0 = Ok ds /\ map d_sum ds = [200; 150]) /\
  (exists ds, generate_analysis_data (F := unit) None img' r areas arrays 0 = Ok ds /\ map d_sum ds = [0; 0]).
Proof.
  exists (two_leds 0 0), (two_leds 2 0), 2, [(0, (4, 4)); (1, (4, 11))], [[0; 1]]. split; [|split; [lia|split]].
  - split; [reflexivity|]. split; [reflexivity|]. intros y x _ _. unfold two_leds. cbn [px]. rewrite !Z.sub_0_r. reflexivity.
  - intros leds led [<-|[]] [<-|[<-|[]]]; [exists 0, 4, 4|exists 1, 4, 11]; (split; [reflexivity|]); apply two_leds_alone; lia.
  - split; eexists; (split; [reflexivity|reflexivity]).
Qed.
Print Assumptions C137_larger_moves_refuted.
