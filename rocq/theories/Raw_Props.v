(** Properties C60 and C71: raw images and grey values. *)
From Coq Require Import ZArith QArith Qround Lia Lqa Bool Ascii String List.
From Verif Require Import Base Str Raw_Model.
Import ListNotations.
Local Open Scope string_scope.
Local Open Scope Z_scope.

(** ** C60 *)

Lemma int16_id : forall x, -32768 <= x <= 32767 -> int16 x = x.
Proof. intros x H. unfold int16. rewrite Z.mod_small by lia. lia. Qed.

(** The levels of a sensor: the black level is at most half the white level,
    which fits into 15 bits. *)
Definition sensor (black white : Z) : Prop := 0 <= black /\ 2 * black <= white /\ 0 < white <= 32767.

(** Raw values for which the scaled value fits into 15 bits. *)
Definition in_range (black white data : Z) : Prop :=
  0 <= data <= 32767 /\ (data - black) * white <= 32767 * (white - black).

Lemma pixel_value : forall black white data, sensor black white -> in_range black white data ->
  pixel black white data =
  if data <=? black then 0 else Z.min white ((data - black) * white / (white - black)).
Proof.
  intros b w d (B0 & B1 & W) (D & R). unfold pixel.
  rewrite (int16_id d) by lia. rewrite (int16_id (d - b)) by lia.
  destruct (d <=? b) eqn:E.
  - apply Z.leb_le in E. unfold clip.
    assert (Q : Z.quot ((d - b) * w) (w - b) = - (((b - d) * w) / (w - b))).
    { replace ((d - b) * w) with (- ((b - d) * w)) by ring. rewrite Z.quot_opp_l by lia.
      rewrite Z.quot_div_nonneg by nia. reflexivity. }
    rewrite Q.
    assert (U : (b - d) * w / (w - b) <= 2 * b).
    { apply Z.div_le_upper_bound; [lia|]. nia. }
    assert (L : 0 <= (b - d) * w / (w - b)) by (apply Z.div_pos; nia).
    rewrite int16_id by lia. lia.
  - apply Z.leb_gt in E. rewrite Z.quot_div_nonneg by nia.
    assert (U : (d - b) * w / (w - b) <= 32767).
    { apply Z.div_le_upper_bound; [lia|]. nia. }
    assert (L : 0 <= (d - b) * w / (w - b)) by (apply Z.div_pos; nia).
    rewrite int16_id by lia. unfold clip. lia.
Qed.

(** The law of a single pixel: values between 0 and the white level, 0 exactly
    when the scaled signal is below one, monotone, full scale at the white level;
    between the levels the stretched signal, rounded down. *)
Theorem C60_pixel_law :
  forall black white, sensor black white ->
  (forall d, in_range black white d -> 0 <= pixel black white d <= white) /\
  (forall d, 0 <= d <= black -> pixel black white d = 0) /\
  (forall d, white <= d -> in_range black white d -> pixel black white d = white) /\
  (forall d, black <= d <= white ->
     pixel black white d * (white - black) <= (d - black) * white < (pixel black white d + 1) * (white - black)) /\
  (forall d d', d <= d' -> in_range black white d -> in_range black white d' ->
     pixel black white d <= pixel black white d').
Proof.
  intros b w S. pose proof S as (B0 & B1 & W).
  assert (N : forall d, b < d -> 0 <= (d - b) * w / (w - b)) by (intros d H; apply Z.div_pos; nia).
  assert (R : forall d, 0 <= d <= w -> in_range b w d) by (intros d H; unfold in_range; nia).
  split; [|split; [|split; [|split]]].
  - intros d Hd. rewrite pixel_value by assumption. destruct (d <=? b) eqn:E; [lia|].
    apply Z.leb_gt in E. specialize (N d E). lia.
  - intros d Hd. rewrite pixel_value by (try assumption; apply R; lia).
    replace (d <=? b) with true by lia. reflexivity.
  - intros d H1 H2. rewrite pixel_value by assumption. replace (d <=? b) with false by lia.
    apply Z.min_l. apply Z.div_le_lower_bound; [lia|]. nia.
  - intros d Hd. rewrite pixel_value by (try assumption; apply R; lia).
    destruct (d <=? b) eqn:E.
    + apply Z.leb_le in E. assert (d = b) by lia. subst d. nia.
    + apply Z.leb_gt in E. set (q := (d - b) * w / (w - b)).
      assert (q <= w) by (apply Z.div_le_upper_bound; nia).
      rewrite Z.min_r by lia.
      pose proof (Z.div_mod ((d - b) * w) (w - b) ltac:(lia)) as DM.
      pose proof (Z.mod_pos_bound ((d - b) * w) (w - b) ltac:(lia)) as MB. fold q in DM. nia.
  - intros d d' H H1 H2. rewrite !pixel_value by assumption.
    destruct (d <=? b) eqn:E, (d' <=? b) eqn:E'; try lia.
    + apply Z.leb_gt in E'. specialize (N d' E'). lia.
    + apply Z.min_le_compat_l. apply Z.div_le_mono; [lia|]. nia.
Qed.
Print Assumptions C60_pixel_law.

Example C60_pixel_law_ex :
  sensor 2048 15000 /\ in_range 2048 15000 16383 /\
  map (pixel 2048 15000) [0; 2048; 2049; 8000; 15000; 16383] = [0; 0; 1; 6893; 15000; 15000].
Proof. unfold sensor, in_range. repeat split; try lia; reflexivity. Qed.

(** A raw value beyond 15 bits becomes black. *)
Theorem C60_wide_raw_values_refuted :
  exists black white d, sensor black white /\ white < d <= 65535 /\ pixel black white d = 0.
Proof. exists 0, 32767, 40000. unfold sensor. repeat split; try lia; reflexivity. Qed.
Print Assumptions C60_wide_raw_values_refuted.

Definition at_ (a : list (list Z)) (i j : nat) : option Z :=
  match nth_error a i with Some l => nth_error l j | None => None end.

Lemma nth_error_combine : forall {A B} (l : list A) (l' : list B) i,
  nth_error (combine l l') i =
  match nth_error l i, nth_error l' i with Some a, Some b => Some (a, b) | _, _ => None end.
Proof.
  induction l as [|a l IH]; intros [|b l'] [|i]; cbn; try reflexivity.
  - destruct (nth_error l i); reflexivity.
  - apply IH.
Qed.

Lemma at_where : forall keep colors img i j c v,
  at_ colors i j = Some c -> at_ img i j = Some v ->
  at_ (where_ keep colors img) i j = Some (if keep c then v else 0).
Proof.
  intros keep colors img i j c v Hc Hv. unfold at_, where_ in *.
  rewrite nth_error_map, nth_error_combine.
  destruct (nth_error colors i) as [lc|]; [|discriminate]. destruct (nth_error img i) as [lv|]; [|discriminate].
  cbn [option_map fst snd]. rewrite nth_error_map, nth_error_combine, Hc, Hv. reflexivity.
Qed.

Lemma at_map : forall f a i j v, at_ a i j = Some v -> at_ (map (map f) a) i j = Some (f v).
Proof.
  intros f a i j v H. unfold at_ in *. rewrite nth_error_map. destruct (nth_error a i); [|discriminate].
  cbn. rewrite nth_error_map, H. reflexivity.
Qed.

(** Each pixel of colour 0, 1, 2 or 3 (a second green) belongs to exactly one of
    the three channels; there it has the value computed with the black level of
    that channel - for both greens that of channel 1 - and 0 in the others. *)
Theorem C60_channels_partition_the_sensor :
  forall b0 b1 b2 b3 white data colors i j d c,
  white <> b0 -> white <> b1 -> white <> b2 ->
  at_ data i j = Some d -> at_ colors i j = Some c -> 0 <= c <= 3 ->
  exists a0 a1 a2,
    raw_channel [b0; b1; b2; b3] white data colors 0 = Ok a0 /\
    raw_channel [b0; b1; b2; b3] white data colors 1 = Ok a1 /\
    raw_channel [b0; b1; b2; b3] white data colors 2 = Ok a2 /\
    (c = 0 -> at_ a0 i j = Some (pixel b0 white d) /\ at_ a1 i j = Some 0 /\ at_ a2 i j = Some 0) /\
    (c = 1 \/ c = 3 -> at_ a0 i j = Some 0 /\ at_ a1 i j = Some (pixel b1 white d) /\ at_ a2 i j = Some 0) /\
    (c = 2 -> at_ a0 i j = Some 0 /\ at_ a1 i j = Some 0 /\ at_ a2 i j = Some (pixel b2 white d)).
Proof.
  intros b0 b1 b2 b3 white data colors i j d c H0 H1 H2 Hd Hc Hr.
  unfold raw_channel, raw_image. cbn [Z.ltb Z.compare Z.to_nat nth_error Pos.to_nat Pos.iter_op Init.Nat.add].
  change (Pos.to_nat 2) with 2%nat. change (Pos.to_nat 1) with 1%nat. cbn [nth_error].
  apply Z.eqb_neq in H0, H1, H2. rewrite H0, H1, H2. cbn [bind Z.eqb Pos.eqb orb].
  do 3 eexists. split; [reflexivity|split; [reflexivity|split; [reflexivity|]]].
  rewrite !(at_where _ _ _ i j c _ Hc (at_map _ _ _ _ _ Hd)).
  split; [|split]; intros E; [subst c|destruct E; subst c|subst c]; cbn; repeat split; reflexivity.
Qed.
Print Assumptions C60_channels_partition_the_sensor.

Example C60_channels_partition_the_sensor_ex :
  map (raw_channel [0; 0; 0; 0] 100 [[10; 20]; [30; 40]] [[0; 1]; [3; 2]]) [0; 1; 2] =
  [Ok [[10; 0]; [0; 0]]; Ok [[0; 20]; [30; 0]]; Ok [[0; 0]; [0; 40]]].
Proof. reflexivity. Qed.

(** The sum of the channels is the whole image if all channels have the same
    black level. *)
Theorem C60_channels_sum_to_the_image :
  forall b white data colors i j d c k,
  white <> b -> at_ data i j = Some d -> at_ colors i j = Some c -> 0 <= c <= 3 -> 0 <= k <= 3 ->
  exists a0 a1 a2 whole v0 v1 v2,
    raw_channel [b; b; b; b] white data colors 0 = Ok a0 /\
    raw_channel [b; b; b; b] white data colors 1 = Ok a1 /\
    raw_channel [b; b; b; b] white data colors 2 = Ok a2 /\
    raw_image [b; b; b; b] white data k = Ok whole /\
    at_ a0 i j = Some v0 /\ at_ a1 i j = Some v1 /\ at_ a2 i j = Some v2 /\
    at_ whole i j = Some (v0 + v1 + v2).
Proof.
  intros b white data colors i j d c k Hw Hd Hc Hr Hk.
  destruct (C60_channels_partition_the_sensor b b b b white data colors i j d c Hw Hw Hw Hd Hc Hr)
    as (a0 & a1 & a2 & R0 & R1 & R2 & P0 & P1 & P2).
  assert (W : raw_image [b; b; b; b] white data k = Ok (map (map (pixel b white)) data)).
  { unfold raw_image. apply Z.eqb_neq in Hw.
    assert (E : k = 0 \/ k = 1 \/ k = 2 \/ k = 3) by lia.
    destruct E as [-> | [-> | [-> | -> ]]]; cbn [Z.ltb Z.compare];
      [change (Z.to_nat 0) with 0%nat|change (Z.to_nat 1) with 1%nat
      |change (Z.to_nat 2) with 2%nat|change (Z.to_nat 3) with 3%nat];
      cbn [nth_error]; rewrite Hw; reflexivity. }
  assert (E : c = 0 \/ (c = 1 \/ c = 3) \/ c = 2) by lia.
  exists a0, a1, a2, (map (map (pixel b white)) data).
  destruct E as [E|[E|E]].
  - destruct (P0 E) as (Q0 & Q1 & Q2). exists (pixel b white d), 0, 0.
    repeat split; try assumption. rewrite (at_map _ _ _ _ _ Hd). f_equal. lia.
  - destruct (P1 E) as (Q0 & Q1 & Q2). exists 0, (pixel b white d), 0.
    repeat split; try assumption. rewrite (at_map _ _ _ _ _ Hd). f_equal. lia.
  - destruct (P2 E) as (Q0 & Q1 & Q2). exists 0, 0, (pixel b white d).
    repeat split; try assumption. rewrite (at_map _ _ _ _ _ Hd). f_equal.
Qed.
Print Assumptions C60_channels_sum_to_the_image.

Example C60_channels_sum_to_the_image_ex :
  let data := [[10; 2048]; [9000; 15000]] in
  map (raw_channel [2048; 2048; 2048; 2048] 15000 data [[0; 1]; [3; 2]]) [0; 1; 2] =
    [Ok [[0; 0]; [0; 0]]; Ok [[0; 0]; [8051; 0]]; Ok [[0; 0]; [0; 15000]]] /\
  raw_image [2048; 2048; 2048; 2048] 15000 data 3 = Ok [[0; 0]; [8051; 15000]].
Proof. split; reflexivity. Qed.

(** Only the channels 0, 1 and 2 can be read. *)
Theorem C60_other_channels_fail :
  forall levels white data colors channel, channel <> 0 -> channel <> 1 -> channel <> 2 ->
  forall a, raw_channel levels white data colors channel <> Ok a.
Proof.
  intros levels white data colors channel H0 H1 H2 a. unfold raw_channel.
  destruct (raw_image levels white data channel); cbn [bind]; [|discriminate].
  apply Z.eqb_neq in H0, H1, H2. rewrite H0, H1, H2. discriminate.
Qed.
Print Assumptions C60_other_channels_fail.

(** ** C71 *)

Lemma gray_bounds : forall r g b n, (0 <= r)%Q -> (0 <= g)%Q -> (0 <= b)%Q ->
  0 <= n < 256 -> (inject_Z n <= (2989 # 10000) * r + (5870 # 10000) * g + (1140 # 10000) * b < inject_Z n + 1)%Q ->
  gray r g b = n.
Proof.
  intros r g b n Hr Hg Hb Hn [H1 H2]. unfold gray.
  set (x := ((2989 # 10000) * r + (5870 # 10000) * g + (1140 # 10000) * b)%Q) in *.
  assert (E : Qfloor x = n).
  { apply Z.le_antisymm.
    - pose proof (Qfloor_le x) as F.
      assert (G : (inject_Z (Qfloor x) < inject_Z (n + 1))%Q).
      { rewrite inject_Z_plus. change (inject_Z 1) with 1%Q. apply Qle_lt_trans with x; assumption. }
      rewrite <- Zlt_Qlt in G. lia.
    - pose proof (Qfloor_resp_le _ _ H1) as F. rewrite Qfloor_Z in F. exact F. }
  rewrite E. apply Z.mod_small. exact Hn.
Qed.

(** Every PNG image is completely black in grey values. *)
Theorem C71_png_is_black :
  forall r g b, png_value r -> png_value g -> png_value b -> gray r g b = 0.
Proof.
  intros r g b [R1 R2] [G1 G2] [B1 B2]. apply gray_bounds; try assumption; [lia|].
  change (inject_Z 0) with 0%Q. split; lra.
Qed.
Print Assumptions C71_png_is_black.

Example C71_png_is_black_ex : png_value 1 /\ gray 1 1 1 = 0.
Proof. split; [unfold png_value; lra|reflexivity]. Qed.

(** JPEG: the grey value is the weighted mean, rounded down; at most 254. *)
Theorem C71_jpeg_gray_value :
  forall r g b, 0 <= r <= 255 -> 0 <= g <= 255 -> 0 <= b <= 255 ->
  gray (inject_Z r) (inject_Z g) (inject_Z b) = (2989 * r + 5870 * g + 1140 * b) / 10000 /\
  0 <= gray (inject_Z r) (inject_Z g) (inject_Z b) <= 254.
Proof.
  intros r g b Hr Hg Hb.
  set (s := 2989 * r + 5870 * g + 1140 * b).
  assert (D : 0 <= s / 10000 <= 254).
  { split; [apply Z.div_pos; unfold s; lia|]. apply Z.lt_succ_r. apply Z.div_lt_upper_bound; unfold s; lia. }
  assert (E : gray (inject_Z r) (inject_Z g) (inject_Z b) = s / 10000).
  { apply gray_bounds; [unfold Qle; cbn; lia..| |]; [lia|].
    assert (X : ((2989 # 10000) * inject_Z r + (5870 # 10000) * inject_Z g + (1140 # 10000) * inject_Z b == s # 10000)%Q).
    { unfold Qeq, Qplus, Qmult, inject_Z, s. cbn [Qnum Qden]. lia. }
    rewrite X. pose proof (Z.div_mod s 10000 ltac:(lia)) as DM. pose proof (Z.mod_pos_bound s 10000 ltac:(lia)) as MB.
    unfold Qle, Qlt, inject_Z, Qplus. cbn [Qnum Qden]. change (Z.pos (1 * 1)) with 1. lia. }
  rewrite E. split; [reflexivity|exact D].
Qed.
Print Assumptions C71_jpeg_gray_value.

(** A grey JPEG pixel of value v is read as v-1 (the weights add up to 0.9999). *)
Theorem C71_gray_pixel_loses_one :
  forall v, 0 <= v <= 255 ->
  gray (inject_Z v) (inject_Z v) (inject_Z v) = if v =? 0 then 0 else v - 1.
Proof.
  intros v H. rewrite (proj1 (C71_jpeg_gray_value v v v H H H)).
  replace (2989 * v + 5870 * v + 1140 * v) with (9999 * v) by lia.
  destruct (v =? 0) eqn:E.
  - apply Z.eqb_eq in E. subst. reflexivity.
  - apply Z.eqb_neq in E. symmetry. apply Z.div_unique with (r := 10000 - v); lia.
Qed.
Print Assumptions C71_gray_pixel_loses_one.

Example C71_gray_pixel_loses_one_ex : gray 255 255 255 = 254 /\ gray 1 1 1 = 0 /\ gray 255 0 0 = 76.
Proof. repeat split; reflexivity. Qed.

(** Only eight spellings of the extension are accepted; any other file - also
    .Jpg, .cr2 or .NEF - fails with an unassigned variable. *)
Theorem C71_extensions :
  forall (A : Type) (from_img from_raw : res A) name,
  (In (ext_of name) [".JPG"; ".JPEG"; ".jpg"; ".jpeg"; ".PNG"; ".png"] /\
   read_by_extension from_img from_raw name = from_img) \/
  (In (ext_of name) [".CR2"; ".CR3"] /\ read_by_extension from_img from_raw name = from_raw) \/
  (~ In (ext_of name) [".JPG"; ".JPEG"; ".jpg"; ".jpeg"; ".PNG"; ".png"; ".CR2"; ".CR3"] /\
   read_by_extension from_img from_raw name = Err UnboundLocalError).
Proof.
  intros A from_img from_raw name. unfold read_by_extension.
  assert (X : forall l e, existsb (String.eqb e) l = true <-> In e l).
  { intros l e. rewrite existsb_exists. split.
    - intros (x & Hx & E). apply String.eqb_eq in E. subst. exact Hx.
    - intros H. exists e. split; [exact H|apply String.eqb_refl]. }
  destruct (is_img (ext_of name)) eqn:E1; [left; split; [apply X; exact E1|reflexivity]|].
  destruct (is_raw (ext_of name)) eqn:E2; [right; left; split; [apply X; exact E2|reflexivity]|].
  right. right. split; [|reflexivity]. intros H.
  assert (G : In (ext_of name) [".JPG"; ".JPEG"; ".jpg"; ".jpeg"; ".PNG"; ".png"] \/ In (ext_of name) [".CR2"; ".CR3"])
    by (cbn [In] in *; tauto).
  destruct G as [G|G]; apply X in G; [unfold is_img in E1|unfold is_raw in E2]; congruence.
Qed.
Print Assumptions C71_extensions.

Example C71_extensions_ex :
  map ext_of ["IMG_1.JPG"; "a.b.CR2"; ".png"; "x.Jpg"; "y"] = [".JPG"; ".CR2"; ""; ".Jpg"; ""] /\
  read_by_extension (Ok 1) (Ok 2) "x.Jpg" = Err UnboundLocalError.
Proof. split; reflexivity. Qed.
