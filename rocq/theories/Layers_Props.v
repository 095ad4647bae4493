(** C32-C35: layers and distances. *)
From Coq Require Import List Arith Lia Reals Lra.
From Verif Require Import Base Layers_Model Layers_Spec.
Import ListNotations.
Local Open Scope R_scope.

(** ** Layers *)
Lemma border_0 : forall bot top n, border bot top n 0 = bot.
Proof. intros. unfold border. simpl. lra. Qed.

Lemma border_n : forall bot top n, (1 <= n)%nat -> border bot top n n = top.
Proof.
  intros bot top n H. unfold border. assert (INR n <> 0) by (apply not_0_INR; lia). field. assumption.
Qed.

Lemma border_S : forall bot top n i, border bot top n (S i) = border bot top n i + (top - bot) / INR n.
Proof. intros. unfold border. rewrite S_INR. lra. Qed.

Lemma step_pos : forall bot top n, (1 <= n)%nat -> bot < top -> 0 < (top - bot) / INR n.
Proof. intros bot top n H1 H2. apply Rdiv_lt_0_compat; [lra|]. apply lt_0_INR. lia. Qed.

Lemma border_mono : forall bot top n i j, (1 <= n)%nat -> bot < top -> (i <= j)%nat -> border bot top n i <= border bot top n j.
Proof.
  intros bot top n i j Hn Hb H. unfold border. apply Rplus_le_compat_l. apply Rmult_le_compat_r; [|apply le_INR; exact H].
  left. apply step_pos; assumption.
Qed.

(** Neighbouring values of a function on 0, ..., n. *)
Lemma neighbours : forall (f : nat -> R) n a, layers_of (map f (seq a (S n))) = map (fun i => (f i, f (S i))) (seq a n).
Proof.
  intros f n. unfold layers_of. induction n as [|n IH]; intros a; [reflexivity|]. specialize (IH (S a)). cbn [seq map tl combine] in *. rewrite IH. reflexivity.
Qed.

Lemma layers_map : forall bot top n, layers bot top n = map (fun i => (border bot top n i, border bot top n (S i))) (seq 0 n).
Proof. intros bot top n. unfold layers, borders. apply neighbours. Qed.

Lemma layers_nth : forall bot top n k, (k < n)%nat ->
  nth_error (layers bot top n) k = Some (border bot top n k, border bot top n (S k)).
Proof.
  intros bot top n k H. rewrite layers_map, nth_error_map.
  assert (E : nth_error (seq 0 n) k = Some k).
  { rewrite (nth_error_nth' _ 0%nat) by (rewrite seq_length; exact H). rewrite seq_nth by exact H. reflexivity. }
  rewrite E. reflexivity.
Qed.

Lemma in_layer_iff : forall l z, in_layer l z = true <-> fst l <= z < snd l.
Proof.
  intros l z. unfold in_layer. destruct (Rle_dec (fst l) z), (Rlt_dec z (snd l)); split; intros H; try discriminate; try reflexivity; lra.
Qed.

Lemma layer_exists : forall bot top n z, bot < top -> bot <= z ->
  forall m, (m <= n)%nat -> (1 <= n)%nat -> z < border bot top n m ->
  exists k, (k < m)%nat /\ border bot top n k <= z < border bot top n (S k).
Proof.
  intros bot top n z Hb Hz m. induction m as [|m IH]; intros Hm Hn H.
  - rewrite border_0 in H. lra.
  - destruct (Rlt_le_dec z (border bot top n m)) as [L|L].
    + destruct IH as (k & K1 & K2); [lia|exact Hn|exact L|]. exists k. split; [lia|exact K2].
    + exists m. split; [lia|]. split; assumption.
Qed.

Theorem C32_layers_partition_the_domain : forall bot top n, (1 <= n)%nat -> bot < top ->
  List.length (layers bot top n) = n /\
  (forall k l, nth_error (layers bot top n) k = Some l -> snd l - fst l = (top - bot) / INR n) /\
  (forall l, nth_error (layers bot top n) 0 = Some l -> fst l = bot) /\
  (forall l, nth_error (layers bot top n) (n - 1) = Some l -> snd l = top) /\
  (forall k l l', nth_error (layers bot top n) k = Some l -> nth_error (layers bot top n) (S k) = Some l' -> snd l = fst l') /\
  (forall z, bot <= z < top -> exists k, (forall k', (exists l, nth_error (layers bot top n) k' = Some l /\ in_layer l z = true) <-> k' = k)) /\
  (forall z, ~ (bot <= z < top) -> forall l, In l (layers bot top n) -> in_layer l z = false).
Proof.
  intros bot top n Hn Hb.
  assert (L : List.length (layers bot top n) = n) by (rewrite layers_map, map_length, seq_length; reflexivity).
  assert (N : forall k l, nth_error (layers bot top n) k = Some l -> (k < n)%nat /\ l = (border bot top n k, border bot top n (S k))).
  { intros k l H. assert (K : (k < n)%nat) by (rewrite <- L; apply nth_error_Some; congruence). split; [exact K|].
    rewrite layers_nth in H by exact K. congruence. }
  split; [exact L|]. split; [|split; [|split; [|split; [|split]]]].
  - intros k l H. destruct (N k l H) as (_ & ->). cbn [fst snd]. rewrite border_S. lra.
  - intros l H. destruct (N _ _ H) as (_ & ->). apply border_0.
  - intros l H. destruct (N _ _ H) as (K & ->). cbn [snd]. replace (S (n - 1)) with n by lia. apply border_n. exact Hn.
  - intros k l l' H1 H2. destruct (N _ _ H1) as (_ & ->), (N _ _ H2) as (_ & ->). reflexivity.
  - intros z Hz. destruct (layer_exists bot top n z Hb (proj1 Hz) n (le_n n) Hn) as (k & K1 & K2).
    { rewrite border_n by exact Hn. lra. }
    exists k. intros k'. split.
    + intros (l & H1 & H2). destruct (N _ _ H1) as (K & ->). apply in_layer_iff in H2. cbn [fst snd] in H2.
      destruct (lt_eq_lt_dec k' k) as [[C|C]|C]; [|exact C|]; exfalso.
      * pose proof (border_mono bot top n (S k') k Hn Hb C). lra.
      * pose proof (border_mono bot top n (S k) k' Hn Hb C). lra.
    + intros ->. eexists. split; [apply layers_nth; exact K1|]. apply in_layer_iff. exact K2.
  - intros z Hz l Hl. apply In_nth_error in Hl. destruct Hl as (k & Hk). destruct (N _ _ Hk) as (K & ->).
    destruct (in_layer _ z) eqn:E; [|reflexivity]. apply in_layer_iff in E. cbn [fst snd] in E. exfalso. apply Hz.
    pose proof (border_mono bot top n 0 k Hn Hb ltac:(lia)) as B1. rewrite border_0 in B1.
    pose proof (border_mono bot top n (S k) n Hn Hb ltac:(lia)) as B2. rewrite border_n in B2 by exact Hn. lra.
Qed.
Print Assumptions C32_layers_partition_the_domain.

Example C32_example : layers 0 3 3 = [(0, 1); (1, 2); (2, 3)] /\ (1 <= 3)%nat /\ 0 < 3 /\
  in_layer (0, 1) 1 = false /\ in_layer (1, 2) 1 = true.
Proof.
  split; [|split; [lia|split; [lra|split]]].
  - rewrite layers_map. unfold border. simpl. repeat f_equal; field.
  - destruct (in_layer (0, 1) 1) eqn:E; [|reflexivity]. apply in_layer_iff in E. simpl in E. lra.
  - apply in_layer_iff. simpl. lra.
Qed.

(** ** Distances *)

Lemma euclid_model : forall cam led,
  sqrt (Rsqr (px cam - px led) + Rsqr (py cam - py led) + Rsqr (pz cam - pz led)) = euclid cam led.
Proof. reflexivity. Qed.

Lemma sq_nonneg : forall x, 0 <= x * x.
Proof. intros. apply Rle_0_sqr. Qed.

Lemma hd_sq : forall cam led, horizontal_dist cam led * horizontal_dist cam led =
  (px cam - px led) * (px cam - px led) + (py cam - py led) * (py cam - py led).
Proof.
  intros. unfold horizontal_dist. rewrite sqrt_sqrt; [reflexivity|].
  pose proof (Rle_0_sqr (px cam - px led)). pose proof (Rle_0_sqr (py cam - py led)). lra.
Qed.

Lemma hd_pos : forall cam led, 0 <= horizontal_dist cam led.
Proof. intros. apply sqrt_pos. Qed.

Lemma euclid_hd : forall cam led,
  euclid cam led = sqrt (horizontal_dist cam led * horizontal_dist cam led + (pz cam - pz led) * (pz cam - pz led)).
Proof. intros. rewrite hd_sq. reflexivity. Qed.

Lemma euclid_ge_dz : forall cam led, Rabs (pz cam - pz led) <= euclid cam led.
Proof.
  intros. rewrite <- sqrt_Rsqr_abs. apply sqrt_le_1_alt. unfold Rsqr.
  pose proof (sq_nonneg (px cam - px led)). pose proof (sq_nonneg (py cam - py led)). lra.
Qed.

(** The sine of the angle is the height difference over the distance. *)
Lemma sin_angle : forall cam led, pz cam <> pz led ->
  exists alpha, angle cam led = Some alpha /\ alpha <> 0 /\ sin alpha = (pz led - pz cam) / euclid cam led.
Proof.
  intros cam led Hz. pose proof (hd_pos cam led) as Hh. unfold angle. rewrite euclid_hd.
  set (h := horizontal_dist cam led) in *. set (dz := pz led - pz cam).
  assert (Dz : dz <> 0) by (unfold dz; lra).
  replace ((pz cam - pz led) * (pz cam - pz led)) with (dz * dz) by (unfold dz; ring).
  assert (Pi : PI / 2 <> 0) by (pose proof PI_RGT_0; lra).
  destruct (Req_EM_T h 0) as [Eh|Eh].
  - destruct (Req_EM_T dz 0) as [C|_]; [contradiction|]. rewrite Eh.
    replace (0 * 0 + dz * dz) with (Rsqr dz) by (unfold Rsqr; ring). rewrite sqrt_Rsqr_abs.
    destruct (Rlt_dec 0 dz) as [P|P].
    + exists (PI / 2). split; [reflexivity|]. split; [exact Pi|]. rewrite sin_PI2, Rabs_right by lra. field. exact Dz.
    + exists (- (PI / 2)). split; [reflexivity|]. split; [lra|]. rewrite sin_neg, sin_PI2, Rabs_left by lra. field. exact Dz.
  - exists (atan (dz / h)). split; [reflexivity|]. split.
    + intros C. apply atan_eq0 in C. apply Dz. apply (Rmult_eq_reg_r (/ h)); [|apply Rinv_neq_0_compat; exact Eh].
      unfold Rdiv in C. rewrite C. ring.
    + rewrite sin_atan.
      assert (P : 0 < h) by lra.
      assert (Q : sqrt (h * h + dz * dz) = h * sqrt (1 + Rsqr (dz / h))).
      { transitivity (sqrt (h * h) * sqrt (1 + Rsqr (dz / h))); [|rewrite sqrt_square by lra; reflexivity].
        rewrite <- sqrt_mult_alt by apply sq_nonneg. f_equal. unfold Rsqr. field. exact Eh. }
      rewrite Q. assert (0 < sqrt (1 + Rsqr (dz / h))) by (apply sqrt_lt_R0; pose proof (Rle_0_sqr (dz / h)); lra).
      field. split; lra.
Qed.

(** The height crossed in a layer, by clipping to the interval of heights. *)
Definition clip (lo hi x : R) : R := Rmax lo (Rmin hi x).

Ltac minmax := unfold clip, overlap, within, Rmax, Rmin in *;
  repeat match goal with |- context [Rle_dec ?a ?b] => destruct (Rle_dec a b)
                       | H : context [Rle_dec ?a ?b] |- _ => destruct (Rle_dec a b) end; try lra.

Lemma traversed_height_clip : forall c l b u, b <= u ->
  traversed_height c l (b, u) = clip (Rmin c l) (Rmax c l) u - clip (Rmin c l) (Rmax c l) b.
Proof.
  intros c l b u H. unfold traversed_height. cbn [fst snd].
  destruct (Rlt_dec _ 0) as [N|N]; minmax.
Qed.

Lemma sum_scale : forall k l, sum (map (fun x => x * k) l) = sum l * k.
Proof. intros k l. induction l as [|x l IH]; simpl; [lra|]. rewrite IH. lra. Qed.

Lemma sum_app : forall a b, sum (a ++ b) = sum a + sum b.
Proof. induction a as [|x a IH]; intros b; simpl; [lra|]. rewrite IH. lra. Qed.

Lemma sum_nonneg : forall l, Forall (fun x => 0 <= x) l -> 0 <= sum l.
Proof. intros l H. induction H; simpl; lra. Qed.

(** Heights in all layers add up to the overlap with the domain. *)
Lemma heights_add_up : forall bot top n c l, (1 <= n)%nat -> bot < top ->
  forall m, (m <= n)%nat ->
  sum (map (traversed_height c l) (map (fun i => (border bot top n i, border bot top n (S i))) (seq 0 m))) =
  clip (Rmin c l) (Rmax c l) (border bot top n m) - clip (Rmin c l) (Rmax c l) bot.
Proof.
  intros bot top n c l Hn Hb m. induction m as [|m IH]; intros Hm.
  - simpl. rewrite border_0. lra.
  - rewrite seq_S, !map_app, sum_app, IH by lia. cbn [map sum plus].
    rewrite traversed_height_clip by (apply border_mono; auto). lra.
Qed.

Lemma heights_overlap : forall bot top n c l, (1 <= n)%nat -> bot < top ->
  sum (map (traversed_height c l) (layers bot top n)) = overlap bot top c l.
Proof.
  intros bot top n c l Hn Hb. rewrite layers_map. rewrite heights_add_up by auto. rewrite border_n by exact Hn. minmax.
Qed.

Lemma traversed_height_nonneg : forall c l lay, 0 <= traversed_height c l lay.
Proof. intros. unfold traversed_height. destruct (Rlt_dec _ 0); lra. Qed.

(** The row computed for lines of sight that are not horizontal. *)
Lemma row_with_angle : forall ls cam led, pz cam <> pz led ->
  exists alpha, angle cam led = Some alpha /\ alpha <> 0 /\
  dist_with_angle ls alpha cam led =
  map (fun h => h * (euclid cam led / Rabs (pz led - pz cam))) (map (traversed_height (pz cam) (pz led)) ls).
Proof.
  intros ls cam led Hz. destruct (sin_angle cam led Hz) as (alpha & A1 & A2 & A3). exists alpha. split; [exact A1|]. split; [exact A2|].
  unfold dist_with_angle. rewrite map_map. apply map_ext. intros lay. rewrite A3.
  pose proof (traversed_height_nonneg (pz cam) (pz led) lay) as Hh. set (h := traversed_height (pz cam) (pz led) lay) in *.
  pose proof (euclid_ge_dz cam led) as He. assert (Hd : 0 < Rabs (pz cam - pz led)) by (apply Rabs_pos_lt; lra).
  replace (h / ((pz led - pz cam) / euclid cam led)) with (h * euclid cam led / (pz led - pz cam)) by (field; lra).
  unfold Rdiv. rewrite !Rabs_mult, Rabs_inv. rewrite (Rabs_right h) by lra. rewrite (Rabs_right (euclid cam led)) by lra. ring.
Qed.

Lemma consistent_iff : forall ds cam led, consistent ds cam led = true <-> Rabs (sum ds - euclid cam led) <= 1 / 1000000.
Proof.
  intros. unfold consistent. rewrite euclid_model. destruct (Rlt_dec _ _); split; intros H; try discriminate; try reflexivity; lra.
Qed.

(** The row is exactly the scaled heights; it is kept exactly when what lies
    outside of the domain is not longer than the tolerance. *)
Lemma nonhorizontal_outcome : forall bot top n cam led, (1 <= n)%nat -> bot < top -> pz cam <> pz led ->
  let ds := map (fun lay => traversed_height (pz cam) (pz led) lay * (euclid cam led / Rabs (pz led - pz cam))) (layers bot top n) in
  sum ds = euclid cam led * (overlap bot top (pz cam) (pz led) / Rabs (pz led - pz cam)) /\
  traversed_distances (layers bot top n) cam led = (if consistent ds cam led then Row ds else NoRow).
Proof.
  intros bot top n cam led Hn Hb Hz ds.
  destruct (row_with_angle (layers bot top n) cam led Hz) as (alpha & A1 & A2 & A3).
  assert (E : ds = dist_with_angle (layers bot top n) alpha cam led) by (rewrite A3, map_map; reflexivity).
  split.
  - rewrite E, A3, sum_scale, heights_overlap by assumption. field. apply Rabs_no_R0. lra.
  - unfold traversed_distances. rewrite A1. destruct (Req_EM_T alpha 0) as [C|_]; [contradiction|]. rewrite <- E. reflexivity.
Qed.

(** *** C33 *)
Theorem C33_distances_add_up : forall bot top n cam led, (1 <= n)%nat -> bot < top -> pz cam <> pz led ->
  within bot top (pz cam) -> within bot top (pz led) ->
  exists ds, traversed_distances (layers bot top n) cam led = Row ds /\
    List.length ds = n /\ Forall (fun d => 0 <= d) ds /\ sum ds = euclid cam led.
Proof.
  intros bot top n cam led Hn Hb Hz H1 H2. destruct (nonhorizontal_outcome bot top n cam led Hn Hb Hz) as (S1 & S2).
  set (ds := map _ _) in *. exists ds.
  assert (Hd : 0 < Rabs (pz led - pz cam)) by (apply Rabs_pos_lt; lra).
  assert (S : sum ds = euclid cam led).
  { rewrite S1. replace (overlap bot top (pz cam) (pz led)) with (Rabs (pz led - pz cam)); [field; lra|].
    unfold within in *. unfold Rabs. destruct (Rcase_abs _); minmax. }
  split; [|split; [|split; [|exact S]]].
  - rewrite S2. destruct (consistent ds cam led) eqn:E; [reflexivity|]. exfalso.
    assert (C : consistent ds cam led = true); [|congruence]. apply consistent_iff. rewrite S, Rminus_diag_eq, Rabs_R0 by reflexivity. lra.
  - unfold ds. rewrite layers_map, !map_length, seq_length. reflexivity.
  - unfold ds. apply Forall_forall. intros d Hd'. apply in_map_iff in Hd'. destruct Hd' as (lay & <- & _).
    apply Rmult_le_pos; [apply traversed_height_nonneg|]. apply Rmult_le_pos; [apply sqrt_pos|]. left. apply Rinv_0_lt_compat. exact Hd.
Qed.
Print Assumptions C33_distances_add_up.

(** The result is None exactly when more than the tolerance of the line of
    sight lies outside of the domain. *)
Theorem C33_none_iff_outside_too_long : forall bot top n cam led, (1 <= n)%nat -> bot < top -> pz cam <> pz led ->
  let outside := euclid cam led * (1 - overlap bot top (pz cam) (pz led) / Rabs (pz led - pz cam)) in
  0 <= outside /\
  (traversed_distances (layers bot top n) cam led = NoRow <-> 1 / 1000000 < outside) /\
  traversed_distances (layers bot top n) cam led <> NanRow.
Proof.
  intros bot top n cam led Hn Hb Hz outside. destruct (nonhorizontal_outcome bot top n cam led Hn Hb Hz) as (S1 & S2).
  set (ds := map _ _) in *.
  assert (Hd : 0 < Rabs (pz led - pz cam)) by (apply Rabs_pos_lt; lra).
  assert (O : overlap bot top (pz cam) (pz led) <= Rabs (pz led - pz cam)).
  { unfold Rabs. destruct (Rcase_abs _); minmax. }
  assert (P : 0 <= outside).
  { unfold outside. apply Rmult_le_pos; [apply sqrt_pos|]. assert (Q : overlap bot top (pz cam) (pz led) / Rabs (pz led - pz cam) <= 1); [|lra].
    apply (Rmult_le_reg_r (Rabs (pz led - pz cam))); [exact Hd|]. unfold Rdiv. rewrite Rmult_assoc, Rinv_l by lra. lra. }
  assert (D : Rabs (sum ds - euclid cam led) = outside).
  { replace (sum ds - euclid cam led) with (- outside) by (rewrite S1; unfold outside; ring). rewrite Rabs_Ropp. apply Rabs_right. lra. }
  split; [exact P|]. rewrite S2. destruct (consistent ds cam led) eqn:E.
  - apply consistent_iff in E. rewrite D in E. split; [|discriminate]. split; [discriminate|]. intros. lra.
  - split; [|discriminate]. split; [|reflexivity]. intros _. destruct (Rlt_le_dec (1 / 1000000) outside) as [L|L]; [exact L|]. exfalso.
    rewrite <- D in L. apply consistent_iff in L. congruence.
Qed.
Print Assumptions C33_none_iff_outside_too_long.

(** *** C34 *)
Lemma euclid_sight : forall cam led t1 t2, euclid (sight cam led t1) (sight cam led t2) = Rabs (t2 - t1) * euclid cam led.
Proof.
  intros. unfold euclid, sight. cbn [px py pz]. rewrite <- sqrt_Rsqr_abs. rewrite <- sqrt_mult_alt by apply Rle_0_sqr. f_equal. unfold Rsqr. ring.
Qed.

(** [length_between] determines the length. *)
Lemma length_between_unique : forall b u cam led d d', length_between b u cam led d -> length_between b u cam led d' -> d = d'.
Proof.
  intros b u cam led d d' (t1 & t2 & A1 & A2 & A3 & A4 & A5 & ->) (s1 & s2 & B1 & B2 & B3 & B4 & B5 & ->).
  rewrite !euclid_sight. f_equal. rewrite !Rabs_right by lra.
  assert (X : forall a1 a2 c1 c2, 0 <= a1 -> a2 <= 1 -> a1 < a2 -> (forall t, a1 < t < a2 -> b < pz (sight cam led t) < u) ->
    (forall t, 0 <= t <= 1 -> b < pz (sight cam led t) < u -> c1 <= t <= c2) -> c1 <= a1 /\ a2 <= c2).
  { intros a1 a2 c1 c2 H0 H1 Ha H2 H3. split.
    - destruct (Rle_lt_dec c1 a1) as [L|L]; [exact L|]. exfalso.
      set (t := (a1 + Rmin a2 c1) / 2). assert (T : a1 < t < a2 /\ t < c1) by (unfold t; minmax).
      pose proof (H3 t ltac:(lra) (H2 t ltac:(lra))). lra.
    - destruct (Rle_lt_dec a2 c2) as [L|L]; [exact L|]. exfalso.
      set (t := (a2 + Rmax a1 c2) / 2). assert (T : a1 < t < a2 /\ c2 < t) by (unfold t; minmax).
      pose proof (H3 t ltac:(lra) (H2 t ltac:(lra))). lra. }
  destruct (Rle_lt_or_eq_dec t1 t2 A2) as [L|L]; destruct (Rle_lt_or_eq_dec s1 s2 B2) as [L'|L'].
  - pose proof (X t1 t2 s1 s2 A1 A3 L A4 B5). pose proof (X s1 s2 t1 t2 B1 B3 L' B4 A5). lra.
  - pose proof (X t1 t2 s1 s2 A1 A3 L A4 B5). lra.
  - pose proof (X s1 s2 t1 t2 B1 B3 L' B4 A5). lra.
  - lra.
Qed.

Lemma height_is_length : forall b u cam led, b < u -> pz cam <> pz led ->
  length_between b u cam led (traversed_height (pz cam) (pz led) (b, u) * (euclid cam led / Rabs (pz led - pz cam))).
Proof.
  intros b u cam led Hb Hz. rewrite traversed_height_clip by lra.
  set (c := pz cam) in *. set (l := pz led) in *.
  assert (Hsight : forall t, pz (sight cam led t) = c + t * (l - c)) by reflexivity.
  destruct (Rlt_le_dec c l) as [L|L].
  - (* upwards *)
    rewrite Rmin_left, Rmax_right by lra. rewrite (Rabs_right (l - c)) by lra.
    set (t1 := (clip c l b - c) / (l - c)). set (t2 := (clip c l u - c) / (l - c)).
    assert (T1 : t1 * (l - c) = clip c l b - c) by (unfold t1; field; lra).
    assert (T2 : t2 * (l - c) = clip c l u - c) by (unfold t2; field; lra).
    assert (Sc : forall x y, x * (l - c) <= y * (l - c) -> x <= y) by (intros x y H; apply (Rmult_le_reg_r (l - c)); lra).
    assert (Sl : forall x y, x < y -> x * (l - c) < y * (l - c)) by (intros x y H; apply Rmult_lt_compat_r; lra).
    exists t1, t2. repeat split.
    + apply Sc. rewrite T1. minmax.
    + apply Sc. rewrite T1, T2. minmax.
    + apply Sc. rewrite T2. minmax.
    + rewrite Hsight. destruct H as (H1 & H2). apply Sl in H1, H2. rewrite T1 in H1. rewrite T2 in H2. minmax.
    + rewrite Hsight. destruct H as (H1 & H2). apply Sl in H1, H2. rewrite T1 in H1. rewrite T2 in H2. minmax.
    + apply Sc. rewrite T1. rewrite Hsight in H0. assert (t * (l - c) <= 1 * (l - c)) by (apply Rmult_le_compat_r; lra). assert (0 <= t * (l - c)) by (apply Rmult_le_pos; lra). minmax.
    + apply Sc. rewrite T2. rewrite Hsight in H0. assert (t * (l - c) <= 1 * (l - c)) by (apply Rmult_le_compat_r; lra). assert (0 <= t * (l - c)) by (apply Rmult_le_pos; lra). minmax.
    + rewrite euclid_sight. rewrite Rabs_right; [|assert (t1 <= t2) by (apply Sc; rewrite T1, T2; minmax); lra].
      unfold t1, t2. field. lra.
  - (* downwards *)
    rewrite Rmin_right, Rmax_left by lra. rewrite (Rabs_left (l - c)) by lra.
    set (t1 := (c - clip l c u) / (c - l)). set (t2 := (c - clip l c b) / (c - l)).
    assert (T1 : t1 * (c - l) = c - clip l c u) by (unfold t1; field; lra).
    assert (T2 : t2 * (c - l) = c - clip l c b) by (unfold t2; field; lra).
    assert (Hs : forall t, pz (sight cam led t) = c - t * (c - l)) by (intros t; rewrite Hsight; ring).
    assert (Sc : forall x y, x * (c - l) <= y * (c - l) -> x <= y) by (intros x y H; apply (Rmult_le_reg_r (c - l)); lra).
    assert (Sl : forall x y, x < y -> x * (c - l) < y * (c - l)) by (intros x y H; apply Rmult_lt_compat_r; lra).
    exists t1, t2. repeat split.
    + apply Sc. rewrite T1. minmax.
    + apply Sc. rewrite T1, T2. minmax.
    + apply Sc. rewrite T2. minmax.
    + rewrite Hs. destruct H as (H1 & H2). apply Sl in H1, H2. rewrite T1 in H1. rewrite T2 in H2. minmax.
    + rewrite Hs. destruct H as (H1 & H2). apply Sl in H1, H2. rewrite T1 in H1. rewrite T2 in H2. minmax.
    + apply Sc. rewrite T1. rewrite Hs in H0. assert (t * (c - l) <= 1 * (c - l)) by (apply Rmult_le_compat_r; lra). assert (0 <= t * (c - l)) by (apply Rmult_le_pos; lra). minmax.
    + apply Sc. rewrite T2. rewrite Hs in H0. assert (t * (c - l) <= 1 * (c - l)) by (apply Rmult_le_compat_r; lra). assert (0 <= t * (c - l)) by (apply Rmult_le_pos; lra). minmax.
    + rewrite euclid_sight. rewrite Rabs_right; [|assert (t1 <= t2) by (apply Sc; rewrite T1, T2; minmax); lra].
      unfold t1, t2. field. lra.
Qed.

Theorem C34_distance_is_length_in_layer : forall bot top n cam led ds, (1 <= n)%nat -> bot < top -> pz cam <> pz led ->
  traversed_distances (layers bot top n) cam led = Row ds ->
  Forall2 (fun lay d => length_between (fst lay) (snd lay) cam led d) (layers bot top n) ds.
Proof.
  intros bot top n cam led ds Hn Hb Hz H. destruct (nonhorizontal_outcome bot top n cam led Hn Hb Hz) as (_ & S2).
  set (ds' := map _ _) in *. rewrite S2 in H. destruct (consistent ds' cam led); [|discriminate]. injection H as <-. unfold ds'.
  assert (F : Forall (fun lay => fst lay < snd lay) (layers bot top n)).
  { apply Forall_forall. intros lay Hl. rewrite layers_map in Hl. apply in_map_iff in Hl. destruct Hl as (i & <- & _). cbn [fst snd].
    rewrite border_S. pose proof (step_pos bot top n Hn Hb). lra. }
  clear - F Hz. induction F as [|[b u] ls H F IH]; [constructor|]. cbn [map fst snd] in *. constructor; [|exact IH]. apply height_is_length; assumption.
Qed.
Print Assumptions C34_distance_is_length_in_layer.

(** The formula, and the layers that are not crossed. *)
Theorem C34_share_of_overlap : forall bot top n cam led ds k lay d, (1 <= n)%nat -> bot < top -> pz cam <> pz led ->
  traversed_distances (layers bot top n) cam led = Row ds ->
  nth_error (layers bot top n) k = Some lay -> nth_error ds k = Some d ->
  d = euclid cam led * (overlap (fst lay) (snd lay) (pz cam) (pz led) / Rabs (pz led - pz cam)) /\
  (snd lay <= Rmin (pz cam) (pz led) \/ Rmax (pz cam) (pz led) <= fst lay -> d = 0).
Proof.
  intros bot top n cam led ds k lay d Hn Hb Hz H Hk Hd. destruct (nonhorizontal_outcome bot top n cam led Hn Hb Hz) as (_ & S2).
  set (ds' := map _ _) in *. rewrite S2 in H. destruct (consistent ds' cam led); [|discriminate]. injection H as <-.
  unfold ds' in Hd. rewrite nth_error_map, Hk in Hd. cbn [option_map] in Hd. apply Some_inj in Hd.
  assert (D : 0 < Rabs (pz led - pz cam)) by (apply Rabs_pos_lt; lra).
  assert (T : traversed_height (pz cam) (pz led) lay = overlap (fst lay) (snd lay) (pz cam) (pz led)).
  { unfold traversed_height, overlap. destruct (Rlt_dec _ 0) as [N|N]; minmax. }
  assert (E : d = euclid cam led * (overlap (fst lay) (snd lay) (pz cam) (pz led) / Rabs (pz led - pz cam))).
  { rewrite <- Hd, T. field. lra. }
  split; [exact E|]. intros O. rewrite E.
  assert (Z : overlap (fst lay) (snd lay) (pz cam) (pz led) = 0) by (clear - O; minmax).
  rewrite Z. field. lra.
Qed.
Print Assumptions C34_share_of_overlap.

(** *** C35 *)
Lemma horizontal_euclid : forall cam led, pz cam = pz led -> euclid cam led = horizontal_dist cam led.
Proof.
  intros cam led H. rewrite euclid_hd, H. replace (horizontal_dist cam led * horizontal_dist cam led + (pz led - pz led) * (pz led - pz led))
    with (horizontal_dist cam led * horizontal_dist cam led) by ring. apply sqrt_square. apply hd_pos.
Qed.

Lemma horizontal_angle : forall cam led, pz cam = pz led -> euclid cam led <> 0 -> angle cam led = Some 0.
Proof.
  intros cam led H Hd. rewrite horizontal_euclid in Hd by exact H. unfold angle. destruct (Req_EM_T _ 0) as [C|_]; [contradiction|].
  rewrite H. replace ((pz led - pz led) / horizontal_dist cam led) with 0 by (field; exact Hd). rewrite atan_0. reflexivity.
Qed.

Lemma plane_sum : forall (p : R * R -> bool) v ls k l,
  nth_error ls k = Some l -> p l = true -> (forall j l', nth_error ls j = Some l' -> p l' = true -> j = k) ->
  sum (map (fun l => if p l then v else 0) ls) = v.
Proof.
  intros p v ls. induction ls as [|a ls IH]; intros k l Hk Hp Hu; [destruct k; discriminate|].
  assert (Z : (forall j l', nth_error ls j = Some l' -> p l' = false) -> sum (map (fun l => if p l then v else 0) ls) = 0).
  { clear. induction ls as [|a ls IH]; intros H; [reflexivity|]. cbn [map sum]. rewrite (H 0%nat a eq_refl), IH; [lra|].
    intros j l' Hj. apply (H (S j) l' Hj). }
  cbn [map sum]. destruct k as [|k]; cbn [nth_error] in Hk.
  - apply Some_inj in Hk. subst a. rewrite Hp, Z; [lra|]. intros j l' Hj. destruct (p l') eqn:E; [|reflexivity].
    pose proof (Hu (S j) l' Hj E). discriminate.
  - destruct (p a) eqn:E; [pose proof (Hu 0%nat a eq_refl E); discriminate|]. rewrite (IH k l Hk Hp); [lra|].
    intros j l' Hj Hl. pose proof (Hu (S j) l' Hj Hl). lia.
Qed.

Theorem C35_horizontal_line_of_sight : forall bot top n cam led, (1 <= n)%nat -> bot < top -> pz cam = pz led ->
  bot <= pz cam < top -> euclid cam led <> 0 ->
  exists ds k lay, traversed_distances (layers bot top n) cam led = Row ds /\ List.length ds = n /\
    nth_error (layers bot top n) k = Some lay /\ fst lay <= pz cam < snd lay /\
    forall j d, nth_error ds j = Some d -> d = if (j =? k)%nat then euclid cam led else 0.
Proof.
  intros bot top n cam led Hn Hb Hz Hin Hd.
  destruct (C32_layers_partition_the_domain bot top n Hn Hb) as (L & _ & _ & _ & _ & U & _). destruct (U (pz cam) Hin) as (k & Hk).
  destruct (proj2 (Hk k) eq_refl) as (lay & K1 & K2).
  set (ds := dist_in_plane (layers bot top n) cam led).
  assert (Rw : traversed_distances (layers bot top n) cam led = if consistent ds cam led then Row ds else NoRow).
  { unfold traversed_distances. rewrite horizontal_angle by assumption. destruct (Req_EM_T 0 0); [reflexivity|lra]. }
  assert (S : sum ds = euclid cam led).
  { rewrite horizontal_euclid by exact Hz. unfold ds, dist_in_plane.
    apply (plane_sum (fun l => in_layer l (pz cam)) _ _ k lay K1 K2). intros j l' Hj Hl. apply Hk. exists l'. split; assumption. }
  exists ds, k, lay. split; [|split; [|split; [exact K1|split; [apply in_layer_iff; exact K2|]]]].
  - rewrite Rw. destruct (consistent ds cam led) eqn:E; [reflexivity|]. exfalso.
    assert (C : consistent ds cam led = true); [|congruence]. apply consistent_iff. rewrite S, Rminus_diag_eq, Rabs_R0 by reflexivity. lra.
  - unfold ds, dist_in_plane. rewrite map_length. exact L.
  - intros j d Hj. unfold ds, dist_in_plane in Hj. rewrite nth_error_map in Hj.
    destruct (nth_error (layers bot top n) j) as [l'|] eqn:Ej; [|discriminate]. cbn [option_map] in Hj. apply Some_inj in Hj. subst d.
    rewrite horizontal_euclid by exact Hz. destruct (Nat.eqb_spec j k) as [->|Ne].
    + replace l' with lay by congruence. rewrite K2. reflexivity.
    + destruct (in_layer l' (pz cam)) eqn:El; [|reflexivity]. exfalso. apply Ne. apply Hk. exists l'. split; assumption.
Qed.
Print Assumptions C35_horizontal_line_of_sight.

(** At the top border (and everywhere else outside) no layer gets anything,
    and the line of sight is dropped. *)
Theorem C35_horizontal_outside_is_dropped : forall bot top n cam led, (1 <= n)%nat -> bot < top -> pz cam = pz led ->
  ~ (bot <= pz cam < top) -> 1 / 1000000 < euclid cam led ->
  traversed_distances (layers bot top n) cam led = NoRow.
Proof.
  intros bot top n cam led Hn Hb Hz Hout Hd.
  destruct (C32_layers_partition_the_domain bot top n Hn Hb) as (_ & _ & _ & _ & _ & _ & O).
  unfold traversed_distances. rewrite horizontal_angle by lra. destruct (Req_EM_T 0 0) as [_|]; [|lra].
  set (ds := dist_in_plane (layers bot top n) cam led).
  assert (S : sum ds = 0).
  { unfold ds, dist_in_plane. specialize (O (pz cam) Hout). revert O. generalize (layers bot top n). intros ls O.
    induction ls as [|l ls IH]; [reflexivity|]. cbn [map sum]. rewrite (O l (or_introl eq_refl)), IH; [lra|]. intros l' Hl. apply O. right. exact Hl. }
  destruct (consistent ds cam led) eqn:E; [|reflexivity]. apply consistent_iff in E. rewrite S in E. exfalso.
  replace (0 - euclid cam led) with (- euclid cam led) in E by ring. rewrite Rabs_Ropp, Rabs_right in E; lra.
Qed.
Print Assumptions C35_horizontal_outside_is_dropped.

Theorem C35_top_border_refuted : exists bot top n cam led, (1 <= n)%nat /\ bot < top /\ within bot top (pz cam) /\ within bot top (pz led) /\
  pz cam = pz led /\ euclid cam led <> 0 /\ traversed_distances (layers bot top n) cam led = NoRow.
Proof.
  exists 0, 3, 3%nat, (Point 0 0 3), (Point 1 0 3).
  assert (E : euclid (Point 0 0 3) (Point 1 0 3) = 1).
  { unfold euclid. cbn [px py pz]. replace ((0 - 1) * (0 - 1) + (0 - 0) * (0 - 0) + (3 - 3) * (3 - 3)) with 1 by ring. apply sqrt_1. }
  split; [lia|]. split; [lra|]. unfold within. cbn [pz]. do 2 (split; [lra|]). split; [reflexivity|]. split; [rewrite E; lra|].
  apply C35_horizontal_outside_is_dropped; cbn [pz]; try lia; try lra.
Qed.
Print Assumptions C35_top_border_refuted.

(** A LED at the very place of the camera: a row of nan that passes the check. *)
Theorem C35_same_position_gives_nan : forall ls cam, traversed_distances ls cam cam = NanRow.
Proof.
  intros ls cam. unfold traversed_distances, angle.
  assert (H : horizontal_dist cam cam = 0).
  { unfold horizontal_dist. rewrite !Rminus_diag_eq by reflexivity. unfold Rsqr. replace (0 * 0 + 0 * 0) with 0 by ring. apply sqrt_0. }
  rewrite H. destruct (Req_EM_T 0 0) as [_|]; [|lra]. rewrite Rminus_diag_eq by reflexivity. destruct (Req_EM_T 0 0) as [_|]; [|lra]. reflexivity.
Qed.
Print Assumptions C35_same_position_gives_nan.

(** *** A concrete case: camera at (0,0,1), LED at (4,0,4), three layers up to
    height 6, the line of sight has length 5. *)
Example C33_example : (1 <= 3)%nat /\ 0 < 6 /\ pz (Point 0 0 1) <> pz (Point 4 0 4) /\
  within 0 6 (pz (Point 0 0 1)) /\ within 0 6 (pz (Point 4 0 4)) /\
  euclid (Point 0 0 1) (Point 4 0 4) = 5 /\
  traversed_distances (layers 0 6 3) (Point 0 0 1) (Point 4 0 4) = Row [5 / 3; 10 / 3; 0].
Proof.
  assert (E : euclid (Point 0 0 1) (Point 4 0 4) = 5).
  { unfold euclid. cbn [px py pz]. replace ((0 - 4) * (0 - 4) + (0 - 0) * (0 - 0) + (1 - 4) * (1 - 4)) with (5 * 5) by ring. apply sqrt_square. lra. }
  assert (Z : pz (Point 0 0 1) <> pz (Point 4 0 4)) by (cbn [pz]; lra).
  split; [lia|]. split; [lra|]. split; [exact Z|]. unfold within. cbn [pz]. do 2 (split; [lra|]). split; [exact E|].
  destruct (nonhorizontal_outcome 0 6 3 (Point 0 0 1) (Point 4 0 4) ltac:(lia) ltac:(lra) Z) as (_ & ->). rewrite E. cbn [pz].
  assert (L : layers 0 6 3 = [(0, 2); (2, 4); (4, 6)]) by (rewrite layers_map; unfold border; simpl; repeat f_equal; field).
  rewrite L. cbn [map].
  assert (T1 : traversed_height 1 4 (0, 2) = 1) by (rewrite traversed_height_clip by lra; minmax).
  assert (T2 : traversed_height 1 4 (2, 4) = 2) by (rewrite traversed_height_clip by lra; minmax).
  assert (T3 : traversed_height 1 4 (4, 6) = 0) by (rewrite traversed_height_clip by lra; minmax).
  rewrite T1, T2, T3. rewrite (Rabs_right (4 - 1)) by lra.
  replace (1 * (5 / (4 - 1))) with (5 / 3) by field. replace (2 * (5 / (4 - 1))) with (10 / 3) by field. replace (0 * (5 / (4 - 1))) with 0 by field.
  destruct (consistent _ _ _) eqn:C; [reflexivity|]. exfalso.
  assert (D : consistent [5 / 3; 10 / 3; 0] (Point 0 0 1) (Point 4 0 4) = true); [|congruence]. apply consistent_iff. rewrite E. cbn [sum].
  replace (5 / 3 + (10 / 3 + (0 + 0)) - 5) with 0 by field. rewrite Rabs_R0. lra.
Qed.

(** A vertical line of sight and a horizontal one. *)
Example C34_vertical_example : pz (Point 1 1 0) <> pz (Point 1 1 2) /\ horizontal_dist (Point 1 1 0) (Point 1 1 2) = 0 /\
  exists ds, traversed_distances (layers 0 2 2) (Point 1 1 0) (Point 1 1 2) = Row ds.
Proof.
  split; [cbn [pz]; lra|]. split.
  - unfold horizontal_dist. cbn [px py]. rewrite !Rminus_diag_eq by reflexivity. unfold Rsqr. replace (0 * 0 + 0 * 0) with 0 by ring. apply sqrt_0.
  - destruct (C33_distances_add_up 0 2 2 (Point 1 1 0) (Point 1 1 2)) as (ds & H & _); unfold within; cbn [pz]; try lia; try lra. exists ds. exact H.
Qed.

Example C35_example : exists ds, traversed_distances (layers 0 3 3) (Point 0 0 1) (Point 1 0 1) = Row ds /\ nth_error ds 1 = Some 1.
Proof.
  assert (E : euclid (Point 0 0 1) (Point 1 0 1) = 1).
  { unfold euclid. cbn [px py pz]. replace ((0 - 1) * (0 - 1) + (0 - 0) * (0 - 0) + (1 - 1) * (1 - 1)) with 1 by ring. apply sqrt_1. }
  destruct (C35_horizontal_line_of_sight 0 3 3 (Point 0 0 1) (Point 1 0 1)) as (ds & k & lay & H & HL & H1 & H2 & H3); cbn [pz] in *; try lia; try lra; try (rewrite E; lra).
  exists ds. split; [exact H|].
  assert (K : k = 1%nat).
  { rewrite (proj1 C32_example) in H1. destruct k as [|[|[|k]]]; simpl in H1; [injection H1 as <-; simpl in H2; lra|reflexivity|injection H1 as <-; simpl in H2; lra|destruct k; discriminate]. }
  destruct (nth_error ds 1) as [d|] eqn:Ed; [|exfalso; apply nth_error_None in Ed; lia].
  f_equal. rewrite (H3 1%nat d Ed), K, E. reflexivity.
Qed.
