(** C124: the distances through the layers with the arithmetic of the machine. *)
From Coq Require Import List Arith Lia Sorted Reals Lra Psatz.
From Verif Require Import Base Layers_Model Layers_Spec Layers_Props Rounding_Model Rounding_Props Machine_Model.
Import ListNotations.
Local Open Scope R_scope.

(** ** Specification *)

(** No operation has a relative error above [u], no arcus tangent exceeds a
    right angle; a sum has one such error for each number. *)
Definition accurate (u : R) (m : machine) : Prop :=
  rounding u (rnd m) /\
  (forall x, 0 <= x -> Rabs (m_sqrt m x - sqrt x) <= u * sqrt x) /\
  (forall x, Rabs (m_atan m x - atan x) <= u * Rabs (atan x) /\ Rabs (m_atan m x) <= PI / 2) /\
  (Rabs (m_right m - PI / 2) <= u * (PI / 2) /\ m_right m <= PI / 2) /\
  (forall x, Rabs (m_sin m x - sin x) <= u * Rabs (sin x)) /\
  (forall l, Forall (fun x => 0 <= x) l -> (1 - u) ^ List.length l * sum l <= m_sum m l <= (1 + u) ^ List.length l * sum l).

(** The length of the line of sight outside the domain. *)
Definition outside (bot top : R) (cam led : point) : R := euclid cam led * (1 - overlap bot top (pz cam) (pz led) / Rabs (pz led - pz cam)).

(** ** Numbers which agree up to a factor *)
Definition near (q : R) (k : nat) (x y : R) : Prop := y <= x * q ^ k /\ x <= y * q ^ k.

Section Near.
Context (q : R) (Hq : 1 <= q).

Lemma pow_ge_1 : forall k, 1 <= q ^ k.
Proof. induction k as [|k IH]; cbn [pow]; [lra|nra]. Qed.

Lemma near_sym : forall k x y, near q k x y -> near q k y x.
Proof. intros k x y (A & B). split; assumption. Qed.

Lemma near_refl : forall k x, 0 <= x -> near q k x x.
Proof. intros k x H. pose proof (pow_ge_1 k). split; nra. Qed.

Lemma near_le : forall k j x y, (k <= j)%nat -> 0 <= x -> 0 <= y -> near q k x y -> near q j x y.
Proof.
  intros k j x y L Hx Hy (A & B). replace j with (k + (j - k))%nat by lia. pose proof (pow_ge_1 (j - k)) as P. pose proof (pow_ge_1 k) as P'.
  unfold near. rewrite pow_add. set (a := q ^ k) in *. set (b := q ^ (j - k)) in *.
  assert (0 <= x * a) by nra. assert (0 <= y * a) by nra. split; nra.
Qed.

Lemma near_trans : forall k j x y z, near q k x y -> near q j y z -> near q (k + j) x z.
Proof.
  intros k j x y z (A & B) (C & D). unfold near. rewrite pow_add. pose proof (pow_ge_1 k). pose proof (pow_ge_1 j). set (a := q ^ k) in *. set (b := q ^ j) in *.
  split.
  - eapply Rle_trans; [exact C|]. rewrite <- Rmult_assoc. apply Rmult_le_compat_r; lra.
  - eapply Rle_trans; [exact B|]. rewrite (Rmult_comm a b), <- Rmult_assoc. apply Rmult_le_compat_r; lra.
Qed.

Lemma near_mult : forall k j x y x' y', 0 <= x -> 0 <= y -> 0 <= x' -> 0 <= y' -> near q k x y -> near q j x' y' -> near q (k + j) (x * x') (y * y').
Proof.
  intros k j x y x' y' Hx Hy Hx' Hy' (A & B) (C & D). unfold near. rewrite pow_add. split.
  - replace (x * x' * (q ^ k * q ^ j)) with ((x * q ^ k) * (x' * q ^ j)) by ring. apply Rmult_le_compat; assumption.
  - replace (y * y' * (q ^ k * q ^ j)) with ((y * q ^ k) * (y' * q ^ j)) by ring. apply Rmult_le_compat; assumption.
Qed.

Lemma near_inv : forall k x y, 0 < x -> 0 < y -> near q k x y -> near q k (/ x) (/ y).
Proof.
  intros k x y Hx Hy (A & B). pose proof (pow_ge_1 k) as P. unfold near. set (a := q ^ k) in *. split.
  - apply (Rmult_le_reg_l (x * y)); [nra|]. replace (x * y * / y) with x by (field; lra). replace (x * y * (/ x * a)) with (y * a) by (field; lra). exact B.
  - apply (Rmult_le_reg_l (x * y)); [nra|]. replace (x * y * / x) with y by (field; lra). replace (x * y * (/ y * a)) with (x * a) by (field; lra). exact A.
Qed.

Lemma near_div : forall k j x y x' y', 0 <= x -> 0 <= y -> 0 < x' -> 0 < y' -> near q k x y -> near q j x' y' -> near q (k + j) (x / x') (y / y').
Proof.
  intros k j x y x' y' Hx Hy Hx' Hy' A B. unfold Rdiv. apply near_mult; try assumption; try (left; apply Rinv_0_lt_compat; assumption). apply near_inv; assumption.
Qed.

Lemma near_plus : forall k x y x' y', near q k x y -> near q k x' y' -> near q k (x + x') (y + y').
Proof. intros k x y x' y' (A & B) (C & D). split; rewrite Rmult_plus_distr_r; lra. Qed.

Lemma near_zero : forall k x y, 0 <= x -> near q k x y -> y = 0 -> x = 0.
Proof. intros k x y Hx (A & B) ->. rewrite Rmult_0_l in B. lra. Qed.

Lemma near_pos : forall k x y, 0 <= x -> near q k x y -> 0 < y -> 0 < x.
Proof.
  intros k x y Hx (A & B) Hy. destruct (Req_dec x 0) as [->|N]; [rewrite Rmult_0_l in A; lra|lra].
Qed.

Lemma near_sqrt : forall k x y, 0 <= x -> 0 <= y -> near q k x y -> near q k (sqrt x) (sqrt y).
Proof.
  intros k x y Hx Hy (A & B). pose proof (pow_ge_1 k) as P. unfold near. set (a := q ^ k) in *.
  assert (S : sqrt a <= a). { rewrite <- (sqrt_square a) at 2 by lra. apply sqrt_le_1_alt. nra. }
  split.
  - apply (Rle_trans _ (sqrt (x * a))); [apply sqrt_le_1_alt; exact A|]. rewrite sqrt_mult by lra. apply Rmult_le_compat_l; [apply sqrt_pos|exact S].
  - apply (Rle_trans _ (sqrt (y * a))); [apply sqrt_le_1_alt; exact B|]. rewrite sqrt_mult by lra. apply Rmult_le_compat_l; [apply sqrt_pos|exact S].
Qed.

(** Increasing functions which bend downwards keep the factor. *)
Lemma near_concave : forall (h : R -> R) B k x y,
  (forall a b, 0 <= a -> a <= b -> b <= B -> h a <= h b) -> (forall t b, 0 <= t <= 1 -> 0 <= b <= B -> t * h b <= h (t * b)) -> 0 <= h 0 ->
  0 <= x <= B -> 0 <= y <= B -> near q k x y -> near q k (h x) (h y).
Proof.
  intros h B k x y Mono Conc H0 Hx Hy N.
  assert (G : forall a b, 0 <= a <= B -> 0 <= b <= B -> b <= a * q ^ k -> h b <= h a * q ^ k).
  { intros a b Ha Hb L. pose proof (pow_ge_1 k) as P. set (f := q ^ k) in *. assert (If : 0 < / f <= 1).
    { split; [apply Rinv_0_lt_compat; lra|]. rewrite <- Rinv_1. apply Rinv_le_contravar; lra. }
    pose proof (Conc (/ f) b ltac:(lra) Hb) as C.
    assert (L' : / f * b <= a). { apply (Rmult_le_reg_r f); [lra|]. replace (/ f * b * f) with b by (field; lra). exact L. }
    pose proof (Mono (/ f * b) a ltac:(apply Rmult_le_pos; lra) L' ltac:(lra)) as M.
    apply (Rmult_le_reg_l (/ f)); [lra|]. replace (/ f * (h a * f)) with (h a) by (field; lra). lra. }
  destruct N as (N1 & N2). split; apply G; assumption.
Qed.

Lemma near_error : forall k x y, 0 <= y -> near q k x y -> Rabs (x - y) <= (q ^ k - 1) * y.
Proof.
  intros k x y Hy (A & B). pose proof (pow_ge_1 k) as P. set (a := q ^ k) in *. apply Rabs_le. split; [|lra].
  destruct (Rle_dec y x) as [L|L]; [nra|]. nra.
Qed.
End Near.

Lemma concave_ray : forall (h h' : R -> R) t b, (forall c, derivable_pt_lim h c (h' c)) -> h 0 = 0 -> 0 <= t <= 1 -> 0 <= b ->
  (forall c d, 0 <= c -> c <= d -> d <= b -> h' d <= h' c) -> t * h b <= h (t * b).
Proof.
  intros h h' t b D H0 Ht Hb M. destruct (Req_dec b 0) as [->|Nb]; [rewrite Rmult_0_r, H0; lra|].
  destruct (Req_dec t 0) as [->|Nt]; [rewrite !Rmult_0_l, H0; lra|]. destruct (Req_dec t 1) as [->|Nt1]; [rewrite !Rmult_1_l; lra|].
  assert (A : 0 < t * b) by (apply Rmult_lt_0_compat; lra). assert (B : t * b < b) by nra.
  destruct (MVT_cor2 h h' 0 (t * b) A (fun c _ => D c)) as (c1 & E1 & C1). destruct (MVT_cor2 h h' (t * b) b B (fun c _ => D c)) as (c2 & E2 & C2).
  rewrite H0 in E1. pose proof (M c1 c2 ltac:(lra) ltac:(lra) ltac:(lra)) as L.
  assert (X : h' c2 * (b - t * b) <= h' c1 * (b - t * b)) by (apply Rmult_le_compat_r; lra).
  nra.
Qed.

Lemma atan_mono : forall a b, a <= b -> atan a <= atan b.
Proof. intros a b H. destruct (Req_dec a b) as [->|N]; [lra|]. left. apply atan_increasing. lra. Qed.

Lemma near_atan : forall q k x y, 1 <= q -> 0 <= x -> 0 <= y -> near q k x y -> near q k (atan x) (atan y).
Proof.
  intros q k x y Hq Hx Hy N. apply (near_concave q Hq atan (Rmax x y)); [| | |split; [exact Hx|apply Rmax_l]|split; [exact Hy|apply Rmax_r]|exact N].
  - intros a b _ L _. apply atan_mono. exact L.
  - intros t b Ht Hb. apply (concave_ray atan (fun x => / (1 + x ^ 2))); [intros c; apply derivable_pt_lim_atan|apply atan_0|exact Ht|apply Hb|].
    intros c d Hc L _. apply Rinv_le_contravar; [nra|]. apply Rplus_le_compat_l. apply pow_incr; lra.
  - rewrite atan_0. lra.
Qed.

Lemma near_sin : forall q k x y, 1 <= q -> 0 <= x <= PI / 2 -> 0 <= y <= PI / 2 -> near q k x y -> near q k (sin x) (sin y).
Proof.
  intros q k x y Hq Hx Hy N. pose proof PI_RGT_0 as Pi. apply (near_concave q Hq sin (PI / 2)); [| | |exact Hx|exact Hy|exact N].
  - intros a b Ha L Hb. apply sin_incr_1; lra.
  - intros t b Ht Hb. apply (concave_ray sin cos); [intros c; apply derivable_pt_lim_sin|apply sin_0|exact Ht|apply Hb|].
    intros c d Hc L Hd. apply cos_decr_1; lra.
  - rewrite sin_0. lra.
Qed.

(** ** The operations of an accurate machine *)
Definition factor (u : R) : R := / (1 - u).

Lemma factor_ge_1 : forall u, 0 <= u < 1 -> 1 <= factor u.
Proof. intros u Hu. unfold factor. rewrite <- Rinv_1. apply Rinv_le_contravar; lra. Qed.

Lemma near_relative : forall u x y, 0 <= u < 1 -> 0 <= y -> Rabs (x - y) <= u * y -> near (factor u) 1 x y /\ 0 <= x.
Proof.
  intros u x y Hu Hy H. apply abs_le_inv in H. unfold near, factor. rewrite pow_1. set (f := / (1 - u)).
  assert (F : f * (1 - u) = 1) by (unfold f; field; lra). assert (F1 : 0 < f) by (unfold f; apply Rinv_0_lt_compat; lra).
  assert (F2 : 1 + u <= f). { apply (Rmult_le_reg_r (1 - u)); [lra|]. nra. }
  split; [split|].
  - apply (Rle_trans _ (y * (1 - u) * f)); [replace (y * (1 - u) * f) with (y * (f * (1 - u))) by ring; rewrite F; lra|]. apply Rmult_le_compat_r; [lra|]. nra.
  - apply (Rle_trans _ (y * (1 + u))); [lra|]. apply Rmult_le_compat_l; lra.
  - nra.
Qed.

Lemma near_relative_abs : forall u x y, 0 <= u < 1 -> Rabs (x - y) <= u * Rabs y -> near (factor u) 1 (Rabs x) (Rabs y).
Proof.
  intros u x y Hu H. apply near_relative; [exact Hu|apply Rabs_pos|]. eapply Rle_trans; [apply Rabs_triang_inv2|exact H].
Qed.

(** Rounding keeps the sign. *)
Lemma relative_sign : forall u x y, 0 <= u < 1 -> Rabs (x - y) <= u * Rabs y -> (0 < y -> 0 < x) /\ (y < 0 -> x < 0) /\ (y = 0 -> x = 0).
Proof.
  intros u x y Hu H. apply abs_le_inv in H. unfold Rabs in H. destruct (Rcase_abs y); repeat split; intros; nra.
Qed.

Section Machine.
Context (u : R) (m : machine) (Hu : 0 <= u < 1) (Hm : accurate u m).
Let q := factor u.

Lemma q_ge_1 : 1 <= q.
Proof. apply factor_ge_1. exact Hu. Qed.

Lemma rnd_near : forall k x y, near q k (Rabs x) y -> near q (S k) (Rabs (rnd m x)) y.
Proof.
  intros k x y H. change (S k) with (1 + k)%nat. apply (near_trans q q_ge_1 1 k _ (Rabs x)); [|exact H].
  apply near_relative_abs; [exact Hu|]. apply (proj1 Hm).
Qed.

Lemma rnd_sign : forall x, (0 < x -> 0 < rnd m x) /\ (x < 0 -> rnd m x < 0) /\ (x = 0 -> rnd m x = 0).
Proof. intros x. apply (relative_sign u); [exact Hu|]. apply (proj1 Hm). Qed.

Lemma rnd_pos : forall x, 0 <= x -> 0 <= rnd m x.
Proof.
  intros x Hx. destruct (rnd_sign x) as (A & B & C). destruct (Req_dec x 0) as [E|N]; [rewrite (C E); lra|]. assert (0 < x) by lra. left. auto.
Qed.

Lemma rnd_near_pos : forall k x y, 0 <= x -> near q k x y -> near q (S k) (rnd m x) y.
Proof.
  intros k x y Hx H. rewrite <- (Rabs_pos_eq (rnd m x)) by (apply rnd_pos; exact Hx). apply rnd_near. rewrite Rabs_pos_eq by exact Hx. exact H.
Qed.

Lemma sqrt_near : forall k x y, 0 <= x -> 0 <= y -> near q k x y -> near q (S k) (m_sqrt m x) (sqrt y) /\ 0 <= m_sqrt m x.
Proof.
  intros k x y Hx Hy H. destruct Hm as (_ & M & _). destruct (near_relative u (m_sqrt m x) (sqrt x) Hu (sqrt_pos x) (M x Hx)) as (A & B). split; [|exact B].
  change (S k) with (1 + k)%nat. apply (near_trans q q_ge_1 1 k _ (sqrt x)); [exact A|]. apply (near_sqrt q q_ge_1); assumption.
Qed.

Lemma square_near : forall a b, near q 3 (m_square m a b) ((a - b) * (a - b)) /\ 0 <= m_square m a b.
Proof.
  intros a b. unfold m_square. assert (P : 0 <= rnd m (a - b) * rnd m (a - b)) by apply sq_nonneg. split; [|apply rnd_pos; exact P].
  apply rnd_near_pos; [exact P|]. assert (N : near q 1 (Rabs (rnd m (a - b))) (Rabs (a - b))) by (apply near_relative_abs; [exact Hu|apply (proj1 Hm)]).
  pose proof (near_mult q 1 1 _ _ _ _ (Rabs_pos _) (Rabs_pos _) (Rabs_pos _) (Rabs_pos _) N N) as X. rewrite <- !Rabs_mult in X.
  rewrite (Rabs_pos_eq _ P), (Rabs_pos_eq _ (sq_nonneg (a - b))) in X. exact X.
Qed.

Lemma horizontal_near : forall cam led, near q 5 (m_horizontal m cam led) (horizontal_dist cam led) /\ 0 <= m_horizontal m cam led.
Proof.
  intros cam led. unfold m_horizontal, horizontal_dist, Rsqr. destruct (square_near (px cam) (px led)) as (A & A'). destruct (square_near (py cam) (py led)) as (B & B').
  apply sqrt_near; [apply rnd_pos; lra|pose proof (sq_nonneg (px cam - px led)); pose proof (sq_nonneg (py cam - py led)); lra|].
  apply rnd_near_pos; [lra|]. apply near_plus; assumption.
Qed.

Lemma euclid_near : forall cam led, near q 6 (m_euclid m cam led) (euclid cam led) /\ 0 <= m_euclid m cam led.
Proof.
  intros cam led. unfold m_euclid, euclid. destruct (square_near (px cam) (px led)) as (A & A'). destruct (square_near (py cam) (py led)) as (B & B'). destruct (square_near (pz cam) (pz led)) as (C & C').
  pose proof (sq_nonneg (px cam - px led)). pose proof (sq_nonneg (py cam - py led)). pose proof (sq_nonneg (pz cam - pz led)).
  pose proof (rnd_pos (m_square m (px cam) (px led) + m_square m (py cam) (py led)) ltac:(lra)) as P.
  apply sqrt_near; [apply rnd_pos; lra|lra|]. apply rnd_near_pos; [lra|]. apply near_plus; [|apply (near_le q q_ge_1 3); [lia|exact C'|lra|exact C]].
  apply rnd_near_pos; [lra|]. apply near_plus; assumption.
Qed.

Lemma height_near : forall c l lay, near q 1 (m_height m c l lay) (traversed_height c l lay) /\ 0 <= m_height m c l lay.
Proof.
  intros c l lay. unfold m_height, traversed_height. set (h := Rmin (Rmax c l) (snd lay) - Rmax (Rmin c l) (fst lay)). cbv zeta. destruct (rnd_sign h) as (A & B & C).
  destruct (Rlt_dec (rnd m h) 0) as [L|L], (Rlt_dec h 0) as [L'|L'].
  - split; [apply near_refl; [apply q_ge_1|lra]|lra].
  - exfalso. pose proof (rnd_pos h ltac:(lra)). lra.
  - exfalso. apply B in L'. lra.
  - split; [|lra]. apply rnd_near_pos; [lra|]. split; cbn [pow]; lra.
Qed.

Lemma sum_near : forall l, Forall (fun x => 0 <= x) l -> near q (List.length l) (m_sum m l) (sum l) /\ 0 <= m_sum m l.
Proof.
  intros l F. destruct Hm as (_ & _ & _ & _ & _ & M). specialize (M l F). pose proof (sum_nonneg l F) as P. set (n := List.length l) in *.
  assert (X1 : 0 < (1 - u) ^ n) by (apply pow_lt; lra). assert (X2 : (1 - u) ^ n * q ^ n = 1).
  { rewrite <- Rpow_mult_distr. unfold q, factor. rewrite Rinv_r by lra. apply pow1. }
  assert (X3 : (1 + u) ^ n <= q ^ n).
  { apply pow_incr. split; [lra|]. unfold q, factor. apply (Rmult_le_reg_r (1 - u)); [lra|]. rewrite Rinv_l by lra. nra. }
  pose proof (pow_ge_1 q q_ge_1 n) as X4. split; [split|].
  - apply (Rle_trans _ ((1 - u) ^ n * sum l * q ^ n)); [replace ((1 - u) ^ n * sum l * q ^ n) with (sum l * ((1 - u) ^ n * q ^ n)) by ring; rewrite X2; lra|].
    apply Rmult_le_compat_r; lra.
  - eapply Rle_trans; [apply M|]. rewrite Rmult_comm. apply Rmult_le_compat_l; assumption.
  - nra.
Qed.

(** The angle of a line of sight which is not horizontal, and its sine. *)
Lemma angle_near : forall cam led, pz cam <> pz led ->
  exists alpha, m_angle m cam led = Some alpha /\ alpha <> 0 /\ near q 9 (Rabs (m_sin m alpha)) (Rabs (pz led - pz cam) / euclid cam led) /\ m_sin m alpha <> 0.
Proof.
  intros cam led Hz. destruct (horizontal_near cam led) as (H1 & H2). pose proof (hd_pos cam led) as H3.
  destruct (sin_angle cam led Hz) as (alpha & A1 & A2 & A3).
  assert (E : 0 < euclid cam led) by (pose proof (euclid_ge_dz cam led); pose proof (Rabs_pos_lt (pz cam - pz led) ltac:(lra)); lra).
  assert (A4 : Rabs (pz led - pz cam) / euclid cam led = Rabs (sin alpha)) by (rewrite A3; unfold Rdiv; rewrite Rabs_mult, (Rabs_pos_eq (/ euclid cam led)) by (left; apply Rinv_0_lt_compat; exact E); reflexivity).
  rewrite A4. assert (D : 0 < Rabs (pz led - pz cam)) by (apply Rabs_pos_lt; lra).
  assert (S0 : 0 < Rabs (sin alpha)) by (rewrite <- A4; apply Rdiv_lt_0_compat; assumption).
  pose proof PI_RGT_0 as Pi.
  assert (SinAbs : forall x, Rabs x <= PI / 2 -> Rabs (sin x) = sin (Rabs x)).
  { intros x Hx. apply abs_le_inv in Hx. unfold Rabs at 2. destruct (Rcase_abs x).
    - rewrite sin_neg. apply Rabs_left1. rewrite <- (Ropp_involutive x), sin_neg. pose proof (sin_ge_0 (- x) ltac:(lra) ltac:(lra)). lra.
    - apply Rabs_pos_eq. apply sin_ge_0; lra. }
  assert (G : forall a, near q 8 (Rabs a) (Rabs alpha) -> Rabs a <= PI / 2 -> Rabs alpha <= PI / 2 -> a <> 0 /\ near q 9 (Rabs (m_sin m a)) (Rabs (sin alpha)) /\ m_sin m a <> 0).
  { intros a N La Lal. assert (Na : a <> 0).
    { intros ->. rewrite Rabs_R0 in N. apply (near_sym q) in N. apply (near_zero q 8 (Rabs alpha) 0 (Rabs_pos _)) in N; [|reflexivity]. pose proof (Rabs_pos_lt _ A2). lra. }
    assert (N9 : near q 9 (Rabs (m_sin m a)) (Rabs (sin alpha))).
    { change 9%nat with (1 + 8)%nat. apply (near_trans q q_ge_1 1 8 _ (Rabs (sin a))).
      - apply near_relative_abs; [exact Hu|]. destruct Hm as (_ & _ & _ & _ & M & _). apply M.
      - rewrite !SinAbs by assumption. apply near_sin; [apply q_ge_1|split; [apply Rabs_pos|assumption]|split; [apply Rabs_pos|assumption]|exact N]. }
    split; [exact Na|]. split; [exact N9|]. intros Z. rewrite Z, Rabs_R0 in N9. apply (near_sym q) in N9. apply (near_zero q 9 _ 0 (Rabs_pos _)) in N9; [|reflexivity]. lra. }
  destruct Hm as (Mr & _ & Ma & (Mh1 & Mh2) & _). unfold angle in A1. unfold m_angle. cbv zeta in *.
  set (h := horizontal_dist cam led) in *. set (h' := m_horizontal m cam led) in *. set (dz := pz led - pz cam) in *.
  destruct (rnd_sign dz) as (R1 & R2 & R3).
  assert (Ndz : rnd m dz <> 0) by (destruct (Rtotal_order dz 0) as [L|[L|L]]; [apply R2 in L; lra|exfalso; unfold dz in L; lra|apply R1 in L; lra]).
  destruct (Req_EM_T h' 0) as [Z'|Z'], (Req_EM_T h 0) as [Z|Z].
  - destruct (Req_EM_T (rnd m dz) 0) as [C|_]; [contradiction|]. destruct (Req_EM_T dz 0) as [C|_]; [unfold dz in C; lra|].
    assert (NR : near q 1 (m_right m) (PI / 2) /\ 0 <= m_right m) by (apply near_relative; [exact Hu|lra|exact Mh1]).
    destruct NR as (NR & PR). apply (near_le q q_ge_1 1 8) in NR; [|lia|exact PR|lra].
    assert (K : forall a, Rabs a = m_right m -> Rabs alpha = PI / 2 -> a <> 0 /\ near q 9 (Rabs (m_sin m a)) (Rabs (sin alpha)) /\ m_sin m a <> 0).
    { intros a Ea Eal. apply G; rewrite ?Ea, ?Eal; [exact NR|exact Mh2|lra]. }
    assert (Sg : (0 < rnd m dz <-> 0 < dz)).
    { split; [|exact R1]. intros L. destruct (Rtotal_order dz 0) as [L'|[L'|L']]; [apply R2 in L'; lra|apply R3 in L'; lra|exact L']. }
    destruct (Rlt_dec 0 (rnd m dz)) as [L|L], (Rlt_dec 0 dz) as [L'|L']; try (exfalso; tauto).
    + exists (m_right m). apply Some_inj in A1. split; [reflexivity|]. apply K; [apply Rabs_pos_eq; exact PR|rewrite <- A1; apply Rabs_pos_eq; lra].
    + exists (- m_right m). apply Some_inj in A1. split; [reflexivity|]. apply K; [rewrite Rabs_Ropp; apply Rabs_pos_eq; exact PR|rewrite <- A1, Rabs_Ropp; apply Rabs_pos_eq; lra].
  - exfalso. apply Z. apply (near_zero q 5 h h' H3 (near_sym q 5 _ _ H1) Z').
  - exfalso. apply Z'. apply (near_zero q 5 h' h H2 H1 Z).
  - apply Some_inj in A1. exists (m_atan m (rnd m (rnd m dz / h'))). split; [reflexivity|].
    assert (AtanAbs : forall x, Rabs (atan x) = atan (Rabs x)).
    { intros x. unfold Rabs at 2. destruct (Rcase_abs x) as [L|L].
      - rewrite atan_opp. apply Rabs_left. rewrite <- atan_0. apply atan_increasing. exact L.
      - apply Rabs_pos_eq. rewrite <- atan_0. apply atan_mono. lra. }
    assert (Q : near q 7 (Rabs (rnd m (rnd m dz / h'))) (Rabs (dz / h))).
    { apply rnd_near. unfold Rdiv. rewrite !Rabs_mult, (Rabs_pos_eq (/ h')), (Rabs_pos_eq (/ h)) by (left; apply Rinv_0_lt_compat; lra).
      apply (near_div q q_ge_1 1 5); try apply Rabs_pos; try lra; [|exact H1]. apply near_relative_abs; [exact Hu|apply Mr]. }
    apply G; [| |].
    + change 8%nat with (1 + 7)%nat. apply (near_trans q q_ge_1 1 7 _ (Rabs (atan (rnd m (rnd m dz / h'))))); [apply near_relative_abs; [exact Hu|apply Ma]|].
      rewrite <- A1, !AtanAbs. apply near_atan; [apply q_ge_1|apply Rabs_pos|apply Rabs_pos|exact Q].
    + apply Ma.
    + rewrite <- A1. pose proof (atan_bound (dz / h)). apply Rabs_le. lra.
Qed.

Lemma row_near : forall ls cam led, pz cam <> pz led ->
  exists ds', m_distances m ls cam led = (if m_consistent m ds' cam led then Row ds' else NoRow) /\
    Forall2 (fun lay d' => near q 11 d' (traversed_height (pz cam) (pz led) lay * (euclid cam led / Rabs (pz led - pz cam))) /\ 0 <= d') ls ds'.
Proof.
  intros ls cam led Hz. destruct (angle_near cam led Hz) as (alpha & A1 & A2 & A3 & A4). exists (m_with_angle m ls alpha cam led). unfold m_distances. rewrite A1.
  destruct (Req_EM_T alpha 0) as [C|_]; [contradiction|]. split; [reflexivity|].
  assert (E : 0 < euclid cam led) by (pose proof (euclid_ge_dz cam led); pose proof (Rabs_pos_lt (pz cam - pz led) ltac:(lra)); lra).
  assert (D : 0 < Rabs (pz led - pz cam)) by (apply Rabs_pos_lt; lra).
  unfold m_with_angle. induction ls as [|lay ls IH]; [constructor|]. cbn [map]. constructor; [|exact IH]. split; [|apply Rabs_pos].
  destruct (height_near (pz cam) (pz led) lay) as (H1 & H2). apply rnd_near. unfold Rdiv at 1. rewrite Rabs_mult, (Rabs_pos_eq _ H2), Rabs_inv.
  replace (traversed_height (pz cam) (pz led) lay * (euclid cam led / Rabs (pz led - pz cam)))
    with (traversed_height (pz cam) (pz led) lay / (Rabs (pz led - pz cam) / euclid cam led)) by (field; lra).
  apply (near_div q q_ge_1 1 9); [exact H2|apply traversed_height_nonneg|apply Rabs_pos_lt; exact A4|apply Rdiv_lt_0_compat; assumption|exact H1|exact A3].
Qed.
End Machine.

Lemma factor_pow : forall u k, 0 <= u < 1 -> INR k * u <= 1 / 2 -> factor u ^ k <= 1 + 2 * (INR k * u).
Proof.
  intros u k Hu Hk. assert (B : forall j, 1 - INR j * u <= (1 - u) ^ j).
  { induction j as [|j IH]; [cbn; lra|]. rewrite S_INR. cbn [pow]. assert (0 <= INR j * u) by (apply Rmult_le_pos; [apply pos_INR|lra]). nra. }
  specialize (B k). unfold factor. rewrite pow_inv. set (x := INR k * u) in *. set (y := (1 - u) ^ k) in *.
  assert (0 <= x) by (apply Rmult_le_pos; [apply pos_INR|lra]). apply (Rmult_le_reg_r y); [lra|]. rewrite Rinv_l by lra. nra.
Qed.

Lemma factor_11 : forall u, 0 <= u <= 1 / 200 -> factor u ^ 11 - 1 <= 12 * u.
Proof.
  intros u Hu. assert (B : 1 - 11 * u <= (1 - u) ^ 11).
  { assert (B : forall j, 1 - INR j * u <= (1 - u) ^ j).
    { induction j as [|j IH]; [cbn; lra|]. rewrite S_INR. cbn [pow]. assert (0 <= INR j * u) by (apply Rmult_le_pos; [apply pos_INR|lra]). nra. }
    specialize (B 11%nat). replace (INR 11) with 11 in B by (cbn [INR]; ring). exact B. }
  unfold factor. rewrite pow_inv. set (y := (1 - u) ^ 11) in *. assert (/ y <= 1 + 12 * u); [|lra].
  apply (Rmult_le_reg_r y); [lra|]. rewrite Rinv_l by lra. nra.
Qed.

Lemma sum_near_rows : forall q k ds' ds, Forall2 (fun d' d => near q k d' d) ds' ds -> near q k (sum ds') (sum ds).
Proof.
  intros q k ds' ds F. induction F as [|x y l l' H F IH]; [split; cbn [sum]; lra|]. cbn [sum]. apply near_plus; assumption.
Qed.

(** The check of the machine, for distances which nearly add up to [s]. *)
Lemma check : forall u m n ds s cam led, accurate u m -> 0 <= u -> INR (n + 18) * u <= 1 / 2 -> List.length ds = n -> Forall (fun d => 0 <= d) ds ->
  near (factor u) 11 (sum ds) s -> 0 <= s <= euclid cam led ->
  (euclid cam led - s + 2 * INR (n + 18) * u * euclid cam led <= 1 / 1000000 -> m_consistent m ds cam led = true) /\
  (1 / 1000000 < euclid cam led - s - 2 * INR (n + 18) * u * euclid cam led -> m_consistent m ds cam led = false).
Proof.
  intros u m n ds s cam led Hm H0 Hn L F N Hs.
  assert (I : INR (n + 18) = INR n + 18) by (rewrite plus_INR; cbn [INR]; ring). pose proof (pos_INR n) as Pn. rewrite I in *.
  assert (Hu : 0 <= u < 1) by nra. pose proof (factor_ge_1 u Hu) as Hq.
  destruct (sum_near u m Hu Hm ds F) as (S1 & S2). destruct (euclid_near u m Hu Hm cam led) as (E1 & E2). rewrite L in S1.
  pose proof (near_trans _ Hq _ _ _ _ _ S1 N) as S3. set (E := euclid cam led) in *. set (E' := m_euclid m cam led) in *. set (S' := m_sum m ds) in *.
  pose proof (near_error _ Hq (n + 11) S' s (proj1 Hs) S3) as X. pose proof (near_error _ Hq 6 E' E ltac:(lra) E1) as Y.
  assert (I' : INR (n + 11) = INR n + 11) by (rewrite plus_INR; cbn [INR]; ring). assert (I6 : INR 6 = 6) by (cbn [INR]; ring).
  pose proof (factor_pow u (n + 11) Hu ltac:(rewrite I'; nra)) as Q1. pose proof (factor_pow u 6 Hu ltac:(rewrite I6; nra)) as Q2. rewrite I' in Q1. rewrite I6 in Q2.
  assert (X' : Rabs (S' - s) <= 2 * ((INR n + 11) * u) * E).
  { eapply Rle_trans; [exact X|]. apply (Rle_trans _ (2 * ((INR n + 11) * u) * s)); [apply Rmult_le_compat_r; lra|]. apply Rmult_le_compat_l; [|lra]. nra. }
  assert (Y' : Rabs (E' - E) <= 2 * (6 * u) * E) by (eapply Rle_trans; [exact Y|]; apply Rmult_le_compat_r; lra).
  assert (Z : Rabs ((S' - E') - (s - E)) <= 2 * ((INR n + 17) * u) * E).
  { replace (S' - E' - (s - E)) with ((S' - s) - (E' - E)) by ring. eapply Rle_trans; [apply Rabs_triang|]. rewrite Rabs_Ropp. lra. }
  pose proof (proj1 Hm (S' - E')) as R. apply abs_le_inv in Z.
  assert (T : 0 <= (INR n + 17) * u <= 1 / 2) by nra. set (t := (INR n + 17) * u) in *.
  assert (Tu : 2 * (INR n + 18) * u * E = 2 * t * E + 2 * u * E) by (unfold t; ring).
  assert (PE : 0 <= u * E) by nra. assert (Pt : 0 <= t * E) by nra.
  assert (Ab : Rabs (S' - E') <= E - s + 2 * t * E) by (apply Rabs_le; lra).
  assert (Ab2 : E - s - 2 * t * E <= Rabs (S' - E')) by (pose proof (Rle_abs (- (S' - E'))) as W; rewrite Rabs_Ropp in W; lra).
  assert (R2 : u * Rabs (S' - E') <= 2 * u * E). { apply (Rle_trans _ (u * (E - s + 2 * t * E))); [apply Rmult_le_compat_l; lra|]. nra. }
  pose proof (Rabs_triang_inv2 (rnd m (S' - E')) (S' - E')) as R3. pose proof (Rle_trans _ _ _ R3 R) as R4. apply abs_le_inv in R4.
  unfold m_consistent. fold S' E'. rewrite Tu. split; intros B; destruct (Rlt_dec _ _) as [C|C]; try reflexivity; exfalso; lra.
Qed.

(** ** C124 *)

(** A line of sight which is not horizontal: whether it is kept, and its
    distances, for layers between any ascending borders. *)
Theorem C124_any_borders : forall u m bot top bs n cam led, accurate u m -> 0 <= u <= 1 / 200 -> ascends bot top bs -> List.length bs = S n ->
  INR (n + 18) * u <= 1 / 2 -> bot < top -> pz cam <> pz led ->
  let tol := 2 * INR (n + 18) * u * euclid cam led in
  (outside bot top cam led + tol <= 1 / 1000000 -> exists ds', m_distances m (layers_of bs) cam led = Row ds') /\
  (1 / 1000000 < outside bot top cam led - tol -> m_distances m (layers_of bs) cam led = NoRow) /\
  m_distances m (layers_of bs) cam led <> NanRow /\
  forall ds', m_distances m (layers_of bs) cam led = Row ds' ->
    Forall2 (fun lay d' => exists d, length_between (fst lay) (snd lay) cam led d /\ Rabs (d' - d) <= 12 * u * d) (layers_of bs) ds'.
Proof.
  intros u m bot top bs n cam led Hm Hu Ha Hn Hs Hb Hz tol. assert (Hu1 : 0 <= u < 1) by lra. pose proof (factor_ge_1 u Hu1) as Hq.
  destruct (row_near u m Hu1 Hm (layers_of bs) cam led Hz) as (ds' & D1 & D2).
  destruct (outcome_any bot top bs cam led Ha ltac:(lra) Hz) as (S1 & _). set (ds := map _ _) in S1.
  assert (Hd : 0 < Rabs (pz led - pz cam)) by (apply Rabs_pos_lt; lra).
  assert (P : partition bot top bs (layers_of bs)) by (apply ascends_partition; exact Ha).
  assert (Len : List.length ds' = n) by (pose proof (Forall2_len _ _ _ D2) as X; destruct P as (P & _); lia).
  assert (Near : Forall2 (fun d' d => near (factor u) 11 d' d) ds' ds).
  { unfold ds. clear - D2. induction D2 as [|lay d' ls l' (H & _) D2 IH]; [constructor|]. cbn [map]. constructor; assumption. }
  assert (Pos : Forall (fun d => 0 <= d) ds') by (clear - D2; induction D2 as [|lay d' ls l' (_ & H) D2 IH]; constructor; assumption).
  apply sum_near_rows in Near. rewrite S1 in Near. set (s := euclid cam led * (overlap bot top (pz cam) (pz led) / Rabs (pz led - pz cam))) in *.
  assert (O : 0 <= overlap bot top (pz cam) (pz led) <= Rabs (pz led - pz cam)) by (unfold Rabs; destruct (Rcase_abs _); minmax).
  assert (E : 0 <= euclid cam led) by apply sqrt_pos.
  assert (Q : 0 <= overlap bot top (pz cam) (pz led) / Rabs (pz led - pz cam) <= 1).
  { split; [apply Rmult_le_pos; [apply O|left; apply Rinv_0_lt_compat; exact Hd]|]. apply (Rmult_le_reg_r (Rabs (pz led - pz cam))); [exact Hd|].
    unfold Rdiv. rewrite Rmult_assoc, Rinv_l by lra. lra. }
  assert (Hss : 0 <= s <= euclid cam led) by (unfold s; nra).
  destruct (check u m n ds' s cam led Hm (proj1 Hu) Hs Len Pos Near Hss) as (C1 & C2).
  assert (Out : outside bot top cam led = euclid cam led - s) by (unfold outside, s; ring). rewrite Out. unfold tol.
  split; [intros B; exists ds'; rewrite D1, (C1 B); reflexivity|]. split; [intros B; rewrite D1, (C2 B); reflexivity|].
  split; [rewrite D1; destruct (m_consistent m ds' cam led); discriminate|].
  intros es He. rewrite D1 in He. destruct (m_consistent m ds' cam led); [|discriminate]. injection He as <-.
  assert (F : Forall (fun lay => fst lay < snd lay) (layers_of bs)).
  { apply Forall_forall. intros lay Hl. apply In_nth_error in Hl. destruct Hl as (k & Hk). apply (proj1 (proj2 P) k lay Hk). }
  clear - D2 F Hz Hq Hu Hd E. induction D2 as [|(b, t) d' ls l' (H & _) D2 IH]; [constructor|]. inversion F as [|? ? F1 F2]; subst. constructor; [|apply IH; exact F2].
  cbn [fst snd] in *. eexists. split; [apply height_is_length; assumption|].
  assert (Pd : 0 <= traversed_height (pz cam) (pz led) (b, t) * (euclid cam led / Rabs (pz led - pz cam))).
  { apply Rmult_le_pos; [apply traversed_height_nonneg|]. apply Rmult_le_pos; [exact E|left; apply Rinv_0_lt_compat; exact Hd]. }
  eapply Rle_trans; [apply (near_error _ Hq 11 _ _ Pd H)|]. apply Rmult_le_compat_r; [exact Pd|]. apply factor_11. exact Hu.
Qed.
Print Assumptions C124_any_borders.

(** The whole calculation on the machine, compared with exact arithmetic. *)
Theorem C124_distances_of_the_machine : forall u m bot top n cam led, accurate u m -> 0 <= u <= 1 / 200 -> (1 <= n)%nat -> bot < top -> rnd m bot = bot ->
  20 * u * size bot top * INR n < top - bot -> INR (n + 18) * u <= 1 / 2 -> 2 * INR (n + 18) * u * euclid cam led <= 1 / 1000000 ->
  pz cam <> pz led -> within bot top (pz cam) -> within bot top (pz led) ->
  exists ds ds', traversed_distances (layers bot top n) cam led = Row ds /\ m_distances m (rounded_layers (rnd m) bot top n) cam led = Row ds' /\
    Forall2 (fun d d' => Rabs (d' - d) <= 12 * u * d + 22 * u * size bot top * (euclid cam led / Rabs (pz led - pz cam))) ds ds'.
Proof.
  intros u m bot top n cam led Hm Hu Hn Hb Hbot Hl Hs Ht Hz W1 W2. assert (Hr : rounding u (rnd m)) by apply Hm. assert (Hu' : 0 <= u <= 1 / 16) by lra.
  destruct (C123_rounded_borders_ascend u (rnd m) bot top n Hr Hu' Hn Hb Hbot Hl) as (A & L).
  destruct (C33_distances_add_up bot top n cam led Hn Hb Hz W1 W2) as (ds & D & _ & Pos & _).
  destruct (C123_distances_are_close u (rnd m) bot top n cam led Hr Hu' Hn Hb Hbot Hl Hz) as (_ & C). destruct (C ds D) as (es & De & Ce).
  destruct (C123_any_borders bot top _ cam led A Hb) as (_ & B). specialize (B Hz). destruct B as (B & _). fold (rounded_layers (rnd m) bot top n) in B. specialize (B es De).
  destruct (C124_any_borders u m bot top _ n cam led Hm Hu A L Hs Hb Hz) as (M1 & _ & _ & M2). fold (rounded_layers (rnd m) bot top n) in M1, M2.
  assert (Hd : 0 < Rabs (pz led - pz cam)) by (apply Rabs_pos_lt; lra).
  assert (O : outside bot top cam led = 0).
  { unfold outside. replace (overlap bot top (pz cam) (pz led)) with (Rabs (pz led - pz cam)); [field; lra|]. unfold within in *. unfold Rabs. destruct (Rcase_abs _); minmax. }
  destruct M1 as (ds' & D'); [rewrite O; lra|]. exists ds, ds'. split; [exact D|]. split; [exact D'|]. specialize (M2 ds' D').
  set (K := euclid cam led / Rabs (pz led - pz cam)) in *. assert (PK : 0 <= K) by (apply Rmult_le_pos; [apply sqrt_pos|left; apply Rinv_0_lt_compat; exact Hd]).
  destruct (size_pos bot top Hb) as (_ & _ & PS & _). set (M := size bot top) in *.
  clear - Ce B M2 Pos PK PS Hu. revert ds ds' Ce M2 Pos. induction B as [|lay e ls es HB B IH]; intros ds ds' Ce M2 Pos.
  - inversion Ce; subst. inversion M2; subst. constructor.
  - inversion Ce as [|d ? ds0 ? C1 C2]; subst. inversion M2 as [|? d' ? ds1 (x & X1 & X2) M3]; subst. inversion Pos as [|? ? P1 P2]; subst.
    constructor; [|apply IH; assumption]. rewrite (length_between_unique _ _ _ _ _ _ X1 HB) in X2. clear x X1.
    assert (PMK : 0 <= u * M * K) by (apply Rmult_le_pos; [apply Rmult_le_pos; lra|exact PK]).
    replace (d' - d) with ((d' - e) + (e - d)) by ring. eapply Rle_trans; [apply Rabs_triang|].
    assert (e <= d + 20 * u * M * K) by (apply abs_le_inv in C1; lra).
    assert (12 * u * e <= 12 * u * (d + 20 * u * M * K)) by (apply Rmult_le_compat_l; lra).
    assert (12 * u * (20 * u * M * K) <= 2 * (u * M * K)) by nra. nra.
Qed.
Print Assumptions C124_distances_of_the_machine.

(** A horizontal line of sight: its distance goes to the layer of the camera. *)
Theorem C124_horizontal_lines : forall u m bot top bs n cam led, accurate u m -> 0 <= u <= 1 / 200 -> ascends bot top bs -> List.length bs = S n ->
  INR (n + 18) * u <= 1 / 2 -> bot < top -> pz cam = pz led -> euclid cam led <> 0 ->
  let tol := 2 * INR (n + 18) * u * euclid cam led in
  (bot <= pz cam < top -> tol <= 1 / 1000000 ->
   exists ds' k, m_distances m (layers_of bs) cam led = Row ds' /\ List.length ds' = n /\
     (exists lay, nth_error (layers_of bs) k = Some lay /\ fst lay <= pz cam < snd lay) /\
     forall j d', nth_error ds' j = Some d' -> if (j =? k)%nat then Rabs (d' - euclid cam led) <= 12 * u * euclid cam led else d' = 0) /\
  (~ (bot <= pz cam < top) -> 1 / 1000000 < euclid cam led - tol -> m_distances m (layers_of bs) cam led = NoRow).
Proof.
  intros u m bot top bs n cam led Hm Hu Ha Hn Hs Hb Hz He tol. assert (Hu1 : 0 <= u < 1) by lra. pose proof (factor_ge_1 u Hu1) as Hq.
  destruct (horizontal_near u m Hu1 Hm cam led) as (H1 & H2). rewrite <- (horizontal_euclid cam led Hz) in H1.
  assert (E : 0 < euclid cam led) by (pose proof (sqrt_pos ((px cam - px led) * (px cam - px led) + (py cam - py led) * (py cam - py led) + (pz cam - pz led) * (pz cam - pz led))) as X; fold (euclid cam led) in X; lra).
  set (h' := m_horizontal m cam led) in *. pose proof (near_pos _ _ _ _ H2 H1 E) as P'.
  assert (Z0 : rnd m 0 = 0) by (apply (rnd_sign u m Hu1 Hm); reflexivity).
  assert (At : m_atan m 0 = 0).
  { destruct Hm as (_ & _ & M & _). destruct (M 0) as (M0 & _). rewrite atan_0 in M0. apply (relative_sign u _ _ Hu1 M0). reflexivity. }
  assert (D : m_distances m (layers_of bs) cam led = (if m_consistent m (m_in_plane m (layers_of bs) cam led) cam led then Row (m_in_plane m (layers_of bs) cam led) else NoRow)).
  { unfold m_distances, m_angle. fold h'. cbv zeta. destruct (Req_EM_T h' 0) as [C|_]; [lra|].
    replace (pz led - pz cam) with 0 by lra. rewrite Z0. unfold Rdiv. rewrite Rmult_0_l, Z0, At. destruct (Req_EM_T 0 0) as [_|C]; [reflexivity|lra]. }
  set (ds' := m_in_plane m (layers_of bs) cam led) in *.
  pose proof (ascends_partition bot top bs Ha) as (P0 & _ & P2 & P3).
  assert (Len : List.length ds' = n) by (unfold ds', m_in_plane; rewrite map_length; lia).
  assert (Pos : Forall (fun d => 0 <= d) ds').
  { unfold ds', m_in_plane. apply Forall_map. apply Forall_forall. intros l _. fold h'. destruct (in_layer l (pz cam)); lra. }
  split.
  - intros W Ht. destruct (P2 (pz cam) W) as (k & K1 & K2).
    destruct (nth_error (layers_of bs) k) as [lay|] eqn:El; [|apply nth_error_None in El; lia].
    assert (S : sum ds' = h').
    { unfold ds', m_in_plane. fold h'. apply (plane_sum (fun l => in_layer l (pz cam)) h' (layers_of bs) k lay El).
      - apply in_layer_iff. apply (K2 k lay El). reflexivity.
      - intros j l' Hj Hin. apply in_layer_iff in Hin. apply (K2 j l' Hj). exact Hin. }
    assert (N11 : near (factor u) 11 (sum ds') (euclid cam led)) by (rewrite S; apply (near_le _ Hq 5); [lia|lra|lra|exact H1]).
    destruct (check u m n ds' (euclid cam led) cam led Hm (proj1 Hu) Hs Len Pos N11 ltac:(lra)) as (C & _).
    exists ds', k. split; [rewrite D, C by (fold tol; lra); reflexivity|]. split; [exact Len|].
    split; [exists lay; split; [exact El|apply (K2 k lay El); reflexivity]|].
    intros j d' Hj. unfold ds', m_in_plane in Hj. rewrite nth_error_map in Hj. fold h' in Hj. destruct (nth_error (layers_of bs) j) as [l|] eqn:Ej; [|discriminate].
    cbn [option_map] in Hj. apply Some_inj in Hj. destruct (Nat.eqb_spec j k) as [Ejk|Njk].
    + replace (in_layer l (pz cam)) with true in Hj by (symmetry; apply in_layer_iff; apply (K2 j l Ej); exact Ejk). subst d'.
      rewrite S in N11. eapply Rle_trans; [apply (near_error _ Hq 11); [lra|exact N11]|]. apply Rmult_le_compat_r; [lra|]. apply factor_11. exact Hu.
    + destruct (in_layer l (pz cam)) eqn:I; [|congruence]. exfalso. apply Njk. apply (K2 j l Ej). apply in_layer_iff. exact I.
  - intros W Ht. assert (S : sum ds' = 0).
    { unfold ds', m_in_plane. assert (G : forall ls, (forall l, In l ls -> in_layer l (pz cam) = false) -> sum (map (fun l => if in_layer l (pz cam) then m_horizontal m cam led else 0) ls) = 0).
      { induction ls as [|l ls IH]; intros H; [reflexivity|]. cbn [map sum]. rewrite (H l) by (left; reflexivity). rewrite IH by (intros; apply H; right; assumption). lra. }
      apply G. intros l Hl. destruct (in_layer l (pz cam)) eqn:I; [|reflexivity]. exfalso. apply in_layer_iff in I. apply (P3 (pz cam) l W Hl). exact I. }
    destruct (check u m n ds' 0 cam led Hm (proj1 Hu) Hs Len Pos) as (_ & C); [rewrite S; split; lra|lra|]. rewrite D, C by (fold tol; lra). reflexivity.
Qed.
Print Assumptions C124_horizontal_lines.

(** The LED at the place of the camera. *)
Theorem C124_same_position_gives_nan : forall u m ls cam, accurate u m -> 0 <= u < 1 -> m_distances m ls cam cam = NanRow.
Proof.
  intros u m ls cam Hm Hu. destruct (horizontal_near u m Hu Hm cam cam) as (H1 & H2). unfold m_distances, m_angle. cbv zeta.
  assert (H0 : horizontal_dist cam cam = 0) by (unfold horizontal_dist; rewrite !Rminus_diag_eq by reflexivity; unfold Rsqr; rewrite Rmult_0_l, Rplus_0_l; apply sqrt_0).
  destruct (Req_EM_T (m_horizontal m cam cam) 0) as [_|C]; [|exfalso; apply C; apply (near_zero _ _ _ _ H2 H1 H0)].
  destruct (Req_EM_T (rnd m (pz cam - pz cam)) 0) as [_|C]; [reflexivity|]. exfalso. apply C. apply (rnd_sign u m Hu Hm). lra.
Qed.
Print Assumptions C124_same_position_gives_nan.

(** Double precision, with four units in the last place for every operation:
    no line of sight of up to 500 m inside the domain is lost with up to a
    million layers. *)
Theorem C124_double_precision : forall m bot top bs n cam led, accurate (/ 2 ^ 50) m -> ascends bot top bs -> List.length bs = S n -> (Z.of_nat n <= 1000000)%Z ->
  bot < top -> pz cam <> pz led -> within bot top (pz cam) -> within bot top (pz led) -> euclid cam led <= 500 ->
  exists ds', m_distances m (layers_of bs) cam led = Row ds'.
Proof.
  intros m bot top bs n cam led Hm Ha Hn Hl Hb Hz W1 W2 E. assert (U : 0 < / 2 ^ 50 <= 1 / 1112000000000000).
  { split; [apply Rinv_0_lt_compat; apply pow_lt; lra|]. replace (1 / 1112000000000000) with (/ 1112000000000000) by field. apply Rinv_le_contravar; [lra|].
    rewrite pow_IZR. apply IZR_le. vm_compute. discriminate. }
  set (u := / 2 ^ 50) in *. clearbody u.
  assert (N : INR (n + 18) <= 1000018) by (rewrite plus_INR, (INR_IZR_INZ n); apply IZR_le in Hl; replace (INR 18) with 18 by (cbn [INR]; ring); lra).
  pose proof (pos_INR (n + 18)) as N0. set (k := INR (n + 18)) in *.
  assert (Ku : 0 <= k * u <= 1000018 / 1112000000000000) by (split; [apply Rmult_le_pos; lra|]; apply (Rle_trans _ (1000018 * (1 / 1112000000000000))); [apply Rmult_le_compat; lra|lra]).
  destruct (C124_any_borders u m bot top bs n cam led Hm ltac:(lra) Ha Hn ltac:(fold k; lra) Hb Hz) as (M & _). fold k in M. apply M.
  assert (Hd : 0 < Rabs (pz led - pz cam)) by (apply Rabs_pos_lt; lra).
  assert (O : outside bot top cam led = 0).
  { unfold outside. replace (overlap bot top (pz cam) (pz led)) with (Rabs (pz led - pz cam)); [field; lra|]. unfold within in *. unfold Rabs. destruct (Rcase_abs _); minmax. }
  rewrite O. assert (E0 : 0 <= euclid cam led) by apply sqrt_pos.
  assert (k * u * euclid cam led <= 1000018 / 1112000000000000 * 500) by (apply Rmult_le_compat; [apply Ku|exact E0|apply Ku|exact E]).
  replace (2 * k * u * euclid cam led) with (2 * (k * u * euclid cam led)) by ring. lra.
Qed.
Print Assumptions C124_double_precision.

(** The same for horizontal lines. *)
Theorem C124_double_precision_horizontal : forall m bot top bs n cam led, accurate (/ 2 ^ 50) m -> ascends bot top bs -> List.length bs = S n -> (Z.of_nat n <= 1000000)%Z ->
  bot < top -> pz cam = pz led -> bot <= pz cam < top -> 0 < euclid cam led <= 500 ->
  exists ds', m_distances m (layers_of bs) cam led = Row ds'.
Proof.
  intros m bot top bs n cam led Hm Ha Hn Hl Hb Hz W E. assert (U : 0 < / 2 ^ 50 <= 1 / 1112000000000000).
  { split; [apply Rinv_0_lt_compat; apply pow_lt; lra|]. replace (1 / 1112000000000000) with (/ 1112000000000000) by field. apply Rinv_le_contravar; [lra|].
    rewrite pow_IZR. apply IZR_le. vm_compute. discriminate. }
  set (u := / 2 ^ 50) in *. clearbody u.
  assert (N : INR (n + 18) <= 1000018) by (rewrite plus_INR, (INR_IZR_INZ n); apply IZR_le in Hl; replace (INR 18) with 18 by (cbn [INR]; ring); lra).
  pose proof (pos_INR (n + 18)) as N0. set (k := INR (n + 18)) in *.
  assert (Ku : 0 <= k * u <= 1000018 / 1112000000000000) by (split; [apply Rmult_le_pos; lra|]; apply (Rle_trans _ (1000018 * (1 / 1112000000000000))); [apply Rmult_le_compat; lra|lra]).
  destruct (C124_horizontal_lines u m bot top bs n cam led Hm ltac:(lra) Ha Hn ltac:(fold k; lra) Hb Hz ltac:(lra)) as (M & _). fold k in M.
  destruct (M W) as (ds' & j & D & _); [|exists ds'; exact D].
  assert (k * u * euclid cam led <= 1000018 / 1112000000000000 * 500) by (apply Rmult_le_compat; [apply Ku|lra|apply Ku|apply E]).
  replace (2 * k * u * euclid cam led) with (2 * (k * u * euclid cam led)) by ring. lra.
Qed.
Print Assumptions C124_double_precision_horizontal.

(** *** Machines which meet the contract *)

(** A sum from left to right with a rounding after every addition. *)
Definition sum_rounded (r : R -> R) (l : list R) : R := fold_left (fun s x => r (s + x)) l 0.

Lemma sum_rounded_accurate : forall u r l, rounding u r -> 0 <= u < 1 -> Forall (fun x => 0 <= x) l ->
  (1 - u) ^ List.length l * sum l <= sum_rounded r l <= (1 + u) ^ List.length l * sum l.
Proof.
  intros u r l Hr Hu F. unfold sum_rounded.
  assert (G : forall l, Forall (fun x => 0 <= x) l -> forall s, 0 <= s -> (1 - u) ^ List.length l * (s + sum l) <= fold_left (fun s x => r (s + x)) l s <= (1 + u) ^ List.length l * (s + sum l)).
  { clear l F. intros l F. induction F as [|x l Hx F IH]; intros s Hs; [cbn; lra|]. cbn [fold_left List.length sum pow].
    pose proof (Hr (s + x)) as E. rewrite (Rabs_pos_eq (s + x)) in E by lra. apply abs_le_inv in E. pose proof (sum_nonneg l F) as P.
    assert (P1 : 0 < (1 - u) ^ List.length l) by (apply pow_lt; lra). assert (P2 : 0 < (1 + u) ^ List.length l) by (apply pow_lt; lra).
    assert (Px : 0 <= r (s + x)) by nra. specialize (IH (r (s + x)) Px). destruct IH as (I1 & I2). split.
    - eapply Rle_trans; [|exact I1]. rewrite (Rmult_comm (1 - u)), Rmult_assoc. apply Rmult_le_compat_l; [lra|]. nra.
    - eapply Rle_trans; [exact I2|]. rewrite (Rmult_comm (1 + u)), Rmult_assoc. apply Rmult_le_compat_l; [lra|]. nra. }
  specialize (G l F 0 (Rle_refl 0)). rewrite Rplus_0_l in G. exact G.
Qed.

(** Every result is too large or too small by the factor allowed. *)
Definition rough (u : R) : machine :=
  Machine (upwards u) (fun x => sqrt x * (1 + u)) (fun x => atan x * (1 - u)) (PI / 2 * (1 - u)) (fun x => sin x * (1 - u)) (sum_rounded (upwards u)).

Lemma rough_accurate : forall u, 0 <= u < 1 -> accurate u (rough u).
Proof.
  intros u Hu. pose proof PI_RGT_0 as Pi. assert (Lo : forall x, Rabs (x * (1 - u) - x) <= u * Rabs x) by (intros x; replace (x * (1 - u) - x) with (- (u * x)) by ring; rewrite Rabs_Ropp, Rabs_mult, (Rabs_pos_eq u); lra).
  unfold accurate, rough. cbn [rnd m_sqrt m_atan m_right m_sin m_sum]. split; [apply upwards_rounding; lra|].
  split; [intros x _; pose proof (upwards_rounding u (proj1 Hu) (sqrt x)) as X; rewrite (Rabs_pos_eq (sqrt x)) in X by apply sqrt_pos; exact X|].
  split; [intros x; split; [apply Lo|]; pose proof (atan_bound x); apply Rabs_le; nra|].
  split; [split; [pose proof (Lo (PI / 2)) as X; rewrite (Rabs_pos_eq (PI / 2)) in X by lra; exact X|nra]|].
  split; [intros x; apply Lo|]. intros l F. apply sum_rounded_accurate; [apply upwards_rounding; lra|exact Hu|exact F].
Qed.

(** *** The check does lose lines of sight which are long enough *)

(** Only the sine is not exact. *)
Definition bad_sine (u : R) : machine := Machine (fun x => x) sqrt atan (PI / 2) (fun x => sin x * (1 - u)) sum.

Lemma bad_sine_accurate : forall u, 0 <= u < 1 -> accurate u (bad_sine u).
Proof.
  intros u Hu. pose proof PI_RGT_0 as Pi. unfold accurate, bad_sine. cbn [rnd m_sqrt m_atan m_right m_sin m_sum].
  assert (Ex : forall x y, 0 <= y -> Rabs (x - x) <= u * y) by (intros x y Hy; rewrite Rminus_diag_eq, Rabs_R0 by reflexivity; nra).
  split; [intros x; apply Ex; apply Rabs_pos|]. split; [intros x _; apply Ex; apply sqrt_pos|].
  split; [intros x; split; [apply Ex; apply Rabs_pos|]; pose proof (atan_bound x); apply Rabs_le; lra|]. split; [split; [apply Ex; lra|lra]|].
  split; [intros x; replace (sin x * (1 - u) - sin x) with (- (u * sin x)) by ring; rewrite Rabs_Ropp, Rabs_mult, (Rabs_pos_eq u); lra|].
  intros l F. pose proof (sum_nonneg l F) as P.
  assert (X : (1 - u) ^ List.length l <= 1) by (rewrite <- (pow1 (List.length l)) at 2; apply pow_incr; lra).
  assert (Y : 1 <= (1 + u) ^ List.length l) by (apply pow_R1_Rle; lra). nra.
Qed.

Theorem C124_long_lines_of_sight_refuted : forall u, 0 < u <= 1 / 200 ->
  exists m bot top cam led, accurate u m /\ bot < top /\ pz cam <> pz led /\ within bot top (pz cam) /\ within bot top (pz led) /\ euclid cam led = 1 / u /\
    traversed_distances (layers bot top 1) cam led = Row [1 / u] /\ m_distances m (layers bot top 1) cam led = NoRow.
Proof.
  intros u Hu. assert (H : 0 < / u) by (apply Rinv_0_lt_compat; lra). assert (E1 : 1 / u = / u) by (unfold Rdiv; ring). rewrite E1. set (h := / u) in *.
  assert (E2 : h * u = 1) by (unfold h; field; lra).
  exists (bad_sine u), 0, h, (Point 0 0 0), (Point 0 0 h). split; [apply bad_sine_accurate; lra|]. split; [exact H|]. split; [cbn [pz]; lra|].
  split; [unfold within; cbn [pz]; lra|]. split; [unfold within; cbn [pz]; lra|].
  assert (E : euclid (Point 0 0 0) (Point 0 0 h) = h).
  { unfold euclid. cbn [px py pz]. replace ((0 - 0) * (0 - 0) + (0 - 0) * (0 - 0) + (0 - h) * (0 - h)) with (h * h) by ring. apply sqrt_square. lra. }
  split; [exact E|].
  assert (L : layers 0 h 1 = [(0, h)]) by (rewrite layers_map; unfold border; cbn [seq map INR]; do 2 f_equal; field).
  split.
  - destruct (C33_distances_add_up 0 h 1 (Point 0 0 0) (Point 0 0 h)) as (ds & D & Ln & _ & S); unfold within; cbn [pz]; try lia; try lra.
    rewrite D. destruct ds as [|d [|? ?]]; try discriminate Ln. cbn [sum] in S. rewrite E in S. do 2 f_equal. lra.
  - rewrite L. unfold m_distances, m_angle. cbv zeta. cbn [rnd bad_sine px py pz].
    assert (Hh : m_horizontal (bad_sine u) (Point 0 0 0) (Point 0 0 h) = 0).
    { unfold m_horizontal, m_square. cbn [rnd m_sqrt bad_sine px py]. replace ((0 - 0) * (0 - 0) + (0 - 0) * (0 - 0)) with 0 by ring. apply sqrt_0. }
    rewrite Hh. destruct (Req_EM_T 0 0) as [_|C]; [|lra]. destruct (Req_EM_T (h - 0) 0) as [C|_]; [lra|]. destruct (Rlt_dec 0 (h - 0)) as [_|C]; [|lra].
    cbn [m_right bad_sine]. pose proof PI_RGT_0 as Pi. destruct (Req_EM_T (PI / 2) 0) as [C|_]; [lra|].
    unfold m_with_angle. cbn [map rnd m_sin bad_sine pz]. rewrite sin_PI2.
    assert (Hg : m_height (bad_sine u) 0 h (0, h) = h).
    { unfold m_height. cbv zeta. cbn [rnd bad_sine fst snd]. rewrite (Rmax_right 0 h), (Rmin_left 0 h), (Rmin_left h h), (Rmax_left 0 0) by lra. destruct (Rlt_dec (h - 0) 0); lra. }
    fold (bad_sine u). rewrite Hg.
    assert (Eu : m_euclid (bad_sine u) (Point 0 0 0) (Point 0 0 h) = h).
    { unfold m_euclid, m_square. cbn [rnd m_sqrt bad_sine px py pz]. replace ((0 - 0) * (0 - 0) + (0 - 0) * (0 - 0) + (0 - h) * (0 - h)) with (h * h) by ring. apply sqrt_square. lra. }
    unfold m_consistent. fold (bad_sine u).
    rewrite Eu. cbn [m_sum bad_sine rnd sum]. rewrite Rplus_0_r, Rmult_1_l.
    assert (Q : h + 1 <= h / (1 - u)). { apply (Rmult_le_reg_r (1 - u)); [lra|]. unfold Rdiv. rewrite Rmult_assoc, Rinv_l by lra. nra. }
    rewrite (Rabs_pos_eq (h / (1 - u))) by lra. rewrite Rabs_pos_eq by lra. destruct (Rlt_dec _ _) as [_|C]; [reflexivity|lra].
Qed.
Print Assumptions C124_long_lines_of_sight_refuted.

(** *** A concrete case: the rough machine with errors of a millionth of a
    millionth. *)
Example C124_example : accurate (1 / 1000000000000) (rough (1 / 1000000000000)) /\
  exists ds', m_distances (rough (1 / 1000000000000)) (rounded_layers (upwards (1 / 1000000000000)) 0 2 2) (Point 0 0 0) (Point 3 4 2) = Row ds'.
Proof.
  set (u := 1 / 1000000000000). assert (Hu : 0 < u) by (unfold u; lra). assert (A : accurate u (rough u)) by (apply rough_accurate; unfold u; lra). split; [exact A|].
  assert (E : euclid (Point 0 0 0) (Point 3 4 2) <= 6).
  { unfold euclid. cbn [px py pz]. rewrite <- (sqrt_square 6) by lra. apply sqrt_le_1_alt. lra. }
  assert (I : INR (2 + 18) = 20) by (cbn [INR plus]; ring). assert (E0 : 0 <= euclid (Point 0 0 0) (Point 3 4 2)) by apply sqrt_pos.
  destruct (C124_distances_of_the_machine u (rough u) 0 2 2 (Point 0 0 0) (Point 3 4 2) A) as (ds & ds' & _ & D & _); rewrite ?I; unfold within; cbn [pz]; try lra; try lia; try (unfold u; lra).
  - cbn [rnd rough]. unfold upwards. ring.
  - unfold size. rewrite Rabs_R0, (Rabs_pos_eq 2), Rmax_right by lra. cbn [INR]. unfold u. lra.
  - exists ds'. exact D.
Qed.
