(** Properties C72-C75: the fitted light spot, its parameters, the cost of a fit
    and the reported LED centre. *)
From Coq Require Import List Arith ZArith Lia Reals Lra Bool.
From Verif Require Import Base Fit_Model.
From Verif Require Step1_Model Step3_Model.
Import ListNotations.
Local Open Scope R_scope.

(** ** Hyperbolic tangent *)
Lemma tanh_alt : forall x, tanh x = 1 - 2 / (exp (2 * x) + 1).
Proof.
  intros x. unfold tanh, sinh, cosh. rewrite exp_Ropp. replace (2 * x) with (x + x) by ring. rewrite exp_plus.
  pose proof (exp_pos x) as P. field. repeat split; nra.
Qed.

Lemma tanh_bounds : forall x, -1 < tanh x < 1.
Proof.
  intros x. rewrite tanh_alt. pose proof (exp_pos (2 * x)) as P. assert (0 < 2 / (exp (2 * x) + 1) < 2); [|lra]. split.
  - apply Rdiv_lt_0_compat; lra.
  - apply (Rmult_lt_reg_r (exp (2 * x) + 1)); [lra|]. unfold Rdiv. rewrite Rmult_assoc, Rinv_l by lra. lra.
Qed.

Lemma tanh_increasing : forall x y, x < y -> tanh x < tanh y.
Proof.
  intros x y H. rewrite !tanh_alt. pose proof (exp_pos (2 * x)) as P. assert (Q : exp (2 * x) < exp (2 * y)) by (apply exp_increasing; lra).
  assert (/ (exp (2 * y) + 1) < / (exp (2 * x) + 1)) by (apply Rinv_lt_contravar; [nra|lra]). unfold Rdiv. lra.
Qed.

Lemma tanh_zero : tanh 0 = 0.
Proof. rewrite tanh_alt. rewrite Rmult_0_r, exp_0. lra. Qed.

Lemma tanh_neg_iff : forall x, tanh x < 0 <-> x < 0.
Proof.
  intros x. pose proof tanh_zero as Z. split; intros H; [|apply tanh_increasing in H; lra].
  destruct (Rtotal_order x 0) as [L|[E|G]]; [exact L|subst; lra|]. apply tanh_increasing in G. lra.
Qed.

Lemma tanh_pos_iff : forall x, 0 < tanh x <-> 0 < x.
Proof.
  intros x. pose proof tanh_zero as Z. split; intros H; [|apply tanh_increasing in H; lra].
  destruct (Rtotal_order 0 x) as [L|[E|G]]; [exact L|subst; lra|]. apply tanh_increasing in G. lra.
Qed.

(** ** Polar coordinates *)
Lemma sqrt_sqr_mult : forall x k, 0 < x -> sqrt (x * x * k) = x * sqrt k.
Proof. intros x k H. rewrite sqrt_mult_alt by nra. rewrite sqrt_square by lra. reflexivity. Qed.

Lemma polar_pos : forall x y, 0 < x ->
  sqrt (Rsqr x + Rsqr y) * cos (atan (y / x)) = x /\ sqrt (Rsqr x + Rsqr y) * sin (atan (y / x)) = y.
Proof.
  intros x y H. rewrite cos_atan, sin_atan.
  assert (E : Rsqr x + Rsqr y = x * x * (1 + (y / x)²)) by (unfold Rsqr; field; lra).
  rewrite E, sqrt_sqr_mult by exact H. assert (S : 0 < sqrt (1 + (y / x)²)) by (apply sqrt_lt_R0; pose proof (Rle_0_sqr (y / x)); lra).
  split; field; repeat split; lra.
Qed.

Lemma polar : forall x y,
  sqrt (Rsqr x + Rsqr y) * cos (atan2 y x) = x /\ sqrt (Rsqr x + Rsqr y) * sin (atan2 y x) = y.
Proof.
  intros x y. unfold atan2. destruct (Rlt_dec 0 x) as [P|P]; [apply polar_pos; exact P|].
  destruct (Rlt_dec x 0) as [N|N].
  - destruct (polar_pos (- x) (- y) ltac:(lra)) as [A B]. rewrite <- !Rsqr_neg in A, B. replace (- y / - x) with (y / x) in A, B by (field; lra).
    destruct (Rle_dec 0 y).
    + rewrite neg_cos, neg_sin. lra.
    + replace (atan (y / x) - PI) with (- (PI - atan (y / x))) by ring. rewrite cos_neg, sin_neg. rewrite Rtrigo_facts.cos_pi_minus, Rtrigo_facts.sin_pi_minus. lra.
  - assert (x = 0) by lra. subst x. replace (Rsqr 0 + Rsqr y) with (Rsqr y) by (unfold Rsqr; ring). rewrite sqrt_Rsqr_abs.
    destruct (Rlt_dec 0 y) as [Q|Q]; [rewrite cos_PI2, sin_PI2, Rabs_pos_eq by lra; lra|].
    destruct (Rlt_dec y 0) as [M|M]; [rewrite cos_neg, sin_neg, cos_PI2, sin_PI2, Rabs_left by lra; lra|].
    assert (y = 0) by lra. subst y. rewrite cos_0, sin_0, Rabs_R0. lra.
Qed.

(** Coordinates of the point (x, y) relative to the centre of the spot, in axes
    that are turned by the angle of orientation. *)
Definition along (p : params) (x y : R) : R := (x - p_x0 p) * cos (p_alpha p) - (y - p_y0 p) * sin (p_alpha p).
Definition across (p : params) (x y : R) : R := (x - p_x0 p) * sin (p_alpha p) + (y - p_y0 p) * cos (p_alpha p).
Definition from_centre (p : params) (x y : R) : R := sqrt (Rsqr (x - p_x0 p) + Rsqr (y - p_y0 p)).
Definition phi_of (p : params) (x y : R) : R := atan2 (y - p_y0 p) (x - p_x0 p) + PI + p_alpha p.

Lemma phi_cos : forall p x y, from_centre p x y * cos (phi_of p x y) = - along p x y.
Proof.
  intros p x y. unfold from_centre, phi_of, along. destruct (polar (x - p_x0 p) (y - p_y0 p)) as [A B].
  set (t := atan2 _ _) in *. replace (t + PI + p_alpha p) with ((t + p_alpha p) + PI) by ring. rewrite neg_cos, cos_plus.
  set (r := sqrt _) in *. transitivity (- ((r * cos t) * cos (p_alpha p) - (r * sin t) * sin (p_alpha p))); [ring|]. rewrite A, B. reflexivity.
Qed.

Lemma phi_sin : forall p x y, from_centre p x y * sin (phi_of p x y) = - across p x y.
Proof.
  intros p x y. unfold from_centre, phi_of, across. destruct (polar (x - p_x0 p) (y - p_y0 p)) as [A B].
  set (t := atan2 _ _) in *. replace (t + PI + p_alpha p) with ((t + p_alpha p) + PI) by ring. rewrite neg_sin, sin_plus.
  set (r := sqrt _) in *. transitivity (- ((r * cos t) * sin (p_alpha p) + (r * sin t) * cos (p_alpha p))); [ring|]. rewrite A, B. reflexivity.
Qed.

(** ** The radius of the ellipse in one direction *)
Lemma root_pos : forall d e phi, d <> 0 -> e <> 0 -> 0 < Rsqr (d * cos phi) + Rsqr (e * sin phi).
Proof.
  intros d e phi Hd He. pose proof (sin2_cos2 phi) as T. unfold Rsqr in *. set (c := cos phi) in *. set (s := sin phi) in *. clearbody c s.
  destruct (Req_dec c 0) as [E|N].
  - subst c. assert (S : s * s = 1) by lra. replace (d * 0 * (d * 0) + e * s * (e * s)) with (e * e * (s * s)) by ring. rewrite S. nra.
  - assert (0 < (d * c) * (d * c)) by (assert (d * c <> 0) by (apply Rmult_integral_contrapositive_currified; assumption); nra). nra.
Qed.

Lemma radius_pos : forall d e phi, 0 < d -> 0 < e -> 0 < radius d e phi.
Proof. intros d e phi Hd He. unfold radius. apply Rdiv_lt_0_compat; [nra|]. apply sqrt_lt_R0. apply root_pos; lra. Qed.

(** Comparing the distance with the radius is comparing the ellipse equation. *)
Lemma radius_cmp : forall d e phi r, 0 < d -> 0 < e -> 0 <= r ->
  let q := Rsqr (r * cos phi / e) + Rsqr (r * sin phi / d) in
  (r < radius d e phi <-> q < 1) /\ (radius d e phi < r <-> 1 < q).
Proof.
  intros d e phi r Hd He Hr q. unfold radius. set (w := Rsqr (d * cos phi) + Rsqr (e * sin phi)). assert (W : 0 < w) by (apply root_pos; lra).
  assert (S : 0 < sqrt w) by (apply sqrt_lt_R0; exact W). assert (SS : sqrt w * sqrt w = w) by (apply sqrt_sqrt; lra).
  assert (Eq : q * Rsqr (d * e) = Rsqr (r * sqrt w)). { transitivity (Rsqr r * w); [unfold q, w, Rsqr; field; lra|]. rewrite Rsqr_mult. f_equal. symmetry. exact SS. }
  assert (P : 0 < d * e) by nra. assert (P2 : 0 < Rsqr (d * e)) by (unfold Rsqr; nra).
  assert (D : d * e / sqrt w * sqrt w = d * e) by (field; lra).
  assert (A1 : r < d * e / sqrt w <-> r * sqrt w < d * e) by (split; intros H; [rewrite <- D; apply Rmult_lt_compat_r; assumption|apply (Rmult_lt_reg_r (sqrt w)); [exact S|rewrite D; exact H]]).
  assert (A2 : d * e / sqrt w < r <-> d * e < r * sqrt w) by (split; intros H; [rewrite <- D; apply Rmult_lt_compat_r; assumption|apply (Rmult_lt_reg_r (sqrt w)); [exact S|rewrite D; exact H]]).
  rewrite A1, A2. assert (N : 0 <= r * sqrt w) by (apply Rmult_le_pos; lra).
  split; split; intros H.
  - apply (Rmult_lt_reg_r (Rsqr (d * e))); [exact P2|]. rewrite Eq, Rmult_1_l. apply Rsqr_incrst_1; lra.
  - apply Rsqr_incrst_0; [|exact N|lra]. rewrite <- Eq. rewrite <- (Rmult_1_l (Rsqr (d * e))) at 2. apply Rmult_lt_compat_r; assumption.
  - apply (Rmult_lt_reg_r (Rsqr (d * e))); [exact P2|]. rewrite Eq, Rmult_1_l. apply Rsqr_incrst_1; lra.
  - apply Rsqr_incrst_0; [|lra|exact N]. rewrite <- Eq. rewrite <- (Rmult_1_l (Rsqr (d * e))) at 1. apply Rmult_lt_compat_r; assumption.
Qed.

Lemma led_model_eq : forall p x y,
  led_model p x y = p_a p * (1 / 2) * (1 - tanh ((from_centre p x y - radius (p_dx p) (p_dy p) (phi_of p x y)) / radius (p_wx p) (p_wy p) (phi_of p x y))).
Proof. reflexivity. Qed.

(** ** C72: the shape of the spot *)

(** Positive extents and widths. *)
Definition proper (p : params) : Prop := 0 < p_a p /\ 0 < p_dx p /\ 0 < p_dy p /\ 0 < p_wx p /\ 0 < p_wy p.

Theorem C72_between_zero_and_amplitude : forall p x y, 0 < p_a p -> 0 < led_model p x y < p_a p.
Proof.
  intros p x y Ha. rewrite led_model_eq. set (t := tanh _). pose proof (tanh_bounds ((from_centre p x y - radius (p_dx p) (p_dy p) (phi_of p x y)) / radius (p_wx p) (p_wy p) (phi_of p x y))) as B.
  fold t in B. nra.
Qed.
Print Assumptions C72_between_zero_and_amplitude.

(** The value of the ellipse equation with half axes [A] (along) and [B] (across). *)
Definition ellipse (A B : R) (p : params) (x y : R) : R := Rsqr (along p x y / A) + Rsqr (across p x y / B).

(** Half of the amplitude is reached on an ellipse; it is brighter inside and
    darker outside.  The half axis along the turned x direction is [dy]. *)
Theorem C72_half_amplitude_on_the_ellipse : forall p x y, proper p ->
  (p_a p / 2 < led_model p x y <-> ellipse (p_dy p) (p_dx p) p x y < 1) /\
  (led_model p x y = p_a p / 2 <-> ellipse (p_dy p) (p_dx p) p x y = 1) /\
  (led_model p x y < p_a p / 2 <-> 1 < ellipse (p_dy p) (p_dx p) p x y).
Proof.
  intros p x y (Ha & Hdx & Hdy & Hwx & Hwy). rewrite led_model_eq. set (r := from_centre p x y). set (phi := phi_of p x y).
  assert (R0 : 0 <= r) by apply sqrt_pos. destruct (radius_cmp (p_dx p) (p_dy p) phi r Hdx Hdy R0) as [L G].
  assert (E : Rsqr (r * cos phi / p_dy p) + Rsqr (r * sin phi / p_dx p) = ellipse (p_dy p) (p_dx p) p x y).
  { unfold r, phi. rewrite phi_cos, phi_sin. unfold ellipse, Rsqr, Rdiv. ring. }
  rewrite E in L, G. set (dr := radius (p_dx p) (p_dy p) phi) in *. pose proof (radius_pos (p_wx p) (p_wy p) phi Hwx Hwy) as W. set (dw := radius (p_wx p) (p_wy p) phi) in *.
  set (q := ellipse _ _ _ _ _) in *. set (z := (r - dr) / dw).
  assert (Z1 : z < 0 <-> r < dr). { unfold z. split; intros H.
    - apply (Rmult_lt_compat_r dw) in H; [|exact W]. unfold Rdiv in H. rewrite Rmult_assoc, Rinv_l in H by lra. lra.
    - apply (Rmult_lt_reg_r dw); [exact W|]. unfold Rdiv. rewrite Rmult_assoc, Rinv_l by lra. lra. }
  assert (Z2 : 0 < z <-> dr < r). { unfold z. split; intros H.
    - apply (Rmult_lt_compat_r dw) in H; [|exact W]. unfold Rdiv in H. rewrite Rmult_assoc, Rinv_l in H by lra. lra.
    - apply (Rmult_lt_reg_r dw); [exact W|]. unfold Rdiv. rewrite Rmult_assoc, Rinv_l by lra. lra. }
  rewrite <- tanh_neg_iff in Z1. rewrite <- tanh_pos_iff in Z2. set (t := tanh z) in *. clearbody t.
  assert (M1 : p_a p / 2 < p_a p * (1 / 2) * (1 - t) <-> t < 0) by (split; intros; nra).
  assert (M2 : p_a p * (1 / 2) * (1 - t) < p_a p / 2 <-> 0 < t) by (split; intros; nra).
  assert (M3 : p_a p * (1 / 2) * (1 - t) = p_a p / 2 <-> ~ t < 0 /\ ~ 0 < t).
  { split; intros H. - assert (t = 0) by nra. lra. - assert (t = 0) by lra. subst t. lra. }
  split; [tauto|]. split; [|tauto]. rewrite M3, Z1, Z2, L, G. lra.
Qed.
Print Assumptions C72_half_amplitude_on_the_ellipse.

(** With orientation 0 the spot reaches half of its amplitude at the horizontal
    distance [dy] and at the vertical distance [dx] - the names are swapped. *)
Theorem C72_extents_are_swapped : forall p t, proper p -> p_alpha p = 0 -> 0 < t ->
  (led_model p (p_x0 p + t) (p_y0 p) = p_a p / 2 <-> t = p_dy p) /\
  (led_model p (p_x0 p) (p_y0 p + t) = p_a p / 2 <-> t = p_dx p).
Proof.
  intros p t H E Ht. pose proof H as (Ha & Hdx & Hdy & _).
  destruct (C72_half_amplitude_on_the_ellipse p (p_x0 p + t) (p_y0 p) H) as (_ & A & _).
  destruct (C72_half_amplitude_on_the_ellipse p (p_x0 p) (p_y0 p + t) H) as (_ & B & _). rewrite A, B.
  unfold ellipse, along, across. rewrite E, cos_0, sin_0.
  assert (Q : forall d, 0 < d -> (Rsqr (t / d) = 1 <-> t = d)).
  { intros d Hd. split; intros K; [|subst; unfold Rdiv; rewrite Rinv_r by lra; unfold Rsqr; lra].
    rewrite <- Rsqr_1 in K. apply Rsqr_inj in K; [|apply Rlt_le, Rdiv_lt_0_compat; assumption|lra]. apply (Rmult_eq_compat_r d) in K. unfold Rdiv in K. rewrite Rmult_assoc, Rinv_l in K by lra. lra. }
  split; rewrite <- Q by assumption.
  - replace ((p_x0 p + t - p_x0 p) * 1 - (p_y0 p - p_y0 p) * 0) with t by ring. replace ((p_x0 p + t - p_x0 p) * 0 + (p_y0 p - p_y0 p) * 1) with 0 by ring.
    replace (Rsqr (0 / p_dx p)) with 0 by (unfold Rsqr; field; lra). rewrite Rplus_0_r. reflexivity.
  - replace ((p_x0 p - p_x0 p) * 1 - (p_y0 p + t - p_y0 p) * 0) with 0 by ring. replace ((p_x0 p - p_x0 p) * 0 + (p_y0 p + t - p_y0 p) * 1) with t by ring.
    replace (Rsqr (0 / p_dy p)) with 0 by (unfold Rsqr; field; lra). rewrite Rplus_0_l. reflexivity.
Qed.
Print Assumptions C72_extents_are_swapped.

Lemma atan2_scale : forall t x y, 0 < t -> atan2 (t * y) (t * x) = atan2 y x.
Proof.
  intros t x y Ht. unfold atan2.
  destruct (Rlt_dec 0 x) as [P|P]; destruct (Rlt_dec 0 (t * x)) as [P'|P']; try (exfalso; nra).
  - f_equal. field. split; nra.
  - destruct (Rlt_dec x 0) as [N|N]; destruct (Rlt_dec (t * x) 0) as [N'|N']; try (exfalso; nra).
    + replace (t * y / (t * x)) with (y / x) by (field; split; nra).
      destruct (Rle_dec 0 y); destruct (Rle_dec 0 (t * y)); try (exfalso; nra); reflexivity.
    + destruct (Rlt_dec 0 y); destruct (Rlt_dec 0 (t * y)); try (exfalso; nra); [reflexivity|].
      destruct (Rlt_dec y 0); destruct (Rlt_dec (t * y) 0); try (exfalso; nra); reflexivity.
Qed.

(** On every ray from the centre the light decreases. *)
Theorem C72_darker_along_every_ray : forall p u v s t, proper p -> (u <> 0 \/ v <> 0) -> 0 < s < t ->
  led_model p (p_x0 p + t * u) (p_y0 p + t * v) < led_model p (p_x0 p + s * u) (p_y0 p + s * v).
Proof.
  intros p u v s t (Ha & Hdx & Hdy & Hwx & Hwy) Hd Hst. rewrite !led_model_eq.
  assert (F : forall k, 0 < k -> from_centre p (p_x0 p + k * u) (p_y0 p + k * v) = k * sqrt (Rsqr u + Rsqr v)).
  { intros k Hk. unfold from_centre. rewrite <- sqrt_sqr_mult by exact Hk. f_equal. unfold Rsqr. ring. }
  assert (G : forall k, 0 < k -> phi_of p (p_x0 p + k * u) (p_y0 p + k * v) = atan2 v u + PI + p_alpha p).
  { intros k Hk. unfold phi_of. replace (p_x0 p + k * u - p_x0 p) with (k * u) by ring. replace (p_y0 p + k * v - p_y0 p) with (k * v) by ring. rewrite atan2_scale by exact Hk. reflexivity. }
  rewrite !F, !G by lra. set (phi := atan2 v u + PI + p_alpha p). set (q := sqrt (Rsqr u + Rsqr v)).
  assert (Q : 0 < q). { apply sqrt_lt_R0. unfold Rsqr. destruct Hd; nra. }
  pose proof (radius_pos (p_wx p) (p_wy p) phi Hwx Hwy) as W. set (dw := radius (p_wx p) (p_wy p) phi) in *. set (dr := radius (p_dx p) (p_dy p) phi).
  assert (K : tanh ((s * q - dr) / dw) < tanh ((t * q - dr) / dw)). { apply tanh_increasing. unfold Rdiv. apply Rmult_lt_compat_r; [apply Rinv_0_lt_compat; exact W|]. nra. }
  nra.
Qed.
Print Assumptions C72_darker_along_every_ray.

Lemma radius_ext : forall d e phi psi, Rsqr (cos phi) = Rsqr (cos psi) -> Rsqr (sin phi) = Rsqr (sin psi) -> radius d e phi = radius d e psi.
Proof. intros d e phi psi C S. unfold radius. rewrite !Rsqr_mult, C, S. reflexivity. Qed.

(** The spot is symmetric about its centre. *)
Theorem C72_point_symmetric : forall p u v,
  led_model p (p_x0 p + u) (p_y0 p + v) = led_model p (p_x0 p - u) (p_y0 p - v).
Proof.
  intros p u v. rewrite !led_model_eq. set (x := p_x0 p + u). set (y := p_y0 p + v). set (x' := p_x0 p - u). set (y' := p_y0 p - v).
  assert (R1 : from_centre p x y = from_centre p x' y') by (unfold from_centre, x, y, x', y'; f_equal; unfold Rsqr; ring).
  assert (A : along p x y = - along p x' y') by (unfold along, x, y, x', y'; ring).
  assert (B : across p x y = - across p x' y') by (unfold across, x, y, x', y'; ring).
  destruct (Req_dec (from_centre p x y) 0) as [Z|N].
  - assert (E : u = 0 /\ v = 0). { unfold from_centre, x, y in Z. apply sqrt_eq_0 in Z; [|unfold Rsqr; nra]. unfold Rsqr in Z. split; nra. }
    destruct E as [-> ->]. replace x with x' by (unfold x, x'; ring). replace y with y' by (unfold y, y'; ring). reflexivity.
  - pose proof (phi_cos p x y) as C. pose proof (phi_sin p x y) as S. pose proof (phi_cos p x' y') as C'. pose proof (phi_sin p x' y') as S'.
    rewrite A in C. rewrite B in S. rewrite <- R1 in C', S'. set (r := from_centre p x y) in *.
    assert (EC : cos (phi_of p x y) = - cos (phi_of p x' y')) by (apply (Rmult_eq_reg_l r); [lra|exact N]).
    assert (ES : sin (phi_of p x y) = - sin (phi_of p x' y')) by (apply (Rmult_eq_reg_l r); [lra|exact N]).
    rewrite <- R1. fold r. rewrite !(radius_ext _ _ (phi_of p x y) (phi_of p x' y')) by (rewrite ?EC, ?ES; unfold Rsqr; ring). reflexivity.
Qed.
Print Assumptions C72_point_symmetric.

Lemma radius_scale : forall k d e phi, 0 < k -> radius (k * d) (k * e) phi = k * radius d e phi.
Proof.
  intros k d e phi Hk. unfold radius. replace (Rsqr (k * d * cos phi) + Rsqr (k * e * sin phi)) with (k * k * (Rsqr (d * cos phi) + Rsqr (e * sin phi))) by (unfold Rsqr; ring).
  rewrite sqrt_sqr_mult by exact Hk. set (q := sqrt _). destruct (Req_dec q 0) as [->|N]; [rewrite Rmult_0_r; unfold Rdiv; rewrite Rinv_0; ring|]. field. split; lra.
Qed.

(** If the widths are proportional to the extents, the centre is the brightest point. *)
Theorem C72_centre_is_brightest : forall p x y, proper p -> p_dx p * p_wy p = p_dy p * p_wx p ->
  (x <> p_x0 p \/ y <> p_y0 p) -> led_model p x y < led_model p (p_x0 p) (p_y0 p).
Proof.
  intros p x y (Ha & Hdx & Hdy & Hwx & Hwy) Hp Hne. rewrite !led_model_eq. set (k := p_wx p / p_dx p).
  assert (K : 0 < k) by (apply Rdiv_lt_0_compat; assumption).
  assert (E1 : p_wx p = k * p_dx p) by (unfold k; field; lra). assert (E2 : p_wy p = k * p_dy p). { unfold k. apply (Rmult_eq_reg_l (p_dx p)); [|lra]. rewrite Hp. field. lra. }
  rewrite E1, E2. rewrite !radius_scale by exact K.
  assert (Z : forall phi r, (r - radius (p_dx p) (p_dy p) phi) / (k * radius (p_dx p) (p_dy p) phi) = r / (k * radius (p_dx p) (p_dy p) phi) - / k).
  { intros phi r. pose proof (radius_pos (p_dx p) (p_dy p) phi Hdx Hdy). field. split; lra. }
  rewrite !Z. assert (F0 : from_centre p (p_x0 p) (p_y0 p) = 0). { unfold from_centre. rewrite !Rminus_diag_eq by reflexivity. rewrite Rsqr_0, Rplus_0_l. apply sqrt_0. }
  rewrite F0. assert (Fp : 0 < from_centre p x y). { unfold from_centre. apply sqrt_lt_R0. unfold Rsqr. assert (SQ : forall a, a <> 0 -> 0 < a * a) by (intros; nra). pose proof (Rle_0_sqr (x - p_x0 p)) as S1. pose proof (Rle_0_sqr (y - p_y0 p)) as S2. unfold Rsqr in *. destruct Hne as [N|N]; [pose proof (SQ (x - p_x0 p) ltac:(lra))|pose proof (SQ (y - p_y0 p) ltac:(lra))]; lra. }
  pose proof (radius_pos (p_dx p) (p_dy p) (phi_of p x y) Hdx Hdy) as W.
  set (q := from_centre p x y / (k * radius (p_dx p) (p_dy p) (phi_of p x y))). assert (Q : 0 < q) by (apply Rdiv_lt_0_compat; [exact Fp|nra]).
  unfold Rdiv at 3. rewrite Rmult_0_l. assert (T : tanh (0 - / k) < tanh (q - / k)) by (apply tanh_increasing; lra). nra.
Qed.
Print Assumptions C72_centre_is_brightest.

(** Otherwise it need not be. *)
Definition odd_spot : params := Params 0 0 10 1 1 0 1 1.
Theorem C72_centre_is_brightest_refuted : exists p x y, proper p /\ led_model p (p_x0 p) (p_y0 p) < led_model p x y.
Proof.
  exists odd_spot, 0, 1. split; [unfold proper; simpl; lra|]. rewrite !led_model_eq. cbn [odd_spot p_x0 p_y0 p_dx p_dy p_a p_wx p_wy].
  assert (F0 : from_centre odd_spot 0 0 = 0). { unfold from_centre. simpl. rewrite !Rminus_diag_eq by reflexivity. rewrite Rsqr_0, Rplus_0_l. apply sqrt_0. }
  assert (F1 : from_centre odd_spot 0 1 = 1). { unfold from_centre. simpl. replace (Rsqr (0 - 0) + Rsqr (1 - 0)) with 1 by (unfold Rsqr; ring). apply sqrt_1. }
  assert (P0 : phi_of odd_spot 0 0 = PI). { unfold phi_of, atan2. simpl. rewrite !Rminus_0_r. destruct (Rlt_dec 0 0); [lra|]. lra. }
  assert (P1 : phi_of odd_spot 0 1 = PI / 2 + PI). { unfold phi_of, atan2. simpl. rewrite !Rminus_0_r. destruct (Rlt_dec 0 0); [lra|]. destruct (Rlt_dec 0 1); lra. }
  rewrite F0, F1, P0, P1. unfold radius. rewrite cos_PI, sin_PI, neg_cos, neg_sin, cos_PI2, sin_PI2.
  replace (Rsqr (10 * -1) + Rsqr (1 * 0)) with (10 * 10) by (unfold Rsqr; ring). replace (Rsqr (1 * -1) + Rsqr (1 * 0)) with (1 * 1) by (unfold Rsqr; ring).
  replace (Rsqr (10 * - 0) + Rsqr (1 * - (1))) with (1 * 1) by (unfold Rsqr; ring). replace (Rsqr (1 * - 0) + Rsqr (1 * - (1))) with (1 * 1) by (unfold Rsqr; ring).
  rewrite !sqrt_square by lra. assert (T : tanh ((1 - 10 * 1 / 1) / (1 * 1 / 1)) < tanh ((0 - 10 * 1 / 10) / (1 * 1 / 1))) by (apply tanh_increasing; lra). lra.
Qed.
Print Assumptions C72_centre_is_brightest_refuted.

Example C72_example : proper (Params 3 4 2 5 200 1 1 1) /\ proper odd_spot /\ p_alpha odd_spot = 0 /\
  proper (Params 3 4 2 6 200 1 1 3) /\ 2 * 3 = 6 * 1.
Proof. unfold proper; simpl; lra. Qed.

(** ** C73: different parameters, the same spot *)
Lemma radius_quarter : forall d e phi, radius e d (phi + PI / 2) = radius d e phi.
Proof.
  intros d e phi. unfold radius. rewrite cos_plus, sin_plus, cos_PI2, sin_PI2.
  replace (Rsqr (e * (cos phi * 0 - sin phi * 1)) + Rsqr (d * (sin phi * 0 + cos phi * 1))) with (Rsqr (d * cos phi) + Rsqr (e * sin phi)) by (unfold Rsqr; ring).
  rewrite (Rmult_comm e d). reflexivity.
Qed.

Lemma radius_half : forall d e phi, radius d e (phi + PI) = radius d e phi.
Proof. intros d e phi. apply radius_ext; rewrite ?neg_cos, ?neg_sin; unfold Rsqr; ring. Qed.

Lemma radius_neg : forall d e phi, radius (- d) (- e) phi = radius d e phi.
Proof.
  intros d e phi. unfold radius. replace (Rsqr (- d * cos phi) + Rsqr (- e * sin phi)) with (Rsqr (d * cos phi) + Rsqr (e * sin phi)) by (unfold Rsqr; ring).
  replace (- d * - e) with (d * e) by ring. reflexivity.
Qed.

Lemma radius_round : forall d phi psi, radius d d phi = radius d d psi.
Proof.
  assert (A : forall d phi, Rsqr (d * cos phi) + Rsqr (d * sin phi) = Rsqr d).
  { intros d phi. rewrite !Rsqr_mult. rewrite <- Rmult_plus_distr_l, Rplus_comm. pose proof (sin2_cos2 phi) as T. rewrite (Rplus_comm (Rsqr (sin phi))) in T. rewrite Rplus_comm in T. rewrite T. ring. }
  intros d phi psi. unfold radius. rewrite !A. reflexivity.
Qed.

Definition quarter_turn (p : params) : params :=
  Params (p_x0 p) (p_y0 p) (p_dy p) (p_dx p) (p_a p) (p_alpha p + PI / 2) (p_wy p) (p_wx p).
Definition half_turn (p : params) : params :=
  Params (p_x0 p) (p_y0 p) (p_dx p) (p_dy p) (p_a p) (p_alpha p + PI) (p_wx p) (p_wy p).
Definition negated_extents (p : params) : params :=
  Params (p_x0 p) (p_y0 p) (- p_dx p) (- p_dy p) (p_a p) (p_alpha p) (p_wx p) (p_wy p).
Definition negated_widths (p : params) : params :=
  Params (p_x0 p) (p_y0 p) (p_dx p) (p_dy p) (p_a p) (p_alpha p) (- p_wx p) (- p_wy p).
Definition with_angle (p : params) (alpha : R) : params :=
  Params (p_x0 p) (p_y0 p) (p_dx p) (p_dy p) (p_a p) alpha (p_wx p) (p_wy p).

Theorem C73_same_spot : forall p x y,
  led_model (quarter_turn p) x y = led_model p x y /\
  led_model (half_turn p) x y = led_model p x y /\
  led_model (negated_extents p) x y = led_model p x y /\
  led_model (negated_widths p) x y = led_model p x y /\
  (p_dx p = p_dy p -> p_wx p = p_wy p -> forall alpha, led_model (with_angle p alpha) x y = led_model p x y).
Proof.
  intros p x y. unfold led_model. cbn [quarter_turn half_turn negated_extents negated_widths with_angle p_x0 p_y0 p_dx p_dy p_a p_alpha p_wx p_wy].
  rewrite <- !Rplus_assoc, !radius_quarter, !radius_half, !radius_neg. repeat split.
  intros -> -> alpha. rewrite !(radius_round _ (atan2 (y - p_y0 p) (x - p_x0 p) + PI + alpha) (atan2 (y - p_y0 p) (x - p_x0 p) + PI + p_alpha p)). reflexivity.
Qed.
Print Assumptions C73_same_spot.

Lemma cells_ext : forall n m f g, (forall i j, f i j = g i j) -> cells n m f = cells n m g.
Proof. intros n m f g H. unfold cells. apply flat_map_ext. intros i. apply map_ext. intros j. apply H. Qed.

Lemma differences_ext : forall p q n m d, (forall x y, led_model p x y = led_model q x y) -> differences p n m d = differences q n m d.
Proof.
  intros p q n m d H. unfold differences. destruct (n =? m)%nat; [f_equal; apply cells_ext; intros; rewrite H; reflexivity|].
  destruct (n =? 1)%nat; [f_equal; apply cells_ext; intros; rewrite H; reflexivity|].
  destruct (m =? 1)%nat; [f_equal; apply cells_ext; intros; rewrite H; reflexivity|reflexivity].
Qed.

Lemma target_ext : forall n m d p q, (forall x y, led_model p x y = led_model q x y) ->
  penalty (mid (n - 1)) (mid (m - 1)) p = penalty (mid (n - 1)) (mid (m - 1)) q -> target n m d p = target n m d q.
Proof. intros n m d p q H P. unfold target. rewrite (differences_ext p q n m _ H), P. reflexivity. Qed.

Lemma no_angle_penalty : forall a, Rabs a <= PI / 2 -> below (PI / 2) (Rabs a) = false.
Proof. intros a H. unfold below. destruct (Rlt_dec _ _); [lra|reflexivity]. Qed.

Lemma quarter_penalty : forall nx ny p, Rabs (p_alpha p) <= PI / 2 -> Rabs (p_alpha p + PI / 2) <= PI / 2 ->
  penalty nx ny (quarter_turn p) = penalty nx ny p.
Proof.
  intros nx ny p A B. unfold penalty. cbn [quarter_turn p_x0 p_y0 p_dx p_dy p_a p_alpha p_wx p_wy]. rewrite !no_angle_penalty by assumption.
  rewrite (orb_comm (below (p_dy p) 1)), (orb_comm (below (p_wy p) _)).
  destruct (_ || _)%bool; destruct (_ || _)%bool; destruct (_ || _)%bool; lra.
Qed.

(** No fit is unique: some other parameters in the allowed range cost the same. *)
Theorem C73_best_fit_is_never_unique : forall p, Rabs (p_alpha p) <= PI / 2 ->
  exists q, q <> p /\ Rabs (p_alpha q) <= PI / 2 /\ forall n m d, target n m d q = target n m d p.
Proof.
  intros p H. pose proof PI_RGT_0 as Pi.
  assert (K : - (PI / 2) <= p_alpha p <= PI / 2) by (unfold Rabs in H; destruct (Rcase_abs (p_alpha p)); lra).
  assert (AB : forall t, - (PI / 2) <= t <= PI / 2 -> Rabs t <= PI / 2) by (intros t Ht; unfold Rabs; destruct (Rcase_abs t); lra).
  destruct (Rle_dec (p_alpha p) 0) as [L|G].
  - exists (quarter_turn p). split; [intros C; apply (f_equal p_alpha) in C; cbn [quarter_turn p_alpha] in C; lra|]. split; [apply AB; cbn [quarter_turn p_alpha]; lra|].
    intros n m d. apply target_ext; [intros x y; apply C73_same_spot|]. apply quarter_penalty; [exact H|apply AB; lra].
  - set (q := Params (p_x0 p) (p_y0 p) (p_dy p) (p_dx p) (p_a p) (p_alpha p - PI / 2) (p_wy p) (p_wx p)).
    assert (E : quarter_turn q = p). { unfold quarter_turn, q. cbn [p_x0 p_y0 p_dx p_dy p_a p_alpha p_wx p_wy]. replace (p_alpha p - PI / 2 + PI / 2) with (p_alpha p) by ring. destruct p; reflexivity. }
    assert (Q : Rabs (p_alpha q) <= PI / 2) by (apply AB; unfold q; cbn [p_alpha]; lra).
    exists q. split; [intros C; apply (f_equal p_alpha) in C; unfold q in C; cbn [p_alpha] in C; lra|]. split; [exact Q|].
    intros n m d. rewrite <- E. symmetry. apply target_ext; [intros x y; apply C73_same_spot|].
    apply quarter_penalty; [exact Q|]. unfold q. cbn [p_alpha]. replace (p_alpha p - PI / 2 + PI / 2) with (p_alpha p) by ring. exact H.
Qed.
Print Assumptions C73_best_fit_is_never_unique.

Example C73_example : Rabs (p_alpha (start 20 20)) <= PI / 2 /\ quarter_turn (Params 3 4 2 5 200 0 1 2) = Params 3 4 5 2 200 (0 + PI / 2) 2 1.
Proof.
  split; [|reflexivity]. cbn [start p_alpha]. rewrite Rabs_pos_eq by lra. pose proof PI2_1. lra.
Qed.

(** ** C74: the cost of a fit *)
Lemma cells_Forall : forall (P : R -> Prop) n m f, (forall i j, (i < n)%nat -> (j < m)%nat -> P (f i j)) -> Forall P (cells n m f).
Proof.
  intros P n m f H. unfold cells. apply Forall_flat_map, Forall_forall. intros i Hi. apply in_seq in Hi. apply Forall_map, Forall_forall.
  intros j Hj. apply in_seq in Hj. apply H; lia.
Qed.

Lemma cells_In : forall n m f i j, (i < n)%nat -> (j < m)%nat -> In (f i j) (cells n m f).
Proof.
  intros n m f i j Hi Hj. unfold cells. apply in_flat_map. exists i. split; [apply in_seq; lia|]. apply in_map. apply in_seq. lia.
Qed.

Lemma cells_In_inv : forall n m f v, In v (cells n m f) -> exists i j, (i < n)%nat /\ (j < m)%nat /\ v = f i j.
Proof.
  intros n m f v H. unfold cells in H. apply in_flat_map in H. destruct H as (i & Hi & H). apply in_map_iff in H. destruct H as (j & E & Hj).
  apply in_seq in Hi. apply in_seq in Hj. exists i, j. split; [lia|]. split; [lia|]. symmetry. exact E.
Qed.

Lemma cells_length : forall n m f, length (cells n m f) = (n * m)%nat.
Proof.
  intros n m f. unfold cells. assert (H : forall l, length (flat_map (fun i => map (f i) (seq 0 m)) l) = (length l * m)%nat).
  { induction l as [|i l IH]; [reflexivity|]. cbn [flat_map length]. rewrite app_length, map_length, seq_length, IH. lia. }
  rewrite H, seq_length. reflexivity.
Qed.

Lemma rsum_nonneg : forall l, Forall (fun v => 0 <= v) l -> 0 <= rsum l.
Proof. intros l H. induction H; simpl; [lra|]. unfold rsum in *. lra. Qed.

Lemma rsum_zero : forall l, Forall (fun v => 0 <= v) l -> rsum l = 0 -> Forall (fun v => v = 0) l.
Proof.
  intros l H. induction H as [|v l Hv F IH]; intros E; constructor; simpl in E; pose proof (rsum_nonneg l F) as P; unfold rsum in *; [lra|]. apply IH. lra.
Qed.

Lemma rsum_upper : forall l b, Forall (fun v => v <= b) l -> rsum l <= INR (length l) * b.
Proof.
  intros l b H. induction H as [|v l Hv F IH]; [simpl; lra|]. cbn [length]. rewrite S_INR. simpl. unfold rsum in *. lra.
Qed.

Lemma squares_nonneg : forall l, Forall (fun v => 0 <= v) (map Rsqr l).
Proof. intros l. apply Forall_map, Forall_forall. intros v _. apply Rle_0_sqr. Qed.

Lemma rmax_ge : forall l v, In v l -> v <= rmax l.
Proof.
  intros [|x l] v H; [destruct H|]. simpl. induction l as [|y l IH]; simpl in *.
  - destruct H as [->|[]]. lra.
  - destruct H as [->|[->|H]].
    + eapply Rle_trans; [|apply Rmax_r]. apply IH. left. reflexivity.
    + apply Rmax_l.
    + eapply Rle_trans; [|apply Rmax_r]. apply IH. right. exact H.
Qed.

Lemma rmax_In : forall x l, In (rmax (x :: l)) (x :: l).
Proof.
  intros x l. simpl. induction l as [|y l IH]; simpl in *; [left; reflexivity|].
  destruct (Rle_dec y (fold_right Rmax x l)) as [L|G]; [rewrite Rmax_right by exact L|rewrite Rmax_left by lra; right; left; reflexivity].
  destruct IH as [E|H]; [left; exact E|right; right; exact H].
Qed.

(** The parameters that are not penalised. *)
Definition allowed (nx ny : R) (p : params) : Prop :=
  0 <= p_x0 p <= nx /\ 0 <= p_y0 p <= ny /\ 1 <= p_dx p /\ 1 <= p_dy p /\
  1 / 1000 <= p_wx p /\ 1 / 1000 <= p_wy p /\ Rabs (p_alpha p) <= PI / 2.

Lemma inv4_nonneg : forall x, 0 <= 1 / Rabs x ^ 4.
Proof.
  intros x. unfold Rdiv. rewrite Rmult_1_l. destruct (Req_dec x 0) as [->|N]; [rewrite Rabs_R0, pow_i, Rinv_0 by lia; lra|].
  left. apply Rinv_0_lt_compat. apply pow_lt. apply Rabs_pos_lt. exact N.
Qed.

Lemma penalty_nonneg : forall nx ny p, 0 <= penalty nx ny p.
Proof.
  intros nx ny p. unfold penalty. pose proof (inv4_nonneg (p_dx p)). pose proof (inv4_nonneg (p_dy p)).
  pose proof (Rabs_pos (p_x0 p - nx)). pose proof (Rabs_pos (p_y0 p - ny)). pose proof (Rabs_pos (p_wx p - 1 / 1000)). pose proof (Rabs_pos (p_wy p - 1 / 1000)).
  assert (0 <= if below (PI / 2) (Rabs (p_alpha p)) then (Rabs (p_alpha p) - PI / 2) * 1000000 else 0) by (unfold below; destruct (Rlt_dec _ _); lra).
  destruct (_ || _)%bool; destruct (_ || _)%bool; destruct (_ || _)%bool; lra.
Qed.

Theorem C74_penalty_free_region : forall nx ny p, 0 <= nx -> 0 <= ny -> p_dx p <> 0 -> p_dy p <> 0 ->
  0 <= penalty nx ny p /\ (penalty nx ny p = 0 <-> allowed nx ny p).
Proof.
  intros nx ny p Hnx Hny Hx Hy. split; [apply penalty_nonneg|]. split.
  - intros E. unfold penalty in E. pose proof (inv4_nonneg (p_dx p)). pose proof (inv4_nonneg (p_dy p)).
    assert (Q : 0 < 1 / Rabs (p_dx p) ^ 4) by (unfold Rdiv; rewrite Rmult_1_l; apply Rinv_0_lt_compat, pow_lt, Rabs_pos_lt; exact Hx).
    pose proof (Rabs_pos (p_x0 p - nx)). pose proof (Rabs_pos (p_y0 p - ny)). pose proof (Rabs_pos (p_wx p - 1 / 1000)). pose proof (Rabs_pos (p_wy p - 1 / 1000)).
    assert (A : 0 <= if below (PI / 2) (Rabs (p_alpha p)) then (Rabs (p_alpha p) - PI / 2) * 1000000 else 0) by (unfold below; destruct (Rlt_dec _ _); lra).
    assert (E1 : (outside (p_x0 p) 0 nx || outside (p_y0 p) 0 ny)%bool = false).
    { destruct (outside (p_x0 p) 0 nx || outside (p_y0 p) 0 ny)%bool eqn:D; [|reflexivity]. exfalso.
      assert (0 < Rabs (p_x0 p - nx) \/ 0 < Rabs (p_y0 p - ny)).
      { apply orb_true_iff in D. unfold outside in D. destruct D as [D|D]; [left|right]; apply Rabs_pos_lt; destruct (Rlt_dec _ 0); [lra| |lra|]; destruct (Rlt_dec _ _); try lra; discriminate. }
      destruct (below (p_dx p) 1 || below (p_dy p) 1)%bool; destruct (below (p_wx p) _ || below (p_wy p) _)%bool; lra. }
    assert (E2 : (below (p_dx p) 1 || below (p_dy p) 1)%bool = false).
    { destruct (below (p_dx p) 1 || below (p_dy p) 1)%bool; [|reflexivity]. rewrite E1 in E. destruct (below (p_wx p) _ || below (p_wy p) _)%bool; lra. }
    assert (E3 : (below (p_wx p) (1 / 1000) || below (p_wy p) (1 / 1000))%bool = false).
    { destruct (below (p_wx p) (1 / 1000) || below (p_wy p) (1 / 1000))%bool eqn:D; [|reflexivity]. exfalso.
      assert (0 < Rabs (p_wx p - 1 / 1000) \/ 0 < Rabs (p_wy p - 1 / 1000)).
      { apply orb_true_iff in D. unfold below in D. destruct D as [D|D]; [left|right]; apply Rabs_pos_lt; destruct (Rlt_dec _ _); try lra; discriminate. }
      rewrite E1, E2 in E. lra. }
    assert (E4 : Rabs (p_alpha p) <= PI / 2).
    { rewrite E1, E2, E3 in E. unfold below in E. destruct (Rlt_dec (PI / 2) (Rabs (p_alpha p))); lra. }
    apply orb_false_iff in E1. apply orb_false_iff in E2. apply orb_false_iff in E3. unfold outside, below in *.
    destruct E1 as [E1 E1'], E2 as [E2 E2'], E3 as [E3 E3'].
    destruct (Rlt_dec (p_x0 p) 0); [discriminate|]. destruct (Rlt_dec nx (p_x0 p)); [discriminate|].
    destruct (Rlt_dec (p_y0 p) 0); [discriminate|]. destruct (Rlt_dec ny (p_y0 p)); [discriminate|].
    destruct (Rlt_dec (p_dx p) 1); [discriminate|]. destruct (Rlt_dec (p_dy p) 1); [discriminate|].
    destruct (Rlt_dec (p_wx p) _); [discriminate|]. destruct (Rlt_dec (p_wy p) _); [discriminate|]. unfold allowed. lra.
  - intros (A & B & C & D & F & G & K). unfold penalty. rewrite no_angle_penalty by exact K. unfold outside, below.
    destruct (Rlt_dec (p_x0 p) 0); [lra|]. destruct (Rlt_dec nx (p_x0 p)); [lra|].
    destruct (Rlt_dec (p_y0 p) 0); [lra|]. destruct (Rlt_dec ny (p_y0 p)); [lra|].
    destruct (Rlt_dec (p_dx p) 1); [lra|]. destruct (Rlt_dec (p_dy p) 1); [lra|].
    destruct (Rlt_dec (p_wx p) _); [lra|]. destruct (Rlt_dec (p_wy p) _); [lra|]. simpl. lra.
Qed.
Print Assumptions C74_penalty_free_region.

Lemma mid_nonneg : forall i, 0 <= mid i.
Proof. intros i. unfold mid. pose proof (pos_INR i). lra. Qed.

(** For a square area the cost exists, is not negative, and vanishes exactly if
    the spot reproduces the (thresholded) pixels and nothing is penalised. *)
Theorem C74_zero_cost_iff_reproduced : forall n d p, (0 < n)%nat -> p_dx p <> 0 -> p_dy p <> 0 ->
  exists c, target n n d p = Ok c /\ 0 <= c /\
    (c = 0 <-> (forall i j, (i < n)%nat -> (j < n)%nat -> threshold n n d i j = led_model p (mid j) (mid i)) /\ allowed (mid (n - 1)) (mid (n - 1)) p).
Proof.
  intros n d p Hn Hx Hy. unfold target, differences. rewrite Nat.eqb_refl. replace (n =? 0)%nat with false by (symmetry; apply Nat.eqb_neq; lia). cbn [orb bind].
  eexists. split; [reflexivity|]. set (l := map Rsqr _). pose proof (squares_nonneg (cells n n (fun i j => threshold n n d i j - led_model p (mid j) (mid i)))) as F. fold l in F.
  pose proof (rsum_nonneg l F) as S. assert (N : 0 < INR (n * n)) by (apply lt_0_INR; nia).
  assert (L : 0 <= sqrt (rsum l) / INR (n * n)) by (apply Rmult_le_pos; [apply sqrt_pos|left; apply Rinv_0_lt_compat; exact N]).
  destruct (C74_penalty_free_region (mid (n - 1)) (mid (n - 1)) p (mid_nonneg _) (mid_nonneg _) Hx Hy) as [P0 P]. split; [lra|]. rewrite <- P. split.
  - intros E. assert (E1 : sqrt (rsum l) / INR (n * n) = 0) by lra. split; [|lra].
    assert (E2 : sqrt (rsum l) = 0). { apply (Rmult_eq_reg_r (/ INR (n * n))); [|apply Rinv_neq_0_compat; lra]. unfold Rdiv in E1. rewrite E1. ring. }
    apply sqrt_eq_0 in E2; [|exact S]. pose proof (rsum_zero l F E2) as Z. intros i j Hi Hj. unfold l in Z. rewrite Forall_forall in Z.
    specialize (Z _ (in_map Rsqr _ _ (cells_In n n (fun i j => threshold n n d i j - led_model p (mid j) (mid i)) i j Hi Hj))). unfold Rsqr in Z. apply Rmult_integral in Z. lra.
  - intros [H E]. rewrite E. assert (Z : rsum l = 0); [|rewrite Z, sqrt_0; unfold Rdiv; ring].
    assert (G : Forall (fun v => v = 0) l). { unfold l. apply Forall_map. apply cells_Forall. intros i j Hi Hj. rewrite H by assumption. unfold Rsqr. ring. }
    clear - G. induction G as [|v l Hv G IH]; [reflexivity|]. simpl. unfold rsum in *. lra.
Qed.
Print Assumptions C74_zero_cost_iff_reproduced.

(** As soon as one pixel is darker than 5% of the brightest one, no parameters
    fit perfectly: the spot is positive everywhere, the pixel is set to 0. *)
Theorem C74_no_perfect_fit_with_a_dark_pixel : forall n d i j, (i < n)%nat -> (j < n)%nat ->
  0 < rmax (cells n n d) -> d i j < 5 / 100 * rmax (cells n n d) ->
  forall p, p_dx p <> 0 -> p_dy p <> 0 -> exists c, target n n d p = Ok c /\ 0 < c.
Proof.
  intros n d i j Hi Hj Hm Hd p Hx Hy. destruct (C74_zero_cost_iff_reproduced n d p ltac:(lia) Hx Hy) as (c & E & C0 & Z). exists c. split; [exact E|].
  destruct (Rle_lt_or_eq_dec _ _ C0) as [L|Q]; [exact L|]. exfalso. symmetry in Q. apply Z in Q. destruct Q as [Q _].
  assert (M : exists k l, (k < n)%nat /\ (l < n)%nat /\ d k l = rmax (cells n n d)).
  { destruct (cells n n d) as [|x t] eqn:Ec; [simpl in Hm; lra|]. pose proof (rmax_In x t) as I. rewrite <- Ec in I at 2. apply cells_In_inv in I. destruct I as (k & l & Hk & Hl & E1). exists k, l. auto. }
  destruct M as (k & l & Hk & Hl & Em). pose proof (Q k l Hk Hl) as Q1. pose proof (Q i j Hi Hj) as Q2. unfold threshold in Q1, Q2.
  destruct (Rlt_dec (d k l) _) as [X|X]; [rewrite Em in X; lra|]. destruct (Rlt_dec (d i j) _) as [Y|Y]; [|lra].
  assert (A : 0 < p_a p). { destruct (Rlt_dec 0 (p_a p)) as [A|A]; [exact A|]. exfalso. rewrite led_model_eq in Q1. pose proof (tanh_bounds ((from_centre p (mid l) (mid k) - radius (p_dx p) (p_dy p) (phi_of p (mid l) (mid k))) / radius (p_wx p) (p_wy p) (phi_of p (mid l) (mid k)))) as B. nra. }
  pose proof (C72_between_zero_and_amplitude p (mid j) (mid i) A). lra.
Qed.
Print Assumptions C74_no_perfect_fit_with_a_dark_pixel.

(** Negative extents give the same spot and cost next to nothing. *)
Theorem C74_negative_extents_are_hardly_penalised : forall n m d p c, 1 <= p_dx p -> 1 <= p_dy p ->
  target n m d p = Ok c -> target n m d (negated_extents p) = Ok (c + 1 / p_dx p ^ 4 + 1 / p_dy p ^ 4).
Proof.
  intros n m d p c Hx Hy H. unfold target in *. destruct (_ || _)%bool; [discriminate|].
  rewrite (differences_ext (negated_extents p) p) by (intros; apply C73_same_spot). destruct (differences p n m (threshold n m d)) as [ds|e]; [|discriminate]. cbn [bind] in *.
  apply Ok_inj in H. subst c. f_equal. unfold penalty. cbn [negated_extents p_x0 p_y0 p_dx p_dy p_a p_alpha p_wx p_wy].
  replace (below (p_dx p) 1) with false by (unfold below; destruct (Rlt_dec _ _); [lra|reflexivity]).
  replace (below (p_dy p) 1) with false by (unfold below; destruct (Rlt_dec _ _); [lra|reflexivity]).
  replace (below (- p_dx p) 1) with true by (unfold below; destruct (Rlt_dec _ _); [reflexivity|lra]).
  cbn [orb]. rewrite !Rabs_Ropp, !(Rabs_pos_eq (p_dx p)), !(Rabs_pos_eq (p_dy p)) by lra. lra.
Qed.
Print Assumptions C74_negative_extents_are_hardly_penalised.

(** What the optimiser is trusted with: the result is not worse than the start. *)
Definition not_worse_than_start (n m : nat) (d : nat -> nat -> R) (p : params) : Prop :=
  exists c s, target n m d p = Ok c /\ target n m d (start n m) = Ok s /\ c <= s.

Lemma start_cost : forall n d b, (0 < n)%nat -> 200 <= b -> (forall i j, (i < n)%nat -> (j < n)%nat -> 0 <= d i j <= b) ->
  exists s, target n n d (start n n) = Ok s /\ s <= b / INR n.
Proof.
  intros n d b Hn Hb Hd. unfold target, differences. rewrite Nat.eqb_refl. replace (n =? 0)%nat with false by (symmetry; apply Nat.eqb_neq; lia). cbn [orb bind].
  eexists. split; [reflexivity|]. assert (N : 0 < INR n) by (apply lt_0_INR; exact Hn).
  assert (P : penalty (mid (n - 1)) (mid (n - 1)) (start n n) = 0).
  { destruct (C74_penalty_free_region (mid (n - 1)) (mid (n - 1)) (start n n) (mid_nonneg _) (mid_nonneg _)) as [_ P]; [cbn [start p_dx]; lra|cbn [start p_dy]; lra|]. apply P.
    unfold allowed. cbn [start p_x0 p_y0 p_dx p_dy p_a p_alpha p_wx p_wy]. rewrite (Rabs_pos_eq 1) by lra. pose proof PI2_1.
    assert (K : 0 <= INR (n / 2) <= mid (n - 1)). { split; [apply pos_INR|]. unfold mid. pose proof (Nat.div_lt_upper_bound n 2 (S (n - 1)) ltac:(lia) ltac:(lia)) as B. assert (B' : (n / 2 <= n - 1 \/ n / 2 <= 0)%nat) by (destruct n as [|[|k]]; [lia|right; reflexivity|left; lia]). destruct B' as [B'|B']; apply le_INR in B'; [|change (INR 0) with 0 in B'; pose proof (pos_INR (n - 1))]; lra. }
    lra. }
  rewrite P, Rplus_0_r. set (l := cells n n _).
  assert (F : Forall (fun v => v <= b * b) (map Rsqr l)).
  { apply Forall_map. unfold l. apply cells_Forall. intros i j Hi Hj. pose proof (C72_between_zero_and_amplitude (start n n) (mid j) (mid i) ltac:(cbn [start p_a]; lra)) as M. cbn [start p_a] in M.
    pose proof (Hd i j Hi Hj) as D. assert (T : 0 <= threshold n n d i j <= b) by (unfold threshold; destruct (Rlt_dec _ _); lra). unfold Rsqr.
    fold (start n n) in *. set (m := led_model _ _ _) in *. set (t := threshold _ _ _ _ _) in *. clearbody m t. nra. }
  pose proof (rsum_upper _ _ F) as U. rewrite map_length in U. unfold l in U at 2. rewrite cells_length in U. rewrite mult_INR in *.
  assert (S : sqrt (rsum (map Rsqr l)) <= INR n * b).
  { rewrite <- (sqrt_square (INR n * b)) by nra. apply sqrt_le_1_alt. eapply Rle_trans; [exact U|]. apply Req_le. ring. }
  apply (Rmult_le_compat_r (/ (INR n * INR n))) in S; [|left; apply Rinv_0_lt_compat; nra]. replace (INR n * b * / (INR n * INR n)) with (b / INR n) in S by (field; lra). exact S.
Qed.

(** Starting in the middle of a square area with pixel values up to [b], the
    result never leaves the area to the top or left, and to the bottom or right
    only by b/(1000 n) pixels; the angle and the widths are kept likewise. *)
Theorem C74_fit_stays_in_the_area : forall n d b p, (0 < n)%nat -> 200 <= b -> b < 1000 * INR n * (INR n - 1 / 2) ->
  (forall i j, (i < n)%nat -> (j < n)%nat -> 0 <= d i j <= b) -> not_worse_than_start n n d p ->
  let slack := b / INR n in
  0 <= p_x0 p <= INR n - 1 / 2 + slack / 1000 /\ 0 <= p_y0 p <= INR n - 1 / 2 + slack / 1000 /\
  1 / 1000 - slack / 1000000 <= p_wx p /\ 1 / 1000 - slack / 1000000 <= p_wy p /\
  Rabs (p_alpha p) <= PI / 2 + slack / 1000000.
Proof.
  intros n d b p Hn Hb Hlim Hd (c & s & Ec & Es & Le) slack. destruct (start_cost n d b Hn Hb Hd) as (s' & Es' & Ls). rewrite Es in Es'. apply Ok_inj in Es'. subst s'.
  assert (N : 0 < INR n) by (apply lt_0_INR; exact Hn). assert (Sl : 0 < slack) by (apply Rdiv_lt_0_compat; lra).
  assert (Mx : mid (n - 1) = INR n - 1 / 2). { unfold mid. rewrite minus_INR by lia. simpl. lra. }
  assert (Pen : penalty (mid (n - 1)) (mid (n - 1)) p <= slack).
  { unfold target, differences in Ec. rewrite Nat.eqb_refl in Ec. replace (n =? 0)%nat with false in Ec by (symmetry; apply Nat.eqb_neq; lia). cbn [orb bind] in Ec. apply Ok_inj in Ec.
    set (l := map Rsqr _) in Ec. assert (0 <= sqrt (rsum l) / INR (n * n)) by (apply Rmult_le_pos; [apply sqrt_pos|left; apply Rinv_0_lt_compat; apply lt_0_INR; nia]). unfold slack. lra. }
  assert (Lim : slack < 1000 * (INR n - 1 / 2)). { unfold slack. apply (Rmult_lt_reg_r (INR n)); [exact N|]. unfold Rdiv. rewrite Rmult_assoc, Rinv_l by lra. lra. }
  rewrite Mx in Pen. set (e := INR n - 1 / 2) in *. clear Ec Es Hd Hlim Ls Le. unfold penalty in Pen.
  pose proof (inv4_nonneg (p_dx p)) as I1. pose proof (inv4_nonneg (p_dy p)) as I2.
  pose proof (Rabs_pos (p_x0 p - e)) as A1. pose proof (Rabs_pos (p_y0 p - e)) as A2. pose proof (Rabs_pos (p_wx p - 1 / 1000)) as A3. pose proof (Rabs_pos (p_wy p - 1 / 1000)) as A4.
  set (T2 := if (below (p_dx p) 1 || below (p_dy p) 1)%bool then _ else _) in Pen. assert (H2 : 0 <= T2) by (unfold T2; match goal with |- context[if ?b then _ else _] => destruct b end; lra).
  set (T1 := if (outside (p_x0 p) 0 e || _)%bool then _ else _) in Pen. assert (H1 : 0 <= T1) by (unfold T1; match goal with |- context[if ?b then _ else _] => destruct b end; lra).
  set (T3 := if (below (p_wx p) _ || _)%bool then _ else _) in Pen. assert (H3 : 0 <= T3) by (unfold T3; match goal with |- context[if ?b then _ else _] => destruct b end; lra).
  set (T4 := if below (PI / 2) _ then _ else _) in Pen. assert (H4 : 0 <= T4) by (unfold T4, below; destruct (Rlt_dec _ _); lra).
  assert (G1 : T1 <= slack) by lra. assert (G3 : T3 <= slack) by lra. assert (G4 : T4 <= slack) by lra. clear Pen H1 H2 H3 H4 T2 I1 I2.
  assert (X : 0 <= p_x0 p <= e + slack / 1000 /\ 0 <= p_y0 p <= e + slack / 1000).
  { unfold T1, outside in G1. destruct (Rlt_dec (p_x0 p) 0); [cbn [orb] in G1; rewrite (Rabs_left (p_x0 p - e)) in G1 by lra; lra|].
    destruct (Rlt_dec (p_y0 p) 0). { rewrite orb_true_r in G1. rewrite (Rabs_left (p_y0 p - e)) in G1 by lra. lra. }
    destruct (Rlt_dec e (p_x0 p)); cbn [orb] in G1.
    - rewrite (Rabs_pos_eq (p_x0 p - e)) in G1 by lra. split; [lra|]. split; [lra|]. pose proof (Rle_abs (p_y0 p - e)). lra.
    - destruct (Rlt_dec e (p_y0 p)); [|lra]. rewrite (Rabs_pos_eq (p_y0 p - e)) in G1 by lra. lra. }
  assert (W : 1 / 1000 - slack / 1000000 <= p_wx p /\ 1 / 1000 - slack / 1000000 <= p_wy p).
  { unfold T3, below in G3. pose proof (Rle_abs (- (p_wx p - 1 / 1000))) as B1. pose proof (Rle_abs (- (p_wy p - 1 / 1000))) as B2. rewrite Rabs_Ropp in B1, B2.
    destruct (Rlt_dec (p_wx p) _); destruct (Rlt_dec (p_wy p) _); cbn [orb] in G3; lra. }
  split; [apply X|]. split; [apply X|]. split; [apply W|]. split; [apply W|]. unfold T4, below in G4. destruct (Rlt_dec _ _); lra.
Qed.
Print Assumptions C74_fit_stays_in_the_area.

Example C74_example : (0 < 20)%nat /\ 200 <= 65535 /\ 65535 < 1000 * INR 20 * (INR 20 - 1 / 2) /\
  (forall d, (forall i j, (i < 20)%nat -> (j < 20)%nat -> 0 <= d i j <= 65535) -> not_worse_than_start 20 20 d (start 20 20)) /\
  (let d := fun i j => if (i =? j)%nat then 1 else 0 in (0 < 2)%nat /\ 0 < rmax (cells 2 2 d) /\ d 0%nat 1%nat < 5 / 100 * rmax (cells 2 2 d)).
Proof.
  split; [lia|]. split; [lra|]. split; [simpl; lra|]. split.
  - intros d Hd. destruct (start_cost 20 d 65535 ltac:(lia) ltac:(lra) Hd) as (s & E & _). exists s, s. split; [exact E|]. split; [exact E|lra].
  - cbn. split; [lia|]. unfold Rmax. repeat (destruct (Rle_dec _ _)); lra.
Qed.

(** ** C75: the area that is fitted and the centre that is reported *)

Theorem C75_area_must_be_square : forall n m d p, n <> m -> (1 < n)%nat -> (1 < m)%nat -> target n m d p = Err ValueError.
Proof.
  intros n m d p H Hn Hm. unfold target, differences.
  replace (n =? 0)%nat with false by (symmetry; apply Nat.eqb_neq; lia). replace (m =? 0)%nat with false by (symmetry; apply Nat.eqb_neq; lia). cbn [orb].
  replace (n =? m)%nat with false by (symmetry; apply Nat.eqb_neq; lia). replace (n =? 1)%nat with false by (symmetry; apply Nat.eqb_neq; lia).
  replace (m =? 1)%nat with false by (symmetry; apply Nat.eqb_neq; lia). reflexivity.
Qed.
Print Assumptions C75_area_must_be_square.

Section Border.
Local Open Scope Z_scope.

Lemma slice_length : forall len c r, 0 <= r -> r <= c -> c < len ->
  length (slice_indices len (c - r) (c + r)) = Z.to_nat (Z.min (c + r) len - (c - r)).
Proof.
  intros len c r Hr Hc Hl. unfold slice_indices. rewrite length_zrange. unfold adjust_bound.
  replace (c - r <? 0) with false by (symmetry; apply Z.ltb_ge; lia). replace (c + r <? 0) with false by (symmetry; apply Z.ltb_ge; lia). f_equal. lia.
Qed.

(** The search area of an LED whose square is cut off at the lower border
    (measured by step 3, C20) is not square: every evaluation of the cost
    fails, so the LED cannot be fitted; the fast mode measures it. *)
Theorem C75_led_at_the_lower_border_cannot_be_fitted : forall img r y x, 2 <= r ->
  r <= y -> y < Step1_Model.ih img -> Step1_Model.ih img < y + r -> r <= x -> x + r <= Step1_Model.iw img ->
  let sa := Step3_Model.area img r y x in
  (exists m, Step3_Model.np_amax (concat sa) = Ok m) /\
  (forall row, In row sa -> length row = Z.to_nat (2 * r)) /\
  (forall d p, target (length sa) (Z.to_nat (2 * r)) d p = Err ValueError).
Proof.
  intros img r y x Hr Hy1 Hy2 Hy3 Hx1 Hx2 sa.
  assert (L : length sa = Z.to_nat (Step1_Model.ih img - (y - r))).
  { unfold sa, Step3_Model.area. rewrite map_length, slice_length by lia. f_equal. lia. }
  assert (W : forall row, In row sa -> length row = Z.to_nat (2 * r)).
  { intros row H. unfold sa, Step3_Model.area in H. apply in_map_iff in H. destruct H as (y' & E & _). subst row. rewrite map_length, slice_length by lia. f_equal. lia. }
  split; [|split; [exact W|]].
  - destruct sa as [|row sa'] eqn:E; [cbn [length] in L; lia|]. specialize (W row (or_introl eq_refl)). destruct row as [|v row]; [cbn [length] in W; lia|].
    cbn [concat app Step3_Model.np_amax]. eexists. reflexivity.
  - intros d p. apply C75_area_must_be_square; lia.
Qed.
Print Assumptions C75_led_at_the_lower_border_cannot_be_fitted.

Example C75_border_example :
  let img := Step1_Model.Img 10 20 (fun _ _ => 7) in
  2 <= 3 /\ 3 <= 8 /\ 8 < Step1_Model.ih img /\ Step1_Model.ih img < 8 + 3 /\ 3 <= 5 /\ 5 + 3 <= Step1_Model.iw img /\
  length (Step3_Model.area img 3 8 5) = 5%nat.
Proof. cbv. repeat split; discriminate || reflexivity. Qed.
End Border.

(** A spot in the picture, in coordinates (column, row), and the area cut out of
    the picture around row [cx], column [cy]. *)
Definition cut_out (spot : params) (cx cy r : R) (i j : nat) : R := led_model spot (cy - r + mid j) (cx - r + mid i).

(** The spot as seen in the area. *)
Definition seen (spot : params) (cx cy r : R) : params :=
  Params (p_x0 spot - (cy - r)) (p_y0 spot - (cx - r)) (p_dx spot) (p_dy spot) (p_a spot) (p_alpha spot) (p_wx spot) (p_wy spot).

Lemma seen_model : forall spot cx cy r x y, led_model (seen spot cx cy r) x y = led_model spot (cy - r + x) (cx - r + y).
Proof.
  intros spot cx cy r x y. unfold led_model. cbn [seen p_x0 p_y0 p_dx p_dy p_a p_alpha p_wx p_wy].
  replace (x - (p_x0 spot - (cy - r))) with (cy - r + x - p_x0 spot) by ring. replace (y - (p_y0 spot - (cx - r))) with (cx - r + y - p_y0 spot) by ring. reflexivity.
Qed.

(** A noise-free spot without dark pixels, centred at row [p_y0 spot], column
    [p_x0 spot]: the true parameters have the cost 0, the least possible one, and
    the reported centre has the offsets of row and column exchanged.  It is
    right only on the diagonal of the area. *)
Theorem C75_reported_centre_is_transposed : forall n spot cx cy r, (0 < n)%nat ->
  let d := cut_out spot cx cy r in let q := seen spot cx cy r in
  allowed (mid (n - 1)) (mid (n - 1)) q ->
  (forall i j, (i < n)%nat -> (j < n)%nat -> 5 / 100 * rmax (cells n n d) <= d i j) ->
  let row := p_y0 spot in let column := p_x0 spot in
  target n n d q = Ok 0 /\
  (forall p c, p_dx p <> 0 -> p_dy p <> 0 -> target n n d p = Ok c -> 0 <= c) /\
  led_center q cx cy r = (cx + (column - cy), cy + (row - cx)) /\
  (led_center q cx cy r = (row, column) <-> row - cx = column - cy).
Proof.
  intros n spot cx cy r Hn d q Hq Hb row column. split; [|split; [|split]].
  - assert (X : p_dx q <> 0) by (destruct Hq as (_ & _ & X & _); lra). assert (Y : p_dy q <> 0) by (destruct Hq as (_ & _ & _ & Y & _); lra).
    destruct (C74_zero_cost_iff_reproduced n d q Hn X Y) as (c & E & _ & Z). rewrite E. f_equal. apply Z. split; [|exact Hq].
    intros i j Hi Hj. unfold threshold. destruct (Rlt_dec _ _) as [L|_]; [specialize (Hb i j Hi Hj); lra|]. unfold q. rewrite seen_model. reflexivity.
  - intros p c X Y E. destruct (C74_zero_cost_iff_reproduced n d p Hn X Y) as (c' & E' & P & _). rewrite E in E'. apply Ok_inj in E'. lra.
  - unfold led_center, q, row, column. cbn [seen p_x0 p_y0]. f_equal; ring.
  - unfold led_center, q, row, column. cbn [seen p_x0 p_y0]. split.
    + intros H. injection H as H1 H2. lra.
    + intros H. f_equal; lra.
Qed.
Print Assumptions C75_reported_centre_is_transposed.

(** A round spot at row 101.5, column 50.5 in the area of row 101, column 51. *)
Definition bright_spot : params := Params (101 / 2) (203 / 2) 10 10 200 0 10 10.

Lemma bright_spot_light : forall i j, (i < 4)%nat -> (j < 4)%nat -> 100 < cut_out bright_spot 101 51 2 i j < 200.
Proof.
  intros i j Hi Hj. unfold cut_out. assert (Pr : proper bright_spot) by (unfold proper; simpl; lra).
  split; [|apply (C72_between_zero_and_amplitude bright_spot); simpl; lra].
  destruct (C72_half_amplitude_on_the_ellipse bright_spot (51 - 2 + mid j) (101 - 2 + mid i) Pr) as [[_ H] _]. cbn [bright_spot p_a] in H. replace (200 / 2) with 100 in H by lra. apply H.
  unfold ellipse, along, across. cbn [bright_spot p_x0 p_y0 p_dx p_dy p_alpha]. rewrite cos_0, sin_0. unfold mid.
  assert (I : 0 <= INR i <= 3) by (split; [apply pos_INR|]; replace 3 with (INR 3) by (simpl; lra); apply le_INR; lia).
  assert (J : 0 <= INR j <= 3) by (split; [apply pos_INR|]; replace 3 with (INR 3) by (simpl; lra); apply le_INR; lia).
  set (u := INR i) in *. set (v := INR j) in *. clearbody u v. unfold Rsqr. nra.
Qed.

Theorem C75_reported_centre_refuted : exists n spot cx cy r,
  let d := cut_out spot cx cy r in let q := seen spot cx cy r in
  target n n d q = Ok 0 /\ led_center q cx cy r <> (p_y0 spot, p_x0 spot).
Proof.
  exists 4%nat, bright_spot, 101, 51, 2. cbv zeta.
  destruct (C75_reported_centre_is_transposed 4 bright_spot 101 51 2 ltac:(lia)) as (T & _ & _ & D).
  - unfold allowed, mid. cbn [seen bright_spot p_x0 p_y0 p_dx p_dy p_alpha p_wx p_wy]. rewrite Rabs_R0. pose proof PI_RGT_0. simpl. lra.
  - intros i j Hi Hj. pose proof (bright_spot_light i j Hi Hj) as [L _].
    assert (M : rmax (cells 4 4 (cut_out bright_spot 101 51 2)) <= 200).
    { destruct (cells 4 4 (cut_out bright_spot 101 51 2)) as [|x t] eqn:E; [simpl; lra|]. pose proof (rmax_In x t) as I. rewrite <- E in I at 2. apply cells_In_inv in I.
      destruct I as (k & l & Hk & Hl & Ev). rewrite Ev. pose proof (bright_spot_light k l Hk Hl). lra. }
    lra.
  - split; [exact T|]. rewrite D. cbn [bright_spot p_x0 p_y0]. lra.
Qed.
Print Assumptions C75_reported_centre_refuted.
