(** C134, second part: the unit of length and the non-linear solver. *)
From Coq Require Import List Arith Reals Lra Lia.
From Verif Require Import Base Solver_Model Solver_Props Units_Props.
Import ListNotations.
Local Open Scope R_scope.

Lemma intensity_units : forall k s r, 0 < k -> intensity (map (fun v => v / k) s) (map (Rmult k) r) = intensity s r.
Proof.
  intros k s r Hk. unfold intensity. generalize 1. revert r. induction s as [|v s IH]; intros [|d r] acc; try reflexivity. cbn [map combine fold_left fst snd]. rewrite IH. do 3 f_equal. field. lra.
Qed.

Lemma rsum_units : forall k s, 0 < k -> rsum (map (fun v => v / k) s) = rsum s / k.
Proof. intros k s Hk. induction s as [|v s IH]; cbn [map rsum]; [field; lra|]. rewrite IH. field. lra. Qed.

Lemma second_units : forall k s, 0 < k -> second_differences (map (fun v => v / k) s) = map (fun v => v / k) (second_differences s).
Proof.
  intros k s Hk. unfold second_differences. rewrite map_map.
  assert (T : forall (l : vec), tl (map (fun v => v / k) l) = map (fun v => v / k) (tl l)) by (intros [|? ?]; reflexivity). rewrite !T.
  generalize (tl (tl s)). generalize (tl s). induction s as [|v s IH]; intros [|u t] [|w p]; try reflexivity. cbn [map combine fst snd]. f_equal; [field; lra|apply IH].
Qed.

(** The cost is the same in another unit of length, if both weights are multiplied by [k]. *)
Theorem C134_cost : forall k wc wp A s target, 0 < k ->
  cost (k * wc) (k * wp) (map (map (Rmult k)) A) (map (fun v => v / k) s) target = cost wc wp A s target.
Proof.
  intros k wc wp A s target Hk. unfold cost. f_equal; [f_equal|].
  - unfold misfit. rewrite map_length. do 4 f_equal. unfold intensities. rewrite map_map. f_equal. apply map_ext. intros r. apply intensity_units. exact Hk.
  - unfold curvature. rewrite map_length, second_units by exact Hk.
    assert (E : map Rabs (map (fun v => v / k) (second_differences s)) = map (fun v => v / k) (map Rabs (second_differences s))).
    { rewrite !map_map. apply map_ext. intros v. unfold Rdiv. rewrite Rabs_mult, (Rabs_pos_eq (/ k)); [reflexivity|left; apply Rinv_0_lt_compat; exact Hk]. }
    rewrite E, rsum_units by exact Hk. field. lra.
  - unfold preference. rewrite map_length, rsum_units by exact Hk. destruct s as [|v s].
    + cbn [rsum length]. unfold Rdiv. ring.
    + field. split; [|lra]. apply not_0_INR. discriminate.
Qed.
Print Assumptions C134_cost.

(** Three layers of two metres in centimetres. *)
Example C134_cost_example : cost 1 100 [[200; 0; 0]; [200; 200; 200]] [1 / 100; 2 / 100; 0 / 100] [1 / 2; 1 / 4] = cost (1 / 100) 1 [[2; 0; 0]; [2; 2; 2]] [1; 2; 0] [1 / 2; 1 / 4].
Proof.
  rewrite <- (C134_cost 100 (1 / 100) 1 [[2; 0; 0]; [2; 2; 2]] [1; 2; 0] [1 / 2; 1 / 4]) by lra. cbn [map].
  replace (100 * 2) with 200 by ring. replace (100 * 0) with 0 by ring. replace (100 * (1 / 100)) with 1 by field. replace (100 * 1) with 100 by ring. reflexivity.
Qed.

Lemma one_led_cost : forall d y target, cost 0 0 [[d]] [y] [target] = Rabs (exp (- y * d) - target).
Proof.
  intros d y target. unfold cost, misfit, curvature, preference, intensities, intensity, second_differences. cbn [map combine fold_left fst snd rsum tl length INR].
  rewrite Rplus_0_r, sqrt_Rsqr_abs, Rmult_1_l. field.
Qed.

(** But the bounds 0 and 10 are fixed: one metre of smoke with the coefficient 1 per metre is found exactly
    if given in metres; in units of 100 metres the exact coefficient is 100, and every result is 10. *)
Theorem C134_bounds_refuted : exists k A target x, 0 < k /\ minimiser 0 0 A target x /\ cost 0 0 A x target = 0 /\
  (forall y, length y = length x -> minimiser 0 0 A target y -> y = x) /\
  minimiser 0 0 (map (map (Rmult k)) A) target [10] /\
  forall y, length y = length x -> minimiser 0 0 (map (map (Rmult k)) A) target y -> y = [10] /\ y <> map (fun v => v / k) x.
Proof.
  exists (1 / 100), [[1]], [exp (- 1)], [1]. split; [lra|].
  assert (C0 : cost 0 0 [[1]] [1] [exp (- 1)] = 0).
  { rewrite one_led_cost. replace (- (1) * 1) with (- 1) by ring. replace (exp (- 1) - exp (- 1)) with 0 by ring. apply Rabs_R0. }
  assert (B1 : Forall (fun v => 0 <= v <= 10) [1]) by (constructor; [lra|constructor]).
  split; [split; [exact B1|]|].
  { intros y Ly By. rewrite C0. destruct y as [|y [|? ?]]; try discriminate. rewrite one_led_cost. apply Rabs_pos. }
  split; [exact C0|]. split.
  { intros y Ly (By & My). specialize (My [1] (eq_sym Ly) B1). rewrite C0 in My. destruct y as [|y [|? ?]]; try discriminate. rewrite one_led_cost in My. f_equal.
    assert (Z : Rabs (exp (- y * 1) - exp (- 1)) = 0) by (pose proof (Rabs_pos (exp (- y * 1) - exp (- 1))); lra).
    assert (E : exp (- y * 1) = exp (- 1)) by (destruct (Req_dec (exp (- y * 1) - exp (- 1)) 0) as [Q|Q]; [lra|exfalso; exact (Rabs_no_R0 _ Q Z)]). apply exp_inv in E. lra. }
  cbn [map]. replace (1 / 100 * 1) with (1 / 100) by ring.
  assert (G : forall v, v <= 10 -> Rabs (exp (- v * (1 / 100)) - exp (- 1)) = exp (- v * (1 / 100)) - exp (- 1)).
  { intros v Hv. apply Rabs_pos_eq. assert (exp (- 1) < exp (- v * (1 / 100))) by (apply exp_increasing; lra). lra. }
  assert (B10 : Forall (fun v => 0 <= v <= 10) [10]) by (constructor; [lra|constructor]). split.
  - split; [exact B10|]. intros y Ly By. destruct y as [|y [|? ?]]; try discriminate. inversion By as [|? ? Hy _]; subst. rewrite !one_led_cost, !G by lra.
    destruct (Req_dec y 10) as [->|N]; [lra|]. assert (exp (- (10) * (1 / 100)) < exp (- y * (1 / 100))) by (apply exp_increasing; lra). lra.
  - intros y Ly (By & My). specialize (My [10] (eq_sym Ly) B10). destruct y as [|y [|? ?]]; try discriminate. inversion By as [|? ? Hy _]; subst. rewrite !one_led_cost, !G in My by lra.
    assert (E : y = 10). { destruct (Req_dec y 10) as [E|N]; [exact E|]. exfalso. assert (exp (- (10) * (1 / 100)) < exp (- y * (1 / 100))) by (apply exp_increasing; lra). lra. }
    subst y. split; [reflexivity|]. intros C. injection C as C. lra.
Qed.
Print Assumptions C134_bounds_refuted.
