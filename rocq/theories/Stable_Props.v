(** C93: the linear solver is stable against errors of the intensities. *)
From Coq Require Import List Arith Lia Reals Lra Psatz.
From Verif Require Import Base Solver_Model Solver_Props.
Import ListNotations.
Local Open Scope R_scope.

(** ** Lemmas *)

Lemma sq_dist_sym : forall a b, sq_dist a b = sq_dist b a.
Proof. induction a as [|x a IH]; intros [|y b]; cbn [sq_dist]; try reflexivity. rewrite (IH b). ring. Qed.

Lemma sq_dist_triangle : forall a b c, length a = length b -> length b = length c ->
  sq_dist a c <= 2 * sq_dist a b + 2 * sq_dist b c.
Proof.
  induction a as [|x a IH]; intros [|y b] [|z c] H H'; try discriminate; cbn [sq_dist]; [lra|].
  specialize (IH b c ltac:(simpl in H; lia) ltac:(simpl in H'; lia)).
  pose proof (Rle_0_sqr ((x - y) - (y - z))) as Q. unfold Rsqr in Q. nra.
Qed.

Fixpoint vsub (a b : vec) : vec := match a, b with x :: a', y :: b' => (x - y) :: vsub a' b' | _, _ => [] end.

Lemma vsub_length : forall a b, length a = length b -> length (vsub a b) = length a.
Proof. induction a as [|x a IH]; intros [|y b] H; try discriminate; cbn [vsub length]; [reflexivity|]. rewrite IH by (simpl in H; lia). reflexivity. Qed.

Lemma sq_dist_vsub : forall a b, sq_dist a b = sq_norm (vsub a b).
Proof. induction a as [|x a IH]; intros [|y b]; cbn [sq_dist vsub sq_norm]; try reflexivity. rewrite IH. reflexivity. Qed.

Lemma rdot_vsub : forall r a b, length a = length b -> rdot r (vsub a b) = rdot r a - rdot r b.
Proof.
  induction r as [|c r IH]; intros a b H; [cbn [rdot]; lra|].
  destruct a as [|x a], b as [|y b]; try discriminate; cbn [vsub rdot]; [lra|]. rewrite IH by (simpl in H; lia). ring.
Qed.

Lemma mul_vsub : forall A a b, length a = length b -> sq_norm (mul A (vsub a b)) = sq_dist (mul A a) (mul A b).
Proof.
  intros A a b H. unfold mul. induction A as [|r A IH]; [reflexivity|]. cbn [map sq_norm sq_dist]. rewrite rdot_vsub by exact H. rewrite IH. reflexivity.
Qed.

(** ** C93 *)

(** The errors of the optical depths: sum of squares. *)
Definition depth_errors (A : matrix) (rel s : vec) : R := sq_dist (mul A s) (map optical_depth rel).

(** Whatever the true profile [s] is: the optical depths of the result are close
    to the true ones. *)
Theorem C93_fit_error : forall nnls lambda n A rel s, 0 <= lambda -> length rel = length A -> length s = n -> nonneg s ->
  nnls_solution n (a_aug lambda n A) (b_aug n rel) (nnls (a_aug lambda n A) (b_aug n rel)) ->
  sq_dist (mul A (linear_coefficients nnls lambda n A rel)) (mul A s) <= 4 * depth_errors A rel s + 2 * lambda * penalty s.
Proof.
  intros nnls lambda n A rel s Hl Hr Hs Ns Sol. destruct (C38_coefficients_minimise_the_objective nnls lambda n A rel Hl Hr Sol) as (L & _ & M).
  set (x := linear_coefficients nnls lambda n A rel) in *. specialize (M s Hs Ns). unfold objective in M.
  pose proof (penalty_nonneg x) as P. assert (P' : 0 <= lambda * penalty x) by (apply Rmult_le_pos; assumption).
  unfold depth_errors. set (b := map optical_depth rel) in *.
  assert (T : sq_dist (mul A x) (mul A s) <= 2 * sq_dist (mul A x) b + 2 * sq_dist b (mul A s)).
  { apply sq_dist_triangle; unfold mul, b; rewrite !map_length; congruence. }
  rewrite (sq_dist_sym b) in T. lra.
Qed.
Print Assumptions C93_fit_error.

(** If the lines of sight tell the layers apart, so are the coefficients. *)
Theorem C93_coefficient_error : forall nnls lambda n A rel s c, 0 <= lambda -> length rel = length A -> length s = n -> nonneg s ->
  0 < c -> (forall z, length z = n -> c * sq_norm z <= sq_norm (mul A z)) ->
  nnls_solution n (a_aug lambda n A) (b_aug n rel) (nnls (a_aug lambda n A) (b_aug n rel)) ->
  sq_dist (linear_coefficients nnls lambda n A rel) s <= (4 * depth_errors A rel s + 2 * lambda * penalty s) / c.
Proof.
  intros nnls lambda n A rel s c Hl Hr Hs Ns Hc H Sol. pose proof (C93_fit_error nnls lambda n A rel s Hl Hr Hs Ns Sol) as F.
  set (x := linear_coefficients nnls lambda n A rel) in *. assert (L : length x = length s) by (rewrite Hs; apply Sol).
  specialize (H (vsub x s)). rewrite vsub_length in H by exact L. specialize (H ltac:(congruence)).
  rewrite mul_vsub in H by exact L. rewrite sq_dist_vsub. apply (Rmult_le_reg_l c); [exact Hc|].
  replace (c * ((4 * depth_errors A rel s + 2 * lambda * penalty s) / c)) with (4 * depth_errors A rel s + 2 * lambda * penalty s) by (field; lra). lra.
Qed.
Print Assumptions C93_coefficient_error.

(** The error of one optical depth, for an intensity with relative error [e]. *)
Theorem C93_depth_error : forall v d e, 0 <= e < 1 -> 0 <= d -> 1 / 10000000000 <= exp (- d) ->
  Rabs (v - exp (- d)) <= e * exp (- d) ->
  Rabs (optical_depth v - d) <= - ln (1 - e).
Proof.
  intros v d e He Hd Hx Hv. set (x := exp (- d)) in *.
  assert (X1 : x <= 1). { unfold x. rewrite <- exp_0. destruct (Req_dec d 0) as [->|N]; [rewrite Ropp_0; lra|]. left. apply exp_increasing. lra. }
  assert (X0 : 0 < x) by apply exp_pos.
  assert (C : (1 - e) * x <= clip_rel v <= (1 + e) * x).
  { assert (V : - (e * x) <= v - x <= e * x) by (split; [pose proof (Rle_abs (- (v - x))) as Q; rewrite Rabs_Ropp in Q; lra|pose proof (Rle_abs (v - x)); lra]).
    assert (E : 0 <= e * x) by (apply Rmult_le_pos; lra).
    unfold clip_rel, Rmin, Rmax. destruct (Rle_dec v (1 / 10000000000)); match goal with |- context [Rle_dec ?u 1] => destruct (Rle_dec u 1) end; lra. }
  assert (P : 0 < (1 - e) * x) by (apply Rmult_lt_0_compat; lra).
  unfold optical_depth.
  assert (L1 : ln ((1 - e) * x) <= ln (clip_rel v)).
  { destruct (Req_dec ((1 - e) * x) (clip_rel v)) as [E|E]; [rewrite E; lra|]. left. apply ln_increasing; lra. }
  assert (L2 : ln (clip_rel v) <= ln ((1 + e) * x)).
  { destruct (Req_dec ((1 + e) * x) (clip_rel v)) as [E|E]; [rewrite E; lra|]. left. apply ln_increasing; lra. }
  rewrite ln_mult in L1, L2 by lra. unfold x in L1, L2. rewrite ln_exp in L1, L2.
  assert (L3 : ln (1 + e) <= - ln (1 - e)).
  { rewrite <- ln_Rinv by lra. destruct (Req_dec e 0) as [->|N].
    - replace (1 + 0) with 1 by lra. replace (/ (1 - 0)) with 1 by field. lra.
    - left. apply ln_increasing; [lra|]. apply (Rmult_lt_reg_r (1 - e)); [lra|]. rewrite Rinv_l by lra. nra. }
  apply Rabs_le. lra.
Qed.
Print Assumptions C93_depth_error.

Lemma depth_errors_bound : forall A rel s e, 0 <= e < 1 -> Forall nonneg A -> nonneg s ->
  Forall2 (fun row v => 1 / 10000000000 <= exp (- rdot row s) /\ Rabs (v - exp (- rdot row s)) <= e * exp (- rdot row s)) A rel ->
  depth_errors A rel s <= INR (length A) * (ln (1 - e) * ln (1 - e)).
Proof.
  intros A rel s e He HA Ns H. unfold depth_errors, mul. induction H as [|row v A rel (H1 & H2) F IH]; [simpl; lra|].
  inversion HA as [|? ? A1 A2]; subst. specialize (IH A2). cbn [map sq_dist]. change (length (row :: A)) with (S (length A)). rewrite S_INR.
  pose proof (C93_depth_error v (rdot row s) e He (rdot_nonneg row s A1 Ns) H1 H2) as D.
  assert (Q : (rdot row s - optical_depth v) * (rdot row s - optical_depth v) <= ln (1 - e) * ln (1 - e)).
  { pose proof (Rle_abs (optical_depth v - rdot row s)) as Q1. pose proof (Rle_abs (- (optical_depth v - rdot row s))) as Q2. rewrite Rabs_Ropp in Q2.
    set (a := rdot row s - optical_depth v) in *. set (l := ln (1 - e)) in *. assert (X : 0 <= (- l - a) * (- l + a)) by (apply Rmult_le_pos; unfold a; lra).
    replace ((- l - a) * (- l + a)) with (l * l - a * a) in X by ring. lra. }
  lra.
Qed.

(** Together: a profile which is linear in height, at least three layers, and
    every intensity within the relative error [e]. *)
Theorem C93_noisy_profiles : forall nnls lambda n A rel s c e, 0 <= lambda -> (3 <= n)%nat -> Forall nonneg A ->
  length s = n -> nonneg s -> progression s ->
  0 < c -> (forall z, length z = n -> c * sq_norm z <= sq_norm (mul A z)) ->
  0 <= e < 1 ->
  Forall2 (fun row v => 1 / 10000000000 <= exp (- rdot row s) /\ Rabs (v - exp (- rdot row s)) <= e * exp (- rdot row s)) A rel ->
  nnls_solution n (a_aug lambda n A) (b_aug n rel) (nnls (a_aug lambda n A) (b_aug n rel)) ->
  sq_dist (linear_coefficients nnls lambda n A rel) s <= 4 * INR (length A) * (ln (1 - e) * ln (1 - e)) / c.
Proof.
  intros nnls lambda n A rel s c e Hl Hn HA Ls Ns Pr Hc Hz He F Sol.
  pose proof (C93_coefficient_error nnls lambda n A rel s c Hl (eq_sym (Forall2_len _ _ _ F)) Ls Ns Hc Hz Sol) as E.
  pose proof (depth_errors_bound A rel s e He HA Ns F) as D.
  assert (P : penalty s = 0). { unfold penalty. rewrite Ls. replace (3 <=? n)%nat with true by (symmetry; apply Nat.leb_le; exact Hn). apply progression_roughness. exact Pr. }
  rewrite P in E. eapply Rle_trans; [exact E|]. unfold Rdiv. apply Rmult_le_compat_r; [left; apply Rinv_0_lt_compat; exact Hc|]. lra.
Qed.
Print Assumptions C93_noisy_profiles.

(** Each coefficient alone. *)
Theorem C93_each_coefficient : forall a b k x y t, sq_dist a b <= t * t -> 0 <= t ->
  nth_error a k = Some x -> nth_error b k = Some y -> Rabs (x - y) <= t.
Proof.
  intros a b k x y t H Ht Ha Hb. assert (Q : (x - y) * (x - y) <= t * t).
  { eapply Rle_trans; [|exact H]. clear H. revert b k Ha Hb. induction a as [|u a IH]; intros [|w b] [|k] Ha Hb; try discriminate; cbn [nth_error sq_dist] in *.
    - apply Some_inj in Ha, Hb. subst. pose proof (sq_dist_nonneg a b). lra.
    - pose proof (IH b k Ha Hb). pose proof (Rle_0_sqr (u - w)) as S. unfold Rsqr in S. lra. }
  rewrite <- (Rabs_pos_eq t) by exact Ht. apply Rsqr_le_abs_0. exact Q.
Qed.
Print Assumptions C93_each_coefficient.

(** Three LEDs, each behind one layer; the true coefficients are all [ln 2], so
    half the light remains; measured are 0.45, 0.5 and 0.55. *)
Definition st_A : matrix := [[1; 0; 0]; [0; 1; 0]; [0; 0; 1]].
Definition st_s : vec := [ln 2; ln 2; ln 2].
Definition st_rel : vec := [9 / 20; 1 / 2; 11 / 20].
Definition st_x : vec := map optical_depth st_rel.
Example C93_example :
  Forall nonneg st_A /\ nonneg st_s /\ progression st_s /\
  (forall z, length z = 3%nat -> 1 * sq_norm z <= sq_norm (mul st_A z)) /\
  Forall2 (fun row v => 1 / 10000000000 <= exp (- rdot row st_s) /\ Rabs (v - exp (- rdot row st_s)) <= 1 / 10 * exp (- rdot row st_s)) st_A st_rel /\
  nnls_solution 3 (a_aug 0 3 st_A) (b_aug 3 st_rel) st_x /\ st_x <> st_s.
Proof.
  assert (L : 0 < ln 2) by (rewrite <- ln_1; apply ln_increasing; lra).
  assert (X : exp (- ln 2) = 1 / 2) by (rewrite exp_Ropp, exp_ln by lra; lra).
  split; [unfold nonneg; repeat (constructor; [repeat (constructor; [lra|]); constructor|]); constructor|].
  split; [unfold nonneg, st_s; repeat (constructor; [lra|]); constructor|].
  split; [exists (ln 2), 0; unfold st_s; cbn [length seq map]; repeat f_equal; lra|].
  split; [|split; [|split]].
  - intros z Hz. destruct z as [|a [|b [|c [|d z]]]]; try discriminate. unfold mul, st_A. cbn [map rdot sq_norm]. right. ring.
  - assert (R : forall row, In row st_A -> rdot row st_s = ln 2) by (intros row [<-|[<-|[<-|[]]]]; unfold st_s; cbn [rdot]; lra).
    unfold st_A, st_rel. repeat (constructor; [rewrite R by (unfold st_A; simpl; tauto); rewrite X; split; [lra|apply Rabs_le; lra]|]). constructor.
  - split; [reflexivity|]. split.
    + unfold st_x, nonneg. apply Forall_forall. intros v Hv. apply in_map_iff in Hv. destruct Hv as (u & <- & _). apply C38_optical_depth.
    + intros y Hy Ny. rewrite (C38_augmented_system_is_the_objective 0 3 st_A st_rel st_x ltac:(lra) eq_refl eq_refl).
      unfold objective. assert (M : mul st_A st_x = map optical_depth st_rel) by (unfold mul, st_A, st_x, st_rel; cbn [map rdot]; repeat f_equal; lra).
      rewrite M, sq_dist_refl. pose proof (sq_dist_nonneg (mul (a_aug 0 3 st_A) y) (b_aug 3 st_rel)). lra.
  - intros E. unfold st_x, st_s, st_rel in E. cbn [map] in E. injection E as E _ _. pose proof (C38_optical_depth (9 / 20)) as (D & _). rewrite E, X in D. lra.
Qed.
