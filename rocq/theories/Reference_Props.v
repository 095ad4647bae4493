(** C140: smoke in the reference photographs. *)
From Coq Require Import List ZArith Lia Bool Reals Lra.
From Verif Require Import Base Solver_Model Solver_Props Stable_Props Nnls_Props End_Props Units_Props Amount_Props Ground_Props.
Import ListNotations.
Local Open Scope R_scope.

(** ** Specification *)

(** What a camera sees of an LED of brightness [b] behind smoke with the coefficients [s]; [row]: the lengths
    of the line of sight in the layers. *)
Definition seen (b : R) (row s : vec) : R := b * exp (- rdot row s).

(** Photographs in the smoke [s], divided by the reference photographs in the smoke [y]. *)
Definition against (bs : vec) (A : matrix) (s y : vec) : vec := map (fun p : R * vec => seen (fst p) (snd p) s / seen (fst p) (snd p) y) (combine bs A).

(** ** Quotients *)
Lemma against_beer_lambert : forall A bs s y, length bs = length A -> Forall (fun b => 0 < b) bs -> length s = length y -> against bs A s y = beer_lambert A (vsub s y).
Proof.
  unfold against, beer_lambert. induction A as [|row A IH]; intros bs s y L P Ls; destruct bs as [|b bs]; try discriminate; [reflexivity|]. inversion P as [|? ? P1 P2]; subst. cbn [combine map fst snd]. rewrite (IH bs s y) by (try assumption; simpl in L; lia).
  f_equal. unfold seen. rewrite rdot_vsub by exact Ls. replace (- (rdot row s - rdot row y)) with (- rdot row s + - - rdot row y) by ring. rewrite exp_plus, (exp_Ropp (- rdot row y)). pose proof (exp_pos (- rdot row y)). field. lra.
Qed.

Lemma vsub_nonneg : forall y s, Forall2 Rle y s -> nonneg (vsub s y).
Proof. intros y s H. induction H as [|a b y s H F IH]; [constructor|]. cbn [vsub]. constructor; [lra|exact IH]. Qed.

Lemma sq_dist_0 : forall x y, length x = length y -> sq_dist x y <= 0 -> x = y.
Proof.
  induction x as [|a x IH]; intros [|b y] L H; try discriminate; [reflexivity|]. cbn [sq_dist] in H.
  assert (P : 0 <= sq_dist x y) by (rewrite sq_dist_vsub; apply sq_norm_pos). pose proof (Rle_0_sqr (a - b)) as Q. unfold Rsqr in Q.
  rewrite (IH y) by (try (simpl in L; lia); lra). f_equal. assert ((a - b) * (a - b) = 0) as E by lra. apply Rmult_integral in E. lra.
Qed.

Lemma separates_full_rank : forall n A, separates n A -> full_rank n A.
Proof.
  intros n A (c & Hc & H) x y Lx Ly E. apply sq_dist_0; [congruence|]. rewrite sq_dist_vsub. specialize (H (vsub x y) ltac:(rewrite vsub_length; congruence)).
  rewrite mul_vsub in H by congruence. rewrite E, sq_dist_refl in H. pose proof (sq_norm_pos (vsub x y)). destruct (Rle_lt_or_eq_dec 0 (sq_norm (vsub x y)) H0) as [P|P]; [|lra].
  pose proof (Rmult_lt_0_compat _ _ Hc P). lra.
Qed.

(** More smoke than in the reference photographs: reported is the difference. *)
Theorem C140_difference_is_reported : forall nnls n A bs s y, nnls_contract nnls -> rows_ok n A -> Forall nonneg A -> separates n A -> length bs = length A -> Forall (fun b => 0 < b) bs ->
  length s = n -> Forall2 Rle y s -> Forall (fun row => rdot row s - rdot row y <= ln 10000000000) A ->
  linear_coefficients nnls 0 n A (against bs A s y) = vsub s y.
Proof.
  intros nnls n A bs s y Hn HR HA HS Lb Pb Ls Hle Hd. assert (Ly : length y = length s) by (clear - Hle; induction Hle; cbn; congruence).
  rewrite against_beer_lambert by (try assumption; congruence). apply C40_no_regularisation_recovers_everything; [exact HR|exact HA|apply vsub_nonneg; exact Hle|rewrite vsub_length; congruence|apply separates_full_rank; exact HS| |].
  - unfold beer_lambert. apply Forall_map. eapply Forall_impl; [|exact Hd]. intros row H. cbn beta. rewrite rdot_vsub by congruence.
    replace (1 / 10000000000) with (exp (- ln 10000000000)) by (rewrite exp_Ropp, exp_ln by lra; lra). destruct (Req_dec (rdot row s - rdot row y) (ln 10000000000)) as [->|N]; [lra|]. left. apply exp_increasing. lra.
  - apply Hn; [apply rows_ok_aug; exact HR|apply aug_length; unfold beer_lambert; apply map_length|apply separates_aug; exact HS].
Qed.
Print Assumptions C140_difference_is_reported.

(** Less smoke than in the reference photographs: no smoke is reported, with any regularisation. *)
Theorem C140_less_smoke_is_none : forall nnls lambda n A bs s y, nnls_contract nnls -> rows_ok n A -> Forall nonneg A -> separates n A -> length bs = length A -> Forall (fun b => 0 < b) bs ->
  length s = n -> Forall2 Rle s y ->
  linear_coefficients nnls lambda n A (against bs A s y) = repeat 0 n.
Proof.
  intros nnls lambda n A bs s y Hn HR HA HS Lb Pb Ls Hle. assert (Ly : length y = length s) by (clear - Hle; induction Hle; cbn; congruence).
  rewrite against_beer_lambert by (try assumption; congruence). set (rel := beer_lambert A (vsub s y)). assert (L : length rel = length A) by (apply map_length).
  assert (D : map optical_depth rel = repeat 0 (length A)).
  { unfold rel, beer_lambert. clear - HA Hle Ly. induction HA as [|row A H F IH]; [reflexivity|]. cbn [map length repeat]. rewrite IH. f_equal. apply (C38_optical_depth (exp (- rdot row (vsub s y)))).
    rewrite rdot_vsub by congruence. pose proof (rdot_le row s y H Hle) as Q. rewrite <- exp_0. destruct (Req_dec (rdot row s) (rdot row y)) as [->|N]; [right; f_equal; lra|left; apply exp_increasing; lra]. }
  apply (C93_solutions_are_unique n (a_aug lambda n A) (b_aug n rel)); [apply aug_length; exact L|apply separates_aug; exact HS|apply Hn; [apply rows_ok_aug; exact HR|apply aug_length; exact L|apply separates_aug; exact HS]|].
  split; [apply repeat_length|]. split; [apply Forall_forall; intros v Hv; apply repeat_spec in Hv; lra|]. intros z _ _.
  assert (E : b_aug n rel = mul (a_aug lambda n A) (repeat 0 n)).
  { unfold b_aug, a_aug, mul. rewrite D, map_app. f_equal.
    - clear. induction A as [|row A IH]; [reflexivity|]. cbn [length repeat map]. rewrite rdot_zeros, IH. reflexivity.
    - rewrite map_map. generalize (reg_matrix n). intros l. induction l as [|q l IH]; [reflexivity|]. cbn [length repeat map]. rewrite rdot_zeros, IH. reflexivity. }
  rewrite E at 1. rewrite sq_dist_refl. rewrite sq_dist_vsub. apply sq_norm_pos.
Qed.
Print Assumptions C140_less_smoke_is_none.

Lemma one_row : rows_ok 1 [[1]] /\ Forall nonneg [[1]] /\ separates 1 [[1]].
Proof.
  split; [repeat constructor|]. split; [constructor; [constructor; [lra|constructor]|constructor]|]. exists 1. split; [lra|]. intros z Hz. destruct z as [|a [|? ?]]; try discriminate. cbn [mul map rdot sq_norm]. pose proof (Rle_0_sqr a) as P. unfold Rsqr in P. lra.
Qed.

(** References behind smoke with the coefficient 1, the photograph behind 3: reported is 2. *)
Example C140_example : forall nnls, nnls_contract nnls -> linear_coefficients nnls 0 1 [[1]] (against [5] [[1]] [3] [1]) = [2].
Proof.
  intros nnls Hn. destruct one_row as (R1 & R2 & R3). rewrite (C140_difference_is_reported nnls 1 [[1]] [5] [3] [1]); try assumption; try reflexivity.
  - cbn [vsub]. f_equal. lra.
  - constructor; [lra|constructor].
  - constructor; [lra|constructor].
  - constructor; [|constructor]. cbn [rdot]. assert (2 <= ln 10000000000); [|lra]. replace 2 with (ln (exp 2)) by apply ln_exp. left. apply ln_increasing; [apply exp_pos|].
    replace 2 with (1 + 1) by ring. rewrite exp_plus. pose proof exp_le_3. pose proof (exp_pos 1). nra.
Qed.

(** Smoke that is there from the first reference photograph on is never seen. *)
Theorem C140_steady_smoke_refuted : exists A bs s, nonneg s /\ Forall (fun v => 0 < v) s /\
  (forall nnls lambda, nnls_contract nnls -> linear_coefficients nnls lambda 1 A (against bs A s s) = [0]) /\
  (forall nnls, nnls_contract nnls -> linear_coefficients nnls 0 1 A (against bs A s [0]) = s).
Proof.
  exists [[1]], [5], [2]. destruct one_row as (R1 & R2 & R3). split; [constructor; [lra|constructor]|]. split; [constructor; [lra|constructor]|]. split.
  - intros nnls lambda Hn. apply (C140_less_smoke_is_none nnls lambda 1 [[1]] [5] [2] [2]); try assumption; try reflexivity; constructor; try lra; constructor.
  - intros nnls Hn. rewrite (C140_difference_is_reported nnls 1 [[1]] [5] [2] [0]); try assumption; try reflexivity.
    + cbn [vsub]. f_equal. lra.
    + constructor; [lra|constructor].
    + constructor; [lra|constructor].
    + constructor; [|constructor]. cbn [rdot]. assert (2 <= ln 10000000000); [|lra]. replace 2 with (ln (exp 2)) by apply ln_exp. left. apply ln_increasing; [apply exp_pos|].
      replace 2 with (1 + 1) by ring. rewrite exp_plus. pose proof exp_le_3. pose proof (exp_pos 1). nra.
Qed.
Print Assumptions C140_steady_smoke_refuted.
