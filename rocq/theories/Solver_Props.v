(** C38-C42 and the start-dependence part of C43. *)
From Coq Require Import List Arith Lia Reals Lra Psatz.
From Verif Require Import Base Solver_Model.
Import ListNotations.
Local Open Scope R_scope.

(** ** Specification *)

(** Sum of squared deviations. *)
Fixpoint sq_dist (a b : vec) : R :=
  match a, b with x :: a', y :: b' => (x - y) * (x - y) + sq_dist a' b' | _, _ => 0 end.

(** Sum of squared second differences. *)
Fixpoint roughness (x : vec) : R :=
  match x with
  | a :: ((b :: c :: _) as x') => (a - 2 * b + c) * (a - 2 * b + c) + roughness x'
  | _ => 0
  end.

Fixpoint sq_norm (x : vec) : R := match x with [] => 0 | a :: x' => a * a + sq_norm x' end.

(** Penalty: roughness for three or more layers, otherwise size. *)
Definition penalty (x : vec) : R := if (3 <=? length x)%nat then roughness x else sq_norm x.

(** The regularised least squares functional. *)
Definition objective (lambda : R) (A : matrix) (b x : vec) : R := sq_dist (mul A x) b + lambda * penalty x.

Definition nonneg (x : vec) : Prop := Forall (fun v => 0 <= v) x.

(** Contract of [scipy.optimize.nnls] at one input: a minimiser among the
    non-negative vectors. *)
Definition nnls_solution (n : nat) (M : matrix) (v x : vec) : Prop :=
  length x = n /\ nonneg x /\ forall y, length y = n -> nonneg y -> sq_dist (mul M x) v <= sq_dist (mul M y) v.

(** A distance matrix with [n] layers. *)
Definition rows_ok (n : nat) (A : matrix) : Prop := Forall (fun r => length r = n) A.

Definition full_rank (n : nat) (A : matrix) : Prop :=
  forall x y, length x = n -> length y = n -> mul A x = mul A y -> x = y.

(** Arithmetic progression. *)
Definition progression (x : vec) : Prop := exists a d, x = map (fun i => a + INR i * d) (seq 0 (length x)).

(** ** Lemmas *)
Lemma sq_dist_app : forall a b a' b', length a = length b -> sq_dist (a ++ a') (b ++ b') = sq_dist a b + sq_dist a' b'.
Proof.
  induction a as [|x a IH]; intros [|y b] a' b' H; try discriminate; cbn [app sq_dist]; [lra|]. rewrite IH by (simpl in H; lia). lra.
Qed.

Lemma sq_dist_nonneg : forall a b, 0 <= sq_dist a b.
Proof. induction a as [|x a IH]; intros [|y b]; cbn [sq_dist]; try lra. pose proof (IH b). pose proof (Rle_0_sqr (x - y)). unfold Rsqr in *. lra. Qed.

Lemma sq_dist_refl : forall a, sq_dist a a = 0.
Proof. induction a as [|x a IH]; cbn [sq_dist]; [lra|]. rewrite IH. lra. Qed.

Lemma sq_dist_0 : forall a b, length a = length b -> sq_dist a b = 0 -> a = b.
Proof.
  induction a as [|x a IH]; intros [|y b] H E; try discriminate; [reflexivity|]. cbn [sq_dist] in E.
  pose proof (sq_dist_nonneg a b). pose proof (Rle_0_sqr (x - y)) as Q. unfold Rsqr in Q.
  assert (D : (x - y) * (x - y) = 0) by lra. apply Rmult_integral in D. f_equal; [lra|]. apply IH; [simpl in H; lia|lra].
Qed.

Lemma roughness_nonneg : forall x, 0 <= roughness x.
Proof.
  induction x as [|a x IH]; cbn [roughness]; [lra|]. destruct x as [|b [|c x]]; try lra.
  pose proof (Rle_0_sqr (a - 2 * b + c)) as Q. unfold Rsqr in Q. change (roughness (b :: c :: x)) with (roughness (b :: c :: x)) in IH. lra.
Qed.

Lemma sq_norm_nonneg : forall x, 0 <= sq_norm x.
Proof. induction x as [|a x IH]; cbn [sq_norm]; [lra|]. pose proof (Rle_0_sqr a) as Q. unfold Rsqr in Q. lra. Qed.

Lemma penalty_nonneg : forall x, 0 <= penalty x.
Proof. intros x. unfold penalty. destruct (3 <=? length x)%nat; [apply roughness_nonneg|apply sq_norm_nonneg]. Qed.

Lemma rdot_scale : forall k a x, rdot (map (Rmult k) a) x = k * rdot a x.
Proof. induction a as [|y a IH]; intros [|z x]; cbn [map rdot]; try lra. rewrite IH. lra. Qed.

Lemma rdot_0 : forall (f : nat -> R) l x, (forall j, In j l -> f j = 0) -> rdot (map f l) x = 0.
Proof.
  intros f l. induction l as [|j l IH]; intros [|z x] H; cbn [map rdot]; try lra. rewrite (H j (or_introl eq_refl)), IH; [lra|]. intros k Hk. apply H. right. exact Hk.
Qed.

Lemma rdot_shift : forall (f : nat -> R) n k x, rdot (map f (seq (S k) n)) x = rdot (map (fun j => f (S j)) (seq k n)) x.
Proof. intros. rewrite <- seq_shift, map_map. reflexivity. Qed.

Lemma rdot_ext : forall (f g : nat -> R) l x, (forall j, In j l -> f j = g j) -> rdot (map f l) x = rdot (map g l) x.
Proof. intros f g l x H. f_equal. apply map_ext_in. exact H. Qed.

Lemma diff_row_S : forall n i a x, rdot (diff_row (S n) (S i)) (a :: x) = rdot (diff_row n i) x.
Proof. intros n i a x. unfold diff_row. cbn [seq map rdot]. change (0 =? S i + 1)%nat with false. change (0 =? S i + 2)%nat with false. cbn [Nat.eqb]. rewrite rdot_shift. rewrite Rmult_0_l, Rplus_0_l. reflexivity. Qed.

Lemma diff_row_0 : forall n a b c x, rdot (diff_row (S (S (S n))) 0) (a :: b :: c :: x) = a - 2 * b + c.
Proof.
  intros n a b c x. unfold diff_row. cbn [seq map rdot Nat.eqb Nat.add].
  rewrite rdot_0; [lra|]. intros j Hj. apply in_seq in Hj. destruct j as [|[|[|j]]]; try lia. reflexivity.
Qed.

Lemma unit_row_S : forall n i a x, rdot (unit_row (S n) (S i)) (a :: x) = rdot (unit_row n i) x.
Proof. intros. unfold unit_row. cbn [seq map rdot Nat.eqb]. rewrite rdot_shift, Rmult_0_l, Rplus_0_l. reflexivity. Qed.

Lemma unit_row_0 : forall n a x, rdot (unit_row (S n) 0) (a :: x) = a.
Proof. intros. unfold unit_row. cbn [seq map rdot Nat.eqb]. rewrite rdot_0; [lra|]. intros j Hj. apply in_seq in Hj. destruct j; [lia|reflexivity]. Qed.

Lemma sq_dist_zeros : forall (l : list vec) x k, sq_dist (mul (map (map (Rmult k)) l) x) (repeat 0 (length l)) = k * k * rsum (map (fun r => Rsqr (rdot r x)) l).
Proof.
  intros l x k. unfold mul. induction l as [|r l IH]; cbn [map length repeat sq_dist rsum]; [lra|]. rewrite IH, rdot_scale. unfold Rsqr. lra.
Qed.

Lemma diff_rows_roughness : forall n x, length x = n -> (3 <= n)%nat ->
  rsum (map (fun i => Rsqr (rdot (diff_row n i) x)) (seq 0 (n - 2))) = roughness x.
Proof.
  intros n. induction n as [|n IH]; intros x Hx Hn; [lia|]. destruct x as [|a [|b [|c x]]]; simpl in Hx; try lia.
  replace (S n - 2)%nat with (S (n - 2)) by lia. cbn [seq map rsum]. rewrite <- seq_shift, map_map.
  replace (S n) with (S (S (S (length x)))) at 1 by lia. rewrite diff_row_0. change (roughness (a :: b :: c :: x)) with ((a - 2 * b + c) * (a - 2 * b + c) + roughness (b :: c :: x)).
  f_equal. erewrite map_ext; [|intros i; rewrite diff_row_S; reflexivity].
  destruct (le_lt_dec 3 n) as [L|L]; [apply IH; simpl; lia|]. replace (n - 2)%nat with 0%nat by lia. destruct x; [reflexivity|simpl in Hx; lia].
Qed.

Lemma unit_rows_norm : forall n x, length x = n -> rsum (map (fun i => Rsqr (rdot (unit_row n i) x)) (seq 0 n)) = sq_norm x.
Proof.
  induction n as [|n IH]; intros [|a x] H; try discriminate; [reflexivity|]. cbn [seq map rsum sq_norm]. rewrite unit_row_0. unfold Rsqr at 1. f_equal.
  rewrite <- seq_shift, map_map. erewrite map_ext; [|intros i; rewrite unit_row_S; reflexivity]. apply IH. simpl in H. lia.
Qed.

Lemma aug_objective : forall lambda n A b x, 0 <= lambda -> length b = length A -> length x = n ->
  sq_dist (mul (a_aug lambda n A) x) (b ++ repeat 0 (length (reg_matrix n))) = objective lambda A b x.
Proof.
  intros lambda n A b x Hl Hb Hx. unfold a_aug, mul. rewrite map_app. rewrite sq_dist_app by (rewrite map_length; lia).
  unfold objective, mul. f_equal. pose proof (sq_dist_zeros (reg_matrix n) x (sqrt lambda)) as Z. unfold mul in Z. etransitivity; [exact Z|]. rewrite sqrt_sqrt by exact Hl. f_equal.
  unfold reg_matrix, penalty. rewrite Hx. destruct (3 <=? n)%nat eqn:E; rewrite map_map.
  - apply Nat.leb_le in E. apply diff_rows_roughness; assumption.
  - apply unit_rows_norm. exact Hx.
Qed.

(** ** C38 *)
Theorem C38_augmented_system_is_the_objective : forall lambda n A rel x, 0 <= lambda -> length rel = length A -> length x = n ->
  sq_dist (mul (a_aug lambda n A) x) (b_aug n rel) = objective lambda A (map optical_depth rel) x.
Proof. intros. unfold b_aug. apply aug_objective; [assumption|rewrite map_length; assumption|assumption]. Qed.
Print Assumptions C38_augmented_system_is_the_objective.

(** Optical depth: the logarithm of the intensity, between its limits. *)
Theorem C38_optical_depth : forall v,
  (1 / 10000000000 <= v <= 1 -> exp (- optical_depth v) = v) /\
  (1 <= v -> optical_depth v = 0) /\
  (v <= 1 / 10000000000 -> exp (- optical_depth v) = 1 / 10000000000) /\
  0 <= optical_depth v.
Proof.
  intros v. unfold optical_depth. rewrite !Ropp_involutive.
  assert (P : 0 < clip_rel v) by (unfold clip_rel, Rmin, Rmax; destruct (Rle_dec v _); destruct (Rle_dec _ 1); lra).
  assert (Q : clip_rel v <= 1) by (unfold clip_rel; apply Rmin_r).
  rewrite exp_ln by exact P. split; [|split; [|split]].
  - intros H. unfold clip_rel. rewrite Rmax_left by lra. apply Rmin_left. lra.
  - intros H. unfold clip_rel. rewrite Rmax_left by lra. rewrite Rmin_right by lra. rewrite ln_1. lra.
  - intros H. unfold clip_rel. rewrite Rmax_right by lra. apply Rmin_left. lra.
  - destruct (Rle_lt_or_eq_dec _ _ Q) as [L|E]; [|rewrite E, ln_1; lra]. apply ln_lt_0 in L || (pose proof (ln_increasing _ _ P L) as D; rewrite ln_1 in D; lra). 
Qed.
Print Assumptions C38_optical_depth.

Theorem C38_coefficients_minimise_the_objective : forall nnls lambda n A rel, 0 <= lambda -> length rel = length A ->
  nnls_solution n (a_aug lambda n A) (b_aug n rel) (nnls (a_aug lambda n A) (b_aug n rel)) ->
  let x := linear_coefficients nnls lambda n A rel in
  length x = n /\ nonneg x /\
  forall y, length y = n -> nonneg y -> objective lambda A (map optical_depth rel) x <= objective lambda A (map optical_depth rel) y.
Proof.
  intros nnls lambda n A rel Hl Hr (S1 & S2 & S3) x. split; [exact S1|]. split; [exact S2|]. intros y Hy Ny.
  rewrite <- !(C38_augmented_system_is_the_objective lambda n) by assumption. apply S3; assumption.
Qed.
Print Assumptions C38_coefficients_minimise_the_objective.

(** ** C39 *)
Lemma rdot_zeros : forall r n, rdot r (repeat 0 n) = 0.
Proof. induction r as [|a r IH]; intros [|n]; cbn [repeat rdot]; try lra. rewrite IH. lra. Qed.

Lemma roughness_zeros : forall n, roughness (repeat 0 n) = 0.
Proof. intros n. induction n as [|n IH]; [reflexivity|]. destruct n as [|[|n]]; cbn [repeat roughness] in *; lra. Qed.

Lemma penalty_zeros : forall n, penalty (repeat 0 n) = 0.
Proof.
  intros n. unfold penalty. match goal with |- context [if ?b then _ else _] => destruct b end; [apply roughness_zeros|]. induction n as [|n IH]; cbn [repeat sq_norm]; lra.
Qed.

Lemma objective_nonneg : forall lambda A b x, 0 <= lambda -> 0 <= objective lambda A b x.
Proof. intros. unfold objective. pose proof (sq_dist_nonneg (mul A x) b). pose proof (Rmult_le_pos _ _ H (penalty_nonneg x)). lra. Qed.

(** A solution reaches objective 0 if that is possible. *)
Lemma solution_fits : forall nnls lambda n A rel s, 0 <= lambda -> length rel = length A ->
  nnls_solution n (a_aug lambda n A) (b_aug n rel) (nnls (a_aug lambda n A) (b_aug n rel)) ->
  length s = n -> nonneg s -> objective lambda A (map optical_depth rel) s = 0 ->
  mul A (linear_coefficients nnls lambda n A rel) = map optical_depth rel.
Proof.
  intros nnls lambda n A rel s Hl Hr Hs Ls Ns Os.
  destruct (C38_coefficients_minimise_the_objective nnls lambda n A rel Hl Hr Hs) as (_ & _ & M). set (x := linear_coefficients nnls lambda n A rel) in *.
  specialize (M s Ls Ns). rewrite Os in M. pose proof (sq_dist_nonneg (mul A x) (map optical_depth rel)) as P1.
  pose proof (Rmult_le_pos _ _ Hl (penalty_nonneg x)) as P2. unfold objective in M.
  apply sq_dist_0; [unfold mul; rewrite !map_length; lia|lra].
Qed.

Lemma rdot_nonneg : forall r x, nonneg r -> nonneg x -> 0 <= rdot r x.
Proof.
  induction r as [|a r IH]; intros [|y x] Hr Hx; cbn [rdot]; try lra. inversion Hr; inversion Hx; subst. pose proof (IH x ltac:(assumption) ltac:(assumption)).
  pose proof (Rmult_le_pos a y ltac:(assumption) ltac:(assumption)). lra.
Qed.

Lemma rdot_zero_entry : forall r x k d v, nonneg r -> nonneg x -> rdot r x = 0 -> nth_error r k = Some d -> nth_error x k = Some v -> 0 < d -> v = 0.
Proof.
  induction r as [|a r IH]; intros x k d v Hr Hx E H1 H2 Hd; [destruct k; discriminate|]. destruct x as [|y x]; [destruct k; discriminate|].
  inversion Hr as [|? ? R1 R2]; inversion Hx as [|? ? X1 X2]; subst. cbn [rdot] in E. pose proof (rdot_nonneg r x R2 X2) as P. pose proof (Rmult_le_pos a y R1 X1) as Q.
  destruct k as [|k]; cbn [nth_error] in *.
  - apply Some_inj in H1, H2. subst. assert (Z : d * v = 0) by lra. apply Rmult_integral in Z. lra.
  - apply (IH x k d v); try assumption. lra.
Qed.

Lemma zeros_nonneg : forall n, nonneg (repeat 0 n).
Proof. intros n. unfold nonneg. induction n; cbn [repeat]; constructor; [lra|assumption]. Qed.

Theorem C39_no_smoke_no_extinction : forall nnls lambda n A rel, 0 <= lambda -> length rel = length A ->
  Forall nonneg A -> Forall (fun v => 1 <= v) rel ->
  nnls_solution n (a_aug lambda n A) (b_aug n rel) (nnls (a_aug lambda n A) (b_aug n rel)) ->
  forall k row d v, In row A -> nth_error row k = Some d -> 0 < d ->
    nth_error (linear_coefficients nnls lambda n A rel) k = Some v -> v = 0.
Proof.
  intros nnls lambda n A rel Hl Hr Ha Hrel Hs k row d v Hin Hd Dp Hv.
  assert (B : map optical_depth rel = repeat 0 (length A)).
  { rewrite <- Hr. clear - Hrel. induction Hrel as [|v rel H F IH]; [reflexivity|]. cbn [map length repeat]. rewrite IH. f_equal. apply (C38_optical_depth v). exact H. }
  assert (Fit := solution_fits nnls lambda n A rel (repeat 0 n) Hl Hr Hs (repeat_length _ _) (zeros_nonneg n)).
  destruct (C38_coefficients_minimise_the_objective nnls lambda n A rel Hl Hr Hs) as (_ & Nx & _).
  rewrite B in Fit. assert (Fit' : mul A (linear_coefficients nnls lambda n A rel) = repeat 0 (length A)).
  { apply Fit. unfold objective. rewrite penalty_zeros.
    assert (M : mul A (repeat 0 n) = repeat 0 (length A)) by (clear; unfold mul; induction A as [|r A IH]; [reflexivity|]; cbn [map length repeat]; rewrite rdot_zeros, IH; reflexivity).
    rewrite M, sq_dist_refl. lra. }
  assert (E : rdot row (linear_coefficients nnls lambda n A rel) = 0).
  { unfold mul in Fit'. apply (in_map (fun r => rdot r (linear_coefficients nnls lambda n A rel))) in Hin. rewrite Fit' in Hin. apply repeat_spec in Hin. exact Hin. }
  rewrite Forall_forall in Ha. eapply rdot_zero_entry; [apply (Ha row Hin)|exact Nx|exact E|exact Hd|exact Hv|exact Dp].
Qed.
Print Assumptions C39_no_smoke_no_extinction.

(** ** C40 *)
Lemma progression_roughness_from : forall a d n k, roughness (map (fun i => a + INR i * d) (seq k n)) = 0.
Proof.
  intros a d n. induction n as [|n IH]; intros k; [reflexivity|]. specialize (IH (S k)). cbn [seq map]. destruct n as [|[|n]]; [reflexivity|reflexivity|].
  cbn [seq map] in *. change (roughness (?a :: ?b :: ?c :: ?x)) with ((a - 2 * b + c) * (a - 2 * b + c) + roughness (b :: c :: x)). cbn [roughness] in *. rewrite IH.
  rewrite !S_INR. replace (a + INR k * d - 2 * (a + (INR k + 1) * d) + (a + (INR k + 1 + 1) * d)) with 0 by ring. lra.
Qed.

Lemma progression_roughness : forall x, progression x -> roughness x = 0.
Proof. intros x (a & d & ->). apply progression_roughness_from. Qed.

(** Beer-Lambert: the intensities produced by the coefficients [s]. *)
Definition beer_lambert (A : matrix) (s : vec) : vec := map (fun row => exp (- rdot row s)) A.

Lemma exact_depths : forall A s, Forall nonneg A -> nonneg s -> Forall (fun v => 1 / 10000000000 <= v) (beer_lambert A s) ->
  map optical_depth (beer_lambert A s) = mul A s.
Proof.
  intros A s HA Hs Hv. unfold beer_lambert, mul in *. rewrite map_map. apply map_ext_in. intros r Hr.
  assert (L : 1 / 10000000000 <= exp (- rdot r s)). { rewrite Forall_forall in Hv. apply Hv. apply (in_map (fun row => exp (- rdot row s))). exact Hr. }
  rewrite Forall_forall in HA. pose proof (rdot_nonneg r s (HA r Hr) Hs) as P.
  assert (U : exp (- rdot r s) <= 1). { rewrite <- exp_0. destruct (Rle_lt_or_eq_dec _ _ P) as [Q|Q]; [left; apply exp_increasing; lra|right; f_equal; lra]. }
  unfold optical_depth, clip_rel. rewrite Rmax_left by lra. rewrite Rmin_left by lra. rewrite ln_exp. lra.
Qed.

Theorem C40_linear_profiles_are_recovered : forall nnls lambda n A s, 0 <= lambda -> (3 <= n)%nat -> rows_ok n A ->
  Forall nonneg A -> nonneg s -> length s = n -> progression s -> full_rank n A ->
  Forall (fun v => 1 / 10000000000 <= v) (beer_lambert A s) ->
  nnls_solution n (a_aug lambda n A) (b_aug n (beer_lambert A s)) (nnls (a_aug lambda n A) (b_aug n (beer_lambert A s))) ->
  linear_coefficients nnls lambda n A (beer_lambert A s) = s.
Proof.
  intros nnls lambda n A s Hl Hn Hrows HA Hs Ls Hp Hr Hv Sol.
  assert (Lr : length (beer_lambert A s) = length A) by (unfold beer_lambert; apply map_length).
  pose proof (exact_depths A s HA Hs Hv) as D.
  assert (Fit := solution_fits nnls lambda n A (beer_lambert A s) s Hl Lr Sol Ls Hs).
  rewrite D in Fit. apply Hr; [apply Sol|exact Ls|]. apply Fit. unfold objective. rewrite sq_dist_refl. unfold penalty. rewrite Ls.
  replace (3 <=? n)%nat with true by (symmetry; apply Nat.leb_le; exact Hn). rewrite progression_roughness by exact Hp. lra.
Qed.
Print Assumptions C40_linear_profiles_are_recovered.

(** Without regularisation every profile is recovered. *)
Theorem C40_no_regularisation_recovers_everything : forall nnls n A s, rows_ok n A ->
  Forall nonneg A -> nonneg s -> length s = n -> full_rank n A ->
  Forall (fun v => 1 / 10000000000 <= v) (beer_lambert A s) ->
  nnls_solution n (a_aug 0 n A) (b_aug n (beer_lambert A s)) (nnls (a_aug 0 n A) (b_aug n (beer_lambert A s))) ->
  linear_coefficients nnls 0 n A (beer_lambert A s) = s.
Proof.
  intros nnls n A s Hrows HA Hs Ls Hr Hv Sol. assert (Lr : length (beer_lambert A s) = length A) by (unfold beer_lambert; apply map_length).
  pose proof (exact_depths A s HA Hs Hv) as D. assert (Fit := solution_fits nnls 0 n A (beer_lambert A s) s (Rle_refl 0) Lr Sol Ls Hs).
  rewrite D in Fit. apply Hr; [apply Sol|exact Ls|]. apply Fit. unfold objective. rewrite sq_dist_refl. lra.
Qed.
Print Assumptions C40_no_regularisation_recovers_everything.

(** With one or two layers the penalty is the size of the coefficients: smoke
    is never recovered exactly. *)
Lemma rdot_mult_r : forall r x k, rdot r (map (Rmult k) x) = k * rdot r x.
Proof. induction r as [|a r IH]; intros [|y x] k; cbn [map rdot]; try lra. rewrite IH. lra. Qed.

Lemma sq_norm_scale : forall k x, sq_norm (map (Rmult k) x) = k * k * sq_norm x.
Proof. induction x as [|a x IH]; cbn [map sq_norm]; [lra|]. rewrite IH. lra. Qed.

Lemma sq_dist_scaled : forall k v, sq_dist (map (Rmult k) v) v = (k - 1) * (k - 1) * sq_norm v.
Proof. induction v as [|a v IH]; cbn [map sq_dist sq_norm]; [lra|]. rewrite IH. lra. Qed.

Lemma sq_norm_pos : forall x, sq_norm x = 0 -> Forall (fun v => v = 0) x.
Proof.
  induction x as [|a x IH]; intros H; constructor; cbn [sq_norm] in H; pose proof (sq_norm_nonneg x); pose proof (Rle_0_sqr a) as Q; unfold Rsqr in Q.
  - assert (Z : a * a = 0) by lra. apply Rmult_integral in Z. lra.
  - apply IH. lra.
Qed.

Theorem C40_few_layers_are_underestimated : forall nnls lambda n A s, 0 < lambda -> (n <= 2)%nat -> rows_ok n A ->
  Forall nonneg A -> nonneg s -> length s = n -> ~ Forall (fun v => v = 0) s ->
  Forall (fun v => 1 / 10000000000 <= v) (beer_lambert A s) ->
  nnls_solution n (a_aug lambda n A) (b_aug n (beer_lambert A s)) (nnls (a_aug lambda n A) (b_aug n (beer_lambert A s))) ->
  linear_coefficients nnls lambda n A (beer_lambert A s) <> s.
Proof.
  intros nnls lambda n A s Hl Hn Hrows HA Hs Ls Nz Hv Sol C.
  assert (Lr : length (beer_lambert A s) = length A) by (unfold beer_lambert; apply map_length).
  pose proof (exact_depths A s HA Hs Hv) as D.
  destruct (C38_coefficients_minimise_the_objective nnls lambda n A (beer_lambert A s) ltac:(lra) Lr Sol) as (_ & _ & M). rewrite C, D in M.
  set (N := sq_norm (mul A s)). assert (PN : 0 <= N) by apply sq_norm_nonneg. set (S := sq_norm s).
  assert (PS : 0 < S). { destruct (Rle_lt_or_eq_dec _ _ (sq_norm_nonneg s)) as [L|E]; [exact L|]. exfalso. apply Nz. apply sq_norm_pos. symmetry. exact E. }
  (* the vector (1 - t) s with t = lambda S / (N + lambda S) *)
  set (t := lambda * S / (N + lambda * S)). assert (PL : 0 < lambda * S) by (apply Rmult_lt_0_compat; assumption).
  assert (T : 0 < t <= 1). { unfold t. split; [apply Rdiv_lt_0_compat; lra|]. apply (Rmult_le_reg_r (N + lambda * S)); [lra|]. unfold Rdiv. rewrite Rmult_assoc, Rinv_l by lra. lra. }
  specialize (M (map (Rmult (1 - t)) s)). rewrite map_length in M. specialize (M Ls).
  assert (Nn : nonneg (map (Rmult (1 - t)) s)). { unfold nonneg in *. rewrite Forall_forall in *. intros v Hv'. apply in_map_iff in Hv'. destruct Hv' as (u & <- & Hu). apply Rmult_le_pos; [lra|apply Hs; exact Hu]. }
  specialize (M Nn). unfold objective, penalty in M. rewrite map_length, Ls in M. replace (3 <=? n)%nat with false in M by (symmetry; apply Nat.leb_gt; lia).
  rewrite sq_dist_refl, sq_norm_scale in M.
  assert (E : mul A (map (Rmult (1 - t)) s) = map (Rmult (1 - t)) (mul A s)). { unfold mul. rewrite map_map. apply map_ext. intros r. apply rdot_mult_r. }
  rewrite E, sq_dist_scaled in M. fold N S in M.
  assert (F : t * (N + lambda * S) = lambda * S) by (unfold t; field; lra).
  assert (G : 0 + lambda * S <= t * t * N + (1 - t) * (1 - t) * (lambda * S)) by (replace ((1 - t - 1) * (1 - t - 1)) with (t * t) in M by ring; lra).
  (* t*t*N + (1-2t+t*t) lS = lS - 2 t lS + t (t (N + lS)) = lS - t lS *)
  assert (H : t * t * N + (1 - t) * (1 - t) * (lambda * S) = lambda * S - 2 * t * (lambda * S) + t * (t * (N + lambda * S))) by ring.
  rewrite H, F in G. assert (0 < t * (lambda * S)) by (apply Rmult_lt_0_compat; lra). lra.
Qed.
Print Assumptions C40_few_layers_are_underestimated.

(** Three layers, three LEDs; the true coefficients 1, 2, 3 solve the system. *)
Definition ex_A : matrix := [[1; 0; 0]; [1; 1; 0]; [1; 1; 1]].
Definition ex_s : vec := [1; 2; 3].
Example C40_example : 0 <= 1 / 1000 /\ rows_ok 3 ex_A /\ Forall nonneg ex_A /\ nonneg ex_s /\ progression ex_s /\ full_rank 3 ex_A /\
  Forall (fun v => 1 / 10000000000 <= v) (beer_lambert ex_A ex_s) /\
  nnls_solution 3 (a_aug (1 / 1000) 3 ex_A) (b_aug 3 (beer_lambert ex_A ex_s)) ex_s.
Proof.
  assert (HA : Forall nonneg ex_A) by (unfold nonneg; repeat (constructor; [repeat (constructor; [lra|]); constructor|]); constructor).
  assert (Hs : nonneg ex_s) by (unfold nonneg, ex_s; repeat (constructor; [lra|]); constructor).
  assert (Hp : progression ex_s) by (exists 1, 1; unfold ex_s; simpl; repeat f_equal; lra).
  assert (Hv : Forall (fun v => 1 / 10000000000 <= v) (beer_lambert ex_A ex_s)).
  { assert (E6 : 1 / 10000000000 <= exp (Ropp 6)).
    { rewrite exp_Ropp. assert (B : exp 6 <= 729). { replace 6 with (1 + 1 + 1 + 1 + 1 + 1) by lra. rewrite !exp_plus. pose proof exp_le_3. pose proof (exp_pos 1).
        assert (exp 1 * exp 1 <= 3 * 3) by (apply Rmult_le_compat; lra).
        assert (exp 1 * exp 1 * exp 1 <= 9 * 3) by (apply Rmult_le_compat; try lra; apply Rmult_le_pos; lra).
        assert (0 <= exp 1 * exp 1) by (apply Rmult_le_pos; lra).
        assert (exp 1 * exp 1 * exp 1 * exp 1 <= 27 * 3) by (apply Rmult_le_compat; try lra; apply Rmult_le_pos; lra).
        assert (0 <= exp 1 * exp 1 * exp 1) by (apply Rmult_le_pos; lra).
        assert (exp 1 * exp 1 * exp 1 * exp 1 * exp 1 <= 81 * 3) by (apply Rmult_le_compat; try lra; apply Rmult_le_pos; lra).
        assert (0 <= exp 1 * exp 1 * exp 1 * exp 1) by (apply Rmult_le_pos; lra).
        assert (exp 1 * exp 1 * exp 1 * exp 1 * exp 1 * exp 1 <= 243 * 3) by (apply Rmult_le_compat; try lra; apply Rmult_le_pos; lra). lra. }
      pose proof (exp_pos 6). apply (Rmult_le_reg_r (exp 6)); [lra|]. rewrite Rinv_l by lra. lra. }
    assert (M : forall a, a <= 6 -> 1 / 10000000000 <= exp (- a)).
    { intros a Ha. destruct (Rle_lt_or_eq_dec _ _ Ha) as [L|E]; [|rewrite E; exact E6]. assert (exp (Ropp 6) < exp (- a)) by (apply exp_increasing; lra). lra. }
    unfold beer_lambert, ex_A, ex_s. cbn [map rdot]. repeat (constructor; [apply M; lra|]). constructor. }
  split; [lra|]. split; [repeat constructor|]. split; [exact HA|]. split; [exact Hs|]. split; [exact Hp|]. split; [|split; [exact Hv|]].
  - intros x y Hx Hy E. destruct x as [|x1 [|x2 [|x3 [|x4 x]]]]; try discriminate. destruct y as [|y1 [|y2 [|y3 [|y4 y]]]]; try discriminate.
    unfold mul, ex_A in E. cbn [map rdot] in E. injection E as E1 E2 E3. repeat f_equal; lra.
  - split; [reflexivity|]. split; [exact Hs|]. intros y Hy Ny.
    rewrite (C38_augmented_system_is_the_objective (1 / 1000) 3 ex_A (beer_lambert ex_A ex_s) ex_s ltac:(lra) eq_refl eq_refl). rewrite (exact_depths ex_A ex_s HA Hs Hv).
    unfold objective. rewrite sq_dist_refl. unfold penalty. change (3 <=? length ex_s)%nat with true. rewrite progression_roughness by exact Hp.
    pose proof (sq_dist_nonneg (mul (a_aug (1 / 1000) 3 ex_A) y) (b_aug 3 (beer_lambert ex_A ex_s))). cbv iota. lra.
Qed.

(** No smoke: the zero vector solves the system. *)
Example C39_example : Forall (fun v => 1 <= v) [1; 2] /\ nnls_solution 1 (a_aug 1 1 [[3]; [4]]) (b_aug 1 [1; 2]) [0].
Proof.
  split; [repeat (constructor; [lra|]); constructor|]. split; [reflexivity|]. split; [unfold nonneg; repeat (constructor; [lra|]); constructor|].
  intros y Hy Ny. rewrite (C38_augmented_system_is_the_objective 1 1 [[3]; [4]] [1; 2] [0] ltac:(lra) eq_refl eq_refl).
  assert (E : map optical_depth [1; 2] = [0; 0]) by (cbn [map]; repeat f_equal; apply C38_optical_depth; lra).
  rewrite E. assert (Z : objective 1 [[3]; [4]] [0; 0] [0] = 0) by (unfold objective, penalty; simpl; lra). rewrite Z. apply sq_dist_nonneg.
Qed.

(** ** C41 *)
Lemma fold_intensity : forall s row acc, fold_left (fun a p => a * exp (- fst p * snd p)) (combine s row) acc = acc * exp (- rdot row s).
Proof.
  induction s as [|x s IH]; intros [|d row] acc; cbn [combine fold_left rdot]; try (rewrite Ropp_0, exp_0; lra).
  rewrite IH. cbn [fst snd]. rewrite Rmult_assoc, <- exp_plus. f_equal. f_equal. lra.
Qed.

Theorem C41_model_is_beer_lambert : forall s row, intensity s row = exp (- rdot row s).
Proof. intros. unfold intensity. rewrite fold_intensity. lra. Qed.
Print Assumptions C41_model_is_beer_lambert.

Theorem C41_bounds : forall s row, nonneg s -> nonneg row -> 0 < intensity s row <= 1.
Proof.
  intros s row Hs Hr. rewrite C41_model_is_beer_lambert. split; [apply exp_pos|]. rewrite <- exp_0. pose proof (rdot_nonneg row s Hr Hs) as P.
  destruct (Rle_lt_or_eq_dec _ _ P) as [L|E]; [left; apply exp_increasing; lra|right; f_equal; lra].
Qed.
Print Assumptions C41_bounds.

Lemma rdot_le : forall row s s', nonneg row -> Forall2 Rle s s' -> rdot row s <= rdot row s'.
Proof.
  induction row as [|d row IH]; intros s s' Hr H; [destruct H; simpl; lra|]. destruct H as [|x y s s' H F]; [simpl; lra|]. inversion Hr; subst. cbn [rdot].
  pose proof (IH s s' ltac:(assumption) F). pose proof (Rmult_le_compat_l d x y ltac:(assumption) H). lra.
Qed.

(** More smoke, less light; strictly in a layer that is crossed. *)
Theorem C41_antitone : forall s s' row, nonneg row -> Forall2 Rle s s' -> intensity s' row <= intensity s row.
Proof.
  intros s s' row Hr H. rewrite !C41_model_is_beer_lambert. pose proof (rdot_le row s s' Hr H) as L.
  destruct (Rle_lt_or_eq_dec _ _ L) as [Q|Q]; [left; apply exp_increasing; lra|right; f_equal; lra].
Qed.
Print Assumptions C41_antitone.

Theorem C41_strictly_antitone_in_a_crossed_layer : forall p s v w row, nonneg row -> v < w ->
  (exists d, nth_error row (length p) = Some d /\ 0 < d) ->
  intensity (p ++ w :: s) row < intensity (p ++ v :: s) row.
Proof.
  intros p s v w row Hr Hvw (d & Hd & Dp). rewrite !C41_model_is_beer_lambert. apply exp_increasing. apply Ropp_lt_contravar.
  revert row Hr Hd. induction p as [|x p IH]; intros [|e row] Hr Hd; try discriminate; cbn [length nth_error app rdot] in *.
  - apply Some_inj in Hd. subst e. pose proof (Rmult_lt_compat_l d v w Dp Hvw). lra.
  - inversion Hr; subst. pose proof (IH row ltac:(assumption) Hd). lra.
Qed.
Print Assumptions C41_strictly_antitone_in_a_crossed_layer.

(** Stacked smoke: transmissions multiply. *)
Fixpoint vadd (a b : vec) : vec := match a, b with x :: a', y :: b' => x + y :: vadd a' b' | _, _ => [] end.
Theorem C41_transmissions_multiply : forall s s' row, length s = length row -> length s' = length row ->
  intensity (vadd s s') row = intensity s row * intensity s' row.
Proof.
  intros s s' row H H'. rewrite !C41_model_is_beer_lambert, <- exp_plus. f_equal.
  revert s s' H H'. induction row as [|d row IH]; intros [|x s] [|y s'] H H'; try discriminate; cbn [vadd rdot]; [lra|].
  simpl in H, H'. specialize (IH s s' ltac:(lia) ltac:(lia)). lra.
Qed.
Print Assumptions C41_transmissions_multiply.

Example C41_example : nonneg [1; 2] /\ nonneg [3; 0] /\ intensity [1; 2] [3; 0] = exp (Ropp 3) /\ Forall2 Rle [1; 2] [1; 5].
Proof.
  split; [unfold nonneg; repeat (constructor; [lra|]); constructor|]. split; [unfold nonneg; repeat (constructor; [lra|]); constructor|].
  split; [rewrite C41_model_is_beer_lambert; f_equal; simpl; lra|repeat (constructor; [lra|]); constructor].
Qed.

(** ** C42 *)
Lemma rsum_nonneg : forall l, nonneg l -> 0 <= rsum l.
Proof. intros l H. induction H; cbn [rsum]; lra. Qed.

Lemma rsum_zero : forall l, nonneg l -> rsum l = 0 -> Forall (fun v => v = 0) l.
Proof. intros l H. induction H as [|x l H F IH]; cbn [rsum]; intros E; constructor; pose proof (rsum_nonneg l F); [lra|apply IH; lra]. Qed.

Lemma sq_terms_nonneg : forall a b, nonneg (map (fun p => Rsqr (fst p - snd p)) (combine a b)).
Proof. intros a b. apply Forall_forall. intros v Hv. apply in_map_iff in Hv. destruct Hv as (p & <- & _). apply Rle_0_sqr. Qed.

(** The misfit vanishes exactly if the model reproduces the intensities. *)
Theorem C42_misfit_zero_iff_reproduced : forall A s target, A <> [] -> length target = length A ->
  0 <= misfit A s target /\ (misfit A s target = 0 <-> target = beer_lambert A s).
Proof.
  intros A s target Hne Hl. unfold misfit. set (I := intensities A s). set (q := rsum _).
  assert (Q : 0 <= q) by (apply rsum_nonneg; apply sq_terms_nonneg).
  assert (N : 0 < INR (length A)) by (apply lt_0_INR; destruct A; [congruence|simpl; lia]).
  assert (EI : I = beer_lambert A s) by (unfold I, intensities, beer_lambert; apply map_ext; intros r; apply C41_model_is_beer_lambert).
  split; [apply Rmult_le_pos; [apply sqrt_pos|left; apply Rinv_0_lt_compat; exact N]|]. split.
  - intros H. assert (S : sqrt q = 0). { apply (Rmult_eq_reg_r (/ INR (length A))); [|apply Rinv_neq_0_compat; lra]. unfold Rdiv in H. rewrite H. ring. }
    apply sqrt_eq_0 in S; [|exact Q]. apply rsum_zero in S; [|apply sq_terms_nonneg].
    assert (Li : length I = length target) by (unfold I, intensities; rewrite map_length; lia). rewrite <- EI. clear - S Li.
    revert target Li S. induction I as [|x I IH]; intros [|y t] L S; try discriminate; [reflexivity|]. cbn [combine map fst snd] in S. inversion S as [|? ? S1 S2]; subst.
    unfold Rsqr in S1. apply Rmult_integral in S1. f_equal; [lra|]. apply IH; [simpl in L; lia|exact S2].
  - intros ->. rewrite <- EI in *. assert (E : q = 0). { unfold q. rewrite <- EI. clear. induction I as [|x I IH]; [reflexivity|]. cbn [combine map fst snd rsum]. rewrite IH. unfold Rsqr. lra. }
    rewrite E, sqrt_0. unfold Rdiv. ring.
Qed.
Print Assumptions C42_misfit_zero_iff_reproduced.

Lemma second_differences_cons : forall a b c x, second_differences (a :: b :: c :: x) = (a - 2 * b + c) :: second_differences (b :: c :: x).
Proof. reflexivity. Qed.

Lemma zero_second_differences_from : forall x a b k a0 d, Forall (fun v => v = 0) (second_differences (a :: b :: x)) ->
  a = a0 + INR k * d -> b = a0 + INR (S k) * d -> a :: b :: x = map (fun i => a0 + INR i * d) (seq k (length (a :: b :: x))).
Proof.
  induction x as [|c x IH]; intros a b k a0 d H Ea Eb.
  - cbn [length seq map]. rewrite Ea, Eb. reflexivity.
  - rewrite second_differences_cons in H. inversion H as [|? ? H1 H2]; subst v l || idtac.
    assert (Ec : c = a0 + INR (S (S k)) * d) by (rewrite S_INR in *; rewrite S_INR in *; lra).
    specialize (IH b c (S k) a0 d H2 Eb Ec). cbn [length] in IH |- *. cbn [seq map] in IH |- *. rewrite <- Ea. f_equal. exact IH.
Qed.

Lemma zero_second_differences : forall x, Forall (fun v => v = 0) (second_differences x) -> progression x.
Proof.
  intros [|a [|b x]] H.
  - exists 0, 0. reflexivity.
  - exists a, 0. simpl. f_equal. lra.
  - exists a, (b - a). apply zero_second_differences_from; [exact H|simpl; lra|simpl; lra].
Qed.

Lemma progression_differences_from : forall a d n k, Forall (fun v => v = 0) (second_differences (map (fun i => a + INR i * d) (seq k n))).
Proof.
  intros a d n. induction n as [|n IH]; intros k; [constructor|]. specialize (IH (S k)). destruct n as [|[|n]]; [constructor|constructor|].
  cbn [seq map] in *. rewrite second_differences_cons. constructor; [|exact IH]. rewrite !S_INR. lra.
Qed.

Lemma abs_nonneg : forall l, nonneg (map Rabs l).
Proof. intros l. apply Forall_forall. intros v Hv. apply in_map_iff in Hv. destruct Hv as (u & <- & _). apply Rabs_pos. Qed.

(** The curvature term vanishes exactly for arithmetic progressions. *)
Theorem C42_curvature_zero_iff_progression : forall w n s, 0 < w -> (0 < n)%nat ->
  0 <= curvature w n s /\ (curvature w n s = 0 <-> progression s).
Proof.
  intros w n s Hw Hn. unfold curvature. set (q := rsum (map Rabs (second_differences s))). assert (Q : 0 <= q) by (apply rsum_nonneg, abs_nonneg).
  assert (N : 0 < INR n) by (apply lt_0_INR; exact Hn). assert (P : 0 < INR n * 2 * w) by (apply Rmult_lt_0_compat; lra).
  replace (q * INR n * 2 * w) with (q * (INR n * 2 * w)) by ring. split; [apply Rmult_le_pos; lra|]. split.
  - intros H. apply Rmult_integral in H. destruct H as [H|H]; [|lra]. apply rsum_zero in H; [|apply abs_nonneg].
    apply zero_second_differences. rewrite Forall_forall in *. intros v Hv. specialize (H (Rabs v) (in_map Rabs _ _ Hv)).
    destruct (Req_dec v 0) as [E|E]; [exact E|]. apply Rabs_no_R0 in E. contradiction.
  - intros (a & d & E). assert (Z : q = 0); [|rewrite Z; ring]. unfold q. rewrite E. pose proof (progression_differences_from a d (length s) 0) as F.
    induction F as [|v l Hv F IH]; [reflexivity|]. cbn [map rsum]. rewrite IH, Hv, Rabs_R0. lra.
Qed.
Print Assumptions C42_curvature_zero_iff_progression.

(** Without preference the cost is never negative and vanishes exactly for
    progressions which reproduce the intensities. *)
Theorem C42_without_preference_truth_is_optimal : forall w A s target, 0 < w -> A <> [] -> length target = length A ->
  0 <= cost w 0 A s target /\
  (cost w 0 A s target = 0 <-> target = beer_lambert A s /\ progression s).
Proof.
  intros w A s target Hw Hne Hl. destruct (C42_misfit_zero_iff_reproduced A s target Hne Hl) as [M0 M].
  assert (Ln : (0 < length A)%nat) by (destruct A; [congruence|simpl; lia]).
  destruct (C42_curvature_zero_iff_progression w (length A) s Hw Ln) as [K0 K]. unfold cost, preference. rewrite Rmult_0_r. split; [lra|].
  split.
  - intros H. split; [apply M|apply K]; lra.
  - intros [H1 H2]. apply M in H1. apply K in H2. lra.
Qed.
Print Assumptions C42_without_preference_truth_is_optimal.

(** What is called root mean square error is smaller by the factor sqrt(n). *)
Theorem C42_misfit_is_not_the_rms : forall A s target, A <> [] -> length target = length A ->
  misfit A s target * sqrt (INR (length A)) = sqrt (sq_dist (beer_lambert A s) target / INR (length A)).
Proof.
  intros A s target Hne Hl. assert (N : 0 < INR (length A)) by (apply lt_0_INR; destruct A; [congruence|simpl; lia]).
  unfold misfit. assert (E : rsum (map (fun p => Rsqr (fst p - snd p)) (combine (intensities A s) target)) = sq_dist (beer_lambert A s) target).
  { replace (intensities A s) with (beer_lambert A s) by (unfold intensities, beer_lambert; apply map_ext; intros r; symmetry; apply C41_model_is_beer_lambert).
    generalize (beer_lambert A s). intros v. revert target Hl. clear. intros t _. revert t. induction v as [|x v IH]; intros [|y t]; try reflexivity. cbn [combine map rsum fst snd sq_dist]. rewrite IH. reflexivity. }
  rewrite E. rewrite sqrt_div_alt by exact N. pose proof (sqrt_lt_R0 _ N) as S. apply (Rmult_eq_reg_r (sqrt (INR (length A)))); [|lra].
  unfold Rdiv. rewrite !Rmult_assoc, (Rinv_l (sqrt _)), Rmult_1_r by lra. rewrite sqrt_sqrt by lra. rewrite Rinv_l by lra. ring.
Qed.
Print Assumptions C42_misfit_is_not_the_rms.

(** ** Layers which no line of sight crosses *)
Definition unseen (k : nat) (A : matrix) : Prop := Forall (fun row => nth_error row k = Some 0) A.

Lemma abs_sum_bump : forall p s v c, 0 <= c ->
  rsum (map Rabs (second_differences (p ++ (v + c) :: s))) <= rsum (map Rabs (second_differences (p ++ v :: s))) + 4 * c.
Proof.
  assert (T1 : forall x c, 0 <= c -> Rabs (x + c) <= Rabs x + c) by (intros x c Hc; pose proof (Rabs_triang x c); rewrite (Rabs_pos_eq c) in * by lra; lra).
  assert (T2 : forall x c, 0 <= c -> Rabs (x - 2 * c) <= Rabs x + 2 * c)
    by (intros x c Hc; pose proof (Rabs_triang x (- (2 * c))) as T; rewrite Rabs_Ropp, (Rabs_pos_eq (2 * c)) in T by lra; unfold Rminus; lra).
  assert (B0 : forall s v c, 0 <= c -> rsum (map Rabs (second_differences ((v + c) :: s))) <= rsum (map Rabs (second_differences (v :: s))) + c).
  { intros s v c Hc. destruct s as [|x [|y s]]; [simpl; lra|simpl; lra|]. rewrite !second_differences_cons. cbn [map rsum].
    pose proof (T1 (v - 2 * x + y) c Hc). replace (v + c - 2 * x + y) with (v - 2 * x + y + c) by ring. lra. }
  assert (B1 : forall a s v c, 0 <= c -> rsum (map Rabs (second_differences (a :: (v + c) :: s))) <= rsum (map Rabs (second_differences (a :: v :: s))) + 3 * c).
  { intros a s v c Hc. destruct s as [|x s]; [simpl; lra|]. rewrite !second_differences_cons. cbn [map rsum]. pose proof (B0 (x :: s) v c Hc).
    pose proof (T2 (a - 2 * v + x) c Hc). replace (a - 2 * (v + c) + x) with (a - 2 * v + x - 2 * c) by ring. lra. }
  induction p as [|a p IH]; intros s v c Hc; cbn [app].
  - pose proof (B0 s v c Hc). lra.
  - destruct p as [|b p].
    + cbn [app]. pose proof (B1 a s v c Hc). lra.
    + destruct p as [|d p].
      * cbn [app]. rewrite !second_differences_cons. cbn [map rsum]. pose proof (B1 b s v c Hc). pose proof (T1 (a - 2 * b + v) c Hc).
        replace (a - 2 * b + (v + c)) with (a - 2 * b + v + c) by ring. lra.
      * specialize (IH s v c Hc). cbn [app] in *. rewrite !second_differences_cons. cbn [map rsum]. lra.
Qed.

Lemma unseen_intensity : forall p s v w row, nth_error row (length p) = Some 0 -> intensity (p ++ v :: s) row = intensity (p ++ w :: s) row.
Proof.
  intros p s v w row H. rewrite !C41_model_is_beer_lambert. f_equal. f_equal. revert row H.
  induction p as [|x p IH]; intros [|d row] H; try discriminate; cbn [length nth_error app rdot] in *.
  - apply Some_inj in H. subst d. lra.
  - rewrite (IH row H). reflexivity.
Qed.

Lemma rsum_app : forall a b, rsum (a ++ b) = rsum a + rsum b.
Proof. induction a as [|x a IH]; intros b; cbn [app rsum]; [lra|]. rewrite IH. lra. Qed.

(** With a negative preference that outweighs the curvature, more extinction in
    a layer nobody looks through always lowers the cost. *)
Theorem C42_unseen_layers_lower_the_cost : forall w_curv w_pref A p s v c target, A <> [] -> 0 <= w_curv -> 0 < c ->
  unseen (length p) A ->
  8 * INR (length A) * INR (length (p ++ v :: s)) * w_curv < - w_pref ->
  cost w_curv w_pref A (p ++ (v + c) :: s) target < cost w_curv w_pref A (p ++ v :: s) target.
Proof.
  intros w_curv w_pref A p s v c target Hne Hw Hc Hu Hd.
  assert (Em : misfit A (p ++ (v + c) :: s) target = misfit A (p ++ v :: s) target).
  { assert (I : intensities A (p ++ (v + c) :: s) = intensities A (p ++ v :: s)); [|unfold misfit; rewrite I; reflexivity]. unfold intensities. apply map_ext_in. intros row Hrow. unfold unseen in Hu. rewrite Forall_forall in Hu. apply unseen_intensity. apply Hu. exact Hrow. }
  unfold cost. rewrite Em. unfold curvature, preference. pose proof (abs_sum_bump p s v c (Rlt_le _ _ Hc)) as B.
  set (q' := rsum (map Rabs (second_differences (p ++ (v + c) :: s)))) in *. set (q := rsum (map Rabs (second_differences (p ++ v :: s)))) in *.
  assert (Ln : length (p ++ (v + c) :: s) = length (p ++ v :: s)) by (rewrite !app_length; reflexivity). rewrite Ln, !rsum_app. cbn [rsum].
  set (N := INR (length (p ++ v :: s))) in *. assert (PN : 0 < N) by (apply lt_0_INR; rewrite app_length; simpl; lia).
  set (m := INR (length A)) in *. assert (Pm : 0 <= m) by apply pos_INR.
  assert (K : q' * m * 2 * w_curv - q * m * 2 * w_curv <= 8 * c * m * w_curv).
  { replace (q' * m * 2 * w_curv - q * m * 2 * w_curv) with ((q' - q) * (m * 2 * w_curv)) by ring. replace (8 * c * m * w_curv) with (4 * c * (m * 2 * w_curv)) by ring.
    apply Rmult_le_compat_r; [|lra]. apply Rmult_le_pos; lra. }
  assert (D : 8 * c * m * w_curv + c / N * w_pref < 0).
  { replace (8 * c * m * w_curv + c / N * w_pref) with (c / N * (8 * m * N * w_curv + w_pref)) by (field; lra).
    assert (0 < c / N) by (apply Rdiv_lt_0_compat; lra). assert (G : 0 < c / N * - (8 * m * N * w_curv + w_pref)) by (apply Rmult_lt_0_compat; lra). lra. }
  replace ((rsum p + (v + c + rsum s)) / N * w_pref) with ((rsum p + (v + rsum s)) / N * w_pref + c / N * w_pref) by (field; lra). lra.
Qed.
Print Assumptions C42_unseen_layers_lower_the_cost.

(** Hence an exact minimiser within the bounds (0, 10) reports the upper bound
    for every such layer, whatever was measured. *)
Definition minimiser (w_curv w_pref : R) (A : matrix) (target x : vec) : Prop :=
  Forall (fun v => 0 <= v <= 10) x /\
  forall y, length y = length x -> Forall (fun v => 0 <= v <= 10) y -> cost w_curv w_pref A x target <= cost w_curv w_pref A y target.

Theorem C42_unseen_layers_are_at_the_upper_bound : forall w_curv w_pref A target x k v, A <> [] -> 0 <= w_curv ->
  unseen k A -> 8 * INR (length A) * INR (length x) * w_curv < - w_pref ->
  minimiser w_curv w_pref A target x -> nth_error x k = Some v -> v = 10.
Proof.
  intros w_curv w_pref A target x k v Hne Hw Hu Hd [Hb Hm] Hk. apply nth_error_split in Hk. destruct Hk as (p & s & -> & <-).
  assert (Bv : 0 <= v <= 10). { rewrite Forall_forall in Hb. apply Hb. apply in_or_app. right. left. reflexivity. }
  destruct (Rle_lt_or_eq_dec _ _ (proj2 Bv)) as [L|E]; [|exact E]. exfalso.
  assert (Hy : Forall (fun v => 0 <= v <= 10) (p ++ (v + (10 - v)) :: s)).
  { apply Forall_app in Hb. destruct Hb as [H1 H2]. inversion H2; subst. apply Forall_app. split; [exact H1|]. constructor; [lra|assumption]. }
  assert (Ly : length (p ++ (v + (10 - v)) :: s) = length (p ++ v :: s)) by (rewrite !app_length; reflexivity). specialize (Hm _ Ly Hy).
  pose proof (C42_unseen_layers_lower_the_cost w_curv w_pref A p s v (10 - v) target Hne Hw ltac:(lra) Hu Hd). lra.
Qed.
Print Assumptions C42_unseen_layers_are_at_the_upper_bound.

(** Default weights, two LEDs, two layers, the upper one unseen: no smoke was
    measured, the minimiser has extinction 10 in the upper layer. *)
Example C42_example : unseen 1 [[1; 0]; [1; 0]] /\
  8 * INR (length [[1; 0]; [1; 0]]) * INR (length [0; 10]) * (1 / 1000000) < - - (6 / 1000) /\
  minimiser (1 / 1000000) (- (6 / 1000)) [[1; 0]; [1; 0]] [1; 1] [0; 10].
Proof.
  split; [repeat constructor|]. split; [simpl; lra|]. split; [repeat (constructor; [lra|]); constructor|].
  intros y Hy By. destruct y as [|a [|b [|c y]]]; try discriminate. inversion By as [|? ? Ba By']; subst. inversion By' as [|? ? Bb _]; subst.
  assert (C : forall u w, cost (1 / 1000000) (- (6 / 1000)) [[1; 0]; [1; 0]] [u; w] [1; 1] = sqrt (2 * Rsqr (exp (- u) - 1)) / 2 + (u + w) / 2 * - (6 / 1000)).
  { intros u w. unfold cost, misfit, curvature, preference, intensities. cbn [map combine rsum fst snd length second_differences tl INR]. rewrite !C41_model_is_beer_lambert. cbn [rdot].
    replace (- (1 * u + (0 * w + 0))) with (- u) by ring. replace (Rsqr (exp (- u) - 1) + (Rsqr (exp (- u) - 1) + 0)) with (2 * Rsqr (exp (- u) - 1)) by ring.
    replace (1 + 1) with 2 by ring. lra. }
  rewrite !C. rewrite Ropp_0, exp_0. replace (2 * Rsqr (1 - 1)) with 0 by (unfold Rsqr; ring). rewrite sqrt_0.
  (* sqrt (2 q^2) >= |q| = 1 - exp (-a) >= a / 11 on [0, 10] *)
  assert (S : 1 - exp (- a) <= sqrt (2 * Rsqr (exp (- a) - 1))).
  { destruct (Rle_dec (1 - exp (- a)) 0) as [N|P]; [pose proof (sqrt_pos (2 * Rsqr (exp (- a) - 1))); lra|]. apply Rnot_le_lt in P.
    rewrite <- (sqrt_Rsqr (1 - exp (- a))) at 1 by lra. apply sqrt_le_1_alt. pose proof (Rle_0_sqr (exp (- a) - 1)). unfold Rsqr in *. lra. }
  assert (E : a / 11 <= 1 - exp (- a)).
  { assert (P : 1 + a <= exp a) by (destruct (Req_dec a 0) as [->|N]; [rewrite exp_0; lra|left; apply exp_ineq1; lra]).
    rewrite exp_Ropp. assert (I : / exp a <= / (1 + a)) by (apply Rinv_le_contravar; lra).
    assert (F : 1 - / (1 + a) = a / (1 + a)) by (field; lra).
    assert (G : a / 11 <= a / (1 + a)). { unfold Rdiv. apply Rmult_le_compat_l; [lra|]. apply Rinv_le_contravar; lra. } lra. }
  lra.
Qed.

(** ** C43: the nonlinear solver depends on its start *)
From Coq Require Import ZArith QArith Qreals.
From Verif Require Import Table_Model Analysis_Model Analysis_Props.
Local Open Scope R_scope.

(** Contract of the minimiser: inside the bounds and not worse than the start. *)
Definition improves (minimize : (vec -> R) -> vec -> vec) : Prop :=
  forall f x, Forall (fun v => 0 <= v <= 10) x ->
    length (minimize f x) = length x /\ Forall (fun v => 0 <= v <= 10) (minimize f x) /\ f (minimize f x) <= f x.

(** One step of size 1 if it stays inside the bounds and lowers the cost. *)
Definition one_step (f : vec -> R) (x : vec) : vec :=
  let y := map (fun v => v + 1) x in
  if Forall_dec (fun v => v <= 10) (fun v => Rle_dec v 10) y then if Rlt_dec (f y) (f x) then y else x else x.

Lemma one_step_improves : improves one_step.
Proof.
  intros f x Hx. unfold one_step. destruct (Forall_dec _ _ _) as [F|_]; [|split; [reflexivity|split; [exact Hx|lra]]].
  destruct (Rlt_dec _ _) as [L|_]; [|split; [reflexivity|split; [exact Hx|lra]]]. split; [apply map_length|]. split; [|lra].
  rewrite Forall_forall in *. intros v Hv. pose proof (F v Hv). apply in_map_iff in Hv. destruct Hv as (u & <- & Hu). specialize (Hx u Hu). lra.
Qed.

(** Relative intensities as real numbers (the witness below has no nan). *)
Definition quot_R (c : quot) : R := match c with Fin q => Q2R q | _ => 0 end.

Definition nonlinear_solve (minimize : (vec -> R) -> vec -> vec) (n : nat) (A : matrix) (last : option vec) (rel : list quot) : res vec :=
  Ok (nonlinear_coefficients minimize 0 0 n A last (map quot_R rel)).

Lemma cost_one : forall u, cost 0 0 [[1]] [u] [0] = exp (- u).
Proof.
  intros u. unfold cost, misfit, curvature, preference, intensities. cbn [map combine rsum fst snd length second_differences tl INR].
  rewrite C41_model_is_beer_lambert. cbn [rdot]. replace (- (1 * u + 0)) with (- u) by ring. replace (Rsqr (exp (- u) - 0) + 0) with (Rsqr (exp (- u))) by (unfold Rsqr; ring).
  rewrite sqrt_Rsqr by (left; apply exp_pos). field.
Qed.

Lemma one_step_one : forall u, u + 1 <= 10 -> one_step (fun s => cost 0 0 [[1]] s [0]) [u] = [u + 1].
Proof.
  intros u Hu. unfold one_step. cbn [map]. destruct (Forall_dec _ _ _) as [_|N]; [|exfalso; apply N; constructor; [exact Hu|constructor]].
  destruct (Rlt_dec _ _) as [_|N]; [reflexivity|]. exfalso. apply N. rewrite !cost_one. apply exp_increasing. lra.
Qed.

Theorem C43_nonlinear_start_refuted : exists minimize n A es ms order l,
  improves minimize /\ complete es 2 l /\ Permutation.Permutation order (seq 0 2) /\ length ms = length l /\
  serial (nonlinear_solve minimize n A) es ms = Ok [[1]; [2]] /\
  parallel (nonlinear_solve minimize n A) order es ms = Ok [[1]; [1]].
Proof.
  exists one_step, 1%nat, [[1]], [((1, 7), Some 0%Q); ((2, 7), Some 0%Q)]%Z, [Some 1%Q], [0; 1]%nat, [7%Z].
  assert (Z : quot_R (Fin (0 / 1)%Q) = 0) by (unfold quot_R, Q2R; simpl; lra).
  assert (S : forall last, nonlinear_solve one_step 1 [[1]] last [Fin (0 / 1)%Q] = Ok (one_step (fun s => cost 0 0 [[1]] s [0]) (match last with None => [0] | Some s => s end))).
  { intros last. unfold nonlinear_solve, nonlinear_coefficients. cbn [map]. rewrite Z. reflexivity. }
  split; [exact one_step_improves|]. split; [split; [intros e H; repeat (destruct H as [<-|H]; [cbn; lia|]); destruct H|intros i Hi; assert (C : (i = 1 \/ i = 2)%Z) by lia; destruct C as [-> | -> ]; reflexivity]|].
  split; [apply Permutation.Permutation_refl|]. split; [reflexivity|]. split.
  - unfold serial. change (groups e_img [((1, 7), Some 0%Q); ((2, 7), Some 0%Q)]%Z) with [(1, [((1, 7), Some 0%Q)]); (2, [((2, 7), Some 0%Q)])]%Z. cbn [serial_loop map e_val snd].
    change (np_div [Some 0%Q] [Some 1%Q]) with (Ok [Fin (0 / 1)%Q]). cbn [bind]. rewrite S. cbn [bind]. rewrite S. cbn [bind]. rewrite !one_step_one by lra.
    repeat f_equal; lra.
  - unfold parallel. change (to_array [((1, 7), Some 0%Q); ((2, 7), Some 0%Q)]%Z) with (Ok [[Some 0%Q]; [Some 0%Q]]). cbn [bind mapM].
    change (np_div [Some 0%Q] [Some 1%Q]) with (Ok [Fin (0 / 1)%Q]). cbn [bind]. rewrite pool_is_map by apply Permutation.Permutation_refl. cbn [mapM]. rewrite S. cbn [bind].
    rewrite one_step_one by lra. repeat f_equal; lra.
Qed.
Print Assumptions C43_nonlinear_start_refuted.
