(** C126: the linear analysis with the arithmetic of the machine. *)
From Coq Require Import ZArith QArith String List Permutation Reals Lra Lia Psatz.
From Verif Require Import Base Step2_Model Step3_Model Table_Props Table_Model Table_Spec Analysis_Model Analysis_Props Layers_Model Layers_Spec Layers_Props
  Solver_Model Solver_Props Stable_Props Nnls_Props End_Model End_Props Mean_Model Mean_Props Separate_Proofs Separate_Props Profile_Props
  Rounding_Model Rounding_Props Machine_Model Machine_Props MachineEnd_Model MachineEnd_Props MachineSolver_Model.
Import ListNotations.
Local Open Scope R_scope.

(** ** Specification *)

(** A solver which comes within [tol] of the smallest sum of squares, whenever
    the matrix tells the unknowns apart. *)
Definition nnls_within (tol : R) (nnls : matrix -> vec -> vec) : Prop :=
  forall n M v, rows_ok n M -> List.length v = List.length M -> separates n M ->
    List.length (nnls M v) = n /\ nonneg (nnls M v) /\
    forall y, List.length y = n -> nonneg y -> sq_dist (mul M (nnls M v)) v <= sq_dist (mul M y) v + tol.

(** A logarithm with the relative error [u]. *)
Definition accurate_log (u : R) (log : R -> R) : Prop := forall x, 0 < x -> Rabs (log x - ln x) <= u * Rabs (ln x).

(** ** Optical depths *)

Lemma ln_le : forall x y, 0 < x -> x <= y -> ln x <= ln y.
Proof. intros x y Hx [L|E]; [left; apply ln_increasing; assumption|rewrite E; lra]. Qed.

Lemma ln_low : forall u, 0 <= u <= 1 / 2 -> 0 <= - ln (1 - u) <= 2 * u.
Proof.
  intros u Hu. assert (H1 : ln (1 - u) <= 0) by (rewrite <- ln_1; apply ln_le; lra). split; [lra|].
  assert (E : - ln (1 - u) = ln (/ (1 - u))) by (symmetry; apply ln_Rinv; lra). rewrite E, <- (ln_exp (2 * u)).
  apply ln_le; [apply Rinv_0_lt_compat; lra|]. apply (Rmult_le_reg_r (1 - u)); [lra|]. rewrite Rinv_l by lra.
  pose proof (exp_ineq1_le (2 * u)) as Q. apply Rle_trans with ((1 + 2 * u) * (1 - u)); [nra|]. apply Rmult_le_compat_r; lra.
Qed.

Lemma ln_up : forall e, 0 <= e < 1 -> ln (1 + e) <= - ln (1 - e).
Proof.
  intros e He. rewrite <- ln_Rinv by lra. apply ln_le; [lra|]. apply (Rmult_le_reg_r (1 - e)); [lra|]. rewrite Rinv_l by lra. nra.
Qed.

(** The logarithm of a clipped value. *)
Lemma clip_ln : forall v, - 34 <= ln (clip_rel v) <= 0.
Proof.
  intros v. assert (C : 1 / 10000000000 <= clip_rel v <= 1) by (unfold clip_rel, Rmin, Rmax; destruct (Rle_dec v _); destruct (Rle_dec _ 1); lra).
  split; [|rewrite <- ln_1; apply ln_le; lra].
  replace (-34) with (- (34)) by lra. rewrite <- (ln_exp (- (34))). apply ln_le; [apply exp_pos|]. apply Rle_trans with (1 / 10000000000); [|lra].
  assert (E : forall k, 2 ^ k <= exp (INR k)).
  { induction k as [|k IH]; [cbn [pow INR]; rewrite exp_0; lra|]. rewrite S_INR, exp_plus. cbn [pow]. pose proof (exp_ineq1_le 1). rewrite Rmult_comm. apply Rmult_le_compat; try lra. apply pow_le. lra. }
  specialize (E 34%nat). replace (INR 34) with 34 in E by (cbn [INR]; ring). rewrite exp_Ropp.
  assert (Q' : 10000000000 <= 2 ^ 34) by lra. assert (X : 0 < exp 34) by apply exp_pos.
  apply (Rmult_le_reg_r (exp 34)); [exact X|]. rewrite Rinv_l by lra. lra.
Qed.

(** The depth which the machine computes, for an intensity with the relative
    error [e]. *)
Theorem C126_depth_error : forall u m log v d e, accurate u m -> accurate_log u log -> 0 <= u <= 1 / 2 -> 0 <= e < 1 -> 0 <= d -> 1 / 10000000000 <= exp (- d) ->
  Rabs (v - exp (- d)) <= e * exp (- d) ->
  Rabs (m_depth m log v - d) <= - ln (1 - e) + 36 * u.
Proof.
  intros u m log v d e Hm Hlog Hu He Hd Hx Hv. set (x := exp (- d)) in *.
  assert (X1 : x <= 1). { unfold x. rewrite <- exp_0. destruct (Req_dec d 0) as [->|N]; [rewrite Ropp_0; lra|]. left. apply exp_increasing. lra. }
  assert (X0 : 0 < x) by apply exp_pos. apply abs_le_inv in Hv.
  assert (V : (1 - e) * x <= v <= (1 + e) * x) by lra. assert (Ve : 0 < (1 - e) * x) by (apply Rmult_lt_0_compat; lra).
  assert (V0 : 0 < v) by lra. pose proof (proj1 Hm v) as R. rewrite (Rabs_pos_eq v) in R by lra. apply abs_le_inv in R. set (v' := rnd m v) in *.
  assert (W : (1 - u) * ((1 - e) * x) <= v' <= (1 + u) * ((1 + e) * x)).
  { split; [apply Rle_trans with ((1 - u) * v); [apply Rmult_le_compat_l; lra|lra]|apply Rle_trans with ((1 + u) * v); [lra|apply Rmult_le_compat_l; lra]]. }
  assert (B1 : (1 - u) * ((1 - e) * x) <= x) by nra. assert (B2 : x <= (1 + u) * ((1 + e) * x)) by nra.
  assert (P : 0 < (1 - u) * ((1 - e) * x)) by (apply Rmult_lt_0_compat; lra).
  assert (C : (1 - u) * ((1 - e) * x) <= clip_rel v' <= (1 + u) * ((1 + e) * x)).
  { unfold clip_rel, Rmin, Rmax. destruct (Rle_dec v' (1 / 10000000000)); match goal with |- context [Rle_dec ?w 1] => destruct (Rle_dec w 1) end; lra. }
  assert (Cp : 0 < clip_rel v') by lra.
  pose proof (ln_le _ _ P (proj1 C)) as L1. pose proof (ln_le _ _ Cp (proj2 C)) as L2.
  rewrite ln_mult in L1 by lra. rewrite (ln_mult (1 - e)) in L1 by lra. rewrite ln_mult in L2 by nra. rewrite (ln_mult (1 + e)) in L2 by lra.
  replace (ln x) with (- d) in L1, L2 by (unfold x; rewrite ln_exp; reflexivity).
  pose proof (ln_low u Hu) as U1. pose proof (ln_up u ltac:(lra)) as U2. pose proof (ln_up e He) as U3.
  pose proof (clip_ln v') as K. pose proof (Hlog _ Cp) as G. rewrite (Rabs_left1 (ln (clip_rel v'))) in G by lra. apply abs_le_inv in G.
  unfold m_depth. fold v'. apply Rabs_le. assert (Q : u * - ln (clip_rel v') <= u * 34) by (apply Rmult_le_compat_l; lra). lra.
Qed.
Print Assumptions C126_depth_error.

Lemma m_depths_bound : forall u m log A rel s e, accurate u m -> accurate_log u log -> 0 <= u <= 1 / 2 -> 0 <= e < 1 -> Forall nonneg A -> nonneg s ->
  Forall2 (fun row v => 1 / 10000000000 <= exp (- rdot row s) /\ Rabs (v - exp (- rdot row s)) <= e * exp (- rdot row s)) A rel ->
  sq_dist (mul A s) (map (m_depth m log) rel) <= INR (List.length A) * (2 * (ln (1 - e) * ln (1 - e)) + 2592 * (u * u)).
Proof.
  intros u m log A rel s e Hm Hlog Hu He HA Ns H. unfold mul. induction H as [|row v A rel (H1 & H2) F IH]; [simpl; lra|].
  inversion HA as [|? ? A1 A2]; subst. specialize (IH A2). cbn [map sq_dist]. change (List.length (row :: A)) with (S (List.length A)). rewrite S_INR.
  pose proof (C126_depth_error u m log v (rdot row s) e Hm Hlog Hu He (rdot_nonneg row s A1 Ns) H1 H2) as D. apply abs_le_inv in D.
  set (a := m_depth m log v - rdot row s) in *. replace (rdot row s - m_depth m log v) with (- a) by (unfold a; ring). set (l := ln (1 - e)) in *.
  assert (X : 0 <= ((- l + 36 * u) - a) * ((- l + 36 * u) + a)) by (apply Rmult_le_pos; lra).
  pose proof (Rle_0_sqr (- l - 36 * u)) as Y. unfold Rsqr in Y. nra.
Qed.

(** ** The rows of the regularisation *)
Lemma reg_entries : forall n r x, In r (reg_matrix n) -> In x r -> Rabs x <= 2.
Proof.
  intros n r x Hr Hx. assert (C : x = 1 \/ x = -2 \/ x = 0).
  { unfold reg_matrix in Hr. destruct (3 <=? n)%nat; apply in_map_iff in Hr; destruct Hr as (i & <- & _); unfold diff_row, unit_row in Hx; apply in_map_iff in Hx; destruct Hx as (j & <- & _);
    repeat match goal with |- context [(?a =? ?b)%nat] => destruct (a =? b)%nat end; tauto. }
  destruct C as [->|[->| ->]]; unfold Rabs; destruct (Rcase_abs _); lra.
Qed.

Lemma reg_length : forall n, (List.length (reg_matrix n) <= n)%nat.
Proof. intros n. unfold reg_matrix. destruct (3 <=? n)%nat; rewrite map_length, seq_length; lia. Qed.

Lemma reg_close : forall u m lambda n, accurate u m -> 0 <= u <= 1 / 2 -> 0 <= lambda ->
  rows_close (6 * u * sqrt lambda) (map (map (Rmult (sqrt lambda))) (reg_matrix n)) (m_reg m lambda n).
Proof.
  intros u m lambda n Hm Hu Hl. unfold m_reg, rows_close. pose proof (sqrt_pos lambda) as P. pose proof Hm as (R & S & _). specialize (S lambda Hl). apply abs_le_inv in S.
  assert (G : forall L : matrix, (forall r x, In r L -> In x r -> Rabs x <= 2) ->
    Forall2 (Forall2 (fun x y => Rabs (y - x) <= 6 * u * sqrt lambda)) (map (map (Rmult (sqrt lambda))) L) (map (map (fun x => rnd m (m_sqrt m lambda * x))) L)).
  { induction L as [|r L IH]; intros H; [constructor|]. cbn [map]. constructor; [|apply IH; intros; eapply H; [right; eassumption|eassumption]].
    specialize (H r). assert (H' : forall x, In x r -> Rabs x <= 2) by (intros; apply H; [left; reflexivity|assumption]). clear H IH.
    induction r as [|x r IH]; [constructor|]. cbn [map]. constructor; [|apply IH; intros; apply H'; right; assumption].
    pose proof (H' x (or_introl eq_refl)) as Hx. pose proof (R (m_sqrt m lambda * x)) as Rx. set (q := sqrt lambda) in *. set (q' := m_sqrt m lambda) in *.
    assert (T : Rabs (rnd m (q' * x) - q * x) <= Rabs (rnd m (q' * x) - q' * x) + Rabs (q' * x - q * x)).
    { replace (rnd m (q' * x) - q * x) with ((rnd m (q' * x) - q' * x) + (q' * x - q * x)) by ring. apply Rabs_triang. }
    assert (Q' : Rabs q' <= (1 + u) * q) by (apply Rabs_le; nra).
    assert (E1 : Rabs (q' * x) <= (1 + u) * q * 2) by (rewrite Rabs_mult; apply Rmult_le_compat; try apply Rabs_pos; assumption).
    assert (E2 : Rabs (q' * x - q * x) <= u * q * 2).
    { replace (q' * x - q * x) with ((q' - q) * x) by ring. rewrite Rabs_mult. apply Rmult_le_compat; try apply Rabs_pos; [apply Rabs_le; lra|exact Hx]. }
    assert (E3 : u * Rabs (q' * x) <= u * ((1 + u) * q * 2)) by (apply Rmult_le_compat_l; lra).
    assert (E4 : u * ((1 + u) * q * 2) <= 4 * u * q) by (assert (0 <= u * q) by (apply Rmult_le_pos; lra); nra). lra. }
  apply G. apply reg_entries.
Qed.

Lemma sq_norm_dist : forall a b, List.length a = List.length b -> sq_norm a <= 2 * sq_norm b + 2 * sq_dist a b.
Proof.
  induction a as [|x a IH]; intros [|y b] H; try discriminate; cbn [sq_norm sq_dist]; [lra|]. specialize (IH b ltac:(cbn in H; lia)).
  pose proof (Rle_0_sqr (x - 2 * y)) as Q. unfold Rsqr in Q. nra.
Qed.

Lemma sq_dist_norm : forall a k, List.length a = k -> sq_dist a (repeat 0 k) = sq_norm a.
Proof. induction a as [|x a IH]; intros [|k] H; try discriminate; cbn [repeat sq_dist sq_norm]; [reflexivity|]. rewrite (IH k) by (cbn in H; lia). ring. Qed.

Lemma reg_penalty : forall u m lambda n s, accurate u m -> 0 <= u <= 1 / 2 -> 0 <= lambda -> List.length s = n ->
  sq_norm (mul (m_reg m lambda n) s) <= 2 * (lambda * penalty s) + 72 * (INR n * INR n) * (u * u * (lambda * sq_norm s)).
Proof.
  intros u m lambda n s Hm Hu Hl Ls. pose proof (reg_close u m lambda n Hm Hu Hl) as C. set (L := map (map (Rmult (sqrt lambda))) (reg_matrix n)) in *.
  assert (RL : rows_ok n L).
  { pose proof (rows_ok_aug lambda n [] (Forall_nil _)) as R. exact R. }
  pose proof (sqrt_pos lambda) as P. assert (D0 : 0 <= 6 * u * sqrt lambda) by (apply Rmult_le_pos; lra).
  pose proof (mul_error _ n L _ s D0 RL C) as E.
  assert (N : sq_norm (mul L s) = lambda * penalty s).
  { pose proof (aug_objective lambda n [] [] s Hl eq_refl Ls) as O. unfold a_aug, objective in O. cbn [app mul map sq_dist] in O. fold L in O.
    assert (Z : sq_dist (mul L s) (repeat 0 (List.length (reg_matrix n))) = sq_norm (mul L s)) by (apply sq_dist_norm; unfold mul, L; rewrite !map_length; reflexivity).
    unfold mul in Z at 1. rewrite Z in O. lra. }
  assert (Len : List.length (mul (m_reg m lambda n) s) = List.length (mul L s)) by (unfold mul, m_reg, L; rewrite !map_length; reflexivity).
  pose proof (sq_norm_dist _ _ Len) as T. rewrite N in T.
  assert (LL : INR (List.length L) <= INR n) by (unfold L; rewrite map_length; apply le_INR; apply reg_length).
  assert (SQ : sqrt lambda * sqrt lambda = lambda) by (apply sqrt_sqrt; exact Hl).
  set (q := INR n * (6 * u * sqrt lambda * (6 * u * sqrt lambda)) * sq_norm s) in *.
  assert (Eq : q = 36 * (INR n * (u * u * (lambda * sq_norm s)))) by (unfold q; rewrite <- SQ at 3; ring).
  assert (Pq : 0 <= q) by (unfold q; apply Rmult_le_pos; [apply Rmult_le_pos; [apply pos_INR|apply Rle_0_sqr]|apply sq_norm_nonneg]).
  pose proof (Rmult_le_compat_r q _ _ Pq LL) as B. rewrite Eq in B. nra.
Qed.

(** ** One image *)
Lemma separates_more : forall n A B, separates n A -> separates n (A ++ B).
Proof.
  intros n A B (c & Hc & H). exists c. split; [exact Hc|]. intros z Hz. eapply Rle_trans; [apply H; exact Hz|]. unfold mul. rewrite map_app, sq_norm_app.
  pose proof (sq_norm_nonneg (map (fun r => rdot r z) B)). lra.
Qed.

(** [d] bounds the errors of the distances. *)
Theorem C126_one_image : forall u m log tol nnls lambda n A A' rel s c d e, accurate u m -> accurate_log u log -> 0 <= u <= 1 / 2 -> 0 <= lambda ->
  Forall nonneg A -> rows_ok n A -> nonneg s -> List.length s = n ->
  0 < c -> (forall z, List.length z = n -> c * sq_norm z <= sq_norm (mul A z)) -> 0 <= e < 1 ->
  0 <= d -> rows_close d A A' -> 4 * (INR (List.length A) * (INR n * (d * d))) <= c ->
  Forall2 (fun row v => 1 / 10000000000 <= exp (- rdot row s) /\ Rabs (v - exp (- rdot row s)) <= e * exp (- rdot row s)) A rel ->
  nnls_within tol nnls ->
  sq_dist (m_coefficients m log nnls lambda n A' rel) s <=
    (32 * INR (List.length A) * (INR n * (d * d) * sq_norm s) + 32 * INR (List.length A) * (2 * (ln (1 - e) * ln (1 - e)) + 2592 * (u * u)) +
     8 * (2 * (lambda * penalty s) + 72 * (INR n * INR n) * (u * u * (lambda * sq_norm s))) + 8 * tol) / c.
Proof.
  intros u m log tol nnls lambda n A A' rel s c d e Hm Hlog Hu Hl NA RA Ns Ls Hc Hz He Hd F Hsmall Fr Hn.
  assert (LA : List.length A' = List.length A) by (symmetry; apply (Forall2_len _ _ _ F)).
  assert (Lr : List.length rel = List.length A) by (symmetry; apply (Forall2_len _ _ _ Fr)).
  assert (RA' : rows_ok n A').
  { clear - RA F. unfold rows_ok in *. induction F as [|r r' M M' H F IH]; [constructor|]. inversion RA; subst. constructor; [symmetry; apply (Forall2_len _ _ _ H)|apply IH; assumption]. }
  pose proof (separates_close c d n A A' Hd RA F Hsmall Hz) as Sep.
  assert (RL : rows_ok n (m_reg m lambda n)).
  { unfold rows_ok, m_reg. apply Forall_map, Forall_forall. intros r Hr. rewrite map_length. unfold reg_matrix in Hr.
    destruct (3 <=? n)%nat; apply in_map_iff in Hr; destruct Hr as (i & <- & _); unfold diff_row, unit_row; rewrite map_length; apply seq_length. }
  set (b := map (m_depth m log) rel). set (L := m_reg m lambda n) in *. set (k := List.length (reg_matrix n)).
  assert (LL : List.length L = k) by (unfold L, m_reg; apply map_length). assert (Lb : List.length b = List.length A') by (unfold b; rewrite map_length; congruence).
  destruct (Hn n (A' ++ L) (b ++ repeat 0 k)) as (X1 & X2 & X3).
  { unfold rows_ok in *. apply Forall_app. split; assumption. }
  { rewrite !app_length, repeat_length. congruence. }
  { apply separates_more. exists (c / 4). split; [lra|exact Sep]. }
  change (nnls (A' ++ L) (b ++ repeat 0 k)) with (m_coefficients m log nnls lambda n A' rel) in X1, X2, X3. set (x := m_coefficients m log nnls lambda n A' rel) in *.
  assert (Obj : forall y, sq_dist (mul (A' ++ L) y) (b ++ repeat 0 k) = sq_dist (mul A' y) b + sq_norm (mul L y)).
  { intros y. unfold mul. rewrite map_app, sq_dist_app by (rewrite map_length; symmetry; exact Lb). f_equal. apply sq_dist_norm. rewrite map_length. exact LL. }
  specialize (X3 s Ls Ns). rewrite !Obj in X3. pose proof (sq_norm_nonneg (mul L x)) as PL.
  pose proof (reg_penalty u m lambda n s Hm Hu Hl Ls) as Pen. fold L in Pen.
  assert (T : sq_dist (mul A' x) (mul A' s) <= 2 * sq_dist (mul A' x) b + 2 * sq_dist b (mul A' s)).
  { apply sq_dist_triangle; unfold mul; rewrite !map_length; congruence. }
  rewrite (sq_dist_sym b) in T.
  assert (T2 : sq_dist (mul A' s) b <= 2 * sq_dist (mul A' s) (mul A s) + 2 * sq_dist (mul A s) b).
  { apply sq_dist_triangle; unfold mul; rewrite !map_length; congruence. }
  pose proof (mul_error d n A A' s Hd RA F) as ME. pose proof (m_depths_bound u m log A rel s e Hm Hlog Hu He NA Ns Fr) as D. fold b in D.
  assert (Lx : List.length x = List.length s) by congruence.
  specialize (Sep (vsub x s)). rewrite vsub_length in Sep by exact Lx. specialize (Sep X1). rewrite mul_vsub, <- sq_dist_vsub in Sep by exact Lx.
  apply (Rmult_le_reg_l c); [exact Hc|]. match goal with |- _ <= c * (?w / c) => replace (c * (w / c)) with w by (field; lra) end. lra.
Qed.
Print Assumptions C126_one_image.

(** ** C126 *)

(** As C125, and the solver works with the machine as well: the quotients of
    intensities, the logarithms and the rows of the regularisation are rounded,
    the mean over the reference images has the relative error [mu], and nnls comes
    within [tol] of the smallest sum of squares. *)
Theorem C126_analysis_on_a_machine : forall bot top nlay cam ps H,
  (1 <= nlay)%nat -> bot < top -> within bot top (pz cam) -> Forall (in_view bot top cam) ps -> Forall (no_border_between bot top nlay cam) ps ->
  Forall2 (counts_at bot top nlay cam) ps H -> enough_heights bot top nlay (pz cam :: H) ->
  exists K u0, 0 < K /\ 0 < u0 /\
  forall u m log avg mu N tol A groups arrays a l n recs t coords indices num prop nnls lambda eps smoke bright cpus order,
  accurate u m -> accurate_log u log -> 0 <= u <= u0 -> rnd m bot = bot ->
  known_property prop -> accurate_mean N mu avg -> 0 <= mu -> (n <= Z.of_nat N)%Z ->
  (* the LED arrays, the records of the images 1..n and the binary table *)
  ascending_merge groups -> arrays = merge_indices (reorder_led_indices A) groups ->
  nth_error arrays a = Some l -> (2 <= List.length l)%nat -> (1 <= n)%Z ->
  (forall i, (1 <= i <= n)%Z -> exists F (fit : option (list (list Z) -> res F)) img r areas arrays' ds,
     Forall2 (@Permutation Z) arrays' arrays /\
     generate_analysis_data fit img r areas arrays' 0 = Ok ds /\
     map (fun d => (d_id d, d_array d)) ds = map (fun d => (d_id d, d_array d)) (recs i)) ->
  table_of_images t n recs ->
  Forall2 (fun id p => (0 <= id)%Z /\ nth_error coords (Z.to_nat id) = Some p) l ps ->
  (* the smoke in every image; none in the reference images *)
  (forall i, (1 <= i <= n)%Z -> List.length (smoke i) = nlay /\ nonneg (smoke i)) ->
  (forall i, (1 <= i <= n)%Z -> is_reference indices num i -> smoke i = repeat 0 nlay) ->
  (exists i, (1 <= i <= n)%Z /\ is_reference indices num i) ->
  (* every recorded value is the brightness of the LED times the transmission, up to the relative error eps *)
  0 <= eps -> table_error (eps + 2 * mu) < 1 / 3 ->
  (forall i d p, (1 <= i <= n)%Z -> In d (recs i) -> d_array d = Z.of_nat a -> nth_error coords (Z.to_nat (d_id d)) = Some p ->
     0 < bright (d_id d) /\ 1 / 10000000000 <= transmission bot top nlay cam p (smoke i) /\
     close_to (bright (d_id d) * transmission bot top nlay cam p (smoke i)) eps (recorded prop d)) ->
  0 <= lambda -> 0 <= tol -> nnls_within tol nnls -> Permutation order (seq 0 (Z.to_nat n)) ->
  exists xs, analyse_on m avg (solve_on m log nnls lambda nlay) bot top nlay cam coords (nth_error (index_files arrays) a) t (Z.of_nat a) prop indices num cpus order = Ok xs /\
    List.length xs = Z.to_nat n /\
    forall i x, (1 <= i <= n)%Z -> nth_error xs (Z.to_nat (i - 1)) = Some x ->
      sq_dist x (smoke i) <= K * (ln (1 - relative_error (eps + 2 * mu)) * ln (1 - relative_error (eps + 2 * mu)) + lambda * penalty (smoke i) + tol + u * u * (1 + (1 + lambda) * sq_norm (smoke i))).
Proof.
  intros bot top nlay cam ps H Hlay Hbt Hc Hview Hno HH He.
  apply (C110_when_layers_are_told_apart bot top nlay cam ps H _ Hlay Hbt Hc Hview HH (rows_exist bot top nlay cam ps Hlay Hbt Hview)) in He.
  set (M := map (paths bot top nlay cam) ps) in *. destruct He as (c & Hcc & Hz).
  assert (NonM : Forall nonneg M) by (unfold M; apply Forall_map, Forall_forall; intros p _; apply paths_nonneg).
  assert (RowM : rows_ok nlay M) by (unfold rows_ok, M; apply Forall_map, Forall_forall; intros p _; apply paths_length).
  destruct (machine_rows bot top nlay cam ps Hlay Hbt Hview Hno) as (C & u1 & HC & Hu1 & Rows). fold M in Rows.
  set (N := INR (List.length M)). assert (PN : 0 <= N) by apply pos_INR. assert (Pn : 0 <= INR nlay) by apply pos_INR.
  set (w := N * (INR nlay * (C * C))). assert (Pw : 0 <= w) by (unfold w; apply Rmult_le_pos; [exact PN|apply Rmult_le_pos; [exact Pn|nra]]).
  set (n2 := INR nlay * INR nlay). assert (Pn2 : 0 <= n2) by (unfold n2; nra).
  set (k := 32 * w + 82944 * N + 16 + 576 * n2). assert (Pk : 16 <= k) by (unfold k; lra).
  exists (k / c), (Rmin u1 (Rmin (1 / 2) (c / (4 * w + 1)))).
  split; [apply Rdiv_lt_0_compat; lra|]. split; [repeat apply Rmin_glb_lt; try lra; apply Rdiv_lt_0_compat; lra|].
  intros u m log avg mu N0 tol A groups arrays a l n recs t coords indices num prop nnls lambda eps smoke bright cpus order Hm Hlog Hu Hbot Hprop Havg Hmu HN Hg Harr Ha Hl Hn Hrec Ht Hps Hsm Hsm0 Href Heps Heps' Hmeas Hlam Htol Hnnls Hord.
  assert (Hu' : 0 <= u <= u1) by (split; [lra|eapply Rle_trans; [apply Hu|apply Rmin_l]]).
  assert (Hr : u <= Rmin (1 / 2) (c / (4 * w + 1))) by (eapply Rle_trans; [apply Hu|apply Rmin_r]).
  assert (Hr1 : u <= 1 / 2) by (eapply Rle_trans; [exact Hr|apply Rmin_l]). assert (Hr2 : u <= c / (4 * w + 1)) by (eapply Rle_trans; [exact Hr|apply Rmin_r]).
  assert (Hd : 4 * (N * (INR nlay * ((C * u) * (C * u)))) <= c).
  { replace (4 * (N * (INR nlay * ((C * u) * (C * u))))) with (4 * w * u * u) by (unfold w; ring).
    pose proof (below_quotient u (4 * w) c ltac:(lra) Hcc ltac:(lra) Hr2) as B. assert (0 <= 4 * w * u) by (apply Rmult_le_pos; lra). nra. }
  destruct (Rows u m Hm Hu' Hbot) as (M' & D1 & D2). pose proof (relative_error_range (eps + 2 * mu) ltac:(lra) Heps') as Re.
  assert (Cu : 0 <= C * u) by (apply Rmult_le_pos; lra).
  apply (any_distances_avg A groups arrays a l n recs t coords ps indices num prop bot top nlay cam _ M' avg mu N0 (solve_on m log nnls lambda nlay) (fun _ => True)
    (fun s x => sq_dist x s <= k / c * (ln (1 - relative_error (eps + 2 * mu)) * ln (1 - relative_error (eps + 2 * mu)) + lambda * penalty s + tol + u * u * (1 + (1 + lambda) * sq_norm s))) eps smoke bright cpus order); try assumption.
  - cbv zeta. fold M. intros last qs s _ Ls Ns _ F. pose proof (Forall2_len _ _ _ F) as L. pose proof (Forall2_len _ _ _ D2) as L'.
    exists (m_coefficients m log nnls lambda nlay M' (map Q2R qs)). split.
    + unfold solve_on. rewrite all_some_map, all_some_fin, <- L, L', Nat.eqb_refl. reflexivity.
    + eapply Rle_trans; [apply (C126_one_image u m log tol nnls lambda nlay M M' (map Q2R qs) s c (C * u) (relative_error (eps + 2 * mu))); try assumption; lra|].
      fold N n2. set (y := ln (1 - relative_error (eps + 2 * mu)) * ln (1 - relative_error (eps + 2 * mu))) in *. assert (Py : 0 <= y) by apply Rle_0_sqr.
      assert (Pp : 0 <= lambda * penalty s).
      { apply Rmult_le_pos; [exact Hlam|]. unfold penalty. destruct (3 <=? List.length s)%nat; [apply roughness_nonneg|apply sq_norm_nonneg]. }
      pose proof (sq_norm_nonneg s) as Pq. set (pp := lambda * penalty s) in *. set (q := sq_norm s) in *. unfold Rdiv.
      replace (k * / c * (y + pp + tol + u * u * (1 + (1 + lambda) * q))) with (k * (y + pp + tol + u * u * (1 + (1 + lambda) * q)) * / c) by ring.
      apply Rmult_le_compat_r; [left; apply Rinv_0_lt_compat; exact Hcc|].
      replace (32 * N * (INR nlay * (C * u * (C * u)) * q)) with (32 * (w * (u * u * q))) by (unfold w; ring).
      set (a1 := u * u) in *. assert (P1 : 0 <= a1) by (unfold a1; nra). set (a2 := a1 * q) in *. assert (P2 : 0 <= a2) by (unfold a2; apply Rmult_le_pos; assumption).
      set (a3 := a1 * (lambda * q)) in *. assert (P3 : 0 <= a3) by (unfold a3; apply Rmult_le_pos; [exact P1|apply Rmult_le_pos; assumption]).
      replace (a1 * (1 + (1 + lambda) * q)) with (a1 + a2 + a3) by (unfold a2, a3; ring). clearbody a1 a2 a3 pp y.
      assert (Z : forall p x, 0 <= p -> 0 <= x -> 0 <= p * x) by (intros; apply Rmult_le_pos; assumption).
      pose proof (Z w y Pw Py). pose proof (Z w pp Pw Pp). pose proof (Z w tol Pw Htol). pose proof (Z w a1 Pw P1). pose proof (Z w a2 Pw P2). pose proof (Z w a3 Pw P3).
      pose proof (Z N y PN Py). pose proof (Z N pp PN Pp). pose proof (Z N tol PN Htol). pose proof (Z N a1 PN P1). pose proof (Z N a2 PN P2). pose proof (Z N a3 PN P3).
      pose proof (Z n2 y Pn2 Py). pose proof (Z n2 pp Pn2 Pp). pose proof (Z n2 tol Pn2 Htol). pose proof (Z n2 a1 Pn2 P1). pose proof (Z n2 a2 Pn2 P2). pose proof (Z n2 a3 Pn2 P3).
      unfold k. lra.
  - intros i Hi. destruct (Hsm i Hi) as (S1 & S2). split; [exact S1|]. split; [exact S2|exact I].
Qed.
Print Assumptions C126_analysis_on_a_machine.

(** *** Examples *)

(** A logarithm which is always too small in size. *)
Definition rough_log (u x : R) : R := ln x * (1 - u).

Lemma rough_log_accurate : forall u, 0 <= u < 1 -> accurate_log u (rough_log u).
Proof.
  intros u Hu x Hx. unfold rough_log. replace (ln x * (1 - u) - ln x) with (- u * ln x) by ring. rewrite Rabs_mult, Rabs_Ropp, (Rabs_pos_eq u) by lra. lra.
Qed.

(** Every exact solver comes within every tolerance, and there is one. *)
Lemma exact_is_within : forall tol nnls, 0 <= tol -> nnls_contract nnls -> nnls_within tol nnls.
Proof. intros tol nnls Ht H n M v R L S. destruct (H n M v R L S) as (A & B & C). split; [exact A|]. split; [exact B|]. intros y Ly Ny. specialize (C y Ly Ny). lra. Qed.

Example C126_solver_example : forall tol, 0 <= tol -> exists nnls, nnls_within tol nnls.
Proof. intros tol H. destruct C93_contract_can_be_met as (nnls & C). exists nnls. apply exact_is_within; assumption. Qed.

(** The mean that is given is the one that is used. *)
Definition probe (_ : list (option vec)) (_ : option vec) (qs : list quot) : res vec :=
  match qs with Fin q :: _ => if Qle_bool 1 q then Ok [] else Err ValueError | _ => Err IndexError end.

Example C126_mean_is_used : forall m bot top cam p0 p1 p2,
  analyse_on m (fun _ => Some 1000%Q) probe bot top 3 cam [p0; p1; p2] (Some [2; 1; 0]%Z) eg_table 0 "sum_col_val" None 2 1 [] = Ok [[]; []] /\
  analyse_on m (fun _ => Some 16000%Q) probe bot top 3 cam [p0; p1; p2] (Some [2; 1; 0]%Z) eg_table 0 "sum_col_val" None 2 1 [] = Err ValueError.
Proof. intros m bot top cam p0 p1 p2. split; lazy -[m_distances]; reflexivity. Qed.

(** The example of C94 on a machine which rounds upwards. *)
Example C126_example : exists K u0, 0 < K /\ 0 < u0 /\ forall u tol nnls lambda cpus, 0 <= u <= u0 -> 0 <= tol -> nnls_within tol nnls -> 0 <= lambda ->
  exists x1 x2, analyse_on (rough u) rough_mean (solve_on (rough u) (rough_log u) nnls lambda 3) 0 3 3 eg_cam eg_coords (Some [2; 1; 0]%Z) eg_table 0 "sum_col_val" None 1 cpus [1; 0]%nat = Ok [x1; x2] /\
    sq_dist x1 [0; 0; 0] <= K * (1 / 10000000 + tol + u * u) /\
    sq_dist x2 [ln 2; ln 2; ln 2] <= K * (1 / 10000000 + tol + u * u * (1 + (1 + lambda) * (3 * (ln 2 * ln 2)))).
Proof.
  assert (L2 : 0 < ln 2) by (rewrite <- ln_1; apply ln_increasing; lra).
  destruct (C126_analysis_on_a_machine 0 3 3 eg_cam eg_coords [1; 2; 3]) as (K & u0 & HK & Hu0 & Main).
  * lia.
  * lra.
  * unfold within, eg_cam. cbn [pz]. lra.
  * unfold eg_coords. repeat (constructor; [unfold in_view, within, eg_cam; cbn [pz]; split; [lra|split; [lra|intros C; exfalso; lra]]|]). constructor.
  * unfold eg_coords. repeat (constructor; [intros C; unfold eg_cam in C; cbn [pz] in C; exfalso; lra|]). constructor.
  * unfold eg_coords. repeat (constructor; [left; unfold eg_cam; cbn [pz]; split; [lra|reflexivity]|]). constructor.
  * exact eg_heights.
  * assert (Bound : ln (1 - relative_error (0 + 2 * (1 / 1000000))) * ln (1 - relative_error (0 + 2 * (1 / 1000000))) <= 1 / 10000000).
    { set (e := relative_error (0 + 2 * (1 / 1000000))). assert (E : 0 <= e <= 1 / 9000) by (unfold e, relative_error, table_error; lra).
      assert (Y : - (1 / 8000) <= ln (1 - e) <= 0).
      { split.
        - rewrite <- (ln_exp (- (1 / 8000))). assert (P : exp (- (1 / 8000)) <= 1 - e); [|destruct P as [P|P]; [left; apply ln_increasing; [apply exp_pos|exact P]|rewrite P; lra]].
          pose proof (exp_ineq1 (1 / 8000) ltac:(lra)) as Q. rewrite exp_Ropp. apply Rle_trans with (/ (1 + 1 / 8000)); [apply Rinv_le_contravar; lra|lra].
        - rewrite <- ln_1. destruct (Req_dec e 0) as [->|Ne]; [rewrite Rminus_0_r; lra|]. left. apply ln_increasing; lra. }
      set (y := ln (1 - e)) in *. clearbody y e. assert (0 <= (1 / 8000 - y) * (1 / 8000 + y)) by (apply Rmult_le_pos; lra). lra. }
    exists K, (Rmin u0 (1 / 2)). split; [exact HK|]. split; [apply Rmin_glb_lt; lra|]. intros u tol nnls lambda cpus Hu Htol Hnnls Hlam.
    assert (Hu1 : 0 <= u <= u0) by (split; [lra|eapply Rle_trans; [apply Hu|apply Rmin_l]]). assert (Hu2 : u <= 1 / 2) by (eapply Rle_trans; [apply Hu|apply Rmin_r]).
    destruct (Main u (rough u) (rough_log u) rough_mean (1 / 1000000) 2%nat tol [[0; 1; 2]%Z] None [[0; 1; 2]%Z] 0%nat [0; 1; 2]%Z 2%Z eg_recs eg_table eg_coords None 1%Z "sum_col_val"%string nnls lambda 0 eg_smoke (fun _ => 8000) cpus [1; 0]%nat)
      as (xs & X1 & X2 & X3); clear Main.
    - apply rough_accurate. lra.
    - apply rough_log_accurate. lra.
    - exact Hu1.
    - cbn [rnd rough]. unfold upwards. ring.
    - left. reflexivity.
    - exact rough_mean_accurate.
    - lra.
    - lia.
    - exact I.
    - reflexivity.
    - reflexivity.
    - simpl. lia.
    - lia.
    - intros i Hi. assert (Ci : (i = 1 \/ i = 2)%Z) by lia. exists Format_Model.fit_data, None, ex_img, 1%Z, eg_areas, [[0; 1; 2]%Z].
      eexists. split; [repeat constructor; apply Permutation_refl|]. split; [vm_compute; reflexivity|]. destruct Ci as [-> | -> ]; reflexivity.
    - exists (map (fun i => map (plain_row i) (eg_recs i)) [1; 2]%Z). split; [reflexivity|].
      assert (X : forall i, (i = 1 \/ i = 2)%Z -> rows_of_image (row_of_record (cols eg_table) i) (eg_recs i) (map (plain_row i) (eg_recs i))).
      { intros i Hi. exists (eg_recs i). split; [apply Permutation_refl|]. split.
        - destruct Hi as [-> | -> ]; vm_compute; repeat constructor; intros C; discriminate C.
        - assert (F : Forall (fun d => (0 <= d_sum d)%Z) (eg_recs i)) by (destruct Hi as [-> | -> ]; vm_compute; repeat constructor; intros C; discriminate C).
          cbn [cols eg_table]. clear - F. induction F as [|d ds H F IH]; [constructor|]. cbn [map]. constructor; [apply plain_row_ok; exact H|exact IH]. }
      change (zrange 1 (2 + 1)) with [1; 2]%Z. cbn [map]. constructor; [apply X; left; reflexivity|]. constructor; [apply X; right; reflexivity|constructor].
    - unfold eg_coords. repeat (constructor; [split; [lia|reflexivity]|]). constructor.
    - intros i Hi. unfold eg_smoke. destruct (i =? 1)%Z; (split; [reflexivity|]); [apply zeros_nonneg|]. unfold nonneg. repeat (constructor; [lra|]). constructor.
    - intros i Hi Hr. cbn [is_reference] in Hr. assert (i = 1)%Z by lia. subst i. reflexivity.
    - exists 1%Z. split; [lia|]. cbn. lia.
    - lra.
    - unfold table_error. lra.
    - assert (TR : forall j p s, nth_error eg_coords j = Some p -> s = ln 2 -> exists m, (m = INR (S j) * ln 2) /\ transmission 0 3 3 eg_cam p [s; s; s] = exp (- m)).
      { intros j p s Hj ->. exists (INR (S j) * ln 2). split; [reflexivity|]. unfold transmission. f_equal. f_equal.
        assert (N : nth_error (map (paths 0 3 3 eg_cam) eg_coords) j = Some (paths 0 3 3 eg_cam p)) by (rewrite nth_error_map, Hj; reflexivity). rewrite eg_paths in N.
        destruct j as [|[|[|j]]]; cbn [nth_error] in N; try (apply Some_inj in N; rewrite <- N; cbn [rdot INR]; ring). destruct j; discriminate N. }
      assert (H1 : exp (- ln 2) = 1 / 2) by (rewrite exp_Ropp, exp_ln by lra; lra).
      assert (P : forall j, exp (- (INR (S j) * ln 2)) = (1 / 2) ^ S j).
      { induction j as [|j IH]; [cbn [INR pow]; rewrite Rmult_1_l, H1; lra|]. rewrite S_INR. replace (- ((INR (S j) + 1) * ln 2)) with (- (INR (S j) * ln 2) + - ln 2) by ring.
        rewrite exp_plus, IH, H1. cbn [pow]. lra. }
      intros i d p Hi Hd _ Hp. change (recorded "sum_col_val" d) with (IZR (d_sum d)). assert (Ci : (i = 1 \/ i = 2)%Z) by lia. destruct Ci as [-> | -> ].
      + assert (T0 : transmission 0 3 3 eg_cam p (eg_smoke 1) = 1) by (unfold transmission, eg_smoke; cbn [Z.eqb Pos.eqb]; rewrite rdot_zeros, Ropp_0; apply exp_0).
        rewrite T0. split; [lra|]. split; [lra|]. apply close_bounds. destruct Hd as [<-|[<-|[<-|[]]]]; cbn [d_sum fst snd]; lra.
      + change (eg_smoke 2) with [ln 2; ln 2; ln 2]. destruct (TR _ p (ln 2) Hp eq_refl) as (m & -> & Tm). rewrite Tm, P. split; [lra|].
        destruct Hd as [<-|[<-|[<-|[]]]]; cbn [d_id d_sum fst snd]; [change (Z.to_nat 0) with 0%nat|change (Z.to_nat 1) with 1%nat|change (Z.to_nat 2) with 2%nat];
          cbn [pow]; (split; [lra|]); apply close_bounds; lra.
    - exact Hlam.
    - exact Htol.
    - exact Hnnls.
    - apply perm_swap.
    - change (nth_error (index_files [[0; 1; 2]%Z]) 0) with (Some [2; 1; 0]%Z) in X1. change (Z.of_nat 0) with 0%Z in X1.
      destruct xs as [|x1 [|x2 [|x3 xs]]]; try discriminate X2. exists x1, x2. split; [exact X1|].
      pose proof (X3 1%Z x1 ltac:(lia) eq_refl) as Y1. pose proof (X3 2%Z x2 ltac:(lia) eq_refl) as Y2.
      change (eg_smoke 1) with [0; 0; 0] in Y1. change (eg_smoke 2) with [ln 2; ln 2; ln 2] in Y2.
      unfold penalty in Y1, Y2. cbn [List.length Nat.leb roughness sq_norm] in Y1, Y2.
      split; (eapply Rle_trans; [eassumption|]); (apply Rmult_le_compat_l; [lra|]); nra.
Qed.
