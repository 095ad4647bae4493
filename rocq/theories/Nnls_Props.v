(** The contract of the non-negative least squares solver can be met: every
    system whose matrix tells the unknowns apart has a solution. *)
From Coq Require Import List Arith Lia Reals Lra Psatz ClassicalEpsilon.
From Verif Require Import Base Solver_Model Solver_Props Stable_Props.
Import ListNotations.
Local Open Scope R_scope.

(** The matrix tells the unknowns apart. *)
Definition separates (n : nat) (M : matrix) : Prop :=
  exists c, 0 < c /\ forall z, length z = n -> c * sq_norm z <= sq_norm (mul M z).

(** ** Half way between two vectors *)
Fixpoint mid (a b : vec) : vec := match a, b with x :: a', y :: b' => ((x + y) / 2) :: mid a' b' | _, _ => [] end.

Lemma mid_length : forall a b, length a = length b -> length (mid a b) = length a.
Proof. induction a as [|x a IH]; intros [|y b] H; try discriminate; cbn [mid length]; [reflexivity|]. rewrite IH by (simpl in H; lia). reflexivity. Qed.

Lemma mid_nonneg : forall a b, nonneg a -> nonneg b -> nonneg (mid a b).
Proof.
  induction a as [|x a IH]; intros [|y b] Ha Hb; cbn [mid]; try constructor; inversion Ha; inversion Hb; subst; [lra|]. apply IH; assumption.
Qed.

Lemma rdot_mid : forall r a b, length a = length b -> rdot r (mid a b) = (rdot r a + rdot r b) / 2.
Proof.
  induction r as [|c r IH]; intros a b H; [cbn [rdot]; lra|].
  destruct a as [|x a], b as [|y b]; try discriminate; cbn [mid rdot]; [lra|]. rewrite IH by (simpl in H; lia). lra.
Qed.

(** Parallelogram law. *)
Lemma parallelogram : forall M v x y, length x = length y ->
  sq_dist (mul M x) v + sq_dist (mul M y) v >= 2 * sq_dist (mul M (mid x y)) v + sq_dist (mul M x) (mul M y) / 2 - 
    (if (length v <? length M)%nat then sq_dist (mul M x) (mul M y) else 0).
Proof.
  intros M v x y H. unfold mul. revert v. induction M as [|r M IH]; intros v; [simpl; destruct v; simpl; lra|].
  destruct v as [|b v].
  - cbn [map sq_dist length Nat.ltb Nat.leb]. pose proof (Rle_0_sqr (rdot r x - rdot r y)) as Q. unfold Rsqr in Q. pose proof (sq_dist_nonneg (map (fun r => rdot r x) M) (map (fun r => rdot r y) M)). lra.
  - specialize (IH v). cbn [map sq_dist length]. rewrite rdot_mid by exact H. change (S (length v) <? S (length M))%nat with (length v <? length M)%nat.
    pose proof (Rle_0_sqr (rdot r x - rdot r y)) as Q. unfold Rsqr in Q.
    destruct (length v <? length M)%nat; nra.
Qed.

(** ** Limits of vectors, coordinate by coordinate *)
Lemma rdot_cv : forall r (u : nat -> vec) x n, (forall k, length (u k) = n) -> length x = n ->
  (forall j, Un_cv (fun k => nth j (u k) 0) (nth j x 0)) -> Un_cv (fun k => rdot r (u k)) (rdot r x).
Proof.
  induction r as [|c r IH]; intros u x n Lu Lx H.
  - cbn [rdot]. intros eps He. exists 0%nat. intros k _. unfold R_dist. rewrite Rminus_diag_eq by reflexivity. rewrite Rabs_R0. exact He.
  - destruct n as [|n].
    + destruct x; [|discriminate]. intros eps He. exists 0%nat. intros k _. specialize (Lu k). destruct (u k); [|discriminate].
      cbn [rdot]. unfold R_dist. rewrite Rminus_diag_eq by reflexivity. rewrite Rabs_R0. exact He.
    + destruct x as [|a x]; [discriminate|]. cbn [rdot].
      assert (E : forall k, rdot (c :: r) (u k) = c * nth 0 (u k) 0 + rdot r (tl (u k))). { intros k. specialize (Lu k). destruct (u k); [discriminate|]. reflexivity. }
      apply (Un_cv_ext (fun k => c * nth 0 (u k) 0 + rdot r (tl (u k)))); [intros k; symmetry; apply E|].
      apply CV_plus.
      * apply CV_mult; [|apply (H 0%nat)]. intros eps He. exists 0%nat. intros k _. unfold R_dist. rewrite Rminus_diag_eq by reflexivity. rewrite Rabs_R0. exact He.
      * apply (IH _ x n); [intros k; specialize (Lu k); destruct (u k); [discriminate|simpl in *; lia]|simpl in Lx; lia|].
        intros j. apply (Un_cv_ext (fun k => nth (S j) (u k) 0)); [|apply (H (S j))]. intros k. specialize (Lu k). destruct (u k); [discriminate|]. reflexivity.
Qed.

Lemma cst_cv : forall a, Un_cv (fun _ => a) a.
Proof. intros a eps He. exists 0%nat. intros k _. unfold R_dist. rewrite Rminus_diag_eq by reflexivity. rewrite Rabs_R0. exact He. Qed.

Lemma misfit_cv : forall M v (u : nat -> vec) x n, (forall k, length (u k) = n) -> length x = n ->
  (forall j, Un_cv (fun k => nth j (u k) 0) (nth j x 0)) -> Un_cv (fun k => sq_dist (mul M (u k)) v) (sq_dist (mul M x) v).
Proof.
  intros M v u x n Lu Lx H. revert v. unfold mul. induction M as [|r M IH]; intros v; [cbn [map sq_dist]; apply cst_cv|].
  destruct v as [|b v]; cbn [map sq_dist]; [apply cst_cv|]. pose proof (rdot_cv r u x n Lu Lx H) as D.
  assert (D' : Un_cv (fun k => rdot r (u k) - b) (rdot r x - b)) by (apply CV_minus; [exact D|apply cst_cv]).
  apply CV_plus; [apply CV_mult; exact D'|apply IH].
Qed.

Lemma cv_le : forall u l m, Un_cv u l -> (forall k, u k <= m + / (INR k + 1)) -> l <= m.
Proof.
  intros u l m H B. apply Rnot_lt_le. intros C. destruct (H ((l - m) / 2) ltac:(lra)) as (N & HN).
  destruct (archimed_cor1 ((l - m) / 2) ltac:(lra)) as (K & K1 & K2).
  set (k := max N K). specialize (HN k ltac:(unfold k; lia)). unfold R_dist in HN. apply Rabs_def2 in HN. specialize (B k).
  assert (I : / (INR k + 1) <= / INR K).
  { apply Rinv_le_contravar; [apply lt_0_INR; exact K2|]. assert (INR K <= INR k) by (apply le_INR; unfold k; lia). lra. }
  lra.
Qed.

Lemma cv_nonneg : forall u l, Un_cv u l -> (forall k, 0 <= u k) -> 0 <= l.
Proof.
  intros u l H B. apply Rnot_lt_le. intros C. destruct (H (- l) ltac:(lra)) as (N & HN). specialize (HN N ltac:(lia)). unfold R_dist in HN. apply Rabs_def2 in HN.
  specialize (B N). lra.
Qed.

Lemma nth_sq : forall a b j, length a = length b -> (nth j a 0 - nth j b 0) * (nth j a 0 - nth j b 0) <= sq_dist a b.
Proof.
  induction a as [|x a IH]; intros [|y b] j H; try discriminate.
  - destruct j; cbn [nth sq_dist]; lra.
  - destruct j as [|j]; cbn [nth sq_dist].
    + pose proof (sq_dist_nonneg a b). lra.
    + pose proof (IH b j ltac:(simpl in H; lia)). pose proof (Rle_0_sqr (x - y)) as Q. unfold Rsqr in Q. lra.
Qed.

(** ** Existence *)
Theorem C93_solutions_exist : forall n M v, length v = length M -> separates n M -> exists x, nnls_solution n M v x.
Proof.
  intros n M v Lv (c & Hc & Hsep). set (f := fun x => sq_dist (mul M x) v).
  set (feasible := fun x => length x = n /\ nonneg x).
  assert (F0 : feasible (repeat 0 n)) by (split; [apply repeat_length|apply zeros_nonneg]).
  (* the greatest lower bound *)
  destruct (completeness (fun r => exists x, feasible x /\ r = - f x)) as (w & W1 & W2).
  { exists 0. intros r (x & _ & ->). pose proof (sq_dist_nonneg (mul M x) v). unfold f. lra. }
  { exists (- f (repeat 0 n)), (repeat 0 n). split; [exact F0|reflexivity]. }
  set (m := - w). assert (Low : forall x, feasible x -> m <= f x). { intros x Hx. unfold m. assert (- f x <= w) by (apply W1; exists x; split; [exact Hx|reflexivity]). lra. }
  assert (Near : forall k : nat, exists x, feasible x /\ f x <= m + / (INR k + 1)).
  { intros k. assert (Pk : 0 < / (INR k + 1)) by (apply Rinv_0_lt_compat; pose proof (pos_INR k); lra).
    apply NNPP. intros C. assert (B : w <= w - / (INR k + 1)); [|lra]. apply W2. intros r (x & Hx & ->). apply Rnot_lt_le. intros D. apply C. exists x. split; [exact Hx|]. unfold m. lra. }
  set (u := fun k => proj1_sig (constructive_indefinite_description _ (Near k))).
  assert (U : forall k, feasible (u k) /\ f (u k) <= m + / (INR k + 1)) by (intros k; exact (proj2_sig (constructive_indefinite_description _ (Near k)))).
  assert (Lu : forall k, length (u k) = n) by (intros k; apply U).
  (* any two members are close *)
  assert (Close : forall k l, c * sq_dist (u k) (u l) <= 2 * / (INR k + 1) + 2 * / (INR l + 1)).
  { intros k l. assert (L : length (u k) = length (u l)) by (rewrite !Lu; reflexivity).
    pose proof (parallelogram M v (u k) (u l) L) as P. rewrite Lv, Nat.ltb_irrefl in P.
    pose proof (Low (mid (u k) (u l)) ltac:(split; [rewrite mid_length by exact L; apply Lu|apply mid_nonneg; apply U])) as Q.
    pose proof (proj2 (U k)) as Uk. pose proof (proj2 (U l)) as Ul. unfold f in *.
    pose proof (Hsep (vsub (u k) (u l)) ltac:(rewrite vsub_length by exact L; apply Lu)) as S. rewrite mul_vsub in S by exact L. rewrite <- sq_dist_vsub in S. lra. }
  assert (Cau : forall j, Cauchy_crit (fun k => nth j (u k) 0)).
  { intros j eps He. assert (Pe : 0 < c * (eps * eps) / 4) by (apply Rmult_lt_0_compat; [apply Rmult_lt_0_compat; [exact Hc|apply Rmult_lt_0_compat; lra]|lra]).
    destruct (archimed_cor1 _ Pe) as (N & N1 & N2). exists N. intros k l Hk Hl. unfold R_dist.
    assert (I : forall q, (q >= N)%nat -> / (INR q + 1) < / INR N).
    { intros q Hq. assert (INR N <= INR q) by (apply le_INR; lia). assert (0 < INR N) by (apply lt_0_INR; exact N2). apply Rinv_lt_contravar; [apply Rmult_lt_0_compat; lra|lra]. }
    pose proof (I k Hk). pose proof (I l Hl). pose proof (Close k l) as C. pose proof (nth_sq (u k) (u l) j ltac:(rewrite !Lu; reflexivity)) as S.
    set (d := nth j (u k) 0 - nth j (u l) 0) in *. apply Rnot_le_lt. intros D.
    assert (E : eps * eps <= d * d). { rewrite <- (Rabs_pos_eq eps) in D by lra. apply Rsqr_le_abs_1 in D. exact D. }
    assert (G : c * (eps * eps) <= c * sq_dist (u k) (u l)) by (apply Rmult_le_compat_l; lra). lra. }
  set (lim := fun j => proj1_sig (R_complete _ (Cau j))).
  assert (Lim : forall j, Un_cv (fun k => nth j (u k) 0) (lim j)) by (intros j; exact (proj2_sig (R_complete _ (Cau j)))).
  set (x := map lim (seq 0 n)). assert (Lx : length x = n) by (unfold x; rewrite map_length; apply seq_length).
  assert (Nx : forall j, (j < n)%nat -> nth j x 0 = lim j).
  { intros j Hj. unfold x. rewrite (nth_indep _ 0 (lim 0%nat)) by (rewrite map_length, seq_length; exact Hj). rewrite map_nth, seq_nth by exact Hj. reflexivity. }
  assert (Cv : forall j, Un_cv (fun k => nth j (u k) 0) (nth j x 0)).
  { intros j. destruct (le_lt_dec n j) as [L|L].
    - rewrite (nth_overflow x) by lia. apply (Un_cv_ext (fun _ => 0)); [|apply cst_cv]. intros k. rewrite nth_overflow by (rewrite Lu; exact L). reflexivity.
    - rewrite Nx by exact L. apply Lim. }
  exists x. split; [exact Lx|]. split.
  - apply Forall_forall. intros a Ha. unfold x in Ha. apply in_map_iff in Ha. destruct Ha as (j & <- & Hj). apply in_seq in Hj.
    apply (cv_nonneg (fun k => nth j (u k) 0)); [apply Lim|]. intros k. assert (H : nonneg (u k)) by apply U. unfold nonneg in H. rewrite Forall_forall in H. apply H. apply nth_In. rewrite Lu. lia.
  - intros y Hy Ny. apply Rle_trans with m; [|apply (Low y); split; assumption].
    apply (cv_le (fun k => f (u k))); [apply (misfit_cv M v u x n Lu Lx Cv)|]. intros k. apply U.
Qed.
Print Assumptions C93_solutions_exist.

(** Two solutions are equal. *)
Theorem C93_solutions_are_unique : forall n M v x y, length v = length M -> separates n M ->
  nnls_solution n M v x -> nnls_solution n M v y -> x = y.
Proof.
  intros n M v x y Lv (c & Hc & Hsep) (X1 & X2 & X3) (Y1 & Y2 & Y3). assert (L : length x = length y) by congruence.
  pose proof (parallelogram M v x y L) as P. rewrite Lv, Nat.ltb_irrefl in P.
  pose proof (X3 (mid x y) ltac:(rewrite mid_length by exact L; exact X1) (mid_nonneg x y X2 Y2)) as A.
  pose proof (Y3 (mid x y) ltac:(rewrite mid_length by exact L; exact X1) (mid_nonneg x y X2 Y2)) as B.
  pose proof (Hsep (vsub x y) ltac:(rewrite vsub_length by exact L; exact X1)) as S. rewrite mul_vsub in S by exact L. rewrite <- sq_dist_vsub in S.
  apply sq_dist_0; [exact L|]. pose proof (sq_dist_nonneg x y) as Q. pose proof (sq_dist_nonneg (mul M x) (mul M y)).
  assert (c * sq_dist x y <= 0) by lra. apply Rle_antisym; [|exact Q]. apply (Rmult_le_reg_l c); [exact Hc|lra].
Qed.
Print Assumptions C93_solutions_are_unique.

(** Contract of the solver for all systems: whenever the matrix tells the
    unknowns apart, the result is a solution. *)
Definition nnls_contract (nnls : matrix -> vec -> vec) : Prop :=
  forall n M v, rows_ok n M -> length v = length M -> separates n M -> nnls_solution n M v (nnls M v).

Theorem C93_contract_can_be_met : exists nnls, nnls_contract nnls.
Proof.
  assert (H : forall p : matrix * vec, exists x : vec, forall n, rows_ok n (fst p) -> length (snd p) = length (fst p) -> separates n (fst p) -> nnls_solution n (fst p) (snd p) x).
  { intros (M, v). cbn [fst snd]. destruct (classic (exists n, rows_ok n M /\ length v = length M /\ separates n M)) as [(n & H1 & H2 & H3)|N].
    - destruct (C93_solutions_exist n M v H2 H3) as (x & Hx). exists x. intros n' H1' _ H3'. assert (E : n' = n); [|rewrite E; exact Hx].
      destruct M as [|r M].
      + (* without rows only the empty vector is told apart *)
        assert (Z : forall q, separates q [] -> q = 0%nat).
        { intros q (c & Hc & Hs). destruct q as [|q]; [reflexivity|]. exfalso. specialize (Hs (repeat 1 (S q)) (repeat_length _ _)). cbn in Hs.
          pose proof (sq_norm_nonneg (repeat 1 q)) as Q. assert (0 < c * (1 * 1 + sq_norm (repeat 1 q))) by (apply Rmult_lt_0_compat; lra). cbn in *. lra. }
        rewrite (Z n H3), (Z n' H3'). reflexivity.
      + inversion H1; inversion H1'; subst. congruence.
    - exists []. intros n H1 H2 H3. exfalso. apply N. exists n. split; [exact H1|split; [exact H2|exact H3]]. }
  exists (fun M v => proj1_sig (constructive_indefinite_description _ (H (M, v)))). intros n M v H1 H2 H3.
  exact (proj2_sig (constructive_indefinite_description _ (H (M, v))) n H1 H2 H3).
Qed.
Print Assumptions C93_contract_can_be_met.

(** A matrix which tells three unknowns apart. *)
Example C93_separates_example : separates 3 [[1; 0; 0]; [1; 1; 0]; [1; 1; 1]] /\ ~ separates 2 [[1; 1]; [2; 2]].
Proof.
  split.
  - exists (1 / 8). split; [lra|]. intros z Hz. destruct z as [|a [|b [|d [|? ?]]]]; try discriminate. unfold mul. cbn [map rdot sq_norm].
    replace (1 * a + (0 * b + (0 * d + 0))) with a by ring. replace (1 * a + (1 * b + (0 * d + 0))) with (a + b) by ring. replace (1 * a + (1 * b + (1 * d + 0))) with (a + b + d) by ring.
    set (p := a). set (q := a + b). set (r := a + b + d). replace b with (q - p) by (unfold p, q; ring). replace d with (r - q) by (unfold q, r; ring).
    assert (T : forall s t, (s - t) * (s - t) <= 2 * (s * s) + 2 * (t * t)) by (intros s t; pose proof (Rle_0_sqr (s + t)) as Q; unfold Rsqr in Q; lra).
    pose proof (T q p). pose proof (T r q). pose proof (Rle_0_sqr p) as P1. pose proof (Rle_0_sqr q) as P2. pose proof (Rle_0_sqr r) as P3. unfold Rsqr in *. change a with p. lra.
  - intros (c & Hc & H). specialize (H [1; -1] eq_refl). unfold mul in H. cbn [map rdot sq_norm] in H. lra.
Qed.
