(** Profiles which are linear in height: lemmas for C119. *)
From Coq Require Import List Arith Lia Reals Lra Psatz.
From Verif Require Import Base Solver_Model Solver_Props Stable_Props Nnls_Props Separate_Proofs.
Import ListNotations.
Local Open Scope R_scope.

(** ** Progressions *)
Definition line (a b : R) (k n : nat) : vec := map (fun i => a + INR i * b) (seq k n).

Lemma line_length : forall a b k n, length (line a b k n) = n.
Proof. intros. unfold line. rewrite map_length. apply seq_length. Qed.

Lemma line_progression : forall a b n, progression (line a b 0 n).
Proof. intros a b n. exists a, b. rewrite line_length. reflexivity. Qed.

Lemma progression_line : forall s n, progression s -> length s = n -> exists a b, s = line a b 0 n.
Proof. intros s n (a & b & E) L. exists a, b. rewrite <- L. exact E. Qed.

Lemma line_nth : forall a b n k i, (i < n)%nat -> nth i (line a b k n) 0 = a + INR (k + i) * b.
Proof.
  intros a b n. unfold line. induction n as [|n IH]; intros k i H; [lia|]. cbn [seq map]. destruct i as [|i]; cbn [nth]; [rewrite Nat.add_0_r; reflexivity|].
  rewrite IH by lia. replace (S k + i)%nat with (k + S i)%nat by lia. reflexivity.
Qed.

Lemma vsub_line : forall a b a' b' n k, vsub (line a b k n) (line a' b' k n) = line (a - a') (b - b') k n.
Proof. intros a b a' b' n. unfold line. induction n as [|n IH]; intros k; cbn [seq map vsub]; [reflexivity|]. rewrite IH. f_equal. ring. Qed.

(** No second differences: a progression. *)
Lemma smooth_from : forall x a b, roughness (a :: b :: x) = 0 -> forall k, a :: b :: x = line (a - INR k * (b - a)) (b - a) k (S (S (length x))).
Proof.
  induction x as [|c x IH]; intros a b H k.
  - unfold line. cbn [length seq map]. rewrite S_INR. f_equal; [ring|]. f_equal. ring.
  - change (roughness (a :: b :: c :: x)) with ((a - 2 * b + c) * (a - 2 * b + c) + roughness (b :: c :: x)) in H.
    pose proof (roughness_nonneg (b :: c :: x)) as P. pose proof (Rle_0_sqr (a - 2 * b + c)) as Q. unfold Rsqr in Q.
    assert (Z : (a - 2 * b + c) * (a - 2 * b + c) = 0) by lra. apply Rmult_integral in Z. assert (C : c - b = b - a) by lra.
    specialize (IH b c ltac:(lra) (S k)). rewrite IH. rewrite C. unfold line. cbn [length seq map]. rewrite !S_INR.
    f_equal; [ring|]. f_equal; [ring|]. f_equal; [ring|]. apply map_ext. intros i. ring.
Qed.

Lemma smooth_progression : forall x, roughness x = 0 -> progression x.
Proof.
  intros [|a [|b x]] H.
  - exists 0, 0. reflexivity.
  - exists a, 0. cbn [length seq map]. change (INR 0) with 0. f_equal. ring.
  - exists a, (b - a). pose proof (smooth_from x a b H 0) as E. change (INR 0) with 0 in E. replace (a - 0 * (b - a)) with a in E by ring. exact E.
Qed.

Lemma roughness_line_sub : forall x a b k, roughness (vsub x (line a b k (length x))) = roughness x.
Proof.
  induction x as [|u x IH]; intros a b k; [reflexivity|]. unfold line. cbn [length seq map vsub]. fold (line a b (S k) (length x)).
  specialize (IH a b (S k)). destruct x as [|v x]; [reflexivity|]. destruct x as [|w x]; [reflexivity|].
  unfold line in *. cbn [length seq map vsub] in *.
  change (roughness (?p :: ?q :: ?r :: ?t)) with ((p - 2 * q + r) * (p - 2 * q + r) + roughness (q :: r :: t)). rewrite IH. rewrite !S_INR. f_equal. ring.
Qed.

(** ** The integral of the staircase *)
Definition stairs (n : nat) (t : R) : R := wsum (line 0 1 0 n) 0 t.

Lemma wsum_line_from : forall a b n k o t, wsum (line a b k n) o t = a * wsum (line 1 0 k n) o t + b * wsum (line 0 1 k n) o t.
Proof.
  intros a b n. unfold line. induction n as [|n IH]; intros k o t; cbn [seq map wsum]; [lra|]. rewrite (IH (S k)). ring.
Qed.

Lemma wsum_ones : forall n k o t, o <= t <= o + INR n -> wsum (line 1 0 k n) o t = t - o.
Proof.
  intros n. unfold line. induction n as [|n IH]; intros k o t H; cbn [seq map wsum]; [change (INR 0) with 0 in H; lra|]. rewrite S_INR in H.
  destruct (Rle_dec (o + 1) t) as [L|L].
  - rewrite (IH (S k) (o + 1) t) by lra. rewrite ramp_1 by lra. ring.
  - rewrite wsum_low by lra. rewrite ramp_mid by lra. ring.
Qed.

Lemma wsum_line : forall a b n t, 0 <= t <= INR n -> wsum (line a b 0 n) 0 t = a * t + b * stairs n t.
Proof. intros a b n t H. rewrite wsum_line_from, wsum_ones by lra. unfold stairs. ring. Qed.

(** In the cell number [k] the staircase has height [k]. *)
Definition tangent (k : nat) (t : R) : R := INR k * t - INR k * (INR k + 1) / 2.

Lemma stairs_at : forall n k, (k <= n)%nat -> stairs n (INR k) = INR k * (INR k - 1) / 2.
Proof.
  intros n k. induction k as [|k IH]; intros H.
  - unfold stairs. change (INR 0) with 0. rewrite wsum_low by lra. lra.
  - unfold stairs in *. rewrite (wsum_step _ 0 k) by (rewrite ?line_length, ?S_INR; try lia; lra). rewrite line_nth by lia. rewrite !Rplus_0_l. rewrite IH by lia.
    rewrite S_INR. cbn [Nat.add]. field.
Qed.

Lemma stairs_in : forall n k t, (k < n)%nat -> INR k <= t <= INR k + 1 -> stairs n t = tangent k t.
Proof.
  intros n k t Hk Ht. pose proof (stairs_at n k ltac:(lia)) as S. unfold stairs in *. rewrite (wsum_step _ 0 k) by (rewrite ?line_length; try lia; lra).
  rewrite line_nth by lia. rewrite !Rplus_0_l. rewrite S. unfold tangent. cbn [Nat.add]. field.
Qed.

Lemma cell_exists : forall n t, (1 <= n)%nat -> 0 <= t <= INR n -> exists k, (k < n)%nat /\ INR k <= t <= INR k + 1.
Proof.
  intros n t Hn Ht. destruct (Req_dec t (INR n)) as [E|E].
  - exists (pred n). split; [lia|]. destruct n as [|n]; [lia|]. cbn [pred]. rewrite S_INR in *. lra.
  - destruct (cell_of_spec n t Hn ltac:(lra)) as (C1 & C2). exists (cell_of n t). split; [exact C2|lra].
Qed.

Lemma tangent_below : forall n k t, (1 <= n)%nat -> (k < n)%nat -> 0 <= t <= INR n ->
  tangent k t <= stairs n t /\ (stairs n t = tangent k t -> INR k <= t <= INR k + 1).
Proof.
  intros n k t Hn Hk Ht. destruct (cell_exists n t Hn Ht) as (j & Hj & Tj). rewrite (stairs_in n j t Hj Tj).
  assert (D : tangent j t - tangent k t = (INR j - INR k) * (t - (INR j + INR k + 1) / 2)) by (unfold tangent; field).
  destruct (lt_eq_lt_dec j k) as [[L|L]|L].
  - assert (Q : INR j + 1 <= INR k) by (rewrite <- S_INR; apply le_INR; lia).
    assert (P : 0 <= (INR k - INR j) * ((INR j + INR k + 1) / 2 - t)) by (apply Rmult_le_pos; lra). split; [lra|].
    intros E. assert (Z : (INR j - INR k) * (t - (INR j + INR k + 1) / 2) = 0) by lra. apply Rmult_integral in Z. lra.
  - subst j. split; [lra|]. intros _. exact Tj.
  - assert (Q : INR k + 1 <= INR j) by (rewrite <- S_INR; apply le_INR; lia).
    assert (P : 0 <= (INR j - INR k) * (t - (INR j + INR k + 1) / 2)) by (apply Rmult_le_pos; lra). split; [lra|].
    intros E. assert (Z : (INR j - INR k) * (t - (INR j + INR k + 1) / 2) = 0) by lra. apply Rmult_integral in Z. lra.
Qed.

(** Three heights share a cell. *)
Definition one_cell (n : nat) (x y z : R) : Prop :=
  exists k, (k < n)%nat /\ INR k <= x <= INR k + 1 /\ INR k <= y <= INR k + 1 /\ INR k <= z <= INR k + 1.

Lemma three_sorted : forall n a b u v w, (1 <= n)%nat -> 0 <= u -> u < v -> v < w -> w <= INR n -> b <> 0 ->
  a * u + b * stairs n u = a * v + b * stairs n v -> a * v + b * stairs n v = a * w + b * stairs n w -> one_cell n u v w.
Proof.
  intros n a b u v w Hn Hu Huv Hvw Hw Hb E1 E2. destruct (cell_exists n v Hn ltac:(lra)) as (k & Hk & Tk). exists k.
  destruct (tangent_below n k u Hn Hk ltac:(lra)) as (U1 & U2). destruct (tangent_below n k w Hn Hk ltac:(lra)) as (W1 & W2).
  rewrite (stairs_in n k v Hk Tk) in E1, E2. set (eu := stairs n u - tangent k u). set (ew := stairs n w - tangent k w).
  assert (Su : stairs n u = tangent k u + eu) by (unfold eu; ring). assert (Sw : stairs n w = tangent k w + ew) by (unfold ew; ring).
  assert (F1 : (a + b * INR k) * (v - u) = b * eu) by (rewrite Su in E1; unfold tangent in *; lra).
  assert (F2 : (a + b * INR k) * (w - v) = - (b * ew)) by (rewrite Sw in E2; unfold tangent in *; lra).
  assert (G : b * (eu * (w - v) + ew * (v - u)) = 0).
  { replace (b * (eu * (w - v) + ew * (v - u))) with (b * eu * (w - v) + b * ew * (v - u)) by ring. rewrite <- F1.
    replace (b * ew) with (- ((a + b * INR k) * (w - v))) by lra. ring. }
  apply Rmult_integral in G. destruct G as [G|G]; [contradiction|].
  assert (P1 : 0 <= eu) by (unfold eu; lra). assert (P2 : 0 <= ew) by (unfold ew; lra).
  assert (Q1 : 0 <= eu * (w - v)) by (apply Rmult_le_pos; lra). assert (Q2 : 0 <= ew * (v - u)) by (apply Rmult_le_pos; lra).
  assert (Z1 : eu * (w - v) = 0) by lra. assert (Z2 : ew * (v - u) = 0) by lra. apply Rmult_integral in Z1, Z2.
  split; [exact Hk|]. split; [apply U2; unfold eu in *; lra|]. split; [exact Tk|]. apply W2. unfold ew in *; lra.
Qed.

Lemma three_points : forall n a b x y z, (1 <= n)%nat -> 0 <= x <= INR n -> 0 <= y <= INR n -> 0 <= z <= INR n -> x <> y -> x <> z -> y <> z -> b <> 0 ->
  a * x + b * stairs n x = a * y + b * stairs n y -> a * x + b * stairs n x = a * z + b * stairs n z -> one_cell n x y z.
Proof.
  intros n a b x y z Hn Hx Hy Hz N1 N2 N3 Hb E1 E2.
  assert (C : one_cell n x y z \/ one_cell n x z y \/ one_cell n y x z \/ one_cell n y z x \/ one_cell n z x y \/ one_cell n z y x).
  { destruct (Rtotal_order x y) as [L1|[L1|L1]]; [|contradiction|]; (destruct (Rtotal_order x z) as [L2|[L2|L2]]; [|contradiction|]); (destruct (Rtotal_order y z) as [L3|[L3|L3]]; [|contradiction|]); try lra.
    - left. apply (three_sorted n a b); lra || assumption.
    - right; left. apply (three_sorted n a b); lra || assumption.
    - do 4 right; left. apply (three_sorted n a b); lra || assumption.
    - do 2 right; left. apply (three_sorted n a b); lra || assumption.
    - do 3 right; left. apply (three_sorted n a b); lra || assumption.
    - do 5 right. apply (three_sorted n a b); lra || assumption. }
  destruct C as [C|[C|[C|[C|[C|C]]]]]; destruct C as (k & K0 & K1 & K2 & K3); exists k; (split; [exact K0|]; split; [|split]); assumption.
Qed.
