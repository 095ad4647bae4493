(** Linear systems and piecewise linear functions, used for C110. *)
From Coq Require Import List Arith Lia Reals Lra Psatz.
From Verif Require Import Base Solver_Model Solver_Props Stable_Props Nnls_Props.
Import ListNotations.
Local Open Scope R_scope.

(** ** Either a matrix tells the unknowns apart or it maps some vector to zero *)

(** [t - q r], entry by entry *)
Fixpoint sub_mul (q : R) (r t : vec) : vec :=
  match r, t with x :: r', y :: t' => (y - q * x) :: sub_mul q r' t' | _, _ => [] end.

Lemma sub_mul_length : forall q r t, length r = length t -> length (sub_mul q r t) = length t.
Proof. induction r as [|x r IH]; intros [|y t] H; try discriminate; cbn [sub_mul length]; [reflexivity|]. rewrite IH by (simpl in H; lia). reflexivity. Qed.

Lemma rdot_sub_mul : forall q r t z, length r = length t -> rdot (sub_mul q r t) z = rdot t z - q * rdot r z.
Proof.
  induction r as [|x r IH]; intros [|y t] z H; try discriminate; [cbn [sub_mul rdot]; lra|].
  cbn [sub_mul]. destruct z as [|w z]; cbn [rdot]; [lra|]. rewrite IH by (simpl in H; lia). ring.
Qed.

Lemma cauchy : forall r z, rdot r z * rdot r z <= sq_norm r * sq_norm z.
Proof.
  induction r as [|x r IH]; intros z; [cbn [rdot sq_norm]; lra|]. destruct z as [|y z]; [cbn [rdot sq_norm]; lra|].
  cbn [rdot sq_norm]. specialize (IH z). pose proof (sq_norm_nonneg r) as P. pose proof (sq_norm_nonneg z) as Q.
  set (d := rdot r z) in *. set (p := sq_norm r) in *. set (q := sq_norm z) in *. clearbody d p q.
  destruct (Req_dec p 0) as [E|E].
  - subst p. assert (d = 0) by nra. subst d. nra.
  - assert (0 < p) by lra. assert (K : 0 <= (y * p - x * d) * (y * p - x * d)) by apply Rle_0_sqr.
    apply (Rmult_le_reg_l p); [assumption|]. nra.
Qed.

Lemma sq_norm_app : forall a b, sq_norm (a ++ b) = sq_norm a + sq_norm b.
Proof. induction a as [|x a IH]; intros b; cbn [app sq_norm]; [lra|]. rewrite IH. lra. Qed.

(** What an elimination step does to the norm. *)
Lemma elimination_bound : forall a r n L, a <> 0 -> length r = n -> Forall (fun t : vec => length t = S n) L ->
  exists K, 0 <= K /\ forall x z, length z = n ->
    sq_norm (mul (map (fun t => sub_mul (hd 0 t / a) r (tl t)) L) z) <=
    2 * sq_norm (mul L (x :: z)) + K * ((a * x + rdot r z) * (a * x + rdot r z)).
Proof.
  intros a r n L Ha Hr. induction L as [|t L IH]; intros HL.
  - exists 0. split; [lra|]. intros x z _. unfold mul. cbn [map sq_norm]. lra.
  - apply Forall_cons_iff in HL. destruct HL as (Ht & HL). destruct (IH HL) as (K & HK & B).
    destruct t as [|b t]; [discriminate|]. simpl in Ht. set (q := b / a).
    exists (K + 2 * (q * q)). split; [pose proof (Rle_0_sqr q) as S; unfold Rsqr in S; lra|].
    intros x z Hz. specialize (B x z Hz). unfold mul in *. cbn [map sq_norm hd tl rdot].
    fold q. rewrite rdot_sub_mul by lia. set (w := a * x + rdot r z) in *.
    replace (rdot t z - q * rdot r z) with ((b * x + rdot t z) - q * w) by (unfold w, q; field; exact Ha).
    set (u := b * x + rdot t z). pose proof (Rle_0_sqr (u + q * w)) as S. unfold Rsqr in S. nra.
Qed.

Lemma heads_cases : forall (M : matrix), Forall (fun r => hd 0 r = 0) M \/ exists l1 r l2, M = l1 ++ r :: l2 /\ hd 0 r <> 0.
Proof.
  induction M as [|r M IH]; [left; constructor|]. destruct (Req_dec (hd 0 r) 0) as [E|E].
  - destruct IH as [IH|(l1 & r' & l2 & -> & H)]; [left; constructor; assumption|]. right. exists (r :: l1), r', l2. split; [reflexivity|exact H].
  - right. exists [], r, M. split; [reflexivity|exact E].
Qed.

Definition kernel_vector (n : nat) (M : matrix) (z : vec) : Prop :=
  length z = n /\ 0 < sq_norm z /\ Forall (fun r => rdot r z = 0) M.

Lemma kernel_or_separates : forall n M, Forall (fun r : vec => length r = n) M ->
  (exists z, kernel_vector n M z) \/ ((n <= length M)%nat /\ separates n M).
Proof.
  induction n as [|n IH]; intros M HM.
  - right. split; [lia|]. exists 1. split; [lra|]. intros z Hz. destruct z; [|discriminate]. cbn [sq_norm]. pose proof (sq_norm_nonneg (mul M [])). lra.
  - destruct (heads_cases M) as [H0|(l1 & r0 & l2 & E & Hr0)].
    + left. exists (1 :: repeat 0 n). unfold kernel_vector. split; [simpl; rewrite repeat_length; reflexivity|]. split.
      * cbn [sq_norm]. pose proof (sq_norm_nonneg (repeat 0 n)). lra.
      * rewrite Forall_forall in *. intros r Hr. specialize (H0 r Hr). specialize (HM r Hr). destruct r as [|x r]; [discriminate|]. cbn [hd] in H0. cbn [rdot]. rewrite rdot_zeros. lra.
    + subst M. apply Forall_app in HM. destruct HM as (HM1 & HM2). apply Forall_cons_iff in HM2. destruct HM2 as (Hlen & HM2).
      destruct r0 as [|a r]; [discriminate|]. cbn [hd] in Hr0. simpl in Hlen.
      set (L := (l1 ++ l2)%list). assert (HL : Forall (fun t : vec => length t = S n) L) by (apply Forall_app; split; assumption).
      set (N := map (fun t => sub_mul (hd 0 t / a) r (tl t)) L).
      assert (HN : Forall (fun t : vec => length t = n) N).
      { unfold N. apply Forall_map. eapply Forall_impl; [|exact HL]. intros t Ht. cbv beta in *. destruct t as [|b t]; [discriminate|]. simpl in Ht. cbn [tl]. rewrite sub_mul_length by lia. lia. }
      destruct (IH N HN) as [(z & Lz & Pz & Kz)|(Hn & c & Hc & Hs)].
      * left. exists ((- rdot r z / a) :: z). split; [simpl; lia|]. split.
        { cbn [sq_norm]. pose proof (Rle_0_sqr (- rdot r z / a)) as S. unfold Rsqr in S. lra. }
        assert (KL : Forall (fun t => rdot t (- rdot r z / a :: z) = 0) L).
        { unfold N in Kz. apply Forall_map in Kz. rewrite Forall_forall in *. intros t Ht. specialize (Kz t Ht). specialize (HL t Ht). destruct t as [|b t]; [discriminate|].
          cbn [hd tl] in Kz. simpl in HL. rewrite rdot_sub_mul in Kz by lia. cbn [rdot]. rewrite <- Kz. field. exact Hr0. }
        unfold L in KL. apply Forall_app in KL. destruct KL as (K1 & K2). apply Forall_app. split; [exact K1|]. constructor; [|exact K2]. cbn [rdot]. field. exact Hr0.
      * right. unfold N, L in Hn. rewrite map_length, app_length in Hn. split; [rewrite app_length; simpl; lia|].
        destruct (elimination_bound a r n L Hr0 ltac:(lia) HL) as (K & HK & B). fold N in B.
        set (p := sq_norm r). pose proof (sq_norm_nonneg r) as Pp. fold p in Pp.
        assert (Ha2 : 0 < a * a) by nra.
        set (Q := 2 / (a * a) + (1 + 2 * p / (a * a)) * ((2 + K) / c)).
        assert (T1 : 0 < 2 / (a * a)) by (apply Rdiv_lt_0_compat; lra).
        assert (T2 : 0 <= p / (a * a)) by (apply Rmult_le_pos; [exact Pp|]; apply Rlt_le, Rinv_0_lt_compat; exact Ha2).
        assert (T3 : 0 < (2 + K) / c) by (apply Rdiv_lt_0_compat; lra).
        assert (T4 : 2 * p / (a * a) = 2 * (p / (a * a))) by (unfold Rdiv; ring).
        assert (HQ : 0 < Q) by (unfold Q; rewrite T4; nra).
        exists (/ Q). split; [apply Rinv_0_lt_compat; exact HQ|]. intros z Lz. destruct z as [|x z]; [discriminate|]. simpl in Lz.
        specialize (B x z ltac:(lia)). specialize (Hs z ltac:(lia)).
        set (w := a * x + rdot r z) in *.
        assert (EM : sq_norm (mul (l1 ++ (a :: r) :: l2) (x :: z)) = sq_norm (mul L (x :: z)) + w * w).
        { unfold L, mul. rewrite !map_app. cbn [map]. rewrite !sq_norm_app. cbn [sq_norm rdot]. fold w. lra. }
        rewrite EM. set (S := sq_norm (mul L (x :: z))) in *. pose proof (sq_norm_nonneg (mul L (x :: z))) as PS. fold S in PS.
        set (v := sq_norm z) in *. pose proof (sq_norm_nonneg z) as Pv. fold v in Pv.
        pose proof (cauchy r z) as C. fold p v in C. set (g := rdot r z) in *.
        assert (Ex : x = (w - g) / a) by (unfold w; field; exact Hr0).
        assert (Pw : 0 <= w * w) by apply Rle_0_sqr.
        assert (B1 : v <= (2 + K) / c * (S + w * w)).
        { apply (Rmult_le_reg_l c); [exact Hc|]. replace (c * ((2 + K) / c * (S + w * w))) with ((2 + K) * (S + w * w)) by (field; lra).
          assert (0 <= K * S) by (apply Rmult_le_pos; assumption). lra. }
        assert (B2 : x * x <= 2 / (a * a) * (w * w) + 2 * (p / (a * a)) * v).
        { rewrite Ex. replace ((w - g) / a * ((w - g) / a)) with ((w - g) * (w - g) / (a * a)) by (field; exact Hr0).
          replace (2 / (a * a) * (w * w) + 2 * (p / (a * a)) * v) with ((2 * (w * w) + 2 * (p * v)) / (a * a)) by (field; exact Hr0).
          apply Rmult_le_compat_r; [apply Rlt_le, Rinv_0_lt_compat; exact Ha2|]. pose proof (Rle_0_sqr (w + g)) as Sq. unfold Rsqr in Sq. lra. }
        cbn [sq_norm]. fold v. apply (Rmult_le_reg_l Q); [exact HQ|]. rewrite <- Rmult_assoc, Rinv_r, Rmult_1_l by lra.
        unfold Q. rewrite T4. set (h := p / (a * a)) in *. set (e := (2 + K) / c) in *. set (f := 2 / (a * a)) in *.
        assert (B3 : (1 + 2 * h) * v <= (1 + 2 * h) * (e * (S + w * w))) by (apply Rmult_le_compat_l; lra).
        assert (B4 : 0 <= f * S) by (apply Rmult_le_pos; lra). lra.
Qed.

Lemma separates_no_kernel : forall n M z, separates n M -> ~ kernel_vector n M z.
Proof.
  intros n M z (c & Hc & H) (L & P & K). specialize (H z L). assert (E : sq_norm (mul M z) = 0).
  { clear - K. unfold mul. induction K as [|r M E K IH]; cbn [map sq_norm]; [reflexivity|]. rewrite E, IH. lra. }
  rewrite E in H. nra.
Qed.

(** Fewer rows than unknowns. *)
Lemma kernel_of_few_rows : forall n M, Forall (fun r : vec => length r = n) M -> (length M < n)%nat -> exists z, kernel_vector n M z.
Proof. intros n M H L. destruct (kernel_or_separates n M H) as [K|(C & _)]; [exact K|lia]. Qed.

(** ** Piecewise linear functions with knots at whole numbers *)

(** 0 up to 0, 1 from 1 on *)
Definition ramp (t : R) : R := Rmax 0 (Rmin 1 t).

Lemma ramp_0 : forall t, t <= 0 -> ramp t = 0.
Proof. intros t H. unfold ramp. rewrite Rmin_right by lra. apply Rmax_left. exact H. Qed.
Lemma ramp_1 : forall t, 1 <= t -> ramp t = 1.
Proof. intros t H. unfold ramp. rewrite Rmin_left by lra. apply Rmax_right. lra. Qed.
Lemma ramp_mid : forall t, 0 <= t <= 1 -> ramp t = t.
Proof. intros t H. unfold ramp. rewrite Rmin_right by lra. apply Rmax_right. lra. Qed.

(** The slope is [s_k] between [o + k] and [o + k + 1]. *)
Fixpoint wsum (s : vec) (o t : R) : R :=
  match s with [] => 0 | x :: s' => x * ramp (t - o) + wsum s' (o + 1) t end.

Lemma wsum_low : forall s o t, t <= o -> wsum s o t = 0.
Proof. induction s as [|x s IH]; intros o t H; cbn [wsum]; [reflexivity|]. rewrite ramp_0, IH by lra. lra. Qed.

Lemma wsum_step : forall s o k t, (k < length s)%nat -> o + INR k <= t <= o + INR k + 1 ->
  wsum s o t = wsum s o (o + INR k) + nth k s 0 * (t - (o + INR k)).
Proof.
  induction s as [|x s IH]; intros o k t Hk Ht; [simpl in Hk; lia|]. destruct k as [|k].
  - change (INR 0) with 0 in *. rewrite Rplus_0_r in *. cbn [wsum nth]. rewrite !wsum_low by lra. rewrite ramp_mid by lra. rewrite ramp_0 by lra. lra.
  - rewrite S_INR in *. cbn [wsum nth]. pose proof (pos_INR k).
    replace (o + (INR k + 1)) with (o + 1 + INR k) in * by ring. rewrite (IH (o + 1) k t) by (simpl in Hk; try lia; lra).
    rewrite !ramp_1 by lra. lra.
Qed.

(** Interpolation between the values [V] at [o], [o + 1], ... *)
Fixpoint interp (V : vec) (o t : R) : R :=
  match V with [] => 0 | v :: V' => v * (ramp (t - o + 1) - ramp (t - o)) + interp V' (o + 1) t end.

(** Differences of neighbouring values. *)
Fixpoint diffs (V : vec) : vec :=
  match V with v :: V' => match V' with w :: _ => (w - v) :: diffs V' | [] => [] end | [] => [] end.

Lemma diffs_length : forall V, length (diffs V) = pred (length V).
Proof. induction V as [|v [|w V] IH]; try reflexivity. cbn [diffs length pred] in *. rewrite IH. reflexivity. Qed.

Lemma interp_wsum : forall V v o t, t <= o + INR (length V) ->
  interp (v :: V) o t = v * ramp (t - o + 1) + wsum (diffs (v :: V)) o t.
Proof.
  induction V as [|w V IH]; intros v o t H.
  - cbn [length] in H. change (INR 0) with 0 in H. cbn [interp diffs wsum]. rewrite (ramp_0 (t - o)) by lra. lra.
  - cbn [length] in H. rewrite S_INR in H. change (interp (v :: w :: V) o t) with (v * (ramp (t - o + 1) - ramp (t - o)) + interp (w :: V) (o + 1) t).
    rewrite IH by lra. change (diffs (v :: w :: V)) with ((w - v) :: diffs (w :: V)). cbn [wsum]. replace (t - (o + 1) + 1) with (t - o) by ring. ring.
Qed.

Lemma interp_app : forall a b o t, interp (a ++ b) o t = interp a o t + interp b (o + INR (length a)) t.
Proof.
  induction a as [|x a IH]; intros b o t; cbn [app interp length]; [change (INR 0) with 0; rewrite Rplus_0_r; lra|].
  rewrite IH, S_INR. replace (o + (INR (length a) + 1)) with (o + 1 + INR (length a)) by ring. lra.
Qed.

Lemma interp_zeros : forall k o t, interp (repeat 0 k) o t = 0.
Proof. induction k as [|k IH]; intros o t; cbn [repeat interp]; [reflexivity|]. rewrite IH. lra. Qed.

(** The values count between [o - 1] and [o + length V] only. *)
Lemma interp_outside : forall V o t, t <= o - 1 \/ o + INR (length V) <= t -> interp V o t = 0.
Proof.
  induction V as [|v V IH]; intros o t H; cbn [interp]; [reflexivity|]. cbn [length] in H. rewrite S_INR in H. pose proof (pos_INR (length V)).
  rewrite IH by (destruct H; [left|right]; lra). destruct H; [rewrite !ramp_0 by lra|rewrite !ramp_1 by lra]; lra.
Qed.

(** The interpolation as a row of a matrix. *)
Definition hat_row (m : nat) (o t : R) : vec := map (fun k => ramp (t - (o + INR k) + 1) - ramp (t - (o + INR k))) (seq 0 m).

Lemma hat_row_length : forall m o t, length (hat_row m o t) = m.
Proof. intros. unfold hat_row. rewrite map_length, seq_length. reflexivity. Qed.

Lemma hat_row_interp : forall V o t, rdot (hat_row (length V) o t) V = interp V o t.
Proof.
  induction V as [|v V IH]; intros o t; [reflexivity|]. unfold hat_row. cbn [length seq map rdot interp]. rewrite rdot_shift.
  change (INR 0) with 0. rewrite Rplus_0_r. rewrite <- (IH (o + 1) t). unfold hat_row.
  rewrite (rdot_ext _ (fun k => ramp (t - (o + 1 + INR k) + 1) - ramp (t - (o + 1 + INR k)))).
  - lra.
  - intros j _. rewrite S_INR. replace (o + (INR j + 1)) with (o + 1 + INR j) by ring. reflexivity.
Qed.

(** ** The interval of a number *)

(** Whole part of a number between 0 and [n]. *)
Fixpoint cell_of (n : nat) (t : R) : nat :=
  match n with O => O | S n' => if Rle_dec (INR n') t then n' else cell_of n' t end.

Lemma cell_of_spec : forall n t, (1 <= n)%nat -> 0 <= t < INR n -> INR (cell_of n t) <= t < INR (cell_of n t) + 1 /\ (cell_of n t < n)%nat.
Proof.
  induction n as [|n IH]; intros t Hn Ht; [lia|]. cbn [cell_of]. rewrite S_INR in Ht. destruct (Rle_dec (INR n) t) as [H|H].
  - split; [lra|lia].
  - destruct n as [|n]; [change (INR 0) with 0 in H; lra|]. destruct (IH t ltac:(lia) ltac:(lra)). split; [assumption|lia].
Qed.

(** ** Runs of non-zero values *)
Lemma run_down : forall (V : nat -> R) k, V k <> 0 -> exists i, (i <= k)%nat /\ (forall l, (i <= l <= k)%nat -> V l <> 0) /\ (i = 0%nat \/ V (pred i) = 0).
Proof.
  intros V k. induction k as [|k IH]; intros H.
  - exists 0%nat. split; [lia|]. split; [|left; reflexivity]. intros l Hl. assert (l = 0)%nat by lia. subst. exact H.
  - destruct (Req_dec (V k) 0) as [E|E].
    + exists (S k). split; [lia|]. split; [|right; exact E]. intros l Hl. assert (l = S k) by lia. subst. exact H.
    + destruct (IH E) as (i & H1 & H2 & H3). exists i. split; [lia|]. split; [|exact H3]. intros l Hl. destruct (Nat.eq_dec l (S k)) as [->|]; [exact H|apply H2; lia].
Qed.

Lemma run_up : forall (V : nat -> R) n k, (k <= n)%nat -> V k <> 0 -> exists j, (k <= j <= n)%nat /\ (forall l, (k <= l <= j)%nat -> V l <> 0) /\ (j = n \/ V (S j) = 0).
Proof.
  intros V n k Hk. remember (n - k)%nat as m eqn:E. revert k Hk E. induction m as [|m IH]; intros k Hk E H.
  - exists k. split; [lia|]. split; [|left; lia]. intros l Hl. assert (l = k) by lia. subst. exact H.
  - destruct (Req_dec (V (S k)) 0) as [E'|E'].
    + exists k. split; [lia|]. split; [|right; exact E']. intros l Hl. assert (l = k) by lia. subst. exact H.
    + destruct (IH (S k) ltac:(lia) ltac:(lia) E') as (j & H1 & H2 & H3). exists j. split; [lia|]. split; [|exact H3].
      intros l Hl. destruct (Nat.eq_dec l k) as [->|]; [exact H|apply H2; lia].
Qed.

(** ** Zeros of a piecewise linear function *)

(** Among the given points enough lie around each group of knots. *)
Definition enough_around (n : nat) (xs : list R) : Prop :=
  forall i j, (i <= j <= n)%nat -> exists zs, NoDup zs /\ (j - i < length zs)%nat /\
    forall z, In z zs -> In z xs /\ INR i - 1 < z < INR j + 1.

Lemma zeros_force : forall s n xs t0, (1 <= n)%nat -> length s = n -> (forall x, In x xs -> 0 <= x <= INR n) -> In t0 xs ->
  (forall x, In x xs -> wsum s 0 x = wsum s 0 t0) -> enough_around n xs -> Forall (fun v => v = 0) s.
Proof.
  intros s n xs t0 Hn Ls Hx H0 Hz He. set (F := fun t => wsum s 0 t - wsum s 0 t0). set (V := fun k => F (INR k)).
  assert (Step : forall k t, (k < n)%nat -> INR k <= t <= INR k + 1 -> F t = V k + nth k s 0 * (t - INR k)).
  { intros k t Hk Ht. unfold V, F. rewrite (wsum_step s 0 k t) by (try lia; lra). rewrite Rplus_0_l. lra. }
  assert (Next : forall k, (k < n)%nat -> V (S k) = V k + nth k s 0).
  { intros k Hk. unfold V at 1. rewrite (Step k) by (rewrite ?S_INR; try lia; lra). rewrite S_INR. lra. }
  assert (Lin : forall k t, (k < n)%nat -> INR k <= t <= INR k + 1 -> F t = V k * (INR k + 1 - t) + V (S k) * (t - INR k)).
  { intros k t Hk Ht. rewrite (Step k t Hk Ht), (Next k Hk). lra. }
  assert (All : forall k, (k <= n)%nat -> V k = 0).
  { intros k Hk. destruct (Req_dec (V k) 0) as [E|E]; [exact E|]. exfalso.
    destruct (run_down V k E) as (i & I1 & I2 & I3). destruct (run_up V n k Hk E) as (j & J1 & J2 & J3).
    assert (NZ : forall l, (i <= l <= j)%nat -> V l <> 0). { intros l Hl. destruct (le_lt_dec l k); [apply I2; lia|apply J2; lia]. }
    destruct (He i j ltac:(lia)) as (zs & Nd & Len & Hin).
    assert (Fz : forall z, In z zs -> F z = 0). { intros z Hzs. unfold F. rewrite (Hz z) by (apply Hin; exact Hzs). lra. }
    assert (Cell : forall z, In z zs -> INR (cell_of n z) < z < INR (cell_of n z) + 1 /\ (i <= cell_of n z < j)%nat).
    { intros z Hzs. destruct (Hin z Hzs) as (G1 & G2). specialize (Hx z G1). specialize (Fz z Hzs).
      destruct (Rlt_dec z (INR n)) as [Zn|Zn].
      - destruct (cell_of_spec n z Hn ltac:(lra)) as (C1 & C2). set (c := cell_of n z) in *.
        pose proof (Lin c z C2 ltac:(lra)) as Lz. rewrite Fz in Lz.
        assert (Hc1 : (i - 1 <= c)%nat). { apply Nat.nlt_ge. intros C. assert (INR c + 1 + 1 <= INR i) by (rewrite <- !S_INR; apply le_INR; lia). lra. }
        assert (Hc2 : (c <= j)%nat). { apply Nat.nlt_ge. intros C. assert (INR j + 1 <= INR c) by (rewrite <- S_INR; apply le_INR; lia). lra. }
        assert (NE : INR c <> z).
        { intros C. assert (V c = 0) by (unfold V; rewrite C; exact Fz). destruct (le_lt_dec i c) as [G|G]; [apply (NZ c); [lia|assumption]|].
          assert (i = S c) by lia. subst i. rewrite S_INR in G2. lra. }
        assert (Hi : (i <= c)%nat).
        { destruct (le_lt_dec i c) as [G|G]; [exact G|]. exfalso. assert (i = S c) by lia. subst i. destruct I3 as [I3|I3]; [lia|]. cbn [pred] in I3. rewrite I3 in Lz.
          assert (V (S c) * (z - INR c) = 0) by lra. apply Rmult_integral in H. destruct H as [H|H]; [apply (NZ (S c)); [lia|exact H]|lra]. }
        assert (Hj : (c < j)%nat).
        { destruct (le_lt_dec j c) as [G|G]; [|exact G]. exfalso. assert (c = j) by lia. destruct J3 as [J3|J3]; [lia|]. rewrite <- H in J3. rewrite J3 in Lz.
          assert (Q : V c * (INR c + 1 - z) = 0) by lra. apply Rmult_integral in Q. destruct Q as [Q|Q]; [apply (NZ c); [lia|exact Q]|lra]. }
        split; [lra|lia].
      - exfalso. assert (z = INR n) by lra. subst z. assert (V n = 0) by exact Fz. destruct (le_lt_dec n j) as [G|G].
        + assert (j = n) by lia. apply (NZ n); [lia|assumption].
        + assert (INR j + 1 <= INR n) by (rewrite <- S_INR; apply le_INR; lia). lra. }
    assert (Inj : forall y z, In y zs -> In z zs -> cell_of n y = cell_of n z -> y = z).
    { intros y z Hy Hzs Ec. destruct (Cell y Hy) as (A1 & A2). destruct (Cell z Hzs) as (B1 & B2). rewrite <- Ec in B1. set (c := cell_of n y) in *.
      pose proof (Lin c y ltac:(lia) ltac:(lra)) as Ly. pose proof (Lin c z ltac:(lia) ltac:(lra)) as Lz. rewrite (Fz y Hy) in Ly. rewrite (Fz z Hzs) in Lz.
      assert (NZc := NZ c ltac:(lia)). assert (Q : (V (S c) - V c) * (z - y) = 0) by lra. apply Rmult_integral in Q. destruct Q as [Q|Q]; [|lra].
      exfalso. assert (Ev : V (S c) = V c) by lra. rewrite Ev in Ly. apply NZc. lra. }
    assert (ND : NoDup (map (cell_of n) zs)).
    { clear - Nd Inj. induction Nd as [|z zs Hn Nd IH]; cbn [map]; constructor.
      - intros C. apply in_map_iff in C. destruct C as (y & E & Hy). apply Hn. rewrite <- (Inj y z); [exact Hy|right; exact Hy|left; reflexivity|exact E].
      - apply IH. intros y w Hy Hw. apply Inj; right; assumption. }
    assert (Inc : incl (map (cell_of n) zs) (seq i (j - i))).
    { intros c Hc. apply in_map_iff in Hc. destruct Hc as (z & <- & Hzs). destruct (Cell z Hzs) as (_ & C). apply in_seq. lia. }
    pose proof (NoDup_incl_length ND Inc) as B. rewrite map_length, seq_length in B. lia. }
  apply Forall_forall. intros v Hv. apply (In_nth _ _ 0) in Hv. destruct Hv as (k & Hk & <-). pose proof (Next k ltac:(lia)) as N.
  rewrite !All in N by lia. lra.
Qed.

Lemma sq_norm_app_pos : forall a b c, 0 < sq_norm b -> 0 < sq_norm (a ++ b ++ c).
Proof. intros a b c H. rewrite !sq_norm_app. pose proof (sq_norm_nonneg a). pose proof (sq_norm_nonneg c). lra. Qed.

Lemma diffs_zero : forall V v, Forall (fun x => x = 0) (diffs (v :: V)) -> Forall (fun x => x = v) (v :: V).
Proof.
  induction V as [|w V IH]; intros v H; [constructor; [reflexivity|constructor]|].
  change (diffs (v :: w :: V)) with ((w - v) :: diffs (w :: V)) in H. apply Forall_cons_iff in H. destruct H as (E & H). specialize (IH w H).
  constructor; [reflexivity|]. assert (w = v) by lra. subst w. exact IH.
Qed.

Lemma interp_const : forall V v o t, Forall (fun x => x = v) V -> (1 <= length V)%nat -> o <= t <= o + INR (pred (length V)) -> interp V o t = v.
Proof.
  intros V v o t H L Ht. destruct V as [|x V]; [simpl in L; lia|]. cbn [length pred] in Ht. assert (x = v) by (inversion H; assumption). subst x.
  rewrite interp_wsum by lra. rewrite ramp_1 by lra. assert (D : forall u o', Forall (fun x => x = v) (u :: V) -> wsum (diffs (u :: V)) o' t = 0).
  { clear. induction V as [|w V IH]; intros u o' H; [reflexivity|]. change (diffs (u :: w :: V)) with ((w - u) :: diffs (w :: V)). cbn [wsum].
    inversion H as [|? ? E1 H2]; subst. inversion H2 as [|? ? E2 H3]; subst. rewrite IH by (constructor; [reflexivity|assumption]). lra. }
  rewrite D by exact H. lra.
Qed.

Lemma few_zeros : forall n xs t0 i j zs, (1 <= n)%nat -> (forall x, In x xs -> 0 <= x <= INR n) -> In t0 xs -> (i <= j <= n)%nat ->
  (length zs <= j - i)%nat -> (forall x, In x xs -> INR i - 1 < x < INR j + 1 -> In x zs) ->
  exists s, length s = n /\ 0 < sq_norm s /\ forall x, In x xs -> wsum s 0 x = wsum s 0 t0.
Proof.
  intros n xs t0 i j zs Hn Hx H0 Hij Lz Hz. set (m := (j - i + 1)%nat).
  destruct (kernel_of_few_rows m (map (hat_row m (INR i)) zs)) as (v & Lv & Pv & Kv).
  { apply Forall_map, Forall_forall. intros z _. apply hat_row_length. }
  { rewrite map_length. unfold m. lia. }
  set (V := (repeat 0 i ++ v ++ repeat 0 (n - j))%list).
  assert (LV : length V = S n) by (unfold V; rewrite !app_length, !repeat_length; unfold m in Lv; lia).
  assert (PV : 0 < sq_norm V) by (apply sq_norm_app_pos; exact Pv).
  assert (Z : forall x, In x xs -> interp V 0 x = 0).
  { intros x Hxs. unfold V. rewrite !interp_app, !interp_zeros, repeat_length. rewrite Rplus_0_l, Rplus_0_r, Rplus_0_l.
    destruct (Rle_dec x (INR i - 1)) as [A|A]; [apply interp_outside; left; lra|].
    destruct (Rle_dec (INR j + 1) x) as [B|B].
    - apply interp_outside. right. rewrite Lv. unfold m. rewrite plus_INR, minus_INR by lia. change (INR 1) with 1. lra.
    - rewrite <- hat_row_interp, Lv. rewrite Forall_map, Forall_forall in Kv. apply Kv. apply Hz; [exact Hxs|lra]. }
  destruct V as [|v0 V']; [discriminate|]. simpl in LV. exists (diffs (v0 :: V')). split; [rewrite diffs_length; cbn [length pred]; lia|].
  assert (W : forall x, In x xs -> wsum (diffs (v0 :: V')) 0 x = - v0).
  { intros x Hxs. pose proof (Z x Hxs) as E. specialize (Hx x Hxs). rewrite interp_wsum in E by (replace (length V') with n by lia; lra). rewrite ramp_1 in E by lra. lra. }
  split; [|intros x Hxs; rewrite !W by assumption; reflexivity].
  pose proof (sq_norm_nonneg (diffs (v0 :: V'))) as P. destruct (Req_dec (sq_norm (diffs (v0 :: V'))) 0) as [E|E]; [|lra]. exfalso.
  apply sq_norm_pos in E. apply diffs_zero in E. pose proof (Z t0 H0) as Z0. specialize (Hx t0 H0).
  rewrite (interp_const _ v0) in Z0; [|exact E|cbn [length]; lia|cbn [length pred]; replace (length V') with n by lia; lra].
  subst v0. assert (sq_norm (0 :: V') = 0); [|lra]. clear - E. induction E as [|x l Ex E IH]; cbn [sq_norm]; [reflexivity|]. rewrite Ex, IH. lra.
Qed.
