(** Lemmas for C121: the cost of the non-linear solver has a smallest value
    within the bounds; what the intensities say about the coefficients. *)
From Coq Require Import List Arith Lia Reals Lra Psatz ClassicalEpsilon.
From Verif Require Import Base Solver_Model Solver_Props Stable_Props Separate_Proofs Minimiser_Props.
Import ListNotations.
Local Open Scope R_scope.

(** ** Distances *)

(** Sum of the absolute differences. *)
Fixpoint l1 (x y : vec) : R := match x, y with a :: x', b :: y' => Rabs (a - b) + l1 x' y' | _, _ => 0 end.

Lemma l1_nonneg : forall x y, 0 <= l1 x y.
Proof. induction x as [|a x IH]; intros [|b y]; cbn [l1]; try lra. pose proof (IH y). pose proof (Rabs_pos (a - b)). lra. Qed.

Lemma l1_refl : forall x, l1 x x = 0.
Proof. induction x as [|a x IH]; cbn [l1]; [reflexivity|]. rewrite IH. replace (a - a) with 0 by ring. rewrite Rabs_R0. ring. Qed.

Lemma dist_l1 : forall a b, sqrt (sq_dist a b) <= l1 a b.
Proof.
  induction a as [|x a IH]; intros [|y b]; cbn [sq_dist l1]; try (rewrite sqrt_0; lra).
  specialize (IH b). pose proof (l1_nonneg a b) as P. pose proof (sq_dist_nonneg a b) as Q. pose proof (Rabs_pos (x - y)) as A.
  rewrite <- (sqrt_square (Rabs (x - y) + l1 a b)) by lra. apply sqrt_le_1_alt.
  assert (S : sq_dist a b <= l1 a b * l1 a b).
  { rewrite <- (sqrt_sqrt (sq_dist a b)) by exact Q. pose proof (sqrt_pos (sq_dist a b)). apply Rmult_le_compat; assumption. }
  assert (E : (x - y) * (x - y) = Rabs (x - y) * Rabs (x - y)) by (rewrite <- Rabs_mult, Rabs_pos_eq by apply Rle_0_sqr; reflexivity).
  rewrite E. pose proof (Rmult_le_pos _ _ A P). lra.
Qed.

(** The triangle inequality. *)
Lemma dist_triangle : forall a b c, length a = length b -> length b = length c ->
  sqrt (sq_dist a c) <= sqrt (sq_dist a b) + sqrt (sq_dist b c).
Proof.
  intros a b c H H'. rewrite !sq_dist_vsub. set (u := vsub a b). set (v := vsub b c).
  assert (E : sq_norm (vsub a c) = sq_norm u + 2 * rdot u v + sq_norm v).
  { unfold u, v. clear u v. revert b c H H'. induction a as [|x a IH]; intros [|y b] [|z c] H H'; try discriminate; cbn [vsub sq_norm rdot]; [ring|].
    rewrite (IH b c) by (simpl in *; lia). ring. }
  pose proof (cauchy u v) as C. rewrite E. pose proof (sq_norm_nonneg u) as U. pose proof (sq_norm_nonneg v) as V.
  set (p := sqrt (sq_norm u)). set (q := sqrt (sq_norm v)). assert (P : 0 <= p) by apply sqrt_pos. assert (Q : 0 <= q) by apply sqrt_pos.
  rewrite <- (sqrt_square (p + q)) by lra. apply sqrt_le_1_alt.
  assert (Ep : p * p = sq_norm u) by (apply sqrt_sqrt; exact U). assert (Eq : q * q = sq_norm v) by (apply sqrt_sqrt; exact V).
  assert (D : rdot u v <= p * q).
  { apply Rsqr_incr_0_var; [|apply Rmult_le_pos; assumption]. unfold Rsqr. replace (p * q * (p * q)) with ((p * p) * (q * q)) by ring. rewrite Ep, Eq. exact C. }
  rewrite <- Ep, <- Eq. nra.
Qed.

(** ** A function which changes slowly has a smallest value in a box *)
Definition slow (n : nat) (L : R) (f : vec -> R) : Prop :=
  forall x y, length x = n -> length y = n -> in_bounds x -> in_bounds y -> f x - f y <= L * l1 x y.

Definition clamp (v : R) : R := Rmax 0 (Rmin 10 v).

Lemma clamp_in : forall v, 0 <= clamp v <= 10.
Proof. intros v. unfold clamp. split; [apply Rmax_l|]. apply Rmax_lub; [lra|apply Rmin_l]. Qed.

Lemma clamp_id : forall v, 0 <= v <= 10 -> clamp v = v.
Proof. intros v H. unfold clamp. rewrite Rmin_right by lra. apply Rmax_right. lra. Qed.

Lemma clamp_slow : forall v w, Rabs (clamp v - clamp w) <= Rabs (v - w).
Proof.
  intros v w. unfold clamp, Rmax, Rmin. destruct (Rle_dec 10 v), (Rle_dec 10 w); repeat destruct (Rle_dec 0 _); unfold Rabs; repeat destruct (Rcase_abs _); lra.
Qed.

Lemma box_minimum : forall L, 0 <= L -> forall n f, slow n L f ->
  exists x, length x = n /\ in_bounds x /\ forall y, length y = n -> in_bounds y -> f x <= f y.
Proof.
  intros L HL. induction n as [|n IH]; intros f Hf.
  - exists []. split; [reflexivity|]. split; [constructor|]. intros [|? ?] H _; [lra|discriminate].
  - assert (H : forall a, exists x, length x = n /\ in_bounds x /\ forall y, length y = n -> in_bounds y -> f (clamp a :: x) <= f (clamp a :: y)).
    { intros a. apply (IH (fun x => f (clamp a :: x))). intros x y Lx Ly Bx By.
      specialize (Hf (clamp a :: x) (clamp a :: y) ltac:(simpl; lia) ltac:(simpl; lia) ltac:(constructor; [apply clamp_in|exact Bx]) ltac:(constructor; [apply clamp_in|exact By])).
      cbn [l1] in Hf. replace (clamp a - clamp a) with 0 in Hf by ring. rewrite Rabs_R0 in Hf. replace (0 + l1 x y) with (l1 x y) in Hf by ring. exact Hf. }
    set (m := fun a => proj1_sig (constructive_indefinite_description _ (H a))).
    assert (M : forall a, length (m a) = n /\ in_bounds (m a) /\ forall y, length y = n -> in_bounds y -> f (clamp a :: m a) <= f (clamp a :: y))
      by (intros a; exact (proj2_sig (constructive_indefinite_description _ (H a)))). clearbody m.
    set (h := fun a => f (clamp a :: m a)).
    assert (S : forall a b, h a - h b <= L * Rabs (a - b)).
    { intros a b. unfold h. destruct (M a) as (La & Ba & Ma). destruct (M b) as (Lb & Bb & _). specialize (Ma (m b) Lb Bb).
      specialize (Hf (clamp a :: m b) (clamp b :: m b) ltac:(simpl; lia) ltac:(simpl; lia) ltac:(constructor; [apply clamp_in|exact Bb]) ltac:(constructor; [apply clamp_in|exact Bb])).
      cbn [l1] in Hf. rewrite l1_refl in Hf. pose proof (clamp_slow a b) as C. apply (Rmult_le_compat_l L) in C; [|exact HL]. lra. }
    destruct (continuity_ab_min h 0 10 ltac:(lra)) as (a & Ha & Ba).
    { intros c _. intros e He. exists (e / (L + 1)). split; [apply Rdiv_lt_0_compat; lra|]. intros x (_ & Hx). unfold dist in *. cbn in *. unfold R_dist in *.
      pose proof (S x c) as S1. pose proof (S c x) as S2. rewrite (Rabs_minus_sym c x) in S2.
      assert (B : L * Rabs (x - c) < e).
      { apply Rle_lt_trans with ((L + 1) * Rabs (x - c)); [pose proof (Rabs_pos (x - c)); lra|].
        apply (Rmult_lt_compat_l (L + 1)) in Hx; [|lra]. replace ((L + 1) * (e / (L + 1))) with e in Hx by (field; lra). exact Hx. }
      unfold Rabs at 1. destruct (Rcase_abs _); lra. }
    destruct (M a) as (La & Bm & Ma). exists (a :: m a). split; [simpl; lia|]. split; [constructor; [exact Ba|exact Bm]|].
    intros [|b y] Ly By; [discriminate|]. inversion By as [|? ? Hb By']; subst.
    specialize (Ha b Hb). unfold h in Ha. rewrite !clamp_id in Ha by assumption. destruct (M b) as (_ & _ & Mb). rewrite clamp_id in Mb by exact Hb.
    eapply Rle_trans; [exact Ha|]. apply Mb; [simpl in Ly; lia|exact By'].
Qed.

(** ** The cost changes slowly *)
Lemma total_nonneg_R : forall r, nonneg r -> 0 <= total r.
Proof. intros r H. induction H as [|a r Ha H IH]; cbn [total]; lra. Qed.

Lemma rdot_slow : forall r, nonneg r -> forall x y, length x = length y -> Rabs (rdot r x - rdot r y) <= total r * l1 x y.
Proof.
  intros r Hr. induction Hr as [|c r Hc Hr IH]; intros x y E; [cbn [rdot total]; replace (0 - 0) with 0 by ring; rewrite Rabs_R0; lra|].
  pose proof (total_nonneg_R r Hr) as T.
  destruct x as [|a x], y as [|b y]; try discriminate; cbn [rdot total l1]; [replace (0 - 0) with 0 by ring; rewrite Rabs_R0; lra|].
  specialize (IH x y ltac:(simpl in E; lia)). pose proof (l1_nonneg x y) as P. pose proof (Rabs_pos (a - b)) as A.
  replace (c * a + rdot r x - (c * b + rdot r y)) with (c * (a - b) + (rdot r x - rdot r y)) by ring.
  eapply Rle_trans; [apply Rabs_triang|]. rewrite Rabs_mult, (Rabs_pos_eq c) by exact Hc.
  pose proof (Rmult_le_pos _ _ Hc P). pose proof (Rmult_le_pos _ _ T A). lra.
Qed.

Lemma exp_slow : forall u v, 0 <= u -> 0 <= v -> Rabs (exp (- u) - exp (- v)) <= Rabs (u - v).
Proof.
  assert (G : forall u v, 0 <= u <= v -> 0 <= exp (- u) - exp (- v) <= v - u).
  { intros u v H. split.
    - destruct (Req_dec u v) as [->|N]; [lra|]. pose proof (exp_increasing (- v) (- u)). lra.
    - assert (E : exp (- v) = exp (- u) * exp (- (v - u))) by (rewrite <- exp_plus; f_equal; ring).
      pose proof (exp_ineq1_le (- (v - u))) as I. assert (U : exp (- u) <= 1).
      { rewrite <- exp_0. destruct (Req_dec u 0) as [->|N]; [rewrite Ropp_0; lra|]. left. apply exp_increasing. lra. }
      pose proof (exp_pos (- u)). rewrite E. nra. }
  intros u v Hu Hv. destruct (Rle_dec u v) as [L|L].
  - pose proof (G u v ltac:(lra)). rewrite Rabs_pos_eq by lra. rewrite Rabs_minus_sym, Rabs_pos_eq by lra. lra.
  - pose proof (G v u ltac:(lra)). rewrite Rabs_minus_sym, Rabs_pos_eq by lra. rewrite Rabs_pos_eq by lra. lra.
Qed.

Lemma in_bounds_nonneg : forall x, in_bounds x -> nonneg x.
Proof. intros x H. unfold nonneg. eapply Forall_impl; [|exact H]. intros v Hv. cbv beta in Hv. lra. Qed.

Lemma beer_lambert_slow : forall A, Forall nonneg A -> forall x y, in_bounds x -> in_bounds y -> length x = length y ->
  l1 (beer_lambert A x) (beer_lambert A y) <= total (map total A) * l1 x y.
Proof.
  intros A HA x y Bx By E. pose proof (l1_nonneg x y) as P. induction HA as [|r A Hr HA IH]; [cbn; lra|].
  unfold beer_lambert in *. cbn [map l1 total]. pose proof (rdot_slow r Hr x y E) as S.
  pose proof (exp_slow (rdot r x) (rdot r y) (rdot_nonneg _ _ Hr (in_bounds_nonneg _ Bx)) (rdot_nonneg _ _ Hr (in_bounds_nonneg _ By))). lra.
Qed.

Lemma abs_slow : forall u v, Rabs u - Rabs v <= Rabs (u - v).
Proof. intros u v. apply Rabs_triang_inv. Qed.

Lemma bend_slow_2 : forall x y a b a' b', length x = length y ->
  bend (a :: b :: x) - bend (a' :: b' :: y) <= Rabs (a - a') + 3 * Rabs (b - b') + 4 * l1 x y.
Proof.
  induction x as [|c x IH]; intros [|c' y] a b a' b' E; try discriminate.
  - cbn [bend l1]. pose proof (Rabs_pos (a - a')). pose proof (Rabs_pos (b - b')). lra.
  - specialize (IH y b c b' c' ltac:(simpl in E; lia)).
    change (bend (a :: b :: c :: x)) with (Rabs (a - 2 * b + c) + bend (b :: c :: x)).
    change (bend (a' :: b' :: c' :: y)) with (Rabs (a' - 2 * b' + c') + bend (b' :: c' :: y)). cbn [l1].
    assert (T : Rabs (a - 2 * b + c) - Rabs (a' - 2 * b' + c') <= Rabs (a - a') + 2 * Rabs (b - b') + Rabs (c - c')).
    { eapply Rle_trans; [apply abs_slow|]. replace (a - 2 * b + c - (a' - 2 * b' + c')) with ((a - a') + (- 2) * (b - b') + (c - c')) by ring.
      eapply Rle_trans; [apply Rabs_triang|]. apply Rplus_le_compat_r. eapply Rle_trans; [apply Rabs_triang|]. rewrite Rabs_mult.
      replace (Rabs (- 2)) with 2 by (unfold Rabs; destruct (Rcase_abs (- 2)); lra). lra. }
    lra.
Qed.

Lemma bend_slow : forall x y, length x = length y -> bend x - bend y <= 4 * l1 x y.
Proof.
  intros [|a [|b x]] [|a' [|b' y]] E; try discriminate.
  - cbn. lra.
  - cbn [bend l1]. pose proof (Rabs_pos (a - a')). lra.
  - pose proof (bend_slow_2 x y a b a' b' ltac:(simpl in E; lia)) as H. cbn [l1]. pose proof (Rabs_pos (a - a')). pose proof (Rabs_pos (b - b')). lra.
Qed.

Lemma total_slow : forall x y, length x = length y -> Rabs (total x - total y) <= l1 x y.
Proof.
  induction x as [|a x IH]; intros [|b y] E; try discriminate; cbn [total l1]; [replace (0 - 0) with 0 by ring; rewrite Rabs_R0; lra|].
  specialize (IH y ltac:(simpl in E; lia)). replace (a + total x - (b + total y)) with ((a - b) + (total x - total y)) by ring.
  eapply Rle_trans; [apply Rabs_triang|]. lra.
Qed.

Lemma cost_slow : forall wc wp A target n, 0 <= wc -> A <> [] -> Forall nonneg A -> (1 <= n)%nat -> length target = length A ->
  exists L, 0 <= L /\ slow n L (fun x => cost wc wp A x target).
Proof.
  intros wc wp A target n Hw Hne HA Hn Lt. pose proof (len_pos A Hne) as N. set (k := INR (length A)) in *.
  assert (T : 0 <= total (map total A)).
  { clear - HA. induction HA as [|r A Hr HA IH]; cbn [map total]; [lra|]. pose proof (total_nonneg_R r Hr). lra. }
  assert (Z : 0 < INR n) by (apply lt_0_INR; lia).
  exists (total (map total A) / k + 4 * (k * 2 * wc) + Rabs wp). split.
  { apply Rplus_le_le_0_compat; [apply Rplus_le_le_0_compat|apply Rabs_pos]; [apply Rmult_le_pos; [exact T|left; apply Rinv_0_lt_compat; exact N]|].
    apply Rmult_le_pos; [lra|]. apply Rmult_le_pos; lra. }
  intros x y Lx Ly Bx By. assert (E : length x = length y) by congruence. rewrite !cost_spec by exact Hne. fold k.
  assert (D : deviation A x target - deviation A y target <= total (map total A) * l1 x y).
  { unfold deviation. pose proof (dist_triangle (beer_lambert A x) (beer_lambert A y) target) as D. unfold beer_lambert in D at 1 2 3. rewrite !map_length in D.
    specialize (D eq_refl (eq_sym Lt)). pose proof (dist_l1 (beer_lambert A x) (beer_lambert A y)). pose proof (beer_lambert_slow A HA x y Bx By E). lra. }
  assert (D' : deviation A x target / k - deviation A y target / k <= total (map total A) / k * l1 x y).
  { unfold Rdiv. replace (total (map total A) * / k * l1 x y) with (total (map total A) * l1 x y * / k) by ring. rewrite <- Rmult_minus_distr_r.
    apply Rmult_le_compat_r; [left; apply Rinv_0_lt_compat; exact N|exact D]. }
  assert (B : bend x * k * 2 * wc - bend y * k * 2 * wc <= 4 * (k * 2 * wc) * l1 x y).
  { replace (bend x * k * 2 * wc - bend y * k * 2 * wc) with ((bend x - bend y) * (k * 2 * wc)) by ring. replace (4 * (k * 2 * wc) * l1 x y) with (4 * l1 x y * (k * 2 * wc)) by ring.
    apply Rmult_le_compat_r; [apply Rmult_le_pos; lra|apply bend_slow; exact E]. }
  assert (P : average x * wp - average y * wp <= Rabs wp * l1 x y).
  { unfold average. rewrite Lx, Ly. replace (total x / INR n * wp - total y / INR n * wp) with ((total x - total y) * wp / INR n) by (field; lra).
    eapply Rle_trans; [apply Rle_abs|]. unfold Rdiv. rewrite !Rabs_mult. pose proof (total_slow x y E) as S. pose proof (Rabs_pos wp) as W. pose proof (l1_nonneg x y) as I.
    assert (J : Rabs (/ INR n) <= 1).
    { rewrite Rabs_pos_eq by (left; apply Rinv_0_lt_compat; exact Z). rewrite <- Rinv_1. apply Rinv_le_contravar; [lra|]. change 1 with (INR 1). apply le_INR. exact Hn. }
    pose proof (Rabs_pos (/ INR n)) as J'. pose proof (Rabs_pos (total x - total y)) as S'.
    assert (G : Rabs (total x - total y) * Rabs wp <= l1 x y * Rabs wp) by (apply Rmult_le_compat_r; assumption).
    assert (G' : 0 <= Rabs (total x - total y) * Rabs wp) by (apply Rmult_le_pos; assumption). nra. }
  rewrite !Rmult_plus_distr_r. lra.
Qed.

(** Within the bounds the cost has a smallest value. *)
Lemma minimum_exists : forall wc wp A target n, 0 <= wc -> A <> [] -> Forall nonneg A -> (1 <= n)%nat -> length target = length A ->
  exists x, length x = n /\ minimiser wc wp A target x.
Proof.
  intros wc wp A target n Hw Hne HA Hn Lt. destruct (cost_slow wc wp A target n Hw Hne HA Hn Lt) as (L & HL & S).
  destruct (box_minimum L HL n _ S) as (x & Lx & Bx & M). exists x. split; [exact Lx|]. split; [exact Bx|]. intros y Ly By. apply M; [congruence|exact By].
Qed.

(** ** From the intensities back to the coefficients *)
Lemma exp_apart : forall U u v, u <= U -> v <= U -> (u - v) * (u - v) <= exp U * exp U * ((exp (- u) - exp (- v)) * (exp (- u) - exp (- v))).
Proof.
  assert (G : forall U u v, u <= v -> v <= U -> 0 <= v - u <= exp U * (exp (- u) - exp (- v))).
  { intros U u v H HU. split; [lra|]. assert (E : exp (- u) = exp (- v) * exp (v - u)) by (rewrite <- exp_plus; f_equal; ring).
    pose proof (exp_ineq1_le (v - u)) as I. assert (K : exp (- U) <= exp (- v)) by (destruct (Req_dec v U) as [->|Ne]; [lra|left; apply exp_increasing; lra]).
    assert (J : 1 = exp U * exp (- U)) by (rewrite <- exp_plus, Rplus_opp_r, exp_0; reflexivity). pose proof (exp_pos U). pose proof (exp_pos (- U)). rewrite E.
    apply Rle_trans with (exp U * (exp (- U) * (v - u))); [rewrite <- Rmult_assoc, <- J; lra|]. apply Rmult_le_compat_l; [lra|]. nra. }
  intros U u v Hu Hv. destruct (Rle_dec u v) as [L|L].
  - pose proof (G U u v L Hv) as K. nra.
  - pose proof (G U v u ltac:(lra) Hu) as K. nra.
Qed.

Lemma rdot_bounds : forall r, nonneg r -> forall x, in_bounds x -> rdot r x <= 10 * total r.
Proof.
  intros r Hr. induction Hr as [|c r Hc Hr IH]; intros x Hx; [cbn; lra|]. pose proof (total_nonneg_R r Hr).
  destruct Hx as [|a x Ha Hx]; cbn [rdot total]; [lra|]. specialize (IH x Hx). nra.
Qed.

Lemma depths_apart : forall A U x s, Forall nonneg A -> in_bounds x -> in_bounds s -> Forall (fun r => 10 * total r <= U) A ->
  sq_dist (mul A x) (mul A s) <= exp U * exp U * sq_dist (beer_lambert A x) (beer_lambert A s).
Proof.
  intros A U x s HA Bx Bs HU. induction HA as [|r A Hr HA IH]; [cbn; lra|]. inversion HU as [|? ? H1 H2]; subst. specialize (IH H2).
  unfold mul, beer_lambert in *. cbn [map sq_dist]. rewrite Rmult_plus_distr_l.
  pose proof (exp_apart U (rdot r x) (rdot r s)) as E. pose proof (rdot_bounds r Hr x Bx). pose proof (rdot_bounds r Hr s Bs). specialize (E ltac:(lra) ltac:(lra)). lra.
Qed.

Lemma total_entry : forall A, Forall nonneg A -> Forall (fun r => 10 * total r <= 10 * total (map total A)) A.
Proof.
  intros A HA. assert (T : forall B, Forall nonneg B -> 0 <= total (map total B)).
  { intros B HB. induction HB as [|r B Hr HB IH]; cbn [map total]; [lra|]. pose proof (total_nonneg_R r Hr). lra. }
  induction HA as [|r A Hr HA IH]; constructor; cbn [map total].
  - specialize (T A HA). lra.
  - eapply Forall_impl; [|exact IH]. intros q Hq. cbv beta in Hq. pose proof (total_nonneg_R r Hr). lra.
Qed.

(** Relative errors of the intensities. *)
Lemma deviation_errors : forall A s target e, Forall nonneg A -> nonneg s -> 0 <= e ->
  Forall2 (fun row v => Rabs (v - exp (- rdot row s)) <= e * exp (- rdot row s)) A target ->
  deviation A s target <= INR (length A) * e.
Proof.
  intros A s target e HA Hs He F. unfold deviation. eapply Rle_trans; [apply dist_l1|]. revert HA. induction F as [|r v A t H F IH]; intros HA; [cbn; lra|].
  inversion HA as [|? ? Hr HA']; subst. specialize (IH HA'). unfold beer_lambert in *. cbn [map l1]. cbn [length]. rewrite S_INR. rewrite Rabs_minus_sym in H.
  assert (E : exp (- rdot r s) <= 1).
  { pose proof (rdot_nonneg r s Hr Hs) as P. rewrite <- exp_0. destruct (Req_dec (rdot r s) 0) as [->|N]; [rewrite Ropp_0; lra|]. left. apply exp_increasing. lra. }
  pose proof (exp_pos (- rdot r s)). nra.
Qed.

Lemma roughness_bend : forall x, roughness x <= bend x * bend x.
Proof.
  induction x as [|a x IH]; [cbn; lra|]. destruct x as [|b [|c x]]; [cbn; lra|cbn; lra|].
  change (bend (a :: b :: c :: x)) with (Rabs (a - 2 * b + c) + bend (b :: c :: x)).
  assert (E : roughness (a :: b :: c :: x) = (a - 2 * b + c) * (a - 2 * b + c) + roughness (b :: c :: x)) by reflexivity.
  rewrite E. assert (S : (a - 2 * b + c) * (a - 2 * b + c) = Rabs (a - 2 * b + c) * Rabs (a - 2 * b + c)) by (rewrite <- Rabs_mult, Rabs_pos_eq by apply Rle_0_sqr; reflexivity).
  rewrite S. pose proof (Rabs_pos (a - 2 * b + c)) as P. pose proof (bend_nonneg (b :: c :: x)) as Q. pose proof (Rmult_le_pos _ _ P Q). lra.
Qed.
