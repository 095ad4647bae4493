(** How far an exact minimiser of the nonlinear solver can be from the truth: C99 *)
From Coq Require Import List Arith Lia Reals Lra Psatz.
From Verif Require Import Base Solver_Model Solver_Props.
Import ListNotations.
Local Open Scope R_scope.

(** ** Specification *)

(** Sum of the absolute second differences. *)
Fixpoint bend (x : vec) : R :=
  match x with
  | a :: ((b :: c :: _) as x') => Rabs (a - 2 * b + c) + bend x'
  | _ => 0
  end.

(** Euclidean distance between the intensities of a profile and the measured ones. *)
Definition deviation (A : matrix) (x target : vec) : R := sqrt (sq_dist (beer_lambert A x) target).

Definition in_bounds (x : vec) : Prop := Forall (fun v => 0 <= v <= 10) x.

Fixpoint total (x : vec) : R := match x with [] => 0 | a :: x' => a + total x' end.
Definition average (x : vec) : R := total x / INR (length x).

(** ** Lemmas *)

Lemma misfit_deviation : forall A x target, A <> [] -> misfit A x target = deviation A x target / INR (length A).
Proof.
  intros A x target Hne. unfold misfit, deviation. do 2 f_equal.
  replace (intensities A x) with (beer_lambert A x) by (unfold intensities, beer_lambert; apply map_ext; intros r; symmetry; apply C41_model_is_beer_lambert).
  generalize (beer_lambert A x). intros v. revert target. induction v as [|a v IH]; intros [|y t]; try reflexivity.
  cbn [combine map rsum fst snd sq_dist]. rewrite IH. reflexivity.
Qed.

Lemma bend_model : forall x, rsum (map Rabs (second_differences x)) = bend x.
Proof.
  induction x as [|a x IH]; [reflexivity|]. destruct x as [|b [|c x]]; [reflexivity|reflexivity|].
  rewrite second_differences_cons. cbn [map rsum bend]. rewrite IH. reflexivity.
Qed.

Lemma total_model : forall x, rsum x = total x.
Proof. induction x as [|a x IH]; [reflexivity|]. cbn [rsum total]. rewrite IH. reflexivity. Qed.

Lemma cost_spec : forall wc wp A x target, A <> [] ->
  cost wc wp A x target = deviation A x target / INR (length A) + bend x * INR (length A) * 2 * wc + average x * wp.
Proof.
  intros wc wp A x target H. unfold cost, curvature, preference, average. rewrite (misfit_deviation A x target H), bend_model, total_model. reflexivity.
Qed.

Lemma bend_nonneg : forall x, 0 <= bend x.
Proof. intros x. rewrite <- bend_model. apply rsum_nonneg, abs_nonneg. Qed.

Lemma bend_progression : forall x, progression x -> bend x = 0.
Proof.
  intros x (a & d & E). rewrite <- bend_model, E. pose proof (progression_differences_from a d (length x) 0) as F.
  induction F as [|v l Hv F IH]; [reflexivity|]. cbn [map rsum]. rewrite IH, Hv, Rabs_R0. lra.
Qed.

Lemma total_bounds : forall x, in_bounds x -> 0 <= total x <= 10 * INR (length x).
Proof.
  intros x H. induction H as [|v x Hv H IH]; [cbn; lra|]. cbn [total length]. rewrite S_INR. lra.
Qed.

Lemma average_bounds : forall x, in_bounds x -> x <> [] -> 0 <= average x <= 10.
Proof.
  intros x H Hne. pose proof (total_bounds x H) as [T1 T2]. assert (N : 0 < INR (length x)) by (apply lt_0_INR; destruct x; [congruence|cbn; lia]).
  unfold average. split.
  - apply Rmult_le_pos; [exact T1|left; apply Rinv_0_lt_compat; exact N].
  - apply (Rmult_le_reg_r (INR (length x))); [exact N|]. unfold Rdiv. rewrite Rmult_assoc, Rinv_l by lra. lra.
Qed.

Lemma len_pos : forall (A : matrix), A <> [] -> 0 < INR (length A).
Proof. intros A H. apply lt_0_INR. destruct A; [congruence|cbn; lia]. Qed.

(** ** Theorems *)

(** Compared with any other profile [s] within the bounds, the intensities of a
    minimiser are at most so much further from the measured ones. *)
Theorem C99_minimiser_fits : forall wc wp A target x s, A <> [] -> 0 <= wc ->
  minimiser wc wp A target x -> x <> [] -> length s = length x -> in_bounds s ->
  deviation A x target <= deviation A s target + INR (length A) * (2 * INR (length A) * wc * bend s + 10 * Rabs wp).
Proof.
  intros wc wp A target x s Hne Hw (Bx & Hm) Hx Ls Bs. specialize (Hm s Ls Bs). rewrite !cost_spec in Hm by exact Hne.
  pose proof (len_pos A Hne) as N. set (n := INR (length A)) in *.
  assert (Hs : s <> []) by (destruct s; [destruct x; [congruence|discriminate]|discriminate]).
  pose proof (average_bounds x Bx Hx) as [X1 X2]. pose proof (average_bounds s Bs Hs) as [S1 S2]. pose proof (bend_nonneg x) as Kx.
  assert (P : average s * wp - average x * wp <= 10 * Rabs wp).
  { replace (average s * wp - average x * wp) with ((average s - average x) * wp) by ring.
    destruct (Rle_dec 0 wp) as [Q|Q]; [rewrite Rabs_pos_eq by exact Q; nra|rewrite Rabs_left by lra; nra]. }
  assert (C : 0 <= bend x * n * 2 * wc) by (repeat apply Rmult_le_pos; lra).
  assert (D : deviation A x target / n <= deviation A s target / n + bend s * n * 2 * wc + 10 * Rabs wp) by lra.
  apply (Rmult_le_compat_r n) in D; [|lra]. unfold Rdiv in D. rewrite !Rmult_plus_distr_r, !Rmult_assoc, !(Rmult_comm (/ n)), !Rinv_r, !Rmult_1_r in D by lra.
  lra.
Qed.
Print Assumptions C99_minimiser_fits.

(** Noise-free intensities of a linear profile: the intensity of every single LED is
    reproduced up to ten times the number of LEDs times the weight of the preference. *)
Theorem C99_linear_profile : forall wc wp A x s k row, A <> [] -> 0 <= wc ->
  minimiser wc wp A (beer_lambert A s) x -> x <> [] -> length s = length x -> in_bounds s -> progression s ->
  nth_error A k = Some row ->
  Rabs (exp (- rdot row x) - exp (- rdot row s)) <= 10 * INR (length A) * Rabs wp.
Proof.
  intros wc wp A x s k row Hne Hw Hm Hx Ls Bs Ps Hk.
  pose proof (C99_minimiser_fits wc wp A _ x s Hne Hw Hm Hx Ls Bs) as F. rewrite (bend_progression s Ps) in F.
  unfold deviation in F. rewrite (sq_dist_refl (beer_lambert A s)), sqrt_0 in F.
  assert (G : Rabs (exp (- rdot row x) - exp (- rdot row s)) <= sqrt (sq_dist (beer_lambert A x) (beer_lambert A s))).
  { rewrite <- sqrt_Rsqr_abs. apply sqrt_le_1_alt. clear - Hk. revert k Hk. induction A as [|r A IH]; intros k Hk; [destruct k; discriminate|].
    unfold beer_lambert. cbn [map sq_dist]. fold (beer_lambert A x). fold (beer_lambert A s).
    pose proof (sq_dist_nonneg (beer_lambert A x) (beer_lambert A s)). destruct k as [|k].
    - cbn in Hk. apply Some_inj in Hk. subst r. unfold Rsqr. lra.
    - specialize (IH k Hk). pose proof (Rle_0_sqr (exp (- rdot r x) - exp (- rdot r s))) as Q. unfold Rsqr in Q at 1. lra. }
  lra.
Qed.
Print Assumptions C99_linear_profile.

Lemma beer_lambert_inj : forall A x s, beer_lambert A x = beer_lambert A s -> mul A x = mul A s.
Proof.
  induction A as [|r A IH]; intros x s H; [reflexivity|]. unfold beer_lambert in H. cbn [map] in H. injection H as H1 H2.
  cbn [mul map]. f_equal; [apply exp_inv in H1; lra|]. apply IH. exact H2.
Qed.

(** Without preference, noise-free linear profiles are recovered exactly. *)
Theorem C99_without_preference : forall wc A x s, A <> [] -> 0 < wc ->
  minimiser wc 0 A (beer_lambert A s) x -> x <> [] -> length s = length x -> in_bounds s -> progression s ->
  full_rank (length x) A -> x = s.
Proof.
  intros wc A x s Hne Hw Hm Hx Ls Bs Ps Fr. apply Fr; [reflexivity|exact Ls|]. apply beer_lambert_inj.
  apply sq_dist_0; [unfold beer_lambert; rewrite !map_length; reflexivity|].
  pose proof (C99_minimiser_fits wc 0 A _ x s Hne ltac:(lra) Hm Hx Ls Bs) as F. rewrite (bend_progression s Ps), Rabs_R0 in F.
  unfold deviation in F. rewrite (sq_dist_refl (beer_lambert A s)), sqrt_0 in F.
  pose proof (sqrt_pos (sq_dist (beer_lambert A x) (beer_lambert A s))). apply sqrt_eq_0; [apply sq_dist_nonneg|]. lra.
Qed.
Print Assumptions C99_without_preference.

Lemma sq_dist_le_length : forall a b, Forall (fun v => 0 <= v <= 1) a -> Forall (fun v => 0 <= v <= 1) b -> sq_dist a b <= INR (length a).
Proof.
  intros a b H. revert b. induction H as [|x a Hx H IH]; intros b Hb; [destruct b; cbn; lra|].
  destruct b as [|y b]; cbn [sq_dist length]; [apply pos_INR|]. inversion Hb as [|? ? Hy Hb']; subst. specialize (IH b Hb'). rewrite S_INR.
  assert ((x - y) * (x - y) <= 1) by nra. lra.
Qed.

Lemma total_repeat : forall v n, total (repeat v n) = v * INR n.
Proof. intros v. induction n as [|n IH]; [cbn; lra|]. cbn [repeat total]. rewrite IH, S_INR. lra. Qed.

Lemma repeat_progression : forall v n, progression (repeat v n).
Proof.
  intros v n. exists v, 0. rewrite repeat_length. assert (G : forall k, repeat v n = map (fun i => v + INR i * 0) (seq k n)); [|apply G].
  induction n as [|n IH]; intros k; [reflexivity|]. cbn [repeat seq map]. f_equal; [lra|apply IH].
Qed.

(** With a negative preference the average coefficient of a minimiser has a lower
    bound that depends on nothing but the number of LEDs and the preference: with
    enough LEDs the measurement loses its influence. *)
Theorem C99_many_leds : forall wc wp A target x, A <> [] -> 0 <= wc -> wp < 0 -> Forall nonneg A ->
  Forall (fun v => 0 <= v <= 1) target -> minimiser wc wp A target x -> x <> [] ->
  10 - 1 / (- wp * sqrt (INR (length A))) <= average x.
Proof.
  intros wc wp A target x Hne Hw Hp HA Ht (Bx & Hm) Hx.
  pose proof (len_pos A Hne) as N. pose proof (sqrt_lt_R0 _ N) as SN.
  set (y := repeat 10 (length x)).
  assert (Ly : length y = length x) by apply repeat_length.
  assert (By : in_bounds y) by (apply Forall_forall; intros v Hv; apply repeat_spec in Hv; lra).
  specialize (Hm y Ly By). rewrite !cost_spec in Hm by exact Hne.
  assert (Ay : average y = 10).
  { unfold average, y. rewrite total_repeat, repeat_length. field. apply not_0_INR. destruct x; [congruence|cbn; lia]. }
  rewrite Ay, (bend_progression y (repeat_progression _ _)) in Hm. pose proof (bend_nonneg x) as Kx.
  assert (C : 0 <= bend x * INR (length A) * 2 * wc) by (repeat apply Rmult_le_pos; lra).
  assert (D : 0 <= deviation A x target / INR (length A)) by (apply Rmult_le_pos; [apply sqrt_pos|left; apply Rinv_0_lt_compat; exact N]).
  assert (U : deviation A y target <= sqrt (INR (length A))).
  { unfold deviation. apply sqrt_le_1_alt. replace (length A) with (length (beer_lambert A y)) by (unfold beer_lambert; apply map_length).
    apply sq_dist_le_length; [|exact Ht]. apply Forall_forall. intros v Hv. apply in_map_iff in Hv. destruct Hv as (row & <- & Hr).
    rewrite Forall_forall in HA. specialize (HA row Hr). assert (Ny : nonneg y) by (apply Forall_forall; intros u Hu; apply repeat_spec in Hu; lra).
    pose proof (C41_bounds y row Ny HA) as B. rewrite C41_model_is_beer_lambert in B. lra. }
  assert (V : deviation A y target / INR (length A) <= / sqrt (INR (length A))).
  { apply (Rmult_le_reg_r (INR (length A))); [exact N|]. unfold Rdiv. rewrite Rmult_assoc, Rinv_l, Rmult_1_r by lra.
    replace (/ sqrt (INR (length A)) * INR (length A)) with (sqrt (INR (length A))); [exact U|].
    rewrite <- (sqrt_sqrt (INR (length A))) at 3 by lra. field. lra. }
  assert (W : (10 - average x) * - wp <= / sqrt (INR (length A))) by lra.
  apply (Rmult_le_reg_r (- wp)); [lra|].
  replace ((10 - 1 / (- wp * sqrt (INR (length A)))) * - wp) with (10 * - wp - / sqrt (INR (length A))) by (field; split; lra). lra.
Qed.
Print Assumptions C99_many_leds.

(** ** A layer without smoke *)

Definition many : matrix := repeat [1] 400.
Definition bright : vec := repeat 1 400.

Lemma sq_dist_repeat : forall a b n, sq_dist (repeat a n) (repeat b n) = (a - b) * (a - b) * INR n.
Proof. intros a b. induction n as [|n IH]; [cbn; lra|]. cbn [repeat sq_dist]. rewrite IH, S_INR. lra. Qed.

Lemma map_repeat_R : forall (f : vec -> R) a n, map f (repeat a n) = repeat (f a) n.
Proof. intros f a. induction n as [|n IH]; [reflexivity|]. cbn [repeat map]. rewrite IH. reflexivity. Qed.

Lemma INR_400 : INR 400 = 400.
Proof. rewrite INR_IZR_INZ. f_equal. Qed.

Lemma cost_many : forall wc wp u, 0 <= u -> cost wc wp many [u] bright = (1 - exp (- u)) / 20 + u * wp.
Proof.
  intros wc wp u Hu. rewrite cost_spec by (unfold many; discriminate).
  unfold deviation, many, bright, beer_lambert. rewrite map_repeat_R, sq_dist_repeat, repeat_length. cbn [rdot bend].
  replace (- (1 * u + 0)) with (- u) by ring. rewrite INR_400. unfold average. cbn [total length INR].
  assert (E : exp (- u) <= 1) by (rewrite <- exp_0; destruct (Req_dec u 0) as [->|Q]; [rewrite Ropp_0; lra|left; apply exp_increasing; lra]).
  replace ((exp (- u) - 1) * (exp (- u) - 1) * 400) with (Rsqr (20 * (1 - exp (- u)))) by (unfold Rsqr; ring).
  rewrite sqrt_Rsqr by lra. field.
Qed.

Lemma minimiser_ten : minimiser (1 / 1000000) (- (6 / 1000)) many bright [10].
Proof.
  split; [constructor; [lra|constructor]|]. intros y Ly By. destruct y as [|u [|]]; try discriminate. inversion By as [|? ? Bu _]; subst.
    rewrite !cost_many by lra.
    assert (E : exp (- u) - exp (- (10)) <= 12 / 100 * (10 - u)); [|lra].
    pose proof (exp_pos (- (10))) as E10.
    assert (LE : forall a b, a <= b -> exp a <= exp b) by (intros a b Q; destruct (Rle_lt_or_eq_dec _ _ Q) as [L| -> ]; [left; apply exp_increasing; exact L|lra]).
    assert (E4 : 5 / 4 <= exp (1 / 4)) by (pose proof (exp_ineq1 (1 / 4) ltac:(lra)); lra).
    assert (DB : forall a b, a = b + b -> exp a = exp b * exp b) by (intros a b Q; subst a; apply exp_plus).
    pose proof (DB (1 / 2) (1 / 4) ltac:(field)) as D2. pose proof (DB 1 (1 / 2) ltac:(field)) as D1. pose proof (DB 2 1 ltac:(ring)) as D0.
    assert (P2 : 25 / 16 <= exp (1 / 2)) by (rewrite D2; nra).
    assert (P4 : 625 / 256 <= exp 1) by (rewrite D1; nra).
    assert (P8 : 390625 / 65536 <= exp 2) by (rewrite D0; nra).
    assert (E1 : 2 <= exp 1) by lra.
    destruct (Rle_dec u (5 / 3)) as [Q|Q].
    + pose proof (LE (- u) 0 ltac:(lra)) as G. rewrite exp_0 in G. lra.
    + destruct (Rle_dec u (5 / 2)) as [Q'|Q'].
      * pose proof (LE (- u) (- (1)) ltac:(lra)) as G. rewrite (exp_Ropp 1) in G.
        assert (/ exp 1 <= / 2) by (apply Rinv_le_contravar; lra). lra.
      * assert (F : exp (- u) <= 12 / 100).
        { pose proof (LE (- u) (- (5 / 2)) ltac:(lra)) as G. rewrite (exp_Ropp (5 / 2)) in G.
          assert (P10 : 100 / 12 <= exp (5 / 2)) by (assert (X : 5 / 2 = 2 + 1 / 2) by field; rewrite X, exp_plus; nra).
          assert (/ exp (5 / 2) <= / (100 / 12)) by (apply Rinv_le_contravar; lra).
          replace (/ (100 / 12)) with (12 / 100) in H by field. lra. }
        assert (K : 1 - exp (u - 10) <= 10 - u).
        { destruct (Req_dec u 10) as [-> |D]; [replace (10 - 10) with 0 by ring; rewrite exp_0; lra|].
          pose proof (exp_ineq1 (u - 10) ltac:(lra)). lra. }
        assert (X : exp (- (10)) = exp (- u) * exp (u - 10)) by (rewrite <- exp_plus; f_equal; ring). rewrite X.
        pose proof (exp_pos (- u)). replace (exp (- u) - exp (- u) * exp (u - 10)) with (exp (- u) * (1 - exp (u - 10))) by ring.
        assert (exp (- u) * (1 - exp (u - 10)) <= exp (- u) * (10 - u)) by (apply Rmult_le_compat_l; lra).
        assert (exp (- u) * (10 - u) <= 12 / 100 * (10 - u)) by (apply Rmult_le_compat_r; lra). lra.
Qed.

(** 400 LEDs seen through one metre of clear air, default weights: the minimiser is the
    upper bound 10, and no minimiser is near the true coefficient 0. *)
Theorem C99_clear_air_refuted : exists A target, target = beer_lambert A [0] /\
  minimiser (1 / 1000000) (- (6 / 1000)) A target [10] /\
  forall v, minimiser (1 / 1000000) (- (6 / 1000)) A target [v] -> 5 / 3 <= v.
Proof.
  exists many, bright. split.
  { unfold bright, beer_lambert, many. rewrite map_repeat_R. cbn [rdot]. replace (- (1 * 0 + 0)) with 0 by ring. rewrite exp_0. reflexivity. }
  split.
  - exact minimiser_ten.
  - intros v Hm. assert (L : 10 - 1 / (- - (6 / 1000) * sqrt (INR (length many))) <= average [v]).
    { apply (C99_many_leds (1 / 1000000) (- (6 / 1000)) many bright [v]); [unfold many; discriminate|lra|lra| | |exact Hm|discriminate].
      - apply Forall_forall. intros r Hr. apply repeat_spec in Hr. subst r. constructor; [lra|constructor].
      - apply Forall_forall. intros r Hr. apply repeat_spec in Hr. subst r. lra. }
    unfold many in L. rewrite repeat_length, INR_400 in L. replace 400 with (Rsqr 20) in L by (unfold Rsqr; ring). rewrite sqrt_Rsqr in L by lra.
    unfold average in L. cbn [total length] in L. simpl (INR 1) in L.
    replace (- - (6 / 1000) * 20) with (12 / 100) in L by field. replace (1 / (12 / 100)) with (25 / 3) in L by field. lra.
Qed.
Print Assumptions C99_clear_air_refuted.

(** The hypotheses are met: a minimiser of a noise-free linear profile, with and
    without preference. *)
Example C99_example :
  progression [0] /\ in_bounds [0] /\ minimiser (1 / 1000000) (- (6 / 1000)) many (beer_lambert many [0]) [10] /\
  minimiser (1 / 1000000) 0 [[1; 0; 0]; [1; 1; 0]; [1; 1; 1]] (beer_lambert [[1; 0; 0]; [1; 1; 0]; [1; 1; 1]] [1; 2; 3]) [1; 2; 3] /\
  progression [1; 2; 3] /\ full_rank 3 [[1; 0; 0]; [1; 1; 0]; [1; 1; 1]].
Proof.
  split; [apply (repeat_progression 0 1)|]. split; [constructor; [lra|constructor]|]. split.
  { assert (E : beer_lambert many [0] = bright) by (unfold bright, beer_lambert, many; rewrite map_repeat_R; cbn [rdot]; replace (- (1 * 0 + 0)) with 0 by ring; rewrite exp_0; reflexivity).
    rewrite E. exact minimiser_ten. }
  assert (P : progression [1; 2; 3]) by (exists 1, 1; cbn; f_equal; [lra|f_equal; [lra|f_equal; lra]]). split; [|split].
  - split; [repeat (constructor; [lra|]); constructor|]. intros y Ly By. rewrite !cost_spec by discriminate.
    rewrite (bend_progression _ P). unfold deviation at 1. rewrite (sq_dist_refl (beer_lambert _ _)), sqrt_0.
    assert (0 <= deviation [[1; 0; 0]; [1; 1; 0]; [1; 1; 1]] y (beer_lambert [[1; 0; 0]; [1; 1; 0]; [1; 1; 1]] [1; 2; 3])) by apply sqrt_pos.
    pose proof (bend_nonneg y). cbn [length INR]. nra.
  - exact P.
  - intros x y Lx Ly E. destruct x as [|a [|b [|c [|]]]]; try discriminate. destruct y as [|a' [|b' [|c' [|]]]]; try discriminate.
    cbn [mul map rdot] in E. injection E as E1 E2 E3. f_equal; [lra|f_equal; [lra|f_equal; lra]].
Qed.
