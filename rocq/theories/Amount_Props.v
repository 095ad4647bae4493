(** C135: how the reported smoke follows the amount of smoke, and how much can be reported. *)
From Coq Require Import ZArith QArith Qreals Lia Bool String List Permutation Sorted Reals Lra.
From Verif Require Import Base Step2_Model Step3_Model Table_Model Table_Spec Table_Props Analysis_Model Analysis_Props Layers_Model Layers_Spec Layers_Props Solver_Model Solver_Props Stable_Props Nnls_Props
  End_Model End_Props Units_Props.
Import ListNotations.
Local Open Scope R_scope.

(** ** Specification *)

(** Relative intensities that the solver does not cut off. *)
Definition readable (r : R) : Prop := 1 / 10000000000 <= r <= 1.

(** ** Depths *)
Lemma readable_depth : forall r, readable r -> optical_depth r = - ln r.
Proof. intros r (H1 & H2). unfold optical_depth, clip_rel. rewrite Rmax_left by lra. rewrite Rmin_left by lra. reflexivity. Qed.

Lemma depth_bounds : forall r, 0 <= optical_depth r <= ln 10000000000.
Proof.
  intros r. unfold optical_depth, clip_rel. set (c := Rmin (Rmax r (1 / 10000000000)) 1).
  assert (B : 1 / 10000000000 <= c <= 1) by (unfold c; split; [apply Rmin_glb; [apply Rmax_r|lra]|apply Rmin_r]).
  assert (L1 : ln c <= ln 1) by (destruct (Req_dec c 1) as [->|N]; [lra|left; apply ln_increasing; lra]). rewrite ln_1 in L1.
  assert (L2 : ln (/ 10000000000) <= ln c) by (destruct (Req_dec c (/ 10000000000)) as [->|N]; [lra|left; apply ln_increasing; lra]). rewrite ln_Rinv in L2 by lra. lra.
Qed.

(** ** The solver *)
Lemma rdot_map_r : forall c r x, rdot r (map (Rmult c) x) = c * rdot r x.
Proof. intros c r. induction r as [|a r IH]; intros [|b x]; cbn [map rdot]; try ring. rewrite IH. ring. Qed.

Lemma mul_map_r : forall c M x, mul M (map (Rmult c) x) = map (Rmult c) (mul M x).
Proof. intros c M x. unfold mul. rewrite map_map. apply map_ext. intros r. apply rdot_map_r. Qed.

Lemma sq_dist_map : forall c u v, sq_dist (map (Rmult c) u) (map (Rmult c) v) = c * c * sq_dist u v.
Proof. intros c u. induction u as [|a u IH]; intros [|b v]; cbn [map sq_dist]; try ring. rewrite IH. ring. Qed.

Lemma solution_amount : forall c n M v x, 0 < c -> nnls_solution n M v x -> nnls_solution n M (map (Rmult c) v) (map (Rmult c) x).
Proof.
  intros c n M v x Hc (S1 & S2 & S3). split; [rewrite map_length; exact S1|]. split; [apply nonneg_map; [intros s Hs; nra|exact S2]|].
  intros y Ly Ny. rewrite mul_map_r, sq_dist_map. rewrite <- (zoom_back c y Hc), mul_map_r, sq_dist_map. apply Rmult_le_compat_l; [nra|].
  apply S3; [rewrite map_length; exact Ly|]. apply nonneg_map; [|exact Ny]. intros s Hs. apply Rmult_le_pos; [exact Hs|left; apply Rinv_0_lt_compat; exact Hc].
Qed.

(** [c] times the smoke: all relative intensities are raised to the power [c], and the coefficients are
    multiplied by [c]. *)
Theorem C135_twice_the_smoke : forall c nnls lambda n M rel, 0 < c -> nnls_contract nnls -> rows_ok n M -> separates n M -> length rel = length M ->
  Forall readable rel -> Forall readable (map (fun r => Rpower r c) rel) ->
  linear_coefficients nnls lambda n M (map (fun r => Rpower r c) rel) = map (Rmult c) (linear_coefficients nnls lambda n M rel).
Proof.
  intros c nnls lambda n M rel Hc Hn HR Hs HL R1 R2. unfold linear_coefficients.
  assert (B : b_aug n (map (fun r => Rpower r c) rel) = map (Rmult c) (b_aug n rel)).
  { unfold b_aug. rewrite map_app. f_equal.
    - clear HL. induction rel as [|r rel IH]; [reflexivity|]. inversion R1 as [|? ? A1 A2]; subst. cbn [map] in R2. inversion R2 as [|? ? B1 B2]; subst. cbn [map]. f_equal; [|apply IH; assumption].
      rewrite (readable_depth r A1), (readable_depth _ B1). unfold Rpower. rewrite ln_exp. ring.
    - generalize (length (reg_matrix n)). intros m. induction m as [|m IH]; [reflexivity|]. cbn [repeat map]. rewrite <- IH. f_equal. ring. }
  rewrite B. apply (C93_solutions_are_unique n (a_aug lambda n M) (map (Rmult c) (b_aug n rel))).
  - rewrite map_length. apply aug_length. exact HL.
  - apply separates_aug. exact Hs.
  - apply Hn; [apply rows_ok_aug; exact HR|rewrite map_length; apply aug_length; exact HL|apply separates_aug; exact Hs].
  - apply solution_amount; [exact Hc|]. apply Hn; [apply rows_ok_aug; exact HR|apply aug_length; exact HL|apply separates_aug; exact Hs].
Qed.
Print Assumptions C135_twice_the_smoke.

Lemma Rpower_two : forall r, 0 < r -> Rpower r 2 = r * r.
Proof. intros r Hr. unfold Rpower. replace (2 * ln r) with (ln r + ln r) by ring. rewrite exp_plus, exp_ln by exact Hr. reflexivity. Qed.

(** Twice the smoke in one layer: a quarter of the light instead of the half. *)
Example C135_twice_example : forall nnls, nnls_contract nnls ->
  linear_coefficients nnls 2 1 [[1]; [1]] [Rpower (1 / 2) 2; Rpower (1 / 2) 2] = map (Rmult 2) (linear_coefficients nnls 2 1 [[1]; [1]] [1 / 2; 1 / 2]) /\ Rpower (1 / 2) 2 = 1 / 4.
Proof.
  intros nnls Hn. assert (E : Rpower (1 / 2) 2 = 1 / 4) by (rewrite Rpower_two by lra; field). split; [|exact E].
  refine (C135_twice_the_smoke 2 nnls 2 1 [[1]; [1]] [1 / 2; 1 / 2] _ Hn _ _ eq_refl _ _); [lra|repeat constructor| | |].
  - exists 1. split; [lra|]. intros z Hz. destruct z as [|a [|? ?]]; try discriminate. cbn [mul map rdot sq_norm]. pose proof (Rle_0_sqr a) as P. unfold Rsqr in P. lra.
  - repeat (constructor; [unfold readable; lra|]); constructor.
  - cbn [map]. rewrite E. repeat (constructor; [unfold readable; lra|]); constructor.
Qed.

(** ** How much can be reported *)
Lemma sq_dist_dots : forall u v, length u = length v -> sq_dist u v = sq_norm u - 2 * rdot u v + sq_norm v.
Proof. intros u. induction u as [|a u IH]; intros [|b v] L; try discriminate; cbn [sq_dist sq_norm rdot]; [ring|]. injection L as L. rewrite (IH v L). ring. Qed.

Lemma sq_norm_pos : forall u, 0 <= sq_norm u.
Proof. intros u. induction u as [|a u IH]; cbn [sq_norm]; [lra|]. pose proof (Rle_0_sqr a) as P. unfold Rsqr in P. lra. Qed.

Lemma sq_dist_pos : forall u v, 0 <= sq_dist u v.
Proof. intros u. induction u as [|a u IH]; intros [|b v]; cbn [sq_dist]; try lra. pose proof (Rle_0_sqr (a - b)) as P. unfold Rsqr in P. specialize (IH v). lra. Qed.

Lemma sq_norm_map : forall c u, sq_norm (map (Rmult c) u) = c * c * sq_norm u.
Proof. intros c u. induction u as [|a u IH]; cbn [map sq_norm]; [ring|]. rewrite IH. ring. Qed.

Lemma rdot_map_l : forall c u v, rdot (map (Rmult c) u) v = c * rdot u v.
Proof. intros c u. induction u as [|a u IH]; intros [|b v]; cbn [map rdot]; try ring. rewrite IH. ring. Qed.

Lemma solution_norm : forall n M v x, length v = length M -> nnls_solution n M v x -> sq_norm (mul M x) <= sq_norm v.
Proof.
  intros n M v x Lv (S1 & S2 & S3).
  assert (LM : forall y, length (mul M y) = length v) by (intros y; unfold mul; rewrite map_length; symmetry; exact Lv).
  set (u := mul M x) in *. pose proof (sq_norm_pos u) as P0. pose proof (sq_dist_pos u v) as D0. rewrite (sq_dist_dots u v (LM x)) in D0.
  assert (F : forall t, 0 <= t -> sq_norm u - 2 * rdot u v <= t * t * sq_norm u - 2 * (t * rdot u v)).
  { intros t Ht. specialize (S3 (map (Rmult t) x) ltac:(rewrite map_length; exact S1) ltac:(apply nonneg_map; [intros s Hs; nra|exact S2])).
    rewrite mul_map_r in S3. fold u in S3. rewrite (sq_dist_dots u v (LM x)), (sq_dist_dots (map (Rmult t) u) v) in S3 by (rewrite map_length; apply LM).
    rewrite sq_norm_map, rdot_map_l in S3. lra. }
  assert (PQ : sq_norm u <= rdot u v).
  { destruct (Rle_dec (sq_norm u) (rdot u v)) as [H|H]; [exact H|]. exfalso. apply Rnot_le_lt in H. set (p := sq_norm u) in *. set (q := rdot u v) in *.
    destruct (Rle_dec 0 q) as [Hq|Hq].
    - assert (Hp : 0 < p) by lra. specialize (F (q / p) ltac:(apply Rmult_le_pos; [exact Hq|left; apply Rinv_0_lt_compat; exact Hp])).
      replace (q / p * (q / p) * p - 2 * (q / p * q)) with (- (q * q / p)) in F by (field; lra).
      assert (G : (p - 2 * q) * p <= - (q * q / p) * p) by (apply Rmult_le_compat_r; lra). replace (- (q * q / p) * p) with (- (q * q)) in G by (field; lra).
      assert (0 < (p - q) * (p - q)) by (apply Rmult_lt_0_compat; lra). lra.
    - specialize (F 0 ltac:(lra)). lra. }
  lra.
Qed.

Lemma sq_norm_repeat : forall m, sq_norm (repeat 0 m) = 0.
Proof. intros m. induction m as [|m IH]; cbn [repeat sq_norm]; [reflexivity|rewrite IH; ring]. Qed.

(** The smoke that is reported takes, summed over the squares of all LEDs, no more light than was measured. *)
Theorem C135_not_more_than_measured : forall nnls lambda n M rel, nnls_contract nnls -> rows_ok n M -> separates n M -> length rel = length M -> Forall readable rel ->
  sq_norm (mul M (linear_coefficients nnls lambda n M rel)) <= sq_norm (map (fun r => - ln r) rel).
Proof.
  intros nnls lambda n M rel Hn HR Hs HL Hr.
  assert (S0 : nnls_solution n (a_aug lambda n M) (b_aug n rel) (linear_coefficients nnls lambda n M rel)).
  { apply Hn; [apply rows_ok_aug; exact HR|apply aug_length; exact HL|apply separates_aug; exact Hs]. }
  pose proof (solution_norm n _ _ _ (aug_length lambda n M rel HL) S0) as N. set (x := linear_coefficients nnls lambda n M rel) in *. unfold a_aug, b_aug, mul in N. rewrite map_app, !sq_norm_app, sq_norm_repeat in N. unfold mul.
  match type of N with _ + sq_norm ?w <= _ => pose proof (sq_norm_pos w) as W end.
  assert (E : map optical_depth rel = map (fun r => - ln r) rel) by (apply map_ext_in; intros r Hi; apply readable_depth; rewrite Forall_forall in Hr; apply Hr; exact Hi).
  rewrite E in N. lra.
Qed.
Print Assumptions C135_not_more_than_measured.

Example C135_measured_example : forall nnls, nnls_contract nnls -> sq_norm (mul [[1]; [1]] (linear_coefficients nnls 2 1 [[1]; [1]] [1 / 2; 1 / 4])) <= sq_norm [- ln (1 / 2); - ln (1 / 4)].
Proof.
  intros nnls Hn. apply (C135_not_more_than_measured nnls 2 1 [[1]; [1]] [1 / 2; 1 / 4] Hn); [repeat constructor| |reflexivity|repeat (constructor; [unfold readable; lra|]); constructor].
  exists 1. split; [lra|]. intros z Hz. destruct z as [|a [|? ?]]; try discriminate. cbn [mul map rdot sq_norm]. pose proof (Rle_0_sqr a) as P. unfold Rsqr in P. lra.
Qed.

Lemma depths_norm : forall rel, sq_norm (map optical_depth rel) <= INR (length rel) * (ln 10000000000 * ln 10000000000).
Proof.
  intros rel. induction rel as [|r rel IH]; [cbn; lra|]. cbn [map sq_norm]. change (length (r :: rel)) with (S (length rel)). rewrite S_INR. destruct (depth_bounds r) as (D1 & D2).
  assert (optical_depth r * optical_depth r <= ln 10000000000 * ln 10000000000) by (apply Rmult_le_compat; lra). lra.
Qed.

Lemma rdot_entry : forall row x j d s, nonneg row -> nonneg x -> nth_error row j = Some d -> nth_error x j = Some s -> 0 <= d * s <= rdot row x.
Proof.
  intros row. induction row as [|a row IH]; intros [|b x] [|j] d s N1 N2 E1 E2; try discriminate; inversion N1 as [|? ? A1 A2]; subst; inversion N2 as [|? ? B1 B2]; subst; cbn [rdot].
  - injection E1 as ->. injection E2 as ->. assert (0 <= d * s) by (apply Rmult_le_pos; assumption).
    assert (0 <= rdot row x) by (clear - A2 B2; revert x B2; induction A2 as [|a row A A2 IH]; intros [|b x] B2; cbn [rdot]; try lra; inversion B2 as [|? ? B1 B3]; subst; specialize (IH x B3); assert (0 <= a * b) by (apply Rmult_le_pos; assumption); lra). lra.
  - destruct (IH x j d s A2 B2 E1 E2) as (H1 & H2). assert (0 <= a * b) by (apply Rmult_le_pos; assumption). lra.
Qed.

Lemma sq_norm_entry : forall u a, In a u -> a * a <= sq_norm u.
Proof.
  intros u a. induction u as [|b u IH]; intros H; [destruct H|]. cbn [sq_norm]. destruct H as [->|H]; [pose proof (sq_norm_pos u); lra|]. pose proof (Rle_0_sqr b) as P. unfold Rsqr in P. specialize (IH H). lra.
Qed.

Lemma one_image_bound : forall nnls lambda n M last rel x, nnls_contract nnls -> rows_ok n M -> separates n M -> Forall nonneg M ->
  solve_linear nnls lambda n (map Some M) last rel = Ok x ->
  length x = n /\ nonneg x /\ forall row j d s, In row M -> nth_error row j = Some d -> nth_error x j = Some s -> d * s <= sqrt (INR (length M)) * ln 10000000000.
Proof.
  intros nnls lambda n M last rel x Hn HR Hs HN E. unfold solve_linear in E. rewrite all_some_map in E. destruct (all_some (map rel_R rel)) as [r|]; [|discriminate].
  destruct (Nat.eqb_spec (length r) (length M)) as [L|L]; [|discriminate]. injection E as <-.
  assert (S0 : nnls_solution n (a_aug lambda n M) (b_aug n r) (linear_coefficients nnls lambda n M r)).
  { apply Hn; [apply rows_ok_aug; exact HR|apply aug_length; exact L|apply separates_aug; exact Hs]. }
  pose proof (solution_norm n _ _ _ (aug_length lambda n M r L) S0) as N. destruct S0 as (S1 & S2 & _). split; [exact S1|]. split; [exact S2|].
  set (x := linear_coefficients nnls lambda n M r) in *.
  intros row j d s Hi E1 E2. rewrite Forall_forall in HN. destruct (rdot_entry row x j d s (HN row Hi) S2 E1 E2) as (D1 & D2).
  assert (B : rdot row x * rdot row x <= INR (length M) * (ln 10000000000 * ln 10000000000)).
  { eapply Rle_trans; [apply (sq_norm_entry (mul (a_aug lambda n M) x)); unfold mul, a_aug; apply (in_map (fun r0 => rdot r0 x)); apply in_or_app; left; exact Hi|].
    eapply Rle_trans; [exact N|]. unfold b_aug. rewrite sq_norm_app, sq_norm_repeat. rewrite <- L. pose proof (depths_norm r). lra. }
  assert (L0 : 0 < ln 10000000000) by (rewrite <- ln_1; apply ln_increasing; lra). pose proof (pos_INR (length M)) as I0. pose proof (sqrt_pos (INR (length M))) as I1. pose proof (sqrt_sqrt _ I0) as I2.
  eapply Rle_trans; [exact D2|]. apply Rsqr_incr_0_var; [unfold Rsqr|apply Rmult_le_pos; lra].
  replace (sqrt (INR (length M)) * ln 10000000000 * (sqrt (INR (length M)) * ln 10000000000)) with ((sqrt (INR (length M)) * sqrt (INR (length M))) * (ln 10000000000 * ln 10000000000)) by ring. rewrite I2. exact B.
Qed.

Lemma serial_all : forall (P : vec -> Prop) solve ms gs last xs, (forall l rel x, solve l rel = Ok x -> P x) -> serial_loop solve ms last gs = Ok xs -> Forall P xs.
Proof.
  intros P solve ms gs. induction gs as [|(i, es) gs IH]; intros last xs H E; cbn [serial_loop] in E; [injection E as <-; constructor|].
  destruct (np_div (map e_val es) ms) as [rel|]; [|discriminate]. cbn [bind] in E. destruct (solve last rel) as [x|] eqn:Ex; [|discriminate]. cbn [bind] in E.
  destruct (serial_loop solve ms (Some x) gs) as [ys|] eqn:Ey; [|discriminate]. cbn [res_map bind] in E. injection E as <-. constructor; [apply (H _ _ _ Ex)|apply (IH _ _ H Ey)].
Qed.

Lemma pool_all : forall (P : vec -> Prop) (g : list quot -> res vec) order tasks xs, (forall rel x, g rel = Ok x -> P x) -> pool_map g order tasks = Ok xs -> Forall P xs.
Proof.
  intros P g order tasks xs H. unfold pool_map.
  assert (C : forall k r, collect (flat_map (fun k => match nth_error tasks k with Some a => [(k, g a)] | None => [] end) order) k = Some r -> exists a, r = g a).
  { intros k r. induction order as [|j order IH]; [discriminate|]. cbn [flat_map]. destruct (nth_error tasks j) as [rel|]; [|exact IH]. cbn [app collect]. destruct (j =? k)%nat; [intros E; injection E as <-; exists rel; reflexivity|exact IH]. }
  generalize (seq 0 (List.length tasks)). intros ks. revert xs. induction ks as [|k ks IH]; intros xs E; cbn [mapM] in E; [injection E as <-; constructor|].
  destruct (collect (flat_map (fun k => match nth_error tasks k with Some a => [(k, g a)] | None => [] end) order) k) as [r|] eqn:Ec; [|discriminate].
  destruct (C k r Ec) as (a & ->). destruct (g a) as [x|] eqn:Ex; [|discriminate]. cbn [bind] in E.
  destruct (mapM _ ks) as [ys|] eqn:Ey; [|discriminate]. cbn [bind] in E. injection E as <-. constructor; [apply (H _ _ Ex)|apply IH; reflexivity].
Qed.

(** Whatever the photographs show: no coefficient is negative, and on the line of sight to any LED no layer
    gets more than the depth ln 10^10 (about 23) times the square root of the number of LEDs. *)
Theorem C135_largest_coefficient : forall nnls lambda bot top n cam coords ids ps t a prop indices num cpus order xs,
  nnls_contract nnls -> (1 <= n)%nat -> bot < top ->
  Forall2 (fun id p => (0 <= id)%Z /\ nth_error coords (Z.to_nat id) = Some p) ids ps -> Forall (in_view bot top cam) ps -> separates n (map (paths bot top n cam) ps) ->
  analyse_array nnls lambda bot top n cam coords (Some ids) t a prop indices num cpus order = Ok xs ->
  Forall (fun x => length x = n /\ nonneg x /\
    forall p j d s, In p ps -> nth_error (paths bot top n cam p) j = Some d -> nth_error x j = Some s -> d * s <= sqrt (INR (length ps)) * ln 10000000000) xs.
Proof.
  intros nnls lambda bot top n cam coords ids ps t a prop indices num cpus order xs Hn Hlay Hbt Hps Hview Hsep.
  unfold analyse_array, analyse_with, analyse_by, analyse_avg.
  assert (I : mapM (np_index coords) ids = Ok ps).
  { clear - Hps. induction Hps as [|id p ids ps (H1 & H2) F IH]; [reflexivity|]. cbn [mapM].
    assert (E : np_index coords id = Ok p).
    { unfold np_index. assert (L : (Z.to_nat id < length coords)%nat) by (apply nth_error_Some; rewrite H2; discriminate).
      replace (id <? 0)%Z with false by (symmetry; apply Z.ltb_ge; exact H1). replace ((id <? 0)%Z || (Z.of_nat (length coords) <=? id)%Z)%bool with false; [rewrite H2; reflexivity|].
      symmetry. apply orb_false_iff. split; [apply Z.ltb_ge; exact H1|apply Z.leb_gt; lia]. }
    rewrite E. cbn [bind]. rewrite IH. reflexivity. }
  unfold experiment_leds. destruct ids as [|i1 [|i2 ids]]; [discriminate|discriminate|]. rewrite I. cbn [bind distance_array].
  assert (D : forall ids : list Z, List.length ids = List.length ps ->
    map (fun led : Z * point => matrix_row (traversed_distances (layers bot top n) cam (snd led))) (rev (combine ids ps)) = map Some (rev (map (paths bot top n cam) ps))).
  { clear - Hlay Hbt Hview. intros ids L. rewrite !map_rev. f_equal. revert ids L. induction Hview as [|p ps V F IH]; intros [|i ids] L; try discriminate; [reflexivity|]. cbn [combine map snd].
    rewrite (visible_row bot top n cam p Hlay Hbt V). cbn [matrix_row]. f_equal. apply IH. injection L as L. exact L. }
  rewrite (D (i1 :: i2 :: ids) (Forall2_len _ _ _ Hps)). set (M := rev (map (paths bot top n cam) ps)).
  assert (HR : rows_ok n M) by (unfold rows_ok, M; apply Forall_rev; apply Forall_forall; intros r Hr; apply in_map_iff in Hr; destruct Hr as (p & <- & _); apply paths_length).
  assert (HN : Forall nonneg M) by (unfold M; apply Forall_rev; apply Forall_forall; intros r Hr; apply in_map_iff in Hr; destruct Hr as (p & <- & _); apply paths_nonneg).
  assert (SM : separates n M) by (apply separates_rev; exact Hsep).
  assert (Z0 : forall l rel x, solve_linear nnls lambda n (map Some M) l rel = Ok x -> length x = n /\ nonneg x /\
    forall p j d s, In p ps -> nth_error (paths bot top n cam p) j = Some d -> nth_error x j = Some s -> d * s <= sqrt (INR (length ps)) * ln 10000000000).
  { intros l rel x E. destruct (one_image_bound nnls lambda n M l rel x Hn HR SM HN E) as (X1 & X2 & X3). split; [exact X1|]. split; [exact X2|].
    intros p j d s Hp. replace (length ps) with (length M) by (unfold M; rewrite rev_length, map_length; reflexivity). apply X3. unfold M. apply in_rev. rewrite rev_involutive. apply in_map. exact Hp. }
  destruct (load_img_data t a prop) as [es|]; [|discriminate]. cbn [bind]. cbv zeta.
  destruct (1 <? cpus)%Z.
  - unfold parallel. destruct (to_array es) as [arr|]; [|discriminate]. cbn [bind]. destruct (mapM _ arr) as [rels|]; [|discriminate]. cbn [bind]. apply pool_all. intros rel. apply Z0.
  - unfold serial. apply serial_all. exact Z0.
Qed.
Print Assumptions C135_largest_coefficient.

(** The room of C94. *)
Example C135_example : forall nnls lambda cpus, nnls_contract nnls -> 0 <= lambda ->
  exists x1 x2, analyse_array nnls lambda 0 3 3 eg_cam eg_coords (Some [2; 1; 0]%Z) eg_table 0 "sum_col_val" None 1 cpus [1; 0]%nat = Ok [x1; x2] /\
    forall j s, nth_error x1 j = Some s \/ nth_error x2 j = Some s -> 0 <= s <= sqrt 3 * ln 10000000000.
Proof.
  intros nnls lambda cpus Hn Hl. destruct (C94_example nnls lambda cpus Hn Hl) as (x1 & x2 & X & _ & _). exists x1, x2. split; [exact X|].
  assert (E : map (paths 0 3 3 eg_cam) [Point 0 0 3; Point 0 0 2; Point 0 0 1] = rev [[1; 0; 0]; [1; 1; 0]; [1; 1; 1]]) by (rewrite <- eg_paths; reflexivity).
  assert (Y : Forall (fun x => length x = 3%nat /\ nonneg x /\ forall p j d s, In p [Point 0 0 3; Point 0 0 2; Point 0 0 1] -> nth_error (paths 0 3 3 eg_cam p) j = Some d -> nth_error x j = Some s ->
    d * s <= sqrt (INR 3) * ln 10000000000) [x1; x2]).
  { refine (C135_largest_coefficient nnls lambda 0 3 3 eg_cam eg_coords [2; 1; 0]%Z [Point 0 0 3; Point 0 0 2; Point 0 0 1] eg_table 0 "sum_col_val" None 1 cpus [1; 0]%nat [x1; x2] Hn _ _ _ _ _ X); [lia|lra| | |].
    - repeat (constructor; [split; [lia|reflexivity]|]). constructor.
    - repeat (constructor; [unfold in_view, within, eg_cam; cbn [pz]; split; [lra|split; [lra|intros C; exfalso; lra]]|]). constructor.
    - rewrite E. apply separates_rev.
      exists (1 / 8). split; [lra|]. intros z Hz. destruct z as [|a [|b [|d [|? ?]]]]; try discriminate. unfold mul. cbn [map rdot sq_norm].
      replace (1 * a + (0 * b + (0 * d + 0))) with a by ring. replace (1 * a + (1 * b + (0 * d + 0))) with (a + b) by ring. replace (1 * a + (1 * b + (1 * d + 0))) with (a + b + d) by ring.
      assert (T : forall s t, (s - t) * (s - t) <= 2 * (s * s) + 2 * (t * t)) by (intros s t; pose proof (Rle_0_sqr (s + t)) as Q; unfold Rsqr in Q; lra).
      pose proof (T (a + b) a) as T1. pose proof (T (a + b + d) (a + b)) as T2. replace (a + b - a) with b in T1 by ring. replace (a + b + d - (a + b)) with d in T2 by ring.
      pose proof (Rle_0_sqr a) as P1. pose proof (Rle_0_sqr (a + b)) as P2. pose proof (Rle_0_sqr (a + b + d)) as P3. unfold Rsqr in P1, P2, P3. lra. }
  assert (P : paths 0 3 3 eg_cam (Point 0 0 3) = [1; 1; 1]) by (exact (f_equal (fun m => hd [] m) E)).
  assert (K : forall x j s, In x [x1; x2] -> nth_error x j = Some s -> 0 <= s <= sqrt 3 * ln 10000000000).
  { intros x j s Hx Hs. rewrite Forall_forall in Y. destruct (Y x Hx) as (Y1 & Y2 & Y3). split; [unfold nonneg in Y2; rewrite Forall_forall in Y2; apply Y2; apply (nth_error_In _ _ Hs)|].
    assert (J : (j < 3)%nat) by (rewrite <- Y1; apply nth_error_Some; rewrite Hs; discriminate).
    assert (D : nth_error (paths 0 3 3 eg_cam (Point 0 0 3)) j = Some 1) by (rewrite P; destruct j as [|[|[|j]]]; [reflexivity|reflexivity|reflexivity|lia]).
    pose proof (Y3 (Point 0 0 3) j 1 s (or_introl eq_refl) D Hs) as B. replace (INR 3) with 3 in B by (cbn; ring). lra. }
  intros j s [H|H]; [apply (K x1 j s); [left; reflexivity|exact H]|apply (K x2 j s); [right; left; reflexivity|exact H]].
Qed.

(** ** Thick smoke *)

(** An LED behind a metre of smoke that leaves a millionth of its light: twice the smoke is not reported
    as twice the smoke, because relative intensities below 10^-10 are cut off. *)
Theorem C135_thick_smoke_refuted : exists n M rel, rows_ok n M /\ separates n M /\ length rel = length M /\ Forall readable rel /\
  forall nnls, nnls_contract nnls ->
    linear_coefficients nnls 0 n M rel = [ln 1000000] /\
    linear_coefficients nnls 0 n M (map (fun r => Rpower r 2) rel) = [ln 10000000000] /\
    linear_coefficients nnls 0 n M (map (fun r => Rpower r 2) rel) <> map (Rmult 2) (linear_coefficients nnls 0 n M rel).
Proof.
  exists 1%nat, [[1]], [1 / 1000000].
  assert (HR : rows_ok 1 [[1]]) by (repeat constructor).
  assert (HS : separates 1 [[1]]).
  { exists 1. split; [lra|]. intros z Hz. destruct z as [|a [|? ?]]; try discriminate. cbn [mul map rdot sq_norm]. pose proof (Rle_0_sqr a) as P. unfold Rsqr in P. lra. }
  split; [exact HR|]. split; [exact HS|]. split; [reflexivity|]. split; [constructor; [unfold readable; lra|constructor]|]. intros nnls Hn.
  assert (G : forall r, linear_coefficients nnls 0 1 [[1]] [r] = [optical_depth r]).
  { intros r. destruct (depth_bounds r) as (D0 & _).
    apply (C93_solutions_are_unique 1 (a_aug 0 1 [[1]]) (b_aug 1 [r])); [reflexivity|apply separates_aug; exact HS|apply Hn; [apply rows_ok_aug; exact HR|reflexivity|apply separates_aug; exact HS]|].
    split; [reflexivity|]. split; [constructor; [exact D0|constructor]|].
    intros y Ly Ny. destruct y as [|y [|? ?]]; try discriminate. unfold a_aug, b_aug, reg_matrix. cbn [Nat.leb seq map unit_row app mul rdot repeat length Nat.eqb sq_dist]. rewrite sqrt_0.
    pose proof (Rle_0_sqr (y - optical_depth r)) as P. unfold Rsqr in P. lra. }
  assert (P2 : Rpower (1 / 1000000) 2 = 1 / 1000000000000) by (rewrite Rpower_two by lra; field).
  assert (D1 : optical_depth (1 / 1000000) = ln 1000000).
  { rewrite readable_depth by (unfold readable; lra). replace (1 / 1000000) with (/ 1000000) by lra. rewrite ln_Rinv by lra. ring. }
  assert (D2 : optical_depth (1 / 1000000000000) = ln 10000000000).
  { unfold optical_depth, clip_rel. rewrite Rmax_right by lra. rewrite Rmin_left by lra. replace (1 / 10000000000) with (/ 10000000000) by lra. rewrite ln_Rinv by lra. ring. }
  cbn [map]. rewrite P2, !G, D1, D2. split; [reflexivity|]. split; [reflexivity|]. intros C. injection C as C.
  assert (L : 2 * ln 1000000 = ln 1000000000000) by (replace 1000000000000 with (1000000 * 1000000) by ring; rewrite ln_mult by lra; ring).
  pose proof (ln_increasing 10000000000 1000000000000 ltac:(lra) ltac:(lra)). lra.
Qed.
Print Assumptions C135_thick_smoke_refuted.
