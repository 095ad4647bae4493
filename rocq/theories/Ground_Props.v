(** C138: light that does not come from the LEDs. *)
From Coq Require Import ZArith QArith Qreals Qfield Lia Bool List Reals Lra.
From Verif Require Import Base Table_Model Analysis_Model Solver_Model Solver_Props Nnls_Props End_Model End_Props Units_Props Amount_Props.
Import ListNotations.
Local Open Scope R_scope.

(** ** Specification *)

(** One LED: the light that falls into its square from elsewhere (lamps, fire, walls), the light of the LED
    itself in a photograph and in the reference photographs, and a bound for the latter. *)
Record lit := Lit { ground : Q; now : Q; before : list Q; bright : Q }.

Definition possible (l : lit) : Prop :=
  (0 < ground l)%Q /\ (0 <= now l)%Q /\ before l <> [] /\ Forall (fun q => 0 <= q <= bright l)%Q (before l).

(** What is recorded: both lights. *)
Definition recorded (l : lit) : list cell := map (fun q => Some (q + ground l)%Q) (before l).

(** ** Quotients *)
Lemma numbers_some : forall qs, numbers (map Some qs) = qs.
Proof. intros qs. unfold numbers. induction qs as [|q qs IH]; [reflexivity|]. cbn [map flat_map app]. rewrite IH. reflexivity. Qed.

Lemma qsum_bounds : forall qs a b, Forall (fun q => a <= q <= b)%Q qs -> (a * inject_Z (Z.of_nat (length qs)) <= qsum qs <= b * inject_Z (Z.of_nat (length qs)))%Q.
Proof.
  intros qs a b H. induction H as [|q qs (H1 & H2) F (I1 & I2)]; [cbn; split; rewrite Qmult_0_r; apply Qle_refl|].
  cbn [length qsum fold_right]. fold (qsum qs). rewrite Nat2Z.inj_succ, <- Z.add_1_l, inject_Z_plus. split.
  - setoid_replace (a * (inject_Z 1 + inject_Z (Z.of_nat (length qs))))%Q with (a + a * inject_Z (Z.of_nat (length qs)))%Q by ring. apply Qplus_le_compat; assumption.
  - setoid_replace (b * (inject_Z 1 + inject_Z (Z.of_nat (length qs))))%Q with (b + b * inject_Z (Z.of_nat (length qs)))%Q by ring. apply Qplus_le_compat; assumption.
Qed.

Lemma mean_bounds : forall qs a b, qs <> [] -> Forall (fun q => a <= q <= b)%Q qs -> exists m, mean (map Some qs) = Some m /\ (a <= m <= b)%Q.
Proof.
  intros qs a b Hn H. destruct (qsum_bounds qs a b H) as (B1 & B2). unfold mean. rewrite numbers_some. destruct qs as [|q qs]; [congruence|]. eexists. split; [reflexivity|].
  assert (P : (0 < inject_Z (Z.of_nat (length (q :: qs))))%Q) by (unfold Qlt; cbn [inject_Z Qnum Qden length]; lia).
  split; [apply Qle_shift_div_l|apply Qle_shift_div_r]; assumption.
Qed.

Lemma ground_quotient : forall l, possible l -> exists q, cell_div (Some (now l + ground l)%Q) (mean (recorded l)) = Fin q /\ Q2R (ground l) / (Q2R (bright l) + Q2R (ground l)) <= Q2R q /\ 0 < Q2R (ground l) /\ 0 <= Q2R (bright l).
Proof.
  intros l (H1 & H2 & H3 & H4).
  destruct (mean_bounds (map (fun q => q + ground l)%Q (before l)) (ground l) (bright l + ground l)) as (m & Em & M1 & M2).
  - intros C. apply map_eq_nil in C. congruence.
  - clear H3. induction H4 as [|q qs (Q1 & Q2) F IH]; [constructor|]. cbn [map]. constructor; [|exact IH]. split; [|apply Qplus_le_compat; [exact Q2|apply Qle_refl]].
    rewrite <- (Qplus_0_l (ground l)) at 1. apply Qplus_le_compat; [exact Q1|apply Qle_refl].
  - unfold recorded. rewrite <- (map_map (fun q => q + ground l)%Q Some), Em. cbn [cell_div].
    assert (Pm : (0 < m)%Q) by (eapply Qlt_le_trans; eassumption).
    destruct (Qeq_bool m 0) eqn:Z; [apply Qeq_bool_iff in Z; rewrite Z in Pm; discriminate|]. eexists. split; [reflexivity|].
    assert (B0 : (0 <= bright l)%Q) by (destruct H4 as [|q qs (Q1 & Q2) F]; [congruence|eapply Qle_trans; eassumption]).
    apply Qlt_Rlt in H1. apply Qlt_Rlt in Pm. apply Qle_Rle in H2. apply Qle_Rle in M2. apply Qle_Rle in B0. rewrite Q2R_plus in M2. replace (Q2R 0) with 0 in * by (unfold Q2R; cbn; lra).
    split; [|split; assumption]. rewrite Q2R_div by (intros C; rewrite C in Z; discriminate). rewrite Q2R_plus.
    apply Rle_trans with (Q2R (ground l) / Q2R m).
    + unfold Rdiv. apply Rmult_le_compat_l; [lra|]. apply Rinv_le_contravar; lra.
    + unfold Rdiv. apply Rmult_le_compat_r; [left; apply Rinv_0_lt_compat; exact Pm|lra].
Qed.

Lemma depth_limit : forall g t q, 0 < g -> 0 <= t -> g / (t + g) <= q -> 0 <= optical_depth q <= ln (1 + t / g).
Proof.
  intros g t q Hg Ht Hq. split; [apply depth_bounds|]. unfold optical_depth, clip_rel. set (c := Rmin (Rmax q (1 / 10000000000)) 1).
  assert (P : 0 < g / (t + g)) by (apply Rdiv_lt_0_compat; lra). assert (P1 : g / (t + g) <= 1) by (apply Rmult_le_reg_r with (t + g); [lra|]; unfold Rdiv; rewrite Rmult_assoc, Rinv_l by lra; lra).
  assert (B : g / (t + g) <= c) by (unfold c; apply Rmin_glb; [eapply Rle_trans; [exact Hq|apply Rmax_l]|exact P1]).
  assert (L : ln (g / (t + g)) <= ln c) by (destruct (Req_dec (g / (t + g)) c) as [->|N]; [lra|left; apply ln_increasing; lra]).
  assert (E : ln (g / (t + g)) = - ln (1 + t / g)) by (replace (g / (t + g)) with (/ (1 + t / g)) by (field; lra); apply ln_Rinv; assert (0 <= t / g) by (apply Rmult_le_pos; [exact Ht|left; apply Rinv_0_lt_compat; exact Hg]); lra).
  lra.
Qed.

(** However thick the smoke is: the reported smoke takes, summed over the squares of all LEDs, at most the
    depth ln (1 + light of the LED / light from elsewhere). *)
Theorem C138_ground_limits_the_smoke : forall nnls lambda n M last leds rel x, nnls_contract nnls -> rows_ok n M -> separates n M -> Forall possible leds ->
  np_div (map (fun l => Some (now l + ground l)%Q) leds) (map (fun l => mean (recorded l)) leds) = Ok rel ->
  solve_linear nnls lambda n (map Some M) last rel = Ok x ->
  sq_norm (mul M x) <= sq_norm (map (fun l => ln (1 + Q2R (bright l) / Q2R (ground l))) leds).
Proof.
  intros nnls lambda n M last leds rel x Hn HR Hs Hp E S0. unfold np_div in E. rewrite !map_length, Nat.eqb_refl in E. injection E as E.
  unfold solve_linear in S0. rewrite all_some_map in S0.
  assert (A : exists r, all_some (map rel_R rel) = Some r /\
    sq_norm (map optical_depth r) <= sq_norm (map (fun l => ln (1 + Q2R (bright l) / Q2R (ground l))) leds)).
  { clear S0. rewrite <- E. clear E. induction Hp as [|l leds P F (r & I1 & I2)]; [exists []; split; [reflexivity|cbn; lra]|]. destruct (ground_quotient l P) as (q & Eq & B1 & B2 & B3).
    exists (Q2R q :: r). cbn [map combine fst snd all_some]. rewrite Eq. cbn [rel_R all_some]. rewrite I1. split; [reflexivity|]. cbn [map sq_norm].
    destruct (depth_limit _ _ _ B2 B3 B1) as (D1 & D2). assert (optical_depth (Q2R q) * optical_depth (Q2R q) <= ln (1 + Q2R (bright l) / Q2R (ground l)) * ln (1 + Q2R (bright l) / Q2R (ground l))) by (apply Rmult_le_compat; lra). lra. }
  destruct A as (r & Er & B). rewrite Er in S0. destruct (Nat.eqb_spec (length r) (length M)) as [L|L]; [|discriminate]. injection S0 as <-.
  assert (S1 : nnls_solution n (a_aug lambda n M) (b_aug n r) (linear_coefficients nnls lambda n M r)).
  { apply Hn; [apply rows_ok_aug; exact HR|apply aug_length; exact L|apply separates_aug; exact Hs]. }
  pose proof (solution_norm n _ _ _ (aug_length lambda n M r L) S1) as N. set (x := linear_coefficients nnls lambda n M r) in *. unfold a_aug, b_aug, mul in N. rewrite map_app, !sq_norm_app, sq_norm_repeat in N. unfold mul.
  match type of N with _ + sq_norm ?w <= _ => pose proof (sq_norm_pos w) as W end. lra.
Qed.
Print Assumptions C138_ground_limits_the_smoke.

Lemma one_led_linear : forall nnls r, nnls_contract nnls -> linear_coefficients nnls 0 1 [[1]] [r] = [optical_depth r].
Proof.
  intros nnls r Hn. destruct (depth_bounds r) as (D0 & _). assert (HR : rows_ok 1 [[1]]) by (repeat constructor).
  assert (HS : separates 1 [[1]]).
  { exists 1. split; [lra|]. intros z Hz. destruct z as [|a [|? ?]]; try discriminate. cbn [mul map rdot sq_norm]. pose proof (Rle_0_sqr a) as P. unfold Rsqr in P. lra. }
  apply (C93_solutions_are_unique 1 (a_aug 0 1 [[1]]) (b_aug 1 [r])); [reflexivity|apply separates_aug; exact HS|apply Hn; [apply rows_ok_aug; exact HR|reflexivity|apply separates_aug; exact HS]|].
  split; [reflexivity|]. split; [constructor; [exact D0|constructor]|].
  intros y Ly Ny. destruct y as [|y [|? ?]]; try discriminate. unfold a_aug, b_aug, reg_matrix. cbn [Nat.leb seq map unit_row app mul rdot repeat length Nat.eqb sq_dist]. rewrite sqrt_0.
  pose proof (Rle_0_sqr (y - optical_depth r)) as P. unfold Rsqr in P. lra.
Qed.

Lemma solve_one : forall nnls q r, nnls_contract nnls -> Q2R q = r -> solve_linear nnls 0 1 (map Some [[1]]) None [Fin q] = Ok [optical_depth r].
Proof. intros nnls q r Hn <-. rewrite <- (one_led_linear nnls _ Hn). reflexivity. Qed.

(** A metre of opaque smoke before an LED that is as bright as its surroundings. *)
Definition opaque : lit := Lit 1 0 [1%Q; 1%Q] 1.

Example C138_example : possible opaque /\ forall nnls, nnls_contract nnls -> exists rel x,
  np_div (map (fun l => Some (now l + ground l)%Q) [opaque]) (map (fun l => mean (recorded l)) [opaque]) = Ok rel /\
  solve_linear nnls 0 1 (map Some [[1]]) None rel = Ok [x] /\ x <= ln 2.
Proof.
  split; [unfold possible, opaque; cbn [ground now before bright]; repeat split; try discriminate; repeat (constructor; [split; discriminate|]); constructor|].
  intros nnls Hn. exists [Fin ((0 + 1) / ((1 + 1 + (1 + 1 + 0)) / 2))%Q], (optical_depth (1 / 2)). split; [reflexivity|]. split; [apply (solve_one nnls _ _ Hn); unfold Q2R; cbn; field|].
  destruct (depth_limit 1 1 (1 / 2) ltac:(lra) ltac:(lra) ltac:(lra)) as (_ & D). replace (1 + 1 / 1) with 2 in D by field. exact D.
Qed.

(** Nothing subtracts the light from elsewhere: without it the same smoke is reported as the largest depth
    there is (ln 10^10), with it as ln 2. *)
Theorem C138_ground_is_subtracted_refuted : exists l, possible l /\ forall nnls, nnls_contract nnls ->
  (exists rel, np_div [Some (now l)] [mean (map Some (before l))] = Ok rel /\ solve_linear nnls 0 1 (map Some [[1]]) None rel = Ok [ln 10000000000]) /\
  (exists rel, np_div [Some (now l + ground l)%Q] [mean (recorded l)] = Ok rel /\ solve_linear nnls 0 1 (map Some [[1]]) None rel = Ok [ln 2]).
Proof.
  exists opaque. split; [exact (proj1 C138_example)|]. intros nnls Hn. split.
  - exists [Fin (0 / ((1 + (1 + 0)) / 2))%Q]. split; [reflexivity|]. rewrite (solve_one nnls _ 0 Hn) by (unfold Q2R; cbn; field). do 2 f_equal.
    unfold optical_depth, clip_rel. rewrite Rmax_right by lra. rewrite Rmin_left by lra.
    replace (1 / 10000000000) with (/ 10000000000) by lra. rewrite ln_Rinv by lra. ring.
  - exists [Fin ((0 + 1) / ((1 + 1 + (1 + 1 + 0)) / 2))%Q]. split; [reflexivity|]. rewrite (solve_one nnls _ (1 / 2) Hn) by (unfold Q2R; cbn; field). do 2 f_equal.
    rewrite readable_depth by (unfold readable; lra).
    replace (1 / 2) with (/ 2) by lra. rewrite ln_Rinv by lra. ring.
Qed.
Print Assumptions C138_ground_is_subtracted_refuted.
