(** C121: the whole analysis with the non-linear solver. *)
From Coq Require Import ZArith QArith Qreals String List Permutation Reals Lra Lia ClassicalEpsilon.
From Verif Require Import Base Step2_Model Step3_Model Table_Props Table_Model Table_Spec Analysis_Model Analysis_Props Layers_Model Layers_Spec Layers_Props
  Solver_Model Solver_Props Stable_Props Nnls_Props End_Model End_Props Separate_Proofs Separate_Props Linear_Proofs Linear_Props Minimiser_Props NonLinear_Proofs.
Import ListNotations.
Local Open Scope R_scope.

(** ** Specification *)

(** [x] is, among the [n] coefficients within the bounds, one with the smallest
    cost; the cost is a number there. *)
Definition best (n : nat) (f : vec -> option R) (x : vec) : Prop :=
  List.length x = n /\ in_bounds x /\
  exists v, f x = Some v /\ forall y, List.length y = n -> in_bounds y -> exists w, f y = Some w /\ v <= w.

(** An ideal [minimize]: it finds a smallest cost if there is one, from every
    start.  (scipy's TNC only promises a local one.) *)
Definition minimize_contract (minimize : (vec -> option R) -> vec -> vec) : Prop :=
  forall n f start, List.length start = n -> (exists x, best n f x) -> best n f (minimize f start).

(** ** Lemmas *)
Lemma all_some_number : forall qs, all_some (map number (map Fin qs)) = Some (map Q2R qs).
Proof. induction qs as [|q qs IH]; [reflexivity|]. cbn [map all_some number]. rewrite IH. reflexivity. Qed.

(** The cost the solver sees is the one of C42 and C99. *)
Lemma cost_is_seen : forall wc wp A qs s, A <> [] -> s <> [] -> List.length qs = List.length A ->
  cost_seen wc wp (map Some A) (map Fin qs) s = Some (cost wc wp A s (map Q2R qs)).
Proof.
  intros wc wp A qs s HA Hs L. unfold cost_seen. rewrite all_some_map, all_some_number. destruct A as [|r A]; [congruence|]. destruct s as [|v s]; [congruence|].
  unfold np_pairs. replace (List.length (intensities (r :: A) (v :: s)) =? List.length (map Q2R qs))%nat with true.
  - reflexivity.
  - symmetry. apply Nat.eqb_eq. unfold intensities. rewrite !map_length. symmetry. exact L.
Qed.

Lemma not_nil : forall (x : vec) n, (1 <= n)%nat -> List.length x = n -> x <> [].
Proof. intros x n Hn L ->. simpl in L. lia. Qed.

Lemma best_minimiser : forall wc wp A qs n x, A <> [] -> (1 <= n)%nat -> List.length qs = List.length A ->
  (best n (cost_seen wc wp (map Some A) (map Fin qs)) x <-> List.length x = n /\ minimiser wc wp A (map Q2R qs) x).
Proof.
  intros wc wp A qs n x HA Hn L. split.
  - intros (Lx & Bx & v & Ev & M). split; [exact Lx|]. split; [exact Bx|]. intros y Ly By. rewrite Lx in Ly. destruct (M y Ly By) as (w & Ew & Le).
    rewrite cost_is_seen in Ev, Ew by (assumption || eapply not_nil; eassumption). apply Some_inj in Ev. apply Some_inj in Ew. subst v w. exact Le.
  - intros (Lx & Bx & M). split; [exact Lx|]. split; [exact Bx|]. eexists. split; [apply cost_is_seen; [exact HA|eapply not_nil; eassumption|exact L]|].
    intros y Ly By. eexists. split; [apply cost_is_seen; [exact HA|eapply not_nil; eassumption|exact L]|]. apply M; [congruence|exact By].
Qed.

(** ** The solver *)

(** There always is a smallest cost within the bounds: the contract is about
    every image of every analysis with LEDs in view. *)
Theorem C121_there_is_a_best_result : forall wc wp n A qs, 0 <= wc -> (1 <= n)%nat -> A <> [] -> Forall nonneg A -> List.length qs = List.length A ->
  exists x, best n (cost_seen wc wp (map Some A) (map Fin qs)) x.
Proof.
  intros wc wp n A qs Hw Hn HA NA L. destruct (minimum_exists wc wp A (map Q2R qs) n Hw HA NA Hn ltac:(rewrite map_length; exact L)) as (x & Lx & Mx).
  exists x. apply best_minimiser; try assumption. split; assumption.
Qed.
Print Assumptions C121_there_is_a_best_result.

(** And there is a function which keeps the contract. *)
Theorem C121_contract_can_be_met : exists minimize, minimize_contract minimize.
Proof.
  assert (H : forall p : (vec -> option R) * vec, exists x, (exists y, best (List.length (snd p)) (fst p) y) -> best (List.length (snd p)) (fst p) x).
  { intros (f, s). cbn [fst snd]. destruct (Classical_Prop.classic (exists y, best (List.length s) f y)) as [(y & B)|N]; [exists y; intros _; exact B|exists []; intros B; contradiction]. }
  exists (fun f s => proj1_sig (constructive_indefinite_description _ (H (f, s)))). intros n f s <- B.
  exact (proj2_sig (constructive_indefinite_description _ (H (f, s))) B).
Qed.
Print Assumptions C121_contract_can_be_met.

(** Hence a call for one image, whatever the start. *)
Lemma nonlinear_solution : forall minimize wc wp n A last qs, minimize_contract minimize -> 0 <= wc -> (1 <= n)%nat -> A <> [] -> Forall nonneg A ->
  List.length qs = List.length A -> (forall y, last = Some y -> List.length y = n) ->
  exists x, solve_nonlinear minimize wc wp n (map Some A) last (map Fin qs) = Ok x /\ List.length x = n /\ minimiser wc wp A (map Q2R qs) x.
Proof.
  intros minimize wc wp n A last qs Hm Hw Hn HA NA L Hl. unfold solve_nonlinear. rewrite !map_length, L, Nat.eqb_refl. cbn [orb].
  eexists. split; [reflexivity|]. apply best_minimiser; try assumption. apply Hm; [|apply C121_there_is_a_best_result; assumption].
  destruct last as [y|]; [apply Hl; reflexivity|apply repeat_length].
Qed.

(** *** How far the result is from the truth *)

(** Smoke of any profile; lines of sight which tell the layers apart. *)
Theorem C121_error_of_any_profile : forall wc wp A target x s c e, A <> [] -> Forall nonneg A -> 0 <= wc -> x <> [] ->
  0 < c -> (forall z, List.length z = List.length x -> c * sq_norm z <= sq_norm (mul A z)) -> 0 <= e ->
  List.length s = List.length x -> in_bounds s ->
  Forall2 (fun row v => Rabs (v - exp (- rdot row s)) <= e * exp (- rdot row s)) A target ->
  minimiser wc wp A target x ->
  let N := INR (List.length A) in
  sqrt (sq_dist x s) <= exp (10 * total (map total A)) / sqrt c * (N * (2 * e + 2 * N * wc * bend s + 10 * Rabs wp)).
Proof.
  intros wc wp A target x s c e HA NA Hw Hx Hc Hz He Ls Bs F Mx N. pose proof (C99_minimiser_fits wc wp A target x s HA Hw Mx Hx Ls Bs) as D. fold N in D.
  pose proof (deviation_errors A s target e NA (in_bounds_nonneg s Bs) He F) as Ds. fold N in Ds. pose proof (Forall2_len _ _ _ F) as Lt. destruct Mx as (Bx & _).
  set (U := 10 * total (map total A)).
  assert (T : sqrt (sq_dist (beer_lambert A x) (beer_lambert A s)) <= deviation A x target + deviation A s target).
  { unfold deviation. rewrite (sq_dist_sym (beer_lambert A s) target). apply dist_triangle; unfold beer_lambert; rewrite !map_length; congruence. }
  assert (G : sqrt (sq_dist (beer_lambert A x) (beer_lambert A s)) <= N * (2 * e + 2 * N * wc * bend s + 10 * Rabs wp)) by lra.
  pose proof (depths_apart A U x s NA Bx Bs (total_entry A NA)) as Dp.
  specialize (Hz (vsub x s)). rewrite vsub_length in Hz by congruence. specialize (Hz eq_refl). rewrite mul_vsub in Hz by congruence. rewrite <- sq_dist_vsub in Hz.
  assert (S : sqrt c * sqrt (sq_dist x s) <= exp U * sqrt (sq_dist (beer_lambert A x) (beer_lambert A s))).
  { rewrite <- sqrt_mult_alt by lra. rewrite <- (sqrt_square (exp U)) by (left; apply exp_pos).
    rewrite <- sqrt_mult_alt by (apply Rmult_le_pos; left; apply exp_pos). apply sqrt_le_1_alt. lra. }
  pose proof (sqrt_lt_R0 c Hc) as Sc. apply (Rmult_le_reg_l (sqrt c)); [exact Sc|].
  replace (sqrt c * (exp U / sqrt c * (N * (2 * e + 2 * N * wc * bend s + 10 * Rabs wp)))) with (exp U * (N * (2 * e + 2 * N * wc * bend s + 10 * Rabs wp))) by (field; lra).
  eapply Rle_trans; [exact S|]. apply Rmult_le_compat_l; [left; apply exp_pos|exact G].
Qed.
Print Assumptions C121_error_of_any_profile.

(** Smoke which is linear in height: the weight of the curvature fills the gaps
    between the lines of sight. *)
Theorem C121_error_of_linear_profiles : forall wc wp A target x s c e, A <> [] -> Forall nonneg A -> 0 < wc -> x <> [] ->
  0 < c -> (forall z, List.length z = List.length x -> c * sq_norm z <= sq_norm (mul A z) + 1 * roughness z) -> 0 <= e ->
  List.length s = List.length x -> in_bounds s -> progression s ->
  Forall2 (fun row v => Rabs (v - exp (- rdot row s)) <= e * exp (- rdot row s)) A target ->
  minimiser wc wp A target x ->
  let N := INR (List.length A) in
  sqrt (sq_dist x s) <= (exp (10 * total (map total A)) * N + / (N * wc)) / sqrt c * (2 * e + 10 * Rabs wp).
Proof.
  intros wc wp A target x s c e HA NA Hw Hx Hc Hz He Ls Bs Ps F Mx N. pose proof (C99_minimiser_fits wc wp A target x s HA ltac:(lra) Mx Hx Ls Bs) as D. fold N in D.
  rewrite (bend_progression s Ps), Rmult_0_r, Rplus_0_l in D.
  pose proof (len_pos A HA) as PN. fold N in PN.
  pose proof (deviation_errors A s target e NA (in_bounds_nonneg s Bs) He F) as Ds. fold N in Ds. pose proof (Forall2_len _ _ _ F) as Lt. destruct Mx as (Bx & M).
  set (U := 10 * total (map total A)). set (g := 2 * e + 10 * Rabs wp). assert (Hg : 0 <= g) by (unfold g; pose proof (Rabs_pos wp); lra).
  assert (T : sqrt (sq_dist (beer_lambert A x) (beer_lambert A s)) <= N * g).
  { pose proof (dist_triangle (beer_lambert A x) target (beer_lambert A s) ltac:(unfold beer_lambert; rewrite map_length; exact Lt) ltac:(unfold beer_lambert; rewrite map_length; symmetry; exact Lt)) as T.
    rewrite (sq_dist_sym target) in T. unfold deviation in D, Ds. unfold g. lra. }
  (* the curvature of the result *)
  assert (B : bend x <= g / (N * wc)).
  { specialize (M s Ls Bs). rewrite !cost_spec in M by exact HA. fold N in M. rewrite (bend_progression s Ps) in M.
    assert (Hs : s <> []) by (destruct s; [destruct x; [congruence|discriminate]|discriminate]).
    pose proof (average_bounds x Bx Hx) as X. pose proof (average_bounds s Bs Hs) as S.
    assert (P : average s * wp - average x * wp <= 10 * Rabs wp).
    { replace (average s * wp - average x * wp) with ((average s - average x) * wp) by ring. destruct (Rle_dec 0 wp) as [Q|Q]; [rewrite Rabs_pos_eq by exact Q; nra|rewrite Rabs_left by lra; nra]. }
    assert (V : 0 <= deviation A x target / N) by (apply Rmult_le_pos; [apply sqrt_pos|left; apply Rinv_0_lt_compat; exact PN]).
    assert (V' : deviation A s target / N <= e).
    { apply (Rmult_le_reg_r N); [exact PN|]. unfold Rdiv. rewrite Rmult_assoc, Rinv_l by lra. lra. }
    assert (W : 0 < N * wc) by (apply Rmult_lt_0_compat; assumption).
    apply (Rmult_le_reg_r (N * wc)); [exact W|]. replace (g / (N * wc) * (N * wc)) with g by (field; lra).
    assert (2 * (bend x * (N * wc)) <= e + 10 * Rabs wp); [|pose proof (bend_nonneg x); pose proof (Rabs_pos wp); unfold g; nra]. nra. }
  assert (Rx : roughness (vsub x s) <= (g / (N * wc)) * (g / (N * wc))).
  { destruct (progression_line s (List.length x) Ps Ls) as (a & b & ->). rewrite roughness_line_sub. eapply Rle_trans; [apply roughness_bend|].
    apply Rmult_le_compat; try exact B; apply bend_nonneg. }
  pose proof (depths_apart A U x s NA Bx Bs (total_entry A NA)) as Dp.
  specialize (Hz (vsub x s)). rewrite vsub_length in Hz by congruence. specialize (Hz eq_refl). rewrite mul_vsub in Hz by congruence. rewrite <- sq_dist_vsub in Hz.
  set (q := sq_dist (beer_lambert A x) (beer_lambert A s)) in *. assert (Hq : 0 <= q) by apply sq_dist_nonneg.
  assert (Eq : q <= (N * g) * (N * g)).
  { rewrite <- (sqrt_sqrt q) by exact Hq. pose proof (sqrt_pos q). apply Rmult_le_compat; assumption. }
  assert (PU : 0 < exp U) by apply exp_pos. assert (W : 0 < / (N * wc)) by (apply Rinv_0_lt_compat, Rmult_lt_0_compat; assumption).
  assert (S : c * sq_dist x s <= ((exp U * N + / (N * wc)) * g) * ((exp U * N + / (N * wc)) * g)).
  { apply Rle_trans with (exp U * exp U * q + (g / (N * wc)) * (g / (N * wc))); [lra|].
    apply Rle_trans with (exp U * exp U * ((N * g) * (N * g)) + (g / (N * wc)) * (g / (N * wc))).
    - apply Rplus_le_compat_r, Rmult_le_compat_l; [apply Rmult_le_pos; lra|exact Eq].
    - unfold Rdiv. set (k := / (N * wc)) in *. assert (0 <= exp U * N * g * (k * g)); [|lra].
      repeat apply Rmult_le_pos; lra. }
  pose proof (sqrt_lt_R0 c Hc) as Sc. apply (Rmult_le_reg_l (sqrt c)); [exact Sc|].
  replace (sqrt c * ((exp U * N + / (N * wc)) / sqrt c * g)) with ((exp U * N + / (N * wc)) * g) by (field; split; [|split]; lra).
  rewrite <- sqrt_mult_alt by lra. rewrite <- (sqrt_square ((exp U * N + / (N * wc)) * g)); [apply sqrt_le_1_alt; exact S|].
  apply Rmult_le_pos; [|exact Hg]. pose proof (Rmult_lt_0_compat _ _ PU PN). lra.
Qed.
Print Assumptions C121_error_of_linear_profiles.

(** Coefficients above the upper bound are cut off, whatever is measured. *)
Theorem C121_dense_smoke_is_cut_off : forall minimize wc wp n A last qs x s k v,
  minimize_contract minimize -> 0 <= wc -> (1 <= n)%nat -> A <> [] -> Forall nonneg A ->
  List.length qs = List.length A -> (forall y, last = Some y -> List.length y = n) ->
  solve_nonlinear minimize wc wp n (map Some A) last (map Fin qs) = Ok x ->
  List.length s = n -> nth_error s k = Some v -> 10 <= v -> v - 10 <= sqrt (sq_dist x s).
Proof.
  intros minimize wc wp n A last qs x s k v Hm Hw Hn HA NA L Hl E Ls Hk Hv.
  destruct (nonlinear_solution minimize wc wp n A last qs Hm Hw Hn HA NA L Hl) as (x' & E' & Lx & Bx & _). rewrite E in E'. apply Ok_inj in E'. subst x'.
  rewrite <- (sqrt_square (v - 10)) by lra. apply sqrt_le_1_alt. eapply Rle_trans; [|apply (nth_sq x s k); congruence].
  assert (Nk : nth k s 0 = v) by (apply nth_error_nth; exact Hk). rewrite Nk.
  assert (Hi : (k < List.length x)%nat) by (rewrite Lx, <- Ls; apply nth_error_Some; congruence).
  unfold in_bounds in Bx. rewrite Forall_forall in Bx. specialize (Bx (nth k x 0) (nth_In x 0 Hi)). nra.
Qed.
Print Assumptions C121_dense_smoke_is_cut_off.
