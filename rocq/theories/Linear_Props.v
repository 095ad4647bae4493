(** C119: smoke which is linear in height needs two LEDs only. *)
From Coq Require Import ZArith QArith String List Permutation Reals Lra Lia.
From Verif Require Import Base Step2_Model Step3_Model Table_Props Table_Model Table_Spec Analysis_Model Analysis_Props Layers_Model Layers_Spec Layers_Props
  Solver_Model Solver_Props Stable_Props Nnls_Props End_Model End_Props Separate_Proofs Separate_Props Linear_Proofs.
Import ListNotations.
Local Open Scope R_scope.

(** ** Specification *)

(** The lines of sight tell any two profiles apart which are linear in height. *)
Definition tells_lines_apart (n : nat) (A : matrix) : Prop :=
  forall p q, List.length p = n -> List.length q = n -> progression p -> progression q -> mul A p = mul A q -> p = q.

(** The heights lie in the same layer, its borders included. *)
Definition one_layer (bot top : R) (n : nat) (x y z : R) : Prop :=
  let d := (top - bot) / INR n in
  exists k, (k < n)%nat /\ forall h, In h [x; y; z] -> bot + INR k * d <= h <= bot + INR (S k) * d.

(** ** The penalty and the lines of sight together *)
Lemma mul_zeros : forall A n, mul A (repeat 0 n) = repeat 0 (List.length A).
Proof. intros A n. unfold mul. induction A as [|r A IH]; [reflexivity|]. cbn [map List.length repeat]. rewrite rdot_zeros, IH. reflexivity. Qed.

Lemma sq_dist_zero_r : forall v k, List.length v = k -> sq_dist v (repeat 0 k) = sq_norm v.
Proof. induction v as [|x v IH]; intros k <-; cbn [List.length repeat sq_dist sq_norm]; [reflexivity|]. rewrite IH by reflexivity. ring. Qed.

Lemma penalty_3 : forall x n, (3 <= n)%nat -> List.length x = n -> penalty x = roughness x.
Proof. intros x n Hn L. unfold penalty. rewrite L. replace (3 <=? n)%nat with true by (symmetry; apply Nat.leb_le; exact Hn). reflexivity. Qed.

Lemma aug_norm : forall lambda n A z, 0 <= lambda -> (3 <= n)%nat -> List.length z = n ->
  sq_norm (mul (a_aug lambda n A) z) = sq_norm (mul A z) + lambda * roughness z.
Proof.
  intros lambda n A z Hl Hn Hz. pose proof (aug_objective lambda n A (repeat 0 (List.length A)) z Hl (repeat_length _ _) Hz) as E. unfold objective in E.
  rewrite <- repeat_app in E. rewrite sq_dist_zero_r in E by (unfold mul, a_aug; rewrite map_length, app_length, map_length; reflexivity).
  rewrite sq_dist_zero_r in E by (unfold mul; apply map_length). rewrite (penalty_3 z n Hn Hz) in E. exact E.
Qed.

Lemma zero_norm : forall z n, List.length z = n -> sq_norm z = 0 -> z = repeat 0 n.
Proof.
  intros z n L H. apply sq_norm_pos in H. subst n. induction H as [|x z E H IH]; [reflexivity|]. cbn [List.length repeat]. rewrite <- IH, E. reflexivity.
Qed.

Lemma zeros_progression : forall n, progression (repeat 0 n).
Proof. intros n. apply smooth_progression. apply roughness_zeros. Qed.

(** ** The theorems *)

(** Lines of sight which tell the linear profiles apart are, together with the
    penalty, a system with one solution. *)
Theorem C119_penalty_fills_the_gaps : forall lambda n A, 0 < lambda -> (3 <= n)%nat -> rows_ok n A ->
  (tells_lines_apart n A <->
   exists c, 0 < c /\ forall z, List.length z = n -> c * sq_norm z <= sq_norm (mul A z) + lambda * roughness z).
Proof.
  intros lambda n A Hl Hn HA. split.
  - intros H. destruct (kernel_or_separates n (a_aug lambda n A) (rows_ok_aug lambda n A HA)) as [(z & Lz & Pz & Kz)|(_ & c & Hc & S)].
    + exfalso. assert (N : sq_norm (mul (a_aug lambda n A) z) = 0).
      { unfold mul. clear - Kz. induction Kz as [|r M E K IH]; [reflexivity|]. cbn [map sq_norm]. rewrite E, IH. ring. }
      rewrite aug_norm in N by (assumption || lra). pose proof (sq_norm_nonneg (mul A z)) as P1. pose proof (roughness_nonneg z) as P2.
      assert (P3 : 0 <= lambda * roughness z) by (apply Rmult_le_pos; lra).
      assert (Z : lambda * roughness z = 0) by lra. apply Rmult_integral in Z. destruct Z as [Z|Z]; [lra|].
      assert (E : z = repeat 0 n).
      { apply H; [exact Lz|apply repeat_length|apply smooth_progression; exact Z|apply zeros_progression|]. rewrite mul_zeros. apply zero_norm; [unfold mul; apply map_length|lra]. }
      rewrite E in Pz. rewrite sq_norm_zero in Pz; [lra|]. apply Forall_forall. intros x Hx. apply repeat_spec in Hx. exact Hx.
    + exists c. split; [exact Hc|]. intros z Lz. rewrite <- (aug_norm lambda n) by (assumption || lra). apply S. exact Lz.
  - intros (c & Hc & S) p q Lp Lq Pp Pq E. destruct (progression_line p n Pp Lp) as (a & b & ->). destruct (progression_line q n Pq Lq) as (a' & b' & ->).
    assert (L : List.length (line a b 0 n) = List.length (line a' b' 0 n)) by (rewrite !line_length; reflexivity).
    specialize (S (vsub (line a b 0 n) (line a' b' 0 n))). rewrite vsub_length in S by exact L. specialize (S Lp).
    rewrite mul_vsub in S by exact L. rewrite E, sq_dist_refl in S. rewrite vsub_line, progression_roughness in S by apply line_progression.
    rewrite <- vsub_line, <- sq_dist_vsub in S. pose proof (sq_dist_nonneg (line a b 0 n) (line a' b' 0 n)) as P.
    apply sq_dist_0; [exact L|]. assert (c * sq_dist (line a b 0 n) (line a' b' 0 n) = 0) as Z by nra. apply Rmult_integral in Z. lra.
Qed.
Print Assumptions C119_penalty_fills_the_gaps.

(** Whatever the intensities are: the distance from a linear profile. *)
Theorem C119_coefficient_error : forall nnls lambda n A rel s c, 0 <= lambda -> (3 <= n)%nat -> List.length rel = List.length A ->
  List.length s = n -> nonneg s -> progression s ->
  0 < c -> (forall z, List.length z = n -> c * sq_norm z <= sq_norm (mul A z) + lambda * roughness z) ->
  nnls_solution n (a_aug lambda n A) (b_aug n rel) (nnls (a_aug lambda n A) (b_aug n rel)) ->
  sq_dist (linear_coefficients nnls lambda n A rel) s <= 5 * depth_errors A rel s / c.
Proof.
  intros nnls lambda n A rel s c Hl Hn Hr Ls Ns Pr Hc Hz Sol.
  destruct (C38_coefficients_minimise_the_objective nnls lambda n A rel Hl Hr Sol) as (Lx & _ & M).
  set (x := linear_coefficients nnls lambda n A rel) in *. specialize (M s Ls Ns). unfold objective in M.
  rewrite (penalty_3 s n Hn Ls), (penalty_3 x n Hn Lx), (progression_roughness s Pr) in M. unfold depth_errors. set (b := map optical_depth rel) in *.
  pose proof (sq_dist_nonneg (mul A x) b) as P1. assert (P2 : 0 <= lambda * roughness x) by (apply Rmult_le_pos; [exact Hl|apply roughness_nonneg]).
  assert (T : sq_dist (mul A x) (mul A s) <= 2 * sq_dist (mul A x) b + 2 * sq_dist b (mul A s)).
  { apply sq_dist_triangle; unfold mul, b; rewrite !map_length; congruence. }
  rewrite (sq_dist_sym b) in T. assert (L : List.length x = List.length s) by congruence.
  specialize (Hz (vsub x s)). rewrite vsub_length in Hz by exact L. specialize (Hz Lx). rewrite mul_vsub in Hz by exact L. rewrite <- sq_dist_vsub in Hz.
  destruct (progression_line s n Pr Ls) as (u & w & Es).
  assert (R : roughness (vsub x s) = roughness x) by (rewrite Es, <- Lx; apply roughness_line_sub). rewrite R in Hz.
  apply (Rmult_le_reg_l c); [exact Hc|]. replace (c * (5 * sq_dist (mul A s) b / c)) with (5 * sq_dist (mul A s) b) by (field; lra). lra.
Qed.
Print Assumptions C119_coefficient_error.

(** Every intensity within the relative error [e]. *)
Theorem C119_noisy_profiles : forall nnls lambda n A rel s c e, 0 <= lambda -> (3 <= n)%nat -> Forall nonneg A ->
  List.length s = n -> nonneg s -> progression s ->
  0 < c -> (forall z, List.length z = n -> c * sq_norm z <= sq_norm (mul A z) + lambda * roughness z) ->
  0 <= e < 1 ->
  Forall2 (fun row v => 1 / 10000000000 <= exp (- rdot row s) /\ Rabs (v - exp (- rdot row s)) <= e * exp (- rdot row s)) A rel ->
  nnls_solution n (a_aug lambda n A) (b_aug n rel) (nnls (a_aug lambda n A) (b_aug n rel)) ->
  sq_dist (linear_coefficients nnls lambda n A rel) s <= 5 * INR (List.length A) * (ln (1 - e) * ln (1 - e)) / c.
Proof.
  intros nnls lambda n A rel s c e Hl Hn HA Ls Ns Pr Hc Hz He F Sol.
  pose proof (C119_coefficient_error nnls lambda n A rel s c Hl Hn (eq_sym (Forall2_len _ _ _ F)) Ls Ns Pr Hc Hz Sol) as E.
  pose proof (depth_errors_bound A rel s e He HA Ns F) as D.
  eapply Rle_trans; [exact E|]. unfold Rdiv. apply Rmult_le_compat_r; [left; apply Rinv_0_lt_compat; exact Hc|]. lra.
Qed.
Print Assumptions C119_noisy_profiles.

Lemma lines_apart_or_not : forall n A, ~ tells_lines_apart n A -> exists a b, line a b 0 n <> repeat 0 n /\ Forall (fun r => rdot r (line a b 0 n) = 0) A.
Proof.
  intros n A H. apply Classical_Prop.NNPP. intros C. apply H. intros p q Lp Lq Pp Pq E.
  destruct (progression_line p n Pp Lp) as (a & b & ->). destruct (progression_line q n Pq Lq) as (a' & b' & ->).
  assert (L : List.length (line a b 0 n) = List.length (line a' b' 0 n)) by (rewrite !line_length; reflexivity).
  apply Classical_Prop.NNPP. intros N. apply C. exists (a - a'), (b - b'). split.
  - intros Z. apply N. apply sq_dist_0; [exact L|]. rewrite sq_dist_vsub, vsub_line, Z. apply sq_norm_zero. apply Forall_forall. intros x Hx. apply repeat_spec in Hx. exact Hx.
  - apply Forall_forall. intros r Hr. rewrite <- vsub_line, rdot_vsub by exact L.
    unfold mul in E. assert (Q : forall (l : matrix), map (fun row => rdot row (line a b 0 n)) l = map (fun row => rdot row (line a' b' 0 n)) l -> In r l -> rdot r (line a b 0 n) = rdot r (line a' b' 0 n)).
    { clear. induction l as [|r' l IH]; intros E Hin; [destruct Hin|]. cbn [map] in E. injection E as E1 E2. destruct Hin as [<-|Hin]; [exact E1|apply IH; assumption]. }
    rewrite (Q A E Hr). ring.
Qed.

Lemma rdot_line : forall r a b n, rdot r (line a b 0 n) = a * rdot r (line 1 0 0 n) + b * rdot r (line 0 1 0 n).
Proof.
  intros r a b n. unfold line. generalize 0%nat. revert r. induction n as [|n IH]; intros r k; cbn [seq map]; [destruct r; cbn [rdot]; lra|].
  destruct r as [|x r]; cbn [rdot]; [lra|]. rewrite (IH r (S k)). ring.
Qed.

(** Otherwise two profiles look the same. *)
Lemma twins : forall n A, Forall nonneg A -> ~ tells_lines_apart n A ->
  exists s x, s <> x /\ nonneg s /\ nonneg x /\ Forall (fun v => v <= 1) s /\ Forall (fun v => v <= 1) x /\ List.length s = n /\ List.length x = n /\
    progression s /\ progression x /\ (forall r, In r A -> rdot r x = rdot r s) /\ Forall (fun v => 1 / 10000000000 <= v) (beer_lambert A s).
Proof.
  intros n A NA N. destruct (lines_apart_or_not n A N) as (a & b & Hz & Kz).
  (* a constant profile and another one *)
  set (m := Rabs a + INR n * Rabs b). assert (Hm : 0 <= m) by (unfold m; pose proof (Rabs_pos a); pose proof (Rmult_le_pos (INR n) (Rabs b) (pos_INR n) (Rabs_pos b)); lra).
  set (S0 := fold_right (fun r t => rdot r (line m 0 0 n) + t) 0 A).
  assert (Nm : nonneg (line m 0 0 n)) by (unfold line; apply Forall_map, Forall_forall; intros i _; lra).
  assert (HS : forall r, In r A -> 0 <= rdot r (line m 0 0 n) <= S0).
  { unfold S0. clear - NA Nm. induction NA as [|r' A N NA IH]; intros r Hr; [destruct Hr|]. cbn [fold_right]. pose proof (rdot_nonneg r' _ N Nm) as P.
    assert (Q : 0 <= fold_right (fun r t => rdot r (line m 0 0 n) + t) 0 A).
    { clear - NA Nm. induction NA as [|r A N NA IH]; cbn [fold_right]; [lra|]. pose proof (rdot_nonneg r _ N Nm). lra. }
    destruct Hr as [<-|Hr]; [lra|]. specialize (IH r Hr). lra. }
  assert (PS : 0 <= S0). { unfold S0. clear - NA Nm. induction NA as [|r A N NA IH]; cbn [fold_right]; [lra|]. pose proof (rdot_nonneg r _ N Nm). lra. }
  clearbody S0. set (t := 1 / (2 * (S0 + m + 1))). assert (Ht : 0 < t) by (unfold t; apply Rdiv_lt_0_compat; lra).
  assert (Et : t * (S0 + m + 1) = 1 / 2) by (unfold t; field; lra).
  assert (HtS : t * S0 <= 1 / 2) by (pose proof (Rmult_le_pos t (m + 1) ltac:(lra) ltac:(lra)); lra).
  assert (Htm : t * m <= 1 / 2) by (pose proof (Rmult_le_pos t (S0 + 1) ltac:(lra) ltac:(lra)); lra).
  clearbody t. clear Et. set (s := line (t * m) 0 0 n). set (x := line (t * (m + a)) (t * b) 0 n).
  assert (Bx : forall i, (i < n)%nat -> 0 <= m + a + INR i * b <= 2 * m).
  { intros i Hi. unfold m. pose proof (Rle_abs (- a)) as Q1. rewrite Rabs_Ropp in Q1. pose proof (Rle_abs (- b)) as Q2. rewrite Rabs_Ropp in Q2. pose proof (Rle_abs a) as Q8. pose proof (Rle_abs b) as Q9.
    assert (Q3 : INR i <= INR n) by (apply le_INR; lia). pose proof (pos_INR i) as Q4. pose proof (Rabs_pos b) as Q5.
    assert (Q6 : INR i * Rabs b <= INR n * Rabs b) by (apply Rmult_le_compat_r; assumption).
    assert (Q7 : INR i * - b <= INR i * Rabs b) by (apply Rmult_le_compat_l; assumption).
    assert (Q10 : INR i * b <= INR i * Rabs b) by (apply Rmult_le_compat_l; assumption). lra. }
  assert (Same : forall r, In r A -> rdot r x = rdot r s).
  { intros r Hr. unfold x, s. rewrite (rdot_line r (t * (m + a))), (rdot_line r (t * m)). rewrite Forall_forall in Kz. specialize (Kz r Hr). rewrite rdot_line in Kz. nra. }
  exists s, x. split; [|split; [|split; [|split; [|split; [|split; [|split; [|split; [|split; [|split]]]]]]]]].
  - intros E. apply Hz. assert (D : sq_norm (vsub x s) = 0) by (rewrite <- sq_dist_vsub, E; apply sq_dist_refl).
    unfold x, s in D. rewrite vsub_line in D. replace (line (t * (m + a) - t * m) (t * b - 0) 0 n) with (map (Rmult t) (line a b 0 n)) in D.
    2: { unfold line. rewrite map_map. apply map_ext. intros i. ring. }
    rewrite sq_norm_scale in D. apply Rmult_integral in D. destruct D as [D|D]; [apply Rmult_integral in D; lra|]. apply zero_norm; [apply line_length|exact D].
  - unfold s, line. apply Forall_map, Forall_forall. intros i _. pose proof (Rmult_le_pos t m ltac:(lra) Hm). lra.
  - unfold x, line. apply Forall_map, Forall_forall. intros i Hi. apply in_seq in Hi. replace (t * (m + a) + INR i * (t * b)) with (t * (m + a + INR i * b)) by ring.
    apply Rmult_le_pos; [lra|]. apply Bx. lia.
  - unfold s, line. apply Forall_map, Forall_forall. intros i _. lra.
  - unfold x, line. apply Forall_map, Forall_forall. intros i Hi. apply in_seq in Hi. replace (t * (m + a) + INR i * (t * b)) with (t * (m + a + INR i * b)) by ring.
    pose proof (Rmult_le_compat_l t _ _ ltac:(lra) (proj2 (Bx i ltac:(lia)))). lra.
  - apply line_length.
  - apply line_length.
  - apply line_progression.
  - apply line_progression.
  - exact Same.
  - unfold beer_lambert. apply Forall_map, Forall_forall. intros r Hr. destruct (HS r Hr) as (H1 & H2).
    assert (E : rdot r s = t * rdot r (line m 0 0 n)) by (unfold s; rewrite (rdot_line r (t * m)), (rdot_line r m); ring).
    assert (B : rdot r s <= 1 / 2) by (rewrite E; pose proof (Rmult_le_compat_l t _ _ ltac:(lra) H2); lra).
    pose proof (exp_ineq1_le (- rdot r s)). lra.
Qed.

(** Exactly then every solver which keeps its contract returns the profile. *)
Theorem C119_linear_profiles_are_recovered : forall lambda n A, 0 < lambda -> (3 <= n)%nat -> rows_ok n A -> Forall nonneg A ->
  (tells_lines_apart n A <->
   forall nnls s, nonneg s -> List.length s = n -> progression s ->
     Forall (fun v => 1 / 10000000000 <= v) (beer_lambert A s) ->
     nnls_solution n (a_aug lambda n A) (b_aug n (beer_lambert A s)) (nnls (a_aug lambda n A) (b_aug n (beer_lambert A s))) ->
     linear_coefficients nnls lambda n A (beer_lambert A s) = s).
Proof.
  intros lambda n A Hl Hn HA NA. split.
  - intros H nnls s Ns Ls Pr Hv Sol. destruct (proj1 (C119_penalty_fills_the_gaps lambda n A Hl Hn HA) H) as (c & Hc & Hz).
    assert (Lr : List.length (beer_lambert A s) = List.length A) by (unfold beer_lambert; apply map_length).
    pose proof (C119_coefficient_error nnls lambda n A (beer_lambert A s) s c ltac:(lra) Hn Lr Ls Ns Pr Hc Hz Sol) as E.
    unfold depth_errors in E. rewrite (exact_depths A s NA Ns Hv), sq_dist_refl in E.
    apply sq_dist_0; [rewrite Ls; apply Sol|]. pose proof (sq_dist_nonneg (linear_coefficients nnls lambda n A (beer_lambert A s)) s) as P.
    replace (5 * 0 / c) with 0 in E by (field; lra). lra.
  - intros H. apply Classical_Prop.NNPP. intros N. destruct (twins n A NA N) as (s & x & Ne & Ns & Nx & _ & _ & Ls & Lx & Ps & Px & Same & Low).
    apply Ne. symmetry. apply (H (fun _ _ => x) s Ns Ls Ps Low). split; [exact Lx|]. split; [exact Nx|]. intros y Ly Ny.
    assert (Lr : List.length (beer_lambert A s) = List.length A) by (unfold beer_lambert; apply map_length).
    rewrite C38_augmented_system_is_the_objective by (try lra; try exact Lr; exact Lx). unfold objective.
    rewrite (exact_depths A s NA Ns Low). replace (mul A x) with (mul A s) by (unfold mul; apply map_ext_in; intros r Hr; symmetry; apply Same; exact Hr).
    rewrite sq_dist_refl, (penalty_3 x n Hn Lx), progression_roughness by exact Px. replace (0 + lambda * 0) with 0 by ring. apply sq_dist_nonneg.
Qed.
Print Assumptions C119_linear_profiles_are_recovered.

(** *** The non-linear solver *)

(** A minimiser within the bounds (0, 10). *)
Definition box_solution (n : nat) (f : vec -> R) (x : vec) : Prop :=
  List.length x = n /\ Forall (fun v => 0 <= v <= 10) x /\
  forall y, List.length y = n -> Forall (fun v => 0 <= v <= 10) y -> f x <= f y.

(** Without preference, and with a minimiser, the same holds for the non-linear
    solver, whatever the start. *)
Theorem C119_non_linear_solver : forall w n A, 0 < w -> (1 <= n)%nat -> rows_ok n A -> Forall nonneg A -> A <> [] ->
  (tells_lines_apart n A <->
   forall minimize last s, Forall (fun v => 0 <= v <= 10) s -> List.length s = n -> progression s ->
     (forall start, box_solution n (fun x => cost w 0 A x (beer_lambert A s)) (minimize (fun x => cost w 0 A x (beer_lambert A s)) start)) ->
     nonlinear_coefficients minimize w 0 n A last (beer_lambert A s) = s).
Proof.
  intros w n A Hw Hn HA NA Ne. split.
  - intros T minimize last s Bs Ls Ps Sol. unfold nonlinear_coefficients.
    set (x := minimize _ _). destruct (Sol (match last with None => repeat 0 n | Some s0 => s0 end)) as (Lx & _ & M). fold x in Lx, M.
    specialize (M s Ls Bs). assert (Lb : List.length (beer_lambert A s) = List.length A) by (unfold beer_lambert; apply map_length).
    destruct (C42_without_preference_truth_is_optimal w A s (beer_lambert A s) Hw Ne Lb) as (_ & Z).
    destruct (C42_without_preference_truth_is_optimal w A x (beer_lambert A s) Hw Ne Lb) as (P & Z').
    rewrite (proj2 Z (conj eq_refl Ps)) in M. destruct (proj1 Z' ltac:(lra)) as (E & Px). apply T; try assumption.
    unfold beer_lambert in E. unfold mul. apply map_ext_in. intros r Hr.
    assert (Q : exp (- rdot r s) = exp (- rdot r x)).
    { clearbody x. clear - E Hr. induction A as [|r0 A IH]; [destruct Hr|]. cbn [map] in E. injection E as E1 E2. destruct Hr as [<-|Hr]; [exact E1|apply IH; assumption]. }
    apply exp_inv in Q. lra.
  - intros H. apply Classical_Prop.NNPP. intros N. destruct (twins n A NA N) as (s & x & D & Ns & Nx & Us & Ux & Ls & Lx & Ps & Px & Same & Low).
    assert (Box : forall v, nonneg v -> Forall (fun u => u <= 1) v -> Forall (fun u => 0 <= u <= 10) v).
    { intros v H1 H2. unfold nonneg in H1. rewrite Forall_forall in *. intros u Hu. specialize (H1 u Hu). specialize (H2 u Hu). lra. }
    apply D. symmetry. apply (H (fun _ _ => x) None s (Box s Ns Us) Ls Ps). intros _. split; [exact Lx|]. split; [apply Box; assumption|]. intros y Ly By.
    assert (Lb : List.length (beer_lambert A s) = List.length A) by (unfold beer_lambert; apply map_length).
    assert (E : beer_lambert A s = beer_lambert A x) by (unfold beer_lambert; apply map_ext_in; intros r Hr; rewrite (Same r Hr); reflexivity).
    rewrite (proj2 (proj2 (C42_without_preference_truth_is_optimal w A x (beer_lambert A s) Hw Ne Lb)) (conj E Px)).
    apply (C42_without_preference_truth_is_optimal w A y (beer_lambert A s) Hw Ne Lb).
Qed.
Print Assumptions C119_non_linear_solver.

(** *** Which positions *)
Lemma cell_layer : forall bot top n x y z, (1 <= n)%nat -> bot < top ->
  let unit h := (h - bot) / ((top - bot) / INR n) in
  (one_cell n (unit x) (unit y) (unit z) <-> one_layer bot top n x y z).
Proof.
  intros bot top n x y z Hn Hb unit. pose proof (d_pos bot top n Hn Hb) as Hd. set (d := (top - bot) / INR n) in *.
  assert (U : forall h k, INR k <= unit h <= INR k + 1 <-> bot + INR k * d <= h <= bot + INR (S k) * d).
  { intros h k. rewrite S_INR. assert (E : unit h * d = h - bot) by (unfold unit; field; lra). split; intros (H1 & H2).
    - apply (Rmult_le_compat_r d) in H1, H2; try lra.
    - split; apply (Rmult_le_reg_r d); lra. }
  unfold one_cell, one_layer. fold d. split; intros (k & Hk & H).
  - destruct H as (H1 & H2 & H3). exists k. split; [exact Hk|]. intros h [<-|[<-|[<-|[]]]]; apply U; assumption.
  - exists k. split; [exact Hk|]. split; [apply U, H; left; reflexivity|]. split; [apply U, H; right; left; reflexivity|apply U, H; right; right; left; reflexivity].
Qed.

(** Two LEDs of different height, not both in the layer of the camera: exactly
    then the linear profiles are told apart. *)
Theorem C119_two_heights : forall bot top n cam ps H A, (3 <= n)%nat -> bot < top -> within bot top (pz cam) ->
  Forall (in_view bot top cam) ps -> Forall2 (counts_at bot top n cam) ps H ->
  map (traversed_distances (layers bot top n) cam) ps = map Row A ->
  (tells_lines_apart n A <-> exists h1 h2, In h1 H /\ In h2 H /\ h1 <> h2 /\ ~ one_layer bot top n (pz cam) h1 h2).
Proof.
  intros bot top n cam ps H A Hn Hb Hc Hv HH HA. assert (Hn1 : (1 <= n)%nat) by lia.
  apply (rows_visible bot top n Hn1 Hb cam ps A Hv) in HA. subst A.
  pose proof (d_pos bot top n Hn1 Hb) as Hd. set (d := (top - bot) / INR n) in *. set (unit := fun h => (h - bot) / d).
  assert (UR : forall x, In x (map unit (pz cam :: H)) -> 0 <= x <= INR n) by (apply (units_in_range bot top n Hn1 Hb cam ps H); assumption).
  assert (Uc : 0 <= unit (pz cam) <= INR n) by (apply UR; left; reflexivity).
  assert (Uh : forall h, In h H -> 0 <= unit h <= INR n) by (intros h Hh; apply UR; right; apply in_map; exact Hh).
  assert (Ui : forall y z, unit y = unit z -> y = z).
  { intros y z E. unfold unit in E. assert (Q : (y - bot) / d * d = (z - bot) / d * d) by (rewrite E; reflexivity).
    replace ((y - bot) / d * d) with (y - bot) in Q by (field; lra). replace ((z - bot) / d * d) with (z - bot) in Q by (field; lra). lra. }
  assert (Nc : forall h, In h H -> h <> pz cam).
  { clear - HH. induction HH as [|p h ps H C HH IH]; intros h' Hh; [destruct Hh|]. destruct Hh as [<-|Hh]; [|apply IH; exact Hh].
    destruct C as [(C & ->)|(_ & C & _)]; [exact C|lra]. }
  assert (Seen : forall a b, Forall (fun r => rdot r (line a b 0 n) = 0) (map (paths bot top n cam) ps) <->
    forall h, In h H -> a * unit h + b * stairs n (unit h) = a * unit (pz cam) + b * stairs n (unit (pz cam))).
  { intros a b. pose proof (unseen bot top n Hn1 Hb cam ps H (line a b 0 n) Hv HH (line_length _ _ _ _)) as U. rewrite U. change (fun z => (z - bot) / ((top - bot) / INR n)) with unit. split.
    - intros W h Hh. rewrite <- (wsum_line a b n (unit h) (Uh h Hh)), <- (wsum_line a b n (unit (pz cam)) Uc). apply W. right. apply in_map. exact Hh.
    - intros W x Hx. destruct Hx as [<-|Hx]; [reflexivity|]. apply in_map_iff in Hx. destruct Hx as (h & <- & Hh).
      change ((pz cam - bot) / ((top - bot) / INR n)) with (unit (pz cam)). rewrite !wsum_line by (apply Uh; exact Hh) || exact Uc. apply W. exact Hh. }
  split.
  - intros T. apply Classical_Prop.NNPP. intros C.
    assert (Q : exists a b, b <> 0 /\ forall h, In h H -> a * unit h + b * stairs n (unit h) = a * unit (pz cam) + b * stairs n (unit (pz cam))).
    { destruct H as [|h0 H']; [exists 0, 1; split; [lra|intros h []]|]. assert (In0 : In h0 (h0 :: H')) by (left; reflexivity).
      set (H := h0 :: H') in *. pose proof (Nc h0 In0) as N0. assert (D0 : unit h0 - unit (pz cam) <> 0) by (intros E; apply N0, Ui; lra).
      set (a := - (stairs n (unit h0) - stairs n (unit (pz cam))) / (unit h0 - unit (pz cam))).
      assert (E0 : a * (unit h0 - unit (pz cam)) = - (stairs n (unit h0) - stairs n (unit (pz cam)))) by (unfold a; field; exact D0).
      exists a, 1. split; [lra|]. intros h Hh. destruct (Req_dec h0 h) as [<-|Nh]; [lra|].
      assert (One : one_layer bot top n (pz cam) h0 h).
      { apply Classical_Prop.NNPP. intros NO. apply C. exists h0, h. split; [exact In0|]. split; [exact Hh|]. split; [exact Nh|exact NO]. }
      apply (cell_layer bot top n) in One; try assumption. change ((pz cam - bot) / ((top - bot) / INR n)) with (unit (pz cam)) in One. change ((h0 - bot) / ((top - bot) / INR n)) with (unit h0) in One. change ((h - bot) / ((top - bot) / INR n)) with (unit h) in One.
      destruct One as (k & Hk & K1 & K2 & K3). rewrite (stairs_in n k _ Hk K1), (stairs_in n k _ Hk K3). rewrite (stairs_in n k _ Hk K1), (stairs_in n k _ Hk K2) in E0.
      unfold tangent in *. assert (Ea : a = - INR k) by (apply (Rmult_eq_reg_r (unit h0 - unit (pz cam))); [lra|exact D0]). rewrite Ea. ring. }
    destruct Q as (a & b & Nb & Q). apply Seen in Q.
    assert (E : line a b 0 n = repeat 0 n).
    { apply T; [apply line_length|apply repeat_length|apply line_progression|apply zeros_progression|]. rewrite mul_zeros. clear - Q. unfold mul. induction Q as [|r M E Q IH]; [reflexivity|]. cbn [map List.length repeat]. rewrite E, IH. reflexivity. }
    assert (N0 : nth 0 (line a b 0 n) 0 = 0) by (rewrite E; destruct n; reflexivity). assert (N1 : nth 1 (line a b 0 n) 0 = 0) by (rewrite E; destruct n as [|[|n]]; reflexivity).
    rewrite line_nth in N0, N1 by lia. cbn [Nat.add] in N0, N1. change (INR 0) with 0 in N0. change (INR 1) with 1 in N1. lra.
  - intros (h1 & h2 & I1 & I2 & N12 & NO). apply Classical_Prop.NNPP. intros T. destruct (lines_apart_or_not _ _ T) as (a & b & Hz & Kz).
    pose proof (proj1 (Seen a b) Kz) as W. pose proof (W h1 I1) as W1. pose proof (W h2 I2) as W2.
    assert (D1 : unit h1 <> unit (pz cam)) by (intros E; apply (Nc h1 I1), Ui; exact E). assert (D2 : unit h2 <> unit (pz cam)) by (intros E; apply (Nc h2 I2), Ui; exact E).
    assert (D3 : unit h1 <> unit h2) by (intros E; apply N12, Ui; exact E).
    destruct (Req_dec b 0) as [->|Nb].
    + assert (Z : a * (unit h1 - unit (pz cam)) = 0) by lra. apply Rmult_integral in Z. destruct Z as [->|Z]; [|lra].
      apply Hz. unfold line. clear. rewrite <- (seq_length n 0) at 2. generalize (seq 0 n). induction l as [|i l IH]; [reflexivity|]. cbn [map List.length repeat]. rewrite IH. f_equal. ring.
    + apply NO. apply (proj1 (cell_layer bot top n (pz cam) h1 h2 Hn1 Hb)).
      exact (three_points n a b _ _ _ Hn1 Uc (Uh h1 I1) (Uh h2 I2) (not_eq_sym D1) (not_eq_sym D2) D3 Nb (eq_sym W1) (eq_sym W2)).
Qed.
Print Assumptions C119_two_heights.

Lemma heights_exist : forall bot top n cam ps, (1 <= n)%nat -> bot < top -> Forall (in_view bot top cam) ps ->
  exists H, Forall2 (counts_at bot top n cam) ps H.
Proof.
  intros bot top n cam ps Hn Hb Hv. pose proof (d_pos bot top n Hn Hb) as Hd. pose proof (d_n bot top n Hn) as Dn. set (d := (top - bot) / INR n) in *.
  induction Hv as [|p ps V Hv IH]; [exists []; constructor|]. destruct IH as (H & HH).
  assert (Q : exists h, counts_at bot top n cam p h).
  { destruct (Req_EM_T (pz p) (pz cam)) as [E|E]; [|exists (pz p); left; split; [exact E|reflexivity]].
    destruct V as (V1 & V2 & V3). destruct (V3 (eq_sym E)) as (V4 & _). unfold within in V1. assert (Sd : (pz cam - bot) / d * d = pz cam - bot) by (field; lra).
    destruct (cell_of_spec n ((pz cam - bot) / d) Hn) as (C1 & C2); [split; [apply (Rmult_le_reg_r d); lra|apply (Rmult_lt_reg_r d); lra]|].
    set (k := cell_of n ((pz cam - bot) / d)) in *. destruct C1 as (C1 & C3).
    assert (B1 : bot + INR k * d <= pz cam) by (apply (Rmult_le_compat_r d) in C1; lra).
    assert (B2 : pz cam < bot + INR (S k) * d) by (rewrite S_INR; apply (Rmult_lt_compat_r d) in C3; lra).
    exists ((pz cam + (bot + INR (S k) * d)) / 2). right. fold d. split; [exact E|]. split; [lra|]. exists k. split; [exact C2|]. split; [exact B1|lra]. }
  destruct Q as (h & Q). exists (h :: H). constructor; assumption.
Qed.

(** In terms of the LEDs: two of different height which are not in one layer
    with each other and the camera suffice, whatever the number of layers. *)
Theorem C119_two_leds : forall bot top n cam ps p1 p2, (3 <= n)%nat -> bot < top -> within bot top (pz cam) ->
  Forall (in_view bot top cam) ps -> In p1 ps -> In p2 ps -> pz p1 <> pz p2 -> ~ one_layer bot top n (pz cam) (pz p1) (pz p2) ->
  exists A, map (traversed_distances (layers bot top n) cam) ps = map Row A /\ tells_lines_apart n A.
Proof.
  intros bot top n cam ps p1 p2 Hn Hb Hc Hv I1 I2 N12 NO. assert (Hn1 : (1 <= n)%nat) by lia.
  destruct (heights_exist bot top n cam ps Hn1 Hb Hv) as (H & HH). exists (map (paths bot top n cam) ps).
  assert (E : map (traversed_distances (layers bot top n) cam) ps = map Row (map (paths bot top n cam) ps)).
  { rewrite map_map. apply map_ext_in. intros p Hp. apply visible_row; try assumption. rewrite Forall_forall in Hv. apply Hv. exact Hp. }
  split; [exact E|]. apply (C119_two_heights bot top n cam ps H _ Hn Hb Hc Hv HH E).
  assert (Get : forall p, In p ps -> exists h, In h H /\ counts_at bot top n cam p h).
  { clear - HH. induction HH as [|p h ps H C HH IH]; intros q Hq; [destruct Hq|]. destruct Hq as [<-|Hq]; [exists h; split; [left; reflexivity|exact C]|].
    destruct (IH q Hq) as (h' & X & Y). exists h'. split; [right; exact X|exact Y]. }
  pose proof (d_pos bot top n Hn1 Hb) as Hd. set (d := (top - bot) / INR n) in *.
  (* a layer with the camera and the height at which an LED counts also has the LED *)
  assert (Inl : forall p h k, counts_at bot top n cam p h -> bot + INR k * d <= pz cam <= bot + INR (S k) * d -> bot + INR k * d <= h <= bot + INR (S k) * d -> bot + INR k * d <= pz p <= bot + INR (S k) * d).
  { intros p h k [(_ & ->)|(-> & _)] B1 B2; [exact B2|exact B1]. }
  destruct (Get p1 I1) as (h1 & J1 & C1). destruct (Get p2 I2) as (h2 & J2 & C2). exists h1, h2. split; [exact J1|]. split; [exact J2|]. split.
  - intros <-. destruct C1 as [(C1 & E1)|(C1 & L1 & k & Hk & B1 & B2)], C2 as [(C2 & E2)|(C2 & L2 & k2 & Hk2 & B3 & B4)]; try congruence.
    + apply NO. exists k2. fold d in B3, B4. split; [exact Hk2|]. fold d. intros h [<-|[<-|[<-|[]]]]; lra.
    + apply NO. exists k. fold d in B1, B2. split; [exact Hk|]. fold d. intros h [<-|[<-|[<-|[]]]]; lra.
  - intros (k & Hk & B). fold d in B. apply NO. exists k. split; [exact Hk|]. fold d.
    assert (Bc : bot + INR k * d <= pz cam <= bot + INR (S k) * d) by (apply B; left; reflexivity).
    intros h [<-|[<-|[<-|[]]]]; [exact Bc|apply (Inl p1 h1 k C1 Bc); apply B; right; left; reflexivity|apply (Inl p2 h2 k C2 Bc); apply B; right; right; left; reflexivity].
Qed.
Print Assumptions C119_two_leds.

(** *** The whole analysis *)

(** A constant [K], given by the positions, the number of layers and the
    regularisation, bounds the error whatever the smoke and the photographs are. *)
Theorem C119_analysis_with_few_leds : forall bot top nlay cam lambda ps p1 p2,
  (3 <= nlay)%nat -> bot < top -> within bot top (pz cam) -> Forall (in_view bot top cam) ps ->
  In p1 ps -> In p2 ps -> pz p1 <> pz p2 -> ~ one_layer bot top nlay (pz cam) (pz p1) (pz p2) -> 0 < lambda ->
  exists K, 0 < K /\
  forall A groups arrays a l n recs t coords indices num nnls eps smoke bright cpus order,
  (* the LED arrays, the records of the images 1..n and the binary table *)
  ascending_merge groups -> arrays = merge_indices (reorder_led_indices A) groups ->
  nth_error arrays a = Some l -> (2 <= List.length l)%nat -> (1 <= n)%Z ->
  (forall i, (1 <= i <= n)%Z -> exists F (fit : option (list (list Z) -> res F)) img r areas arrays' ds,
     Forall2 (@Permutation Z) arrays' arrays /\
     generate_analysis_data fit img r areas arrays' 0 = Ok ds /\
     map (fun d => (d_id d, d_array d)) ds = map (fun d => (d_id d, d_array d)) (recs i)) ->
  table_of_images t n recs ->
  Forall2 (fun id p => (0 <= id)%Z /\ nth_error coords (Z.to_nat id) = Some p) l ps ->
  (* the smoke, linear in height in every image; none in the reference images *)
  (forall i, (1 <= i <= n)%Z -> List.length (smoke i) = nlay /\ nonneg (smoke i) /\ progression (smoke i)) ->
  (forall i, (1 <= i <= n)%Z -> is_reference indices num i -> smoke i = repeat 0 nlay) ->
  (exists i, (1 <= i <= n)%Z /\ is_reference indices num i) ->
  (* every recorded sum is the brightness of the LED times the transmission, up to the relative error eps *)
  0 <= eps -> table_error eps < 1 / 3 ->
  (forall i d p, (1 <= i <= n)%Z -> In d (recs i) -> d_array d = Z.of_nat a -> nth_error coords (Z.to_nat (d_id d)) = Some p ->
     0 < bright (d_id d) /\ 1 / 10000000000 <= transmission bot top nlay cam p (smoke i) /\
     close_to (bright (d_id d) * transmission bot top nlay cam p (smoke i)) eps (IZR (d_sum d))) ->
  nnls_contract nnls -> Permutation order (seq 0 (Z.to_nat n)) ->
  exists xs, analyse_array nnls lambda bot top nlay cam coords (nth_error (index_files arrays) a) t (Z.of_nat a) "sum_col_val" indices num cpus order = Ok xs /\
    List.length xs = Z.to_nat n /\
    forall i x, (1 <= i <= n)%Z -> nth_error xs (Z.to_nat (i - 1)) = Some x ->
      sq_dist x (smoke i) <= K * (ln (1 - relative_error eps) * ln (1 - relative_error eps)).
Proof.
  intros bot top nlay cam lambda ps p1 p2 Hlay Hbt Hc Hview I1 I2 N12 NO Hlam.
  destruct (C119_two_leds bot top nlay cam ps p1 p2 Hlay Hbt Hc Hview I1 I2 N12 NO) as (M & EM & T).
  apply (rows_visible bot top nlay ltac:(lia) Hbt cam ps M Hview) in EM. subst M. set (M := map (paths bot top nlay cam) ps) in *.
  assert (RowsM : rows_ok nlay M) by (unfold rows_ok, M; apply Forall_forall; intros r Hr; apply in_map_iff in Hr; destruct Hr as (p & <- & _); apply paths_length).
  assert (NonM : Forall nonneg M) by (unfold M; apply Forall_forall; intros r Hr; apply in_map_iff in Hr; destruct Hr as (p & <- & _); apply paths_nonneg).
  destruct (proj1 (C119_penalty_fills_the_gaps lambda nlay M Hlam Hlay RowsM) T) as (c & Hcc & Hz).
  exists (5 * INR (List.length M) / c). split.
  { apply Rdiv_lt_0_compat; [|exact Hcc]. assert (0 < INR (List.length M)); [|lra]. apply lt_0_INR. unfold M. rewrite map_length. destruct ps; [destruct I1|simpl; lia]. }
  intros A groups arrays a l n recs t coords indices num nnls eps smoke bright cpus order
    Hg Harr Ha Hl Hn Hrec Ht Hps Hsm Hsm0 Href He He' Hmeas Hnnls Hord.
  apply (smoke_is_recovered_if A groups arrays a l n recs t coords ps indices num bot top nlay cam nnls lambda progression (fun _ => 5 * INR (List.length M) / c * (ln (1 - relative_error eps) * ln (1 - relative_error eps))) eps smoke bright cpus order); try assumption; try lra; try lia.
  - exists c. split; [exact Hcc|]. intros z Lz. fold M. rewrite aug_norm by (assumption || lra). apply Hz. exact Lz.
  - cbv zeta. fold M. intros rel s Ls Ns Pr F Sol.
    replace (5 * INR (List.length M) / c * (ln (1 - relative_error eps) * ln (1 - relative_error eps))) with (5 * INR (List.length M) * (ln (1 - relative_error eps) * ln (1 - relative_error eps)) / c) by (unfold Rdiv; ring).
    apply (C119_noisy_profiles nnls lambda nlay M rel s c (relative_error eps)); try assumption; [lra|apply relative_error_range; assumption].
Qed.
Print Assumptions C119_analysis_with_few_leds.

(** ** Examples *)

(** Two LEDs one and two metres above the camera, any number of layers of one
    metre. *)
Example C119_two_leds_example : forall n, (3 <= n)%nat -> exists A,
  map (traversed_distances (layers 0 (INR n) n) (Point 0 0 0)) [Point 1 0 1; Point 1 0 2] = map Row A /\ tells_lines_apart n A.
Proof.
  intros n Hn. assert (N3 : 3 <= INR n) by (replace 3 with (INR 3) by (simpl; lra); apply le_INR; exact Hn).
  apply (C119_two_leds 0 (INR n) n (Point 0 0 0) _ (Point 1 0 1) (Point 1 0 2)); [exact Hn|lra|unfold within; cbn [pz]; lra| |left; reflexivity|right; left; reflexivity|cbn [pz]; lra|].
  - constructor; [|constructor; [|constructor]]; unfold in_view, within; cbn [pz]; (split; [lra|split; [lra|intros E; lra]]).
  - intros (k & _ & B). cbn [pz] in B. replace ((INR n - 0) / INR n) with 1 in B by (field; lra).
    pose proof (B 0 (or_introl eq_refl)). pose proof (B 2 (or_intror (or_intror (or_introl eq_refl)))). rewrite S_INR in *. lra.
Qed.

(** Three LEDs in the layer of the camera, or at the same height, are not enough. *)
Example C119_same_layer_example : exists A,
  map (traversed_distances (layers 0 3 3) (Point 0 0 0)) [Point 1 0 (1 / 4); Point 1 0 (1 / 2); Point 1 0 1] = map Row A /\ ~ tells_lines_apart 3 A.
Proof.
  assert (V : Forall (in_view 0 3 (Point 0 0 0)) [Point 1 0 (1 / 4); Point 1 0 (1 / 2); Point 1 0 1]).
  { constructor; [|constructor; [|constructor; [|constructor]]]; unfold in_view, within; cbn [pz]; (split; [lra|split; [lra|intros E; lra]]). }
  eexists. split; [apply rows_exist; [lia|lra|exact V]|]. intros T.
  apply (C119_two_heights 0 3 3 (Point 0 0 0) [Point 1 0 (1 / 4); Point 1 0 (1 / 2); Point 1 0 1] [1 / 4; 1 / 2; 1]) in T;
    [|lia|lra|unfold within; cbn [pz]; lra|exact V| |apply rows_exist; [lia|lra|exact V]].
  - destruct T as (h1 & h2 & I1 & I2 & _ & NO). apply NO. exists 0%nat. split; [lia|]. cbn [pz]. change (INR 0) with 0. change (INR 1) with 1. replace ((3 - 0) / INR 3) with 1 by (simpl; field).
    assert (R : forall h, In h [1 / 4; 1 / 2; 1] -> 0 <= h <= 1) by (intros h [<-|[<-|[<-|[]]]]; lra).
    intros h [<-|[<-|[<-|[]]]]; [lra|specialize (R h1 I1)|specialize (R h2 I2)]; lra.
  - constructor; [|constructor; [|constructor; [|constructor]]]; left; cbn [pz]; split; [lra|reflexivity|lra|reflexivity|lra|reflexivity].
Qed.

Example C119_same_height_example : exists A,
  map (traversed_distances (layers 0 3 3) (Point 0 0 0)) [Point 1 0 2; Point 2 0 2; Point 5 4 2] = map Row A /\ ~ tells_lines_apart 3 A.
Proof.
  assert (V : Forall (in_view 0 3 (Point 0 0 0)) [Point 1 0 2; Point 2 0 2; Point 5 4 2]).
  { constructor; [|constructor; [|constructor; [|constructor]]]; unfold in_view, within; cbn [pz]; (split; [lra|split; [lra|intros E; lra]]). }
  eexists. split; [apply rows_exist; [lia|lra|exact V]|]. intros T.
  apply (C119_two_heights 0 3 3 (Point 0 0 0) [Point 1 0 2; Point 2 0 2; Point 5 4 2] [2; 2; 2]) in T;
    [|lia|lra|unfold within; cbn [pz]; lra|exact V| |apply rows_exist; [lia|lra|exact V]].
  - destruct T as (h1 & h2 & I1 & I2 & N & _). apply N. assert (R : forall h, In h [2; 2; 2] -> h = 2) by (intros h [<-|[<-|[<-|[]]]]; reflexivity). rewrite (R h1 I1), (R h2 I2). reflexivity.
  - constructor; [|constructor; [|constructor; [|constructor]]]; left; cbn [pz]; split; [lra|reflexivity|lra|reflexivity|lra|reflexivity].
Qed.

(** Two LEDs, one and three metres above the camera, for three layers; no smoke
    in the first photograph, in the second every layer halves the light. *)
Definition two_coords : list point := [Point 0 0 1; Point 0 0 3].
Definition two_sums (i : Z) : list Z := if (i =? 1)%Z then [8000; 8000]%Z else [4000; 1000]%Z.
Definition two_recs (i : Z) : list (led_data Format_Model.fit_data) :=
  map (fun p => LedData (fst p) 0 (snd p) 1%Q 1 None) (combine [0; 1]%Z (two_sums i)).
Definition two_table : frame := Frame fast_table_columns (concat (map (fun i => map (plain_row i) (two_recs i)) [1; 2]%Z)).
Definition two_areas : list row := [(0, (2, 2)); (1, (2, 5))]%Z.

Example C119_example : forall lambda, 0 < lambda -> exists K, 0 < K /\
  forall nnls cpus, nnls_contract nnls ->
  exists x1 x2, analyse_array nnls lambda 0 3 3 eg_cam two_coords (Some [1; 0]%Z) two_table 0 "sum_col_val" None 1 cpus [1; 0]%nat = Ok [x1; x2] /\
    sq_dist x1 [0; 0; 0] <= K * (ln (1 - relative_error 0) * ln (1 - relative_error 0)) /\
    sq_dist x2 [ln 2; ln 2; ln 2] <= K * (ln (1 - relative_error 0) * ln (1 - relative_error 0)).
Proof.
  intros lambda Hlam. assert (L2 : 0 < ln 2) by (rewrite <- ln_1; apply ln_increasing; lra).
  destruct (C119_analysis_with_few_leds 0 3 3 eg_cam lambda two_coords (Point 0 0 1) (Point 0 0 3)) as (K & HK & Main).
  - lia.
  - lra.
  - unfold within, eg_cam. cbn [pz]. lra.
  - constructor; [|constructor; [|constructor]]; unfold in_view, within, eg_cam; cbn [pz]; (split; [lra|split; [lra|intros E; lra]]).
  - left. reflexivity.
  - right. left. reflexivity.
  - cbn [pz]. lra.
  - intros (k & _ & B). unfold eg_cam in B. cbn [pz] in B. replace ((3 - 0) / INR 3) with 1 in B by (simpl; field).
    pose proof (B 0 (or_introl eq_refl)). pose proof (B 3 (or_intror (or_intror (or_introl eq_refl)))). rewrite S_INR in *. lra.
  - exact Hlam.
  - exists K. split; [exact HK|]. intros nnls cpus Hnnls.
    destruct (Main [[0; 1]%Z] None [[0; 1]%Z] 0%nat [0; 1]%Z 2%Z two_recs two_table two_coords None 1%Z nnls 0 eg_smoke (fun _ => 8000) cpus [1; 0]%nat) as (xs & X1 & X2 & X3).
    + exact I.
    + reflexivity.
    + reflexivity.
    + simpl. lia.
    + lia.
    + intros i Hi. assert (Ci : (i = 1 \/ i = 2)%Z) by lia. exists Format_Model.fit_data, None, ex_img, 1%Z, two_areas, [[0; 1]%Z].
      eexists. split; [constructor; [apply Permutation_refl|constructor]|]. split; [vm_compute; reflexivity|]. destruct Ci as [-> | -> ]; reflexivity.
    + exists (map (fun i => map (plain_row i) (two_recs i)) [1; 2]%Z). split; [reflexivity|].
      assert (X : forall i, (i = 1 \/ i = 2)%Z -> rows_of_image (row_of_record (cols two_table) i) (two_recs i) (map (plain_row i) (two_recs i))).
      { intros i Hi. exists (two_recs i). split; [apply Permutation_refl|]. split.
        - destruct Hi as [-> | -> ]; vm_compute; repeat constructor; intros C; discriminate C.
        - assert (F : Forall (fun d => (0 <= d_sum d)%Z) (two_recs i)) by (destruct Hi as [-> | -> ]; vm_compute; repeat constructor; intros C; discriminate C).
          cbn [cols two_table]. clear - F. induction F as [|d ds H F IH]; [constructor|]. cbn [map]. constructor; [apply plain_row_ok; exact H|exact IH]. }
      change (zrange 1 (2 + 1)) with [1; 2]%Z. cbn [map]. constructor; [apply X; left; reflexivity|]. constructor; [apply X; right; reflexivity|constructor].
    + constructor; [split; [lia|reflexivity]|]. constructor; [split; [lia|reflexivity]|constructor].
    + intros i Hi. unfold eg_smoke. destruct (i =? 1)%Z.
      * split; [reflexivity|]. split; [apply zeros_nonneg|apply zeros_progression].
      * split; [reflexivity|]. split; [unfold nonneg; constructor; [lra|]; constructor; [lra|]; constructor; [lra|constructor]|]. exists (ln 2), 0. cbn [List.length seq map]. f_equal; [lra|]. f_equal; [lra|]. f_equal. lra.
    + intros i Hi Hr. cbn [is_reference] in Hr. assert (i = 1)%Z by lia. subst i. reflexivity.
    + exists 1%Z. split; [lia|]. cbn. lia.
    + lra.
    + unfold table_error. lra.
    + assert (H1 : exp (- ln 2) = 1 / 2) by (rewrite exp_Ropp, exp_ln by lra; lra).
      assert (P0 : paths 0 3 3 eg_cam (Point 0 0 1) = [1; 0; 0] /\ paths 0 3 3 eg_cam (Point 0 0 3) = [1; 1; 1]).
      { pose proof eg_paths as E. split; [exact (f_equal (fun l => nth 0 l []) E)|exact (f_equal (fun l => nth 2 l []) E)]. }
      destruct P0 as (P1 & P2).
      intros i d p Hi Hd _ Hp. assert (Ci : (i = 1 \/ i = 2)%Z) by lia. destruct Ci as [-> | -> ].
      * assert (T0 : transmission 0 3 3 eg_cam p (eg_smoke 1) = 1) by (unfold transmission, eg_smoke; cbn [Z.eqb Pos.eqb]; rewrite rdot_zeros, Ropp_0; apply exp_0).
        rewrite T0. split; [lra|]. split; [lra|]. apply close_bounds. destruct Hd as [<-|[<-|[]]]; cbn [d_sum fst snd]; lra.
      * change (eg_smoke 2) with [ln 2; ln 2; ln 2]. unfold transmission.
        destruct Hd as [<-|[<-|[]]]; cbn [d_id d_sum fst snd] in *; [change (Z.to_nat 0) with 0%nat in Hp|change (Z.to_nat 1) with 1%nat in Hp]; cbn [nth_error two_coords] in Hp; apply Some_inj in Hp; subst p.
        -- rewrite P1. cbn [rdot]. replace (- (1 * ln 2 + (0 * ln 2 + (0 * ln 2 + 0)))) with (- ln 2) by ring. rewrite H1. split; [lra|]. split; [lra|]. apply close_bounds. lra.
        -- rewrite P2. cbn [rdot]. replace (- (1 * ln 2 + (1 * ln 2 + (1 * ln 2 + 0)))) with (- ln 2 + (- ln 2 + - ln 2)) by ring. rewrite !exp_plus, H1. split; [lra|]. split; [lra|]. apply close_bounds. lra.
    + exact Hnnls.
    + apply perm_swap.
    + change (nth_error (index_files [[0; 1]%Z]) 0) with (Some [1; 0]%Z) in X1. change (Z.of_nat 0) with 0%Z in X1.
      destruct xs as [|x1 [|x2 [|x3 xs]]]; try discriminate X2. exists x1, x2. split; [exact X1|]. split; [apply (X3 1%Z x1); [lia|reflexivity]|apply (X3 2%Z x2); [lia|reflexivity]].
Qed.

(** The solver which returns the truth meets the contract. *)
Example C119_non_linear_example : forall w, 0 < w ->
  tells_lines_apart 3 [[1; 0; 0]; [1; 1; 1]] /\
  box_solution 3 (fun x => cost w 0 [[1; 0; 0]; [1; 1; 1]] x (beer_lambert [[1; 0; 0]; [1; 1; 1]] [1; 2; 3])) [1; 2; 3].
Proof.
  intros w Hw. split.
  - intros p q Lp Lq Pp Pq E. destruct (progression_line p 3 Pp Lp) as (a & b & ->). destruct (progression_line q 3 Pq Lq) as (a' & b' & ->).
    unfold mul, line in *. cbn [seq map rdot] in E. injection E as E1 E2. cbn [INR] in *. assert (a = a') by lra. assert (b = b') by lra. subst. reflexivity.
  - assert (Pr : progression [1; 2; 3]) by (exists 1, 1; cbn [List.length seq map INR]; f_equal; [lra|]; f_equal; [lra|]; f_equal; lra).
    split; [reflexivity|]. split; [constructor; [lra|]; constructor; [lra|]; constructor; [lra|constructor]|]. intros y _ _.
    assert (Ne : [[1; 0; 0]; [1; 1; 1]] <> []) by discriminate.
    rewrite (proj2 (proj2 (C42_without_preference_truth_is_optimal w _ [1; 2; 3] (beer_lambert [[1; 0; 0]; [1; 1; 1]] [1; 2; 3]) Hw Ne eq_refl)) (conj eq_refl Pr)).
    apply (C42_without_preference_truth_is_optimal w _ y (beer_lambert [[1; 0; 0]; [1; 1; 1]] [1; 2; 3]) Hw Ne eq_refl).
Qed.
