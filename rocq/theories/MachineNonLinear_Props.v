(** C128: the analysis with the non-linear solver and the arithmetic of the machine. *)
From Coq Require Import ZArith QArith Qreals String List Permutation Reals Lra Lia Psatz ClassicalEpsilon.
From Verif Require Import Base Step2_Model Step3_Model Table_Props Table_Model Table_Spec Analysis_Model Analysis_Props Layers_Model Layers_Spec Layers_Props
  Solver_Model Solver_Props Stable_Props Nnls_Props End_Model End_Props Mean_Model Mean_Props Separate_Proofs Separate_Props Minimiser_Props
  NonLinear_Proofs NonLinear_Props Rounding_Model Rounding_Props Machine_Model Machine_Props MachineEnd_Model MachineEnd_Props MachineSolver_Props
  MachineNonLinear_Model MachineNonLinear_Proofs.
Import ListNotations.
Local Open Scope R_scope.

(** ** Specification *)

(** As [best] of C121, but the smallest cost is only approached up to [tol]. *)
Definition nearly_best (tol : R) (n : nat) (f : vec -> option R) (x : vec) : Prop :=
  List.length x = n /\ in_bounds x /\
  exists v, f x = Some v /\ forall y, List.length y = n -> in_bounds y -> exists w, f y = Some w /\ v <= w + tol.

(** A [minimize] which finds such coefficients if there are any. *)
Definition minimize_within (tol : R) (minimize : (vec -> option R) -> vec -> vec) : Prop :=
  forall n f start, List.length start = n -> (exists x, nearly_best tol n f x) -> nearly_best tol n f (minimize f start).

(** ** The contract *)

(** An ideal solver (C121) need not keep it where there is no smallest value;
    but there is a function which does. *)
Theorem C128_contract_can_be_met : forall tol, exists minimize, minimize_within tol minimize.
Proof.
  intros tol. assert (H : forall p : (vec -> option R) * vec, exists x, (exists y, nearly_best tol (List.length (snd p)) (fst p) y) -> nearly_best tol (List.length (snd p)) (fst p) x).
  { intros (f, s). cbn [fst snd]. destruct (Classical_Prop.classic (exists y, nearly_best tol (List.length s) f y)) as [(y & B)|N]; [exists y; intros _; exact B|exists []; intros B; contradiction]. }
  exists (fun f s => proj1_sig (constructive_indefinite_description _ (H (f, s)))). intros n f s <- B.
  exact (proj2_sig (constructive_indefinite_description _ (H (f, s))) B).
Qed.
Print Assumptions C128_contract_can_be_met.

(** A function which is a number on the whole box and bounded from below. *)
Lemma near_infimum : forall tol n (f : vec -> option R) b, 0 < tol -> (forall y, List.length y = n -> in_bounds y -> exists w, f y = Some w /\ b <= w) ->
  exists x, nearly_best tol n f x.
Proof.
  intros tol n f b Ht H. set (E := fun z => exists y, List.length y = n /\ in_bounds y /\ f y = Some (- z)).
  destruct (completeness E) as (l & Up & Least).
  - exists (- b). intros z (y & Ly & By & Ey). destruct (H y Ly By) as (w & Ew & Hw). rewrite Ey in Ew. apply Some_inj in Ew. lra.
  - assert (L0 : List.length (repeat 0 n) = n) by apply repeat_length. assert (B0 : in_bounds (repeat 0 n)) by (apply Forall_forall; intros v Hv; apply repeat_spec in Hv; lra).
    destruct (H _ L0 B0) as (w & Ew & _). exists (- w). exists (repeat 0 n). split; [exact L0|]. split; [exact B0|]. rewrite Ropp_involutive. exact Ew.
  - destruct (Classical_Prop.classic (exists z, E z /\ l - tol <= z)) as [(z & (x & Lx & Bx & Ex) & Hz)|N].
    + exists x. split; [exact Lx|]. split; [exact Bx|]. exists (- z). split; [exact Ex|]. intros y Ly By. destruct (H y Ly By) as (w & Ew & _). exists w. split; [exact Ew|].
      assert (Q : E (- w)) by (exists y; rewrite Ropp_involutive; repeat split; assumption). specialize (Up _ Q). lra.
    + exfalso. assert (Q : is_upper_bound E (l - tol)). { intros z Hz. destruct (Rle_dec z (l - tol)) as [C|C]; [exact C|exfalso; apply N; exists z; split; [exact Hz|lra]]. }
      specialize (Least _ Q). lra.
Qed.

Lemma cost_below : forall wc wp A s t, A <> [] -> 0 <= wc -> s <> [] -> in_bounds s -> - 10 * Rabs wp <= cost wc wp A s t.
Proof.
  intros wc wp A s t HA Hw Hs Bs. rewrite cost_spec by exact HA. pose proof (len_pos A HA) as N. pose proof (average_bounds s Bs Hs) as (A1 & A2). pose proof (bend_nonneg s) as Bn.
  assert (D : 0 <= deviation A s t / INR (List.length A)) by (apply Rmult_le_pos; [apply sqrt_pos|left; apply Rinv_0_lt_compat; exact N]).
  assert (C : 0 <= bend s * INR (List.length A) * 2 * wc) by (repeat apply Rmult_le_pos; lra).
  assert (P : - 10 * Rabs wp <= average s * wp). { destruct (Rle_dec 0 wp) as [Q|Q]; [rewrite Rabs_pos_eq by exact Q; nra|rewrite Rabs_left by lra; nra]. } lra.
Qed.

(** ** One image *)
Lemma m_row_nonneg : forall u m ls cam p r, accurate u m -> 0 <= u < 1 -> m_distances m ls cam p = Row r -> nonneg r.
Proof.
  intros u m ls cam p r Hm Hu. unfold m_distances. destruct (m_angle m cam p) as [alpha|]; [|discriminate]. cbv zeta.
  set (ds := if Req_EM_T alpha 0 then _ else _). destruct (m_consistent m ds cam p); [|discriminate]. intros E. assert (D : ds = r) by congruence. subst r.
  unfold ds, m_in_plane, m_with_angle, nonneg. destruct (Req_EM_T alpha 0); apply Forall_map, Forall_forall; intros l _; [|apply Rabs_pos].
  destruct (in_layer l (pz cam)); [|lra]. apply (horizontal_near u m Hu Hm cam p).
Qed.

Lemma rows_of_close : forall n d A A', rows_ok n A -> rows_close d A A' -> rows_ok n A'.
Proof.
  intros n d A A' RA F. unfold rows_ok in *. induction F as [|r r' M M' H F IH]; [constructor|]. inversion RA; subst.
  constructor; [symmetry; apply (Forall2_len _ _ _ H)|apply IH; assumption].
Qed.

Lemma rdot_close : forall d r r' s, 0 <= d -> Forall2 (fun x y => Rabs (y - x) <= d) r r' -> in_bounds s -> Rabs (rdot r' s - rdot r s) <= 10 * INR (List.length r) * d.
Proof.
  intros d r r' s Hd F. revert s. induction F as [|x y r r' H F IH]; intros s Bs; [cbn; rewrite Rminus_0_r, Rabs_R0; lra|].
  change (List.length (x :: r)) with (S (List.length r)). rewrite S_INR. pose proof (pos_INR (List.length r)) as P.
  destruct Bs as [|v s Hv Bs]; cbn [rdot]; [rewrite Rminus_0_r, Rabs_R0; apply Rmult_le_pos; lra|]. specialize (IH s Bs).
  replace (y * v + rdot r' s - (x * v + rdot r s)) with ((y - x) * v + (rdot r' s - rdot r s)) by ring. eapply Rle_trans; [apply Rabs_triang|]. rewrite Rabs_mult, (Rabs_pos_eq v) by lra.
  assert (Rabs (y - x) * v <= d * 10) by (apply Rmult_le_compat; try apply Rabs_pos; lra). lra.
Qed.

Lemma intensities_close : forall d n A A' s, 0 <= d -> rows_ok n A -> rows_close d A A' -> Forall nonneg A -> Forall nonneg A' -> in_bounds s ->
  sqrt (sq_dist (beer_lambert A s) (beer_lambert A' s)) <= INR (List.length A) * (10 * INR n * d).
Proof.
  intros d n A A' s Hd RA F NA NA' Bs. eapply Rle_trans; [apply dist_l1|]. pose proof (in_bounds_nonneg s Bs) as Ns. revert RA NA NA'. induction F as [|r r' A A' H F IH]; intros RA NA NA'; [cbn; lra|].
  inversion RA; inversion NA; inversion NA'; subst. specialize (IH ltac:(assumption) ltac:(assumption) ltac:(assumption)). unfold beer_lambert in *. cbn [map l1].
  change (List.length (r :: A)) with (S (List.length A)). rewrite S_INR. pose proof (rdot_close d r r' s Hd H Bs) as D.
  pose proof (exp_slow (rdot r s) (rdot r' s) (rdot_nonneg r s ltac:(assumption) Ns) (rdot_nonneg r' s ltac:(assumption) Ns)) as X. rewrite (Rabs_minus_sym (rdot r s)) in X. lra.
Qed.

Lemma total_close : forall d r r', Forall2 (fun x y => Rabs (y - x) <= d) r r' -> total r' <= total r + INR (List.length r) * d.
Proof.
  intros d r r' F. induction F as [|x y r r' H F IH]; [cbn; lra|]. cbn [total]. change (List.length (x :: r)) with (S (List.length r)). rewrite S_INR. apply abs_le_inv in H. lra.
Qed.

(** The error of one image: [e] bounds the relative errors of the intensities,
    [d] the errors of the distances. *)
Theorem C128_one_image : forall n N, (1 <= n)%nat -> (1 <= N)%nat -> exists C, 0 <= C /\
  forall u m mexp tol minimize wc wp A A' last qs s c d e, accurate u m -> accurate_exp u mexp -> 0 <= u <= 1 / 2 -> 0 <= wc -> 0 < tol ->
  Forall nonneg A -> rows_ok n A -> List.length A = N -> in_bounds s -> List.length s = n ->
  0 < c -> (forall z, List.length z = n -> c * sq_norm z <= sq_norm (mul A z)) -> 0 <= e < 1 ->
  0 <= d <= 1 -> rows_close d A A' -> Forall nonneg A' -> 4 * (INR N * (INR n * (d * d))) <= c ->
  Forall2 (fun row v => Rabs (v - exp (- rdot row s)) <= e * exp (- rdot row s)) A (map Q2R qs) ->
  minimize_within tol minimize -> (forall y, last = Some y -> List.length y = n) ->
  exists x, nonlinear_on m mexp minimize wc wp n (map Some A') last (map Fin qs) = Ok x /\ List.length x = n /\ in_bounds x /\
    sqrt (sq_dist x s) <= 2 * exp (10 * total (map total A) + 10 * INR n) / sqrt c *
      (INR N * (2 * e + 2 * INR N * wc * bend s + 10 * Rabs wp + tol + C * (1 + wc + Rabs wp) * u + 20 * INR n * d)).
Proof.
  intros n N Hn HN. destruct (cost_error n N Hn HN) as (C & PC & HC). exists (2 * C). split; [lra|].
  intros u m mexp tol minimize wc wp A A' last qs s c d e Hm He Hu Hw Ht NA RA LA Bs Ls Hc Hz He1 Hd F NA' Hsmall Fr Hmin Hlast.
  pose proof (rows_of_close n d A A' RA F) as RA'. pose proof (Forall2_len _ _ _ F) as LA'. pose proof (Forall2_len _ _ _ Fr) as Lq. rewrite map_length in Lq.
  assert (HA : A <> []) by (intros ->; simpl in LA; lia). assert (HA' : A' <> []) by (intros ->; simpl in LA'; lia). pose proof (in_bounds_nonneg s Bs) as Ns.
  assert (Fq : Forall (fun q => 0 <= Q2R q <= 2) qs).
  { apply (proj1 (Forall_map Q2R (fun v => 0 <= v <= 2) qs)). clear - Fr NA Ns He1. revert NA. induction Fr as [|r v A t H F IH]; intros NA; constructor; inversion NA as [|? ? Hr HA']; subst; [|apply IH; assumption].
    assert (E : exp (- rdot r s) <= 1).
    { pose proof (rdot_nonneg r s Hr Ns) as P. rewrite <- exp_0. destruct (Req_dec (rdot r s) 0) as [->|Ne]; [rewrite Ropp_0; lra|]. left. apply exp_increasing. lra. }
    pose proof (exp_pos (- rdot r s)). apply abs_le_inv in H. nra. }
  set (del := C * (1 + wc + Rabs wp) * u). pose proof (Rabs_pos wp) as Pwp. assert (Pdel : 0 <= del) by (unfold del; repeat apply Rmult_le_pos; lra).
  assert (Cost : forall y, List.length y = n -> in_bounds y -> exists v, cost_on m mexp wc wp (map Some A') (map Fin qs) y = Some v /\ Rabs (v - cost wc wp A' y (map Q2R qs)) <= del).
  { intros y Ly By. apply HC; try assumption; congruence. }
  set (f := cost_on m mexp wc wp (map Some A') (map Fin qs)) in *.
  assert (Ex : exists x, nearly_best tol n f x).
  { apply (near_infimum tol n f (- 10 * Rabs wp - del) Ht). intros y Ly By. destruct (Cost y Ly By) as (w & Ew & Dw). exists w. split; [exact Ew|].
    pose proof (cost_below wc wp A' y (map Q2R qs) HA' Hw (not_nil y n Hn Ly) By). apply abs_le_inv in Dw. lra. }
  set (start := match last with None => repeat 0 n | Some y => y end).
  assert (Lst : List.length start = n) by (unfold start; destruct last as [y|]; [apply Hlast; reflexivity|apply repeat_length]).
  destruct (Hmin n f start Lst Ex) as (Lx & Bx & v & Ev & Best). set (x := minimize f start) in *. exists x.
  split. { unfold nonlinear_on. rewrite !map_length. replace (List.length qs =? List.length A')%nat with true by (symmetry; apply Nat.eqb_eq; congruence). reflexivity. }
  split; [exact Lx|]. split; [exact Bx|].
  destruct (Best s Ls Bs) as (w & Ew & Le). destruct (Cost x Lx Bx) as (v' & Ev' & Dv). destruct (Cost s Ls Bs) as (w' & Ew' & Dw). rewrite Ev in Ev'. rewrite Ew in Ew'.
  apply Some_inj in Ev'. apply Some_inj in Ew'. subst v' w'. apply abs_le_inv in Dv. apply abs_le_inv in Dw.
  set (t := map Q2R qs) in *. assert (Co : cost wc wp A' x t <= cost wc wp A' s t + (tol + 2 * del)) by lra.
  rewrite !cost_spec in Co by exact HA'. replace (INR (List.length A')) with (INR N) in Co by (f_equal; congruence). set (k := INR N) in *.
  assert (Pk : 0 < k) by (apply lt_0_INR; lia). pose proof (not_nil x n Hn Lx) as Hx. pose proof (not_nil s n Hn Ls) as Hs.
  pose proof (average_bounds x Bx Hx) as [X1 X2]. pose proof (average_bounds s Bs Hs) as [S1 S2]. pose proof (bend_nonneg x) as Kx.
  assert (P : average s * wp - average x * wp <= 10 * Rabs wp).
  { replace (average s * wp - average x * wp) with ((average s - average x) * wp) by ring.
    destruct (Rle_dec 0 wp) as [Q|Q]; [rewrite Rabs_pos_eq by exact Q; nra|rewrite Rabs_left by lra; nra]. }
  assert (Cx : 0 <= bend x * k * 2 * wc) by (repeat apply Rmult_le_pos; lra).
  assert (D : deviation A' x t / k <= deviation A' s t / k + bend s * k * 2 * wc + 10 * Rabs wp + (tol + 2 * del)) by lra.
  apply (Rmult_le_compat_r k) in D; [|lra]. unfold Rdiv in D. rewrite !Rmult_plus_distr_r, !Rmult_assoc, !(Rmult_comm (/ k)), !Rinv_r, !Rmult_1_r in D by lra.
  (* the measured intensities *)
  assert (Lt : List.length A = List.length t) by (unfold t; rewrite map_length; exact Lq).
  pose proof (deviation_errors A s t e NA Ns ltac:(lra) Fr) as Ds. rewrite LA in Ds. fold k in Ds.
  pose proof (intensities_close d n A A' s ltac:(lra) RA F NA NA' Bs) as Ic. rewrite LA in Ic. fold k in Ic.
  assert (Ds' : deviation A' s t <= k * (10 * INR n * d) + k * e).
  { unfold deviation in *. pose proof (dist_triangle (beer_lambert A' s) (beer_lambert A s) t) as T. unfold beer_lambert in T at 1 2 3. rewrite !map_length in T.
    specialize (T (eq_sym LA') Lt). rewrite (sq_dist_sym (beer_lambert A' s) (beer_lambert A s)) in T. lra. }
  assert (G : sqrt (sq_dist (beer_lambert A' x) (beer_lambert A' s)) <= deviation A' x t + deviation A' s t).
  { unfold deviation. rewrite (sq_dist_sym (beer_lambert A' s) t). apply dist_triangle; unfold beer_lambert; rewrite !map_length; congruence. }
  set (U := 10 * total (map total A) + 10 * INR n).
  assert (FU : Forall (fun r => 10 * total r <= U) A').
  { pose proof (total_entry A NA) as Te. unfold U. set (T := total (map total A)) in *. clearbody T. clear - F Te RA Hd. unfold rows_ok in RA. revert Te RA. induction F as [|r r' A A' H F IH]; intros Te RA; constructor;
      inversion Te as [|? ? Te1 Te2]; inversion RA as [|? ? RA1 RA2]; subst; [|apply IH; assumption].
    pose proof (total_close d r r' H) as Tc. pose proof (pos_INR (List.length r)) as Pl. nra. }
  pose proof (depths_apart A' U x s NA' Bx Bs FU) as Dp.
  pose proof (separates_close c d n A A' ltac:(lra) RA F ltac:(rewrite LA; fold k; exact Hsmall) Hz) as Sep.
  specialize (Sep (vsub x s)). rewrite vsub_length in Sep by congruence. specialize (Sep Lx). rewrite mul_vsub in Sep by congruence. rewrite <- sq_dist_vsub in Sep.
  set (y := sqrt (sq_dist (beer_lambert A' x) (beer_lambert A' s))) in *.
  assert (Q : sqrt (c / 4) * sqrt (sq_dist x s) <= exp U * y).
  { unfold y. rewrite <- sqrt_mult_alt by lra. rewrite <- (sqrt_square (exp U)) by (left; apply exp_pos).
    rewrite <- sqrt_mult_alt by (apply Rmult_le_pos; left; apply exp_pos). apply sqrt_le_1_alt. lra. }
  assert (S4 : sqrt (c / 4) = sqrt c / 2).
  { unfold Rdiv. rewrite sqrt_mult_alt by lra. replace (/ 4) with ((1 / 2) * (1 / 2)) by lra. rewrite sqrt_square by lra. lra. }
  rewrite S4 in Q. pose proof (sqrt_lt_R0 c Hc) as Sc.
  set (W := k * (2 * e + 2 * k * wc * bend s + 10 * Rabs wp + tol + 2 * C * (1 + wc + Rabs wp) * u + 20 * INR n * d)).
  assert (GW : y <= W) by (unfold W, del in *; nra).
  apply (Rmult_le_reg_l (sqrt c)); [exact Sc|]. replace (sqrt c * (2 * exp U / sqrt c * W)) with (2 * (exp U * W)) by (field; lra).
  pose proof (Rmult_le_compat_l (exp U) _ _ ltac:(left; apply exp_pos) GW). lra.
Qed.
Print Assumptions C128_one_image.

(** ** C128 *)

(** Constants [K] and [u0], given by the positions and the layers alone: on
    every machine whose operations have a relative error [u] of at most [u0] (the
    mean over the reference images: [mu]) the
    analysis with the non-linear solver succeeds.  Its error is at most [K] times
    the sum of the relative error of the intensities, the effect of the two
    weights, what the minimiser leaves, and [u]. *)
Theorem C128_analysis_on_a_machine : forall bot top nlay cam ps H,
  (1 <= nlay)%nat -> bot < top -> within bot top (pz cam) -> Forall (in_view bot top cam) ps -> Forall (no_border_between bot top nlay cam) ps ->
  Forall2 (counts_at bot top nlay cam) ps H -> enough_heights bot top nlay (pz cam :: H) ->
  exists K u0, 0 < K /\ 0 < u0 /\
  forall u m mexp avg mu N tol A groups arrays a l n recs t coords indices num prop minimize wc wp eps smoke bright cpus order,
  accurate u m -> accurate_exp u mexp -> 0 <= u <= u0 -> rnd m bot = bot ->
  known_property prop -> accurate_mean N mu avg -> 0 <= mu -> (n <= Z.of_nat N)%Z ->
  (* the LED arrays, the records of the images 1..n and the binary table *)
  ascending_merge groups -> arrays = merge_indices (reorder_led_indices A) groups ->
  nth_error arrays a = Some l -> (2 <= List.length l)%nat -> (1 <= n)%Z ->
  (forall i, (1 <= i <= n)%Z -> exists F (fit : option (list (list Z) -> res F)) img r areas arrays' ds,
     Forall2 (@Permutation Z) arrays' arrays /\
     generate_analysis_data fit img r areas arrays' 0 = Ok ds /\
     map (fun d => (d_id d, d_array d)) ds = map (fun d => (d_id d, d_array d)) (recs i)) ->
  table_of_images t n recs ->
  Forall2 (fun id p => (0 <= id)%Z /\ nth_error coords (Z.to_nat id) = Some p) l ps ->
  (* the smoke in every image, within the bounds of the solver; none in the reference images *)
  (forall i, (1 <= i <= n)%Z -> List.length (smoke i) = nlay /\ in_bounds (smoke i)) ->
  (forall i, (1 <= i <= n)%Z -> is_reference indices num i -> smoke i = repeat 0 nlay) ->
  (exists i, (1 <= i <= n)%Z /\ is_reference indices num i) ->
  (* every recorded value is the brightness of the LED times the transmission, up to the relative error eps *)
  0 <= eps -> table_error (eps + 2 * mu) < 1 / 3 ->
  (forall i d p, (1 <= i <= n)%Z -> In d (recs i) -> d_array d = Z.of_nat a -> nth_error coords (Z.to_nat (d_id d)) = Some p ->
     0 < bright (d_id d) /\ 1 / 10000000000 <= transmission bot top nlay cam p (smoke i) /\
     close_to (bright (d_id d) * transmission bot top nlay cam p (smoke i)) eps (recorded prop d)) ->
  0 <= wc -> 0 < tol -> minimize_within tol minimize -> Permutation order (seq 0 (Z.to_nat n)) ->
  exists xs, analyse_on m avg (nonlinear_on m mexp minimize wc wp nlay) bot top nlay cam coords (nth_error (index_files arrays) a) t (Z.of_nat a) prop indices num cpus order = Ok xs /\
    List.length xs = Z.to_nat n /\
    forall i x, (1 <= i <= n)%Z -> nth_error xs (Z.to_nat (i - 1)) = Some x ->
      List.length x = nlay /\
      sqrt (sq_dist x (smoke i)) <= K * (relative_error (eps + 2 * mu) + wc * bend (smoke i) + Rabs wp + tol + (1 + wc + Rabs wp) * u).
Proof.
  intros bot top nlay cam ps H Hlay Hbt Hc Hview Hno HH He.
  assert (Pne : (1 <= List.length ps)%nat).
  { destruct ps as [|p ps]; [|simpl; lia]. exfalso. inversion HH; subst.
    apply (C110_when_layers_are_told_apart bot top nlay cam [] [] _ Hlay Hbt Hc Hview HH (rows_exist bot top nlay cam [] Hlay Hbt Hview)) in He.
    destruct He as (c & Hcc & Hz). specialize (Hz (repeat 1 nlay) (repeat_length _ _)). cbn [map mul sq_norm] in Hz. destruct nlay as [|k]; [lia|]. cbn [repeat sq_norm] in Hz.
    pose proof (sq_norm_nonneg (repeat 1 k)). nra. }
  apply (C110_when_layers_are_told_apart bot top nlay cam ps H _ Hlay Hbt Hc Hview HH (rows_exist bot top nlay cam ps Hlay Hbt Hview)) in He.
  set (M := map (paths bot top nlay cam) ps) in *. destruct He as (c & Hcc & Hz).
  assert (NonM : Forall nonneg M) by (unfold M; apply Forall_map, Forall_forall; intros p _; apply paths_nonneg).
  assert (RowM : rows_ok nlay M) by (unfold rows_ok, M; apply Forall_map, Forall_forall; intros p _; apply paths_length).
  assert (LM : List.length M = List.length ps) by (unfold M; apply map_length).
  destruct (machine_rows bot top nlay cam ps Hlay Hbt Hview Hno) as (C & u1 & HC & Hu1 & Rows). fold M in Rows.
  destruct (C128_one_image nlay (List.length ps) Hlay Pne) as (C' & HC' & One).
  set (N := INR (List.length ps)) in *. assert (PN : 0 < N) by (apply lt_0_INR; lia). assert (Pn : 0 <= INR nlay) by apply pos_INR.
  set (w := N * (INR nlay * (C * C))). assert (Pw : 0 <= w) by (unfold w; apply Rmult_le_pos; [lra|apply Rmult_le_pos; [exact Pn|nra]]).
  set (g := 2 * exp (10 * total (map total M) + 10 * INR nlay) / sqrt c). pose proof (sqrt_lt_R0 c Hcc) as Sc.
  assert (Pg : 0 < g) by (unfold g; apply Rdiv_lt_0_compat; [pose proof (exp_pos (10 * total (map total M) + 10 * INR nlay)); lra|exact Sc]).
  set (k := 13 + 2 * N + C' + 20 * INR nlay * C). assert (Pk : 13 <= k) by (unfold k; pose proof (Rmult_le_pos _ _ Pn HC); nra).
  exists (g * (N * k)), (Rmin u1 (Rmin (1 / 2) (Rmin (1 / (C + 1)) (c / (4 * w + 1))))).
  split; [apply Rmult_lt_0_compat; [exact Pg|apply Rmult_lt_0_compat; lra]|]. split; [repeat apply Rmin_glb_lt; try lra; apply Rdiv_lt_0_compat; lra|].
  intros u m mexp avg mu N0 tol A groups arrays a l n recs t coords indices num prop minimize wc wp eps smoke bright cpus order Hm Hexp Hu Hbot Hprop Havg Hmu HN Hg Harr Ha Hl Hn Hrec Ht Hps Hsm Hsm0 Href Heps Heps' Hmeas Hwc Htol Hmin Hord.
  assert (Hu' : 0 <= u <= u1) by (split; [lra|eapply Rle_trans; [apply Hu|apply Rmin_l]]).
  assert (Hr : u <= Rmin (1 / 2) (Rmin (1 / (C + 1)) (c / (4 * w + 1)))) by (eapply Rle_trans; [apply Hu|apply Rmin_r]).
  assert (Hr1 : u <= 1 / 2) by (eapply Rle_trans; [exact Hr|apply Rmin_l]). assert (Hr' : u <= Rmin (1 / (C + 1)) (c / (4 * w + 1))) by (eapply Rle_trans; [exact Hr|apply Rmin_r]).
  assert (Hr0 : u <= 1 / (C + 1)) by (eapply Rle_trans; [exact Hr'|apply Rmin_l]). assert (Hr2 : u <= c / (4 * w + 1)) by (eapply Rle_trans; [exact Hr'|apply Rmin_r]).
  assert (Hd : 4 * (N * (INR nlay * ((C * u) * (C * u)))) <= c).
  { replace (4 * (N * (INR nlay * ((C * u) * (C * u))))) with (4 * w * u * u) by (unfold w; ring).
    pose proof (below_quotient u (4 * w) c ltac:(lra) Hcc ltac:(lra) Hr2) as B. assert (0 <= 4 * w * u) by (apply Rmult_le_pos; lra). nra. }
  pose proof (below_quotient u C 1 ltac:(lra) ltac:(lra) HC Hr0) as Cu1. assert (Cu : 0 <= C * u) by (apply Rmult_le_pos; lra).
  destruct (Rows u m Hm Hu' Hbot) as (M' & D1 & D2). pose proof (relative_error_range (eps + 2 * mu) ltac:(lra) Heps') as Re.
  assert (NonM' : Forall nonneg M').
  { assert (Hu2 : 0 <= u < 1) by lra. clear - D1 Hm Hu2. induction D1 as [|p r ps M' R1 D1 IH]; [constructor|]. constructor; [|exact IH]. eapply m_row_nonneg; [exact Hm|exact Hu2|exact R1]. }
  apply (any_distances_avg A groups arrays a l n recs t coords ps indices num prop bot top nlay cam _ M' avg mu N0 (nonlinear_on m mexp minimize wc wp nlay) in_bounds
    (fun s x => List.length x = nlay /\ sqrt (sq_dist x s) <= g * (N * k) * (relative_error (eps + 2 * mu) + wc * bend s + Rabs wp + tol + (1 + wc + Rabs wp) * u)) eps smoke bright cpus order); try assumption.
  - cbv zeta. fold M. intros last qs s Hlast Ls Ns Bs F.
    assert (F' : Forall2 (fun row v => Rabs (v - exp (- rdot row s)) <= relative_error (eps + 2 * mu) * exp (- rdot row s)) M (map Q2R qs)) by (eapply Forall2_imp; [|exact F]; cbv beta; intros ? ? (_ & Q); exact Q).
    destruct (One u m mexp tol minimize wc wp M M' last qs s c (C * u) (relative_error (eps + 2 * mu))) as (x & X1 & X2 & _ & X3); try assumption; try lra.
    { intros y Hy. destruct (Hlast y Hy) as (s' & L' & _). exact L'. }
    exists x. split; [exact X1|]. split; [exact X2|]. eapply Rle_trans; [exact X3|]. fold g. rewrite (Rmult_assoc g (N * k)), (Rmult_assoc N k). apply Rmult_le_compat_l; [lra|].
    apply Rmult_le_compat_l; [lra|].
    pose proof (bend_nonneg s) as Pb. pose proof (Rabs_pos wp) as Pp. set (r := relative_error (eps + 2 * mu)) in *. set (b := bend s) in *. set (q := Rabs wp) in *.
    set (a1 := wc * b). assert (P1 : 0 <= a1) by (unfold a1; apply Rmult_le_pos; assumption). set (a2 := (1 + wc + q) * u). assert (P2 : 0 <= a2) by (unfold a2; apply Rmult_le_pos; lra).
    assert (P3 : u <= a2) by (unfold a2; nra). set (z := 20 * INR nlay * C). assert (Pz : 0 <= z) by (unfold z; pose proof (Rmult_le_pos _ _ Pn HC); lra).
    replace (2 * N * wc * b) with (2 * N * a1) by (unfold a1; ring). replace (C' * (1 + wc + q) * u) with (C' * a2) by (unfold a2; ring).
    replace (20 * INR nlay * (C * u)) with (z * u) by (unfold z; ring). unfold k. fold z.
    assert (Z : forall p x, 0 <= p -> 0 <= x -> 0 <= p * x) by (intros; apply Rmult_le_pos; assumption).
    pose proof (Rmult_le_compat_l z _ _ Pz P3) as Zu.
    assert (Q : forall v, 0 <= v -> 0 <= N * v /\ 0 <= C' * v /\ 0 <= z * v) by (intros v Hv; repeat split; apply Rmult_le_pos; lra).
    pose proof (Q r ltac:(lra)). pose proof (Q a1 P1). pose proof (Q q Pp). pose proof (Q tol ltac:(lra)). pose proof (Q a2 P2). clearbody a1 a2. lra.
  - intros i Hi. destruct (Hsm i Hi) as (S1 & S2). split; [exact S1|]. split; [apply in_bounds_nonneg; exact S2|exact S2].
Qed.
Print Assumptions C128_analysis_on_a_machine.

(** *** Examples *)

(** An exponential which is always too small. *)
Definition rough_exp (u x : R) : R := exp x * (1 - u).

Lemma rough_exp_accurate : forall u, 0 <= u < 1 -> accurate_exp u (rough_exp u).
Proof.
  intros u Hu x Hx. unfold rough_exp. replace (exp x * (1 - u) - exp x) with (- (u * exp x)) by ring. rewrite Rabs_Ropp. pose proof (exp_pos x) as P.
  assert (L : exp x <= 1) by (rewrite <- exp_0; destruct (Req_dec x 0) as [->|N]; [lra|left; apply exp_increasing; lra]).
  rewrite Rabs_pos_eq by (apply Rmult_le_pos; lra). nra.
Qed.

(** The example of C94 on a machine which rounds upwards; the weights are the
    ones of the code (NonLinear.py:30-31). *)
Example C128_example : exists K u0, 0 < K /\ 0 < u0 /\ forall u tol minimize cpus, 0 <= u <= u0 -> 0 < tol -> minimize_within tol minimize ->
  exists x1 x2, analyse_on (rough u) rough_mean (nonlinear_on (rough u) (rough_exp u) minimize (1 / 1000000) (- (6 / 1000)) 3) 0 3 3 eg_cam eg_coords (Some [2; 1; 0]%Z) eg_table 0 "sum_col_val" None 1 cpus [1; 0]%nat = Ok [x1; x2] /\
    sqrt (sq_dist x1 [0; 0; 0]) <= K * (7 / 1000 + tol + 2 * u) /\
    sqrt (sq_dist x2 [ln 2; ln 2; ln 2]) <= K * (7 / 1000 + tol + 2 * u).
Proof.
  assert (L2 : 0 < ln 2) by (rewrite <- ln_1; apply ln_increasing; lra).
  destruct (C128_analysis_on_a_machine 0 3 3 eg_cam eg_coords [1; 2; 3]) as (K & u0 & HK & Hu0 & Main).
  * lia.
  * lra.
  * unfold within, eg_cam. cbn [pz]. lra.
  * unfold eg_coords. repeat (constructor; [unfold in_view, within, eg_cam; cbn [pz]; split; [lra|split; [lra|intros C; exfalso; lra]]|]). constructor.
  * unfold eg_coords. repeat (constructor; [intros C; unfold eg_cam in C; cbn [pz] in C; exfalso; lra|]). constructor.
  * unfold eg_coords. repeat (constructor; [left; unfold eg_cam; cbn [pz]; split; [lra|reflexivity]|]). constructor.
  * exact eg_heights.
  * assert (Bound : relative_error (0 + 2 * (1 / 1000000)) <= 1 / 9000) by (unfold relative_error, table_error; lra).
    assert (L10 : ln 2 <= 10).
    { rewrite <- (ln_exp 10). left. apply ln_increasing; [lra|]. pose proof (exp_ineq1 10 ltac:(lra)). lra. }
    exists K, (Rmin u0 (1 / 2)). split; [exact HK|]. split; [apply Rmin_glb_lt; lra|]. intros u tol minimize cpus Hu Htol Hmin.
    assert (Hu1 : 0 <= u <= u0) by (split; [lra|eapply Rle_trans; [apply Hu|apply Rmin_l]]). assert (Hu2 : u <= 1 / 2) by (eapply Rle_trans; [apply Hu|apply Rmin_r]).
    destruct (Main u (rough u) (rough_exp u) rough_mean (1 / 1000000) 2%nat tol [[0; 1; 2]%Z] None [[0; 1; 2]%Z] 0%nat [0; 1; 2]%Z 2%Z eg_recs eg_table eg_coords None 1%Z "sum_col_val"%string minimize (1 / 1000000) (- (6 / 1000)) 0 eg_smoke (fun _ => 8000) cpus [1; 0]%nat)
      as (xs & X1 & X2 & X3); clear Main.
    - apply rough_accurate. lra.
    - apply rough_exp_accurate. lra.
    - exact Hu1.
    - cbn [rnd rough]. unfold upwards. ring.
    - left. reflexivity.
    - exact rough_mean_accurate.
    - lra.
    - lia.
    - exact I.
    - reflexivity.
    - reflexivity.
    - simpl. lia.
    - lia.
    - intros i Hi. assert (Ci : (i = 1 \/ i = 2)%Z) by lia. exists Format_Model.fit_data, None, ex_img, 1%Z, eg_areas, [[0; 1; 2]%Z].
      eexists. split; [repeat constructor; apply Permutation_refl|]. split; [vm_compute; reflexivity|]. destruct Ci as [-> | -> ]; reflexivity.
    - exists (map (fun i => map (plain_row i) (eg_recs i)) [1; 2]%Z). split; [reflexivity|].
      assert (X : forall i, (i = 1 \/ i = 2)%Z -> rows_of_image (row_of_record (cols eg_table) i) (eg_recs i) (map (plain_row i) (eg_recs i))).
      { intros i Hi. exists (eg_recs i). split; [apply Permutation_refl|]. split.
        - destruct Hi as [-> | -> ]; vm_compute; repeat constructor; intros C; discriminate C.
        - assert (F : Forall (fun d => (0 <= d_sum d)%Z) (eg_recs i)) by (destruct Hi as [-> | -> ]; vm_compute; repeat constructor; intros C; discriminate C).
          cbn [cols eg_table]. clear - F. induction F as [|d ds H F IH]; [constructor|]. cbn [map]. constructor; [apply plain_row_ok; exact H|exact IH]. }
      change (zrange 1 (2 + 1)) with [1; 2]%Z. cbn [map]. constructor; [apply X; left; reflexivity|]. constructor; [apply X; right; reflexivity|constructor].
    - unfold eg_coords. repeat (constructor; [split; [lia|reflexivity]|]). constructor.
    - intros i Hi. unfold eg_smoke. destruct (i =? 1)%Z; (split; [reflexivity|]); unfold in_bounds; cbn [repeat]; repeat (constructor; [lra|]); constructor.
    - intros i Hi Hr. cbn [is_reference] in Hr. assert (i = 1)%Z by lia. subst i. reflexivity.
    - exists 1%Z. split; [lia|]. cbn. lia.
    - lra.
    - unfold table_error. lra.
    - assert (TR : forall j p s, nth_error eg_coords j = Some p -> s = ln 2 -> exists m, (m = INR (S j) * ln 2) /\ transmission 0 3 3 eg_cam p [s; s; s] = exp (- m)).
      { intros j p s Hj ->. exists (INR (S j) * ln 2). split; [reflexivity|]. unfold transmission. f_equal. f_equal.
        assert (N : nth_error (map (paths 0 3 3 eg_cam) eg_coords) j = Some (paths 0 3 3 eg_cam p)) by (rewrite nth_error_map, Hj; reflexivity). rewrite eg_paths in N.
        destruct j as [|[|[|j]]]; cbn [nth_error] in N; try (apply Some_inj in N; rewrite <- N; cbn [rdot INR]; ring). destruct j; discriminate N. }
      assert (H1 : exp (- ln 2) = 1 / 2) by (rewrite exp_Ropp, exp_ln by lra; lra).
      assert (P : forall j, exp (- (INR (S j) * ln 2)) = (1 / 2) ^ S j).
      { induction j as [|j IH]; [cbn [INR pow]; rewrite Rmult_1_l, H1; lra|]. rewrite S_INR. replace (- ((INR (S j) + 1) * ln 2)) with (- (INR (S j) * ln 2) + - ln 2) by ring.
        rewrite exp_plus, IH, H1. cbn [pow]. lra. }
      intros i d p Hi Hd _ Hp. change (recorded "sum_col_val" d) with (IZR (d_sum d)). assert (Ci : (i = 1 \/ i = 2)%Z) by lia. destruct Ci as [-> | -> ].
      + assert (T0 : transmission 0 3 3 eg_cam p (eg_smoke 1) = 1) by (unfold transmission, eg_smoke; cbn [Z.eqb Pos.eqb]; rewrite rdot_zeros, Ropp_0; apply exp_0).
        rewrite T0. split; [lra|]. split; [lra|]. apply close_bounds. destruct Hd as [<-|[<-|[<-|[]]]]; cbn [d_sum fst snd]; lra.
      + change (eg_smoke 2) with [ln 2; ln 2; ln 2]. destruct (TR _ p (ln 2) Hp eq_refl) as (m & -> & Tm). rewrite Tm, P. split; [lra|].
        destruct Hd as [<-|[<-|[<-|[]]]]; cbn [d_id d_sum fst snd]; [change (Z.to_nat 0) with 0%nat|change (Z.to_nat 1) with 1%nat|change (Z.to_nat 2) with 2%nat];
          cbn [pow]; (split; [lra|]); apply close_bounds; lra.
    - lra.
    - exact Htol.
    - exact Hmin.
    - apply perm_swap.
    - change (nth_error (index_files [[0; 1; 2]%Z]) 0) with (Some [2; 1; 0]%Z) in X1. change (Z.of_nat 0) with 0%Z in X1.
      destruct xs as [|x1 [|x2 [|x3 xs]]]; try discriminate X2. exists x1, x2. split; [exact X1|].
      destruct (X3 1%Z x1 ltac:(lia) eq_refl) as (_ & Y1). destruct (X3 2%Z x2 ltac:(lia) eq_refl) as (_ & Y2).
      change (eg_smoke 1) with [0; 0; 0] in Y1. change (eg_smoke 2) with [ln 2; ln 2; ln 2] in Y2.
      rewrite (bend_progression [0; 0; 0]) in Y1 by (apply (repeat_progression 0 3)). rewrite (bend_progression [ln 2; ln 2; ln 2]) in Y2 by (apply (repeat_progression (ln 2) 3)).
      rewrite Rabs_Ropp, (Rabs_pos_eq (6 / 1000)) in Y1, Y2 by lra.
      split; (eapply Rle_trans; [eassumption|]); (apply Rmult_le_compat_l; [lra|]); lra.
Qed.
