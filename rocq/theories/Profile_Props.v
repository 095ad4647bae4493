(** C120: smoke of any profile. *)
From Coq Require Import ZArith QArith String List Permutation Reals Lra Lia.
From Verif Require Import Base Step2_Model Step3_Model Table_Props Table_Model Table_Spec Analysis_Model Analysis_Props Layers_Model Layers_Spec Layers_Props
  Solver_Model Solver_Props Stable_Props Nnls_Props End_Model End_Props Separate_Proofs Separate_Props Linear_Proofs Linear_Props.
Import ListNotations.
Local Open Scope R_scope.

(** ** Exact intensities *)

Lemma scaled_nonneg : forall k s, 0 <= k -> nonneg s -> nonneg (map (Rmult k) s).
Proof. intros k s Hk Hs. apply Forall_map. unfold nonneg in Hs. rewrite Forall_forall in *. intros v Hv. apply Rmult_le_pos; [exact Hk|apply Hs; exact Hv]. Qed.

Lemma mul_scaled : forall A k s, mul A (map (Rmult k) s) = map (Rmult k) (mul A s).
Proof. intros. unfold mul. rewrite map_map. apply map_ext. intros r. apply rdot_mult_r. Qed.

Lemma roughness_scaled : forall k s, roughness (map (Rmult k) s) = k * k * roughness s.
Proof.
  intros k. induction s as [|a s IH]; [cbn; ring|]. destruct s as [|b [|c s]]; [cbn; ring|cbn; ring|].
  change (roughness (map (Rmult k) (a :: b :: c :: s))) with ((k * a - 2 * (k * b) + k * c) * (k * a - 2 * (k * b) + k * c) + roughness (map (Rmult k) (b :: c :: s))).
  rewrite IH. change (roughness (a :: b :: c :: s)) with ((a - 2 * b + c) * (a - 2 * b + c) + roughness (b :: c :: s)). ring.
Qed.

(** A profile that is a minimiser for its own depths is linear in height. *)
Lemma own_minimiser : forall lambda n A s, 0 < lambda -> (3 <= n)%nat -> List.length s = n -> nonneg s ->
  (forall y, List.length y = n -> nonneg y -> objective lambda A (mul A s) s <= objective lambda A (mul A s) y) -> roughness s = 0.
Proof.
  intros lambda n A s Hl Hn Ls Ns M.
  set (N := sq_norm (mul A s)). assert (PN : 0 <= N) by apply sq_norm_nonneg. set (S := roughness s).
  destruct (Rle_lt_or_eq_dec _ _ (roughness_nonneg s)) as [PS|E]; [|symmetry; exact E]. exfalso. fold S in PS.
  set (t := lambda * S / (N + lambda * S)). assert (PL : 0 < lambda * S) by (apply Rmult_lt_0_compat; assumption).
  assert (T : 0 < t <= 1). { unfold t. split; [apply Rdiv_lt_0_compat; lra|]. apply (Rmult_le_reg_r (N + lambda * S)); [lra|]. unfold Rdiv. rewrite Rmult_assoc, Rinv_l by lra. lra. }
  specialize (M (map (Rmult (1 - t)) s)). rewrite map_length in M. specialize (M Ls (scaled_nonneg (1 - t) s ltac:(lra) Ns)).
  unfold objective in M. rewrite (penalty_3 s n Hn Ls), (penalty_3 (map (Rmult (1 - t)) s) n Hn) in M by (rewrite map_length; exact Ls).
  rewrite sq_dist_refl, mul_scaled, sq_dist_scaled, roughness_scaled in M. fold N S in M.
  assert (F : t * (N + lambda * S) = lambda * S) by (unfold t; field; lra).
  assert (G : 0 + lambda * S <= t * t * N + (1 - t) * (1 - t) * (lambda * S)) by (replace ((1 - t - 1) * (1 - t - 1)) with (t * t) in M by ring; lra).
  assert (H : t * t * N + (1 - t) * (1 - t) * (lambda * S) = lambda * S - 2 * t * (lambda * S) + t * (t * (N + lambda * S))) by ring.
  rewrite H, F in G. assert (0 < t * (lambda * S)) by (apply Rmult_lt_0_compat; lra). lra.
Qed.

(** With regularisation the reported profile is smoother than the smoke, unless
    the smoke is linear in height; the optical depths it stands for are off by
    at most [lambda] times the roughness of the smoke. *)
Theorem C120_profiles_are_smoothed : forall nnls lambda n A s, 0 < lambda -> (3 <= n)%nat -> rows_ok n A -> Forall nonneg A ->
  nonneg s -> List.length s = n -> Forall (fun v => 1 / 10000000000 <= v) (beer_lambert A s) ->
  nnls_solution n (a_aug lambda n A) (b_aug n (beer_lambert A s)) (nnls (a_aug lambda n A) (b_aug n (beer_lambert A s))) ->
  let x := linear_coefficients nnls lambda n A (beer_lambert A s) in
  (progression s -> roughness x = 0) /\ (~ progression s -> roughness x < roughness s) /\
  sq_dist (mul A x) (mul A s) <= lambda * (roughness s - roughness x).
Proof.
  intros nnls lambda n A s Hl Hn HA NA Ns Ls Hv Sol x.
  assert (Lr : List.length (beer_lambert A s) = List.length A) by (unfold beer_lambert; apply map_length).
  destruct (C38_coefficients_minimise_the_objective nnls lambda n A (beer_lambert A s) ltac:(lra) Lr Sol) as (Lx & Nx & M). fold x in Lx, Nx, M.
  rewrite (exact_depths A s NA Ns Hv) in M. pose proof (M s Ls Ns) as Ms.
  assert (B : sq_dist (mul A x) (mul A s) <= lambda * (roughness s - roughness x)).
  { unfold objective in Ms. rewrite sq_dist_refl, (penalty_3 s n Hn Ls), (penalty_3 x n Hn Lx) in Ms. lra. }
  pose proof (sq_dist_nonneg (mul A x) (mul A s)) as P. pose proof (roughness_nonneg x) as Rx. split; [|split; [|exact B]].
  - intros Pr. apply progression_roughness in Pr. rewrite Pr in B. assert (Q : lambda * roughness x <= 0) by lra.
    destruct (Rle_lt_or_eq_dec _ _ Rx) as [L|E]; [|symmetry; exact E]. pose proof (Rmult_lt_0_compat _ _ Hl L). lra.
  - intros Np. destruct (Rlt_le_dec (roughness x) (roughness s)) as [L|L]; [exact L|]. exfalso. apply Np. apply smooth_progression.
    apply (own_minimiser lambda n A s Hl Hn Ls Ns). intros y Ly Ny. eapply Rle_trans; [|exact (M y Ly Ny)]. unfold objective.
    rewrite sq_dist_refl, (penalty_3 s n Hn Ls), (penalty_3 x n Hn Lx). pose proof (Rmult_le_compat_l lambda _ _ ltac:(lra) L). lra.
Qed.
Print Assumptions C120_profiles_are_smoothed.

(** So exactly the profiles that are linear in height are reported as they are. *)
Theorem C120_only_linear_profiles_are_exact : forall nnls lambda n A s, 0 < lambda -> (3 <= n)%nat -> rows_ok n A -> Forall nonneg A ->
  tells_lines_apart n A ->
  nonneg s -> List.length s = n -> Forall (fun v => 1 / 10000000000 <= v) (beer_lambert A s) ->
  nnls_solution n (a_aug lambda n A) (b_aug n (beer_lambert A s)) (nnls (a_aug lambda n A) (b_aug n (beer_lambert A s))) ->
  (linear_coefficients nnls lambda n A (beer_lambert A s) = s <-> progression s).
Proof.
  intros nnls lambda n A s Hl Hn HA NA T Ns Ls Hv Sol. split.
  - intros E. destruct (C120_profiles_are_smoothed nnls lambda n A s Hl Hn HA NA Ns Ls Hv Sol) as (_ & S & _). rewrite E in S.
    apply Classical_Prop.NNPP. intros Np. specialize (S Np). lra.
  - intros Pr. apply (proj1 (C119_linear_profiles_are_recovered lambda n A Hl Hn HA NA) T); assumption.
Qed.
Print Assumptions C120_only_linear_profiles_are_exact.

(** Without regularisation: exactly if camera and LEDs are spread over the
    layers every solver which keeps its contract returns every profile. *)
Theorem C120_every_profile_without_regularisation : forall bot top n cam ps H A, (1 <= n)%nat -> bot < top -> within bot top (pz cam) ->
  Forall (in_view bot top cam) ps -> Forall2 (counts_at bot top n cam) ps H ->
  map (traversed_distances (layers bot top n) cam) ps = map Row A ->
  (enough_heights bot top n (pz cam :: H) <->
   forall nnls s, nonneg s -> List.length s = n -> Forall (fun v => 1 / 10000000000 <= v) (beer_lambert A s) ->
     nnls_solution n (a_aug 0 n A) (b_aug n (beer_lambert A s)) (nnls (a_aug 0 n A) (b_aug n (beer_lambert A s))) ->
     linear_coefficients nnls 0 n A (beer_lambert A s) = s).
Proof.
  intros bot top n cam ps H A Hn Hb Hc Hv HH HA.
  rewrite <- (C110_when_layers_are_told_apart bot top n cam ps H A Hn Hb Hc Hv HH HA).
  apply (rows_visible bot top n Hn Hb cam ps A Hv) in HA.
  assert (RA : rows_ok n A) by (subst A; apply Forall_map, Forall_forall; intros p _; apply paths_length).
  assert (NA : Forall nonneg A) by (subst A; apply Forall_map, Forall_forall; intros p _; apply paths_nonneg).
  clear HA Hv HH. split.
  - intros (c & Hcc & Hz) nnls s Ns Ls Low Sol.
    assert (Lr : List.length (beer_lambert A s) = List.length A) by (unfold beer_lambert; apply map_length).
    pose proof (C93_coefficient_error nnls 0 n A (beer_lambert A s) s c ltac:(lra) Lr Ls Ns Hcc Hz Sol) as E.
    unfold depth_errors in E. rewrite (exact_depths A s NA Ns Low), sq_dist_refl in E. replace ((4 * 0 + 2 * 0 * penalty s) / c) with 0 in E by (field; lra).
    apply sq_dist_0; [rewrite Ls; apply Sol|]. pose proof (sq_dist_nonneg (linear_coefficients nnls 0 n A (beer_lambert A s)) s). lra.
  - intros All. destruct (kernel_or_separates n A RA) as [(z & Lz & Pz & Kz)|(_ & S)]; [exfalso|exact S].
    (* two profiles which look the same *)
    set (m := fold_right (fun x a => Rabs x + a) 0 z).
    assert (Hm : forall x, In x z -> Rabs x <= m).
    { unfold m. clear. assert (P : forall l, 0 <= fold_right (fun x a => Rabs x + a) 0 l) by (induction l as [|y l IH]; cbn [fold_right]; [lra|pose proof (Rabs_pos y); lra]).
      induction z as [|y z IH]; intros x Hx; [destruct Hx|]. cbn [fold_right]. pose proof (P z). pose proof (Rabs_pos y). destruct Hx as [->|Hx]; [lra|specialize (IH x Hx); lra]. }
    assert (Hm0 : 0 <= m). { unfold m. clear. induction z as [|y z IH]; cbn [fold_right]; [lra|pose proof (Rabs_pos y); lra]. }
    clearbody m. set (u := map (fun _ => m) z).
    assert (Nu : nonneg u) by (apply Forall_map, Forall_forall; intros; exact Hm0).
    set (S0 := fold_right (fun r t => rdot r u + t) 0 A).
    assert (HS : forall r, In r A -> 0 <= rdot r u <= S0).
    { unfold S0. clear - NA Nu. assert (Q : forall B, Forall nonneg B -> 0 <= fold_right (fun r t => rdot r u + t) 0 B).
      { intros B NB. induction NB as [|r B N NB IH]; cbn [fold_right]; [lra|]. pose proof (rdot_nonneg r _ N Nu). lra. }
      induction NA as [|r' A N NA IH]; intros r Hr; [destruct Hr|]. cbn [fold_right]. pose proof (rdot_nonneg r' _ N Nu) as P. pose proof (Q A NA).
      destruct Hr as [<-|Hr]; [lra|]. specialize (IH r Hr). lra. }
    assert (PS : 0 <= S0). { unfold S0. clear - NA Nu. induction NA as [|r A N NA IH]; cbn [fold_right]; [lra|]. pose proof (rdot_nonneg r _ N Nu). lra. }
    clearbody S0. set (t := 1 / (2 * (S0 + 1))). assert (Ht : 0 < t) by (unfold t; apply Rdiv_lt_0_compat; lra).
    assert (HtS : t * S0 <= 1 / 2) by (assert (E : t * (S0 + 1) = 1 / 2) by (unfold t; field; lra); lra). clearbody t.
    set (s := map (Rmult t) u). set (x := map (Rmult t) (map (fun v => m + v) z)).
    assert (Ns : nonneg s) by (apply scaled_nonneg; [lra|exact Nu]).
    assert (Nx : nonneg x).
    { apply scaled_nonneg; [lra|]. apply Forall_map, Forall_forall. intros v Hv. specialize (Hm v Hv). pose proof (Rle_abs (- v)) as Q. rewrite Rabs_Ropp in Q. lra. }
    assert (Ls : List.length s = n) by (unfold s, u; rewrite !map_length; exact Lz). assert (Lx : List.length x = n) by (unfold x; rewrite !map_length; exact Lz).
    assert (Same : mul A x = mul A s).
    { unfold mul. apply map_ext_in. intros r Hr. unfold x, s. rewrite !rdot_mult_r. f_equal. rewrite Forall_forall in Kz. specialize (Kz r Hr).
      assert (D : forall r, rdot r (map (fun x => m + x) z) = rdot r (map (fun _ => m) z) + rdot r z).
      { clear. induction z as [|x z IH]; intros [|y r]; cbn [map rdot]; try lra. rewrite IH. lra. }
      unfold u. rewrite D, Kz. lra. }
    assert (Low : Forall (fun v => 1 / 10000000000 <= v) (beer_lambert A s)).
    { unfold beer_lambert. apply Forall_map, Forall_forall. intros r Hr. destruct (HS r Hr) as (H1 & H2).
      assert (B : rdot r s <= 1 / 2) by (unfold s; rewrite rdot_mult_r; pose proof (Rmult_le_compat_l t _ _ ltac:(lra) H2); lra).
      pose proof (exp_ineq1_le (- rdot r s)). lra. }
    assert (E : x = s).
    { apply (All (fun _ _ => x) s Ns Ls Low). split; [exact Lx|]. split; [exact Nx|]. intros y Ly Ny.
      assert (Lr : List.length (beer_lambert A s) = List.length A) by (unfold beer_lambert; apply map_length).
      rewrite C38_augmented_system_is_the_objective by (try lra; try exact Lr; exact Lx). unfold objective.
      rewrite (exact_depths A s NA Ns Low), Same, sq_dist_refl. replace (0 + 0 * penalty x) with 0 by ring. apply sq_dist_nonneg. }
    assert (Z : sq_norm z = 0); [|lra]. clear - E Ht. unfold x, s, u in E. induction z as [|v z IH]; [reflexivity|]. cbn [map] in E. injection E as E1 E2.
    cbn [sq_norm]. rewrite IH by exact E2. assert (t * v = 0) as Q by lra. apply Rmult_integral in Q. destruct Q as [Q|Q]; [lra|rewrite Q; ring].
Qed.
Print Assumptions C120_every_profile_without_regularisation.

(** ** The whole analysis *)

(** One image: any smoke, any regularisation. *)
Lemma any_profile_error : forall nnls lambda n A rel s c e, 0 <= lambda -> Forall nonneg A -> nonneg s -> List.length s = n ->
  0 < c -> (forall z, List.length z = n -> c * sq_norm z <= sq_norm (mul A z)) -> 0 <= e < 1 ->
  Forall2 (fun row v => 1 / 10000000000 <= exp (- rdot row s) /\ Rabs (v - exp (- rdot row s)) <= e * exp (- rdot row s)) A rel ->
  nnls_solution n (a_aug lambda n A) (b_aug n rel) (nnls (a_aug lambda n A) (b_aug n rel)) ->
  sq_dist (linear_coefficients nnls lambda n A rel) s <= (4 * INR (List.length A) + 2) / c * (ln (1 - e) * ln (1 - e) + lambda * penalty s).
Proof.
  intros nnls lambda n A rel s c e Hl NA Ns Ls Hc Hz He F Sol.
  pose proof (C93_coefficient_error nnls lambda n A rel s c Hl (eq_sym (Forall2_len _ _ _ F)) Ls Ns Hc Hz Sol) as E.
  pose proof (depth_errors_bound A rel s e He NA Ns F) as D. eapply Rle_trans; [exact E|]. unfold Rdiv.
  set (q := ln (1 - e) * ln (1 - e)) in *. assert (Q : 0 <= q) by apply Rle_0_sqr.
  assert (P : 0 <= lambda * penalty s).
  { apply Rmult_le_pos; [exact Hl|]. unfold penalty. destruct (3 <=? List.length s)%nat; [apply roughness_nonneg|apply sq_norm_nonneg]. }
  set (N := INR (List.length A)) in *. assert (PN : 0 <= N) by apply pos_INR.
  replace ((4 * N + 2) * / c * (q + lambda * penalty s)) with ((4 * N + 2) * (q + lambda * penalty s) * / c) by ring.
  apply Rmult_le_compat_r; [left; apply Rinv_0_lt_compat; exact Hc|]. pose proof (Rmult_le_pos N _ PN P). lra.
Qed.

(** A constant [K], given by the positions and the number of layers alone,
    bounds the error whatever the smoke, the photographs and the regularisation
    are. *)
Theorem C120_analysis_of_any_smoke : forall bot top nlay cam ps H,
  (1 <= nlay)%nat -> bot < top -> within bot top (pz cam) -> Forall (in_view bot top cam) ps ->
  Forall2 (counts_at bot top nlay cam) ps H -> enough_heights bot top nlay (pz cam :: H) ->
  exists K, 0 < K /\
  forall A groups arrays a l n recs t coords indices num nnls lambda eps smoke bright cpus order,
  (* the LED arrays, the records of the images 1..n and the binary table *)
  ascending_merge groups -> arrays = merge_indices (reorder_led_indices A) groups ->
  nth_error arrays a = Some l -> (2 <= List.length l)%nat -> (1 <= n)%Z ->
  (forall i, (1 <= i <= n)%Z -> exists F (fit : option (list (list Z) -> res F)) img r areas arrays' ds,
     Forall2 (@Permutation Z) arrays' arrays /\
     generate_analysis_data fit img r areas arrays' 0 = Ok ds /\
     map (fun d => (d_id d, d_array d)) ds = map (fun d => (d_id d, d_array d)) (recs i)) ->
  table_of_images t n recs ->
  Forall2 (fun id p => (0 <= id)%Z /\ nth_error coords (Z.to_nat id) = Some p) l ps ->
  (* the smoke in every image; none in the reference images *)
  (forall i, (1 <= i <= n)%Z -> List.length (smoke i) = nlay /\ nonneg (smoke i)) ->
  (forall i, (1 <= i <= n)%Z -> is_reference indices num i -> smoke i = repeat 0 nlay) ->
  (exists i, (1 <= i <= n)%Z /\ is_reference indices num i) ->
  (* every recorded sum is the brightness of the LED times the transmission, up to the relative error eps *)
  0 <= eps -> table_error eps < 1 / 3 ->
  (forall i d p, (1 <= i <= n)%Z -> In d (recs i) -> d_array d = Z.of_nat a -> nth_error coords (Z.to_nat (d_id d)) = Some p ->
     0 < bright (d_id d) /\ 1 / 10000000000 <= transmission bot top nlay cam p (smoke i) /\
     close_to (bright (d_id d) * transmission bot top nlay cam p (smoke i)) eps (IZR (d_sum d))) ->
  0 <= lambda -> nnls_contract nnls -> Permutation order (seq 0 (Z.to_nat n)) ->
  exists xs, analyse_array nnls lambda bot top nlay cam coords (nth_error (index_files arrays) a) t (Z.of_nat a) "sum_col_val" indices num cpus order = Ok xs /\
    List.length xs = Z.to_nat n /\
    forall i x, (1 <= i <= n)%Z -> nth_error xs (Z.to_nat (i - 1)) = Some x ->
      sq_dist x (smoke i) <= K * (ln (1 - relative_error eps) * ln (1 - relative_error eps) + lambda * penalty (smoke i)).
Proof.
  intros bot top nlay cam ps H Hlay Hbt Hc Hview HH He.
  apply (C110_when_layers_are_told_apart bot top nlay cam ps H _ Hlay Hbt Hc Hview HH (rows_exist bot top nlay cam ps Hlay Hbt Hview)) in He.
  set (M := map (paths bot top nlay cam) ps) in *. destruct He as (c & Hcc & Hz).
  assert (NonM : Forall nonneg M) by (unfold M; apply Forall_map, Forall_forall; intros p _; apply paths_nonneg).
  exists ((4 * INR (List.length M) + 2) / c). split; [apply Rdiv_lt_0_compat; [pose proof (pos_INR (List.length M)); lra|exact Hcc]|].
  intros A groups arrays a l n recs t coords indices num nnls lambda eps smoke bright cpus order
    Hg Harr Ha Hl Hn Hrec Ht Hps Hsm Hsm0 Href Heps Heps' Hmeas Hlam Hnnls Hord.
  apply (smoke_is_recovered_if A groups arrays a l n recs t coords ps indices num bot top nlay cam nnls lambda (fun _ => True)
    (fun s => (4 * INR (List.length M) + 2) / c * (ln (1 - relative_error eps) * ln (1 - relative_error eps) + lambda * penalty s)) eps smoke bright cpus order); try assumption.
  - apply separates_aug. exists c. split; [exact Hcc|exact Hz].
  - cbv zeta. fold M. intros rel s Ls Ns _ F Sol. apply (any_profile_error nnls lambda nlay M rel s c (relative_error eps)); try assumption. apply relative_error_range; assumption.
  - intros i Hi. destruct (Hsm i Hi) as (S1 & S2). split; [exact S1|]. split; [exact S2|exact I].
Qed.
Print Assumptions C120_analysis_of_any_smoke.

(** ** Examples *)

(** The example of C40 with smoke in the upmost layer only: there is a solver
    that keeps its contract, and whatever it is, it reports less roughness. *)
Example C120_smoothed_example : exists nnls, nnls_contract nnls /\ forall lambda, 0 < lambda ->
  let s := [0; 0; 1] in let x := linear_coefficients nnls lambda 3 ex_A (beer_lambert ex_A s) in
  x <> s /\ roughness x < 1.
Proof.
  destruct C93_contract_can_be_met as (nnls & Hc). exists nnls. split; [exact Hc|]. intros lambda Hl s x.
  assert (Ns : nonneg s) by (unfold nonneg, s; repeat (constructor; [lra|]); constructor).
  assert (NA : Forall nonneg ex_A) by (unfold nonneg; repeat (constructor; [repeat (constructor; [lra|]); constructor|]); constructor).
  assert (RA : rows_ok 3 ex_A) by (unfold rows_ok, ex_A; repeat (constructor; [reflexivity|]); constructor).
  assert (Np : ~ progression s).
  { intros P. apply progression_roughness in P. unfold s in P. cbn [roughness] in P. lra. }
  assert (Hv : Forall (fun v => 1 / 10000000000 <= v) (beer_lambert ex_A s)).
  { unfold beer_lambert, ex_A, s. cbn [map rdot]. constructor; [|constructor; [|constructor; [|constructor]]].
    - replace (- (1 * 0 + (0 * 0 + (0 * 1 + 0)))) with 0 by ring. rewrite exp_0. lra.
    - replace (- (1 * 0 + (1 * 0 + (0 * 1 + 0)))) with 0 by ring. rewrite exp_0. lra.
    - replace (- (1 * 0 + (1 * 0 + (1 * 1 + 0)))) with (- (1)) by ring. rewrite exp_Ropp. pose proof exp_le_3. pose proof (exp_pos 1).
      apply (Rmult_le_reg_r (exp 1)); [lra|]. rewrite Rinv_l by lra. lra. }
  assert (Sol : nnls_solution 3 (a_aug lambda 3 ex_A) (b_aug 3 (beer_lambert ex_A s)) (nnls (a_aug lambda 3 ex_A) (b_aug 3 (beer_lambert ex_A s)))).
  { apply Hc; [apply rows_ok_aug; exact RA|apply aug_length; reflexivity|]. apply separates_aug. apply C93_separates_example. }
  destruct (C120_profiles_are_smoothed nnls lambda 3 ex_A s Hl (le_n 3) RA NA Ns eq_refl Hv Sol) as (_ & S & _). specialize (S Np). fold x in S.
  assert (R1 : roughness s = 1) by (unfold s; cbn [roughness]; ring). split; [|rewrite <- R1; exact S]. intros E. rewrite E in S. lra.
Qed.
