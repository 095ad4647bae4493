(** C121: the whole analysis with the non-linear solver. *)
From Coq Require Import ZArith QArith Qreals String List Permutation Reals Lra Lia.
From Verif Require Import Base Step2_Model Step3_Model Table_Props Table_Model Table_Spec Analysis_Model Analysis_Props Layers_Model Layers_Spec Layers_Props
  Solver_Model Solver_Props Stable_Props Nnls_Props End_Model End_Props Separate_Proofs Separate_Props Linear_Proofs Linear_Props Minimiser_Props NonLinear_Proofs NonLinear_Props.
Import ListNotations.
Local Open Scope R_scope.

(** ** The whole analysis *)

(** The solver on the rows of LEDs in view, for errors of the size the table has. *)
Definition recovers (bot top : R) (nlay : nat) (cam : point) (ps : list point) (solve : list (option vec) -> option vec -> list quot -> res vec)
           (shape : vec -> Prop) (eps : R) (good : vec -> vec -> Prop) : Prop :=
  forall last qs s, let M := map (paths bot top nlay cam) ps in
     (forall y, last = Some y -> exists s', good s' y) ->
     List.length s = nlay -> nonneg s -> shape s ->
     Forall2 (fun row v => 1 / 10000000000 <= exp (- rdot row s) /\ Rabs (v - exp (- rdot row s)) <= relative_error eps * exp (- rdot row s)) M (map Q2R qs) ->
     exists x, solve (map Some M) last (map Fin qs) = Ok x /\ good s x.

Lemma errors_only : forall e s A t,
  Forall2 (fun row v => 1 / 10000000000 <= exp (- rdot row s) /\ Rabs (v - exp (- rdot row s)) <= e * exp (- rdot row s)) A t ->
  Forall2 (fun row v => Rabs (v - exp (- rdot row s)) <= e * exp (- rdot row s)) A t.
Proof. intros e s A t F. induction F as [|r v A t (_ & H) F IH]; constructor; assumption. Qed.

Lemma any_profile_recovered : forall bot top nlay cam ps H,
  (1 <= nlay)%nat -> bot < top -> within bot top (pz cam) -> Forall (in_view bot top cam) ps ->
  Forall2 (counts_at bot top nlay cam) ps H -> enough_heights bot top nlay (pz cam :: H) ->
  exists K, 0 < K /\ forall minimize wc wp eps, minimize_contract minimize -> 0 <= wc -> 0 <= eps -> table_error eps < 1 / 3 ->
    recovers bot top nlay cam ps (solve_nonlinear minimize wc wp nlay) in_bounds eps
      (fun s x => List.length x = nlay /\ sqrt (sq_dist x s) <= K * (relative_error eps + wc * bend s + Rabs wp)).
Proof.
  intros bot top nlay cam ps H Hlay Hbt Hc Hview HH He.
  apply (C110_when_layers_are_told_apart bot top nlay cam ps H _ Hlay Hbt Hc Hview HH (rows_exist bot top nlay cam ps Hlay Hbt Hview)) in He.
  set (M := map (paths bot top nlay cam) ps) in *. destruct He as (c & Hcc & Hz).
  assert (NonM : Forall nonneg M) by (unfold M; apply Forall_map, Forall_forall; intros p _; apply paths_nonneg).
  assert (HM : M <> []).
  { intros E. specialize (Hz (repeat 1 nlay) (repeat_length _ _)). rewrite E in Hz. cbn [mul map sq_norm] in Hz. destruct nlay as [|k]; [lia|]. cbn [repeat sq_norm] in Hz.
    pose proof (sq_norm_nonneg (repeat 1 k)). nra. }
  pose proof (len_pos M HM) as N0. assert (N1 : 1 <= INR (List.length M)) by (change 1 with (INR 1); apply le_INR; destruct M; [congruence|simpl; lia]).
  set (N := INR (List.length M)) in *. set (U := 10 * total (map total M)). pose proof (exp_pos U) as PU. pose proof (sqrt_lt_R0 c Hcc) as Sc.
  assert (Q : 0 < exp U / sqrt c) by (apply Rdiv_lt_0_compat; assumption).
  exists (exp U / sqrt c * (10 * N * N)). split; [apply Rmult_lt_0_compat; [exact Q|]; apply Rmult_lt_0_compat; lra|].
  intros minimize wc wp eps Hm Hw Heps Heps'. intros last qs s M0 Hlast Ls _ Bs F. subst M0. fold M in F |- *.
  pose proof (Forall2_len _ _ _ F) as L. rewrite map_length in L. destruct (relative_error_range eps Heps Heps') as (R0 & _).
  destruct (nonlinear_solution minimize wc wp nlay M last qs Hm Hw Hlay HM NonM (eq_sym L)) as (x & E & Lx & Mx).
  { intros y Hy. destruct (Hlast y Hy) as (s' & G & _). exact G. }
  exists x. split; [exact E|]. split; [exact Lx|].
  eapply Rle_trans; [apply (C121_error_of_any_profile wc wp M (map Q2R qs) x s c (relative_error eps)); try assumption|].
  - eapply not_nil; eassumption.
  - rewrite Lx. exact Hz.
  - congruence.
  - apply errors_only. exact F.
  - fold N U. rewrite (Rmult_assoc (exp U / sqrt c) (10 * N * N)). apply Rmult_le_compat_l; [lra|]. pose proof (Rmult_le_pos _ _ Hw (bend_nonneg s)) as W. pose proof (Rabs_pos wp) as P.
    set (r := relative_error eps) in *. set (b := wc * bend s) in *. replace (2 * N * wc * bend s) with (2 * N * b) by (unfold b; ring).
    replace (10 * N * N * (r + b + Rabs wp)) with (N * (10 * N * (r + b + Rabs wp))) by ring. apply Rmult_le_compat_l; [lra|].
    assert (r <= N * r) by nra. assert (Rabs wp <= N * Rabs wp) by nra. pose proof (Rmult_le_pos N b ltac:(lra) W). nra.
Qed.

Lemma linear_profile_recovered : forall bot top nlay cam wc ps p1 p2,
  (3 <= nlay)%nat -> bot < top -> within bot top (pz cam) -> Forall (in_view bot top cam) ps ->
  In p1 ps -> In p2 ps -> pz p1 <> pz p2 -> ~ one_layer bot top nlay (pz cam) (pz p1) (pz p2) -> 0 < wc ->
  exists K, 0 < K /\ forall minimize wp eps, minimize_contract minimize -> 0 <= eps -> table_error eps < 1 / 3 ->
    recovers bot top nlay cam ps (solve_nonlinear minimize wc wp nlay) (fun s => in_bounds s /\ progression s) eps
      (fun s x => List.length x = nlay /\ sqrt (sq_dist x s) <= K * (relative_error eps + Rabs wp)).
Proof.
  intros bot top nlay cam wc ps p1 p2 Hlay Hbt Hc Hview I1 I2 N12 NO Hw.
  destruct (C119_two_leds bot top nlay cam ps p1 p2 Hlay Hbt Hc Hview I1 I2 N12 NO) as (M & EM & T).
  apply (rows_visible bot top nlay ltac:(lia) Hbt cam ps M Hview) in EM. subst M. set (M := map (paths bot top nlay cam) ps) in *.
  assert (RowsM : rows_ok nlay M) by (unfold rows_ok, M; apply Forall_map, Forall_forall; intros p _; apply paths_length).
  assert (NonM : Forall nonneg M) by (unfold M; apply Forall_map, Forall_forall; intros p _; apply paths_nonneg).
  assert (HM : M <> []) by (unfold M; destruct ps; [destruct I1|discriminate]).
  destruct (proj1 (C119_penalty_fills_the_gaps 1 nlay M ltac:(lra) Hlay RowsM) T) as (c & Hcc & Hz).
  pose proof (len_pos M HM) as N0. set (N := INR (List.length M)) in *. set (U := 10 * total (map total M)). pose proof (exp_pos U) as PU. pose proof (sqrt_lt_R0 c Hcc) as Sc.
  assert (Q : 0 < (exp U * N + / (N * wc)) / sqrt c).
  { apply Rdiv_lt_0_compat; [|exact Sc]. pose proof (Rmult_lt_0_compat _ _ PU N0). pose proof (Rinv_0_lt_compat _ (Rmult_lt_0_compat _ _ N0 Hw)). lra. }
  exists ((exp U * N + / (N * wc)) / sqrt c * 10). split; [lra|].
  intros minimize wp eps Hm Heps Heps'. intros last qs s M0 Hlast Ls _ (Bs & Ps) F. subst M0. fold M in F |- *.
  pose proof (Forall2_len _ _ _ F) as L. rewrite map_length in L. destruct (relative_error_range eps Heps Heps') as (R0 & _).
  destruct (nonlinear_solution minimize wc wp nlay M last qs Hm ltac:(lra) ltac:(lia) HM NonM (eq_sym L)) as (x & E & Lx & Mx).
  { intros y Hy. destruct (Hlast y Hy) as (s' & G & _). exact G. }
  exists x. split; [exact E|]. split; [exact Lx|].
  eapply Rle_trans; [apply (C121_error_of_linear_profiles wc wp M (map Q2R qs) x s c (relative_error eps)); try assumption|].
  - eapply (not_nil x nlay); [lia|exact Lx].
  - rewrite Lx. exact Hz.
  - congruence.
  - apply errors_only. exact F.
  - fold N U. rewrite (Rmult_assoc _ 10). apply Rmult_le_compat_l; [lra|]. lra.
Qed.

(** A constant [K], given by the positions and the number of layers, bounds the
    error for every smoke within the bounds, all weights and photographs,
    whether a pool or a single process works on the images. *)
Theorem C121_analysis_of_any_smoke : forall bot top nlay cam ps H,
  (1 <= nlay)%nat -> bot < top -> within bot top (pz cam) -> Forall (in_view bot top cam) ps ->
  Forall2 (counts_at bot top nlay cam) ps H -> enough_heights bot top nlay (pz cam :: H) ->
  exists K, 0 < K /\
  forall A groups arrays a l n recs t coords indices num minimize wc wp eps smoke bright cpus order,
  (* the LED arrays, the records of the images 1..n and the binary table *)
  ascending_merge groups -> arrays = merge_indices (reorder_led_indices A) groups ->
  nth_error arrays a = Some l -> (2 <= List.length l)%nat -> (1 <= n)%Z ->
  (forall i, (1 <= i <= n)%Z -> exists F (fit : option (list (list Z) -> res F)) img r areas arrays' ds,
     Forall2 (@Permutation Z) arrays' arrays /\
     generate_analysis_data fit img r areas arrays' 0 = Ok ds /\
     map (fun d => (d_id d, d_array d)) ds = map (fun d => (d_id d, d_array d)) (recs i)) ->
  table_of_images t n recs ->
  Forall2 (fun id p => (0 <= id)%Z /\ nth_error coords (Z.to_nat id) = Some p) l ps ->
  (* the smoke in every image; none in the reference images *)
  (forall i, (1 <= i <= n)%Z -> List.length (smoke i) = nlay /\ in_bounds (smoke i)) ->
  (forall i, (1 <= i <= n)%Z -> is_reference indices num i -> smoke i = repeat 0 nlay) ->
  (exists i, (1 <= i <= n)%Z /\ is_reference indices num i) ->
  (* every recorded sum is the brightness of the LED times the transmission, up to the relative error eps *)
  0 <= eps -> table_error eps < 1 / 3 ->
  (forall i d p, (1 <= i <= n)%Z -> In d (recs i) -> d_array d = Z.of_nat a -> nth_error coords (Z.to_nat (d_id d)) = Some p ->
     0 < bright (d_id d) /\ 1 / 10000000000 <= transmission bot top nlay cam p (smoke i) /\
     close_to (bright (d_id d) * transmission bot top nlay cam p (smoke i)) eps (IZR (d_sum d))) ->
  0 <= wc -> minimize_contract minimize -> Permutation order (seq 0 (Z.to_nat n)) ->
  exists xs, analyse_nonlinear minimize wc wp bot top nlay cam coords (nth_error (index_files arrays) a) t (Z.of_nat a) "sum_col_val" indices num cpus order = Ok xs /\
    List.length xs = Z.to_nat n /\
    forall i x, (1 <= i <= n)%Z -> nth_error xs (Z.to_nat (i - 1)) = Some x ->
      List.length x = nlay /\ sqrt (sq_dist x (smoke i)) <= K * (relative_error eps + wc * bend (smoke i) + Rabs wp).
Proof.
  intros bot top nlay cam ps H Hlay Hbt Hc Hview HH Hen.
  destruct (any_profile_recovered bot top nlay cam ps H Hlay Hbt Hc Hview HH Hen) as (K & HK & Main). exists K. split; [exact HK|].
  intros A groups arrays a l n recs t coords indices num minimize wc wp eps smoke bright cpus order
    Hg Harr Ha Hl Hn Hrec Ht Hps Hsm Hsm0 Href Heps Heps' Hmeas Hwc Hmin Hord.
  apply (any_solver_if A groups arrays a l n recs t coords ps indices num bot top nlay cam (solve_nonlinear minimize wc wp nlay) in_bounds
    (fun s x => List.length x = nlay /\ sqrt (sq_dist x s) <= K * (relative_error eps + wc * bend s + Rabs wp)) eps smoke bright cpus order); try assumption.
  - apply Main; assumption.
  - intros i Hi. destruct (Hsm i Hi) as (S1 & S2). split; [exact S1|]. split; [apply in_bounds_nonneg; exact S2|exact S2].
Qed.
Print Assumptions C121_analysis_of_any_smoke.

(** Two LEDs and smoke which is linear in height: [K] also depends on the weight
    of the curvature. *)
Theorem C121_analysis_with_few_leds : forall bot top nlay cam wc ps p1 p2,
  (3 <= nlay)%nat -> bot < top -> within bot top (pz cam) -> Forall (in_view bot top cam) ps ->
  In p1 ps -> In p2 ps -> pz p1 <> pz p2 -> ~ one_layer bot top nlay (pz cam) (pz p1) (pz p2) -> 0 < wc ->
  exists K, 0 < K /\
  forall A groups arrays a l n recs t coords indices num minimize wp eps smoke bright cpus order,
  (* the LED arrays, the records of the images 1..n and the binary table *)
  ascending_merge groups -> arrays = merge_indices (reorder_led_indices A) groups ->
  nth_error arrays a = Some l -> (2 <= List.length l)%nat -> (1 <= n)%Z ->
  (forall i, (1 <= i <= n)%Z -> exists F (fit : option (list (list Z) -> res F)) img r areas arrays' ds,
     Forall2 (@Permutation Z) arrays' arrays /\
     generate_analysis_data fit img r areas arrays' 0 = Ok ds /\
     map (fun d => (d_id d, d_array d)) ds = map (fun d => (d_id d, d_array d)) (recs i)) ->
  table_of_images t n recs ->
  Forall2 (fun id p => (0 <= id)%Z /\ nth_error coords (Z.to_nat id) = Some p) l ps ->
  (* the smoke, linear in height in every image; none in the reference images *)
  (forall i, (1 <= i <= n)%Z -> List.length (smoke i) = nlay /\ in_bounds (smoke i) /\ progression (smoke i)) ->
  (forall i, (1 <= i <= n)%Z -> is_reference indices num i -> smoke i = repeat 0 nlay) ->
  (exists i, (1 <= i <= n)%Z /\ is_reference indices num i) ->
  (* every recorded sum is the brightness of the LED times the transmission, up to the relative error eps *)
  0 <= eps -> table_error eps < 1 / 3 ->
  (forall i d p, (1 <= i <= n)%Z -> In d (recs i) -> d_array d = Z.of_nat a -> nth_error coords (Z.to_nat (d_id d)) = Some p ->
     0 < bright (d_id d) /\ 1 / 10000000000 <= transmission bot top nlay cam p (smoke i) /\
     close_to (bright (d_id d) * transmission bot top nlay cam p (smoke i)) eps (IZR (d_sum d))) ->
  minimize_contract minimize -> Permutation order (seq 0 (Z.to_nat n)) ->
  exists xs, analyse_nonlinear minimize wc wp bot top nlay cam coords (nth_error (index_files arrays) a) t (Z.of_nat a) "sum_col_val" indices num cpus order = Ok xs /\
    List.length xs = Z.to_nat n /\
    forall i x, (1 <= i <= n)%Z -> nth_error xs (Z.to_nat (i - 1)) = Some x ->
      List.length x = nlay /\ sqrt (sq_dist x (smoke i)) <= K * (relative_error eps + Rabs wp).
Proof.
  intros bot top nlay cam wc ps p1 p2 Hlay Hbt Hc Hview I1 I2 N12 NO Hwc.
  destruct (linear_profile_recovered bot top nlay cam wc ps p1 p2 Hlay Hbt Hc Hview I1 I2 N12 NO Hwc) as (K & HK & Main). exists K. split; [exact HK|].
  intros A groups arrays a l n recs t coords indices num minimize wp eps smoke bright cpus order
    Hg Harr Ha Hl Hn Hrec Ht Hps Hsm Hsm0 Href Heps Heps' Hmeas Hmin Hord.
  apply (any_solver_if A groups arrays a l n recs t coords ps indices num bot top nlay cam (solve_nonlinear minimize wc wp nlay) (fun s => in_bounds s /\ progression s)
    (fun s x => List.length x = nlay /\ sqrt (sq_dist x s) <= K * (relative_error eps + Rabs wp)) eps smoke bright cpus order); try assumption; try lia.
  - apply Main; assumption.
  - intros i Hi. destruct (Hsm i Hi) as (S1 & S2 & S3). split; [exact S1|]. split; [apply in_bounds_nonneg; exact S2|]. split; assumption.
Qed.
Print Assumptions C121_analysis_with_few_leds.

(** ** Examples *)
Lemma ln_2_range : 0 < ln 2 < 1.
Proof.
  split; [rewrite <- ln_1; apply ln_increasing; lra|]. rewrite <- (ln_exp 1). apply ln_increasing; [lra|]. pose proof (exp_ineq1 1 ltac:(lra)). lra.
Qed.

(** One image: three layers which halve the light each are found exactly,
    whatever the start, if there is no preference. *)
Example C121_solver_example : forall minimize wc last, minimize_contract minimize -> 0 < wc -> (forall y, last = Some y -> List.length y = 3%nat) ->
  solve_nonlinear minimize wc 0 3 (map Some ex_A) last (map Fin [1 # 2; 1 # 4; 1 # 8]) = Ok [ln 2; ln 2; ln 2].
Proof.
  intros minimize wc last Hm Hw Hl. pose proof ln_2_range as L2.
  assert (NA : Forall nonneg ex_A) by (unfold nonneg; repeat (constructor; [repeat (constructor; [lra|]); constructor|]); constructor).
  assert (HA : ex_A <> []) by discriminate.
  destruct (nonlinear_solution minimize wc 0 3 ex_A last [1 # 2; 1 # 4; 1 # 8] Hm ltac:(lra) ltac:(lia) HA NA eq_refl Hl) as (x & E & Lx & Mx). rewrite E. f_equal.
  assert (H1 : exp (- ln 2) = 1 / 2) by (rewrite exp_Ropp, exp_ln by lra; lra).
  assert (H2 : exp (- (ln 2 + ln 2)) = 1 / 4) by (rewrite Ropp_plus_distr, exp_plus, H1; lra).
  assert (H3 : exp (- (ln 2 + (ln 2 + ln 2))) = 1 / 8) by (rewrite Ropp_plus_distr, exp_plus, H1, H2; lra).
  destruct (proj1 C93_separates_example) as (c & Hc & Hz). change [[1; 0; 0]; [1; 1; 0]; [1; 1; 1]] with ex_A in Hz.
  pose proof (C121_error_of_linear_profiles wc 0 ex_A (map Q2R [1 # 2; 1 # 4; 1 # 8]) x [ln 2; ln 2; ln 2] c 0 HA NA Hw) as B. cbv zeta in B.
  specialize (B (not_nil x 3 ltac:(lia) Lx) Hc). rewrite Lx in B.
  assert (Z : sqrt (sq_dist x [ln 2; ln 2; ln 2]) <= 0).
  { eapply Rle_trans; [apply B|rewrite Rabs_R0; lra].
    - intros z Lz. specialize (Hz z Lz). pose proof (roughness_nonneg z). lra.
    - lra.
    - reflexivity.
    - unfold in_bounds. repeat (constructor; [lra|]). constructor.
    - exists (ln 2), 0. cbn [List.length seq map]. f_equal; [lra|]. f_equal; [lra|]. f_equal. lra.
    - unfold ex_A. cbn [map]. unfold Q2R. cbn [Qnum Qden]. constructor; [|constructor; [|constructor; [|constructor]]]; cbn [rdot].
      + replace (- (1 * ln 2 + (0 * ln 2 + (0 * ln 2 + 0)))) with (- ln 2) by ring. rewrite H1, Rmult_0_l. replace (1 * / 2 - 1 / 2) with 0 by lra. rewrite Rabs_R0. lra.
      + replace (- (1 * ln 2 + (1 * ln 2 + (0 * ln 2 + 0)))) with (- (ln 2 + ln 2)) by ring. rewrite H2, Rmult_0_l. replace (1 * / 4 - 1 / 4) with 0 by lra. rewrite Rabs_R0. lra.
      + replace (- (1 * ln 2 + (1 * ln 2 + (1 * ln 2 + 0)))) with (- (ln 2 + (ln 2 + ln 2))) by ring. rewrite H3, Rmult_0_l. replace (1 * / 8 - 1 / 8) with 0 by lra. rewrite Rabs_R0. lra.
    - exact Mx. }
  pose proof (sqrt_pos (sq_dist x [ln 2; ln 2; ln 2])). apply sq_dist_0; [exact Lx|]. apply sqrt_eq_0; [apply sq_dist_nonneg|lra].
Qed.

(** No light at all behind one metre of smoke with the coefficient 20: at least
    ten are missing. *)
Example C121_dense_example : forall minimize, minimize_contract minimize ->
  exists x, solve_nonlinear minimize 0 0 1 (map Some [[1]]) None (map Fin [0 # 1]) = Ok x /\ 20 - 10 <= sqrt (sq_dist x [20]).
Proof.
  intros minimize Hm. assert (NA : Forall nonneg [[1]]) by (unfold nonneg; constructor; [constructor; [lra|constructor]|constructor]).
  eexists. split; [reflexivity|]. apply (C121_dense_smoke_is_cut_off minimize 0 0 1 [[1]] None [0 # 1] _ [20] 0 20 Hm ltac:(lra) ltac:(lia) ltac:(discriminate) NA eq_refl);
    [discriminate|reflexivity|reflexivity|reflexivity|lra].
Qed.

(** The two LEDs of the example of C119. *)
Example C121_example : forall wc, 0 < wc -> exists K, 0 < K /\
  forall minimize wp cpus, minimize_contract minimize ->
  exists x1 x2, analyse_nonlinear minimize wc wp 0 3 3 eg_cam two_coords (Some [1; 0]%Z) two_table 0 "sum_col_val" None 1 cpus [1; 0]%nat = Ok [x1; x2] /\
    sqrt (sq_dist x1 [0; 0; 0]) <= K * (relative_error 0 + Rabs wp) /\
    sqrt (sq_dist x2 [ln 2; ln 2; ln 2]) <= K * (relative_error 0 + Rabs wp).
Proof.
  intros wc Hwc. pose proof ln_2_range as L2.
  destruct (C121_analysis_with_few_leds 0 3 3 eg_cam wc two_coords (Point 0 0 1) (Point 0 0 3)) as (K & HK & Main).
  - lia.
  - lra.
  - unfold within, eg_cam. cbn [pz]. lra.
  - constructor; [|constructor; [|constructor]]; unfold in_view, within, eg_cam; cbn [pz]; (split; [lra|split; [lra|intros E; lra]]).
  - left. reflexivity.
  - right. left. reflexivity.
  - cbn [pz]. lra.
  - intros (k & _ & B). unfold eg_cam in B. cbn [pz] in B. replace ((3 - 0) / INR 3) with 1 in B by (simpl; field).
    pose proof (B 0 (or_introl eq_refl)). pose proof (B 3 (or_intror (or_intror (or_introl eq_refl)))). rewrite S_INR in *. lra.
  - exact Hwc.
  - exists K. split; [exact HK|]. intros minimize wp cpus Hmin.
    destruct (Main [[0; 1]%Z] None [[0; 1]%Z] 0%nat [0; 1]%Z 2%Z two_recs two_table two_coords None 1%Z minimize wp 0 eg_smoke (fun _ => 8000) cpus [1; 0]%nat) as (xs & X1 & X2 & X3).
    + exact I.
    + reflexivity.
    + reflexivity.
    + simpl. lia.
    + lia.
    + intros i Hi. assert (Ci : (i = 1 \/ i = 2)%Z) by lia. exists Format_Model.fit_data, None, ex_img, 1%Z, two_areas, [[0; 1]%Z].
      eexists. split; [constructor; [apply Permutation_refl|constructor]|]. split; [vm_compute; reflexivity|]. destruct Ci as [-> | -> ]; reflexivity.
    + exists (map (fun i => map (plain_row i) (two_recs i)) [1; 2]%Z). split; [reflexivity|].
      assert (X : forall i, (i = 1 \/ i = 2)%Z -> rows_of_image (row_of_record (cols two_table) i) (two_recs i) (map (plain_row i) (two_recs i))).
      { intros i Hi. exists (two_recs i). split; [apply Permutation_refl|]. split.
        - destruct Hi as [-> | -> ]; vm_compute; repeat constructor; intros C; discriminate C.
        - assert (F : Forall (fun d => (0 <= d_sum d)%Z) (two_recs i)) by (destruct Hi as [-> | -> ]; vm_compute; repeat constructor; intros C; discriminate C).
          cbn [cols two_table]. clear - F. induction F as [|d ds H F IH]; [constructor|]. cbn [map]. constructor; [apply plain_row_ok; exact H|exact IH]. }
      change (zrange 1 (2 + 1)) with [1; 2]%Z. cbn [map]. constructor; [apply X; left; reflexivity|]. constructor; [apply X; right; reflexivity|constructor].
    + constructor; [split; [lia|reflexivity]|]. constructor; [split; [lia|reflexivity]|constructor].
    + intros i Hi. unfold eg_smoke. destruct (i =? 1)%Z.
      * split; [reflexivity|]. split; [cbn [repeat]; unfold in_bounds; repeat (constructor; [lra|]); constructor|apply zeros_progression].
      * split; [reflexivity|]. split; [unfold in_bounds; repeat (constructor; [lra|]); constructor|]. exists (ln 2), 0. cbn [List.length seq map]. f_equal; [lra|]. f_equal; [lra|]. f_equal. lra.
    + intros i Hi Hr. cbn [is_reference] in Hr. assert (i = 1)%Z by lia. subst i. reflexivity.
    + exists 1%Z. split; [lia|]. cbn. lia.
    + lra.
    + unfold table_error. lra.
    + assert (H1 : exp (- ln 2) = 1 / 2) by (rewrite exp_Ropp, exp_ln by lra; lra).
      assert (P0 : paths 0 3 3 eg_cam (Point 0 0 1) = [1; 0; 0] /\ paths 0 3 3 eg_cam (Point 0 0 3) = [1; 1; 1]).
      { pose proof eg_paths as E. split; [exact (f_equal (fun l => nth 0 l []) E)|exact (f_equal (fun l => nth 2 l []) E)]. }
      destruct P0 as (P1 & P2).
      intros i d p Hi Hd _ Hp. assert (Ci : (i = 1 \/ i = 2)%Z) by lia. destruct Ci as [-> | -> ].
      * assert (T0 : transmission 0 3 3 eg_cam p (eg_smoke 1) = 1) by (unfold transmission, eg_smoke; cbn [Z.eqb Pos.eqb]; rewrite rdot_zeros, Ropp_0; apply exp_0).
        rewrite T0. split; [lra|]. split; [lra|]. apply close_bounds. destruct Hd as [<-|[<-|[]]]; cbn [d_sum fst snd]; lra.
      * change (eg_smoke 2) with [ln 2; ln 2; ln 2]. unfold transmission.
        destruct Hd as [<-|[<-|[]]]; cbn [d_id d_sum fst snd] in *; [change (Z.to_nat 0) with 0%nat in Hp|change (Z.to_nat 1) with 1%nat in Hp]; cbn [nth_error two_coords] in Hp; apply Some_inj in Hp; subst p.
        -- rewrite P1. cbn [rdot]. replace (- (1 * ln 2 + (0 * ln 2 + (0 * ln 2 + 0)))) with (- ln 2) by ring. rewrite H1. split; [lra|]. split; [lra|]. apply close_bounds. lra.
        -- rewrite P2. cbn [rdot]. replace (- (1 * ln 2 + (1 * ln 2 + (1 * ln 2 + 0)))) with (- ln 2 + (- ln 2 + - ln 2)) by ring. rewrite !exp_plus, H1. split; [lra|]. split; [lra|]. apply close_bounds. lra.
    + exact Hmin.
    + apply perm_swap.
    + change (nth_error (index_files [[0; 1]%Z]) 0) with (Some [1; 0]%Z) in X1. change (Z.of_nat 0) with 0%Z in X1.
      destruct xs as [|x1 [|x2 [|x3 xs]]]; try discriminate X2. exists x1, x2. split; [exact X1|]. split; [apply (X3 1%Z x1); [lia|reflexivity]|apply (X3 2%Z x2); [lia|reflexivity]].
Qed.
