(** C120: from photographs to smoke of any profile. *)
From Coq Require Import ZArith QArith Lia Bool String List Permutation Reals Lra.
From Verif Require Import Base Step1_Model Step1_Spec Step1_Proofs Step2_Model Step2_Spec Step2_Proofs Step2_GeoSpec Step2_GeoProps Step2_Geometry Nearly_Props Step3_Model Step3_Spec Step3_Props
  Pipeline_Model Pipeline_Props Dir_Model Dir_Props Extract_Props Format_Model Table_Model Table_Spec Table_Props Analysis_Model Analysis_Props
  Layers_Model Layers_Spec Layers_Props Solver_Model Solver_Props Stable_Props Nnls_Props End_Model End_Props Separate_Proofs Separate_Props Linear_Proofs Linear_Props Photos_Props Profile_Props.
Import ListNotations.
Local Open Scope R_scope.

(** C104 for smoke of any profile: the heights of camera and LEDs are spread over the
    layers; the constant [K] does not depend on smoke, photographs and regularisation. *)
Theorem C120_from_the_photographs : forall bot top nlay cam ps H,
  (1 <= nlay)%nat -> bot < top -> within bot top (pz cam) -> Forall (in_view bot top cam) ps ->
  Forall2 (counts_at bot top nlay cam) ps H -> enough_heights bot top nlay (pz cam :: H) ->
  exists K, 0 < K /\
  forall E1 E2 st img thr lamps strays photo files recs srt coord overflow first last skip a A places
         indices num nnls lambda eps smoke bright cpus order,
  (* the reference image and what the user enters *)
  let P := concat lamps ++ strays in
  let r := e_radius E1 in
  mml_ok (e_mml E1) -> e_image E1 = Ok img -> nonempty_image img -> nonneg_image img -> (1 <= r)%Z ->
  percentile (pixels img) (e_percentile E1) = Ok thr -> spots img r thr P -> (Z.of_nat (List.length P) <= e_max_leds E1)%Z ->
  (forall rows, e_plot E1 rows = true /\ e_plot E2 rows = true) ->
  Forall (fun A => (2 <= List.length A)%nat) lamps -> lamps_straight lamps P ->
  e_geo E2 = real_geometry -> e_ignored E2 = [] ->
  let st1 := exec_all [Step1 E1; NewProcess] st in
  (forall rows, fst st1 KAreas = Some (Rows rows) -> edges_entered rows lamps (e_edges E2)) ->
  let s2 := fst (exec (Step2 E2) st1) in
  (* the photographs and the result files *)
  let n := number_of_images overflow first last skip in
  (1 <= n)%Z ->
  (forall i, (1 <= i <= n)%Z -> ih (photo i) = ih img /\ iw (photo i) = iw img /\ nonneg_image (photo i)) ->
  (forall i areas arrays, (1 <= i <= n)%Z ->
     load_search_areas s2 = Ok areas -> load_indices (Z.of_nat (List.length lamps)) None s2 = Ok arrays ->
     generate_analysis_data None (photo i) r areas arrays 0 = Ok (recs i) /\
     (exists b name ch time, files i = Some (result_file b name ch time false (recs i))) /\
     coords_usable coord (recs i)) ->
  sorts srt ->
  (* the array, the room and the smoke *)
  nth_error lamps a = Some A -> map (@List.length _) lamps = map (@List.length _) places -> nth_error places a = Some ps ->
  (forall i, (1 <= i <= n)%Z -> List.length (smoke i) = nlay /\ nonneg (smoke i)) ->
  (forall i, (1 <= i <= n)%Z -> is_reference indices num i -> smoke i = repeat 0 nlay) ->
  (exists i, (1 <= i <= n)%Z /\ is_reference indices num i) ->
  (* what the photographs show of the lamps of the array *)
  0 <= eps -> table_error eps < 1 / 3 ->
  (forall i j q p, (1 <= i <= n)%Z -> nth_error A j = Some q -> nth_error ps j = Some p ->
     0 < bright j /\ 1 / 10000000000 <= transmission bot top nlay cam p (smoke i) /\
     close_to (bright j * transmission bot top nlay cam p (smoke i)) eps (IZR (seen (photo i) r q))) ->
  0 <= lambda -> nnls_contract nnls -> Permutation order (seq 0 (Z.to_nat n)) ->
  exists t arrays xs,
    create_table srt coord files overflow first last skip = Ok t /\
    load_indices (Z.of_nat (List.length lamps)) None s2 = Ok arrays /\
    analyse_array nnls lambda bot top nlay cam (concat places) (nth_error arrays a) t (Z.of_nat a) "sum_col_val" indices num cpus order = Ok xs /\
    List.length xs = Z.to_nat n /\
    forall i x, (1 <= i <= n)%Z -> nth_error xs (Z.to_nat (i - 1)) = Some x ->
      sq_dist x (smoke i) <= K * (ln (1 - relative_error eps) * ln (1 - relative_error eps) + lambda * penalty (smoke i)).
Proof.
  intros bot top nlay cam ps H Hlay Hbt Hc Hview HH Hen.
  apply (C110_when_layers_are_told_apart bot top nlay cam ps H _ Hlay Hbt Hc Hview HH (rows_exist bot top nlay cam ps Hlay Hbt Hview)) in Hen.
  set (M := map (paths bot top nlay cam) ps) in *. destruct Hen as (c & Hcc & Hz).
  assert (NonM : Forall nonneg M) by (unfold M; apply Forall_map, Forall_forall; intros p _; apply paths_nonneg).
  exists ((4 * INR (List.length M) + 2) / c). split; [apply Rdiv_lt_0_compat; [pose proof (pos_INR (List.length M)); lra|exact Hcc]|].
  intros E1 E2 st img thr lamps strays photo files recs srt coord overflow first last skip a A places
    indices num nnls lambda eps smoke bright cpus order P r
    Hm Hi Hne Hnn Hr Hp Hs Hk Hpl Hl2 Hst Hg Hig st1 He s2 n Hn Hph Hrec Hsrt HA Hpls Hps Hsm Hsm0 Href Heps Heps' Hmeas Hlam Hnnls Hord.
  apply (photographs_if E1 E2 st img thr lamps strays photo files recs srt coord overflow first last skip a A places ps indices num bot top nlay cam nnls lambda (fun _ => True)
    (fun s => (4 * INR (List.length M) + 2) / c * (ln (1 - relative_error eps) * ln (1 - relative_error eps) + lambda * penalty s)) eps smoke bright cpus order); try assumption.
  - apply separates_aug. exists c. split; [exact Hcc|exact Hz].
  - cbv zeta. fold M. intros rel s Ls Ns _ F Sol. apply (any_profile_error nnls lambda nlay M rel s c (relative_error eps)); try assumption. apply relative_error_range; assumption.
  - intros i Hi'. destruct (Hsm i Hi') as (S1 & S2). split; [exact S1|]. split; [exact S2|exact I].
Qed.
Print Assumptions C120_from_the_photographs.

(** *** A concrete case: the three LEDs of the example of C104, one, two and three metres
    above the camera, three layers of one metre, smoke below the ceiling only: the upmost
    layer halves the light. *)
Definition ceil_photo (i : Z) : image := if (i =? 1)%Z then wall 8000 8000 8000 else wall 8000 8000 4000.
Definition ceil_recs (i : Z) : list (led_data fit_data) :=
  match generate_analysis_data None (ceil_photo i) 1 (concat (Extract_Props.blocks 0 wall_lamps)) [[2; 1; 0]%Z] 0 with Ok ds => ds | Err _ => [] end.
Definition ceil_files (i : Z) : option (list string) := Some (result_file "IMG_{}.JPG" "a" 0 "0" false (ceil_recs i)).
Definition ceil_smoke (i : Z) : vec := if (i =? 1)%Z then repeat 0 3 else [0; 0; ln 2].

Lemma ceil_seen : forall i j q p, (1 <= i <= 2)%Z -> nth_error [(2, 2); (2, 5); (2, 8)]%Z j = Some q -> nth_error eg_coords j = Some p ->
  0 < 8000 /\ 1 / 10000000000 <= transmission 0 3 3 eg_cam p (ceil_smoke i) /\
  close_to (8000 * transmission 0 3 3 eg_cam p (ceil_smoke i)) 0 (IZR (seen (ceil_photo i) 1 q)).
Proof.
  assert (H1 : exp (- ln 2) = 1 / 2) by (rewrite exp_Ropp, exp_ln by lra; lra).
  assert (TR : forall j p, nth_error eg_coords j = Some p -> transmission 0 3 3 eg_cam p [0; 0; ln 2] = nth j [1; 1; 1 / 2] 0).
  { intros j p Hj. unfold transmission.
    assert (N : nth_error (map (paths 0 3 3 eg_cam) eg_coords) j = Some (paths 0 3 3 eg_cam p)) by (rewrite nth_error_map, Hj; reflexivity). rewrite eg_paths in N.
    destruct j as [|[|[|j]]]; cbn [nth_error] in N; [| | |destruct j; discriminate N]; apply Some_inj in N; rewrite <- N; cbn [rdot nth].
    - replace (- (1 * 0 + (0 * 0 + (0 * ln 2 + 0)))) with 0 by ring. apply exp_0.
    - replace (- (1 * 0 + (1 * 0 + (0 * ln 2 + 0)))) with 0 by ring. apply exp_0.
    - replace (- (1 * 0 + (1 * 0 + (1 * ln 2 + 0)))) with (- ln 2) by ring. exact H1. }
  intros i j q p Hi Hq Hp. split; [lra|]. assert (Ci : (i = 1 \/ i = 2)%Z) by lia. destruct Ci as [-> | -> ].
  - assert (T0 : transmission 0 3 3 eg_cam p (ceil_smoke 1) = 1) by (unfold transmission, ceil_smoke; cbn [Z.eqb Pos.eqb]; rewrite rdot_zeros, Ropp_0; apply exp_0).
    rewrite T0. split; [lra|]. apply close_bounds.
    assert (S : seen (ceil_photo 1) 1 q = 8000%Z) by (destruct j as [|[|[|j]]]; cbn [nth_error] in Hq; [| | |destruct j; discriminate]; apply Some_inj in Hq; subst q; vm_compute; reflexivity).
    rewrite S. lra.
  - change (ceil_smoke 2) with [0; 0; ln 2]. rewrite (TR j p Hp).
    assert (S : seen (ceil_photo 2) 1 q = nth j [8000; 8000; 4000]%Z 0%Z) by (destruct j as [|[|[|j]]]; cbn [nth_error] in Hq; [| | |destruct j; discriminate]; apply Some_inj in Hq; subst q; vm_compute; reflexivity).
    rewrite S. destruct j as [|[|[|j]]]; cbn [nth_error] in Hq; [| | |destruct j; discriminate]; cbn [nth]; (split; [lra|]); apply close_bounds; lra.
Qed.

(** The heights 0 (camera), 1, 2 and 3 are spread over the three layers. *)
Lemma ceil_heights : enough_heights 0 3 3 [0; 1; 2; 3].
Proof.
  intros i j Hij. exists (map INR (seq i (j - i + 1))). split; [|split; [rewrite map_length, seq_length; lia|]].
  - assert (G : forall l, NoDup l -> NoDup (map INR l)).
    { clear. intros l N. induction N as [|x l N1 N2 IH]; cbn [map]; constructor; [|exact IH]. intros C. apply in_map_iff in C. destruct C as (y & E & Hy). apply INR_eq in E. subst. contradiction. }
    apply G. apply seq_NoDup.
  - intros z Hz. apply in_map_iff in Hz. destruct Hz as (k & <- & Hk). apply in_seq in Hk. replace ((3 - 0) / INR 3) with 1 by (simpl; field). split.
    + assert (K : (k = 0 \/ k = 1 \/ k = 2 \/ k = 3)%nat) by lia. destruct K as [-> |[-> |[-> | -> ]]]; cbn [INR]; [left|right; left|right; right; left|right; right; right; left]; lra.
    + assert (INR i <= INR k) by (apply le_INR; lia). assert (INR k <= INR j) by (apply le_INR; lia). lra.
Qed.

(** The constant is the same for every regularisation; without it what remains is the
    rounding of the table. *)
Example C120_photographs_example : exists K, 0 < K /\ forall nnls lambda cpus, 0 <= lambda -> nnls_contract nnls ->
  let st1 := exec_all [Step1 (wall_env []); NewProcess] (fun _ => None, None) in
  let s2 := fst (exec (Step2 (wall_env [[1; 0]%Z])) st1) in
  let q := ln (1 - relative_error 0) * ln (1 - relative_error 0) in
  exists t arrays x1 x2,
    create_table isort None ceil_files None 1 2 0 = Ok t /\ load_indices 1 None s2 = Ok arrays /\
    analyse_array nnls lambda 0 3 3 eg_cam eg_coords (nth_error arrays 0) t 0 "sum_col_val" None 1 cpus [1; 0]%nat = Ok [x1; x2] /\
    sq_dist x1 [0; 0; 0] <= K * q /\ sq_dist x2 [0; 0; ln 2] <= K * (q + lambda * (ln 2 * ln 2)).
Proof.
  destruct (C120_from_the_photographs 0 3 3 eg_cam eg_coords [1; 2; 3]) as (K & HK & Main).
  { lia. }
  { lra. }
  { unfold within, eg_cam. cbn [pz]. lra. }
  { unfold eg_coords. repeat (constructor; [unfold in_view, within, eg_cam; cbn [pz]; split; [lra|split; [lra|intros C; exfalso; lra]]|]). constructor. }
  { unfold eg_coords. repeat (constructor; [left; unfold eg_cam; cbn [pz]; split; [lra|reflexivity]|]). constructor. }
  { exact ceil_heights. }
  exists K. split; [exact HK|]. intros nnls lambda cpus Hlam Hnnls st1 s2. cbv zeta.
  assert (L2 : 0 < ln 2) by (rewrite <- ln_1; apply ln_increasing; lra).
  assert (Nn : forall a b c, (0 <= a)%Z -> (0 <= b)%Z -> (0 <= c)%Z -> nonneg_image (wall a b c)).
  { intros a b c Ha Hb Hc y x _. cbn [wall Step1_Model.px]. destruct (y =? 2)%Z; [|lia]. destruct (x =? 2)%Z; [lia|]. destruct (x =? 5)%Z; [lia|]. destruct (x =? 8)%Z; lia. }
  assert (Ha : fst st1 KAreas = Some (Rows [(0, (2, 8)); (1, (2, 2)); (2, (2, 5))]%Z)) by (clear; vm_compute; reflexivity).
  assert (He : forall rows, fst st1 KAreas = Some (Rows rows) -> edges_entered rows wall_lamps [[1; 0]%Z]).
  { intros rows H. rewrite Ha in H. apply Some_inj in H. injection H as <-. apply Forall2_cons; [|apply Forall2_nil].
    exists 1%Z, 0%Z, (0, 0)%Z. split; [reflexivity|]. split; [cbn; tauto|]. split; [cbn; tauto|discriminate]. }
  assert (Hm : mml_ok scan) by apply scan_ok.
  assert (Hne : nonempty_image (wall 8000 7900 8100)) by (split; reflexivity).
  assert (Hnn : nonneg_image (wall 8000 7900 8100)) by (apply Nn; lia).
  assert (Hp : percentile (pixels (wall 8000 7900 8100)) 90 = Ok (0 # 100)) by (clear; vm_compute; reflexivity).
  assert (Two : Forall (fun A : list loc => (2 <= List.length A)%nat) wall_lamps) by (apply Forall_cons; [cbn; lia|apply Forall_nil]).
  pose proof (C102_extraction (wall_env []) (wall_env [[1; 0]%Z]) (fun _ => None, None) (wall 8000 7900 8100) (0 # 100) wall_lamps [] Hm eq_refl Hne Hnn ltac:(cbn; lia) Hp wall_spots
    ltac:(cbn; lia) (fun _ => conj eq_refl eq_refl) ltac:(discriminate) Two wall_straight eq_refl eq_refl He) as T. cbv zeta in T. destruct T as (_ & _ & X1 & X2 & _).
  fold st1 in X1, X2. fold s2 in X1, X2.
  assert (Gen : forall i, generate_analysis_data None (ceil_photo i) 1 (concat (Extract_Props.blocks 0 wall_lamps)) [[2; 1; 0]%Z] 0 = Ok (ceil_recs i)).
  { intros i. unfold ceil_recs. unfold ceil_photo. clear. destruct (i =? 1)%Z; vm_compute; reflexivity. }
  destruct (Main (wall_env []) (wall_env [[1; 0]%Z]) (fun _ => None, None) (wall 8000 7900 8100) (0 # 100) wall_lamps []
    ceil_photo ceil_files ceil_recs isort None None 1%Z 2%Z 0%Z 0%nat [(2, 2); (2, 5); (2, 8)]%Z [eg_coords] None 1%Z nnls lambda 0 ceil_smoke (fun _ => 8000) cpus [1; 0]%nat)
    as (t & arrays & xs & T1 & T2 & T3 & T4 & T5).
  - exact Hm.
  - reflexivity.
  - exact Hne.
  - apply Nn; lia.
  - cbn. lia.
  - exact Hp.
  - exact wall_spots.
  - cbn. lia.
  - intros rows. split; reflexivity.
  - exact Two.
  - exact wall_straight.
  - reflexivity.
  - reflexivity.
  - exact He.
  - change (1 <= 2)%Z. lia.
  - intros i _. unfold ceil_photo. destruct (i =? 1)%Z; (split; [reflexivity|]); (split; [reflexivity|]); apply Nn; lia.
  - intros i areas arrays _ La Li. fold st1 in La, Li. fold s2 in La, Li. cbv zeta in La, Li. rewrite X1 in La. apply Ok_inj in La. subst areas.
    rewrite X2 in Li. apply Ok_inj in Li. subst arrays. split; [exact (Gen i)|]. split; [|exact I]. do 4 eexists. reflexivity.
  - exact isort_sorts.
  - reflexivity.
  - reflexivity.
  - reflexivity.
  - intros i Hi. unfold ceil_smoke. destruct (i =? 1)%Z.
    + split; [reflexivity|apply zeros_nonneg].
    + split; [reflexivity|]. unfold nonneg. repeat (constructor; [lra|]). constructor.
  - intros i Hi Hr. cbn [is_reference] in Hr. assert (i = 1)%Z by (change (1 <= i <= 2)%Z in Hi; lia). subst i. reflexivity.
  - exists 1%Z. split; [change (1 <= 1 <= 2)%Z; lia|]. cbn. lia.
  - lra.
  - unfold table_error. lra.
  - exact ceil_seen.
  - exact Hlam.
  - exact Hnnls.
  - apply perm_swap.
  - fold st1 in T2. fold s2 in T2. change (Z.to_nat (number_of_images None 1 2 0)) with 2%nat in T4.
    destruct xs as [|x1 [|x2 [|x3 xs]]]; try discriminate T4. exists t, arrays, x1, x2. split; [exact T1|]. split; [exact T2|]. split; [exact T3|]. split.
    + replace (ln (1 - relative_error 0) * ln (1 - relative_error 0)) with (ln (1 - relative_error 0) * ln (1 - relative_error 0) + lambda * penalty (ceil_smoke 1)).
      2: { unfold penalty, ceil_smoke. cbn [Z.eqb Pos.eqb List.length repeat Nat.leb roughness]. ring. }
      apply (T5 1%Z x1); [change (1 <= 1 <= 2)%Z; lia|reflexivity].
    + replace (lambda * (ln 2 * ln 2)) with (lambda * penalty (ceil_smoke 2)).
      2: { unfold penalty, ceil_smoke. cbn [Z.eqb Pos.eqb List.length repeat Nat.leb roughness]. ring. }
      apply (T5 2%Z x2); [change (1 <= 2 <= 2)%Z; lia|reflexivity].
Qed.
