(** C121: from photographs to smoke with the non-linear solver. *)
From Coq Require Import ZArith QArith Lia Bool String List Permutation Reals Lra.
From Verif Require Import Base Step1_Model Step1_Spec Step1_Proofs Step2_Model Step2_Spec Step2_Proofs Step2_GeoSpec Step2_GeoProps Step2_Geometry Nearly_Props Step3_Model Step3_Spec Step3_Props
  Pipeline_Model Pipeline_Props Dir_Model Dir_Props Extract_Props Format_Model Table_Model Table_Spec Table_Props Analysis_Model Analysis_Props
  Layers_Model Layers_Spec Layers_Props Solver_Model Solver_Props Stable_Props Nnls_Props End_Model End_Props Separate_Proofs Separate_Props Linear_Proofs Linear_Props Minimiser_Props NonLinear_Proofs NonLinear_Props NonLinear_End Photos_Props Profile_Photos.
Import ListNotations.
Local Open Scope R_scope.

(** C104 with the non-linear solver, for smoke of any profile within the bounds. *)
Theorem C121_from_the_photographs : forall bot top nlay cam ps H,
  (1 <= nlay)%nat -> bot < top -> within bot top (pz cam) -> Forall (in_view bot top cam) ps ->
  Forall2 (counts_at bot top nlay cam) ps H -> enough_heights bot top nlay (pz cam :: H) ->
  exists K, 0 < K /\
  forall E1 E2 st img thr lamps strays photo files recs srt coord overflow first last skip a A places
         indices num minimize wc wp eps smoke bright cpus order,
  (* the reference image and what the user enters *)
  let P := concat lamps ++ strays in
  let r := e_radius E1 in
  mml_ok (e_mml E1) -> e_image E1 = Ok img -> nonempty_image img -> nonneg_image img -> (1 <= r)%Z ->
  percentile (pixels img) (e_percentile E1) = Ok thr -> spots img r thr P -> (Z.of_nat (List.length P) <= e_max_leds E1)%Z ->
  (forall rows, e_plot E1 rows = true /\ e_plot E2 rows = true) ->
  Forall (fun A => (2 <= List.length A)%nat) lamps -> lamps_straight lamps P ->
  e_geo E2 = real_geometry -> e_ignored E2 = [] ->
  let st1 := exec_all [Step1 E1; NewProcess] st in
  (forall rows, fst st1 KAreas = Some (Rows rows) -> edges_entered rows lamps (e_edges E2)) ->
  let s2 := fst (exec (Step2 E2) st1) in
  (* the photographs and the result files *)
  let n := number_of_images overflow first last skip in
  (1 <= n)%Z ->
  (forall i, (1 <= i <= n)%Z -> ih (photo i) = ih img /\ iw (photo i) = iw img /\ nonneg_image (photo i)) ->
  (forall i areas arrays, (1 <= i <= n)%Z ->
     load_search_areas s2 = Ok areas -> load_indices (Z.of_nat (List.length lamps)) None s2 = Ok arrays ->
     generate_analysis_data None (photo i) r areas arrays 0 = Ok (recs i) /\
     (exists b name ch time, files i = Some (result_file b name ch time false (recs i))) /\
     coords_usable coord (recs i)) ->
  sorts srt ->
  (* the array, the room and the smoke *)
  nth_error lamps a = Some A -> map (@List.length _) lamps = map (@List.length _) places -> nth_error places a = Some ps ->
  (forall i, (1 <= i <= n)%Z -> List.length (smoke i) = nlay /\ in_bounds (smoke i)) ->
  (forall i, (1 <= i <= n)%Z -> is_reference indices num i -> smoke i = repeat 0 nlay) ->
  (exists i, (1 <= i <= n)%Z /\ is_reference indices num i) ->
  (* what the photographs show of the lamps of the array *)
  0 <= eps -> table_error eps < 1 / 3 ->
  (forall i j q p, (1 <= i <= n)%Z -> nth_error A j = Some q -> nth_error ps j = Some p ->
     0 < bright j /\ 1 / 10000000000 <= transmission bot top nlay cam p (smoke i) /\
     close_to (bright j * transmission bot top nlay cam p (smoke i)) eps (IZR (seen (photo i) r q))) ->
  0 <= wc -> minimize_contract minimize -> Permutation order (seq 0 (Z.to_nat n)) ->
  exists t arrays xs,
    create_table srt coord files overflow first last skip = Ok t /\
    load_indices (Z.of_nat (List.length lamps)) None s2 = Ok arrays /\
    analyse_nonlinear minimize wc wp bot top nlay cam (concat places) (nth_error arrays a) t (Z.of_nat a) "sum_col_val" indices num cpus order = Ok xs /\
    List.length xs = Z.to_nat n /\
    forall i x, (1 <= i <= n)%Z -> nth_error xs (Z.to_nat (i - 1)) = Some x ->
      List.length x = nlay /\ sqrt (sq_dist x (smoke i)) <= K * (relative_error eps + wc * bend (smoke i) + Rabs wp).
Proof.
  intros bot top nlay cam ps H Hlay Hbt Hc Hview HH Hen.
  destruct (any_profile_recovered bot top nlay cam ps H Hlay Hbt Hc Hview HH Hen) as (K & HK & Main). exists K. split; [exact HK|].
  intros E1 E2 st img thr lamps strays photo files recs srt coord overflow first last skip a A places
    indices num minimize wc wp eps smoke bright cpus order P r
    Hm Hi Hne Hnn Hr Hp Hs Hk Hpl Hl2 Hst Hg Hig st1 He s2 n Hn Hph Hrec Hsrt HA Hpls Hps Hsm Hsm0 Href Heps Heps' Hmeas Hwc Hmin Hord.
  apply (photographs_with E1 E2 st img thr lamps strays photo files recs srt coord overflow first last skip a A places ps indices num bot top nlay cam (solve_nonlinear minimize wc wp nlay) in_bounds
    (fun s x => List.length x = nlay /\ sqrt (sq_dist x s) <= K * (relative_error eps + wc * bend s + Rabs wp)) eps smoke bright cpus order); try assumption.
  - apply Main; assumption.
  - intros i Hi'. destruct (Hsm i Hi') as (S1 & S2). split; [exact S1|]. split; [apply in_bounds_nonneg; exact S2|exact S2].
Qed.
Print Assumptions C121_from_the_photographs.

(** Two LEDs and smoke which is linear in height. *)
Theorem C121_two_leds_from_the_photographs : forall bot top nlay cam wc ps p1 p2,
  (3 <= nlay)%nat -> bot < top -> within bot top (pz cam) -> Forall (in_view bot top cam) ps ->
  In p1 ps -> In p2 ps -> pz p1 <> pz p2 -> ~ one_layer bot top nlay (pz cam) (pz p1) (pz p2) -> 0 < wc ->
  exists K, 0 < K /\
  forall E1 E2 st img thr lamps strays photo files recs srt coord overflow first last skip a A places
         indices num minimize wp eps smoke bright cpus order,
  (* the reference image and what the user enters *)
  let P := concat lamps ++ strays in
  let r := e_radius E1 in
  mml_ok (e_mml E1) -> e_image E1 = Ok img -> nonempty_image img -> nonneg_image img -> (1 <= r)%Z ->
  percentile (pixels img) (e_percentile E1) = Ok thr -> spots img r thr P -> (Z.of_nat (List.length P) <= e_max_leds E1)%Z ->
  (forall rows, e_plot E1 rows = true /\ e_plot E2 rows = true) ->
  Forall (fun A => (2 <= List.length A)%nat) lamps -> lamps_straight lamps P ->
  e_geo E2 = real_geometry -> e_ignored E2 = [] ->
  let st1 := exec_all [Step1 E1; NewProcess] st in
  (forall rows, fst st1 KAreas = Some (Rows rows) -> edges_entered rows lamps (e_edges E2)) ->
  let s2 := fst (exec (Step2 E2) st1) in
  (* the photographs and the result files *)
  let n := number_of_images overflow first last skip in
  (1 <= n)%Z ->
  (forall i, (1 <= i <= n)%Z -> ih (photo i) = ih img /\ iw (photo i) = iw img /\ nonneg_image (photo i)) ->
  (forall i areas arrays, (1 <= i <= n)%Z ->
     load_search_areas s2 = Ok areas -> load_indices (Z.of_nat (List.length lamps)) None s2 = Ok arrays ->
     generate_analysis_data None (photo i) r areas arrays 0 = Ok (recs i) /\
     (exists b name ch time, files i = Some (result_file b name ch time false (recs i))) /\
     coords_usable coord (recs i)) ->
  sorts srt ->
  (* the array, the room and the smoke *)
  nth_error lamps a = Some A -> map (@List.length _) lamps = map (@List.length _) places -> nth_error places a = Some ps ->
  (forall i, (1 <= i <= n)%Z -> List.length (smoke i) = nlay /\ in_bounds (smoke i) /\ progression (smoke i)) ->
  (forall i, (1 <= i <= n)%Z -> is_reference indices num i -> smoke i = repeat 0 nlay) ->
  (exists i, (1 <= i <= n)%Z /\ is_reference indices num i) ->
  (* what the photographs show of the lamps of the array *)
  0 <= eps -> table_error eps < 1 / 3 ->
  (forall i j q p, (1 <= i <= n)%Z -> nth_error A j = Some q -> nth_error ps j = Some p ->
     0 < bright j /\ 1 / 10000000000 <= transmission bot top nlay cam p (smoke i) /\
     close_to (bright j * transmission bot top nlay cam p (smoke i)) eps (IZR (seen (photo i) r q))) ->
  minimize_contract minimize -> Permutation order (seq 0 (Z.to_nat n)) ->
  exists t arrays xs,
    create_table srt coord files overflow first last skip = Ok t /\
    load_indices (Z.of_nat (List.length lamps)) None s2 = Ok arrays /\
    analyse_nonlinear minimize wc wp bot top nlay cam (concat places) (nth_error arrays a) t (Z.of_nat a) "sum_col_val" indices num cpus order = Ok xs /\
    List.length xs = Z.to_nat n /\
    forall i x, (1 <= i <= n)%Z -> nth_error xs (Z.to_nat (i - 1)) = Some x ->
      List.length x = nlay /\ sqrt (sq_dist x (smoke i)) <= K * (relative_error eps + Rabs wp).
Proof.
  intros bot top nlay cam wc ps p1 p2 Hlay Hbt Hc Hview I1 I2 N12 NO Hwc.
  destruct (linear_profile_recovered bot top nlay cam wc ps p1 p2 Hlay Hbt Hc Hview I1 I2 N12 NO Hwc) as (K & HK & Main). exists K. split; [exact HK|].
  intros E1 E2 st img thr lamps strays photo files recs srt coord overflow first last skip a A places
    indices num minimize wp eps smoke bright cpus order P r
    Hm Hi Hne Hnn Hr Hp Hs Hk Hpl Hl2 Hst Hg Hig st1 He s2 n Hn Hph Hrec Hsrt HA Hpls Hps Hsm Hsm0 Href Heps Heps' Hmeas Hmin Hord.
  apply (photographs_with E1 E2 st img thr lamps strays photo files recs srt coord overflow first last skip a A places ps indices num bot top nlay cam (solve_nonlinear minimize wc wp nlay) (fun s => in_bounds s /\ progression s)
    (fun s x => List.length x = nlay /\ sqrt (sq_dist x s) <= K * (relative_error eps + Rabs wp)) eps smoke bright cpus order); try assumption; try lia.
  - apply Main; assumption.
  - intros i Hi'. destruct (Hsm i Hi') as (S1 & S2 & S3). split; [exact S1|]. split; [apply in_bounds_nonneg; exact S2|]. split; assumption.
Qed.
Print Assumptions C121_two_leds_from_the_photographs.

(** ** Examples *)
(** The smoke of the example of C120: the constant is the same for all weights
    and every solver which keeps its contract (there is one: C121_contract_can_be_met). *)
Example C121_photographs_example : exists K, 0 < K /\ forall minimize wc wp cpus, 0 <= wc -> minimize_contract minimize ->
  let st1 := exec_all [Step1 (wall_env []); NewProcess] (fun _ => None, None) in
  let s2 := fst (exec (Step2 (wall_env [[1; 0]%Z])) st1) in
  exists t arrays x1 x2,
    create_table isort None ceil_files None 1 2 0 = Ok t /\ load_indices 1 None s2 = Ok arrays /\
    analyse_nonlinear minimize wc wp 0 3 3 eg_cam eg_coords (nth_error arrays 0) t 0 "sum_col_val" None 1 cpus [1; 0]%nat = Ok [x1; x2] /\
    sqrt (sq_dist x1 [0; 0; 0]) <= K * (relative_error 0 + Rabs wp) /\ sqrt (sq_dist x2 [0; 0; ln 2]) <= K * (relative_error 0 + wc * ln 2 + Rabs wp).
Proof.
  destruct (C121_from_the_photographs 0 3 3 eg_cam eg_coords [1; 2; 3]) as (K & HK & Main).
  { lia. }
  { lra. }
  { unfold within, eg_cam. cbn [pz]. lra. }
  { unfold eg_coords. repeat (constructor; [unfold in_view, within, eg_cam; cbn [pz]; split; [lra|split; [lra|intros C; exfalso; lra]]|]). constructor. }
  { unfold eg_coords. repeat (constructor; [left; unfold eg_cam; cbn [pz]; split; [lra|reflexivity]|]). constructor. }
  { exact ceil_heights. }
  exists K. split; [exact HK|]. intros minimize wc wp cpus Hwc Hmin st1 s2. cbv zeta.
  assert (L2 : 0 < ln 2 < 1) by exact ln_2_range.
  assert (Nn : forall a b c, (0 <= a)%Z -> (0 <= b)%Z -> (0 <= c)%Z -> nonneg_image (wall a b c)).
  { intros a b c Ha Hb Hc y x _. cbn [wall Step1_Model.px]. destruct (y =? 2)%Z; [|lia]. destruct (x =? 2)%Z; [lia|]. destruct (x =? 5)%Z; [lia|]. destruct (x =? 8)%Z; lia. }
  assert (Ha : fst st1 KAreas = Some (Rows [(0, (2, 8)); (1, (2, 2)); (2, (2, 5))]%Z)) by (clear; vm_compute; reflexivity).
  assert (He : forall rows, fst st1 KAreas = Some (Rows rows) -> edges_entered rows wall_lamps [[1; 0]%Z]).
  { intros rows H. rewrite Ha in H. apply Some_inj in H. injection H as <-. apply Forall2_cons; [|apply Forall2_nil].
    exists 1%Z, 0%Z, (0, 0)%Z. split; [reflexivity|]. split; [cbn; tauto|]. split; [cbn; tauto|discriminate]. }
  assert (Hm : mml_ok scan) by apply scan_ok.
  assert (Hne : nonempty_image (wall 8000 7900 8100)) by (split; reflexivity).
  assert (Hnn : nonneg_image (wall 8000 7900 8100)) by (apply Nn; lia).
  assert (Hp : percentile (pixels (wall 8000 7900 8100)) 90 = Ok (0 # 100)) by (clear; vm_compute; reflexivity).
  assert (Two : Forall (fun A : list loc => (2 <= List.length A)%nat) wall_lamps) by (apply Forall_cons; [cbn; lia|apply Forall_nil]).
  pose proof (C102_extraction (wall_env []) (wall_env [[1; 0]%Z]) (fun _ => None, None) (wall 8000 7900 8100) (0 # 100) wall_lamps [] Hm eq_refl Hne Hnn ltac:(cbn; lia) Hp wall_spots
    ltac:(cbn; lia) (fun _ => conj eq_refl eq_refl) ltac:(discriminate) Two wall_straight eq_refl eq_refl He) as T. cbv zeta in T. destruct T as (_ & _ & X1 & X2 & _).
  fold st1 in X1, X2. fold s2 in X1, X2.
  assert (Gen : forall i, generate_analysis_data None (ceil_photo i) 1 (concat (Extract_Props.blocks 0 wall_lamps)) [[2; 1; 0]%Z] 0 = Ok (ceil_recs i)).
  { intros i. unfold ceil_recs. unfold ceil_photo. clear. destruct (i =? 1)%Z; vm_compute; reflexivity. }
  destruct (Main (wall_env []) (wall_env [[1; 0]%Z]) (fun _ => None, None) (wall 8000 7900 8100) (0 # 100) wall_lamps []
    ceil_photo ceil_files ceil_recs isort None None 1%Z 2%Z 0%Z 0%nat [(2, 2); (2, 5); (2, 8)]%Z [eg_coords] None 1%Z minimize wc wp 0 ceil_smoke (fun _ => 8000) cpus [1; 0]%nat)
    as (t & arrays & xs & T1 & T2 & T3 & T4 & T5).
  - exact Hm.
  - reflexivity.
  - exact Hne.
  - apply Nn; lia.
  - cbn. lia.
  - exact Hp.
  - exact wall_spots.
  - cbn. lia.
  - intros rows. split; reflexivity.
  - exact Two.
  - exact wall_straight.
  - reflexivity.
  - reflexivity.
  - exact He.
  - change (1 <= 2)%Z. lia.
  - intros i _. unfold ceil_photo. destruct (i =? 1)%Z; (split; [reflexivity|]); (split; [reflexivity|]); apply Nn; lia.
  - intros i areas arrays _ La Li. fold st1 in La, Li. fold s2 in La, Li. cbv zeta in La, Li. rewrite X1 in La. apply Ok_inj in La. subst areas.
    rewrite X2 in Li. apply Ok_inj in Li. subst arrays. split; [exact (Gen i)|]. split; [|exact I]. do 4 eexists. reflexivity.
  - exact isort_sorts.
  - reflexivity.
  - reflexivity.
  - reflexivity.
  - intros i Hi. unfold ceil_smoke. destruct (i =? 1)%Z.
    + split; [reflexivity|]. cbn [repeat]. unfold in_bounds. repeat (constructor; [lra|]). constructor.
    + split; [reflexivity|]. unfold in_bounds. repeat (constructor; [lra|]). constructor.
  - intros i Hi Hr. cbn [is_reference] in Hr. assert (i = 1)%Z by (change (1 <= i <= 2)%Z in Hi; lia). subst i. reflexivity.
  - exists 1%Z. split; [change (1 <= 1 <= 2)%Z; lia|]. cbn. lia.
  - lra.
  - unfold table_error. lra.
  - exact ceil_seen.
  - exact Hwc.
  - exact Hmin.
  - apply perm_swap.
  - fold st1 in T2. fold s2 in T2. change (Z.to_nat (number_of_images None 1 2 0)) with 2%nat in T4.
    destruct xs as [|x1 [|x2 [|x3 xs]]]; try discriminate T4. exists t, arrays, x1, x2. split; [exact T1|]. split; [exact T2|]. split; [exact T3|]. split.
    + replace (relative_error 0 + Rabs wp) with (relative_error 0 + wc * bend (ceil_smoke 1) + Rabs wp).
      2: { unfold ceil_smoke. cbn [Z.eqb Pos.eqb repeat bend]. replace (0 - 2 * 0 + 0) with 0 by ring. rewrite Rabs_R0. ring. }
      apply (T5 1%Z x1); [change (1 <= 1 <= 2)%Z; lia|reflexivity].
    + replace (wc * ln 2) with (wc * bend (ceil_smoke 2)).
      2: { unfold ceil_smoke. cbn [Z.eqb Pos.eqb bend]. replace (0 - 2 * 0 + ln 2) with (ln 2) by ring. rewrite Rabs_pos_eq by lra. ring. }
      apply (T5 2%Z x2); [change (1 <= 2 <= 2)%Z; lia|reflexivity].
Qed.

(** The smoke of the example of C104; only two of the three LEDs are needed for the constant. *)
Example C121_two_leds_photographs_example : forall wc, 0 < wc -> exists K, 0 < K /\ forall minimize wp cpus, minimize_contract minimize ->
  let st1 := exec_all [Step1 (wall_env []); NewProcess] (fun _ => None, None) in
  let s2 := fst (exec (Step2 (wall_env [[1; 0]%Z])) st1) in
  exists t arrays x1 x2,
    create_table isort None wall_files None 1 2 0 = Ok t /\ load_indices 1 None s2 = Ok arrays /\
    analyse_nonlinear minimize wc wp 0 3 3 eg_cam eg_coords (nth_error arrays 0) t 0 "sum_col_val" None 1 cpus [1; 0]%nat = Ok [x1; x2] /\
    sqrt (sq_dist x1 [0; 0; 0]) <= K * (relative_error 0 + Rabs wp) /\ sqrt (sq_dist x2 [ln 2; ln 2; ln 2]) <= K * (relative_error 0 + Rabs wp).
Proof.
  intros wc Hwc. destruct (C121_two_leds_from_the_photographs 0 3 3 eg_cam wc eg_coords (Point 0 0 1) (Point 0 0 3)) as (K & HK & Main).
  { lia. }
  { lra. }
  { unfold within, eg_cam. cbn [pz]. lra. }
  { unfold eg_coords. repeat (constructor; [unfold in_view, within, eg_cam; cbn [pz]; split; [lra|split; [lra|intros C; exfalso; lra]]|]). constructor. }
  { left. reflexivity. }
  { right. right. left. reflexivity. }
  { cbn [pz]. lra. }
  { intros (k & _ & B). unfold eg_cam in B. cbn [pz] in B. replace ((3 - 0) / INR 3) with 1 in B by (simpl; field).
    pose proof (B 0 (or_introl eq_refl)). pose proof (B 3 (or_intror (or_intror (or_introl eq_refl)))). rewrite S_INR in *. lra. }
  { exact Hwc. }
  exists K. split; [exact HK|]. intros minimize wp cpus Hmin st1 s2. cbv zeta.
  assert (L2 : 0 < ln 2 < 1) by exact ln_2_range.
  assert (Nn : forall a b c, (0 <= a)%Z -> (0 <= b)%Z -> (0 <= c)%Z -> nonneg_image (wall a b c)).
  { intros a b c Ha Hb Hc y x _. cbn [wall Step1_Model.px]. destruct (y =? 2)%Z; [|lia]. destruct (x =? 2)%Z; [lia|]. destruct (x =? 5)%Z; [lia|]. destruct (x =? 8)%Z; lia. }
  assert (Ha : fst st1 KAreas = Some (Rows [(0, (2, 8)); (1, (2, 2)); (2, (2, 5))]%Z)) by (clear; vm_compute; reflexivity).
  assert (He : forall rows, fst st1 KAreas = Some (Rows rows) -> edges_entered rows wall_lamps [[1; 0]%Z]).
  { intros rows H. rewrite Ha in H. apply Some_inj in H. injection H as <-. apply Forall2_cons; [|apply Forall2_nil].
    exists 1%Z, 0%Z, (0, 0)%Z. split; [reflexivity|]. split; [cbn; tauto|]. split; [cbn; tauto|discriminate]. }
  assert (Hm : mml_ok scan) by apply scan_ok.
  assert (Hne : nonempty_image (wall 8000 7900 8100)) by (split; reflexivity).
  assert (Hnn : nonneg_image (wall 8000 7900 8100)) by (apply Nn; lia).
  assert (Hp : percentile (pixels (wall 8000 7900 8100)) 90 = Ok (0 # 100)) by (clear; vm_compute; reflexivity).
  assert (Two : Forall (fun A : list loc => (2 <= List.length A)%nat) wall_lamps) by (apply Forall_cons; [cbn; lia|apply Forall_nil]).
  pose proof (C102_extraction (wall_env []) (wall_env [[1; 0]%Z]) (fun _ => None, None) (wall 8000 7900 8100) (0 # 100) wall_lamps [] Hm eq_refl Hne Hnn ltac:(cbn; lia) Hp wall_spots
    ltac:(cbn; lia) (fun _ => conj eq_refl eq_refl) ltac:(discriminate) Two wall_straight eq_refl eq_refl He) as T. cbv zeta in T. destruct T as (_ & _ & X1 & X2 & _).
  fold st1 in X1, X2. fold s2 in X1, X2.
  assert (Gen : forall i, generate_analysis_data None (wall_photo i) 1 (concat (Extract_Props.blocks 0 wall_lamps)) [[2; 1; 0]%Z] 0 = Ok (wall_recs i)).
  { intros i. unfold wall_recs. unfold wall_photo. clear. destruct (i =? 1)%Z; vm_compute; reflexivity. }
  destruct (Main (wall_env []) (wall_env [[1; 0]%Z]) (fun _ => None, None) (wall 8000 7900 8100) (0 # 100) wall_lamps []
    wall_photo wall_files wall_recs isort None None 1%Z 2%Z 0%Z 0%nat [(2, 2); (2, 5); (2, 8)]%Z [eg_coords] None 1%Z minimize wp 0 eg_smoke (fun _ => 8000) cpus [1; 0]%nat)
    as (t & arrays & xs & T1 & T2 & T3 & T4 & T5).
  - exact Hm.
  - reflexivity.
  - exact Hne.
  - apply Nn; lia.
  - cbn. lia.
  - exact Hp.
  - exact wall_spots.
  - cbn. lia.
  - intros rows. split; reflexivity.
  - exact Two.
  - exact wall_straight.
  - reflexivity.
  - reflexivity.
  - exact He.
  - change (1 <= 2)%Z. lia.
  - intros i _. unfold wall_photo. destruct (i =? 1)%Z; (split; [reflexivity|]); (split; [reflexivity|]); apply Nn; lia.
  - intros i areas arrays _ La Li. fold st1 in La, Li. fold s2 in La, Li. cbv zeta in La, Li. rewrite X1 in La. apply Ok_inj in La. subst areas.
    rewrite X2 in Li. apply Ok_inj in Li. subst arrays. split; [exact (Gen i)|]. split; [|exact I]. do 4 eexists. reflexivity.
  - exact isort_sorts.
  - reflexivity.
  - reflexivity.
  - reflexivity.
  - intros i Hi. unfold eg_smoke. destruct (i =? 1)%Z.
    + split; [reflexivity|]. split; [cbn [repeat]; unfold in_bounds; repeat (constructor; [lra|]); constructor|apply zeros_progression].
    + split; [reflexivity|]. split; [unfold in_bounds; repeat (constructor; [lra|]); constructor|]. exists (ln 2), 0. cbn [List.length seq map]. f_equal; [lra|]. f_equal; [lra|]. f_equal. lra.
  - intros i Hi Hr. cbn [is_reference] in Hr. assert (i = 1)%Z by (change (1 <= i <= 2)%Z in Hi; lia). subst i. reflexivity.
  - exists 1%Z. split; [change (1 <= 1 <= 2)%Z; lia|]. cbn. lia.
  - lra.
  - unfold table_error. lra.
  - exact wall_seen.
  - exact Hmin.
  - apply perm_swap.
  - fold st1 in T2. fold s2 in T2. change (Z.to_nat (number_of_images None 1 2 0)) with 2%nat in T4.
    destruct xs as [|x1 [|x2 [|x3 xs]]]; try discriminate T4. exists t, arrays, x1, x2. split; [exact T1|]. split; [exact T2|]. split; [exact T3|]. split.
    + apply (T5 1%Z x1); [change (1 <= 1 <= 2)%Z; lia|reflexivity].
    + apply (T5 2%Z x2); [change (1 <= 2 <= 2)%Z; lia|reflexivity].
Qed.
