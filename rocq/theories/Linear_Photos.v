(** C119: from photographs of two LEDs to smoke which is linear in height. *)
From Coq Require Import ZArith QArith Lia Bool String List Permutation Reals Lra.
From Verif Require Import Base Step1_Model Step1_Spec Step1_Proofs Step2_Model Step2_Spec Step2_Proofs Step2_GeoSpec Step2_GeoProps Step2_Geometry Nearly_Props Step3_Model Step3_Spec Step3_Props
  Pipeline_Model Pipeline_Props Dir_Model Dir_Props Extract_Props Format_Model Table_Model Table_Spec Table_Props Analysis_Model Analysis_Props
  Layers_Model Layers_Spec Layers_Props Solver_Model Solver_Props Stable_Props Nnls_Props End_Model End_Props Separate_Proofs Separate_Props Linear_Proofs Linear_Props Photos_Props.
Import ListNotations.
Local Open Scope R_scope.

(** C104 with two LEDs that are neither at one height nor together with the camera in
    one layer, in place of one LED or more for every layer. *)
Theorem C119_from_the_photographs : forall bot top nlay cam lambda ps p1 p2,
  (3 <= nlay)%nat -> bot < top -> within bot top (pz cam) -> Forall (in_view bot top cam) ps ->
  In p1 ps -> In p2 ps -> pz p1 <> pz p2 -> ~ one_layer bot top nlay (pz cam) (pz p1) (pz p2) -> 0 < lambda ->
  exists K, 0 < K /\
  forall E1 E2 st img thr lamps strays photo files recs srt coord overflow first last skip a A places
         indices num nnls eps smoke bright cpus order,
  (* the reference image and what the user enters *)
  let P := concat lamps ++ strays in
  let r := e_radius E1 in
  mml_ok (e_mml E1) -> e_image E1 = Ok img -> nonempty_image img -> nonneg_image img -> (1 <= r)%Z ->
  percentile (pixels img) (e_percentile E1) = Ok thr -> spots img r thr P -> (Z.of_nat (List.length P) <= e_max_leds E1)%Z ->
  (forall rows, e_plot E1 rows = true /\ e_plot E2 rows = true) ->
  Forall (fun A => (2 <= List.length A)%nat) lamps -> lamps_straight lamps P ->
  e_geo E2 = real_geometry -> e_ignored E2 = [] ->
  let st1 := exec_all [Step1 E1; NewProcess] st in
  (forall rows, fst st1 KAreas = Some (Rows rows) -> edges_entered rows lamps (e_edges E2)) ->
  let s2 := fst (exec (Step2 E2) st1) in
  (* the photographs and the result files *)
  let n := number_of_images overflow first last skip in
  (1 <= n)%Z ->
  (forall i, (1 <= i <= n)%Z -> ih (photo i) = ih img /\ iw (photo i) = iw img /\ nonneg_image (photo i)) ->
  (forall i areas arrays, (1 <= i <= n)%Z ->
     load_search_areas s2 = Ok areas -> load_indices (Z.of_nat (List.length lamps)) None s2 = Ok arrays ->
     generate_analysis_data None (photo i) r areas arrays 0 = Ok (recs i) /\
     (exists b name ch time, files i = Some (result_file b name ch time false (recs i))) /\
     coords_usable coord (recs i)) ->
  sorts srt ->
  (* the array, the room and the smoke *)
  nth_error lamps a = Some A -> map (@List.length _) lamps = map (@List.length _) places -> nth_error places a = Some ps ->
  (forall i, (1 <= i <= n)%Z -> List.length (smoke i) = nlay /\ nonneg (smoke i) /\ progression (smoke i)) ->
  (forall i, (1 <= i <= n)%Z -> is_reference indices num i -> smoke i = repeat 0 nlay) ->
  (exists i, (1 <= i <= n)%Z /\ is_reference indices num i) ->
  (* what the photographs show of the lamps of the array *)
  0 <= eps -> table_error eps < 1 / 3 ->
  (forall i j q p, (1 <= i <= n)%Z -> nth_error A j = Some q -> nth_error ps j = Some p ->
     0 < bright j /\ 1 / 10000000000 <= transmission bot top nlay cam p (smoke i) /\
     close_to (bright j * transmission bot top nlay cam p (smoke i)) eps (IZR (seen (photo i) r q))) ->
  nnls_contract nnls -> Permutation order (seq 0 (Z.to_nat n)) ->
  exists t arrays xs,
    create_table srt coord files overflow first last skip = Ok t /\
    load_indices (Z.of_nat (List.length lamps)) None s2 = Ok arrays /\
    analyse_array nnls lambda bot top nlay cam (concat places) (nth_error arrays a) t (Z.of_nat a) "sum_col_val" indices num cpus order = Ok xs /\
    List.length xs = Z.to_nat n /\
    forall i x, (1 <= i <= n)%Z -> nth_error xs (Z.to_nat (i - 1)) = Some x ->
      sq_dist x (smoke i) <= K * (ln (1 - relative_error eps) * ln (1 - relative_error eps)).
Proof.
  intros bot top nlay cam lambda ps p1 p2 Hlay Hbt Hc Hview I1 I2 N12 NO Hlam.
  destruct (C119_two_leds bot top nlay cam ps p1 p2 Hlay Hbt Hc Hview I1 I2 N12 NO) as (M & EM & T).
  apply (rows_visible bot top nlay ltac:(lia) Hbt cam ps M Hview) in EM. subst M. set (M := map (paths bot top nlay cam) ps) in *.
  assert (RowsM : rows_ok nlay M) by (unfold rows_ok, M; apply Forall_forall; intros r Hr; apply in_map_iff in Hr; destruct Hr as (p & <- & _); apply paths_length).
  assert (NonM : Forall nonneg M) by (unfold M; apply Forall_forall; intros r Hr; apply in_map_iff in Hr; destruct Hr as (p & <- & _); apply paths_nonneg).
  destruct (proj1 (C119_penalty_fills_the_gaps lambda nlay M Hlam Hlay RowsM) T) as (c & Hcc & Hz).
  exists (5 * INR (List.length M) / c). split.
  { apply Rdiv_lt_0_compat; [|exact Hcc]. assert (0 < INR (List.length M)); [|lra]. apply lt_0_INR. unfold M. rewrite map_length. destruct ps; [destruct I1|simpl; lia]. }
  intros E1 E2 st img thr lamps strays photo files recs srt coord overflow first last skip a A places
    indices num nnls eps smoke bright cpus order P r
    Hm Hi Hne Hnn Hr Hp Hs Hk Hpl Hl2 Hst Hg Hig st1 He s2 n Hn Hph Hrec Hsrt HA Hpls Hps Hsm Hsm0 Href Heps Heps' Hmeas Hnnls Hord.
  apply (photographs_if E1 E2 st img thr lamps strays photo files recs srt coord overflow first last skip a A places ps indices num bot top nlay cam nnls lambda progression (fun _ => 5 * INR (List.length M) / c * (ln (1 - relative_error eps) * ln (1 - relative_error eps))) eps smoke bright cpus order); try assumption; try lra; try lia.
  - exists c. split; [exact Hcc|]. intros z Lz. fold M. rewrite aug_norm by (assumption || lra). apply Hz. exact Lz.
  - cbv zeta. fold M. intros rel s Ls Ns Pr F Sol.
    replace (5 * INR (List.length M) / c * (ln (1 - relative_error eps) * ln (1 - relative_error eps))) with (5 * INR (List.length M) * (ln (1 - relative_error eps) * ln (1 - relative_error eps)) / c) by (unfold Rdiv; ring).
    apply (C119_noisy_profiles nnls lambda nlay M rel s c (relative_error eps)); try assumption; [lra|apply relative_error_range; assumption].
Qed.
Print Assumptions C119_from_the_photographs.

(** *** A concrete case: two of the three LEDs of the example of C104, one and three metres
    above the camera, three layers of one metre. *)
Definition pair_lamps : list (list loc) := [[(2, 2); (2, 8)]]%Z.
Definition pair_photo (i : Z) : image := if (i =? 1)%Z then wall 8000 0 8000 else wall 4000 0 1000.
Definition pair_env edges : env := Env scan (Ok (wall 8000 0 8100)) 1 90 10 real_geometry edges [] None (fun _ => true).
Definition pair_recs (i : Z) : list (led_data fit_data) :=
  match generate_analysis_data None (pair_photo i) 1 (concat (Extract_Props.blocks 0 pair_lamps)) [[1; 0]%Z] 0 with Ok ds => ds | Err _ => [] end.
Definition pair_files (i : Z) : option (list string) := Some (result_file "IMG_{}.JPG" "a" 0 "0" false (pair_recs i)).

Lemma pair_spots : spots (wall 8000 0 8100) 1 (0 # 100) (concat pair_lamps ++ []).
Proof.
  assert (V : forall p, In p (concat pair_lamps ++ []) -> (p = (2, 2) \/ p = (2, 8))%Z) by (intros p X; cbn in X; intuition congruence).
  split; [|split; [|split]].
  - cbn. do 2 (apply NoDup_cons; [cbn; intuition congruence|]). apply NoDup_nil.
  - intros p X. apply V in X. destruct X as [->| ->]; (split; [unfold in_image; cbn [fst snd wall ih iw]; lia|]); (split; [cbn; lia|]); (split; [cbn; lia|]); reflexivity.
  - intros p q X Y N [S1 S2]. apply V in X, Y. destruct X as [->| ->], Y as [->| ->]; cbn [fst snd] in S1, S2; try lia; congruence.
  - intros y x _ B. unfold brighter, Qlt in B. cbn [Qnum Qden inject_Z] in B. cbn [wall Step1_Model.px] in B |- *. left.
    destruct (Z.eqb_spec y 2); [|lia]. subst y. destruct (Z.eqb_spec x 2); [subst x; cbn; tauto|]. destruct (Z.eqb_spec x 5); [lia|].
    destruct (Z.eqb_spec x 8); [subst x; cbn; tauto|lia].
Qed.

Lemma pair_straight : lamps_straight pair_lamps (concat pair_lamps ++ []).
Proof.
  intros k A z i p q s Hk Hz _ Hp Hq Hs N1 N2 N3. exfalso.
  cbn [pair_lamps concat app In] in Hs.
  destruct k as [|k]; cbn in Hk; [|destruct k; discriminate Hk]. injection Hk as <-. cbn in Hz. subst z.
  destruct i as [|[|i]]; cbn in Hp, Hq; try discriminate; injection Hp as <-; injection Hq as <-; cbn in N1, N2;
    destruct Hs as [<-|[<-|[]]]; tauto.
Qed.

Lemma pair_seen : forall i j q p, (1 <= i <= 2)%Z -> nth_error [(2, 2); (2, 8)]%Z j = Some q -> nth_error two_coords j = Some p ->
  0 < 8000 /\ 1 / 10000000000 <= transmission 0 3 3 eg_cam p (eg_smoke i) /\
  close_to (8000 * transmission 0 3 3 eg_cam p (eg_smoke i)) 0 (IZR (seen (pair_photo i) 1 q)).
Proof.
  intros i j q p Hi Hq Hp.
  assert (J : exists k, nth_error [(2, 2); (2, 5); (2, 8)]%Z k = Some q /\ nth_error eg_coords k = Some p /\ seen (pair_photo i) 1 q = seen (wall_photo i) 1 q).
  { assert (Ci : (i = 1 \/ i = 2)%Z) by lia.
    destruct j as [|[|j]]; cbn [nth_error two_coords] in Hq, Hp; [exists 0%nat|exists 2%nat|destruct j; discriminate]; apply Some_inj in Hq, Hp; subst q p;
      (split; [reflexivity|]); (split; [reflexivity|]); destruct Ci as [-> | -> ]; vm_compute; reflexivity. }
  destruct J as (k & K1 & K2 & ->). exact (wall_seen i k q p Hi K1 K2).
Qed.

Example C119_photographs_example : forall lambda, 0 < lambda -> exists K, 0 < K /\ forall nnls cpus, nnls_contract nnls ->
  let st1 := exec_all [Step1 (pair_env []); NewProcess] (fun _ => None, None) in
  let s2 := fst (exec (Step2 (pair_env [[1; 0]%Z])) st1) in
  exists t arrays x1 x2,
    create_table isort None pair_files None 1 2 0 = Ok t /\ load_indices 1 None s2 = Ok arrays /\
    analyse_array nnls lambda 0 3 3 eg_cam two_coords (nth_error arrays 0) t 0 "sum_col_val" None 1 cpus [1; 0]%nat = Ok [x1; x2] /\
    sq_dist x1 [0; 0; 0] <= K * (ln (1 - relative_error 0) * ln (1 - relative_error 0)) /\ sq_dist x2 [ln 2; ln 2; ln 2] <= K * (ln (1 - relative_error 0) * ln (1 - relative_error 0)).
Proof.
  intros lambda Hlam.
  destruct (C119_from_the_photographs 0 3 3 eg_cam lambda two_coords (Point 0 0 1) (Point 0 0 3)) as (K & HK & Main).
  { lia. }
  { lra. }
  { unfold within, eg_cam. cbn [pz]. lra. }
  { constructor; [|constructor; [|constructor]]; unfold in_view, within, eg_cam; cbn [pz]; (split; [lra|split; [lra|intros E; lra]]). }
  { left. reflexivity. }
  { right. left. reflexivity. }
  { cbn [pz]. lra. }
  { intros (k & _ & B). unfold eg_cam in B. cbn [pz] in B. replace ((3 - 0) / INR 3) with 1 in B by (simpl; field).
    pose proof (B 0 (or_introl eq_refl)). pose proof (B 3 (or_intror (or_intror (or_introl eq_refl)))). rewrite S_INR in *. lra. }
  { exact Hlam. }
  exists K. split; [exact HK|]. intros nnls cpus Hnnls st1 s2.
  assert (L2 : 0 < ln 2) by (rewrite <- ln_1; apply ln_increasing; lra).
  assert (Nn : forall a b c, (0 <= a)%Z -> (0 <= b)%Z -> (0 <= c)%Z -> nonneg_image (wall a b c)).
  { intros a b c Ha Hb Hc y x _. cbn [wall Step1_Model.px]. destruct (y =? 2)%Z; [|lia]. destruct (x =? 2)%Z; [lia|]. destruct (x =? 5)%Z; [lia|]. destruct (x =? 8)%Z; lia. }
  assert (Ha : fst st1 KAreas = Some (Rows [(0, (2, 8)); (1, (2, 2))]%Z)) by (clear; vm_compute; reflexivity).
  assert (He : forall rows, fst st1 KAreas = Some (Rows rows) -> edges_entered rows pair_lamps [[1; 0]%Z]).
  { intros rows H. rewrite Ha in H. apply Some_inj in H. injection H as <-. apply Forall2_cons; [|apply Forall2_nil].
    exists 1%Z, 0%Z, (0, 0)%Z. split; [reflexivity|]. split; [cbn; tauto|]. split; [cbn; tauto|discriminate]. }
  assert (Hm : mml_ok scan) by apply scan_ok.
  assert (Hne : nonempty_image (wall 8000 0 8100)) by (split; reflexivity).
  assert (Hnn : nonneg_image (wall 8000 0 8100)) by (apply Nn; lia).
  assert (Hp : percentile (pixels (wall 8000 0 8100)) 90 = Ok (0 # 100)) by (clear; vm_compute; reflexivity).
  assert (Two : Forall (fun A : list loc => (2 <= List.length A)%nat) pair_lamps) by (apply Forall_cons; [cbn; lia|apply Forall_nil]).
  pose proof (C102_extraction (pair_env []) (pair_env [[1; 0]%Z]) (fun _ => None, None) (wall 8000 0 8100) (0 # 100) pair_lamps [] Hm eq_refl Hne Hnn ltac:(cbn; lia) Hp pair_spots
    ltac:(cbn; lia) (fun _ => conj eq_refl eq_refl) ltac:(discriminate) Two pair_straight eq_refl eq_refl He) as T. cbv zeta in T. destruct T as (_ & _ & X1 & X2 & _).
  fold st1 in X1, X2. fold s2 in X1, X2.
  assert (Gen : forall i, generate_analysis_data None (pair_photo i) 1 (concat (Extract_Props.blocks 0 pair_lamps)) [[1; 0]%Z] 0 = Ok (pair_recs i)).
  { intros i. unfold pair_recs. unfold pair_photo. clear. destruct (i =? 1)%Z; vm_compute; reflexivity. }
  destruct (Main (pair_env []) (pair_env [[1; 0]%Z]) (fun _ => None, None) (wall 8000 0 8100) (0 # 100) pair_lamps []
    pair_photo pair_files pair_recs isort None None 1%Z 2%Z 0%Z 0%nat [(2, 2); (2, 8)]%Z [two_coords] None 1%Z nnls 0 eg_smoke (fun _ => 8000) cpus [1; 0]%nat)
    as (t & arrays & xs & T1 & T2 & T3 & T4 & T5).
  - exact Hm.
  - reflexivity.
  - exact Hne.
  - apply Nn; lia.
  - cbn. lia.
  - exact Hp.
  - exact pair_spots.
  - cbn. lia.
  - intros rows. split; reflexivity.
  - exact Two.
  - exact pair_straight.
  - reflexivity.
  - reflexivity.
  - exact He.
  - change (1 <= 2)%Z. lia.
  - intros i _. unfold pair_photo. destruct (i =? 1)%Z; (split; [reflexivity|]); (split; [reflexivity|]); apply Nn; lia.
  - intros i areas arrays _ La Li. fold st1 in La, Li. fold s2 in La, Li. cbv zeta in La, Li. rewrite X1 in La. apply Ok_inj in La. subst areas.
    rewrite X2 in Li. apply Ok_inj in Li. subst arrays. split; [exact (Gen i)|]. split; [|exact I]. do 4 eexists. reflexivity.
  - exact isort_sorts.
  - reflexivity.
  - reflexivity.
  - reflexivity.
  - intros i Hi. unfold eg_smoke. destruct (i =? 1)%Z.
    + split; [reflexivity|]. split; [apply zeros_nonneg|]. exists 0, 0. cbn [List.length repeat seq map]. repeat f_equal; lra.
    + split; [reflexivity|]. split; [unfold nonneg; repeat (constructor; [lra|]); constructor|]. exists (ln 2), 0. cbn [List.length seq map]. repeat f_equal; lra.
  - intros i Hi Hr. cbn [is_reference] in Hr. assert (i = 1)%Z by (change (1 <= i <= 2)%Z in Hi; lia). subst i. reflexivity.
  - exists 1%Z. split; [change (1 <= 1 <= 2)%Z; lia|]. cbn. lia.
  - lra.
  - unfold table_error. lra.
  - exact pair_seen.
  - exact Hnnls.
  - apply perm_swap.
  - fold st1 in T2. fold s2 in T2. change (Z.to_nat (number_of_images None 1 2 0)) with 2%nat in T4.
    destruct xs as [|x1 [|x2 [|x3 xs]]]; try discriminate T4. exists t, arrays, x1, x2. split; [exact T1|]. split; [exact T2|]. split; [exact T3|]. split.
    + apply (T5 1%Z x1); [change (1 <= 1 <= 2)%Z; lia|reflexivity].
    + apply (T5 2%Z x2); [change (1 <= 2 <= 2)%Z; lia|reflexivity].
Qed.
