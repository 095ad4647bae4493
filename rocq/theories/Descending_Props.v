(** C131: a group of rows that is not listed in ascending order. *)
From Coq Require Import ZArith QArith Qreals Lia Bool String List Permutation Sorted Reals Lra.
From Verif Require Import Base Step1_Model Step2_Model Step3_Model Format_Model Table_Model Table_Spec Table_Props Analysis_Model Analysis_Props
  Layers_Model Layers_Spec Layers_Props Solver_Model Solver_Props Nnls_Props End_Model End_Props.
Import ListNotations.
Local Open Scope R_scope.

(** ** The room *)

(** Three layers of one metre, the camera in the middle; the LEDs 0 and 1 (row 0) hang
    below it, the LEDs 2 and 3 (row 1) as far above it. *)
Definition mid_cam : point := Point 0 0 (3 / 2).
Definition mid_coords : list point := [Point 0 0 0; Point 0 0 1; Point 0 0 3; Point 0 0 2].
(** No smoke in the first image; in the second it grows towards the ceiling. *)
Definition mid_smoke (i : Z) : vec := if (i =? 1)%Z then [0; 0; 0] else [0; 2 * ln 2; 4 * ln 2].
(** Every LED fills the square around it; the third one is darkened to the 32nd part, the others to one half. *)
Definition mid_photo (i : Z) : image :=
  Img 4 13 (fun _ x => if (i =? 1)%Z then 800 else if ((x - 1) / 3 =? 2)%Z then 25 else 400)%Z.
Definition mid_areas : list row := [(0, (2, 2)); (1, (2, 5)); (2, (2, 8)); (3, (2, 11))]%Z.
(** The rows as step 2 finds them, before the LEDs are numbered anew. *)
Definition mid_rows : list (list Z) := [[3; 1]; [0; 2]]%Z.
Definition mid_arrays (g : list Z) : list (list Z) := index_files (merge_indices (reorder_led_indices mid_rows) (Some [g])).
Definition mid_recs (g : list Z) (i : Z) : list (led_data Format_Model.fit_data) :=
  match generate_analysis_data (F := Format_Model.fit_data) None (mid_photo i) 1 mid_areas (mid_arrays g) 0 with Ok ds => ds | Err _ => [] end.
Definition mid_table : frame := Frame fast_table_columns (concat (map (fun i => map (plain_row i) (by_id (mid_recs [0; 1]%Z i))) [1; 2]%Z)).

(** ** Lines of sight *)
Lemma mid_path : forall h b, h <> 3 / 2 -> path_in mid_cam (Point 0 0 h) b (b + 1) = overlap b (b + 1) (3 / 2) h.
Proof.
  intros h b Hh. unfold path_in, mid_cam. cbn [pz]. destruct (Req_EM_T (3 / 2) h) as [C|_]; [lra|].
  assert (E : euclid (Point 0 0 (3 / 2)) (Point 0 0 h) = Rabs (h - 3 / 2)).
  { unfold euclid. cbn [px py pz]. rewrite <- sqrt_Rsqr_abs. f_equal. unfold Rsqr. ring. }
  rewrite E. field. apply Rabs_no_R0. lra.
Qed.

Lemma mid_paths : forall h, h <> 3 / 2 -> paths 0 3 3 mid_cam (Point 0 0 h) = [overlap 0 1 (3 / 2) h; overlap 1 2 (3 / 2) h; overlap 2 3 (3 / 2) h].
Proof.
  intros h Hh. unfold paths. cbn [seq map]. change (INR 0) with 0. change (INR 1) with 1. change (INR 2) with (1 + 1). change (INR 3) with (1 + 1 + 1).
  replace (0 + 0 * ((3 - 0) / (1 + 1 + 1))) with 0 by field. replace (0 + 1 * ((3 - 0) / (1 + 1 + 1))) with (0 + 1) by field.
  replace (0 + (1 + 1) * ((3 - 0) / (1 + 1 + 1))) with (0 + 1 + 1) by field. replace (0 + (1 + 1 + 1) * ((3 - 0) / (1 + 1 + 1))) with (0 + 1 + 1 + 1) by field.
  rewrite !mid_path by exact Hh. replace (0 + 1 + 1 + 1) with 3 by ring. replace (0 + 1 + 1) with 2 by ring. replace (0 + 1) with 1 by ring. reflexivity.
Qed.

Ltac minmax := unfold overlap, Rmax, Rmin; repeat (destruct (Rle_dec _ _)); lra.

Lemma mid_rows_of : paths 0 3 3 mid_cam (Point 0 0 0) = [1; 1 / 2; 0] /\ paths 0 3 3 mid_cam (Point 0 0 1) = [0; 1 / 2; 0] /\
  paths 0 3 3 mid_cam (Point 0 0 3) = [0; 1 / 2; 1] /\ paths 0 3 3 mid_cam (Point 0 0 2) = [0; 1 / 2; 0].
Proof.
  repeat split; rewrite mid_paths by lra; repeat (apply f_equal2; [minmax|]); reflexivity.
Qed.

Lemma mid_view : forall h, 0 <= h <= 3 -> h <> 3 / 2 -> in_view 0 3 mid_cam (Point 0 0 h).
Proof. intros h H1 H2. unfold in_view, within, mid_cam. cbn [pz]. split; [lra|]. split; [lra|]. intros C. lra. Qed.

(** ** Powers of two *)
Lemma half : forall x, x = - ln 2 -> exp x = / 2.
Proof. intros x ->. rewrite exp_Ropp, exp_ln by lra. reflexivity. Qed.
Lemma thirtysecond : forall x, x = - (5 * ln 2) -> exp x = / 32.
Proof.
  intros x ->. rewrite exp_Ropp. f_equal. replace (5 * ln 2) with (ln 2 + (ln 2 + (ln 2 + (ln 2 + ln 2)))) by ring. rewrite !exp_plus, exp_ln by lra. lra.
Qed.

(** ** The two systems of equations *)
Definition mid_up : matrix := [[1; 1 / 2; 0]; [0; 1 / 2; 0]; [0; 1 / 2; 1]; [0; 1 / 2; 0]].
Definition mid_down : matrix := [[0; 1 / 2; 1]; [0; 1 / 2; 0]; [1; 1 / 2; 0]; [0; 1 / 2; 0]].

Lemma mid_rank : forall M, M = mid_up \/ M = mid_down -> full_rank 3 M /\ separates 3 M /\ rows_ok 3 M /\ Forall nonneg M.
Proof.
  intros M HM.
  assert (T : forall s t, (s - t) * (s - t) <= 2 * (s * s) + 2 * (t * t)) by (intros s t; pose proof (Rle_0_sqr (s + t)) as Q; unfold Rsqr in Q; lra).
  split; [|split; [|split]].
  - intros x y Lx Ly E. destruct x as [|a [|b [|c [|? ?]]]]; try discriminate. destruct y as [|a' [|b' [|c' [|? ?]]]]; try discriminate.
    destruct HM as [-> | ->]; unfold mid_up, mid_down, mul in E; cbn [map rdot] in E; injection E as E1 E2 E3 E4; repeat (apply f_equal2; [lra|]); reflexivity.
  - exists (1 / 4). split; [lra|]. intros z Hz. destruct z as [|a [|b [|c [|? ?]]]]; try discriminate.
    destruct HM as [-> | ->]; unfold mid_up, mid_down, mul; cbn [map rdot sq_norm].
    all: pose proof (T (a + b / 2) (b / 2)) as T1; pose proof (T (c + b / 2) (b / 2)) as T2; replace (a + b / 2 - b / 2) with a in T1 by ring; replace (c + b / 2 - b / 2) with c in T2 by ring.
    all: pose proof (Rle_0_sqr (a + b / 2)) as P1; pose proof (Rle_0_sqr (c + b / 2)) as P2; pose proof (Rle_0_sqr b) as P3; unfold Rsqr in P1, P2, P3; nra.
  - destruct HM as [-> | ->]; repeat constructor.
  - destruct HM as [-> | ->]; unfold mid_up, mid_down, nonneg; repeat (constructor; [repeat (constructor; [lra|]); constructor|]); constructor.
Qed.

Lemma mid_solution : forall nnls lambda M s rel last qs, M = mid_up \/ M = mid_down -> nnls_contract nnls -> 0 <= lambda ->
  nonneg s -> List.length s = 3%nat -> progression s -> rel = map Fin qs -> map Q2R qs = beer_lambert M s -> Forall (fun v => 1 / 10000000000 <= v) (map Q2R qs) ->
  solve_linear nnls lambda 3 (map Some M) last rel = Ok s.
Proof.
  intros nnls lambda M s rel last qs HM Hn Hl Ns Ls Ps -> E F. destruct (mid_rank M HM) as (R1 & R2 & R3 & R4).
  assert (L : List.length (map Q2R qs) = List.length M) by (rewrite E; unfold beer_lambert; apply map_length).
  unfold solve_linear. rewrite all_some_map, all_some_fin, L, Nat.eqb_refl. f_equal. rewrite E in *.
  apply C40_linear_profiles_are_recovered; try assumption; [lia|].
  apply Hn; [apply rows_ok_aug; exact R3|apply aug_length; exact L|apply separates_aug; exact R2].
Qed.

(** ** From the table to the solver *)
Definition mid_rel (i : Z) : list Q := if (i =? 1)%Z then repeat (3200 # 3200)%Q 4 else [1600 # 3200; 1600 # 3200; 100 # 3200; 1600 # 3200]%Q.
Definition mid_leds (ids : list Z) : list (Z * point) := map (fun k => (k, nth (Z.to_nat k) mid_coords mid_cam)) ids.

Lemma mid_run : forall nnls lambda cpus order ids M s, ids = [3; 2; 1; 0]%Z \/ ids = [1; 0; 3; 2]%Z -> M = (if (hd 0 ids =? 3)%Z then mid_up else mid_down) ->
  nnls_contract nnls -> 0 <= lambda -> Permutation (seq 0 2) order ->
  nonneg s -> List.length s = 3%nat -> progression s -> map Q2R (mid_rel 2) = beer_lambert M s ->
  analyse_array nnls lambda 0 3 3 mid_cam mid_coords (Some ids) mid_table 0 "sum_col_val" None 1 cpus order = Ok [[0; 0; 0]; s].
Proof.
  intros nnls lambda cpus order ids M s Hids HM Hn Hl Ho Ns Ls Ps E.
  assert (HM' : M = mid_up \/ M = mid_down) by (rewrite HM; destruct (hd 0 ids =? 3)%Z; [left|right]; reflexivity).
  unfold analyse_array, analyse_with, analyse_by, analyse_avg.
  assert (X1 : experiment_leds mid_coords (Some ids) = Ok (Some (mid_leds ids))) by (destruct Hids as [-> | ->]; reflexivity).
  assert (X2 : distance_array (fun p => matrix_row (traversed_distances (layers 0 3 3) mid_cam p)) (Some (mid_leds ids)) = Ok (map Some M)).
  { destruct mid_rows_of as (P0 & P1 & P3 & P2).
    assert (D : forall h r, 0 <= h <= 3 -> h <> 3 / 2 -> paths 0 3 3 mid_cam (Point 0 0 h) = r -> matrix_row (traversed_distances (layers 0 3 3) mid_cam (Point 0 0 h)) = Some r).
    { intros h r H1 H2 <-. rewrite visible_row; [reflexivity|lia|lra|apply mid_view; assumption]. }
    pose proof (D 0 _ ltac:(lra) ltac:(lra) P0) as D0. pose proof (D 1 _ ltac:(lra) ltac:(lra) P1) as D1. pose proof (D 2 _ ltac:(lra) ltac:(lra) P2) as D2. pose proof (D 3 _ ltac:(lra) ltac:(lra) P3) as D3.
    unfold distance_array. rewrite HM. f_equal. destruct Hids as [-> | ->];
      [change (rev (mid_leds [3; 2; 1; 0]%Z)) with [(0%Z, Point 0 0 0); (1%Z, Point 0 0 1); (2%Z, Point 0 0 3); (3%Z, Point 0 0 2)]|change (rev (mid_leds [1; 0; 3; 2]%Z)) with [(2%Z, Point 0 0 3); (3%Z, Point 0 0 2); (0%Z, Point 0 0 0); (1%Z, Point 0 0 1)]];
      cbn [map snd]; rewrite D0, D1, D2, D3; reflexivity. }
  rewrite X1. cbn [bind]. rewrite X2. cbn [bind].
  set (sol := solve_linear nnls lambda 3 (map Some M)).
  assert (S1 : forall last, sol last (map Fin (mid_rel 1)) = Ok [0; 0; 0]).
  { intros last. apply (mid_solution nnls lambda M [0; 0; 0] _ last (mid_rel 1) HM' Hn Hl).
    - unfold nonneg. repeat (constructor; [lra|]). constructor.
    - reflexivity.
    - exists 0, 0. cbn [List.length seq map]. repeat (apply f_equal2; [ring|]). reflexivity.
    - reflexivity.
    - assert (Q : Q2R (3200 # 3200) = 1) by (unfold Q2R; cbn [Qnum Qden]; field).
      unfold mid_rel, beer_lambert. cbn [Z.eqb Pos.eqb repeat map]. rewrite Q.
      destruct HM' as [-> | ->]; unfold mid_up, mid_down; cbn [map rdot]; repeat (apply f_equal2; [rewrite <- exp_0; f_equal; ring|]); reflexivity.
    - unfold mid_rel. cbn [Z.eqb Pos.eqb repeat map]. unfold Q2R. cbn [Qnum Qden]. repeat (constructor; [lra|]). constructor. }
  assert (S2 : forall last, sol last (map Fin (mid_rel 2)) = Ok s).
  { intros last. apply (mid_solution nnls lambda M s _ last (mid_rel 2) HM' Hn Hl Ns Ls Ps eq_refl E).
    unfold mid_rel. cbn [Z.eqb Pos.eqb map]. unfold Q2R. cbn [Qnum Qden]. repeat (constructor; [lra|]). constructor. }
  clearbody sol.
  assert (X3 : exists es, load_img_data mid_table 0 "sum_col_val" = Ok es /\
    (forall sol : option vec -> list quot -> res vec, serial sol es (map snd (ref_values mean (reference_entries None 1 es))) =
       bind (sol None (map Fin (mid_rel 1))) (fun x => bind (sol (Some x) (map Fin (mid_rel 2))) (fun y => Ok [x; y]))) /\
    (forall sol : option vec -> list quot -> res vec, parallel sol order es (map snd (ref_values mean (reference_entries None 1 es))) =
       pool_map (sol None) order [map Fin (mid_rel 1); map Fin (mid_rel 2)])).
  { eexists. split; [vm_compute; reflexivity|]. split; intros sol'.
    - vm_compute. destruct (sol' None _) as [x|]; [|reflexivity]. destruct (sol' (Some x) _); reflexivity.
    - match goal with |- parallel _ _ ?es ?ms = _ => unfold parallel; replace (to_array es) with (Ok [map (fun q => Some q) [3200; 3200; 3200; 3200]%Q; map (fun q => Some q) [1600; 1600; 100; 1600]%Q]) by (vm_compute; reflexivity) end.
      cbn [bind]. match goal with |- bind ?r _ = _ => replace r with (Ok [map Fin (mid_rel 1); map Fin (mid_rel 2)]) by (vm_compute; reflexivity) end. reflexivity. }
  destruct X3 as (es & L1 & L2 & L3). rewrite L1. cbn [bind]. cbv zeta. rewrite L2, L3. destruct (1 <? cpus)%Z.
  - apply Permutation_length_2_inv in Ho. destruct Ho as [-> | ->]; unfold pool_map; cbn; rewrite ?S1, ?S2; cbn; rewrite ?S1, ?S2; reflexivity.
  - rewrite S1. cbn [bind]. rewrite S2. reflexivity.
Qed.

(** ** C131 *)

(** The photographs show exactly the light that comes through the smoke, and the table holds exactly the recorded sums.
    With the rows listed as 0, 1 the analysis gives the smoke. With the rows listed as 1, 0 the same photographs and the
    same table give the profile upside down, without residual and with every weight of the regularisation. *)
Theorem C131_descending_refuted :
  exists rows photo areas recs t bot top nlay cam coords smoke,
  let files g := index_files (merge_indices (reorder_led_indices rows) (Some [g])) in
  (forall g i, g = [0; 1]%Z \/ g = [1; 0]%Z -> (1 <= i <= 2)%Z ->
     generate_analysis_data (F := Format_Model.fit_data) None (photo i) 1 areas (files g) 0 = Ok (recs g i) /\
     forall d, In d (recs g i) -> exists p, nth_error coords (Z.to_nat (d_id d)) = Some p /\ in_view bot top cam p /\ IZR (d_sum d) = 3200 * transmission bot top nlay cam p (smoke i)) /\
  (forall g, g = [0; 1]%Z \/ g = [1; 0]%Z -> table_of_images t 2 (recs g)) /\
  smoke 1%Z = repeat 0 nlay /\ nonneg (smoke 2%Z) /\ smoke 2%Z <> rev (smoke 2%Z) /\
  forall nnls lambda cpus order, nnls_contract nnls -> 0 <= lambda -> Permutation (seq 0 2) order ->
    let run g := analyse_array nnls lambda bot top nlay cam coords (nth_error (files g) 0) t 0 "sum_col_val" None 1 cpus order in
    run [0; 1]%Z = Ok [smoke 1%Z; smoke 2%Z] /\ run [1; 0]%Z = Ok [smoke 1%Z; rev (smoke 2%Z)].
Proof.
  exists mid_rows, mid_photo, mid_areas, mid_recs, mid_table, 0, 3, 3%nat, mid_cam, mid_coords, mid_smoke. cbv zeta.
  assert (L2 : 0 < ln 2) by (rewrite <- ln_1; apply ln_increasing; lra).
  destruct mid_rows_of as (P0 & P1 & P3 & P2).
  split; [|split; [|split; [|split; [|split]]]].
  - intros g i Hg Hi. assert (Hi' : (i = 1 \/ i = 2)%Z) by lia. split.
    + destruct Hg as [-> | ->], Hi' as [-> | ->]; vm_compute; reflexivity.
    + assert (F : forall k v, In (k, v) (map (fun d => (d_id d, d_sum d)) (mid_recs g i)) -> exists p, nth_error mid_coords (Z.to_nat k) = Some p /\ in_view 0 3 mid_cam p /\ IZR v = 3200 * transmission 0 3 3 mid_cam p (mid_smoke i)).
      { intros k v H.
        assert (K : (k = 0 \/ k = 1 \/ k = 2 \/ k = 3)%Z /\ v = (if (i =? 1)%Z then 3200 else if (k =? 2)%Z then 100 else 1600)%Z).
        { destruct Hg as [-> | ->], Hi' as [-> | ->]; vm_compute in H; repeat (destruct H as [H|H]; [injection H as <- <-; split; [lia|reflexivity]|]); destruct H. }
        destruct K as (K & ->). destruct K as [-> | [-> | [-> | ->]]]; (eexists; split; [reflexivity|]); (split; [apply mid_view; lra|]); unfold transmission; rewrite ?P0, ?P1, ?P2, ?P3; unfold mid_smoke;
          destruct Hi' as [-> | ->]; cbn [Z.eqb Pos.eqb rdot];
          first [match goal with |- context [exp ?e] => rewrite (half e) by lra end; lra | match goal with |- context [exp ?e] => rewrite (thirtysecond e) by lra end; lra | match goal with |- context [exp ?e] => replace e with 0 by lra end; rewrite exp_0; lra]. }
      intros d Hd. apply F. apply in_map_iff. exists d. split; [reflexivity|exact Hd].
  - intros g Hg. exists (map (fun i => map (plain_row i) (by_id (mid_recs [0; 1]%Z i))) [1; 2]%Z). split; [reflexivity|].
    assert (X : forall i, (i = 1 \/ i = 2)%Z -> rows_of_image (row_of_record (cols mid_table) i) (mid_recs g i) (map (plain_row i) (by_id (mid_recs [0; 1]%Z i)))).
    { intros i Hi. exists (by_id (mid_recs [0; 1]%Z i)). split; [|split].
      - destruct Hg as [-> | ->], Hi as [-> | ->]; vm_compute; first [apply (Permutation_rev [_; _; _; _])|eapply perm_trans; [apply perm_swap|do 2 apply perm_skip; apply perm_swap]].
      - destruct Hi as [-> | ->]; vm_compute; repeat constructor; intros C; discriminate C.
      - assert (F : Forall (fun d => (0 <= d_sum d)%Z) (by_id (mid_recs [0; 1]%Z i))) by (destruct Hi as [-> | ->]; vm_compute; repeat constructor; intros C; discriminate C).
        cbn [cols mid_table]. clear - F. induction F as [|d ds H F IH]; [constructor|]. cbn [map]. constructor; [apply plain_row_ok; exact H|exact IH]. }
    change (zrange 1 (2 + 1)) with [1; 2]%Z. cbn [map]. constructor; [apply X; left; reflexivity|]. constructor; [apply X; right; reflexivity|constructor].
  - reflexivity.
  - unfold mid_smoke, nonneg. cbn [Z.eqb Pos.eqb]. repeat (constructor; [lra|]). constructor.
  - unfold mid_smoke. cbn [Z.eqb Pos.eqb rev app]. intros C. injection C as C _. lra.
  - intros nnls lambda cpus order Hn Hl Ho.
    assert (Q1 : Q2R (1600 # 3200) = / 2) by (unfold Q2R; cbn [Qnum Qden]; field). assert (Q2 : Q2R (100 # 3200) = / 32) by (unfold Q2R; cbn [Qnum Qden]; field).
    split.
    + change (nth_error (index_files (merge_indices (reorder_led_indices mid_rows) (Some [[0; 1]%Z]))) 0) with (Some [3; 2; 1; 0]%Z).
      apply (mid_run nnls lambda cpus order [3; 2; 1; 0]%Z mid_up); try assumption; [left; reflexivity|reflexivity|unfold mid_smoke, nonneg; cbn [Z.eqb Pos.eqb]; repeat (constructor; [lra|]); constructor|reflexivity| |].
      * exists 0, (2 * ln 2). unfold mid_smoke. cbn [Z.eqb Pos.eqb List.length seq map INR]. repeat (apply f_equal2; [ring|]). reflexivity.
      * unfold mid_rel, mid_smoke, mid_up, beer_lambert. cbn [Z.eqb Pos.eqb map rdot]. rewrite Q1, Q2. repeat (apply f_equal2; [symmetry; first [apply half; field|apply thirtysecond; field]|]). reflexivity.
    + change (nth_error (index_files (merge_indices (reorder_led_indices mid_rows) (Some [[1; 0]%Z]))) 0) with (Some [1; 0; 3; 2]%Z).
      apply (mid_run nnls lambda cpus order [1; 0; 3; 2]%Z mid_down); try assumption; [right; reflexivity|reflexivity|unfold mid_smoke, nonneg; cbn [Z.eqb Pos.eqb rev app]; repeat (constructor; [lra|]); constructor|reflexivity| |].
      * exists (4 * ln 2), (- (2 * ln 2)). unfold mid_smoke. cbn [Z.eqb Pos.eqb List.length seq map INR rev app]. repeat (apply f_equal2; [ring|]). reflexivity.
      * unfold mid_rel, mid_smoke, mid_down, beer_lambert. cbn [Z.eqb Pos.eqb map rdot rev app]. rewrite Q1, Q2. repeat (apply f_equal2; [symmetry; first [apply half; field|apply thirtysecond; field]|]). reflexivity.
Qed.
Print Assumptions C131_descending_refuted.
