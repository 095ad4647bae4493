(** C134: the unit of length and the regularisation of the linear solver. *)
From Coq Require Import ZArith QArith Qreals Lia Bool String List Permutation Sorted Reals Lra.
From Verif Require Import Base Step2_Model Step3_Model Table_Model Table_Spec Table_Props Analysis_Model Analysis_Props Layers_Model Layers_Spec Layers_Props Solver_Model Solver_Props Stable_Props Nnls_Props
  End_Model End_Props.
Import ListNotations.
Local Open Scope R_scope.

(** ** Specification *)

(** A position in a unit of length of which [k] make up the old one. *)
Definition zoom (k : R) (p : point) : point := Point (k * px p) (k * py p) (k * pz p).

(** ** Lines of sight *)
Lemma Rmax_zoom : forall k a b, 0 < k -> Rmax (k * a) (k * b) = k * Rmax a b.
Proof. intros k a b Hk. apply RmaxRmult. lra. Qed.
Lemma Rmin_zoom : forall k a b, 0 < k -> Rmin (k * a) (k * b) = k * Rmin a b.
Proof. intros k a b Hk. unfold Rmin. destruct (Rle_dec (k * a) (k * b)) as [H|H], (Rle_dec a b) as [G|G]; try reflexivity; exfalso; [apply G; apply (Rmult_le_reg_l k); assumption|apply H; apply Rmult_le_compat_l; lra]. Qed.

Lemma euclid_zoom : forall k p q, 0 < k -> euclid (zoom k p) (zoom k q) = k * euclid p q.
Proof.
  intros k p q Hk. unfold euclid, zoom. cbn [px py pz].
  set (s := (px p - px q) * (px p - px q) + (py p - py q) * (py p - py q) + (pz p - pz q) * (pz p - pz q)).
  replace ((k * px p - k * px q) * (k * px p - k * px q) + (k * py p - k * py q) * (k * py p - k * py q) + (k * pz p - k * pz q) * (k * pz p - k * pz q)) with ((k * k) * s) by (unfold s; ring).
  rewrite sqrt_mult_alt by nra. rewrite sqrt_square by lra. reflexivity.
Qed.

Lemma zoom_inj : forall k a b, 0 < k -> k * a = k * b -> a = b.
Proof. intros k a b Hk H. apply (Rmult_eq_reg_l k); [exact H|lra]. Qed.

Lemma path_zoom : forall k cam led b t, 0 < k -> path_in (zoom k cam) (zoom k led) (k * b) (k * t) = k * path_in cam led b t.
Proof.
  intros k cam led b t Hk. unfold path_in. rewrite euclid_zoom by exact Hk. unfold zoom. cbn [pz].
  destruct (Req_EM_T (k * pz cam) (k * pz led)) as [E|E], (Req_EM_T (pz cam) (pz led)) as [G|G].
  - destruct (Rle_dec (k * b) (k * pz cam)) as [H1|H1], (Rle_dec b (pz cam)) as [H2|H2]; try (exfalso; nra).
    + destruct (Rlt_dec (k * pz cam) (k * t)) as [H3|H3], (Rlt_dec (pz cam) t) as [H4|H4]; try (exfalso; nra); ring.
    + ring.
  - exfalso. apply G. apply (zoom_inj k); assumption.
  - exfalso. apply E. rewrite G. reflexivity.
  - assert (O : overlap (k * b) (k * t) (k * pz cam) (k * pz led) = k * overlap b t (pz cam) (pz led)).
    { unfold overlap. rewrite Rmax_zoom, !Rmin_zoom, !Rmax_zoom by exact Hk. rewrite <- Rmult_minus_distr_l. replace 0 with (k * 0) at 1 by ring. apply Rmax_zoom. exact Hk. }
    rewrite O, <- Rmult_minus_distr_l, Rabs_mult, (Rabs_pos_eq k) by lra. assert (Rabs (pz led - pz cam) <> 0) by (apply Rabs_no_R0; lra). field. split; [assumption|lra].
Qed.

(** Distances are measured in the unit of length. *)
Theorem C134_distances : forall k bot top n cam led, 0 < k -> paths (k * bot) (k * top) n (zoom k cam) (zoom k led) = map (Rmult k) (paths bot top n cam led).
Proof.
  intros k bot top n cam led Hk. unfold paths. rewrite map_map. apply map_ext. intros i. rewrite <- path_zoom by exact Hk.
  unfold Rdiv. f_equal; ring.
Qed.
Print Assumptions C134_distances.

Lemma in_view_zoom : forall k bot top cam led, 0 < k -> in_view bot top cam led -> in_view (k * bot) (k * top) (zoom k cam) (zoom k led).
Proof.
  intros k bot top cam led Hk (V1 & V2 & V3). unfold in_view, within in *. rewrite euclid_zoom by exact Hk. cbn [zoom pz]. split; [nra|]. split; [nra|].
  intros E. apply zoom_inj in E; [|exact Hk]. destruct (V3 E) as (V4 & V5). split; [nra|]. intros C. apply Rmult_integral in C. destruct C as [C|C]; [lra|exact (V5 C)].
Qed.

(** ** The solver *)
Lemma rdot_zoom : forall k r x, rdot (map (Rmult k) r) x = rdot r (map (Rmult k) x).
Proof. intros k r. induction r as [|a r IH]; intros [|b x]; try reflexivity. cbn [map rdot]. rewrite IH. ring. Qed.

Lemma mul_zoom : forall k M x, mul (map (map (Rmult k)) M) x = mul M (map (Rmult k) x).
Proof. intros k M x. unfold mul. rewrite map_map. apply map_ext. intros r. apply rdot_zoom. Qed.

Lemma a_aug_zoom : forall k lambda n A, 0 < k -> 0 <= lambda -> a_aug (k * k * lambda) n (map (map (Rmult k)) A) = map (map (Rmult k)) (a_aug lambda n A).
Proof.
  intros k lambda n A Hk Hl. unfold a_aug. rewrite map_app, !map_map. f_equal. apply map_ext. intros r. rewrite map_map. apply map_ext. intros x.
  rewrite sqrt_mult_alt by nra. rewrite sqrt_square by lra. ring.
Qed.

Lemma zoom_back : forall k x, 0 < k -> map (Rmult k) (map (fun s => s / k) x) = x.
Proof. intros k x Hk. rewrite map_map. rewrite <- (map_id x) at 2. apply map_ext. intros s. field. lra. Qed.

Lemma nonneg_map : forall f x, (forall s, 0 <= s -> 0 <= f s) -> nonneg x -> nonneg (map f x).
Proof. intros f x Hf H. unfold nonneg in *. induction H as [|a x Ha H IH]; [constructor|]. cbn [map]. constructor; [apply Hf; exact Ha|exact IH]. Qed.

Lemma solution_zoom : forall k n M v x, 0 < k -> nnls_solution n M v x -> nnls_solution n (map (map (Rmult k)) M) v (map (fun s => s / k) x).
Proof.
  intros k n M v x Hk (S1 & S2 & S3). split; [rewrite map_length; exact S1|]. split.
  - apply nonneg_map; [|exact S2]. intros s Hs. apply Rmult_le_pos; [exact Hs|left; apply Rinv_0_lt_compat; exact Hk].
  - intros y Ly Ny. rewrite !mul_zoom, zoom_back by exact Hk. apply S3; [rewrite map_length; exact Ly|]. apply nonneg_map; [|exact Ny]. intros s Hs. nra.
Qed.

Lemma separates_zoom : forall k n M, 0 < k -> separates n M -> separates n (map (map (Rmult k)) M).
Proof.
  intros k n M Hk (c & Hc & H). exists (k * k * c). split; [apply Rmult_lt_0_compat; [nra|exact Hc]|]. intros z Hz. rewrite mul_zoom. specialize (H (map (Rmult k) z) ltac:(rewrite map_length; exact Hz)).
  assert (E : sq_norm (map (Rmult k) z) = k * k * sq_norm z) by (clear; induction z as [|a z IH]; cbn [map sq_norm]; [ring|rewrite IH; ring]). rewrite E in H. lra.
Qed.

Lemma sq_norm_app : forall u w, sq_norm (u ++ w) = sq_norm u + sq_norm w.
Proof. intros u w. induction u as [|a u IH]; cbn [app sq_norm]; [ring|rewrite IH; ring]. Qed.

Lemma separates_rev : forall n M, separates n M -> separates n (rev M).
Proof.
  intros n M (c & Hc & H). exists c. split; [exact Hc|]. intros z Hz. eapply Rle_trans; [apply H; exact Hz|]. right. unfold mul. rewrite map_rev.
  generalize (map (fun r => rdot r z) M). clear. intros u. induction u as [|a u IH]; [reflexivity|]. cbn [rev]. rewrite sq_norm_app. cbn [sq_norm]. rewrite <- IH. ring.
Qed.

(** One image: with the regularisation in the square of the unit. *)
Theorem C134_one_image : forall k nnls lambda n M last rel, 0 < k -> 0 <= lambda -> nnls_contract nnls -> rows_ok n M -> separates n M ->
  solve_linear nnls (k * k * lambda) n (map Some (map (map (Rmult k)) M)) last rel =
  res_map (map (fun s => s / k)) (solve_linear nnls lambda n (map Some M) last rel).
Proof.
  intros k nnls lambda n M last rel Hk Hl Hn HR Hs. unfold solve_linear. rewrite !all_some_map. destruct (all_some (map rel_R rel)) as [r|]; [|reflexivity]. rewrite map_length.
  destruct (Nat.eqb_spec (length r) (length M)) as [E|E]; [|reflexivity]. cbn [res_map]. f_equal. unfold linear_coefficients. rewrite a_aug_zoom by assumption.
  pose proof (separates_aug lambda n M Hs) as Sa.
  apply (C93_solutions_are_unique n (map (map (Rmult k)) (a_aug lambda n M)) (b_aug n r)).
  - rewrite map_length. apply aug_length. exact E.
  - apply separates_zoom; assumption.
  - apply Hn; [|rewrite map_length; apply aug_length; exact E|apply separates_zoom; assumption].
    pose proof (rows_ok_aug lambda n M HR) as X. unfold rows_ok in *. apply Forall_forall. intros row Hr. apply in_map_iff in Hr. destruct Hr as (row' & <- & Hr'). rewrite map_length.
    rewrite Forall_forall in X. apply X. exact Hr'.
  - apply solution_zoom; [exact Hk|]. apply Hn; [apply rows_ok_aug; exact HR|apply aug_length; exact E|exact Sa].
Qed.
Print Assumptions C134_one_image.

(** ** The whole analysis *)
Lemma serial_zoom : forall (f : vec -> vec) solve solve' ms gs last last', (forall l l' rel, solve' l' rel = res_map f (solve l rel)) ->
  serial_loop solve' ms last' gs = res_map (map f) (serial_loop solve ms last gs).
Proof.
  intros f solve solve' ms gs. induction gs as [|(i, es) gs IH]; intros last last' H; [reflexivity|]. cbn [serial_loop]. destruct (np_div (map e_val es) ms) as [rel|]; [|reflexivity]. cbn [bind].
  rewrite (H last last' rel). destruct (solve last rel) as [s|]; [|reflexivity]. cbn [res_map bind]. rewrite (IH (Some s) (Some (f s)) H).
  destruct (serial_loop solve ms (Some s) gs); reflexivity.
Qed.

Lemma pool_zoom : forall (f : vec -> vec) (g g' : list quot -> res vec) order tasks, (forall rel, g' rel = res_map f (g rel)) ->
  pool_map g' order tasks = res_map (map f) (pool_map g order tasks).
Proof.
  intros f g g' order tasks H. unfold pool_map.
  assert (C : forall k, collect (flat_map (fun k => match nth_error tasks k with Some a => [(k, g' a)] | None => [] end) order) k =
                        option_map (res_map f) (collect (flat_map (fun k => match nth_error tasks k with Some a => [(k, g a)] | None => [] end) order) k)).
  { intros k. induction order as [|j order IH]; [reflexivity|]. cbn [flat_map]. destruct (nth_error tasks j) as [rel|]; [|exact IH]. cbn [app collect]. destruct (j =? k)%nat; [cbn [option_map]; rewrite H; reflexivity|exact IH]. }
  generalize (seq 0 (List.length tasks)). intros ks. induction ks as [|k ks IH]; [reflexivity|]. cbn [mapM]. rewrite C.
  destruct (collect (flat_map (fun k => match nth_error tasks k with Some a => [(k, g a)] | None => [] end) order) k) as [[s|]|]; cbn [option_map res_map bind]; try reflexivity.
  rewrite IH. clear IH. destruct (mapM _ ks); reflexivity.
Qed.

(** All LEDs of the array are in view and tell the layers apart.  In another unit of length (domain,
    camera and LEDs), with the regularisation in the square of that unit, the coefficients are the same
    ones per new unit. *)
Theorem C134_unit_of_length : forall k nnls lambda bot top n cam coords ids ps t a prop indices num cpus order,
  0 < k -> 0 <= lambda -> nnls_contract nnls -> (1 <= n)%nat -> bot < top ->
  Forall2 (fun id p => (0 <= id)%Z /\ nth_error coords (Z.to_nat id) = Some p) ids ps -> Forall (in_view bot top cam) ps -> separates n (map (paths bot top n cam) ps) ->
  analyse_array nnls (k * k * lambda) (k * bot) (k * top) n (zoom k cam) (map (zoom k) coords) (Some ids) t a prop indices num cpus order =
  res_map (map (map (fun s => s / k))) (analyse_array nnls lambda bot top n cam coords (Some ids) t a prop indices num cpus order).
Proof.
  intros k nnls lambda bot top n cam coords ids ps t a prop indices num cpus order Hk Hl Hn Hlay Hbt Hps Hview Hsep.
  unfold analyse_array, analyse_with, analyse_by, analyse_avg.
  assert (I : forall (cs : list point) ids ps, Forall2 (fun id p => (0 <= id)%Z /\ nth_error cs (Z.to_nat id) = Some p) ids ps -> mapM (np_index cs) ids = Ok ps).
  { clear. intros cs ids ps H. induction H as [|id p ids ps (H1 & H2) F IH]; [reflexivity|]. cbn [mapM].
    assert (E : np_index cs id = Ok p).
    { unfold np_index. assert (L : (Z.to_nat id < length cs)%nat) by (apply nth_error_Some; rewrite H2; discriminate).
      replace (id <? 0)%Z with false by (symmetry; apply Z.ltb_ge; exact H1). replace ((id <? 0)%Z || (Z.of_nat (length cs) <=? id)%Z)%bool with false; [rewrite H2; reflexivity|].
      symmetry. apply orb_false_iff. split; [apply Z.ltb_ge; exact H1|apply Z.leb_gt; lia]. }
    rewrite E. cbn [bind]. rewrite IH. reflexivity. }
  assert (Hps' : Forall2 (fun id p => (0 <= id)%Z /\ nth_error (map (zoom k) coords) (Z.to_nat id) = Some p) ids (map (zoom k) ps)).
  { clear - Hps. induction Hps as [|id p ids ps (H1 & H2) F IH]; [constructor|]. cbn [map]. constructor; [|exact IH]. split; [exact H1|]. rewrite nth_error_map, H2. reflexivity. }
  pose proof (I _ _ _ Hps) as I1. pose proof (I _ _ _ Hps') as I2. clear I.
  unfold experiment_leds. destruct ids as [|i1 [|i2 ids]]; [reflexivity|reflexivity|]. rewrite I1, I2. cbn [bind distance_array].
  assert (D : forall (ids : list Z) bot top cam ps, bot < top -> List.length ids = List.length ps -> Forall (in_view bot top cam) ps ->
    map (fun led : Z * point => matrix_row (traversed_distances (layers bot top n) cam (snd led))) (rev (combine ids ps)) = map Some (rev (map (paths bot top n cam) ps))).
  { clear - Hlay. intros ids bot top cam ps Hbt L V. rewrite !map_rev. f_equal. revert ids L. induction V as [|p ps V F IH]; intros [|i ids] L; try discriminate; [reflexivity|]. cbn [combine map snd].
    rewrite (visible_row bot top n cam p Hlay Hbt V). cbn [matrix_row]. f_equal. apply IH. injection L as L. exact L. }
  assert (V' : Forall (in_view (k * bot) (k * top) (zoom k cam)) (map (zoom k) ps)).
  { clear - Hview Hk. induction Hview as [|p ps V F IH]; [constructor|]. cbn [map]. constructor; [apply in_view_zoom; assumption|exact IH]. }
  rewrite (D (i1 :: i2 :: ids) bot top cam ps Hbt (Forall2_len _ _ _ Hps) Hview).
  rewrite (D (i1 :: i2 :: ids) (k * bot) (k * top) (zoom k cam) (map (zoom k) ps) ltac:(nra) (Forall2_len _ _ _ Hps') V').
  set (M := rev (map (paths bot top n cam) ps)).
  assert (EM : rev (map (paths (k * bot) (k * top) n (zoom k cam)) (map (zoom k) ps)) = map (map (Rmult k)) M).
  { unfold M. rewrite map_rev, !map_map. f_equal. apply map_ext. intros p. apply C134_distances. exact Hk. }
  rewrite EM.
  assert (HR : rows_ok n M) by (unfold rows_ok, M; apply Forall_rev; apply Forall_forall; intros r Hr; apply in_map_iff in Hr; destruct Hr as (p & <- & _); apply paths_length).
  assert (SM : separates n M) by (apply separates_rev; exact Hsep).
  destruct (load_img_data t a prop) as [es|]; [|reflexivity]. cbn [bind]. cbv zeta.
  assert (Z0 : forall l l' rel, solve_linear nnls (k * k * lambda) n (map Some (map (map (Rmult k)) M)) l' rel = res_map (map (fun s => s / k)) (solve_linear nnls lambda n (map Some M) l rel)).
  { intros l l' rel. exact (C134_one_image k nnls lambda n M l' rel Hk Hl Hn HR SM). }
  destruct (1 <? cpus)%Z.
  - unfold parallel. destruct (to_array es) as [arr|]; [|reflexivity]. cbn [bind]. destruct (mapM _ arr) as [rels|]; [|reflexivity]. cbn [bind]. apply pool_zoom. intros rel. apply Z0.
  - unfold serial. apply serial_zoom. exact Z0.
Qed.
Print Assumptions C134_unit_of_length.

(** The room of C94 in centimetres. *)
Example C134_example : forall nnls lambda cpus, nnls_contract nnls -> 0 <= lambda ->
  exists x1 x2, sq_dist x1 [0; 0; 0] <= 1 / 100000 /\ sq_dist x2 [ln 2; ln 2; ln 2] <= 1 / 100000 /\
    analyse_array nnls (100 * 100 * lambda) 0 300 3 (Point 0 0 0) [Point 0 0 100; Point 0 0 200; Point 0 0 300] (Some [2; 1; 0]%Z) eg_table 0 "sum_col_val" None 1 cpus [1; 0]%nat =
      Ok [map (fun s => s / 100) x1; map (fun s => s / 100) x2].
Proof.
  intros nnls lambda cpus Hn Hl. destruct (C94_example nnls lambda cpus Hn Hl) as (x1 & x2 & X & X1 & X2). exists x1, x2. split; [exact X1|]. split; [exact X2|].
  pose proof (C134_unit_of_length 100 nnls lambda 0 3 3 eg_cam eg_coords [2; 1; 0]%Z [Point 0 0 3; Point 0 0 2; Point 0 0 1] eg_table 0 "sum_col_val" None 1 cpus [1; 0]%nat) as Y.
  rewrite X in Y. cbn [res_map map] in Y. unfold zoom, eg_cam, eg_coords in Y. cbn [map px py pz] in Y.
  replace (100 * 0) with 0 in Y by ring. replace (100 * 1) with 100 in Y by ring. replace (100 * 2) with 200 in Y by ring. replace (100 * 3) with 300 in Y by ring.
  apply Y; [lra|exact Hl|exact Hn|lia|lra| | |].
  - repeat (constructor; [split; [lia|reflexivity]|]). constructor.
  - repeat (constructor; [unfold in_view, within; cbn [pz]; split; [lra|split; [lra|intros C; exfalso; lra]]|]). constructor.
  - assert (E : map (paths 0 3 3 (Point 0 0 0)) [Point 0 0 3; Point 0 0 2; Point 0 0 1] = rev [[1; 0; 0]; [1; 1; 0]; [1; 1; 1]]) by (rewrite <- eg_paths; reflexivity). change (separates 3 (map (paths 0 3 3 (Point 0 0 0)) [Point 0 0 3; Point 0 0 2; Point 0 0 1])). rewrite E. apply separates_rev.
    exists (1 / 8). split; [lra|]. intros z Hz. destruct z as [|a [|b [|d [|? ?]]]]; try discriminate. unfold mul. cbn [map rdot sq_norm].
    replace (1 * a + (0 * b + (0 * d + 0))) with a by ring. replace (1 * a + (1 * b + (0 * d + 0))) with (a + b) by ring. replace (1 * a + (1 * b + (1 * d + 0))) with (a + b + d) by ring.
    assert (T : forall s t, (s - t) * (s - t) <= 2 * (s * s) + 2 * (t * t)) by (intros s t; pose proof (Rle_0_sqr (s + t)) as Q; unfold Rsqr in Q; lra).
    pose proof (T (a + b) a) as T1. pose proof (T (a + b + d) (a + b)) as T2. replace (a + b - a) with b in T1 by ring. replace (a + b + d - (a + b)) with d in T2 by ring.
    pose proof (Rle_0_sqr a) as P1. pose proof (Rle_0_sqr (a + b)) as P2. pose proof (Rle_0_sqr (a + b + d)) as P3. unfold Rsqr in P1, P2, P3. lra.
Qed.

(** ** The same regularisation in another unit *)

(** One layer of a metre, two LEDs behind it that lose half of their light, regularisation 2: half of the
    extinction is reported with metres, four fifths of it with half metres. *)
Theorem C134_same_regularisation_refuted : exists k lambda n M rel, 0 < k /\ 0 <= lambda /\ rows_ok n M /\ separates n M /\
  forall nnls, nnls_contract nnls ->
    linear_coefficients nnls lambda n M rel = [ln 2 / 2] /\
    linear_coefficients nnls lambda n (map (map (Rmult k)) M) rel = [4 / 5 * ln 2 / k] /\
    linear_coefficients nnls lambda n (map (map (Rmult k)) M) rel <> map (fun s => s / k) (linear_coefficients nnls lambda n M rel).
Proof.
  exists 2, 2, 1%nat, [[1]; [1]], [1 / 2; 1 / 2].
  assert (HR : rows_ok 1 [[1]; [1]]) by (repeat constructor).
  assert (HS : separates 1 [[1]; [1]]).
  { exists 1. split; [lra|]. intros z Hz. destruct z as [|a [|? ?]]; try discriminate. cbn [mul map rdot sq_norm]. pose proof (Rle_0_sqr a) as P. unfold Rsqr in P. lra. }
  split; [lra|]. split; [lra|]. split; [exact HR|]. split; [exact HS|]. intros nnls Hn.
  assert (L2 : 0 < ln 2) by (rewrite <- ln_1; apply ln_increasing; lra).
  assert (OD : optical_depth (1 / 2) = ln 2).
  { unfold optical_depth, clip_rel. rewrite Rmax_left by lra. rewrite Rmin_left by lra. replace (1 / 2) with (/ 2) by lra. rewrite ln_Rinv by lra. ring. }
  assert (Q2 : sqrt 2 * sqrt 2 = 2) by (apply sqrt_sqrt; lra).
  assert (G : forall u, 0 < u -> linear_coefficients nnls 2 1 [[u]; [u]] [1 / 2; 1 / 2] = [u * ln 2 / (u * u + 1)]).
  { intros u Hu. assert (HRu : rows_ok 1 [[u]; [u]]) by (repeat constructor).
    assert (HSu : separates 1 [[u]; [u]]).
    { exists (u * u). split; [nra|]. intros z Hz. destruct z as [|a [|? ?]]; try discriminate. cbn [mul map rdot sq_norm]. pose proof (Rle_0_sqr (u * a)) as P. unfold Rsqr in P. nra. }
    apply (C93_solutions_are_unique 1 (a_aug 2 1 [[u]; [u]]) (b_aug 1 [1 / 2; 1 / 2])); [reflexivity|apply separates_aug; exact HSu|apply Hn; [apply rows_ok_aug; exact HRu|reflexivity|apply separates_aug; exact HSu]|].
    assert (Pu : 0 < u * u + 1) by nra.
    split; [reflexivity|]. split; [constructor; [|constructor]; apply Rmult_le_pos; [nra|left; apply Rinv_0_lt_compat; exact Pu]|].
    intros y Ly Ny. destruct y as [|y [|? ?]]; try discriminate. unfold a_aug, b_aug, reg_matrix. cbn [Nat.leb seq map unit_row app mul rdot repeat length Nat.eqb sq_dist]. rewrite OD.
    set (b := ln 2) in *. set (s := sqrt 2) in *.
    replace ((u * y + 0 - b) * (u * y + 0 - b) + ((u * y + 0 - b) * (u * y + 0 - b) + ((s * 1 * y + 0 - 0) * (s * 1 * y + 0 - 0) + 0))) with (2 * ((u * y - b) * (u * y - b)) + (s * s) * (y * y)) by ring.
    set (x := u * b / (u * u + 1)).
    replace ((u * x + 0 - b) * (u * x + 0 - b) + ((u * x + 0 - b) * (u * x + 0 - b) + ((s * 1 * x + 0 - 0) * (s * 1 * x + 0 - 0) + 0))) with (2 * ((u * x - b) * (u * x - b)) + (s * s) * (x * x)) by ring.
    rewrite Q2. assert (Ex : (u * u + 1) * x = u * b) by (unfold x; field; lra).
    assert (Dif : 2 * ((u * y - b) * (u * y - b)) + 2 * (y * y) - (2 * ((u * x - b) * (u * x - b)) + 2 * (x * x)) = 2 * (u * u + 1) * ((y - x) * (y - x)) + 4 * (y - x) * ((u * u + 1) * x - u * b)) by ring.
    rewrite Ex in Dif. pose proof (Rle_0_sqr (y - x)) as P. unfold Rsqr in P. nra. }
  assert (G1 : linear_coefficients nnls 2 1 [[1]; [1]] [1 / 2; 1 / 2] = [ln 2 / 2]) by (rewrite G by lra; f_equal; field).
  assert (G2 : linear_coefficients nnls 2 1 (map (map (Rmult 2)) [[1]; [1]]) [1 / 2; 1 / 2] = [4 / 5 * ln 2 / 2]).
  { cbn [map]. replace (2 * 1) with 2 by ring. rewrite G by lra. f_equal. field. }
  split; [exact G1|]. split; [exact G2|]. rewrite G1, G2. cbn [map]. intros C. injection C as C. lra.
Qed.
Print Assumptions C134_same_regularisation_refuted.
