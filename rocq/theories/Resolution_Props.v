(** C136: the number of layers. *)
From Coq Require Import List Arith Reals Lra Lia.
From Verif Require Import Base Layers_Model Layers_Spec Layers_Props Solver_Model Solver_Props Nnls_Props End_Model End_Props Units_Props.
Import ListNotations.
Local Open Scope R_scope.

(** ** Specification *)

(** Every layer is cut into [m] layers with the same smoke. *)
Definition cut (m : nat) (s : vec) : vec := flat_map (fun v => repeat v m) s.

(** ** Lines of sight *)
Lemma Rmax_cases : forall a b, (a <= b /\ Rmax a b = b) \/ (b <= a /\ Rmax a b = a).
Proof. intros a b. destruct (Rle_dec a b) as [H|H]; [left; split; [exact H|apply Rmax_right; exact H]|right; split; [lra|apply Rmax_left; lra]]. Qed.
Lemma Rmin_cases : forall a b, (a <= b /\ Rmin a b = a) \/ (b <= a /\ Rmin a b = b).
Proof. intros a b. destruct (Rle_dec a b) as [H|H]; [left; split; [exact H|apply Rmin_left; exact H]|right; split; [lra|apply Rmin_right; lra]]. Qed.

Lemma overlap_cut : forall b u v y z, b <= u -> u <= v -> overlap b u y z + overlap u v y z = overlap b v y z.
Proof.
  intros b u v y z H1 H2. unfold overlap. assert (O : Rmin y z <= Rmax y z) by (eapply Rle_trans; [apply Rmin_l|apply Rmax_l]). revert O. generalize (Rmin y z) (Rmax y z). intros lo hi O.
  destruct (Rmin_cases u hi) as [(A1 & ->)|(A1 & ->)], (Rmin_cases v hi) as [(A2 & ->)|(A2 & ->)], (Rmax_cases b lo) as [(A3 & ->)|(A3 & ->)], (Rmax_cases u lo) as [(A4 & ->)|(A4 & ->)];
    repeat match goal with |- context [Rmax 0 ?e] => let A := fresh in let E := fresh in destruct (Rmax_cases 0 e) as [(A & E)|(A & E)]; rewrite E; clear E end; lra.
Qed.

Lemma path_cut : forall cam led b u v, b <= u -> u <= v -> path_in cam led b u + path_in cam led u v = path_in cam led b v.
Proof.
  intros cam led b u v H1 H2. unfold path_in. destruct (Req_EM_T (pz cam) (pz led)) as [E|E].
  - repeat match goal with |- context [Rle_dec ?p ?q] => destruct (Rle_dec p q) | |- context [Rlt_dec ?p ?q] => destruct (Rlt_dec p q) end; try lra.
  - rewrite <- Rmult_plus_distr_l. f_equal. unfold Rdiv. rewrite <- Rmult_plus_distr_r. f_equal. apply overlap_cut; assumption.
Qed.

Lemma path_empty : forall cam led b, path_in cam led b b = 0.
Proof.
  intros cam led b. unfold path_in. destruct (Req_EM_T (pz cam) (pz led)) as [E|E].
  - destruct (Rle_dec b (pz cam)); [|reflexivity]. destruct (Rlt_dec (pz cam) b); [lra|reflexivity].
  - assert (O : overlap b b (pz cam) (pz led) = 0) by (unfold overlap; destruct (Rmin_cases b (Rmax (pz cam) (pz led))) as [(A1 & ->)|(A1 & ->)], (Rmax_cases b (Rmin (pz cam) (pz led))) as [(A2 & ->)|(A2 & ->)]; apply Rmax_left; try lra; assert (Rmin (pz cam) (pz led) <= Rmax (pz cam) (pz led)) by (eapply Rle_trans; [apply Rmin_l|apply Rmax_l]); lra). rewrite O. unfold Rdiv. ring.
Qed.

Lemma path_chain : forall cam led (g : nat -> R) m i, (forall j, g j <= g (S j)) ->
  rsum (map (fun j => path_in cam led (g j) (g (S j))) (seq i m)) = path_in cam led (g i) (g (i + m)%nat).
Proof.
  intros cam led g m. induction m as [|m IH]; intros i H; cbn [seq map rsum].
  - rewrite Nat.add_0_r, path_empty. reflexivity.
  - rewrite (IH (S i) H). replace (S i + m)%nat with (i + S m)%nat by lia. apply path_cut; [apply H|].
    assert (M : forall q, g (S i) <= g (S i + q)%nat) by (intros q; induction q as [|q IHq]; [rewrite Nat.add_0_r; lra|eapply Rle_trans; [exact IHq|]; rewrite Nat.add_succ_r; apply H]).
    replace (i + S m)%nat with (S i + m)%nat by lia. apply M.
Qed.

Lemma rdot_app : forall u u' v v', length u = length v -> rdot (u ++ u') (v ++ v') = rdot u v + rdot u' v'.
Proof. intros u u'. induction u as [|a u IH]; intros [|b v] v' L; try discriminate; cbn [app rdot]; [ring|]. injection L as L. rewrite (IH v v' L). ring. Qed.

Lemma rdot_repeat : forall m u v, length u = m -> rdot u (repeat v m) = v * rsum u.
Proof. intros m u v <-. induction u as [|a u IH]; cbn [length repeat rdot rsum]; [ring|]. rewrite IH. ring. Qed.

Lemma rdot_blocks : forall m (f g : nat -> R), (forall i, rsum (map f (seq (m * i) m)) = g i) ->
  forall s i, rdot (map f (seq (m * i) (m * length s))) (cut m s) = rdot (map g (seq i (length s))) s.
Proof.
  intros m f g H s. induction s as [|v s IH]; intros i; [cbn [length cut flat_map]; rewrite Nat.mul_0_r; reflexivity|].
  cbn [length]. replace (m * S (length s))%nat with (m + m * length s)%nat by lia. rewrite seq_app, map_app. unfold cut. cbn [flat_map seq map rdot]. fold (cut m s).
  rewrite rdot_app by (rewrite map_length, seq_length, repeat_length; reflexivity). replace (m * i + m)%nat with (m * S i)%nat by lia. rewrite IH. f_equal.
  rewrite <- H. rewrite rdot_repeat by (rewrite map_length; apply seq_length). ring.
Qed.

Lemma light_cut : forall bot top n m cam led s, bot < top -> (1 <= m)%nat -> (1 <= n)%nat -> length s = n ->
  rdot (paths bot top (m * n) cam led) (cut m s) = rdot (paths bot top n cam led) s.
Proof.
  intros bot top n m cam led s Hbt Hm Hn Ls. subst n. set (n := length s) in *. unfold paths.
  set (g := fun k : nat => bot + INR k * ((top - bot) / INR (m * n))).
  pose proof (rdot_blocks m (fun k => path_in cam led (g k) (g (S k))) (fun k => path_in cam led (bot + INR k * ((top - bot) / INR n)) (bot + INR (S k) * ((top - bot) / INR n)))) as B.
  assert (Pm : 0 < INR m) by (apply lt_0_INR; lia). assert (Pn : 0 < INR n) by (apply lt_0_INR; lia).
  assert (G : forall i, g (m * i)%nat = bot + INR i * ((top - bot) / INR n)) by (intros i; unfold g; rewrite !mult_INR; field; lra).
  specialize (B ltac:(intros i; rewrite (path_chain cam led g m (m * i)); [replace (m * i + m)%nat with (m * S i)%nat by lia; rewrite !G; reflexivity|];
    intros j; unfold g; rewrite S_INR; assert (0 <= (top - bot) / INR (m * n)) by (apply Rmult_le_pos; [lra|left; apply Rinv_0_lt_compat; rewrite mult_INR; apply Rmult_lt_0_compat; assumption]); lra) s 0%nat).
  rewrite Nat.mul_0_r in B. exact B.
Qed.

(** Cutting the layers does not change what is seen: with the distances of the code every LED in view loses as much light. *)
Theorem C136_same_smoke_same_light : forall bot top n m cam led s, bot < top -> (1 <= m)%nat -> (1 <= n)%nat -> length s = n -> in_view bot top cam led ->
  exists few many, traversed_distances (layers bot top n) cam led = Row few /\ traversed_distances (layers bot top (m * n)) cam led = Row many /\
    length few = n /\ length many = (m * n)%nat /\ rdot many (cut m s) = rdot few s.
Proof.
  intros bot top n m cam led s Hbt Hm Hn Ls Hv. exists (paths bot top n cam led), (paths bot top (m * n) cam led).
  split; [apply visible_row; assumption|]. split; [apply visible_row; [nia|assumption|assumption]|]. split; [apply paths_length|]. split; [apply paths_length|]. apply light_cut; assumption.
Qed.
Print Assumptions C136_same_smoke_same_light.

(** A slanted line of sight, two layers cut into three each. *)
Example C136_light_example : exists few many, traversed_distances (layers 0 4 2) (Point 0 0 1) (Point 3 0 4) = Row few /\ traversed_distances (layers 0 4 6) (Point 0 0 1) (Point 3 0 4) = Row many /\
  length few = 2%nat /\ length many = 6%nat /\ rdot many [5; 5; 5; 7; 7; 7] = rdot few [5; 7].
Proof. apply (C136_same_smoke_same_light 0 4 2 3 (Point 0 0 1) (Point 3 0 4) [5; 7]); [lra|lia|lia|reflexivity|]. unfold in_view, within. cbn [pz]. split; [lra|]. split; [lra|]. intros C. exfalso. lra. Qed.

Lemma cut_length : forall m s, length (cut m s) = (m * length s)%nat.
Proof. intros m s. induction s as [|v s IH]; [cbn; lia|]. unfold cut in *. cbn [flat_map length]. rewrite app_length, repeat_length, IH. lia. Qed.

Lemma cut_nonneg : forall m s, nonneg s -> nonneg (cut m s).
Proof.
  intros m s H. unfold nonneg, cut in *. induction H as [|v s Hv H IH]; [constructor|]. cbn [flat_map]. apply Forall_app. split; [|exact IH]. clear - Hv. induction m as [|m IHm]; [constructor|]. cbn [repeat]. constructor; assumption.
Qed.

Lemma zero_rows : forall rows x, Forall (fun r => Forall (fun v => v = 0) r) rows -> sq_dist (mul rows x) (repeat 0 (length rows)) = 0.
Proof.
  intros rows x H. induction H as [|r rows Hr H IH]; [reflexivity|]. unfold mul in *. cbn [map length repeat sq_dist]. rewrite IH.
  assert (Z : forall y, rdot r y = 0) by (clear - Hr; induction Hr as [|v r Hv Hr IH]; intros [|b y]; cbn [rdot]; try reflexivity; rewrite IH, Hv; ring). rewrite Z. ring.
Qed.

Lemma sq_dist_app : forall u u' v v', length u = length v -> sq_dist (u ++ u') (v ++ v') = sq_dist u v + sq_dist u' v'.
Proof. intros u u'. induction u as [|a u IH]; intros [|b v] v' L; try discriminate; cbn [app sq_dist]; [ring|]. injection L as L. rewrite (IH v v' L). ring. Qed.

Lemma no_regularisation : forall n M rel x, length rel = length M -> sq_dist (mul (a_aug 0 n M) x) (b_aug n rel) = sq_dist (mul M x) (map optical_depth rel).
Proof.
  intros n M rel x L. unfold a_aug, b_aug. unfold mul at 1. rewrite map_app. fold (mul M x). rewrite sq_dist_app by (unfold mul; rewrite !map_length; symmetry; exact L).
  rewrite sqrt_0. assert (Z : sq_dist (map (fun r => rdot r x) (map (map (Rmult 0)) (reg_matrix n))) (repeat 0 (length (reg_matrix n))) = 0).
  { rewrite <- (map_length (map (Rmult 0)) (reg_matrix n)). apply zero_rows. apply Forall_forall. intros r Hr. apply in_map_iff in Hr. destruct Hr as (r' & <- & _). apply Forall_forall. intros v Hv. apply in_map_iff in Hv. destruct Hv as (w & <- & _). ring. }
  rewrite Z. ring.
Qed.

Lemma code_matrix : forall bot top n cam ps M, bot < top -> (1 <= n)%nat -> Forall (in_view bot top cam) ps ->
  map (fun p => matrix_row (traversed_distances (layers bot top n) cam p)) ps = map Some M -> M = map (paths bot top n cam) ps.
Proof.
  intros bot top n cam ps M Hbt Hn Hv. revert M. induction Hv as [|p ps V F IH]; intros [|r M] E; try discriminate; [reflexivity|]. cbn [map] in E. rewrite (visible_row bot top n cam p Hn Hbt V) in E. cbn [matrix_row] in E.
  injection E as <- E. cbn [map]. f_equal. apply IH. exact E.
Qed.

(** Without regularisation more layers never fit worse. *)
Theorem C136_more_layers_fit_better : forall nnls bot top n m cam ps rel few many, nnls_contract nnls -> bot < top -> (1 <= m)%nat -> (1 <= n)%nat -> length rel = length ps ->
  Forall (in_view bot top cam) ps ->
  map (fun p => matrix_row (traversed_distances (layers bot top n) cam p)) ps = map Some few ->
  map (fun p => matrix_row (traversed_distances (layers bot top (m * n)) cam p)) ps = map Some many ->
  separates n few -> separates (m * n) many ->
  sq_dist (mul many (linear_coefficients nnls 0 (m * n) many rel)) (map optical_depth rel) <= sq_dist (mul few (linear_coefficients nnls 0 n few rel)) (map optical_depth rel).
Proof.
  intros nnls bot top n m cam ps rel few many Hc Hbt Hm Hn L Hv E1 E2 S1 S2.
  apply code_matrix in E1; [|assumption|assumption|assumption]. apply code_matrix in E2; [|assumption|nia|assumption].
  assert (R0 : forall q, rows_ok q (map (paths bot top q cam) ps)) by (intros q; unfold rows_ok; apply Forall_forall; intros r Hr; apply in_map_iff in Hr; destruct Hr as (p & <- & _); apply paths_length).
  assert (SO : forall q, separates q (map (paths bot top q cam) ps) -> nnls_solution q (a_aug 0 q (map (paths bot top q cam) ps)) (b_aug q rel) (linear_coefficients nnls 0 q (map (paths bot top q cam) ps) rel)).
  { intros q Sq. apply Hc; [apply rows_ok_aug; apply R0|apply aug_length; rewrite map_length; exact L|apply separates_aug; exact Sq]. }
  rewrite E1 in S1. rewrite E2 in S2. destruct (SO n S1) as (C1 & C2 & _). destruct (SO (m * n)%nat S2) as (_ & _ & F3). rewrite <- E1 in C1, C2. rewrite <- E2 in F3. set (x := linear_coefficients nnls 0 n few rel) in *.
  specialize (F3 (cut m x) ltac:(rewrite cut_length, C1; reflexivity) (cut_nonneg m x C2)). rewrite !no_regularisation in F3 by (rewrite E2, map_length; exact L).
  eapply Rle_trans; [exact F3|]. right. f_equal. rewrite E1, E2. unfold mul. rewrite !map_map. apply map_ext. intros p. apply light_cut; assumption.
Qed.
Print Assumptions C136_more_layers_fit_better.

(** ** Too few layers *)

Lemma up_paths : forall h n, 0 < h -> paths 0 2 n (Point 0 0 0) (Point 0 0 h) = map (fun k => Rmax 0 (Rmin (INR (S k) * (2 / INR n)) h - INR k * (2 / INR n))) (seq 0 n).
Proof.
  intros h n Hh. unfold paths. apply map_ext_in. intros k Hk. apply in_seq in Hk. unfold path_in. cbn [pz]. destruct (Req_EM_T 0 h) as [C|_]; [lra|].
  assert (Pn : 0 < INR n) by (apply lt_0_INR; lia). assert (Q : 0 <= INR k * (2 / INR n)) by (apply Rmult_le_pos; [apply pos_INR|apply Rmult_le_pos; [lra|left; apply Rinv_0_lt_compat; exact Pn]]).
  assert (U : euclid (Point 0 0 0) (Point 0 0 h) = h) by (unfold euclid; cbn [px py pz]; replace ((0 - 0) * (0 - 0) + (0 - 0) * (0 - 0) + (0 - h) * (0 - h)) with (h * h) by ring; apply sqrt_square; lra).
  rewrite U. rewrite (Rabs_pos_eq (h - 0)) by lra. unfold overlap. rewrite (Rmax_right 0 h) by lra. rewrite (Rmin_left 0 h) by lra.
  replace (2 - 0) with 2 by ring. rewrite !Rplus_0_l. rewrite (Rmax_left (INR k * (2 / INR n)) 0) by exact Q. field. lra.
Qed.

(** The camera looks up; LEDs at one and two metres; clear air below one metre, above it smoke that takes
    half of the light.  Two layers recover the smoke.  One layer reports less than the mean of the two
    (2/5 ln 2 instead of 1/2 ln 2). *)
Theorem C136_one_layer_refuted : exists cam ps s rel few many,
  map (fun p => matrix_row (traversed_distances (layers 0 2 1) cam p)) ps = map Some few /\ map (fun p => matrix_row (traversed_distances (layers 0 2 2) cam p)) ps = map Some many /\
  separates 1 few /\ separates 2 many /\ map (fun r => - ln r) rel = mul many s /\
  forall nnls, nnls_contract nnls ->
    linear_coefficients nnls 0 2 many rel = s /\
    (exists x, linear_coefficients nnls 0 1 few rel = [x] /\ x < rsum s / 2).
Proof.
  exists (Point 0 0 0), [Point 0 0 1; Point 0 0 2], [0; ln 2], [1; 1 / 2], [[1]; [2]], [[1; 0]; [1; 1]].
  assert (V : Forall (in_view 0 2 (Point 0 0 0)) [Point 0 0 1; Point 0 0 2]) by (repeat (constructor; [unfold in_view, within; cbn [pz]; split; [lra|split; [lra|intros C; exfalso; lra]]|]); constructor).
  assert (X : forall n, (1 <= n)%nat -> map (fun p => matrix_row (traversed_distances (layers 0 2 n) (Point 0 0 0) p)) [Point 0 0 1; Point 0 0 2] = map Some (map (paths 0 2 n (Point 0 0 0)) [Point 0 0 1; Point 0 0 2])).
  { intros n Hn. inversion V as [|? ? V1 V']; subst. inversion V' as [|? ? V2 _]; subst. cbn [map]. rewrite (visible_row 0 2 n _ _ Hn ltac:(lra) V1), (visible_row 0 2 n _ _ Hn ltac:(lra) V2). reflexivity. }
  assert (P1 : map (paths 0 2 1 (Point 0 0 0)) [Point 0 0 1; Point 0 0 2] = [[1]; [2]]).
  { cbn [map]. rewrite !up_paths by lra. cbn [seq map INR]. repeat f_equal.
    - rewrite Rmin_right by lra. rewrite Rmax_right by lra. lra.
    - rewrite Rmin_left by lra. rewrite Rmax_right by lra. lra. }
  assert (P2 : map (paths 0 2 2 (Point 0 0 0)) [Point 0 0 1; Point 0 0 2] = [[1; 0]; [1; 1]]).
  { cbn [map]. rewrite !up_paths by lra. cbn [seq map INR]. repeat f_equal.
    - rewrite Rmin_left by lra. rewrite Rmax_right by lra. lra.
    - rewrite Rmin_right by lra. rewrite Rmax_left by lra. reflexivity.
    - rewrite Rmin_left by lra. rewrite Rmax_right by lra. lra.
    - rewrite Rmin_left by lra. rewrite Rmax_right by lra. lra. }
  assert (S1 : separates 1 [[1]; [2]]).
  { exists 1. split; [lra|]. intros z Hz. destruct z as [|a [|? ?]]; try discriminate. cbn [mul map rdot sq_norm]. pose proof (Rle_0_sqr a) as P. unfold Rsqr in P. lra. }
  assert (S2 : separates 2 [[1; 0]; [1; 1]]).
  { exists (1 / 4). split; [lra|]. intros z Hz. destruct z as [|a [|b [|? ?]]]; try discriminate. unfold mul. cbn [map rdot sq_norm].
    replace (1 * a + (0 * b + 0)) with a by ring. replace (1 * a + (1 * b + 0)) with (a + b) by ring.
    pose proof (Rle_0_sqr a) as Q1. pose proof (Rle_0_sqr (a + b)) as Q2. pose proof (Rle_0_sqr (2 * a + b)) as Q3. unfold Rsqr in Q1, Q2, Q3. lra. }
  assert (L2 : 0 < ln 2) by (rewrite <- ln_1; apply ln_increasing; lra).
  assert (LH : - ln (1 / 2) = ln 2) by (replace (1 / 2) with (/ 2) by lra; rewrite ln_Rinv by lra; ring).
  split; [rewrite (X 1%nat) by lia; rewrite P1; reflexivity|]. split; [rewrite (X 2%nat) by lia; rewrite P2; reflexivity|]. split; [exact S1|]. split; [exact S2|]. split.
  { unfold mul. cbn [map rdot]. rewrite LH, ln_1. f_equal; [ring|]. f_equal. ring. }
  intros nnls Hn.
  assert (O1 : optical_depth 1 = 0) by (unfold optical_depth, clip_rel; rewrite Rmax_left by lra; rewrite Rmin_left by lra; rewrite ln_1; ring).
  assert (O2 : optical_depth (1 / 2) = ln 2) by (unfold optical_depth, clip_rel; rewrite Rmax_left by lra; rewrite Rmin_left by lra; exact LH).
  assert (U : forall n M x, rows_ok n M -> length M = 2%nat -> separates n M -> length x = n -> nonneg x ->
    (forall y, length y = n -> nonneg y -> sq_dist (mul M x) [0; ln 2] <= sq_dist (mul M y) [0; ln 2]) -> linear_coefficients nnls 0 n M [1; 1 / 2] = x).
  { intros n M x HR HL HS Lx Nx Mx. apply (C93_solutions_are_unique n (a_aug 0 n M) (b_aug n [1; 1 / 2])).
    - apply aug_length. rewrite HL. reflexivity.
    - apply separates_aug. exact HS.
    - apply Hn; [apply rows_ok_aug; exact HR|apply aug_length; rewrite HL; reflexivity|apply separates_aug; exact HS].
    - split; [exact Lx|]. split; [exact Nx|]. intros y Ly Ny. rewrite !no_regularisation by (rewrite HL; reflexivity). cbn [map]. rewrite O1, O2. apply Mx; assumption. }
  split.
  - apply U; [repeat constructor|reflexivity|exact S2|reflexivity|constructor; [lra|constructor; [lra|constructor]]|]. intros y Ly Ny. destruct y as [|a [|b [|? ?]]]; try discriminate. unfold mul. cbn [map rdot sq_dist].
    pose proof (Rle_0_sqr (1 * a + (0 * b + 0) - 0)) as Q1. pose proof (Rle_0_sqr (1 * a + (1 * b + 0) - ln 2)) as Q2. unfold Rsqr in Q1, Q2.
    replace (1 * 0 + (0 * ln 2 + 0) - 0) with 0 by ring. replace (1 * 0 + (1 * ln 2 + 0) - ln 2) with 0 by ring. lra.
  - exists (2 / 5 * ln 2). split; [|cbn [rsum]; lra].
    apply U; [repeat constructor|reflexivity|exact S1|reflexivity|constructor; [lra|constructor]|]. intros y Ly Ny. destruct y as [|a [|? ?]]; try discriminate. unfold mul. cbn [map rdot sq_dist].
    pose proof (Rle_0_sqr (a - 2 / 5 * ln 2)) as Q1. unfold Rsqr in Q1. lra.
Qed.
Print Assumptions C136_one_layer_refuted.

(** The two LEDs once more: whatever they show, two layers fit at least as well as one. *)
Example C136_fit_example : forall nnls r1 r2, nnls_contract nnls ->
  sq_dist (mul [[1; 0]; [1; 1]] (linear_coefficients nnls 0 2 [[1; 0]; [1; 1]] [r1; r2])) (map optical_depth [r1; r2]) <= sq_dist (mul [[1]; [2]] (linear_coefficients nnls 0 1 [[1]; [2]] [r1; r2])) (map optical_depth [r1; r2]).
Proof.
  intros nnls r1 r2 Hn.
  assert (V : Forall (in_view 0 2 (Point 0 0 0)) [Point 0 0 1; Point 0 0 2]) by (repeat (constructor; [unfold in_view, within; cbn [pz]; split; [lra|split; [lra|intros C; exfalso; lra]]|]); constructor).
  apply (C136_more_layers_fit_better nnls 0 2 1 2 (Point 0 0 0) [Point 0 0 1; Point 0 0 2] [r1; r2] [[1]; [2]] [[1; 0]; [1; 1]] Hn); [lra|lia|lia|reflexivity|exact V| | | |].
  - inversion V as [|? ? V1 V']; subst. inversion V' as [|? ? V2 _]; subst. cbn [map]. rewrite (visible_row 0 2 1 _ _ ltac:(lia) ltac:(lra) V1), (visible_row 0 2 1 _ _ ltac:(lia) ltac:(lra) V2), !up_paths by lra. cbn [seq map INR matrix_row]. repeat f_equal.
    + rewrite Rmin_right by lra. rewrite Rmax_right by lra. lra.
    + rewrite Rmin_left by lra. rewrite Rmax_right by lra. lra.
  - inversion V as [|? ? V1 V']; subst. inversion V' as [|? ? V2 _]; subst. change (2 * 1)%nat with 2%nat. cbn [map]. rewrite (visible_row 0 2 2 _ _ ltac:(lia) ltac:(lra) V1), (visible_row 0 2 2 _ _ ltac:(lia) ltac:(lra) V2), !up_paths by lra. cbn [seq map INR matrix_row]. repeat f_equal.
    + rewrite Rmin_left by lra. rewrite Rmax_right by lra. lra.
    + rewrite Rmin_right by lra. rewrite Rmax_left by lra. reflexivity.
    + rewrite Rmin_left by lra. rewrite Rmax_right by lra. lra.
    + rewrite Rmin_left by lra. rewrite Rmax_right by lra. lra.
  - exists 1. split; [lra|]. intros z Hz. destruct z as [|a [|? ?]]; try discriminate. cbn [mul map rdot sq_norm]. pose proof (Rle_0_sqr a) as P. unfold Rsqr in P. lra.
  - exists (1 / 4). split; [lra|]. intros z Hz. destruct z as [|a [|b [|? ?]]]; try discriminate. unfold mul. cbn [map rdot sq_norm].
    replace (1 * a + (0 * b + 0)) with a by ring. replace (1 * a + (1 * b + 0)) with (a + b) by ring.
    pose proof (Rle_0_sqr a) as Q1. pose proof (Rle_0_sqr (a + b)) as Q2. pose proof (Rle_0_sqr (2 * a + b)) as Q3. unfold Rsqr in Q1, Q2, Q3. lra.
Qed.
