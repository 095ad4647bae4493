(** C125: the analysis with the distances which the machine computes. *)
From Coq Require Import ZArith QArith String List Permutation Reals Lra Lia Psatz.
From Verif Require Import Base Step2_Model Step3_Model Table_Props Table_Model Table_Spec Analysis_Model Analysis_Props Layers_Model Layers_Spec Layers_Props
  Solver_Model Solver_Props Stable_Props Nnls_Props End_Model End_Props Separate_Proofs Separate_Props Profile_Props
  Rounding_Model Rounding_Props Machine_Model Machine_Props MachineEnd_Model.
Import ListNotations.
Local Open Scope R_scope.

(** ** Matrices that differ a little *)
Definition rows_close (d : R) (A A' : matrix) : Prop := Forall2 (Forall2 (fun x y => Rabs (y - x) <= d)) A A'.

Lemma rdot_vsub_l : forall r' r z, List.length r' = List.length r -> rdot (vsub r' r) z = rdot r' z - rdot r z.
Proof.
  induction r' as [|x r' IH]; intros [|y r] z H; try discriminate; [cbn [vsub rdot]; lra|].
  destruct z as [|w z]; cbn [vsub rdot]; [lra|]. rewrite IH by (cbn in H; lia). ring.
Qed.

Lemma row_error : forall d r r' z, 0 <= d -> Forall2 (fun x y => Rabs (y - x) <= d) r r' ->
  (rdot r' z - rdot r z) * (rdot r' z - rdot r z) <= INR (List.length r) * (d * d) * sq_norm z.
Proof.
  intros d r r' z Hd F. pose proof (Forall2_len _ _ _ F) as L. rewrite <- rdot_vsub_l by congruence.
  eapply Rle_trans; [apply cauchy|]. apply Rmult_le_compat_r; [apply sq_norm_nonneg|].
  clear L z. induction F as [|x y r r' H F IH]; [cbn; lra|]. cbn [vsub sq_norm]. change (List.length (x :: r)) with (S (List.length r)). rewrite S_INR.
  apply abs_le_inv in H. assert (0 <= (d - (y - x)) * (d + (y - x))) by (apply Rmult_le_pos; lra). nra.
Qed.

Lemma mul_error : forall d n A A' z, 0 <= d -> rows_ok n A -> rows_close d A A' ->
  sq_dist (mul A' z) (mul A z) <= INR (List.length A) * (INR n * (d * d) * sq_norm z).
Proof.
  intros d n A A' z Hd HA F. unfold mul. induction F as [|r r' A A' H F IH]; [cbn; lra|]. inversion HA as [|? ? H1 H2]; subst.
  cbn [map sq_dist]. change (List.length (r :: A)) with (S (List.length A)). rewrite S_INR. specialize (IH H2).
  pose proof (row_error d r r' z Hd H). lra.
Qed.

Lemma separates_close : forall c d n A A', 0 <= d -> rows_ok n A -> rows_close d A A' -> 4 * (INR (List.length A) * (INR n * (d * d))) <= c ->
  (forall z, List.length z = n -> c * sq_norm z <= sq_norm (mul A z)) ->
  forall z, List.length z = n -> c / 4 * sq_norm z <= sq_norm (mul A' z).
Proof.
  intros c d n A A' Hd HA F Hc Hz z Lz. specialize (Hz z Lz). pose proof (mul_error d n A A' z Hd HA F) as E.
  assert (T : sq_norm (mul A z) <= 2 * sq_norm (mul A' z) + 2 * sq_dist (mul A' z) (mul A z)).
  { clear - F. unfold mul. induction F as [|r r' A A' H F IH]; [cbn; lra|]. cbn [map sq_norm sq_dist].
    pose proof (Rle_0_sqr (2 * rdot r' z - rdot r z)) as Q. unfold Rsqr in Q. nra. }
  pose proof (sq_norm_nonneg z) as P. pose proof (Rmult_le_compat_r _ _ _ P Hc). lra.
Qed.

(** One image, solved with the distances [A'] instead of [A]. *)
Lemma close_distances_error : forall nnls lambda n A A' rel s c d e, 0 <= lambda -> Forall nonneg A -> rows_ok n A -> nonneg s -> List.length s = n ->
  0 < c -> (forall z, List.length z = n -> c * sq_norm z <= sq_norm (mul A z)) -> 0 <= e < 1 ->
  0 <= d -> rows_close d A A' -> 4 * (INR (List.length A) * (INR n * (d * d))) <= c ->
  Forall2 (fun row v => 1 / 10000000000 <= exp (- rdot row s) /\ Rabs (v - exp (- rdot row s)) <= e * exp (- rdot row s)) A rel ->
  nnls_solution n (a_aug lambda n A') (b_aug n rel) (nnls (a_aug lambda n A') (b_aug n rel)) ->
  sq_dist (linear_coefficients nnls lambda n A' rel) s <=
    (32 * INR (List.length A) * (INR n * (d * d) * sq_norm s) + 32 * INR (List.length A) * (ln (1 - e) * ln (1 - e)) + 8 * (lambda * penalty s)) / c.
Proof.
  intros nnls lambda n A A' rel s c d e Hl NA RA Ns Ls Hc Hz He Hd F Hsmall Fr Sol.
  assert (Lr : List.length rel = List.length A') by (rewrite <- (Forall2_len _ _ _ Fr); apply (Forall2_len _ _ _ F)).
  pose proof (C93_coefficient_error nnls lambda n A' rel s (c / 4) Hl Lr Ls Ns ltac:(lra) (separates_close c d n A A' Hd RA F Hsmall Hz) Sol) as E.
  pose proof (depth_errors_bound A rel s e He NA Ns Fr) as D. pose proof (mul_error d n A A' s Hd RA F) as ME.
  assert (T : depth_errors A' rel s <= 2 * sq_dist (mul A' s) (mul A s) + 2 * depth_errors A rel s).
  { unfold depth_errors. apply sq_dist_triangle; unfold mul; rewrite !map_length; [symmetry; apply (Forall2_len _ _ _ F)|apply (Forall2_len _ _ _ Fr)]. }
  eapply Rle_trans; [exact E|]. apply (Rmult_le_reg_r c); [exact Hc|]. unfold Rdiv.
  replace ((4 * depth_errors A' rel s + 2 * lambda * penalty s) * / (c * / 4) * c) with (16 * depth_errors A' rel s + 8 * (lambda * penalty s)) by (field; lra).
  rewrite Rmult_assoc, Rinv_l by lra. lra.
Qed.

(** ** The distances of the machine *)

(** The lines of sight on which rounding can move no length to another layer:
    if camera and LED have the same height it is no inner border. *)
Definition no_border_between (bot top : R) (n : nat) (cam led : point) : Prop :=
  pz cam = pz led -> forall i, (0 < i < n)%nat -> bot + INR i * ((top - bot) / INR n) <> pz cam.

Lemma borders_apart : forall (f : nat -> R) z n, (forall i, (0 < i < n)%nat -> f i <> z) -> exists g, 0 < g /\ forall i, (0 < i < n)%nat -> g <= Rabs (z - f i).
Proof.
  intros f z n H. induction n as [|n IH]; [exists 1; split; [lra|intros; lia]|]. destruct IH as (g & G1 & G2); [intros; apply H; lia|].
  destruct (Nat.eq_dec n 0) as [->|N]; [exists 1; split; [lra|intros; lia]|].
  assert (P : 0 < Rabs (z - f n)) by (apply Rabs_pos_lt; specialize (H n ltac:(lia)); lra).
  exists (Rmin g (Rabs (z - f n))). split; [apply Rmin_glb_lt; assumption|]. intros i Hi. destruct (Nat.eq_dec i n) as [->|Ni]; [apply Rmin_r|].
  eapply Rle_trans; [apply Rmin_l|]. apply G2. lia.
Qed.

Lemma entry_sum : forall l x, Forall (fun v => 0 <= v) l -> In x l -> x <= sum l.
Proof.
  assert (P : forall l, Forall (fun v => 0 <= v) l -> 0 <= sum l) by (induction 1; cbn [sum]; lra).
  intros l x F. induction F as [|y l H F IH]; intros Hx; [destruct Hx|]. cbn [sum]. pose proof (P l F). destruct Hx as [->|Hx]; [lra|]. specialize (IH Hx). lra.
Qed.

Lemma below_quotient : forall u a b, 0 <= u -> 0 < b -> 0 <= a -> u <= b / (a + 1) -> a * u <= b.
Proof.
  intros u a b Hu Hb Ha H. assert (E : (a + 1) * (b / (a + 1)) = b) by (field; lra). pose proof (Rmult_le_compat_l (a + 1) _ _ ltac:(lra) H). lra.
Qed.

(** One LED: constants given by its position. *)
Lemma machine_row : forall bot top n cam p, (1 <= n)%nat -> bot < top -> in_view bot top cam p -> no_border_between bot top n cam p ->
  exists C u0, 0 <= C /\ 0 < u0 /\ forall u m, accurate u m -> 0 <= u <= u0 -> rnd m bot = bot ->
    exists r', m_distances m (rounded_layers (rnd m) bot top n) cam p = Row r' /\ Forall2 (fun x y => Rabs (y - x) <= C * u) (paths bot top n cam p) r'.
Proof.
  intros bot top n cam p Hn Hb Hv Hno. pose proof Hv as (V1 & V2 & V3). destruct (size_pos bot top Hb) as (_ & _ & S0 & _). set (S := size bot top) in *.
  set (E := euclid cam p). assert (PE : 0 <= E) by apply sqrt_pos.
  assert (PN : 0 <= INR n) by apply pos_INR. assert (PN' : 0 <= INR (n + 18)) by apply pos_INR.
  set (a1 := 21 * S * INR n). assert (A1 : 0 <= a1) by (unfold a1; apply Rmult_le_pos; [lra|exact PN]).
  set (a2 := 2 * INR (n + 18)). assert (A2 : 0 <= a2) by (unfold a2; lra).
  set (a3 := 2 * INR (n + 18) * E). assert (A3 : 0 <= a3) by (unfold a3; apply Rmult_le_pos; lra).
  set (u1 := Rmin (1 / 200) (Rmin ((top - bot) / (a1 + 1)) (Rmin (1 / (a2 + 1)) (1 / 1000000 / (a3 + 1))))).
  assert (U1 : 0 < u1) by (unfold u1; repeat apply Rmin_glb_lt; try lra; apply Rdiv_lt_0_compat; lra).
  assert (Small : forall u, 0 <= u <= u1 -> u <= 1 / 200 /\ a1 * u <= top - bot /\ a2 * u <= 1 /\ a3 * u <= 1 / 1000000).
  { intros u (Hu & Hu'). unfold u1 in Hu'.
    assert (X1 : u <= 1 / 200) by (eapply Rle_trans; [exact Hu'|apply Rmin_l]).
    assert (Y : u <= Rmin ((top - bot) / (a1 + 1)) (Rmin (1 / (a2 + 1)) (1 / 1000000 / (a3 + 1)))) by (eapply Rle_trans; [exact Hu'|apply Rmin_r]).
    assert (X2 : u <= (top - bot) / (a1 + 1)) by (eapply Rle_trans; [exact Y|apply Rmin_l]).
    assert (Y' : u <= Rmin (1 / (a2 + 1)) (1 / 1000000 / (a3 + 1))) by (eapply Rle_trans; [exact Y|apply Rmin_r]).
    assert (X3 : u <= 1 / (a2 + 1)) by (eapply Rle_trans; [exact Y'|apply Rmin_l]).
    assert (X4 : u <= 1 / 1000000 / (a3 + 1)) by (eapply Rle_trans; [exact Y'|apply Rmin_r]).
    split; [exact X1|]. split; [|split]; apply below_quotient; lra. }
  assert (Asc : forall u, 0 <= u <= u1 -> 20 * u * S * INR n < top - bot).
  { intros u Hu. destruct (Small u Hu) as (_ & X & _). unfold a1 in X. assert (Q : 0 <= S * INR n * u) by (apply Rmult_le_pos; [apply Rmult_le_pos; lra|lra]). 
    destruct (Rle_lt_or_eq_dec 0 (S * INR n * u) Q) as [L|L]; [|rewrite <- L in *]; [nra|]. replace (20 * u * S * INR n) with (20 * (S * INR n * u)) by ring. lra. }
  pose proof (visible_row bot top n cam p Hn Hb Hv) as Exact.
  assert (Sum : Forall (fun v => 0 <= v) (paths bot top n cam p)) by apply paths_nonneg.
  destruct (Req_EM_T (pz cam) (pz p)) as [Hz|Nz].
  - (* the same height *)
    destruct (V3 Hz) as (V4 & V5). destruct (borders_apart (fun i => border bot top n i) (pz cam) n) as (g & G1 & G2); [intros i Hi; apply Hno; assumption|].
    exists (12 * E), (Rmin u1 (g / (11 * S))). split; [lra|]. split; [apply Rmin_glb_lt; [exact U1|apply Rdiv_lt_0_compat; lra]|].
    intros u m Hm Hu Hbot. assert (Hu1 : 0 <= u <= u1) by (split; [lra|eapply Rle_trans; [apply Hu|apply Rmin_l]]).
    assert (Hg : u <= g / (11 * S)) by (eapply Rle_trans; [apply Hu|apply Rmin_r]). destruct (Small u Hu1) as (X1 & X2 & X3 & X4).
    assert (Hg' : 10 * u * S < g).
    { assert (Q : 11 * S * (g / (11 * S)) = g) by (field; lra). pose proof (Rmult_le_compat_l (11 * S) _ _ ltac:(lra) Hg) as Q'. nra. }
    pose proof (C123_horizontal_lines u (rnd m) bot top n cam p (proj1 Hm) ltac:(lra) Hn Hb Hbot Hz) as C1. fold S in C1.
    specialize (C1 ltac:(intros i Hi; pose proof (G2 i Hi); lra)). rewrite Exact in C1.
    destruct (C123_rounded_borders_ascend u (rnd m) bot top n (proj1 Hm) ltac:(lra) Hn Hb Hbot (Asc u Hu1)) as (As & Lb).
    destruct (C124_horizontal_lines u m bot top _ n cam p Hm ltac:(lra) As Lb ltac:(unfold a2 in X3; lra) Hb Hz V5) as (R & _).
    fold E in R. destruct R as (ds' & k & D1 & D2 & (lay & L1 & L2) & D3); [unfold within in V1; lra|unfold a3 in X4; lra|].
    exists ds'. split; [exact D1|].
    (* the exact row *)
    assert (Pl : paths bot top n cam p = dist_in_plane (rounded_layers (rnd m) bot top n) cam p).
    { unfold traversed_distances, angle in C1. destruct (Req_EM_T (horizontal_dist cam p) 0) as [C|_].
      - exfalso. apply V5. rewrite (horizontal_euclid cam p Hz). exact C.
      - replace ((pz p - pz cam) / horizontal_dist cam p) with 0 in C1 by (rewrite Hz, Rminus_diag_eq by reflexivity; unfold Rdiv; ring). rewrite atan_0 in C1.
        destruct (Req_EM_T 0 0) as [_|C]; [|lra]. cbv zeta in C1. destruct (consistent _ cam p); [|discriminate]. injection C1 as <-. reflexivity. }
    rewrite Pl. pose proof (ascends_partition bot top _ As) as (P0 & _ & P2 & _). fold (rounded_layers (rnd m) bot top n) in P0, P2, L1.
    destruct (P2 (pz cam) ltac:(unfold within in V1; lra)) as (k' & K1 & K2). assert (Ek : k = k') by (apply (K2 k lay L1); exact L2). subst k'.
    set (rl := rounded_layers (rnd m) bot top n) in *. unfold dist_in_plane.
    assert (Lds : List.length rl = List.length ds') by lia.
    assert (HE : horizontal_dist cam p = E) by (symmetry; apply horizontal_euclid; exact Hz). rewrite HE.
    assert (K3 : forall j l, nth_error rl j = Some l -> in_layer l (pz cam) = (j =? k)%nat).
    { intros j l Hj. apply eq_true_iff_eq. rewrite in_layer_iff, Nat.eqb_eq. apply (K2 j l Hj). }
    clear - Lds D3 K3 PE Hu. 
    assert (G : forall o, (forall j l, nth_error rl j = Some l -> in_layer l (pz cam) = (j + o =? k)%nat) ->
      (forall j d', nth_error ds' j = Some d' -> if (j + o =? k)%nat then Rabs (d' - E) <= 12 * u * E else d' = 0) ->
      Forall2 (fun x y => Rabs (y - x) <= 12 * E * u) (map (fun l => if in_layer l (pz cam) then E else 0) rl) ds').
    { clear D3 K3. revert ds' Lds. induction rl as [|l rl IH]; intros [|d ds'] L o A B; try discriminate; [constructor|]. cbn [map]. constructor.
      - rewrite (A 0%nat l eq_refl). specialize (B 0%nat d eq_refl). destruct (0 + o =? k)%nat; [lra|]. subst d. rewrite Rminus_0_r, Rabs_R0. apply Rmult_le_pos; lra.
      - apply (IH ds' ltac:(cbn in L; lia) (o + 1)%nat).
        + intros j l' Hj. replace (j + (o + 1))%nat with (Datatypes.S j + o)%nat by lia. apply A. exact Hj.
        + intros j d' Hj. replace (j + (o + 1))%nat with (Datatypes.S j + o)%nat by lia. apply (B (Datatypes.S j) d' Hj). }
    apply (G 0%nat); intros j; rewrite Nat.add_0_r; [apply K3|apply D3].
  - set (q := E / Rabs (pz p - pz cam)). assert (PD : 0 < Rabs (pz p - pz cam)) by (apply Rabs_pos_lt; lra).
    assert (PQ : 0 <= q) by (unfold q; apply Rmult_le_pos; [exact PE|left; apply Rinv_0_lt_compat; exact PD]).
    exists (12 * sum (paths bot top n cam p) + 22 * S * q), u1.
    assert (Ps : forall x, In x (paths bot top n cam p) -> x <= sum (paths bot top n cam p)) by (intros; apply entry_sum; assumption).
    assert (P0 : 0 <= sum (paths bot top n cam p)) by (clear - Sum; induction Sum; cbn [sum]; lra).
    split; [assert (0 <= S * q) by (apply Rmult_le_pos; lra); lra|]. split; [exact U1|]. intros u m Hm Hu Hbot. destruct (Small u Hu) as (X1 & X2 & X3 & X4).
    destruct (C124_distances_of_the_machine u m bot top n cam p Hm ltac:(lra) Hn Hb Hbot (Asc u Hu) ltac:(unfold a2 in X3; lra) ltac:(fold E; unfold a3 in X4; lra) Nz V1 V2)
      as (ds & ds' & D1 & D2 & D3).
    rewrite Exact in D1. injection D1 as <-. exists ds'. split; [exact D2|]. fold E S in D3. fold q in D3.
    set (Sm := sum (paths bot top n cam p)) in *. clearbody Sm. clear - D3 Ps Hu. induction D3 as [|x y l l' H F IH]; constructor.
    + eapply Rle_trans; [exact H|]. pose proof (Ps x (or_introl eq_refl)) as B. pose proof (Rmult_le_compat_l (12 * u) _ _ ltac:(lra) B). lra.
    + apply IH. intros x' Hx'. apply Ps. right. exact Hx'.
Qed.

(** All LEDs. *)
Lemma machine_rows : forall bot top n cam ps, (1 <= n)%nat -> bot < top -> Forall (in_view bot top cam) ps -> Forall (no_border_between bot top n cam) ps ->
  exists C u0, 0 <= C /\ 0 < u0 /\ forall u m, accurate u m -> 0 <= u <= u0 -> rnd m bot = bot ->
    exists M', Forall2 (fun p r => m_distances m (rounded_layers (rnd m) bot top n) cam p = Row r) ps M' /\ rows_close (C * u) (map (paths bot top n cam) ps) M'.
Proof.
  intros bot top n cam ps Hn Hb V N. induction V as [|p ps V1 V2 IH]; [exists 0, 1; split; [lra|]; split; [lra|]; intros; exists []; split; constructor|].
  inversion N as [|? ? N1 N2]; subst. destruct (IH N2) as (C & u0 & C0 & U0 & H). destruct (machine_row bot top n cam p Hn Hb V1 N1) as (C' & u0' & C0' & U0' & H').
  exists (Rmax C C'), (Rmin u0 u0'). split; [eapply Rle_trans; [exact C0|apply Rmax_l]|]. split; [apply Rmin_glb_lt; assumption|].
  intros u m Hm Hu Hbot. assert (L1 : 0 <= u <= u0) by (split; [lra|eapply Rle_trans; [apply Hu|apply Rmin_l]]). assert (L2 : 0 <= u <= u0') by (split; [lra|eapply Rle_trans; [apply Hu|apply Rmin_r]]).
  destruct (H u m Hm L1 Hbot) as (M' & F1 & F2). destruct (H' u m Hm L2 Hbot) as (r' & R1 & R2).
  assert (Q1 : C * u <= Rmax C C' * u) by (apply Rmult_le_compat_r; [lra|apply Rmax_l]). assert (Q2 : C' * u <= Rmax C C' * u) by (apply Rmult_le_compat_r; [lra|apply Rmax_r]).
  exists (r' :: M'). split; [constructor; assumption|]. cbn [map]. constructor.
  - eapply Forall2_imp; [|exact R2]. cbv beta. intros; lra.
  - eapply Forall2_imp; [|exact F2]. cbv beta. intros a b Hab. eapply Forall2_imp; [|exact Hab]. cbv beta. intros; lra.
Qed.

(** ** C125 *)

(** Constants [K] and [u0], given by the positions and the layers alone: with
    every machine whose operations have a relative error [u] of at most [u0] the
    analysis succeeds, and rounding the distances adds at most [K u^2] times the
    square of the smoke to the square of the error. *)
Theorem C125_analysis_with_rounded_distances : forall bot top nlay cam ps H,
  (1 <= nlay)%nat -> bot < top -> within bot top (pz cam) -> Forall (in_view bot top cam) ps -> Forall (no_border_between bot top nlay cam) ps ->
  Forall2 (counts_at bot top nlay cam) ps H -> enough_heights bot top nlay (pz cam :: H) ->
  exists K u0, 0 < K /\ 0 < u0 /\
  forall u m A groups arrays a l n recs t coords indices num nnls lambda eps smoke bright cpus order,
  accurate u m -> 0 <= u <= u0 -> rnd m bot = bot ->
  (* the LED arrays, the records of the images 1..n and the binary table *)
  ascending_merge groups -> arrays = merge_indices (reorder_led_indices A) groups ->
  nth_error arrays a = Some l -> (2 <= List.length l)%nat -> (1 <= n)%Z ->
  (forall i, (1 <= i <= n)%Z -> exists F (fit : option (list (list Z) -> res F)) img r areas arrays' ds,
     Forall2 (@Permutation Z) arrays' arrays /\
     generate_analysis_data fit img r areas arrays' 0 = Ok ds /\
     map (fun d => (d_id d, d_array d)) ds = map (fun d => (d_id d, d_array d)) (recs i)) ->
  table_of_images t n recs ->
  Forall2 (fun id p => (0 <= id)%Z /\ nth_error coords (Z.to_nat id) = Some p) l ps ->
  (* the smoke in every image; none in the reference images *)
  (forall i, (1 <= i <= n)%Z -> List.length (smoke i) = nlay /\ nonneg (smoke i)) ->
  (forall i, (1 <= i <= n)%Z -> is_reference indices num i -> smoke i = repeat 0 nlay) ->
  (exists i, (1 <= i <= n)%Z /\ is_reference indices num i) ->
  (* every recorded sum is the brightness of the LED times the transmission, up to the relative error eps *)
  0 <= eps -> table_error eps < 1 / 3 ->
  (forall i d p, (1 <= i <= n)%Z -> In d (recs i) -> d_array d = Z.of_nat a -> nth_error coords (Z.to_nat (d_id d)) = Some p ->
     0 < bright (d_id d) /\ 1 / 10000000000 <= transmission bot top nlay cam p (smoke i) /\
     close_to (bright (d_id d) * transmission bot top nlay cam p (smoke i)) eps (IZR (d_sum d))) ->
  0 <= lambda -> nnls_contract nnls -> Permutation order (seq 0 (Z.to_nat n)) ->
  exists xs, analyse_on m mean (solve_linear nnls lambda nlay) bot top nlay cam coords (nth_error (index_files arrays) a) t (Z.of_nat a) "sum_col_val" indices num cpus order = Ok xs /\
    List.length xs = Z.to_nat n /\
    forall i x, (1 <= i <= n)%Z -> nth_error xs (Z.to_nat (i - 1)) = Some x ->
      sq_dist x (smoke i) <= K * (ln (1 - relative_error eps) * ln (1 - relative_error eps) + lambda * penalty (smoke i) + u * u * sq_norm (smoke i)).
Proof.
  intros bot top nlay cam ps H Hlay Hbt Hc Hview Hno HH He.
  apply (C110_when_layers_are_told_apart bot top nlay cam ps H _ Hlay Hbt Hc Hview HH (rows_exist bot top nlay cam ps Hlay Hbt Hview)) in He.
  set (M := map (paths bot top nlay cam) ps) in *. destruct He as (c & Hcc & Hz).
  assert (NonM : Forall nonneg M) by (unfold M; apply Forall_map, Forall_forall; intros p _; apply paths_nonneg).
  assert (RowM : rows_ok nlay M) by (unfold rows_ok, M; apply Forall_map, Forall_forall; intros p _; apply paths_length).
  destruct (machine_rows bot top nlay cam ps Hlay Hbt Hview Hno) as (C & u1 & HC & Hu1 & Rows). fold M in Rows.
  set (N := INR (List.length M)). assert (PN : 0 <= N) by apply pos_INR. assert (Pn : 0 <= INR nlay) by apply pos_INR.
  set (w := N * (INR nlay * (C * C))). assert (Pw : 0 <= w) by (unfold w; apply Rmult_le_pos; [exact PN|apply Rmult_le_pos; [exact Pn|nra]]).
  exists ((32 * w + 32 * N + 8) / c), (Rmin u1 (Rmin 1 (c / (4 * w + 1)))).
  split; [apply Rdiv_lt_0_compat; lra|]. split; [repeat apply Rmin_glb_lt; try lra; apply Rdiv_lt_0_compat; lra|].
  intros u m A groups arrays a l n recs t coords indices num nnls lambda eps smoke bright cpus order Hm Hu Hbot
    Hg Harr Ha Hl Hn Hrec Ht Hps Hsm Hsm0 Href Heps Heps' Hmeas Hlam Hnnls Hord.
  assert (Hu' : 0 <= u <= u1) by (split; [lra|eapply Rle_trans; [apply Hu|apply Rmin_l]]).
  assert (Hr : u <= Rmin 1 (c / (4 * w + 1))) by (eapply Rle_trans; [apply Hu|apply Rmin_r]).
  assert (Hr1 : u <= 1) by (eapply Rle_trans; [exact Hr|apply Rmin_l]). assert (Hr2 : u <= c / (4 * w + 1)) by (eapply Rle_trans; [exact Hr|apply Rmin_r]).
  assert (Hd : 4 * (N * (INR nlay * ((C * u) * (C * u)))) <= c).
  { replace (4 * (N * (INR nlay * ((C * u) * (C * u))))) with (4 * w * u * u) by (unfold w; ring).
    pose proof (below_quotient u (4 * w) c ltac:(lra) Hcc ltac:(lra) Hr2) as B. assert (0 <= 4 * w * u) by (apply Rmult_le_pos; lra). nra. }
  destruct (Rows u m Hm Hu' Hbot) as (M' & D1 & D2). pose proof (relative_error_range eps Heps Heps') as Re.
  assert (RowM' : rows_ok nlay M').
  { clear - RowM D2. unfold rows_ok in *. induction D2 as [|r r' M M' H F IH]; [constructor|]. inversion RowM; subst. constructor; [symmetry; apply (Forall2_len _ _ _ H)|apply IH; assumption]. }
  assert (Cu : 0 <= C * u) by (apply Rmult_le_pos; lra).
  apply (any_distances_if A groups arrays a l n recs t coords ps indices num bot top nlay cam _ M' (solve_linear nnls lambda nlay) (fun _ => True)
    (fun s x => sq_dist x s <= (32 * w + 32 * N + 8) / c * (ln (1 - relative_error eps) * ln (1 - relative_error eps) + lambda * penalty s + u * u * sq_norm s)) eps smoke bright cpus order); try assumption.
  - cbv zeta. fold M. intros last qs s _ Ls Ns _ F. pose proof (Forall2_len _ _ _ F) as L. pose proof (Forall2_len _ _ _ D2) as L'.
    exists (linear_coefficients nnls lambda nlay M' (map Q2R qs)). split.
    + unfold solve_linear. rewrite all_some_map, all_some_fin, <- L, L', Nat.eqb_refl. reflexivity.
    + assert (Sol : nnls_solution nlay (a_aug lambda nlay M') (b_aug nlay (map Q2R qs)) (nnls (a_aug lambda nlay M') (b_aug nlay (map Q2R qs)))).
      { apply Hnnls; [apply rows_ok_aug; exact RowM'|apply aug_length; congruence|]. apply separates_aug. exists (c / 4). split; [lra|].
        apply (separates_close c (C * u) nlay M M' Cu RowM D2 Hd Hz). }
      eapply Rle_trans; [apply (close_distances_error nnls lambda nlay M M' (map Q2R qs) s c (C * u) (relative_error eps)); assumption|].
      fold N. set (y := ln (1 - relative_error eps) * ln (1 - relative_error eps)) in *. assert (Py : 0 <= y) by apply Rle_0_sqr.
      assert (Pp : 0 <= lambda * penalty s).
      { apply Rmult_le_pos; [exact Hlam|]. unfold penalty. destruct (3 <=? List.length s)%nat; [apply roughness_nonneg|apply sq_norm_nonneg]. }
      pose proof (sq_norm_nonneg s) as Pq. unfold Rdiv.
      replace ((32 * w + 32 * N + 8) * / c * (y + lambda * penalty s + u * u * sq_norm s)) with ((32 * w + 32 * N + 8) * (y + lambda * penalty s + u * u * sq_norm s) * / c) by ring.
      apply Rmult_le_compat_r; [left; apply Rinv_0_lt_compat; exact Hcc|].
      replace (32 * N * (INR nlay * (C * u * (C * u)) * sq_norm s)) with (32 * w * (u * u * sq_norm s)) by (unfold w; ring).
      assert (Pu : 0 <= u * u * sq_norm s) by (apply Rmult_le_pos; [nra|exact Pq]).
      pose proof (Rmult_le_pos _ _ Pw Py). pose proof (Rmult_le_pos _ _ Pw Pp). pose proof (Rmult_le_pos _ _ PN Pp). pose proof (Rmult_le_pos _ _ PN Pu). nra.
  - intros i Hi. destruct (Hsm i Hi) as (S1 & S2). split; [exact S1|]. split; [exact S2|exact I].
Qed.
Print Assumptions C125_analysis_with_rounded_distances.

(** *** The example of C94 on a machine which rounds upwards. *)
Lemma eg_heights : enough_heights 0 3 3 [0; 1; 2; 3].
Proof.
  intros i j Hij. exists (map INR (seq i (j - i + 1))). split; [|split].
  - apply FinFun.Injective_map_NoDup; [intros a b H; apply INR_eq; exact H|apply seq_NoDup].
  - rewrite map_length, seq_length. lia.
  - intros z Hz. apply in_map_iff in Hz. destruct Hz as (k & <- & Hk). apply in_seq in Hk.
    assert (D : (3 - 0) / INR 3 = 1) by (cbn [INR]; field). rewrite D. assert (L1 : INR i <= INR k) by (apply le_INR; lia). assert (L2 : INR k <= INR j) by (apply le_INR; lia).
    split; [|lra]. assert (K : (k = 0 \/ k = 1 \/ k = 2 \/ k = 3)%nat) by lia. destruct K as [->|[->|[->| ->]]]; cbn [INR In]; [left|right; left|right; right; left|right; right; right; left]; ring.
Qed.

Example C125_example : exists K u0, 0 < K /\ 0 < u0 /\ forall u nnls lambda cpus, 0 <= u <= u0 -> nnls_contract nnls -> 0 <= lambda ->
  exists x1 x2, analyse_on (rough u) mean (solve_linear nnls lambda 3) 0 3 3 eg_cam eg_coords (Some [2; 1; 0]%Z) eg_table 0 "sum_col_val" None 1 cpus [1; 0]%nat = Ok [x1; x2] /\
    sq_dist x1 [0; 0; 0] <= K * (1 / 10000000) /\ sq_dist x2 [ln 2; ln 2; ln 2] <= K * (1 / 10000000 + 3 * (ln 2 * ln 2) * (u * u)).
Proof.
  assert (L2 : 0 < ln 2) by (rewrite <- ln_1; apply ln_increasing; lra).
  destruct (C125_analysis_with_rounded_distances 0 3 3 eg_cam eg_coords [1; 2; 3]) as (K & u0 & HK & Hu0 & Main).
  * lia.
  * lra.
  * unfold within, eg_cam. cbn [pz]. lra.
  * unfold eg_coords. repeat (constructor; [unfold in_view, within, eg_cam; cbn [pz]; split; [lra|split; [lra|intros C; exfalso; lra]]|]). constructor.
  * unfold eg_coords. repeat (constructor; [intros C; unfold eg_cam in C; cbn [pz] in C; exfalso; lra|]). constructor.
  * unfold eg_coords. repeat (constructor; [left; unfold eg_cam; cbn [pz]; split; [lra|reflexivity]|]). constructor.
  * exact eg_heights.
  * assert (Bound : ln (1 - relative_error 0) * ln (1 - relative_error 0) <= 1 / 10000000).
    { assert (E : relative_error 0 = 2 / 19999) by (unfold relative_error, table_error; field). rewrite E.
      assert (X : ln (1 - 2 / 19999) = - ln (19999 / 19997)) by (rewrite <- ln_Rinv by lra; f_equal; field).
      assert (Y : 0 <= ln (19999 / 19997) <= 2 / 19997).
      { split; [rewrite <- ln_1; left; apply ln_increasing; lra|]. pose proof (exp_ineq1 (2 / 19997) ltac:(lra)) as Q.
        rewrite <- (ln_exp (2 / 19997)). left. apply ln_increasing; lra. }
      rewrite X. set (y := ln (19999 / 19997)) in *. replace (- y * - y) with (y * y) by ring.
      assert (Z : y * y <= 2 / 19997 * (2 / 19997)) by (apply Rmult_le_compat; lra). lra. }
    exists K, (Rmin u0 (1 / 2)). split; [exact HK|]. split; [apply Rmin_glb_lt; lra|]. intros u nnls lambda cpus Hu Hnnls Hlam.
    assert (Hu1 : 0 <= u <= u0) by (split; [lra|eapply Rle_trans; [apply Hu|apply Rmin_l]]). assert (Hu2 : u <= 1 / 2) by (eapply Rle_trans; [apply Hu|apply Rmin_r]).
    destruct (Main u (rough u) [[0; 1; 2]%Z] None [[0; 1; 2]%Z] 0%nat [0; 1; 2]%Z 2%Z eg_recs eg_table eg_coords None 1%Z nnls lambda 0 eg_smoke (fun _ => 8000) cpus [1; 0]%nat)
      as (xs & X1 & X2 & X3); clear Main.
    - apply rough_accurate. lra.
    - exact Hu1.
    - cbn [rnd rough]. unfold upwards. ring.
    - exact I.
    - reflexivity.
    - reflexivity.
    - simpl. lia.
    - lia.
    - intros i Hi. assert (Ci : (i = 1 \/ i = 2)%Z) by lia. exists Format_Model.fit_data, None, ex_img, 1%Z, eg_areas, [[0; 1; 2]%Z].
      eexists. split; [repeat constructor; apply Permutation_refl|]. split; [vm_compute; reflexivity|]. destruct Ci as [-> | -> ]; reflexivity.
    - exists (map (fun i => map (plain_row i) (eg_recs i)) [1; 2]%Z). split; [reflexivity|].
      assert (X : forall i, (i = 1 \/ i = 2)%Z -> rows_of_image (row_of_record (cols eg_table) i) (eg_recs i) (map (plain_row i) (eg_recs i))).
      { intros i Hi. exists (eg_recs i). split; [apply Permutation_refl|]. split.
        - destruct Hi as [-> | -> ]; vm_compute; repeat constructor; intros C; discriminate C.
        - assert (F : Forall (fun d => (0 <= d_sum d)%Z) (eg_recs i)) by (destruct Hi as [-> | -> ]; vm_compute; repeat constructor; intros C; discriminate C).
          cbn [cols eg_table]. clear - F. induction F as [|d ds H F IH]; [constructor|]. cbn [map]. constructor; [apply plain_row_ok; exact H|exact IH]. }
      change (zrange 1 (2 + 1)) with [1; 2]%Z. cbn [map]. constructor; [apply X; left; reflexivity|]. constructor; [apply X; right; reflexivity|constructor].
    - unfold eg_coords. repeat (constructor; [split; [lia|reflexivity]|]). constructor.
    - intros i Hi. unfold eg_smoke. destruct (i =? 1)%Z; (split; [reflexivity|]); [apply zeros_nonneg|]. unfold nonneg. repeat (constructor; [lra|]). constructor.
    - intros i Hi Hr. cbn [is_reference] in Hr. assert (i = 1)%Z by lia. subst i. reflexivity.
    - exists 1%Z. split; [lia|]. cbn. lia.
    - lra.
    - unfold table_error. lra.
    - assert (TR : forall j p s, nth_error eg_coords j = Some p -> s = ln 2 -> exists m, (m = INR (S j) * ln 2) /\ transmission 0 3 3 eg_cam p [s; s; s] = exp (- m)).
      { intros j p s Hj ->. exists (INR (S j) * ln 2). split; [reflexivity|]. unfold transmission. f_equal. f_equal.
        assert (N : nth_error (map (paths 0 3 3 eg_cam) eg_coords) j = Some (paths 0 3 3 eg_cam p)) by (rewrite nth_error_map, Hj; reflexivity). rewrite eg_paths in N.
        destruct j as [|[|[|j]]]; cbn [nth_error] in N; try (apply Some_inj in N; rewrite <- N; cbn [rdot INR]; ring). destruct j; discriminate N. }
      assert (H1 : exp (- ln 2) = 1 / 2) by (rewrite exp_Ropp, exp_ln by lra; lra).
      assert (P : forall j, exp (- (INR (S j) * ln 2)) = (1 / 2) ^ S j).
      { induction j as [|j IH]; [cbn [INR pow]; rewrite Rmult_1_l, H1; lra|]. rewrite S_INR. replace (- ((INR (S j) + 1) * ln 2)) with (- (INR (S j) * ln 2) + - ln 2) by ring.
        rewrite exp_plus, IH, H1. cbn [pow]. lra. }
      intros i d p Hi Hd _ Hp. assert (Ci : (i = 1 \/ i = 2)%Z) by lia. destruct Ci as [-> | -> ].
      + assert (T0 : transmission 0 3 3 eg_cam p (eg_smoke 1) = 1) by (unfold transmission, eg_smoke; cbn [Z.eqb Pos.eqb]; rewrite rdot_zeros, Ropp_0; apply exp_0).
        rewrite T0. split; [lra|]. split; [lra|]. apply close_bounds. destruct Hd as [<-|[<-|[<-|[]]]]; cbn [d_sum fst snd]; lra.
      + change (eg_smoke 2) with [ln 2; ln 2; ln 2]. destruct (TR _ p (ln 2) Hp eq_refl) as (m & -> & Tm). rewrite Tm, P. split; [lra|].
        destruct Hd as [<-|[<-|[<-|[]]]]; cbn [d_id d_sum fst snd]; [change (Z.to_nat 0) with 0%nat|change (Z.to_nat 1) with 1%nat|change (Z.to_nat 2) with 2%nat];
          cbn [pow]; (split; [lra|]); apply close_bounds; lra.
    - exact Hlam.
    - exact Hnnls.
    - apply perm_swap.
    - change (nth_error (index_files [[0; 1; 2]%Z]) 0) with (Some [2; 1; 0]%Z) in X1. change (Z.of_nat 0) with 0%Z in X1.
      destruct xs as [|x1 [|x2 [|x3 xs]]]; try discriminate X2. exists x1, x2. split; [exact X1|].
      pose proof (X3 1%Z x1 ltac:(lia) eq_refl) as Y1. pose proof (X3 2%Z x2 ltac:(lia) eq_refl) as Y2.
      change (eg_smoke 1) with [0; 0; 0] in Y1. change (eg_smoke 2) with [ln 2; ln 2; ln 2] in Y2.
      unfold penalty in Y1, Y2. cbn [List.length Nat.leb roughness sq_norm] in Y1, Y2.
      split; (eapply Rle_trans; [eassumption|]); (apply Rmult_le_compat_l; [lra|]); lra.
Qed.
