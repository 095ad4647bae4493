(** C114: the configured coordinates of the edge LEDs reach the analysis. *)
From Coq Require Import ZArith QArith Qround Qabs Qreals Reals Lia Lra Bool String List Permutation Sorted.
From Verif Require Import Base Coordinates_Model Coordinates_Props.
From Verif Require Format_Model CoordFile_Model CoordFile_Props Cache_Model.
Import ListNotations.
Local Open Scope R_scope.

(** ** Specification *)

(** Equal up to e. *)
Definition within (e x y : R) : Prop := Rabs (y - x) <= e.

(** The rows of the file hold the computed rows up to e (the rounding of
    float64 and of all computations). *)
Definition stored (e : R) (l : led * (R * R)) (r : CoordFile_Model.coord_row) : Prop :=
  CoordFile_Model.c_id r = l_id (fst l) /\
  within e (fst (fst (l_pos (fst l)))) (Q2R (CoordFile_Model.c_x r)) /\ within e (snd (fst (l_pos (fst l)))) (Q2R (CoordFile_Model.c_y r)) /\
  within e (snd (l_pos (fst l))) (Q2R (CoordFile_Model.c_z r)) /\
  within e (fst (snd l)) (Q2R (CoordFile_Model.c_width r)) /\ within e (snd (snd l)) (Q2R (CoordFile_Model.c_height r)).

(** A point read from the file lies at the position q up to e. *)
Definition at_position (e : R) (q : pos) (p : Q * Q * Q) : Prop :=
  within e (fst (fst q)) (Q2R (fst (fst p))) /\ within e (snd (fst q)) (Q2R (snd (fst p))) /\ within e (snd q) (Q2R (snd p)).

(** The rounding of the file. *)
Definition decimals : R := 1 / 2000000.

Lemma near_within : forall e x v q, within e x (Q2R q) -> CoordFile_Props.near6 q v -> within (e + decimals) x (Q2R v).
Proof.
  intros e x v q H N. unfold CoordFile_Props.near6 in N. apply Qabs_Qle_condition in N. destruct N as [N1 N2]. apply Qle_Rle in N1, N2.
  rewrite Q2R_minus in N1, N2. rewrite Q2R_opp in N1. assert (E : Q2R (1 # 2000000) = decimals) by (unfold Q2R, decimals; cbn; lra). rewrite E in N1, N2.
  unfold within in *. apply Rabs_le. unfold Rabs in H. destruct (Rcase_abs (Q2R q - x)); lra.
Qed.

Lemma stored_nth : forall e leds rs n r, Forall2 (stored e) leds rs -> nth_error rs n = Some r -> exists l, nth_error leds n = Some l /\ stored e l r.
Proof.
  intros e leds rs n r H. revert n. induction H as [|l r' leds rs S H IH]; intros [|n] E; try discriminate.
  - apply Some_inj in E. subst r'. exists l. split; [reflexivity|exact S].
  - apply IH. exact E.
Qed.

Lemma calculate_2d_lengths : forall fit ps ws hs, calculate_2d fit ps = Ok (ws, hs) -> length ws = length ps /\ length hs = length ps.
Proof.
  intros fit ps ws hs H. unfold calculate_2d in H. set (pl := fit (points_array ps)) in H. clearbody pl.
  assert (L : let '(xs, ys, zs) := points_array ps in length xs = length ps /\ length ys = length ps /\ length zs = length ps).
  { unfold points_array. assert (T : let '(xs, ys, zs) := transposed ps in length xs = length ps /\ length ys = length ps /\ length zs = length ps).
    { unfold transposed. rewrite !map_length. split; [reflexivity|split; reflexivity]. }
    destruct ps as [|p1 [|p2 [|p3 [|p4 l]]]]; exact T || (cbn; split; [reflexivity|split; reflexivity]). }
  destruct (points_array ps) as [[xs ys] zs]. destruct L as (L1 & L2 & L3). unfold project_array, plane_coordinates in H.
  set (pr := map (fun p => project pl (fst p) (snd p)) (combine xs ys)) in H.
  assert (Lp : length pr = length ps) by (unfold pr; rewrite map_length, combine_length; lia). clearbody pr.
  set (rw := map (fun p => raw_width pl (fst p) (snd p)) (combine (map fst pr) (map snd pr))) in H.
  assert (Lw : length rw = length ps) by (unfold rw; rewrite map_length, combine_length, !map_length; lia). clearbody rw.
  destruct rw as [|w l]; [discriminate|]. apply Ok_inj in H. assert (E1 : ws = map (fun v => v - minimum w l) (w :: l)) by congruence.
  assert (E2 : hs = map (fun z => z + 0) zs) by congruence. subst ws hs. rewrite !map_length. split; assumption.
Qed.

Lemma place_arrays_keys : forall files coords rows rows', place_arrays files coords rows = Ok rows' -> keys rows' = keys rows.
Proof.
  induction files as [|[ids|] files IH]; intros coords rows rows' H; cbn [place_arrays] in H; [apply Ok_inj in H; subst; reflexivity| |discriminate].
  destruct ids as [|i l]; [discriminate|]. destruct coords as [|[q1 q2] coords']; [discriminate|].
  destruct (place_array q1 q2 (i :: l) rows) as [mid|] eqn:Em; [|discriminate]. cbn [bind] in H.
  rewrite (IH _ _ _ H). apply (place_array_spec _ _ _ _ _ Em).
Qed.

(** The rows with their widths and heights. *)
Lemma coordinates_rows : forall fit areas files coords leds, calculate_coordinates fit areas files coords = Ok leds ->
  exists rows ws hs, calculate_3d areas files coords = Ok rows /\ calculate_2d fit (map l_pos rows) = Ok (ws, hs) /\
    map fst leds = rows /\ map (fun l => fst (snd l)) leds = ws /\ map (fun l => snd (snd l)) leds = hs.
Proof.
  intros fit areas files coords leds H. unfold calculate_coordinates in H. destruct (calculate_3d areas files coords) as [rows|] eqn:E3; [|discriminate]. cbn [bind] in H.
  destruct (calculate_2d fit (map l_pos rows)) as [[ws hs]|] eqn:E2; [|discriminate]. cbn [bind fst snd] in H. apply Ok_inj in H. subst leds.
  destruct (calculate_2d_lengths _ _ _ _ E2) as [L1 L2]. rewrite map_length in L1, L2. exists rows, ws, hs. split; [reflexivity|]. split; [exact E2|].
  clear E2 E3. revert ws hs L1 L2. induction rows as [|r rows IH]; intros [|w ws] [|h hs] L1 L2; try discriminate; [split; [reflexivity|split; reflexivity]|].
  destruct (IH ws hs) as (A & B & C); [injection L1; auto|injection L2; auto|]. cbn [combine map fst snd]. rewrite A, B, C. split; [reflexivity|split; reflexivity].
Qed.

(** ** The theorems *)

(** Step 1 and 2 number the search areas from 0.  Every LED of an array has, in
    the distance calculation, the position computed for it: on the straight
    line through the two configured points, which the edge LEDs take. *)
Theorem C114_positions_reach_the_analysis : forall fit areas files coords leds e rs k array q1 q2,
  calculate_coordinates fit areas files coords = Ok leds -> disjoint_files files ->
  map fst areas = map Z.of_nat (seq 0 (length areas)) -> (2 <= length areas)%nat ->
  Forall2 (stored e) leds rs ->
  (* the file of the array, also read by the experiment *)
  nth_error files k = Some (Some (rev array)) -> nth_error coords k = Some (q1, q2) -> array <> [] -> incl array (map fst areas) ->
  exists ps, CoordFile_Model.get_led_positions (CoordFile_Model.coord_file rs) (rev array) = Ok ps /\
    Forall2 (fun id p => (exists t, at_position (e + decimals) (lerp t q1 q2) p) /\
                         (id = hd 0%Z array -> at_position (e + decimals) q1 p) /\
                         (id = last array 0%Z -> at_position (e + decimals) q2 p)) (rev array) ps.
Proof.
  intros fit areas files coords leds e rs k array q1 q2 H Hd Ha Hn Hst Hk Hc Hne Hin.
  destruct (coordinates_rows _ _ _ _ _ H) as (rows & ws & hs & E3 & _ & Em & _). clear H.
  destruct (C46_leds_are_interpolated_on_the_3d_line areas files coords rows E3 Hd) as [K F].
  assert (Nd : NoDup (map fst areas)).
  { rewrite Ha. apply FinFun.Injective_map_NoDup; [intros a b; apply Nat2Z.inj|apply seq_NoDup]. }
  assert (Lr : length leds = length areas) by (rewrite <- K, <- Em, !map_length; reflexivity).
  pose proof (Forall2_len _ _ _ Hst) as Ls.
  assert (Ids : forall id, In id (rev array) -> (0 <= id < Z.of_nat (length rs))%Z).
  { intros id Hi. apply in_rev in Hi. apply Hin in Hi. rewrite Ha in Hi. apply in_map_iff in Hi. destruct Hi as (n & <- & Hi). apply in_seq in Hi. lia. }
  destruct (CoordFile_Props.C113_positions_are_read_back rs (rev array)) as (ps & P1 & P2).
  { lia. } { intros C. apply Hne. rewrite <- (rev_involutive array), C. reflexivity. } { exact Ids. }
  exists ps. split; [exact P1|].
  assert (G : forall id r p, In id (rev array) -> nth_error rs (Z.to_nat id) = Some r -> CoordFile_Props.room_entry r p ->
    exists l, In l rows /\ l_id l = id /\ at_position (e + decimals) (l_pos l) p).
  { intros id r p Hi Hr (R1 & R2 & R3). destruct (stored_nth e leds rs _ r Hst Hr) as (l & L1 & (S0 & S1 & S2 & S3 & _)).
    exists (fst l). split; [rewrite <- Em; apply in_map; apply (nth_error_In _ _ L1)|]. split.
    - specialize (Ids id Hi). assert (M : nth_error (map (fun l => l_id (fst l)) leds) (Z.to_nat id) = Some (l_id (fst l))) by exact (map_nth_error (fun l => l_id (fst l)) _ _ L1).
      assert (Q : map (fun l => l_id (fst l)) leds = map fst areas) by (rewrite <- K, <- Em, !map_map; reflexivity). rewrite Q, Ha in M.
      rewrite (map_nth_error Z.of_nat (Z.to_nat id) (seq 0 (length areas)) (d := Z.to_nat id)) in M.
      + apply Some_inj in M. lia.
      + rewrite (nth_error_nth' _ 0%nat) by (rewrite seq_length; lia). rewrite seq_nth by lia. reflexivity.
    - split; [|split]; eapply near_within; eassumption. }
  assert (Gen : forall ids ps', (forall id, In id ids -> In id (rev array)) ->
    Forall2 (fun id p => exists r, nth_error rs (Z.to_nat id) = Some r /\ CoordFile_Props.room_entry r p) ids ps' ->
    Forall2 (fun id p => (exists t, at_position (e + decimals) (lerp t q1 q2) p) /\
                         (id = hd 0%Z array -> at_position (e + decimals) q1 p) /\
                         (id = last array 0%Z -> at_position (e + decimals) q2 p)) ids ps'); [|apply Gen; [auto|exact P2]].
  intros ids ps' All P. induction P as [|id p ids ps' (r & R1 & R2) P IH]; constructor.
  - destruct (G id r p (All id (or_introl eq_refl)) R1 R2) as (l & L1 & L2 & L3).
    destruct (C45_edge_leds_get_the_configured_coordinates areas files coords rows k array q1 q2 l Nd Hd E3 Hk Hc L1) as [A B].
    split; [|split].
    + destruct (F l k (rev array) L1 Hk) as (u1 & u2 & p1 & p2 & t & C1 & _ & _ & _ & _ & C6); [rewrite L2; apply All; left; reflexivity|].
      rewrite Hc in C1. apply Some_inj in C1. injection C1 as <- <-. exists t. rewrite <- C6. exact L3.
    + intros E. rewrite <- (A Hne); [exact L3|congruence].
    + intros E. rewrite <- (B Hne); [exact L3|congruence].
  - apply IH. intros x Hx. apply All. right. exact Hx.
Qed.
Print Assumptions C114_positions_reach_the_analysis.

(** Widths and heights as the tables get them: the widths start at 0, the
    heights are the z coordinates - except for three LEDs (C48). *)
Theorem C114_widths_and_heights_reach_the_tables : forall fit areas files coords leds e rs,
  calculate_coordinates fit areas files coords = Ok leds -> (2 <= length areas)%nat -> Forall2 (stored e) leds rs ->
  exists co, Cache_Model.read_coords (Some (CoordFile_Model.coord_file rs)) = Ok (Some co) /\
    map (fun l => l_id (fst l)) leds = map fst areas /\
    Forall2 (fun l c => Q2R (fst c) = IZR (l_id (fst l)) /\ within (e + decimals) (fst (snd l)) (Q2R (fst (snd c))) /\
                        within (e + decimals) (snd (snd l)) (Q2R (snd (snd c))) /\
                        (length areas <> 3%nat -> within (e + decimals) (snd (l_pos (fst l))) (Q2R (snd (snd c))))) leds co /\
    (forall c, In c co -> - (e + decimals) <= Q2R (fst (snd c))) /\ (exists c, In c co /\ Rabs (Q2R (fst (snd c))) <= e + decimals).
Proof.
  intros fit areas files coords leds e rs H Hn Hst. destruct (coordinates_rows _ _ _ _ _ H) as (rows & ws & hs & E3 & E2 & Em & Ew & Eh). clear H.
  assert (K : map (fun r => (l_id r, l_pix r)) rows = areas).
  { unfold calculate_3d in E3. change (keys rows = areas). rewrite (place_arrays_keys _ _ _ _ E3). apply keys_pad. }
  assert (Lr : length leds = length areas) by (rewrite <- K, <- Em, !map_length; reflexivity). pose proof (Forall2_len _ _ _ Hst) as Ls.
  destruct (CoordFile_Props.C113_coordinates_are_read_back rs) as (co & C1 & C2); [lia|]. exists co. split; [exact C1|].
  split; [rewrite <- K, <- Em, !map_map; reflexivity|].
  destruct (C48_widths_start_at_zero _ _ _ _ E2) as (W1 & W2).
  assert (Hz : length areas <> 3%nat -> map (fun l => snd (snd l)) leds = map (fun l => snd (l_pos (fst l))) leds).
  { intros N. rewrite Eh. rewrite (C48_heights_are_z fit (map l_pos rows) ws hs); [|rewrite map_length, <- Em, map_length; lia|exact E2].
    rewrite <- Em, !map_map. reflexivity. }
  assert (F : Forall2 (fun l c => Q2R (fst c) = IZR (l_id (fst l)) /\ within (e + decimals) (fst (snd l)) (Q2R (fst (snd c))) /\
                        within (e + decimals) (snd (snd l)) (Q2R (snd (snd c)))) leds co).
  { clear - Hst C2. revert co C2. induction Hst as [|l r leds rs (S0 & _ & _ & _ & S4 & S5) Hst IH]; intros co C2; inversion C2 as [|? c ? co' (P1 & P2 & P3) C3]; subst; constructor.
    - split; [|split; eapply near_within; eassumption]. rewrite (Qeq_eqR _ _ P1), S0. unfold Q2R. cbn. lra.
    - apply IH. exact C3. }
  split; [|split].
  - assert (Z0 : forall l, In l leds -> length areas <> 3%nat -> snd (snd l) = snd (l_pos (fst l))).
    { intros l Hl N. specialize (Hz N). clear - Hl Hz. induction leds as [|x leds IH]; [destruct Hl|]. cbn [map] in Hz. injection Hz as Hx Hz.
      destruct Hl as [<-|Hl]; [exact Hx|apply IH; assumption]. }
    clear - F Z0. induction F as [|l c leds co (F1 & F2 & F3) F IH]; constructor.
    + split; [exact F1|]. split; [exact F2|]. split; [exact F3|]. intros N. rewrite <- (Z0 l (or_introl eq_refl) N). exact F3.
    + apply IH. intros x Hx. apply Z0. right. exact Hx.
  - intros c Hc. assert (G : exists l, In l leds /\ within (e + decimals) (fst (snd l)) (Q2R (fst (snd c)))).
    { clear - F Hc. induction F as [|l x leds co (_ & F2 & _) F IH]; [destruct Hc|]. destruct Hc as [->|Hc]; [exists l; split; [left; reflexivity|exact F2]|].
      destruct (IH Hc) as (y & Y1 & Y2). exists y. split; [right; exact Y1|exact Y2]. }
    destruct G as (l & L1 & L2). rewrite Forall_forall in W1. specialize (W1 (fst (snd l))). assert (P : 0 <= fst (snd l)) by (apply W1; rewrite <- Ew; apply (in_map (fun l => fst (snd l))); exact L1).
    unfold within, Rabs in L2. destruct (Rcase_abs _); lra.
  - rewrite <- Ew in W2. apply in_map_iff in W2. destruct W2 as (l & L0 & L1).
    assert (G : exists c, In c co /\ within (e + decimals) (fst (snd l)) (Q2R (fst (snd c)))).
    { clear - F L1. induction F as [|x c leds co (_ & F2 & _) F IH]; [destruct L1|]. destruct L1 as [->|L1]; [exists c; split; [left; reflexivity|exact F2]|].
      destruct (IH L1) as (y & Y1 & Y2). exists y. split; [right; exact Y1|exact Y2]. }
    destruct G as (c & G1 & G2). exists c. split; [exact G1|]. rewrite L0 in G2. unfold within in G2. rewrite Rminus_0_r in G2. exact G2.
Qed.
Print Assumptions C114_widths_and_heights_reach_the_tables.

(** ** Examples *)

(** Any result can be stored with any accuracy. *)
Lemma approx : forall e x, 0 < e -> exists q, within e x (Q2R q).
Proof.
  intros e x He. destruct (archimed (/ e)) as [A _]. assert (I : 0 < / e) by (apply Rinv_0_lt_compat; exact He).
  assert (Hp : (0 < up (/ e))%Z) by (apply lt_IZR; lra). set (n := Z.to_pos (up (/ e))). assert (En : Zpos n = up (/ e)) by (unfold n; apply Z2Pos.id; exact Hp).
  exists (up (x * IZR (Zpos n)) # n). unfold within, Q2R. cbn [Qnum Qden]. rewrite <- En in A. set (N := IZR (Zpos n)) in *.
  assert (Np : 0 < N) by lra. destruct (archimed (x * N)) as [B1 B2]. set (u := IZR (up (x * N))) in *.
  assert (D : / N < e) by (rewrite <- (Rinv_inv e); apply Rinv_lt_contravar; [apply Rmult_lt_0_compat; assumption|exact A]).
  replace (u * / N - x) with ((u - x * N) * / N) by (field; lra). assert (J : 0 < / N) by (apply Rinv_0_lt_compat; exact Np).
  rewrite Rabs_right by (apply Rle_ge, Rmult_le_pos; lra). apply Rle_trans with (1 * / N); [apply Rmult_le_compat_r; lra|lra].
Qed.

Lemma storable : forall e leds, 0 < e -> exists rs, Forall2 (stored e) leds rs.
Proof.
  intros e leds He. induction leds as [|l leds (rs & IH)]; [exists []; constructor|].
  destruct (approx e (fst (fst (l_pos (fst l)))) He) as (x & X). destruct (approx e (snd (fst (l_pos (fst l)))) He) as (y & Y).
  destruct (approx e (snd (l_pos (fst l))) He) as (z & Zz). destruct (approx e (fst (snd l)) He) as (w & W). destruct (approx e (snd (snd l)) He) as (h & Hh).
  exists (CoordFile_Model.CoordRow (l_id (fst l)) 0 0 x y z w h :: rs). constructor; [|exact IH].
  split; [reflexivity|]. split; [exact X|]. split; [exact Y|]. split; [exact Zz|]. split; assumption.
Qed.

Definition some_plane (a : arr3) : plane := Plane 1 1 0.

Lemma ex_computed : exists leds, calculate_coordinates some_plane ex_areas [Some [2; 1; 0]%Z] [((1, 1, 3), (1, 1, 1))] = Ok leds.
Proof.
  destruct C45_example as (_ & _ & _ & (rows & E) & _). unfold calculate_coordinates. rewrite E. cbn [bind].
  assert (L : length rows = 4%nat).
  { unfold calculate_3d in E. pose proof (place_arrays_keys _ _ _ _ E) as K. apply (f_equal (@length _)) in K. unfold keys in K. rewrite !map_length in K. exact K. }
  destruct rows as [|r1 [|r2 [|r3 [|r4 [|]]]]]; try discriminate L. unfold calculate_2d, points_array, plane_coordinates, project_array, transposed.
  cbn [map combine bind]. eexists. reflexivity.
Qed.

Example C114_example : exists leds rs ps, calculate_coordinates some_plane ex_areas [Some [2; 1; 0]%Z] [((1, 1, 3), (1, 1, 1))] = Ok leds /\
  Forall2 (stored (1 / 1000000000)) leds rs /\
  CoordFile_Model.get_led_positions (CoordFile_Model.coord_file rs) [2; 1; 0]%Z = Ok ps /\
  (exists p0 p2, In p0 ps /\ In p2 ps /\ at_position (1 / 1000000000 + decimals) (1, 1, 3) p0 /\ at_position (1 / 1000000000 + decimals) (1, 1, 1) p2) /\
  exists co, Cache_Model.read_coords (Some (CoordFile_Model.coord_file rs)) = Ok (Some co) /\ length co = 4%nat.
Proof.
  destruct ex_computed as (leds & E). destruct (storable (1 / 1000000000) leds ltac:(lra)) as (rs & S).
  destruct C45_example as (_ & Hd & _ & _ & _).
  destruct (C114_positions_reach_the_analysis some_plane ex_areas [Some [2; 1; 0]%Z] [((1, 1, 3), (1, 1, 1))] leds (1 / 1000000000) rs 0 [0; 1; 2]%Z (1, 1, 3) (1, 1, 1)
    E Hd eq_refl ltac:(cbn; lia) S eq_refl eq_refl ltac:(discriminate) ltac:(intros x; cbn; intuition)) as (ps & P1 & P2).
  destruct (C114_widths_and_heights_reach_the_tables some_plane ex_areas [Some [2; 1; 0]%Z] [((1, 1, 3), (1, 1, 1))] leds (1 / 1000000000) rs E ltac:(cbn; lia) S)
    as (co & C1 & C2 & C3 & _).
  exists leds, rs, ps. split; [exact E|]. split; [exact S|]. split; [exact P1|]. split.
  - cbn [rev app] in P2. inversion P2 as [|? pa ? ps1 Pa P3]; subst. inversion P3 as [|? pb ? ps2 Pb P4]; subst. inversion P4 as [|? pc ? ps3 Pc P5]; subst.
    exists pc, pa. split; [right; right; left; reflexivity|]. split; [left; reflexivity|]. split; [apply Pc; reflexivity|apply Pa; reflexivity].
  - exists co. split; [exact C1|]. rewrite <- (Forall2_len _ _ _ C3). apply (f_equal (@length _)) in C2. rewrite !map_length in C2. exact C2.
Qed.
