(** C94, C95: the analysis of one LED array from end to end. *)
From Coq Require Import ZArith QArith Qabs Qreals Lia Bool String List Permutation Sorted Reals Lra.
From Verif Require Import Base Step2_Model Step3_Model Table_Props Table_Model Table_Spec Analysis_Model Analysis_Props
  Layers_Model Layers_Spec Layers_Props Solver_Model Solver_Props Stable_Props Nnls_Props End_Model.
Import ListNotations.
Local Open Scope R_scope.

(** ** Specification *)

(** Length of the line of sight between the heights [b] and [u]. *)
Definition path_in (cam led : point) (b u : R) : R :=
  if Req_EM_T (pz cam) (pz led) then
    if Rle_dec b (pz cam) then if Rlt_dec (pz cam) u then euclid cam led else 0 else 0
  else euclid cam led * (overlap b u (pz cam) (pz led) / Rabs (pz led - pz cam)).

(** The domain is cut into [n] layers of equal height. *)
Definition paths (bot top : R) (n : nat) (cam led : point) : vec :=
  map (fun k => path_in cam led (bot + INR k * ((top - bot) / INR n)) (bot + INR (S k) * ((top - bot) / INR n))) (seq 0 n).

(** Camera and LED lie inside the domain (at the same height: below its upper
    border, and not at the same place). *)
Definition in_view (bot top : R) (cam led : point) : Prop :=
  within bot top (pz cam) /\ within bot top (pz led) /\
  (pz cam = pz led -> pz cam < top /\ euclid cam led <> 0).

(** Beer-Lambert: the share of the light that arrives, extinction coefficients
    [s] from the lowest to the highest layer. *)
Definition transmission (bot top : R) (n : nat) (cam led : point) (s : vec) : R :=
  exp (- rdot (paths bot top n cam led) s).

(** Relative error. *)
Definition close_to (x eps : R) (y : R) : Prop := Rabs (y - x) <= eps * x.

Definition is_reference (indices : option (list Z)) (num i : Z) : Prop :=
  match indices with Some is => In i is | None => (i <= num)%Z end.

(** ** Lines of sight *)
Lemma paths_layers : forall bot top n cam led, paths bot top n cam led = map (fun lay => path_in cam led (fst lay) (snd lay)) (layers bot top n).
Proof. intros. unfold paths. rewrite layers_map, map_map. reflexivity. Qed.

Lemma nth_error_ext : forall A (l l' : list A), List.length l = List.length l' ->
  (forall k a b, nth_error l k = Some a -> nth_error l' k = Some b -> a = b) -> l = l'.
Proof.
  intros A l. induction l as [|x l IH]; intros [|y l'] L H; try discriminate; [reflexivity|]. f_equal; [apply (H 0%nat); reflexivity|].
  apply IH; [simpl in L; lia|]. intros k a b Ha Hb. apply (H (S k)); assumption.
Qed.

Lemma visible_row : forall bot top n cam led, (1 <= n)%nat -> bot < top -> in_view bot top cam led ->
  traversed_distances (layers bot top n) cam led = Row (paths bot top n cam led).
Proof.
  intros bot top n cam led Hn Hb (V1 & V2 & V3). destruct (Req_EM_T (pz cam) (pz led)) as [E|N].
  - destruct (V3 E) as (V4 & V5). destruct (C35_horizontal_line_of_sight bot top n cam led Hn Hb E ltac:(unfold within in V1; lra) V5) as (ds & k & lay & H1 & H2 & H3 & H4 & H5).
    rewrite H1. f_equal. rewrite paths_layers. apply nth_error_ext; [rewrite map_length, H2; symmetry; apply (C32_layers_partition_the_domain bot top n Hn Hb)|].
    intros j a b Ha Hb'. rewrite nth_error_map in Hb'. destruct (nth_error (layers bot top n) j) as [lay'|] eqn:L; [|discriminate]. cbn [option_map] in Hb'. apply Some_inj in Hb'.
    rewrite (H5 j a Ha), <- Hb'. unfold path_in. destruct (Req_EM_T (pz cam) (pz led)) as [_|C]; [|contradiction].
    destruct (C32_layers_partition_the_domain bot top n Hn Hb) as (_ & _ & _ & _ & _ & U & _). destruct (U (pz cam) ltac:(unfold within in V1; lra)) as (k0 & Hk0).
    assert (Ek : k = k0) by (apply Hk0; exists lay; split; [exact H3|apply in_layer_iff; exact H4]). subst k0.
    destruct (Nat.eqb_spec j k) as [J|J].
    + subst j. rewrite H3 in L. apply Some_inj in L. subst lay'. destruct (Rle_dec _ _); [|lra]. destruct (Rlt_dec _ _); [reflexivity|lra].
    + destruct (Rle_dec (fst lay') (pz cam)) as [R1|]; [|reflexivity]. destruct (Rlt_dec (pz cam) (snd lay')) as [R2|]; [|reflexivity]. exfalso. apply J. apply Hk0. exists lay'. split; [exact L|]. apply in_layer_iff. split; assumption.
  - destruct (C33_distances_add_up bot top n cam led Hn Hb N V1 V2) as (ds & H1 & H2 & _ & _). rewrite H1. f_equal.
    rewrite paths_layers. apply nth_error_ext; [rewrite map_length, H2; symmetry; apply (C32_layers_partition_the_domain bot top n Hn Hb)|].
    intros j a b Ha Hb'. rewrite nth_error_map in Hb'. destruct (nth_error (layers bot top n) j) as [lay'|] eqn:L; [|discriminate]. cbn [option_map] in Hb'. apply Some_inj in Hb'.
    rewrite <- Hb'. unfold path_in. destruct (Req_EM_T (pz cam) (pz led)) as [C|_]; [contradiction|]. apply (C34_share_of_overlap bot top n cam led ds j lay' a Hn Hb N H1 L Ha).
Qed.

Lemma euclid_nonneg : forall p q, 0 <= euclid p q.
Proof. intros. apply sqrt_pos. Qed.

Lemma paths_nonneg : forall bot top n cam led, nonneg (paths bot top n cam led).
Proof.
  intros. apply Forall_forall. intros v Hv. unfold paths in Hv. apply in_map_iff in Hv. destruct Hv as (k & <- & _). unfold path_in. pose proof (euclid_nonneg cam led).
  destruct (Req_EM_T _ _) as [E|N].
  - destruct (Rle_dec _ _); [|lra]. destruct (Rlt_dec _ _); lra.
  - apply Rmult_le_pos; [assumption|]. apply Rmult_le_pos; [apply Rmax_l|]. left. apply Rinv_0_lt_compat. apply Rabs_pos_lt. lra.
Qed.

Lemma paths_length : forall bot top n cam led, List.length (paths bot top n cam led) = n.
Proof. intros. unfold paths. rewrite map_length. apply seq_length. Qed.

(** ** Means and quotients *)
Lemma qsum_bounds : forall qs lo hi, Forall (fun q => lo <= Q2R q <= hi) qs ->
  INR (List.length qs) * lo <= Q2R (qsum qs) <= INR (List.length qs) * hi.
Proof.
  intros qs lo hi H. induction H as [|q qs H F IH].
  - cbn [List.length qsum fold_right]. replace (Q2R 0) with 0 by (unfold Q2R; simpl; lra). simpl. lra.
  - cbn [qsum fold_right]. fold (qsum qs). rewrite Q2R_plus. change (List.length (q :: qs)) with (S (List.length qs)). rewrite S_INR. lra.
Qed.

Lemma Q2R_inject : forall z, Q2R (inject_Z z) = IZR z.
Proof. intros z. unfold Q2R, inject_Z. simpl. field. Qed.

Lemma close_bounds : forall x eps y, close_to x eps y <-> (1 - eps) * x <= y <= (1 + eps) * x.
Proof.
  intros x eps y. unfold close_to. split; intros H.
  - pose proof (Rle_abs (y - x)). pose proof (Rle_abs (- (y - x))) as Q. rewrite Rabs_Ropp in Q. lra.
  - apply Rabs_le. lra.
Qed.

Definition close_cell (x eps : R) (v : cell) : Prop := exists q, v = Some q /\ close_to x eps (Q2R q).

Lemma mean_close : forall vs x eps, vs <> [] -> Forall (close_cell x eps) vs -> close_cell x eps (mean vs).
Proof.
  intros vs x eps Hne H. assert (N : exists qs, numbers vs = qs /\ qs <> [] /\ Forall (fun q => (1 - eps) * x <= Q2R q <= (1 + eps) * x) qs).
  { eexists. split; [reflexivity|]. split.
    - destruct H as [|v vs (q & -> & _) F]; [congruence|]. discriminate.
    - clear Hne. induction H as [|v vs (q & -> & Hq) F IH]; [constructor|]. cbn. constructor; [apply close_bounds; exact Hq|exact IH]. }
  destruct N as (qs & N1 & N2 & N3). unfold mean. rewrite N1. destruct qs as [|q0 qs0]; [congruence|]. set (qs := q0 :: qs0) in *.
  eexists. split; [reflexivity|]. apply close_bounds. pose proof (qsum_bounds qs _ _ N3) as B.
  assert (L : 0 < INR (List.length qs)) by (apply lt_0_INR; simpl; lia).
  assert (E : Q2R (qsum qs / inject_Z (Z.of_nat (List.length qs))) = Q2R (qsum qs) / INR (List.length qs)).
  { unfold Qdiv. rewrite Q2R_mult, Q2R_inv, Q2R_inject, <- INR_IZR_INZ; [reflexivity|]. intros C. change 0%Q with (inject_Z 0) in C. rewrite inject_Z_injective in C. simpl List.length in C. lia. }
  rewrite E. split; apply (Rmult_le_reg_r (INR (List.length qs))); try exact L; replace (Q2R (qsum qs) / INR (List.length qs) * INR (List.length qs)) with (Q2R (qsum qs)) by (field; lra); lra.
Qed.

(** The quotient of two values with the relative error [eps]. *)
Lemma quotient_close : forall B T eps v m, 0 < B -> 0 < T -> 0 <= eps < 1 -> close_to (B * T) eps v -> close_to B eps m ->
  0 < m /\ close_to T (2 * eps / (1 - eps)) (v / m).
Proof.
  intros B T eps v m HB HT He Hv Hm. apply close_bounds in Hv, Hm.
  assert (PB : 0 < (1 - eps) * B) by (apply Rmult_lt_0_compat; lra). assert (Pm : 0 < m) by lra. split; [exact Pm|].
  assert (BT : 0 < B * T) by (apply Rmult_lt_0_compat; assumption).
  assert (E1 : 1 + 2 * eps / (1 - eps) = (1 + eps) / (1 - eps)) by (field; lra).
  assert (E2 : 1 - 2 * eps / (1 - eps) <= (1 - eps) / (1 + eps)).
  { apply (Rmult_le_reg_r ((1 - eps) * (1 + eps))); [apply Rmult_lt_0_compat; lra|].
    replace ((1 - 2 * eps / (1 - eps)) * ((1 - eps) * (1 + eps))) with ((1 - 3 * eps) * (1 + eps)) by (field; lra).
    replace ((1 - eps) / (1 + eps) * ((1 - eps) * (1 + eps))) with ((1 - eps) * (1 - eps)) by (field; lra).
    pose proof (Rle_0_sqr eps) as Q. unfold Rsqr in Q. lra. }
  apply close_bounds. split.
  - apply Rle_trans with ((1 - eps) / (1 + eps) * T); [apply Rmult_le_compat_r; lra|].
    apply (Rmult_le_reg_r m); [exact Pm|]. replace (v / m * m) with v by (field; lra).
    apply Rle_trans with ((1 - eps) / (1 + eps) * T * ((1 + eps) * B)).
    + apply Rmult_le_compat_l; [|lra]. apply Rmult_le_pos; [|lra]. apply Rmult_le_pos; [lra|]. left. apply Rinv_0_lt_compat. lra.
    + replace ((1 - eps) / (1 + eps) * T * ((1 + eps) * B)) with ((1 - eps) * (B * T)) by (field; lra). lra.
  - rewrite E1. apply (Rmult_le_reg_r m); [exact Pm|]. replace (v / m * m) with v by (field; lra).
    apply Rle_trans with ((1 + eps) / (1 - eps) * T * ((1 - eps) * B)).
    + replace ((1 + eps) / (1 - eps) * T * ((1 - eps) * B)) with ((1 + eps) * (B * T)) by (field; lra). lra.
    + apply Rmult_le_compat_l; [|lra]. apply Rmult_le_pos; [|lra]. apply Rmult_le_pos; [lra|]. left. apply Rinv_0_lt_compat. lra.
Qed.

Lemma relatives : forall (l : list Z) (B T : Z -> R) eps vs ms, 0 <= eps < 1 ->
  (forall k, In k l -> 0 < B k /\ 0 < T k) ->
  Forall2 (fun k v => close_cell (B k * T k) eps v) l vs -> Forall2 (fun k m => close_cell (B k) eps m) l ms ->
  exists qs, np_div vs ms = Ok (map Fin qs) /\
    Forall2 (fun k v => close_to (T k) (2 * eps / (1 - eps)) v) l (map Q2R qs).
Proof.
  intros l B T eps vs ms He Pos Hv Hm.
  assert (L : List.length vs = List.length ms) by (rewrite <- (Forall2_len _ _ _ Hv), <- (Forall2_len _ _ _ Hm); reflexivity).
  unfold np_div. rewrite L, Nat.eqb_refl. cut (exists qs, map (fun p => cell_div (fst p) (snd p)) (combine vs ms) = map Fin qs /\
    Forall2 (fun k v => close_to (T k) (2 * eps / (1 - eps)) v) l (map Q2R qs)); [intros (qs & H1 & H2); exists qs; split; [rewrite H1; reflexivity|exact H2]|].
  clear L. revert ms Hm. induction Hv as [|k v l vs Hv Fv IH]; intros ms Hm; inversion Hm as [|? m ? ms' Hm' Fm]; subst; [exists []; split; [reflexivity|constructor]|].
  destruct (IH ltac:(intros k' Hk'; apply Pos; right; exact Hk') ms' Fm) as (qs & R1 & R2). destruct Hv as (q & -> & Hq), Hm' as (r & -> & Hr).
  destruct (Pos k (or_introl eq_refl)) as (PB & PT). destruct (quotient_close (B k) (T k) eps (Q2R q) (Q2R r) PB PT He Hq Hr) as (Pr & Qr).
  assert (Nz : ~ (r == 0)%Q) by (intros C; apply Qeq_eqR in C; replace (Q2R 0) with 0 in C by (unfold Q2R; simpl; lra); lra).
  assert (C : cell_div (Some q) (Some r) = Fin (q / r)%Q) by (unfold cell_div; destruct (Qeq_bool r 0) eqn:E; [apply Qeq_bool_iff in E; contradiction|reflexivity]).
  exists ((q / r)%Q :: qs). split.
  - cbn [combine map fst snd]. rewrite C, R1. reflexivity.
  - cbn [map]. constructor; [|exact R2]. unfold Qdiv. rewrite Q2R_mult, Q2R_inv by exact Nz. exact Qr.
Qed.

Lemma all_some_fin : forall qs, all_some (map rel_R (map Fin qs)) = Some (map Q2R qs).
Proof. induction qs as [|q qs IH]; [reflexivity|]. cbn [map rel_R all_some]. rewrite IH. reflexivity. Qed.

(** ** The augmented system *)
Lemma separates_aug : forall lambda n A, separates n A -> separates n (a_aug lambda n A).
Proof.
  intros lambda n A (c & Hc & H). exists c. split; [exact Hc|]. intros z Hz. eapply Rle_trans; [apply H; exact Hz|]. unfold a_aug, mul. rewrite map_app.
  generalize (map (fun r => rdot r z) A) (map (fun r => rdot r z) (map (map (Rmult (sqrt lambda))) (reg_matrix n))). intros u w.
  induction u as [|x u IH]; cbn [app sq_norm]; [apply sq_norm_nonneg|]. lra.
Qed.

Lemma rows_ok_aug : forall lambda n A, rows_ok n A -> rows_ok n (a_aug lambda n A).
Proof.
  intros lambda n A H. unfold rows_ok, a_aug. apply Forall_app. split; [exact H|]. apply Forall_forall. intros r Hr. apply in_map_iff in Hr. destruct Hr as (r' & <- & Hr').
  rewrite map_length. unfold reg_matrix in Hr'. destruct (3 <=? n)%nat; apply in_map_iff in Hr'; destruct Hr' as (i & <- & _); unfold diff_row, unit_row; rewrite map_length; apply seq_length.
Qed.

Lemma aug_length : forall lambda n A rel, List.length rel = List.length A -> List.length (b_aug n rel) = List.length (a_aug lambda n A).
Proof. intros. unfold b_aug, a_aug. rewrite !app_length, !map_length, repeat_length. lia. Qed.

(** ** The loop *)
Lemma serial_ok : forall C (solve : option C -> list quot -> res C) ms (gs : list (Z * list entry)) (Q : Z -> C -> Prop),
  (forall i es, In (i, es) gs -> exists rel, np_div (map e_val es) ms = Ok rel /\
     forall last, (forall y, last = Some y -> exists j, Q j y) -> exists x, solve last rel = Ok x /\ Q i x) ->
  forall last, (forall y, last = Some y -> exists j, Q j y) -> exists xs, serial_loop solve ms last gs = Ok xs /\ Forall2 (fun g x => Q (fst g) x) gs xs.
Proof.
  intros C solve ms gs Q. induction gs as [|(i, es) gs IH]; intros H last Hl; [exists []; split; [reflexivity|constructor]|].
  destruct (H i es (or_introl eq_refl)) as (rel & H1 & H2). destruct (H2 last Hl) as (x & H3 & H4). cbn [serial_loop]. rewrite H1. cbn [bind]. rewrite H3. cbn [bind].
  destruct (IH ltac:(intros j fs Hj; apply H; right; exact Hj) (Some x) ltac:(intros y Hy; apply Some_inj in Hy; subst y; exists i; exact H4)) as (xs & X1 & X2). rewrite X1. exists (x :: xs). split; [reflexivity|]. constructor; assumption.
Qed.

Lemma solve_linear_memoryless : forall nnls lambda n A, memoryless (solve_linear nnls lambda n A).
Proof. intros nnls lambda n A s rel. reflexivity. Qed.

Lemma all_some_map : forall A (l : list A), all_some (map Some l) = Some l.
Proof. induction l as [|a l IH]; [reflexivity|]. cbn [map all_some]. rewrite IH. reflexivity. Qed.

Lemma nth_zrange : forall n i, (1 <= i <= n)%Z -> nth_error (zrange 1 (n + 1)) (Z.to_nat (i - 1)) = Some i.
Proof.
  intros n i H. unfold zrange. rewrite nth_error_map. assert (E : nth_error (seq 0 (Z.to_nat (n + 1 - 1))) (Z.to_nat (i - 1)) = Some (Z.to_nat (i - 1))).
  { rewrite (nth_error_nth' _ 0%nat) by (rewrite seq_length; lia). rewrite seq_nth by lia. reflexivity. }
  rewrite E. cbn [option_map]. f_equal. lia.
Qed.

Lemma Forall2_nth_both : forall A B (P : A -> B -> Prop) l l' k b, Forall2 P l l' -> nth_error l' k = Some b -> exists a, nth_error l k = Some a /\ P a b.
Proof.
  intros A B P l l' k b H. revert k. induction H as [|x y l l' H F IH]; intros [|k] E; try discriminate; cbn [nth_error] in *; [apply Some_inj in E; subst; exists x; split; [reflexivity|exact H]|apply IH; exact E].
Qed.

(** ** C94 *)

(** The error which the relative intensities may have if every sum of pixel
    values has the relative error [eps]: the files keep five digits. *)
Definition table_error (eps : R) : R := eps + (1 + eps) / 20000.
Definition relative_error (eps : R) : R := 2 * table_error eps / (1 - table_error eps).

(** What step 3 recorded under the name of a property. *)
Definition recorded (prop : string) (d : led_data Format_Model.fit_data) : R :=
  if (prop =? "max_col_val")%string then IZR (d_max d) else if (prop =? "mean_col_val")%string then Q2R (d_mean d) else IZR (d_sum d).

Lemma table_value : forall prop d v x eps, known_property prop -> 0 <= eps -> table_error eps < 1 -> 0 < x -> value_of_record prop d v -> close_to x eps (recorded prop d) ->
  close_cell x (table_error eps) v.
Proof.
  intros prop d v x eps Hp He He' Hx (q & -> & H1 & H2 & H) C. exists q. split; [reflexivity|]. apply close_bounds in C. apply close_bounds.
  destruct Hp as [->|[->| ->]].
  - change (recorded "sum_col_val" d) with (IZR (d_sum d)) in C. destruct (H eq_refl) as (z & Z1 & Z2 & _).
    unfold is_int in Z1. rewrite (Qeq_eqR _ _ Z1), Q2R_inject.
    assert (D : Rabs (IZR z - IZR (d_sum d)) * 20000 <= IZR (d_sum d)) by (rewrite <- minus_IZR, <- abs_IZR, <- mult_IZR; apply IZR_le; exact Z2).
    pose proof (Rle_abs (IZR z - IZR (d_sum d))). pose proof (Rle_abs (- (IZR z - IZR (d_sum d)))) as Q. rewrite Rabs_Ropp in Q. unfold table_error. nra.
  - change (recorded "mean_col_val" d) with (Q2R (d_mean d)) in C. specialize (H2 eq_refl). unfold Format_Proofs.close5 in H2. apply Qle_Rle in H2.
    assert (P : 0 <= Q2R (d_mean d)) by (assert (0 <= (1 - eps) * x) by (apply Rmult_le_pos; [unfold table_error in He'; lra|lra]); lra).
    assert (Pq : (0 <= d_mean d)%Q) by (apply Rle_Qle; replace (Q2R 0) with 0 by (unfold Q2R; simpl; lra); exact P).
    rewrite Q2R_mult, (Qeq_eqR _ _ (Qabs_pos _ Pq)) in H2. replace (Q2R 20000) with 20000 in H2 by (unfold Q2R; simpl; lra).
    assert (D : - Q2R (d_mean d) <= (Q2R q - Q2R (d_mean d)) * 20000 <= Q2R (d_mean d)).
    { pose proof (Qle_Rle _ _ (Qle_Qabs (q - d_mean d))) as A1. pose proof (Qle_Rle _ _ (Qle_Qabs (- (q - d_mean d)))) as A2.
      rewrite (Qeq_eqR _ _ (Qabs_opp _)) in A2. rewrite Q2R_opp in A2. rewrite Q2R_minus in A1, A2. lra. }
    unfold table_error. nra.
  - change (recorded "max_col_val" d) with (IZR (d_max d)) in C. specialize (H1 eq_refl). unfold is_int in H1. rewrite (Qeq_eqR _ _ H1), Q2R_inject. unfold table_error. nra.
Qed.

Lemma relative_error_range : forall eps, 0 <= eps -> table_error eps < 1 / 3 -> 0 <= relative_error eps < 1.
Proof.
  intros eps He He'. assert (Te : 0 <= table_error eps) by (unfold table_error; lra).
  unfold relative_error. set (u := table_error eps) in *. split; [apply Rmult_le_pos; [lra|left; apply Rinv_0_lt_compat; lra]|].
  apply (Rmult_lt_reg_r (1 - u)); [lra|]. unfold Rdiv. rewrite Rmult_assoc, Rinv_l by lra. lra.
Qed.

(** Contract of a mean with the relative error [mu] for up to [N] cells whose
    values are not negative. *)
Definition accurate_mean (N : nat) (mu : R) (avg : list cell -> cell) : Prop :=
  forall vs q, (List.length vs <= N)%nat -> Forall (fun v => forall x, v = Some x -> (0 <= x)%Q) vs -> mean vs = Some q ->
    exists q', avg vs = Some q' /\ Rabs (Q2R q' - Q2R q) <= mu * Q2R q.

Lemma exact_mean_accurate : forall N, accurate_mean N 0 mean.
Proof. intros N vs q _ _ E. exists q. split; [exact E|]. unfold Rminus. rewrite Rplus_opp_r, Rabs_R0. lra. Qed.

Lemma average_close : forall N mu avg vs x e, accurate_mean N mu avg -> 0 <= mu -> (List.length vs <= N)%nat -> vs <> [] -> 0 < x -> 0 <= e < 1 ->
  Forall (close_cell x e) vs -> close_cell x (e + mu * (1 + e)) (avg vs).
Proof.
  intros N mu avg vs x e Havg Hmu HN Hne Hx He H. destruct (mean_close vs x e Hne H) as (q & E & C).
  destruct (Havg vs q HN) as (q' & E' & C'); [|exact E|].
  - eapply Forall_impl; [|exact H]. cbv beta. intros v (y & -> & Hy) x' Ex. apply Some_inj in Ex. subst x'. apply close_bounds in Hy.
    apply Rle_Qle. replace (Q2R 0) with 0 by (unfold Q2R; simpl; lra). assert (0 <= (1 - e) * x) by (apply Rmult_le_pos; lra). lra.
  - exists q'. split; [exact E'|]. apply close_bounds in C. apply close_bounds.
    assert (A : - (mu * Q2R q) <= Q2R q' - Q2R q <= mu * Q2R q).
    { pose proof (Rle_abs (Q2R q' - Q2R q)). pose proof (Rle_abs (- (Q2R q' - Q2R q))) as Z. rewrite Rabs_Ropp in Z. lra. }
    assert (mu * Q2R q <= mu * ((1 + e) * x)) by (apply Rmult_le_compat_l; [exact Hmu|apply C]). lra.
Qed.

(** Every image shows an LED once, so there are at most as many values as images. *)
Lemma single_images : forall fs : list entry, (forall i, (List.length (filter (fun e => (e_img e =? i)%Z) fs) <= 1)%nat) -> NoDup (map e_img fs).
Proof.
  induction fs as [|e fs IH]; intros H; [constructor|]. cbn [map]. constructor.
  - intros C. apply in_map_iff in C. destruct C as (e' & E & Hin). specialize (H (e_img e)). cbn [filter] in H. rewrite Z.eqb_refl in H. cbn [List.length] in H.
    assert (X : In e' (filter (fun e0 => (e_img e0 =? e_img e)%Z) fs)) by (apply filter_In; split; [exact Hin|apply Z.eqb_eq; exact E]).
    destruct (filter _ fs); [destruct X|cbn [List.length] in H; lia].
  - apply IH. intros i. specialize (H i). cbn [filter] in H. destruct (e_img e =? i)%Z; cbn [List.length] in H; lia.
Qed.

Lemma filter_filter_comm : forall A (f g : A -> bool) l, filter f (filter g l) = filter g (filter f l).
Proof.
  intros A f g l. induction l as [|a l IH]; [reflexivity|]. cbn [filter]. destruct (g a) eqn:G, (f a) eqn:F; cbn [filter]; rewrite ?G, ?F, IH; reflexivity.
Qed.

Lemma filter_shorter : forall A (f : A -> bool) l, (List.length (filter f l) <= List.length l)%nat.
Proof. intros A f l. induction l as [|a l IH]; [apply Nat.le_refl|]. cbn [filter]. destruct (f a); cbn [List.length]; lia. Qed.

Lemma led_at_most_once : forall k l (fs : list entry), NoDup l -> map e_led fs = l -> (List.length (filter (fun e => (e_led e =? k)%Z) fs) <= 1)%nat.
Proof.
  intros k l fs. revert l. induction fs as [|e fs IH]; intros l Hn E; [apply Nat.le_0_l|]. cbn [map] in E. subst l. inversion Hn as [|? ? N1 N2]; subst. cbn [filter].
  destruct (Z.eqb_spec (e_led e) k) as [Ek|_]; [|apply (IH _ N2 eq_refl)].
  assert (Z0 : filter (fun e0 => (e_led e0 =? k)%Z) fs = []).
  { destruct (filter (fun e0 => (e_led e0 =? k)%Z) fs) as [|f ff] eqn:F; [reflexivity|]. exfalso. apply N1.
    assert (X : In f (filter (fun e0 => (e_led e0 =? k)%Z) fs)) by (rewrite F; left; reflexivity). apply filter_In in X. destruct X as (X1 & X2).
    apply Z.eqb_eq in X2. rewrite Ek, <- X2. apply in_map. exact X1. }
  rewrite Z0. apply Nat.le_refl.
Qed.

Lemma values_of_one_led : forall es n l k (f : entry -> bool), NoDup l -> (1 <= n)%Z ->
  (forall e, In e es -> (1 <= e_img e <= n)%Z) -> (forall i, (1 <= i <= n)%Z -> map e_led (filter (fun e => (e_img e =? i)%Z) es) = l) ->
  (List.length (filter (fun e => (e_led e =? k)%Z) (filter f es)) <= Z.to_nat n)%nat.
Proof.
  intros es n l k f Hl Hn H1 H2. rewrite filter_filter_comm. eapply Nat.le_trans; [apply filter_shorter|].
  set (fs := filter (fun e => (e_led e =? k)%Z) es). rewrite <- (map_length e_img).
  assert (Nd : NoDup (map e_img fs)).
  { apply single_images. intros i. unfold fs. rewrite filter_filter_comm.
    destruct (Z.leb_spec 1 i) as [L1|L1]; [destruct (Z.leb_spec i n) as [L2|L2]|].
    - apply (led_at_most_once k l); [exact Hl|apply H2; lia].
    - replace (filter (fun e => (e_img e =? i)%Z) es) with (@nil entry); [apply Nat.le_0_l|]. symmetry. 
      destruct (filter (fun e => (e_img e =? i)%Z) es) as [|e r] eqn:F; [reflexivity|]. assert (X : In e (filter (fun e => (e_img e =? i)%Z) es)) by (rewrite F; left; reflexivity).
      apply filter_In in X. destruct X as (X1 & X2). apply Z.eqb_eq in X2. specialize (H1 e X1). lia.
    - replace (filter (fun e => (e_img e =? i)%Z) es) with (@nil entry); [apply Nat.le_0_l|]. symmetry. 
      destruct (filter (fun e => (e_img e =? i)%Z) es) as [|e r] eqn:F; [reflexivity|]. assert (X : In e (filter (fun e => (e_img e =? i)%Z) es)) by (rewrite F; left; reflexivity).
      apply filter_In in X. destruct X as (X1 & X2). apply Z.eqb_eq in X2. specialize (H1 e X1). lia. }
  pose proof (NoDup_incl_length Nd (l' := zrange 1 (n + 1))) as L. rewrite length_zrange in L. replace (n + 1 - 1)%Z with n in L by lia. apply L.
  intros i Hi. apply in_map_iff in Hi. destruct Hi as (e & <- & He). apply filter_In in He. destruct He as (He & _). apply in_zrange. specialize (H1 e He). lia.
Qed.

Lemma close_cell_weaker : forall x e e' v, 0 <= x -> e <= e' -> close_cell x e v -> close_cell x e' v.
Proof.
  intros x e e' v Hx He (q & -> & H). exists q. split; [reflexivity|]. unfold close_to in *. eapply Rle_trans; [exact H|]. apply Rmult_le_compat_r; assumption.
Qed.

(** The analysis gives what the solver gives for intensities with small errors;
    [M'] are the distances it is given, which need not be the right ones, [avg] the
    mean over the reference images. *)
Lemma any_distances_avg :
  forall A groups arrays a l n recs t coords ps indices num prop bot top nlay cam dist M' avg mu N (solve : list (option vec) -> option vec -> list quot -> res vec) (shape : vec -> Prop) (good : vec -> vec -> Prop) eps smoke bright cpus order,
  known_property prop -> accurate_mean N mu avg -> 0 <= mu -> (n <= Z.of_nat N)%Z ->
  (* the LED arrays, the records of the images 1..n and the binary table *)
  ascending_merge groups -> arrays = merge_indices (reorder_led_indices A) groups ->
  nth_error arrays a = Some l -> (2 <= List.length l)%nat -> (1 <= n)%Z ->
  (forall i, (1 <= i <= n)%Z -> exists F (fit : option (list (list Z) -> res F)) img r areas arrays' ds,
     Forall2 (@Permutation Z) arrays' arrays /\
     generate_analysis_data fit img r areas arrays' 0 = Ok ds /\
     map (fun d => (d_id d, d_array d)) ds = map (fun d => (d_id d, d_array d)) (recs i)) ->
  table_of_images t n recs ->
  (* the positions of the LEDs; what the solver finds *)
  Forall2 (fun id p => (0 <= id)%Z /\ nth_error coords (Z.to_nat id) = Some p) l ps ->
  Forall2 (fun p r => dist p = Row r) ps M' ->
  (forall last qs s, let M := map (paths bot top nlay cam) ps in
     (forall y, last = Some y -> exists s', good s' y) ->
     List.length s = nlay -> nonneg s -> shape s ->
     Forall2 (fun row v => 1 / 10000000000 <= exp (- rdot row s) /\ Rabs (v - exp (- rdot row s)) <= relative_error (eps + 2 * mu) * exp (- rdot row s)) M (map Q2R qs) ->
     exists x, solve (map Some M') last (map Fin qs) = Ok x /\ good s x) ->
  (* the smoke in every image; none in the reference images *)
  (forall i, (1 <= i <= n)%Z -> List.length (smoke i) = nlay /\ nonneg (smoke i) /\ shape (smoke i)) ->
  (forall i, (1 <= i <= n)%Z -> is_reference indices num i -> smoke i = repeat 0 nlay) ->
  (exists i, (1 <= i <= n)%Z /\ is_reference indices num i) ->
  (* every recorded value is the brightness of the LED times the transmission, up to the relative error eps *)
  0 <= eps -> table_error (eps + 2 * mu) < 1 / 3 ->
  (forall i d p, (1 <= i <= n)%Z -> In d (recs i) -> d_array d = Z.of_nat a -> nth_error coords (Z.to_nat (d_id d)) = Some p ->
     0 < bright (d_id d) /\ 1 / 10000000000 <= transmission bot top nlay cam p (smoke i) /\
     close_to (bright (d_id d) * transmission bot top nlay cam p (smoke i)) eps (recorded prop d)) ->
  Permutation order (seq 0 (Z.to_nat n)) ->
  exists xs, analyse_avg avg dist solve coords (nth_error (index_files arrays) a) t (Z.of_nat a) prop indices num cpus order = Ok xs /\
    List.length xs = Z.to_nat n /\
    forall i x, (1 <= i <= n)%Z -> nth_error xs (Z.to_nat (i - 1)) = Some x ->
      good (smoke i) x.
Proof.
  intros A groups arrays a l n recs t coords ps indices num prop bot top nlay cam dist M' avg mu N solve shape good eps smoke bright cpus order
    Hprop Havg Hmu HN Hg Harr Ha Hl Hn Hrec Ht Hps Hdist Hsolve Hsm Hsm0 Href He He' Hmeas Hord.
  assert (Hco : Forall (fun i => (0 <= i < Z.of_nat (List.length coords))%Z) l).
  { clear - Hps. induction Hps as [|id p l ps (H1 & H2) F IH]; constructor; [|exact IH]. assert (Z.to_nat id < List.length coords)%nat by (apply nth_error_Some; congruence). lia. }
  assert (Hs : StronglySorted Z.lt l) by (subst arrays; eapply arrays_ascend; eassumption).
  assert (Nd : NoDup l) by (apply sorted_lt_NoDup; exact Hs).
  assert (Lne : l <> []) by (intros C; subst l; simpl in Hl; lia).
  destruct (C36_rows_and_intensities_are_aligned A groups arrays a l n recs t prop point (option vec) coords
    (fun p => matrix_row (dist p)) indices num Hg Harr Ha Hl Hn Hrec Ht Hprop Hco Href)
    as (leds & rows & es & E1 & E2 & E3 & E4 & E5 & E6 & E7 & E8).
  set (M := map (paths bot top nlay cam) ps).
  (* the distance matrix *)
  assert (Rows : rows = map Some M').
  { clear - E4 Hps Hdist. revert rows M' E4 Hdist. induction Hps as [|id p l ps (H1 & H2) F IH]; intros rows M' E4 Hd; inversion Hd as [|? r ? M'' D1 D2]; subst; inversion E4 as [|? d ? rows' (p' & P1 & P2) F']; subst; [reflexivity|].
    rewrite H2 in P1. apply Some_inj in P1. subst p'. cbn [map]. rewrite D1. cbn [matrix_row]. f_equal. apply IH; assumption. }
  set (T := fun i k => match nth_error coords (Z.to_nat k) with Some p => transmission bot top nlay cam p (smoke i) | None => 1 end).
  assert (Pos : forall k, In k l -> exists p, nth_error coords (Z.to_nat k) = Some p /\ In p ps).
  { clear - Hps. intros k Hk. induction Hps as [|id p l ps (H1 & H2) F IH]; [destruct Hk|]. destruct Hk as [->|Hk]; [exists p; split; [exact H2|left; reflexivity]|]. destruct (IH Hk) as (p' & P1 & P2). exists p'. split; [exact P1|right; exact P2]. }
  assert (TP : forall i k, 0 < T i k) by (intros i k; unfold T; destruct (nth_error coords (Z.to_nat k)); [apply exp_pos|lra]).
  (* the values of the table *)
  assert (Val : forall i, (1 <= i <= n)%Z -> Forall2 (fun k e => e_led e = k /\ 0 < bright k /\ 1 / 10000000000 <= T i k /\ close_cell (bright k * T i k) (table_error eps) (e_val e)) l (filter (fun e => (e_img e =? i)%Z) es)).
  { intros i Hi. destruct (E8 i Hi) as (ds & D1 & D2). assert (Ld : map d_id ds = l).
    { rewrite <- (E5 i Hi). clear - D2. induction D2 as [|d e ds fs (G & _) F IH]; [reflexivity|]. cbn [map]. rewrite G, IH. reflexivity. }
    assert (Din : forall d, In d ds -> In d (recs i) /\ d_array d = Z.of_nat a).
    { intros d Hd. apply (Permutation_in _ D1) in Hd. apply filter_In in Hd. destruct Hd as (Q1 & Q2). apply Z.eqb_eq in Q2. split; assumption. }
    assert (Dl : forall d, In d ds -> In (d_id d) l) by (intros d Hd; rewrite <- Ld; apply in_map; exact Hd).
    rewrite <- Ld. clear - D2 Din Dl Hmeas Hi Pos He He' Hmu TP Hprop. induction D2 as [|d e ds fs (G1 & G2) F IH]; [constructor|]. cbn [map].
    constructor; [|apply IH; intros d' Hd'; [apply Din|apply Dl]; right; exact Hd'].
    destruct (Din d (or_introl eq_refl)) as (Q1 & Q2). destruct (Pos (d_id d) (Dl d (or_introl eq_refl))) as (p & P1 & _).
    destruct (Hmeas i d p Hi Q1 Q2 P1) as (B1 & B2 & B3). assert (ET : T i (d_id d) = transmission bot top nlay cam p (smoke i)) by (unfold T; rewrite P1; reflexivity).
    split; [exact G1|]. split; [exact B1|]. rewrite ET. split; [exact B2|]. apply (table_value prop d); try assumption; [unfold table_error in *; lra|]. apply Rmult_lt_0_compat; [exact B1|apply exp_pos]. }
  assert (Bp : forall k, In k l -> 0 < bright k).
  { intros k Hk. pose proof (Val 1%Z ltac:(lia)) as V. clear - V Hk. induction V as [|k' e l fs (_ & H & _) F IH]; [destruct Hk|]. destruct Hk as [<-|Hk]; [exact H|apply IH; exact Hk]. }
  (* the references *)
  set (ref := reference_entries indices num es) in *. set (ms := map snd (ref_values avg ref)).
  assert (Te : 0 <= table_error eps) by (unfold table_error; lra).
  assert (Tm : table_error eps + mu * (1 + table_error eps) <= table_error (eps + 2 * mu)) by (unfold table_error in *; nra).
  set (te := table_error (eps + 2 * mu)) in *.
  assert (Ms : Forall2 (fun k m => close_cell (bright k) te m) l ms).
  { assert (K : keys (map e_led ref) = l) by (rewrite <- E6; unfold ref_intensities, Analysis_Model.groups; rewrite !map_map; cbn [fst]; rewrite map_id; reflexivity).
    assert (Eq : ms = map (fun k => avg (map e_val (filter (fun e => (e_led e =? k)%Z) ref))) l).
    { unfold ms, ref_values, Analysis_Model.groups. rewrite K, !map_map. reflexivity. }
    rewrite Eq. assert (Each : forall k, In k l -> close_cell (bright k) te (avg (map e_val (filter (fun e => (e_led e =? k)%Z) ref)))).
    { intros k Hk. apply (close_cell_weaker _ _ te _ (Rlt_le _ _ (Bp k Hk)) Tm). apply (average_close N); try assumption; [|  |apply Bp; exact Hk|split; [exact Te|unfold te in *; nra]|].
      - rewrite map_length. eapply Nat.le_trans; [apply (values_of_one_led es n l k _ Nd Hn E7 E5)|]. lia.
      - intros C. apply map_eq_nil in C. rewrite <- K in Hk. apply -> in_keys in Hk. apply in_map_iff in Hk. destruct Hk as (e & G1 & G2).
        assert (X : In e (filter (fun e => (e_led e =? k)%Z) ref)) by (apply filter_In; split; [exact G2|apply Z.eqb_eq; exact G1]). rewrite C in X. destruct X.
      - apply Forall_forall. intros v Hv. apply in_map_iff in Hv. destruct Hv as (e & <- & Hin). apply filter_In in Hin. destruct Hin as (H1 & H2). apply Z.eqb_eq in H2.
        unfold ref, reference_entries in H1. apply filter_In in H1. destruct H1 as (H1 & H3). pose proof (E7 e H1) as Hi. pose proof (Val (e_img e) Hi) as V.
        assert (Rf : is_reference indices num (e_img e)).
        { unfold is_reference. destruct indices as [is|]; [|apply Z.leb_le; exact H3]. apply existsb_exists in H3. destruct H3 as (j & J1 & J2). apply Z.eqb_eq in J2. rewrite J2. exact J1. }
        assert (In1 : In e (filter (fun e' => (e_img e' =? e_img e)%Z) es)) by (apply filter_In; split; [exact H1|apply Z.eqb_refl]).
        assert (T1 : T (e_img e) k = 1).
        { unfold T. destruct (nth_error coords (Z.to_nat k)); [|reflexivity]. unfold transmission. rewrite (Hsm0 _ Hi Rf), rdot_zeros, Ropp_0. apply exp_0. }
        clear - V In1 H2 T1. set (fs := filter _ es) in *. clearbody fs. induction V as [|k' e' l fs (V1 & _ & _ & V2) F IH]; [destruct In1|]. destruct In1 as [->|In1]; [|apply IH; exact In1].
        rewrite V1 in H2. subst k'. rewrite T1, Rmult_1_r in V2. exact V2. }
    clear - Each. induction l as [|k l IH]; [constructor|]. cbn [map]. constructor; [apply Each; left; reflexivity|]. apply IH. intros k' Hk'. apply Each. right. exact Hk'. }
  assert (Te' : table_error eps <= te) by nra.
  assert (LM : List.length M = List.length l) by (unfold M; rewrite map_length; symmetry; eapply Forall2_len; exact Hps).
  assert (RowsM : rows_ok nlay M) by (unfold rows_ok, M; apply Forall_forall; intros r Hr; apply in_map_iff in Hr; destruct Hr as (p & <- & _); apply paths_length).
  assert (NonM : Forall nonneg M) by (unfold M; apply Forall_forall; intros r Hr; apply in_map_iff in Hr; destruct Hr as (p & <- & _); apply paths_nonneg).
  (* one image *)
  assert (Img : forall i fs, In (i, fs) (map (fun i => (i, filter (fun e => (e_img e =? i)%Z) es)) (zrange 1 (n + 1))) ->
    exists rel, np_div (map e_val fs) ms = Ok rel /\ forall last, (forall y, last = Some y -> exists s', good s' y) -> exists x, solve rows last rel = Ok x /\ good (smoke i) x).
  { intros i fs Hin. apply in_map_iff in Hin. destruct Hin as (i' & E & Hi). injection E as -> <-. apply in_zrange in Hi. assert (Hi' : (1 <= i <= n)%Z) by lia.
    pose proof (Val i Hi') as V.
    destruct (relatives l bright (T i) te (map e_val (filter (fun e => (e_img e =? i)%Z) es)) ms ltac:(lra)) as (qs & R1 & R3).
    { intros k Hk. split; [apply Bp; exact Hk|apply TP]. }
    { clear - V Te' TP. induction V as [|k e l fs (_ & B & _ & H) F IH]; [constructor|]. cbn [map]. constructor; [|assumption].
      apply (close_cell_weaker _ (table_error eps)); [apply Rlt_le, Rmult_lt_0_compat; [exact B|apply TP]|exact Te'|exact H]. }
    { exact Ms. }
    exists (map Fin qs). split; [exact R1|]. intros last Hlast. destruct (Hsm i Hi') as (S1 & S2 & S3). rewrite Rows.
    apply (Hsolve last qs (smoke i)); fold M; try assumption.
    (* values and rows *)
    assert (V' : Forall (fun k => 1 / 10000000000 <= T i k) l) by (clear - V; induction V as [|k e l fs (_ & _ & H & _) F IH]; constructor; assumption).
    set (rv := map Q2R qs) in *. clearbody rv. change (2 * te / (1 - te)) with (relative_error (eps + 2 * mu)) in R3.
    clear - R3 Hps V'. subst M T. revert ps Hps. induction R3 as [|k v l rv H F IH]; intros ps Hps; inversion Hps as [|? p ? ps' (P1 & P2) Fp]; subst; [constructor|].
    inversion V' as [|? ? V1 V2]; subst. cbn [map]. cbv beta in *. rewrite P2 in H, V1. constructor; [split; [exact V1|exact H]|]. apply IH; assumption. }
  assert (Cmp : complete es n l) by (split; [exact E7|exact E5]).
  assert (Ser : forall sol : option vec -> list quot -> res vec, (forall last rel, exists last', (last' = None \/ last' = last) /\ sol last rel = solve rows last' rel) -> exists xs, serial sol es ms = Ok xs /\
    Forall2 (fun g x => good (smoke (fst g)) x) (map (fun i => (i, filter (fun e => (e_img e =? i)%Z) es)) (zrange 1 (n + 1))) xs).
  { intros sol Hsol. unfold serial. rewrite (complete_groups es n l Hn Lne Cmp). apply (serial_ok _ _ _ _ (fun i x => good (smoke i) x)); [|discriminate].
    intros i fs Hin. destruct (Img i fs Hin) as (rel & I1 & I2). exists rel. split; [exact I1|]. intros last Hlast. destruct (Hsol last rel) as (last' & Q & ->). apply I2.
    intros y Hy. destruct Q as [->| ->]; [discriminate Hy|]. destruct (Hlast y Hy) as (j & G). exists (smoke j). exact G. }
  assert (All : exists xs, (if (1 <? cpus)%Z then parallel (solve rows) order es ms else serial (solve rows) es ms) = Ok xs /\
    Forall2 (fun g x => good (smoke (fst g)) x) (map (fun i => (i, filter (fun e => (e_img e =? i)%Z) es)) (zrange 1 (n + 1))) xs).
  { destruct (1 <? cpus)%Z; [|apply Ser; intros last rel; exists last; split; [right|]; reflexivity].
    (* a pool always starts anew *)
    change (parallel (solve rows) order es ms) with (parallel (fun _ : option vec => solve rows None) order es ms).
    rewrite (C43_parallel_equals_serial _ (fun _ : option vec => solve rows None) order es ms n l (fun _ _ => eq_refl) Hn Lne Nd Cmp Hord (eq_sym (Forall2_len _ _ _ Ms))).
    apply Ser. intros last rel. exists None. split; [left|]; reflexivity. }
  destruct All as (xs & X1 & X2). exists xs. split; [|split].
  - unfold analyse_avg. rewrite E1. cbn [bind]. rewrite E2. cbn [bind]. rewrite E3. cbn [bind]. fold ref. fold ms. cbv zeta. exact X1.
  - apply Forall2_len in X2. rewrite map_length, length_zrange in X2. rewrite <- X2. f_equal. lia.
  - intros i x Hi Hx. destruct (Forall2_nth_both _ _ _ _ _ _ _ X2 Hx) as ((i' & fs) & G1 & G2). rewrite nth_error_map, nth_zrange in G1 by exact Hi. cbn [option_map] in G1. apply Some_inj in G1. injection G1 as <- _. exact G2.
Qed.

(** The same with the exact mean. *)
Lemma any_distances_if :
  forall A groups arrays a l n recs t coords ps indices num bot top nlay cam dist M' (solve : list (option vec) -> option vec -> list quot -> res vec) (shape : vec -> Prop) (good : vec -> vec -> Prop) eps smoke bright cpus order,
  (* the LED arrays, the records of the images 1..n and the binary table *)
  ascending_merge groups -> arrays = merge_indices (reorder_led_indices A) groups ->
  nth_error arrays a = Some l -> (2 <= List.length l)%nat -> (1 <= n)%Z ->
  (forall i, (1 <= i <= n)%Z -> exists F (fit : option (list (list Z) -> res F)) img r areas arrays' ds,
     Forall2 (@Permutation Z) arrays' arrays /\
     generate_analysis_data fit img r areas arrays' 0 = Ok ds /\
     map (fun d => (d_id d, d_array d)) ds = map (fun d => (d_id d, d_array d)) (recs i)) ->
  table_of_images t n recs ->
  (* the positions of the LEDs; what the solver finds *)
  Forall2 (fun id p => (0 <= id)%Z /\ nth_error coords (Z.to_nat id) = Some p) l ps ->
  Forall2 (fun p r => dist p = Row r) ps M' ->
  (forall last qs s, let M := map (paths bot top nlay cam) ps in
     (forall y, last = Some y -> exists s', good s' y) ->
     List.length s = nlay -> nonneg s -> shape s ->
     Forall2 (fun row v => 1 / 10000000000 <= exp (- rdot row s) /\ Rabs (v - exp (- rdot row s)) <= relative_error eps * exp (- rdot row s)) M (map Q2R qs) ->
     exists x, solve (map Some M') last (map Fin qs) = Ok x /\ good s x) ->
  (* the smoke in every image; none in the reference images *)
  (forall i, (1 <= i <= n)%Z -> List.length (smoke i) = nlay /\ nonneg (smoke i) /\ shape (smoke i)) ->
  (forall i, (1 <= i <= n)%Z -> is_reference indices num i -> smoke i = repeat 0 nlay) ->
  (exists i, (1 <= i <= n)%Z /\ is_reference indices num i) ->
  (* every recorded sum is the brightness of the LED times the transmission, up to the relative error eps *)
  0 <= eps -> table_error eps < 1 / 3 ->
  (forall i d p, (1 <= i <= n)%Z -> In d (recs i) -> d_array d = Z.of_nat a -> nth_error coords (Z.to_nat (d_id d)) = Some p ->
     0 < bright (d_id d) /\ 1 / 10000000000 <= transmission bot top nlay cam p (smoke i) /\
     close_to (bright (d_id d) * transmission bot top nlay cam p (smoke i)) eps (IZR (d_sum d))) ->
  Permutation order (seq 0 (Z.to_nat n)) ->
  exists xs, analyse_by dist solve coords (nth_error (index_files arrays) a) t (Z.of_nat a) "sum_col_val" indices num cpus order = Ok xs /\
    List.length xs = Z.to_nat n /\
    forall i x, (1 <= i <= n)%Z -> nth_error xs (Z.to_nat (i - 1)) = Some x ->
      good (smoke i) x.
Proof.
  intros A groups arrays a l n recs t coords ps indices num bot top nlay cam dist M' solve shape good eps smoke bright cpus order Hg Harr Ha Hl Hn Hrec Ht Hps Hdist Hsolve Hsm Hsm0 Href He He' Hmeas Hord.
  assert (E0 : eps + 2 * 0 = eps) by ring.
  apply (any_distances_avg A groups arrays a l n recs t coords ps indices num "sum_col_val" bot top nlay cam dist M' mean 0 (Z.to_nat n) solve shape good eps smoke bright cpus order);
    rewrite ?E0; try assumption; [left; reflexivity|apply exact_mean_accurate|lra|lia].
Qed.

(** The same with exact distances. *)
Lemma any_solver_if :
  forall A groups arrays a l n recs t coords ps indices num bot top nlay cam (solve : list (option vec) -> option vec -> list quot -> res vec) (shape : vec -> Prop) (good : vec -> vec -> Prop) eps smoke bright cpus order,
  (* the LED arrays, the records of the images 1..n and the binary table *)
  ascending_merge groups -> arrays = merge_indices (reorder_led_indices A) groups ->
  nth_error arrays a = Some l -> (2 <= List.length l)%nat -> (1 <= n)%Z ->
  (forall i, (1 <= i <= n)%Z -> exists F (fit : option (list (list Z) -> res F)) img r areas arrays' ds,
     Forall2 (@Permutation Z) arrays' arrays /\
     generate_analysis_data fit img r areas arrays' 0 = Ok ds /\
     map (fun d => (d_id d, d_array d)) ds = map (fun d => (d_id d, d_array d)) (recs i)) ->
  table_of_images t n recs ->
  (* the positions of the LEDs; what the solver finds *)
  Forall2 (fun id p => (0 <= id)%Z /\ nth_error coords (Z.to_nat id) = Some p) l ps ->
  (1 <= nlay)%nat -> bot < top -> Forall (in_view bot top cam) ps ->
  (forall last qs s, let M := map (paths bot top nlay cam) ps in
     (forall y, last = Some y -> exists s', good s' y) ->
     List.length s = nlay -> nonneg s -> shape s ->
     Forall2 (fun row v => 1 / 10000000000 <= exp (- rdot row s) /\ Rabs (v - exp (- rdot row s)) <= relative_error eps * exp (- rdot row s)) M (map Q2R qs) ->
     exists x, solve (map Some M) last (map Fin qs) = Ok x /\ good s x) ->
  (* the smoke in every image; none in the reference images *)
  (forall i, (1 <= i <= n)%Z -> List.length (smoke i) = nlay /\ nonneg (smoke i) /\ shape (smoke i)) ->
  (forall i, (1 <= i <= n)%Z -> is_reference indices num i -> smoke i = repeat 0 nlay) ->
  (exists i, (1 <= i <= n)%Z /\ is_reference indices num i) ->
  (* every recorded sum is the brightness of the LED times the transmission, up to the relative error eps *)
  0 <= eps -> table_error eps < 1 / 3 ->
  (forall i d p, (1 <= i <= n)%Z -> In d (recs i) -> d_array d = Z.of_nat a -> nth_error coords (Z.to_nat (d_id d)) = Some p ->
     0 < bright (d_id d) /\ 1 / 10000000000 <= transmission bot top nlay cam p (smoke i) /\
     close_to (bright (d_id d) * transmission bot top nlay cam p (smoke i)) eps (IZR (d_sum d))) ->
  Permutation order (seq 0 (Z.to_nat n)) ->
  exists xs, analyse_with solve bot top nlay cam coords (nth_error (index_files arrays) a) t (Z.of_nat a) "sum_col_val" indices num cpus order = Ok xs /\
    List.length xs = Z.to_nat n /\
    forall i x, (1 <= i <= n)%Z -> nth_error xs (Z.to_nat (i - 1)) = Some x ->
      good (smoke i) x.
Proof.
  intros A groups arrays a l n recs t coords ps indices num bot top nlay cam solve shape good eps smoke bright cpus order
    Hg Harr Ha Hl Hn Hrec Ht Hps Hlay Hbt Hview Hsolve Hsm Hsm0 Href He He' Hmeas Hord.
  apply (any_distances_if A groups arrays a l n recs t coords ps indices num bot top nlay cam _ (map (paths bot top nlay cam) ps) solve shape good eps smoke bright cpus order); try assumption.
  clear - Hview Hlay Hbt. induction Hview as [|p ps V F IH]; [constructor|]. cbn [map]. constructor; [apply visible_row; assumption|exact IH].
Qed.

(** The linear solver. *)
Lemma linear_solver_if : forall ps bot top nlay cam nnls lambda (shape : vec -> Prop) (bound : vec -> R) eps,
  separates nlay (a_aug lambda nlay (map (paths bot top nlay cam) ps)) ->
  (forall rel s, let M := map (paths bot top nlay cam) ps in
     List.length s = nlay -> nonneg s -> shape s ->
     Forall2 (fun row v => 1 / 10000000000 <= exp (- rdot row s) /\ Rabs (v - exp (- rdot row s)) <= relative_error eps * exp (- rdot row s)) M rel ->
     nnls_solution nlay (a_aug lambda nlay M) (b_aug nlay rel) (nnls (a_aug lambda nlay M) (b_aug nlay rel)) ->
     sq_dist (linear_coefficients nnls lambda nlay M rel) s <= bound s) ->
  nnls_contract nnls ->
  forall last qs s, let M := map (paths bot top nlay cam) ps in
     List.length s = nlay -> nonneg s -> shape s ->
     Forall2 (fun row v => 1 / 10000000000 <= exp (- rdot row s) /\ Rabs (v - exp (- rdot row s)) <= relative_error eps * exp (- rdot row s)) M (map Q2R qs) ->
     exists x, solve_linear nnls lambda nlay (map Some M) last (map Fin qs) = Ok x /\ sq_dist x s <= bound s.
Proof.
  intros ps bot top nlay cam nnls lambda shape bound eps Hsep Hbound Hnnls last qs s M Ls Ns Sh F. pose proof (Forall2_len _ _ _ F) as L.
  assert (RowsM : rows_ok nlay M) by (unfold rows_ok, M; apply Forall_forall; intros r Hr; apply in_map_iff in Hr; destruct Hr as (p & <- & _); apply paths_length).
  exists (linear_coefficients nnls lambda nlay M (map Q2R qs)). split.
  - unfold solve_linear. rewrite all_some_map, all_some_fin, <- L, Nat.eqb_refl. reflexivity.
  - apply Hbound; try assumption. apply Hnnls; [apply rows_ok_aug; exact RowsM|apply aug_length; symmetry; exact L|exact Hsep].
Qed.

(** The same with the linear solver. *)
Lemma smoke_is_recovered_if :
  forall A groups arrays a l n recs t coords ps indices num bot top nlay cam nnls lambda (shape : vec -> Prop) (bound : vec -> R) eps smoke bright cpus order,
  (* the LED arrays, the records of the images 1..n and the binary table *)
  ascending_merge groups -> arrays = merge_indices (reorder_led_indices A) groups ->
  nth_error arrays a = Some l -> (2 <= List.length l)%nat -> (1 <= n)%Z ->
  (forall i, (1 <= i <= n)%Z -> exists F (fit : option (list (list Z) -> res F)) img r areas arrays' ds,
     Forall2 (@Permutation Z) arrays' arrays /\
     generate_analysis_data fit img r areas arrays' 0 = Ok ds /\
     map (fun d => (d_id d, d_array d)) ds = map (fun d => (d_id d, d_array d)) (recs i)) ->
  table_of_images t n recs ->
  (* the positions of the LEDs; what the solver finds *)
  Forall2 (fun id p => (0 <= id)%Z /\ nth_error coords (Z.to_nat id) = Some p) l ps ->
  (1 <= nlay)%nat -> bot < top -> Forall (in_view bot top cam) ps ->
  separates nlay (a_aug lambda nlay (map (paths bot top nlay cam) ps)) ->
  (forall rel s, let M := map (paths bot top nlay cam) ps in
     List.length s = nlay -> nonneg s -> shape s ->
     Forall2 (fun row v => 1 / 10000000000 <= exp (- rdot row s) /\ Rabs (v - exp (- rdot row s)) <= relative_error eps * exp (- rdot row s)) M rel ->
     nnls_solution nlay (a_aug lambda nlay M) (b_aug nlay rel) (nnls (a_aug lambda nlay M) (b_aug nlay rel)) ->
     sq_dist (linear_coefficients nnls lambda nlay M rel) s <= bound s) ->
  (* the smoke in every image; none in the reference images *)
  (forall i, (1 <= i <= n)%Z -> List.length (smoke i) = nlay /\ nonneg (smoke i) /\ shape (smoke i)) ->
  (forall i, (1 <= i <= n)%Z -> is_reference indices num i -> smoke i = repeat 0 nlay) ->
  (exists i, (1 <= i <= n)%Z /\ is_reference indices num i) ->
  (* every recorded sum is the brightness of the LED times the transmission, up to the relative error eps *)
  0 <= eps -> table_error eps < 1 / 3 ->
  (forall i d p, (1 <= i <= n)%Z -> In d (recs i) -> d_array d = Z.of_nat a -> nth_error coords (Z.to_nat (d_id d)) = Some p ->
     0 < bright (d_id d) /\ 1 / 10000000000 <= transmission bot top nlay cam p (smoke i) /\
     close_to (bright (d_id d) * transmission bot top nlay cam p (smoke i)) eps (IZR (d_sum d))) ->
  0 <= lambda -> nnls_contract nnls -> Permutation order (seq 0 (Z.to_nat n)) ->
  exists xs, analyse_array nnls lambda bot top nlay cam coords (nth_error (index_files arrays) a) t (Z.of_nat a) "sum_col_val" indices num cpus order = Ok xs /\
    List.length xs = Z.to_nat n /\
    forall i x, (1 <= i <= n)%Z -> nth_error xs (Z.to_nat (i - 1)) = Some x ->
      sq_dist x (smoke i) <= bound (smoke i).
Proof.
  intros A groups arrays a l n recs t coords ps indices num bot top nlay cam nnls lambda shape bound eps smoke bright cpus order
    Hg Harr Ha Hl Hn Hrec Ht Hps Hlay Hbt Hview Hsep Hbound Hsm Hsm0 Href He He' Hmeas Hlam Hnnls Hord.
  apply (any_solver_if A groups arrays a l n recs t coords ps indices num bot top nlay cam (solve_linear nnls lambda nlay) shape (fun s x => sq_dist x s <= bound s) eps smoke bright cpus order);
    try assumption.
  intros last qs s M _. apply linear_solver_if; assumption.
Qed.

Theorem C94_smoke_is_recovered :
  forall A groups arrays a l n recs t coords ps indices num bot top nlay cam nnls lambda c eps smoke bright cpus order,
  (* the LED arrays, the records of the images 1..n and the binary table *)
  ascending_merge groups -> arrays = merge_indices (reorder_led_indices A) groups ->
  nth_error arrays a = Some l -> (2 <= List.length l)%nat -> (1 <= n)%Z ->
  (forall i, (1 <= i <= n)%Z -> exists F (fit : option (list (list Z) -> res F)) img r areas arrays' ds,
     Forall2 (@Permutation Z) arrays' arrays /\
     generate_analysis_data fit img r areas arrays' 0 = Ok ds /\
     map (fun d => (d_id d, d_array d)) ds = map (fun d => (d_id d, d_array d)) (recs i)) ->
  table_of_images t n recs ->
  (* the positions of the LEDs; the lines of sight tell the layers apart *)
  Forall2 (fun id p => (0 <= id)%Z /\ nth_error coords (Z.to_nat id) = Some p) l ps ->
  (3 <= nlay)%nat -> bot < top -> Forall (in_view bot top cam) ps ->
  0 < c -> (forall z, List.length z = nlay -> c * sq_norm z <= sq_norm (map (fun p => rdot (paths bot top nlay cam p) z) ps)) ->
  (* the smoke, linear in height in every image; none in the reference images *)
  (forall i, (1 <= i <= n)%Z -> List.length (smoke i) = nlay /\ nonneg (smoke i) /\ progression (smoke i)) ->
  (forall i, (1 <= i <= n)%Z -> is_reference indices num i -> smoke i = repeat 0 nlay) ->
  (exists i, (1 <= i <= n)%Z /\ is_reference indices num i) ->
  (* every recorded sum is the brightness of the LED times the transmission, up to the relative error eps *)
  0 <= eps -> table_error eps < 1 / 3 ->
  (forall i d p, (1 <= i <= n)%Z -> In d (recs i) -> d_array d = Z.of_nat a -> nth_error coords (Z.to_nat (d_id d)) = Some p ->
     0 < bright (d_id d) /\ 1 / 10000000000 <= transmission bot top nlay cam p (smoke i) /\
     close_to (bright (d_id d) * transmission bot top nlay cam p (smoke i)) eps (IZR (d_sum d))) ->
  0 <= lambda -> nnls_contract nnls -> Permutation order (seq 0 (Z.to_nat n)) ->
  exists xs, analyse_array nnls lambda bot top nlay cam coords (nth_error (index_files arrays) a) t (Z.of_nat a) "sum_col_val" indices num cpus order = Ok xs /\
    List.length xs = Z.to_nat n /\
    forall i x, (1 <= i <= n)%Z -> nth_error xs (Z.to_nat (i - 1)) = Some x ->
      sq_dist x (smoke i) <= 4 * INR (List.length l) * (ln (1 - relative_error eps) * ln (1 - relative_error eps)) / c.
Proof.
  intros A groups arrays a l n recs t coords ps indices num bot top nlay cam nnls lambda c eps smoke bright cpus order
    Hg Harr Ha Hl Hn Hrec Ht Hps Hlay Hbt Hview Hc Hsep Hsm Hsm0 Href He He' Hmeas Hlam Hnnls Hord.
  set (M := map (paths bot top nlay cam) ps).
  assert (SepM : forall z, List.length z = nlay -> c * sq_norm z <= sq_norm (mul M z)).
  { intros z Hz. unfold mul, M. rewrite map_map. apply Hsep. exact Hz. }
  apply (smoke_is_recovered_if A groups arrays a l n recs t coords ps indices num bot top nlay cam nnls lambda progression (fun _ => 4 * INR (List.length l) * (ln (1 - relative_error eps) * ln (1 - relative_error eps)) / c) eps smoke bright cpus order); try assumption.
  - lia.
  - apply separates_aug. exists c. split; [exact Hc|exact SepM].
  - cbv zeta. intros rel s Ls Ns Pr F Sol. fold M in F, Sol |- *. replace (List.length l) with (List.length M) by (unfold M; rewrite map_length; symmetry; eapply Forall2_len; exact Hps).
    apply (C93_noisy_profiles nnls lambda nlay M rel s c (relative_error eps)); try assumption; [|apply relative_error_range; assumption].
    unfold M. apply Forall_forall. intros r Hr. apply in_map_iff in Hr. destruct Hr as (p & <- & _). apply paths_nonneg.
Qed.
Print Assumptions C94_smoke_is_recovered.

(** *** A concrete case: the camera below three LEDs, three layers of one metre;
    no smoke in the first image, in the second every layer halves the light. *)
Definition eg_coords : list point := [Point 0 0 1; Point 0 0 2; Point 0 0 3].
Definition eg_cam : point := Point 0 0 0.
Definition eg_sums (i : Z) : list Z := if (i =? 1)%Z then [8000; 8000; 8000]%Z else [4000; 2000; 1000]%Z.
Definition eg_recs (i : Z) : list (led_data Format_Model.fit_data) :=
  map (fun p => LedData (fst p) 0 (snd p) 1%Q 1 None) (combine [0; 1; 2]%Z (eg_sums i)).
Definition eg_table : frame := Frame fast_table_columns (concat (map (fun i => map (plain_row i) (eg_recs i)) [1; 2]%Z)).
Definition eg_smoke (i : Z) : vec := if (i =? 1)%Z then repeat 0 3 else [ln 2; ln 2; ln 2].
Definition eg_areas : list row := [(0, (2, 2)); (1, (2, 5)); (2, (2, 8))]%Z.

Lemma eg_path : forall h b, 0 < h -> 0 <= b -> path_in eg_cam (Point 0 0 h) b (b + 1) = Rmax 0 (Rmin (b + 1) h - b).
Proof.
  intros h b Hh Hb. unfold path_in, eg_cam. cbn [pz]. destruct (Req_EM_T 0 h) as [C|_]; [lra|].
  assert (E : euclid (Point 0 0 0) (Point 0 0 h) = h).
  { unfold euclid. cbn [px py pz]. replace ((0 - 0) * (0 - 0) + (0 - 0) * (0 - 0) + (0 - h) * (0 - h)) with (h * h) by ring. apply sqrt_square. lra. }
  rewrite E. unfold overlap. rewrite (Rmax_right 0 h), (Rmin_left 0 h) by lra. rewrite (Rmax_left b 0) by lra. rewrite Rminus_0_r, Rabs_pos_eq by lra. field. lra.
Qed.

Lemma eg_paths : map (paths 0 3 3 eg_cam) eg_coords = [[1; 0; 0]; [1; 1; 0]; [1; 1; 1]].
Proof.
  assert (P : forall h, 0 < h -> paths 0 3 3 eg_cam (Point 0 0 h) = [Rmax 0 (Rmin 1 h - 0); Rmax 0 (Rmin 2 h - 1); Rmax 0 (Rmin 3 h - 2)]).
  { intros h Hh. unfold paths. cbn [seq map]. change (INR 0) with 0. change (INR 1) with 1. change (INR 2) with (1 + 1). change (INR 3) with (1 + 1 + 1).
    replace (0 + 0 * ((3 - 0) / (1 + 1 + 1))) with 0 by field. replace (0 + 1 * ((3 - 0) / (1 + 1 + 1))) with (0 + 1) by field.
    replace (0 + (1 + 1) * ((3 - 0) / (1 + 1 + 1))) with (0 + 1 + 1) by field. replace (0 + (1 + 1 + 1) * ((3 - 0) / (1 + 1 + 1))) with (0 + 1 + 1 + 1) by field.
    rewrite !eg_path by lra. replace (0 + 1 + 1 + 1) with 3 by ring. replace (0 + 1 + 1) with 2 by ring. replace (0 + 1) with 1 by ring. reflexivity. }
  assert (Z : forall u h b, h <= b -> Rmax 0 (Rmin u h - b) = 0) by (intros u h b H; pose proof (Rmin_r u h); apply Rmax_left; lra).
  assert (O : forall u h b, u <= h -> u = b + 1 -> Rmax 0 (Rmin u h - b) = 1) by (intros u h b H E; rewrite Rmin_left by exact H; rewrite Rmax_right; lra).
  unfold eg_coords. cbn [map]. rewrite !P by lra. rewrite (O 1 1 0), (O 1 2 0), (O 1 3 0), (O 2 2 1), (O 2 3 1), (O 3 3 2), (Z 2 1 1), (Z 3 1 2), (Z 3 2 2) by lra. reflexivity.
Qed.

Example C94_example : forall nnls lambda cpus, nnls_contract nnls -> 0 <= lambda ->
  exists x1 x2, analyse_array nnls lambda 0 3 3 eg_cam eg_coords (Some [2; 1; 0]%Z) eg_table 0 "sum_col_val" None 1 cpus [1; 0]%nat = Ok [x1; x2] /\
    sq_dist x1 [0; 0; 0] <= 1 / 100000 /\ sq_dist x2 [ln 2; ln 2; ln 2] <= 1 / 100000.
Proof.
  intros nnls lambda cpus Hnnls Hlam.
  assert (L2 : 0 < ln 2) by (rewrite <- ln_1; apply ln_increasing; lra).
  assert (Bound : 4 * INR 3 * (ln (1 - relative_error 0) * ln (1 - relative_error 0)) / (1 / 8) <= 1 / 100000).
  { assert (E : relative_error 0 = 2 / 19999) by (unfold relative_error, table_error; field). rewrite E.
    (* -ln (1 - e) = ln (1 / (1 - e)) <= 1 / (1 - e) - 1 *)
    assert (X : ln (1 - 2 / 19999) = - ln (19999 / 19997)) by (rewrite <- ln_Rinv by lra; f_equal; field).
    assert (Y : 0 <= ln (19999 / 19997) <= 2 / 19997).
    { split; [rewrite <- ln_1; left; apply ln_increasing; lra|]. pose proof (exp_ineq1 (2 / 19997) ltac:(lra)) as Q.
      rewrite <- (ln_exp (2 / 19997)). left. apply ln_increasing; lra. }
    rewrite X. set (y := ln (19999 / 19997)) in *. replace (- y * - y) with (y * y) by ring.
    assert (Z : y * y <= 2 / 19997 * (2 / 19997)) by (apply Rmult_le_compat; lra). cbn [INR]. lra. }
  destruct (C94_smoke_is_recovered [[0; 1; 2]%Z] None [[0; 1; 2]%Z] 0 [0; 1; 2]%Z 2 eg_recs eg_table eg_coords eg_coords None 1 0 3 3 eg_cam nnls lambda (1 / 8) 0 eg_smoke (fun _ => 8000) cpus [1; 0]%nat)
    as (xs & X1 & X2 & X3).
  - exact I.
  - reflexivity.
  - reflexivity.
  - simpl. lia.
  - lia.
  - intros i Hi. assert (Ci : (i = 1 \/ i = 2)%Z) by lia. exists Format_Model.fit_data, None, ex_img, 1%Z, eg_areas, [[0; 1; 2]%Z].
    eexists. split; [repeat constructor; apply Permutation_refl|]. split; [vm_compute; reflexivity|]. destruct Ci as [-> | -> ]; reflexivity.
  - exists (map (fun i => map (plain_row i) (eg_recs i)) [1; 2]%Z). split; [reflexivity|].
    assert (X : forall i, (i = 1 \/ i = 2)%Z -> rows_of_image (row_of_record (cols eg_table) i) (eg_recs i) (map (plain_row i) (eg_recs i))).
    { intros i Hi. exists (eg_recs i). split; [apply Permutation_refl|]. split.
      - destruct Hi as [-> | -> ]; vm_compute; repeat constructor; intros C; discriminate C.
      - assert (F : Forall (fun d => (0 <= d_sum d)%Z) (eg_recs i)) by (destruct Hi as [-> | -> ]; vm_compute; repeat constructor; intros C; discriminate C).
        cbn [cols eg_table]. clear - F. induction F as [|d ds H F IH]; [constructor|]. cbn [map]. constructor; [apply plain_row_ok; exact H|exact IH]. }
    change (zrange 1 (2 + 1)) with [1; 2]%Z. cbn [map]. constructor; [apply X; left; reflexivity|]. constructor; [apply X; right; reflexivity|constructor].
  - unfold eg_coords. repeat (constructor; [split; [lia|reflexivity]|]). constructor.
  - lia.
  - lra.
  - unfold eg_coords. repeat (constructor; [unfold in_view, within, eg_cam; cbn [pz]; split; [lra|split; [lra|intros C; exfalso; lra]]|]). constructor.
  - lra.
  - intros z Hz. pose proof eg_paths as E. assert (F : map (fun p => rdot (paths 0 3 3 eg_cam p) z) eg_coords = mul (map (paths 0 3 3 eg_cam) eg_coords) z) by (unfold mul; rewrite map_map; reflexivity).
    rewrite F, E. destruct z as [|a [|b [|d [|? ?]]]]; try discriminate. unfold mul. cbn [map rdot sq_norm].
    replace (1 * a + (0 * b + (0 * d + 0))) with a by ring. replace (1 * a + (1 * b + (0 * d + 0))) with (a + b) by ring. replace (1 * a + (1 * b + (1 * d + 0))) with (a + b + d) by ring.
    assert (T : forall s t, (s - t) * (s - t) <= 2 * (s * s) + 2 * (t * t)) by (intros s t; pose proof (Rle_0_sqr (s + t)) as Q; unfold Rsqr in Q; lra).
    pose proof (T (a + b) a) as T1. pose proof (T (a + b + d) (a + b)) as T2. replace (a + b - a) with b in T1 by ring. replace (a + b + d - (a + b)) with d in T2 by ring.
    pose proof (Rle_0_sqr a) as P1. pose proof (Rle_0_sqr (a + b)) as P2. pose proof (Rle_0_sqr (a + b + d)) as P3. unfold Rsqr in P1, P2, P3. lra.
  - intros i Hi. unfold eg_smoke. destruct (i =? 1)%Z.
    + split; [reflexivity|]. split; [apply zeros_nonneg|]. exists 0, 0. cbn [length repeat seq map]. repeat f_equal; lra.
    + split; [reflexivity|]. split; [unfold nonneg; repeat (constructor; [lra|]); constructor|]. exists (ln 2), 0. cbn [length seq map]. repeat f_equal; lra.
  - intros i Hi Hr. cbn [is_reference] in Hr. assert (i = 1)%Z by lia. subst i. reflexivity.
  - exists 1%Z. split; [lia|]. cbn. lia.
  - lra.
  - unfold table_error. lra.
  - assert (TR : forall j p s, nth_error eg_coords j = Some p -> s = ln 2 -> exists m, (m = INR (S j) * ln 2) /\ transmission 0 3 3 eg_cam p [s; s; s] = exp (- m)).
    { intros j p s Hj ->. exists (INR (S j) * ln 2). split; [reflexivity|]. unfold transmission. f_equal. f_equal.
      assert (N : nth_error (map (paths 0 3 3 eg_cam) eg_coords) j = Some (paths 0 3 3 eg_cam p)) by (rewrite nth_error_map, Hj; reflexivity). rewrite eg_paths in N.
      destruct j as [|[|[|j]]]; cbn [nth_error] in N; try (apply Some_inj in N; rewrite <- N; cbn [rdot INR]; ring). destruct j; discriminate N. }
    assert (H1 : exp (- ln 2) = 1 / 2) by (rewrite exp_Ropp, exp_ln by lra; lra).
    assert (P : forall j, exp (- (INR (S j) * ln 2)) = (1 / 2) ^ S j).
    { induction j as [|j IH]; [cbn [INR pow]; rewrite Rmult_1_l, H1; lra|]. rewrite S_INR. replace (- ((INR (S j) + 1) * ln 2)) with (- (INR (S j) * ln 2) + - ln 2) by ring.
      rewrite exp_plus, IH, H1. cbn [pow]. lra. }
    intros i d p Hi Hd _ Hp. assert (Ci : (i = 1 \/ i = 2)%Z) by lia. destruct Ci as [-> | -> ].
    + assert (T0 : transmission 0 3 3 eg_cam p (eg_smoke 1) = 1) by (unfold transmission, eg_smoke; cbn [Z.eqb Pos.eqb]; rewrite rdot_zeros, Ropp_0; apply exp_0).
      rewrite T0. split; [lra|]. split; [lra|]. apply close_bounds. destruct Hd as [<-|[<-|[<-|[]]]]; cbn [d_sum fst snd]; lra.
    + change (eg_smoke 2) with [ln 2; ln 2; ln 2]. destruct (TR _ p (ln 2) Hp eq_refl) as (m & -> & Tm). rewrite Tm, P. split; [lra|].
      destruct Hd as [<-|[<-|[<-|[]]]]; cbn [d_id d_sum fst snd]; [change (Z.to_nat 0) with 0%nat|change (Z.to_nat 1) with 1%nat|change (Z.to_nat 2) with 2%nat];
        cbn [pow]; (split; [lra|]); apply close_bounds; lra.
  - exact Hlam.
  - exact Hnnls.
  - apply perm_swap.
  - change (nth_error (index_files [[0; 1; 2]%Z]) 0) with (Some [2; 1; 0]%Z) in X1. change (Z.of_nat 0) with 0%Z in X1.
    destruct xs as [|x1 [|x2 [|x3 xs]]]; try discriminate X2. exists x1, x2. split; [exact X1|]. split.
    + eapply Rle_trans; [apply (X3 1%Z x1); [lia|reflexivity]|exact Bound].
    + eapply Rle_trans; [apply (X3 2%Z x2); [lia|reflexivity]|exact Bound].
Qed.
