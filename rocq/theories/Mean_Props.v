(** C130: the mean over the reference images with rounding. *)
From Coq Require Import ZArith QArith Qreals List Permutation Reals Lra Lia Psatz.
From Verif Require Import Base Table_Model Analysis_Model End_Model End_Props Mean_Model.
Import ListNotations.
Local Open Scope R_scope.

(** ** Specification *)

(** A rounding of numbers which are not negative, with the relative error [u]. *)
Definition accurate_rounding (u : R) (rnd : Q -> Q) : Prop :=
  forall q, 0 <= Q2R q -> Rabs (Q2R (rnd q) - Q2R q) <= u * Q2R q.

(** An order of summation adds every number once. *)
Definition adds_all (tree : list Q -> sum_tree) : Prop := forall qs, qs <> [] -> Permutation (leaves (tree qs)) qs.

(** ** Proofs *)

Lemma pow_above : forall u k, 0 <= u -> 1 + INR k * u <= (1 + u) ^ k.
Proof.
  intros u k Hu. induction k as [|k IH]; [simpl; lra|]. rewrite S_INR. cbn [pow]. pose proof (pos_INR k). nra.
Qed.

Lemma pow_below : forall u k, 0 <= u <= 1 -> 1 - INR k * u <= (1 - u) ^ k.
Proof.
  intros u k Hu. induction k as [|k IH]; [simpl; lra|]. rewrite S_INR. cbn [pow]. pose proof (pos_INR k).
  assert (0 <= (1 - u) ^ k) by (apply pow_le; lra). destruct (Rle_dec 0 (1 - INR k * u)); nra.
Qed.

Lemma pow_incl_unit : forall u k, 0 <= u <= 1 -> 0 <= (1 - u) ^ k <= 1.
Proof. intros u k Hu. induction k as [|k IH]; cbn [pow]; nra. Qed.

Lemma leaves_count : forall t, (1 <= List.length (leaves t))%nat.
Proof. induction t as [q|l IHl r IHr]; [apply Nat.le_refl|]. cbn [leaves]. rewrite app_length. lia. Qed.

Fixpoint real_sum (qs : list Q) : R := match qs with [] => 0 | q :: l => Q2R q + real_sum l end.

Lemma real_sum_app : forall a b, real_sum (a ++ b) = real_sum a + real_sum b.
Proof. induction a as [|q a IH]; intros b; cbn [real_sum app]; [lra|]. rewrite IH. lra. Qed.

Lemma real_sum_perm : forall a b, Permutation a b -> real_sum a = real_sum b.
Proof. intros a b P. induction P as [|q a b P IH|x y a|a b c P1 IH1 P2 IH2]; cbn [real_sum] in *; lra. Qed.

Lemma real_sum_qsum : forall qs, Q2R (qsum qs) = real_sum qs.
Proof. induction qs as [|q qs IH]; [unfold Q2R; simpl; lra|]. cbn [real_sum]. change (qsum (q :: qs)) with (q + qsum qs)%Q. rewrite Q2R_plus, IH. reflexivity. Qed.

Lemma real_sum_nonneg : forall qs, Forall (fun q => 0 <= Q2R q) qs -> 0 <= real_sum qs.
Proof. intros qs F. induction F as [|q qs H F IH]; cbn [real_sum]; lra. Qed.

(** A factor of [k] roundings is a factor of more of them. *)
Lemma more_roundings : forall u j k s, 0 <= u <= 1 -> (j <= k)%nat -> 0 <= s -> (1 - u) ^ k * s <= (1 - u) ^ j * s /\ (1 + u) ^ j * s <= (1 + u) ^ k * s.
Proof.
  intros u j k s Hu H Hs. split; apply Rmult_le_compat_r; try exact Hs.
  - induction H as [|k H IH]; [lra|]. cbn [pow]. assert (0 <= (1 - u) ^ k) by (apply pow_le; lra). nra.
  - apply Rle_pow; [lra|exact H].
Qed.

Lemma one_rounding : forall u rnd q s k, accurate_rounding u rnd -> 0 <= u <= 1 -> 0 <= s -> (1 - u) ^ k * s <= Q2R q <= (1 + u) ^ k * s ->
  (1 - u) ^ S k * s <= Q2R (rnd q) <= (1 + u) ^ S k * s.
Proof.
  intros u rnd q s k Hr Hu Hs (H1 & H2). assert (P : 0 <= (1 - u) ^ k * s) by (apply Rmult_le_pos; [apply pow_le; lra|exact Hs]).
  specialize (Hr q ltac:(lra)). cbn [pow].
  assert (B : - (u * Q2R q) <= Q2R (rnd q) - Q2R q <= u * Q2R q).
  { pose proof (Rle_abs (Q2R (rnd q) - Q2R q)). pose proof (Rle_abs (- (Q2R (rnd q) - Q2R q))) as Z. rewrite Rabs_Ropp in Z. lra. }
  split.
  - assert ((1 - u) * ((1 - u) ^ k * s) <= (1 - u) * Q2R q) by (apply Rmult_le_compat_l; lra). lra.
  - assert ((1 + u) * Q2R q <= (1 + u) * ((1 + u) ^ k * s)) by (apply Rmult_le_compat_l; lra). lra.
Qed.

Lemma tree_sum_close : forall u rnd t, accurate_rounding u rnd -> 0 <= u <= 1 -> Forall (fun q => 0 <= Q2R q) (leaves t) ->
  (1 - u) ^ (List.length (leaves t) - 1) * real_sum (leaves t) <= Q2R (tree_sum rnd t) <= (1 + u) ^ (List.length (leaves t) - 1) * real_sum (leaves t).
Proof.
  intros u rnd t Hr Hu. induction t as [q|l IHl r IHr]; intros F; cbn [leaves tree_sum] in *.
  - cbn [List.length Nat.sub pow real_sum]. lra.
  - apply Forall_app in F. destruct F as (Fl & Fr). specialize (IHl Fl). specialize (IHr Fr). pose proof (leaves_count l) as Cl. pose proof (leaves_count r) as Cr.
    pose proof (real_sum_nonneg _ Fl) as Pl. pose proof (real_sum_nonneg _ Fr) as Pr.
    rewrite app_length, real_sum_app. set (a := List.length (leaves l)) in *. set (b := List.length (leaves r)) in *. set (x := real_sum (leaves l)) in *. set (y := real_sum (leaves r)) in *.
    replace (a + b - 1)%nat with (S (a + b - 2)) by lia. apply one_rounding; [exact Hr|exact Hu|lra|]. rewrite Q2R_plus.
    destruct (more_roundings u (a - 1) (a + b - 2) x Hu ltac:(lia) Pl) as (A1 & A2). destruct (more_roundings u (b - 1) (a + b - 2) y Hu ltac:(lia) Pr) as (B1 & B2). lra.
Qed.

Lemma numbers_of_values : forall vs, Forall (fun v => forall x, v = Some x -> (0 <= x)%Q) vs ->
  (List.length (numbers vs) <= List.length vs)%nat /\ Forall (fun q => 0 <= Q2R q) (numbers vs).
Proof.
  intros vs F. induction F as [|v vs Hx F (IH1 & IH2)]; [split; [apply Nat.le_refl|constructor]|]. destruct v as [x|]; [|split; [apply (Nat.le_trans _ _ _ IH1), Nat.le_succ_diag_r|exact IH2]].
  specialize (Hx x eq_refl). split; [exact (le_n_S _ _ IH1)|]. constructor; [|exact IH2]. apply Qle_Rle in Hx. replace (Q2R 0) with 0 in Hx by (unfold Q2R; simpl; lra). exact Hx.
Qed.

(** ** C130 *)

(** Whatever the order of the additions, the mean of up to [N] values which are not
    negative has the relative error of [N] roundings. *)
Theorem C130_mean_with_rounding : forall u rnd tree N, accurate_rounding u rnd -> 0 <= u <= 1 -> adds_all tree ->
  accurate_mean N ((1 + u) ^ N - 1) (rounded_mean rnd tree).
Proof.
  intros u rnd tree N Hr Hu Ht vs q HN F E. destruct (numbers_of_values vs F) as (L & P). unfold mean in E. unfold rounded_mean.
  destruct (numbers vs) as [|q0 qs0] eqn:En; [discriminate|]. set (qs := q0 :: qs0) in *. apply Some_inj in E. eexists. split; [reflexivity|].
  assert (Hne : qs <> []) by discriminate. pose proof (Ht qs Hne) as Pm.
  assert (Fl : Forall (fun q => 0 <= Q2R q) (leaves (tree qs))) by (eapply Permutation_Forall; [symmetry; exact Pm|exact P]).
  pose proof (tree_sum_close u rnd (tree qs) Hr Hu Fl) as C. rewrite (Permutation_length Pm), (real_sum_perm _ _ Pm) in C.
  pose proof (real_sum_nonneg qs P) as Ps. set (k := List.length qs) in *. set (s := real_sum qs) in *.
  assert (Pk : 0 < INR k) by (apply lt_0_INR; unfold k, qs; simpl; lia).
  assert (D : forall z, Q2R (z / inject_Z (Z.of_nat k)) = Q2R z / INR k).
  { intros z. unfold Qdiv. rewrite Q2R_mult, Q2R_inv, Q2R_inject, <- INR_IZR_INZ; [reflexivity|]. intros Z. change 0%Q with (inject_Z 0) in Z. rewrite inject_Z_injective in Z.
    unfold k, qs in Z. simpl List.length in Z. lia. }
  assert (Eq : Q2R q = s / INR k) by (rewrite <- E, D, real_sum_qsum; reflexivity).
  assert (Pq : 0 <= s / INR k) by (apply Rmult_le_pos; [exact Ps|left; apply Rinv_0_lt_compat; exact Pk]).
  pose proof (one_rounding u rnd (tree_sum rnd (tree qs) / inject_Z (Z.of_nat k))%Q (s / INR k) (k - 1) Hr Hu Pq) as O. rewrite D in O.
  assert (K1 : (1 <= k)%nat) by (unfold k, qs; simpl; lia). replace (S (k - 1)) with k in O by lia.
  assert (I : 0 < / INR k) by (apply Rinv_0_lt_compat; exact Pk).
  assert (O' : (1 - u) ^ k * (s / INR k) <= Q2R (rnd (tree_sum rnd (tree qs) / inject_Z (Z.of_nat k))%Q) <= (1 + u) ^ k * (s / INR k)).
  { apply O. unfold Rdiv. rewrite <- !Rmult_assoc. split; apply Rmult_le_compat_r; lra. }
  rewrite Eq. set (z := s / INR k) in *. assert (KN : (k <= N)%nat) by lia. destruct (more_roundings u k N z Hu KN Pq) as (M1 & M2).
  apply Rabs_le. assert (B : 2 - (1 + u) ^ N <= (1 - u) ^ N).
  { clear - Hu. induction N as [|N IH]; [simpl; lra|]. cbn [pow]. assert (0 <= (1 - u) ^ N <= 1) by (apply pow_incl_unit; exact Hu).
    assert (1 <= (1 + u) ^ N) by (apply pow_R1_Rle; lra). nra. }
  assert ((2 - (1 + u) ^ N) * z <= (1 - u) ^ N * z) by (apply Rmult_le_compat_r; assumption). lra.
Qed.
Print Assumptions C130_mean_with_rounding.

(** Without a value there is no mean, and only then. *)
Theorem C130_empty_mean : forall rnd tree vs, rounded_mean rnd tree vs = None <-> Forall (fun v => v = None) vs.
Proof.
  intros rnd tree vs. unfold rounded_mean. assert (E : numbers vs = [] <-> Forall (fun v => v = None) vs).
  { induction vs as [|[q|] vs IH]; [split; [constructor|reflexivity]| |].
    - split; [discriminate|]. intros F. inversion F. discriminate.
    - change (numbers (None :: vs)) with (numbers vs). split; intros F; [constructor; [reflexivity|apply IH; exact F]|]. inversion F. apply IH. assumption. }
  rewrite <- E. destruct (numbers vs); split; congruence.
Qed.
Print Assumptions C130_empty_mean.

(** Orders that add every number once. *)
Lemma left_tree_leaves : forall qs, qs <> [] -> leaves (left_tree qs) = qs.
Proof.
  intros [|q qs] H; [congruence|]. cbn [left_tree]. clear H.
  assert (G : forall l t, leaves (fold_left (fun t x => Plus t (Leaf x)) l t) = leaves t ++ l).
  { induction l as [|x l IH]; intros t; cbn [fold_left]; [symmetry; apply app_nil_r|]. rewrite IH. cbn [leaves]. rewrite <- app_assoc. reflexivity. }
  rewrite G. reflexivity.
Qed.

Theorem C130_from_left_to_right : adds_all left_tree.
Proof. intros qs H. rewrite left_tree_leaves by exact H. apply Permutation_refl. Qed.
Print Assumptions C130_from_left_to_right.

Lemma div2_less : forall k, (1 <= Nat.div2 k)%nat -> (Nat.div2 k < k)%nat.
Proof. intros k H. apply Nat.lt_div2. destruct k; [simpl in H; lia|lia]. Qed.

Theorem C130_in_halves : forall d, adds_all (halves d).
Proof.
  intros d qs H. assert (E : leaves (halves d qs) = qs); [|rewrite E; apply Permutation_refl]. revert qs H.
  induction d as [|d IH]; intros qs H; cbn [halves]; [apply left_tree_leaves; exact H|].
  set (k := Nat.div2 (List.length qs)). destruct (Nat.eqb_spec k 0) as [E|E]; [apply left_tree_leaves; exact H|].
  assert (K : (k < List.length qs)%nat) by (apply div2_less; fold k; lia). cbn [leaves]. rewrite !IH; [apply firstn_skipn| |].
  - intros C. apply (f_equal (@List.length Q)) in C. rewrite skipn_length in C. cbn [List.length] in C. lia.
  - intros C. apply (f_equal (@List.length Q)) in C. rewrite firstn_length_le in C by lia. cbn [List.length] in C. lia.
Qed.
Print Assumptions C130_in_halves.

(** Double precision: with up to 10^6 reference images the relative error of the
    mean is below 3e-10. *)
Theorem C130_double_precision : forall rnd tree N, accurate_rounding (/ 2 ^ 52) rnd -> adds_all tree -> (Z.of_nat N <= 1000000)%Z ->
  accurate_mean N (3 / 10000000000) (rounded_mean rnd tree).
Proof.
  intros rnd tree N Hr Ht HN. assert (U : / 2 ^ 52 <= 1 / 4000000000000000) by lra. assert (U0 : 0 <= / 2 ^ 52) by lra. set (u := / 2 ^ 52) in *.
  assert (B : (1 + u) ^ N - 1 <= 3 / 10000000000).
  { assert (P : (1 + u) ^ N <= exp (INR N * u)).
    { clear - U0. induction N as [|N IH]; [simpl; rewrite Rmult_0_l, exp_0; lra|]. rewrite S_INR. replace ((INR N + 1) * u) with (u + INR N * u) by ring. rewrite exp_plus. cbn [pow].
      apply Rmult_le_compat; [lra|apply pow_le; lra|apply exp_ineq1_le|exact IH]. }
    assert (X : INR N * u <= 1 / 4000000000).
    { assert (INR N <= 1000000) by (rewrite INR_IZR_INZ; apply IZR_le; exact HN). pose proof (pos_INR N).
      apply Rle_trans with (1000000 * (1 / 4000000000000000)); [apply Rmult_le_compat; lra|lra]. }
    set (x := INR N * u) in *. assert (Px : 0 <= x) by (unfold x; apply Rmult_le_pos; [apply pos_INR|exact U0]). clearbody x.
    assert (Q : exp x * (1 - x) <= 1).
    { assert (E0 : exp x * exp (- x) = 1) by (rewrite <- exp_plus, Rplus_opp_r; apply exp_0). rewrite <- E0 at 2. apply Rmult_le_compat_l; [left; apply exp_pos|].
      pose proof (exp_ineq1_le (- x)). lra. }
    assert (exp x <= 1 + 3 / 10000000000).
    { pose proof (exp_pos x). apply Rmult_le_reg_r with (1 - x); [lra|]. eapply Rle_trans; [exact Q|]. nra. }
    lra. }
  intros vs q HL F E. destruct (C130_mean_with_rounding u rnd tree N Hr ltac:(lra) Ht vs q HL F E) as (q' & E' & D). exists q'. split; [exact E'|].
  eapply Rle_trans; [exact D|]. apply Rmult_le_compat_r; [|exact B].
  destruct (numbers_of_values vs F) as (_ & P). unfold mean in E. destruct (numbers vs) as [|q0 qs0] eqn:En; [discriminate|]. set (qs := q0 :: qs0) in *. apply Some_inj in E. rewrite <- E.
  unfold Qdiv. rewrite Q2R_mult, Q2R_inv, Q2R_inject, <- INR_IZR_INZ, real_sum_qsum.
  - apply Rmult_le_pos; [apply real_sum_nonneg; exact P|left; apply Rinv_0_lt_compat; apply lt_0_INR; unfold qs; simpl; lia].
  - intros Z. change 0%Q with (inject_Z 0) in Z. rewrite inject_Z_injective in Z. unfold qs in Z. simpl List.length in Z. lia.
Qed.
Print Assumptions C130_double_precision.

(** *** Examples *)

(** A rounding which is always too large. *)
Definition upward (q : Q) : Q := (q * (10000001 # 10000000))%Q.

Lemma upward_accurate : accurate_rounding (1 / 10000000) upward.
Proof.
  intros q Hq. unfold upward. rewrite Q2R_mult. replace (Q2R (10000001 # 10000000)) with (10000001 / 10000000) by (unfold Q2R; cbn [Qnum Qden]; reflexivity).
  replace (Q2R q * (10000001 / 10000000) - Q2R q) with (1 / 10000000 * Q2R q) by field. rewrite Rabs_pos_eq; [lra|]. lra.
Qed.

(** The mean of a machine with this rounding. *)
Definition rough_mean : list cell -> cell := rounded_mean upward left_tree.

Lemma rough_mean_accurate : accurate_mean 2 (1 / 1000000) rough_mean.
Proof.
  intros vs q HL F E. destruct (C130_mean_with_rounding _ upward left_tree 2 upward_accurate ltac:(lra) C130_from_left_to_right vs q HL F E) as (q' & E' & D).
  exists q'. split; [exact E'|]. eapply Rle_trans; [exact D|]. apply Rmult_le_compat_r; [|cbn [pow]; lra].
  destruct (numbers_of_values vs F) as (_ & P). unfold mean in E. destruct (numbers vs) as [|q0 qs0] eqn:En; [discriminate|]. set (qs := q0 :: qs0) in *. apply Some_inj in E. rewrite <- E.
  unfold Qdiv. rewrite Q2R_mult, Q2R_inv, Q2R_inject, <- INR_IZR_INZ, real_sum_qsum.
  - apply Rmult_le_pos; [apply real_sum_nonneg; exact P|left; apply Rinv_0_lt_compat; apply lt_0_INR; unfold qs; simpl; lia].
  - intros Z. change 0%Q with (inject_Z 0) in Z. rewrite inject_Z_injective in Z. unfold qs in Z. simpl List.length in Z. lia.
Qed.

Example C130_example : rough_mean [Some 3; None; Some 5]%Q <> mean [Some 3; None; Some 5]%Q /\
  exists q, rough_mean [Some 3; None; Some 5]%Q = Some q /\ (4 < q < 4 + (1 # 1000000))%Q.
Proof. split; [vm_compute; discriminate|]. eexists. split; [reflexivity|]. split; vm_compute; reflexivity. Qed.

(** Two orders, two results. *)
Example C130_order_matters : 
  rounded_mean upward left_tree [Some 1; Some 2; Some 3; Some 4]%Q <> rounded_mean upward (halves 2) [Some 1; Some 2; Some 3; Some 4]%Q.
Proof. vm_compute. discriminate. Qed.
