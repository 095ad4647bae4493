(** C123: the layers with rounded borders. *)
From Coq Require Import List Arith Lia Sorted Reals Lra Psatz.
From Verif Require Import Base Layers_Model Layers_Spec Layers_Props Rounding_Model.
Import ListNotations.
Local Open Scope R_scope.

(** ** Specification *)

(** Each operation has at most the relative error [u]. *)
Definition rounding (u : R) (rnd : R -> R) : Prop := forall x, Rabs (rnd x - x) <= u * Rabs x.

(** The larger of the two distances from zero. *)
Definition size (bot top : R) : R := Rmax (Rabs bot) (Rabs top).

(** Strictly ascending from [bot] to [top]. *)
Definition ascends (bot top : R) (bs : list R) : Prop :=
  StronglySorted Rlt bs /\ hd_error bs = Some bot /\ hd_error (rev bs) = Some top.

(** Neighbours of [bs] as pairs, each height of the domain in one of them and
    no other height in any. *)
Definition partition (bot top : R) (bs : list R) (ls : list (R * R)) : Prop :=
  S (List.length ls) = List.length bs /\
  (forall k l, nth_error ls k = Some l -> nth_error bs k = Some (fst l) /\ nth_error bs (S k) = Some (snd l) /\ fst l < snd l) /\
  (forall z, bot <= z < top -> exists k, (k < List.length ls)%nat /\
     forall k' l, nth_error ls k' = Some l -> (fst l <= z < snd l <-> k' = k)) /\
  (forall z l, ~ (bot <= z < top) -> In l ls -> ~ (fst l <= z < snd l)).

(** ** Lists of borders *)
Lemma layers_of_nth : forall bs k l, nth_error (layers_of bs) k = Some l -> nth_error bs k = Some (fst l) /\ nth_error bs (S k) = Some (snd l).
Proof.
  intros bs. unfold layers_of. destruct bs as [|b bs]; intros k l H; [destruct k; discriminate|]. cbn [tl] in H. revert b k H.
  induction bs as [|c bs IH]; intros b k H; [destruct k; discriminate|]. cbn [combine] in H. destruct k as [|k]; cbn [nth_error] in H |- *.
  - apply Some_inj in H. subst l. split; reflexivity.
  - apply (IH c k H).
Qed.

Lemma layers_of_length : forall b bs, List.length (layers_of (b :: bs)) = List.length bs.
Proof. intros b bs. unfold layers_of. cbn [tl]. rewrite combine_length. cbn [List.length]. lia. Qed.

Lemma sorted_nth : forall bs i j x y, StronglySorted Rlt bs -> (i < j)%nat -> nth_error bs i = Some x -> nth_error bs j = Some y -> x < y.
Proof.
  intros bs. induction bs as [|b bs IH]; intros i j x y S L Hi Hj; [destruct i; discriminate|]. inversion S as [|? ? S' F]; subst. destruct j as [|j]; [lia|].
  cbn [nth_error] in Hj. destruct i as [|i]; cbn [nth_error] in Hi.
  - apply Some_inj in Hi. subst b. rewrite Forall_forall in F. apply F. eapply nth_error_In. exact Hj.
  - apply (IH i j); [exact S'|lia|exact Hi|exact Hj].
Qed.

Lemma sorted_nth_le : forall bs i j x y, StronglySorted Rlt bs -> (i <= j)%nat -> nth_error bs i = Some x -> nth_error bs j = Some y -> x <= y.
Proof.
  intros bs i j x y S L Hi Hj. destruct (Nat.eq_dec i j) as [->|N]; [replace y with x by congruence; lra|].
  left. apply (sorted_nth bs i j); [exact S|lia|exact Hi|exact Hj].
Qed.

Lemma last_nth : forall A (bs : list A) t, hd_error (rev bs) = Some t -> nth_error bs (List.length bs - 1) = Some t.
Proof.
  intros A bs t H. destruct (rev bs) as [|x r] eqn:E; [discriminate|]. cbn [hd_error] in H. apply Some_inj in H. subst x.
  assert (B : bs = rev r ++ [t]) by (rewrite <- (rev_involutive bs), E; reflexivity). rewrite B, app_length. cbn [List.length].
  replace (List.length (rev r) + 1 - 1)%nat with (List.length (rev r)) by lia. rewrite nth_error_app2 by lia. rewrite Nat.sub_diag. reflexivity.
Qed.

Lemma find_layer : forall bs z x y m, nth_error bs 0 = Some x -> nth_error bs m = Some y -> x <= z < y ->
  exists k a b, (k < m)%nat /\ nth_error bs k = Some a /\ nth_error bs (S k) = Some b /\ a <= z < b.
Proof.
  intros bs z x y m Hx. revert y. induction m as [|m IH]; intros y Hy Hz; [replace y with x in Hz by congruence; lra|].
  destruct (nth_error bs m) as [w|] eqn:E; [|exfalso; apply nth_error_None in E; assert (S m < List.length bs)%nat by (apply nth_error_Some; congruence); lia].
  destruct (Rlt_le_dec z w) as [L|L].
  - destruct (IH w eq_refl ltac:(lra)) as (k & a & b & K1 & K2). exists k, a, b. split; [lia|exact K2].
  - exists m, w, y. split; [lia|]. split; [exact E|]. split; [exact Hy|lra].
Qed.

Lemma ascends_partition : forall bot top bs, ascends bot top bs -> partition bot top bs (layers_of bs).
Proof.
  intros bot top bs (Srt & H0 & H1). apply last_nth in H1. destruct bs as [|b bs]; [discriminate|]. cbn [hd_error] in H0. apply Some_inj in H0. subst b.
  set (all := bot :: bs) in *. assert (L : S (List.length (layers_of all)) = List.length all) by (unfold all; rewrite layers_of_length; reflexivity).
  assert (P : forall k l, nth_error (layers_of all) k = Some l -> nth_error all k = Some (fst l) /\ nth_error all (S k) = Some (snd l) /\ fst l < snd l).
  { intros k l Hk. destruct (layers_of_nth all k l Hk) as (P1 & P2). split; [exact P1|]. split; [exact P2|]. apply (sorted_nth all k (S k)); [exact Srt|lia|exact P1|exact P2]. }
  split; [exact L|]. split; [exact P|]. split.
  - intros z Hz. destruct (find_layer all z bot top (List.length all - 1) eq_refl H1 Hz) as (k & a & b & K1 & K2 & K3 & K4). exists k. split; [lia|].
    intros k' l Hl. destruct (P k' l Hl) as (P1 & P2 & P3). split.
    + intros Hin. destruct (lt_eq_lt_dec k' k) as [[C|C]|C]; [|exact C|]; exfalso.
      * pose proof (sorted_nth_le all (S k') k _ _ Srt C P2 K2). lra.
      * pose proof (sorted_nth_le all (S k) k' _ _ Srt C K3 P1). lra.
    + intros ->. rewrite K2 in P1. rewrite K3 in P2. apply Some_inj in P1, P2. rewrite <- P1, <- P2. exact K4.
  - intros z l Hz Hl. apply In_nth_error in Hl. destruct Hl as (k & Hk). destruct (P k l Hk) as (P1 & P2 & _). intros Hin. apply Hz.
    pose proof (sorted_nth_le all 0 k bot _ Srt ltac:(lia) eq_refl P1).
    assert (K : (S k < List.length all)%nat) by (apply nth_error_Some; congruence).
    pose proof (sorted_nth_le all (S k) (List.length all - 1) _ _ Srt ltac:(lia) P2 H1). lra.
Qed.

Lemma heights_any : forall c l bs b t, StronglySorted Rlt (b :: bs) -> hd_error (rev (b :: bs)) = Some t ->
  sum (map (traversed_height c l) (layers_of (b :: bs))) = clip (Rmin c l) (Rmax c l) t - clip (Rmin c l) (Rmax c l) b.
Proof.
  intros c l bs. induction bs as [|a bs IH]; intros b t S H.
  - cbn in H. apply Some_inj in H. subst t. unfold layers_of. cbn. lra.
  - inversion S as [|? ? S' F]; subst. change (layers_of (b :: a :: bs)) with ((b, a) :: layers_of (a :: bs)). cbn [map sum].
    rewrite traversed_height_clip by (inversion F; lra). rewrite (IH a t S'); [lra|].
    change (rev (b :: a :: bs)) with (rev (a :: bs) ++ [b]) in H. destruct (rev (a :: bs)) as [|x r] eqn:E; [|exact H].
    exfalso. apply (f_equal (@List.length R)) in E. rewrite rev_length in E. discriminate.
Qed.

Lemma outcome_any : forall bot top bs cam led, ascends bot top bs -> bot <= top -> pz cam <> pz led ->
  let ds := map (fun lay => traversed_height (pz cam) (pz led) lay * (euclid cam led / Rabs (pz led - pz cam))) (layers_of bs) in
  sum ds = euclid cam led * (overlap bot top (pz cam) (pz led) / Rabs (pz led - pz cam)) /\
  traversed_distances (layers_of bs) cam led = (if consistent ds cam led then Row ds else NoRow).
Proof.
  intros bot top bs cam led (S & H0 & H1) Hb Hz ds.
  destruct (row_with_angle (layers_of bs) cam led Hz) as (alpha & A1 & A2 & A3).
  assert (E : ds = dist_with_angle (layers_of bs) alpha cam led) by (rewrite A3, map_map; reflexivity).
  split.
  - destruct bs as [|b bs]; [discriminate|]. cbn [hd_error] in H0. apply Some_inj in H0. subst b.
    rewrite E, A3, sum_scale, (heights_any _ _ bs bot top S H1). replace (clip _ _ top - clip _ _ bot) with (overlap bot top (pz cam) (pz led)).
    + field. apply Rabs_no_R0. lra.
    + clear - Hb. minmax.
  - unfold traversed_distances. rewrite A1. destruct (Req_EM_T alpha 0) as [C|_]; [contradiction|]. rewrite <- E. reflexivity.
Qed.

(** ** C123 *)

(** Any ascending borders: the layers divide the domain, and the distances of a
    line of sight are the lengths of its parts between the borders. *)
Theorem C123_any_borders : forall bot top bs cam led, ascends bot top bs -> bot < top ->
  partition bot top bs (layers_of bs) /\
  (pz cam <> pz led ->
   (forall ds, traversed_distances (layers_of bs) cam led = Row ds -> Forall2 (fun lay d => length_between (fst lay) (snd lay) cam led d) (layers_of bs) ds) /\
   (within bot top (pz cam) -> within bot top (pz led) -> exists ds, traversed_distances (layers_of bs) cam led = Row ds /\ sum ds = euclid cam led) /\
   (traversed_distances (layers_of bs) cam led = NoRow <-> 1 / 1000000 < euclid cam led * (1 - overlap bot top (pz cam) (pz led) / Rabs (pz led - pz cam))) /\
   traversed_distances (layers_of bs) cam led <> NanRow).
Proof.
  intros bot top bs cam led Ha Hb. pose proof (ascends_partition bot top bs Ha) as P. split; [exact P|]. intros Hz.
  destruct (outcome_any bot top bs cam led Ha ltac:(lra) Hz) as (S1 & S2). set (ds := map _ _) in *.
  assert (Hd : 0 < Rabs (pz led - pz cam)) by (apply Rabs_pos_lt; lra).
  set (outside := euclid cam led * (1 - overlap bot top (pz cam) (pz led) / Rabs (pz led - pz cam))).
  assert (O : overlap bot top (pz cam) (pz led) <= Rabs (pz led - pz cam)) by (unfold Rabs; destruct (Rcase_abs _); minmax).
  assert (Po : 0 <= outside).
  { unfold outside. apply Rmult_le_pos; [apply sqrt_pos|]. assert (Q : overlap bot top (pz cam) (pz led) / Rabs (pz led - pz cam) <= 1); [|lra].
    apply (Rmult_le_reg_r (Rabs (pz led - pz cam))); [exact Hd|]. unfold Rdiv. rewrite Rmult_assoc, Rinv_l by lra. lra. }
  assert (D : Rabs (sum ds - euclid cam led) = outside).
  { replace (sum ds - euclid cam led) with (- outside) by (rewrite S1; unfold outside; ring). rewrite Rabs_Ropp. apply Rabs_right. lra. }
  assert (C : consistent ds cam led = true <-> outside <= 1 / 1000000) by (rewrite consistent_iff, D; reflexivity).
  split; [|split; [|split]].
  - intros ds' H. rewrite S2 in H. destruct (consistent ds cam led); [|discriminate]. injection H as <-. unfold ds.
    assert (F : Forall (fun lay => fst lay < snd lay) (layers_of bs)).
    { apply Forall_forall. intros lay Hl. apply In_nth_error in Hl. destruct Hl as (k & Hk). apply (proj1 (proj2 P) k lay Hk). }
    clear - F Hz. induction F as [|[b u] ls H F IH]; [constructor|]. cbn [map fst snd] in *. constructor; [|exact IH]. apply height_is_length; assumption.
  - intros W1 W2. exists ds.
    assert (S : sum ds = euclid cam led).
    { rewrite S1. replace (overlap bot top (pz cam) (pz led)) with (Rabs (pz led - pz cam)); [field; lra|].
      unfold within in *. unfold Rabs. destruct (Rcase_abs _); minmax. }
    split; [|exact S]. rewrite S2. replace (consistent ds cam led) with true; [reflexivity|]. symmetry. apply C. rewrite <- D, S, Rminus_diag_eq, Rabs_R0 by reflexivity. lra.
  - rewrite S2. destruct (consistent ds cam led); split; intros H; try discriminate H; try reflexivity.
    + exfalso. pose proof (proj1 C eq_refl). lra.
    + destruct (Rlt_le_dec (1 / 1000000) outside) as [L|L]; [exact L|]. apply C in L. discriminate.
  - rewrite S2. destruct (consistent ds cam led); discriminate.
Qed.
Print Assumptions C123_any_borders.

(** *** The borders of numpy *)
Lemma abs_le_inv : forall x a, Rabs x <= a -> - a <= x <= a.
Proof. intros x a H. unfold Rabs in H. destruct (Rcase_abs x); lra. Qed.

Lemma product_error : forall u x y a, 0 <= a -> Rabs (x - y) <= u * Rabs y -> Rabs (a * x - a * y) <= u * Rabs (a * y).
Proof.
  intros u x y a Ha H. replace (a * x - a * y) with (a * (x - y)) by ring. rewrite !Rabs_mult, (Rabs_pos_eq a Ha).
  replace (u * (a * Rabs y)) with (a * (u * Rabs y)) by ring. apply Rmult_le_compat_l; assumption.
Qed.

Lemma rounded_error : forall u rnd x y e, rounding u rnd -> 0 <= u -> 0 <= y -> Rabs (x - y) <= e * y -> Rabs (rnd x - y) <= (e + u + u * e) * y.
Proof.
  intros u rnd x y e Hr Hu Hy H. pose proof (Hr x) as R.
  assert (A : Rabs x <= (1 + e) * y).
  { replace x with ((x - y) + y) by ring. eapply Rle_trans; [apply Rabs_triang|]. rewrite (Rabs_pos_eq y Hy). lra. }
  replace (rnd x - y) with ((rnd x - x) + (x - y)) by ring. eapply Rle_trans; [apply Rabs_triang|].
  assert (B : u * Rabs x <= u * ((1 + e) * y)) by (apply Rmult_le_compat_l; assumption). nra.
Qed.

Lemma step_error : forall u rnd bot top n, rounding u rnd -> 0 <= u -> (1 <= n)%nat -> bot < top ->
  Rabs (rounded_step rnd bot top n - (top - bot) / INR n) <= (u + u + u * u) * ((top - bot) / INR n).
Proof.
  intros u rnd bot top n Hr Hu Hn Hb. assert (N : 0 < INR n) by (apply lt_0_INR; lia). assert (I : 0 < / INR n) by (apply Rinv_0_lt_compat; exact N).
  unfold rounded_step. apply rounded_error; [exact Hr|exact Hu|apply Rmult_le_pos; lra|].
  pose proof (Hr (top - bot)) as R. rewrite (Rabs_pos_eq (top - bot)) in R by lra.
  replace (rnd (top - bot) / INR n - (top - bot) / INR n) with ((rnd (top - bot) - (top - bot)) * / INR n) by (unfold Rdiv; ring).
  rewrite Rabs_mult, (Rabs_pos_eq (/ INR n)) by lra. unfold Rdiv. rewrite <- Rmult_assoc. apply Rmult_le_compat_r; lra.
Qed.

Lemma size_pos : forall bot top, bot < top -> Rabs bot <= size bot top /\ Rabs top <= size bot top /\ 0 < size bot top /\ top - bot <= 2 * size bot top.
Proof.
  intros bot top H. unfold size. pose proof (Rmax_l (Rabs bot) (Rabs top)). pose proof (Rmax_r (Rabs bot) (Rabs top)).
  assert (top - bot <= Rabs top + Rabs bot) by (pose proof (Rle_abs top); pose proof (Rle_abs (- bot)); rewrite Rabs_Ropp in *; lra).
  repeat split; lra.
Qed.

Theorem C123_borders_are_close : forall u rnd bot top n i, rounding u rnd -> 0 <= u <= 1 / 16 -> (1 <= n)%nat -> bot < top -> (i <= n)%nat ->
  Rabs (rounded_border rnd bot top n i - border bot top n i) <= 10 * u * size bot top.
Proof.
  intros u rnd bot top n i Hr Hu Hn Hb Hi. destruct (size_pos bot top Hb) as (M1 & M2 & M3 & M4). set (M := size bot top) in *.
  assert (N : 0 < INR n) by (apply lt_0_INR; lia). unfold rounded_border. destruct (Nat.eqb_spec i n) as [->|Ne].
  { rewrite border_n by exact Hn. rewrite Rminus_diag_eq, Rabs_R0 by reflexivity. nra. }
  pose proof (step_error u rnd bot top n Hr (proj1 Hu) Hn Hb) as S. set (s := (top - bot) / INR n) in *. set (s' := rounded_step rnd bot top n) in *.
  assert (Ps : 0 < s) by (unfold s; apply Rmult_lt_0_compat; [lra|apply Rinv_0_lt_compat; exact N]).
  assert (Small : (u + u + u * u) < 1 / 4) by nra.
  destruct (Req_EM_T s' 0) as [Z|_].
  { exfalso. rewrite Z in S. replace (0 - s) with (- s) in S by ring. rewrite Rabs_Ropp, (Rabs_pos_eq s) in S by lra. nra. }
  set (p := INR i * s). assert (Ip : 0 <= INR i) by apply pos_INR. assert (Pp : 0 <= p) by (apply Rmult_le_pos; lra).
  assert (Hp : p <= top - bot).
  { replace (top - bot) with (INR n * s) by (unfold s; field; lra). apply Rmult_le_compat_r; [lra|]. apply le_INR. exact Hi. }
  assert (E1 : Rabs (INR i * s' - p) <= (u + u + u * u) * p).
  { unfold p. pose proof (product_error (u + u + u * u) s' s (INR i) Ip) as X. rewrite (Rabs_pos_eq s), (Rabs_pos_eq (INR i * s)) in X by (assumption || lra). apply X. exact S. }
  pose proof (rounded_error u rnd (INR i * s') p _ Hr (proj1 Hu) Pp E1) as E2. set (p' := rnd (INR i * s')) in *.
  assert (E3 : Rabs (p' - p) <= 8 * u * M).
  { eapply Rle_trans; [exact E2|]. apply (Rle_trans _ (4 * u * p)); [apply Rmult_le_compat_r; [exact Pp|]; nra|]. nra. }
  pose proof (Hr (p' + bot)) as E4.
  assert (Bd : Rabs (p + bot) <= M).
  { unfold M, size. pose proof (Rmax_l (Rabs bot) (Rabs top)). pose proof (Rmax_r (Rabs bot) (Rabs top)). apply Rabs_le.
    pose proof (Rle_abs top). pose proof (Rle_abs (- bot)) as X. rewrite Rabs_Ropp in X. lra. }
  assert (E5 : Rabs (p' + bot) <= M + 8 * u * M).
  { replace (p' + bot) with ((p' - p) + (p + bot)) by ring. eapply Rle_trans; [apply Rabs_triang|]. lra. }
  replace (border bot top n i) with (p + bot) by (unfold border, p, s; ring).
  replace (rnd (p' + bot) - (p + bot)) with ((rnd (p' + bot) - (p' + bot)) + (p' - p)) by ring. eapply Rle_trans; [apply Rabs_triang|].
  assert (E6 : u * Rabs (p' + bot) <= u * (M + 8 * u * M)) by (apply Rmult_le_compat_l; lra).
  assert (E7 : u * (M + 8 * u * M) <= 2 * u * M) by (assert (0 <= u * M) by (apply Rmult_le_pos; lra); nra). lra.
Qed.
Print Assumptions C123_borders_are_close.

Lemma sorted_map_seq : forall (f : nat -> R) a m, (forall i, (a <= i)%nat -> (S i < a + m)%nat -> f i < f (S i)) -> StronglySorted Rlt (map f (seq a m)).
Proof.
  intros f a m H. apply Sorted_StronglySorted; [intros x y z; apply Rlt_trans|]. revert a H. induction m as [|m IH]; intros a H; [constructor|].
  cbn [seq map]. constructor.
  - apply IH. intros i H1 H2. apply H; lia.
  - destruct m as [|m]; [constructor|]. cbn [seq map]. constructor. apply H; lia.
Qed.

Lemma rounded_border_0 : forall u rnd bot top n, rounding u rnd -> 0 <= u <= 1 / 16 -> (1 <= n)%nat -> bot < top -> rounded_border rnd bot top n 0 = rnd bot.
Proof.
  intros u rnd bot top n Hr Hu Hn Hb. unfold rounded_border. destruct (Nat.eqb_spec 0 n) as [C|_]; [lia|].
  assert (Z : rnd 0 = 0) by (pose proof (Hr 0) as R; rewrite Rabs_R0, Rmult_0_r, Rminus_0_r in R; destruct (Req_dec (rnd 0) 0) as [E|E]; [exact E|pose proof (Rabs_pos_lt _ E); lra]).
  destruct (Req_EM_T _ 0); cbn [INR]; unfold Rdiv; rewrite ?Rmult_0_l, ?Z, ?Rmult_0_l, ?Z, ?Rplus_0_l; reflexivity.
Qed.

(** With fewer layers than the rounding can tell apart the computed borders
    ascend from the bottom to the top. *)
Theorem C123_rounded_borders_ascend : forall u rnd bot top n, rounding u rnd -> 0 <= u <= 1 / 16 -> (1 <= n)%nat -> bot < top -> rnd bot = bot ->
  20 * u * size bot top * INR n < top - bot ->
  ascends bot top (rounded_borders rnd bot top n) /\ List.length (rounded_borders rnd bot top n) = S n.
Proof.
  intros u rnd bot top n Hr Hu Hn Hb Hbot Hl. assert (N : 0 < INR n) by (apply lt_0_INR; lia). split; [split; [|split]|].
  - unfold rounded_borders. apply sorted_map_seq. intros i _ Hi.
    pose proof (C123_borders_are_close u rnd bot top n i Hr Hu Hn Hb ltac:(lia)) as B1. pose proof (C123_borders_are_close u rnd bot top n (S i) Hr Hu Hn Hb ltac:(lia)) as B2.
    pose proof (border_S bot top n i) as Bs. set (s := (top - bot) / INR n) in *.
    assert (Q : 20 * u * size bot top < s) by (unfold s; apply (Rmult_lt_reg_r (INR n)); [exact N|]; unfold Rdiv; rewrite (Rmult_assoc (top - bot)), Rinv_l by lra; lra).
    apply abs_le_inv in B1, B2. lra.
  - unfold rounded_borders. cbn [seq map hd_error]. rewrite (rounded_border_0 u) by assumption. rewrite Hbot. reflexivity.
  - unfold rounded_borders. rewrite seq_S, map_app, rev_app_distr. cbn [map rev app hd_error plus]. unfold rounded_border. rewrite Nat.eqb_refl. reflexivity.
  - unfold rounded_borders. rewrite map_length, seq_length. reflexivity.
Qed.
Print Assumptions C123_rounded_borders_ascend.

Theorem C123_layers_divide_the_domain : forall u rnd bot top n, rounding u rnd -> 0 <= u <= 1 / 16 -> (1 <= n)%nat -> bot < top -> rnd bot = bot ->
  20 * u * size bot top * INR n < top - bot ->
  List.length (rounded_layers rnd bot top n) = n /\ partition bot top (rounded_borders rnd bot top n) (rounded_layers rnd bot top n).
Proof.
  intros u rnd bot top n Hr Hu Hn Hb Hbot Hl. destruct (C123_rounded_borders_ascend u rnd bot top n Hr Hu Hn Hb Hbot Hl) as (A & L).
  pose proof (ascends_partition bot top _ A) as P. split; [|exact P]. destruct P as (P & _). unfold rounded_layers. lia.
Qed.
Print Assumptions C123_layers_divide_the_domain.

Lemma clip_slow : forall lo hi x y, Rabs (clip lo hi x - clip lo hi y) <= Rabs (x - y).
Proof. intros lo hi x y. unfold Rabs. destruct (Rcase_abs (clip lo hi x - clip lo hi y)), (Rcase_abs (x - y)); minmax. Qed.

Lemma height_slow : forall c l b u b' u' e, b <= u -> b' <= u' -> Rabs (b - b') <= e -> Rabs (u - u') <= e ->
  Rabs (traversed_height c l (b, u) - traversed_height c l (b', u')) <= 2 * e.
Proof.
  intros c l b u b' u' e H H' Eb Eu. rewrite !traversed_height_clip by assumption.
  pose proof (clip_slow (Rmin c l) (Rmax c l) b b') as X. pose proof (clip_slow (Rmin c l) (Rmax c l) u u') as Y.
  set (cb := clip _ _ b) in *. set (cb' := clip _ _ b') in *. set (cu := clip _ _ u) in *. set (cu' := clip _ _ u') in *.
  apply Rabs_le. apply abs_le_inv in Eb, Eu. apply (Rle_trans _ _ e) in X; [|apply Rabs_le; exact Eb]. apply (Rle_trans _ _ e) in Y; [|apply Rabs_le; exact Eu].
  apply abs_le_inv in X, Y. lra.
Qed.

(** What rounding does to the distances of a line of sight which is not
    horizontal: it is dropped or kept alike, and the distance in each layer
    changes little. *)
Theorem C123_distances_are_close : forall u rnd bot top n cam led, rounding u rnd -> 0 <= u <= 1 / 16 -> (1 <= n)%nat -> bot < top -> rnd bot = bot ->
  20 * u * size bot top * INR n < top - bot -> pz cam <> pz led ->
  (traversed_distances (rounded_layers rnd bot top n) cam led = NoRow <-> traversed_distances (layers bot top n) cam led = NoRow) /\
  forall ds, traversed_distances (layers bot top n) cam led = Row ds ->
  exists ds', traversed_distances (rounded_layers rnd bot top n) cam led = Row ds' /\
    Forall2 (fun d d' => Rabs (d' - d) <= 20 * u * size bot top * (euclid cam led / Rabs (pz led - pz cam))) ds ds'.
Proof.
  intros u rnd bot top n cam led Hr Hu Hn Hb Hbot Hl Hz. destruct (C123_rounded_borders_ascend u rnd bot top n Hr Hu Hn Hb Hbot Hl) as (A & L).
  destruct (C123_any_borders bot top _ cam led A Hb) as (_ & C). specialize (C Hz). destruct C as (_ & _ & C1 & C2). fold (rounded_layers rnd bot top n) in C1, C2.
  destruct (C33_none_iff_outside_too_long bot top n cam led Hn Hb Hz) as (_ & D1 & D2).
  assert (Iff : traversed_distances (rounded_layers rnd bot top n) cam led = NoRow <-> traversed_distances (layers bot top n) cam led = NoRow) by (rewrite C1, D1; reflexivity).
  split; [exact Iff|]. intros ds Hds. destruct (outcome_any bot top _ cam led A ltac:(lra) Hz) as (_ & S2). fold (rounded_layers rnd bot top n) in S2.
  destruct (nonhorizontal_outcome bot top n cam led Hn Hb Hz) as (_ & S1). set (es := map _ (layers bot top n)) in S1. set (es' := map _ (rounded_layers rnd bot top n)) in S2.
  assert (Hd : 0 < Rabs (pz led - pz cam)) by (apply Rabs_pos_lt; lra).
  exists es'. split.
  - rewrite S2. destruct (consistent es' cam led); [reflexivity|]. exfalso. apply Iff in S2. congruence.
  - rewrite S1 in Hds. destruct (consistent es cam led); [|discriminate]. injection Hds as <-. unfold es, es'.
    assert (G : forall m a, (a + m <= n)%nat ->
      Forall2 (fun p q => Rabs (fst p - fst q) <= 10 * u * size bot top /\ Rabs (snd p - snd q) <= 10 * u * size bot top /\ fst p <= snd p /\ fst q <= snd q)
        (map (fun i => (border bot top n i, border bot top n (S i))) (seq a m)) (map (fun i => (rounded_border rnd bot top n i, rounded_border rnd bot top n (S i))) (seq a m))).
    { induction m as [|m IH]; intros a Ha; [constructor|]. cbn [seq map]. constructor; [|apply IH; lia]. cbn [fst snd].
      rewrite (Rabs_minus_sym (border bot top n a)), (Rabs_minus_sym (border bot top n (S a))). split; [apply C123_borders_are_close; (assumption || lia)|].
      split; [apply C123_borders_are_close; (assumption || lia)|]. split; [apply border_mono; (assumption || lia)|].
      destruct A as (A & _ & _). left. apply (sorted_nth _ a (S a) _ _ A); [lia| |]; unfold rounded_borders; rewrite nth_error_map; rewrite (nth_error_nth' _ 0%nat) by (rewrite seq_length; lia); rewrite seq_nth by lia; reflexivity. }
    rewrite layers_map. unfold rounded_layers, rounded_borders. rewrite neighbours. specialize (G n 0%nat ltac:(lia)).
    set (xs := map _ (seq 0 n)) in *. set (ys := map _ (seq 0 n)) in *. clearbody xs ys. clear - G Hd. induction G as [|(b, t) (b', t') xs ys (G1 & G2 & G3 & G4) G IH]; [constructor|].
    cbn [map fst snd] in *. constructor; [|exact IH].
    replace (traversed_height (pz cam) (pz led) (b', t') * (euclid cam led / Rabs (pz led - pz cam)) - traversed_height (pz cam) (pz led) (b, t) * (euclid cam led / Rabs (pz led - pz cam)))
      with ((traversed_height (pz cam) (pz led) (b', t') - traversed_height (pz cam) (pz led) (b, t)) * (euclid cam led / Rabs (pz led - pz cam))) by ring.
    assert (E : 0 <= euclid cam led / Rabs (pz led - pz cam)) by (apply Rmult_le_pos; [apply sqrt_pos|left; apply Rinv_0_lt_compat; exact Hd]).
    rewrite Rabs_mult, (Rabs_pos_eq _ E). apply Rmult_le_compat_r; [exact E|]. rewrite Rabs_minus_sym.
    eapply Rle_trans; [apply (height_slow _ _ b t b' t' (10 * u * size bot top)); assumption|]. lra.
Qed.
Print Assumptions C123_distances_are_close.

(** A horizontal line of sight: no change if the camera is not too close to a
    border between two layers. *)
Theorem C123_horizontal_lines : forall u rnd bot top n cam led, rounding u rnd -> 0 <= u <= 1 / 16 -> (1 <= n)%nat -> bot < top -> rnd bot = bot ->
  pz cam = pz led ->
  (forall i, (0 < i < n)%nat -> 10 * u * size bot top < Rabs (pz cam - border bot top n i)) ->
  traversed_distances (rounded_layers rnd bot top n) cam led = traversed_distances (layers bot top n) cam led.
Proof.
  intros u rnd bot top n cam led Hr Hu Hn Hb Hbot Hz Hfar.
  assert (B : forall i, (i <= n)%nat -> (rounded_border rnd bot top n i <= pz cam <-> border bot top n i <= pz cam)).
  { intros i Hi. destruct (Nat.eq_dec i 0) as [->|N0]; [rewrite (rounded_border_0 u), border_0, Hbot by assumption; reflexivity|].
    destruct (Nat.eq_dec i n) as [->|Nn]; [unfold rounded_border; rewrite Nat.eqb_refl, border_n by exact Hn; reflexivity|].
    pose proof (C123_borders_are_close u rnd bot top n i Hr Hu Hn Hb Hi) as C. specialize (Hfar i ltac:(lia)). apply abs_le_inv in C.
    unfold Rabs in Hfar. destruct (Rcase_abs _) in Hfar; split; intros; lra. }
  assert (E : dist_in_plane (rounded_layers rnd bot top n) cam led = dist_in_plane (layers bot top n) cam led).
  { unfold rounded_layers, rounded_borders. rewrite neighbours, layers_map. unfold dist_in_plane. rewrite !map_map. apply map_ext_in. intros i Hi. apply in_seq in Hi.
    pose proof (B i ltac:(lia)) as B1. pose proof (B (S i) ltac:(lia)) as B2. unfold in_layer. cbn [fst snd].
    destruct (Rle_dec (rounded_border rnd bot top n i) (pz cam)), (Rle_dec (border bot top n i) (pz cam)); try (exfalso; tauto); [|reflexivity].
    destruct (Rlt_dec (pz cam) (rounded_border rnd bot top n (S i))) as [L|L], (Rlt_dec (pz cam) (border bot top n (S i))) as [L'|L']; try reflexivity; exfalso.
    - apply Rnot_lt_le in L'. apply B2 in L'. lra.
    - apply Rnot_lt_le in L. apply B2 in L. lra. }
  unfold traversed_distances, angle. destruct (Req_EM_T (horizontal_dist cam led) 0) as [H0|H0].
  - destruct (Req_EM_T (pz led - pz cam) 0) as [_|N]; [reflexivity|exfalso; lra].
  - replace ((pz led - pz cam) / horizontal_dist cam led) with 0 by (rewrite Hz, Rminus_diag_eq by reflexivity; unfold Rdiv; ring). rewrite atan_0.
    destruct (Req_EM_T 0 0) as [_|N]; [rewrite E; reflexivity|lra].
Qed.
Print Assumptions C123_horizontal_lines.

(** At a border the whole distance can go to the other layer, however small the
    errors are. *)
Definition upwards (u x : R) : R := x * (1 + u).

Lemma upwards_rounding : forall u, 0 <= u -> rounding u (upwards u).
Proof. intros u Hu x. unfold upwards. replace (x * (1 + u) - x) with (u * x) by ring. rewrite Rabs_mult, (Rabs_pos_eq u Hu). lra. Qed.

Lemma upwards_border : forall u, 0 <= u -> rounded_borders (upwards u) 0 2 2 = [0; (1 + u) * (1 + u) * (1 + u) * (1 + u); 2].
Proof.
  intros u Hu. unfold rounded_borders. cbn [seq map]. unfold rounded_border. cbn [Nat.eqb].
  assert (S : rounded_step (upwards u) 0 2 2 = (1 + u) * (1 + u)) by (unfold rounded_step, upwards; cbn [INR]; field).
  rewrite S. destruct (Req_EM_T ((1 + u) * (1 + u)) 0) as [Z|_]; [nra|]. unfold upwards. cbn [INR]. f_equal; [ring|]. f_equal. ring.
Qed.

Theorem C123_camera_at_a_border_refuted : forall u, 0 < u <= 1 / 100 ->
  exists rnd bot top n cam led, rounding u rnd /\ rnd bot = bot /\ (1 <= n)%nat /\ bot < top /\ 20 * u * size bot top * INR n < top - bot /\ pz cam = pz led /\
    within bot top (pz cam) /\ euclid cam led = 1 /\
    traversed_distances (layers bot top n) cam led = Row [0; 1] /\ traversed_distances (rounded_layers rnd bot top n) cam led = Row [1; 0].
Proof.
  intros u Hu. exists (upwards u), 0, 2, 2%nat, (Point 0 0 1), (Point 1 0 1).
  assert (E : euclid (Point 0 0 1) (Point 1 0 1) = 1) by (unfold euclid; cbn [px py pz]; replace ((0 - 1) * (0 - 1) + (0 - 0) * (0 - 0) + (1 - 1) * (1 - 1)) with 1 by ring; apply sqrt_1).
  assert (H : horizontal_dist (Point 0 0 1) (Point 1 0 1) = 1) by (rewrite <- horizontal_euclid by reflexivity; exact E).
  split; [apply upwards_rounding; lra|]. split; [unfold upwards; ring|]. split; [lia|]. split; [lra|].
  split. { unfold size. rewrite Rabs_R0, (Rabs_pos_eq 2), Rmax_right by lra. cbn [INR]. lra. }
  split; [reflexivity|]. split; [unfold within; cbn [pz]; lra|]. split; [exact E|].
  assert (T : forall b ds, (b <= 1 -> ds = [0; 1]) -> (1 < b -> ds = [1; 0]) -> traversed_distances (layers_of [0; b; 2]) (Point 0 0 1) (Point 1 0 1) = Row ds).
  { intros b ds D1 D2. unfold traversed_distances. rewrite horizontal_angle by (try reflexivity; rewrite E; lra). destruct (Req_EM_T 0 0) as [_|]; [|lra].
    assert (P : dist_in_plane (layers_of [0; b; 2]) (Point 0 0 1) (Point 1 0 1) = ds).
    { unfold layers_of, dist_in_plane. cbn [tl combine map]. rewrite H. unfold in_layer. cbn [fst snd pz].
      destruct (Rle_dec 0 1) as [_|]; [|lra]. destruct (Rlt_dec 1 2) as [_|]; [|lra].
      destruct (Rlt_dec 1 b), (Rle_dec b 1); try lra; [rewrite D2 by lra|rewrite D1 by lra]; reflexivity. }
    rewrite P. replace (consistent ds _ _) with true; [reflexivity|]. symmetry. apply consistent_iff. rewrite E.
    assert (Sm : sum ds = 1) by (destruct (Rle_lt_dec b 1); [rewrite D1 by assumption|rewrite D2 by assumption]; cbn [sum]; ring). rewrite Sm, Rminus_diag_eq, Rabs_R0 by reflexivity. lra. }
  split.
  - unfold layers, borders. replace (map (border 0 2 2) (seq 0 3)) with [0; 1; 2] by (unfold border; cbn [seq map INR]; repeat f_equal; field). apply T; intros; [reflexivity|lra].
  - unfold rounded_layers. rewrite upwards_border by lra. apply T; intros B; [exfalso; nra|reflexivity].
Qed.
Print Assumptions C123_camera_at_a_border_refuted.

(** *** A concrete case: every operation is a thousandth too large. *)
Example C123_example : rounding (1 / 1000) (upwards (1 / 1000)) /\
  ascends 0 2 (rounded_borders (upwards (1 / 1000)) 0 2 2) /\ rounded_borders (upwards (1 / 1000)) 0 2 2 <> borders 0 2 2 /\
  exists ds', traversed_distances (rounded_layers (upwards (1 / 1000)) 0 2 2) (Point 0 0 0) (Point 0 0 2) = Row ds'.
Proof.
  assert (R : rounding (1 / 1000) (upwards (1 / 1000))) by (apply upwards_rounding; lra). split; [exact R|].
  assert (Z : upwards (1 / 1000) 0 = 0) by (unfold upwards; ring).
  assert (S : 20 * (1 / 1000) * size 0 2 * INR 2 < 2 - 0) by (unfold size; rewrite Rabs_R0, (Rabs_pos_eq 2), Rmax_right by lra; cbn [INR]; lra).
  split; [apply (C123_rounded_borders_ascend (1 / 1000)); try assumption; try lra; lia|]. split.
  - rewrite upwards_border by lra. unfold borders, border. cbn [seq map INR]. intros C. apply (f_equal (fun l => nth 1 l 0)) in C. cbn [nth] in C. lra.
  - destruct (C33_distances_add_up 0 2 2 (Point 0 0 0) (Point 0 0 2)) as (ds & D & _); unfold within; cbn [pz]; try lia; try lra.
    destruct (C123_distances_are_close (1 / 1000) (upwards (1 / 1000)) 0 2 2 (Point 0 0 0) (Point 0 0 2) R ltac:(lra) ltac:(lia) ltac:(lra) Z S) as (_ & C); [cbn [pz]; lra|].
    destruct (C ds D) as (ds' & D' & _). exists ds'. exact D'.
Qed.

Example C123_horizontal_example :
  traversed_distances (rounded_layers (upwards (1 / 1000)) 0 2 2) (Point 0 0 (1 / 2)) (Point 1 0 (1 / 2)) = traversed_distances (layers 0 2 2) (Point 0 0 (1 / 2)) (Point 1 0 (1 / 2)).
Proof.
  apply (C123_horizontal_lines (1 / 1000)); try lra; try lia; [apply upwards_rounding; lra|unfold upwards; ring|reflexivity|].
  intros i Hi. replace i with 1%nat by lia. unfold size, border. cbn [INR pz]. rewrite Rabs_R0, (Rabs_pos_eq 2), Rmax_right by lra.
  replace (1 / 2 - (0 + 1 * ((2 - 0) / (1 + 1)))) with (- (1 / 2)) by field. rewrite Rabs_Ropp, Rabs_pos_eq by lra. lra.
Qed.
