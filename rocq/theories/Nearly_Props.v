(** C101: which LED rows are followed from edge to edge by step 2; rows that are only
    roughly straight. *)
From Coq Require Import List ZArith Lia Bool Permutation Reals Lra.
From Verif Require Import Base Step2_Model Step2_Spec Step2_Proofs Step2_Match Step2_Props Step2_GeoSpec Step2_Geometry Step2_GeoProps.
Import ListNotations.
Local Open Scope Z_scope.

(** ** Specification *)

(** What the way from [p] over [q] to [z] is longer than the direct one. *)
Definition detour (p q z : loc) : R := (edist p q + edist q z - edist p z)%R.

(** The quantity that the next LED minimises. *)
Definition weight (cur edge p : loc) : R := (987 / 1000 * edist edge p + edist cur p)%R.

(** [q] wins against all other LEDs of [free], and fewer than five of them are at least
    as close. *)
Definition wins (free : row -> Prop) (cur edge : loc) (q : row) : Prop :=
  (forall r, free r -> fst r <> fst q -> (weight cur edge (snd q) < weight cur edge (snd r))%R) /\
  (forall N, NoDup (ids N) -> (forall r, In r N -> free r /\ fst r <> fst q /\ (edist cur (snd r) <= edist cur (snd q))%R) -> (length N <= 4)%nat).

(** LEDs of [rows] that are neither in [used] nor among the first [i + 1] of [A]. *)
Definition still_free (rows : list row) (used : list Z) (A : list row) (i : nat) (r : row) : Prop :=
  In r rows /\ ~ In (fst r) (used ++ ids (firstn (S i) A)).

(** Every LED of [A] but the first wins when its predecessor is the current LED. *)
Definition followed (rows : list row) (used : list Z) (A : list row) (endp : loc) : Prop :=
  forall i p q, nth_error A i = Some p -> nth_error A (S i) = Some q ->
    wins (still_free rows used A i) (snd p) endp q.

(** [A] is roughly straight: the detour of every LED is less than 13/987 of the
    difference between the distances to any other free LED and to the next one. *)
Definition nearly_straight (rows : list row) (used : list Z) (A : list row) (endp : loc) : Prop :=
  forall i p q, nth_error A i = Some p -> nth_error A (S i) = Some q ->
    forall r, still_free rows used A i r -> fst r <> fst q ->
    (987 * detour (snd p) (snd q) endp < 13 * (edist (snd p) (snd r) - edist (snd p) (snd q)))%R.

(** ** Lemmas *)

Lemma row_dec : forall x y : row, {x = y} + {x <> y}.
Proof. decide equality; [decide equality; apply Z.eq_dec|apply Z.eq_dec]. Qed.

Lemma ids_inj : forall l (x y : row), NoDup (ids l) -> In x l -> In y l -> fst x = fst y -> x = y.
Proof.
  intros l [k v] [k' v'] Nd Hx Hy E. cbn [fst] in E. subst k'.
  pose proof (dict_get_nodup _ _ _ Nd Hx) as E1. pose proof (dict_get_nodup _ _ _ Nd Hy) as E2. congruence.
Qed.

Lemma greedy_wins : forall avail cur edge k q, NoDup (ids avail) -> In q avail ->
  wins (fun r => In r avail) cur edge q -> greedy_choice avail cur edge k -> k = fst q.
Proof.
  intros avail cur edge k q Hnd Hin (W1 & W2) (p & N & H1 & H2 & H3 & H4 & H5 & H6).
  destruct (Z.eq_dec k (fst q)) as [|Hne]; [assumption|exfalso].
  destruct (in_dec row_dec q N) as [Hi|Hi].
  - pose proof (H6 q Hi) as Hle. pose proof (W1 (k, p) (H2 _ H1) Hne) as Hlt. unfold weight in Hlt. cbn [snd] in Hlt. lra.
  - assert (F : forall r, In r N -> In r avail /\ fst r <> fst q /\ (edist cur (snd r) <= edist cur (snd q))%R).
    { intros r Hr. split; [apply H2, Hr|]. split; [|apply (H5 r q Hr Hin Hi)].
      intros E. apply Hi. rewrite <- (ids_inj avail r q Hnd (H2 _ Hr) Hin E). exact Hr. }
    pose proof (W2 N H3 F) as L.
    assert (NN : NoDup N) by (apply (NoDup_map_inv fst), H3).
    assert (LL : (length avail <= length N)%nat) by lia.
    pose proof (NoDup_length_incl NN LL H2) as I. apply Hi, I, Hin.
Qed.

(** The walk follows the array. *)
Lemma walk_followed : forall A rows used d fuel led ll z,
  NoDup (keys d) -> (length d <= fuel)%nat ->
  (forall e, In e d <-> In e rows /\ ~ In (fst e) used) ->
  (2 <= length ((led, ll) :: A))%nat ->
  incl ((led, ll) :: A) rows -> NoDup (used ++ ids ((led, ll) :: A)) ->
  last ((led, ll) :: A) (led, ll) = z ->
  followed rows used ((led, ll) :: A) (snd z) ->
  exists d', walk real_geometry 5 fuel d led ll (fst z) (snd z) [] (fst z)
             = Ok (ids ((led, ll) :: A), d').
Proof.
  induction A as [|[nid nl] A IH]; intros rows used d fuel led ll z Hnd Hfuel Hd Hlen Hincl Hnodup Hlast Hstr.
  { simpl in Hlen. lia. }
  assert (Hled : In (led, ll) d).
  { apply Hd. split; [apply Hincl; left; reflexivity|]. simpl. intros Hu.
    apply NoDup_app_inv in Hnodup. destruct Hnodup as (_ & _ & Hdis). apply (Hdis led Hu). left. reflexivity. }
  destruct fuel as [|fuel]; [destruct d; [destruct Hled|simpl in Hfuel; lia]|].
  assert (Hne : d <> []) by (intros ->; destruct Hled).
  rewrite (walk_pair_unfold _ _ _ _ _ _ _ _ Hne).
  rewrite (dict_get_nodup _ _ _ Hnd Hled). cbv zeta.
  set (d1 := dict_del d led).
  assert (Hnd1 : NoDup (keys d1)) by (apply dict_del_nodup; exact Hnd).
  assert (Hlk : In led (keys d)) by (change led with (fst (led, ll)); apply in_map; exact Hled).
  pose proof (dict_del_length d led Hlk) as Hdl. fold d1 in Hdl.
  assert (Hd1 : forall e, In e d1 <-> In e rows /\ ~ In (fst e) (used ++ [led])).
  { intros e. unfold d1. rewrite dict_del_In_iff by exact Hnd. rewrite Hd, in_app_iff. simpl.
    split; [intros [[A1 A2] A3]; split; [exact A1|]; intros [Hc|[Hc|[]]]; [contradiction|congruence]|].
    intros [A1 A2]. repeat split; auto. }
  apply NoDup_app_inv in Hnodup. destruct Hnodup as (N1 & N2 & N3).
  assert (Hn1 : In (nid, nl) d1).
  { apply Hd1. split; [apply Hincl; right; left; reflexivity|]. simpl. rewrite in_app_iff.
    intros [Hu|[Hu|[]]].
    - apply (N3 nid Hu). right. left. reflexivity.
    - subst. simpl in N2. inversion N2; subst. apply H1. left. reflexivity. }
  pose proof (Hstr 0%nat (led, ll) (nid, nl) eq_refl eq_refl) as Hw. cbn [snd] in Hw.
  assert (Hw1 : wins (fun r => In r d1) ll (snd z) (nid, nl)).
  { destruct Hw as (W1 & W2). split.
    - intros r Hr Hn. apply W1; [|exact Hn]. apply Hd1 in Hr. exact Hr.
    - intros N NN HN. apply W2; [exact NN|]. intros r Hr. destruct (HN r Hr) as (B1 & B2 & B3). split; [|split; assumption]. apply Hd1 in B1. exact B1. }
  assert (Hd1ne : d1 <> []) by (intros E; rewrite E in Hn1; destruct Hn1).
  destruct (find_next_ok real_geometry d1 5 (snd z) ll ltac:(lia) Hnd1 Hd1ne) as (k & Ek & Hkin).
  assert (k = nid).
  { apply (greedy_wins d1 ll (snd z) k (nid, nl) Hnd1 Hn1 Hw1). apply find_next_greedy; assumption. }
  subst k. rewrite Ek, (dict_get_nodup _ _ _ Hnd1 Hn1).
  destruct A as [|e2 A].
  - simpl in Hlast. subst z. simpl. rewrite Z.eqb_refl. eauto.
  - assert (Hlast' : last ((nid, nl) :: e2 :: A) (nid, nl) = z).
    { rewrite <- Hlast. change (last ((led, ll) :: (nid, nl) :: e2 :: A) (led, ll)) with (last ((nid, nl) :: e2 :: A) (led, ll)).
      apply last_default. discriminate. }
    assert (Hzin : In (fst z) (ids (e2 :: A))).
    { unfold ids. apply in_map. rewrite <- Hlast'.
      change (last ((nid, nl) :: e2 :: A) (nid, nl)) with (last (e2 :: A) (nid, nl)).
      apply last_In. discriminate. }
    destruct (nid =? fst z) eqn:E.
    { apply Z.eqb_eq in E. exfalso. simpl in N2. inversion N2 as [|? ? _ N2']; subst.
      inversion N2' as [|? ? N4 _]; subst. apply N4. rewrite E. exact Hzin. }
    assert (Hstr' : followed rows (used ++ [led]) ((nid, nl) :: e2 :: A) (snd z)).
    { intros i p q Hp Hq. pose proof (Hstr (S i) p q Hp Hq) as (S1 & S2).
      assert (Q : forall r, still_free rows (used ++ [led]) ((nid, nl) :: e2 :: A) i r -> still_free rows used ((led, ll) :: (nid, nl) :: e2 :: A) (S i) r).
      { intros r (R1 & R2). split; [exact R1|]. rewrite <- app_assoc in R2. exact R2. }
      split; [intros r Hr Hn; apply S1; [apply Q, Hr|exact Hn]|].
      intros N NN HN. apply S2; [exact NN|]. intros r Hr. destruct (HN r Hr) as (B1 & B2). split; [apply Q, B1|exact B2]. }
    destruct (IH rows (used ++ [led]) d1 fuel nid nl z Hnd1 ltac:(lia) Hd1 ltac:(simpl; lia)) as (d' & Ew).
    + intros x Hx. apply Hincl. right. exact Hx.
    + rewrite <- app_assoc. simpl. apply NoDup_app_intro; assumption.
    + exact Hlast'.
    + exact Hstr'.
    + rewrite Ew. simpl. eauto.
Qed.

Lemma match_followed : forall arrays rows used d,
  NoDup (keys d) -> (forall e, In e d <-> In e rows /\ ~ In (fst e) used) ->
  NoDup (used ++ concat (map ids arrays)) ->
  (forall A, In A arrays -> incl A rows /\ (2 <= length A)%nat) ->
  (forall k A z, nth_error arrays k = Some A -> last A z = z -> In z A ->
     followed rows (used ++ concat (map ids (firstn k arrays))) A (snd z)) ->
  exists d', match_all real_geometry 5 d (map edge_labels arrays) = Ok (map ids arrays, d').
Proof.
  induction arrays as [|A arrays IH]; intros rows used d Hnd Hd Hnodup Hin Hstr.
  - simpl. eauto.
  - destruct (Hin A (or_introl eq_refl)) as [Hincl Hlen].
    destruct A as [|[led ll] A0]; [simpl in Hlen; lia|].
    set (A := (led, ll) :: A0) in *.
    assert (Hz : exists z, last A (led, ll) = z /\ last A z = z /\ In z A).
    { exists (last A (led, ll)). split; [reflexivity|].
      split; [apply last_default; discriminate|apply last_In; discriminate]. }
    destruct Hz as (z & Hz1 & Hz2 & Hz3).
    change (concat (map ids (A :: arrays))) with (ids A ++ concat (map ids arrays)) in Hnodup.
    pose proof Hnodup as Hnodup'.
    rewrite app_assoc in Hnodup'. apply NoDup_app_inv in Hnodup'. destruct Hnodup' as (M1 & M2 & M3).
    assert (HA0 : followed rows used A (snd z)).
    { pose proof (Hstr 0%nat A z eq_refl Hz2 Hz3) as H. simpl in H. rewrite app_nil_r in H. exact H. }
    assert (HinD : forall e, In e A -> In e d).
    { intros e He. apply Hd. split; [apply Hincl, He|]. intros Hu.
      apply NoDup_app_inv in M1. destruct M1 as (_ & _ & M1). apply (M1 _ Hu). apply in_map. exact He. }
    assert (Hzd : In z d) by (apply HinD, Hz3).
    assert (Hld : In (led, ll) d) by (apply HinD; left; reflexivity).
    destruct (walk_followed A0 rows used d (length d) led ll z Hnd ltac:(lia) Hd Hlen Hincl M1 Hz1 HA0) as (d1 & Ew).
    assert (E1 : match_one real_geometry 5 d (edge_labels A) = Ok (Some (ids A), d1)).
    { unfold edge_labels. fold A. unfold A at 1. cbn [fst]. rewrite Hz1. unfold match_one.
      rewrite (dict_get_nodup _ _ _ Hnd Hld).
      rewrite (dict_get_nodup d (fst z) (snd z) Hnd) by (rewrite <- surjective_pairing; exact Hzd).
      cbn [last]. rewrite Ew. reflexivity. }
    cbn [map match_all]. rewrite E1. cbn [bind fst snd].
    assert (Em : match_all real_geometry 5 d [edge_labels A] = Ok ([ids A], d1))
      by (cbn [match_all]; rewrite E1; reflexivity).
    destruct (match_all_partition _ _ _ _ _ _ Hnd Em) as (_ & Hnd1 & _).
    destruct (IH rows (used ++ ids A) d1 Hnd1) as (d' & E').
    + intros e. rewrite (rest_dict _ _ _ _ _ _ Hnd Em), Hd. cbn [concat]. rewrite app_nil_r, in_app_iff. tauto.
    + rewrite <- app_assoc. exact Hnodup.
    + intros B HB. apply Hin. right. exact HB.
    + intros k B y HB Hy1 Hy2. pose proof (Hstr (S k) B y HB Hy1 Hy2) as H.
      rewrite <- app_assoc. exact H.
    + rewrite E'. simpl. eauto.
Qed.

Lemma detour_nonneg : forall p q z, (0 <= detour p q z)%R.
Proof. intros p q z. unfold detour. pose proof (edist_triangle p q z). lra. Qed.

Lemma nearly_followed : forall rows used A endp, nearly_straight rows used A endp -> followed rows used A endp.
Proof.
  intros rows used A endp H i p q Hp Hq. pose proof (detour_nonneg (snd p) (snd q) endp) as D. split.
  - intros r Hr Hn. pose proof (H i p q Hp Hq r Hr Hn) as L. unfold weight, detour in *.
    pose proof (edist_triangle (snd p) (snd r) endp) as T. rewrite (edist_sym endp (snd q)), (edist_sym endp (snd r)). lra.
  - intros N _ HN. destruct N as [|r N]; [cbn; lia|exfalso]. destruct (HN r (or_introl eq_refl)) as (R1 & R2 & R3).
    pose proof (H i p q Hp Hq r R1 R2) as L. lra.
Qed.

(** ** Theorems *)

(** Arrays whose LEDs win one after the other are found exactly. *)
Theorem C101_followed_arrays_are_found : forall rows (arrays : list (list row)),
  NoDup (ids rows) -> NoDup (concat (map ids arrays)) ->
  (forall A, In A arrays -> incl A rows /\ (2 <= length A)%nat) ->
  (forall k A z, nth_error arrays k = Some A -> last A z = z -> In z A ->
     followed rows (concat (map ids (firstn k arrays))) A (snd z)) ->
  match_leds_to_led_arrays real_geometry 5 rows (map edge_labels arrays) [] None = Ok (map ids arrays).
Proof.
  intros rows arrays Hnd Hnd2 Hin Hstr. rewrite match_leds_no_ignore. unfold start_dict. simpl.
  rewrite (dict_of_rows_id rows Hnd).
  destruct (match_followed arrays rows [] rows Hnd) as (d' & E).
  - intros e. simpl. tauto.
  - exact Hnd2.
  - exact Hin.
  - intros k A z H1 H2 H3. exact (Hstr k A z H1 H2 H3).
  - rewrite E. reflexivity.
Qed.
Print Assumptions C101_followed_arrays_are_found.

(** Roughly straight arrays are found exactly. *)
Theorem C101_nearly_straight_arrays_are_found : forall rows (arrays : list (list row)),
  NoDup (ids rows) -> NoDup (concat (map ids arrays)) ->
  (forall A, In A arrays -> incl A rows /\ (2 <= length A)%nat) ->
  (forall k A z, nth_error arrays k = Some A -> last A z = z -> In z A ->
     nearly_straight rows (concat (map ids (firstn k arrays))) A (snd z)) ->
  match_leds_to_led_arrays real_geometry 5 rows (map edge_labels arrays) [] None = Ok (map ids arrays).
Proof.
  intros rows arrays Hnd Hnd2 Hin Hstr. apply C101_followed_arrays_are_found; try assumption.
  intros k A z H1 H2 H3. apply nearly_followed, (Hstr k A z H1 H2 H3).
Qed.
Print Assumptions C101_nearly_straight_arrays_are_found.

(** The tolerance is sharp: an LED with a greater detour is passed over, if a LED on
    the straight line to the edge is among the five closest. *)
Theorem C101_greater_detour_is_passed_over : forall avail cur edge q r k,
  greedy_choice avail cur edge k -> NoDup (ids avail) -> In q avail -> In r avail ->
  (forall N, incl N avail -> NoDup (ids N) -> (forall e, In e N -> (edist cur (snd e) <= edist cur (snd r))%R) -> (length N <= 5)%nat) ->
  detour cur (snd r) edge = 0%R ->
  (13 * (edist cur (snd r) - edist cur (snd q)) < 987 * detour cur (snd q) edge)%R ->
  k <> fst q.
Proof.
  intros avail cur edge q r k (p & N & H1 & H2 & H3 & H4 & H5 & H6) Hnd Hq Hr L D0 D E. subst k.
  assert (Ep : (fst q, p) = q) by (apply (ids_inj avail); [exact Hnd|apply H2, H1|exact Hq|reflexivity]).
  assert (Hi : In r N).
  { destruct (in_dec row_dec r N) as [Hi|Hi]; [exact Hi|exfalso].
    assert (F : forall e, In e N -> (edist cur (snd e) <= edist cur (snd r))%R) by (intros e He; apply (H5 e r He Hr Hi)).
    assert (NN : NoDup N) by (apply (NoDup_map_inv fst), H3).
    destruct (Nat.le_gt_cases (length avail) 5) as [S|S].
    - assert (LL : (length avail <= length N)%nat) by lia. apply Hi, (NoDup_length_incl NN LL H2), Hr.
    - assert (L6 : (length (r :: N) <= 5)%nat).
      { apply L.
        - intros e [<-|He]; [exact Hr|apply H2, He].
        - cbn [ids map]. constructor; [|exact H3]. intros X. apply in_map_iff in X. destruct X as (e & X1 & X2).
          apply Hi. rewrite <- (ids_inj avail e r Hnd (H2 _ X2) Hr X1). exact X2.
        - intros e [<-|He]; [lra|apply F, He]. }
      cbn [length] in L6. lia. }
  pose proof (H6 r Hi) as M. assert (Ep2 : p = snd q) by (rewrite <- Ep; reflexivity). subst p.
  unfold detour in *. rewrite (edist_sym edge (snd q)), (edist_sym edge (snd r)) in M. lra.
Qed.
Print Assumptions C101_greater_detour_is_passed_over.

(** ** Four LEDs ten pixels apart, the second one beside the line *)

Definition row_of_four (e : Z) : list row := [(0, (0, 0)); (1, (10, e)); (2, (20, 0)); (3, (30, 0))].

Lemma edist_lower : forall p q n m, 0 <= n -> 0 < m ->
  n * n <= m * m * ((fst p - fst q) * (fst p - fst q) + (snd p - snd q) * (snd p - snd q)) -> (IZR n / IZR m <= edist p q)%R.
Proof.
  intros p q n m Hn Hm H. assert (M : (0 < IZR m)%R) by (apply IZR_lt; exact Hm). unfold edist.
  apply Rsqr_incr_0_var; [|apply sqrt_pos]. rewrite Rsqr_sqrt by (apply IZR_le, Z.add_nonneg_nonneg; apply Z.square_nonneg).
  apply IZR_le in H. rewrite !mult_IZR in H. unfold Rsqr, Rdiv.
  apply (Rmult_le_reg_l (IZR m * IZR m)); [nra|].
  replace (IZR m * IZR m * (IZR n * / IZR m * (IZR n * / IZR m)))%R with (IZR n * IZR n)%R by (field; lra). exact H.
Qed.

Lemma edist_upper : forall p q n m, 0 <= n -> 0 < m ->
  m * m * ((fst p - fst q) * (fst p - fst q) + (snd p - snd q) * (snd p - snd q)) <= n * n -> (edist p q <= IZR n / IZR m)%R.
Proof.
  intros p q n m Hn Hm H. assert (M : (0 < IZR m)%R) by (apply IZR_lt; exact Hm). unfold edist.
  assert (N : (0 <= IZR n)%R) by (apply IZR_le; exact Hn).
  apply Rsqr_incr_0_var; [|apply Rmult_le_pos; [exact N|left; apply Rinv_0_lt_compat; exact M]]. rewrite Rsqr_sqrt by (apply IZR_le, Z.add_nonneg_nonneg; apply Z.square_nonneg).
  apply IZR_le in H. rewrite !mult_IZR in H. unfold Rsqr, Rdiv.
  apply (Rmult_le_reg_l (IZR m * IZR m)); [nra|].
  replace (IZR m * IZR m * (IZR n * / IZR m * (IZR n * / IZR m)))%R with (IZR n * IZR n)%R by (field; lra). exact H.
Qed.

Lemma few_rows : forall rows used A i q N, (length rows <= 5)%nat -> In q rows -> NoDup (ids N) ->
  (forall r, In r N -> still_free rows used A i r /\ fst r <> fst q /\ True) -> (length N <= 4)%nat.
Proof.
  intros rows used A i q N L Hq NN HN. assert (X : (length (q :: N) <= length rows)%nat); [|cbn [length] in X; lia].
  apply NoDup_incl_length.
  - constructor; [|apply (NoDup_map_inv fst), NN]. intros Hi. destruct (HN q Hi) as (_ & B & _). congruence.
  - intros r [<-|Hr]; [exact Hq|]. exact (proj1 (proj1 (HN r Hr))).
Qed.

(** An LED two pixels beside the line is passed over and belongs to no array. *)
Theorem C101_led_beside_the_line_refuted : exists rows edges arrays,
  match_leds_to_led_arrays real_geometry 5 rows edges [] None = Ok arrays /\
  ids rows = [0; 1; 2; 3] /\ edges = [[0; 3]] /\
  (forall k p, has_loc rows k p -> fst p = 10 * k /\ 0 <= snd p <= 2) /\ arrays = [[0; 2; 3]].
Proof.
  exists (row_of_four 2), [[0; 3]], [[0; 2; 3]]. split.
  - apply (C101_followed_arrays_are_found (row_of_four 2) [[(0, (0, 0)); (2, (20, 0)); (3, (30, 0))]]).
    + cbn. constructor; [cbn; lia|]. constructor; [cbn; lia|]. constructor; [cbn; lia|]. constructor; [cbn; lia|constructor].
    + cbn. constructor; [cbn; lia|]. constructor; [cbn; lia|]. constructor; [cbn; lia|constructor].
    + intros A [<-|[]]. split; [|cbn; lia]. intros x [<-|[<-|[<-|[]]]]; cbn; tauto.
    + intros k A z Hk Hz _ i p q Hp Hq. destruct k as [|k]; [|destruct k; discriminate]. cbn in Hk. injection Hk as <-. cbn in Hz. subst z.
      assert (Hin : In q (row_of_four 2)) by (destruct i as [|[|[|i]]]; cbn in Hq; try discriminate; injection Hq as <-; cbn; tauto).
      split.
      * intros r (Hr & Hf) Hn. cbn [firstn concat map app] in Hf.
        destruct i as [|[|[|i]]]; cbn in Hp, Hq; try discriminate; injection Hp as <-; injection Hq as <-;
          cbn [snd fst] in *; destruct Hr as [<-|[<-|[<-|[<-|[]]]]]; cbn [snd fst] in *; try (exfalso; cbn in Hf; tauto); try congruence; unfold weight.
        -- rewrite (edist_square (30, 0) (20, 0) 10), (edist_square (0, 0) (20, 0) 20) by (cbn; lia).
           pose proof (edist_lower (30, 0) (10, 2) 2009 100 ltac:(lia) ltac:(lia) ltac:(cbn; lia)). pose proof (edist_lower (0, 0) (10, 2) 1019 100 ltac:(lia) ltac:(lia) ltac:(cbn; lia)). lra.
        -- rewrite (edist_square (30, 0) (20, 0) 10), (edist_square (0, 0) (20, 0) 20), (edist_square (30, 0) (30, 0) 0), (edist_square (0, 0) (30, 0) 30) by (cbn; lia). lra.
        -- rewrite (edist_square (30, 0) (30, 0) 0), (edist_square (20, 0) (30, 0) 10) by (cbn; lia).
           pose proof (edist_lower (30, 0) (10, 2) 2009 100 ltac:(lia) ltac:(lia) ltac:(cbn; lia)). pose proof (edist_lower (20, 0) (10, 2) 1019 100 ltac:(lia) ltac:(lia) ltac:(cbn; lia)). lra.
      * intros N NN HN. apply (few_rows (row_of_four 2) (concat (map ids (firstn 0 [[(0, (0, 0)); (2, (20, 0)); (3, (30, 0))]]))) [(0, (0, 0)); (2, (20, 0)); (3, (30, 0))] i q N ltac:(cbn; lia) Hin NN).
        intros r Hr. destruct (HN r Hr) as (B1 & B2 & _). split; [exact B1|]. split; [exact B2|exact I].
  - split; [reflexivity|]. split; [reflexivity|]. split; [|reflexivity].
    intros k p H. unfold has_loc in H. cbn in H. destruct H as [H|[H|[H|[H|[]]]]]; injection H as <- <-; cbn; lia.
Qed.
Print Assumptions C101_led_beside_the_line_refuted.

(** One pixel beside the line is within the tolerance. *)
Example C101_example :
  (forall i p q, nth_error (row_of_four 1) i = Some p -> nth_error (row_of_four 1) (S i) = Some q -> (snd p <> snd q)) /\
  nearly_straight (row_of_four 1) [] (row_of_four 1) (30, 0) /\
  match_leds_to_led_arrays real_geometry 5 (row_of_four 1) [[0; 3]] [] None = Ok [[0; 1; 2; 3]].
Proof.
  assert (NS : nearly_straight (row_of_four 1) [] (row_of_four 1) (30, 0)).
  { intros i p q Hp Hq r (Hr & Hf) Hn. unfold detour.
    destruct i as [|[|[|[|i]]]]; cbn in Hp, Hq; try discriminate; injection Hp as <-; injection Hq as <-;
      destruct Hr as [<-|[<-|[<-|[<-|[]]]]]; cbn [snd fst] in *; try (exfalso; cbn in Hf; tauto); try congruence.
    - pose proof (edist_upper (0, 0) (10, 1) 1005 100 ltac:(lia) ltac:(lia) ltac:(cbn; lia)). pose proof (edist_upper (10, 1) (30, 0) 20025 1000 ltac:(lia) ltac:(lia) ltac:(cbn; lia)).
      rewrite (edist_square (0, 0) (20, 0) 20), (edist_square (0, 0) (30, 0) 30) by (cbn; lia). lra.
    - pose proof (edist_upper (0, 0) (10, 1) 1005 100 ltac:(lia) ltac:(lia) ltac:(cbn; lia)). pose proof (edist_upper (10, 1) (30, 0) 20025 1000 ltac:(lia) ltac:(lia) ltac:(cbn; lia)).
      rewrite (edist_square (0, 0) (30, 0) 30) by (cbn; lia). lra.
    - pose proof (edist_upper (10, 1) (20, 0) 1005 100 ltac:(lia) ltac:(lia) ltac:(cbn; lia)). pose proof (edist_lower (10, 1) (30, 0) 20024 1000 ltac:(lia) ltac:(lia) ltac:(cbn; lia)).
      rewrite (edist_square (20, 0) (30, 0) 10) by (cbn; lia). lra. }
  split; [|split; [exact NS|]].
  - intros i p q Hp Hq. destruct i as [|[|[|[|i]]]]; cbn in Hp, Hq; try discriminate; injection Hp as <-; injection Hq as <-; cbn; congruence.
  - apply (C101_nearly_straight_arrays_are_found (row_of_four 1) [row_of_four 1]).
    + cbn. constructor; [cbn; lia|]. constructor; [cbn; lia|]. constructor; [cbn; lia|]. constructor; [cbn; lia|constructor].
    + cbn. constructor; [cbn; lia|]. constructor; [cbn; lia|]. constructor; [cbn; lia|]. constructor; [cbn; lia|constructor].
    + intros A [<-|[]]. split; [apply incl_refl|cbn; lia].
    + intros k A z Hk Hz _. destruct k as [|k]; [|destruct k; discriminate]. cbn in Hk. injection Hk as <-. cbn in Hz. subst z. exact NS.
Qed.
