(** C110: which positions of camera and LEDs tell the layers apart. *)
From Coq Require Import List Reals Lra Lia.
From Verif Require Import Base Layers_Model Layers_Spec Layers_Props Solver_Model Solver_Props Stable_Props Nnls_Props End_Props Separate_Proofs.
Import ListNotations.
Local Open Scope R_scope.

(** ** Specification *)

(** The height at which an LED counts: its own; an LED at the height of the
    camera counts anywhere higher in the layer of the camera. *)
Definition counts_at (bot top : R) (n : nat) (cam led : point) (h : R) : Prop :=
  let d := (top - bot) / INR n in
  (pz led <> pz cam /\ h = pz led) \/
  (pz led = pz cam /\ pz cam < h /\ exists k, (k < n)%nat /\ bot + INR k * d <= pz cam /\ h < bot + INR (S k) * d).

(** Around the borders number [i] to [j] (0 is the bottom of the domain, [n]
    the top), at most one layer away from them, lie at least as many
    different heights as there are borders. *)
Definition enough_heights (bot top : R) (n : nat) (hs : list R) : Prop :=
  let d := (top - bot) / INR n in
  forall i j, (i <= j <= n)%nat -> exists zs, NoDup zs /\ (j - i + 1 <= length zs)%nat /\
    forall z, In z zs -> In z hs /\ bot + (INR i - 1) * d < z < bot + (INR j + 1) * d.

(** ** The lines of sight as piecewise linear functions *)

Lemma ramp_scale : forall d x, 0 < d -> d * ramp (x / d) = Rmax 0 (Rmin d x).
Proof.
  intros d x Hd. assert (E : d * (x / d) = x) by (field; lra). assert (S : x / d * d = x) by (field; lra).
  destruct (Rle_dec x 0) as [A|A].
  - rewrite ramp_0 by (apply (Rmult_le_reg_r d); lra). rewrite Rmin_right by lra. rewrite Rmax_left by lra. lra.
  - destruct (Rle_dec d x) as [B|B].
    + rewrite ramp_1 by (apply (Rmult_le_reg_r d); lra). rewrite Rmin_left by lra. rewrite Rmax_right by lra. lra.
    + rewrite ramp_mid by (split; apply (Rmult_le_reg_r d); lra). rewrite Rmin_right by lra. rewrite Rmax_right by lra. lra.
Qed.

Ltac cases := unfold Rmax, Rmin; repeat match goal with |- context [Rle_dec ?a ?b] => match constr:((a, b)) with context [Rle_dec _ _] => fail 1 | _ => destruct (Rle_dec a b) end end; try lra.

Lemma overlap_up : forall b d z1 z2, 0 < d -> z1 < z2 -> overlap b (b + d) z1 z2 = Rmax 0 (Rmin d (z2 - b)) - Rmax 0 (Rmin d (z1 - b)).
Proof. intros b d z1 z2 Hd Hz. unfold overlap. rewrite (Rmax_right z1 z2), (Rmin_left z1 z2) by lra. cases. Qed.

Lemma overlap_swap : forall b u z1 z2, overlap b u z1 z2 = overlap b u z2 z1.
Proof. intros. unfold overlap. rewrite (Rmax_comm z1), (Rmin_comm z1). reflexivity. Qed.

Lemma row_sum : forall s a K t t' f, (forall k, (a <= k < a + length s)%nat -> f k = K * (ramp (t - INR k) - ramp (t' - INR k))) ->
  rdot (map f (seq a (length s))) s = K * (wsum s (INR a) t - wsum s (INR a) t').
Proof.
  induction s as [|x s IH]; intros a K t t' f H; cbn [length seq map rdot wsum]; [lra|].
  rewrite (IH (S a) K t t' f) by (intros k Hk; apply H; cbn [length]; lia). rewrite H by (cbn [length]; lia). rewrite S_INR. lra.
Qed.

Lemma sq_norm_zero : forall z, Forall (fun v => v = 0) z -> sq_norm z = 0.
Proof. intros z H. induction H as [|x z E H IH]; cbn [sq_norm]; [reflexivity|]. rewrite E, IH. lra. Qed.

Lemma euclid_pos : forall p q, pz p <> pz q -> 0 < euclid p q.
Proof.
  intros p q H. unfold euclid. apply sqrt_lt_R0. pose proof (Rle_0_sqr (px p - px q)). pose proof (Rle_0_sqr (py p - py q)).
  assert (0 < Rsqr (pz p - pz q)) by (apply Rsqr_pos_lt; lra). unfold Rsqr in *. lra.
Qed.

Section Domain.
Variables (bot top : R) (n : nat).
Hypotheses (Hn : (1 <= n)%nat) (Hb : bot < top).
Let d := (top - bot) / INR n.
Let unit z := (z - bot) / d.

Lemma d_pos : 0 < d.
Proof. unfold d. apply Rdiv_lt_0_compat; [lra|]. apply lt_0_INR. lia. Qed.

Lemma d_n : INR n * d = top - bot.
Proof. unfold d. field. apply not_0_INR. lia. Qed.

Lemma unit_back : forall z, bot + unit z * d = z.
Proof. intros z. unfold unit. pose proof d_pos. field. lra. Qed.

Lemma unit_minus : forall z k, unit z - k = (z - (bot + k * d)) / d.
Proof. intros z k. unfold unit. pose proof d_pos. field. lra. Qed.

Lemma unit_lt : forall y z, unit y < unit z <-> y < z.
Proof. intros y z. rewrite <- (unit_back y) at 2. rewrite <- (unit_back z) at 2. pose proof d_pos. split; intros H0; [apply Rplus_lt_compat_l, Rmult_lt_compat_r; assumption|apply Rplus_lt_reg_l, Rmult_lt_reg_r in H0; assumption]. Qed.

Lemma unit_range : forall z, within bot top z -> 0 <= unit z <= INR n.
Proof.
  intros z (H1 & H2). pose proof d_pos. pose proof d_n. pose proof (unit_back z). split; apply (Rmult_le_reg_r d); lra.
Qed.

Lemma ramp_height : forall z k, d * ramp (unit z - INR k) = Rmax 0 (Rmin d (z - (bot + INR k * d))).
Proof. intros z k. rewrite unit_minus. apply ramp_scale. apply d_pos. Qed.

Lemma sight_row : forall cam p h, in_view bot top cam p -> counts_at bot top n cam p h ->
  exists K, K <> 0 /\ forall s, length s = n -> rdot (paths bot top n cam p) s = K * (wsum s 0 (unit h) - wsum s 0 (unit (pz cam))).
Proof.
  intros cam p h (V1 & V2 & V3) [(Hz & ->) | (Hz & Hh & k0 & Hk & B1 & B2)]; pose proof d_pos as Hd.
  - pose proof (euclid_pos cam p (not_eq_sym Hz)) as He. exists (euclid cam p * (d / (pz p - pz cam))). split.
    { apply Rmult_integral_contrapositive. split; [lra|]. unfold Rdiv. apply Rmult_integral_contrapositive. split; [lra|]. apply Rinv_neq_0_compat. lra. }
    intros s Ls. unfold paths. replace (seq 0 n) with (seq 0 (length s)) by (rewrite Ls; reflexivity). change 0 with (INR 0). apply row_sum. intros k _. unfold path_in.
    destruct (Req_EM_T (pz cam) (pz p)) as [C|_]; [congruence|]. fold d. rewrite S_INR. replace (bot + (INR k + 1) * d) with (bot + INR k * d + d) by ring.
    rewrite Rmult_assoc. f_equal. assert (E : d / (pz p - pz cam) * (ramp (unit (pz p) - INR k) - ramp (unit (pz cam) - INR k)) =
      (d * ramp (unit (pz p) - INR k) - d * ramp (unit (pz cam) - INR k)) / (pz p - pz cam)) by (field; lra).
    rewrite E, !ramp_height. destruct (Rtotal_order (pz cam) (pz p)) as [L|[L|L]]; [|congruence|].
    + rewrite Rabs_right by lra. rewrite overlap_up by assumption. reflexivity.
    + rewrite Rabs_left by lra. rewrite overlap_swap, overlap_up by assumption. field. lra.
  - destruct (V3 (eq_sym Hz)) as (V4 & V5). exists (euclid cam p * (d / (h - pz cam))). split.
    { apply Rmult_integral_contrapositive. split; [exact V5|]. unfold Rdiv. apply Rmult_integral_contrapositive. split; [lra|]. apply Rinv_neq_0_compat. lra. }
    intros s Ls. unfold paths. replace (seq 0 n) with (seq 0 (length s)) by (rewrite Ls; reflexivity). change 0 with (INR 0). apply row_sum. intros k _. unfold path_in. fold d in B1, B2 |- *.
    destruct (Req_EM_T (pz cam) (pz p)) as [_|C]; [|congruence].
    assert (E : euclid cam p * (d / (h - pz cam)) * (ramp (unit h - INR k) - ramp (unit (pz cam) - INR k)) =
      euclid cam p * ((d * ramp (unit h - INR k) - d * ramp (unit (pz cam) - INR k)) / (h - pz cam))) by (field; lra).
    rewrite E, !ramp_height. rewrite S_INR in *.
    destruct (lt_eq_lt_dec k k0) as [[C|C]|C].
    + assert (Q : INR k + 1 <= INR k0) by (rewrite <- S_INR; apply le_INR; lia). apply (Rmult_le_compat_r d) in Q; [|lra].
      destruct (Rle_dec (bot + INR k * d) (pz cam)) as [_|]; [|lra]. destruct (Rlt_dec (pz cam) (bot + (INR k + 1) * d)) as [|_]; [lra|].
      rewrite (Rmin_left d (h - _)) by lra. rewrite (Rmin_left d (pz cam - _)) by lra. unfold Rdiv. ring.
    + subst k0. destruct (Rle_dec (bot + INR k * d) (pz cam)) as [_|]; [|lra]. destruct (Rlt_dec (pz cam) (bot + (INR k + 1) * d)) as [_|]; [|lra].
      rewrite (Rmin_right d (h - _)), (Rmin_right d (pz cam - _)) by lra. rewrite !Rmax_right by lra. field. lra.
    + assert (Q : INR k0 + 1 <= INR k) by (rewrite <- S_INR; apply le_INR; lia). apply (Rmult_le_compat_r d) in Q; [|lra].
      destruct (Rle_dec (bot + INR k * d) (pz cam)) as [|_]; [lra|].
      rewrite (Rmin_right d (h - _)), (Rmin_right d (pz cam - _)) by lra. rewrite !Rmax_left by lra. unfold Rdiv. ring.
Qed.

Lemma counts_within : forall cam p h, in_view bot top cam p -> counts_at bot top n cam p h -> within bot top h.
Proof.
  intros cam p h (V1 & V2 & V3) [(Hz & ->) | (Hz & Hh & k0 & Hk & B1 & B2)]; [exact V2|]. fold d in B2. unfold within in *. split; [lra|].
  assert (Q : INR (S k0) <= INR n) by (apply le_INR; lia). apply (Rmult_le_compat_r d) in Q; [|pose proof d_pos; lra]. pose proof d_n. lra.
Qed.

Lemma heights_units : forall hs, enough_heights bot top n hs -> enough_around n (map unit hs).
Proof.
  intros hs H i j Hij. destruct (H i j Hij) as (zs & Nd & L & Hz). fold d in Hz. exists (map unit zs). rewrite map_length. split; [|split; [lia|]].
  - clear - Nd Hn Hb. induction Nd as [|z zs N Nd IH]; cbn [map]; constructor; [|exact IH]. intros C. apply N. apply in_map_iff in C. destruct C as (y & E & Hy).
    replace z with y; [exact Hy|]. rewrite <- (unit_back y), <- (unit_back z), E. reflexivity.
  - intros u Hu. apply in_map_iff in Hu. destruct Hu as (z & <- & Hu). destruct (Hz z Hu) as (Z1 & Z2). split; [apply in_map; exact Z1|].
    pose proof d_pos as Hd. rewrite <- (unit_back z) in Z2. split; apply (Rmult_lt_reg_r d); lra.
Qed.

Lemma rows_visible : forall cam ps A, Forall (in_view bot top cam) ps -> map (traversed_distances (layers bot top n) cam) ps = map Row A ->
  A = map (paths bot top n cam) ps.
Proof.
  intros cam ps. induction ps as [|p ps IH]; intros [|r A] Hv H; try discriminate; [reflexivity|]. apply Forall_cons_iff in Hv. destruct Hv as (V & Hv).
  cbn [map] in *. rewrite (visible_row bot top n cam p Hn Hb V) in H. injection H as H1 H2. subst r. f_equal. apply IH; assumption.
Qed.

(** A profile of which nothing is seen. *)
Lemma unseen : forall cam ps H s, Forall (in_view bot top cam) ps -> Forall2 (counts_at bot top n cam) ps H -> length s = n ->
  (Forall (fun r => rdot r s = 0) (map (paths bot top n cam) ps) <-> forall x, In x (map unit (pz cam :: H)) -> wsum s 0 x = wsum s 0 (unit (pz cam))).
Proof.
  intros cam ps H s Hv HH Ls. induction HH as [|p h ps H C HH IH].
  - split; [|constructor]. intros _ x [<-|[]]. reflexivity.
  - apply Forall_cons_iff in Hv. destruct Hv as (V & Hv). specialize (IH Hv). destruct (sight_row cam p h V C) as (K & K0 & HK). specialize (HK s Ls).
    cbn [map]. rewrite Forall_cons_iff, IH, HK. cbn [map In]. split.
    + intros (E & R) x [<-|[<-|Hx]]; [reflexivity| |apply R; right; exact Hx]. apply Rmult_integral in E. destruct E; [contradiction|lra].
    + intros R. split; [|intros x [<-|Hx]; [reflexivity|apply R; right; right; exact Hx]]. rewrite (R (unit h)) by (right; left; reflexivity). lra.
Qed.

Lemma units_in_range : forall cam ps H, within bot top (pz cam) -> Forall (in_view bot top cam) ps -> Forall2 (counts_at bot top n cam) ps H ->
  forall x, In x (map unit (pz cam :: H)) -> 0 <= x <= INR n.
Proof.
  intros cam ps H Hc Hv HH x Hx. apply in_map_iff in Hx. destruct Hx as (z & <- & Hz). apply unit_range. destruct Hz as [<-|Hz]; [exact Hc|].
  induction HH as [|p h ps H C HH IH]; [destruct Hz|]. apply Forall_cons_iff in Hv. destruct Hv as (V & Hv). destruct Hz as [<-|Hz]; [eapply counts_within; eassumption|apply IH; assumption].
Qed.

Lemma heights_no_kernel : forall cam ps H, within bot top (pz cam) -> Forall (in_view bot top cam) ps -> Forall2 (counts_at bot top n cam) ps H ->
  enough_heights bot top n (pz cam :: H) -> forall z, ~ kernel_vector n (map (paths bot top n cam) ps) z.
Proof.
  intros cam ps H Hc Hv HH He z (Lz & Pz & Kz). pose proof (proj1 (unseen cam ps H z Hv HH Lz) Kz) as Wz.
  pose proof (zeros_force z n (map unit (pz cam :: H)) (unit (pz cam)) Hn Lz (units_in_range cam ps H Hc Hv HH) (or_introl eq_refl) Wz (heights_units _ He)) as F.
  apply sq_norm_zero in F. lra.
Qed.

Lemma no_kernel_heights : forall cam ps H, within bot top (pz cam) -> Forall (in_view bot top cam) ps -> Forall2 (counts_at bot top n cam) ps H ->
  (forall z, ~ kernel_vector n (map (paths bot top n cam) ps) z) -> enough_heights bot top n (pz cam :: H).
Proof.
  intros cam ps H Hc Hv HH Hk. unfold enough_heights. fold d. intros i j Hij.
  set (around := fun z => if Rlt_dec (bot + (INR i - 1) * d) z then if Rlt_dec z (bot + (INR j + 1) * d) then true else false else false).
  assert (Ha : forall z, around z = true <-> bot + (INR i - 1) * d < z < bot + (INR j + 1) * d).
  { intros z. unfold around. destruct (Rlt_dec _ z); [destruct (Rlt_dec z _)|]; split; intros Q; try lra; try discriminate; reflexivity. }
  set (zs := nodup Req_EM_T (filter around (pz cam :: H))). exists zs. split; [apply NoDup_nodup|]. split.
  2: { intros z Hz. apply nodup_In in Hz. apply filter_In in Hz. destruct Hz as (Z1 & Z2). split; [exact Z1|]. apply Ha. exact Z2. }
  destruct (le_lt_dec (j - i + 1) (length zs)) as [L|L]; [exact L|]. exfalso.
  destruct (few_zeros n (map unit (pz cam :: H)) (unit (pz cam)) i j (map unit zs) Hn (units_in_range cam ps H Hc Hv HH) (or_introl eq_refl) Hij) as (s & Ls & Ps & Ws).
  { rewrite map_length. lia. }
  { intros x Hx Hr. apply in_map_iff in Hx. destruct Hx as (z & <- & Hz). apply in_map. apply nodup_In. apply filter_In. split; [exact Hz|]. apply Ha.
    pose proof d_pos. rewrite <- (unit_back z). split; apply Rplus_lt_compat_l, Rmult_lt_compat_r; lra. }
  apply (Hk s). split; [exact Ls|]. split; [exact Ps|]. apply (proj2 (unseen cam ps H s Hv HH Ls)). exact Ws.
Qed.
End Domain.

(** ** The theorems *)

(** The lines of sight tell the layers apart exactly if the heights of the
    camera and the LEDs are spread over the layers. *)
Theorem C110_when_layers_are_told_apart : forall bot top n cam ps H A, (1 <= n)%nat -> bot < top -> within bot top (pz cam) ->
  Forall (in_view bot top cam) ps -> Forall2 (counts_at bot top n cam) ps H ->
  map (traversed_distances (layers bot top n) cam) ps = map Row A ->
  (separates n A <-> enough_heights bot top n (pz cam :: H)).
Proof.
  intros bot top n cam ps H A Hn Hb Hc Hv HH HA. apply (rows_visible bot top n Hn Hb cam ps A Hv) in HA. subst A. split.
  - intros Hs. apply (no_kernel_heights bot top n Hn Hb cam ps H Hc Hv HH). intros z. apply separates_no_kernel. exact Hs.
  - intros He. destruct (kernel_or_separates n (map (paths bot top n cam) ps)) as [(z & K)|(_ & S)]; [|exfalso|exact S].
    + apply Forall_map, Forall_forall. intros p _. apply paths_length.
    + exact (heights_no_kernel bot top n Hn Hb cam ps H Hc Hv HH He z K).
Qed.
Print Assumptions C110_when_layers_are_told_apart.

(** In other words: exactly then the light that arrives from the LEDs
    determines the smoke. *)
Theorem C110_when_the_light_determines_the_smoke : forall bot top n cam ps H, (1 <= n)%nat -> bot < top -> within bot top (pz cam) ->
  Forall (in_view bot top cam) ps -> Forall2 (counts_at bot top n cam) ps H ->
  (enough_heights bot top n (pz cam :: H) <->
   forall s1 s2, length s1 = n -> length s2 = n -> nonneg s1 -> nonneg s2 ->
     (forall p, In p ps -> transmission bot top n cam p s1 = transmission bot top n cam p s2) -> s1 = s2).
Proof.
  intros bot top n cam ps H Hn Hb Hc Hv HH. split.
  - intros He s1 s2 L1 L2 _ _ Ht. pose proof (heights_no_kernel bot top n Hn Hb cam ps H Hc Hv HH He (vsub s1 s2)) as K.
    assert (L : length s1 = length s2) by congruence.
    destruct (Req_dec (sq_norm (vsub s1 s2)) 0) as [E|E].
    + apply sq_norm_pos in E. clear - E L. revert s2 E L. induction s1 as [|x s1 IH]; intros [|y s2] E L; try discriminate; [reflexivity|].
      cbn [vsub] in E. apply Forall_cons_iff in E. destruct E as (E & E'). f_equal; [lra|]. apply IH; [exact E'|]. simpl in L. lia.
    + exfalso. apply K. split; [|split].
      * clear - L L1. revert n s2 L L1. induction s1 as [|x s1 IH]; intros n [|y s2] L L1; try discriminate; [exact L1|]. cbn [vsub length] in *. rewrite (IH (pred n)) by lia. lia.
      * pose proof (sq_norm_nonneg (vsub s1 s2)). lra.
      * apply Forall_map, Forall_forall. intros p Hp. rewrite rdot_vsub by exact L. specialize (Ht p Hp). unfold transmission in Ht. apply exp_inv in Ht. lra.
  - intros Hinj. apply (no_kernel_heights bot top n Hn Hb cam ps H Hc Hv HH). intros z (Lz & Pz & Kz).
    set (m := fold_right (fun x a => Rmax (Rabs x) a) 0 z).
    assert (Hm : forall x, In x z -> Rabs x <= m).
    { unfold m. clear. induction z as [|y z IH]; intros x Hx; [destruct Hx|]. destruct Hx as [->|Hx]; cbn [fold_right]; [apply Rmax_l|]. eapply Rle_trans; [apply IH; exact Hx|apply Rmax_r]. }
    assert (Hm0 : 0 <= m). { unfold m. clear. induction z as [|y z IH]; cbn [fold_right]; [lra|]. eapply Rle_trans; [exact IH|apply Rmax_r]. }
    clearbody m. set (s1 := map (fun _ => m) z). set (s2 := map (fun x => m + x) z).
    assert (Eq : s1 = s2).
    { apply Hinj; unfold s1, s2; rewrite ?map_length; try exact Lz.
      - apply Forall_map, Forall_forall. intros x _. exact Hm0.
      - apply Forall_map, Forall_forall. intros x Hx. specialize (Hm x Hx). pose proof (Rle_abs (- x)) as Q. rewrite Rabs_Ropp in Q. lra.
      - intros p Hp. unfold transmission. f_equal. f_equal. rewrite Forall_map, Forall_forall in Kz. specialize (Kz p Hp).
        assert (D : forall r, rdot r (map (fun x => m + x) z) = rdot r (map (fun _ => m) z) + rdot r z).
        { clear. induction z as [|x z IH]; intros [|y r]; cbn [map rdot]; try lra. rewrite IH. lra. }
        rewrite D, Kz. lra. }
    assert (Z : forall x, In x z -> x = 0).
    { clear - Eq. unfold s1, s2 in Eq. induction z as [|y z IH]; intros x Hx; [destruct Hx|]. cbn [map] in Eq. injection Eq as E1 E2. destruct Hx as [<-|Hx]; [lra|apply IH; assumption]. }
    assert (sq_norm z = 0); [|lra]. clear - Z. induction z as [|y z IH]; [reflexivity|]. cbn [sq_norm]. rewrite (Z y), IH by (try (left; reflexivity); intros x Hx; apply Z; right; exact Hx). lra.
Qed.
Print Assumptions C110_when_the_light_determines_the_smoke.

(** It suffices that an LED is strictly inside every layer, none of them at
    the height of the camera. *)
Theorem C110_one_led_in_every_layer : forall bot top n cam ps A, (1 <= n)%nat -> bot < top -> within bot top (pz cam) ->
  Forall (in_view bot top cam) ps ->
  (forall k, (k < n)%nat -> exists p, In p ps /\ pz p <> pz cam /\
     bot + INR k * ((top - bot) / INR n) < pz p < bot + INR (S k) * ((top - bot) / INR n)) ->
  map (traversed_distances (layers bot top n) cam) ps = map Row A ->
  separates n A.
Proof.
  intros bot top n cam ps A Hn Hb Hc Hv Hled HA. set (d := (top - bot) / INR n) in *.
  assert (Hd : 0 < d) by (apply d_pos; assumption). pose proof (d_n bot top n Hn) as Dn. fold d in Dn.
  assert (HH : exists H, Forall2 (counts_at bot top n cam) ps H /\ forall p, In p ps -> pz p <> pz cam -> In (pz p) H).
  { clear Hled HA. induction ps as [|p ps IH]; [exists []; split; [constructor|intros p []]|]. apply Forall_cons_iff in Hv. destruct Hv as (V & Hv). destruct (IH Hv) as (H & H1 & H2).
    assert (Q : exists h, counts_at bot top n cam p h /\ (pz p <> pz cam -> h = pz p)).
    { destruct (Req_EM_T (pz p) (pz cam)) as [E|E]; [|exists (pz p); split; [left; split; [exact E|reflexivity]|reflexivity]].
      destruct V as (V1 & V2 & V3). destruct (V3 (eq_sym E)) as (V4 & _).
      destruct (cell_of_spec n ((pz cam - bot) / d) Hn) as (C1 & C2).
      { unfold within in V1. assert (S : (pz cam - bot) / d * d = pz cam - bot) by (field; lra). split; [apply (Rmult_le_reg_r d); lra|apply (Rmult_lt_reg_r d); lra]. }
      set (k := cell_of n ((pz cam - bot) / d)) in *. assert (Sd : (pz cam - bot) / d * d = pz cam - bot) by (field; lra).
      destruct C1 as (C1 & C3). apply (Rmult_le_compat_r d) in C1; [|lra]. apply (Rmult_lt_compat_r d) in C3; [|lra].
      exists ((pz cam + (bot + INR (S k) * d)) / 2). split; [|intros C; contradiction]. right. fold d. rewrite S_INR. split; [exact E|]. split; [lra|]. exists k. split; [exact C2|]. rewrite S_INR. lra. }
    destruct Q as (h & Q1 & Q2). exists (h :: H). split; [constructor; assumption|]. intros q [<-|Hq] N; [left; apply Q2; exact N|right; apply H2; assumption]. }
  destruct HH as (H & HH & Hin). apply (C110_when_layers_are_told_apart bot top n cam ps H A Hn Hb Hc Hv HH HA).
  assert (Run : forall m a, (a + m <= n)%nat -> exists zs, NoDup zs /\ length zs = m /\
    (forall z, In z zs -> In z H /\ z <> pz cam /\ bot + INR a * d < z < bot + INR (a + m) * d)).
  { induction m as [|m IH]; intros a Ham; [exists []; repeat split; [constructor|destruct H0..]|]. destruct (IH a ltac:(lia)) as (zs & N1 & N2 & N3).
    destruct (Hled (a + m)%nat ltac:(lia)) as (p & P1 & P2 & P3). exists (pz p :: zs). rewrite <- plus_n_Sm. split; [|split; [cbn [length]; lia|]].
    - constructor; [|exact N1]. intros C. apply N3 in C. lra.
    - assert (Q1 : INR a * d <= INR (a + m) * d) by (apply Rmult_le_compat_r; [lra|apply le_INR; lia]).
      assert (Q2 : INR (a + m) * d <= INR (S (a + m)) * d) by (apply Rmult_le_compat_r; [lra|apply le_INR; lia]).
      intros z [<-|Hz]; [split; [apply Hin; assumption|split; [exact P2|lra]]|]. destruct (N3 z Hz) as (Z1 & Z2 & Z3). split; [exact Z1|split; [exact Z2|lra]]. }
  unfold enough_heights. fold d. intros i j Hij. destruct (Nat.eq_dec (j - i) n) as [E|E].
  - assert (i = 0%nat) by lia. assert (j = n) by lia. subst i j. destruct (Run n 0%nat ltac:(lia)) as (zs & N1 & N2 & N3).
    exists (pz cam :: zs). split; [constructor; [|exact N1]; intros C; apply N3 in C; destruct C as (_ & C & _); contradiction|]. split; [cbn [length]; lia|].
    change (INR 0) with 0. unfold within in Hc. intros z [<-|Hz]; [split; [left; reflexivity|lra]|]. destruct (N3 z Hz) as (Z1 & _ & Z3). change (INR 0) with 0 in Z3. cbn [Nat.add] in Z3. split; [right; exact Z1|lra].
  - set (a := Nat.min (pred i) (n - (j - i + 1))). destruct i as [|i].
    + destruct (Run (j + 1)%nat 0%nat ltac:(lia)) as (zs & N1 & N2 & N3). exists zs. split; [exact N1|]. split; [lia|].
      intros z Hz. destruct (N3 z Hz) as (Z1 & _ & Z3). split; [right; exact Z1|]. cbn [Nat.add] in Z3. rewrite plus_INR in Z3. change (INR 0) with 0 in *. change (INR 1) with 1 in Z3. lra.
    + destruct (Run (j - i)%nat i ltac:(lia)) as (zs & N1 & N2 & N3). exists zs. split; [exact N1|]. split; [lia|].
      intros z Hz. destruct (N3 z Hz) as (Z1 & _ & Z3). split; [right; exact Z1|]. replace (i + (j - i))%nat with j in Z3 by lia. rewrite S_INR. lra.
Qed.
Print Assumptions C110_one_led_in_every_layer.

(** Fewer LEDs than layers never suffice. *)
Theorem C110_fewer_leds_than_layers : forall bot top n cam ps A, (1 <= n)%nat -> bot < top ->
  Forall (in_view bot top cam) ps -> (length ps < n)%nat ->
  map (traversed_distances (layers bot top n) cam) ps = map Row A ->
  ~ separates n A.
Proof.
  intros bot top n cam ps A Hn Hb Hv Hl HA S. apply (rows_visible bot top n Hn Hb cam ps A Hv) in HA. subst A.
  destruct (kernel_of_few_rows n (map (paths bot top n cam) ps)) as (z & K).
  - apply Forall_map, Forall_forall. intros p _. apply paths_length.
  - rewrite map_length. exact Hl.
  - exact (separates_no_kernel n _ z S K).
Qed.
Print Assumptions C110_fewer_leds_than_layers.

(** ** Examples *)

Lemma rows_exist : forall bot top n cam ps, (1 <= n)%nat -> bot < top -> Forall (in_view bot top cam) ps ->
  map (traversed_distances (layers bot top n) cam) ps = map Row (map (paths bot top n cam) ps).
Proof.
  intros bot top n cam ps Hn Hb Hv. rewrite map_map. apply map_ext_in. intros p Hp. apply visible_row; [assumption..|]. rewrite Forall_forall in Hv. apply Hv. exact Hp.
Qed.

(** The camera at the floor, an LED at every border: enough. *)
Example C110_leds_at_the_borders : exists A,
  map (traversed_distances (layers 0 3 3) (Point 0 0 0)) [Point 1 0 1; Point 1 0 2; Point 1 0 3] = map Row A /\ separates 3 A.
Proof.
  assert (V : Forall (in_view 0 3 (Point 0 0 0)) [Point 1 0 1; Point 1 0 2; Point 1 0 3]).
  { constructor; [|constructor; [|constructor; [|constructor]]]; unfold in_view, within; cbn [pz]; (split; [lra|split; [lra|intros E; lra]]). }
  eexists. split; [apply rows_exist; [lia|lra|exact V]|].
  apply (C110_when_layers_are_told_apart 0 3 3 (Point 0 0 0) [Point 1 0 1; Point 1 0 2; Point 1 0 3] [1; 2; 3]); [lia|lra|unfold within; cbn [pz]; lra|exact V| |apply rows_exist; [lia|lra|exact V]|].
  - constructor; [|constructor; [|constructor; [|constructor]]]; left; cbn [pz]; split; [lra|reflexivity|lra|reflexivity|lra|reflexivity].
  - intros i j Hij. exists (map INR (seq i (j - i + 1))). split; [|split; [rewrite map_length, seq_length; lia|]].
    + assert (G : forall l, NoDup l -> NoDup (map INR l)).
      { clear. intros l N. induction N as [|x l N1 N2 IH]; cbn [map]; constructor; [|exact IH]. intros C. apply in_map_iff in C. destruct C as (y & E & Hy). apply INR_eq in E. subst. contradiction. }
      apply G. apply seq_NoDup.
    + intros z Hz. apply in_map_iff in Hz. destruct Hz as (k & <- & Hk). apply in_seq in Hk. replace ((3 - 0) / INR 3) with 1 by (simpl; field). split.
      * assert (K : (k = 0 \/ k = 1 \/ k = 2 \/ k = 3)%nat) by lia. destruct K as [-> |[-> |[-> | -> ]]]; cbn [pz INR]; [left|right; left|right; right; left|right; right; right; left]; lra.
      * assert (INR i <= INR k) by (apply le_INR; lia). assert (INR k <= INR j) by (apply le_INR; lia). lra.
Qed.

(** An LED at the height of the camera and one in each of the other layers:
    enough. *)
Example C110_led_at_the_height_of_the_camera : exists A,
  map (traversed_distances (layers 0 2 2) (Point 0 0 (1 / 2))) [Point 1 0 (1 / 2); Point 1 0 (3 / 2)] = map Row A /\ separates 2 A.
Proof.
  assert (E1 : forall x z, euclid (Point 0 0 z) (Point x 0 z) = 0 -> x = 0).
  { intros x z E. unfold euclid in E. cbn [px py pz] in E. apply sqrt_eq_0 in E; nra. }
  assert (V : Forall (in_view 0 2 (Point 0 0 (1 / 2))) [Point 1 0 (1 / 2); Point 1 0 (3 / 2)]).
  { constructor; [|constructor; [|constructor]]; unfold in_view, within; cbn [pz]; (split; [lra|split; [lra|intros E; try lra]]). split; [lra|]. intros C. apply E1 in C. lra. }
  eexists. split; [apply rows_exist; [lia|lra|exact V]|].
  apply (C110_when_layers_are_told_apart 0 2 2 (Point 0 0 (1 / 2)) [Point 1 0 (1 / 2); Point 1 0 (3 / 2)] [3 / 4; 3 / 2]); [lia|lra|unfold within; cbn [pz]; lra|exact V| |apply rows_exist; [lia|lra|exact V]|].
  - constructor; [|constructor; [|constructor]].
    + right. cbn [pz]. split; [reflexivity|]. split; [lra|]. exists 0%nat. split; [lia|]. simpl. lra.
    + left. cbn [pz]. split; [lra|reflexivity].
  - unfold enough_heights. cbn [pz]. replace ((2 - 0) / INR 2) with 1 by (simpl; field). intros i j Hij.
    assert (C : (i = 0 /\ j = 0 \/ i = 0 /\ j = 1 \/ i = 0 /\ j = 2 \/ i = 1 /\ j = 1 \/ i = 1 /\ j = 2 \/ i = 2 /\ j = 2)%nat) by lia.
    destruct C as [(-> & ->)|[(-> & ->)|[(-> & ->)|[(-> & ->)|[(-> & ->)|(-> & ->)]]]]]; cbn [INR].
    + exists [1 / 2]. split; [constructor; [intros []|constructor]|]. split; [simpl; lia|]. intros z [<-|[]]. split; [left; reflexivity|lra].
    + exists [1 / 2; 3 / 4]. split; [constructor; [intros [E|[]]; lra|constructor; [intros []|constructor]]|]. split; [simpl; lia|].
      intros z [<-|[<-|[]]]; (split; [|lra]); [left; reflexivity|right; left; reflexivity].
    + exists [1 / 2; 3 / 4; 3 / 2]. split; [constructor; [intros [E|[E|[]]]; lra|constructor; [intros [E|[]]; lra|constructor; [intros []|constructor]]]|]. split; [simpl; lia|].
      intros z [<-|[<-|[<-|[]]]]; (split; [|lra]); [left; reflexivity|right; left; reflexivity|right; right; left; reflexivity].
    + exists [1 / 2]. split; [constructor; [intros []|constructor]|]. split; [simpl; lia|]. intros z [<-|[]]. split; [left; reflexivity|lra].
    + exists [1 / 2; 3 / 2]. split; [constructor; [intros [E|[]]; lra|constructor; [intros []|constructor]]|]. split; [simpl; lia|].
      intros z [<-|[<-|[]]]; (split; [|lra]); [left; reflexivity|right; right; left; reflexivity].
    + exists [3 / 2]. split; [constructor; [intros []|constructor]|]. split; [simpl; lia|]. intros z [<-|[]]. split; [right; right; left; reflexivity|lra].
Qed.

(** As many LEDs as layers are not always enough, though all are in view and
    at different heights: nothing below the lowest of them is seen. *)
Theorem C110_as_many_leds_as_layers_refuted : exists bot top n cam ps, (1 <= n)%nat /\ bot < top /\ within bot top (pz cam) /\
  Forall (in_view bot top cam) ps /\ (n <= length ps)%nat /\ NoDup (map pz (cam :: ps)) /\
  ~ (forall s1 s2, length s1 = n -> length s2 = n -> nonneg s1 -> nonneg s2 ->
       (forall p, In p ps -> transmission bot top n cam p s1 = transmission bot top n cam p s2) -> s1 = s2).
Proof.
  exists 0, 3, 3%nat, (Point 0 0 2), [Point 1 0 (3 / 2); Point 1 0 (9 / 4); Point 1 0 (5 / 2)].
  assert (V : Forall (in_view 0 3 (Point 0 0 2)) [Point 1 0 (3 / 2); Point 1 0 (9 / 4); Point 1 0 (5 / 2)]).
  { constructor; [|constructor; [|constructor; [|constructor]]]; unfold in_view, within; cbn [pz]; (split; [lra|split; [lra|intros E; lra]]). }
  split; [lia|]. split; [lra|]. split; [unfold within; cbn [pz]; lra|]. split; [exact V|]. split; [simpl; lia|]. split.
  { cbn [map pz]. constructor; [intros [E|[E|[E|[]]]]; lra|]. constructor; [intros [E|[E|[]]]; lra|]. constructor; [intros [E|[]]; lra|]. constructor; [intros []|constructor]. }
  intros C. apply (C110_when_the_light_determines_the_smoke 0 3 3 (Point 0 0 2) _ [3 / 2; 9 / 4; 5 / 2]) in C; [|lia|lra|unfold within; cbn [pz]; lra|exact V|].
  - destruct (C 0%nat 0%nat ltac:(lia)) as (zs & _ & L & Hz). destruct zs as [|z zs]; [simpl in L; lia|]. destruct (Hz z (or_introl eq_refl)) as (I & R).
    replace ((3 - 0) / INR 3) with 1 in R by (simpl; field). cbn [INR pz] in *. destruct I as [<-|[<-|[<-|[<-|[]]]]]; lra.
  - constructor; [|constructor; [|constructor; [|constructor]]]; left; cbn [pz]; split; [lra|reflexivity|lra|reflexivity|lra|reflexivity].
Qed.
Print Assumptions C110_as_many_leds_as_layers_refuted.

Example C110_one_led_in_every_layer_example : exists A,
  map (traversed_distances (layers 0 3 3) (Point 0 0 2)) [Point 1 0 (1 / 2); Point 1 0 (3 / 2); Point 1 0 (5 / 2)] = map Row A /\ separates 3 A.
Proof.
  assert (V : Forall (in_view 0 3 (Point 0 0 2)) [Point 1 0 (1 / 2); Point 1 0 (3 / 2); Point 1 0 (5 / 2)]).
  { constructor; [|constructor; [|constructor; [|constructor]]]; unfold in_view, within; cbn [pz]; (split; [lra|split; [lra|intros E; lra]]). }
  eexists. split; [apply rows_exist; [lia|lra|exact V]|].
  apply (C110_one_led_in_every_layer 0 3 3 (Point 0 0 2) [Point 1 0 (1 / 2); Point 1 0 (3 / 2); Point 1 0 (5 / 2)]); [lia|lra|unfold within; cbn [pz]; lra|exact V| |apply rows_exist; [lia|lra|exact V]].
  intros k Hk. assert (K : (k = 0 \/ k = 1 \/ k = 2)%nat) by lia. replace ((3 - 0) / INR 3) with 1 by (simpl; field).
  destruct K as [->|[->| ->]]; cbn [INR]; [exists (Point 1 0 (1 / 2))|exists (Point 1 0 (3 / 2))|exists (Point 1 0 (5 / 2))]; cbn [pz In]; (split; [tauto|lra]).
Qed.

Example C110_fewer_leds_than_layers_example : exists A,
  map (traversed_distances (layers 0 3 3) (Point 0 0 2)) [Point 1 0 (1 / 2); Point 1 0 (5 / 2)] = map Row A /\ ~ separates 3 A.
Proof.
  assert (V : Forall (in_view 0 3 (Point 0 0 2)) [Point 1 0 (1 / 2); Point 1 0 (5 / 2)]).
  { constructor; [|constructor; [|constructor]]; unfold in_view, within; cbn [pz]; (split; [lra|split; [lra|intros E; lra]]). }
  eexists. split; [apply rows_exist; [lia|lra|exact V]|].
  apply (C110_fewer_leds_than_layers 0 3 3 (Point 0 0 2) [Point 1 0 (1 / 2); Point 1 0 (5 / 2)]); [lia|lra|exact V|simpl; lia|apply rows_exist; [lia|lra|exact V]].
Qed.
