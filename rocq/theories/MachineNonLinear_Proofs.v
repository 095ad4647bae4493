(** For C128: how far the computed cost is from the exact one. *)
From Coq Require Import ZArith QArith Qreals String List Permutation Reals Lra Lia Psatz.
From Verif Require Import Base Analysis_Model Layers_Model Solver_Model Solver_Props Stable_Props Nnls_Props End_Model End_Props Minimiser_Props
  NonLinear_Proofs NonLinear_Props Rounding_Props Machine_Model Machine_Props MachineEnd_Props MachineSolver_Props MachineNonLinear_Model.
Import ListNotations.
Local Open Scope R_scope.

(** An exponential with an absolute error of at most [u] for numbers up to 0
    (where it is at most 1). *)
Definition accurate_exp (u : R) (mexp : R -> R) : Prop := forall x, x <= 0 -> Rabs (mexp x - exp x) <= u.

(** [q] is at most [B] in size, the computed [q'] is off by at most [c * u]. *)
Definition off (u B c q q' : R) : Prop := Rabs q <= B /\ Rabs (q' - q) <= c * u.

Lemma off_exact : forall u B q, Rabs q <= B -> off u B 0 q q.
Proof. intros u B q H. split; [exact H|]. replace (q - q) with 0 by ring. rewrite Rabs_R0. lra. Qed.

Lemma off_size : forall u B c q q', off u B c q q' -> 0 <= u <= 1 -> 0 <= c -> Rabs q' <= B + c.
Proof.
  intros u B c q q' (H1 & H2) Hu Hc. replace q' with (q + (q' - q)) by ring. eapply Rle_trans; [apply Rabs_triang|]. nra.
Qed.

Lemma off_rnd : forall u m B c q q', accurate u m -> 0 <= u <= 1 -> 0 <= c -> off u B c q q' -> off u B (2 * c + B) q (rnd m q').
Proof.
  intros u m B c q q' Hm Hu Hc H. pose proof (off_size u B c q q' H Hu Hc) as S. destruct H as (H1 & H2). split; [exact H1|].
  pose proof (proj1 Hm q') as R. replace (rnd m q' - q) with ((rnd m q' - q') + (q' - q)) by ring. eapply Rle_trans; [apply Rabs_triang|].
  pose proof (Rmult_le_compat_l u _ _ ltac:(lra) S). lra.
Qed.

Lemma off_add : forall u B1 B2 c1 c2 q q' r r', off u B1 c1 q q' -> off u B2 c2 r r' -> off u (B1 + B2) (c1 + c2) (q + r) (q' + r').
Proof.
  intros u B1 B2 c1 c2 q q' r r' (H1 & H2) (H3 & H4). split; [eapply Rle_trans; [apply Rabs_triang|]; lra|].
  replace (q' + r' - (q + r)) with ((q' - q) + (r' - r)) by ring. eapply Rle_trans; [apply Rabs_triang|]. lra.
Qed.

Lemma off_opp : forall u B c q q', off u B c q q' -> off u B c (- q) (- q').
Proof. intros u B c q q' (H1 & H2). split; [rewrite Rabs_Ropp; exact H1|]. replace (- q' - - q) with (- (q' - q)) by ring. rewrite Rabs_Ropp. exact H2. Qed.

Lemma off_sub : forall u B1 B2 c1 c2 q q' r r', off u B1 c1 q q' -> off u B2 c2 r r' -> off u (B1 + B2) (c1 + c2) (q - r) (q' - r').
Proof. intros. unfold Rminus. apply off_add; [assumption|apply off_opp; assumption]. Qed.

Lemma off_scale : forall u B c q q' k, off u B c q q' -> off u (B * Rabs k) (c * Rabs k) (q * k) (q' * k).
Proof.
  intros u B c q q' k (H1 & H2). pose proof (Rabs_pos k) as P. split; [rewrite Rabs_mult; apply Rmult_le_compat_r; assumption|].
  replace (q' * k - q * k) with ((q' - q) * k) by ring. rewrite Rabs_mult. pose proof (Rmult_le_compat_r _ _ _ P H2). lra.
Qed.

Lemma off_mult : forall u B1 B2 c1 c2 q q' r r', 0 <= u <= 1 -> 0 <= c1 -> 0 <= c2 -> off u B1 c1 q q' -> off u B2 c2 r r' ->
  off u (B1 * B2) (c1 * B2 + B1 * c2 + c1 * c2) (q * r) (q' * r').
Proof.
  intros u B1 B2 c1 c2 q q' r r' Hu Hc1 Hc2 H H'. pose proof (off_size _ _ _ _ _ H' Hu Hc2) as S. destruct H as (H1 & H2), H' as (H3 & H4).
  split; [rewrite Rabs_mult; apply Rmult_le_compat; try apply Rabs_pos; assumption|].
  replace (q' * r' - q * r) with ((q' - q) * r' + q * (r' - r)) by ring. eapply Rle_trans; [apply Rabs_triang|]. rewrite !Rabs_mult.
  assert (X : Rabs (q' - q) * Rabs r' <= c1 * u * (B2 + c2)) by (apply Rmult_le_compat; try apply Rabs_pos; assumption).
  assert (Y : Rabs q * Rabs (r' - r) <= B1 * (c2 * u)) by (apply Rmult_le_compat; try apply Rabs_pos; assumption). lra.
Qed.

Lemma off_weaken : forall u B c B' c' q q', off u B c q q' -> 0 <= u -> B <= B' -> c <= c' -> off u B' c' q q'.
Proof. intros u B c B' c' q q' (H1 & H2) Hu HB Hc. split; [lra|]. pose proof (Rmult_le_compat_r _ _ _ Hu Hc). lra. Qed.

Lemma off_abs : forall u B c q q', off u B c q q' -> off u B c (Rabs q) (Rabs q').
Proof. intros u B c q q' (H1 & H2). split; [rewrite Rabs_Rabsolu; exact H1|]. eapply Rle_trans; [apply Rabs_triang_inv2|exact H2]. Qed.

(** ** Sums *)
Lemma powers : forall u k, 0 <= u <= 1 -> (1 + u) ^ k <= 1 + (2 ^ k - 1) * u /\ 1 - (2 ^ k - 1) * u <= (1 - u) ^ k /\ 1 <= 2 ^ k.
Proof.
  intros u k Hu. induction k as [|k (IH1 & IH2 & IH3)]; [cbn [pow]; lra|]. cbn [pow]. set (t := 2 ^ k) in *.
  assert (P : 0 <= (t - 1) * u) by (apply Rmult_le_pos; lra). repeat split; [nra| |lra].
  apply Rle_trans with ((1 - u) * (1 - (t - 1) * u)); [nra|apply Rmult_le_compat_l; lra].
Qed.

Lemma rsum_sum : forall l, rsum l = sum l.
Proof. induction l as [|x l IH]; cbn [rsum sum]; [reflexivity|rewrite IH; reflexivity]. Qed.

Lemma off_sums : forall u B c l l', Forall2 (off u B c) l l' -> off u (INR (List.length l) * B) (INR (List.length l) * c) (sum l) (sum l').
Proof.
  intros u B c l l' F. induction F as [|x y l l' H F IH]; [cbn [List.length INR sum]; rewrite !Rmult_0_l; apply off_exact; rewrite Rabs_R0; lra|].
  cbn [sum]. change (List.length (x :: l)) with (S (List.length l)). rewrite S_INR.
  replace ((INR (List.length l) + 1) * B) with (B + INR (List.length l) * B) by ring. replace ((INR (List.length l) + 1) * c) with (c + INR (List.length l) * c) by ring.
  apply off_add; assumption.
Qed.

Lemma sum_nonneg' : forall l, Forall (fun x => 0 <= x) l -> 0 <= sum l.
Proof. induction 1; cbn [sum]; lra. Qed.

Lemma off_m_sum : forall u m B c l l', accurate u m -> 0 <= u <= 1 -> 0 <= c -> 0 <= B -> Forall2 (off u B c) l l' -> Forall (fun x => 0 <= x) l' ->
  let k := INR (List.length l) in off u (k * B) (k * c + 2 ^ List.length l * (k * B + k * c)) (sum l) (m_sum m l').
Proof.
  intros u m B c l l' Hm Hu Hc HB F P k. pose proof (off_sums u B c l l' F) as O. fold k in O. assert (Pk : 0 <= k) by apply pos_INR.
  pose proof (off_size _ _ _ _ _ O Hu ltac:(apply Rmult_le_pos; assumption)) as S. destruct O as (O1 & O2). split; [exact O1|].
  pose proof Hm as (_ & _ & _ & _ & _ & Q). specialize (Q l' P). rewrite <- (Forall2_len _ _ _ F) in Q. destruct (powers u (List.length l) Hu) as (W1 & W2 & W3).
  pose proof (sum_nonneg' l' P) as Ps. rewrite (Rabs_pos_eq (sum l')) in S by exact Ps. set (t := 2 ^ List.length l) in *. set (y := sum l') in *.
  assert (D : Rabs (m_sum m l' - y) <= t * u * y).
  { pose proof (Rmult_le_compat_r y _ _ Ps W1). pose proof (Rmult_le_compat_r y _ _ Ps W2). assert (0 <= u * y) by (apply Rmult_le_pos; lra).
    apply Rabs_le. split; nra. }
  replace (m_sum m l' - sum l) with ((m_sum m l' - y) + (y - sum l)) by ring. eapply Rle_trans; [apply Rabs_triang|].
  assert (E : t * u * y <= t * u * (k * B + k * c)) by (apply Rmult_le_compat_l; [apply Rmult_le_pos; lra|exact S]). lra.
Qed.

(** ** The intensities *)
Lemma times_exp : forall a, 0 <= a -> a * exp (- (a / 2)) <= 2.
Proof.
  intros a Ha. pose proof (exp_ineq1_le (a / 2)) as H. pose proof (exp_pos (- (a / 2))) as P.
  assert (E : exp (a / 2) * exp (- (a / 2)) = 1) by (rewrite <- exp_plus, Rplus_opp_r; apply exp_0). nra.
Qed.

Lemma off_factor : forall u m mexp s d, accurate u m -> accurate_exp u mexp -> 0 <= u <= 1 / 2 -> 0 <= s -> 0 <= d ->
  0 <= exp (- s * d) <= 1 /\ off u 1 3 (exp (- s * d)) (mexp (rnd m (- s * d))).
Proof.
  intros u m mexp s d Hm He Hu Hs Hd. replace (- s * d) with (- (s * d)) by ring. set (a := s * d). assert (Pa : 0 <= a) by (apply Rmult_le_pos; assumption).
  pose proof (exp_pos (- a)) as P. assert (L : exp (- a) <= 1).
  { rewrite <- exp_0. destruct (Req_dec a 0) as [->|N]; [rewrite Ropp_0; lra|]. left. apply exp_increasing. lra. }
  split; [lra|]. split; [rewrite Rabs_pos_eq; lra|].
  pose proof (proj1 Hm (- a)) as R. rewrite Rabs_Ropp, (Rabs_pos_eq a) in R by exact Pa. apply abs_le_inv in R. set (a' := - rnd m (- a)).
  assert (A : a / 2 <= a') by (unfold a'; nra). assert (A0 : rnd m (- a) <= 0) by (unfold a' in A; lra). pose proof (He _ A0) as E.
  assert (D : Rabs (exp (rnd m (- a)) - exp (- a)) <= 2 * u).
  { replace (rnd m (- a)) with (- (a / 2) + - (a' - a / 2)) by (unfold a'; lra). replace (exp (- a)) with (exp (- (a / 2) + - (a - a / 2))) by (f_equal; lra).
    rewrite !exp_plus, <- Rmult_minus_distr_l, Rabs_mult, (Rabs_pos_eq (exp _)) by (left; apply exp_pos).
    pose proof (exp_slow (a' - a / 2) (a - a / 2) ltac:(lra) ltac:(lra)) as S. replace (a' - a / 2 - (a - a / 2)) with (a' - a) in S by ring.
    assert (S' : Rabs (exp (- (a' - a / 2)) - exp (- (a - a / 2))) <= u * a) by (eapply Rle_trans; [exact S|]; apply Rabs_le; unfold a'; lra).
    pose proof (Rmult_le_compat_l (exp (- (a / 2))) _ _ ltac:(left; apply exp_pos) S'). pose proof (times_exp a Pa) as T. pose proof (Rmult_le_compat_l u _ _ ltac:(lra) T). lra. }
  replace (mexp (rnd m (- a)) - exp (- a)) with ((mexp (rnd m (- a)) - exp (rnd m (- a))) + (exp (rnd m (- a)) - exp (- a))) by ring.
  eapply Rle_trans; [apply Rabs_triang|]. lra.
Qed.

Lemma off_intensity : forall k c0, 0 <= c0 -> exists c, 0 <= c /\ forall u m mexp, accurate u m -> accurate_exp u mexp -> 0 <= u <= 1 / 2 ->
  forall ps : list (R * R), List.length ps = k -> Forall (fun p => 0 <= fst p /\ 0 <= snd p) ps -> forall a a', 0 <= a <= 1 -> off u 1 c0 a a' ->
  let x := fold_left (fun acc p => acc * exp (- fst p * snd p)) ps a in
  0 <= x <= 1 /\ off u 1 c x (fold_left (fun acc p => rnd m (acc * mexp (rnd m (- fst p * snd p)))) ps a').
Proof.
  induction k as [|k IH]; intros c0 Hc0.
  - exists c0. split; [exact Hc0|]. intros u m mexp _ _ _ ps L _ a a' Ha H. destruct ps; [|discriminate]. cbn [fold_left]. split; assumption.
  - destruct (IH (2 * (c0 * 1 + 1 * 3 + c0 * 3) + 1) ltac:(lra)) as (c & Hc & Main). exists c. split; [exact Hc|].
    intros u m mexp Hm He Hu ps L P a a' Ha H. destruct ps as [|[s d] ps]; [discriminate|]. inversion P as [|? ? (P1 & P2) P3]; subst. cbn [fst snd] in P1, P2.
    cbn [fold_left fst snd]. destruct (off_factor u m mexp s d Hm He Hu P1 P2) as (F1 & F2).
    apply Main; try assumption; [cbn in L; lia|nra|].
    apply off_rnd; try assumption; try lra. pose proof (off_mult u 1 1 c0 3 a a' _ _ ltac:(lra) Hc0 ltac:(lra) H F2) as Q. replace (1 * 1) with 1 in Q by ring. exact Q.
Qed.

(** ** The root of the sum of the squares *)
Lemma sqrt_scale : forall t y, 0 <= t -> 0 <= y -> sqrt (t * t * y) = t * sqrt y.
Proof. intros t y Ht Hy. rewrite sqrt_mult_alt by nra. rewrite sqrt_square by exact Ht. reflexivity. Qed.

Lemma squares_sum : forall u m p, accurate u m -> 0 <= u <= 1 ->
  let l := map (fun x => rnd m (x * x)) p in
  Forall (fun x => 0 <= x) l /\ (1 - u) * sq_norm p <= sum l <= (1 + u) * sq_norm p.
Proof.
  intros u m p Hm Hu. cbv zeta. induction p as [|x p (IH1 & IH2)]; [cbn; split; [constructor|lra]|]. cbn [map sum sq_norm].
  pose proof (proj1 Hm (x * x)) as R. assert (0 <= x * x) by apply Rle_0_sqr. rewrite (Rabs_pos_eq (x * x)) in R by assumption. apply abs_le_inv in R.
  split; [constructor; [nra|exact IH1]|lra].
Qed.

Lemma norm_rounded : forall u m p, accurate u m -> 0 <= u <= 1 ->
  Rabs (m_sqrt m (m_sum m (map (fun x => rnd m (x * x)) p)) - sqrt (sq_norm p)) <= 2 ^ S (S (List.length p)) * u * sqrt (sq_norm p).
Proof.
  intros u m p Hm Hu. destruct (squares_sum u m p Hm Hu) as (P & S1 & S2). set (l := map (fun x => rnd m (x * x)) p) in *.
  pose proof Hm as (_ & Q & _ & _ & _ & Sm). specialize (Sm l P). replace (List.length l) with (List.length p) in Sm by (unfold l; rewrite map_length; reflexivity).
  set (k := List.length p) in *. set (y := sq_norm p) in *. assert (Py : 0 <= y) by apply sq_norm_nonneg.
  assert (U1 : 0 <= (1 - u) ^ k <= 1).
  { split; [apply pow_le; lra|]. pose proof (pow_incr (1 - u) 1 k ltac:(lra)) as V. rewrite pow1 in V. exact V. }
  assert (U2 : 1 <= (1 + u) ^ k) by (pose proof (pow_incr 1 (1 + u) k ltac:(lra)) as V; rewrite pow1 in V; exact V).
  set (s := m_sum m l) in *. set (tl := (1 - u) ^ k * (1 - u)). set (th := (1 + u) ^ k * (1 + u)).
  assert (T1 : 0 <= tl <= 1) by (unfold tl; nra). assert (T2 : 1 <= th) by (unfold th; nra).
  assert (B1 : tl * y <= s). { eapply Rle_trans; [|apply Sm]. unfold tl. rewrite Rmult_assoc. apply Rmult_le_compat_l; lra. }
  assert (B2 : s <= th * y). { eapply Rle_trans; [apply Sm|]. unfold th. rewrite Rmult_assoc. apply Rmult_le_compat_l; lra. }
  assert (Ps : 0 <= s) by nra.
  assert (C1 : tl * sqrt y <= sqrt s). { rewrite <- sqrt_scale by lra. apply sqrt_le_1_alt. eapply Rle_trans; [|exact B1]. apply Rmult_le_compat_r; [exact Py|]. nra. }
  assert (C2 : sqrt s <= th * sqrt y). { rewrite <- sqrt_scale by lra. apply sqrt_le_1_alt. eapply Rle_trans; [exact B2|]. apply Rmult_le_compat_r; [exact Py|]. nra. }
  specialize (Q s Ps). apply abs_le_inv in Q. pose proof (sqrt_pos y) as Ry. set (r := sqrt y) in *. pose proof (sqrt_pos s) as Rs.
  destruct (powers u (S (S k)) Hu) as (W1 & W2 & W3). cbn [pow] in W1, W2. 
  assert (E1 : (1 - u) * tl * r <= m_sqrt m s) by (eapply Rle_trans; [|apply Rle_trans with ((1 - u) * sqrt s); [apply Rle_refl|lra]]; rewrite Rmult_assoc; apply Rmult_le_compat_l; lra).
  assert (E2 : m_sqrt m s <= (1 + u) * th * r) by (apply Rle_trans with ((1 + u) * sqrt s); [lra|]; rewrite Rmult_assoc; apply Rmult_le_compat_l; lra).
  replace ((1 - u) * tl) with ((1 - u) * ((1 - u) * (1 - u) ^ k)) in E1 by (unfold tl; ring). replace ((1 + u) * th) with ((1 + u) * ((1 + u) * (1 + u) ^ k)) in E2 by (unfold th; ring).
  pose proof (Rmult_le_compat_r r _ _ Ry W1) as X1. pose proof (Rmult_le_compat_r r _ _ Ry W2) as X2. cbn [pow]. assert (0 <= u * r) by (apply Rmult_le_pos; lra).
  apply Rabs_le. split; nra.
Qed.

Lemma norms_close : forall u B c p p', 0 <= u <= 1 -> 0 <= c -> Forall2 (off u B c) p p' ->
  off u (INR (List.length p) * B) (INR (List.length p) * c) (sqrt (sq_norm p)) (sqrt (sq_norm p')).
Proof.
  intros u B c p p' Hu Hc F. pose proof (Forall2_len _ _ _ F) as L. set (k := List.length p) in *.
  assert (L1 : l1 p p' <= INR k * c * u).
  { unfold k. clear L. induction F as [|x y p p' (_ & H) F IH]; [cbn; lra|]. cbn [l1]. change (List.length (x :: p)) with (S (List.length p)). rewrite S_INR, (Rabs_minus_sym x y). lra. }
  assert (L2 : sqrt (sq_norm p) <= INR k * B).
  { rewrite <- (sq_dist_norm p k eq_refl). eapply Rle_trans; [apply dist_l1|]. unfold k. clear - F. induction F as [|x y p p' (H & _) F IH]; [cbn; lra|].
    cbn [List.length repeat l1]. rewrite S_INR, Rminus_0_r. lra. }
  pose proof (sqrt_pos (sq_norm p)) as P0. split; [rewrite Rabs_pos_eq; assumption|].
  pose proof (dist_l1 p p') as D.
  pose proof (dist_triangle p p' (repeat 0 k) L ltac:(rewrite repeat_length; symmetry; exact L)) as T1.
  pose proof (dist_triangle p' p (repeat 0 k) (eq_sym L) ltac:(rewrite repeat_length; reflexivity)) as T2.
  rewrite (sq_dist_sym p' p) in T2. rewrite (sq_dist_norm p k eq_refl), (sq_dist_norm p' k (eq_sym L)) in T1, T2. apply Rabs_le. lra.
Qed.

(** ** The cost *)
Lemma off_root : forall u m B c p p', accurate u m -> 0 <= u <= 1 -> 0 <= c -> 0 <= B -> Forall2 (off u B c) p p' ->
  let k := INR (List.length p) in
  off u (k * B) (k * c + 2 ^ S (S (List.length p)) * (k * B + k * c)) (sqrt (sq_norm p)) (m_sqrt m (m_sum m (map (fun x => rnd m (x * x)) p'))).
Proof.
  intros u m B c p p' Hm Hu Hc HB F k. pose proof (norms_close u B c p p' Hu Hc F) as O. fold k in O. assert (Pk : 0 <= k) by apply pos_INR.
  pose proof (off_size _ _ _ _ _ O Hu ltac:(apply Rmult_le_pos; assumption)) as Sz. rewrite Rabs_pos_eq in Sz by apply sqrt_pos.
  pose proof (norm_rounded u m p' Hm Hu) as D. rewrite <- (Forall2_len _ _ _ F) in D. destruct O as (O1 & O2). split; [exact O1|].
  set (t := 2 ^ S (S (List.length p))) in *. assert (Pt : 0 <= t) by (apply pow_le; lra).
  set (y := sqrt (sq_norm p')) in *. set (z := m_sqrt m _) in *. replace (z - sqrt (sq_norm p)) with ((z - y) + (y - sqrt (sq_norm p))) by ring.
  eapply Rle_trans; [apply Rabs_triang|]. assert (E : t * u * y <= t * u * (k * B + k * c)) by (apply Rmult_le_compat_l; [apply Rmult_le_pos; lra|exact Sz]). lra.
Qed.

Lemma combine_nonneg : forall s row : vec, nonneg s -> nonneg row -> Forall (fun p => 0 <= fst p /\ 0 <= snd p) (combine s row).
Proof. intros s row Hs. revert row. induction Hs as [|a s Ha Hs IH]; intros row Hr; [constructor|]. destruct Hr as [|b row Hb Hr]; [constructor|]. cbn [combine]. constructor; [split; assumption|apply IH; exact Hr]. Qed.

Lemma misfit_norm : forall I t, rsum (map (fun p => Rsqr (fst p - snd p)) (combine I t)) = sq_norm (map (fun p => fst p - snd p) (combine I t)).
Proof. intros I t. induction (combine I t) as [|p l IH]; [reflexivity|]. cbn [map rsum sq_norm]. rewrite IH. reflexivity. Qed.

Lemma off_misfit : forall n N, exists B c, 0 <= B /\ 0 <= c /\ forall u m mexp A s t, accurate u m -> accurate_exp u mexp -> 0 <= u <= 1 / 2 ->
  List.length A = N -> rows_ok n A -> Forall nonneg A -> List.length s = n -> nonneg s -> List.length t = N -> Forall (fun v => 0 <= v <= 2) t ->
  off u B c (misfit A s t) (m_rmse m N (combine (map (m_intensity m mexp s) A) (map (rnd m) t))).
Proof.
  intros n N. destruct (off_intensity n 0 ltac:(lra)) as (ci & Hci & HI). set (c1 := 2 * (ci + (2 * 0 + 2)) + (1 + 2)).
  set (k := INR N). set (B2 := k * (1 + 2)). set (c2 := k * c1 + 2 ^ S (S N) * (k * (1 + 2) + k * c1)). set (w := Rabs (/ INR N)).
  assert (Pk : 0 <= k) by apply pos_INR. assert (Pw : 0 <= w) by apply Rabs_pos. assert (P1 : 0 <= c1) by (unfold c1; lra). assert (PB : 0 <= B2) by (unfold B2; lra).
  assert (P2 : 0 <= c2). { unfold c2. assert (0 <= 2 ^ S (S N)) by (apply pow_le; lra). assert (0 <= k * c1) by (apply Rmult_le_pos; assumption).
    apply Rplus_le_le_0_compat; [assumption|]. apply Rmult_le_pos; lra. }
  exists (B2 * w), (2 * (c2 * w) + B2 * w). split; [apply Rmult_le_pos; assumption|]. split; [pose proof (Rmult_le_pos _ _ P2 Pw); pose proof (Rmult_le_pos _ _ PB Pw); lra|].
  intros u m mexp A s t Hm He Hu LA RA NA Ls Ns Lt Ft. unfold misfit, m_rmse. rewrite misfit_norm, LA. unfold Rdiv. apply off_rnd; [exact Hm|lra|apply Rmult_le_pos; assumption|].
  apply off_scale. rewrite <- (map_map (fun p : R * R => rnd m (fst p - snd p)) (fun x => rnd m (x * x))).
  set (p := map (fun p => fst p - snd p) (combine (intensities A s) t)).
  assert (Lp : List.length p = N) by (unfold p, intensities; rewrite map_length, combine_length, map_length, LA, Lt; lia).
  unfold c2, B2, k. rewrite <- Lp. apply off_root; [exact Hm|lra|exact P1|lra|]. unfold p. clear p Lp. clearbody w.
  clear - Hm He Hu HI Hci RA NA Ls Ns Ft LA Lt. revert A t LA Lt RA NA Ft. induction N as [|N IH]; intros [|r A] [|v t] LA Lt RA NA Ft; try discriminate; [constructor|].
  inversion RA; inversion NA; inversion Ft; subst. cbn [intensities map combine fst snd]. constructor; [|apply IH; try assumption; cbn in LA, Lt; lia].
  apply off_rnd; [exact Hm|lra|lra|]. apply off_sub.
  - unfold intensity, m_intensity. apply (HI u m mexp Hm He Hu); [rewrite combine_length; lia|apply combine_nonneg; assumption|lra|apply off_exact; rewrite Rabs_pos_eq; lra].
  - apply off_rnd; [exact Hm|lra|lra|]. apply off_exact. rewrite Rabs_pos_eq; lra.
Qed.

Lemma differences_length : forall s, List.length (second_differences s) = (List.length s - 2)%nat.
Proof. intros [|a [|b s]]; try reflexivity. unfold second_differences. rewrite map_length, !combine_length. cbn [List.length tl]. lia. Qed.

Lemma off_differences : forall u m s, accurate u m -> 0 <= u <= 1 -> in_bounds s -> Forall2 (off u 40 180) (map Rabs (second_differences s)) (map Rabs (m_differences m s)).
Proof.
  intros u m s Hm Hu Bs. assert (F : Forall (fun p => (0 <= fst (fst p) <= 10 /\ 0 <= snd (fst p) <= 10) /\ 0 <= snd p <= 10) (combine (combine s (tl s)) (tl (tl s)))).
  { apply Forall_forall. intros ((a, b), c) Hin. cbn [fst snd]. unfold in_bounds in Bs. rewrite Forall_forall in Bs.
    assert (T : forall l (x : R), In x (tl l) -> In x l) by (intros [|y l] x Hx; [exact Hx|right; exact Hx]).
    pose proof (in_combine_r _ _ _ _ Hin) as H1. pose proof (in_combine_l _ _ _ _ Hin) as H2. pose proof (in_combine_l _ _ _ _ H2) as H3. pose proof (in_combine_r _ _ _ _ H2) as H4.
    split; [split|]; apply Bs; [exact H3|apply T; exact H4|apply T, T; exact H1]. }
  unfold second_differences, m_differences. induction F as [|((a, b), c) l ((Ha & Hb) & Hc) F IH]; [constructor|]. cbn [map fst snd] in *. constructor; [|exact IH].
  assert (E : forall x, 0 <= x <= 10 -> off u 10 0 x x) by (intros x Hx; apply off_exact; rewrite Rabs_pos_eq; lra).
  pose proof (off_scale u 10 0 b b 2 (E b Hb)) as O1. rewrite (Rabs_pos_eq 2) in O1 by lra. rewrite (Rmult_comm b 2) in O1.
  apply (off_rnd u m) in O1; [|exact Hm|lra|lra]. pose proof (off_sub _ _ _ _ _ _ _ _ _ (E a Ha) O1) as O2. apply (off_rnd u m) in O2; [|exact Hm|lra|lra].
  pose proof (off_add _ _ _ _ _ _ _ _ _ O2 (E c Hc)) as O3. apply (off_rnd u m) in O3; [|exact Hm|lra|lra]. apply off_abs.
  eapply off_weaken; [exact O3|lra|lra|lra].
Qed.

Lemma off_curvature : forall n N, exists B c, 0 <= B /\ 0 <= c /\ forall u m wc s, accurate u m -> 0 <= u <= 1 -> List.length s = n -> in_bounds s ->
  off u (B * Rabs wc) (c * Rabs wc) (curvature wc N s) (m_curvature m wc N s).
Proof.
  intros n N. set (k := INR (n - 2)). set (c1 := k * 180 + 2 ^ (n - 2) * (k * 40 + k * 180)). set (w := Rabs (INR N)). assert (Pk : 0 <= k) by apply pos_INR. assert (Pw : 0 <= w) by apply Rabs_pos.
  assert (P1 : 0 <= c1). { unfold c1. assert (0 <= 2 ^ (n - 2)) by (apply pow_le; lra). apply Rplus_le_le_0_compat; [lra|]. apply Rmult_le_pos; lra. }
  set (B2 := k * 40 * w). set (c2 := 2 * (c1 * w) + B2). assert (PB : 0 <= B2) by (unfold B2; apply Rmult_le_pos; lra).
  assert (P2 : 0 <= c2) by (unfold c2; pose proof (Rmult_le_pos _ _ P1 Pw); lra). set (c3 := 2 * (c2 * 2) + B2 * 2).
  exists (B2 * 2), (2 * c3 + B2 * 2). split; [lra|]. split; [unfold c3; lra|]. intros u m wc s Hm Hu Ls Bs. unfold curvature, m_curvature.
  replace ((2 * c3 + B2 * 2) * Rabs wc) with (2 * (c3 * Rabs wc) + B2 * 2 * Rabs wc) by ring. pose proof (Rabs_pos wc) as Pwc.
  apply off_rnd; [exact Hm|lra|apply Rmult_le_pos; [unfold c3; lra|exact Pwc]|]. apply off_scale. apply off_rnd; [exact Hm|lra|lra|].
  rewrite <- (Rabs_pos_eq 2) at 1 2 by lra. apply off_scale. apply off_rnd; [exact Hm|lra|apply Rmult_le_pos; assumption|]. apply off_scale. rewrite rsum_sum.
  assert (L : List.length (map Rabs (second_differences s)) = (n - 2)%nat) by (rewrite map_length, differences_length, Ls; reflexivity).
  unfold c1, k. rewrite <- L. apply off_m_sum; [exact Hm|lra|lra|lra|apply off_differences; assumption|].
  apply Forall_map, Forall_forall. intros x _. apply Rabs_pos.
Qed.

Lemma off_preference : forall n, exists B c, 0 <= B /\ 0 <= c /\ forall u m wp s, accurate u m -> 0 <= u <= 1 -> List.length s = n -> in_bounds s ->
  off u (B * Rabs wp) (c * Rabs wp) (preference wp s) (m_preference m wp s).
Proof.
  intros n. set (k := INR n). set (c1 := k * 0 + 2 ^ n * (k * 10 + k * 0)). set (w := Rabs (/ INR n)). assert (Pk : 0 <= k) by apply pos_INR. assert (Pw : 0 <= w) by apply Rabs_pos.
  assert (P1 : 0 <= c1). { unfold c1. assert (0 <= 2 ^ n) by (apply pow_le; lra). apply Rplus_le_le_0_compat; [lra|]. apply Rmult_le_pos; lra. }
  set (B2 := k * 10 * w). set (c2 := 2 * (c1 * w) + B2). assert (PB : 0 <= B2) by (unfold B2; apply Rmult_le_pos; lra).
  assert (P2 : 0 <= c2) by (unfold c2; pose proof (Rmult_le_pos _ _ P1 Pw); lra).
  exists B2, (2 * c2 + B2). split; [exact PB|]. split; [lra|]. intros u m wp s Hm Hu Ls Bs. unfold preference, m_preference, Rdiv. rewrite Ls.
  replace ((2 * c2 + B2) * Rabs wp) with (2 * (c2 * Rabs wp) + B2 * Rabs wp) by ring. pose proof (Rabs_pos wp) as Pwp.
  apply off_rnd; [exact Hm|lra|apply Rmult_le_pos; assumption|]. apply off_scale. apply off_rnd; [exact Hm|lra|apply Rmult_le_pos; assumption|]. apply off_scale. rewrite rsum_sum.
  unfold c1, k. rewrite <- Ls. apply off_m_sum; [exact Hm|lra|lra|lra| |].
  - clear - Bs. induction Bs as [|x s Hx Bs IH]; constructor; [apply off_exact; rewrite Rabs_pos_eq; lra|exact IH].
  - eapply Forall_impl; [|exact Bs]. cbv beta. intros; lra.
Qed.

(** The computed cost is a number, and off by at most a multiple of [u] which
    depends on the numbers of LEDs and layers and on the weights. *)
Lemma cost_error : forall n N, (1 <= n)%nat -> (1 <= N)%nat -> exists C, 0 <= C /\ forall u m mexp wc wp A s qs, accurate u m -> accurate_exp u mexp -> 0 <= u <= 1 / 2 -> 0 <= wc ->
  List.length A = N -> rows_ok n A -> Forall nonneg A -> List.length s = n -> in_bounds s -> List.length qs = N -> Forall (fun q => 0 <= Q2R q <= 2) qs ->
  exists v, cost_on m mexp wc wp (map Some A) (map Fin qs) s = Some v /\ Rabs (v - cost wc wp A s (map Q2R qs)) <= C * (1 + wc + Rabs wp) * u.
Proof.
  intros n N Hn HN. destruct (off_misfit n N) as (B1 & c1 & PB1 & P1 & H1). destruct (off_curvature n N) as (B2 & c2 & PB2 & P2 & H2). destruct (off_preference n) as (B3 & c3 & PB3 & P3 & H3).
  exists (4 * (c1 + B1) + 4 * (c2 + B2) + 2 * (c3 + B3)). split; [lra|]. intros u m mexp wc wp A s qs Hm He Hu Hw LA RA NA Ls Bs Lq Fq.
  unfold cost_on. rewrite all_some_map, all_some_number. destruct A as [|r A]; [simpl in LA; lia|]. destruct s as [|a s]; [simpl in Ls; lia|].
  unfold np_pairs. replace (List.length (map (m_intensity m mexp (a :: s)) (r :: A)) =? List.length (map (rnd m) (map Q2R qs)))%nat with true
    by (symmetry; apply Nat.eqb_eq; rewrite !map_length; congruence).
  eexists. split; [reflexivity|]. rewrite LA. unfold cost. rewrite LA.
  pose proof (H1 u m mexp (r :: A) (a :: s) (map Q2R qs) Hm He Hu LA RA NA Ls (in_bounds_nonneg _ Bs) ltac:(rewrite map_length; exact Lq) ltac:(apply Forall_map; exact Fq)) as O1.
  pose proof (H2 u m wc (a :: s) Hm ltac:(lra) Ls Bs) as O2. pose proof (H3 u m wp (a :: s) Hm ltac:(lra) Ls Bs) as O3. rewrite (Rabs_pos_eq wc) in O2 by exact Hw. pose proof (Rabs_pos wp) as Hp.
  set (b := Rabs wp) in *. assert (Z : forall x y, 0 <= x -> 0 <= y -> 0 <= x * y) by (intros; apply Rmult_le_pos; assumption).
  pose proof (off_add _ _ _ _ _ _ _ _ _ O1 O2) as O. apply (off_rnd u m) in O; [|exact Hm|lra|pose proof (Z _ _ P2 Hw); lra].
  pose proof (off_add _ _ _ _ _ _ _ _ _ O O3) as O'. apply (off_rnd u m) in O'; [|exact Hm|lra|pose proof (Z _ _ P2 Hw); pose proof (Z _ _ PB2 Hw); pose proof (Z _ _ P3 Hp); lra].
  destruct O' as (_ & O'). eapply Rle_trans; [exact O'|]. apply Rmult_le_compat_r; [lra|].
  pose proof (Z _ _ P1 Hw). pose proof (Z _ _ P2 Hw). pose proof (Z _ _ P3 Hw). pose proof (Z _ _ PB1 Hw). pose proof (Z _ _ PB2 Hw). pose proof (Z _ _ PB3 Hw).
  pose proof (Z _ _ P1 Hp). pose proof (Z _ _ P2 Hp). pose proof (Z _ _ P3 Hp). pose proof (Z _ _ PB1 Hp). pose proof (Z _ _ PB2 Hp). pose proof (Z _ _ PB3 Hp). lra.
Qed.
