(** C139: pixels that are saturated. *)
From Coq Require Import ZArith QArith Qreals Lia Bool List Reals Lra.
From Verif Require Import Base Step1_Model Step2_Model Step3_Model Step3_Spec Step3_Props Shift_Props Table_Model Analysis_Model Solver_Model Solver_Props Nnls_Props End_Model End_Props Units_Props
  Amount_Props Ground_Props.
Import ListNotations.
Local Open Scope R_scope.

(** ** Specification *)

(** A photograph of [h] times [w] pixels of the light [light]: no pixel holds more than [c]. *)
Definition photo (c h w : Z) (light : Z -> Z -> Z) : image := Img h w (fun y x => Z.min c (light y x)).

(** Row and column of an LED and the part of its light that the smoke lets through. *)
Definition place : Type := (Z * Z * Q)%type.

(** The square of half width [r] is in the image; without smoke there is the light [clear], which is not
    negative, with smoke at least the part [t] of it in every pixel of the square. *)
Definition dimmed (h w r : Z) (clear smoky : Z -> Z -> Z) (l : place) : Prop :=
  let '(y, x, t) := l in
  (0 < t <= 1)%Q /\ (r <= y /\ y + r <= h /\ r <= x /\ x + r <= w)%Z /\
  forall v u, (y - r <= v < y + r)%Z -> (x - r <= u < x + r)%Z -> (0 <= clear v u)%Z /\ (t * inject_Z (clear v u) <= inject_Z (smoky v u))%Q.

(** The sum of the square of the LED, as step 3 records it. *)
Definition square_sum (img : image) (r : Z) (l : place) : cell := let '(y, x, _) := l in Some (inject_Z (np_sum (concat (area img r y x)))).

Lemma recorded_sum : forall F img r (areas : list row) led arr (d : led_data F) lid y x t, np_index areas led = Ok (lid, (y, x)) -> analyse_led None img r areas led arr = Ok d ->
  square_sum img r (y, x, t) = Some (inject_Z (d_sum d)).
Proof.
  intros F img r areas led arr d lid y x t E A. unfold analyse_led in A. rewrite E in A. cbn [bind] in A. unfold square_sum. destruct (np_amax (concat (area img r y x))) as [m|e]; [|discriminate A]. cbn [bind] in A. injection A as <-. reflexivity.
Qed.

(** ** Sums of squares in a photograph *)
Lemma square_total : forall c h w f r y x, (1 <= r -> r <= y -> y + r <= h -> r <= x -> x + r <= w ->
  np_sum (concat (area (photo c h w f) r y x)) = total (map (fun p => Z.min c (f (fst p) (snd p))) (list_prod (zrange (y - r) (y + r)) (zrange (x - r) (x + r)))))%Z.
Proof. intros c h w f r y x Hr H1 H2 H3 H4. rewrite square_pixels by (cbn [photo ih iw]; assumption). apply np_sum_total. Qed.

Lemma inject_Z_le_to : forall a b, (a <= b)%Z -> (inject_Z a <= inject_Z b)%Q.
Proof. intros a b H. unfold Qle. cbn [inject_Z Qnum Qden]. lia. Qed.

Lemma total_dimmed : forall c t f g (ps : list (Z * Z)), (0 <= c)%Z -> (0 < t <= 1)%Q -> (forall p, In p ps -> (0 <= f p)%Z /\ (t * inject_Z (f p) <= inject_Z (g p))%Q) ->
  (t * inject_Z (total (map (fun p => Z.min c (f p)) ps)) <= inject_Z (total (map (fun p => Z.min c (g p)) ps)))%Q /\ (0 <= total (map (fun p => Z.min c (f p)) ps))%Z /\ (0 <= total (map (fun p => Z.min c (g p)) ps))%Z.
Proof.
  intros c t f g ps Hc (T0 & T1) H. induction ps as [|p ps IH]; [cbn; split; [rewrite Qmult_0_r; apply Qle_refl|lia]|].
  destruct IH as (I1 & I2 & I3); [intros q Hq; apply H; right; exact Hq|]. destruct (H p (or_introl eq_refl)) as (F0 & FG).
  cbn [map total fold_right]. fold (total (map (fun p => Z.min c (f p)) ps)). fold (total (map (fun p => Z.min c (g p)) ps)). rewrite !inject_Z_plus, Qmult_plus_distr_r.
  assert (G0 : (0 <= g p)%Z).
  { assert (0 <= inject_Z (g p))%Q; [|unfold Qle in *; cbn in *; lia]. eapply Qle_trans; [|exact FG]. apply Qmult_le_0_compat; [apply Qlt_le_weak; exact T0|unfold Qle; cbn; lia]. }
  assert (K : forall a b, (a <= b)%Z -> (inject_Z a <= inject_Z b)%Q) by (intros a b; apply inject_Z_le_to).
  split; [|lia]. apply Qplus_le_compat; [|exact I1].
  assert (M0 : (0 <= inject_Z (Z.min c (f p)))%Q) by (apply (K 0%Z); lia).
  destruct (Z.le_gt_cases (g p) c) as [L|L].
  - rewrite (Z.min_r c (g p)) by exact L. eapply Qle_trans; [|exact FG]. rewrite !(Qmult_comm t). apply Qmult_le_compat_r; [apply K; lia|apply Qlt_le_weak; exact T0].
  - rewrite (Z.min_l c (g p)) by lia. apply Qle_trans with (1 * inject_Z (Z.min c (f p)))%Q; [apply Qmult_le_compat_r; assumption|]. rewrite Qmult_1_l. apply K. lia.
Qed.

Lemma total_le : forall (f g : Z * Z -> Z) ps, (forall p, In p ps -> (0 <= f p <= g p)%Z) -> (0 <= total (map f ps) <= total (map g ps))%Z.
Proof.
  intros f g ps H. induction ps as [|p ps IH]; [cbn; lia|]. pose proof (H p (or_introl eq_refl)). assert (I : (0 <= total (map f ps) <= total (map g ps))%Z) by (apply IH; intros q Hq; apply H; right; exact Hq).
  unfold total in *. cbn [map fold_right]. lia.
Qed.

Lemma quotient_dimmed : forall v B t ms r, (0 < t <= 1)%Q -> (0 <= v)%Q -> (t * B <= v)%Q -> Forall (fun m => 0 <= m <= B)%Q ms -> rel_R (cell_div (Some v) (mean (map Some ms))) = Some r -> Q2R t <= r.
Proof.
  intros v B t ms r (T0 & T1) V0 V1 HM E. destruct ms as [|m0 ms']; [discriminate E|]. destruct (mean_bounds (m0 :: ms') 0 B) as (m & Em & M1 & M2); [discriminate|exact HM|]. rewrite Em in E. cbn [cell_div] in E.
  pose proof (Qle_Rle _ _ T1) as R1. replace (Q2R 1) with 1 in R1 by (unfold Q2R; cbn; lra).
  destruct (Qeq_bool m 0) eqn:Z.
  - destruct (Qeq_bool v 0); [discriminate E|]. rewrite (proj2 (Qle_bool_iff 0 v) V0) in E. injection E as <-. exact R1.
  - injection E as <-. assert (N : ~ (m == 0)%Q) by (intros C; apply Qeq_bool_iff in C; congruence). assert (P : (0 < m)%Q) by (apply Qle_lteq in M1; destruct M1 as [P|C]; [exact P|symmetry in C; contradiction]).
    apply Qle_Rle. apply Qle_shift_div_l; [exact P|]. eapply Qle_trans; [|exact V1]. rewrite !(Qmult_comm t). apply Qmult_le_compat_r; [exact M2|apply Qlt_le_weak; exact T0].
Qed.

Lemma depth_of_part : forall t q, 0 < t <= 1 -> t <= q -> 0 <= optical_depth q <= - ln t.
Proof.
  intros t q Ht Hq. split; [apply depth_bounds|]. unfold optical_depth, clip_rel. set (c := Rmin (Rmax q (1 / 10000000000)) 1).
  assert (B : t <= c) by (unfold c; apply Rmin_glb; [eapply Rle_trans; [exact Hq|apply Rmax_l]|lra]).
  assert (L : ln t <= ln c) by (destruct (Req_dec t c) as [->|N]; [lra|left; apply ln_increasing; lra]). lra.
Qed.

(** The reference photographs show at most the clear light.  Saturated or not: the reported smoke takes no
    more light, in the sum of the squares of the depths, than the smoke does. *)
Theorem C139_no_more_smoke_than_there_is : forall nnls lambda n M last c h w r clear smoky refs (leds : list place) rel x, nnls_contract nnls -> rows_ok n M -> separates n M ->
  (0 <= c)%Z -> (1 <= r)%Z -> Forall (dimmed h w r clear smoky) leds -> Forall (fun f => forall y x, 0 <= f y x <= clear y x)%Z refs ->
  np_div (map (square_sum (photo c h w smoky) r) leds) (map (fun l => mean (map (fun f => square_sum (photo c h w f) r l) refs)) leds) = Ok rel ->
  solve_linear nnls lambda n (map Some M) last rel = Ok x ->
  sq_norm (mul M x) <= sq_norm (map (fun l : place => - ln (Q2R (snd l))) leds).
Proof.
  intros nnls lambda n M last c h w r clear smoky refs leds rel x Hn HR Hs Hc Hr Hd Hf E S0. unfold np_div in E. rewrite !map_length, Nat.eqb_refl in E. injection E as E.
  unfold solve_linear in S0. rewrite all_some_map in S0. destruct (all_some (map rel_R rel)) as [rs|] eqn:Er; [|discriminate S0].
  assert (B : sq_norm (map optical_depth rs) <= sq_norm (map (fun l : place => - ln (Q2R (snd l))) leds)).
  { clear S0. revert rel rs E Er. induction Hd as [|((y, x0), t) leds D F IH]; intros rel rs E Er; [cbn in E; subst rel; cbn in Er; injection Er as <-; cbn; lra|].
    cbn [map combine fst snd] in E. destruct rel as [|q rel]; [discriminate E|]. injection E as E1 E2. cbn [map all_some] in Er. destruct (rel_R q) as [ro|] eqn:Eq; [|discriminate Er]. destruct (all_some (map rel_R rel)) as [ros|] eqn:Es; [|discriminate Er]. injection Er as <-.
    specialize (IH rel ros E2 Es). cbn [map sq_norm snd].
    destruct D as (T & (D1 & D2 & D3 & D4) & D5).
    assert (P : Q2R t <= ro).
    { rewrite <- E1 in Eq. set (ps := list_prod (zrange (y - r) (y + r)) (zrange (x0 - r) (x0 + r))).
      assert (Hps : forall p, In p ps -> (y - r <= fst p < y + r)%Z /\ (x0 - r <= snd p < x0 + r)%Z).
      { intros (v, u) Hp. unfold ps in Hp. apply in_prod_iff in Hp. destruct Hp as (P1 & P2). apply in_zrange in P1. apply in_zrange in P2. cbn. split; assumption. }
      destruct (total_dimmed c t (fun p => clear (fst p) (snd p)) (fun p => smoky (fst p) (snd p)) ps Hc T) as (A1 & A2 & A3).
      { intros p Hp. destruct (Hps p Hp). apply D5; assumption. }
      apply (quotient_dimmed (inject_Z (np_sum (concat (area (photo c h w smoky) r y x0)))) (inject_Z (total (map (fun p => Z.min c (clear (fst p) (snd p))) ps))) t (map (fun f => inject_Z (np_sum (concat (area (photo c h w f) r y x0)))) refs)); [exact T| | | |rewrite map_map; exact Eq].
      - rewrite square_total by assumption. apply (inject_Z_le_to 0). exact A3.
      - rewrite square_total by assumption. exact A1.
      - clear - Hf Hc Hr D1 D2 D3 D4. induction Hf as [|f fs Hff F IH]; [constructor|]. cbn [map]. constructor; [|exact IH]. rewrite square_total by assumption. fold ps.
        destruct (total_le (fun p => Z.min c (f (fst p) (snd p))) (fun p => Z.min c (clear (fst p) (snd p))) ps) as (B1 & B2).
        + intros p _. pose proof (Hff (fst p) (snd p)). lia.
        + split; [apply (inject_Z_le_to 0); exact B1|apply inject_Z_le_to; exact B2]. }
    destruct T as (T0 & T1). apply Qlt_Rlt in T0. apply Qle_Rle in T1. replace (Q2R 0) with 0 in T0 by (unfold Q2R; cbn; lra). replace (Q2R 1) with 1 in T1 by (unfold Q2R; cbn; lra).
    destruct (depth_of_part (Q2R t) ro (conj T0 T1) P) as (O1 & O2). assert (optical_depth ro * optical_depth ro <= - ln (Q2R t) * - ln (Q2R t)) by (apply Rmult_le_compat; lra). lra. }
  destruct (Nat.eqb_spec (length rs) (length M)) as [L|L]; [|discriminate S0]. injection S0 as <-.
  assert (S1 : nnls_solution n (a_aug lambda n M) (b_aug n rs) (linear_coefficients nnls lambda n M rs)).
  { apply Hn; [apply rows_ok_aug; exact HR|apply aug_length; exact L|apply separates_aug; exact Hs]. }
  pose proof (solution_norm n _ _ _ (aug_length lambda n M rs L) S1) as N. set (x := linear_coefficients nnls lambda n M rs) in *. unfold a_aug, b_aug, mul in N. rewrite map_app, !sq_norm_app, sq_norm_repeat in N. unfold mul.
  match type of N with _ + sq_norm ?w <= _ => pose proof (sq_norm_pos w) as W end. lra.
Qed.
Print Assumptions C139_no_more_smoke_than_there_is.

(** One pixel of light in a small photograph. *)
Definition spot (b : Z) (y x : Z) : Z := if ((y =? 2) && (x =? 2))%Z%bool then b else 0%Z.

Lemma spot_dimmed : dimmed 4 4 2 (spot 510) (spot 255) (2%Z, 2%Z, (1 # 2)%Q).
Proof.
  unfold dimmed. split; [split; [reflexivity|discriminate]|]. split; [lia|]. intros v u _ _. unfold spot. destruct ((v =? 2) && (u =? 2))%Z%bool; split; discriminate.
Qed.

Example C139_example : forall nnls, nnls_contract nnls ->
  np_div (map (square_sum (photo 1000 4 4 (spot 255)) 2) [(2%Z, 2%Z, (1 # 2)%Q)]) (map (fun l => mean (map (fun f => square_sum (photo 1000 4 4 f) 2 l) [spot 510])) [(2%Z, 2%Z, (1 # 2)%Q)]) = Ok [Fin (255 / ((510 + 0) / 1))%Q] /\
  exists x, solve_linear nnls 0 1 (map Some [[1]]) None [Fin (255 / ((510 + 0) / 1))%Q] = Ok x /\ sq_norm (mul [[1]] x) <= sq_norm [- ln (Q2R (1 # 2))].
Proof.
  intros nnls Hn. split; [reflexivity|]. eexists. split; [apply (solve_one nnls _ (1 / 2) Hn); unfold Q2R; cbn; field|].
  apply (C139_no_more_smoke_than_there_is nnls 0 1 [[1]] None 1000 4 4 2 (spot 510) (spot 255) [spot 510] [(2%Z, 2%Z, (1 # 2)%Q)] [Fin (255 / ((510 + 0) / 1))%Q]).
  - exact Hn.
  - repeat constructor.
  - exists 1. split; [lra|]. intros z Hz. destruct z as [|a [|? ?]]; try discriminate. cbn [mul map rdot sq_norm]. pose proof (Rle_0_sqr a) as P. unfold Rsqr in P. lra.
  - lia.
  - lia.
  - constructor; [exact spot_dimmed|constructor].
  - constructor; [|constructor]. intros y x. unfold spot. destruct ((y =? 2) && (x =? 2))%Z%bool; lia.
  - reflexivity.
  - apply (solve_one nnls _ (1 / 2) Hn). unfold Q2R. cbn. field.
Qed.

(** Smoke that takes half of the light of all pixels: seen by a camera that holds values up to 1000, not seen
    at all by one that holds values up to 255.  Nothing tells the two cases apart
    ([check_led_saturations], data_integrity.py:47, is empty). *)
Theorem C139_saturated_pixels_refuted : exists h w r clear smoky (l : place), dimmed h w r clear smoky l /\ (forall y x, inject_Z (smoky y x) == snd l * inject_Z (clear y x))%Q /\
  forall nnls, nnls_contract nnls ->
  (exists rel, np_div [square_sum (photo 1000 h w smoky) r l] [mean [square_sum (photo 1000 h w clear) r l]] = Ok rel /\ solve_linear nnls 0 1 (map Some [[1]]) None rel = Ok [- ln (Q2R (snd l))]) /\
  (exists rel, np_div [square_sum (photo 255 h w smoky) r l] [mean [square_sum (photo 255 h w clear) r l]] = Ok rel /\ solve_linear nnls 0 1 (map Some [[1]]) None rel = Ok [0]) /\
  0 < - ln (Q2R (snd l)).
Proof.
  exists 4%Z, 4%Z, 2%Z, (spot 510), (spot 255), (2%Z, 2%Z, (1 # 2)%Q). split; [exact spot_dimmed|]. split; [intros y x; unfold spot; destruct ((y =? 2) && (x =? 2))%Z%bool; reflexivity|].
  assert (H : Q2R (1 # 2) = 1 / 2) by (unfold Q2R; cbn; field). intros nnls Hn. cbn [snd]. rewrite H. split; [|split].
  - exists [Fin (255 / ((510 + 0) / 1))%Q]. split; [reflexivity|]. rewrite (solve_one nnls _ (1 / 2) Hn) by (unfold Q2R; cbn; field). rewrite readable_depth by (unfold readable; lra). reflexivity.
  - exists [Fin (255 / ((255 + 0) / 1))%Q]. split; [reflexivity|]. rewrite (solve_one nnls _ 1 Hn) by (unfold Q2R; cbn; field). rewrite readable_depth by (unfold readable; lra). rewrite ln_1, Ropp_0. reflexivity.
  - replace (1 / 2) with (/ 2) by lra. rewrite ln_Rinv by lra. assert (0 < ln 2) by (rewrite <- ln_1; apply ln_increasing; lra). lra.
Qed.
Print Assumptions C139_saturated_pixels_refuted.
