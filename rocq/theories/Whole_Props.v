(** C129: the whole program on a machine, from the pixels of the photographs to the smoke. *)
From Coq Require Import ZArith QArith Qreals Lia Bool String List Permutation Reals Lra.
From Verif Require Import Base Step1_Model Step1_Spec Step1_Proofs Step2_Model Step2_Spec Step2_Proofs Step2_GeoSpec Step2_GeoProps Step2_Geometry Nearly_Props Step3_Model Step3_Spec Step3_Props
  Pipeline_Model Pipeline_Props Dir_Model Dir_Props Extract_Props Format_Model Table_Model Table_Spec Table_Props Analysis_Model Analysis_Props
  Layers_Model Layers_Spec Layers_Props Solver_Model Solver_Props Stable_Props Nnls_Props End_Model End_Props Mean_Model Mean_Props Separate_Proofs Separate_Props Linear_Proofs Linear_Props Minimiser_Props NonLinear_Proofs NonLinear_Props NonLinear_End
  Photos_Props Profile_Photos Rounding_Model Rounding_Props Machine_Model Machine_Props MachineEnd_Model MachineEnd_Props MachineSolver_Model MachineSolver_Props
  MachineNonLinear_Model MachineNonLinear_Proofs MachineNonLinear_Props.
Import ListNotations.
Local Open Scope R_scope.

(** ** Specification *)

(** The pixels of the square with the radius [r] around [q] in an image with [h] rows
    and [w] columns. *)
Definition in_square (r h w : Z) (q : loc) (y x : Z) : Prop :=
  (fst q - r <= y < fst q + r)%Z /\ (y < h)%Z /\ (snd q - r <= x < snd q + r)%Z /\ (x < w)%Z.

(** Light of the single pixels of the square. *)
Definition lights (base : Z -> Z -> R) (r h w : Z) (q : loc) : list R :=
  map (fun c => base (fst c) (snd c)) (list_prod (zrange (fst q - r) (Z.min (fst q + r) h)) (zrange (snd q - r) (Z.min (snd q + r) w))).

(** All light of these pixels; [base] is the light of the single pixels without smoke. *)
Definition light (base : Z -> Z -> R) (r h w : Z) (q : loc) : R := fold_right Rplus 0 (lights base r h w q).

(** The light of a lamp, as the property names it: all of it, the mean of the pixels or the
    brightest pixel. *)
Definition lamp_light (prop : string) (base : Z -> Z -> R) (r h w : Z) (q : loc) : R :=
  if (prop =? "max_col_val")%string then fold_right Rmax 0 (lights base r h w q)
  else if (prop =? "mean_col_val")%string then light base r h w q / INR (List.length (lights base r h w q))
  else light base r h w q.

(** The error of the property, if every pixel has the error [eta]: the square has up to
    [4 r^2] pixels. *)
Definition lamp_error (prop : string) (r : Z) (eta : R) : R :=
  if (prop =? "sum_col_val")%string then 4 * (IZR r * IZR r) * eta else eta.

(** Every pixel of the square shows the share [share] of its light, up to [eta] (one half,
    if the camera rounds to integers; more, if there is noise or light from elsewhere). *)
Definition shows (base : Z -> Z -> R) (share eta : R) (r : Z) (q : loc) (photo : image) : Prop :=
  forall y x, in_square r (ih photo) (iw photo) q y x -> Rabs (IZR (Step1_Model.px photo y x) - base y x * share) <= eta.

(** ** The sum over a square *)

Lemma sum_error : forall (f : loc -> Z) (g : loc -> R) share eta l, (forall c, In c l -> Rabs (IZR (f c) - g c * share) <= eta) ->
  Rabs (IZR (Step3_Spec.total (map f l)) - fold_right Rplus 0 (map g l) * share) <= INR (List.length l) * eta.
Proof.
  intros f g share eta l. induction l as [|c l IH]; intros H.
  - cbn [map fold_right List.length INR]. unfold Step3_Spec.total. cbn [fold_right]. rewrite !Rmult_0_l, Rminus_0_r, Rabs_R0. lra.
  - cbn [map List.length]. rewrite S_INR. change (Step3_Spec.total (f c :: map f l)) with (f c + Step3_Spec.total (map f l))%Z. cbn [fold_right]. rewrite plus_IZR.
    specialize (IH (fun c' Hc => H c' (or_intror Hc))). pose proof (H c (or_introl eq_refl)) as H0.
    replace (IZR (f c) + IZR (Step3_Spec.total (map f l)) - (g c + fold_right Rplus 0 (map g l)) * share) with
      ((IZR (f c) - g c * share) + (IZR (Step3_Spec.total (map f l)) - fold_right Rplus 0 (map g l) * share)) by ring.
    eapply Rle_trans; [apply Rabs_triang|]. lra.
Qed.

(** What a photograph shows of a lamp: its light times the share, up to [4 r^2 eta]. *)
Theorem C129_one_lamp : forall base share eta r q photo, (0 <= r)%Z -> 0 <= eta -> shows base share eta r q photo ->
  Rabs (IZR (seen photo r q) - light base r (ih photo) (iw photo) q * share) <= 4 * (IZR r * IZR r) * eta.
Proof.
  intros base share eta r (y0 & x0) photo Hr He H. unfold seen, light, lights, window.
  cbn [fst snd]. set (l := list_prod (zrange (y0 - r) (Z.min (y0 + r) (ih photo))) (zrange (x0 - r) (Z.min (x0 + r) (iw photo)))).
  eapply Rle_trans; [apply (sum_error (fun c => Step1_Model.px photo (fst c) (snd c)) (fun c => base (fst c) (snd c)) share eta)|].
  - intros (y & x) Hc. apply in_prod_iff in Hc. destruct Hc as (C1 & C2). apply in_zrange in C1, C2. apply H. unfold in_square. cbn [fst snd]. lia.
  - apply Rmult_le_compat_r; [exact He|].
    assert (L : (Z.of_nat (List.length l) <= 4 * (r * r))%Z) 
      by (unfold l; rewrite prod_length, !length_zrange, Nat2Z.inj_mul, !ZifyInst.of_nat_to_nat_eq; set (v1 := Z.max 0 _); set (v2 := Z.max 0 _);
          assert (0 <= v1 <= 2 * r)%Z by (unfold v1; lia); assert (0 <= v2 <= 2 * r)%Z by (unfold v2; lia); nia).
    apply IZR_le in L. rewrite <- INR_IZR_INZ, !mult_IZR in L. exact L.
Qed.
Print Assumptions C129_one_lamp.

Lemma max_attained : forall l, 0 < fold_right Rmax 0 l -> In (fold_right Rmax 0 l) l.
Proof.
  induction l as [|v l IH]; intros H; cbn [fold_right] in *; [lra|]. destruct (Rle_dec v (fold_right Rmax 0 l)) as [C|C].
  - rewrite Rmax_right in * by exact C. right. apply IH. exact H.
  - rewrite Rmax_left by lra. left. reflexivity.
Qed.

Lemma max_above : forall l v, In v l -> v <= fold_right Rmax 0 l.
Proof.
  induction l as [|x l IH]; intros v H; [destruct H|]. cbn [fold_right]. destruct H as [->|H]; [apply Rmax_l|]. eapply Rle_trans; [apply IH; exact H|apply Rmax_r].
Qed.

(** The recorded property is the light of the lamp times the share, up to the error of the
    property. *)
Theorem C129_any_property : forall prop base share eta r q photo (d : led_data fit_data),
  known_property prop -> (0 <= r)%Z -> 0 <= eta -> 0 <= share -> shows base share eta r q photo -> holds_lamp photo r q d ->
  0 < lamp_light prop base r (ih photo) (iw photo) q ->
  Rabs (recorded prop d - lamp_light prop base r (ih photo) (iw photo) q * share) <= lamp_error prop r eta.
Proof.
  intros prop base share eta r q photo d Hp Hr He Hsh H (D1 & D2 & D3 & D4) Hpos. destruct Hp as [->|[->| ->]].
  - unfold recorded, lamp_light, lamp_error. cbn [String.eqb Ascii.eqb Bool.eqb]. rewrite D1. apply C129_one_lamp; assumption.
  - unfold recorded, lamp_light, lamp_error. cbn [String.eqb Ascii.eqb Bool.eqb]. unfold light, lights. destruct q as (y0 & x0). unfold window in D2, D3. cbn [fst snd] in *.
    set (l := list_prod (zrange (y0 - r) (Z.min (y0 + r) (ih photo))) (zrange (x0 - r) (Z.min (x0 + r) (iw photo)))) in *.
    pose proof (sum_error (fun c => Step1_Model.px photo (fst c) (snd c)) (fun c => base (fst c) (snd c)) share eta l) as E.
    assert (Hl : forall c, In c l -> Rabs (IZR (Step1_Model.px photo (fst c) (snd c)) - base (fst c) (snd c) * share) <= eta).
    { intros (y & x) Hc. unfold l in Hc. apply in_prod_iff in Hc. destruct Hc as (C1 & C2). apply in_zrange in C1, C2. apply H. unfold in_square. cbn [fst snd]. lia. }
    specialize (E Hl). rewrite map_length in D2 |- *.
    assert (Nz : 0 < INR (List.length l)) by (apply lt_0_INR; destruct l; [destruct D3|cbn; lia]).
    apply Qeq_eqR in D2. rewrite Q2R_mult, !Q2R_inject, <- INR_IZR_INZ in D2. unfold loc in *. rewrite <- D2 in E.
    replace (Q2R (d_mean d) - fold_right Rplus 0 (map (fun c => base (fst c) (snd c)) l) / INR (List.length l) * share)
      with ((Q2R (d_mean d) * INR (List.length l) - fold_right Rplus 0 (map (fun c => base (fst c) (snd c)) l) * share) / INR (List.length l)) by (field; lra).
    unfold Rdiv. rewrite Rabs_mult, (Rabs_pos_eq (/ _)) by (left; apply Rinv_0_lt_compat; exact Nz).
    apply (Rmult_le_reg_r (INR (List.length l))); [exact Nz|]. rewrite Rmult_assoc, Rinv_l, Rmult_1_r by lra. lra.
  - unfold recorded, lamp_light, lamp_error in *. cbn [String.eqb Ascii.eqb Bool.eqb] in *. set (M := fold_right Rmax 0 (lights base r (ih photo) (iw photo) q)) in *.
    assert (Hc : forall y x, In (y, x) (list_prod (zrange (fst q - r) (Z.min (fst q + r) (ih photo))) (zrange (snd q - r) (Z.min (snd q + r) (iw photo)))) ->
      Rabs (IZR (Step1_Model.px photo y x) - base y x * share) <= eta).
    { intros y x Hc. apply in_prod_iff in Hc. destruct Hc as (C1 & C2). apply in_zrange in C1, C2. apply H. unfold in_square. lia. }
    unfold window in D3, D4. apply in_map_iff in D3. destruct D3 as ((y1 & x1) & P1 & I1). cbn [fst snd] in P1. pose proof (Hc y1 x1 I1) as B1. rewrite P1 in B1. apply abs_le_inv in B1.
    assert (U1 : base y1 x1 <= M) by (apply max_above; unfold lights; apply in_map_iff; exists (y1, x1); split; [reflexivity|exact I1]).
    pose proof (max_attained _ Hpos) as A. fold M in A. unfold lights in A. apply in_map_iff in A. destruct A as ((y2 & x2) & P2 & I2). cbn [fst snd] in P2. pose proof (Hc y2 x2 I2) as B2. rewrite P2 in B2. apply abs_le_inv in B2.
    assert (U2 : IZR (Step1_Model.px photo y2 x2) <= IZR (d_max d)) by (apply IZR_le, D4; apply in_map_iff; exists (y2, x2); split; [reflexivity|exact I2]).
    apply Rabs_le. nra.
Qed.
Print Assumptions C129_any_property.

(** If all lamps send at least the light [L], the error is relative to it. *)
Theorem C129_relative_error : forall prop base share eta L r q photo (d : led_data fit_data),
  known_property prop -> (0 <= r)%Z -> 0 <= eta -> 0 < L -> 0 < share -> shows base share eta r q photo -> holds_lamp photo r q d ->
  L <= lamp_light prop base r (ih photo) (iw photo) q * share ->
  0 < lamp_light prop base r (ih photo) (iw photo) q /\ close_to (lamp_light prop base r (ih photo) (iw photo) q * share) (lamp_error prop r eta / L) (recorded prop d).
Proof.
  intros prop base share eta L r q photo d Hprop Hr He HL Hsh H Hd Hq.
  assert (Pos : 0 < lamp_light prop base r (ih photo) (iw photo) q) by nra. split; [exact Pos|].
  pose proof (C129_any_property prop base share eta r q photo d Hprop Hr He ltac:(lra) H Hd Pos) as D.
  set (b := lamp_light prop base r (ih photo) (iw photo) q) in *. unfold close_to. eapply Rle_trans; [exact D|]. set (c := lamp_error prop r eta) in *.
  assert (Pc : 0 <= c) by (eapply Rle_trans; [apply Rabs_pos|exact D]). unfold Rdiv. rewrite Rmult_assoc. rewrite <- (Rmult_1_r c) at 1. apply Rmult_le_compat_l; [exact Pc|].
  apply (Rmult_le_reg_l L); [exact HL|]. rewrite <- Rmult_assoc, Rinv_r, Rmult_1_l, Rmult_1_r by lra. exact Hq.
Qed.
Print Assumptions C129_relative_error.

Lemma lamp_error_nonneg : forall prop r eta, 0 <= eta -> 0 <= lamp_error prop r eta.
Proof. intros prop r eta H. unfold lamp_error. destruct (prop =? "sum_col_val")%string; [|exact H]. apply Rmult_le_pos; [nra|exact H]. Qed.

(** ** C129 *)

(** Steps 1 and 2 on the reference image, step 3 in fast mode on the photographs 1..n, the
    table, the analysis of array [a] with the linear solver and the arithmetic of the machine. *)
Theorem C129_from_the_pixels : forall bot top nlay cam ps H,
  (1 <= nlay)%nat -> bot < top -> within bot top (pz cam) -> Forall (in_view bot top cam) ps -> Forall (no_border_between bot top nlay cam) ps ->
  Forall2 (counts_at bot top nlay cam) ps H -> enough_heights bot top nlay (pz cam :: H) ->
  exists K u0, 0 < K /\ 0 < u0 /\
  forall u m log avg mu N tol E1 E2 st img thr lamps strays photo files recs srt coord overflow first last skip a A places
         indices num prop nnls lambda base eta L eps smoke cpus order,
  known_property prop ->
  accurate u m -> accurate_log u log -> 0 <= u <= u0 -> rnd m bot = bot ->
  (* the reference image and what the user enters *)
  let P := concat lamps ++ strays in
  let r := e_radius E1 in
  mml_ok (e_mml E1) -> e_image E1 = Ok img -> nonempty_image img -> nonneg_image img -> (1 <= r)%Z ->
  percentile (pixels img) (e_percentile E1) = Ok thr -> spots img r thr P -> (Z.of_nat (List.length P) <= e_max_leds E1)%Z ->
  (forall rows, e_plot E1 rows = true /\ e_plot E2 rows = true) ->
  Forall (fun A => (2 <= List.length A)%nat) lamps -> lamps_straight lamps P ->
  e_geo E2 = real_geometry -> e_ignored E2 = [] ->
  let st1 := exec_all [Step1 E1; NewProcess] st in
  (forall rows, fst st1 KAreas = Some (Rows rows) -> edges_entered rows lamps (e_edges E2)) ->
  let s2 := fst (exec (Step2 E2) st1) in
  (* the photographs and the result files *)
  let n := number_of_images overflow first last skip in
  (1 <= n)%Z -> accurate_mean N mu avg -> 0 <= mu -> (n <= Z.of_nat N)%Z ->
  (forall i, (1 <= i <= n)%Z -> ih (photo i) = ih img /\ iw (photo i) = iw img /\ nonneg_image (photo i)) ->
  (forall i areas arrays, (1 <= i <= n)%Z ->
     load_search_areas s2 = Ok areas -> load_indices (Z.of_nat (List.length lamps)) None s2 = Ok arrays ->
     generate_analysis_data None (photo i) r areas arrays 0 = Ok (recs i) /\
     (exists b name ch time, files i = Some (result_file b name ch time false (recs i))) /\
     coords_usable coord (recs i)) ->
  sorts srt ->
  (* the array, the room and the smoke *)
  nth_error lamps a = Some A -> map (@List.length _) lamps = map (@List.length _) places -> nth_error places a = Some ps ->
  (forall i, (1 <= i <= n)%Z -> List.length (smoke i) = nlay /\ nonneg (smoke i)) ->
  (forall i, (1 <= i <= n)%Z -> is_reference indices num i -> smoke i = repeat 0 nlay) ->
  (exists i, (1 <= i <= n)%Z /\ is_reference indices num i) ->
  (* every pixel around the lamps of the array shows the light that comes through the smoke, up to eta *)
  0 <= eta -> 0 < L -> eps = lamp_error prop r eta / L -> table_error (eps + 2 * mu) < 1 / 3 ->
  (forall i j q p, (1 <= i <= n)%Z -> nth_error A j = Some q -> nth_error ps j = Some p ->
     let share := transmission bot top nlay cam p (smoke i) in
     1 / 10000000000 <= share /\ L <= lamp_light prop base r (ih img) (iw img) q * share /\ shows base share eta r q (photo i)) ->
  0 <= lambda -> 0 <= tol -> nnls_within tol nnls -> Permutation order (seq 0 (Z.to_nat n)) ->
  exists t arrays xs,
    create_table srt coord files overflow first last skip = Ok t /\
    load_indices (Z.of_nat (List.length lamps)) None s2 = Ok arrays /\
    analyse_on m avg (solve_on m log nnls lambda nlay) bot top nlay cam (concat places) (nth_error arrays a) t (Z.of_nat a) prop indices num cpus order = Ok xs /\
    List.length xs = Z.to_nat n /\
    forall i x, (1 <= i <= n)%Z -> nth_error xs (Z.to_nat (i - 1)) = Some x ->
      sq_dist x (smoke i) <= K * (ln (1 - relative_error (eps + 2 * mu)) * ln (1 - relative_error (eps + 2 * mu)) + lambda * penalty (smoke i) + tol + u * u * (1 + (1 + lambda) * sq_norm (smoke i))).
Proof.
  intros bot top nlay cam ps H Hlay Hbt Hc Hview Hno HH He0.
  destruct (C126_analysis_on_a_machine bot top nlay cam ps H Hlay Hbt Hc Hview Hno HH He0) as (K & u0 & HK & Hu0 & Main). exists K, u0. split; [exact HK|]. split; [exact Hu0|].
  intros u m log avg mu N tol E1 E2 st img thr lamps strays photo files recs srt coord overflow first last skip a A places
    indices num prop nnls lambda base eta L eps smoke cpus order Hprop Hacc Hlog Hu Hbot P r
    Hm Hi Hne Hnn Hr Hp Hs Hk Hpl Hl2 Hst Hg Hig st1 He s2 n Hn Havg Hmu HN Hph Hrec Hsrt HA Hpls Hps Hsm Hsm0 Href Heta HL -> Heps Hpix Hlam Htol Hnnls Hord.
  destruct (photographs_records E1 E2 st img thr lamps strays photo files recs srt coord overflow first last skip a A places ps
    Hm Hi Hne Hnn Hr Hp Hs Hk Hpl Hl2 Hst Hg Hig He Hn Hph Hrec Hsrt HA Hpls Hps) as (t & arrays & l & areas & off & T1 & T2 & T3 & T4 & T5 & T6 & T7 & T8 & T9).
  destruct (Main u m log avg mu N tol arrays None arrays a l n recs t (concat places) indices num prop nnls lambda (lamp_error prop r eta / L) smoke
    (fun k => match nth_error A (Z.to_nat k - off)%nat with Some q => lamp_light prop base r (ih img) (iw img) q | None => 0 end) cpus order) as (xs & X1 & X2 & X3); try assumption.
  - exact I.
  - intros i Hi'. destruct (T6 i Hi') as (arrays' & G1 & G2). exists fit_data, None, (photo i), r, areas, arrays', (recs i). split; [exact G1|]. split; [exact G2|reflexivity].
  - apply Rmult_le_pos; [apply lamp_error_nonneg; exact Heta|left; apply Rinv_0_lt_compat; exact HL].
  - intros i d p Hi' Hd Hda Hp'. destruct (T9 i d p Hi' Hd Hda Hp') as (j & q & Ej & J1 & J2 & J3). rewrite Ej. replace (off + j - off)%nat with j by lia. rewrite J1.
    destruct (Hpix i j q p Hi' J1 J2) as (S1 & S2 & S3). destruct (Hph i Hi') as (P1 & P2 & _). rewrite <- P1, <- P2 in *.
    destruct (C129_relative_error prop base (transmission bot top nlay cam p (smoke i)) eta L r q (photo i) d Hprop ltac:(lia) Heta HL ltac:(lra) S3 J3 S2) as (R1 & R2). split; [exact R1|]. split; [exact S1|exact R2].
  - exists t, (index_files arrays), xs. split; [exact T1|]. split; [exact T2|]. split; [exact X1|]. split; [exact X2|exact X3].
Qed.
Print Assumptions C129_from_the_pixels.

(** The same with the non-linear solver. *)
Theorem C129_from_the_pixels_non_linear : forall bot top nlay cam ps H,
  (1 <= nlay)%nat -> bot < top -> within bot top (pz cam) -> Forall (in_view bot top cam) ps -> Forall (no_border_between bot top nlay cam) ps ->
  Forall2 (counts_at bot top nlay cam) ps H -> enough_heights bot top nlay (pz cam :: H) ->
  exists K u0, 0 < K /\ 0 < u0 /\
  forall u m mexp avg mu N tol E1 E2 st img thr lamps strays photo files recs srt coord overflow first last skip a A places
         indices num prop minimize wc wp base eta L eps smoke cpus order,
  known_property prop ->
  accurate u m -> accurate_exp u mexp -> 0 <= u <= u0 -> rnd m bot = bot ->
  (* the reference image and what the user enters *)
  let P := concat lamps ++ strays in
  let r := e_radius E1 in
  mml_ok (e_mml E1) -> e_image E1 = Ok img -> nonempty_image img -> nonneg_image img -> (1 <= r)%Z ->
  percentile (pixels img) (e_percentile E1) = Ok thr -> spots img r thr P -> (Z.of_nat (List.length P) <= e_max_leds E1)%Z ->
  (forall rows, e_plot E1 rows = true /\ e_plot E2 rows = true) ->
  Forall (fun A => (2 <= List.length A)%nat) lamps -> lamps_straight lamps P ->
  e_geo E2 = real_geometry -> e_ignored E2 = [] ->
  let st1 := exec_all [Step1 E1; NewProcess] st in
  (forall rows, fst st1 KAreas = Some (Rows rows) -> edges_entered rows lamps (e_edges E2)) ->
  let s2 := fst (exec (Step2 E2) st1) in
  (* the photographs and the result files *)
  let n := number_of_images overflow first last skip in
  (1 <= n)%Z -> accurate_mean N mu avg -> 0 <= mu -> (n <= Z.of_nat N)%Z ->
  (forall i, (1 <= i <= n)%Z -> ih (photo i) = ih img /\ iw (photo i) = iw img /\ nonneg_image (photo i)) ->
  (forall i areas arrays, (1 <= i <= n)%Z ->
     load_search_areas s2 = Ok areas -> load_indices (Z.of_nat (List.length lamps)) None s2 = Ok arrays ->
     generate_analysis_data None (photo i) r areas arrays 0 = Ok (recs i) /\
     (exists b name ch time, files i = Some (result_file b name ch time false (recs i))) /\
     coords_usable coord (recs i)) ->
  sorts srt ->
  (* the array, the room and the smoke *)
  nth_error lamps a = Some A -> map (@List.length _) lamps = map (@List.length _) places -> nth_error places a = Some ps ->
  (forall i, (1 <= i <= n)%Z -> List.length (smoke i) = nlay /\ in_bounds (smoke i)) ->
  (forall i, (1 <= i <= n)%Z -> is_reference indices num i -> smoke i = repeat 0 nlay) ->
  (exists i, (1 <= i <= n)%Z /\ is_reference indices num i) ->
  (* every pixel around the lamps of the array shows the light that comes through the smoke, up to eta *)
  0 <= eta -> 0 < L -> eps = lamp_error prop r eta / L -> table_error (eps + 2 * mu) < 1 / 3 ->
  (forall i j q p, (1 <= i <= n)%Z -> nth_error A j = Some q -> nth_error ps j = Some p ->
     let share := transmission bot top nlay cam p (smoke i) in
     1 / 10000000000 <= share /\ L <= lamp_light prop base r (ih img) (iw img) q * share /\ shows base share eta r q (photo i)) ->
  0 <= wc -> 0 < tol -> minimize_within tol minimize -> Permutation order (seq 0 (Z.to_nat n)) ->
  exists t arrays xs,
    create_table srt coord files overflow first last skip = Ok t /\
    load_indices (Z.of_nat (List.length lamps)) None s2 = Ok arrays /\
    analyse_on m avg (nonlinear_on m mexp minimize wc wp nlay) bot top nlay cam (concat places) (nth_error arrays a) t (Z.of_nat a) prop indices num cpus order = Ok xs /\
    List.length xs = Z.to_nat n /\
    forall i x, (1 <= i <= n)%Z -> nth_error xs (Z.to_nat (i - 1)) = Some x ->
      List.length x = nlay /\
      sqrt (sq_dist x (smoke i)) <= K * (relative_error (eps + 2 * mu) + wc * bend (smoke i) + Rabs wp + tol + (1 + wc + Rabs wp) * u).
Proof.
  intros bot top nlay cam ps H Hlay Hbt Hc Hview Hno HH He0.
  destruct (C128_analysis_on_a_machine bot top nlay cam ps H Hlay Hbt Hc Hview Hno HH He0) as (K & u0 & HK & Hu0 & Main). exists K, u0. split; [exact HK|]. split; [exact Hu0|].
  intros u m mexp avg mu N tol E1 E2 st img thr lamps strays photo files recs srt coord overflow first last skip a A places
    indices num prop minimize wc wp base eta L eps smoke cpus order Hprop Hacc Hexp Hu Hbot P r
    Hm Hi Hne Hnn Hr Hp Hs Hk Hpl Hl2 Hst Hg Hig st1 He s2 n Hn Havg Hmu HN Hph Hrec Hsrt HA Hpls Hps Hsm Hsm0 Href Heta HL -> Heps Hpix Hwc Htol Hmin Hord.
  destruct (photographs_records E1 E2 st img thr lamps strays photo files recs srt coord overflow first last skip a A places ps
    Hm Hi Hne Hnn Hr Hp Hs Hk Hpl Hl2 Hst Hg Hig He Hn Hph Hrec Hsrt HA Hpls Hps) as (t & arrays & l & areas & off & T1 & T2 & T3 & T4 & T5 & T6 & T7 & T8 & T9).
  destruct (Main u m mexp avg mu N tol arrays None arrays a l n recs t (concat places) indices num prop minimize wc wp (lamp_error prop r eta / L) smoke
    (fun k => match nth_error A (Z.to_nat k - off)%nat with Some q => lamp_light prop base r (ih img) (iw img) q | None => 0 end) cpus order) as (xs & X1 & X2 & X3); try assumption.
  - exact I.
  - intros i Hi'. destruct (T6 i Hi') as (arrays' & G1 & G2). exists fit_data, None, (photo i), r, areas, arrays', (recs i). split; [exact G1|]. split; [exact G2|reflexivity].
  - apply Rmult_le_pos; [apply lamp_error_nonneg; exact Heta|left; apply Rinv_0_lt_compat; exact HL].
  - intros i d p Hi' Hd Hda Hp'. destruct (T9 i d p Hi' Hd Hda Hp') as (j & q & Ej & J1 & J2 & J3). rewrite Ej. replace (off + j - off)%nat with j by lia. rewrite J1.
    destruct (Hpix i j q p Hi' J1 J2) as (S1 & S2 & S3). destruct (Hph i Hi') as (P1 & P2 & _). rewrite <- P1, <- P2 in *.
    destruct (C129_relative_error prop base (transmission bot top nlay cam p (smoke i)) eta L r q (photo i) d Hprop ltac:(lia) Heta HL ltac:(lra) S3 J3 S2) as (R1 & R2). split; [exact R1|]. split; [exact S1|exact R2].
  - exists t, (index_files arrays), xs. split; [exact T1|]. split; [exact T2|]. split; [exact X1|]. split; [exact X2|exact X3].
Qed.
Print Assumptions C129_from_the_pixels_non_linear.

(** *** A concrete case: the photographs of the example of C120.  The light is not a whole
    number and there is some of it everywhere; the camera rounds. *)
Definition glow (y x : Z) : R := if ((y =? 2) && ((x =? 2) || (x =? 5) || (x =? 8)))%Z%bool then 8000 + 1 / 3 else 1 / 4.

(** At least this much of it reaches the camera through the smoke of the example. *)
Definition glow_least (prop : string) : R := if (prop =? "sum_col_val")%string then 4000 else 1000.

Lemma glow_light : forall j q prop, nth_error [(2, 2); (2, 5); (2, 8)]%Z j = Some q -> known_property prop -> 2 * glow_least prop <= lamp_light prop glow 1 5 10 q.
Proof.
  intros j q prop Hq Hp.
  assert (E : lights glow 1 5 10 q = [1 / 4; 1 / 4; 1 / 4; 8000 + 1 / 3]).
  { destruct j as [|[|[|j]]]; cbn [nth_error] in Hq; [| | |destruct j; discriminate]; apply Some_inj in Hq; subst q; reflexivity. }
  unfold glow_least, lamp_light, light. rewrite E. destruct Hp as [->|[->| ->]]; cbn [String.eqb Ascii.eqb Bool.eqb fold_right List.length INR]; [lra|lra|].
  eapply Rle_trans; [|eapply Rle_trans; [|apply Rmax_r]; eapply Rle_trans; [|apply Rmax_r]; eapply Rle_trans; [|apply Rmax_r]; apply Rmax_l]. lra.
Qed.

Lemma ceil_share : forall i j p, (1 <= i <= 2)%Z -> nth_error eg_coords j = Some p ->
  transmission 0 3 3 eg_cam p (ceil_smoke i) = if (i =? 1)%Z then 1 else nth j [1; 1; 1 / 2] 0.
Proof.
  assert (H1 : exp (- ln 2) = 1 / 2) by (rewrite exp_Ropp, exp_ln by lra; lra).
  intros i j p Hi Hj. assert (Ci : (i = 1 \/ i = 2)%Z) by lia. destruct Ci as [-> | -> ]; cbn [Z.eqb Pos.eqb].
  - unfold transmission, ceil_smoke. cbn [Z.eqb Pos.eqb]. rewrite rdot_zeros, Ropp_0. apply exp_0.
  - unfold transmission. change (ceil_smoke 2) with [0; 0; ln 2].
    assert (N : nth_error (map (paths 0 3 3 eg_cam) eg_coords) j = Some (paths 0 3 3 eg_cam p)) by (rewrite nth_error_map, Hj; reflexivity). rewrite eg_paths in N.
    destruct j as [|[|[|j]]]; cbn [nth_error] in N; [| | |destruct j; discriminate N]; apply Some_inj in N; rewrite <- N; cbn [rdot nth].
    + replace (- (1 * 0 + (0 * 0 + (0 * ln 2 + 0)))) with 0 by ring. apply exp_0.
    + replace (- (1 * 0 + (1 * 0 + (0 * ln 2 + 0)))) with 0 by ring. apply exp_0.
    + replace (- (1 * 0 + (1 * 0 + (1 * ln 2 + 0)))) with (- ln 2) by ring. exact H1.
Qed.

Lemma ceil_pixels : forall prop i j q p, known_property prop -> (1 <= i <= 2)%Z -> nth_error [(2, 2); (2, 5); (2, 8)]%Z j = Some q -> nth_error eg_coords j = Some p ->
  let share := transmission 0 3 3 eg_cam p (ceil_smoke i) in
  1 / 10000000000 <= share /\ glow_least prop <= lamp_light prop glow 1 5 10 q * share /\ shows glow share (1 / 2) 1 q (ceil_photo i).
Proof.
  intros prop i j q p Hprop Hi Hq Hp share. unfold share. rewrite (ceil_share i j p Hi Hp). pose proof (glow_light j q prop Hq Hprop) as Hg.
  assert (Hl : 0 < glow_least prop) by (unfold glow_least; destruct (prop =? "sum_col_val")%string; lra).
  assert (Px : forall y x, in_square 1 5 10 q y x -> (IZR (Step1_Model.px (ceil_photo i) y x) = 0 /\ glow y x = 1 / 4) \/
    (glow y x = 8000 + 1 / 3 /\ Step1_Model.px (ceil_photo i) y x = if (i =? 1)%Z then 8000%Z else nth j [8000; 8000; 4000]%Z 0%Z)).
  { intros y x ((Y1 & Y2) & _ & (X1 & X2) & _). assert (Ci : (i = 1 \/ i = 2)%Z) by lia.
    destruct j as [|[|[|j]]]; cbn [nth_error] in Hq; [| | |destruct j; discriminate]; apply Some_inj in Hq; subst q; cbn [fst snd] in *;
      (assert (Cy : (y = 1 \/ y = 2)%Z) by lia);
      [assert (Cx : (x = 1 \/ x = 2)%Z) by lia|assert (Cx : (x = 4 \/ x = 5)%Z) by lia|assert (Cx : (x = 7 \/ x = 8)%Z) by lia];
      destruct Ci as [-> | -> ], Cy as [-> | -> ], Cx as [-> | -> ]; first [left; split; reflexivity|right; split; reflexivity]. }
  assert (Dim : ih (ceil_photo i) = 5%Z /\ iw (ceil_photo i) = 10%Z) by (unfold ceil_photo; destruct (i =? 1)%Z; split; reflexivity). destruct Dim as (D1 & D2).
  assert (Ab : forall v, - (1 / 2) <= v <= 1 / 2 -> Rabs v <= 1 / 2) by (intros v Hv; apply Rabs_le; exact Hv).
  destruct (i =? 1)%Z.
  - split; [lra|]. split; [lra|]. intros y x Hs. rewrite D1, D2 in Hs. apply Ab. destruct (Px y x Hs) as [(-> & ->)|(-> & ->)]; lra.
  - destruct j as [|[|[|j]]]; cbn [nth_error] in Hq; [| | |destruct j; discriminate]; cbn [nth] in *; (split; [lra|]); (split; [lra|]);
      intros y x Hs; rewrite D1, D2 in Hs; apply Ab; destruct (Px y x Hs) as [(-> & ->)|(-> & ->)]; lra.
Qed.

Example C129_example : exists K u0, 0 < K /\ 0 < u0 /\ forall u tol nnls lambda cpus, 0 <= u <= u0 -> 0 <= tol -> nnls_within tol nnls -> 0 <= lambda ->
  let st1 := exec_all [Step1 (wall_env []); NewProcess] (fun _ => None, None) in
  let s2 := fst (exec (Step2 (wall_env [[1; 0]%Z])) st1) in
  let q := ln (1 - relative_error (1 / 2000 + 2 * (1 / 1000000))) * ln (1 - relative_error (1 / 2000 + 2 * (1 / 1000000))) in
  forall prop, known_property prop -> exists t arrays x1 x2,
    create_table isort None ceil_files None 1 2 0 = Ok t /\ load_indices 1 None s2 = Ok arrays /\
    analyse_on (rough u) rough_mean (solve_on (rough u) (rough_log u) nnls lambda 3) 0 3 3 eg_cam eg_coords (nth_error arrays 0) t 0 prop None 1 cpus [1; 0]%nat = Ok [x1; x2] /\
    sq_dist x1 [0; 0; 0] <= K * (q + tol + u * u) /\
    sq_dist x2 [0; 0; ln 2] <= K * (q + lambda * (ln 2 * ln 2) + tol + u * u * (1 + (1 + lambda) * (ln 2 * ln 2))).
Proof.
  destruct (C129_from_the_pixels 0 3 3 eg_cam eg_coords [1; 2; 3]) as (K & u0 & HK & Hu0 & Main).
  { lia. }
  { lra. }
  { unfold within, eg_cam. cbn [pz]. lra. }
  { unfold eg_coords. repeat (constructor; [unfold in_view, within, eg_cam; cbn [pz]; split; [lra|split; [lra|intros C; exfalso; lra]]|]). constructor. }
  { unfold eg_coords. repeat (constructor; [intros C; unfold eg_cam in C; cbn [pz] in C; exfalso; lra|]). constructor. }
  { unfold eg_coords. repeat (constructor; [left; unfold eg_cam; cbn [pz]; split; [lra|reflexivity]|]). constructor. }
  { exact ceil_heights. }
  exists K, (Rmin u0 (1 / 2)). split; [exact HK|]. split; [apply Rmin_glb_lt; lra|]. intros u tol nnls lambda cpus Hu Htol Hnnls Hlam st1 s2. cbv zeta. intros prop Hprop.
  assert (Hu1 : 0 <= u <= u0) by (split; [lra|eapply Rle_trans; [apply Hu|apply Rmin_l]]). assert (Hu2 : u <= 1 / 2) by (eapply Rle_trans; [apply Hu|apply Rmin_r]).
  assert (L2 : 0 < ln 2) by (rewrite <- ln_1; apply ln_increasing; lra).
  assert (Nn : forall a b c, (0 <= a)%Z -> (0 <= b)%Z -> (0 <= c)%Z -> nonneg_image (wall a b c)).
  { intros a b c Ha Hb Hc y x _. cbn [wall Step1_Model.px]. destruct (y =? 2)%Z; [|lia]. destruct (x =? 2)%Z; [lia|]. destruct (x =? 5)%Z; [lia|]. destruct (x =? 8)%Z; lia. }
  assert (Ha : fst st1 KAreas = Some (Rows [(0, (2, 8)); (1, (2, 2)); (2, (2, 5))]%Z)) by (clear; vm_compute; reflexivity).
  assert (He : forall rows, fst st1 KAreas = Some (Rows rows) -> edges_entered rows wall_lamps [[1; 0]%Z]).
  { intros rows H. rewrite Ha in H. apply Some_inj in H. injection H as <-. apply Forall2_cons; [|apply Forall2_nil].
    exists 1%Z, 0%Z, (0, 0)%Z. split; [reflexivity|]. split; [cbn; tauto|]. split; [cbn; tauto|discriminate]. }
  assert (Hm : mml_ok scan) by apply scan_ok.
  assert (Hne : nonempty_image (wall 8000 7900 8100)) by (split; reflexivity).
  assert (Hnn : nonneg_image (wall 8000 7900 8100)) by (apply Nn; lia).
  assert (Hp : percentile (pixels (wall 8000 7900 8100)) 90 = Ok (0 # 100)) by (clear; vm_compute; reflexivity).
  assert (Two : Forall (fun A : list loc => (2 <= List.length A)%nat) wall_lamps) by (apply Forall_cons; [cbn; lia|apply Forall_nil]).
  pose proof (C102_extraction (wall_env []) (wall_env [[1; 0]%Z]) (fun _ => None, None) (wall 8000 7900 8100) (0 # 100) wall_lamps [] Hm eq_refl Hne Hnn ltac:(cbn; lia) Hp wall_spots
    ltac:(cbn; lia) (fun _ => conj eq_refl eq_refl) ltac:(discriminate) Two wall_straight eq_refl eq_refl He) as T. cbv zeta in T. destruct T as (_ & _ & X1 & X2 & _).
  fold st1 in X1, X2. fold s2 in X1, X2.
  assert (Gen : forall i, generate_analysis_data None (ceil_photo i) 1 (concat (Extract_Props.blocks 0 wall_lamps)) [[2; 1; 0]%Z] 0 = Ok (ceil_recs i)).
  { intros i. unfold ceil_recs. unfold ceil_photo. clear. destruct (i =? 1)%Z; vm_compute; reflexivity. }
  destruct (Main u (rough u) (rough_log u) rough_mean (1 / 1000000) 2%nat tol (wall_env []) (wall_env [[1; 0]%Z]) (fun _ => None, None) (wall 8000 7900 8100) (0 # 100) wall_lamps []
    ceil_photo ceil_files ceil_recs isort None None 1%Z 2%Z 0%Z 0%nat [(2, 2); (2, 5); (2, 8)]%Z [eg_coords] None 1%Z prop nnls lambda glow (1 / 2) (glow_least prop) (1 / 2000) ceil_smoke cpus [1; 0]%nat)
    as (t & arrays & xs & T1 & T2 & T3 & T4 & T5).
  - exact Hprop.
  - apply rough_accurate. lra.
  - apply rough_log_accurate. lra.
  - exact Hu1.
  - cbn [rnd rough]. unfold upwards. ring.
  - exact Hm.
  - reflexivity.
  - exact Hne.
  - apply Nn; lia.
  - cbn. lia.
  - exact Hp.
  - exact wall_spots.
  - cbn. lia.
  - intros rows. split; reflexivity.
  - exact Two.
  - exact wall_straight.
  - reflexivity.
  - reflexivity.
  - exact He.
  - change (1 <= 2)%Z. lia.
  - exact rough_mean_accurate.
  - lra.
  - change (2 <= Z.of_nat 2)%Z. lia.
  - intros i _. unfold ceil_photo. destruct (i =? 1)%Z; (split; [reflexivity|]); (split; [reflexivity|]); apply Nn; lia.
  - intros i areas arrays _ La Li. fold st1 in La, Li. fold s2 in La, Li. cbv zeta in La, Li. rewrite X1 in La. apply Ok_inj in La. subst areas.
    rewrite X2 in Li. apply Ok_inj in Li. subst arrays. split; [exact (Gen i)|]. split; [|exact I]. do 4 eexists. reflexivity.
  - exact isort_sorts.
  - reflexivity.
  - reflexivity.
  - reflexivity.
  - intros i Hi. unfold ceil_smoke. destruct (i =? 1)%Z.
    + split; [reflexivity|apply zeros_nonneg].
    + split; [reflexivity|]. unfold nonneg. repeat (constructor; [lra|]). constructor.
  - intros i Hi Hr. cbn [is_reference] in Hr. assert (i = 1)%Z by (change (1 <= i <= 2)%Z in Hi; lia). subst i. reflexivity.
  - exists 1%Z. split; [change (1 <= 1 <= 2)%Z; lia|]. cbn. lia.
  - lra.
  - unfold glow_least. destruct (prop =? "sum_col_val")%string; lra.
  - cbn [e_radius wall_env]. unfold lamp_error, glow_least. destruct (prop =? "sum_col_val")%string; lra.
  - unfold table_error. lra.
  - intros i j q p. apply ceil_pixels. exact Hprop.
  - exact Hlam.
  - exact Htol.
  - exact Hnnls.
  - apply perm_swap.
  - fold st1 in T2. fold s2 in T2. change (Z.to_nat (number_of_images None 1 2 0)) with 2%nat in T4.
    destruct xs as [|x1 [|x2 [|x3 xs]]]; try discriminate T4. exists t, arrays, x1, x2. split; [exact T1|]. split; [exact T2|]. split; [exact T3|].
    pose proof (T5 1%Z x1 ltac:(change (1 <= 1 <= 2)%Z; lia) eq_refl) as Y1. pose proof (T5 2%Z x2 ltac:(change (1 <= 2 <= 2)%Z; lia) eq_refl) as Y2.
    change (ceil_smoke 1) with [0; 0; 0] in Y1. change (ceil_smoke 2) with [0; 0; ln 2] in Y2.
    unfold penalty in Y1, Y2. cbn [List.length Nat.leb roughness sq_norm] in Y1, Y2. set (w := ln (1 - relative_error (1 / 2000 + 2 * (1 / 1000000))) * ln (1 - relative_error (1 / 2000 + 2 * (1 / 1000000)))) in *.
    split; (eapply Rle_trans; [eassumption|]); (apply Rmult_le_compat_l; [lra|]); right; ring.
Qed.

(** The same with the non-linear solver. *)
Example C129_non_linear_example : exists K u0, 0 < K /\ 0 < u0 /\ forall u tol minimize wc wp cpus, 0 <= u <= u0 -> 0 < tol -> minimize_within tol minimize -> 0 <= wc ->
  let st1 := exec_all [Step1 (wall_env []); NewProcess] (fun _ => None, None) in
  let s2 := fst (exec (Step2 (wall_env [[1; 0]%Z])) st1) in
  forall prop, known_property prop -> exists t arrays x1 x2,
    create_table isort None ceil_files None 1 2 0 = Ok t /\ load_indices 1 None s2 = Ok arrays /\
    analyse_on (rough u) rough_mean (nonlinear_on (rough u) (rough_exp u) minimize wc wp 3) 0 3 3 eg_cam eg_coords (nth_error arrays 0) t 0 prop None 1 cpus [1; 0]%nat = Ok [x1; x2] /\
    sqrt (sq_dist x1 [0; 0; 0]) <= K * (relative_error (1 / 2000 + 2 * (1 / 1000000)) + Rabs wp + tol + (1 + wc + Rabs wp) * u) /\
    sqrt (sq_dist x2 [0; 0; ln 2]) <= K * (relative_error (1 / 2000 + 2 * (1 / 1000000)) + wc * ln 2 + Rabs wp + tol + (1 + wc + Rabs wp) * u).
Proof.
  destruct (C129_from_the_pixels_non_linear 0 3 3 eg_cam eg_coords [1; 2; 3]) as (K & u0 & HK & Hu0 & Main).
  { lia. }
  { lra. }
  { unfold within, eg_cam. cbn [pz]. lra. }
  { unfold eg_coords. repeat (constructor; [unfold in_view, within, eg_cam; cbn [pz]; split; [lra|split; [lra|intros C; exfalso; lra]]|]). constructor. }
  { unfold eg_coords. repeat (constructor; [intros C; unfold eg_cam in C; cbn [pz] in C; exfalso; lra|]). constructor. }
  { unfold eg_coords. repeat (constructor; [left; unfold eg_cam; cbn [pz]; split; [lra|reflexivity]|]). constructor. }
  { exact ceil_heights. }
  exists K, (Rmin u0 (1 / 2)). split; [exact HK|]. split; [apply Rmin_glb_lt; lra|]. intros u tol minimize wc wp cpus Hu Htol Hmin Hwc st1 s2. cbv zeta. intros prop Hprop.
  assert (Hu1 : 0 <= u <= u0) by (split; [lra|eapply Rle_trans; [apply Hu|apply Rmin_l]]). assert (Hu2 : u <= 1 / 2) by (eapply Rle_trans; [apply Hu|apply Rmin_r]).
  assert (L2 : 0 < ln 2 < 1) by exact ln_2_range.
  assert (Nn : forall a b c, (0 <= a)%Z -> (0 <= b)%Z -> (0 <= c)%Z -> nonneg_image (wall a b c)).
  { intros a b c Ha Hb Hc y x _. cbn [wall Step1_Model.px]. destruct (y =? 2)%Z; [|lia]. destruct (x =? 2)%Z; [lia|]. destruct (x =? 5)%Z; [lia|]. destruct (x =? 8)%Z; lia. }
  assert (Ha : fst st1 KAreas = Some (Rows [(0, (2, 8)); (1, (2, 2)); (2, (2, 5))]%Z)) by (clear; vm_compute; reflexivity).
  assert (He : forall rows, fst st1 KAreas = Some (Rows rows) -> edges_entered rows wall_lamps [[1; 0]%Z]).
  { intros rows H. rewrite Ha in H. apply Some_inj in H. injection H as <-. apply Forall2_cons; [|apply Forall2_nil].
    exists 1%Z, 0%Z, (0, 0)%Z. split; [reflexivity|]. split; [cbn; tauto|]. split; [cbn; tauto|discriminate]. }
  assert (Hm : mml_ok scan) by apply scan_ok.
  assert (Hne : nonempty_image (wall 8000 7900 8100)) by (split; reflexivity).
  assert (Hnn : nonneg_image (wall 8000 7900 8100)) by (apply Nn; lia).
  assert (Hp : percentile (pixels (wall 8000 7900 8100)) 90 = Ok (0 # 100)) by (clear; vm_compute; reflexivity).
  assert (Two : Forall (fun A : list loc => (2 <= List.length A)%nat) wall_lamps) by (apply Forall_cons; [cbn; lia|apply Forall_nil]).
  pose proof (C102_extraction (wall_env []) (wall_env [[1; 0]%Z]) (fun _ => None, None) (wall 8000 7900 8100) (0 # 100) wall_lamps [] Hm eq_refl Hne Hnn ltac:(cbn; lia) Hp wall_spots
    ltac:(cbn; lia) (fun _ => conj eq_refl eq_refl) ltac:(discriminate) Two wall_straight eq_refl eq_refl He) as T. cbv zeta in T. destruct T as (_ & _ & X1 & X2 & _).
  fold st1 in X1, X2. fold s2 in X1, X2.
  assert (Gen : forall i, generate_analysis_data None (ceil_photo i) 1 (concat (Extract_Props.blocks 0 wall_lamps)) [[2; 1; 0]%Z] 0 = Ok (ceil_recs i)).
  { intros i. unfold ceil_recs. unfold ceil_photo. clear. destruct (i =? 1)%Z; vm_compute; reflexivity. }
  destruct (Main u (rough u) (rough_exp u) rough_mean (1 / 1000000) 2%nat tol (wall_env []) (wall_env [[1; 0]%Z]) (fun _ => None, None) (wall 8000 7900 8100) (0 # 100) wall_lamps []
    ceil_photo ceil_files ceil_recs isort None None 1%Z 2%Z 0%Z 0%nat [(2, 2); (2, 5); (2, 8)]%Z [eg_coords] None 1%Z prop minimize wc wp glow (1 / 2) (glow_least prop) (1 / 2000) ceil_smoke cpus [1; 0]%nat)
    as (t & arrays & xs & T1 & T2 & T3 & T4 & T5).
  - exact Hprop.
  - apply rough_accurate. lra.
  - apply rough_exp_accurate. lra.
  - exact Hu1.
  - cbn [rnd rough]. unfold upwards. ring.
  - exact Hm.
  - reflexivity.
  - exact Hne.
  - apply Nn; lia.
  - cbn. lia.
  - exact Hp.
  - exact wall_spots.
  - cbn. lia.
  - intros rows. split; reflexivity.
  - exact Two.
  - exact wall_straight.
  - reflexivity.
  - reflexivity.
  - exact He.
  - change (1 <= 2)%Z. lia.
  - exact rough_mean_accurate.
  - lra.
  - change (2 <= Z.of_nat 2)%Z. lia.
  - intros i _. unfold ceil_photo. destruct (i =? 1)%Z; (split; [reflexivity|]); (split; [reflexivity|]); apply Nn; lia.
  - intros i areas arrays _ La Li. fold st1 in La, Li. fold s2 in La, Li. cbv zeta in La, Li. rewrite X1 in La. apply Ok_inj in La. subst areas.
    rewrite X2 in Li. apply Ok_inj in Li. subst arrays. split; [exact (Gen i)|]. split; [|exact I]. do 4 eexists. reflexivity.
  - exact isort_sorts.
  - reflexivity.
  - reflexivity.
  - reflexivity.
  - intros i Hi. unfold ceil_smoke. destruct (i =? 1)%Z.
    + split; [reflexivity|]. cbn [repeat]. unfold in_bounds. repeat (constructor; [lra|]). constructor.
    + split; [reflexivity|]. unfold in_bounds. repeat (constructor; [lra|]). constructor.
  - intros i Hi Hr. cbn [is_reference] in Hr. assert (i = 1)%Z by (change (1 <= i <= 2)%Z in Hi; lia). subst i. reflexivity.
  - exists 1%Z. split; [change (1 <= 1 <= 2)%Z; lia|]. cbn. lia.
  - lra.
  - unfold glow_least. destruct (prop =? "sum_col_val")%string; lra.
  - cbn [e_radius wall_env]. unfold lamp_error, glow_least. destruct (prop =? "sum_col_val")%string; lra.
  - unfold table_error. lra.
  - intros i j q p. apply ceil_pixels. exact Hprop.
  - exact Hwc.
  - exact Htol.
  - exact Hmin.
  - apply perm_swap.
  - fold st1 in T2. fold s2 in T2. change (Z.to_nat (number_of_images None 1 2 0)) with 2%nat in T4.
    destruct xs as [|x1 [|x2 [|x3 xs]]]; try discriminate T4. exists t, arrays, x1, x2. split; [exact T1|]. split; [exact T2|]. split; [exact T3|].
    destruct (T5 1%Z x1 ltac:(change (1 <= 1 <= 2)%Z; lia) eq_refl) as (_ & Y1). destruct (T5 2%Z x2 ltac:(change (1 <= 2 <= 2)%Z; lia) eq_refl) as (_ & Y2).
    change (ceil_smoke 1) with [0; 0; 0] in Y1. change (ceil_smoke 2) with [0; 0; ln 2] in Y2. cbn [bend] in Y1, Y2.
    replace (0 - 2 * 0 + 0) with 0 in Y1 by ring. rewrite Rabs_R0 in Y1. replace (0 - 2 * 0 + ln 2) with (ln 2) in Y2 by ring. rewrite (Rabs_pos_eq (ln 2)) in Y2 by lra.
    split; (eapply Rle_trans; [eassumption|]); (apply Rmult_le_compat_l; [lra|]); right; ring.
Qed.
