(** C133: what does not matter to the analysis: the brightness of the single LEDs, the choice
    between sum and mean, and the coordinate system. *)
From Coq Require Import ZArith QArith Qreals Lia Bool String List Permutation Sorted Reals Lra.
From Verif Require Import Base Step2_Model Step3_Model Table_Model Table_Spec Table_Props Analysis_Model Analysis_Props Layers_Model Layers_Spec Layers_Props Solver_Model Solver_Props Stable_Props Nnls_Props End_Model End_Props
  NonLinear_Fail.
Import ListNotations.

(** ** Specification *)

(** The second value is [q] times the first one; missing values stay missing. *)
Definition times (q : Q) (v v' : cell) : Prop :=
  match v, v' with Some x, Some x' => (x' == q * x)%Q | None, None => True | _, _ => False end.

(** The same measurement with an LED that shines [c] times as bright. *)
Definition brighter (c : Z -> Q) (e e' : entry) : Prop :=
  e_img e' = e_img e /\ e_led e' = e_led e /\ times (c (e_led e)) (e_val e) (e_val e').

(** The coordinate system is moved, turned or mirrored, but the vertical stays vertical: horizontal
    distances stay the same and all heights change by [dz]. *)
Definition moves (f : point -> point) (dz : R) : Prop :=
  (forall p q, Rsqr (px (f p) - px (f q)) + Rsqr (py (f p) - py (f q)) = Rsqr (px p - px q) + Rsqr (py p - py q))%R /\
  (forall p, pz (f p) = pz p + dz)%R.

(** ** Brightness *)
Local Open Scope Z_scope.

(** Equal quotients. *)
Definition same_quot (a b : quot) : Prop :=
  match a, b with Fin p, Fin q => (p == q)%Q | Inf x, Inf y => x = y | NaN, NaN => True | _, _ => False end.

(** Values of the LEDs [l], the second ones brighter. *)
Inductive col (c : Z -> Q) : list Z -> list cell -> list cell -> Prop :=
| col_nil : col c [] [] []
| col_cons : forall k l v v' vs vs', times (c k) v v' -> col c l vs vs' -> col c (k :: l) (v :: vs) (v' :: vs').

Lemma col_length : forall c l vs vs', col c l vs vs' -> List.length vs = List.length l /\ List.length vs' = List.length l.
Proof. intros c l vs vs' H. induction H as [|k l v v' vs vs' T C (I1 & I2)]; cbn [List.length]; split; congruence. Qed.

Lemma filter_brighter : forall c (f : entry -> bool) es es', (forall e e', e_img e' = e_img e -> e_led e' = e_led e -> f e' = f e) ->
  Forall2 (brighter c) es es' -> Forall2 (brighter c) (filter f es) (filter f es').
Proof.
  intros c f es es' Hf H. induction H as [|e e' es es' B F IH]; [constructor|]. cbn [filter]. destruct B as (B1 & B2 & B3). rewrite (Hf e e' B1 B2).
  destruct (f e); [constructor; [repeat split; assumption|exact IH]|exact IH].
Qed.

Lemma brighter_leds : forall c es es', Forall2 (brighter c) es es' -> map e_led es' = map e_led es.
Proof. intros c es es' H. induction H as [|e e' es es' (B1 & B2 & B3) F IH]; [reflexivity|]. cbn [map]. congruence. Qed.

Lemma brighter_col : forall c es es', Forall2 (brighter c) es es' -> col c (map e_led es) (map e_val es) (map e_val es').
Proof. intros c es es' H. induction H as [|e e' es es' (B1 & B2 & B3) F IH]; [constructor|]. cbn [map]. constructor; assumption. Qed.

Lemma mean_times : forall q vs vs', Forall2 (times q) vs vs' -> times q (mean vs) (mean vs').
Proof.
  intros q vs vs' H.
  assert (N : List.length (numbers vs') = List.length (numbers vs) /\ (qsum (numbers vs') == q * qsum (numbers vs))%Q).
  { induction H as [|v v' vs vs' T F (I1 & I2)]; [split; [reflexivity|cbn [numbers flat_map qsum fold_right]; ring]|].
    unfold numbers in *. cbn [flat_map]. destruct v as [x|], v' as [x'|]; cbn [times] in T; try contradiction; [|split; [exact I1|exact I2]].
    cbn [app List.length]. split; [f_equal; exact I1|]. cbn [qsum fold_right]. fold (qsum (flat_map (fun v => match v with Some q => [q] | None => [] end) vs)).
    fold (qsum (flat_map (fun v => match v with Some q => [q] | None => [] end) vs')). rewrite I2, T. ring. }
  destruct N as (N1 & N2). unfold mean. destruct (numbers vs) as [|x xs] eqn:E, (numbers vs') as [|x' xs'] eqn:E'; cbn [List.length] in N1; try discriminate; [exact I|].
  cbn [times]. rewrite N2. cbn [List.length]. injection N1 as N1. rewrite N1. unfold Qdiv. ring.
Qed.

Lemma div_times : forall q v v' m m', (0 < q)%Q -> times q v v' -> times q m m' -> same_quot (cell_div v m) (cell_div v' m').
Proof.
  intros q v v' m m' Hq Hv Hm. destruct v as [v|], v' as [v'|]; cbn [times] in Hv; try contradiction; [|destruct m, m'; exact I].
  destruct m as [m|], m' as [m'|]; cbn [times] in Hm; try contradiction; [|exact I]. cbn [cell_div].
  assert (Z : forall x x', (x' == q * x)%Q -> Qeq_bool x' 0 = Qeq_bool x 0).
  { intros x x' E. destruct (Qeq_bool x 0) eqn:B.
    - apply Qeq_bool_iff in B. apply Qeq_bool_iff. rewrite E, B. ring.
    - apply not_true_iff_false. intros C. apply Qeq_bool_iff in C. apply not_true_iff_false in B. apply B. apply Qeq_bool_iff.
      rewrite E in C. apply Qmult_integral in C. destruct C as [C|C]; [rewrite C in Hq; discriminate|exact C]. }
  rewrite (Z m m' Hm), (Z v v' Hv). destruct (Qeq_bool m 0) eqn:Bm.
  - destruct (Qeq_bool v 0) eqn:Bv; [exact I|]. cbn [same_quot].
    destruct (Qle_bool 0 v) eqn:L; symmetry.
    + apply Qle_bool_iff in L. apply Qle_bool_iff. rewrite Hv. apply Qmult_le_0_compat; [apply Qlt_le_weak; exact Hq|exact L].
    + apply not_true_iff_false. intros C. apply Qle_bool_iff in C. apply not_true_iff_false in L. apply L. apply Qle_bool_iff. rewrite Hv in C.
      apply (Qmult_le_l _ _ q Hq). rewrite Qmult_0_r. exact C.
  - cbn [same_quot]. rewrite Hv, Hm. apply not_true_iff_false in Bm. field. split; [intros C; apply Bm; apply Qeq_bool_iff; exact C|intros C; rewrite C in Hq; discriminate].
Qed.

Lemma np_div_times : forall c l vs vs' ms ms', (forall k, (0 < c k)%Q) -> col c l vs vs' -> col c l ms ms' ->
  exists r r', np_div vs ms = Ok r /\ np_div vs' ms' = Ok r' /\ Forall2 same_quot r r'.
Proof.
  intros c l vs vs' ms ms' Hc Hv Hm. destruct (col_length _ _ _ _ Hv) as (L1 & L2). destruct (col_length _ _ _ _ Hm) as (L3 & L4).
  exists (map (fun p => cell_div (fst p) (snd p)) (combine vs ms)), (map (fun p => cell_div (fst p) (snd p)) (combine vs' ms')).
  unfold np_div. rewrite L1, L2, L3, L4, Nat.eqb_refl. split; [reflexivity|]. split; [reflexivity|]. clear L1 L2 L3 L4.
  revert ms ms' Hm. induction Hv as [|k l v v' vs vs' T C IH]; intros ms ms' Hm; inversion Hm as [|? ? m m' ns ns' T' C']; subst; [constructor|].
  cbn [combine map]. constructor; [apply (div_times (c k)); [apply Hc|exact T|exact T']|apply IH; exact C'].
Qed.

Lemma references_col : forall c ref ref', Forall2 (brighter c) ref ref' ->
  col c (keys (map e_led ref)) (map snd (ref_values mean ref)) (map snd (ref_values mean ref')).
Proof.
  intros c ref ref' H. unfold ref_values, groups. rewrite (brighter_leds _ _ _ H), !map_map. cbn [snd]. generalize (keys (map e_led ref)). intros ks.
  induction ks as [|k ks IH]; [constructor|]. cbn [map]. constructor; [|exact IH]. apply mean_times.
  assert (F : Forall2 (brighter c) (filter (fun e => e_led e =? k) ref) (filter (fun e => e_led e =? k) ref')).
  { apply filter_brighter; [|exact H]. intros e e' _ E. rewrite E. reflexivity. }
  assert (Al : Forall (fun e => e_led e = k) (filter (fun e => e_led e =? k) ref)) by (apply Forall_forall; intros e He; apply filter_In in He; apply Z.eqb_eq, He).
  induction F as [|e e' es es' (B1 & B2 & B3) F IHF]; [constructor|]. inversion Al as [|? ? A1 A2]; subst. cbn [map]. constructor; [exact B3|apply IHF; exact A2].
Qed.

Lemma reference_leds : forall es m l indices num, StronglySorted Z.lt l -> complete es m l -> (exists i, 1 <= i <= m /\ is_reference indices num i) ->
  keys (map e_led (reference_entries indices num es)) = l.
Proof.
  intros es m l indices num Srt Cmp (i0 & Hi0 & Hr0). apply sorted_lt_ext; [apply keys_sorted|exact Srt|]. intros x. rewrite in_keys, in_map_iff. split.
  - intros (e & <- & He). unfold reference_entries in He. apply filter_In in He. destruct He as (He & _). rewrite <- (proj2 Cmp (e_img e) (proj1 Cmp e He)).
    apply in_map. apply filter_In. split; [exact He|apply Z.eqb_refl].
  - intros Hx. rewrite <- (proj2 Cmp i0 Hi0) in Hx. apply in_map_iff in Hx. destruct Hx as (e & <- & He). apply filter_In in He. destruct He as (He1 & He2). apply Z.eqb_eq in He2.
    exists e. split; [reflexivity|]. unfold reference_entries. apply filter_In. split; [exact He1|]. rewrite He2. unfold is_reference in Hr0.
    destruct indices as [is|]; [apply existsb_exists; exists i0; split; [exact Hr0|apply Z.eqb_refl]|apply Z.leb_le; exact Hr0].
Qed.

(** The solver sees the quotients only. *)
Definition by_quotients (solve : option vec -> list quot -> res vec) : Prop :=
  forall last rel rel', Forall2 same_quot rel rel' -> solve last rel = solve last rel'.

Lemma coefficients_same : forall c solve es es' indices num cpus order m l, (forall k, (0 < c k)%Q) -> by_quotients solve ->
  1 <= m -> l <> [] -> StronglySorted Z.lt l -> complete es m l -> (exists i, 1 <= i <= m /\ is_reference indices num i) -> Forall2 (brighter c) es es' ->
  let ms := map snd (ref_values mean (reference_entries indices num es)) in
  let ms' := map snd (ref_values mean (reference_entries indices num es')) in
  (if 1 <? cpus then parallel solve order es ms else serial solve es ms) = (if 1 <? cpus then parallel solve order es' ms' else serial solve es' ms').
Proof.
  intros c solve es es' indices num cpus order m l Hc Hs Hm Hl Srt Cmp Href H ms ms'.
  pose proof (sorted_lt_NoDup l Srt) as Nd.
  assert (Fi : forall i, Forall2 (brighter c) (filter (fun e => e_img e =? i) es) (filter (fun e => e_img e =? i) es')).
  { intros i. apply filter_brighter; [|exact H]. intros e e' E _. rewrite E. reflexivity. }
  assert (Cmp' : complete es' m l).
  { split.
    - intros e' He'. clear - H He' Cmp. destruct Cmp as (Cmp & _). induction H as [|e e0 es es0 (B1 & B2 & B3) F IH]; [destruct He'|]. destruct He' as [<-|He'].
      + rewrite B1. apply Cmp. left. reflexivity.
      + apply IH; [|exact He']. intros x Hx. apply Cmp. right. exact Hx.
    - intros i Hi. rewrite (brighter_leds _ _ _ (Fi i)). apply (proj2 Cmp i Hi). }
  assert (Cm : col c l ms ms').
  { assert (Hr : Forall2 (brighter c) (reference_entries indices num es) (reference_entries indices num es')).
    { unfold reference_entries. apply filter_brighter; [|exact H]. intros e e' E _. rewrite E. reflexivity. }
    pose proof (references_col c _ _ Hr) as X. rewrite (reference_leds es m l indices num Srt Cmp Href) in X. exact X. }
  assert (D : forall i, 1 <= i <= m -> exists r r', np_div (map e_val (filter (fun e => e_img e =? i) es)) ms = Ok r /\
     np_div (map e_val (filter (fun e => e_img e =? i) es')) ms' = Ok r' /\ Forall2 same_quot r r').
  { intros i Hi. apply (np_div_times c l); [exact Hc| |exact Cm]. rewrite <- (proj2 Cmp i Hi). apply brighter_col. apply Fi. }
  assert (Rng : forall i, In i (zrange 1 (m + 1)) -> 1 <= i <= m) by (intros i Hi; apply in_zrange in Hi; lia).
  revert Rng. destruct (1 <? cpus); intros Rng.
  - unfold parallel. rewrite (complete_array es m l Hm Hl Nd Cmp), (complete_array es' m l Hm Hl Nd Cmp'). cbn [bind].
    assert (P : exists rels rels', mapM (fun vs => np_div vs ms) (map (fun i => map e_val (filter (fun e => e_img e =? i) es)) (zrange 1 (m + 1))) = Ok rels /\
      mapM (fun vs => np_div vs ms') (map (fun i => map e_val (filter (fun e => e_img e =? i) es')) (zrange 1 (m + 1))) = Ok rels' /\ Forall2 (Forall2 same_quot) rels rels').
    { revert Rng. generalize (zrange 1 (m + 1)). intros is Rng. induction is as [|i is IH]; [exists [], []; repeat split; constructor|].
      destruct (D i (Rng i (or_introl eq_refl))) as (r & r' & D1 & D2 & D3). destruct (IH (fun j Hj => Rng j (or_intror Hj))) as (rs & rs' & I1 & I2 & I3).
      exists (r :: rs), (r' :: rs'). cbn [map mapM]. rewrite D1, D2. cbn [bind]. rewrite I1, I2. cbn [bind]. repeat split. constructor; assumption. }
    destruct P as (rels & rels' & P1 & P2 & P3). rewrite P1, P2. cbn [bind]. unfold pool_map. rewrite (Forall2_len _ _ _ P3).
    assert (E : flat_map (fun k => match nth_error rels k with Some a => [(k, solve None a)] | None => [] end) order =
                flat_map (fun k => match nth_error rels' k with Some a => [(k, solve None a)] | None => [] end) order); [|rewrite E; reflexivity].
    clear - P3 Hs. induction order as [|k order IH]; [reflexivity|]. cbn [flat_map]. rewrite IH. f_equal. clear IH. revert k. induction P3 as [|r r' rs rs' F P IH]; intros [|k]; cbn [nth_error]; try reflexivity.
    + rewrite (Hs None r r' F). reflexivity.
    + specialize (IH k). destruct (nth_error rs k), (nth_error rs' k); try discriminate; [|reflexivity]. injection IH as IH. rewrite IH. reflexivity.
  - unfold serial. rewrite (complete_groups es m l Hm Hl Cmp), (complete_groups es' m l Hm Hl Cmp'). revert Rng. generalize (zrange 1 (m + 1)) (@None vec). intros is.
    induction is as [|i is IH]; intros last Rng; [reflexivity|]. cbn [map serial_loop].
    destruct (D i (Rng i (or_introl eq_refl))) as (r & r' & D1 & D2 & D3). rewrite D1, D2. cbn [bind]. rewrite (Hs last r r' D3). destruct (solve last r') as [s|]; [|reflexivity]. cbn [bind].
    rewrite (IH (Some s) (fun j Hj => Rng j (or_intror Hj))). reflexivity.
Qed.

Lemma linear_by_quotients : forall nnls lambda n A, by_quotients (solve_linear nnls lambda n A).
Proof.
  intros nnls lambda n A last rel rel' H. unfold solve_linear. assert (E : map rel_R rel = map rel_R rel'); [|rewrite E; reflexivity].
  induction H as [|a b rel rel' S0 F IH]; [reflexivity|]. cbn [map]. rewrite IH. f_equal. destruct a, b; cbn [same_quot] in S0; try contradiction; cbn [rel_R]; try reflexivity.
  - f_equal. apply Qeq_eqR. exact S0.
  - rewrite S0. reflexivity.
Qed.

Lemma nonlinear_by_quotients : forall minimize wc wp n A, by_quotients (solve_nonlinear minimize wc wp n A).
Proof.
  intros minimize wc wp n A last rel rel' H. assert (E : map number rel = map number rel').
  { induction H as [|a b rel rel' S0 F IH]; [reflexivity|]. cbn [map]. rewrite IH. f_equal. destruct a, b; cbn [same_quot] in S0; try contradiction; cbn [number]; try reflexivity.
    f_equal. apply Qeq_eqR. exact S0. }
  unfold solve_nonlinear, cost_seen. rewrite E, (Forall2_len _ _ _ H). reflexivity.
Qed.

(** How bright the single LEDs are does not matter to the coefficients, as long as every LED keeps its
    brightness; the table has the same LEDs in all images, which are numbered from 1. *)
Theorem C133_brightness_does_not_matter : forall c t t' a prop prop' es es' indices num m l bot top n cam coords file cpus order,
  (forall k, (0 < c k)%Q) -> load_img_data t a prop = Ok es -> load_img_data t' a prop' = Ok es' -> Forall2 (brighter c) es es' ->
  1 <= m -> l <> [] -> StronglySorted Z.lt l -> complete es m l -> (exists i, 1 <= i <= m /\ is_reference indices num i) ->
  (forall nnls lambda, analyse_array nnls lambda bot top n cam coords file t' a prop' indices num cpus order =
                       analyse_array nnls lambda bot top n cam coords file t a prop indices num cpus order) /\
  (forall minimize wc wp, analyse_nonlinear minimize wc wp bot top n cam coords file t' a prop' indices num cpus order =
                          analyse_nonlinear minimize wc wp bot top n cam coords file t a prop indices num cpus order).
Proof.
  intros c t t' a prop prop' es es' indices num m l bot top n cam coords file cpus order Hc H1 H2 HB Hm Hl Srt Cmp Href.
  assert (G : forall solve, (forall A, by_quotients (solve A)) ->
    analyse_with solve bot top n cam coords file t' a prop' indices num cpus order = analyse_with solve bot top n cam coords file t a prop indices num cpus order).
  { intros solve Hs. unfold analyse_with, analyse_by, analyse_avg. destruct (experiment_leds coords file) as [leds|]; [|reflexivity]. cbn [bind].
    destruct (distance_array (fun p => matrix_row (traversed_distances (layers bot top n) cam p)) leds) as [A|]; [|reflexivity]. cbn [bind]. rewrite H1, H2. cbn [bind]. cbv zeta.
    symmetry. exact (coefficients_same c (solve A) es es' indices num cpus order m l Hc (Hs A) Hm Hl Srt Cmp Href HB). }
  split; intros; apply G; intros A; [apply linear_by_quotients|apply nonlinear_by_quotients].
Qed.
Print Assumptions C133_brightness_does_not_matter.

(** ** Sum and mean *)

Lemma col_index_in : forall name cs, In name cs -> exists j, col_index name cs = Some j.
Proof.
  intros name cs. induction cs as [|x cs IH]; intros H; [destruct H|]. cbn [col_index]. destruct (String.eqb_spec x name) as [E|E]; [exists 0%nat; reflexivity|].
  destruct H as [H|H]; [contradiction|]. destruct (IH H) as (j & ->). exists (S j). reflexivity.
Qed.

(** So sum and mean give the same coefficients, if the table holds them exactly: [size k] is the
    number of pixels measured for the LED [k]. *)
Theorem C133_sum_and_mean : forall t a size es indices num m l bot top n cam coords file cpus order,
  (forall k, 0 < size k) -> In "mean_col_val"%string (cols t) ->
  (forall row, In row (rows t) -> has_array (cols t) a row = true ->
     exists k s q, get (cols t) row "led_id" = Some (Some k) /\ get (cols t) row "sum_col_val" = Some (Some s) /\ get (cols t) row "mean_col_val" = Some (Some q) /\
       (q * inject_Z (size (Qtrunc k)) == s)%Q) ->
  load_img_data t a "sum_col_val" = Ok es ->
  1 <= m -> l <> [] -> StronglySorted Z.lt l -> complete es m l -> (exists i, 1 <= i <= m /\ is_reference indices num i) ->
  (forall nnls lambda, analyse_array nnls lambda bot top n cam coords file t a "mean_col_val" indices num cpus order =
                       analyse_array nnls lambda bot top n cam coords file t a "sum_col_val" indices num cpus order) /\
  (forall minimize wc wp, analyse_nonlinear minimize wc wp bot top n cam coords file t a "mean_col_val" indices num cpus order =
                          analyse_nonlinear minimize wc wp bot top n cam coords file t a "sum_col_val" indices num cpus order).
Proof.
  intros t a size es indices num m l bot top n cam coords file cpus order Hsz Hcol Hrow Hl0 Hm Hl Srt Cmp Href.
  set (c := fun k => / inject_Z (size k)).
  assert (Hc : forall k, (0 < c k)%Q) by (intros k; unfold c; apply Qinv_lt_0_compat; change 0%Q with (inject_Z 0); rewrite <- Zlt_Qlt; apply Hsz).
  assert (X : exists es', load_img_data t a "mean_col_val" = Ok es' /\ Forall2 (brighter c) es es').
  { unfold load_img_data in *. destruct (col_index "led_array_id" (cols t)) as [j|]; [|discriminate].
    destruct (col_index "sum_col_val" (cols t)) as [j1|]; [|discriminate].
    assert (Cm : exists j2, col_index "mean_col_val" (cols t) = Some j2) by (apply col_index_in; exact Hcol). destruct Cm as (j2 & ->).
    destruct (mapM (entry_of (cols t) "sum_col_val") (filter (has_array (cols t) a) (rows t))) as [fs|] eqn:E; [|discriminate]. cbn [bind] in Hl0.
    assert (fs = es /\ fs <> []) as (-> & Hne) by (destruct fs; [discriminate|apply Ok_inj in Hl0; split; [exact Hl0|discriminate]]).
    assert (Y : exists es', mapM (entry_of (cols t) "mean_col_val") (filter (has_array (cols t) a) (rows t)) = Ok es' /\ Forall2 (brighter c) es es').
    { assert (Rw : forall row, In row (filter (has_array (cols t) a) (rows t)) -> exists k s q, get (cols t) row "led_id" = Some (Some k) /\ get (cols t) row "sum_col_val" = Some (Some s) /\
        get (cols t) row "mean_col_val" = Some (Some q) /\ (q * inject_Z (size (Qtrunc k)) == s)%Q) by (intros row Hr; apply filter_In in Hr; apply Hrow; apply Hr).
      clear - E Rw Hsz. revert es E Rw. generalize (filter (has_array (cols t) a) (rows t)). intros rs. induction rs as [|row rs IH]; intros es E Rw.
      - cbn [mapM] in *. apply Ok_inj in E. subst es. exists []. split; [reflexivity|constructor].
      - cbn [mapM] in *. destruct (Rw row (or_introl eq_refl)) as (k & s & q & R1 & R2 & R3 & R4). unfold entry_of in E at 1. unfold entry_of at 1. rewrite R1, R2 in E. rewrite R1, R3.
        destruct (get (cols t) row "img_id") as [[i|]|]; try discriminate. cbn [bind] in *.
        destruct (mapM (entry_of (cols t) "sum_col_val") rs) as [fs|]; [|discriminate]. cbn [bind] in E. apply Ok_inj in E. subst es.
        destruct (IH fs eq_refl (fun r Hr => Rw r (or_intror Hr))) as (fs' & I1 & I2). rewrite I1. cbn [bind].
        exists ((Qtrunc i, Qtrunc k, Some q) :: fs'). split; [reflexivity|]. constructor; [|exact I2]. split; [reflexivity|]. split; [reflexivity|].
        assert (Nz : ~ (inject_Z (size (Qtrunc k)) == 0)%Q) by (intros C; specialize (Hsz (Qtrunc k)); unfold Qeq in C; cbn [Qnum Qden inject_Z] in C; lia).
        change (q == / inject_Z (size (Qtrunc k)) * s)%Q. rewrite <- R4. field. exact Nz. }
    destruct Y as (es' & Y1 & Y2). exists es'. rewrite Y1. cbn [bind]. split; [|exact Y2]. destruct es'; [inversion Y2; subst; elim Hne; reflexivity|reflexivity]. }
  destruct X as (es' & X1 & X2).
  exact (C133_brightness_does_not_matter c t t a "sum_col_val" "mean_col_val" es es' indices num m l bot top n cam coords file cpus order Hc Hl0 X1 X2 Hm Hl Srt Cmp Href).
Qed.
Print Assumptions C133_sum_and_mean.

(** ** The coordinate system *)
Local Open Scope R_scope.

Lemma Rmax_shift : forall a b d, Rmax (a + d) (b + d) = Rmax a b + d.
Proof. intros a b d. unfold Rmax. destruct (Rle_dec (a + d) (b + d)), (Rle_dec a b); lra. Qed.
Lemma Rmin_shift : forall a b d, Rmin (a + d) (b + d) = Rmin a b + d.
Proof. intros a b d. unfold Rmin. destruct (Rle_dec (a + d) (b + d)), (Rle_dec a b); lra. Qed.

(** The layer moved by [dz]. *)
Definition lifted (dz : R) (lay : R * R) : R * R := (fst lay + dz, snd lay + dz).

Lemma layers_lifted : forall bot top n dz, layers (bot + dz) (top + dz) n = map (lifted dz) (layers bot top n).
Proof.
  intros bot top n dz. unfold layers, layers_of.
  assert (E : borders (bot + dz) (top + dz) n = map (fun z => z + dz) (borders bot top n)).
  { unfold borders. rewrite map_map. apply map_ext. intros i. unfold border. replace (top + dz - (bot + dz)) with (top - bot) by ring. ring. }
  rewrite E. assert (T : forall l : list R, tl (map (fun z => z + dz) l) = map (fun z => z + dz) (tl l)) by (intros [|x l]; reflexivity). rewrite T.
  generalize (borders bot top n) (tl (borders bot top n)). intros l l'. revert l'. induction l as [|x l IH]; intros [|y l']; [reflexivity..|]. cbn [map combine]. rewrite IH. reflexivity.
Qed.

Theorem C133_distances_in_other_coordinates : forall f dz bot top n cam led, moves f dz ->
  traversed_distances (layers (bot + dz) (top + dz) n) (f cam) (f led) = traversed_distances (layers bot top n) cam led.
Proof.
  intros f dz bot top n cam led (Hh & Hz). rewrite layers_lifted.
  assert (Eh : forall p q, horizontal_dist (f p) (f q) = horizontal_dist p q) by (intros p q; unfold horizontal_dist; rewrite Hh; reflexivity).
  assert (Ea : angle (f cam) (f led) = angle cam led) by (unfold angle; rewrite Eh, !Hz; replace (pz led + dz - (pz cam + dz)) with (pz led - pz cam) by ring; reflexivity).
  assert (Ec : forall ds, consistent ds (f cam) (f led) = consistent ds cam led)
    by (intros ds; unfold consistent; rewrite Hh, !Hz; replace (pz cam + dz - (pz led + dz)) with (pz cam - pz led) by ring; reflexivity).
  unfold traversed_distances. rewrite Ea. destruct (angle cam led) as [alpha|]; [|reflexivity]. cbv zeta.
  assert (Ep : dist_in_plane (map (lifted dz) (layers bot top n)) (f cam) (f led) = dist_in_plane (layers bot top n) cam led).
  { unfold dist_in_plane. rewrite map_map. apply map_ext. intros (b & t). rewrite Eh, Hz. unfold in_layer, lifted. cbn [fst snd].
    destruct (Rle_dec (b + dz) (pz cam + dz)), (Rle_dec b (pz cam)); try lra; destruct (Rlt_dec (pz cam + dz) (t + dz)), (Rlt_dec (pz cam) t); try lra; reflexivity. }
  assert (Ew : dist_with_angle (map (lifted dz) (layers bot top n)) alpha (f cam) (f led) = dist_with_angle (layers bot top n) alpha cam led).
  { unfold dist_with_angle. rewrite map_map. apply map_ext. intros (b & t). do 2 f_equal. unfold traversed_height, lifted. cbn [fst snd]. rewrite !Hz, !Rmax_shift, !Rmin_shift, !Rmax_shift.
    set (u := Rmin _ t). set (v := Rmax _ b). replace (u + dz - (v + dz)) with (u - v) by ring. reflexivity. }
  rewrite Ep, Ew, Ec. reflexivity.
Qed.
Print Assumptions C133_distances_in_other_coordinates.

(** The coefficients do not depend on the coordinate system, as long as the vertical stays vertical. *)
Theorem C133_coordinate_system_does_not_matter : forall f dz solve bot top n cam coords file t a prop indices num cpus order, moves f dz ->
  analyse_with solve (bot + dz) (top + dz) n (f cam) (map f coords) file t a prop indices num cpus order =
  analyse_with solve bot top n cam coords file t a prop indices num cpus order.
Proof.
  intros f dz solve bot top n cam coords file t a prop indices num cpus order Hf. unfold analyse_with, analyse_by, analyse_avg.
  assert (E : bind (experiment_leds (map f coords) file) (fun leds => distance_array (fun p => matrix_row (traversed_distances (layers (bot + dz) (top + dz) n) (f cam) p)) leds) =
              bind (experiment_leds coords file) (fun leds => distance_array (fun p => matrix_row (traversed_distances (layers bot top n) cam p)) leds)).
  { unfold experiment_leds. destruct file as [ids|]; [|reflexivity]. destruct ids as [|i [|j ids]]; [reflexivity|reflexivity|].
    assert (M : forall ids, mapM (np_index (map f coords)) ids = bind (mapM (np_index coords) ids) (fun ps => Ok (map f ps))).
    { clear. assert (I : forall i, np_index (map f coords) i = bind (np_index coords i) (fun p => Ok (f p))).
      { intros i. unfold np_index. rewrite map_length. repeat match goal with |- context [if ?b then _ else _] => destruct b end; try reflexivity;
          rewrite nth_error_map; destruct (nth_error coords _); reflexivity. }
      induction ids as [|i ids IH]; [reflexivity|]. cbn [mapM]. rewrite I, IH. destruct (np_index coords i); [|reflexivity]. cbn [bind]. destruct (mapM (np_index coords) ids); reflexivity. }
    rewrite M. destruct (mapM (np_index coords) (i :: j :: ids)) as [ps|]; [|reflexivity]. cbn [bind distance_array]. f_equal.
    rewrite !map_rev. f_equal. generalize (i :: j :: ids). clear M. induction ps as [|p ps IH]; intros [|k ks]; [reflexivity..|]. cbn [map combine snd].
    rewrite (C133_distances_in_other_coordinates f dz bot top n cam p Hf), IH. reflexivity. }
  destruct (experiment_leds (map f coords) file) as [l1|], (experiment_leds coords file) as [l2|]; cbn [bind] in E |- *; try (rewrite E; reflexivity).
  - rewrite <- E. reflexivity.
  - injection E as E. rewrite E. reflexivity.
Qed.
Print Assumptions C133_coordinate_system_does_not_matter.

(** ** Concrete cases *)

(** The room of C94; the lowest LED is three times as bright and the highest one half as bright. *)
Definition lamp_sums (i : Z) : list Z := if (i =? 1)%Z then [24000; 8000; 4000]%Z else [12000; 2000; 500]%Z.
(** Records with four pixels for every LED; [k] times the light in the second image. *)
Definition lamp_recs (sums : Z -> list Z) (k i : Z) : list (led_data Format_Model.fit_data) :=
  map (fun p => LedData (fst p) 0 (if (i =? 1)%Z then snd p else k * snd p)%Z ((if (i =? 1)%Z then snd p else k * snd p)%Z # 4) 1 None) (combine [0; 1; 2]%Z (sums i)).
Definition lamp_table (sums : Z -> list Z) (k : Z) : frame := Frame fast_table_columns (concat (map (fun i => map (plain_row i) (lamp_recs sums k i)) [1; 2]%Z)).

(** How much brighter. *)
Definition lamp_factor (k : Z) : Q := if (k =? 0)%Z then 3 # 1 else if (k =? 2)%Z then 1 # 2 else 1%Q.

(** The same smoke is found with the brighter and darker LEDs, and from the mean. *)
Example C133_example : forall nnls lambda cpus, nnls_contract nnls -> 0 <= lambda ->
  exists x1 x2, sq_dist x1 [0; 0; 0] <= 1 / 100000 /\ sq_dist x2 [ln 2; ln 2; ln 2] <= 1 / 100000 /\
    analyse_array nnls lambda 0 3 3 eg_cam eg_coords (Some [2; 1; 0]%Z) (lamp_table lamp_sums 1) 0 "sum_col_val" None 1 cpus [1; 0]%nat = Ok [x1; x2] /\
    analyse_array nnls lambda 0 3 3 eg_cam eg_coords (Some [2; 1; 0]%Z) (lamp_table lamp_sums 1) 0 "mean_col_val" None 1 cpus [1; 0]%nat = Ok [x1; x2].
Proof.
  intros nnls lambda cpus Hn Hl. destruct (C94_example nnls lambda cpus Hn Hl) as (x1 & x2 & X & X1 & X2). exists x1, x2. split; [exact X1|]. split; [exact X2|].
  assert (Srt : StronglySorted Z.lt [0; 1; 2]%Z) by (repeat constructor).
  assert (Ref : exists i, (1 <= i <= 2)%Z /\ is_reference None 1 i) by (exists 1%Z; split; [lia|cbn; lia]).
  assert (E : exists es, load_img_data eg_table 0 "sum_col_val" = Ok es /\ complete es 2 [0; 1; 2]%Z /\
    exists es', load_img_data (lamp_table lamp_sums 1) 0 "sum_col_val" = Ok es' /\ complete es' 2 [0; 1; 2]%Z /\
      Forall2 (brighter lamp_factor) es es').
  { assert (Two : forall i, (1 <= i <= 2)%Z -> (i = 1 \/ i = 2)%Z) by lia.
    eexists. split; [vm_compute; reflexivity|]. split; [split; [intros e He; repeat (destruct He as [<-|He]; [cbn; lia|]); destruct He|intros i Hi; destruct (Two i Hi) as [-> | ->]; reflexivity]|].
    eexists. split; [vm_compute; reflexivity|]. split; [split; [intros e He; repeat (destruct He as [<-|He]; [cbn; lia|]); destruct He|intros i Hi; destruct (Two i Hi) as [-> | ->]; reflexivity]|].
    repeat (constructor; [split; [reflexivity|split; reflexivity]|]). constructor. }
  destruct E as (es & E1 & E2 & es' & E3 & E4 & E5).
  assert (P : analyse_array nnls lambda 0 3 3 eg_cam eg_coords (Some [2; 1; 0]%Z) (lamp_table lamp_sums 1) 0 "sum_col_val" None 1 cpus [1; 0]%nat = Ok [x1; x2]).
  { rewrite <- X. apply (proj1 (C133_brightness_does_not_matter lamp_factor eg_table (lamp_table lamp_sums 1) 0 "sum_col_val" "sum_col_val" es es' None 1 2 [0; 1; 2]%Z 0 3 3 eg_cam eg_coords (Some [2; 1; 0]%Z) cpus [1; 0]%nat
      ltac:(intros k; unfold lamp_factor; destruct (k =? 0)%Z; [reflexivity|]; destruct (k =? 2)%Z; reflexivity) E1 E3 E5 ltac:(lia) ltac:(discriminate) Srt E2 Ref)). }
  split; [exact P|]. rewrite <- P.
  apply (proj1 (C133_sum_and_mean (lamp_table lamp_sums 1) 0 (fun _ => 4%Z) es' None 1 2 [0; 1; 2]%Z 0 3 3 eg_cam eg_coords (Some [2; 1; 0]%Z) cpus [1; 0]%nat
    ltac:(intros k; lia) ltac:(vm_compute; tauto)
    ltac:(intros row Hr _; vm_compute in Hr; repeat (destruct Hr as [<-|Hr]; [do 3 eexists; split; [vm_compute; reflexivity|]; split; [vm_compute; reflexivity|]; split; [vm_compute; reflexivity|]; vm_compute; reflexivity|]); destruct Hr)
    E3 ltac:(lia) ltac:(discriminate) Srt E4 Ref)).
Qed.

(** The same room seen from a corner five metres below, with the axes turned by a right angle. *)
Example C133_moved_example : forall nnls lambda cpus, nnls_contract nnls -> 0 <= lambda ->
  let f := fun p => Point (py p + 1) (7 - px p) (pz p + 5) in
  moves f 5 /\ f eg_cam <> eg_cam /\
  exists x1 x2, sq_dist x1 [0; 0; 0] <= 1 / 100000 /\ sq_dist x2 [ln 2; ln 2; ln 2] <= 1 / 100000 /\
    analyse_array nnls lambda 5 8 3 (f eg_cam) (map f eg_coords) (Some [2; 1; 0]%Z) eg_table 0 "sum_col_val" None 1 cpus [1; 0]%nat = Ok [x1; x2].
Proof.
  intros nnls lambda cpus Hn Hl f.
  assert (Hf : moves f 5) by (split; [intros p q; unfold f, Rsqr; cbn [px py]; ring|intros p; reflexivity]).
  split; [exact Hf|]. split; [unfold f, eg_cam; cbn [px py pz]; intros C; injection C as C1 C2 C3; lra|].
  destruct (C94_example nnls lambda cpus Hn Hl) as (x1 & x2 & X & X1 & X2). exists x1, x2. split; [exact X1|]. split; [exact X2|]. rewrite <- X.
  pose proof (C133_coordinate_system_does_not_matter f 5 (solve_linear nnls lambda 3) 0 3 3 eg_cam eg_coords (Some [2; 1; 0]%Z) eg_table 0 "sum_col_val" None 1 cpus [1; 0]%nat Hf) as Y.
  replace (0 + 5) with 5 in Y by ring. replace (3 + 5) with 8 in Y by ring. exact Y.
Qed.

(** ** The exposure of a single photograph matters *)

(** It is otherwise if a single photograph is brighter: with the smoke of C94 and eight times the
    exposure in the second image, clear air is reported for it. *)
Theorem C133_exposure_refuted : exists bot top n cam coords file t t',
  (* the table t' is t with eight times the light in the second image *)
  t = lamp_table eg_sums 1 /\ t' = lamp_table eg_sums 8 /\
  forall nnls lambda cpus, nnls_contract nnls -> 0 <= lambda ->
  exists x1 x2, analyse_array nnls lambda bot top n cam coords file t 0 "sum_col_val" None 1 cpus [1; 0]%nat = Ok [x1; x2] /\
    sq_dist x2 [ln 2; ln 2; ln 2] <= 1 / 100000 /\
    analyse_array nnls lambda bot top n cam coords file t' 0 "sum_col_val" None 1 cpus [1; 0]%nat = Ok [[0; 0; 0]; [0; 0; 0]].
Proof.
  exists 0, 3, 3%nat, eg_cam, eg_coords, (Some [2; 1; 0]%Z), (lamp_table eg_sums 1), (lamp_table eg_sums 8). split; [reflexivity|]. split; [reflexivity|].
  intros nnls lambda cpus Hn Hl. destruct (C94_example nnls lambda cpus Hn Hl) as (x1 & x2 & X & X1 & X2). exists x1, x2. split.
  { rewrite <- X.
    assert (E : load_img_data (lamp_table eg_sums 1) 0 "sum_col_val" = load_img_data eg_table 0 "sum_col_val") by (vm_compute; reflexivity).
    unfold analyse_array, analyse_with, analyse_by, analyse_avg. rewrite E. reflexivity. }
  split; [exact X2|].
  set (M := [[1; 0; 0]; [1; 1; 0]; [1; 1; 1]]).
  assert (Sep : separates 3 (a_aug lambda 3 M)).
  { apply separates_aug. exists (1 / 8). split; [lra|]. intros z Hz. destruct z as [|a [|b [|d [|? ?]]]]; try discriminate. unfold mul, M. cbn [map rdot sq_norm].
    replace (1 * a + (0 * b + (0 * d + 0))) with a by ring. replace (1 * a + (1 * b + (0 * d + 0))) with (a + b) by ring. replace (1 * a + (1 * b + (1 * d + 0))) with (a + b + d) by ring.
    assert (T : forall s t, (s - t) * (s - t) <= 2 * (s * s) + 2 * (t * t)) by (intros s t; pose proof (Rle_0_sqr (s + t)) as Q; unfold Rsqr in Q; lra).
    pose proof (T (a + b) a) as T1. pose proof (T (a + b + d) (a + b)) as T2. replace (a + b - a) with b in T1 by ring. replace (a + b + d - (a + b)) with d in T2 by ring.
    pose proof (Rle_0_sqr a) as P1. pose proof (Rle_0_sqr (a + b)) as P2. pose proof (Rle_0_sqr (a + b + d)) as P3. unfold Rsqr in P1, P2, P3. lra. }
  assert (RowsM : rows_ok 3 M) by (unfold rows_ok, M; repeat constructor).
  assert (NonM : Forall nonneg M) by (unfold M, nonneg; repeat (constructor; [repeat (constructor; [lra|]); constructor|]); constructor).
  assert (Sol : forall last p q r, (1 <= Q2R p) -> (1 <= Q2R q) -> (1 <= Q2R r) -> solve_linear nnls lambda 3 (map Some M) last [Fin p; Fin q; Fin r] = Ok [0; 0; 0]).
  { intros last p q r Hp Hq Hr. unfold solve_linear. cbn [all_some map rel_R M]. cbn [List.length Nat.eqb]. f_equal. fold M.
    assert (S0 : nnls_solution 3 (a_aug lambda 3 M) (b_aug 3 [Q2R p; Q2R q; Q2R r]) (nnls (a_aug lambda 3 M) (b_aug 3 [Q2R p; Q2R q; Q2R r])))
      by (apply Hn; [apply rows_ok_aug; exact RowsM|apply aug_length; reflexivity|exact Sep]).
    pose proof (C39_no_smoke_no_extinction nnls lambda 3 M [Q2R p; Q2R q; Q2R r] Hl eq_refl NonM (Forall_cons _ Hp (Forall_cons _ Hq (Forall_cons _ Hr (Forall_nil _)))) S0) as Z0.
    destruct S0 as (L0 & _). change (List.length (linear_coefficients nnls lambda 3 M [Q2R p; Q2R q; Q2R r]) = 3%nat) in L0.
    destruct (linear_coefficients nnls lambda 3 M [Q2R p; Q2R q; Q2R r]) as [|a [|b [|d [|? ?]]]]; try discriminate.
    rewrite (Z0 0%nat [1; 1; 1] 1 a ltac:(unfold M; simpl; tauto) eq_refl ltac:(lra) eq_refl), (Z0 1%nat [1; 1; 1] 1 b ltac:(unfold M; simpl; tauto) eq_refl ltac:(lra) eq_refl),
      (Z0 2%nat [1; 1; 1] 1 d ltac:(unfold M; simpl; tauto) eq_refl ltac:(lra) eq_refl). reflexivity. }
  unfold analyse_array, analyse_with, analyse_by, analyse_avg.
  change (experiment_leds eg_coords (Some [2; 1; 0]%Z)) with (Ok (Some [(2%Z, Point 0 0 3); (1%Z, Point 0 0 2); (0%Z, Point 0 0 1)])). cbn [bind]. unfold distance_array. cbn [rev app map snd bind].
  assert (View : forall h, 0 < h <= 3 -> in_view 0 3 eg_cam (Point 0 0 h)) by (intros h Hh; unfold in_view, within, eg_cam; cbn [pz]; split; [lra|split; [lra|intros C; exfalso; lra]]).
  rewrite !visible_row by (try lia; try lra; apply View; lra). 
  assert (EP1 : paths 0 3 3 eg_cam (Point 0 0 1) = [1; 0; 0]) by exact (f_equal (fun l => nth 0 l []) eg_paths).
  assert (EP2 : paths 0 3 3 eg_cam (Point 0 0 2) = [1; 1; 0]) by exact (f_equal (fun l => nth 1 l []) eg_paths).
  assert (EP3 : paths 0 3 3 eg_cam (Point 0 0 3) = [1; 1; 1]) by exact (f_equal (fun l => nth 2 l []) eg_paths).
  rewrite EP1, EP2, EP3. cbn [matrix_row].
  change [Some [1; 0; 0]; Some [1; 1; 0]; Some [1; 1; 1]] with (map Some M).
  set (sol := solve_linear nnls lambda 3 (map Some M)) in *.
  assert (X3 : exists es p q, load_img_data (lamp_table eg_sums 8) 0 "sum_col_val" = Ok es /\ (Forall (fun v => 1 <= Q2R v) p /\ List.length p = 3%nat) /\ (Forall (fun v => 1 <= Q2R v) q /\ List.length q = 3%nat) /\
    (forall sol : option vec -> list quot -> res vec, serial sol es (map snd (ref_values mean (reference_entries None 1 es))) =
       bind (sol None (map Fin p)) (fun x => bind (sol (Some x) (map Fin q)) (fun y => Ok [x; y]))) /\
    (forall sol : option vec -> list quot -> res vec, parallel sol [1; 0]%nat es (map snd (ref_values mean (reference_entries None 1 es))) =
       pool_map (sol None) [1; 0]%nat [map Fin p; map Fin q])).
  { eexists. exists [8000 # 8000; 8000 # 8000; 8000 # 8000]%Q, [32000 # 8000; 16000 # 8000; 8000 # 8000]%Q.
    assert (Q1 : forall a b, (0 < b)%Z -> (b <= a)%Z -> 1 <= Q2R (a # Z.to_pos b)).
    { intros a b Hb Hab. unfold Q2R. cbn [Qnum Qden]. rewrite Z2Pos.id by exact Hb. apply IZR_lt in Hb. apply IZR_le in Hab. apply (Rmult_le_reg_r (IZR b)); [exact Hb|]. rewrite Rmult_assoc, Rinv_l by lra. lra. }
    split; [vm_compute; reflexivity|]. split; [split; [|reflexivity]; repeat (constructor; [apply (Q1 _ 8000%Z); lia|]); constructor|].
    split; [split; [|reflexivity]; repeat (constructor; [apply (Q1 _ 8000%Z); lia|]); constructor|]. split; intros sol'.
    - vm_compute. destruct (sol' None _) as [x|]; [|reflexivity]. destruct (sol' (Some x) _); reflexivity.
    - match goal with |- parallel _ _ ?es ?ms = _ => unfold parallel; replace (to_array es) with (Ok [map Some [8000; 8000; 8000]%Q; map Some [32000; 16000; 8000]%Q]) by (vm_compute; reflexivity) end.
      cbn [bind]. match goal with |- bind ?r _ = _ => replace r with (Ok [map Fin [8000 # 8000; 8000 # 8000; 8000 # 8000]%Q; map Fin [32000 # 8000; 16000 # 8000; 8000 # 8000]%Q]) by (vm_compute; reflexivity) end. reflexivity. }
  destruct X3 as (es & p & q & E1 & (Fp & Lp) & (Fq & Lq) & E2 & E3). rewrite E1. cbn [bind]. cbv zeta. rewrite E2, E3.
  assert (S1 : forall last p, Forall (fun v => 1 <= Q2R v) p -> List.length p = 3%nat -> sol last (map Fin p) = Ok [0; 0; 0]).
  { intros last l F L. destruct l as [|a [|b [|d [|? ?]]]]; try discriminate. inversion F as [|? ? F1 G1]; subst. inversion G1 as [|? ? F2 G2]; subst. inversion G2 as [|? ? F3 G3]; subst. apply Sol; assumption. }
  clearbody sol. destruct (1 <? cpus)%Z.
  - unfold pool_map. cbn. rewrite !S1 by assumption. reflexivity.
  - rewrite S1 by assumption. cbn [bind]. rewrite S1 by assumption. reflexivity.
Qed.
Print Assumptions C133_exposure_refuted.
