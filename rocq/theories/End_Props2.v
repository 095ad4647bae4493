(** C95: what makes the linear analysis of an array fail. *)
From Coq Require Import ZArith QArith Qreals Lia Lqa Bool String List Permutation Sorted Reals Lra.
From Verif Require Import Base Step2_Model Step3_Model Table_Props Table_Model Table_Spec Analysis_Model Analysis_Props
  Layers_Model Layers_Spec Layers_Props Solver_Model Solver_Props Stable_Props Nnls_Props End_Model End_Props.
Import ListNotations.
Local Open Scope R_scope.

(** ** Errors of the solver and of the loop *)
Lemma solve_linear_error : forall nnls lambda n A last rel e, solve_linear nnls lambda n A last rel = Err e -> e = ValueError.
Proof.
  intros nnls lambda n A last rel e H. unfold solve_linear in H. destruct (all_some A); [|congruence]. destruct (all_some (map rel_R rel)); [|congruence].
  destruct (List.length _ =? List.length _)%nat; congruence.
Qed.

Lemma np_div_error : forall vs ms e, np_div vs ms = Err e -> e = ValueError.
Proof. intros vs ms e H. apply (C37_relative_intensities vs ms). exact H. Qed.

Lemma serial_loop_error : forall nnls lambda n A ms gs last e, serial_loop (solve_linear nnls lambda n A) ms last gs = Err e -> e = ValueError.
Proof.
  intros nnls lambda n A ms gs. induction gs as [|(i, es) gs IH]; intros last e H; [discriminate|]. cbn [serial_loop] in H.
  destruct (np_div (map e_val es) ms) as [rel|e1] eqn:E1; cbn [bind] in H; [|injection H as <-; eapply np_div_error; exact E1].
  destruct (solve_linear nnls lambda n A last rel) as [x|e2] eqn:E2; cbn [bind] in H; [|injection H as <-; eapply solve_linear_error; exact E2].
  destruct (serial_loop _ ms (Some x) gs) as [xs|e3] eqn:E3; cbn [bind] in H; [discriminate|]. injection H as <-. eapply IH. exact E3.
Qed.

(** One image for which the solver never succeeds. *)
Lemma serial_loop_fails : forall nnls lambda n A ms gs i es last, In (i, es) gs ->
  (forall last rel x, np_div (map e_val es) ms = Ok rel -> solve_linear nnls lambda n A last rel <> Ok x) ->
  serial_loop (solve_linear nnls lambda n A) ms last gs = Err ValueError.
Proof.
  intros nnls lambda n A ms gs i es last Hin Hf.
  destruct (serial_loop (solve_linear nnls lambda n A) ms last gs) as [xs|e] eqn:E; [|f_equal; eapply serial_loop_error; exact E].
  exfalso. revert last xs E. induction gs as [|(j, fs) gs IH]; intros last xs E; [destruct Hin|]. cbn [serial_loop] in E.
  destruct (np_div (map e_val fs) ms) as [rel|] eqn:E1; cbn [bind] in E; [|discriminate]. destruct (solve_linear nnls lambda n A last rel) as [x|] eqn:E2; cbn [bind] in E; [|discriminate].
  destruct Hin as [Hin|Hin]; [injection Hin as -> ->; exact (Hf last rel x E1 E2)|].
  destruct (serial_loop _ ms (Some x) gs) as [ys|] eqn:E3; cbn [bind] in E; [|discriminate]. eapply IH; [exact Hin|exact E3].
Qed.

Lemma all_some_none : forall A (l : list (option A)), In None l -> all_some l = None.
Proof. intros A l. induction l as [|[a|] l IH]; intros H; [destruct H| |reflexivity]. destruct H as [H|H]; [discriminate|]. cbn [all_some]. rewrite (IH H). reflexivity. Qed.

Lemma load_nonempty : forall t a prop es, load_img_data t a prop = Ok es -> es <> [].
Proof. intros t a prop es H C. subst es. apply (proj1 (C37_no_data_ends_the_analysis t a prop)). exact H. Qed.

Lemma groups_nonempty : forall key es, es <> [] -> exists k fs gs, Analysis_Model.groups key es = (k, fs) :: gs /\ fs <> [].
Proof.
  intros key es H. unfold Analysis_Model.groups. destruct (keys (map key es)) as [|k ks] eqn:K.
  - destruct es as [|e es]; [congruence|]. assert (X : In (key e) (keys (map key (e :: es)))) by (apply in_keys; left; reflexivity). rewrite K in X. destruct X.
  - exists k, (filter (fun e => (key e =? k)%Z) es), (map (fun k => (k, filter (fun e => (key e =? k)%Z) es)) ks). split; [reflexivity|].
    assert (X : In k (map key es)) by (apply in_keys; rewrite K; left; reflexivity). apply in_map_iff in X. destruct X as (e & E1 & E2). intros C.
    assert (Y : In e (filter (fun e => (key e =? k)%Z) es)) by (apply filter_In; split; [exact E2|apply Z.eqb_eq; exact E1]). rewrite C in Y. destruct Y.
Qed.

(** A solver which always fails makes the pool fail. *)
Lemma parallel_fails : forall C (solve : option C -> list quot -> res C) order es ms xs, es <> [] ->
  (forall rel x, solve None rel <> Ok x) -> parallel solve order es ms <> Ok xs.
Proof.
  intros C solve order es ms xs Hne Hf H. unfold parallel in H. destruct (to_array es) as [arr|] eqn:E; cbn [bind] in H; [|discriminate].
  destruct (mapM (fun vs => np_div vs ms) arr) as [rels|] eqn:E2; cbn [bind] in H; [|discriminate].
  assert (N : rels <> []).
  { unfold to_array in E. destruct (groups_nonempty e_img es Hne) as (k1 & f1 & g1 & G1 & _). destruct (groups_nonempty e_led es Hne) as (k2 & f2 & g2 & G2 & F2). rewrite G1, G2 in E.
    rewrite zrange_cons in E by (destruct f2; [congruence|simpl List.length; lia]). cbn [mapM] in E. destruct (match map e_val (filter _ es) with [] => _ | _ => _ end) as [v|] in E; cbn [bind] in E; [|discriminate].
    match type of E with bind ?m _ = _ => destruct m as [vs|] end; cbn [bind] in E; [|discriminate]. apply Ok_inj in E. subst arr. cbn [mapM] in E2.
    destruct (np_div v ms) as [r|]; cbn [bind] in E2; [|discriminate]. destruct (mapM _ vs) as [rs|]; cbn [bind] in E2; [|discriminate]. apply Ok_inj in E2. subst rels. discriminate. }
  destruct rels as [|rel rels]; [congruence|]. unfold pool_map in H. cbn [List.length seq mapM] in H.
  set (results := flat_map _ order) in H. assert (R : forall c, collect results 0 <> Some (Ok c)).
  { intros c. unfold results. clear - Hf. induction order as [|k order IH]; [discriminate|]. cbn [flat_map]. destruct (nth_error (rel :: rels) k) as [a|]; [|exact IH]. cbn [app collect].
    destruct (k =? 0)%nat; [|exact IH]. intros X. apply Some_inj in X. exact (Hf _ _ X). }
  destruct (collect results 0) as [[c|e]|] eqn:Ec; cbn [bind] in H; try discriminate. exact (R c eq_refl).
Qed.

(** ** C95 *)

(** One LED without a line of sight inside the domain: no coefficients at all. *)
Theorem C95_led_without_distances_fails : forall nnls lambda bot top n cam coords file t a prop indices num cpus order leds id p es,
  experiment_leds coords file = Ok (Some leds) -> In (id, p) leds ->
  (forall ds, traversed_distances (layers bot top n) cam p <> Row ds) ->
  load_img_data t a prop = Ok es ->
  (forall xs, analyse_array nnls lambda bot top n cam coords file t a prop indices num cpus order <> Ok xs) /\
  ((cpus <= 1)%Z -> analyse_array nnls lambda bot top n cam coords file t a prop indices num cpus order = Err ValueError).
Proof.
  intros nnls lambda bot top n cam coords file t a prop indices num cpus order leds id p es H1 H2 H3 H4.
  unfold analyse_array, analyse_with, analyse_by, analyse_avg. change (ref_values mean) with ref_intensities. rewrite H1. cbn [bind distance_array]. rewrite H4. cbn [bind]. cbv zeta.
  set (A := map _ (rev leds)). set (ms := map snd _).
  assert (An : all_some A = None).
  { apply all_some_none. unfold A. apply in_map_iff. exists (id, p). split; [|apply in_rev in H2; exact H2]. cbn [snd]. destruct (traversed_distances (layers bot top n) cam p) eqn:E; [elim (H3 ds); reflexivity|reflexivity|reflexivity]. }
  assert (F : forall last rel x, solve_linear nnls lambda n A last rel <> Ok x) by (intros last rel x; unfold solve_linear; rewrite An; discriminate).
  pose proof (load_nonempty _ _ _ _ H4) as Ne.
  assert (S : serial (solve_linear nnls lambda n A) es ms = Err ValueError).
  { unfold serial. destruct (groups_nonempty e_img es Ne) as (k & fs & gs & G & _). apply (serial_loop_fails _ _ _ _ _ _ k fs); [rewrite G; left; reflexivity|]. intros last rel x _. apply F. }
  split.
  - intros xs. destruct (1 <? cpus)%Z; [apply parallel_fails; [exact Ne|apply F]|rewrite S; discriminate].
  - intros Hc. replace (1 <? cpus)%Z with false by (symmetry; apply Z.ltb_ge; exact Hc). exact S.
Qed.
Print Assumptions C95_led_without_distances_fails.

(** Such an LED: more than a micrometre of its line of sight is outside of the
    domain, or it hangs at the height of the camera outside of the domain (its
    upper border included), or it is at the place of the camera. *)
Definition out_of_view (bot top : R) (cam led : point) : Prop :=
  (pz cam <> pz led /\ 1 / 1000000 < euclid cam led * (1 - overlap bot top (pz cam) (pz led) / Rabs (pz led - pz cam))) \/
  (pz cam = pz led /\ ~ (bot <= pz cam < top) /\ 1 / 1000000 < euclid cam led) \/
  led = cam.

Lemma led_is_loaded : forall (coords : list point) (ids : list Z) (id : Z) (p : point), (2 <= List.length ids)%nat -> Forall (fun i => (0 <= i < Z.of_nat (List.length coords))%Z) ids ->
  In id ids -> nth_error coords (Z.to_nat id) = Some p ->
  exists leds, experiment_leds coords (Some ids) = Ok (Some leds) /\ In (id, p) leds /\ List.length leds = List.length ids.
Proof.
  intros coords ids id p Hl Hr Hid Hp.
  assert (M : exists ps, mapM (np_index coords) ids = Ok ps /\ Forall2 (fun i q => nth_error coords (Z.to_nat i) = Some q) ids ps).
  { clear - Hr. induction Hr as [|i ids Hi F (ps & I1 & I2)]; [exists []; split; [reflexivity|constructor]|].
    assert (X : exists q, nth_error coords (Z.to_nat i) = Some q) by (destruct (nth_error coords (Z.to_nat i)) eqn:E; [eexists; reflexivity|apply nth_error_None in E; lia]). destruct X as (q & Q).
    exists (q :: ps). split; [|constructor; assumption]. cbn [mapM]. rewrite I1. unfold np_index. 
    replace (i <? 0)%Z with false by (symmetry; apply Z.ltb_ge; lia).
    repeat match goal with |- context [if ?b then _ else _] => destruct b eqn:?B end; try (rewrite Q; reflexivity);
      repeat (match goal with H : (_ || _)%bool = true |- _ => apply orb_true_iff in H; destruct H as [H|H] | H : (_ && _)%bool = false |- _ => apply andb_false_iff in H; destruct H as [H|H] | H : (_ <? _)%Z = true |- _ => apply Z.ltb_lt in H | H : (_ <=? _)%Z = true |- _ => apply Z.leb_le in H | H : (_ <=? _)%Z = false |- _ => apply Z.leb_gt in H | H : (_ <? _)%Z = false |- _ => apply Z.ltb_ge in H end); try lia. }
  destruct M as (ps & M1 & M2). exists (combine ids ps). split; [|split].
  - unfold experiment_leds. destruct ids as [|i0 [|i1 ids]]; [simpl in Hl; lia|simpl in Hl; lia|]. rewrite M1. reflexivity.
  - clear - M2 Hid Hp. induction M2 as [|i q ids ps H F IH]; [destruct Hid|]. destruct Hid as [->|Hid]; [left; congruence|right; apply IH; exact Hid].
  - rewrite combine_length. apply Forall2_len in M2. lia.
Qed.

Lemma out_of_view_no_row : forall bot top n cam p ds, (1 <= n)%nat -> bot < top -> out_of_view bot top cam p ->
  traversed_distances (layers bot top n) cam p <> Row ds.
Proof.
  intros bot top n cam p ds Hn Hb Hv. destruct Hv as [(V1 & V2)|[(V1 & V2 & V3)|V]].
  - destruct (C33_none_iff_outside_too_long bot top n cam p Hn Hb V1) as (_ & I & _). rewrite (proj2 I V2). discriminate.
  - rewrite (C35_horizontal_outside_is_dropped bot top n cam p Hn Hb V1 V2 V3). discriminate.
  - subst p. rewrite C35_same_position_gives_nan. discriminate.
Qed.

Theorem C95_led_out_of_view_fails : forall nnls lambda bot top n cam coords ids t a prop indices num cpus order id p es, (1 <= n)%nat -> bot < top ->
  (2 <= List.length ids)%nat -> Forall (fun i => (0 <= i < Z.of_nat (List.length coords))%Z) ids ->
  In id ids -> nth_error coords (Z.to_nat id) = Some p -> out_of_view bot top cam p ->
  load_img_data t a prop = Ok es ->
  forall xs, analyse_array nnls lambda bot top n cam coords (Some ids) t a prop indices num cpus order <> Ok xs.
Proof.
  intros nnls lambda bot top n cam coords ids t a prop indices num cpus order id p es Hn Hb Hl Hr Hid Hp Hv Hload.
  destruct (led_is_loaded coords ids id p Hl Hr Hid Hp) as (leds & E1 & E2 & _).
  apply (C95_led_without_distances_fails nnls lambda bot top n cam coords (Some ids) t a prop indices num cpus order leds id p es E1 E2); [|exact Hload].
  intros ds. apply out_of_view_no_row; assumption.
Qed.
Print Assumptions C95_led_out_of_view_fails.

(** An LED that is dark in all reference images: 0/0 in the reference images
    themselves. *)
Theorem C95_dark_led_fails : forall nnls lambda bot top n cam coords file t a prop indices num cpus order es m l k,
  load_img_data t a prop = Ok es -> (1 <= m)%Z -> StronglySorted Z.lt l -> complete es m l -> In k l ->
  (exists i, (1 <= i <= m)%Z /\ is_reference indices num i) ->
  (forall e, In e es -> is_reference indices num (e_img e) -> e_led e = k -> exists q, e_val e = Some q /\ (q == 0)%Q) ->
  Permutation order (seq 0 (Z.to_nat m)) ->
  forall leds, experiment_leds coords file = Ok (Some leds) ->
  analyse_array nnls lambda bot top n cam coords file t a prop indices num cpus order = Err ValueError.
Proof.
  intros nnls lambda bot top n cam coords file t a prop indices num cpus order es m l k Hload Hm Srt Cmp Hk (i0 & Hi0 & Hr0) Hz Hord leds Hleds.
  pose proof (sorted_lt_NoDup l Srt) as Nd.
  assert (Hl : map fst (ref_intensities (reference_entries indices num es)) = l).
  { apply ref_leds; [exact Srt| |].
    - intros e He. unfold reference_entries in He. apply filter_In in He. destruct He as (He & _). rewrite <- (proj2 Cmp (e_img e) (proj1 Cmp e He)). apply in_map. apply filter_In. split; [exact He|apply Z.eqb_refl].
    - intros x Hx. rewrite <- (proj2 Cmp i0 Hi0) in Hx. apply in_map_iff in Hx. destruct Hx as (e & <- & He). apply filter_In in He. destruct He as (He1 & He2). apply Z.eqb_eq in He2.
      exists e. split; [|reflexivity]. unfold reference_entries. apply filter_In. split; [exact He1|]. rewrite He2. unfold is_reference in Hr0.
      destruct indices as [is|]; [apply existsb_exists; exists i0; split; [exact Hr0|apply Z.eqb_refl]|apply Z.leb_le; exact Hr0]. }
  unfold analyse_array, analyse_with, analyse_by, analyse_avg. change (ref_values mean) with ref_intensities. rewrite Hleds. cbn [bind distance_array]. rewrite Hload. cbn [bind]. cbv zeta.
  set (A := map _ (rev leds)). set (ref := reference_entries indices num es) in *. set (ms := map snd (ref_intensities ref)).
  assert (Lne : l <> []) by (intros C; rewrite C in Hk; destruct Hk).
  assert (Lm : List.length ms = List.length l) by (unfold ms; rewrite <- Hl, !map_length; reflexivity).
  assert (S : serial (solve_linear nnls lambda n A) es ms = Err ValueError).
  { unfold serial. apply (serial_loop_fails _ _ _ _ _ _ i0 (filter (fun e => (e_img e =? i0)%Z) es)).
    - rewrite (complete_groups es m l Hm Lne Cmp). apply in_map_iff. exists i0. split; [reflexivity|]. apply in_zrange. lia.
    - intros last rel x Hrel. pose proof (proj2 Cmp i0 Hi0) as Hi. set (fs := filter (fun e => (e_img e =? i0)%Z) es) in *.
      (* position of the LED *)
      destruct (In_nth_error _ _ Hk) as (j & Hj).
      assert (Ej : exists e, nth_error fs j = Some e /\ e_led e = k).
      { rewrite <- Hi, nth_error_map in Hj. destruct (nth_error fs j) as [e|]; [|discriminate]. cbn [option_map] in Hj. apply Some_inj in Hj. exists e. split; [reflexivity|exact Hj]. }
      destruct Ej as (e & Ej & Ek). assert (Ein : In e fs) by (eapply nth_error_In; exact Ej). unfold fs in Ein. apply filter_In in Ein. destruct Ein as (Ee & Ei). apply Z.eqb_eq in Ei.
      destruct (Hz e Ee ltac:(rewrite Ei; exact Hr0) Ek) as (q & Q1 & Q2).
      assert (Mj : exists r, nth_error ms j = Some (Some r) /\ (r == 0)%Q).
      { assert (K : keys (map e_led ref) = l) by (rewrite <- Hl; unfold ref_intensities, Analysis_Model.groups; rewrite !map_map; cbn [fst]; rewrite map_id; reflexivity).
        assert (Eq : ms = map (fun k => mean (map e_val (filter (fun e => (e_led e =? k)%Z) ref))) l) by (unfold ms, ref_intensities, Analysis_Model.groups; rewrite K, !map_map; reflexivity).
        rewrite Eq, nth_error_map, Hj. cbn [option_map].
        assert (Nn : In e (filter (fun e => (e_led e =? k)%Z) ref)).
        { apply filter_In. split; [|apply Z.eqb_eq; exact Ek]. unfold ref, reference_entries. apply filter_In. split; [exact Ee|]. rewrite Ei. unfold is_reference in Hr0.
          destruct indices as [is|]; [apply existsb_exists; exists i0; split; [exact Hr0|apply Z.eqb_refl]|apply Z.leb_le; exact Hr0]. }
        assert (Az : Forall (fun v => exists q, v = Some q /\ (q == 0)%Q) (map e_val (filter (fun e => (e_led e =? k)%Z) ref))).
        { apply Forall_forall. intros v Hv. apply in_map_iff in Hv. destruct Hv as (e' & <- & He'). apply filter_In in He'. destruct He' as (H1 & H2). apply Z.eqb_eq in H2.
          unfold ref, reference_entries in H1. apply filter_In in H1. destruct H1 as (H1 & H3). apply Hz; [exact H1| |exact H2]. unfold is_reference.
          destruct indices as [is|]; [|apply Z.leb_le; exact H3]. apply existsb_exists in H3. destruct H3 as (i & J1 & J2). apply Z.eqb_eq in J2. rewrite J2. exact J1. }
        destruct (filter (fun e => (e_led e =? k)%Z) ref) as [|e1 es1] eqn:Ef; [destruct Nn|]. clear - Az.
        assert (Nu : exists qs, numbers (map e_val (e1 :: es1)) = qs /\ qs <> [] /\ (qsum qs == 0)%Q).
        { eexists. split; [reflexivity|]. split.
          - cbn [map]. inversion Az as [|? ? (q & -> & _) _]; subst. discriminate.
          - clear - Az. induction Az as [|v vs (q & -> & Hq) F IH]; [reflexivity|]. cbn. fold (numbers vs). fold (qsum (numbers vs)). rewrite Hq, IH. reflexivity. }
        destruct Nu as (qs & U1 & U2 & U3). unfold mean. rewrite U1. destruct qs as [|q0 qs]; [congruence|]. eexists. split; [reflexivity|]. rewrite U3. unfold Qdiv. apply Qmult_0_l. }
      destruct Mj as (r & R1 & R2).
      assert (Nan : In NaN rel).
      { assert (Lf : List.length fs = List.length l) by (rewrite <- Hi, map_length; reflexivity).
        unfold np_div in Hrel. rewrite map_length, Lf, Lm, Nat.eqb_refl in Hrel. apply Ok_inj in Hrel. subst rel. apply in_map_iff. exists (e_val e, Some r). split.
        - cbn [fst snd]. rewrite Q1. unfold cell_div. replace (Qeq_bool r 0) with true by (symmetry; apply Qeq_bool_iff; exact R2). replace (Qeq_bool q 0) with true by (symmetry; apply Qeq_bool_iff; exact Q2). reflexivity.
        - clear - Ej R1. clearbody ms fs. revert ms j Ej R1. induction fs as [|f fs IH]; intros [|m ms] [|j] Ej R1; try discriminate; cbn [nth_error map combine In] in *; [apply Some_inj in Ej, R1; subst; left; reflexivity|right; eapply IH; eassumption]. }
      unfold solve_linear. assert (N : all_some (map rel_R rel) = None) by (apply all_some_none; apply in_map_iff; exists NaN; split; [reflexivity|exact Nan]).
      rewrite N. destruct (all_some A); discriminate. }
  destruct (1 <? cpus)%Z; [|exact S]. rewrite (C43_parallel_equals_serial _ _ order es ms m l (solve_linear_memoryless nnls lambda n A) Hm Lne Nd Cmp Hord Lm). exact S.
Qed.
Print Assumptions C95_dark_led_fails.

(** No reference image in the table. *)
Theorem C95_no_reference_fails : forall nnls lambda bot top n cam coords file t a prop indices num cpus order es m l leds,
  load_img_data t a prop = Ok es -> (1 <= m)%Z -> (2 <= List.length l)%nat -> NoDup l -> complete es m l ->
  (forall i, (1 <= i <= m)%Z -> ~ is_reference indices num i) ->
  experiment_leds coords file = Ok (Some leds) ->
  analyse_array nnls lambda bot top n cam coords file t a prop indices num cpus order = Err ValueError.
Proof.
  intros nnls lambda bot top n cam coords file t a prop indices num cpus order es m l leds Hload Hm Hl Nd Cmp Hno Hleds.
  unfold analyse_array, analyse_with, analyse_by, analyse_avg. change (ref_values mean) with ref_intensities. rewrite Hleds. cbn [bind distance_array]. rewrite Hload. cbn [bind]. cbv zeta. set (A := map _ (rev leds)).
  assert (R : reference_entries indices num es = []).
  { unfold reference_entries. assert (F : forall e, In e es -> (match indices with Some is => existsb (Z.eqb (e_img e)) is | None => (e_img e <=? num)%Z end) = false).
    { intros e He. specialize (Hno _ (proj1 Cmp e He)). unfold is_reference in Hno. destruct indices as [is|].
      - destruct (existsb (Z.eqb (e_img e)) is) eqn:X; [|reflexivity]. exfalso. apply Hno. apply existsb_exists in X. destruct X as (i & J1 & J2). apply Z.eqb_eq in J2. rewrite J2. exact J1.
      - apply Z.leb_gt. lia. }
    clear - F. induction es as [|e es IH]; [reflexivity|]. cbn [filter]. rewrite (F e (or_introl eq_refl)). apply IH. intros e' He'. apply F. right. exact He'. }
  rewrite R. change (map snd (ref_intensities [])) with (@nil cell).
  assert (Lne : l <> []) by (intros C; subst l; simpl in Hl; lia).
  assert (D : forall i, (1 <= i <= m)%Z -> np_div (map e_val (filter (fun e => (e_img e =? i)%Z) es)) [] = Err ValueError).
  { intros i Hi. pose proof (proj2 Cmp i Hi) as E. assert (L : List.length (map e_val (filter (fun e => (e_img e =? i)%Z) es)) = List.length l) by (rewrite <- E, !map_length; reflexivity).
    destruct (map e_val (filter (fun e => (e_img e =? i)%Z) es)) as [|v [|w vs]]; [simpl in L; lia|simpl in L; lia|reflexivity]. }
  destruct (1 <? cpus)%Z.
  - unfold parallel. rewrite (complete_array es m l Hm Lne Nd Cmp). cbn [bind]. rewrite zrange_cons by lia. cbn [map mapM]. rewrite D by lia. reflexivity.
  - unfold serial. rewrite (complete_groups es m l Hm Lne Cmp). rewrite zrange_cons by lia. cbn [map serial_loop]. rewrite D by lia. reflexivity.
Qed.
Print Assumptions C95_no_reference_fails.

(** The optical depth the solver is given for an LED with the value [v] and the reference
    mean [m]: between 0 and ln 10^10; a mean of 0 counts as a free view if the value is
    positive and as darkness if it is negative. *)
Definition depth_given (v m : Q) (d : R) : Prop :=
  let ratio := Q2R v / Q2R m in
  ((m == 0)%Q -> ((0 < v)%Q -> d = 0) /\ ((v < 0)%Q -> d = ln (10000000000))) /\
  (~ (m == 0)%Q -> (1 <= ratio -> d = 0) /\ (ratio <= 1 / 10000000000 -> d = ln (10000000000)) /\
                   (1 / 10000000000 <= ratio <= 1 -> exp (- d) = ratio)).

Lemma depth_values : forall r,
  (1 <= r -> optical_depth r = 0) /\ (r <= 1 / 10000000000 -> optical_depth r = ln 10000000000) /\
  (1 / 10000000000 <= r <= 1 -> exp (- optical_depth r) = r).
Proof.
  intros r. unfold optical_depth, clip_rel. split; [|split].
  - intros H. rewrite Rmax_left by lra. rewrite Rmin_right by lra. rewrite ln_1. lra.
  - intros H. rewrite Rmax_right by lra. rewrite Rmin_left by lra. unfold Rdiv. rewrite Rmult_1_l. rewrite ln_Rinv by lra. lra.
  - intros H. rewrite Rmax_left by lra. rewrite Rmin_left by lra. rewrite Ropp_involutive. apply exp_ln. lra.
Qed.

Lemma all_some_nth : forall A (l : list (option A)) r, all_some l = Some r -> l = map Some r.
Proof.
  intros A l. induction l as [|[a|] l IH]; intros r H; cbn [all_some] in H; [injection H as <-; reflexivity| |discriminate].
  destruct (all_some l) as [r'|] eqn:E; [|discriminate]. injection H as <-. cbn [map]. rewrite (IH r' eq_refl). reflexivity.
Qed.

(** Whenever the solver returns coefficients, every LED has a number as value and as
    reference mean, they are not both 0, and the right-hand side has this depth in the
    place of the LED. *)
Theorem C95_depths_given_to_the_solver : forall nnls lambda n A last vs ms rel x,
  List.length vs = List.length ms -> np_div vs ms = Ok rel -> solve_linear nnls lambda n A last rel = Ok x ->
  exists M b, A = map Some M /\ x = nnls (a_aug lambda n M) b /\ List.length M = List.length vs /\
  forall i, (i < List.length vs)%nat ->
  exists v m d, nth_error vs i = Some (Some v) /\ nth_error ms i = Some (Some m) /\ nth_error b i = Some d /\
    ~ ((v == 0)%Q /\ (m == 0)%Q) /\ depth_given v m d.
Proof.
  intros nnls lambda n A last vs ms rel x L D S. unfold solve_linear in S.
  destruct (all_some A) as [M|] eqn:E1; [|discriminate]. destruct (all_some (map rel_R rel)) as [rv|] eqn:E2; [|discriminate].
  destruct (List.length rv =? List.length M)%nat eqn:E3; [|discriminate]. apply Nat.eqb_eq in E3. apply Ok_inj in S. subst x.
  apply all_some_nth in E1, E2. unfold np_div in D. rewrite L, Nat.eqb_refl in D. apply Ok_inj in D. subst rel.
  assert (Lr : List.length rv = List.length vs).
  { rewrite <- (map_length Some rv), <- E2, !map_length, combine_length, L. lia. }
  exists M, (b_aug n rv). split; [exact E1|]. split; [reflexivity|]. split; [congruence|]. intros i Hi.
  assert (Hm : (i < List.length ms)%nat) by congruence.
  destruct (nth_error vs i) as [cv|] eqn:Ev; [|apply nth_error_None in Ev; lia].
  destruct (nth_error ms i) as [cm|] eqn:Em; [|apply nth_error_None in Em; lia].
  destruct (nth_error rv i) as [r|] eqn:Er; [|apply nth_error_None in Er; lia].
  assert (C : nth_error (combine vs ms) i = Some (cv, cm)).
  { clear - Ev Em. revert i ms Ev Em. induction vs as [|a vs IH]; intros [|i] [|b ms] Ev Em; cbn in *; try discriminate; [congruence|apply IH; assumption]. }
  assert (X : rel_R (cell_div cv cm) = Some r).
  { apply (map_nth_error (fun p => cell_div (fst p) (snd p))) in C. apply (map_nth_error rel_R) in C. rewrite E2 in C.
    rewrite (map_nth_error Some i rv Er) in C. cbn [fst snd] in C. congruence. }
  destruct cv as [v|], cm as [m|]; try discriminate. exists v, m, (optical_depth r).
  split; [reflexivity|]. split; [reflexivity|]. split.
  { unfold b_aug. rewrite nth_error_app1 by (rewrite map_length; lia). apply (map_nth_error optical_depth). exact Er. }
  destruct (depth_values r) as (V1 & V2 & V3). cbn [cell_div] in X. destruct (Qeq_bool m 0) eqn:Q0.
  - apply Qeq_bool_iff in Q0. destruct (Qeq_bool v 0) eqn:Q1; [discriminate|]. apply Qeq_bool_neq in Q1.
    split; [tauto|]. unfold depth_given. cbv zeta. split; [intros _|intros N; contradiction].
    split; intros Hv.
    + replace (Qle_bool 0 v) with true in X by (symmetry; apply Qle_bool_iff; apply Qlt_le_weak; exact Hv). cbn [rel_R] in X.
      apply Some_inj in X. apply V1. lra.
    + replace (Qle_bool 0 v) with false in X.
      2:{ symmetry. destruct (Qle_bool 0 v) eqn:B; [|reflexivity]. apply Qle_bool_iff in B. exfalso. apply (Qlt_not_le v 0); assumption. }
      cbn [rel_R] in X. apply Some_inj in X. apply V2. lra.
  - apply Qeq_bool_neq in Q0. split; [tauto|]. cbn [rel_R] in X. apply Some_inj in X.
    assert (Y : r = Q2R v / Q2R m) by (rewrite <- X, Q2R_div by exact Q0; reflexivity).
    unfold depth_given. cbv zeta. split; [intros N; contradiction|intros _]. rewrite <- Y. tauto.
Qed.
Print Assumptions C95_depths_given_to_the_solver.

(** Five LEDs: reference mean 0 with a positive and with a negative value, half of the
    reference, brighter than the reference, a negative value. *)
Example C95_depths_example : forall nnls,
  let vs := map Some [3; -3; 4; 9; -1]%Q in let ms := map Some [0; 0; 8; 8; 8]%Q in
  exists rel b, np_div vs ms = Ok rel /\
    solve_linear nnls 0 1 (repeat (Some [1]) 5) None rel = Ok (nnls (a_aug 0 1 (repeat [1] 5)) b) /\
    firstn 5 b = [0; ln 10000000000; ln 2; 0; ln 10000000000].
Proof.
  intros nnls vs ms. eexists _, _. split; [reflexivity|]. split; [reflexivity|].
  unfold b_aug. cbn [map app firstn]. unfold Q2R. cbn [Qnum Qden Qdiv Qmult Qinv inject_Z].
  destruct (depth_values 1) as (A1 & _). destruct (depth_values 0) as (_ & A2 & _).
  rewrite A1 by lra. rewrite A2 by lra. f_equal. f_equal.
  assert (H2 : optical_depth (IZR (4 * 1) * / IZR (Z.pos (1 * 8))) = ln 2).
  { unfold optical_depth, clip_rel. cbn [Z.mul Pos.mul]. rewrite Rmax_left by lra. rewrite Rmin_left by lra.
    replace (4 * / 8) with (/ 2) by lra. rewrite ln_Rinv by lra. lra. }
  assert (H3 : optical_depth (IZR (9 * 1) * / IZR (Z.pos (1 * 8))) = 0) by (apply (proj1 (depth_values _)); change (9 * 1)%Z with 9%Z; change (1 * 8)%positive with 8%positive; lra).
  assert (H4 : optical_depth (IZR (-1 * 1) * / IZR (Z.pos (1 * 8))) = ln 10000000000)
    by (apply (proj1 (proj2 (depth_values _))); change (-1 * 1)%Z with (-1)%Z; change (1 * 8)%positive with 8%positive; lra).
  rewrite H2, H3, H4. reflexivity.
Qed.

(** *** Concrete cases: the arrangement of C94 *)
Definition dark_recs (i : Z) : list (led_data Format_Model.fit_data) :=
  map (fun p => LedData (fst p) 0 (snd p) 1%Q 1 None) (combine [0; 1; 2]%Z [8000; 0; 8000]%Z).
Definition dark_table : frame := Frame fast_table_columns (concat (map (fun i => map (plain_row i) (dark_recs i)) [1; 2]%Z)).

Example C95_example_dark : forall nnls lambda,
  analyse_array nnls lambda 0 3 3 eg_cam eg_coords (Some [2; 1; 0]%Z) dark_table 0 "sum_col_val" None 1 4 [1; 0]%nat = Err ValueError /\
  analyse_array nnls lambda 0 3 3 eg_cam eg_coords (Some [2; 1; 0]%Z) eg_table 0 "sum_col_val" (Some [7]%Z) 1 1 [1; 0]%nat = Err ValueError.
Proof.
  assert (Ci : forall i, (1 <= i <= 2 -> i = 1 \/ i = 2)%Z) by lia. intros nnls lambda. split.
  - eapply (C95_dark_led_fails nnls lambda 0 3 3 eg_cam eg_coords (Some [2; 1; 0]%Z) dark_table 0 "sum_col_val" None 1 4 [1; 0]%nat _ 2 [0; 1; 2]%Z 1%Z).
    + vm_compute. reflexivity.
    + lia.
    + repeat constructor; lia.
    + split; [intros e H; repeat (destruct H as [<-|H]; [cbn; lia|]); destruct H|intros i Hi; destruct (Ci i Hi) as [-> | -> ]; reflexivity].
    + simpl. tauto.
    + exists 1%Z. split; [lia|]. cbn. lia.
    + intros e H _ He. repeat (destruct H as [<-|H]; [first [discriminate He|eexists; split; [reflexivity|reflexivity]]|]). destruct H.
    + apply perm_swap.
    + reflexivity.
  - eapply (C95_no_reference_fails nnls lambda 0 3 3 eg_cam eg_coords (Some [2; 1; 0]%Z) eg_table 0 "sum_col_val" (Some [7]%Z) 1 1 [1; 0]%nat _ 2 [0; 1; 2]%Z).
    + vm_compute. reflexivity.
    + lia.
    + simpl. lia.
    + repeat constructor; simpl; lia.
    + split; [intros e H; repeat (destruct H as [<-|H]; [cbn; lia|]); destruct H|intros i Hi; destruct (Ci i Hi) as [-> | -> ]; reflexivity].
    + intros i Hi [H|[]]. lia.
    + reflexivity.
Qed.

(** The third LED hangs half a metre above the domain. *)
Example C95_example_outside : forall nnls lambda xs,
  analyse_array nnls lambda 0 (5 / 2) 3 eg_cam eg_coords (Some [2; 1; 0]%Z) eg_table 0 "sum_col_val" None 1 1 [] <> Ok xs.
Proof.
  intros nnls lambda xs. eapply (C95_led_out_of_view_fails nnls lambda 0 (5 / 2) 3 eg_cam eg_coords [2; 1; 0]%Z eg_table 0 "sum_col_val" None 1 1 [] 2 (Point 0 0 3)).
  - lia.
  - lra.
  - simpl. lia.
  - repeat (constructor; [simpl; lia|]). constructor.
  - left. reflexivity.
  - reflexivity.
  - left. unfold eg_cam. cbn [pz]. split; [lra|].
    assert (E : euclid (Point 0 0 0) (Point 0 0 3) = 3) by (unfold euclid; cbn [px py pz]; replace ((0 - 0) * (0 - 0) + (0 - 0) * (0 - 0) + (0 - 3) * (0 - 3)) with (3 * 3) by ring; apply sqrt_square; lra).
    rewrite E. unfold overlap. rewrite (Rmax_right 0 3), (Rmin_left 0 3), (Rmin_left (5 / 2) 3), (Rmax_left 0 0) by lra. rewrite Rmax_right by lra. rewrite (Rabs_pos_eq (3 - 0)) by lra. lra.
  - vm_compute. reflexivity.
Qed.
