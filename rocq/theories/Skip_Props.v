(** C132: LEDs skipped in step 3 ([num_skip_leds] > 0) and the analysis. *)
From Coq Require Import ZArith QArith Qreals Lia Bool String List Permutation Sorted Reals Lra.
From Verif Require Import Base Step1_Model Step2_Model Step3_Model Format_Model Table_Model Table_Spec Table_Props Analysis_Model Analysis_Props
  Layers_Model Layers_Spec Layers_Props Solver_Model Solver_Props Nnls_Props End_Model End_Props Minimiser_Props NonLinear_Proofs NonLinear_Props.
Import ListNotations.
Local Open Scope Z_scope.

(** ** Specification *)

(** The LEDs of which step 3 makes records, if [skip] LEDs are skipped. *)
Definition kept (skip : Z) (l : list Z) : list Z := filter (fun k => k mod (skip + 1) =? 0) l.

(** ** Records *)
Lemma led_loop_kept : forall F (fit : option (list (list Z) -> res F)) img r (areas : list row) skip idx l ds,
  led_loop fit img r areas skip idx l = Ok ds -> map d_id ds = kept skip l /\ Forall (fun d => d_array d = idx) ds.
Proof.
  intros F fit img r areas skip idx l. induction l as [|i l IH]; intros ds H; cbn [led_loop kept filter] in *.
  - apply Ok_inj in H. subst. split; [reflexivity|constructor].
  - destruct (i mod (skip + 1) =? 0); [|apply IH; exact H].
    destruct (analyse_led fit img r areas i idx) as [d|] eqn:E; [|discriminate]. cbn [bind] in H.
    destruct (led_loop fit img r areas skip idx l) as [ds'|]; [|discriminate]. cbn [bind] in H. apply Ok_inj in H. subst ds.
    destruct (IH _ eq_refl) as (I1 & I2). unfold analyse_led in E. destruct (np_index areas i) as [[x [y z]]|]; [|discriminate]. cbn [bind] in E.
    destruct (match fit with None => Ok None | Some f => res_map Some (f (area img r y z)) end); [|discriminate]. cbn [bind] in E.
    destruct (np_amax (concat (area img r y z))); [|discriminate]. cbn [bind] in E. apply Ok_inj in E. subst d. cbn [map d_id d_array].
    split; [f_equal; exact I1|constructor; [reflexivity|exact I2]].
Qed.

Lemma array_loop_kept : forall F (fit : option (list (list Z) -> res F)) img r (areas : list row) skip arrays idx ds,
  array_loop fit img r areas skip idx arrays = Ok ds ->
  Forall (fun d => idx <= d_array d) ds /\
  forall a l, nth_error arrays a = Some l -> map d_id (filter (fun d => d_array d =? idx + Z.of_nat a) ds) = kept skip l.
Proof.
  intros F fit img r areas skip arrays. induction arrays as [|ar arrays IH]; intros idx ds H; cbn [array_loop] in H.
  - apply Ok_inj in H. subst. split; [constructor|]. intros [|a] l C; discriminate.
  - destruct (led_loop fit img r areas skip idx ar) as [d1|] eqn:E1; [|discriminate]. cbn [bind] in H.
    destruct (array_loop fit img r areas skip (idx + 1) arrays) as [d2|] eqn:E2; [|discriminate]. cbn [bind] in H. apply Ok_inj in H. subst ds.
    destruct (led_loop_kept _ _ _ _ _ _ _ _ _ E1) as (L1 & L2). destruct (IH _ _ E2) as (I1 & I2). split.
    + apply Forall_app. split; [eapply Forall_impl; [|exact L2]; intros d Hd; simpl in Hd; lia|eapply Forall_impl; [|exact I1]; intros d Hd; simpl in Hd; lia].
    + intros a l Ha. rewrite filter_app, map_app.
      assert (none : forall (ds : list (led_data F)) k, Forall (fun d => d_array d <> k) ds -> filter (fun d => d_array d =? k) ds = []).
      { clear. intros ds k H. induction H as [|d ds H F' IH]; [reflexivity|]. cbn [filter]. apply Z.eqb_neq in H. rewrite H. exact IH. }
      assert (all : forall (ds : list (led_data F)) k, Forall (fun d => d_array d = k) ds -> filter (fun d => d_array d =? k) ds = ds).
      { clear. intros ds k H. induction H as [|d ds H F' IH]; [reflexivity|]. cbn [filter]. apply Z.eqb_eq in H. rewrite H, IH. reflexivity. }
      destruct a as [|a]; cbn [nth_error] in Ha.
      * apply Some_inj in Ha. rewrite Ha in L1. replace (idx + Z.of_nat 0) with idx by lia. rewrite all by exact L2. rewrite (none d2).
        -- cbn [map]. rewrite app_nil_r. exact L1.
        -- eapply Forall_impl; [|exact I1]. intros d Hd. simpl in Hd. lia.
      * rewrite (none d1); [|eapply Forall_impl; [|exact L2]; intros d Hd; simpl in Hd; lia]. cbn [map app].
        rewrite <- (I2 a l Ha). replace (idx + Z.of_nat (S a)) with (idx + 1 + Z.of_nat a) by lia. reflexivity.
Qed.

Lemma kept_perm : forall skip l l', Permutation l l' -> Permutation (kept skip l) (kept skip l').
Proof. intros skip l l'. apply Permutation_filter. Qed.

Lemma kept_fewer : forall skip l, 0 <= skip -> (exists k, In k l /\ ~ (skip + 1 | k)) -> (List.length (kept skip l) < List.length l)%nat.
Proof.
  intros skip l Hs (k & Hk & Hd). unfold kept. induction l as [|x l IH]; [destruct Hk|]. cbn [filter List.length].
  pose proof (filter_shorter _ (fun k => k mod (skip + 1) =? 0) l) as Le.
  destruct Hk as [->|Hk].
  - destruct (Z.eqb_spec (k mod (skip + 1)) 0) as [E|_]; [|lia]. exfalso. apply Hd. apply Z.mod_divide; [lia|exact E].
  - specialize (IH Hk). destruct (x mod (skip + 1) =? 0); cbn [List.length]; lia.
Qed.

(** ** What the analysis loads *)
Section Loaded.
  Variables (A : list (list Z)) (groups : option (list (list Z))) (arrays : list (list Z)) (a : nat) (l : list Z) (skip n : Z)
            (recs : Z -> list (led_data Format_Model.fit_data)) (t : frame) (prop : string).
  Hypotheses (Hskip : 0 <= skip) (Hg : ascending_merge groups) (Harr : arrays = merge_indices (reorder_led_indices A) groups)
             (Ha : nth_error arrays a = Some l) (Hn : 1 <= n) (Ht : table_of_images t n recs) (Hp : known_property prop)
             (Hrec : forall i, 1 <= i <= n -> exists F (fit : option (list (list Z) -> res F)) img r areas arrays' ds,
                Forall2 (@Permutation Z) arrays' arrays /\
                generate_analysis_data fit img r areas arrays' skip = Ok ds /\
                map (fun d => (d_id d, d_array d)) ds = map (fun d => (d_id d, d_array d)) (recs i))
             (Hsome : exists d, In d (recs 1)).

  Lemma kept_records : forall i, 1 <= i <= n -> Permutation (map d_id (filter (fun d => d_array d =? Z.of_nat a) (recs i))) (kept skip l).
  Proof.
    intros i Hi. destruct (Hrec i Hi) as (F & fit & img & r & areas & arrays' & ds & H1 & H2 & H3).
    destruct (array_loop_kept _ _ _ _ _ _ _ _ _ H2) as (_ & G).
    destruct (nth_error arrays' a) as [l'|] eqn:El.
    - specialize (G a l' El). pose proof (Analysis_Props.Forall2_nth _ _ _ _ _ _ _ _ H1 El Ha) as Pl. rewrite <- (kept_perm skip _ _ Pl), <- G. cbn [Z.add]. clear - H3.
      assert (X : map d_id (filter (fun d => d_array d =? Z.of_nat a) (recs i)) = map d_id (filter (fun d => d_array d =? Z.of_nat a) ds)); [|rewrite X; apply Permutation_refl].
      revert H3. generalize (recs i). induction ds as [|d ds IH]; intros rs H3; destruct rs as [|d' rs]; try discriminate; [reflexivity|].
      cbn [map] in H3. injection H3 as E1 E2 E3. cbn [filter]. rewrite E2. destruct (d_array d' =? Z.of_nat a); [cbn [map]; rewrite E1; f_equal|]; apply IH; exact E3.
    - exfalso. apply nth_error_None in El. pose proof (Forall2_len _ _ _ H1). assert (a < List.length arrays)%nat by (apply nth_error_Some; congruence). lia.
  Qed.

  Lemma none_kept : kept skip l = [] -> load_img_data t (Z.of_nat a) prop = Err SystemExit.
  Proof.
    intros E. destruct (row_of_image_columns t n recs Ht Hn Hsome prop Hp) as (C1 & C2). destruct (blocks t n recs (Z.of_nat a) prop Hp Ht) as (ess & B & F).
    unfold load_img_data. destruct (col_index "led_array_id" (cols t)); [|congruence]. destruct (col_index prop (cols t)); [|congruence]. rewrite B. cbn [bind].
    assert (N : Forall (fun es => es = []) ess).
    { assert (Q : forall is ess, (forall i, In i is -> 1 <= i <= n) -> Forall2 (fun i es => exists sel, Permutation sel (filter (fun d => d_array d =? Z.of_nat a) (recs i)) /\ StronglySorted Z.le (map d_id sel) /\
               Forall2 (fun d e => e_img e = i /\ e_led e = d_id d /\ value_of_record prop d (e_val e)) sel es) is ess -> Forall (fun es => es = []) ess).
      { clear B F ess. intros is ess His F. induction F as [|i es is ess (sel & P1 & _ & P3) F IH]; [constructor|]. constructor; [|apply IH; intros j Hj; apply His; right; exact Hj].
        pose proof (kept_records i (His i (or_introl eq_refl))) as K. rewrite E in K. apply Permutation_sym, Permutation_nil, map_eq_nil in K. rewrite K in P1. apply Permutation_sym, Permutation_nil in P1. subst sel. inversion P3. reflexivity. }
      apply (Q (zrange 1 (n + 1))); [|exact F]. intros i Hi. apply in_zrange in Hi. lia. }
    replace (concat ess) with (@nil entry); [reflexivity|]. clear - N. induction N as [|es ess -> N IH]; [reflexivity|exact IH].
  Qed.

  Lemma some_kept : forall indices num, kept skip l <> [] -> (exists i, 1 <= i <= n /\ is_reference indices num i) ->
    exists es, load_img_data t (Z.of_nat a) prop = Ok es /\ complete es n (kept skip l) /\
      (forall avg, List.length (ref_values avg (reference_entries indices num es)) = List.length (kept skip l)).
  Proof.
    intros indices num Hk (i0 & Hi0 & Href). assert (Hs : StronglySorted Z.lt (kept skip l)) by (apply filter_sorted; rewrite Harr in Ha; eapply arrays_ascend; eassumption).
    destruct (row_of_image_columns t n recs Ht Hn Hsome prop Hp) as (C1 & C2).
    destruct (array_entries t n recs (Z.of_nat a) prop (kept skip l) Hp Ht Hn Hk Hs C1 C2 kept_records) as (es & E1 & E2 & E3).
    assert (Im : forall i, 1 <= i <= n -> map e_led (filter (fun e => e_img e =? i) es) = kept skip l).
    { intros i Hi. destruct (E3 i Hi) as (sel & _ & S2 & S3). rewrite <- S2. clear - S3. induction S3 as [|d e sel fs (G & _) S3 IH]; [reflexivity|]. cbn [map]. rewrite G, IH. reflexivity. }
    exists es. split; [exact E1|]. split; [split; [intros e He; apply (E2 e He)|exact Im]|].
    intros avg. assert (R : map fst (ref_intensities (reference_entries indices num es)) = kept skip l).
    { apply ref_leds; [exact Hs| |].
      - intros e He. unfold reference_entries in He. apply filter_In in He. apply E2. apply He.
      - intros x Hx. rewrite <- (Im i0 Hi0) in Hx. apply in_map_iff in Hx. destruct Hx as (e & <- & He). apply filter_In in He. destruct He as (He1 & He2).
        apply Z.eqb_eq in He2. exists e. split; [|reflexivity]. unfold reference_entries. apply filter_In. split; [exact He1|]. rewrite He2.
        destruct indices as [is|]; [|apply Z.leb_le; exact Href]. apply existsb_exists. exists i0. split; [exact Href|apply Z.eqb_refl]. }
    rewrite <- R. unfold ref_values, ref_intensities. rewrite !map_length. reflexivity.
  Qed.
End Loaded.

Lemma np_div_same : forall vs ms, List.length vs = List.length ms -> exists rel, np_div vs ms = Ok rel /\ List.length rel = List.length ms.
Proof.
  intros vs ms E. unfold np_div. rewrite E, Nat.eqb_refl. eexists. split; [reflexivity|]. rewrite map_length, combine_length, E. apply Nat.min_id.
Qed.

Local Open Scope R_scope.

(** ** C132 *)

(** What the three theorems share: [n] images measured with [skip] LEDs skipped, and an array with an LED that was left out. *)
Definition measured_with_skip (skip : Z) (arrays : list (list Z)) (n : Z) (recs : Z -> list (led_data Format_Model.fit_data)) : Prop :=
  forall i, (1 <= i <= n)%Z -> exists F (fit : option (list (list Z) -> res F)) img r areas arrays' ds,
     Forall2 (@Permutation Z) arrays' arrays /\
     generate_analysis_data fit img r areas arrays' skip = Ok ds /\
     map (fun d => (d_id d, d_array d)) ds = map (fun d => (d_id d, d_array d)) (recs i).

Lemma analysis_fails : forall A groups arrays a l skip n recs t prop coords indices num avg dist solve cpus order,
  (0 <= skip)%Z -> ascending_merge groups -> arrays = merge_indices (reorder_led_indices A) groups ->
  nth_error arrays a = Some l -> (2 <= List.length l)%nat -> (1 <= n)%Z -> measured_with_skip skip arrays n recs -> (exists d, In d (recs 1%Z)) ->
  table_of_images t n recs -> known_property prop ->
  Forall (fun i => 0 <= i < Z.of_nat (List.length coords))%Z l -> (exists i, (1 <= i <= n)%Z /\ is_reference indices num i) -> Permutation order (seq 0 (Z.to_nat n)) ->
  (forall rows last rel, List.length rows = List.length l -> List.length rel = List.length (kept skip l) -> solve rows last rel = Err ValueError) ->
  analyse_avg avg dist solve coords (nth_error (index_files arrays) a) t (Z.of_nat a) prop indices num cpus order =
    Err (match kept skip l with [] => SystemExit | _ => ValueError end).
Proof.
  intros A groups arrays a l skip n recs t prop coords indices num avg dist solve cpus order Hs Hg Harr Ha Hl Hn Hrec Hsome Ht Hp Hc Href Hord Hsol.
  destruct (distance_rows point (option vec) coords (fun p => matrix_row (dist p)) arrays a l Ha Hl Hc) as (leds & rows & L1 & L2 & L3).
  unfold analyse_avg. rewrite L1. cbn [bind]. rewrite L2. cbn [bind].
  destruct (kept skip l) as [|k0 ks] eqn:K.
  { rewrite (none_kept arrays a l skip n recs t prop Ha Hn Ht Hp Hrec Hsome K). reflexivity. }
  destruct (some_kept A groups arrays a l skip n recs t prop Hg Harr Ha Hn Ht Hp Hrec Hsome indices num ltac:(rewrite K; discriminate) Href) as (es & E1 & E2 & E3).
  rewrite E1. cbn [bind]. cbv zeta. set (ms := map snd (ref_values avg (reference_entries indices num es))).
  assert (Lm : List.length ms = List.length (kept skip l)) by (unfold ms; rewrite map_length; apply E3).
  assert (Nd : NoDup (kept skip l)) by (apply NoDup_filter; apply sorted_lt_NoDup; rewrite Harr in Ha; eapply arrays_ascend; eassumption).
  assert (Lr : List.length rows = List.length l) by (symmetry; eapply Forall2_len; exact L3).
  assert (Ser : forall sol : option vec -> list quot -> res vec, (forall last rel, List.length rel = List.length (kept skip l) -> sol last rel = Err ValueError) -> serial sol es ms = Err ValueError).
  { intros sol H. unfold serial. rewrite (complete_groups es n (kept skip l) Hn ltac:(rewrite K; discriminate) E2). rewrite zrange_cons by lia. cbn [map serial_loop].
    destruct (np_div_same (map e_val (filter (fun e => (e_img e =? 1)%Z) es)) ms) as (rel & R1 & R2).
    { rewrite map_length, Lm. destruct E2 as (_ & E2). rewrite <- (E2 1%Z ltac:(lia)), map_length. reflexivity. }
    rewrite R1. cbn [bind]. rewrite H by congruence. reflexivity. }
  destruct (1 <? cpus)%Z.
  - change (parallel (solve rows) order es ms) with (parallel (fun _ : option vec => solve rows None) order es ms).
    rewrite (C43_parallel_equals_serial _ (fun _ : option vec => solve rows None) order es ms n (kept skip l) (fun _ _ => eq_refl) Hn ltac:(rewrite K; discriminate) Nd E2 Hord Lm).
    apply Ser. intros last rel Hrel. apply Hsol; [exact Lr|rewrite <- K; exact Hrel].
  - apply Ser. intros last rel Hrel. apply Hsol; [exact Lr|rewrite <- K; exact Hrel].
Qed.

(** The linear solver: no result, whatever nnls does. *)
Theorem C132_linear_fails : forall A groups arrays a l skip n recs t prop coords indices num nnls lambda bot top nlay cam cpus order,
  (0 <= skip)%Z -> ascending_merge groups -> arrays = merge_indices (reorder_led_indices A) groups ->
  nth_error arrays a = Some l -> (2 <= List.length l)%nat -> (1 <= n)%Z -> measured_with_skip skip arrays n recs -> (exists d, In d (recs 1%Z)) ->
  table_of_images t n recs -> known_property prop ->
  Forall (fun i => 0 <= i < Z.of_nat (List.length coords))%Z l -> (exists i, (1 <= i <= n)%Z /\ is_reference indices num i) -> Permutation order (seq 0 (Z.to_nat n)) ->
  (exists k, In k l /\ ~ (skip + 1 | k)%Z) ->
  analyse_with (solve_linear nnls lambda nlay) bot top nlay cam coords (nth_error (index_files arrays) a) t (Z.of_nat a) prop indices num cpus order =
    Err (match kept skip l with [] => SystemExit | _ => ValueError end).
Proof.
  intros A groups arrays a l skip n recs t prop coords indices num nnls lambda bot top nlay cam cpus order Hs Hg Harr Ha Hl Hn Hrec Hsome Ht Hp Hc Href Hord Hleft.
  pose proof (kept_fewer skip l Hs Hleft) as Few.
  apply (analysis_fails A groups arrays a l skip n recs); try assumption. intros rows last rel Lr Lq. unfold solve_linear.
  destruct (all_some rows) as [A'|] eqn:E1; [|reflexivity]. destruct (all_some (map rel_R rel)) as [rel'|] eqn:E2; [|reflexivity].
  assert (Len : forall T (x : list (option T)) y, all_some x = Some y -> List.length y = List.length x).
  { intros T x. induction x as [|[v|] x IH]; intros y H; cbn [all_some] in H; [injection H as <-; reflexivity| |discriminate]. destruct (all_some x) as [r|]; [|discriminate]. injection H as <-. cbn [List.length]. f_equal. apply IH. reflexivity. }
  apply Len in E1, E2. rewrite map_length in E2. destruct (Nat.eqb_spec (List.length rel') (List.length A')); [lia|reflexivity].
Qed.
Print Assumptions C132_linear_fails.

(** The non-linear solver, if not exactly one LED of the array is left. *)
Theorem C132_non_linear_fails : forall A groups arrays a l skip n recs t prop coords indices num minimize wc wp bot top nlay cam cpus order,
  (0 <= skip)%Z -> ascending_merge groups -> arrays = merge_indices (reorder_led_indices A) groups ->
  nth_error arrays a = Some l -> (2 <= List.length l)%nat -> (1 <= n)%Z -> measured_with_skip skip arrays n recs -> (exists d, In d (recs 1%Z)) ->
  table_of_images t n recs -> known_property prop ->
  Forall (fun i => 0 <= i < Z.of_nat (List.length coords))%Z l -> (exists i, (1 <= i <= n)%Z /\ is_reference indices num i) -> Permutation order (seq 0 (Z.to_nat n)) ->
  (exists k, In k l /\ ~ (skip + 1 | k)%Z) -> List.length (kept skip l) <> 1%nat ->
  analyse_with (solve_nonlinear minimize wc wp nlay) bot top nlay cam coords (nth_error (index_files arrays) a) t (Z.of_nat a) prop indices num cpus order =
    Err (match kept skip l with [] => SystemExit | _ => ValueError end).
Proof.
  intros A groups arrays a l skip n recs t prop coords indices num minimize wc wp bot top nlay cam cpus order Hs Hg Harr Ha Hl Hn Hrec Hsome Ht Hp Hc Href Hord Hleft Hone.
  pose proof (kept_fewer skip l Hs Hleft) as Few.
  apply (analysis_fails A groups arrays a l skip n recs); try assumption. intros rows last rel Lr Lq. unfold solve_nonlinear. rewrite Lr, Lq.
  destruct (Nat.eqb_spec (List.length (kept skip l)) (List.length l)); [lia|]. destruct (Nat.eqb_spec (List.length (kept skip l)) 1); [lia|]. destruct (Nat.eqb_spec (List.length l) 1); [lia|reflexivity].
Qed.
Print Assumptions C132_non_linear_fails.

(** Without merging every array of two and more LEDs loses one. *)
Theorem C132_every_array_loses_one : forall A a l skip, (1 <= skip)%Z -> nth_error (merge_indices (reorder_led_indices A) None) a = Some l -> (2 <= List.length l)%nat ->
  exists k, In k l /\ ~ (skip + 1 | k)%Z.
Proof.
  intros A a l skip Hs H Hl. cbn [merge_indices] in H. destruct (reorder_nth A 0 _ _ H) as (x & y & E & _). subst l. rewrite length_zrange in Hl.
  destruct (Z.eq_dec (x mod (skip + 1)) 0) as [D|D].
  - exists (x + 1)%Z. split; [apply in_zrange; lia|]. intros C. apply Z.mod_divide in D; [|lia]. pose proof (Z.divide_sub_r _ _ _ C D) as Q. replace (x + 1 - x)%Z with 1%Z in Q by lia.
    apply Z.divide_1_r_nonneg in Q; lia.
  - exists x. split; [apply in_zrange; lia|]. intros C. apply D. apply Z.mod_divide; [lia|exact C].
Qed.
Print Assumptions C132_every_array_loses_one.

(** Four LEDs; with one skipped the linear solver fails, with three skipped there is no LED of the second array. *)
Example C132_example : forall nnls lambda minimize wc wp,
  let A := [[4; 7]; [1; 9]]%Z in
  (let arrays := merge_indices (reorder_led_indices A) (Some [[0; 1]%Z]) in
   let recs := match generate_analysis_data (F := Format_Model.fit_data) None ex_img 1 ex_areas arrays 1 with Ok ds => ds | Err _ => [] end in
   let t := Frame fast_table_columns (concat (map (fun i => map (plain_row i) recs) [1; 2]%Z)) in
   kept 1 [0; 1; 2; 3]%Z = [0; 2]%Z /\
   analyse_with (solve_linear nnls lambda 3) 0 3 3 (Point 0 0 0) (map (fun h => Point 0 0 h) [1; 2; 3; 3 / 2]) (nth_error (index_files arrays) 0) t 0 "sum_col_val" None 1 1 [0; 1]%nat = Err ValueError /\
   analyse_with (solve_nonlinear minimize wc wp 3) 0 3 3 (Point 0 0 0) (map (fun h => Point 0 0 h) [1; 2; 3; 3 / 2]) (nth_error (index_files arrays) 0) t 0 "sum_col_val" None 1 4 [1; 0]%nat = Err ValueError) /\
  (let arrays := merge_indices (reorder_led_indices A) None in
   let recs := match generate_analysis_data (F := Format_Model.fit_data) None ex_img 1 ex_areas arrays 3 with Ok ds => ds | Err _ => [] end in
   let t := Frame fast_table_columns (concat (map (fun i => map (plain_row i) recs) [1; 2]%Z)) in
   kept 3 [2; 3]%Z = [] /\
   analyse_with (solve_linear nnls lambda 3) 0 3 3 (Point 0 0 0) (map (fun h => Point 0 0 h) [1; 2; 3; 3 / 2]) (nth_error (index_files arrays) 1) t 1 "sum_col_val" None 1 1 [0; 1]%nat = Err SystemExit).
Proof.
  intros nnls lambda minimize wc wp A.
  assert (T : forall recs, StronglySorted (fun d d' => (d_id d <= d_id d')%Z) recs -> Forall (fun d => (0 <= d_sum d)%Z) recs ->
    table_of_images (Frame fast_table_columns (concat (map (fun i => map (plain_row i) recs) [1; 2]%Z))) 2 (fun _ => recs)).
  { intros recs Hs F. exists (map (fun i => map (plain_row i) recs) [1; 2]%Z). split; [reflexivity|]. change (zrange 1 (2 + 1)) with [1; 2]%Z. cbn [map cols].
    assert (X : forall i, rows_of_image (row_of_record fast_table_columns i) recs (map (plain_row i) recs)).
    { intros i. exists recs. split; [apply Permutation_refl|]. split; [exact Hs|]. clear - F. induction F as [|d ds H F IH]; [constructor|]. cbn [map]. constructor; [apply plain_row_ok; exact H|exact IH]. }
    constructor; [apply X|]. constructor; [apply X|constructor]. }
  assert (Meas : forall skip arrays ds, generate_analysis_data (F := Format_Model.fit_data) None ex_img 1 ex_areas arrays skip = Ok ds -> measured_with_skip skip arrays 2 (fun _ => ds)).
  { intros skip arrays ds H i Hi. exists Format_Model.fit_data, None, ex_img, 1%Z, ex_areas, arrays, ds. split; [|split; [exact H|reflexivity]]. clear. induction arrays; constructor; [apply Permutation_refl|assumption]. }
  split; cbv zeta.
  - set (arrays := merge_indices (reorder_led_indices A) (Some [[0; 1]%Z])). set (recs := match generate_analysis_data (F := Format_Model.fit_data) None ex_img 1 ex_areas arrays 1 with Ok ds => ds | Err _ => [] end).
    split; [reflexivity|]. split.
    + apply (C132_linear_fails A (Some [[0; 1]%Z]) arrays 0 [0; 1; 2; 3]%Z 1 2 (fun _ => recs)); try lia.
      * repeat constructor; lia.
      * reflexivity.
      * reflexivity.
      * simpl. lia.
      * apply Meas. vm_compute. reflexivity.
      * eexists. left. vm_compute. reflexivity.
      * apply T; vm_compute; repeat constructor; intros C; discriminate C.
      * left. reflexivity.
      * repeat constructor; simpl; lia.
      * exists 1%Z. split; [lia|]. cbn [is_reference]. lia.
      * apply Permutation_refl.
      * exists 1%Z. split; [right; left; reflexivity|]. intros (q & Q). lia.
    + apply (C132_non_linear_fails A (Some [[0; 1]%Z]) arrays 0 [0; 1; 2; 3]%Z 1 2 (fun _ => recs)); try lia.
      * repeat constructor; lia.
      * reflexivity.
      * reflexivity.
      * simpl. lia.
      * apply Meas. vm_compute. reflexivity.
      * eexists. left. vm_compute. reflexivity.
      * apply T; vm_compute; repeat constructor; intros C; discriminate C.
      * left. reflexivity.
      * repeat constructor; simpl; lia.
      * exists 1%Z. split; [lia|]. cbn [is_reference]. lia.
      * apply perm_swap.
      * exists 1%Z. split; [right; left; reflexivity|]. intros (q & Q). lia.
      * discriminate.
  - set (arrays := merge_indices (reorder_led_indices A) None). set (recs := match generate_analysis_data (F := Format_Model.fit_data) None ex_img 1 ex_areas arrays 3 with Ok ds => ds | Err _ => [] end).
    split; [reflexivity|].
    apply (C132_linear_fails A None arrays 1 [2; 3]%Z 3 2 (fun _ => recs)); try lia.
    + exact I.
    + reflexivity.
    + reflexivity.
    + simpl. lia.
    + apply Meas. vm_compute. reflexivity.
    + eexists. left. vm_compute. reflexivity.
    + apply T; vm_compute; repeat constructor; intros C; discriminate C.
    + left. reflexivity.
    + repeat constructor; simpl; lia.
    + exists 1%Z. split; [lia|]. cbn [is_reference]. lia.
    + apply Permutation_refl.
    + apply (C132_every_array_loses_one A 1); [lia|reflexivity|simpl; lia].
Qed.

(** ** One LED left *)

(** A camera on the floor, one LED at the upper border of the lower layer, one at the ceiling. *)
Definition two_coords : list point := [Point 0 0 1; Point 0 0 2].
(** No smoke in the first image; in the second it fills the upper layer. *)
Definition two_smoke (i : Z) : vec := if (i =? 1)%Z then [0; 0] else [0; 5 * ln 2].
Definition two_photo (i : Z) : image := Img 4 7 (fun _ x => if (i =? 1)%Z then 800 else if ((x - 1) / 3 =? 1)%Z then 25 else 800)%Z.
Definition two_recs (skip i : Z) : list (led_data Format_Model.fit_data) :=
  match generate_analysis_data (F := Format_Model.fit_data) None (two_photo i) 1 [(0, (2, 2)); (1, (2, 5))]%Z [[1; 0]]%Z skip with Ok ds => ds | Err _ => [] end.
Definition two_table : frame := Frame fast_table_columns (concat (map (fun i => map (plain_row i) (two_recs 1 i)) [1; 2]%Z)).

Lemma two_paths : paths 0 2 2 eg_cam (Point 0 0 1) = [1; 0] /\ paths 0 2 2 eg_cam (Point 0 0 2) = [1; 1].
Proof.
  assert (P : forall h, 0 < h -> paths 0 2 2 eg_cam (Point 0 0 h) = [Rmax 0 (Rmin 1 h - 0); Rmax 0 (Rmin 2 h - 1)]).
  { intros h Hh. unfold paths. cbn [seq map]. change (INR 0) with 0. change (INR 1) with 1. change (INR 2) with (1 + 1).
    replace (0 + 0 * ((2 - 0) / (1 + 1))) with 0 by field. replace (0 + 1 * ((2 - 0) / (1 + 1))) with (0 + 1) by field. replace (0 + (1 + 1) * ((2 - 0) / (1 + 1))) with (0 + 1 + 1) by field.
    rewrite !eg_path by lra. replace (0 + 1 + 1) with 2 by ring. replace (0 + 1) with 1 by ring. reflexivity. }
  split; rewrite P by lra; unfold Rmax, Rmin; repeat (apply f_equal2; [repeat (destruct (Rle_dec _ _)); lra|]); reflexivity.
Qed.

(** Exact photographs and an ideal [minimize]: the analysis with the non-linear solver compares both lines of
    sight with the LED below the smoke and reports clear air. *)
Theorem C132_one_led_left_refuted :
  exists A photo areas recs t bot top nlay cam coords smoke,
  let arrays := merge_indices (reorder_led_indices A) None in
  (forall i, (1 <= i <= 2)%Z -> generate_analysis_data (F := Format_Model.fit_data) None (photo i) 1 areas (index_files arrays) 1 = Ok (recs i) /\
     exists all, generate_analysis_data (F := Format_Model.fit_data) None (photo i) 1 areas (index_files arrays) 0 = Ok all /\
       forall d, In d all -> exists p, nth_error coords (Z.to_nat (d_id d)) = Some p /\ in_view bot top cam p /\ IZR (d_sum d) = 3200 * transmission bot top nlay cam p (smoke i)) /\
  table_of_images t 2 recs /\ smoke 1%Z = repeat 0 nlay /\ in_bounds (smoke 2%Z) /\ smoke 2%Z <> repeat 0 nlay /\
  forall minimize wc cpus order, minimize_contract minimize -> 0 <= wc -> Permutation (seq 0 2) order ->
    analyse_nonlinear minimize wc 0 bot top nlay cam coords (nth_error (index_files arrays) 0) t 0 "sum_col_val" None 1 cpus order = Ok [repeat 0 nlay; repeat 0 nlay].
Proof.
  exists [[5; 3]]%Z, two_photo, [(0, (2, 2)); (1, (2, 5))]%Z, (two_recs 1), two_table, 0, 2, 2%nat, eg_cam, two_coords, two_smoke. cbv zeta.
  assert (L2 : 0 < ln 2) by (rewrite <- ln_1; apply ln_increasing; lra).
  assert (L3 : ln 2 < 1) by (rewrite <- (ln_exp 1); apply ln_increasing; [lra|]; pose proof (exp_ineq1 1); lra).
  destruct two_paths as (P1 & P2).
  assert (View : forall h, 0 < h <= 2 -> in_view 0 2 eg_cam (Point 0 0 h)) by (intros h H; unfold in_view, within, eg_cam; cbn [pz]; split; [lra|]; split; [lra|]; intros C; lra).
  split; [|split; [|split; [|split; [|split]]]].
  - intros i Hi. assert (Hi' : (i = 1 \/ i = 2)%Z) by lia. split; [destruct Hi' as [-> | ->]; vm_compute; reflexivity|].
    exists (two_recs 0 i). split; [destruct Hi' as [-> | ->]; vm_compute; reflexivity|].
    assert (F : forall k v, In (k, v) (map (fun d => (d_id d, d_sum d)) (two_recs 0 i)) -> exists p, nth_error two_coords (Z.to_nat k) = Some p /\ in_view 0 2 eg_cam p /\ IZR v = 3200 * transmission 0 2 2 eg_cam p (two_smoke i)).
    { intros k v H. assert (K : (k = 0 \/ k = 1)%Z /\ v = (if (i =? 1)%Z then 3200 else if (k =? 1)%Z then 100 else 3200)%Z).
      { destruct Hi' as [-> | ->]; vm_compute in H; repeat (destruct H as [H|H]; [injection H as <- <-; split; [lia|reflexivity]|]); destruct H. }
      destruct K as (K & ->). destruct K as [-> | ->]; (eexists; split; [reflexivity|]); (split; [apply View; lra|]); unfold transmission; rewrite ?P1, ?P2; unfold two_smoke;
        destruct Hi' as [-> | ->]; cbn [Z.eqb Pos.eqb rdot].
      - match goal with |- context [exp ?e] => replace e with 0 by lra end. rewrite exp_0. lra.
      - match goal with |- context [exp ?e] => replace e with 0 by lra end. rewrite exp_0. lra.
      - match goal with |- context [exp ?e] => replace e with 0 by lra end. rewrite exp_0. lra.
      - match goal with |- context [exp ?e] => replace e with (- (ln 2 + (ln 2 + (ln 2 + (ln 2 + ln 2))))) by lra end. rewrite exp_Ropp, !exp_plus, exp_ln by lra. lra. }
    intros d Hd. apply F. apply in_map_iff. exists d. split; [reflexivity|exact Hd].
  - exists (map (fun i => map (plain_row i) (two_recs 1 i)) [1; 2]%Z). split; [reflexivity|].
    assert (X : forall i, (i = 1 \/ i = 2)%Z -> rows_of_image (row_of_record (cols two_table) i) (two_recs 1 i) (map (plain_row i) (two_recs 1 i))).
    { intros i Hi. exists (two_recs 1 i). split; [apply Permutation_refl|]. split; [destruct Hi as [-> | ->]; vm_compute; repeat constructor; intros C; discriminate C|].
      assert (F : Forall (fun d => (0 <= d_sum d)%Z) (two_recs 1 i)) by (destruct Hi as [-> | ->]; vm_compute; repeat constructor; intros C; discriminate C).
      cbn [cols two_table]. clear - F. induction F as [|d ds H F IH]; [constructor|]. cbn [map]. constructor; [apply plain_row_ok; exact H|exact IH]. }
    change (zrange 1 (2 + 1)) with [1; 2]%Z. cbn [map]. constructor; [apply X; left; reflexivity|]. constructor; [apply X; right; reflexivity|constructor].
  - reflexivity.
  - unfold two_smoke, in_bounds. cbn [Z.eqb Pos.eqb]. repeat (constructor; [lra|]). constructor.
  - unfold two_smoke. cbn [Z.eqb Pos.eqb repeat]. intros C. injection C as C. lra.
  - intros minimize wc cpus order Hm Hw Ho.
    change (nth_error (index_files (merge_indices (reorder_led_indices [[5; 3]%Z]) None)) 0) with (Some [1; 0]%Z).
    unfold analyse_nonlinear, analyse_with, analyse_by, analyse_avg.
    change (experiment_leds two_coords (Some [1; 0]%Z)) with (Ok (Some [(1%Z, Point 0 0 2); (0%Z, Point 0 0 1)])). cbn [bind]. unfold distance_array. cbn [rev app map snd bind].
    rewrite !visible_row by (try lia; try lra; apply View; lra). rewrite P1, P2. cbn [matrix_row].
    set (sol := solve_nonlinear minimize wc 0 2 [Some [1; 0]; Some [1; 1]]).
    assert (S1 : forall last, (last = None \/ last = Some [0; 0]) -> sol last [Fin (3200 # 3200)%Q] = Ok [0; 0]).
    { intros last Hlast. unfold sol, solve_nonlinear. cbn [List.length Nat.eqb orb]. f_equal.
      set (f := cost_seen wc 0 [Some [1; 0]; Some [1; 1]] [Fin (3200 # 3200)%Q]).
      assert (Q : Q2R (3200 # 3200) = 1) by (unfold Q2R; cbn [Qnum Qden]; field).
      assert (Fv : forall x y, f [x; y] = Some (sqrt (Rsqr (exp (- x) - 1) + Rsqr (exp (- (x + y)) - 1)) / 2)).
      { intros x y. unfold f, cost_seen. cbn [all_some map number]. rewrite Q. unfold intensities, np_pairs. cbn [map List.length Nat.eqb]. unfold intensity, curvature, preference, second_differences.
        cbn [map rsum fst snd List.length combine fold_left tl]. f_equal. change (INR 2) with (1 + 1).
        assert (G1 : 1 * exp (- x * 1) * exp (- y * 0) = exp (- x)) by (rewrite Rmult_1_l, <- exp_plus; f_equal; ring).
        assert (G2 : 1 * exp (- x * 1) * exp (- y * 1) = exp (- (x + y))) by (rewrite Rmult_1_l, <- exp_plus; f_equal; ring).
        rewrite G1, G2, Rplus_0_r. lra. }
      assert (B0 : best 2 f [0; 0]).
      { split; [reflexivity|]. split; [unfold in_bounds; repeat (constructor; [lra|]); constructor|]. exists 0. split.
        - rewrite Fv. f_equal. rewrite Rplus_0_r, Ropp_0, exp_0, Rminus_eq_0, Rsqr_0, Rplus_0_r, sqrt_0. lra.
        - intros y Ly By. destruct y as [|y1 [|y2 [|? ?]]]; try discriminate. rewrite Fv. eexists. split; [reflexivity|]. pose proof (sqrt_pos (Rsqr (exp (- y1) - 1) + Rsqr (exp (- (y1 + y2)) - 1))). lra. }
      match goal with |- minimize f ?st = _ => set (start := st); assert (Ls : List.length start = 2%nat) by (unfold start; destruct Hlast as [-> | ->]; reflexivity) end.
      destruct (Hm 2%nat f start Ls (ex_intro _ _ B0)) as (X1 & X2 & v & X3 & X4).
      destruct (minimize f start) as [|x [|y [|? ?]]]; try discriminate. destruct B0 as (_ & B1 & _). destruct (X4 [0; 0] eq_refl B1) as (w & W1 & W2).
      rewrite Fv in X3, W1. apply Some_inj in X3, W1. rewrite Rplus_0_r, Ropp_0, exp_0, Rminus_eq_0, Rsqr_0, Rplus_0_r, sqrt_0 in W1.
      set (c := Rsqr (exp (- x) - 1) + Rsqr (exp (- (x + y)) - 1)) in X3. assert (C0 : 0 <= c) by (unfold c; pose proof (Rle_0_sqr (exp (- x) - 1)); pose proof (Rle_0_sqr (exp (- (x + y)) - 1)); lra).
      assert (S0 : sqrt c = 0) by (pose proof (sqrt_pos c); lra). apply sqrt_eq_0 in S0; [|exact C0]. unfold c in S0.
      pose proof (Rle_0_sqr (exp (- x) - 1)) as Q1. pose proof (Rle_0_sqr (exp (- (x + y)) - 1)) as Q2.
      assert (E1 : exp (- x) = exp 0) by (rewrite exp_0; assert (Z1 : Rsqr (exp (- x) - 1) = 0) by lra; apply Rsqr_0_uniq in Z1; lra).
      assert (E2 : exp (- (x + y)) = exp 0) by (rewrite exp_0; assert (Z1 : Rsqr (exp (- (x + y)) - 1) = 0) by lra; apply Rsqr_0_uniq in Z1; lra).
      apply exp_inv in E1, E2. f_equal; [lra|]. f_equal. lra. }
    clearbody sol.
    assert (X3 : exists es, load_img_data two_table 0 "sum_col_val" = Ok es /\
      (forall sol : option vec -> list quot -> res vec, serial sol es (map snd (ref_values mean (reference_entries None 1 es))) =
         bind (sol None [Fin (3200 # 3200)%Q]) (fun x => bind (sol (Some x) [Fin (3200 # 3200)%Q]) (fun y => Ok [x; y]))) /\
      (forall sol : option vec -> list quot -> res vec, parallel sol order es (map snd (ref_values mean (reference_entries None 1 es))) =
         pool_map (sol None) order [[Fin (3200 # 3200)%Q]; [Fin (3200 # 3200)%Q]])).
    { eexists. split; [vm_compute; reflexivity|]. split; intros sol'.
      - vm_compute. destruct (sol' None _) as [x|]; [|reflexivity]. destruct (sol' (Some x) _); reflexivity.
      - match goal with |- parallel _ _ ?es ?ms = _ => unfold parallel; replace (to_array es) with (Ok [[Some 3200%Q]; [Some 3200%Q]]) by (vm_compute; reflexivity) end.
        cbn [bind]. match goal with |- bind ?r _ = _ => replace r with (Ok [[Fin (3200 # 3200)%Q]; [Fin (3200 # 3200)%Q]]) by (vm_compute; reflexivity) end. reflexivity. }
    destruct X3 as (es & E1 & E2 & E3). rewrite E1. cbn [bind]. cbv zeta. rewrite E2, E3. destruct (1 <? cpus)%Z.
    + apply Permutation_length_2_inv in Ho. destruct Ho as [-> | ->]; unfold pool_map; cbn; rewrite !S1 by (left; reflexivity); reflexivity.
    + rewrite S1 by (left; reflexivity). cbn [bind]. rewrite S1 by (right; reflexivity). reflexivity.
Qed.
Print Assumptions C132_one_led_left_refuted.
