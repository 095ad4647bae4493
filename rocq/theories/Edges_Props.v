(** Properties C108 and C109: what step 2 does with unreadable edge labels and merge groups. *)
From Coq Require Import ZArith Lia Bool Ascii String List.
From Verif Require Import Base Str Config_Model Config_Props Step1_Model Step2_Model Step2_Props Pipeline_Model Pipeline_Props
  Dir_Model Dir_Props Edges_Model.
Import ListNotations.
Local Open Scope string_scope.
Local Open Scope Z_scope.

(** ** C108 *)

(** The words of a text that are no numbers. *)
Definition bad_word (v : string) : Prop := exists w e, In w (split_ws v) /\ int_of_str w = Err e.

Lemma mapM_bad : forall A B (f : A -> res B) l a e, In a l -> f a = Err e -> exists e', mapM f l = Err e'.
Proof.
  intros A B f l a e. induction l as [|x l IH]; intros Hin He; [destruct Hin|].
  cbn [mapM]. destruct (f x) as [b|e1] eqn:E1; cbn [bind]; [|exists e1; reflexivity].
  destruct Hin as [-> | Hin]; [congruence|]. destruct (IH Hin He) as [e' ->]. exists e'. reflexivity.
Qed.

Lemma mapM_err_in : forall A B (f : A -> res B) l e, mapM f l = Err e -> exists a, In a l /\ f a = Err e.
Proof.
  intros A B f l e. induction l as [|x l IH]; intros H; [discriminate|].
  cbn [mapM] in H. destruct (f x) as [b|e1] eqn:E1; cbn [bind] in H.
  - destruct (mapM f l) as [bs|e2]; [discriminate|]. cbn [bind] in H.
    destruct IH as (a & Ha & Hf); [congruence|]. exists a. split; [right; exact Ha|exact Hf].
  - exists x. split; [left; reflexivity|congruence].
Qed.

(** Labels that are numbers are taken in pairs, from the file or from the prompt. *)
Theorem C108_labels_are_taken_in_pairs : forall v typed pairs extra,
  (List.length extra < 2)%nat ->
  (forall s, edge_text v typed = Ok s -> s <> "None" /\
     Forall2 (fun w n => int_of_str w = Ok n) (split_ws s) (concat (map (fun p => [fst p; snd p]) pairs) ++ extra)%list) ->
  (exists s, edge_text v typed = Ok s) ->
  outer_leds v typed = map (fun p => [fst p; snd p]) pairs.
Proof.
  intros v typed pairs extra Hx H [s Hs]. unfold outer_leds. rewrite Hs. cbn [bind].
  destruct (H s Hs) as [Hn F]. apply mapM_ok_iff in F.
  rewrite (C49_rows_in_order_and_rest_dropped int_of_str 2 s (map (fun p => [fst p; snd p]) pairs) extra); [reflexivity|lia|exact Hn| |exact Hx|exact F].
  apply Forall_forall. intros r Hr. apply in_map_iff in Hr. destruct Hr as (p & <- & _). reflexivity.
Qed.
Print Assumptions C108_labels_are_taken_in_pairs.

(** With texts that are numbers, step 2 works with exactly these numbers: labels in
    pairs, ignored LEDs between single blanks, groups line by line. *)
Theorem C108_step_2_works_with_the_numbers : forall E typed ev iv mv pairs ignored groups mem s,
  ev <> "None" -> iv <> "None" -> mv <> "None" ->
  Forall2 (fun w n => int_of_str w = Ok n) (split_ws ev) (concat (map (fun p => [fst p; snd p]) pairs)) ->
  Forall2 (fun w n => int_of_str w = Ok n) (split_on " "%char iv) ignored ->
  Forall2 (fun line g => Forall2 (fun w n => int_of_str w = Ok n) (split_ws line) g) (filter (fun l => negb (l =? "")%string) (split_on nl mv)) groups ->
  step2 (with_texts E (Some ev) typed (Some iv) mv) mem s =
  step2 (Env (e_mml E) (e_image E) (e_radius E) (e_percentile E) (e_max_leds E) (e_geo E)
             (map (fun p => [fst p; snd p]) pairs) ignored (Some groups) (e_plot E)) mem s.
Proof.
  intros E typed ev iv mv pairs ignored groups mem s He Hi Hm Fe Fi Fm. unfold with_texts.
  assert (E1 : edge_text (Some ev) typed = Ok ev) by (unfold edge_text; destruct (String.eqb_spec ev "None"); [contradiction|reflexivity]).
  rewrite (C108_labels_are_taken_in_pairs (Some ev) typed pairs []);
    [|cbn; lia|intros t Ht; rewrite E1 in Ht; apply Ok_inj in Ht; subst t; rewrite app_nil_r; split; assumption|exists ev; exact E1].
  rewrite (proj1 (C52_ignore_list_all_or_nothing iv Hi) ignored Fi).
  assert (M : merge_in_step2 mv = Some groups).
  { unfold merge_in_step2, merge_groups, get2d_var. destruct (String.eqb_spec mv "None"); [contradiction|].
    assert (G : mapM (fun line => mapM int_of_str (split_ws line)) (filter (fun s => negb (s =? "")%string) (split_on nl mv)) = Ok groups).
    { clear - Fm. induction Fm as [|line g ls gs F Fm IH]; [reflexivity|]. cbn [mapM]. apply mapM_ok_iff in F. rewrite F. cbn [bind]. rewrite IH. reflexivity. }
    rewrite G. reflexivity. }
  rewrite M. reflexivity.
Qed.
Print Assumptions C108_step_2_works_with_the_numbers.

Example C108_numbers_example : forall mem s,
  step2 (with_texts demo_env (Some "0 4 1 3") (Err ValueError) (Some "7 8") "0 1") mem s =
  step2 (Env (e_mml demo_env) (e_image demo_env) (e_radius demo_env) (e_percentile demo_env) (e_max_leds demo_env) (e_geo demo_env)
             [[0; 4]; [1; 3]] [7; 8] (Some [[0; 1]]) (e_plot demo_env)) mem s.
Proof.
  intros mem s. apply (C108_step_2_works_with_the_numbers demo_env (Err ValueError) "0 4 1 3" "7 8" "0 1" [(0, 4); (1, 3)] [7; 8] [[0; 1]] mem s);
    try discriminate; apply mapM_ok_iff || idtac.
  - vm_compute. reflexivity.
  - vm_compute. reflexivity.
  - constructor; [apply mapM_ok_iff; vm_compute; reflexivity|constructor].
Qed.

(** No array at all is left exactly if the text cannot be had, holds fewer than two words,
    or holds a word that is no number. *)
Theorem C108_when_no_array_is_left : forall v typed,
  outer_leds v typed = [] <->
  match edge_text v typed with
  | Err _ => True
  | Ok s => bad_word s \/ (List.length (split_ws s) < 2)%nat
  end.
Proof.
  intros v typed. unfold outer_leds. destruct (edge_text v typed) as [s|e]; cbn [bind]; [|split; auto].
  unfold get2d. destruct (String.eqb_spec s "None") as [-> |Hn].
  { split; [|reflexivity]. intros _. left. exists "None", ValueError. split; [left; reflexivity|reflexivity]. }
  destruct (mapM int_of_str (split_ws s)) as [l|e] eqn:El; cbn [bind].
  - assert (Hl : List.length l = List.length (split_ws s)).
    { apply mapM_ok_iff in El. symmetry. exact (Forall2_len _ _ _ El). }
    split.
    + intros H. right. apply (f_equal (@List.length _)) in H. rewrite map_length, seq_length in H. cbn [List.length] in H.
      rewrite <- Hl. apply Nat.div_small_iff in H; lia.
    + intros [(w & e & Hin & He)|H].
      * destruct (mapM_bad _ _ int_of_str _ _ _ Hin He) as [e' He']. congruence.
      * rewrite <- Hl in H. rewrite Nat.div_small by exact H. reflexivity.
  - split; [|reflexivity]. intros _. left. destruct (mapM_err_in _ _ _ _ _ El) as (w & Hw & He). exists w, e. auto.
Qed.
Print Assumptions C108_when_no_array_is_left.

(** Step 2 then replaces the search areas by an empty table, fails while drawing, and sets
    no flag; the index files stay. *)
Theorem C108_search_areas_are_lost : forall E mem s rows,
  e_edges E = [] -> s KFlag = None ->
  (match mem with Some r => Ok r | None => load_search_areas s end) = Ok rows -> rows <> [] ->
  let r := step2 E mem s in
  let s' := apply_all (r_effects r) s in
  r_res r = Err ValueError /\ s' KAreas = Some (Rows []) /\ (forall k, k <> KAreas -> s' k = s k).
Proof.
  intros E mem s rows He Hf Hl Hr r s'. unfold s', r, step2. rewrite Hf, Hl, He.
  change (match_leds_to_led_arrays (e_geo E) 5 rows [] (e_ignored E) None) with (Ok (A := list (list Z)) []).
  destruct rows as [|x rows]; [congruence|].
  change (reorder_search_areas (x :: rows) []) with (Ok (A := list row) []).
  cbn [plot_ok r_res r_effects]. split; [reflexivity|]. split.
  - apply write_file_result.
  - intros k Hk. apply apply_all_untouched. intros H. apply touches_write_file in H. congruence.
Qed.
Print Assumptions C108_search_areas_are_lost.

(** After that step 2 fails in every new process, whatever the configuration says by then,
    and touches no file. *)
Theorem C108_step_2_cannot_recover : forall E s,
  s KFlag = None -> s KAreas = Some (Rows []) ->
  r_effects (step2 E None s) = [] /\ exists e, r_res (step2 E None s) = Err e.
Proof.
  intros E s Hf Ha. unfold step2. rewrite Hf. unfold load_search_areas. rewrite Ha.
  destruct (match_leds_to_led_arrays (e_geo E) 5 [] (e_edges E) (e_ignored E) None) as [arrays|e];
    cbn [r_effects r_res]; split; try reflexivity; eexists; reflexivity.
Qed.
Print Assumptions C108_step_2_cannot_recover.

Fixpoint step2_calls (Es : list env) : list cmd :=
  match Es with [] => [] | E :: l => NewProcess :: Step2 E :: step2_calls l end.

(** So no number of further calls of step 2 brings the table back. *)
Theorem C108_no_sequence_of_step_2_recovers : forall Es st,
  fst st KFlag = None -> fst st KAreas = Some (Rows []) ->
  forall k, fst (exec_all (step2_calls Es) st) k = fst st k.
Proof.
  induction Es as [|E l IH]; intros [s mem] Hf Ha k; [reflexivity|].
  cbn [step2_calls]. unfold exec_all. cbn [fold_left]. cbn [fst] in Hf, Ha.
  cbn [exec]. rewrite (proj1 (C108_step_2_cannot_recover E s Hf Ha)). cbn [apply_all fold_left].
  exact (IH (s, r_mem (step2 E None s)) Hf Ha k).
Qed.
Print Assumptions C108_no_sequence_of_step_2_recovers.

(** Step 1 and corrected labels do: the files are those of an undisturbed run. *)
Theorem C108_step_1_repairs : forall E st lost arrays,
  run12_completes E st -> arrays_of E = Ok arrays ->
  run12_completes E lost /\
  fst (run12 E lost) KAreas = fst (run12 E st) KAreas /\ fst (run12 E lost) KFlag = fst (run12 E st) KFlag.
Proof.
  intros E st lost arrays Hc Ha.
  destruct (C15_rerun_of_both_steps_repairs_everything E st lost arrays Hc Ha) as (H1 & H2 & H3 & _). auto.
Qed.
Print Assumptions C108_step_1_repairs.

(** A comma between the two labels is enough: 'typed' stands for a prompt that is not used. *)
Example C108_example :
  let E v := with_texts demo_env (Some v) (Err ValueError) None "None" in
  let st := exec (Step1 (E "0 1")) ((fun _ => None), None) in
  outer_leds (Some "0 1 2 3") (Err ValueError) = [[0; 1]; [2; 3]] /\
  outer_leds (Some "0, 1") (Err ValueError) = [] /\
  outer_leds (Some "None") (Ok ["0 1"; "2 3"]) = [[0; 1]; [2; 3]] /\
  outer_leds (Some "None") (Ok ["0-1"; "2 3"]) = [] /\
  (exists rows, fst st KAreas = Some (Rows rows) /\ (2 < List.length rows)%nat) /\
  fst (exec (Step2 (E "0, 1")) st) KAreas = Some (Rows []) /\
  r_res (step2 (E "0 1") None (fst (exec (Step2 (E "0, 1")) st))) = Err ValueError.
Proof.
  split; [vm_compute; reflexivity|]. split; [vm_compute; reflexivity|].
  split; [vm_compute; reflexivity|]. split; [vm_compute; reflexivity|].
  split; [|split; vm_compute; reflexivity].
  eexists. split; [vm_compute; reflexivity|]. vm_compute. lia.
Qed.

(** ** C109 *)

Definition bad_group (v : string) : Prop := exists e, merge_groups v = Err e.

(** A merge value is unreadable exactly if some line holds a word that is no number. *)
Theorem C109_when_groups_are_unreadable : forall v, v <> "None" ->
  (bad_group v <-> exists line w e, In line (split_on nl v) /\ In w (split_ws line) /\ int_of_str w = Err e).
Proof.
  intros v Hn. unfold bad_group, merge_groups, get2d_var. destruct (String.eqb_spec v "None"); [contradiction|]. split.
  - intros [e H]. destruct (mapM _ _) as [l|e'] eqn:E; cbn [bind] in H; [discriminate|].
    destruct (mapM_err_in _ _ _ _ _ E) as (line & Hl & He). apply filter_In in Hl. destruct Hl as [Hl _].
    destruct (mapM_err_in _ _ _ _ _ He) as (w & Hw & Hw'). exists line, w, e'. auto.
  - intros (line & w & e & Hl & Hw & He).
    destruct (mapM_bad _ _ int_of_str (split_ws line) w e Hw He) as [e1 H1].
    destruct (mapM_bad _ _ (fun line => mapM int_of_str (split_ws line)) (filter (fun s => negb (s =? "")%string) (split_on nl v)) line e1) as [e2 H2].
    + apply filter_In. split; [exact Hl|]. destruct (String.eqb_spec line "") as [-> |]; [destruct Hw|reflexivity].
    + exact H1.
    + rewrite H2. exists e2. reflexivity.
Qed.
Print Assumptions C109_when_groups_are_unreadable.

(** Step 2 with unreadable groups ends normally, writes the same files as without
    merging, and leaves the merged files of earlier runs as they are; step 3 of the same
    call goes on with the arrays not merged, every later call fails. *)
Theorem C109_unreadable_groups : forall E edges typed ignored v mem s n,
  bad_group v ->
  let Em := with_texts E edges typed ignored v in
  let E0 := with_texts E edges typed ignored "None" in
  r_res (step2 Em mem s) = r_res (step2 E0 mem s) /\
  apply_all (r_effects (step2 Em mem s)) s = apply_all (r_effects (step2 E0 mem s)) s /\
  (forall i, apply_all (r_effects (step2 Em mem s)) s (KMerge i) = s (KMerge i)) /\
  (forall arrays, indices_in_memory arrays v = reorder_led_indices arrays) /\
  (forall s', exists e, indices_from_files n v s' = Err e).
Proof.
  intros E edges typed ignored v mem s n [e He] Em E0.
  assert (M : merge_in_step2 v = None) by (unfold merge_in_step2; rewrite He; reflexivity).
  assert (EE : Em = E0) by (unfold Em, E0, with_texts; rewrite M; reflexivity).
  rewrite EE. split; [reflexivity|]. split; [reflexivity|]. split; [|split].
  - intros i. apply apply_all_untouched. intros (f & Hf & Ht).
    assert (G : forall ef, In ef (r_effects (step2 E0 mem s)) -> target ef <> Some (KMerge i)).
    { intros ef. unfold step2. destruct (s KFlag); [intros []|].
      destruct (match mem with Some r => Ok r | None => load_search_areas s end) as [rows|]; [|intros []].
      destruct (match_leds_to_led_arrays _ _ _ _ _ _) as [arrays|]; [|intros []].
      destruct rows as [|x rows]; [intros []|].
      destruct (reorder_search_areas _ _) as [rows'|]; [|intros []].
      assert (W : forall ef, In ef (write_file Rows KAreas rows') -> target ef <> Some (KMerge i)).
      { intros ef' H H'. assert (T : touches (KMerge i) (write_file Rows KAreas rows')) by (exists ef'; auto).
        apply touches_write_file in T. discriminate. }
      destruct (plot_ok E0 rows'); cbn [r_effects]; [|exact (W ef)].
      change (e_merge E0) with (@None (list (list Z))). intros H.
      apply in_app_or in H. destruct H as [H|H]; [exact (W ef H)|].
      apply in_app_or in H. destruct H as [[<- |[<- |[]]]|H]; [discriminate|discriminate|].
      apply in_app_or in H. destruct H as [H|[<- |[]]]; [|discriminate].
      intros H'. clear - H H'. revert H. generalize 0 as j. generalize (reorder_led_indices arrays) as l.
      induction l as [|a l IH]; intros j H; [destruct H|].
      rewrite write_index_files_cons in H. apply in_app_or in H. destruct H as [H|H]; [|exact (IH _ H)].
      assert (T : touches (KMerge i) (write_file Ids (KIdx j) (rev a))) by (exists ef; auto).
      apply touches_write_file in T. discriminate. }
    exact (G f Hf Ht).
  - intros arrays. unfold indices_in_memory. rewrite M. reflexivity.
  - intros s'. exists e. unfold indices_from_files. rewrite He. reflexivity.
Qed.
Print Assumptions C109_unreadable_groups.

(** '0,1' instead of '0 1': the same run analyses two arrays, a later one fails. *)
Example C109_example :
  let run v := exec (Step2 (with_texts demo_env (Some "0 4 1 3") (Err ValueError) None v))
                    (exec (Step1 demo_env) ((fun _ => None), None)) in
  bad_group "0,1" /\
  step2_completes (with_texts demo_env (Some "0 4 1 3") (Err ValueError) None "0,1") (exec (Step1 demo_env) ((fun _ => None), None)) /\
  indices_in_memory [[0; 2; 4]; [1; 5; 3]] "0,1" = [[0; 1; 2]; [3; 4; 5]] /\
  indices_from_files 2 "0,1" (fst (run "0,1")) = Err ValueError /\
  indices_in_memory [[0; 2; 4]; [1; 5; 3]] "0 1" = [[0; 1; 2; 3; 4; 5]] /\
  indices_from_files 2 "0 1" (fst (run "0 1")) = Ok [[5; 4; 3; 2; 1; 0]] /\
  fst (run "0 1") (KMerge 0) = Some (Ids [5; 4; 3; 2; 1; 0]) /\ fst (run "0,1") (KMerge 0) = None.
Proof.
  split; [exists ValueError; vm_compute; reflexivity|]. split; [vm_compute; reflexivity|].
  split; [vm_compute; reflexivity|]. split; [vm_compute; reflexivity|].
  split; [vm_compute; reflexivity|]. split; [vm_compute; reflexivity|].
  split; vm_compute; reflexivity.
Qed.
