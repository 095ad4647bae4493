(** C117: the LEDs of an array in the analysis and in step 3. *)
From Coq Require Import ZArith Lia Bool Ascii String List.
From Verif Require Import Base Str Config_Model Config_Props Step2_Model Step2_Props Pipeline_Model Pipeline_Props Dir_Model Dir_Props
  Edges_Model Edges_Props Analysis_Model ArrayFile_Model.
Import ListNotations.
Local Open Scope string_scope.
Local Open Scope Z_scope.

Lemma mapM_nth : forall A B (f : A -> res B) l r n a, mapM f l = Ok r -> nth_error l n = Some a ->
  exists b, f a = Ok b /\ nth_error r n = Some b.
Proof.
  intros A B f. induction l as [|x l IH]; intros r n a H Hn; [destruct n; discriminate|]. cbn [mapM] in H.
  destruct (f x) as [b|] eqn:Ex; [|discriminate]. cbn [bind] in H. destruct (mapM f l) as [r'|] eqn:E; [|discriminate].
  cbn [bind] in H. apply Ok_inj in H. subst r. destruct n as [|n]; cbn [nth_error] in Hn |- *.
  - apply Some_inj in Hn. subst x. exists b. auto.
  - exact (IH r' n a eq_refl Hn).
Qed.

Lemma zrange_nth : forall n k, (k < Z.to_nat n)%nat -> nth_error (zrange 0 n) k = Some (Z.of_nat k).
Proof.
  intros n k H. replace n with (Z.of_nat k + (n - Z.of_nat k)) by lia.
  rewrite (zrange_app 0 (Z.of_nat k)) by lia. rewrite nth_error_app2.
  - assert (L : List.length (zrange 0 (Z.of_nat k)) = k).
    { unfold zrange. rewrite map_length, seq_length. lia. }
    rewrite L, Nat.sub_diag. rewrite zrange_cons by lia. reflexivity.
  - unfold zrange. rewrite map_length, seq_length. lia.
Qed.

Lemma none_or_groups : forall v, (v = "None" -> merge_groups v = Ok None) /\
  (v <> "None" -> forall m, merge_groups v = Ok m -> exists gs, m = Some gs).
Proof.
  intros v. unfold merge_groups, get2d_var. split.
  - intros ->. reflexivity.
  - intros Hn m. destruct (String.eqb_spec v "None") as [|_]; [contradiction|].
    destruct (mapM _ _) as [gs|]; cbn [bind]; [|discriminate]. intros H. apply Ok_inj in H. exists gs. congruence.
Qed.

(** A later call of step 3 and the analysis read the same file for the same array,
    whatever the files are. *)
Theorem C117_same_file_as_a_later_step_3 : forall n v s arrays a,
  indices_from_files n v s = Ok arrays -> 0 <= a < Z.of_nat (List.length arrays) ->
  array_file v a s = nth_error arrays (Z.to_nat a).
Proof.
  intros n v s arrays a H Ha. unfold indices_from_files in H. destruct (merge_groups v) as [m|] eqn:Em; [|discriminate].
  cbn [bind] in H. destruct (none_or_groups v) as [P Q].
  assert (G : forall mk k, load_files mk k s = Ok arrays -> exists l, s (mk a) = Some (Ids l) /\ nth_error arrays (Z.to_nat a) = Some l).
  { intros mk k L. unfold load_files in L.
    assert (Hl : List.length arrays = Z.to_nat k).
    { apply mapM_ok_iff in L. apply Forall2_len in L. unfold zrange in L. rewrite map_length, seq_length in L. lia. }
    destruct (mapM_nth _ _ _ _ _ (Z.to_nat a) a L) as (l & E & En).
    { rewrite zrange_nth by lia. f_equal. lia. }
    exists l. split; [|exact En]. destruct (s (mk a)) as [[r|l'|]|]; try discriminate. apply Ok_inj in E. congruence. }
  unfold array_file. destruct (String.eqb_spec v "None") as [E|E].
  - specialize (P E). assert (m = None) by congruence. subst m. cbn [load_indices] in H. destruct (G KIdx n H) as (l & -> & ->). reflexivity.
  - destruct (Q E m Em) as (gs & ->). cbn [load_indices] in H. destruct (G KMerge _ H) as (l & -> & ->). reflexivity.
Qed.
Print Assumptions C117_same_file_as_a_later_step_3.

(** After a completed step 2 whose groups can be read, the file of an array holds the
    LEDs of this array, in reverse order, which step 3 of the same call measures; for
    other numbers the analysis gets what the file held before. *)
Theorem C117_same_leds_as_step_3 : forall E edges typed ignored v mem s,
  ~ bad_group v ->
  let Ev := with_texts E edges typed ignored v in
  r_res (step2 Ev mem s) = Ok tt ->
  let s' := apply_all (r_effects (step2 Ev mem s)) s in
  exists rows found, (match mem with Some r => Ok r | None => load_search_areas s end) = Ok rows /\
    match_leds_to_led_arrays (e_geo E) 5 rows (outer_leds edges typed) (ignored_leds ignored) None = Ok found /\
    forall a, array_file v a s' =
      match (if 0 <=? a then nth_error (indices_in_memory found v) (Z.to_nat a) else None) with
      | Some l => Some (rev l)
      | None => array_file v a s
      end.
Proof.
  intros E edges typed ignored v mem s Hb Ev H s'.
  destruct (step2_index_files Ev mem s H) as (rows & found & L & Hm & HI & HM). fold s' in HI, HM.
  exists rows, found. split; [exact L|]. split; [exact Hm|].
  assert (G : forall mk (A : list (list Z)),
    (forall i, s' (mk i) = if (0 <=? i) && (i <? Z.of_nat (List.length A)) then Some (Ids (rev (nth (Z.to_nat i) A []))) else s (mk i)) ->
    forall a, match s' (mk a) with Some (Ids l) => Some l | _ => None end =
      match (if 0 <=? a then nth_error A (Z.to_nat a) else None) with
      | Some l => Some (rev l)
      | None => match s (mk a) with Some (Ids l) => Some l | _ => None end
      end).
  { intros mk A HA a. rewrite HA. destruct (Z.leb_spec 0 a) as [Ha|Ha]; cbn [andb]; [|reflexivity].
    destruct (Z.ltb_spec a (Z.of_nat (List.length A))) as [Hl|Hl].
    - rewrite (nth_error_nth' A []) by lia. reflexivity.
    - rewrite (proj2 (nth_error_None A (Z.to_nat a))) by lia. reflexivity. }
  unfold indices_in_memory, merge_in_step2 in *. unfold Ev in HM. cbn [with_texts e_merge] in HM. unfold merge_in_step2 in HM.
  destruct (none_or_groups v) as [P Q].
  intros a. unfold array_file. destruct (String.eqb_spec v "None") as [Ev0|Ev0].
  - rewrite (P Ev0) in *. apply (G KIdx). exact HI.
  - destruct (merge_groups v) as [m|e] eqn:Em; [|exfalso; apply Hb; exists e; exact Em].
    destruct (Q Ev0 m eq_refl) as (gs & ->). cbv zeta in HM. apply (G KMerge). exact HM.
Qed.
Print Assumptions C117_same_leds_as_step_3.

(** If the groups cannot be read, step 3 of the same call measures the arrays that were
    found, and the analysis takes the merged file of an earlier run, or no LED at all:
    then there are no distances. *)
Theorem C117_unreadable_groups : forall E edges typed ignored v mem s a,
  bad_group v ->
  let Ev := with_texts E edges typed ignored v in
  let s' := apply_all (r_effects (step2 Ev mem s)) s in
  (forall found, indices_in_memory found v = reorder_led_indices found) /\
  array_file v a s' = array_file v a s /\
  (s (KMerge a) = None -> forall P D (coords : list P) (dist : P -> D),
     bind (experiment_leds coords (array_file v a s')) (distance_array dist) = Err TypeError).
Proof.
  intros E edges typed ignored v mem s a Hb Ev s'.
  destruct (C109_unreadable_groups E edges typed ignored v mem s 0 Hb) as (_ & _ & HM & HR & _). fold Ev in HM. fold s' in HM.
  assert (Hn : (v =? "None")%string = false).
  { apply String.eqb_neq. intros ->. destruct Hb as [e He]. discriminate He. }
  split; [exact HR|]. split.
  - unfold array_file. rewrite Hn, HM. reflexivity.
  - intros Hs P D coords dist. unfold array_file. rewrite Hn, HM, Hs. reflexivity.
Qed.
Print Assumptions C117_unreadable_groups.

(** With files of an earlier run the analysis then pairs the measured values of one
    array with the positions of another one: steps 1 and 2 ran with the groups '1' and
    '0', the option was changed to '0,1', and both steps were repeated.  Array 0 has the
    LEDs 0, 1, 2 in step 3 of this call and the LEDs 5, 4, 3 in the analysis. *)
Theorem C117_other_leds_refuted :
  exists E v1 v2 found,
  let E1 := with_texts E (Some "0 4 1 3") (Err ValueError) None v1 in
  let E2 := with_texts E (Some "0 4 1 3") (Err ValueError) None v2 in
  let st := run12 E1 ((fun _ => None), None) in
  ~ bad_group v1 /\ bad_group v2 /\
  run12_completes E1 ((fun _ => None), None) /\ run12_completes E2 st /\ arrays_of E2 = Ok found /\
  exists measured analysed, nth_error (indices_in_memory found v2) 0 = Some measured /\
    array_file v2 0 (fst (run12 E2 st)) = Some analysed /\
    List.length measured = List.length analysed /\ forall led, In led measured -> ~ In led analysed.
Proof.
  exists demo_env, ("1" ++ String nl "0"), "0,1", [[0; 2; 4]; [1; 5; 3]]. cbv zeta.
  split; [intros [e He]; vm_compute in He; discriminate He|]. split; [exists ValueError; vm_compute; reflexivity|].
  split; [split; vm_compute; reflexivity|]. split; [split; vm_compute; reflexivity|]. split; [vm_compute; reflexivity|].
  exists [0; 1; 2], [5; 4; 3]. split; [vm_compute; reflexivity|]. split; [vm_compute; reflexivity|]. split; [reflexivity|].
  intros led [<-|[<-|[<-|[]]]]; cbn; intuition discriminate.
Qed.
Print Assumptions C117_other_leds_refuted.

Example C117_example :
  let E v := with_texts demo_env (Some "0 4 1 3") (Err ValueError) None v in
  let s v := fst (exec (Step2 (E v)) (exec (Step1 demo_env) ((fun _ => None), None))) in
  ~ bad_group "0 1" /\
  step2_completes (E "0 1") (exec (Step1 demo_env) ((fun _ => None), None)) /\
  indices_from_files 2 "0 1" (s "0 1") = Ok [[5; 4; 3; 2; 1; 0]] /\
  array_file "0 1" 0 (s "0 1") = Some [5; 4; 3; 2; 1; 0] /\ array_file "0 1" 1 (s "0 1") = None /\
  array_file "None" 1 (s "0 1") = Some [5; 4; 3] /\
  array_file "0,1" 0 (s "0,1") = None.
Proof.
  cbv zeta. split; [intros [e He]; vm_compute in He; discriminate He|]. do 5 (split; [vm_compute; reflexivity|]). vm_compute; reflexivity.
Qed.
