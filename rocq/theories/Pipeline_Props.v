(** Properties C14 and C15: histories and crashes of steps 1 and 2. *)
From Coq Require Import List ZArith QArith Lia Bool.
From Verif Require Import Base Step1_Model Step2_Model Step2_Spec Step2_Props Pipeline_Model.
Import ListNotations.
Local Open Scope Z_scope.

(** ** Lemmas about effects *)

Lemma write_index_files_cons : forall mk i a l, write_index_files mk i (a :: l) =
  write_file Ids (mk i) (rev a) ++ write_index_files mk (i + 1) l.
Proof. reflexivity. Qed.

Lemma key_eqb_eq : forall a b, key_eqb a b = true <-> a = b.
Proof.
  intros a b. destruct a, b; simpl; split; intros H; try discriminate; auto;
    try (apply Z.eqb_eq in H; congruence); injection H as ->; apply Z.eqb_refl.
Qed.

Definition target (e : effect) : option key :=
  match e with Put k _ | Del k => Some k | Plot => None end.

Definition touches (k : key) (es : list effect) : Prop := exists e, In e es /\ target e = Some k.

Lemma apply_all_app : forall a b s, apply_all (a ++ b) s = apply_all b (apply_all a s).
Proof. intros. unfold apply_all. apply fold_left_app. Qed.

Lemma apply_eff_other : forall e s k, target e <> Some k -> apply_eff s e k = s k.
Proof.
  intros [k' c|k'|] s k H; simpl in *; [| |reflexivity];
  destruct (key_eqb k' k) eqn:E; try reflexivity; apply key_eqb_eq in E; congruence.
Qed.

Lemma apply_all_untouched : forall es s k, ~ touches k es -> apply_all es s k = s k.
Proof.
  induction es as [|e es IH]; intros s k H; [reflexivity|]. simpl.
  unfold apply_all in IH |- *. simpl. rewrite IH.
  - apply apply_eff_other. intros E. apply H. exists e. split; [left; reflexivity|exact E].
  - intros (e' & Hin & E). apply H. exists e'. split; [right; exact Hin|exact E].
Qed.

Lemma apply_all_ext : forall es s s' k, s k = s' k -> apply_all es s k = apply_all es s' k.
Proof.
  induction es as [|e es IH]; intros s s' k H; [exact H|]. unfold apply_all in IH |- *. simpl.
  apply IH. destruct e as [k' c|k'|]; simpl; [| |exact H]; destruct (key_eqb k' k); auto.
Qed.

Lemma touches_dec : forall k es, touches k es \/ ~ touches k es.
Proof.
  intros k es. induction es as [|e es IH].
  - right. intros (e & [] & _).
  - destruct IH as [(e' & Hin & E)|IH]; [left; exists e'; split; [right; exact Hin|exact E]|].
    destruct (target e) as [k'|] eqn:Et.
    + destruct (key_eqb k' k) eqn:Ek.
      * apply key_eqb_eq in Ek. subst. left. exists e. split; [left; reflexivity|exact Et].
      * right. intros (e' & [<-|Hin] & E).
        -- rewrite Et in E. injection E as ->.
           assert (key_eqb k k = true) by (apply key_eqb_eq; reflexivity). congruence.
        -- apply IH. exists e'. auto.
    + right. intros (e' & [<-|Hin] & E); [congruence|]. apply IH. exists e'. auto.
Qed.

(** A file that is written gets a content that does not depend on what was there. *)
Lemma apply_all_touched : forall es s s' k, touches k es -> apply_all es s k = apply_all es s' k.
Proof.
  induction es as [|e es IH]; intros s s' k H; [destruct H as (e & [] & _)|].
  unfold apply_all in *. simpl.
  destruct (touches_dec k es) as [Ht|Ht]; [apply IH; exact Ht|].
  destruct H as (e' & [<-|Hin] & E); [|exfalso; apply Ht; exists e'; auto].
  apply apply_all_ext. destruct e as [k' c|k'|]; simpl in *; [| |discriminate]; injection E as ->;
    rewrite (proj2 (key_eqb_eq k k) eq_refl); reflexivity.
Qed.

(** Effects that are repeated later do not matter. *)
Lemma apply_all_absorb : forall p es s k,
  (touches k p -> touches k es) -> apply_all es (apply_all p s) k = apply_all es s k.
Proof.
  intros p es s k H. destruct (touches_dec k es) as [Ht|Ht]; [apply apply_all_touched; exact Ht|].
  rewrite !(apply_all_untouched es) by exact Ht. apply apply_all_untouched. tauto.
Qed.

Lemma touches_app : forall k a b, touches k (a ++ b) <-> touches k a \/ touches k b.
Proof.
  intros k a b. unfold touches. split.
  - intros (e & Hin & E). apply in_app_or in Hin. destruct Hin; [left|right]; eauto.
  - intros [(e & Hin & E)|(e & Hin & E)]; exists e; split; auto; apply in_or_app; auto.
Qed.

Lemma touches_firstn : forall k n es, touches k (firstn n es) -> touches k es.
Proof.
  intros k n es (e & Hin & E). exists e. split; [|exact E].
  rewrite <- (firstn_skipn n es). apply in_or_app. auto.
Qed.

Lemma touches_write_file : forall A (mk : list A -> content) k k' l,
  touches k (write_file mk k' l) <-> k = k'.
Proof.
  intros A mk k k' l. unfold write_file. split.
  - intros (e & Hin & E). apply in_map_iff in Hin. destruct Hin as (n & <- & _). simpl in E. congruence.
  - intros ->. eexists. split; [apply in_map; left; reflexivity|reflexivity].
Qed.

Lemma write_file_result : forall A (mk : list A -> content) k l s,
  apply_all (write_file mk k l) s k = Some (mk l).
Proof.
  intros A mk k l s. unfold write_file. rewrite seq_S, map_app, apply_all_app.
  simpl. rewrite firstn_all. unfold apply_all. simpl.
  rewrite (proj2 (key_eqb_eq k k) eq_refl). reflexivity.
Qed.

Lemma touches_index_files : forall mk, (forall i j, mk i = mk j -> i = j) ->
  forall arrays i k, touches k (write_index_files mk i arrays) <->
  exists j, i <= j < i + Z.of_nat (length arrays) /\ k = mk j.
Proof.
  intros mk Hinj. induction arrays as [|a l IH]; intros i k.
  - split; [intros (e & [] & _)|intros (j & Hj & _); simpl in Hj; lia].
  - rewrite write_index_files_cons, touches_app, touches_write_file, IH. cbn [length]. split.
    + intros [->|(j & Hj & ->)]; [exists i|exists j]; (split; [lia|reflexivity]).
    + intros (j & Hj & ->). destruct (Z.eq_dec j i); [left; congruence|right; exists j].
      split; [lia|reflexivity].
Qed.

Lemma index_files_result : forall mk, (forall i j, mk i = mk j -> i = j) ->
  forall arrays i j a s, nth_error arrays j = Some a ->
  apply_all (write_index_files mk i arrays) s (mk (i + Z.of_nat j)) = Some (Ids (rev a)).
Proof.
  intros mk Hinj. induction arrays as [|b l IH]; intros i j a s H; [destruct j; discriminate|].
  rewrite write_index_files_cons, apply_all_app. destruct j as [|j]; cbn [nth_error] in H.
  - injection H as ->. rewrite Z.add_0_r.
    rewrite apply_all_untouched; [apply write_file_result|].
    rewrite touches_index_files by exact Hinj. intros (j & Hj & E). apply Hinj in E. lia.
  - replace (i + Z.of_nat (S j)) with (i + 1 + Z.of_nat j) by lia. apply IH. exact H.
Qed.

(** ** Lemmas about the steps *)

Lemma write_file_target : forall A (mk : list A -> content) k l e,
  In e (write_file mk k l) -> target e = Some k.
Proof.
  intros A mk k l e H. unfold write_file in H. apply in_map_iff in H.
  destruct H as (? & <- & _). reflexivity.
Qed.

Opaque write_file.

Lemma step1_effects_cases : forall E mem,
  r_effects (step1 E mem) = [] \/
  exists rows, r_effects (step1 E mem) = write_file Rows KAreas rows \/
               r_effects (step1 E mem) = write_file Rows KAreas rows ++ [Plot; Del KFlag].
Proof.
  intros E mem. unfold step1. destruct (compute_areas E) as [rows|]; [|left; reflexivity].
  right. exists rows. destruct (plot_ok E rows); [right|left]; reflexivity.
Qed.

Lemma step1_complete_inv : forall E mem, r_res (step1 E mem) = Ok tt ->
  exists rows, compute_areas E = Ok rows /\ plot_ok E rows = true /\ rows <> [] /\
    r_effects (step1 E mem) = write_file Rows KAreas rows ++ [Plot; Del KFlag] /\
    r_mem (step1 E mem) = Some rows.
Proof.
  intros E mem H. unfold step1 in *. destruct (compute_areas E) as [rows|]; [|discriminate].
  destruct (plot_ok E rows) eqn:Ep; [|discriminate]. exists rows. repeat split; auto.
  intros ->. discriminate.
Qed.

Lemma step1_res_mem : forall E m m', r_res (step1 E m) = r_res (step1 E m').
Proof.
  intros. unfold step1. destruct (compute_areas E); [|reflexivity]. destruct (plot_ok E a); reflexivity.
Qed.

(** Completed step 1 that deletes the flag is the only thing that deletes it. *)
Lemma step1_partial_keeps_flag : forall E mem n s,
  (r_res (step1 E mem) <> Ok tt \/ (n < length (r_effects (step1 E mem)))%nat) ->
  apply_all (firstn n (r_effects (step1 E mem))) s KFlag = s KFlag.
Proof.
  intros E mem n s H. apply apply_all_untouched. unfold step1 in *.
  destruct (compute_areas E) as [rows|]; simpl in *.
  2:{ rewrite firstn_nil. intros (x & [] & _). }
  destruct (plot_ok E rows); simpl in *.
  - destruct H as [H|H]; [congruence|]. rewrite app_length in H. simpl in H.
    intros Ht.
    assert (Ht' : touches KFlag (write_file Rows KAreas rows ++ [Plot])).
    { destruct Ht as (e & Hin & E'). exists e. split; [|exact E'].
      replace (write_file Rows KAreas rows ++ [Plot; Del KFlag])
        with ((write_file Rows KAreas rows ++ [Plot]) ++ [Del KFlag]) in Hin by (rewrite <- app_assoc; reflexivity).
      rewrite firstn_app in Hin. apply in_app_or in Hin. destruct Hin as [Hin|Hin].
      - rewrite <- (firstn_skipn n (write_file Rows KAreas rows ++ [Plot])). apply in_or_app. auto.
      - exfalso. replace (n - length (write_file Rows KAreas rows ++ [Plot]))%nat with 0%nat in Hin; [destruct Hin|].
        rewrite app_length. simpl. lia. }
    apply touches_app in Ht'. destruct Ht' as [Ht'|(e & [<-|[]] & E')]; [|discriminate].
    apply touches_write_file in Ht'. discriminate.
  - intros Ht. apply touches_firstn, touches_write_file in Ht. discriminate.
Qed.

(** Closed form of a completed step 2. *)
Lemma step2_complete_inv : forall E mem s, r_res (step2 E mem s) = Ok tt ->
  s KFlag = None /\
  exists rows arrays rows',
    (match mem with Some r => Ok r | None => load_search_areas s end) = Ok rows /\
    match_leds_to_led_arrays (e_geo E) 5 rows (e_edges E) (e_ignored E) None = Ok arrays /\
    reorder_search_areas rows arrays = Ok rows' /\
    r_mem (step2 E mem s) = Some rows' /\
    r_effects (step2 E mem s) =
      write_file Rows KAreas rows' ++ [Plot; Put KFlag Empty] ++
      write_index_files KIdx 0 (reorder_led_indices arrays) ++ [Plot] ++
      match e_merge E with
      | None => []
      | Some gs => write_index_files KMerge 0 (merge_indices (reorder_led_indices arrays) (Some gs)) ++ [Plot]
      end.
Proof.
  intros E mem s H. unfold step2 in *. destruct (s KFlag); [discriminate|]. split; [reflexivity|].
  destruct (match mem with Some r => Ok r | None => load_search_areas s end) as [rows|]; [|discriminate].
  destruct (match_leds_to_led_arrays (e_geo E) 5 rows (e_edges E) (e_ignored E) None) as [arrays|] eqn:Em; [|discriminate].
  destruct rows as [|r0 rows]; [discriminate|].
  destruct (reorder_search_areas (r0 :: rows) arrays) as [rows'|] eqn:Er; [|discriminate].
  destruct (plot_ok E rows'); [|discriminate].
  exists (r0 :: rows), arrays, rows'. auto.
Qed.

Lemma step2_touches_flag_last : forall E mem s n,
  s KFlag = None -> apply_all (firstn n (r_effects (step2 E mem s))) s KFlag = None \/
                    apply_all (firstn n (r_effects (step2 E mem s))) s KFlag = Some Empty.
Proof.
  intros E mem s n Hf.
  assert (G : forall es s, (forall e, In e es -> target e = Some KFlag -> e = Put KFlag Empty) ->
     (s KFlag = None \/ s KFlag = Some Empty) -> apply_all es s KFlag = None \/ apply_all es s KFlag = Some Empty).
  { induction es as [|e es IH]; intros s0 He Hs; [exact Hs|]. unfold apply_all in *. simpl.
    apply IH; [intros e' Hin; apply He; right; exact Hin|].
    destruct (target e) as [k|] eqn:Et.
    - destruct (key_eqb k KFlag) eqn:Ek.
      + apply key_eqb_eq in Ek. subst. rewrite (He e (or_introl eq_refl) Et). simpl. auto.
      + rewrite apply_eff_other; [exact Hs|]. intros E'. rewrite Et in E'. injection E' as ->.
        discriminate.
    - rewrite apply_eff_other; [exact Hs|congruence]. }
  apply G; [|left; exact Hf].
  intros e Hin Ht.
  assert (Hin' : In e (r_effects (step2 E mem s))).
  { rewrite <- (firstn_skipn n). apply in_or_app. auto. }
  clear Hin. unfold step2 in Hin'. rewrite Hf in Hin'.
  destruct (match mem with Some r => Ok r | None => load_search_areas s end) as [rows|]; [|destruct Hin'].
  destruct (match_leds_to_led_arrays (e_geo E) 5 rows (e_edges E) (e_ignored E) None) as [arrays|]; [|destruct Hin'].
  destruct rows as [|r0 rows]; [destruct Hin'|].
  destruct (reorder_search_areas (r0 :: rows) arrays) as [rows'|]; [|destruct Hin'].
  assert (W : forall A (mk : list A -> content) k l, In e (write_file mk k l) -> target e = Some k).
  { intros A mk k l H. eapply write_file_target, H. }
  assert (W2 : forall mk ars i, In e (write_index_files mk i ars) -> exists j, target e = Some (mk j)).
  { intros mk ars. induction ars as [|a l IH]; intros i H; [destruct H|].
    rewrite write_index_files_cons in H.
    apply in_app_or in H. destruct H as [H|H]; [exists i; eapply W; eauto|eauto]. }
  assert (N1 : ~ In e (write_file Rows KAreas rows')).
  { intros H. apply W in H. congruence. }
  assert (N2 : forall ars i, ~ In e (write_index_files KIdx i ars)).
  { intros ars i H. apply W2 in H. destruct H. congruence. }
  assert (N3 : forall ars i, ~ In e (write_index_files KMerge i ars)).
  { intros ars i H. apply W2 in H. destruct H. congruence. }
  destruct (plot_ok E rows'); simpl in Hin'; [|exfalso; tauto].
  apply in_app_or in Hin'. destruct Hin' as [H|H]; [exfalso; tauto|].
  destruct H as [<-|[<-|H]]; [discriminate|reflexivity|].
  apply in_app_or in H. destruct H as [H|[<-|H]]; [exfalso; eapply N2; eauto|discriminate|].
  destruct (e_merge E); [|destruct H]. apply in_app_or in H.
  destruct H as [H|[<-|[]]]; [exfalso; eapply N3; eauto|discriminate].
Qed.

(** ** C14 *)

(** The command is a step 1 that runs to its end. *)
Definition is_completed_step1 (c : cmd) : Prop :=
  match c with
  | Step1 E => step1_completes E
  | Step1Killed E n => step1_completes E /\ (length (r_effects (step1 E None)) <= n)%nat
  | _ => False
  end.

Lemma exec_keeps_flag : forall c st, fst st KFlag <> None -> ~ is_completed_step1 c ->
  fst (exec c st) KFlag <> None.
Proof.
  intros c [s mem] Hf Hc. simpl in Hf. destruct c as [|E|E|E n|E n]; simpl in *.
  - exact Hf.
  - assert (H : apply_all (firstn (length (r_effects (step1 E mem))) (r_effects (step1 E mem))) s KFlag = s KFlag).
    { apply step1_partial_keeps_flag. left. rewrite (step1_res_mem E mem None). exact Hc. }
    rewrite firstn_all in H. rewrite H. exact Hf.
  - unfold step2. destruct (s KFlag) eqn:E1; [|congruence]. simpl. unfold apply_all. simpl. congruence.
  - rewrite step1_partial_keeps_flag; [exact Hf|].
    destruct (le_lt_dec (length (r_effects (step1 E mem))) n) as [Hle|Hlt]; [|right; exact Hlt].
    left. intros Hr. apply Hc. split; [unfold step1_completes; rewrite (step1_res_mem E None mem); exact Hr|].
    replace (r_effects (step1 E None)) with (r_effects (step1 E mem)); [exact Hle|].
    unfold step1. destruct (compute_areas E) as [rows|]; [destruct (plot_ok E rows)|]; reflexivity.
  - unfold step2. destruct (s KFlag) eqn:E1; [|congruence]. simpl. rewrite firstn_nil. unfold apply_all. simpl. congruence.
Qed.

(** After a completed step 2 every later step 2, whatever configuration it
    uses, is refused and writes nothing, as long as no step 1 has run to its
    end - whatever else (new processes, failed or killed runs) has happened. *)
Theorem C14_second_step2_is_refused :
  forall E st h E',
  step2_completes E st ->
  Forall (fun c => ~ is_completed_step1 c) h ->
  let st' := exec_all h (exec (Step2 E) st) in
  r_res (step2 E' (snd st') (fst st')) = Err SystemExit /\
  fst (exec (Step2 E') st') = fst st'.
Proof.
  intros E [s mem] h E' Hc Hh st'.
  assert (Hf : fst (exec (Step2 E) (s, mem)) KFlag <> None).
  { simpl. destruct (step2_complete_inv _ _ _ Hc) as (_ & rows & arrays & rows' & _ & _ & _ & _ & He).
    simpl in He. rewrite He, apply_all_app. unfold apply_all at 1. cbn [fold_left app].
    rewrite fold_left_app. fold (apply_all (write_index_files KIdx 0 (reorder_led_indices arrays))).
    match goal with |- fold_left apply_eff ?t ?x KFlag <> None => change (apply_all t x KFlag <> None) end.
    rewrite apply_all_untouched.
    - rewrite apply_all_untouched; [simpl; discriminate|].
      rewrite touches_index_files by congruence. intros (j & _ & E0). discriminate.
    - intros Ht. change [Plot] with ([Plot] ++ []) in Ht. 
      destruct (e_merge E) as [gs|].
      + change ([Plot] ++ [] ++ ?x) with (Plot :: x) in Ht.
        destruct Ht as (e & [<-|Hin] & Et); [discriminate|].
        simpl in Hin. apply in_app_or in Hin. destruct Hin as [Hin|[<-|[]]]; [|discriminate].
        assert (Ht : touches KFlag (write_index_files KMerge 0 (merge_indices (reorder_led_indices arrays) (Some gs))))
          by (exists e; auto).
        rewrite touches_index_files in Ht by congruence. destruct Ht as (j & _ & E0). discriminate.
      + destruct Ht as (e & [<-|[]] & Et). discriminate. }
  assert (Hf' : fst st' KFlag <> None).
  { unfold st'. clear st'. revert Hf. generalize (exec (Step2 E) (s, mem)) as st0.
    induction Hh as [|c h Hc' Hh IH]; intros st0 Hf; [exact Hf|]. simpl. apply IH.
    apply exec_keeps_flag; assumption. }
  destruct st' as [s' mem']. simpl in *.
  unfold step2. destruct (s' KFlag); [|congruence]. split; reflexivity.
Qed.
Print Assumptions C14_second_step2_is_refused.

(** A completed step 1 makes step 2 possible again: it then works on the table
    that this step 1 has written. *)
Theorem C14_step1_allows_step2 :
  forall E st, step1_completes E ->
  let st' := exec (Step1 E) st in
  fst st' KFlag = None /\
  exists rows, compute_areas E = Ok rows /\ fst st' KAreas = Some (Rows rows) /\ snd st' = Some rows.
Proof.
  intros E [s mem] Hc st'. unfold step1_completes in Hc. rewrite (step1_res_mem E None mem) in Hc.
  destruct (step1_complete_inv _ _ Hc) as (rows & Ha & _ & _ & He & Hm).
  unfold st'. simpl. rewrite He, Hm, apply_all_app. split; [reflexivity|]. exists rows.
  split; [exact Ha|]. split; [|reflexivity].
  unfold apply_all at 1. simpl. apply write_file_result.
Qed.
Print Assumptions C14_step1_allows_step2.

(** A concrete layout: two columns of three LEDs, numbered by brightness. *)
Definition demo_image : image := Img 9 10 (fun y x =>
  if (y =? 2) && (x =? 2) then 90 else if (y =? 2) && (x =? 8) then 85
  else if (y =? 4) && (x =? 2) then 80 else if (y =? 6) && (x =? 8) then 75
  else if (y =? 6) && (x =? 2) then 70 else if (y =? 4) && (x =? 8) then 65 else 1).
Definition demo_env : env :=
  Env scan (Ok demo_image) 1 50 10 fixed_geometry [[0; 4]; [1; 3]] [] (Some [[0; 1]]) (fun _ => true).

Example C14_example :
  compute_areas demo_env =
    Ok [(0, (2, 2)); (1, (2, 8)); (2, (4, 2)); (3, (6, 8)); (4, (6, 2)); (5, (4, 8))] /\
  step1_completes demo_env /\
  step2_completes demo_env (exec NewProcess (exec (Step1 demo_env) ((fun _ => None), None))) /\
  Forall (fun c => ~ is_completed_step1 c) [Step1Killed demo_env 7; NewProcess; Step2 demo_env].
Proof.
  split; [vm_compute; reflexivity|]. split; [vm_compute; reflexivity|]. split; [vm_compute; reflexivity|].
  constructor; [|constructor; [|constructor; [|constructor]]]; cbn [is_completed_step1]; try (intros H; exact H).
  intros [_ H]. vm_compute in H. lia.
Qed.

(** ** C15 *)

Definition run12 (E : env) (st : state) : state := exec (Step2 E) (exec (Step1 E) st).
Definition run12_completes (E : env) (st : state) : Prop :=
  step1_completes E /\ step2_completes E (exec (Step1 E) st).

(** Number of arrays (merged arrays) that step 2 produces after step 1. *)
Definition arrays_of (E : env) : res (list (list Z)) :=
  bind (compute_areas E) (fun rows =>
  match_leds_to_led_arrays (e_geo E) 5 rows (e_edges E) (e_ignored E) None).

Lemma exec_step2 : forall E st,
  fst (exec (Step2 E) st) = apply_all (r_effects (step2 E (snd st) (fst st))) (fst st).
Proof. intros E [s mem]. reflexivity. Qed.

Lemma run12_effects : forall E st, run12_completes E st ->
  exists arrays rows', arrays_of E = Ok arrays /\
   bind (compute_areas E) (fun rows => reorder_search_areas rows arrays) = Ok rows' /\
   fst (run12 E st) = apply_all
     (write_file Rows KAreas rows' ++ [Plot; Put KFlag Empty] ++
      write_index_files KIdx 0 (reorder_led_indices arrays) ++ [Plot] ++
      match e_merge E with
      | None => []
      | Some gs => write_index_files KMerge 0 (merge_indices (reorder_led_indices arrays) (Some gs)) ++ [Plot]
      end) (fst (exec (Step1 E) st)).
Proof.
  intros E [s mem] [H1 H2].
  destruct (C14_step1_allows_step2 E (s, mem) H1) as (Hf & rows & Ha & Hr & Hm).
  unfold step2_completes in H2. rewrite Hm in H2.
  destruct (step2_complete_inv _ _ _ H2) as (_ & rows0 & arrays & rows' & El & Em & Er & _ & He).
  injection El as <-.
  exists arrays, rows'. unfold arrays_of. rewrite Ha. cbn [bind]. split; [exact Em|]. split; [exact Er|].
  unfold run12. rewrite exec_step2, Hm, He. reflexivity.
Qed.

(** The result of step 1 followed by step 2 does not depend on what earlier
    runs - completed, failed, killed, with other configurations - left behind:
    the table, the flag and the index files of all (merged) arrays are the same
    from any two starting states. *)
Theorem C15_rerun_of_both_steps_repairs_everything :
  forall E st st' arrays, run12_completes E st -> arrays_of E = Ok arrays ->
  run12_completes E st' /\
  fst (run12 E st') KAreas = fst (run12 E st) KAreas /\
  fst (run12 E st') KFlag = fst (run12 E st) KFlag /\
  (forall i, 0 <= i < Z.of_nat (length arrays) ->
     fst (run12 E st') (KIdx i) = fst (run12 E st) (KIdx i)) /\
  (forall gs i, e_merge E = Some gs ->
     0 <= i < Z.of_nat (length (merge_indices (reorder_led_indices arrays) (Some gs))) ->
     fst (run12 E st') (KMerge i) = fst (run12 E st) (KMerge i)).
Proof.
  intros E st st' arrays Hc Harr.
  assert (Hc' : run12_completes E st').
  { destruct Hc as [H1 H2]. split; [exact H1|].
    destruct (C14_step1_allows_step2 E st H1) as (Hf & rows & Ha & Hr & Hm).
    destruct (C14_step1_allows_step2 E st' H1) as (Hf' & rows' & Ha' & Hr' & Hm').
    assert (rows' = rows) by congruence. subst rows'.
    unfold step2_completes in *. rewrite Hm in H2. rewrite Hm'.
    unfold step2 in *. rewrite Hf in H2. rewrite Hf'. exact H2. }
  split; [exact Hc'|].
  destruct (run12_effects E st Hc) as (a1 & r1 & A1 & B1 & E1).
  destruct (run12_effects E st' Hc') as (a2 & r2 & A2 & B2 & E2).
  assert (a1 = arrays) by congruence. assert (a2 = arrays) by congruence. subst a1 a2.
  assert (r2 = r1) by congruence. subst r2. rewrite E1, E2.
  assert (Hlen : length (reorder_led_indices arrays) = length arrays).
  { rewrite <- (map_length (@length Z)). unfold reorder_led_indices.
    rewrite Step2_Match.reorder_from_lengths, map_length. reflexivity. }
  repeat split.
  - apply apply_all_touched. rewrite touches_app. left. apply touches_write_file. reflexivity.
  - apply apply_all_touched. rewrite touches_app. right.
    exists (Put KFlag Empty). split; [right; left; reflexivity|reflexivity].
  - intros i Hi. apply apply_all_touched. rewrite touches_app. right. rewrite touches_app. right.
    rewrite touches_app. left. rewrite touches_index_files by congruence. exists i. rewrite Hlen. split; [lia|reflexivity].
  - intros gs i Hg Hi. rewrite Hg. apply apply_all_touched. do 3 (rewrite touches_app; right).
    rewrite touches_app. right. rewrite touches_app. left.
    rewrite touches_index_files by congruence. exists i. split; [lia|reflexivity].
Qed.
Print Assumptions C15_rerun_of_both_steps_repairs_everything.

(** Killed inside step 2 directly after step 1, then step 1 and step 2 again:
    every modelled file is as after the uninterrupted run. *)
Theorem C15_kill_in_step2_then_rerun :
  forall E st n, run12_completes E st ->
  let crashed := exec (Step2Killed E n) (exec (Step1 E) st) in
  forall k, fst (run12 E crashed) k = fst (run12 E st) k.
Proof.
  intros E st n Hc crashed k.
  destruct (run12_effects E st Hc) as (arrays & r1 & A1 & B1 & E1).
  pose proof (proj1 (C15_rerun_of_both_steps_repairs_everything E st crashed arrays Hc A1)) as Hc'.
  destruct (run12_effects E crashed Hc') as (a2 & r2 & A2 & B2 & E2).
  assert (a2 = arrays) by congruence. subst a2. assert (r2 = r1) by congruence. subst r2.
  rewrite E1, E2. clear E1 E2.
  destruct Hc as [H1 H2].
  assert (Hcr : exists p, fst crashed = apply_all p (fst (exec (Step1 E) st)) /\
     forall k, touches k p -> touches k (write_file Rows KAreas r1 ++ [Plot; Put KFlag Empty] ++
      write_index_files KIdx 0 (reorder_led_indices arrays) ++ [Plot] ++
      match e_merge E with
      | None => []
      | Some gs => write_index_files KMerge 0 (merge_indices (reorder_led_indices arrays) (Some gs)) ++ [Plot]
      end)).
  { destruct (C14_step1_allows_step2 E st H1) as (Hf & rows & Ha & Hr & Hm).
    unfold step2_completes in H2. 
    destruct (step2_complete_inv _ _ _ H2) as (_ & rows0 & arrays' & rows' & El & Em & Er & _ & He).
    rewrite Hm in El. injection El as <-.
    unfold arrays_of in A1. rewrite Ha in A1, B1. simpl in A1, B1.
    assert (arrays' = arrays) by congruence. subst arrays'. assert (rows' = r1) by congruence. subst rows'.
    unfold crashed. destruct (exec (Step1 E) st) as [s1 m1]. simpl in *.
    eexists. split; [reflexivity|]. intros k0 Hk. apply touches_firstn in Hk. rewrite He in Hk. exact Hk. }
  destruct Hcr as (p & Hp & Htouch).
  set (L2 := write_file Rows KAreas r1 ++ _) in *.
  destruct (touches_dec k L2) as [Ht|Ht]; [apply apply_all_touched; exact Ht|].
  rewrite !(apply_all_untouched L2) by exact Ht.
  assert (Hnp : ~ touches k p) by (intros H; apply Ht, Htouch, H).
  destruct crashed as [sc mc]. destruct st as [s mem]. simpl in Hp |- *.
  replace (r_effects (step1 E mc)) with (r_effects (step1 E mem)).
  2:{ unfold step1. destruct (compute_areas E) as [rows|]; [destruct (plot_ok E rows)|]; reflexivity. }
  destruct (touches_dec k (r_effects (step1 E mem))) as [H|H].
  - apply apply_all_touched. exact H.
  - rewrite !apply_all_untouched by exact H. rewrite Hp. 
    rewrite apply_all_untouched by exact Hnp. apply apply_all_untouched. exact H.
Qed.
Print Assumptions C15_kill_in_step2_then_rerun.

(** Re-running only step 2 after a kill is not safe: there is a layout and a
    kill point after which step 2 is accepted, ends normally, and yields a
    different (wrong) assignment. *)
Theorem C15_rerun_of_step2_alone_refuted :
  exists E st n,
    run12_completes E st /\
    let crashed := exec (Step2Killed E n) (exec (Step1 E) st) in
    step2_completes E crashed /\
    fst (exec (Step2 E) crashed) KAreas <> fst (run12 E st) KAreas.
Proof.
  exists demo_env, ((fun _ => None), None), 7%nat.
  split; [split; vm_compute; reflexivity|]. split; [vm_compute; reflexivity|].
  vm_compute. intros H. discriminate.
Qed.
Print Assumptions C15_rerun_of_step2_alone_refuted.

(** Exactly which kills are dangerous: before the table is touched or after the
    flag is set, re-running step 2 alone is harmless (it completes correctly or
    is refused). *)
Theorem C15_kill_after_flag_is_refused :
  forall E E' st n, run12_completes E st ->
  let crashed := exec (Step2Killed E n) (exec (Step1 E) st) in
  fst crashed KFlag <> None ->
  r_res (step2 E' (snd crashed) (fst crashed)) = Err SystemExit /\
  fst crashed KAreas = fst (run12 E st) KAreas.
Proof.
  intros E E' st n Hc crashed Hf. split.
  { unfold step2. destruct (fst crashed KFlag); [reflexivity|congruence]. }
  destruct (run12_effects E st Hc) as (arrays & r1 & A1 & B1 & E1).
  destruct Hc as [H1 H2].
  destruct (C14_step1_allows_step2 E st H1) as (Hf1 & rows & Ha & Hr & Hm).
  destruct (step2_complete_inv _ _ _ H2) as (_ & rows0 & arrays' & rows' & El & Em & Er & _ & He).
  rewrite Hm in El. injection El as <-.
  unfold arrays_of in A1. rewrite Ha in A1, B1. simpl in A1, B1.
  assert (arrays' = arrays) by congruence. subst arrays'. assert (rows' = r1) by congruence. subst rows'.
  rewrite E1. unfold crashed in *. destruct (exec (Step1 E) st) as [s1 m1]. simpl in *.
  rewrite He in *. clear He E1 crashed.
  set (W := write_file Rows KAreas r1) in *.
  match goal with |- context [firstn n (W ++ ?t)] => set (T := t) in * end.
  assert (HT : ~ touches KAreas T).
  { unfold T. intros (e & Hin & Et). destruct Hin as [<-|[<-|Hin]]; try discriminate.
    apply in_app_or in Hin. destruct Hin as [Hin|[<-|Hin]]; try discriminate.
    - assert (H : touches KAreas (write_index_files KIdx 0 (reorder_led_indices arrays))) by (exists e; auto).
      rewrite touches_index_files in H by congruence. destruct H as (j & _ & E0). discriminate.
    - destruct (e_merge E) as [gs|]; [|destruct Hin]. apply in_app_or in Hin.
      destruct Hin as [Hin|[<-|[]]]; [|discriminate].
      assert (H : touches KAreas (write_index_files KMerge 0 (merge_indices (reorder_led_indices arrays) (Some gs)))) by (exists e; auto).
      rewrite touches_index_files in H by congruence. destruct H as (j & _ & E0). discriminate. }
  rewrite (apply_all_app W T), (apply_all_untouched T) by exact HT.
  destruct (le_lt_dec n (length W)) as [Hn|Hn].
  - exfalso. apply Hf. rewrite firstn_app. replace (n - length W)%nat with 0%nat by lia.
    simpl. rewrite app_nil_r. rewrite apply_all_untouched; [exact Hf1|].
    intros Ht. apply touches_firstn, touches_write_file in Ht. discriminate.
  - rewrite firstn_app, firstn_all2 by lia. rewrite apply_all_app.
    apply apply_all_untouched. intros Ht. apply HT. eapply touches_firstn. exact Ht.
Qed.
Print Assumptions C15_kill_after_flag_is_refused.

Example C15_example :
  run12_completes demo_env ((fun _ => None), None) /\
  map (fun k => fst (run12 demo_env ((fun _ => None), None)) k) [KAreas; KFlag; KIdx 0; KIdx 1; KIdx 2; KMerge 0; KMerge 1]
  = [Some (Rows [(0, (2, 2)); (1, (4, 2)); (2, (6, 2)); (3, (2, 8)); (4, (4, 8)); (5, (6, 8))]);
     Some Empty; Some (Ids [2; 1; 0]); Some (Ids [5; 4; 3]); None; Some (Ids [5; 4; 3; 2; 1; 0]); None].
Proof. split; [split|]; vm_compute; reflexivity. Qed.

(** Killed before anything is written, or simply continued in a new process:
    step 2 alone then gives what the uninterrupted run gives - unless the
    table has exactly one row. *)
Theorem C15_step2_in_a_new_process :
  forall E st rows, run12_completes E st -> compute_areas E = Ok rows -> length rows <> 1%nat ->
  let st' := exec NewProcess (exec (Step1 E) st) in
  step2_completes E st' /\ forall k, fst (exec (Step2 E) st') k = fst (run12 E st) k.
Proof.
  intros E st rows [H1 H2] Ha Hn st'.
  destruct (C14_step1_allows_step2 E st H1) as (Hf & rows0 & Ha' & Hr & Hm).
  assert (rows0 = rows) by congruence. subst rows0.
  assert (Eq : step2 E None (fst (exec (Step1 E) st)) =
               step2 E (Some rows) (fst (exec (Step1 E) st)) \/ rows = []).
  { unfold step2. rewrite Hf. unfold load_search_areas. rewrite Hr.
    destruct rows as [|r [|r' rows]]; simpl in Hn; [right; reflexivity|congruence|].
    left. destruct (match_leds_to_led_arrays _ _ _ _ _ _); reflexivity. }
  destruct Eq as [Eq|Eq].
  - unfold step2_completes, run12. rewrite !exec_step2. unfold st'.
    rewrite Hm. unfold step2_completes in H2. rewrite Hm in H2.
    destruct (exec (Step1 E) st) as [s1 m1]. cbn [exec fst snd] in *. rewrite Eq. split; [exact H2|reflexivity].
  - subst rows. exfalso. destruct (step1_complete_inv E None H1) as (rows & Ha1 & _ & Hne & _). congruence.
Qed.
Print Assumptions C15_step2_in_a_new_process.

Theorem C15_single_led_in_a_new_process_refuted :
  exists E st, run12_completes E st /\
    r_res (step2 E None (fst (exec (Step1 E) st))) = Err IndexError.
Proof.
  exists (Env scan (Ok (Img 5 5 (fun y x => if (y =? 2) && (x =? 2) then 9 else 0))) 1 50 10
              fixed_geometry [[0; 0]] [] None (fun _ => true)), ((fun _ => None), None).
  split; [split|]; vm_compute; reflexivity.
Qed.
Print Assumptions C15_single_led_in_a_new_process_refuted.
