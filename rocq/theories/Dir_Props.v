(** What the program takes from the names of files: C97, C98 *)
From Coq Require Import QArith ZArith Lia Bool Ascii String List.
From Verif Require Import Base Str Substr Restart_Model Step1_Model Step2_Model Step2_Match Step2_Props Pipeline_Model Pipeline_Props Dir_Model.
Import ListNotations.
Local Open Scope string_scope.
Local Open Scope Z_scope.

(** ** C97 *)

(** [f] contains the number [d] followed by [_led_positions], any character and [csv]. *)
Definition found_at (f u d : string) : Prop :=
  exists c v, f = u ++ d ++ "_led_positions" ++ String c ("csv" ++ v) /\ d <> "" /\ all_chars is_digit d = true /\ c <> nl.

(** The first such place. *)
Definition first_found (f d : string) : Prop :=
  exists u, found_at f u d /\ forall u' d', found_at f u' d' -> (String.length u <= String.length u')%nat.

Lemma span_digits_spec : forall s d r, span_digits s = (d, r) -> s = d ++ r /\ all_chars is_digit d = true.
Proof.
  induction s as [|a s IH]; intros d r H.
  - apply pair_equal_spec in H. destruct H as [<- <-]. split; reflexivity.
  - cbn in H. destruct (is_digit a) eqn:E.
    + destruct (span_digits s) as [d' t]. apply pair_equal_spec in H. destruct H as [<- <-].
      destruct (IH d' t eq_refl) as [-> B]. split; [reflexivity|]. cbn. rewrite E. exact B.
    + apply pair_equal_spec in H. destruct H as [<- <-]. split; reflexivity.
Qed.

Lemma span_digits_app : forall d a r, all_chars is_digit d = true -> is_digit a = false ->
  span_digits (d ++ String a r) = (d, String a r).
Proof.
  induction d as [|b d IH]; intros a r D A; cbn.
  - rewrite A. reflexivity.
  - cbn in D. apply andb_true_iff in D. destruct D as [D1 D2]. rewrite D1, (IH a r D2 A). reflexivity.
Qed.

Lemma cut_app : forall p s, substring (String.length p) (String.length (p ++ s) - String.length p) (p ++ s) = s.
Proof.
  intros p s. rewrite length_app_s. replace (String.length p + String.length s - String.length p)%nat with (String.length s) by lia.
  induction p as [|a p IH].
  - cbn. induction s as [|b s IHs]; [reflexivity|]. cbn. rewrite IHs. reflexivity.
  - cbn. exact IH.
Qed.

Lemma tail_matches_spec : forall s, tail_matches s = true <->
  exists c v, s = "_led_positions" ++ String c ("csv" ++ v) /\ c <> nl.
Proof.
  intros s. unfold tail_matches. rewrite andb_true_iff, starts_spec. split.
  - intros ((t & ->) & H).
    change 14%nat with (String.length "_led_positions") in H. rewrite cut_app in H. destruct t as [|c r]; [discriminate|].
    apply andb_true_iff in H. destruct H as [A B]. apply starts_spec in B. destruct B as (v & ->). exists c, v. split; [reflexivity|].
    intros ->. rewrite Ascii.eqb_refl in A. discriminate.
  - intros (c & v & -> & N). split; [eexists; reflexivity|].
    change 14%nat with (String.length "_led_positions"). rewrite cut_app.
    apply andb_true_iff. split; [apply negb_true_iff; apply Ascii.eqb_neq; exact N|]. apply starts_refl_app.
Qed.

Lemma match_here_spec : forall s d, match_here s = Some d <-> found_at s "" d.
Proof.
  intros s d. unfold match_here, found_at. split.
  - destruct (span_digits s) as [d' r] eqn:E. apply span_digits_spec in E. destruct E as [-> D].
    destruct (negb (d' =? "")%string && tail_matches r) eqn:T; [|discriminate]. intros H. apply Some_inj in H. subst d'.
    apply andb_true_iff in T. destruct T as [A B]. apply tail_matches_spec in B. destruct B as (c & v & -> & N).
    exists c, v. split; [reflexivity|]. split; [|split; assumption]. apply negb_true_iff in A. apply String.eqb_neq. exact A.
  - intros (c & v & -> & NE & D & N). cbn [append].
    assert (S : span_digits (d ++ "_led_positions" ++ String c ("csv" ++ v)) = (d, "_led_positions" ++ String c ("csv" ++ v))).
    { apply (span_digits_app d "_"%char ("led_positions" ++ String c ("csv" ++ v)) D). reflexivity. }
    cbn [append] in S. rewrite S. apply String.eqb_neq in NE. rewrite NE. cbn [negb andb].
    assert (T : tail_matches ("_led_positions" ++ String c ("csv" ++ v)) = true) by (apply tail_matches_spec; exists c, v; split; [reflexivity|exact N]).
    cbn [append] in T. rewrite T. reflexivity.
Qed.

Lemma found_cons : forall a s u d, found_at (String a s) (String a u) d <-> found_at s u d.
Proof.
  intros a s u d. unfold found_at. split; intros (c & v & E & H); exists c, v; (split; [|exact H]).
  - cbn in E. injection E as E. exact E.
  - rewrite E. reflexivity.
Qed.

Lemma search_step : forall s, search s = match match_here s with
  | Some d => Some d
  | None => match s with String _ r => search r | "" => None end
  end.
Proof. intros [|a s]; reflexivity. Qed.

Lemma search_none : forall s, search s = None <-> forall u d, ~ found_at s u d.
Proof.
  induction s as [|a s IH]; rewrite search_step.
  - split; [|reflexivity]. intros _ u d (c & v & E & _). destruct u, d; discriminate E.
  - destruct (match_here (String a s)) as [d|] eqn:M.
    + split; [discriminate|]. intros H. apply match_here_spec in M. destruct (H _ _ M).
    + rewrite IH. split; intros H u d F.
      * destruct u as [|b u]; [apply match_here_spec in F; congruence|].
        assert (b = a) by (destruct F as (c & v & E & _); cbn in E; congruence). subst b. apply -> found_cons in F. exact (H u d F).
      * apply <- (found_cons a) in F. exact (H _ _ F).
Qed.

Lemma search_some : forall s d, search s = Some d <-> first_found s d.
Proof.
  induction s as [|a s IH]; intros d; rewrite search_step.
  - split; [discriminate|]. intros (u & (c & v & E & _) & _). destruct u, d; discriminate E.
  - destruct (match_here (String a s)) as [d'|] eqn:M.
    + apply match_here_spec in M. split.
      * intros H. apply Some_inj in H. subst d'. exists "". split; [exact M|]. intros. cbn. lia.
      * intros (u & F & L). pose proof (L _ _ M) as L0. destruct u; [|cbn in L0; lia]. f_equal.
        apply match_here_spec in M. apply match_here_spec in F. congruence.
    + rewrite IH. split.
      * intros (u & F & L). exists (String a u). split; [apply found_cons; exact F|]. intros u' d' F'.
        destruct u' as [|b u']; [apply match_here_spec in F'; congruence|].
        assert (b = a) by (destruct F' as (c & v & E & _); cbn in E; congruence). subst b. apply -> found_cons in F'.
        cbn. specialize (L _ _ F'). lia.
      * intros (u & F & L). destruct u as [|b u]; [apply match_here_spec in F; congruence|].
        assert (b = a) by (destruct F as (c & v & E & _); cbn in E; congruence). subst b. apply -> found_cons in F.
        exists u. split; [exact F|]. intros u' d' F'. apply <- (found_cons a) in F'. specialize (L _ _ F'). cbn in L. lia.
Qed.

(** A number is read from every name that contains a number followed by the pattern,
    wherever it stands in the name; from no other name. *)
Theorem C97_which_names_count : forall f,
  (forall n, analysed_ids [f] = Ok [n] <-> exists d, first_found f d /\ int_of_str d = Ok n) /\
  (analysed_ids [f] = Ok [] <-> forall u d, ~ found_at f u d).
Proof.
  intros f. cbn [analysed_ids]. split.
  - intros n. destruct (search f) as [d|] eqn:S.
    + pose proof (proj1 (search_some f d) S) as F. split.
      * destruct (int_of_str d) as [m|] eqn:I; [|discriminate]. cbn [bind]. intros H. apply Ok_inj in H. injection H as <-.
        exists d. split; assumption.
      * intros (d' & F' & I). apply search_some in F'. assert (d' = d) by congruence. subst d'. rewrite I. reflexivity.
    + split; [discriminate|]. intros (d & F & _). apply search_some in F. congruence.
  - destruct (search f) as [d|] eqn:S.
    + split.
      * destruct (int_of_str d); discriminate.
      * intros H. apply search_none in H. congruence.
    + split; [|reflexivity]. intros _. apply search_none. exact S.
Qed.
Print Assumptions C97_which_names_count.

Lemma own_name : forall id, 0 <= id -> search (result_name id) = Some (str_of_Z id).
Proof.
  intros id H. rewrite search_step.
  assert (F : found_at (result_name id) "" (str_of_Z id)).
  { assert (E : str_of_Z id = show_nonneg id) by (unfold str_of_Z; destruct (id <? 0) eqn:L; [apply Z.ltb_lt in L; lia|reflexivity]).
    exists "."%char, "". split; [reflexivity|]. rewrite E. split; [apply show_nonneg_nonempty|].
    split; [apply show_nonneg_digits|discriminate]. }
  apply match_here_spec in F. rewrite F. reflexivity.
Qed.

Lemma negative_name : forall id, id < 0 -> exists r, result_name id = String "-" r.
Proof. intros id L. unfold result_name, str_of_Z. apply Z.ltb_lt in L. rewrite L. eexists. reflexivity. Qed.

(** A directory which holds nothing but result files and files with other names. *)
Definition clean (names : list string) : Prop :=
  Forall (fun f => (exists id, 0 <= id /\ f = result_name id) \/ forall u d, ~ found_at f u d) names.

Lemma analysed_clean : forall names, clean names -> exists ids, analysed_ids names = Ok ids /\
  (forall id, In id ids <-> 0 <= id /\ In (result_name id) names).
Proof.
  intros names H. induction H as [|f names Hf H (ids & A & B)].
  - exists []. split; [reflexivity|]. intros id. cbn. tauto.
  - cbn [analysed_ids]. destruct Hf as [(id & P & ->)|N].
    + rewrite (own_name id P), int_of_str_of_Z. cbn [bind]. rewrite A. cbn [bind]. exists (id :: ids). split; [reflexivity|].
      intros i. cbn [In]. rewrite B. split.
      * intros [<-|[X Y]]; tauto.
      * intros [X [E|Y]]; [|tauto]. left. unfold result_name in E.
        assert (S : search (result_name id) = search (result_name i)) by (unfold result_name; rewrite E; reflexivity).
        rewrite (own_name id P), (own_name i X) in S. apply Some_inj in S. exact (str_of_Z_inj _ _ S).
    + rewrite (proj2 (search_none f) N). exists ids. split; [exact A|]. intros id. rewrite B. split; [intros [X Y]; split; [exact X|right; exact Y]|].
      intros [X [E|Y]]; [|tauto]. exfalso. pose proof (own_name id X) as S. apply search_some in S. destruct S as (u & F & _).
      rewrite <- E in F. exact (N _ _ F).
Qed.

Lemma name_of_in : forall tab i n, name_of tab i = Ok n -> In (i, n) tab.
Proof.
  induction tab as [|(j, m) tab IH]; intros i n H; [discriminate|]. cbn in H. destruct (j =? i) eqn:E.
  - apply Z.eqb_eq in E. subst j. left. congruence.
  - right. exact (IH i n H).
Qed.

Lemma in_name_of : forall tab i n, NoDup (map fst tab) -> In (i, n) tab -> name_of tab i = Ok n.
Proof.
  induction tab as [|(j, m) tab IH]; intros i n D H; [destruct H|]. cbn in D. apply NoDup_cons_iff in D. destruct D as [D1 D2].
  cbn. destruct H as [H|H].
  - injection H as -> ->. rewrite Z.eqb_refl. reflexivity.
  - destruct (j =? i) eqn:E; [|exact (IH i n D2 H)]. apply Z.eqb_eq in E. subst j. exfalso. apply D1.
    apply in_map_iff. exists (i, n). split; [reflexivity|exact H].
Qed.

Lemma mapM_name_of : forall tab, NoDup (map fst tab) -> forall ids, (forall i, In i ids -> In i (map fst tab)) ->
  exists l, mapM (name_of tab) ids = Ok l /\ forall n, In n l <-> exists i, In i ids /\ In (i, n) tab.
Proof.
  intros tab D. induction ids as [|i ids IH]; intros H.
  - exists []. split; [reflexivity|]. intros n. cbn. split; [tauto|]. intros (i & [] & _).
  - destruct (IH (fun j Hj => H j (or_intror Hj))) as (l & A & B). pose proof (H i (or_introl eq_refl)) as I.
    apply in_map_iff in I. destruct I as ((i', n) & E & I). cbn in E. subst i'.
    cbn [mapM]. rewrite (in_name_of tab i n D I). cbn [bind]. rewrite A. cbn [bind]. exists (n :: l). split; [reflexivity|].
    intros m. cbn [In]. rewrite B. split.
    + intros [<-|(j & J & K)]; [exists i; tauto|exists j; tauto].
    + intros (j & [<-|J] & K); [left|right; exists j; tauto].
      pose proof (in_name_of tab i m D K) as X. rewrite (in_name_of tab i n D I) in X. congruence.
Qed.

(** In such a directory, with distinct ids and names in the table, a restart is about
    the images of the table without a result file - provided that every result file
    belongs to an image of the table; otherwise it fails. *)
Theorem C97_images_of_a_restart : forall tab names, clean names -> NoDup (map fst tab) -> NoDup (map snd tab) ->
  ((forall id, 0 <= id -> In (result_name id) names -> In id (map fst tab)) ->
   exists l, restart_list tab names = Ok l /\ NoDup l /\
     forall n, In n l <-> exists id, In (id, n) tab /\ ~ (0 <= id /\ In (result_name id) names)) /\
  ((exists id, 0 <= id /\ In (result_name id) names /\ ~ In id (map fst tab)) -> restart_list tab names = Err NameError).
Proof.
  intros tab names C D1 D2. destruct (analysed_clean names C) as (ids & A & B). unfold restart_list. rewrite A. cbn [bind].
  unfold remaining. split.
  - intros H. destruct (mapM_name_of tab D1 ids) as (l & M & L); [intros i I; apply B in I; apply H; tauto|].
    rewrite M. cbn [bind]. eexists. split; [reflexivity|]. split; [apply NoDup_nodup|]. intros n.
    rewrite nodup_In, filter_In, negb_true_iff. split.
    + intros (I & X). apply in_map_iff in I. destruct I as ((id, n') & E & I). cbn in E. subst n'. exists id. split; [exact I|].
      intros Y. assert (Z : existsb (String.eqb n) l = true); [|congruence]. apply existsb_exists. exists n.
      split; [apply L; exists id; split; [apply B; exact Y|exact I]|apply String.eqb_refl].
    + intros (id & I & N). split; [apply in_map_iff; exists (id, n); split; [reflexivity|exact I]|].
      destruct (existsb (String.eqb n) l) eqn:X; [|reflexivity]. exfalso. apply existsb_exists in X. destruct X as (m & J & E).
      apply String.eqb_eq in E. subst m. apply L in J. destruct J as (j & Jj & Jt).
      assert (j = id).
      { clear - D2 I Jt. induction tab as [|(k, q) tab IH]; [destruct I|]. cbn in D2. apply NoDup_cons_iff in D2. destruct D2 as [X Y].
        destruct I as [I|I], Jt as [J|J]; [congruence| | |exact (IH Y I J)]; exfalso; apply X; apply in_map_iff;
          [exists (j, n)|exists (id, n)]; split; try assumption; cbn; congruence. }
      subst j. apply N. apply B. exact Jj.
  - intros (id & P & I & N). assert (Iid : In id ids) by (apply B; tauto). clear B A.
    assert (M : mapM (name_of tab) ids = Err NameError).
    { induction ids as [|i ids IH]; [destruct Iid|]. cbn [mapM].
      assert (E : forall j, (exists n, name_of tab j = Ok n) \/ name_of tab j = Err NameError).
      { intros j. clear. induction tab as [|(k, q) tab IH]; [right; reflexivity|]. cbn. destruct (k =? j); [left; eauto|exact IH]. }
      destruct (E i) as [(n & Q)|Q]; rewrite Q; cbn [bind]; [|reflexivity].
      destruct Iid as [->|Iid]; [exfalso; apply N; apply in_map_iff; exists (id, n); split; [reflexivity|exact (name_of_in _ _ _ Q)]|].
      rewrite (IH Iid). reflexivity. }
    rewrite M. reflexivity.
Qed.
Print Assumptions C97_images_of_a_restart.

(** Without this proviso it is false: the copy of a result file under another name makes
    an image count as done that has no result file. *)
Theorem C97_copied_file_counts_refuted :
  exists tab names, NoDup (map fst tab) /\ NoDup (map snd tab) /\ names <> [] /\
    (forall id, ~ In (result_name id) names) /\ restart_list tab names = Ok [] /\ tab <> [].
Proof.
  exists [(1, "a.jpg"); (12, "b.jpg")], ["1_led_positions.csv.bak"; "old_12_led_positions_csv"].
  split; [apply NoDup_cons; [intros [H|[]]; discriminate H|apply NoDup_cons; [intros []|apply NoDup_nil]]|].
  split; [apply NoDup_cons; [intros [H|[]]; discriminate H|apply NoDup_cons; [intros []|apply NoDup_nil]]|]. split; [discriminate|]. split.
  - intros id [H|[H|[]]].
    + destruct (Z_lt_le_dec id 0) as [L|L].
      * destruct (negative_name id L) as (r & N). rewrite N in H. discriminate H.
      * assert (E : search "1_led_positions.csv.bak" = search (result_name id)) by (rewrite H; reflexivity).
        rewrite (own_name id L) in E. change (Some "1" = Some (str_of_Z id)) in E. apply Some_inj in E.
        unfold result_name in H. rewrite <- E in H. discriminate H.
    + destruct (Z_lt_le_dec id 0) as [L|L].
      * destruct (negative_name id L) as (r & N). rewrite N in H. discriminate H.
      * assert (E : search "old_12_led_positions_csv" = search (result_name id)) by (rewrite H; reflexivity).
        rewrite (own_name id L) in E. change (Some "12" = Some (str_of_Z id)) in E. apply Some_inj in E.
        unfold result_name in H. rewrite <- E in H. discriminate H.
  - split; [vm_compute; reflexivity|discriminate].
Qed.
Print Assumptions C97_copied_file_counts_refuted.

Example C97_example :
  clean ["12_led_positions.csv"; "all_parameters.h5"; "3_led_positions.csv"] /\
  restart_list [(3, "c"); (7, "g"); (12, "l")] ["12_led_positions.csv"; "all_parameters.h5"; "3_led_positions.csv"] = Ok ["g"] /\
  restart_list [(3, "c"); (7, "g")] ["12_led_positions.csv"] = Err NameError /\
  analysed_ids ["a5b007_led_positions.csv"; "led_positions.csv"; "8_led_positions.txt"] = Ok [7].
Proof.
  split.
  - apply Forall_cons; [left; exists 12; split; [lia|reflexivity]|]. apply Forall_cons; [right|].
    + apply search_none. vm_compute. reflexivity.
    + apply Forall_cons; [left; exists 3; split; [lia|reflexivity]|apply Forall_nil].
  - split; [vm_compute; reflexivity|]. split; vm_compute; reflexivity.
Qed.

(** ** C98 *)

Lemma index_files_state : forall mk, (forall i j, mk i = mk j -> i = j) -> forall arrays s i,
  apply_all (write_index_files mk 0 arrays) s (mk i) =
  if (0 <=? i) && (i <? Z.of_nat (List.length arrays))
  then Some (Ids (rev (nth (Z.to_nat i) arrays []))) else s (mk i).
Proof.
  intros mk Hinj arrays s i. destruct ((0 <=? i) && (i <? Z.of_nat (List.length arrays))) eqn:E.
  - apply andb_true_iff in E. rewrite Z.leb_le, Z.ltb_lt in E. replace i with (0 + Z.of_nat (Z.to_nat i)) at 1 by lia.
    apply index_files_result; [exact Hinj|]. apply nth_error_nth'. lia.
  - apply apply_all_untouched. rewrite touches_index_files by exact Hinj. intros (j & Hj & K). apply Hinj in K. subst j.
    apply andb_false_iff in E. rewrite Z.leb_gt, Z.ltb_ge in E. lia.
Qed.

(** The index files after a completed step 2: those of its arrays, and older ones with
    higher numbers. *)
Lemma step2_index_files : forall E mem s, r_res (step2 E mem s) = Ok tt ->
  exists rows arrays, (match mem with Some r => Ok r | None => load_search_areas s end) = Ok rows /\
    match_leds_to_led_arrays (e_geo E) 5 rows (e_edges E) (e_ignored E) None = Ok arrays /\
    let s' := apply_all (r_effects (step2 E mem s)) s in
    (forall i, s' (KIdx i) =
       if (0 <=? i) && (i <? Z.of_nat (List.length (reorder_led_indices arrays)))
       then Some (Ids (rev (nth (Z.to_nat i) (reorder_led_indices arrays) []))) else s (KIdx i)) /\
    (forall i, s' (KMerge i) = match e_merge E with
       | None => s (KMerge i)
       | Some gs => let m := merge_indices (reorder_led_indices arrays) (Some gs) in
           if (0 <=? i) && (i <? Z.of_nat (List.length m)) then Some (Ids (rev (nth (Z.to_nat i) m []))) else s (KMerge i)
       end).
Proof.
  intros E mem s H. destruct (step2_complete_inv E mem s H) as (_ & rows & arrays & rows' & L & M & _ & _ & Ef).
  exists rows, arrays. split; [exact L|]. split; [exact M|]. cbn zeta. rewrite Ef. split; intros i.
  - rewrite !apply_all_app.
    assert (T : forall s0, apply_all match e_merge E with
        | None => []
        | Some gs => (write_index_files KMerge 0 (merge_indices (reorder_led_indices arrays) (Some gs)) ++ [Plot])%list
        end s0 (KIdx i) = s0 (KIdx i)).
    { intros s0. apply apply_all_untouched. destruct (e_merge E) as [gs|]; [|intros (e & [] & _)].
      rewrite touches_app, touches_index_files by congruence. intros [(j & _ & K)|(e & [<-|[]] & K)]; discriminate. }
    rewrite T. change (apply_all [Plot] ?x) with x. cbv beta.
    rewrite (index_files_state KIdx) by congruence.
    destruct ((0 <=? i) && (i <? Z.of_nat (List.length (reorder_led_indices arrays)))); [reflexivity|].
    rewrite apply_all_untouched; [|intros (e & [<-|[<-|[]]] & K); discriminate].
    apply apply_all_untouched. rewrite touches_write_file. discriminate.
  - rewrite !apply_all_app.
    assert (B : forall s0, apply_all (write_index_files KIdx 0 (reorder_led_indices arrays)) s0 (KMerge i) = s0 (KMerge i)).
    { intros s0. apply apply_all_untouched. rewrite touches_index_files by congruence. intros (j & _ & K). discriminate. }
    assert (B0 : apply_all [Plot] (apply_all (write_index_files KIdx 0 (reorder_led_indices arrays))
                   (apply_all [Plot; Put KFlag Empty] (apply_all (write_file Rows KAreas rows') s))) (KMerge i) = s (KMerge i)).
    { change (apply_all [Plot] ?x) with x. cbv beta. rewrite B.
      rewrite apply_all_untouched; [|intros (e & [<-|[<-|[]]] & K); discriminate].
      apply apply_all_untouched. rewrite touches_write_file. discriminate. }
    destruct (e_merge E) as [gs|]; [|exact B0]. rewrite apply_all_app. change (apply_all [Plot] ?x) with x at 1. cbv beta zeta.
    rewrite (index_files_state KMerge) by congruence. rewrite B0. reflexivity.
Qed.

Lemma match_all_length : forall g n edges, Forall (fun e => (2 <= List.length e)%nat) edges ->
  forall d arrays d', match_all g n d edges = Ok (arrays, d') -> List.length arrays = List.length edges.
Proof.
  intros g n edges F. induction F as [|e edges Fe F IH]; intros d arrays d' H; cbn [match_all] in H.
  - apply Ok_inj in H. apply pair_equal_spec in H. destruct H as [<- _]. reflexivity.
  - destruct (match_one g n d e) as [[o d1]|] eqn:E1; cbn [bind fst snd] in H; [|discriminate].
    destruct (match_all g n d1 edges) as [[as_ d2]|] eqn:E; cbn [bind fst snd] in H; [|discriminate].
    apply Ok_inj in H. apply pair_equal_spec in H. destruct H as [<- _].
    destruct o as [a|]; [cbn; f_equal; exact (IH _ _ _ E)|exfalso].
    destruct e as [|x [|y e]]; cbn in Fe; [lia|lia|]. unfold match_one in E1.
    destruct (dict_get d x); [|discriminate]. destruct (dict_get d y); [|discriminate].
    destruct (walk _ _ _ _ _ _ _ _ _ _); [|discriminate]. apply Ok_inj in E1. congruence.
Qed.

(** The content of one index file. *)
Definition one_file (s : fs) (k : key) : res (list Z) :=
  match s k with Some (Ids l) => Ok l | _ => Err FileNotFoundError end.

Lemma mapM_join : forall A B (f : A -> res B) l l', mapM f (l ++ l')%list = bind (mapM f l) (fun x => bind (mapM f l') (fun y => Ok (x ++ y)%list)).
Proof.
  intros A B f l l'. induction l as [|a l IH]; cbn [mapM app bind].
  - destruct (mapM f l'); reflexivity.
  - destruct (f a); cbn [bind]; [|reflexivity]. rewrite IH. destruct (mapM f l); cbn [bind]; [|reflexivity]. destruct (mapM f l'); reflexivity.
Qed.

Lemma mapM_same : forall A B (f g : A -> res B) l, (forall x, In x l -> f x = g x) -> mapM f l = mapM g l.
Proof.
  intros A B f g l H. induction l as [|a l IH]; [reflexivity|]. cbn [mapM]. rewrite (H a (or_introl eq_refl)), IH; [reflexivity|].
  intros x Hx. apply H. right. exact Hx.
Qed.

Lemma firstn_next : forall (A : list (list Z)) m, (m < List.length A)%nat -> firstn (S m) A = (firstn m A ++ [nth m A []])%list.
Proof.
  induction A as [|a A IH]; intros m H; cbn [List.length] in H; [lia|]. destruct m as [|m]; [reflexivity|].
  cbn [firstn nth app]. f_equal. apply IH. lia.
Qed.

Lemma load_files_after : forall mk (A : list (list Z)) s s' n,
  (forall i, s' (mk i) = if (0 <=? i) && (i <? Z.of_nat (List.length A))
                         then Some (Ids (rev (nth (Z.to_nat i) A []))) else s (mk i)) ->
  (0 <= n <= Z.of_nat (List.length A) -> load_files mk n s' = Ok (map (@rev Z) (firstn (Z.to_nat n) A))) /\
  (Z.of_nat (List.length A) < n ->
   load_files mk n s' = bind (mapM (fun i => one_file s (mk i)) (zrange (Z.of_nat (List.length A)) n))
                             (fun old => Ok (map (@rev Z) A ++ old)%list)).
Proof.
  intros mk A s s' n H.
  assert (L : forall m, (m <= List.length A)%nat -> load_files mk (Z.of_nat m) s' = Ok (map (@rev Z) (firstn m A))).
  { intros m Hm. unfold load_files.
    induction m as [|m IH]; [reflexivity|]. rewrite (zrange_app 0 (Z.of_nat m)) by lia. rewrite mapM_join, IH by lia. cbn [bind].
    replace (zrange (Z.of_nat m) (Z.of_nat (S m))) with [Z.of_nat m] by (rewrite zrange_cons by lia; rewrite zrange_nil by lia; reflexivity).
    cbn [mapM]. rewrite H. replace ((0 <=? Z.of_nat m) && (Z.of_nat m <? Z.of_nat (List.length A))) with true by (symmetry; apply andb_true_iff; rewrite Z.leb_le, Z.ltb_lt; lia).
    rewrite Nat2Z.id. cbn [bind]. f_equal. rewrite (firstn_next A m) by lia. rewrite map_app. reflexivity. }
  split.
  - intros Hn. replace n with (Z.of_nat (Z.to_nat n)) at 1 by lia. apply L. lia.
  - intros Hn. unfold load_files. rewrite (zrange_app 0 (Z.of_nat (List.length A))) by lia. rewrite mapM_join.
    fold (load_files mk (Z.of_nat (List.length A)) s'). rewrite L by lia. rewrite firstn_all. cbn [bind].
    replace (mapM (fun i => match s' (mk i) with Some (Ids l) => Ok l | _ => Err FileNotFoundError end) (zrange (Z.of_nat (List.length A)) n))
      with (mapM (fun i => one_file s (mk i)) (zrange (Z.of_nat (List.length A)) n)); [reflexivity|].
    apply mapM_same. intros i Hi. apply in_zrange in Hi. rewrite H.
    replace (i <? Z.of_nat (List.length A)) with false by (symmetry; apply Z.ltb_ge; lia). rewrite andb_false_r. reflexivity.
Qed.

(** What step 3 loads after a completed step 2, for every number of arrays in the
    configuration: the arrays of this step 2 in their order; if the number is smaller,
    only the first of them; if it is greater, the files of earlier runs after them - or
    an error, if there are none. *)
Theorem C98_loaded_arrays : forall E mem s, r_res (step2 E mem s) = Ok tt ->
  let s' := apply_all (r_effects (step2 E mem s)) s in
  exists arrays, (forall rows, (match mem with Some r => Ok r | None => load_search_areas s end) = Ok rows ->
      match_leds_to_led_arrays (e_geo E) 5 rows (e_edges E) (e_ignored E) None = Ok arrays) /\
  let A := reorder_led_indices arrays in
  (Forall (fun e => (2 <= List.length e)%nat) (e_edges E) -> List.length A = List.length (e_edges E)) /\
  (forall n, 0 <= n <= Z.of_nat (List.length A) -> load_indices n None s' = Ok (map (@rev Z) (firstn (Z.to_nat n) A))) /\
  (forall n, Z.of_nat (List.length A) < n ->
     load_indices n None s' = bind (mapM (fun i => one_file s (KIdx i)) (zrange (Z.of_nat (List.length A)) n))
                                   (fun old => Ok (map (@rev Z) A ++ old)%list)) /\
  (forall gs n, e_merge E = Some gs ->
     let M := merge_indices A (Some gs) in
     (Forall (fun g => exists i, In i g /\ 0 <= i < Z.of_nat (List.length A) /\ nth (Z.to_nat i) A [] <> []) gs ->
        load_indices n (Some gs) s' = Ok (map (@rev Z) M)) /\
     (Z.of_nat (List.length M) < Z.of_nat (List.length gs) ->
        load_indices n (Some gs) s' = bind (mapM (fun i => one_file s (KMerge i)) (zrange (Z.of_nat (List.length M)) (Z.of_nat (List.length gs))))
                                          (fun old => Ok (map (@rev Z) M ++ old)%list))).
Proof.
  intros E mem s H s'. destruct (step2_index_files E mem s H) as (rows & arrays & L & Hm & HI & HM). fold s' in HI, HM.
  exists arrays. split; [intros rows0 L0; assert (rows0 = rows) by congruence; subst rows0; exact Hm|]. cbn zeta.
  split; [|split; [|split]].
  - intros F. unfold match_leds_to_led_arrays in Hm. destruct (match_all _ _ _ _) as [[a d']|] eqn:Ea; cbn [bind fst] in Hm; [|discriminate].
    apply Ok_inj in Hm. rewrite <- (map_length (@List.length Z)). unfold reorder_led_indices.
    rewrite reorder_from_lengths, map_length, <- Hm. unfold remove_ignored_leds. rewrite map_length. exact (match_all_length _ _ _ F _ _ _ Ea).
  - intros n. apply (load_files_after KIdx _ s s' n HI).
  - intros n. apply (load_files_after KIdx _ s s' n HI).
  - intros gs n Eg. rewrite Eg in HM. cbn zeta in HM. cbn [load_indices].
    destruct (load_files_after KMerge _ s s' (Z.of_nat (List.length gs)) HM) as [P Q]. split; [|exact Q].
    intros F. assert (K : List.length (merge_indices (reorder_led_indices arrays) (Some gs)) = List.length gs).
    { unfold merge_indices. clear - F. induction F as [|g gs (i & I & Hi & Ne) F IH]; [reflexivity|]. cbn [map filter].
      destruct (merge_group (reorder_led_indices arrays) g) as [|y l] eqn:Eg.
      - exfalso. unfold merge_group in Eg. destruct (nth (Z.to_nat i) (reorder_led_indices arrays) []) as [|x l] eqn:En; [congruence|].
        assert (X : In x (flat_map (fun i => if (0 <=? i) && (i <? Z.of_nat (List.length (reorder_led_indices arrays)))
                     then nth (Z.to_nat i) (reorder_led_indices arrays) [] else []) g)).
        { apply in_flat_map. exists i. split; [exact I|].
          replace ((0 <=? i) && (i <? Z.of_nat (List.length (reorder_led_indices arrays)))) with true
            by (symmetry; apply andb_true_iff; rewrite Z.leb_le, Z.ltb_lt; lia). rewrite En. left. reflexivity. }
        rewrite Eg in X. destruct X.
      - cbn [List.length]. f_equal. exact IH. }
    rewrite P by (rewrite K; lia). rewrite Nat2Z.id, <- K, firstn_all. reflexivity.
Qed.
Print Assumptions C98_loaded_arrays.

(** A configuration for the demo image, without merging. *)
Definition demo_edges (edges : list (list Z)) : env := Env scan (Ok demo_image) 1 50 10 fixed_geometry edges [] None (fun _ => true).

(** What is loaded after a complete repetition of steps 1 and 2 need not come from this
    repetition: with fewer rows of edge labels than arrays in the configuration, the file
    of an earlier run is loaded as well, with an LED that now belongs to two arrays and an
    LED that does not exist. *)
Theorem C98_old_index_file_refuted :
  exists E1 E2 n arrays, run12_completes E1 ((fun _ => None), None) /\
    let st := run12 E1 ((fun _ => None), None) in
    run12_completes E2 st /\
    let s' := fst (run12 E2 st) in
    load_indices n None s' = Ok arrays /\ ~ NoDup (concat arrays) /\
    exists rows, s' KAreas = Some (Rows rows) /\ exists led, In led (concat arrays) /\ ~ In led (map fst rows).
Proof.
  exists (demo_edges [[0; 2]; [1; 5]]), (demo_edges [[0; 4]]), 2, [[2; 1; 0]; [3; 2]].
  split; [split; vm_compute; reflexivity|]. split; [split; vm_compute; reflexivity|]. split; [vm_compute; reflexivity|].
  split.
  - cbn. intros H. inversion H as [|? ? X _]. apply X. cbn. tauto.
  - exists [(0, (2, 2)); (1, (4, 2)); (2, (6, 2))]. split; [vm_compute; reflexivity|].
    exists 3. split; cbn; [tauto|]. intros [X|[X|[X|[]]]]; discriminate X.
Qed.
Print Assumptions C98_old_index_file_refuted.

Example C98_example :
  let s' := fst (run12 demo_env ((fun _ => None), None)) in
  run12_completes demo_env ((fun _ => None), None) /\
  load_indices 2 None s' = Ok [[2; 1; 0]; [5; 4; 3]] /\ load_indices 1 None s' = Ok [[2; 1; 0]] /\
  load_indices 3 None s' = Err FileNotFoundError /\
  load_indices 2 (Some [[0; 1]]) s' = Ok [[5; 4; 3; 2; 1; 0]] /\
  load_indices 2 (Some [[0; 1]; [2]]) s' = Err FileNotFoundError.
Proof.
  split; [split; vm_compute; reflexivity|]. split; [vm_compute; reflexivity|]. split; [vm_compute; reflexivity|].
  split; [vm_compute; reflexivity|]. split; vm_compute; reflexivity.
Qed.
