(** C131: merged LED arrays, from the pixels of the photographs to the smoke. *)
From Coq Require Import ZArith QArith Qreals Lia Bool String List Permutation Sorted Reals Lra.
From Verif Require Import Base Step1_Model Step1_Spec Step1_Proofs Step2_Model Step2_Spec Step2_Proofs Step2_GeoSpec Step2_GeoProps Step2_Geometry Nearly_Props Step3_Model Step3_Spec Step3_Props
  Pipeline_Model Pipeline_Props Dir_Model Dir_Props Extract_Props Format_Model Table_Model Table_Spec Table_Props Analysis_Model Analysis_Props
  Layers_Model Layers_Spec Layers_Props Solver_Model Solver_Props Stable_Props Nnls_Props End_Model End_Props Mean_Model Mean_Props Separate_Proofs Separate_Props Linear_Proofs Linear_Props Minimiser_Props NonLinear_Proofs NonLinear_Props NonLinear_End
  Photos_Props Profile_Photos Rounding_Model Rounding_Props Machine_Model Machine_Props MachineEnd_Model MachineEnd_Props MachineSolver_Model MachineSolver_Props
  MachineNonLinear_Model MachineNonLinear_Proofs MachineNonLinear_Props Whole_Props.
Import ListNotations.
Local Open Scope R_scope.

(** ** Specification *)

(** The rows of a group, one after the other. *)
Definition joined {T} (rows : list (list T)) (g : list Z) : list T := concat (map (fun k => nth (Z.to_nat k) rows []) g).

(** Every group lists at least one row, and only rows that exist. *)
Definition groups_of (n : nat) (gs : list (list Z)) : Prop := Forall (fun g => g <> [] /\ Forall (fun k => (0 <= k < Z.of_nat n)%Z) g) gs.

(** ** Groups of numbered rows *)

Lemma nth_of : forall T (rows : list (list T)) k, (0 <= k < Z.of_nat (List.length rows))%Z -> nth_error rows (Z.to_nat k) = Some (nth (Z.to_nat k) rows []).
Proof. intros T rows k H. apply nth_error_nth'. lia. Qed.

Lemma joined_ids : forall B g, joined (map ids B) g = ids (joined B g).
Proof.
  intros B g. unfold joined, ids. rewrite concat_map, map_map. f_equal. apply map_ext. intros k.
  change (@nil Z) with (map fst (@nil row)). rewrite map_nth. reflexivity.
Qed.

Lemma merge_group_joined : forall arrays g, Forall (fun k => (0 <= k < Z.of_nat (List.length arrays))%Z) g -> merge_group arrays g = joined arrays g.
Proof.
  intros arrays g H. unfold merge_group, joined. induction H as [|k g Hk H IH]; [reflexivity|]. cbn [flat_map map concat]. rewrite IH.
  replace ((0 <=? k)%Z && (k <? Z.of_nat (List.length arrays))%Z) with true by (symmetry; apply andb_true_iff; rewrite Z.leb_le, Z.ltb_lt; lia). reflexivity.
Qed.

Lemma joined_in : forall T (rows : list (list T)) g e, Forall (fun k => (0 <= k < Z.of_nat (List.length rows))%Z) g -> In e (joined rows g) ->
  exists k r, In k g /\ nth_error rows (Z.to_nat k) = Some r /\ In e r.
Proof.
  intros T rows g e Hg H. unfold joined in H. apply in_concat in H. destruct H as (r & Hr & He). apply in_map_iff in Hr. destruct Hr as (k & <- & Hk).
  rewrite Forall_forall in Hg. specialize (Hg k Hk). exists k, (nth (Z.to_nat k) rows []). split; [exact Hk|]. split; [apply nth_of; exact Hg|exact He].
Qed.

Lemma joined_incl : forall T (rows : list (list T)) g, Forall (fun k => (0 <= k < Z.of_nat (List.length rows))%Z) g -> incl (joined rows g) (concat rows).
Proof.
  intros T rows g Hg e He. destruct (joined_in _ _ _ _ Hg He) as (k & r & _ & Hk & Hr). apply in_concat. exists r. split; [eapply nth_error_In; exact Hk|exact Hr].
Qed.

Lemma blocks_long : forall lamps s k C, Forall (fun A => (2 <= List.length A)%nat) lamps -> nth_error (Extract_Props.blocks s lamps) k = Some C -> (2 <= List.length C)%nat.
Proof.
  induction lamps as [|A l IH]; intros s [|k] C H E; try discriminate; inversion H; subst.
  - apply Some_inj in E. subst C. rewrite numbered_length. assumption.
  - cbn [Extract_Props.blocks nth_error] in E. eapply IH; eassumption.
Qed.

Lemma joined_long : forall lamps g, Forall (fun A => (2 <= List.length A)%nat) lamps -> g <> [] -> Forall (fun k => (0 <= k < Z.of_nat (List.length lamps))%Z) g ->
  (2 <= List.length (joined (Extract_Props.blocks 0 lamps) g))%nat.
Proof.
  intros lamps g H2 Hn Hg. destruct g as [|k g]; [congruence|]. inversion Hg; subst. unfold joined. cbn [map concat]. rewrite app_length.
  pose proof (blocks_long lamps 0 (Z.to_nat k) (nth (Z.to_nat k) (Extract_Props.blocks 0 lamps) []) H2) as L.
  specialize (L (nth_of _ (Extract_Props.blocks 0 lamps) k ltac:(rewrite blocks_length; assumption))). lia.
Qed.

Lemma merge_joined : forall lamps gs, Forall (fun A => (2 <= List.length A)%nat) lamps -> groups_of (List.length lamps) gs ->
  merge_indices (map ids (Extract_Props.blocks 0 lamps)) (Some gs) = map ids (map (joined (Extract_Props.blocks 0 lamps)) gs).
Proof.
  intros lamps gs H2 H. cbn [merge_indices]. induction H as [|g gs (Hn & Hg) H IH]; [reflexivity|]. cbn [map filter].
  rewrite merge_group_joined by (rewrite map_length, blocks_length; exact Hg). rewrite joined_ids. pose proof (joined_long lamps g H2 Hn Hg) as L.
  destruct (joined (Extract_Props.blocks 0 lamps) g) as [|e l] eqn:E; [cbn in L; lia|]. cbn [ids map]. f_equal. exact IH.
Qed.

Lemma map_rev_inj : forall (a b : list (list Z)), map (@rev Z) a = map (@rev Z) b -> a = b.
Proof.
  intros a b H. apply (f_equal (map (@rev Z))) in H. rewrite !map_map in H.
  rewrite (map_ext _ (fun l => l) (@rev_involutive Z)), (map_ext _ (fun l => l) (@rev_involutive Z)), !map_id in H. exact H.
Qed.

(** ** Steps 1 to 3 with merged arrays *)

(** As C102, with groups of rows in merge_led_array_indices: the merged arrays are the rows of
    the groups, one after the other, and step 3 measures the lamps of each from the last one to
    the first one. *)
Theorem C131_extraction : forall E1 E2 st img thr lamps strays gs num,
  let P := concat lamps ++ strays in
  let r := e_radius E1 in
  mml_ok (e_mml E1) -> e_image E1 = Ok img -> nonempty_image img -> nonneg_image img -> (1 <= r)%Z ->
  percentile (pixels img) (e_percentile E1) = Ok thr -> spots img r thr P -> (Z.of_nat (List.length P) <= e_max_leds E1)%Z ->
  (forall rows, e_plot E1 rows = true /\ e_plot E2 rows = true) ->
  lamps <> [] -> Forall (fun A => (2 <= List.length A)%nat) lamps -> lamps_straight lamps P ->
  e_geo E2 = real_geometry -> e_ignored E2 = [] ->
  e_merge E2 = Some gs -> groups_of (List.length lamps) gs ->
  let st1 := exec_all [Step1 E1; NewProcess] st in
  (forall rows, fst st1 KAreas = Some (Rows rows) -> edges_entered rows lamps (e_edges E2)) ->
  let s2 := fst (exec (Step2 E2) st1) in
  let merged := map (joined (Extract_Props.blocks 0 lamps)) gs in
  step1_completes E1 /\ step2_completes E2 st1 /\
  load_search_areas s2 = Ok (concat (Extract_Props.blocks 0 lamps)) /\
  load_indices num (Some gs) s2 = Ok (map (fun M => rev (map fst M)) merged) /\
  forall F (fit : option (list (list Z) -> res F)) img3 areas arrays,
    (forall f a, fit = Some f -> exists v, f a = Ok v) -> ih img3 = ih img -> iw img3 = iw img ->
    load_search_areas s2 = Ok areas -> load_indices num (Some gs) s2 = Ok arrays ->
    exists ds, generate_analysis_data fit img3 r areas arrays 0 = Ok ds /\
      Forall2 (Extract_Props.measured img3 r) (to_measure 0 merged) ds.
Proof.
  intros E1 E2 st img thr lamps strays gs num P r Hm Hi Hne Hnn Hr Hp Hs Hk Hpl Hl0 Hl2 Hst Hg Hig Hgs Hok st1 He s2 merged.
  destruct (C102_extraction E1 E2 st img thr lamps strays Hm Hi Hne Hnn Hr Hp Hs Hk Hpl Hl0 Hl2 Hst Hg Hig He) as (C1 & C2 & L1 & L2 & _).
  fold st1 in C2, L1, L2. fold s2 in L1, L2. set (B := Extract_Props.blocks 0 lamps) in *.
  assert (Es2 : s2 = apply_all (r_effects (step2 E2 (snd st1) (fst st1))) (fst st1)) by (unfold s2; destruct st1; reflexivity).
  destruct (C98_loaded_arrays E2 (snd st1) (fst st1) C2) as (arrs & _ & Hb). cbv zeta in Hb. destruct Hb as (Hlen & Hfirst & _ & Hmg). rewrite <- Es2 in Hfirst, Hmg.
  assert (Ed : Forall2 (fun (A : list loc) e => (2 <= List.length e)%nat) lamps (e_edges E2)).
  { destruct (C14_step1_allows_step2 E1 st C1) as (_ & rows & _ & Ha & _). specialize (He rows).
    assert (Est : fst st1 = fst (exec (Step1 E1) st)) by (unfold st1, exec_all; cbn [fold_left]; destruct (exec (Step1 E1) st); reflexivity).
    rewrite Est in He. eapply Forall2_imp; [|exact (He Ha)]. intros A e (a & b & p & -> & _). cbn. lia. }
  assert (LA : List.length (reorder_led_indices arrs) = List.length lamps).
  { rewrite Hlen; [symmetry; exact (Forall2_len _ _ _ Ed)|]. clear - Ed. induction Ed; constructor; assumption. }
  assert (EA : reorder_led_indices arrs = map ids B).
  { specialize (Hfirst (Z.of_nat (List.length lamps)) ltac:(lia)). rewrite L2 in Hfirst. apply Ok_inj in Hfirst. rewrite Nat2Z.id, <- LA, firstn_all in Hfirst.
    apply map_rev_inj. rewrite <- Hfirst, map_map. reflexivity. }
  rewrite EA in Hmg. destruct (Hmg gs num Hgs) as (Hmg1 & _).
  assert (L3 : load_indices num (Some gs) s2 = Ok (map (@rev Z) (map ids merged))).
  { rewrite Hmg1; [unfold B; rewrite merge_joined by assumption; reflexivity|].
    eapply Forall_impl; [|exact Hok]. intros g (Gn & Gf). destruct g as [|k g]; [congruence|]. inversion Gf; subst. exists k. split; [left; reflexivity|].
    split; [unfold B; rewrite map_length, blocks_length; assumption|].
    change (@nil Z) with (ids []). rewrite map_nth. intros C. apply (f_equal (@List.length _)) in C. unfold ids in C. rewrite map_length in C.
    pose proof (blocks_long lamps 0 (Z.to_nat k) (nth (Z.to_nat k) B []) Hl2) as L.
    specialize (L (nth_of _ B k ltac:(unfold B; rewrite blocks_length; assumption))). cbn in C. lia. }
  split; [exact C1|]. split; [exact C2|]. split; [exact L1|]. split; [rewrite L3, map_map; reflexivity|].
  assert (Sub : forall M, In M merged -> incl M (concat B)).
  { intros M HM. unfold merged in HM. apply in_map_iff in HM. destruct HM as (g & <- & Hgin). unfold groups_of in Hok. rewrite Forall_forall in Hok. destruct (Hok g Hgin) as (_ & Gf).
    apply joined_incl. unfold B. rewrite blocks_length. exact Gf. }
  intros F fit img3 areas arrays Hfit H1 H2 La Li. rewrite L1 in La. apply Ok_inj in La. subst areas. rewrite L3 in Li. apply Ok_inj in Li. subst arrays.
  apply array_loop_lamps; try assumption.
  - unfold B. rewrite concat_blocks. apply numbered_positional.
  - intros p X. apply in_map_iff in X. destruct X as (e & <- & X). apply in_concat in X. destruct X as (M & HM & X).
    assert (Y : In (snd e) (concat lamps)) by (rewrite <- (numbered_snd (concat lamps) 0), <- concat_blocks; apply in_map, (Sub M HM), X).
    destruct Hs as (_ & Hs & _). destruct (Hs (snd e)) as ((I1 & I2) & J1 & J2 & _); [apply in_or_app; left; exact Y|]. rewrite H1, H2. lia.
Qed.
Print Assumptions C131_extraction.

(** From the photographs to the records, with merged arrays. *)
Lemma merged_records :
  forall E1 E2 st img thr lamps strays gs photo files recs srt coord overflow first last skip a g (places : list (list point)) num,
  (* the reference image and what the user enters *)
  let P := concat lamps ++ strays in
  let r := e_radius E1 in
  mml_ok (e_mml E1) -> e_image E1 = Ok img -> nonempty_image img -> nonneg_image img -> (1 <= r)%Z ->
  percentile (pixels img) (e_percentile E1) = Ok thr -> spots img r thr P -> (Z.of_nat (List.length P) <= e_max_leds E1)%Z ->
  (forall rows, e_plot E1 rows = true /\ e_plot E2 rows = true) ->
  lamps <> [] -> Forall (fun A => (2 <= List.length A)%nat) lamps -> lamps_straight lamps P ->
  e_geo E2 = real_geometry -> e_ignored E2 = [] ->
  e_merge E2 = Some gs -> groups_of (List.length lamps) gs ->
  let st1 := exec_all [Step1 E1; NewProcess] st in
  (forall rows, fst st1 KAreas = Some (Rows rows) -> edges_entered rows lamps (e_edges E2)) ->
  let s2 := fst (exec (Step2 E2) st1) in
  (* the photographs and the result files *)
  let n := number_of_images overflow first last skip in
  (1 <= n)%Z ->
  (forall i, (1 <= i <= n)%Z -> ih (photo i) = ih img /\ iw (photo i) = iw img /\ nonneg_image (photo i)) ->
  (forall i areas arrays, (1 <= i <= n)%Z ->
     load_search_areas s2 = Ok areas -> load_indices num (Some gs) s2 = Ok arrays ->
     generate_analysis_data None (photo i) r areas arrays 0 = Ok (recs i) /\
     (exists b name ch time, files i = Some (result_file b name ch time false (recs i))) /\
     coords_usable coord (recs i)) ->
  sorts srt ->
  (* the group and the room *)
  nth_error gs a = Some g -> map (@List.length _) lamps = map (@List.length _) places ->
  exists t arrays l areas,
    create_table srt coord files overflow first last skip = Ok t /\
    load_indices num (Some gs) s2 = Ok (index_files arrays) /\
    (exists A, arrays = merge_indices (reorder_led_indices A) (Some gs)) /\ nth_error arrays a = Some l /\ (2 <= List.length l)%nat /\
    (forall i, (1 <= i <= n)%Z -> exists arrays', Forall2 (@Permutation Z) arrays' arrays /\ generate_analysis_data None (photo i) r areas arrays' 0 = Ok (recs i)) /\
    table_of_images t n recs /\
    Forall2 (fun id p => (0 <= id)%Z /\ nth_error (concat places) (Z.to_nat id) = Some p) l (joined places g) /\
    (forall i d p, (1 <= i <= n)%Z -> In d (recs i) -> d_array d = Z.of_nat a -> nth_error (concat places) (Z.to_nat (d_id d)) = Some p ->
       exists k A ps j q, In k g /\ nth_error lamps (Z.to_nat k) = Some A /\ nth_error places (Z.to_nat k) = Some ps /\ nth_error A j = Some q /\ nth_error ps j = Some p /\
         nth_error (concat lamps) (Z.to_nat (d_id d)) = Some q /\ holds_lamp (photo i) r q d).
Proof.
  intros E1 E2 st img thr lamps strays gs photo files recs srt coord overflow first last skip a g places num P r
    Hm Hi Hne Hnn Hr Hp Hs Hk Hpl Hl0 Hl2 Hst Hg Hig Hgs Hok st1 He s2 n Hn Hph Hrec Hsrt HA Hpls.
  destruct (C131_extraction E1 E2 st img thr lamps strays gs num Hm Hi Hne Hnn Hr Hp Hs Hk Hpl Hl0 Hl2 Hst Hg Hig Hgs Hok He) as (_ & _ & L1 & L2 & L3).
  fold st1 in L1, L2, L3. fold s2 in L1, L2, L3. fold r in L3.
  set (B := Extract_Props.blocks 0 lamps) in *. set (merged := map (joined B) gs) in *. set (arrays := map ids merged).
  set (arrays' := map (fun b : list row => rev (map fst b)) merged) in *.
  assert (Earr : index_files arrays = arrays') by (unfold index_files, arrays, arrays'; rewrite map_map; reflexivity).
  assert (LB : List.length B = List.length lamps) by (unfold B; apply blocks_length).
  assert (Gall : forall h, In h gs -> h <> [] /\ Forall (fun k => (0 <= k < Z.of_nat (List.length B))%Z) h).
  { intros h Hh. unfold groups_of in Hok. rewrite Forall_forall in Hok. rewrite LB. apply Hok. exact Hh. }
  assert (Gin : In g gs) by (eapply nth_error_In; exact HA). destruct (Gall g Gin) as (Gn & Gf).
  assert (Hgen : forall i, (1 <= i <= n)%Z -> generate_analysis_data None (photo i) r (concat B) arrays' 0 = Ok (recs i) /\
    Forall2 (Extract_Props.measured (photo i) r) (to_measure 0 merged) (recs i)).
  { intros i Hi'. destruct (Hrec i _ _ Hi' L1 L2) as (G1 & _). destruct (Hph i Hi') as (P1 & P2 & _).
    destruct (L3 fit_data None (photo i) (concat B) arrays' ltac:(discriminate) P1 P2 L1 L2) as (ds & D1 & D2). rewrite G1 in D1. apply Ok_inj in D1. subst ds. split; assumption. }
  assert (Inside : forall p, In p (concat lamps) -> (r <= fst p < ih img)%Z /\ (r <= snd p < iw img)%Z).
  { intros p X. destruct Hs as (_ & Hs & _). destruct (Hs p) as ((I1 & I2) & J1 & J2 & _); [apply in_or_app; left; exact X|]. lia. }
  assert (HB : forall k A, nth_error lamps k = Some A -> nth_error B k = Some (numbered (Z.of_nat (List.length (concat (firstn k lamps)))) A)).
  { intros k A H. unfold B. rewrite (blocks_nth _ _ _ _ H). reflexivity. }
  (* a record and the lamp it belongs to *)
  assert (Lamp : forall i d, (1 <= i <= n)%Z -> In d (recs i) -> exists u h k A j q, nth_error gs u = Some h /\ d_array d = Z.of_nat u /\ In k h /\
    nth_error lamps (Z.to_nat k) = Some A /\ nth_error A j = Some q /\ Z.to_nat (d_id d) = (List.length (concat (firstn (Z.to_nat k) lamps)) + j)%nat /\ holds_lamp (photo i) r q d).
  { intros i d Hi' Hd. destruct (Hgen i Hi') as (_ & F). apply In_nth_error in Hd. destruct Hd as (u & Hu).
    destruct (Forall2_nth_both _ _ _ _ _ _ _ F Hu) as ((k0 & (m & (y & x))) & U1 & U2). apply nth_error_In in U1.
    destruct (to_measure_in _ _ _ U1) as (v & C & K1 & K2 & K3). cbn [fst snd] in K2, K3. destruct U2 as (V1 & V2 & V3).
    unfold merged in K1. rewrite nth_error_map in K1. destruct (nth_error gs v) as [h|] eqn:Eh; cbn [option_map] in K1; [|discriminate]. apply Some_inj in K1. subst C.
    destruct (Gall h (nth_error_In _ _ Eh)) as (_ & Hf). destruct (joined_in _ _ _ _ Hf K3) as (k & R0 & Q1 & Q2 & Q3).
    assert (X : (Z.to_nat k < List.length lamps)%nat) by (rewrite <- LB; apply nth_error_Some; congruence).
    destruct (nth_error lamps (Z.to_nat k)) as [A|] eqn:EA; [|apply nth_error_None in EA; lia]. rewrite (HB _ _ EA) in Q2. apply Some_inj in Q2. subst R0.
    destruct (numbered_in _ _ _ _ Q3) as (j & J1 & J2). exists v, h, k, A, j, (y, x). split; [exact Eh|]. split; [lia|]. split; [exact Q1|]. split; [exact EA|]. split; [exact J2|].
    split; [rewrite V1, J1; lia|exact V3]. }
  assert (LampIn : forall k A j q, nth_error lamps k = Some A -> nth_error A j = Some q -> In q (concat lamps)).
  { intros k A j q H1 H2. apply in_concat. exists A. split; eapply nth_error_In; eassumption. }
  assert (Long : (2 <= List.length (joined B g))%nat) by (apply joined_long; [exact Hl2|exact Gn|rewrite <- LB; exact Gf]).
  assert (Fast : forall i, (1 <= i <= n)%Z -> exists lines, files i = Some lines /\ fast_file lines (recs i) /\ coords_usable coord (recs i)).
  { intros i Hi'. destruct (Hrec i _ _ Hi' L1 L2) as (G1 & (b & name & ch & time & G2) & G3). eexists. split; [exact G2|]. split; [|exact G3].
    split; [exists b, name, ch, time; reflexivity|]. split.
    - pose proof (fast_array_loop _ _ _ _ _ _ _ _ G1) as Fn. apply Forall_forall. intros d Hd. split; [rewrite Forall_forall in Fn; apply Fn; exact Hd|].
      destruct (Lamp i d Hi' Hd) as (u & h & k & A & j & (y & x) & _ & _ & _ & K1 & K2 & _ & Kd & _). rewrite Kd. destruct (Hph i Hi') as (P1 & P2 & P3).
      destruct (Inside _ (LampIn _ _ _ _ K1 K2)) as (Y1 & Y2). cbn [fst snd] in Y1, Y2. apply seen_nonneg; [exact P3|rewrite P1; exact Y1|rewrite P2; exact Y2].
    - destruct (Hgen i Hi') as (_ & F). apply Forall2_len in F. rewrite <- F, to_measure_length.
      apply in_split in Gin. destruct Gin as (g1 & g2 & ->). unfold merged. rewrite map_app, concat_app. cbn [map concat]. rewrite !app_length. lia. }
  destruct (C28_table_holds_the_records_sorted_by_led srt coord files overflow first last skip recs Hsrt Hn Fast) as (t & parts & T1 & T2 & T3).
  assert (Place : forall k A ps, nth_error lamps k = Some A -> nth_error places k = Some ps ->
    List.length A = List.length ps /\ forall j p, nth_error ps j = Some p -> nth_error (concat places) (List.length (concat (firstn k lamps)) + j) = Some p).
  { intros k A ps H1 H2. split.
    - assert (X : nth_error (map (@List.length _) lamps) k = Some (List.length A)) by (rewrite nth_error_map, H1; reflexivity). rewrite Hpls, nth_error_map, H2 in X. apply Some_inj in X. symmetry. exact X.
    - intros j p Hj. rewrite (same_offset _ _ lamps places k Hpls). eapply nth_concat_any; eassumption. }
  assert (Both : forall k, (0 <= k < Z.of_nat (List.length B))%Z -> exists A ps, nth_error lamps (Z.to_nat k) = Some A /\ nth_error places (Z.to_nat k) = Some ps).
  { intros k Hk'. assert (LP : List.length lamps = List.length places) by (apply (f_equal (@List.length _)) in Hpls; rewrite !map_length in Hpls; exact Hpls).
    destruct (nth_error lamps (Z.to_nat k)) as [A|] eqn:EA; [|apply nth_error_None in EA; lia]. destruct (nth_error places (Z.to_nat k)) as [ps|] eqn:EP; [|apply nth_error_None in EP; lia].
    exists A, ps. split; reflexivity. }
  exists t, arrays, (ids (joined B g)), (concat B). split; [exact T1|]. split; [rewrite Earr; exact L2|].
  split; [exists (map ids B)|]; [|split; [unfold arrays, merged; rewrite !nth_error_map, HA; reflexivity|]; split; [unfold ids; rewrite map_length; exact Long|]; split; [|split; [|split]]].
  - unfold arrays, merged, B. rewrite <- merge_joined by assumption. f_equal. symmetry. apply reorder_blocks_again.
  - intros i Hi'. exists arrays'. split; [|apply (Hgen i Hi')].
    unfold arrays, arrays'. clear. induction merged as [|b l IH]; [constructor|]. cbn [map]. constructor; [|exact IH]. apply Permutation_sym, Permutation_rev.
  - exists parts. split; assumption.
  - unfold joined, ids. clear - Gf Both Place HB. induction Gf as [|k g Hk Gf IH]; [constructor|]. cbn [map concat]. rewrite map_app. apply Forall2_app; [|exact IH].
    destruct (Both k Hk) as (A & ps & H1 & H2). destruct (Place _ _ _ H1 H2) as (L & Q). rewrite (nth_error_nth _ _ _ H2), (nth_error_nth _ _ _ (HB _ _ H1)).
    apply ids_and_places; assumption.
  - intros i d p Hi' Hd Hda Hp'. destruct (Lamp i d Hi' Hd) as (u & h & k & A & j & q & U1 & U2 & U3 & U4 & U5 & U6 & U7).
    assert (u = a) by lia. subst u. assert (h = g) by congruence. subst h. assert (Hk' : (0 <= k < Z.of_nat (List.length B))%Z) by (rewrite Forall_forall in Gf; apply Gf; exact U3).
    destruct (Both k Hk') as (A' & ps & H1 & H2). assert (A' = A) by congruence. subst A'. destruct (Place _ _ _ H1 H2) as (L & Q).
    assert (Hj : exists p', nth_error ps j = Some p').
    { destruct (nth_error ps j) as [p'|] eqn:N; [exists p'; reflexivity|]. apply nth_error_None in N. assert (j < List.length A)%nat by (apply nth_error_Some; congruence). lia. }
    destruct Hj as (p' & Hj). rewrite U6 in Hp'. assert (p' = p) by (specialize (Q j p' Hj); congruence). subst p'.
    exists k, A, ps, j, q. split; [exact U3|]. split; [exact U4|]. split; [exact H2|]. split; [exact U5|]. split; [exact Hj|]. split; [|exact U7].
    rewrite U6. eapply nth_concat_any; eassumption.
Qed.

(** ** C131 *)

(** Steps 1 and 2 on the reference image, step 3 in fast mode on the photographs 1..n, the
    table, the analysis of the merged array number [a] with the linear solver and the arithmetic of the machine. *)
Theorem C131_merged : forall bot top nlay cam ps H,
  (1 <= nlay)%nat -> bot < top -> within bot top (pz cam) -> Forall (in_view bot top cam) ps -> Forall (no_border_between bot top nlay cam) ps ->
  Forall2 (counts_at bot top nlay cam) ps H -> enough_heights bot top nlay (pz cam :: H) ->
  exists K u0, 0 < K /\ 0 < u0 /\
  forall u m log avg mu N tol E1 E2 st img thr lamps strays gs photo files recs srt coord overflow first last skip a g places numb
         indices num prop nnls lambda base eta L eps smoke cpus order,
  known_property prop ->
  accurate u m -> accurate_log u log -> 0 <= u <= u0 -> rnd m bot = bot ->
  (* the reference image and what the user enters *)
  let P := concat lamps ++ strays in
  let r := e_radius E1 in
  mml_ok (e_mml E1) -> e_image E1 = Ok img -> nonempty_image img -> nonneg_image img -> (1 <= r)%Z ->
  percentile (pixels img) (e_percentile E1) = Ok thr -> spots img r thr P -> (Z.of_nat (List.length P) <= e_max_leds E1)%Z ->
  (forall rows, e_plot E1 rows = true /\ e_plot E2 rows = true) ->
  lamps <> [] -> Forall (fun A => (2 <= List.length A)%nat) lamps -> lamps_straight lamps P ->
  e_geo E2 = real_geometry -> e_ignored E2 = [] ->
  e_merge E2 = Some gs -> groups_of (List.length lamps) gs -> Forall (StronglySorted Z.lt) gs ->
  let st1 := exec_all [Step1 E1; NewProcess] st in
  (forall rows, fst st1 KAreas = Some (Rows rows) -> edges_entered rows lamps (e_edges E2)) ->
  let s2 := fst (exec (Step2 E2) st1) in
  (* the photographs and the result files *)
  let n := number_of_images overflow first last skip in
  (1 <= n)%Z -> accurate_mean N mu avg -> 0 <= mu -> (n <= Z.of_nat N)%Z ->
  (forall i, (1 <= i <= n)%Z -> ih (photo i) = ih img /\ iw (photo i) = iw img /\ nonneg_image (photo i)) ->
  (forall i areas arrays, (1 <= i <= n)%Z ->
     load_search_areas s2 = Ok areas -> load_indices numb (Some gs) s2 = Ok arrays ->
     generate_analysis_data None (photo i) r areas arrays 0 = Ok (recs i) /\
     (exists b name ch time, files i = Some (result_file b name ch time false (recs i))) /\
     coords_usable coord (recs i)) ->
  sorts srt ->
  (* the group, the room and the smoke *)
  nth_error gs a = Some g -> map (@List.length _) lamps = map (@List.length _) places -> joined places g = ps ->
  (forall i, (1 <= i <= n)%Z -> List.length (smoke i) = nlay /\ nonneg (smoke i)) ->
  (forall i, (1 <= i <= n)%Z -> is_reference indices num i -> smoke i = repeat 0 nlay) ->
  (exists i, (1 <= i <= n)%Z /\ is_reference indices num i) ->
  (* every pixel around the lamps of the rows of the group shows the light that comes through the smoke, up to eta *)
  0 <= eta -> 0 < L -> eps = lamp_error prop r eta / L -> table_error (eps + 2 * mu) < 1 / 3 ->
  (forall i k A pl j q p, (1 <= i <= n)%Z -> In k g -> nth_error lamps (Z.to_nat k) = Some A -> nth_error places (Z.to_nat k) = Some pl -> nth_error A j = Some q -> nth_error pl j = Some p ->
     let share := transmission bot top nlay cam p (smoke i) in
     1 / 10000000000 <= share /\ L <= lamp_light prop base r (ih img) (iw img) q * share /\ shows base share eta r q (photo i)) ->
  0 <= lambda -> 0 <= tol -> nnls_within tol nnls -> Permutation order (seq 0 (Z.to_nat n)) ->
  exists t arrays xs,
    create_table srt coord files overflow first last skip = Ok t /\
    load_indices numb (Some gs) s2 = Ok arrays /\
    analyse_on m avg (solve_on m log nnls lambda nlay) bot top nlay cam (concat places) (nth_error arrays a) t (Z.of_nat a) prop indices num cpus order = Ok xs /\
    List.length xs = Z.to_nat n /\
    forall i x, (1 <= i <= n)%Z -> nth_error xs (Z.to_nat (i - 1)) = Some x ->
      sq_dist x (smoke i) <= K * (ln (1 - relative_error (eps + 2 * mu)) * ln (1 - relative_error (eps + 2 * mu)) + lambda * penalty (smoke i) + tol + u * u * (1 + (1 + lambda) * sq_norm (smoke i))).
Proof.
  intros bot top nlay cam ps H Hlay Hbt Hc Hview Hno HH He0.
  destruct (C126_analysis_on_a_machine bot top nlay cam ps H Hlay Hbt Hc Hview Hno HH He0) as (K & u0 & HK & Hu0 & Main). exists K, u0. split; [exact HK|]. split; [exact Hu0|].
  intros u m log avg mu N tol E1 E2 st img thr lamps strays gs photo files recs srt coord overflow first last skip a g places numb
    indices num prop nnls lambda base eta L eps smoke cpus order Hprop Hacc Hlog Hu Hbot P r
    Hm Hi Hne Hnn Hr Hp Hs Hk Hpl Hl0 Hl2 Hst Hg Hig Hgs Hok Hasc st1 He s2 n Hn Havg Hmu HN Hph Hrec Hsrt HA Hpls Hps Hsm Hsm0 Href Heta HL -> Heps Hpix Hlam Htol Hnnls Hord.
  destruct (merged_records E1 E2 st img thr lamps strays gs photo files recs srt coord overflow first last skip a g places numb
    Hm Hi Hne Hnn Hr Hp Hs Hk Hpl Hl0 Hl2 Hst Hg Hig Hgs Hok He Hn Hph Hrec Hsrt HA Hpls) as (t & arrays & l & areas & T1 & T2 & (arrs & T3) & T4 & T5 & T6 & T7 & T8 & T9). rewrite Hps in T8.
  destruct (Main u m log avg mu N tol arrs (Some gs) arrays a l n recs t (concat places) indices num prop nnls lambda (lamp_error prop r eta / L) smoke
    (fun k => match nth_error (concat lamps) (Z.to_nat k) with Some q => lamp_light prop base r (ih img) (iw img) q | None => 0 end) cpus order) as (xs & X1 & X2 & X3); try assumption.
  - intros i Hi'. destruct (T6 i Hi') as (arrays' & G1 & G2). exists fit_data, None, (photo i), r, areas, arrays', (recs i). split; [exact G1|]. split; [exact G2|reflexivity].
  - apply Rmult_le_pos; [apply lamp_error_nonneg; exact Heta|left; apply Rinv_0_lt_compat; exact HL].
  - intros i d p Hi' Hd Hda Hp'. destruct (T9 i d p Hi' Hd Hda Hp') as (k & A & pl & j & q & J0 & J1 & J2 & J3 & J4 & J5 & J6). rewrite J5.
    destruct (Hpix i k A pl j q p Hi' J0 J1 J2 J3 J4) as (S1 & S2 & S3). destruct (Hph i Hi') as (P1 & P2 & _). rewrite <- P1, <- P2 in *.
    destruct (C129_relative_error prop base (transmission bot top nlay cam p (smoke i)) eta L r q (photo i) d Hprop ltac:(lia) Heta HL ltac:(lra) S3 J6 S2) as (R1 & R2). split; [exact R1|]. split; [exact S1|exact R2].
  - exists t, (index_files arrays), xs. split; [exact T1|]. split; [exact T2|]. split; [exact X1|]. split; [exact X2|exact X3].
Qed.
Print Assumptions C131_merged.

(** The same with the non-linear solver. *)
Theorem C131_merged_non_linear : forall bot top nlay cam ps H,
  (1 <= nlay)%nat -> bot < top -> within bot top (pz cam) -> Forall (in_view bot top cam) ps -> Forall (no_border_between bot top nlay cam) ps ->
  Forall2 (counts_at bot top nlay cam) ps H -> enough_heights bot top nlay (pz cam :: H) ->
  exists K u0, 0 < K /\ 0 < u0 /\
  forall u m mexp avg mu N tol E1 E2 st img thr lamps strays gs photo files recs srt coord overflow first last skip a g places numb
         indices num prop minimize wc wp base eta L eps smoke cpus order,
  known_property prop ->
  accurate u m -> accurate_exp u mexp -> 0 <= u <= u0 -> rnd m bot = bot ->
  (* the reference image and what the user enters *)
  let P := concat lamps ++ strays in
  let r := e_radius E1 in
  mml_ok (e_mml E1) -> e_image E1 = Ok img -> nonempty_image img -> nonneg_image img -> (1 <= r)%Z ->
  percentile (pixels img) (e_percentile E1) = Ok thr -> spots img r thr P -> (Z.of_nat (List.length P) <= e_max_leds E1)%Z ->
  (forall rows, e_plot E1 rows = true /\ e_plot E2 rows = true) ->
  lamps <> [] -> Forall (fun A => (2 <= List.length A)%nat) lamps -> lamps_straight lamps P ->
  e_geo E2 = real_geometry -> e_ignored E2 = [] ->
  e_merge E2 = Some gs -> groups_of (List.length lamps) gs -> Forall (StronglySorted Z.lt) gs ->
  let st1 := exec_all [Step1 E1; NewProcess] st in
  (forall rows, fst st1 KAreas = Some (Rows rows) -> edges_entered rows lamps (e_edges E2)) ->
  let s2 := fst (exec (Step2 E2) st1) in
  (* the photographs and the result files *)
  let n := number_of_images overflow first last skip in
  (1 <= n)%Z -> accurate_mean N mu avg -> 0 <= mu -> (n <= Z.of_nat N)%Z ->
  (forall i, (1 <= i <= n)%Z -> ih (photo i) = ih img /\ iw (photo i) = iw img /\ nonneg_image (photo i)) ->
  (forall i areas arrays, (1 <= i <= n)%Z ->
     load_search_areas s2 = Ok areas -> load_indices numb (Some gs) s2 = Ok arrays ->
     generate_analysis_data None (photo i) r areas arrays 0 = Ok (recs i) /\
     (exists b name ch time, files i = Some (result_file b name ch time false (recs i))) /\
     coords_usable coord (recs i)) ->
  sorts srt ->
  (* the group, the room and the smoke *)
  nth_error gs a = Some g -> map (@List.length _) lamps = map (@List.length _) places -> joined places g = ps ->
  (forall i, (1 <= i <= n)%Z -> List.length (smoke i) = nlay /\ in_bounds (smoke i)) ->
  (forall i, (1 <= i <= n)%Z -> is_reference indices num i -> smoke i = repeat 0 nlay) ->
  (exists i, (1 <= i <= n)%Z /\ is_reference indices num i) ->
  (* every pixel around the lamps of the rows of the group shows the light that comes through the smoke, up to eta *)
  0 <= eta -> 0 < L -> eps = lamp_error prop r eta / L -> table_error (eps + 2 * mu) < 1 / 3 ->
  (forall i k A pl j q p, (1 <= i <= n)%Z -> In k g -> nth_error lamps (Z.to_nat k) = Some A -> nth_error places (Z.to_nat k) = Some pl -> nth_error A j = Some q -> nth_error pl j = Some p ->
     let share := transmission bot top nlay cam p (smoke i) in
     1 / 10000000000 <= share /\ L <= lamp_light prop base r (ih img) (iw img) q * share /\ shows base share eta r q (photo i)) ->
  0 <= wc -> 0 < tol -> minimize_within tol minimize -> Permutation order (seq 0 (Z.to_nat n)) ->
  exists t arrays xs,
    create_table srt coord files overflow first last skip = Ok t /\
    load_indices numb (Some gs) s2 = Ok arrays /\
    analyse_on m avg (nonlinear_on m mexp minimize wc wp nlay) bot top nlay cam (concat places) (nth_error arrays a) t (Z.of_nat a) prop indices num cpus order = Ok xs /\
    List.length xs = Z.to_nat n /\
    forall i x, (1 <= i <= n)%Z -> nth_error xs (Z.to_nat (i - 1)) = Some x ->
      List.length x = nlay /\
      sqrt (sq_dist x (smoke i)) <= K * (relative_error (eps + 2 * mu) + wc * bend (smoke i) + Rabs wp + tol + (1 + wc + Rabs wp) * u).
Proof.
  intros bot top nlay cam ps H Hlay Hbt Hc Hview Hno HH He0.
  destruct (C128_analysis_on_a_machine bot top nlay cam ps H Hlay Hbt Hc Hview Hno HH He0) as (K & u0 & HK & Hu0 & Main). exists K, u0. split; [exact HK|]. split; [exact Hu0|].
  intros u m mexp avg mu N tol E1 E2 st img thr lamps strays gs photo files recs srt coord overflow first last skip a g places numb
    indices num prop minimize wc wp base eta L eps smoke cpus order Hprop Hacc Hexp Hu Hbot P r
    Hm Hi Hne Hnn Hr Hp Hs Hk Hpl Hl0 Hl2 Hst Hg Hig Hgs Hok Hasc st1 He s2 n Hn Havg Hmu HN Hph Hrec Hsrt HA Hpls Hps Hsm Hsm0 Href Heta HL -> Heps Hpix Hwc Htol Hmin Hord.
  destruct (merged_records E1 E2 st img thr lamps strays gs photo files recs srt coord overflow first last skip a g places numb
    Hm Hi Hne Hnn Hr Hp Hs Hk Hpl Hl0 Hl2 Hst Hg Hig Hgs Hok He Hn Hph Hrec Hsrt HA Hpls) as (t & arrays & l & areas & T1 & T2 & (arrs & T3) & T4 & T5 & T6 & T7 & T8 & T9). rewrite Hps in T8.
  destruct (Main u m mexp avg mu N tol arrs (Some gs) arrays a l n recs t (concat places) indices num prop minimize wc wp (lamp_error prop r eta / L) smoke
    (fun k => match nth_error (concat lamps) (Z.to_nat k) with Some q => lamp_light prop base r (ih img) (iw img) q | None => 0 end) cpus order) as (xs & X1 & X2 & X3); try assumption.
  - intros i Hi'. destruct (T6 i Hi') as (arrays' & G1 & G2). exists fit_data, None, (photo i), r, areas, arrays', (recs i). split; [exact G1|]. split; [exact G2|reflexivity].
  - apply Rmult_le_pos; [apply lamp_error_nonneg; exact Heta|left; apply Rinv_0_lt_compat; exact HL].
  - intros i d p Hi' Hd Hda Hp'. destruct (T9 i d p Hi' Hd Hda Hp') as (k & A & pl & j & q & J0 & J1 & J2 & J3 & J4 & J5 & J6). rewrite J5.
    destruct (Hpix i k A pl j q p Hi' J0 J1 J2 J3 J4) as (S1 & S2 & S3). destruct (Hph i Hi') as (P1 & P2 & _). rewrite <- P1, <- P2 in *.
    destruct (C129_relative_error prop base (transmission bot top nlay cam p (smoke i)) eta L r q (photo i) d Hprop ltac:(lia) Heta HL ltac:(lra) S3 J6 S2) as (R1 & R2). split; [exact R1|]. split; [exact S1|exact R2].
  - exists t, (index_files arrays), xs. split; [exact T1|]. split; [exact T2|]. split; [exact X1|]. split; [exact X2|exact X3].
Qed.
Print Assumptions C131_merged_non_linear.


(** *** A concrete case: the hall of the example of C102.  The upper row shows the lamps at
    the heights 1, 1.5 and 2, the lower row those at 3 and 0.5; smoke below the ceiling.  The
    light is not a whole number and there is some of it everywhere; the camera rounds. *)
Definition on_lamp (y x : Z) : bool := existsb (fun p => (fst p =? y) && (snd p =? x))%Z (concat hall_lamps).
Definition yard (i : Z) : image := Img 12 12 (fun y x => if on_lamp y x then (if ((i =? 2) && (y =? 8) && (x =? 5))%Z%bool then 4000 else 8000)%Z else 0%Z).
Definition shine (y x : Z) : R := if on_lamp y x then 8000 + 1 / 3 else 1 / 8.
Definition yard_env edges : env := Env scan (Ok hall) 2 90 10 real_geometry edges [] (Some [[0; 1]%Z]) (fun _ => true).
Definition yard_places : list (list point) := [[Point 0 0 1; Point 0 0 (3 / 2); Point 0 0 2]; [Point 0 0 3; Point 0 0 (1 / 2)]].
Definition yard_recs (i : Z) : list (led_data fit_data) :=
  match generate_analysis_data None (yard i) 2 (concat (Extract_Props.blocks 0 hall_lamps)) [[4; 3; 2; 1; 0]%Z] 0 with Ok ds => ds | Err _ => [] end.
Definition yard_files (i : Z) : option (list string) := Some (result_file "IMG_{}.JPG" "a" 0 "0" false (yard_recs i)).
Definition shine_least (prop : string) : R := if (prop =? "sum_col_val")%string then 4000 else 250.

Lemma up_paths : forall h, 0 < h -> paths 0 3 3 eg_cam (Point 0 0 h) = [Rmax 0 (Rmin 1 h - 0); Rmax 0 (Rmin 2 h - 1); Rmax 0 (Rmin 3 h - 2)].
Proof.
  intros h Hh. unfold paths. cbn [seq map]. change (INR 0) with 0. change (INR 1) with 1. change (INR 2) with (1 + 1). change (INR 3) with (1 + 1 + 1).
  replace (0 + 0 * ((3 - 0) / (1 + 1 + 1))) with 0 by field. replace (0 + 1 * ((3 - 0) / (1 + 1 + 1))) with (0 + 1) by field.
  replace (0 + (1 + 1) * ((3 - 0) / (1 + 1 + 1))) with (0 + 1 + 1) by field. replace (0 + (1 + 1 + 1) * ((3 - 0) / (1 + 1 + 1))) with (0 + 1 + 1 + 1) by field.
  rewrite !eg_path by lra. replace (0 + 1 + 1 + 1) with 3 by ring. replace (0 + 1 + 1) with 2 by ring. replace (0 + 1) with 1 by ring. reflexivity.
Qed.

Lemma below_ceiling : forall s1 s2 s3 s3' h, 0 < h <= 2 -> transmission 0 3 3 eg_cam (Point 0 0 h) [s1; s2; s3] = transmission 0 3 3 eg_cam (Point 0 0 h) [s1; s2; s3'].
Proof.
  intros s1 s2 s3 s3' h H. unfold transmission. rewrite up_paths by lra. assert (E : Rmax 0 (Rmin 3 h - 2) = 0) by (rewrite Rmin_right by lra; apply Rmax_left; lra).
  rewrite E. cbn [rdot]. do 2 f_equal. ring.
Qed.

Lemma to_ceiling : forall s1 s2 s3, transmission 0 3 3 eg_cam (Point 0 0 3) [s1; s2; s3] = exp (- (s1 + s2 + s3)).
Proof.
  intros s1 s2 s3. unfold transmission. rewrite up_paths by lra. rewrite (Rmin_left 1 3), (Rmin_left 2 3), (Rmin_left 3 3) by lra. rewrite !Rmax_right by lra. cbn [rdot]. do 2 f_equal. ring.
Qed.

Lemma in_lowest : forall s1 s2 s3 s2' s3', transmission 0 3 3 eg_cam (Point 0 0 (1 / 2)) [s1; s2; s3] = transmission 0 3 3 eg_cam (Point 0 0 (1 / 2)) [s1; s2'; s3'].
Proof.
  intros s1 s2 s3 s2' s3'. unfold transmission. rewrite up_paths by lra. assert (E : Rmax 0 (Rmin 3 (1 / 2) - 2) = 0) by (rewrite Rmin_right by lra; apply Rmax_left; lra).
  assert (E' : Rmax 0 (Rmin 2 (1 / 2) - 1) = 0) by (rewrite Rmin_right by lra; apply Rmax_left; lra). rewrite E, E'. cbn [rdot]. do 2 f_equal. ring.
Qed.

(** Neither row alone shows the difference between two profiles which the merged array tells apart. *)
Example C131_rows_alone : let tr p s := transmission 0 3 3 eg_cam p s in
  (forall p, In p (nth 0 yard_places []) -> tr p [0; 0; 0] = tr p [0; 0; 1]) /\
  (forall p, In p (nth 1 yard_places []) -> tr p [0; 1; 0] = tr p [0; 0; 1]) /\
  enough_heights 0 3 3 (pz eg_cam :: map pz (joined yard_places [0; 1]%Z)).
Proof.
  cbv zeta. split; [|split].
  - intros p [<-|[<-|[<-|[]]]]; apply below_ceiling; lra.
  - intros p [<-|[<-|[]]]; [rewrite !to_ceiling; do 2 f_equal; ring|apply in_lowest].
  - intros i j Hij. destruct (ceil_heights i j Hij) as (zs & Z1 & Z2 & Z3). exists zs. split; [exact Z1|]. split; [exact Z2|]. intros z Hz. destruct (Z3 z Hz) as (Y1 & Y2). split; [|exact Y2].
    change (pz eg_cam :: map pz (joined yard_places [0; 1]%Z)) with [0; 1; 3 / 2; 2; 3; 1 / 2]. cbn [In] in *. tauto.
Qed.

Lemma hall_cases : forall k A pl j q p, nth_error hall_lamps (Z.to_nat k) = Some A -> nth_error yard_places (Z.to_nat k) = Some pl -> nth_error A j = Some q -> nth_error pl j = Some p ->
  (q = (8, 5)%Z /\ p = Point 0 0 3) \/ (In q [(2, 2); (2, 5); (2, 8); (8, 2)]%Z /\ exists h, p = Point 0 0 h /\ 0 < h <= 2).
Proof.
  intros k A pl j q p HA Hpl Hq Hp. destruct (Z.to_nat k) as [|[|m]]; cbn [nth_error hall_lamps yard_places] in HA, Hpl; [| |destruct m; discriminate];
    apply Some_inj in HA, Hpl; subst A pl.
  - right. destruct j as [|[|[|j]]]; cbn [nth_error] in Hq, Hp; [| | |destruct j; discriminate]; apply Some_inj in Hq, Hp; subst q p; (split; [cbn; tauto|]); eexists; (split; [reflexivity|]); lra.
  - destruct j as [|[|j]]; cbn [nth_error] in Hq, Hp; [| |destruct j; discriminate]; apply Some_inj in Hq, Hp; subst q p; [left; split; reflexivity|].
    right. split; [cbn; tauto|]. eexists; (split; [reflexivity|]); lra.
Qed.

Lemma hall_share : forall k A pl j q p i, (1 <= i <= 2)%Z -> nth_error hall_lamps (Z.to_nat k) = Some A -> nth_error yard_places (Z.to_nat k) = Some pl -> nth_error A j = Some q -> nth_error pl j = Some p ->
  transmission 0 3 3 eg_cam p (ceil_smoke i) = if ((i =? 2) && (snd q =? 5) && (fst q =? 8))%Z%bool then 1 / 2 else 1.
Proof.
  assert (H1 : exp (- ln 2) = 1 / 2) by (rewrite exp_Ropp, exp_ln by lra; lra).
  assert (T0 : forall p, transmission 0 3 3 eg_cam p [0; 0; 0] = 1) by (intros p; unfold transmission; change [0; 0; 0] with (repeat 0 3); rewrite rdot_zeros, Ropp_0; apply exp_0).
  intros k A pl j q p i Hi HA Hpl Hq Hp. assert (Ci : (i = 1 \/ i = 2)%Z) by lia. destruct Ci as [-> | -> ]; [change (ceil_smoke 1) with [0; 0; 0]; rewrite T0; reflexivity|].
  change (ceil_smoke 2) with [0; 0; ln 2].
  destruct (hall_cases _ _ _ _ _ _ HA Hpl Hq Hp) as [(-> & ->)|(Q & h & -> & Hh)].
  - rewrite to_ceiling. cbn [fst snd Z.eqb Pos.eqb andb]. replace (- (0 + 0 + ln 2)) with (- ln 2) by ring. exact H1.
  - rewrite (below_ceiling 0 0 (ln 2) 0 h Hh), T0. destruct Q as [<-|[<-|[<-|[<-|[]]]]]; reflexivity.
Qed.

Lemma shine_light : forall prop q, known_property prop -> In q (concat hall_lamps) -> 2 * shine_least prop <= lamp_light prop shine 2 12 12 q.
Proof.
  intros prop q Hp Hq.
  assert (E : lights shine 2 12 12 q = repeat (1 / 8) 10 ++ [8000 + 1 / 3] ++ repeat (1 / 8) 5).
  { cbn [concat hall_lamps app In] in Hq. destruct Hq as [<-|[<-|[<-|[<-|[<-|[]]]]]]; reflexivity. }
  unfold shine_least, lamp_light, light. rewrite E. destruct Hp as [->|[->| ->]]; cbn [String.eqb Ascii.eqb Bool.eqb repeat app]; [cbn [fold_right]; lra|cbn [fold_right List.length INR]; lra|].
  eapply Rle_trans; [|apply max_above; do 10 right; left; reflexivity]. lra.
Qed.

Lemma yard_pixels : forall prop i k A pl j q p, known_property prop -> (1 <= i <= 2)%Z -> In k [0; 1]%Z ->
  nth_error hall_lamps (Z.to_nat k) = Some A -> nth_error yard_places (Z.to_nat k) = Some pl -> nth_error A j = Some q -> nth_error pl j = Some p ->
  let share := transmission 0 3 3 eg_cam p (ceil_smoke i) in
  1 / 10000000000 <= share /\ shine_least prop <= lamp_light prop shine 2 12 12 q * share /\ shows shine share (1 / 2) 2 q (yard i).
Proof.
  intros prop i k A pl j q p Hprop Hi _ HA Hpl Hq Hp share. unfold share. rewrite (hall_share k A pl j q p i Hi HA Hpl Hq Hp).
  assert (Qin : In q (concat hall_lamps)) by (apply in_concat; exists A; split; eapply nth_error_In; eassumption).
  pose proof (shine_light prop q Hprop Qin) as G. assert (Hl : 0 < shine_least prop) by (unfold shine_least; destruct (prop =? "sum_col_val")%string; lra).
  set (b := ((i =? 2) && (snd q =? 5) && (fst q =? 8))%Z%bool). split; [destruct b; lra|]. split; [destruct b; nra|].
  intros y x ((Y1 & Y2) & _ & (X1 & X2) & _). unfold yard, shine. cbn [Step1_Model.px]. apply Rabs_le. destruct (on_lamp y x) eqn:E; [|destruct b; lra].
  assert (Eq : (y, x) = q).
  { unfold on_lamp in E. apply existsb_exists in E. destruct E as ((y' & x') & Hc & E). apply andb_true_iff in E. destruct E as (E1 & E2). cbn [fst snd] in E1, E2. apply Z.eqb_eq in E1, E2. subst y' x'.
    cbn [concat hall_lamps app In] in Hc, Qin. destruct Qin as [<-|[<-|[<-|[<-|[<-|[]]]]]], Hc as [Hc|[Hc|[Hc|[Hc|[Hc|[]]]]]]; injection Hc as <- <-; cbn [fst snd] in *; try reflexivity; exfalso; lia. }
  subst q. unfold b. cbn [fst snd]. destruct (i =? 2)%Z, (y =? 8)%Z, (x =? 5)%Z; cbn [andb]; lra.
Qed.

Lemma yard_nonneg : forall i, nonneg_image (yard i).
Proof. intros i y x _. unfold yard. cbn [Step1_Model.px]. destruct (on_lamp y x); [|lia]. destruct (_ && _ && _); lia. Qed.

(** What the user does and what the files hold. *)
Lemma yard_steps :
  let st1 := exec_all [Step1 (yard_env []); NewProcess] (fun _ => None, None) in
  let s2 := fst (exec (Step2 (yard_env [[2; 3]; [4; 1]]%Z)) st1) in
  nonneg_image hall /\ percentile (pixels hall) 90 = Ok (0 # 100) /\
  (forall rows, fst st1 KAreas = Some (Rows rows) -> edges_entered rows hall_lamps [[2; 3]; [4; 1]]%Z) /\
  (forall i areas arrays, load_search_areas s2 = Ok areas -> load_indices 2 (Some [[0; 1]%Z]) s2 = Ok arrays ->
     generate_analysis_data None (yard i) 2 areas arrays 0 = Ok (yard_recs i)).
Proof.
  intros st1 s2.
  assert (Hnn : nonneg_image hall).
  { intros y x _. cbn [hall Step1_Model.px]. repeat match goal with |- context [if ?c then _ else _] => destruct c end; lia. }
  assert (Hp : percentile (pixels hall) 90 = Ok (0 # 100)) by (clear; vm_compute; reflexivity).
  assert (Ha : fst st1 KAreas = Some (Rows [(0, (2, 5)); (1, (8, 2)); (2, (2, 2)); (3, (2, 8)); (4, (8, 5)); (5, (5, 10))]%Z)) by (clear; vm_compute; reflexivity).
  assert (He : forall rows, fst st1 KAreas = Some (Rows rows) -> edges_entered rows hall_lamps [[2; 3]; [4; 1]]%Z).
  { intros rows H. rewrite Ha in H. apply Some_inj in H. injection H as <-. apply Forall2_cons; [|apply Forall2_cons; [|apply Forall2_nil]].
    - exists 2%Z, 3%Z, (0, 0)%Z. split; [reflexivity|]. split; [cbn; tauto|]. split; [cbn; tauto|discriminate].
    - exists 4%Z, 1%Z, (0, 0)%Z. split; [reflexivity|]. split; [cbn; tauto|]. split; [cbn; tauto|discriminate]. }
  split; [exact Hnn|]. split; [exact Hp|]. split; [exact He|].
  assert (L2 : Forall (fun A : list loc => (2 <= List.length A)%nat) hall_lamps) by (apply Forall_cons; [cbn; lia|]; apply Forall_cons; [cbn; lia|apply Forall_nil]).
  assert (Gs : groups_of (List.length hall_lamps) [[0; 1]%Z]).
  { apply Forall_cons; [|apply Forall_nil]. split; [discriminate|]. apply Forall_cons; [cbn; lia|]. apply Forall_cons; [cbn; lia|apply Forall_nil]. }
  pose proof (C131_extraction (yard_env []) (yard_env [[2; 3]; [4; 1]]%Z) (fun _ => None, None) hall (0 # 100) hall_lamps [(5, 10)%Z] [[0; 1]%Z] 2 scan_ok eq_refl (conj eq_refl eq_refl) Hnn
    ltac:(cbn; lia) Hp hall_spots ltac:(cbn; lia) (fun rows => conj eq_refl eq_refl) ltac:(discriminate) L2 hall_straight eq_refl eq_refl eq_refl Gs He) as T.
  cbv zeta in T. destruct T as (_ & _ & X1 & X2 & _). fold st1 in X1, X2. fold s2 in X1, X2.
  intros i areas arrays La Li. rewrite X1 in La. apply Ok_inj in La. subst areas. rewrite X2 in Li. apply Ok_inj in Li. subst arrays. unfold yard_recs.
  change (map (fun M => rev (map fst M)) (map (joined (Extract_Props.blocks 0 hall_lamps)) [[0; 1]%Z])) with [[4; 3; 2; 1; 0]%Z].
  destruct (generate_analysis_data None (yard i) 2 (concat (Extract_Props.blocks 0 hall_lamps)) [[4; 3; 2; 1; 0]%Z] 0) eqn:E; [reflexivity|]. exfalso.
  assert (C : match generate_analysis_data (F:=fit_data) None (yard i) 2 (concat (Extract_Props.blocks 0 hall_lamps)) [[4; 3; 2; 1; 0]%Z] 0 with Ok _ => True | Err _ => False end).
  { unfold yard. clear. destruct (i =? 2)%Z; vm_compute; exact I. }
  rewrite E in C. exact C.
Qed.

Example C131_example : exists K u0, 0 < K /\ 0 < u0 /\ forall u tol nnls lambda cpus, 0 <= u <= u0 -> 0 <= tol -> nnls_within tol nnls -> 0 <= lambda ->
  let st1 := exec_all [Step1 (yard_env []); NewProcess] (fun _ => None, None) in
  let s2 := fst (exec (Step2 (yard_env [[2; 3]; [4; 1]]%Z)) st1) in
  let q := ln (1 - relative_error (1 / 500 + 2 * (1 / 1000000))) * ln (1 - relative_error (1 / 500 + 2 * (1 / 1000000))) in
  forall prop, known_property prop -> exists t arrays x1 x2,
    create_table isort None yard_files None 1 2 0 = Ok t /\ load_indices 2 (Some [[0; 1]%Z]) s2 = Ok arrays /\
    analyse_on (rough u) rough_mean (solve_on (rough u) (rough_log u) nnls lambda 3) 0 3 3 eg_cam (concat yard_places) (nth_error arrays 0) t 0 prop None 1 cpus [1; 0]%nat = Ok [x1; x2] /\
    sq_dist x1 [0; 0; 0] <= K * (q + tol + u * u) /\
    sq_dist x2 [0; 0; ln 2] <= K * (q + lambda * (ln 2 * ln 2) + tol + u * u * (1 + (1 + lambda) * (ln 2 * ln 2))).
Proof.
  destruct (C131_merged 0 3 3 eg_cam (joined yard_places [0; 1]%Z) [1; 3 / 2; 2; 3; 1 / 2]) as (K & u0 & HK & Hu0 & Main).
  { lia. }
  { lra. }
  { unfold within, eg_cam. cbn [pz]. lra. }
  { cbn [joined map nth yard_places Z.to_nat Pos.to_nat Pos.iter_op Nat.add concat app]. repeat (constructor; [unfold in_view, within, eg_cam; cbn [pz]; split; [lra|split; [lra|intros C; exfalso; lra]]|]). constructor. }
  { cbn [joined map nth yard_places Z.to_nat Pos.to_nat Pos.iter_op Nat.add concat app]. repeat (constructor; [intros C; unfold eg_cam in C; cbn [pz] in C; exfalso; lra|]). constructor. }
  { cbn [joined map nth yard_places Z.to_nat Pos.to_nat Pos.iter_op Nat.add concat app]. repeat (constructor; [left; unfold eg_cam; cbn [pz]; split; [lra|reflexivity]|]). constructor. }
  { exact (proj2 (proj2 C131_rows_alone)). }
  exists K, (Rmin u0 (1 / 2)). split; [exact HK|]. split; [apply Rmin_glb_lt; lra|]. intros u tol nnls lambda cpus Hu Htol Hnnls Hlam st1 s2. cbv zeta. intros prop Hprop.
  assert (Hu1 : 0 <= u <= u0) by (split; [lra|eapply Rle_trans; [apply Hu|apply Rmin_l]]). assert (Hu2 : u <= 1 / 2) by (eapply Rle_trans; [apply Hu|apply Rmin_r]).
  assert (L2 : 0 < ln 2) by (rewrite <- ln_1; apply ln_increasing; lra).
  destruct yard_steps as (Hnn & Hp & He & Gen). fold st1 in He, Gen. fold s2 in Gen.
  assert (Two : Forall (fun A : list loc => (2 <= List.length A)%nat) hall_lamps) by (apply Forall_cons; [cbn; lia|]; apply Forall_cons; [cbn; lia|apply Forall_nil]).
  destruct (Main u (rough u) (rough_log u) rough_mean (1 / 1000000) 2%nat tol (yard_env []) (yard_env [[2; 3]; [4; 1]]%Z) (fun _ => None, None) hall (0 # 100) hall_lamps [(5, 10)%Z] [[0; 1]%Z]
    yard yard_files yard_recs isort None None 1%Z 2%Z 0%Z 0%nat [0; 1]%Z yard_places 2%Z None 1%Z prop nnls lambda shine (1 / 2) (shine_least prop) (1 / 500) ceil_smoke cpus [1; 0]%nat)
    as (t & arrays & xs & T1 & T2 & T3 & T4 & T5).
  - exact Hprop.
  - apply rough_accurate. lra.
  - apply rough_log_accurate. lra.
  - exact Hu1.
  - cbn [rnd rough]. unfold upwards. ring.
  - exact scan_ok.
  - reflexivity.
  - split; reflexivity.
  - exact Hnn.
  - cbn. lia.
  - exact Hp.
  - exact hall_spots.
  - cbn. lia.
  - intros rows. split; reflexivity.
  - discriminate.
  - exact Two.
  - exact hall_straight.
  - reflexivity.
  - reflexivity.
  - reflexivity.
  - apply Forall_cons; [|apply Forall_nil]. split; [discriminate|]. apply Forall_cons; [cbn; lia|]. apply Forall_cons; [cbn; lia|apply Forall_nil].
  - apply Forall_cons; [|apply Forall_nil]. repeat (apply SSorted_cons; [|repeat (apply Forall_cons; [lia|]); apply Forall_nil]). apply SSorted_nil.
  - exact He.
  - change (1 <= 2)%Z. lia.
  - exact rough_mean_accurate.
  - lra.
  - change (2 <= Z.of_nat 2)%Z. lia.
  - intros i _. split; [reflexivity|]. split; [reflexivity|]. apply yard_nonneg.
  - intros i areas arrays _ La Li. fold st1 in La, Li. fold s2 in La, Li. cbv zeta in La, Li. split; [exact (Gen i areas arrays La Li)|]. split; [|exact I]. do 4 eexists. reflexivity.
  - exact isort_sorts.
  - reflexivity.
  - reflexivity.
  - reflexivity.
  - intros i Hi. unfold ceil_smoke. destruct (i =? 1)%Z.
    + split; [reflexivity|apply zeros_nonneg].
    + split; [reflexivity|]. unfold nonneg. repeat (constructor; [lra|]). constructor.
  - intros i Hi Hr. cbn [is_reference] in Hr. assert (i = 1)%Z by (change (1 <= i <= 2)%Z in Hi; lia). subst i. reflexivity.
  - exists 1%Z. split; [change (1 <= 1 <= 2)%Z; lia|]. cbn. lia.
  - lra.
  - unfold shine_least. destruct (prop =? "sum_col_val")%string; lra.
  - cbn [e_radius yard_env]. unfold lamp_error, shine_least. destruct (prop =? "sum_col_val")%string; lra.
  - unfold table_error. lra.
  - intros i k A pl j q p. apply yard_pixels. exact Hprop.
  - exact Hlam.
  - exact Htol.
  - exact Hnnls.
  - apply perm_swap.
  - fold st1 in T2. fold s2 in T2. change (Z.to_nat (number_of_images None 1 2 0)) with 2%nat in T4.
    destruct xs as [|x1 [|x2 [|x3 xs]]]; try discriminate T4. exists t, arrays, x1, x2. split; [exact T1|]. split; [exact T2|]. split; [exact T3|].
    pose proof (T5 1%Z x1 ltac:(change (1 <= 1 <= 2)%Z; lia) eq_refl) as Y1. pose proof (T5 2%Z x2 ltac:(change (1 <= 2 <= 2)%Z; lia) eq_refl) as Y2.
    change (ceil_smoke 1) with [0; 0; 0] in Y1. change (ceil_smoke 2) with [0; 0; ln 2] in Y2.
    unfold penalty in Y1, Y2. cbn [List.length Nat.leb roughness sq_norm] in Y1, Y2. set (w := ln (1 - relative_error (1 / 500 + 2 * (1 / 1000000))) * ln (1 - relative_error (1 / 500 + 2 * (1 / 1000000)))) in *.
    split; (eapply Rle_trans; [eassumption|]); (apply Rmult_le_compat_l; [lra|]); right; ring.
Qed.

(** The same with the non-linear solver. *)
Example C131_non_linear_example : exists K u0, 0 < K /\ 0 < u0 /\ forall u tol minimize wc wp cpus, 0 <= u <= u0 -> 0 < tol -> minimize_within tol minimize -> 0 <= wc ->
  let st1 := exec_all [Step1 (yard_env []); NewProcess] (fun _ => None, None) in
  let s2 := fst (exec (Step2 (yard_env [[2; 3]; [4; 1]]%Z)) st1) in
  forall prop, known_property prop -> exists t arrays x1 x2,
    create_table isort None yard_files None 1 2 0 = Ok t /\ load_indices 2 (Some [[0; 1]%Z]) s2 = Ok arrays /\
    analyse_on (rough u) rough_mean (nonlinear_on (rough u) (rough_exp u) minimize wc wp 3) 0 3 3 eg_cam (concat yard_places) (nth_error arrays 0) t 0 prop None 1 cpus [1; 0]%nat = Ok [x1; x2] /\
    sqrt (sq_dist x1 [0; 0; 0]) <= K * (relative_error (1 / 500 + 2 * (1 / 1000000)) + Rabs wp + tol + (1 + wc + Rabs wp) * u) /\
    sqrt (sq_dist x2 [0; 0; ln 2]) <= K * (relative_error (1 / 500 + 2 * (1 / 1000000)) + wc * ln 2 + Rabs wp + tol + (1 + wc + Rabs wp) * u).
Proof.
  destruct (C131_merged_non_linear 0 3 3 eg_cam (joined yard_places [0; 1]%Z) [1; 3 / 2; 2; 3; 1 / 2]) as (K & u0 & HK & Hu0 & Main).
  { lia. }
  { lra. }
  { unfold within, eg_cam. cbn [pz]. lra. }
  { cbn [joined map nth yard_places Z.to_nat Pos.to_nat Pos.iter_op Nat.add concat app]. repeat (constructor; [unfold in_view, within, eg_cam; cbn [pz]; split; [lra|split; [lra|intros C; exfalso; lra]]|]). constructor. }
  { cbn [joined map nth yard_places Z.to_nat Pos.to_nat Pos.iter_op Nat.add concat app]. repeat (constructor; [intros C; unfold eg_cam in C; cbn [pz] in C; exfalso; lra|]). constructor. }
  { cbn [joined map nth yard_places Z.to_nat Pos.to_nat Pos.iter_op Nat.add concat app]. repeat (constructor; [left; unfold eg_cam; cbn [pz]; split; [lra|reflexivity]|]). constructor. }
  { exact (proj2 (proj2 C131_rows_alone)). }
  exists K, (Rmin u0 (1 / 2)). split; [exact HK|]. split; [apply Rmin_glb_lt; lra|]. intros u tol minimize wc wp cpus Hu Htol Hmin Hwc st1 s2. cbv zeta. intros prop Hprop.
  assert (Hu1 : 0 <= u <= u0) by (split; [lra|eapply Rle_trans; [apply Hu|apply Rmin_l]]). assert (Hu2 : u <= 1 / 2) by (eapply Rle_trans; [apply Hu|apply Rmin_r]).
  assert (L2 : 0 < ln 2 < 1) by exact ln_2_range.
  destruct yard_steps as (Hnn & Hp & He & Gen). fold st1 in He, Gen. fold s2 in Gen.
  assert (Two : Forall (fun A : list loc => (2 <= List.length A)%nat) hall_lamps) by (apply Forall_cons; [cbn; lia|]; apply Forall_cons; [cbn; lia|apply Forall_nil]).
  destruct (Main u (rough u) (rough_exp u) rough_mean (1 / 1000000) 2%nat tol (yard_env []) (yard_env [[2; 3]; [4; 1]]%Z) (fun _ => None, None) hall (0 # 100) hall_lamps [(5, 10)%Z] [[0; 1]%Z]
    yard yard_files yard_recs isort None None 1%Z 2%Z 0%Z 0%nat [0; 1]%Z yard_places 2%Z None 1%Z prop minimize wc wp shine (1 / 2) (shine_least prop) (1 / 500) ceil_smoke cpus [1; 0]%nat)
    as (t & arrays & xs & T1 & T2 & T3 & T4 & T5).
  - exact Hprop.
  - apply rough_accurate. lra.
  - apply rough_exp_accurate. lra.
  - exact Hu1.
  - cbn [rnd rough]. unfold upwards. ring.
  - exact scan_ok.
  - reflexivity.
  - split; reflexivity.
  - exact Hnn.
  - cbn. lia.
  - exact Hp.
  - exact hall_spots.
  - cbn. lia.
  - intros rows. split; reflexivity.
  - discriminate.
  - exact Two.
  - exact hall_straight.
  - reflexivity.
  - reflexivity.
  - reflexivity.
  - apply Forall_cons; [|apply Forall_nil]. split; [discriminate|]. apply Forall_cons; [cbn; lia|]. apply Forall_cons; [cbn; lia|apply Forall_nil].
  - apply Forall_cons; [|apply Forall_nil]. repeat (apply SSorted_cons; [|repeat (apply Forall_cons; [lia|]); apply Forall_nil]). apply SSorted_nil.
  - exact He.
  - change (1 <= 2)%Z. lia.
  - exact rough_mean_accurate.
  - lra.
  - change (2 <= Z.of_nat 2)%Z. lia.
  - intros i _. split; [reflexivity|]. split; [reflexivity|]. apply yard_nonneg.
  - intros i areas arrays _ La Li. fold st1 in La, Li. fold s2 in La, Li. cbv zeta in La, Li. split; [exact (Gen i areas arrays La Li)|]. split; [|exact I]. do 4 eexists. reflexivity.
  - exact isort_sorts.
  - reflexivity.
  - reflexivity.
  - reflexivity.
  - intros i Hi. unfold ceil_smoke. destruct (i =? 1)%Z.
    + split; [reflexivity|]. cbn [repeat]. unfold in_bounds. repeat (constructor; [lra|]). constructor.
    + split; [reflexivity|]. unfold in_bounds. repeat (constructor; [lra|]). constructor.
  - intros i Hi Hr. cbn [is_reference] in Hr. assert (i = 1)%Z by (change (1 <= i <= 2)%Z in Hi; lia). subst i. reflexivity.
  - exists 1%Z. split; [change (1 <= 1 <= 2)%Z; lia|]. cbn. lia.
  - lra.
  - unfold shine_least. destruct (prop =? "sum_col_val")%string; lra.
  - cbn [e_radius yard_env]. unfold lamp_error, shine_least. destruct (prop =? "sum_col_val")%string; lra.
  - unfold table_error. lra.
  - intros i k A pl j q p. apply yard_pixels. exact Hprop.
  - exact Hwc.
  - exact Htol.
  - exact Hmin.
  - apply perm_swap.
  - fold st1 in T2. fold s2 in T2. change (Z.to_nat (number_of_images None 1 2 0)) with 2%nat in T4.
    destruct xs as [|x1 [|x2 [|x3 xs]]]; try discriminate T4. exists t, arrays, x1, x2. split; [exact T1|]. split; [exact T2|]. split; [exact T3|].
    destruct (T5 1%Z x1 ltac:(change (1 <= 1 <= 2)%Z; lia) eq_refl) as (_ & Y1). destruct (T5 2%Z x2 ltac:(change (1 <= 2 <= 2)%Z; lia) eq_refl) as (_ & Y2).
    change (ceil_smoke 1) with [0; 0; 0] in Y1. change (ceil_smoke 2) with [0; 0; ln 2] in Y2. cbn [bend] in Y1, Y2.
    replace (0 - 2 * 0 + 0) with 0 in Y1 by ring. rewrite Rabs_R0 in Y1. replace (0 - 2 * 0 + ln 2) with (ln 2) in Y2 by ring. rewrite (Rabs_pos_eq (ln 2)) in Y2 by lra.
    split; (eapply Rle_trans; [eassumption|]); (apply Rmult_le_compat_l; [lra|]); right; ring.
Qed.
