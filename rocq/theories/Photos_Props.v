(** C104: from the photographs to the extinction coefficients. *)
From Coq Require Import ZArith QArith Lia Bool String List Permutation Reals Lra.
From Verif Require Import Base Step1_Model Step1_Spec Step1_Proofs Step2_Model Step2_Spec Step2_Proofs Step2_GeoSpec Step2_GeoProps Step2_Geometry Nearly_Props Step3_Model Step3_Spec Step3_Props
  Pipeline_Model Pipeline_Props Dir_Model Dir_Props Extract_Props Format_Model Table_Model Table_Spec Table_Props Analysis_Model Analysis_Props
  Layers_Model Layers_Spec Solver_Model Solver_Props Stable_Props Nnls_Props End_Model End_Props.
Import ListNotations.
Local Open Scope R_scope.

(** ** Specification *)

(** What a photograph shows of a lamp: the sum over the square around it. *)
Definition seen (photo : image) (r : Z) (p : loc) : Z :=
  total (window photo (fst p - r) (Z.min (fst p + r) (ih photo)) (snd p - r) (Z.min (snd p + r) (iw photo))).

(** A record holds what the photograph shows of the lamp: sum, mean and maximum of the pixels
    of the square around it. *)
Definition holds_lamp {F} (photo : image) (r : Z) (p : loc) (d : led_data F) : Prop :=
  let ps := window photo (fst p - r) (Z.min (fst p + r) (ih photo)) (snd p - r) (Z.min (snd p + r) (iw photo)) in
  d_sum d = seen photo r p /\ (d_mean d * inject_Z (Z.of_nat (List.length ps)) == inject_Z (total ps))%Q /\ is_max (d_max d) ps.

(** ** Records of fast mode *)
Lemma fast_led_loop : forall F img r areas skip k l ds, led_loop (F := F) None img r areas skip k l = Ok ds -> Forall (fun d => d_fit d = None) ds.
Proof.
  intros F img r areas skip k l. induction l as [|i l IH]; intros ds H; cbn [led_loop] in H.
  - apply Ok_inj in H. subst ds. constructor.
  - destruct (i mod (skip + 1) =? 0)%Z; [|apply IH; exact H]. unfold analyse_led in H.
    destruct (np_index areas i) as [[led [y x]]|e]; [|discriminate]. cbn [bind] in H.
    destruct (np_amax (concat (area img r y x))) as [m|e]; [|discriminate]. cbn [bind] in H.
    destruct (led_loop None img r areas skip k l) as [ds'|e]; [|discriminate]. cbn [bind] in H. apply Ok_inj in H. subst ds.
    constructor; [reflexivity|]. apply IH. reflexivity.
Qed.

Lemma fast_array_loop : forall F img r areas skip arrays k ds, array_loop (F := F) None img r areas skip k arrays = Ok ds -> Forall (fun d => d_fit d = None) ds.
Proof.
  intros F img r areas skip arrays. induction arrays as [|a l IH]; intros k ds H; cbn [array_loop] in H.
  - apply Ok_inj in H. subst ds. constructor.
  - destruct (led_loop None img r areas skip k a) as [d1|e] eqn:E1; [|discriminate]. cbn [bind] in H.
    destruct (array_loop None img r areas skip (k + 1) l) as [d2|e] eqn:E2; [|discriminate]. cbn [bind] in H. apply Ok_inj in H. subst ds.
    apply Forall_app. split; [eapply fast_led_loop; exact E1|eapply IH; exact E2].
Qed.

Lemma total_nonneg : forall l, Forall (fun v => (0 <= v)%Z) l -> (0 <= total l)%Z.
Proof. intros l H. induction H as [|v l H F IH]; [reflexivity|]. unfold total in *. cbn [fold_right]. lia. Qed.

Lemma seen_nonneg : forall photo r y x, nonneg_image photo -> (r <= y < ih photo)%Z -> (r <= x < iw photo)%Z -> (0 <= seen photo r (y, x))%Z.
Proof.
  intros photo r y x Hn Hy Hx. unfold seen. cbn [fst snd]. apply total_nonneg. apply Forall_forall. intros v Hv. unfold window in Hv.
  apply in_map_iff in Hv. destruct Hv as ((y', x') & <- & Hv). apply in_prod_iff in Hv. destruct Hv as (V1 & V2). apply in_zrange in V1, V2. cbn [fst snd].
  apply Hn. split; lia.
Qed.

(** ** Numbers of the lamps *)
Lemma to_measure_in : forall arrays k e, In e (to_measure k arrays) -> exists j B, nth_error arrays j = Some B /\ fst e = (k + Z.of_nat j)%Z /\ In (snd e) B.
Proof.
  induction arrays as [|A l IH]; intros k e H; [destruct H|]. cbn [to_measure] in H. apply in_app_or in H. destruct H as [H|H].
  - apply in_map_iff in H. destruct H as (b & <- & H). exists 0%nat, A. split; [reflexivity|]. split; [cbn [fst]; lia|]. apply in_rev. exact H.
  - destruct (IH _ _ H) as (j & B & H1 & H2 & H3). exists (S j), B. split; [exact H1|]. split; [lia|exact H3].
Qed.

Lemma to_measure_length : forall arrays k, List.length (to_measure k arrays) = List.length (concat arrays).
Proof. induction arrays as [|A l IH]; intros k; [reflexivity|]. cbn [to_measure concat]. rewrite !app_length, map_length, rev_length, IH. reflexivity. Qed.

Lemma blocks_nth : forall lamps s a A, nth_error lamps a = Some A ->
  nth_error (Extract_Props.blocks s lamps) a = Some (numbered (s + Z.of_nat (List.length (concat (firstn a lamps)))) A).
Proof.
  induction lamps as [|B l IH]; intros s [|a] A H; try discriminate.
  - apply Some_inj in H. subst B. cbn. do 2 f_equal. lia.
  - cbn [Extract_Props.blocks nth_error firstn concat] in *. rewrite (IH _ _ _ H), app_length. do 2 f_equal. lia.
Qed.

Lemma numbered_in : forall A s m p, In (m, p) (numbered s A) -> exists j, m = (s + Z.of_nat j)%Z /\ nth_error A j = Some p.
Proof.
  induction A as [|q A IH]; intros s m p H; [destruct H|]. cbn [numbered] in H. destruct H as [H|H].
  - injection H as <- <-. exists 0%nat. split; [lia|reflexivity].
  - destruct (IH _ _ _ H) as (j & E & Hj). exists (S j). split; [lia|exact Hj].
Qed.

Lemma nth_concat_any : forall T (ls : list (list T)) k j l x, nth_error ls k = Some l -> nth_error l j = Some x ->
  nth_error (concat ls) (List.length (concat (firstn k ls)) + j) = Some x.
Proof.
  intros T. induction ls as [|a l IH]; intros k j m x Hk Hj; [destruct k; discriminate|]. destruct k as [|k]; cbn [firstn concat nth_error] in *.
  - apply Some_inj in Hk. subst a. cbn [List.length Nat.add]. rewrite nth_error_app1; [exact Hj|]. apply nth_error_Some. congruence.
  - rewrite app_length, nth_error_app2 by lia. replace (List.length a + List.length (concat (firstn k l)) + j - List.length a)%nat with (List.length (concat (firstn k l)) + j)%nat by lia.
    eapply IH; eassumption.
Qed.

Lemma same_offset : forall T U (ls : list (list T)) (ms : list (list U)) k, map (@List.length _) ls = map (@List.length _) ms ->
  List.length (concat (firstn k ls)) = List.length (concat (firstn k ms)).
Proof.
  intros T U. induction ls as [|l ls IH]; intros [|m ms] [|k] H; try discriminate; try reflexivity. cbn [map] in H. injection H as H1 H2.
  cbn [firstn concat]. rewrite !app_length, H1, (IH ms k H2). reflexivity.
Qed.

Lemma ids_and_places : forall A ps s coords, List.length A = List.length ps ->
  (forall j p, nth_error ps j = Some p -> nth_error coords (s + j)%nat = Some p) ->
  Forall2 (fun (id : Z) (p : point) => (0 <= id)%Z /\ nth_error coords (Z.to_nat id) = Some p) (ids (numbered (Z.of_nat s) A)) ps.
Proof.
  induction A as [|q A IH]; intros [|p ps] s coords L H; try discriminate; [constructor|]. cbn [numbered ids map fst]. constructor.
  - split; [lia|]. rewrite Nat2Z.id. specialize (H 0%nat p eq_refl). rewrite Nat.add_0_r in H. exact H.
  - replace (Z.of_nat s + 1)%Z with (Z.of_nat (S s)) by lia. apply IH; [simpl in L; lia|]. intros j p' Hj. specialize (H (S j) p' Hj). rewrite <- plus_n_Sm in H. exact H.
Qed.

(** Renumbering arrays that are numbered already changes nothing. *)
Lemma reorder_blocks_again : forall lamps s, reorder_from s (map ids (Extract_Props.blocks s lamps)) = map ids (Extract_Props.blocks s lamps).
Proof.
  intros lamps s. apply reorder_blocks. rewrite map_map. revert s. induction lamps as [|A l IH]; intros s; [reflexivity|]. cbn [Extract_Props.blocks map].
  rewrite IH. unfold ids. rewrite map_length, numbered_length. reflexivity.
Qed.

(** ** C104 *)

(** From the photographs to the records: the arrays and the table which the analysis
    reads; every record of array [a] is what a photograph shows of one of its lamps. *)
Lemma photographs_records :
  forall E1 E2 st img thr lamps strays photo files recs srt coord overflow first last skip a A (places : list (list point)) ps,
  (* the reference image and what the user enters *)
  let P := concat lamps ++ strays in
  let r := e_radius E1 in
  mml_ok (e_mml E1) -> e_image E1 = Ok img -> nonempty_image img -> nonneg_image img -> (1 <= r)%Z ->
  percentile (pixels img) (e_percentile E1) = Ok thr -> spots img r thr P -> (Z.of_nat (List.length P) <= e_max_leds E1)%Z ->
  (forall rows, e_plot E1 rows = true /\ e_plot E2 rows = true) ->
  Forall (fun A => (2 <= List.length A)%nat) lamps -> lamps_straight lamps P ->
  e_geo E2 = real_geometry -> e_ignored E2 = [] ->
  let st1 := exec_all [Step1 E1; NewProcess] st in
  (forall rows, fst st1 KAreas = Some (Rows rows) -> edges_entered rows lamps (e_edges E2)) ->
  let s2 := fst (exec (Step2 E2) st1) in
  (* the photographs and the result files *)
  let n := number_of_images overflow first last skip in
  (1 <= n)%Z ->
  (forall i, (1 <= i <= n)%Z -> ih (photo i) = ih img /\ iw (photo i) = iw img /\ nonneg_image (photo i)) ->
  (forall i areas arrays, (1 <= i <= n)%Z ->
     load_search_areas s2 = Ok areas -> load_indices (Z.of_nat (List.length lamps)) None s2 = Ok arrays ->
     generate_analysis_data None (photo i) r areas arrays 0 = Ok (recs i) /\
     (exists b name ch time, files i = Some (result_file b name ch time false (recs i))) /\
     coords_usable coord (recs i)) ->
  sorts srt ->
  (* the array, the room and the smoke *)
  nth_error lamps a = Some A -> map (@List.length _) lamps = map (@List.length _) places -> nth_error places a = Some ps ->
  exists t arrays l areas off,
    create_table srt coord files overflow first last skip = Ok t /\
    load_indices (Z.of_nat (List.length lamps)) None s2 = Ok (index_files arrays) /\
    arrays = merge_indices (reorder_led_indices arrays) None /\ nth_error arrays a = Some l /\ (2 <= List.length l)%nat /\
    (forall i, (1 <= i <= n)%Z -> exists arrays', Forall2 (@Permutation Z) arrays' arrays /\ generate_analysis_data None (photo i) r areas arrays' 0 = Ok (recs i)) /\
    table_of_images t n recs /\
    Forall2 (fun id p => (0 <= id)%Z /\ nth_error (concat places) (Z.to_nat id) = Some p) l ps /\
    (forall i d p, (1 <= i <= n)%Z -> In d (recs i) -> d_array d = Z.of_nat a -> nth_error (concat places) (Z.to_nat (d_id d)) = Some p ->
       exists j q, (Z.to_nat (d_id d) = off + j)%nat /\ nth_error A j = Some q /\ nth_error ps j = Some p /\ holds_lamp (photo i) r q d).
Proof.
  intros E1 E2 st img thr lamps strays photo files recs srt coord overflow first last skip a A places ps P r
    Hm Hi Hne Hnn Hr Hp Hs Hk Hpl Hl2 Hst Hg Hig st1 He s2 n Hn Hph Hrec Hsrt HA Hpls Hps.
  assert (Hl0 : lamps <> []) by (intros C; subst lamps; destruct a; discriminate HA).
  destruct (C102_extraction E1 E2 st img thr lamps strays Hm Hi Hne Hnn Hr Hp Hs Hk Hpl Hl0 Hl2 Hst Hg Hig He) as (_ & _ & L1 & L2 & L3).
  fold st1 in L1, L2, L3. fold s2 in L1, L2, L3. fold r in L3.
  set (B := Extract_Props.blocks 0 lamps) in *. set (arrays := map ids B).
  set (arrays' := map (fun b : list row => rev (map fst b)) B) in *.
  assert (Earr : index_files arrays = arrays') by (unfold index_files, arrays, arrays'; rewrite map_map; reflexivity).
  assert (Hgen : forall i, (1 <= i <= n)%Z -> generate_analysis_data None (photo i) r (concat B) arrays' 0 = Ok (recs i) /\
    Forall2 (Extract_Props.measured (photo i) r) (to_measure 0 B) (recs i)).
  { intros i Hi'. destruct (Hrec i _ _ Hi' L1 L2) as (G1 & _). destruct (Hph i Hi') as (P1 & P2 & _).
    destruct (L3 fit_data None (photo i) (concat B) arrays' ltac:(discriminate) P1 P2 L1 L2) as (ds & D1 & D2). rewrite G1 in D1. apply Ok_inj in D1. subst ds. split; assumption. }
  assert (Inside : forall p, In p (concat lamps) -> (r <= fst p < ih img)%Z /\ (r <= snd p < iw img)%Z).
  { intros p X. destruct Hs as (_ & Hs & _). destruct (Hs p) as ((I1 & I2) & J1 & J2 & _); [apply in_or_app; left; exact X|]. lia. }
  set (off := List.length (concat (firstn a lamps))).
  assert (HB : nth_error B a = Some (numbered (Z.of_nat off) A)) by (unfold B; rewrite (blocks_nth _ _ _ _ HA); reflexivity).
  (* a record and the lamp it belongs to *)
  assert (Lamp : forall i d, (1 <= i <= n)%Z -> In d (recs i) -> exists k m q C, nth_error B k = Some C /\ In (m, q) C /\ d_id d = m /\ d_array d = Z.of_nat k /\ holds_lamp (photo i) r q d).
  { intros i d Hi' Hd. destruct (Hgen i Hi') as (_ & F). apply In_nth_error in Hd. destruct Hd as (u & Hu).
    destruct (Forall2_nth_both _ _ _ _ _ _ _ F Hu) as ((k0 & (m & (y & x))) & U1 & U2). apply nth_error_In in U1.
    destruct (to_measure_in _ _ _ U1) as (k & C & K1 & K2 & K3). cbn [fst snd] in K2, K3. destruct U2 as (V1 & V2 & V3).
    exists k, m, (y, x), C. split; [exact K1|]. split; [exact K3|]. split; [exact V1|]. split; [lia|]. exact V3. }
  assert (Fast : forall i, (1 <= i <= n)%Z -> exists lines, files i = Some lines /\ fast_file lines (recs i) /\ coords_usable coord (recs i)).
  { intros i Hi'. destruct (Hrec i _ _ Hi' L1 L2) as (G1 & (b & name & ch & time & G2) & G3). eexists. split; [exact G2|]. split; [|exact G3].
    split; [exists b, name, ch, time; reflexivity|]. split.
    - pose proof (fast_array_loop _ _ _ _ _ _ _ _ G1) as Fn. apply Forall_forall. intros d Hd. split; [rewrite Forall_forall in Fn; apply Fn; exact Hd|].
      destruct (Lamp i d Hi' Hd) as (k & m & (y & x) & C & K1 & K2 & _ & _ & Kd & _). rewrite Kd. destruct (Hph i Hi') as (P1 & P2 & P3).
      assert (X : In (y, x) (concat lamps)).
      { rewrite <- (numbered_snd (concat lamps) 0), <- concat_blocks. fold B. change (y, x) with (snd (m, (y, x))). apply in_map. apply in_concat. exists C. split; [eapply nth_error_In; exact K1|exact K2]. }
      destruct (Inside _ X) as (Y1 & Y2). cbn [fst snd] in Y1, Y2. apply seen_nonneg; [exact P3|rewrite P1; exact Y1|rewrite P2; exact Y2].
    - destruct (Hgen i Hi') as (_ & F). apply Forall2_len in F. rewrite <- F, to_measure_length. unfold B. rewrite concat_blocks, numbered_length.
      destruct lamps as [|A0 l0]; [congruence|]. inversion Hl2; subst. cbn [concat]. rewrite app_length. lia. }
  destruct (C28_table_holds_the_records_sorted_by_led srt coord files overflow first last skip recs Hsrt Hn Fast) as (t & parts & T1 & T2 & T3).
  assert (Eoff : off = List.length (concat (firstn a places))) by (apply same_offset; exact Hpls).
  assert (Coo : forall j p, nth_error ps j = Some p -> nth_error (concat places) (off + j) = Some p) by (intros j p Hj; rewrite Eoff; eapply nth_concat_any; eassumption).
  assert (LA : List.length A = List.length ps).
  { assert (X : nth_error (map (@List.length _) lamps) a = Some (List.length A)) by (rewrite nth_error_map, HA; reflexivity). rewrite Hpls, nth_error_map, Hps in X. apply Some_inj in X. symmetry. exact X. }
  assert (Hl : nth_error arrays a = Some (ids (numbered (Z.of_nat off) A))) by (unfold arrays; rewrite nth_error_map, HB; reflexivity).
  assert (LL : List.length (ids (numbered (Z.of_nat off) A)) = List.length A) by (unfold ids; rewrite map_length; apply numbered_length).
  exists t, arrays, (ids (numbered (Z.of_nat off) A)), (concat B), off. split; [exact T1|]. split; [rewrite Earr; exact L2|].
  split; [unfold arrays, B; cbn [merge_indices]; symmetry; apply reorder_blocks_again|]. split; [exact Hl|].
  split; [rewrite LL; rewrite Forall_forall in Hl2; apply Hl2; eapply nth_error_In; exact HA|]. split; [|split; [|split]].
  - intros i Hi'. exists arrays'. split; [|apply (Hgen i Hi')].
    unfold arrays, arrays'. clear. induction B as [|b l IH]; [constructor|]. cbn [map]. constructor; [|exact IH]. apply Permutation_sym, Permutation_rev.
  - exists parts. split; assumption.
  - apply ids_and_places; assumption.
  - intros i d p Hi' Hd Hda Hp'. destruct (Lamp i d Hi' Hd) as (k & m & q & C & K1 & K2 & K3 & K4 & K5).
    assert (k = a) by lia. subst k. rewrite HB in K1. apply Some_inj in K1. subst C. destruct (numbered_in _ _ _ _ K2) as (j & J1 & J2).
    assert (Ej : (Z.to_nat (d_id d) = off + j)%nat) by lia. rewrite Ej in Hp'.
    assert (Hj : exists p', nth_error ps j = Some p').
    { destruct (nth_error ps j) as [p'|] eqn:N; [exists p'; reflexivity|]. apply nth_error_None in N. assert (j < List.length A)%nat by (apply nth_error_Some; congruence). lia. }
    destruct Hj as (p' & Hj). assert (p' = p) by (specialize (Coo j p' Hj); congruence). subst p'. exists j, q. split; [exact Ej|]. split; [exact J2|]. split; [exact Hj|exact K5].
Qed.

(** From the photographs to what the solver gives for intensities with small errors. *)
Lemma photographs_with :
  forall E1 E2 st img thr lamps strays photo files recs srt coord overflow first last skip a A places ps
         indices num bot top nlay cam (solve : list (option vec) -> option vec -> list quot -> res vec) (shape : vec -> Prop) (good : vec -> vec -> Prop) eps smoke bright cpus order,
  (* the reference image and what the user enters *)
  let P := concat lamps ++ strays in
  let r := e_radius E1 in
  mml_ok (e_mml E1) -> e_image E1 = Ok img -> nonempty_image img -> nonneg_image img -> (1 <= r)%Z ->
  percentile (pixels img) (e_percentile E1) = Ok thr -> spots img r thr P -> (Z.of_nat (List.length P) <= e_max_leds E1)%Z ->
  (forall rows, e_plot E1 rows = true /\ e_plot E2 rows = true) ->
  Forall (fun A => (2 <= List.length A)%nat) lamps -> lamps_straight lamps P ->
  e_geo E2 = real_geometry -> e_ignored E2 = [] ->
  let st1 := exec_all [Step1 E1; NewProcess] st in
  (forall rows, fst st1 KAreas = Some (Rows rows) -> edges_entered rows lamps (e_edges E2)) ->
  let s2 := fst (exec (Step2 E2) st1) in
  (* the photographs and the result files *)
  let n := number_of_images overflow first last skip in
  (1 <= n)%Z ->
  (forall i, (1 <= i <= n)%Z -> ih (photo i) = ih img /\ iw (photo i) = iw img /\ nonneg_image (photo i)) ->
  (forall i areas arrays, (1 <= i <= n)%Z ->
     load_search_areas s2 = Ok areas -> load_indices (Z.of_nat (List.length lamps)) None s2 = Ok arrays ->
     generate_analysis_data None (photo i) r areas arrays 0 = Ok (recs i) /\
     (exists b name ch time, files i = Some (result_file b name ch time false (recs i))) /\
     coords_usable coord (recs i)) ->
  sorts srt ->
  (* the array, the room and the smoke *)
  nth_error lamps a = Some A -> map (@List.length _) lamps = map (@List.length _) places -> nth_error places a = Some ps ->
  (1 <= nlay)%nat -> bot < top -> Forall (in_view bot top cam) ps ->
  (forall last qs s, let M := map (paths bot top nlay cam) ps in
     (forall y, last = Some y -> exists s', good s' y) ->
     List.length s = nlay -> nonneg s -> shape s ->
     Forall2 (fun row v => 1 / 10000000000 <= exp (- rdot row s) /\ Rabs (v - exp (- rdot row s)) <= relative_error eps * exp (- rdot row s)) M (map Q2R qs) ->
     exists x, solve (map Some M) last (map Fin qs) = Ok x /\ good s x) ->
  (forall i, (1 <= i <= n)%Z -> List.length (smoke i) = nlay /\ nonneg (smoke i) /\ shape (smoke i)) ->
  (forall i, (1 <= i <= n)%Z -> is_reference indices num i -> smoke i = repeat 0 nlay) ->
  (exists i, (1 <= i <= n)%Z /\ is_reference indices num i) ->
  (* what the photographs show of the lamps of the array *)
  0 <= eps -> table_error eps < 1 / 3 ->
  (forall i j q p, (1 <= i <= n)%Z -> nth_error A j = Some q -> nth_error ps j = Some p ->
     0 < bright j /\ 1 / 10000000000 <= transmission bot top nlay cam p (smoke i) /\
     close_to (bright j * transmission bot top nlay cam p (smoke i)) eps (IZR (seen (photo i) r q))) ->
  Permutation order (seq 0 (Z.to_nat n)) ->
  exists t arrays xs,
    create_table srt coord files overflow first last skip = Ok t /\
    load_indices (Z.of_nat (List.length lamps)) None s2 = Ok arrays /\
    analyse_with solve bot top nlay cam (concat places) (nth_error arrays a) t (Z.of_nat a) "sum_col_val" indices num cpus order = Ok xs /\
    List.length xs = Z.to_nat n /\
    forall i x, (1 <= i <= n)%Z -> nth_error xs (Z.to_nat (i - 1)) = Some x ->
      good (smoke i) x.
Proof.
  intros E1 E2 st img thr lamps strays photo files recs srt coord overflow first last skip a A places ps
    indices num bot top nlay cam solve shape good eps smoke bright cpus order P r
    Hm Hi Hne Hnn Hr Hp Hs Hk Hpl Hl2 Hst Hg Hig st1 He s2 n Hn Hph Hrec Hsrt HA Hpls Hps Hlay Hbt Hview Hsolve Hsm Hsm0 Href Heps Heps' Hmeas Hord.
  destruct (photographs_records E1 E2 st img thr lamps strays photo files recs srt coord overflow first last skip a A places ps
    Hm Hi Hne Hnn Hr Hp Hs Hk Hpl Hl2 Hst Hg Hig He Hn Hph Hrec Hsrt HA Hpls Hps) as (t & arrays & l & areas & off & T1 & T2 & T3 & T4 & T5 & T6 & T7 & T8 & T9).
  destruct (any_solver_if arrays None arrays a l n recs t (concat places) ps indices num bot top nlay cam solve shape good eps smoke
    (fun m => bright (Z.to_nat m - off)%nat) cpus order) as (xs & X1 & X2 & X3); try assumption.
  - exact I.
  - intros i Hi'. destruct (T6 i Hi') as (arrays' & G1 & G2). exists fit_data, None, (photo i), r, areas, arrays', (recs i). split; [exact G1|]. split; [exact G2|reflexivity].
  - intros i d p Hi' Hd Hda Hp'. destruct (T9 i d p Hi' Hd Hda Hp') as (j & q & Ej & J1 & J2 & Jd & _). rewrite Jd, Ej. replace (off + j - off)%nat with j by lia. apply (Hmeas i j q p Hi' J1 J2).
  - exists t, (index_files arrays), xs. split; [exact T1|]. split; [exact T2|]. split; [exact X1|]. split; [exact X2|exact X3].
Qed.

(** The same with the linear solver. *)
Lemma photographs_if :
  forall E1 E2 st img thr lamps strays photo files recs srt coord overflow first last skip a A places ps
         indices num bot top nlay cam nnls lambda (shape : vec -> Prop) (bound : vec -> R) eps smoke bright cpus order,
  (* the reference image and what the user enters *)
  let P := concat lamps ++ strays in
  let r := e_radius E1 in
  mml_ok (e_mml E1) -> e_image E1 = Ok img -> nonempty_image img -> nonneg_image img -> (1 <= r)%Z ->
  percentile (pixels img) (e_percentile E1) = Ok thr -> spots img r thr P -> (Z.of_nat (List.length P) <= e_max_leds E1)%Z ->
  (forall rows, e_plot E1 rows = true /\ e_plot E2 rows = true) ->
  Forall (fun A => (2 <= List.length A)%nat) lamps -> lamps_straight lamps P ->
  e_geo E2 = real_geometry -> e_ignored E2 = [] ->
  let st1 := exec_all [Step1 E1; NewProcess] st in
  (forall rows, fst st1 KAreas = Some (Rows rows) -> edges_entered rows lamps (e_edges E2)) ->
  let s2 := fst (exec (Step2 E2) st1) in
  (* the photographs and the result files *)
  let n := number_of_images overflow first last skip in
  (1 <= n)%Z ->
  (forall i, (1 <= i <= n)%Z -> ih (photo i) = ih img /\ iw (photo i) = iw img /\ nonneg_image (photo i)) ->
  (forall i areas arrays, (1 <= i <= n)%Z ->
     load_search_areas s2 = Ok areas -> load_indices (Z.of_nat (List.length lamps)) None s2 = Ok arrays ->
     generate_analysis_data None (photo i) r areas arrays 0 = Ok (recs i) /\
     (exists b name ch time, files i = Some (result_file b name ch time false (recs i))) /\
     coords_usable coord (recs i)) ->
  sorts srt ->
  (* the array, the room and the smoke *)
  nth_error lamps a = Some A -> map (@List.length _) lamps = map (@List.length _) places -> nth_error places a = Some ps ->
  (1 <= nlay)%nat -> bot < top -> Forall (in_view bot top cam) ps ->
  separates nlay (a_aug lambda nlay (map (paths bot top nlay cam) ps)) ->
  (forall rel s, let M := map (paths bot top nlay cam) ps in
     List.length s = nlay -> nonneg s -> shape s ->
     Forall2 (fun row v => 1 / 10000000000 <= exp (- rdot row s) /\ Rabs (v - exp (- rdot row s)) <= relative_error eps * exp (- rdot row s)) M rel ->
     nnls_solution nlay (a_aug lambda nlay M) (b_aug nlay rel) (nnls (a_aug lambda nlay M) (b_aug nlay rel)) ->
     sq_dist (linear_coefficients nnls lambda nlay M rel) s <= bound s) ->
  (forall i, (1 <= i <= n)%Z -> List.length (smoke i) = nlay /\ nonneg (smoke i) /\ shape (smoke i)) ->
  (forall i, (1 <= i <= n)%Z -> is_reference indices num i -> smoke i = repeat 0 nlay) ->
  (exists i, (1 <= i <= n)%Z /\ is_reference indices num i) ->
  (* what the photographs show of the lamps of the array *)
  0 <= eps -> table_error eps < 1 / 3 ->
  (forall i j q p, (1 <= i <= n)%Z -> nth_error A j = Some q -> nth_error ps j = Some p ->
     0 < bright j /\ 1 / 10000000000 <= transmission bot top nlay cam p (smoke i) /\
     close_to (bright j * transmission bot top nlay cam p (smoke i)) eps (IZR (seen (photo i) r q))) ->
  0 <= lambda -> nnls_contract nnls -> Permutation order (seq 0 (Z.to_nat n)) ->
  exists t arrays xs,
    create_table srt coord files overflow first last skip = Ok t /\
    load_indices (Z.of_nat (List.length lamps)) None s2 = Ok arrays /\
    analyse_array nnls lambda bot top nlay cam (concat places) (nth_error arrays a) t (Z.of_nat a) "sum_col_val" indices num cpus order = Ok xs /\
    List.length xs = Z.to_nat n /\
    forall i x, (1 <= i <= n)%Z -> nth_error xs (Z.to_nat (i - 1)) = Some x ->
      sq_dist x (smoke i) <= bound (smoke i).
Proof.
  intros E1 E2 st img thr lamps strays photo files recs srt coord overflow first last skip a A places ps
    indices num bot top nlay cam nnls lambda shape bound eps smoke bright cpus order P r
    Hm Hi Hne Hnn Hr Hp Hs Hk Hpl Hl2 Hst Hg Hig st1 He s2 n Hn Hph Hrec Hsrt HA Hpls Hps Hlay Hbt Hview Hsep Hbound Hsm Hsm0 Href Heps Heps' Hmeas Hlam Hnnls Hord.
  apply (photographs_with E1 E2 st img thr lamps strays photo files recs srt coord overflow first last skip a A places ps indices num bot top nlay cam (solve_linear nnls lambda nlay) shape
    (fun s x => sq_dist x s <= bound s) eps smoke bright cpus order); try assumption.
  intros last' qs s M _. apply linear_solver_if; assumption.
Qed.

(** Step 1 and step 2 on the reference image, step 3 in fast mode on the photographs
    1..n, the table made of its result files, the analysis of array [a] with the linear
    solver. *)
Theorem C104_from_the_photographs_to_the_smoke :
  forall E1 E2 st img thr lamps strays photo files recs srt coord overflow first last skip a A places ps
         indices num bot top nlay cam nnls lambda c eps smoke bright cpus order,
  (* the reference image and what the user enters *)
  let P := concat lamps ++ strays in
  let r := e_radius E1 in
  mml_ok (e_mml E1) -> e_image E1 = Ok img -> nonempty_image img -> nonneg_image img -> (1 <= r)%Z ->
  percentile (pixels img) (e_percentile E1) = Ok thr -> spots img r thr P -> (Z.of_nat (List.length P) <= e_max_leds E1)%Z ->
  (forall rows, e_plot E1 rows = true /\ e_plot E2 rows = true) ->
  Forall (fun A => (2 <= List.length A)%nat) lamps -> lamps_straight lamps P ->
  e_geo E2 = real_geometry -> e_ignored E2 = [] ->
  let st1 := exec_all [Step1 E1; NewProcess] st in
  (forall rows, fst st1 KAreas = Some (Rows rows) -> edges_entered rows lamps (e_edges E2)) ->
  let s2 := fst (exec (Step2 E2) st1) in
  (* the photographs and the result files *)
  let n := number_of_images overflow first last skip in
  (1 <= n)%Z ->
  (forall i, (1 <= i <= n)%Z -> ih (photo i) = ih img /\ iw (photo i) = iw img /\ nonneg_image (photo i)) ->
  (forall i areas arrays, (1 <= i <= n)%Z ->
     load_search_areas s2 = Ok areas -> load_indices (Z.of_nat (List.length lamps)) None s2 = Ok arrays ->
     generate_analysis_data None (photo i) r areas arrays 0 = Ok (recs i) /\
     (exists b name ch time, files i = Some (result_file b name ch time false (recs i))) /\
     coords_usable coord (recs i)) ->
  sorts srt ->
  (* the array, the room and the smoke *)
  nth_error lamps a = Some A -> map (@List.length _) lamps = map (@List.length _) places -> nth_error places a = Some ps ->
  (3 <= nlay)%nat -> bot < top -> Forall (in_view bot top cam) ps ->
  0 < c -> (forall z, List.length z = nlay -> c * sq_norm z <= sq_norm (map (fun p => rdot (paths bot top nlay cam p) z) ps)) ->
  (forall i, (1 <= i <= n)%Z -> List.length (smoke i) = nlay /\ nonneg (smoke i) /\ progression (smoke i)) ->
  (forall i, (1 <= i <= n)%Z -> is_reference indices num i -> smoke i = repeat 0 nlay) ->
  (exists i, (1 <= i <= n)%Z /\ is_reference indices num i) ->
  (* what the photographs show of the lamps of the array *)
  0 <= eps -> table_error eps < 1 / 3 ->
  (forall i j q p, (1 <= i <= n)%Z -> nth_error A j = Some q -> nth_error ps j = Some p ->
     0 < bright j /\ 1 / 10000000000 <= transmission bot top nlay cam p (smoke i) /\
     close_to (bright j * transmission bot top nlay cam p (smoke i)) eps (IZR (seen (photo i) r q))) ->
  0 <= lambda -> nnls_contract nnls -> Permutation order (seq 0 (Z.to_nat n)) ->
  exists t arrays xs,
    create_table srt coord files overflow first last skip = Ok t /\
    load_indices (Z.of_nat (List.length lamps)) None s2 = Ok arrays /\
    analyse_array nnls lambda bot top nlay cam (concat places) (nth_error arrays a) t (Z.of_nat a) "sum_col_val" indices num cpus order = Ok xs /\
    List.length xs = Z.to_nat n /\
    forall i x, (1 <= i <= n)%Z -> nth_error xs (Z.to_nat (i - 1)) = Some x ->
      sq_dist x (smoke i) <= 4 * INR (List.length A) * (ln (1 - relative_error eps) * ln (1 - relative_error eps)) / c.
Proof.
  intros E1 E2 st img thr lamps strays photo files recs srt coord overflow first last skip a A places ps
    indices num bot top nlay cam nnls lambda c eps smoke bright cpus order P r
    Hm Hi Hne Hnn Hr Hp Hs Hk Hpl Hl2 Hst Hg Hig st1 He s2 n Hn Hph Hrec Hsrt HA Hpls Hps Hlay Hbt Hview Hc Hsep Hsm Hsm0 Href Heps Heps' Hmeas Hlam Hnnls Hord.
  set (M := map (paths bot top nlay cam) ps).
  assert (SepM : forall z, List.length z = nlay -> c * sq_norm z <= sq_norm (mul M z)).
  { intros z Hz. unfold mul, M. rewrite map_map. apply Hsep. exact Hz. }
  apply (photographs_if E1 E2 st img thr lamps strays photo files recs srt coord overflow first last skip a A places ps indices num bot top nlay cam nnls lambda progression (fun _ => 4 * INR (List.length A) * (ln (1 - relative_error eps) * ln (1 - relative_error eps)) / c) eps smoke bright cpus order); try assumption.
  - lia.
  - apply separates_aug. exists c. split; [exact Hc|exact SepM].
  - cbv zeta. intros rel s Ls Ns Pr F Sol. fold M in F, Sol |- *.
    assert (LA : List.length A = List.length M).
    { unfold M. rewrite map_length. assert (X : nth_error (map (@List.length _) lamps) a = Some (List.length A)) by (rewrite nth_error_map, HA; reflexivity). rewrite Hpls, nth_error_map, Hps in X. apply Some_inj in X. symmetry. exact X. }
    rewrite LA. apply (C93_noisy_profiles nnls lambda nlay M rel s c (relative_error eps)); try assumption; [|apply relative_error_range; assumption].
    unfold M. apply Forall_forall. intros q Hq. apply in_map_iff in Hq. destruct Hq as (p & <- & _). apply paths_nonneg.
Qed.
Print Assumptions C104_from_the_photographs_to_the_smoke.

(** *** A concrete case: the reference image and two photographs of three LEDs one above the
    other (the camera sees them side by side); no smoke in the first photograph, in the
    second every layer of one metre halves the light. *)
Definition wall (l1 l2 l3 : Z) : image := Img 5 10 (fun y x =>
  if (y =? 2)%Z then if (x =? 2)%Z then l1 else if (x =? 5)%Z then l2 else if (x =? 8)%Z then l3 else 0%Z else 0%Z).
Definition wall_lamps : list (list loc) := [[(2, 2); (2, 5); (2, 8)]]%Z.
Definition wall_photo (i : Z) : image := if (i =? 1)%Z then wall 8000 8000 8000 else wall 4000 2000 1000.
Definition wall_env edges : env := Env scan (Ok (wall 8000 7900 8100)) 1 90 10 real_geometry edges [] None (fun _ => true).
Definition wall_recs (i : Z) : list (led_data fit_data) :=
  match generate_analysis_data None (wall_photo i) 1 (concat (Extract_Props.blocks 0 wall_lamps)) [[2; 1; 0]%Z] 0 with Ok ds => ds | Err _ => [] end.
Definition wall_files (i : Z) : option (list string) := Some (result_file "IMG_{}.JPG" "a" 0 "0" false (wall_recs i)).

Lemma wall_spots : spots (wall 8000 7900 8100) 1 (0 # 100) (concat wall_lamps ++ []).
Proof.
  assert (V : forall p, In p (concat wall_lamps ++ []) -> (p = (2, 2) \/ p = (2, 5) \/ p = (2, 8))%Z) by (intros p X; cbn in X; intuition congruence).
  split; [|split; [|split]].
  - cbn. do 3 (apply NoDup_cons; [cbn; intuition congruence|]). apply NoDup_nil.
  - intros p X. apply V in X. destruct X as [->|[->| ->]]; (split; [unfold in_image; cbn [fst snd wall ih iw]; lia|]); (split; [cbn; lia|]); (split; [cbn; lia|]); reflexivity.
  - intros p q X Y N [S1 S2]. apply V in X, Y. destruct X as [->|[->| ->]], Y as [->|[->| ->]]; cbn [fst snd] in S1, S2; try lia; congruence.
  - intros y x _ B. unfold brighter, Qlt in B. cbn [Qnum Qden inject_Z] in B. cbn [wall Step1_Model.px] in B |- *. left.
    destruct (Z.eqb_spec y 2); [|lia]. subst y. destruct (Z.eqb_spec x 2); [subst x; cbn; tauto|]. destruct (Z.eqb_spec x 5); [subst x; cbn; tauto|].
    destruct (Z.eqb_spec x 8); [subst x; cbn; tauto|lia].
Qed.

Lemma wall_straight : lamps_straight wall_lamps (concat wall_lamps ++ []).
Proof.
  intros k A z i p q s Hk Hz _ Hp Hq Hs N1 N2 N3.
  assert (D : (detour p q z = 0 /\ edist p q = 3 /\ 4 <= edist p s)%R); [|destruct D as (-> & -> & D); lra].
  unfold detour. cbn [wall_lamps concat app In] in Hs.
  destruct k as [|k]; cbn in Hk; [|destruct k; discriminate Hk]. injection Hk as <-. cbn in Hz. subst z.
  destruct i as [|[|[|i]]]; cbn in Hp, Hq; try discriminate; injection Hp as <-; injection Hq as <-; cbn in N1, N2.
  - rewrite (edist_square (2, 2)%Z (2, 5)%Z 3), (edist_square (2, 5)%Z (2, 8)%Z 3), (edist_square (2, 2)%Z (2, 8)%Z 6) by (cbn; lia).
    split; [lra|]. split; [reflexivity|]. replace 4%R with (4 / 1)%R by field. apply edist_lower; [lia|lia|].
    destruct Hs as [<-|[<-|[<-|[]]]]; try tauto; cbn; lia.
  - exfalso. destruct Hs as [<-|[<-|[<-|[]]]]; tauto.
Qed.

Lemma wall_separated : forall z, List.length z = 3%nat ->
  1 / 8 * sq_norm z <= sq_norm (map (fun p => rdot (paths 0 3 3 eg_cam p) z) eg_coords).
Proof.
  intros z Hz. pose proof eg_paths as E. assert (F : map (fun p => rdot (paths 0 3 3 eg_cam p) z) eg_coords = mul (map (paths 0 3 3 eg_cam) eg_coords) z) by (unfold mul; rewrite map_map; reflexivity).
  rewrite F, E. destruct z as [|a [|b [|d [|? ?]]]]; try discriminate. unfold mul. cbn [map rdot sq_norm].
  replace (1 * a + (0 * b + (0 * d + 0))) with a by ring. replace (1 * a + (1 * b + (0 * d + 0))) with (a + b) by ring. replace (1 * a + (1 * b + (1 * d + 0))) with (a + b + d) by ring.
  assert (T : forall s t, (s - t) * (s - t) <= 2 * (s * s) + 2 * (t * t)) by (intros s t; pose proof (Rle_0_sqr (s + t)) as Q; unfold Rsqr in Q; lra).
  pose proof (T (a + b) a) as T1. pose proof (T (a + b + d) (a + b)) as T2. replace (a + b - a) with b in T1 by ring. replace (a + b + d - (a + b)) with d in T2 by ring.
  pose proof (Rle_0_sqr a) as P1. pose proof (Rle_0_sqr (a + b)) as P2. pose proof (Rle_0_sqr (a + b + d)) as P3. unfold Rsqr in P1, P2, P3. lra.
Qed.

Lemma wall_seen : forall i j q p, (1 <= i <= 2)%Z -> nth_error [(2, 2); (2, 5); (2, 8)]%Z j = Some q -> nth_error eg_coords j = Some p ->
  0 < 8000 /\ 1 / 10000000000 <= transmission 0 3 3 eg_cam p (eg_smoke i) /\
  close_to (8000 * transmission 0 3 3 eg_cam p (eg_smoke i)) 0 (IZR (seen (wall_photo i) 1 q)).
Proof.
  assert (L2 : 0 < ln 2) by (rewrite <- ln_1; apply ln_increasing; lra).
  assert (H1 : exp (- ln 2) = 1 / 2) by (rewrite exp_Ropp, exp_ln by lra; lra).
  assert (P : forall j, exp (- (INR (S j) * ln 2)) = (1 / 2) ^ S j).
  { induction j as [|j IH]; [cbn [INR pow]; rewrite Rmult_1_l, H1; lra|]. rewrite S_INR. replace (- ((INR (S j) + 1) * ln 2)) with (- (INR (S j) * ln 2) + - ln 2) by ring.
    rewrite exp_plus, IH, H1. cbn [pow]. lra. }
  assert (TR : forall j p, nth_error eg_coords j = Some p -> transmission 0 3 3 eg_cam p [ln 2; ln 2; ln 2] = (1 / 2) ^ S j).
  { intros j p Hj. rewrite <- P. unfold transmission. do 2 f_equal.
    assert (N : nth_error (map (paths 0 3 3 eg_cam) eg_coords) j = Some (paths 0 3 3 eg_cam p)) by (rewrite nth_error_map, Hj; reflexivity). rewrite eg_paths in N.
    destruct j as [|[|[|j]]]; cbn [nth_error] in N; try (apply Some_inj in N; rewrite <- N; cbn [rdot INR]; ring). destruct j; discriminate N. }
  intros i j q p Hi Hq Hp. split; [lra|]. assert (Ci : (i = 1 \/ i = 2)%Z) by lia. destruct Ci as [-> | -> ].
  - assert (T0 : transmission 0 3 3 eg_cam p (eg_smoke 1) = 1) by (unfold transmission, eg_smoke; cbn [Z.eqb Pos.eqb]; rewrite rdot_zeros, Ropp_0; apply exp_0).
    rewrite T0. split; [lra|]. apply close_bounds.
    assert (S : seen (wall_photo 1) 1 q = 8000%Z) by (destruct j as [|[|[|j]]]; cbn [nth_error] in Hq; [| | |destruct j; discriminate]; apply Some_inj in Hq; subst q; vm_compute; reflexivity).
    rewrite S. lra.
  - change (eg_smoke 2) with [ln 2; ln 2; ln 2]. rewrite (TR j p Hp).
    assert (S : seen (wall_photo 2) 1 q = nth j [4000; 2000; 1000]%Z 0%Z) by (destruct j as [|[|[|j]]]; cbn [nth_error] in Hq; [| | |destruct j; discriminate]; apply Some_inj in Hq; subst q; vm_compute; reflexivity).
    rewrite S. destruct j as [|[|[|j]]]; cbn [nth_error] in Hq; [| | |destruct j; discriminate]; cbn [nth pow]; (split; [lra|]); apply close_bounds; lra.
Qed.

Example C104_example : forall nnls lambda cpus, nnls_contract nnls -> 0 <= lambda ->
  let st1 := exec_all [Step1 (wall_env []); NewProcess] (fun _ => None, None) in
  let s2 := fst (exec (Step2 (wall_env [[1; 0]%Z])) st1) in
  exists t arrays x1 x2,
    create_table isort None wall_files None 1 2 0 = Ok t /\ load_indices 1 None s2 = Ok arrays /\
    analyse_array nnls lambda 0 3 3 eg_cam eg_coords (nth_error arrays 0) t 0 "sum_col_val" None 1 cpus [1; 0]%nat = Ok [x1; x2] /\
    sq_dist x1 [0; 0; 0] <= 1 / 100000 /\ sq_dist x2 [ln 2; ln 2; ln 2] <= 1 / 100000.
Proof.
  intros nnls lambda cpus Hnnls Hlam st1 s2.
  assert (L2 : 0 < ln 2) by (rewrite <- ln_1; apply ln_increasing; lra).
  assert (Bound : 4 * INR 3 * (ln (1 - relative_error 0) * ln (1 - relative_error 0)) / (1 / 8) <= 1 / 100000).
  { assert (E : relative_error 0 = 2 / 19999) by (unfold relative_error, table_error; field). rewrite E.
    assert (X : ln (1 - 2 / 19999) = - ln (19999 / 19997)) by (rewrite <- ln_Rinv by lra; f_equal; field).
    assert (Y : 0 <= ln (19999 / 19997) <= 2 / 19997).
    { split; [rewrite <- ln_1; left; apply ln_increasing; lra|]. pose proof (exp_ineq1 (2 / 19997) ltac:(lra)) as Q.
      rewrite <- (ln_exp (2 / 19997)). left. apply ln_increasing; lra. }
    rewrite X. set (y := ln (19999 / 19997)) in *. replace (- y * - y) with (y * y) by ring.
    assert (Z : y * y <= 2 / 19997 * (2 / 19997)) by (apply Rmult_le_compat; lra). cbn [INR]. lra. }
  assert (Nn : forall a b c, (0 <= a)%Z -> (0 <= b)%Z -> (0 <= c)%Z -> nonneg_image (wall a b c)).
  { intros a b c Ha Hb Hc y x _. cbn [wall Step1_Model.px]. destruct (y =? 2)%Z; [|lia]. destruct (x =? 2)%Z; [lia|]. destruct (x =? 5)%Z; [lia|]. destruct (x =? 8)%Z; lia. }
  assert (Ha : fst st1 KAreas = Some (Rows [(0, (2, 8)); (1, (2, 2)); (2, (2, 5))]%Z)) by (clear; vm_compute; reflexivity).
  assert (He : forall rows, fst st1 KAreas = Some (Rows rows) -> edges_entered rows wall_lamps [[1; 0]%Z]).
  { intros rows H. rewrite Ha in H. apply Some_inj in H. injection H as <-. apply Forall2_cons; [|apply Forall2_nil].
    exists 1%Z, 0%Z, (0, 0)%Z. split; [reflexivity|]. split; [cbn; tauto|]. split; [cbn; tauto|discriminate]. }
  assert (Hm : mml_ok scan) by apply scan_ok.
  assert (Hne : nonempty_image (wall 8000 7900 8100)) by (split; reflexivity).
  assert (Hnn : nonneg_image (wall 8000 7900 8100)) by (apply Nn; lia).
  assert (Hp : percentile (pixels (wall 8000 7900 8100)) 90 = Ok (0 # 100)) by (clear; vm_compute; reflexivity).
  assert (Two : Forall (fun A : list loc => (2 <= List.length A)%nat) wall_lamps) by (apply Forall_cons; [cbn; lia|apply Forall_nil]).
  pose proof (C102_extraction (wall_env []) (wall_env [[1; 0]%Z]) (fun _ => None, None) (wall 8000 7900 8100) (0 # 100) wall_lamps [] Hm eq_refl Hne Hnn ltac:(cbn; lia) Hp wall_spots
    ltac:(cbn; lia) (fun _ => conj eq_refl eq_refl) ltac:(discriminate) Two wall_straight eq_refl eq_refl He) as T. cbv zeta in T. destruct T as (_ & _ & X1 & X2 & _).
  fold st1 in X1, X2. fold s2 in X1, X2.
  assert (Gen : forall i, generate_analysis_data None (wall_photo i) 1 (concat (Extract_Props.blocks 0 wall_lamps)) [[2; 1; 0]%Z] 0 = Ok (wall_recs i)).
  { intros i. unfold wall_recs. unfold wall_photo. clear. destruct (i =? 1)%Z; vm_compute; reflexivity. }
  destruct (C104_from_the_photographs_to_the_smoke (wall_env []) (wall_env [[1; 0]%Z]) (fun _ => None, None) (wall 8000 7900 8100) (0 # 100) wall_lamps []
    wall_photo wall_files wall_recs isort None None 1 2 0 0 [(2, 2); (2, 5); (2, 8)]%Z [eg_coords] eg_coords None 1 0 3 3 eg_cam nnls lambda (1 / 8) 0 eg_smoke (fun _ => 8000) cpus [1; 0]%nat)
    as (t & arrays & xs & T1 & T2 & T3 & T4 & T5).
  - exact Hm.
  - reflexivity.
  - exact Hne.
  - apply Nn; lia.
  - cbn. lia.
  - exact Hp.
  - exact wall_spots.
  - cbn. lia.
  - intros rows. split; reflexivity.
  - exact Two.
  - exact wall_straight.
  - reflexivity.
  - reflexivity.
  - exact He.
  - change (1 <= 2)%Z. lia.
  - intros i _. unfold wall_photo. destruct (i =? 1)%Z; (split; [reflexivity|]); (split; [reflexivity|]); apply Nn; lia.
  - intros i areas arrays _ La Li. fold st1 in La, Li. fold s2 in La, Li. cbv zeta in La, Li. rewrite X1 in La. apply Ok_inj in La. subst areas.
    rewrite X2 in Li. apply Ok_inj in Li. subst arrays. split; [exact (Gen i)|]. split; [|exact I]. do 4 eexists. reflexivity.
  - exact isort_sorts.
  - reflexivity.
  - reflexivity.
  - reflexivity.
  - lia.
  - lra.
  - unfold eg_coords. repeat (constructor; [unfold in_view, within, eg_cam; cbn [pz]; split; [lra|split; [lra|intros C; exfalso; lra]]|]). constructor.
  - lra.
  - exact wall_separated.
  - intros i Hi. unfold eg_smoke. destruct (i =? 1)%Z.
    + split; [reflexivity|]. split; [apply zeros_nonneg|]. exists 0, 0. cbn [List.length repeat seq map]. repeat f_equal; lra.
    + split; [reflexivity|]. split; [unfold nonneg; repeat (constructor; [lra|]); constructor|]. exists (ln 2), 0. cbn [List.length seq map]. repeat f_equal; lra.
  - intros i Hi Hr. cbn [is_reference] in Hr. assert (i = 1)%Z by (change (1 <= i <= 2)%Z in Hi; lia). subst i. reflexivity.
  - exists 1%Z. split; [change (1 <= 1 <= 2)%Z; lia|]. cbn. lia.
  - lra.
  - unfold table_error. lra.
  - exact wall_seen.
  - exact Hlam.
  - exact Hnnls.
  - apply perm_swap.
  - fold st1 in T2. fold s2 in T2. change (Z.to_nat (number_of_images None 1 2 0)) with 2%nat in T4.
    destruct xs as [|x1 [|x2 [|x3 xs]]]; try discriminate T4. exists t, arrays, x1, x2. split; [exact T1|]. split; [exact T2|]. split; [exact T3|]. split.
    + eapply Rle_trans; [apply (T5 1%Z x1); [change (1 <= 1 <= 2)%Z; lia|reflexivity]|exact Bound].
    + eapply Rle_trans; [apply (T5 2%Z x2); [change (1 <= 2 <= 2)%Z; lia|reflexivity]|exact Bound].
Qed.
