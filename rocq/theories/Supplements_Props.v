(** Supplements to earlier properties: C05, C27, C31, C68, C71 *)
From Coq Require Import ZArith QArith Qround Lia Lqa Bool Ascii String List.
From Verif Require Import Base Step1_Model Step1_Spec Step1_Proofs Step1_Props Step2_Model Raw_Model Raw_Props Images_Model Images_Spec Images_Props
  Table_Model Table_Spec Table_Proofs Table_Props Correction_Model Correction_Props Sim_Model.
Import ListNotations.
Local Open Scope string_scope.
Local Open Scope Z_scope.

(** ** C05: camera data have a threshold of at least 0 *)

Theorem C05_threshold_is_not_negative : forall mml img r q max_n rows thr, nonneg_image img ->
  find_search_areas mml img r q max_n = Ok (rows, thr) -> (0 <= thr)%Q.
Proof.
  intros mml img r q max_n rows thr Hn H. apply find_inv in H. destruct H as (_ & Hp & _).
  destruct (percentile_range _ _ _ Hp) as [(v & Hv & A) _]. apply in_pixels in Hv. destruct Hv as (y & x & I1 & <-).
  apply Qle_trans with (2 := A). change 0%Q with (inject_Z 0). rewrite <- Zle_Qle. exact (Hn y x I1).
Qed.
Print Assumptions C05_threshold_is_not_negative.

Example C05_threshold_is_not_negative_ex : nonneg_image demo_img /\
  exists rows thr, find_search_areas scan demo_img 1 90 5 = Ok (rows, thr) /\ (List.length rows >= 2)%nat.
Proof.
  split.
  - intros y x [Hy Hx]. cbn in Hy, Hx.
    assert (Y : y = 0 \/ y = 1 \/ y = 2 \/ y = 3 \/ y = 4 \/ y = 5) by lia.
    assert (X : x = 0 \/ x = 1 \/ x = 2 \/ x = 3 \/ x = 4 \/ x = 5) by lia.
    destruct Y as [->|[->|[->|[->|[->| ->]]]]]; destruct X as [->|[->|[->|[->|[->| ->]]]]]; vm_compute; discriminate.
  - do 2 eexists. split; [vm_compute; reflexivity|]. vm_compute. lia.
Qed.

(** ** C71: no LED is found in a PNG image *)

(** In an image without any contrast nothing is above the threshold. *)
Theorem C71_no_led_in_a_flat_image : forall mml, mml_ok mml -> forall img v r q max_n rows thr, 0 <= v ->
  (forall y x, in_image img y x -> px img y x = v) ->
  find_search_areas mml img r q max_n = Ok (rows, thr) -> rows = [].
Proof.
  intros mml Hm img v r q max_n rows thr Hv Hf H. destruct rows as [|[[i y] x] rows]; [reflexivity|].
  assert (Hn : nonneg_image img) by (intros y' x' Hin; rewrite (Hf y' x' Hin); exact Hv).
  destruct (C02_reported_pixels_are_bright mml Hm img r q max_n _ thr Hn H i y x (or_introl eq_refl)) as [Hin Hb].
  destruct (C05_threshold_between_min_and_max mml img r q max_n _ thr H) as [(y' & x' & Hin' & Hb') _].
  unfold brighter in Hb. rewrite (Hf _ _ Hin) in Hb. rewrite (Hf _ _ Hin') in Hb'.
  exfalso. apply (Qlt_not_le _ _ Hb). exact Hb'.
Qed.
Print Assumptions C71_no_led_in_a_flat_image.

(** So every PNG file, whatever its colours, has no LED. *)
Theorem C71_no_led_in_a_png_image : forall mml, mml_ok mml -> forall img (rgb : Z -> Z -> Q * Q * Q) r q max_n rows thr,
  (forall y x, in_image img y x ->
     let '(red, green, blue) := rgb y x in
     png_value red /\ png_value green /\ png_value blue /\ px img y x = gray red green blue) ->
  find_search_areas mml img r q max_n = Ok (rows, thr) -> rows = [].
Proof.
  intros mml Hm img rgb r q max_n rows thr Hp H.
  apply (C71_no_led_in_a_flat_image mml Hm img 0 r q max_n rows thr); [lia| |exact H].
  intros y x Hin. specialize (Hp y x Hin). destruct (rgb y x) as [[red green] blue]. destruct Hp as (A & B & C & ->).
  apply C71_png_is_black; assumption.
Qed.
Print Assumptions C71_no_led_in_a_png_image.

Example C71_no_led_in_a_png_image_ex : mml_ok scan /\ exists thr,
  find_search_areas scan (img_of_rows [[gray 1 1 1; gray 0 1 (1#2)]; [gray 0 0 0; gray (1#3) 1 0]]) 1 99 5 = Ok ([], thr).
Proof. split; [exact scan_ok|]. eexists. vm_compute. reflexivity. Qed.

(** ** C27: all overflow numbers *)

(** Ids wrapping around at 9999: the overflow numbers for which as many images are
    loaded as analysed are the divisors of 9999 above 9999 - (first - last). *)
Theorem C27_right_overflow_numbers : forall c,
  c_first_exp c = c_first_ana c -> c_last_ana c < c_first_ana c <= 9999 -> 0 <= c_last_ana c -> c_skip c = 0 ->
  exists a, analysed c = Some a /\
    forall m, 0 < m ->
      (number_of_images (Some m) (c_first_ana c) (c_last_ana c) (c_skip c) = Z.of_nat a <->
       (m | 9999) /\ 9999 < m + (c_first_ana c - c_last_ana c)).
Proof.
  intros c He Hl H0 Hs. destruct (C27_wrapping_ids_need_overflow_9999 c He Hl H0 Hs) as (a & Ha & Hn).
  exists a. split; [exact Ha|]. specialize (Hn 9999 ltac:(lia)). rewrite Hs in *. intros m Hm.
  unfold number_of_images in *. rewrite Z.div_1_r in *. set (d := c_first_ana c - c_last_ana c) in *.
  replace (9999 + c_last_ana c - c_first_ana c) with (9999 - d) in Hn by lia. rewrite Z.mod_small in Hn by lia.
  replace (m + c_last_ana c - c_first_ana c) with (- d + 1 * m) by lia. rewrite Z.mod_add by lia.
  pose proof (Z.mod_pos_bound (- d) m Hm) as B. pose proof (Z.div_mod (- d) m ltac:(lia)) as D. split.
  - intros E. split; [|lia]. exists (- (- d / m)). lia.
  - intros [[k Hk] Hb]. assert (E : (- d) mod m = 9999 - d); [|lia].
    replace (- d) with (9999 - d + (- k) * m) by lia. rewrite Z.mod_add by lia. apply Z.mod_small. lia.
Qed.
Print Assumptions C27_right_overflow_numbers.

(** With an overflow number that is at least the first id, only 9999 is right; 3333
    is also right for the images 9000 to 1. *)
Theorem C27_overflow_must_be_9999 : forall c m,
  c_first_exp c = c_first_ana c -> c_last_ana c < c_first_ana c <= 9999 -> 0 <= c_last_ana c -> c_skip c = 0 ->
  c_first_ana c <= m ->
  forall a, analysed c = Some a ->
  (number_of_images (Some m) (c_first_ana c) (c_last_ana c) (c_skip c) = Z.of_nat a <-> m = 9999).
Proof.
  intros c m He Hl H0 Hs Hm a Ha. destruct (C27_wrapping_ids_need_overflow_9999 c He Hl H0 Hs) as (a' & Ha' & Hn).
  assert (a' = a) by congruence. subst a'. specialize (Hn 9999 ltac:(lia)). rewrite Hs in *.
  unfold number_of_images in *. rewrite Z.div_1_r in *. rewrite Z.mod_small in * by lia. lia.
Qed.
Print Assumptions C27_overflow_must_be_9999.

Example C27_right_overflow_numbers_ex :
  analysed (ex_config 9000 1 0) = Some 1001%nat /\
  map (fun m => number_of_images (Some m) 9000 1 0) [9999; 3333; 9998; 10000; 1111] = [1001; 1001; 1000; 1002; 1001].
Proof. split; vm_compute; reflexivity. Qed.

(** Times and coefficients of different numbers cannot be stacked. *)
Theorem C27_stacking_needs_equal_numbers : forall (A B : Type) (times : list A) (coefficients : list B),
  (exists rows, column_stack times coefficients = Ok rows /\ List.length rows = List.length times) <->
  List.length times = List.length coefficients.
Proof.
  intros A B ts cs. unfold column_stack. destruct (Nat.eqb_spec (List.length ts) (List.length cs)) as [E|E].
  - split; [auto|]. intros _. eexists. split; [reflexivity|]. rewrite combine_length. lia.
  - split; [|contradiction]. intros (rows & H & _). discriminate.
Qed.
Print Assumptions C27_stacking_needs_equal_numbers.

(** ** C31: every list of channels *)

Lemma np_index_mod : forall A (l : list A) c d, - Z.of_nat (List.length l) <= c < Z.of_nat (List.length l) ->
  np_index l c = Ok (nth (Z.to_nat (c mod Z.of_nat (List.length l))) l d).
Proof.
  intros A l c d H. unfold np_index. set (n := Z.of_nat (List.length l)) in *.
  assert (E : (if c <? 0 then c + n else c) = c mod n).
  { destruct (Z.ltb_spec c 0).
    - replace c with (c + n + (-1) * n) at 2 by lia. rewrite Z.mod_add by lia. symmetry. apply Z.mod_small. lia.
    - symmetry. apply Z.mod_small. lia. }
  rewrite E. pose proof (Z.mod_pos_bound c n ltac:(lia)) as B.
  replace (c mod n <? 0) with false by lia. replace (n <=? c mod n) with false by lia. cbn [orb].
  rewrite (nth_error_nth' l d) by (unfold n in *; lia). reflexivity.
Qed.

Lemma np_index_out : forall A (l : list A) c, c < - Z.of_nat (List.length l) \/ Z.of_nat (List.length l) <= c -> np_index l c = Err IndexError.
Proof.
  intros A l c H. unfold np_index. destruct (Z.ltb_spec c 0).
  - replace (c + Z.of_nat (List.length l) <? 0) with true by lia. reflexivity.
  - replace (Z.of_nat (List.length l) <=? c) with true by lia. rewrite orb_true_r. reflexivity.
Qed.

Definition square (inv : list (list Q)) : Prop := Forall (fun r => List.length r = List.length inv) inv.

Lemma corrected_rows : forall (cast : Q -> Z) inv (raws : list (Z -> Q)) channels, square inv -> List.length channels = List.length inv ->
  mapM (fun raw => res_map (map cast) (mat_vec inv (map raw channels))) raws =
  Ok (map (fun raw => map cast (map (fun r => dot r (map raw channels)) inv)) raws).
Proof.
  intros cast inv raws channels Hs Hl. apply mapM_map_ok. intros raw _. rewrite mat_vec_ok; [reflexivity|].
  rewrite map_length, Hl. exact Hs.
Qed.

Lemma mapM_map : forall A B C (f : B -> res C) (g : A -> B) l, mapM f (map g l) = mapM (fun a => f (g a)) l.
Proof. intros A B C f g l. induction l as [|a l IH]; [reflexivity|]. cbn [map mapM]. rewrite IH. reflexivity. Qed.

(** The column written for channel number c is component c of the solution, counted
    from the end if c is negative - not the component that belongs to the channel. *)
Theorem C31_columns_are_taken_by_channel_number : forall cast inv raws channels,
  square inv -> List.length channels = List.length inv ->
  Forall (fun c => - Z.of_nat (List.length inv) <= c < Z.of_nat (List.length inv)) channels ->
  apply_cc cast (Some inv) raws channels =
  Ok (map (fun c => (c, map (fun raw => cast (exact_value inv (map raw channels) (Z.to_nat (c mod Z.of_nat (List.length inv))))) raws)) channels).
Proof.
  intros cast inv raws channels Hs Hl Hc. unfold apply_cc. rewrite (corrected_rows cast inv raws channels Hs Hl). cbn [bind].
  apply mapM_map_ok. intros c Hin. rewrite Forall_forall in Hc. specialize (Hc c Hin).
  rewrite mapM_map.
  rewrite (mapM_map_ok _ _ _ (fun raw => cast (exact_value inv (map raw channels) (Z.to_nat (c mod Z.of_nat (List.length inv)))))); [reflexivity|].
  intros raw _. rewrite map_map. set (n := List.length inv) in *.
  rewrite (np_index_mod _ _ c (cast (dot [] (map raw channels)))) by (rewrite map_length; exact Hc).
  rewrite map_length. fold n. rewrite (map_nth (fun r => cast (dot r (map raw channels)))). reflexivity.
Qed.
Print Assumptions C31_columns_are_taken_by_channel_number.

Lemma one_error : forall A B (f : A -> res B) e l a, (forall x e', f x = Err e' -> e' = e) -> In a l -> f a = Err e -> mapM f l = Err e.
Proof.
  intros A B f e l a He Hin Ha. destruct (mapM_err _ _ f l) as [e' H]; [exists a; split; [exact Hin|]; exists e; exact Ha|].
  rewrite H. f_equal. clear Hin Ha. revert e' H. induction l as [|x l IH]; intros e' H; [discriminate|]. cbn [mapM] in H.
  destruct (f x) as [b|e1] eqn:E; cbn [bind] in H.
  - destruct (mapM f l) as [bs|e2]; cbn [bind] in H; [discriminate|]. injection H as <-. exact (IH e2 eq_refl).
  - injection H as <-. exact (He x e1 E).
Qed.

(** A channel number that is no index of the matrix ends the correction. *)
Theorem C31_channel_outside_the_matrix_fails : forall cast inv raw raws channels c,
  square inv -> List.length channels = List.length inv -> In c channels ->
  c < - Z.of_nat (List.length inv) \/ Z.of_nat (List.length inv) <= c ->
  apply_cc cast (Some inv) (raw :: raws) channels = Err IndexError.
Proof.
  intros cast inv raw raws channels c Hs Hl Hin Hc. unfold apply_cc. rewrite (corrected_rows cast inv _ channels Hs Hl). cbn [bind].
  set (cc := map (fun raw => map cast (map (fun r => dot r (map raw channels)) inv)) (raw :: raws)).
  set (col := fun ch => res_map (fun col => (ch, col)) (mapM (fun row => np_index row ch) cc)).
  assert (W : forall row, In row cc -> List.length row = List.length inv).
  { intros row Hr. apply in_map_iff in Hr. destruct Hr as (x & <- & _). rewrite !map_length. reflexivity. }
  assert (IE : forall ch e, col ch = Err e -> e = IndexError).
  { intros ch e. unfold col. generalize cc. intros l. induction l as [|row l IH]; [discriminate|]. cbn [mapM].
    destruct (np_index row ch) as [v|e'] eqn:E.
    - cbn [bind]. destruct (mapM (fun row => np_index row ch) l); cbn [bind res_map] in *; [discriminate|]. exact IH.
    - cbn [bind res_map]. intros X. injection X as <-. unfold np_index in E.
      destruct (_ || _); [congruence|]. destruct (nth_error _ _); congruence. }
  assert (F : col c = Err IndexError).
  { unfold col. unfold cc at 1. cbn [map mapM]. rewrite np_index_out; [reflexivity|]. rewrite !map_length. exact Hc. }
  change (mapM col channels = Err IndexError). exact (one_error _ _ col IndexError channels c IE Hin F).
Qed.
Print Assumptions C31_channel_outside_the_matrix_fails.

(** For the three channels of the camera: every value stored for a channel is the
    one solved for it - for every invertible matrix and all intensities - exactly
    if the channels are given as 0, 1, 2. *)
Theorem C31_right_iff_channels_in_order : forall cast channels, int16_cast cast ->
  List.length channels = 3%nat -> Forall (fun c => 0 <= c < 3) channels ->
  ((forall m inv raws columns, List.length m = 3%nat -> inverse_of m inv ->
      apply_cc cast (Some inv) raws channels = Ok columns ->
      forall k c column, nth_error columns k = Some (c, column) ->
        column = map (fun raw => cast (exact_value inv (map raw channels) k)) raws)
   <-> channels = [0; 1; 2]).
Proof.
  intros cast channels (_ & Hc) Hl Hr. split.
  - intros H.
    assert (R : Forall (fun c => - Z.of_nat 3 <= c < Z.of_nat 3) channels) by (eapply Forall_impl; [|exact Hr]; cbv beta; lia).
    set (m := [[1; 0; 0]; [0; 1 # 2; 0]; [0; 0; 1 # 3]]%Q). set (inv := [[1; 0; 0]; [0; 2; 0]; [0; 0; 3]]%Q).
    assert (I : inverse_of m inv).
    { split; [reflexivity|]. split; [repeat constructor|]. split; [repeat constructor|]. intros v Hv.
      destruct v as [|a [|b [|d [|e v]]]]; try discriminate Hv. cbn [map dot m inv]. repeat constructor; ring. }
    specialize (H m inv [fun _ => 1%Q]).
    assert (Sq : square inv) by (unfold square; repeat constructor).
    pose proof (C31_columns_are_taken_by_channel_number cast inv [fun _ => 1%Q] channels Sq Hl R) as E.
    destruct channels as [|a [|b [|d [|e l]]]]; try discriminate Hl.
    specialize (H _ eq_refl I E).
    inversion Hr as [|? ? A Hr1]; subst. inversion Hr1 as [|? ? B Hr2]; subst. inversion Hr2 as [|? ? D _]; subst.
    assert (V : forall z, -32768 <= z <= 32767 -> forall x, (x == inject_Z z)%Q -> cast x = z).
    { intros z Hz x Hx. rewrite Hc; rewrite (Qtrunc_int _ _ Hx); [reflexivity|exact Hz]. }
    assert (X : forall k, (k < 3)%nat -> cast (exact_value inv [1; 1; 1]%Q k) = Z.of_nat k + 1).
    { intros k Hk. apply V; [lia|]. destruct k as [|[|[|k]]]; [vm_compute; reflexivity..|lia]. }
    assert (K : forall k c, nth_error [a; b; d] k = Some c -> (k < 3)%nat -> 0 <= c < 3 -> c = Z.of_nat k).
    { intros k c Hk Hk3 Hc3. specialize (H k c _ ltac:(rewrite nth_error_map, Hk; reflexivity)). cbn [map] in H.
      assert (H' := f_equal (fun l => hd 0 l) H). cbn [hd] in H'. clear H. rename H' into H. change (Z.of_nat (List.length inv)) with 3 in H. rewrite Z.mod_small in H by lia.
      rewrite (X k Hk3) in H.
      rewrite X in H by lia. lia. }
    rewrite (K 0%nat a eq_refl ltac:(lia) A), (K 1%nat b eq_refl ltac:(lia) B), (K 2%nat d eq_refl ltac:(lia) D). reflexivity.
  - intros -> m inv raws columns Hm (I1 & I2 & _) E k c column Hk. rewrite Hm in *.
    rewrite C31_columns_are_taken_by_channel_number in E; [| |exact (eq_sym I1)|].
    + apply Ok_inj in E. subst columns. rewrite I1 in Hk. cbn [map] in Hk.
      destruct k as [|[|[|k]]]; cbn [nth_error] in Hk; try (injection Hk as <- <-; reflexivity). destruct k; discriminate Hk.
    + unfold square. rewrite I1. exact I2.
    + rewrite I1. repeat constructor; lia.
Qed.
Print Assumptions C31_right_iff_channels_in_order.

Example C31_channels_ex : int16_cast wrap16 /\ square ex_inv /\
  apply_cc wrap16 (Some ex_inv) [ex_raw] [2; 1; 0] = Ok [(2, [600]); (1, [100]); (0, [-25])] /\
  apply_cc wrap16 (Some ex_inv) [ex_raw] [0; 1; 3] = Err IndexError.
Proof.
  split; [exact wrap16_ok|]. split; [unfold square; repeat constructor|]. split; vm_compute; reflexivity.
Qed.

(** ** C68: the left border *)

Theorem C68_led_near_the_left_border_has_empty_lines :
  forall (A : Type) path cfg rows (image : Q -> Z -> res (list (list A))) led channel time r img id x y,
  path <> "" -> 0 <= led -> nth_error rows (Z.to_nat led) = Some (id, x, y) ->
  image time channel = Ok img -> 0 <= y < r -> Forall (fun line => 2 * r <= Z.of_nat (List.length line)) img ->
  exists lines, get_pixel_values_of_led path cfg rows image led channel time (Some r) = Ok (Some lines) /\
    Forall (fun line => line = []) lines.
Proof.
  intros A path cfg rows image led channel time r img id x y Hp Hl Hrow Himg Y Hw.
  unfold get_pixel_values_of_led.
  destruct (path =? "")%string eqn:E; [apply String.eqb_eq in E; contradiction|].
  assert (Hpos : pixel_position rows led = Ok (x, y)).
  { unfold pixel_position, position in *. replace (led <? 0) with false by lia. rewrite Hrow. reflexivity. }
  destruct r as [|r|r]; [lia| |lia]. rewrite Hpos. cbn [bind]. rewrite Himg. cbn [bind fst snd].
  set (k := Zpos r) in *. eexists. split; [reflexivity|]. apply Forall_forall. intros line Hin.
  apply in_rev in Hin. apply in_map_iff in Hin. destruct Hin as (l & <- & Hin).
  assert (Hin' : In l img).
  { unfold slice in Hin. assert (F : forall n (u : list (list A)), In l (firstn n u) -> In l u).
    { intros n u. rewrite <- (firstn_skipn n u) at 2. intros X. apply in_or_app. left. exact X. }
    assert (G : forall n (u : list (list A)), In l (skipn n u) -> In l u).
    { intros n u X. rewrite <- (firstn_skipn n u). apply in_or_app. right. exact X. }
    exact (G _ _ (F _ _ Hin)). }
  rewrite Forall_forall in Hw. specialize (Hw l Hin').
  unfold slice, adjust_bound. replace (y - k <? 0) with true by lia. replace (y + k <? 0) with false by lia.
  rewrite Z.max_r by lia. rewrite Z.min_l by lia.
  replace (Z.to_nat (y + k - (Z.of_nat (List.length l) + (y - k)))) with 0%nat by lia. reflexivity.
Qed.
Print Assumptions C68_led_near_the_left_border_has_empty_lines.

Example C68_led_near_the_left_border_ex :
  get_pixel_values_of_led "./" "1" [(0, 3, 1)] (fun _ _ => Ok (repeat [1; 2; 3; 4; 5; 6] 6)) 0 0 0%Q (Some 2) = Ok (Some [[]; []; []; []]).
Proof. vm_compute. reflexivity. Qed.
