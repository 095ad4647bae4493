(** C26-C30: the binary table of a channel. *)
From Coq Require Import ZArith QArith Qabs Lia Lqa Bool Ascii String List Permutation Sorted.
From Verif Require Import Base Str Images_Model Images_Spec Images_Props Step3_Model Step2_Proofs Format_Model Format_Proofs Format_Props Table_Model Table_Spec Table_Proofs.
Import ListNotations.
Local Open Scope string_scope.
Local Open Scope Z_scope.

(** Building the table from files whose rows satisfy [R]. *)
Lemma create_table_ok : forall srt coord files overflow first last skip (recs : Z -> list (led_data fit_data))
    (R : led_data fit_data -> list Q -> Prop) w rest,
  sorts srt -> 1 <= number_of_images overflow first last skip ->
  (forall i, 1 <= i <= number_of_images overflow first last skip ->
     exists lines m, files i = Some lines /\ read_matrix lines = Ok m /\ Forall2 R (recs i) m /\ coords_usable coord (recs i)) ->
  (forall d r, R d r -> (led_of r == inject_Z (d_id d))%Q) ->
  (forall d r, R d r -> List.length r = w /\ exists a b s m x l, r = a :: b :: s :: m :: x :: l) ->
  column_names w = (fast_columns ++ rest)%list -> (w + 3)%nat = List.length (column_names w) ->
  exists parts, create_table srt coord files overflow first last skip = Ok (Frame (column_names w) (concat parts)) /\
    Forall2 (fun i part => rows_of_image (fun d x => exists r w h, R d r /\
                x = conv (Some (inject_Z i) :: map Some r ++ [w; h])%list /\ wh_of coord (inject_Z (d_id d)) w h) (recs i) part)
            (zrange 1 (number_of_images overflow first last skip + 1)) parts.
Proof.
  intros srt coord files overflow first last skip recs R w rest Hs Hn Hf Hid Hsh Hcol Hw.
  set (n := number_of_images overflow first last skip) in *.
  unfold create_table. fold n. destruct (Hf 1 ltac:(lia)) as (l1 & m1 & F1 & M1 & R1 & U1). rewrite F1, M1. cbn [bind].
  assert (W : List.length (hd [] m1) = w).
  { unfold read_matrix in M1. destruct (read_floats l1) as [mm|]; [|discriminate]. cbn [bind] in M1.
    destruct mm as [|x [|y z]]; try discriminate. apply Ok_inj in M1. subst m1. inversion R1 as [|? ? ? ? A B]; subst. cbn [hd].
    apply (Hsh _ _ A). }
  rewrite W. cbv zeta.
  destruct (mapM_all Z _ (load_image srt coord files (column_names w))
    (fun i part => rows_of_image (fun d x => exists r w h, R d r /\
                x = (Some (inject_Z i) :: map Some r ++ [w; h])%list /\ wh_of coord (inject_Z (d_id d)) w h) (recs i) part)
    (zrange 1 (n + 1))) as (frs & E & F).
  { intros i Hi. apply in_zrange in Hi. destruct (Hf i ltac:(lia)) as (li & mi & Fi & Mi & Ri & Ui).
    eapply load_image_ok; try eassumption. intros d r Hr. destruct (Hsh d r Hr) as (L & _). rewrite L. exact Hw. }
  rewrite E. cbn [bind].
  assert (Ne : frs <> []).
  { intros C. subst frs. rewrite (zrange_cons 1 (n + 1)) in F by lia. inversion F. }
  destruct frs as [|fr0 frs0] eqn:Efr; [congruence|]. rewrite <- Efr in F |- *. clear Ne.
  match goal with |- context [bind (column_to_int "img_id" ?f) ?k] => change (bind (column_to_int "img_id" f) k) with (convert_all f) end.
  rewrite Hcol. rewrite convert_all_ok.
  - exists (map (map conv) frs). split; [rewrite concat_map; reflexivity|].
    clear - F. induction F as [|i part is parts (ds & D1 & D2 & D3) F IH]; [constructor|]. cbn [map]. constructor; [|exact IH].
    exists ds. split; [exact D1|]. split; [exact D2|]. clear - D3.
    induction D3 as [|d x ds part (r & w & h & H1 & -> & H3) D IH]; [constructor|]. cbn [map]. constructor; [|exact IH].
    exists r, w, h. split; [exact H1|]. split; [reflexivity|exact H3].
  - apply Forall_forall. intros x Hx. apply in_concat in Hx. destruct Hx as (part & Hp & Hx).
    clear - F Hp Hx Hsh. induction F as [|i part' is parts (ds & D1 & D2 & D3) F IH]; [destruct Hp|].
    destruct Hp as [->|Hp]; [|apply IH; exact Hp]. clear - D3 Hx Hsh.
    induction D3 as [|d y ds part (r & w' & h & H1 & -> & H3) D IH]; [destruct Hx|]. destruct Hx as [<-|Hx]; [|apply IH; exact Hx].
    destruct (Hsh d r H1) as (_ & a & b & s & m & xx & l & ->). cbn [map app]. do 7 eexists. reflexivity.
Qed.

Lemma rows_of_image_imp : forall (P Q : led_data fit_data -> list cell -> Prop) ds part,
  (forall d x, In d ds -> P d x -> Q d x) -> rows_of_image P ds part -> rows_of_image Q ds part.
Proof.
  intros P Q ds part H (ds' & D1 & D2 & D3). exists ds'. split; [exact D1|]. split; [exact D2|].
  assert (G : forall d, In d ds' -> In d ds) by (intros d; apply Permutation_in; exact D1).
  clear D1 D2. induction D3 as [|d x ds' part A B IH]; [constructor|]. constructor.
  - apply H; [apply G; left; reflexivity|exact A].
  - apply IH. intros y Hy. apply G. right. exact Hy.
Qed.

Lemma is_int_trunc : forall q z, (q == inject_Z z)%Q -> is_int z (inject_Z (Qtrunc q)).
Proof. intros q z H. unfold is_int. rewrite (Qtrunc_int _ _ H). reflexivity. Qed.

(** The sum that ends up in the table. *)
Lemma trunc_sum : forall n s, 0 <= n -> close5 (inject_Z n) s -> (0 <= n <= 99999 -> (s == inject_Z n)%Q) ->
  (0 <= n -> exists z, (s == inject_Z z)%Q) ->
  exists z, is_int z (inject_Z (Qtrunc s)) /\ Z.abs (z - n) * 20000 <= n /\ (n <= 99999 -> z = n).
Proof.
  intros n s Hn C E W. destruct (W Hn) as (z & Hz). exists z. split; [apply is_int_trunc; exact Hz|]. split.
  - unfold close5 in C. rewrite Hz in C. rewrite (Qabs_pos (inject_Z n)) in C by (change 0%Q with (inject_Z 0); rewrite <- Zle_Qle; exact Hn).
    assert (A : (Qabs (inject_Z z - inject_Z n) == inject_Z (Z.abs (z - n)))%Q).
    { replace (z - n) with (z + - n) by lia. unfold Qminus. rewrite <- inject_Z_opp, <- inject_Z_plus. reflexivity. }
    rewrite A in C. change 20000%Q with (inject_Z 20000) in C. rewrite <- inject_Z_mult in C. rewrite <- Zle_Qle in C. exact C.
  - intros L. assert (X : (inject_Z z == inject_Z n)%Q) by (rewrite <- Hz; apply E; lia). rewrite inject_Z_injective in X. exact X.
Qed.

Lemma fast_file_matrix : forall lines ds, fast_file lines ds ->
  exists m, read_matrix lines = Ok m /\ Forall2 (fun d r => reads_back d r) ds m.
Proof.
  intros lines ds ((b & img & ch & t & ->) & F & L).
  destruct (C25_result_file_read_back b img ch t ds) as (m & M1 & M2).
  { eapply Forall_impl; [|exact F]. intros d H. apply H. }
  exists m. split; [|exact M2]. unfold read_matrix. rewrite M1. cbn [bind].
  apply Forall2_len in M2. destruct m as [|x [|y z]]; simpl in M2; try lia. reflexivity.
Qed.

Definition fast_table_columns : list string := (fast_columns ++ ["width"; "height"])%list.

Lemma fast_table : forall srt coord files overflow first last skip recs,
  sorts srt -> 1 <= number_of_images overflow first last skip ->
  (forall i, 1 <= i <= number_of_images overflow first last skip ->
     exists lines, files i = Some lines /\ fast_file lines (recs i) /\ coords_usable coord (recs i)) ->
  exists parts, create_table srt coord files overflow first last skip = Ok (Frame fast_table_columns (concat parts)) /\
    Forall2 (fun i part => rows_of_image (fun d row => row_of_record fast_table_columns i d row /\
                                                       row_coordinates coord fast_table_columns d row) (recs i) part)
            (zrange 1 (number_of_images overflow first last skip + 1)) parts.
Proof.
  intros srt coord files overflow first last skip recs Hs Hn Hf.
  destruct (create_table_ok srt coord files overflow first last skip recs reads_back 5 ["width"; "height"] Hs Hn) as (parts & E & F).
  - intros i Hi. destruct (Hf i Hi) as (lines & L1 & L2 & L3). destruct (fast_file_matrix _ _ L2) as (m & M1 & M2).
    exists lines, m. repeat (split; [assumption|]). assumption.
  - intros d r (i & a & s & mn & mx & -> & I1 & _). exact I1.
  - intros d r (i & a & s & mn & mx & -> & _). split; [reflexivity|]. do 6 eexists. reflexivity.
  - reflexivity.
  - reflexivity.
  - exists parts. split; [exact E|].
    assert (G : forall i, In i (zrange 1 (number_of_images overflow first last skip + 1)) -> Forall (fun d => 0 <= d_sum d) (recs i)).
    { intros i Hi. apply in_zrange in Hi. destruct (Hf i ltac:(lia)) as (lines & _ & (_ & Fd & _) & _).
      eapply Forall_impl; [|exact Fd]. intros d (_ & H). exact H. }
    clear E Hf. induction F as [|i part is parts Hi F IH]; constructor.
    + eapply rows_of_image_imp; [|exact Hi]. intros d x Hd (r & w & h & (i0 & a & s & mn & mx & -> & I1 & I2 & I3 & I4 & I5 & I6 & I7) & -> & W).
      pose proof (G i (or_introl eq_refl)) as Gi. rewrite Forall_forall in Gi. specialize (Gi d Hd). cbn [map app conv]. split.
      * split; [eexists; split; [reflexivity|]; apply is_int_trunc; reflexivity|].
        split; [eexists; split; [reflexivity|]; apply is_int_trunc; exact I1|].
        split; [eexists; split; [reflexivity|]; apply is_int_trunc; exact I2|].
        split; [eexists; split; [reflexivity|]; apply is_int_trunc; exact I3|].
        split; [eexists; split; [reflexivity|]; exact I5|].
        eexists; split; [reflexivity|]. apply trunc_sum; assumption.
      * destruct coord as [co|]; cbn [row_coordinates wh_of] in *.
        -- destruct W as (c & W1 & W2 & -> & ->). exists c. repeat (split; [assumption|]). split; reflexivity.
        -- destruct W as (-> & ->). split; reflexivity.
    + apply IH. intros j Hj. apply G. right. exact Hj.
Qed.

(** ** C28 *)

Theorem C28_table_holds_the_records_sorted_by_led : forall srt coord files overflow first last skip recs,
  sorts srt -> 1 <= number_of_images overflow first last skip ->
  (forall i, 1 <= i <= number_of_images overflow first last skip ->
     exists lines, files i = Some lines /\ fast_file lines (recs i) /\ coords_usable coord (recs i)) ->
  exists f parts, create_table srt coord files overflow first last skip = Ok f /\
    rows f = concat parts /\
    Forall2 (fun i part => rows_of_image (row_of_record (cols f) i) (recs i) part)
            (zrange 1 (number_of_images overflow first last skip + 1)) parts.
Proof.
  intros srt coord files overflow first last skip recs Hs Hn Hf.
  destruct (fast_table _ _ _ _ _ _ _ _ Hs Hn Hf) as (parts & E & F).
  exists (Frame fast_table_columns (concat parts)), parts. split; [exact E|]. split; [reflexivity|]. cbn [cols].
  eapply Forall2_imp; [|exact F]. intros i part H. eapply rows_of_image_imp; [|exact H]. intros d x _ (A & _). exact A.
Qed.
Print Assumptions C28_table_holds_the_records_sorted_by_led.

(** ** C29 *)

Theorem C29_rows_carry_the_coordinates_of_their_led : forall srt co files overflow first last skip recs,
  sorts srt -> 1 <= number_of_images overflow first last skip ->
  (forall i, 1 <= i <= number_of_images overflow first last skip ->
     exists lines, files i = Some lines /\ fast_file lines (recs i) /\ covers co (recs i)) ->
  exists f parts, create_table srt (Some co) files overflow first last skip = Ok f /\ rows f = concat parts /\
    Forall2 (fun i part => Forall (fun row => exists d c, In d (recs i) /\ In c co /\
                holds (cols f) row "led_id" (is_int (d_id d)) /\ (fst c == inject_Z (d_id d))%Q /\
                get (cols f) row "width" = Some (Some (fst (snd c))) /\
                get (cols f) row "height" = Some (Some (snd (snd c)))) part)
            (zrange 1 (number_of_images overflow first last skip + 1)) parts.
Proof.
  intros srt co files overflow first last skip recs Hs Hn Hf.
  destruct (fast_table srt (Some co) _ _ _ _ _ _ Hs Hn Hf) as (parts & E & F).
  exists (Frame fast_table_columns (concat parts)), parts. split; [exact E|]. split; [reflexivity|]. cbn [cols].
  eapply Forall2_imp; [|exact F]. intros i part (ds & D1 & _ & D3).
  assert (G : forall d, In d ds -> In d (recs i)) by (intros d; apply Permutation_in; exact D1). clear D1.
  induction D3 as [|d x ds part ((A1 & A2 & _) & c & C1 & C2 & C3 & C4) D IH]; [constructor|]. constructor.
  - exists d, c. split; [apply G; left; reflexivity|]. repeat (split; [assumption|]). assumption.
  - apply IH. intros y Hy. apply G. right. exact Hy.
Qed.
Print Assumptions C29_rows_carry_the_coordinates_of_their_led.

(** *** A concrete instance: insertion sort, two images, three LEDs. *)
Fixpoint insert_row (r : list Q) (l : list (list Q)) : list (list Q) :=
  match l with
  | [] => [r]
  | x :: l' => if Qle_bool (led_of r) (led_of x) then r :: l else x :: insert_row r l'
  end.
Definition isort (m : list (list Q)) : list (list Q) := fold_right insert_row [] m.

Lemma isort_sorts : sorts isort.
Proof.
  intros m. induction m as [|r m (P & S)]; [split; constructor|]. cbn [isort fold_right]. fold (isort m).
  assert (Pi : forall l, Permutation (insert_row r l) (r :: l)).
  { induction l as [|x l IH]; [apply Permutation_refl|]. cbn [insert_row]. destruct (Qle_bool _ _); [apply Permutation_refl|].
    eapply Permutation_trans; [apply perm_skip, IH|apply perm_swap]. }
  split; [eapply Permutation_trans; [apply Pi|apply perm_skip, P]|].
  clear P. induction S as [|x l S IH F]; [repeat constructor|]. cbn [insert_row]. destruct (Qle_bool (led_of r) (led_of x)) eqn:E.
  - apply Qle_bool_iff in E. constructor; [constructor; assumption|]. constructor; [exact E|].
    eapply Forall_impl; [|exact F]. intros y Hy. cbv beta in *. lra.
  - assert (E' : (led_of x <= led_of r)%Q) by (assert (~ (led_of r <= led_of x)%Q) by (intros C; apply Qle_bool_iff in C; congruence); lra).
    constructor; [exact IH|]. rewrite Forall_forall in *. intros y Hy. apply (Permutation_in _ (Pi l)) in Hy.
    destruct Hy as [<-|Hy]; [exact E'|apply F; exact Hy].
Qed.

Definition ex_recs : list (led_data fit_data) :=
  [LedData 2 0 250000 (1250 # 2) 255 None; LedData 0 0 4000 10 200 None; LedData 1 1 0 0 0 None].
Definition ex_coord : list (Q * (Q * Q)) := [(0, (1, 5)); (1, (2, 6)); (2, (3, 7)); (3, (4, 8))]%Q.
Definition ex_files (i : Z) : option (list string) :=
  if (i =? 1) || (i =? 2) then Some (result_file "IMG_{}.JPG" "a" 0 "0" false ex_recs) else None.

Example C28_example_hypotheses :
  number_of_images None 1 2 0 = 2 /\
  (forall i, 1 <= i <= 2 -> exists lines, ex_files i = Some lines /\ fast_file lines ex_recs /\ covers ex_coord ex_recs).
Proof.
  split; [reflexivity|]. intros i Hi. assert (E : ex_files i = Some (result_file "IMG_{}.JPG" "a" 0 "0" false ex_recs)).
  { unfold ex_files. destruct (i =? 1) eqn:A; [reflexivity|]. destruct (i =? 2) eqn:B; [reflexivity|]. lia. }
  eexists. split; [exact E|]. split.
  - split; [do 4 eexists; reflexivity|]. split; [|simpl; lia].
    repeat (constructor; [split; [reflexivity|simpl; lia]|]). constructor.
  - split; [|split].
    + repeat (constructor; [|repeat (constructor; [reflexivity|]); constructor]). constructor.
    + cbn [map d_id ex_recs]. repeat (constructor; [simpl; lia|]). constructor.
    + intros d [<-|[<-|[<-|[]]]]; [exists (2, (3, 7))%Q|exists (0, (1, 5))%Q|exists (1, (2, 6))%Q]; split; try reflexivity; unfold ex_coord; simpl; tauto.
Qed.

Example C28_example_table :
  match create_table isort (Some ex_coord) ex_files None 1 2 0 with
  | Ok f => map (fun r => map (option_map (option_map Qred)) [get (cols f) r "img_id"; get (cols f) r "led_id"; get (cols f) r "sum_col_val"; get (cols f) r "width"]) (rows f)
  | Err _ => []
  end =
  map (map (fun z => Some (Some (inject_Z z))))
   [[1; 0; 4000; 1]; [1; 1; 0; 2]; [1; 2; 250000; 3]; [2; 0; 4000; 1]; [2; 1; 0; 2]; [2; 2; 250000; 3]].
Proof. vm_compute. reflexivity. Qed.

(** With an LED recorded twice (overlapping merge groups) the second record
    gets the coordinates of another LED, or no table can be built. *)
Theorem C29_led_recorded_twice_refuted :
  exists (ds : list (led_data fit_data)) co f row,
    (exists lines, fast_file lines ds /\
       create_table isort (Some co) (fun _ => Some lines) None 1 1 0 = Ok f) /\
    (forall d, In d ds -> exists c, In c co /\ (fst c == inject_Z (d_id d))%Q) /\
    In row (rows f) /\ get (cols f) row "led_id" = Some (Some (inject_Z 1)) /\
    get (cols f) row "width" = Some (Some (inject_Z 30)) /\
    In (inject_Z 1, (inject_Z 20, 0%Q)) co /\ In (inject_Z 2, (inject_Z 30, 0%Q)) co.
Proof.
  set (ds := [LedData 0 0 40 1 2 None; LedData 1 0 40 1 2 None; LedData 1 1 40 1 2 None] : list (led_data fit_data)).
  set (co := [(0, (10, 0)); (1, (20, 0)); (2, (30, 0))]%Q).
  exists ds, co. do 2 eexists. split; [|split; [|split; [|split; [|split]]]].
  - exists (result_file "IMG_{}.JPG" "a" 0 "0" false ds). split.
    + split; [do 4 eexists; reflexivity|]. split; [|simpl; lia]. repeat (constructor; [split; [reflexivity|simpl; lia]|]). constructor.
    + vm_compute. reflexivity.
  - intros d [<-|[<-|[<-|[]]]]; [exists (0, (10, 0))%Q|exists (1, (20, 0))%Q|exists (1, (20, 0))%Q]; split; try reflexivity; unfold co; simpl; tauto.
  - right. right. left. reflexivity.
  - reflexivity.
  - reflexivity.
  - split; unfold co; simpl; tauto.
Qed.
Print Assumptions C29_led_recorded_twice_refuted.

Theorem C29_led_recorded_twice_can_fail :
  exists (ds : list (led_data fit_data)) co lines, fast_file lines ds /\
    (forall d, In d ds -> exists c, In c co /\ (fst c == inject_Z (d_id d))%Q) /\
    create_table isort (Some co) (fun _ => Some lines) None 1 1 0 = Err ValueError.
Proof.
  set (ds := [LedData 0 0 40 1 2 None; LedData 1 0 40 1 2 None; LedData 1 1 40 1 2 None] : list (led_data fit_data)).
  exists ds, ex_coord, (result_file "IMG_{}.JPG" "a" 0 "0" false ds). split; [|split].
  - split; [do 4 eexists; reflexivity|]. split; [|simpl; lia]. repeat (constructor; [split; [reflexivity|simpl; lia]|]). constructor.
  - intros d [<-|[<-|[<-|[]]]]; [exists (0, (1, 5))%Q|exists (1, (2, 6))%Q|exists (1, (2, 6))%Q]; split; try reflexivity; unfold ex_coord; simpl; tauto.
  - vm_compute. reflexivity.
Qed.
Print Assumptions C29_led_recorded_twice_can_fail.

(** ** C26 *)

(** Fast mode: names and values agree (C28); here the column count. *)
Theorem C26_fast_file_columns_match : forall lines ds, fast_file lines ds ->
  exists m, read_matrix lines = Ok m /\
    Forall (fun r => List.length (column_names (List.length (hd [] m))) = (List.length r + 3)%nat) m /\
    column_names (List.length (hd [] m)) = fast_table_columns.
Proof.
  intros lines ds H. destruct (fast_file_matrix _ _ H) as (m & M1 & M2). exists m. split; [exact M1|].
  assert (W : Forall (fun r => List.length r = 5%nat) m).
  { clear M1 H. induction M2 as [|d r ds m (? & ? & ? & ? & ? & -> & _) M IH]; constructor; [reflexivity|exact IH]. }
  destruct H as (_ & _ & L). destruct m as [|r m]; [apply Forall2_len in M2; simpl in M2; lia|].
  inversion W as [|? ? W1 W2]; subst. cbn [hd]. rewrite W1. split; [|reflexivity].
  eapply Forall_impl; [|exact W]. intros x Hx. cbv beta in Hx. rewrite Hx. reflexivity.
Qed.
Print Assumptions C26_fast_file_columns_match.

Definition fit_table_columns : list string := (fit_columns ++ ["width"; "height"])%list.

(** The thirteen columns after the maximum and what they ought to hold. *)
Definition late_columns : list string :=
  ["led_center_x"; "led_center_y"; "x"; "y"; "dx"; "dy"; "A"; "alpha"; "wx"; "wy"; "fit_success"; "fit_fun"; "fit_nfev"].

Definition success_val (f : fit_data) : Q := if f_success f then 1 else 0.

(** What they do hold: everything shifted by one. *)
Definition shifted_values (f : fit_data) : list Q :=
  ([f_cy f] ++ f_pars f ++ [success_val f; f_fun f; inject_Z (f_nfev f); f_time f])%list.

Definition right_values (f : fit_data) : list Q :=
  ([f_cx f; f_cy f] ++ f_pars f ++ [success_val f; f_fun f; inject_Z (f_nfev f)])%list.

Lemma close5_eq : forall x v, (v == x)%Q -> close5 x v.
Proof. intros x v H. unfold close5. rewrite H. setoid_replace (x - x)%Q with 0%Q by ring. pose proof (Qabs_nonneg x). simpl. lra. Qed.

(** Fit mode: the table is built, but its maximum is no recorded quantity and
    every later column holds its right neighbour's value. *)
Theorem C26_fit_table_is_shifted : forall srt coord files overflow first last skip recs,
  sorts srt -> 1 <= number_of_images overflow first last skip ->
  (forall i, 1 <= i <= number_of_images overflow first last skip ->
     exists lines, files i = Some lines /\ fit_file lines (recs i) /\ coords_usable coord (recs i)) ->
  exists f parts, create_table srt coord files overflow first last skip = Ok f /\ rows f = concat parts /\
    Forall2 (fun i part => rows_of_image (fun d row => exists fd, d_fit d = Some fd /\
        holds (cols f) row "img_id" (is_int i) /\ holds (cols f) row "led_id" (is_int (d_id d)) /\
        holds (cols f) row "led_array_id" (is_int (d_array d)) /\
        holds (cols f) row "mean_col_val" (close5 (d_mean d)) /\
        holds (cols f) row "max_col_val" (fun q => exists v, glued (d_max d) (f_cx fd) v /\ q = inject_Z (Qtrunc v)) /\
        Forall2 (fun name x => holds (cols f) row name (close5 x)) late_columns (shifted_values fd)) (recs i) part)
      (zrange 1 (number_of_images overflow first last skip + 1)) parts.
Proof.
  intros srt coord files overflow first last skip recs Hs Hn Hf.
  destruct (create_table_ok srt coord files overflow first last skip recs
     (fun d r => List.length r = 18%nat /\ exists fd, d_fit d = Some fd /\ fit_row d fd r) 18 
     (["led_center_x"; "led_center_y"; "x"; "y"; "dx"; "dy"; "A"; "alpha"; "wx"; "wy"; "fit_success"; "fit_fun"; "fit_nfev"; "width"; "height"]) Hs Hn) as (parts & E & F).
  - intros i Hi. destruct (Hf i Hi) as (lines & L1 & ((b & img & ch & t & ->) & Fd & L2) & L3).
    destruct (C26_fit_file_rows b img ch t (recs i)) as (m & M1 & M2).
    { eapply Forall_impl; [|exact Fd]. intros d (H & _). exact H. }
    eexists. exists m. split; [exact L1|]. split; [|split; [exact M2|exact L3]].
    unfold read_matrix. rewrite M1. cbn [bind]. apply Forall2_len in M2. destruct m as [|x [|y z]]; simpl in M2; try lia. reflexivity.
  - intros d r (_ & fd & _ & (i & ? & ? & ? & ? & ? & ? & ? & ? & ? & ? & -> & I1 & _)). exact I1.
  - intros d r (L & fd & _ & (i & ? & ? & ? & ? & ? & ? & ? & ? & ? & ? & -> & I1 & _)). split; [exact L|]. cbn [app]. do 6 eexists. reflexivity.
  - reflexivity.
  - reflexivity.
  - exists (Frame fit_table_columns (concat parts)), parts. split; [exact E|]. split; [reflexivity|]. cbn [cols].
    eapply Forall2_imp; [|exact F]. intros i part H. eapply rows_of_image_imp; [|exact H].
    intros d x _ (r & w & h & (L & fd & Hfd & (i0 & a & s & mn & g & cy & ps & su & fu & nf & ti & -> & I1 & I2 & I3 & I4 & I5 & I5' & I6 & I7 & I8 & I9 & I10 & I11 & I12)) & -> & W).
    exists fd. split; [exact Hfd|]. 
    assert (Lp : List.length ps = 8%nat) by (rewrite !app_length in L; simpl in L; lia).
    pose proof (Forall2_len _ _ _ I8) as Lq. rewrite Lp in Lq.
    destruct ps as [|p1 [|p2 [|p3 [|p4 [|p5 [|p6 [|p7 [|p8 [|p9 l]]]]]]]]]; try discriminate Lp.
    unfold shifted_values.
    destruct (f_pars fd) as [|q1 [|q2 [|q3 [|q4 [|q5 [|q6 [|q7 [|q8 [|q9 l]]]]]]]]]; try discriminate Lq.
    cbn [map app conv].
    repeat match goal with H : Forall2 _ (_ :: _) (_ :: _) |- _ => inversion H; clear H; subst end.
    split; [eexists; split; [reflexivity|]; apply is_int_trunc; reflexivity|].
    split; [eexists; split; [reflexivity|]; apply is_int_trunc; exact I1|].
    split; [eexists; split; [reflexivity|]; apply is_int_trunc; exact I2|].
    split; [eexists; split; [reflexivity|]; exact I4|].
    split; [eexists; split; [reflexivity|]; exists g; split; [exact I6|reflexivity]|].
    repeat (constructor; [eexists; split; [reflexivity|]; first [assumption|apply close5_eq; assumption]|]). constructor.
Qed.
Print Assumptions C26_fit_table_is_shifted.

(** With a centre one pixel or more from the left border no maximum in the
    table is right. *)
Theorem C26_fit_table_maximum_is_wrong : forall max cx v, glued max cx v -> 0 <= max -> (1 <= cx)%Q ->
  10 * max <= Qtrunc v.
Proof.
  intros max cx v G Hm Hx. pose proof (C26_fit_mode_maximum_is_lost max cx v G Hm Hx) as H.
  assert (V : (inject_Z (10 * max) <= v)%Q) by lra. clear G H. destruct v as [n d]. unfold Qle, inject_Z in V. cbn [Qnum Qden] in V.
  unfold Qtrunc. cbn [Qnum Qden]. rewrite Z.mul_1_r in V. apply Z.quot_le_lower_bound; lia.
Qed.
Print Assumptions C26_fit_table_maximum_is_wrong.

Definition ex_fit_recs : list (led_data fit_data) :=
  [LedData 1 0 4711 (4711 # 400) 255 (Some ex_fit); LedData 0 0 4711 (4711 # 400) 255 (Some ex_fit)].

Example C26_fit_hypotheses : fit_file (result_file "IMG_{}.JPG" "a" 0 "0" true ex_fit_recs) ex_fit_recs.
Proof.
  split; [do 4 eexists; reflexivity|]. split; [|simpl; lia].
  repeat (constructor; [split; [split; [simpl; lia|exists ex_fit; split; [reflexivity|split; [reflexivity|unfold Qle; simpl; lia]]]|simpl; lia]|]). constructor.
Qed.

Example C26_fit_table_example :
  match create_table isort None (fun _ => Some (result_file "IMG_{}.JPG" "a" 0 "0" true ex_fit_recs)) None 1 1 0 with
  | Ok f => map (fun r => map (option_map (option_map Qred)) [get (cols f) r "led_id"; get (cols f) r "max_col_val"; get (cols f) r "led_center_x"; get (cols f) r "fit_nfev"]) (rows f)
  | Err _ => []
  end = [[Some (Some 0); Some (Some (inject_Z 25512)); Some (Some (61 # 2)); Some (Some (1 # 8))];
         [Some (Some 1); Some (Some (inject_Z 25512)); Some (Some (61 # 2)); Some (Some (1 # 8))]]%Q.
Proof. vm_compute. reflexivity. Qed.

(** The two old formats, and every other width, cannot be loaded. *)
Lemma names_without_max : forall w, w <> 5%nat -> w <> 18%nat -> col_index "max_col_val" (column_names w) = None.
Proof.
  intros w H1 H2. unfold column_names.
  assert (X : (if (w =? List.length (if (List.length fast_columns <? w)%nat then fit_columns else fast_columns) - 1)%nat
               then (if (List.length fast_columns <? w)%nat then fit_columns else fast_columns) else old_columns w) = old_columns w).
  { destruct (List.length fast_columns <? w)%nat; simpl List.length; replace (w =? _)%nat with false; try reflexivity; symmetry; apply Nat.eqb_neq; simpl; lia. }
  cbv zeta. rewrite X. unfold old_columns. destruct (w =? 15)%nat; [reflexivity|]. destruct (w =? 4)%nat; reflexivity.
Qed.

Lemma column_to_int_cols : forall name f g, column_to_int name f = Ok g -> cols g = cols f.
Proof.
  intros name f g H. unfold column_to_int in H. destruct (col_index name (cols f)); [|discriminate].
  destruct (mapM _ _); [|discriminate]. cbn [bind] in H. apply Ok_inj in H. subst g. reflexivity.
Qed.

Theorem C26_other_widths_cannot_be_loaded : forall srt coord files overflow first last skip lines m,
  files 1 = Some lines -> read_matrix lines = Ok m ->
  List.length (hd [] m) <> 5%nat -> List.length (hd [] m) <> 18%nat ->
  exists e, create_table srt coord files overflow first last skip = Err e.
Proof.
  intros srt coord files overflow first last skip lines m Hf Hm H5 H18.
  destruct (create_table srt coord files overflow first last skip) as [f|e] eqn:E; [|exists e; reflexivity]. exfalso.
  unfold create_table in E. rewrite Hf, Hm in E. cbn [bind] in E. cbv zeta in E.
  destruct (mapM _ _) as [frs|]; [|discriminate]. cbn [bind] in E. destruct frs as [|fr0 frs]; [discriminate|].
  destruct (column_to_int "img_id" _) as [f1|] eqn:E1; [|discriminate]. cbn [bind] in E.
  destruct (column_to_int "led_id" _) as [f2|] eqn:E2; [|discriminate]. cbn [bind] in E.
  destruct (column_to_int "led_array_id" _) as [f3|] eqn:E3; [|discriminate]. cbn [bind] in E.
  apply column_to_int_cols in E1, E2, E3. unfold column_to_int at 1 in E. rewrite E3, E2, E1 in E. cbn [cols] in E.
  rewrite names_without_max in E by assumption. discriminate.
Qed.
Print Assumptions C26_other_widths_cannot_be_loaded.

Example C26_old_formats_example :
  read_matrix ["1,0,40,1.5"; "2,0,40,1.5"] = Ok [[dec_val (1, 0); dec_val (0, 0); dec_val (40, 0); dec_val (15, -1)]; [dec_val (2, 0); dec_val (0, 0); dec_val (40, 0); dec_val (15, -1)]]%Z /\
  create_table isort None (fun _ => Some ["1,0,40,1.5"; "2,0,40,1.5"]) None 1 1 0 = Err KeyError.
Proof. split; vm_compute; reflexivity. Qed.

(** A file with a single LED cannot be loaded. *)
Theorem C26_single_led_cannot_be_loaded : forall srt coord files overflow first last skip b img ch t d,
  d_fit d = None -> files 1 = Some (result_file b img ch t false [d]) ->
  create_table srt coord files overflow first last skip = Err IndexError.
Proof.
  intros srt coord files overflow first last skip b img ch t d Hd Hf.
  destruct (C25_result_file_read_back b img ch t [d]) as (m & M1 & M2); [repeat constructor; exact Hd|].
  unfold create_table. rewrite Hf. unfold read_matrix. rewrite M1. cbn [bind].
  apply Forall2_len in M2. destruct m as [|x [|y z]]; simpl in M2; try lia. reflexivity.
Qed.
Print Assumptions C26_single_led_cannot_be_loaded.

(** ** C27 *)

(** Images listed for the analysis (one result file each after step 3). *)
Definition analysed (c : config) : option nat :=
  match build_numbers Analysis c with Ok l => Some (List.length l) | Err _ => None end.

Lemma every_length : forall A B k (f : A -> B) l l', (0 < k)%nat -> every k f l l' ->
  List.length l' = ((List.length l + k - 1) / k)%nat.
Proof.
  intros A B k f l l' Hk H.
  assert (X : forall j, (j < List.length l')%nat <-> (j * k < List.length l)%nat).
  { intros j. specialize (H j). rewrite <- !nth_error_Some. rewrite H.
    destruct (nth_error l (j * k)); simpl; split; congruence. }
  set (n := List.length l) in *. set (n' := List.length l') in *.
  assert (D : forall j, (j < (n + k - 1) / k)%nat <-> (j * k < n)%nat).
  { intros j. split; intros G.
    - pose proof (Nat.mul_div_le (n + k - 1) k ltac:(lia)). nia.
    - apply Nat.div_le_lower_bound; [lia|]. nia. }
  destruct (Nat.lt_trichotomy n' ((n + k - 1) / k)) as [L|[L|L]]; [|exact L|].
  - apply (proj1 (D _)) in L. apply (proj2 (X _)) in L. lia.
  - apply (proj1 (X _)) in L. apply (proj2 (D _)) in L. lia.
Qed.

(** Ids ascending: the table takes floor(number/(skip+1)) images, the analysis
    has ceil(number/(skip+1)). *)
Theorem C27_loaded_equals_analysed_iff_divisible : forall c overflow,
  c_first_exp c = c_first_ana c -> c_first_ana c <= c_last_ana c -> c_first_ana c <= 9999 -> 0 <= c_skip c ->
  (match overflow with Some m => m | None => 10000000 end > c_last_ana c - c_first_ana c) ->
  exists a, analysed c = Some a /\
    let n := number_of_images overflow (c_first_ana c) (c_last_ana c) (c_skip c) in
    let total := c_last_ana c - c_first_ana c + 1 in
    (n = Z.of_nat a <-> total mod (c_skip c + 1) = 0) /\
    (n <> Z.of_nat a -> n = Z.of_nat a - 1).
Proof.
  intros c overflow He Hl H9 Hs Ho. unfold analysed, build_numbers. rewrite He.
  destruct (C16_numbers_follow_the_camera_counter (c_first_ana c) (c_last_ana c) (c_skip c + 1) ltac:(lia) H9) as (l & E & Hev).
  rewrite E. exists (List.length l). split; [reflexivity|]. cbv zeta.
  assert (L := Hev). apply every_length in L; [|lia].
  assert (C : List.length (counter (c_first_ana c) (c_last_ana c)) = Z.to_nat (c_last_ana c - c_first_ana c + 1)).
  { unfold counter. replace (c_first_ana c <=? c_last_ana c) with true by (symmetry; apply Z.leb_le; exact Hl). rewrite length_zrange. f_equal. lia. }
  rewrite C in L.
  set (total := c_last_ana c - c_first_ana c + 1) in *. set (k := c_skip c + 1) in *.
  assert (N : number_of_images overflow (c_first_ana c) (c_last_ana c) (c_skip c) = total / k).
  { unfold number_of_images. fold k. set (m := match overflow with Some m => m | None => 10000000 end) in *.
    assert (X : (m + c_last_ana c - c_first_ana c) mod m = c_last_ana c - c_first_ana c).
    { replace (m + c_last_ana c - c_first_ana c) with ((c_last_ana c - c_first_ana c) + 1 * m) by lia.
      rewrite Z.mod_add by lia. apply Z.mod_small. lia. }
    rewrite X. reflexivity. }
  rewrite N.
  assert (A : Z.of_nat (List.length l) = (total + k - 1) / k).
  { rewrite L. rewrite Nat2Z.inj_div. f_equal; [|lia]. assert (0 < Z.to_nat k)%nat by lia. lia. }
  rewrite A.
  assert (Hk : 0 < k) by lia. assert (Ht : 0 < total) by lia.
  pose proof (Z.div_mod total k ltac:(lia)) as D. pose proof (Z.mod_pos_bound total k Hk) as B.
  set (q := total / k) in *. set (r := total mod k) in *.
  assert (Q : (total + k - 1) / k = q + (if r =? 0 then 0 else 1)).
  { destruct (r =? 0) eqn:Er.
    - apply Z.eqb_eq in Er. symmetry. apply Z.div_unique with (r := k - 1); [lia|]. lia.
    - apply Z.eqb_neq in Er. symmetry. apply Z.div_unique with (r := r - 1); [lia|]. lia. }
  rewrite Q. destruct (r =? 0) eqn:Er; [apply Z.eqb_eq in Er|apply Z.eqb_neq in Er]; lia.
Qed.
Print Assumptions C27_loaded_equals_analysed_iff_divisible.

(** Ids wrapping around at 9999: with overflow number 9999 the counts agree in
    the same way. *)
Theorem C27_wrapping_ids_need_overflow_9999 : forall c,
  c_first_exp c = c_first_ana c -> c_last_ana c < c_first_ana c <= 9999 -> 0 <= c_last_ana c -> c_skip c = 0 ->
  exists a, analysed c = Some a /\
    forall m, 9999 <= m -> number_of_images (Some m) (c_first_ana c) (c_last_ana c) (c_skip c) = Z.of_nat a + (m - 9999).
Proof.
  intros c He Hl H0 Hs. unfold analysed, build_numbers. rewrite He, Hs.
  destruct (C16_numbers_follow_the_camera_counter (c_first_ana c) (c_last_ana c) (0 + 1) ltac:(lia) ltac:(lia)) as (l & E & Hev).
  rewrite E. exists (List.length l). split; [reflexivity|]. intros m Hm.
  assert (L := Hev). apply every_length in L; [|lia].
  change (Z.to_nat (0 + 1)) with 1%nat in L. rewrite Nat.div_1_r in L.
  unfold counter in L. replace (c_first_ana c <=? c_last_ana c) with false in L by (symmetry; apply Z.leb_gt; lia).
  rewrite app_length, !length_zrange in L.
  unfold number_of_images. rewrite Z.mod_small by lia. rewrite Z.div_1_r. lia.
Qed.
Print Assumptions C27_wrapping_ids_need_overflow_9999.

(** If more images are expected than there are result files, no table is built. *)
Theorem C27_missing_file_aborts : forall srt coord files overflow first last skip,
  (exists i, 1 <= i <= number_of_images overflow first last skip /\ files i = None) ->
  exists e, create_table srt coord files overflow first last skip = Err e.
Proof.
  intros srt coord files overflow first last skip (i & Hi & Hf).
  unfold create_table. destruct (files 1) as [l1|]; [|eexists; reflexivity].
  destruct (read_matrix l1) as [m1|e]; [|exists e; reflexivity]. cbn [bind]. cbv zeta.
  assert (X : exists e, mapM (load_image srt coord files (column_names (List.length (hd [] m1)))) (zrange 1 (number_of_images overflow first last skip + 1)) = Err e).
  { apply mapM_err. exists i. split; [apply in_zrange; lia|]. exists AttributeError. unfold load_image. rewrite Hf. reflexivity. }
  destruct X as (e & ->). exists e. reflexivity.
Qed.
Print Assumptions C27_missing_file_aborts.

(** [np.column_stack((experiment_times, coefficients))],
    ExtinctionCoefficients.py:156-158: the row counts have to agree. *)
Definition column_stack {A B} (times : list A) (coefficients : list B) : res (list (A * B)) :=
  if (List.length times =? List.length coefficients)%nat then Ok (combine times coefficients) else Err ValueError.

Definition ex_config (first last skip : Z) : config :=
  Config "" (Template "IMG_" None ".JPG") first last first last skip 0 0 "0".

(** One image in three of 1..10: four are analysed, three loaded. *)
Theorem C27_last_image_is_dropped_refuted :
  exists c, c_first_exp c = c_first_ana c /\ c_first_ana c <= c_last_ana c <= 9999 /\ 0 <= c_skip c /\
    analysed c = Some 4%nat /\ number_of_images None (c_first_ana c) (c_last_ana c) (c_skip c) = 3 /\
    forall (times : list Q) (coefficients : list (list Q)), List.length times = 4%nat -> List.length coefficients = 3%nat ->
      column_stack times coefficients = Err ValueError.
Proof.
  exists (ex_config 1 10 2). cbn. do 5 (split; [try reflexivity; try lia|]).
  intros times coefficients H1 H2. unfold column_stack. rewrite H1, H2. reflexivity.
Qed.
Print Assumptions C27_last_image_is_dropped_refuted.

(** Starting the analysis after the first image of the experiment: the analysis
    list still starts at the first image of the experiment, so too few images
    are loaded, and not those asked for. *)
Theorem C27_later_first_image_is_miscounted_refuted :
  exists c a, c_first_exp c < c_first_ana c <= c_last_ana c /\ c_skip c = 0 /\
    analysed c = Some a /\ number_of_images None (c_first_ana c) (c_last_ana c) (c_skip c) < Z.of_nat a.
Proof.
  exists (Config "" (Template "IMG_" None ".JPG") 1 10 6 10 0 0 0 "0"), 10%nat. cbn. repeat split; lia.
Qed.
Print Assumptions C27_later_first_image_is_miscounted_refuted.

Example C27_example_hypotheses :
  let c := ex_config 100 219 3 in
  c_first_exp c = c_first_ana c /\ c_first_ana c <= c_last_ana c /\ c_first_ana c <= 9999 /\ 0 <= c_skip c /\
  analysed c = Some 30%nat /\ number_of_images None 100 219 3 = 30.
Proof. cbn. repeat split; lia. Qed.

(** ** C30: histories of step 3 runs and table reads *)

(** An event: step 3 rewrites the result files, the analysis reads the table,
    colour correction adds a column. *)
Inductive event :=
| RunStep3 (files : Z -> option (list string))
| ReadTable
| AddColumn (name : string) (values : list cell).

Record world := World { w_files : Z -> option (list string); w_table : option frame }.

Definition step (create : (Z -> option (list string)) -> res frame) (w : world) (e : event) : world :=
  match e with
  | RunStep3 files => World files (w_table w)
  | ReadTable => World (w_files w) (snd (read_hdf (create (w_files w)) (w_table w)))
  | AddColumn name values =>
    World (w_files w) (match w_table w with
                       | None => None
                       | Some t => match extend_frame t name values with Ok t' => Some t' | Err _ => Some t end
                       end)
  end.

Definition run_events create := fold_left (step create).

(** Every row has a cell for every column. *)
Definition well_shaped (t : frame) : Prop := Forall (fun r => List.length r = List.length (cols t)) (rows t).

(** The same rows as far as the column [name] is concerned. *)
Definition same_column (name : string) (t t' : frame) : Prop :=
  map (fun r => get (cols t') r name) (rows t') = map (fun r => get (cols t) r name) (rows t).

Lemma col_index_app : forall name cs new, name <> new -> col_index name (cs ++ [new]) = col_index name cs.
Proof.
  intros name cs new H. induction cs as [|c cs IH]; cbn [app col_index].
  - destruct (String.eqb_spec new name); [congruence|reflexivity].
  - destruct (c =? name)%string; [reflexivity|]. rewrite IH. reflexivity.
Qed.

Lemma col_index_bound : forall name cs k, col_index name cs = Some k -> (k < List.length cs)%nat /\ nth_error cs k = Some name.
Proof.
  intros name cs. induction cs as [|c cs IH]; intros k H; cbn [col_index] in H; [discriminate|].
  destruct (String.eqb_spec c name) as [->|N].
  - injection H as <-. split; [simpl; lia|reflexivity].
  - destruct (col_index name cs) as [j|]; [|discriminate]. injection H as <-. destruct (IH j eq_refl). split; [simpl; lia|assumption].
Qed.

Lemma nth_error_replace : forall A k (l : list A) v j, (k < List.length l)%nat -> j <> k ->
  nth_error (firstn k l ++ v :: skipn (S k) l) j = nth_error l j.
Proof.
  intros A k. induction k as [|k IH]; intros [|a l] v j Hk Hj; cbn [List.length] in Hk; try lia.
  - destruct j as [|j]; [lia|]. reflexivity.
  - destruct j as [|j]; [reflexivity|]. cbn [firstn skipn app nth_error]. apply (IH l v j); lia.
Qed.

Lemma extend_frame_keeps : forall t t' new values, well_shaped t -> extend_frame t new values = Ok t' ->
  well_shaped t' /\ forall name, name <> new -> same_column name t t'.
Proof.
  intros t t' new values Hw H. unfold extend_frame in H.
  destruct (List.length values =? List.length (rows t))%nat eqn:E; [|discriminate]. apply Nat.eqb_eq in E.
  destruct (col_index new (cols t)) as [k|] eqn:Ek; apply Ok_inj in H; subst t'; unfold well_shaped, same_column; cbn [cols rows].
  - destruct (col_index_bound _ _ _ Ek) as (Bk & Nk). unfold well_shaped in Hw. clear Ek. revert values E Hw. generalize (rows t). intros rs.
    induction rs as [|r rs IH]; intros [|v values] E Hw; try discriminate; cbn [combine map].
    + split; [constructor|reflexivity].
    + inversion Hw as [|? ? H1 H2]; subst. destruct (IH values ltac:(simpl in E; lia) H2) as (I1 & I2). split.
      * constructor; [|exact I1]. cbn [fst snd]. rewrite app_length, firstn_length. cbn [List.length]. rewrite skipn_length. lia.
      * intros name Hn. cbn [fst snd]. rewrite I2 by exact Hn. f_equal. unfold get.
        destruct (col_index name (cols t)) as [j|] eqn:Ej; [|reflexivity].
        apply nth_error_replace; [lia|]. intros C. subst j. destruct (col_index_bound _ _ _ Ej) as (_ & Nj). congruence.
  - unfold well_shaped in Hw. revert values E Hw. generalize (rows t). intros rs.
    induction rs as [|r rs IH]; intros [|v values] E Hw; try discriminate; cbn [combine map].
    + split; [constructor|reflexivity].
    + inversion Hw as [|? ? H1 H2]; subst. destruct (IH values ltac:(simpl in E; lia) H2) as (I1 & I2). split.
      * constructor; [|exact I1]. cbn [fst snd]. rewrite !app_length. simpl. lia.
      * intros name Hn. cbn [fst snd]. rewrite I2 by exact Hn. f_equal. unfold get. rewrite col_index_app by exact Hn.
        destruct (col_index name (cols t)) as [j|] eqn:Ej; [|reflexivity]. destruct (col_index_bound _ _ _ Ej) as (Bj & _).
        apply nth_error_app1. lia.
Qed.

(** Once there is a table, no history of step 3 runs and reads changes any
    column of it except those written by colour correction. *)
Theorem C30_table_is_never_refreshed : forall create es w t,
  w_table w = Some t -> well_shaped t ->
  exists t', w_table (run_events create es w) = Some t' /\
    forall name, (forall v, ~ In (AddColumn name v) es) -> same_column name t t'.
Proof.
  intros create es. induction es as [|e es IH]; intros w t Ht Hw.
  - exists t. split; [exact Ht|]. intros name _. reflexivity.
  - unfold run_events. cbn [fold_left]. fold (run_events create es (step create w e)).
    assert (X : exists t1, w_table (step create w e) = Some t1 /\ well_shaped t1 /\
              forall name, (forall v, e <> AddColumn name v) -> same_column name t t1).
    { destruct e as [fs| |new values]; cbn [step w_table].
      - exists t. split; [exact Ht|]. split; [exact Hw|]. intros; reflexivity.
      - exists t. rewrite Ht. split; [reflexivity|]. split; [exact Hw|]. intros; reflexivity.
      - rewrite Ht. destruct (extend_frame t new values) as [t1|] eqn:E.
        + exists t1. destruct (extend_frame_keeps _ _ _ _ Hw E) as (W & K). split; [reflexivity|]. split; [exact W|].
          intros name Hn. apply K. intros C. subst. apply (Hn values). reflexivity.
        + exists t. split; [reflexivity|]. split; [exact Hw|]. intros; reflexivity. }
    destruct X as (t1 & X1 & X2 & X3). destruct (IH _ _ X1 X2) as (t' & T1 & T2).
    exists t'. split; [exact T1|]. intros name Hn. unfold same_column in *. rewrite T2, X3; [reflexivity| |].
    + intros v C. apply (Hn v). left. exact C.
    + intros v C. apply (Hn v). right. exact C.
Qed.
Print Assumptions C30_table_is_never_refreshed.

(** As long as no table was read, the first read sees the latest results. *)
Theorem C30_first_read_sees_current_results : forall create es w t,
  (forall e, In e es -> exists fs, e = RunStep3 fs) -> w_table w = None ->
  create (w_files (run_events create es w)) = Ok t ->
  w_table (run_events create (es ++ [ReadTable]) w) = Some t.
Proof.
  intros create es w t Hes Hw Hc. unfold run_events in *. rewrite fold_left_app. cbn [fold_left step w_table].
  assert (N : w_table (fold_left (step create) es w) = None).
  { clear Hc. revert w Hw. induction es as [|e es IH]; intros w Hw; [exact Hw|].
    cbn [fold_left]. apply IH; [intros x Hx; apply Hes; right; exact Hx|]. destruct (Hes e (or_introl eq_refl)) as (fs & ->). exact Hw. }
  rewrite N. unfold read_hdf. rewrite Hc. reflexivity.
Qed.
Print Assumptions C30_first_read_sees_current_results.

(** Step 3, analysis, step 3 with other results, analysis: the old values. *)
Theorem C30_analysis_uses_outdated_results_refuted :
  exists files files' t t',
    let create := fun fs => create_table isort None fs None 1 1 0 in
    create files = Ok t /\ create files' = Ok t' /\ t <> t' /\
    w_table (run_events create [RunStep3 files; ReadTable; RunStep3 files'; ReadTable] (World (fun _ => None) None)) = Some t.
Proof.
  set (recs s := [LedData 0 0 s 1 2 None; LedData 1 0 40 1 2 None] : list (led_data fit_data)).
  exists (fun _ => Some (result_file "IMG_{}.JPG" "a" 0 "0" false (recs 40))),
         (fun _ => Some (result_file "IMG_{}.JPG" "a" 0 "0" false (recs 41))).
  do 2 eexists. cbv zeta. split; [vm_compute; reflexivity|]. split; [vm_compute; reflexivity|]. split; [discriminate|].
  vm_compute. reflexivity.
Qed.
Print Assumptions C30_analysis_uses_outdated_results_refuted.

(** A table built by [create_table] meets the hypothesis [well_shaped]. *)
Example C30_example_shape : match create_table isort (Some ex_coord) ex_files None 1 2 0 with Ok t => well_shaped t | Err _ => False end.
Proof. vm_compute. repeat constructor. Qed.
