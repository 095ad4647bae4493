(** Property C59: renaming photos. *)
From Coq Require Import ZArith Lia Bool Ascii String List Sorted.
From Verif Require Import Base Str Substr Renamer_Model.
Import ListNotations.
Local Open Scope string_scope.
Local Open Scope Z_scope.

(** ** Names *)

Lemma cut_at : forall c a b a' b', has_char c a = false -> has_char c a' = false ->
  a ++ String c b = a' ++ String c b' -> a = a' /\ b = b'.
Proof.
  intros c. induction a as [|x a IH]; intros b a' b' H H' E; destruct a' as [|y a']; cbn [append] in E.
  - injection E as ->. split; reflexivity.
  - injection E as -> _. cbn in H'. rewrite Ascii.eqb_refl in H'. discriminate.
  - injection E as -> _. cbn in H. rewrite Ascii.eqb_refl in H. discriminate.
  - injection E as -> E. cbn in H, H'. apply orb_false_iff in H, H'.
    destruct (IH b a' b') as [-> ->]; [apply H|apply H'|exact E|split; reflexivity].
Qed.

Lemma zfill_chars : forall w n, all_chars int_char (zfill w (str_of_Z n)) = true.
Proof.
  intros w n. pose proof (str_of_Z_chars n) as H. unfold zfill.
  set (k := (w - String.length (str_of_Z n))%nat). clearbody k.
  destruct (str_of_Z n) as [|a s]; [apply all_chars_zeros; reflexivity|].
  assert (Hs : all_chars int_char s = true) by (cbn in H; apply andb_true_iff in H; apply H).
  destruct a as [[] [] [] [] [] [] [] []]; try (apply all_chars_zeros; [reflexivity|exact H]);
    try (cbn [all_chars]; rewrite all_chars_zeros by (reflexivity || exact Hs); reflexivity).
  discriminate H.
Qed.

Lemma day_text_no_underscore : forall t, has_char "_"%char (day_text t) = false.
Proof.
  intros t. unfold day_text. rewrite !has_char_app.
  rewrite (has_char_all "_"%char int_char _ (str_of_Z_chars _)) by reflexivity.
  rewrite !(has_char_all "_"%char int_char _ (zfill_chars _ _)) by reflexivity. reflexivity.
Qed.

(** A new name determines the number and the extension. *)
Lemma new_name_inj : forall name i j t t' e e',
  base_name name i t ++ "." ++ e = base_name name j t' ++ "." ++ e' -> i = j /\ e = e'.
Proof.
  intros name i j t t' e e' H. unfold base_name in H.
  rewrite !app_assoc_s in H.
  change ("_" ++ name ++ "_" ++ str_of_Z i ++ "." ++ e)
    with (String "_"%char (name ++ "_" ++ str_of_Z i ++ "." ++ e)) in H.
  change ("_" ++ name ++ "_" ++ str_of_Z j ++ "." ++ e')
    with (String "_"%char (name ++ "_" ++ str_of_Z j ++ "." ++ e')) in H.
  apply cut_at in H; [|apply day_text_no_underscore|apply day_text_no_underscore].
  destruct H as [_ H]. apply app_inj_s in H. apply app_inj_s in H.
  change ("." ++ e) with (String "."%char e) in H. change ("." ++ e') with (String "."%char e') in H.
  apply cut_at in H; [| |].
  - destruct H as [H ->]. split; [apply str_of_Z_inj; exact H|reflexivity].
  - apply (has_char_all "."%char int_char _ (str_of_Z_chars _)). reflexivity.
  - apply (has_char_all "."%char int_char _ (str_of_Z_chars _)). reflexivity.
Qed.

(** ** Sequences of renames *)

Fixpoint do_moves {C} (moves : list (string * string)) (d : dir C) : dir C * option exn :=
  match moves with
  | [] => (d, None)
  | (a, b) :: r => match rename d a b with Err e => (d, Some e) | Ok d' => do_moves r d' end
  end.

(** The renames of the tool, in order. *)
Fixpoint moves_of (name : string) (count : Z) (photos : list photo) : list (string * string) :=
  match photos with
  | [] => []
  | p :: r => (p_raw p, new_raw name count p) :: (p_image p, new_image name count p) :: moves_of name (count + 1) r
  end.

Lemma rename_photos_moves : forall C name photos count (d : dir C),
  rename_photos name count photos d = do_moves (moves_of name count photos) d.
Proof.
  intros C name. induction photos as [|p r IH]; intros count d; [reflexivity|].
  cbn [rename_photos moves_of do_moves].
  destruct (rename d (p_raw p) (new_raw name count p)) as [d1|]; [|reflexivity].
  destruct (rename d1 (p_image p) (new_image name count p)) as [d2|]; [|reflexivity]. apply IH.
Qed.

Lemma do_moves_app : forall C m1 m2 (d : dir C), do_moves (m1 ++ m2) d =
  match do_moves m1 d with (d', None) => do_moves m2 d' | (d', Some e) => (d', Some e) end.
Proof.
  intros C. induction m1 as [|[a b] m1 IH]; intros m2 d; [reflexivity|]. cbn [app do_moves].
  destruct (rename d a b); [apply IH|reflexivity].
Qed.

Lemma do_moves_spec : forall C moves (d : dir C),
  NoDup (map fst moves) -> NoDup (map snd moves) ->
  (forall a, In a (map fst moves) -> d a <> None) ->
  (forall b, In b (map snd moves) -> ~ In b (map fst moves)) ->
  exists d', do_moves moves d = (d', None) /\
    (forall a b, In (a, b) moves -> d' b = d a) /\
    (forall a, In a (map fst moves) -> d' a = None) /\
    (forall x, ~ In x (map fst moves) -> ~ In x (map snd moves) -> d' x = d x).
Proof.
  intros C. induction moves as [|[a b] r IH]; intros d Hf Hs He Hx.
  - exists d. split; [reflexivity|]. split; [intros a b []|]. split; [intros a []|]. intros x _ _. reflexivity.
  - cbn [map fst snd] in *. inversion Hf as [|? ? Ha Hf']; subst. inversion Hs as [|? ? Hb Hs']; subst.
    cbn [do_moves]. unfold rename. destruct (d a) as [c|] eqn:Ea; [|exfalso; apply (He a); [left; reflexivity|exact Ea]].
    set (d1 := fun x => if (x =? b)%string then Some c else if (x =? a)%string then None else d x).
    assert (D : forall x, In x (map fst r) -> d1 x = d x).
    { intros x Hin. unfold d1. destruct (x =? b)%string eqn:E1.
      - apply String.eqb_eq in E1. subst x. exfalso. apply (Hx b); [left; reflexivity|right; exact Hin].
      - destruct (x =? a)%string eqn:E2; [|reflexivity]. apply String.eqb_eq in E2. subst x. contradiction. }
    destruct (IH d1 Hf' Hs') as (d' & R & P1 & P2 & P3).
    + intros x Hin. rewrite D by exact Hin. apply He. right. exact Hin.
    + intros x Hin Hin'. apply (Hx x); right; assumption.
    + exists d'. split; [exact R|]. split; [|split].
      * intros x y [E|Hin].
        -- injection E as <- <-. rewrite P3.
           ++ unfold d1. rewrite String.eqb_refl. symmetry. exact Ea.
           ++ intros Hin. apply (Hx b); [left; reflexivity|right; exact Hin].
           ++ exact Hb.
        -- rewrite (P1 x y Hin). apply D. apply in_map_iff. exists (x, y). split; [reflexivity|exact Hin].
      * intros x [<-|Hin]; [|apply P2; exact Hin]. rewrite P3; [|exact Ha|].
        -- unfold d1. destruct (a =? b)%string eqn:E; [|rewrite String.eqb_refl; reflexivity].
           apply String.eqb_eq in E. exfalso. apply (Hx b); [left; reflexivity|left; exact E].
        -- intros Hin. apply (Hx a); [right; exact Hin|left; reflexivity].
      * intros x H1 H2. rewrite P3; [|intros G; apply H1; right; exact G|intros G; apply H2; right; exact G].
        unfold d1. destruct (x =? b)%string eqn:E1.
        -- apply String.eqb_eq in E1. subst x. exfalso. apply H2. left. reflexivity.
        -- destruct (x =? a)%string eqn:E2; [|reflexivity]. apply String.eqb_eq in E2. subst x.
           exfalso. apply H1. left. reflexivity.
Qed.

Lemma moves_snd : forall name photos count x, In x (map snd (moves_of name count photos)) <->
  exists i p, nth_error photos i = Some p /\
    (x = new_raw name (count + Z.of_nat i) p \/ x = new_image name (count + Z.of_nat i) p).
Proof.
  intros name. induction photos as [|p r IH]; intros count x; cbn [moves_of map snd].
  - split; [intros []|]. intros (i & q & H & _). destruct i; discriminate.
  - cbn [In]. rewrite IH. split.
    + intros [H|[H|(i & q & Hi & H)]].
      * exists 0%nat, p. rewrite Z.add_0_r. split; [reflexivity|left; congruence].
      * exists 0%nat, p. rewrite Z.add_0_r. split; [reflexivity|right; congruence].
      * exists (S i), q. split; [exact Hi|]. replace (count + Z.of_nat (S i)) with (count + 1 + Z.of_nat i) by lia. exact H.
    + intros (i & q & Hi & H). destruct i as [|i].
      * cbn in Hi. injection Hi as <-. rewrite Z.add_0_r in H. destruct H as [-> | -> ]; auto.
      * right. right. exists i, q. split; [exact Hi|].
        replace (count + 1 + Z.of_nat i) with (count + Z.of_nat (S i)) by lia. exact H.
Qed.

Lemma moves_fst : forall name photos count x, In x (map fst (moves_of name count photos)) <->
  exists p, In p photos /\ (x = p_raw p \/ x = p_image p).
Proof.
  intros name. induction photos as [|p r IH]; intros count x; cbn [moves_of map fst In].
  - split; [intros []|intros (p & [] & _)].
  - rewrite IH. split.
    + intros [H|[H|(q & Hq & H)]]; [exists p; auto|exists p; auto|exists q; auto].
    + intros (q & [<-|Hq] & H); [destruct H as [-> | -> ]; auto|]. right. right. exists q. auto.
Qed.

Lemma moves_NoDup_new : forall name photos count,
  (forall p, In p photos -> extension (p_raw p) <> "jpg") -> NoDup (map snd (moves_of name count photos)).
Proof.
  intros name. induction photos as [|p r IH]; intros count H; cbn [moves_of map snd]; [constructor|].
  assert (N : forall e, ~ In (base_name name count (p_date p) ++ "." ++ e) (map snd (moves_of name (count + 1) r))).
  { intros e Hin. apply moves_snd in Hin. destruct Hin as (i & q & _ & [E|E]); unfold new_raw, new_image in E;
      apply new_name_inj in E; lia. }
  constructor; [|constructor].
  - intros [E|Hin]; [|apply (N (extension (p_raw p))); exact Hin].
    unfold new_raw, new_image in E. apply new_name_inj in E. destruct E as [_ E].
    apply (H p); [left; reflexivity|symmetry; exact E].
  - apply N.
  - apply IH. intros q Hq. apply H. right. exact Hq.
Qed.

(** ** C59 *)

(** The files to be renamed: all exist, none occurs twice, no raw file has the
    extension jpg, and no new name is in use. *)
Definition safe {C} (name : string) (photos : list photo) (d : dir C) : Prop :=
  NoDup (flat_map (fun p => [p_raw p; p_image p]) photos) /\
  (forall p, In p photos -> d (p_raw p) <> None /\ d (p_image p) <> None /\ extension (p_raw p) <> "jpg") /\
  (forall i p, nth_error photos i = Some p ->
     d (new_raw name (1 + Z.of_nat i) p) = None /\ d (new_image name (1 + Z.of_nat i) p) = None).

Lemma moves_fst_flat : forall name photos count,
  map fst (moves_of name count photos) = flat_map (fun p => [p_raw p; p_image p]) photos.
Proof. intros name. induction photos as [|p r IH]; intros count; cbn; [reflexivity|]. rewrite IH. reflexivity. Qed.

Lemma moves_in : forall name photos count i p, nth_error photos i = Some p ->
  In (p_raw p, new_raw name (count + Z.of_nat i) p) (moves_of name count photos) /\
  In (p_image p, new_image name (count + Z.of_nat i) p) (moves_of name count photos).
Proof.
  intros name. induction photos as [|q r IH]; intros count i p H; [destruct i; discriminate|].
  destruct i as [|i]; cbn [moves_of].
  - cbn in H. injection H as ->. rewrite Z.add_0_r. split; [left; reflexivity|right; left; reflexivity].
  - replace (count + Z.of_nat (S i)) with (count + 1 + Z.of_nat i) by lia.
    destruct (IH (count + 1) i p H) as [A B]. split; right; right; assumption.
Qed.

Lemma safe_moves : forall C name photos (d : dir C), safe name photos d ->
  NoDup (map fst (moves_of name 1 photos)) /\ NoDup (map snd (moves_of name 1 photos)) /\
  (forall a, In a (map fst (moves_of name 1 photos)) -> d a <> None) /\
  (forall b, In b (map snd (moves_of name 1 photos)) -> d b = None).
Proof.
  intros C name photos d (H1 & H2 & H3). split; [rewrite moves_fst_flat; exact H1|].
  split; [apply moves_NoDup_new; intros p Hp; apply H2; exact Hp|]. split.
  - intros a Ha. apply moves_fst in Ha. destruct Ha as (p & Hp & [-> | -> ]); apply H2; exact Hp.
  - intros b Hb. apply moves_snd in Hb. destruct Hb as (i & p & Hi & [-> | -> ]); apply (H3 i p Hi).
Qed.

(** Nothing is lost: the i-th photo (in order of capture) and its raw file are
    found under the names with number i, the old names are free, and no other
    file is touched. *)
Theorem C59_nothing_is_lost :
  forall C name photos (d : dir C), safe name photos d ->
  exists d', rename_images_by_date name photos d = (d', None) /\
    (forall i p, nth_error photos i = Some p ->
       d' (new_image name (1 + Z.of_nat i) p) = d (p_image p) /\
       d' (new_raw name (1 + Z.of_nat i) p) = d (p_raw p) /\
       d' (p_image p) = None /\ d' (p_raw p) = None) /\
    (forall x, (forall i p, nth_error photos i = Some p ->
        x <> p_image p /\ x <> p_raw p /\ x <> new_image name (1 + Z.of_nat i) p /\ x <> new_raw name (1 + Z.of_nat i) p) ->
       d' x = d x).
Proof.
  intros C name photos d Hsafe. destruct (safe_moves C name photos d Hsafe) as (M1 & M2 & M3 & M4).
  unfold rename_images_by_date. rewrite rename_photos_moves.
  destruct (do_moves_spec C (moves_of name 1 photos) d M1 M2 M3) as (d' & R & P1 & P2 & P3).
  { intros b Hb Ha. apply (M3 b Ha). apply M4. exact Hb. }
  exists d'. split; [exact R|]. split.
  - intros i p Hi. destruct (moves_in name photos 1 i p Hi) as [A B].
    pose proof (nth_error_In _ _ Hi) as Hp.
    split; [apply P1; exact B|split; [apply P1; exact A|]].
    split; apply P2; apply moves_fst; exists p; auto.
  - intros x Hx. apply P3.
    + intros Ha. apply moves_fst in Ha. destruct Ha as (p & Hp & E). apply In_nth_error in Hp.
      destruct Hp as (i & Hi). destruct (Hx i p Hi) as (A & B & _). destruct E; contradiction.
    + intros Hb. apply moves_snd in Hb. destruct Hb as (i & p & Hi & E).
      destruct (Hx i p Hi) as (_ & _ & A & B). destruct E; contradiction.
Qed.
Print Assumptions C59_nothing_is_lost.

(** New names are pairwise distinct. *)
Theorem C59_new_names_are_distinct :
  forall name i j p q, extension (p_raw p) <> "jpg" -> extension (p_raw q) <> "jpg" ->
  new_image name i p <> new_raw name j q /\
  (new_image name i p = new_image name j q -> i = j) /\ (new_raw name i p = new_raw name j q -> i = j).
Proof.
  intros name i j p q Hp Hq. unfold new_image, new_raw. split; [|split]; intros H; apply new_name_inj in H.
  - destruct H as [_ H]. apply Hq. symmetry. exact H.
  - apply H.
  - apply H.
Qed.
Print Assumptions C59_new_names_are_distinct.

(** The numbers follow the capture dates, if the photos are sorted by date. *)
Theorem C59_numbers_follow_the_dates :
  forall photos, StronglySorted (fun p q => ~ earlier (p_date q) (p_date p)) photos ->
  forall i j p q, nth_error photos i = Some p -> nth_error photos j = Some q ->
  earlier (p_date p) (p_date q) -> (i < j)%nat.
Proof.
  intros photos H. induction H as [|a l Hl IH Ha]; intros i j p q Hi Hj He; [destruct i; discriminate|].
  destruct i as [|i], j as [|j]; cbn in Hi, Hj.
  - injection Hi as <-. injection Hj as <-. exfalso. unfold earlier in He. lia.
  - lia.
  - injection Hj as <-. exfalso. rewrite Forall_forall in Ha. apply (Ha p); [eapply nth_error_In; exact Hi|exact He].
  - pose proof (IH i j p q Hi Hj He). lia.
Qed.
Print Assumptions C59_numbers_follow_the_dates.

Example C59_numbers_follow_the_dates_ex :
  let p := Photo "z.JPG" (Date 2023 12 31 5) "z.CR2" in
  let q := Photo "a.JPG" (Date 2024 1 2 3) "a.CR2" in
  StronglySorted (fun p q => ~ earlier (p_date q) (p_date p)) [p; q] /\ earlier (p_date p) (p_date q) /\
  extension (p_raw p) <> "jpg" /\
  map (fun x => new_image "fire" (fst x) (snd x)) [(1, p); (2, q)] = ["231231_fire_1.jpg"; "240102_fire_2.jpg"] /\
  map (fun x => new_raw "fire" (fst x) (snd x)) [(1, p); (2, q)] = ["231231_fire_1.CR2"; "240102_fire_2.CR2"].
Proof.
  split; [repeat constructor; unfold earlier; cbn; lia|]. split; [unfold earlier; cbn; lia|].
  split; [discriminate|]. split; reflexivity.
Qed.

(** An example: two photos with raw files. *)
Definition d_ex : dir Z := fun x =>
  if (x =? "b.JPG")%string then Some 1 else if (x =? "b.CR2")%string then Some 2 else
  if (x =? "a.JPG")%string then Some 3 else if (x =? "a.CR2")%string then Some 4 else
  if (x =? "notes")%string then Some 5 else None.

Definition dates_ex (s : string) : date :=
  if (s =? "b.JPG")%string then Date 2024 1 2 10 else Date 2024 1 2 11.

Definition photos_ex : list photo := get_files d_ex dates_ex ["b.JPG"; "a.JPG"] ["CR3"; "CR2"].

Example C59_nothing_is_lost_ex :
  safe "fire" photos_ex d_ex /\
  map (fun p => p_raw p) photos_ex = ["b.CR2"; "a.CR2"] /\
  let d' := fst (rename_images_by_date "fire" photos_ex d_ex) in
  map d' ["240102_fire_1.jpg"; "240102_fire_1.CR2"; "240102_fire_2.jpg"; "240102_fire_2.CR2"; "b.JPG"; "notes"] =
  [Some 1; Some 2; Some 3; Some 4; None; Some 5].
Proof.
  split; [|split; vm_compute; reflexivity]. split; [|split].
  - vm_compute. repeat constructor; cbn; intuition discriminate.
  - intros p [<-|[<-|[]]]; vm_compute; repeat split; discriminate.
  - intros i p Hi. destruct i as [|[|i]]; [| |destruct i; discriminate];
      vm_compute in Hi; injection Hi as <-; split; vm_compute; reflexivity.
Qed.

(** An image without raw partner stops the tool with an error when it is
    reached: the photos before it have been renamed, it and all later ones not. *)
Theorem C59_image_without_raw_partner_stops :
  forall C name pre p post (d : dir C), safe name pre d -> p_raw p = "NaT" -> d "NaT" = None ->
  exists d', rename_images_by_date name pre d = (d', None) /\
    rename_images_by_date name (pre ++ p :: post)%list d = (d', Some FileNotFoundError).
Proof.
  intros C name pre p post d Hsafe Hp Hn.
  destruct (C59_nothing_is_lost C name pre d Hsafe) as (d' & R & P1 & P2). exists d'. split; [exact R|].
  unfold rename_images_by_date in *. rewrite rename_photos_moves in R |- *.
  assert (E : forall l1 l2 k, moves_of name k (l1 ++ l2)%list =
     (moves_of name k l1 ++ moves_of name (k + Z.of_nat (length l1)) l2)%list).
  { induction l1 as [|a l1 IH]; intros l2 k; cbn [moves_of app length].
    - rewrite Z.add_0_r. reflexivity.
    - rewrite IH. replace (k + 1 + Z.of_nat (length l1)) with (k + Z.of_nat (S (length l1))) by lia. reflexivity. }
  rewrite E, do_moves_app, R. cbn [moves_of do_moves]. rewrite Hp. unfold rename.
  assert (N : d' "NaT" = None).
  { destruct Hsafe as (_ & H2 & _). rewrite P2; [exact Hn|]. intros i q Hi.
    destruct (H2 q (nth_error_In _ _ Hi)) as (A & B & _).
    repeat split; intros G.
    - apply B. rewrite <- G. exact Hn.
    - apply A. rewrite <- G. exact Hn.
    - assert (U : has_char "_"%char "NaT" = true); [|discriminate U].
      rewrite G. unfold new_image, base_name. rewrite !has_char_app. cbn. rewrite !orb_true_r. reflexivity.
    - assert (U : has_char "_"%char "NaT" = true); [|discriminate U].
      rewrite G. unfold new_raw, base_name. rewrite !has_char_app. cbn. rewrite !orb_true_r. reflexivity. }
  rewrite N. reflexivity.
Qed.
Print Assumptions C59_image_without_raw_partner_stops.

Example C59_image_without_raw_partner_stops_ex :
  let photos := get_files d_ex dates_ex ["b.JPG"; "notes.JPG"; "a.JPG"] ["CR2"] in
  map p_raw photos = ["b.CR2"; "NaT"; "a.CR2"] /\
  snd (rename_images_by_date "fire" photos d_ex) = Some FileNotFoundError.
Proof. split; vm_compute; reflexivity. Qed.

(** Without fresh names the content of a file is lost: nothing in the directory
    holds it afterwards, and no error is reported. *)
Theorem C59_new_name_in_use_refuted :
  exists (d : dir Z) photos name, 
  StronglySorted (fun p q => ~ earlier (p_date q) (p_date p)) photos /\
  (forall p, In p photos -> d (p_raw p) <> None /\ d (p_image p) <> None /\ extension (p_raw p) <> "jpg") /\
  d "240102_fire_1.jpg" = Some 3 /\
  snd (rename_images_by_date name photos d) = None /\
  forall x, fst (rename_images_by_date name photos d) x <> Some 3.
Proof.
  exists (fun x => if (x =? "b.JPG")%string then Some 1 else if (x =? "b.CR2")%string then Some 2 else
     if (x =? "240102_fire_1.jpg")%string then Some 3 else if (x =? "240102_fire_1.CR2")%string then Some 4 else None),
    [Photo "b.JPG" (Date 2024 1 2 10) "b.CR2"; Photo "240102_fire_1.jpg" (Date 2024 1 2 11) "240102_fire_1.CR2"],
    "fire".
  split; [repeat constructor; unfold earlier; cbn; lia|].
  split; [intros p [<-|[<-|[]]]; vm_compute; repeat split; discriminate|].
  split; [reflexivity|]. split; [vm_compute; reflexivity|].
  intros x.
  match goal with |- fst (rename_images_by_date ?n ?ps ?d) x <> _ =>
    assert (E : forall y, fst (rename_images_by_date n ps d) y =
       if (y =? "240102_fire_2.jpg")%string then Some 1 else
       if (y =? "240102_fire_2.CR2")%string then Some 2 else
       if (y =? "240102_fire_1.jpg")%string then None else
       if (y =? "240102_fire_1.CR2")%string then None else
       if (y =? "b.JPG")%string then None else if (y =? "b.CR2")%string then None else None) end.
  { intros y.
    destruct (y =? "240102_fire_2.jpg")%string eqn:E1; [apply String.eqb_eq in E1; subst; vm_compute; reflexivity|].
    destruct (y =? "240102_fire_2.CR2")%string eqn:E2; [apply String.eqb_eq in E2; subst; vm_compute; reflexivity|].
    destruct (y =? "240102_fire_1.jpg")%string eqn:E3; [apply String.eqb_eq in E3; subst; vm_compute; reflexivity|].
    destruct (y =? "240102_fire_1.CR2")%string eqn:E4; [apply String.eqb_eq in E4; subst; vm_compute; reflexivity|].
    destruct (y =? "b.JPG")%string eqn:E5; [apply String.eqb_eq in E5; subst; vm_compute; reflexivity|].
    destruct (y =? "b.CR2")%string eqn:E6; [apply String.eqb_eq in E6; subst; vm_compute; reflexivity|].
    match goal with |- fst (rename_images_by_date ?n ?ps ?d) y = _ =>
      let t := eval cbv [rename_images_by_date rename_photos p_raw p_image] in (rename_images_by_date n ps d) in idtac end.
    unfold rename_images_by_date. rewrite rename_photos_moves.
    match goal with |- context [moves_of ?a ?b ?c] => let t := eval vm_compute in (moves_of a b c) in
      change (moves_of a b c) with t end.
    cbn [do_moves]. unfold rename at 1. cbn [String.eqb Ascii.eqb Bool.eqb].
    unfold rename at 1. cbn [String.eqb Ascii.eqb Bool.eqb].
    unfold rename at 1. cbn [String.eqb Ascii.eqb Bool.eqb].
    unfold rename at 1. cbn [String.eqb Ascii.eqb Bool.eqb].
    cbn [fst]. rewrite E1, E2, E3, E4, E5, E6. reflexivity. }
  rewrite E.
  repeat match goal with |- (if ?b then _ else _) <> _ => destruct b; [congruence|] end. congruence.
Qed.
Print Assumptions C59_new_name_in_use_refuted.
