(** C116: what the answers to the questions of the photo renamer do, and what the
    log is good for. *)
From Coq Require Import ZArith Lia Bool Ascii String List.
From Verif Require Import Base Str Substr Renamer_Model Renamer_Props Dialogue_Model.
Import ListNotations.
Local Open Scope string_scope.
Local Open Scope Z_scope.

(** Answers that are neither yes nor no. *)
Definition unclear (a : string) : Prop := a <> "y" /\ a <> "n".

Lemma questions_unclear : forall C name photos f pre rest (d : dir C), Forall unclear pre ->
  questions name photos f (pre ++ rest)%list d = questions name photos f rest d.
Proof.
  intros C name photos f. induction pre as [|a pre IH]; intros rest d H; [reflexivity|].
  inversion H as [|? ? [Hy Hn] H']; subst. cbn [app questions].
  rewrite (proj2 (String.eqb_neq a "y") Hy), (proj2 (String.eqb_neq a "n") Hn). apply IH. exact H'.
Qed.

(** As long as nobody says yes, no file but the log is touched; after a no the log
    of the renames that have not been made stays. *)
Theorem C116_no_renames_nothing :
  forall C csv name photos f pre rest (d : dir C), Forall unclear pre ->
  (forall d' e, rename_dialogue csv name photos f (pre ++ "n" :: rest)%list d = (d', e) ->
     e = Exited /\ d' f = Some (csv (log_rows name photos)) /\ forall x, x <> f -> d' x = d x) /\
  (forall d' e, rename_dialogue csv name photos f pre d = (d', e) -> e = Waiting /\ forall x, x <> f -> d' x = d x).
Proof.
  intros C csv name photos f pre rest d Hpre.
  assert (W : forall x, x <> f -> write_file d f (csv (log_rows name photos)) x = d x).
  { intros x Hx. unfold write_file. rewrite (proj2 (String.eqb_neq x f) Hx). reflexivity. }
  split; intros d' e; unfold rename_dialogue.
  - rewrite questions_unclear by exact Hpre. cbn [questions]. cbn [String.eqb]. intros H. injection H as <- <-.
    split; [reflexivity|]. split; [unfold write_file; rewrite String.eqb_refl; reflexivity|exact W].
  - rewrite <- (app_nil_r pre), questions_unclear by exact Hpre. cbn [questions]. intros H. injection H as <- <-.
    split; [reflexivity|exact W].
Qed.
Print Assumptions C116_no_renames_nothing.

(** The renames have been made in [d'], and no other file but the log was touched. *)
Definition all_renamed {C} (name : string) (photos : list photo) (f : string) (d d' : dir C) : Prop :=
  (forall i p, nth_error photos i = Some p ->
     d' (new_image name (1 + Z.of_nat i) p) = d (p_image p) /\
     d' (new_raw name (1 + Z.of_nat i) p) = d (p_raw p) /\
     d' (p_image p) = None /\ d' (p_raw p) = None) /\
  (forall x, x <> f ->
     (forall i p, nth_error photos i = Some p ->
        x <> p_image p /\ x <> p_raw p /\ x <> new_image name (1 + Z.of_nat i) p /\ x <> new_raw name (1 + Z.of_nat i) p) ->
     d' x = d x).

(** The name of the log is not the name of a photo, neither before nor after. *)
Definition log_apart (name : string) (photos : list photo) (f : string) : Prop :=
  forall i p, nth_error photos i = Some p ->
    f <> p_image p /\ f <> p_raw p /\ f <> new_image name (1 + Z.of_nat i) p /\ f <> new_raw name (1 + Z.of_nat i) p.

Lemma safe_write : forall C name photos f (c : C) d, log_apart name photos f -> safe name photos d ->
  safe name photos (write_file d f c).
Proof.
  intros C name photos f c d Hf (H1 & H2 & H3). split; [exact H1|].
  assert (W : forall x, f <> x -> write_file d f c x = d x).
  { intros x Hx. unfold write_file. rewrite (proj2 (String.eqb_neq x f)); [reflexivity|congruence]. }
  split.
  - intros p Hp. destruct (In_nth_error _ _ Hp) as (i & Hi). destruct (Hf i p Hi) as (A & B & _).
    rewrite !W by assumption. apply H2. exact Hp.
  - intros i p Hi. destruct (Hf i p Hi) as (_ & _ & A & B). rewrite !W by assumption. apply H3. exact Hi.
Qed.

(** After a yes the files have their new names, and the second answer decides about
    the log alone. *)
Theorem C116_yes_renames_once :
  forall C csv name photos f pre keep rest (d : dir C), Forall unclear pre ->
  safe name photos d -> log_apart name photos f -> keep = "y" \/ keep = "n" ->
  exists d', rename_dialogue csv name photos f (pre ++ "y" :: keep :: rest)%list d = (d', Exited) /\
    all_renamed name photos f d d' /\
    d' f = (if (keep =? "y")%string then Some (csv (log_rows name photos)) else None).
Proof.
  intros C csv name photos f pre keep rest d Hpre Hsafe Hf Hk.
  pose proof (safe_write C name photos f (csv (log_rows name photos)) d Hf Hsafe) as HS.
  unfold rename_dialogue. rewrite questions_unclear by exact Hpre. set (d0 := write_file d f (csv (log_rows name photos))) in *.
  assert (W : forall x, f <> x -> d0 x = d x).
  { intros x Hx. unfold d0, write_file. rewrite (proj2 (String.eqb_neq x f)); [reflexivity|congruence]. }
  destruct (C59_nothing_is_lost C name photos d0 HS) as (d1 & R & P1 & P2).
  assert (Hlog : d1 f = Some (csv (log_rows name photos))).
  { rewrite P2; [unfold d0, write_file; rewrite String.eqb_refl; reflexivity|exact Hf]. }
  assert (A1 : forall d', (forall x, x <> f -> d' x = d1 x) -> all_renamed name photos f d d').
  { intros d' E. split.
    - intros i p Hi. destruct (Hf i p Hi) as (F1 & F2 & F3 & F4). rewrite !E by congruence.
      rewrite <- (W (p_image p)), <- (W (p_raw p)) by assumption. apply P1. exact Hi.
    - intros x Hx Hn. rewrite E by exact Hx. rewrite P2 by exact Hn. apply W. congruence. }
  cbn [questions]. cbn [String.eqb Ascii.eqb Bool.eqb]. rewrite R.
  destruct Hk as [-> | ->]; cbn [String.eqb Ascii.eqb Bool.eqb].
  - exists d1. split; [reflexivity|]. split; [apply A1; reflexivity|exact Hlog].
  - unfold remove_file. rewrite Hlog. eexists. split; [reflexivity|]. split.
    + apply A1. intros x Hx. cbv beta. rewrite (proj2 (String.eqb_neq x f) Hx). reflexivity.
    + cbv beta. rewrite String.eqb_refl. reflexivity.
Qed.
Print Assumptions C116_yes_renames_once.

(** The log is complete: its head line is followed by one row for each photo with
    the old names and the names that were given. *)
Theorem C116_log_lists_the_photos :
  forall name photos, exists rows, log_rows name photos =
      Row "old_image_name" "new_image_name" "old_raw_name" "new_raw_name" :: rows /\
    List.length rows = List.length photos /\
    forall i p, nth_error photos i = Some p ->
    nth_error rows i = Some (Row (p_image p) (new_image name (1 + Z.of_nat i) p) (p_raw p) (new_raw name (1 + Z.of_nat i) p)).
Proof.
  intros name photos. exists (preview name 1 photos). split; [reflexivity|]. generalize 1. induction photos as [|q r IH]; intros k.
  - split; [reflexivity|]. intros i p H. destruct i; discriminate.
  - cbn [preview List.length]. destruct (IH (k + 1)) as [L H]. split; [rewrite L; reflexivity|]. intros [|i] p Hi.
    + apply Some_inj in Hi. subst q. rewrite Z.add_0_r. reflexivity.
    + cbn [nth_error] in Hi |- *. replace (k + Z.of_nat (S i)) with (k + 1 + Z.of_nat i) by lia. apply H. exact Hi.
Qed.
Print Assumptions C116_log_lists_the_photos.

(** Going back: each row of the log after the head line is undone. *)
Fixpoint undo {C} (rows : list row) (d : dir C) : dir C * option exn :=
  match rows with
  | [] => (d, None)
  | w :: r =>
    match rename d (new_raw_name w) (old_raw w) with
    | Err e => (d, Some e)
    | Ok d1 => match rename d1 (new_image_name w) (old_image w) with
               | Err e => (d1, Some e)
               | Ok d2 => undo r d2
               end
    end
  end.

Lemma undo_moves : forall C name photos count (d : dir C),
  undo (preview name count photos) d = do_moves (map (fun m => (snd m, fst m)) (moves_of name count photos)) d.
Proof.
  intros C name. induction photos as [|p r IH]; intros count d; [reflexivity|].
  cbn [preview undo moves_of map do_moves fst snd new_raw_name old_raw new_image_name old_image].
  destruct (rename d (new_raw name count p) (p_raw p)) as [d1|]; [|reflexivity].
  destruct (rename d1 (new_image name count p) (p_image p)) as [d2|]; [|reflexivity]. apply IH.
Qed.

(** With the log that was kept the renames can be undone: every file is back. *)
Theorem C116_log_undoes_the_renames :
  forall C csv name photos f pre rest (d : dir C), Forall unclear pre ->
  safe name photos d -> log_apart name photos f ->
  exists d' rows, rename_dialogue csv name photos f (pre ++ "y" :: "y" :: rest)%list d = (d', Exited) /\
    d' f = Some (csv rows) /\
    exists d'', undo (tl rows) d' = (d'', None) /\ forall x, x <> f -> d'' x = d x.
Proof.
  intros C csv name photos f pre rest d Hpre Hsafe Hf.
  destruct (C116_yes_renames_once C csv name photos f pre "y" rest d Hpre Hsafe Hf (or_introl eq_refl)) as (d' & R & _ & L).
  exists d', (log_rows name photos). split; [exact R|]. split; [exact L|]. cbn [log_rows tl]. rewrite undo_moves.
  pose proof (safe_write C name photos f (csv (log_rows name photos)) d Hf Hsafe) as HS.
  unfold rename_dialogue in R. rewrite questions_unclear in R by exact Hpre.
  set (d0 := write_file d f (csv (log_rows name photos))) in *.
  assert (W : forall x, x <> f -> d0 x = d x).
  { intros x Hx. unfold d0, write_file. rewrite (proj2 (String.eqb_neq x f) Hx). reflexivity. }
  destruct (safe_moves C name photos d0 HS) as (M1 & M2 & M3 & M4).
  cbn [questions String.eqb Ascii.eqb Bool.eqb] in R. unfold rename_images_by_date in R. rewrite rename_photos_moves in R.
  set (ms := moves_of name 1 photos) in *.
  assert (MX : forall b, In b (map snd ms) -> ~ In b (map fst ms)).
  { intros b Hb Ha. apply (M3 b Ha). apply M4. exact Hb. }
  destruct (do_moves_spec C ms d0 M1 M2 M3 MX) as (d1 & R1 & P1 & P2 & P3). rewrite R1 in R. injection R as <-.
  set (back := map (fun m => (snd m, fst m)) ms).
  assert (B1 : map fst back = map snd ms) by (unfold back; rewrite map_map; reflexivity).
  assert (B2 : map snd back = map fst ms) by (unfold back; rewrite map_map; reflexivity).
  destruct (do_moves_spec C back d1) as (d2 & R2 & Q1 & Q2 & Q3).
  { rewrite B1. exact M2. } { rewrite B2. exact M1. }
  { rewrite B1. intros b Hb. apply in_map_iff in Hb as ([a b'] & <- & Hab). cbn [snd]. rewrite (P1 a b' Hab).
    apply M3. apply in_map_iff. exists (a, b'). auto. }
  { rewrite B1, B2. intros a Ha Hb. exact (MX a Hb Ha). }
  exists d2. split; [exact R2|]. intros x Hx. rewrite <- (W x Hx).
  destruct (in_dec string_dec x (map fst ms)) as [Ha|Ha].
  - apply in_map_iff in Ha as ([a b] & <- & Hab). cbn [fst]. rewrite (Q1 b a).
    + apply P1. exact Hab.
    + unfold back. apply in_map_iff. exists (a, b). auto.
  - destruct (in_dec string_dec x (map snd ms)) as [Hb|Hb].
    + rewrite Q2 by (rewrite B1; exact Hb). symmetry. apply M4. exact Hb.
    + rewrite Q3 by (rewrite ?B1, ?B2; assumption). apply P3; assumption.
Qed.
Print Assumptions C116_log_undoes_the_renames.

(** An answer to the second question that is neither yes nor no leads back to the
    first one, and a second yes ends the tool with an error at the first photo: its
    old name does not exist any more. *)
Theorem C116_unclear_second_answer_asks_again :
  forall C csv name photos f pre keep between rest (d : dir C), Forall unclear pre -> unclear keep -> Forall unclear between ->
  photos <> [] -> safe name photos d -> log_apart name photos f ->
  exists d', all_renamed name photos f d d' /\ d' f = Some (csv (log_rows name photos)) /\
    rename_dialogue csv name photos f (pre ++ "y" :: keep :: between ++ "n" :: rest)%list d = (d', Exited) /\
    rename_dialogue csv name photos f (pre ++ "y" :: keep :: between ++ "y" :: rest)%list d = (d', Raised FileNotFoundError).
Proof.
  intros C csv name photos f pre keep between rest d Hpre [Ky Kn] Hbet Hne Hsafe Hf.
  destruct (C116_yes_renames_once C csv name photos f pre "y" [] d Hpre Hsafe Hf (or_introl eq_refl)) as (d' & R & HA & L).
  cbn [String.eqb Ascii.eqb Bool.eqb] in L. exists d'. split; [exact HA|]. split; [exact L|].
  unfold rename_dialogue in *. rewrite questions_unclear in R by exact Hpre.
  rewrite (questions_unclear C name photos f pre ("y" :: keep :: between ++ "n" :: rest)%list) by exact Hpre.
  rewrite (questions_unclear C name photos f pre ("y" :: keep :: between ++ "y" :: rest)%list) by exact Hpre.
  cbn [questions String.eqb Ascii.eqb Bool.eqb] in R |- *.
  destruct (rename_images_by_date name photos _) as [d1 [e|]]; [discriminate|]. injection R as <-.
  rewrite (proj2 (String.eqb_neq keep "y") Ky), (proj2 (String.eqb_neq keep "n") Kn).
  rewrite (questions_unclear C name photos f between ("n" :: rest)) by exact Hbet.
  rewrite (questions_unclear C name photos f between ("y" :: rest)) by exact Hbet.
  cbn [questions String.eqb Ascii.eqb Bool.eqb]. split; [reflexivity|].
  destruct photos as [|p r]; [congruence|]. destruct HA as [HA _]. destruct (HA 0%nat p eq_refl) as (_ & _ & _ & E).
  unfold rename_images_by_date. cbn [rename_photos].
  replace (rename d1 (p_raw p) (new_raw name 1 p)) with (@Err (dir C) FileNotFoundError) by (unfold rename; rewrite E; reflexivity).
  reflexivity.
Qed.
Print Assumptions C116_unclear_second_answer_asks_again.

(** The example of C59 with its log. *)
Definition log_ex : string := "2024_01_05_10_00_00_fire_rename_log.csv".

Example C116_example :
  (Forall unclear [""; "yes"] /\ safe "fire" photos_ex d_ex /\ log_apart "fire" photos_ex log_ex /\ photos_ex <> []) /\
  log_rows "fire" photos_ex =
    [Row "old_image_name" "new_image_name" "old_raw_name" "new_raw_name";
     Row "b.JPG" "240102_fire_1.jpg" "b.CR2" "240102_fire_1.CR2";
     Row "a.JPG" "240102_fire_2.jpg" "a.CR2" "240102_fire_2.CR2"] /\
  (let run answers := rename_dialogue (fun rows => Z.of_nat (List.length rows)) "fire" photos_ex log_ex answers d_ex in
   let look answers := (map (fst (run answers)) ["b.JPG"; "240102_fire_1.jpg"; log_ex], snd (run answers)) in
   look [""; "yes"] = ([Some 1; None; Some 3], Waiting) /\
   look [""; "n"] = ([Some 1; None; Some 3], Exited) /\
   look [""; "y"; "y"] = ([None; Some 1; Some 3], Exited) /\
   look ["y"; "n"] = ([None; Some 1; None], Exited) /\
   look ["y"; "yes"; "y"] = ([None; Some 1; Some 3], Raised FileNotFoundError) /\
   map (fst (undo (tl (log_rows "fire" photos_ex)) (fst (run ["y"; "y"])))) ["b.JPG"; "240102_fire_1.jpg"] = [Some 1; None]).
Proof.
  split; [|split; [vm_compute; reflexivity|cbv zeta; do 5 (split; [vm_compute; reflexivity|]); vm_compute; reflexivity]].
  split; [constructor; [split; discriminate|constructor; [split; discriminate|constructor]]|].
  split; [exact (proj1 C59_nothing_is_lost_ex)|]. split; [|discriminate].
  intros i p Hi. destruct i as [|[|i]]; [| |destruct i; discriminate]; apply Some_inj in Hi; subst p;
    vm_compute; (split; [discriminate|split; [discriminate|split; discriminate]]).
Qed.

(** An image without raw file ends the tool after a yes: the photos before it have
    their new names, all other files are as before, and the log with the renames that
    were planned stays. *)
Theorem C116_stops_at_an_image_without_raw_file :
  forall C csv name before p after f pre rest (d : dir C), Forall unclear pre ->
  safe name before d -> log_apart name before f -> p_raw p = "NaT" -> d "NaT" = None -> f <> "NaT" ->
  let photos := (before ++ p :: after)%list in
  exists d', rename_dialogue csv name photos f (pre ++ "y" :: rest)%list d = (d', Raised FileNotFoundError) /\
    all_renamed name before f d d' /\ d' f = Some (csv (log_rows name photos)).
Proof.
  intros C csv name before p after f pre rest d Hpre Hsafe Hf Hp Hn Hfn photos.
  set (c := csv (log_rows name photos)).
  pose proof (safe_write C name before f c d Hf Hsafe) as HS.
  unfold rename_dialogue. rewrite questions_unclear by exact Hpre. fold c. set (d0 := write_file d f c) in *.
  assert (W : forall x, f <> x -> d0 x = d x).
  { intros x Hx. unfold d0, write_file. rewrite (proj2 (String.eqb_neq x f)); [reflexivity|congruence]. }
  destruct (C59_nothing_is_lost C name before d0 HS) as (d1 & R & P1 & P2).
  destruct (C59_image_without_raw_partner_stops C name before p after d0 HS Hp) as (d2 & R2 & R3); [rewrite W by exact Hfn; exact Hn|].
  assert (d2 = d1) by congruence. subst d2. exists d1. split; [|split].
  - cbn [questions]. cbn [String.eqb Ascii.eqb Bool.eqb]. unfold photos. rewrite R3. reflexivity.
  - split.
    + intros i q Hi. destruct (Hf i q Hi) as (F1 & F2 & F3 & F4).
      rewrite <- (W (p_image q)), <- (W (p_raw q)) by assumption. apply P1. exact Hi.
    + intros x Hx Hnot. rewrite P2 by exact Hnot. apply W. congruence.
  - rewrite P2; [unfold d0, write_file; rewrite String.eqb_refl; reflexivity|exact Hf].
Qed.
Print Assumptions C116_stops_at_an_image_without_raw_file.

(** The case of the next theorem satisfies the hypotheses. *)
Example C116_stops_example :
  let photos := get_files d_ex dates_ex ["b.JPG"; "notes"; "a.JPG"] ["CR2"] in
  exists before p after, photos = (before ++ p :: after)%list /\ map p_image before = ["b.JPG"] /\ map p_image after = ["a.JPG"] /\
    safe "fire" before d_ex /\ log_apart "fire" before log_ex /\ p_raw p = "NaT" /\ d_ex "NaT" = None /\ log_ex <> "NaT".
Proof.
  cbv zeta. set (photos := get_files d_ex dates_ex ["b.JPG"; "notes"; "a.JPG"] ["CR2"]). vm_compute in photos.
  eexists [_], _, [_]. split; [reflexivity|]. split; [reflexivity|]. split; [reflexivity|]. split; [|split; [|split; [reflexivity|split; [reflexivity|discriminate]]]].
  - destruct (proj1 C59_nothing_is_lost_ex) as (N & H2 & H3). split; [|split].
    + vm_compute. constructor; [intros [C|[]]; discriminate|constructor; [intros []|constructor]].
    + intros q [<-|[]]. apply H2. left. vm_compute. reflexivity.
    + intros [|i] q Hi; [|destruct i; discriminate]. apply Some_inj in Hi. subst q. split; reflexivity.
  - intros [|i] q Hi; [|destruct i; discriminate]. apply Some_inj in Hi. subst q. vm_compute. split; [discriminate|split; [discriminate|split; discriminate]].
Qed.

(** When the tool stops in the middle, the log lists renames that were not made: an
    image without raw file stops it, the photo after it keeps its name, and the log
    says that it was renamed. *)
Theorem C116_log_after_an_error_refuted :
  exists (d : dir Z) photos f w,
  In w (tl (log_rows "fire" photos)) /\
  snd (rename_dialogue (fun rows => Z.of_nat (List.length rows)) "fire" photos f ["y"] d) = Raised FileNotFoundError /\
  let d' := fst (rename_dialogue (fun rows => Z.of_nat (List.length rows)) "fire" photos f ["y"] d) in
  d' f = Some 4 /\ d (old_image w) = Some 3 /\ d' (new_image_name w) = None /\ d' (old_image w) = Some 3.
Proof.
  exists d_ex, (get_files d_ex dates_ex ["b.JPG"; "notes"; "a.JPG"] ["CR2"]), log_ex, (Row "a.JPG" "240102_fire_3.jpg" "a.CR2" "240102_fire_3.CR2").
  split; [right; right; left; vm_compute; reflexivity|]. split; [vm_compute; reflexivity|]. cbv zeta.
  do 3 (split; [vm_compute; reflexivity|]). vm_compute; reflexivity.
Qed.
Print Assumptions C116_log_after_an_error_refuted.
