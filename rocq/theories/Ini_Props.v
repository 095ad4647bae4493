(** Properties C76 to C79: configuration files. *)
From Coq Require Import ZArith Lia Bool Ascii String List.
From Verif Require Import Base Str Substr Demo_Model Demo_Props Config_Model Config_Props Ini_Model Ini_Facts.
Import ListNotations.
Local Open Scope string_scope.

(** ** Specification: the options of the two files and the constructor
    parameter each of them is meant to hold *)

Definition config_table : list (string * list (string * string)) := [
  ("DEFAULT", [("img_directory", "img_directory"); ("img_name_string", "img_name_string");
               ("num_img_overflow", "num_img_overflow"); ("first_img_experiment_id", "first_img_experiment_id");
               ("last_img_experiment_id", "last_img_experiment_id"); ("num_cores", "num_cores"); ("date", "date");
               ("start_time", "start_time"); ("time_img_id", "time_ref_img_id");
               ("time_ref_img_file", "time_ref_img_file"); ("time_ref_img_time", "time_ref_img_time");
               ("exif_time_infront_real_time", "time_diff_to_image_time")]);
  ("find_search_areas", [("ref_img_id", "ref_img_id"); ("pixel_value_percentile", "pixel_value_percentile");
               ("channel", "channel"); ("search_area_radius", "search_area_radius"); ("max_num_leds", "max_num_leds")]);
  ("analyse_positions", [("num_arrays", "num_arrays"); ("ignore_led_indices", "ignore_led_indices");
               ("led_array_edge_indices", "led_array_edge_indices");
               ("led_array_edge_coordinates", "led_array_edge_coordinates");
               ("merge_led_array_indices", "merge_led_array_indices")]);
  ("analyse_photo", [("first_img_analysis_id", "first_img_analysis_id"); ("last_img_analysis_id", "last_img_analysis_id");
               ("num_skip_imgs", "num_skip_imgs"); ("num_skip_leds", "num_skip_leds")])
].

Definition analysis_table : list (string * list (string * string)) := [
  ("DEFAULT", map (fun p => (p, p)) ["num_cores"; "reference_property"; "num_ref_images"; "ref_img_indices";
     "camera_channels"; "average_images"; "solver"; "weighting_preference"; "weighting_curvature"; "num_iterations"; "lambda_reg"]);
  ("experiment_geometry", [("camera_position", "camera_position")]);
  ("model_parameters", map (fun p => (p, p)) ["led_array_indices"; "num_layers"; "domain_bounds"])
].

(** A text on one line without blanks around it. *)
Definition plain (v : string) : Prop := has_char nl v = false /\ has_char cr v = false /\ strip v = v.

(** The options of a table with the values of the parameters. *)
Definition filled (table : list (string * list (string * string))) (val : string -> string) : list (string * list (string * option string)) :=
  map (fun s => (fst s, map (fun o => (fst o, Some (val (snd o)))) (snd s))) table.

(** ** Facts *)

Definition no_delim (k : string) : bool := negb (has_char "="%char k) && negb (has_char ":"%char k).

(** Checks on an option name that can be computed. *)
Definition option_name_ok (d : nat) (k : string) : bool :=
  negb (has_char nl k) && negb (strip k =? "")%string && negb (is_comment (strip k)) && (indent k =? d)%nat &&
  (lower (strip k) =? strip k)%string && no_delim k &&
  match lstrip k with String a _ => negb (Ascii.eqb a "["%char) | "" => false end.

Lemma option_ok : forall d k v, option_name_ok d k = true -> deep d v -> entry_ok d (k, Some v).
Proof.
  intros d k v H Hd. unfold option_name_ok, no_delim in H. rewrite !andb_true_iff, !negb_true_iff in H.
  destruct H as ((((((H1 & H2) & H3) & H4) & H5) & H6) & H7).
  apply String.eqb_neq in H2. apply Nat.eqb_eq in H4. apply String.eqb_eq in H5. destruct H6 as [H6 H6'].
  split; [exact H1|]. right. repeat split; try assumption.
  rewrite strip_option_line by exact H2. destruct (lstrip k) as [|a r]; [discriminate|].
  apply negb_true_iff in H7. cbn [append header]. now rewrite H7.
Qed.

Definition note_ok (k : string) : bool := negb (has_char nl k) && (is_comment (strip k) || (strip k =? "")%string).

Lemma comment_ok : forall d k, note_ok k = true -> entry_ok d (k, None).
Proof.
  intros d k H. unfold note_ok in H. rewrite andb_true_iff, negb_true_iff, orb_true_iff in H.
  destruct H as [H1 H2]. split; [exact H1|]. left. split; [reflexivity|].
  destruct H2 as [H2|H2]; [now left|]. right. now apply String.eqb_eq.
Qed.

Lemma has_char_concat : forall c l, Forall (fun s => has_char c s = false) l -> has_char c (String.concat "" l) = false.
Proof.
  intros c l H. induction H as [|s l Hs Hl IH]; [reflexivity|]. now rewrite concat_cons, has_char_app, Hs, IH.
Qed.

Lemma indent_lines_no_cr : forall v, has_char cr v = false -> has_char cr (indent_lines v) = false.
Proof.
  induction v as [|a v IH]; [reflexivity|]. cbn [has_char indent_lines]. rewrite orb_false_iff. intros [H1 H2].
  destruct (Ascii.eqb a nl); cbn [has_char].
  - change (Ascii.eqb nl cr) with false. change (Ascii.eqb tab cr) with false. now rewrite IH.
  - now rewrite H1, IH.
Qed.

Definition entry_no_cr (e : string * option string) : Prop :=
  has_char cr (fst e) = false /\ match snd e with Some v => has_char cr v = false | None => True end.

Lemma write_no_cr : forall t, Forall (fun s => has_char cr (fst s) = false /\ Forall entry_no_cr (snd s)) t ->
  has_char cr (write t) = false.
Proof.
  intros t H. unfold write. apply has_char_concat. apply Forall_map. eapply Forall_impl; [|exact H].
  intros [n es] [Hn He]. cbn [fst snd] in *.
  assert (G : has_char cr (write_section (n, es)) = false).
  { unfold write_section. cbn [fst snd].
    assert (C : has_char cr (String.concat "" (map write_option es)) = false); [|
      rewrite !has_char_app, Hn; cbn [has_char]; rewrite has_char_app, C; reflexivity].
    apply has_char_concat. apply Forall_map. eapply Forall_impl; [|exact He]. intros [k v] [Hk Hv]. cbn [fst snd] in *.
    unfold write_option. cbn [fst snd]. rewrite !has_char_app, Hk. cbn [orb has_char]. change (Ascii.eqb nl cr) with false.
    cbn [orb]. rewrite orb_false_r. destruct v as [v|]; [|reflexivity].
    rewrite has_char_app, indent_lines_no_cr by exact Hv. reflexivity. }
  now destruct (skipped (n, es)).
Qed.

Lemma reread_plain : forall v, has_char nl v = false -> reread v = strip v.
Proof.
  intros v H. unfold reread. rewrite split_on_no_char by exact H. cbn [reread_lines filter map].
  unfold join_value, join. cbn [String.concat]. unfold strip. apply rstrip_idem.
Qed.

Lemma deep_plain : forall d v, has_char nl v = false -> deep d v.
Proof. intros d v H. unfold deep. rewrite split_on_no_char by exact H. constructor. Qed.

Lemma deep_0 : forall v, deep 0 v.
Proof. intros v. unfold deep. apply Forall_forall. intros l _. right. right. lia. Qed.

Lemma map_rereads : forall t, reread_ini t = map (fun s => (fst s, flat_map rereads (snd s))) t.
Proof. reflexivity. Qed.

(** ** C76: the file created by --config *)

Ltac entries Hdeep :=
  repeat (apply Forall_cons; [first [apply comment_ok; reflexivity | apply option_ok; [reflexivity|apply Hdeep]]|]);
  apply Forall_nil.

Ltac no_crs Hcr :=
  repeat (apply Forall_cons; [split; [reflexivity|]; cbn [snd]; first [exact I|apply Hcr]|]); apply Forall_nil.

Ltac nodup := repeat (apply NoDup_cons; [cbn [In]; intuition discriminate|]); apply NoDup_nil.

(** Reading the file a constructor writes gives every option its parameter, and
    nothing else. *)
Theorem C76_created_file_is_read_back : forall arg,
  (forall p, has_char cr (arg p) = false /\ deep 3 (arg p)) ->
  load (new_file config_stmts arg) = Ok (filled config_table (fun p => reread (arg p))) /\
  load (new_file analysis_stmts arg) = Ok (filled analysis_table (fun p => reread (arg p))).
Proof.
  intros arg H.
  assert (Hcr : forall p, has_char cr (arg p) = false) by (intros p; apply H).
  assert (Hdeep : forall p, deep 3 (arg p)) by (intros p; apply H). clear H.
  split; unfold new_file.
  - set (t := new_config config_stmts arg). vm_compute in t. subst t.
    rewrite (load_write 3).
    + reflexivity.
    + repeat (apply Forall_cons; [split; [split; [discriminate|reflexivity]|cbn [snd]; entries Hdeep]|]).
      apply Forall_nil.
    + repeat (apply Forall_cons; [cbn [snd]; match goal with |- NoDup ?l => let x := eval vm_compute in l in change l with x end; nodup|]).
      apply Forall_nil.
    + cbn [map fst]. nodup.
    + apply write_no_cr. repeat (apply Forall_cons; [split; [reflexivity|cbn [snd]; no_crs Hcr]|]).
      apply Forall_nil.
  - set (t := new_config analysis_stmts arg). vm_compute in t. subst t.
    rewrite (load_write 3).
    + reflexivity.
    + repeat (apply Forall_cons; [split; [split; [discriminate|reflexivity]|cbn [snd]; entries Hdeep]|]).
      apply Forall_nil.
    + repeat (apply Forall_cons; [cbn [snd]; match goal with |- NoDup ?l => let x := eval vm_compute in l in change l with x end; nodup|]).
      apply Forall_nil.
    + cbn [map fst]. nodup.
    + apply write_no_cr. repeat (apply Forall_cons; [split; [reflexivity|cbn [snd]; no_crs Hcr]|]).
      apply Forall_nil.
Qed.
Print Assumptions C76_created_file_is_read_back.

(** Texts on one line are read back exactly. *)
Theorem C76_plain_values_are_kept : forall arg, (forall p, plain (arg p)) ->
  load (new_file config_stmts arg) = Ok (filled config_table arg) /\
  load (new_file analysis_stmts arg) = Ok (filled analysis_table arg).
Proof.
  intros arg H.
  assert (E : forall p, reread (arg p) = arg p).
  { intros p. destruct (H p) as (H1 & _ & H2). now rewrite reread_plain. }
  destruct (C76_created_file_is_read_back arg) as [A B].
  { intros p. destruct (H p) as (H1 & H2 & _). split; [exact H2|]. now apply deep_plain. }
  rewrite A, B. unfold filled.
  split; f_equal; apply map_ext; intros s; f_equal; apply map_ext; intros o; now rewrite E.
Qed.
Print Assumptions C76_plain_values_are_kept.

(** Every option of the two tables can be looked up. *)
Theorem C76_every_option_is_found : forall arg, (forall p, plain (arg p)) ->
  forall stmts table, (stmts, table) = (config_stmts, config_table) \/ (stmts, table) = (analysis_stmts, analysis_table) ->
  exists t, load (new_file stmts arg) = Ok t /\
    forall c os o p, In (c, os) table -> In (o, p) os -> lookup t c o = Ok (Some (arg p)).
Proof.
  intros arg H stmts table Hst. destruct (C76_plain_values_are_kept arg H) as [A B].
  destruct Hst as [E|E]; injection E as -> ->; [rewrite A|rewrite B]; eexists; (split; [reflexivity|]);
    intros c os o p Hc Ho; cbn [In config_table analysis_table] in Hc;
    repeat (destruct Hc as [Hc|Hc]; [apply pair_equal_spec in Hc; destruct Hc as [<- <-]; cbn [In map] in Ho;
      repeat (destruct Ho as [Ho|Ho]; [apply pair_equal_spec in Ho; destruct Ho as [<- <-]; vm_compute; reflexivity|]);
      destruct Ho|]); destruct Hc.
Qed.
Print Assumptions C76_every_option_is_found.

(** The object itself cannot be used before it is read from its file: it has
    none of the options. *)
Theorem C76_new_object_has_no_options : forall arg,
  forall stmts table, (stmts, table) = (config_stmts, config_table) \/ (stmts, table) = (analysis_stmts, analysis_table) ->
  forall c os o p, In (c, os) table -> In (o, p) os -> lookup (new_config stmts arg) c o = Err KeyError.
Proof.
  intros arg stmts table Hst c os o p Hc Ho.
  destruct Hst as [E|E]; injection E as -> ->; cbn [In config_table analysis_table] in Hc;
    repeat (destruct Hc as [Hc|Hc]; [apply pair_equal_spec in Hc; destruct Hc as [<- <-]; cbn [In map] in Ho;
      repeat (destruct Ho as [Ho|Ho]; [apply pair_equal_spec in Ho; destruct Ho as [<- <-]; vm_compute; reflexivity|]);
      destruct Ho|]); destruct Hc.
Qed.
Print Assumptions C76_new_object_has_no_options.

(** The option the time reference is read from is never in the file. *)
Theorem C76_time_reference_id_refuted :
  exists c o, c = "DEFAULT" /\ o = "time_ref_img_id" /\
  forall arg t, (forall p, plain (arg p)) -> load (new_file config_stmts arg) = Ok t -> lookup t c o = Err KeyError.
Proof.
  exists "DEFAULT", "time_ref_img_id". split; [reflexivity|]. split; [reflexivity|].
  intros arg t H E. destruct (C76_plain_values_are_kept arg H) as [A _]. rewrite A in E. apply Ok_inj in E. subst t.
  reflexivity.
Qed.
Print Assumptions C76_time_reference_id_refuted.

(** The values used by the demo, demo_setup.py:44-68. *)
Definition demo_arg (p : string) : string :=
  if (p =? "img_directory")%string then "../image_data/"
  else if (p =? "img_name_string")%string then "V001_Cam01_{}.CR2"
  else if (p =? "start_time")%string then "15:36:07"
  else if (p =? "num_cores")%string then "4"
  else "None".

Example C76_demo_values_are_plain : forall p, plain (demo_arg p).
Proof.
  intros p. unfold demo_arg, plain.
  repeat match goal with |- context[if ?b then _ else _] => destruct b end; repeat split; reflexivity.
Qed.

Example C76_demo_file : exists t, load (new_file config_stmts demo_arg) = Ok t /\
  lookup t "DEFAULT" "start_time" = Ok (Some "15:36:07") /\ lookup t "analyse_photo" "num_cores" = Ok (Some "4") /\
  lookup t "DEFAULT" "ref_img_id" = Err KeyError.
Proof. eexists. split; [vm_compute; reflexivity|]. repeat split; reflexivity. Qed.
