(** C105: the list of the images step 3 works on. *)
From Coq Require Import ZArith Lia Bool Ascii String List.
From Verif Require Import Base Str Images_Model Images_Props Restart_Model Restart_Props Todo_Model.
Import ListNotations.
Local Open Scope string_scope.
Local Open Scope Z_scope.

(** ** Specification *)

(** A name as it comes out of the table of the images: comments are cut there already. *)
Definition table_name (n : string) : Prop := n <> "" /\ has_char "#"%char n = false.

Definition has_blank (n : string) : Prop := has_char " "%char n = true.

(** ** Proofs *)

Lemma todo_rows : forall names, Forall table_name names ->
  filter (fun s => negb (s =? "")%string) (map cut_comment names) = names.
Proof.
  intros names H. induction H as [|n l (H1 & H2) F IH]; [reflexivity|]. cbn [map filter]. rewrite cut_comment_id by exact H2.
  destruct (String.eqb_spec n ""); [contradiction|]. cbn [negb]. rewrite IH. reflexivity.
Qed.

Lemma pieces : forall c s, (has_char c s = false /\ split_on c s = [s]) \/
  (has_char c s = true /\ exists p q l, split_on c s = p :: q :: l).
Proof.
  intros c s. destruct (has_char c s) eqn:E; [right|left; split; [reflexivity|apply split_on_no_char; exact E]]. split; [reflexivity|].
  destruct (split_on c s) as [|p [|q l]] eqn:S.
  - exfalso. apply (split_on_nonempty c s S).
  - exfalso. assert (X : forall t x, split_on c t = [x] -> has_char c t = false).
    { clear. induction t as [|a t IH]; intros x H; [reflexivity|]. cbn [split_on has_char] in *. destruct (Ascii.eqb a c) eqn:Ea.
      - injection H as _ H. exfalso. apply (split_on_nonempty c t H).
      - cbn [orb]. destruct (split_on c t) as [|y [|z m]] eqn:St; try discriminate; [exfalso; apply (split_on_nonempty c t St)|]. eapply IH. reflexivity. }
    rewrite (X _ _ S) in E. discriminate.
  - exists p, q, l. reflexivity.
Qed.

Lemma piece_no_char : forall c s p, In p (split_on c s) -> has_char c p = false.
Proof.
  intros c. induction s as [|a s IH]; intros p H; [destruct H as [<-|[]]; reflexivity|]. cbn [split_on] in H. destruct (Ascii.eqb a c) eqn:E.
  - destruct H as [<-|H]; [reflexivity|apply IH; exact H].
  - destruct (split_on c s) as [|y m] eqn:S; [exfalso; apply (split_on_nonempty c s S)|]. destruct H as [<-|H].
    + cbn [has_char]. rewrite E. cbn [orb]. apply IH. left. reflexivity.
    + apply IH. right. exact H.
Qed.

Lemma flat_pieces : forall c l, Forall (fun n => has_char c n = false) l -> concat (map (split_on c) l) = l.
Proof. intros c l H. induction H as [|n l H F IH]; [reflexivity|]. cbn [map concat]. rewrite split_on_no_char by exact H. cbn [app]. rewrite IH. reflexivity. Qed.

Lemma read_plain : forall names, Forall table_name names -> Forall (fun n => ~ has_blank n) names -> read_todo (todo_file names) = Ok (Flat names).
Proof.
  intros names H B. assert (B' : Forall (fun n => has_char " "%char n = false) names).
  { eapply Forall_impl; [|exact B]. unfold has_blank. intros n X. destruct (has_char " "%char n); congruence. }
  unfold read_todo, todo_file. rewrite (todo_rows names H). cbv zeta. destruct names as [|n [|m l]]; [reflexivity| |].
  - inversion B'; subst. cbn [map]. rewrite split_on_no_char by assumption. reflexivity.
  - assert (W : forall k, In k (n :: m :: l) -> split_on " "%char k = [k]) by (intros k Hk; apply split_on_no_char; rewrite Forall_forall in B'; apply B'; exact Hk).
    transitivity (Ok (Flat (concat (map (split_on " "%char) (n :: m :: l))))); [|rewrite flat_pieces by exact B'; reflexivity]. cbn [map].
    rewrite (W n) by (left; reflexivity). rewrite (W m) by (right; left; reflexivity). cbn [List.length Nat.eqb forallb andb].
    replace (forallb _ _) with true; [reflexivity|]. symmetry. apply forallb_forall. intros x Hx. apply in_map_iff in Hx. destruct Hx as (k & <- & Hk).
    rewrite (W k) by (right; right; exact Hk). reflexivity.
Qed.

Lemma read_blank : forall names, Forall table_name names -> Exists has_blank names ->
  read_todo (todo_file names) = Err ValueError \/ (exists rows, read_todo (todo_file names) = Ok (Grid rows)) \/
  exists n p l, names = [n] /\ read_todo (todo_file names) = Ok (Flat (p :: l)) /\ has_char " "%char p = false.
Proof.
  intros names H B. unfold read_todo, todo_file. rewrite (todo_rows names H). cbv zeta. destruct names as [|n [|m l]]; [inversion B| |].
  - right. right. inversion B as [? ? X|? ? X]; subst; [|inversion X]. destruct (pieces " "%char n) as [(E & _)|(_ & p & q & r & S)]; [unfold has_blank in X; congruence|].
    exists n, p, (q :: r). split; [reflexivity|]. cbn [map]. rewrite S. split; [reflexivity|]. apply (piece_no_char _ n). rewrite S. left. reflexivity.
  - cbn [map]. destruct (forallb _ _) eqn:F; [|left; reflexivity]. right. left.
    destruct (pieces " "%char n) as [(E & S)|(_ & p & q & r & S)].
    + exfalso. rewrite S in F. rewrite forallb_forall in F.
      assert (X : forall k, In k (m :: l) -> ~ has_blank k).
      { intros k Hk C. destruct (pieces " "%char k) as [(E' & _)|(_ & p & q & r & S')]; [unfold has_blank in C; congruence|].
        assert (G : In (split_on " "%char k) (split_on " "%char m :: map (split_on " "%char) l)) by (change (In (split_on " "%char k) (map (split_on " "%char) (m :: l))); apply in_map; exact Hk).
        specialize (F _ G). rewrite S' in F. discriminate. }
      inversion B as [? ? Y|? ? Y]; subst; [unfold has_blank in Y; congruence|]. apply Exists_exists in Y. destruct Y as (k & K1 & K2). exact (X k K1 K2).
    + rewrite S. cbn [List.length Nat.eqb]. eexists. reflexivity.
Qed.

(** The names are read back exactly if none of them contains a blank. *)
Theorem C105_names_are_read_back_iff : forall names, Forall table_name names ->
  (read_todo (todo_file names) = Ok (Flat names) <-> Forall (fun n => ~ has_blank n) names).
Proof.
  intros names H. split; [|apply read_plain; exact H]. intros R. apply Forall_forall. intros n Hn C.
  assert (B : Exists has_blank names) by (apply Exists_exists; exists n; split; assumption).
  destruct (read_blank names H B) as [E|[(rows & E)|(m & p & l & -> & E & P)]]; rewrite E in R; try discriminate.
  apply Ok_inj in R. injection R as -> ->. destruct Hn as [<-|[]]. unfold has_blank in C. congruence.
Qed.
Print Assumptions C105_names_are_read_back_iff.

(** Then step 3 works on these images. *)
Theorem C105_step3_works_on_the_listed_images : forall j tab chans fit names,
  Forall table_name names -> Forall (fun n => ~ has_blank n) names ->
  process_todo j tab chans fit (todo_file names) = process_serial j tab chans fit names.
Proof. intros j tab chans fit names H B. unfold process_todo. rewrite (read_plain names H B). reflexivity. Qed.
Print Assumptions C105_step3_works_on_the_listed_images.

(** With a blank in a single name step 3 fails before the first image. *)
Theorem C105_one_blank_stops_step3 : forall j tab chans fit,
  Forall (fun e => table_name (snd e)) tab -> Exists (fun e => has_blank (snd e)) tab ->
  exists e, process_todo j tab chans fit (todo_file (all_images tab)) = ([], Err e) /\ (e = ValueError \/ e = NameError).
Proof.
  intros j tab chans fit H B.
  assert (H' : Forall table_name (all_images tab)) by (unfold all_images; rewrite Forall_map; exact H).
  assert (B' : Exists has_blank (all_images tab)) by (unfold all_images; rewrite Exists_map; exact B).
  unfold process_todo. destruct (read_blank _ H' B') as [E|[(rows & E)|(n & p & l & En & E & P)]]; rewrite E.
  - exists ValueError. split; [reflexivity|left; reflexivity].
  - destruct tab as [|e tab]; [inversion B|]. exists ValueError. split; [reflexivity|left; reflexivity].
  - exists NameError. split; [|right; reflexivity]. rewrite En in B'. inversion B' as [? ? X|? ? X]; subst; [|inversion X].
    destruct tab as [|[i m] [|? ?]]; try discriminate. cbn [all_images map snd] in En. injection En as ->.
    cbn [process_serial]. unfold process_img. cbn [id_of]. destruct (String.eqb_spec n p); [subst p; unfold has_blank in X; congruence|reflexivity].
Qed.
Print Assumptions C105_one_blank_stops_step3.

(** A restart with a single image left can even work on other images, and end without an
    error although the image is not done. *)
Theorem C105_restart_works_on_other_images_refuted :
  exists j tab s c names s', restart_images s tab c names /\
    (forall i, s (c, i) <> None -> In i (map fst tab)) /\
    process_todo j tab [c] false (todo_file names) = (s', Ok tt) /\
    (exists i n, In (i, n) tab /\ In n names /\ apply_puts s' s (c, i) = None) /\
    (exists i, s (c, i) <> None /\ In (c, i) (map fst s')).
Proof.
  set (tab := [(1, "a"); (2, "b"); (3, "a b")]).
  set (s := (fun k => if rkey_eqb (0, 1) k then Some ["x"] else if rkey_eqb (0, 2) k then Some ["x"] else None) : files).
  exists (Job (fun _ _ _ => Ok ["r"]) (fun _ _ _ _ => Ok "h")), tab, s, 0, ["a b"].
  eexists. split; [|split; [|split; [|split]]].
  - exists [1; 2], ["a b"]. split; [|split; [reflexivity|split; [tauto|constructor; [intros []|constructor]]]].
    intros id. unfold s, rkey_eqb. cbn [fst snd]. change (0 =? 0) with true. cbn [andb]. destruct (Z.eqb_spec 1 id); [subst id; split; [intros _; discriminate|intros _; cbn; tauto]|].
    destruct (Z.eqb_spec 2 id); [subst id; split; [intros _; discriminate|intros _; cbn; tauto]|]. split; [intros [X|[X|[]]]; lia|intros X; exfalso; apply X; reflexivity].
  - intros i X. unfold s, rkey_eqb in X. cbn [fst snd] in X. change (0 =? 0) with true in X. cbn [andb] in X. cbn [tab map fst In]. destruct (Z.eqb_spec 1 i); [tauto|]. destruct (Z.eqb_spec 2 i); [tauto|exfalso; apply X; reflexivity].
  - vm_compute. reflexivity.
  - exists 3, "a b". split; [cbn; tauto|]. split; [cbn; tauto|]. vm_compute. reflexivity.
  - exists 1. split; [discriminate|]. cbn. tauto.
Qed.
Print Assumptions C105_restart_works_on_other_images_refuted.

Example C105_example :
  read_todo (todo_file ["IMG_1.JPG"]) = Ok (Flat ["IMG_1.JPG"]) /\ read_todo (todo_file []) = Ok (Flat []) /\
  read_todo (todo_file ["IMG_1.JPG"; "IMG_2.JPG"]) = Ok (Flat ["IMG_1.JPG"; "IMG_2.JPG"]) /\
  read_todo (todo_file ["Foto 1.JPG"]) = Ok (Flat ["Foto"; "1.JPG"]) /\
  read_todo (todo_file ["Foto 1.JPG"; "Foto 2.JPG"]) = Ok (Grid [["Foto"; "1.JPG"]; ["Foto"; "2.JPG"]]) /\
  read_todo (todo_file ["IMG_1.JPG"; "Foto 2.JPG"]) = Err ValueError /\
  Forall table_name ["Foto 1.JPG"; "IMG_2.JPG"].
Proof.
  do 6 (split; [vm_compute; reflexivity|]). do 2 (apply Forall_cons; [split; [discriminate|reflexivity]|]). apply Forall_nil.
Qed.
