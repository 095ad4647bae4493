(** The main program and the demo: setting up the demo, C92 *)
From Coq Require Import ZArith Lia Bool Ascii String List Sorted.
From Verif Require Import Base Str Substr Demo_Model Config_Model Ini_Model Ini_Facts Ini_Props Ini_Props2 Images_Model
  Cli_Model Main_Model.
Import ListNotations.
Local Open Scope string_scope.
Local Open Scope Z_scope.

(** ** C92 *)

(** A question is repeated until the answer is yes or no, in any case. *)
Theorem C92_prompt : forall answers b rest,
  proceed_prompt answers = Some (b, rest) <->
  exists invalid a, answers = (invalid ++ a :: rest)%list /\
    Forall (fun x => lower x <> "yes" /\ lower x <> "no") invalid /\ lower a = (if b then "yes" else "no").
Proof.
  intros answers b rest. split.
  - induction answers as [|a answers IH]; [discriminate|]. cbn [proceed_prompt].
    destruct (String.eqb_spec (lower a) "yes") as [E|N1].
    + intros H. assert (b = true /\ rest = answers) as [-> ->] by (split; congruence). exists [], a. repeat split; [constructor|exact E].
    + destruct (String.eqb_spec (lower a) "no") as [E|N2].
      * intros H. assert (b = false /\ rest = answers) as [-> ->] by (split; congruence). exists [], a. repeat split; [constructor|exact E].
      * intros H. destruct (IH H) as (inv & a' & -> & F & E). exists (a :: inv), a'. repeat split; [constructor; auto|exact E].
  - intros (inv & a & -> & F & E). induction inv as [|x inv IH]; cbn [app proceed_prompt].
    + rewrite E. destruct b; reflexivity.
    + inversion F as [|? ? [N1 N2] F']; subst. apply String.eqb_neq in N1, N2. rewrite N1, N2. apply IH. exact F'.
Qed.
Print Assumptions C92_prompt.

(** Nothing is changed unless the question is answered with yes, and the second
    question too if there is an earlier setup. *)
Theorem C92_changes_need_consent : forall marked answers l, setup_demo marked answers = Some l ->
  (l <> [] <-> exists rest, proceed_prompt answers = Some (true, rest) /\
                 (marked = true -> exists rest', proceed_prompt rest = Some (true, rest'))) /\
  (l <> [] -> l = [MakeDirectories; ExtractImages; WriteMarker; WriteConfig; WriteAnalysisConfig]).
Proof.
  intros marked answers l. unfold setup_demo. destruct (proceed_prompt answers) as [[[] rest]|]; [|intros H; apply Some_inj in H; subst l|discriminate].
  - destruct marked.
    + destruct (proceed_prompt rest) as [[[] rest']|] eqn:E; [| |discriminate]; intros H; apply Some_inj in H; subst l.
      * split; [|reflexivity]. split; [|discriminate]. intros _. exists rest. split; [reflexivity|]. intros _. eauto.
      * split; [|congruence]. split; [congruence|]. intros (r & Hr & K). assert (r = rest) by congruence. subst r.
        destruct (K eq_refl) as (r' & Hr'). congruence.
    + intros H. apply Some_inj in H. subst l. split; [|reflexivity]. split; [|discriminate]. intros _. exists rest. split; [reflexivity|discriminate].
  - split; [|congruence]. split; [congruence|]. intros (r & Hr & _). discriminate.
Qed.
Print Assumptions C92_changes_need_consent.

(** When a setup is interrupted after some of its changes: the marker of a successful
    setup means that the images are extracted. *)
Theorem C92_marker_means_images : forall marked answers before after,
  setup_demo marked answers = Some (before ++ after)%list -> In WriteMarker before -> In ExtractImages before.
Proof.
  intros marked answers before after H I. destruct (C92_changes_need_consent _ _ _ H) as [_ K].
  assert (E : (before ++ after)%list = [MakeDirectories; ExtractImages; WriteMarker; WriteConfig; WriteAnalysisConfig]).
  { apply K. destruct before; [destruct I|discriminate]. }
  destruct before as [|x1 before]; [destruct I|]. injection E as -> E. destruct I as [I|I]; [discriminate|].
  destruct before as [|x2 before]; [destruct I|]. injection E as -> E. right. left. reflexivity.
Qed.
Print Assumptions C92_marker_means_images.

(** It does not mean that the setup was successful: the configuration files are
    written later. *)
Theorem C92_marker_means_success_refuted : exists marked answers before after,
  setup_demo marked answers = Some (before ++ after)%list /\ In WriteMarker before /\
  ~ In WriteConfig before /\ ~ In WriteAnalysisConfig before.
Proof.
  exists false, ["Yes"], [MakeDirectories; ExtractImages; WriteMarker], [WriteConfig; WriteAnalysisConfig].
  split; [reflexivity|]. split; [cbn; tauto|]. split; cbn; intuition discriminate.
Qed.
Print Assumptions C92_marker_means_success_refuted.

Definition flat (root b : string) : Prop := has_char "/"%char b = false /\ b <> "" /\ b <> root.

Lemma basename_join : forall root b, has_char "/"%char b = false -> basename (root ++ String "/"%char b) = b.
Proof.
  induction root as [|a root IH]; intros b H.
  - cbn [append basename]. rewrite H. reflexivity.
  - cbn [append basename].
    assert (E : has_char "/"%char (root ++ String "/"%char b) = true).
    { clear. induction root as [|x root IH]; [reflexivity|]. cbn [append has_char]. rewrite IH. apply orb_true_r. }
    rewrite E. apply IH. exact H.
Qed.

Lemma top_join : forall root b, has_char "/"%char root = false -> top_directory (root ++ String "/"%char b) = Some root.
Proof.
  intros root b H. unfold top_directory.
  assert (E : has_char "/"%char (root ++ String "/"%char b) = true).
  { clear. induction root as [|x root IH]; [reflexivity|]. cbn [append has_char]. rewrite IH. apply orb_true_r. }
  rewrite E. f_equal. clear E. induction root as [|a root IH]; [reflexivity|].
  cbn [has_char] in H. apply orb_false_iff in H. destruct H as [A B]. cbn [append split_on].
  rewrite Ascii.eqb_sym in A.
  destruct (Ascii.eqb a "/"%char) eqn:E; [rewrite Ascii.eqb_sym in A; congruence|].
  specialize (IH B). destruct (split_on "/"%char (root ++ String "/"%char b)); cbn [hd] in *; subst; reflexivity.
Qed.

Lemma join_inj : forall root b b', (root ++ String "/"%char b = root ++ String "/"%char b')%string -> b = b'.
Proof. induction root as [|a root IH]; intros b b' H; cbn [append] in H; [congruence|]. apply IH. cbn [append] in H. congruence. Qed.

(** The members of an archive with one directory. *)
Definition in_directory (root : string) (fs : list (string * string)) : list (string * string) :=
  map (fun f => (root ++ String "/"%char (fst f), snd f)) fs.

Lemma extract_flat : forall root first fs dirs files, has_char "/"%char root = false ->
  Forall (fun f => flat root (fst f) /\ root ++ String "/"%char (fst f) <> first) fs ->
  (forall d, In d dirs -> d = root) ->
  exists files', extract_members first (in_directory root fs) dirs files = Ok files' /\
    forall name, get name files' = match get name (rev fs) with Some c => Some c | None => get name files end.
Proof.
  intros root first fs. induction fs as [|[b c] fs IH]; intros dirs files R F D.
  - exists files. split; [reflexivity|]. intros name. reflexivity.
  - inversion F as [|? ? [(N1 & N2 & N3) N4] F']; subst. cbn [fst snd in_directory map] in *. cbn [extract_members].
    apply String.eqb_neq in N4. rewrite N4. rewrite basename_join by exact N1. rewrite top_join by exact R.
    apply String.eqb_neq in N2. rewrite N2.
    assert (E : existsb (fun d => (d =? b)%string) (root :: dirs) = false).
    { destruct (existsb _ _) eqn:E; [|reflexivity]. apply existsb_exists in E. destruct E as (d & Hd & E). apply String.eqb_eq in E. subst d.
      destruct Hd as [Hd|Hd]; [congruence|]. apply D in Hd. congruence. }
    rewrite E. destruct (IH (root :: dirs) (put b c files) R F') as (files' & Hf & G).
    { intros d [<-|Hd]; [reflexivity|auto]. }
    exists files'. split; [exact Hf|]. intros name. rewrite G. cbn [rev].
    assert (GA : forall (l1 l2 : list (string * string)), get name (l1 ++ l2)%list = match get name l1 with Some x => Some x | None => get name l2 end).
    { induction l1 as [|[q v] l1 IHl]; intros l2; [reflexivity|]. cbn [app get]. destruct (q =? name)%string; [reflexivity|apply IHl]. }
    rewrite GA. destruct (get name (rev fs)); [reflexivity|]. cbn [get]. destruct (String.eqb_spec b name) as [->|Nn].
    + rewrite get_put_same. reflexivity.
    + rewrite get_put_other by exact Nn. reflexivity.
Qed.

(** From an archive that starts with its directory, every file in this directory is
    extracted; files with other names from an earlier setup stay. *)
Theorem C92_images_are_extracted : forall root fs files,
  has_char "/"%char root = false -> Forall (fun f => flat root (fst f)) fs ->
  exists files', extract_images ((root ++ "/", "") :: in_directory root fs) files = Ok files' /\
    (forall name content, NoDup (map fst fs) -> In (name, content) fs -> get name files' = Some content) /\
    (forall name, ~ In name (map fst fs) -> get name files' = get name files).
Proof.
  intros root fs files R F. unfold extract_images. cbn [extract_members]. rewrite String.eqb_refl.
  destruct (extract_flat root (root ++ "/") fs [] files R) as (files' & E & G).
  { apply Forall_forall. intros f Hf. rewrite Forall_forall in F. specialize (F f Hf). split; [exact F|]. destruct F as (_ & N & _).
    intros H. apply N. apply (join_inj root _ "" H). }
  { intros d []. }
  assert (GN : forall name (l : list (string * string)), ~ In name (map fst l) -> get name l = None).
  { intros name l. induction l as [|[q v] l IH]; intros H; [reflexivity|]. cbn [get]. destruct (String.eqb_spec q name) as [->|N].
    - exfalso. apply H. left. reflexivity.
    - apply IH. intros I. apply H. right. exact I. }
  exists files'. split; [exact E|]. split.
  - intros name content ND I. rewrite G.
    assert (X : get name (rev fs) = Some content); [|rewrite X; reflexivity].
    assert (ND' : NoDup (map fst (rev fs))) by (rewrite map_rev; apply NoDup_rev; exact ND).
    apply in_rev in I. revert ND' I. generalize (rev fs). clear -GN. induction l as [|[q v] l IH]; intros ND I; [destruct I|].
    cbn [get]. cbn [map fst] in ND. inversion ND as [|? ? N1 N2]; subst. destruct I as [I|I].
    + injection I as -> ->. rewrite String.eqb_refl. reflexivity.
    + destruct (String.eqb_spec q name) as [->|_]; [|apply IH; assumption].
      exfalso. apply N1. apply in_map_iff. exists (name, content). split; [reflexivity|exact I].
  - intros name H. rewrite G. rewrite GN; [reflexivity|]. rewrite map_rev. intros I. apply H. apply in_rev. exact I.
Qed.
Print Assumptions C92_images_are_extracted.

(** From an archive without an entry for the directory, the first image is missing. *)
Theorem C92_archive_without_directory : forall root b c fs files,
  has_char "/"%char root = false -> Forall (fun f => flat root (fst f)) fs -> ~ In b (map fst fs) ->
  exists files', extract_images (in_directory root ((b, c) :: fs)) files = Ok files' /\ get b files' = get b files /\
    (forall name content, NoDup (map fst fs) -> In (name, content) fs -> get name files' = Some content).
Proof.
  intros root b c fs files R F N. unfold extract_images. cbn [in_directory map fst snd]. cbn [extract_members]. rewrite String.eqb_refl.
  destruct (extract_flat root (root ++ String "/"%char b) fs [] files R) as (files' & E & G).
  { apply Forall_forall. intros f Hf. rewrite Forall_forall in F. split; [exact (F f Hf)|].
    intros H. apply join_inj in H. apply N. rewrite <- H. apply in_map. exact Hf. }
  { intros d []. }
  assert (GN : forall name (l : list (string * string)), ~ In name (map fst l) -> get name l = None).
  { intros name l. induction l as [|[q v] l IH]; intros H; [reflexivity|]. cbn [get]. destruct (String.eqb_spec q name) as [->|N'].
    - exfalso. apply H. left. reflexivity.
    - apply IH. intros I. apply H. right. exact I. }
  exists files'. split; [exact E|]. split.
  - rewrite G. rewrite GN; [reflexivity|]. rewrite map_rev. intros I. apply N. apply in_rev. exact I.
  - intros name content ND I. rewrite G.
    assert (X : get name (rev fs) = Some content); [|rewrite X; reflexivity].
    assert (ND' : NoDup (map fst (rev fs))) by (rewrite map_rev; apply NoDup_rev; exact ND).
    apply in_rev in I. revert ND' I. generalize (rev fs). clear -GN. induction l as [|[q v] l IH]; intros ND I; [destruct I|].
    cbn [get]. cbn [map fst] in ND. inversion ND as [|? ? N1 N2]; subst. destruct I as [I|I].
    + injection I as -> ->. rewrite String.eqb_refl. reflexivity.
    + destruct (String.eqb_spec q name) as [->|_]; [|apply IH; assumption].
      exfalso. apply N1. apply in_map_iff. exists (name, content). split; [reflexivity|exact I].
Qed.
Print Assumptions C92_archive_without_directory.

(** A second directory in the archive ends the setup with an exception, before the
    marker is written. *)
Theorem C92_second_directory_fails : forall root fs sub rest files,
  has_char "/"%char root = false -> Forall (fun f => flat root (fst f)) fs -> sub <> "" ->
  extract_images (((root ++ "/")%string, "") :: in_directory root fs ++
                  ((root ++ String "/"%char (sub ++ "/"))%string, "") :: rest)%list files = Err OSError.
Proof.
  intros root fs sub rest files R F S. unfold extract_images. cbn [extract_members]. rewrite String.eqb_refl.
  assert (D : forall d, In d (@nil string) -> d = root) by (intros d []). revert D. generalize (@nil string). revert files.
  induction fs as [|[b c] fs IH]; intros files dirs D.
  - cbn [in_directory map app extract_members].
    destruct (String.eqb_spec (root ++ String "/"%char (sub ++ "/")) (root ++ "/")) as [H|_].
    { apply (join_inj root _ "") in H. destruct sub; [congruence|discriminate]. }
    assert (B : basename (root ++ String "/"%char (sub ++ "/")) = "").
    { change (String "/"%char (sub ++ "/")) with ("/" ++ (sub ++ String "/"%char "")).
      rewrite <- !app_assoc_s. apply basename_join. reflexivity. }
    rewrite B. reflexivity.
  - inversion F as [|? ? (N1 & N2 & N3) F']; subst. cbn [fst snd in_directory map app] in *. cbn [extract_members].
    destruct (String.eqb_spec (root ++ String "/"%char b) (root ++ "/")) as [H|_].
    { exfalso. apply N2. apply (join_inj root _ "" H). }
    rewrite basename_join by exact N1. rewrite top_join by exact R. apply String.eqb_neq in N2. rewrite N2.
    assert (E : existsb (fun d => (d =? b)%string) (root :: dirs) = false).
    { destruct (existsb _ _) eqn:E; [|reflexivity]. apply existsb_exists in E. destruct E as (d & Hd & E). apply String.eqb_eq in E. subst d.
      destruct Hd as [Hd|Hd]; [congruence|]. apply D in Hd. congruence. }
    rewrite E. apply IH; [exact F'|]. intros d [<-|Hd]; [reflexivity|auto].
Qed.
Print Assumptions C92_second_directory_fails.

Example C92_example :
  setup_demo true ["maybe"; "YES"; "y"; "no"] = Some [] /\ setup_demo false [] = None /\
  extract_images [("imgs/", ""); ("imgs/a.CR2", "A"); ("imgs/b.CR2", "B")] [("old.CR2", "O"); ("b.CR2", "old B")] =
    Ok [("old.CR2", "O"); ("b.CR2", "B"); ("a.CR2", "A")] /\
  extract_images [("imgs/a.CR2", "A"); ("imgs/b.CR2", "B")] [] = Ok [("b.CR2", "B")] /\
  extract_images [("imgs/", ""); ("imgs/sub/", ""); ("imgs/sub/a.CR2", "A")] [] = Err OSError /\
  extract_images [] [] = Err IndexError.
Proof. vm_compute. repeat split; reflexivity. Qed.
