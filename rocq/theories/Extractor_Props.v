(** C112: constructing a DataExtractor. *)
From Coq Require Import ZArith Lia Bool Ascii String List.
From Verif Require Import Base Str Extractor_Model.
Import ListNotations.
Local Open Scope string_scope.
Local Open Scope Z_scope.

(** ** Specification *)

(** The directories that are needed for the channels. *)
Definition needed (cs : list Z) (p : string) : Prop :=
  p = "plots" \/ p = "analysis" \/ exists c, In c cs /\ p = "analysis/channel" ++ str_of_Z c.

(** [e'] is [e] with the missing ones of some directories added. *)
Definition adds (P : string -> Prop) (e e' : string -> option entry) : Prop :=
  forall p, (e p <> None -> e' p = e p) /\ (e p = None -> P p -> e' p = Some Directory) /\ (e p = None -> ~ P p -> e' p = None).

(** ** Lemmas *)

Lemma mkdir_same : forall p e, mkdir p e p = Some Directory.
Proof. intros. unfold mkdir. rewrite String.eqb_refl. reflexivity. Qed.
Lemma mkdir_other : forall p q e, q <> p -> mkdir p e q = e q.
Proof. intros p q e H. unfold mkdir. destruct (String.eqb_spec q p); [contradiction|reflexivity]. Qed.

Lemma ensure_adds : forall q e, adds (fun p => p = q) e (ensure q e).
Proof.
  intros q e p. unfold ensure. destruct (e q) eqn:E.
  - split; [reflexivity|]. split; [intros N ->; congruence|intros N _; exact N].
  - split; [intros H; apply mkdir_other; intros ->; contradiction|]. split; [intros _ ->; apply mkdir_same|intros N H; rewrite mkdir_other by exact H; exact N].
Qed.

Lemma adds_step : forall P Q a b c, (forall p, P p \/ ~ P p) -> adds P a b -> adds Q b c -> adds (fun p => P p \/ Q p) a c.
Proof.
  intros P Q a b c D H1 H2 p. destruct (H1 p) as (A1 & A2 & A3). destruct (H2 p) as (B1 & B2 & B3). split; [|split].
  - intros N. rewrite B1; [apply A1; exact N|]. rewrite A1 by exact N. exact N.
  - intros N H. destruct (D p) as [H'|H'].
    + rewrite B1; [apply A2; assumption|]. rewrite (A2 N H'). discriminate.
    + destruct H as [H|H]; [contradiction|]. apply B2; [apply A3; assumption|exact H].
  - intros N H. apply B3; [apply A3; [exact N|tauto]|tauto].
Qed.

Lemma adds_iff : forall P Q a b, (forall p, P p <-> Q p) -> adds P a b -> adds Q a b.
Proof. intros P Q a b E H p. destruct (H p) as (A1 & A2 & A3). rewrite (E p) in *. split; [exact A1|split; [exact A2|exact A3]]. Qed.

Lemma channel_dir_not_analysis : forall c, channel_dir c <> "analysis".
Proof. intros c H. unfold channel_dir in H. discriminate H. Qed.

Lemma channel_dirs_ok : forall cs e, e "analysis" = Some Directory ->
  exists e', channel_dirs cs e = (Ok tt, e') /\ adds (fun p => exists c, In c cs /\ p = channel_dir c) e e'.
Proof.
  induction cs as [|c cs IH]; intros e H.
  - exists e. split; [reflexivity|]. intros p. split; [reflexivity|]. split; [intros _ (c & [] & _)|intros N _; exact N].
  - cbn [channel_dirs]. unfold exists_below. rewrite H. destruct (e (channel_dir c)) as [x|] eqn:E.
    + destruct (IH e H) as (e' & E1 & E2). exists e'. split; [exact E1|]. intros p. destruct (E2 p) as (A1 & A2 & A3). split; [exact A1|]. split.
      * intros N (c' & [->|Hc'] & Ep); [subst p; congruence|]. apply A2; [exact N|]. exists c'. split; assumption.
      * intros N Hn. apply A3; [exact N|]. intros (c' & Hc' & Ep). apply Hn. exists c'. split; [right; exact Hc'|exact Ep].
    + destruct (IH (mkdir (channel_dir c) e)) as (e' & E1 & E2).
      { rewrite mkdir_other; [exact H|]. intros C. symmetry in C. exact (channel_dir_not_analysis c C). }
      exists e'. split; [exact E1|]. apply (adds_iff (fun p => p = channel_dir c \/ exists c', In c' cs /\ p = channel_dir c')).
      { intros p. split; [intros [->|(c' & H1 & H2)]; [exists c; split; [left; reflexivity|reflexivity]|exists c'; split; [right; exact H1|exact H2]]|].
        intros (c' & [->|H1] & H2); [left; exact H2|right; exists c'; split; assumption]. }
      apply (adds_step _ _ e (mkdir (channel_dir c) e)); [intros p; destruct (string_dec p (channel_dir c)); tauto| |exact E2].
      intros p. split; [intros N; apply mkdir_other; intros ->; contradiction|]. split; [intros _ ->; apply mkdir_same|intros N Hn; rewrite mkdir_other by exact Hn; exact N].
Qed.

Lemma two_dirs : forall e, adds (fun p => p = "plots" \/ p = "analysis") e (ensure "analysis" (ensure "plots" e)).
Proof. intros e. eapply adds_step; [|apply ensure_adds|apply ensure_adds]. intros p. cbv beta. destruct (string_dec p "plots"); tauto. Qed.

Lemma analysis_after : forall e, ensure "analysis" (ensure "plots" e) "analysis" = match e "analysis" with Some x => Some x | None => Some Directory end.
Proof.
  intros e. destruct (two_dirs e "analysis") as (A1 & A2 & _). destruct (e "analysis") as [x|] eqn:E; [apply A1; discriminate|]. apply A2; [reflexivity|right; reflexivity].
Qed.

(** ** The theorems *)

(** With the default channels the constructor always fails; it has created no
    directory, but without [load_config_file] a new config.ini has replaced
    the former one. *)
Theorem C112_default_channels_fail : forall fresh rest load w, exists w',
  construct fresh rest load default_channels w = (Err TypeError, w') /\
  entries w' = entries w /\ ini w' = (if load then ini w else Some fresh).
Proof. intros fresh rest load w. eexists. split; [reflexivity|]. destruct load; split; reflexivity. Qed.
Print Assumptions C112_default_channels_fail.

(** All needed directories are there before the first question is asked;
    nothing that was there has changed and nothing else is new. *)
Theorem C112_needed_directories : forall fresh rest load cs w, entries w "analysis" <> Some File ->
  exists w1, construct fresh rest load (Several cs) w = rest cs w1 /\ adds (needed cs) (entries w) (entries w1) /\
    ini w1 = (if load then ini w else Some fresh).
Proof.
  intros fresh rest load cs w Ha. unfold construct. cbn [list_channels].
  assert (E : entries (if load then w else Place (entries w) (Some fresh)) = entries w) by (destruct load; reflexivity). rewrite E.
  unfold create_needed_directories. destruct (channel_dirs_ok cs (ensure "analysis" (ensure "plots" (entries w)))) as (e' & E1 & E2).
  { rewrite analysis_after. destruct (entries w "analysis") as [[]|]; [reflexivity|contradiction|reflexivity]. }
  rewrite E1. eexists. split; [reflexivity|]. split; [|destruct load; reflexivity]. cbn [entries].
  apply (adds_iff (fun p => (p = "plots" \/ p = "analysis") \/ exists c, In c cs /\ p = channel_dir c)).
  { intros p. unfold needed, channel_dir. tauto. }
  eapply adds_step; [|apply two_dirs|exact E2]. intros p. cbv beta. destruct (string_dec p "plots"), (string_dec p "analysis"); tauto.
Qed.
Print Assumptions C112_needed_directories.

(** If they all are there already, for example from a former construction,
    nothing is created. *)
Theorem C112_second_time_nothing_is_created : forall fresh rest load cs w,
  entries w "analysis" <> Some File -> (forall p, needed cs p -> entries w p <> None) ->
  exists w1, construct fresh rest load (Several cs) w = rest cs w1 /\ forall p, entries w1 p = entries w p.
Proof.
  intros fresh rest load cs w Ha N. destruct (C112_needed_directories fresh rest load cs w Ha) as (w1 & E1 & E2 & _).
  exists w1. split; [exact E1|]. intros p. destruct (E2 p) as (B1 & _ & B3). destruct (entries w p) as [x|] eqn:E; [apply B1; discriminate|].
  apply B3; [reflexivity|]. intros C. exact (N p C E).
Qed.
Print Assumptions C112_second_time_nothing_is_created.

(** A file named analysis makes it fail; at most the directory plots is new. *)
Theorem C112_file_named_analysis : forall fresh rest load c cs w, entries w "analysis" = Some File ->
  exists w', construct fresh rest load (Several (c :: cs)) w = (Err OSError, w') /\ adds (fun p => p = "plots") (entries w) (entries w').
Proof.
  intros fresh rest load c cs w Ha. unfold construct. cbn [list_channels].
  assert (E : entries (if load then w else Place (entries w) (Some fresh)) = entries w) by (destruct load; reflexivity). rewrite E.
  unfold create_needed_directories. cbn [channel_dirs]. unfold exists_below. rewrite analysis_after, Ha.
  eexists. split; [reflexivity|]. cbn [entries]. unfold ensure at 1.
  assert (P : ensure "plots" (entries w) "analysis" = Some File). { destruct (ensure_adds "plots" (entries w) "analysis") as (A1 & _). rewrite A1; [exact Ha|congruence]. }
  rewrite P. apply ensure_adds.
Qed.
Print Assumptions C112_file_named_analysis.

(** ** Examples *)

Definition eg_place : place := Place (fun p => if (p =? "analysis")%string then Some Directory else if (p =? "analysis/channel0")%string then Some Directory else None) (Some "[DEFAULT]").

(** Channels 0 and 2; the directory of channel 0 is there. *)
Example C112_two_channels : exists w1,
  construct "new" (fun _ w => (Ok tt, w)) true (Several [0; 2]) eg_place = (Ok tt, w1) /\
  map (entries w1) ["plots"; "analysis"; "analysis/channel0"; "analysis/channel1"; "analysis/channel2"] =
    [Some Directory; Some Directory; Some Directory; None; Some Directory] /\ ini w1 = Some "[DEFAULT]".
Proof. eexists. split; [reflexivity|]. split; [vm_compute; reflexivity|reflexivity]. Qed.

Example C112_two_channels_by_theorem : exists w1,
  construct "new" (fun _ w => (Ok tt, w)) true (Several [0; 2]) eg_place = (Ok tt, w1) /\ adds (needed [0; 2]) (entries eg_place) (entries w1).
Proof.
  destruct (C112_needed_directories "new" (fun _ w => (Ok tt, w)) true [0; 2] eg_place) as (w1 & E1 & E2 & _); [discriminate|]. exists w1. split; assumption.
Qed.

Example C112_again : exists w1,
  construct "new" (fun _ w => (Ok tt, w)) true (Several [0]) (Place (mkdir "plots" (entries eg_place)) None) = (Ok tt, w1) /\
  forall p, entries w1 p = mkdir "plots" (entries eg_place) p.
Proof.
  apply (C112_second_time_nothing_is_created "new" (fun _ w => (Ok tt, w)) true [0] (Place (mkdir "plots" (entries eg_place)) None)); [discriminate|].
  intros p [->|[->|(c & [<-|[]] & ->)]]; vm_compute; discriminate.
Qed.

(** The default channels, without loading: the former config.ini is gone. *)
Example C112_default_channels : exists w',
  construct "new" (fun _ w => (Ok tt, w)) false default_channels eg_place = (Err TypeError, w') /\ ini eg_place = Some "[DEFAULT]" /\ ini w' = Some "new".
Proof. eexists. split; [reflexivity|]. split; reflexivity. Qed.

Example C112_file : exists w',
  construct "new" (fun _ w => (Ok tt, w)) true (Several [0]) (Place (fun p => if (p =? "analysis")%string then Some File else None) None) = (Err OSError, w') /\
  entries w' "plots" = Some Directory /\ entries w' "analysis" = Some File.
Proof. eexists. split; [reflexivity|]. split; reflexivity. Qed.
