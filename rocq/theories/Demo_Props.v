(** Property C61: editing one parameter of a configuration file. *)
From Coq Require Import ZArith Lia Bool Ascii String List.
From Verif Require Import Base Str Substr Demo_Model.
Import ListNotations.
Local Open Scope string_scope.

(** A complete line: no newline except one at the end. *)
Definition is_line (l : string) : Prop := exists b, l = b ++ String nl "" /\ has_char nl b = false.

Lemma concat_cons : forall x l, String.concat "" (x :: l) = x ++ String.concat "" l.
Proof. intros x [|y l]; cbn; [rewrite app_nil_s|]; reflexivity. Qed.

Lemma readlines_line : forall b s, has_char nl b = false ->
  readlines (b ++ String nl s) = (b ++ String nl "") :: readlines s.
Proof.
  induction b as [|c b IH]; intros s H.
  - cbn [append readlines]. rewrite Ascii.eqb_refl. reflexivity.
  - cbn [has_char] in H. apply orb_false_iff in H. destruct H as [H1 H2].
    cbn [append readlines]. rewrite H1, IH by exact H2. reflexivity.
Qed.

Lemma readlines_last : forall b, b <> "" -> has_char nl b = false -> readlines b = [b].
Proof.
  induction b as [|c b IH]; intros Hne H; [congruence|].
  cbn [has_char] in H. apply orb_false_iff in H. destruct H as [H1 H2].
  cbn [readlines]. rewrite H1. destruct b as [|c' b]; [reflexivity|].
  rewrite IH; [reflexivity|discriminate|exact H2].
Qed.

(** Every text is a sequence of complete lines and possibly an incomplete one. *)
Lemma text_cases : forall s, exists ls t, s = writelines ls ++ t /\ Forall is_line ls /\ has_char nl t = false /\
  readlines s = (ls ++ (if (t =? "")%string then [] else [t]))%list.
Proof.
  assert (G : forall n s, (String.length s <= n)%nat -> exists ls t, s = writelines ls ++ t /\ Forall is_line ls /\
     has_char nl t = false).
  { induction n as [|n IH]; intros s Hs.
    - destruct s; [|cbn in Hs; lia]. exists [], "". repeat split; constructor.
    - assert (C : has_char nl s = false \/ exists b r, s = b ++ String nl r /\ has_char nl b = false).
      { clear. induction s as [|c s IH]; [left; reflexivity|].
        destruct (Ascii.eqb c nl) eqn:E.
        - right. apply Ascii.eqb_eq in E. subst. exists "", s. split; reflexivity.
        - destruct IH as [H|(b & r & -> & H)].
          + left. cbn [has_char]. rewrite E. exact H.
          + right. exists (String c b), r. split; [reflexivity|]. cbn [has_char]. rewrite E. exact H. }
      destruct C as [C|(b & r & -> & Hb)].
      + exists [], s. repeat split; [constructor|exact C].
      + rewrite length_app_s in Hs. cbn in Hs. destruct (IH r ltac:(lia)) as (ls & t & -> & H1 & H2).
        exists ((b ++ String nl "") :: ls), t. split; [|split; [constructor; [exists b; split; [reflexivity|exact Hb]|exact H1]|exact H2]].
        unfold writelines. rewrite concat_cons, !app_assoc_s. reflexivity. }
  intros s. destruct (G _ s (le_n _)) as (ls & t & -> & H1 & H2). exists ls, t.
  split; [reflexivity|split; [exact H1|split; [exact H2|]]].
  clear G. induction H1 as [|l ls (b & -> & Hb) Hl IH].
  - cbn [writelines String.concat append app]. destruct (t =? "")%string eqn:E.
    + apply String.eqb_eq in E. subst. reflexivity.
    + apply readlines_last; [intros ->; discriminate|exact H2].
  - unfold writelines. rewrite concat_cons, !app_assoc_s. cbn [append].
    rewrite readlines_line by exact Hb. cbn [app]. f_equal. exact IH.
Qed.

Lemma readlines_writelines : forall ls, Forall is_line ls -> readlines (writelines ls) = ls.
Proof.
  intros ls H. induction H as [|l ls (b & -> & Hb) Hl IH]; [reflexivity|].
  unfold writelines. rewrite concat_cons, app_assoc_s. cbn [append]. rewrite readlines_line by exact Hb.
  f_equal. exact IH.
Qed.

Lemma writelines_app : forall a b, writelines (a ++ b)%list = writelines a ++ writelines b.
Proof.
  intros a b. induction a as [|x a IH]; [reflexivity|]. unfold writelines in *.
  cbn [app]. rewrite !concat_cons, IH, app_assoc_s. reflexivity.
Qed.

Lemma split_on_left : forall c s, has_char c s = true -> exists l r, split_on c s = l :: r /\ has_char c l = false /\
  exists t, s = l ++ String c t.
Proof.
  intros c. induction s as [|a s IH]; intros H; [discriminate|]. cbn [split_on].
  destruct (Ascii.eqb a c) eqn:E.
  - exists "". eexists. split; [reflexivity|]. split; [reflexivity|]. apply Ascii.eqb_eq in E. subst. exists s. reflexivity.
  - cbn [has_char] in H. rewrite E in H. destruct (IH H) as (l & r & -> & Hl & t & ->).
    exists (String a l), r. split; [reflexivity|]. split; [cbn [has_char]; rewrite E; exact Hl|]. exists t. reflexivity.
Qed.

(** What happens to one line. *)
Theorem C61_line :
  forall word value line,
  (contains word line = true -> forall left right, has_char "="%char left = false ->
     line = left ++ "=" ++ right -> new_line word value line = left ++ "= " ++ value ++ String nl "") /\
  (contains word line = false \/ has_char "="%char line = false -> new_line word value line = line).
Proof.
  intros word value line. unfold new_line. split.
  - intros Hw left right Hl ->. rewrite Hw.
    change (left ++ "=" ++ right) with (left ++ String "="%char right).
    rewrite has_char_app. cbn [has_char]. rewrite Ascii.eqb_refl, orb_true_r. cbn [andb].
    rewrite split_on_app by exact Hl. reflexivity.
  - intros [H|H]; rewrite H; [reflexivity|]. rewrite andb_false_r. reflexivity.
Qed.
Print Assumptions C61_line.

Lemma new_line_idem : forall word value line, has_char nl value = false ->
  new_line word value (new_line word value line) = new_line word value line.
Proof.
  intros word value line Hv. destruct (contains word line && has_char "="%char line) eqn:E.
  - apply andb_true_iff in E. destruct E as [E1 E2].
    destruct (split_on_left _ _ E2) as (l & r & _ & Hl & t & ->).
    rewrite (proj1 (C61_line word value _) E1 l t Hl eq_refl).
    destruct (contains word (l ++ "= " ++ value ++ String nl "")) eqn:C.
    + apply (proj1 (C61_line word value _) C l (" " ++ value ++ String nl "") Hl). reflexivity.
    + apply (proj2 (C61_line word value _)). left. exact C.
  - assert (N : new_line word value line = line) by (unfold new_line; rewrite E; reflexivity).
    rewrite N. exact N.
Qed.

Lemma has_nl_left : forall b l t, has_char nl b = false -> b ++ String nl "" = l ++ String "="%char t ->
  has_char nl l = false.
Proof.
  induction b as [|c b IH]; intros l t Hb E.
  - destruct l as [|a [|a' l]]; [reflexivity|discriminate|]. cbn in E. discriminate.
  - cbn [has_char] in Hb. apply orb_false_iff in Hb. destruct l as [|a l]; [reflexivity|].
    cbn in E. injection E as -> E. cbn [has_char]. rewrite (proj1 Hb). apply (IH l t); [apply Hb|exact E].
Qed.

Lemma new_line_is_line : forall word value line, has_char nl value = false -> is_line line ->
  is_line (new_line word value line).
Proof.
  intros word value line Hv (b & -> & Hb). destruct (contains word (b ++ String nl "") && has_char "="%char (b ++ String nl "")) eqn:E.
  - apply andb_true_iff in E. destruct E as [E1 E2].
    destruct (split_on_left _ _ E2) as (l & r & _ & Hl & t & El).
    rewrite (proj1 (C61_line word value _) E1 l t Hl El).
    exists (l ++ "= " ++ value). split; [rewrite !app_assoc_s; reflexivity|].
    rewrite !has_char_app, Hv, (has_nl_left b l t Hb El). reflexivity.
  - unfold new_line. rewrite E. exists b. split; [reflexivity|exact Hb].
Qed.

(** The text has as many lines as before, and each line is the edited old one. *)
Theorem C61_lines_are_edited_in_place :
  forall word value text, has_char nl value = false ->
  readlines (replace_params word value text) = map (new_line word value) (readlines text).
Proof.
  intros word value text Hv. destruct (text_cases text) as (ls & t & _ & Hls & Ht & R).
  unfold replace_params. rewrite R, map_app.
  assert (H : Forall is_line (map (new_line word value) ls)).
  { apply Forall_map. apply (Forall_impl _ (P := is_line)); [|exact Hls]. intros l Hl. apply new_line_is_line; assumption. }
  destruct (t =? "")%string eqn:E.
  - cbn [map]. rewrite app_nil_r. apply readlines_writelines. exact H.
  - cbn [map]. destruct (contains word t && has_char "="%char t) eqn:C.
    + apply readlines_writelines. apply Forall_app. split; [exact H|]. constructor; [|constructor].
      apply andb_true_iff in C. destruct C as [C1 C2].
      destruct (split_on_left _ _ C2) as (l & r & _ & Hl & u & ->).
      rewrite (proj1 (C61_line word value _) C1 l u Hl eq_refl).
      exists (l ++ "= " ++ value). split; [rewrite !app_assoc_s; reflexivity|].
      rewrite has_char_app in Ht. apply orb_false_iff in Ht.
      rewrite !has_char_app, Hv, (proj1 Ht). reflexivity.
    + assert (N : new_line word value t = t) by (unfold new_line; rewrite C; reflexivity). rewrite N.
      clear R N C. induction H as [|l l' (b & -> & Hb) Hl IH].
      * cbn. rewrite readlines_last; [reflexivity|intros ->; discriminate|exact Ht].
      * cbn [app]. unfold writelines. rewrite concat_cons, app_assoc_s. cbn [append].
        rewrite readlines_line by exact Hb. f_equal. exact IH.
Qed.
Print Assumptions C61_lines_are_edited_in_place.

(** Editing twice changes nothing more. *)
Theorem C61_editing_is_idempotent :
  forall word value text, has_char nl value = false ->
  replace_params word value (replace_params word value text) = replace_params word value text.
Proof.
  intros word value text Hv. unfold replace_params at 1. rewrite C61_lines_are_edited_in_place by exact Hv.
  unfold replace_params. f_equal. rewrite map_map. apply map_ext. intros l. apply new_line_idem. exact Hv.
Qed.
Print Assumptions C61_editing_is_idempotent.

(** Without a line that contains both the word and '=' nothing changes: a missing
    parameter is not added. *)
Theorem C61_missing_parameter_is_not_added :
  forall word value text,
  Forall (fun l => contains word l = false \/ has_char "="%char l = false) (readlines text) ->
  replace_params word value text = text.
Proof.
  intros word value text H. unfold replace_params.
  assert (M : map (new_line word value) (readlines text) = readlines text).
  { rewrite <- (map_id (readlines text)) at 2. apply map_ext_in. intros l Hl.
    rewrite Forall_forall in H. apply (proj2 (C61_line word value l)). apply H. exact Hl. }
  rewrite M. destruct (text_cases text) as (ls & t & E & _ & _ & R). rewrite R, writelines_app.
  transitivity (writelines ls ++ t); [|symmetry; exact E]. f_equal. destruct (t =? "")%string eqn:C; [apply String.eqb_eq in C; subst; reflexivity|reflexivity].
Qed.
Print Assumptions C61_missing_parameter_is_not_added.

Definition text_ex : string :=
  "[DEFAULT]" ++ String nl ("  num_cores = 1" ++ String nl ("date = 1.1.2024" ++ String nl "num_cores=3")).

Example C61_ex :
  replace_params "num_cores" "4" text_ex =
  "[DEFAULT]" ++ String nl ("  num_cores = 4" ++ String nl ("date = 1.1.2024" ++ String nl ("num_cores= 4" ++ String nl ""))).
Proof. reflexivity. Qed.

Example C61_missing_parameter_ex :
  Forall (fun l => contains "n_cores" l = false \/ has_char "="%char l = false) (readlines ("date = 1" ++ String nl "n_cores 3")) /\
  replace_params "n_cores" "4" ("date = 1" ++ String nl "n_cores 3") = "date = 1" ++ String nl "n_cores 3".
Proof.
  split; [|reflexivity]. apply Forall_cons; [left; reflexivity|]. apply Forall_cons; [right; reflexivity|apply Forall_nil].
Qed.

(** Lines of other parameters are changed too, if they only mention the word. *)
Theorem C61_only_the_parameter_refuted :
  exists text, replace_params "num_cores" "4" text <> text /\
  Forall (fun l => forall right, l <> "num_cores" ++ right) (readlines text).
Proof.
  exists ("max_num_cores = 8" ++ String nl ("note = use all num_cores" ++ String nl "")). split.
  - vm_compute. discriminate.
  - repeat constructor; intros right; cbn; discriminate.
Qed.
Print Assumptions C61_only_the_parameter_refuted.
