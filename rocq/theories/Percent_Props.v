(** Percent signs in configuration values: C89 *)
From Coq Require Import ZArith Lia Bool Ascii String List.
From Verif Require Import Base Str Substr Demo_Model Config_Model Ini_Model Ini_Facts Ini_Props Percent_Model.
Import ListNotations.
Local Open Scope string_scope.

(** ** Specification *)

(** Doubling all percent signs. *)
Fixpoint escaped (v : string) : string :=
  match v with
  | "" => ""
  | String a r => if Ascii.eqb a "%"%char then String "%"%char (String "%"%char (escaped r)) else String a (escaped r)
  end.

(** A percent sign that starts neither an escape nor a reference.  The text is
    read from the left: pairs of percent signs are skipped. *)
Inductive stray : string -> Prop :=
| stray_last : stray "%"
| stray_char : forall c r, c <> "%"%char -> c <> "("%char -> stray (String "%"%char (String c r))
| stray_pair : forall r, stray r -> stray (String "%"%char (String "%"%char r))
| stray_skip : forall c r, c <> "%"%char -> stray r -> stray (String c r).

(** ** Facts *)

Lemma loop_no_percent : forall depth vars fuel v, has_char percent v = false -> (String.length v <= fuel)%nat ->
  expand (S depth) vars fuel v = Ok v.
Proof.
  intros depth vars fuel v. revert fuel. induction v as [|a v IH]; intros fuel H L; [destruct fuel; reflexivity|].
  cbn [has_char] in H. apply orb_false_iff in H. destruct H as [H1 H2]. cbn in L. destruct fuel as [|f]; [lia|].
  specialize (IH f H2 ltac:(lia)). cbn [expand] in IH |- *. rewrite H1, IH. reflexivity.
Qed.

Lemma length_cons : forall a s, String.length (String a s) = S (String.length s).
Proof. reflexivity. Qed.

Lemma expand_escaped : forall depth vars v fuel, (String.length (escaped v) <= fuel)%nat ->
  expand (S depth) vars fuel (escaped v) = Ok v.
Proof.
  intros depth vars. induction v as [|a v IH]; intros fuel L; [destruct fuel; reflexivity|].
  cbn [escaped] in L |- *. destruct (Ascii.eqb a "%") eqn:E.
  - rewrite !length_cons in L. destruct fuel as [|f]; [lia|]. specialize (IH f ltac:(lia)).
    apply Ascii.eqb_eq in E. subst a. cbn [expand] in IH |- *. change (Ascii.eqb "%" percent) with true. cbv iota.
    rewrite IH. reflexivity.
  - rewrite length_cons in L. destruct fuel as [|f]; [lia|]. specialize (IH f ltac:(lia)).
    change (Ascii.eqb a percent = false) in E. cbn [expand] in IH |- *. rewrite E, IH. reflexivity.
Qed.

Lemma drop_double_cons : forall a s, Ascii.eqb a percent = false -> drop_double (String a s) = String a (drop_double s).
Proof. intros a [|b s] H; [reflexivity|]. cbn [drop_double]. rewrite H. reflexivity. Qed.

Lemma drop_double_escaped : forall v, has_char percent (drop_double (escaped v)) = false.
Proof.
  induction v as [|a v IH]; [reflexivity|]. cbn [escaped]. destruct (Ascii.eqb a "%") eqn:E.
  - cbn [drop_double]. exact IH.
  - rewrite drop_double_cons by exact E. cbn [has_char]. rewrite IH. unfold percent. rewrite E. reflexivity.
Qed.

Lemma key_match_percent : forall s, has_char percent s = false -> key_match s = None.
Proof.
  intros [|a [|b s]] H; try reflexivity. cbn [has_char] in H. apply orb_false_iff in H. destruct H as [H _].
  cbn [key_match]. rewrite H. reflexivity.
Qed.

Lemma drop_keys_id : forall f s, has_char percent s = false -> drop_keys f s = s.
Proof.
  induction f as [|f IH]; intros [|a s] H; try reflexivity. cbn [drop_keys]. rewrite key_match_percent by exact H.
  cbn [has_char] in H. apply orb_false_iff in H. rewrite IH by apply H. reflexivity.
Qed.

Lemma drop_double_id : forall s, has_char percent s = false -> drop_double s = s.
Proof.
  induction s as [|a s IH]; intros H; [reflexivity|]. cbn [has_char] in H. apply orb_false_iff in H. destruct H as [H1 H2].
  rewrite drop_double_cons by exact H1. rewrite IH by exact H2. reflexivity.
Qed.

Lemma before_set_clean : forall v, has_char percent (drop_double v) = false -> before_set v = Ok v.
Proof. intros v H. unfold before_set. rewrite drop_keys_id by exact H. rewrite H. reflexivity. Qed.

Lemma before_set_cases : forall v, before_set v = Ok v \/ before_set v = Err ValueError.
Proof. intros v. unfold before_set. destruct (has_char _ _); auto. Qed.

(** Removing references removes no stray percent sign. *)
Lemma upto_paren_app : forall s n r, upto_paren s = Some (n, r) -> s = n ++ String ")" r.
Proof.
  induction s as [|a s IH]; intros n r H; [discriminate|]. cbn [upto_paren] in H. destruct (Ascii.eqb a ")") eqn:E.
  - apply Some_inj in H. apply pair_equal_spec in H. destruct H as [<- <-]. apply Ascii.eqb_eq in E. subst. reflexivity.
  - destruct (upto_paren s) as [[n' r']|]; [|discriminate]. apply Some_inj in H. apply pair_equal_spec in H. destruct H as [<- <-].
    rewrite (IH n' r' eq_refl). reflexivity.
Qed.

Lemma stray_expand : forall depth vars v, stray v -> forall fuel, (String.length v <= fuel)%nat ->
  expand (S depth) vars fuel v = Err ConfigParserError.
Proof.
  intros depth vars v H. induction H as [|c r H1 H2|r H IH|c r H1 H IH]; intros fuel L;
    rewrite ?length_cons in L; (destruct fuel as [|f]; [lia|]).
  - reflexivity.
  - cbn [expand]. change (Ascii.eqb "%" percent) with true. cbv iota.
    destruct (Ascii.eqb c percent) eqn:C; [apply Ascii.eqb_eq in C; contradiction|].
    destruct (Ascii.eqb c "(") eqn:D; [apply Ascii.eqb_eq in D; contradiction|]. reflexivity.
  - specialize (IH f ltac:(lia)). cbn [expand] in IH |- *. change (Ascii.eqb "%" percent) with true. cbv iota.
    rewrite IH. reflexivity.
  - specialize (IH f ltac:(lia)). cbn [expand] in IH |- *.
    destruct (Ascii.eqb c percent) eqn:C; [apply Ascii.eqb_eq in C; contradiction|]. rewrite IH. reflexivity.
Qed.

Lemma key_match_none : forall a b s, b <> "("%char -> key_match (String a (String b s)) = None.
Proof.
  intros a b s H. cbn [key_match]. destruct (Ascii.eqb b "(") eqn:E; [apply Ascii.eqb_eq in E; contradiction|].
  rewrite andb_false_r. reflexivity.
Qed.

Lemma key_match_start : forall a s, Ascii.eqb a percent = false -> key_match (String a s) = None.
Proof. intros a [|b s] H; [reflexivity|]. cbn [key_match]. rewrite H. reflexivity. Qed.

Lemma drop_double_step : forall a b r, drop_double (String a (String b r)) =
  if Ascii.eqb a percent && Ascii.eqb b percent then drop_double r else String a (drop_double (String b r)).
Proof. reflexivity. Qed.

Lemma stray_refused : forall v, stray v -> forall f, (String.length (drop_double v) <= f)%nat ->
  has_char percent (drop_keys f (drop_double v)) = true.
Proof.
  intros v H. induction H as [|c r H1 H2|r H IH|c r H1 H IH]; intros f L.
  - destruct f; reflexivity.
  - assert (E : drop_double (String "%" (String c r)) = String "%" (String c (drop_double r))).
    { rewrite drop_double_step. replace (Ascii.eqb c percent) with false by (symmetry; apply Ascii.eqb_neq; exact H1).
      rewrite andb_false_r. rewrite drop_double_cons by (apply Ascii.eqb_neq; exact H1). reflexivity. }
    rewrite E in *. destruct f as [|f]; [reflexivity|]. cbn [drop_keys]. rewrite key_match_none by exact H2. reflexivity.
  - change (drop_double (String "%" (String "%" r))) with (drop_double r) in *. apply IH. exact L.
  - assert (C : Ascii.eqb c percent = false) by (apply Ascii.eqb_neq; exact H1).
    rewrite drop_double_cons in * by exact C. rewrite length_cons in L. destruct f as [|f]; [lia|].
    cbn [drop_keys]. rewrite key_match_start by exact C. cbn [has_char]. rewrite C. apply IH. lia.
Qed.

Lemma before_set_stray : forall v, stray v -> before_set v = Err ValueError.
Proof. intros v H. unfold before_set. rewrite stray_refused; [reflexivity|exact H|apply le_n]. Qed.

Lemma escaped_nil : forall v, escaped v = "" -> v = "".
Proof. intros [|a v] H; [reflexivity|]. cbn [escaped] in H. destruct (Ascii.eqb a "%"); discriminate. Qed.

Lemma escaped_cons : forall a v, a <> "%"%char -> escaped (String a v) = String a (escaped v).
Proof. intros a v H. cbn [escaped]. replace (Ascii.eqb a "%") with false by (symmetry; apply Ascii.eqb_neq; exact H). reflexivity. Qed.

Lemma escaped_rstrip : forall v, rstrip (escaped v) = escaped (rstrip v).
Proof.
  induction v as [|a v IH]; [reflexivity|]. cbn [escaped]. destruct (Ascii.eqb a "%") eqn:E.
  - apply Ascii.eqb_eq in E. subst a. cbn [rstrip]. rewrite IH. destruct (rstrip v) as [|b w]; [reflexivity|].
    cbn [escaped]. destruct (Ascii.eqb b "%"); reflexivity.
  - cbn [rstrip]. rewrite IH. destruct (rstrip v) as [|b w].
    + cbn [escaped]. destruct (is_ws a); [reflexivity|]. rewrite escaped_cons by (apply Ascii.eqb_neq; exact E). reflexivity.
    + rewrite (escaped_cons a) by (apply Ascii.eqb_neq; exact E). cbn [escaped]. destruct (Ascii.eqb b "%"); reflexivity.
Qed.

Lemma escaped_lstrip : forall v, lstrip (escaped v) = escaped (lstrip v).
Proof.
  induction v as [|a v IH]; [reflexivity|]. cbn [escaped lstrip]. destruct (Ascii.eqb a "%") eqn:E.
  - apply Ascii.eqb_eq in E. subst a. reflexivity.
  - cbn [lstrip]. destruct (is_ws a); [exact IH|]. rewrite escaped_cons by (apply Ascii.eqb_neq; exact E). reflexivity.
Qed.

Lemma escaped_has_char : forall c v, has_char c (escaped v) = has_char c v.
Proof.
  intros c. induction v as [|a v IH]; [reflexivity|]. cbn [escaped]. destruct (Ascii.eqb a "%") eqn:E; cbn [has_char]; rewrite IH; [|reflexivity].
  apply Ascii.eqb_eq in E. subst a. destruct (Ascii.eqb "%" c), (has_char c v); reflexivity.
Qed.

Lemma escaped_plain : forall v, plain v -> plain (escaped v).
Proof.
  intros v (A & B & C). split; [rewrite escaped_has_char; exact A|]. split; [rewrite escaped_has_char; exact B|].
  unfold strip in *. rewrite escaped_lstrip, escaped_rstrip, C. reflexivity.
Qed.

Lemma escaped_id : forall v, has_char "%"%char v = false -> escaped v = v.
Proof.
  induction v as [|a v IH]; intros H; [reflexivity|]. cbn [has_char] in H. apply orb_false_iff in H. destruct H as [H1 H2].
  cbn [escaped]. rewrite H1, IH by exact H2. reflexivity.
Qed.

Lemma check_stmts_ok : forall arg l, check_stmts arg l = Ok tt <-> forall c k p, In (Put c k p) l -> before_set (arg p) = Ok (arg p).
Proof.
  intros arg. induction l as [|st l IH]; [cbn; split; [intros _ ? ? ? []|reflexivity]|].
  destruct st as [c|c x|c k p]; cbn [check_stmts].
  - rewrite IH. split; [intros H c' k' p' [E|E]; [discriminate|apply (H _ _ _ E)]|intros H c' k' p' E; apply (H c' k' p'); right; exact E].
  - rewrite IH. split; [intros H c' k' p' [E|E]; [discriminate|apply (H _ _ _ E)]|intros H c' k' p' E; apply (H c' k' p'); right; exact E].
  - destruct (before_set_cases (arg p)) as [B|B]; rewrite B; cbn [bind].
    + rewrite IH. split.
      * intros H c' k' p' [E|E]; [congruence|apply (H _ _ _ E)].
      * intros H c' k' p' E. apply (H c' k' p'). right. exact E.
    + split; [discriminate|]. intros H. rewrite (H c k p (or_introl eq_refl)) in B. discriminate.
Qed.

Lemma check_stmts_cases : forall arg l, check_stmts arg l = Ok tt \/ check_stmts arg l = Err ValueError.
Proof.
  intros arg. induction l as [|st l IH]; [left; reflexivity|]. destruct st as [c|c x|c k p]; cbn [check_stmts]; [exact IH|exact IH|].
  destruct (before_set_cases (arg p)) as [B|B]; rewrite B; [exact IH|right; reflexivity].
Qed.

(** ** C89 *)

(** Any text can be stored and read back if its percent signs are doubled; a
    text without percent signs is stored and read back as it is. *)
Theorem C89_doubled_signs_are_read_back : forall t c k v,
  exists t', set_option c k (escaped v) t = Ok t' /\ read_option t' c (lower k) = Ok (Some v) /\
  (has_char "%"%char v = false -> escaped v = v).
Proof.
  intros t c k v. unfold set_option. rewrite before_set_clean by apply drop_double_escaped. cbn [bind].
  eexists. split; [reflexivity|]. split; [|apply escaped_id].
  assert (L : lookup (assign c k (escaped v) t) c (lower k) = Ok (Some (escaped v))).
  { unfold lookup, assign, put_opt. rewrite get_put_same, get_put_same. reflexivity. }
  unfold read_option. rewrite L. cbn [bind]. rewrite expand_escaped by apply le_n. reflexivity.
Qed.
Print Assumptions C89_doubled_signs_are_read_back.

(** A stray percent sign: the value cannot be set, and when it is in the file
    the option cannot be read, although the file is loaded. *)
Theorem C89_stray_signs_fail : forall v, stray v ->
  (forall t c k, set_option c k v t = Err ValueError) /\
  (forall t c k, lookup t c k = Ok (Some v) -> read_option t c k = Err ConfigParserError).
Proof.
  intros v H. split.
  - intros t c k. unfold set_option. rewrite before_set_stray by exact H. reflexivity.
  - intros t c k L. unfold read_option. rewrite L. cbn [bind]. rewrite stray_expand; [reflexivity|exact H|apply le_n].
Qed.
Print Assumptions C89_stray_signs_fail.

(** The constructors write their file exactly if no parameter is refused;
    otherwise they raise ValueError.  Doubled percent signs are read back. *)
Theorem C89_constructors : forall stmts table,
  (stmts, table) = (config_stmts, config_table) \/ (stmts, table) = (analysis_stmts, analysis_table) ->
  (forall arg, (exists text, create_file stmts arg = Ok text) \/ create_file stmts arg = Err ValueError) /\
  (forall arg c os o p, In (c, os) table -> In (o, p) os -> stray (arg p) -> create_file stmts arg = Err ValueError) /\
  (forall arg, (forall p, plain (arg p)) ->
     exists text t, create_file stmts (fun p => escaped (arg p)) = Ok text /\ load text = Ok t /\
       forall c os o p, In (c, os) table -> In (o, p) os -> read_option t c o = Ok (Some (arg p))).
Proof.
  intros stmts table Hst. split; [|split].
  - intros arg. unfold create_file. destruct (check_stmts_cases arg stmts) as [E|E]; rewrite E; [left; eexists; reflexivity|right; reflexivity].
  - intros arg c os o p Hc Ho St. unfold create_file. destruct (check_stmts_cases arg stmts) as [E|E]; rewrite E; [|reflexivity].
    exfalso. rewrite check_stmts_ok in E.
    assert (K : exists c' k', In (Put c' k' p) stmts).
    { assert (B : forallb (fun so => forallb (fun op => existsb (fun st => match st with Put _ _ q => String.eqb q (snd op) | _ => false end) stmts) (snd so)) table = true)
        by (destruct Hst as [X|X]; apply pair_equal_spec in X; destruct X as [-> ->]; vm_compute; reflexivity).
      rewrite forallb_forall in B. specialize (B _ Hc). rewrite forallb_forall in B. specialize (B _ Ho). apply existsb_exists in B as (st & Hin & Hq).
      destruct st as [| |c' k' q]; try discriminate. cbn [snd] in Hq. apply String.eqb_eq in Hq. subst q. exists c', k'. exact Hin. }
    destruct K as (c' & k' & K). specialize (E c' k' p K). rewrite (before_set_stray _ St) in E. discriminate.
  - intros arg Ha.
    assert (Hp : forall p, plain (escaped (arg p))) by (intros p; apply escaped_plain; apply Ha).
    destruct (C76_every_option_is_found (fun p => escaped (arg p)) Hp stmts table Hst) as (t & E & L).
    exists (new_file stmts (fun p => escaped (arg p))), t. split; [|split; [exact E|]].
    + unfold create_file. replace (check_stmts (fun p => escaped (arg p)) stmts) with (Ok tt : res unit); [reflexivity|].
      symmetry. apply check_stmts_ok. intros c k p _. apply before_set_clean. apply drop_double_escaped.
    + intros c os o p Hc Ho. unfold read_option. rewrite (L c os o p Hc Ho). cbn [bind].
      rewrite expand_escaped by apply le_n. reflexivity.
Qed.
Print Assumptions C89_constructors.

(** Not everything that can be set can be read. *)
Theorem C89_stored_values_can_be_read_refuted :
  exists v, before_set v = Ok v /\ forall t c k, lookup t c k = Ok (Some v) -> read_option t c k = Err ConfigParserError.
Proof.
  exists "%(solver)%%s". split; [reflexivity|]. intros t c k L. unfold read_option. rewrite L. reflexivity.
Qed.
Print Assumptions C89_stored_values_can_be_read_refuted.

(** References chained over more than ten options - or an option that refers to
    itself - cannot be read. *)
Theorem C89_self_reference : forall t c k, lower k = k -> k <> "" -> has_char ")"%char k = false ->
  lookup t c k = Ok (Some ("%(" ++ k ++ ")s")) -> read_option t c k = Err ConfigParserError.
Proof.
  intros t c k Hl Hne Hp L. unfold read_option. rewrite L. cbn [bind].
  assert (M : key_match ("%(" ++ k ++ ")s") = Some (k, "")).
  { cbn [append key_match]. change (Ascii.eqb "%" percent && Ascii.eqb "(" "(") with true. cbv iota.
    assert (U : upto_paren (k ++ ")s") = Some (k, "s")).
    { clear L Hl Hne. induction k as [|a k IH]; [reflexivity|]. cbn [has_char] in Hp. apply orb_false_iff in Hp. destruct Hp as [P1 P2].
      cbn [append upto_paren]. rewrite P1, IH by exact P2. reflexivity. }
    rewrite U. destruct k; [congruence|]. reflexivity. }
  assert (P : has_char percent ("%(" ++ k ++ ")s") = true) by reflexivity.
  assert (V : visible t c (lower k) = Some (Some ("%(" ++ k ++ ")s"))) by (unfold visible; rewrite Hl, L; reflexivity).
  assert (N : String.length ("%(" ++ k ++ ")s") = S (S (String.length (k ++ ")s")))) by reflexivity.
  assert (G : forall d, expand d (visible t c) (String.length ("%(" ++ k ++ ")s")) ("%(" ++ k ++ ")s") = Err ConfigParserError).
  { induction d as [|d IH]; [reflexivity|]. rewrite N in IH |- *.
    set (w := "%(" ++ k ++ ")s") in *. cbn [expand]. unfold w at 1. cbn [append]. change (Ascii.eqb "%" percent) with true.
    change (Ascii.eqb "(" percent) with false. change (Ascii.eqb "(" "(") with true. cbv iota.
    fold w. rewrite M, V. cbv iota. rewrite P, N, IH. reflexivity. }
  rewrite G. reflexivity.
Qed.
Print Assumptions C89_self_reference.

(** A name that can be referred to, and an option that leads over [n] references to the
    value [v]. *)
Definition ref_name (k : string) : Prop := lower k = k /\ k <> "" /\ has_char ")"%char k = false.

Fixpoint leads_to (t : ini string) (c k : string) (n : nat) (v : string) : Prop :=
  match n with
  | O => lookup t c k = Ok (Some v) /\ has_char "%"%char v = false
  | S m => exists k', ref_name k' /\ lookup t c k = Ok (Some ("%(" ++ k' ++ ")s")) /\ leads_to t c k' m v
  end.

Lemma key_match_ref : forall k, ref_name k -> key_match ("%(" ++ k ++ ")s") = Some (k, "").
Proof.
  intros k (Hl & Hne & Hp). cbn [append key_match]. change (Ascii.eqb "%" percent && Ascii.eqb "(" "(") with true. cbv iota.
  assert (U : upto_paren (k ++ ")s") = Some (k, "s")).
  { clear Hl Hne. induction k as [|a k IH]; [reflexivity|]. cbn [has_char] in Hp. apply orb_false_iff in Hp. destruct Hp as [P1 P2].
    cbn [append upto_paren]. rewrite P1, IH by exact P2. reflexivity. }
  rewrite U. destruct k; [congruence|]. reflexivity.
Qed.

(** Up to ten references in a row are followed, more are refused. *)
Theorem C89_ten_references : forall t c k n v, leads_to t c k n v ->
  read_option t c k = if (n <=? 10)%nat then Ok (Some v) else Err ConfigParserError.
Proof.
  intros t c k n v H.
  assert (G : forall n d k, ref_name k -> leads_to t c k n v ->
    expand d (visible t c) (String.length ("%(" ++ k ++ ")s")) ("%(" ++ k ++ ")s") = if (n <? d)%nat then Ok v else Err ConfigParserError).
  { clear k n H. induction n as [|n IH]; intros d k Hk H; (destruct d as [|d]; [reflexivity|]);
      pose proof (key_match_ref k Hk) as M; destruct Hk as (Hl & _ & _).
    - destruct H as (L & Hv).
      assert (N : String.length ("%(" ++ k ++ ")s") = S (S (String.length (k ++ ")s")))) by reflexivity. rewrite N.
      set (w := "%(" ++ k ++ ")s") in *. cbn [expand]. unfold w at 1. cbn [append]. change (Ascii.eqb "%" percent) with true.
      change (Ascii.eqb "(" percent) with false. change (Ascii.eqb "(" "(") with true. cbv iota. fold w. rewrite M.
      unfold visible at 1. rewrite Hl, L. change (has_char percent v) with (has_char "%"%char v). rewrite Hv. cbn [bind]. rewrite app_nil_s. reflexivity.
    - destruct H as (k' & Hk' & L & H).
      assert (N : String.length ("%(" ++ k ++ ")s") = S (S (String.length (k ++ ")s")))) by reflexivity. rewrite N.
      specialize (IH d k' Hk' H).
      set (w := "%(" ++ k ++ ")s") in *. cbn [expand]. unfold w at 1. cbn [append]. change (Ascii.eqb "%" percent) with true.
      change (Ascii.eqb "(" percent) with false. change (Ascii.eqb "(" "(") with true. cbv iota. fold w. rewrite M.
      unfold visible at 1. rewrite Hl, L. change (has_char percent ("%(" ++ k' ++ ")s")) with true. cbv iota. rewrite IH.
      change (S n <? S d)%nat with (n <? d)%nat. destruct (n <? d)%nat; cbn [bind]; [rewrite app_nil_s|]; reflexivity. }
  unfold read_option. destruct n as [|n].
  - destruct H as (L & Hv). rewrite L. cbn [bind]. rewrite loop_no_percent by (assumption || lia). reflexivity.
  - destruct H as (k' & Hk' & L & H). rewrite L. cbn [bind]. rewrite (G n 10%nat k' Hk' H).
    change (S n <=? 10)%nat with (n <? 10)%nat. destruct (n <? 10)%nat; reflexivity.
Qed.
Print Assumptions C89_ten_references.

(** Examples: a directory with a percent sign, a time format. *)
Example C89_example :
  stray "/data/80%_smoke/" /\ before_set "/data/80%_smoke/" = Err ValueError /\
  escaped "/data/80%_smoke/" = "/data/80%%_smoke/" /\
  exists t t', load ("[DEFAULT]" ++ String nl ("img_directory = /data/80%_smoke/" ++ String nl "")) = Ok t /\
    read_option t "DEFAULT" "img_directory" = Err ConfigParserError /\
    set_option "DEFAULT" "img_directory" "/data/80%%_smoke/" t = Ok t' /\
    read_option t' "DEFAULT" "img_directory" = Ok (Some "/data/80%_smoke/").
Proof.
  split; [|split; [reflexivity|split; [reflexivity|]]].
  - repeat (apply stray_skip; [discriminate|]). apply stray_char; discriminate.
  - eexists. eexists. split; [vm_compute; reflexivity|]. split; [reflexivity|]. split; reflexivity.
Qed.

Definition edges_free (p : string) : string := if (p =? "img_directory")%string then "80%/" else "None".

Example C89_constructor_example :
  (forall p, plain (edges_free p)) /\ edges_free "img_directory" = "80%/".
Proof.
  split; [|reflexivity]. intros p. unfold edges_free. destruct (p =? "img_directory")%string; repeat split; reflexivity.
Qed.

Example C89_reference_example :
  exists t, load ("[DEFAULT]" ++ String nl ("date = %(date)s" ++ String nl "")) = Ok t /\
    lookup t "DEFAULT" "date" = Ok (Some "%(date)s") /\ read_option t "DEFAULT" "date" = Err ConfigParserError.
Proof. eexists. split; [vm_compute; reflexivity|]. split; reflexivity. Qed.

Example C89_ten_references_example :
  exists t, load ("[DEFAULT]" ++ String nl ("a = %(b)s" ++ String nl ("b = %(c)s" ++ String nl ("c = /data/" ++ String nl "")))) = Ok t /\
    leads_to t "DEFAULT" "a" 2 "/data/" /\ read_option t "DEFAULT" "a" = Ok (Some "/data/").
Proof.
  eexists. split; [vm_compute; reflexivity|]. split; [|reflexivity].
  exists "b". split; [split; [reflexivity|split; [discriminate|reflexivity]]|]. split; [reflexivity|].
  exists "c". split; [split; [reflexivity|split; [discriminate|reflexivity]]|]. split; [reflexivity|]. split; reflexivity.
Qed.
