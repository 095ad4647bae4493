(** Properties C77 to C79: saving, changing and editing configuration files. *)
From Coq Require Import ZArith Lia Bool Ascii String List.
From Verif Require Import Base Str Substr Demo_Model Demo_Props Config_Model Config_Props Ini_Model Ini_Facts Ini_Props.
Import ListNotations.
Local Open Scope string_scope.

(** ** What a file that was read looks like *)

Lemma lower_chars : forall c, (forall a, Ascii.eqb (lower_char a) c = Ascii.eqb a c) ->
  forall s, has_char c (lower s) = has_char c s.
Proof. intros c H. induction s as [|a s IH]; cbn [lower has_char]; [reflexivity|]. now rewrite H, IH. Qed.

Ltac by_bits := intros [[] [] [] [] [] [] [] []]; reflexivity.

Ltac sel := let X := fresh in intros ? X; first [exact (proj1 X) | exact (proj1 (proj2 X))].

Lemma lower_idem : forall s, lower (lower s) = lower s.
Proof.
  assert (H : forall a, lower_char (lower_char a) = lower_char a) by by_bits.
  induction s as [|a s IH]; cbn [lower]; [reflexivity|]. now rewrite H, IH.
Qed.

Lemma lower_ws : forall a, is_ws (lower_char a) = is_ws a.
Proof. by_bits. Qed.

Lemma lower_lstrip : forall s, lower (lstrip s) = lstrip (lower s).
Proof.
  induction s as [|a s IH]; cbn [lower lstrip]; [reflexivity|]. rewrite lower_ws.
  destruct (is_ws a); [exact IH|reflexivity].
Qed.

Lemma lower_strip : forall s, lower (strip s) = strip (lower s).
Proof. intros s. unfold strip. now rewrite lower_rstrip, lower_lstrip. Qed.

Lemma lower_comment : forall s, is_comment (lower s) = is_comment s.
Proof.
  assert (H1 : forall a, Ascii.eqb (lower_char a) "#"%char = Ascii.eqb a "#"%char) by by_bits.
  assert (H2 : forall a, Ascii.eqb (lower_char a) ";"%char = Ascii.eqb a ";"%char) by by_bits.
  intros [|a s]; cbn [lower is_comment]; [reflexivity|]. now rewrite H1, H2.
Qed.

(** The text has a closing bracket after its first character. *)
Definition closes (r : string) : bool := match r with "" => false | String _ r' => has_char "]"%char r' end.

Lemma upto_last_none : forall c s, upto_last c s = None <-> has_char c s = false.
Proof.
  intros c s. induction s as [|a s IH]; cbn [upto_last has_char]; [tauto|].
  destruct (upto_last c s).
  - destruct (has_char c s); [|destruct IH as [_ IH]; specialize (IH eq_refl); discriminate].
    rewrite orb_true_r. split; discriminate.
  - destruct IH as [IH _]. rewrite IH by reflexivity. rewrite orb_false_r.
    destruct (Ascii.eqb a c); split; congruence.
Qed.

Lemma header_none : forall s, header s = None <->
  match s with "" => True | String a r => Ascii.eqb a "["%char = false \/ closes r = false end.
Proof.
  intros [|a r]; cbn [header]; [tauto|]. destruct (Ascii.eqb a "["%char).
  2:{ split; [now left|reflexivity]. }
  destruct r as [|b r]; cbn [upto_last closes].
  - split; [now right|reflexivity].
  - pose proof (upto_last_none "]"%char r) as N.
    destruct (upto_last "]"%char r).
    + split; [discriminate|]. intros [H|H]; [discriminate|]. apply N in H. discriminate.
    + split; [|intros _; now destruct (Ascii.eqb b "]"%char)]. intros _. right. now apply N.
Qed.

Lemma upto_last_sub : forall c d s h, upto_last c s = Some h -> has_char d s = false -> has_char d h = false.
Proof.
  intros c d s. induction s as [|a s IH]; intros h; cbn [upto_last]; [discriminate|].
  cbn [has_char]. intros H Hd. apply orb_false_iff in Hd. destruct Hd as [D1 D2].
  destruct (upto_last c s) as [t|].
  - apply Some_inj in H. subst h. cbn [has_char]. rewrite D1. now apply IH.
  - destruct (Ascii.eqb a c); [|discriminate]. apply Some_inj in H. now subst h.
Qed.

Lemma header_sub : forall d s h, header s = Some h -> has_char d s = false -> h <> "" /\ has_char d h = false.
Proof.
  intros d [|a r] h; cbn [header]; [discriminate|]. cbn [has_char]. intros H Hd.
  apply orb_false_iff in Hd. destruct Hd as [_ Hd].
  destruct (Ascii.eqb a "["%char); [|discriminate].
  destruct (upto_last "]"%char r) as [t|] eqn:E; [|discriminate].
  destruct t as [|b t]; [discriminate|]. apply Some_inj in H. subst h. split; [discriminate|].
  exact (upto_last_sub _ _ _ _ E Hd).
Qed.

Lemma cut_delim_some : forall s k v, cut_delim s = Some (k, v) ->
  exists c, (c = "="%char \/ c = ":"%char) /\ s = k ++ String c v /\
  has_char "="%char k = false /\ has_char ":"%char k = false.
Proof.
  induction s as [|a s IH]; intros k v; cbn [cut_delim]; [discriminate|].
  destruct (Ascii.eqb a "="%char) eqn:E1; cbn [orb].
  - intros H. apply Some_inj in H. apply pair_equal_spec in H. destruct H as [<- <-].
    exists a. apply Ascii.eqb_eq in E1. now subst; repeat split; auto.
  - destruct (Ascii.eqb a ":"%char) eqn:E2; cbn [orb].
    + intros H. apply Some_inj in H. apply pair_equal_spec in H. destruct H as [<- <-].
      exists a. apply Ascii.eqb_eq in E2. now subst; repeat split; auto.
    + destruct (cut_delim s) as [[k' v']|]; [|discriminate]. intros H. apply Some_inj in H.
      apply pair_equal_spec in H. destruct H as [<- <-].
      destruct (IH k' v' eq_refl) as (c & H1 & H2 & H3 & H4). exists c.
      split; [exact H1|]. split; [now rewrite H2|]. cbn [has_char]. now rewrite E1, E2, H3, H4.
Qed.

Lemma cut_delim_none_inv : forall s, cut_delim s = None -> has_char "="%char s = false /\ has_char ":"%char s = false.
Proof.
  induction s as [|a s IH]; cbn [cut_delim has_char]; [tauto|].
  destruct (Ascii.eqb a "="%char); cbn [orb]; [discriminate|].
  destruct (Ascii.eqb a ":"%char); cbn [orb]; [discriminate|].
  destruct (cut_delim s) as [[k v]|]; [discriminate|]. intros _. now apply IH.
Qed.

(** Name and value of an option that was read. *)
Definition name_read (k : string) : Prop :=
  k <> "" /\ strip k = k /\ is_comment k = false /\ lower k = k /\
  has_char "="%char k = false /\ has_char ":"%char k = false /\ has_char nl k = false /\ has_char cr k = false.

Definition line_read (l : string) : Prop := strip l = l /\ has_char nl l = false /\ has_char cr l = false.

Definition value_read (k : string) (v : option (list string)) : Prop :=
  match v with
  | None => header k = None
  | Some ls => Forall line_read ls /\ ls <> [] /\ Forall (fun l => is_comment l = false) (tl ls) /\
               header (strip (k ++ " = " ++ hd "" ls)) = None
  end.

Definition entry_read (e : string * option (list string)) : Prop := name_read (fst e) /\ value_read (fst e) (snd e).

Definition tab_read (t : ini (list string)) : Prop :=
  (exists s0 t', t = ("DEFAULT", s0) :: t') /\ NoDup (map fst t) /\
  Forall (fun s => name_ok (fst s) /\ has_char cr (fst s) = false) t /\
  Forall (fun s => NoDup (map fst (snd s)) /\ Forall entry_read (snd s)) t.

(** A line of a file. *)
Definition line_in (l : string) : Prop := has_char nl (strip l) = false /\ has_char cr l = false.

Lemma rstrip_nonempty : forall a s, is_ws a = false -> rstrip (String a s) = String a (rstrip s).
Proof. intros a s H. exact (rstrip_visible "" a s H). Qed.

(** The name and the value found in a line that starts an option. *)
Lemma parse_option_read : forall s k v, strip s = s -> is_comment s = false -> header s = None ->
  has_char nl s = false -> has_char cr s = false ->
  parse_option s = (k, v) -> k <> "" -> entry_read (k, option_map (fun x => [x]) v).
Proof.
  intros s k v Hs Hc Hh Hn Hr Hp Hk. unfold parse_option in Hp.
  assert (Lnl : forall x, has_char nl (lower x) = has_char nl x) by (apply lower_chars; by_bits).
  assert (Lcr : forall x, has_char cr (lower x) = has_char cr x) by (apply lower_chars; by_bits).
  assert (Leq : forall x, has_char "="%char (lower x) = has_char "="%char x) by (apply lower_chars; by_bits).
  assert (Lco : forall x, has_char ":"%char (lower x) = has_char ":"%char x) by (apply lower_chars; by_bits).
  assert (Lbr : forall x, has_char "]"%char (lower x) = has_char "]"%char x) by (apply lower_chars; by_bits).
  assert (Lop : forall a, Ascii.eqb (lower_char a) "["%char = Ascii.eqb a "["%char) by by_bits.
  destruct (cut_delim s) as [[k0 v0]|] eqn:E.
  - apply pair_equal_spec in Hp. destruct Hp as [<- <-].
    destruct (cut_delim_some _ _ _ E) as (c & Hcc & -> & N1 & N2). clear E.
    assert (Hk0 : exists a r, k0 = String a r /\ is_ws a = false).
    { destruct k0 as [|a r]; [now elim Hk|]. exists a, r. split; [reflexivity|].
      assert (Hne : strip (String a r ++ String c v0) <> "") by (rewrite Hs; discriminate).
      destruct (strip_nonempty_head _ Hne) as (b & r' & E1 & E2). rewrite Hs in E1. cbn [append] in E1.
      injection E1 as <- _. exact E2. }
    destruct Hk0 as (a & r & -> & Ha). rewrite rstrip_nonempty in * by exact Ha. cbn [lower] in *.
    rewrite has_char_app in Hn, Hr. apply orb_false_iff in Hn, Hr. destruct Hn as [Hn1 Hn2], Hr as [Hr1 Hr2].
    cbn [has_char] in Hn2, Hr2. apply orb_false_iff in Hn2, Hr2. destruct Hn2 as [_ Hn2], Hr2 as [_ Hr2].
    pose proof (lower_rstrip r) as LR.
    assert (SK : strip (String (lower_char a) (lower (rstrip r))) = String (lower_char a) (lower (rstrip r))).
    { unfold strip. cbn [lstrip]. rewrite lower_ws, Ha. rewrite rstrip_nonempty by (rewrite lower_ws; exact Ha).
      rewrite LR, rstrip_idem. reflexivity. }
    assert (has1 : forall d, has_char d (String a r) = false -> has_char d (String a (rstrip r)) = false).
    { intros d. cbn [has_char]. rewrite !orb_false_iff. intros [A B]. split; [exact A|]. now apply rstrip_sub. }
    split.
    + cbn [fst]. split; [discriminate|]. split; [exact SK|].
      assert (LL : String (lower_char a) (lower (rstrip r)) = lower (String a (rstrip r))) by reflexivity.
      rewrite LL. rewrite lower_comment, lower_idem, Leq, Lco, Lnl, Lcr.
      rewrite !has1 by assumption. repeat split.
      cbn [append is_comment] in Hc. cbn [is_comment]. exact Hc.
    + cbn [fst snd option_map value_read]. split; [|split; [discriminate|split; [constructor|]]].
      * repeat constructor; [apply strip_idem|apply strip_sub; exact Hn2|apply strip_sub; exact Hr2].
      * cbn [hd]. rewrite strip_option_line.
        2:{ rewrite SK. discriminate. }
        cbn [lstrip]. rewrite lower_ws, Ha. cbn [append].
        apply header_none. rewrite Lop. apply header_none in Hh. cbn [append] in Hh.
        destruct Hh as [Hh|Hh]; [now left|]. right.
        assert (V : has_char "]"%char (rstrip (String " "%char (strip v0))) = false /\ closes (lower (rstrip r)) = false).
        { destruct r as [|b r]; cbn [append closes] in Hh.
          - split; [|reflexivity]. apply rstrip_sub. cbn [has_char]. apply strip_sub. exact Hh.
          - rewrite has_char_app in Hh. apply orb_false_iff in Hh. destruct Hh as [H1 H2].
            cbn [has_char] in H2. apply orb_false_iff in H2. destruct H2 as [_ H2].
            split; [apply rstrip_sub; cbn [has_char]; apply strip_sub; exact H2|].
            rewrite rstrip_cons. destruct (rstrip r =? "")%string.
            + destruct (is_ws b); reflexivity.
            + cbn [lower closes]. rewrite Lbr. now apply rstrip_sub. }
        destruct V as [V1 V2].
        destruct (lower (rstrip r)) as [|b q]; cbn [append closes] in *; [exact V1|].
        rewrite has_char_app, has_char_app, V2. cbn [orb]. cbn [has_char]. now rewrite V1.
  - apply pair_equal_spec in Hp. destruct Hp as [<- <-].
    destruct (cut_delim_none_inv _ E) as [N1 N2].
    assert (RS : rstrip s = s) by (rewrite <- Hs; unfold strip; apply rstrip_idem).
    rewrite RS in *. split.
    + cbn [fst]. split; [exact Hk|]. rewrite <- lower_strip, Hs, lower_comment, lower_idem, Leq, Lco, Lnl, Lcr.
      repeat split; assumption.
    + cbn [fst snd option_map value_read]. apply header_none. apply header_none in Hh.
      destruct s as [|a r]; [exact I|]. cbn [lower]. rewrite Lop. destruct Hh as [Hh|Hh]; [now left|]. right.
      destruct r as [|b r]; [reflexivity|]. cbn [lower closes] in *. now rewrite Lbr.
Qed.

Lemma Forall_put : forall {A} (P : string * A -> Prop) k a l, Forall P l -> P (k, a) -> Forall P (put k a l).
Proof.
  intros A P k a l H Ha. apply Forall_forall. intros x Hx. apply in_put in Hx. destruct Hx as [-> |Hx]; [exact Ha|].
  rewrite Forall_forall in H. now apply H.
Qed.

Lemma NoDup_put : forall {A} k (a : A) l, NoDup (map fst l) -> NoDup (map fst (put k a l)).
Proof.
  intros A k a l H. rewrite map_fst_put. destruct (in_dec string_dec k (map fst l)) as [|N]; [exact H|].
  apply NoDup_app_intro; [exact H|repeat constructor; intros []|].
  intros x Hx [E|[]]. subst. contradiction.
Qed.

Lemma section_read : forall c t, tab_read t -> NoDup (map fst (section c t)) /\ Forall entry_read (section c t).
Proof.
  intros c t (_ & _ & _ & H). unfold section. destruct (get c t) as [s|] eqn:E; [|repeat constructor].
  apply get_in in E. rewrite Forall_forall in H. exact (H _ E).
Qed.

Lemma tab_put : forall c s t, tab_read t -> NoDup (map fst s) -> Forall entry_read s ->
  name_ok c -> has_char cr c = false -> tab_read (put c s t).
Proof.
  intros c s t (H1 & H2 & H3 & H4) Hd He Hn Hc. split; [|split; [|split]].
  - destruct H1 as (s0 & t' & ->). cbn [put]. destruct ("DEFAULT" =? c)%string; eauto.
  - now apply NoDup_put.
  - apply Forall_put; [exact H3|]. cbn [fst]. auto.
  - apply Forall_put; [exact H4|]. cbn [snd]. auto.
Qed.

(** Every section the reader is in exists. *)
Definition reader_read (r : reader) : Prop :=
  tab_read (r_tab r) /\ match r_sect r with None => True | Some c => name_ok c /\ has_char cr c = false end.

Lemma tab_put_opt : forall c k v t, tab_read t -> entry_read (k, v) -> name_ok c -> has_char cr c = false ->
  tab_read (put_opt c k v t).
Proof.
  intros c k v t H He Hn Hc. unfold put_opt. destruct (section_read c t H) as [A B].
  apply tab_put; try assumption; [now apply NoDup_put|now apply Forall_put].
Qed.

Lemma new_item_read : forall r n s r', reader_read r -> strip s = s -> is_comment s = false ->
  has_char nl s = false -> has_char cr s = false -> new_item r n s = Ok r' -> reader_read r'.
Proof.
  intros r n s r' [H1 H2] Hs Hc Hn Hr E. unfold new_item in E. destruct (header s) as [h|] eqn:Hh.
  - destruct (header_sub nl s h Hh Hn) as [A1 A2]. destruct (header_sub cr s h Hh Hr) as [_ A3].
    destruct (h =? "DEFAULT")%string.
    + apply Ok_inj in E. subst r'. split; cbn [r_tab r_sect]; [exact H1|]. repeat split; assumption.
    + destruct (get h (r_tab r)); [discriminate|]. apply Ok_inj in E. subst r'.
      split; cbn [r_tab r_sect]; [|repeat split; assumption].
      apply tab_put; try assumption; [constructor|constructor|split; assumption].
  - destruct (r_sect r) as [c|]; [|discriminate]. destruct H2 as [C1 C2].
    destruct (parse_option s) as [k v] eqn:P. destruct (k =? "")%string eqn:K; [discriminate|].
    apply String.eqb_neq in K. destruct (get k (section c (r_tab r))); [discriminate|].
    apply Ok_inj in E. subst r'. split; cbn [r_tab r_sect]; [|auto].
    apply tab_put_opt; try assumption. exact (parse_option_read s k v Hs Hc Hh Hn Hr P K).
Qed.

Lemma value_append : forall k ls l, value_read k (Some ls) -> line_read l -> is_comment l = false ->
  value_read k (Some (ls ++ [l])%list).
Proof.
  intros k ls l (A & B & C & D) Hl Hc. destruct ls as [|x ls]; [congruence|]. cbn [app tl hd] in *.
  split; [|split; [discriminate|split; [|exact D]]].
  - change (Forall line_read ((x :: ls) ++ [l])%list). apply Forall_app. split; [exact A|]. now constructor.
  - apply Forall_app. split; [exact C|]. now constructor.
Qed.

Lemma read_line_read : forall r l r', reader_read r -> line_in l -> read_line r l = Ok r' -> reader_read r'.
Proof.
  intros r l r' Hr [Hn Hcr] E. unfold read_line in E.
  assert (Hcr' : has_char cr (strip l) = false) by now apply strip_sub.
  destruct (is_comment (strip l)) eqn:Hc; [apply Ok_inj in E; now subst|].
  destruct (cur_value r) as [[[c k] v]|] eqn:CV.
  - assert (IN : In (k, v) (section c (r_tab r)) /\ r_sect r = Some c).
    { unfold cur_value in CV. destruct (r_sect r) as [c'|]; [|discriminate]. destruct (r_opt r) as [k'|]; [|discriminate].
      destruct (get k' (section c' (r_tab r))) as [v'|] eqn:G; [|discriminate].
      apply Some_inj in CV. injection CV as -> -> ->. split; [now apply get_in|reflexivity]. }
    destruct IN as [IN HS]. pose proof Hr as [H1 H2]. rewrite HS in H2. destruct H2 as [C1 C2].
    destruct (section_read c _ H1) as [_ B]. rewrite Forall_forall in B. destruct (B _ IN) as [B1 B2]. cbn [fst snd] in *.
    assert (APP : forall ls x, v = Some ls -> line_read x -> is_comment x = false ->
      reader_read (Reader (put_opt c k (Some (ls ++ [x])%list) (r_tab r)) (r_sect r) (r_opt r) (r_ind r))).
    { intros ls x -> Hx Hcx. split; cbn [r_tab r_sect]; [|rewrite HS; auto].
      apply tab_put_opt; try assumption. split; cbn [fst snd]; [exact B1|]. now apply value_append. }
    destruct (strip l =? "")%string.
    + destruct v as [ls|]; apply Ok_inj in E; subst r'; [|exact Hr].
      apply APP; [reflexivity|repeat split|reflexivity].
    + destruct (r_ind r <? indent l)%nat.
      * destruct v as [ls|]; [|discriminate]. apply Ok_inj in E. subst r'.
        apply APP; [reflexivity|repeat split; try assumption; apply strip_idem|exact Hc].
      * eapply new_item_read; [exact Hr|apply strip_idem|exact Hc|exact Hn|exact Hcr'|exact E].
  - destruct (strip l =? "")%string.
    + apply Ok_inj in E. now subst r'.
    + eapply new_item_read; [exact Hr|apply strip_idem|exact Hc|exact Hn|exact Hcr'|exact E].
Qed.

Lemma read_lines_read : forall ls r r', reader_read r -> Forall line_in ls -> read_lines r ls = Ok r' -> reader_read r'.
Proof.
  induction ls as [|l ls IH]; intros r r' Hr Hl E; cbn [read_lines] in E.
  - apply Ok_inj in E. now subst.
  - inversion Hl as [|? ? A B]; subst. destruct (read_line r l) as [r1|] eqn:F; cbn [bind] in E; [|discriminate].
    apply (IH r1 r'); [exact (read_line_read _ _ _ Hr A F)|exact B|exact E].
Qed.

Lemma readlines_in : forall s, has_char cr s = false -> Forall line_in (readlines s).
Proof.
  intros s Hs. destruct (text_cases s) as (ls & t & -> & Hl & Ht & ->).
  rewrite has_char_app in Hs. apply orb_false_iff in Hs. destruct Hs as [S1 S2].
  apply Forall_app. split.
  - clear Ht S2. induction Hl as [|l ls (b & -> & Hb) Hl IH]; constructor.
    + unfold writelines in S1. rewrite concat_cons, has_char_app in S1. apply orb_false_iff in S1. destruct S1 as [S1 _].
      split; [|exact S1]. rewrite strip_nl. now apply strip_sub.
    + apply IH. unfold writelines in S1. rewrite concat_cons, has_char_app in S1. now apply orb_false_iff in S1.
  - destruct (t =? "")%string; [constructor|]. constructor; [|constructor]. split; [now apply strip_sub|exact S2].
Qed.

(** Trailing empty lines are dropped. *)
Lemma trim_lines : forall ls, ls <> [] -> Forall (fun l => rstrip l = l) ls ->
  exists ls' r, ls' <> [] /\ ls = (ls' ++ r)%list /\ rstrip (join (String nl "") ls) = join (String nl "") ls'.
Proof.
  induction ls as [|l ls IH]; intros Hne H; [congruence|]. inversion H as [|? ? Hl Hls]; subst.
  destruct ls as [|m ls].
  - exists [l], []. split; [discriminate|]. split; [reflexivity|]. exact Hl.
  - destruct (IH ltac:(discriminate) Hls) as (ls' & r & N & E & J).
    unfold join in *. change (String.concat (String nl "") (l :: m :: ls)) with (l ++ String nl (String.concat (String nl "") (m :: ls))).
    set (b := String.concat (String nl "") (m :: ls)) in *.
    destruct (string_dec (rstrip b) "") as [Z|Z].
    + exists [l], (m :: ls). split; [discriminate|]. split; [reflexivity|]. cbn [String.concat].
      rewrite rstrip_app_ws; [exact Hl|]. cbn [all_chars]. change (is_ws nl) with true. cbn [andb].
      destruct (rstrip_split b) as (w & E1 & E2). rewrite Z in E1. cbn [append] in E1. now rewrite E1.
    + exists (l :: ls'), r. split; [discriminate|]. split; [cbn [app]; now rewrite <- E|].
      destruct ls' as [|x ls']; [congruence|].
      change (String.concat (String nl "") (l :: x :: ls')) with (l ++ String nl (String.concat (String nl "") (x :: ls'))).
      rewrite <- J. clear -Z. induction l as [|a l IH]; cbn [append].
      * rewrite rstrip_cons. apply String.eqb_neq in Z. now rewrite Z.
      * rewrite rstrip_cons, IH. destruct (l ++ String nl (rstrip b) =? "")%string eqn:E; [|reflexivity].
        apply String.eqb_eq in E. destruct l; discriminate.
Qed.

Lemma Forall_prefix : forall {A} (P : A -> Prop) a b, Forall P (a ++ b)%list -> Forall P a.
Proof. intros A P a b H. apply Forall_app in H. tauto. Qed.

Lemma map_strip_kept : forall l, Forall (fun x => strip x = x /\ is_comment x = false) l -> map strip (filter kept l) = l.
Proof.
  induction l as [|x l IH]; intros H; [reflexivity|]. inversion H as [|? ? [A B] C]; subst.
  cbn [filter]. unfold kept. rewrite A, B. cbn [negb map]. fold kept. rewrite A, IH by exact C. reflexivity.
Qed.

(** Lines read, joined and written are read again. *)
Lemma reread_read : forall k ls, value_read k (Some ls) ->
  let v := join_value ls in reread v = v /\ has_char cr v = false /\ first_line v = hd "" ls.
Proof.
  intros k ls (A & B & C & _) v.
  assert (R : Forall (fun l => rstrip l = l) ls).
  { eapply Forall_impl; [|exact A]. intros l (H & _). rewrite <- H. unfold strip. apply rstrip_idem. }
  destruct (trim_lines ls B R) as (ls' & r & N & E & J).
  assert (V : v = join (String nl "") ls') by exact J.
  assert (A' : Forall line_read ls') by (rewrite E in A; exact (Forall_prefix _ _ _ A)).
  assert (S : split_on nl v = ls').
  { rewrite V. apply split_on_join; [exact N|]. eapply Forall_impl; [|exact A']. intros l (_ & H & _). exact H. }
  split; [|split].
  - unfold reread. rewrite S.
    destruct ls' as [|x ls']; [congruence|]. inversion A' as [|? ? (X & _) Y]; subst. cbn [reread_lines].
    rewrite X, map_strip_kept.
    + unfold join_value. rewrite <- V. unfold v, join_value. apply rstrip_idem.
    + cbn [app tl] in C. apply Forall_prefix in C. apply Forall_forall. intros z Hz.
      rewrite Forall_forall in Y, C. destruct (Y z Hz) as (Z & _). split; [exact Z|]. now apply C.
  - rewrite V. clear -A'. induction A' as [|x l (_ & _ & X) Y IH]; [reflexivity|].
    unfold join in *. destruct l as [|y l]; [exact X|].
    change (String.concat (String nl "") (x :: y :: l)) with (x ++ String nl (String.concat (String nl "") (y :: l))).
    rewrite has_char_app, X. cbn [has_char orb]. exact IH.
  - unfold first_line. rewrite S, E. destruct ls'; [congruence|]. reflexivity.
Qed.

Lemma entry_read_ok : forall e, entry_read e ->
  entry_ok 0 (fst e, option_map join_value (snd e)) /\
  entry_no_cr (fst e, option_map join_value (snd e)) /\
  rereads (fst e, option_map join_value (snd e)) = [(fst e, option_map join_value (snd e))].
Proof.
  intros [k v] [(K1 & K2 & K3 & K4 & K5 & K6 & K7 & K8) V]. cbn [fst snd] in *.
  assert (I0 : indent k = 0%nat).
  { assert (Hne : strip k <> "") by congruence. destruct (strip_nonempty_head k Hne) as (a & r & E & W).
    rewrite K2 in E. rewrite E. cbn [indent]. now rewrite W. }
  destruct v as [ls|]; cbn [option_map].
  - destruct (reread_read k ls V) as (R1 & R2 & R3). destruct V as (_ & _ & _ & V). split; [|split].
    + split; [exact K7|]. right. rewrite K2. repeat split; try assumption; [|apply deep_0]. now rewrite R3.
    + split; assumption.
    + unfold rereads. cbn [fst snd]. rewrite K2, K3. apply String.eqb_neq in K1. rewrite K1. cbn [orb option_map].
      now rewrite R1.
  - split; [|split].
    + split; [exact K7|]. right. rewrite K2. repeat split; assumption.
    + split; [exact K8|exact I].
    + unfold rereads. cbn [fst snd]. rewrite K2, K3. apply String.eqb_neq in K1. rewrite K1. reflexivity.
Qed.

Lemma load_read : forall text t, load text = Ok t -> exists t', tab_read t' /\ t = join_values t'.
Proof.
  intros text t H. unfold load in H.
  destruct (read_lines new_reader (readlines (univ_nl text))) as [r|] eqn:E; cbn [bind] in H; [|discriminate].
  apply Ok_inj in H. exists (r_tab r). split; [|now symmetry].
  apply (read_lines_read (readlines (univ_nl text)) new_reader r); [|apply readlines_in, univ_nl_no_cr|exact E].
  split; [|exact I]. split; [eexists; eexists; reflexivity|]. split; [repeat constructor; intros []|].
  split; repeat constructor. discriminate.
Qed.

(** What a loaded parser looks like to the writer. *)
Lemma loaded_ok : forall text t, load text = Ok t ->
  (exists s0 t', t = ("DEFAULT", s0) :: t') /\ NoDup (map fst t) /\
  Forall (fun s => name_ok (fst s) /\ has_char cr (fst s) = false) t /\
  Forall (fun s => NoDup (map fst (snd s)) /\
                   Forall (fun e => entry_ok 0 e /\ entry_no_cr e /\ rereads e = [e]) (snd s)) t.
Proof.
  intros text t H. destruct (load_read text t H) as (t' & (H1 & H2 & H3 & H4) & ->).
  split; [|split; [|split]].
  - destruct H1 as (s0 & t1 & ->). eexists; eexists; reflexivity.
  - unfold join_values. rewrite map_map. exact H2.
  - unfold join_values. apply Forall_map. exact H3.
  - unfold join_values. apply Forall_map. eapply Forall_impl; [|exact H4]. intros [c s] [A B]. cbn [fst snd] in *.
    split; [now rewrite map_map|]. apply Forall_map. eapply Forall_impl; [|exact B]. intros e He.
    exact (entry_read_ok e He).
Qed.

Lemma rereads_all : forall s, Forall (fun e => entry_ok 0 e /\ entry_no_cr e /\ rereads e = [e]) s -> flat_map rereads s = s.
Proof.
  induction s as [|e s IH]; intros H; [reflexivity|]. inversion H as [|? ? (_ & _ & A) B]; subst.
  cbn [flat_map]. rewrite A, IH by exact B. reflexivity.
Qed.

(** ** C77: saving a loaded configuration *)

(** Whatever file was loaded, saving it and loading it again gives the same
    options, sections and values. *)
Theorem C77_saving_keeps_every_option : forall text t, load text = Ok t -> load (write t) = Ok t.
Proof.
  intros text t H. destruct (loaded_ok text t H) as ((s0 & t' & ->) & H2 & H3 & H4).
  assert (R : reread_ini (("DEFAULT", s0) :: t') = ("DEFAULT", s0) :: t').
  { clear H H2 H3. induction H4 as [|[c s] l [_ A] B IH]; [reflexivity|].
    unfold reread_ini in *. cbn [map fst snd] in *. rewrite IH, rereads_all by exact A. reflexivity. }
  rewrite (load_write 0).
  - now rewrite R.
  - apply Forall_forall. intros s Hs. rewrite Forall_forall in H3, H4. destruct (H3 s Hs) as [A _].
    destruct (H4 s Hs) as [_ B]. split; [exact A|]. eapply Forall_impl; [|exact B]. sel.
  - apply Forall_forall. intros s Hs. rewrite Forall_forall in H4. destruct (H4 s Hs) as [A B].
    now rewrite rereads_all.
  - exact H2.
  - apply write_no_cr. apply Forall_forall. intros s Hs. rewrite Forall_forall in H3, H4. destruct (H3 s Hs) as [_ A].
    destruct (H4 s Hs) as [_ B]. split; [exact A|]. eapply Forall_impl; [|exact B]. sel.
Qed.
Print Assumptions C77_saving_keeps_every_option.

(** A second save does not change the file any more. *)
Theorem C77_saving_again_changes_nothing : forall text t t', load text = Ok t -> load (write t) = Ok t' -> write t' = write t.
Proof. intros text t t' H H'. rewrite (C77_saving_keeps_every_option text t H) in H'. apply Ok_inj in H'. now subst. Qed.
Print Assumptions C77_saving_again_changes_nothing.

(** Comments are lost when a configuration is saved. *)
Theorem C77_comments_are_kept_refuted :
  exists text t, load text = Ok t /\ load (write t) = Ok t /\ contains "#" text = true /\ contains "#" (write t) = false.
Proof.
  exists (new_file config_stmts demo_arg). eexists. split; [vm_compute; reflexivity|].
  split; [vm_compute; reflexivity|]. split; vm_compute; reflexivity.
Qed.
Print Assumptions C77_comments_are_kept_refuted.

(** Setting one option and saving: after loading, this option has the new
    value and nothing else is different. *)
Theorem C77_changing_one_option : forall text t c k v s,
  load text = Ok t -> get c t = Some s -> option_name_ok 0 k = true -> strip k = k -> has_char cr k = false ->
  has_char cr v = false ->
  load (write (assign c k v t)) = Ok (assign c k (reread v) t).
Proof.
  intros text t c k v s H Hc Hk Hs Hkc Hv. destruct (loaded_ok text t H) as (H1 & H2 & H3 & H4).
  assert (Lk : lower k = k).
  { unfold option_name_ok in Hk. rewrite !andb_true_iff in Hk. destruct Hk as ((((((_ & _) & _) & _) & L) & _) & _).
    apply String.eqb_eq in L. now rewrite Hs in L. }
  assert (Ek : is_comment k = false /\ (k =? "")%string = false).
  { unfold option_name_ok in Hk. rewrite Hs in Hk. rewrite !andb_true_iff, !negb_true_iff in Hk. tauto. }
  destruct Ek as [Ek1 Ek2].
  unfold assign, put_opt. rewrite Lk. unfold section. rewrite Hc.
  assert (Ins : In (c, s) t) by now apply get_in.
  assert (Fs : NoDup (map fst s) /\ Forall (fun e => entry_ok 0 e /\ entry_no_cr e /\ rereads e = [e]) s).
  { rewrite Forall_forall in H4. exact (H4 _ Ins). }
  destruct Fs as [Ns Fs].
  assert (RR : forall w l, Forall (fun e => entry_ok 0 e /\ entry_no_cr e /\ rereads e = [e]) l ->
     flat_map rereads (put k (Some w) l) = put k (Some (reread w)) l).
  { intros w l. induction l as [|[k' x] l IH]; intros Hl.
    - cbn [put flat_map]. unfold rereads. cbn [fst snd]. rewrite Hs, Ek1, Ek2. reflexivity.
    - inversion Hl as [|? ? (_ & _ & A) B]; subst. cbn [put]. destruct (k' =? k)%string eqn:E.
      + apply String.eqb_eq in E. subst k'. cbn [flat_map]. rewrite rereads_all by exact B.
        unfold rereads. cbn [fst snd]. rewrite Hs, Ek1, Ek2. reflexivity.
      + cbn [flat_map]. rewrite A, IH by exact B. reflexivity. }
  assert (R : reread_ini (put c (put k (Some v) s) t) = put c (put k (Some (reread v)) s) t).
  { unfold reread_ini. clear -H4 RR Fs. induction t as [|[c' x] t IH].
    - cbn [put map fst snd]. now rewrite RR.
    - inversion H4 as [|? ? [_ A] B]; subst. cbn [put]. destruct (c' =? c)%string; cbn [map fst snd].
      + rewrite RR by exact Fs. f_equal. clear -B. induction B as [|[d y] l [_ A] B IH]; [reflexivity|].
        cbn [map fst snd] in *. now rewrite IH, rereads_all.
      + cbn [fst snd] in A. rewrite IH by exact B. now rewrite rereads_all. }
  assert (OKN : entry_ok 0 (k, Some v) /\ entry_no_cr (k, Some v)).
  { split; [apply option_ok; [exact Hk|apply deep_0]|]. split; assumption. }
  destruct H1 as (s0 & t' & Et).
  assert (Sh : exists s1 t1, put c (put k (Some v) s) t = ("DEFAULT", s1) :: t1).
  { rewrite Et. cbn [put]. destruct ("DEFAULT" =? c)%string; eauto. }
  destruct Sh as (s1 & t1 & Sh).
  assert (F1 : Forall (fun s => name_ok (fst s) /\ Forall (entry_ok 0) (snd s)) (put c (put k (Some v) s) t)).
  { apply Forall_put.
    - apply Forall_forall. intros x Hx. rewrite Forall_forall in H3, H4. destruct (H3 x Hx) as [A _].
      destruct (H4 x Hx) as [_ B]. split; [exact A|]. eapply Forall_impl; [|exact B]. sel.
    - cbn [fst snd]. split; [rewrite Forall_forall in H3; exact (proj1 (H3 _ Ins))|].
      apply Forall_put; [|first [exact (proj1 OKN)|exact (proj2 OKN)]]. eapply Forall_impl; [|exact Fs]. sel. }
  assert (F2 : Forall (fun s => NoDup (map fst (flat_map rereads (snd s)))) (put c (put k (Some v) s) t)).
  { apply Forall_put.
    - apply Forall_forall. intros x Hx. rewrite Forall_forall in H4. destruct (H4 x Hx) as [A B]. now rewrite rereads_all.
    - cbn [snd]. rewrite RR by exact Fs. now apply NoDup_put. }
  assert (F3 : NoDup (map fst (put c (put k (Some v) s) t))) by now apply NoDup_put.
  assert (F4 : has_char cr (write (put c (put k (Some v) s) t)) = false).
  { apply write_no_cr. apply Forall_put.
    - apply Forall_forall. intros x Hx. rewrite Forall_forall in H3, H4. destruct (H3 x Hx) as [_ A].
      destruct (H4 x Hx) as [_ B]. split; [exact A|]. eapply Forall_impl; [|exact B]. sel.
    - cbn [fst snd]. split; [rewrite Forall_forall in H3; exact (proj2 (H3 _ Ins))|].
      apply Forall_put; [|first [exact (proj1 OKN)|exact (proj2 OKN)]]. eapply Forall_impl; [|exact Fs]. sel. }
  rewrite <- R. rewrite Sh in *. exact (load_write 0 s1 t1 F1 F2 F3 F4).
Qed.
Print Assumptions C77_changing_one_option.

(** An answer on one line is stored without the blanks around it. *)
Theorem C77_answers_are_stored : forall text t c k v s,
  load text = Ok t -> get c t = Some s -> option_name_ok 0 k = true -> strip k = k -> has_char cr k = false ->
  has_char nl v = false -> has_char cr v = false ->
  exists t', load (write (assign c k v t)) = Ok t' /\ lookup t' c k = Ok (Some (strip v)) /\
    (* other options, in whatever section *)
    (forall c' k', k' <> k -> lookup t' c' k' = lookup t c' k') /\
    (* the same option of other sections, unless they take it from DEFAULT *)
    (forall c', c' <> c -> c <> "DEFAULT" \/ (exists s', get c' t = Some s' /\ get k s' <> None) ->
       lookup t' c' k = lookup t c' k) /\
    (forall c' s', c = "DEFAULT" -> get c' t = Some s' -> get k s' = None -> lookup t' c' k = Ok (Some (strip v))).
Proof.
  intros text t c k v s H Hc Hk Hs Hkc Hn Hv.
  exists (assign c k (strip v) t). rewrite <- (reread_plain v Hn).
  split; [exact (C77_changing_one_option text t c k v s H Hc Hk Hs Hkc Hv)|].
  assert (Lk : lower k = k).
  { unfold option_name_ok in Hk. rewrite !andb_true_iff in Hk. destruct Hk as ((((((_ & _) & _) & _) & L) & _) & _).
    apply String.eqb_eq in L. now rewrite Hs in L. }
  unfold assign, put_opt. rewrite Lk. replace (section c t) with s by (unfold section; now rewrite Hc).
  assert (G : forall c', get c' (put c (put k (Some (reread v)) s) t) =
                         if string_dec c c' then Some (put k (Some (reread v)) s) else get c' t).
  { intros c'. destruct (string_dec c c') as [<- |N]; [apply get_put_same|apply get_put_other; exact N]. }
  split; [unfold lookup; now rewrite get_put_same, get_put_same|].
  split; [|split].
  - intros c' k' Hne. unfold lookup, section. rewrite !G.
    assert (D : get k' (match (if string_dec c "DEFAULT" then Some (put k (Some (reread v)) s) else get "DEFAULT" t) with
                        | Some s0 => s0 | None => [] end) =
                get k' (match get "DEFAULT" t with Some s0 => s0 | None => [] end)).
    { destruct (string_dec c "DEFAULT") as [-> |N]; [|reflexivity]. rewrite Hc. apply get_put_other. congruence. }
    rewrite D. destruct (string_dec c c') as [<- |N]; [|reflexivity].
    rewrite Hc. rewrite get_put_other by congruence. reflexivity.
  - intros c' Hne Ho. unfold lookup, section. rewrite !G.
    destruct (string_dec c c') as [E|_]; [congruence|].
    destruct Ho as [Hd|(s' & E & E')].
    + destruct (string_dec c "DEFAULT") as [E|_]; [congruence|reflexivity].
    + rewrite E. destruct (get k s'); [reflexivity|congruence].
  - intros c' s' -> E E'. unfold lookup, section. rewrite !G. destruct (string_dec "DEFAULT" "DEFAULT") as [_|N]; [|congruence].
    destruct (string_dec "DEFAULT" c') as [_|_].
    + now rewrite get_put_same.
    + rewrite E, E'. now rewrite get_put_same.
Qed.
Print Assumptions C77_answers_are_stored.

Example C77_ref_img_id : exists t t', load (new_file config_stmts demo_arg) = Ok t /\
  load (write (assign "find_search_areas" "ref_img_id" " 17 " t)) = Ok t' /\
  lookup t' "find_search_areas" "ref_img_id" = Ok (Some "17") /\ option_name_ok 0 "ref_img_id" = true.
Proof. eexists. eexists. split; [vm_compute; reflexivity|]. split; [vm_compute; reflexivity|]. split; reflexivity. Qed.

(** An option of DEFAULT is also seen in the other sections. *)
Example C77_default_option : exists t t', load (new_file config_stmts demo_arg) = Ok t /\
  load (write (assign "DEFAULT" "num_cores" "8" t)) = Ok t' /\
  lookup t' "DEFAULT" "num_cores" = Ok (Some "8") /\ lookup t' "analyse_photo" "num_cores" = Ok (Some "8") /\
  lookup t' "analyse_photo" "first_img_analysis_id" = lookup t "analyse_photo" "first_img_analysis_id".
Proof.
  eexists. eexists. split; [vm_compute; reflexivity|]. split; [vm_compute; reflexivity|].
  split; [reflexivity|]. split; reflexivity.
Qed.

(** ** C78: values on several lines *)

Lemma split_ws_strip : forall s, split_ws (strip s) = split_ws s.
Proof.
  intros s. unfold strip. destruct (rstrip_split (lstrip s)) as (w & E & W).
  assert (A : split_ws (rstrip (lstrip s)) = split_ws (lstrip s)).
  { rewrite E at 2. clear E. revert W. generalize (rstrip (lstrip s)) as x. induction w as [|a w IH]; intros x W.
    - now rewrite app_nil_s.
    - cbn [all_chars] in W. apply andb_true_iff in W. destruct W as [W1 W2].
      rewrite split_ws_app by exact W1. change w with ("" ++ w). rewrite <- (IH "" W2). now rewrite app_nil_r. }
  rewrite A. destruct (lstrip_split s) as (p & Ep & Hp & _). rewrite Ep at 2. now rewrite split_ws_skip.
Qed.

Lemma split_ws_join : forall ls, split_ws (join (String nl "") ls) = concat (map split_ws ls).
Proof.
  induction ls as [|l ls IH]; [reflexivity|]. unfold join in *. destruct ls as [|m ls].
  - cbn [String.concat map concat]. now rewrite app_nil_r.
  - change (String.concat (String nl "") (l :: m :: ls)) with (l ++ String nl (String.concat (String nl "") (m :: ls))).
    rewrite split_ws_app by reflexivity. rewrite IH. reflexivity.
Qed.

Lemma split_ws_rstrip : forall s, split_ws (rstrip s) = split_ws s.
Proof. intros s. rewrite <- (split_ws_strip (rstrip s)), strip_rstrip. apply split_ws_strip. Qed.

(** The words of a value survive when no line is mistaken for a comment. *)
Lemma split_ws_reread : forall v, Forall (fun l => is_comment (strip l) = false) (tl (split_on nl v)) ->
  split_ws (reread v) = split_ws v.
Proof.
  intros v H. unfold reread, join_value. rewrite split_ws_rstrip, split_ws_join.
  transitivity (split_ws (join (String nl "") (split_on nl v))); [|now rewrite join_split].
  rewrite split_ws_join. f_equal. destruct (split_on nl v) as [|l ls]; [reflexivity|]. cbn [reread_lines tl] in *.
  cbn [map]. rewrite split_ws_strip. f_equal.
  induction H as [|x ls Hx Hl IH]; [reflexivity|]. cbn [filter]. unfold kept at 1. rewrite Hx. cbn [negb map].
  rewrite split_ws_strip, IH. reflexivity.
Qed.

Lemma reread_none : forall v, first_line v = "" -> (reread v =? "None")%string = false.
Proof.
  intros v H. apply String.eqb_neq. intros E. unfold reread, first_line in *.
  destruct (split_on nl v) as [|l ls]; [discriminate|]. cbn [hd] in H. subst l. cbn [reread_lines] in E.
  unfold join_value, join in E. change (strip "") with "" in E.
  destruct (map strip (filter kept ls)) as [|m ms]; [discriminate|].
  change (String.concat (String nl "") ("" :: m :: ms)) with (String nl (String.concat (String nl "") (m :: ms))) in E.
  rewrite rstrip_cons in E. destruct (rstrip (String.concat (String nl "") (m :: ms)) =? "")%string; [|discriminate].
  change (is_ws nl) with true in E. discriminate.
Qed.

(** Arrays typed in line by line are the same after saving and loading. *)
Theorem C78_typed_arrays_survive_saving : forall {A} (parse : string -> res A) n text t c k s lines,
  load text = Ok t -> get c t = Some s -> option_name_ok 0 k = true -> strip k = k -> has_char cr k = false ->
  Forall (fun l => has_char nl l = false /\ has_char cr l = false /\ is_comment (strip l) = false) lines ->
  exists t' v', load (write (assign c k (prompt_text lines) t)) = Ok t' /\ lookup t' c k = Ok (Some v') /\
    get2d parse n v' = get2d parse n (prompt_text lines).
Proof.
  intros A parse n text t c k s lines H Hc Hk Hs Hkc Hl.
  assert (PT : forall ls acc, fold_left (fun acc l => acc ++ String tab ("    " ++ l ++ String nl "")) ls acc
     = acc ++ writelines (map (fun l => String tab ("    " ++ l ++ String nl "")) ls)).
  { induction ls as [|l ls IH]; intros acc; cbn [fold_left map].
    - cbn. now rewrite app_nil_s.
    - rewrite IH. unfold writelines. rewrite concat_cons. now rewrite app_assoc_s. }
  assert (SP : split_on nl (prompt_text lines) = ("" :: map (fun l => String tab (String.append "    " l)) lines ++ [""])%list).
  { unfold prompt_text. rewrite PT. cbn [append split_on]. change (Ascii.eqb nl nl) with true. cbn iota. f_equal.
    induction Hl as [|l ls (H1 & _) H2 IH]; [reflexivity|].
    cbn [map app]. unfold writelines in *. rewrite concat_cons. revert IH.
    match goal with |- split_on nl ?X = _ -> _ => set (x := X) end. intros IH.
    transitivity (split_on nl (String tab ("    " ++ l) ++ String nl x)).
    - f_equal. cbn [append]. now rewrite app_assoc_s.
    - rewrite split_on_app; [now rewrite IH|]. cbn [has_char append]. now rewrite H1. }
  assert (CR : has_char cr (prompt_text lines) = false).
  { unfold prompt_text. rewrite PT. cbn [append has_char]. change (Ascii.eqb nl cr) with false. cbn [orb].
    apply has_char_concat. apply Forall_map. eapply Forall_impl; [|exact Hl]. intros l (_ & X & _).
    cbn [has_char append]. rewrite has_char_app, X. reflexivity. }
  exists (assign c k (reread (prompt_text lines)) t), (reread (prompt_text lines)).
  split; [exact (C77_changing_one_option text t c k _ s H Hc Hk Hs Hkc CR)|].
  assert (Lk : lower k = k).
  { unfold option_name_ok in Hk. rewrite !andb_true_iff in Hk. destruct Hk as ((((((_ & _) & _) & _) & L) & _) & _).
    apply String.eqb_eq in L. now rewrite Hs in L. }
  split.
  - unfold assign, put_opt. rewrite Lk. unfold lookup. now rewrite get_put_same, get_put_same.
  - unfold get2d. rewrite reread_none.
    2:{ unfold first_line. now rewrite SP. }
    change (prompt_text lines =? "None")%string with false.
    rewrite split_ws_reread; [reflexivity|]. rewrite SP. cbn [tl]. apply Forall_app. split; [|now repeat constructor].
    apply Forall_map. eapply Forall_impl; [|exact Hl]. intros l (_ & _ & X).
    change (String tab ("    " ++ l)) with ((String tab "    ") ++ l). now rewrite strip_skip_ws.
Qed.
Print Assumptions C78_typed_arrays_survive_saving.

(** Lines handed to the constructor have to be indented by three blanks;
    otherwise they become options of their own, the next option is taken for
    the continuation of an option without a value, and the file cannot be
    read any more. *)
Definition edges_arg (v p : string) : string := if (p =? "led_array_edge_indices")%string then v else "None".

Definition two_lines (indentation : string) : string :=
  String nl (indentation ++ "457 246" ++ String nl (indentation ++ "12 347")).

Theorem C78_constructor_lines_are_kept_refuted :
  exists v, get2d int_of_str 2 v = Ok (Some [[457; 246]; [12; 347]]%Z) /\
    load (new_file config_stmts (edges_arg v)) = Err AttributeError.
Proof. exists (two_lines ""). split; vm_compute; reflexivity. Qed.
Print Assumptions C78_constructor_lines_are_kept_refuted.

(** With three blanks in front of every line the array is read back. *)
Theorem C78_indented_lines_are_kept : forall {A} (parse : string -> res A) n arg,
  (forall p, has_char cr (arg p) = false /\ deep 3 (arg p)) ->
  Forall (fun l => is_comment (strip l) = false) (tl (split_on nl (arg "led_array_edge_indices"))) ->
  first_line (arg "led_array_edge_indices") = "" ->
  exists t v', load (new_file config_stmts arg) = Ok t /\
    lookup t "analyse_positions" "led_array_edge_indices" = Ok (Some v') /\
    get2d parse n v' = get2d parse n (arg "led_array_edge_indices").
Proof.
  intros A parse n arg H Hc Hf. destruct (C76_created_file_is_read_back arg H) as [E _].
  eexists. exists (reread (arg "led_array_edge_indices")). split; [exact E|]. split; [reflexivity|].
  unfold get2d. rewrite reread_none by exact Hf. rewrite split_ws_reread by exact Hc.
  destruct (arg "led_array_edge_indices" =? "None")%string eqn:X; [|reflexivity].
  apply String.eqb_eq in X. rewrite X in Hf. discriminate Hf.
Qed.
Print Assumptions C78_indented_lines_are_kept.

Example C78_three_blanks : (forall p, has_char cr (edges_arg (two_lines "   ") p) = false /\ deep 3 (edges_arg (two_lines "   ") p)) /\
  exists t v', load (new_file config_stmts (edges_arg (two_lines "   "))) = Ok t /\
    lookup t "analyse_positions" "led_array_edge_indices" = Ok (Some v') /\
    get2d int_of_str 2 v' = Ok (Some [[457; 246]; [12; 347]]%Z).
Proof.
  split.
  - intros p. unfold edges_arg. destruct (p =? "led_array_edge_indices")%string.
    + split; [reflexivity|]. unfold deep. cbn. repeat constructor; right; right; lia.
    + split; [reflexivity|]. now apply deep_plain.
  - eexists. eexists. split; [vm_compute; reflexivity|]. split; reflexivity.
Qed.

(** ** C79: the number of cores written into the files of the demo *)

Lemma starts_stop_eq : forall sep t c s, has_char c sep = false -> starts sep (t ++ String c s) = starts sep t.
Proof.
  induction sep as [|a sep IH]; intros t c s H; [reflexivity|].
  cbn [has_char] in H. apply orb_false_iff in H. destruct H as [H1 H2].
  destruct t as [|b t]; cbn [append starts].
  - now rewrite H1.
  - now rewrite IH.
Qed.

Lemma contains_stop : forall sep a c b, sep <> "" -> has_char c sep = false ->
  contains sep (a ++ String c b) = contains sep a || contains sep b.
Proof.
  intros sep a c b Hne H. induction a as [|x a IH].
  - cbn [append contains]. destruct sep as [|y sep]; [congruence|]. cbn [has_char] in H.
    apply orb_false_iff in H. destruct H as [H _]. cbn [starts]. rewrite H. reflexivity.
  - change (String x a ++ String c b) with (String x (a ++ String c b)). cbn [contains]. rewrite IH.
    change (String x (a ++ String c b)) with (String x a ++ String c b). rewrite starts_stop_eq by exact H.
    now rewrite orb_assoc.
Qed.

(** Lines of a section whose values are on one line. *)
Lemma one_line : forall k v, has_char nl v = false -> entry_lines (k, Some v) = [k ++ " = " ++ v ++ String nl ""].
Proof.
  intros k v H. unfold entry_lines, first_line. cbn [fst snd]. rewrite split_on_no_char by exact H. reflexivity.
Qed.

Lemma edit_other : forall k v n, has_char nl v = false -> contains "num_cores" k = false -> contains "num_cores" v = false ->
  new_line "num_cores" n (k ++ " = " ++ v ++ String nl "") = k ++ " = " ++ v ++ String nl "".
Proof.
  intros k v n Hv Hk Hc. unfold new_line.
  replace (contains "num_cores" (k ++ " = " ++ v ++ String nl "")) with false; [reflexivity|].
  change (k ++ " = " ++ v ++ String nl "") with (k ++ String " "%char ("=" ++ String " "%char (v ++ String nl ""))).
  rewrite contains_stop by (reflexivity || discriminate). rewrite Hk. cbn [orb].
  rewrite contains_stop by (reflexivity || discriminate). change (contains "num_cores" "=") with false. cbn [orb].
  rewrite contains_stop by (reflexivity || discriminate). rewrite Hc. reflexivity.
Qed.

Lemma edit_cores : forall v n,
  new_line "num_cores" n ("   num_cores" ++ " = " ++ v ++ String nl "") = "   num_cores" ++ " = " ++ n ++ String nl "".
Proof.
  intros v n. change ("   num_cores" ++ " = " ++ v ++ String nl "") with ("   num_cores = " ++ v ++ String nl "").
  unfold new_line.
  replace (contains "num_cores" ("   num_cores = " ++ v ++ String nl "")) with true
    by (symmetry; rewrite contains_app_r; reflexivity).
  rewrite has_char_app. change (has_char "="%char "   num_cores = ") with true. cbn [andb orb].
  change ("   num_cores = " ++ v ++ String nl "") with ("   num_cores " ++ String "="%char (" " ++ v ++ String nl "")).
  rewrite split_on_app by reflexivity. reflexivity.
Qed.

Definition with_cores (n : string) (arg : string -> string) (p : string) : string :=
  if (p =? "num_cores")%string then n else arg p.

Lemma edit_text : forall word value t, Forall (fun s => name_ok (fst s) /\ Forall (entry_ok 3) (snd s)) t ->
  replace_params word value (write t) = writelines (map (new_line word value) (file_lines t)).
Proof.
  intros word value t H. unfold replace_params. rewrite write_text.
  rewrite readlines_writelines by (apply (file_is_lines 3); exact H). reflexivity.
Qed.

Definition edits (n : string) (e e' : string * option string) : Prop :=
  map (new_line "num_cores" n) (entry_lines e) = entry_lines e'.

Lemma edits_other : forall n k v, has_char nl v = false -> contains "num_cores" k = false ->
  contains "num_cores" v = false -> edits n (k, Some v) (k, Some v).
Proof.
  intros n k v H1 H2 H3. unfold edits. rewrite one_line by exact H1. cbn [map]. now rewrite edit_other.
Qed.

Lemma edits_cores : forall n v, has_char nl v = false -> has_char nl n = false ->
  edits n ("   num_cores", Some v) ("   num_cores", Some n).
Proof.
  intros n v H1 H2. unfold edits. rewrite !one_line by assumption. cbn [map]. now rewrite edit_cores.
Qed.

Lemma edits_entries : forall n es es', Forall2 (edits n) es es' ->
  map (new_line "num_cores" n) (flat_map entry_lines es) = flat_map entry_lines es'.
Proof.
  intros n es es' H. induction H as [|e e' es es' He H IH]; [reflexivity|].
  cbn [flat_map]. rewrite map_app, He, IH. reflexivity.
Qed.

(** Name of a section, seen by the editor. *)
Definition header_kept (n c : string) : Prop :=
  new_line "num_cores" n ("[" ++ c ++ "]" ++ String nl "") = "[" ++ c ++ "]" ++ String nl "".

Lemma edits_file : forall n t t',
  Forall2 (fun s s' => fst s = fst s' /\ header_kept n (fst s) /\ skipped s = false /\ skipped s' = false /\
                       Forall2 (edits n) (snd s) (snd s')) t t' ->
  map (new_line "num_cores" n) (file_lines t) = file_lines t'.
Proof.
  intros n t t' H. induction H as [|[c s] [c' s'] t t' (H1 & H2 & H3 & H4 & H5) H IH]; [reflexivity|].
  cbn [fst snd] in *. subst c'. unfold file_lines in *. cbn [flat_map]. rewrite map_app, IH, H3, H4.
  f_equal. unfold section_lines. cbn [fst snd map]. rewrite H2, map_app, (edits_entries n s s' H5). reflexivity.
Qed.

Ltac edit_entries Hnl Hc Hn :=
  repeat (apply Forall2_cons; [match goal with
     | |- edits _ (_, None) _ => vm_compute; reflexivity
     | |- edits _ ("   num_cores", _) _ => apply edits_cores; [apply Hnl|exact Hn]
     | |- _ => apply edits_other; [apply Hnl|reflexivity|apply Hc; discriminate]
     end|]); apply Forall2_nil.

Ltac edit_sections Hnl Hc Hn :=
  repeat (apply Forall2_cons; [cbn [fst snd]; split; [reflexivity|]; split; [reflexivity|]; split; [reflexivity|];
    split; [reflexivity|]; edit_entries Hnl Hc Hn|]); apply Forall2_nil.

(** Editing the file created from some parameters gives the file that would
    have been created with the other number of cores. *)
Theorem C79_edited_file : forall stmts arg n, stmts = config_stmts \/ stmts = analysis_stmts ->
  (forall p, plain (arg p)) -> (forall p, p <> "num_cores" -> contains "num_cores" (arg p) = false) -> plain n ->
  replace_params "num_cores" n (new_file stmts arg) = new_file stmts (with_cores n arg).
Proof.
  intros stmts arg n Hst Ha Hc (Hn & _).
  assert (Hdeep : forall p, deep 3 (arg p)) by (intros p; apply deep_plain, Ha).
  assert (Hnl : forall p, has_char nl (arg p) = false) by (intros p; apply Ha).
  assert (M : forall t u, map (new_line "num_cores" n) (file_lines t) = file_lines u ->
     Forall (fun s => name_ok (fst s) /\ Forall (entry_ok 3) (snd s)) t ->
     replace_params "num_cores" n (write t) = write u).
  { intros t u E F. rewrite edit_text by exact F. now rewrite E, <- write_text. }
  unfold new_file. apply M; clear M.
  - apply edits_file. destruct Hst as [-> | ->].
    + set (t := new_config config_stmts arg). vm_compute in t.
      set (u := new_config config_stmts (with_cores n arg)). vm_compute in u.
      subst t u. edit_sections Hnl Hc Hn.
    + set (t := new_config analysis_stmts arg). vm_compute in t.
      set (u := new_config analysis_stmts (with_cores n arg)). vm_compute in u.
      subst t u. edit_sections Hnl Hc Hn.
  - destruct Hst as [-> | ->].
    + set (t := new_config config_stmts arg). vm_compute in t. subst t.
      repeat (apply Forall_cons; [split; [split; [discriminate|reflexivity]|cbn [snd]; entries Hdeep]|]).
      apply Forall_nil.
    + set (t := new_config analysis_stmts arg). vm_compute in t. subst t.
      repeat (apply Forall_cons; [split; [split; [discriminate|reflexivity]|cbn [snd]; entries Hdeep]|]).
      apply Forall_nil.
Qed.
Print Assumptions C79_edited_file.

(** After [_edit_config_files] both files are read with the new number of
    cores and otherwise unchanged options. *)
Theorem C79_only_the_number_of_cores_changes : forall stmts table arg n,
  (stmts, table) = (config_stmts, config_table) \/ (stmts, table) = (analysis_stmts, analysis_table) ->
  (forall p, plain (arg p)) -> (forall p, p <> "num_cores" -> contains "num_cores" (arg p) = false) -> plain n ->
  exists t, load (replace_params "num_cores" n (new_file stmts arg)) = Ok t /\
    lookup t "DEFAULT" "num_cores" = Ok (Some n) /\
    forall c os o p, In (c, os) table -> In (o, p) os -> o <> "num_cores" -> lookup t c o = Ok (Some (arg p)).
Proof.
  intros stmts table arg n Hst Ha Hc Hn.
  assert (Hp : forall p, plain (with_cores n arg p)).
  { intros p. unfold with_cores. destruct (p =? "num_cores")%string; [exact Hn|apply Ha]. }
  assert (Hst' : stmts = config_stmts \/ stmts = analysis_stmts).
  { destruct Hst as [E|E]; apply pair_equal_spec in E; tauto. }
  rewrite (C79_edited_file stmts arg n Hst' Ha Hc Hn).
  destruct (C76_every_option_is_found (with_cores n arg) Hp stmts table Hst) as (t & E & L).
  exists t. split; [exact E|]. split.
  - destruct Hst as [X|X]; apply pair_equal_spec in X; destruct X as [-> ->];
      (erewrite L; [|left; reflexivity|cbn [In map]; repeat (left; reflexivity) || right]); try reflexivity;
      repeat (first [left; reflexivity|right]).
  - intros c os o p H1 H2 H3. rewrite (L c os o p H1 H2). unfold with_cores.
    destruct (p =? "num_cores")%string eqn:P; [|reflexivity]. exfalso. apply String.eqb_eq in P. subst p. apply H3.
    clear -Hst H1 H2. destruct Hst as [X|X]; apply pair_equal_spec in X; destruct X as [-> ->];
      cbn [In config_table analysis_table] in H1;
      repeat (destruct H1 as [H1|H1]; [apply pair_equal_spec in H1; destruct H1 as [<- <-]; cbn [In map] in H2;
        repeat (destruct H2 as [H2|H2]; [apply pair_equal_spec in H2; destruct H2 as [<- H2]; try discriminate H2; reflexivity|]);
        destruct H2|]); destruct H1.
Qed.
Print Assumptions C79_only_the_number_of_cores_changes.

(** A directory with that word in its name is lost. *)
Theorem C79_other_options_are_kept_refuted :
  exists arg n t, (forall p, plain (arg p)) /\ load (replace_params "num_cores" n (new_file config_stmts arg)) = Ok t /\
    lookup t "DEFAULT" "img_directory" = Ok (Some n) /\ arg "img_directory" <> n.
Proof.
  exists (fun p => if (p =? "img_directory")%string then "/data/num_cores_test/" else "None"), "8". eexists.
  split; [|split; [vm_compute; reflexivity|split; [reflexivity|discriminate]]].
  intros p. destruct (p =? "img_directory")%string; repeat split; reflexivity.
Qed.
Print Assumptions C79_other_options_are_kept_refuted.

Example C79_demo : (forall p, p <> "num_cores" -> contains "num_cores" (demo_arg p) = false) /\
  exists t, load (replace_params "num_cores" "8" (new_file config_stmts demo_arg)) = Ok t /\
    lookup t "DEFAULT" "num_cores" = Ok (Some "8") /\ lookup t "DEFAULT" "start_time" = Ok (Some "15:36:07").
Proof.
  split.
  - intros p H. unfold demo_arg. repeat match goal with |- context[if ?b then _ else _] => destruct b end; reflexivity.
  - eexists. split; [vm_compute; reflexivity|]. split; reflexivity.
Qed.
