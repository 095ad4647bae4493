(** Facts about the reader and the writer of configuration files. *)
From Coq Require Import ZArith Lia Bool Ascii String List.
From Verif Require Import Base Str Substr Demo_Model Demo_Props Config_Model Ini_Model.
Import ListNotations.
Local Open Scope string_scope.

(** ** Dictionaries *)

Lemma get_put_same : forall {A} k (a : A) l, get k (put k a l) = Some a.
Proof.
  intros A k a l. induction l as [|[k' b] l IH]; cbn [put get].
  - now rewrite String.eqb_refl.
  - destruct (k' =? k)%string eqn:E; cbn [get]; rewrite E; [reflexivity|exact IH].
Qed.

Lemma get_put_other : forall {A} k j (a : A) l, k <> j -> get j (put k a l) = get j l.
Proof.
  intros A k j a l H. induction l as [|[k' b] l IH]; cbn [put get].
  - apply String.eqb_neq in H. now rewrite H.
  - destruct (k' =? k)%string eqn:E; cbn [get].
    + apply String.eqb_eq in E. subst k'. apply String.eqb_neq in H. now rewrite H.
    + destruct (k' =? j)%string; [reflexivity|exact IH].
Qed.

Lemma put_put : forall {A} k (a b : A) l, put k a (put k b l) = put k a l.
Proof.
  intros A k a b l. induction l as [|[k' c] l IH]; cbn [put].
  - now rewrite String.eqb_refl.
  - destruct (k' =? k)%string eqn:E; cbn [put]; rewrite E; [reflexivity|]. now rewrite IH.
Qed.

Lemma put_fresh : forall {A} k (a : A) l, get k l = None -> put k a l = (l ++ [(k, a)])%list.
Proof.
  intros A k a l. induction l as [|[k' b] l IH]; cbn [put get]; intros H; [reflexivity|].
  destruct (k' =? k)%string; [discriminate|]. now rewrite IH.
Qed.

Lemma get_none : forall {A} k (l : list (string * A)), get k l = None <-> ~ In k (map fst l).
Proof.
  intros A k l. induction l as [|[k' b] l IH]; cbn [get map fst In]; [tauto|].
  destruct (k' =? k)%string eqn:E.
  - apply String.eqb_eq in E. split; [discriminate|]. intros H. exfalso. apply H. now left.
  - apply String.eqb_neq in E. rewrite IH. tauto.
Qed.

Lemma get_in : forall {A} k (a : A) l, get k l = Some a -> In (k, a) l.
Proof.
  intros A k a l. induction l as [|[k' b] l IH]; cbn [get]; [discriminate|].
  destruct (k' =? k)%string eqn:E.
  - apply String.eqb_eq in E. subst. intros H. injection H as ->. now left.
  - intros H. right. now apply IH.
Qed.

Lemma in_get : forall {A} k (a : A) l, NoDup (map fst l) -> In (k, a) l -> get k l = Some a.
Proof.
  intros A k a l. induction l as [|[k' b] l IH]; cbn [map fst get In]; [tauto|].
  intros H [E|E].
  - injection E as -> ->. now rewrite String.eqb_refl.
  - inversion H as [|? ? Hn Hd]; subst. destruct (k' =? k)%string eqn:F; [|now apply IH].
    apply String.eqb_eq in F. subst. exfalso. apply Hn. apply in_map_iff. now exists (k, a).
Qed.

Lemma get_map : forall {A B} (f : A -> B) k l,
  get k (map (fun e => (fst e, f (snd e))) l) = option_map f (get k l).
Proof.
  intros A B f k l. induction l as [|[k' a] l IH]; cbn [map get fst snd]; [reflexivity|].
  destruct (k' =? k)%string; [reflexivity|exact IH].
Qed.

Lemma put_map : forall {A B} (f : A -> B) k a l,
  map (fun e => (fst e, f (snd e))) (put k a l) = put k (f a) (map (fun e => (fst e, f (snd e))) l).
Proof.
  intros A B f k a l. induction l as [|[k' b] l IH]; cbn [map put fst snd]; [reflexivity|].
  destruct (k' =? k)%string; cbn [map fst snd]; [reflexivity|]. now rewrite IH.
Qed.

Lemma map_fst_put : forall {A} k (a : A) l,
  map fst (put k a l) = if in_dec string_dec k (map fst l) then map fst l else (map fst l ++ [k])%list.
Proof.
  intros A k a l. destruct (in_dec string_dec k (map fst l)) as [H|H].
  - induction l as [|[k' b] l IH]; cbn [map put fst] in *; [destruct H|].
    destruct (k' =? k)%string eqn:E; cbn [map fst]; [reflexivity|]. f_equal. apply IH.
    apply String.eqb_neq in E. destruct H; [contradiction|assumption].
  - apply get_none in H. rewrite put_fresh by exact H. now rewrite map_app.
Qed.

Lemma in_put : forall {A} k (a : A) l x, In x (put k a l) -> x = (k, a) \/ In x l.
Proof.
  intros A k a l x. induction l as [|[k' b] l IH]; cbn [put In].
  - intros [H|[]]; auto.
  - destruct (k' =? k)%string eqn:E; cbn [In].
    + apply String.eqb_eq in E. subst. intros [H|H]; auto.
    + intros [H|H]; auto. destruct (IH H); auto.
Qed.

Lemma section_put : forall {V} c (s : sect V) t, section c (put c s t) = s.
Proof. intros. unfold section. now rewrite get_put_same. Qed.

Lemma put_opt_put : forall {V} c k v (s : sect V) t, put_opt c k v (put c s t) = put c (put k v s) t.
Proof. intros. unfold put_opt. rewrite section_put. apply put_put. Qed.

Lemma put_opt_twice : forall {V} c k v w (t : ini V), put_opt c k v (put_opt c k w t) = put_opt c k v t.
Proof.
  intros. unfold put_opt. rewrite section_put, put_put, put_put. reflexivity.
Qed.

(** ** White space *)

Lemma lstrip_split : forall s, exists pad, s = pad ++ lstrip s /\ all_chars is_ws pad = true /\
  String.length pad = indent s.
Proof.
  induction s as [|a s (p & H1 & H2 & H3)]; [now exists ""|].
  cbn [lstrip indent]. destruct (is_ws a) eqn:E.
  - exists (String a p). cbn. rewrite E, <- H1, H3. auto.
  - now exists "".
Qed.

Lemma lstrip_head : forall s a r, lstrip s = String a r -> is_ws a = false.
Proof.
  induction s as [|b s IH]; intros a r; cbn [lstrip]; [discriminate|].
  destruct (is_ws b) eqn:E; [apply IH|]. intros H. injection H as -> ->. exact E.
Qed.

Lemma lstrip_app : forall s t, lstrip s <> "" -> lstrip (s ++ t) = lstrip s ++ t.
Proof.
  induction s as [|a s IH]; intros t; cbn [lstrip append]; [congruence|].
  destruct (is_ws a); [apply IH|reflexivity].
Qed.

Lemma lstrip_app_blank : forall s t, lstrip s = "" -> lstrip (s ++ t) = lstrip t.
Proof.
  induction s as [|a s IH]; intros t; cbn [lstrip append]; [reflexivity|].
  destruct (is_ws a); [apply IH|discriminate].
Qed.

Lemma indent_app : forall s t, lstrip s <> "" -> indent (s ++ t) = indent s.
Proof.
  induction s as [|a s IH]; intros t; cbn [lstrip append indent]; [congruence|].
  destruct (is_ws a); [|reflexivity]. intros H. now rewrite IH.
Qed.

Lemma rstrip_cons : forall c s, rstrip (String c s) =
  if (rstrip s =? "")%string then (if is_ws c then "" else String c "") else String c (rstrip s).
Proof. intros. cbn [rstrip]. destruct (rstrip s); reflexivity. Qed.

Lemma rstrip_all_ws : forall w, all_chars is_ws w = true -> rstrip w = "".
Proof.
  induction w as [|a w IH]; cbn [all_chars]; [reflexivity|].
  rewrite andb_true_iff. intros [H1 H2]. rewrite rstrip_cons, IH by exact H2. cbn. now rewrite H1.
Qed.

Lemma rstrip_app_ws : forall s w, all_chars is_ws w = true -> rstrip (s ++ w) = rstrip s.
Proof.
  intros s w H. induction s as [|a s IH]; cbn [append].
  - now apply rstrip_all_ws.
  - now rewrite !rstrip_cons, IH.
Qed.

Lemma rstrip_idem : forall s, rstrip (rstrip s) = rstrip s.
Proof.
  induction s as [|a s IH]; [reflexivity|]. rewrite rstrip_cons.
  destruct (rstrip s =? "")%string eqn:E.
  - destruct (is_ws a) eqn:W; [reflexivity|]. rewrite rstrip_cons. cbn. now rewrite W.
  - rewrite rstrip_cons, IH, E. reflexivity.
Qed.

Lemma rstrip_split : forall s, exists w, s = rstrip s ++ w /\ all_chars is_ws w = true.
Proof.
  induction s as [|a s (w & H1 & H2)]; [now exists ""|]. rewrite rstrip_cons.
  destruct (rstrip s =? "")%string eqn:E.
  - apply String.eqb_eq in E. rewrite E in H1. cbn in H1. destruct (is_ws a) eqn:W.
    + exists (String a w). cbn [append all_chars]. rewrite W, H2. split; [now rewrite <- H1|reflexivity].
    + exists w. cbn [append]. split; [now rewrite <- H1|exact H2].
  - exists w. cbn [append]. split; [now rewrite <- H1|exact H2].
Qed.

(** Characters after the last visible one are dropped, those before it kept. *)
Lemma rstrip_visible : forall a c b, is_ws c = false -> rstrip (a ++ String c b) = a ++ String c (rstrip b).
Proof.
  intros a c b H. induction a as [|x a IH]; cbn [append].
  - rewrite rstrip_cons, H. destruct (rstrip b =? "")%string eqn:E; [|reflexivity].
    apply String.eqb_eq in E. now rewrite E.
  - rewrite rstrip_cons, IH. destruct (a ++ String c (rstrip b) =? "")%string eqn:E; [|reflexivity].
    apply String.eqb_eq in E. destruct a; discriminate.
Qed.

Lemma lstrip_all_ws : forall s, lstrip s = "" <-> all_chars is_ws s = true.
Proof.
  induction s as [|a s IH]; cbn [lstrip all_chars]; [tauto|].
  destruct (is_ws a); cbn; [exact IH|]. split; discriminate.
Qed.

Lemma strip_blank : forall s, strip s = "" <-> lstrip s = "".
Proof.
  intros s. unfold strip. split; [|intros ->; reflexivity]. intros H.
  destruct (lstrip s) as [|a r] eqn:E; [reflexivity|]. pose proof (lstrip_head _ _ _ E) as Ha.
  rewrite rstrip_cons, Ha in H. destruct (rstrip r =? "")%string; discriminate.
Qed.

Lemma strip_app_ws : forall s w, all_chars is_ws w = true -> strip (s ++ w) = strip s.
Proof.
  intros s w H. unfold strip. destruct (string_dec (lstrip s) "") as [E|E].
  - rewrite lstrip_app_blank, E by exact E. apply lstrip_all_ws in H. now rewrite H.
  - rewrite lstrip_app by exact E. now apply rstrip_app_ws.
Qed.

Lemma strip_skip_ws : forall w s, all_chars is_ws w = true -> strip (w ++ s) = strip s.
Proof.
  intros w s H. unfold strip. apply lstrip_all_ws in H. now rewrite lstrip_app_blank.
Qed.

Lemma strip_rstrip : forall s, strip (rstrip s) = strip s.
Proof.
  intros s. destruct (rstrip_split s) as (w & H1 & H2). rewrite H1 at 2. now rewrite strip_app_ws.
Qed.

Lemma lstrip_rstrip : forall s, lstrip (rstrip s) = rstrip (lstrip s).
Proof.
  induction s as [|a s IH]; [reflexivity|]. rewrite rstrip_cons. cbn [lstrip].
  destruct (rstrip s =? "")%string eqn:E.
  - apply String.eqb_eq in E. destruct (is_ws a) eqn:W.
    + rewrite E in IH. exact IH.
    + rewrite rstrip_cons, E. cbn. now rewrite W.
  - cbn [lstrip]. destruct (is_ws a) eqn:W; [exact IH|]. now rewrite rstrip_cons, E.
Qed.

Lemma lstrip_idem : forall s, lstrip (lstrip s) = lstrip s.
Proof.
  intros s. destruct (lstrip s) as [|a r] eqn:E; [reflexivity|].
  cbn [lstrip]. now rewrite (lstrip_head _ _ _ E).
Qed.

Lemma strip_idem : forall s, strip (strip s) = strip s.
Proof. intros s. unfold strip at 2. rewrite strip_rstrip. unfold strip. now rewrite lstrip_idem. Qed.

Lemma strip_nl : forall s, strip (s ++ String nl "") = strip s.
Proof. intros s. apply strip_app_ws. reflexivity. Qed.

Lemma strip_sub : forall c s, has_char c s = false -> has_char c (strip s) = false.
Proof.
  intros c s H. unfold strip.
  assert (L : has_char c (lstrip s) = false).
  { destruct (lstrip_split s) as (p & E & _). rewrite E, has_char_app in H. now apply orb_false_iff in H. }
  destruct (rstrip_split (lstrip s)) as (w & E & _). rewrite E, has_char_app in L. now apply orb_false_iff in L.
Qed.

Lemma rstrip_sub : forall c s, has_char c s = false -> has_char c (rstrip s) = false.
Proof.
  intros c s H. destruct (rstrip_split s) as (w & E & _). rewrite E, has_char_app in H. now apply orb_false_iff in H.
Qed.

Lemma strip_nonempty_head : forall s, strip s <> "" -> exists a r, strip s = String a r /\ is_ws a = false.
Proof.
  intros s H. unfold strip in *. destruct (lstrip s) as [|a r] eqn:E; [now elim H|].
  pose proof (lstrip_head _ _ _ E) as Ha. rewrite rstrip_cons, Ha.
  destruct (rstrip r =? "")%string; [exists a, ""|exists a, (rstrip r)]; auto.
Qed.

(** ** Lines *)

Lemma split_on_indent_lines : forall v, split_on nl (indent_lines v) =
  match split_on nl v with [] => [] | l :: r => l :: map (String tab) r end.
Proof.
  induction v as [|a v IH]; [reflexivity|]. cbn [indent_lines split_on].
  destruct (Ascii.eqb a nl) eqn:E.
  - cbn [split_on]. change (Ascii.eqb nl nl) with true. cbn iota.
    change (Ascii.eqb tab nl) with false. cbn iota. rewrite IH.
    destruct (split_on nl v) as [|l r] eqn:F; [now apply split_on_nonempty in F|]. reflexivity.
  - cbn [split_on]. rewrite E, IH. destruct (split_on nl v); reflexivity.
Qed.

Lemma join_split : forall s, join (String nl "") (split_on nl s) = s.
Proof.
  induction s as [|a s IH]; [reflexivity|]. cbn [split_on]. unfold join in *.
  destruct (split_on nl s) as [|l r] eqn:E; [now apply split_on_nonempty in E|].
  destruct (Ascii.eqb a nl) eqn:F.
  - apply Ascii.eqb_eq in F. subst a.
    change (String.concat (String nl "") ("" :: l :: r)) with (String nl (String.concat (String nl "") (l :: r))).
    now rewrite IH.
  - destruct r as [|m r].
    + cbn [String.concat] in *. now rewrite IH.
    + change (String.concat (String nl "") (String a l :: m :: r))
        with (String a (String.concat (String nl "") (l :: m :: r))). now rewrite IH.
Qed.

Lemma split_on_lines : forall s, Forall (fun l => has_char nl l = false) (split_on nl s).
Proof.
  induction s as [|a s IH]; cbn [split_on]; [now repeat constructor|].
  destruct (Ascii.eqb a nl) eqn:E; [now constructor|].
  destruct (split_on nl s) as [|l r]; inversion IH; subst.
  - constructor; [|constructor]. cbn [has_char]. now rewrite E.
  - constructor; [|assumption]. cbn [has_char]. now rewrite E.
Qed.

(** The lines a written value occupies. *)
Lemma indent_lines_text : forall v l r, split_on nl v = l :: r ->
  indent_lines v ++ String nl "" = (l ++ String nl "") ++ writelines (map (fun x => String tab (x ++ String nl "")) r).
Proof.
  intros v l r H. rewrite <- (join_split (indent_lines v)), split_on_indent_lines, H. clear H v.
  revert l. induction r as [|m r IH]; intros l.
  - cbn. now rewrite app_nil_s.
  - cbn [map]. unfold join in *.
    change (String.concat (String nl "") (l :: String tab m :: map (String tab) r))
      with (l ++ String nl (String.concat (String nl "") (String tab m :: map (String tab) r))).
    rewrite app_assoc_s. cbn [append].
    specialize (IH (String tab m)). rewrite IH. unfold writelines. rewrite concat_cons.
    rewrite ?app_assoc_s. cbn [append]. rewrite ?app_assoc_s. reflexivity.
Qed.

Lemma univ_nl_id : forall s, has_char cr s = false -> univ_nl s = s.
Proof.
  induction s as [|a s IH]; cbn [has_char univ_nl]; [reflexivity|].
  rewrite orb_false_iff. intros [H1 H2]. rewrite H1, IH by exact H2. reflexivity.
Qed.

Lemma univ_nl_no_cr : forall s, has_char cr (univ_nl s) = false.
Proof.
  assert (G : forall n s, (String.length s <= n)%nat -> has_char cr (univ_nl s) = false).
  { induction n as [|n IH]; intros s Hs.
    - destruct s; [reflexivity|cbn in Hs; lia].
    - destruct s as [|a s]; [reflexivity|]. cbn [String.length] in Hs. cbn [univ_nl].
      destruct (Ascii.eqb a cr) eqn:E.
      + destruct s as [|b s']; [reflexivity|]. destruct (Ascii.eqb b nl).
        * cbn [has_char]. change (Ascii.eqb nl cr) with false. apply IH. cbn in Hs. lia.
        * cbn [has_char]. change (Ascii.eqb nl cr) with false. apply IH. lia.
      + cbn [has_char]. rewrite E. apply IH. lia. }
  intros s. apply (G (String.length s)). lia.
Qed.

(** ** The joined table *)

Lemma join_section : forall c t, section c (join_values t) =
  map (fun e => (fst e, option_map join_value (snd e))) (section c t).
Proof.
  intros c t. unfold section, join_values.
  rewrite (get_map (fun s => map (fun e => (fst e, option_map join_value (snd e))) s)).
  destruct (get c t); reflexivity.
Qed.

Lemma join_put : forall c s t, join_values (put c s t) =
  put c (map (fun e => (fst e, option_map join_value (snd e))) s) (join_values t).
Proof.
  intros c s t. unfold join_values.
  apply (put_map (fun s => map (fun e => (fst e, option_map join_value (snd e))) s)).
Qed.

Lemma join_put_opt : forall c k v t, join_values (put_opt c k v t) =
  put_opt c k (option_map join_value v) (join_values t).
Proof.
  intros c k v t. unfold put_opt. rewrite join_put, join_section.
  now rewrite (put_map (option_map join_value)).
Qed.

Lemma put_same : forall {A} k (a : A) l, get k l = Some a -> put k a l = l.
Proof.
  intros A k a l. induction l as [|[k' b] l IH]; cbn [get put]; [discriminate|].
  destruct (k' =? k)%string eqn:E; intros H; [congruence|]. now rewrite IH.
Qed.

Lemma join_app_blank : forall ls, join_value (ls ++ [""])%list = join_value ls.
Proof.
  intros ls. unfold join_value, join. destruct ls as [|l ls]; [reflexivity|].
  replace (String.concat (String nl "") ((l :: ls) ++ [""])%list)
    with (String.concat (String nl "") (l :: ls) ++ String nl "").
  - now rewrite rstrip_app_ws.
  - revert l. induction ls as [|m ls IH]; intros l; [reflexivity|].
    change (String.concat (String nl "") (l :: m :: ls)) with (l ++ String nl (String.concat (String nl "") (m :: ls))).
    change (String.concat (String nl "") ((l :: m :: ls) ++ [""])%list)
      with (l ++ String nl (String.concat (String nl "") ((m :: ls) ++ [""])%list)).
    rewrite <- IH. rewrite app_assoc_s. reflexivity.
Qed.

Lemma read_lines_app : forall a b r, read_lines r (a ++ b)%list = bind (read_lines r a) (fun r' => read_lines r' b).
Proof.
  induction a as [|l a IH]; intros b r; cbn [read_lines app]; [reflexivity|].
  destruct (read_line r l) as [r'|e]; cbn [bind]; [apply IH|reflexivity].
Qed.

(** ** Reading one option back *)

(** A line of a value that is read back. *)
Definition kept (l : string) : bool := negb (is_comment (strip l)).

(** The lines of a value after writing and reading. *)
Definition reread_lines (ls : list string) : list string :=
  match ls with [] => [] | l :: r => strip l :: map strip (filter kept r) end.

(** A value after writing and reading. *)
Definition reread (v : string) : string := join_value (reread_lines (split_on nl v)).

(** The options a written entry turns into. *)
Definition rereads (e : string * option string) : sect string :=
  let s := strip (fst e) in
  if (is_comment s || (s =? "")%string) then [] else [(s, option_map reread (snd e))].

(** Continuation lines are indented by at least [d]. *)
Definition deep (d : nat) (v : string) : Prop :=
  Forall (fun l => strip l = "" \/ is_comment (strip l) = true \/ (d <= indent l)%nat) (tl (split_on nl v)).

(** The first line of a value. *)
Definition first_line (v : string) : string := hd "" (split_on nl v).

(** An entry of a section all of whose options are indented by [d]. *)
Definition entry_ok (d : nat) (e : string * option string) : Prop :=
  let (k, v) := e in
  has_char nl k = false /\
  ((v = None /\ (is_comment (strip k) = true \/ strip k = "")) \/
   (strip k <> "" /\ is_comment (strip k) = false /\ indent k = d /\ lower (strip k) = strip k /\
    has_char "="%char k = false /\ has_char ":"%char k = false /\
    match v with
    | None => header (strip k) = None
    | Some v => header (strip (k ++ " = " ++ first_line v)) = None /\ deep d v
    end)).

Definition entry_lines (e : string * option string) : list string :=
  match snd e with
  | None => [fst e ++ String nl ""]
  | Some v => (fst e ++ " = " ++ first_line v ++ String nl "") ::
              map (fun x => String tab (x ++ String nl "")) (tl (split_on nl v))
  end.

Lemma entry_text : forall e, write_option e = writelines (entry_lines e).
Proof.
  intros [k [v|]]; unfold write_option, entry_lines; cbn [fst snd].
  - unfold first_line. destruct (split_on nl v) as [|l r] eqn:E; [now apply split_on_nonempty in E|].
    cbn [hd tl]. unfold writelines. rewrite concat_cons. rewrite !app_assoc_s.
    rewrite (indent_lines_text v l r E). rewrite ?app_assoc_s. reflexivity.
  - cbn. now rewrite ?app_nil_s.
Qed.

Lemma lower_rstrip : forall s, lower (rstrip s) = rstrip (lower s).
Proof.
  assert (W : forall c, is_ws (lower_char c) = is_ws c)
    by (intros [[] [] [] [] [] [] [] []]; reflexivity).
  induction s as [|a s IH]; [reflexivity|]. cbn [lower]. rewrite !rstrip_cons, W, <- IH.
  destruct (rstrip s) as [|b r]; cbn; [|reflexivity]. now destruct (is_ws a).
Qed.

Lemma cut_delim_app : forall k c r, has_char "="%char k = false -> has_char ":"%char k = false ->
  (c = "="%char \/ c = ":"%char) -> cut_delim (k ++ String c r) = Some (k, r).
Proof.
  intros k c r H1 H2 Hc. induction k as [|a k IH]; cbn [append cut_delim].
  - destruct Hc as [-> | -> ]; reflexivity.
  - cbn [has_char] in H1, H2. apply orb_false_iff in H1, H2. destruct H1 as [A1 B1], H2 as [A2 B2].
    rewrite A1, A2. cbn. now rewrite IH.
Qed.

Lemma cut_delim_none : forall k, has_char "="%char k = false -> has_char ":"%char k = false -> cut_delim k = None.
Proof.
  intros k H1 H2. induction k as [|a k IH]; cbn [cut_delim]; [reflexivity|].
  cbn [has_char] in H1, H2. apply orb_false_iff in H1, H2. destruct H1 as [A1 B1], H2 as [A2 B2].
  rewrite A1, A2. cbn. now rewrite IH.
Qed.

Lemma has_char_lstrip : forall c s, has_char c s = false -> has_char c (lstrip s) = false.
Proof.
  intros c s H. destruct (lstrip_split s) as (p & E & _). rewrite E, has_char_app in H. now apply orb_false_iff in H.
Qed.

(** A written option line is parsed into its name and its value. *)
Lemma strip_option_line : forall k v, strip k <> "" ->
  strip (k ++ " = " ++ v) = (lstrip k ++ " ") ++ String "="%char (rstrip (String " "%char v)).
Proof.
  intros k v H. assert (L : lstrip k <> "") by (intros E; apply H; now apply strip_blank).
  unfold strip. rewrite lstrip_app by exact L.
  replace (lstrip k ++ " = " ++ v) with ((lstrip k ++ " ") ++ String "="%char (String " "%char v))
    by (rewrite app_assoc_s; reflexivity).
  rewrite rstrip_visible by reflexivity. reflexivity.
Qed.

Lemma parse_written : forall k v, strip k <> "" -> lower (strip k) = strip k ->
  has_char "="%char k = false -> has_char ":"%char k = false ->
  parse_option (strip (k ++ " = " ++ v)) = (strip k, Some (strip v)).
Proof.
  intros k v H Hl H1 H2. rewrite strip_option_line by exact H. unfold parse_option.
  rewrite cut_delim_app.
  - rewrite rstrip_app_ws by reflexivity. change (rstrip (lstrip k)) with (strip k). rewrite Hl.
    rewrite strip_rstrip. change (String " "%char v) with (" " ++ v). now rewrite strip_skip_ws.
  - rewrite has_char_app, has_char_lstrip by exact H1. reflexivity.
  - rewrite has_char_app, has_char_lstrip by exact H2. reflexivity.
  - now left.
Qed.

Lemma option_line_not_comment : forall k v, strip k <> "" -> is_comment (strip k) = false ->
  is_comment (strip (k ++ " = " ++ v)) = false /\ strip (k ++ " = " ++ v) <> "" /\
  indent (k ++ " = " ++ v) = indent k.
Proof.
  intros k v H Hc. assert (L : lstrip k <> "") by (intros E; apply H; now apply strip_blank).
  split; [|split].
  - rewrite strip_option_line by exact H.
    unfold strip in Hc. destruct (lstrip k) as [|a r] eqn:E; [congruence|].
    rewrite rstrip_cons, (lstrip_head _ _ _ E) in Hc. cbn [append is_comment].
    destruct (rstrip r =? "")%string; exact Hc.
  - rewrite strip_option_line by exact H. destruct (lstrip k); discriminate.
  - now apply indent_app.
Qed.

(** The reader while it is in section [c]; [J] are the options so far. *)
Definition reads (d : nat) (c : string) (J : ini string) (r : reader) : Prop :=
  r_sect r = Some c /\ join_values (r_tab r) = J /\ (r_opt r = None \/ r_ind r = d).

Lemma read_line_nl : forall r l, lstrip l <> "" -> read_line r (l ++ String nl "") = read_line r l.
Proof. intros r l H. unfold read_line. rewrite strip_nl, indent_app by exact H. reflexivity. Qed.

Lemma reads_blank : forall d c J r l, strip l = "" -> reads d c J r ->
  exists r', read_line r l = Ok r' /\ reads d c J r'.
Proof.
  intros d c J r l Hl (H1 & H2 & H3). unfold read_line. rewrite Hl. cbn [is_comment String.eqb].
  destruct (cur_value r) as [[[c' k] [ls|]]|] eqn:E.
  2,3: exists r; repeat split; assumption.
  eexists. split; [reflexivity|]. repeat split; cbn [r_sect r_opt r_ind r_tab]; try assumption.
  unfold cur_value in E. rewrite H1 in E. destruct (r_opt r) as [o|]; [|discriminate].
  destruct (get o (section c (r_tab r))) as [v|] eqn:G; [|discriminate].
  apply Some_inj in E. injection E as -> -> ->.
  rewrite join_put_opt. cbn [option_map]. rewrite join_app_blank.
  change (Some (join_value ls)) with (option_map join_value (Some ls)). rewrite <- join_put_opt.
  unfold put_opt. rewrite (put_same k (Some ls) _ G). unfold section in *.
  destruct (get c' (r_tab r)) as [s|] eqn:F; [|discriminate]. rewrite put_same by exact F. exact H2.
Qed.

Lemma reads_comment : forall d c J r l, is_comment (strip l) = true -> reads d c J r ->
  exists r', read_line r l = Ok r' /\ reads d c J r'.
Proof. intros d c J r l Hl H. unfold read_line. rewrite Hl. exists r. auto. Qed.

Lemma reads_new : forall d c J r l, reads d c J r -> strip l <> "" -> is_comment (strip l) = false ->
  indent l = d -> read_line r l = new_item r d (strip l).
Proof.
  intros d c J r l (H1 & H2 & H3) Hs Hc Hi. unfold read_line. rewrite Hc.
  apply String.eqb_neq in Hs. rewrite Hs.
  destruct (cur_value r) as [[[c' k] v]|] eqn:E; [|now rewrite Hi].
  destruct H3 as [H3|H3].
  - unfold cur_value in E. rewrite H1, H3 in E. discriminate.
  - rewrite H3, Hi, Nat.ltb_irrefl. reflexivity.
Qed.

Lemma option_map_none : forall {A B} (f : A -> B) o, option_map f o = None -> o = None.
Proof. intros A B f [a|] H; [discriminate|reflexivity]. Qed.

(** Continuation lines *)
Lemma read_continuation : forall d c k ls r t,
  r_sect r = Some c -> r_opt r = Some k -> r_ind r = d -> r_tab r = put_opt c k (Some ls) t ->
  forall Ls, Forall (fun l => strip l = "" \/ is_comment (strip l) = true \/ (d <= indent l)%nat) Ls ->
  exists r', read_lines r (map (fun x => String tab (x ++ String nl "")) Ls) = Ok r' /\
    r_sect r' = Some c /\ r_opt r' = Some k /\ r_ind r' = d /\
    r_tab r' = put_opt c k (Some (ls ++ map strip (filter kept Ls))%list) t.
Proof.
  intros d c k ls r t H1 H2 H3 H4 Ls. revert ls r H1 H2 H3 H4.
  induction Ls as [|l Ls IH]; intros ls r H1 H2 H3 H4 HL.
  - exists r. cbn. rewrite app_nil_r. auto.
  - inversion HL as [|? ? Hl HL']; subst. cbn [map read_lines].
    assert (S1 : strip (String tab (l ++ String nl "")) = strip l).
    { change (String tab (l ++ String nl "")) with ((String tab "") ++ (l ++ String nl "")).
      rewrite strip_skip_ws by reflexivity. apply strip_nl. }
    assert (CV : cur_value r = Some (c, k, Some ls)).
    { unfold cur_value. rewrite H1, H2, H4. unfold put_opt. rewrite section_put, get_put_same. reflexivity. }
    unfold read_line at 1. rewrite S1, CV.
    destruct (is_comment (strip l)) eqn:C.
    + cbn [bind filter]. unfold kept at 1. rewrite C. cbn [negb]. now apply IH.
    + assert (K : kept l = true) by (unfold kept; now rewrite C). cbn [filter]. rewrite K. cbn [map].
      assert (STEP : exists r', (if (strip l =? "")%string
         then Ok (Reader (put_opt c k (Some (ls ++ [""])%list) (r_tab r)) (r_sect r) (r_opt r) (r_ind r))
         else if (r_ind r <? indent (String tab (l ++ String nl "")))%nat
              then Ok (Reader (put_opt c k (Some (ls ++ [strip l])%list) (r_tab r)) (r_sect r) (r_opt r) (r_ind r))
              else new_item r (indent (String tab (l ++ String nl ""))) (strip l)) = Ok r' /\
         r_sect r' = Some c /\ r_opt r' = Some k /\ r_ind r' = r_ind r /\
         r_tab r' = put_opt c k (Some (ls ++ [strip l])%list) t).
      { destruct (strip l =? "")%string eqn:E.
        - apply String.eqb_eq in E. eexists. split; [reflexivity|]. cbn [r_sect r_opt r_ind r_tab].
          rewrite H4, put_opt_twice, E. auto.
        - apply String.eqb_neq in E. destruct Hl as [Hl|[Hl|Hl]]; [contradiction|congruence|].
          assert (L : lstrip l <> "") by (intros X; apply E; now apply strip_blank).
          change (String tab (l ++ String nl "")) with ((String tab l) ++ String nl "").
          rewrite indent_app by exact L. change (indent (String tab l)) with (S (indent l)).
          replace (r_ind r <? S (indent l))%nat with true by (symmetry; apply Nat.ltb_lt; lia).
          eexists. split; [reflexivity|]. cbn [r_sect r_opt r_ind r_tab]. rewrite H4, put_opt_twice. auto. }
      destruct STEP as (r' & E & A1 & A2 & A3 & A4). rewrite E. cbn [bind].
      destruct (IH (ls ++ [strip l])%list r' A1 A2 A3 A4 HL') as (r'' & B1 & B2 & B3 & B4 & B5).
      exists r''. rewrite <- app_assoc in B5. cbn [app] in B5. auto.
Qed.

(** One written entry *)
Lemma reads_entry : forall d c acc J e r, entry_ok d e -> reads d c (put c acc J) r ->
  (forall k v, In (k, v) (rereads e) -> get k acc = None) ->
  exists r', read_lines r (entry_lines e) = Ok r' /\ reads d c (put c (acc ++ rereads e)%list J) r'.
Proof.
  intros d c acc J [k v] r (Hnl & Hok) Hr Hf.
  destruct Hok as [(-> & Hk)|(Hs & Hc & Hi & Hl & He & Hd & Hv)].
  - cbn [entry_lines snd fst read_lines]. unfold rereads. cbn [fst snd].
    destruct Hk as [Hk|Hk].
    + rewrite Hk. cbn [orb]. rewrite app_nil_r.
      destruct (reads_comment d c _ r (k ++ String nl "") ltac:(now rewrite strip_nl) Hr) as (r' & A & B).
      exists r'. rewrite A. cbn [bind]. auto.
    + rewrite Hk. cbn [is_comment orb String.eqb]. rewrite app_nil_r.
      destruct (reads_blank d c _ r (k ++ String nl "") ltac:(now rewrite strip_nl) Hr) as (r' & A & B).
      exists r'. rewrite A. cbn [bind]. auto.
  - assert (Hre : rereads (k, v) = [(strip k, option_map reread v)]).
    { unfold rereads. cbn [fst snd]. rewrite Hc. apply String.eqb_neq in Hs. now rewrite Hs. }
    rewrite Hre in *.
    assert (Hfresh : get (strip k) (section c (r_tab r)) = None).
    { destruct Hr as (_ & Hj & _). specialize (Hf (strip k) _ (or_introl eq_refl)).
      rewrite <- (section_put c acc J), <- Hj, join_section, get_map in Hf. now apply option_map_none in Hf. }
    assert (Hfa : get (strip k) acc = None) by (apply (Hf _ _ (or_introl eq_refl))).
    assert (Lk : lstrip k <> "") by (intros E; apply Hs; now apply strip_blank).
    destruct v as [v|]; cbn [entry_lines snd fst read_lines option_map].
    + destruct Hv as [Hh Hdeep].
      destruct (option_line_not_comment k (first_line v) Hs Hc) as (O1 & O2 & O3).
      replace (k ++ " = " ++ first_line v ++ String nl "") with ((k ++ " = " ++ first_line v) ++ String nl "")
        by (rewrite !app_assoc_s; reflexivity).
      rewrite read_line_nl.
      2:{ rewrite lstrip_app by exact Lk. destruct (lstrip k); discriminate. }
      rewrite (reads_new d c (put c acc J)) by (try assumption; congruence).
      unfold new_item at 1. rewrite Hh. destruct Hr as (R1 & R2 & R3). rewrite R1.
      rewrite parse_written by assumption.
      replace (strip k =? "")%string with false by (symmetry; now apply String.eqb_neq).
      rewrite Hfresh. cbn [bind option_map].
      set (r1 := Reader _ _ _ _).
      destruct (read_continuation d c (strip k) [strip (first_line v)] r1 (r_tab r)
                  eq_refl eq_refl eq_refl eq_refl (tl (split_on nl v)) Hdeep) as (r' & A & B1 & B2 & B3 & B4).
      exists r'. rewrite A. split; [reflexivity|]. split; [exact B1|]. split; [|right; exact B3].
      rewrite B4, join_put_opt, R2, put_opt_put, (put_fresh (strip k) _ acc Hfa). cbn [option_map].
      replace (join_value ([strip (first_line v)] ++ map strip (filter kept (tl (split_on nl v))))%list)
        with (reread v); [reflexivity|].
      unfold reread, first_line. destruct (split_on nl v) as [|l ls] eqn:E; [now apply split_on_nonempty in E|].
      reflexivity.
    + rewrite read_line_nl by exact Lk.
      rewrite (reads_new d c (put c acc J)) by assumption.
      unfold new_item. rewrite Hv. destruct Hr as (R1 & R2 & R3). rewrite R1.
      unfold parse_option. rewrite cut_delim_none by (apply strip_sub; assumption).
      replace (rstrip (strip k)) with (strip k) by (symmetry; apply rstrip_idem).
      rewrite Hl. replace (strip k =? "")%string with false by (symmetry; now apply String.eqb_neq).
      rewrite Hfresh. cbn [bind option_map].
      eexists. split; [reflexivity|]. split; [reflexivity|]. split; [|right; reflexivity].
      cbn [r_tab]. rewrite join_put_opt, R2, put_opt_put, (put_fresh (strip k) _ acc Hfa). reflexivity.
Qed.

(** All entries of a section *)
Lemma reads_entries : forall d c J es acc r, Forall (entry_ok d) es -> reads d c (put c acc J) r ->
  NoDup (map fst (acc ++ flat_map rereads es)%list) ->
  exists r', read_lines r (flat_map entry_lines es) = Ok r' /\
             reads d c (put c (acc ++ flat_map rereads es)%list J) r'.
Proof.
  intros d c J es. induction es as [|e es IH]; intros acc r He Hr Hn.
  - cbn [flat_map read_lines]. rewrite app_nil_r. exists r. auto.
  - inversion He as [|? ? H1 H2]; subst. cbn [flat_map] in *. rewrite app_assoc in Hn.
    destruct (reads_entry d c acc J e r H1 Hr) as (r1 & A & B).
    { intros k v Hin. apply get_none. intros Hin'. rewrite map_app, map_app in Hn.
      apply NoDup_app_inv in Hn. destruct Hn as (Hn & _). apply NoDup_app_inv in Hn. destruct Hn as (_ & _ & Hn).
      apply (Hn k Hin'). apply in_map_iff. now exists (k, v). }
    destruct (IH (acc ++ rereads e)%list r1 H2 B Hn) as (r2 & C & D).
    exists r2. rewrite read_lines_app, A. cbn [bind]. rewrite C. split; [reflexivity|].
    rewrite <- app_assoc in D. exact D.
Qed.

(** A section name that survives writing and reading. *)
Definition name_ok (n : string) : Prop :=
  n <> "" /\ has_char nl n = false.

Lemma upto_last_app : forall c n, upto_last c (n ++ String c "") = Some n.
Proof.
  intros c n. induction n as [|a n IH]; cbn [append upto_last].
  - now rewrite Ascii.eqb_refl.
  - now rewrite IH.
Qed.

Lemma header_line : forall n, name_ok n -> header (strip ("[" ++ n ++ "]")) = Some n /\
  is_comment (strip ("[" ++ n ++ "]")) = false /\ strip ("[" ++ n ++ "]") <> "".
Proof.
  intros n [H _]. replace (strip ("[" ++ n ++ "]")) with ("[" ++ n ++ "]").
  - cbn [append header is_comment]. change (Ascii.eqb "[" "[") with true. cbn iota.
    rewrite upto_last_app. destruct n; [congruence|]. repeat split. discriminate.
  - unfold strip. cbn [append lstrip]. change (is_ws "["%char) with false. cbn iota.
    rewrite rstrip_cons. change (is_ws "["%char) with false.
    change (n ++ "]") with (n ++ String "]"%char ""). rewrite rstrip_visible by reflexivity.
    destruct (n ++ String "]"%char (rstrip "") =? "")%string eqn:E; [|reflexivity].
    apply String.eqb_eq in E. destruct n; discriminate.
Qed.

Definition section_lines (s : string * sect string) : list string :=
  ("[" ++ fst s ++ "]" ++ String nl "") :: (flat_map entry_lines (snd s) ++ [String nl ""])%list.

Definition file_lines (t : ini string) : list string :=
  flat_map (fun s => if skipped s then [] else section_lines s) t.

Lemma writelines_flat : forall {A} (f : A -> list string) l,
  writelines (flat_map f l) = String.concat "" (map (fun a => writelines (f a)) l).
Proof.
  intros A f l. induction l as [|a l IH]; [reflexivity|].
  cbn [flat_map map]. rewrite writelines_app, IH, concat_cons. reflexivity.
Qed.

Lemma section_text : forall s, write_section s = writelines (section_lines s).
Proof.
  intros [n es]. unfold write_section, section_lines. cbn [fst snd].
  unfold writelines at 1. rewrite concat_cons. fold (writelines (flat_map entry_lines es ++ [String nl ""])%list).
  rewrite writelines_app, writelines_flat.
  replace (map (fun a => writelines (entry_lines a)) es) with (map write_option es).
  - rewrite !app_assoc_s. cbn [append]. rewrite ?app_assoc_s. cbn [append]. reflexivity.
  - apply map_ext. intros e. apply entry_text.
Qed.

Lemma skipped_spec : forall s, skipped s = true -> s = ("DEFAULT", []).
Proof.
  intros [n [|e es]] H; unfold skipped in H; cbn [fst snd] in H; [|discriminate].
  apply String.eqb_eq in H. now subst.
Qed.

Lemma write_text : forall t, write t = writelines (file_lines t).
Proof.
  intros t. unfold write, file_lines. rewrite writelines_flat. f_equal. apply map_ext. intros s.
  destruct (skipped s); [reflexivity|]. apply section_text.
Qed.

Lemma is_line_app : forall b, has_char nl b = false -> is_line (b ++ String nl "").
Proof. intros b H. now exists b. Qed.

Lemma first_line_nl : forall v, has_char nl (first_line v) = false.
Proof.
  intros v. unfold first_line. pose proof (split_on_lines v) as H.
  destruct (split_on nl v); [reflexivity|]. now inversion H.
Qed.

Lemma entry_is_lines : forall d e, entry_ok d e -> Forall is_line (entry_lines e).
Proof.
  intros d [k v] (H & _). unfold entry_lines. cbn [fst snd]. destruct v as [v|].
  - constructor.
    + replace (k ++ " = " ++ first_line v ++ String nl "") with ((k ++ " = " ++ first_line v) ++ String nl "")
        by (rewrite !app_assoc_s; reflexivity).
      apply is_line_app. rewrite !has_char_app, H, first_line_nl. reflexivity.
    + pose proof (split_on_lines v) as F. apply Forall_map. destruct (split_on nl v) as [|l ls]; [constructor|].
      inversion F as [|? ? _ F']; subst. cbn [tl]. eapply Forall_impl; [|exact F']. intros x Hx.
      change (String tab (x ++ String nl "")) with (String tab x ++ String nl ""). apply is_line_app.
      cbn [has_char]. now rewrite Hx.
  - constructor; [|constructor]. now apply is_line_app.
Qed.

Lemma file_is_lines : forall d t, Forall (fun s => name_ok (fst s) /\ Forall (entry_ok d) (snd s)) t ->
  Forall is_line (file_lines t).
Proof.
  intros d t H. unfold file_lines. apply Forall_flat_map. eapply Forall_impl; [|exact H].
  intros [n es] [[_ Hn] He]. cbn [fst snd] in *. destruct (skipped (n, es)); [constructor|].
  unfold section_lines. cbn [fst snd]. constructor.
  - replace ("[" ++ n ++ "]" ++ String nl "") with (("[" ++ n ++ "]") ++ String nl "")
      by (rewrite !app_assoc_s; reflexivity).
    apply is_line_app. rewrite !has_char_app, Hn. reflexivity.
  - apply Forall_app. split.
    + apply Forall_flat_map. eapply Forall_impl; [|exact He]. intros e. apply entry_is_lines.
    + constructor; [|constructor]. now exists "".
Qed.

(** What a written parser is read as. *)
Definition reread_ini (t : ini string) : ini string := map (fun s => (fst s, flat_map rereads (snd s))) t.

(** The reader between two sections. *)
Definition between (J : ini string) (r : reader) : Prop :=
  join_values (r_tab r) = J /\ (r_opt r = None \/ exists d, r_ind r = d).

Lemma read_header : forall n r, name_ok n ->
  read_line r ("[" ++ n ++ "]" ++ String nl "") = new_item r 0 ("[" ++ n ++ "]").
Proof.
  intros n r Hn. destruct (header_line n Hn) as (H1 & H2 & H3).
  assert (S1 : strip ("[" ++ n ++ "]") = "[" ++ n ++ "]").
  { unfold strip. cbn [append lstrip]. change (is_ws "["%char) with false. cbn iota.
    rewrite rstrip_cons. change (is_ws "["%char) with false.
    change (n ++ "]") with (n ++ String "]"%char ""). rewrite rstrip_visible by reflexivity.
    destruct (n ++ String "]"%char (rstrip "") =? "")%string eqn:E; [|reflexivity].
    apply String.eqb_eq in E. destruct n; discriminate. }
  replace ("[" ++ n ++ "]" ++ String nl "") with (("[" ++ n ++ "]") ++ String nl "")
    by (rewrite !app_assoc_s; reflexivity).
  rewrite read_line_nl by discriminate.
  unfold read_line. rewrite H2. apply String.eqb_neq in H3. rewrite H3, S1.
  change (indent ("[" ++ n ++ "]")) with 0%nat.
  destruct (cur_value r) as [[[c k] v]|]; [|reflexivity].
  destruct (r_ind r <? 0)%nat eqn:E; [apply Nat.ltb_lt in E; lia|reflexivity].
Qed.

Lemma read_section : forall d n es J r, name_ok n -> Forall (entry_ok d) es ->
  join_values (r_tab r) = J ->
  (if (n =? "DEFAULT")%string then get n J = Some [] else get n J = None) ->
  NoDup (map fst (flat_map rereads es)) ->
  exists r', read_lines r (section_lines (n, es)) = Ok r' /\
             join_values (r_tab r') = put n (flat_map rereads es) J.
Proof.
  intros d n es J r Hn He HJ Hg Hd. unfold section_lines. cbn [fst snd read_lines].
  rewrite read_header by exact Hn.
  destruct (header_line n Hn) as (H1 & _).
  assert (S1 : strip ("[" ++ n ++ "]") = "[" ++ n ++ "]").
  { unfold strip. cbn [append lstrip]. change (is_ws "["%char) with false. cbn iota.
    rewrite rstrip_cons. change (is_ws "["%char) with false.
    change (n ++ "]") with (n ++ String "]"%char ""). rewrite rstrip_visible by reflexivity.
    destruct (n ++ String "]"%char (rstrip "") =? "")%string eqn:E; [|reflexivity].
    apply String.eqb_eq in E. destruct n; discriminate. }
  rewrite S1 in H1. unfold new_item. rewrite H1.
  assert (STEP : exists r1, (if (n =? "DEFAULT")%string then Ok (Reader (r_tab r) (Some n) None 0)
     else match get n (r_tab r) with Some _ => Err ConfigParserError
          | None => Ok (Reader (put n [] (r_tab r)) (Some n) None 0) end) = Ok r1 /\
     reads d n (put n [] J) r1).
  { destruct (n =? "DEFAULT")%string eqn:E.
    - eexists. split; [reflexivity|]. split; [reflexivity|]. split; [|now left].
      cbn [r_tab]. rewrite put_same by exact Hg. exact HJ.
    - assert (G : get n (r_tab r) = None).
      { rewrite <- HJ in Hg. unfold join_values in Hg.
        rewrite (get_map (fun s => map (fun e => (fst e, option_map join_value (snd e))) s)) in Hg.
        now apply option_map_none in Hg. }
      rewrite G. eexists. split; [reflexivity|]. split; [reflexivity|]. split; [|now left].
      cbn [r_tab]. rewrite join_put, HJ. reflexivity. }
  destruct STEP as (r1 & E1 & R1). rewrite E1. cbn [bind].
  destruct (reads_entries d n J es [] r1 He R1 Hd) as (r2 & E2 & R2).
  rewrite read_lines_app, E2. cbn [bind read_lines].
  destruct (reads_blank d n _ r2 (String nl "") eq_refl R2) as (r3 & E3 & R3).
  rewrite E3. cbn [bind]. exists r3. split; [reflexivity|]. destruct R3 as (_ & R3 & _). exact R3.
Qed.

Lemma read_sections : forall d t J r, Forall (fun s => name_ok (fst s) /\ Forall (entry_ok d) (snd s)) t ->
  Forall (fun s => NoDup (map fst (flat_map rereads (snd s)))) t ->
  Forall (fun s => fst s <> "DEFAULT") t -> NoDup (map fst J ++ map fst t)%list ->
  join_values (r_tab r) = J ->
  exists r', read_lines r (file_lines t) = Ok r' /\ join_values (r_tab r') = (J ++ reread_ini t)%list.
Proof.
  intros d t. induction t as [|[n es] t IH]; intros J r H1 H2 H3 H4 HJ.
  - exists r. cbn. rewrite app_nil_r. auto.
  - inversion H1 as [|? ? [Hn He] H1']; subst. inversion H2 as [|? ? Hd H2']; subst.
    inversion H3 as [|? ? Hdef H3']; subst. cbn [fst snd] in *.
    assert (Sk : skipped (n, es) = false).
    { destruct (skipped (n, es)) eqn:E; [|reflexivity]. apply skipped_spec in E. congruence. }
    unfold file_lines. cbn [flat_map]. rewrite Sk. fold (file_lines t).
    assert (G : get n (join_values (r_tab r)) = None).
    { apply get_none. intros Hin. apply NoDup_app_inv in H4. destruct H4 as (_ & _ & H4).
      apply (H4 n Hin). now left. }
    destruct (read_section d n es _ r Hn He eq_refl) as (r1 & E1 & R1).
    { apply String.eqb_neq in Hdef. now rewrite Hdef. }
    { exact Hd. }
    rewrite read_lines_app, E1. cbn [bind].
    rewrite put_fresh in R1 by exact G.
    assert (N : NoDup (map fst (join_values (r_tab r) ++ [(n, flat_map rereads es)])%list ++ map fst t)%list)
      by (rewrite map_app; cbn [map fst]; rewrite <- app_assoc; exact H4).
    destruct (IH _ r1 H1' H2' H3' N R1) as (r2 & E2 & R2).
    exists r2. split; [exact E2|]. rewrite R2, <- app_assoc. reflexivity.
Qed.

(** What is written can be read, and this is what is read. *)
Theorem load_write : forall d t0 t,
  Forall (fun s => name_ok (fst s) /\ Forall (entry_ok d) (snd s)) (("DEFAULT", t0) :: t) ->
  Forall (fun s => NoDup (map fst (flat_map rereads (snd s)))) (("DEFAULT", t0) :: t) ->
  NoDup (map fst (("DEFAULT", t0) :: t)) ->
  has_char cr (write (("DEFAULT", t0) :: t)) = false ->
  load (write (("DEFAULT", t0) :: t)) = Ok (reread_ini (("DEFAULT", t0) :: t)).
Proof.
  intros d t0 t H1 H2 H3 H4. unfold load. rewrite univ_nl_id by exact H4. rewrite write_text.
  rewrite readlines_writelines by (apply (file_is_lines d); exact H1).
  inversion H1 as [|? ? [Hn He] H1']; subst. inversion H2 as [|? ? Hd H2']; subst. cbn [fst snd] in *.
  inversion H3 as [|? ? Hx H3']; subst.
  assert (HF : Forall (fun s : string * sect string => fst s <> "DEFAULT") t).
  { apply Forall_forall. intros s Hs E. apply Hx. rewrite <- E. now apply in_map. }
  assert (STEP : exists r1, read_lines new_reader (if skipped ("DEFAULT", t0) then [] else section_lines ("DEFAULT", t0)) = Ok r1 /\
     join_values (r_tab r1) = [("DEFAULT", flat_map rereads t0)]).
  { destruct t0 as [|e t0].
    - exists new_reader. split; reflexivity.
    - change (skipped ("DEFAULT", e :: t0)) with false. cbn iota.
      destruct (read_section d "DEFAULT" (e :: t0) [("DEFAULT", [])] new_reader Hn He eq_refl eq_refl Hd) as (r1 & E & R).
      exists r1. split; [exact E|]. rewrite R. reflexivity. }
  destruct STEP as (r1 & E1 & R1).
  destruct (read_sections d t [("DEFAULT", flat_map rereads t0)] r1 H1' H2' HF H3 R1) as (r2 & E2 & R2).
  unfold file_lines in *. cbn [flat_map]. rewrite read_lines_app, E1. cbn [bind]. rewrite E2. cbn [bind].
  rewrite R2. reflexivity.
Qed.
