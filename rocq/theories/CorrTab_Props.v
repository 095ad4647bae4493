(** C103: colour correction when the tables of the channels differ. *)
From Coq Require Import ZArith QArith Lia Bool List.
From Verif Require Import Base Step2_Model Table_Proofs Correction_Model CorrTab_Model.
Import ListNotations.
Local Open Scope Z_scope.

(** ** Specification *)

(** The rows of a table. *)
Definition keys (t : ctable) : list rkey := map fst (ct_rows t).

(** Channels 0, 1, ..., n-1, each with a table without two rows of the same index, and a
    matrix of n rows and columns. *)
Definition in_order (tabs : list (Z * ctable)) (inv : list (list Q)) : Prop :=
  tabs <> [] /\
  map fst tabs = zrange 0 (Z.of_nat (List.length tabs)) /\ List.length inv = List.length tabs /\
  Forall (fun i => List.length i = List.length tabs) inv /\ Forall (fun t => NoDup (keys (snd t))) tabs.

(** The table has every row which any of the tables has. *)
Definition complete (tabs : list (Z * ctable)) (t : ctable) : Prop :=
  forall t' k, In t' tabs -> In k (keys (snd t')) -> In k (keys t).

(** The value of a row in a table. *)
Definition has_value (t : ctable) (k : rkey) (v : Q) : Prop := In (k, v) (ct_rows t).

(** ** Lemmas *)

Lemma rkey_eqb_eq : forall a b, rkey_eqb a b = true <-> a = b.
Proof.
  intros [a1 a2] [b1 b2]. unfold rkey_eqb. cbn [fst snd]. rewrite andb_true_iff, !Z.eqb_eq. split; [intros [-> ->]; reflexivity|intros E; injection E; auto].
Qed.

Lemma value_at_in : forall l k v, NoDup (map fst l) -> In (k, v) l -> value_at k l = Some v.
Proof.
  induction l as [|[k' v'] l IH]; intros k v Nd Hin; [destruct Hin|]. cbn [map fst] in Nd. inversion Nd; subst. cbn [value_at].
  destruct Hin as [E|Hin].
  - injection E as -> ->. rewrite (proj2 (rkey_eqb_eq k k) eq_refl). reflexivity.
  - destruct (rkey_eqb k k') eqn:E; [|apply IH; assumption]. apply rkey_eqb_eq in E. subst k'. exfalso. apply H1. apply (in_map fst) in Hin. exact Hin.
Qed.

Lemma value_at_none : forall l k, value_at k l = None <-> ~ In k (map fst l).
Proof.
  induction l as [|[k' v'] l IH]; intros k; cbn [value_at map fst In]; [tauto|].
  destruct (rkey_eqb k k') eqn:E.
  - apply rkey_eqb_eq in E. subst. split; [discriminate|tauto].
  - rewrite IH. split; [|tauto]. intros N [C|C]; [|tauto]. subst. rewrite (proj2 (rkey_eqb_eq k k) eq_refl) in E. discriminate.
Qed.

Lemma mem_in : forall k a, existsb (rkey_eqb k) a = true <-> In k a.
Proof.
  intros k a. rewrite existsb_exists. split; [intros (x & H & E); apply rkey_eqb_eq in E; congruence|].
  intros H. exists k. split; [exact H|apply rkey_eqb_eq; reflexivity].
Qed.

Lemma union_in : forall a b k, In k (union_index a b) <-> In k a \/ In k b.
Proof.
  intros a b k. unfold union_index. rewrite in_app_iff, filter_In, negb_true_iff. destruct (existsb (rkey_eqb k) a) eqn:E.
  - apply mem_in in E. tauto.
  - assert (~ In k a) by (intros C; apply mem_in in C; congruence). tauto.
Qed.

Lemma union_nodup : forall a b, NoDup a -> NoDup b -> NoDup (union_index a b).
Proof.
  intros a b Ha Hb. apply NoDup_app_intro; [exact Ha|apply NoDup_filter, Hb|].
  intros k H1 H2. apply filter_In in H2. destruct H2 as [_ H2]. apply negb_true_iff in H2. apply mem_in in H1. congruence.
Qed.

Lemma fold_union_in : forall l a k, In k (fold_left union_index l a) <-> In k a \/ exists b, In b l /\ In k b.
Proof.
  induction l as [|b l IH]; intros a k; cbn [fold_left In].
  - split; [tauto|intros [H|(b & [] & _)]; exact H].
  - rewrite IH, union_in. split.
    + intros [[H|H]|(c & H1 & H2)]; [tauto|right; eauto|right; eauto].
    + intros [H|(c & [->|H1] & H2)]; [tauto|tauto|right; eauto].
Qed.

Lemma fold_union_nodup : forall l a, NoDup a -> Forall (@NoDup _) l -> NoDup (fold_left union_index l a).
Proof.
  induction l as [|b l IH]; intros a Ha Hl; cbn [fold_left]; [exact Ha|]. inversion Hl; subst. apply IH; [apply union_nodup; assumption|assumption].
Qed.

Lemma common_in : forall tabs k, In k (common_index tabs) <-> exists t, In t tabs /\ In k (keys t).
Proof.
  intros [|t tabs] k; unfold common_index; cbn [map]; [split; [intros []|intros (t & [] & _)]|].
  rewrite fold_union_in. fold (keys t). split.
  - intros [H|(b & H1 & H2)]; [exists t; split; [left; reflexivity|exact H]|]. apply in_map_iff in H1. destruct H1 as (t' & <- & H1).
    exists t'. split; [right; exact H1|exact H2].
  - intros (t' & [->|H1] & H2); [left; exact H2|]. right. exists (keys t'). split; [apply (in_map keys), H1|exact H2].
Qed.

Lemma common_nodup : forall tabs, Forall (fun t => NoDup (keys t)) tabs -> NoDup (common_index tabs).
Proof.
  intros [|t tabs] H; unfold common_index; cbn [map]; [constructor|]. inversion H; subst. apply fold_union_nodup; [assumption|].
  apply Forall_forall. intros b Hb. apply in_map_iff in Hb. destruct Hb as (t' & <- & Hb). rewrite Forall_forall in H3. apply H3, Hb.
Qed.

(** The common index is that of a table exactly in length if the table is complete. *)
Lemma complete_length : forall tabs ch t, Forall (fun t => NoDup (keys (snd t))) tabs -> In (ch, t) tabs ->
  List.length (common_index (map snd tabs)) = List.length (ct_rows t) <-> complete tabs t.
Proof.
  intros tabs ch t Nd Hin.
  assert (N1 : NoDup (common_index (map snd tabs))).
  { apply common_nodup, Forall_forall. intros t' H. apply in_map_iff in H. destruct H as ([c' t0] & <- & H). rewrite Forall_forall in Nd. exact (Nd _ H). }
  assert (N2 : NoDup (keys t)) by (rewrite Forall_forall in Nd; exact (Nd _ Hin)).
  assert (I : incl (keys t) (common_index (map snd tabs))).
  { intros k Hk. apply common_in. exists t. split; [apply (in_map snd) in Hin; exact Hin|exact Hk]. }
  rewrite <- (map_length fst (ct_rows t)). fold (keys t). split.
  - intros E [c' t'] k H1 H2. apply (NoDup_length_incl N2 (l' := common_index (map snd tabs))); [lia|exact I|].
    apply common_in. exists t'. split; [apply (in_map snd) in H1; exact H1|exact H2].
  - intros C. apply Nat.le_antisymm; apply NoDup_incl_length; try assumption.
    intros k Hk. apply common_in in Hk. destruct Hk as (t' & H1 & H2). apply in_map_iff in H1. destruct H1 as ([c' t0] & <- & H1). exact (C _ _ H1 H2).
Qed.

(** The corrected rows. *)
Definition fixed_row (cast : option Q -> Z) (inv : list (list Q)) (row : list (option Q)) : list Z :=
  map (fun i => cast (match full_row row with Some v => Some (dot i v) | None => None end)) inv.

Lemma corrected_ok : forall cast inv tabs k, Forall (fun i => List.length i = List.length tabs) inv ->
  corrected_row cast inv (aligned_row tabs k) = Ok (fixed_row cast inv (aligned_row tabs k)).
Proof.
  intros cast inv tabs k H. unfold corrected_row, fixed_row. apply mapM_map_ok. intros i Hi. rewrite Forall_forall in H.
  unfold aligned_row at 1. rewrite map_length, (H i Hi), Nat.eqb_refl. reflexivity.
Qed.

Lemma column_ok : forall (cc : list (list Z)) n ch, Forall (fun r => List.length r = n) cc -> 0 <= ch < Z.of_nat n ->
  mapM (fun row => np_index row ch) cc = Ok (map (fun r => nth (Z.to_nat ch) r 0) cc).
Proof.
  intros cc n ch H Hc. apply mapM_map_ok. intros r Hr. rewrite Forall_forall in H. pose proof (H r Hr) as L. unfold np_index.
  replace (ch <? 0) with false by (symmetry; apply Z.ltb_ge; lia). replace (ch <? 0) with false by (symmetry; apply Z.ltb_ge; lia).
  replace (Z.of_nat (List.length r) <=? ch) with false by (symmetry; apply Z.leb_gt; lia). cbn [orb].
  rewrite (nth_error_nth' r 0) by lia. reflexivity.
Qed.

(** What is written to a table and when the writing goes on. *)
Definition column (cast : option Q -> Z) (inv : list (list Q)) (tabs : list (Z * ctable)) (e : Z * ctable) : Z * list (rkey * Z) :=
  (fst e, combine (keys (snd e)) (map (fun k => nth (Z.to_nat (fst e)) (fixed_row cast inv (aligned_row (map snd tabs) k)) 0) (common_index (map snd tabs)))).

(** A table that can be written: complete and of the new layout. *)
Definition writable (tabs : list (Z * ctable)) (e : Z * ctable) : Prop := complete tabs (snd e) /\ ct_old (snd e) = false.

Lemma write_done : forall cast inv tabs, in_order tabs inv ->
  let cc := map (fun k => fixed_row cast inv (aligned_row (map snd tabs) k)) (common_index (map snd tabs)) in
  forall done rest, incl (done ++ rest) tabs -> Forall (writable tabs) done ->
  write_columns cc (done ++ rest) = (map (column cast inv tabs) done ++ fst (write_columns cc rest), snd (write_columns cc rest)).
Proof.
  intros cast inv tabs (_ & Hch & Hl & Hi & Hn) cc done rest. induction done as [|[ch t] done IH]; intros Hincl Hd.
  - cbn [app map]. apply surjective_pairing.
  - inversion Hd as [|? ? (Hc & Ho) Hd']; subst. cbn [snd] in Hc, Ho. cbn [app write_columns].
    assert (Hin : In (ch, t) tabs) by (apply Hincl; left; reflexivity).
    assert (Hb : 0 <= ch < Z.of_nat (List.length tabs)) by (apply in_zrange; rewrite <- Hch; apply (in_map fst) in Hin; exact Hin).
    rewrite (column_ok cc (List.length tabs)); [|apply Forall_forall; intros r Hr; unfold cc in Hr; apply in_map_iff in Hr; destruct Hr as (k & <- & _); unfold fixed_row; rewrite map_length; exact Hl|exact Hb].
    rewrite Ho, map_length. unfold cc at 1. rewrite map_length, (proj2 (complete_length tabs ch t Hn Hin) Hc), Nat.eqb_refl.
    rewrite IH; [|intros e He; apply Hincl; right; exact He|exact Hd'].
    cbn [map app column fst snd]. unfold cc at 1. rewrite map_map. reflexivity.
Qed.

Lemma correct_start : forall cast inv tabs, in_order tabs inv ->
  correct_tables cast (Some inv) tabs =
  write_columns (map (fun k => fixed_row cast inv (aligned_row (map snd tabs) k)) (common_index (map snd tabs))) tabs.
Proof.
  intros cast inv tabs (H0 & _ & Hl & Hi & _). unfold correct_tables. destruct tabs as [|e l] eqn:E; [congruence|]. rewrite <- E in *.
  rewrite (mapM_map_ok _ _ _ (fun k => fixed_row cast inv (aligned_row (map snd tabs) k))); [reflexivity|].
  intros k _. apply corrected_ok. rewrite map_length. exact Hi.
Qed.

(** ** Theorems *)

(** It ends at the first table which cannot be written; all tables before are written. *)
Theorem C103_ends_at_the_first_table_with_missing_rows : forall cast inv tabs done e rest, in_order tabs inv ->
  tabs = done ++ e :: rest -> Forall (fun e => complete tabs (snd e) /\ ct_old (snd e) = false) done ->
  ~ (complete tabs (snd e) /\ ct_old (snd e) = false) ->
  exists ws, correct_tables cast (Some inv) tabs = (ws, Err (if ct_old (snd e) then KeyError else ValueError)) /\
    map fst ws = map fst done.
Proof.
  intros cast inv tabs done e rest Ho E Hd He. rewrite (correct_start _ _ _ Ho).
  pose proof (write_done cast inv tabs Ho done (e :: rest)) as W. cbv zeta in W.
  match goal with |- exists ws, write_columns ?cc tabs = _ /\ _ => replace (write_columns cc tabs) with (write_columns cc (done ++ e :: rest)) by (rewrite <- E; reflexivity) end.
  rewrite W; [|rewrite <- E; intros x X; exact X|exact Hd]. clear W.
  destruct Ho as (_ & Hch & Hl & Hi & Hn). destruct e as [ch t]. cbn [snd] in *.
  assert (Hin : In (ch, t) tabs) by (rewrite E; apply in_or_app; right; left; reflexivity).
  assert (Hb : 0 <= ch < Z.of_nat (List.length tabs)) by (apply in_zrange; rewrite <- Hch; apply (in_map fst) in Hin; exact Hin).
  cbn [write_columns].
  rewrite (column_ok _ (List.length tabs)); [|apply Forall_forall; intros r Hr; apply in_map_iff in Hr; destruct Hr as (k & <- & _); unfold fixed_row; rewrite map_length; exact Hl|exact Hb].
  exists (map (column cast inv tabs) done). split.
  - destruct (ct_old t) eqn:Eo; [cbn [fst snd]; rewrite app_nil_r; reflexivity|].
    rewrite !map_length. destruct (Nat.eqb_spec (List.length (common_index (map snd tabs))) (List.length (ct_rows t))) as [L|L].
    + exfalso. apply He. split; [|reflexivity]. apply (complete_length tabs ch t Hn Hin), L.
    + cbn [fst snd]. rewrite app_nil_r. reflexivity.
  - rewrite map_map. apply map_ext. reflexivity.
Qed.
Print Assumptions C103_ends_at_the_first_table_with_missing_rows.

(** It completes exactly if the matrix has an inverse, all tables have the same rows and
    none is of the old layout; without an inverse nothing is written. *)
Theorem C103_completes_iff : forall cast inverse tabs, (forall inv, inverse = Some inv -> in_order tabs inv) ->
  (snd (correct_tables cast inverse tabs) = Ok tt <->
   inverse <> None /\ Forall (fun e => ct_old (snd e) = false /\ forall e' k, In e' tabs -> In k (keys (snd e')) -> In k (keys (snd e))) tabs) /\
  (inverse = None -> fst (correct_tables cast inverse tabs) = []).
Proof.
  intros cast [inv|] tabs Ho'; [|split; [split; [discriminate|intros [C _]; contradiction]|reflexivity]].
  pose proof (Ho' inv eq_refl) as Ho. split; [|discriminate]. split.
  - intros H. split; [discriminate|]. apply Forall_forall. intros e He.
    assert (D : forall a b : list (Z * ctable), tabs = a ++ b -> Forall (writable tabs) a -> Forall (writable tabs) tabs).
    { intros a b. revert a. induction b as [|x b IH]; intros a E Ha; [rewrite app_nil_r in E; subst; exact Ha|].
      assert (W : writable tabs x \/ ~ writable tabs x).
      { destruct x as [ch t]. destruct (ct_old t) eqn:Eo; [right; intros [_ C]; cbn [snd] in C; congruence|].
        destruct Ho as (_ & _ & _ & _ & Hn). assert (Hin : In (ch, t) tabs) by (rewrite E; apply in_or_app; right; left; reflexivity).
        destruct (Nat.eq_dec (List.length (common_index (map snd tabs))) (List.length (ct_rows t))) as [L|L].
        - left. split; [apply (complete_length tabs ch t Hn Hin), L|exact Eo].
        - right. intros [C _]. apply L, (complete_length tabs ch t Hn Hin), C. }
      destruct W as [W|W].
      - apply (IH (a ++ [x])); [rewrite <- app_assoc; exact E|]. apply Forall_app. split; [exact Ha|]. constructor; [exact W|constructor].
      - destruct (C103_ends_at_the_first_table_with_missing_rows cast inv tabs a x b Ho E Ha W) as (ws & X & _). rewrite X in H. cbn [snd] in H. discriminate. }
    specialize (D [] tabs eq_refl (Forall_nil _)). rewrite Forall_forall in D. destruct (D e He) as [D1 D2]. split; [exact D2|exact D1].
  - intros [_ H]. rewrite (correct_start _ _ _ Ho). pose proof (write_done cast inv tabs Ho tabs []) as W. cbv zeta in W. rewrite app_nil_r in W.
    rewrite W; [reflexivity|intros x X; exact X|]. apply Forall_forall. intros e He. rewrite Forall_forall in H. destruct (H e He) as [H1 H2]. split; [exact H2|exact H1].
Qed.
Print Assumptions C103_completes_iff.

Lemma union_sub : forall a b, incl b a -> union_index a b = a.
Proof.
  intros a b H. unfold union_index. replace (filter (fun k => negb (existsb (rkey_eqb k) a)) b) with (@nil rkey); [apply app_nil_r|].
  induction b as [|k b IH]; [reflexivity|]. cbn [filter]. rewrite (proj2 (mem_in k a)) by (apply H; left; reflexivity). cbn [negb].
  apply IH. intros x X. apply H. right. exact X.
Qed.

Lemma common_first : forall e tabs, complete (e :: tabs) (snd e) -> common_index (map snd (e :: tabs)) = keys (snd e).
Proof.
  intros e tabs H. unfold common_index. cbn [map]. fold (keys (snd e)).
  assert (G : forall l, (forall b, In b l -> incl b (keys (snd e))) -> fold_left union_index l (keys (snd e)) = keys (snd e)).
  { induction l as [|b l IH]; intros Hl; [reflexivity|]. cbn [fold_left]. rewrite (union_sub _ b) by (apply Hl; left; reflexivity). apply IH. intros c Hc. apply Hl. right. exact Hc. }
  apply G. intros b Hb k Hk. rewrite map_map in Hb. apply in_map_iff in Hb. destruct Hb as (e' & <- & Hb). apply (H e' k); [right; exact Hb|exact Hk].
Qed.

Lemma full_values : forall k (tabs : list (Z * ctable)) vs, Forall (fun e => NoDup (keys (snd e))) tabs ->
  Forall2 (fun e v => has_value (snd e) k v) tabs vs -> full_row (aligned_row (map snd tabs) k) = Some vs.
Proof.
  intros k tabs vs Hn F. induction F as [|e v tabs vs H F IH]; [reflexivity|]. inversion Hn; subst.
  cbn [map aligned_row full_row]. rewrite (value_at_in _ _ v); [|assumption|exact H]. fold (aligned_row (map snd tabs) k). rewrite IH by assumption. reflexivity.
Qed.

Lemma missing_value : forall k (tabs : list (Z * ctable)) e, In e tabs -> ~ In k (keys (snd e)) -> full_row (aligned_row (map snd tabs) k) = None.
Proof.
  intros k tabs e. induction tabs as [|e' tabs IH]; intros Hin Hk; [destruct Hin|]. cbn [map aligned_row full_row].
  fold (aligned_row (map snd tabs) k). destruct Hin as [->|Hin].
  - rewrite (proj2 (value_at_none _ _) Hk). reflexivity.
  - rewrite (IH Hin Hk). destruct (value_at k (ct_rows (snd e'))); reflexivity.
Qed.

Lemma in_combine_map : forall A B (f : A -> B) l a b, In (a, b) (combine l (map f l)) -> b = f a /\ In a l.
Proof.
  intros A B f l a b. induction l as [|x l IH]; intros H; [destruct H|]. cbn [map combine] in H. destruct H as [E|H]; [injection E as <- <-; split; [reflexivity|left; reflexivity]|].
  destruct (IH H). split; [assumption|right; assumption].
Qed.

Lemma fixed_nth : forall cast inv row ch, (ch < List.length inv)%nat ->
  nth ch (fixed_row cast inv row) 0 = cast (match full_row row with Some v => Some (dot (nth ch inv []) v) | None => None end).
Proof.
  intros cast inv row ch H. unfold fixed_row.
  set (f := fun i => cast (match full_row row with Some v => Some (dot i v) | None => None end)).
  rewrite (nth_indep _ 0 (f [])) by (rewrite map_length; exact H). apply (map_nth f).
Qed.

(** With the same rows in the same order every row of every table gets the corrected value
    of its own image and LED. *)
Theorem C103_same_rows_are_corrected : forall cast inv tabs K, in_order tabs inv ->
  Forall (fun e => keys (snd e) = K /\ ct_old (snd e) = false) tabs ->
  exists ws, correct_tables cast (Some inv) tabs = (ws, Ok tt) /\ map fst ws = map fst tabs /\
    forall ch l, In (ch, l) ws -> map fst l = K /\
      forall k z vs, In (k, z) l -> Forall2 (fun e v => has_value (snd e) k v) tabs vs -> z = cast (Some (dot (nth (Z.to_nat ch) inv []) vs)).
Proof.
  intros cast inv tabs K Ho HK.
  assert (Hw : Forall (writable tabs) tabs).
  { apply Forall_forall. intros e He. rewrite Forall_forall in HK. destruct (HK e He) as [E1 E2]. split; [|exact E2].
    intros e' k H1 H2. rewrite E1. rewrite <- (proj1 (HK e' H1)). exact H2. }
  rewrite (correct_start _ _ _ Ho). pose proof (write_done cast inv tabs Ho tabs []) as W. cbv zeta in W. rewrite app_nil_r in W.
  rewrite W; [|intros x X; exact X|exact Hw]. clear W. cbn [write_columns fst snd]. rewrite app_nil_r.
  exists (map (column cast inv tabs) tabs). split; [reflexivity|]. split; [rewrite map_map; apply map_ext; reflexivity|].
  intros ch l Hin. apply in_map_iff in Hin. destruct Hin as ([ch' t] & E & Hin). unfold column in E. cbn [fst snd] in E. injection E as -> <-.
  destruct Ho as (H0 & Hch & Hl & Hi & Hn). rewrite Forall_forall in HK. pose proof (proj1 (HK _ Hin)) as Kt. cbn [snd] in Kt.
  assert (Ek : common_index (map snd tabs) = K).
  { destruct tabs as [|e0 tabs]; [congruence|]. rewrite common_first; [apply (HK e0); left; reflexivity|].
    rewrite Forall_forall in Hw. apply (Hw e0). left. reflexivity. }
  rewrite Ek, Kt. split.
  - clear. induction K as [|k K IH]; [reflexivity|]. cbn [map combine fst]. f_equal. 
    assert (G : forall (f : rkey -> Z), map fst (combine K (map f K)) = K); [|apply G]. clear. intros f. induction K as [|k K IH]; [reflexivity|]. cbn. f_equal. exact IH.
  - intros k z vs Hz Hvs. apply in_combine_map in Hz. destruct Hz as [-> _].
    assert (Hb : 0 <= ch < Z.of_nat (List.length tabs)) by (apply in_zrange; rewrite <- Hch; apply (in_map fst) in Hin; exact Hin).
    rewrite fixed_nth by lia. rewrite (full_values k tabs vs Hn Hvs). reflexivity.
Qed.
Print Assumptions C103_same_rows_are_corrected.

(** Rows which another table lacks: the first table, if it has all rows, is written with
    converted nan there, before the other table stops the run. *)
Theorem C103_missing_rows_become_nan : forall cast inv t0 tabs e k, in_order ((0, t0) :: tabs) inv ->
  complete ((0, t0) :: tabs) t0 -> ct_old t0 = false -> In e tabs -> In k (keys t0) -> ~ In k (keys (snd e)) ->
  exists ws x l, correct_tables cast (Some inv) ((0, t0) :: tabs) = ((0, l) :: ws, Err x) /\ In (k, cast None) l.
Proof.
  intros cast inv t0 tabs e k Ho Hc Hold He Hk Hn.
  set (T := (0, t0) :: tabs) in *.
  assert (F : snd (correct_tables cast (Some inv) T) <> Ok tt).
  { intros C. apply (C103_completes_iff cast (Some inv) T) in C; [|intros i E; apply Some_inj in E; subst i; exact Ho]. destruct C as [_ C]. rewrite Forall_forall in C. destruct (C e (or_intror He)) as [_ C2].
    apply Hn, (C2 (0, t0) k); [left; reflexivity|exact Hk]. }
  rewrite (correct_start _ _ _ Ho) in F |- *. pose proof (write_done cast inv T Ho [(0, t0)] tabs) as W. cbv zeta in W.
  change ([(0, t0)] ++ tabs) with T in W. rewrite W in F |- *; [|intros x X; exact X|constructor; [split; assumption|constructor]|intros x X; exact X|constructor; [split; assumption|constructor]].
  clear W. cbn [map app] in *. set (w := write_columns _ tabs) in *. cbn [snd] in F.
  destruct (snd w) as [[]|x] eqn:Ew; [congruence|]. exists (fst w), x. eexists. split; [unfold column; cbn [fst snd]; reflexivity|].
  assert (Ec : common_index (map snd T) = keys t0) by (apply (common_first (0, t0) tabs Hc)). rewrite Ec.
  assert (G : forall (f : rkey -> Z) l, In k l -> In (k, f k) (combine l (map f l))).
  { clear. intros f l. induction l as [|x l IH]; intros H; [destruct H|]. cbn. destruct H as [->|H]; [left; reflexivity|right; apply IH, H]. }
  match goal with |- In _ (combine _ (map ?f _)) => replace (cast None) with (f k); [exact (G f _ Hk)|] end.
  destruct Ho as (_ & _ & Hl & _). cbn beta. change (Z.to_nat 0) with 0%nat. rewrite fixed_nth by (rewrite Hl; unfold T; cbn; lia).
  rewrite (missing_value k T e); [reflexivity|right; exact He|exact Hn].
Qed.
Print Assumptions C103_missing_rows_become_nan.

(** Tables with the same rows in another order are mixed up. *)
Theorem C103_row_order_refuted : exists cast inv tabs l k v,
  in_order tabs inv /\ Forall (writable tabs) tabs /\ inv = [[1; 0]; [0; 1]]%Q /\
  (forall z, cast (Some (inject_Z z)) = z) /\
  snd (correct_tables cast (Some inv) tabs) = Ok tt /\ nth_error (fst (correct_tables cast (Some inv) tabs)) 1 = Some (1, l) /\
  (exists t, nth_error tabs 1 = Some (1, t) /\ has_value t k (inject_Z v)) /\ ~ In (k, v) l.
Proof.
  set (cast := fun q : option Q => match q with Some q => Qnum (Qred q) | None => 0 end).
  set (T := [(0, CTable false [((1, 0), 10%Q); ((1, 1), 11%Q)]); (1, CTable false [((1, 1), 21%Q); ((1, 0), 20%Q)])]).
  exists cast, [[1; 0]; [0; 1]]%Q, T, [((1, 1), 20); ((1, 0), 21)], (1, 1), 21.
  split; [split; [discriminate|]; split; [reflexivity|]; split; [reflexivity|]|].
  { split; [repeat constructor|]. apply Forall_cons; [|apply Forall_cons; [|apply Forall_nil]]; cbn;
    (apply NoDup_cons; [cbn; intuition congruence|]); (apply NoDup_cons; [cbn; intuition congruence|]); apply NoDup_nil. }
  split.
  { apply Forall_cons; [|apply Forall_cons; [|apply Forall_nil]]; (split; [|reflexivity]); intros e k [<-|[<-|[]]] Hk; cbn in Hk |- *; tauto. }
  split; [reflexivity|]. split.
  { intros z. unfold cast. assert (E : Qred (inject_Z z) = inject_Z z).
    { unfold inject_Z, Qred. pose proof (Z.ggcd_gcd z 1) as G. pose proof (Z.ggcd_correct_divisors z 1) as D. destruct (Z.ggcd z 1) as [g [a b]]. cbn [fst] in G.
      rewrite Z.gcd_1_r in G. subst g. destruct D as [D1 D2]. rewrite Z.mul_1_l in D1, D2. subst. reflexivity. }
    rewrite E. reflexivity. }
  split; [reflexivity|]. split; [vm_compute; reflexivity|]. split.
  - eexists. split; [reflexivity|]. left. reflexivity.
  - intros [E|[E|[]]]; discriminate E.
Qed.
Print Assumptions C103_row_order_refuted.

(** The second channel lacks an image: the first one is written (0 for nan), the second
    one stops the run and the third one is not reached. *)
Example C103_example :
  let cast := fun q : option Q => match q with Some q => Qnum (Qred q) | None => 0 end in
  let one := [[1; 0; 0]; [0; 1; 0]; [0; 0; 1]]%Q in
  let t l := CTable false l in
  let full := [((1, 0), 10%Q); ((2, 0), 11%Q)] in
  correct_tables cast (Some one) [(0, t full); (1, t [((1, 0), 20%Q)]); (2, t full)] = ([(0, [((1, 0), 10); ((2, 0), 0)])], Err ValueError) /\
  correct_tables cast (Some one) [(0, t full); (1, CTable true full); (2, t full)] = ([(0, [((1, 0), 10); ((2, 0), 11)])], Err KeyError) /\
  snd (correct_tables cast (Some one) [(0, t full); (1, t full); (2, t full)]) = Ok tt /\
  in_order [(0, t full); (1, t [((1, 0), 20%Q)]); (2, t full)] one.
Proof.
  cbv zeta. split; [vm_compute; reflexivity|]. split; [vm_compute; reflexivity|]. split; [vm_compute; reflexivity|].
  split; [discriminate|]. split; [reflexivity|]. split; [reflexivity|]. split; [repeat constructor|].
  apply Forall_cons; [|apply Forall_cons; [|apply Forall_cons; [|apply Forall_nil]]]; cbn;
    repeat (apply NoDup_cons; [cbn; intuition congruence|]); apply NoDup_nil.
Qed.
