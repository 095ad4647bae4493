(** Properties C82 - C85: reading the results of an analysis. *)
From Coq Require Import ZArith QArith Qround Lqa Lia Bool Ascii String List Sorted Permutation.
From Verif Require Import Base Str Substr Cli_Model Sim_Model Read_Model.
Import ListNotations.
Local Open Scope Z_scope.

(** ** Specification *)

(** The first row of a result file with this time. *)
Definition saved (f : rfile) (t : Q) : option (list Q) :=
  option_map snd (find (fun r => Qeq_bool t (fst r)) (f_rows f)).

(** The number a file holds for a layer at a time. *)
Definition saved_value (f : rfile) (j : nat) (t : Q) : option Q :=
  match saved f t with Some v => nth_error v j | None => None end.

(** The files of one solver. *)
Definition files_of (solver : string) (dir : results) : list rfile :=
  map snd (filter (fun p => (fst p =? solver)%string) dir).

(** One file per channel and LED array. *)
Definition one_file_each (fs : list rfile) : Prop :=
  NoDup (map (fun f => (f_channel f, f_array f)) fs).

(** Either all files have the same times, or no file has a time twice. *)
Definition times_fit (fs : list rfile) : Prop :=
  (exists ts, Forall (fun f => map fst (f_rows f) = ts) fs) \/
  Forall (fun f => forall i k a b, (i < k)%nat ->
            nth_error (map fst (f_rows f)) i = Some a -> nth_error (map fst (f_rows f)) k = Some b ->
            ~ (a == b)%Q) fs.

(** ** Times *)

Lemma position_of_comp : forall ts t t', (t == t')%Q -> position_of t ts = position_of t' ts.
Proof.
  induction ts as [|x ts IH]; intros t t' E; cbn; [reflexivity|].
  rewrite (IH t t' E).
  destruct (Qeq_bool t x) eqn:A, (Qeq_bool t' x) eqn:B; try reflexivity.
  - apply Qeq_bool_neq in B. apply Qeq_bool_eq in A. exfalso. apply B. rewrite <- E. exact A.
  - apply Qeq_bool_neq in A. apply Qeq_bool_eq in B. exfalso. apply A. rewrite E. exact B.
Qed.

Lemma position_of_same : forall a b t, same_times a b = true -> position_of t a = position_of t b.
Proof.
  induction a as [|x a IH]; intros [|y b] t H; cbn in H; try discriminate; [reflexivity|].
  apply andb_true_iff in H. destruct H as [H1 H2]. apply Qeq_bool_eq in H1. cbn. rewrite (IH b t H2).
  destruct (Qeq_bool t x) eqn:A, (Qeq_bool t y) eqn:B; try reflexivity.
  - apply Qeq_bool_neq in B. apply Qeq_bool_eq in A. exfalso. apply B. rewrite A. exact H1.
  - apply Qeq_bool_neq in A. apply Qeq_bool_eq in B. exfalso. apply A. rewrite B. symmetry. exact H1.
Qed.

Lemma position_of_some : forall ts t i, position_of t ts = Some i ->
  exists x, nth_error ts i = Some x /\ (t == x)%Q /\ (i < length ts)%nat.
Proof.
  induction ts as [|x ts IH]; intros t i H; cbn in H; [discriminate|].
  destruct (Qeq_bool t x) eqn:E.
  - apply Some_inj in H. subst i. exists x. apply Qeq_bool_eq in E. cbn. repeat split; [assumption|lia].
  - destruct (position_of t ts) as [k|] eqn:P; [|discriminate]. cbn in H. apply Some_inj in H. subst i.
    destruct (IH t k P) as (y & A & B & C). exists y. cbn. repeat split; try assumption. lia.
Qed.

Lemma has_time_spec : forall t ts, has_time t ts = true <-> exists x, In x ts /\ (t == x)%Q.
Proof.
  intros t ts. unfold has_time. rewrite existsb_exists. split; intros (x & A & B); exists x; split; try assumption.
  - apply Qeq_bool_eq. exact B.
  - apply Qeq_eq_bool. exact B.
Qed.

Lemma position_of_none : forall ts t, position_of t ts = None <-> has_time t ts = false.
Proof.
  induction ts as [|x ts IH]; intros t; cbn; [tauto|].
  destruct (Qeq_bool t x); cbn; [split; discriminate|].
  rewrite <- (IH t). destruct (position_of t ts); cbn; split; congruence.
Qed.

Lemma has_time_comp : forall t t' ts, (t == t')%Q -> has_time t ts = has_time t' ts.
Proof.
  intros t t' ts E. pose proof (position_of_none ts t) as A. pose proof (position_of_none ts t') as B.
  rewrite (position_of_comp ts t t' E) in A.
  destruct (has_time t ts), (has_time t' ts); try reflexivity; exfalso.
  - destruct B as [_ B]. specialize (B eq_refl). apply A in B. discriminate.
  - destruct A as [_ A]. specialize (A eq_refl). apply B in A. discriminate.
Qed.

Lemma has_time_app : forall t a b, has_time t (a ++ b) = has_time t a || has_time t b.
Proof. intros. unfold has_time. apply existsb_app. Qed.

(** ** Values of a column at a time *)

Definition value (ts : list Q) (vals : list (option Q)) (t : Q) : option Q :=
  match position_of t ts with Some i => nth i vals None | None => None end.

Lemma value_file : forall rows j t,
  value (map fst rows) (layer_values rows j) t =
  match option_map snd (find (fun r => Qeq_bool t (fst r)) rows) with Some v => nth_error v j | None => None end.
Proof.
  intros rows j t. unfold value. induction rows as [|r rows IH]; cbn; [reflexivity|].
  destruct (Qeq_bool t (fst r)) eqn:E; [reflexivity|].
  rewrite <- IH. destruct (position_of t (map fst rows)); reflexivity.
Qed.

Lemma value_reindexed : forall new old vals t,
  (has_time t old = true -> has_time t new = true) ->
  value new (reindexed new old vals) t = value old vals t.
Proof.
  intros new old vals t H. unfold value at 1. destruct (position_of t new) as [i|] eqn:P.
  - destruct (position_of_some _ _ _ P) as (x & A & B & C).
    unfold reindexed.
    rewrite nth_indep with (d' := (fun t0 : Q => match position_of t0 old with Some i0 => nth i0 vals None | None => None end) 0%Q)
      by (rewrite map_length; exact C).
    rewrite (map_nth (fun t0 : Q => match position_of t0 old with Some i0 => nth i0 vals None | None => None end)).
    apply nth_error_nth with (d := 0%Q) in A. rewrite A.
    unfold value. rewrite (position_of_comp old t x B). reflexivity.
  - apply position_of_none in P. unfold value.
    destruct (position_of t old) as [k|] eqn:Q1; [|reflexivity].
    exfalso. assert (has_time t old = true).
    { destruct (has_time t old) eqn:Y; [reflexivity|]. apply position_of_none in Y. congruence. }
    apply H in H0. congruence.
Qed.

Lemma value_keep : forall ts vals seen t, length vals = length ts -> has_time t seen = false ->
  value (keep (first_times seen ts) ts) (keep (first_times seen ts) vals) t = value ts vals t.
Proof.
  unfold value.
  induction ts as [|x ts IH]; intros [|v vals] seen t L H; cbn in L; try discriminate; [reflexivity|].
  cbn [first_times keep position_of].
  destruct (Qeq_bool t x) eqn:E.
  - assert (Hx : has_time x seen = false).
    { rewrite <- H. apply has_time_comp. symmetry. apply Qeq_bool_eq. exact E. }
    rewrite Hx. cbn [negb]. cbn [position_of]. rewrite E. reflexivity.
  - assert (H' : has_time t (x :: seen) = false) by (cbn; rewrite E; exact H).
    injection L as L. specialize (IH vals (x :: seen) t L H').
    destruct (has_time x seen); cbn [negb].
    + rewrite IH. destruct (position_of t ts); reflexivity.
    + cbn [position_of]. rewrite E.
      destruct (position_of t (keep (first_times (x :: seen) ts) ts)), (position_of t ts); cbn; exact IH.
Qed.

Lemma has_time_keep : forall ts seen t, has_time t seen = false ->
  has_time t (keep (first_times seen ts) ts) = has_time t ts.
Proof.
  induction ts as [|x ts IH]; intros seen t H; [reflexivity|]. cbn [first_times keep].
  destruct (Qeq_bool t x) eqn:E.
  - assert (Hx : has_time x seen = false).
    { rewrite <- H. apply has_time_comp. symmetry. apply Qeq_bool_eq. exact E. }
    rewrite Hx. cbn. rewrite E. reflexivity.
  - assert (H' : has_time t (x :: seen) = false) by (cbn; rewrite E; exact H).
    destruct (has_time x seen); cbn [negb].
    + rewrite (IH (x :: seen) t H'). cbn. rewrite E. reflexivity.
    + cbn. rewrite E. cbn. apply (IH (x :: seen) t H').
Qed.

(** ** The frame of all files *)

Definition keys_of (f : rfile) : list (Z * Z * Z) :=
  map (fun j => (f_channel f, f_array f, Z.of_nat j)) (seq 0 (f_layers f)).

(** A column holds a layer of a file. *)
Definition holds (ts : list Q) (fs : list rfile) (c : column) : Prop :=
  exists f j, In f fs /\ (j < f_layers f)%nat /\ col_key c = (f_channel f, f_array f, Z.of_nat j) /\
              length (c_values c) = length ts /\
              forall t, value ts (c_values c) t = saved_value f j t.

Definition good (fs : list rfile) (fr : frame) : Prop :=
  Permutation (map col_key (fr_cols fr)) (flat_map keys_of fs) /\
  Forall (holds (fr_times fr) fs) (fr_cols fr) /\
  (forall t, has_time t (fr_times fr) = existsb (fun f => has_time t (map fst (f_rows f))) fs).

Lemma combine_seq_map : forall {A} (g : nat -> A) n s,
  combine (seq s n) (map g (seq s n)) = map (fun j => (j, g j)) (seq s n).
Proof. intros A g n. induction n; intros s; cbn; [reflexivity|]. rewrite IHn. reflexivity. Qed.

Lemma file_frame_cols : forall f, fr_cols (file_frame f) =
  map (fun j => Col (f_channel f) (f_array f) (Z.of_nat j) (layer_values (f_rows f) j)) (seq 0 (f_layers f)).
Proof.
  intros f. unfold file_frame, file_columns. cbn [fr_cols].
  rewrite map_length, seq_length, combine_seq_map, map_map. reflexivity.
Qed.

Lemma file_keys : forall f, map col_key (fr_cols (file_frame f)) = keys_of f.
Proof. intros f. rewrite file_frame_cols, map_map. reflexivity. Qed.

Lemma same_times_refl : forall a, same_times a a = true.
Proof. induction a; cbn; [reflexivity|]. rewrite IHa. rewrite Qeq_eq_bool; [reflexivity|reflexivity]. Qed.

Lemma same_times_length : forall a b, same_times a b = true -> length a = length b.
Proof.
  induction a; intros [|y b] H; cbn in *; try discriminate; [reflexivity|].
  apply andb_true_iff in H. destruct H. f_equal. auto.
Qed.

Lemma unique_times_spec : forall ts,
  (forall i k a b, (i < k)%nat -> nth_error ts i = Some a -> nth_error ts k = Some b -> ~ (a == b)%Q) ->
  unique_times ts = true.
Proof.
  induction ts as [|x ts IH]; intros H; [reflexivity|]. cbn. apply andb_true_iff. split.
  - destruct (has_time x ts) eqn:E; [|reflexivity]. exfalso.
    apply has_time_spec in E. destruct E as (y & A & B). apply In_nth_error in A. destruct A as [k A].
    apply (H 0%nat (S k) x y); [lia|reflexivity|exact A|exact B].
  - apply IH. intros i k a b L A B. apply (H (S i) (S k)); [lia|exact A|exact B].
Qed.

Lemma union_has : forall a b t, has_time t (union_times a b) = has_time t a || has_time t b.
Proof.
  intros a b t. unfold union_times. rewrite has_time_app.
  destruct (has_time t a) eqn:E; [reflexivity|]. cbn.
  destruct (has_time t b) eqn:F.
  - apply has_time_spec in F. destruct F as (x & A & B). apply has_time_spec. exists x. split; [|exact B].
    apply filter_In. split; [exact A|]. rewrite (has_time_comp x t a) by (symmetry; exact B). rewrite E. reflexivity.
  - destruct (has_time t (filter _ b)) eqn:G; [|reflexivity]. exfalso.
    apply has_time_spec in G. destruct G as (x & A & B). apply filter_In in A. destruct A as [A _].
    assert (has_time t b = true) by (apply has_time_spec; exists x; auto). congruence.
Qed.

Lemma unions_has : forall l a t,
  has_time t (fold_left union_times l a) = has_time t a || existsb (has_time t) l.
Proof.
  induction l as [|b l IH]; intros a t; cbn [fold_left existsb]; [rewrite orb_false_r; reflexivity|].
  rewrite IH, union_has, orb_assoc. reflexivity.
Qed.

Lemma flat_map_map' : forall {A B C} (g : A -> B) (h : B -> list C) l, flat_map h (map g l) = flat_map (fun a => h (g a)) l.
Proof. intros. induction l; cbn; [reflexivity|]. rewrite IHl. reflexivity. Qed.

Lemma map_flat_map : forall {A B C} (g : B -> C) (h : A -> list B) l, map g (flat_map h l) = flat_map (fun a => map g (h a)) l.
Proof. intros. induction l; cbn; [reflexivity|]. rewrite map_app, IHl. reflexivity. Qed.

Lemma flat_map_ext_in' : forall {A B} (g h : A -> list B) l, (forall a, In a l -> g a = h a) -> flat_map g l = flat_map h l.
Proof.
  intros A B g h l H. induction l as [|a l IH]; [reflexivity|]. cbn. rewrite (H a (or_introl eq_refl)), IH; [reflexivity|].
  intros x Hx. apply H. right. exact Hx.
Qed.

Lemma layer_values_length : forall rows j, length (layer_values rows j) = length (map fst rows).
Proof. intros. unfold layer_values. rewrite !map_length. reflexivity. Qed.

Lemma existsb_same : forall {A} (p q : A -> bool) l, (forall a, In a l -> p a = q a) -> existsb p l = existsb q l.
Proof.
  intros A p q l H. induction l as [|a l IH]; [reflexivity|]. cbn. rewrite (H a (or_introl eq_refl)), IH; [reflexivity|].
  intros x Hx. apply H. right. exact Hx.
Qed.

Lemma has_time_same : forall a b t, same_times a b = true -> has_time t a = has_time t b.
Proof.
  intros a b t H. pose proof (position_of_same a b t H) as E.
  pose proof (position_of_none a t) as A. pose proof (position_of_none b t) as B. rewrite E in A.
  destruct (has_time t a), (has_time t b); try reflexivity; exfalso.
  - destruct B as [_ B]. specialize (B eq_refl). apply A in B. discriminate.
  - destruct A as [_ A]. specialize (A eq_refl). apply B in A. discriminate.
Qed.

Lemma concat_good : forall fs, fs <> [] -> times_fit fs ->
  exists fr, concat_frames (map file_frame fs) = Ok fr /\ good fs fr.
Proof.
  intros fs Hne Hfit. destruct fs as [|f fs]; [congruence|]. clear Hne.
  cbn [map]. unfold concat_frames. fold (map file_frame fs).
  destruct (forallb (fun g => same_times (fr_times (file_frame f)) (fr_times g)) (map file_frame fs)) eqn:ES.
  - rewrite forallb_forall in ES.
    assert (ES' : forall g, In g (f :: fs) -> same_times (fr_times (file_frame f)) (fr_times (file_frame g)) = true).
    { intros g [<-|Hg]; [apply same_times_refl|]. apply ES. apply in_map. exact Hg. }
    eexists. split; [reflexivity|]. split; [|split].
    + cbn [fr_cols]. change (file_frame f :: map file_frame fs) with (map file_frame (f :: fs)).
      rewrite flat_map_map', map_flat_map.
      rewrite (flat_map_ext_in' _ keys_of); [apply Permutation_refl|]. intros g _. apply file_keys.
    + cbn [fr_cols fr_times]. change (file_frame f :: map file_frame fs) with (map file_frame (f :: fs)).
      rewrite flat_map_map'. apply Forall_forall. intros c Hc. apply in_flat_map in Hc. destruct Hc as (g & Hg & Hc).
      rewrite file_frame_cols in Hc. apply in_map_iff in Hc. destruct Hc as (j & <- & Hj). apply in_seq in Hj.
      pose proof (ES' g Hg) as S. exists g, j. repeat split; try assumption; try lia.
      * cbn [c_values]. rewrite layer_values_length. symmetry. apply same_times_length. exact S.
      * intros t. unfold value. rewrite (position_of_same _ _ t S).
        cbn [c_values file_frame fr_times]. exact (value_file (f_rows g) j t).
    + intros t. cbn [fr_times]. 
      assert (forall g, In g (f :: fs) -> has_time t (map fst (f_rows g)) = has_time t (fr_times (file_frame f))).
      { intros g Hg. symmetry. apply has_time_same. exact (ES' g Hg). }
      rewrite (existsb_same _ (fun _ => has_time t (fr_times (file_frame f))) (f :: fs) H).
      cbn [existsb]. clear. induction fs; cbn [existsb]; [rewrite orb_false_r; reflexivity|].
      rewrite orb_assoc, orb_diag. exact IHfs.
  - assert (U : forall g, In g (f :: fs) -> unique_times (fr_times (file_frame g)) = true).
    { destruct Hfit as [(ts & Hts)|Hu].
      - exfalso. rewrite Forall_forall in Hts.
        assert (forallb (fun g => same_times (fr_times (file_frame f)) (fr_times g)) (map file_frame fs) = true); [|congruence].
        apply forallb_forall. intros x Hx. apply in_map_iff in Hx. destruct Hx as (g & <- & Hg).
        cbn [file_frame fr_times]. rewrite (Hts f (or_introl eq_refl)), (Hts g (or_intror Hg)). apply same_times_refl.
      - intros g Hg. rewrite Forall_forall in Hu. apply unique_times_spec. exact (Hu g Hg). }
    replace (forallb (fun g => unique_times (fr_times g)) (file_frame f :: map file_frame fs)) with true.
    2:{ symmetry. apply forallb_forall. change (file_frame f :: map file_frame fs) with (map file_frame (f :: fs)).
        intros x Hx. apply in_map_iff in Hx. destruct Hx as (g & <- & Hg). apply U. exact Hg. }
    eexists. split; [reflexivity|].
    set (ts := fold_left union_times (map fr_times (map file_frame fs)) (fr_times (file_frame f))).
    assert (HT : forall t, has_time t ts = existsb (fun g => has_time t (map fst (f_rows g))) (f :: fs)).
    { intros t. unfold ts. rewrite unions_has. cbn [existsb]. f_equal. rewrite map_map. clear.
      induction fs; cbn [map existsb]; [reflexivity|]. rewrite IHfs. reflexivity. }
    split; [|split].
    + cbn [fr_cols]. change (file_frame f :: map file_frame fs) with (map file_frame (f :: fs)).
      rewrite flat_map_map', map_flat_map.
      rewrite (flat_map_ext_in' _ keys_of); [apply Permutation_refl|]. intros g _. rewrite map_map.
      rewrite <- file_keys. apply map_ext. reflexivity.
    + cbn [fr_cols fr_times]. change (file_frame f :: map file_frame fs) with (map file_frame (f :: fs)).
      rewrite flat_map_map'. apply Forall_forall. intros c Hc. apply in_flat_map in Hc. destruct Hc as (g & Hg & Hc).
      rewrite file_frame_cols, map_map in Hc. apply in_map_iff in Hc. destruct Hc as (j & <- & Hj). apply in_seq in Hj.
      exists g, j. repeat split; try assumption; try lia.
      * cbn [reindex_col c_values]. unfold reindexed. apply map_length.
      * intros t. cbn [reindex_col c_values fr_times file_frame]. rewrite value_reindexed.
        -- exact (value_file (f_rows g) j t).
        -- intros H. rewrite HT. apply existsb_exists. exists g. split; assumption.
    + exact HT.
Qed.

Lemma insert_col_perm : forall c l, Permutation (insert_col c l) (c :: l).
Proof.
  induction l as [|x l IH]; cbn [insert_col]; [apply Permutation_refl|].
  destruct (key_leb (col_key c) (col_key x)); [apply Permutation_refl|].
  apply Permutation_trans with (x :: c :: l); [constructor; exact IH|apply perm_swap].
Qed.

Lemma sort_cols_perm : forall l, Permutation (sort_cols l) l.
Proof.
  induction l as [|c l IH]; cbn; [constructor|].
  apply Permutation_trans with (c :: sort_cols l); [apply insert_col_perm|constructor; exact IH].
Qed.

Lemma keep_length : forall {A B} bs (l : list A) (m : list B), length l = length m ->
  length (keep bs l) = length (keep bs m).
Proof.
  induction bs as [|b bs IH]; intros [|x l] [|y m] H; cbn in *; try discriminate; try reflexivity.
  destruct b; cbn; rewrite (IH l m); congruence.
Qed.

Lemma read_extco_good : forall solver dir,
  files_of solver dir <> [] -> times_fit (files_of solver dir) ->
  exists fr, read_extco solver dir = Ok fr /\ good (files_of solver dir) fr.
Proof.
  intros solver dir Hne Hfit. destruct (concat_good _ Hne Hfit) as (fr & E & G1 & G2 & G3).
  unfold read_extco. unfold files_of in E. rewrite map_map in E. rewrite E. cbn [bind].
  eexists. split; [reflexivity|]. unfold drop_duplicate_times. cbn [fr_times fr_cols]. split; [|split].
  - cbn [fr_cols]. rewrite map_map.
    apply Permutation_trans with (map col_key (fr_cols fr)); [|exact G1].
    rewrite (map_ext _ col_key) by reflexivity.
    apply Permutation_map. apply sort_cols_perm.
  - cbn [fr_cols fr_times]. apply Forall_forall. intros c Hc. apply in_map_iff in Hc. destruct Hc as (c0 & <- & Hc).
    apply (Permutation_in _ (sort_cols_perm _)) in Hc. rewrite Forall_forall in G2.
    destruct (G2 c0 Hc) as (f & j & A & B & C & D & F). exists f, j. repeat split; try assumption.
    + cbn [c_values]. apply keep_length. exact D.
    + intros t. cbn [c_values]. rewrite value_keep; [apply F|exact D|reflexivity].
  - intros t. cbn [fr_times]. rewrite has_time_keep by reflexivity. apply G3.
Qed.

(** ** Pivot *)

Lemma zinsert_in : forall z l x, In x (zinsert z l) <-> x = z \/ In x l.
Proof.
  induction l as [|y l IH]; intros x; cbn; [intuition|].
  destruct (z <? y); [cbn; intuition|]. destruct (z =? y) eqn:E; [apply Z.eqb_eq in E; subst; cbn; intuition|].
  cbn. rewrite IH. intuition.
Qed.

Lemma zsort_in : forall l x, In x (zsort l) <-> In x l.
Proof. induction l as [|y l IH]; intros x; cbn; [tauto|]. rewrite zinsert_in, IH. intuition. Qed.

Lemma zinsert_sorted : forall z l, StronglySorted Z.lt l -> StronglySorted Z.lt (zinsert z l).
Proof.
  induction l as [|y l IH]; intros H; cbn; [repeat constructor|].
  apply StronglySorted_inv in H. destruct H as [H1 H2].
  destruct (z <? y) eqn:E1; [|destruct (z =? y) eqn:E2].
  - apply Z.ltb_lt in E1. constructor; [constructor; assumption|]. constructor; [exact E1|].
    rewrite Forall_forall in *. intros x Hx. specialize (H2 x Hx). lia.
  - constructor; assumption.
  - apply Z.ltb_ge in E1. apply Z.eqb_neq in E2. constructor; [apply IH; exact H1|].
    rewrite Forall_forall in *. intros x Hx. apply zinsert_in in Hx. destruct Hx as [->|Hx]; [lia|]. apply H2. exact Hx.
Qed.

Lemma zsort_sorted : forall l, StronglySorted Z.lt (zsort l).
Proof. induction l; cbn; [constructor|]. apply zinsert_sorted. exact IHl. Qed.

Lemma sorted_range : forall n l, StronglySorted Z.lt l -> (forall x, In x l <-> 0 <= x < Z.of_nat n) ->
  l = zrange 0 (Z.of_nat n).
Proof.
  assert (G : forall n s l, StronglySorted Z.lt l -> (forall x, In x l <-> s <= x < s + Z.of_nat n) ->
              l = map (fun k => s + Z.of_nat k) (seq 0 n)).
  { induction n as [|n IH]; intros s l Hs H.
    - destruct l as [|x l]; [reflexivity|]. exfalso. specialize (H x). destruct H as [H _]. specialize (H (or_introl eq_refl)). lia.
    - destruct l as [|x l].
      + exfalso. specialize (H s). destruct H as [_ H]. destruct H. lia.
      + apply StronglySorted_inv in Hs. destruct Hs as [Hs Hf]. rewrite Forall_forall in Hf.
        assert (x = s).
        { assert (In s (x :: l)) by (apply H; lia). destruct H0 as [->|Hin]; [reflexivity|]. specialize (Hf s Hin).
          assert (In x (x :: l)) by (left; reflexivity). apply H in H0. lia. }
        subst x. cbn [seq map]. f_equal; [lia|]. rewrite <- seq_shift, map_map.
        rewrite (IH (s + 1) l Hs).
        * apply map_ext. intros k. lia.
        * intros x. split; intros Hx.
          -- specialize (Hf x Hx). assert (In x (s :: l)) by (right; exact Hx). apply H in H0. lia.
          -- assert (In x (s :: l)) by (apply H; lia). destruct H0 as [E|E]; [lia|exact E]. }
  intros n l Hs H. unfold zrange. rewrite Z.sub_0_r, Nat2Z.id. apply G; [exact Hs|exact H].
Qed.

Lemma entry_at_spec : forall a l e, entry_at a l e = true <-> fst e = (a, l).
Proof.
  intros a l [[x y] v]. unfold entry_at. cbn. rewrite andb_true_iff, !Z.eqb_eq. split; [intros [-> ->]; reflexivity|].
  intros H. split; congruence.
Qed.

Lemma no_duplicate_entry : forall es, duplicate_entry es = false <-> NoDup (map fst es).
Proof.
  induction es as [|e es IH]; cbn [duplicate_entry map]; [split; [constructor|reflexivity]|].
  rewrite orb_false_iff, IH. split.
  - intros [A B]. constructor; [|exact B]. intros Hin. apply in_map_iff in Hin. destruct Hin as (x & E & Hx).
    assert (existsb (entry_at (fst (fst e)) (snd (fst e))) es = true); [|congruence].
    apply existsb_exists. exists x. split; [exact Hx|]. apply entry_at_spec. rewrite E. apply surjective_pairing.
  - intros H. inversion H as [|? ? A B]; subst. split; [|exact B].
    destruct (existsb (entry_at (fst (fst e)) (snd (fst e))) es) eqn:E; [|reflexivity]. exfalso. apply A.
    apply existsb_exists in E. destruct E as (x & Hx & E). apply entry_at_spec in E.
    apply in_map_iff. exists x. split; [|exact Hx]. rewrite E. symmetry. apply surjective_pairing.
Qed.

Lemma cell_of_in : forall es a l v, NoDup (map fst es) -> In (a, l, v) es -> cell_of es a l = v.
Proof.
  intros es a l v H Hin. unfold cell_of. destruct (find (entry_at a l) es) as [e|] eqn:E.
  - apply find_some in E. destruct E as [E1 E2]. apply entry_at_spec in E2.
    assert (e = (a, l, v)); [|subst; reflexivity].
    clear -H Hin E1 E2. induction es as [|x es IH]; [destruct Hin|]. cbn in H. inversion H as [|? ? A B]; subst.
    destruct Hin as [->|Hin], E1 as [->|E1]; try reflexivity.
    + exfalso. apply A. cbn. rewrite <- E2. apply in_map. exact E1.
    + exfalso. apply A. rewrite E2. change (a, l) with (fst (a, l, v)). apply in_map. exact Hin.
    + apply IH; assumption.
  - exfalso. apply (find_none _ _ E) in Hin. assert (entry_at a l (a, l, v) = true) by (apply entry_at_spec; reflexivity). congruence.
Qed.

Lemma cell_of_none : forall es a l, ~ In (a, l) (map fst es) -> cell_of es a l = None.
Proof.
  intros es a l H. unfold cell_of. destruct (find (entry_at a l) es) as [e|] eqn:E; [|reflexivity].
  exfalso. apply H. apply find_some in E. destruct E as [E1 E2]. apply entry_at_spec in E2. rewrite <- E2. apply in_map. exact E1.
Qed.

Lemma keys_NoDup : forall fs, one_file_each fs -> NoDup (flat_map keys_of fs).
Proof.
  unfold one_file_each. induction fs as [|f fs IH]; intros H; [constructor|]. cbn [flat_map map] in *.
  inversion H as [|? ? A B]; subst. apply NoDup_app_intro; [|apply IH; exact B|].
  - unfold keys_of. apply FinFun.Injective_map_NoDup; [|apply seq_NoDup].
    intros x y E. assert (Z.of_nat x = Z.of_nat y) by congruence. lia.
  - intros k Hk Hk'. apply A. unfold keys_of in Hk. apply in_map_iff in Hk. destruct Hk as (j & <- & _).
    apply in_flat_map in Hk'. destruct Hk' as (g & Hg & Hk'). unfold keys_of in Hk'. apply in_map_iff in Hk'.
    destruct Hk' as (j' & E & _). apply in_map_iff. exists g. split; [congruence|exact Hg].
Qed.

Lemma NoDup_map_filter : forall {A B} (g : A -> B) (p : A -> bool) l, NoDup (map g l) -> NoDup (map g (filter p l)).
Proof.
  induction l as [|a l IH]; intros H; [constructor|]. cbn in *. inversion H as [|? ? N M]; subst.
  destruct (p a); [|apply IH; exact M]. cbn. constructor; [|apply IH; exact M].
  intros Hin. apply N. apply in_map_iff in Hin. destruct Hin as (x & E & Hx). apply filter_In in Hx.
  apply in_map_iff. exists x. tauto.
Qed.

(** The entries of one channel at one time. *)
Definition entries (agg : list Q -> Q) (w i : nat) (cols : list column) : list entry :=
  map (fun c => (c_array c, c_layer c, nth i (moving_average agg w (c_values c)) None)) cols.

Definition of_channel (ch : Z) (cols : list column) : list column := filter (fun c => c_channel c =? ch) cols.

Lemma entries_NoDup : forall agg w i ch cols, NoDup (map col_key cols) ->
  NoDup (map fst (entries agg w i (of_channel ch cols))).
Proof.
  intros agg w i ch cols H. unfold entries, of_channel. rewrite map_map. cbn [fst].
  induction cols as [|c cols IH]; [constructor|]. cbn [map] in H. inversion H as [|? ? N M]; subst. cbn [filter].
  destruct (c_channel c =? ch) eqn:E; [|apply IH; exact M]. cbn [map]. constructor; [|apply IH; exact M].
  intros Hin. apply N. apply in_map_iff in Hin. destruct Hin as (x & Ex & Hx). apply filter_In in Hx. destruct Hx as [Hx Ec].
  apply Z.eqb_eq in E. apply Z.eqb_eq in Ec. apply in_map_iff. exists x. split; [|exact Hx]. unfold col_key. congruence.
Qed.

(** ** C82 *)

(** What the result of [get_extco_at_time] says about a LED array and a layer. *)
Definition shown (arrays : list Z) (rows : list (list (option Q))) (a : Z) (j : nat) : option (option Q) :=
  match nth_error rows j with
  | Some row => option_map snd (find (fun p => fst p =? a) (combine arrays row))
  | None => None
  end.

Lemma find_combine_map : forall (g : Z -> option Q) arrays a, In a arrays ->
  option_map snd (find (fun p => fst p =? a) (combine arrays (map g arrays))) = Some (g a).
Proof.
  induction arrays as [|x l IH]; intros a H; [destruct H|]. cbn.
  destruct (x =? a) eqn:E; [apply Z.eqb_eq in E; subst; reflexivity|].
  apply Z.eqb_neq in E. destruct H as [H|H]; [congruence|]. apply IH. exact H.
Qed.

Lemma same_file : forall fs f g, one_file_each fs -> In f fs -> In g fs ->
  f_channel f = f_channel g -> f_array f = f_array g -> f = g.
Proof.
  unfold one_file_each. induction fs as [|x l IH]; intros f g H Hf Hg Ec Ea; [destruct Hf|].
  cbn in H. inversion H as [|? ? A B]; subst.
  destruct Hf as [->|Hf], Hg as [->|Hg]; try reflexivity.
  - exfalso. apply A. apply in_map_iff. exists g. split; [congruence|exact Hg].
  - exfalso. apply A. apply in_map_iff. exists f. split; [congruence|exact Hf].
  - apply IH; assumption.
Qed.

Lemma good_column : forall fs fr f j, good fs fr -> In f fs -> (j < f_layers f)%nat ->
  exists c, In c (fr_cols fr) /\ col_key c = (f_channel f, f_array f, Z.of_nat j).
Proof.
  intros fs fr f j (G1 & _ & _) Hf Hj.
  assert (In (f_channel f, f_array f, Z.of_nat j) (map col_key (fr_cols fr))).
  { apply (Permutation_in _ (Permutation_sym G1)). apply in_flat_map. exists f. split; [exact Hf|].
    unfold keys_of. apply in_map_iff. exists j. split; [reflexivity|]. apply in_seq. lia. }
  apply in_map_iff in H. destruct H as (c & E & Hc). exists c. split; assumption.
Qed.

Lemma good_keys : forall fs fr, good fs fr -> one_file_each fs -> NoDup (map col_key (fr_cols fr)).
Proof.
  intros fs fr (G1 & _ & _) H. apply (Permutation_NoDup (Permutation_sym G1)). apply keys_NoDup. exact H.
Qed.

Lemma at_time_general :
  forall agg lower upper n w fs fr channel t i,
  one_file_each fs -> good fs fr ->
  (exists f, In f fs /\ f_channel f = channel /\ (0 < f_layers f)%nat) ->
  position_of t (fr_times fr) = Some i ->
  exists arrays rows,
    get_extco_at_time agg lower upper n fr channel t YLayer w =
      Ok (Numbers (zrange 0 (Z.of_nat (length rows))), arrays, rows) /\
    StronglySorted Z.lt arrays /\
    (forall a, In a arrays <-> exists f, In f fs /\ f_channel f = channel /\ f_array f = a /\ (0 < f_layers f)%nat) /\
    (forall j, (j < length rows)%nat <-> exists f, In f fs /\ f_channel f = channel /\ (j < f_layers f)%nat) /\
    (forall c j, In c (fr_cols fr) -> c_channel c = channel -> c_layer c = Z.of_nat j ->
       shown arrays rows (c_array c) j = Some (nth i (moving_average agg w (c_values c)) None)) /\
    (forall f j, In f fs -> f_channel f = channel -> (0 < f_layers f)%nat -> (f_layers f <= j < length rows)%nat ->
       shown arrays rows (f_array f) j = Some None).
Proof.
  intros agg lower upper n w fs fr channel t i Hone G (f0 & Hf0 & Hc0 & Hl0) EP.
  pose proof (good_keys _ _ G Hone) as Hkeys.
  pose proof (fun f j => good_column fs fr f j G) as Hcol.
  destruct G as (G1 & G2 & G3).
  set (cols := of_channel channel (fr_cols fr)).
  set (es := entries agg w i cols).
  assert (Hnd : NoDup (map fst es)) by (apply entries_NoDup; exact Hkeys).
  assert (Hes : forall a l, In (a, l) (map fst es) <->
            exists f j, In f fs /\ f_channel f = channel /\ f_array f = a /\ (j < f_layers f)%nat /\ l = Z.of_nat j).
  { intros a l. unfold es, entries, cols, of_channel. rewrite map_map. cbn [fst]. rewrite in_map_iff. split.
    - intros (c & E & Hc). apply filter_In in Hc. destruct Hc as [Hc Ec]. apply Z.eqb_eq in Ec.
      rewrite Forall_forall in G2. destruct (G2 c Hc) as (f & j & Hf & Hj & K & _ & _). unfold col_key in K.
      exists f, j. repeat split; try assumption; congruence.
    - intros (f & j & Hf & Ec & Ea & Hj & El). destruct (Hcol f j Hf Hj) as (c & Hc & K). exists c. unfold col_key in K.
      split; [congruence|]. apply filter_In. split; [exact Hc|]. apply Z.eqb_eq. congruence. }
  assert (Hval : forall c, In c (fr_cols fr) -> c_channel c = channel ->
            cell_of es (c_array c) (c_layer c) = nth i (moving_average agg w (c_values c)) None).
  { intros c Hc Ec. apply cell_of_in; [exact Hnd|]. unfold es, entries, cols. apply in_map_iff. exists c. split; [reflexivity|].
    apply filter_In. split; [exact Hc|]. apply Z.eqb_eq. exact Ec. }
  set (arrays := zsort (map (fun e : entry => fst (fst e)) es)).
  set (layers := zsort (map (fun e : entry => snd (fst e)) es)).
  set (rows := map (fun l => map (fun a => cell_of es a l) arrays) layers).
  assert (Har : forall a, In a arrays <-> exists f, In f fs /\ f_channel f = channel /\ f_array f = a /\ (0 < f_layers f)%nat).
  { intros a. unfold arrays. rewrite zsort_in. split.
    - intros H. apply in_map_iff in H. destruct H as (e & E & He).
      assert (In (a, snd (fst e)) (map fst es)) by (apply in_map_iff; exists e; split; [rewrite <- E; apply surjective_pairing|exact He]).
      apply Hes in H. destruct H as (f & j & A & B & C & D & _). exists f. repeat split; try assumption. lia.
    - intros (f & A & B & C & D).
      assert (In (a, 0) (map fst es)) by (apply Hes; exists f, 0%nat; repeat split; assumption).
      apply in_map_iff in H. destruct H as (e & E & He). apply in_map_iff. exists e. split; [rewrite E; reflexivity|exact He]. }
  set (m := fold_right Nat.max 0%nat (map f_layers (filter (fun f => f_channel f =? channel) fs))).
  assert (Hm : forall j, (j < m)%nat <-> exists f, In f fs /\ f_channel f = channel /\ (j < f_layers f)%nat).
  { intros j. unfold m. clear. induction fs as [|f l IH]; cbn [filter].
    - cbn. split; [lia|]. intros (f & [] & _).
    - destruct (f_channel f =? channel) eqn:E.
      + apply Z.eqb_eq in E. cbn [map fold_right]. split.
        * intros H. destruct (Nat.ltb_spec j (f_layers f)) as [L|L].
          -- exists f. repeat split; [left; reflexivity|assumption|assumption].
          -- assert (H' : (j < fold_right Nat.max 0 (map f_layers (filter (fun f => (f_channel f =? channel)%Z) l)))%nat) by lia.
             apply IH in H'. destruct H' as (g & A & B & C). exists g. repeat split; [right; assumption|assumption|assumption].
        * intros (g & [<-|A] & B & C); [lia|].
          assert (H' : (j < fold_right Nat.max 0 (map f_layers (filter (fun f => (f_channel f =? channel)%Z) l)))%nat)
            by (apply IH; exists g; auto). lia.
      + apply Z.eqb_neq in E. rewrite IH. split; intros (g & A & B & C); exists g.
        * repeat split; [right; assumption|assumption|assumption].
        * destruct A as [<-|A]; [congruence|]. auto. }
  assert (Hla : layers = zrange 0 (Z.of_nat m)).
  { apply sorted_range; [apply zsort_sorted|]. intros x. unfold layers. rewrite zsort_in. split.
    - intros H. apply in_map_iff in H. destruct H as (e & E & He).
      assert (In (fst (fst e), x) (map fst es)) by (apply in_map_iff; exists e; split; [rewrite <- E; apply surjective_pairing|exact He]).
      apply Hes in H. destruct H as (f & j & A & B & _ & D & ->).
      assert ((j < m)%nat) by (apply Hm; exists f; auto). lia.
    - intros Hx. assert (Hj : (Z.to_nat x < m)%nat) by lia. apply Hm in Hj. destruct Hj as (f & A & B & C).
      assert (In (f_array f, x) (map fst es)).
      { apply Hes. exists f, (Z.to_nat x). repeat split; try assumption. lia. }
      apply in_map_iff in H. destruct H as (e & E & He). apply in_map_iff. exists e. split; [rewrite E; reflexivity|exact He]. }
  assert (Hlen : length rows = m).
  { unfold rows. rewrite map_length, Hla. unfold zrange. rewrite map_length, seq_length. lia. }
  assert (Erow : forall j, (j < m)%nat -> nth_error rows j = Some (map (fun a => cell_of es a (Z.of_nat j)) arrays)).
  { intros j Hj. unfold rows. rewrite Hla. unfold zrange. rewrite map_map. rewrite Z.sub_0_r, Nat2Z.id.
    rewrite nth_error_map. rewrite (nth_error_nth' _ 0%nat) by (rewrite seq_length; exact Hj).
    rewrite seq_nth by exact Hj. cbn [option_map]. f_equal. }
  exists arrays, rows. split; [|split; [apply zsort_sorted|split; [exact Har|split; [|split]]]].
  - unfold get_extco_at_time. fold (of_channel channel (fr_cols fr)). fold cols.
    destruct cols as [|c0 cols0] eqn:Ecols.
    + exfalso. destruct (Hcol f0 0%nat Hf0 Hl0) as (c & Hc & K).
      assert (Hin : In c cols).
      { unfold cols, of_channel. apply filter_In. split; [exact Hc|]. apply Z.eqb_eq. unfold col_key in K. congruence. }
      rewrite Ecols in Hin. destruct Hin.
    + rewrite EP. fold (entries agg w i (c0 :: cols0)). unfold pivot.
      change (entries agg w i (c0 :: cols0)) with es.
      apply no_duplicate_entry in Hnd. rewrite Hnd. cbn [bind]. reflexivity.
  - intros j. rewrite Hlen. apply Hm.
  - intros c j Hc Ec El. rewrite Forall_forall in G2. destruct (G2 c Hc) as (f & k & Hf & Hk & K & _ & _).
    unfold col_key in K. assert (Ek : k = j) by (assert (Z.of_nat k = Z.of_nat j) by congruence; lia). subst k.
    assert (Ecf : f_channel f = channel) by congruence. assert (Eaf : f_array f = c_array c) by congruence.
    unfold shown. rewrite Erow by (apply Hm; exists f; auto). rewrite find_combine_map.
    + rewrite <- El. rewrite Hval by assumption. reflexivity.
    + apply Har. exists f. repeat split; try assumption. lia.
  - intros f j Hf Ec Hl [Hj1 Hj2]. rewrite Hlen in Hj2. unfold shown. rewrite Erow by exact Hj2. rewrite find_combine_map.
    + f_equal. apply cell_of_none. intros Hin. apply Hes in Hin. destruct Hin as (g & k & Hg & Eg & Ea & Hk & Ek).
      assert (k = j) by lia. subst k. assert (g = f); [|subst; lia].
      apply (same_file fs); try assumption; congruence.
    + apply Har. exists f. auto.
Qed.

(** With one result file per channel and array, and files that have either the
    same times or no time twice: for every channel with results and every time
    of the table the coefficients are shown by layer (0, 1, ...) and LED array
    (ascending), and each is the number the array's file holds for that layer in
    its first row with that time; it is missing if the file has no such row or
    no such layer. *)
Theorem C82_value_at_time :
  forall agg lower upper n solver dir channel t,
  let fs := files_of solver dir in
  one_file_each fs -> times_fit fs ->
  (exists f, In f fs /\ f_channel f = channel /\ (0 < f_layers f)%nat) ->
  (exists f r, In f fs /\ In r (f_rows f) /\ (fst r == t)%Q) ->
  exists fr arrays rows,
    read_extco solver dir = Ok fr /\
    get_extco_at_time agg lower upper n fr channel t YLayer 1 =
      Ok (Numbers (zrange 0 (Z.of_nat (length rows))), arrays, rows) /\
    StronglySorted Z.lt arrays /\
    (forall a, In a arrays <-> exists f, In f fs /\ f_channel f = channel /\ f_array f = a /\ (0 < f_layers f)%nat) /\
    (forall j, (j < length rows)%nat <-> exists f, In f fs /\ f_channel f = channel /\ (j < f_layers f)%nat) /\
    (forall f j, In f fs -> f_channel f = channel -> (0 < f_layers f)%nat -> (j < length rows)%nat ->
       shown arrays rows (f_array f) j =
       Some (if (j <? f_layers f)%nat then saved_value f j t else None)).
Proof.
  intros agg lower upper n solver dir channel t fs Hone Hfit Hch (f1 & r1 & Hf1 & Hr1 & Ht1).
  assert (Hne : fs <> []) by (intros E; rewrite E in Hf1; destruct Hf1).
  destruct (read_extco_good solver dir Hne Hfit) as (fr & ER & G). fold fs in G.
  assert (Htime : has_time t (fr_times fr) = true).
  { destruct G as (_ & _ & G3). rewrite G3. apply existsb_exists. exists f1. split; [exact Hf1|]. apply has_time_spec. exists (fst r1).
    split; [apply in_map; exact Hr1|symmetry; exact Ht1]. }
  destruct (position_of t (fr_times fr)) as [i|] eqn:EP.
  2:{ apply position_of_none in EP. congruence. }
  destruct (at_time_general agg lower upper n 1 fs fr channel t i Hone G Hch EP) as (arrays & rows & A & B & C & D & E & F).
  exists fr, arrays, rows. split; [exact ER|]. split; [exact A|]. split; [exact B|]. split; [exact C|]. split; [exact D|].
  intros f j Hf Ec Hl Hj. destruct (Nat.ltb_spec j (f_layers f)) as [L|L].
  - destruct (good_column fs fr f j G Hf L) as (c & Hc & K).
    pose proof (E c j Hc) as E'. unfold col_key in K.
    assert (E1 : c_channel c = channel) by congruence. assert (E2 : c_layer c = Z.of_nat j) by congruence.
    specialize (E' E1 E2). assert (E3 : c_array c = f_array f) by congruence. rewrite E3 in E'. rewrite E'. f_equal.
    change (nth i (c_values c) None = saved_value f j t).
    destruct G as (_ & G2 & _). rewrite Forall_forall in G2. destruct (G2 c Hc) as (g & k & Hg & Hk & K' & _ & V).
    unfold col_key in K'.
    assert (Ek : k = j) by (assert (Z.of_nat k = Z.of_nat j) by congruence; lia). subst k.
    assert (g = f) by (apply (same_file fs); try assumption; congruence). subst g.
    rewrite <- V. unfold value. rewrite EP. reflexivity.
  - apply F; try assumption. split; assumption.
Qed.
Print Assumptions C82_value_at_time.

(** Three files of the solver "linear": two arrays of channel 0 and one of channel
    1; array 7 was analysed for fewer layers.  Two images share the time 2. *)
Definition ex_dir : results :=
  [ ("linear"%string, RFile 0 7 1 [(0, [10#1]); (2, [11#1]); (2, [12#1])]);
    ("linear"%string, RFile 0 3 2 [(0, [20#1; 21#1]); (2, [22#1; 23#1]); (2, [24#1; 25#1])]);
    ("nonlinear"%string, RFile 0 3 2 [(0, [30#1; 31#1])]);
    ("linear"%string, RFile 1 3 2 [(0, [40#1; 41#1]); (2, [42#1; 43#1]); (2, [44#1; 45#1])]) ]%Q.

Example C82_example :
  one_file_each (files_of "linear" ex_dir) /\ times_fit (files_of "linear" ex_dir) /\
  exists fr, read_extco "linear" ex_dir = Ok fr /\
    get_extco_at_time mean 0 3 2 fr 0 2 YLayer 1 =
      Ok (Numbers [0; 1], [3; 7], [[Some (22#1)%Q; Some (11#1)%Q]; [Some (23#1)%Q; None]]).
Proof.
  split; [|split; [|eexists; split; reflexivity]].
  - unfold one_file_each. cbn. repeat constructor; cbn; intuition congruence.
  - left. exists [0; 2; 2]%Q. repeat constructor.
Qed.

(** Files with different times: array 3 has no image at time 4. *)
Example C82_example_different_times :
  let dir := [ ("linear"%string, RFile 0 3 1 [(0, [20#1]); (2, [22#1])]);
               ("linear"%string, RFile 0 7 1 [(2, [11#1]); (4, [12#1])]) ]%Q in
  one_file_each (files_of "linear" dir) /\ times_fit (files_of "linear" dir) /\
  exists fr, read_extco "linear" dir = Ok fr /\
    get_extco_at_time mean 0 3 2 fr 0 4 YLayer 1 = Ok (Numbers [0], [3; 7], [[None; Some (12#1)%Q]]).
Proof.
  split; [|split; [|eexists; split; reflexivity]].
  - unfold one_file_each. cbn. repeat constructor; cbn; intuition congruence.
  - right. repeat constructor; intros i k a b L; cbn;
    (destruct i as [|[|i]]; destruct k as [|[|k]]; cbn; intros A B; try discriminate; try lia;
     try (destruct k; discriminate); try (destruct i; discriminate);
     apply Some_inj in A; apply Some_inj in B; subst; intros C; discriminate).
Qed.

(** *** The order of the files *)

Definition key_lt (a b : column) : Prop := key_leb (col_key a) (col_key b) = true /\ col_key a <> col_key b.

Lemma key_leb_total : forall a b, key_leb a b = false -> key_leb b a = true.
Proof.
  intros [[a1 a2] a3] [[b1 b2] b3]. unfold key_leb.
  destruct (a1 <? b1) eqn:A, (b1 <? a1) eqn:A', (a1 =? b1) eqn:B, (b1 =? a1) eqn:B', (a2 <? b2) eqn:C,
    (b2 <? a2) eqn:C', (a2 =? b2) eqn:D, (b2 =? a2) eqn:D'; cbn; try congruence;
    rewrite ?Z.ltb_lt, ?Z.ltb_ge, ?Z.eqb_eq, ?Z.eqb_neq, ?Z.leb_le, ?Z.leb_gt in *; intros; lia.
Qed.

Lemma key_leb_trans : forall a b c, key_leb a b = true -> key_leb b c = true -> key_leb a c = true.
Proof.
  intros [[a1 a2] a3] [[b1 b2] b3] [[c1 c2] c3]. unfold key_leb.
  rewrite !orb_true_iff, !andb_true_iff, !orb_true_iff, !andb_true_iff, !Z.ltb_lt, !Z.eqb_eq, !Z.leb_le. lia.
Qed.

Lemma key_leb_antisym : forall a b, key_leb a b = true -> key_leb b a = true -> a = b.
Proof.
  intros [[a1 a2] a3] [[b1 b2] b3]. unfold key_leb.
  rewrite !orb_true_iff, !andb_true_iff, !orb_true_iff, !andb_true_iff, !Z.ltb_lt, !Z.eqb_eq, !Z.leb_le.
  intros A B. assert (a1 = b1 /\ a2 = b2 /\ a3 = b3) by lia. destruct H as (-> & -> & ->). reflexivity.
Qed.

Lemma sort_cols_sorted : forall l, NoDup (map col_key l) -> StronglySorted key_lt (sort_cols l).
Proof.
  induction l as [|c l IH]; intros H; [constructor|]. cbn [map] in H. inversion H as [|? ? N M]; subst.
  specialize (IH M). cbn [sort_cols fold_right]. fold (sort_cols l).
  assert (Hc : forall x, In x (sort_cols l) -> col_key c <> col_key x).
  { intros x Hx E. apply N. rewrite E. apply in_map. apply (Permutation_in _ (sort_cols_perm l)). exact Hx. }
  induction (sort_cols l) as [|x s IHs]; [repeat constructor|].
  cbn [insert_col]. apply StronglySorted_inv in IH. destruct IH as [S F].
  destruct (key_leb (col_key c) (col_key x)) eqn:E.
  - constructor; [constructor; assumption|]. constructor; [split; [exact E|apply Hc; left; reflexivity]|].
    rewrite Forall_forall in *. intros y Hy. specialize (F y Hy). destruct F as [F1 F2].
    split; [apply (key_leb_trans _ _ _ E F1)|apply Hc; right; exact Hy].
  - constructor.
    + apply IHs; [exact S|]. intros y Hy. apply Hc. right. exact Hy.
    + rewrite Forall_forall in *. intros y Hy. apply (Permutation_in _ (insert_col_perm c s)) in Hy.
      destruct Hy as [<-|Hy]; [|apply F; exact Hy].
      split; [apply key_leb_total; exact E|]. intros E'. apply (Hc x (or_introl eq_refl)). congruence.
Qed.

Lemma sorted_equal : forall a b, StronglySorted key_lt a -> StronglySorted key_lt b -> Permutation a b -> a = b.
Proof.
  induction a as [|x a IH]; intros b Ha Hb P.
  - apply Permutation_nil in P. congruence.
  - destruct b as [|y b]; [apply Permutation_sym, Permutation_nil in P; discriminate|].
    assert (x = y).
    { pose proof (Permutation_in x P (or_introl eq_refl)) as Hx.
      pose proof (Permutation_in y (Permutation_sym P) (or_introl eq_refl)) as Hy.
      destruct Hx as [->|Hx]; [reflexivity|]. destruct Hy as [->|Hy]; [reflexivity|].
      apply StronglySorted_inv in Ha. apply StronglySorted_inv in Hb. destruct Ha as [_ Ha], Hb as [_ Hb].
      rewrite Forall_forall in Ha, Hb. destruct (Ha y Hy) as [A1 A2]. destruct (Hb x Hx) as [B1 B2].
      exfalso. apply A2. apply key_leb_antisym; assumption. }
    subst y. f_equal. apply IH; [apply StronglySorted_inv in Ha; tauto|apply StronglySorted_inv in Hb; tauto|].
    apply Permutation_cons_inv in P. exact P.
Qed.

Lemma filter_perm : forall {A} (p : A -> bool) l l', Permutation l l' -> Permutation (filter p l) (filter p l').
Proof.
  intros A p l l' H. induction H; cbn.
  - constructor.
  - destruct (p x); [constructor|]; assumption.
  - destruct (p x), (p y); try apply Permutation_refl. apply perm_swap.
  - eapply Permutation_trans; eassumption.
Qed.

Lemma concat_same : forall fs ts, fs <> [] -> Forall (fun f => map fst (f_rows f) = ts) fs ->
  concat_frames (map file_frame fs) = Ok (Frame ts (flat_map (fun f => fr_cols (file_frame f)) fs)).
Proof.
  intros [|f fs] ts Hne H; [congruence|]. rewrite Forall_forall in H. cbn [map]. unfold concat_frames.
  replace (forallb _ (map file_frame fs)) with true.
  - f_equal. f_equal; [exact (H f (or_introl eq_refl))|].
    change (file_frame f :: map file_frame fs) with (map file_frame (f :: fs)). apply flat_map_map'.
  - symmetry. apply forallb_forall. intros x Hx. apply in_map_iff in Hx. destruct Hx as (g & <- & Hg).
    cbn [file_frame fr_times]. rewrite (H f (or_introl eq_refl)), (H g (or_intror Hg)). apply same_times_refl.
Qed.

(** The order in which the files are found does not matter. *)
Theorem C82_file_order_is_irrelevant :
  forall solver dir dir' ts,
  Permutation dir dir' ->
  one_file_each (files_of solver dir) ->
  Forall (fun f => map fst (f_rows f) = ts) (files_of solver dir) ->
  read_extco solver dir = read_extco solver dir'.
Proof.
  intros solver dir dir' ts P Hone Hts.
  assert (PF : Permutation (files_of solver dir) (files_of solver dir')).
  { unfold files_of. apply Permutation_map. apply filter_perm. exact P. }
  unfold read_extco.
  rewrite <- (map_map snd file_frame (filter _ dir)), <- (map_map snd file_frame (filter _ dir')).
  fold (files_of solver dir) (files_of solver dir').
  destruct (files_of solver dir) as [|f fs] eqn:E.
  { apply Permutation_nil in PF. rewrite PF. reflexivity. }
  assert (Hne : files_of solver dir' <> []).
  { intros E'. rewrite E' in PF. apply Permutation_sym, Permutation_nil in PF. discriminate. }
  rewrite (concat_same (f :: fs) ts); [|discriminate|exact Hts].
  rewrite (concat_same (files_of solver dir') ts); [|exact Hne|].
  2:{ rewrite Forall_forall in *. intros g Hg. apply Hts. apply (Permutation_in _ (Permutation_sym PF)). exact Hg. }
  cbn [bind fr_times fr_cols].
  assert (PC : Permutation (flat_map (fun f => fr_cols (file_frame f)) (f :: fs))
                           (flat_map (fun f => fr_cols (file_frame f)) (files_of solver dir'))).
  { apply Permutation_flat_map. exact PF. }
  assert (ND : forall l, one_file_each l -> NoDup (map col_key (flat_map (fun f => fr_cols (file_frame f)) l))).
  { intros l H. rewrite map_flat_map. rewrite (flat_map_ext_in' _ keys_of) by (intros; apply file_keys).
    apply keys_NoDup. exact H. }
  assert (ES : sort_cols (flat_map (fun f => fr_cols (file_frame f)) (f :: fs)) =
               sort_cols (flat_map (fun f => fr_cols (file_frame f)) (files_of solver dir'))).
  { apply sorted_equal.
    - apply sort_cols_sorted. apply ND. exact Hone.
    - apply sort_cols_sorted. apply ND. unfold one_file_each in *.
      apply (Permutation_NoDup (Permutation_map _ PF)). exact Hone.
    - apply Permutation_trans with (1 := sort_cols_perm _). apply Permutation_sym.
      apply Permutation_trans with (1 := sort_cols_perm _). apply Permutation_sym. exact PC. }
  rewrite ES. reflexivity.
Qed.
Print Assumptions C82_file_order_is_irrelevant.

Example C82_file_order_example :
  read_extco "linear" ex_dir = read_extco "linear" (rev ex_dir) /\
  Permutation ex_dir (rev ex_dir) /\ ex_dir <> rev ex_dir /\
  Forall (fun f => map fst (f_rows f) = [0; 2; 2]%Q) (files_of "linear" ex_dir).
Proof.
  repeat split; [apply Permutation_rev|discriminate|repeat constructor].
Qed.

(** The order of the columns: by channel, then by LED array, then by layer. *)
Definition earlier (a b : Z * Z * Z) : Prop :=
  let '(ca, aa, la) := a in let '(cb, ab, lb) := b in
  ca < cb \/ (ca = cb /\ (aa < ab \/ (aa = ab /\ la < lb))).

(** The table has one column for each layer of each file, ordered by channel, LED
    array and layer. *)
Theorem C82_columns_in_order :
  forall solver dir fr,
  let fs := files_of solver dir in
  one_file_each fs -> times_fit fs -> read_extco solver dir = Ok fr ->
  StronglySorted earlier (map col_key (fr_cols fr)) /\
  (forall ch a j, In (ch, a, j) (map col_key (fr_cols fr)) <->
     exists f, In f fs /\ f_channel f = ch /\ f_array f = a /\ 0 <= j < Z.of_nat (f_layers f)).
Proof.
  intros solver dir fr fs Hone Hfit H.
  assert (Hne : fs <> []).
  { intros E. unfold read_extco in H. unfold fs, files_of in E. apply map_eq_nil in E. rewrite E in H. discriminate. }
  destruct (read_extco_good solver dir Hne Hfit) as (fr' & E & G). fold fs in G.
  assert (fr' = fr) by (apply Ok_inj; congruence). subst fr'.
  pose proof (good_keys _ _ G Hone) as ND. split.
  - unfold read_extco in H.
    destruct (concat_frames _) as [f0|] eqn:EC; [|discriminate]. cbn [bind] in H. apply Ok_inj in H. subst fr.
    unfold drop_duplicate_times in *. cbn [fr_cols fr_times] in *.
    rewrite map_map in *. rewrite (map_ext _ col_key) in * by reflexivity.
    assert (ND0 : NoDup (map col_key (fr_cols f0))).
    { apply (Permutation_NoDup (Permutation_map col_key (sort_cols_perm (fr_cols f0)))). exact ND. }
    pose proof (sort_cols_sorted _ ND0) as SS. clear - SS.
    induction SS as [|x l SS IH F]; [constructor|]. cbn [map]. constructor; [exact IH|].
    rewrite Forall_forall in *. intros k Hk. apply in_map_iff in Hk. destruct Hk as (y & <- & Hy).
    destruct (F y Hy) as [F1 F2]. revert F1 F2.
    destruct (col_key x) as [[a1 a2] a3], (col_key y) as [[b1 b2] b3]. unfold key_leb, earlier.
    rewrite orb_true_iff, andb_true_iff, orb_true_iff, andb_true_iff, !Z.ltb_lt, !Z.eqb_eq, Z.leb_le.
    intros F1 F2. assert (~ (a1 = b1 /\ a2 = b2 /\ a3 = b3)) by (intros (-> & -> & ->); apply F2; reflexivity). lia.
  - intros ch a j. destruct G as (G1 & _ & _). split.
    + intros Hin. apply (Permutation_in _ G1) in Hin. apply in_flat_map in Hin. destruct Hin as (f & Hf & Hk).
      unfold keys_of in Hk. apply in_map_iff in Hk. destruct Hk as (i & Ek & Hi). apply in_seq in Hi.
      exists f. assert (f_channel f = ch /\ f_array f = a /\ Z.of_nat i = j) as (? & ? & ?) by (repeat split; congruence).
      repeat split; try assumption; lia.
    + intros (f & Hf & E1 & E2 & Hj). apply (Permutation_in _ (Permutation_sym G1)). apply in_flat_map. exists f.
      split; [exact Hf|]. unfold keys_of. apply in_map_iff. exists (Z.to_nat j). split; [|apply in_seq; lia].
      rewrite Z2Nat.id by lia. congruence.
Qed.
Print Assumptions C82_columns_in_order.

Example C82_columns_example :
  exists fr, read_extco "linear" ex_dir = Ok fr /\
  map col_key (fr_cols fr) = [(0, 3, 0); (0, 3, 1); (0, 7, 0); (1, 3, 0); (1, 3, 1)].
Proof. eexists. split; reflexivity. Qed.

(** *** Two files for one array *)

(** Two result files for the same channel and array - for example for two
    reference properties, which only differ in the part of the file name that is
    not read - make the coefficients of that channel unreadable by time, for all
    times. *)
Theorem C82_two_files_for_one_array :
  forall agg lower upper n solver dir l1 f l2 g l3 t y w,
  files_of solver dir = (l1 ++ f :: l2 ++ g :: l3)%list ->
  times_fit (files_of solver dir) ->
  f_channel f = f_channel g -> f_array f = f_array g ->
  (0 < f_layers f)%nat -> (0 < f_layers g)%nat ->
  (exists h r, In h (files_of solver dir) /\ In r (f_rows h) /\ (fst r == t)%Q) ->
  exists fr, read_extco solver dir = Ok fr /\
  get_extco_at_time agg lower upper n fr (f_channel f) t y w = Err ValueError.
Proof.
  intros agg lower upper n solver dir l1 f l2 g l3 t y w Efs Hfit Ec Ea Lf Lg (h & r & Hh & Hr & Ht).
  assert (Hne : files_of solver dir <> []) by (intros E; rewrite E in Hh; destruct Hh).
  destruct (read_extco_good solver dir Hne Hfit) as (fr & ER & G1 & G2 & G3).
  exists fr. split; [exact ER|].
  assert (Htime : has_time t (fr_times fr) = true).
  { rewrite G3. apply existsb_exists. exists h. split; [exact Hh|]. apply has_time_spec. exists (fst r).
    split; [apply in_map; exact Hr|symmetry; exact Ht]. }
  destruct (position_of t (fr_times fr)) as [i|] eqn:EP; [|apply position_of_none in EP; congruence].
  unfold get_extco_at_time. fold (of_channel (f_channel f) (fr_cols fr)).
  assert (Hdup : ~ NoDup (map fst (entries agg w i (of_channel (f_channel f) (fr_cols fr))))).
  { intros H.
    assert (H' : NoDup (filter (fun k => fst (fst k) =? f_channel f) (map col_key (fr_cols fr)))).
    { clear -H. unfold entries, of_channel in H. rewrite map_map in H. cbn [fst] in H.
      induction (fr_cols fr) as [|c cols IH]; [constructor|]. cbn [filter map] in *.
      change (fst (fst (col_key c))) with (c_channel c).
      destruct (c_channel c =? f_channel f) eqn:E; [|apply IH; exact H]. cbn [map] in H.
      inversion H as [|? ? N M]; subst. constructor; [|apply IH; exact M].
      intros Hin. apply N. apply filter_In in Hin. destruct Hin as [Hin Ek]. apply in_map_iff in Hin. destruct Hin as (x & Ex & Hx).
      apply in_map_iff. exists x. unfold col_key in Ex. split; [congruence|]. apply filter_In. split; [exact Hx|].
      apply Z.eqb_eq in E. apply Z.eqb_eq. congruence. }
    apply (Permutation_NoDup (filter_perm _ _ _ G1)) in H'. rewrite Efs in H'.
    rewrite flat_map_app in H'. cbn [flat_map] in H'. rewrite flat_map_app in H'. cbn [flat_map] in H'.
    assert (K : forall q, (0 < f_layers q)%nat -> exists ks, keys_of q = (f_channel q, f_array q, 0) :: ks).
    { intros q Hq. unfold keys_of. destruct (f_layers q); [lia|]. cbn. eexists. reflexivity. }
    destruct (K f Lf) as [kf Kf]. destruct (K g Lg) as [kg Kg]. rewrite Kf, Kg, <- Ec, <- Ea in H'.
    rewrite !filter_app in H'. apply NoDup_app_inv in H'. destruct H' as (_ & H' & _).
    cbn [filter fst app] in H'. rewrite Z.eqb_refl in H'. inversion H' as [|? ? N M]; subst. apply N.
    apply in_or_app. right. apply in_or_app. right. left. reflexivity. }
  destruct (of_channel (f_channel f) (fr_cols fr)) as [|c0 cols] eqn:Ecols.
  - exfalso. apply Hdup. constructor.
  - rewrite EP. fold (entries agg w i (c0 :: cols)). unfold pivot.
    destruct (duplicate_entry (entries agg w i (c0 :: cols))) eqn:D; [reflexivity|].
    exfalso. apply Hdup. apply no_duplicate_entry. exact D.
Qed.
Print Assumptions C82_two_files_for_one_array.

(** The file names of two reference properties, and what is read from them. *)
Example C82_two_files_example :
  let p1 := result_path "exp" Linear 0 "sum_col_val" 3 in
  let p2 := result_path "exp" Linear 0 "max_col_val" 3 in
  p1 <> p2 /\ channel_of_file p1 = Ok 0 /\ channel_of_file p2 = Ok 0 /\ array_of_file p1 = Ok 3 /\ array_of_file p2 = Ok 3 /\
  let dir := [ ("linear"%string, RFile 0 3 1 [(0, [20#1])]); ("linear"%string, RFile 0 3 1 [(0, [30#1])]) ]%Q in
  times_fit (files_of "linear" dir) /\
  exists fr, read_extco "linear" dir = Ok fr /\
    get_extco_at_time mean 0 3 1 fr 0 0 YLayer 1 = Err ValueError /\
    get_extco_at_layer mean (fr_cols fr) 0 0 1 = Ok [(3, [Some (20#1)%Q]); (3, [Some (30#1)%Q])].
Proof.
  repeat split; [discriminate| |].
  - left. exists [0]%Q. repeat constructor.
  - eexists. repeat split; reflexivity.
Qed.

(** *** What is not there *)

(** Without result files of the solver reading fails; a channel without results
    and a time that no file has are KeyErrors. *)
Theorem C82_missing_results :
  forall agg lower upper n solver dir,
  (files_of solver dir = [] -> read_extco solver dir = Err ValueError) /\
  (forall fr channel t y w, times_fit (files_of solver dir) -> read_extco solver dir = Ok fr ->
     (~ (exists f, In f (files_of solver dir) /\ f_channel f = channel /\ (0 < f_layers f)%nat)) \/
     (~ (exists f r, In f (files_of solver dir) /\ In r (f_rows f) /\ (fst r == t)%Q)) ->
     get_extco_at_time agg lower upper n fr channel t y w = Err KeyError).
Proof.
  intros agg lower upper n solver dir. split.
  - intros E. unfold read_extco. rewrite <- (map_map snd file_frame). fold (files_of solver dir). rewrite E. reflexivity.
  - intros fr channel t y w Hfit ER Hno.
    assert (Hne : files_of solver dir <> []).
    { intros E. unfold read_extco in ER. rewrite <- (map_map snd file_frame) in ER. fold (files_of solver dir) in ER.
      rewrite E in ER. discriminate. }
    destruct (read_extco_good solver dir Hne Hfit) as (fr' & ER' & G1 & G2 & G3).
    assert (fr' = fr) by congruence. subst fr'.
    unfold get_extco_at_time. destruct (filter (fun c => c_channel c =? channel) (fr_cols fr)) as [|c cols] eqn:Ef; [reflexivity|].
    destruct Hno as [Hno|Hno].
    + exfalso. apply Hno. assert (Hc : In c (filter (fun c => c_channel c =? channel) (fr_cols fr))) by (rewrite Ef; left; reflexivity).
      apply filter_In in Hc. destruct Hc as [Hc Ec]. apply Z.eqb_eq in Ec. rewrite Forall_forall in G2.
      destruct (G2 c Hc) as (f & j & Hf & Hj & K & _ & _). unfold col_key in K. exists f. repeat split; [exact Hf|congruence|lia].
    + destruct (position_of t (fr_times fr)) as [i|] eqn:EP; [|reflexivity]. exfalso. apply Hno.
      assert (Ht : has_time t (fr_times fr) = true).
      { destruct (has_time t (fr_times fr)) eqn:Y; [reflexivity|]. apply position_of_none in Y. congruence. }
      rewrite G3 in Ht. apply existsb_exists in Ht. destruct Ht as (f & Hf & Ht). apply has_time_spec in Ht.
      destruct Ht as (x & Hx & E). apply in_map_iff in Hx. destruct Hx as (r & <- & Hr).
      exists f, r. repeat split; try assumption. symmetry. exact E.
Qed.
Print Assumptions C82_missing_results.

Example C82_missing_example :
  read_extco "numeric" ex_dir = Err ValueError /\
  exists fr, read_extco "linear" ex_dir = Ok fr /\
    get_extco_at_time mean 0 3 2 fr 2 2 YLayer 1 = Err KeyError /\
    get_extco_at_time mean 0 3 2 fr 0 3 YLayer 1 = Err KeyError.
Proof. split; [reflexivity|]. eexists. repeat split; reflexivity. Qed.

(** Every solver option with which the analysis computes something is the name of
    the directory in which the results are looked for. *)
Theorem C82_solver_directory_is_found :
  forall {F I C} (solve_lin : F -> I -> C) (solve_non : F -> F -> option Z -> I -> C) pf
         solver pref curv iter lam img imgs cs,
  solve_images solve_lin solve_non pf solver pref curv iter lam (img :: imgs) = Ok cs ->
  kind_name (kind_of solver) = solver.
Proof.
  intros F I C solve_lin solve_non pf solver pref curv iter lam img imgs cs H.
  unfold solve_images, load_params in H.
  destruct (String.eqb solver "nonlinear") eqn:E1.
  - apply String.eqb_eq in E1. subst. reflexivity.
  - destruct (String.eqb solver "linear") eqn:E2.
    + apply String.eqb_eq in E2. subst. reflexivity.
    + cbn [bind mapM] in H. unfold solve_image in H at 1. cbn [p_lambda p_curv] in H.
      destruct (kind_of solver); discriminate.
Qed.
Print Assumptions C82_solver_directory_is_found.

Example C82_solver_directory_example :
  solve_images (fun (l : Z) (i : Z) => l + i) (fun a b _ i => a * b + i) int_of_str "linear" "" "" "" "3" [4; 5]
  = Ok [7; 8].
Proof. reflexivity. Qed.

(** ** C83 *)

Lemma moving_average_length : forall {A} (agg : list A -> A) w s, length (moving_average agg w s) = length s.
Proof.
  intros. unfold moving_average. destruct (w =? 1)%nat; [reflexivity|].
  unfold shift, rolling. rewrite map_length, seq_length, map_length, seq_length. reflexivity.
Qed.

Lemma in_combine_map : forall {A B C} (g : A -> B) (h : A -> C) l a, In a l -> In (g a, h a) (combine (map g l) (map h l)).
Proof.
  induction l as [|x l IH]; intros a H; [destruct H|]. cbn. destruct H as [->|H]; [left; reflexivity|right; apply IH; exact H].
Qed.

(** The coefficient of a channel, LED array and layer at a time is the same
    whether it is looked up by time, by array or by layer, for every smoothing;
    and every label occurs once in each view. *)
Theorem C83_views_agree :
  forall agg lower upper n solver dir fr f j t i w,
  let fs := files_of solver dir in
  one_file_each fs -> times_fit fs -> read_extco solver dir = Ok fr ->
  In f fs -> (j < f_layers f)%nat ->
  nth_error (fr_times fr) i = Some t -> position_of t (fr_times fr) = Some i ->
  exists labels arrays rows layers vals by_layer series v,
    get_extco_at_time agg lower upper n fr (f_channel f) t YLayer w = Ok (labels, arrays, rows) /\
    get_extco_at_led_array agg (fr_times fr) (fr_cols fr) (f_channel f) (f_array f) Layer w =
      Ok (fr_times fr, layers, vals) /\
    get_extco_at_layer agg (fr_cols fr) (f_channel f) (Z.of_nat j) w = Ok by_layer /\
    shown arrays rows (f_array f) j = Some v /\
    nth_error series i = Some v /\
    In (Z.of_nat j, series) (combine layers vals) /\ NoDup layers /\
    In (f_array f, series) by_layer /\ NoDup (map fst by_layer).
Proof.
  intros agg lower upper n solver dir fr f j t i w fs Hone Hfit ER Hf Hj Hi EP.
  assert (Hne : fs <> []) by (intros E; rewrite E in Hf; destruct Hf).
  destruct (read_extco_good solver dir Hne Hfit) as (fr' & ER' & G). fold fs in G.
  assert (fr' = fr) by congruence. subst fr'.
  assert (Hch : exists f0, In f0 fs /\ f_channel f0 = f_channel f /\ (0 < f_layers f0)%nat) by (exists f; repeat split; [exact Hf|lia]).
  destruct (at_time_general agg lower upper n w fs fr (f_channel f) t i Hone G Hch EP) as (arrays & rows & A & _ & _ & _ & E & _).
  destruct (good_column fs fr f j G Hf Hj) as (c & Hc & K).
  pose proof (good_keys _ _ G Hone) as Hkeys.
  assert (Kc : c_channel c = f_channel f) by (unfold col_key in K; congruence).
  assert (Ka : c_array c = f_array f) by (unfold col_key in K; congruence).
  assert (Kl : c_layer c = Z.of_nat j) by (unfold col_key in K; congruence).
  assert (Hlen : length (c_values c) = length (fr_times fr)).
  { destruct G as (_ & G2 & _). rewrite Forall_forall in G2. destruct (G2 c Hc) as (? & ? & _ & _ & _ & L & _). exact L. }
  set (t1 := filter (fun c => c_channel c =? f_channel f) (fr_cols fr)).
  assert (Hc1 : In c t1) by (apply filter_In; split; [exact Hc|apply Z.eqb_eq; exact Kc]).
  set (ta := filter (fun c => c_array c =? f_array f) t1).
  set (tl := filter (fun c => c_layer c =? Z.of_nat j) t1).
  assert (Hca : In c ta) by (apply filter_In; split; [exact Hc1|apply Z.eqb_eq; exact Ka]).
  assert (Hcl : In c tl) by (apply filter_In; split; [exact Hc1|apply Z.eqb_eq; exact Kl]).
  exists (Numbers (zrange 0 (Z.of_nat (length rows)))), arrays, rows, (map c_layer ta),
    (map (fun c => moving_average agg w (c_values c)) ta),
    (map (fun c => (c_array c, moving_average agg w (c_values c))) tl),
    (moving_average agg w (c_values c)), (nth i (moving_average agg w (c_values c)) None).
  split; [exact A|]. split; [|split; [|split; [|split; [|split; [|split; [|split]]]]]].
  - unfold get_extco_at_led_array. fold t1. destruct t1 as [|x t1'] eqn:E1; [destruct Hc1|].
    change (filter (fun c => c_array c =? f_array f) (x :: t1')) with ta. 
    destruct ta as [|y ta'] eqn:E2; [destruct Hca|]. reflexivity.
  - unfold get_extco_at_layer. fold t1. destruct t1 as [|x t1'] eqn:E1; [destruct Hc1|].
    change (filter (fun c => c_layer c =? Z.of_nat j) (x :: t1')) with tl.
    destruct tl as [|y tl'] eqn:E2; [destruct Hcl|]. reflexivity.
  - rewrite <- Ka. apply E; assumption.
  - apply nth_error_nth'. rewrite moving_average_length, Hlen. apply nth_error_Some. rewrite Hi. discriminate.
  - rewrite <- Kl. apply (in_combine_map c_layer (fun c => moving_average agg w (c_values c)) ta c Hca).
  - assert (N : NoDup (map col_key ta)) by (apply NoDup_map_filter; apply NoDup_map_filter; exact Hkeys).
    assert (forall x, In x ta -> col_key x = (f_channel f, f_array f, c_layer x)).
    { intros x Hx. apply filter_In in Hx. destruct Hx as [Hx Ex]. apply filter_In in Hx. destruct Hx as [_ Ex'].
      apply Z.eqb_eq in Ex. apply Z.eqb_eq in Ex'. unfold col_key. congruence. }
    rewrite (map_ext_in _ _ _ H) in N. rewrite <- (map_map c_layer (fun l => (f_channel f, f_array f, l))) in N.
    apply NoDup_map_inv in N. exact N.
  - apply in_map_iff. exists c. split; [congruence|exact Hcl].
  - rewrite map_map. cbn [fst].
    assert (N : NoDup (map col_key tl)) by (apply NoDup_map_filter; apply NoDup_map_filter; exact Hkeys).
    assert (forall x, In x tl -> col_key x = (f_channel f, c_array x, Z.of_nat j)).
    { intros x Hx. apply filter_In in Hx. destruct Hx as [Hx Ex]. apply filter_In in Hx. destruct Hx as [_ Ex'].
      apply Z.eqb_eq in Ex. apply Z.eqb_eq in Ex'. unfold col_key. congruence. }
    rewrite (map_ext_in _ _ _ H) in N. rewrite <- (map_map c_array (fun a => (f_channel f, a, Z.of_nat j))) in N.
    apply NoDup_map_inv in N. exact N.
Qed.
Print Assumptions C83_views_agree.

Example C83_example :
  exists fr, read_extco "linear" ex_dir = Ok fr /\ fr_times fr = [0; 2]%Q /\
    position_of 2 (fr_times fr) = Some 1%nat /\
    get_extco_at_time mean 0 3 2 fr 0 2 YLayer 2 =
      Ok (Numbers [0; 1], [3; 7], [[Some (42 # 2)%Q; Some (21 # 2)%Q]; [Some (44 # 2)%Q; None]]) /\
    get_extco_at_led_array mean (fr_times fr) (fr_cols fr) 0 3 Layer 2 =
      Ok ([0; 2]%Q, [0; 1], [[None; Some (42 # 2)%Q]; [None; Some (44 # 2)%Q]]) /\
    get_extco_at_layer mean (fr_cols fr) 0 1 2 = Ok [(3, [None; Some (44 # 2)%Q])].
Proof. eexists. split; [reflexivity|]. repeat split; reflexivity. Qed.

(** ** C84 *)

Lemma rint_close : forall x, (x - (1 # 2) <= inject_Z (rint x) <= x + (1 # 2))%Q.
Proof.
  intros x. unfold rint. pose proof (Qfloor_le x) as A. pose proof (Qlt_floor x) as B.
  rewrite inject_Z_plus in B. set (f := inject_Z (Qfloor x)) in *.
  destruct (Qle_bool (1 # 2) (x - f)) eqn:E; cbn [negb].
  - apply Qle_bool_iff in E. destruct (Qeq_bool (x - f) (1 # 2)) eqn:F.
    + apply Qeq_bool_eq in F. destruct (Z.even (Qfloor x)).
      * fold f. split; lra.
      * rewrite inject_Z_plus. fold f. change (inject_Z 1) with 1%Q. split; lra.
    + rewrite inject_Z_plus. fold f. change (inject_Z 1) with 1%Q in *. split; lra.
  - assert (~ (1 # 2 <= x - f)%Q) by (intros H; apply Qle_bool_iff in H; congruence).
    fold f. split; lra.
Qed.

Lemma rint_comp : forall x y, (x == y)%Q -> rint x = rint y.
Proof.
  intros x y E. unfold rint. rewrite (Qfloor_comp x y E).
  assert (D : (x - inject_Z (Qfloor y) == y - inject_Z (Qfloor y))%Q) by lra.
  rewrite (Qleb_comp _ _ (Qeq_refl (1 # 2)) _ _ D). rewrite (Qeqb_comp _ _ D _ _ (Qeq_refl (1 # 2))). reflexivity.
Qed.

Lemma rint_mono : forall x y, (x <= y)%Q -> rint x <= rint y.
Proof.
  intros x y H. destruct (Z_le_gt_dec (rint x) (rint y)) as [L|L]; [exact L|]. exfalso.
  assert (L' : (inject_Z (rint y) + 1 <= inject_Z (rint x))%Q).
  { change 1%Q with (inject_Z 1). rewrite <- inject_Z_plus. rewrite <- Zle_Qle. lia. }
  pose proof (rint_close x) as [_ A]. pose proof (rint_close y) as [B _].
  assert (E : (x == y)%Q) by lra. apply rint_comp in E. lia.
Qed.

Lemma rint_lt : forall x y, (x + 1 < y)%Q -> rint x < rint y.
Proof.
  intros x y H. rewrite Zlt_Qlt. pose proof (rint_close x) as [_ A]. pose proof (rint_close y) as [B _]. lra.
Qed.

Lemma round2_close : forall x, (x - (1 # 200) <= round2 x <= x + (1 # 200))%Q.
Proof.
  intros x. unfold round2. pose proof (rint_close (x * 100)%Q) as [A B].
  set (r := inject_Z (rint (x * 100))) in *.
  assert (E : (r / 100 == r * (1 # 100))%Q) by (unfold Qdiv; reflexivity). rewrite E. split; lra.
Qed.

(** The label of a layer's bottom, centre or top as a position in the list. *)
Definition nth_height (l : list Q) (k : nat) : Q := nth k l 0%Q.

Lemma nth_bottom : forall lower upper n k, (k < n)%nat ->
  nth_height (bottom_heights lower upper n) k = round2 (layer_border lower upper n k).
Proof.
  intros. unfold nth_height, bottom_heights.
  rewrite nth_indep with (d' := round2 (layer_border lower upper n 0)) by (rewrite map_length, seq_length; exact H).
  rewrite (map_nth (fun l => round2 (layer_border lower upper n l))), seq_nth by exact H. reflexivity.
Qed.

Lemma nth_top : forall lower upper n k, (k < n)%nat ->
  nth_height (top_heights lower upper n) k = round2 (layer_border lower upper n (S k)).
Proof.
  intros. unfold nth_height, top_heights.
  rewrite nth_indep with (d' := round2 (layer_border lower upper n 1)) by (rewrite map_length, seq_length; exact H).
  rewrite (map_nth (fun l => round2 (layer_border lower upper n (S l))) (seq 0 n) 0%nat), seq_nth by exact H. reflexivity.
Qed.

Lemma heights_length : forall lower upper n,
  length (bottom_heights lower upper n) = n /\ length (top_heights lower upper n) = n /\
  length (center_heights lower upper n) = n.
Proof.
  intros. unfold center_heights. rewrite map_length, combine_length. unfold bottom_heights, top_heights.
  rewrite !map_length, !seq_length. lia.
Qed.

Lemma nth_center : forall lower upper n k, (k < n)%nat ->
  nth_height (center_heights lower upper n) k =
  round2 ((nth_height (bottom_heights lower upper n) k + nth_height (top_heights lower upper n) k) / 2).
Proof.
  intros. unfold nth_height at 1, center_heights.
  destruct (heights_length lower upper n) as (L1 & L2 & L3).
  rewrite nth_indep with (d' := (fun p => round2 ((fst p + snd p) / 2)) (0, 0)%Q)
    by (rewrite map_length, combine_length, L1, L2; lia).
  rewrite (map_nth (fun p => round2 ((fst p + snd p) / 2)) _ (0, 0)%Q).
  rewrite combine_nth by congruence. reflexivity.
Qed.

(** The thickness of a layer. *)
Definition thickness (lower upper : Q) (n : nat) : Q := ((upper - lower) / inject_Z (Z.of_nat n))%Q.

Lemma border_spec : forall lower upper n k, (0 < n)%nat ->
  (layer_border lower upper n k == lower + inject_Z (Z.of_nat k) * thickness lower upper n)%Q.
Proof.
  intros. unfold layer_border, thickness. field. intros E.
  assert (inject_Z (Z.of_nat n) == inject_Z 0)%Q by exact E. apply (proj1 (inject_Z_injective _ _)) in H0. lia.
Qed.

(** The labels of layer [k], which lies between lower + k * h and
    lower + (k+1) * h: bottom and top are off by at most 0.005, the centre by at
    most 0.01; a layer's top is the next one's bottom; and there is one label per
    layer. *)
Theorem C84_labels_are_close :
  forall lower upper n k, (k < n)%nat ->
  let h := thickness lower upper n in
  let b := (lower + inject_Z (Z.of_nat k) * h)%Q in
  (b - (1 # 200) <= nth_height (bottom_heights lower upper n) k <= b + (1 # 200))%Q /\
  (b + h - (1 # 200) <= nth_height (top_heights lower upper n) k <= b + h + (1 # 200))%Q /\
  (b + h / 2 - (1 # 100) <= nth_height (center_heights lower upper n) k <= b + h / 2 + (1 # 100))%Q /\
  ((S k < n)%nat -> nth_height (top_heights lower upper n) k = nth_height (bottom_heights lower upper n) (S k)) /\
  length (bottom_heights lower upper n) = n /\ length (top_heights lower upper n) = n /\
  length (center_heights lower upper n) = n.
Proof.
  intros lower upper n k Hk h b.
  assert (Hn : (0 < n)%nat) by lia.
  pose proof (border_spec lower upper n k Hn) as B0. pose proof (border_spec lower upper n (S k) Hn) as B1.
  fold h in B0, B1. rewrite Nat2Z.inj_succ in B1. unfold Z.succ in B1. rewrite inject_Z_plus in B1. change (inject_Z 1) with 1%Q in B1.
  rewrite nth_center, nth_bottom, nth_top by exact Hk.
  pose proof (round2_close (layer_border lower upper n k)) as [R1 R2].
  pose proof (round2_close (layer_border lower upper n (S k))) as [R3 R4].
  set (r := round2 (layer_border lower upper n k)) in *. set (r' := round2 (layer_border lower upper n (S k))) in *.
  pose proof (round2_close ((r + r') / 2)%Q) as [R5 R6].
  assert (E1 : ((r + r') / 2 == (r + r') * (1 # 2))%Q) by (unfold Qdiv; reflexivity).
  assert (E2 : (h / 2 == h * (1 # 2))%Q) by (unfold Qdiv; reflexivity).
  set (m := ((r + r') / 2)%Q) in *. set (h2 := (h / 2)%Q) in *. unfold b.
  split; [split; lra|]. split; [split; lra|]. split; [split; lra|]. split; [|apply heights_length].
  intros HS. rewrite nth_bottom by exact HS. reflexivity.
Qed.
Print Assumptions C84_labels_are_close.

Lemma round2_lt : forall x y, (x + (1 # 100) < y)%Q -> (round2 x + (1 # 100) <= round2 y)%Q.
Proof.
  intros x y H. unfold round2.
  assert (L : rint (x * 100) < rint (y * 100)) by (apply rint_lt; lra).
  assert (L' : (inject_Z (rint (x * 100)) + 1 <= inject_Z (rint (y * 100)))%Q).
  { change 1%Q with (inject_Z 1). rewrite <- inject_Z_plus, <- Zle_Qle. lia. }
  set (a := inject_Z (rint (x * 100))) in *. set (b := inject_Z (rint (y * 100))) in *.
  assert (E1 : (a / 100 == a * (1 # 100))%Q) by (unfold Qdiv; reflexivity).
  assert (E2 : (b / 100 == b * (1 # 100))%Q) by (unfold Qdiv; reflexivity). rewrite E1, E2. lra.
Qed.

Lemma round2_lt2 : forall x y, (x + (2 # 100) < y)%Q -> (round2 x + (2 # 100) <= round2 y)%Q.
Proof.
  intros x y H. unfold round2.
  assert (L : rint (x * 100) + 2 <= rint (y * 100)).
  { pose proof (rint_close (x * 100)%Q) as [_ A]. pose proof (rint_close (y * 100)%Q) as [B _].
    assert (C : (inject_Z (rint (x * 100) + 1) < inject_Z (rint (y * 100)))%Q).
    { rewrite inject_Z_plus. change (inject_Z 1) with 1%Q. lra. }
    rewrite <- Zlt_Qlt in C. lia. }
  assert (L' : (inject_Z (rint (x * 100)) + 2 <= inject_Z (rint (y * 100)))%Q).
  { change 2%Q with (inject_Z 2). rewrite <- inject_Z_plus, <- Zle_Qle. exact L. }
  set (a := inject_Z (rint (x * 100))) in *. set (b := inject_Z (rint (y * 100))) in *.
  assert (E1 : (a / 100 == a * (1 # 100))%Q) by (unfold Qdiv; reflexivity).
  assert (E2 : (b / 100 == b * (1 # 100))%Q) by (unfold Qdiv; reflexivity). rewrite E1, E2. lra.
Qed.

Lemma border_gap : forall lower upper n k k', (0 < n)%nat -> (k < k')%nat -> (0 <= thickness lower upper n)%Q ->
  (layer_border lower upper n k + thickness lower upper n <= layer_border lower upper n k')%Q.
Proof.
  intros lower upper n k k' Hn Hk Hh. rewrite !border_spec by exact Hn.
  assert (inject_Z (Z.of_nat k) + 1 <= inject_Z (Z.of_nat k'))%Q.
  { change 1%Q with (inject_Z 1). rewrite <- inject_Z_plus, <- Zle_Qle. lia. }
  set (h := thickness lower upper n) in *.
  assert ((inject_Z (Z.of_nat k) + 1) * h <= inject_Z (Z.of_nat k') * h)%Q by (apply Qmult_le_compat_r; assumption).
  lra.
Qed.

(** Layers thicker than 0.01 have different bottom and top labels, in ascending
    order; for the centres 0.02 is enough. *)
Theorem C84_labels_are_different :
  forall lower upper n k k', (k < k' < n)%nat ->
  let h := thickness lower upper n in
  ((1 # 100) < h ->
     nth_height (bottom_heights lower upper n) k < nth_height (bottom_heights lower upper n) k' /\
     nth_height (top_heights lower upper n) k < nth_height (top_heights lower upper n) k')%Q /\
  ((2 # 100) < h ->
     nth_height (center_heights lower upper n) k < nth_height (center_heights lower upper n) k')%Q.
Proof.
  intros lower upper n k k' [Hk Hk'] h. assert (Hn : (0 < n)%nat) by lia. assert (Hkn : (k < n)%nat) by lia.
  split.
  - intros Hh. rewrite !nth_bottom, !nth_top by lia.
    assert (H0 : (0 <= thickness lower upper n)%Q) by (fold h; lra).
    pose proof (border_gap lower upper n k k' Hn Hk H0) as G1.
    pose proof (border_gap lower upper n (S k) (S k') Hn ltac:(lia) H0) as G2. fold h in G1, G2.
    pose proof (round2_lt (layer_border lower upper n k) (layer_border lower upper n k') ltac:(lra)) as R1.
    pose proof (round2_lt (layer_border lower upper n (S k)) (layer_border lower upper n (S k')) ltac:(lra)) as R2.
    split; lra.
  - intros Hh. rewrite !nth_center, !nth_bottom, !nth_top by lia.
    assert (H0 : (0 <= thickness lower upper n)%Q) by (fold h; lra).
    pose proof (border_gap lower upper n k k' Hn Hk H0) as G1.
    pose proof (border_gap lower upper n (S k) (S k') Hn ltac:(lia) H0) as G2. fold h in G1, G2.
    pose proof (round2_lt2 (layer_border lower upper n k) (layer_border lower upper n k') ltac:(lra)) as R1.
    pose proof (round2_lt2 (layer_border lower upper n (S k)) (layer_border lower upper n (S k')) ltac:(lra)) as R2.
    set (a := round2 (layer_border lower upper n k)) in *. set (a' := round2 (layer_border lower upper n k')) in *.
    set (c := round2 (layer_border lower upper n (S k))) in *. set (c' := round2 (layer_border lower upper n (S k'))) in *.
    assert (E1 : ((a + c) / 2 == (a + c) * (1 # 2))%Q) by (unfold Qdiv; reflexivity).
    assert (E2 : ((a' + c') / 2 == (a' + c') * (1 # 2))%Q) by (unfold Qdiv; reflexivity).
    pose proof (round2_lt ((a + c) / 2)%Q ((a' + c') / 2)%Q ltac:(rewrite E1, E2; lra)) as R3. lra.
Qed.
Print Assumptions C84_labels_are_different.

(** Thinner layers can have equal labels: two of three layers of 0.0101 have the
    centre label 0.02; five layers of 0.002 all have the bottom label 0. *)
Theorem C84_equal_labels_refuted :
  exists lower upper n k k', (k < k' < n)%nat /\ ((1 # 100) < thickness lower upper n)%Q /\
  (nth_height (center_heights lower upper n) k == nth_height (center_heights lower upper n) k')%Q.
Proof.
  exists 0%Q, (303 # 10000)%Q, 3%nat, 1%nat, 2%nat. repeat split; try lia; reflexivity.
Qed.
Print Assumptions C84_equal_labels_refuted.

Example C84_example :
  (* a domain from 0 to 3 with 4 layers *)
  Forall2 Qeq (bottom_heights 0 3 4) [0; 3 # 4; 3 # 2; 9 # 4]%Q /\
  Forall2 Qeq (center_heights 0 3 4) [38 # 100; 112 # 100; 188 # 100; 262 # 100]%Q /\
  ((2 # 100) < thickness 0 3 4)%Q.
Proof. repeat split; repeat constructor. Qed.

(** Asking for heights instead of layer numbers changes only the labels; it fails
    exactly if the reference is not one of the three or the number of layers in the
    configuration is not that of the results. *)
Theorem C84_heights_only_relabel :
  forall agg lower upper n fr channel t w arrays rows l r,
  get_extco_at_time agg lower upper n fr channel t YLayer w = Ok (l, arrays, rows) ->
  get_extco_at_time agg lower upper n fr channel t (YHeight r) w =
    match r with
    | OtherReference => Err ValueError
    | Center => if (n =? length rows)%nat then Ok (Heights (center_heights lower upper n), arrays, rows) else Err ValueError
    | Top => if (n =? length rows)%nat then Ok (Heights (top_heights lower upper n), arrays, rows) else Err ValueError
    | Bottom => if (n =? length rows)%nat then Ok (Heights (bottom_heights lower upper n), arrays, rows) else Err ValueError
    end.
Proof.
  intros agg lower upper n fr channel t w arrays rows l r H. unfold get_extco_at_time in *.
  destruct (filter (fun c => c_channel c =? channel) (fr_cols fr)); [discriminate|].
  destruct (position_of t (fr_times fr)); [|discriminate].
  destruct (pivot _) as [[[ar la] ro]|e]; [|discriminate]. cbn [bind] in *.
  assert (E1 : ar = arrays) by congruence. assert (E2 : ro = rows) by congruence. subst.
  destruct (heights_length lower upper n) as (L1 & L2 & L3).
  destruct r; cbn [heights_for bind]; rewrite ?L1, ?L2, ?L3; reflexivity.
Qed.
Print Assumptions C84_heights_only_relabel.

Example C84_relabel_example :
  exists fr, read_extco "linear" ex_dir = Ok fr /\
    get_extco_at_time mean 0 3 2 fr 0 2 (YHeight Top) 1 =
      Ok (Heights (top_heights 0 3 2), [3; 7], [[Some (22#1)%Q; Some (11#1)%Q]; [Some (23#1)%Q; None]]) /\
    get_extco_at_time mean 0 3 5 fr 0 2 (YHeight Top) 1 = Err ValueError.
Proof. eexists. split; [reflexivity|]. split; reflexivity. Qed.
