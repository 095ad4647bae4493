(** Property C127: result files without a column for the time. *)
From Coq Require Import ZArith QArith Lia Bool String List Sorted.
From Verif Require Import Base Sim_Model Read_Model Read_Props OldFiles_Model.
Import ListNotations.
Local Open Scope Z_scope.

(** ** Specification *)

(** The second [z] has begun and not ended (counted towards zero). *)
Definition in_second (z : Z) (t : Q) : Prop :=
  (0 <= t)%Q /\ (inject_Z z <= t)%Q /\ (t < inject_Z (z + 1))%Q.

(** [im] is the image number [k] of the list (from 0) and the first of the second [z]. *)
Definition first_of_second (images : list iline) (z : Z) (k : nat) (im : iline) : Prop :=
  nth_error images k = Some im /\ in_second z (i_time im) /\
  forall k' im', (k' < k)%nat -> nth_error images k' = Some im' -> ~ in_second z (i_time im').

(** The files of one solver without a time column. *)
Definition untimed (solver : string) (dir : list (string * anyfile)) (ch a : Z) (n : nat) (rows : list (list Q)) : Prop :=
  In (solver, Untimed ch a n rows) dir.

(** The names the files of a solver give to their results. *)
Definition label_of (f : anyfile) : Z * Z :=
  match f with Timed g => (f_channel g, f_array g) | Untimed ch a _ _ => (ch, a) end.

(** ** Lemmas *)

Lemma int_in_second : forall t z, (0 <= t)%Q -> (int_of_Q t = z <-> in_second z t).
Proof.
  intros [n d] z H. unfold in_second, int_of_Q, Qle, Qlt, inject_Z in *. cbn [Qnum Qden] in *.
  rewrite Z.quot_div_nonneg by lia. split.
  - intros <-. pose proof (Z.mul_div_le n (Zpos d) ltac:(lia)). pose proof (Z.mul_succ_div_gt n (Zpos d) ltac:(lia)).
    repeat split; lia.
  - intros (_ & A & B). symmetry. apply (Z.div_unique n (Zpos d) z (n - Zpos d * z)); lia.
Qed.

Lemma whole_times_nth : forall images k im, nth_error images k = Some im ->
  nth_error (whole_times images) k = Some (inject_Z (int_of_Q (i_time im))).
Proof.
  intros images k im H. unfold whole_times.
  apply (map_nth_error (fun i => inject_Z (int_of_Q (i_time i))) k images H).
Qed.

Lemma inject_Z_eqb : forall a b, Qeq_bool (inject_Z a) (inject_Z b) = (a =? b).
Proof.
  intros a b. destruct (a =? b) eqn:E.
  - apply Z.eqb_eq in E. subst b. apply Qeq_eq_bool. reflexivity.
  - destruct (Qeq_bool (inject_Z a) (inject_Z b)) eqn:F; [|reflexivity].
    apply Qeq_bool_eq in F. unfold Qeq, inject_Z in F. cbn in F. apply Z.eqb_neq in E. lia.
Qed.

Lemma find_row : forall images rows z k im row, Forall (fun i => 0 <= i_time i)%Q images ->
  first_of_second images z k im -> nth_error rows k = Some row ->
  option_map (@snd Q (list Q)) (find (fun r => Qeq_bool (inject_Z z) (fst r)) (combine (whole_times images) rows)) = Some row.
Proof.
  induction images as [|i images IH]; intros rows z k im row P (A & B & C) R.
  - destruct k; discriminate.
  - inversion P as [|? ? P1 P2]; subst. destruct rows as [|r rows]; [destruct k; discriminate|].
    cbn [whole_times map combine find fst]. rewrite inject_Z_eqb. destruct k as [|k].
    + cbn in A, R. apply Some_inj in A, R. subst i r. apply int_in_second in B; [|exact P1]. rewrite B, Z.eqb_refl. reflexivity.
    + pose proof (C 0%nat i ltac:(lia) eq_refl) as N. destruct (z =? int_of_Q (i_time i)) eqn:E.
      * apply Z.eqb_eq in E. symmetry in E. apply int_in_second in E; [|exact P1]. exfalso. exact (N E).
      * apply (IH rows z k im row P2); [|exact R]. split; [exact A|]. split; [exact B|].
        intros k' im' L N'. apply (C (S k') im'); [lia|exact N'].
Qed.

Lemma files_of_any : forall solver dir images f,
  In f (files_of solver (map (fun p => (fst p, with_times images (snd p))) dir)) <->
  exists g, In (solver, g) dir /\ f = with_times images g.
Proof.
  intros solver dir images f. unfold files_of. rewrite in_map_iff. split.
  - intros ([s h] & E & H). apply filter_In in H. destruct H as [H Hs]. apply in_map_iff in H.
    destruct H as ([s' g] & E' & H). cbn in *. apply String.eqb_eq in Hs. exists g.
    split; [congruence|congruence].
  - intros (g & H & ->). exists (solver, with_times images g). split; [reflexivity|]. apply filter_In. split.
    + apply in_map_iff. exists (solver, g). split; [reflexivity|exact H].
    + cbn. apply String.eqb_refl.
Qed.

Lemma one_file_each_any : forall solver dir images,
  NoDup (map label_of (map snd (filter (fun p => (fst p =? solver)%string) dir))) ->
  one_file_each (files_of solver (map (fun p => (fst p, with_times images (snd p))) dir)).
Proof.
  intros solver dir images. unfold one_file_each, files_of.
  assert (E : map (fun f => (f_channel f, f_array f))
                (map snd (filter (fun p => (fst p =? solver)%string) (map (fun p => (fst p, with_times images (snd p))) dir))) =
              map label_of (map snd (filter (fun p => (fst p =? solver)%string) dir))).
  { induction dir as [|[s f] dir IH]; [reflexivity|]. cbn [map filter fst snd].
    destruct (s =? solver)%string; cbn [map snd]; [|exact IH]. rewrite IH. f_equal. destruct f; reflexivity. }
  rewrite E. exact (fun H => H).
Qed.

(** ** Theorems *)

(** The files of a solver have no time column and one row per image; all times are
    at least 0.  Then for every image that is the first of its second the
    coefficients shown for this second are those of its row, for every LED array
    and layer. *)
Theorem C127_rows_are_matched_by_position :
  forall agg lower upper n images solver dir channel z k im,
  NoDup (map label_of (map snd (filter (fun p => (fst p =? solver)%string) dir))) ->
  (forall g, In (solver, g) dir -> exists ch a m rows, g = Untimed ch a m rows /\ length rows = length images) ->
  Forall (fun i => 0 <= i_time i)%Q images -> first_of_second images z k im ->
  (exists a m rows, untimed solver dir channel a m rows /\ (0 < m)%nat) ->
  exists fr arrays rows,
    read_any images solver dir = Ok fr /\
    get_extco_at_time agg lower upper n fr channel (inject_Z z) YLayer 1 =
      Ok (Numbers (zrange 0 (Z.of_nat (length rows))), arrays, rows) /\
    forall a m data row j, untimed solver dir channel a m data -> (j < m)%nat -> nth_error data k = Some row ->
      shown arrays rows a j = Some (nth_error row j).
Proof.
  intros agg lower upper n images solver dir channel z k im Hone Hall Hpos Hk (a0 & m0 & rows0 & H0 & Hm0).
  set (dir' := map (fun p => (fst p, with_times images (snd p))) dir).
  assert (Hfs : forall f, In f (files_of solver dir') -> map fst (f_rows f) = whole_times images).
  { intros f Hf. apply files_of_any in Hf. destruct Hf as (g & Hg & ->). destruct (Hall g Hg) as (ch & a & m & rows & -> & L).
    cbn [with_times f_rows]. clear - L. revert rows L. unfold whole_times. induction images as [|i images IH]; intros [|r rows] L; try discriminate; [reflexivity|].
    cbn [map combine fst]. f_equal. apply IH. cbn in L. lia. }
  assert (Hrow : exists row, nth_error rows0 k = Some row).
  { destruct (Hall _ H0) as (ch & a & m & rows & E & L). injection E as <- <- <- <-.
    destruct Hk as (A & _). assert (k < length images)%nat by (apply nth_error_Some; congruence).
    destruct (nth_error rows0 k) eqn:F; [eexists; reflexivity|]. apply nth_error_None in F. lia. }
  destruct Hrow as (row0 & R0).
  destruct (C82_value_at_time agg lower upper n solver dir' channel (inject_Z z)) as (fr & arrays & rows & A & B & C & D & E & F).
  - apply one_file_each_any. exact Hone.
  - left. exists (whole_times images). apply Forall_forall. exact Hfs.
  - exists (with_times images (Untimed channel a0 m0 rows0)). split; [|split; [reflexivity|exact Hm0]].
    apply files_of_any. exists (Untimed channel a0 m0 rows0). split; [exact H0|reflexivity].
  - pose proof (find_row images rows0 z k im row0 Hpos Hk R0) as G.
    destruct (find (fun r => Qeq_bool (inject_Z z) (fst r)) (combine (whole_times images) rows0)) as [r|] eqn:EF; [|discriminate].
    apply find_some in EF. destruct EF as [E1 E2]. apply Qeq_bool_eq in E2.
    exists (with_times images (Untimed channel a0 m0 rows0)), r. split; [|split; [exact E1|symmetry; exact E2]].
    apply files_of_any. exists (Untimed channel a0 m0 rows0). split; [exact H0|reflexivity].
  - exists fr, arrays, rows. split; [exact A|]. split; [exact B|].
    intros a m data row j Hu Hj Hr.
    assert (Hin : In (with_times images (Untimed channel a m data)) (files_of solver dir')).
    { apply files_of_any. exists (Untimed channel a m data). split; [exact Hu|reflexivity]. }
    assert (Hlen : (j < length rows)%nat) by (apply E; eexists; split; [exact Hin|]; split; [reflexivity|exact Hj]).
    pose proof (F _ j Hin eq_refl ltac:(cbn; lia) Hlen) as G. cbn [with_times f_array f_layers] in G.
    rewrite (proj2 (Nat.ltb_lt j m) Hj) in G. rewrite G. f_equal. unfold saved_value, saved. cbn [f_rows].
    rewrite (find_row images data z k im row Hpos Hk Hr). reflexivity.
Qed.
Print Assumptions C127_rows_are_matched_by_position.

(** Three images at 0 s, 5 s and 5.5 s: the second 5 shows the second image. *)
Definition ex_images : list iline := [ILine 1 "a.jpg" 0; ILine 2 "b.jpg" 5; ILine 3 "c.jpg" (11 # 2)]%Q.
Definition ex_old_dir : list (string * anyfile) :=
  [("linear"%string, Untimed 0 2 2 [[1; 2]; [3; 4]; [5; 6]]%Q);
   ("linear"%string, Untimed 0 1 2 [[7; 8]; [9; 10]; [11; 12]]%Q)].

Example C127_example :
  NoDup (map label_of (map snd (filter (fun p => (fst p =? "linear")%string) ex_old_dir))) /\
  first_of_second ex_images 5 1 (ILine 2 "b.jpg" 5) /\
  exists fr, read_any ex_images "linear" ex_old_dir = Ok fr /\
    get_extco_at_time mean 0 3 2 fr 0 (inject_Z 5) YLayer 1 =
      Ok (Numbers [0; 1], [1; 2], [[Some 9%Q; Some 3%Q]; [Some 10%Q; Some 4%Q]]).
Proof.
  split; [|split].
  - cbn. constructor; [intros [H|[]]; discriminate|]. constructor; [intros []|constructor].
  - split; [reflexivity|]. split; [repeat split; cbn; unfold Qle, Qlt; cbn; lia|].
    intros [|k'] im' L N; [|lia]. cbn in N. apply Some_inj in N. subst im'. intros (_ & H & _). revert H.
    unfold Qle. cbn. lia.
  - eexists. split; reflexivity.
Qed.

(** If all times are whole seconds, a file without times is read like the file that
    the present version writes, whatever the other files are. *)
Theorem C127_same_as_a_file_with_times :
  forall images solver before after dirname ch a n rows,
  Forall (fun i => exists z, i_time i = inject_Z z) images ->
  read_any images solver (before ++ (dirname, Untimed ch a n rows) :: after) =
  read_any images solver (before ++ (dirname, Timed (RFile ch a n (combine (map i_time images) rows))) :: after).
Proof.
  intros images solver before after dirname ch a n rows H. unfold read_any. f_equal. rewrite !map_app. f_equal.
  cbn [map fst snd with_times]. f_equal. f_equal. f_equal. f_equal. unfold whole_times.
  induction H as [|i images (z & E) H IH]; [reflexivity|]. cbn [map]. rewrite IH. f_equal. rewrite E.
  unfold int_of_Q, inject_Z. cbn. rewrite Z.quot_1_r. reflexivity.
Qed.
Print Assumptions C127_same_as_a_file_with_times.

(** Rows of the file beyond the number of images are never read, and no error is
    raised. *)
Theorem C127_rows_beyond_the_images_are_lost :
  forall images solver before after dirname ch a n rows more,
  length rows = length images ->
  read_any images solver (before ++ (dirname, Untimed ch a n (rows ++ more)) :: after) =
  read_any images solver (before ++ (dirname, Untimed ch a n rows) :: after).
Proof.
  intros images solver before after dirname ch a n rows more L. unfold read_any. f_equal. rewrite !map_app. f_equal.
  cbn [map fst snd with_times]. f_equal. f_equal. f_equal.
  assert (L' : length rows = length (whole_times images)) by (unfold whole_times; rewrite map_length; exact L).
  revert L'. generalize (whole_times images). clear. induction rows as [|r rows IH]; intros [|t ts] L; try discriminate.
  - destruct more; reflexivity.
  - cbn [app combine]. f_equal. apply IH. cbn in L. lia.
Qed.
Print Assumptions C127_rows_beyond_the_images_are_lost.

Example C127_example_more_rows :
  read_any ex_images "linear" [("linear"%string, Untimed 0 2 1 [[1]; [3]; [5]; [7]; [9]]%Q)] =
  read_any ex_images "linear" [("linear"%string, Untimed 0 2 1 [[1]; [3]; [5]]%Q)] /\
  exists fr, read_any ex_images "linear" [("linear"%string, Untimed 0 2 1 [[1]; [3]; [5]]%Q)] = Ok fr.
Proof. split; [reflexivity|eexists; reflexivity]. Qed.

(** The claim that every image keeps its coefficients is false for averaged images,
    whose times may be half seconds: of two images in one second the second one is
    lost, and a file without times no longer fits to one with times. *)
Theorem C127_half_seconds_refuted :
  (exists images rows fr, Forall (fun i => 0 <= i_time i)%Q images /\ length rows = length images /\
     NoDup (map i_time images) /\
     read_any images "linear" [("linear"%string, Untimed 0 0 1 rows)] = Ok fr /\
     (length (fr_times fr) < length images)%nat /\
     exists k v, nth_error rows k = Some [v] /\
       forall c, In c (fr_cols fr) -> ~ In (Some v) (c_values c)) /\
  (exists images im fr rows1 rows2, Forall (fun i => 0 <= i_time i)%Q images /\ In im images /\
     length rows1 = length images /\ length rows2 = length images /\
     read_any images "linear" [("linear"%string, Untimed 0 0 1 rows1);
                               ("linear"%string, Timed (RFile 0 1 1 (combine (map i_time images) rows2)))] = Ok fr /\
     forall agg lower upper n, exists v,
       get_extco_at_time agg lower upper n fr 0 (i_time im) YLayer 1 = Ok (Numbers [0], [0; 1], [[None; Some v]])).
Proof.
  split.
  - exists [ILine 1 "a.jpg/b.jpg" 5; ILine 2 "c.jpg/d.jpg" (11 # 2)]%Q, [[1]; [2]]%Q. eexists.
    split; [constructor; [|constructor; [|constructor]]; unfold Qle; cbn; lia|].
    split; [reflexivity|]. split; [cbn; constructor; [intros [H|[]]; discriminate|constructor; [intros []|constructor]]|].
    split; [reflexivity|]. split; [cbn; lia|]. exists 1%nat, 2%Q. split; [reflexivity|].
    intros c [<-|[]]. cbn. intros [H|[]]. discriminate.
  - exists [ILine 1 "a.jpg/b.jpg" (11 # 2)]%Q, (ILine 1 "a.jpg/b.jpg" (11 # 2)). eexists. exists [[1]]%Q, [[2]]%Q.
    split; [constructor; [|constructor]; unfold Qle; cbn; lia|].
    split; [left; reflexivity|]. split; [reflexivity|]. split; [reflexivity|]. split; [reflexivity|].
    intros. exists 2%Q. reflexivity.
Qed.
Print Assumptions C127_half_seconds_refuted.
