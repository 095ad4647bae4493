(** Properties C22, C23 and C24. *)
From Coq Require Import String List ZArith Lia Bool Relations Permutation.
From Verif Require Import Base Restart_Model.
Import ListNotations.
Local Open Scope string_scope.
Local Open Scope Z_scope.

(** ** Vocabulary *)

Definition distinct_images (tab : table) : Prop := NoDup (map fst tab) /\ NoDup (map snd tab).

(** Every image of the table can be measured in every channel. *)
Definition measurable (j : job) (tab : table) (chans : list Z) (fit : bool) : Prop :=
  forall id n c, In (id, n) tab -> In c chans ->
  exists r rs h, j_records j n c fit = Ok (r :: rs) /\ j_header j c id n fit = Ok h.

(** The complete content of the result file of an image. *)
Definition full_content (j : job) (fit : bool) (id : Z) (n : string) (c : Z) (lines : list string) : Prop :=
  exists recs h, j_records j n c fit = Ok recs /\ j_header j c id n fit = Ok h /\ lines = h :: recs.

(** The run nobody interrupted. *)
Definition uninterrupted (j : job) (tab : table) (chans : list Z) (fit : bool) (s : files) : files :=
  apply_puts (fst (process_serial j tab chans fit (all_images tab))) s.

(** ** Lemmas *)

Lemma rkey_eqb_eq : forall a b, rkey_eqb a b = true <-> a = b.
Proof.
  intros [a1 a2] [b1 b2]. unfold rkey_eqb. simpl. rewrite andb_true_iff, !Z.eqb_eq. split.
  - intros [-> ->]. reflexivity.
  - intros H. injection H as -> ->. auto.
Qed.

Lemma rkey_eqb_refl : forall a, rkey_eqb a a = true.
Proof. intros a. apply rkey_eqb_eq. reflexivity. Qed.

(** The final content of a file is decided by the writes to it. *)
Lemma apply_puts_filter : forall es s k,
  apply_puts es s k = apply_puts (filter (fun p => rkey_eqb (fst p) k) es) s k.
Proof.
  assert (G : forall es s1 s2 k, s1 k = s2 k -> apply_puts es s1 k = apply_puts (filter (fun p => rkey_eqb (fst p) k) es) s2 k).
  { induction es as [|p es IH]; intros s1 s2 k H; simpl; [exact H|].
    destruct (rkey_eqb (fst p) k) eqn:E; simpl; apply IH.
    - unfold apply_put. rewrite E. reflexivity.
    - unfold apply_put. rewrite E. exact H. }
  intros es s k. apply G. reflexivity.
Qed.

Lemma apply_puts_app : forall a b s, apply_puts (a ++ b) s = apply_puts b (apply_puts a s).
Proof. intros. unfold apply_puts. apply fold_left_app. Qed.

Lemma apply_puts_untouched : forall es s k, (forall p, In p es -> fst p <> k) -> apply_puts es s k = s k.
Proof.
  induction es as [|p es IH]; intros s k H; [reflexivity|]. simpl. rewrite IH; [|intros q Hq; apply H; right; exact Hq].
  unfold apply_put. destruct (rkey_eqb (fst p) k) eqn:E; [|reflexivity].
  exfalso. apply (H p (or_introl eq_refl)). apply rkey_eqb_eq. exact E.
Qed.

Lemma apply_puts_present : forall es s k, s k <> None -> apply_puts es s k <> None.
Proof.
  induction es as [|p es IH]; intros s k H; [exact H|]. simpl. apply IH.
  unfold apply_put. destruct (rkey_eqb (fst p) k); [discriminate|exact H].
Qed.

Lemma filter_none : forall A (f : A -> bool) l, (forall x, In x l -> f x = false) -> filter f l = [].
Proof.
  intros A f l H. induction l as [|x l IH]; [reflexivity|]. simpl. rewrite (H x (or_introl eq_refl)).
  apply IH. intros y Hy. apply H. right. exact Hy.
Qed.

Lemma interleave_in : forall A (ls : list (list A)) es, interleave ls es ->
  forall x, In x es <-> exists l, In l ls /\ In x l.
Proof.
  intros A ls es H. induction H as [ls Hn|l1 x l l2 es H IH]; intros y.
  - split; [intros []|]. intros (l & Hl & Hy). rewrite Forall_forall in Hn. rewrite (Hn l Hl) in Hy. destruct Hy.
  - simpl. rewrite IH. split.
    + intros [<-|(l' & Hl & Hy)].
      * exists (x :: l). split; [apply in_or_app; right; left; reflexivity|left; reflexivity].
      * apply in_app_or in Hl. destruct Hl as [Hl|[<-|Hl]].
        -- exists l'. split; [apply in_or_app; auto|exact Hy].
        -- exists (x :: l). split; [apply in_or_app; right; left; reflexivity|right; exact Hy].
        -- exists l'. split; [apply in_or_app; right; right; exact Hl|exact Hy].
    + intros (l' & Hl & Hy). apply in_app_or in Hl. destruct Hl as [Hl|[<-|Hl]].
      * right. exists l'. split; [apply in_or_app; auto|exact Hy].
      * destruct Hy as [<-|Hy]; [left; reflexivity|right]. exists l. split; [apply in_or_app; right; left; reflexivity|exact Hy].
      * right. exists l'. split; [apply in_or_app; right; right; exact Hl|exact Hy].
Qed.

(** Only one of the sequences satisfies the predicate: its elements keep their order. *)
Lemma interleave_filter : forall A (f : A -> bool) ls es, interleave ls es ->
  forall l1 l l2, ls = (l1 ++ l :: l2)%list ->
  (forall l', In l' (l1 ++ l2) -> filter f l' = []) ->
  filter f es = filter f l.
Proof.
  intros A f ls es H. induction H as [ls Hn|m1 x m m2 es H IH]; intros l1 l l2 E Hf.
  - subst ls. rewrite Forall_forall in Hn. rewrite (Hn l) by (apply in_or_app; right; left; reflexivity). reflexivity.
  - (* the stepped sequence is either l or one of the others *)
    assert (C : (m1 = l1 /\ x :: m = l /\ m2 = l2) \/
                (exists a, l1 = m1 ++ (x :: m) :: a /\ m2 = a ++ l :: l2)%list \/
                (exists a, m1 = l1 ++ l :: a /\ l2 = a ++ (x :: m) :: m2)%list).
    { clear -E. revert l1 E. induction m1 as [|b m1 IHm]; intros [|c l1] E; simpl in E.
      - injection E as -> ->. left. auto.
      - injection E as <- ->. right. left. exists l1. auto.
      - injection E as -> <-. right. right. exists m1. auto.
      - injection E as -> E. destruct (IHm l1 E) as [(-> & -> & ->)|[(a & -> & ->)|(a & -> & ->)]].
        + left. auto.
        + right. left. exists a. auto.
        + right. right. exists a. auto. }
    destruct C as [(-> & <- & ->)|[(a & -> & ->)|(a & -> & ->)]].
    + simpl. rewrite (IH l1 m l2 eq_refl Hf). reflexivity.
    + assert (Hx : filter f (x :: m) = []) by (apply Hf; apply in_or_app; left; apply in_or_app; right; left; reflexivity).
      simpl in Hx. destruct (f x) eqn:Ex; [discriminate|]. simpl. rewrite Ex.
      apply (IH (m1 ++ m :: a)%list l l2); [rewrite <- app_assoc; reflexivity|].
      intros l' Hl. apply in_app_or in Hl. destruct Hl as [Hl|Hl]; [|apply Hf; apply in_or_app; auto].
      apply in_app_or in Hl. destruct Hl as [Hl|[<-|Hl]]; [|exact Hx|].
      * apply Hf. apply in_or_app. left. apply in_or_app. auto.
      * apply Hf. apply in_or_app. left. apply in_or_app. right. right. exact Hl.
    + assert (Hx : filter f (x :: m) = []) by (apply Hf; apply in_or_app; right; apply in_or_app; right; left; reflexivity).
      simpl in Hx. destruct (f x) eqn:Ex; [discriminate|]. simpl. rewrite Ex.
      apply (IH l1 l (a ++ m :: m2)%list); [rewrite <- app_assoc; reflexivity|].
      intros l' Hl. apply in_app_or in Hl. destruct Hl as [Hl|Hl]; [apply Hf; apply in_or_app; auto|].
      apply in_app_or in Hl. destruct Hl as [Hl|[<-|Hl]]; [|exact Hx|].
      * apply Hf. apply in_or_app. right. apply in_or_app. auto.
      * apply Hf. apply in_or_app. right. apply in_or_app. right. right. exact Hl.
Qed.

Lemma interleave_concat : forall A (ls : list (list A)), interleave ls (concat ls).
Proof.
  intros A ls. induction ls as [|l ls IH]; [constructor; constructor|].
  simpl. induction l as [|x l IHl].
  - simpl. clear -IH. revert IH. generalize (concat ls). intros es H.
    induction H as [ls Hn|l1 x l l2 es H IH].
    + constructor. constructor; [reflexivity|exact Hn].
    + exact (il_step ([] :: l1) x l l2 es IH).
  - exact (il_step [] x l ls _ IHl).
Qed.

Lemma name_of_in : forall tab id n, name_of tab id = Ok n -> In (id, n) tab.
Proof.
  induction tab as [|[i m] tab IH]; intros id n H; simpl in H; [discriminate|].
  destruct (i =? id) eqn:E; [|right; apply IH; exact H].
  apply Z.eqb_eq in E. apply Ok_inj in H. subst. left. reflexivity.
Qed.

Lemma in_name_of : forall tab id n, NoDup (map fst tab) -> In (id, n) tab -> name_of tab id = Ok n.
Proof.
  induction tab as [|[i m] tab IH]; intros id n Hnd Hin; [destruct Hin|]. simpl in Hnd. inversion Hnd; subst.
  simpl. destruct Hin as [E|Hin].
  - injection E as -> ->. rewrite Z.eqb_refl. reflexivity.
  - destruct (i =? id) eqn:E; [|apply IH; assumption]. apply Z.eqb_eq in E. subst i.
    exfalso. apply H1. apply in_map_iff. exists (id, n). auto.
Qed.

Lemma name_of_total : forall tab id, (exists n, In (id, n) tab) \/ name_of tab id = Err NameError.
Proof.
  induction tab as [|[i m] tab IH]; intros id; simpl; [right; reflexivity|].
  destruct (i =? id) eqn:E.
  - apply Z.eqb_eq in E. subst. left. exists m. left. reflexivity.
  - destruct (IH id) as [(n & Hn)|H]; [left; exists n; right; exact Hn|right; exact H].
Qed.

Lemma in_id_of : forall tab id n, NoDup (map snd tab) -> In (id, n) tab -> id_of tab n = Ok id.
Proof.
  induction tab as [|[i m] tab IH]; intros id n Hnd Hin; [destruct Hin|]. simpl in Hnd. inversion Hnd; subst.
  simpl. destruct Hin as [E|Hin].
  - injection E as -> ->. rewrite String.eqb_refl. reflexivity.
  - destruct (m =? n)%string eqn:E; [|apply IH; assumption]. apply String.eqb_eq in E. subst m.
    exfalso. apply H1. apply in_map_iff. exists (id, n). auto.
Qed.

Lemma id_of_in : forall tab n id, id_of tab n = Ok id -> In (id, n) tab.
Proof.
  induction tab as [|[i m] tab IH]; intros n id H; simpl in H; [discriminate|].
  destruct (m =? n)%string eqn:E; [|right; apply IH; exact H].
  apply String.eqb_eq in E. apply Ok_inj in H. subst. left. reflexivity.
Qed.

Lemma nodup_fst_inj : forall (tab : table) id n m, NoDup (map fst tab) -> In (id, n) tab -> In (id, m) tab -> n = m.
Proof.
  intros tab id n m Hnd H1 H2. pose proof (in_name_of _ _ _ Hnd H1) as A. pose proof (in_name_of _ _ _ Hnd H2) as B.
  rewrite A in B. apply Ok_inj in B. exact B.
Qed.

Lemma nodup_snd_inj : forall (tab : table) id id' n, NoDup (map snd tab) -> In (id, n) tab -> In (id', n) tab -> id = id'.
Proof.
  intros tab id id' n Hnd H1 H2. pose proof (in_id_of _ _ _ Hnd H1) as A. pose proof (in_id_of _ _ _ Hnd H2) as B.
  rewrite A in B. apply Ok_inj in B. exact B.
Qed.

Lemma save_results_keys : forall j fit n id c recs p, In p (fst (save_results j fit n id c recs)) -> fst p = (c, id).
Proof.
  intros j fit n id c recs p H. unfold save_results in H. destruct recs as [|r rs].
  - destruct H as [<-|[]]. reflexivity.
  - destruct (j_header j c id n fit).
    + cbn [fst] in H. apply in_map_iff in H. destruct H as (k & <- & _). reflexivity.
    + destruct H as [<-|[]]. reflexivity.
Qed.

Lemma channel_loop_keys : forall j fit n id chans p, In p (fst (channel_loop j fit n id chans)) ->
  snd (fst p) = id /\ In (fst (fst p)) chans.
Proof.
  intros j fit n id chans. induction chans as [|c cs IH]; intros p H; simpl in H; [destruct H|].
  destruct (j_records j n c fit) as [recs|]; [|destruct H].
  pose proof (save_results_keys j fit n id c recs p) as K.
  destruct (save_results j fit n id c recs) as [es [u|e]]; simpl in K.
  - destruct (channel_loop j fit n id cs) as [es' r] eqn:E. simpl in H, IH.
    apply in_app_or in H. destruct H as [H|H].
    + rewrite (K H). simpl. auto.
    + destruct (IH p H) as [A B]. split; [exact A|right; exact B].
  - simpl in H. rewrite (K H). simpl. auto.
Qed.

Lemma process_img_keys : forall j tab chans fit n p, In p (fst (process_img j tab chans fit n)) ->
  id_of tab n = Ok (snd (fst p)) /\ In (fst (fst p)) chans.
Proof.
  intros j tab chans fit n p H. unfold process_img in H. destruct (id_of tab n) as [id|]; [|destruct H].
  apply channel_loop_keys in H. destruct H as [<- H]. auto.
Qed.

Lemma apply_prefixes : forall k lines s,
  apply_puts (map (fun n => (k, firstn n lines)) (seq 0 (S (List.length lines)))) s k = Some lines.
Proof.
  intros k lines s. rewrite seq_S, map_app, apply_puts_app. simpl. unfold apply_put. simpl.
  rewrite rkey_eqb_refl, firstn_all. reflexivity.
Qed.

(** Processing one image completely. *)
Lemma channel_loop_result : forall j fit n id chans, NoDup chans ->
  (forall c, In c chans -> exists r rs h, j_records j n c fit = Ok (r :: rs) /\ j_header j c id n fit = Ok h) ->
  snd (channel_loop j fit n id chans) = Ok tt /\
  forall c s, In c chans -> exists lines, apply_puts (fst (channel_loop j fit n id chans)) s (c, id) = Some lines /\
     full_content j fit id n c lines.
Proof.
  intros j fit n id chans. induction chans as [|c cs IH]; intros Hnd Hm.
  - split; [reflexivity|intros c s []].
  - inversion Hnd; subst. destruct IH as [I1 I2]; [assumption|intros c' Hc; apply Hm; right; exact Hc|].
    destruct (Hm c (or_introl eq_refl)) as (r & rs & h & Hr & Hh).
    cbn [channel_loop]. rewrite Hr. unfold save_results. rewrite Hh.
    set (es := map (fun n0 : nat => (c, id, firstn n0 (h :: r :: rs))) (seq 0 (S (S (List.length (r :: rs)))))).
    destruct (channel_loop j fit n id cs) as [es' r'] eqn:E. simpl in I1, I2. split; [exact I1|].
    intros c' s Hc. cbn [fst]. rewrite apply_puts_app. destruct (Z.eq_dec c' c) as [->|Hne].
    + exists (h :: r :: rs). split.
      * rewrite apply_puts_untouched.
        -- exact (apply_prefixes (c, id) (h :: r :: rs) s).
        -- intros p Hp Heq. pose proof (channel_loop_keys j fit n id cs p) as K. rewrite E in K.
           destruct (K Hp) as [_ K2]. rewrite Heq in K2. contradiction.
      * exists (r :: rs), h. auto.
    + destruct Hc as [->|Hc]; [congruence|]. apply I2. exact Hc.
Qed.

Lemma full_content_unique : forall j fit id n c l1 l2,
  full_content j fit id n c l1 -> full_content j fit id n c l2 -> l1 = l2.
Proof. intros j fit id n c l1 l2 (r1 & h1 & A1 & B1 & ->) (r2 & h2 & A2 & B2 & ->). congruence. Qed.

(** Runs over several different images, in any interleaving. *)
Lemma interleaved_result : forall j tab chans fit names es s,
  distinct_images tab -> NoDup chans -> NoDup names -> incl names (map snd tab) ->
  measurable j tab chans fit ->
  interleave (map (fun n => fst (process_img j tab chans fit n)) names) es ->
  (forall id n c, In (id, n) tab -> In n names -> In c chans ->
     exists lines, apply_puts es s (c, id) = Some lines /\ full_content j fit id n c lines) /\
  (forall c id, (forall n, In (id, n) tab -> ~ In n names) -> apply_puts es s (c, id) = s (c, id)) /\
  (forall c id, ~ In c chans -> apply_puts es s (c, id) = s (c, id)).
Proof.
  intros j tab chans fit names es s [Hd1 Hd2] Hc Hn Hi Hm Hil. split; [|split].
  - intros id n c Hin Hnn Hcc. destruct (in_split _ _ Hnn) as (l1 & l2 & E). subst names.
    rewrite map_app in Hil. simpl in Hil.
    rewrite apply_puts_filter.
    rewrite (interleave_filter _ (fun p => rkey_eqb (fst p) (c, id)) _ _ Hil _ _ _ eq_refl).
    + rewrite <- apply_puts_filter. unfold process_img. rewrite (in_id_of _ _ _ Hd2 Hin).
      apply channel_loop_result; [exact Hc| |exact Hcc].
      intros c' Hc'. apply (Hm id n c' Hin Hc').
    + intros l' Hl. rewrite <- map_app in Hl. apply in_map_iff in Hl. destruct Hl as (m & <- & Hm').
      apply filter_none. intros p Hp. apply process_img_keys in Hp. destruct Hp as [Hp _].
      destruct (rkey_eqb (fst p) (c, id)) eqn:E; [|reflexivity]. apply rkey_eqb_eq in E. rewrite E in Hp. simpl in Hp.
      apply id_of_in in Hp. assert (m = n) by (eapply nodup_fst_inj; eauto). subst m.
      apply NoDup_remove_2 in Hn. contradiction.
  - intros c id H. apply apply_puts_untouched. intros p Hp Heq.
    apply (proj1 (interleave_in _ _ _ Hil p)) in Hp. destruct Hp as (l & Hl & Hp).
    apply in_map_iff in Hl. destruct Hl as (m & <- & Hm'). apply process_img_keys in Hp. destruct Hp as [Hp _].
    rewrite Heq in Hp. simpl in Hp. apply id_of_in in Hp. exact (H m Hp Hm').
  - intros c id H. apply apply_puts_untouched. intros p Hp Heq.
    apply (proj1 (interleave_in _ _ _ Hil p)) in Hp. destruct Hp as (l & Hl & Hp).
    apply in_map_iff in Hl. destruct Hl as (m & <- & Hm'). apply process_img_keys in Hp. destruct Hp as [_ Hp].
    rewrite Heq in Hp. exact (H Hp).
Qed.

(** The serial run is one of the interleavings. *)
Lemma serial_ok : forall j tab chans fit names,
  (forall n, In n names -> snd (process_img j tab chans fit n) = Ok tt) ->
  snd (process_serial j tab chans fit names) = Ok tt /\
  fst (process_serial j tab chans fit names) = concat (map (fun n => fst (process_img j tab chans fit n)) names).
Proof.
  intros j tab chans fit names. induction names as [|n names IH]; intros H; [split; reflexivity|].
  destruct IH as [I1 I2]; [intros m Hm; apply H; right; exact Hm|].
  pose proof (H n (or_introl eq_refl)) as Hn. simpl.
  destruct (process_img j tab chans fit n) as [es [u|e]]; [|discriminate].
  destruct (process_serial j tab chans fit names) as [es' r]. simpl in *. split; [exact I1|]. rewrite I2. reflexivity.
Qed.

Lemma process_img_ok : forall j tab chans fit n, distinct_images tab -> NoDup chans ->
  measurable j tab chans fit -> In n (map snd tab) -> snd (process_img j tab chans fit n) = Ok tt.
Proof.
  intros j tab chans fit n [H1 H2] Hc Hm Hn. apply in_map_iff in Hn. destruct Hn as ([id n'] & E & Hin).
  simpl in E. subst n'. unfold process_img. rewrite (in_id_of _ _ _ H2 Hin).
  apply channel_loop_result; [exact Hc|]. intros c Hcc. apply (Hm id n c Hin Hcc).
Qed.

Lemma uninterrupted_result : forall j tab chans fit s,
  distinct_images tab -> NoDup chans -> measurable j tab chans fit ->
  snd (process_serial j tab chans fit (all_images tab)) = Ok tt /\
  (forall id n c, In (id, n) tab -> In c chans ->
     exists lines, uninterrupted j tab chans fit s (c, id) = Some lines /\ full_content j fit id n c lines) /\
  (forall c id, ~ (exists n, In (id, n) tab) \/ ~ In c chans -> uninterrupted j tab chans fit s (c, id) = s (c, id)).
Proof.
  intros j tab chans fit s Hd Hc Hm.
  destruct (serial_ok j tab chans fit (all_images tab)) as [S1 S2].
  { intros n Hn. apply process_img_ok; assumption. }
  destruct (interleaved_result j tab chans fit (all_images tab)
             (concat (map (fun n => fst (process_img j tab chans fit n)) (all_images tab))) s Hd Hc (proj2 Hd) (incl_refl _) Hm
             (interleave_concat _ _)) as (R1 & R2 & R3).
  split; [exact S1|]. unfold uninterrupted. rewrite S2. split.
  - intros id n c Hin Hcc. apply (R1 id n c Hin); [|exact Hcc].
    apply in_map_iff. exists (id, n). auto.
  - intros c id [H|H].
    + apply R2. intros n Hin. exfalso. apply H. exists n. exact Hin.
    + apply R3. exact H.
Qed.

(** ** C24 *)

(** Whatever the schedule of the workers, the result files are those of the
    serial run (which ends normally). *)
Theorem C24_every_schedule_gives_the_serial_result :
  forall j tab chans fit s es,
  distinct_images tab -> NoDup chans -> measurable j tab chans fit ->
  interleave (map (fun n => fst (process_img j tab chans fit n)) (all_images tab)) es ->
  snd (process_serial j tab chans fit (all_images tab)) = Ok tt /\
  forall k, apply_puts es s k = apply_puts (fst (process_serial j tab chans fit (all_images tab))) s k.
Proof.
  intros j tab chans fit s es Hd Hc Hm Hil.
  destruct (uninterrupted_result j tab chans fit s Hd Hc Hm) as (U0 & U1 & U2). split; [exact U0|].
  destruct (interleaved_result j tab chans fit (all_images tab) es s Hd Hc (proj2 Hd) (incl_refl _) Hm Hil) as (R1 & R2 & R3).
  intros [c id]. change (apply_puts (fst (process_serial j tab chans fit (all_images tab))) s (c, id))
    with (uninterrupted j tab chans fit s (c, id)).
  destruct (in_dec Z.eq_dec c chans) as [Hcc|Hcc]; [|rewrite R3, U2; auto].
  destruct (name_of_total tab id) as [(n & Hn)|He].
  - destruct (U1 id n c Hn Hcc) as (l1 & A1 & B1).
    destruct (R1 id n c Hn) as (l2 & A2 & B2); [apply in_map_iff; exists (id, n); auto|exact Hcc|].
    rewrite A1, A2, (full_content_unique _ _ _ _ _ _ _ B1 B2). reflexivity.
  - assert (Hno : ~ exists n, In (id, n) tab).
    { intros (n & Hn). rewrite (in_name_of _ _ _ (proj1 Hd) Hn) in He. discriminate. }
    rewrite U2 by auto. apply R2. intros n Hn. exfalso. apply Hno. exists n. exact Hn.
Qed.
Print Assumptions C24_every_schedule_gives_the_serial_result.

(** ** C22 *)

(** Step 3 in a directory without result files of the first channel,
    interrupted between images, then any number of restarts that are again
    interrupted between images. *)
Inductive interrupted (j : job) (tab : table) (c0 : Z) (chans : list Z) (fit : bool) (s0 : files) : files -> Prop :=
| int_first : forall done s, image_run j tab (c0 :: chans) fit (all_images tab) done s0 s ->
    interrupted j tab c0 chans fit s0 s
| int_again : forall s names done s', interrupted j tab c0 chans fit s0 s ->
    restart_images s tab c0 names ->
    image_run j tab (c0 :: chans) false names done s s' ->
    interrupted j tab c0 chans fit s0 s'.

Lemma remaining_spec : forall tab ids r, distinct_images tab -> remaining tab ids = Ok r ->
  (forall id, In id ids -> exists n, In (id, n) tab) /\
  forall n, In n r <-> exists id, In (id, n) tab /\ ~ In id ids.
Proof.
  intros tab ids r [H1 H2] H. unfold remaining in H. destruct (mapM (name_of tab) ids) as [ps|] eqn:E; [|discriminate].
  cbn [bind] in H. apply Ok_inj in H. subst r.
  assert (P : forall n, In n ps <-> exists id, In id ids /\ In (id, n) tab).
  { revert ps E. induction ids as [|i ids IH]; intros ps E; simpl in E.
    - injection E as <-. intros n. split; [intros []|intros (id & [] & _)].
    - destruct (name_of tab i) as [m|] eqn:Em; [|discriminate]. cbn [bind] in E.
      destruct (mapM (name_of tab) ids) as [ps'|]; [|discriminate]. cbn [bind] in E. injection E as <-.
      intros n. simpl. rewrite (IH ps' eq_refl). apply name_of_in in Em. split.
      + intros [<-|(id & A & B)]; [exists i; auto|exists id; auto].
      + intros (id & [<-|A] & B); [left; eapply nodup_fst_inj; eauto|right; exists id; auto]. }
  split.
  - clear P. revert ps E. induction ids as [|i ids IH]; intros ps E id; [intros []|]. simpl in E.
    destruct (name_of tab i) as [m|] eqn:Em; [|discriminate]. cbn [bind] in E.
    destruct (mapM (name_of tab) ids) as [ps'|]; [|discriminate].
    intros [<-|Hin]; [exists m; apply name_of_in; exact Em|eapply IH; eauto].
  - intros n. rewrite nodup_In, filter_In, negb_true_iff. split.
    + intros [A B]. apply in_map_iff in A. destruct A as ([id n'] & E' & A). simpl in E'. subst n'.
      exists id. split; [exact A|]. intros Hid.
      assert (existsb (String.eqb n) ps = true); [|congruence].
      apply existsb_exists. exists n. split; [apply P; exists id; auto|apply String.eqb_refl].
    + intros (id & A & B). split; [apply in_map_iff; exists (id, n); auto|].
      destruct (existsb (String.eqb n) ps) eqn:Ex; [|reflexivity]. exfalso.
      apply existsb_exists in Ex. destruct Ex as (m & Hm & Em). apply String.eqb_eq in Em. subst m.
      apply P in Hm. destruct Hm as (id' & C & D). apply B. rewrite (nodup_snd_inj _ _ _ _ H2 A D). exact C.
Qed.

Lemma restart_images_spec : forall s tab c0 names, distinct_images tab -> restart_images s tab c0 names ->
  (forall id, s (c0, id) <> None -> exists n, In (id, n) tab) /\
  (forall n, In n names <-> exists id, In (id, n) tab /\ s (c0, id) = None) /\ NoDup names.
Proof.
  intros s tab c0 names Hd (ids & r & L & R & E & N). destruct (remaining_spec tab ids r Hd R) as [A B].
  split; [intros id H; apply A; apply L; exact H|]. split; [|exact N].
  intros n. rewrite E, B. split; intros (id & C & D); exists id; (split; [exact C|]).
  - destruct (s (c0, id)) eqn:Es; [|reflexivity]. exfalso. apply D. apply L. rewrite Es. discriminate.
  - intros Hin. apply L in Hin. congruence.
Qed.

Lemma restart_names_incl : forall s tab c0 names, distinct_images tab -> restart_images s tab c0 names -> incl names (map snd tab).
Proof.
  intros s tab c0 names Hd H n Hn. destruct (restart_images_spec _ _ _ _ Hd H) as (_ & A & _).
  apply A in Hn. destruct Hn as (id & Hin & _). apply in_map_iff. exists (id, n). auto.
Qed.

Lemma interrupted_invariant : forall j tab c0 chans s0 s,
  distinct_images tab -> NoDup (c0 :: chans) -> measurable j tab (c0 :: chans) false ->
  (forall id, s0 (c0, id) = None) ->
  interrupted j tab c0 chans false s0 s ->
  (forall id n c, In (id, n) tab -> In c (c0 :: chans) -> s (c0, id) <> None ->
     exists lines, s (c, id) = Some lines /\ full_content j false id n c lines) /\
  (forall c id, ~ (exists n, In (id, n) tab) \/ ~ In c (c0 :: chans) -> s (c, id) = s0 (c, id)).
Proof.
  intros j tab c0 chans s0 s Hd Hc Hm H0 H.
  induction H as [done s (Hnd & Hincl & es & Hil & ->)|s names done s' Hint [IH1 IH2] Hre (Hnd & Hincl & es & Hil & ->)].
  - destruct (interleaved_result j tab (c0 :: chans) false done es s0 Hd Hc Hnd Hincl Hm Hil) as (R1 & R2 & R3). split.
    + intros id n c Hin Hcc Hpres. destruct (in_dec string_dec n done) as [Hdone|Hdone].
      * apply (R1 id n c Hin Hdone Hcc).
      * exfalso. apply Hpres. rewrite R2; [apply H0|]. intros m Hm' Hmd.
        rewrite (nodup_fst_inj _ _ _ _ (proj1 Hd) Hin Hm') in Hdone. contradiction.
    + intros c id [H|H]; [apply R2; intros n Hn; exfalso; apply H; exists n; exact Hn|apply R3; exact H].
  - pose proof (restart_names_incl _ _ _ _ Hd Hre) as Hni.
    destruct (interleaved_result j tab (c0 :: chans) false done es s Hd Hc Hnd (incl_tran Hincl Hni) Hm Hil) as (R1 & R2 & R3). split.
    + intros id n c Hin Hcc Hpres. destruct (in_dec string_dec n done) as [Hdone|Hdone].
      * apply (R1 id n c Hin Hdone Hcc).
      * assert (E : forall c, apply_puts es s (c, id) = s (c, id)).
        { intros c'. apply R2. intros m Hm' Hmd. rewrite (nodup_fst_inj _ _ _ _ (proj1 Hd) Hin Hm') in Hdone. contradiction. }
        rewrite E in Hpres |- *. apply (IH1 id n c Hin Hcc Hpres).
    + intros c id H. rewrite <- (IH2 c id H). destruct H as [H|H].
      * apply R2. intros n Hn. exfalso. apply H. exists n. exact Hn.
      * apply R3. exact H.
Qed.

(** (The restart never fits, parser_arguments_run.py:92, so this is about runs
    without fits, -s3_fast; see C23 for runs with fits.)
    After any such history, one restart that is not interrupted gives the
    files of the run nobody interrupted. *)
Theorem C22_restarts_complete_the_run :
  forall j tab c0 chans s0 s names s',
  distinct_images tab -> NoDup (c0 :: chans) -> measurable j tab (c0 :: chans) false ->
  (forall id, s0 (c0, id) = None) ->
  interrupted j tab c0 chans false s0 s ->
  restart_images s tab c0 names ->
  image_run j tab (c0 :: chans) false names names s s' ->
  forall k, s' k = uninterrupted j tab (c0 :: chans) false s0 k.
Proof.
  intros j tab c0 chans s0 s names s' Hd Hc Hm H0 Hint Hre Hrun [c id].
  pose proof (restart_images_spec _ _ _ _ Hd Hre) as (A1 & A2 & A3).
  destruct (interrupted_invariant j tab c0 chans s0 s' Hd Hc Hm H0 (int_again _ _ _ _ _ _ _ _ _ _ Hint Hre Hrun)) as [I1 I2].
  destruct (interrupted_invariant j tab c0 chans s0 s Hd Hc Hm H0 Hint) as [J1 J2].
  destruct (uninterrupted_result j tab (c0 :: chans) false s0 Hd Hc Hm) as (_ & U1 & U2).
  destruct (name_of_total tab id) as [(n & Hn)|He].
  - destruct (in_dec Z.eq_dec c (c0 :: chans)) as [Hcc|Hcc]; [|rewrite I2, U2; auto].
    destruct (U1 id n c Hn Hcc) as (l1 & B1 & C1).
    assert (Hpres : s' (c0, id) <> None).
    { destruct Hrun as (Hnd & _ & es & Hil & ->). destruct (s (c0, id)) eqn:Es.
      - apply apply_puts_present. rewrite Es. discriminate.
      - destruct (interleaved_result j tab (c0 :: chans) false names es s Hd Hc Hnd (restart_names_incl _ _ _ _ Hd Hre) Hm Hil) as (R1 & _).
        destruct (R1 id n c0 Hn) as (l & -> & _); [apply A2; exists id; auto|left; reflexivity|discriminate]. }
    destruct (I1 id n c Hn Hcc Hpres) as (l2 & B2 & C2).
    rewrite B1, B2, (full_content_unique _ _ _ _ _ _ _ C1 C2). reflexivity.
  - assert (Hno : ~ exists n, In (id, n) tab).
    { intros (n & Hn). rewrite (in_name_of _ _ _ (proj1 Hd) Hn) in He. discriminate. }
    rewrite I2, U2; auto.
Qed.
Print Assumptions C22_restarts_complete_the_run.

(** The restart is never refused in these histories: its list of images exists. *)
Theorem C22_restart_is_possible :
  forall j tab c0 chans s0 s,
  distinct_images tab -> NoDup (c0 :: chans) -> measurable j tab (c0 :: chans) false ->
  (forall id, s0 (c0, id) = None) ->
  interrupted j tab c0 chans false s0 s ->
  exists names, restart_images s tab c0 names.
Proof.
  intros j tab c0 chans s0 s Hd Hc Hm H0 Hint.
  destruct (interrupted_invariant j tab c0 chans s0 s Hd Hc Hm H0 Hint) as [J1 J2].
  pose (ids := filter (fun id => match s (c0, id) with Some _ => true | None => false end) (map fst tab)).
  assert (L : listing s c0 ids).
  { intros id. unfold ids. rewrite filter_In. split.
    - intros [_ H] E. rewrite E in H. discriminate.
    - intros H. split; [|destruct (s (c0, id)); [reflexivity|congruence]].
      destruct (name_of_total tab id) as [(n & Hn)|He]; [apply in_map_iff; exists (id, n); auto|].
      exfalso. apply H. rewrite J2; [apply H0|]. left. intros (n & Hn).
      rewrite (in_name_of _ _ _ (proj1 Hd) Hn) in He. discriminate. }
  assert (E : exists ps, mapM (name_of tab) ids = Ok ps).
  { assert (Hi : forall id, In id ids -> exists n, name_of tab id = Ok n).
    { intros id Hid. unfold ids in Hid. apply filter_In in Hid. destruct Hid as [Hid _]. apply in_map_iff in Hid.
      destruct Hid as ([i n] & <- & Hin). exists n. apply in_name_of; [apply Hd|exact Hin]. }
    clear L. induction ids as [|i l IH]; [exists []; reflexivity|]. simpl.
    destruct (Hi i (or_introl eq_refl)) as (n & ->). destruct IH as (ps & ->); [intros id Hid; apply Hi; right; exact Hid|].
    eexists. reflexivity. }
  destruct E as (ps & E).
  eexists. exists ids. eexists. split; [exact L|]. split; [unfold remaining; rewrite E; reflexivity|].
  split; [intros n; reflexivity|]. apply NoDup_nodup.
Qed.
Print Assumptions C22_restart_is_possible.

(** ** C23 *)

(** A restart works exactly on the images without a result file in the first
    channel, and is refused if a result file of an unknown image exists. *)
Theorem C23_restart_processes_images_without_first_channel_file :
  forall s tab c0, distinct_images tab ->
  (forall names, restart_images s tab c0 names ->
     forall n, In n names <-> exists id, In (id, n) tab /\ s (c0, id) = None) /\
  (forall ids id, listing s c0 ids -> s (c0, id) <> None -> ~ (exists n, In (id, n) tab) ->
     remaining tab ids = Err NameError).
Proof.
  intros s tab c0 Hd. split.
  - intros names H. apply (restart_images_spec _ _ _ _ Hd H).
  - intros ids id L Hp Hno. apply L in Hp. clear L.
    assert (E : mapM (name_of tab) ids = Err NameError).
    { induction ids as [|i l IH]; [destruct Hp|]. simpl. destruct (name_of_total tab i) as [(n & Hn)|He].
      - rewrite (in_name_of _ _ _ (proj1 Hd) Hn). cbn [bind]. rewrite IH; [reflexivity|].
        destruct Hp as [->|Hp]; [exfalso; apply Hno; exists n; exact Hn|exact Hp].
      - rewrite He. reflexivity. }
    unfold remaining. rewrite E. reflexivity.
Qed.
Print Assumptions C23_restart_processes_images_without_first_channel_file.

(** One restart, cut anywhere (also inside a file), serial or parallel, with
    failing images or not. *)
Definition restart_step (j : job) (tab : table) (c0 : Z) (chans : list Z) (s s' : files) : Prop :=
  exists names, restart_images s tab c0 names /\ some_run j tab (c0 :: chans) false names s s'.

(** No number of restarts ever touches the files of an image whose
    first-channel file exists: a torn file stays torn, missing files of other
    channels stay missing. *)
Theorem C23_files_of_started_images_are_never_touched :
  forall j tab c0 chans s s' id,
  distinct_images tab ->
  clos_refl_trans files (restart_step j tab c0 chans) s s' ->
  s (c0, id) <> None ->
  forall c, s' (c, id) = s (c, id).
Proof.
  intros j tab c0 chans s s' id Hd H. 
  assert (G : (s (c0, id) <> None -> forall c, s' (c, id) = s (c, id))); [|exact G].
  induction H as [s s' H|s|s s1 s2 H1 IH1 H2 IH2].
  - intros Hp c. destruct H as (names & Hre & full & es & rest & Hil & E & ->).
    apply apply_puts_untouched. intros p Hpin Heq.
    assert (Hf : In p full) by (rewrite E; apply in_or_app; left; exact Hpin).
    apply (proj1 (interleave_in _ _ _ Hil p)) in Hf. destruct Hf as (l & Hl & Hpl).
    apply in_map_iff in Hl. destruct Hl as (m & <- & Hm'). apply process_img_keys in Hpl. destruct Hpl as [Hid _].
    rewrite Heq in Hid. simpl in Hid. apply id_of_in in Hid.
    destruct (restart_images_spec _ _ _ _ Hd Hre) as (_ & A & _). apply A in Hm'. destruct Hm' as (id' & B & C).
    rewrite (nodup_snd_inj _ _ _ _ (proj2 Hd) Hid B) in Hp. contradiction.
  - intros _ c. reflexivity.
  - intros Hp c. rewrite IH2; [apply IH1; exact Hp|]. rewrite IH1 by exact Hp. exact Hp.
Qed.
Print Assumptions C23_files_of_started_images_are_never_touched.

(** The serial program (also one that stops with an error, or is killed after
    [n] file operations) is one of these runs. *)
Theorem C23_serial_restart_is_a_restart_step :
  forall j tab c0 chans s names n,
  restart_images s tab c0 names ->
  restart_step j tab c0 chans s (apply_puts (firstn n (fst (process_serial j tab (c0 :: chans) false names))) s).
Proof.
  intros j tab c0 chans s names n H. exists names. split; [exact H|].
  assert (P : exists rest, concat (map (fun n => fst (process_img j tab (c0 :: chans) false n)) names) =
                (fst (process_serial j tab (c0 :: chans) false names) ++ rest)%list).
  { clear H. induction names as [|m l IH]; [exists []; reflexivity|]. destruct IH as (rest & IH). cbn [map concat process_serial].
    destruct (process_img j tab (c0 :: chans) false m) as [es [u|e]].
    - destruct (process_serial j tab (c0 :: chans) false l) as [es' r]. simpl fst in *. exists rest. rewrite <- app_assoc, <- IH. reflexivity.
    - eexists. reflexivity. }
  destruct P as (rest & P).
  exists (concat (map (fun n => fst (process_img j tab (c0 :: chans) false n)) names)).
  exists (firstn n (fst (process_serial j tab (c0 :: chans) false names))).
  exists (skipn n (fst (process_serial j tab (c0 :: chans) false names)) ++ rest)%list.
  split; [apply interleave_concat|]. split; [|reflexivity].
  rewrite P, app_assoc, firstn_skipn. reflexivity.
Qed.
Print Assumptions C23_serial_restart_is_a_restart_step.

(** *** Witnesses: two images, the record text tells channel and mode. *)
Definition tab2 : table := [(1, "a.jpg"); (2, "b.jpg")].
Definition job2 : job :=
  Job (fun n c fit => Ok [(n ++ (if (c =? 0)%Z then " 0" else " 1") ++ (if fit then " fit" else " fast"))%string])
      (fun c id n fit => Ok (if fit then "# fit" else "# fast")).
Definition no_files : files := fun _ => None.

Lemma tab2_distinct : distinct_images tab2.
Proof.
  split; repeat constructor; simpl; intuition discriminate.
Qed.

(** Non-vacuity of C22 and C24. *)
Example C22_example_hypotheses :
  distinct_images tab2 /\ NoDup [0] /\ measurable job2 tab2 [0] false /\
  exists s, interrupted job2 tab2 0 [] false no_files s /\
    restart_images s tab2 0 ["a.jpg"] /\ s (0, 2) = Some ["# fast"; "b.jpg 0 fast"] /\ s (0, 1) = None.
Proof.
  split; [exact tab2_distinct|]. split; [repeat constructor; intros []|]. split.
  { intros id n c Hin Hc. do 3 eexists. split; reflexivity. }
  exists (apply_puts (fst (process_img job2 tab2 [0] false "b.jpg")) no_files). split; [|split; [|split; reflexivity]].
  - apply (int_first _ _ _ _ _ _ ["b.jpg"]). split; [repeat constructor; intros []|]. split.
    + intros x [<-|[]]. simpl. auto.
    + exists (fst (process_img job2 tab2 [0] false "b.jpg")). split; [|reflexivity].
      pose proof (interleave_concat _ [fst (process_img job2 tab2 [0] false "b.jpg")]) as H. exact H.
  - exists [2], ["a.jpg"]. split; [|split; [reflexivity|split; [reflexivity|repeat constructor; intros []]]].
    intros id. cbn -[Z.eqb]. unfold apply_put, no_files, rkey_eqb. cbn -[Z.eqb].
    destruct (2 =? id) eqn:E; simpl; [apply Z.eqb_eq in E|apply Z.eqb_neq in E]; intuition congruence.
Qed.

Example C24_example_interleaving :
  interleave (map (fun n => fst (process_img job2 tab2 [0] false n)) (all_images tab2))
    [((0,2),[]); ((0,1),[]); ((0,1),["# fast"]); ((0,2),["# fast"]);
     ((0,2),["# fast"; "b.jpg 0 fast"]); ((0,1),["# fast"; "a.jpg 0 fast"])].
Proof.
  cbn.
  set (a1 := ((0,1),[]):put). set (a2 := ((0,1),["# fast"]):put). set (a3 := ((0,1),["# fast"; "a.jpg 0 fast"]):put).
  set (b1 := ((0,2),[]):put). set (b2 := ((0,2),["# fast"]):put). set (b3 := ((0,2),["# fast"; "b.jpg 0 fast"]):put).
  apply (il_step [[a1;a2;a3]] b1 [b2;b3] []).
  apply (il_step [] a1 [a2;a3] [[b2;b3]]).
  apply (il_step [] a2 [a3] [[b2;b3]]).
  apply (il_step [[a3]] b2 [b3] []).
  apply (il_step [[a3]] b3 [] []).
  apply (il_step [] a3 [] [[]]).
  repeat constructor.
Qed.

(** Killed while the first file is written: the restarts do not repair it. *)
Theorem C23_torn_file_is_kept_refuted :
  exists j tab n, distinct_images tab /\ measurable j tab [0] false /\
  let s := apply_puts (firstn n (fst (process_serial j tab [0] false (all_images tab)))) no_files in
  forall s', clos_refl_trans files (restart_step j tab 0 []) s s' ->
    s' (0, 1) = Some ["# fast"] /\ uninterrupted j tab [0] false no_files (0, 1) = Some ["# fast"; "a.jpg 0 fast"].
Proof.
  exists job2, tab2, 2%nat. split; [exact tab2_distinct|]. split.
  { intros id n c Hin Hc. do 3 eexists. split; reflexivity. }
  intros s s' H. split; [|reflexivity].
  rewrite (C23_files_of_started_images_are_never_touched _ _ _ _ _ _ 1 tab2_distinct H); [reflexivity|].
  discriminate.
Qed.
Print Assumptions C23_torn_file_is_kept_refuted.

(** Two channels, killed between the channels of the first image: its file for
    the second channel is never written by restarts. *)
Theorem C23_second_channel_is_never_completed_refuted :
  exists j tab n, distinct_images tab /\ measurable j tab [0; 1] false /\
  let s := apply_puts (firstn n (fst (process_serial j tab [0; 1] false (all_images tab)))) no_files in
  forall s', clos_refl_trans files (restart_step j tab 0 [1]) s s' ->
    s' (1, 1) = None /\ uninterrupted j tab [0; 1] false no_files (1, 1) = Some ["# fast"; "a.jpg 1 fast"].
Proof.
  exists job2, tab2, 3%nat. split; [exact tab2_distinct|]. split.
  { intros id n c Hin Hc. do 3 eexists. split; reflexivity. }
  intros s s' H. split; [|reflexivity].
  rewrite (C23_files_of_started_images_are_never_touched _ _ _ _ _ _ 1 tab2_distinct H); [reflexivity|].
  discriminate.
Qed.
Print Assumptions C23_second_channel_is_never_completed_refuted.

(** If no LED is selected, the program stops with an error but leaves an empty
    file, which counts as analysed for every restart. *)
Theorem C23_empty_file_counts_as_analysed_refuted :
  exists j tab, distinct_images tab /\
  snd (process_serial j tab [0] false (all_images tab)) = Err IndexError /\
  let s := apply_puts (fst (process_serial j tab [0] false (all_images tab))) no_files in
  s (0, 1) = Some [] /\
  restart_images s tab 0 ["b.jpg"].
Proof.
  exists (Job (fun _ _ _ => Ok []) (fun _ _ _ _ => Ok "#")), tab2. split; [exact tab2_distinct|].
  split; [reflexivity|]. split; [reflexivity|].
  exists [1], ["b.jpg"]. split; [|split; [reflexivity|split; [reflexivity|repeat constructor; intros []]]].
  intros id. cbn -[Z.eqb]. unfold apply_put, no_files, rkey_eqb. cbn -[Z.eqb].
  destruct (1 =? id) eqn:E; simpl; [apply Z.eqb_eq in E|apply Z.eqb_neq in E]; intuition congruence.
Qed.
Print Assumptions C23_empty_file_counts_as_analysed_refuted.

(** A run with fits (-s3) that is interrupted between images and restarted
    leaves files in two formats: the restart always works without fits
    (parser_arguments_run.py:92). *)
Theorem C23_restart_of_a_fit_run_mixes_formats_refuted :
  exists j tab s names s', distinct_images tab /\ measurable j tab [0] true /\
  interrupted j tab 0 [] true no_files s /\
  restart_images s tab 0 names /\ image_run j tab [0] false names names s s' /\
  s' (0, 1) = Some ["# fit"; "a.jpg 0 fit"] /\ s' (0, 2) = Some ["# fast"; "b.jpg 0 fast"].
Proof.
  exists job2, tab2, (apply_puts (fst (process_img job2 tab2 [0] true "a.jpg")) no_files), ["b.jpg"].
  exists (apply_puts (fst (process_img job2 tab2 [0] false "b.jpg")) (apply_puts (fst (process_img job2 tab2 [0] true "a.jpg")) no_files)).
  split; [exact tab2_distinct|]. split.
  { intros id n c Hin Hc. do 3 eexists. split; reflexivity. }
  split; [|split; [|split; [|split; reflexivity]]].
  - apply (int_first _ _ _ _ _ _ ["a.jpg"]). split; [repeat constructor; intros []|]. split.
    + intros x [<-|[]]. simpl. auto.
    + exists (fst (process_img job2 tab2 [0] true "a.jpg")). split; [|reflexivity].
      exact (interleave_concat _ [fst (process_img job2 tab2 [0] true "a.jpg")]).
  - exists [1], ["b.jpg"]. split; [|split; [reflexivity|split; [reflexivity|repeat constructor; intros []]]].
    intros id. cbn -[Z.eqb]. unfold apply_put, no_files, rkey_eqb. cbn -[Z.eqb].
    destruct (1 =? id) eqn:E; simpl; [apply Z.eqb_eq in E|apply Z.eqb_neq in E]; intuition congruence.
  - split; [repeat constructor; intros []|]. split; [apply incl_refl|].
    exists (fst (process_img job2 tab2 [0] false "b.jpg")). split; [|reflexivity].
    exact (interleave_concat _ [fst (process_img job2 tab2 [0] false "b.jpg")]).
Qed.
Print Assumptions C23_restart_of_a_fit_run_mixes_formats_refuted.
