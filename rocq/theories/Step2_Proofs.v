(** Proofs about step 2 (independent of the geometry). *)
From Coq Require Import List ZArith Lia Bool Permutation.
From Verif Require Import Base Step2_Model Step2_Spec.
Import ListNotations.
Local Open Scope Z_scope.

Definition keys (d : dict) : list Z := map fst d.

(** *** dictionaries *)

Lemma dict_nil_dec : forall d : dict, {d = []} + {d <> []}.
Proof. intros [|e d]; [left; reflexivity|right; discriminate]. Qed.

Lemma dict_get_In : forall d k v, dict_get d k = Some v -> In (k, v) d.
Proof.
  induction d as [|[k' v'] d IH]; simpl; intros k v H; [discriminate|].
  destruct (k' =? k) eqn:E; [apply Z.eqb_eq in E; injection H as <-; subst; auto|auto].
Qed.

Lemma dict_get_keys : forall d k, dict_get d k <> None <-> In k (keys d).
Proof.
  induction d as [|[k' v'] d IH]; simpl; intros k; [tauto|].
  destruct (k' =? k) eqn:E.
  - apply Z.eqb_eq in E. split; [auto|congruence].
  - apply Z.eqb_neq in E. rewrite IH. split; [auto|intros [?|?]; [congruence|auto]].
Qed.

Lemma dict_get_some_keys : forall d k v, dict_get d k = Some v -> In k (keys d).
Proof. intros. apply dict_get_keys. congruence. Qed.

Lemma dict_get_none_keys : forall d k, dict_get d k = None <-> ~ In k (keys d).
Proof.
  intros. rewrite <- dict_get_keys. destruct (dict_get d k); split; intros H; try congruence.
  exfalso. apply H. discriminate.
Qed.

Lemma dict_del_keys : forall d k, NoDup (keys d) ->
  forall x, In x (keys (dict_del d k)) <-> In x (keys d) /\ x <> k.
Proof.
  induction d as [|[k' v'] d IH]; simpl; intros k Hnd x; [tauto|].
  inversion Hnd as [|? ? Hni Hnd']; subst.
  destruct (k' =? k) eqn:E.
  - apply Z.eqb_eq in E. subst. split.
    + intros H. split; [auto|]. intros ->. auto.
    + intros [[?|?] ?]; [congruence|auto].
  - apply Z.eqb_neq in E. simpl. rewrite IH by auto. split.
    + intros [->|[? ?]]; auto.
    + intros [[->|?] ?]; auto.
Qed.

Lemma dict_del_nodup : forall d k, NoDup (keys d) -> NoDup (keys (dict_del d k)).
Proof.
  induction d as [|[k' v'] d IH]; simpl; intros k Hnd; [constructor|].
  inversion Hnd as [|? ? Hni Hnd']; subst.
  destruct (k' =? k) eqn:E; [auto|].
  simpl. constructor; [|auto]. fold (keys (dict_del d k)).
  rewrite dict_del_keys by auto. tauto.
Qed.

Lemma dict_del_length : forall d k, In k (keys d) -> length d = S (length (dict_del d k)).
Proof.
  induction d as [|[k' v'] d IH]; simpl; intros k H; [tauto|].
  destruct (k' =? k) eqn:E; [reflexivity|]. apply Z.eqb_neq in E.
  simpl. f_equal. apply IH. destruct H; [congruence|auto].
Qed.

Lemma dict_del_In : forall d k e, In e (dict_del d k) -> In e d.
Proof.
  induction d as [|[k' v'] d IH]; simpl; intros k e H; [tauto|].
  destruct (k' =? k); [auto|]. destruct H; [auto|right; eauto].
Qed.

Lemma dict_del_get_other : forall d k k', k <> k' -> dict_get (dict_del d k) k' = dict_get d k'.
Proof.
  induction d as [|[a v] d IH]; simpl; intros k k' H; [reflexivity|].
  destruct (a =? k) eqn:E1.
  - apply Z.eqb_eq in E1. subst. destruct (k =? k') eqn:E2; [apply Z.eqb_eq in E2; congruence|reflexivity].
  - simpl. destruct (a =? k'); [reflexivity|auto].
Qed.

Lemma dict_del_In_iff : forall d k e, NoDup (keys d) ->
  (In e (dict_del d k) <-> In e d /\ fst e <> k).
Proof.
  induction d as [|[k' v'] d IH]; simpl; intros k e Hnd; [tauto|].
  inversion Hnd as [|? ? Hni Hnd']; subst.
  destruct (k' =? k) eqn:E.
  - apply Z.eqb_eq in E. subst. split.
    + intros H. split; [auto|]. intros He. apply Hni. rewrite <- He. apply in_map. exact H.
    + intros [[<-|H] Hn]; [simpl in Hn; congruence|auto].
  - apply Z.eqb_neq in E. simpl. rewrite IH by auto. split.
    + intros [<-|[? ?]]; simpl; auto.
    + intros [[<-|?] ?]; auto.
Qed.

Lemma dict_get_nodup : forall d k v, NoDup (keys d) -> In (k, v) d -> dict_get d k = Some v.
Proof.
  induction d as [|[k' v'] d IH]; simpl; intros k v Hnd H; [tauto|].
  inversion Hnd as [|? ? Hni Hnd']; subst. destruct H as [E|H].
  - injection E as -> ->. rewrite Z.eqb_refl. reflexivity.
  - destruct (k' =? k) eqn:E; [|auto]. apply Z.eqb_eq in E. subst.
    exfalso. apply Hni. change k with (fst (k, v)). apply in_map. exact H.
Qed.

Lemma dict_set_keys : forall d k v x, In x (keys (dict_set d k v)) <-> In x (keys d) \/ x = k.
Proof.
  induction d as [|[k' v'] d IH]; simpl; intros k v x; [intuition|].
  destruct (k' =? k) eqn:E; simpl.
  - apply Z.eqb_eq in E. subst. intuition.
  - rewrite IH. intuition.
Qed.

Lemma dict_set_nodup : forall d k v, NoDup (keys d) -> NoDup (keys (dict_set d k v)).
Proof.
  induction d as [|[k' v'] d IH]; simpl; intros k v H; [repeat constructor; auto|].
  inversion H as [|? ? Hni Hnd]; subst.
  destruct (k' =? k) eqn:E; simpl; [constructor; auto|].
  constructor; [|auto]. fold (keys (dict_set d k v)). rewrite dict_set_keys.
  apply Z.eqb_neq in E. intuition.
Qed.

Lemma dict_set_fresh : forall d k v, ~ In k (keys d) -> dict_set d k v = d ++ [(k, v)].
Proof.
  induction d as [|[k' v'] d IH]; simpl; intros k v H; [reflexivity|].
  destruct (k' =? k) eqn:E; [apply Z.eqb_eq in E; tauto|]. rewrite IH; tauto.
Qed.

Lemma dict_of_rows_gen : forall rows d, NoDup (keys d) ->
  NoDup (keys (fold_left (fun d r => dict_set d (fst r) (snd r)) rows d)) /\
  forall x, In x (keys (fold_left (fun d r => dict_set d (fst r) (snd r)) rows d))
            <-> In x (keys d) \/ In x (ids rows).
Proof.
  induction rows as [|[k v] rows IH]; intros d Hnd; simpl; [intuition|].
  destruct (IH (dict_set d k v) (dict_set_nodup _ _ _ Hnd)) as [A B]. split; [exact A|].
  intros x. rewrite B, dict_set_keys. intuition.
Qed.

Lemma dict_of_rows_nodup : forall rows, NoDup (keys (dict_of_rows rows)).
Proof. intros. apply dict_of_rows_gen. constructor. Qed.

Lemma dict_of_rows_keys : forall rows x, In x (keys (dict_of_rows rows)) <-> In x (ids rows).
Proof.
  intros. unfold dict_of_rows. destruct (dict_of_rows_gen rows [] ltac:(constructor)) as [_ B].
  rewrite B. simpl. tauto.
Qed.

(** With unique ids the dictionary is the table itself. *)
Lemma dict_of_rows_id : forall rows, NoDup (ids rows) -> dict_of_rows rows = rows.
Proof.
  intros rows H. unfold dict_of_rows.
  assert (G : forall rows d, NoDup (keys d ++ ids rows) ->
     fold_left (fun d (r : row) => dict_set d (fst r) (snd r)) rows d = d ++ rows).
  { clear. induction rows as [|[k v] rows IH]; intros d Hnd; simpl; [rewrite app_nil_r; reflexivity|].
    rewrite dict_set_fresh.
    - rewrite IH.
      + rewrite <- app_assoc. reflexivity.
      + unfold keys. rewrite map_app, <- app_assoc. exact Hnd.
    - apply NoDup_remove_2 in Hnd. intros Hin. apply Hnd. apply in_or_app. auto. }
  apply (G rows []). exact H.
Qed.

Lemma drop_ignored_spec : forall ig d, NoDup (keys d) ->
  NoDup (keys (drop_ignored d ig)) /\
  forall x, In x (keys (drop_ignored d ig)) <->
            In x (keys d) /\ ~ (exists l, ig = Some l /\ In x l).
Proof.
  intros [l|] d Hnd; simpl.
  - revert d Hnd. induction l as [|k l IH]; intros d Hnd; simpl.
    + split; [auto|]. intros x. split; [intros H; split; [auto|intros (l & E & Hin); injection E as <-; destruct Hin]|tauto].
    + destruct (IH (dict_del d k) (dict_del_nodup _ _ Hnd)) as [A B]. split; [exact A|].
      intros x. rewrite B, dict_del_keys by exact Hnd. split.
      * intros [[H1 H2] H3]. split; [auto|]. intros (l' & E & Hin). injection E as <-.
        destruct Hin as [->|Hin]; [congruence|]. apply H3. eauto.
      * intros [H1 H2]. repeat split; auto.
        -- intros ->. apply H2. exists (k :: l). simpl; auto.
        -- intros (l' & E & Hin). injection E as <-. apply H2. exists (k :: l). simpl; auto.
  - split; [auto|]. intros x. split; [intros H; split; [auto|intros (l & E & _); discriminate]|tauto].
Qed.

(** *** argmin *)

Lemma argmin_from_In : forall A K ltb (key : A -> K) l best,
  argmin_from ltb key best l = best \/ In (argmin_from ltb key best l) l.
Proof.
  intros A K ltb key. induction l as [|a l IH]; intros best; simpl; [auto|].
  destruct (ltb (key a) (key best)).
  - destruct (IH a) as [->|H]; auto.
  - destruct (IH best) as [->|H]; auto.
Qed.

Lemma find_closest_In : forall g node d l k x, find_closest_node g node d = Ok (l, k, x) ->
  In (k, l) d /\ x = gdist g node l.
Proof.
  intros g node d l k x H. destruct d as [|e rest]; simpl in H; [discriminate|].
  injection H as <- <- <-.
  destruct (argmin_from_In _ _ (gltb g) (fun e => gdist g node (snd e)) rest e) as [E|E].
  - rewrite E. destruct e. simpl. auto.
  - split; [right|reflexivity]. rewrite <- surjective_pairing. exact E.
Qed.

Lemma find_closest_total : forall g node d, d <> [] ->
  exists l k x, find_closest_node g node d = Ok (l, k, x).
Proof. intros g node [|e rest] H; [congruence|]. simpl. eauto. Qed.

Lemma neighbours_spec : forall g n led_loc d, NoDup (keys d) -> (n <= length d)%nat ->
  length (neighbours_loop g n led_loc d) = n /\
  NoDup (map fst (neighbours_loop g n led_loc d)) /\
  forall k dn, In (k, dn) (neighbours_loop g n led_loc d) ->
     exists l, In (k, l) d /\ dn = gdist g led_loc l.
Proof.
  intros g. induction n as [|n IH]; intros led_loc d Hnd Hlen; simpl.
  - repeat split; [constructor|tauto].
  - destruct (find_closest_total g led_loc d) as (l & k & x & E).
    { intros ->. simpl in Hlen. lia. }
    rewrite E. destruct (find_closest_In _ _ _ _ _ _ E) as [Hin ->].
    assert (Hk : In k (keys d)) by (change k with (fst (k, l)); apply in_map; exact Hin).
    pose proof (dict_del_length d k Hk) as Hl.
    destruct (IH led_loc (dict_del d k) (dict_del_nodup _ _ Hnd) ltac:(lia)) as (A & B & C).
    simpl. rewrite A. split; [reflexivity|]. split.
    + constructor; [|exact B]. intros H. apply in_map_iff in H. destruct H as ([k' dn] & E' & H).
      simpl in E'. subst k'. destruct (C _ _ H) as (l' & Hl' & _).
      apply (dict_del_In_iff d k (k, l') Hnd) in Hl'. simpl in Hl'. tauto.
    + intros k' dn [E'|H].
      * injection E' as <- <-. exists l. auto.
      * destruct (C _ _ H) as (l' & Hl' & ->). exists l'. split; [|reflexivity].
        eapply dict_del_In; eauto.
Qed.

Lemma mapM_ok : forall A B (f : A -> res B) l, (forall a, In a l -> exists b, f a = Ok b) ->
  exists bs, mapM f l = Ok bs /\ Forall2 (fun a b => f a = Ok b) l bs.
Proof.
  intros A B f. induction l as [|a l IH]; intros H; simpl.
  - exists []. split; [reflexivity|constructor].
  - destruct (H a (or_introl eq_refl)) as [b Hb]. rewrite Hb. simpl.
    destruct IH as (bs & E & F); [intros; apply H; right; assumption|].
    rewrite E. simpl. exists (b :: bs). split; [reflexivity|constructor; assumption].
Qed.

Lemma mapM_Forall2 : forall A B (f : A -> res B) l bs, mapM f l = Ok bs ->
  Forall2 (fun a b => f a = Ok b) l bs.
Proof.
  intros A B f. induction l as [|a l IH]; intros bs H; simpl in H.
  - injection H as <-. constructor.
  - destruct (f a) eqn:E; simpl in H; [|discriminate].
    destruct (mapM f l) eqn:E2; simpl in H; [|discriminate]. injection H as <-.
    constructor; auto.
Qed.

Lemma find_next_ok : forall g d max_n rl ll, (0 < max_n)%nat -> NoDup (keys d) -> d <> [] ->
  exists k, find_next_led g d max_n rl ll = Ok k /\ In k (keys d).
Proof.
  intros g d max_n rl ll Hm Hnd Hne. unfold find_next_led.
  destruct d as [|e d0] eqn:Ed; [congruence|]. rewrite <- Ed in *. clear Ed.
  assert (Hlen : (0 < length d)%nat) by (destruct d; [congruence|simpl; lia]).
  unfold find_neighbour_leds.
  destruct (neighbours_spec g (Nat.min max_n (length d)) ll d Hnd ltac:(lia)) as (A & B & C).
  set (ns := neighbours_loop g (Nat.min max_n (length d)) ll d) in *.
  match goal with |- context [mapM ?f ns] => set (ff := f) end.
  destruct (mapM_ok _ _ ff ns) as (bs & E & F).
  { intros [k dn] Hin. destruct (C _ _ Hin) as (l & Hl & _). unfold ff. cbn [fst].
    rewrite (dict_get_nodup _ _ _ Hnd Hl). eauto. }
  rewrite E. simpl.
  destruct bs as [|t ts].
  { inversion F as [H|]. rewrite <- H in A. simpl in A. lia. }
  exists (fst (argmin_from (gltb g) snd t ts)). split; [reflexivity|].
  assert (Hin : In (argmin_from (gltb g) snd t ts) (t :: ts)).
  { destruct (argmin_from_In _ _ (gltb g) snd ts t) as [->|H]; simpl; auto. }
  assert (G : forall b, In b (t :: ts) -> In (fst b) (keys d)).
  { intros b Hb. clear - F Hb.
    induction F as [|a b' l bs Hab F IH]; [destruct Hb|]. destruct Hb as [<-|Hb]; [|auto].
    unfold ff in Hab. destruct (dict_get d (fst a)) eqn:E; [|discriminate].
    injection Hab as <-. simpl. eapply dict_get_some_keys; eauto. }
  apply G, Hin.
Qed.

(** *** the walk *)

Section Walk.
Variable g : geometry.
Variable max_n : nat.
Hypothesis Hmax : (0 < max_n)%nat.

(** Whatever the walk returns is a duplicate-free part of the dictionary, and
    the remaining dictionary holds exactly the rest. *)
Lemma walk_partition : forall fuel d led ll ref rl refs last a d',
  NoDup (keys d) ->
  walk g max_n fuel d led ll ref rl refs last = Ok (a, d') ->
  NoDup a /\ NoDup (keys d') /\
  (forall x, In x (keys d) <-> In x a \/ In x (keys d')) /\
  (forall x, In x a -> ~ In x (keys d')) /\
  (forall e, In e d' -> In e d).
Proof.
  induction fuel as [|fuel IH]; intros d led ll ref rl refs last a d' Hnd H.
  - destruct d; simpl in H; [|discriminate]. injection H as <- <-. simpl.
    repeat split; try constructor; tauto.
  - destruct d as [|e0 d0] eqn:Ed.
    { simpl in H. injection H as <- <-. simpl. repeat split; try constructor; tauto. }
    rewrite <- Ed in *. assert (Hd : d <> []) by congruence.
    assert (Hw : walk g max_n (S fuel) d led ll ref rl refs last =
      match dict_get d led with
      | None => Err KeyError
      | Some _ =>
        let d1 := dict_del d led in
        match find_next_led g d1 max_n rl ll with
        | Err KeyError | Err ValueError => Ok ([led], d1)
        | Err e => Err e
        | Ok nid =>
          match dict_get d1 nid with
          | None => Ok ([led], d1)
          | Some nloc =>
            if nid =? last then Ok ([led; nid], dict_del d1 nid)
            else if nid =? ref then
              match refs with
              | [] => Ok ([led], d1)
              | ref' :: refs' =>
                match dict_get d1 ref' with
                | None => Ok ([led], d1)
                | Some rloc' =>
                  res_map (fun p => (led :: fst p, snd p))
                          (walk g max_n fuel d1 nid nloc ref' rloc' refs' last)
                end
              end
            else
              res_map (fun p => (led :: fst p, snd p))
                      (walk g max_n fuel d1 nid nloc ref rl refs last)
          end
        end
      end).
    { destruct d; [congruence|reflexivity]. }
    rewrite Hw in H. clear Hw Ed e0 d0.
    destruct (dict_get d led) as [lv|] eqn:Eg; [|discriminate].
    apply dict_get_some_keys in Eg.
    set (d1 := dict_del d led) in *. cbv zeta in H.
    assert (Hnd1 : NoDup (keys d1)) by (apply dict_del_nodup; exact Hnd).
    assert (Hk1 : forall x, In x (keys d1) <-> In x (keys d) /\ x <> led)
      by (intros; apply dict_del_keys; exact Hnd).
    assert (Hbase : NoDup [led] /\ NoDup (keys d1) /\
       (forall x, In x (keys d) <-> In x [led] \/ In x (keys d1)) /\
       (forall x, In x [led] -> ~ In x (keys d1)) /\ (forall e, In e d1 -> In e d)).
    { repeat split; auto.
      - constructor; [simpl; tauto|constructor].
      - intros Hx. rewrite Hk1. destruct (Z.eq_dec x led); [left; simpl; auto|right; auto].
      - intros [[<-|[]]|Hx]; [exact Eg|]. rewrite Hk1 in Hx. tauto.
      - intros x [<-|[]]. rewrite Hk1. tauto.
      - intros e He. eapply dict_del_In. exact He. }
    assert (Hrec : forall fuel d2 nid nl rf rfl rfs a0 d0,
      d2 = d1 ->
      walk g max_n fuel d2 nid nl rf rfl rfs last = Ok (a0, d0) ->
      (NoDup a0 /\ NoDup (keys d0) /\
      (forall x, In x (keys d2) <-> In x a0 \/ In x (keys d0)) /\
      (forall x, In x a0 -> ~ In x (keys d0)) /\ (forall e, In e d0 -> In e d2)) ->
      NoDup (led :: a0) /\ NoDup (keys d0) /\
      (forall x, In x (keys d) <-> In x (led :: a0) \/ In x (keys d0)) /\
      (forall x, In x (led :: a0) -> ~ In x (keys d0)) /\ (forall e, In e d0 -> In e d)).
    { intros f d2 nid nl rf rfl rfs a0 d0 -> _ (A & B & C & D & E). repeat split; auto.
      - constructor; [|exact A]. intros Hin. assert (In led (keys d1)) by (apply C; auto).
        rewrite Hk1 in H0. tauto.
      - intros Hx. destruct (Z.eq_dec x led); [left; left; auto|].
        assert (In x (keys d1)) by (rewrite Hk1; auto). apply C in H0. simpl. tauto.
      - intros Hx. assert (Hx' : x = led \/ In x (keys d1)).
        { simpl in Hx. rewrite C. destruct Hx as [[->|]|]; auto. }
        destruct Hx' as [->|Hx']; [exact Eg|]. rewrite Hk1 in Hx'. tauto.
      - intros x [<-|Hx]; [|auto]. intros Hin. assert (In led (keys d1)) by (apply C; auto).
        rewrite Hk1 in H0. tauto.
      - intros e He. eapply dict_del_In. apply E. exact He. }
    destruct (find_next_led g d1 max_n rl ll) as [nid|er] eqn:En.
    2:{ destruct er; try discriminate; injection H as <- <-; exact Hbase. }
    destruct (dict_get d1 nid) as [nl|] eqn:Egn; [|injection H as <- <-; exact Hbase].
    destruct (nid =? last) eqn:El.
    { injection H as <- <-. apply dict_get_some_keys in Egn.
      assert (Hkk : forall x, In x (keys (dict_del d1 nid)) <-> In x (keys d1) /\ x <> nid)
        by (intros; apply dict_del_keys; exact Hnd1).
      assert (Hne : led <> nid) by (intros ->; rewrite Hk1 in Egn; tauto).
      repeat split.
      - constructor; [simpl; intros [?|[]]; congruence|]. constructor; [simpl; tauto|constructor].
      - apply dict_del_nodup. exact Hnd1.
      - intros Hx. rewrite Hkk, Hk1. simpl.
        destruct (Z.eq_dec x led); [auto|]. destruct (Z.eq_dec x nid); [auto|]. right. auto.
      - rewrite Hkk, Hk1. simpl. intros [[<-|[<-|[]]]|Hx]; [exact Eg| |tauto].
        rewrite Hk1 in Egn. tauto.
      - intros x [<-|[<-|[]]]; rewrite Hkk; [rewrite Hk1|]; tauto.
      - intros e He. eapply dict_del_In, dict_del_In. exact He. }
    destruct (nid =? ref) eqn:Er.
    + destruct refs as [|ref' refs']; [injection H as <- <-; exact Hbase|].
      destruct (dict_get d1 ref') as [rl'|] eqn:Egr; [|injection H as <- <-; exact Hbase].
      destruct (walk g max_n fuel d1 nid nl ref' rl' refs' last) as [[a0 d0]|] eqn:Ew; simpl in H; [|discriminate].
      injection H as <- <-. eapply Hrec; [reflexivity|exact Ew|]. eapply IH; eauto.
    + destruct (walk g max_n fuel d1 nid nl ref rl refs last) as [[a0 d0]|] eqn:Ew; simpl in H; [|discriminate].
      injection H as <- <-. eapply Hrec; [reflexivity|exact Ew|]. eapply IH; eauto.
Qed.

(** The walk for an edge pair ([refs = []], [last = ref]). *)
Lemma walk_pair_unfold : forall fuel d led ll ref rl,
  d <> [] ->
  walk g max_n (S fuel) d led ll ref rl [] ref =
  match dict_get d led with
  | None => Err KeyError
  | Some _ =>
    let d1 := dict_del d led in
    match find_next_led g d1 max_n rl ll with
    | Err KeyError | Err ValueError => Ok ([led], d1)
    | Err e => Err e
    | Ok nid =>
      match dict_get d1 nid with
      | None => Ok ([led], d1)
      | Some nloc =>
        if nid =? ref then Ok ([led; nid], dict_del d1 nid)
        else res_map (fun p => (led :: fst p, snd p))
                     (walk g max_n fuel d1 nid nloc ref rl [] ref)
      end
    end
  end.
Proof.
  intros fuel d led ll ref rl Hd. destruct d; [congruence|]. cbn [walk]. cbv zeta.
  destruct (dict_get _ led); [|reflexivity].
  destruct (find_next_led _ _ _ _ _) as [nid|]; [|reflexivity].
  destruct (dict_get _ nid); [|reflexivity].
  destruct (nid =? ref); reflexivity.
Qed.

(** With distinct labels, both present, the walk succeeds, starts at the first
    label and ends at the second. *)
Lemma walk_pair_ok : forall fuel d led ll ref rl,
  NoDup (keys d) -> (length d <= fuel)%nat ->
  In led (keys d) -> In ref (keys d) -> led <> ref ->
  exists a d', walk g max_n fuel d led ll ref rl [] ref = Ok (a, d') /\
               hd_error a = Some led /\ List.last a 0 = ref /\ (2 <= length a)%nat.
Proof.
  induction fuel as [|fuel IH]; intros d led ll ref rl Hnd Hlen Hl Hr Hne.
  - destruct d; [destruct Hl|simpl in Hlen; lia].
  - assert (Hd : d <> []) by (intros ->; destruct Hl).
    rewrite (walk_pair_unfold _ _ _ _ _ _ Hd).
    destruct (dict_get d led) eqn:Eg; [|apply dict_get_none_keys in Eg; contradiction].
    cbv zeta. set (d1 := dict_del d led).
    assert (Hnd1 : NoDup (keys d1)) by (apply dict_del_nodup; exact Hnd).
    assert (Hr1 : In ref (keys d1)) by (apply dict_del_keys; auto).
    assert (Hd1 : d1 <> []) by (intros E; rewrite E in Hr1; destruct Hr1).
    destruct (find_next_ok g d1 max_n rl ll Hmax Hnd1 Hd1) as (nid & En & Hin). rewrite En.
    destruct (dict_get d1 nid) as [nl|] eqn:Egn; [|apply dict_get_none_keys in Egn; contradiction].
    destruct (nid =? ref) eqn:E.
    + apply Z.eqb_eq in E. subst. exists [led; ref], (dict_del d1 ref). simpl. auto.
    + apply Z.eqb_neq in E.
      pose proof (dict_del_length d led Hl) as Hdl. fold d1 in Hdl.
      destruct (IH d1 nid nl ref rl Hnd1 ltac:(lia) Hin Hr1 E) as (a & d' & Ew & H1 & H2 & H3).
      rewrite Ew. simpl. exists (led :: a), d'. split; [reflexivity|]. split; [reflexivity|].
      split; [|simpl; lia]. destruct a; [simpl in H3; lia|]. exact H2.
Qed.

(** With equal labels the walk consumes the whole dictionary. *)
Lemma walk_same_label : forall fuel d led ll ref rl,
  NoDup (keys d) -> (length d <= fuel)%nat -> In led (keys d) ->
  (led = ref \/ ~ In ref (keys d)) ->
  exists a, walk g max_n fuel d led ll ref rl [] ref = Ok (a, []) /\
            hd_error a = Some led /\ Permutation a (keys d).
Proof.
  induction fuel as [|fuel IH]; intros d led ll ref rl Hnd Hlen Hl Hr.
  - destruct d; [destruct Hl|simpl in Hlen; lia].
  - assert (Hd : d <> []) by (intros ->; destruct Hl).
    rewrite (walk_pair_unfold _ _ _ _ _ _ Hd).
    destruct (dict_get d led) eqn:Eg; [|apply dict_get_none_keys in Eg; contradiction].
    cbv zeta. set (d1 := dict_del d led).
    assert (Hnd1 : NoDup (keys d1)) by (apply dict_del_nodup; exact Hnd).
    assert (Hr1 : ~ In ref (keys d1)).
    { unfold d1. rewrite dict_del_keys by auto. destruct Hr as [->|Hr]; tauto. }
    pose proof (dict_del_length d led Hl) as Hdl. fold d1 in Hdl.
    assert (Hperm : Permutation (keys d) (led :: keys d1)).
    { apply NoDup_Permutation; [auto| |].
      - constructor; [|auto]. unfold d1. rewrite dict_del_keys by auto. tauto.
      - intros x. simpl. unfold d1. rewrite dict_del_keys by auto.
        destruct (Z.eq_dec led x); [subst; tauto|]. split; [intros; right; auto|intros [?|[? ?]]; congruence]. }
    destruct (dict_nil_dec d1)
      as [E|E].
    + unfold find_next_led. rewrite E. simpl. exists [led]. split; [reflexivity|]. split; [reflexivity|].
      rewrite Hperm, E. reflexivity.
    + destruct (find_next_ok g d1 max_n rl ll Hmax Hnd1 E) as (nid & En & Hin). rewrite En.
      destruct (dict_get d1 nid) as [nl|] eqn:Egn; [|apply dict_get_none_keys in Egn; contradiction].
      destruct (nid =? ref) eqn:E2; [apply Z.eqb_eq in E2; subst; contradiction|].
      destruct (IH d1 nid nl ref rl Hnd1 ltac:(lia) Hin (or_intror Hr1)) as (a & Ew & H1 & H2).
      rewrite Ew. simpl. exists (led :: a). split; [reflexivity|]. split; [reflexivity|].
      rewrite Hperm. constructor. exact H2.
Qed.

(** The walk never runs out of fuel and never raises, for any label list. *)
Lemma walk_total : forall fuel d led ll ref rl refs last,
  NoDup (keys d) -> (length d <= fuel)%nat -> In led (keys d) ->
  exists p, walk g max_n fuel d led ll ref rl refs last = Ok p.
Proof.
  induction fuel as [|fuel IH]; intros d led ll ref rl refs last Hnd Hlen Hl.
  - destruct d; [destruct Hl|simpl in Hlen; lia].
  - destruct d as [|e0 d0] eqn:Ed; [destruct Hl|]. rewrite <- Ed in *.
    pose proof (dict_del_length d led Hl) as Hdl.
    assert (Hnd1 : NoDup (keys (dict_del d led))) by (apply dict_del_nodup; exact Hnd).
    assert (Hg : dict_get d led <> None) by (apply dict_get_keys; exact Hl).
    rewrite Ed. cbn [walk]. rewrite <- Ed.
    destruct (dict_get d led) eqn:Eg; [|congruence]. cbv zeta.
    destruct (dict_nil_dec (dict_del d led))
      as [E|E].
    + unfold find_next_led. rewrite E. eauto.
    + destruct (find_next_ok g _ max_n rl ll Hmax Hnd1 E) as (nid & En & Hin). rewrite En.
      destruct (dict_get (dict_del d led) nid) as [nl|] eqn:Egn; [|eauto].
      destruct (nid =? last); [eauto|].
      destruct (nid =? ref).
      * destruct refs as [|r' refs']; [eauto|]. destruct (dict_get (dict_del d led) r') as [rl'|]; [|eauto].
        destruct (IH (dict_del d led) nid nl r' rl' refs' last Hnd1 ltac:(lia) Hin) as (p & Ep).
        rewrite Ep. simpl. eauto.
      * destruct (IH (dict_del d led) nid nl ref rl refs last Hnd1 ltac:(lia) Hin) as (p & Ep).
        rewrite Ep. simpl. eauto.
Qed.

(** *** all arrays *)

Lemma match_all_partition : forall edges d arrays d',
  NoDup (keys d) -> match_all g max_n d edges = Ok (arrays, d') ->
  NoDup (concat arrays) /\ NoDup (keys d') /\
  (forall x, In x (keys d) <-> In x (concat arrays) \/ In x (keys d')) /\
  (forall x, In x (concat arrays) -> ~ In x (keys d')) /\ (forall e, In e d' -> In e d).
Proof.
  induction edges as [|e es IH]; intros d arrays d' Hnd H; simpl in H.
  - injection H as <- <-. simpl. repeat split; try constructor; tauto.
  - destruct (match_one g max_n d e) as [[o d1]|] eqn:E1; simpl in H; [|discriminate].
    destruct (match_all g max_n d1 es) as [[as_ d2]|] eqn:E2; simpl in H; [|discriminate].
    injection H as <- <-.
    destruct e as [|led [|ref refs]].
    + injection E1 as <- <-. eapply IH; eauto.
    + injection E1 as <- <-. eapply IH; eauto.
    + unfold match_one in E1. destruct (dict_get d led) as [ll|]; [|discriminate].
      destruct (dict_get d ref) as [rl|]; [|discriminate].
      destruct (walk g max_n (length d) d led ll ref rl refs (List.last (led :: ref :: refs) 0))
        as [[a dd]|] eqn:Ew; simpl in E1; [|discriminate].
      injection E1 as <- <-.
      destruct (walk_partition _ _ _ _ _ _ _ _ _ _ Hnd Ew) as (A & B & C & D & F).
      destruct (IH _ _ _ B E2) as (A' & B' & C' & D' & F').
      simpl. repeat split; auto.
      * apply NoDup_app_intro; auto. intros x Hx Hx'. apply (D x Hx). apply C'. auto.
      * intros Hx. apply C in Hx. destruct Hx as [Hx|Hx]; [left; apply in_or_app; auto|].
        apply C' in Hx. destruct Hx; [left; apply in_or_app; auto|auto].
      * intros Hx. apply C. destruct Hx as [Hx|Hx].
        -- apply in_app_or in Hx. destruct Hx; [auto|]. right. apply C'. auto.
        -- right. apply C'. auto.
      * intros x Hx Hx'. apply in_app_or in Hx. destruct Hx as [Hx|Hx].
        -- apply (D x Hx). apply C'. auto.
        -- apply (D' x Hx Hx').
Qed.
End Walk.
