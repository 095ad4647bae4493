(** Step 2 with exact real distances. *)
From Coq Require Import List ZArith Lia Bool Permutation Reals Lra Rgeom.
From Verif Require Import Base Step2_Model Step2_Spec Step2_Proofs Step2_Match Step2_GeoSpec.
Import ListNotations.
Local Open Scope Z_scope.

Definition rgltb (a b : R) : bool := if Rlt_dec a b then true else false.

Lemma argmin_min : forall A (key : A -> R) l best b, In b (best :: l) ->
  (key (argmin_from rgltb key best l) <= key b)%R.
Proof.
  intros A key. induction l as [|a l IH]; intros best b Hb; simpl.
  - destruct Hb as [<-|[]]. lra.
  - unfold rgltb at 2. destruct (Rlt_dec (key a) (key best)) as [H|H].
    + destruct Hb as [<-|Hb]; [|apply IH; exact Hb].
      pose proof (IH a a (or_introl eq_refl)). lra.
    + destruct Hb as [<-|[<-|Hb]].
      * apply IH. left. reflexivity.
      * pose proof (IH best best (or_introl eq_refl)). lra.
      * apply IH. right. exact Hb.
Qed.

Lemma closest_min : forall node d l k x, find_closest_node real_geometry node d = Ok (l, k, x) ->
  forall e, In e d -> (edist node l <= edist node (snd e))%R.
Proof.
  intros node d l k x H e He. destruct d as [|e0 rest]; simpl in H; [discriminate|].
  injection H as <- <- <-.
  apply (argmin_min _ (fun e => edist node (snd e)) rest e0 e He).
Qed.

(** The neighbours are the closest LEDs: nothing left out is closer. *)
Lemma neighbours_closest : forall n led_loc d, NoDup (keys d) -> (n <= length d)%nat ->
  exists N, incl N d /\ NoDup (ids N) /\ length N = n /\
    neighbours_loop real_geometry n led_loc d = map (fun e => (fst e, edist led_loc (snd e))) N /\
    forall e f, In e N -> In f d -> ~ In f N -> (edist led_loc (snd e) <= edist led_loc (snd f))%R.
Proof.
  induction n as [|n IH]; intros led_loc d Hnd Hlen.
  - exists []. repeat split; try constructor; simpl; try tauto. intros x [].
  - destruct (find_closest_total real_geometry led_loc d) as (l & k & x & E).
    { intros ->. simpl in Hlen. lia. }
    pose proof (closest_min _ _ _ _ _ E) as Hmin.
    destruct (find_closest_In _ _ _ _ _ _ E) as [Hin ->].
    assert (Hk : In k (keys d)) by (change k with (fst (k, l)); apply in_map; exact Hin).
    pose proof (dict_del_length d k Hk) as Hl.
    destruct (IH led_loc (dict_del d k) (dict_del_nodup _ _ Hnd) ltac:(lia)) as (N & A & B & C & D & F).
    exists ((k, l) :: N). repeat split.
    + intros e [<-|He]; [exact Hin|]. eapply dict_del_In, A, He.
    + simpl. constructor; [|exact B]. intros H. unfold ids in H. apply in_map_iff in H.
      destruct H as (e & He & Hi). apply A in Hi.
      apply (dict_del_In_iff d k e Hnd) in Hi. tauto.
    + simpl. congruence.
    + cbn [neighbours_loop]. rewrite E, D. reflexivity.
    + intros e f [<-|He] Hf Hnf.
      * simpl. apply Hmin. exact Hf.
      * apply F; [exact He| |intros Hc; apply Hnf; right; exact Hc].
        apply dict_del_In_iff; [exact Hnd|]. split; [exact Hf|]. intros Hfk.
        apply Hnf. left. destruct f as [kf lf]. simpl in Hfk. subst kf.
        pose proof (dict_get_nodup _ _ _ Hnd Hf) as E1.
        pose proof (dict_get_nodup _ _ _ Hnd Hin) as E2. congruence.
Qed.

Lemma find_next_greedy : forall d rl ll k, NoDup (keys d) ->
  find_next_led real_geometry d 5 rl ll = Ok k -> greedy_choice d ll rl k.
Proof.
  intros d rl ll k Hnd H. unfold find_next_led in H.
  destruct d as [|e0 d0] eqn:Ed; [discriminate|]. rewrite <- Ed in *.
  unfold find_neighbour_leds in H.
  destruct (neighbours_closest (Nat.min 5 (length d)) ll d Hnd ltac:(lia)) as (N & A & B & C & D & F).
  rewrite D in H.
  assert (Em : mapM (fun e : Z * gD real_geometry =>
                  match dict_get d (fst e) with
                  | None => Err KeyError
                  | Some nl => Ok (fst e, gtotal real_geometry (gdist real_geometry rl nl) (snd e))
                  end) (map (fun e => (fst e, edist ll (snd e))) N)
    = Ok (map (fun e => (fst e, 987/1000 * edist rl (snd e) + edist ll (snd e))%R) N)).
  { clear - A Hnd. induction N as [|e N IH]; [reflexivity|].
    cbn [map mapM fst snd].
    assert (He : In e d) by (apply A; left; reflexivity).
    rewrite (dict_get_nodup d (fst e) (snd e) Hnd) by (rewrite <- surjective_pairing; exact He).
    cbn [bind]. rewrite IH; [reflexivity|]. intros x Hx. apply A. right. exact Hx. }
  rewrite Em in H. cbn [bind] in H.
  destruct N as [|n0 N0] eqn:EN; [discriminate|]. cbn [map] in H. rewrite <- EN in *.
  injection H as Hk.
  set (tot := fun e : row => (fst e, 987/1000 * edist rl (snd e) + edist ll (snd e))%R) in *.
  assert (Harg : forall l b, argmin_from rgltb snd (tot b) (map tot l) = tot (argmin_from rgltb (fun e => snd (tot e)) b l)).
  { induction l as [|a l IH]; intros b; simpl; [reflexivity|].
    destruct (rgltb _ _); apply IH. }
  change (gltb real_geometry) with rgltb in Hk.
  change (fst n0, (987/1000 * edist rl (snd n0) + edist ll (snd n0))%R) with (tot n0) in Hk.
  change (map (fun e : row => (fst e, (987/1000 * edist rl (snd e) + edist ll (snd e))%R)) N0) with (map tot N0) in Hk.
  rewrite Harg in Hk.
  set (best := argmin_from rgltb (fun e => snd (tot e)) n0 N0) in *.
  assert (Hbest : In best N).
  { rewrite EN. destruct (argmin_from_In _ _ rgltb (fun e => snd (tot e)) N0 n0) as [E|E]; [left; symmetry; exact E|right; exact E]. }
  exists (snd best), N. split; [|split; [exact A|split; [exact B|split; [exact C|split; [exact F|]]]]].
  - rewrite <- Hk. simpl. rewrite <- surjective_pairing. exact Hbest.
  - intros q Hq. rewrite EN in Hq.
    exact (argmin_min _ (fun e => snd (tot e)) N0 n0 q Hq).
Qed.

(** *** which LEDs are left when array [k] is processed *)

Lemma rest_dict : forall g max_n edges d arrays d', NoDup (keys d) ->
  match_all g max_n d edges = Ok (arrays, d') ->
  forall e, In e d' <-> In e d /\ ~ In (fst e) (concat arrays).
Proof.
  intros g max_n edges d arrays d' Hnd H e.
  destruct (match_all_partition g max_n _ _ _ _ Hnd H) as (A & B & C & D & F). split.
  - intros He. split; [apply F, He|]. intros Hin. apply (D _ Hin). apply in_map. exact He.
  - intros [He Hn]. assert (Hk : In (fst e) (keys d)) by (apply in_map; exact He).
    apply C in Hk. destruct Hk as [Hk|Hk]; [contradiction|].
    unfold keys in Hk. apply in_map_iff in Hk. destruct Hk as ([k v] & E & Hin). simpl in E. subst k.
    pose proof (dict_get_nodup _ _ _ Hnd (F _ Hin)) as E1.
    destruct e as [k w]. simpl in *.
    pose proof (dict_get_nodup _ _ _ Hnd He) as E2. congruence.
Qed.

Lemma match_all_nth : forall g max_n edges d arrays d', (0 < max_n)%nat -> NoDup (keys d) ->
  Forall is_pair edges -> match_all g max_n d edges = Ok (arrays, d') ->
  forall k a b arr, nth_error edges k = Some [a; b] -> nth_error arrays k = Some arr ->
  exists dk dk', NoDup (keys dk) /\
    (forall e, In e dk <-> In e d /\ ~ In (fst e) (concat (firstn k arrays))) /\
    match_one g max_n dk [a; b] = Ok (Some arr, dk').
Proof.
  intros g max_n edges. induction edges as [|ed edges IH]; intros d arrays d' Hm Hnd Hp H k a b arr Hk Ha.
  - destruct k; discriminate.
  - inversion Hp as [|? ? H1 H2]; subst.
    cbn [match_all] in H.
    destruct (match_one g max_n d ed) as [[o d1]|] eqn:E1; cbn [bind fst snd] in H; [|discriminate].
    destruct (match_all g max_n d1 edges) as [[as_ d2]|] eqn:E2; cbn [bind fst snd] in H; [|discriminate].
    injection H as <- <-.
    assert (Ho : exists x, o = Some x).
    { destruct ed as [|a0 [|b0 [|]]]; unfold is_pair in H1; simpl in H1; try lia.
      simpl in E1. destruct (dict_get d a0); [|discriminate]. destruct (dict_get d b0); [|discriminate].
      destruct (walk _ _ _ _ _ _ _ _ _ _); simpl in E1; [|discriminate]. injection E1 as <- _. eauto. }
    destruct Ho as [x ->].
    destruct k as [|k]; simpl in Hk, Ha.
    + injection Hk as ->. injection Ha as ->. exists d, d1. split; [exact Hnd|]. split; [|exact E1].
      intros e. simpl. tauto.
    + assert (Em : match_all g max_n d [ed] = Ok ([x], d1)) by (cbn [match_all]; rewrite E1; reflexivity).
      destruct (match_all_partition g max_n _ _ _ _ Hnd Em) as (_ & Hnd1 & _).
      destruct (IH d1 as_ d2 Hm Hnd1 H2 E2 k a b arr Hk Ha) as (dk & dk' & A & B & C).
      exists dk, dk'. split; [exact A|]. split; [|exact C].
      intros e. rewrite B, (rest_dict _ _ _ _ _ _ Hnd Em). simpl. rewrite app_nil_r, in_app_iff. tauto.
Qed.

(** *** straight arrays *)

Lemma last_default : forall A (l : list A) x y, l <> [] -> last l x = last l y.
Proof.
  induction l as [|a l IHl]; intros x y H; [congruence|]. destruct l as [|b l]; [reflexivity|].
  apply (IHl x y). discriminate.
Qed.

Lemma last_In : forall A (l : list A) x, l <> [] -> In (last l x) l.
Proof.
  induction l as [|a l IHl]; intros x H; [congruence|]. destruct l as [|b l]; [left; reflexivity|].
  right. apply (IHl x). discriminate.
Qed.

Local Open Scope R_scope.

Lemma edist_euc : forall p q, edist p q = dist_euc (IZR (fst p)) (IZR (snd p)) (IZR (fst q)) (IZR (snd q)).
Proof.
  intros p q. unfold edist, dist_euc. f_equal. rewrite plus_IZR, !mult_IZR, !minus_IZR.
  unfold Rsqr. ring.
Qed.

Lemma edist_triangle : forall p q r, edist p r <= edist p q + edist q r.
Proof. intros p q r. rewrite !edist_euc. apply triangle. Qed.

Lemma edist_sym : forall p q, edist p q = edist q p.
Proof. intros p q. unfold edist. do 2 f_equal. ring. Qed.

Lemma greedy_unique : forall avail cur edge k n pn, NoDup (ids avail) ->
  In (n, pn) avail ->
  edist cur pn + edist pn edge = edist cur edge ->
  (forall r, In r avail -> fst r <> n -> edist cur pn < edist cur (snd r)) ->
  greedy_choice avail cur edge k -> k = n.
Proof.
  intros avail cur edge k n pn Hnd Hin Hseg Hnear (p & N & H1 & H2 & H3 & H4 & H5 & H6).
  destruct (Z.eq_dec k n) as [|Hne]; [assumption|exfalso].
  pose proof (H2 _ H1) as Hk.
  pose proof (Hnear (k, p) Hk Hne) as Hlt. simpl in Hlt.
  assert (HnN : In (n, pn) N).
  { destruct (in_dec (fun x y : row => ltac:(decide equality; [decide equality; apply Z.eq_dec|apply Z.eq_dec])) (n, pn) N) as [Hi|Hi]; [exact Hi|].
    exfalso. pose proof (H5 (k, p) (n, pn) H1 Hin Hi) as Hle. simpl in Hle. lra. }
  pose proof (H6 _ HnN) as Hmin. simpl in Hmin.
  pose proof (edist_triangle cur p edge) as Ht.
  rewrite (edist_sym edge p), (edist_sym edge pn) in Hmin. lra.
Qed.

Local Open Scope Z_scope.

Lemma ids_firstn_In : forall (A : list row) i x, In x (ids (firstn i A)) -> In x (ids A).
Proof.
  intros A i x H. unfold ids in *. apply in_map_iff in H. destruct H as (e & He & Hi).
  rewrite <- He. apply in_map. rewrite <- (firstn_skipn i A). apply in_or_app. auto.
Qed.

(** The walk follows a straight array. *)
Lemma walk_straight : forall A rows used d fuel led ll z,
  NoDup (keys d) -> (length d <= fuel)%nat ->
  (forall e, In e d <-> In e rows /\ ~ In (fst e) used) ->
  (2 <= length ((led, ll) :: A))%nat ->
  incl ((led, ll) :: A) rows -> NoDup (used ++ ids ((led, ll) :: A)) ->
  last ((led, ll) :: A) (led, ll) = z ->
  straight_array rows used ((led, ll) :: A) (snd z) ->
  exists d', walk real_geometry 5 fuel d led ll (fst z) (snd z) [] (fst z)
             = Ok (ids ((led, ll) :: A), d').
Proof.
  induction A as [|[nid nl] A IH]; intros rows used d fuel led ll z Hnd Hfuel Hd Hlen Hincl Hnodup Hlast Hstr.
  { simpl in Hlen. lia. }
  assert (Hled : In (led, ll) d).
  { apply Hd. split; [apply Hincl; left; reflexivity|]. simpl. intros Hu.
    apply NoDup_app_inv in Hnodup. destruct Hnodup as (_ & _ & Hdis). apply (Hdis led Hu). left. reflexivity. }
  destruct fuel as [|fuel]; [destruct d; [destruct Hled|simpl in Hfuel; lia]|].
  assert (Hne : d <> []) by (intros ->; destruct Hled).
  rewrite (walk_pair_unfold _ _ _ _ _ _ _ _ Hne).
  rewrite (dict_get_nodup _ _ _ Hnd Hled). cbv zeta.
  set (d1 := dict_del d led).
  assert (Hnd1 : NoDup (keys d1)) by (apply dict_del_nodup; exact Hnd).
  assert (Hlk : In led (keys d)) by (change led with (fst (led, ll)); apply in_map; exact Hled).
  pose proof (dict_del_length d led Hlk) as Hdl. fold d1 in Hdl.
  assert (Hd1 : forall e, In e d1 <-> In e rows /\ ~ In (fst e) (used ++ [led])).
  { intros e. unfold d1. rewrite dict_del_In_iff by exact Hnd. rewrite Hd, in_app_iff. simpl.
    split; [intros [[A1 A2] A3]; split; [exact A1|]; intros [Hc|[Hc|[]]]; [contradiction|congruence]|].
    intros [A1 A2]. repeat split; auto. }
  apply NoDup_app_inv in Hnodup. destruct Hnodup as (N1 & N2 & N3).
  assert (Hn1 : In (nid, nl) d1).
  { apply Hd1. split; [apply Hincl; right; left; reflexivity|]. simpl. rewrite in_app_iff.
    intros [Hu|[Hu|[]]].
    - apply (N3 nid Hu). right. left. reflexivity.
    - subst. simpl in N2. inversion N2; subst. apply H1. left. reflexivity. }
  destruct (Hstr 0%nat (led, ll) (nid, nl) eq_refl eq_refl) as [Hseg Hnear]. simpl in Hseg, Hnear.
  assert (Hd1ne : d1 <> []) by (intros E; rewrite E in Hn1; destruct Hn1).
  destruct (find_next_ok real_geometry d1 5 (snd z) ll ltac:(lia) Hnd1 Hd1ne) as (k & Ek & Hkin).
  assert (k = nid).
  { apply (greedy_unique d1 ll (snd z) k nid nl Hnd1 Hn1 Hseg).
    - intros r Hr Hrn. apply Hd1 in Hr. apply Hnear; tauto.
    - apply find_next_greedy; assumption. }
  subst k. rewrite Ek, (dict_get_nodup _ _ _ Hnd1 Hn1).
  destruct A as [|e2 A].
  - simpl in Hlast. subst z. simpl. rewrite Z.eqb_refl. eauto.
  - assert (Hlast' : last ((nid, nl) :: e2 :: A) (nid, nl) = z).
    { rewrite <- Hlast. change (last ((led, ll) :: (nid, nl) :: e2 :: A) (led, ll)) with (last ((nid, nl) :: e2 :: A) (led, ll)).
      apply last_default. discriminate. }
    assert (Hzin : In (fst z) (ids (e2 :: A))).
    { unfold ids. apply in_map. rewrite <- Hlast'.
      change (last ((nid, nl) :: e2 :: A) (nid, nl)) with (last (e2 :: A) (nid, nl)).
      apply last_In. discriminate. }
    destruct (nid =? fst z) eqn:E.
    { apply Z.eqb_eq in E. exfalso. simpl in N2. inversion N2 as [|? ? _ N2']; subst.
      inversion N2' as [|? ? N4 _]; subst. apply N4. rewrite E. exact Hzin. }
    assert (Hstr' : straight_array rows (used ++ [led]) ((nid, nl) :: e2 :: A) (snd z)).
    { intros i p q Hp Hq. destruct (Hstr (S i) p q Hp Hq) as [S1 S2]. split; [exact S1|].
      intros r Hr Hn. apply S2; [exact Hr|]. rewrite <- app_assoc in Hn. exact Hn. }
    destruct (IH rows (used ++ [led]) d1 fuel nid nl z Hnd1 ltac:(lia) Hd1 ltac:(simpl; lia)) as (d' & Ew).
    + intros x Hx. apply Hincl. right. exact Hx.
    + rewrite <- app_assoc. simpl. apply NoDup_app_intro; assumption.
    + exact Hlast'.
    + exact Hstr'.
    + rewrite Ew. simpl. eauto.
Qed.

Lemma match_straight : forall arrays rows used d,
  NoDup (keys d) -> (forall e, In e d <-> In e rows /\ ~ In (fst e) used) ->
  NoDup (used ++ concat (map ids arrays)) ->
  (forall A, In A arrays -> incl A rows /\ (2 <= length A)%nat) ->
  (forall k A z, nth_error arrays k = Some A -> last A z = z -> In z A ->
     straight_array rows (used ++ concat (map ids (firstn k arrays))) A (snd z)) ->
  exists d', match_all real_geometry 5 d (map edge_labels arrays) = Ok (map ids arrays, d').
Proof.
  induction arrays as [|A arrays IH]; intros rows used d Hnd Hd Hnodup Hin Hstr.
  - simpl. eauto.
  - destruct (Hin A (or_introl eq_refl)) as [Hincl Hlen].
    destruct A as [|[led ll] A0]; [simpl in Hlen; lia|].
    set (A := (led, ll) :: A0) in *.
    assert (Hz : exists z, last A (led, ll) = z /\ last A z = z /\ In z A).
    { exists (last A (led, ll)). split; [reflexivity|].
      split; [apply last_default; discriminate|apply last_In; discriminate]. }
    destruct Hz as (z & Hz1 & Hz2 & Hz3).
    change (concat (map ids (A :: arrays))) with (ids A ++ concat (map ids arrays)) in Hnodup.
    pose proof Hnodup as Hnodup'.
    rewrite app_assoc in Hnodup'. apply NoDup_app_inv in Hnodup'. destruct Hnodup' as (M1 & M2 & M3).
    assert (HA0 : straight_array rows used A (snd z)).
    { pose proof (Hstr 0%nat A z eq_refl Hz2 Hz3) as H. simpl in H. rewrite app_nil_r in H. exact H. }
    assert (HinD : forall e, In e A -> In e d).
    { intros e He. apply Hd. split; [apply Hincl, He|]. intros Hu.
      apply NoDup_app_inv in M1. destruct M1 as (_ & _ & M1). apply (M1 _ Hu). apply in_map. exact He. }
    assert (Hzd : In z d) by (apply HinD, Hz3).
    assert (Hld : In (led, ll) d) by (apply HinD; left; reflexivity).
    destruct (walk_straight A0 rows used d (length d) led ll z Hnd ltac:(lia) Hd Hlen Hincl M1 Hz1 HA0) as (d1 & Ew).
    assert (E1 : match_one real_geometry 5 d (edge_labels A) = Ok (Some (ids A), d1)).
    { unfold edge_labels. fold A. unfold A at 1. cbn [fst]. rewrite Hz1. unfold match_one.
      rewrite (dict_get_nodup _ _ _ Hnd Hld).
      rewrite (dict_get_nodup d (fst z) (snd z) Hnd) by (rewrite <- surjective_pairing; exact Hzd).
      cbn [last]. rewrite Ew. reflexivity. }
    cbn [map match_all]. rewrite E1. cbn [bind fst snd].
    assert (Em : match_all real_geometry 5 d [edge_labels A] = Ok ([ids A], d1))
      by (cbn [match_all]; rewrite E1; reflexivity).
    destruct (match_all_partition _ _ _ _ _ _ Hnd Em) as (_ & Hnd1 & _).
    destruct (IH rows (used ++ ids A) d1 Hnd1) as (d' & E').
    + intros e. rewrite (rest_dict _ _ _ _ _ _ Hnd Em), Hd. cbn [concat]. rewrite app_nil_r, in_app_iff. tauto.
    + rewrite <- app_assoc. exact Hnodup.
    + intros B HB. apply Hin. right. exact HB.
    + intros k B y HB Hy1 Hy2. pose proof (Hstr (S k) B y HB Hy1 Hy2) as H.
      rewrite <- app_assoc. exact H.
    + rewrite E'. simpl. eauto.
Qed.
