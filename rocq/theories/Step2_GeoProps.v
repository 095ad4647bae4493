(** Properties C09 and C10: the geometry of the walk (exact reals). *)
From Coq Require Import List ZArith Lia Bool Permutation Reals Lra.
From Verif Require Import Base Step2_Model Step2_Spec Step2_Proofs Step2_Match Step2_GeoSpec Step2_Geometry.
Import ListNotations.
Local Open Scope Z_scope.

(** ** C09 *)

Theorem C09_next_led_is_greedy :
  forall rows edges arrays,
  NoDup (ids rows) -> Forall (fun l => length l = 2%nat) edges ->
  match_leds_to_led_arrays real_geometry 5 rows edges [] None = Ok arrays ->
  forall k a b arr, nth_error edges k = Some [a; b] -> nth_error arrays k = Some arr ->
  forall i c n, nth_error arr i = Some c -> nth_error arr (S i) = Some n ->
  exists avail pc pb,
    has_loc rows c pc /\ has_loc rows b pb /\ NoDup (ids avail) /\
    (forall e, In e avail <->
       In e rows /\ ~ In (fst e) (concat (firstn k arrays) ++ firstn (S i) arr)) /\
    greedy_choice avail pc pb n.
Proof.
  intros rows edges arrays Hnd Hp H k a b arr Hk Ha i c n Hc Hn.
  rewrite match_leds_no_ignore in H. unfold start_dict in H. simpl in H.
  rewrite (dict_of_rows_id rows Hnd) in H.
  destruct (match_all real_geometry 5 rows edges) as [[w d']|] eqn:E; simpl in H; [|discriminate].
  injection H as ->.
  destruct (match_all_nth real_geometry 5 edges rows arrays d' ltac:(lia) Hnd Hp E k a b arr Hk Ha) as (dk & dk' & A & B & C).
  unfold match_one in C.
  destruct (dict_get dk a) as [la|] eqn:Ea; [|discriminate].
  destruct (dict_get dk b) as [lb|] eqn:Eb; [|discriminate]. cbn [last] in C.
  destruct (walk real_geometry 5 (length dk) dk a la b lb [] b) as [[a0 d0]|] eqn:Ew; simpl in C; [|discriminate].
  injection C as -> ->.
  destruct (walk_steps _ _ _ _ _ _ _ _ _ _ A (dict_get_In _ _ _ Ea) Ew i c n Hc Hn) as (di & lc & D1 & D2 & D3 & D4).
  exists di, lc, lb. split; [apply B in D3; tauto|]. split; [apply dict_get_In, B in Eb; tauto|].
  split; [exact D1|]. split; [|apply find_next_greedy; assumption].
  intros e. rewrite D2, B, in_app_iff. tauto.
Qed.
Print Assumptions C09_next_led_is_greedy.

(** ** C10 *)

Theorem C10_straight_arrays_recovered :
  forall rows (arrays : list (list row)),
  NoDup (ids rows) -> NoDup (concat (map ids arrays)) ->
  (forall A, In A arrays -> incl A rows /\ (2 <= length A)%nat) ->
  (forall k A z, nth_error arrays k = Some A -> last A z = z -> In z A ->
     straight_array rows (concat (map ids (firstn k arrays))) A (snd z)) ->
  match_leds_to_led_arrays real_geometry 5 rows (map edge_labels arrays) [] None
  = Ok (map ids arrays).
Proof.
  intros rows arrays Hnd Hnd2 Hin Hstr. rewrite match_leds_no_ignore. unfold start_dict. simpl.
  rewrite (dict_of_rows_id rows Hnd).
  destruct (match_straight arrays rows [] rows Hnd) as (d' & E).
  - intros e. simpl. tauto.
  - exact Hnd2.
  - exact Hin.
  - intros k A z H1 H2 H3. exact (Hstr k A z H1 H2 H3).
  - rewrite E. reflexivity.
Qed.
Print Assumptions C10_straight_arrays_recovered.

(** A slanted array and a vertical one, with a stray LED. *)
Definition demo10_rows : list row :=
  [(0, (40, 30)); (1, (0, 0)); (2, (0, 100)); (3, (20, 15)); (4, (30, 100)); (5, (10, 100)); (6, (80, 80))].
Definition demo10_arrays : list (list row) :=
  [ [(1, (0, 0)); (3, (20, 15)); (0, (40, 30))]
  ; [(2, (0, 100)); (5, (10, 100)); (4, (30, 100))] ].

Lemma edist_lt_compute : forall p q p' q',
  (fst p - fst q) * (fst p - fst q) + (snd p - snd q) * (snd p - snd q) <
  (fst p' - fst q') * (fst p' - fst q') + (snd p' - snd q') * (snd p' - snd q') ->
  (edist p q < edist p' q')%R.
Proof.
  intros p q p' q' H. unfold edist. apply sqrt_lt_1.
  - apply IZR_le. apply Z.add_nonneg_nonneg; apply Z.square_nonneg.
  - apply IZR_le. apply Z.add_nonneg_nonneg; apply Z.square_nonneg.
  - apply IZR_lt. exact H.
Qed.

Lemma edist_square : forall p q n, 0 <= n ->
  (fst p - fst q) * (fst p - fst q) + (snd p - snd q) * (snd p - snd q) = n * n -> edist p q = IZR n.
Proof.
  intros p q n Hn H. unfold edist. rewrite H, mult_IZR. apply sqrt_square. apply IZR_le. exact Hn.
Qed.

Example C10_example :
  match_leds_to_led_arrays real_geometry 5 demo10_rows [[1; 0]; [2; 4]] [] None
  = Ok [[1; 3; 0]; [2; 5; 4]].
Proof.
  apply (C10_straight_arrays_recovered demo10_rows demo10_arrays).
  - simpl. repeat constructor; simpl; intuition discriminate.
  - simpl. repeat constructor; simpl; intuition discriminate.
  - intros A [<-|[<-|[]]]; (split; [|simpl; lia]); intros x Hx; simpl in Hx |- *; tauto.
  - intros k A z Hk Hz _ i p q Hp Hq.
    destruct k as [|[|[|k]]]; simpl in Hk; try discriminate; injection Hk as <-; simpl in Hz; subst z;
    (destruct i as [|[|[|i]]]; simpl in Hp, Hq; try discriminate; injection Hp as <-; injection Hq as <-);
    (split;
      [ cbn [snd];
        first
          [ rewrite (edist_square (0,0) (20,15) 25), (edist_square (20,15) (40,30) 25), (edist_square (0,0) (40,30) 50) by (simpl; lia)
          | rewrite (edist_square (20,15) (40,30) 25), (edist_square (40,30) (40,30) 0) by (simpl; lia)
          | rewrite (edist_square (0,100) (10,100) 10), (edist_square (10,100) (30,100) 20), (edist_square (0,100) (30,100) 30) by (simpl; lia)
          | rewrite (edist_square (10,100) (30,100) 20), (edist_square (30,100) (30,100) 0) by (simpl; lia) ]; lra
      | intros r Hr Hu Hn; simpl in Hr, Hu;
        repeat (destruct Hr as [<-|Hr]; [simpl in Hu, Hn; first [exfalso; tauto | apply edist_lt_compute; simpl; lia]|]);
        destruct Hr ]).
Qed.
