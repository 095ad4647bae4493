(** C45-C48, C63: coordinates of the LEDs. *)
From Coq Require Import ZArith List Lia Reals Lra Psatz.
From Verif Require Import Base Coordinates_Model.
Import ListNotations.
Local Open Scope R_scope.

(** ** Specification *)

(** The point [q1 + t (q2 - q1)]. *)
Definition lerp (t : R) (q1 q2 : pos) : pos :=
  let '(a1, b1, c1) := q1 in let '(a2, b2, c2) := q2 in
  (a1 + t * (a2 - a1), b1 + t * (b2 - b1), c1 + t * (c2 - c1)).

(** [p1 + t (p2 - p1)] is the foot of the perpendicular from [p] on the line
    through [p1] and [p2]. *)
Definition is_foot (p p1 p2 : pix) (t : R) : Prop :=
  (fst p - (fst p1 + t * (fst p2 - fst p1))) * (fst p2 - fst p1) +
  (snd p - (snd p1 + t * (snd p2 - snd p1))) * (snd p2 - snd p1) = 0.

(** The two pixel positions and the pixel origin do not lie on one line. *)
Definition independent (p1 p2 : pix) : Prop := fst p1 * snd p2 <> fst p2 * snd p1.

(** No LED belongs to two arrays. *)
Definition disjoint_files (files : list (option (list Z))) : Prop :=
  forall i j a b id, nth_error files i = Some (Some a) -> nth_error files j = Some (Some b) -> In id a -> In id b -> i = j.

(** ** Geometry of one array *)
Lemma independent_distinct : forall p1 p2, independent p1 p2 ->
  0 < (fst p2 - fst p1) * (fst p2 - fst p1) + (snd p2 - snd p1) * (snd p2 - snd p1).
Proof.
  intros [x1 y1] [x2 y2] H. unfold independent in H. cbn [fst snd] in *.
  destruct (Req_dec x1 x2) as [E|E].
  - destruct (Req_dec y1 y2) as [F|F]; [subst; exfalso; apply H; reflexivity|]. assert (y2 - y1 <> 0) by lra. pose proof (Rsqr_pos_lt _ H0). pose proof (Rle_0_sqr (x2 - x1)). unfold Rsqr in *. lra.
  - assert (x2 - x1 <> 0) by lra. pose proof (Rsqr_pos_lt _ H0). pose proof (Rle_0_sqr (y2 - y1)). unfold Rsqr in *. lra.
Qed.

Lemma foot_unique : forall p p1 p2 t t', independent p1 p2 -> is_foot p p1 p2 t -> is_foot p p1 p2 t' -> t = t'.
Proof.
  intros p p1 p2 t t' Hi H H'. pose proof (independent_distinct p1 p2 Hi) as P. unfold is_foot in *.
  set (dx := fst p2 - fst p1) in *. set (dy := snd p2 - snd p1) in *. set (n := dx * dx + dy * dy) in *.
  assert (E : (t - t') * n = 0) by (unfold n; lra). apply Rmult_integral in E. lra.
Qed.

Lemma orth_projection_foot : forall p p1 p2, independent p1 p2 -> exists t, is_foot p p1 p2 t /\
  orth_projection p (direction p1 p2) p1 = (fst p1 + t * (fst p2 - fst p1), snd p1 + t * (snd p2 - snd p1)).
Proof.
  intros p p1 p2 Hi. pose proof (independent_distinct p1 p2 Hi) as P. unfold orth_projection, direction, is_foot. cbn [fst snd].
  set (dx := fst p2 - fst p1) in *. set (dy := snd p2 - snd p1) in *. set (n := sqrt (dx * dx + dy * dy)).
  assert (Pn : 0 < n) by (apply sqrt_lt_R0; exact P). assert (En : n * n = dx * dx + dy * dy) by (apply sqrt_sqrt; lra).
  exists (((fst p - fst p1) * dx + (snd p - snd p1) * dy) / (n * n)). split.
  - replace ((fst p - (fst p1 + ((fst p - fst p1) * dx + (snd p - snd p1) * dy) / (n * n) * dx)) * dx +
      (snd p - (snd p1 + ((fst p - fst p1) * dx + (snd p - snd p1) * dy) / (n * n) * dy)) * dy)
      with (((fst p - fst p1) * dx + (snd p - snd p1) * dy) * (1 - (dx * dx + dy * dy) / (n * n))) by (field; lra).
    rewrite <- En. field. lra.
  - f_equal; field; lra.
Qed.

Lemma conversion_ok : forall p1 p2 q1 q2, independent p1 p2 -> exists m, conversion_matrix p1 p2 q1 q2 = Ok m.
Proof.
  intros [x1 y1] [x2 y2] [[a1 b1] c1] [[a2 b2] c2] H. unfold independent in H. cbn [fst snd] in H. unfold conversion_matrix.
  destruct (Req_EM_T (x1 * y2 - x2 * y1) 0) as [E|E]; [exfalso; apply H; lra|]. eexists. reflexivity.
Qed.

Lemma conversion_err : forall p1 p2 q1 q2, ~ independent p1 p2 -> conversion_matrix p1 p2 q1 q2 = Err LinAlgError.
Proof.
  intros [x1 y1] [x2 y2] [[a1 b1] c1] [[a2 b2] c2] H. unfold independent in H. cbn [fst snd] in H. unfold conversion_matrix.
  destruct (Req_EM_T (x1 * y2 - x2 * y1) 0) as [E|E]; [reflexivity|]. exfalso. apply H. lra.
Qed.

Lemma conversion_line : forall p1 p2 q1 q2 m t, conversion_matrix p1 p2 q1 q2 = Ok m ->
  apply_matrix m (fst p1 + t * (fst p2 - fst p1), snd p1 + t * (snd p2 - snd p1)) = lerp t q1 q2.
Proof.
  intros [x1 y1] [x2 y2] [[a1 b1] c1] [[a2 b2] c2] m t H. unfold conversion_matrix in H.
  destruct (Req_EM_T (x1 * y2 - x2 * y1) 0) as [E|E]; [discriminate|]. apply Ok_inj in H. subst m. unfold apply_matrix, lerp. cbn [fst snd].
  f_equal; [f_equal|]; field; exact E.
Qed.

(** ** Tables *)
Lemma set_pos_id : forall rows id q, map l_id (set_pos rows id q) = map l_id rows.
Proof. intros. unfold set_pos. rewrite map_map. apply map_ext. intros r. destruct (l_id r =? id)%Z; reflexivity. Qed.

Lemma set_pos_pix : forall rows id q, map l_pix (set_pos rows id q) = map l_pix rows.
Proof. intros. unfold set_pos. rewrite map_map. apply map_ext. intros r. destruct (l_id r =? id)%Z; reflexivity. Qed.

(** Ids and pixel positions of the rows. *)
Definition keys (rows : list led) : list (Z * pix) := map (fun r => (l_id r, l_pix r)) rows.

Lemma set_pos_keys : forall rows id q, keys (set_pos rows id q) = keys rows.
Proof. intros. unfold keys, set_pos. rewrite map_map. apply map_ext. intros r. destruct (l_id r =? id)%Z; reflexivity. Qed.

Lemma keys_pad : forall areas, keys (pad areas) = areas.
Proof. intros areas. unfold keys, pad. rewrite map_map. cbn [l_id l_pix]. rewrite <- map_id. apply map_ext. intros [i p]. reflexivity. Qed.

Lemma find_pix_keys : forall rows id, find_pix rows id = match filter (fun k => (fst k =? id)%Z) (keys rows) with [k] => Ok (snd k) | _ => Err ValueError end.
Proof.
  intros rows id. unfold find_pix, keys. assert (E : filter (fun k : Z * pix => (fst k =? id)%Z) (map (fun r => (l_id r, l_pix r)) rows) = map (fun r => (l_id r, l_pix r)) (filter (fun r => (l_id r =? id)%Z) rows)).
  { induction rows as [|r rows IH]; [reflexivity|]. cbn [map filter fst]. destruct (l_id r =? id)%Z; cbn [map]; rewrite IH; reflexivity. }
  rewrite E. destruct (filter _ rows) as [|r [|r' l]]; reflexivity.
Qed.

Lemma find_pix_ext : forall rows rows' id, keys rows = keys rows' -> find_pix rows id = find_pix rows' id.
Proof. intros rows rows' id H. rewrite !find_pix_keys, H. reflexivity. Qed.

Lemma find_pix_in : forall rows id p r, find_pix rows id = Ok p -> In r rows -> l_id r = id -> l_pix r = p.
Proof.
  intros rows id p r H Hr E. unfold find_pix in H. assert (I : In r (filter (fun r => (l_id r =? id)%Z) rows)) by (apply filter_In; split; [exact Hr|apply Z.eqb_eq; exact E]).
  destruct (filter _ rows) as [|r1 [|r2 l]]; try discriminate. destruct I as [<-|[]]. apply Ok_inj in H. exact H.
Qed.

Lemma find_pix_exists : forall rows id p, find_pix rows id = Ok p -> In (id, p) (keys rows).
Proof.
  intros rows id p H. rewrite find_pix_keys in H. destruct (filter _ (keys rows)) as [|k [|k' l]] eqn:E; try discriminate. apply Ok_inj in H.
  assert (I : In k (filter (fun k => (fst k =? id)%Z) (keys rows))) by (rewrite E; left; reflexivity). apply filter_In in I. destruct I as [I1 I2]. apply Z.eqb_eq in I2.
  destruct k as [i q]. cbn [fst snd] in *. congruence.
Qed.

Lemma find_pix_nodup : forall rows id p, NoDup (map fst (keys rows)) -> In (id, p) (keys rows) -> find_pix rows id = Ok p.
Proof.
  intros rows id p Nd Hin. rewrite find_pix_keys. revert Nd Hin. generalize (keys rows). clear. intros ks. induction ks as [|k ks IH]; intros Nd Hin; [destruct Hin|].
  cbn [map] in Nd. inversion Nd as [|? ? N1 N2]; subst. cbn [filter]. destruct Hin as [->|Hin].
  - cbn [fst]. rewrite Z.eqb_refl. replace (filter (fun k => (fst k =? id)%Z) ks) with (@nil (Z * pix)); [reflexivity|]. symmetry.
    clear - N1. cbn [fst] in N1. induction ks as [|k ks IH]; [reflexivity|]. cbn [filter]. destruct (Z.eqb_spec (fst k) id) as [E|E]; [exfalso; apply N1; left; exact E|].
    apply IH. intros C. apply N1. right. exact C.
  - destruct (Z.eqb_spec (fst k) id) as [E|E]; [exfalso; apply N1; rewrite E; change id with (fst (id, p)); apply in_map; exact Hin|]. apply IH; assumption.
Qed.

Lemma last_default : forall (l : list Z) a d d', last (a :: l) d = last (a :: l) d'.
Proof. induction l as [|b l IH]; intros a d d'; [reflexivity|]. change (last (b :: l) d = last (b :: l) d'). apply IH. Qed.

(** Result of the loop over the LEDs of an array. *)
Lemma place_leds_spec : forall m d p0 ids rows rows', place_leds m d p0 ids rows = Ok rows' ->
  keys rows' = keys rows /\
  forall r', In r' rows' ->
    (In (l_id r') ids -> l_pos r' = apply_matrix m (orth_projection (l_pix r') d p0)) /\
    (~ In (l_id r') ids -> In r' rows).
Proof.
  intros m d p0 ids. induction ids as [|id ids IH]; intros rows rows' H; cbn [place_leds] in H.
  - apply Ok_inj in H. subst rows'. split; [reflexivity|]. intros r' Hr. split; [intros []|intros _; exact Hr].
  - destruct (find_pix rows id) as [p|] eqn:Ep; [|discriminate]. cbn [bind] in H. destruct (IH _ _ H) as [K F]. rewrite set_pos_keys in K. split; [exact K|].
    intros r' Hr. destruct (F r' Hr) as [F1 F2]. split.
    + intros [E|Hin]; [|apply F1; exact Hin]. destruct (in_dec Z.eq_dec (l_id r') ids) as [I|N]; [apply F1; exact I|]. specialize (F2 N).
      unfold set_pos in F2. apply in_map_iff in F2. destruct F2 as (r & Er & Hr2). destruct (Z.eqb_spec (l_id r) id) as [E2|E2].
      * rewrite <- Er. cbn [l_pos l_pix]. rewrite (find_pix_in rows id p r Ep Hr2 E2). reflexivity.
      * exfalso. apply E2. rewrite Er. symmetry. exact E.
    + intros N. specialize (F2 ltac:(intros C; apply N; right; exact C)). unfold set_pos in F2. apply in_map_iff in F2. destruct F2 as (r & Er & Hr2).
      destruct (Z.eqb_spec (l_id r) id) as [E2|E2]; [exfalso; apply N; left; rewrite <- Er; cbn [l_id]; symmetry; exact E2|]. rewrite <- Er. exact Hr2.
Qed.

Lemma place_array_spec : forall q1 q2 ids rows rows', place_array q1 q2 ids rows = Ok rows' ->
  keys rows' = keys rows /\
  exists p1 p2, find_pix rows (last ids 0%Z) = Ok p1 /\ find_pix rows (hd 0%Z ids) = Ok p2 /\ independent p1 p2 /\
  forall r', In r' rows' ->
    (In (l_id r') ids -> exists t, is_foot (l_pix r') p1 p2 t /\ l_pos r' = lerp t q1 q2) /\
    (~ In (l_id r') ids -> In r' rows).
Proof.
  intros q1 q2 ids rows rows' H. unfold place_array in H. destruct ids as [|i ids]; [discriminate|].
  replace (last (i :: ids) i) with (last (i :: ids) 0%Z) in H by apply last_default.
  destruct (find_pix rows (last (i :: ids) 0%Z)) as [p1|] eqn:E1; [|discriminate]. cbn [bind] in H.
  destruct (find_pix rows i) as [p2|] eqn:E2; [|discriminate]. cbn [bind] in H.
  destruct (conversion_matrix p1 p2 q1 q2) as [m|] eqn:Em; [|discriminate]. cbn [bind] in H.
  destruct (place_leds_spec _ _ _ _ _ _ H) as [K F]. split; [exact K|]. exists p1, p2. split; [reflexivity|]. split; [exact E2|].
  assert (Hi : independent p1 p2).
  { destruct (Req_dec (fst p1 * snd p2) (fst p2 * snd p1)) as [E|E]; [|exact E]. rewrite conversion_err in Em; [discriminate|]. intros C. exact (C E). }
  split; [exact Hi|]. intros r' Hr. destruct (F r' Hr) as [F1 F2]. split; [|exact F2]. intros I. destruct (orth_projection_foot (l_pix r') p1 p2 Hi) as (t & T1 & T2).
  exists t. split; [exact T1|]. rewrite (F1 I), T2. apply conversion_line with (1 := Em).
Qed.

(** Result of all arrays. *)
Lemma place_arrays_spec : forall files coords rows rows', place_arrays files coords rows = Ok rows' -> disjoint_files files ->
  keys rows' = keys rows /\
  forall r', In r' rows' ->
    (forall k ids, nth_error files k = Some (Some ids) -> In (l_id r') ids ->
       exists q1 q2 p1 p2 t, nth_error coords k = Some (q1, q2) /\ In (last ids 0%Z, p1) (keys rows) /\ In (hd 0%Z ids, p2) (keys rows) /\
         independent p1 p2 /\ is_foot (l_pix r') p1 p2 t /\ l_pos r' = lerp t q1 q2) /\
    ((forall k ids, nth_error files k = Some (Some ids) -> ~ In (l_id r') ids) -> In r' rows).
Proof.
  induction files as [|[ids|] files IH]; intros coords rows rows' H Hd; cbn [place_arrays] in H; [| |discriminate].
  - apply Ok_inj in H. subst. split; [reflexivity|]. intros r' Hr. split; [intros k ids Hk; destruct k; discriminate|intros _; exact Hr].
  - assert (H' : exists q1 q2 coords', coords = (q1, q2) :: coords' /\ bind (place_array q1 q2 ids rows) (place_arrays files coords') = Ok rows').
    { destruct ids as [|i l]; [discriminate|]. destruct coords as [|[q1 q2] coords']; [discriminate|]. exists q1, q2, coords'. split; [reflexivity|exact H]. }
    destruct H' as (q1 & q2 & coords' & -> & H'). destruct (place_array q1 q2 ids rows) as [mid|] eqn:Em; [|discriminate]. cbn [bind] in H'.
    assert (Hd' : disjoint_files files). { intros i j a b id H1 H2 A B. assert (S i = S j) by (eapply Hd; cbn [nth_error]; eassumption). lia. }
    destruct (IH coords' mid rows' H' Hd') as [K F]. destruct (place_array_spec _ _ _ _ _ Em) as (K0 & p1 & p2 & E1 & E2 & Hi & F0).
    split; [congruence|]. intros r' Hr. destruct (F r' Hr) as [F1 F2]. split.
    + intros [|k] ids' Hk Hin; cbn [nth_error] in Hk.
      * apply Some_inj in Hk. apply Some_inj in Hk. subst ids'.
        assert (Hmid : In r' mid). { apply F2. intros k ids' Hk C. assert (0%nat = S k) by (eapply Hd; [reflexivity|cbn [nth_error]; exact Hk|exact Hin|exact C]). lia. }
        destruct (proj1 (F0 r' Hmid) Hin) as (t & T1 & T2). exists q1, q2, p1, p2, t.
        split; [reflexivity|]. split; [apply find_pix_exists; exact E1|]. split; [apply find_pix_exists; exact E2|]. split; [exact Hi|]. split; assumption.
      * destruct (F1 k ids' Hk Hin) as (u1 & u2 & v1 & v2 & t & T). rewrite K0 in T. exists u1, u2, v1, v2, t. exact T.
    + intros N. apply F0; [apply F2; intros k ids' Hk; exact (N (S k) ids' Hk)|]. exact (N 0%nat ids eq_refl).
Qed.

(** ** C46 *)
Theorem C46_leds_are_interpolated_on_the_3d_line : forall areas files coords rows,
  calculate_3d areas files coords = Ok rows -> disjoint_files files ->
  map (fun r => (l_id r, l_pix r)) rows = areas /\
  forall r k ids, In r rows -> nth_error files k = Some (Some ids) -> In (l_id r) ids ->
    exists q1 q2 p1 p2 t, nth_error coords k = Some (q1, q2) /\ In (last ids 0%Z, p1) areas /\ In (hd 0%Z ids, p2) areas /\
      independent p1 p2 /\ is_foot (l_pix r) p1 p2 t /\ l_pos r = lerp t q1 q2.
Proof.
  intros areas files coords rows H Hd. destruct (place_arrays_spec _ _ _ _ H Hd) as [K F]. rewrite keys_pad in *. split; [exact K|].
  intros r k ids Hr Hk Hin. exact (proj1 (F r Hr) k ids Hk Hin).
Qed.
Print Assumptions C46_leds_are_interpolated_on_the_3d_line.

(** Between the edges if the pixel position projects between them. *)
Theorem C46_between_the_edges : forall p p1 p2 t, independent p1 p2 -> is_foot p p1 p2 t ->
  (0 <= t <= 1 <->
   0 <= (fst p - fst p1) * (fst p2 - fst p1) + (snd p - snd p1) * (snd p2 - snd p1) /\
   0 <= (fst p - fst p2) * (fst p1 - fst p2) + (snd p - snd p2) * (snd p1 - snd p2)).
Proof.
  intros p p1 p2 t Hi H. pose proof (independent_distinct p1 p2 Hi) as P. unfold is_foot in H.
  set (dx := fst p2 - fst p1) in *. set (dy := snd p2 - snd p1) in *. set (n := dx * dx + dy * dy) in *.
  assert (A : (fst p - fst p1) * dx + (snd p - snd p1) * dy = t * n) by (unfold n; lra).
  assert (B : (fst p - fst p2) * (fst p1 - fst p2) + (snd p - snd p2) * (snd p1 - snd p2) = (1 - t) * n).
  { replace ((1 - t) * n) with (n - t * n) by ring. rewrite <- A. unfold n, dx, dy. ring. }
  rewrite A, B. split.
  - intros [T1 T2]. split; apply Rmult_le_pos; lra.
  - intros [T1 T2]. split; [apply (Rmult_le_reg_r n)|apply Rminus_le; apply (Rmult_le_reg_r n)]; lra.
Qed.
Print Assumptions C46_between_the_edges.

(** The run succeeds if every array has at least two LEDs, all listed LEDs are
    in the table, and the edges are independent. *)
Theorem C46_succeeds : forall areas files coords, NoDup (map fst areas) -> (length files <= length coords)%nat ->
  (forall f, In f files -> exists ids p1 p2, f = Some ids /\ (2 <= length ids)%nat /\ incl ids (map fst areas) /\
     In (last ids 0%Z, p1) areas /\ In (hd 0%Z ids, p2) areas /\ independent p1 p2) ->
  exists rows, calculate_3d areas files coords = Ok rows.
Proof.
  intros areas files coords Nd. unfold calculate_3d.
  assert (G : forall rows, keys rows = areas -> (length files <= length coords)%nat ->
    (forall f, In f files -> exists ids p1 p2, f = Some ids /\ (2 <= length ids)%nat /\ incl ids (map fst areas) /\
     In (last ids 0%Z, p1) areas /\ In (hd 0%Z ids, p2) areas /\ independent p1 p2) ->
    exists rows', place_arrays files coords rows = Ok rows').
  { revert coords. induction files as [|f files IH]; intros coords rows K L H; [eexists; reflexivity|].
    destruct (H f (or_introl eq_refl)) as (ids & p1 & p2 & -> & L2 & Hin & I1 & I2 & Hi). destruct coords as [|[q1 q2] coords]; [simpl in L; lia|].
    cbn [place_arrays]. destruct ids as [|i [|j ids]]; [simpl in L2; lia|simpl in L2; lia|].
    assert (P : forall ids m d p0 rows, keys rows = areas -> incl ids (map fst areas) -> exists rows', place_leds m d p0 ids rows = Ok rows').
    { clear - Nd. induction ids as [|id ids IH]; intros m d p0 rows K Hin; [eexists; reflexivity|]. cbn [place_leds].
      assert (I : In id (map fst areas)) by (apply Hin; left; reflexivity). apply in_map_iff in I. destruct I as ([id' p] & E & I). cbn [fst] in E. subst id'.
      rewrite (find_pix_nodup rows id p) by (rewrite K; assumption). cbn [bind]. apply IH; [rewrite set_pos_keys; exact K|]. intros x Hx. apply Hin. right. exact Hx. }
    unfold place_array. replace (last (i :: j :: ids) i) with (last (i :: j :: ids) 0%Z) by apply last_default.
    rewrite (find_pix_nodup rows _ p1) by (rewrite K; assumption). cbn [bind]. cbn [hd] in I2. rewrite (find_pix_nodup rows _ p2) by (rewrite K; assumption). cbn [bind].
    destruct (conversion_ok p1 p2 q1 q2 Hi) as (m & ->). cbn [bind]. destruct (P (i :: j :: ids) m (direction p1 p2) p1 rows K Hin) as (mid & Emid). rewrite Emid. cbn [bind].
    apply IH; [|simpl in L; lia|intros f Hf; apply H; right; exact Hf]. destruct (place_leds_spec _ _ _ _ _ _ Emid) as [K' _]. congruence. }
  intros L H. apply G; [apply keys_pad|exact L|exact H].
Qed.
Print Assumptions C46_succeeds.

(** Edges on a line with the pixel origin: always an error. *)
Theorem C46_edges_in_line_with_the_origin_fail : forall areas ids files q1 q2 coords p1 p2, NoDup (map fst areas) ->
  ids <> [] -> In (last ids 0%Z, p1) areas -> In (hd 0%Z ids, p2) areas -> ~ independent p1 p2 ->
  calculate_3d areas (Some ids :: files) ((q1, q2) :: coords) = Err LinAlgError.
Proof.
  intros areas ids files q1 q2 coords p1 p2 Nd L I1 I2 Hi. unfold calculate_3d. destruct ids as [|i ids]; [congruence|].
  cbn [place_arrays]. unfold place_array.
  replace (last (i :: ids) i) with (last (i :: ids) 0%Z) by apply last_default.
  rewrite (find_pix_nodup (pad areas) _ p1) by (rewrite keys_pad; assumption). cbn [bind]. cbn [hd] in I2. rewrite (find_pix_nodup (pad areas) _ p2) by (rewrite keys_pad; assumption). cbn [bind].
  rewrite conversion_err by exact Hi. reflexivity.
Qed.
Print Assumptions C46_edges_in_line_with_the_origin_fail.

(** An array of one LED is its own edge on both sides: always an error. *)
Theorem C46_array_of_one_led_fails : forall areas id p files q1 q2 coords, NoDup (map fst areas) -> In (id, p) areas ->
  calculate_3d areas (Some [id] :: files) ((q1, q2) :: coords) = Err LinAlgError.
Proof.
  intros areas id p files q1 q2 coords Nd I.
  apply (C46_edges_in_line_with_the_origin_fail areas [id] files q1 q2 coords p p Nd); [discriminate|exact I|exact I|].
  intros H. apply H. reflexivity.
Qed.
Print Assumptions C46_array_of_one_led_fails.

(** A LED of an index file must have exactly one search area: with none, or with
    two rows of its id, there are no coordinates at all. *)
Theorem C46_led_without_search_area_fails : forall areas files coords ids id, In (Some ids) files -> In id ids ->
  count_occ Z.eq_dec (map fst areas) id <> 1%nat -> exists e, calculate_3d areas files coords = Err e.
Proof.
  intros areas files coords ids id Hf Hid Hc. destruct (calculate_3d areas files coords) as [rows'|e] eqn:H; [exfalso|exists e; reflexivity].
  assert (FP : forall rows p, keys rows = areas -> find_pix rows id = Ok p -> False).
  { intros rows p K E. apply Hc. rewrite find_pix_keys, K in E. clear - E.
    assert (L : count_occ Z.eq_dec (map fst areas) id = length (filter (fun k => (fst k =? id)%Z) areas)).
    { clear E. induction areas as [|a l IH]; [reflexivity|]. cbn [map count_occ filter]. destruct (Z.eq_dec (fst a) id) as [E|E].
      - rewrite (proj2 (Z.eqb_eq _ _) E). cbn [length]. rewrite IH. reflexivity.
      - rewrite (proj2 (Z.eqb_neq _ _) E). exact IH. }
    rewrite L. destruct (filter _ areas) as [|a [|b l]]; [discriminate|reflexivity|discriminate]. }
  assert (PL : forall ids m d p0 rows rows', In id ids -> keys rows = areas -> place_leds m d p0 ids rows = Ok rows' -> False).
  { clear ids Hf Hid H. induction ids as [|i ids IH]; intros m d p0 rows rs Hin K H; [destruct Hin|]. cbn [place_leds] in H.
    destruct (find_pix rows i) as [p|] eqn:E; [|discriminate]. cbn [bind] in H. destruct Hin as [->|Hin]; [exact (FP rows p K E)|].
    apply (IH _ _ _ _ _ Hin) in H; [exact H|]. rewrite set_pos_keys. exact K. }
  unfold calculate_3d in H. assert (K : keys (pad areas) = areas) by apply keys_pad. revert K H. generalize (pad areas). revert coords.
  induction files as [|f files IH]; [destruct Hf|]. intros coords rows K H. cbn [place_arrays] in H.
  destruct f as [ids'|]; [|discriminate].
  assert (H' : exists q1 q2 coords', bind (place_array q1 q2 ids' rows) (place_arrays files coords') = Ok rows').
  { destruct ids' as [|i l]; [discriminate|]. destruct coords as [|[q1 q2] coords']; [discriminate|]. exists q1, q2, coords'. exact H. }
  destruct H' as (q1 & q2 & coords' & H'). destruct (place_array q1 q2 ids' rows) as [mid|] eqn:Em; [|discriminate]. cbn [bind] in H'.
  destruct Hf as [E|Hf].
  - assert (E' : ids' = ids) by congruence. subst ids'. unfold place_array in Em. destruct ids as [|i l]; [discriminate|].
    destruct (find_pix rows (last (i :: l) i)); [|discriminate]. cbn [bind] in Em. destruct (find_pix rows i); [|discriminate]. cbn [bind] in Em.
    destruct (conversion_matrix _ _ _ _); [|discriminate]. cbn [bind] in Em. exact (PL _ _ _ _ _ _ Hid K Em).
  - apply (IH Hf coords' mid); [|exact H']. destruct (place_array_spec _ _ _ _ _ Em) as [K0 _]. congruence.
Qed.
Print Assumptions C46_led_without_search_area_fails.

Example C46_led_without_search_area_example :
  let areas := [(0%Z, (10, 20)); (1%Z, (30, 10))] in
  In (Some [0; 7; 1]%Z) [Some [0; 7; 1]%Z] /\ In 7%Z [0; 7; 1]%Z /\ count_occ Z.eq_dec (map fst areas) 7%Z = 0%nat /\
  forall q, calculate_3d areas [Some [0; 7; 1]%Z] [q] = Err ValueError.
Proof.
  cbv zeta. split; [left; reflexivity|]. split; [right; left; reflexivity|]. split; [reflexivity|]. intros [q1 q2].
  unfold calculate_3d. cbn [place_arrays]. unfold place_array. cbn [last pad map find_pix filter l_id fst snd Z.eqb Pos.eqb bind l_pix].
  destruct (conversion_ok (30, 10) (10, 20) q1 q2) as (m & Em); [unfold independent; cbn [fst snd]; lra|].
  unfold find_pix. cbn [filter l_id Z.eqb Pos.eqb bind l_pix]. rewrite Em. reflexivity.
Qed.

(** ** C45 *)
Lemma foot_edges : forall p1 p2 t, independent p1 p2 -> (is_foot p1 p1 p2 t -> t = 0) /\ (is_foot p2 p1 p2 t -> t = 1).
Proof.
  intros p1 p2 t Hi. split; intros H; eapply foot_unique; try exact Hi; try exact H; unfold is_foot; ring.
Qed.

Lemma lerp_0 : forall q1 q2, lerp 0 q1 q2 = q1.
Proof. intros [[a b] c] [[a' b'] c']. unfold lerp. f_equal; [f_equal|]; ring. Qed.
Lemma lerp_1 : forall q1 q2, lerp 1 q1 q2 = q2.
Proof. intros [[a b] c] [[a' b'] c']. unfold lerp. f_equal; [f_equal|]; ring. Qed.

Lemma nodup_fst : forall (l : list (Z * pix)) id p p', NoDup (map fst l) -> In (id, p) l -> In (id, p') l -> p = p'.
Proof.
  induction l as [|k l IH]; intros id p p' Nd H H'; [destruct H|]. cbn [map] in Nd. inversion Nd as [|? ? N1 N2]; subst.
  destruct H as [-> |H]; destruct H' as [E|H'].
  - congruence.
  - exfalso. apply N1. change (fst (id, p)) with (fst (id, p')). apply in_map. exact H'.
  - exfalso. apply N1. rewrite E. change (fst (id, p')) with (fst (id, p)). apply in_map. exact H.
  - eapply IH; eassumption.
Qed.

(** The index file lists the array from its last to its first LED; [array] is
    the list as matched in step 2. *)
Theorem C45_edge_leds_get_the_configured_coordinates : forall areas files coords rows k array q1 q2 r,
  NoDup (map fst areas) -> disjoint_files files -> calculate_3d areas files coords = Ok rows ->
  nth_error files k = Some (Some (rev array)) -> nth_error coords k = Some (q1, q2) -> In r rows ->
  (array <> [] -> l_id r = hd 0%Z array -> l_pos r = q1) /\
  (array <> [] -> l_id r = last array 0%Z -> l_pos r = q2).
Proof.
  intros areas files coords rows k array q1 q2 r Nd Hd H Hk Hc Hr. destruct (C46_leds_are_interpolated_on_the_3d_line areas files coords rows H Hd) as [K F].
  assert (Kr : In (l_id r, l_pix r) areas) by (rewrite <- K; apply (in_map (fun r => (l_id r, l_pix r))); exact Hr).
  assert (Lr : last (rev array) 0%Z = hd 0%Z array) by (destruct array as [|a l]; [reflexivity|]; cbn [rev hd]; apply last_last).
  assert (Hh : hd 0%Z (rev array) = last array 0%Z).
  { destruct array as [|a l] using rev_ind; [reflexivity|]. rewrite rev_app_distr, last_last. reflexivity. }
  assert (In1 : array <> [] -> In (hd 0%Z array) (rev array)) by (intros N; apply -> in_rev; destruct array; [contradiction|left; reflexivity]).
  assert (In2 : array <> [] -> In (last array 0%Z) (rev array)).
  { intros N. apply -> in_rev. destruct (exists_last N) as (l & a & ->). rewrite last_last. apply in_or_app. right. left. reflexivity. }
  split; intros N E.
  - destruct (F r k (rev array) Hr Hk ltac:(rewrite E; apply In1; exact N)) as (u1 & u2 & p1 & p2 & t & C1 & C2 & C3 & C4 & C5 & C6).
    rewrite Hc in C1. apply Some_inj in C1. injection C1 as <- <-. rewrite Lr, <- E in C2. rewrite (nodup_fst areas _ _ _ Nd Kr C2) in C5.
    apply (proj1 (foot_edges p1 p2 t C4)) in C5. subst t. rewrite C6. apply lerp_0.
  - destruct (F r k (rev array) Hr Hk ltac:(rewrite E; apply In2; exact N)) as (u1 & u2 & p1 & p2 & t & C1 & C2 & C3 & C4 & C5 & C6).
    rewrite Hc in C1. apply Some_inj in C1. injection C1 as <- <-. rewrite Hh, <- E in C3. rewrite (nodup_fst areas _ _ _ Nd Kr C3) in C5.
    apply (proj2 (foot_edges p1 p2 t C4)) in C5. subst t. rewrite C6. apply lerp_1.
Qed.
Print Assumptions C45_edge_leds_get_the_configured_coordinates.

(** One vertical array of three LEDs, the middle one off the line. *)
Definition ex_areas : list (Z * pix) := [(0%Z, (10, 10)); (1%Z, (12, 20)); (2%Z, (10, 30)); (3%Z, (50, 50))].
Example C45_example : NoDup (map fst ex_areas) /\ disjoint_files [Some [2; 1; 0]%Z] /\ independent (10, 10) (10, 30) /\
  (exists rows, calculate_3d ex_areas [Some [2; 1; 0]%Z] [((1, 1, 3), (1, 1, 1))] = Ok rows) /\
  is_foot (12, 20) (10, 10) (10, 30) (1 / 2).
Proof.
  assert (Nd : NoDup (map fst ex_areas)) by (cbn; repeat (constructor; [simpl; lia|]); constructor).
  assert (I : independent (10, 10) (10, 30)) by (unfold independent; simpl; lra).
  split; [exact Nd|]. split.
  { intros i j a b id H1 H2 _ _. destruct i as [|[|i]], j as [|[|j]]; try discriminate. reflexivity. }
  split; [exact I|]. split.
  - apply C46_succeeds; [exact Nd|simpl; lia|]. intros f [<-|[]]. exists [2; 1; 0]%Z, (10, 10), (10, 30). split; [reflexivity|]. split; [simpl; lia|].
    split; [intros x; simpl; intuition lia|]. split; [simpl; auto|]. split; [simpl; auto|]. exact I.
  - unfold is_foot. simpl. lra.
Qed.

Example C46_diagonal_example : ~ independent (100, 100) (200, 200).
Proof. unfold independent. simpl. lra. Qed.

(** ** C63, first part: LEDs outside all arrays *)
Theorem C63_unassigned_leds_are_at_minus_one : forall areas files coords rows r,
  calculate_3d areas files coords = Ok rows -> disjoint_files files -> In r rows ->
  (forall k ids, nth_error files k = Some (Some ids) -> ~ In (l_id r) ids) -> l_pos r = (-1, -1, -1).
Proof.
  intros areas files coords rows r H Hd Hr N. destruct (place_arrays_spec _ _ _ _ H Hd) as [_ F]. pose proof (proj2 (F r Hr) N) as I.
  unfold pad in I. apply in_map_iff in I. destruct I as (a & <- & _). reflexivity.
Qed.
Print Assumptions C63_unassigned_leds_are_at_minus_one.

(** ** C47 *)
Definition on_plane (pl : plane) (p : R * R) : Prop := pa pl * fst p + pb pl * snd p + pd pl = 0.
Definition upright (pl : plane) : Prop := pa pl <> 0 \/ pb pl <> 0.

Lemma upright_pos : forall pl, upright pl -> 0 < pa pl * pa pl + pb pl * pb pl.
Proof.
  intros pl [H|H]; pose proof (Rsqr_pos_lt _ H); pose proof (Rle_0_sqr (pa pl)); pose proof (Rle_0_sqr (pb pl)); unfold Rsqr in *; lra.
Qed.

Theorem C47_projection : forall pl x y, upright pl ->
  let p := project pl x y in
  on_plane pl p /\
  (exists s, fst p - x = s * pa pl /\ snd p - y = s * pb pl) /\
  (forall q, on_plane pl q -> Rsqr (fst p - x) + Rsqr (snd p - y) <= Rsqr (fst q - x) + Rsqr (snd q - y)) /\
  project pl (fst p) (snd p) = p.
Proof.
  intros pl x y Hu. pose proof (upright_pos pl Hu) as P. unfold project. cbn zeta. cbn [fst snd].
  set (a := pa pl) in *. set (b := pb pl) in *. set (d := pd pl) in *. set (t := - (a * x + b * y + d) / (a * a + b * b)).
  assert (T : t * (a * a + b * b) = - (a * x + b * y + d)) by (unfold t; field; lra).
  assert (O : a * (x + a * t) + b * (y + b * t) + d = 0) by lra.
  split; [unfold on_plane; cbn [fst snd]; exact O|]. split; [exists t; split; ring|]. split.
  - intros [u v] Q. unfold on_plane in Q. fold a b d in Q. cbn [fst snd] in *.
    (* |q - x|^2 = |p - x|^2 + |q - p|^2, the cross term vanishes *)
    assert (C : a * (u - (x + a * t)) + b * (v - (y + b * t)) = 0) by lra.
    replace (Rsqr (u - x) + Rsqr (v - y)) with (Rsqr (x + a * t - x) + Rsqr (y + b * t - y) + (Rsqr (u - (x + a * t)) + Rsqr (v - (y + b * t))) + 2 * t * (a * (u - (x + a * t)) + b * (v - (y + b * t)))) by (unfold Rsqr; ring).
    rewrite C. pose proof (Rle_0_sqr (u - (x + a * t))). pose proof (Rle_0_sqr (v - (y + b * t))). lra.
  - rewrite O. replace (- 0 / (a * a + b * b)) with 0 by (field; lra). f_equal; ring.
Qed.
Print Assumptions C47_projection.

Theorem C47_heights_are_kept : forall pl xs ys zs, snd (project_array pl (xs, ys, zs)) = zs.
Proof. intros. unfold project_array. cbn [snd]. rewrite <- (map_id zs) at 2. apply map_ext. intros z. ring. Qed.
Print Assumptions C47_heights_are_kept.

Example C47_example : upright (Plane 3 4 (-25)) /\ project (Plane 3 4 (-25)) 0 0 = (3, 4).
Proof. split; [left; simpl; lra|]. unfold project. cbn [pa pb pd]. f_equal; field. Qed.

(** ** C48 *)
Lemma minimum_le : forall l x v, In v (x :: l) -> minimum x l <= v.
Proof.
  assert (G : forall l x, minimum x l <= x). { induction l as [|y l IH]; intros x; cbn [minimum]; [lra|]. pose proof (IH (Rmin x y)). pose proof (Rmin_l x y). lra. }
  induction l as [|y l IH]; intros x v H; cbn [minimum].
  - destruct H as [-> |[]]. lra.
  - destruct H as [-> |H]; [pose proof (G l (Rmin v y)); pose proof (Rmin_l v y); lra|]. destruct H as [-> |H]; [pose proof (G l (Rmin x v)); pose proof (Rmin_r x v); lra|].
    apply IH. right. exact H.
Qed.

Lemma minimum_in : forall l x, In (minimum x l) (x :: l).
Proof.
  induction l as [|y l IH]; intros x; cbn [minimum]; [left; reflexivity|]. specialize (IH (Rmin x y)). destruct IH as [E|H]; [|right; right; exact H].
  rewrite <- E. unfold Rmin. destruct (Rle_dec x y); [left|right; left]; reflexivity.
Qed.

(** All widths are >= 0, some width is 0. *)
Theorem C48_widths_start_at_zero : forall fit ps ws hs, calculate_2d fit ps = Ok (ws, hs) ->
  Forall (fun w => 0 <= w) ws /\ In 0 ws.
Proof.
  intros fit ps ws hs H. unfold calculate_2d, plane_coordinates in H. destruct (project_array _ _) as [[xs ys] zs]. cbn zeta in H.
  destruct (map _ (combine xs ys)) as [|w l]; [discriminate|]. apply Ok_inj in H. assert (E : ws = map (fun v => v - minimum w l) (w :: l)) by congruence. clear H. subst ws. split.
  - apply Forall_forall. intros v Hv. apply in_map_iff in Hv. destruct Hv as (u & <- & Hu). pose proof (minimum_le l w u Hu). lra.
  - apply in_map_iff. exists (minimum w l). split; [lra|apply minimum_in].
Qed.
Print Assumptions C48_widths_start_at_zero.

Lemma points_array_other : forall ps, length ps <> 3%nat -> points_array ps = transposed ps.
Proof. intros ps H. destruct ps as [|p1 [|p2 [|p3 [|p4 l]]]]; try reflexivity. exfalso. apply H. reflexivity. Qed.

(** The heights are the z coordinates - unless there are exactly three LEDs. *)
Theorem C48_heights_are_z : forall fit ps ws hs, length ps <> 3%nat -> calculate_2d fit ps = Ok (ws, hs) -> hs = map snd ps.
Proof.
  intros fit ps ws hs L H. unfold calculate_2d, plane_coordinates in H. rewrite points_array_other in H by exact L.
  pose proof (C47_heights_are_kept (fit (transposed ps)) (map (fun p => fst (fst p)) ps) (map (fun p => snd (fst p)) ps) (map snd ps)) as K.
  change (map (fun p : R * R * R => fst (fst p)) ps, map (fun p : R * R * R => snd (fst p)) ps, map snd ps) with (transposed ps) in K.
  destruct (project_array (fit (transposed ps)) (transposed ps)) as [[xs ys] zs]. cbn [snd] in K. destruct (map _ (combine xs ys)); [discriminate|].
  apply Ok_inj in H. injection H as _ <-. exact K.
Qed.
Print Assumptions C48_heights_are_z.

Theorem C48_three_leds_refuted : forall fit p1 p2 x y z, exists ws, calculate_2d fit [p1; p2; (x, y, z)] = Ok (ws, [x; y; z]).
Proof.
  intros fit p1 p2 x y z. unfold calculate_2d. set (pl := fit _). unfold points_array, project_array, plane_coordinates. cbn [fst snd combine map].
  rewrite !Rplus_0_r. eexists. reflexivity.
Qed.
Print Assumptions C48_three_leds_refuted.

(** Distance along the wall. *)
Definition wall_distance (p q : R * R) : R := sqrt (Rsqr (fst p - fst q) + Rsqr (snd p - snd q)).

Lemma width_formula : forall pl x y, pb pl <> 0 -> on_plane pl (x, y) ->
  raw_width pl x y = Rabs x * (pa pl * pa pl + pb pl * pb pl) / (Rabs (pb pl) * pb pl).
Proof.
  intros pl x y Hb H. unfold on_plane in H. cbn [fst snd] in H. unfold raw_width.
  set (a := pa pl) in *. set (b := pb pl) in *. set (d := pd pl) in *.
  assert (P : 0 < a * a + b * b) by (pose proof (Rsqr_pos_lt _ Hb); pose proof (Rle_0_sqr a); unfold Rsqr in *; lra).
  assert (Y : y + d / b = - (a * x) / b). { apply (Rmult_eq_reg_r b); [|exact Hb]. replace ((y + d / b) * b) with (b * y + d) by (field; exact Hb). replace (- (a * x) / b * b) with (- (a * x)) by (field; exact Hb). lra. }
  rewrite Y. replace (x * x + - (a * x) / b * (- (a * x) / b)) with (Rsqr x * ((a * a + b * b) / Rsqr b)) by (unfold Rsqr; field; exact Hb).
  assert (Pb : 0 < Rsqr b) by (apply Rsqr_pos_lt; exact Hb).
  rewrite sqrt_mult_alt by apply Rle_0_sqr. rewrite sqrt_Rsqr_abs. rewrite sqrt_div_alt by exact Pb. rewrite sqrt_Rsqr_abs.
  set (n := sqrt (a * a + b * b)). assert (Pn : 0 < n) by (apply sqrt_lt_R0; exact P). assert (En : n * n = a * a + b * b) by (apply sqrt_sqrt; lra).
  rewrite <- En. assert (Ab : Rabs b <> 0) by (apply Rabs_no_R0; exact Hb). replace (0 * a + 1 * b) with b by ring. field. repeat split; try assumption; lra.
Qed.

(** Two points on the same side of the plane x = 0: the width difference is the
    distance along the wall times |n| / |b|. *)
Theorem C48_widths_are_stretched : forall pl x1 y1 x2 y2, pb pl <> 0 -> on_plane pl (x1, y1) -> on_plane pl (x2, y2) -> 0 <= x1 * x2 ->
  Rabs (raw_width pl x1 y1 - raw_width pl x2 y2) =
  wall_distance (x1, y1) (x2, y2) * (sqrt (pa pl * pa pl + pb pl * pb pl) / Rabs (pb pl)).
Proof.
  intros pl x1 y1 x2 y2 Hb H1 H2 Hs. rewrite !width_formula by assumption. unfold on_plane, wall_distance in *. cbn [fst snd] in *.
  set (a := pa pl) in *. set (b := pb pl) in *. set (d := pd pl) in *.
  assert (Pb : 0 < Rsqr b) by (apply Rsqr_pos_lt; exact Hb).
  assert (P : 0 < a * a + b * b) by (pose proof (Rle_0_sqr a); unfold Rsqr in *; lra).
  assert (Y : y1 - y2 = - (a * (x1 - x2)) / b). { apply (Rmult_eq_reg_r b); [|exact Hb]. replace (- (a * (x1 - x2)) / b * b) with (- (a * (x1 - x2))) by (field; exact Hb). lra. }
  rewrite Y. replace (Rsqr (x1 - x2) + Rsqr (- (a * (x1 - x2)) / b)) with (Rsqr (x1 - x2) * ((a * a + b * b) / Rsqr b)) by (unfold Rsqr; field; exact Hb).
  rewrite sqrt_mult_alt by apply Rle_0_sqr. rewrite sqrt_Rsqr_abs. rewrite sqrt_div_alt by exact Pb. rewrite sqrt_Rsqr_abs.
  set (n := sqrt (a * a + b * b)). assert (En : n * n = a * a + b * b) by (apply sqrt_sqrt; lra). assert (Ab : Rabs b <> 0) by (apply Rabs_no_R0; exact Hb).
  assert (D : Rabs (Rabs x1 - Rabs x2) = Rabs (x1 - x2)).
  { assert (C : (0 <= x1 /\ 0 <= x2) \/ (x1 <= 0 /\ x2 <= 0)).
    { destruct (Rle_dec 0 x1) as [A|A], (Rle_dec 0 x2) as [B|B]; [left; lra| | |right; lra].
      - right. split; [|lra]. apply Rnot_lt_le. intros C. pose proof (Rmult_lt_0_compat x1 (- x2) C ltac:(lra)). lra.
      - right. split; [lra|]. apply Rnot_lt_le. intros C. pose proof (Rmult_lt_0_compat (- x1) x2 ltac:(lra) C). lra. }
    destruct C as [[A B]|[A B]].
    - rewrite (Rabs_pos_eq x1), (Rabs_pos_eq x2) by lra. reflexivity.
    - rewrite (Rabs_left1 x1), (Rabs_left1 x2) by lra. rewrite <- Rabs_Ropp. f_equal. ring. }
  rewrite <- En. replace (Rabs x1 * (n * n) / (Rabs b * b) - Rabs x2 * (n * n) / (Rabs b * b)) with ((Rabs x1 - Rabs x2) * ((n * n) / (Rabs b * b))) by (field; split; assumption).
  rewrite Rabs_mult, D. unfold Rdiv at 1. rewrite (Rabs_mult (n * n)), Rabs_inv, (Rabs_mult (Rabs b)), Rabs_Rabsolu.
  rewrite (Rabs_pos_eq (n * n)) by (rewrite En; lra). field. exact Ab.
Qed.
Print Assumptions C48_widths_are_stretched.

(** So widths are distances along the wall iff a = 0. *)
Theorem C48_true_distance_iff_parallel_to_x : forall pl x1 y1 x2 y2, pb pl <> 0 -> on_plane pl (x1, y1) -> on_plane pl (x2, y2) -> 0 <= x1 * x2 -> x1 <> x2 ->
  (Rabs (raw_width pl x1 y1 - raw_width pl x2 y2) = wall_distance (x1, y1) (x2, y2) <-> pa pl = 0).
Proof.
  intros pl x1 y1 x2 y2 Hb H1 H2 Hs Hx. rewrite C48_widths_are_stretched by assumption.
  assert (Pw : 0 < wall_distance (x1, y1) (x2, y2)).
  { unfold wall_distance. cbn [fst snd]. apply sqrt_lt_R0. assert (x1 - x2 <> 0) by lra. pose proof (Rsqr_pos_lt _ H). pose proof (Rle_0_sqr (y1 - y2)). lra. }
  set (w := wall_distance (x1, y1) (x2, y2)) in *. set (a := pa pl) in *. set (b := pb pl) in *. assert (Ab : 0 < Rabs b) by (apply Rabs_pos_lt; exact Hb).
  split.
  - intros E. assert (F : sqrt (a * a + b * b) / Rabs b = 1) by (apply (Rmult_eq_reg_l w); lra).
    assert (G : sqrt (a * a + b * b) = Rabs b). { apply (Rmult_eq_reg_r (/ Rabs b)); [|apply Rinv_neq_0_compat; lra]. rewrite Rinv_r by lra. exact F. }
    rewrite <- sqrt_Rsqr_abs in G. apply sqrt_inj in G; [|pose proof (Rle_0_sqr a); pose proof (Rle_0_sqr b); unfold Rsqr in *; lra|apply Rle_0_sqr]. unfold Rsqr in G.
    assert (Z : a * a = 0) by lra. apply Rmult_integral in Z. lra.
  - intros ->. replace (0 * 0 + b * b) with (Rsqr b) by (unfold Rsqr; ring). rewrite sqrt_Rsqr_abs. field. lra.
Qed.
Print Assumptions C48_true_distance_iff_parallel_to_x.

(** Points on both sides of x = 0 are folded onto each other. *)
Theorem C48_folding_refuted : exists pl x1 y1 x2 y2, pb pl <> 0 /\ on_plane pl (x1, y1) /\ on_plane pl (x2, y2) /\
  wall_distance (x1, y1) (x2, y2) = 2 /\ raw_width pl x1 y1 = raw_width pl x2 y2.
Proof.
  exists (Plane 0 1 0), 1, 0, (-1), 0. unfold on_plane. cbn [pa pb pd fst snd]. split; [lra|]. split; [lra|]. split; [lra|]. split.
  - unfold wall_distance. cbn [fst snd]. replace (Rsqr (1 - -1) + Rsqr (0 - 0)) with (Rsqr 2) by (unfold Rsqr; ring). apply sqrt_Rsqr. lra.
  - unfold raw_width. cbn [pa pb pd]. replace (-1 * -1) with (1 * 1) by ring. reflexivity.
Qed.
Print Assumptions C48_folding_refuted.

Example C48_example : let pl := Plane 1 1 (-2) in pb pl <> 0 /\ on_plane pl (0, 2) /\ on_plane pl (1, 1) /\ 0 <= 0 * 1 /\ 0 <> 1 /\ pa pl <> 0.
Proof. unfold on_plane. simpl. repeat split; lra. Qed.

(** ** C63, second part: LEDs outside all arrays shift the widths *)

(** Sum of the squared residuals of [plane_func]. *)
Definition residual (pl : plane) (a : arr3) : R :=
  fold_right (fun p s => Rsqr (snd p - (- (1) / pb pl * (pa pl * fst p + pd pl))) + s) 0 (combine (fst (fst a)) (snd (fst a))).
Definition least_squares (fit : arr3 -> plane) (a : arr3) : Prop :=
  pb (fit a) <> 0 /\ forall pl, pb pl <> 0 -> residual (fit a) a <= residual pl a.

Lemma residual_nonneg : forall pl a, 0 <= residual pl a.
Proof.
  intros pl a. unfold residual. induction (combine (fst (fst a)) (snd (fst a))) as [|p l IH]; cbn [fold_right]; [lra|].
  pose proof (Rle_0_sqr (snd p - (- (1) / pb pl * (pa pl * fst p + pd pl)))). lra.
Qed.

Theorem C63_unassigned_leds_shift_the_widths_refuted : exists fit leds ws ws' w0 hs hs',
  least_squares fit (points_array leds) /\ least_squares fit (points_array (leds ++ [(-1, -1, -1)])) /\
  calculate_2d fit leds = Ok (ws, hs) /\ calculate_2d fit (leds ++ [(-1, -1, -1)]) = Ok (ws' ++ [w0], hs') /\
  Forall2 (fun w w' => w' = w + 1) ws ws'.
Proof.
  set (pl := Plane 0 1 1). set (leds := [(2, -1, 0); (3, -1, 0); (4, -1, 0); (5, -1, 0)] : list pos).
  assert (W : forall x y, project pl x y = (x, y + 1 * (- (0 * x + 1 * y + 1) / (0 * 0 + 1 * 1)))) by (intros; unfold project, pl; cbn [pa pb pd]; f_equal; ring).
  assert (V : forall x, raw_width pl x (-1) = Rabs x).
  { intros x. rewrite width_formula; [|unfold pl; simpl; lra|unfold on_plane, pl; simpl; lra]. unfold pl. cbn [pa pb]. rewrite Rabs_R1. field. }
  assert (Pj : forall x, project pl x (-1) = (x, -1)) by (intros x; rewrite W; f_equal; field).
  exists (fun _ => pl), leds, [0; 1; 2; 3], [1; 2; 3; 4], 0, [0; 0; 0; 0], [0; 0; 0; 0; -1].
  assert (LS : forall a, residual pl a = 0 -> least_squares (fun _ => pl) a).
  { intros a E. split; [unfold pl; simpl; lra|]. intros pl' _. rewrite E. apply residual_nonneg. }
  assert (M : forall x, Rabs x = x \/ x < 0) by (intros x; destruct (Rlt_dec x 0); [right; assumption|left; apply Rabs_pos_eq; lra]).
  split; [apply LS; unfold residual, pl; cbn; unfold Rsqr; field|]. split; [apply LS; unfold residual, pl; cbn; unfold Rsqr; field|].
  assert (R2 : Rabs 2 = 2) by (apply Rabs_pos_eq; lra). assert (R3 : Rabs 3 = 3) by (apply Rabs_pos_eq; lra). assert (R4 : Rabs 4 = 4) by (apply Rabs_pos_eq; lra).
  assert (R5 : Rabs 5 = 5) by (apply Rabs_pos_eq; lra). assert (R1 : Rabs (-1) = 1) by (rewrite Rabs_left; lra).
  split; [|split].
  - unfold calculate_2d, leds, points_array, transposed, project_array, plane_coordinates. cbn [map fst snd combine]. rewrite !Pj. cbn [map fst snd combine]. rewrite !V, R2, R3, R4, R5.
    cbn [map minimum]. rewrite (Rmin_left 2 3), (Rmin_left 2 4), (Rmin_left 2 5) by lra. f_equal. repeat f_equal; ring.
  - unfold calculate_2d, leds, points_array, transposed, project_array, plane_coordinates. cbn [map fst snd combine app]. rewrite !Pj. cbn [map fst snd combine]. rewrite !V, R1, R2, R3, R4, R5.
    cbn [map minimum]. rewrite (Rmin_left 2 3), (Rmin_left 2 4), (Rmin_left 2 5), (Rmin_right 2 1) by lra. f_equal. repeat f_equal; ring.
  - repeat (constructor; [lra|]). constructor.
Qed.
Print Assumptions C63_unassigned_leds_shift_the_widths_refuted.
