(** Properties C54 - C57: heights, smoothing and times in post-processing. *)
From Coq Require Import ZArith QArith Qabs Qround Lia Lqa Bool Ascii String List.
From Verif Require Import Base Str Substr Cli_Model Sim_Model.
Import ListNotations.
Local Open Scope string_scope.
Local Open Scope Z_scope.

(** ** C54 *)

Lemma inject_pos : forall n, 0 < n -> (0 < inject_Z n)%Q.
Proof. intros n H. unfold Qlt, inject_Z. cbn. lia. Qed.

Lemma inject_nz : forall n, 0 < n -> ~ (inject_Z n == 0)%Q.
Proof. intros n H C. unfold Qeq, inject_Z in C. cbn in C. lia. Qed.

Lemma inject_le : forall a b, a <= b -> (inject_Z a <= inject_Z b)%Q.
Proof. intros a b H. unfold Qle, inject_Z. cbn. lia. Qed.

Lemma int_of_Q_nonneg : forall x k, (0 <= x)%Q ->
  (int_of_Q x = k <-> (inject_Z k <= x)%Q /\ (x < inject_Z k + 1)%Q).
Proof.
  intros x k H. unfold int_of_Q. destruct x as [a b].
  unfold Qle, Qlt, inject_Z in *. cbn [Qnum Qden Qplus] in *.
  rewrite ?Z.mul_1_r, ?Pos.mul_1_l in *. cbn [Z.mul] in H.
  assert (Hb : 0 < Zpos b) by lia.
  rewrite Z.quot_div_nonneg by lia.
  split.
  - intros <-. pose proof (Z.div_mod a (Zpos b)). pose proof (Z.mod_pos_bound a (Zpos b) Hb).
    split; nia.
  - intros [H1 H2]. symmetry. apply Z.div_unique with (r := a - Zpos b * k); [left; nia|lia].
Qed.

Lemma int_of_Q_opp : forall x, int_of_Q (- x) = - int_of_Q x.
Proof. intros [a b]. unfold int_of_Q. cbn. apply Z.quot_opp_l. lia. Qed.

Lemma int_of_Q_comp : forall x y, (x == y)%Q -> int_of_Q x = int_of_Q y.
Proof.
  intros x y H. destruct (Qlt_le_dec x 0) as [Hx|Hx].
  - assert (Hy : (0 <= - y)%Q) by (rewrite <- H; lra).
    rewrite <- (Z.opp_involutive (int_of_Q x)), <- (Z.opp_involutive (int_of_Q y)). f_equal.
    rewrite <- !int_of_Q_opp. symmetry. apply int_of_Q_nonneg; [exact Hy|].
    assert (Hx' : (0 <= - x)%Q) by lra.
    pose proof (proj1 (int_of_Q_nonneg (- x) _ Hx') eq_refl) as [H1 H2].
    split; [rewrite <- H; exact H1|rewrite <- H; exact H2].
  - symmetry. assert (Hy : (0 <= y)%Q) by (rewrite <- H; exact Hx). apply int_of_Q_nonneg; [exact Hy|].
    pose proof (proj1 (int_of_Q_nonneg x _ Hx) eq_refl) as [H1 H2].
    split; rewrite <- H; assumption.
Qed.

Section Layer.
Variables (lower upper : Q) (n : Z).
Hypotheses (Hlu : (lower < upper)%Q) (Hn : 0 < n).

(** The lower border of layer [k]. *)
Let border (k : Z) : Q := (lower + inject_Z k * (upper - lower) / inject_Z n)%Q.

Lemma layer_pos : (0 < (upper - lower) / inject_Z n)%Q.
Proof.
  apply Qlt_shift_div_l; [apply inject_pos; exact Hn|lra].
Qed.

Lemma layer_scaled : forall h k, ((h - lower) / (upper - lower) * inject_Z n <= inject_Z k <-> h <= border k)%Q /\
  ((h - lower) / (upper - lower) * inject_Z n < inject_Z k <-> h < border k)%Q.
Proof.
  intros h k. pose proof layer_pos as Hp.
  assert (Hn' : (0 < inject_Z n)%Q) by (apply inject_pos; exact Hn).
  assert (E : (h == lower + ((h - lower) / (upper - lower) * inject_Z n) * ((upper - lower) / inject_Z n))%Q)
    by (field; split; lra).
  assert (F : (border k == lower + inject_Z k * ((upper - lower) / inject_Z n))%Q)
    by (unfold border; field; lra).
  set (x := ((h - lower) / (upper - lower) * inject_Z n)%Q) in *.
  set (s := ((upper - lower) / inject_Z n)%Q) in *.
  rewrite F. clearbody x s. clear F. split; split; intros H.
  - rewrite E. pose proof (Qmult_le_compat_r x (inject_Z k) s H ltac:(lra)). lra.
  - rewrite E in H. destruct (Qlt_le_dec (inject_Z k) x) as [G|G]; [|exact G].
    apply (Qmult_lt_compat_r _ _ s Hp) in G. lra.
  - rewrite E. apply (Qmult_lt_compat_r _ _ s Hp) in H. lra.
  - rewrite E in H. destruct (Qlt_le_dec x (inject_Z k)) as [G|G]; [exact G|].
    pose proof (Qmult_le_compat_r _ _ s G ltac:(lra)). lra.
Qed.

Lemma layer_ok : forall h, exists k, layer_from_height lower upper n h = Ok k.
Proof.
  intros h. unfold layer_from_height. destruct (Qeq_bool (upper - lower) 0) eqn:E; [|eexists; reflexivity].
  apply Qeq_bool_eq in E. exfalso. lra.
Qed.

Lemma layer_char : forall h k, layer_from_height lower upper n h = Ok k <->
  ((lower <= h)%Q /\ (border k <= h)%Q /\ (h < border (k + 1))%Q) \/
  ((h < lower)%Q /\ (border (k - 1) < h)%Q /\ (h <= border k)%Q).
Proof.
  intros h k. unfold layer_from_height.
  destruct (Qeq_bool (upper - lower) 0) eqn:E0.
  { apply Qeq_bool_eq in E0. exfalso. lra. }
  clear E0.
  set (x := ((h - lower) / (upper - lower) * inject_Z n)%Q).
  assert (Hx : forall j, (x <= inject_Z j <-> h <= border j)%Q /\ (x < inject_Z j <-> h < border j)%Q)
    by (intros j; apply layer_scaled).
  assert (B0 : (border 0 == lower)%Q).
  { unfold border. change (inject_Z 0) with 0%Q. field. exact (inject_nz n Hn). }
  assert (H0 : (0 <= x <-> lower <= h)%Q).
  { destruct (Hx 0) as [_ H]. change (inject_Z 0) with 0%Q in H. rewrite B0 in H.
    split; intros G.
    - destruct (Qlt_le_dec h lower) as [L|L]; [|exact L]. apply H in L. lra.
    - destruct (Qlt_le_dec x 0) as [L|L]; [|exact L]. apply H in L. lra. }
  assert (Q1 : forall j, (inject_Z (j + 1) == inject_Z j + 1)%Q) by (intros j; rewrite inject_Z_plus; reflexivity).
  assert (Hle : forall j, (inject_Z j <= x <-> border j <= h)%Q).
  { intros j. destruct (Hx j) as [_ H]. split; intros G.
    - destruct (Qlt_le_dec h (border j)) as [L|L]; [|exact L]. apply H in L. lra.
    - destruct (Qlt_le_dec x (inject_Z j)) as [L|L]; [|exact L]. apply H in L. lra. }
  assert (Hlt : forall j, (inject_Z j < x <-> border j < h)%Q).
  { intros j. destruct (Hx j) as [H _]. split; intros G.
    - destruct (Qlt_le_dec (border j) h) as [L|L]; [exact L|]. apply H in L. lra.
    - destruct (Qlt_le_dec (inject_Z j) x) as [L|L]; [exact L|]. apply H in L. lra. }
  destruct (Qlt_le_dec h lower) as [L|L].
  - assert (Nx : (x < 0)%Q). { destruct (Qlt_le_dec x 0) as [G|G]; [exact G|]. apply H0 in G. lra. }
    assert (Px : (0 <= - x)%Q) by lra.
    assert (C : Ok (int_of_Q x) = Ok k <-> int_of_Q (- x) = - k).
    { rewrite int_of_Q_opp. split; [intros G; apply Ok_inj in G; lia|intros G; f_equal; lia]. }
    rewrite C, int_of_Q_nonneg by exact Px. rewrite inject_Z_opp.
    rewrite <- (Hlt (k - 1)). destruct (Hx k) as [Hk _]. rewrite <- Hk.
    pose proof (Q1 (k - 1)) as E1. replace (k - 1 + 1) with k in E1 by lia.
    split; [intros [G1 G2]; right; repeat split; lra|intros [(? & _)|(_ & G1 & G2)]; [lra|split; lra]].
  - assert (Px : (0 <= x)%Q) by (apply H0; exact L).
    assert (C : Ok (int_of_Q x) = Ok k <-> int_of_Q x = k).
    { split; [intros G; apply Ok_inj in G; exact G|intros ->; reflexivity]. }
    rewrite C, int_of_Q_nonneg by exact Px. rewrite Hle.
    destruct (Hx (k + 1)) as [_ Hk]. rewrite Q1 in Hk. rewrite Hk.
    split; [intros [G1 G2]; left; repeat split; assumption|intros [(_ & G1 & G2)|(? & _)]; [split; assumption|lra]].
Qed.

Lemma border_0 : (border 0 == lower)%Q.
Proof.
  unfold border. change (inject_Z 0) with 0%Q. field. exact (inject_nz n Hn).
Qed.

Lemma border_n : (border n == upper)%Q.
Proof.
  unfold border. field. exact (inject_nz n Hn).
Qed.

Lemma border_mono : forall a b, a <= b -> (border a <= border b)%Q.
Proof.
  intros a b H. unfold border. pose proof layer_pos as Hp.
  assert (Hab : (inject_Z a <= inject_Z b)%Q) by (apply inject_le; exact H).
  assert (Hn' : (0 < inject_Z n)%Q) by (apply inject_pos; exact Hn).
  assert (E : forall j, (lower + inject_Z j * (upper - lower) / inject_Z n ==
                         lower + inject_Z j * ((upper - lower) / inject_Z n))%Q) by (intros j; field; lra).
  rewrite !E. pose proof (Qmult_le_compat_r _ _ ((upper - lower) / inject_Z n)%Q Hab ltac:(lra)). lra.
Qed.

Lemma border_lt : forall a b, (border a < border b)%Q -> a < b.
Proof.
  intros a b H. destruct (Z_lt_le_dec a b) as [G|G]; [exact G|].
  apply border_mono in G. lra.
Qed.
End Layer.

Ltac qlra := cbn beta zeta in *; lra.

(** A height of the domain is in the layer that is read: the layer exists and
    its two borders enclose the height. *)
Theorem C54_layer_contains_height :
  forall lower upper n h, (lower < upper)%Q -> 0 < n -> (lower <= h < upper)%Q ->
  exists k, layer_from_height lower upper n h = Ok k /\ 0 <= k < n /\
    (lower + inject_Z k * (upper - lower) / inject_Z n <= h)%Q /\
    (h < lower + inject_Z (k + 1) * (upper - lower) / inject_Z n)%Q.
Proof.
  intros lower upper n h Hlu Hn [H1 H2].
  destruct (layer_ok lower upper n Hlu h) as (k & Hk). exists k. split; [exact Hk|].
  apply layer_char in Hk; [|assumption|assumption]. destruct Hk as [(_ & G1 & G2)|(G & _)]; [|qlra].
  split; [|split; assumption]. split.
  - assert (0 < k + 1); [|lia]. apply (border_lt lower upper n Hlu Hn).
    rewrite border_0 by assumption. qlra.
  - apply (border_lt lower upper n Hlu Hn). rewrite border_n by assumption. qlra.
Qed.
Print Assumptions C54_layer_contains_height.

Example C54_layer_contains_height_ex :
  layer_from_height (1#1) (3#1) 20 (2#1) = Ok 10 /\ layer_from_height (1#1) (3#1) 20 (29#10) = Ok 19.
Proof. split; reflexivity. Qed.

(** Outside the domain: a height at or above the upper bound addresses a layer
    that does not exist; a height less than one layer below the lower bound
    addresses layer 0, a lower one a negative layer. *)
Theorem C54_layer_outside :
  forall lower upper n h k, (lower < upper)%Q -> 0 < n -> layer_from_height lower upper n h = Ok k ->
  (n <= k <-> (upper <= h)%Q) /\
  (k = 0 /\ (h < lower)%Q <-> (lower - (upper - lower) / inject_Z n < h)%Q /\ (h < lower)%Q) /\
  (k < 0 <-> (h <= lower - (upper - lower) / inject_Z n)%Q).
Proof.
  intros lower upper n h k Hlu Hn Hk.
  assert (Hn' : (0 < inject_Z n)%Q) by (apply inject_pos; exact Hn).
  apply layer_char in Hk; [|assumption|assumption].
  pose proof (border_0 lower upper n Hn) as B0. pose proof (border_n lower upper n Hn) as Bn.
  assert (Bm : (lower + inject_Z (-1) * (upper - lower) / inject_Z n == lower - (upper - lower) / inject_Z n)%Q)
    by (change (inject_Z (-1)) with (-1)%Q; field; qlra).
  pose proof (layer_pos lower upper n Hlu Hn) as Hp.
  pose proof (border_mono lower upper n Hlu Hn) as M.
  split; [|split].
  - split; intros H.
    + assert (H1 : 0 <= k - 1) by lia. apply M in H. apply M in H1. cbn zeta beta in H, H1, B0, Bn.
      destruct Hk as [(G & G1 & G2)|(G & G1 & G2)]; qlra.
    + destruct Hk as [(G & G1 & G2)|(G & G1 & G2)]; [|qlra].
      assert (n < k + 1); [|lia]. apply (border_lt lower upper n Hlu Hn). qlra.
  - split.
    + intros [-> H]. split; [|exact H]. destruct Hk as [(G & _)|(G & G1 & G2)]; [qlra|].
      change (0 - 1) with (-1) in G1. qlra.
    + intros [H1 H2]. split; [|exact H2]. destruct Hk as [(G & _)|(G & G1 & G2)]; [qlra|].
      assert (k - 1 < 0). { apply (border_lt lower upper n Hlu Hn). qlra. }
      assert (-1 < k). { apply (border_lt lower upper n Hlu Hn). qlra. }
      lia.
  - split; intros H.
    + assert (Hk1 : k <= -1) by lia. apply M in Hk1.
      destruct Hk as [(G & G1 & G2)|(G & G1 & G2)]; [|qlra].
      exfalso. assert (Hk2 : k + 1 <= 0) by lia. apply M in Hk2. qlra.
    + destruct Hk as [(G & G1 & G2)|(G & G1 & G2)]; [qlra|].
      assert (k - 1 < -1); [|lia]. apply (border_lt lower upper n Hlu Hn). qlra.
Qed.
Print Assumptions C54_layer_outside.

Example C54_layer_outside_ex :
  layer_from_height (1#1) (3#1) 20 (3#1) = Ok 20 /\ layer_from_height (1#1) (3#1) 20 (91#100) = Ok 0 /\
  layer_from_height (1#1) (3#1) 20 (9#10) = Ok (-1).
Proof. repeat split; reflexivity. Qed.

Lemma filter_nil_iff : forall {A} (f : A -> bool) l, filter f l = [] <-> forall x, In x l -> f x = false.
Proof.
  intros A f l. induction l as [|a l IH]; simpl; [split; [intros _ x []|reflexivity]|].
  destruct (f a) eqn:E; split.
  - discriminate.
  - intros H. rewrite (H a (or_introl eq_refl)) in E. discriminate.
  - intros H x [<-|Hx]; [exact E|]. apply IH; assumption.
  - intros H. apply IH. intros x Hx. apply H. right. exact Hx.
Qed.

(** The table of a configuration with [n] layers: every result file has the
    columns 0..n-1. *)
Theorem C54_get_extco_at_height :
  forall agg lower upper n tab channel h w, (lower < upper)%Q -> 0 < n ->
  (forall c, In c tab -> 0 <= c_layer c < n) ->
  (forall k, 0 <= k < n -> exists c, In c tab /\ c_channel c = channel /\ c_layer c = k) ->
  (* inside the domain: the columns of the layer that contains the height *)
  ((lower <= h < upper)%Q ->
   exists k, (lower + inject_Z k * (upper - lower) / inject_Z n <= h)%Q /\
     (h < lower + inject_Z (k + 1) * (upper - lower) / inject_Z n)%Q /\
     get_extco_at_height agg lower upper n tab channel h w =
     Ok (map (fun c => (c_array c, moving_average agg w (c_values c)))
             (filter (fun c => (c_channel c =? channel) && (c_layer c =? k)) tab))) /\
  (* up to one layer below: silently the lowest layer *)
  ((lower - (upper - lower) / inject_Z n < h)%Q -> (h < lower)%Q ->
   get_extco_at_height agg lower upper n tab channel h w =
   get_extco_at_height agg lower upper n tab channel lower w) /\
  (* elsewhere, also at the upper bound: KeyError *)
  ((upper <= h)%Q \/ (h <= lower - (upper - lower) / inject_Z n)%Q ->
   get_extco_at_height agg lower upper n tab channel h w = Err KeyError).
Proof.
  intros agg lower upper n tab channel h w Hlu Hn Hr Hc.
  assert (ff : forall {A} (f g : A -> bool) l, filter g (filter f l) = filter (fun x => f x && g x) l).
  { intros A f g l. induction l as [|a l IH]; simpl; [reflexivity|].
    destruct (f a); simpl; [destruct (g a); rewrite IH; reflexivity|exact IH]. }
  assert (G : forall k, get_extco_at_layer agg tab channel k w =
    if (0 <=? k) && (k <? n) then
    Ok (map (fun c => (c_array c, moving_average agg w (c_values c)))
             (filter (fun c => (c_channel c =? channel) && (c_layer c =? k)) tab)) else Err KeyError).
  { intros k. unfold get_extco_at_layer. rewrite <- ff.
    set (t := filter (fun c => c_channel c =? channel) tab).
    destruct ((0 <=? k) && (k <? n)) eqn:E.
    - rewrite andb_true_iff, Z.leb_le, Z.ltb_lt in E. destruct (Hc k E) as (c & Hin & Hch & Hl).
      assert (Ht : In c t) by (apply filter_In; split; [exact Hin|apply Z.eqb_eq; exact Hch]).
      assert (Ht' : In c (filter (fun c => c_layer c =? k) t))
        by (apply filter_In; split; [exact Ht|apply Z.eqb_eq; exact Hl]).
      clearbody t. destruct t as [|c0 t0]; [destruct Ht|].
      destruct (filter (fun c => c_layer c =? k) (c0 :: t0)) eqn:Ef; [destruct Ht'|]. reflexivity.
    - assert (Ef : filter (fun c => c_layer c =? k) t = []).
      { apply filter_nil_iff. intros c Hin. apply filter_In in Hin. destruct Hin as [Hin _].
        specialize (Hr c Hin). apply Z.eqb_neq. intros C. rewrite C in Hr.
        rewrite andb_false_iff, Z.leb_gt, Z.ltb_ge in E. lia. }
      clearbody t. destruct t as [|c0 t0]; [reflexivity|]. rewrite Ef. reflexivity. }
  unfold get_extco_at_height. split; [|split].
  - intros Hh. destruct (C54_layer_contains_height lower upper n h Hlu Hn Hh) as (k & -> & Hk & B1 & B2).
    exists k. split; [exact B1|split; [exact B2|]]. cbn [bind]. rewrite G.
    replace ((0 <=? k) && (k <? n)) with true by lia. reflexivity.
  - intros H1 H2. destruct (layer_ok lower upper n Hlu h) as (k & Hk).
    destruct (C54_layer_outside lower upper n h k Hlu Hn Hk) as (_ & [_ O2] & _).
    destruct (O2 (conj H1 H2)) as [-> _]. rewrite Hk.
    destruct (C54_layer_contains_height lower upper n lower Hlu Hn ltac:(qlra)) as (k' & Hk' & R' & B1 & B2).
    rewrite Hk'. cbn [bind]. f_equal.
    assert (k' < 1); [|lia]. apply (border_lt lower upper n Hlu Hn).
    pose proof (border_mono lower upper n Hlu Hn). pose proof (border_0 lower upper n Hn) as B0.
    pose proof (layer_pos lower upper n Hlu Hn) as Hp.
    assert (Hn' : (0 < inject_Z n)%Q) by (apply inject_pos; exact Hn).
    assert (Bp : (lower + inject_Z 1 * (upper - lower) / inject_Z n == lower + (upper - lower) / inject_Z n)%Q)
      by (change (inject_Z 1) with 1%Q; field; qlra).
    qlra.
  - intros H. destruct (layer_ok lower upper n Hlu h) as (k & Hk). rewrite Hk. cbn [bind]. rewrite G.
    destruct (C54_layer_outside lower upper n h k Hlu Hn Hk) as ([_ O1] & _ & [_ O3]).
    destruct H as [H|H]; [specialize (O1 H)|specialize (O3 H)];
      replace ((0 <=? k) && (k <? n)) with false by lia; reflexivity.
Qed.
Print Assumptions C54_get_extco_at_height.

Example C54_get_extco_at_height_ex :
  let tab := file_columns 0 3 [[Some 1%Q]; [Some 2%Q]] in
  get_extco_at_height mean 1 3 2 tab 0 (5#2) 1 = Ok [(3, [Some 2%Q])] /\
  get_extco_at_height mean 1 3 2 tab 0 (1#2) 1 = Ok [(3, [Some 1%Q])] /\
  get_extco_at_height mean 1 3 2 tab 0 3 1 = Err KeyError.
Proof. repeat split; reflexivity. Qed.

(** ** C55 *)

Lemma all_some_spec : forall {A} (l : list (option A)) r, all_some l = Some r <-> l = map Some r.
Proof.
  intros A. induction l as [|[a|] l IH]; intros r; simpl.
  - split; [intros H; injection H as <-; reflexivity|destruct r; [reflexivity|discriminate]].
  - destruct (all_some l) as [r'|] eqn:E.
    + split.
      * intros H. injection H as <-. simpl. f_equal. apply IH. reflexivity.
      * intros H. destruct r as [|b r]; [discriminate|]. injection H as -> H. apply IH in H. congruence.
    + split; [discriminate|]. intros H. destruct r as [|b r]; [discriminate|].
      injection H as -> H. apply IH in H. discriminate.
  - split; [discriminate|]. destruct r; discriminate.
Qed.

Lemma nth_error_seq0 : forall n i, (i < n)%nat -> nth_error (seq 0 n) i = Some i.
Proof. intros n i H. rewrite (nth_error_nth' _ 0%nat) by (rewrite seq_length; exact H). now rewrite seq_nth. Qed.

Lemma nth_error_firstn_lt : forall {A} n i (l : list A), (i < n)%nat -> nth_error (firstn n l) i = nth_error l i.
Proof.
  induction n as [|n IH]; intros i l H; [lia|]. destruct l as [|a l]; [reflexivity|].
  destruct i; [reflexivity|]. simpl. apply IH. lia.
Qed.

Lemma nth_error_skipn_add : forall {A} n i (l : list A), nth_error (skipn n l) i = nth_error l (n + i).
Proof.
  induction n as [|n IH]; intros i l; [reflexivity|]. destruct l as [|a l]; [destruct i; reflexivity|]. apply IH.
Qed.

(** With a window of w >= 2 steps, the smoothed value at step t is the mean (or
    median, ...) of exactly the w values at the steps t-(w-w/2) .. t+w/2-1; it is
    missing iff this range leaves the data or a value is missing. *)
Theorem C55_window :
  forall (A : Type) (agg : list A -> A) w s, (2 <= w)%nat ->
  length (moving_average agg w s) = length s /\
  forall t, (t < length s)%nat ->
  forall v, nth_error (moving_average agg w s) t = Some (Some v) <->
    exists vs, length vs = w /\ v = agg vs /\
      forall j, (j < w)%nat -> exists i, Z.of_nat i = Z.of_nat t - Z.of_nat (w - w / 2) + Z.of_nat j /\
        nth_error s i = Some (nth_error vs j).
Proof.
  intros A agg w s Hw. unfold moving_average.
  replace (w =? 1)%nat with false by (symmetry; apply Nat.eqb_neq; lia).
  assert (LR : length (rolling agg w s) = length s) by (unfold rolling; rewrite map_length, seq_length; reflexivity).
  unfold shift. split; [rewrite map_length, seq_length; exact LR|].
  intros t Ht v. rewrite nth_error_map, nth_error_seq0 by (rewrite LR; exact Ht). cbn [option_map].
  unfold rolling. clear LR.
  pose proof (Nat.div_mod w 2 ltac:(lia)) as Dm. pose proof (Nat.mod_upper_bound w 2 ltac:(lia)) as Dr.
  set (q := (w / 2)%nat) in *.
  assert (Hq : (1 <= q)%nat) by lia.
  replace (Z.of_nat t - (- Z.of_nat q + 1)) with (Z.of_nat (t + q - 1)) by lia.
  replace (Z.of_nat (t + q - 1) <? 0) with false by (symmetry; apply Z.ltb_ge; lia). rewrite Nat2Z.id.
  set (e := (t + q - 1)%nat).
  assert (N : nth e (map (rolled agg w s) (seq 0 (length s))) None =
              if (e <? length s)%nat then rolled agg w s e else None).
  { destruct (e <? length s)%nat eqn:E.
    - apply Nat.ltb_lt in E. apply nth_error_nth. rewrite nth_error_map, nth_error_seq0 by exact E. reflexivity.
    - apply Nat.ltb_ge in E. apply nth_overflow. rewrite map_length, seq_length. exact E. }
  rewrite N. clear N. unfold rolled. split.
  - destruct (e <? length s)%nat eqn:E; [|discriminate]. apply Nat.ltb_lt in E.
    destruct (S e <? w)%nat eqn:E2; [discriminate|]. apply Nat.ltb_ge in E2.
    destruct (all_some (firstn w (skipn (S e - w) s))) as [vs|] eqn:F; [|discriminate].
    cbn [option_map]. intros H. injection H as <-. apply all_some_spec in F.
    assert (L : length vs = w).
    { rewrite <- (map_length Some), <- F, firstn_length, skipn_length. lia. }
    exists vs. split; [exact L|split; [reflexivity|]]. intros j Hj.
    exists (S e - w + j)%nat. split; [lia|].
    rewrite <- nth_error_skipn_add, <- (nth_error_firstn_lt w) by exact Hj. rewrite F, nth_error_map.
    destruct (nth_error vs j) eqn:G; [reflexivity|]. apply nth_error_None in G. lia.
  - intros (vs & L & -> & H).
    destruct (H 0%nat ltac:(lia)) as (i0 & Hi0 & _).
    destruct (H (w - 1)%nat ltac:(lia)) as (i1 & Hi1 & G1).
    assert (i1 < length s)%nat by (apply nth_error_Some; congruence).
    assert (e = i1) by lia.
    replace (e <? length s)%nat with true by (symmetry; apply Nat.ltb_lt; lia).
    replace (S e <? w)%nat with false by (symmetry; apply Nat.ltb_ge; lia).
    assert (F : all_some (firstn w (skipn (S e - w) s)) = Some vs).
    { apply all_some_spec. apply nth_error_ext_Z. intros j. rewrite nth_error_map.
      destruct (Nat.lt_ge_cases j w) as [Hj|Hj].
      - rewrite nth_error_firstn_lt by exact Hj. rewrite nth_error_skipn_add.
        destruct (H j Hj) as (i & Hi & G). replace (S e - w + j)%nat with i by lia. rewrite G.
        destruct (nth_error vs j) eqn:G2; [reflexivity|]. apply nth_error_None in G2. lia.
      - rewrite (proj2 (nth_error_None vs j)) by lia. cbn [option_map]. apply nth_error_None.
        rewrite firstn_length. lia. }
    rewrite F. reflexivity.
Qed.
Print Assumptions C55_window.

Example C55_window_ex :
  moving_average mean 3 [Some 3%Q; Some 6%Q; Some 9%Q; Some 0%Q] = [None; None; Some (18 # 3)%Q; Some (15 # 3)%Q] /\
  moving_average mean 4 [Some 1%Q; Some 2%Q; Some 3%Q; Some 4%Q; Some 5%Q] = [None; None; Some (10 # 4)%Q; Some (14 # 4)%Q; None].
Proof. split; vm_compute; reflexivity. Qed.

(** The window has one more past step than future steps for even w, and two
    more for odd w: it is never centred, whatever the documentation says. *)
Theorem C55_window_is_never_centred :
  forall w, (2 <= w)%nat ->
  let past := (w - w / 2)%nat in let future := (w / 2 - 1)%nat in
  (past + 1 + future = w)%nat /\
  (past = future + (if Nat.even w then 1 else 2))%nat.
Proof.
  intros w Hw. cbn zeta. pose proof (Nat.div_mod w 2 ltac:(lia)) as Dm.
  pose proof (Nat.mod_upper_bound w 2 ltac:(lia)) as Dr.
  destruct (Nat.even w) eqn:E.
  - apply Nat.even_spec in E. destruct E as (k & ->). rewrite (Nat.mul_comm 2 k), Nat.div_mul in * by lia. lia.
  - assert (O : Nat.odd w = true) by (unfold Nat.odd; rewrite E; reflexivity).
    apply Nat.odd_spec in O. destruct O as (k & ->).
    replace ((2 * k + 1) / 2)%nat with k in *; [lia|].
    rewrite (Nat.mul_comm 2 k), Nat.div_add_l by lia. change (1 / 2)%nat with 0%nat. lia.
Qed.
Print Assumptions C55_window_is_never_centred.

Lemma sumQ_ramp : forall a b vs k, (forall j, (j < length vs)%nat -> exists x, nth_error vs j = Some x /\
    (x == a + b * inject_Z (k + Z.of_nat j))%Q) ->
  (sumQ vs * 2 == inject_Z (Z.of_nat (length vs)) * (2 * a + b * inject_Z (2 * k + Z.of_nat (length vs) - 1)))%Q.
Proof.
  intros a b. induction vs as [|x vs IH]; intros k H.
  - cbn. ring.
  - cbn [sumQ fold_right length]. change (fold_right Qplus 0%Q vs) with (sumQ vs).
    destruct (H 0%nat ltac:(simpl; lia)) as (y & E & Hy). cbn in E. injection E as <-.
    assert (I : (sumQ vs * 2 == inject_Z (Z.of_nat (length vs)) *
                 (2 * a + b * inject_Z (2 * (k + 1) + Z.of_nat (length vs) - 1)))%Q).
    { apply IH. intros j Hj. destruct (H (S j) ltac:(simpl; lia)) as (z & E & Hz). exists z. split; [exact E|].
      rewrite Hz. replace (k + 1 + Z.of_nat j) with (k + Z.of_nat (S j)) by lia. reflexivity. }
    rewrite Qmult_plus_distr_l, I, Hy. rewrite Nat2Z.inj_succ, Z.add_0_r. unfold Z.succ, Z.sub.
    rewrite !inject_Z_plus, !inject_Z_mult, !inject_Z_plus. change (inject_Z (-(1))) with (-(1))%Q.
    change (inject_Z 1) with 1%Q. change (inject_Z 2) with 2%Q. ring.
Qed.

(** What this means for a steadily rising signal: the smoothed signal lags by
    half a step (even w) or a whole step (odd w). *)
Theorem C55_smoothing_delays_a_ramp :
  forall w s t v (a b : Q), (2 <= w)%nat -> (t < length s)%nat ->
  (forall i x, nth_error s i = Some (Some x) -> (x == a + b * inject_Z (Z.of_nat i))%Q) ->
  nth_error (moving_average mean w s) t = Some (Some v) ->
  (v == a + b * (inject_Z (Z.of_nat t) - (if Nat.even w then 1 # 2 else 1)))%Q.
Proof.
  intros w s t v a b Hw Ht Hs Hv.
  apply (proj2 (C55_window Q mean w s Hw) t Ht v) in Hv. destruct Hv as (vs & L & -> & H).
  assert (R : (sumQ vs * 2 == inject_Z (Z.of_nat w) *
     (2 * a + b * inject_Z (2 * (Z.of_nat t - Z.of_nat (w - w / 2)) + Z.of_nat w - 1)))%Q).
  { rewrite <- L at 1. rewrite (sumQ_ramp a b vs (Z.of_nat t - Z.of_nat (w - w / 2))); [rewrite L; reflexivity|].
    intros j Hj. destruct (H j ltac:(lia)) as (i & Hi & G).
    destruct (nth_error vs j) as [x|] eqn:E; [|apply nth_error_None in E; lia].
    exists x. split; [reflexivity|]. rewrite (Hs i x G), Hi. reflexivity. }
  unfold mean. rewrite L.
  assert (W : ~ (inject_Z (Z.of_nat w) == 0)%Q).
  { apply inject_nz. lia. }
  assert (R2 : (sumQ vs / inject_Z (Z.of_nat w) ==
     a + b * (inject_Z (2 * (Z.of_nat t - Z.of_nat (w - w / 2)) + Z.of_nat w - 1) * (1 # 2)))%Q).
  { apply (Qmult_inj_r _ _ (2 * inject_Z (Z.of_nat w))); [intros C; apply Qmult_integral in C; destruct C; [discriminate|contradiction]|].
    transitivity (sumQ vs * 2)%Q; [field; exact W|]. rewrite R. field. }
  rewrite R2. pose proof (C55_window_is_never_centred w Hw) as (P1 & P2). cbn zeta in P1, P2.
  assert (E : 2 * (Z.of_nat t - Z.of_nat (w - w / 2)) + Z.of_nat w - 1 =
              2 * Z.of_nat t + - (if Nat.even w then 1 else 2)) by (destruct (Nat.even w); lia).
  rewrite E, inject_Z_plus, inject_Z_mult.
  destruct (Nat.even w); change (inject_Z 2) with 2%Q; [change (inject_Z (- (1))) with (- (1))%Q|change (inject_Z (- (2))) with (- (2))%Q];
    field.
Qed.
Print Assumptions C55_smoothing_delays_a_ramp.

Example C55_smoothing_delays_a_ramp_ex :
  let s := map (fun i => Some (10 + 2 * inject_Z (Z.of_nat i)))%Q (seq 0 6) in
  nth_error (moving_average mean 3 s) 4 = Some (Some (48 # 3)%Q) /\ (48 # 3 == 10 + 2 * (4 - 1))%Q.
Proof. split; vm_compute; reflexivity. Qed.

(** ** C57 *)

Lemma first_min_spec : forall f l b, exists pre,
  (b = first_min f b l \/ exists post, l = (pre ++ first_min f b l :: post)%list) /\
  (forall x, x = b \/ In x l -> (f (first_min f b l) <= f x)%Q) /\
  (first_min f b l = b \/ ((f (first_min f b l) < f b)%Q /\ forall x, In x pre -> (f (first_min f b l) < f x)%Q)).
Proof.
  intros f. induction l as [|y l IH]; intros b; cbn [first_min].
  - exists []. split; [left; reflexivity|split; [intros x [->|[]]; apply Qle_refl|left; reflexivity]].
  - destruct (Qle_bool (f b) (f y)) eqn:E.
    + apply Qle_bool_iff in E. destruct (IH b) as (pre & H1 & H2 & H3). exists (y :: pre).
      split; [|split].
      * destruct H1 as [H1|(post & H1)]; [left; exact H1|right; exists post; rewrite H1 at 1; reflexivity].
      * intros x [->|[<-|Hx]]; [apply H2; auto| |apply H2; auto].
        apply Qle_trans with (f b); [apply H2; auto|exact E].
      * destruct H3 as [H3|[H3 H4]]; [left; exact H3|right; split; [exact H3|]].
        intros x [<-|Hx]; [|apply H4; exact Hx]. apply Qlt_le_trans with (f b); assumption.
    + assert (E' : (f y < f b)%Q).
      { apply Qnot_le_lt. intros G. apply Qle_bool_iff in G. congruence. }
      destruct (IH y) as (pre & H1 & H2 & H3).
      destruct H3 as [H3|[H3 H4]].
      * exists []. split; [right; exists l; rewrite H3; reflexivity|split].
        -- intros x [->|[<-|Hx]]; [|apply H2; auto|apply H2; auto]. rewrite H3. apply Qlt_le_weak. exact E'.
        -- right. rewrite H3. split; [exact E'|intros x []].
      * exists (y :: pre). split; [|split].
        -- right. destruct H1 as [H1|(post & H1)]; [rewrite <- H1 in H3; exfalso; lra|].
           exists post. rewrite H1 at 1. reflexivity.
        -- intros x [->|[<-|Hx]]; [|apply H2; auto|apply H2; auto].
           apply Qlt_le_weak. apply Qlt_trans with (f y); assumption.
        -- right. split; [apply Qlt_trans with (f y); assumption|].
           intros x [<-|Hx]; [exact H3|apply H4; exact Hx].
Qed.

(** The result is a time of the table, no time of the table is closer to the
    request, and every earlier row is strictly farther away; for an empty table
    there is an error. *)
Theorem C57_closest_time :
  forall index time,
  (index = [] /\ get_closest_time index time = Err ValueError) \/
  exists pre t post, index = (pre ++ t :: post)%list /\ get_closest_time index time = Ok t /\
    (forall x, In x index -> (Qabs (t - time) <= Qabs (x - time))%Q) /\
    (forall x, In x pre -> (Qabs (t - time) < Qabs (x - time))%Q).
Proof.
  intros index time. destruct index as [|b l]; [left; split; reflexivity|]. right.
  unfold get_closest_time.
  destruct (first_min_spec (fun t => Qabs (t - time)) l b) as (pre & H1 & H2 & H3).
  set (m := first_min (fun t => Qabs (t - time)) b l) in *.
  assert (H2' : forall x, In x (b :: l) -> (Qabs (m - time) <= Qabs (x - time))%Q)
    by (intros x [<-|Hx]; apply H2; auto).
  destruct H3 as [H3|[H3 H4]].
  - exists [], m, l. rewrite <- H3 at 1. split; [reflexivity|split; [reflexivity|split; [exact H2'|intros x []]]].
  - destruct H1 as [H1|(post & H1)]; [exfalso; rewrite <- H1 in H3; lra|].
    exists (b :: pre), m, post. split; [rewrite H1 at 1; reflexivity|split; [reflexivity|split; [exact H2'|]]].
    intros x [<-|Hx]; [exact H3|apply H4; exact Hx].
Qed.
Print Assumptions C57_closest_time.

Example C57_closest_time_ex :
  get_closest_time [0; 10; 20; 30]%Q 15%Q = Ok 10%Q /\ get_closest_time [0; 10; 20; 30]%Q 16%Q = Ok 20%Q.
Proof. split; reflexivity. Qed.

(** ** C56 *)

(** The specification: the shifts made after the last reading of the results,
    the times read then, and the last shift of all. *)
Fixpoint since_read (ops : list op) (acc : option (list Z * list Z)) : option (list Z * list Z) :=
  match ops with
  | [] => acc
  | Read t :: r => since_read r (Some (t, []))
  | Shift d :: r => since_read r (option_map (fun p => (fst p, snd p ++ [d])%list) acc)
  end.

Definition last_shift (ops : list op) : Z :=
  last (flat_map (fun o => match o with Shift d => [d] | Read _ => [] end) ops) 0.

Definition sumZ (l : list Z) : Z := fold_right Z.add 0 l.

Lemma sumZ_app : forall a b, sumZ (a ++ b) = sumZ a + sumZ b.
Proof. induction a as [|x a IH]; intros b; simpl; [reflexivity|]. unfold sumZ in IH |- *. rewrite IH. lia. Qed.

Lemma run_extco : forall ops s acc,
  s_extco s = option_map (fun p => map (fun x => x + sumZ (snd p)) (fst p)) acc ->
  s_extco (fold_left apply_op ops s) =
  option_map (fun p => map (fun x => x + sumZ (snd p)) (fst p)) (since_read ops acc).
Proof.
  induction ops as [|o ops IH]; intros s acc H; cbn [fold_left since_read]; [exact H|].
  destruct o as [d|t]; apply IH; cbn [apply_op s_extco].
  - rewrite H. destruct acc as [[t ds]|]; [|reflexivity]. cbn [option_map fst snd]. f_equal.
    rewrite map_map. apply map_ext. intros x. rewrite sumZ_app. cbn. lia.
  - cbn [option_map fst snd]. f_equal. rewrite <- (map_id t) at 1. apply map_ext. intros x. cbn. lia.
Qed.

Lemma run_delta : forall ops s, s_delta (fold_left apply_op ops s) =
  last (flat_map (fun o => match o with Shift d => [d] | Read _ => [] end) ops) (s_delta s).
Proof.
  induction ops as [|o ops IH]; intros s; cbn [fold_left flat_map]; [reflexivity|].
  rewrite IH. destruct o as [d|t]; cbn [apply_op s_delta app]; [|reflexivity].
  destruct (flat_map _ ops) as [|x l]; [reflexivity|]. rewrite <- (app_nil_l (d :: x :: l)).
  cbn [app]. symmetry. generalize d (s_delta s). clear. intros d e.
  change (last (d :: x :: l) e) with (last (x :: l) e).
  revert x. induction l as [|y l IH]; intros x; [reflexivity|]. exact (IH y).
Qed.

(** After any history of readings and shifts the times of the coefficients are
    those of the last reading plus the sum of all later shifts; the LED
    parameters are shifted by the last shift only. *)
Theorem C56_shift_history :
  forall ops,
  (forall t ds, since_read ops None = Some (t, ds) ->
     s_extco (run ops) = Some (map (fun x => x + sumZ ds) t)) /\
  (since_read ops None = None -> s_extco (run ops) = None) /\
  s_delta (run ops) = last_shift ops.
Proof.
  intros ops. pose proof (run_extco ops new_sim None eq_refl) as H.
  split; [|split].
  - intros t ds E. unfold run. rewrite H, E. reflexivity.
  - intros E. unfold run. rewrite H, E. reflexivity.
  - exact (run_delta ops new_sim).
Qed.
Print Assumptions C56_shift_history.

Example C56_shift_history_ex :
  run [Read [0; 1; 2]; Shift 10; Shift 5] = Sim (Some [15; 16; 17]) 5 /\
  run [Shift 10; Read [0; 1; 2]] = Sim (Some [0; 1; 2]) 10.
Proof. split; reflexivity. Qed.

(** Coefficients and LED parameters (per LED array) of the same image have the
    same time iff the shifts since the last reading add up to the last shift. *)
Theorem C56_same_time_axis :
  forall ops t ds num_ref tab array n, since_read ops None = Some (t, ds) -> t <> [] ->
  map r_time (filter (fun r => r_array r =? array) tab) = t ->
  (s_extco (run ops) =
   Some (map (fun p => fst (fst p)) (ledparams_at_led_array num_ref (s_delta (run ops)) tab array n)) <->
   sumZ ds = last_shift ops).
Proof.
  intros ops t ds num_ref tab array n E Ht Htab.
  destruct (C56_shift_history ops) as (H & _ & D). rewrite (H t ds E), D.
  unfold ledparams_at_led_array. rewrite map_map. cbn [fst].
  rewrite <- (map_map r_time (fun x => x + last_shift ops)), Htab.
  split.
  - intros G. apply Some_inj in G. destruct t as [|x t]; [congruence|]. cbn in G. injection G as G _. lia.
  - intros ->. reflexivity.
Qed.
Print Assumptions C56_same_time_axis.

Example C56_same_time_axis_ex :
  let tab := [Row 0 5 1 8%Q; Row 0 7 2 9%Q; Row 1 5 1 6%Q] in
  let times ops := (s_extco (run ops), map (fun p => fst (fst p)) (ledparams_at_led_array 1 (s_delta (run ops)) tab 1 NNone)) in
  map r_time (filter (fun r => r_array r =? 1) tab) = [0; 1] /\
  since_read [Read [0; 1]; Shift 7; Shift (-7); Shift 7] None = Some ([0; 1], [7; -7; 7]) /\
  times [Read [0; 1]; Shift 7; Shift (-7); Shift 7] = (Some [7; 8], [7; 8]) /\
  times [Read [0; 1]; Shift 7; Shift 7] = (Some [14; 15], [7; 8]) /\
  times [Read [0; 1]; Shift 7] = (Some [7; 8], [7; 8]).
Proof. split; [reflexivity|]. split; [reflexivity|]. split; [reflexivity|]. split; reflexivity. Qed.

(** One shift after reading keeps both together; two shifts do not, unless the
    first one is 0. *)
Theorem C56_one_shift_agrees :
  forall t d num_ref tab array n, t <> [] -> map r_time (filter (fun r => r_array r =? array) tab) = t ->
  let s := run [Read t; Shift d] in
  s_extco s = Some (map (fun p => fst (fst p)) (ledparams_at_led_array num_ref (s_delta s) tab array n)).
Proof.
  intros t d num_ref tab array n Ht Htab. cbn zeta.
  apply (C56_same_time_axis [Read t; Shift d] t [d] num_ref tab array n eq_refl Ht Htab).
  cbn. lia.
Qed.
Print Assumptions C56_one_shift_agrees.

Theorem C56_two_shifts_agree_refuted :
  exists t d1 d2 tab, let s := run [Read t; Shift d1; Shift d2] in
  map r_time (filter (fun r => r_array r =? 0) tab) = t /\
  s_extco s <> Some (map (fun p => fst (fst p)) (ledparams_at_led_array 1 (s_delta s) tab 0 NNone)).
Proof.
  exists [0; 1], 10, 5, [Row 0 0 0 7%Q; Row 1 0 0 8%Q]. cbn zeta. split; [reflexivity|].
  vm_compute. discriminate.
Qed.
Print Assumptions C56_two_shifts_agree_refuted.

(** The values per LED are never shifted. *)
Theorem C56_led_values_are_never_shifted :
  forall num_ref delta delta' tab led n,
  ledparams_at_led_id num_ref delta tab led n = ledparams_at_led_id num_ref delta' tab led n /\
  map fst (ledparams_at_led_id num_ref delta tab led n) = map r_time (filter (fun r => r_led r =? led) tab).
Proof. intros. unfold ledparams_at_led_id. split; [reflexivity|]. rewrite map_map. reflexivity. Qed.
Print Assumptions C56_led_values_are_never_shifted.
