(** Lemmas for C26-C30. *)
From Coq Require Import ZArith QArith Qabs Lia Lqa Bool Ascii String List Permutation Sorted.
From Verif Require Import Base Str Images_Model Step3_Model Step2_Proofs Format_Model Format_Proofs Format_Props Table_Model Table_Spec.
Import ListNotations.
Local Open Scope string_scope.
Local Open Scope Z_scope.

Lemma Qtrunc_int : forall q z, (q == inject_Z z)%Q -> Qtrunc q = z.
Proof.
  intros [n d] z H. unfold Qeq, inject_Z in H. cbn [Qnum Qden] in H. rewrite Z.mul_1_r in H.
  unfold Qtrunc. cbn [Qnum Qden]. rewrite H. apply Z.quot_mul. lia.
Qed.

Lemma Forall2_perm : forall A B (R : A -> B -> Prop) bs bs', Permutation bs' bs ->
  forall as_, Forall2 R as_ bs -> exists as', Permutation as' as_ /\ Forall2 R as' bs'.
Proof.
  intros A B R bs bs' P. induction P as [|b l l' P IH|b c l|l l' l'' P1 IH1 P2 IH2]; intros as_ H.
  - exists as_. split; [apply Permutation_refl|exact H].
  - inversion H as [|a ? as0 ? Ha Hl]; subst. destruct (IH as0 Hl) as (as' & Q1 & Q2).
    exists (a :: as'). split; [apply perm_skip; exact Q1|constructor; assumption].
  - inversion H as [|a ? as0 ? Ha Hl]; subst. inversion Hl as [|a2 ? as1 ? Ha2 Hl2]; subst.
    exists (a2 :: a :: as1). split; [apply perm_swap|]. constructor; [assumption|constructor; assumption].
  - destruct (IH2 as_ H) as (as1 & Q1 & Q2). destruct (IH1 as1 Q2) as (as2 & Q3 & Q4).
    exists as2. split; [eapply Permutation_trans; eassumption|exact Q4].
Qed.

Lemma Forall2_sorted : forall A B (R : A -> B -> Prop) (P : A -> A -> Prop) (Q : B -> B -> Prop) as_ bs,
  (forall a a' b b', R a b -> R a' b' -> Q b b' -> P a a') ->
  Forall2 R as_ bs -> StronglySorted Q bs -> StronglySorted P as_.
Proof.
  intros A B R P Q as_ bs H F. induction F as [|a b as_ bs Hab F IH]; intros S; [constructor|].
  inversion S as [|? ? S1 S2]; subst. constructor; [apply IH; exact S1|].
  clear - H Hab F S2. induction F as [|a' b' as_ bs H' F IH]; [constructor|].
  inversion S2 as [|? ? S3 S4]; subst. constructor; [eapply H; eassumption|apply IH; exact S4].
Qed.

(** ** Pairing with the coordinate table *)

Lemma filter_length_le' : forall A (f : A -> bool) l, (List.length (filter f l) <= List.length l)%nat.
Proof. intros A f l. induction l as [|a l IH]; simpl; [lia|]. destruct (f a); simpl; lia. Qed.

Lemma filter_full : forall A (f : A -> bool) l, List.length (filter f l) = List.length l -> filter f l = l.
Proof.
  intros A f l. induction l as [|a l IH]; simpl; [reflexivity|]. destruct (f a); simpl; intros H.
  - f_equal. apply IH. lia.
  - pose proof (filter_length_le' _ f l). lia.
Qed.

Lemma filter_ext_in' : forall A (f g : A -> bool) l, (forall a, In a l -> f a = g a) -> filter f l = filter g l.
Proof.
  intros A f g l H. induction l as [|a l IH]; simpl; [reflexivity|].
  rewrite (H a (or_introl eq_refl)), IH; [reflexivity|]. intros x Hx. apply H. right. exact Hx.
Qed.

Lemma pair_coordinates : forall (cs : list (Q * (Q * Q))) (params : list (list Q)),
  StronglySorted (fun c c' => (fst c < fst c')%Q) cs ->
  StronglySorted (fun r r' => (led_of r < led_of r')%Q) params ->
  (forall r, In r params -> exists c, In c cs /\ (fst c == led_of r)%Q) ->
  Forall2 (fun r c => (fst c == led_of r)%Q)
          params (filter (fun c => existsb (fun r => Qeq_bool (fst c) (led_of r)) params) cs).
Proof.
  induction cs as [|c cs IH]; intros params Sc Sp Hin.
  - destruct params as [|p ps]; [constructor|]. destruct (Hin p (or_introl eq_refl)) as (c & [] & _).
  - inversion Sc as [|? ? Sc1 Sc2]; subst. rewrite Forall_forall in Sc2.
    destruct params as [|p ps].
    { simpl. clear. induction cs as [|x cs IH]; [constructor|simpl; exact IH]. }
    inversion Sp as [|? ? Sp1 Sp2]; subst. rewrite Forall_forall in Sp2.
    destruct (Qeq_bool (fst c) (led_of p)) eqn:E.
    + apply Qeq_bool_iff in E. cbn [filter].
      assert (X : existsb (fun r => Qeq_bool (fst c) (led_of r)) (p :: ps) = true).
      { simpl. replace (Qeq_bool (fst c) (led_of p)) with true; [reflexivity|]. symmetry. apply Qeq_bool_iff. exact E. }
      rewrite X. constructor; [exact E|].
      assert (F : filter (fun c0 => existsb (fun r => Qeq_bool (fst c0) (led_of r)) (p :: ps)) cs =
                  filter (fun c0 => existsb (fun r => Qeq_bool (fst c0) (led_of r)) ps) cs).
      { apply filter_ext_in'. intros x Hx. simpl. specialize (Sc2 x Hx).
        destruct (Qeq_bool (fst x) (led_of p)) eqn:Ex; [|reflexivity]. apply Qeq_bool_iff in Ex. lra. }
      rewrite F. apply IH; [exact Sc1|exact Sp1|].
      intros r Hr. destruct (Hin r (or_intror Hr)) as (c' & [<-|Hc'] & Hk); [|exists c'; split; assumption].
      specialize (Sp2 r Hr). lra.
    + assert (N : ~ (fst c == led_of p)%Q) by (intros C; apply Qeq_bool_iff in C; congruence).
      assert (L : (fst c < led_of p)%Q).
      { destruct (Hin p (or_introl eq_refl)) as (c' & [<-|Hc'] & Hk); [contradiction|]. specialize (Sc2 c' Hc'). lra. }
      cbn [filter].
      assert (X : existsb (fun r => Qeq_bool (fst c) (led_of r)) (p :: ps) = false).
      { apply not_true_iff_false. intros C. apply existsb_exists in C. destruct C as (r & Hr & Er). apply Qeq_bool_iff in Er.
        destruct Hr as [<-|Hr]; [contradiction|]. specialize (Sp2 r Hr). lra. }
      rewrite X. apply IH; [exact Sc1|exact Sp|].
      intros r Hr. destruct (Hin r Hr) as (c' & [<-|Hc'] & Hk); [|exists c'; split; assumption].
      exfalso. destruct Hr as [<-|Hr]; [contradiction|]. specialize (Sp2 r Hr). lra.
Qed.

(** ** [append_coordinates] on usable coordinates *)

Definition wh_of (coord : option (list (Q * (Q * Q)))) (id : Q) (w h : cell) : Prop :=
  match coord with
  | None => w = None /\ h = None
  | Some co => exists c, In c co /\ (fst c == id)%Q /\ w = Some (fst (snd c)) /\ h = Some (snd (snd c))
  end.

Lemma append_coordinates_ok : forall coord params,
  StronglySorted (fun r r' => (led_of r <= led_of r')%Q) params ->
  match coord with
  | None => True
  | Some cs => StronglySorted (fun c c' => (fst c < fst c')%Q) cs /\
               StronglySorted (fun r r' => ~ (led_of r == led_of r')%Q) params /\
               forall r, In r params -> exists c, In c cs /\ (fst c == led_of r)%Q
  end ->
  exists e, append_coordinates coord params = Ok e /\
    Forall2 (fun r x => exists w h, x = (map Some r ++ [w; h])%list /\ wh_of coord (led_of r) w h) params e.
Proof.
  intros [cs|] params S H.
  - destruct H as (Sc & Nd & Hin). unfold append_coordinates.
    assert (Sp : StronglySorted (fun r r' => (led_of r < led_of r')%Q) params).
    { clear - S Nd. induction S as [|r l S IH F]; [constructor|]. inversion Nd as [|? ? N1 N2]; subst. constructor; [apply IH; exact N1|].
      rewrite Forall_forall in *. intros x Hx. specialize (F x Hx). specialize (N2 x Hx).
      destruct (Qle_lt_or_eq _ _ F) as [G|G]; [exact G|contradiction]. }
    pose proof (pair_coordinates cs params Sc Sp Hin) as P.
    set (fl := filter (fun c => existsb (fun r => Qeq_bool (fst c) (led_of r)) params) cs) in *.
    assert (Hin' : forall c, In c fl -> In c cs) by (intros c Hc; apply filter_In in Hc; apply Hc).
    assert (E : (if (List.length params =? List.length cs)%nat then cs else fl) = fl).
    { destruct (List.length params =? List.length cs)%nat eqn:E; [|reflexivity]. apply Nat.eqb_eq in E.
      symmetry. apply filter_full. fold fl. rewrite <- E. symmetry. apply (Forall2_len _ _ _ P). }
    cbv zeta. rewrite E. rewrite <- (Forall2_len _ _ _ P), Nat.eqb_refl. eexists. split; [reflexivity|].
    clear E. clearbody fl. clear S Sp Nd Sc Hin.
    induction P as [|r c params fl Hk P IH]; [constructor|]. cbn [combine map fst snd]. constructor.
    + eexists. eexists. split; [reflexivity|]. exists c. split; [apply Hin'; left; reflexivity|]. split; [exact Hk|split; reflexivity].
    + apply IH. intros x Hx. apply Hin'. right. exact Hx.
  - eexists. split; [reflexivity|]. clear. induction params as [|r l IH]; [constructor|]. cbn [map]. constructor; [|exact IH].
    exists None, None. split; [reflexivity|]. split; reflexivity.
Qed.

Lemma mapM_all : forall A B (f : A -> res B) (R : A -> B -> Prop) l,
  (forall a, In a l -> exists b, f a = Ok b /\ R a b) -> exists bs, mapM f l = Ok bs /\ Forall2 R l bs.
Proof.
  intros A B f R l. induction l as [|a l IH]; intros H; [exists []; split; [reflexivity|constructor]|].
  destruct (H a (or_introl eq_refl)) as (b & E & Hb). destruct IH as (bs & E2 & F); [intros x Hx; apply H; right; exact Hx|].
  exists (b :: bs). cbn [mapM]. rewrite E. cbn [bind]. rewrite E2. split; [reflexivity|constructor; assumption].
Qed.

Lemma mapM_map_ok : forall A B (f : A -> res B) g l, (forall a, In a l -> f a = Ok (g a)) -> mapM f l = Ok (map g l).
Proof.
  intros A B f g l H. induction l as [|a l IH]; [reflexivity|]. cbn [mapM map]. rewrite (H a (or_introl eq_refl)). cbn [bind].
  rewrite IH; [reflexivity|]. intros x Hx. apply H. right. exact Hx.
Qed.

Lemma mapM_err : forall A B (f : A -> res B) l, (exists a, In a l /\ exists e, f a = Err e) -> exists e, mapM f l = Err e.
Proof.
  intros A B f l. induction l as [|a l IH]; intros (x & Hx & e & He); [destruct Hx|]. cbn [mapM].
  destruct (f a) as [b|e'] eqn:E; [|exists e'; reflexivity]. cbn [bind].
  destruct Hx as [->|Hx]; [congruence|]. destruct IH as (e2 & ->); [exists x; split; [exact Hx|exists e; exact He]|]. exists e2. reflexivity.
Qed.

(** ** Conversion of the integer columns *)

Definition conv (row : list cell) : list cell :=
  match row with
  | Some a :: Some b :: Some c :: Some s :: Some m :: Some x :: l =>
    Some (inject_Z (Qtrunc a)) :: Some (inject_Z (Qtrunc b)) :: Some (inject_Z (Qtrunc c)) ::
    Some (inject_Z (Qtrunc s)) :: Some m :: Some (inject_Z (Qtrunc x)) :: l
  | _ => row
  end.

Definition six (row : list cell) : Prop :=
  exists a b c s m x l, row = Some a :: Some b :: Some c :: Some s :: Some m :: Some x :: l.

Definition convert_all (f : frame) : res frame :=
  bind (column_to_int "img_id" f) (fun f1 =>
  bind (column_to_int "led_id" f1) (fun f2 =>
  bind (column_to_int "led_array_id" f2) (fun f3 =>
  bind (column_to_int "max_col_val" f3) (fun f4 =>
  column_to_int "sum_col_val" f4)))).

Lemma convert_all_ok : forall rest rs, Forall six rs ->
  convert_all (Frame (fast_columns ++ rest) rs) = Ok (Frame (fast_columns ++ rest) (map conv rs)).
Proof.
  intros rest rs H. unfold convert_all.
  assert (C : forall name k rs (g : list cell -> list cell), col_index name (fast_columns ++ rest) = Some k ->
     (forall r, In r rs -> row_to_int k r = Ok (g r)) ->
     column_to_int name (Frame (fast_columns ++ rest) rs) = Ok (Frame (fast_columns ++ rest) (map g rs))).
  { intros name k rs0 g E Hg. unfold column_to_int. cbn [cols rows]. rewrite E, (mapM_map_ok _ _ _ g _ Hg). reflexivity. }
  set (t := fun k (row : list cell) => match row_to_int k row with Ok r => r | Err _ => row end).
  assert (T : forall k rs, (k < 6)%nat -> Forall six rs -> (forall r, In r rs -> row_to_int k r = Ok (t k r)) /\ Forall six (map (t k) rs)).
  { intros k rs0 Hk Hs. rewrite Forall_forall in Hs. split.
    - intros r Hr. destruct (Hs r Hr) as (a & b & c & s & m & x & l & ->). unfold t.
      destruct k as [|[|[|[|[|[|k]]]]]]; [reflexivity..|lia].
    - apply Forall_forall. intros r' Hr'. apply in_map_iff in Hr'. destruct Hr' as (r & <- & Hr).
      destruct (Hs r Hr) as (a & b & c & s & m & x & l & ->).
      destruct k as [|[|[|[|[|[|k]]]]]]; [do 7 eexists; reflexivity..|lia]. }
  destruct (T 0%nat rs ltac:(lia) H) as (A0 & H0).
  rewrite (C "img_id" 0%nat rs _ eq_refl A0). cbn [bind].
  destruct (T 1%nat _ ltac:(lia) H0) as (A1 & H1).
  rewrite (C "led_id" 1%nat _ _ eq_refl A1). cbn [bind].
  destruct (T 2%nat _ ltac:(lia) H1) as (A2 & H2).
  rewrite (C "led_array_id" 2%nat _ _ eq_refl A2). cbn [bind].
  destruct (T 5%nat _ ltac:(lia) H2) as (A3 & H3).
  rewrite (C "max_col_val" 5%nat _ _ eq_refl A3). cbn [bind].
  destruct (T 3%nat _ ltac:(lia) H3) as (A4 & H4).
  rewrite (C "sum_col_val" 3%nat _ _ eq_refl A4).
  do 2 f_equal. rewrite !map_map. apply map_ext_in. intros r Hr. rewrite Forall_forall in H.
  destruct (H r Hr) as (a & b & c & s & m & x & l & ->). reflexivity.
Qed.

(** ** One image *)

Lemma to_fragment_ok : forall cs id m, Forall (fun r => S (List.length r) = List.length cs) m ->
  to_fragment cs id m = Ok (map (fun r => Some (inject_Z id) :: r) m).
Proof.
  intros cs id m H. unfold to_fragment.
  replace (forallb _ _) with true; [reflexivity|]. symmetry. apply forallb_forall. intros x Hx.
  apply in_map_iff in Hx. destruct Hx as (r & <- & Hr). rewrite Forall_forall in H. apply Nat.eqb_eq. apply H. exact Hr.
Qed.

(** General statement for files whose rows satisfy [R]. *)
Lemma load_image_ok : forall srt coord files cs id lines (ds : list (led_data fit_data)) m (R : led_data fit_data -> list Q -> Prop),
  sorts srt -> files id = Some lines -> read_matrix lines = Ok m -> Forall2 R ds m ->
  (forall d r, R d r -> (led_of r == inject_Z (d_id d))%Q) ->
  (forall d r, R d r -> (List.length r + 3)%nat = List.length cs) ->
  coords_usable coord ds ->
  exists part, load_image srt coord files cs id = Ok part /\
    rows_of_image (fun d x => exists r w h, R d r /\ x = (Some (inject_Z id) :: map Some r ++ [w; h])%list /\
                                            wh_of coord (inject_Z (d_id d)) w h) ds part.
Proof.
  intros srt coord files cs id lines ds m R Hs Hf Hm HR Hid Hw Hc.
  unfold load_image. rewrite Hf, Hm. cbn [bind]. destruct (Hs m) as (P & S).
  destruct (Forall2_perm _ _ R m (srt m) P ds HR) as (ds' & P' & HR').
  assert (Sd : StronglySorted (fun d d' => d_id d <= d_id d') ds').
  { eapply Forall2_sorted; [|exact HR'|exact S]. intros a a' b b' A1 A2 L. cbv beta in L.
    rewrite (Hid _ _ A1), (Hid _ _ A2) in L. rewrite <- Zle_Qle in L. exact L. }
  destruct (append_coordinates_ok coord (srt m) S) as (e & E1 & E2).
  { destruct coord as [co|]; [|exact I]. destruct Hc as (C1 & C2 & C3). split; [exact C1|].
    assert (Nd : NoDup (map d_id ds')) by (eapply Permutation_NoDup; [apply Permutation_map, Permutation_sym, P'|exact C2]).
    split.
    - clear - HR' Nd Hid. induction HR' as [|d r ds' rs H1 H2 IH]; [constructor|].
      cbn [map] in Nd. inversion Nd as [|? ? N1 N2]; subst. constructor; [apply IH; exact N2|].
      apply Forall_forall. intros r' Hr'. intros C.
      assert (X : exists d', In d' ds' /\ R d' r').
      { clear - H2 Hr'. induction H2 as [|d r ds' rs H1 H2 IH]; [destruct Hr'|]. destruct Hr' as [<-|Hr'].
        - exists d. split; [left; reflexivity|exact H1].
        - destruct (IH Hr') as (d' & I1 & I2). exists d'. split; [right; exact I1|exact I2]. }
      destruct X as (d' & I1 & I2). rewrite (Hid _ _ H1), (Hid _ _ I2) in C. rewrite inject_Z_injective in C.
      apply N1. rewrite C. apply in_map. exact I1.
    - intros r Hr. assert (X : exists d', In d' ds' /\ R d' r).
      { clear - HR' Hr. induction HR' as [|d r' ds' rs H1 H2 IH]; [destruct Hr|]. destruct Hr as [<-|Hr].
        - exists d. split; [left; reflexivity|exact H1].
        - destruct (IH Hr) as (d' & I1 & I2). exists d'. split; [right; exact I1|exact I2]. }
      destruct X as (d' & I1 & I2). destruct (C3 d') as (c & K1 & K2); [eapply Permutation_in; eassumption|].
      exists c. split; [exact K1|]. rewrite K2, (Hid _ _ I2). reflexivity. }
  rewrite E1. cbn [bind]. rewrite to_fragment_ok.
  - eexists. split; [reflexivity|]. exists ds'. split; [exact P'|]. split; [exact Sd|].
    clear E1. clear - HR' Hid E2. revert e E2. induction HR' as [|d r ds' rs H1 H2 IH]; intros e E2; inversion E2 as [|? x ? e' (w & h & -> & W) F]; subst; [constructor|].
    cbn [map]. constructor; [|apply (IH e' F)].
    exists r, w, h. split; [exact H1|]. split; [reflexivity|]. destruct coord as [co|]; [|exact W].
      destruct W as (c & W1 & W2 & W3). exists c. split; [exact W1|]. split; [|exact W3]. rewrite W2. apply Hid. exact H1.
  - apply Forall_forall. intros x Hx.
    assert (X : exists d r w h, R d r /\ x = (map Some r ++ [w; h])%list).
    { clear - HR' E2 Hx. revert e E2 Hx. induction HR' as [|d r ds' rs H1 H2 IH]; intros e E2 Hx; inversion E2 as [|? y ? e' (w & h & -> & W) F]; subst; [destruct Hx|].
      destruct Hx as [<-|Hx]; [exists d, r, w, h; split; [exact H1|reflexivity]|]. apply (IH e' F Hx). }
    destruct X as (d & r & w & h & X1 & ->). specialize (Hw d r X1). rewrite app_length, map_length. simpl. lia.
Qed.
