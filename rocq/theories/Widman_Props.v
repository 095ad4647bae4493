(** C106: the relation of Widmann. *)
From Coq Require Import ZArith Reals Lra Lia.
From Verif Require Import Base Widman_Model.
Local Open Scope R_scope.

(** Specification: extinction is inversely proportional to the wavelength to the power 1.0088. *)
Definition widmann (l f : R) : Prop := 0 < f /\ f * Rpower l (1 + 88 / 10000) = 48081 / 10000.

Lemma widman_value : forall l, 0 < l -> get_widman_extco l = Ok (Some (48081 / 10000 * Rpower l (- (10088 / 10000)))).
Proof.
  intros l Hl. unfold get_widman_extco, python_power. destruct (Req_EM_T l 0); [lra|]. destruct (Rlt_dec 0 l); [|lra]. reflexivity.
Qed.

Theorem C106_widmann_relation : forall l, 0 < l ->
  exists f, get_widman_extco l = Ok (Some f) /\ widmann l f /\ forall f', widmann l f' -> f' = f.
Proof.
  intros l Hl. exists (48081 / 10000 * Rpower l (- (10088 / 10000))). split; [apply widman_value; exact Hl|].
  assert (P : forall e, 0 < Rpower l e) by (intros e; apply exp_pos).
  assert (E : Rpower l (- (10088 / 10000)) * Rpower l (1 + 88 / 10000) = 1).
  { rewrite <- Rpower_plus. replace (- (10088 / 10000) + (1 + 88 / 10000)) with 0 by field. apply Rpower_O. exact Hl. }
  split.
  - split; [apply Rmult_lt_0_compat; [lra|apply P]|]. rewrite Rmult_assoc, E. lra.
  - intros f' (H1 & H2). apply (Rmult_eq_reg_r (Rpower l (1 + 88 / 10000))); [|apply Rgt_not_eq, P]. rewrite H2, Rmult_assoc, E. lra.
Qed.
Print Assumptions C106_widmann_relation.

(** Longer waves are weakened less, more than in proportion. *)
Theorem C106_longer_waves_are_weakened_less : forall l k f g, 0 < l -> 1 < k ->
  get_widman_extco l = Ok (Some f) -> get_widman_extco (k * l) = Ok (Some g) -> 0 < g /\ g * k < f.
Proof.
  intros l k f g Hl Hk Hf Hg. assert (Hkl : 0 < k * l) by (apply Rmult_lt_0_compat; lra). rewrite widman_value in Hf, Hg by assumption.
  apply Ok_inj, Some_inj in Hf, Hg. subst f g. assert (P : forall x e, 0 < Rpower x e) by (intros; apply exp_pos).
  split; [apply Rmult_lt_0_compat; [lra|apply P]|].
  rewrite <- Rpower_mult_distr by lra.
  assert (K : Rpower k (- (10088 / 10000)) * k < 1).
  { rewrite <- (Rpower_1 k) at 2 by lra. rewrite <- Rpower_plus. pose proof (Rpower_lt k (- (10088 / 10000) + 1) 0 ltac:(lra) ltac:(lra)) as G. rewrite Rpower_O in G by lra. exact G. }
  pose proof (P l (- (10088 / 10000))) as Q. set (a := Rpower l (- (10088 / 10000))) in *. set (b := Rpower k (- (10088 / 10000))) in *.
  replace (48081 / 10000 * (b * a) * k) with (48081 / 10000 * a * (b * k)) by ring. nra.
Qed.
Print Assumptions C106_longer_waves_are_weakened_less.

(** The wavelength is meant in micrometres: a whole number of nanometres, as the annotation [int]
    suggests, gives less than a thousandth of the extinction. *)
Theorem C106_nanometres : forall l f g, 0 < l ->
  get_widman_extco l = Ok (Some f) -> get_widman_extco (1000 * l) = Ok (Some g) -> g < f / 1000.
Proof.
  intros l f g Hl Hf Hg. destruct (C106_longer_waves_are_weakened_less l 1000 f g Hl ltac:(lra) Hf Hg) as (_ & H).
  apply (Rmult_lt_reg_r 1000); [lra|]. unfold Rdiv. rewrite Rmult_assoc, Rinv_l by lra. lra.
Qed.
Print Assumptions C106_nanometres.

(** No real number without a positive wavelength. *)
Theorem C106_real_iff_positive : forall l, (exists f, get_widman_extco l = Ok (Some f)) <-> 0 < l.
Proof.
  intros l. split; [|intros H; eexists; apply widman_value; exact H]. intros (f & H). unfold get_widman_extco, python_power in H.
  destruct (Req_EM_T l 0); [discriminate|]. destruct (Rlt_dec 0 l); [assumption|discriminate].
Qed.
Print Assumptions C106_real_iff_positive.

Example C106_example : get_widman_extco 1 = Ok (Some (48081 / 10000)) /\ get_widman_extco 0 = Err ZeroDivisionError /\ get_widman_extco (-1) = Ok None.
Proof.
  split; [|split].
  - rewrite widman_value by lra. unfold Rpower. rewrite ln_1, Rmult_0_r, exp_0, Rmult_1_r. reflexivity.
  - unfold get_widman_extco, python_power. destruct (Req_EM_T 0 0); [reflexivity|lra].
  - unfold get_widman_extco, python_power. destruct (Req_EM_T (-1) 0); [lra|]. destruct (Rlt_dec 0 (-1)); [lra|reflexivity].
Qed.
