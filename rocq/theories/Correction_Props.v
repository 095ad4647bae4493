(** C31: colour correction. *)
From Coq Require Import ZArith QArith Lia Lqa Bool List String.
From Verif Require Import Base Step2_Model Table_Model Table_Spec Table_Proofs Table_Props Correction_Model.
Import ListNotations.
Local Open Scope Z_scope.

(** Contract of the conversion to int16: always an int16; right within range
    (fractions are cut off). *)
Definition int16_cast (cast : Q -> Z) : Prop :=
  (forall q, -32768 <= cast q <= 32767) /\
  (forall q, -32768 <= Qtrunc q <= 32767 -> cast q = Qtrunc q).

(** Contract of the inverse: multiplying back gives the vector. *)
Definition inverse_of (m inv : list (list Q)) : Prop :=
  List.length inv = List.length m /\
  Forall (fun r => List.length r = List.length m) inv /\ Forall (fun r => List.length r = List.length m) m /\
  forall v, List.length v = List.length m ->
    Forall2 Qeq (map (fun r => dot r (map (fun i => dot i v) inv)) m) v.

(** The corrected value of a channel that would be exact. *)
Definition exact_value (inv : list (list Q)) (v : list Q) (k : nat) : Q := dot (nth k inv []) v.

Lemma dot_Qeq : forall r a b, Forall2 Qeq a b -> (dot r a == dot r b)%Q.
Proof.
  induction r as [|x r IH]; intros a b H; [destruct H; reflexivity|]. destruct H as [|u v a b E H]; [reflexivity|].
  cbn [dot]. rewrite E, (IH _ _ H). reflexivity.
Qed.

Lemma mat_vec_Qeq : forall m a b l, Forall2 Qeq a b -> Forall2 Qeq (map (fun r => dot r b) m) l -> Forall2 Qeq (map (fun r => dot r a) m) l.
Proof.
  intros m a b l V. revert l. induction m as [|r m IH]; intros l F; cbn [map] in *; inversion F as [|? ? ? ? F1 F2]; subst; [constructor|].
  constructor; [|apply IH; exact F2]. rewrite (dot_Qeq r _ _ V). exact F1.
Qed.

Lemma mat_vec_ok : forall m v, Forall (fun r => List.length r = List.length v) m -> mat_vec m v = Ok (map (fun r => dot r v) m).
Proof.
  intros m v H. unfold mat_vec. apply mapM_map_ok. intros r Hr. rewrite Forall_forall in H. rewrite (H r Hr), Nat.eqb_refl. reflexivity.
Qed.

Theorem C31_stored_values_invert_the_matrix : forall cast m inv (raws : list (Z -> Q)),
  int16_cast cast -> List.length m = 3%nat -> inverse_of m inv ->
  Forall (fun raw => forall k, (k < 3)%nat -> exists z, (exact_value inv (map raw [0; 1; 2]%Z) k == inject_Z z)%Q /\ -32768 <= z <= 32767) raws ->
  exists c0 c1 c2, apply_cc cast (Some inv) raws [0; 1; 2] = Ok [(0, c0); (1, c1); (2, c2)] /\
    List.length c0 = List.length raws /\ List.length c1 = List.length raws /\ List.length c2 = List.length raws /\
    forall j raw s0 s1 s2, nth_error raws j = Some raw -> nth_error c0 j = Some s0 -> nth_error c1 j = Some s1 -> nth_error c2 j = Some s2 ->
      Forall2 Qeq (map (fun r => dot r [inject_Z s0; inject_Z s1; inject_Z s2]) m) [raw 0; raw 1; raw 2].
Proof.
  intros cast m inv raws (Hc1 & Hc2) Hm (I1 & I2 & I3 & I4) Hr. rewrite Hm in *.
  destruct inv as [|i0 [|i1 [|i2 [|i3 inv]]]]; try discriminate I1.
  unfold apply_cc.
  set (f := fun raw : Z -> Q => [cast (dot i0 (map raw [0;1;2])); cast (dot i1 (map raw [0;1;2])); cast (dot i2 (map raw [0;1;2]))]).
  assert (E : mapM (fun raw => res_map (map cast) (mat_vec [i0; i1; i2] (map raw [0; 1; 2]))) raws = Ok (map f raws)).
  { apply mapM_map_ok. intros raw _. rewrite mat_vec_ok by exact I2. reflexivity. }
  rewrite E. cbn [bind].
  assert (C : forall ch g, (forall raw, np_index (f raw) ch = Ok (g raw)) -> mapM (fun row => np_index row ch) (map f raws) = Ok (map g raws)).
  { intros ch g Hg. clear - Hg. induction raws as [|raw raws IH]; [reflexivity|]. cbn [map mapM]. rewrite Hg. cbn [bind]. rewrite IH. reflexivity. }
  cbn [mapM]. rewrite (C 0 (fun raw => cast (dot i0 (map raw [0;1;2]))) (fun _ => eq_refl)).
  rewrite (C 1 (fun raw => cast (dot i1 (map raw [0;1;2]))) (fun _ => eq_refl)).
  rewrite (C 2 (fun raw => cast (dot i2 (map raw [0;1;2]))) (fun _ => eq_refl)).
  cbn [res_map bind]. do 3 eexists. split; [reflexivity|]. rewrite !map_length. do 3 (split; [reflexivity|]).
  intros j raw s0 s1 s2 Hj H0 H1 H2. rewrite nth_error_map, Hj in H0, H1, H2. cbn [option_map] in *.
  apply Some_inj in H0, H1, H2. subst s0 s1 s2.
  assert (X : forall k i, (k < 3)%nat -> nth k [i0; i1; i2] [] = i -> (inject_Z (cast (dot i (map raw [0;1;2]%Z))) == dot i (map raw [0;1;2]%Z))%Q).
  { intros k i Hk Hi. rewrite Forall_forall in Hr. destruct (Hr raw (nth_error_In _ _ Hj) k Hk) as (z & Z1 & Z2).
    unfold exact_value in Z1. rewrite Hi in Z1. rewrite Hc2; rewrite (Qtrunc_int _ _ Z1); [symmetry; exact Z1|exact Z2]. }
  specialize (I4 (map raw [0;1;2]) eq_refl).
  assert (V : Forall2 Qeq [inject_Z (cast (dot i0 (map raw [0;1;2]))); inject_Z (cast (dot i1 (map raw [0;1;2]))); inject_Z (cast (dot i2 (map raw [0;1;2])))]
                (map (fun i => dot i (map raw [0;1;2])) [i0; i1; i2])).
  { repeat constructor; [apply (X 0%nat)|apply (X 1%nat)|apply (X 2%nat)]; (lia || reflexivity). }
  exact (mat_vec_Qeq m _ _ _ V I4).
Qed.
Print Assumptions C31_stored_values_invert_the_matrix.

(** An int16 conversion meeting the contract (wrapping around as x86 does). *)
Definition wrap16 (q : Q) : Z := (Qtrunc q + 32768) mod 65536 - 32768.

Lemma wrap16_ok : int16_cast wrap16.
Proof.
  split; intros q; unfold wrap16.
  - pose proof (Z.mod_pos_bound (Qtrunc q + 32768) 65536). lia.
  - intros H. rewrite Z.mod_small by lia. lia.
Qed.

Definition ex_m : list (list Q) := [[2; 1; 0]; [0; 1; 0]; [0; 0; 1 # 2]]%Q.
Definition ex_inv : list (list Q) := [[1 # 2; - (1 # 2); 0]; [0; 1; 0]; [0; 0; 2]]%Q.
Definition ex_raw (ch : Z) : Q := if ch =? 0 then inject_Z 300 else if ch =? 1 then inject_Z 100 else inject_Z 50.

Example C31_example_contract : inverse_of ex_m ex_inv.
Proof.
  split; [reflexivity|]. split; [repeat constructor|]. split; [repeat constructor|]. intros v Hv.
  destruct v as [|a [|b [|c [|d v]]]]; try discriminate Hv. cbn [map dot ex_m ex_inv]. repeat constructor; ring.
Qed.

Example C31_example : apply_cc wrap16 (Some ex_inv) [ex_raw; ex_raw] [0; 1; 2] = Ok [(0, [100; 100]); (1, [100; 100]); (2, [100; 100])] /\
  Forall (fun raw => forall k, (k < 3)%nat -> exists z, (exact_value ex_inv (map raw [0; 1; 2]%Z) k == inject_Z z)%Q /\ -32768 <= z <= 32767) [ex_raw; ex_raw].
Proof.
  split; [vm_compute; reflexivity|].
  repeat (constructor; [intros k Hk; exists 100; split; [|lia]; destruct k as [|[|[|k]]]; [vm_compute; reflexivity..|lia]|]). constructor.
Qed.

(** Corrected sums above 32767 cannot be stored, whatever the platform does:
    even for the identity matrix the stored value differs from the raw one. *)
Theorem C31_large_sums_are_not_preserved : forall cast raw,
  int16_cast cast -> 32767 < raw ->
  exists s0 s1 s2, apply_cc cast (Some [[1; 0; 0]; [0; 1; 0]; [0; 0; 1]]%Q) [fun _ => inject_Z raw] [0; 1; 2] = Ok [(0, [s0]); (1, [s1]); (2, [s2])] /\
    s0 < raw /\ s1 < raw /\ s2 < raw.
Proof.
  intros cast raw (H & _) Hr. do 3 eexists. split; [reflexivity|]. split; [|split];
  match goal with |- cast ?q < _ => pose proof (H q); lia end.
Qed.
Print Assumptions C31_large_sums_are_not_preserved.

Theorem C31_overflow_refuted :
  exists m inv (raw : Z -> Q) s0 s1 s2, inverse_of m inv /\
    apply_cc wrap16 (Some inv) [raw] [0; 1; 2] = Ok [(0, [s0]); (1, [s1]); (2, [s2])] /\
    ~ Forall2 Qeq (map (fun r => dot r [inject_Z s0; inject_Z s1; inject_Z s2]) m) [raw 0; raw 1; raw 2].
Proof.
  set (one := [[1; 0; 0]; [0; 1; 0]; [0; 0; 1]]%Q).
  exists one, one, (fun _ => inject_Z 40000), (-25536), (-25536), (-25536). split; [|split].
  - split; [reflexivity|]. split; [repeat constructor|]. split; [repeat constructor|]. intros v Hv.
    destruct v as [|a [|b [|c [|d v]]]]; try discriminate Hv. cbn [map dot one]. repeat constructor; ring.
  - vm_compute. reflexivity.
  - intros C. inversion C as [|? ? ? ? C1 _]; subst. vm_compute in C1. discriminate.
Qed.
Print Assumptions C31_overflow_refuted.

(** *** Other channel lists *)

(** The number of channels has to be the size of the matrix. *)
Theorem C31_wrong_number_of_channels_fails : forall cast inv raw raws channels,
  inv <> [] -> Forall (fun r => List.length r = List.length inv) inv -> List.length channels <> List.length inv ->
  apply_cc cast (Some inv) (raw :: raws) channels = Err ValueError.
Proof.
  intros cast inv raw raws channels Hne Hi Hl. unfold apply_cc. cbn [mapM]. destruct inv as [|r inv]; [congruence|].
  unfold mat_vec at 1. cbn [mapM]. inversion Hi as [|? ? H1 H2]; subst. rewrite map_length.
  destruct (List.length r =? List.length channels)%nat eqn:E; [apply Nat.eqb_eq in E; lia|]. reflexivity.
Qed.
Print Assumptions C31_wrong_number_of_channels_fails.

(** Every use of [--cc_channels] is therefore an error (3x3 matrix). *)
Theorem C31_cc_channels_option_always_fails : forall cast inv raw raws given,
  List.length inv = 3%nat -> Forall (fun r => List.length r = 3%nat) inv -> given <> [] ->
  apply_cc cast (Some inv) (raw :: raws) (cc_channels (Some given)) = Err ValueError.
Proof.
  intros cast inv raw raws given Hi Hr Hg. apply C31_wrong_number_of_channels_fails.
  - intros C. subst. discriminate.
  - rewrite Hi. exact Hr.
  - rewrite Hi. unfold cc_channels. rewrite app_length. destruct given; [congruence|]. simpl. lia.
Qed.
Print Assumptions C31_cc_channels_option_always_fails.

(** Called directly with channels [0, 2] and a 2x2 matrix: IndexError. *)
Theorem C31_channel_gap_fails : forall cast inv raw raws, List.length inv = 2%nat -> Forall (fun r => List.length r = 2%nat) inv ->
  apply_cc cast (Some inv) (raw :: raws) [0; 2] = Err IndexError.
Proof.
  intros cast inv raw raws Hi Hr. destruct inv as [|i0 [|i1 [|i2 inv]]]; try discriminate Hi. unfold apply_cc.
  set (f := fun raw : Z -> Q => [cast (dot i0 (map raw [0;2])); cast (dot i1 (map raw [0;2]))]).
  assert (E : mapM (fun raw => res_map (map cast) (mat_vec [i0; i1] (map raw [0; 2]))) (raw :: raws) = Ok (map f (raw :: raws))).
  { apply mapM_map_ok. intros r _. rewrite mat_vec_ok by exact Hr. reflexivity. }
  rewrite E. cbn [bind].
  assert (C : mapM (fun row => np_index row 0) (map f (raw :: raws)) = Ok (map (fun raw => cast (dot i0 (map raw [0;2]))) (raw :: raws))).
  { generalize (raw :: raws). intros l. induction l as [|r l IH]; [reflexivity|]. cbn [map mapM]. 
    change (np_index (f r) 0) with (Ok (cast (dot i0 (map r [0; 2])))). cbn [bind]. rewrite IH. reflexivity. }
  cbn [mapM]. rewrite C. reflexivity.
Qed.
Print Assumptions C31_channel_gap_fails.

(** Channels [1, 0]: each channel gets the other one's values. *)
Theorem C31_reordered_channels_are_swapped_refuted :
  exists inv (raw : Z -> Q) s1 s0, inverse_of inv inv /\
    apply_cc wrap16 (Some inv) [raw] [1; 0] = Ok [(1, [s1]); (0, [s0])] /\
    inv = [[1; 0]; [0; 1]]%Q /\ Qeq (raw 0) (inject_Z s1) /\ Qeq (raw 1) (inject_Z s0) /\ ~ Qeq (raw 0) (raw 1).
Proof.
  exists [[1; 0]; [0; 1]]%Q, (fun ch => if ch =? 0 then 10%Q else 20%Q), 10, 20. split; [|split; [vm_compute; reflexivity|]].
  - split; [reflexivity|]. split; [repeat constructor|]. split; [repeat constructor|]. intros v Hv.
    destruct v as [|a [|b [|d v]]]; try discriminate Hv. cbn [map dot]. repeat constructor; ring.
  - repeat split; try reflexivity. intros C. vm_compute in C. discriminate.
Qed.
Print Assumptions C31_reordered_channels_are_swapped_refuted.

(** *** The new column in the table *)
Theorem C31_values_are_stored_in_row_order : forall t name values, well_shaped t ->
  List.length values = List.length (rows t) ->
  exists t', extend_frame t name values = Ok t' /\
    map (fun r => get (cols t') r name) (rows t') = map Some values.
Proof.
  intros t name values Hw Hl. unfold extend_frame. rewrite Hl, Nat.eqb_refl. eexists. split; [reflexivity|].
  unfold well_shaped in Hw. destruct (col_index name (cols t)) as [k|] eqn:Ek; cbn [cols rows]; unfold get.
  - rewrite Ek. destruct (col_index_bound _ _ _ Ek) as (Bk & _). revert values Hl Hw. generalize (rows t). intros rs.
    induction rs as [|r rs IH]; intros [|v values] Hl Hw; try discriminate; [reflexivity|]. inversion Hw as [|? ? H1 H2]; subst.
    cbn [combine map fst snd]. rewrite IH by (try exact H2; simpl in Hl; lia). f_equal.
    assert (L : List.length (firstn k r) = k) by (rewrite firstn_length; lia).
    rewrite nth_error_app2 by lia. rewrite L, Nat.sub_diag. reflexivity.
  - assert (Ec : col_index name (cols t ++ [name]) = Some (List.length (cols t))).
    { revert Ek. generalize (cols t). intros cs. induction cs as [|c cs IH]; cbn [app col_index]; intros Ek.
      - rewrite String.eqb_refl. reflexivity.
      - destruct (String.eqb c name); [discriminate|]. destruct (col_index name cs); [discriminate|]. rewrite IH by reflexivity. reflexivity. }
    rewrite Ec. revert values Hl Hw. generalize (rows t). intros rs.
    induction rs as [|r rs IH]; intros [|v values] Hl Hw; try discriminate; [reflexivity|]. inversion Hw as [|? ? H1 H2]; subst.
    cbn [combine map fst snd]. rewrite IH by (try exact H2; simpl in Hl; lia). f_equal.
    rewrite nth_error_app2 by lia. rewrite H1, Nat.sub_diag. reflexivity.
Qed.
Print Assumptions C31_values_are_stored_in_row_order.
