(** C122: what the non-linear analysis makes of an LED without a line of sight. *)
From Coq Require Import ZArith QArith Qreals Lia Bool String List Permutation Sorted Reals Lra FunctionalExtensionality.
From Verif Require Import Base Step2_Model Step3_Model Table_Props Table_Model Table_Spec Analysis_Model Analysis_Props Layers_Model Layers_Spec Layers_Props
  Solver_Model Solver_Props Stable_Props Nnls_Props End_Model End_Props End_Props2 Minimiser_Props NonLinear_Proofs NonLinear_Props.
Import ListNotations.
Local Open Scope R_scope.

(** ** Specification *)

(** A cost which is no number for any coefficients. *)
Definition no_number : vec -> option R := fun _ => None.

(** The profiles of the images 1, 2, ... if the minimiser is given nothing but
    such a cost: each starts from the one before, or all from zero. *)
Fixpoint blind_profile (minimize : (vec -> option R) -> vec -> vec) (start : vec) (i : nat) : vec :=
  match i with
  | O => minimize no_number start
  | S i' => minimize no_number (blind_profile minimize start i')
  end.

(** ** Lemmas *)
Lemma cost_of_nan_row : forall wc wp A rel, In None A -> cost_seen wc wp A rel = no_number.
Proof. intros wc wp A rel H. apply functional_extensionality. intros s. unfold cost_seen. rewrite (all_some_none _ A H). reflexivity. Qed.

Lemma cost_of_nan_intensity : forall wc wp A rel, In NaN rel -> cost_seen wc wp A rel = no_number.
Proof.
  intros wc wp A rel H. apply functional_extensionality. intros s. unfold cost_seen.
  rewrite (all_some_none _ (map number rel)) by (apply in_map_iff; exists NaN; split; [reflexivity|exact H]). destruct (all_some A) as [[|r A']|]; reflexivity.
Qed.

Lemma blind_next : forall minimize start i, blind_profile minimize (minimize no_number start) i = blind_profile minimize start (S i).
Proof. intros minimize start i. induction i as [|i IH]; [reflexivity|]. cbn [blind_profile] in *. rewrite IH. reflexivity. Qed.

(** The loop over the images with a solver which does not look at them. *)
Lemma serial_blind : forall minimize (solve : option vec -> list quot -> res vec) n ms gs,
  Forall (fun g => exists rel, np_div (map e_val (snd g)) ms = Ok rel /\
    forall last, solve last rel = Ok (minimize no_number (match last with None => repeat 0 n | Some s => s end))) gs ->
  forall last, exists xs, serial_loop solve ms last gs = Ok xs /\ List.length xs = List.length gs /\
    forall i x, nth_error xs i = Some x -> x = blind_profile minimize (match last with None => repeat 0 n | Some s => s end) i.
Proof.
  intros minimize solve n ms gs H. induction H as [|(k, es) gs (rel & D & S) H IH]; intros last.
  - exists []. split; [reflexivity|]. split; [reflexivity|]. intros [|i] x E; discriminate.
  - cbn [snd] in D. cbn [serial_loop]. rewrite D. cbn [bind]. rewrite S. cbn [bind]. set (s := match last with None => _ | Some s => s end).
    destruct (IH (Some (minimize no_number s))) as (xs & E & L & N). rewrite E. cbn [bind].
    exists (minimize no_number s :: xs). split; [reflexivity|]. split; [simpl; lia|]. intros [|i] x Hx.
    + apply Some_inj in Hx. subst x. reflexivity.
    + cbn [nth_error] in Hx. rewrite (N i x Hx). apply blind_next.
Qed.

Lemma serial_blind_anew : forall (minimize : (vec -> option R) -> vec -> vec) (solve : option vec -> list quot -> res vec) start ms gs,
  Forall (fun g => exists rel, np_div (map e_val (snd g)) ms = Ok rel /\ forall last, solve last rel = Ok (minimize no_number start)) gs ->
  forall last, exists xs, serial_loop solve ms last gs = Ok xs /\ List.length xs = List.length gs /\
    forall i x, nth_error xs i = Some x -> x = minimize no_number start.
Proof.
  intros minimize solve start ms gs H. induction H as [|(k, es) gs (rel & D & S) H IH]; intros last.
  - exists []. split; [reflexivity|]. split; [reflexivity|]. intros [|i] x E; discriminate.
  - cbn [snd] in D. cbn [serial_loop]. rewrite D. cbn [bind]. rewrite S. cbn [bind].
    destruct (IH (Some (minimize no_number start))) as (xs & E & L & N). rewrite E. cbn [bind].
    exists (minimize no_number start :: xs). split; [reflexivity|]. split; [simpl; lia|]. intros [|i] x Hx.
    + apply Some_inj in Hx. subst x. reflexivity.
    + apply (N i x Hx).
Qed.

(** ** C122 *)

(** One image: an LED whose distances or whose intensity is nan, and the solver
    is told nothing about any LED. *)
Theorem C122_one_nan_hides_the_image : forall minimize wc wp n A last rel, List.length rel = List.length A ->
  In None A \/ In NaN rel ->
  solve_nonlinear minimize wc wp n A last rel = Ok (minimize no_number (match last with None => repeat 0 n | Some s => s end)).
Proof.
  intros minimize wc wp n A last rel L H. unfold solve_nonlinear. rewrite L, Nat.eqb_refl. cbn [orb].
  destruct H as [H|H]; [rewrite (cost_of_nan_row _ _ _ _ H)|rewrite (cost_of_nan_intensity _ _ _ _ H)]; reflexivity.
Qed.
Print Assumptions C122_one_nan_hides_the_image.

(** The whole analysis: it ends without an error, with one profile per image,
    and none of them depends on what the photographs show. *)
Theorem C122_led_out_of_view_is_not_noticed :
  forall minimize wc wp bot top n cam coords ids t a prop indices num cpus order id p es m l,
  (1 <= n)%nat -> bot < top ->
  (2 <= List.length ids)%nat -> Forall (fun i => (0 <= i < Z.of_nat (List.length coords))%Z) ids ->
  In id ids -> nth_error coords (Z.to_nat id) = Some p -> out_of_view bot top cam p ->
  load_img_data t a prop = Ok es ->
  (1 <= m)%Z -> StronglySorted Z.lt l -> List.length l = List.length ids -> complete es m l ->
  (exists i, (1 <= i <= m)%Z /\ is_reference indices num i) ->
  Permutation order (seq 0 (Z.to_nat m)) ->
  exists xs, analyse_nonlinear minimize wc wp bot top n cam coords (Some ids) t a prop indices num cpus order = Ok xs /\
    List.length xs = Z.to_nat m /\
    forall i x, nth_error xs i = Some x ->
      x = blind_profile minimize (repeat 0 n) (if (1 <? cpus)%Z then 0%nat else i).
Proof.
  intros minimize wc wp bot top n cam coords ids t a prop indices num cpus order id p es m l Hn Hb Hl Hr Hid Hp Hv Hload Hm Srt Ll Cmp (i0 & Hi0 & Hr0) Hord.
  destruct (led_is_loaded coords ids id p Hl Hr Hid Hp) as (leds & E1 & E2 & E3).
  unfold analyse_nonlinear, analyse_with, analyse_by, analyse_avg. change (ref_values mean) with ref_intensities. rewrite E1. cbn [bind distance_array]. rewrite Hload. cbn [bind]. cbv zeta.
  set (A := map _ (rev leds)). set (ref := reference_entries indices num es). set (ms := map snd (ref_intensities ref)).
  assert (HA : In None A).
  { unfold A. apply in_map_iff. exists (id, p). split; [|apply in_rev in E2; exact E2]. cbn [snd].
    pose proof (fun ds => out_of_view_no_row bot top n cam p ds Hn Hb Hv) as No. destruct (traversed_distances (layers bot top n) cam p) eqn:E; [elim (No ds); reflexivity|reflexivity|reflexivity]. }
  assert (LA : List.length A = List.length l) by (unfold A; rewrite map_length, rev_length; congruence).
  pose proof (sorted_lt_NoDup l Srt) as Nd. assert (Lne : l <> []) by (intros C; subst l; simpl in Ll; lia).
  assert (Hl' : map fst (ref_intensities ref) = l).
  { apply ref_leds; [exact Srt| |].
    - intros e He. unfold ref, reference_entries in He. apply filter_In in He. destruct He as (He & _). rewrite <- (proj2 Cmp (e_img e) (proj1 Cmp e He)). apply in_map. apply filter_In. split; [exact He|apply Z.eqb_refl].
    - intros x Hx. rewrite <- (proj2 Cmp i0 Hi0) in Hx. apply in_map_iff in Hx. destruct Hx as (e & <- & He). apply filter_In in He. destruct He as (He1 & He2). apply Z.eqb_eq in He2.
      exists e. split; [|reflexivity]. unfold ref, reference_entries. apply filter_In. split; [exact He1|]. rewrite He2. unfold is_reference in Hr0.
      destruct indices as [is|]; [apply existsb_exists; exists i0; split; [exact Hr0|apply Z.eqb_refl]|apply Z.leb_le; exact Hr0]. }
  assert (Lm : List.length ms = List.length l) by (unfold ms; rewrite <- Hl', !map_length; reflexivity).
  assert (D : Forall (fun g => exists rel, np_div (map e_val (snd g)) ms = Ok rel /\ List.length rel = List.length A) (map (fun i => (i, filter (fun e => (e_img e =? i)%Z) es)) (zrange 1 (m + 1)))).
  { apply Forall_forall. intros (i, fs) Hin. apply in_map_iff in Hin. destruct Hin as (i' & E & Hi). injection E as -> <-. apply in_zrange in Hi. cbn [snd].
    set (fs := filter _ es). assert (Lf : List.length fs = List.length l) by (unfold fs; rewrite <- (proj2 Cmp i ltac:(lia)), map_length; reflexivity).
    exists (map (fun p => cell_div (fst p) (snd p)) (combine (map e_val fs) ms)). split.
    - unfold np_div. rewrite map_length, Lf, Lm, Nat.eqb_refl. reflexivity.
    - rewrite map_length, combine_length, map_length, Lf, Lm, LA. apply Nat.min_id. }
  assert (Lz : List.length (map (fun i => (i, filter (fun e => (e_img e =? i)%Z) es)) (zrange 1 (m + 1))) = Z.to_nat m) by (rewrite map_length, length_zrange; f_equal; lia).
  destruct (1 <? cpus)%Z.
  - change (parallel (solve_nonlinear minimize wc wp n A) order es ms) with (parallel (fun _ : option vec => solve_nonlinear minimize wc wp n A None) order es ms).
    rewrite (C43_parallel_equals_serial _ (fun _ : option vec => solve_nonlinear minimize wc wp n A None) order es ms m l (fun _ _ => eq_refl) Hm Lne Nd Cmp Hord Lm).
    unfold serial. rewrite (complete_groups es m l Hm Lne Cmp). rewrite <- Lz. apply serial_blind_anew.
    eapply Forall_impl; [|exact D]. intros g (rel & G1 & G2). exists rel. split; [exact G1|]. intros _.
    exact (C122_one_nan_hides_the_image minimize wc wp n A None rel G2 (or_introl HA)).
  - unfold serial. rewrite (complete_groups es m l Hm Lne Cmp). rewrite <- Lz. apply (serial_blind minimize (solve_nonlinear minimize wc wp n A) n ms _) with (last := None).
    eapply Forall_impl; [|exact D]. intros g (rel & G1 & G2). exists rel. split; [exact G1|]. intros last.
    exact (C122_one_nan_hides_the_image minimize wc wp n A last rel G2 (or_introl HA)).
Qed.
Print Assumptions C122_led_out_of_view_is_not_noticed.

(** So two experiments with the same number of images give the same profiles,
    whatever the LEDs did; the linear solver refuses both (C95). *)
Theorem C122_all_smoke_looks_the_same :
  forall minimize wc wp bot top n cam coords ids a prop indices num cpus order id p m l t1 t2 es1 es2,
  (1 <= n)%nat -> bot < top ->
  (2 <= List.length ids)%nat -> Forall (fun i => (0 <= i < Z.of_nat (List.length coords))%Z) ids ->
  In id ids -> nth_error coords (Z.to_nat id) = Some p -> out_of_view bot top cam p ->
  load_img_data t1 a prop = Ok es1 -> load_img_data t2 a prop = Ok es2 ->
  (1 <= m)%Z -> StronglySorted Z.lt l -> List.length l = List.length ids -> complete es1 m l -> complete es2 m l ->
  (exists i, (1 <= i <= m)%Z /\ is_reference indices num i) ->
  Permutation order (seq 0 (Z.to_nat m)) ->
  (exists xs, analyse_nonlinear minimize wc wp bot top n cam coords (Some ids) t1 a prop indices num cpus order = Ok xs /\
              analyse_nonlinear minimize wc wp bot top n cam coords (Some ids) t2 a prop indices num cpus order = Ok xs) /\
  forall nnls lambda xs, analyse_array nnls lambda bot top n cam coords (Some ids) t1 a prop indices num cpus order <> Ok xs.
Proof.
  intros minimize wc wp bot top n cam coords ids a prop indices num cpus order id p m l t1 t2 es1 es2 Hn Hb Hl Hr Hid Hp Hv Hload1 Hload2 Hm Srt Ll Cmp1 Cmp2 Hi Hord.
  split; [|intros nnls lambda xs; eapply C95_led_out_of_view_fails; eassumption].
  destruct (C122_led_out_of_view_is_not_noticed minimize wc wp bot top n cam coords ids t1 a prop indices num cpus order id p es1 m l Hn Hb Hl Hr Hid Hp Hv Hload1 Hm Srt Ll Cmp1 Hi Hord) as (xs & E1 & L1 & N1).
  destruct (C122_led_out_of_view_is_not_noticed minimize wc wp bot top n cam coords ids t2 a prop indices num cpus order id p es2 m l Hn Hb Hl Hr Hid Hp Hv Hload2 Hm Srt Ll Cmp2 Hi Hord) as (ys & E2 & L2 & N2).
  exists xs. split; [exact E1|]. rewrite E2. f_equal. rewrite <- L1 in L2. clear - L2 N1 N2.
  set (f := fun i => blind_profile minimize (repeat 0 n) (if (1 <? cpus)%Z then 0%nat else i)) in *.
  change (forall i x, nth_error xs i = Some x -> x = f i) in N1. change (forall i x, nth_error ys i = Some x -> x = f i) in N2. clearbody f.
  revert f xs L2 N1 N2. induction ys as [|y ys IH]; intros f [|x xs] L N1 N2; simpl in L; try lia; [reflexivity|].
  f_equal; [rewrite (N1 0%nat x eq_refl), (N2 0%nat y eq_refl); reflexivity|].
  apply (IH (fun i => f (S i))); [lia|intros i z E; apply (N1 (S i)); exact E|intros i z E; apply (N2 (S i)); exact E].
Qed.
Print Assumptions C122_all_smoke_looks_the_same.

(** The arrangement of C95 (the third LED hangs half a metre above the domain):
    with a minimiser which stays where it starts if it gets no number, no smoke
    is reported for both images, whatever they show. *)
Definition stays (f : vec -> option R) (s : vec) : vec := match f s with None => s | Some _ => [] end.

Example C122_example : exists xs,
  analyse_nonlinear stays 1 0 0 (5 / 2) 3 eg_cam eg_coords (Some [2; 1; 0]%Z) eg_table 0 "sum_col_val" None 1 1 [0; 1]%nat = Ok xs /\
  analyse_nonlinear stays 1 0 0 (5 / 2) 3 eg_cam eg_coords (Some [2; 1; 0]%Z) dark_table 0 "sum_col_val" None 1 1 [0; 1]%nat = Ok xs /\
  xs = [[0; 0; 0]; [0; 0; 0]].
Proof.
  assert (Ci : forall i, (1 <= i <= 2 -> i = 1 \/ i = 2)%Z) by lia.
  assert (V : out_of_view 0 (5 / 2) eg_cam (Point 0 0 3)).
  { left. unfold eg_cam. cbn [pz]. split; [lra|].
    assert (E : euclid (Point 0 0 0) (Point 0 0 3) = 3) by (unfold euclid; cbn [px py pz]; replace ((0 - 0) * (0 - 0) + (0 - 0) * (0 - 0) + (0 - 3) * (0 - 3)) with (3 * 3) by ring; apply sqrt_square; lra).
    rewrite E. unfold overlap. rewrite (Rmax_right 0 3), (Rmin_left 0 3), (Rmin_left (5 / 2) 3), (Rmax_left 0 0) by lra. rewrite Rmax_right by lra. rewrite (Rabs_pos_eq (3 - 0)) by lra. lra. }
  assert (X : forall t es, load_img_data t 0 "sum_col_val" = Ok es -> complete es 2 [0; 1; 2]%Z ->
    analyse_nonlinear stays 1 0 0 (5 / 2) 3 eg_cam eg_coords (Some [2; 1; 0]%Z) t 0 "sum_col_val" None 1 1 [0; 1]%nat = Ok [[0; 0; 0]; [0; 0; 0]]).
  { intros t es Hload Cmp.
    destruct (C122_led_out_of_view_is_not_noticed stays 1 0 0 (5 / 2) 3 eg_cam eg_coords [2; 1; 0]%Z t 0 "sum_col_val" None 1 1 [0; 1]%nat 2 (Point 0 0 3) es 2 [0; 1; 2]%Z) as (xs & E & L & N).
    - lia.
    - lra.
    - simpl. lia.
    - repeat (constructor; [simpl; lia|]). constructor.
    - left. reflexivity.
    - reflexivity.
    - exact V.
    - exact Hload.
    - lia.
    - repeat constructor; lia.
    - reflexivity.
    - exact Cmp.
    - exists 1%Z. split; [lia|]. cbn. lia.
    - apply Permutation_refl.
    - rewrite E. f_equal. destruct xs as [|x [|y [|z xs]]]; try (exfalso; change (Z.to_nat 2) with 2%nat in L; simpl in L; lia).
      rewrite (N 0%nat x eq_refl), (N 1%nat y eq_refl). reflexivity. }
  exists [[0; 0; 0]; [0; 0; 0]]. split; [|split; [|reflexivity]].
  - eapply X; [vm_compute; reflexivity|]. split; [intros e H; repeat (destruct H as [<-|H]; [cbn; lia|]); destruct H|intros i Hi; destruct (Ci i Hi) as [-> | -> ]; reflexivity].
  - eapply X; [vm_compute; reflexivity|]. split; [intros e H; repeat (destruct H as [<-|H]; [cbn; lia|]); destruct H|intros i Hi; destruct (Ci i Hi) as [-> | -> ]; reflexivity].
Qed.
