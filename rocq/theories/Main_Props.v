(** The main program and the demo: C90, C91 *)
From Coq Require Import ZArith Lia Bool Ascii String List Sorted.
From Verif Require Import Base Str Substr Demo_Model Config_Model Ini_Model Ini_Facts Ini_Props Ini_Props2 Images_Model
  Table_Model Cli_Model Main_Model.
Import ListNotations.
Local Open Scope string_scope.
Local Open Scope Z_scope.

(** ** C90 *)

(** The phase a call belongs to. *)
Definition phase (x : call) : Z :=
  match x with
  | PrepareImages => 0
  | Extract _ => 1
  | CreateAnalysisConfig | CorrectColours => 2
  | Coefficients => 3
  | Tests _ => 4
  | SetupDemo _ => 10
  | RunDemo _ => 11
  end.

Definition calls_eq_dec : forall a b : call, {a = b} + {a <> b}.
Proof. repeat decide equality. Defined.

Definition times_called (x : call) (l : list call) : nat := count_occ calls_eq_dec l x.

Lemma perform_prefix : forall fails l e, exists l', l = (fst (perform fails l e) ++ l')%list /\
  (snd (perform fails l e) = None -> l' = [] /\ e = None).
Proof.
  intros fails l e. induction l as [|x l IH]; [exists []; split; [reflexivity|auto]|].
  cbn [perform]. destruct (fails x) as [e'|].
  - exists l. split; [reflexivity|discriminate].
  - destruct IH as (l' & A & B). destruct (perform fails l e) as [d r]. cbn [fst snd] in *. exists l'.
    split; [rewrite A at 1; reflexivity|exact B].
Qed.

(** With --demo nothing but the demo is run, whatever other options are given;
    the other options have no influence. *)
Theorem C90_demo_excludes_the_rest : forall fails no_args conf aconf c,
  m_demo c = true ->
  (forall x, In x (fst (main fails no_args conf aconf c)) -> (exists p, x = SetupDemo p) \/ (exists n, x = RunDemo n)) /\
  (forall c' conf' aconf', m_demo c' = true -> m_setup c' = m_setup c -> m_run c' = m_run c -> m_cores c' = m_cores c ->
     main fails no_args conf' aconf' c' = main fails no_args conf aconf c).
Proof.
  intros fails no_args conf aconf c H. unfold main. rewrite H. split.
  - destruct no_args; [intros x []|]. intros x Hx.
    destruct (demo_calls c) as [l e] eqn:E. destruct (perform_prefix fails l e) as (l' & A & _).
    assert (I : In x l) by (rewrite A; apply in_or_app; left; exact Hx). clear -E I.
    unfold demo_calls in E. destruct (negb (truthy_text (m_setup c)) && negb (m_run c));
      [apply pair_equal_spec in E; destruct E as [<- _]; destruct I|].
    destruct (truthy_int (m_cores c) && negb (m_run c)); [apply pair_equal_spec in E; destruct E as [<- _]; destruct I|].
    apply pair_equal_spec in E. destruct E as [<- _]. apply in_app_or in I. destruct I as [I|I].
    + destruct (m_setup c) as [p|]; [|destruct I]. unfold only in I. destruct (truthy_text (Some p)); [|destruct I].
      destruct I as [<-|[]]. left. eexists. reflexivity.
    + unfold only in I. destruct (m_run c); [|destruct I]. destruct I as [<-|[]]. right. eexists. reflexivity.
  - intros c' conf' aconf' D S R N. rewrite D. unfold demo_calls. rewrite S, R, N. reflexivity.
Qed.
Print Assumptions C90_demo_excludes_the_rest.

(** Without --demo the options --setup, --run and --n_cores are ignored. *)
Theorem C90_demo_options_alone_do_nothing : forall fails no_args conf aconf c setup run cores,
  m_demo c = false ->
  main fails no_args conf aconf
    (Cmdline (m_prepare c) (m_extract c) (m_config_analysis c) (m_analysis c) (m_cc c) false setup run cores
             (m_test c) (m_test_debug c)) =
  main fails no_args conf aconf c.
Proof. intros fails no_args conf aconf c setup run cores H. unfold main. rewrite H. reflexivity. Qed.
Print Assumptions C90_demo_options_alone_do_nothing.

(** --demo needs --setup or --run, and a number of cores needs --run (the number 0
    is taken for no number). *)
Theorem C90_demo_arguments : forall fails conf aconf c, m_demo c = true ->
  let setup := match m_setup c with Some p => p <> "" | None => False end in
  let cores := match m_cores c with Some n => n <> 0 | None => False end in
  let accepted := (setup \/ m_run c = true) /\ (cores -> m_run c = true) in
  (~ accepted -> main fails false conf aconf c = ([], Some SystemExit)) /\
  (accepted -> (forall x, fails x = None) ->
   snd (main fails false conf aconf c) = None /\
   fst (main fails false conf aconf c) =
     ((match m_setup c with Some p => if string_dec p "" then [] else [SetupDemo p] | None => [] end) ++
      (if m_run c then [RunDemo (match m_cores c with Some n => if Z.eq_dec n 0 then 1 else n | None => 1 end)] else []))%list).
Proof.
  intros fails conf aconf c D setup cores accepted.
  assert (S : truthy_text (m_setup c) = true <-> setup).
  { unfold truthy_text, setup. destruct (m_setup c) as [p|]; [|split; [discriminate|tauto]].
    rewrite negb_true_iff. apply String.eqb_neq. }
  assert (N : truthy_int (m_cores c) = true <-> cores).
  { unfold truthy_int, cores. destruct (m_cores c) as [n|]; [|split; [discriminate|tauto]].
    rewrite negb_true_iff. apply Z.eqb_neq. }
  unfold main. rewrite D. unfold demo_calls. split.
  - intros H. destruct (truthy_text (m_setup c)) eqn:ES, (truthy_int (m_cores c)) eqn:EN, (m_run c) eqn:ER;
      cbn [negb andb]; try reflexivity; exfalso; apply H; unfold accepted; try rewrite ER; split; try tauto.
  - intros (H1 & H2) NF.
    assert (P : forall l e, perform fails l e = (l, e)).
    { intros l e. induction l as [|x l IH]; [reflexivity|]. cbn [perform]. rewrite NF, IH. reflexivity. }
    destruct (negb (truthy_text (m_setup c)) && negb (m_run c)) eqn:E1.
    { exfalso. apply andb_true_iff in E1. rewrite !negb_true_iff in E1. destruct E1 as [A B].
      destruct H1 as [H1|H1]; [apply S in H1|]; congruence. }
    destruct (truthy_int (m_cores c) && negb (m_run c)) eqn:E2.
    { exfalso. apply andb_true_iff in E2. rewrite negb_true_iff in E2. destruct E2 as [A B].
      apply N in A. specialize (H2 A). congruence. }
    rewrite P. cbn [fst snd]. split; [reflexivity|]. f_equal.
    + destruct (m_setup c) as [p|]; [|reflexivity]. unfold truthy_text. destruct (string_dec p "") as [->|X]; [reflexivity|].
      apply String.eqb_neq in X. rewrite X. reflexivity.
    + destruct (m_run c); [|reflexivity]. unfold only. destruct (m_cores c) as [n|]; [|reflexivity].
      destruct (Z.eq_dec n 0) as [->|X]; [reflexivity|]. apply Z.eqb_neq in X. rewrite X. reflexivity.
Qed.
Print Assumptions C90_demo_arguments.

Lemma sorted_app : forall (l1 l2 : list call), StronglySorted (fun a b => phase a <= phase b) l1 ->
  StronglySorted (fun a b => phase a <= phase b) l2 -> (forall a b, In a l1 -> In b l2 -> phase a <= phase b) ->
  StronglySorted (fun a b => phase a <= phase b) (l1 ++ l2).
Proof.
  induction l1 as [|x l1 IH]; intros l2 H1 H2 H; [exact H2|]. apply StronglySorted_inv in H1. destruct H1 as [A B].
  cbn [app]. constructor.
  - apply IH; [exact A|exact H2|]. intros a b Ha Hb. apply H; [right; exact Ha|exact Hb].
  - rewrite Forall_forall in *. intros y Hy. apply in_app_or in Hy. destruct Hy as [Hy|Hy]; [apply B; exact Hy|].
    apply H; [left; reflexivity|exact Hy].
Qed.

Lemma sorted_same : forall n l, (forall x, In x l -> phase x = n) -> StronglySorted (fun a b => phase a <= phase b) l.
Proof.
  intros n l H. induction l as [|x l IH]; constructor.
  - apply IH. intros y Hy. apply H. right. exact Hy.
  - rewrite Forall_forall. intros y Hy. rewrite (H x), (H y); [lia|right; exact Hy|left; reflexivity].
Qed.

Lemma only_phase : forall n b l, (forall x, In x l -> phase x = n) -> forall x, In x (only b l) -> phase x = n.
Proof. intros n [] l H x Hx; [apply H; exact Hx|destruct Hx]. Qed.

Lemma analysis_phase : forall c x, In x (analysis_calls c) -> phase x = 2.
Proof.
  intros c x H. unfold analysis_calls in H. apply in_app_or in H.
  destruct H as [H|H]; revert H; apply only_phase; intros y [<-|[]]; reflexivity.
Qed.

Lemma extract_phase : forall l x, In x (map Extract l) -> phase x = 1.
Proof. intros l x H. apply in_map_iff in H. destruct H as (a & <- & _). reflexivity. Qed.

Lemma sorted_prefix : forall (l l' : list call), StronglySorted (fun a b => phase a <= phase b) (l ++ l') ->
  StronglySorted (fun a b => phase a <= phase b) l.
Proof.
  induction l as [|x l IH]; intros l' H; [constructor|]. cbn [app] in H. apply StronglySorted_inv in H. destruct H as [A B].
  constructor; [exact (IH l' A)|]. rewrite Forall_forall in *. intros y Hy. apply B. apply in_or_app. left. exact Hy.
Qed.

(** Everything that is done comes in the order: renaming of images, data
    extraction, preparation of the analysis, extinction coefficients, tests. *)
Theorem C90_order : forall fails no_args conf aconf c,
  StronglySorted (fun a b => phase a <= phase b) (fst (main fails no_args conf aconf c)).
Proof.
  intros fails no_args conf aconf c. unfold main. destruct no_args; [constructor|].
  assert (K : forall l e, StronglySorted (fun a b => phase a <= phase b) l ->
     StronglySorted (fun a b => phase a <= phase b) (fst (perform fails l e))).
  { intros l e H. destruct (perform_prefix fails l e) as (l' & A & _). apply (sorted_prefix _ l'). rewrite <- A. exact H. }
  destruct (m_demo c).
  - unfold demo_calls. destruct (_ && _); [apply K; constructor|]. destruct (_ && _); [apply K; constructor|]. apply K.
    apply sorted_app.
    + apply (sorted_same 10). destruct (m_setup c) as [p|]; [|intros x []]. apply only_phase. intros x [<-|[]]. reflexivity.
    + apply (sorted_same 11). apply only_phase. intros x [<-|[]]. reflexivity.
    + intros a b Ha Hb. replace (phase b) with 11; [|symmetry; revert Hb; apply only_phase; intros x [<-|[]]; reflexivity].
      destruct (m_setup c) as [p|]; [|destruct Ha]. replace (phase a) with 10; [lia|].
      symmetry. revert Ha. apply only_phase. intros x [<-|[]]. reflexivity.
  - assert (T : forall x, In x (only (m_prepare c) [PrepareImages]) -> phase x = 0)
      by (apply only_phase; intros x [<-|[]]; reflexivity).
    assert (C : forall x, In x (only (m_analysis c) [Coefficients]) -> phase x = 3)
      by (apply only_phase; intros x [<-|[]]; reflexivity).
    assert (T1 : forall x, In x (only (m_test c) [Tests false]) -> phase x = 4)
      by (apply only_phase; intros x [<-|[]]; reflexivity).
    assert (T2 : forall x, In x (only (m_test_debug c) [Tests true]) -> phase x = 4)
      by (apply only_phase; intros x [<-|[]]; reflexivity).
    pose proof (analysis_phase c) as A.
    unfold normal_calls. destruct (run_data_extraction conf (m_extract c)) as [acts|e]; [|apply K; eapply sorted_same; exact T].
    pose proof (extract_phase acts) as X.
    destruct (analysis_config_missing aconf c); apply K.
    + apply sorted_app; [eapply sorted_same; exact T|eapply sorted_same; exact X|].
      intros a b Ha Hb. rewrite (T a Ha), (X b Hb). lia.
    + revert A. generalize (analysis_calls c). intros AC A. revert T C T1 T2 X.
      generalize (only (m_prepare c) [PrepareImages]) (only (m_analysis c) [Coefficients])
        (only (m_test c) [Tests false]) (only (m_test_debug c) [Tests true]) (map Extract acts).
      intros l0 l3 l4 l5 l1 T C T1 T2 X.
      repeat apply sorted_app; try (eapply sorted_same; first [exact T|exact X|exact A|exact C|exact T1|exact T2]);
        intros a b Ha Hb; repeat (apply in_app_or in Hb; destruct Hb as [Hb|Hb]);
        repeat match goal with
        | H : In ?x l0 |- _ => rewrite (T x H); clear H
        | H : In ?x l1 |- _ => rewrite (X x H); clear H
        | H : In ?x AC |- _ => rewrite (A x H); clear H
        | H : In ?x l3 |- _ => rewrite (C x H); clear H
        | H : In ?x l4 |- _ => rewrite (T1 x H); clear H
        | H : In ?x l5 |- _ => rewrite (T2 x H); clear H
        end; lia.
Qed.
Print Assumptions C90_order.

Lemma count_app : forall x l1 l2, times_called x (l1 ++ l2) = (times_called x l1 + times_called x l2)%nat.
Proof. intros. unfold times_called. apply count_occ_app. Qed.

Lemma count_none : forall x l, ~ In x l -> times_called x l = 0%nat.
Proof. intros x l H. unfold times_called. apply count_occ_not_In. exact H. Qed.

Lemma count_extract : forall x l, phase x <> 1 -> times_called x (map Extract l) = 0%nat.
Proof. intros x l H. apply count_none. intros I. apply H. apply (extract_phase l). exact I. Qed.

(** If nothing fails, colour correction and the creation of config_analysis.ini are
    done twice in one call, everything else as often as asked for. *)
Theorem C90_colour_correction_runs_twice : forall fails conf aconf c acts,
  m_demo c = false -> (forall x, fails x = None) -> run_data_extraction conf (m_extract c) = Ok acts ->
  (m_config_analysis c = true \/ aconf = true \/ (m_analysis c = false /\ m_cc c = false)) ->
  let l := fst (main fails false conf aconf c) in
  snd (main fails false conf aconf c) = None /\
  times_called CorrectColours l = (if m_cc c then 2 else 0)%nat /\
  times_called CreateAnalysisConfig l = (if m_config_analysis c then 2 else 0)%nat /\
  times_called Coefficients l = (if m_analysis c then 1 else 0)%nat /\
  times_called PrepareImages l = (if m_prepare c then 1 else 0)%nat /\
  (forall a, times_called (Extract a) l = times_called (Extract a) (map Extract acts)).
Proof.
  intros fails conf aconf c acts D NF E Hc.
  assert (P : forall l e, perform fails l e = (l, e)).
  { intros l e. induction l as [|x l IH]; [reflexivity|]. cbn [perform]. rewrite NF, IH. reflexivity. }
  assert (M : analysis_config_missing aconf c = false).
  { unfold analysis_config_missing. destruct Hc as [-> | [-> | [-> -> ]]].
    - reflexivity.
    - apply andb_false_r.
    - rewrite andb_false_r. reflexivity. }
  unfold main, normal_calls. rewrite D, E, M, P. cbn [fst snd]. split; [reflexivity|].
  unfold analysis_calls. rewrite ?count_app, ?count_extract by discriminate.
  split; [destruct (m_prepare c), (m_config_analysis c), (m_cc c), (m_analysis c), (m_test c), (m_test_debug c); reflexivity|].
  rewrite ?count_app, ?count_extract by discriminate.
  split; [destruct (m_prepare c), (m_config_analysis c), (m_cc c), (m_analysis c), (m_test c), (m_test_debug c); reflexivity|].
  rewrite ?count_app, ?count_extract by discriminate.
  split; [destruct (m_prepare c), (m_config_analysis c), (m_cc c), (m_analysis c), (m_test c), (m_test_debug c); reflexivity|].
  rewrite ?count_app, ?count_extract by discriminate.
  split; [destruct (m_prepare c), (m_config_analysis c), (m_cc c), (m_analysis c), (m_test c), (m_test_debug c); reflexivity|].
  intros a. rewrite ?count_app.
  destruct (m_prepare c), (m_config_analysis c), (m_cc c), (m_analysis c), (m_test c), (m_test_debug c); cbn [only];
    cbn; unfold times_called; cbn [count_occ]; lia.
Qed.
Print Assumptions C90_colour_correction_runs_twice.

(** With --config_analysis the file is created before the colours are corrected, in
    every call, whatever fails. *)
Theorem C90_configuration_before_colours : forall fails no_args conf aconf c pre post,
  m_config_analysis c = true -> fst (main fails no_args conf aconf c) = (pre ++ CorrectColours :: post)%list -> In CreateAnalysisConfig pre.
Proof.
  intros fails no_args conf aconf c pre post H E.
  assert (G : forall A B pre post, (forall x, In x A -> phase x <> 2) -> (A ++ CreateAnalysisConfig :: B = pre ++ CorrectColours :: post)%list ->
            In CreateAnalysisConfig pre).
  { clear. induction A as [|a A IH]; intros B pre post HA E; destruct pre as [|b pre]; cbn [app] in E.
    - discriminate.
    - assert (CreateAnalysisConfig = b) by congruence. subst b. left. reflexivity.
    - exfalso. apply (HA a (or_introl eq_refl)). assert (a = CorrectColours) by congruence. subst a. reflexivity.
    - right. apply (IH B pre post); [intros x Hx; apply HA; right; exact Hx|congruence]. }
  unfold main in E. destruct no_args; [destruct pre; discriminate|].
  assert (P : forall l e, fst (perform fails l e) = (pre ++ CorrectColours :: post)%list -> exists q, l = (pre ++ CorrectColours :: q)%list).
  { intros l e X. destruct (perform_prefix fails l e) as (l' & A & _). rewrite X in A. exists (post ++ l')%list. rewrite A, <- app_assoc. reflexivity. }
  assert (N : forall l : list call, (forall x, In x l -> phase x <> 2) -> forall q, l <> (pre ++ CorrectColours :: q)%list).
  { intros l Hl q ->. apply (Hl CorrectColours); [apply in_or_app; right; left; reflexivity|reflexivity]. }
  assert (T : forall x, In x (only (m_prepare c) [PrepareImages]) -> phase x <> 2).
  { intros x Hx. replace (phase x) with 0; [discriminate|]. symmetry. revert Hx. apply only_phase. intros y [<-|[]]. reflexivity. }
  destruct (m_demo c).
  - destruct (demo_calls c) as [l e] eqn:D. destruct (P _ _ E) as (q & Q). exfalso. revert Q. apply N. intros x Hx.
    unfold demo_calls in D. destruct (_ && _); [apply pair_equal_spec in D; destruct D as [<- _]; destruct Hx|].
    destruct (_ && _); [apply pair_equal_spec in D; destruct D as [<- _]; destruct Hx|].
    apply pair_equal_spec in D; destruct D as [<- _]. apply in_app_or in Hx as [Hx|Hx].
    + destruct (m_setup c) as [s|]; [|destruct Hx]. replace (phase x) with 10; [discriminate|]. symmetry. revert Hx. apply only_phase. intros y [<-|[]]. reflexivity.
    + replace (phase x) with 11; [discriminate|]. symmetry. revert Hx. apply only_phase. intros y [<-|[]]. reflexivity.
  - destruct (normal_calls conf aconf c) as [l e] eqn:D. destruct (P _ _ E) as (q & Q). unfold normal_calls in D.
    destruct (run_data_extraction conf (m_extract c)) as [acts|].
    + assert (TE : forall x, In x (only (m_prepare c) [PrepareImages] ++ map Extract acts)%list -> phase x <> 2).
      { intros x Hx. apply in_app_or in Hx as [Hx|Hx]; [apply T; exact Hx|]. rewrite (extract_phase acts x Hx). discriminate. }
      destruct (analysis_config_missing aconf c).
      * apply pair_equal_spec in D; destruct D as [<- _]. exfalso. revert Q. apply N. exact TE.
      * apply pair_equal_spec in D; destruct D as [<- _]. rewrite app_assoc in Q. unfold analysis_calls at 1 in Q. rewrite H in Q. cbn [only] in Q.
        rewrite <- !app_assoc in Q. cbn [app] in Q. rewrite app_assoc in Q. exact (G _ _ _ _ TE Q).
    + apply pair_equal_spec in D; destruct D as [<- _]. exfalso. revert Q. apply N. exact T.
Qed.
Print Assumptions C90_configuration_before_colours.

Example C90_configuration_example :
  let c := Cmdline false (Args None false false false false false false false false false false) true true true false None false None false false in
  main (fun _ => None) false true false c = ([CreateAnalysisConfig; CorrectColours; CreateAnalysisConfig; CorrectColours; Coefficients], None).
Proof. vm_compute. reflexivity. Qed.

(** A missing config_analysis.ini is noticed only after the whole data extraction. *)
Theorem C90_missing_analysis_file_is_noticed_late : forall fails conf c acts,
  m_demo c = false -> (forall x, fails x = None) -> run_data_extraction conf (m_extract c) = Ok acts ->
  m_config_analysis c = false -> (m_analysis c = true \/ m_cc c = true) ->
  exists before, main fails false conf false c = ((before ++ map Extract acts)%list, Some FileNotFoundError).
Proof.
  intros fails conf c acts D NF E A B.
  assert (P : forall l e, perform fails l e = (l, e)).
  { intros l e. induction l as [|x l IH]; [reflexivity|]. cbn [perform]. rewrite NF, IH. reflexivity. }
  assert (M : analysis_config_missing false c = true).
  { unfold analysis_config_missing. rewrite A. destruct B as [-> | -> ]; [reflexivity|]. rewrite orb_true_r. reflexivity. }
  unfold main, normal_calls. rewrite D, E, M, P. eexists. reflexivity.
Qed.
Print Assumptions C90_missing_analysis_file_is_noticed_late.

Definition all_fine (x : call) : option exn := None.
Definition ex_extract : args := Args None false false false true false false false false true false.

Example C90_example :
  (* -s3_fast -rgb --analysis --cc, with and without config_analysis.ini *)
  let c := Cmdline false ex_extract false true true false (Some "/tmp/demo") true (Some 8) false false in
  main all_fine false true true c = ([Extract (Step3 [0; 1; 2] false); CorrectColours; CorrectColours; Coefficients], None) /\
  main all_fine false true false c = ([Extract (Step3 [0; 1; 2] false)], Some FileNotFoundError) /\
  (* the same with --demo *)
  let d := Cmdline false ex_extract false true true true (Some "/tmp/demo") true (Some 8) false false in
  main all_fine false false false d = ([SetupDemo "/tmp/demo"; RunDemo 8], None) /\
  main all_fine false true true (Cmdline false no_extraction false false false true None false None false false) = ([], Some SystemExit).
Proof. repeat split. Qed.

(** ** C91 *)

(** All names of parameters are lines of the two tables. *)
Definition cores_safe (arg : string -> string) : Prop :=
  (forall p, has_char cr (arg p) = false /\ deep 3 (arg p)) /\ has_char nl (arg "num_cores") = false /\
  forall p, p <> "num_cores" -> contains "num_cores" (arg p) = false.

Lemma line_of_text : forall c v l, In l (split_on c v) -> exists u t, v = u ++ l ++ t.
Proof.
  intros c. induction v as [|a v IH]; intros l H.
  - destruct H as [<-|[]]. exists "", "". reflexivity.
  - cbn [split_on] in H. destruct (Ascii.eqb a c).
    + destruct H as [<-|H]; [exists "", (String a v); reflexivity|]. destruct (IH l H) as (u & t & E).
      exists (String a u), t. rewrite E. reflexivity.
    + destruct (split_on c v) as [|w ws] eqn:E; [now apply split_on_nonempty in E|]. destruct H as [<-|H].
      * destruct (IH w (or_introl eq_refl)) as (u & t & Ev).
        (* the first line starts the text *)
        assert (F : exists t', v = w ++ t').
        { clear -E. revert w ws E. induction v as [|b v IH]; intros w ws E; cbn [split_on] in E.
          - injection E as <- <-. exists "". reflexivity.
          - destruct (Ascii.eqb b c); [injection E as <- <-; exists (String b v); reflexivity|].
            destruct (split_on c v) as [|x xs]; injection E as <- <-.
            + exists v. reflexivity.
            + destruct (IH x xs eq_refl) as (t' & ->). exists t'. reflexivity. }
        destruct F as (t' & ->). exists "", t'. reflexivity.
      * destruct (IH l (or_intror H)) as (u & t & Ev). exists (String a u), t. rewrite Ev. reflexivity.
Qed.

Lemma contains_line : forall w c v l, contains w v = false -> In l (split_on c v) -> contains w l = false.
Proof.
  intros w c v l H I. destruct (contains w l) eqn:E; [|reflexivity]. apply contains_spec in E. destruct E as (x & y & ->).
  destruct (line_of_text c v _ I) as (u & t & ->).
  assert (contains w (u ++ (x ++ w ++ y) ++ t) = true); [|congruence].
  apply contains_spec. exists (u ++ x), (y ++ t). rewrite !app_assoc_s. reflexivity.
Qed.

Lemma new_line_other : forall w n l, contains w l = false -> new_line w n l = l.
Proof. intros w n l H. unfold new_line. rewrite H. reflexivity. Qed.

Lemma edits_lines : forall n k v, contains "num_cores" k = false -> contains "num_cores" v = false ->
  edits n (k, Some v) (k, Some v).
Proof.
  intros n k v Hk Hv. unfold edits, entry_lines. cbn [fst snd map]. f_equal.
  - apply new_line_other.
    change (k ++ " = " ++ first_line v ++ String nl "") with (k ++ String " "%char ("=" ++ String " "%char (first_line v ++ String nl ""))).
    rewrite contains_stop by (reflexivity || discriminate). rewrite Hk. cbn [orb].
    rewrite contains_stop by (reflexivity || discriminate). change (contains "num_cores" "=") with false. cbn [orb].
    rewrite contains_stop by (reflexivity || discriminate). rewrite orb_false_iff. split; [|reflexivity].
    unfold first_line. destruct (split_on nl v) as [|x xs] eqn:E; [reflexivity|].
    apply (contains_line _ nl v); [exact Hv|]. rewrite E. left. reflexivity.
  - rewrite map_map. apply map_ext_in. intros l Hl. apply new_line_other.
    change (String tab (l ++ String nl "")) with ("" ++ String tab (l ++ String nl "")).
    rewrite contains_stop by (reflexivity || discriminate). cbn [orb].
    change (contains "num_cores" "") with false. cbn [orb].
    rewrite contains_stop by (reflexivity || discriminate). rewrite orb_false_iff. split; [|reflexivity].
    apply (contains_line _ nl v); [exact Hv|]. destruct (split_on nl v); [destruct Hl|]. right. exact Hl.
Qed.

Ltac edit_entries2 Hnl Hc Hn :=
  repeat (apply Forall2_cons; [match goal with
     | |- edits _ (_, None) _ => vm_compute; reflexivity
     | |- edits _ ("   num_cores", _) _ => apply edits_cores; [apply Hnl|exact Hn]
     | |- _ => apply edits_lines; [reflexivity|apply Hc; discriminate]
     end|]); apply Forall2_nil.

Ltac edit_sections2 Hnl Hc Hn :=
  repeat (apply Forall2_cons; [cbn [fst snd]; split; [reflexivity|]; split; [reflexivity|]; split; [reflexivity|];
    split; [reflexivity|]; edit_entries2 Hnl Hc Hn|]); apply Forall2_nil.

Lemma edited_file : forall stmts arg n, stmts = config_stmts \/ stmts = analysis_stmts -> cores_safe arg -> plain n ->
  replace_params "num_cores" n (new_file stmts arg) = new_file stmts (with_cores n arg).
Proof.
  intros stmts arg n Hst (Ha & Hnl & Hc) (Hn & _).
  assert (Hdeep : forall p, deep 3 (arg p)) by (intros p; apply Ha).
  assert (M : forall t u, map (new_line "num_cores" n) (file_lines t) = file_lines u ->
     Forall (fun s => name_ok (fst s) /\ Forall (entry_ok 3) (snd s)) t ->
     replace_params "num_cores" n (write t) = write u).
  { intros t u E F. rewrite edit_text by exact F. now rewrite E, <- write_text. }
  unfold new_file. apply M; clear M.
  - apply edits_file. destruct Hst as [-> | ->].
    + set (t := new_config config_stmts arg). vm_compute in t.
      set (u := new_config config_stmts (with_cores n arg)). vm_compute in u.
      subst t u. edit_sections2 Hnl Hc Hn.
    + set (t := new_config analysis_stmts arg). vm_compute in t.
      set (u := new_config analysis_stmts (with_cores n arg)). vm_compute in u.
      subst t u. edit_sections2 Hnl Hc Hn.
  - destruct Hst as [-> | ->].
    + set (t := new_config config_stmts arg). vm_compute in t. subst t.
      repeat (apply Forall_cons; [split; [split; [discriminate|reflexivity]|cbn [snd]; entries Hdeep]|]).
      apply Forall_nil.
    + set (t := new_config analysis_stmts arg). vm_compute in t. subst t.
      repeat (apply Forall_cons; [split; [split; [discriminate|reflexivity]|cbn [snd]; entries Hdeep]|]).
      apply Forall_nil.
Qed.

Lemma int_char_plain : forall s, all_chars int_char s = true -> plain s.
Proof.
  intros s H. split; [|split].
  - apply (has_char_all nl int_char); [exact H|reflexivity].
  - apply (has_char_all cr int_char); [exact H|reflexivity].
  - assert (W : all_chars (fun c => negb (is_ws c)) s = true).
    { clear -H. induction s as [|a s IH]; [reflexivity|]. cbn [all_chars] in *. apply andb_true_iff in H. destruct H as [A B].
      rewrite IH by exact B. rewrite andb_true_r. destruct a as [[] [] [] [] [] [] [] []]; try reflexivity; discriminate. }
    unfold strip. rewrite <- (rstrip_id s W) at 2. f_equal.
    destruct s as [|a s]; [reflexivity|]. cbn [all_chars] in W. apply andb_true_iff in W. destruct W as [A _].
    apply negb_true_iff in A. cbn [lstrip]. rewrite A. reflexivity.
Qed.

Lemma str_plain : forall n, plain (str_of_Z n).
Proof. intros n. apply int_char_plain. apply str_of_Z_chars. Qed.

Lemma cores_file : forall stmts arg n, stmts = config_stmts \/ stmts = analysis_stmts -> cores_safe arg ->
  arg "num_cores" = str_of_Z n -> cores_of (new_file stmts arg) = Ok n.
Proof.
  intros stmts arg n Hst (Ha & _) En. destruct (C76_created_file_is_read_back arg Ha) as [A B].
  assert (R : reread (arg "num_cores") = str_of_Z n).
  { rewrite En. destruct (str_plain n) as (P & _ & Q). rewrite reread_plain by exact P. exact Q. }
  unfold cores_of. destruct Hst as [-> | -> ]; [rewrite A|rewrite B]; cbn [bind].
  - assert (L : lookup (filled config_table (fun p => reread (arg p))) "DEFAULT" "num_cores" = Ok (Some (reread (arg "num_cores")))) by reflexivity.
    rewrite L, R. cbn [bind]. apply int_of_str_of_Z.
  - assert (L : lookup (filled analysis_table (fun p => reread (arg p))) "DEFAULT" "num_cores" = Ok (Some (reread (arg "num_cores")))) by reflexivity.
    rewrite L, R. cbn [bind]. apply int_of_str_of_Z.
Qed.

Lemma with_cores_safe : forall arg n, cores_safe arg -> plain n -> cores_safe (with_cores n arg).
Proof.
  intros arg n (A & B & C) (P1 & P2 & _). split; [|split].
  - intros p. unfold with_cores. destruct (p =? "num_cores")%string; [|apply A]. split; [exact P2|]. apply deep_plain. exact P1.
  - unfold with_cores. cbn. exact P1.
  - intros p Hp. unfold with_cores. apply String.eqb_neq in Hp. rewrite Hp. apply C. apply String.eqb_neq. exact Hp.
Qed.

(** [run_demo n] runs with n cores, in the data extraction and in the analysis, if
    n is not 1.  With n = 1 the files are not touched: the demo runs with the
    numbers in the files. *)
Theorem C91_number_of_cores : forall fails n arg aarg m m',
  cores_safe arg -> cores_safe aarg -> arg "num_cores" = str_of_Z m -> aarg "num_cores" = str_of_Z m' ->
  let files := fst (run_demo fails n (new_file config_stmts arg, new_file analysis_stmts aarg)) in
  (n <> 1 -> cores_of (fst files) = Ok n /\ cores_of (snd files) = Ok n) /\
  (n = 1 -> cores_of (fst files) = Ok m /\ cores_of (snd files) = Ok m').
Proof.
  intros fails n arg aarg m m' S S' E E'. unfold run_demo, edit_cores. cbn [fst snd]. split.
  - intros N. apply Z.eqb_neq in N. rewrite N. cbn [fst snd].
    rewrite (edited_file config_stmts arg) by (auto using str_plain). rewrite (edited_file analysis_stmts aarg) by (auto using str_plain).
    split; apply cores_file; auto using with_cores_safe, str_plain.
  - intros ->. cbn [Z.eqb Pos.eqb fst snd]. split; apply cores_file; auto.
Qed.
Print Assumptions C91_number_of_cores.

(** The values of the demo. *)
Definition demo_arg1 (p : string) : string :=
  if (p =? "led_array_edge_coordinates")%string then demo_edge_coordinates
  else if (p =? "led_array_edge_indices")%string then demo_edge_indices
  else if (p =? "ignore_led_indices")%string then "781 675 746"
  else demo_config_arg p.

Definition demo_arg2 (p : string) : string :=
  if (p =? "led_array_indices")%string then "0 1 2 3 4 5 6"
  else if (p =? "domain_bounds")%string then "0.99 3.35"
  else if (p =? "camera_channels")%string then "0 1 2"
  else if (p =? "camera_position")%string then "7.29 6.46 2.3"
  else demo_analysis_arg p.

Lemma demo_files_eq : demo_files = (new_file config_stmts demo_arg1, new_file analysis_stmts demo_arg2).
Proof. vm_compute. reflexivity. Qed.

(** What holds of every given value and of None, holds of every value. *)
Lemma given_all : forall (P : string -> string -> Prop) l, (forall p, P p "None") ->
  Forall (fun qv => P (fst qv) (snd qv)) l -> forall p, P p (given l p).
Proof.
  intros P l N. induction l as [|[q v] l IH]; intros F p; cbn [given]; [apply N|]. inversion F; subst.
  destruct (String.eqb_spec p q) as [->|]; [assumption|]. apply IH. assumption.
Qed.

Definition value_safe (p v : string) : Prop :=
  (has_char cr v = false /\ deep 3 v) /\ (p = "num_cores" -> has_char nl v = false) /\
  (p <> "num_cores" -> contains "num_cores" v = false).

Lemma safe_values : forall arg, (forall p, value_safe p (arg p)) -> cores_safe arg.
Proof.
  intros arg H. split; [|split].
  - intros p. apply (H p).
  - apply (H "num_cores"). reflexivity.
  - intros p. apply (H p).
Qed.

Lemma simple_value : forall p v, has_char cr v = false -> has_char nl v = false -> contains "num_cores" v = false -> value_safe p v.
Proof. intros p v A B C. split; [split; [exact A|apply deep_plain; exact B]|]. split; intros _; assumption. Qed.

Lemma demo_safe1 : cores_safe demo_arg1.
Proof.
  apply safe_values. intros p. unfold demo_arg1.
  assert (D : forall v, deep 3 (String nl v) <-> Forall (fun l => strip l = "" \/ is_comment (strip l) = true \/ (3 <= indent l)%nat) (split_on nl v)) by (intros; reflexivity).
  destruct (String.eqb_spec p "led_array_edge_coordinates") as [->|_].
  { split; [split; [vm_compute; reflexivity|]|split; [discriminate|intros _; vm_compute; reflexivity]].
    unfold demo_edge_coordinates. cbn [lines_text]. apply D.
    repeat (apply Forall_cons; [first [left; reflexivity|right; right; vm_compute; lia]|]). apply Forall_nil. }
  destruct (String.eqb_spec p "led_array_edge_indices") as [->|_].
  { split; [split; [vm_compute; reflexivity|]|split; [discriminate|intros _; vm_compute; reflexivity]].
    unfold demo_edge_indices. cbn [lines_text]. apply D.
    repeat (apply Forall_cons; [first [left; reflexivity|right; right; vm_compute; lia]|]). apply Forall_nil. }
  destruct (String.eqb_spec p "ignore_led_indices") as [->|_]; [apply simple_value; reflexivity|].
  unfold demo_config_arg. apply (given_all value_safe); [intros q; apply simple_value; reflexivity|].
  repeat (apply Forall_cons; [apply simple_value; reflexivity|]). apply Forall_nil.
Qed.

Lemma demo_safe2 : cores_safe demo_arg2.
Proof.
  apply safe_values. intros p. unfold demo_arg2.
  repeat (match goal with |- value_safe _ (if ?b then _ else _) => destruct b end; [apply simple_value; reflexivity|]).
  unfold demo_analysis_arg. apply (given_all value_safe); [intros q; apply simple_value; reflexivity|].
  repeat (apply Forall_cons; [apply simple_value; reflexivity|]). apply Forall_nil.
Qed.

Lemma filled_ext : forall table f g, (forall p : string, f p = g p :> string) -> filled table f = filled table g.
Proof.
  intros table f g H. unfold filled. apply map_ext. intros x. f_equal. apply map_ext. intros o. rewrite H. reflexivity.
Qed.

Lemma demo_loaded : forall fails n,
  let files := fst (run_demo fails n demo_files) in
  let k := if n =? 1 then 4 else n in
  load (fst files) = Ok (filled config_table (fun p => reread (with_cores (str_of_Z k) demo_arg1 p))) /\
  load (snd files) = Ok (filled analysis_table (fun p => reread (with_cores (str_of_Z k) demo_arg2 p))).
Proof.
  intros fails n. unfold run_demo, edit_cores. cbn [fst snd]. rewrite demo_files_eq. cbn [fst snd].
  assert (K : forall stmts arg m, stmts = config_stmts \/ stmts = analysis_stmts -> cores_safe arg ->
     replace_params "num_cores" (str_of_Z m) (new_file stmts arg) = new_file stmts (with_cores (str_of_Z m) arg)).
  { intros stmts arg m A B. apply edited_file; auto using str_plain. }
  destruct (Z.eqb_spec n 1) as [->|N].
  - cbn [fst snd].
    assert (E : forall arg, arg "num_cores" = "4" -> forall p, with_cores (str_of_Z 4) arg p = arg p).
    { intros arg E p. unfold with_cores. destruct (String.eqb_spec p "num_cores") as [->|]; [rewrite E; reflexivity|reflexivity]. }
    destruct (C76_created_file_is_read_back demo_arg1 (proj1 demo_safe1)) as [A _].
    destruct (C76_created_file_is_read_back demo_arg2 (proj1 demo_safe2)) as [_ B].
    assert (E1 : demo_arg1 "num_cores" = "4") by (vm_compute; reflexivity).
    assert (E2 : demo_arg2 "num_cores" = "4") by (vm_compute; reflexivity).
    rewrite A, B. split.
    + apply (f_equal Ok). apply filled_ext. intros p. apply (f_equal reread). symmetry. exact (E demo_arg1 E1 p).
    + apply (f_equal Ok). apply filled_ext. intros p. apply (f_equal reread). symmetry. exact (E demo_arg2 E2 p).
  - cbn [fst snd]. rewrite !K by (auto using demo_safe1, demo_safe2).
    destruct (C76_created_file_is_read_back (with_cores (str_of_Z n) demo_arg1)) as [A _].
    { apply with_cores_safe; [apply demo_safe1|apply str_plain]. }
    destruct (C76_created_file_is_read_back (with_cores (str_of_Z n) demo_arg2)) as [_ B].
    { apply with_cores_safe; [apply demo_safe2|apply str_plain]. }
    split; assumption.
Qed.

(** The files of the demo, as they are read while the demo runs: seven pairs of edge
    LEDs, seven pairs of end points, and in the analysis the seven arrays in each of
    the three channels.  No question is asked. *)
Theorem C91_demo_configuration : forall fails n (F : Type) (pf : string -> res F) ans,
  (forall s, In s ["0.99"; "3.35"; "7.29"; "6.46"; "2.3"] -> exists x, pf s = Ok x) ->
  let files := fst (run_demo fails n demo_files) in
  exists t u, load (fst files) = Ok t /\ load (snd files) = Ok u /\
  (exists v, lookup t "analyse_positions" "led_array_edge_indices" = Ok (Some v) /\
     get2d int_of_str 2 v = Ok (Some [[457; 246]; [12; 347]; [578; 671]; [31; 535]; [825; 838]; [198; 698]; [965; 782]])) /\
  (exists v rows, lookup t "analyse_positions" "led_array_edge_coordinates" = Ok (Some v) /\
     get2d (fun s => Ok s) 6 v = Ok (Some rows) /\ List.length rows = 7%nat /\ Forall (fun r => List.length r = 6%nat) rows /\
     hd [] rows = ["6.86"; "3.13"; "1.14"; "5.98"; "2.83"; "3.32"]) /\
  lookup t "DEFAULT" "num_cores" = lookup u "DEFAULT" "num_cores" /\
  exists st x, prepare_analysis pf ans (analysis_options u) = (st, Ok (x, list_prod [0; 1; 2; 3; 4; 5; 6] [0; 1; 2])) /\
    aasked st = [] /\ x_cpus F x = (if n =? 1 then 4 else n).
Proof.
  intros fails n F pf ans P files. destruct (demo_loaded fails n) as [A B]. fold files in A, B.
  set (k := if n =? 1 then 4 else n) in *.
  eexists _, _. split; [exact A|]. split; [exact B|]. clear A B.
  split; [eexists; split; [vm_compute; reflexivity|vm_compute; reflexivity]|].
  split. { eexists _, _. split; [vm_compute; reflexivity|]. split; [vm_compute; reflexivity|]. split; [reflexivity|].
           split; [repeat constructor|reflexivity]. }
  split; [reflexivity|].
  set (u := filled analysis_table _).
  assert (C : analysis_options u ACores = Some (str_of_Z k)).
  { destruct (str_plain k) as (S1 & _ & S2). rewrite <- S2 at 1. rewrite <- (reread_plain (str_of_Z k)) by exact S1. reflexivity. }
  destruct (P "0.99") as (f1 & E1); [cbn; tauto|]. destruct (P "3.35") as (f2 & E2); [cbn; tauto|].
  destruct (P "7.29") as (f3 & E3); [cbn; tauto|]. destruct (P "6.46") as (f4 & E4); [cbn; tauto|].
  destruct (P "2.3") as (f5 & E5); [cbn; tauto|].
  assert (L1 : alist pf (analysis_options u) ABounds = Some [f1; f2]).
  { unfold alist. change (analysis_options u ABounds) with (Some "0.99 3.35"). cbn [option_map].
    unfold get_list_of_values. cbv zeta.
    change (split_ws (strip "0.99 3.35")) with ["0.99"; "3.35"]. cbn [mapM]. rewrite E1, E2. reflexivity. }
  assert (L2 : alist pf (analysis_options u) ACamera = Some [f3; f4; f5]).
  { unfold alist. change (analysis_options u ACamera) with (Some "7.29 6.46 2.3"). cbn [option_map].
    unfold get_list_of_values. cbv zeta.
    change (split_ws (strip "7.29 6.46 2.3")) with ["7.29"; "6.46"; "2.3"]. cbn [mapM]. rewrite E3, E4, E5. reflexivity. }
  assert (L3 : alist int_of_str (analysis_options u) AArrays = Some [0; 1; 2; 3; 4; 5; 6]) by (vm_compute; reflexivity).
  assert (L4 : alist int_of_str (analysis_options u) AChannels = Some [0; 1; 2]) by (vm_compute; reflexivity).
  assert (L5 : alist int_of_str (analysis_options u) ARefImgs = None) by (vm_compute; reflexivity).
  assert (L6 : aget (analysis_options u) ANumLayers = Ok "20") by (vm_compute; reflexivity).
  assert (L7 : aget (analysis_options u) ANumRef = Ok "10") by (vm_compute; reflexivity).
  assert (L8 : aget (analysis_options u) ACores = Ok (str_of_Z k)) by (unfold aget; rewrite C; reflexivity).
  unfold prepare_analysis, load_exdata. rewrite L6. cbn [bind]. change (int_of_str "20") with (Ok 20). cbv iota.
  rewrite L5, L7. cbn [bind]. change (int_of_str "10") with (Ok 10). cbn [bind]. cbv zeta.
  assert (Q : forall A (f : string -> res A) a st l, alist f (acur st) a = Some l -> ask_if_none f ans a st = st).
  { intros A f a st l H. unfold ask_if_none. rewrite H. reflexivity. }
  rewrite (Q Z int_of_str AArrays (AState (analysis_options u) []) _ L3).
  rewrite (Q F pf ABounds (AState (analysis_options u) []) _ L1).
  rewrite (Q F pf ACamera (AState (analysis_options u) []) _ L2). cbn [acur].
  rewrite L1, L2, L8. cbn [bind]. rewrite int_of_str_of_Z. cbn [bind].
  rewrite L3, L4. unfold request_exdata, ask_if_text_none. cbn [acur].
  assert (G1 : aget (analysis_options u) ACamera = Ok "7.29 6.46 2.3") by (vm_compute; reflexivity).
  assert (G2 : aget (analysis_options u) ABounds = Ok "0.99 3.35") by (vm_compute; reflexivity).
  assert (G3 : aget (analysis_options u) AArrays = Ok "0 1 2 3 4 5 6") by (vm_compute; reflexivity).
  rewrite G1. cbn [bind]. change (("7.29 6.46 2.3" =? "None")%string) with false. cbv iota. cbn [acur].
  rewrite L6. cbn [bind]. change (("20" =? "None")%string) with false. cbv iota. cbn [acur].
  rewrite G2. cbn [bind]. change (("0.99 3.35" =? "None")%string) with false. cbv iota. cbn [acur].
  rewrite G3. cbn [bind]. change (("0 1 2 3 4 5 6" =? "None")%string) with false. cbv iota.
  eexists _, _. split; [reflexivity|]. split; reflexivity.
Qed.
Print Assumptions C91_demo_configuration.

(** The images of the demo: whatever the number of cores, the files give the images 1
    to 275 to the experiment and to the analysis, none is left out, the LEDs are
    searched on the first of them, and as many images are read for the analysis as
    there are in its table. *)
Theorem C91_demo_images : forall fails n,
  exists t, load (fst (fst (run_demo fails n demo_files))) = Ok t /\
  let number c k z := exists s, lookup t c k = Ok (Some s) /\ int_of_str s = Ok z in
  exists first last first_a last_a skip over ref,
    number "DEFAULT" "first_img_experiment_id" first /\ number "DEFAULT" "last_img_experiment_id" last /\
    number "analyse_photo" "first_img_analysis_id" first_a /\ number "analyse_photo" "last_img_analysis_id" last_a /\
    number "analyse_photo" "num_skip_imgs" skip /\ number "DEFAULT" "num_img_overflow" over /\
    number "find_search_areas" "ref_img_id" ref /\
    find_img_number_list first last 1 = find_img_number_list first last_a (skip + 1) /\
    (exists imgs, find_img_number_list first last 1 = Ok imgs /\
       List.length imgs = Z.to_nat 275 /\ mapM int_of_str imgs = Ok (zrange 1 276) /\
       Z.of_nat (List.length imgs) = number_of_images (Some over) first_a last_a skip /\
       nth_error imgs (Z.to_nat (ref - 1)) = Some "0001").
Proof.
  intros fails n. destruct (demo_loaded fails n) as [A _].
  eexists. split; [exact A|]. clear A. intros number. subst number.
  exists 1, 275, 1, 275, 0, 9999, 1.
  split; [exists "1"; split; reflexivity|].
  split; [exists "275"; split; reflexivity|].
  split; [exists "1"; split; reflexivity|].
  split; [exists "275"; split; reflexivity|].
  split; [exists "0"; split; reflexivity|].
  split; [exists "9999"; split; reflexivity|].
  split; [exists "1"; split; reflexivity|].
  split; [reflexivity|].
  eexists. split; [vm_compute; reflexivity|].
  split; [vm_compute; reflexivity|].
  split; [vm_compute; reflexivity|].
  split; vm_compute; reflexivity.
Qed.
Print Assumptions C91_demo_images.

(** The option --n_cores 1 does not make the demo run on one core. *)
Theorem C91_one_core_refuted : exists fails, snd (demo_calls (Cmdline false no_extraction false false false true None true (Some 1) false false)) = None /\
  fst (demo_calls (Cmdline false no_extraction false false false true None true (Some 1) false false)) = [RunDemo 1] /\
  cores_of (fst (fst (run_demo fails 1 demo_files))) = Ok 4 /\ cores_of (snd (fst (run_demo fails 1 demo_files))) = Ok 4.
Proof.
  exists (fun _ => None). split; [reflexivity|]. split; [reflexivity|]. rewrite demo_files_eq.
  apply (C91_number_of_cores (fun _ => None) 1 demo_arg1 demo_arg2 4 4); (exact demo_safe1 || exact demo_safe2 || reflexivity).
Qed.
Print Assumptions C91_one_core_refuted.

(** The five programs of the demo, in order, up to the first that fails. *)
Theorem C91_sequence : forall fails n files,
  let all := [Extract (FindSearchAreas [0]); Extract (MatchLeds [0]); Extract (Step3 [0; 1; 2] false);
              Extract Coordinates; Coefficients] in
  let '(done, e) := snd (run_demo fails n files) in
  (exists rest, all = (done ++ rest)%list /\ (e = None -> rest = [])) /\
  (e = None <-> forall x, In x all -> fails x = None) /\
  (forall x e', e = Some e' -> In x done -> fails x = None \/ (fails x = Some e' /\ exists d, done = (d ++ [x])%list)).
Proof.
  intros fails n files all. unfold run_demo. cbn [snd]. unfold all, demo_commands, demo_mains, main, with_extraction.
  cbn [m_demo]. unfold normal_calls. cbn [m_prepare m_extract m_config_analysis m_analysis m_cc m_test m_test_debug].
  unfold run_data_extraction, analysis_config_missing, analysis_calls. cbn.
  destruct (fails (Extract (FindSearchAreas [0]))) eqn:F1; cbn.
  1: { split; [eexists; split; [reflexivity|discriminate]|]. split; [split; [discriminate|intros H; rewrite H in F1; [discriminate|tauto]]|].
       intros x e' E [<-|[]]. right. split; [congruence|exists []; reflexivity]. }
  destruct (fails (Extract (MatchLeds [0]))) eqn:F2; cbn.
  1: { split; [eexists; split; [reflexivity|discriminate]|]. split; [split; [discriminate|intros H; rewrite H in F2; [discriminate|tauto]]|].
       intros x e' E [<-|[<-|[]]]; [left; assumption|]. right. split; [congruence|]. eexists [_]. reflexivity. }
  destruct (fails (Extract (Step3 [0; 1; 2] false))) eqn:F3; cbn.
  1: { split; [eexists; split; [reflexivity|discriminate]|]. split; [split; [discriminate|intros H; rewrite H in F3; [discriminate|tauto]]|].
       intros x e' E [<-|[<-|[<-|[]]]]; [left; assumption..|]. right. split; [congruence|]. eexists [_; _]. reflexivity. }
  destruct (fails (Extract Coordinates)) eqn:F4; cbn.
  1: { split; [eexists; split; [reflexivity|discriminate]|]. split; [split; [discriminate|intros H; rewrite H in F4; [discriminate|tauto]]|].
       intros x e' E [<-|[<-|[<-|[<-|[]]]]]; [left; assumption..|]. right. split; [congruence|]. eexists [_; _; _]. reflexivity. }
  destruct (fails Coefficients) eqn:F5; cbn.
  1: { split; [eexists; split; [reflexivity|discriminate]|]. split; [split; [discriminate|intros H; rewrite H in F5; [discriminate|tauto]]|].
       intros x e' E [<-|[<-|[<-|[<-|[<-|[]]]]]]; [left; assumption..|]. right. split; [congruence|]. eexists [_; _; _; _]. reflexivity. }
  split; [exists []; split; reflexivity|]. split; [|discriminate].
  split; [|reflexivity]. intros _ x [<-|[<-|[<-|[<-|[<-|[]]]]]]; assumption.
Qed.
Print Assumptions C91_sequence.

(** The path of [name] in the directory [dir]; the empty text is the working directory. *)
Definition inside (dir name path : string) : Prop :=
  ((dir = "" \/ exists d, dir = d ++ "/") /\ path = dir ++ name) \/
  (dir <> "" /\ (forall d, dir <> d ++ "/") /\ path = dir ++ "/" ++ name).

Lemma ends_with_slash_app : forall d, ends_with_slash (d ++ "/") = true.
Proof. induction d as [|c d IH]; [reflexivity|]. destruct d as [|c' d]; [reflexivity|exact IH]. Qed.

Lemma slash_at_end : forall d, ends_with_slash d = true -> exists d', d = d' ++ "/".
Proof.
  induction d as [|c d IH]; [discriminate|]. destruct d as [|c' d].
  - cbn. intros H. apply Ascii.eqb_eq in H. subst c. exists "". reflexivity.
  - intros H. destruct (IH H) as (d' & E). exists (String c d'). cbn [append]. rewrite <- E. reflexivity.
Qed.

Lemma joined_inside : forall dir name, inside dir name (path_join dir name).
Proof.
  intros dir name. unfold path_join, inside. destruct (String.eqb_spec dir "") as [->|N]; [left; split; [left|]; reflexivity|].
  destruct (ends_with_slash dir) eqn:E; [left; split; [right; apply slash_at_end; exact E|reflexivity]|].
  right. split; [exact N|]. split; [|reflexivity]. intros d ->. rewrite ends_with_slash_app in E. discriminate.
Qed.

(** The directory the demo was set up in plays no role: it runs in the simulation
    directory of the working directory if there is one, otherwise in the one of
    the directory that was typed. *)
Theorem C91_directory : forall here answer,
  (In "simulation" here -> demo_directory here answer = "simulation") /\
  (~ In "simulation" here -> inside answer "simulation" (demo_directory here answer)).
Proof.
  intros here answer. unfold demo_directory.
  destruct (existsb _ here) eqn:E; split; intros H; try reflexivity; try apply joined_inside.
  - apply existsb_exists in E. destruct E as (x & I & Ex). apply String.eqb_eq in Ex. subst x. contradiction.
  - assert (existsb (fun n => (n =? "simulation")%string) here = true); [|congruence].
    apply existsb_exists. exists "simulation". split; [exact H|reflexivity].
Qed.
Print Assumptions C91_directory.

Example C91_example :
  let files := fst (run_demo (fun _ => None) 16 demo_files) in
  cores_of (fst files) = Ok 16 /\ cores_of (snd files) = Ok 16 /\
  cores_of (fst demo_files) = Ok 4 /\ cores_of (snd demo_files) = Ok 4 /\
  demo_directory ["image_data"; "simulation"] "/other" = "simulation" /\
  demo_directory ["image_data"] "/other" = "/other/simulation" /\ demo_directory ["image_data"] "" = "simulation".
Proof. vm_compute. repeat split; reflexivity. Qed.
