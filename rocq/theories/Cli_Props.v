(** Properties C44, C53, C64 - C66: the command line. *)
From Coq Require Import ZArith Lia Bool Ascii String List Sorted.
From Verif Require Import Base Str Config_Model Config_Props Cli_Model.
Import ListNotations.
Local Open Scope string_scope.
Local Open Scope Z_scope.

(** ** C53 *)

(** The channels: all three with -rgb; otherwise those whose flag is given, and
    channel 0 if there is none; each once and in ascending order. *)
Theorem C53_channels :
  forall a,
  (forall c, In c (channels_of a) <->
     ((a_rgb a = true /\ 0 <= c <= 2) \/
      (a_rgb a = false /\
       ((c = 0 /\ a_red a = true) \/ (c = 1 /\ a_green a = true) \/ (c = 2 /\ a_blue a = true) \/
        (c = 0 /\ a_red a = false /\ a_green a = false /\ a_blue a = false))))) /\
  StronglySorted Z.lt (channels_of a).
Proof.
  intros a. unfold channels_of.
  destruct (a_rgb a), (a_red a), (a_green a), (a_blue a); cbn [app];
    (split; [intros c; cbn [In]; intuition (try discriminate; lia)|repeat constructor]).
Qed.
Print Assumptions C53_channels.

(** The slow step 3 (with fits) is run iff it is requested or a colour flag is
    given - for -rgb only if -s3_fast is not given.  It is run for all channels,
    and at most once. *)
Theorem C53_slow_step3 :
  forall exists_ a l, run_data_extraction exists_ a = Ok l ->
  (forall ch, In (Step3 ch true) l <->
     ch = channels_of a /\
     (a_s3 a = true \/ a_red a = true \/ a_green a = true \/ a_blue a = true \/
      (a_rgb a = true /\ a_fast a = false))) /\
  (forall ch, In (Step3 ch false) l <-> ch = channels_of a /\ a_fast a = true) /\
  (forall ch fit, In (Continue ch fit) l <-> ch = channels_of a /\ fit = false /\ a_restart a = true).
Proof.
  intros ex a l H.
  assert (E : exists pre, (forall x, In x pre -> exists d r n, x = CreateConfig d r n) /\
    l = (pre ++ when (a_s1 a) [FindSearchAreas (channels_of a)] ++
     when (a_s2 a) [MatchLeds (channels_of a)] ++
     when (step3_set a) [Step3 (channels_of a) true] ++
     when (a_fast a) [Step3 (channels_of a) false] ++
     when (a_restart a) [Continue (channels_of a) false] ++
     when (a_coord a) [Coordinates])%list).
  { unfold run_data_extraction in H. destruct (a_config a) as [cl|].
    - match type of H with Ok ?y = Ok _ => assert (H1 : y = l) by congruence end. clear H. rename H1 into H.
      eexists. split; [|symmetry; exact H]. intros x. unfold config_actions.
      destruct cl as [|d [|r [|n [|z cl]]]]; cbn [In]; intros [<-|[]] || intros []; eauto.
    - exists []. split; [intros x []|]. cbn [app].
      match type of H with (if ?b then _ else _) = _ => destruct b end;
        [destruct ex; [|discriminate]|]; congruence. }
  destruct E as (pre & Hp & ->). clear H ex.
  assert (P : forall x, (forall d r n, x <> CreateConfig d r n) -> ~ In x pre).
  { intros x Hx Hin. destruct (Hp x Hin) as (d & r & n & E). exact (Hx d r n E). }
  assert (W : forall b x y, In x (when b [y]) <-> b = true /\ x = y).
  { intros b x y. destruct b; cbn; intuition congruence. }
  split; [|split].
  - intros ch. repeat rewrite in_app_iff. rewrite !W. unfold step3_set.
    pose proof (P (Step3 ch true) ltac:(discriminate)) as N.
    rewrite !orb_true_iff, andb_true_iff, negb_true_iff.
    split; [intros [H|[H|[H|[H|[H|[H|H]]]]]]; try tauto; destruct H as [? H]; try discriminate;
            split; [congruence|tauto] |].
    intros [-> H]. right. right. right. left. split; [tauto|reflexivity].
  - intros ch. repeat rewrite in_app_iff. rewrite !W.
    pose proof (P (Step3 ch false) ltac:(discriminate)) as N.
    split; [intros [H|[H|[H|[H|[H|[H|H]]]]]]; try tauto; destruct H as [? H]; try discriminate;
            split; [congruence|tauto] |].
    intros [-> H]. right. right. right. right. left. split; [tauto|reflexivity].
  - intros ch fit. repeat rewrite in_app_iff. rewrite !W.
    pose proof (P (Continue ch fit) ltac:(discriminate)) as N.
    split; [intros [H|[H|[H|[H|[H|[H|H]]]]]]; try tauto; destruct H as [? H]; try discriminate;
            split; [congruence|split; [congruence|tauto]] |].
    intros (-> & -> & H). right. right. right. right. right. left. split; [tauto|reflexivity].
Qed.
Print Assumptions C53_slow_step3.

(** The other actions; the values of --config are the image directory, the
    reference image and the number of cores, more than three values make the
    option void. *)
Theorem C53_other_actions :
  forall exists_ a l, run_data_extraction exists_ a = Ok l ->
  (forall ch, In (FindSearchAreas ch) l <-> ch = channels_of a /\ a_s1 a = true) /\
  (forall ch, In (MatchLeds ch) l <-> ch = channels_of a /\ a_s2 a = true) /\
  (In Coordinates l <-> a_coord a = true) /\
  (forall d r n, In (CreateConfig d r n) l <->
     exists vs, a_config a = Some vs /\ (List.length vs <= 3)%nat /\
       d = nth_error vs 0 /\ r = nth_error vs 1 /\ n = nth_error vs 2).
Proof.
  intros ex a l H.
  assert (E : l = (match a_config a with Some vs => config_actions vs | None => [] end ++
     when (a_s1 a) [FindSearchAreas (channels_of a)] ++
     when (a_s2 a) [MatchLeds (channels_of a)] ++
     when (step3_set a) [Step3 (channels_of a) true] ++
     when (a_fast a) [Step3 (channels_of a) false] ++
     when (a_restart a) [Continue (channels_of a) false] ++
     when (a_coord a) [Coordinates])%list).
  { unfold run_data_extraction in H. destruct (a_config a) as [cl|]; [congruence|]. cbn [app].
    match type of H with (if ?b then _ else _) = _ => destruct b end; [destruct ex; [|discriminate]|]; congruence. }
  assert (W : forall b x y, In x (when b [y]) <-> b = true /\ x = y).
  { intros b x y. destruct b; cbn; intuition congruence. }
  assert (C : forall d r n, In (CreateConfig d r n) (match a_config a with Some vs => config_actions vs | None => [] end) <->
     exists vs, a_config a = Some vs /\ (List.length vs <= 3)%nat /\ d = nth_error vs 0 /\ r = nth_error vs 1 /\ n = nth_error vs 2).
  { intros d r n. destruct (a_config a) as [cl|]; [|split; [intros []|intros (vs & D & _); discriminate]].
    split.
    - intros Hin. exists cl. split; [reflexivity|].
      destruct cl as [|x [|y [|z [|w cl]]]]; cbn [config_actions In] in Hin; try (destruct Hin as [Hin|[]]; injection Hin as <- <- <-; cbn [nth_error List.length];
        split; [lia|]; split; [reflexivity|]; split; reflexivity). destruct Hin.
    - intros (vs & D & L & -> & -> & ->). injection D as <-.
      destruct cl as [|x [|y [|z [|w cl]]]]; cbn [config_actions nth_error In]; try (left; reflexivity). cbn [List.length] in L. lia. }
  assert (P : forall x, (forall d r n, x <> CreateConfig d r n) -> ~ In x (match a_config a with Some vs => config_actions vs | None => [] end)).
  { intros x Hx Hin. destruct (a_config a) as [cl|]; [|destruct Hin].
    destruct cl as [|u [|v [|w [|z cl]]]]; cbn [config_actions In] in Hin; try (destruct Hin as [Hin|[]]; exact (Hx _ _ _ (eq_sym Hin))). destruct Hin. }
  rewrite E. split; [|split; [|split]].
  - intros ch. repeat rewrite in_app_iff. rewrite !W. pose proof (P (FindSearchAreas ch) ltac:(discriminate)) as N.
    split; [intros [H1|[H1|[H1|[H1|[H1|[H1|H1]]]]]]; try tauto; destruct H1 as [? H1]; try discriminate; split; [congruence|tauto]|].
    intros [-> H1]. right. left. split; [exact H1|reflexivity].
  - intros ch. repeat rewrite in_app_iff. rewrite !W. pose proof (P (MatchLeds ch) ltac:(discriminate)) as N.
    split; [intros [H1|[H1|[H1|[H1|[H1|[H1|H1]]]]]]; try tauto; destruct H1 as [? H1]; try discriminate; split; [congruence|tauto]|].
    intros [-> H1]. right. right. left. split; [exact H1|reflexivity].
  - repeat rewrite in_app_iff. rewrite !W. pose proof (P Coordinates ltac:(discriminate)) as N.
    split; [intros [H1|[H1|[H1|[H1|[H1|[H1|H1]]]]]]; try tauto; destruct H1 as [? H1]; try discriminate; tauto|].
    intros H1. do 6 right. split; [exact H1|reflexivity].
  - intros d r n. rewrite <- C. repeat rewrite in_app_iff. rewrite !W.
    split; [intros [H1|[H1|[H1|[H1|[H1|[H1|H1]]]]]]; try tauto; destruct H1 as [? H1]; discriminate|intros H1; left; exact H1].
Qed.
Print Assumptions C53_other_actions.

Example C53_other_actions_example : exists l,
  run_data_extraction false (Args (Some ["photos"; "7"]) true false false false false false false false false false) = Ok l /\
  l = [CreateConfig (Some "photos") (Some "7") None; FindSearchAreas [0]].
Proof. eexists. split; reflexivity. Qed.

(** The order of the steps: whatever is done is a subsequence of configuration,
    step 1, step 2, step 3 with fits, step 3 without fits, restart, coordinates. *)
Definition rank (x : action) : Z :=
  match x with
  | CreateConfig _ _ _ => 0 | FindSearchAreas _ => 1 | MatchLeds _ => 2
  | Step3 _ true => 3 | Step3 _ false => 4 | Continue _ _ => 5 | Coordinates => 6
  end.

Theorem C53_order :
  forall exists_ a l, run_data_extraction exists_ a = Ok l ->
  StronglySorted (fun x y => rank x < rank y) l.
Proof.
  intros ex a l H.
  assert (S : StronglySorted (fun x y => rank x < rank y)
    (when (a_s1 a) [FindSearchAreas (channels_of a)] ++
     when (a_s2 a) [MatchLeds (channels_of a)] ++
     when (step3_set a) [Step3 (channels_of a) true] ++
     when (a_fast a) [Step3 (channels_of a) false] ++
     when (a_restart a) [Continue (channels_of a) false] ++
     when (a_coord a) [Coordinates])%list /\
    Forall (fun y => 0 < rank y)
    (when (a_s1 a) [FindSearchAreas (channels_of a)] ++
     when (a_s2 a) [MatchLeds (channels_of a)] ++
     when (step3_set a) [Step3 (channels_of a) true] ++
     when (a_fast a) [Step3 (channels_of a) false] ++
     when (a_restart a) [Continue (channels_of a) false] ++
     when (a_coord a) [Coordinates])%list).
  { destruct (a_s1 a), (a_s2 a), (step3_set a), (a_fast a), (a_restart a), (a_coord a);
      cbn [when app]; split; repeat constructor. }
  destruct S as [S F].
  unfold run_data_extraction in H. destruct (a_config a) as [cl|].
  - assert (E : l = (config_actions cl ++
       when (a_s1 a) [FindSearchAreas (channels_of a)] ++
     when (a_s2 a) [MatchLeds (channels_of a)] ++
     when (step3_set a) [Step3 (channels_of a) true] ++
     when (a_fast a) [Step3 (channels_of a) false] ++
     when (a_restart a) [Continue (channels_of a) false] ++
     when (a_coord a) [Coordinates])%list) by congruence.
    rewrite E. destruct cl as [|d [|r [|n [|z cl]]]]; cbn [config_actions app];
      try (constructor; [exact S|exact F]); exact S.
  - assert (E : l = (when (a_s1 a) [FindSearchAreas (channels_of a)] ++
     when (a_s2 a) [MatchLeds (channels_of a)] ++
     when (step3_set a) [Step3 (channels_of a) true] ++
     when (a_fast a) [Step3 (channels_of a) false] ++
     when (a_restart a) [Continue (channels_of a) false] ++
     when (a_coord a) [Coordinates])%list).
    { match type of H with (if ?b then _ else _) = _ => destruct b end;
        [destruct ex; [|discriminate]|]; congruence. }
    rewrite E. exact S.
Qed.
Print Assumptions C53_order.

(** Consequently a colour flag other than -rgb makes -s3_fast process all images
    twice, the slow way first, and makes --restart begin with a complete run. *)
Theorem C53_fast_with_colour_runs_twice_refuted :
  exists a l, run_data_extraction true a = Ok l /\
    a_s3 a = false /\ a_fast a = true /\ l = [Step3 [1] true; Step3 [1] false].
Proof.
  exists (Args None false false false true false false true false false false). eexists.
  split; [reflexivity|]. vm_compute. auto.
Qed.
Print Assumptions C53_fast_with_colour_runs_twice_refuted.

Theorem C53_restart_with_colour_starts_over_refuted :
  exists a l, run_data_extraction true a = Ok l /\
    a_s3 a = false /\ a_restart a = true /\ l = [Step3 [1] true; Continue [1] false].
Proof.
  exists (Args None false false false false true false true false false false). eexists.
  split; [reflexivity|]. vm_compute. auto.
Qed.
Print Assumptions C53_restart_with_colour_starts_over_refuted.

(** Without a configuration file every step is refused, unless --config is given
    too; --config with more than three values creates no file. *)
Theorem C53_configuration_file :
  forall a,
  (a_config a = None -> 
     (run_data_extraction false a = Err FileNotFoundError <->
      exists l, run_data_extraction true a = Ok l /\ l <> [])) /\
  (forall v, a_config a = Some v ->
     exists l, run_data_extraction false a = Ok l /\
       ((exists d r n, In (CreateConfig d r n) l) <-> (List.length v <= 3)%nat)).
Proof.
  intros a. split.
  - intros Hc. unfold run_data_extraction. rewrite Hc.
    set (steps := (when (a_s1 a) _ ++ _)%list).
    set (any := a_s1 a || _ || _ || _ || _ || _ || _ || _ || _ || _).
    assert (K : if any then steps <> [] else steps = []).
    { unfold any, steps, step3_set. clear.
      destruct (a_s1 a); [discriminate|]. destruct (a_s2 a); [discriminate|].
      destruct (a_s3 a); [discriminate|]. destruct (a_red a), (a_green a), (a_blue a), (a_rgb a), (a_fast a),
        (a_restart a), (a_coord a); cbn; (discriminate || reflexivity). }
    destruct any.
    + split; [intros _; exists steps; auto|reflexivity].
    + split; [discriminate|]. intros (l & E & Hn). exfalso. apply Hn. congruence.
  - intros v Hv. unfold run_data_extraction. rewrite Hv. eexists. split; [reflexivity|].
    split.
    + intros (d & r & n & H). apply in_app_or in H. destruct H as [H|H].
      * destruct v as [|x [|y [|z [|w v]]]]; cbn in *; try lia; destruct H.
      * exfalso. repeat (apply in_app_or in H; destruct H as [H|H]);
          revert H; unfold when; match goal with |- In _ (if ?b then _ else _) -> _ => destruct b end;
          cbn; intuition discriminate.
    + intros Hl. destruct v as [|x [|y [|z [|w v]]]]; cbn in Hl; try lia; cbn; eauto 10.
Qed.
Print Assumptions C53_configuration_file.

Example C53_example :
  run_data_extraction true (Args None true true true false false false false false true true)
  = Ok [FindSearchAreas [0; 1; 2]; MatchLeds [0; 1; 2]; Step3 [0; 1; 2] true; Coordinates]
  /\ run_data_extraction true (Args None false false false true false false false false true false)
  = Ok [Step3 [0; 1; 2] false]
  /\ run_data_extraction false (Args None false false false false false true false false false false)
  = Err FileNotFoundError
  /\ run_data_extraction false (Args (Some ["a"; "b"; "c"; "d"]) false false false false false false false false false false)
  = Ok [].
Proof. vm_compute. repeat split; reflexivity. Qed.

(** ** C44 *)

(** With numbers in all solver options and at least one image, coefficients are
    computed iff the solver option is exactly 'linear' or 'nonlinear'. *)
Theorem C44_only_exact_names_work :
  forall {F I C} (solve_lin : F -> I -> C) (solve_non : F -> F -> option Z -> I -> C) pf
         solver pref curv iter lam (wp wc la : F) n imgs,
  pf pref = Ok wp -> pf curv = Ok wc -> int_of_str iter = Ok n -> pf lam = Ok la -> imgs <> [] ->
  (solver = "linear" ->
     solve_images solve_lin solve_non pf solver pref curv iter lam imgs = Ok (map (solve_lin la) imgs)) /\
  (solver = "nonlinear" ->
     solve_images solve_lin solve_non pf solver pref curv iter lam imgs
     = Ok (map (solve_non wc wp (Some n)) imgs)) /\
  (solver <> "linear" -> solver <> "nonlinear" ->
     solve_images solve_lin solve_non pf solver pref curv iter lam imgs = Err TypeError).
Proof.
  intros F I C sl sn pf solver pref curv iter lam wp wc la n imgs H1 H2 H3 H4 Hi.
  assert (M : forall {A B} (f : A -> B) l, mapM (fun x => Ok (f x)) l = Ok (map f l)).
  { intros A B f l. induction l as [|x l IH]; [reflexivity|]. cbn [mapM map bind]. rewrite IH. reflexivity. }
  split; [|split].
  - intros ->. unfold solve_images, load_params. cbn [String.eqb Ascii.eqb Bool.eqb]. rewrite H4. cbn [bind].
    apply (M _ _ (sl la) imgs).
  - intros ->. unfold solve_images, load_params. cbn [String.eqb Ascii.eqb Bool.eqb].
    rewrite H1, H2, H3. cbn [bind]. apply (M _ _ (sn wc wp (Some n)) imgs).
  - intros N1 N2. unfold solve_images, load_params.
    destruct (String.eqb_spec solver "nonlinear"); [contradiction|].
    destruct (String.eqb_spec solver "linear"); [contradiction|]. cbn [bind].
    destruct imgs as [|x imgs]; [congruence|]. cbn [mapM]. unfold solve_image. cbn [p_lambda p_curv p_pref].
    destruct (kind_of solver); reflexivity.
Qed.
Print Assumptions C44_only_exact_names_work.

(** Yet other spellings are announced to select a solver. *)
Theorem C44_announced_names_refuted :
  exists solver k, kind_of solver = k /\ k = Nonlinear /\
    forall {F I C} (sl : F -> I -> C) sn pf pref curv iter lam img,
      solve_images sl sn pf solver pref curv iter lam [img] = Err TypeError.
Proof.
  exists "numeric", Nonlinear. split; [reflexivity|]. split; [reflexivity|]. intros. reflexivity.
Qed.
Print Assumptions C44_announced_names_refuted.

Example C44_example :
  let sl := fun (l i : Z) => l + i in
  let sn := fun (c w : Z) (n : option Z) (i : Z) => c * w * i in
  solve_images sl sn int_of_str "linear" "2" "3" "200" "7" [10; 20] = Ok [17; 27]
  /\ solve_images sl sn int_of_str "nonlinear" "2" "3" "200" "7" [10; 20] = Ok [60; 120]
  /\ solve_images sl sn int_of_str "Linear" "2" "3" "200" "7" [10; 20] = Err TypeError
  /\ kind_of "Linear" = Linear /\ kind_of "NUMERIC" = Nonlinear /\ kind_of "other" = Linear.
Proof. vm_compute. repeat split; reflexivity. Qed.

(** ** C64 *)

(** The file that is looked for is never one written by an analysis, in whatever
    directory, for whatever solver, channel, property and array. *)
Theorem C64_looked_for_is_never_written :
  forall cwd cwd' k k' c c' p p' a a',
  looked_for cwd k c p a <> written cwd' k' c' p' a'.
Proof.
  intros. unfold looked_for, written. intros H.
  assert (E : "extinction_coefficients" = kind_name k') by congruence.
  destruct k'; discriminate.
Qed.
Print Assumptions C64_looked_for_is_never_written.

Lemma path_eqb_eq : forall a b, path_eqb a b = true <-> a = b.
Proof.
  induction a as [|x a IH]; intros [|y b]; cbn; split; intros H; try reflexivity; try discriminate.
  - apply andb_true_iff in H. destruct H as [H1 H2]. apply String.eqb_eq in H1. apply IH in H2. congruence.
  - apply andb_true_iff. split; [apply String.eqb_eq; congruence|apply IH; congruence].
Qed.

(** Where it looks: beside the working directory instead of in it, and without the
    directory of the solver.  A result written in [cwd] under [dir / solver / name]
    is looked for as [dir / name] by analyses started in the directories directly
    below [cwd], and by no others. *)
Theorem C64_where_it_looks :
  forall cwd k c p a name solver dir,
  written cwd k c p a = name :: solver :: dir ->
  solver = kind_name k /\
  (forall d, looked_for (d :: cwd) k c p a = name :: dir) /\
  (forall d up, looked_for (d :: up) k c p a = name :: dir -> up = cwd).
Proof.
  intros cwd k c p a name solver dir H. unfold written in H.
  assert (E1 : result_name k c p a = name) by congruence.
  assert (E2 : kind_name k = solver) by congruence.
  assert (E3 : "extinction_coefficients" :: "analysis" :: cwd = dir) by congruence.
  subst name solver dir. split; [reflexivity|]. split; [intros d; reflexivity|].
  intros d up H'. unfold looked_for in H'. cbn [tl] in H'. congruence.
Qed.
Print Assumptions C64_where_it_looks.

Example C64_where_it_looks_example :
  written ["exp1"; "data"] Linear 0 "sum_col_val" 2 =
    ["extinction_coefficients_linear_channel_0_sum_col_val_led_array_2.csv"; "linear";
     "extinction_coefficients"; "analysis"; "exp1"; "data"] /\
  looked_for ["exp1"; "data"] Linear 0 "sum_col_val" 2 =
    ["extinction_coefficients_linear_channel_0_sum_col_val_led_array_2.csv";
     "extinction_coefficients"; "analysis"; "data"].
Proof. split; reflexivity. Qed.

(** So if all files present are results of earlier analyses, everything is
    computed again. *)
Theorem C64_results_are_always_recomputed :
  forall cwd k property jobs files,
  Forall (fun f => exists cwd' k' c' p' a', f = written cwd' k' c' p' a') files ->
  fst (analyse cwd k property jobs files) = jobs /\
  Forall (fun f => exists cwd' k' c' p' a', f = written cwd' k' c' p' a') (snd (analyse cwd k property jobs files)) /\
  (forall a c, In (a, c) jobs -> In (written cwd k c property a) (snd (analyse cwd k property jobs files))).
Proof.
  intros cwd k p jobs. induction jobs as [|[a c] js IH]; intros files H.
  - cbn. split; [reflexivity|]. split; [exact H|]. intros a c [].
  - cbn [analyse].
    destruct (existsb (path_eqb (looked_for cwd k c p a)) files) eqn:E.
    + exfalso. apply existsb_exists in E. destruct E as (f & Hf & Ef). apply path_eqb_eq in Ef.
      rewrite Forall_forall in H. destruct (H f Hf) as (cwd' & k' & c' & p' & a' & Ew).
      rewrite Ew in Ef. exact (C64_looked_for_is_never_written _ _ _ _ _ _ _ _ _ _ Ef).
    + assert (H' : Forall (fun f => exists cwd' k' c' p' a', f = written cwd' k' c' p' a')
                     (written cwd k c p a :: files)).
      { constructor; [|exact H]. repeat eexists. }
      destruct (IH _ H') as (I1 & I2 & I3).
      assert (Mono : forall js fs f, In f fs -> In f (snd (analyse cwd k p js fs))).
      { clear. induction js as [|[a c] js IH]; intros fs f Hf; [exact Hf|]. cbn [analyse].
        destruct (existsb _ fs); [apply IH; exact Hf|].
        specialize (IH (written cwd k c p a :: fs) f (or_intror Hf)).
        destruct (analyse cwd k p js _). exact IH. }
      specialize (Mono js (written cwd k c p a :: files) (written cwd k c p a) (or_introl eq_refl)).
      destruct (analyse cwd k p js (written cwd k c p a :: files)) as [d fs]. cbn [fst snd] in *.
      split; [congruence|]. split; [exact I2|].
      intros a' c' [Ha|Ha]; [|auto]. assert (a = a' /\ c = c') by (split; congruence).
      destruct H0; subst. exact Mono.
Qed.
Print Assumptions C64_results_are_always_recomputed.

(** The file that is looked for does stop the computation if it is there. *)
Theorem C64_looked_for_file_skips :
  forall cwd k property a c files,
  In (looked_for cwd k c property a) files ->
  fst (analyse cwd k property [(a, c)] files) = [].
Proof.
  intros cwd k p a c files H. cbn [analyse].
  replace (existsb (path_eqb (looked_for cwd k c p a)) files) with true; [reflexivity|].
  symmetry. apply existsb_exists. exists (looked_for cwd k c p a). split; [exact H|]. apply path_eqb_eq. reflexivity.
Qed.
Print Assumptions C64_looked_for_file_skips.

Example C64_example :
  let '(d1, fs) := analyse ["exp"; "home"] Linear "sum_col_val" (jobs_of [3; 4] [0; 1]) [] in
  d1 = [(3, 0); (3, 1); (4, 0); (4, 1)]
  /\ fst (analyse ["exp"; "home"] Linear "sum_col_val" (jobs_of [3; 4] [0; 1]) fs) = d1
  /\ hd [] (rev fs) = ["extinction_coefficients_linear_channel_0_sum_col_val_led_array_3.csv"; "linear";
                       "extinction_coefficients"; "analysis"; "exp"; "home"].
Proof. vm_compute. repeat split; reflexivity. Qed.

(** ** C65 *)

(** A missing number of layers ('None') is never asked for: loading fails. *)
Theorem C65_number_of_layers_is_never_asked :
  forall {F} (pf : string -> res F) ans s,
  s ANumLayers = Some "None" ->
  prepare_analysis pf ans s = (AState s [], Err ValueError).
Proof.
  intros F pf ans s H. unfold prepare_analysis, load_exdata, aget. rewrite H. reflexivity.
Qed.
Print Assumptions C65_number_of_layers_is_never_asked.

Lemma alist_none_text : forall {A} (pf : string -> res A) s k, s k = Some "None" -> alist pf s k = None.
Proof. intros A pf s k H. unfold alist. rewrite H. reflexivity. Qed.

(** The second request never matters: after loading the parameters it changes
    nothing, or the run fails although the user has just given the LED arrays. *)
Theorem C65_second_request_never_matters :
  forall {F} (pf : string -> res F) ans s st x st',
  load_exdata pf ans s = (st, Ok x) -> request_exdata ans st = Ok st' ->
  st' = st \/
  (x_arrays x = None /\ aasked st' = (aasked st ++ [AArrays])%list /\
   snd (prepare_analysis pf ans s) = Err TypeError).
Proof.
  intros F pf ans s st x st' Hl Hr.
  assert (Hl' := Hl). unfold load_exdata in Hl.
  destruct (bind (aget s ANumLayers) int_of_str) as [n|e] eqn:En; [|congruence].
  destruct (match alist int_of_str s ARefImgs with
           | None => bind (aget s ANumRef) (fun v => bind (int_of_str v) (fun k => Ok (Some k)))
           | Some _ => Ok None
           end) as [nr|e] eqn:Er; [|congruence].
  set (st3 := ask_if_none pf ans ACamera (ask_if_none pf ans ABounds (ask_if_none int_of_str ans AArrays (AState s [])))) in *.
  destruct (alist pf (acur st3) ABounds) as [[|lo [|hi [|z zs]]]|] eqn:Eb; try congruence.
  destruct (alist pf (acur st3) ACamera) as [[|cx [|cy [|cz [|c4 cs]]]]|] eqn:Ec; try congruence.
  destruct (bind (aget s ACores) (fun v => bind (int_of_str v) (fun cpus =>
     Ok (ExData (n, lo, hi) (cx, cy, cz) (alist int_of_str s AChannels) (alist int_of_str s ARefImgs) nr
          (alist int_of_str (acur st3) AArrays) cpus)))) as [x'|e] eqn:Ex; [|congruence].
  assert (st3 = st) by congruence. assert (x' = x) by congruence. subst st x'. clear Hl.
  assert (Xa : x_arrays x = alist int_of_str (acur st3) AArrays).
  { destruct (aget s ACores); cbn [bind] in Ex; [|discriminate].
    destruct (int_of_str a); cbn [bind] in Ex; [|discriminate].
    match type of Ex with Ok ?y = Ok _ => assert (Ey : y = x) by congruence end. rewrite <- Ey. reflexivity. }
  assert (NL : acur st3 ANumLayers = s ANumLayers).
  { assert (K : forall A (f : string -> res A) k st, k <> ANumLayers ->
       acur (ask_if_none f ans k st) ANumLayers = acur st ANumLayers).
    { intros A f k st Hk. unfold ask_if_none. destruct (alist f (acur st) k); [reflexivity|]. cbn.
      unfold aupd. destruct (akey_eq_dec k ANumLayers); [contradiction|reflexivity]. }
    unfold st3. rewrite !K by discriminate. reflexivity. }
  assert (T : forall k v st2, ask_if_text_none ans k st3 = Ok st2 -> acur st3 k = Some v -> v <> "None" -> st2 = st3).
  { intros k v st2 H E Hv. unfold ask_if_text_none, aget in H. rewrite E in H. cbn [bind] in H.
    destruct (String.eqb_spec v "None"); [contradiction|]. congruence. }
  unfold request_exdata in Hr.
  (* camera *)
  destruct (ask_if_text_none ans ACamera st3) as [s1|] eqn:E1; cbn [bind] in Hr; [|discriminate].
  assert (s1 = st3).
  { destruct (acur st3 ACamera) as [v|] eqn:Ev; [|unfold ask_if_text_none, aget in E1; rewrite Ev in E1; discriminate].
    apply (T ACamera v); [exact E1|exact Ev|]. intros ->. rewrite (alist_none_text pf _ _ Ev) in Ec. discriminate. }
  subst s1. clear E1.
  destruct (ask_if_text_none ans ANumLayers st3) as [s1|] eqn:E1; cbn [bind] in Hr; [|discriminate].
  assert (s1 = st3).
  { destruct (acur st3 ANumLayers) as [v|] eqn:Ev; [|unfold ask_if_text_none, aget in E1; rewrite Ev in E1; discriminate].
    apply (T ANumLayers v); [exact E1|exact Ev|]. intros ->. symmetry in NL.
    unfold aget in En. rewrite NL in En. discriminate. }
  subst s1. clear E1.
  destruct (ask_if_text_none ans ABounds st3) as [s1|] eqn:E1; cbn [bind] in Hr; [|discriminate].
  assert (s1 = st3).
  { destruct (acur st3 ABounds) as [v|] eqn:Ev; [|unfold ask_if_text_none, aget in E1; rewrite Ev in E1; discriminate].
    apply (T ABounds v); [exact E1|exact Ev|]. intros ->. rewrite (alist_none_text pf _ _ Ev) in Eb. discriminate. }
  subst s1. clear E1.
  destruct (acur st3 AArrays) as [v|] eqn:Ev; [|unfold ask_if_text_none, aget in Hr; rewrite Ev in Hr; discriminate].
  destruct (String.eqb_spec v "None") as [->|Hv]; [right|left; exact (T AArrays v st' Hr Ev Hv)].
  assert (Xn : x_arrays x = None) by (rewrite Xa; apply alist_none_text; exact Ev).
  split; [exact Xn|].
  assert (Es : st' = AState (aupd (acur st3) AArrays (ans AArrays)) (aasked st3 ++ [AArrays])).
  { unfold ask_if_text_none, aget in Hr. rewrite Ev in Hr. cbn in Hr. congruence. }
  split; [rewrite Es; reflexivity|].
  unfold prepare_analysis. rewrite Hl'.
  assert (Hreq : request_exdata ans st3 = Ok st').
  { unfold request_exdata.
    assert (U : forall k, k <> AArrays -> (k = ACamera \/ k = ANumLayers \/ k = ABounds) -> ask_if_text_none ans k st3 = Ok st3).
    { intros k Hk Hor. unfold ask_if_text_none, aget.
      assert (exists v, acur st3 k = Some v /\ v <> "None") as (u & Eu & Hu).
      { destruct Hor as [-> |[-> | ->]].
        - destruct (acur st3 ACamera) as [u|] eqn:Eu; [|unfold alist in Ec; rewrite Eu in Ec; discriminate].
          exists u. split; [reflexivity|]. intros ->. rewrite (alist_none_text pf _ _ Eu) in Ec. discriminate.
        - rewrite NL. unfold aget in En. destruct (s ANumLayers) as [u|]; [|discriminate].
          exists u. split; [reflexivity|]. intros ->. discriminate.
        - destruct (acur st3 ABounds) as [u|] eqn:Eu; [|unfold alist in Eb; rewrite Eu in Eb; discriminate].
          exists u. split; [reflexivity|]. intros ->. rewrite (alist_none_text pf _ _ Eu) in Eb. discriminate. }
      rewrite Eu. cbn [bind]. destruct (String.eqb_spec u "None"); [contradiction|reflexivity]. }
    rewrite (U ACamera) by (auto; discriminate). cbn [bind].
    rewrite (U ANumLayers) by (auto; discriminate). cbn [bind].
    rewrite (U ABounds) by (auto; discriminate). cbn [bind]. exact Hr. }
  rewrite Hreq. cbn [snd]. rewrite Xn. reflexivity.
Qed.
Print Assumptions C65_second_request_never_matters.

(** The channels are never asked for either: without them the analysis fails as
    soon as there is a LED array. *)
Theorem C65_channels_are_never_asked :
  forall {F} (pf : string -> res F) ans s,
  alist int_of_str s AChannels = None ->
  ~ In AChannels (aasked (fst (prepare_analysis pf ans s))) /\
  forall x jobs, snd (prepare_analysis pf ans s) = Ok (x, jobs) -> jobs = [].
Proof.
  intros F pf ans s H.
  assert (Q : forall A (f : string -> res A) k st, k <> AChannels ->
     ~ In AChannels (aasked st) -> ~ In AChannels (aasked (ask_if_none f ans k st))).
  { intros A f k st Hk Hn. unfold ask_if_none. destruct (alist f (acur st) k); [exact Hn|]. cbn.
    intros X. apply in_app_or in X. destruct X as [X|[X|[]]]; auto. }
  assert (R : forall k st st', k <> AChannels -> ~ In AChannels (aasked st) ->
     ask_if_text_none ans k st = Ok st' -> ~ In AChannels (aasked st')).
  { intros k st st' Hk Hn E. unfold ask_if_text_none in E. destruct (aget (acur st) k) as [v|]; [|discriminate].
    cbn [bind] in E. destruct (v =? "None")%string; [|congruence].
    assert (E2 : st' = AState (aupd (acur st) k (ans k)) (aasked st ++ [k])) by congruence. rewrite E2. cbn.
    intros X. apply in_app_or in X. destruct X as [X|[X|[]]]; auto. }
  unfold prepare_analysis.
  assert (L : ~ In AChannels (aasked (fst (load_exdata pf ans s))) /\
     forall x, snd (load_exdata pf ans s) = Ok x -> x_channels x = None).
  { unfold load_exdata. destruct (bind (aget s ANumLayers) int_of_str); [|split; [intros []|discriminate]].
    match goal with |- context [match ?m with Ok _ => _ | Err _ => _ end] => destruct m end;
      [|split; [intros []|discriminate]].
    cbn [fst snd]. split; [repeat apply Q; try discriminate; intros []|].
    intros x. destruct (alist pf _ ABounds) as [[|lo [|hi [|z zs]]]|]; try discriminate.
    destruct (alist pf _ ACamera) as [[|cx [|cy [|cz [|c4 cs]]]]|]; try discriminate.
    destruct (aget s ACores); cbn [bind]; [|discriminate]. destruct (int_of_str a1); cbn [bind]; [|discriminate].
    intros E. match type of E with Ok ?y = Ok _ => assert (Ey : y = x) by congruence end. rewrite <- Ey. exact H. }
  destruct (load_exdata pf ans s) as [st [x|e]]; cbn [fst snd] in *; [|split; [apply L|discriminate]].
  destruct L as [L1 L2]. specialize (L2 x eq_refl).
  destruct (request_exdata ans st) as [st'|] eqn:Er; cbn [fst snd]; [|split; [exact L1|discriminate]].
  split.
  - unfold request_exdata in Er.
    destruct (ask_if_text_none ans ACamera st) as [s1|] eqn:E1; cbn [bind] in Er; [|discriminate].
    destruct (ask_if_text_none ans ANumLayers s1) as [s2|] eqn:E2; cbn [bind] in Er; [|discriminate].
    destruct (ask_if_text_none ans ABounds s2) as [s3|] eqn:E3; cbn [bind] in Er; [|discriminate].
    eapply R; [|eapply R; [|eapply R; [|eapply R; [|exact L1|exact E1]|exact E2]|exact E3]|exact Er]; discriminate.
  - intros y jobs. rewrite L2. destruct (x_arrays x) as [[|a l]|]; try discriminate. congruence.
Qed.
Print Assumptions C65_channels_are_never_asked.

Definition demo_astore : astore := fun k =>
  match k with
  | ANumLayers => Some "20" | AChannels => Some "0 1" | ARefImgs => Some "None" | ANumRef => Some "10"
  | AArrays => Some "None" | ABounds => Some "0 3" | ACamera => Some "1 2" | ACores => Some "1"
  end.

Example C65_example :
  let ans := fun k => match k with AArrays => "3 4" | _ => "7" end in
  (* a camera position with two numbers is not noticed as missing *)
  snd (prepare_analysis int_of_str ans demo_astore) = Err TypeError
  /\ (let r := prepare_analysis int_of_str ans (aupd demo_astore ACamera "1 2 3") in
      aasked (fst r) = [AArrays] /\
      match snd r with Ok (_, jobs) => jobs | Err _ => [] end = [(3, 0); (3, 1); (4, 0); (4, 1)])
  /\ (let r := prepare_analysis int_of_str (fun _ => "None") (aupd demo_astore ACamera "1 2 3") in
      aasked (fst r) = [AArrays; AArrays] /\ snd r = Err TypeError)
  /\ snd (prepare_analysis int_of_str ans (aupd demo_astore ANumLayers "None")) = Err ValueError.
Proof. vm_compute. repeat split; reflexivity. Qed.

(** ** C66 *)

Lemma suffix_neq : forall p, p <> p ++ "_cc".
Proof.
  intros p H. assert (L : String.length p = String.length (p ++ "_cc")) by congruence.
  rewrite length_app_s in L. cbn in L. lia.
Qed.

(** With --cc the coefficients computed in the same call are those of the
    uncorrected values; correcting twice (as [main] does) is the same as once. *)
Theorem C66_correction_does_not_reach_the_analysis :
  forall {V C} (correct : V -> V) (coefficients : V -> C) property (t : columns V) v,
  t property = Some v ->
  exists t1 t2, 
    run_analysis correct coefficients true true property t = Ok (t1, Some (coefficients v)) /\
    run_analysis correct coefficients false true property t = Ok (t2, Some (coefficients v)) /\
    t1 (property ++ "_cc") = Some (correct v) /\
    (forall c, c <> property ++ "_cc" -> t1 c = t c) /\ t2 = t /\
    exists t', cc_column correct property t = Ok t' /\ forall c, t1 c = t' c.
Proof.
  intros V C correct coef p t v Ht.
  pose proof (suffix_neq p) as N.
  assert (E : (p =? p ++ "_cc")%string = false) by (apply String.eqb_neq; exact N).
  set (t' := fun c => if (c =? p ++ "_cc")%string then Some (correct v) else t c).
  assert (E1 : cc_column correct p t = Ok t') by (unfold cc_column; rewrite Ht; reflexivity).
  assert (Tp : t' p = Some v) by (unfold t'; rewrite E; exact Ht).
  set (t'' := fun c => if (c =? p ++ "_cc")%string then Some (correct v) else t' c).
  assert (E2 : cc_column correct p t' = Ok t'') by (unfold cc_column; rewrite Tp; reflexivity).
  assert (Eq : forall c, t'' c = t' c) by (intros c; unfold t'', t'; destruct (c =? p ++ "_cc")%string; reflexivity).
  exists t'', t. split; [|split; [|split; [|split; [|split; [reflexivity|]]]]].
  - unfold run_analysis. rewrite E1. cbn [bind]. rewrite E2. cbn [bind]. unfold read_column.
    rewrite Eq, Tp. reflexivity.
  - unfold run_analysis, read_column. cbn [bind]. rewrite Ht. reflexivity.
  - unfold t''. rewrite String.eqb_refl. reflexivity.
  - intros c Hc. rewrite Eq. unfold t'. destruct (String.eqb_spec c (p ++ "_cc")); [contradiction|reflexivity].
  - exists t'. split; [exact E1|exact Eq].
Qed.
Print Assumptions C66_correction_does_not_reach_the_analysis.

(** Naming the corrected column as reference property instead fails unless it
    exists already, and then a correction of the correction is added. *)
Theorem C66_corrected_property_needs_a_former_run :
  forall {V C} (correct : V -> V) (coefficients : V -> C) property (t : columns V),
  t (property ++ "_cc") = None ->
  run_analysis correct coefficients true true (property ++ "_cc") t = Err KeyError.
Proof. intros V C correct coef p t H. unfold run_analysis, cc_column. rewrite H. reflexivity. Qed.
Print Assumptions C66_corrected_property_needs_a_former_run.

Example C66_example :
  let t : columns Z := fun c => if (c =? "sum_col_val")%string then Some 5 else None in
  match run_analysis (fun v => 2 * v) (fun v => v + 100) true true "sum_col_val" t with
  | Ok (t1, c) => t1 "sum_col_val_cc" = Some 10 /\ c = Some 105
  | Err _ => False
  end.
Proof. vm_compute. auto. Qed.
