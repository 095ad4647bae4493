(** Parsing the command line, consequences: C96 *)
From Coq Require Import ZArith Lia Bool Ascii String List Permutation.
From Verif Require Import Base Str Substr Cli_Model Main_Model Arg_Model Arg_Props.
Import ListNotations.
Local Open Scope string_scope.
Local Open Scope Z_scope.

(** ** C96 *)

(** The order of the options does not matter, as long as no option with values is
    given twice. *)
Definition has_value {A} (v : use -> option A) (u : use) : bool := match v u with Some _ => true | None => false end.
Definition given_once {A} (v : use -> option A) (us : list use) : Prop := (List.length (filter (has_value v) us) <= 1)%nat.
Definition channels_value (u : use) : option (list Z) := match u with UChannels l => Some l | _ => None end.

Definition values {A} (v : use -> option A) (us : list use) : list A :=
  flat_map (fun u => match v u with Some x => [x] | None => [] end) us.

Lemma values_length : forall {A} (v : use -> option A) us, List.length (values v us) = List.length (filter (has_value v) us).
Proof.
  intros A v us. induction us as [|u us IH]; [reflexivity|]. unfold values in *. cbn [flat_map filter]. unfold has_value at 1.
  destruct (v u); cbn; rewrite IH; reflexivity.
Qed.

Lemma last_values : forall {A} (v : use -> option A) us acc,
  fold_left (fun acc u => match v u with Some x => Some x | None => acc end) us acc =
  fold_left (fun _ x => Some x) (values v us) acc.
Proof.
  intros A v us. unfold values. induction us as [|u us IH]; intros acc; [reflexivity|]. cbn [fold_left flat_map]. rewrite IH.
  destruct (v u); reflexivity.
Qed.

Lemma flat_map_permutation : forall {A B} (f : A -> list B) l l', Permutation l l' -> Permutation (flat_map f l) (flat_map f l').
Proof.
  intros A B f l l' P. induction P as [|x l l' P IH|x y l|l l1 l2 P1 IH1 P2 IH2]; cbn [flat_map].
  - constructor.
  - apply Permutation_app_head. exact IH.
  - rewrite !app_assoc. apply Permutation_app_tail. apply Permutation_app_comm.
  - exact (Permutation_trans IH1 IH2).
Qed.

Lemma once_equal : forall {A} (l l' : list A), Permutation l l' -> (List.length l <= 1)%nat -> l = l'.
Proof.
  intros A l l' P L. destruct l as [|x [|y l]]; [|apply Permutation_length_1_inv in P; congruence|cbn in L; lia].
  symmetry. exact (Permutation_nil P).
Qed.

Lemma last_permutation : forall {A} (v : use -> option A) us us', Permutation us us' -> given_once v us ->
  last_of v us = last_of v us'.
Proof.
  intros A v us us' P O. unfold last_of. rewrite !last_values. f_equal. apply once_equal.
  - apply flat_map_permutation. exact P.
  - rewrite values_length. exact O.
Qed.

Lemma existsb_permutation : forall (p : use -> bool) us us', Permutation us us' -> existsb p us = existsb p us'.
Proof.
  intros p us us' P. apply eq_true_iff_eq. rewrite !existsb_exists. split; intros (u & I & H); exists u; split; try exact H.
  - exact (Permutation_in u P I).
  - exact (Permutation_in u (Permutation_sym P) I).
Qed.

Theorem C96_order : forall gs gs',
  Forall (fun g => reads (fst g) (snd g)) gs -> Permutation gs gs' ->
  let us := concat (map snd gs) in
  given_once config_of us -> given_once setup_of us -> given_once number_of us -> given_once channels_value us ->
  exists n n', parse (concat (map fst gs)) = Ok n /\ parse (concat (map fst gs')) = Ok n' /\
    cmd_of n = cmd_of n' /\ n_channels n = n_channels n'.
Proof.
  intros gs gs' R P us O1 O2 O3 O4.
  assert (R' : Forall (fun g => reads (fst g) (snd g)) gs').
  { rewrite Forall_forall in *. intros g I. apply R. exact (Permutation_in g (Permutation_sym P) I). }
  set (us' := concat (map snd gs')).
  assert (PU : Permutation us us').
  { unfold us, us'. rewrite <- !flat_map_concat_map. apply flat_map_permutation. exact P. }
  destruct (proj2 (C96_grammar (concat (map fst gs)) (command us) ([0; 1; 2] ++ flat_map channels_given us)))
    as (n & A & B & C); [exists us; repeat split; exists gs; repeat split; assumption|].
  destruct (proj2 (C96_grammar (concat (map fst gs')) (command us') ([0; 1; 2] ++ flat_map channels_given us')))
    as (n' & A' & B' & C'); [exists us'; repeat split; exists gs'; repeat split; assumption|].
  exists n, n'. split; [exact A|]. split; [exact A'|]. rewrite B, B', C, C'. split.
  - unfold command, given. rewrite !(existsb_permutation _ us us' PU).
    rewrite (last_permutation config_of us us' PU O1), (last_permutation setup_of us us' PU O2),
      (last_permutation number_of us us' PU O3). reflexivity.
  - f_equal. assert (V : forall l, flat_map channels_given l = concat (values channels_value l)).
    { induction l as [|u l IH]; [reflexivity|]. cbn [flat_map values]. rewrite IH. destruct u; reflexivity. }
    rewrite !V. f_equal. apply once_equal; [apply flat_map_permutation; exact PU|]. rewrite values_length. exact O4.
Qed.
Print Assumptions C96_order.

Lemma stands_one : forall w o o', stands_for w o -> stands_for w o' -> o = o'.
Proof.
  intros w o o' H H'. destruct (classify_option_complete w o H) as [_ A]. destruct (classify_option_complete w o' H') as [_ B].
  congruence.
Qed.

(** Flags given by their names, in any number and order: exactly these are set. *)
Theorem C96_flags : forall fs ws, Forall2 (fun f w => In w (names_of (OFlag f))) fs ws ->
  exists n, parse ws = Ok n /\ (forall f, is_set n f = true <-> In f fs) /\
    n_config n = None /\ n_config_analysis n = None /\ n_setup n = None /\ n_cores n = None /\ n_channels n = [0; 1; 2].
Proof.
  intros fs ws H.
  assert (R : readable ws (map UFlag fs)).
  { induction H as [|f w fs ws F H IH]; [exists []; repeat split; constructor|]. destruct IH as (gs & A & B & C).
    exists (([w], [UFlag f]) :: gs). split; [|cbn; rewrite B, C; split; reflexivity].
    constructor; [|exact A]. cbn [fst snd]. apply (reads_words w (OFlag f) [] (UFlag f)); [left; exact F|constructor|split; reflexivity]. }
  exists (apply_uses (map UFlag fs) defaults). split; [apply parse_readable; exists (map UFlag fs); split; [exact R|reflexivity]|].
  split.
  - intros f. rewrite flags_applied. unfold is_set. cbn [defaults n_flags in_dec]. rewrite orb_false_r. unfold given.
    rewrite existsb_exists. split.
    + intros (u & I & E). apply in_map_iff in I. destruct I as (g & <- & I). destruct (flag_eq_dec f g) as [->|]; [exact I|discriminate].
    + intros I. exists (UFlag f). split; [apply in_map; exact I|]. destruct (flag_eq_dec f f); [reflexivity|contradiction].
  - clear. assert (G : forall n, n_config (apply_uses (map UFlag fs) n) = n_config n /\
      n_config_analysis (apply_uses (map UFlag fs) n) = n_config_analysis n /\ n_setup (apply_uses (map UFlag fs) n) = n_setup n /\
      n_cores (apply_uses (map UFlag fs) n) = n_cores n /\ n_channels (apply_uses (map UFlag fs) n) = n_channels n).
    { induction fs as [|f fs IH]; intros n; [repeat split|]. cbn [map]. unfold apply_uses in *. cbn [fold_left]. apply (IH (apply_use n (UFlag f))). }
    apply (G defaults).
Qed.
Print Assumptions C96_flags.

(** A command line that is not accepted ends the program before anything is done; so
    does one with a word for --help or with the separator [--]. *)
Lemma err_exit : forall argv e, parse argv = Err e -> e = SystemExit.
Proof.
  intros argv e H. unfold parse in H.
  assert (TK : forall o ws n e', take o ws n = Err e' -> e' = SystemExit).
  { intros o ws n e' T. destruct o; cbn [take] in T; try congruence.
    - destruct ws; congruence.
    - destruct ws as [|? [|? ?]]; congruence.
    - destruct ws as [|t [|? ?]]; try congruence. unfold int_arg in T. destruct (int_of_str t); cbn [bind] in T; congruence.
    - destruct ws as [|t ws]; [congruence|].
      assert (MI : forall l e'', mapM int_arg l = Err e'' -> e'' = SystemExit).
      { induction l as [|x l IH]; intros e'' M; [discriminate|]. cbn [mapM] in M. unfold int_arg in M at 1.
        destruct (int_of_str x); cbn [bind] in M; [|congruence]. destruct (mapM int_arg l) eqn:Q; cbn [bind] in M; [discriminate|].
        injection M as <-. exact (IH _ eq_refl). }
      destruct (mapM int_arg (t :: ws)) eqn:Q; cbn [bind] in T; [discriminate|]. injection T as <-. exact (MI _ _ Q). }
  assert (TL : forall s n e', take_letters s n = Err e' -> e' = SystemExit).
  { induction s as [|c s IH]; intros n e' T; [discriminate|]. cbn [take_letters] in T. destruct (option_named _ options) as [o|]; [|congruence].
    destruct (take o [] n) as [n1|] eqn:Q; cbn [bind] in T; [exact (IH _ _ T)|]. injection T as <-. exact (TK _ _ _ _ Q). }
  assert (CO : forall g n e', consume g n = Err e' -> e' = SystemExit).
  { intros (t, ws) n e' T. cbn [consume] in T. destruct t as [| |o|o v|o r|]; try congruence.
    - exact (TK _ _ _ _ T).
    - destruct o; try congruence; destruct ws; try congruence; exact (TK _ _ _ _ T).
    - destruct ws; [|congruence]. destruct (take o [] n) as [n1|] eqn:Q; cbn [bind] in T; [exact (TL _ _ _ T)|].
      injection T as <-. exact (TK _ _ _ _ Q). }
  assert (CA : forall gs n e', consume_all gs n = Err e' -> e' = SystemExit).
  { induction gs as [|g gs IH]; intros n e' T; [discriminate|]. cbn [consume_all] in T.
    destruct (consume g n) as [n1|] eqn:Q; cbn [bind] in T; [exact (IH _ _ T)|]. injection T as <-. exact (CO _ _ _ Q). }
  assert (CR : forall w e', classify_rest w = Err e' -> e' = SystemExit).
  { intros w e' T. unfold classify_rest in T. destruct (readings w) as [|? [|? ?]]; try congruence.
    destruct (negative_number w); [discriminate|]. destruct (has_char " "%char w); discriminate. }
  assert (CL : forall w e', classify w = Err e' -> e' = SystemExit).
  { intros w e' T. unfold classify in T. destruct (negb (starts "-" w)); [discriminate|].
    destruct (option_named w options); [discriminate|]. destruct (w =? "-")%string; [discriminate|].
    destruct (partition_eq w) as [[p v]|]; [|exact (CR _ _ T)]. destruct (option_named p options); [discriminate|exact (CR _ _ T)]. }
  assert (MK : forall l e', mark l = Err e' -> e' = SystemExit).
  { induction l as [|w l IH]; intros e' T; [discriminate|]. cbn [mark] in T. destruct (w =? "--")%string; [discriminate|].
    destruct (classify w) as [t|] eqn:Q; cbn [bind] in T; [|injection T as <-; exact (CL _ _ Q)].
    destruct (mark l) as [l'|] eqn:Q'; cbn [bind] in T; [discriminate|]. injection T as <-. exact (IH _ eq_refl). }
  destruct (mark argv) as [l|] eqn:M; cbn [bind] in H; [|injection H as <-; exact (MK _ _ M)].
  destruct (groups l) as [[|x lead] gs]; [exact (CA _ _ _ H)|congruence].
Qed.

Lemma reads_no_help : forall g us, reads g us -> forall w, In w g -> ~ (stands_for w OHelp \/ w = "--").
Proof.
  intros g us R w I H.
  assert (NW : ~ word w).
  { intros W. destruct (classify_word_complete w W) as [ND C]. destruct H as [H|H]; [|contradiction].
    destruct (classify_option_complete w OHelp H) as [_ C']. congruence. }
  destruct R as [w' o ws u S W U|p v o u S NE U|s fs L FL N NB].
  - destruct I as [<-|I].
    + destruct H as [H|H]; [|destruct (classify_option_complete w' o S) as [X _]; contradiction].
      rewrite (stands_one w' o OHelp S H) in U. exact U.
    + apply NW. rewrite Forall_forall in W. exact (W w I).
  - destruct I as [<-|[]]. destruct (classify_equals_complete p v o S NE) as [ND C]. destruct H as [H|H]; [|contradiction].
    destruct (classify_option_complete _ OHelp H) as [_ C']. congruence.
  - destruct I as [<-|[]]. destruct H as [H|H].
    + destruct H as [H|(_ & (full & F & B & _) & _)]; [exact (N OHelp H)|exact (NB full OHelp F B)].
    + destruct s as [|c r]; [discriminate H|]. destruct fs as [|f fs]; [destruct FL|]. destruct FL as [F _].
      cbn in H. injection H as -> _. exact (name_not_short "-"%char eq_refl _ F).
Qed.

Theorem C96_rejected : forall fails conf aconf argv,
  ((forall us, ~ readable argv us) -> main_argv fails conf aconf argv = ([], Some SystemExit)) /\
  ((exists w, In w argv /\ (stands_for w OHelp \/ w = "--")) -> main_argv fails conf aconf argv = ([], Some SystemExit)) /\
  main_argv fails conf aconf [] = ([], Some SystemExit).
Proof.
  intros fails conf aconf argv.
  assert (A : (forall us, ~ readable argv us) -> main_argv fails conf aconf argv = ([], Some SystemExit)).
  { intros H. unfold main_argv. destruct (parse argv) as [n|e] eqn:P.
    - apply parse_readable in P. destruct P as (us & R & _). destruct (H us R).
    - rewrite (err_exit argv e P). reflexivity. }
  split; [exact A|]. split; [|reflexivity]. intros (w & I & H). apply A. intros us (gs & F & E & _).
  rewrite E in I. apply in_concat in I. destruct I as (g & Ig & Iw). apply in_map_iff in Ig. destruct Ig as ((g', us') & <- & Ig).
  rewrite Forall_forall in F. exact (reads_no_help _ _ (F _ Ig) w Iw H).
Qed.
Print Assumptions C96_rejected.

(** All words up to the next option belong to --config. *)
Theorem C96_config_takes_all_words : forall ws rest us, Forall word ws -> readable rest us ->
  exists n, parse ("--config" :: ws ++ rest) = Ok n /\ cmd_of n = command (UConfig ws :: us).
Proof.
  intros ws rest us W (gs & F & -> & ->).
  destruct (proj2 (C96_grammar ("--config" :: ws ++ concat (map fst gs)) (command (UConfig ws :: concat (map snd gs)))
    ([0; 1; 2] ++ flat_map channels_given (UConfig ws :: concat (map snd gs))))) as (n & A & B & _).
  - exists (UConfig ws :: concat (map snd gs)). split; [|split; reflexivity].
    exists (("--config" :: ws, [UConfig ws]) :: gs). split; [|split; reflexivity]. constructor; [|exact F].
    apply (reads_words "--config" OConfig ws (UConfig ws)); [left; right; left; reflexivity|exact W|reflexivity].
  - exists n. split; assumption.
Qed.
Print Assumptions C96_config_takes_all_words.

(** The command lines of the demo (C91) are those of Main_Model.v. *)
Theorem C96_demo_commands : Forall2 (fun argv c => exists n, parse argv = Ok n /\ cmd_of n = c) demo_argvs demo_commands.
Proof. repeat constructor; eexists; split; vm_compute; reflexivity. Qed.
Print Assumptions C96_demo_commands.

(** ** Joined letters *)

(** Joined one-letter flags do not mean the same in every order: [-gr] is accepted and
    [-rg] is not, and [-rgb] is one option of its own. *)
Theorem C96_joined_letters_refuted :
  ~ (forall s s' : string, Permutation (list_ascii_of_string s) (list_ascii_of_string s') ->
     res_map cmd_of (parse ["-" ++ s]) = res_map cmd_of (parse ["-" ++ s'])).
Proof.
  intros H.
  assert (P : Permutation (list_ascii_of_string "gr") (list_ascii_of_string "rg")) by apply perm_swap.
  specialize (H "gr" "rg" P). vm_compute in H. discriminate H.
Qed.
Print Assumptions C96_joined_letters_refuted.

(** With step 3 in the fast mode this matters: -rgb runs the fast step 3 only, the
    three letters in another order, or apart, run step 3 with fits as well. *)
Theorem C96_rgb_is_not_r_g_b : forall fails aconf, (forall x, fails x = None) ->
  main_argv fails true aconf ["-s3_fast"; "-rgb"] = ([Extract (Step3 [0; 1; 2] false)], None) /\
  main_argv fails true aconf ["-s3_fast"; "-bgr"] = ([Extract (Step3 [0; 1; 2] true); Extract (Step3 [0; 1; 2] false)], None) /\
  main_argv fails true aconf ["-s3_fast"; "-r"; "-g"; "-b"] =
    ([Extract (Step3 [0; 1; 2] true); Extract (Step3 [0; 1; 2] false)], None).
Proof.
  intros fails aconf H.
  assert (P : forall l e, perform fails l e = (l, e)).
  { induction l as [|x l IH]; intros e; [reflexivity|]. cbn [perform]. rewrite H, IH. reflexivity. }
  assert (M : forall argv n, parse argv = Ok n -> argv <> [] -> m_demo (cmd_of n) = false ->
    main_argv fails true aconf argv = normal_calls true aconf (cmd_of n)).
  { intros argv n Pn NE D. unfold main_argv. rewrite Pn. destruct argv; [contradiction|]. unfold main. rewrite D.
    destruct (normal_calls true aconf (cmd_of n)) as [l e]. apply P. }
  split; [|split];
    (erewrite M; [|vm_compute; reflexivity|discriminate|vm_compute; reflexivity]; vm_compute; reflexivity).
Qed.
Print Assumptions C96_rgb_is_not_r_g_b.

(** ** Examples *)

Definition no_fail (x : call) : option exn := None.

Example C96_example :
  (* values, abbreviations, joined letters, values after an equals sign *)
  res_map cmd_of (parse ["-conf"; "imgs"; "12.jpg"; "-4"; "-s1"; "--step_2"; "-gb"]) =
    Ok (with_extraction (Args (Some ["imgs"; "12.jpg"; "-4"]) true true false false false false true true false false)) /\
  res_map cmd_of (parse ["--dem"; "--setup=a=b"; "--ru"; "--n_cores"; "-2"]) =
    Ok (Cmdline false no_extraction false false false true (Some "a=b") true (Some (-2)) false false) /\
  res_map n_channels (parse ["--cc"; "--cc_channels"; "2"; "1"; "-a"; "--cc_channels=0"]) = Ok [0; 1; 2; 2; 1; 0] /\
  res_map cmd_of (parse ["-s3_f"]) = res_map cmd_of (parse ["--analyse_photo_fast"]) /\
  res_map cmd_of (parse ["-da"]) = res_map cmd_of (parse ["--demo"; "--analysis"]) /\
  (* rejected: ambiguous, unknown, a value for a flag, a missing or stray value, no number *)
  Forall (fun argv => parse argv = Err SystemExit)
    [["-rg"]; ["--re"]; ["-s"]; ["-at"]; ["--conf"]; ["-restart"]; ["--red=1"]; ["--setup"]; ["--setup"; "a"; "b"];
     ["--n_cores"; "two"]; ["--cc_channels"]; ["imgs"; "-s1"]; ["-s1"; "imgs"]; ["-s1"; "--"; "-s2"]; ["-h"]; ["-rh"];
     ["-s1"; "--he"]].
Proof.
  do 5 (split; [vm_compute; reflexivity|]).
  repeat (apply Forall_cons; [vm_compute; reflexivity|]). apply Forall_nil.
Qed.

Example C96_example_words : word "imgs" /\ word "-12" /\ word "-.5" /\ word "-" /\ word "" /\ word "-x y" /\
  ~ word "-s1" /\ ~ word "-1a" /\ ~ word "--" /\ ~ word "-r x".
Proof.
  assert (Y : forall w, (w =? "--")%string = false -> classify w = Ok TWord -> word w).
  { intros w E C. apply classify_word_sound; [apply String.eqb_neq; exact E|exact C]. }
  assert (N : forall w, classify w <> Ok TWord \/ w = "--" -> ~ word w).
  { intros w H W. destruct (classify_word_complete w W) as [ND C]. tauto. }
  do 6 (split; [apply Y; vm_compute; reflexivity|]). split; [apply N; left; vm_compute; discriminate|].
  split; [apply N; left; vm_compute; discriminate|]. split; [apply N; right; reflexivity|].
  apply N. left. vm_compute. discriminate.
Qed.

Example C96_example_order :
  let gs := [(["-s3_fast"], [UFlag FFast]); (["--setup"; "x"], [USetup "x"]); (["-gb"], [UFlag FGreen; UFlag FBlue])] in
  Forall (fun g => reads (fst g) (snd g)) gs /\ given_once setup_of (concat (map snd gs)) /\
  given_once config_of (concat (map snd gs)) /\
  res_map cmd_of (parse ["-s3_fast"; "--setup"; "x"; "-gb"]) = res_map cmd_of (parse ["-gb"; "--setup"; "x"; "-s3_fast"]).
Proof.
  cbn zeta. split.
  - apply Forall_cons; [|apply Forall_cons; [|apply Forall_cons; [|apply Forall_nil]]]; cbn [fst snd].
    + apply (reads_words "-s3_fast" (OFlag FFast) [] (UFlag FFast)); [left; left; reflexivity|constructor|split; reflexivity].
    + apply (reads_words "--setup" OSetup ["x"] (USetup "x")); [left; left; reflexivity| |exists "x"; split; reflexivity].
      constructor; [|constructor]. left. intros (t & E). discriminate E.
    + apply (reads_letters "gb" [FGreen; FBlue]); [cbn; lia| | |].
      * split; [left; reflexivity|]. split; [left; reflexivity|exact I].
      * apply option_named_none_spec. vm_compute. reflexivity.
      * intros full o F B. apply table in F. apply starts_begins in B.
        assert (X : existsb (fun e => starts "-gb" (fst e)) options = true) by (apply existsb_exists; exists (full, o); split; assumption).
        vm_compute in X. discriminate X.
  - split; [vm_compute; lia|]. split; [vm_compute; lia|]. vm_compute. reflexivity.
Qed.

Example C96_example_refused_values :
  parse ["--config"; "a"; "b"; "c"; "d"; "-s1"] =
    Ok (Namespace [FStep1] (Some ["a"; "b"; "c"; "d"]) None None None [0; 1; 2]) /\
  main_argv no_fail true true ["--help"] = ([], Some SystemExit) /\
  main_argv no_fail true true ["-d"; "--run"; "--n_cores=-3"] = ([RunDemo (-3)], None).
Proof. split; [vm_compute; reflexivity|]. split; vm_compute; reflexivity. Qed.
