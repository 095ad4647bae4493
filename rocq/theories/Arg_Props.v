(** Parsing the command line: C96 *)
From Coq Require Import ZArith Lia Bool Ascii String List Permutation.
From Verif Require Import Base Str Substr Cli_Model Main_Model Arg_Model.
Import ListNotations.
Local Open Scope string_scope.
Local Open Scope Z_scope.

(** ** The language of the command line *)

(** The names of every option. *)
Definition names_of (o : opt) : list string :=
  match o with
  | OHelp => ["-h"; "--help"]
  | OFlag FPrepare => ["--prepare_images"]
  | OFlag FStep1 => ["-s1"; "--step_1"; "--find_search_areas"]
  | OFlag FStep2 => ["-s2"; "--step_2"; "--analyse_positions"]
  | OFlag FStep3 => ["-s3"; "--step_3"; "--analyse_photo"]
  | OFlag FFast => ["-s3_fast"; "--step_3_fast"; "--analyse_photo_fast"]
  | OFlag FRestart => ["-re"; "--restart"]
  | OFlag FRed => ["-r"; "--red"]
  | OFlag FGreen => ["-g"; "--green"]
  | OFlag FBlue => ["-b"; "--blue"]
  | OFlag FRgb => ["-rgb"; "--rgb"]
  | OFlag FCoord => ["-coord"; "--coordinates"]
  | OFlag FAnalysis => ["-a"; "--analysis"]
  | OFlag FCorrect => ["--cc"; "--color_correction"]
  | OFlag FDemo => ["-d"; "--demo"]
  | OFlag FRun => ["--run"]
  | OFlag FTest => ["-atest"; "--acceptance_test"]
  | OFlag FTestDebug => ["-atest_debug"; "--acceptance_test_debug"]
  | OConfig => ["-conf"; "--config"]
  | OConfigAnalysis => ["-conf_a"; "--config_analysis"]
  | OSetup => ["--setup"]
  | OCores => ["--n_cores"]
  | OChannels => ["--cc_channels"]
  end.

Definition is_name (w : string) (o : opt) : Prop := In w (names_of o).
Definition begins (p w : string) : Prop := exists t, w = p ++ t.

(** [w] is the beginning of exactly one option name. *)
Definition abbreviates (w : string) (o : opt) : Prop :=
  exists full, is_name full o /\ begins w full /\
    forall full' o', is_name full' o' -> begins w full' -> full' = full.

Definition no_name (w : string) : Prop := forall o, ~ is_name w o.

(** A word that stands for an option: a name, or an abbreviation whose first two
    characters are no name themselves. *)
Definition stands_for (w : string) (o : opt) : Prop :=
  is_name w o \/
  (no_name w /\ abbreviates w o /\ forall c r, w = String "-" (String c r) -> no_name (String "-" (String c ""))).

(** The same in front of an equals sign, where only long names are abbreviated. *)
Definition stands_for_eq (p : string) (o : opt) : Prop :=
  is_name p o \/ (no_name p /\ begins "--" p /\ abbreviates p o).

Definition digits (s : string) : Prop := all_chars is_digit s = true.

Definition negative (w : string) : Prop :=
  (exists x, w = "-" ++ x /\ x <> "" /\ digits x) \/
  (exists x y, w = "-" ++ x ++ "." ++ y /\ digits x /\ y <> "" /\ digits y).

(** Nothing in the word looks like an option. *)
Definition unlike_options (w : string) : Prop :=
  (forall full o, is_name full o -> ~ begins w full) /\
  (forall p v full o, w = p ++ "=" ++ v -> has_char "="%char p = false -> is_name full o ->
     full <> p /\ ~ (begins "--" p /\ begins p full)) /\
  (forall c r, w = String "-" (String c r) -> no_name (String "-" (String c ""))).

(** A word that can be the value of an option. *)
Definition word (w : string) : Prop :=
  ~ begins "-" w \/ w = "-" \/ negative w \/
  (w <> "--" /\ has_char " "%char w = true /\ unlike_options w).

(** One use of an option. *)
Inductive use :=
| UFlag (f : flag)
| UConfig (ws : list string)
| UConfigAnalysis (ws : list string)
| USetup (path : string)
| UCores (n : Z)
| UChannels (l : list Z).

(** The use of an option with the given values. *)
Definition used (o : opt) (ws : list string) (u : use) : Prop :=
  match o with
  | OHelp => False
  | OFlag f => ws = [] /\ u = UFlag f
  | OConfig => u = UConfig ws
  | OConfigAnalysis => u = UConfigAnalysis ws
  | OSetup => exists p, ws = [p] /\ u = USetup p
  | OCores => exists t n, ws = [t] /\ int_of_str t = Ok n /\ u = UCores n
  | OChannels => ws <> [] /\ exists l, Forall2 (fun t n => int_of_str t = Ok n) ws l /\ u = UChannels l
  end.

(** Letters each of which is the name of a flag. *)
Fixpoint flags_of (s : string) (fs : list flag) : Prop :=
  match s, fs with
  | "", [] => True
  | String c s', f :: fs' => is_name (String "-" (String c "")) (OFlag f) /\ flags_of s' fs'
  | _, _ => False
  end.

(** Consecutive words of the command line and the options they use: an option with its
    values in the following words, an option with its value after an equals sign, or
    several one-letter flags in one word. *)
Inductive reads : list string -> list use -> Prop :=
| reads_words : forall w o ws u, stands_for w o -> Forall word ws -> used o ws u -> reads (w :: ws) [u]
| reads_equals : forall p v o u, stands_for_eq p o -> has_char "="%char p = false -> used o [v] u ->
    reads [p ++ "=" ++ v] [u]
| reads_letters : forall s fs, (2 <= List.length fs)%nat -> flags_of s fs -> no_name ("-" ++ s) ->
    (forall full o, is_name full o -> ~ begins ("-" ++ s) full) -> reads ["-" ++ s] (map UFlag fs).

(** The meaning of the used options. *)
Definition given (f : flag) (us : list use) : bool :=
  existsb (fun u => match u with UFlag g => if flag_eq_dec f g then true else false | _ => false end) us.

(** The last value that is given. *)
Definition last_of {A} (v : use -> option A) (us : list use) : option A :=
  fold_left (fun acc u => match v u with Some x => Some x | None => acc end) us None.

Definition config_of (u : use) : option (list string) := match u with UConfig ws => Some ws | _ => None end.
Definition config_analysis_of (u : use) : option (list string) := match u with UConfigAnalysis ws => Some ws | _ => None end.
Definition setup_of (u : use) : option string := match u with USetup p => Some p | _ => None end.
Definition number_of (u : use) : option Z := match u with UCores n => Some n | _ => None end.
Definition channels_given (u : use) : list Z := match u with UChannels l => l | _ => [] end.

Definition command (us : list use) : cmdline :=
  Cmdline (given FPrepare us)
    (Args (last_of config_of us) (given FStep1 us) (given FStep2 us) (given FStep3 us) (given FFast us)
          (given FRestart us) (given FRed us) (given FGreen us) (given FBlue us) (given FRgb us) (given FCoord us))
    (existsb (fun u => match u with UConfigAnalysis _ => true | _ => false end) us)
    (given FAnalysis us) (given FCorrect us) (given FDemo us) (last_of setup_of us) (given FRun us)
    (last_of number_of us) (given FTest us) (given FTestDebug us).

(** ** The option table *)

Definition all_opts : list opt :=
  [OHelp; OFlag FPrepare; OFlag FStep1; OFlag FStep2; OFlag FStep3; OFlag FFast; OFlag FRestart; OFlag FRed;
   OFlag FGreen; OFlag FBlue; OFlag FRgb; OFlag FCoord; OFlag FAnalysis; OFlag FCorrect; OFlag FDemo; OFlag FRun;
   OFlag FTest; OFlag FTestDebug; OConfig; OConfigAnalysis; OSetup; OCores; OChannels].

Lemma all_opts_complete : forall o, In o all_opts.
Proof. intros [|f| | | | |]; try destruct f; cbn; tauto. Qed.

Definition opt_eq_dec : forall a b : opt, {a = b} + {a <> b}.
Proof. repeat decide equality. Defined.

Lemma table : forall w o, In (w, o) options <-> is_name w o.
Proof.
  intros w o. unfold is_name. split.
  - intros H. unfold options in H. cbn [In] in H.
    repeat (destruct H as [H|H]; [inversion H; subst; cbn; tauto|]). destruct H.
  - intros H. destruct o as [|f| | | | |]; try destruct f; cbn [names_of In] in H;
      repeat (destruct H as [H|H]; [subst w; unfold options; cbn [In]; tauto|]); destruct H.
Qed.

Fixpoint distinct_names (l : list (string * opt)) : bool :=
  match l with
  | [] => true
  | e :: l' => negb (existsb (fun e' => (fst e =? fst e')%string) l') && distinct_names l'
  end.

Lemma distinct_names_spec : forall l, distinct_names l = true -> NoDup (map fst l).
Proof.
  induction l as [|e l IH]; intros H; [constructor|]. cbn [distinct_names] in H. apply andb_true_iff in H. destruct H as [A B].
  cbn [map]. constructor; [|exact (IH B)]. intros I. apply in_map_iff in I. destruct I as (e' & E & I).
  apply negb_true_iff in A. assert (X : existsb (fun e' => (fst e =? fst e')%string) l = true).
  { apply existsb_exists. exists e'. split; [exact I|]. apply String.eqb_eq. congruence. }
  congruence.
Qed.

Lemma names_distinct : NoDup (map fst options).
Proof. apply distinct_names_spec. vm_compute. reflexivity. Qed.

Lemma options_distinct : NoDup options.
Proof. exact (NoDup_map_inv fst options names_distinct). Qed.

Lemma fst_inj : forall e e', In e options -> In e' options -> fst e = fst e' -> e = e'.
Proof.
  assert (G : forall (l : list (string * opt)), NoDup (map fst l) -> forall e e', In e l -> In e' l -> fst e = fst e' -> e = e').
  { induction l as [|x l IH]; intros D e e' H H' E; [destruct H|]. cbn in D. apply NoDup_cons_iff in D. destruct D as [D1 D2].
    destruct H as [->|H], H' as [->|H']; [reflexivity| | |exact (IH D2 e e' H H' E)].
    - exfalso. apply D1. rewrite E. apply in_map. exact H'.
    - exfalso. apply D1. rewrite <- E. apply in_map. exact H. }
  exact (G options names_distinct).
Qed.

Lemma one_option : forall w o o', is_name w o -> is_name w o' -> o = o'.
Proof.
  intros w o o' H H'. apply table in H. apply table in H'. pose proof (fst_inj _ _ H H' eq_refl) as E. congruence.
Qed.

Lemma option_named_in : forall l w o, option_named w l = Some o -> In (w, o) l.
Proof.
  induction l as [|(n, o') l IH]; intros w o H; [discriminate|]. cbn in H. destruct (n =? w)%string eqn:E.
  - apply String.eqb_eq in E. left. congruence.
  - right. apply IH. exact H.
Qed.

Lemma option_named_none : forall l w o, option_named w l = None -> ~ In (w, o) l.
Proof.
  induction l as [|(n, o') l IH]; intros w o H I; [exact I|]. cbn in H. destruct (n =? w)%string eqn:E; [discriminate|].
  destruct I as [I|I]; [|exact (IH w o H I)]. apply String.eqb_neq in E. congruence.
Qed.

Lemma option_named_some_spec : forall w o, option_named w options = Some o <-> is_name w o.
Proof.
  intros w o. split; intros H.
  - apply table. apply option_named_in. exact H.
  - destruct (option_named w options) as [o'|] eqn:E.
    + apply option_named_in in E. apply table in E. rewrite (one_option w o o' H E). reflexivity.
    + exfalso. apply table in H. exact (option_named_none options w o E H).
Qed.

Lemma option_named_none_spec : forall w, option_named w options = None <-> no_name w.
Proof.
  intros w. split; intros H.
  - intros o I. apply option_named_some_spec in I. congruence.
  - destruct (option_named w options) as [o|] eqn:E; [|reflexivity]. apply option_named_some_spec in E. destruct (H o E).
Qed.

(** Facts about the names, by inspection of the table. *)
Lemma names_checked : forall P : string -> bool, forallb (fun e => P (fst e)) options = true ->
  forall w o, is_name w o -> P w = true.
Proof.
  intros P H w o I. apply table in I. rewrite forallb_forall in H. exact (H (w, o) I).
Qed.

Lemma name_no_equals : forall w o, is_name w o -> has_char "="%char w = false.
Proof.
  intros w o H. apply negb_true_iff. revert w o H. apply (names_checked (fun w => negb (has_char "="%char w))).
  vm_compute. reflexivity.
Qed.

Lemma name_hyphen : forall w o, is_name w o -> exists c r, w = String "-" (String c r) /\ is_digit c = false /\ c <> "."%char.
Proof.
  intros w o H.
  pose proof (names_checked (fun w => match w with
      | String a (String c r) => Ascii.eqb a "-"%char && negb (is_digit c) && negb (Ascii.eqb c "."%char)
      | _ => false end) eq_refl w o H) as E. cbn beta in E.
  destruct w as [|a [|c r]]; try discriminate. apply andb_true_iff in E. destruct E as [E E3].
  apply andb_true_iff in E. destruct E as [E1 E2]. apply Ascii.eqb_eq in E1. subst a. exists c, r.
  split; [reflexivity|]. split; [apply negb_true_iff; exact E2|]. apply negb_true_iff in E3. apply Ascii.eqb_neq. exact E3.
Qed.

(** ** Words *)

Lemma partition_some : forall w p v, partition_eq w = Some (p, v) <-> w = p ++ "=" ++ v /\ has_char "="%char p = false.
Proof.
  induction w as [|a w IH]; intros p v.
  - cbn. split; [discriminate|]. intros (H & _). destruct p; discriminate H.
  - cbn [partition_eq]. destruct (Ascii.eqb a "="%char) eqn:E.
    + apply Ascii.eqb_eq in E. subst a. split.
      * intros H. apply Some_inj in H. apply pair_equal_spec in H. destruct H as [<- <-]. split; reflexivity.
      * intros (H & N). destruct p as [|b p]; [cbn in H; congruence|]. cbn in H. injection H as <- H. cbn in N. discriminate N.
    + split.
      * destruct (partition_eq w) as [[x y]|] eqn:W; [|discriminate]. intros H. apply Some_inj in H.
        apply pair_equal_spec in H. destruct H as [<- <-]. destruct (proj1 (IH x y) eq_refl) as [A B].
        split; [cbn; f_equal; exact A|]. cbn [has_char]. rewrite E. exact B.
      * intros (H & N). destruct p as [|b p].
        { cbn in H. injection H as -> _. rewrite Ascii.eqb_refl in E. discriminate E. }
        cbn [append] in H. injection H as <- H. cbn [has_char] in N.
        apply orb_false_iff in N. destruct N as [_ N].
        rewrite (proj2 (IH p v) (conj H N)). reflexivity.
Qed.

Lemma partition_none : forall w, partition_eq w = None <-> has_char "="%char w = false.
Proof.
  induction w as [|a w IH]; [cbn; tauto|]. cbn [partition_eq has_char].
  destruct (Ascii.eqb a "="%char) eqn:E; cbn [orb].
  - split; discriminate.
  - destruct (partition_eq w) as [[x y]|]; [|exact IH]. split; [discriminate|]. intros H. apply IH in H. discriminate H.
Qed.

Lemma starts_begins : forall p w, starts p w = true <-> begins p w.
Proof. exact starts_spec. Qed.

Lemma begins_app : forall p t, begins p (p ++ t).
Proof. intros p t. exists t. reflexivity. Qed.

Lemma begins_refl : forall w, begins w w.
Proof. intros w. exists "". symmetry. apply app_nil_s. Qed.

Lemma begins_hyphen : forall w, starts "-" w = true <-> exists r, w = String "-" r.
Proof.
  intros w. rewrite starts_begins. unfold begins. split; intros (r & ->); exists r; reflexivity.
Qed.

Lemma begins_long : forall c r, begins "--" (String "-" (String c r)) <-> c = "-"%char.
Proof.
  intros c r. split.
  - intros (t & H). cbn in H. congruence.
  - intros ->. exists r. reflexivity.
Qed.

Lemma name_not_short : forall c, c = "-"%char -> no_name (String "-" (String c "")).
Proof. intros c -> o H. apply option_named_some_spec in H. vm_compute in H. discriminate H. Qed.

Lemma abbreviation_shape : forall w o, abbreviates w o -> exists c r, w = String "-" (String c r).
Proof.
  intros w o (full & F & (t & B) & U).
  assert (N1 : is_name "-h" OHelp) by (left; reflexivity).
  assert (N2 : is_name "--help" OHelp) by (right; left; reflexivity).
  destruct (name_hyphen full o F) as (c & r & E & _). rewrite E in B.
  destruct w as [|a [|b w]].
  - exfalso. pose proof (U _ _ N1 (ex_intro _ "-h" eq_refl)). pose proof (U _ _ N2 (ex_intro _ "--help" eq_refl)). congruence.
  - cbn in B. injection B as <- _. exfalso.
    pose proof (U _ _ N1 (ex_intro _ "h" eq_refl)). pose proof (U _ _ N2 (ex_intro _ "-help" eq_refl)). congruence.
  - cbn in B. injection B as <- <- _. eauto.
Qed.

Lemma abbreviation_not_dashes : forall o, ~ abbreviates "--" o.
Proof.
  intros o (full & F & _ & U).
  assert (N1 : is_name "--red" (OFlag FRed)) by (right; left; reflexivity).
  assert (N2 : is_name "--help" OHelp) by (right; left; reflexivity).
  pose proof (U _ _ N1 (ex_intro _ "red" eq_refl)). pose proof (U _ _ N2 (ex_intro _ "help" eq_refl)). congruence.
Qed.

Lemma abbreviation_one : forall w o o', abbreviates w o -> abbreviates w o' -> o = o'.
Proof.
  intros w o o' (f & F & B & U) (f' & F' & B' & U'). pose proof (U f' o' F' B') as E. subst f'. exact (one_option f o o' F F').
Qed.

Lemma begins_no_equals : forall p w, begins p w -> has_char "="%char w = false -> has_char "="%char p = false.
Proof. intros p w (t & ->) H. rewrite has_char_app in H. apply orb_false_iff in H. tauto. Qed.

Lemma abbreviation_no_equals : forall w o, abbreviates w o -> has_char "="%char w = false.
Proof. intros w o (full & F & B & _). exact (begins_no_equals w full B (name_no_equals full o F)). Qed.

Lemma has_equals : forall p v, has_char "="%char (p ++ "=" ++ v) = true.
Proof. intros p v. rewrite has_char_app. cbn. apply orb_true_r. Qed.

(** The readings of a word. *)
Definition before_eq (w : string) : string := match partition_eq w with Some (p, _) => p | None => w end.

Definition reading_matches (w : string) (e : string * opt) : bool :=
  if starts "--" w then starts (before_eq w) (fst e)
  else (fst e =? substring 0 2 w)%string || starts w (fst e).

Definition reading_token (w : string) (e : string * opt) : token :=
  if starts "--" w then match partition_eq w with Some (_, v) => TEquals (snd e) v | None => TOption (snd e) end
  else if (fst e =? substring 0 2 w)%string then TLetters (snd e) (substring 2 (String.length w - 2) w)
  else TOption (snd e).

Lemma readings_form : forall w, readings w = map (reading_token w) (filter (reading_matches w) options).
Proof.
  intros w. unfold readings, reading_token, reading_matches, before_eq. destruct (starts "--" w).
  - destruct (partition_eq w) as [[p v]|]; reflexivity.
  - induction options as [|e l IH]; [reflexivity|]. cbn [flat_map filter]. rewrite IH.
    destruct (fst e =? substring 0 2 w)%string eqn:E; cbn [orb].
    + cbn [map app]. rewrite E. reflexivity.
    + destruct (starts w (fst e)); [|reflexivity]. cbn [map app]. rewrite E. reflexivity.
Qed.

Lemma filter_cases : forall (P : string * opt -> bool) l, NoDup l ->
  (filter P l = [] /\ forall e, In e l -> P e = false) \/
  (exists e, filter P l = [e] /\ In e l /\ P e = true /\ forall e', In e' l -> P e' = true -> e' = e) \/
  (exists a b r, filter P l = a :: b :: r /\ In a l /\ In b l /\ P a = true /\ P b = true /\ a <> b).
Proof.
  intros P l D. pose proof (NoDup_filter P D) as DF. pose proof (filter_In P) as FI.
  destruct (filter P l) as [|a [|b r]] eqn:E.
  - left. split; [reflexivity|]. intros e H. destruct (P e) eqn:Q; [|reflexivity].
    assert (X : In e (filter P l)) by (apply FI; split; assumption). rewrite E in X. destruct X.
  - right. left. exists a. assert (X : In a (filter P l)) by (rewrite E; left; reflexivity). apply FI in X.
    split; [reflexivity|]. split; [tauto|]. split; [tauto|]. intros e' H Q.
    assert (Y : In e' (filter P l)) by (apply FI; split; assumption). rewrite E in Y. destruct Y as [Y|[]]. congruence.
  - right. right. exists a, b, r. assert (X : In a (filter P l)) by (rewrite E; left; reflexivity). apply FI in X.
    assert (Y : In b (filter P l)) by (rewrite E; right; left; reflexivity). apply FI in Y.
    repeat split; try tauto. intros ->. apply NoDup_cons_iff in DF. destruct DF as [DF _]. apply DF. left. reflexivity.
Qed.

(** [classify_rest] in the three cases. *)
Lemma classify_rest_cases : forall w,
  ((forall e, In e options -> reading_matches w e = false) /\
   classify_rest w = if negative_number w then Ok TWord else if has_char " "%char w then Ok TWord else Ok TUnknown) \/
  (exists e, In e options /\ reading_matches w e = true /\
     (forall e', In e' options -> reading_matches w e' = true -> e' = e) /\ classify_rest w = Ok (reading_token w e)) \/
  (exists a b, In a options /\ In b options /\ reading_matches w a = true /\ reading_matches w b = true /\ a <> b /\
     classify_rest w = Err SystemExit).
Proof.
  intros w. unfold classify_rest. rewrite readings_form.
  destruct (filter_cases (reading_matches w) options options_distinct) as [(E & H)|[(e & E & H1 & H2 & H3)|(a & b & r & E & H)]];
    rewrite E; cbn [map].
  - left. split; [exact H|reflexivity].
  - right. left. exists e. repeat split; assumption.
  - right. right. exists a, b. repeat split; try tauto; apply H.
Qed.

Lemma substring_all : forall s, substring 0 (String.length s) s = s.
Proof. induction s as [|a s IH]; [reflexivity|]. cbn. rewrite IH. reflexivity. Qed.

Lemma cut_two : forall c r, substring 0 2 (String "-" (String c r)) = String "-" (String c "") /\
  substring 2 (String.length (String "-" (String c r)) - 2) (String "-" (String c r)) = r.
Proof.
  intros c r. split; [cbn; destruct r; reflexivity|].
  cbn [String.length]. replace (S (S (String.length r)) - 2)%nat with (String.length r) by lia. cbn [substring].
  destruct (String.length r) eqn:E; [destruct r; [reflexivity|discriminate E]|]. rewrite <- E. apply substring_all.
Qed.

Lemma begins_antisym_entry : forall w e e', In e options -> In e' options -> fst e = w -> fst e' = w -> e = e'.
Proof. intros w e e' H H' A B. apply fst_inj; congruence. Qed.

(** Reading a word that begins with two hyphens. *)
Lemma matches_long : forall w e, starts "--" w = true -> reading_matches w e = true <-> begins (before_eq w) (fst e).
Proof. intros w e H. unfold reading_matches. rewrite H. apply starts_begins. Qed.

Lemma matches_short : forall c r e, c <> "-"%char ->
  reading_matches (String "-" (String c r)) e = true <->
  fst e = String "-" (String c "") \/ begins (String "-" (String c r)) (fst e).
Proof.
  intros c r e H. unfold reading_matches.
  assert (S : starts "--" (String "-" (String c r)) = false).
  { destruct (starts "--" (String "-" (String c r))) eqn:E; [|reflexivity]. apply starts_begins in E. apply begins_long in E. contradiction. }
  rewrite S, (proj1 (cut_two c r)), orb_true_iff, String.eqb_eq, starts_begins. reflexivity.
Qed.

Lemma token_short : forall c r e, c <> "-"%char ->
  reading_token (String "-" (String c r)) e =
  if (fst e =? String "-" (String c ""))%string then TLetters (snd e) r else TOption (snd e).
Proof.
  intros c r e H. unfold reading_token.
  assert (S : starts "--" (String "-" (String c r)) = false).
  { destruct (starts "--" (String "-" (String c r))) eqn:E; [|reflexivity]. apply starts_begins in E. apply begins_long in E. contradiction. }
  rewrite S, (proj1 (cut_two c r)), (proj2 (cut_two c r)). reflexivity.
Qed.

(** Negative numbers. *)
Lemma split_one : forall c s x, split_on c s = [x] -> s = x /\ has_char c x = false.
Proof.
  intros c. induction s as [|a s IH]; intros x H.
  - cbn in H. injection H as <-. split; reflexivity.
  - cbn in H. destruct (Ascii.eqb a c) eqn:E.
    + exfalso. injection H as _ H. exact (split_on_nonempty c s H).
    + destruct (split_on c s) as [|y l] eqn:S; [exfalso; exact (split_on_nonempty c s S)|].
      injection H as <- ->. destruct (IH y eq_refl) as [A B]. subst y. split; [reflexivity|]. cbn. rewrite E. exact B.
Qed.

Lemma split_two : forall c s x y, split_on c s = [x; y] -> s = x ++ String c y /\ has_char c x = false /\ has_char c y = false.
Proof.
  intros c. induction s as [|a s IH]; intros x y H; [discriminate|].
  cbn in H. destruct (Ascii.eqb a c) eqn:E.
  - injection H as <- H. apply split_one in H. destruct H as [-> H]. apply Ascii.eqb_eq in E. subst a. repeat split. exact H.
  - destruct (split_on c s) as [|z l] eqn:S; [discriminate|]. injection H as <- ->.
    destruct (IH z y eq_refl) as (A & B & C). subst s. split; [reflexivity|]. split; [|exact C]. cbn. rewrite E. exact B.
Qed.

Lemma digits_no_dot : forall x, digits x -> has_char "."%char x = false.
Proof. intros x H. exact (has_char_all "."%char is_digit x H eq_refl). Qed.

Lemma negative_number_spec : forall w, negative_number w = true <-> negative w.
Proof.
  intros w. unfold negative. split.
  - intros H. unfold negative_number in H. destruct w as [|a r]; [discriminate|].
    destruct (Ascii.eqb a "-"%char) eqn:E.
    2:{ exfalso. apply Ascii.eqb_neq in E. destruct a as [[] [] [] [] [] [] [] []]; try discriminate H; apply E; reflexivity. }
    apply Ascii.eqb_eq in E. subst a.
    destruct (split_on "."%char r) as [|x [|y [|z l]]] eqn:S; try discriminate.
    + apply split_one in S. destruct S as [-> _]. apply andb_true_iff in H. destruct H as [A B].
      left. exists x. apply negb_true_iff in A. apply String.eqb_neq in A. repeat split; assumption.
    + apply split_two in S. destruct S as (-> & _ & _). apply andb_true_iff in H. destruct H as [H C].
      apply andb_true_iff in H. destruct H as [A B]. apply negb_true_iff in B. apply String.eqb_neq in B.
      right. exists x, y. repeat split; assumption.
  - intros [(x & -> & N & D)|(x & y & -> & D & N & D')]; unfold negative_number; cbn [append].
    + rewrite (split_on_no_char "."%char x (digits_no_dot x D)). rewrite D. apply String.eqb_neq in N. rewrite N. reflexivity.
    + change (x ++ String "." y) with (x ++ String "."%char y).
      rewrite split_on_app by (exact (digits_no_dot x D)). rewrite (split_on_no_char "."%char y (digits_no_dot y D')).
      rewrite D, D'. apply String.eqb_neq in N. rewrite N. reflexivity.
Qed.

Lemma negative_shape : forall w, negative w -> exists c r, w = String "-" (String c r) /\ (is_digit c = true \/ c = "."%char) /\
  has_char "="%char w = false.
Proof.
  intros w [(x & -> & N & D)|(x & y & -> & D & N & D')].
  - destruct x as [|c r]; [contradiction|]. exists c, r. unfold digits in D. cbn [all_chars] in D. split; [reflexivity|].
    split; [left; apply andb_true_iff in D; tauto|]. cbn [append].
    change (has_char "="%char (String "-" (String c r))) with (has_char "="%char (String c r)).
    exact (has_char_all "="%char is_digit (String c r) D eq_refl).
  - destruct x as [|c r].
    + exists "."%char, y. split; [reflexivity|]. split; [right; reflexivity|]. cbn.
      exact (has_char_all "="%char is_digit y D' eq_refl).
    + exists c, (r ++ "." ++ y). split; [reflexivity|]. split; [left; unfold digits in D; cbn [all_chars] in D; apply andb_true_iff in D; tauto|].
      change (has_char "="%char ("-" ++ String c r ++ "." ++ y)) with (has_char "="%char (String c r ++ "." ++ y)).
      rewrite has_char_app. rewrite (has_char_all "="%char is_digit (String c r) D eq_refl).
      change (has_char "="%char y = false). exact (has_char_all "="%char is_digit y D' eq_refl).
Qed.

Lemma name_not_negative : forall c r full o, is_digit c = true \/ c = "."%char -> is_name full o ->
  ~ begins (String "-" (String c r)) full /\ full <> String "-" (String c "").
Proof.
  intros c r full o H F. destruct (name_hyphen full o F) as (d & s & -> & A & B). split.
  - intros (t & E). cbn in E. injection E as -> _. destruct H; congruence.
  - intros E. injection E as -> _. destruct H; congruence.
Qed.

(** ** What the words of the command line are taken for *)

Lemma not_starting : forall w, starts "-" w = false <-> ~ begins "-" w.
Proof.
  intros w. rewrite <- starts_begins. destruct (starts "-" w); split; intros H; try congruence; try (exfalso; apply H; reflexivity).
Qed.

Lemma before_none : forall w, has_char "="%char w = false -> before_eq w = w.
Proof. intros w H. unfold before_eq. rewrite (proj2 (partition_none w) H). reflexivity. Qed.

Lemma before_some : forall p v, has_char "="%char p = false -> partition_eq (p ++ "=" ++ v) = Some (p, v) /\ before_eq (p ++ "=" ++ v) = p.
Proof.
  intros p v H. assert (E : partition_eq (p ++ "=" ++ v) = Some (p, v)) by (apply partition_some; split; [reflexivity|exact H]).
  split; [exact E|]. unfold before_eq. rewrite E. reflexivity.
Qed.

(** The cases of [classify] for a word with at least two characters that begins with a hyphen. *)
Lemma classify_hyphen : forall c r, let w := String "-" (String c r) in
  classify w =
  match option_named w options with
  | Some o => Ok (TOption o)
  | None => match partition_eq w with
            | Some (p, v) => match option_named p options with Some o => Ok (TEquals o v) | None => classify_rest w end
            | None => classify_rest w
            end
  end.
Proof.
  intros c r w. unfold classify. replace (starts "-" w) with true by reflexivity. cbn [negb].
  destruct (option_named w options); [reflexivity|]. replace (w =? "-")%string with false by reflexivity. reflexivity.
Qed.

Lemma classify_option_sound : forall w o, classify w = Ok (TOption o) -> stands_for w o.
Proof.
  intros w o H. destruct (starts "-" w) eqn:SW; [|unfold classify in H; rewrite SW in H; discriminate].
  apply begins_hyphen in SW. destruct SW as (s & ->). destruct s as [|c r]; [vm_compute in H; discriminate|].
  rewrite classify_hyphen in H. set (w := String "-" (String c r)) in *.
  destruct (option_named w options) as [o'|] eqn:N.
  { apply Ok_inj in H. left. apply option_named_some_spec. congruence. }
  apply option_named_none_spec in N.
  assert (R : classify_rest w = Ok (TOption o)).
  { destruct (partition_eq w) as [[p v]|]; [|exact H]. destruct (option_named p options); [discriminate|exact H]. }
  clear H. right. split; [exact N|].
  destruct (classify_rest_cases w) as [(_ & E)|[(e & I & M & U & E)|(a & b & _ & _ & _ & _ & _ & E)]]; rewrite E in R; [|clear E|discriminate].
  { destruct (negative_number w); [discriminate|]. destruct (has_char " "%char w); discriminate. }
  apply Ok_inj in R. destruct e as [full o']. destruct (ascii_dec c "-"%char) as [C|C].
  - subst c. assert (L : starts "--" w = true) by (apply starts_begins; exists r; reflexivity).
    unfold reading_token in R. rewrite L in R. destruct (partition_eq w) as [[p v]|] eqn:P; [discriminate|].
    cbn [snd] in R. assert (o' = o) by congruence. subst o'. clear R.
    assert (B : before_eq w = w) by (unfold before_eq; rewrite P; reflexivity).
    split.
    + exists full. split; [apply table; exact I|]. split; [apply (matches_long w (full, o) L) in M; rewrite B in M; exact M|].
      intros full' o' F' B'. apply table in F'.
      assert (M' : reading_matches w (full', o') = true) by (apply (matches_long w _ L); rewrite B; exact B').
      pose proof (U _ F' M'). congruence.
    + intros c' r' E'. unfold w in E'. injection E' as <- _. apply name_not_short. reflexivity.
  - unfold w in R. rewrite (token_short c r _ C) in R. cbn [fst snd] in R.
    destruct (full =? String "-" (String c ""))%string eqn:X; [discriminate|]. apply String.eqb_neq in X.
    assert (o' = o) by congruence. subst o'. clear R. unfold w in M. apply (matches_short c r _ C) in M. cbn [fst] in M.
    destruct M as [M|M]; [contradiction|]. split.
    + exists full. split; [apply table; exact I|]. split; [exact M|]. intros full' o' F' B'. apply table in F'.
      assert (M' : reading_matches w (full', o') = true) by (apply (matches_short c r _ C); right; exact B').
      pose proof (U _ F' M'). congruence.
    + intros c' r' E' o' F'. unfold w in E'. injection E' as <- <-. apply table in F'.
      assert (M' : reading_matches w (String "-" (String c ""), o') = true) by (apply (matches_short c r _ C); left; reflexivity).
      pose proof (U _ F' M') as Q. apply X. congruence.
Qed.

Lemma classify_option_complete : forall w o, stands_for w o -> w <> "--" /\ classify w = Ok (TOption o).
Proof.
  intros w o [H|(N & A & S)].
  - destruct (name_hyphen w o H) as (c & r & E & _). split.
    + intros ->. exact (name_not_short "-"%char eq_refl o H).
    + rewrite E, classify_hyphen, <- E. rewrite (proj2 (option_named_some_spec w o) H). reflexivity.
  - split; [intros ->; exact (abbreviation_not_dashes o A)|].
    destruct (abbreviation_shape w o A) as (c & r & E). rewrite E, classify_hyphen, <- E.
    rewrite (proj2 (option_named_none_spec w) N).
    pose proof (abbreviation_no_equals w o A) as NE. rewrite (proj2 (partition_none w) NE).
    destruct A as (full & F & B & U). pose proof (proj2 (table full o) F) as I.
    assert (M : reading_matches w (full, o) = true).
    { destruct (ascii_dec c "-"%char) as [C|C].
      - subst c. apply matches_long; [rewrite E; apply starts_begins; exists r; reflexivity|]. rewrite (before_none w NE). exact B.
      - rewrite E. apply (matches_short c r _ C). right. cbn [fst]. rewrite <- E. exact B. }
    assert (UM : forall e, In e options -> reading_matches w e = true -> e = (full, o)).
    { intros (f', o') I' M'. apply fst_inj; [exact I'|exact I|]. cbn [fst]. pose proof (proj1 (table f' o') I') as F'.
      destruct (ascii_dec c "-"%char) as [C|C].
      - subst c. apply matches_long in M'; [|rewrite E; apply starts_begins; exists r; reflexivity].
        rewrite (before_none w NE) in M'. exact (U f' o' F' M').
      - rewrite E in M'. apply (matches_short c r _ C) in M'. cbn [fst] in M'. rewrite <- E in M'.
        destruct M' as [M'|M']; [exfalso; rewrite M' in F'; exact (S c r E o' F')|exact (U f' o' F' M')]. }
    destruct (classify_rest_cases w) as [(Z & _)|[(e & Ie & Me & _ & R)|(a & b & Ia & Ib & Ma & Mb & D & _)]].
    + rewrite (Z (full, o) I) in M. discriminate.
    + rewrite R. rewrite (UM e Ie Me). f_equal. destruct (ascii_dec c "-"%char) as [C|C].
      * unfold reading_token. assert (L : starts "--" w = true) by (rewrite E, C; apply starts_begins; exists r; reflexivity).
        rewrite L, (proj2 (partition_none w) NE). reflexivity.
      * rewrite E, (token_short c r _ C). cbn [fst snd]. destruct (full =? String "-" (String c ""))%string eqn:X; [|reflexivity].
        exfalso. apply String.eqb_eq in X. rewrite X in F. exact (S c r E o F).
    + exfalso. apply D. rewrite (UM a Ia Ma), (UM b Ib Mb). reflexivity.
Qed.

Lemma classify_equals_sound : forall w o v, classify w = Ok (TEquals o v) ->
  exists p, w = p ++ "=" ++ v /\ has_char "="%char p = false /\ stands_for_eq p o.
Proof.
  intros w o v H. destruct (starts "-" w) eqn:SW; [|unfold classify in H; rewrite SW in H; discriminate].
  apply begins_hyphen in SW. destruct SW as (s & ->). destruct s as [|c r]; [vm_compute in H; discriminate|].
  rewrite classify_hyphen in H. set (w := String "-" (String c r)) in *.
  destruct (option_named w options) as [o'|]; [discriminate|].
  destruct (partition_eq w) as [[p v']|] eqn:P.
  - pose proof P as P'. apply partition_some in P. destruct P as (EW & NP). destruct (option_named p options) as [o'|] eqn:N.
    { apply Ok_inj in H. injection H as <- <-. exists p. split; [exact EW|]. split; [exact NP|]. left.
      apply option_named_some_spec. exact N. }
    apply option_named_none_spec in N.
    destruct (classify_rest_cases w) as [(_ & E)|[(e & I & M & U & E)|(a & b & _ & _ & _ & _ & _ & E)]]; rewrite E in H; [|clear E|discriminate].
    { destruct (negative_number w); [discriminate|]. destruct (has_char " "%char w); discriminate. }
    apply Ok_inj in H. destruct e as [full o']. unfold reading_token in H.
    destruct (starts "--" w) eqn:L; [|destruct (_ =? _)%string in H; discriminate]. rewrite P' in H. cbn [snd] in H.
    injection H as -> ->. exists p. split; [exact EW|]. split; [exact NP|]. right. split; [exact N|].
    assert (B : before_eq w = p) by (unfold before_eq; rewrite P'; reflexivity).
    split.
    + apply starts_begins in L. destruct L as (t & L). rewrite EW in L. destruct p as [|x [|y q]]; cbn in L.
      * discriminate L.
      * injection L as _ L. discriminate L.
      * injection L as -> -> _. exists q. reflexivity.
    + exists full. split; [apply table; exact I|]. split; [apply (matches_long w _ L) in M; rewrite B in M; exact M|].
      intros full' o' F' B'. apply table in F'.
      assert (M' : reading_matches w (full', o') = true) by (apply (matches_long w _ L); rewrite B; exact B').
      pose proof (U _ F' M'). congruence.
  - destruct (classify_rest_cases w) as [(_ & E)|[(e & I & M & U & E)|(a & b & _ & _ & _ & _ & _ & E)]]; rewrite E in H; [|clear E|discriminate].
    { destruct (negative_number w); [discriminate|]. destruct (has_char " "%char w); discriminate. }
    apply Ok_inj in H. unfold reading_token in H. rewrite P in H.
    destruct (starts "--" w); [discriminate|]. destruct (_ =? _)%string in H; discriminate.
Qed.

Lemma stands_for_eq_shape : forall p o, stands_for_eq p o -> exists c r, p = String "-" (String c r).
Proof.
  intros p o [H|(_ & _ & H)]; [|exact (abbreviation_shape p o H)].
  destruct (name_hyphen p o H) as (c & r & E & _). eauto.
Qed.

Lemma equals_no_name : forall p v, no_name (p ++ "=" ++ v).
Proof. intros p v o H. apply name_no_equals in H. rewrite has_equals in H. discriminate. Qed.

Lemma classify_equals_complete : forall p v o, stands_for_eq p o -> has_char "="%char p = false ->
  p ++ "=" ++ v <> "--" /\ classify (p ++ "=" ++ v) = Ok (TEquals o v).
Proof.
  intros p v o S NP. split; [intros E; pose proof (has_equals p v) as X; rewrite E in X; discriminate X|].
  destruct (stands_for_eq_shape p o S) as (c & r & E). destruct (before_some p v NP) as [P B].
  set (w := p ++ "=" ++ v) in *. assert (EW : w = String "-" (String c (r ++ "=" ++ v))) by (unfold w; rewrite E; reflexivity).
  rewrite EW, classify_hyphen, <- EW. rewrite (proj2 (option_named_none_spec w) (equals_no_name p v)), P.
  destruct S as [S|(N & L & A)]; [rewrite (proj2 (option_named_some_spec p o) S); reflexivity|].
  rewrite (proj2 (option_named_none_spec p) N). destruct A as (full & F & Bg & U).
  assert (LW : starts "--" w = true).
  { apply starts_begins. destruct L as (t & L). exists (t ++ "=" ++ v). unfold w. rewrite L. reflexivity. }
  pose proof (proj2 (table full o) F) as I.
  assert (M : reading_matches w (full, o) = true) by (apply (matches_long w _ LW); rewrite B; exact Bg).
  assert (UM : forall e, In e options -> reading_matches w e = true -> e = (full, o)).
  { intros (f', o') I' M'. apply fst_inj; [exact I'|exact I|]. apply (matches_long w _ LW) in M'. rewrite B in M'.
    exact (U f' o' (proj1 (table f' o') I') M'). }
  destruct (classify_rest_cases w) as [(Z & _)|[(e & Ie & Me & _ & R)|(a & b & Ia & Ib & Ma & Mb & D & _)]].
  - rewrite (Z (full, o) I) in M. discriminate.
  - rewrite R, (UM e Ie Me). unfold reading_token. rewrite LW, P. reflexivity.
  - exfalso. apply D. rewrite (UM a Ia Ma), (UM b Ib Mb). reflexivity.
Qed.

(** Joined letters. *)
Definition letters_word (w : string) (o : opt) (r : string) : Prop :=
  exists c, w = String "-" (String c r) /\ is_name (String "-" (String c "")) o /\ no_name w /\
    (forall p v, w = p ++ "=" ++ v -> has_char "="%char p = false -> no_name p) /\
    (forall full o', is_name full o' -> ~ begins w full).

Lemma classify_letters_sound : forall w o r, classify w = Ok (TLetters o r) -> letters_word w o r.
Proof.
  intros w o r' H. destruct (starts "-" w) eqn:SW; [|unfold classify in H; rewrite SW in H; discriminate].
  apply begins_hyphen in SW. destruct SW as (s & ->). destruct s as [|c r]; [vm_compute in H; discriminate|].
  rewrite classify_hyphen in H. set (w := String "-" (String c r)) in *.
  destruct (option_named w options) as [o'|] eqn:N; [discriminate|]. apply option_named_none_spec in N.
  assert (R : classify_rest w = Ok (TLetters o r') /\ forall p v, w = p ++ "=" ++ v -> has_char "="%char p = false -> no_name p).
  { destruct (partition_eq w) as [[p v]|] eqn:P.
    - destruct (option_named p options) eqn:Np; [discriminate|]. split; [exact H|]. intros p' v' E NE.
      assert (Q : partition_eq w = Some (p', v')) by (apply partition_some; split; assumption). rewrite P in Q.
      apply Some_inj in Q. apply pair_equal_spec in Q. destruct Q as [<- _]. apply option_named_none_spec. exact Np.
    - split; [exact H|]. intros p' v' E NE. apply partition_none in P. rewrite E, has_equals in P. discriminate. }
  destruct R as [R PE]. clear H.
  destruct (classify_rest_cases w) as [(_ & E)|[(e & I & M & U & E)|(a & b & _ & _ & _ & _ & _ & E)]]; rewrite E in R; [|clear E|discriminate].
  { destruct (negative_number w); [discriminate|]. destruct (has_char " "%char w); discriminate. }
  apply Ok_inj in R. destruct e as [full o']. destruct (ascii_dec c "-"%char) as [C|C].
  { subst c. unfold reading_token in R. assert (L : starts "--" w = true) by (apply starts_begins; exists r; reflexivity).
    rewrite L in R. destruct (partition_eq w) as [[? ?]|]; discriminate. }
  unfold w in R. rewrite (token_short c r _ C) in R. cbn [fst snd] in R.
  destruct (full =? String "-" (String c ""))%string eqn:X; [|discriminate]. apply String.eqb_eq in X. injection R as -> <-.
  exists c. split; [reflexivity|]. split; [apply table; rewrite <- X; exact I|]. split; [exact N|]. split; [exact PE|].
  intros full' o' F' B'. apply table in F'.
  assert (M' : reading_matches w (full', o') = true) by (apply (matches_short c r _ C); right; exact B').
  pose proof (U _ F' M') as Q. apply (N o). apply table in F'. rewrite X in Q. injection Q as -> ->.
  destruct B' as (t & B'). unfold w in B'. cbn in B'. injection B' as B'. destruct r; [|discriminate B']. exact F'.
Qed.

Lemma classify_letters_complete : forall w o r, letters_word w o r -> w <> "--" /\ classify w = Ok (TLetters o r).
Proof.
  intros w o r (c & E & F & N & PE & NB).
  assert (C : c <> "-"%char) by (intros ->; exact (name_not_short "-"%char eq_refl o F)).
  split; [rewrite E; intros X; apply C; congruence|].
  rewrite E, classify_hyphen, <- E. rewrite (proj2 (option_named_none_spec w) N).
  assert (G : classify_rest w = Ok (TLetters o r)).
  { pose proof (proj2 (table _ _) F) as I.
    assert (M : reading_matches w (String "-" (String c ""), o) = true) by (rewrite E; apply (matches_short c r _ C); left; reflexivity).
    assert (UM : forall e, In e options -> reading_matches w e = true -> e = (String "-" (String c ""), o)).
    { intros (f', o') I' M'. apply fst_inj; [exact I'|exact I|]. rewrite E in M'. apply (matches_short c r _ C) in M'.
      cbn [fst] in *. destruct M' as [M'|M']; [exact M'|]. exfalso. rewrite <- E in M'. exact (NB f' o' (proj1 (table f' o') I') M'). }
    destruct (classify_rest_cases w) as [(Z & _)|[(e & Ie & Me & _ & R)|(a & b & Ia & Ib & Ma & Mb & D & _)]].
    - rewrite (Z _ I) in M. discriminate.
    - rewrite R, (UM e Ie Me), E, (token_short c r _ C). cbn [fst snd]. rewrite String.eqb_refl. reflexivity.
    - exfalso. apply D. rewrite (UM a Ia Ma), (UM b Ib Mb). reflexivity. }
  destruct (partition_eq w) as [[p v]|] eqn:P; [|exact G]. apply partition_some in P. destruct P as [P NP].
  rewrite (proj2 (option_named_none_spec p) (PE p v P NP)). exact G.
Qed.

(** Arguments. *)
Lemma unlike_no_reading : forall c r, let w := String "-" (String c r) in
  unlike_options w <-> (no_name w /\ (forall p v, w = p ++ "=" ++ v -> has_char "="%char p = false -> no_name p) /\
                        forall e, In e options -> reading_matches w e = false).
Proof.
  intros c r w. split.
  - intros (A & B & C). split; [intros o F; exact (A w o F (begins_refl w))|]. split.
    + intros p v E NE o F. destruct (B p v p o E NE F) as [X _]. apply X. reflexivity.
    + intros (full, o) I. pose proof (proj1 (table full o) I) as F.
      destruct (reading_matches w (full, o)) eqn:M; [|reflexivity]. exfalso. destruct (ascii_dec c "-"%char) as [D|D].
      * subst c. assert (L : starts "--" w = true) by (apply starts_begins; exists r; reflexivity).
        apply (matches_long w _ L) in M. cbn [fst] in M. unfold before_eq in M.
        destruct (partition_eq w) as [[p v]|] eqn:P; [|exact (A full o F M)]. apply partition_some in P. destruct P as [P NP].
        destruct (B p v full o P NP F) as [_ X]. apply X. split; [|exact M].
        destruct p as [|x [|y q]]; [discriminate P|injection P as _ P; discriminate P|].
        cbn in P. injection P as <- <- _. exists q. reflexivity.
      * apply (matches_short c r _ D) in M. cbn [fst] in M. destruct M as [M|M]; [|exact (A full o F M)].
        rewrite M in F. exact (C c r eq_refl o F).
  - intros (N & PE & Z). split; [|split].
    + intros full o F B. apply table in F. pose proof (Z _ F) as M. assert (X : reading_matches w (full, o) = true); [|congruence].
      assert (NE : has_char "="%char w = false) by (apply table in F; exact (begins_no_equals w full B (name_no_equals full o F))).
      destruct (ascii_dec c "-"%char) as [D|D].
      * subst c. apply matches_long; [apply starts_begins; exists r; reflexivity|]. rewrite (before_none w NE). exact B.
      * apply (matches_short c r _ D). right. exact B.
    + intros p v full o E NE F. split; [intros ->; exact (PE p v E NE o F)|]. intros (L & B). apply table in F.
      pose proof (Z _ F) as M. assert (X : reading_matches w (full, o) = true); [|congruence].
      assert (LW : starts "--" w = true).
      { apply starts_begins. destruct L as (t & L). exists (t ++ "=" ++ v). rewrite E, L. reflexivity. }
      apply (matches_long w _ LW). rewrite E, (proj2 (before_some p v NE)). exact B.
    + intros c' r' E o F. unfold w in E. injection E as <- <-. destruct (ascii_dec c "-"%char) as [D|D];
        [exact (name_not_short c D o F)|].
      apply table in F. pose proof (Z _ F) as M. assert (X : reading_matches w (String "-" (String c ""), o) = true); [|congruence].
      apply (matches_short c r _ D). left. reflexivity.
Qed.

Lemma negative_unlike : forall w, negative w -> unlike_options w.
Proof.
  intros w H. destruct (negative_shape w H) as (c & r & E & C & NE). split; [|split].
  - intros full o F. rewrite E. apply (name_not_negative c r full o C F).
  - intros p v full o E' NP F. rewrite E', has_equals in NE. discriminate.
  - intros c' r' E' o F. rewrite E in E'. injection E' as <- <-. destruct (name_not_negative c r _ o C F) as [_ X].
    apply X. reflexivity.
Qed.

Lemma classify_word_sound : forall w, w <> "--" -> classify w = Ok TWord -> word w.
Proof.
  intros w ND H. destruct (starts "-" w) eqn:SW; [|left; apply not_starting; exact SW].
  apply begins_hyphen in SW. destruct SW as (s & ->). destruct s as [|c r]; [right; left; reflexivity|].
  rewrite classify_hyphen in H. set (w := String "-" (String c r)) in *.
  destruct (option_named w options) as [o'|] eqn:N; [discriminate|]. apply option_named_none_spec in N.
  assert (R : classify_rest w = Ok TWord /\ forall p v, w = p ++ "=" ++ v -> has_char "="%char p = false -> no_name p).
  { destruct (partition_eq w) as [[p v]|] eqn:P.
    - destruct (option_named p options) eqn:Np; [discriminate|]. split; [exact H|]. intros p' v' E NE.
      assert (Q : partition_eq w = Some (p', v')) by (apply partition_some; split; assumption). rewrite P in Q.
      apply Some_inj in Q. apply pair_equal_spec in Q. destruct Q as [<- _]. apply option_named_none_spec. exact Np.
    - split; [exact H|]. intros p' v' E NE. apply partition_none in P. rewrite E, has_equals in P. discriminate. }
  destruct R as [R PE]. clear H.
  destruct (classify_rest_cases w) as [(Z & E)|[(e & I & M & U & E)|(a & b & _ & _ & _ & _ & _ & E)]]; rewrite E in R; [|clear E|discriminate].
  - right. right. destruct (negative_number w) eqn:NN; [left; apply negative_number_spec; exact NN|]. right.
    destruct (has_char " "%char w) eqn:SP; [|discriminate]. split; [exact ND|]. split; [reflexivity|].
    apply unlike_no_reading. repeat split; assumption.
  - apply Ok_inj in R. unfold reading_token in R. destruct (starts "--" w); [destruct (partition_eq w) as [[? ?]|]; discriminate|].
    destruct (_ =? _)%string in R; discriminate.
Qed.

Lemma classify_word_complete : forall w, word w -> w <> "--" /\ classify w = Ok TWord.
Proof.
  intros w [H|[->|H]].
  - split; [intros ->; apply H; exists "-"; reflexivity|]. apply not_starting in H. unfold classify. rewrite H. reflexivity.
  - split; [discriminate|vm_compute; reflexivity].
  - assert (G : w <> "--" /\ unlike_options w /\ (negative_number w = true \/ has_char " "%char w = true)).
    { destruct H as [H|(A & B & C)]; [|tauto]. split; [|split; [exact (negative_unlike w H)|left; apply negative_number_spec; exact H]].
      destruct (negative_shape w H) as (c & r & E & C & _). rewrite E. intros X. injection X as -> _. destruct C as [C|C]; discriminate C. }
    destruct G as (ND & UL & NS). split; [exact ND|].
    destruct (starts "-" w) eqn:SW; [|unfold classify; rewrite SW; reflexivity].
    apply begins_hyphen in SW. destruct SW as (s & E). destruct s as [|c r]; [rewrite E; vm_compute; reflexivity|].
    rewrite E in UL. apply unlike_no_reading in UL. rewrite <- E in UL. destruct UL as (N & PE & Z).
    rewrite E, classify_hyphen, <- E. rewrite (proj2 (option_named_none_spec w) N).
    assert (R : classify_rest w = Ok TWord).
    { destruct (classify_rest_cases w) as [(_ & R)|[(e & I & M & _)|(a & b & I & _ & M & _)]].
      - rewrite R. destruct NS as [->| ->]; [reflexivity|]. destruct (negative_number w); reflexivity.
      - rewrite (Z e I) in M. discriminate.
      - rewrite (Z a I) in M. discriminate. }
    destruct (partition_eq w) as [[p v]|] eqn:P; [|exact R]. apply partition_some in P. destruct P as [P NP].
    rewrite (proj2 (option_named_none_spec p) (PE p v P NP)). exact R.
Qed.

(** ** The effect of the options *)

Definition apply_use (n : namespace) (u : use) : namespace :=
  match u with
  | UFlag f => Namespace (f :: n_flags n) (n_config n) (n_config_analysis n) (n_setup n) (n_cores n) (n_channels n)
  | UConfig ws => Namespace (n_flags n) (Some ws) (n_config_analysis n) (n_setup n) (n_cores n) (n_channels n)
  | UConfigAnalysis ws => Namespace (n_flags n) (n_config n) (Some ws) (n_setup n) (n_cores n) (n_channels n)
  | USetup p => Namespace (n_flags n) (n_config n) (n_config_analysis n) (Some p) (n_cores n) (n_channels n)
  | UCores k => Namespace (n_flags n) (n_config n) (n_config_analysis n) (n_setup n) (Some k) (n_channels n)
  | UChannels l => Namespace (n_flags n) (n_config n) (n_config_analysis n) (n_setup n) (n_cores n) (n_channels n ++ l)%list
  end.

Definition apply_uses (us : list use) (n : namespace) : namespace := fold_left apply_use us n.

Lemma int_arg_ok : forall t n, int_arg t = Ok n <-> int_of_str t = Ok n.
Proof. intros t n. unfold int_arg. destruct (int_of_str t); split; intros H; try discriminate; exact H. Qed.

Lemma ints_ok : forall ws l, mapM int_arg ws = Ok l <-> Forall2 (fun t n => int_of_str t = Ok n) ws l.
Proof.
  induction ws as [|t ws IH]; intros l.
  - split; [intros H; apply Ok_inj in H; subst l; constructor|]. intros H. inversion H. reflexivity.
  - cbn [mapM]. split.
    + destruct (int_arg t) as [x|] eqn:E; [|discriminate]. cbn [bind]. destruct (mapM int_arg ws) as [l'|] eqn:M; [|discriminate].
      cbn [bind]. intros H. apply Ok_inj in H. subst l. constructor; [apply int_arg_ok; exact E|apply IH; reflexivity].
    + intros H. inversion H; subst. rewrite (proj2 (int_arg_ok t y)) by assumption. cbn [bind].
      rewrite (proj2 (IH l') ltac:(assumption)). reflexivity.
Qed.

Lemma take_spec : forall o ws n n', take o ws n = Ok n' <-> exists u, used o ws u /\ n' = apply_use n u.
Proof.
  intros o ws n n'. destruct o as [|f| | | | |]; cbn [take used].
  - split; [discriminate|]. intros (u & [] & _).
  - destruct ws as [|x ws]; split.
    + intros H. apply Ok_inj in H. subst n'. exists (UFlag f). repeat split.
    + intros (u & (_ & ->) & ->). reflexivity.
    + discriminate.
    + intros (u & (E & _) & _). discriminate E.
  - split; [intros H; apply Ok_inj in H; subst n'; eexists; split; reflexivity|]. intros (u & -> & ->). reflexivity.
  - split; [intros H; apply Ok_inj in H; subst n'; eexists; split; reflexivity|]. intros (u & -> & ->). reflexivity.
  - split.
    + destruct ws as [|p [|x ws]]; try discriminate. intros H. apply Ok_inj in H. subst n'. exists (USetup p).
      split; [|reflexivity]. exists p. split; reflexivity.
    + intros (u & (p & -> & ->) & ->). reflexivity.
  - split.
    + destruct ws as [|t [|x ws]]; try discriminate. destruct (int_arg t) as [k|] eqn:E; [|discriminate]. cbn [bind].
      intros H. apply Ok_inj in H. subst n'. exists (UCores k). split; [|reflexivity]. exists t, k.
      split; [reflexivity|]. split; [apply int_arg_ok; exact E|reflexivity].
    + intros (u & (t & k & -> & E & ->) & ->). rewrite (proj2 (int_arg_ok t k) E). reflexivity.
  - split.
    + destruct ws as [|t ws]; [discriminate|]. destruct (mapM int_arg (t :: ws)) as [l|] eqn:E; [|discriminate]. cbn [bind].
      intros H. apply Ok_inj in H. subst n'. exists (UChannels l). split; [|reflexivity]. split; [discriminate|].
      exists l. split; [apply ints_ok; exact E|reflexivity].
    + intros (u & (N & l & F & ->) & ->). destruct ws as [|t ws]; [contradiction|].
      rewrite (proj2 (ints_ok (t :: ws) l) F). reflexivity.
Qed.

(** One-letter options are flags. *)
Lemma letter_flag : forall c o, is_name (String "-" (String c "")) o -> o = OHelp \/ exists f, o = OFlag f.
Proof.
  intros c o H. apply table in H. unfold options in H. cbn [In] in H.
  repeat (destruct H as [H|H]; [inversion H; subst; eauto|]). destruct H.
Qed.

Lemma take_letter : forall c o n n', is_name (String "-" (String c "")) o -> take o [] n = Ok n' ->
  exists f, o = OFlag f /\ n' = apply_use n (UFlag f).
Proof.
  intros c o n n' H T. destruct (letter_flag c o H) as [->|(f & ->)]; [discriminate|]. exists f. split; [reflexivity|].
  apply take_spec in T. destruct T as (u & (_ & ->) & ->). reflexivity.
Qed.

Lemma take_letters_spec : forall s n n', take_letters s n = Ok n' <-> exists fs, flags_of s fs /\ n' = apply_uses (map UFlag fs) n.
Proof.
  induction s as [|c s IH]; intros n n'.
  - cbn [take_letters]. split.
    + intros H. apply Ok_inj in H. subst n'. exists []. split; [exact I|reflexivity].
    + intros ([|f fs] & F & ->); [reflexivity|destruct F].
  - cbn [take_letters]. split.
    + destruct (option_named _ options) as [o|] eqn:N; [|discriminate]. apply option_named_some_spec in N.
      destruct (take o [] n) as [n1|] eqn:T; [|discriminate]. cbn [bind]. intros H. apply IH in H. destruct H as (fs & F & ->).
      destruct (take_letter c o n n1 N T) as (f & -> & ->). exists (f :: fs). split; [split; assumption|reflexivity].
    + intros ([|f fs] & F & ->); [destruct F|]. destruct F as [N F]. rewrite (proj2 (option_named_some_spec _ _) N).
      cbn [take bind]. apply IH. exists fs. split; [exact F|reflexivity].
Qed.

Lemma flags_of_length : forall s fs, flags_of s fs -> List.length fs = String.length s.
Proof.
  induction s as [|c s IH]; intros [|f fs] H; try destruct H; [reflexivity|]. cbn. f_equal. apply IH. assumption.
Qed.

Lemma flags_of_no_equals : forall s fs, flags_of s fs -> has_char "="%char s = false.
Proof.
  induction s as [|c s IH]; intros [|f fs] H; try (destruct H; fail); [reflexivity|]. destruct H as [N H]. cbn [has_char].
  rewrite (IH fs H), orb_false_r. apply name_no_equals in N. cbn [has_char] in N. rewrite orb_false_r in N. exact N.
Qed.

(** [consume] for one group of words. *)
Lemma consume_sound : forall w t ws n n', w <> "--" -> classify w = Ok t -> Forall word ws -> consume (t, ws) n = Ok n' ->
  exists us, reads (w :: ws) us /\ n' = apply_uses us n.
Proof.
  intros w t ws n n' ND C W H. destruct t as [| |o|o v|o r|]; try discriminate; cbn [consume] in H.
  - apply take_spec in H. destruct H as (u & U & ->). exists [u]. split; [|reflexivity].
    exact (reads_words w o ws u (classify_option_sound w o C) W U).
  - apply classify_equals_sound in C. destruct C as (p & -> & NE & S).
    assert (G : take o [v] n = Ok n' /\ ws = []).
    { destruct o; try discriminate H; destruct ws; try discriminate H; split; try exact H; reflexivity. }
    destruct G as [G ->]. apply take_spec in G. destruct G as (u & U & ->). exists [u]. split; [|reflexivity].
    exact (reads_equals p v o u S NE U).
  - destruct ws; [|discriminate]. destruct (classify_letters_sound w o r C) as (c & E & F & N & _ & NB).
    destruct (take o [] n) as [n1|] eqn:T; [|discriminate]. cbn [bind] in H. apply take_letters_spec in H.
    destruct H as (fs & FL & ->). destruct (take_letter c o n n1 F T) as (f & -> & ->).
    exists (map UFlag (f :: fs)). split; [|reflexivity].
    assert (E' : w = "-" ++ String c r) by (rewrite E; reflexivity). rewrite E' in N, NB |- *. apply reads_letters; [| |exact N|exact NB].
    + cbn [List.length]. rewrite (flags_of_length r fs FL). destruct r; [|cbn; lia]. exfalso. exact (N _ F).
    + split; assumption.
Qed.

Definition is_option (t : token) : Prop := t <> TWord /\ t <> TDashes.

Lemma consume_complete : forall g us n, reads g us ->
  exists w ws t, g = w :: ws /\ w <> "--" /\ classify w = Ok t /\ is_option t /\ Forall word ws /\
    consume (t, ws) n = Ok (apply_uses us n).
Proof.
  intros g us n H. destruct H as [w o ws u S W U|p v o u S NE U|s fs L FL N NB].
  - destruct (classify_option_complete w o S) as [ND C]. exists w, ws, (TOption o). repeat split; try assumption; try discriminate.
    cbn [consume]. apply take_spec. exists u. split; [exact U|reflexivity].
  - destruct (classify_equals_complete p v o S NE) as [ND C]. exists (p ++ "=" ++ v), [], (TEquals o v).
    repeat split; try assumption; try discriminate; [constructor|].
    assert (T : take o [v] n = Ok (apply_use n u)) by (apply take_spec; exists u; split; [exact U|reflexivity]).
    cbn [consume]. destruct o; try exact T.
  - destruct s as [|c r]; [destruct fs; [cbn in L; lia|destruct FL]|]. destruct fs as [|f fs]; [destruct FL|].
    pose proof (flags_of_no_equals _ _ FL) as NE. destruct FL as [F FL].
    assert (LW : letters_word ("-" ++ String c r) (OFlag f) r).
    { exists c. split; [reflexivity|]. split; [exact F|]. split; [exact N|]. split; [|exact NB].
      intros p v E _. exfalso. assert (X : has_char "="%char ("-" ++ String c r) = true) by (rewrite E; apply has_equals).
      change (has_char "="%char (String c r) = true) in X. congruence. }
    destruct (classify_letters_complete _ _ _ LW) as [ND C]. exists ("-" ++ String c r), [], (TLetters (OFlag f) r).
    repeat split; try assumption; try discriminate; [constructor|].
    cbn [consume take bind]. apply take_letters_spec. exists fs. split; [exact FL|reflexivity].
Qed.

(** ** Splitting the command line *)

Definition flat (l : list (string * (token * list string))) : list string :=
  flat_map (fun x => fst x :: snd (snd x)) l.

Definition well_marked (x : string * (token * list string)) : Prop :=
  fst x <> "--" /\ classify (fst x) = Ok (fst (snd x)) /\ is_option (fst (snd x)) /\ Forall word (snd (snd x)).

Lemma mark_groups_sound : forall argv l lead gs, mark argv = Ok l -> groups l = (lead, gs) ->
  (forall g, In g gs -> fst g <> TDashes) ->
  exists xs, gs = map snd xs /\ argv = (lead ++ flat xs)%list /\ Forall well_marked xs /\ Forall word lead.
Proof.
  induction argv as [|w argv IH]; intros l lead gs M G ND.
  - cbn in M. apply Ok_inj in M. subst l. cbn in G. apply pair_equal_spec in G. destruct G as [<- <-].
    exists []. repeat split; constructor.
  - cbn [mark] in M. destruct (w =? "--")%string eqn:E.
    + apply Ok_inj in M. subst l. cbn [groups] in G. destruct (groups (map (fun x => (x, TWord)) argv)) as [a b].
      apply pair_equal_spec in G. destruct G as [_ <-]. exfalso. apply (ND (TDashes, a)); [left; reflexivity|reflexivity].
    + apply String.eqb_neq in E. destruct (classify w) as [t|] eqn:C; [|discriminate]. cbn [bind] in M.
      destruct (mark argv) as [l'|] eqn:M'; [|discriminate]. cbn [bind] in M. apply Ok_inj in M. subst l.
      cbn [groups] in G. destruct (groups l') as [lead' gs'] eqn:G'.
      assert (K : (t = TWord /\ lead = w :: lead' /\ gs = gs') \/ (t <> TWord /\ lead = [] /\ gs = (t, lead') :: gs')).
      { destruct t; apply pair_equal_spec in G; destruct G as [<- <-]; try (left; repeat split; fail); right; repeat split; discriminate. }
      clear G. destruct K as [(-> & -> & ->)|(NW & -> & ->)].
      * destruct (IH l' lead' gs' eq_refl G' ND) as (xs & A & B & W & L). exists xs. split; [exact A|]. split; [rewrite B; reflexivity|].
        split; [exact W|]. constructor; [exact (classify_word_sound w E C)|exact L].
      * destruct (IH l' lead' gs' eq_refl G' (fun g H => ND g (or_intror H))) as (xs & A & B & W & L).
        exists ((w, (t, lead')) :: xs). split; [cbn; rewrite A; reflexivity|]. split; [rewrite B; reflexivity|]. split; [|constructor].
        constructor; [|exact W]. split; [exact E|]. split; [exact C|]. split; [|exact L]. split; [exact NW|].
        cbn [fst snd]. exact (ND (t, lead') (or_introl eq_refl)).
Qed.

Lemma mark_words : forall ws argv l lead gs, Forall word ws -> mark argv = Ok l -> groups l = (lead, gs) ->
  exists l', mark (ws ++ argv)%list = Ok l' /\ groups l' = ((ws ++ lead)%list, gs).
Proof.
  induction ws as [|w ws IH]; intros argv l lead gs W M G; [exists l; split; assumption|].
  inversion W as [|? ? Hw Hws]; subst. destruct (IH argv l lead gs Hws M G) as (l' & M' & G').
  destruct (classify_word_complete w Hw) as [ND C]. exists ((w, TWord) :: l'). cbn [app mark].
  apply String.eqb_neq in ND. rewrite ND, C. cbn [bind]. rewrite M'. split; [reflexivity|]. cbn [groups]. rewrite G'. reflexivity.
Qed.

Lemma mark_groups_complete : forall xs, Forall well_marked xs ->
  exists l, mark (flat xs) = Ok l /\ groups l = ([], map snd xs).
Proof.
  induction xs as [|(w, (t, ws)) xs IH]; intros H; [exists []; split; reflexivity|].
  inversion H as [|? ? Hx Hxs]; subst. destruct (IH Hxs) as (l & M & G). destruct Hx as (ND & C & (NW & NDS) & W). cbn [fst snd] in *.
  destruct (mark_words ws (flat xs) l [] (map snd xs) W M G) as (l' & M' & G'). exists ((w, t) :: l').
  cbn [flat flat_map fst snd app mark]. apply String.eqb_neq in ND. rewrite ND, C. cbn [bind].
  change (flat_map (fun x => fst x :: snd (snd x)) xs) with (flat xs). rewrite M'. split; [reflexivity|].
  cbn [groups map snd]. rewrite G'. rewrite app_nil_r. destruct t; try reflexivity. contradiction.
Qed.

(** Sequences of groups. *)
Definition readable (argv : list string) (us : list use) : Prop :=
  exists gs, Forall (fun g => reads (fst g) (snd g)) gs /\ argv = concat (map fst gs) /\ us = concat (map snd gs).

Lemma consume_all_no_dashes : forall gs n n', consume_all gs n = Ok n' -> forall g, In g gs -> fst g <> TDashes.
Proof.
  induction gs as [|(t, ws) gs IH]; intros n n' H g I; [destruct I|]. cbn [consume_all] in H.
  destruct (consume (t, ws) n) as [n1|] eqn:E; [|discriminate]. cbn [bind] in H. destruct I as [<-|I]; [|exact (IH n1 n' H g I)].
  cbn [fst]. intros ->. discriminate E.
Qed.

Lemma consume_all_sound : forall xs n n', Forall well_marked xs -> consume_all (map snd xs) n = Ok n' ->
  exists us, readable (flat xs) us /\ n' = apply_uses us n.
Proof.
  induction xs as [|(w, (t, ws)) xs IH]; intros n n' W H.
  - cbn in H. apply Ok_inj in H. subst n'. exists []. split; [|reflexivity]. exists []. repeat split; constructor.
  - inversion W as [|? ? Hx Hxs]; subst. destruct Hx as (ND & C & _ & Hw). cbn [fst snd] in *. cbn [map snd consume_all] in H.
    destruct (consume (t, ws) n) as [n1|] eqn:E; [|discriminate]. cbn [bind] in H.
    destruct (consume_sound w t ws n n1 ND C Hw E) as (us & R & ->). destruct (IH _ n' Hxs H) as (us' & (gs & F & A & B) & ->).
    exists (us ++ us')%list. split; [|unfold apply_uses; rewrite fold_left_app; reflexivity].
    exists ((w :: ws, us) :: gs). split; [constructor; assumption|]. cbn [map concat fst snd flat flat_map].
    change (flat_map (fun x => fst x :: snd (snd x)) xs) with (flat xs). rewrite A, B. split; reflexivity.
Qed.

Lemma consume_all_complete : forall gs n, Forall (fun g => reads (fst g) (snd g)) gs ->
  exists xs, Forall well_marked xs /\ flat xs = concat (map fst gs) /\
    consume_all (map snd xs) n = Ok (apply_uses (concat (map snd gs)) n).
Proof.
  induction gs as [|(g, us) gs IH]; intros n H; [exists []; repeat split; constructor|].
  inversion H as [|? ? Hg Hgs]; subst. cbn [fst snd] in Hg. destruct (consume_complete g us n Hg) as (w & ws & t & E & ND & C & O & W & K).
  destruct (IH (apply_uses us n) Hgs) as (xs & A & B & D). exists ((w, (t, ws)) :: xs).
  split; [constructor; [split; [exact ND|]; split; [exact C|]; split; assumption|exact A]|].
  cbn [flat flat_map map concat fst snd consume_all]. change (flat_map (fun x => fst x :: snd (snd x)) xs) with (flat xs).
  rewrite B, E. split; [reflexivity|]. rewrite K. cbn [bind]. rewrite D. unfold apply_uses. rewrite fold_left_app. reflexivity.
Qed.

Lemma parse_readable : forall argv n, parse argv = Ok n <-> exists us, readable argv us /\ n = apply_uses us defaults.
Proof.
  intros argv n. unfold parse. split.
  - destruct (mark argv) as [l|] eqn:M; [|discriminate]. cbn [bind]. destruct (groups l) as [lead gs] eqn:G.
    destruct lead; [|discriminate]. intros H.
    destruct (mark_groups_sound argv l [] gs M G (consume_all_no_dashes gs _ _ H)) as (xs & -> & -> & W & _).
    exact (consume_all_sound xs defaults n W H).
  - intros (us & (gs & F & -> & ->) & ->). destruct (consume_all_complete gs defaults F) as (xs & W & <- & K).
    destruct (mark_groups_complete xs W) as (l & M & G). rewrite M. cbn [bind]. rewrite G. exact K.
Qed.

(** The parsed options. *)
Lemma flags_applied : forall us n f, is_set (apply_uses us n) f = given f us || is_set n f.
Proof.
  induction us as [|u us IH]; intros n f; [reflexivity|]. unfold apply_uses in *. cbn [fold_left given existsb]. rewrite IH.
  fold (given f us). destruct u as [g| | | | |]; cbn [apply_use]; try reflexivity.
  unfold is_set at 1. cbn [n_flags]. unfold is_set. destruct (flag_eq_dec f g) as [->|D]; cbn [orb].
  - destruct (in_dec flag_eq_dec g (g :: n_flags n)) as [_|N]; [apply orb_true_r|exfalso; apply N; left; reflexivity].
  - destruct (in_dec flag_eq_dec f (g :: n_flags n)) as [H|N], (in_dec flag_eq_dec f (n_flags n)) as [H'|N']; try reflexivity.
    + exfalso. destruct H as [H|H]; [congruence|contradiction].
    + exfalso. apply N. right. exact H'.
Qed.

Lemma last_applied : forall {A} (v : use -> option A) (get : namespace -> option A),
  (forall n u, get (apply_use n u) = match v u with Some x => Some x | None => get n end) ->
  forall us n, get (apply_uses us n) = fold_left (fun acc u => match v u with Some x => Some x | None => acc end) us (get n).
Proof.
  intros A v get H. unfold apply_uses. induction us as [|u us IH]; intros n; [reflexivity|]. cbn [fold_left]. rewrite IH, H. reflexivity.
Qed.

Lemma config_analysis_applied : forall us n,
  match n_config_analysis (apply_uses us n) with Some _ => true | None => false end =
  existsb (fun u => match u with UConfigAnalysis _ => true | _ => false end) us ||
  match n_config_analysis n with Some _ => true | None => false end.
Proof.
  unfold apply_uses. induction us as [|u us IH]; intros n; [reflexivity|]. cbn [fold_left existsb]. rewrite IH.
  destruct u; cbn [apply_use n_config_analysis orb]; try reflexivity. apply orb_true_r.
Qed.

Lemma channels_applied : forall us n, n_channels (apply_uses us n) = (n_channels n ++ flat_map channels_given us)%list.
Proof.
  unfold apply_uses. induction us as [|u us IH]; intros n; [symmetry; apply app_nil_r|]. cbn [fold_left flat_map]. rewrite IH.
  destruct u; cbn [apply_use n_channels channels_given app]; try reflexivity. symmetry. apply app_assoc.
Qed.

Lemma command_applied : forall us, cmd_of (apply_uses us defaults) = command us.
Proof.
  intros us. unfold cmd_of, command. rewrite !flags_applied.
  replace (fun f => is_set defaults f) with (fun _ : flag => false) by reflexivity.
  rewrite config_analysis_applied.
  rewrite (last_applied config_of n_config) by (intros n []; reflexivity).
  rewrite (last_applied setup_of n_setup) by (intros n []; reflexivity).
  rewrite (last_applied number_of n_cores) by (intros n []; reflexivity).
  cbn [is_set defaults n_flags n_config n_config_analysis n_setup n_cores in_dec].
  unfold is_set. cbn [defaults n_flags in_dec]. rewrite !orb_false_r. reflexivity.
Qed.

(** ** C96 *)

(** The accepted command lines are exactly those that can be read word by word as uses
    of options, and the parsed command line is what these uses mean. *)
Theorem C96_grammar : forall argv c channels,
  (exists n, parse argv = Ok n /\ cmd_of n = c /\ n_channels n = channels) <->
  (exists us, readable argv us /\ c = command us /\ channels = ([0; 1; 2] ++ flat_map channels_given us)%list).
Proof.
  intros argv c channels. split.
  - intros (n & P & <- & <-). apply parse_readable in P. destruct P as (us & R & ->). exists us. split; [exact R|].
    split; [apply command_applied|]. rewrite channels_applied. reflexivity.
  - intros (us & R & -> & ->). exists (apply_uses us defaults). split; [apply parse_readable; exists us; split; [exact R|reflexivity]|].
    split; [apply command_applied|]. rewrite channels_applied. reflexivity.
Qed.
Print Assumptions C96_grammar.
