(** Property C115: the capture time of a photo, and the numbers of the photos. *)
From Coq Require Import Ascii String List ZArith Lia Bool Sorted Permutation.
From Verif Require Import Base Str Substr Ini_Facts Calendar_Model Calendar_Props Renamer_Model Renamer_Props Capture_Model.
Import ListNotations.
Local Open Scope string_scope.
Local Open Scope Z_scope.

(** * The only way to read the text of a camera *)

(** The directive reads [v] up to the character [c], and no other way of reading
    it ends before [c] or a blank. *)
Definition only_b (d : directive) (s : string) (v : Z) (c : ascii) : bool :=
  long_enough d s &&
  match options d s with
  | (v', r) :: l => (v' =? v) && (r =? String c "")%string &&
      forallb (fun p => match snd p with
                        | String a _ => negb (Ascii.eqb a c) && negb (is_ws a)
                        | "" => false
                        end) l
  | [] => false
  end.

Lemma only_options : forall d s v c x, only_b d s v c = true ->
  exists l, options d (s ++ x) = (v, String c x) :: l /\
    Forall (fun p => exists a r, snd p = String a r /\ a <> c /\ is_ws a = false) l.
Proof.
  intros d s v c x H. unfold only_b in H. apply andb_true_iff in H as (Hl & H).
  rewrite options_app by exact Hl. destruct (options d s) as [|[v' r'] l]; [discriminate|].
  apply andb_true_iff in H as (H & Hf). apply andb_true_iff in H as (Hv & Hr).
  apply Z.eqb_eq in Hv. apply String.eqb_eq in Hr. subst v' r'.
  exists (map (fun p => (fst p, snd p ++ x)) l). split; [reflexivity|].
  apply Forall_forall. intros p Hp. apply in_map_iff in Hp as (q & <- & Hq).
  rewrite forallb_forall in Hf. specialize (Hf q Hq). destruct (snd q) as [|a r]; [discriminate|].
  apply andb_true_iff in Hf as (H1 & H2). apply negb_true_iff in H1, H2.
  exists a, (r ++ x). split; [reflexivity|]. split; [apply Ascii.eqb_neq; exact H1|exact H2].
Qed.

Lemma flat_map_none : forall {A B} (f : A -> list B) l, Forall (fun a => f a = []) l -> flat_map f l = [].
Proof. intros A B f l H. induction H as [|a l E H IH]; [reflexivity|]. cbn. rewrite E, IH. reflexivity. Qed.

Lemma only_lit : forall d f s v c x, only_b d s v c = true ->
  matches (Fld d :: Lit c :: f) (s ++ x) = map (fun m => (v :: fst m, snd m)) (matches f x).
Proof.
  intros d f s v c x H. destruct (only_options d s v c x H) as (l & E & F).
  cbn [matches]. rewrite E. cbn [flat_map fst snd]. rewrite Ascii.eqb_refl. rewrite flat_map_none; [apply app_nil_r|].
  rewrite Forall_forall in *. intros p Hp. destruct (F p Hp) as (a & r & -> & Ha & _).
  apply Ascii.eqb_neq in Ha. rewrite Ha. reflexivity.
Qed.

Lemma only_ws : forall d f s v x, only_b d s v " "%char = true -> blanks x = [] ->
  matches (Fld d :: Ws :: f) (s ++ x) = map (fun m => (v :: fst m, snd m)) (matches f x).
Proof.
  intros d f s v x H Hb. destruct (only_options d s v " "%char x H) as (l & E & F).
  cbn [matches]. rewrite E. cbn [flat_map fst snd]. cbn [blanks]. change (is_ws " "%char) with true. cbn iota.
  rewrite Hb. cbn [app flat_map]. rewrite app_nil_r. rewrite flat_map_none; [apply app_nil_r|].
  rewrite Forall_forall in *. intros p Hp. destruct (F p Hp) as (a & r & -> & _ & Ha).
  cbn [blanks]. rewrite Ha. reflexivity.
Qed.

Lemma only_all : forall d c lo hi (text : Z -> string),
  forallb (fun v => only_b d (text v ++ String c "") v c) (zrange lo (hi + 1)) = true ->
  forall v, lo <= v <= hi -> only_b d (text v ++ String c "") v c = true.
Proof. intros d c lo hi text H v Hv. rewrite forallb_forall in H. apply (H v). apply in_zrange_le, Hv. Qed.

Lemma only_year : forall v, 1 <= v <= 9999 -> only_b DYear (zfill 4 (str_of_Z v) ++ ":") v ":"%char = true.
Proof. refine (only_all DYear ":"%char 1 9999 (fun v => zfill 4 (str_of_Z v)) _). vm_compute. reflexivity. Qed.
Lemma only_month : forall v, 1 <= v <= 12 -> only_b DMonth (zfill 2 (str_of_Z v) ++ ":") v ":"%char = true.
Proof. refine (only_all DMonth ":"%char 1 12 (fun v => zfill 2 (str_of_Z v)) _). vm_compute. reflexivity. Qed.
Lemma only_day : forall v, 1 <= v <= 31 -> only_b DDay (zfill 2 (str_of_Z v) ++ " ") v " "%char = true.
Proof. refine (only_all DDay " "%char 1 31 (fun v => zfill 2 (str_of_Z v)) _). vm_compute. reflexivity. Qed.
Lemma only_hour : forall v, 0 <= v <= 23 -> only_b DHour (zfill 2 (str_of_Z v) ++ ":") v ":"%char = true.
Proof. refine (only_all DHour ":"%char 0 23 (fun v => zfill 2 (str_of_Z v)) _). vm_compute. reflexivity. Qed.
Lemma only_minute : forall v, 0 <= v <= 59 -> only_b DMinute (zfill 2 (str_of_Z v) ++ ":") v ":"%char = true.
Proof. refine (only_all DMinute ":"%char 0 59 (fun v => zfill 2 (str_of_Z v)) _). vm_compute. reflexivity. Qed.
Lemma only_second : forall v, 0 <= v <= 59 -> only_b DSecond (zfill 2 (str_of_Z v) ++ ".") v "."%char = true.
Proof. refine (only_all DSecond "."%char 0 59 (fun v => zfill 2 (str_of_Z v)) _). vm_compute. reflexivity. Qed.

Lemma dotted_match : forall t x, exists_in_calendar t ->
  matches (colon_format ++ [Lit "."%char])%list (exif_text t ++ "." ++ x) =
  [([year t; month t; day t; hour t; minute t; second t], x)].
Proof.
  intros t x (Hy & Hm & Hd & Hh & Hmi & Hs). pose proof (month_length_pos (year t) (month t)).
  replace (exif_text t ++ "." ++ x) with
    ((zfill 4 (str_of_Z (year t)) ++ ":") ++ (zfill 2 (str_of_Z (month t)) ++ ":") ++ (zfill 2 (str_of_Z (day t)) ++ " ") ++
     (zfill 2 (str_of_Z (hour t)) ++ ":") ++ (zfill 2 (str_of_Z (minute t)) ++ ":") ++ (zfill 2 (str_of_Z (second t)) ++ ".") ++ x)
    by (unfold exif_text, colon_date, clock_text; rewrite !app_assoc_s; reflexivity).
  unfold colon_format, time_format. cbn [app].
  rewrite (only_lit DYear _ _ (year t)) by (apply only_year; exact Hy).
  rewrite (only_lit DMonth _ _ (month t)) by (apply only_month; exact Hm).
  rewrite (only_ws DDay _ _ (day t)).
  - rewrite (only_lit DHour _ _ (hour t)) by (apply only_hour; exact Hh).
    rewrite (only_lit DMinute _ _ (minute t)) by (apply only_minute; exact Hmi).
    rewrite (only_lit DSecond _ _ (second t)) by (apply only_second; exact Hs).
    reflexivity.
  - apply only_day. lia.
  - rewrite app_assoc_s. apply blanks_digit, two_digits_start. lia.
Qed.

(** * The fraction of a second *)

(** A text that can be a fraction: one to six digits. *)
Definition fraction (s : string) : Prop :=
  all_chars is_digit s = true /\ (1 <= String.length s <= 6)%nat.

Lemma runs_all : forall n s, all_chars is_digit s = true -> s <> "" -> (String.length s <= n)%nat ->
  exists l, digit_runs n s = (s, "") :: l.
Proof.
  induction n as [|n IH]; intros s Hd Hne Hl; destruct s as [|c s]; try congruence; [cbn in Hl; lia|].
  cbn in Hd. apply andb_true_iff in Hd as (Hc & Hd). cbn [digit_runs]. rewrite Hc.
  destruct (string_dec s "") as [->|Hs].
  - replace (digit_runs n "") with (@nil (string * string)) by (destruct n; reflexivity). eexists. reflexivity.
  - destruct (IH s Hd Hs) as (l & ->); [cbn in Hl; lia|]. eexists. reflexivity.
Qed.

Lemma runs_in : forall n s f r, In (f, r) (digit_runs n s) ->
  s = f ++ r /\ all_chars is_digit f = true /\ (1 <= String.length f <= n)%nat.
Proof.
  induction n as [|n IH]; intros s f r H; [destruct H|]. destruct s as [|c s]; [destruct H|].
  cbn [digit_runs] in H. destruct (is_digit c) eqn:Ec; [|destruct H].
  apply in_app_iff in H as [H|[H|[]]].
  - apply in_map_iff in H as ((f' & r') & E & H). cbn [fst snd] in E. injection E as <- <-.
    destruct (IH _ _ _ H) as (-> & Hd & Hl). cbn [append all_chars String.length]. rewrite Ec. repeat split; try assumption; lia.
  - injection H as <- <-. cbn. rewrite Ec. repeat split; lia.
Qed.

Lemma digits_val_tail : forall s acc b n k, all_chars is_digit s = true -> digits_val s acc b = Some n ->
  (s = "" -> b = true) -> digits_val (s ++ zeros k "") acc b = Some (n * 10 ^ Z.of_nat k).
Proof.
  induction s as [|c s IH]; intros acc b n k Hd H Hb.
  - cbn in H. rewrite (Hb eq_refl) in *. cbn [append]. injection H as ->. revert n. clear.
    induction k as [|k IH]; intros n; [cbn; f_equal; lia|].
    cbn [zeros]. rewrite digits_val_cons. change (digit_val "0"%char) with (Some 0). cbn iota. rewrite IH.
    f_equal. replace (Z.of_nat (S k)) with (Z.of_nat k + 1) by lia. rewrite Z.pow_add_r by lia. lia.
  - cbn [append]. rewrite digits_val_cons in *. cbn in Hd. apply andb_true_iff in Hd as (Hc & Hd).
    unfold is_digit in Hc. destruct (digit_val c); [|discriminate]. apply IH; auto.
Qed.

Lemma digits_bound : forall s acc b n, all_chars is_digit s = true -> digits_val s acc b = Some n -> 0 <= acc ->
  acc * 10 ^ Z.of_nat (String.length s) <= n < (acc + 1) * 10 ^ Z.of_nat (String.length s).
Proof.
  induction s as [|c s IH]; intros acc b n Hd H Ha.
  - cbn in H. destruct b; [|discriminate]. injection H as <-. cbn. lia.
  - rewrite digits_val_cons in H. cbn in Hd. apply andb_true_iff in Hd as (Hc & Hd).
    unfold is_digit in Hc. destruct (digit_val c) as [v|] eqn:Ev; [|discriminate].
    assert (Hv : 0 <= v <= 9).
    { unfold digit_val in Ev. destruct (_ && _) eqn:E in Ev; [|discriminate]. apply andb_true_iff in E as (E1 & E2).
      apply Nat.leb_le in E1, E2. injection Ev as <-. lia. }
    specialize (IH _ _ _ Hd H ltac:(lia)). cbn [String.length].
    replace (Z.of_nat (S (String.length s))) with (Z.of_nat (String.length s) + 1) by lia.
    rewrite Z.pow_add_r by lia. change (10 ^ 1) with 10.
    pose proof (Z.pow_pos_nonneg 10 (Z.of_nat (String.length s)) ltac:(lia) ltac:(lia)). nia.
Qed.

Lemma int_digits : forall s, all_chars is_digit s = true -> s <> "" ->
  int_of_str s = match digits_val s 0 false with Some n => Ok n | None => Err ValueError end.
Proof.
  intros s Hd Hne. rewrite int_of_ints.
  - rewrite parse_signed_digits by assumption. reflexivity.
  - apply (all_chars_imp is_digit); [|exact Hd]. intros c H. unfold int_char. now rewrite H.
Qed.

Lemma digits_val_total : forall s acc b, all_chars is_digit s = true -> (s = "" -> b = true) ->
  exists n, digits_val s acc b = Some n.
Proof.
  induction s as [|c s IH]; intros acc b Hd Hb.
  - rewrite (Hb eq_refl). exists acc. reflexivity.
  - rewrite digits_val_cons. cbn in Hd. apply andb_true_iff in Hd as (Hc & Hd).
    unfold is_digit in Hc. destruct (digit_val c); [|discriminate]. apply IH; auto.
Qed.

Lemma microseconds_spec : forall s, fraction s ->
  exists n us, int_of_str s = Ok n /\ microseconds s = Ok us /\ us = n * 10 ^ Z.of_nat (6 - String.length s) /\
    0 <= n < 10 ^ Z.of_nat (String.length s).
Proof.
  intros s (Hd & Hl).
  assert (Hne : s <> "") by (intros ->; cbn in Hl; lia).
  destruct (digits_val_total s 0 false Hd) as (n & E); [congruence|].
  exists n, (n * 10 ^ Z.of_nat (6 - String.length s)). rewrite int_digits by assumption. rewrite E.
  split; [reflexivity|]. split; [|split; [reflexivity|]].
  - unfold microseconds. rewrite int_digits.
    + rewrite (digits_val_tail s 0 false n) by (try assumption; congruence). reflexivity.
    + rewrite all_chars_app, Hd. cbn [andb]. apply all_chars_zeros; reflexivity.
    + destruct s; [congruence|discriminate].
  - pose proof (digits_bound s 0 false n Hd E ltac:(lia)). lia.
Qed.

Lemma strptime_f_exif : forall t s, exists_in_calendar t -> fraction s ->
  exists us, microseconds s = Ok us /\
  strptime_f (exif_text t ++ "." ++ s) = Ok ([year t; month t; day t; hour t; minute t; second t], us).
Proof.
  intros t s Ht Hf. destruct (microseconds_spec s Hf) as (n & us & _ & Em & _ & _). exists us. split; [exact Em|].
  unfold strptime_f. rewrite dotted_match by exact Ht. cbn [flat_map fst snd].
  destruct Hf as (Hd & Hl). destruct (runs_all 6 s Hd) as (l & ->); [intros ->; cbn in Hl; lia|lia|].
  cbn [map app fst snd String.eqb]. rewrite Em. reflexivity.
Qed.

Lemma strptime_f_no_fraction : forall t s, exists_in_calendar t -> ~ fraction s ->
  exists e, strptime_f (exif_text t ++ "." ++ s) = Err e.
Proof.
  intros t s Ht Hf. unfold strptime_f. rewrite dotted_match by exact Ht. cbn [flat_map fst snd]. rewrite app_nil_r.
  destruct (digit_runs 6 s) as [|[f r] l] eqn:E; [eexists; reflexivity|]. cbn [map fst snd].
  destruct (runs_in 6 s f r) as (-> & Hd & Hl); [rewrite E; left; reflexivity|].
  destruct (String.eqb_spec r "") as [->|]; [|eexists; reflexivity].
  exfalso. apply Hf. rewrite app_nil_s. split; assumption.
Qed.

Lemma strptime_exif : forall t, exists_in_calendar t ->
  strptime colon_format (exif_text t) = Ok [year t; month t; day t; hour t; minute t; second t].
Proof.
  intros t (Hy & Hm & Hd & Hh & Hmi & Hs). pose proof (month_length_pos (year t) (month t)).
  apply strptime_first. unfold exif_text, colon_date. rewrite !app_assoc_s. unfold colon_format. cbn [app].
  eapply fm_fld; [apply read_year; exact Hy|]. apply fm_lit.
  eapply fm_fld; [apply read_month; exact Hm|]. apply fm_lit.
  eapply fm_fld; [apply read_day; lia|]. apply fm_time; assumption.
Qed.

Lemma moment_of_exif : forall t, exists_in_calendar t ->
  moment_of [year t; month t; day t; hour t; minute t; second t] = Ok t.
Proof. intros t H. cbn [moment_of]. rewrite <- (datetime_ok t H). destruct t; reflexivity. Qed.

(** * C115 *)

(** A photo with an EXIF date is read whatever its second entry says.  If that
    entry is a text of one to six digits it is the decimal fraction of the second;
    in all other cases - also when the entry is missing, which ends the program
    everywhere else - the photo counts as taken at the full second. *)
Theorem C115_capture_time : forall t sub, exists_in_calendar t ->
  exists us, capture (Ok (exif_text t)) sub = Ok (t, us) /\ 0 <= us < 1000000 /\
    (forall s, sub = Ok s -> fraction s ->
       exists n, int_of_str s = Ok n /\ us * 10 ^ Z.of_nat (String.length s) = n * 1000000) /\
    ((forall s, sub = Ok s -> ~ fraction s) -> us = 0).
Proof.
  intros t sub Ht.
  assert (P : capture (Ok (exif_text t)) sub =
    match bind sub (fun s => bind (strptime_f (exif_text t ++ "." ++ s)) (fun p =>
          bind (moment_of (fst p)) (fun t => Ok (t, snd p)))) with
    | Ok c => Ok c | Err _ => Ok (t, 0) end).
  { unfold capture. cbn [bind]. rewrite strptime_exif by exact Ht. cbn [bind]. rewrite moment_of_exif by exact Ht. reflexivity. }
  destruct sub as [s|e].
  - cbn [bind] in P.
    assert (D : fraction s \/ ~ fraction s).
    { unfold fraction. destruct (all_chars is_digit s); [|right; intros [? _]; discriminate].
      destruct (le_lt_dec 1 (String.length s)), (le_lt_dec (String.length s) 6); [left; auto|right; lia|right; lia|right; lia]. }
    destruct D as [D|D].
    + destruct (strptime_f_exif t s Ht D) as (us & Em & E). rewrite E in P. cbn [bind fst snd] in P.
      rewrite moment_of_exif in P by exact Ht. cbn [bind] in P.
      destruct (microseconds_spec s D) as (n & us' & E1 & E2 & E3 & E4). assert (E5 : us = n * 10 ^ Z.of_nat (6 - String.length s)) by congruence.
      exists us. split; [exact P|].
      assert (X : us * 10 ^ Z.of_nat (String.length s) = n * 1000000).
      { rewrite E5, <- Z.mul_assoc, <- Z.pow_add_r by lia. destruct D as (_ & Hl).
        replace (Z.of_nat (6 - String.length s) + Z.of_nat (String.length s)) with 6 by lia. reflexivity. }
      split; [|split].
      * pose proof (Z.pow_pos_nonneg 10 (Z.of_nat (String.length s)) ltac:(lia) ltac:(lia)). nia.
      * intros s' Es _. apply Ok_inj in Es. subst s'. exists n. split; assumption.
      * intros H. exfalso. exact (H s eq_refl D).
    + destruct (strptime_f_no_fraction t s Ht D) as (e & E). rewrite E in P. cbn [bind] in P.
      exists 0. split; [exact P|]. split; [lia|]. split; [|reflexivity].
      intros s' Es Hf. apply Ok_inj in Es. subst s'. contradiction.
  - cbn [bind] in P. exists 0. split; [exact P|]. split; [lia|]. split; [discriminate|reflexivity].
Qed.
Print Assumptions C115_capture_time.

Example C115_capture_example :
  let t := Moment 2018 11 27 15 36 7 in
  exif_text t = "2018:11:27 15:36:07" /\
  capture (Ok "2018:11:27 15:36:07") (Ok "5") = Ok (t, 500000) /\
  capture (Ok "2018:11:27 15:36:07") (Ok "05") = Ok (t, 50000) /\
  capture (Ok "2018:11:27 15:36:07") (Ok "05 ") = Ok (t, 0) /\
  capture (Ok "2018:11:27 15:36:07") (Err SystemExit) = Ok (t, 0) /\
  capture (Ok "2018:11:31 15:36:07") (Ok "05") = Err ValueError /\
  capture (Err SystemExit) (Ok "05") = Err SystemExit.
Proof. cbv zeta. do 6 (split; [vm_compute; reflexivity|]). reflexivity. Qed.

(** Nothing but dates of the calendar is read as capture time. *)
Theorem C115_only_dates : forall entry sub t us, capture entry sub = Ok (t, us) ->
  exists_in_calendar t /\
  exists text ta tb tc b th tm ts rest, entry = Ok text /\
    (text = ta ++ ":" ++ tb ++ ":" ++ tc ++ b ++ th ++ ":" ++ tm ++ ":" ++ ts /\ us = 0 /\ rest = "" \/
     exists s f, sub = Ok s /\ rest = "." ++ s /\ fraction f /\ microseconds f = Ok us /\
       text ++ rest = ta ++ ":" ++ tb ++ ":" ++ tc ++ b ++ th ++ ":" ++ tm ++ ":" ++ ts ++ "." ++ f) /\
    int_of_str ta = Ok (year t) /\ int_of_str tb = Ok (month t) /\ int_of_str tc = Ok (day t) /\
    b <> "" /\ all_chars is_ws b = true /\
    int_of_str th = Ok (hour t) /\ int_of_str tm = Ok (minute t) /\ int_of_str ts = Ok (second t).
Proof.
  intros entry sub t us H. unfold capture in H. destruct entry as [text|]; [|discriminate]. cbn [bind] in H.
  destruct (bind sub _) as [c|e] eqn:B.
  - apply Ok_inj in H. subst c. destruct sub as [s|]; [|discriminate]. cbn [bind] in B.
    destruct (strptime_f (text ++ "." ++ s)) as [[vs us']|] eqn:E; [|discriminate]. cbn [bind fst snd] in B.
    destruct (moment_of vs) as [t'|] eqn:M; [|discriminate]. cbn [bind] in B. apply Ok_inj in B.
    assert (t' = t) by congruence. assert (us' = us) by congruence. subst t' us'. clear B.
    unfold strptime_f in E. destruct (flat_map _ _) as [|[[vs' f] r] l] eqn:F in E; [discriminate|].
    destruct (String.eqb_spec r "") as [->|]; [|discriminate].
    destruct (microseconds f) as [us'|] eqn:Eu; [|discriminate]. cbn [bind] in E. apply Ok_inj in E.
    assert (vs' = vs) by congruence. assert (us' = us) by congruence. subst vs' us'. clear E.
    assert (I : In (vs, f, "") (flat_map (fun m => map (fun r => (fst m, fst r, snd r)) (digit_runs 6 (snd m)))
                 (matches (colon_format ++ [Lit "."%char])%list (text ++ "." ++ s)))) by (rewrite F; left; reflexivity).
    clear F l. apply in_flat_map in I as ((w & rest) & E & I). cbn [fst snd] in I.
    apply in_map_iff in I as ((f' & r') & X & I). cbn [fst snd] in X.
    assert (w = vs) by congruence. assert (f' = f) by congruence. assert (r' = "") by congruence. subst w f' r'. clear X.
    apply runs_in in I as (-> & Hd & Hl). rewrite app_nil_s in E.
    unfold colon_format, time_format in E. cbn [app] in E.
    apply matches_fld in E as (ta & s1 & v1 & w1 & E1 & I1 & -> & E).
    apply matches_lit in E as (s2 & -> & E). apply matches_fld in E as (tb & s3 & v2 & w2 & -> & I2 & -> & E).
    apply matches_lit in E as (s4 & -> & E). apply matches_fld in E as (tc & s5 & v3 & w3 & -> & I3 & -> & E).
    apply matches_ws in E as (b & s6 & -> & Hb & Hne & E).
    apply matches_fld in E as (th & s7 & v4 & w4 & -> & I4 & -> & E).
    apply matches_lit in E as (s8 & -> & E). apply matches_fld in E as (tm & s9 & v5 & w5 & -> & I5 & -> & E).
    apply matches_lit in E as (s10 & -> & E). apply matches_fld in E as (ts & s11 & v6 & w6 & -> & I6 & -> & E).
    apply matches_lit in E as (s12 & -> & E).
    destruct E as [E|[]]. assert (w6 = []) by congruence. assert (s12 = f) by congruence. subst w6 s12. clear E.
    cbn [moment_of] in M. apply datetime_inv in M as (Et & M). split; [rewrite Et; exact M|].
    exists text, ta, tb, tc, b, th, tm, ts, ("." ++ s). split; [reflexivity|].
    rewrite Et. cbn [year month day hour minute second].
    split; [right; exists s, f; split; [reflexivity|]; split; [reflexivity|]; split; [split; assumption|]; split; [exact Eu|exact E1]|].
    auto 10.
  - destruct (strptime colon_format text) as [vs|] eqn:E; [|discriminate]. cbn [bind] in H.
    destruct (moment_of vs) as [t'|] eqn:M; [|discriminate]. cbn [bind] in H. apply Ok_inj in H.
    assert (t' = t) by congruence. assert (us = 0) by congruence. subst t' us. clear H B.
    apply strptime_in in E. unfold colon_format, time_format in E. cbn [app] in E.
    apply matches_fld in E as (ta & s1 & v1 & w1 & E1 & I1 & -> & E).
    apply matches_lit in E as (s2 & -> & E). apply matches_fld in E as (tb & s3 & v2 & w2 & -> & I2 & -> & E).
    apply matches_lit in E as (s4 & -> & E). apply matches_fld in E as (tc & s5 & v3 & w3 & -> & I3 & -> & E).
    apply matches_ws in E as (b & s6 & -> & Hb & Hne & E).
    apply matches_fld in E as (th & s7 & v4 & w4 & -> & I4 & -> & E).
    apply matches_lit in E as (s8 & -> & E). apply matches_fld in E as (tm & s9 & v5 & w5 & -> & I5 & -> & E).
    apply matches_lit in E as (s10 & -> & E). apply matches_fld in E as (ts & s11 & v6 & w6 & -> & I6 & -> & E).
    destruct E as [E|[]]. assert (w6 = []) by congruence. assert (s11 = "") by congruence. subst w6 s11. clear E.
    cbn [moment_of] in M. apply datetime_inv in M as (Et & M). split; [rewrite Et; exact M|].
    exists text, ta, tb, tc, b, th, tm, ts, "". split; [reflexivity|]. rewrite app_nil_s in E1.
    rewrite Et. cbn [year month day hour minute second]. split; [left; auto|]. auto 10.
Qed.
Print Assumptions C115_only_dates.

(** The capture time in microseconds. *)
Definition instant (c : moment * Z) : Z := 1000000 * seconds (fst c) + snd c.

Lemma earlier_instant : forall a b, exists_in_calendar (fst a) -> exists_in_calendar (fst b) ->
  0 <= snd a < 1000000 -> 0 <= snd b < 1000000 ->
  (Renamer_Model.earlier (date_of_capture a) (date_of_capture b) <-> instant a < instant b).
Proof.
  intros [a ua] [b ub] Ha Hb. cbn [fst snd] in *. intros Hua Hub.
  destruct (C107_numbers_follow_the_calendar a b Ha Hb) as [L E].
  destruct (C107_numbers_follow_the_calendar b a Hb Ha) as [G _].
  unfold Renamer_Model.earlier, date_of_capture, instant. cbn [fst snd d_year d_month d_day d_time].
  destruct Ha as (_ & _ & _ & Ha). destruct Hb as (_ & _ & _ & Hb).
  destruct (Z.lt_trichotomy (seconds a) (seconds b)) as [H|[H|H]].
  - apply L in H as B. unfold before in B. lia.
  - apply E in H as ->. lia.
  - apply G in H as B. unfold before in B. lia.
Qed.

(** What [sort_values] promises: the same rows, no row before an earlier one. *)
Definition sorts_by_date (sort : list photo -> list photo) : Prop :=
  forall l, Permutation (sort l) l /\
            StronglySorted (fun p q => ~ Renamer_Model.earlier (p_date q) (p_date p)) (sort l).

(** The files found, each once. *)
Definition found (glob : string -> list string) (image_types : string) : list string :=
  dict_keys [] (flat_map glob (types_of image_types)).

Lemma dict_keys_spec : forall l seen x, In x (dict_keys seen l) <-> In x l /\ ~ In x seen.
Proof.
  induction l as [|y l IH]; intros seen x; cbn [dict_keys]; [cbn; tauto|].
  destruct (existsb (String.eqb y) seen) eqn:E.
  - apply existsb_exists in E as (z & Hz & Ez). apply String.eqb_eq in Ez. subst z. rewrite IH. cbn [In].
    split; [intros [A B]; auto|]. intros [[->|A] B]; [contradiction|auto].
  - assert (N : ~ In y seen).
    { intros H. assert (X : existsb (String.eqb y) seen = true); [|congruence].
      apply existsb_exists. exists y. split; [exact H|apply String.eqb_refl]. }
    cbn [In]. rewrite IH. cbn [In]. split.
    + intros [->|[A B]]; [auto|]. split; [auto|]. intros H. apply B. right. exact H.
    + intros [[->|A] B]; [auto|]. destruct (string_dec y x) as [->|D]; [auto|]. right. split; [exact A|]. intros [H|H]; auto.
Qed.

Lemma dict_keys_NoDup : forall l seen, NoDup (dict_keys seen l).
Proof.
  induction l as [|y l IH]; intros seen; cbn [dict_keys]; [constructor|].
  destruct (existsb _ seen); [apply IH|]. constructor; [|apply IH].
  rewrite dict_keys_spec. intros [_ H]. apply H. left. reflexivity.
Qed.

(** If the capture time of one of the images cannot be read, no file is touched. *)
Theorem C115_unreadable_date_renames_nothing :
  forall C sort (d : dir C) glob entry sub image_types raw_types name i e,
  In i (found glob image_types) -> capture (entry i) (sub i) = Err e ->
  exists e', photo_tool sort d glob entry sub image_types raw_types name = (d, Some e').
Proof.
  intros C sort d glob entry sub image_types raw_types name i e Hi He.
  unfold photo_tool, read_photos. fold (found glob image_types).
  assert (X : exists e', mapM (fun i => bind (capture (entry i) (sub i)) (fun c =>
     Ok (Photo i (date_of_capture c) (raw_partner d i (types_of raw_types))))) (found glob image_types) = Err e').
  { induction (found glob image_types) as [|x l IH]; [destruct Hi|]. cbn [mapM].
    destruct (capture (entry x) (sub x)) as [c|e1] eqn:Ec; [|eexists; reflexivity]. cbn [bind].
    destruct Hi as [->|Hi]; [congruence|]. destruct (IH Hi) as (e' & ->). eexists. reflexivity. }
  destruct X as (e' & ->). exists e'. reflexivity.
Qed.
Print Assumptions C115_unreadable_date_renames_nothing.

(** ** The numbers of the photos *)

Lemma stem_raw : forall a ty, has_char "."%char ty = false -> stem (a ++ "." ++ ty) = a.
Proof.
  intros a ty H. induction a as [|c a IH].
  - cbn [append stem]. rewrite H. reflexivity.
  - cbn [append stem]. change (String "." ty) with ("." ++ ty). rewrite Substr.has_char_app.
    replace (has_char "."%char ("." ++ ty)) with true by reflexivity. rewrite orb_true_r. cbn [negb].
    rewrite andb_false_r. f_equal. exact IH.
Qed.

Lemma extension_raw : forall a ty, has_char "."%char ty = false -> extension (a ++ "." ++ ty) = ty.
Proof.
  intros a ty H. unfold extension. change ("." ++ ty) with (String "."%char ty).
  assert (G : forall a, exists l, l <> [] /\ split_on "."%char (a ++ String "."%char ty) = (l ++ [ty])%list).
  { clear a. induction a as [|c a IH].
    - exists [""]. split; [discriminate|]. cbn [append split_on]. rewrite Ascii.eqb_refl. rewrite split_on_no_char by exact H. reflexivity.
    - destruct IH as (l & Hl & E). cbn [append split_on]. rewrite E. destruct (Ascii.eqb c "."%char).
      + exists ("" :: l). split; [discriminate|reflexivity].
      + destruct l as [|x l]; [congruence|]. exists (String c x :: l). split; [discriminate|reflexivity]. }
  destruct (G a) as (l & _ & ->). apply last_last.
Qed.

(** The raw file of an image: the first of the types for which there is one. *)
Definition raw_type {C} (d : dir C) (i : string) (types : list string) : option string :=
  find (fun ty => match d (stem i ++ "." ++ ty) with Some _ => true | None => false end) types.

Lemma raw_partner_type : forall C (d : dir C) i types ty, raw_type d i types = Some ty ->
  raw_partner d i types = stem i ++ "." ++ ty.
Proof.
  intros C d i types ty. unfold raw_type. induction types as [|t r IH]; [discriminate|]. cbn [find raw_partner].
  change (stem i ++ String "." t) with (stem i ++ "." ++ t).
  destruct (d (stem i ++ "." ++ t)) eqn:E.
  - intros H. apply Some_inj in H. subst t. reflexivity.
  - exact IH.
Qed.

(** The position of a name. *)
Fixpoint position (x : string) (l : list string) : nat :=
  match l with [] => O | y :: l' => if (x =? y)%string then O else S (position x l') end.

Lemma position_nth : forall x l, In x l -> nth_error l (position x l) = Some x.
Proof.
  intros x. induction l as [|y l IH]; intros H; [destruct H|]. cbn [position].
  destruct (String.eqb_spec x y) as [->|N]; [reflexivity|]. destruct H as [->|H]; [congruence|]. apply IH, H.
Qed.

Lemma NoDup_pairs : forall (raw : string -> string) l, NoDup l ->
  (forall i j, In i l -> In j l -> raw i = raw j -> i = j) -> (forall i j, In i l -> In j l -> raw i <> j) ->
  NoDup (flat_map (fun i => [raw i; i]) l).
Proof.
  intros raw. induction l as [|i l IH]; intros N Hr Hx; [constructor|]. inversion N as [|? ? Hi N']; subst.
  assert (A : forall x, In x (flat_map (fun i => [raw i; i]) l) -> exists j, In j l /\ (x = raw j \/ x = j)).
  { intros x H. apply in_flat_map in H as (j & Hj & [<-|[<-|[]]]); exists j; auto. }
  cbn [flat_map app]. constructor; [|constructor].
  - intros [H|H]; [apply (Hx i i); [left; reflexivity|left; reflexivity|congruence]|].
    apply A in H as (j & Hj & [E|E]); [|apply (Hx i j); [left; reflexivity|right; exact Hj|exact E]].
    apply Hi. rewrite (Hr i j); [exact Hj|left; reflexivity|right; exact Hj|exact E].
  - intros H. apply A in H as (j & Hj & [E|E]); [|subst; contradiction].
    apply (Hx j i); [right; exact Hj|left; reflexivity|congruence].
  - apply IH; [exact N'| |]; intros a b Ha Hb; [apply Hr; right; assumption|apply Hx; right; assumption].
Qed.

Lemma flat_map_map_s : forall {A B C} (g : A -> B) (h : B -> list C) l,
  flat_map h (map g l) = flat_map (fun a => h (g a)) l.
Proof. intros A B C g h l. induction l as [|a l IH]; [reflexivity|]. cbn. rewrite IH. reflexivity. Qed.

(** The day, the name and the number. *)
Definition numbered (c : moment * Z) (name : string) (k : Z) (ext : string) : string :=
  str_of_Z (year (fst c) mod 100) ++ zfill 2 (str_of_Z (month (fst c))) ++ zfill 2 (str_of_Z (day (fst c)))
  ++ "_" ++ name ++ "_" ++ str_of_Z k ++ "." ++ ext.

Lemma numbered_base : forall c name k ext, base_name name k (date_of_capture c) ++ "." ++ ext = numbered c name k ext.
Proof.
  intros c name k ext. unfold base_name, day_text, date_of_capture, numbered. cbn [d_year d_month d_day].
  rewrite !app_assoc_s. reflexivity.
Qed.

(** The photos are numbered in the order of their capture times, fractions of
    seconds included: if every image has a readable date and a raw file, if the
    images differ in more than their type, and if no file has one of the names
    that are given, then each image and its raw file are found under the day, the
    name and a number; no number is given twice, and earlier photos have smaller
    numbers. *)
Theorem C115_photos_are_numbered_by_capture_time :
  forall C sort (d : dir C) glob entry sub image_types raw_types name (time : string -> moment * Z),
  let images := found glob image_types in
  let types := types_of raw_types in
  sorts_by_date sort ->
  (forall i, In i images -> capture (entry i) (sub i) = Ok (time i)) ->
  (forall ty, In ty types -> has_char "."%char ty = false /\ ty <> "jpg") ->
  NoDup (map stem images) ->
  (forall i, In i images -> d i <> None /\ ~ In (extension i) types /\ raw_type d i types <> None) ->
  (forall i k ty, In i images -> 1 <= k <= Z.of_nat (List.length images) -> ty = "jpg" \/ In ty types ->
     d (numbered (time i) name k ty) = None) ->
  exists d' (number : string -> Z),
    photo_tool sort d glob entry sub image_types raw_types name = (d', None) /\
    (forall i, In i images -> 1 <= number i <= Z.of_nat (List.length images) /\
       d' (numbered (time i) name (number i) "jpg") = d i /\
       (forall ty, raw_type d i types = Some ty ->
          d' (numbered (time i) name (number i) ty) = d (stem i ++ "." ++ ty))) /\
    (forall i j, In i images -> In j images -> number i = number j -> i = j) /\
    (forall i j, In i images -> In j images -> instant (time i) < instant (time j) -> number i < number j).
Proof.
  intros C sort d glob entry sub image_types raw_types name time images types Hsort Htime Htypes Hstem Hd Hfresh.
  set (photo_of := fun i => Photo i (date_of_capture (time i)) (raw_partner d i types)).
  assert (ER : read_photos d glob entry sub image_types raw_types = Ok (map photo_of images)).
  { unfold read_photos. fold (found glob image_types). fold types. fold images. clearbody images.
    clear - Htime. induction images as [|i l IH]; [reflexivity|]. cbn [mapM map].
    rewrite (Htime i) by (left; reflexivity). cbn [bind]. rewrite IH by (intros j Hj; apply Htime; right; exact Hj). reflexivity. }
  assert (ND : NoDup images) by apply dict_keys_NoDup.
  destruct (Hsort (map photo_of images)) as [HP HS]. set (l := sort (map photo_of images)) in *. 
  assert (Hl : forall p, In p l -> exists i, In i images /\ p = photo_of i).
  { intros p Hp. apply (Permutation_in _ HP) in Hp. apply in_map_iff in Hp as (i & <- & Hi). exists i. auto. }
  assert (Hlen : List.length l = List.length images).
  { rewrite (Permutation_length HP). apply map_length. }
  assert (Hraw : forall i, In i images -> exists ty, In ty types /\ raw_type d i types = Some ty /\
                  raw_partner d i types = stem i ++ "." ++ ty /\ d (stem i ++ "." ++ ty) <> None).
  { intros i Hi. destruct (Hd i Hi) as (_ & _ & Hr). destruct (raw_type d i types) as [ty|] eqn:E; [|congruence].
    exists ty. pose proof (find_some _ _ E) as [A B]. split; [exact A|]. split; [reflexivity|].
    split; [apply raw_partner_type; exact E|]. destruct (d (stem i ++ "." ++ ty)); [discriminate|discriminate B]. }
  assert (Hext : forall i ty, In i images -> raw_type d i types = Some ty -> extension (p_raw (photo_of i)) = ty).
  { intros i ty Hi E. destruct (Hraw i Hi) as (ty' & A & B & R & _). assert (ty' = ty) by congruence. subst ty'.
    cbn [p_raw photo_of]. unfold photo_of. cbn [p_raw]. rewrite R. apply extension_raw. apply Htypes. exact A. }
  assert (Hsafe : safe name l d).
  { split; [|split].
    - apply (Permutation_NoDup (l := flat_map (fun p => [p_raw p; p_image p]) (map photo_of images))).
      { apply Permutation_sym. apply Permutation_flat_map. exact HP. }
      rewrite flat_map_map_s. unfold photo_of. cbn [p_raw p_image]. apply NoDup_pairs; [exact ND| |].
      + intros i j Hi Hj E. destruct (Hraw i Hi) as (ti & A & _ & R & _). destruct (Hraw j Hj) as (tj & B & _ & S & _).
        rewrite R, S in E. apply (f_equal stem) in E.
        rewrite !stem_raw in E by (apply Htypes; assumption).
        clear - Hstem Hi Hj E. induction images as [|x im IH]; [destruct Hi|]. cbn [map] in Hstem.
        inversion Hstem as [|? ? N1 N2]; subst. destruct Hi as [->|Hi], Hj as [->|Hj]; [reflexivity| | |apply IH; assumption].
        * exfalso. apply N1. rewrite E. apply in_map. exact Hj.
        * exfalso. apply N1. rewrite <- E. apply in_map. exact Hi.
      + intros i j Hi Hj E. destruct (Hraw i Hi) as (ti & A & _ & R & _). destruct (Hd j Hj) as (_ & X & _).
        apply X. rewrite <- E, R. rewrite extension_raw by (apply Htypes; exact A). exact A.
    - intros p Hp. destruct (Hl p Hp) as (i & Hi & ->). destruct (Hraw i Hi) as (ty & A & B & R & X).
      split; [unfold photo_of; cbn [p_raw]; rewrite R; exact X|]. split; [apply (Hd i Hi)|].
      rewrite (Hext i ty Hi B). apply Htypes. exact A.
    - intros k p Hk. destruct (Hl p (nth_error_In _ _ Hk)) as (i & Hi & ->).
      destruct (Hraw i Hi) as (ty & A & B & R & X).
      assert (Hk' : 1 <= 1 + Z.of_nat k <= Z.of_nat (List.length images)).
      { assert (k < List.length l)%nat by (apply nth_error_Some; congruence). lia. }
      unfold new_raw, new_image. rewrite (Hext i ty Hi B). unfold photo_of. cbn [p_date]. rewrite !numbered_base.
      split; apply Hfresh; auto. }
  destruct (C59_nothing_is_lost C name l d Hsafe) as (d' & ER' & P1 & _).
  assert (Hpos : forall i, In i images -> nth_error l (position i (map p_image l)) = Some (photo_of i)).
  { intros i Hi.
    assert (Hin : In i (map p_image l)).
    { apply in_map_iff. exists (photo_of i). split; [reflexivity|]. apply (Permutation_in _ (Permutation_sym HP)).
      apply in_map. exact Hi. }
    pose proof (position_nth i _ Hin) as E. rewrite nth_error_map in E.
    destruct (nth_error l (position i (map p_image l))) as [p|] eqn:En; [|discriminate]. cbn [option_map] in E.
    apply Some_inj in E. destruct (Hl p (nth_error_In _ _ En)) as (j & Hj & ->). unfold photo_of in E. cbn [p_image] in E.
    subst j. reflexivity. }
  exists d', (fun i => 1 + Z.of_nat (position i (map p_image l))).
  split; [unfold photo_tool; rewrite ER; exact ER'|]. split; [|split].
  - intros i Hi. pose proof (Hpos i Hi) as Ep. destruct (P1 _ _ Ep) as (A & B & _).
    split.
    { assert (position i (map p_image l) < List.length l)%nat by (apply nth_error_Some; congruence). lia. }
    unfold new_image in A. unfold new_raw in B. unfold photo_of in A, B. cbn [p_date p_image] in A, B.
    rewrite numbered_base in A, B. split; [exact A|]. intros ty Ety.
    pose proof (Hext i ty Hi Ety) as Ee. unfold photo_of in Ee. rewrite Ee in B. rewrite B. cbn [p_raw].
    rewrite (raw_partner_type C d i types ty Ety). reflexivity.
  - intros i j Hi Hj E. assert (position i (map p_image l) = position j (map p_image l)) by lia.
    pose proof (Hpos i Hi) as A. pose proof (Hpos j Hj) as B. rewrite H in A. rewrite A in B. apply Some_inj in B.
    apply (f_equal p_image) in B. exact B.
  - intros i j Hi Hj E.
    assert (position i (map p_image l) < position j (map p_image l))%nat; [|lia].
    apply (C59_numbers_follow_the_dates l HS _ _ _ _ (Hpos i Hi) (Hpos j Hj)). unfold photo_of. cbn [p_date].
    assert (Q : forall x, In x images -> exists_in_calendar (fst (time x)) /\ 0 <= snd (time x) < 1000000).
    { intros x Hx. pose proof (Htime x Hx) as T. destruct (time x) as [t us] eqn:Et.
      destruct (C115_only_dates _ _ _ _ T) as (Hc & text & ta & tb & tc & b & th & tm & ts & rest & _ & [(_ & -> & _)|(s & f & _ & _ & Hf & Hm & _)] & _);
        cbn [fst snd]; split; try exact Hc; [lia|].
      destruct (microseconds_spec f Hf) as (n & us' & _ & E2 & E3 & E4). assert (E5 : us = n * 10 ^ Z.of_nat (6 - String.length f)) by congruence.
      destruct Hf as (_ & Hf).
      assert (X : us * 10 ^ Z.of_nat (String.length f) = n * 1000000).
      { rewrite E5, <- Z.mul_assoc, <- Z.pow_add_r by lia.
        replace (Z.of_nat (6 - String.length f) + Z.of_nat (String.length f)) with 6 by lia. reflexivity. }
      pose proof (Z.pow_pos_nonneg 10 (Z.of_nat (String.length f)) ltac:(lia) ltac:(lia)). nia. }
    apply earlier_instant; try apply Q; assumption.
Qed.
Print Assumptions C115_photos_are_numbered_by_capture_time.

(** A sort that keeps the contract: insertion. *)
Definition earlierb (a b : date) : bool :=
  (d_year a <? d_year b) || ((d_year a =? d_year b) &&
  ((d_month a <? d_month b) || ((d_month a =? d_month b) &&
  ((d_day a <? d_day b) || ((d_day a =? d_day b) && (d_time a <? d_time b)))))).

Lemma earlierb_spec : forall a b, earlierb a b = true <-> Renamer_Model.earlier a b.
Proof.
  intros a b. unfold earlierb, Renamer_Model.earlier.
  repeat rewrite ?orb_true_iff, ?andb_true_iff, ?Z.ltb_lt, ?Z.eqb_eq. reflexivity.
Qed.

Fixpoint insert (p : photo) (l : list photo) : list photo :=
  match l with
  | [] => [p]
  | q :: l' => if earlierb (p_date q) (p_date p) then q :: insert p l' else p :: l
  end.

Definition insertion_sort (l : list photo) : list photo := fold_right insert [] l.

Lemma insertion_sort_sorts : sorts_by_date insertion_sort.
Proof.
  intros l. induction l as [|p l [HP HS]]; [split; constructor|]. cbn [insertion_sort fold_right].
  fold (insertion_sort l). set (s := insertion_sort l) in *. clearbody s.
  assert (IP : forall s, Permutation (insert p s) (p :: s)).
  { induction s0 as [|q s0 IH]; [reflexivity|]. cbn [insert]. destruct (earlierb (p_date q) (p_date p)); [|reflexivity].
    rewrite IH. apply perm_swap. }
  split; [rewrite IP; constructor; exact HP|]. clear HP. induction HS as [|q s HS IH HF]; [repeat constructor|].
  cbn [insert]. destruct (earlierb (p_date q) (p_date p)) eqn:E.
  - constructor; [exact IH|]. rewrite Forall_forall in *. intros x Hx. apply (Permutation_in _ (IP s)) in Hx.
    destruct Hx as [<-|Hx]; [|apply HF; exact Hx]. apply earlierb_spec in E. unfold Renamer_Model.earlier in *. lia.
  - assert (N : ~ Renamer_Model.earlier (p_date q) (p_date p)) by (rewrite <- earlierb_spec, E; discriminate).
    constructor; [constructor; assumption|]. constructor; [exact N|]. rewrite Forall_forall in *.
    intros x Hx. pose proof (HF x Hx) as H. unfold Renamer_Model.earlier in *. lia.
Qed.

(** Three photos, two of the same second; the second of them is the earlier one,
    and the last one lies on the next day. *)
Definition dir3 : dir Z := fun x =>
  if (x =? "a.JPG")%string then Some 1 else if (x =? "a.CR2")%string then Some 2 else
  if (x =? "b.JPG")%string then Some 3 else if (x =? "b.cr3")%string then Some 4 else
  if (x =? "c.JPG")%string then Some 5 else if (x =? "c.CR2")%string then Some 6 else None.

Definition glob3 (ty : string) : list string := if (ty =? "JPG")%string then ["c.JPG"; "a.JPG"; "b.JPG"] else [].

Definition entry3 (i : string) : res string :=
  Ok (if (i =? "c.JPG")%string then "2018:11:28 00:00:01" else "2018:11:27 15:36:07").

Definition sub3 (i : string) : res string := if (i =? "a.JPG")%string then Ok "5" else if (i =? "b.JPG")%string then Ok "05" else Err SystemExit.

Definition time3 (i : string) : moment * Z :=
  if (i =? "c.JPG")%string then (Moment 2018 11 28 0 0 1, 0) else
  (Moment 2018 11 27 15 36 7, if (i =? "a.JPG")%string then 500000 else 50000).

Example C115_photos_are_numbered_example :
  (sorts_by_date insertion_sort /\
   (forall i, In i (found glob3 "JPG, jpeg") -> capture (entry3 i) (sub3 i) = Ok (time3 i)) /\
   (forall ty, In ty (types_of "CR2,cr3") -> has_char "."%char ty = false /\ ty <> "jpg") /\
   NoDup (map stem (found glob3 "JPG, jpeg")) /\
   (forall i, In i (found glob3 "JPG, jpeg") ->
      dir3 i <> None /\ ~ In (extension i) (types_of "CR2,cr3") /\ raw_type dir3 i (types_of "CR2,cr3") <> None) /\
   (forall i k ty, In i (found glob3 "JPG, jpeg") -> 1 <= k <= 3 -> ty = "jpg" \/ In ty (types_of "CR2,cr3") ->
      dir3 (numbered (time3 i) "fire" k ty) = None)) /\
  map (fst (photo_tool insertion_sort dir3 glob3 entry3 sub3 "JPG, jpeg" "CR2,cr3" "fire"))
      ["181127_fire_1.jpg"; "181127_fire_1.cr3"; "181127_fire_2.jpg"; "181127_fire_2.CR2"; "181128_fire_3.jpg"; "181128_fire_3.CR2"; "a.JPG"] =
  [Some 3; Some 4; Some 1; Some 2; Some 5; Some 6; None].
Proof.
  split; [|vm_compute; reflexivity]. split; [exact insertion_sort_sorts|]. split; [|split; [|split; [|split]]].
  - intros i [<-|[<-|[<-|[]]]]; vm_compute; reflexivity.
  - intros ty [<-|[<-|[]]]; split; solve [vm_compute; reflexivity|discriminate].
  - vm_compute. repeat constructor; cbn; intuition discriminate.
  - intros i [<-|[<-|[<-|[]]]]; (split; [vm_compute; discriminate|split; [|vm_compute; discriminate]]); vm_compute;
      intuition discriminate.
  - intros i k ty [<-|[<-|[<-|[]]]] Hk Hty; assert (k = 1 \/ k = 2 \/ k = 3) as [->|[->| ->]] by lia;
      destruct Hty as [->|[<-|[<-|[]]]]; vm_compute; reflexivity.
Qed.

(** A fraction that is padded with a blank is not read, and the photo counts as
    taken at the full second: of two photos of the same second the later one gets
    the smaller number. *)
Theorem C115_padded_fraction_refuted :
  exists (d : dir Z) glob entry sub,
  entry "a.JPG" = Ok "2018:11:27 15:36:07" /\ sub "a.JPG" = Ok "10" /\
  entry "b.JPG" = Ok "2018:11:27 15:36:07" /\ sub "b.JPG" = Ok "90 " /\
  d "a.JPG" = Some 1 /\ d "b.JPG" = Some 3 /\
  forall sort, sorts_by_date sort ->
  exists d', photo_tool sort d glob entry sub "JPG" "CR2" "fire" = (d', None) /\
    d' "181127_fire_1.jpg" = Some 3 /\ d' "181127_fire_2.jpg" = Some 1.
Proof.
  pose (sub := fun i => if (i =? "a.JPG")%string then Ok "10" else Ok "90 " : res string).
  pose (entry := fun _ : string => Ok "2018:11:27 15:36:07" : res string).
  pose (d := fun x => if (x =? "a.JPG")%string then Some 1 else if (x =? "a.CR2")%string then Some 2 else
             if (x =? "b.JPG")%string then Some 3 else if (x =? "b.CR2")%string then Some 4 else None).
  pose (glob := fun _ : string => ["a.JPG"; "b.JPG"]).
  exists d, glob, entry, sub. do 6 (split; [reflexivity|]). intros sort Hs.
  set (pa := Photo "a.JPG" (date_of_capture (Moment 2018 11 27 15 36 7, 100000)) "a.CR2").
  set (pb := Photo "b.JPG" (date_of_capture (Moment 2018 11 27 15 36 7, 0)) "b.CR2").
  assert (E : read_photos d glob entry sub "JPG" "CR2" = Ok [pa; pb]) by (vm_compute; reflexivity).
  unfold photo_tool. rewrite E. destruct (Hs [pa; pb]) as [HP HS].
  assert (X : sort [pa; pb] = [pb; pa]).
  { apply Permutation_sym, Permutation_length_2_inv in HP. destruct HP as [E'|E']; rewrite E' in HS |- *; [|reflexivity].
    exfalso. inversion HS as [|? ? _ HF]; subst. inversion HF as [|? ? N _]; subst. apply N.
    unfold Renamer_Model.earlier. cbn. lia. }
  rewrite X. eexists. split; [vm_compute; reflexivity|]. split; vm_compute; reflexivity.
Qed.
Print Assumptions C115_padded_fraction_refuted.

(** The file types are those between the commas, blanks around them do not count. *)
Theorem C115_file_types : forall l : list (string * string * string), l <> [] ->
  Forall (fun x => all_chars is_ws (fst (fst x)) = true /\ all_chars is_ws (snd x) = true /\
                   strip (snd (fst x)) = snd (fst x) /\ has_char ","%char (snd (fst x)) = false) l ->
  types_of (join "," (map (fun x => fst (fst x) ++ snd (fst x) ++ snd x) l)) = map (fun x => snd (fst x)) l.
Proof.
  intros l Hne H. assert (B : forall w, all_chars is_ws w = true -> has_char ","%char w = false).
  { induction w as [|a w IH]; intros Hw; [reflexivity|]. cbn [all_chars] in Hw. apply andb_true_iff in Hw. destruct Hw as [Ha Hw].
    cbn [has_char]. rewrite (IH Hw), orb_false_r. destruct (Ascii.eqb_spec a ","%char) as [->|]; [discriminate|reflexivity]. }
  unfold types_of. rewrite (split_on_join ","%char).
  - rewrite map_map. apply map_ext_in. intros x Hx. rewrite Forall_forall in H. destruct (H x Hx) as (H1 & H2 & H3 & _).
    rewrite strip_skip_ws by exact H1. rewrite strip_app_ws by exact H2. exact H3.
  - intros E. apply Hne. apply map_eq_nil in E. exact E.
  - apply Forall_forall. intros s Hs. apply in_map_iff in Hs as (x & <- & Hx). rewrite Forall_forall in H. destruct (H x Hx) as (H1 & H2 & _ & H4).
    rewrite !has_char_app, (B _ H1), (B _ H2), H4. reflexivity.
Qed.
Print Assumptions C115_file_types.

Example C115_file_types_example : types_of "JPG, jpeg ,png" = ["JPG"; "jpeg"; "png"].
Proof. apply (C115_file_types [("", "JPG", ""); (" ", "jpeg", " "); ("", "png", "")]); [discriminate|]. repeat (constructor; [split; [reflexivity|split; [reflexivity|split; reflexivity]]|]). constructor. Qed.
