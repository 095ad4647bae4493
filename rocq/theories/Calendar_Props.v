(** Dates and times as texts: what is read, and what the differences mean. *)
From Coq Require Import Ascii String List ZArith Lia Bool.
From Verif Require Import Base Str Images_Model Calendar_Model.
Import ListNotations.
Local Open Scope string_scope.
Local Open Scope Z_scope.

(** * Specification: the calendar, counted second by second *)

(** A leap year. *)
Definition leap_year (y : Z) : bool :=
  if y mod 400 =? 0 then true else if y mod 100 =? 0 then false else y mod 4 =? 0.

(** The length of a month. *)
Definition month_length (y m : Z) : Z :=
  if m =? 2 then (if leap_year y then 29 else 28)
  else if (m =? 4) || (m =? 6) || (m =? 9) || (m =? 11) then 30 else 31.

(** A date and time that exists. *)
Definition exists_in_calendar (t : moment) : Prop :=
  1 <= year t <= 9999 /\ 1 <= month t <= 12 /\ 1 <= day t <= month_length (year t) (month t) /\
  0 <= hour t <= 23 /\ 0 <= minute t <= 59 /\ 0 <= second t <= 59.

(** The day after. *)
Definition next_day (t : moment) : moment :=
  if day t <? month_length (year t) (month t)
  then Moment (year t) (month t) (day t + 1) (hour t) (minute t) (second t)
  else if month t <? 12 then Moment (year t) (month t + 1) 1 (hour t) (minute t) (second t)
  else Moment (year t + 1) 1 1 (hour t) (minute t) (second t).

(** The second after. *)
Definition next_second (t : moment) : moment :=
  if second t <? 59 then Moment (year t) (month t) (day t) (hour t) (minute t) (second t + 1)
  else if minute t <? 59 then Moment (year t) (month t) (day t) (hour t) (minute t + 1) 0
  else if hour t <? 23 then Moment (year t) (month t) (day t) (hour t + 1) 0 0
  else next_day (Moment (year t) (month t) (day t) 0 0 0).

(** [n] seconds later. *)
Definition later (n : nat) (t : moment) : moment := Nat.iter n next_second t.

(** The order of the calendar. *)
Definition before (a b : moment) : Prop :=
  year a < year b \/ year a = year b /\
  (month a < month b \/ month a = month b /\
  (day a < day b \/ day a = day b /\
  (hour a < hour b \/ hour a = hour b /\
  (minute a < minute b \/ minute a = minute b /\ second a < second b)))).

(** The texts of a date: that of the camera, that written in Germany with and
    without zeros. *)
Definition colon_date (t : moment) : string :=
  zfill 4 (str_of_Z (year t)) ++ ":" ++ zfill 2 (str_of_Z (month t)) ++ ":" ++ zfill 2 (str_of_Z (day t)).
Definition dot_date (t : moment) : string :=
  zfill 2 (str_of_Z (day t)) ++ "." ++ zfill 2 (str_of_Z (month t)) ++ "." ++ zfill 4 (str_of_Z (year t)).
Definition short_date (t : moment) : string :=
  str_of_Z (day t) ++ "." ++ str_of_Z (month t) ++ "." ++ zfill 4 (str_of_Z (year t)).
Definition clock_text (t : moment) : string :=
  zfill 2 (str_of_Z (hour t)) ++ ":" ++ zfill 2 (str_of_Z (minute t)) ++ ":" ++ zfill 2 (str_of_Z (second t)).
(** The EXIF entry of a photo taken at [t]. *)
Definition exif_text (t : moment) : string := colon_date t ++ " " ++ clock_text t.

(** * The day number counts the days *)

Lemma is_leap_spec : forall y, is_leap y = leap_year y.
Proof.
  intros y. unfold is_leap, leap_year.
  pose proof (Z.div_mod y 4 ltac:(lia)). pose proof (Z.div_mod y 100 ltac:(lia)). pose proof (Z.div_mod y 400 ltac:(lia)).
  pose proof (Z.mod_pos_bound y 4 ltac:(lia)). pose proof (Z.mod_pos_bound y 100 ltac:(lia)).
  pose proof (Z.mod_pos_bound y 400 ltac:(lia)).
  destruct (Z.eqb_spec (y mod 4) 0), (Z.eqb_spec (y mod 100) 0), (Z.eqb_spec (y mod 400) 0); cbn; try reflexivity; lia.
Qed.

Lemma month_cases : forall m, 1 <= m <= 12 -> m = 1 \/ m = 2 \/ m = 3 \/ m = 4 \/ m = 5 \/ m = 6 \/ m = 7 \/ m = 8
  \/ m = 9 \/ m = 10 \/ m = 11 \/ m = 12.
Proof. intros. lia. Qed.

Ltac month_case H := 
  apply month_cases in H; destruct H as [H|[H|[H|[H|[H|[H|[H|[H|[H|[H|[H|H]]]]]]]]]]]; rewrite H in *.

Lemma days_in_month_spec : forall y m, 1 <= m <= 12 -> days_in_month y m = month_length y m.
Proof.
  intros y m H. unfold days_in_month, month_length. rewrite is_leap_spec.
  month_case H; reflexivity.
Qed.

(** A year has 365 or 366 days. *)
Lemma year_days : forall y, days_before_year (y + 1) = days_before_year y + 365 + (if leap_year y then 1 else 0).
Proof.
  intros y. unfold days_before_year, leap_year. cbv zeta. replace (y + 1 - 1) with y by lia.
  pose proof (Z.div_mod y 4 ltac:(lia)). pose proof (Z.div_mod y 100 ltac:(lia)). pose proof (Z.div_mod y 400 ltac:(lia)).
  pose proof (Z.mod_pos_bound y 4 ltac:(lia)). pose proof (Z.mod_pos_bound y 100 ltac:(lia)).
  pose proof (Z.mod_pos_bound y 400 ltac:(lia)).
  pose proof (Z.div_mod (y - 1) 4 ltac:(lia)). pose proof (Z.div_mod (y - 1) 100 ltac:(lia)).
  pose proof (Z.div_mod (y - 1) 400 ltac:(lia)).
  pose proof (Z.mod_pos_bound (y - 1) 4 ltac:(lia)). pose proof (Z.mod_pos_bound (y - 1) 100 ltac:(lia)).
  pose proof (Z.mod_pos_bound (y - 1) 400 ltac:(lia)).
  destruct (Z.eqb_spec (y mod 400) 0); [lia|].
  destruct (Z.eqb_spec (y mod 100) 0); [lia|].
  destruct (Z.eqb_spec (y mod 4) 0); lia.
Qed.

Lemma month_days : forall y m, 1 <= m <= 11 ->
  days_before_month y (m + 1) = days_before_month y m + month_length y m.
Proof.
  intros y m H. unfold days_before_month, month_length. rewrite is_leap_spec.
  assert (H' : 1 <= m <= 12) by lia. destruct (leap_year y); month_case H'; try reflexivity; lia.
Qed.

Lemma december : forall y, days_before_month y 12 + 31 = 365 + (if leap_year y then 1 else 0).
Proof. intros y. unfold days_before_month. rewrite is_leap_spec. cbn. destruct (leap_year y); reflexivity. Qed.

Lemma january : forall y, days_before_month y 1 = 0.
Proof. intros y. unfold days_before_month. cbn. reflexivity. Qed.

Lemma month_length_pos : forall y m, 28 <= month_length y m <= 31.
Proof.
  intros y m. unfold month_length. destruct (m =? 2); [destruct (leap_year y); lia|].
  destruct (_ || _)%bool; lia.
Qed.

Lemma next_day_ordinal : forall t, 1 <= month t <= 12 -> 1 <= day t <= month_length (year t) (month t) ->
  let u := next_day t in
  ordinal (year u) (month u) (day u) = ordinal (year t) (month t) (day t) + 1.
Proof.
  intros t Hm Hd. unfold next_day, ordinal.
  destruct (Z.ltb_spec (day t) (month_length (year t) (month t))); cbn [year month day]; [lia|].
  destruct (Z.ltb_spec (month t) 12); cbn [year month day].
  - rewrite month_days by lia. lia.
  - replace (month t) with 12 in * by lia. rewrite year_days, january.
    pose proof (december (year t)). change (month_length (year t) 12) with 31 in *. lia.
Qed.

Lemma next_day_exists : forall t, exists_in_calendar t -> year (next_day t) <= 9999 -> exists_in_calendar (next_day t).
Proof.
  intros t (Hy & Hm & Hd & Hr) H. unfold next_day in *.
  destruct (Z.ltb_spec (day t) (month_length (year t) (month t))); cbn [year month day] in H |- *.
  - unfold exists_in_calendar. cbn [year month day hour minute second]. lia.
  - destruct (Z.ltb_spec (month t) 12); cbn [year month day] in H |- *;
      unfold exists_in_calendar; cbn [year month day hour minute second];
      [pose proof (month_length_pos (year t) (month t + 1))|pose proof (month_length_pos (year t + 1) 1)]; lia.
Qed.

(** One second later is one more. *)
Lemma next_second_seconds : forall t, exists_in_calendar t -> seconds (next_second t) = seconds t + 1.
Proof.
  intros t (Hy & Hm & Hd & Hh & Hmi & Hs). unfold next_second, seconds.
  destruct (Z.ltb_spec (second t) 59); cbn [year month day hour minute second]; [lia|].
  destruct (Z.ltb_spec (minute t) 59); cbn [year month day hour minute second]; [lia|].
  destruct (Z.ltb_spec (hour t) 23); cbn [year month day hour minute second]; [lia|].
  set (u := Moment (year t) (month t) (day t) 0 0 0).
  pose proof (next_day_ordinal u Hm Hd) as E. cbv zeta in E. cbn [year month day] in E. rewrite E.
  assert (hour (next_day u) = 0 /\ minute (next_day u) = 0 /\ second (next_day u) = 0) as (-> & -> & ->).
  { unfold next_day. destruct (_ <? _); [auto|]. destruct (_ <? _); auto. }
  cbn [year month day u]. lia.
Qed.

Lemma next_second_exists : forall t, exists_in_calendar t -> year (next_second t) <= 9999 ->
  exists_in_calendar (next_second t).
Proof.
  intros t H. pose proof H as (Hy & Hm & Hd & Hh & Hmi & Hs). unfold next_second.
  destruct (Z.ltb_spec (second t) 59).
  { intros _. unfold exists_in_calendar. cbn [year month day hour minute second]. lia. }
  destruct (Z.ltb_spec (minute t) 59).
  { intros _. unfold exists_in_calendar. cbn [year month day hour minute second]. lia. }
  destruct (Z.ltb_spec (hour t) 23).
  { intros _. unfold exists_in_calendar. cbn [year month day hour minute second]. lia. }
  apply next_day_exists. unfold exists_in_calendar. cbn [year month day hour minute second]. lia.
Qed.

Lemma next_second_year : forall t, year t <= year (next_second t).
Proof.
  intros t. unfold next_second, next_day. repeat (destruct (_ <? _); cbn [year]; try lia).
Qed.

Lemma later_S : forall n t, later (S n) t = next_second (later n t).
Proof. reflexivity. Qed.

Lemma later_exists : forall n t, exists_in_calendar t -> year (later n t) <= 9999 -> exists_in_calendar (later n t).
Proof.
  induction n as [|n IH]; intros t H Hy; [exact H|]. rewrite later_S in *. apply next_second_exists; [|exact Hy].
  apply IH; [exact H|]. pose proof (next_second_year (later n t)). lia.
Qed.

Lemma later_seconds : forall n t, exists_in_calendar t -> year (later n t) <= 9999 ->
  seconds (later n t) = seconds t + Z.of_nat n.
Proof.
  induction n as [|n IH]; intros t H Hy; [cbn; lia|]. rewrite later_S in *.
  pose proof (next_second_year (later n t)). assert (Hy' : year (later n t) <= 9999) by lia.
  rewrite next_second_seconds by (apply later_exists; assumption). rewrite IH by assumption. lia.
Qed.

(** * The order *)

Lemma days_before_year_mono : forall a n, days_before_year a + 365 * Z.of_nat n <= days_before_year (a + Z.of_nat n).
Proof.
  intros a. induction n as [|n IH].
  - replace (a + Z.of_nat 0) with a by lia. lia.
  - replace (a + Z.of_nat (S n)) with (a + Z.of_nat n + 1) by lia. rewrite year_days.
    destruct (leap_year _); lia.
Qed.

Lemma days_before_month_mono : forall y n m, 1 <= m -> m + Z.of_nat n <= 12 ->
  days_before_month y m <= days_before_month y (m + Z.of_nat n).
Proof.
  intros y. induction n as [|n IH]; intros m H H'.
  - replace (m + Z.of_nat 0) with m by lia. lia.
  - replace (m + Z.of_nat (S n)) with (m + Z.of_nat n + 1) by lia. rewrite month_days by lia.
    pose proof (IH m H ltac:(lia)). pose proof (month_length_pos y (m + Z.of_nat n)). lia.
Qed.

(** The day within its year. *)
Lemma day_of_year : forall y m d, 1 <= m <= 12 -> 1 <= d <= month_length y m ->
  1 <= days_before_month y m + d <= 365 + (if leap_year y then 1 else 0).
Proof.
  intros y m d Hm Hd.
  pose proof (days_before_month_mono y (Z.to_nat (m - 1)) 1 ltac:(lia) ltac:(lia)) as H.
  replace (1 + Z.of_nat (Z.to_nat (m - 1))) with m in H by lia. rewrite january in H.
  split; [lia|]. rewrite <- december.
  destruct (Z.eq_dec m 12) as [->|Hn]; [change (month_length y 12) with 31 in Hd; lia|].
  pose proof (days_before_month_mono y (Z.to_nat (12 - (m + 1))) (m + 1) ltac:(lia) ltac:(lia)) as H'.
  replace (m + 1 + Z.of_nat (Z.to_nat (12 - (m + 1)))) with 12 in H' by lia.
  rewrite month_days in H' by lia. lia.
Qed.

Lemma before_seconds : forall a b, exists_in_calendar a -> exists_in_calendar b -> before a b -> seconds a < seconds b.
Proof.
  intros a b (Hay & Ham & Had & Har) (Hby & Hbm & Hbd & Hbr) H.
  unfold seconds, ordinal.
  pose proof (day_of_year _ _ _ Ham Had) as Da. pose proof (day_of_year _ _ _ Hbm Hbd) as Db.
  destruct H as [H|(Ey & H)].
  - pose proof (days_before_year_mono (year a + 1) (Z.to_nat (year b - (year a + 1)))) as M.
    replace (year a + 1 + Z.of_nat (Z.to_nat (year b - (year a + 1)))) with (year b) in M by lia.
    rewrite year_days in M. lia.
  - rewrite Ey in *. destruct H as [H|(Em & H)].
    + pose proof (days_before_month_mono (year b) (Z.to_nat (month b - (month a + 1))) (month a + 1) ltac:(lia) ltac:(lia)) as M.
      replace (month a + 1 + Z.of_nat (Z.to_nat (month b - (month a + 1)))) with (month b) in M by lia.
      rewrite month_days in M by lia. lia.
    + rewrite Em in *. lia.
Qed.

Lemma before_total : forall a b, before a b \/ a = b \/ before b a.
Proof.
  intros [y m d h i s] [y' m' d' h' i' s']. unfold before. cbn [year month day hour minute second].
  destruct (Z.lt_trichotomy y y') as [|[->|]]; [lia| |lia].
  destruct (Z.lt_trichotomy m m') as [|[->|]]; [lia| |lia].
  destruct (Z.lt_trichotomy d d') as [|[->|]]; [lia| |lia].
  destruct (Z.lt_trichotomy h h') as [|[->|]]; [lia| |lia].
  destruct (Z.lt_trichotomy i i') as [|[->|]]; [lia| |lia].
  destruct (Z.lt_trichotomy s s') as [|[->|]]; [lia|auto|lia].
Qed.

(** * Reading *)

Lemma take_app : forall a s t r x, take a s = Some (t, r) -> take a (s ++ x) = Some (t, r ++ x).
Proof.
  induction a as [|p a IH]; intros s t r x H; cbn in *.
  - injection H as <- <-. reflexivity.
  - destruct s as [|c s]; [discriminate|]. cbn. destruct (p c); [|discriminate].
    destruct (take a s) as [[t' r']|] eqn:E; [|discriminate]. injection H as <- <-.
    rewrite (IH _ _ _ x E). reflexivity.
Qed.

Lemma take_app_none : forall a s x, (List.length a <= String.length s)%nat -> take a s = None -> take a (s ++ x) = None.
Proof.
  induction a as [|p a IH]; intros s x Hl H; cbn in *; [discriminate|].
  destruct s as [|c s]; [cbn in Hl; lia|]. cbn in *. destruct (p c); [|reflexivity].
  destruct (take a s) as [[t r]|] eqn:E; [discriminate|]. rewrite (IH _ x) by (try assumption; lia). reflexivity.
Qed.

Definition long_enough (d : directive) (s : string) : bool :=
  forallb (fun a => (List.length a <=? String.length s)%nat) (alternatives d).

Lemma options_app : forall d s x, long_enough d s = true ->
  options d (s ++ x) = map (fun p => (fst p, snd p ++ x)) (options d s).
Proof.
  intros d s x H. unfold options, long_enough in *. revert H. generalize (alternatives d).
  induction l as [|a l IH]; intros H; [reflexivity|]. cbn in H. apply andb_true_iff in H as (H1 & H2).
  apply Nat.leb_le in H1. cbn. rewrite map_app, <- IH by exact H2. f_equal.
  destruct (take a s) as [[t r]|] eqn:E.
  - rewrite (take_app _ _ _ _ x E). destruct (int_of_str t); reflexivity.
  - rewrite (take_app_none _ _ _ H1 E). reflexivity.
Qed.

(** The directive reads the number [v] first and leaves [r]. *)
Definition reads (d : directive) (s : string) (v : Z) (r : string) : Prop := exists l, options d s = (v, r) :: l.

Definition reads_b (d : directive) (s : string) (v : Z) (r : string) : bool :=
  long_enough d s && match options d s with (v', r') :: _ => (v' =? v) && (r' =? r)%string | [] => false end.

Lemma reads_app : forall d s v r x, reads_b d s v r = true -> reads d (s ++ x) v (r ++ x).
Proof.
  intros d s v r x H. unfold reads_b in H. apply andb_true_iff in H as (Hl & H).
  unfold reads. rewrite options_app by exact Hl. destruct (options d s) as [|[v' r'] l]; [discriminate|].
  apply andb_true_iff in H as (Hv & Hr). apply Z.eqb_eq in Hv. apply String.eqb_eq in Hr. subst.
  eexists. reflexivity.
Qed.

Lemma in_zrange_le : forall a b v, a <= v <= b -> In v (zrange a (b + 1)).
Proof. intros. apply in_zrange. lia. Qed.

Lemma reads_all : forall d lo hi (text : Z -> string) r,
  forallb (fun v => reads_b d (text v) v r) (zrange lo (hi + 1)) = true ->
  forall v x, lo <= v <= hi -> reads d (text v ++ x) v (r ++ x).
Proof.
  intros d lo hi text r H v x Hv. apply reads_app.
  rewrite forallb_forall in H. apply H, in_zrange_le, Hv.
Qed.

Lemma read_year : forall v x, 1 <= v <= 9999 -> reads DYear (zfill 4 (str_of_Z v) ++ x) v x.
Proof. intros v x H. refine (reads_all DYear 1 9999 (fun v => zfill 4 (str_of_Z v)) "" _ v x H). vm_compute. reflexivity. Qed.
Lemma read_month : forall v x, 1 <= v <= 12 -> reads DMonth (zfill 2 (str_of_Z v) ++ x) v x.
Proof. intros v x H. refine (reads_all DMonth 1 12 (fun v => zfill 2 (str_of_Z v)) "" _ v x H). vm_compute. reflexivity. Qed.
Lemma read_day : forall v x, 1 <= v <= 31 -> reads DDay (zfill 2 (str_of_Z v) ++ x) v x.
Proof. intros v x H. refine (reads_all DDay 1 31 (fun v => zfill 2 (str_of_Z v)) "" _ v x H). vm_compute. reflexivity. Qed.
Lemma read_hour : forall v x, 0 <= v <= 23 -> reads DHour (zfill 2 (str_of_Z v) ++ x) v x.
Proof. intros v x H. refine (reads_all DHour 0 23 (fun v => zfill 2 (str_of_Z v)) "" _ v x H). vm_compute. reflexivity. Qed.
Lemma read_minute : forall v x, 0 <= v <= 59 -> reads DMinute (zfill 2 (str_of_Z v) ++ x) v x.
Proof. intros v x H. refine (reads_all DMinute 0 59 (fun v => zfill 2 (str_of_Z v)) "" _ v x H). vm_compute. reflexivity. Qed.
Lemma read_second : forall v x, 0 <= v <= 59 -> reads DSecond (zfill 2 (str_of_Z v) ++ x) v x.
Proof. intros v x H. refine (reads_all DSecond 0 59 (fun v => zfill 2 (str_of_Z v)) "" _ v x H). vm_compute. reflexivity. Qed.
Lemma read_short_day : forall v x, 1 <= v <= 31 -> reads DDay (str_of_Z v ++ "." ++ x) v ("." ++ x).
Proof.
  intros v x H. rewrite <- app_assoc_s.
  refine (reads_all DDay 1 31 (fun v => str_of_Z v ++ ".") "." _ v x H). vm_compute. reflexivity.
Qed.
Lemma read_short_month : forall v x, 1 <= v <= 12 -> reads DMonth (str_of_Z v ++ "." ++ x) v ("." ++ x).
Proof.
  intros v x H. rewrite <- app_assoc_s.
  refine (reads_all DMonth 1 12 (fun v => str_of_Z v ++ ".") "." _ v x H). vm_compute. reflexivity.
Qed.

(** The first match of a format. *)
Definition first_match (f : list item) (s : string) (vs : list Z) : Prop := exists l, matches f s = (vs, "") :: l.

Lemma fm_nil : first_match [] "" [].
Proof. exists []. reflexivity. Qed.

Lemma fm_fld : forall d f s v r vs, reads d s v r -> first_match f r vs -> first_match (Fld d :: f) s (v :: vs).
Proof.
  intros d f s v r vs (l & E) (l' & E'). unfold first_match. cbn [matches]. rewrite E. cbn [flat_map fst snd].
  rewrite E'. cbn [map app fst snd]. eexists. reflexivity.
Qed.

Lemma fm_lit : forall c f s vs, first_match f s vs -> first_match (Lit c :: f) (String c s) vs.
Proof. intros c f s vs (l & E). exists l. cbn [matches]. rewrite Ascii.eqb_refl. exact E. Qed.

Lemma fm_ws : forall f s vs, blanks s = [] -> first_match f s vs -> first_match (Ws :: f) (" " ++ s) vs.
Proof.
  intros f s vs H (l & E). unfold first_match. cbn [matches].
  change (blanks (" " ++ s)) with ((blanks s ++ [s])%list). rewrite H. cbn [app flat_map]. rewrite app_nil_r.
  exists l. exact E.
Qed.

Lemma strptime_first : forall f s vs, first_match f s vs -> strptime f s = Ok vs.
Proof. intros f s vs (l & E). unfold strptime. rewrite E. reflexivity. Qed.

Definition starts_with_digit (s : string) : bool := match s with String c _ => is_digit c | "" => false end.

Lemma blanks_digit : forall s, starts_with_digit s = true -> blanks s = [].
Proof.
  intros [|c s] H; [reflexivity|]. cbn in *. rewrite is_digit_not_ws by exact H. reflexivity.
Qed.

Lemma two_digits_start : forall v x, 0 <= v <= 59 -> starts_with_digit (zfill 2 (str_of_Z v) ++ x) = true.
Proof.
  intros v x H.
  assert (F : forallb (fun v => starts_with_digit (zfill 2 (str_of_Z v))) (zrange 0 (59 + 1)) = true) by (vm_compute; reflexivity).
  rewrite forallb_forall in F. pose proof (F v (in_zrange_le _ _ _ H)) as E. cbv beta in E.
  destruct (zfill 2 (str_of_Z v)); [discriminate|exact E].
Qed.

Lemma fm_time : forall t, 0 <= hour t <= 23 -> 0 <= minute t <= 59 -> 0 <= second t <= 59 ->
  first_match time_format (" " ++ clock_text t) [hour t; minute t; second t].
Proof.
  intros t Hh Hm Hs. unfold time_format, clock_text. apply fm_ws.
  { apply blanks_digit, two_digits_start. lia. }
  eapply fm_fld; [apply read_hour; exact Hh|]. apply fm_lit.
  eapply fm_fld; [apply read_minute; exact Hm|]. apply fm_lit.
  eapply fm_fld; [|apply fm_nil]. rewrite <- (app_nil_s (zfill 2 (str_of_Z (second t)))). apply read_second, Hs.
Qed.

Lemma has_char_app : forall c a b, has_char c (a ++ b) = has_char c a || has_char c b.
Proof. intros c. induction a as [|x a IH]; intros b; [reflexivity|]. cbn. rewrite IH. apply orb_assoc. Qed.

Lemma no_char_int : forall c s, all_chars int_char s = true -> int_char c = false -> has_char c s = false.
Proof. intros c s H H'. exact (has_char_all c int_char s H H'). Qed.

Lemma zfill_chars : forall w n, 0 <= n -> all_chars int_char (zfill w (str_of_Z n)) = true.
Proof.
  intros w n H. unfold str_of_Z. destruct (Z.ltb_spec n 0); [lia|].
  destruct (zfill_nonneg_shape w n H) as (k & ->). apply all_chars_zeros; [reflexivity|].
  pose proof (str_of_Z_chars n) as E. unfold str_of_Z in E. destruct (Z.ltb_spec n 0); [lia|exact E].
Qed.

Lemma zfill_no : forall c w n, 0 <= n -> int_char c = false -> has_char c (zfill w (str_of_Z n)) = false.
Proof. intros c w n H H'. apply no_char_int; [apply zfill_chars, H|exact H']. Qed.

Lemma str_no : forall c n, int_char c = false -> has_char c (str_of_Z n) = false.
Proof. intros c n H'. apply no_char_int; [apply str_of_Z_chars|exact H']. Qed.

Lemma datetime_ok : forall t, exists_in_calendar t -> datetime t = Ok t.
Proof.
  intros t (Hy & Hm & Hd & Hh & Hmi & Hs). unfold datetime. rewrite days_in_month_spec by exact Hm.
  repeat (rewrite (proj2 (Z.leb_le _ _)) by lia). reflexivity.
Qed.

Lemma datetime_inv : forall t u, datetime t = Ok u -> u = t /\ exists_in_calendar t.
Proof.
  intros t u H. unfold datetime in H. destruct (_ && _) eqn:E in H; [|discriminate]. apply Ok_inj in H.
  split; [congruence|]. repeat (apply andb_true_iff in E as (E & ?)).
  repeat match goal with H : (_ <=? _) = true |- _ => apply Z.leb_le in H end.
  unfold exists_in_calendar. rewrite days_in_month_spec in * by lia. lia.
Qed.

Lemma read_colon : forall t, exists_in_calendar t -> get_datetime_from_str (colon_date t) (clock_text t) = Ok t.
Proof.
  intros t H. pose proof H as (Hy & Hm & Hd & Hh & Hmi & Hs). pose proof (month_length_pos (year t) (month t)).
  unfold get_datetime_from_str.
  assert (E : has_char ":"%char (colon_date t) = true).
  { unfold colon_date. rewrite has_char_app. cbn [append has_char]. rewrite Ascii.eqb_refl. apply orb_true_r. }
  rewrite E. rewrite (strptime_first _ _ [year t; month t; day t; hour t; minute t; second t]).
  - cbn [bind]. rewrite <- (datetime_ok t H). destruct t; reflexivity.
  - unfold colon_date. rewrite !app_assoc_s. unfold colon_format. cbn [app].
    eapply fm_fld; [apply read_year; exact Hy|]. apply fm_lit.
    eapply fm_fld; [apply read_month; exact Hm|]. apply fm_lit.
    eapply fm_fld; [apply read_day; lia|]. apply fm_time; assumption.
Qed.

Lemma read_dot : forall t, exists_in_calendar t -> get_datetime_from_str (dot_date t) (clock_text t) = Ok t.
Proof.
  intros t H. pose proof H as (Hy & Hm & Hd & Hh & Hmi & Hs). pose proof (month_length_pos (year t) (month t)).
  unfold get_datetime_from_str.
  assert (E : has_char ":"%char (dot_date t) = false).
  { unfold dot_date. rewrite !has_char_app, !zfill_no by (reflexivity || lia). reflexivity. }
  rewrite E. rewrite (strptime_first _ _ [day t; month t; year t; hour t; minute t; second t]).
  - cbn [bind]. rewrite <- (datetime_ok t H). destruct t; reflexivity.
  - unfold dot_date. rewrite !app_assoc_s. unfold dot_format. cbn [app].
    eapply fm_fld; [apply read_day; lia|]. apply fm_lit.
    eapply fm_fld; [apply read_month; exact Hm|]. apply fm_lit.
    eapply fm_fld; [apply read_year; exact Hy|]. apply fm_time; assumption.
Qed.

Lemma read_short : forall t, exists_in_calendar t -> get_datetime_from_str (short_date t) (clock_text t) = Ok t.
Proof.
  intros t H. pose proof H as (Hy & Hm & Hd & Hh & Hmi & Hs). pose proof (month_length_pos (year t) (month t)).
  unfold get_datetime_from_str.
  assert (E : has_char ":"%char (short_date t) = false).
  { unfold short_date. rewrite !has_char_app, !str_no, zfill_no by (reflexivity || lia). reflexivity. }
  rewrite E. rewrite (strptime_first _ _ [day t; month t; year t; hour t; minute t; second t]).
  - cbn [bind]. rewrite <- (datetime_ok t H). destruct t; reflexivity.
  - unfold short_date. rewrite !app_assoc_s. unfold dot_format. cbn [app].
    eapply fm_fld; [apply read_short_day; lia|]. apply fm_lit.
    eapply fm_fld; [apply read_short_month; exact Hm|]. apply fm_lit.
    eapply fm_fld; [apply read_year; exact Hy|]. apply fm_time; assumption.
Qed.

(** What has been read is in the text. *)
Lemma take_split : forall a s t r, take a s = Some (t, r) -> s = t ++ r.
Proof.
  induction a as [|p a IH]; intros s t r H; cbn in H; [injection H as <- <-; reflexivity|].
  destruct s as [|c s]; [discriminate|]. destruct (p c); [|discriminate].
  destruct (take a s) as [[t' r']|] eqn:E; [|discriminate]. injection H as <- <-. cbn. f_equal. apply IH, E.
Qed.

Lemma matches_fld : forall d f s vs r, In (vs, r) (matches (Fld d :: f) s) ->
  exists t s' v vs', s = t ++ s' /\ int_of_str t = Ok v /\ vs = v :: vs' /\ In (vs', r) (matches f s').
Proof.
  intros d f s vs r H. cbn [matches] in H. apply in_flat_map in H as ((v & s') & Hin & H). cbn [fst snd] in H.
  apply in_map_iff in H as ((vs' & r') & E & H). cbn [fst snd] in E. injection E as <- <-.
  unfold options in Hin. apply in_flat_map in Hin as (a & _ & Hin).
  destruct (take a s) as [[t rr]|] eqn:E; [|destruct Hin]. destruct (int_of_str t) as [v'|] eqn:Ei; [|destruct Hin].
  destruct Hin as [Hin|[]]. injection Hin as <- <-. exists t, rr, v', vs'.
  split; [apply (take_split _ _ _ _ E)|]. auto.
Qed.

Lemma matches_lit : forall c f s m, In m (matches (Lit c :: f) s) -> exists s', s = String c s' /\ In m (matches f s').
Proof.
  intros c f s m H. cbn [matches] in H. destruct s as [|a s]; [destruct H|].
  destruct (Ascii.eqb_spec a c) as [->|]; [|destruct H]. eauto.
Qed.

Lemma blanks_split : forall s r, In r (blanks s) -> exists b, s = b ++ r /\ all_chars is_ws b = true /\ b <> "".
Proof.
  induction s as [|c s IH]; intros r H; [destruct H|]. cbn in H. destruct (is_ws c) eqn:E; [|destruct H].
  apply in_app_iff in H as [H|[<-|[]]].
  - destruct (IH _ H) as (b & -> & Hb & _). exists (String c b). cbn. rewrite E, Hb. repeat split. discriminate.
  - exists (String c ""). cbn. rewrite E. repeat split. discriminate.
Qed.

Lemma matches_ws : forall f s m, In m (matches (Ws :: f) s) ->
  exists b s', s = b ++ s' /\ all_chars is_ws b = true /\ b <> "" /\ In m (matches f s').
Proof.
  intros f s m H. cbn [matches] in H. apply in_flat_map in H as (r & Hr & H).
  destruct (blanks_split _ _ Hr) as (b & -> & Hb & Hne). eauto 6.
Qed.

Lemma strptime_in : forall f s vs, strptime f s = Ok vs -> In (vs, "") (matches f s).
Proof.
  intros f s vs H. unfold strptime in H. destruct (matches f s) as [|[v r] l]; [discriminate|].
  destruct (String.eqb_spec r "") as [->|]; [|discriminate]. apply Ok_inj in H. subst. left. reflexivity.
Qed.

(** * C107 *)

(** A date and time of the calendar is read from the text of the camera and from
    both German ways of writing it, as the same moment. *)
Theorem C107_every_date_is_read : forall t, exists_in_calendar t ->
  entry_time (exif_text t) = Ok t /\
  get_datetime (colon_date t) (clock_text t) = Ok t /\
  get_datetime (dot_date t) (clock_text t) = Ok t /\
  get_datetime (short_date t) (clock_text t) = Ok t.
Proof.
  intros t H. unfold get_datetime. rewrite read_colon, read_dot, read_short by exact H.
  split; [|auto]. unfold entry_time, exif_text.
  pose proof H as (Hy & Hm & Hd & Hh & Hmi & Hs).
  change (" " ++ clock_text t) with (String " "%char (clock_text t)).
  rewrite split_on_app.
  - rewrite split_on_no_char; [apply read_colon, H|].
    unfold clock_text. rewrite !has_char_app, !zfill_no by (reflexivity || lia). reflexivity.
  - unfold colon_date. rewrite !has_char_app, !zfill_no by (reflexivity || lia). reflexivity.
Qed.
Print Assumptions C107_every_date_is_read.

(** Whatever is read is a date of the calendar and stands in the text. *)
Theorem C107_only_dates_are_read : forall date time t, get_datetime_from_str date time = Ok t ->
  exists_in_calendar t /\
  exists ta tb tc b th tm ts,
    (if has_char ":"%char date
     then date ++ " " ++ time = ta ++ ":" ++ tb ++ ":" ++ tc ++ b ++ th ++ ":" ++ tm ++ ":" ++ ts /\
          int_of_str ta = Ok (year t) /\ int_of_str tc = Ok (day t)
     else date ++ " " ++ time = ta ++ "." ++ tb ++ "." ++ tc ++ b ++ th ++ ":" ++ tm ++ ":" ++ ts /\
          int_of_str ta = Ok (day t) /\ int_of_str tc = Ok (year t)) /\
    int_of_str tb = Ok (month t) /\ b <> "" /\ all_chars is_ws b = true /\
    int_of_str th = Ok (hour t) /\ int_of_str tm = Ok (minute t) /\ int_of_str ts = Ok (second t).
Proof.
  intros date time t H. unfold get_datetime_from_str in H. destruct (has_char ":"%char date).
  - destruct (strptime colon_format (date ++ " " ++ time)) as [vs|] eqn:E; [|discriminate].
    apply strptime_in in E. unfold colon_format, time_format in E. cbn [app] in E.
    apply matches_fld in E as (ta & s1 & v1 & w1 & E1 & I1 & -> & E).
    apply matches_lit in E as (s2 & -> & E). apply matches_fld in E as (tb & s3 & v2 & w2 & -> & I2 & -> & E).
    apply matches_lit in E as (s4 & -> & E). apply matches_fld in E as (tc & s5 & v3 & w3 & -> & I3 & -> & E).
    apply matches_ws in E as (b & s6 & -> & Hb & Hne & E).
    apply matches_fld in E as (th & s7 & v4 & w4 & -> & I4 & -> & E).
    apply matches_lit in E as (s8 & -> & E). apply matches_fld in E as (tm & s9 & v5 & w5 & -> & I5 & -> & E).
    apply matches_lit in E as (s10 & -> & E). apply matches_fld in E as (ts & s11 & v6 & w6 & -> & I6 & -> & E).
    destruct E as [E|[]]. injection E as <- ->. cbn [bind] in H. apply datetime_inv in H as (-> & H).
    split; [exact H|]. exists ta, tb, tc, b, th, tm, ts. cbn [year month day hour minute second].
    rewrite app_nil_s in E1. split; [split; [exact E1|]|]; auto 10.
  - destruct (strptime dot_format (date ++ " " ++ time)) as [vs|] eqn:E; [|discriminate].
    apply strptime_in in E. unfold dot_format, time_format in E. cbn [app] in E.
    apply matches_fld in E as (ta & s1 & v1 & w1 & E1 & I1 & -> & E).
    apply matches_lit in E as (s2 & -> & E). apply matches_fld in E as (tb & s3 & v2 & w2 & -> & I2 & -> & E).
    apply matches_lit in E as (s4 & -> & E). apply matches_fld in E as (tc & s5 & v3 & w3 & -> & I3 & -> & E).
    apply matches_ws in E as (b & s6 & -> & Hb & Hne & E).
    apply matches_fld in E as (th & s7 & v4 & w4 & -> & I4 & -> & E).
    apply matches_lit in E as (s8 & -> & E). apply matches_fld in E as (tm & s9 & v5 & w5 & -> & I5 & -> & E).
    apply matches_lit in E as (s10 & -> & E). apply matches_fld in E as (ts & s11 & v6 & w6 & -> & I6 & -> & E).
    destruct E as [E|[]]. injection E as <- ->. cbn [bind] in H. apply datetime_inv in H as (-> & H).
    split; [exact H|]. exists ta, tb, tc, b, th, tm, ts. cbn [year month day hour minute second].
    rewrite app_nil_s in E1. split; [split; [exact E1|]|]; auto 10.
Qed.
Print Assumptions C107_only_dates_are_read.

Lemma split_on_two : forall c s a b, split_on c s = [a; b] -> s = a ++ String c b /\ has_char c a = false /\ has_char c b = false.
Proof.
  intros c s. assert (One : forall s a, split_on c s = [a] -> s = a /\ has_char c a = false).
  { clear s. intros s. induction s as [|x s IH]; intros a H; cbn [split_on] in H; [injection H as <-; split; reflexivity|].
    destruct (Ascii.eqb x c) eqn:E; [exfalso; apply (split_on_nonempty c s); congruence|].
    destruct (split_on c s) as [|y l] eqn:F; [exfalso; apply (split_on_nonempty c s F)|]. injection H as <- ->.
    destruct (IH y eq_refl) as [-> Hy]. split; [reflexivity|]. cbn [has_char]. rewrite E. exact Hy. }
  induction s as [|x s IH]; intros a b H; cbn [split_on] in H; [discriminate|]. destruct (Ascii.eqb x c) eqn:E.
  - injection H as <- H. apply Ascii.eqb_eq in E. subst x. destruct (One s b H) as [-> Hb]. split; [reflexivity|]. split; [reflexivity|exact Hb].
  - destruct (split_on c s) as [|y l] eqn:F; [exfalso; apply (split_on_nonempty c s F)|]. injection H as <- ->.
    destruct (IH y b eq_refl) as (-> & Hy & Hb). split; [reflexivity|]. split; [cbn [has_char]; rewrite E; exact Hy|exact Hb].
Qed.

(** The entry of a photo is read only if it is a date and a time with exactly
    one blank between them. *)
Theorem C107_one_blank_in_the_entry : forall entry t,
  entry_time entry = Ok t <->
  exists date time, entry = date ++ " " ++ time /\ has_char " "%char date = false /\ has_char " "%char time = false /\
                    get_datetime_from_str date time = Ok t.
Proof.
  intros entry t. unfold entry_time. split.
  - destruct (split_on " "%char entry) as [|a [|b [|]]] eqn:E; try discriminate. intros H. exists a, b.
    destruct (split_on_two _ _ _ _ E) as (E1 & E2 & E3). split; [exact E1|]. split; [exact E2|]. split; [exact E3|exact H].
  - intros (date & time & -> & Hd & Ht & H). change (" " ++ time) with (String " "%char time). rewrite split_on_app by exact Hd.
    rewrite split_on_no_char by exact Ht. exact H.
Qed.
Print Assumptions C107_one_blank_in_the_entry.

(** The earlier date has the smaller number, and different dates have different
    numbers. *)
Theorem C107_numbers_follow_the_calendar : forall a b, exists_in_calendar a -> exists_in_calendar b ->
  (seconds a < seconds b <-> before a b) /\ (seconds a = seconds b <-> a = b).
Proof.
  intros a b Ha Hb.
  pose proof (before_seconds a b Ha Hb) as H1. pose proof (before_seconds b a Hb Ha) as H2.
  split; split; intros H.
  - destruct (before_total a b) as [B|[->|B]]; [exact B|lia|]. pose proof (H2 B). lia.
  - exact (H1 H).
  - destruct (before_total a b) as [B|[B|B]]; [|exact B|]; [pose proof (H1 B)|pose proof (H2 B)]; lia.
  - subst. reflexivity.
Qed.
Print Assumptions C107_numbers_follow_the_calendar.

(** The experiment time of a photo taken [n] seconds after the start is [n], and
    that of a photo taken [n] seconds before the start is [-n], counted through
    the ends of days, months, years and February. *)
Theorem C107_experiment_time_counts_seconds : forall raw c img k name off t0 n date,
  int_of_str img = Ok k -> name = path_join (c_dir c) (format_int (c_name c) k) ->
  offset_ms (c_offset c) = Ok off ->
  exists_in_calendar t0 -> year (later n t0) <= 9999 ->
  date = colon_date \/ date = dot_date \/ date = short_date ->
  (raw name = Ok (exif_text (later n t0)) ->
   exists real, calc_times raw c (date t0) (clock_text t0) img = Ok (Z.of_nat n, real)) /\
  (raw name = Ok (exif_text t0) ->
   exists real, calc_times raw c (date (later n t0)) (clock_text (later n t0)) img = Ok (- Z.of_nat n, real)).
Proof.
  intros raw c img k name off t0 n date Hk -> Hoff Ht Hy Hdate.
  pose proof (later_exists n t0 Ht Hy) as Hl. pose proof (later_seconds n t0 Ht Hy) as Hs.
  assert (R : forall u, exists_in_calendar u -> get_datetime (date u) (clock_text u) = Ok u).
  { intros u Hu. destruct (C107_every_date_is_read u Hu) as (_ & A & B & C).
    destruct Hdate as [-> | [-> | -> ]]; assumption. }
  split; intros E; unfold calc_times; rewrite Hk; cbn [bind]; rewrite E; cbn [bind].
  - rewrite (proj1 (C107_every_date_is_read _ Hl)). cbn [bind]. rewrite (R _ Ht), Hoff. cbn [bind].
    eexists. f_equal. f_equal. lia.
  - rewrite (proj1 (C107_every_date_is_read _ Ht)). cbn [bind]. rewrite (R _ Hl), Hoff. cbn [bind].
    eexists. f_equal. f_equal. lia.
Qed.
Print Assumptions C107_experiment_time_counts_seconds.

(** The model of the image table, which works with numbers for the date, the
    start time and the capture times, does what the program does with texts. *)
Theorem C107_numbers_stand_for_the_texts : forall raw c date start_time t0 img,
  get_datetime date start_time = Ok t0 ->
  86400 * c_date c + c_start c = seconds t0 ->
  calc_times raw c date start_time img =
  experiment_and_real_time (fun p => bind (raw p) (fun e => res_map seconds (entry_time e))) c img.
Proof.
  intros raw c date start_time t0 img H H0. unfold calc_times, experiment_and_real_time.
  destruct (int_of_str img) as [k|]; [|reflexivity]. cbn [bind].
  destruct (raw _) as [e|]; [|reflexivity]. cbn [bind].
  destruct (entry_time e) as [t|]; [|reflexivity]. cbn [bind res_map]. rewrite H. cbn [bind].
  destruct (offset_ms (c_offset c)) as [off|]; [|reflexivity]. cbn [bind]. rewrite H0. reflexivity.
Qed.
Print Assumptions C107_numbers_stand_for_the_texts.

Lemma hms_clock_text : forall t, 0 <= hour t <= 23 -> 0 <= minute t <= 59 -> 0 <= second t <= 59 ->
  hms (3600 * hour t + 60 * minute t + second t) = clock_text t.
Proof.
  intros t Hh Hm Hs. unfold hms, clock_text. set (x := 3600 * hour t + 60 * minute t + second t).
  assert (E1 : x / 3600 = hour t) by (symmetry; apply (Z.div_unique _ _ _ (60 * minute t + second t)); unfold x; lia).
  assert (E2 : x / 60 = 60 * hour t + minute t) by (symmetry; apply (Z.div_unique _ _ _ (second t)); unfold x; lia).
  assert (E3 : x mod 60 = second t) by (symmetry; apply (Z.mod_unique _ _ (60 * hour t + minute t)); unfold x; lia).
  assert (E4 : (60 * hour t + minute t) mod 60 = minute t) by (symmetry; apply (Z.mod_unique _ _ (hour t)); lia).
  rewrite E1, E2, E3, E4. reflexivity.
Qed.

(** A start time that was computed as a time of day and stored as a text is read
    back as this time on the day of the configuration. *)
Theorem C107_stored_start_time_is_read_back : forall t s, exists_in_calendar t -> 0 <= s < 86400 ->
  exists u, get_datetime (colon_date t) (hms s) = Ok u /\
    seconds u = 86400 * ordinal (year t) (month t) (day t) + s.
Proof.
  intros t s (Hy & Hm & Hd & _) Hs.
  assert (H1 : 0 <= s / 3600 <= 23) by (split; [apply Z.div_pos; lia|apply Z.lt_succ_r, Z.div_lt_upper_bound; lia]).
  pose proof (Z.mod_pos_bound s 3600 ltac:(lia)) as H2. pose proof (Z.div_mod s 3600 ltac:(lia)) as H3.
  assert (H4 : 0 <= s mod 3600 / 60 <= 59) by (split; [apply Z.div_pos; lia|apply Z.lt_succ_r, Z.div_lt_upper_bound; lia]).
  pose proof (Z.mod_pos_bound (s mod 3600) 60 ltac:(lia)) as H5. pose proof (Z.div_mod (s mod 3600) 60 ltac:(lia)) as H6.
  set (u := Moment (year t) (month t) (day t) (s / 3600) (s mod 3600 / 60) (s mod 3600 mod 60)).
  exists u.
  assert (E : hms s = clock_text u).
  { rewrite <- (hms_clock_text u) by (cbn [hour minute second u]; lia). f_equal. cbn [hour minute second u]. lia. }
  split.
  - rewrite E. change (colon_date t) with (colon_date u). apply C107_every_date_is_read.
    unfold exists_in_calendar. cbn [year month day hour minute second u]. lia.
  - unfold seconds. cbn [year month day hour minute second u]. lia.
Qed.
Print Assumptions C107_stored_start_time_is_read_back.

(** The clock in the time reference image has no date: the offset is that of the
    camera against the clock, plus one day for every midnight between them.  It
    is right iff both show the same day. *)
Theorem C107_clock_offset : forall cam clk, exists_in_calendar cam -> exists_in_calendar clk ->
  let days := ordinal (year clk) (month clk) (day clk) - ordinal (year cam) (month cam) (day cam) in
  clock_offset (exif_text cam) (clock_text clk) = Ok (seconds cam - seconds clk + 86400 * days) /\
  (clock_offset (exif_text cam) (clock_text clk) = Ok (seconds cam - seconds clk) <->
   year cam = year clk /\ month cam = month clk /\ day cam = day clk).
Proof.
  intros cam clk Hcam Hclk. cbv zeta.
  set (clk' := Moment (year cam) (month cam) (day cam) (hour clk) (minute clk) (second clk)).
  pose proof Hcam as (Hy & Hm & Hd & Hh & Hmi & Hs). pose proof Hclk as (Hy' & Hm' & Hd' & Hh' & Hmi' & Hs').
  assert (E : clock_offset (exif_text cam) (clock_text clk) = Ok (seconds cam - seconds clk')).
  { unfold clock_offset, exif_text. change (" " ++ clock_text cam) with (String " "%char (clock_text cam)).
    rewrite split_on_app.
    - rewrite split_on_no_char.
      + rewrite read_colon by exact Hcam. cbn [bind].
        change (colon_date cam) with (colon_date clk'). change (clock_text clk) with (clock_text clk').
        rewrite read_colon; [reflexivity|]. unfold exists_in_calendar, clk'. cbn [year month day hour minute second]. lia.
      + unfold clock_text. rewrite !has_char_app, !zfill_no by (reflexivity || lia). reflexivity.
    - unfold colon_date. rewrite !has_char_app, !zfill_no by (reflexivity || lia). reflexivity. }
  rewrite E. split.
  - f_equal. unfold seconds, clk'. cbn [year month day hour minute second]. lia.
  - split.
    + intros H. apply Ok_inj in H. assert (Hc : seconds clk' = seconds clk) by lia.
      apply C107_numbers_follow_the_calendar in Hc.
      * rewrite <- Hc. auto.
      * unfold exists_in_calendar, clk'. cbn [year month day hour minute second]. lia.
      * exact Hclk.
    + intros (A & B & C). f_equal. f_equal. unfold clk'. rewrite A, B, C. destruct clk; reflexivity.
Qed.
Print Assumptions C107_clock_offset.

(** A camera that is two seconds slow shortly before midnight is taken for one
    that is almost a day fast. *)
Theorem C107_clock_over_midnight_refuted :
  exists cam clk, exists_in_calendar cam /\ exists_in_calendar clk /\ later 2 cam = clk /\
    clock_offset (exif_text cam) (clock_text clk) = Ok 86398.
Proof.
  exists (Moment 2023 12 31 23 59 59), (Moment 2024 1 1 0 0 1).
  split; [unfold exists_in_calendar; cbn; lia|]. split; [unfold exists_in_calendar; cbn; lia|].
  split; vm_compute; reflexivity.
Qed.
Print Assumptions C107_clock_over_midnight_refuted.

(** The 29th of February, a date that does not exist, a date with a blank, a
    configuration without a date, and the last second of the year. *)
Example C107_example :
  exists_in_calendar (Moment 2024 2 28 23 59 59) /\
  later 2 (Moment 2024 2 28 23 59 59) = Moment 2024 2 29 0 0 1 /\
  later 2 (Moment 1900 2 28 23 59 59) = Moment 1900 3 1 0 0 1 /\
  exif_text (Moment 2024 2 29 0 0 1) = "2024:02:29 00:00:01" /\
  dot_date (Moment 2024 2 9 0 0 1) = "09.02.2024" /\ short_date (Moment 2024 2 9 0 0 1) = "9.2.2024" /\
  entry_time "2024:02:29 00:00:01" = Ok (Moment 2024 2 29 0 0 1) /\
  entry_time "2023:02:29 00:00:01" = Err ValueError /\
  entry_time "2023:02:28  00:00:01" = Err ValueError /\
  get_datetime "2023:2: 8" "  7:5:09" = Ok (Moment 2023 2 8 7 5 9) /\
  get_datetime "28.2.23" "07:05:09" = Err SystemExit /\
  get_datetime "28.02.2023" "07:05:60" = Err SystemExit /\
  get_datetime "None" "07:05:09" = Err SystemExit /\
  seconds (Moment 2024 1 1 0 0 0) - seconds (Moment 2023 12 31 23 59 59) = 1 /\
  calc_times (fun p => if (p =? "imgs/IMG_0007.JPG")%string then Ok "2024:03:01 00:00:10" else Err FileNotFoundError)
    (Config "imgs" (Template "IMG_" (Some 4%nat) ".JPG") 1 9 1 9 0 0 0 "-3") "28.2.2024" "23:59:50" "7"
  = Ok (86420, 13).
Proof.
  split; [unfold exists_in_calendar; cbn; lia|].
  split; [vm_compute; reflexivity|]. split; [vm_compute; reflexivity|]. split; [vm_compute; reflexivity|].
  split; [vm_compute; reflexivity|]. split; [vm_compute; reflexivity|]. split; [vm_compute; reflexivity|].
  split; [vm_compute; reflexivity|]. split; [vm_compute; reflexivity|]. split; [vm_compute; reflexivity|].
  split; [vm_compute; reflexivity|]. split; [vm_compute; reflexivity|]. split; [vm_compute; reflexivity|].
  split; vm_compute; reflexivity.
Qed.
