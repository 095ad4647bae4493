(** C111: coordinates in the tables and the life of a process. *)
From Coq Require Import ZArith QArith Lia Bool Ascii String List Permutation Sorted.
From Verif Require Import Base Str Step3_Model Format_Model Format_Props Table_Model Table_Spec Table_Proofs Table_Props Cache_Model.
Import ListNotations.
Local Open Scope string_scope.
Local Open Scope Z_scope.

(** ** Specification *)

(** The images loaded under the options. *)
Definition images_of (o : options) : Z := number_of_images (o_overflow o) (o_first o) (o_last o) (o_skip o).

(** Step 3 in fast mode has left the records [recs i] for every image. *)
Definition measured (o : options) (files : Z -> option (list string)) (recs : Z -> list (led_data fit_data)) : Prop :=
  1 <= images_of o /\ forall i, 1 <= i <= images_of o -> exists lines, files i = Some lines /\ fast_file lines (recs i).

(** The table holds these records, every row with the coordinates [co] of its LED. *)
Definition table_with (o : options) (recs : Z -> list (led_data fit_data)) (co : coords) (t : frame) : Prop :=
  exists parts, rows t = concat parts /\
    Forall2 (fun i part => rows_of_image (fun d row => row_of_record (cols t) i d row /\ row_coordinates co (cols t) d row) (recs i) part)
            (zrange 1 (images_of o + 1)) parts.

(** The coordinates, if there are any, cover all recorded LEDs. *)
Definition usable (o : options) (recs : Z -> list (led_data fit_data)) (co : coords) : Prop :=
  forall i, 1 <= i <= images_of o -> coords_usable co (recs i).

(** No new process among the events. *)
Definition one_process (es : list event) : Prop := ~ In NewProcess es.

(** ** Lemmas *)

Lemma run_app : forall srt o a b w, run srt o (a ++ b) w = run srt o b (run srt o a w).
Proof. intros. apply fold_left_app. Qed.

Lemma create_cached : forall srt o file co files,
  snd (create srt o file (Some co) files) = Some co /\
  fst (create srt o file (Some co) files) = create_table srt co files (o_overflow o) (o_first o) (o_last o) (o_skip o).
Proof.
  intros srt o file co files. unfold create, create_table. destruct (files 1) as [lines|]; [|split; reflexivity]. cbn [bind].
  destruct (read_matrix lines) as [m|e]; [|split; reflexivity]. cbn [bind].
  destruct (Z.ltb_spec (number_of_images (o_overflow o) (o_first o) (o_last o) (o_skip o)) 1) as [L|L]; [|split; reflexivity].
  split; [reflexivity|]. rewrite zrange_nil by lia. reflexivity.
Qed.

Lemma read_channel_cache : forall srt o w c co, w_cache w = Some co -> w_cache (snd (read_channel srt o w c)) = Some co.
Proof.
  intros srt o w c co H. unfold read_channel. destruct (w_tables w c); [exact H|]. rewrite H.
  pose proof (create_cached srt o (w_coord w) co (w_results w c)) as (C & _). destruct (create srt o (w_coord w) (Some co) (w_results w c)) as (r, k). exact C.
Qed.

Lemma cache_stays : forall srt o es w co, one_process es -> w_cache w = Some co -> w_cache (run srt o es w) = Some co.
Proof.
  intros srt o es. induction es as [|e es IH]; intros w co Hp H; [exact H|]. unfold run. cbn [fold_left]. apply IH; [intros C; apply Hp; right; exact C|].
  destruct e; cbn [step w_cache]; try exact H; [exfalso; apply Hp; left; reflexivity|apply read_channel_cache; exact H].
Qed.

Lemma read_uses_cache : forall srt o w c co, w_tables w c = None -> w_cache w = Some co ->
  fst (read_channel srt o w c) = create_table srt co (w_results w c) (o_overflow o) (o_first o) (o_last o) (o_skip o).
Proof.
  intros srt o w c co Ht Hc. unfold read_channel. rewrite Ht, Hc. pose proof (create_cached srt o (w_coord w) co (w_results w c)) as (_ & C).
  destruct (create srt o (w_coord w) (Some co) (w_results w c)) as (r, k). exact C.
Qed.

Lemma measured_first : forall o files recs, measured o files recs -> exists lines m, files 1 = Some lines /\ read_matrix lines = Ok m.
Proof.
  intros o files recs (Hn & H). destruct (H 1 ltac:(lia)) as (lines & F & R). destruct (fast_file_matrix lines _ R) as (m & M & _). exists lines, m. split; assumption.
Qed.

Lemma read_fills_cache : forall srt o w c co recs, measured o (w_results w c) recs -> w_tables w c = None -> w_cache w = None ->
  read_coords (w_coord w) = Ok co ->
  fst (read_channel srt o w c) = create_table srt co (w_results w c) (o_overflow o) (o_first o) (o_last o) (o_skip o) /\
  w_cache (snd (read_channel srt o w c)) = Some co.
Proof.
  intros srt o w c co recs Hm Ht Hc Hr. unfold read_channel. rewrite Ht, Hc. unfold create.
  destruct (measured_first o _ recs Hm) as (lines & m & F & M). rewrite F. cbn [bind]. rewrite M.
  destruct Hm as (Hn & _). unfold images_of in Hn. destruct (Z.ltb_spec (number_of_images (o_overflow o) (o_first o) (o_last o) (o_skip o)) 1) as [L|L]; [lia|].
  rewrite Hr. split; reflexivity.
Qed.

Lemma table_of_measured : forall srt o files recs co, sorts srt -> measured o files recs -> usable o recs co ->
  exists t, create_table srt co files (o_overflow o) (o_first o) (o_last o) (o_skip o) = Ok t /\ table_with o recs co t.
Proof.
  intros srt o files recs co Hs (Hn & H) Hu. destruct (fast_table srt co files (o_overflow o) (o_first o) (o_last o) (o_skip o) recs Hs Hn) as (parts & E & F).
  - intros i Hi. destruct (H i Hi) as (lines & L1 & L2). exists lines. split; [exact L1|]. split; [exact L2|]. apply Hu. exact Hi.
  - eexists. split; [exact E|]. exists parts. split; [reflexivity|]. exact F.
Qed.

(** ** The theorems *)

(** The first table of a process gets the coordinates in the file, and every
    table that the process builds later gets the same, whatever has happened
    to the file in between. *)
Theorem C111_first_table_of_the_process_decides : forall srt o w c0 recs0 co es c recs,
  sorts srt ->
  (* a process that has built no table yet builds that of channel c0 *)
  w_tables w c0 = None -> measured o (w_results w c0) recs0 -> read_coords (w_coord w) = Ok co -> usable o recs0 co ->
  let w0 := step srt o w NewProcess in
  (exists t0, fst (read_channel srt o w0 c0) = Ok t0 /\ table_with o recs0 co t0) /\
  (* later in the same process that of channel c (possibly c0 again) *)
  let w1 := run srt o (ReadTable c0 :: es) w0 in
  (one_process es -> w_tables w1 c = None -> measured o (w_results w1 c) recs -> usable o recs co ->
   exists t, fst (read_channel srt o w1 c) = Ok t /\ table_with o recs co t).
Proof.
  intros srt o w c0 recs0 co es c recs Hs Ht Hm Hr Hu w0. assert (N0 : w_cache w0 = None) by reflexivity.
  destruct (read_fills_cache srt o w0 c0 co recs0 Hm Ht N0 Hr) as (R & K). split.
  - destruct (table_of_measured srt o _ recs0 co Hs Hm Hu) as (t & T1 & T2). exists t. split; [rewrite R; exact T1|exact T2].
  - intros w1 Hp Ht1 Hm1 Hu1. destruct (table_of_measured srt o _ recs co Hs Hm1 Hu1) as (t & T1 & T2). exists t. split; [|exact T2].
    rewrite (read_uses_cache srt o w1 c co Ht1); [exact T1|]. unfold w1, run. cbn [fold_left]. apply cache_stays; [exact Hp|exact K].
Qed.
Print Assumptions C111_first_table_of_the_process_decides.

(** A stored table keeps its coordinates until it is deleted, in all processes
    and whatever is written. *)
Theorem C111_stored_tables_stay : forall srt o es w c t, w_tables w c = Some t -> ~ In (DeleteTable c) es ->
  fst (read_channel srt o (run srt o es w) c) = Ok t.
Proof.
  intros srt o es w c t H Hd. assert (S : w_tables (run srt o es w) c = Some t).
  { revert w H. induction es as [|e es IH]; intros w H; [exact H|]. unfold run. cbn [fold_left]. apply IH; [intros C; apply Hd; right; exact C|].
    destruct e as [|lines|c' files|c'|c']; cbn [step w_tables]; try exact H.
    - unfold read_channel. destruct (w_tables w c') eqn:E; [exact H|]. destruct (create srt o (w_coord w) (w_cache w) (w_results w c')) as (r, k). cbn [snd w_tables].
      destruct r as [t'|]; [|exact H]. destruct (Z.eqb_spec c c') as [->|]; [congruence|exact H].
    - destruct (Z.eqb_spec c c') as [->|]; [exfalso; apply Hd; left; reflexivity|exact H]. }
  unfold read_channel. rewrite S. reflexivity.
Qed.
Print Assumptions C111_stored_tables_stay.

(** The command line calculates the coordinates before it reads any table
    (parser_arguments_run.py:96-98, __main__.py:36-40): all tables that are
    missing by then get the new coordinates. *)
Theorem C111_one_call : forall srt o w lines co before c recs,
  sorts srt -> read_coords (Some lines) = Ok co -> ~ In c before ->
  (forall c' , In c' before -> w_tables w c' = None -> exists recs', measured o (w_results w c') recs') ->
  w_tables w c = None -> measured o (w_results w c) recs -> usable o recs co ->
  exists t, fst (read_channel srt o (run srt o (NewProcess :: WriteCoordinates lines :: map ReadTable before) w) c) = Ok t /\ table_with o recs co t.
Proof.
  intros srt o w lines co before c recs Hs Hr Hnin Hb Ht Hm Hu. destruct (table_of_measured srt o _ recs co Hs Hm Hu) as (t & T1 & T2). exists t. split; [|exact T2].
  unfold run. cbn [fold_left step w_coord w_results w_tables w_cache].
  set (P := fun v => w_coord v = Some lines /\ w_results v = w_results w /\ (w_cache v = None \/ w_cache v = Some co)).
  assert (G : forall l v, P v -> w_tables v c = None -> (forall x, In x l -> w_tables v x = None -> exists r, measured o (w_results w x) r) -> ~ In c l ->
    let v' := fold_left (step srt o) (map ReadTable l) v in P v' /\ w_tables v' c = None).
  { induction l as [|x l IH]; intros v (P1 & P2 & P3) Hc Hl Hn; [split; [split; [|split]; assumption|exact Hc]|]. cbn [map fold_left step].
    assert (Q : P (snd (read_channel srt o v x)) /\ w_tables (snd (read_channel srt o v x)) c = None /\
                forall y, w_tables (snd (read_channel srt o v x)) y = None -> w_tables v y = None).
    { destruct (w_tables v x) as [tx|] eqn:Ex.
      - unfold read_channel. rewrite Ex. split; [split; [|split]; assumption|]. split; [exact Hc|]. intros y Hy. exact Hy.
      - assert (K : w_cache (snd (read_channel srt o v x)) = Some co).
        { destruct P3 as [P3|P3]; [|apply read_channel_cache; exact P3]. destruct (Hl x (or_introl eq_refl) Ex) as (r & Hr').
          apply (read_fills_cache srt o v x co r); [rewrite P2; exact Hr'|exact Ex|exact P3|rewrite P1; exact Hr]. }
        unfold P. rewrite K. unfold read_channel. rewrite Ex. destruct (create srt o (w_coord v) (w_cache v) (w_results v x)) as (r, k). cbn [snd w_coord w_results w_tables].
        split; [split; [exact P1|split; [exact P2|right; reflexivity]]|]. destruct r as [tx|]; [|split; [exact Hc|intros y Hy; exact Hy]].
        split; [destruct (Z.eqb_spec c x) as [->|]; [exfalso; apply Hn; left; reflexivity|exact Hc]|]. intros y Hy. destruct (y =? x); [discriminate|exact Hy]. }
    destruct Q as (Q1 & Q2 & Q3). apply IH; [exact Q1|exact Q2| |intros C; apply Hn; right; exact C]. intros y Hy Hy'. apply (Hl y); [right; exact Hy|apply Q3; exact Hy']. }
  destruct (G before (World (Some lines) (w_results w) (w_tables w) None)) as ((P1 & P2 & P3) & G2).
  { split; [reflexivity|]. split; [reflexivity|left; reflexivity]. }
  { exact Ht. } { intros x Hx Hx'. apply Hb; assumption. } { exact Hnin. }
  set (v := fold_left (step srt o) (map ReadTable before) (World (Some lines) (w_results w) (w_tables w) None)) in *.
  destruct P3 as [P3|P3].
  - destruct (read_fills_cache srt o v c co recs) as (R & _); [rewrite P2; exact Hm|exact G2|exact P3|rewrite P1; exact Hr|]. rewrite R, P2. exact T1.
  - rewrite (read_uses_cache srt o v c co G2 P3), P2. exact T1.
Qed.
Print Assumptions C111_one_call.

(** A coordinate file that cannot be read: no table is built and nothing is
    remembered, so that the same process can build it once the file is right. *)
Theorem C111_unreadable_coordinates : forall srt o w c recs e lines co,
  sorts srt -> w_tables w c = None -> w_cache w = None -> measured o (w_results w c) recs -> read_coords (w_coord w) = Err e ->
  read_channel srt o w c = (Err e, w) /\
  (read_coords (Some lines) = Ok co -> usable o recs co ->
   exists t, fst (read_channel srt o (run srt o [ReadTable c; WriteCoordinates lines] w) c) = Ok t /\ table_with o recs co t).
Proof.
  intros srt o w c recs e lines co Hs Ht Hc Hm Hr.
  assert (E : read_channel srt o w c = (Err e, w)).
  { unfold read_channel. rewrite Ht, Hc. unfold create.
    destruct (measured_first o _ recs Hm) as (ls & m & F & M). rewrite F. cbn [bind]. rewrite M.
    destruct Hm as (Hn & _). unfold images_of in Hn. destruct (Z.ltb_spec (number_of_images (o_overflow o) (o_first o) (o_last o) (o_skip o)) 1) as [L|L]; [lia|].
    rewrite Hr. rewrite <- Hc. destruct w; reflexivity. }
  split; [exact E|]. intros Hr' Hu. destruct (table_of_measured srt o _ recs co Hs Hm Hu) as (t & T1 & T2). exists t. split; [|exact T2].
  unfold run. cbn [fold_left step]. rewrite E. cbn [snd].
  destruct (read_fills_cache srt o (World (Some lines) (w_results w) (w_tables w) (w_cache w)) c co recs) as (R & _); [exact Hm|exact Ht|exact Hc|exact Hr'|].
  rewrite R. exact T1.
Qed.
Print Assumptions C111_unreadable_coordinates.

(** ** Examples *)

Definition eg_recs : list (led_data fit_data) := [LedData 0 0 40 1 2 None; LedData 1 0 50 1 2 None].
Definition eg_lines : list string := result_file "IMG_{}.JPG" "a" 0 "0" false eg_recs.
Definition eg_options : options := Options None 1 1 0.
Definition eg_coord_file : list string :=
  ["# LED id, pixel position x, pixel position y, x, y, z, width, height";
   "0,10,20,1.000000,2.000000,3.000000,0.000000,3.000000"; "1,10,30,1.000000,2.000000,2.500000,0.250000,2.500000"].
Definition eg_old_file : list string :=
  ["# LED id, pixel position x, pixel position y, x, y, z, width, height";
   "0,10,20,1.000000,2.000000,3.000000,0.500000,3.000000"; "1,10,30,1.000000,2.000000,2.500000,0.750000,2.500000"].
Definition eg_world (file : option (list string)) : world := World file (fun _ _ => Some eg_lines) (fun _ => None) None.

Lemma eg_measured : measured eg_options (fun _ => Some eg_lines) (fun _ => eg_recs).
Proof.
  split; [vm_compute; discriminate|]. intros i _. exists eg_lines. split; [reflexivity|]. split; [do 4 eexists; reflexivity|]. split; [|simpl; lia].
  constructor; [split; [reflexivity|simpl; lia]|]. constructor; [split; [reflexivity|simpl; lia]|]. constructor.
Qed.

Definition eg_coords (w0 w1 : Q) : coords := Some [(inject_Z 0, (w0, 3000000 # 1000000)); (inject_Z 1, (w1, 2500000 # 1000000))].
Definition eg_new : coords := eg_coords (0 # 1000000) (250000 # 1000000).
Definition eg_old : coords := eg_coords (500000 # 1000000) (750000 # 1000000).

Lemma eg_usable : forall w0 w1, usable eg_options (fun _ => eg_recs) (eg_coords w0 w1).
Proof.
  intros w0 w1 i _. split; [|split].
  - constructor; [constructor; constructor|]. constructor; [reflexivity|constructor].
  - cbn [map eg_recs d_id]. constructor; [intros [E|[]]; discriminate|]. constructor; [intros []|constructor].
  - intros d [<-|[<-|[]]]; [exists (inject_Z 0, (w0, 3000000 # 1000000))|exists (inject_Z 1, (w1, 2500000 # 1000000))]; (split; [simpl; tauto|reflexivity]).
Qed.

Lemma eg_read_new : read_coords (Some eg_coord_file) = Ok eg_new.
Proof. vm_compute. reflexivity. Qed.
Lemma eg_read_old : read_coords (Some eg_old_file) = Ok eg_old.
Proof. vm_compute. reflexivity. Qed.

(** One process: coordinates are calculated after the table of channel 0 was
    built without; the table of channel 1 has none either. *)
Theorem C111_new_tables_get_the_coordinates_refuted : exists srt o w recs lines co t,
  sorts srt /\ measured o (w_results w 1) recs /\ usable o recs co /\ read_coords (Some lines) = Ok co /\ co <> None /\
  let w1 := run srt o [NewProcess; ReadTable 0; WriteCoordinates lines] w in
  w_tables w1 1 = None /\ w_coord w1 = Some lines /\ fst (read_channel srt o w1 1) = Ok t /\ rows t <> [] /\
  forall row, In row (rows t) -> get (cols t) row "width" = Some None /\ get (cols t) row "height" = Some None.
Proof.
  exists isort, eg_options, (eg_world None), (fun _ => eg_recs), eg_coord_file, eg_new. eexists.
  split; [exact isort_sorts|]. split; [exact eg_measured|]. split; [apply eg_usable|]. split; [exact eg_read_new|]. split; [discriminate|]. cbv zeta.
  split; [vm_compute; reflexivity|]. split; [reflexivity|]. split; [vm_compute; reflexivity|]. split; [discriminate|].
  intros row [<-|[<-|[]]]; split; reflexivity.
Qed.
Print Assumptions C111_new_tables_get_the_coordinates_refuted.

(** One process: deleting a table and building it anew after the coordinates
    have changed brings the old ones back; a new process takes the new ones. *)
Theorem C111_deleting_the_table_refuted : exists srt o w lines t0 t1 t2,
  sorts srt /\
  let w1 := run srt o [NewProcess; ReadTable 0; WriteCoordinates lines; DeleteTable 0] w in
  fst (read_channel srt o (step srt o w NewProcess) 0) = Ok t0 /\
  fst (read_channel srt o w1 0) = Ok t1 /\ fst (read_channel srt o (step srt o w1 NewProcess) 0) = Ok t2 /\ t1 = t0 /\ t2 <> t1.
Proof.
  exists isort, eg_options, (eg_world (Some eg_old_file)), eg_coord_file. do 3 eexists. split; [exact isort_sorts|]. cbv zeta.
  split; [vm_compute; reflexivity|]. split; [vm_compute; reflexivity|]. split; [vm_compute; reflexivity|]. split; [reflexivity|discriminate].
Qed.
Print Assumptions C111_deleting_the_table_refuted.

Example C111_first_table_example : exists t,
  fst (read_channel isort eg_options (run isort eg_options [ReadTable 0; WriteCoordinates eg_coord_file] (step isort eg_options (eg_world (Some eg_old_file)) NewProcess)) 1) = Ok t /\
  table_with eg_options (fun _ => eg_recs) eg_old t.
Proof.
  pose proof (C111_first_table_of_the_process_decides isort eg_options (eg_world (Some eg_old_file)) 0 (fun _ => eg_recs) eg_old [WriteCoordinates eg_coord_file] 1 (fun _ => eg_recs)
    isort_sorts eq_refl eg_measured eg_read_old (eg_usable _ _)) as (_ & H). cbv zeta in H. apply H.
  - intros [E|[]]. discriminate.
  - vm_compute. reflexivity.
  - exact eg_measured.
  - apply eg_usable.
Qed.

Example C111_one_call_example : exists t,
  fst (read_channel isort eg_options (run isort eg_options [NewProcess; WriteCoordinates eg_coord_file; ReadTable 0] (eg_world (Some eg_old_file))) 1) = Ok t /\
  table_with eg_options (fun _ => eg_recs) eg_new t.
Proof.
  apply (C111_one_call isort eg_options (eg_world (Some eg_old_file)) eg_coord_file eg_new [0] 1 (fun _ => eg_recs) isort_sorts eg_read_new).
  - intros [E|[]]. discriminate.
  - intros c _ _. exists (fun _ => eg_recs). exact eg_measured.
  - reflexivity.
  - exact eg_measured.
  - apply eg_usable.
Qed.

Example C111_stored_tables_example : exists t,
  w_tables (run isort eg_options [ReadTable 0] (eg_world None)) 0 = Some t /\
  fst (read_channel isort eg_options (run isort eg_options [WriteCoordinates eg_coord_file; NewProcess; ReadTable 1] (run isort eg_options [ReadTable 0] (eg_world None))) 0) = Ok t.
Proof.
  eexists. assert (E : w_tables (run isort eg_options [ReadTable 0] (eg_world None)) 0 = Some (match fst (read_channel isort eg_options (eg_world None) 0) with Ok t => t | Err _ => Frame [] [] end)) by (vm_compute; reflexivity).
  split; [exact E|]. apply (C111_stored_tables_stay isort eg_options _ _ 0 _ E). intros [C|[C|[C|[]]]]; discriminate.
Qed.

(** A coordinate file with a word instead of a number. *)
Example C111_unreadable_example : exists e t,
  read_channel isort eg_options (eg_world (Some ["0,10,20,1.0,2.0,3.0,none,3.0"; "1,10,30,1.0,2.0,2.5,0.25,2.5"])) 0 =
    (Err e, eg_world (Some ["0,10,20,1.0,2.0,3.0,none,3.0"; "1,10,30,1.0,2.0,2.5,0.25,2.5"])) /\
  fst (read_channel isort eg_options (run isort eg_options [ReadTable 0; WriteCoordinates eg_coord_file] (eg_world (Some ["0,10,20,1.0,2.0,3.0,none,3.0"; "1,10,30,1.0,2.0,2.5,0.25,2.5"]))) 0) = Ok t /\
  table_with eg_options (fun _ => eg_recs) eg_new t.
Proof.
  destruct (C111_unreadable_coordinates isort eg_options (eg_world (Some ["0,10,20,1.0,2.0,3.0,none,3.0"; "1,10,30,1.0,2.0,2.5,0.25,2.5"])) 0 (fun _ => eg_recs) ValueError eg_coord_file eg_new isort_sorts eq_refl eq_refl eg_measured) as (E & H);
    [vm_compute; reflexivity|]. destruct (H eg_read_new (eg_usable _ _)) as (t & T1 & T2). exists ValueError, t. split; [exact E|]. split; [exact T1|exact T2].
Qed.
