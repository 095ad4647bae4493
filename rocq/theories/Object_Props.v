(** C100: several calls on one object of class ExtinctionCoefficients. *)
From Coq Require Import ZArith QArith Lia Bool List Permutation.
From Verif Require Import Base Table_Model Analysis_Model Analysis_Props Object_Model.
Import ListNotations.
Local Open Scope Z_scope.

(** ** Specification *)

(** Everything that is read from files is there. *)
Definition settled {D C} (o : obj D C) : Prop := o_dist o <> [] /\ o_img o <> [] /\ o_ref o <> [].

(** [cs] are the coefficients of the images [gs], in order, each from the relative
    intensities of its own image only. *)
Definition coefficients_of {C} (f : list quot -> res C) (ms : list cell) (gs : list (Z * list entry)) (cs : list C) : Prop :=
  Forall2 (fun g c => exists rel, np_div (map e_val (snd g)) ms = Ok rel /\ f rel = Ok c) gs cs.

(** A solver that does not use earlier results (the linear one). *)
Definition forgetful {D C} (solve : list D -> option C -> list quot -> res C) : Prop :=
  forall d s rel, solve d s rel = solve d None rel.

(** ** Lemmas *)

Lemma settled_members : forall D C indices num w (o : obj D C), settled o -> set_members indices num w o = (o, None).
Proof.
  intros D C indices num w o (H1 & H2 & H3). unfold set_members, set_dist. destruct (o_dist o) eqn:E1; [congruence|].
  unfold set_img. destruct (o_img o) eqn:E2; [congruence|]. unfold set_ref. destruct (o_ref o) eqn:E3; [congruence|]. reflexivity.
Qed.

Lemma append_ok : forall D C (solve : list D -> option C -> list quot -> res C) d ms gs cs c0, forgetful solve ->
  coefficients_of (solve d None) ms gs cs -> append_loop solve d ms c0 gs = ((c0 ++ cs)%list, None).
Proof.
  intros D C solve d ms gs cs c0 Hf H. revert c0. induction H as [|[i es] c gs cs (rel & E1 & E2) H IH]; intros c0.
  - cbn [append_loop]. rewrite app_nil_r. reflexivity.
  - cbn [append_loop]. cbn [snd] in E1. rewrite E1. cbn [bind]. rewrite Hf, E2, IH, <- app_assoc. reflexivity.
Qed.

Lemma append_inv : forall D C (solve : list D -> option C -> list quot -> res C) d ms gs c0 cs e, forgetful solve ->
  append_loop solve d ms c0 gs = (cs, e) ->
  match e with
  | None => exists new, cs = (c0 ++ new)%list /\ coefficients_of (solve d None) ms gs new
  | Some e => exists gs1 g gs2 new, gs = (gs1 ++ g :: gs2)%list /\ cs = (c0 ++ new)%list /\ coefficients_of (solve d None) ms gs1 new /\
              bind (np_div (map e_val (snd g)) ms) (solve d None) = Err e
  end.
Proof.
  intros D C solve d ms gs c0 cs e Hf. revert c0. induction gs as [|[i es] gs IH]; intros c0 H; cbn [append_loop] in H.
  - injection H as <- <-. exists []. split; [rewrite app_nil_r; reflexivity|constructor].
  - destruct (np_div (map e_val es) ms) as [rel|x] eqn:E1; cbn [bind] in H.
    + rewrite Hf in H. destruct (solve d None rel) as [s|x] eqn:E2.
      * specialize (IH _ H). destruct e as [e|].
        -- destruct IH as (gs1 & g & gs2 & new & -> & -> & F & X). exists ((i, es) :: gs1), g, gs2, (s :: new).
           split; [reflexivity|]. split; [rewrite <- app_assoc; reflexivity|]. split; [|exact X].
           constructor; [exists rel; split; assumption|exact F].
        -- destruct IH as (new & -> & F). exists (s :: new). split; [rewrite <- app_assoc; reflexivity|].
           constructor; [exists rel; split; assumption|exact F].
      * injection H as <- <-. exists [], (i, es), gs, []. split; [reflexivity|]. split; [rewrite app_nil_r; reflexivity|]. split; [constructor|].
        cbn [snd]. rewrite E1. exact E2.
    + injection H as <- <-. exists [], (i, es), gs, []. split; [reflexivity|]. split; [rewrite app_nil_r; reflexivity|]. split; [constructor|].
      cbn [snd]. rewrite E1. reflexivity.
Qed.

Lemma coefficients_length : forall C (f : list quot -> res C) ms gs cs, coefficients_of f ms gs cs -> length cs = length gs.
Proof. intros C f ms gs cs H. induction H; cbn; congruence. Qed.

Lemma serial_of_coefficients : forall C (solve : option C -> list quot -> res C) ms gs cs last, memoryless solve ->
  coefficients_of (solve None) ms gs cs -> serial_loop solve ms last gs = Ok cs.
Proof.
  intros C solve ms gs cs last Hm H. revert last. induction H as [|[i es] c gs cs (rel & E1 & E2) H IH]; intros last; [reflexivity|].
  cbn [serial_loop]. cbn [snd] in E1. rewrite E1. cbn [bind]. rewrite Hm, E2. cbn [bind]. rewrite IH. reflexivity.
Qed.

Lemma call_settled : forall D C (solve : list D -> option C -> list quot -> res C) indices num w m (o o' : obj D C) r,
  settled o -> call solve indices num w m o = (o', r) -> settled o' /\ o_dist o' = o_dist o /\ o_img o' = o_img o /\ o_ref o' = o_ref o.
Proof.
  intros D C solve indices num w m o o' r Hs H. pose proof (settled_members D C indices num w o Hs) as M. destruct m as [|order|]; cbn [call] in H.
  - rewrite M in H. destruct (append_loop _ _ _ _ _) as [cs e]. injection H as <- _. split; [exact Hs|]. split; [reflexivity|]. split; reflexivity.
  - rewrite M in H. destruct (parallel _ _ _ _) as [cs|e]; injection H as <- _; (split; [exact Hs|]; split; [reflexivity|]; split; reflexivity).
  - destruct (w_times w) as [ts|e]; [destruct (_ =? _)%nat|]; injection H as <- _; (split; [exact Hs|]; split; [reflexivity|]; split; reflexivity).
Qed.

(** ** Theorems *)

(** Once distances, image data and reference intensities are there, the files they
    come from are never looked at again: only the list of times matters, for saving. *)
Theorem C100_later_files_are_ignored : forall D C (solve : list D -> option C -> list quot -> res C) indices num h h' (o : obj D C), settled o ->
  Forall2 (fun a b => snd a = snd b /\ w_times (fst a) = w_times (fst b)) h h' ->
  run solve indices num h o = run solve indices num h' o.
Proof.
  intros D C solve indices num h h' o Hs H. revert o Hs. induction H as [|[w m] [w' m'] h h' (E1 & E2) H IH]; intros o Hs; [reflexivity|].
  cbn [fst snd] in E1, E2. subst m'. cbn [run].
  assert (E : call solve indices num w m o = call solve indices num w' m o).
  { destruct m; cbn [call]; rewrite ?(settled_members D C indices num w o Hs), ?(settled_members D C indices num w' o Hs), ?E2; reflexivity. }
  rewrite E. destruct (call solve indices num w' m o) as [o1 r] eqn:Ec.
  rewrite (IH o1); [reflexivity|]. exact (proj1 (call_settled D C solve indices num w' m o o1 r Hs Ec)).
Qed.
Print Assumptions C100_later_files_are_ignored.

(** The first computation fills the object from the files of its time, if there are
    LEDs, values and reference images - also if it fails after that. *)
Theorem C100_first_computation_settles : forall D C (solve : list D -> option C -> list quot -> res C) indices num w m o' r d es,
  m <> Save -> w_dist w = Ok d -> d <> [] -> w_img w = Ok es -> reference_entries indices num es <> [] ->
  call solve indices num w m new_obj = (o', r) ->
  settled o' /\ o_dist o' = d /\ o_img o' = es /\ o_ref o' = map snd (ref_intensities (reference_entries indices num es)).
Proof.
  intros D C solve indices num w m o' r d es Hm Hd Nd He Nr H.
  set (ms := map snd (ref_intensities (reference_entries indices num es))).
  assert (M : set_members indices num w (@new_obj D C) = (Obj d es ms [], None)).
  { unfold set_members, set_dist. cbn [new_obj o_dist]. rewrite Hd. cbn [bind]. unfold set_img. cbn [o_img]. rewrite He. cbn [bind]. reflexivity. }
  assert (S : settled (Obj (C := C) d es ms [])).
  { split; [exact Nd|]. split; cbn [o_img o_ref].
    - intros ->. apply Nr. reflexivity.
    - unfold ms, ref_intensities, groups. destruct (reference_entries indices num es) as [|e l]; [congruence|].
      intros X. apply map_eq_nil in X. apply map_eq_nil in X. apply map_eq_nil in X.
      assert (Hin : In (e_led e) (keys (map e_led (e :: l)))) by (apply in_keys; left; reflexivity). rewrite X in Hin. destruct Hin. }
  destruct m as [|order|]; [| |congruence]; cbn [call] in H; rewrite M in H; cbn [o_dist o_img o_ref o_coef] in H.
  - destruct (append_loop _ _ _ _ _) as [cs e]. injection H as <- _. split; [exact S|]. split; [reflexivity|]. split; reflexivity.
  - destruct (parallel _ _ _ _) as [cs|e]; injection H as <- _; (split; [exact S|]; split; [reflexivity|]; split; reflexivity).
Qed.
Print Assumptions C100_first_computation_settles.

(** Every serial computation adds the coefficients of all images at the end of the
    list, which is never emptied. *)
Theorem C100_serial_appends : forall D C (solve : list D -> option C -> list quot -> res C) indices num ws (o : obj D C) cs,
  forgetful solve -> settled o -> coefficients_of (solve (o_dist o) None) (o_ref o) (groups e_img (o_img o)) cs ->
  run solve indices num (map (fun w => (w, Serial)) ws) o =
  (Obj (o_dist o) (o_img o) (o_ref o) (o_coef o ++ concat (repeat cs (length ws)))%list, repeat Done (length ws)).
Proof.
  intros D C solve indices num ws. induction ws as [|w ws IH]; intros o cs Hf Hs Hc.
  - cbn [map run length repeat concat]. rewrite app_nil_r. destruct o; reflexivity.
  - cbn [map run call]. rewrite (settled_members D C indices num w o Hs), (append_ok D C solve _ _ _ cs _ Hf Hc).
    rewrite (IH (Obj (o_dist o) (o_img o) (o_ref o) (o_coef o ++ cs)%list) cs Hf Hs Hc).
    cbn [o_dist o_img o_ref o_coef length repeat concat]. rewrite <- app_assoc. reflexivity.
Qed.
Print Assumptions C100_serial_appends.

(** So the result can be saved after one serial computation with a new object, and
    not after several. *)
Theorem C100_save_after_serial : forall D C (solve : list D -> option C -> list quot -> res C) indices num ws w (o : obj D C) cs ts,
  forgetful solve -> settled o -> o_coef o = [] -> coefficients_of (solve (o_dist o) None) (o_ref o) (groups e_img (o_img o)) cs ->
  w_times w = Ok ts -> length ts = length (groups e_img (o_img o)) ->
  snd (run solve indices num (map (fun w => (w, Serial)) ws ++ [(w, Save)]) o) =
  (repeat Done (length ws) ++ [if (length ws =? 1)%nat then Saved (combine ts cs) else Raised ValueError])%list.
Proof.
  intros D C solve indices num ws w o cs ts Hf Hs Hn Hc Ht Hl. pose proof (proj1 (proj2 Hs)) as Hi.
  assert (R : forall h h' (o : obj D C), run solve indices num (h ++ h') o =
    let (o1, rs) := run solve indices num h o in let (o2, rs') := run solve indices num h' o1 in (o2, (rs ++ rs')%list)).
  { clear. induction h as [|[w m] h IH]; intros h' o; cbn [app run]; [destruct (run solve indices num h' o); reflexivity|].
    destruct (call solve indices num w m o) as [o1 r]. rewrite IH. destruct (run solve indices num h o1) as [o2 rs].
    destruct (run solve indices num h' o2) as [o3 rs']. reflexivity. }
  rewrite R, (C100_serial_appends D C solve indices num ws o cs Hf Hs Hc). cbn [run call]. rewrite Ht, Hn. cbn [o_coef app].
  pose proof (coefficients_length _ _ _ _ _ Hc) as L.
  assert (P : (0 < length cs)%nat).
  { rewrite L. unfold groups. rewrite map_length. destruct (o_img o) as [|e l]; [congruence|].
    assert (Hin : In (e_img e) (keys (map e_img (e :: l)))) by (apply in_keys; left; reflexivity). destruct (keys _); [destruct Hin|cbn; lia]. }
  assert (LC : forall k, length (concat (repeat cs k)) = (k * length cs)%nat).
  { induction k as [|k IH]; [reflexivity|]. cbn [repeat concat]. rewrite app_length, IH. lia. }
  rewrite LC, Hl, <- L. destruct (Nat.eqb_spec (length ws) 1) as [E|E].
  - rewrite E. replace (1 * length cs)%nat with (length cs) by lia. rewrite Nat.eqb_refl. cbn [repeat concat snd]. rewrite app_nil_r. reflexivity.
  - destruct (Nat.eqb_spec (length cs) (length ws * length cs)) as [X|X]; [exfalso; nia|]. reflexivity.
Qed.
Print Assumptions C100_save_after_serial.

(** A computation with several processes replaces the list, whatever was in it. *)
Theorem C100_parallel_replaces : forall D C (solve : list D -> option C -> list quot -> res C) indices num w order (o : obj D C) cs n l,
  forgetful solve -> settled o -> 1 <= n -> l <> [] -> NoDup l -> complete (o_img o) n l -> Permutation order (seq 0 (Z.to_nat n)) ->
  length (o_ref o) = length l -> coefficients_of (solve (o_dist o) None) (o_ref o) (groups e_img (o_img o)) cs ->
  call solve indices num w (Parallel order) o = (Obj (o_dist o) (o_img o) (o_ref o) cs, Done).
Proof.
  intros D C solve indices num w order o cs n l Hf Hs Hn Hl Nd Hc Ho Lr F. cbn [call]. rewrite (settled_members D C indices num w o Hs).
  rewrite (C43_parallel_equals_serial C (fun _ => solve (o_dist o) (nth_error (rev (o_coef o)) 0)) order (o_img o) (o_ref o) n l); try assumption.
  - unfold serial. rewrite (serial_of_coefficients C _ _ _ cs); [reflexivity|intros s rel; reflexivity|].
    eapply Forall2_imp; [|exact F]. intros g c (rel & E1 & E2). exists rel. split; [exact E1|]. rewrite Hf. exact E2.
  - intros s rel. reflexivity.
Qed.
Print Assumptions C100_parallel_replaces.

(** A serial computation that fails at an image leaves the coefficients of the images
    before it in the list. *)
Theorem C100_failed_serial : forall D C (solve : list D -> option C -> list quot -> res C) indices num w (o o' : obj D C) e,
  forgetful solve -> settled o -> call solve indices num w Serial o = (o', Raised e) ->
  exists gs1 g gs2 new, groups e_img (o_img o) = (gs1 ++ g :: gs2)%list /\ o_coef o' = (o_coef o ++ new)%list /\
    coefficients_of (solve (o_dist o) None) (o_ref o) gs1 new /\
    bind (np_div (map e_val (snd g)) (o_ref o)) (solve (o_dist o) None) = Err e.
Proof.
  intros D C solve indices num w o o' e Hf Hs H. cbn [call] in H. rewrite (settled_members D C indices num w o Hs) in H.
  destruct (append_loop _ _ _ _ _) as [cs [x|]] eqn:E; [|discriminate]. injection H as <- <-. cbn [o_coef].
  exact (append_inv D C solve _ _ _ _ _ _ Hf E).
Qed.
Print Assumptions C100_failed_serial.

(** A first computation that fails while loading the image data keeps the
    distances it has computed: the next one takes the image data from the
    files as they are then, but not the distances. *)
Theorem C100_distances_survive_a_failure : forall D C (solve : list D -> option C -> list quot -> res C) indices num w w' m m' d e es,
  m <> Save -> m' <> Save -> w_dist w = Ok d -> d <> [] -> w_img w = Err e -> w_img w' = Ok es ->
  exists o1, call solve indices num w m new_obj = (o1, Raised e) /\ o_coef o1 = [] /\
    forall o2 r, call solve indices num w' m' o1 = (o2, r) -> o_dist o2 = d /\ o_img o2 = es.
Proof.
  intros D C solve indices num w w' m m' d e es Hm Hm' Hd Nd He He'.
  assert (M : set_members indices num w (@new_obj D C) = (Obj d [] [] [], Some e)).
  { unfold set_members, set_dist. cbn [new_obj o_dist]. rewrite Hd. cbn [bind]. unfold set_img. cbn [o_img new_obj]. rewrite He. reflexivity. }
  exists (Obj d [] [] []). split; [destruct m; [| |contradiction]; cbn [call]; rewrite M; reflexivity|]. split; [reflexivity|].
  assert (M' : set_members indices num w' (Obj (C := C) d [] [] []) = (set_ref indices num (Obj d es [] []), None)).
  { unfold set_members, set_dist. cbn [o_dist]. destruct d as [|x d]; [congruence|]. unfold set_img. cbn [o_img]. rewrite He'. reflexivity. }
  intros o2 r H. destruct m' as [|order|]; [| |contradiction]; cbn [call] in H; rewrite M' in H; unfold set_ref in H; cbn [o_dist o_img o_ref o_coef] in H.
  - destruct (append_loop _ _ _ _ _) as [cs x]. injection H as <- _. split; reflexivity.
  - destruct (parallel _ _ _ _) as [cs|x]; injection H as <- _; split; reflexivity.
Qed.
Print Assumptions C100_distances_survive_a_failure.

(** ** Examples *)

Definition two_images : list entry := [((1, 3), Some 4%Q); ((1, 5), Some 6%Q); ((2, 3), Some 2%Q); ((2, 5), Some 3%Q)].
Definition ex_world : world Z := World (Ok [7; 8]) (Ok two_images) (Ok [0%Q; 10%Q]).
(** A solver without memory: the first relative intensity. *)
Definition first_value (d : list Z) (_ : option quot) (rel : list quot) : res quot :=
  match rel with q :: _ => Ok q | [] => Err ValueError end.

Example C100_example :
  forgetful first_value /\
  snd (run first_value None 1 [(ex_world, Serial); (ex_world, Save)] new_obj) = [Done; Saved [(0%Q, Fin (4 / (4 / 1))); (10%Q, Fin (2 / (4 / 1)))]] /\
  snd (run first_value None 1 [(ex_world, Serial); (ex_world, Serial); (ex_world, Save)] new_obj) = [Done; Done; Raised ValueError] /\
  snd (run first_value None 1 [(ex_world, Serial); (ex_world, Parallel [1%nat; 0%nat]); (ex_world, Save)] new_obj) =
    [Done; Done; Saved [(0%Q, Fin (4 / (4 / 1))); (10%Q, Fin (2 / (4 / 1)))]] /\
  settled (fst (call first_value None 1 ex_world Serial new_obj)) /\
  complete (o_img (fst (call first_value None 1 ex_world Serial new_obj))) 2 [3; 5].
Proof.
  split; [intros d s rel; reflexivity|]. split; [vm_compute; reflexivity|]. split; [vm_compute; reflexivity|]. split; [vm_compute; reflexivity|].
  split; [split; [discriminate|]; split; discriminate|]. split.
  - intros e H. assert (K : In e two_images) by exact H. unfold two_images in K.
    destruct K as [<-|[<-|[<-|[<-|[]]]]]; cbn; lia.
  - intros i Hi. assert (i = 1 \/ i = 2) as [->| ->] by lia; vm_compute; reflexivity.
Qed.

Lemma first_world : forall C (solve : list Z -> option C -> list quot -> res C) o' r,
  call solve None 1 ex_world Serial new_obj = (o', r) -> settled o' /\ o_dist o' = [7; 8] /\ o_img o' = two_images.
Proof.
  intros C solve o' r H.
  destruct (C100_first_computation_settles Z C solve None 1 ex_world Serial o' r [7; 8] two_images ltac:(discriminate) eq_refl ltac:(discriminate) eq_refl ltac:(discriminate) H) as (A & B & E & _).
  split; [exact A|]. split; assumption.
Qed.

(** A solver that comes closer to the measured value from wherever it starts, as an
    optimiser with a limited number of steps does: halfway from the start to the value. *)
Definition halfway (d : list Z) (start : option Q) (rel : list quot) : res Q :=
  match rel with
  | Fin q :: _ => Ok (Qred (((match start with Some s => s | None => 0 end) + q) / 2)%Q)
  | _ => Err ValueError
  end.

(** Computing again, with the same files and the same object, gives other
    coefficients if the solver starts from the stored ones: each process starts from the
    last image of the computation before. *)
Theorem C100_same_result_again_refuted : exists (solve : list Z -> option Q -> list quot -> res Q) w order o1 o2,
  (forall d s rel q c, solve d (Some s) (Fin q :: rel) = Ok c -> Qabs.Qabs (c - q) <= Qabs.Qabs (s - q))%Q /\
  call solve None 1 w (Parallel order) new_obj = (o1, Done) /\
  call solve None 1 w (Parallel order) o1 = (o2, Done) /\
  o_coef o1 = [1 # 2; 1 # 4]%Q /\ o_coef o2 = [5 # 8; 3 # 8]%Q.
Proof.
  exists halfway, ex_world, [0%nat; 1%nat].
  exists (fst (call halfway None 1 ex_world (Parallel [0%nat; 1%nat]) new_obj)).
  exists (fst (call halfway None 1 ex_world (Parallel [0%nat; 1%nat]) (fst (call halfway None 1 ex_world (Parallel [0%nat; 1%nat]) new_obj)))).
  split; [|split; [vm_compute; reflexivity|split; [vm_compute; reflexivity|split; vm_compute; reflexivity]]].
  intros d s rel q c H. cbn [halfway] in H. apply Ok_inj in H. subst c. rewrite (Qred_correct ((s + q) / 2)).
  assert (E : ((s + q) / 2 - q == (s - q) * (1 # 2))%Q) by field. rewrite E, Qabs.Qabs_Qmult.
  change (Qabs.Qabs (1 # 2)) with (1 # 2)%Q. pose proof (Qabs.Qabs_nonneg (s - q)) as P. Lqa.lra.
Qed.
Print Assumptions C100_same_result_again_refuted.

(** Image data missing at first: the distances of the first attempt are used later. *)
Example C100_failure_example : exists o1 o2,
  call first_value None 1 (World (Ok [7; 8]) (Err FileNotFoundError) (Ok [0%Q; 10%Q])) Serial new_obj = (o1, Raised FileNotFoundError) /\
  call first_value None 1 (World (Ok [1; 2]) (Ok two_images) (Ok [0%Q; 10%Q])) Serial o1 = (o2, Done) /\ o_dist o2 = [7; 8] /\ o_img o2 = two_images.
Proof. eexists. eexists. split; [reflexivity|]. split; [vm_compute; reflexivity|]. split; reflexivity. Qed.
