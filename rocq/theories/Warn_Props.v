(** C118: warnings of parallel fits. *)
From Coq Require Import List Bool Arith Lia String.
From Verif Require Import Base Restart_Model Warn_Model.
Import ListNotations.
Local Open Scope nat_scope.

(** The place of a worker in the pool. *)
Lemma pool_split : forall (ws : list (list op)) i x r, nth i ws [] = x :: r ->
  ws = firstn i ws ++ (x :: r) :: skipn (S i) ws /\ skipn i ws = (x :: r) :: skipn (S i) ws.
Proof.
  intros ws i x r H. assert (L : i < List.length ws).
  { destruct (Nat.lt_ge_cases i (List.length ws)); [assumption|]. rewrite nth_overflow in H by assumption. discriminate. }
  assert (E : skipn i ws = (x :: r) :: skipn (S i) ws).
  { clear - H L. revert i H L. induction ws as [|a ws IH]; intros [|i] H L; cbn in L; try lia; [cbn in H |- *; congruence|].
    cbn [skipn nth] in *. apply IH; [exact H|lia]. }
  split; [|exact E]. rewrite <- E. symmetry. apply firstn_skipn.
Qed.

Lemma idle_step : forall (ws : list (list op)) i, nth i ws [] = [] ->
  firstn i ws ++ match skipn i ws with [] => [] | _ :: t => [] :: t end = ws.
Proof.
  intros ws i H. destruct (skipn i ws) as [|a t] eqn:E; rewrite <- (firstn_skipn i ws) at 2; rewrite E; [reflexivity|].
  f_equal. assert (a = []); [|congruence]. rewrite <- H. clear - E. revert i E. induction ws as [|b ws IH]; intros [|i] E; cbn in *; try discriminate; [congruence|].
  apply IH. exact E.
Qed.

(** The entries a worker still has to write. *)
Fixpoint pending (ops : list op) : list string :=
  match ops with
  | [] => []
  | Look b :: r => b :: pending r
  | Make :: r => pending r
  | Append b :: r => b :: pending r
  end.

Lemma pending_worker : forall es, pending (worker es) = es.
Proof. unfold worker. induction es as [|b es IH]; [reflexivity|]. cbn [map pending]. rewrite IH. reflexivity. Qed.

Lemma interleave_nils : forall {A} (ls : list (list A)) m, interleave ls m -> forall ls', ls' = ls -> interleave ls' m.
Proof. intros. subst. assumption. Qed.

(** Whatever the order of the operations, a run that ends without an exception has
    appended every entry of every worker exactly once, the entries of each worker in
    their order. *)
Theorem C118_no_entry_is_lost : forall entries sched w w' ws',
  run_pool sched w (map worker entries) = (w', ws', None) -> Forall (fun ops => ops = []) ws' ->
  exists m, interleave entries m /\ l_entries w' = l_entries w ++ m.
Proof.
  intros entries sched w w' ws' H Hd.
  assert (G : forall sched w ws, run_pool sched w ws = (w', ws', None) ->
            exists m, interleave (map pending ws) m /\ l_entries w' = l_entries w ++ m).
  { clear - Hd. induction sched as [|i sched IH]; intros w ws H; cbn [run_pool] in H.
    - injection H as <- <-. exists []. rewrite app_nil_r. split; [|reflexivity]. constructor.
      apply Forall_forall. intros l Hl. apply in_map_iff in Hl as (ops & <- & Hops). rewrite Forall_forall in Hd. rewrite (Hd _ Hops). reflexivity.
    - destruct (nth i ws []) as [|x r] eqn:En.
      + cbn [log_step] in H. rewrite idle_step in H by exact En. apply IH. exact H.
      + destruct (pool_split ws i x r En) as [E1 E2]. rewrite E2 in H. cbn [log_step] in H.
        destruct x as [b| |b]; cbn [log_step] in H.
        * apply IH in H as (m & Hm & El). exists m. split; [|exact El]. rewrite E1, map_app. rewrite map_app in Hm. cbn [map] in *.
          replace (pending (Look b :: r)) with (pending ((if l_dir w then [Append b] else [Make; Append b]) ++ r)) by (destruct (l_dir w); reflexivity).
          exact Hm.
        * destruct (l_dir w); [discriminate|]. apply IH in H as (m & Hm & El). exists m. split; [|exact El].
          rewrite E1, map_app. rewrite map_app in Hm. exact Hm.
        * destruct (l_dir w); [|discriminate]. apply IH in H as (m & Hm & El). exists (b :: m). cbn [l_entries] in El. rewrite <- app_assoc in El.
          split; [|exact El]. rewrite E1, map_app. rewrite map_app in Hm. cbn [map pending] in *. constructor. exact Hm. }
  destruct (G sched w _ H) as (m & Hm & El). exists m. split; [|exact El].
  rewrite map_map in Hm. rewrite (map_ext _ (fun x => x)) in Hm by (intros; apply pending_worker). rewrite map_id in Hm. exact Hm.
Qed.
Print Assumptions C118_no_entry_is_lost.

(** The forms of a worker when no other one makes the directory. *)
Definition alone (w : logs) (ops : list op) : Prop :=
  exists es, ops = map Look es \/ (exists b, ops = Append b :: map Look es /\ l_dir w = true) \/
    (exists b, ops = Make :: Append b :: map Look es /\ l_dir w = false).

Lemma alone_step : forall w ops, alone w ops -> exists w' ops', log_step w ops = Ok (w', ops') /\ alone w' ops'.
Proof.
  intros w ops (es & [->|[(b & -> & D)|(b & -> & D)]]).
  - destruct es as [|b es]; cbn [map log_step]; [exists w, []; split; [reflexivity|exists []; left; reflexivity]|].
    destruct (l_dir w) eqn:D; eexists; eexists; (split; [reflexivity|]); exists es; right; [left|right]; exists b; split; [reflexivity|exact D|reflexivity|exact D].
  - cbn [log_step]. rewrite D. eexists; eexists; split; [reflexivity|]. exists es. left. reflexivity.
  - cbn [log_step]. rewrite D. eexists; eexists; split; [reflexivity|]. exists es. right. left. exists b. split; reflexivity.
Qed.

Lemma run_one : forall sched w l1 ops l2, Forall (fun o => o = []) l1 -> Forall (fun o => o = []) l2 -> alone w ops ->
  snd (run_pool sched w (l1 ++ ops :: l2)) = None.
Proof.
  induction sched as [|i sched IH]; intros w l1 ops l2 H1 H2 Ha; [reflexivity|]. cbn [run_pool].
  destruct (Nat.eq_dec i (List.length l1)) as [->|Hi].
  - rewrite app_nth2, Nat.sub_diag by lia. cbn [nth]. destruct (alone_step w ops Ha) as (w' & ops' & -> & Ha').
    rewrite firstn_app, skipn_app, Nat.sub_diag, firstn_all, skipn_all. cbn [firstn skipn app]. rewrite app_nil_r. apply IH; assumption.
  - assert (En : nth i (l1 ++ ops :: l2) [] = []).
    { destruct (Nat.lt_ge_cases i (List.length l1)) as [L|L].
      - rewrite app_nth1 by exact L. rewrite Forall_forall in H1. apply H1. apply nth_In. exact L.
      - rewrite app_nth2 by exact L. destruct (i - List.length l1) as [|k] eqn:Ek; [lia|]. cbn [nth].
        destruct (Nat.lt_ge_cases k (List.length l2)) as [L2|L2]; [|apply nth_overflow; exact L2].
        rewrite Forall_forall in H2. apply H2. apply nth_In. exact L2. }
    rewrite En. cbn [log_step]. rewrite idle_step by exact En. apply IH; assumption.
Qed.

(** No worker is about to make the directory. *)
Definition no_make (ops : list op) : Prop := ~ In Make ops.

Lemma run_with_dir : forall sched w ws, l_dir w = true -> Forall no_make ws -> snd (run_pool sched w ws) = None.
Proof.
  induction sched as [|i sched IH]; intros w ws D H; [reflexivity|]. cbn [run_pool].
  destruct (nth i ws []) as [|x r] eqn:En.
  - cbn [log_step]. rewrite idle_step by exact En. apply IH; assumption.
  - destruct (pool_split ws i x r En) as [E1 E2]. rewrite E2.
    assert (Hx : no_make (x :: r)). { rewrite Forall_forall in H. apply H. rewrite E1. apply in_or_app. right. left. reflexivity. }
    assert (Hr : forall ops, no_make ops -> Forall no_make (firstn i ws ++ ops :: skipn (S i) ws)).
    { intros ops Ho. rewrite E1 in H. apply Forall_app in H. destruct H as [A B]. inversion B; subst. apply Forall_app. split; [exact A|]. constructor; assumption. }
    destruct x as [b| |b]; cbn [log_step].
    + rewrite D. apply IH; [exact D|]. apply Hr. cbn [app]. intros [C|C]; [discriminate|]. apply Hx. right. exact C.
    + exfalso. apply Hx. left. reflexivity.
    + rewrite D. apply IH; [reflexivity|]. apply Hr. intros C. apply Hx. right. exact C.
Qed.

(** Some order of the operations ends in an exception exactly if the directory does not
    exist and at least two workers have an entry to write. *)
Theorem C118_when_logging_can_fail : forall entries w,
  (exists sched e, snd (run_pool sched w (map worker entries)) = Some e) <->
  l_dir w = false /\ exists i j a b, i <> j /\ nth_error entries i = Some a /\ nth_error entries j = Some b /\ a <> [] /\ b <> [].
Proof.
  intros entries w. split.
  - intros (sched & e & H). destruct (l_dir w) eqn:D.
    { exfalso. rewrite run_with_dir in H; [discriminate|exact D|]. apply Forall_forall. intros ops Hin. apply in_map_iff in Hin as (es & <- & _).
      unfold worker. intros C. apply in_map_iff in C as (b & C & _). discriminate. }
    split; [reflexivity|].
    (* the first worker with entries, and another one *)
    assert (C : (exists l1 es l2, entries = l1 ++ es :: l2 /\ Forall (fun l => l = []) l1 /\ es <> []) \/ Forall (fun l => l = []) entries).
    { clear. induction entries as [|a l IH]; [right; constructor|]. destruct a as [|b a].
      - destruct IH as [(l1 & es & l2 & -> & F & N)|F]; [left|right; constructor; [reflexivity|exact F]].
        exists ([] :: l1), es, l2. split; [reflexivity|]. split; [constructor; [reflexivity|exact F]|exact N].
      - left. exists [], (b :: a), l. split; [reflexivity|]. split; [constructor|discriminate]. }
    assert (N : forall l : list (list string), Forall (fun l => l = []) l -> Forall (fun o => o = []) (map worker l)).
    { intros l F. apply Forall_forall. intros o Ho. apply in_map_iff in Ho as (x & <- & Hx). rewrite Forall_forall in F. rewrite (F x Hx). reflexivity. }
    destruct C as [(l1 & es & l2 & -> & F1 & Nes)|F].
    + assert (De : forall l : list string, {l = []} + {l <> []}) by (intros [|]; [left; reflexivity|right; discriminate]).
      destruct (Forall_Exists_dec (fun l : list string => l = []) De l2) as [F2|X].
      * exfalso. rewrite map_app in H. cbn [map] in H. rewrite run_one in H; [discriminate|apply N; exact F1|apply N; exact F2|].
        exists es. left. reflexivity.
      * apply Exists_exists in X as (b & Hb & Nb). apply In_nth_error in Hb as (k & Hk).
        exists (List.length l1), (List.length l1 + S k), es, b. split; [lia|].
        rewrite !nth_error_app2 by lia. rewrite Nat.sub_diag. replace (List.length l1 + S k - List.length l1) with (S k) by lia.
        cbn [nth_error]. repeat (split; [reflexivity || assumption|]). exact Nb.
    + exfalso. destruct entries as [|a l].
      * destruct (run_pool sched w (map worker [])) as [[w' ws'] o] eqn:E. 
        assert (o = None); [|subst o; discriminate]. clear - E. revert w E. induction sched as [|i sched IH]; intros w E; cbn [map run_pool] in E; [congruence|].
        replace (nth i (@nil (list op)) []) with (@nil op) in E by (destruct i; reflexivity). cbn [log_step] in E.
        replace (firstn i (@nil (list op)) ++ match skipn i (@nil (list op)) with [] => [] | _ :: t => [] :: t end) with (@nil (list op)) in E by (destruct i; reflexivity).
        exact (IH w E).
      * inversion F as [|? ? Ea Fl]; subst. rewrite <- (app_nil_l (map worker ([] :: l))) in H. cbn [map] in H.
        rewrite run_one in H; [discriminate|constructor|apply N; exact Fl|exists []; left; reflexivity].
  - intros (D & i & j & a & b & Hij & Hi & Hj & Na & Nb). exists [i; j; i; j], OSError.
    destruct a as [|x a]; [congruence|]. destruct b as [|y b]; [congruence|].
    assert (W : forall k es, nth_error entries k = Some es -> nth k (map worker entries) [] = worker es).
    { intros k es Hk. apply nth_error_nth. rewrite nth_error_map, Hk. reflexivity. }
    set (put := fun (k : nat) (ops : list op) (ws : list (list op)) => firstn k ws ++ match skipn k ws with [] => [] | _ :: t => ops :: t end).
    assert (P1 : forall k ops ws, k < List.length ws -> nth k (put k ops ws) [] = ops).
    { intros k ops ws L. unfold put. destruct (skipn k ws) as [|c t] eqn:E.
      - exfalso. apply (f_equal (@List.length _)) in E. rewrite skipn_length in E. cbn in E. lia.
      - rewrite app_nth2; rewrite firstn_length_le by lia; [rewrite Nat.sub_diag; reflexivity|lia]. }
    assert (P2 : forall k k' ops ws, k <> k' -> nth k' (put k ops ws) [] = nth k' ws []).
    { intros k k' ops ws Hk. unfold put. rewrite <- (firstn_skipn k ws) at 3. destruct (skipn k ws) as [|c t] eqn:E; [reflexivity|].
      assert (L : List.length (firstn k ws) = k).
      { apply firstn_length_le. apply (f_equal (@List.length _)) in E. rewrite skipn_length in E. cbn in E. lia. }
      destruct (Nat.lt_ge_cases k' k) as [G|G]; [rewrite !app_nth1 by lia; reflexivity|].
      rewrite !app_nth2 by lia. rewrite L. destruct (k' - k) as [|q] eqn:Eq; [lia|]. reflexivity. }
    assert (P3 : forall k ops ws, List.length (put k ops ws) = List.length ws).
    { intros k ops ws. unfold put. rewrite app_length. rewrite <- (firstn_skipn k ws) at 3. rewrite app_length. destruct (skipn k ws); reflexivity. }
    assert (Li : i < List.length (map worker entries)) by (rewrite map_length; apply nth_error_Some; congruence).
    assert (Lj : j < List.length (map worker entries)) by (rewrite map_length; apply nth_error_Some; congruence).
    cbn [run_pool]. rewrite (W i _ Hi). cbn [worker map log_step]. rewrite D. fold (put i ([Make; Append x] ++ map Look a) (map worker entries)).
    set (ws1 := put i ([Make; Append x] ++ map Look a) (map worker entries)).
    assert (E1 : nth j ws1 [] = worker (y :: b)) by (unfold ws1; rewrite P2 by exact Hij; apply W; exact Hj).
    rewrite E1. cbn [worker map log_step]. rewrite D. fold (put j ([Make; Append y] ++ map Look b) ws1).
    set (ws2 := put j ([Make; Append y] ++ map Look b) ws1).
    assert (E2 : nth i ws2 [] = Make :: Append x :: map Look a).
    { unfold ws2. rewrite P2 by congruence. unfold ws1. rewrite P1 by exact Li. reflexivity. }
    rewrite E2. cbn [log_step]. rewrite D. fold (put i (Append x :: map Look a) ws2).
    assert (E3 : nth j (put i (Append x :: map Look a) ws2) [] = Make :: Append y :: map Look b).
    { rewrite P2 by exact Hij. unfold ws2. rewrite P1 by (unfold ws1; rewrite P3; exact Lj). reflexivity. }
    rewrite E3. cbn [log_step l_dir]. reflexivity.
Qed.
Print Assumptions C118_when_logging_can_fail.

(** A single process never fails to log, whatever the directory. *)
Theorem C118_one_core_never_fails : forall entries sched w,
  snd (run_pool sched w [worker entries]) = None.
Proof.
  intros entries sched w. destruct (snd (run_pool sched w [worker entries])) as [e|] eqn:E; [exfalso|reflexivity].
  assert (X : exists sched e, snd (run_pool sched w (map worker [entries])) = Some e) by (exists sched, e; exact E).
  apply (proj1 (C118_when_logging_can_fail [entries] w)) in X as (_ & [|i] & [|j] & a & b & N & Hi & Hj & _); try congruence;
    [destruct j; discriminate|destruct i; discriminate|destruct i; discriminate].
Qed.
Print Assumptions C118_one_core_never_fails.

Local Open Scope string_scope.

Example C118_example :
  let start := Logs false [] in
  let pool := map worker [["a"; "b"]; ["c"]; []] in
  run_pool [0; 0; 1; 1; 0; 0; 0] start pool = (Logs true ["c"; "a"; "b"], [[]; []; []], None)%list /\
  snd (run_pool [0; 1; 0; 1] start pool) = Some OSError /\
  snd (run_pool [0; 1; 0; 1] (Logs true []) pool) = None.
Proof. vm_compute. auto. Qed.
