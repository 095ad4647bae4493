(** Supplements to earlier properties: C50, C91 *)
From Coq Require Import ZArith Lia Bool Ascii String List.
From Verif Require Import Base Str Config_Model Ini_Model Ini_Facts Ini_Props Ini_Props2 Main_Model Main_Props.
Import ListNotations.
Local Open Scope string_scope.
Local Open Scope Z_scope.

(** ** C50: lower case *)

(** Every upper case letter is put in lower case; nothing else is changed. *)
Theorem C50_lower_case :
  lower "ABCDEFGHIJKLMNOPQRSTUVWXYZ" = "abcdefghijklmnopqrstuvwxyz" /\
  (forall c, has_char c "ABCDEFGHIJKLMNOPQRSTUVWXYZ" = false -> lower (String c "") = String c "") /\
  forall s t, lower (s ++ t) = lower s ++ lower t.
Proof.
  split; [reflexivity|]. split.
  - intros [[] [] [] [] [] [] [] []]; vm_compute; (reflexivity || discriminate).
  - induction s as [|a s IH]; intros t; [reflexivity|]. cbn [append lower]. rewrite IH. reflexivity.
Qed.
Print Assumptions C50_lower_case.

(** ** C91: the other options *)

Lemma get_map : forall A B (f : A -> B) k l, get k (map (fun o : string * A => (fst o, f (snd o))) l) = option_map f (get k l).
Proof.
  intros A B f k l. induction l as [|[k' a] l IH]; [reflexivity|]. cbn [map get fst snd].
  destruct (k' =? k)%string; [reflexivity|exact IH].
Qed.

Lemma get_in : forall A k (l : list (string * A)) a, get k l = Some a -> In (k, a) l.
Proof.
  intros A k l a. induction l as [|[k' b] l IH]; intros H; [discriminate|]. cbn [get] in H.
  destruct (String.eqb_spec k' k) as [->|N]; [left; congruence|right; exact (IH H)].
Qed.

(** Only the option num_cores holds the parameter num_cores. *)
Definition cores_only (table : list (string * list (string * string))) : Prop :=
  Forall (fun s => Forall (fun o => snd o = "num_cores" -> fst o = "num_cores") (snd s)) table.

Lemma lookup_same : forall table f g c k, cores_only table -> (forall p, p <> "num_cores" -> f p = g p) -> k <> "num_cores" ->
  lookup (filled table f) c k = lookup (filled table g) c k.
Proof.
  intros table f g c k Ht H Hk.
  assert (O : forall h s, get s (filled table h) = option_map (map (fun o => (fst o, Some (h (snd o))))) (get s table)).
  { intros h s. unfold filled. apply (get_map _ _ (map (fun o => (fst o, Some (h (snd o)))))). }
  assert (V : forall os s, get s table = Some os ->
     get k (map (fun o => (fst o, Some (f (snd o)))) os) = get k (map (fun o => (fst o, Some (g (snd o)))) os)).
  { intros os s Hs. apply get_in in Hs. unfold cores_only in Ht. rewrite Forall_forall in Ht. specialize (Ht _ Hs). cbn [snd] in Ht.
    rewrite (get_map _ _ (fun p => Some (f p))), (get_map _ _ (fun p => Some (g p))).
    destruct (get k os) as [p|] eqn:E; [|reflexivity]. cbn [option_map]. apply get_in in E. rewrite Forall_forall in Ht.
    specialize (Ht _ E). cbn [fst snd] in Ht. rewrite (H p); [reflexivity|]. intros X. exact (Hk (Ht X)). }
  unfold lookup, section. rewrite !O.
  destruct (get c table) as [os|] eqn:Ec; [|reflexivity]. cbn [option_map]. rewrite (V _ _ Ec).
  destruct (get "DEFAULT" table) as [od|] eqn:Ed; [|reflexivity]. cbn [option_map]. rewrite (V _ _ Ed). reflexivity.
Qed.

Lemma tables_cores_only : cores_only config_table /\ cores_only analysis_table.
Proof.
  unfold cores_only, config_table, analysis_table. split;
  repeat (apply Forall_cons || apply Forall_nil); cbn [fst snd map];
  repeat (apply Forall_cons || apply Forall_nil); cbn [fst snd]; (discriminate || reflexivity).
Qed.

(** Whatever the values in the two files and the number of cores: every other option
    of every section is read as before. *)
Theorem C91_other_options_are_kept : forall fails n arg aarg, cores_safe arg -> cores_safe aarg ->
  let before := (new_file config_stmts arg, new_file analysis_stmts aarg) in
  let after := fst (run_demo fails n before) in
  exists t u t' u', load (fst before) = Ok t /\ load (snd before) = Ok u /\
    load (fst after) = Ok t' /\ load (snd after) = Ok u' /\
    forall c k, k <> "num_cores" -> lookup t' c k = lookup t c k /\ lookup u' c k = lookup u c k.
Proof.
  intros fails n arg aarg Ha Hb. cbv zeta.
  destruct (C76_created_file_is_read_back arg (proj1 Ha)) as [A _]. destruct (C76_created_file_is_read_back aarg (proj1 Hb)) as [_ B].
  unfold run_demo, edit_cores. cbn [fst snd]. destruct (Z.eqb_spec n 1) as [->|N]; cbn [fst snd].
  - do 4 eexists. split; [exact A|]. split; [exact B|]. split; [exact A|]. split; [exact B|]. intros c k _. split; reflexivity.
  - assert (Pn : plain (str_of_Z n)) by (apply str_plain).
    rewrite (edited_file config_stmts arg _ (or_introl eq_refl) Ha Pn), (edited_file analysis_stmts aarg _ (or_intror eq_refl) Hb Pn).
    destruct (C76_created_file_is_read_back _ (proj1 (with_cores_safe arg _ Ha Pn))) as [A' _].
    destruct (C76_created_file_is_read_back _ (proj1 (with_cores_safe aarg _ Hb Pn))) as [_ B'].
    do 4 eexists. split; [exact A|]. split; [exact B|]. split; [exact A'|]. split; [exact B'|]. intros c k Hk.
    assert (W : forall x p, p <> "num_cores" -> reread (with_cores (str_of_Z n) x p) = reread (x p)).
    { intros x p Hp. unfold with_cores. apply String.eqb_neq in Hp. rewrite Hp. reflexivity. }
    split; (apply lookup_same; [apply tables_cores_only|exact (W _)|exact Hk]).
Qed.
Print Assumptions C91_other_options_are_kept.

(** The files of the demo are such files. *)
Example C91_other_options_are_kept_ex : cores_safe demo_arg1 /\ cores_safe demo_arg2 /\
  exists t, load (fst (fst (run_demo (fun _ => None) 12 (new_file config_stmts demo_arg1, new_file analysis_stmts demo_arg2)))) = Ok t /\
  lookup t "DEFAULT" "num_cores" = Ok (Some "12") /\ lookup t "analyse_positions" "ignore_led_indices" = Ok (Some "781 675 746").
Proof.
  split; [exact demo_safe1|]. split; [exact demo_safe2|]. eexists. split; [vm_compute; reflexivity|].
  split; vm_compute; reflexivity.
Qed.
