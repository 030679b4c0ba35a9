(** * C103: task-maker-tools reset removes the storage, if it is asked to. *)
From Verif Require Import ResetSpec ResetProofs.

(** An answer that is not a yes, or none: nothing is touched. *)
Theorem C103_not_asked line w : (forall l, line = Some l -> ~ says_yes l) ->
  main_reset line w = (match line with None => ErrStdin | Some _ => OK end, w).
Proof.
  intros H. destruct line as [l|]; [|done]. simpl. destruct (confirmed l) eqn:E; [|done].
  by apply confirmed_spec, (H l) in E.
Qed.

(** A storage that does not exist is an error. *)
Theorem C103_missing l w : says_yes l -> w_store w = SAbsent -> main_reset (Some l) w = (ErrMissing, w).
Proof. intros H%confirmed_spec Hs. simpl. by rewrite H, Hs. Qed.

(** A storage that is a file stays, with a success. *)
Theorem C103_file l w : says_yes l -> w_store w = SFile -> main_reset (Some l) w = (OK, w).
Proof. intros H%confirmed_spec Hs. simpl. by rewrite H, Hs. Qed.

(** The storage is removed, exactly when the entry can be removed from its parent and each directory of it is either
    reached by the first pass (all those above it can be listed) or can be removed as it is. *)
Lemma main_dir l w m es : says_yes l -> w_store w = SDir m es ->
  main_reset (Some l) w = (OK, World
    (if (remove (writable (NDir m es)).1).2 && w_parent w then SAbsent else
      SDir rwx (remove (writable (NDir m es)).1).1)
    (fold_left chmod_out (writable (NDir m es)).2 (w_outside w)) (w_parent w)).
Proof.
  intros H%confirmed_spec Hs. unfold main_reset. rewrite H, Hs, (writable_dir m es).
  destruct (p_r m); cbn [fst snd];
    match goal with |- context [remove ?x] => destruct (remove x) as [l1 []] end; done.
Qed.
Theorem C103_removed l w m es : says_yes l -> w_store w = SDir m es ->
  (main_reset (Some l) w).1 = OK /\
  (w_store (main_reset (Some l) w).2 = SAbsent <-> w_parent w = true /\
    forall b m' es', inside (NDir m es) b (NDir m' es') -> b = true \/ user_removable m' es').
Proof.
  intros H Hs. rewrite (main_dir _ _ _ _ H Hs). split; [done|]. cbn [snd w_store].
  rewrite <- (writable_removable (NDir m es)).
  destruct (remove _) as [l1 []]; simpl; destruct (w_parent w); naive_solver.
Qed.

(** Directories that cannot be written or entered do not stop it: it is enough that all can be listed. *)
Lemma inside_readable n b x : inside n b x -> (forall b' m es, inside n b' (NDir m es) -> p_r m = true) -> b = true.
Proof.
  induction 1 as [|m es name child b x Hin Hi IH]; intros H; [done|].
  rewrite (H _ _ _ (inside_here _)). simpl. apply IH. intros b' m' es' Hc. eapply H. by econstructor.
Qed.
Theorem C103_read_only l w m es : says_yes l -> w_store w = SDir m es -> w_parent w = true ->
  (forall b m' es', inside (NDir m es) b (NDir m' es') -> p_r m' = true) ->
  w_store (main_reset (Some l) w).2 = SAbsent.
Proof.
  intros H Hs Hp Hr. apply (C103_removed _ _ _ _ H Hs). split; [done|]. intros b m' es' Hi. left.
  by eapply inside_readable.
Qed.

(** Outside of the storage: no directory is added or removed; the permissions of exactly those that a link of the
    storage reached by the first pass points to, and that the user owns, become 755. *)
Theorem C103_outside l w m es o : says_yes l -> w_store w = SDir m es ->
  (forall d, w_outside w !! o = Some d -> exists d', w_outside (main_reset (Some l) w).2 !! o = Some d' /\
    (o_owned d = true /\ linked (NDir m es) o -> d' = OutDir rwx true) /\
    (~ (o_owned d = true /\ linked (NDir m es) o) -> d' = d)) /\
  (w_outside w !! o = None -> w_outside (main_reset (Some l) w).2 !! o = None).
Proof.
  intros H Hs. rewrite (main_dir _ _ _ _ H Hs). cbn [snd w_outside]. rewrite chmod_lookup. split.
  - intros d ->. cbn [fmap option_fmap option_map]. eexists. split; [done|]. rewrite <- targets_linked. split.
    + intros [-> Hl]. by rewrite (bool_decide_eq_true_2 _ Hl).
    + intros Hn. destruct (o_owned d) eqn:Eo; [|done]. rewrite bool_decide_eq_false_2; [done|]. intros Hl. by apply Hn.
  - by intros ->.
Qed.

(** The storage is where the change stops, one would hope. *)
Definition C103_only_the_storage : Prop := forall line w, w_outside (main_reset line w).2 = w_outside w.
Definition dir : perm := Perm true true true.
Definition hidden : perm := Perm false true true.
Definition read_only : perm := Perm true false true.
Definition answer (s : string) : list ascii := list_ascii_of_string s.
Definition private := OutDir (Perm true false false) true.
Definition linking := World (SDir dir [("data"%string, NLink (Some 1%positive))]) {[1%positive := private]} true.
(** It does not: the chmod follows the symbolic links of the storage. *)
Theorem C103_link_refuted : ~ C103_only_the_storage.
Proof.
  intros H. specialize (H (Some (answer "y")) linking).
  apply (f_equal (lookup 1%positive)) in H. vm_compute in H. discriminate H.
Qed.

(** After a yes and a success, the storage is gone, one would hope. *)
Definition C103_gone : Prop := forall l w m es, says_yes l -> w_store w = SDir m es -> w_parent w = true ->
  (main_reset (Some l) w).1 = OK -> w_store (main_reset (Some l) w).2 = SAbsent.
(** It may not be: what is inside of a directory that could not be listed is not made writable, and the failure of
    the removal is only printed. *)
Definition hiding := World (SDir dir [("a"%string, NDir hidden [("b"%string, NDir read_only [("c"%string, NFile)])])]) ∅ true.
Lemma y_yes : says_yes (answer "y").
Proof. exists [], "y"%char, []. repeat split; [constructor..|by left]. Qed.
Theorem C103_left_refuted : ~ C103_gone.
Proof.
  intros H. specialize (H _ hiding _ _ y_yes eq_refl eq_refl eq_refl).
  vm_compute in H. discriminate H.
Qed.

(** The same tree with the directory listed is removed, whatever the other permissions. *)
Definition closed : perm := Perm true false false.
Definition boxes := World (SDir closed [("sandbox"%string, NDir closed [("box"%string, NDir read_only [("in"%string, NFile)]);
  ("ln"%string, NLink None)]); ("cache"%string, NFile)]) {[1%positive := private]} true.
Theorem C103_example :
  says_yes (answer " Y
") /\ ~ says_yes (answer "yes") /\ ~ says_yes (answer "") /\
  w_store (main_reset (Some (answer "y
")) boxes).2 = SAbsent /\
  w_store (main_reset (Some (answer "n
")) boxes).2 = w_store boxes /\
  w_outside (main_reset (Some (answer "y")) boxes).2 !! 1%positive = Some private /\
  w_outside (main_reset (Some (answer "y")) linking).2 !! 1%positive = Some (OutDir rwx true) /\
  (forall b m es, inside (NDir closed [("cache"%string, NFile)]) b (NDir m es) -> p_r m = true).
Proof.
  assert (Hno : forall s, confirmed s = false -> ~ says_yes s) by (intros s E H%confirmed_spec; congruence).
  split. { apply confirmed_spec. by vm_compute. }
  do 2 (split; [apply Hno; by vm_compute|]).
  do 4 (split; [by vm_compute|]).
  intros b m es [[_ [= -> ->]]|(nm&c&b'&Hin&Hc&_)]%inside_dir; [done|].
  apply elem_of_list_singleton in Hin. injection Hin as -> ->. inversion Hc.
Qed.

Print Assumptions C103_not_asked.
Print Assumptions C103_missing.
Print Assumptions C103_file.
Print Assumptions C103_removed.
Print Assumptions C103_read_only.
Print Assumptions C103_outside.
Print Assumptions C103_link_refuted.
Print Assumptions C103_left_refuted.
Print Assumptions C103_example.
