(** * BadLoopProofs: the invariant of the search *)
From Verif Require Import BadLoopModel BadLoopSpec.
From Coq Require Import Ascii String.
From stdpp Require Import base list.

Definition is_task (m : lmsg) : bool := match m with LTask => true | _ => false end.
Definition tasks (l : list (nat * lmsg)) : nat := length (filter (fun jm => is_task jm.2 = true) l).
Lemma tasks_app l1 l2 : tasks (l1 ++ l2) = tasks l1 + tasks l2.
Proof. unfold tasks. by rewrite filter_app, app_length. Qed.
Lemma tasks_one j m : tasks [(j, m)] = if is_task m then 1 else 0.
Proof. unfold tasks. rewrite filter_cons, filter_nil. cbn. by destruct m. Qed.
Lemma tasks_cons j m l : tasks ((j, m) :: l) = (if is_task m then 1 else 0) + tasks l.
Proof. change ((j, m) :: l) with ([(j, m)] ++ l). by rewrite tasks_app, tasks_one. Qed.
Definition qmsgs (q : list qitem) : list (nat * lmsg) := omap (fun x => match x with QMsg i m => Some (i, m) | QStop => None end) q.
Lemma qmsgs_app q1 q2 : qmsgs (q1 ++ q2) = qmsgs q1 ++ qmsgs q2.
Proof. apply omap_app. Qed.
Lemma heard_app l1 l2 : heard (l1 ++ l2) = heard l1 ++ heard l2.
Proof. apply filter_app. Qed.
Lemma fails_heard m : fails m -> noisy m = false.
Proof. by intros (tc & ms & sc & -> & _). Qed.
Lemma about_heard m tc : about m = Some tc -> noisy m = false.
Proof. by destruct m. Qed.
Lemma elem_heard j m l : noisy m = false -> (j, m) ∈ l <-> (j, m) ∈ heard l.
Proof. intros H. unfold heard. rewrite elem_of_list_filter. naive_solver. Qed.
Lemma fails_dec m : Decision (fails m).
Proof.
  destruct m as [| | | | |tc sc ms|]; try (right; intros (tc' & ms' & sc' & E & _); done).
  destruct (f64_eq sc f64_one) eqn:E.
  - right. intros (tc' & ms' & sc' & E1 & E2). injection E1 as -> -> ->. congruence.
  - left. by exists tc, ms, sc.
Qed.

Section proof.
Context (B : nat -> batch) (size n : nat).
Hypothesis HN : numbered B size n.

(** The order of the messages: batch [j] begins with the [j]-th task *)
Fixpoint wf (k : nat) (l : list (nat * lmsg)) : Prop :=
  match l with
  | [] => True
  | (j, m) :: l =>
    (m = LTask -> j = k) /\ (forall tc, about m = Some tc -> k = S j /\ is_Some (B j !! tc)) /\
    wf (if is_task m then S k else k) l
  end.
Lemma wf_app l1 l2 k : wf k (l1 ++ l2) <-> wf k l1 /\ wf (k + tasks l1) l2.
Proof.
  revert k. induction l1 as [|[j m] l1 IH]; intros k; cbn [app wf].
  - unfold tasks. cbn. rewrite Nat.add_0_r. tauto.
  - rewrite IH, tasks_cons. destruct (is_task m); [replace (S k + tasks l1) with (k + (1 + tasks l1)) by lia|replace (k + tasks l1) with (k + (0 + tasks l1)) by lia]; tauto.
Qed.
Lemma wf_elem l k j m tc : wf k l -> (j, m) ∈ l -> about m = Some tc -> S j <= k + tasks l /\ is_Some (B j !! tc).
Proof.
  revert k. induction l as [|[j' m'] l IH]; intros k; [by intros _ ?%elem_of_nil|]. cbn [wf]. intros (_ & H & W) [E|E]%elem_of_cons Hm.
  - injection E as <- <-. destruct (H tc Hm) as [-> ?]. rewrite tasks_cons. split; [lia|done].
  - destruct (IH _ W E Hm) as [? ?]. split; [|done]. rewrite tasks_cons. destruct (is_task m'); lia.
Qed.
(* a message that says nothing *)
Lemma wf_other l1 j l2 k : wf k (l1 ++ l2) -> wf k (l1 ++ (j, LOther) :: l2).
Proof. rewrite !wf_app. cbn [wf]. intros [? ?]. split; [done|]. split; [done|]. by split. Qed.

(** ** The UI *)
Definition shown_ok (u : ui) (a : list (nat * lmsg)) : Prop :=
  length (u_batches u) = tasks a /\
  forall k l, rev (u_batches u) !! k = Some l -> length l = size /\ forall x, x < size -> l !! x = Some (status_after a (k * size + x)).

Lemma status_after_snoc a j m tc : status_after (a ++ [(j, m)]) tc =
  match (if decide (about m = Some tc) then shows m else None) with Some st => st | None => status_after a tc end.
Proof.
  unfold status_after. rewrite omap_app. cbn [omap list_omap snd].
  destruct (if decide (about m = Some tc) then shows m else None) as [st|].
  - by rewrite last_snoc.
  - by rewrite app_nil_r.
Qed.
Lemma shown_same u u' a j m : shown_ok u a -> u_batches u' = u_batches u -> is_task m = false -> shows m = None -> shown_ok u' (a ++ [(j, m)]).
Proof.
  intros [H1 H2] E Ht Hs. split.
  - by rewrite E, tasks_app, tasks_one, Ht, Nat.add_0_r.
  - rewrite E. intros k l Hk. destruct (H2 k l Hk) as [Hl Hx]. split; [done|]. intros x Hx'. rewrite status_after_snoc, Hs.
    by destruct (decide _); apply Hx.
Qed.
Lemma shown_task u a j : shown_ok u a -> wf 0 a -> tasks a <= n ->
  shown_ok (Ui (replicate size TPending :: u_batches u) (u_generated u) (u_solved u)) (a ++ [(j, LTask)]).
Proof.
  intros [H1 H2] W Hn. split.
  - cbn. by rewrite tasks_app, tasks_one, H1, Nat.add_comm.
  - cbn [u_batches rev]. intros k l [Hk|[Hk E]]%lookup_app_Some.
    + destruct (H2 k l Hk) as [Hl Hx]. split; [done|]. intros x Hx'. rewrite status_after_snoc. cbn. by apply Hx.
    + destruct (k - length (rev (u_batches u))) as [|z] eqn:Ek; [|done]. cbn in E. injection E as <-. rewrite rev_length in *.
      split; [by rewrite replicate_length|]. intros x Hx. rewrite lookup_replicate_2 by done. f_equal. rewrite status_after_snoc. cbn.
      unfold status_after. replace (omap _ a) with (@nil tstatus); [done|]. symmetry. assert (k = tasks a) as -> by lia. clear -W HN Hn Hx.
      assert (A : forall j m tc, (j, m) ∈ a -> about m = Some tc -> tc < tasks a * size).
      { intros j' m tc Hin Hm. destruct (wf_elem a 0 j' m tc W Hin Hm) as [Hj Hb]. destruct (HN j' tc) as (x' & Hx' & ->); [lia|done|]. nia. }
      clear W. assert (G : forall b, (forall jm, jm ∈ b -> jm ∈ a) -> omap (fun jm : nat * lmsg => if decide (about jm.2 = Some (tasks a * size + x)) then shows jm.2 else None) b = []).
      { induction b as [|[j' m'] b IH]; intros Hb; [done|]. cbn [omap list_omap snd]. rewrite decide_False.
        - apply IH. intros jm Hjm. apply Hb. by right.
        - intros E. pose proof (A j' m' _ (Hb _ (elem_of_list_here _ _)) E). lia. }
      by apply G.
Qed.
Lemma shown_set u a j m tc st : shown_ok u a -> about m = Some tc -> shows m = Some st -> tasks a = S j -> j <= n -> is_Some (B j !! tc) ->
  exists u', set_status size tc st u = Some u' /\ u_generated u' = u_generated u /\ u_solved u' = u_solved u /\ shown_ok u' (a ++ [(j, m)]).
Proof.
  intros [H1 H2] Ha Hs Ht Hj Hb. destruct (HN j tc Hj Hb) as (x & Hx & ->). unfold set_status. destruct (u_batches u) as [|b bs] eqn:Eb; [cbn in H1; lia|].
  cbn [length] in H1. assert (Hbs : length bs = j) by lia. assert (Hlast : rev (b :: bs) !! j = Some b).
  { cbn [rev]. rewrite lookup_app_r; rewrite rev_length; [|lia]. by rewrite Hbs, Nat.sub_diag. }
  destruct (H2 j b Hlast) as [Hl Hst]. rewrite decide_False by lia. assert (Em : (j * size + x) mod size = x).
  { rewrite Nat.add_comm, Nat.mod_add by lia. by apply Nat.mod_small. }
  rewrite Em, decide_True by lia. eexists. split; [done|]. split; [done|]. split; [done|]. split.
  - cbn. rewrite tasks_app, tasks_one. destruct m; cbn in *; try lia; done.
  - cbn [u_batches rev]. intros k l [Hk|[Hk E]]%lookup_app_Some.
    + assert (Hk' : k < j) by (apply lookup_lt_Some in Hk; rewrite rev_length in Hk; lia).
      destruct (H2 k l) as [Hl' Hx']; [cbn [rev]; rewrite lookup_app_l; [done|rewrite rev_length; lia]|]. split; [done|]. intros x' Hx''.
      rewrite status_after_snoc, decide_False; [by apply Hx'|]. rewrite Ha. intros E. injection E as E. nia.
    + rewrite rev_length in *. destruct (k - length bs) as [|z] eqn:Ek; [|done]. cbn in E. injection E as <-. assert (k = j) as -> by lia.
      split; [by rewrite insert_length|]. intros x' Hx'. rewrite status_after_snoc. rewrite Ha. destruct (decide (x' = x)) as [->|Ne].
      * rewrite decide_True by done. rewrite Hs. apply list_lookup_insert. lia.
      * rewrite decide_False by (intros E; injection E as E; lia). rewrite list_lookup_insert_ne by done. by apply Hst.
Qed.
End proof.
