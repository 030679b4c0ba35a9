(** * PinProps3: what the small functions mean that the specifications of other properties mention (continued)

    The index of the store (C22-C24), the subtasks of a task (C39). *)
From Coq Require Import ZArith.
From Verif Require Import StoreIndexModel ScoreModel.
From stdpp Require Import gmap.

(** Using a file changes the time at which it was used, and nothing else *)
Theorem C22_touch now k ix : ix_total (ix_touch now k ix) = ix_total ix /\
  (forall k', k' <> k -> ix_known (ix_touch now k ix) !! k' = ix_known ix !! k') /\
  (forall it, ix_known ix !! k = Some it -> ix_known (ix_touch now k ix) !! k = Some (Item (i_size it) now)) /\
  (ix_known ix !! k = None -> ix_known (ix_touch now k ix) !! k = None).
Proof.
  unfold ix_touch. destruct (ix_known ix !! k) as [it|] eqn:E; cbn; split_and!; try done.
  - intros k' H. by rewrite lookup_insert_ne.
  - intros it' [= <-]. by rewrite lookup_insert.
Qed.
Print Assumptions C22_touch.
(** Adding a file that is known is using it; a new one is known with its size, which is added to the total; nothing else changes *)
Theorem C22_add now meta k ix : match ix_known ix !! k, meta with
  | Some it, _ => exists ix', ix_add now meta k ix = Some ix' /\ ix_total ix' = ix_total ix /\ ix_known ix' !! k = Some (Item (i_size it) now) /\ forall k', k' <> k -> ix_known ix' !! k' = ix_known ix !! k'
  | None, Some size => exists ix', ix_add now meta k ix = Some ix' /\ ix_total ix' = (ix_total ix + size)%Z /\ ix_known ix' !! k = Some (Item size now) /\ forall k', k' <> k -> ix_known ix' !! k' = ix_known ix !! k'
  | None, None => ix_add now meta k ix = None
  end.
Proof.
  unfold ix_add. destruct (ix_known ix !! k) as [it|] eqn:E; [|destruct meta as [size|]; [|done]];
    (eexists; split; [done|]; cbn; split; [done|]; split; [by rewrite lookup_insert|]; intros k' H; by rewrite lookup_insert_ne).
Qed.
Print Assumptions C22_add.
(** The store is flushed when its limit is reached *)
Theorem C23_need_flush limit ix : need_flush limit ix = true <-> (ix_total ix >= limit)%Z.
Proof. unfold need_flush. rewrite bool_decide_eq_true. lia. Qed.
Print Assumptions C23_need_flush.
(** The subtask with an identifier *)
Theorem C39_info t st i : NoDup (tk_subtasks t).*1 -> info_of t st = Some i <-> (st, i) ∈ tk_subtasks t.
Proof. intros H. unfold info_of. by rewrite elem_of_list_to_map. Qed.
Print Assumptions C39_info.
