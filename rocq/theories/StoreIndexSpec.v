(** * StoreIndexSpec: vocabulary of the statements about the index of the store (C22-C24) *)
From Verif Require Export StoreIndexModel.

Definition sum_sizes (l : list (store_key * item)) : Z := foldr (fun x s => (i_size x.2 + s)%Z) 0%Z l.
(** The sum of the sizes of the known files. *)
Definition known_size (ix : index) : Z := sum_sizes (map_to_list (ix_known ix)).
Definition accounted (ix : index) : Prop := ix_total ix = known_size ix /\ forall k it, ix_known ix !! k = Some it -> (0 <= i_size it)%Z.

(** Histories of operations on an index, the last one first, with what happened to the files. *)
Inductive what := WAdded (k : store_key) | WRemoved (k : store_key).
Inductive history : list what -> index -> Prop :=
  | h_new : history [] ix_empty
  | h_touch h ix now k : history h ix -> history h (ix_touch now k ix)
  | h_add h ix now size k ix' : history h ix -> (0 <= size)%Z -> ix_add now (Some size) k ix = Some ix' -> history (WAdded k :: h) ix'
  | h_flush h ix target locked ix' gone : history h ix -> flush target locked ix = (ix', gone) ->
      history (map WRemoved gone ++ h) ix'.
(** The last thing that happened to [k] is that it was added. *)
Fixpoint present (k : store_key) (h : list what) : Prop :=
  match h with
  | [] => False
  | WAdded k' :: h => k = k' \/ present k h
  | WRemoved k' :: h => k <> k' /\ present k h
  end.
