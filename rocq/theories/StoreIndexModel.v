(** * StoreIndexModel: task-maker-store/src/index.rs (in memory part)

    Definitions only.  Saving and loading are in CodecModel.v / RestartModel.v.

    - Sizes (u64) and times ([SystemTime]) are integers; the clock reading is a parameter [now].
    - [std::fs::metadata(path)] is a parameter: [Some size], or [None] for an error.
    - Keys are the abstract [store_key]s, their byte order is the order of [positive]. *)
From stdpp Require Export gmap sorting.
From Verif Require Export DagModel.

(** index.rs:24-30 [FileStoreIndexItem] *)
Record item := Item { i_size : Z; i_time : Z }.
(** index.rs:46-51 [FileStoreIndex] *)
Record index := Index { ix_total : Z; ix_known : gmap store_key item }.
Global Instance item_eq_dec : EqDecision item.
Proof. solve_decision. Defined.
(** index.rs:59-62 *)
Definition ix_empty : index := Index 0 ∅.

(** index.rs:110-114 [touch] *)
Definition ix_touch (now : Z) (k : store_key) (ix : index) : index :=
  match ix_known ix !! k with
  | Some it => Index (ix_total ix) (<[k := Item (i_size it) now]> (ix_known ix))
  | None => ix
  end.
(** index.rs:117-135 [add]; [None] is an error. *)
Definition ix_add (now : Z) (meta : option Z) (k : store_key) (ix : index) : option index :=
  match ix_known ix !! k with
  | Some it => Some (Index (ix_total ix) (<[k := Item (i_size it) now]> (ix_known ix)))
  | None => match meta with
            | Some size => Some (Index (ix_total ix + size) (<[k := Item size now]> (ix_known ix)))
            | None => None
            end
  end.
(** index.rs:138-140 [need_flush] *)
Definition need_flush (limit : Z) (ix : index) : bool := bool_decide (limit <= ix_total ix)%Z.

(** index.rs:32-36: the order of the items, lib.rs:459-463: of the keys; the heap holds pairs.  [BinaryHeap::pop]
    returns the greatest, so repeated pops visit the entries in decreasing order: [heap_ge a b] is "[a] is popped
    before [b]". *)
Definition heap_ge (a b : store_key * item) : Prop :=
  (i_time b.2 < i_time a.2)%Z \/ (i_time b.2 = i_time a.2 /\ (b.1 <= a.1)%positive).
Global Instance heap_ge_dec a b : Decision (heap_ge a b).
Proof. unfold heap_ge. apply _. Defined.

(** index.rs:154-200: the state of the loop of [flush]: the total size and the locked files that were popped.
    [fl_gone] are the files deleted from the disk, the last one first. *)
Record flushing := Flushing { fl_total : Z; fl_surviving : list (store_key * item); fl_gone : list store_key }.
(** index.rs:158-160: the queue *)
Definition flush_queue (ix : index) : list (store_key * item) := merge_sort heap_ge (map_to_list (ix_known ix)).
(** index.rs:171-196: one popped entry. *)
Definition flush_one (locked : store_key -> bool) (x : store_key * item) (fl : flushing) : flushing :=
  if locked x.1 then Flushing (fl_total fl) (fl_surviving fl ++ [x]) (fl_gone fl)
  else Flushing (fl_total fl - i_size x.2) (fl_surviving fl) (x.1 :: fl_gone fl).
(** index.rs:164-170: the condition of the loop. *)
Definition flush_go (target : Z) (fl : flushing) : bool := bool_decide (target < fl_total fl)%Z.
Fixpoint flush_loop (target : Z) (locked : store_key -> bool) (fl : flushing) (queue : list (store_key * item))
    : flushing * list (store_key * item) :=
  match queue with
  | [] => (fl, [])
  | x :: queue => if flush_go target fl then flush_loop target locked (flush_one locked x fl) queue else (fl, x :: queue)
  end.
(** index.rs:199-206: what is put back. *)
Definition flush_end (fl : flushing) (rest : list (store_key * item)) : index :=
  Index (fl_total fl) (list_to_map (fl_surviving fl ++ rest)).
(** index.rs:144-208 [flush]: the new index and the files deleted from disk. *)
Definition flush (target : Z) (locked : store_key -> bool) (ix : index) : index * list store_key :=
  let '(fl, rest) := flush_loop target locked (Flushing (ix_total ix) [] []) (flush_queue ix) in
  (flush_end fl rest, fl_gone fl).
(** index.rs:181-186: [flush] when the base directory cannot be resolved after the first removal: the error is
    returned and the map stays drained. *)
Fixpoint flush_until_removal (target : Z) (locked : store_key -> bool) (fl : flushing) (queue : list (store_key * item)) : flushing :=
  match queue with
  | [] => fl
  | x :: queue => if flush_go target fl then
                    let fl' := flush_one locked x fl in
                    if locked x.1 then flush_until_removal target locked fl' queue else fl'
                  else fl
  end.
Definition flush_error (target : Z) (locked : store_key -> bool) (ix : index) : index * list store_key :=
  let fl := flush_until_removal target locked (Flushing (ix_total ix) [] []) (flush_queue ix) in
  (Index (fl_total fl) ∅, fl_gone fl).
