(** * StoreSpec: vocabulary of the statements about the store (C25-C28) *)
From Verif Require Export StoreModel StoreIndexSpec.

(** Every step is allowed. *)
Definition any_step (s : lstate) (l : label) : Prop := True.
(** The contents given to [store] satisfy [P]. *)
Definition calls_ok (P : store_key -> bytes -> Prop) (ls : list label) : Prop := forall k c, LCall k c ∈ ls -> P k c.
(** No flush deletes a file while a lookup of the same file is in progress. *)
Definition no_get_race (s : lstate) (l : label) : Prop :=
  match l with
  | LRemove k => forall t, ls_threads s !! t <> Some (GChecked k) /\ ls_threads s !! t <> Some (GTouched k)
  | _ => True
  end.
(** No operation fails and the process never dies (it can be closed). *)
Definition no_fault (s : lstate) (l : label) : Prop := l <> LFail /\ l <> LCrash.

(** The threads that have made a handle and not returned it yet. *)
Definition owned (p : pc) : option store_key :=
  match p with
  | SHeld k _ | SWrite k _ _ | SRenamed k | SAdded k | SFlush k _ _ | SSave k | SFailed k => Some k
  | SStart _ _ | GChecked _ | GTouched _ => None
  end.
(** The number of live handles of [k]: returned ones and those of the calls in progress. *)
Definition returned (k : store_key) (s : lstate) : nat := length (filter (fun h => h.1 = k) (ls_handles s)).
Definition pending (k : store_key) (s : lstate) : nat := length (filter (fun x => owned x.2 = Some k) (map_to_list (ls_threads s))).
Definition live (k : store_key) (s : lstate) : nat := returned k s + pending k s.

(** The space used by the visible files. *)
Definition disk_usage (s : lstate) : Z := foldr (fun x n => (Z.of_nat (length x.2) + n)%Z) 0%Z (map_to_list (ls_files s)).
