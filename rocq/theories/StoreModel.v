(** * StoreModel: task-maker-store/src/lib.rs, used by many threads, with failures and crashes

    Definitions only.  A small-step semantics: a state is the disk, the memory of the process and, for each thread, where it
    is in [store] or [get].  One step is one operation of a thread on something shared with the others.

    - Mutexes: a thread holds the lock of the index from [SAdded] to [SSave] and the one of the reference counts in
      [SFlush] ([maybe_flush] keeps the guard during the whole flush); steps that need a lock are only possible when no
      (other) thread holds it.
    - A temporary file is private to its thread, its content is in [SWrite].
    - Any I/O operation of [store] may fail ([?]): the handle is dropped.  Removing a file during a flush may fail too.
    - A crash (or the end of the process) can happen at any moment: the memory is lost, the disk stays, the store is
      opened again ([FileStore::new]); [ls_saved] is the content of index.bin (written to a temporary file and renamed).
    - mark_readonly, directories and integrity checks (disabled, lib.rs:63) have no effect on the model. *)
From Verif Require Export StoreIndexModel.

Notation tid := positive.
Notation bytes := (list Z).
(** Handles know how they were obtained. *)
Inductive origin := FromStore | FromGet.
Global Instance origin_eq_dec : EqDecision origin.
Proof. solve_decision. Defined.

(** Where a thread is.  All the states of [store] after [SStart] own a handle (lib.rs:218). *)
Inductive pc :=
  | SStart (k : store_key) (chunks : list bytes)                     (* lib.rs:211-217 *)
  | SHeld (k : store_key) (chunks : list bytes)                      (* lib.rs:218: handle made *)
  | SWrite (k : store_key) (written : bytes) (chunks : list bytes)   (* lib.rs:223-238: writing the temporary file *)
  | SRenamed (k : store_key)                                         (* lib.rs:239-247: visible, not in the index *)
  | SAdded (k : store_key)                                           (* lib.rs:248-252: index locked, file added *)
  | SFlush (k : store_key) (fl : flushing) (queue : list (store_key * item)) (* index.rs:144-208, both locks *)
  | SSave (k : store_key)                                            (* lib.rs:253-257: index locked *)
  | SFailed (k : store_key)                                          (* an error is being returned *)
  | GChecked (k : store_key)                                         (* lib.rs:294-297: the file exists *)
  | GTouched (k : store_key).                                        (* lib.rs:305-308: the index was touched *)

Record lstate := LState {
  ls_files : gmap store_key bytes;       (* files under their final name *)
  ls_saved : index;                      (* the content of index.bin *)
  ls_index : index;
  ls_refs : gmap store_key nat;          (* lib.rs:71-74 [LockedFiles] *)
  ls_handles : list (store_key * origin);
  ls_threads : gmap tid pc
}.
Definition ls_empty : lstate := LState ∅ ix_empty ix_empty ∅ [] ∅.

(** lib.rs:488-497 [FileStoreHandle::new], 517-526 [clone]: the reference counts. *)
Definition ref_add (k : store_key) (m : gmap store_key nat) : gmap store_key nat := <[k := S (default 0 (m !! k))]> m.
(** lib.rs:536-549 [drop]: [None] is the panic "Ref counts are broken" (or the underflow). *)
Definition ref_drop (k : store_key) (m : gmap store_key nat) : option (gmap store_key nat) :=
  match m !! k with
  | None | Some 0 => None
  | Some (S n) => Some (if decide (n = 0) then delete k m else <[k := n]> m)
  end.
(** index.rs:176 [locked_files.ref_counts.contains_key] *)
Definition in_refs (m : gmap store_key nat) (k : store_key) : bool := bool_decide (is_Some (m !! k)).

Definition holds_index (p : pc) : bool := match p with SAdded _ | SFlush _ _ _ | SSave _ => true | _ => false end.
Definition holds_refs (p : pc) : bool := match p with SFlush _ _ _ => true | _ => false end.
Definition index_free (s : lstate) : Prop := forall t p, ls_threads s !! t = Some p -> holds_index p = false.
Definition refs_free (s : lstate) : Prop := forall t p, ls_threads s !! t = Some p -> holds_refs p = false.

Definition set_files x (s : lstate) := LState x (ls_saved s) (ls_index s) (ls_refs s) (ls_handles s) (ls_threads s).
Definition set_saved x (s : lstate) := LState (ls_files s) x (ls_index s) (ls_refs s) (ls_handles s) (ls_threads s).
Definition set_index x (s : lstate) := LState (ls_files s) (ls_saved s) x (ls_refs s) (ls_handles s) (ls_threads s).
Definition set_refs x (s : lstate) := LState (ls_files s) (ls_saved s) (ls_index s) x (ls_handles s) (ls_threads s).
Definition set_handles x (s : lstate) := LState (ls_files s) (ls_saved s) (ls_index s) (ls_refs s) x (ls_threads s).
Definition at_pc (t : tid) (p : pc) (s : lstate) := LState (ls_files s) (ls_saved s) (ls_index s) (ls_refs s) (ls_handles s) (<[t := p]> (ls_threads s)).
Definition idle (t : tid) (s : lstate) := LState (ls_files s) (ls_saved s) (ls_index s) (ls_refs s) (ls_handles s) (delete t (ls_threads s)).

(** States of [store] where an I/O error makes it return (lib.rs:225-257, each [?] and [bail!]). *)
Definition may_fail (p : pc) : option store_key :=
  match p with SHeld k _ | SWrite k _ _ | SRenamed k | SAdded k | SSave k => Some k | _ => None end.

(** Labels: the observable steps. *)
Inductive label :=
  | LCall (k : store_key) (content : bytes)   (* store(k, content) is called *)
  | LRemove (k : store_key)                   (* a flush deletes the file of [k] *)
  | LFlushed                                  (* a flush ends *)
  | LFail                                     (* an operation fails *)
  | LCrash                                    (* the process stops and the store is opened again *)
  | LNone.

(** [max], [min]: lib.rs:93-96 [max_store_size], [min_store_size]. *)
Inductive lstep (max min : Z) : lstate -> label -> lstate -> Prop :=
  (** ** [store], lib.rs:211-261 *)
  | st_call s t k chunks : ls_threads s !! t = None ->
      lstep max min s (LCall k (concat chunks)) (at_pc t (SStart k chunks) s)
  | st_handle s t k chunks : ls_threads s !! t = Some (SStart k chunks) -> refs_free s ->
      lstep max min s LNone (at_pc t (SHeld k chunks) (set_refs (ref_add k (ls_refs s)) s))
  | st_exists s t k chunks : ls_threads s !! t = Some (SHeld k chunks) -> is_Some (ls_files s !! k) ->
      lstep max min s LNone (idle t (set_handles ((k, FromStore) :: ls_handles s) s))
  | st_missing s t k chunks : ls_threads s !! t = Some (SHeld k chunks) -> ls_files s !! k = None ->
      lstep max min s LNone (at_pc t (SWrite k [] chunks) s)
  | st_write s t k w c chunks : ls_threads s !! t = Some (SWrite k w (c :: chunks)) ->
      lstep max min s LNone (at_pc t (SWrite k (w ++ c) chunks) s)
  | st_rename s t k w : ls_threads s !! t = Some (SWrite k w []) ->
      lstep max min s LNone (at_pc t (SRenamed k) (set_files (<[k := w]> (ls_files s)) s))
  | st_add s t k now ix : ls_threads s !! t = Some (SRenamed k) -> index_free s ->
      ix_add now ((fun c : bytes => Z.of_nat (length c)) <$> ls_files s !! k) k (ls_index s) = Some ix ->
      lstep max min s LNone (at_pc t (SAdded k) (set_index ix s))
  | st_no_flush s t k : ls_threads s !! t = Some (SAdded k) -> need_flush max (ls_index s) = false ->
      lstep max min s LNone (at_pc t (SSave k) s)
  | st_flush s t k : ls_threads s !! t = Some (SAdded k) -> need_flush max (ls_index s) = true -> refs_free s ->
      lstep max min s LNone (at_pc t (SFlush k (Flushing (ix_total (ls_index s)) [] []) (flush_queue (ls_index s))) s)
  | st_flush_locked s t k fl x queue : ls_threads s !! t = Some (SFlush k fl (x :: queue)) -> flush_go min fl = true ->
      in_refs (ls_refs s) x.1 = true ->
      lstep max min s LNone (at_pc t (SFlush k (flush_one (in_refs (ls_refs s)) x fl) queue) s)
  | st_flush_remove s t k fl x queue : ls_threads s !! t = Some (SFlush k fl (x :: queue)) -> flush_go min fl = true ->
      in_refs (ls_refs s) x.1 = false ->
      lstep max min s (LRemove x.1) (at_pc t (SFlush k (flush_one (in_refs (ls_refs s)) x fl) queue) (set_files (delete x.1 (ls_files s)) s))
  | st_flush_remove_fails s t k fl x queue : ls_threads s !! t = Some (SFlush k fl (x :: queue)) -> flush_go min fl = true ->
      in_refs (ls_refs s) x.1 = false ->
      lstep max min s LFail (at_pc t (SFlush k (flush_one (in_refs (ls_refs s)) x fl) queue) s)
  | st_flush_end s t k fl queue : ls_threads s !! t = Some (SFlush k fl queue) -> queue = [] \/ flush_go min fl = false ->
      lstep max min s LFlushed (at_pc t (SSave k) (set_index (flush_end fl queue) s))
  | st_flush_error s t k fl queue : ls_threads s !! t = Some (SFlush k fl queue) ->
      lstep max min s LFail (at_pc t (SFailed k) (set_index (Index (fl_total fl) ∅) s))
  | st_save s t k : ls_threads s !! t = Some (SSave k) ->
      lstep max min s LNone (idle t (set_handles ((k, FromStore) :: ls_handles s) (set_saved (ls_index s) s)))
  | st_fail s t p k : ls_threads s !! t = Some p -> may_fail p = Some k ->
      lstep max min s LFail (at_pc t (SFailed k) s)
  | st_failed s t k refs : ls_threads s !! t = Some (SFailed k) -> refs_free s -> ref_drop k (ls_refs s) = Some refs ->
      lstep max min s LNone (idle t (set_refs refs s))
  (** ** [get], lib.rs:293-310 *)
  | gt_exists s t k : ls_threads s !! t = None -> is_Some (ls_files s !! k) -> lstep max min s LNone (at_pc t (GChecked k) s)
  | gt_touch s t k now : ls_threads s !! t = Some (GChecked k) -> index_free s ->
      lstep max min s LNone (at_pc t (GTouched k) (set_index (ix_touch now k (ls_index s)) s))
  | gt_handle s t k : ls_threads s !! t = Some (GTouched k) -> refs_free s ->
      lstep max min s LNone (idle t (set_handles ((k, FromGet) :: ls_handles s) (set_refs (ref_add k (ls_refs s)) s)))
  (** ** handles *)
  | hd_clone s k o : (k, o) ∈ ls_handles s -> refs_free s ->
      lstep max min s LNone (set_handles ((k, o) :: ls_handles s) (set_refs (ref_add k (ls_refs s)) s))
  | hd_drop s k o hs refs : ls_handles s ≡ₚ (k, o) :: hs -> refs_free s -> ref_drop k (ls_refs s) = Some refs ->
      lstep max min s LNone (set_handles hs (set_refs refs s))
  (** ** lib.rs:374-399 [drop] of the store (no other thread is using it), then the process ends *)
  | st_close s ix gone : ls_threads s = ∅ ->
      (if need_flush max (ls_index s) then flush min (in_refs (ls_refs s)) (ls_index s) else (ls_index s, [])) = (ix, gone) ->
      lstep max min s LFlushed (LState (foldr delete (ls_files s) gone) ix ix ∅ [] ∅)
  | st_crash s : lstep max min s LCrash (LState (ls_files s) (ls_saved s) (ls_saved s) ∅ [] ∅).

(** Runs whose steps all satisfy [Q]. *)
Inductive lrun (Q : lstate -> label -> Prop) (max min : Z) : lstate -> list label -> lstate -> Prop :=
  | lrun_nil s : lrun Q max min s [] s
  | lrun_snoc s ls s' l s'' : lrun Q max min s ls s' -> Q s' l -> lstep max min s' l s'' -> lrun Q max min s (ls ++ [l]) s''.
