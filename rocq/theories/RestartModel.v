(** * RestartModel: saving and loading the index of the store and the cache

    Definitions only.  task-maker-store/src/index.rs:54-108, task-maker-cache/src/storage.rs:34-102.

    - The disk has two files: the main one ([index.bin] / the cache file) and the temporary one.  A crash leaves the
      files as the completed system calls left them; the loss of unsynchronised data in a power failure is not modelled.
    - The process may stop (crash, kill, or an error returned early) at every step. *)
From Verif Require Export CodecModel.
Open Scope N_scope.

(** index.rs:21, storage.rs:20; [CARGO_PKG_VERSION] is 0.6.1 (Cargo.toml:3 of both crates) *)
Definition newline : string := String (Ascii.ascii_of_N 10) EmptyString.
Definition store_magic : list N := str_bytes ("task-maker-store v0.6.1" +:+ newline).
Definition cache_magic : list N := str_bytes ("task-maker-cache v0.6.1" +:+ newline).

(** index.rs:54-85 / storage.rs:34-73: [None] is an error.
    - a missing file is empty content;
    - [read_exact] succeeds and the magic differs: empty content;
    - a file shorter than the magic: [read_exact] fails after consuming everything, [map_or(false, ..)] makes the
      function go on and deserialize from the end of the file. *)
Definition load {A} (magic : list N) (empty : A) (d : decoder A) (main : option (list N)) : option A :=
  match main with
  | None => Some empty
  | Some bs =>
    if (length bs <? length magic)%nat then fst <$> d []
    else if decide (take (length magic) bs = magic) then fst <$> d (drop (length magic) bs)
    else Some empty
  end.
Definition load_index : option (list N) -> option index := load store_magic ix_empty dec_index.
Definition load_cache : option (list N) -> option cache := load cache_magic [] dec_cache.

(** What is written for a content: index.rs:99-104, storage.rs:85-93 (the order of the hash map is arbitrary). *)
Definition index_file (ix : index) (bs : list N) : Prop :=
  exists l, l ≡ₚ map_to_list (ix_known ix) /\ bs = store_magic ++ enc_index (ix_total ix) l.
Definition cache_file (c : cache) (bs : list N) : Prop :=
  exists l, l ≡ₚ c /\ bs = cache_magic ++ enc_cache l.

(** ** The steps of [store] *)
Record disk := Disk { d_main : option (list N); d_tmp : option (list N) }.
(** The process: before creating the file; writing ([buf]: in the [BufWriter], [todo]: not yet given to it); the writer
    has been dropped; renamed. *)
Inductive saving := SIdle | SWriting (buf todo : list N) | SDropped | SRenamed.
(** [lossy]: the flush made by the drop of the [BufWriter] may fail; such a failure is ignored (index.rs:104,
    storage.rs:92: the writer is moved into [serialize_into] and never flushed explicitly). *)
Inductive save_step (lossy : bool) (new : list N) : disk * saving -> disk * saving -> Prop :=
  (* index.rs:92-98, storage.rs:82-84 [File::create] truncates *)
  | SCreate m t : save_step lossy new (Disk m t, SIdle) (Disk m (Some []), SWriting [] new)
  (* bytes given to the buffer *)
  | SBuffer m t buf x todo :
      save_step lossy new (Disk m (Some t), SWriting buf (x ++ todo)) (Disk m (Some t), SWriting (buf ++ x) todo)
  (* bytes written to the file *)
  | SSpill m t x buf todo :
      save_step lossy new (Disk m (Some t), SWriting (x ++ buf) todo) (Disk m (Some (t ++ x)), SWriting buf todo)
  (* the writer is dropped *)
  | SDrop m t buf :
      save_step lossy new (Disk m (Some t), SWriting buf []) (Disk m (Some (t ++ buf)), SDropped)
  | SDropLossy m t x buf : lossy = true ->
      save_step lossy new (Disk m (Some t), SWriting (x ++ buf) []) (Disk m (Some (t ++ x)), SDropped)
  (* index.rs:105-106, storage.rs:94-100 *)
  | SRename m t : save_step lossy new (Disk m (Some t), SDropped) (Disk (Some t) None, SRenamed).

(** One call of [store], interrupted or complete; [done]: it reached the end. *)
Definition is_renamed (st : saving) : bool := match st with SRenamed => true | _ => false end.
Definition save_run (lossy : bool) (new : list N) (d d' : disk) (done : bool) : Prop :=
  exists st, rtc (save_step lossy new) (d, SIdle) (d', st) /\ done = is_renamed st.

(** A history of calls (of any number of processes, one after the other): [cur] is the last content completely saved. *)
Inductive history {A} (lossy : bool) (file : A -> list N -> Prop) : disk -> A -> disk -> A -> Prop :=
  | HNil d a : history lossy file d a d a
  | HSave d a d1 d2 a1 b new done : history lossy file d a d1 a1 -> file b new -> save_run lossy new d1 d2 done ->
      history lossy file d a d2 (if done then b else a1).

(** ** A session of the cache *)
(** storage.rs:22-31 [CacheFile] without its path *)
Record cache_state := CacheState { cs_entries : cache; cs_dirty : bool }.
(** storage.rs:34-73 *)
Definition cs_load (main : option (list N)) : option cache_state :=
  match load_cache main with Some c => Some (CacheState c false) | None => None end.
(** lib.rs:138-156: the new entries and [mark_dirty]; a panic is not caught, the cache is not saved. *)
Definition cs_insert (g : group) (keys : gmap file_uuid store_key) (results : list exec_result) (s : cache_state)
    : res cache_state :=
  let! c := cache_insert g keys results (cs_entries s) in ROk (CacheState c true).
(** storage.rs:76-102, called by the drop of the cache (lib.rs:214-220): nothing is written if it is not dirty. *)
Definition cs_save (lossy : bool) (s : cache_state) (d d' : disk) (done : bool) : Prop :=
  if cs_dirty s then exists new, cache_file (cs_entries s) new /\ save_run lossy new d d' done
  else d' = d /\ done = true.
(** The states reachable from a load by inserting results. *)
Inductive cs_reach (main : option (list N)) : cache_state -> Prop :=
  | CLoad s : cs_load main = Some s -> cs_reach main s
  | CInsert s s' g keys results : cs_reach main s -> cs_insert g keys results s = ROk s' -> cs_reach main s'.
