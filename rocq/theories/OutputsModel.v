(** * OutputsModel: the sanity check AllOutputsEqual (task-maker-format/src/ioi/sanity_checks/subtasks.rs:107-236)

    Definitions only.  Simplifications: the hash of the content is a parameter; whether a chunk is UTF-8 text (and its
    characters) is a parameter; the iteration order of the maps is the order of a list. *)
From stdpp Require Export base list gmap.
From Verif Require Export ClientModel ChecksModel.

(** What the check reads of a subtask: the name, and for each testcase the file of the official output *)
Record out_subtask := OutSubtask { ot_name : option text; ot_files : list (option file_uuid) }.
(** [task.subtasks] in its iteration order *)
Definition out_subtasks := list (nat * out_subtask).

Section outputs.
  Context {hash : Type} `{EqDecision hash} (H : bytes -> hash) (utf8 : bytes -> option text).
  (** subtasks.rs:107-111 [TestcaseOutput] *)
  Record test_output := TestOutput { to_first : option bytes; to_hash : hash }.
  (** subtasks.rs:113-119 [OutputHasher]: the first chunk, the bytes hashed so far *)
  Record hasher := Hasher { hs_first : option bytes; hs_bytes : bytes }.
  Definition new_hasher : hasher := Hasher None [].
  (** A registered hasher: the callback that feeds it, the subtask *)
  Record out_binding := OutBinding { ob_file : file_uuid; ob_index : nat; ob_subtask : nat }.
  (** subtasks.rs:134-144 [bind] *)
  Definition out_bind (st : nat) (s : callbacks * list out_binding) (f : option file_uuid) : callbacks * list out_binding :=
    match f with
    | Some f => (default s.1 (register false (RChunked f) s.1), s.2 ++ [OutBinding f (fc_chunked (file_cb_of f s.1)) st])
    | None => s
    end.
  (** subtasks.rs:184-200 [pre_hook]: the callbacks, the hashers, the map of the outputs (empty lists) *)
  Definition out_pre_hook (sts : out_subtasks) (c : callbacks) : callbacks * list out_binding :=
    fold_left (fun s x => if bool_decide (2 <= length (ot_files x.2)) then fold_left (out_bind x.1) (ot_files x.2) s else s) sts (c, []).
  Definition out_keys (sts : out_subtasks) : list nat := omap (fun x => if bool_decide (2 <= length (ot_files x.2)) then Some x.1 else None) sts.
  (** subtasks.rs:146-163 [add_chunk]; the output added to the list of the subtask *)
  Definition hasher_chunk (h : hasher) (b : bytes) : hasher * option test_output :=
    match b with
    | [] => (h, Some (TestOutput (hs_first h) (H (hs_bytes h))))
    | _ => (Hasher (match hs_first h with None => Some b | Some x => Some x end) (hs_bytes h ++ b), None)
    end.
  Record out_state := OutState { os_hashers : gmap (file_uuid * nat) hasher; os_outputs : gmap nat (list test_output) }.
  Definition out_start (sts : out_subtasks) : out_state := OutState ∅ (list_to_map (map (fun id => (id, [])) (out_keys sts))).
  (** A call of a callback by the client *)
  Definition out_event (bs : list out_binding) (s : out_state) (ev : cevent) : out_state :=
    match ev with
    | EChunk f i b =>
      match find (fun x => bool_decide (ob_file x = f /\ ob_index x = i)) bs with
      | Some x =>
        let (h, o) := hasher_chunk (default new_hasher (os_hashers s !! (f, i))) b in
        OutState (<[(f, i) := h]> (os_hashers s))
          (match o with
           | Some o => match os_outputs s !! ob_subtask x with Some l => <[ob_subtask x := l ++ [o]]> (os_outputs s) | None => os_outputs s end
           | None => os_outputs s
           end)
      | None => s
      end
    | _ => s
    end.
  Definition out_run (sts : out_subtasks) (bs : list out_binding) (tr : list cevent) : out_state := fold_left (out_event bs) tr (out_start sts).
  (** The warning: the subtask, its name, the beginning that is shown *)
  Record out_warning := OutWarning { ow_subtask : nat; ow_name : option text; ow_note : option text }.
  (** subtasks.rs:205-234, an iteration of the loop; [None]: the panic of [unwrap] (of [out[0]] too) *)
  Definition out_check (sts : out_subtasks) (id : nat) (l : list test_output) : option (list out_warning) :=
    match list_to_map (M := gmap nat out_subtask) sts !! id with
    | None => Some []
    | Some st =>
      if bool_decide (length l <> length (ot_files st)) then Some []
      else
        first ← head l;
        if forallb (fun x => bool_decide (to_hash x = to_hash first)) l then
          chunk ← to_first first;
          Some [OutWarning id (ot_name st) (take 20 <$> utf8 chunk)]
        else Some []
    end.
  (** subtasks.rs:202-236 [post_hook]; [order]: the ids in the iteration order of the map of the outputs *)
  Definition out_post_hook (sts : out_subtasks) (order : list nat) (s : out_state) : option (list out_warning) :=
    @concat _ <$> mapM (fun id => match os_outputs s !! id with Some l => out_check sts id l | None => Some [] end) order.
End outputs.
Arguments TestOutput {hash} _ _.
Arguments to_first {hash} _.
Arguments to_hash {hash} _.
