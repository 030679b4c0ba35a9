(** * ProtoModel: task-maker-exec/src/proto.rs and task-maker-store/src/read_file_iterator.rs

    Definitions only.

    - A channel is the list of the items in it, first sent first.  [ductile] is not part of the repository: its channels
      deliver the items in order; [recv] of raw data, [recv_raw] of a message and a closed channel are errors.
    - A byte is a number. *)
From stdpp Require Export gmap.
From Verif Require Export DagModel.

Notation bytes := (list N).
Inductive chan (M : Type) := Msg (m : M) | Raw (b : bytes).
Arguments Msg {M} _. Arguments Raw {M} _.

(** read_file_iterator.rs:7 *)
Definition READ_FILE_BUFFER_SIZE : N := 8192.
(** read_file_iterator.rs:51-61 [ReadFileIterator::next], called until it returns [None]: the chunks read from a file
    with the given content.  Each [read] may return any positive number of bytes up to the size of the buffer;
    [failing]: a [read] may fail, and a failure ends the iteration like the end of the file. *)
Inductive reads (failing : bool) : bytes -> list bytes -> Prop :=
  | rd_eof : reads failing [] []
  | rd_chunk c rest chunks : c <> [] -> (N.of_nat (length c) <= READ_FILE_BUFFER_SIZE)%N -> reads failing rest chunks ->
      reads failing (c ++ rest) (c :: chunks)
  | rd_error content : failing = true -> reads failing content [].

(** proto.rs:171-185 [ChannelFileSender::send], [chunks] are the chunks of the [ReadFileIterator] *)
Definition send_file {M} (chunks : list bytes) : list (chan M) := map Raw chunks ++ [Raw []].
(** proto.rs:188-203 [ChannelFileSender::send_data] *)
Definition send_data {M} (data : bytes) : list (chan M) :=
  Raw data :: (if bool_decide (data = []) then [] else [Raw []]).
(** proto.rs:148-163 [ChannelFileIterator::next], called until it returns [None]: the chunks received and what remains
    in the channel; [None]: [expect("deserialize error")] panics after those chunks. *)
Fixpoint recv_file {M} (items : list (chan M)) : list bytes * option (list (chan M)) :=
  match items with
  | [] => ([], None)
  | Msg _ :: _ => ([], None)
  | Raw b :: items =>
    if bool_decide (b = []) then ([], Some items)
    else let '(chunks, rest) := recv_file items in (b :: chunks, rest)
  end.
