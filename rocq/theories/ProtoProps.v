(** * ProtoProps: C30, the file transfer protocol *)
From Verif Require Import ProtoModel.

Lemma recv_send {M} (chunks : list bytes) (rest : list (chan M)) : Forall (fun c => c <> []) chunks ->
  recv_file (send_file chunks ++ rest) = (chunks, Some rest).
Proof.
  unfold send_file. induction 1 as [|c chunks Hc _ IH]; simpl; [done|].
  rewrite bool_decide_false by done. by rewrite IH.
Qed.
Lemma reads_content failing content chunks : reads failing content chunks ->
  Forall (fun c => c <> []) chunks /\ concat chunks `prefix_of` content /\ (failing = false -> concat chunks = content).
Proof.
  induction 1 as [|c rest chunks Hc _ _ (H1 & H2 & H3)|content ->]; simpl; [split_and!; done| |].
  - split_and!; [by constructor|by apply prefix_app|]. intros Hf. by rewrite H3.
  - split_and!; try done. apply prefix_nil.
Qed.

(** Receiving what was sent gives exactly the chunks, and the rest of the channel is untouched, for every list of non
    empty chunks and all following items. *)
Theorem C30_round_trip {M} (chunks : list bytes) (rest : list (chan M)) : Forall (fun c => c <> []) chunks ->
  recv_file (send_file chunks ++ rest) = (chunks, Some rest).
Proof. apply recv_send. Qed.
(** A file sent from disk: the bytes received are those of the file, however it was read. *)
Theorem C30_file {M} content chunks (rest : list (chan M)) : reads false content chunks ->
  exists received, recv_file (send_file chunks ++ rest) = (received, Some rest) /\ concat received = content.
Proof.
  intros H. destruct (reads_content _ _ _ H) as (H1 & _ & H2). exists chunks. split; [by apply recv_send|by apply H2].
Qed.
(** Data sent from memory, also when it is empty (one empty chunk only). *)
Theorem C30_data {M} data (rest : list (chan M)) :
  exists received, recv_file (send_data data ++ rest) = (received, Some rest) /\ concat received = data /\
    (data = [] -> @send_data M data = [Raw []]).
Proof.
  unfold send_data. case_bool_decide as E; simpl.
  - subst. exists []. done.
  - rewrite bool_decide_false by done. exists [data]. simpl. by rewrite app_nil_r.
Qed.
(** An incomplete transfer never looks complete: the receiver panics. *)
Theorem C30_incomplete {M} (chunks : list bytes) (rest : list (chan M)) : Forall (fun c => c <> []) chunks ->
  (rest = [] \/ exists m rest', rest = Msg m :: rest') ->
  (recv_file (map Raw chunks ++ rest)).2 = None.
Proof.
  intros H Hr. induction H as [|c chunks Hc _ IH]; simpl.
  - by destruct Hr as [->|(m & rest' & ->)].
  - rewrite bool_decide_false by done. by destruct (recv_file _).
Qed.
(** A file can be read for every content. *)
Lemma C30_readable content : exists chunks, reads false content chunks.
Proof.
  induction content as [|b content [chunks IH]]; [exists []; constructor|].
  exists ([b] :: chunks). apply (rd_chunk false [b] content chunks); [done|simpl; unfold READ_FILE_BUFFER_SIZE; lia|done].
Qed.
(** A read error is treated as the end of the file: the receiver gets a truncated file and no error. *)
Theorem C30_read_error_refuted :
  exists content chunks, reads true content chunks /\
    exists received, @recv_file unit (send_file chunks) = (received, Some []) /\ concat received <> content.
Proof.
  exists [1; 2; 3; 4]%N, [[1; 2]%N]. split.
  - apply (rd_chunk true [1; 2]%N [3; 4]%N []); [done|simpl; unfold READ_FILE_BUFFER_SIZE; lia|by constructor].
  - by exists [[1; 2]%N].
Qed.
Example ex_transfer : @recv_file nat (send_file [[1; 2]; [3]]%N ++ [Msg 7%nat; Raw [9]%N]) = ([[1; 2]; [3]]%N, Some [Msg 7%nat; Raw [9]%N]).
Proof. done. Qed.
Example ex_reads : reads false [1; 2; 3]%N [[1; 2]; [3]]%N.
Proof.
  apply (rd_chunk false [1; 2]%N [3]%N [[3]%N]); [done|simpl; unfold READ_FILE_BUFFER_SIZE; lia|].
  apply (rd_chunk false [3]%N [] []); [done|simpl; unfold READ_FILE_BUFFER_SIZE; lia|constructor].
Qed.

Print Assumptions C30_round_trip.
Print Assumptions C30_file.
Print Assumptions C30_data.
Print Assumptions C30_incomplete.
Print Assumptions C30_readable.
Print Assumptions C30_read_error_refuted.
