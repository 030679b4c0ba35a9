(** * ClientProps: C31, C32, C33

    In all the theorems [ok] decides which operations and callbacks fail, [same_path] and [dest_exists] are the answers of
    the file system, [local] is the content of the local store and [items] is everything the server sends; all are
    arbitrary. *)
From Verif Require Import ClientSpec ClientProofs ClientProofs2 ClientProofs3.

Section client.
  Context (ok : list cevent -> cevent -> bool).
  Context (same_path : path -> path -> bool).
  Context (dest_exists : list cevent -> path -> bool).
  Context (local : store_key -> option (list bytes)).
  Local Notation evaluate := (evaluate ok same_path dest_exists local).
  Local Notation process_provided_file := (process_provided_file ok same_path dest_exists).

  (** ** C31 *)
  (** However the evaluation ends (also with an error or a panic), no start, done, skip or get_content callback is called
      twice. *)
  Theorem C31_at_most_once c provided items : NoDup (omap once_key (evaluate c provided items []).1).
  Proof.
    pose proof (t_evaluate ok same_path dest_exists local c provided items [] eq_refl) as H.
    destruct (ClientModel.evaluate _ _ _ _ c provided items []) as [tr [[[[s rest] why]|]|e]]; simpl.
    - by destruct H as (used & s'' & _ & (H & _) & _).
    - done.
    - by destruct H as [H _].
  Qed.
  (** Every call of a callback of an execution is the call of a registered one, with what a received message says. *)
  Theorem C31_faithful c provided items e k u i :
    e ∈ (evaluate c provided items []).1 -> once_key e = Some (k, u, i) -> k <> KContent ->
    i < registered c k u /\ exists m ev, Msg m ∈ items /\ notifies m = Some (k, u, ev) /\ e = ev i.
  Proof.
    pose proof (t_evaluate ok same_path dest_exists local c provided items [] eq_refl) as H. intros He Hk Hc.
    destruct (ClientModel.evaluate _ _ _ _ c provided items []) as [tr [[[[s rest] why]|]|b]]; simpl in *.
    - destruct H as (used & s'' & -> & (_ & _ & H & _) & _). destruct (H e k u i He Hk Hc) as (? & m & ev & ? & ?).
      split; [done|]. exists m, ev. set_solver.
    - done.
    - destruct H as [_ H]. by apply H.
  Qed.
  (** When the evaluation ends without an error, the first notification of each kind received for an execution called all
      the registered callbacks of that kind, with its content. *)
  Theorem C31_first_notification c provided items tr s rest why :
    evaluate c provided items [] = (tr, inl (Some (s, rest, why))) ->
    exists used, items = used ++ rest /\
    forall k e ev a m b, used = a ++ Msg m :: b -> notifies m = Some (k, e, ev) -> ~ Exists (notifies_about k e) a ->
      forall i, i < registered c k e -> ev i ∈ tr.
  Proof.
    pose proof (t_evaluate ok same_path dest_exists local c provided items [] eq_refl) as H. intros Hr. rewrite Hr in H.
    destruct H as (used & s'' & -> & (_ & _ & _ & _ & _ & H) & _). by exists used.
  Qed.

  (** ** C32 *)
  (** A delivery that succeeds.  Every chunked callback gets all the chunks and then one empty chunk. *)
  Theorem C32_chunked cbs u c success chunks complete hint tr tr' cbs' i :
    cbs !! u = Some c -> i < fc_chunked c ->
    process_provided_file cbs u success chunks complete hint tr = (tr', inl cbs') ->
    exists d, tr' = tr ++ d /\ omap (chunk_of u i) d = chunks ++ [[]].
  Proof.
    intros Hc Hi H. apply process_run in H as [_ H]. rewrite Hc in H. destruct H as (trc & _ & -> & _). eexists. split; [done|].
    rewrite !omap_app, chunk_of_chunks, chunk_of_map, decide_True by done.
    assert (omap (chunk_of u i) (match write_dest same_path c success hint with Some d => [ECreate d] | None => [] end) = []) as ->
      by by destruct (write_dest same_path c success hint).
    assert (omap (chunk_of u i) (chmod_events dest_exists c trc) = []) as ->.
    { unfold chmod_events. destruct (fc_write_to c) as [w|]; [|done]. by destruct (_ && _). }
    by destruct (fc_content c).
  Qed.
  (** The content callback gets exactly the first [limit] bytes, once, and nothing else is called for other files. *)
  Theorem C32_content cbs u c success chunks complete hint tr tr' cbs' :
    cbs !! u = Some c ->
    process_provided_file cbs u success chunks complete hint tr = (tr', inl cbs') ->
    exists d, tr' = tr ++ d /\
      omap (content_of u) d = match fc_content c with Some limit => [take limit (concat chunks)] | None => [] end /\
      forall v, v <> u -> omap (content_of v) d = [] /\ forall i, omap (chunk_of v i) d = [].
  Proof.
    intros Hc H. apply process_run in H as [_ H]. rewrite Hc in H. destruct H as (trc & _ & -> & _). eexists. split; [done|].
    assert (forall (f : cevent -> option bytes), (forall e, is_write e = true -> f e = None) ->
      (forall i b, f (EChunk u i b) = None) -> forall l1 l2,
      omap f ((match write_dest same_path c success hint with Some d => [ECreate d] | None => [] end) ++
              concat (map (chunk_events u c (write_dest same_path c success hint)) l1) ++
              map (fun i => EChunk u i []) (seq 0 (fc_chunked c)) ++ chmod_events dest_exists c trc ++ l2) = omap f l2) as Hgen.
    { intros f Hf1 Hf2 l1 l2. assert (forall l, Forall (fun e => f e = None) l -> omap f l = []) as Hnil.
      { induction 1 as [|e l He _ IH]; [done|]. cbn. by rewrite He. }
      rewrite !omap_app. rewrite (Hnil (match write_dest same_path c success hint with Some d => [ECreate d] | None => [] end)).
      2:{ destruct (write_dest same_path c success hint); [|constructor]. constructor; [by apply Hf1|constructor]. }
      rewrite (Hnil (concat _)).
      2:{ apply Forall_concat, Forall_fmap, Forall_true. intros b. unfold compose, chunk_events. apply Forall_app. split.
          - destruct (write_dest same_path c success hint); [|constructor]. constructor; [by apply Hf1|constructor].
          - apply Forall_fmap, Forall_true. intros i. apply Hf2. }
      rewrite (Hnil (map _ _)). 2:{ apply Forall_fmap, Forall_true. intros i. apply Hf2. }
      rewrite (Hnil (chmod_events _ _ _)); [done|].
      unfold chmod_events. destruct (fc_write_to c) as [w|]; [|constructor]. destruct (_ && _); [|constructor].
      constructor; [by apply Hf1|constructor]. }
    split_and!.
    - rewrite Hgen; [|by intros []|done]. destruct (fc_content c); [|done]. cbn. by rewrite bool_decide_true.
    - intros v Hv. split.
      + rewrite Hgen; [|by intros []|done]. destruct (fc_content c); [|done]. cbn. by rewrite bool_decide_false.
      + intros i. rewrite Hgen; [by destruct (fc_content c)|by intros []|]. intros j b. simpl. rewrite bool_decide_false; [done|]. by intros [? _].
  Qed.
  (** The destination: the content of the file if it has to be written, else nothing happens to it; no other path is
      touched.  [written] is exactly: requested, and the file was produced by a success or failures are allowed, and the
      file provided is not the destination itself. *)
  Definition written (c : file_cb) (success : bool) (hint : option path) (dest : path) : Prop :=
    exists x a, fc_write_to c = Some (WriteTo dest x a) /\ (success = true \/ a = true) /\
      (forall source, hint = Some source -> same_path source dest = false).
  Theorem C32_destination cbs u c success chunks complete hint tr tr' cbs' dest old :
    cbs !! u = Some c ->
    process_provided_file cbs u success chunks complete hint tr = (tr', inl cbs') ->
    exists d, tr' = tr ++ d /\
      (written c success hint dest -> disk_after dest old d = Some (concat chunks)) /\
      (~ written c success hint dest -> disk_after dest old d = old).
  Proof.
    intros Hc H. apply process_run in H as [_ H]. rewrite Hc in H. destruct H as (trc & _ & -> & _). eexists. split; [done|].
    assert (written c success hint dest <-> write_dest same_path c success hint = Some dest) as ->.
    { unfold written, write_dest. split.
      - intros (x & a & -> & Hs & Hh). simpl. assert (negb success && negb a = false) as -> by (destruct Hs as [-> | ->]; [done|by destruct success]).
        destruct hint as [source|]; [|done]. by rewrite Hh.
      - destruct (fc_write_to c) as [[d x a]|]; [|done]. simpl. destruct (negb success && negb a) eqn:E; [done|].
        intros H. assert (d = dest) as ->. { destruct hint as [source|]; [|by simplify_eq]. destruct (same_path source d); by simplify_eq. }
        exists x, a. split_and!; [done| |].
        + destruct success, a; simpl in E; auto.
        + intros source ->. by destruct (same_path source dest). }
    assert (forall o, disk_after dest o (map (fun i => EChunk u i []) (seq 0 (fc_chunked c)) ++ chmod_events dest_exists c trc ++
      match fc_content c with Some limit => [EContent u (take limit (concat chunks))] | None => [] end) = o) as Htail.
    { intros o. apply disk_after_none. apply Forall_app. split; [by apply Forall_fmap, Forall_true|]. apply Forall_app. split.
      - unfold chmod_events. destruct (fc_write_to c) as [w|]; [|constructor]. destruct (_ && _); by repeat constructor.
      - destruct (fc_content c); by repeat constructor. }
    split.
    - intros ->. rewrite !disk_after_app. rewrite <- !disk_after_app.
      rewrite app_assoc, disk_after_app, Htail, disk_after_app. unfold disk_after at 2. simpl. rewrite bool_decide_true by done.
      by rewrite disk_after_chunks.
    - intros Hn. rewrite app_assoc, disk_after_app, Htail, disk_after_app.
      rewrite disk_after_chunks_other by (intros E; by rewrite <- E in Hn).
      destruct (write_dest same_path c success hint) as [d|]; [|done]. unfold disk_after. simpl. rewrite bool_decide_false; [done|]. by intros ->.
  Qed.
  (** In a dry run nothing is ever written, whatever happens. *)
  Theorem C32_dry_run rs c provided items :
    register_all true rs (Callbacks ∅ ∅) = Some c -> Forall (fun e => is_write e = false) (evaluate c provided items []).1.
  Proof.
    intros Hr. assert (no_dest (cb_files c)) as Hc. { eapply register_all_no_dest; [|done]. intros u x Hx. simpl in Hx. by apply (lookup_empty_Some (M := gmap file_uuid)) in Hx. }
    pose proof (s_evaluate ok same_path dest_exists local c provided items Hc [] (Forall_nil_2 _)) as H.
    by destruct (ClientModel.evaluate _ _ _ _ c provided items []) as [tr [r|e]].
  Qed.

  (** ** C33 *)
  (** When the evaluation returns without an error it received a prefix of what the server sent; it consumed it up to the
      first moment in which nothing is awaited anymore ([waiting_for]), and it stopped before only because of an error
      message or of a closed (or desynchronised) connection.  It never runs forever on a finite stream. *)
  Theorem C33_stop_partial c provided items tr r :
    evaluate c provided items [] = (tr, inl r) ->
    exists s used rest why, r = Some (s, rest, why) /\ items = used ++ rest /\
      (forall p q, used = p ++ q -> waiting_for local p = Some 0 -> exists raws, q = map Raw raws) /\
      match why with
      | StopDone => waiting_for local used = Some 0
      | StopError => exists u msg, used = u ++ [Msg (SError msg)] /\ waiting_for local u <> Some 0
      | StopClosed => waiting_for local used <> Some 0 /\ (rest = [] \/ exists u b, used = u ++ [Raw b])
      end.
  Proof.
    pose proof (t_evaluate ok same_path dest_exists local c provided items [] eq_refl) as H. intros Hr. rewrite Hr in H.
    destruct r as [[[s rest] why]|]; [|done]. destruct H as (used & s'' & -> & _ & H1 & H2). exists s, used, rest, why. done.
  Qed.
  (** In particular: when the loop ends normally a [Done] was received, and since the last one at least as many files were
      received as it made the client ask for. *)
  Theorem C33_all_received c provided items tr s rest :
    evaluate c provided items [] = (tr, inl (Some (s, rest, StopDone))) ->
    exists a files b, items = a ++ Msg (SDone files) :: b ++ rest /\
      length (filter (fun x => local x.1.2 = None) files) <= length (filter provides b).
  Proof.
    intros H. apply C33_stop_partial in H as (s' & used & rest' & why & [= <- <- <-] & -> & _ & H).
    assert (forall l w, fold_left (waits local) l w = Some 0 ->
      (exists n, w = Some n /\ n <= length (filter provides l)) \/
      exists a files b, l = a ++ Msg (SDone files) :: b /\
      length (filter (fun x => local x.1.2 = None) files) <= length (filter provides b)) as Hgen.
    { induction l as [|it l IH]; intros w Hw; simpl in Hw; [left; exists 0; by split; [|lia]|].
      apply IH in Hw as [(n & Hn & Hle)|(a & files & b & -> & Hle)].
      2:{ right. exists (it :: a), files, b. done. }
      rewrite filter_cons. destruct it as [[]|]; simpl in Hn.
      all: try (left; exists n; split; [done|]; done).
      - left. destruct w as [m|]; [|done]. exists m. split; [done|]. simpl. simplify_eq. lia.
      - right. exists [], files, l. simplify_eq. done. }
    apply Hgen in H as [(n & ? & _)|(a & files & b & -> & Hle)]; [done|]. exists a, files, b. by rewrite <- app_assoc.
  Qed.
End client.

(** ** Examples and refutations *)
Definition yes (tr : list cevent) (e : cevent) : bool := true.
Definition ex_same (a b : path) : bool := String.eqb a b.
Definition ex_exists (tr : list cevent) (p : path) : bool := existsb (fun e => match e with ECreate d => String.eqb d p | _ => false end) tr.
Definition ex_result : exec_result := ExecResult Success false false (Resources 0 0 0 0) None None.
Definition ex_calls : list register_call :=
  [RContent 1 3; RChunked 1; RWriteTo 1 "out" true false; ROnStart 7; ROnStart 7; ROnDone 7; ROnSkip 7]%positive.
Definition ex_items : list (chan server_msg) :=
  [Msg (SNotifyStart 7 9); Msg (SNotifyStart 7 8); Msg SStatus; Msg (SNotifyDone 7 ex_result); Msg (SDone [(1%positive, 5%positive, true)]);
   Msg (SProvideFile 1 true); Raw [1; 2]%N; Raw [3; 4]%N; Raw []; Msg SStatus]%positive.
Definition ex_run (dry : bool) (items : list (chan server_msg)) :=
  match register_all dry ex_calls (Callbacks ∅ ∅) with
  | Some c => (fun r => (r.1, match r.2 with inl (Some (_, rest, why)) => Some (rest, why) | _ => None end))
                (evaluate yes ex_same ex_exists (fun _ => None) c [] items [])
  | None => ([], None)
  end.
Example ex_client : (tail (ex_run false ex_items).1, (ex_run false ex_items).2) =
  ([EStart 7 0 9; EStart 7 1 9; EStatus; EDone 7 0 ex_result; ESent (Msg (CAskFile 1 5 true));
    ECreate "out"; EWrite "out" [1; 2]%N; EChunk 1 0 [1; 2]%N; EWrite "out" [3; 4]%N; EChunk 1 0 [3; 4]%N; EChunk 1 0 [];
    EChmod "out"; EContent 1 [1; 2; 3]%N]%positive, Some ([Msg SStatus], StopDone)).
Proof. vm_compute. reflexivity. Qed.
Example ex_dry_run : tail (ex_run true ex_items).1 =
  [EStart 7 0 9; EStart 7 1 9; EStatus; EDone 7 0 ex_result; ESent (Msg (CAskFile 1 5 true));
    EChunk 1 0 [1; 2]%N; EChunk 1 0 [3; 4]%N; EChunk 1 0 []; EContent 1 [1; 2; 3]%N]%positive.
Proof. vm_compute. reflexivity. Qed.

(** The evaluation also returns [Ok] when the server only sends an error, or closes the connection at once: no execution
    was notified and no file was received. *)
Theorem C33_ok_without_done_refuted :
  (exists s, (evaluate yes ex_same ex_exists (fun _ => None) (Callbacks ∅ ∅) [] [Msg (SError "invalid DAG")] []).2
     = inl (Some (s, [], StopError))) /\
  (exists s, (evaluate yes ex_same ex_exists (fun _ => None) (Callbacks ∅ ∅) [] [] []).2 = inl (Some (s, [], StopClosed))).
Proof. split; eexists; vm_compute; reflexivity. Qed.
(** A second [Done] (see C38: its list does not repeat the files of the first) resets the number of the awaited files: the
    client stops although a file it asked for was not received. *)
Theorem C33_second_done_refuted :
  let r := ex_run false [Msg (SDone [(1%positive, 5%positive, true)]); Msg (SDone [])] in
  r.2 = Some ([], StopDone) /\ ESent (Msg (CAskFile 1%positive 5%positive true)) ∈ r.1 /\
  Forall (fun e => content_of 1%positive e = None) r.1.
Proof. vm_compute. split_and!; [done|set_solver|by repeat constructor]. Qed.
(** An empty file provided from memory is given to a chunked callback as two empty chunks: the callback is called again
    after the end of the file. *)
Theorem C32_empty_content_refuted :
  let r := start_one yes ex_same ex_exists {[1%positive := FileCb None None 1]} (1%positive, PContent 5%positive []) [] in
  (exists cbs, r.2 = inl cbs) /\ omap (chunk_of 1%positive 0) r.1 = [[]; []].
Proof. split; [eexists; reflexivity|]. vm_compute. reflexivity. Qed.

Print Assumptions C31_at_most_once.
Print Assumptions C31_faithful.
Print Assumptions C31_first_notification.
Print Assumptions C32_chunked.
Print Assumptions C32_content.
Print Assumptions C32_destination.
Print Assumptions C32_dry_run.
Print Assumptions C32_empty_content_refuted.
Print Assumptions C33_stop_partial.
Print Assumptions C33_all_received.
Print Assumptions C33_ok_without_done_refuted.
Print Assumptions C33_second_done_refuted.
