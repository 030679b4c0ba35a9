(** * ClientProofs3: a dry run never writes; single deliveries *)
From Verif Require Import ClientSpec ClientProofs.

Definition silent (tr : list cevent) : Prop := Forall (fun e => is_write e = false) tr.
Definition no_dest (f : gmap file_uuid file_cb) : Prop := forall u c, f !! u = Some c -> fc_write_to c = None.
Lemma silent_app a b : silent a -> silent b -> silent (a ++ b).
Proof. intros. by apply Forall_app. Qed.
Lemma silent_prefix a b : silent b -> a `prefix_of` b -> silent a.
Proof. intros H [q ->]. by apply Forall_app in H as [? _]. Qed.

Lemma register_no_dest r c c' : no_dest (cb_files c) -> register true r c = Some c' -> no_dest (cb_files c').
Proof.
  intros H Hr. assert (forall f, fc_write_to (file_cb_of f c) = None) as Hf.
  { intros f. unfold file_cb_of. destruct (cb_files c !! f) as [x|] eqn:E; simpl; [by eapply H|done]. }
  destruct r as [f dest x a|f limit|f|e|e|e]; simpl in Hr.
  - by simplify_eq.
  - destruct (fc_content (file_cb_of f c)); [done|]. simplify_eq. simpl. intros u y. 
    rewrite lookup_insert_Some. intros [[<- <-]|[_ ?]]; [apply Hf|by eapply H].
  - simplify_eq. simpl. intros u y. rewrite lookup_insert_Some. intros [[<- <-]|[_ ?]]; [apply Hf|by eapply H].
  - by simplify_eq.
  - by simplify_eq.
  - by simplify_eq.
Qed.
Lemma register_all_no_dest rs c c' : no_dest (cb_files c) -> register_all true rs c = Some c' -> no_dest (cb_files c').
Proof.
  revert c. induction rs as [|r rs IH]; intros c H Hr; simpl in Hr; [by simplify_eq|].
  destruct (register true r c) as [c1|] eqn:E; [|done]. eapply IH; [|done]. by eapply register_no_dest.
Qed.

Section proofs.
  Context (ok : list cevent -> cevent -> bool).
  Context (same_path : path -> path -> bool).
  Context (dest_exists : list cevent -> path -> bool).
  Context (local : store_key -> option (list bytes)).
  Local Notation emit := (emit ok). Local Notation emits := (emits ok).
  Local Notation process_provided_file := (process_provided_file ok same_path dest_exists).

  Lemma s_emits l : silent l -> triple silent (emits l) (fun _ => silent) silent.
  Proof.
    intros Hl. apply triple_emits; intros; apply silent_app; try done. by apply (silent_prefix _ l).
  Qed.
  Lemma s_emit e : is_write e = false -> triple silent (emit e) (fun _ => silent) silent.
  Proof. intros He tr. rewrite emit_emits. apply s_emits. by constructor. Qed.
  Lemma s_chunk_loop u c limit chunks buffer : triple silent (chunk_loop ok u c None limit chunks buffer) (fun _ => silent) silent.
  Proof.
    revert buffer. induction chunks as [|b chunks IH]; intros buffer; simpl; [by apply triple_ret|].
    eapply triple_bind; [apply s_emits; by apply Forall_fmap, Forall_true|]. intros []. apply IH.
  Qed.
  Lemma s_process f u success chunks complete hint : no_dest f ->
    triple silent (process_provided_file f u success chunks complete hint) (fun f' tr => silent tr /\ no_dest f') silent.
  Proof.
    intros Hf. unfold ClientModel.process_provided_file. destruct (f !! u) as [c|] eqn:Eu.
    2:{ destruct complete; [by apply triple_ret|by apply triple_panic]. }
    pose proof (Hf u c Eu) as Hw. unfold write_dest. rewrite Hw.
    eapply triple_bind; [apply s_emits; constructor|]. intros [].
    eapply triple_bind; [apply s_chunk_loop|]. intros buffer.
    apply (triple_bind _ _ _ (fun _ => silent)); [destruct complete; [by apply triple_ret|by apply triple_panic]|]. intros [].
    eapply triple_bind; [apply s_emits; by apply Forall_fmap, Forall_true|]. intros [].
    apply (triple_bind _ _ _ (fun _ => silent)); [by intros tr H|]. intros [].
    apply (triple_bind _ _ _ (fun _ => silent)). { destruct (fc_content c); [by apply s_emit|by apply triple_ret]. } intros [].
    apply triple_ret. intros tr H. split; [done|]. intros v x. rewrite lookup_insert_Some. intros [[<- <-]|[_ ?]]; [done|by eapply Hf].
  Qed.
  Lemma s_start_files f l : no_dest f ->
    triple silent (start_files ok same_path dest_exists f l) (fun f' tr => silent tr /\ no_dest f') silent.
  Proof.
    revert f. induction l as [|[u p] l IH]; intros f Hf; simpl; [by apply triple_ret|].
    apply (triple_bind _ _ _ (fun f' tr => silent tr /\ no_dest f')).
    - unfold start_one. simpl. destruct p as [k p [chunks|]|k content]; [by apply s_process|by apply triple_error|by apply s_process].
    - intros f' tr [H1 H2]. by apply IH.
  Qed.
  Lemma s_done_files f l n : no_dest f ->
    triple silent (done_files ok same_path dest_exists local f l n) (fun r tr => silent tr /\ no_dest r.1) silent.
  Proof.
    revert f n. induction l as [|[[u k] success] l IH]; intros f n Hf; simpl; [by apply triple_ret|].
    destruct (local k) as [chunks|].
    - eapply triple_bind; [by apply s_process|]. intros f' tr [H1 H2]. by apply IH.
    - eapply triple_bind; [by apply s_emit|]. intros []. by apply IH.
  Qed.
  Lemma s_ask_file provided u : triple silent (handle_ask_file ok provided u) (fun _ => silent) silent.
  Proof.
    unfold handle_ask_file. destruct (plook u provided) as [[k p [chunks|]|k content]|].
    - eapply triple_bind; [by apply s_emit|]. intros []. apply s_emits. by apply Forall_fmap, Forall_true.
    - eapply triple_bind; [by apply s_emit|]. intros []. by apply triple_error.
    - eapply triple_bind; [by apply s_emit|]. intros []. apply s_emits. by apply Forall_fmap, Forall_true.
    - by apply triple_panic.
  Qed.
  Lemma s_drain e n clear ev s : (forall i, is_write (ev i) = false) -> no_dest (cb_files (c_cbs s)) ->
    triple silent (drain ok e n clear ev s) (fun s' tr => silent tr /\ no_dest (cb_files (c_cbs s'))) silent.
  Proof.
    intros Hev Hs. unfold drain. destruct (cb_execs (c_cbs s) !! e) as [x|]; [|by apply triple_ret].
    eapply triple_bind; [apply s_emits; apply Forall_fmap, Forall_true; apply Hev|]. intros []. by apply triple_ret.
  Qed.
  Lemma s_handle provided m items s : no_dest (cb_files (c_cbs s)) ->
    triple silent (handle_msg ok same_path dest_exists local provided m items s)
      (fun r tr => silent tr /\ match r with inl (s', _) => no_dest (cb_files (c_cbs s')) | inr _ => True end) silent.
  Proof.
    intros Hs. destruct m as [f|f success|e w|e r|e|msg| |files]; simpl.
    - eapply triple_bind; [apply s_ask_file|]. intros []. by apply triple_ret.
    - destruct (recv_file items) as [chunks rest]. eapply triple_bind; [by apply s_process|]. intros f'. by apply triple_ret.
    - eapply triple_bind; [by apply s_drain|]. intros s'. by apply triple_ret.
    - eapply triple_bind; [by apply s_drain|]. intros s'. by apply triple_ret.
    - eapply triple_bind; [by apply s_drain|]. intros s'. by apply triple_ret.
    - eapply triple_bind; [by apply s_emit|]. intros []. by apply triple_ret.
    - eapply triple_bind; [by apply s_emit|]. intros []. by apply triple_ret.
    - eapply triple_bind; [by apply s_done_files|]. intros r. by apply triple_ret.
  Qed.
  Lemma s_loop fuel provided items s : no_dest (cb_files (c_cbs s)) ->
    triple silent (client_loop ok same_path dest_exists local fuel provided items s) (fun _ => silent) silent.
  Proof.
    revert items s. induction fuel as [|fuel IH]; intros items s Hs; simpl; (destruct (c_waiting s); simpl; [|by apply triple_ret]);
      [by apply triple_ret|].
    destruct items as [|[m|b] items]; [by apply triple_ret| |by apply triple_ret].
    eapply triple_bind; [by apply s_handle|]. intros [[s' items']|why] tr [H1 H2]; [by apply IH|done].
  Qed.
  Lemma s_evaluate c provided items : no_dest (cb_files c) ->
    triple silent (evaluate ok same_path dest_exists local c provided items) (fun _ => silent) silent.
  Proof.
    intros Hc. unfold evaluate, start_evaluation.
    apply (triple_bind _ _ _ (fun c' tr => silent tr /\ no_dest (cb_files c'))).
    - eapply triple_bind; [by apply s_start_files|]. intros f tr [H1 H2].
      apply (triple_bind _ _ silent (fun _ => silent)); [by apply s_emit| |done]. intros []. by apply triple_ret.
    - intros c' tr [H1 H2]. by apply s_loop.
  Qed.

  (** ** One delivery: projections of the exact trace *)
  Lemma chunk_of_map u i b n : omap (chunk_of u i) (map (fun j => EChunk u j b) (seq 0 n)) = if decide (i < n) then [b] else [].
  Proof.
    assert (forall k, omap (chunk_of u i) (map (fun j => EChunk u j b) (seq k n)) = if decide (k <= i < k + n) then [b] else []) as H.
    { induction n as [|n IH]; intros k; [by rewrite decide_False by lia|].
      cbn. rewrite IH. case_bool_decide as E.
      - destruct E as [_ ->]. rewrite decide_False by lia. by rewrite decide_True by lia.
      - assert (i <> k) by (intros ->; by apply E). destruct (decide (S k <= i < S k + n)); [by rewrite decide_True by lia|by rewrite decide_False by lia]. }
    rewrite H. destruct (decide (i < n)); [by rewrite decide_True by lia|by rewrite decide_False by lia].
  Qed.
  Lemma chunk_of_chunks u i c dest chunks : i < fc_chunked c ->
    omap (chunk_of u i) (concat (map (chunk_events u c dest) chunks)) = chunks.
  Proof.
    intros Hi. induction chunks as [|b chunks IH]; [done|]. cbn. rewrite omap_app, IH.
    unfold chunk_events. rewrite omap_app, chunk_of_map, decide_True by done. by destruct dest.
  Qed.
  Lemma disk_after_app dest old a b : disk_after dest old (a ++ b) = disk_after dest (disk_after dest old a) b.
  Proof. unfold disk_after. by rewrite fold_left_app. Qed.
  Lemma disk_after_none dest old l : Forall (fun e => forall o, write_effect dest o e = o) l -> disk_after dest old l = old.
  Proof. unfold disk_after. induction 1 as [|e l He _ IH]; simpl; [done|]. by rewrite He. Qed.
  Lemma disk_after_chunks u c dest chunks old : 
    disk_after dest (Some old) (concat (map (chunk_events u c (Some dest)) chunks)) = Some (old ++ concat chunks).
  Proof.
    revert old. induction chunks as [|b chunks IH]; intros old; simpl; [by rewrite app_nil_r|].
    rewrite disk_after_app. unfold disk_after at 2. simpl. rewrite bool_decide_true by done. simpl.
    assert (forall o l, fold_left (write_effect dest) (map (fun i => EChunk u i b) l) o = o) as ->.
    { intros o l. induction l; simpl; [done|]. done. }
    rewrite IH. by rewrite <- app_assoc.
  Qed.
  Lemma disk_after_chunks_other u c d dest chunks old : Some dest <> d ->
    disk_after dest old (concat (map (chunk_events u c d) chunks)) = old.
  Proof.
    intros Hd. apply disk_after_none. apply Forall_concat, Forall_fmap, Forall_true. intros b. unfold compose, chunk_events.
    apply Forall_app. split; [|by apply Forall_fmap, Forall_true]. destruct d as [d|]; [|constructor].
    constructor; [|constructor]. intros o. simpl. rewrite bool_decide_false; [done|]. by intros ->.
  Qed.
End proofs.
