(** * MiscProps: C51 *)
From Coq Require Import Ascii.
From Verif Require Export MiscSpec.
From Verif Require Import ClientProofs ClientProofs2 ClientProofs3 ClientProps MiscProofs.

(** The files reported are those that lack the final newline, among the inputs and the official outputs that were received
    (completely, at least once), however they are cut and interleaved. *)
Theorem C51_warned tests c (content : file_uuid -> bytes) (n : file_uuid -> nat) tr :
  (forall f i, i < fc_chunked (file_cb_of f (eol_pre_hook tests c).1) -> deliveries (content f) (n f) (omap (chunk_of f i) tr)) ->
  forall k p, p ∈ es_list k (eol_run (eol_pre_hook tests c).2 tr) <->
    exists t f, t ∈ tests /\ file_to_check k t = Some f /\ p = shown_path k (et_id t) /\ 0 < n f /\ lacks_newline (content f).
Proof.
  intros Hd k p. destruct (pre_hook_ok tests c) as [HN Hb]. rewrite (proj2 (eol_run_spec _ tr HN)). split.
  - intros ([f i k' p'] & Hx & Hk & Hp & H). cbn in Hk, Hp. subst k' p'.
    pose proof (proj1 (pre_hook_bindings tests c k p f) (ex_intro _ i Hx)) as (t & Ht & Hf & ->).
    exists t, f. split_and!; [done..| |]; apply (feed_stream (content f) (n f) _ (Hd f i (Hb _ Hx))); exact H.
  - intros (t & f & Ht & Hf & -> & Hn & Hl).
    destruct (proj2 (pre_hook_bindings tests c k (shown_path k (et_id t)) f)) as (i & Hx); [by exists t|].
    exists (Binding f i k (shown_path k (et_id t))). split_and!; [done..|]. by apply (feed_stream (content f) (n f) _ (Hd f i (Hb _ Hx))).
Qed.

(** The message lists each of them once, in order; there is no message if there are none. *)
Theorem C51_message s : 
  (forall k files, (k, files) ∈ eol_post_hook s -> files <> [] /\ NoDup files /\ Sorted string_le files /\ forall p, p ∈ files <-> p ∈ es_list k s) /\
  (forall k p, p ∈ es_list k s -> exists files, (k, files) ∈ eol_post_hook s) /\ NoDup (eol_post_hook s).*1.
Proof.
  assert (forall l files, emit_warning l = Some files -> files <> [] /\ NoDup files /\ Sorted string_le files /\ forall p, p ∈ files <-> p ∈ l) as He.
  { intros l files H. assert (files = merge_sort string_le (remove_dups l) /\ l <> []) as [-> Hl] by (by destruct l; [|injection H as <-]).
    assert (forall p, p ∈ merge_sort string_le (remove_dups l) <-> p ∈ l) as E. { intros p. by rewrite merge_sort_Permutation, elem_of_remove_dups. }
    split_and!; [|rewrite merge_sort_Permutation; apply NoDup_remove_dups|apply Sorted_merge_sort, _|exact E].
    intros Hn. rewrite Hn in E. destruct l as [|x l]; [done|]. pose proof (proj2 (E x) ltac:(left)) as Hx. by apply elem_of_nil in Hx. }
  unfold eol_post_hook. split_and!.
  - intros k files H. apply elem_of_list_omap in H as (k' & _ & H). destruct (emit_warning (es_list k' s)) as [fs|] eqn:E; [|done].
    injection H as <- <-. by apply He.
  - intros k p Hp. destruct (emit_warning (es_list k s)) as [fs|] eqn:E; [|by destruct (es_list k s); [apply elem_of_nil in Hp|]].
    exists fs. apply elem_of_list_omap. exists k. rewrite E. split; [|done]. destruct k; set_solver.
  - cbn. destruct (emit_warning _), (emit_warning _); cbn; by apply (bool_decide_unpack _).
Qed.

(** Through the client: files received one after the other ([deliver]); the name, whether its production succeeded, the
    pieces, where it is on the disk. *)
Section client.
  Context (ok : list cevent -> cevent -> bool) (same_path : path -> path -> bool) (dest_exists : list cevent -> path -> bool).
  Fixpoint deliver (ds : list (file_uuid * (bool * list bytes * option path))) (cbs : gmap file_uuid file_cb) : cm (gmap file_uuid file_cb) :=
    match ds with
    | [] => cret cbs
    | (u, (success, chunks, hint)) :: ds => (cbs <<- process_provided_file ok same_path dest_exists cbs u success chunks true hint; deliver ds cbs)
    end.
  Lemma deliver_stream content ds : (forall u x, (u, x) ∈ ds -> concat x.1.2 = content u /\ [] ∉ x.1.2) ->
    forall cbs tr tr' cbs', deliver ds cbs tr = (tr', inl cbs') ->
    exists d, tr' = tr ++ d /\ forall f i, i < fc_chunked (default no_file_cb (cbs !! f)) ->
      deliveries (content f) (length (filter (fun x => x.1 = f) ds)) (omap (chunk_of f i) d).
  Proof.
    induction ds as [|[u [[success chunks] hint]] ds IH]; intros Hds cbs tr tr' cbs' H.
    { injection H as <- <-. exists []. rewrite app_nil_r. split; [done|]. intros f i _. exists [], []. cbn. split_and!; [done..|by intros d ?%elem_of_nil|set_solver|apply prefix_nil]. }
    cbn [deliver] in H. unfold cbind in H. destruct (process_provided_file _ _ _ _ _ _ _ _ _ _) as [tr1 [cbs1|]] eqn:E; [|done].
    destruct (IH ltac:(intros u' x' Hx; apply Hds; by right) _ _ _ _ H) as (d2 & -> & H2).
    destruct (Hds u (success, chunks, hint) ltac:(left)) as [Hc Hne]. cbn in Hc, Hne.
    destruct (cbs !! u) as [c|] eqn:Eu.
    - destruct (C32_content _ _ _ _ _ _ _ _ _ _ _ _ _ Eu E) as (d1 & -> & _ & Hother).
      assert (cbs1 = <[u := FileCb (fc_write_to c) None (fc_chunked c)]> cbs) as ->.
      { pose proof E as E'. apply process_run in E' as [_ E']. rewrite Eu in E'. destruct E' as (? & ? & ? & ?). done. }
      exists (d1 ++ d2). split; [by rewrite app_assoc|]. intros f i Hi. rewrite omap_app, filter_cons. cbn [fst].
      destruct (decide (u = f)) as [->|Hu].
      + rewrite Eu in Hi. cbn in Hi. destruct (C32_chunked _ _ _ _ _ _ _ _ _ _ _ _ _ _ Eu Hi E) as (d1' & Hd1 & Ec).
        apply app_inv_head in Hd1 as <-. rewrite Ec.
        destruct (H2 f i) as (ds' & rest & Hl & Hs & Hall & Hr); [by rewrite lookup_insert|].
        exists (chunks :: ds'), rest. cbn [length map concat]. rewrite Hl, Hs. destruct Hr as [Hr1 Hr2]. split_and!; [done|by rewrite <- !app_assoc| |done|done].
        intros d Hd. apply elem_of_cons in Hd as [->|Hd]; [done|by apply Hall].
      + rewrite (proj2 (Hother f (not_eq_sym Hu))), app_nil_l. apply H2. by rewrite lookup_insert_ne.
    - unfold process_provided_file in E. rewrite Eu in E. injection E as <- <-. exists d2. split; [done|]. intros f i Hi.
      rewrite filter_cons. cbn [fst]. destruct (decide (u = f)) as [->|]; [|by apply H2]. rewrite Eu in Hi. cbn in Hi. lia.
  Qed.
  Theorem C51_client tests c ds (content : file_uuid -> bytes) tr cbs : 
    deliver ds (cb_files (eol_pre_hook tests c).1) [] = (tr, inl cbs) ->
    (forall u x, (u, x) ∈ ds -> concat x.1.2 = content u /\ [] ∉ x.1.2) ->
    forall k p, p ∈ es_list k (eol_run (eol_pre_hook tests c).2 tr) <->
      exists t f, t ∈ tests /\ file_to_check k t = Some f /\ p = shown_path k (et_id t) /\ f ∈ ds.*1 /\ lacks_newline (content f).
  Proof.
    intros H Hds k p. destruct (deliver_stream content ds Hds _ _ _ _ H) as (d & -> & Hd). rewrite app_nil_l.
    rewrite (C51_warned tests c content _ d Hd).
    assert (forall f, 0 < length (filter (fun x : file_uuid * (bool * list bytes * option path) => x.1 = f) ds) <-> f ∈ ds.*1) as E.
    { intros f. rewrite elem_of_list_fmap. split.
      - intros Hl. destruct (filter _ ds) as [|x l] eqn:E; [cbn in Hl; lia|]. assert (x ∈ filter (fun x => x.1 = f) ds) as Hx by (rewrite E; left).
        apply elem_of_list_filter in Hx as [Hx Hi]. exists x. by split.
      - intros (x & -> & Hx). assert (x ∈ filter (fun y => y.1 = x.1) ds) as Hx' by (by apply elem_of_list_filter).
        destruct (filter _ ds); [by apply elem_of_nil in Hx'|cbn; lia]. }
    setoid_rewrite E. done.
  Qed.
End client.

(** Two testcases: the input of the second does not end with a newline (received in two pieces, interleaved with the other) *)
Definition ex_tests : list eol_testcase := [EolTestcase 0 (Some 1%positive) None; EolTestcase 1 (Some 2%positive) (Some 3%positive)].
Theorem C51_example :
  eol_post_hook (eol_run (eol_pre_hook ex_tests (Callbacks ∅ ∅)).2
    [EChunk 1 0 [49%N]; EChunk 2 0 [50%N; 10%N]; EChunk 1 0 [10%N]; EChunk 2 0 [51%N]; EChunk 3 0 [49%N; 0%N]; EChunk 2 0 []; EChunk 1 0 []; EChunk 3 0 []]) =
  [(Inputs, ["input/input1.txt"%string])].
Proof. by vm_compute. Qed.
(** ... and a real delivery *)
Theorem C51_client_example : exists tr cbs,
  deliver (fun _ _ => true) (fun _ _ => false) (fun _ _ => false) [(1%positive, (true, [[49%N]; [10%N]], None)); (2%positive, (true, [[50%N; 10%N]; [51%N]], None)); (3%positive, (true, [[49%N; 0%N]], None))]
    (cb_files (eol_pre_hook ex_tests (Callbacks ∅ ∅)).1) [] = (tr, inl cbs) /\
  eol_post_hook (eol_run (eol_pre_hook ex_tests (Callbacks ∅ ∅)).2 tr) = [(Inputs, ["input/input1.txt"%string])] /\
  lacks_newline [50%N; 10%N; 51%N] /\ ~ lacks_newline [49%N; 10%N] /\ ~ lacks_newline [49%N; 0%N] /\ ~ lacks_newline [].
Proof.
  do 2 eexists. split; [by vm_compute|]. split; [by vm_compute|]. unfold lacks_newline. split_and!; [done|set_solver|done|naive_solver|set_solver|naive_solver].
Qed.
Print Assumptions C51_warned.
Print Assumptions C51_message.
Print Assumptions C51_client.
