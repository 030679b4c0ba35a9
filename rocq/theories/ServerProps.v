(** * ServerProps: C38, C57, C58, C59, C60 *)
From Verif Require Import ServerSpec ServerProofs ServerProofs2 ServerProofs3 CheckDagModel CheckDagSpec CheckDagProps SchedModel ClientModel ClientProps WorkerModel.

(** ** C38 *)
(** If whole packets (a message and its file) are interleaved the reader gets every message and every file of both writers. *)
Theorem C38_packets_partial {M} (announces : M -> bool) (a b l : list (packet M)) :
  Forall (packet_ok announces) a -> Forall (packet_ok announces) b -> merged a b l ->
  read_packets announces (l ≫= packet_items) None = (l, true).
Proof. intros Ha Hb Hm. apply decode_packets. by eapply merged_Forall. Qed.
(** Each of the two writers to a client writes whole packets (up to the point where the connection breaks), and so does the
    thread that serves a worker; the worker manager writes messages without a file. *)
Theorem C38_client_thread content ord c o items tr r : (forall k, Forall (fun b => b <> []) (content k)) ->
  serve_client content ord c o items None true [] = (tr, r) ->
  exists ps, Forall (packet_ok server_announces) ps /\
    match r with inl _ => omap out_of tr = ps ≫= packet_items | inr _ => omap out_of tr `prefix_of` ps ≫= packet_items end.
Proof.
  intros Hc H. pose proof (serve_client_PK content ord c o Hc items None true [] ltac:(by exists [])) as G. rewrite H in G. by destruct r.
Qed.
Theorem C38_binder content clients l : (forall k, Forall (fun b => b <> []) (content k)) ->
  Forall (fun x => packet_ok server_announces x.2) (binder content clients l ∅).
Proof. apply binder_packets. Qed.
Theorem C38_worker_thread content ord w o items tr r : (forall k, Forall (fun b => b <> []) (content k)) ->
  serve_worker content ord w o items WIdle [] = (tr, r) ->
  exists ps, Forall (packet_ok wmsg_announces) ps /\
    match r with inl _ => omap out_of tr = ps ≫= packet_items | inr _ => omap out_of tr `prefix_of` ps ≫= packet_items end.
Proof.
  intros Hc H. pose proof (serve_worker_WK content ord w o Hc items WIdle [] ltac:(by exists [])) as G. rewrite H in G. by destruct r.
Qed.
Theorem C38_manager up ms tr ok w m : manager_run up ms ∅ [] = (tr, ok) -> MESend w m ∈ tr -> wmsg_announces m = false.
Proof.
  intros H Hin. apply elem_of_list_split in Hin as (a & b & ->). pose proof (manager_run_ok up ms ∅ []) as G. rewrite H in G.
  specialize (G ltac:(by intros [|? ?] ? ? ?) a w m b eq_refl). by destruct m.
Qed.

(** Nothing keeps the packets together.  The client asks a file while the scheduler tells it something: the items of the two
    writers can be interleaved so that the client does not get the file and panics. *)
Definition all_up {I O} : oracles I O := Oracles (fun _ => true) (fun _ => true) (fun _ _ => true) (fun _ _ => true).
Definition ex_content (k : store_key) : list bytes := [[65; 66]%N; [67]%N].
Theorem C38_client_connection_refuted : exists tr l,
  serve_client ex_content (fun l => l) 1%positive all_up [Msg (CIAskFile 1%positive 5%positive true)] None true [] = (tr, inl tt) /\
  merged (omap out_of tr) (binder ex_content {[1%positive]} [(1%positive, MStatus 0 0 [])] ∅ ≫= fun x => packet_items x.2) l /\
  (read_packets server_announces l None).2 = false /\
  (evaluate yes ex_same ex_exists (fun _ => None) (Callbacks {[1%positive := FileCb None (Some 3) 0]} ∅) [] l []).2 = inr true.
Proof.
  exists [XRecv (CIAskFile 1 5 true); XHas 5 true; XOut (Msg (SProvideFile 1 true)); XOut (Raw [65; 66]%N); XOut (Raw [67]%N); XOut (Raw []);
          XSched (ClientDisconnected 1)]%positive.
  exists [Msg (SProvideFile 1 true); Raw [65; 66]%N; Msg SStatus; Raw [67]%N; Raw []]%positive. split_and!; [by vm_compute| |by vm_compute|by vm_compute].
  cbn. apply il_left, il_left, il_right, il_left, il_left, il_nil.
Qed.
(** Likewise on the connection of a worker: a job is stopped while a file is being sent to the worker. *)
Theorem C38_worker_connection_refuted : exists tr mtr l,
  serve_worker ex_content map_to_list 1%positive all_up [Msg (WIAskFile 5%positive)] WIdle [] = (tr, inl tt) /\
  manager_run (fun _ _ => true) [IConnected 1%positive; IStopJob 1%positive 7%positive] ∅ [] = (mtr, true) /\
  merged (omap out_of tr) (omap (fun e => match e with MESend _ m => Some (Msg m) | _ => None end) mtr) l /\
  (read_packets wmsg_announces l None).2 = false.
Proof.
  exists [XRecv (WIAskFile 5); XHas 5 true; XOut (Msg (WProvideFile 5)); XOut (Raw [65; 66]%N); XOut (Raw [67]%N); XOut (Raw []);
          XSched (WorkerDisconnected 1); XGone 1]%positive.
  exists [MERecv (IConnected 1); MESpawn 1; MERecv (IStopJob 1 7); MESend 1 (WKillJob 7); MESend 1 WExit]%positive.
  exists [Msg (WProvideFile 5); Raw [65; 66]%N; Msg (WKillJob 7); Raw [67]%N; Raw []; Msg WExit]%positive. split_and!; [by vm_compute|by vm_compute| |by vm_compute].
  cbn. apply il_left, il_left, il_right, il_left, il_left, il_right, il_nil.
Qed.
(** Likewise from the client to the server (client.rs:259-289: the status poller is another thread): the thread that serves the
    client panics and neither the scheduler nor, if it is the local executor, anybody else is told. *)
Theorem C38_upload_refuted : exists l tr,
  merged [Msg (CIProvideFile 1 5); Raw [65; 66]%N; Raw []]%positive [Msg CIStatus] l /\
  client_thread ex_content (fun l => l) 1%positive all_up false l [] = (tr, inr true) /\ omap sched_of tr = [] /\ XExit ∉ tr.
Proof.
  exists [Msg (CIProvideFile 1 5); Msg CIStatus; Raw [65; 66]%N; Raw []]%positive, [XRecv (CIProvideFile 1 5)]%positive.
  split_and!; [apply il_left, il_right, il_left, il_left, il_nil|by vm_compute|by vm_compute|]. by intros [?|?%elem_of_nil]%elem_of_cons.
Qed.
Example C38_example :
  let a := [Packet (SProvideFile 1 true) (Some (ex_content 5)); Packet (SAskFile 2) None]%positive in let b := [Packet SStatus None] in
  let l := [Packet (SProvideFile 1 true) (Some (ex_content 5)); Packet SStatus None; Packet (SAskFile 2) None]%positive in
  Forall (packet_ok server_announces) a /\ Forall (packet_ok server_announces) b /\ merged a b l /\
  l ≫= packet_items = [Msg (SProvideFile 1 true); Raw [65; 66]%N; Raw [67]%N; Raw []; Msg SStatus; Msg (SAskFile 2)]%positive.
Proof.
  simpl. assert (packet_ok server_announces (Packet SStatus None)) as H1. { split; [split; [done|by intros [? ?]]|done]. }
  assert (packet_ok server_announces (Packet (SAskFile 2%positive) None)) as H2. { split; [split; [done|by intros [? ?]]|done]. }
  assert (packet_ok server_announces (Packet (SProvideFile 1%positive true) (Some (ex_content 5%positive)))) as H3.
  { split; [split; [by eexists|done]|]. intros chunks [= <-]. by repeat constructor. }
  split_and!; [by repeat apply Forall_cons_2|by apply Forall_singleton|apply il_left, il_right, il_left, il_nil|done].
Qed.
Print Assumptions C38_packets_partial. Print Assumptions C38_client_thread. Print Assumptions C38_binder. Print Assumptions C38_worker_thread.
Print Assumptions C38_manager. Print Assumptions C38_client_connection_refuted. Print Assumptions C38_worker_connection_refuted. Print Assumptions C38_upload_refuted.

(** ** C57: what the scheduler tells a client *)
Section binder.
  Context (content : store_key -> list bytes) (clients : gset client_uuid).
  (** What a client gets depends on the messages to it only. *)
  Theorem C57_isolated c l l' : msgs_for c l = msgs_for c l' ->
    packets_for c (binder content clients l ∅) = packets_for c (binder content clients l' ∅).
  Proof.
    intros H. destruct (decide (c ∈ clients)).
    - rewrite !binder_known by done. by rewrite H.
    - by rewrite !binder_unknown by done.
  Qed.
  (** A client that never connected gets nothing. *)
  Theorem C57_unknown c l : c ∉ clients -> packets_for c (binder content clients l ∅) = [].
  Proof. apply binder_unknown. Qed.
  (** Everything but the list of the ready files is forwarded at once, in the order of the messages. *)
  Theorem C57_in_order c l : c ∈ clients ->
    List.filter (fun p => negb (is_done_packet p)) (packets_for c (binder content clients l ∅)) = omap (immediate content) (msgs_for c l).
  Proof. intros Hc. rewrite binder_known by done. apply binder_one_immediate. Qed.
  (** The first [Done] lists exactly the files that became ready (and were not sent at once) before it, in order, each once per message. *)
  Theorem C57_first_done c l ms ms' : c ∈ clients -> msgs_for c l = ms ++ MEvaluationDone :: ms' -> Forall (fun m => m <> MEvaluationDone) ms ->
    exists ps ps', packets_for c (binder content clients l ∅) = ps ++ Packet (SDone (omap listed ms)) None :: ps' /\ Forall (fun p => is_done_packet p = false) ps.
  Proof.
    intros Hc Hm Hn. rewrite binder_known by done. rewrite Hm, lookup_empty. simpl default. destruct (binder_one_done content ms ms' [] Hn) as (ps & -> & Hps). eauto.
  Qed.
  (** As many [Done] as the scheduler sent; the n-th lists the files that became ready since the one before. *)
  Theorem C57_done_once c l : c ∈ clients ->
    length (List.filter is_done_packet (packets_for c (binder content clients l ∅))) = length (List.filter (fun m => match m with MEvaluationDone => true | _ => false end) (msgs_for c l)) /\
    (omap (fun p => match pk_msg p with SDone fs => Some fs | _ => None end) (packets_for c (binder content clients l ∅))
       ≫= id) `prefix_of` omap listed (msgs_for c l).
  Proof.
    intros Hc. rewrite binder_known, lookup_empty by done. simpl. generalize (msgs_for c l). clear. intros ms. split.
    - generalize (@nil (file_uuid * store_key * bool)). induction ms as [|m ms IH]; intros fs; [done|].
      destruct m as [e w|e r|e|f k su [|]| |]; cbn; try apply IH. f_equal. apply IH.
    - cut (forall fs, omap (fun p => match pk_msg p with SDone fs => Some fs | _ => None end) (binder_one content ms fs) ≫= id `prefix_of` fs ++ omap listed ms).
      { intros H. apply (H []). }
      induction ms as [|m ms IH]; intros fs; [apply prefix_nil|].
      destruct m as [e w|e r|e|f k su [|]| |]; cbn; try apply IH.
      + specialize (IH (fs ++ [(f, k, su)])). by rewrite <- app_assoc in IH.
      + apply prefix_app. apply (IH []).
  Qed.
End binder.
(** With two evaluations ending (the scheduler can say [EvaluationDone] twice for a client, see C13) the second list misses the
    files of the first. *)
Theorem C57_second_done_refuted : exists l,
  msgs_for 1%positive l = [MFile 2 5 true false; MEvaluationDone; MEvaluationDone]%positive /\
  packets_for 1%positive (binder ex_content {[1%positive]} l ∅) = [Packet (SDone [(2, 5, true)]) None; Packet (SDone []) None]%positive.
Proof. exists [(1, MFile 2 5 true false); (1, MEvaluationDone); (1, MEvaluationDone)]%positive. split; by vm_compute. Qed.
Example C57_example : packets_for 1%positive (binder ex_content {[1%positive; 2%positive]}
    [(1, MStarted 7 3); (2, MFile 4 6 true false); (1, MFile 2 5 true false); (1, MFile 3 5 false true); (2, MEvaluationDone); (1, MEvaluationDone)]%positive ∅) =
  [Packet (SNotifyStart 7 3) None; Packet (SProvideFile 3 false) (Some [[65; 66]; [67]]%N); Packet (SDone [(2, 5, true)]) None]%positive.
Proof. by vm_compute. Qed.
Print Assumptions C57_isolated. Print Assumptions C57_unknown. Print Assumptions C57_in_order. Print Assumptions C57_first_done. Print Assumptions C57_done_once.
Print Assumptions C57_second_done_refuted.

(** ** C58: the thread that serves a client *)
Lemma cons_eq_inv {A} (x y : A) l l' : x :: l = y :: l' -> x = y /\ l = l'.
Proof. by intros [= -> ->]. Qed.
Section client.
  Context (content : store_key -> list bytes) (ord : list group_uuid -> list group_uuid) (c : client_uuid) (o : oracles client_in server_msg).
  Lemma run_CE items tr r : serve_client content ord c o items None true [] = (tr, r) -> CE ord c tr /\ (forall x, r = inl x -> CI ord c false tr).
  Proof.
    intros H. assert (CI ord c true []) as H0. { split; [by intros [|? ?] ? ?|]. split; apply not_elem_of_nil. }
    pose proof (serve_client_CI content ord c o items None true [] (conj H0 I)) as G. rewrite H in G. destruct r; [|done]. split; [by exists false|done].
  Qed.
  (** Only a DAG that the client sent and that passed the validation reaches the scheduler (see C01 for what that means). *)
  Theorem C58_validated items tr r c' d cb : serve_client content ord c o items None true [] = (tr, r) -> XSched (EvaluateDAG c' d cb) ∈ tr ->
    c' = c /\ XRecv (CIEvaluate d cb) ∈ tr /\
    ((forall l, ord l ≡ₚ l) -> NoDup (d_groups d).*1 -> well_formed d /\ callbacks_ok d cb).
  Proof.
    intros H Hin. destruct (run_CE _ _ _ H) as [[s (Ht & _)] _]. apply elem_of_list_split in Hin as (a & b & ->).
    destruct (Ht a _ b eq_refl) as (-> & Hc & Hr). split; [done|]. split; [apply elem_of_app; by left|]. intros Ho Hn.
    destruct (C01_accepted_is_well_formed ord d cb Hn Ho Hc) as (? & ? & _). done.
  Qed.
  (** A file is announced to the scheduler only after its content was received and stored, or (the file is provided by a DAG given to the
      scheduler before) found in the store. *)
  Theorem C58_file_ready items tr r a c' f k b : serve_client content ord c o items None true [] = (tr, r) -> tr = a ++ XSched (FileReady c' f k) :: b ->
    c' = c /\
    ((exists chunks, XRecv (CIProvideFile f k) ∈ a /\ XStored f k chunks ∈ a) \/
     (exists d cb, XSched (EvaluateDAG c d cb) ∈ a /\ (f, k) ∈ d_provided d /\ XHas k true ∈ a)).
  Proof. intros H ->. destruct (run_CE _ _ _ H) as [[s (Ht & _)] _]. apply (Ht a _ b eq_refl). Qed.
  (** For a valid DAG: after it the scheduler is told about the provided files that the store has, and the client is asked all the others. *)
  Theorem C58_provided d cb tr tr' n : check_dag ord d cb = Done tt -> client_message content ord c o (CIEvaluate d cb) true tr = (tr', inl n) ->
    exists ready asked t, tr' = tr ++ t /\ merged ready asked (d_provided d) /\
      omap out_of t = map (fun fk => Msg (SAskFile fk.1)) asked /\
      omap sched_of t = EvaluateDAG c d cb :: map (fun fk => FileReady c fk.1 fk.2) ready /\
      (forall f k, (f, k) ∈ ready -> XHas k true ∈ t) /\ (forall f k, (f, k) ∈ asked -> XHas k false ∈ t).
  Proof. intros Hc H. by destruct (evaluate_message content ord c o d cb tr tr' n Hc H) as [_ G]. Qed.
  (** An invalid DAG: the client gets an error, the scheduler nothing but the departure of the client. *)
  Theorem C58_invalid d cb rest tr : check_dag ord d cb <> Done tt -> (forall tr, o_up o tr = true) -> (forall tr, o_sched o tr = true) ->
    serve_client content ord c o (Msg (CIEvaluate d cb) :: rest) None true tr =
    (tr ++ [XRecv (CIEvaluate d cb); XOut (Msg (SError "invalid DAG")); XSched (ClientDisconnected c)], inl tt).
  Proof.
    intros Hc Hu Hs. cbn [serve_client client_message]. unfold xbind, xemit.
    destruct (check_dag ord d cb) as [[]|e| |]; [done|..]; unfold xout; rewrite Hu; cbn; unfold xsched; rewrite Hs; by rewrite <- !app_assoc.
  Qed.
  (** Whenever the thread ends without an error the scheduler was told exactly once that the client left, and nothing after that. *)
  Theorem C58_told_left items tr : serve_client content ord c o items None true [] = (tr, inl tt) ->
    exists a b, tr = a ++ XSched (ClientDisconnected c) :: b /\ XSched (ClientDisconnected c) ∉ a /\ omap sched_of b = [].
  Proof. intros H. destruct (run_CE _ _ _ H) as [_ G]. by destruct (G tt eq_refl) as (_ & ? & _). Qed.
  (** Also if there is an error nothing is sent after the departure. *)
  Theorem C58_nothing_after_left items tr r a b : serve_client content ord c o items None true [] = (tr, r) -> tr = a ++ XSched (ClientDisconnected c) :: b ->
    omap sched_of b = [] /\ XSched (ClientDisconnected c) ∉ a.
  Proof.
    intros H Heq. destruct (run_CE _ _ _ H) as [[[] (_ & Hl & _)] _]; simpl in Hl.
    - exfalso. apply Hl. subst tr. apply elem_of_app. right. by left.
    - destruct Hl as (a' & b' & Heq' & Ha & Hb). rewrite Heq in Heq'. clear Heq H tr.
      assert (XSched (ClientDisconnected c) ∉ b') as Hb'. { intros Hin. apply elem_of_list_split in Hin as (x & y & ->). rewrite omap_app in Hb. cbn in Hb. by destruct (omap sched_of x). }
      revert a' Heq' Ha. induction a as [|x a IH]; intros [|x' a'] Heq Ha; simpl in Heq; apply cons_eq_inv in Heq as [Hx1 Heq].
      + subst b. split; [done|]. apply not_elem_of_nil.
      + subst x'. exfalso. apply Ha. by left.
      + subst b'. exfalso. apply Hb'. apply elem_of_app. right. by left.
      + subst x'. apply not_elem_of_cons in Ha as [Hx Ha]. destruct (IH _ Heq Ha) as [? ?]. split; [done|]. by apply not_elem_of_cons.
  Qed.
  (** In local mode ([long_running] is false) a thread that ends well stops the executor. *)
  Theorem C58_local_exit items tr : client_thread content ord c o false items [] = (tr, inl tt) -> exists t, tr = t ++ [XExit] /\ XExit ∉ t.
  Proof.
    unfold client_thread. destruct (serve_client content ord c o items None true []) as [t [[]|e]] eqn:E; [|done]. intros [= <-]. exists t. split; [done|].
    destruct (run_CE _ _ _ E) as [[s (_ & _ & H)] _]. done.
  Qed.
End client.
(** The departure is not told when the client leaves while it is being asked for files, nor the executor stopped in local mode... *)
Theorem C58_lost_client_refuted : exists d cb up tr,
  check_dag (fun l => l) d cb = Done tt /\
  client_thread ex_content (fun l => l) 1%positive (Oracles up (fun _ => true) (fun _ _ => false) (fun _ _ => true)) false [Msg (CIEvaluate d cb)] [] = (tr, inr true) /\
  omap sched_of tr = [] /\ XExit ∉ tr.
Proof.
  exists ex_dag, ex_cb, (fun _ => false), [XRecv (CIEvaluate ex_dag ex_cb); XHas 11%positive false]. split_and!; [by vm_compute..|].
  by intros [?|[?|?%elem_of_nil]%elem_of_cons]%elem_of_cons.
Qed.
(** ... and a file that arrives after [Stop] makes the thread fail (in local mode the executor is not told to exit: it keeps running). *)
Theorem C58_stop_refuted : exists items tr,
  client_thread ex_content (fun l => l) 1%positive all_up false items [] = (tr, inr true) /\
  items = [Msg CIStop; Msg (CIProvideFile 1 5); Raw [65]%N; Raw []]%positive /\ XExit ∉ tr.
Proof.
  eexists. exists [XRecv CIStop; XSched (ClientDisconnected 1); XRecv (CIProvideFile 1 5); XStored 1 5 [[65]%N]]%positive. split_and!; [|done|].
  - by vm_compute.
  - intros H. repeat (apply elem_of_cons in H as [?|H]; [done|]). by apply elem_of_nil in H.
Qed.
Example C58_example :
  (client_thread ex_content (fun l => l) 1%positive (Oracles (fun _ => true) (fun _ => true) (fun _ k => bool_decide (k = 13%positive)) (fun _ _ => true)) false
    [Msg (CIEvaluate ex_dag ex_cb); Msg (CIProvideFile 1 11); Raw [65]%N; Raw [66]%N; Raw []; Msg CIStop]%positive []).1 =
  [XRecv (CIEvaluate ex_dag ex_cb); XHas 11 false; XOut (Msg (SAskFile 1)); XHas 13 true; XSched (EvaluateDAG 1 ex_dag ex_cb); XSched (FileReady 1 3 13);
   XRecv (CIProvideFile 1 11); XStored 1 11 [[65]%N; [66]%N]; XSched (FileReady 1 1 11); XRecv CIStop; XSched (ClientDisconnected 1); XExit]%positive.
Proof. by vm_compute. Qed.
Print Assumptions C58_validated. Print Assumptions C58_file_ready. Print Assumptions C58_provided. Print Assumptions C58_invalid. Print Assumptions C58_told_left.
Print Assumptions C58_nothing_after_left. Print Assumptions C58_local_exit. Print Assumptions C58_lost_client_refuted. Print Assumptions C58_stop_refuted.

(** ** C59: the thread that serves a worker *)
Section worker.
  Context (content : store_key -> list bytes) (ord : gmap file_uuid store_key -> list (file_uuid * store_key)) (w : worker_uuid) (o : oracles worker_in wmsg).
  Hypothesis ord_ok : forall m, ord m ≡ₚ map_to_list m.
  Lemma run_W items tr r : serve_worker content ord w o items WIdle [] = (tr, r) -> match r with inl _ => WEnd w o tr | inr _ => WE w tr end.
  Proof.
    intros H. assert (WM w WIdle []) as H0. { split; [|done]. split; [by intros [|? ?] ? ?|]. split; [|split]; intros; apply not_elem_of_nil. }
    pose proof (serve_worker_ok content ord w o ord_ok items WIdle [] H0) as G. rewrite H in G. by destruct r.
  Qed.
  Lemma run_told items tr r a m b : serve_worker content ord w o items WIdle [] = (tr, r) -> tr = a ++ XSched m :: b -> wtold_ok w a m b.
  Proof.
    intros H Heq. pose proof (run_W _ _ _ H) as G. destruct r as [u|e].
    - destruct G as [(t & Ht & (HI & Hg & Hd & Hx) & _)|(t & Ht & _ & (HI & Hg & Hd & Hx) & _)].
      + rewrite Heq in Ht. change [XSched (WorkerDisconnected w); XGone w] with ([XSched (WorkerDisconnected w)] ++ [XGone w] : list (xevent worker_in wmsg)) in Ht.
        rewrite app_assoc in Ht. symmetry in Ht. apply snoc_split in Ht as [(_ & ? & _)|(b' & -> & Ht)]; [done|].
        apply snoc_split in Ht as [(-> & [= ->] & ->)|(b2 & -> & ->)]; [simpl; split; [done|]; by right|].
        specialize (HI a m b2 eq_refl). destruct m; try done. exfalso. eapply Hd. apply elem_of_app; right; by left.
      + rewrite Heq in Ht. symmetry in Ht. apply snoc_split in Ht as [(_ & ? & _)|(b' & -> & ->)]; [done|].
        specialize (HI a m b' eq_refl). destruct m; try done. exfalso. eapply Hd. apply elem_of_app; right; by left.
    - destruct G as (HI & _). by apply (HI a m b).
  Qed.
  (** The scheduler is told a result only after the worker told it; the outputs are those the worker listed or uploaded: every listed output
      was found in the store or asked, all asked files arrived and were stored before. *)
  Theorem C59_result items tr r a w' rs outs' b : serve_worker content ord w o items WIdle [] = (tr, r) -> tr = a ++ XSched (WorkerResult w' rs outs') :: b ->
    w' = w /\ exists a1 a2 outs missing, a = a1 ++ XRecv (WIDone rs outs) :: a2 /\ collected outs missing outs' 0 a2.
  Proof. apply run_told. Qed.
  (** The scheduler is told that the worker waits for a job exactly when the worker says so. *)
  Theorem C59_waits items tr r a w' b : serve_worker content ord w o items WIdle [] = (tr, r) -> tr = a ++ XSched (WorkerConnected w') :: b ->
    w' = w /\ exists a', a = a' ++ [XRecv WIGetWork].
  Proof. apply run_told. Qed.
  (** A normal end: the scheduler (if it is still there) and the worker manager are told that the worker left, and nothing after. *)
  Theorem C59_end items tr : serve_worker content ord w o items WIdle [] = (tr, inl tt) -> (forall tr, o_sched o tr = true) ->
    exists t, tr = t ++ [XSched (WorkerDisconnected w); XGone w] /\ (forall w', XGone w' ∉ t) /\ (forall w', XSched (WorkerDisconnected w') ∉ t).
  Proof.
    intros H Hs. destruct (run_W _ _ _ H) as [(t & -> & (_ & Hg & Hd & _) & _)|(t & _ & Hn & _)]; [by exists t|]. by rewrite Hs in Hn.
  Qed.
  (** No result is lost: if a thread ends normally, all but (if the scheduler went away) one of the completed jobs were told to the scheduler. *)
  Theorem C59_no_result_lost items tr : serve_worker content ord w o items WIdle [] = (tr, inl tt) ->
    length (List.filter is_widone tr) <= S (length (List.filter (fun e => match e with XSched m => is_result m | _ => false end) tr)).
  Proof.
    intros H. destruct (run_W _ _ _ H) as [(t & -> & _ & Hc)|(t & -> & _ & _ & Hc)]; unfold wcount in Hc; rewrite !List.filter_app, !app_length; simpl; unfold is_result_ev in Hc; lia.
  Qed.
End worker.
(** The whole exchange with a worker (see C36 for what the worker tells): the worker tells the results and the outputs, the thread asks the files
    the store [s] does not have, the worker provides them; they are stored with the content the worker read, and the scheduler gets the results
    and exactly the outputs the worker told. *)
Theorem C59_upload content ord w o s chunks rs outs rest tr :
  (forall m, ord m ≡ₚ map_to_list m) -> (forall tr, o_up o tr = true) -> (forall tr, o_sched o tr = true) -> (forall tr k, o_store o tr k = true) ->
  (forall tr k, o_has o tr k = s k) -> (forall k, Forall (fun b => b <> []) (chunks k)) ->
  exists asked : list (file_uuid * store_key), asked = List.filter (fun fk => negb (s fk.2)) (ord outs) /\ exists t,
    serve_worker content ord w o (worker_items chunks (EvDone rs outs) ++ (provide outs asked.*1 ≫= worker_items chunks) ++ rest) WIdle tr =
    serve_worker content ord w o rest WIdle (tr ++ t ++ [XSched (WorkerResult w rs outs)]) /\
    omap sched_of t = [] /\ omap out_of t = [Msg (WAskFiles asked.*1)] /\
    omap (fun e => match e with XStored f k c => Some (f, k, c) | _ => None end) t = map (fun fk => (fk, chunks fk.2)) asked.
Proof.
  intros H1 H2 H3 H4 H5 H6. exists (lacking s (ord outs)). split.
  - generalize (ord outs). clear. intros l. unfold lacking. induction l as [|[f k] l IH]; [done|]. cbn. destruct (s k); simpl; by rewrite IH.
  - apply serve_done; done.
Qed.
(** A worker that is lost after it completed a job, while it uploads the outputs: the thread fails and neither the scheduler nor the worker
    manager is told. The job is never run by another worker. *)
Theorem C59_lost_worker_refuted : exists items tr,
  serve_worker ex_content map_to_list 1%positive (Oracles (fun _ => true) (fun _ => true) (fun _ _ => false) (fun _ _ => true)) items WIdle [] = (tr, inr false) /\
  items = [Msg WIGetWork; Msg (WIDone [] {[2%positive := 5%positive]})] /\
  omap sched_of tr = [WorkerConnected 1%positive] /\ XGone 1%positive ∉ tr.
Proof.
  eexists. exists [XRecv WIGetWork; XSched (WorkerConnected 1); XRecv (WIDone [] {[2 := 5]}); XHas 5 false; XOut (Msg (WAskFiles [2]))]%positive. split_and!; [|done|by vm_compute|].
  - by vm_compute.
  - intros H. repeat (apply elem_of_cons in H as [?|H]; [done|]). by apply elem_of_nil in H.
Qed.
Example C59_example :
  (serve_worker ex_content map_to_list 1%positive (Oracles (fun _ => true) (fun _ => true) (fun _ k => bool_decide (k = 6%positive)) (fun _ _ => true))
    ([Msg WIGetWork; Msg (WIDone [ex_result] {[2 := 5; 3 := 6]}); Msg (WIProvideFile 2 5); Raw [65]%N; Raw []])%positive WIdle []).1 =
  [XRecv WIGetWork; XSched (WorkerConnected 1); XRecv (WIDone [ex_result] {[2 := 5; 3 := 6]}); XHas 5 false; XHas 6 true; XOut (Msg (WAskFiles [2]));
   XRecv (WIProvideFile 2 5); XStored 2 5 [[65]%N]; XSched (WorkerResult 1 [ex_result] {[2 := 5; 3 := 6]}); XSched (WorkerDisconnected 1); XGone 1]%positive.
Proof. by vm_compute. Qed.
Print Assumptions C59_result. Print Assumptions C59_waits. Print Assumptions C59_end. Print Assumptions C59_no_result_lost. Print Assumptions C59_upload. Print Assumptions C59_lost_worker_refuted.

(** ** C60: the worker manager *)
(** A job or a stop request is sent only to the worker it names, right after it was requested. *)
Theorem C60_right_worker up ms tr ok a w m b : manager_run up ms ∅ [] = (tr, ok) -> tr = a ++ MESend w m :: b -> send_ok a w m.
Proof.
  intros H ->. pose proof (manager_run_ok up ms ∅ []) as G. rewrite H in G. apply (G ltac:(by intros [|? ?] ? ? ?) a w m b eq_refl).
Qed.
(** If the connections work, every request for a connected worker is forwarded, in the order of the requests, and at the end all the workers that are
    still connected are told to exit. *)
Fixpoint requests (ms : list manager_in) (ws : gset worker_uuid) : list (worker_uuid * wmsg) :=
  match ms with
  | [] | IExit :: _ => map (fun w => (w, WExit)) (elements ws)
  | IConnected w :: ms => requests ms ({[w]} ∪ ws)
  | IDisconnected w :: ms => requests ms (ws ∖ {[w]})
  | IJob w j :: ms => (if decide (w ∈ ws) then [(w, WWork j)] else []) ++ requests ms ws
  | IStopJob w g :: ms => (if decide (w ∈ ws) then [(w, WKillJob g)] else []) ++ requests ms ws
  end.
Definition mesent (e : mevent) : option (worker_uuid * wmsg) := match e with MESend w m => Some (w, m) | _ => None end.
Theorem C60_forwarded up ms tr : (forall tr w, up tr w = true) -> manager_run up ms ∅ [] = (tr, true) -> omap mesent tr = requests ms ∅.
Proof.
  intros Hu. assert (forall ws tr, omap mesent (manager_exit up ws tr) = omap mesent tr ++ map (fun w => (w, WExit)) (elements ws)) as He.
  { intros ws t. unfold manager_exit. generalize (elements ws). intros l. revert t. induction l as [|w l IH]; intros t; simpl; [by rewrite app_nil_r|].
    rewrite Hu, IH, omap_app. cbn. by rewrite <- app_assoc. }
  cut (forall ws t, manager_run up ms ws t = (tr, true) -> omap mesent tr = omap mesent t ++ requests ms ws); [intros H; apply (H ∅ [])|].
  induction ms as [|m ms IH]; intros ws t H; simpl in H; [simplify_eq; apply He|].
  destruct m as [w|w|w j|w g|]; simpl in H |- *; unfold manager_send in H; try rewrite Hu in H.
  - case_decide as Hw; apply IH in H as ->; rewrite !omap_app; cbn; rewrite ?app_nil_r; [|done]. f_equal. f_equal. set_solver.
  - case_decide as Hw; [|done]. apply IH in H as ->. rewrite !omap_app. cbn. by rewrite ?app_nil_r.
  - case_decide as Hw; apply IH in H as ->; rewrite !omap_app; cbn; rewrite ?app_nil_r, <- ?app_assoc; done.
  - case_decide as Hw; apply IH in H as ->; rewrite !omap_app; cbn; rewrite ?app_nil_r, <- ?app_assoc; done.
  - simplify_eq. rewrite He, omap_app. cbn. by rewrite app_nil_r.
Qed.
(** It fails only if a worker that is not connected leaves, or if the connection of a worker breaks. *)
Theorem C60_runs up ms : (forall tr w, up tr w = true) ->
  (forall l w l', ms = l ++ IDisconnected w :: l' -> exists l1 l2, l = l1 ++ IConnected w :: l2 /\ IDisconnected w ∉ l2) -> (manager_run up ms ∅ []).2 = true.
Proof.
  intros Hu Hd. cut (forall (pre : list manager_in) (ws : gset worker_uuid) t,
    (forall w, (exists l1 l2, pre = l1 ++ IConnected w :: l2 /\ IDisconnected w ∉ l2) -> w ∈ ws) ->
    (forall l w l', pre ++ ms = l ++ IDisconnected w :: l' -> exists l1 l2, l = l1 ++ IConnected w :: l2 /\ IDisconnected w ∉ l2) ->
    (manager_run up ms ws t).2 = true).
  { intros H. apply (H []); [|done]. intros w (l1 & l2 & Hl & _). by destruct l1. }
  clear Hd. induction ms as [|m ms IH]; intros pre ws t Hin Hd; [done|].
  assert (forall ws', (forall w, (exists l1 l2, pre ++ [m] = l1 ++ IConnected w :: l2 /\ IDisconnected w ∉ l2) -> w ∈ ws') -> forall t, (manager_run up ms ws' t).2 = true) as Hn.
  { intros ws' Hw t'. apply (IH (pre ++ [m])); [done|]. intros l w l' Hl. rewrite <- app_assoc in Hl. by apply (Hd l w l'). }
  assert (forall w, m <> IConnected w -> (exists l1 l2, pre ++ [m] = l1 ++ IConnected w :: l2 /\ IDisconnected w ∉ l2) -> m <> IDisconnected w /\ w ∈ ws) as Hk.
  { intros w Hm (l1 & l2 & Hl & Hd2). apply snoc_split in Hl as [(_ & He & _)|(b' & -> & ->)]; [by rewrite He in Hm|].
    split; [intros ->; apply Hd2, elem_of_app; right; by left|]. apply Hin. exists l1, b'. split; [done|]. intros ?. apply Hd2, elem_of_app. by left. }
  destruct m as [w|w|w j|w g|]; simpl; unfold manager_send; try rewrite Hu; [| | | |done].
  - case_decide as Hw; apply Hn; intros w' Hw'; (destruct (decide (w' = w)) as [->|Hne]; [set_solver|]); specialize (Hk w' ltac:(congruence) Hw') as [_ ?]; set_solver.
  - rewrite decide_True by (apply Hin; by apply (Hd pre w ms)). apply Hn. intros w' Hw'. destruct (Hk w' ltac:(done) Hw') as [? ?]. set_solver.
  - case_decide as Hw; apply Hn; intros w' Hw'; by destruct (Hk w' ltac:(done) Hw').
  - case_decide as Hw; apply Hn; intros w' Hw'; by destruct (Hk w' ltac:(done) Hw').
Qed.
(** A job for a worker whose connection has just broken (its thread did not tell it yet) makes the whole manager fail: no worker gets anything any more. *)
Theorem C60_broken_connection_refuted : exists ms tr j, 
  ms = [IConnected 1; IConnected 2; IJob 1 j; IJob 2 j; IDisconnected 1]%positive /\
  manager_run (fun _ w => bool_decide (w <> 1%positive)) ms ∅ [] = (tr, false) /\ forall m, MESend 2%positive m ∉ tr.
Proof.
  eexists. exists [MERecv (IConnected 1); MESpawn 1; MERecv (IConnected 2); MESpawn 2; MERecv (IJob 1 (WJob ex_g1 ∅))]%positive, (WJob ex_g1 ∅). split_and!; [done|by vm_compute|].
  intros m H. repeat (apply elem_of_cons in H as [?|H]; [done|]). by apply elem_of_nil in H.
Qed.
Example C60_example : let j := WJob ex_g1 ∅ in
  manager_run (fun _ _ => true) [IConnected 1; IConnected 2; IJob 1 j; IJob 3 j; IDisconnected 2; IStopJob 1 7; IStopJob 2 7; IExit; IJob 1 j]%positive ∅ [] =
  ([MERecv (IConnected 1); MESpawn 1; MERecv (IConnected 2); MESpawn 2; MERecv (IJob 1 j); MESend 1 (WWork j); MERecv (IJob 3 j); MERecv (IDisconnected 2);
    MERecv (IStopJob 1 7); MESend 1 (WKillJob 7); MERecv (IStopJob 2 7); MERecv IExit; MESend 1 WExit]%positive, true).
Proof. by vm_compute. Qed.
Print Assumptions C60_right_worker. Print Assumptions C60_forwarded. Print Assumptions C60_runs. Print Assumptions C60_broken_connection_refuted.
