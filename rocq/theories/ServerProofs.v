(** * ServerProofs: packets; the thread that serves a client *)
From Verif Require Import ServerSpec CheckDagModel SchedModel ClientModel WorkerModel.

(** ** Packets *)
Lemma decode_chunks {M} (announces : M -> bool) (m : M) (chunks acc : list bytes) rest : Forall (fun b => b <> []) chunks ->
  read_packets announces (send_file chunks ++ rest) (Some (m, acc)) =
  let '(ps, ok) := read_packets announces rest None in (Packet m (Some (acc ++ chunks)) :: ps, ok).
Proof.
  intros H. revert acc. induction H as [|b chunks Hb H IH]; intros acc; simpl.
  - by rewrite app_nil_r.
  - rewrite bool_decide_eq_false_2 by done. unfold send_file in IH. rewrite IH. by rewrite <- app_assoc.
Qed.
Lemma decode_packet {M} (announces : M -> bool) (p : packet M) rest : packet_ok announces p ->
  read_packets announces (packet_items p ++ rest) None = let '(ps, ok) := read_packets announces rest None in (p :: ps, ok).
Proof.
  intros [H1 H2]. destruct p as [m [chunks|]]; simpl in *.
  - rewrite (proj2 H1) by eauto. rewrite decode_chunks by auto. done.
  - destruct (announces m); [|done]. destruct (proj1 H1) as [? ?]; done.
Qed.
Lemma decode_packets {M} (announces : M -> bool) (ps : list (packet M)) : Forall (packet_ok announces) ps ->
  read_packets announces (ps ≫= packet_items) None = (ps, true).
Proof.
  induction 1 as [|p ps Hp H IH]; [done|]. rewrite bind_cons, decode_packet, IH by done. done.
Qed.
Lemma merged_Forall {A} (P : A -> Prop) a b l : merged a b l -> Forall P a -> Forall P b -> Forall P l.
Proof.
  induction 1 as [|x a b l _ IH|x a b l _ IH]; intros Ha Hb; [constructor| |].
  - inversion Ha; subst. constructor; auto.
  - inversion Hb; subst. constructor; auto.
Qed.

(** ** Triples *)
Section triple.
  Context {I O : Type}.
  Implicit Types tr : list (xevent I O).
  Definition tri {A} (P : list (xevent I O) -> Prop) (x : xm I O A) (Q : A -> list (xevent I O) -> Prop) (E : list (xevent I O) -> Prop) : Prop :=
    forall tr, P tr -> match x tr with (tr', inl a) => Q a tr' | (tr', inr _) => E tr' end.
  Lemma tri_bind {A B} P (x : xm I O A) Q E (f : A -> xm I O B) R : tri P x Q E -> (forall a, tri (Q a) (f a) R E) -> tri P (xbind x f) R E.
  Proof.
    intros Hx Hf tr Ht. specialize (Hx tr Ht). unfold xbind. destruct (x tr) as [tr' [a|e]]; [|exact Hx]. by apply Hf.
  Qed.
  Lemma tri_ret {A} (P : list (xevent I O) -> Prop) (a : A) (Q : A -> list (xevent I O) -> Prop) E : (forall tr, P tr -> Q a tr) -> tri P (xret a) Q E.
  Proof. intros H tr Ht. by apply H. Qed.
  Lemma tri_pre {A} (P P' : list (xevent I O) -> Prop) (x : xm I O A) Q E : tri P' x Q E -> (forall tr, P tr -> P' tr) -> tri P x Q E.
  Proof. intros H HP tr Ht. apply H. by apply HP. Qed.
  Lemma tri_post {A} P (x : xm I O A) (Q Q' : A -> list (xevent I O) -> Prop) E : tri P x Q' E -> (forall a tr, Q' a tr -> Q a tr) -> tri P x Q E.
  Proof. intros H HP tr Ht. specialize (H tr Ht). destruct (x tr) as [tr' [a|e]]; [|done]. by apply HP. Qed.
  Lemma tri_emit (P : list (xevent I O) -> Prop) e (Q : unit -> list (xevent I O) -> Prop) E : (forall tr, P tr -> Q tt (tr ++ [e])) -> tri P (xemit e) Q E.
  Proof. intros H tr Ht. by apply H. Qed.
  Lemma tri_out (P : list (xevent I O) -> Prop) o i (Q : unit -> list (xevent I O) -> Prop) (E : list (xevent I O) -> Prop) :
    (forall tr, P tr -> Q tt (tr ++ [XOut i])) -> (forall tr, P tr -> E tr) -> tri P (xout o i) Q E.
  Proof. intros H HE tr Ht. unfold xout. destruct (o_up o tr); [by apply H|by apply HE]. Qed.
  Lemma tri_sched (P : list (xevent I O) -> Prop) o m (Q : unit -> list (xevent I O) -> Prop) (E : list (xevent I O) -> Prop) :
    (forall tr, P tr -> Q tt (tr ++ [XSched m])) -> (forall tr, P tr -> E tr) -> tri P (xsched o m) Q E.
  Proof. intros H HE tr Ht. unfold xsched. destruct (o_sched o tr); [by apply H|by apply HE]. Qed.
  Lemma tri_try_sched (P : list (xevent I O) -> Prop) o m (Q : bool -> list (xevent I O) -> Prop) (E : list (xevent I O) -> Prop) :
    (forall tr, P tr -> Q true (tr ++ [XSched m])) -> (forall tr, P tr -> Q false tr) -> tri P (xtry (xsched o m)) Q E.
  Proof. intros H HE tr Ht. unfold xtry, xsched. destruct (o_sched o tr); [by apply H|by apply HE]. Qed.
  Lemma tri_has (P : list (xevent I O) -> Prop) o k (Q : bool -> list (xevent I O) -> Prop) E :
    (forall tr b, P tr -> Q b (tr ++ [XHas k b])) -> tri P (xhas o k) Q E.
  Proof. intros H tr Ht. unfold xhas. by apply H. Qed.
  Lemma tri_store (P : list (xevent I O) -> Prop) o f k chunks (Q : unit -> list (xevent I O) -> Prop) (E : list (xevent I O) -> Prop) :
    (forall tr, P tr -> Q tt (tr ++ [XStored f k chunks])) -> (forall tr, P tr -> E tr) -> tri P (xstore o f k chunks) Q E.
  Proof. intros H HE tr Ht. unfold xstore. destruct (o_store o tr k); [by apply H|by apply HE]. Qed.
  Lemma tri_iter {A} (f : A -> xm I O unit) (l : list A) (J : list A -> list (xevent I O) -> Prop) E :
    (forall a x b, l = a ++ x :: b -> tri (J a) (f x) (fun _ => J (a ++ [x])) E) -> tri (J []) (xiter f l) (fun _ => J l) E.
  Proof.
    intros H. enough (forall a b, l = a ++ b -> tri (J a) (xiter f b) (fun _ => J l) E) as G by (by apply (G [])).
    intros a b. revert a. induction b as [|x b IH]; intros a Hl; simpl.
    - apply tri_ret. subst l. by rewrite app_nil_r.
    - eapply tri_bind; [by apply (H a x b)|]. intros []. apply IH. subst l. by rewrite <- app_assoc.
  Qed.
  Lemma tri_fail {A} (P : list (xevent I O) -> Prop) (Q : A -> list (xevent I O) -> Prop) (E : list (xevent I O) -> Prop) :
    (forall tr, P tr -> E tr) -> tri P xerror Q E.
  Proof. intros H tr Ht. by apply H. Qed.
  Lemma tri_panic {A} (P : list (xevent I O) -> Prop) (Q : A -> list (xevent I O) -> Prop) (E : list (xevent I O) -> Prop) :
    (forall tr, P tr -> E tr) -> tri P xpanic Q E.
  Proof. intros H tr Ht. by apply H. Qed.
End triple.

(** Where an event is in a trace that grew by one event. *)
Lemma snoc_split {A} (tr : list A) e a x b : tr ++ [e] = a ++ x :: b -> (b = [] /\ x = e /\ a = tr) \/ (exists b', b = b' ++ [e] /\ tr = a ++ x :: b').
Proof.
  intros H. destruct b as [|y b' _] using rev_ind.
  - left. apply app_inj_tail in H as [-> ->]. done.
  - right. rewrite app_comm_cons, app_assoc in H. apply app_inj_tail in H as [-> ->]. eauto.
Qed.

(** ** The thread that serves a client *)
Section client.
  Context (content : store_key -> list bytes) (ord : list group_uuid -> list group_uuid) (c : client_uuid) (o : oracles client_in server_msg).
  Notation trace := (list (xevent client_in server_msg)).
  Implicit Types tr : trace.

  (** *** What the scheduler is told *)
  Definition told_ok (a : trace) (m : sched_msg) : Prop :=
    match m with
    | EvaluateDAG c' d cb => c' = c /\ check_dag ord d cb = Done tt /\ XRecv (CIEvaluate d cb) ∈ a
    | FileReady c' f k => c' = c /\
        ((exists chunks, XRecv (CIProvideFile f k) ∈ a /\ XStored f k chunks ∈ a) \/
         (exists d cb, XSched (EvaluateDAG c d cb) ∈ a /\ (f, k) ∈ d_provided d /\ XHas k true ∈ a))
    | ClientDisconnected c' | StatusRequest c' => c' = c
    | _ => False
    end.
  Definition told (tr : trace) : Prop := forall a m b, tr = a ++ XSched m :: b -> told_ok a m.
  Definition leaving (sched : bool) (tr : trace) : Prop :=
    if sched then XSched (ClientDisconnected c) ∉ tr
    else exists a b, tr = a ++ XSched (ClientDisconnected c) :: b /\ XSched (ClientDisconnected c) ∉ a /\ omap sched_of b = [].
  Definition CI (sched : bool) (tr : trace) : Prop := told tr /\ leaving sched tr /\ XExit ∉ tr.
  Definition CE (tr : trace) : Prop := exists sched, CI sched tr.

  Lemma CI_other sched tr e : CI sched tr -> sched_of e = None -> e <> XExit -> CI sched (tr ++ [e]).
  Proof.
    intros (H1 & H2 & H3) He Hx. split_and!.
    - intros a m b Hs. apply snoc_split in Hs as [(-> & <- & ->)|(b' & -> & ->)]; [done|]. by apply (H1 a m b').
    - destruct sched; simpl in *.
      + intros [?|Hin%elem_of_list_singleton]%elem_of_app; [done|]. by subst.
      + destruct H2 as (a & b & -> & Ha & Hb). exists a, (b ++ [e]). rewrite <- app_assoc. split_and!; [done|done|].
        rewrite omap_app, Hb. cbn. by rewrite He.
    - intros [?|Hin%elem_of_list_singleton]%elem_of_app; [done|]. by subst.
  Qed.
  Lemma CI_sched tr m : CI true tr -> told_ok tr m -> (forall c', m <> ClientDisconnected c') -> CI true (tr ++ [XSched m]).
  Proof.
    intros (H1 & H2 & H3) Hm Hn. split_and!.
    - intros a m' b Hs. apply snoc_split in Hs as [(-> & [= ->] & ->)|(b' & -> & ->)]; [done|]. by apply (H1 a m' b').
    - intros [?|Hin%elem_of_list_singleton]%elem_of_app; [done|]. simplify_eq. by apply (Hn c).
    - intros [?|Hin%elem_of_list_singleton]%elem_of_app; done.
  Qed.
  Lemma CI_leave tr : CI true tr -> CI false (tr ++ [XSched (ClientDisconnected c)]).
  Proof.
    intros (H1 & H2 & H3). split_and!.
    - intros a m' b Hs. apply snoc_split in Hs as [(-> & [= ->] & ->)|(b' & -> & ->)]; [done|]. by apply (H1 a m' b').
    - exists tr, []. done.
    - intros [?|Hin%elem_of_list_singleton]%elem_of_app; done.
  Qed.
  Lemma CI_E sched tr : CI sched tr -> CE tr.
  Proof. by exists sched. Qed.

  Lemma ask_provided_CI sched d cb l l' : d_provided d = l' ++ l ->
    tri (fun tr => CI sched tr /\ XRecv (CIEvaluate d cb) ∈ tr) (ask_provided o l)
        (fun ready tr => CI sched tr /\ XRecv (CIEvaluate d cb) ∈ tr /\ forall f k, (f, k) ∈ ready -> (f, k) ∈ d_provided d /\ XHas k true ∈ tr) CE.
  Proof.
    revert l'. induction l as [|[f k] l IH]; intros l' Hl; simpl.
    - apply tri_ret. intros tr [H Hr]. split; [done|]. split; [done|]. intros f k Hin. by apply elem_of_nil in Hin.
    - eapply tri_bind with (Q := fun b tr => (CI sched tr /\ XRecv (CIEvaluate d cb) ∈ tr) /\ XHas k b ∈ tr).
      + apply tri_has. intros tr b [H Hr]. split; [split; [by apply CI_other|by apply elem_of_app; left]|]. apply elem_of_app; right; by left.
      + assert (d_provided d = (l' ++ [(f, k)]) ++ l) as Hl' by (rewrite Hl; by rewrite <- app_assoc). intros [|].
        * intros tr [Htr Hhas]. pose proof (IH _ Hl' tr Htr) as H. unfold xbind. destruct (ask_provided o l tr) as [tr' [r|e]] eqn:E; [|done].
          destruct H as (H1 & H2 & H3). split; [done|]. split; [done|]. intros f' k' [Heq|Hin]%elem_of_cons; [|by apply H3].
          simplify_eq. split; [rewrite Hl; apply elem_of_app; right; by left|].
          assert (exists dd, tr' = tr ++ dd) as [dd ->].
          { clear -E. revert tr tr' r E. induction l as [|[f k] l IH]; intros tr tr' r E; simpl in E; [unfold xret in E; simplify_eq; exists []; by rewrite app_nil_r|].
            unfold xbind, xhas in E. destruct (o_has o tr k).
            - destruct (ask_provided o l (tr ++ [XHas k true])) as [tr2 [r2|]] eqn:E2; [|done]. unfold xret in E. simplify_eq. apply IH in E2 as [dd ->].
              exists (XHas k true :: dd). by rewrite <- app_assoc.
            - unfold xout in E. destruct (o_up o _); [|done]. apply IH in E as [dd ->]. eexists. by rewrite <- !app_assoc. }
          by apply elem_of_app; left.
        * eapply tri_bind with (Q := fun _ tr => CI sched tr /\ XRecv (CIEvaluate d cb) ∈ tr).
          -- apply tri_out; [|intros tr [[H _] _]; by eapply CI_E]. intros tr [[H Hr] _]. split; [by apply CI_other|by apply elem_of_app; left].
          -- intros []. by eapply IH.
  Qed.
  Lemma ready_CI d cb (ready : list (file_uuid * store_key)) :
    tri (fun tr => CI true tr /\ XSched (EvaluateDAG c d cb) ∈ tr /\ forall f k, (f, k) ∈ ready -> (f, k) ∈ d_provided d /\ XHas k true ∈ tr)
        (xiter (fun fk => xsched o (FileReady c fk.1 fk.2)) ready) (fun _ tr => CI true tr) CE.
  Proof.
    eapply tri_post with (Q' := fun _ tr => CI true tr /\ XSched (EvaluateDAG c d cb) ∈ tr /\ forall f k, (f, k) ∈ ready -> (f, k) ∈ d_provided d /\ XHas k true ∈ tr); [|by intros _ tr [? _]].
    apply (tri_iter _ ready (fun _ tr => CI true tr /\ XSched (EvaluateDAG c d cb) ∈ tr /\ forall f k, (f, k) ∈ ready -> (f, k) ∈ d_provided d /\ XHas k true ∈ tr)).
    intros a [f k] b Hl. simpl. apply tri_sched; [|intros tr [H _]; by eapply CI_E]. intros tr (H1 & H2 & H3). split_and!.
    - apply CI_sched; [done| |done]. simpl. split; [done|]. right. exists d, cb. destruct (H3 f k) as [? ?]; [rewrite Hl; set_solver|]. done.
    - set_solver.
    - intros f' k' Hin. destruct (H3 f' k' Hin). split; [done|set_solver].
  Qed.
  Definition CN (n : next) (tr : trace) : Prop :=
    match n with Next s | Leave s => CI s tr | Receive f k s => CI s tr /\ XRecv (CIProvideFile f k) ∈ tr end.
  Lemma client_message_CI m sched : tri (fun tr => CI sched tr /\ XRecv m ∈ tr) (client_message content ord c o m sched) CN CE.
  Proof.
    destruct m as [d cb|f k|f k success| |]; simpl.
    - destruct (check_dag ord d cb) as [[]|er| |] eqn:Ec.
      2-4: (eapply tri_bind with (Q := fun _ tr => CI sched tr); [apply tri_out; [intros tr [H _]; by apply CI_other|intros tr [H _]; by eapply CI_E]|intros []; by apply tri_ret]).
      eapply tri_bind; [eapply (ask_provided_CI sched d cb _ []); done|]. intros ready. simpl.
      destruct sched; [|apply tri_fail; intros tr [H _]; by eapply CI_E].
      eapply tri_bind with (Q := fun _ tr => CI true tr /\ XSched (EvaluateDAG c d cb) ∈ tr /\ forall f k, (f, k) ∈ ready -> (f, k) ∈ d_provided d /\ XHas k true ∈ tr).
      + apply tri_sched; [|intros tr [H _]; by eapply CI_E]. intros tr (H1 & H2 & H3). split_and!; [by apply CI_sched|set_solver|].
        intros f k Hin. destruct (H3 f k Hin). split; [done|set_solver].
      + intros []. eapply tri_bind; [apply ready_CI|]. intros []. apply tri_ret. done.
    - apply tri_ret. intros tr [H Hr]. by split.
    - eapply tri_bind with (Q := fun _ tr => CI sched tr); [apply tri_has; intros tr b [H _]; by apply CI_other|]. intros [|].
      + eapply tri_bind with (Q := fun _ tr => CI sched tr); [apply tri_out; [intros tr H; by apply CI_other|intros tr H; by eapply CI_E]|].
        intros []. eapply tri_bind with (Q := fun _ tr => CI sched tr); [|intros []; by apply tri_ret].
        apply (tri_iter _ _ (fun _ tr => CI sched tr)). intros a x b _. apply tri_out; [intros tr H; by apply CI_other|intros tr H; by eapply CI_E].
      + eapply tri_bind with (Q := fun _ tr => CI sched tr); [apply tri_out; [intros tr H; by apply CI_other|intros tr H; by eapply CI_E]|].
        intros []. by apply tri_ret.
    - destruct sched; [|apply tri_ret; by intros tr [H _]]. eapply tri_bind with (Q := fun _ tr => CI true tr); [|intros b; by apply tri_ret].
      apply tri_try_sched; intros tr [H _]; [|done]. by apply CI_sched.
    - destruct sched; [|apply tri_ret; by intros tr [H _]]. eapply tri_bind with (Q := fun _ tr => CI false tr); [|intros []; by apply tri_ret].
      apply tri_sched; intros tr [H _]; [by apply CI_leave|by eapply CI_E].
  Qed.
  Lemma client_end_CI sched : tri (CI sched) (client_end c o sched) (fun _ => CI false) CE.
  Proof.
    destruct sched; simpl; [|by apply tri_ret]. apply tri_sched; intros tr H; [by apply CI_leave|by eapply CI_E].
  Qed.
  Lemma serve_client_CI items rx sched :
    tri (fun tr => CI sched tr /\ match rx with Some (f, k, _) => XRecv (CIProvideFile f k) ∈ tr | None => True end)
        (serve_client content ord c o items rx sched) (fun _ => CI false) CE.
  Proof.
    revert rx sched. induction items as [|[m|b] items IH]; intros rx sched; simpl.
    - destruct rx as [[[f k] chunks]|]; [apply tri_panic; intros tr [H _]; by eapply CI_E|].
      eapply tri_pre; [apply client_end_CI|by intros tr [H _]].
    - destruct rx as [[[f k] chunks]|]; [apply tri_panic; intros tr [H _]; by eapply CI_E|].
      eapply tri_bind with (Q := fun _ tr => CI sched tr /\ XRecv m ∈ tr); [apply tri_emit; intros tr [H _]; split; [by apply CI_other|set_solver]|].
      intros []. eapply tri_bind; [apply client_message_CI|]. intros [s|s|f k s]; simpl.
      + eapply tri_pre; [apply IH|]. done.
      + apply client_end_CI.
      + eapply tri_pre; [apply IH|]. done.
    - destruct rx as [[[f k] chunks]|].
      + case_bool_decide as Hb; [|by eapply tri_pre; [apply IH|]].
        eapply tri_bind with (Q := fun _ tr => CI sched tr /\ XRecv (CIProvideFile f k) ∈ tr /\ XStored f k chunks ∈ tr).
        * apply tri_store; intros tr [H1 H2]; [|by eapply CI_E]. split_and!; [by apply CI_other|set_solver|set_solver].
        * intros []. destruct sched; [|apply tri_fail; intros tr [H _]; by eapply CI_E].
          eapply tri_bind with (Q := fun _ tr => CI true tr); [|intros []; by eapply tri_pre; [apply IH|]].
          apply tri_sched; intros tr (H1 & H2 & H3); [|by eapply CI_E]. apply CI_sched; [done| |done]. simpl. split; [done|]. left. eauto.
      + eapply tri_pre; [apply client_end_CI|by intros tr [H _]].
  Qed.

  (** *** What is written to the client *)
  Definition PK (tr : trace) : Prop := exists ps, Forall (packet_ok server_announces) ps /\ omap out_of tr = ps ≫= packet_items.
  Definition PE (tr : trace) : Prop := exists ps, Forall (packet_ok server_announces) ps /\ omap out_of tr `prefix_of` ps ≫= packet_items.
  Hypothesis content_ok : forall k, Forall (fun b => b <> []) (content k).
  Lemma PK_E tr : PK tr -> PE tr.
  Proof. intros (ps & ? & H). exists ps. by rewrite H. Qed.
  Lemma PK_other tr e : PK tr -> out_of e = None -> PK (tr ++ [e]).
  Proof. intros (ps & H & Ho) He. exists ps. split; [done|]. rewrite omap_app. cbn. rewrite He, app_nil_r. done. Qed.
  Lemma PK_msg tr m : PK tr -> server_announces m = false -> PK (tr ++ [XOut (Msg m)]).
  Proof.
    intros (ps & H & Ho) Hm. exists (ps ++ [Packet m None]). split.
    - apply Forall_app. split; [done|]. apply Forall_singleton. split; simpl; [|done]. rewrite Hm. split; [done|]. by intros [? ?].
    - rewrite omap_app, bind_app, Ho. done.
  Qed.
  Lemma send_PK f k success tr :
    match (xbind (xout o (Msg (SProvideFile f success))) (fun _ => xiter (xout o) (send_file (content k)))) tr with
    | (tr', inl _) => PK tr -> PK tr'
    | (tr', inr _) => PK tr -> PE tr'
    end.
  Proof.
    set (p := Packet (SProvideFile f success) (Some (content k))).
    assert (packet_ok server_announces p) as Hp. { split; simpl; [split; eauto|]. intros chunks [= <-]. apply content_ok. }
    cut (tri (fun t => t = tr) (xbind (xout o (Msg (SProvideFile f success))) (fun _ => xiter (xout o) (send_file (content k))))
      (fun _ tr' => PK tr -> PK tr') (fun tr' => PK tr -> PE tr')). { intros H. specialize (H tr eq_refl). by destruct (xbind _ _ tr) as [? [?|?]]. }
    eapply tri_bind with (Q := fun _ tr' => omap out_of tr' = omap out_of tr ++ [Msg (SProvideFile f success)]).
    - apply tri_out; intros t ->; [by rewrite omap_app|]. intros (ps & Hps & Ho). exists ps. by rewrite Ho.
    - intros [].
      eapply tri_post; [|].
      + eapply tri_pre; [|].
        * apply (tri_iter (xout o) (send_file (content k)) (fun done_ tr' => omap out_of tr' = omap out_of tr ++ Msg (SProvideFile f success) :: done_)).
          intros a x b Hl. apply tri_out.
          -- intros t Ht. rewrite omap_app, Ht. cbn. by rewrite <- app_assoc.
          -- intros t Ht (ps & Hps & Ho). exists (ps ++ [p]). split; [apply Forall_app; split; [done|by apply Forall_singleton]|].
             rewrite Ht, Ho, bind_app. apply prefix_app. rewrite bind_cons. simpl. rewrite Hl, app_nil_r. apply prefix_cons, prefix_app_r. done.
        * intros t Ht. simpl. exact Ht.
      + intros [] t Ht (ps & Hps & Ho). exists (ps ++ [p]). split; [apply Forall_app; split; [done|by apply Forall_singleton]|].
        rewrite Ht, Ho, bind_app, bind_cons. simpl. by rewrite app_nil_r.
  Qed.
  Lemma ask_provided_PK l : tri PK (ask_provided o l) (fun _ => PK) PE.
  Proof.
    induction l as [|[f k] l IH]; simpl; [by apply tri_ret|].
    eapply tri_bind with (Q := fun _ => PK); [apply tri_has; intros; by apply PK_other|]. intros [|].
    - eapply tri_bind; [apply IH|]. intros r. by apply tri_ret.
    - eapply tri_bind with (Q := fun _ => PK); [apply tri_out; intros; [by apply PK_msg|by apply PK_E]|]. intros []. apply IH.
  Qed.
  Lemma client_message_PK m sched : tri PK (client_message content ord c o m sched) (fun _ => PK) PE.
  Proof.
    assert (forall m', server_announces m' = false -> tri PK (xout o (Msg m')) (fun _ => PK) PE) as Hmsg.
    { intros m' Hm. apply tri_out; intros; [by apply PK_msg|by apply PK_E]. }
    assert (forall m', tri PK (xsched o m') (fun _ => PK) PE) as Hs.
    { intros m'. apply tri_sched; intros; [by apply PK_other|by apply PK_E]. }
    destruct m as [d cb|f k|f k success| |]; simpl.
    - destruct (check_dag ord d cb) as [[]|er| |] eqn:Ec; [|eapply tri_bind; [by apply Hmsg|intros []; by apply tri_ret]..].
      eapply tri_bind; [apply ask_provided_PK|]. intros ready. simpl. destruct sched; [|apply tri_fail; apply PK_E].
      eapply tri_bind; [apply Hs|]. intros []. eapply tri_bind with (Q := fun _ => PK); [|intros []; by apply tri_ret].
      apply (tri_iter _ ready (fun _ => PK)). intros. apply Hs.
    - by apply tri_ret.
    - eapply tri_bind with (Q := fun _ => PK); [apply tri_has; intros; by apply PK_other|]. intros [|].
      + intros tr Htr. pose proof (send_PK f k success tr) as H. unfold xbind in *. destruct (xout o (Msg (SProvideFile f success)) tr) as [t1 [[]|e]]; [|by apply H].
        destruct (xiter (xout o) (send_file (content k)) t1) as [t2 [[]|e]]; by apply H.
      + eapply tri_bind; [by apply Hmsg|]. intros []. by apply tri_ret.
    - destruct sched; [|by apply tri_ret]. eapply tri_bind with (Q := fun _ => PK); [apply tri_try_sched; intros; [by apply PK_other|done]|].
      intros b. by apply tri_ret.
    - destruct sched; [|by apply tri_ret]. eapply tri_bind; [apply Hs|]. intros []. by apply tri_ret.
  Qed.
  Lemma serve_client_PK items rx sched : tri PK (serve_client content ord c o items rx sched) (fun _ => PK) PE.
  Proof.
    assert (forall m', tri PK (xsched o m') (fun _ => PK) PE) as Hs.
    { intros m'. apply tri_sched; intros; [by apply PK_other|by apply PK_E]. }
    assert (forall s, tri PK (client_end c o s) (fun _ => PK) PE) as He. { intros []; simpl; [apply Hs|by apply tri_ret]. }
    revert rx sched. induction items as [|[m|b] items IH]; intros rx sched; simpl.
    - destruct rx as [[[f k] chunks]|]; [apply tri_panic; apply PK_E|apply He].
    - destruct rx as [[[f k] chunks]|]; [apply tri_panic; apply PK_E|].
      eapply tri_bind with (Q := fun _ => PK); [apply tri_emit; intros; by apply PK_other|]. intros [].
      eapply tri_bind; [apply client_message_PK|]. intros [s|s|f k s]; [apply IH|apply He|apply IH].
    - destruct rx as [[[f k] chunks]|]; [|apply He]. case_bool_decide as Hb; [|apply IH].
      eapply tri_bind with (Q := fun _ => PK); [apply tri_store; intros; [by apply PK_other|by apply PK_E]|]. intros [].
      destruct sched; [|apply tri_fail; apply PK_E]. eapply tri_bind; [apply Hs|]. intros []. apply IH.
  Qed.
End client.
