(** * ServerProofs3: the upload of the outputs, the binder, the worker manager *)
From Verif Require Import ServerSpec ServerProofs ServerProofs2 CheckDagModel SchedModel ClientModel WorkerModel.

(** ** The upload of the outputs *)
Section upload.
  Context (content : store_key -> list bytes) (ord : gmap file_uuid store_key -> list (file_uuid * store_key)) (w : worker_uuid) (o : oracles worker_in wmsg).
  Context (s : store_key -> bool) (chunks : store_key -> list bytes).
  Hypothesis ord_ok : forall m, ord m ≡ₚ map_to_list m.
  Hypothesis up_ok : forall tr, o_up o tr = true.
  Hypothesis sched_ok : forall tr, o_sched o tr = true.
  Hypothesis store_ok : forall tr k, o_store o tr k = true.
  Hypothesis has_ok : forall tr k, o_has o tr k = s k.
  Hypothesis chunks_ok : forall k, Forall (fun b => b <> []) (chunks k).
  Notation trace := (list (xevent worker_in wmsg)).
  Implicit Types tr : trace.

  Definition ins (h : gmap file_uuid store_key) (fk : file_uuid * store_key) : gmap file_uuid store_key := <[fk.1 := fk.2]> h.
  Definition found (l : list (file_uuid * store_key)) := omap (fun fk => if s fk.2 then Some fk else None) l.
  Definition lacking (l : list (file_uuid * store_key)) := omap (fun fk => if s fk.2 then None else Some fk) l.
  Lemma split_outputs_all l h m tr :
    split_outputs o l h m tr = (tr ++ map (fun fk => XHas fk.2 (s fk.2)) l, inl (fold_left ins (found l) h, m ++ (lacking l).*1)).
  Proof.
    revert h m tr. induction l as [|[f k] l IH]; intros h m tr; simpl.
    - unfold xret. by rewrite !app_nil_r.
    - unfold xbind, xhas. rewrite has_ok. unfold found, lacking. cbn. destruct (s k); rewrite IH, <- !app_assoc; done.
  Qed.
  Lemma receive_file rs h n f k (cs acc : list bytes) rest tr : Forall (fun b => b <> []) cs ->
    serve_worker content ord w o (send_file cs ++ rest) (WCollect (Collect rs h n (Some (f, k, acc)))) tr =
    serve_worker content ord w o (Raw [] :: rest) (WCollect (Collect rs h n (Some (f, k, acc ++ cs)))) tr.
  Proof.
    intros H. revert acc. induction H as [|b cs Hb H IH]; intros acc.
    - by rewrite app_nil_r.
    - change (send_file (b :: cs) ++ rest) with (Raw b :: (send_file cs ++ rest)). simpl. rewrite (bool_decide_eq_false_2 (b = [])) by done.
      rewrite IH. simpl. by rewrite <- app_assoc.
  Qed.
  Definition upload (fk : file_uuid * store_key) : list (chan worker_in) := Msg (WIProvideFile fk.1 fk.2) :: send_file (chunks fk.2).
  Lemma collect_all rs l : l <> [] -> forall h rest tr, exists d,
    serve_worker content ord w o ((l ≫= upload) ++ rest) (WCollect (Collect rs h (length l) None)) tr =
    serve_worker content ord w o rest WIdle (tr ++ d ++ [XSched (WorkerResult w rs (fold_left ins l h))]) /\
    omap sched_of d = [] /\ omap out_of d = [] /\ omap (fun e => match e with XStored f k c => Some (f, k, c) | _ => None end) d = map (fun fk => (fk, chunks fk.2)) l.
  Proof.
    induction l as [|[f k] l IH]; [done|]. intros _ h rest tr.
    assert (forall rest', serve_worker content ord w o ((((f, k) :: l) ≫= upload) ++ rest') (WCollect (Collect rs h (S (length l)) None)) tr =
      (if decide (S (length l) = 1) then (ok <~ xtry (xsched o (WorkerResult w rs (<[f := k]> h))); if (ok : bool) then serve_worker content ord w o (((l ≫= upload) ++ rest')) WIdle else worker_end w o)
       else serve_worker content ord w o ((l ≫= upload) ++ rest') (WCollect (Collect rs (<[f := k]> h) (S (length l) - 1) None)))
      (tr ++ [XRecv (WIProvideFile f k); XStored f k (chunks k)])) as Hstep.
    { intros rest'. rewrite bind_cons, <- app_assoc. unfold upload at 1. simpl fst. simpl snd.
      change ((Msg (WIProvideFile f k) :: send_file (chunks k)) ++ (l ≫= upload) ++ rest') with
        (Msg (WIProvideFile f k) :: (send_file (chunks k) ++ ((l ≫= upload) ++ rest'))).
      cbn [serve_worker]. unfold xbind at 1. unfold xemit. rewrite receive_file by done. cbn [serve_worker].
      rewrite bool_decide_eq_true_2 by done. unfold xbind at 1, xstore. rewrite store_ok. simpl app. rewrite <- app_assoc. simpl. done. }
    simpl length. rewrite Hstep. destruct l as [|fk l].
    - simpl. exists [XRecv (WIProvideFile f k); XStored f k (chunks k)]. split; [|done].
      unfold xbind, xtry, xsched. rewrite sched_ok. by rewrite <- app_assoc.
    - rewrite decide_False by done. replace (S (length (fk :: l)) - 1) with (length (fk :: l)) by (simpl; lia).
      destruct (IH ltac:(done) (<[f := k]> h) rest (tr ++ [XRecv (WIProvideFile f k); XStored f k (chunks k)])) as (d & -> & H1 & H2 & H3).
      exists ([XRecv (WIProvideFile f k); XStored f k (chunks k)] ++ d). split; [|split_and!].
      + rewrite <- !app_assoc. done.
      + rewrite omap_app, H1. done.
      + rewrite omap_app, H2. done.
      + rewrite omap_app, H3. done.
  Qed.
  Lemma fold_ins_lookup l h f k : NoDup l.*1 -> (fold_left ins l h !! f = Some k <-> (f, k) ∈ l \/ (f ∉ l.*1 /\ h !! f = Some k)).
  Proof.
    revert h. induction l as [|[f' k'] l IH]; intros h Hn; simpl.
    - split; [|by intros [?%elem_of_nil|[_ ?]]]. intros ?. right. split; [apply not_elem_of_nil|done].
    - apply NoDup_cons in Hn as [Hf Hn]. rewrite IH by done. unfold ins at 1. simpl. rewrite elem_of_cons, not_elem_of_cons. split.
      + intros [?|[H1 H2]]; [by left; right|]. apply lookup_insert_Some in H2 as [[-> ->]|[Hne ?]]; [by left; left|].
        right. split; [split; [congruence|done]|done].
      + intros [[Heq|?]|[[H1 H2] H3]]; [|by left|]. 
        * simplify_eq. right. split; [done|]. by rewrite lookup_insert.
        * right. split; [done|]. by rewrite lookup_insert_ne.
  Qed.
  Lemma fold_all outs : fold_left ins (lacking (ord outs)) (fold_left ins (found (ord outs)) ∅) = outs.
  Proof.
    assert (NoDup (ord outs).*1) as Hnd by (rewrite ord_ok; apply NoDup_fst_map_to_list).
    assert (forall l : list (file_uuid * store_key), (forall f, f ∈ (lacking l).*1 -> f ∈ l.*1) /\ (forall f, f ∈ (found l).*1 -> f ∈ l.*1)) as Hsub.
    { intros l. split; intros f Hf; apply elem_of_list_fmap in Hf as ([f' k] & -> & Hin); apply elem_of_list_omap in Hin as ([f2 k2] & Hin & He); simpl in He;
        destruct (s k2); simplify_eq; apply elem_of_list_fmap; exists (f', k); done. }
    assert (forall l : list (file_uuid * store_key), NoDup l.*1 -> NoDup (lacking l).*1 /\ NoDup (found l).*1) as Hn.
    { intros l. induction l as [|[f k] l IH]; intros Hl; [by split; constructor|]. apply NoDup_cons in Hl as [Hf Hl]. destruct (IH Hl) as [I1 I2].
      unfold lacking, found. cbn. destruct (s k); (split; [|]; try done).
      - simpl. apply NoDup_cons. split; [|done]. intros Hin. apply Hf. by apply (proj2 (Hsub l)).
      - simpl. apply NoDup_cons. split; [|done]. intros Hin. apply Hf. by apply (proj1 (Hsub l)). }
    destruct (Hn _ Hnd) as [Hn1 Hn2]. apply map_eq. intros f. apply option_eq. intros k.
    rewrite !fold_ins_lookup by done. rewrite lookup_empty. split.
    - intros [Hin|[_ [Hin|[_ ?]]]]; [| |done]; apply elem_of_list_omap in Hin as ([f2 k2] & Hin & He); simpl in He;
        rewrite ord_ok in Hin; apply elem_of_map_to_list in Hin; destruct (s k2); by simplify_eq.
    - intros Hk. assert ((f, k) ∈ ord outs) as Hin by (rewrite ord_ok; by apply elem_of_map_to_list). destruct (s k) eqn:Es.
      + right. split.
        * intros Hf. apply elem_of_list_fmap in Hf as ([f' k'] & -> & Hl). simpl in *. apply elem_of_list_omap in Hl as ([f2 k2] & Hl & He). simpl in He.
          rewrite ord_ok in Hl. apply elem_of_map_to_list in Hl. destruct (s k2) eqn:E2; simplify_eq. congruence.
        * left. apply elem_of_list_omap. exists (f, k). split; [done|]. simpl. by rewrite Es.
      + left. apply elem_of_list_omap. exists (f, k). split; [done|]. simpl. by rewrite Es.
  Qed.
  Lemma provide_lacking outs : provide outs (lacking (ord outs)).*1 ≫= worker_items chunks = lacking (ord outs) ≫= upload.
  Proof.
    assert (forall fk, fk ∈ lacking (ord outs) -> outs !! fk.1 = Some fk.2) as H.
    { intros fk Hin. apply elem_of_list_omap in Hin as ([f2 k2] & Hin & He). simpl in He. destruct (s k2); simplify_eq.
      rewrite ord_ok in Hin. by apply elem_of_map_to_list in Hin. }
    induction (lacking (ord outs)) as [|[f k] l IH]; [done|]. simpl. unfold provide. cbn.
    pose proof (H (f, k) ltac:(by left)) as Hfk. simpl in Hfk. rewrite Hfk. cbn. do 2 f_equal. apply IH. intros fk Hin. apply H. by right.
  Qed.
  Lemma serve_done rs outs rest tr : exists d,
    serve_worker content ord w o (worker_items chunks (EvDone rs outs) ++ (provide outs (lacking (ord outs)).*1 ≫= worker_items chunks) ++ rest) WIdle tr =
    serve_worker content ord w o rest WIdle (tr ++ d ++ [XSched (WorkerResult w rs outs)]) /\
    omap sched_of d = [] /\ omap out_of d = [Msg (WAskFiles (lacking (ord outs)).*1)] /\
    omap (fun e => match e with XStored f k c => Some (f, k, c) | _ => None end) d = map (fun fk => (fk, chunks fk.2)) (lacking (ord outs)).
  Proof.
    rewrite provide_lacking. simpl app. cbn [serve_worker]. unfold xbind at 1, xemit. unfold xbind at 1. rewrite split_outputs_all. cbn [fst snd].
    unfold xbind at 1, xout. rewrite up_ok. rewrite (app_nil_l ((lacking (ord outs)).*1)).
    set (D := [XRecv (WIDone rs outs)] ++ map (fun fk : file_uuid * store_key => XHas fk.2 (s fk.2)) (ord outs) ++ [XOut (Msg (WAskFiles (lacking (ord outs)).*1))] : trace).
    replace (((tr ++ [XRecv (WIDone rs outs)]) ++ map (fun fk => XHas fk.2 (s fk.2)) (ord outs)) ++ [XOut (Msg (WAskFiles (lacking (ord outs)).*1))]) with (tr ++ D)
      by (subst D; by rewrite <- !app_assoc).
    assert (omap sched_of D = [] /\ omap out_of D = [Msg (WAskFiles (lacking (ord outs)).*1)] /\
      omap (fun e => match e with XStored f k c => Some (f, k, c) | _ => None end) D = []) as (D1 & D2 & D3).
    { assert (forall (A : Type) (p : xevent worker_in wmsg -> option A) (l : list (file_uuid * store_key)), (forall k b, p (XHas k b) = None) -> omap p (map (fun fk => XHas fk.2 (s fk.2)) l) = []) as Hn.
      { intros A p l Hp. induction l as [|fk l IHl]; [done|]. cbn. by rewrite Hp. }
      subst D. rewrite !omap_app. split_and!; rewrite Hn by done; done. }
    pose proof (fold_all outs) as Hall. destruct (lacking (ord outs)) as [|fk l] eqn:El.
    - simpl in Hall. simpl. exists D. unfold xbind, xtry, xsched. rewrite sched_ok. rewrite Hall, <- app_assoc. split; [done|]. by split_and!.
    - destruct (collect_all rs (fk :: l) ltac:(done) (fold_left ins (found (ord outs)) ∅) rest (tr ++ D)) as (d & Heq & H1 & H2 & H3).
      rewrite Hall in Heq. exists (D ++ d). split; [|rewrite !omap_app, D1, D2, D3, H1, H2, H3; by split_and!].
      rewrite fmap_length. etransitivity; [exact Heq|]. by rewrite <- !app_assoc.
  Qed.
End upload.

(** ** The binder *)
Section binder.
  Context (content : store_key -> list bytes) (clients : gset client_uuid).
  (** One client alone. *)
  Fixpoint binder_one (ms : list client_msg) (files : list (file_uuid * store_key * bool)) : list (packet server_msg) :=
    match ms with
    | [] => []
    | MEvaluationDone :: ms => Packet (SDone files) None :: binder_one ms []
    | m :: ms => match listed m, immediate content m with
                 | Some x, _ => binder_one ms (files ++ [x])
                 | None, Some p => p :: binder_one ms files
                 | None, None => binder_one ms files
                 end
    end.
  Lemma binder_known c l ready : c ∈ clients ->
    packets_for c (binder content clients l ready) = binder_one (msgs_for c l) (default [] (ready !! c)).
  Proof.
    intros Hc. revert ready. induction l as [|[c' m] l IH]; intros ready; [done|]. simpl.
    destruct (binder_step content clients c' m ready) as [out ready'] eqn:E. unfold packets_for in *. rewrite omap_app.
    unfold msgs_for in *. cbn. fold (msgs_for c l) in *. unfold binder_step in E. destruct (decide (c' = c)) as [->|Hne].
    - rewrite decide_True in E by done. destruct m as [e w|e r|e|f k su [|]| |]; simplify_eq; cbn; try rewrite decide_True by done; rewrite IH; cbn; try done.
      + by rewrite lookup_insert.
      + by rewrite lookup_delete.
    - assert (omap (fun x : client_uuid * packet server_msg => if decide (x.1 = c) then Some x.2 else None) out = [] /\ ready' !! c = ready !! c) as [-> Hr].
      { case_decide; [|by simplify_eq]. destruct m as [e w|e r|e|f k su [|]| |]; simplify_eq; cbn; try rewrite decide_False by done; try done.
        - split; [done|]. by rewrite lookup_insert_ne.
        - split; [done|]. by rewrite lookup_delete_ne. }
      simpl. by rewrite IH, Hr.
  Qed.
  Lemma binder_unknown c l ready : c ∉ clients -> packets_for c (binder content clients l ready) = [].
  Proof.
    intros Hc. revert ready. induction l as [|[c' m] l IH]; intros ready; [done|]. simpl.
    destruct (binder_step content clients c' m ready) as [out ready'] eqn:E. unfold packets_for in *. rewrite omap_app, IH, app_nil_r.
    unfold binder_step in E. case_decide; [|by simplify_eq]. assert (c' <> c) as Hne by (intros ->; done).
    destruct m as [e w|e r|e|f k su [|]| |]; simplify_eq; cbn; try rewrite decide_False by done; done.
  Qed.
  Lemma binder_one_immediate ms files :
    List.filter (fun p => negb (is_done_packet p)) (binder_one ms files) = omap (immediate content) ms.
  Proof.
    revert files. induction ms as [|m ms IH]; intros files; [done|]. destruct m as [e w|e r|e|f k su [|]| |]; cbn; try (by rewrite IH); by apply IH.
  Qed.
  Lemma binder_one_done ms ms' files : Forall (fun m => m <> MEvaluationDone) ms ->
    exists ps, binder_one (ms ++ MEvaluationDone :: ms') files = ps ++ Packet (SDone (files ++ omap listed ms)) None :: binder_one ms' [] /\
      Forall (fun p => is_done_packet p = false) ps.
  Proof.
    intros H. revert files. induction H as [|m ms Hm H IH]; intros files.
    - exists []. cbn. by rewrite app_nil_r.
    - destruct m as [e w|e r|e|f k su [|]| |]; cbn; try done;
        try (destruct (IH files) as (ps & -> & Hps); eexists (_ :: ps); split; [done|by constructor]).
      destruct (IH (files ++ [(f, k, su)])) as (ps & -> & Hps). exists ps. rewrite <- app_assoc. done.
  Qed.
  Lemma binder_packets l ready : (forall k, Forall (fun b => b <> []) (content k)) ->
    Forall (fun x => packet_ok server_announces x.2) (binder content clients l ready).
  Proof.
    intros Hc. revert ready. induction l as [|[c m] l IH]; intros ready; [constructor|]. simpl.
    destruct (binder_step content clients c m ready) as [out ready'] eqn:E. apply Forall_app. split; [|apply IH].
    unfold binder_step in E. case_decide; [|by simplify_eq].
    destruct m as [e w|e r|e|f k su [|]| |]; simplify_eq; repeat constructor; simpl; try done; try (by intros [? ?]); try eauto.
    intros chunks [= <-]. apply Hc.
  Qed.
End binder.

(** ** The worker manager *)
Section manager.
  Context (up : list mevent -> worker_uuid -> bool).
  Definition sends_ok (tr : list mevent) : Prop := forall a w m b, tr = a ++ MESend w m :: b -> send_ok a w m.
  Lemma sends_snoc tr e : sends_ok tr -> (forall w m, e = MESend w m -> send_ok tr w m) -> sends_ok (tr ++ [e]).
  Proof.
    intros H He a w m b Hs. apply snoc_split in Hs as [(-> & <- & ->)|(b' & -> & ->)]; [by apply He|]. by apply (H a w m b').
  Qed.
  Lemma manager_exit_ok ws tr : sends_ok tr -> sends_ok (manager_exit up ws tr).
  Proof.
    unfold manager_exit. generalize (elements ws). intros l. revert tr. induction l as [|w l IH]; intros tr H; [done|]. simpl. apply IH.
    destruct (up tr w); [|done]. apply sends_snoc; [done|]. by intros ? ? [= <- <-].
  Qed.
  Lemma manager_run_ok ms ws tr : sends_ok tr -> sends_ok (manager_run up ms ws tr).1.
  Proof.
    revert ws tr. induction ms as [|m ms IH]; intros ws tr H; simpl; [by apply manager_exit_ok|].
    assert (sends_ok (tr ++ [MERecv m])) as H' by by apply sends_snoc.
    assert (forall tr' r, manager_step up m ws (tr ++ [MERecv m]) = (tr', r) -> sends_ok tr') as Hstep.
    { intros tr' r E. unfold manager_step, manager_send in E. destruct m as [w|w|w j|w g|]; repeat case_decide; try destruct (up _ w); simplify_eq; try done.
      - by apply sends_snoc.
      - apply sends_snoc; [done|]. intros ? ? [= <- <-]. simpl. eauto.
      - apply sends_snoc; [done|]. intros ? ? [= <- <-]. simpl. eauto. }
    destruct m as [w|w|w j|w g|]; try (destruct (manager_step up _ ws _) as [tr' [ws'|]] eqn:E; simpl; [apply IH|]; by eapply Hstep).
    by apply manager_exit_ok.
  Qed.
End manager.

(** ** What is written to a worker *)
Section worker_out.
  Context (content : store_key -> list bytes) (ord : gmap file_uuid store_key -> list (file_uuid * store_key)) (w : worker_uuid) (o : oracles worker_in wmsg).
  Hypothesis content_ok : forall k, Forall (fun b => b <> []) (content k).
  Notation trace := (list (xevent worker_in wmsg)).
  Implicit Types tr : trace.
  Definition WK (tr : trace) : Prop := exists ps, Forall (packet_ok wmsg_announces) ps /\ omap out_of tr = ps ≫= packet_items.
  Definition WKE (tr : trace) : Prop := exists ps, Forall (packet_ok wmsg_announces) ps /\ omap out_of tr `prefix_of` ps ≫= packet_items.
  Lemma WK_E tr : WK tr -> WKE tr.
  Proof. intros (ps & ? & H). exists ps. by rewrite H. Qed.
  Lemma WK_other tr e : WK tr -> out_of e = None -> WK (tr ++ [e]).
  Proof. intros (ps & H & Ho) He. exists ps. split; [done|]. rewrite omap_app. cbn. rewrite He, app_nil_r. done. Qed.
  Lemma WK_msg tr m : WK tr -> wmsg_announces m = false -> WK (tr ++ [XOut (Msg m)]).
  Proof.
    intros (ps & H & Ho) Hm. exists (ps ++ [Packet m None]). split.
    - apply Forall_app. split; [done|]. apply Forall_singleton. split; simpl; [|done]. rewrite Hm. split; [done|]. by intros [? ?].
    - rewrite omap_app, bind_app, Ho. done.
  Qed.
  Lemma send_WK k tr :
    match (xbind (xout o (Msg (WProvideFile k))) (fun _ => xiter (xout o) (send_file (content k)))) tr with
    | (tr', inl _) => WK tr -> WK tr'
    | (tr', inr _) => WK tr -> WKE tr'
    end.
  Proof.
    set (p := Packet (WProvideFile k) (Some (content k))).
    assert (packet_ok wmsg_announces p) as Hp. { split; simpl; [split; eauto|]. intros chunks [= <-]. apply content_ok. }
    cut (tri (fun t => t = tr) (xbind (xout o (Msg (WProvideFile k))) (fun _ => xiter (xout o) (send_file (content k))))
      (fun _ tr' => WK tr -> WK tr') (fun tr' => WK tr -> WKE tr')). { intros H. specialize (H tr eq_refl). by destruct (xbind _ _ tr) as [? [?|?]]. }
    eapply tri_bind with (Q := fun _ tr' => omap out_of tr' = omap out_of tr ++ [Msg (WProvideFile k)]).
    - apply tri_out; intros t ->; [by rewrite omap_app|]. intros (ps & Hps & Ho). exists ps. by rewrite Ho.
    - intros [].
      eapply tri_post; [|].
      + eapply tri_pre; [|].
        * apply (tri_iter (xout o) (send_file (content k)) (fun done_ tr' => omap out_of tr' = omap out_of tr ++ Msg (WProvideFile k) :: done_)).
          intros a x b Hl. apply tri_out.
          -- intros t Ht. rewrite omap_app, Ht. cbn. by rewrite <- app_assoc.
          -- intros t Ht (ps & Hps & Ho). exists (ps ++ [p]). split; [apply Forall_app; split; [done|by apply Forall_singleton]|].
             rewrite Ht, Ho, bind_app. apply prefix_app. rewrite bind_cons. simpl. rewrite Hl, app_nil_r. apply prefix_cons, prefix_app_r. done.
        * intros t Ht. simpl. exact Ht.
      + intros [] t Ht (ps & Hps & Ho). exists (ps ++ [p]). split; [apply Forall_app; split; [done|by apply Forall_singleton]|].
        rewrite Ht, Ho, bind_app, bind_cons. simpl. by rewrite app_nil_r.
  Qed.
  Lemma split_WK l h m : tri WK (split_outputs o l h m) (fun _ => WK) WKE.
  Proof.
    revert h m. induction l as [|[f k] l IH]; intros h m; simpl; [by apply tri_ret|].
    eapply tri_bind with (Q := fun _ => WK); [apply tri_has; intros; by apply WK_other|]. intros [|]; apply IH.
  Qed.
  Lemma worker_end_WK : tri WK (worker_end w o) (fun _ => WK) WKE.
  Proof.
    eapply tri_bind with (Q := fun _ => WK); [apply tri_try_sched; intros; [by apply WK_other|done]|]. intros _. apply tri_emit. intros; by apply WK_other.
  Qed.
  Lemma try_WK m x : tri WK x (fun _ => WK) WKE ->
    tri WK (xbind (xtry (xsched o m)) (fun ok => if (ok : bool) then x else worker_end w o)) (fun _ => WK) WKE.
  Proof.
    intros H. eapply tri_bind with (Q := fun _ => WK); [apply tri_try_sched; intros; [by apply WK_other|done]|]. intros [|]; [done|apply worker_end_WK].
  Qed.
  Lemma serve_worker_WK items mode : tri WK (serve_worker content ord w o items mode) (fun _ => WK) WKE.
  Proof.
    assert (forall m', wmsg_announces m' = false -> tri WK (xout o (Msg m')) (fun _ => WK) WKE) as Hmsg.
    { intros m' Hm. apply tri_out; intros; [by apply WK_msg|by apply WK_E]. }
    assert (forall m', tri WK (xemit (XRecv m')) (fun _ => WK) WKE) as Hrecv by (intros m'; apply tri_emit; intros; by apply WK_other).
    revert mode. induction items as [|[m|b] items IH]; intros mode.
    - destruct mode as [|[rs h n [[[f k] chunks]|]]]; simpl; [apply worker_end_WK|apply tri_panic, WK_E|apply tri_fail, WK_E].
    - destruct mode as [|[rs h n [[[f k] chunks]|]]]; simpl; [|apply tri_panic, WK_E|].
      + eapply tri_bind; [apply Hrecv|]. intros []. destruct m as [|rs outs|f k|k].
        * apply try_WK, IH.
        * eapply tri_bind; [apply split_WK|]. intros [h [|f m]]; cbn [fst snd].
          -- eapply tri_bind; [by apply Hmsg|]. intros []. apply try_WK, IH.
          -- eapply tri_bind; [by apply Hmsg|]. intros []. apply IH.
        * apply tri_panic, WK_E.
        * eapply tri_bind with (Q := fun _ => WK); [apply tri_has; intros; by apply WK_other|]. intros [|]; [|apply tri_fail, WK_E].
          intros tr Htr. pose proof (send_WK k tr) as H. unfold xbind in *. destruct (xout o (Msg (WProvideFile k)) tr) as [t1 [[]|e]]; [|by apply H].
          destruct (xiter (xout o) (send_file (content k)) t1) as [t2 [[]|e]]; [|by apply H]. by apply IH, H.
      + eapply tri_bind; [apply Hrecv|]. intros []. destruct m; [apply tri_fail, WK_E..|apply IH|apply tri_fail, WK_E].
    - destruct mode as [|[rs h n [[[f k] chunks]|]]]; simpl; [apply worker_end_WK| |apply tri_fail, WK_E].
      case_bool_decide as Hb; [|apply IH]. eapply tri_bind with (Q := fun _ => WK); [apply tri_store; intros; [by apply WK_other|by apply WK_E]|].
      intros []. case_decide; [apply try_WK, IH|apply IH].
  Qed.
End worker_out.

(** ** The provided files of a DAG *)
Section provided.
  Context (content : store_key -> list bytes) (ord : list group_uuid -> list group_uuid) (c : client_uuid) (o : oracles client_in server_msg).
  Notation trace := (list (xevent client_in server_msg)).
  Implicit Types tr : trace.
  Lemma ask_provided_split l tr tr' ready : ask_provided o l tr = (tr', inl ready) -> exists d asked, tr' = tr ++ d /\
    merged ready asked l /\ omap out_of d = map (fun fk => Msg (SAskFile fk.1)) asked /\ omap sched_of d = [] /\
    (forall f k, (f, k) ∈ ready -> XHas k true ∈ d) /\ (forall f k, (f, k) ∈ asked -> XHas k false ∈ d).
  Proof.
    revert tr tr' ready. induction l as [|[f k] l IH]; intros tr tr' ready H; simpl in H.
    - unfold xret in H. simplify_eq. exists [], []. rewrite app_nil_r. split_and!; try done; [constructor|..]; intros f k Hin; by apply elem_of_nil in Hin.
    - unfold xbind, xhas in H. destruct (o_has o tr k) eqn:Eh.
      + destruct (ask_provided o l (tr ++ [XHas k true])) as [t2 [r|]] eqn:E; [|done]. unfold xret in H. simplify_eq.
        destruct (IH _ _ _ E) as (d & asked & -> & H1 & H2 & H3 & H4 & H5). exists (XHas k true :: d), asked. rewrite <- app_assoc.
        split_and!; try done; [by constructor|..].
        * intros f' k' [Heq|Hin]%elem_of_cons; [simplify_eq; by left|]. right. by eapply H4.
        * intros f' k' Hin. right. by eapply H5.
      + unfold xout in H. destruct (o_up o (tr ++ [XHas k false])); [|done].
        destruct (IH _ _ _ H) as (d & asked & -> & H1 & H2 & H3 & H4 & H5). exists (XHas k false :: XOut (Msg (SAskFile f)) :: d), ((f, k) :: asked). rewrite <- !app_assoc.
        split_and!; try done; [by constructor|..].
        * cbn. by rewrite H2.
        * intros f' k' Hin. right. right. by eapply H4.
        * intros f' k' [Heq|Hin]%elem_of_cons; [simplify_eq; by left|]. right. right. by eapply H5.
  Qed.
  Lemma ready_sent (ready : list (file_uuid * store_key)) tr tr' : xiter (fun fk => xsched o (FileReady c fk.1 fk.2)) ready tr = (tr', inl tt) ->
    tr' = tr ++ map (fun fk => XSched (FileReady c fk.1 fk.2)) ready.
  Proof.
    revert tr. induction ready as [|fk l IH]; intros tr H; simpl in H; [unfold xret in H; simplify_eq; by rewrite app_nil_r|].
    unfold xbind, xsched in H. destruct (o_sched o tr); [|done]. apply IH in H as ->. by rewrite <- app_assoc.
  Qed.
  Lemma evaluate_message d cb tr tr' n : check_dag ord d cb = Done tt ->
    client_message content ord c o (CIEvaluate d cb) true tr = (tr', inl n) ->
    n = Next true /\ exists ready asked d', tr' = tr ++ d' /\ merged ready asked (d_provided d) /\
      omap out_of d' = map (fun fk => Msg (SAskFile fk.1)) asked /\
      omap sched_of d' = EvaluateDAG c d cb :: map (fun fk => FileReady c fk.1 fk.2) ready /\
      (forall f k, (f, k) ∈ ready -> XHas k true ∈ d') /\ (forall f k, (f, k) ∈ asked -> XHas k false ∈ d').
  Proof.
    intros Hc H. cbn [client_message] in H. rewrite Hc in H. unfold xbind at 1 in H.
    destruct (ask_provided o (d_provided d) tr) as [t1 [ready|]] eqn:E; [|done].
    destruct (ask_provided_split _ _ _ _ E) as (d1 & asked & -> & H1 & H2 & H3 & H4 & H5).
    unfold xbind at 1, xsched at 1 in H. destruct (o_sched o (tr ++ d1)); [|done]. unfold xbind in H.
    destruct (xiter (fun fk => xsched o (FileReady c fk.1 fk.2)) ready ((tr ++ d1) ++ [XSched (EvaluateDAG c d cb)])) as [t2 [[]|]] eqn:E2; [|done].
    unfold xret in H. simplify_eq. apply ready_sent in E2 as ->. split; [done|].
    exists ready, asked, (d1 ++ [XSched (EvaluateDAG c d cb)] ++ map (fun fk => XSched (FileReady c fk.1 fk.2)) ready). rewrite <- !app_assoc.
    assert (omap out_of (map (fun fk : file_uuid * store_key => XSched (FileReady c fk.1 fk.2)) ready : trace) = [] /\
      omap sched_of (map (fun fk : file_uuid * store_key => XSched (FileReady c fk.1 fk.2)) ready : trace) = map (fun fk => FileReady c fk.1 fk.2) ready) as [G1 G2].
    { clear. induction ready as [|fk l [IH1 IH2]]; [done|]. cbn. rewrite IH1, IH2. done. }
    split_and!; try done.
    - rewrite !omap_app, G1, H2. cbn. by rewrite app_nil_r.
    - rewrite !omap_app, G2, H3. done.
    - intros f k Hin. apply elem_of_app. left. by eapply H4.
    - intros f k Hin. apply elem_of_app. left. by eapply H5.
  Qed.
End provided.
