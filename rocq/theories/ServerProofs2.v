(** * ServerProofs2: the thread that serves a worker, the binder, the worker manager *)
From Verif Require Import ServerSpec ServerProofs CheckDagModel SchedModel ClientModel WorkerModel.

Section worker.
  Context (content : store_key -> list bytes) (ord : gmap file_uuid store_key -> list (file_uuid * store_key)) (w : worker_uuid) (o : oracles worker_in wmsg).
  Hypothesis ord_ok : forall m, ord m ≡ₚ map_to_list m.
  Notation trace := (list (xevent worker_in wmsg)).
  Implicit Types tr : trace.

  Definition wcount (p : xevent worker_in wmsg -> bool) (tr : trace) : nat := length (List.filter p tr).
  Definition is_result_ev (e : xevent worker_in wmsg) : bool := match e with XSched m => is_result m | _ => false end.
  Lemma wcount_app p a b : wcount p (a ++ b) = wcount p a + wcount p b.
  Proof. unfold wcount. by rewrite List.filter_app, app_length. Qed.

  Lemma wcount_one p e : wcount p [e] = if p e then 1 else 0.
  Proof. unfold wcount. simpl. by destruct (p e). Qed.

  Definition wtold_ok (a : trace) (m : sched_msg) (b : trace) : Prop :=
    match m with
    | WorkerConnected w' => w' = w /\ exists a', a = a' ++ [XRecv WIGetWork]
    | WorkerResult w' rs outs' => w' = w /\ exists a1 a2 outs missing, a = a1 ++ XRecv (WIDone rs outs) :: a2 /\ collected outs missing outs' 0 a2
    | WorkerDisconnected w' => w' = w /\ (b = [] \/ b = [XGone w])
    | _ => False
    end.
  Definition wtold tr : Prop := forall a m b, tr = a ++ XSched m :: b -> wtold_ok a m b.
  Definition WI tr : Prop := wtold tr /\ (forall w', XGone w' ∉ tr) /\ (forall w', XSched (WorkerDisconnected w') ∉ tr) /\ XExit ∉ tr.
  Definition WM (mode : wmode) tr : Prop :=
    WI tr /\
    match mode with
    | WIdle => wcount is_widone tr = wcount is_result_ev tr
    | WCollect (Collect rs handlers n _) =>
      wcount is_widone tr = S (wcount is_result_ev tr) /\ 1 <= n /\
      exists a1 a2 outs missing, tr = a1 ++ XRecv (WIDone rs outs) :: a2 /\ collected outs missing handlers n a2
    end.
  Definition WEnd tr : Prop :=
    (exists t, tr = t ++ [XSched (WorkerDisconnected w); XGone w] /\ WI t /\ wcount is_widone t <= S (wcount is_result_ev t)) \/
    (exists t, tr = t ++ [XGone w] /\ o_sched o t = false /\ WI t /\ wcount is_widone t <= S (wcount is_result_ev t)).

  Lemma WI_other tr e : WI tr -> sched_of e = None -> (forall w', e <> XGone w') -> e <> XExit -> WI (tr ++ [e]).
  Proof.
    intros (H1 & H2 & H3 & H4) He Hg Hx. split_and!.
    - intros a m b Hs. apply snoc_split in Hs as [(-> & <- & ->)|(b' & -> & ->)]; [done|]. specialize (H1 a m b' eq_refl).
      destruct m; try done. exfalso. apply (H3 w0). set_solver.
    - intros w' [?|Hin%elem_of_list_singleton]%elem_of_app; [by eapply H2|by eapply Hg].
    - intros w' [?|Hin%elem_of_list_singleton]%elem_of_app; [by eapply H3|by subst].
    - intros [?|Hin%elem_of_list_singleton]%elem_of_app; [done|by subst].
  Qed.
  Lemma WI_sched tr m : WI tr -> wtold_ok tr m [] -> (forall w', m <> WorkerDisconnected w') -> WI (tr ++ [XSched m]).
  Proof.
    intros (H1 & H2 & H3 & H4) Hm Hn. split_and!.
    - intros a m' b Hs. apply snoc_split in Hs as [(-> & [= ->] & ->)|(b' & -> & ->)]; [done|]. specialize (H1 a m' b' eq_refl).
      destruct m'; try done. exfalso. apply (H3 w0). set_solver.
    - intros w' [?|Hin%elem_of_list_singleton]%elem_of_app; [by eapply H2|done].
    - intros w' [?|Hin%elem_of_list_singleton]%elem_of_app; [by eapply H3|]. simplify_eq. by eapply Hn.
    - intros [?|Hin%elem_of_list_singleton]%elem_of_app; done.
  Qed.
  Definition WN (tr : trace) : Prop := WI tr /\ wcount is_widone tr <= S (wcount is_result_ev tr).
  (** On an error nobody is told. *)
  Definition WE tr : Prop := WI tr.
  Lemma WN_WE tr : WN tr -> WE tr.
  Proof. by intros [? _]. Qed.
  Lemma WM_WN mode tr : WM mode tr -> WN tr.
  Proof. intros [H Hm]. split; [done|]. destruct mode as [|[rs h n rx]]; [lia|]. destruct Hm as (-> & _). done. Qed.

  Lemma WM_WE mode tr : WM mode tr -> WE tr.
  Proof. by intros [? _]. Qed.

  Lemma worker_end_ok : tri WN (worker_end w o) (fun _ => WEnd) WE.
  Proof.
    intros tr H. unfold worker_end, xbind, xtry, xsched, xemit. destruct (o_sched o tr) eqn:E.
    - left. exists tr. rewrite <- app_assoc. destruct H. done.
    - right. exists tr. destruct H. done.
  Qed.

  Lemma split_outputs_spec l handlers missing :
    tri (fun _ => True) (split_outputs o l handlers missing) (fun _ _ => True) (fun _ => False) /\
    forall tr tr' h m, split_outputs o l handlers missing tr = (tr', inl (h, m)) -> NoDup l.*1 ->
      exists d, tr' = tr ++ d /\ Forall (fun e => exists k b, e = XHas k b) d /\
        exists m', m = missing ++ m' /\ NoDup m' /\ (forall f, f ∈ m' -> f ∈ l.*1) /\
        (forall f, f ∈ l.*1 -> f ∈ m' \/ is_Some (h !! f)) /\
        (forall f, is_Some (handlers !! f) -> is_Some (h !! f)) /\
        (forall f k, h !! f = Some k -> handlers !! f = Some k \/ ((f, k) ∈ l /\ XHas k true ∈ d)).
  Proof.
    split.
    - revert handlers missing. induction l as [|[f k] l IH]; intros handlers missing; simpl; [by apply tri_ret|].
      eapply tri_bind with (Q := fun _ _ => True); [by apply tri_has|]. intros [|]; apply IH.
    - revert handlers missing. induction l as [|[f k] l IH]; intros handlers missing tr tr' h m H Hnd; simpl in H.
      + unfold xret in H. simplify_eq. exists []. rewrite app_nil_r. split; [done|]. split; [done|]. exists [].
        rewrite app_nil_r. split_and!; [done|constructor|done| |done|by left].
        intros f Hf. by apply elem_of_nil in Hf.
      + unfold xbind, xhas in H. apply NoDup_cons in Hnd as [Hf Hnd]. destruct (o_has o tr k) eqn:Eh.
        * destruct (IH _ _ _ _ _ _ H Hnd) as (d & -> & Hd & m' & -> & Hm & H1 & H2 & H3 & H4). exists (XHas k true :: d). rewrite <- app_assoc.
          split; [done|]. split; [constructor; [eauto|done]|]. exists m'. split_and!; [done|done|set_solver| | |].
          -- intros f' [->|Hf']%elem_of_cons; [right; apply H3; rewrite lookup_insert; eauto|by apply H2].
          -- intros f' Hf'. apply H3. destruct (decide (f = f')) as [->|]; [rewrite lookup_insert; eauto|by rewrite lookup_insert_ne].
          -- intros f' k' Hk. destruct (H4 f' k' Hk) as [Hi|[? ?]]; [|right; split; set_solver].
             apply lookup_insert_Some in Hi as [[<- <-]|[_ ?]]; [right; split; set_solver|by left].
        * destruct (IH _ _ _ _ _ _ H Hnd) as (d & -> & Hd & m' & -> & Hm & H1 & H2 & H3 & H4). exists (XHas k false :: d). rewrite <- app_assoc.
          split; [done|]. split; [constructor; [eauto|done]|]. exists (f :: m'). rewrite <- app_assoc. split_and!; [done| | | |done|].
          -- apply NoDup_cons. split; [|done]. intros Hin. by apply H1 in Hin.
          -- set_solver.
          -- intros f' [->|Hf']%elem_of_cons; [left; by left|]. destruct (H2 f' Hf'); [left; by right|by right].
          -- intros f' k' Hk. destruct (H4 f' k' Hk) as [Hi|[? ?]]; [by left|]. right; split; set_solver.
  Qed.
  Lemma collected_snoc outs missing handlers n b e : collected outs missing handlers n b -> is_widone e = false -> sched_of e = None -> stored_of e = None ->
    collected outs missing handlers n (b ++ [e]).
  Proof.
    intros [] H1 H2 H3. split; try done.
    - apply Forall_app. split; [done|]. by apply Forall_singleton.
    - set_solver.
    - rewrite omap_app. cbn. by rewrite H3, app_nil_r.
    - rewrite omap_app. cbn. by rewrite H3, app_nil_r.
    - intros f k Hk. destruct (cl_origin f k Hk) as [[? ?]|[ch ?]]; [left; set_solver|right; exists ch; set_solver].
  Qed.
  Lemma collected_store outs missing handlers n b f k chunks : collected outs missing handlers (S n) b ->
    collected outs missing (<[f := k]> handlers) n (b ++ [XStored f k chunks]).
  Proof.
    intros []. split; try done.
    - apply Forall_app. split; [done|]. by apply Forall_singleton.
    - set_solver.
    - rewrite omap_app. cbn. rewrite app_length. simpl. lia.
    - intros f' Hf. destruct (cl_all f' Hf) as [?|?]; [by left|right]. destruct (decide (f = f')) as [->|]; [rewrite lookup_insert; eauto|by rewrite lookup_insert_ne].
    - intros f' Hf. rewrite omap_app in Hf. cbn in Hf. destruct (decide (f = f')) as [->|]; [rewrite lookup_insert; eauto|].
      rewrite lookup_insert_ne by done. apply cl_stored. set_solver.
    - intros f' k' Hk. apply lookup_insert_Some in Hk as [[<- <-]|[_ Hk]]; [right; exists chunks; set_solver|].
      destruct (cl_origin f' k' Hk) as [[? ?]|[ch ?]]; [left; set_solver|right; exists ch; set_solver].
  Qed.
  Lemma WM_collect_other rs h n rx rx' tr e : WM (WCollect (Collect rs h n rx)) tr -> is_widone e = false -> sched_of e = None -> stored_of e = None ->
    (forall w', e <> XGone w') -> e <> XExit -> WM (WCollect (Collect rs h n rx')) (tr ++ [e]).
  Proof.
    intros (HI & Hc & Hn & a1 & a2 & outs & missing & -> & Hcol) H1 H2 H3 H4 H5. split; [by apply WI_other|]. split; [|split; [done|]].
    - rewrite (wcount_app is_widone _ [e]), (wcount_app is_result_ev _ [e]), Hc, !wcount_one, H1.
      replace (is_result_ev e) with false by (by destruct e). lia.
    - exists a1, (a2 ++ [e]), outs, missing. rewrite <- app_assoc. split; [done|]. by apply collected_snoc.
  Qed.
  (** The result is sent. *)
  Lemma result_ok rs h (P : trace -> Prop) k : (forall tr, P tr -> WI tr /\ wcount is_widone tr = S (wcount is_result_ev tr) /\
      exists a1 a2 outs missing, tr = a1 ++ XRecv (WIDone rs outs) :: a2 /\ collected outs missing h 0 a2) ->
    tri (WM WIdle) k (fun _ => WEnd) WE ->
    tri P (xbind (xtry (xsched o (WorkerResult w rs h))) (fun ok => if (ok : bool) then k else worker_end w o)) (fun _ => WEnd) WE.
  Proof.
    intros HP Hk. eapply tri_bind with (Q := fun (ok : bool) tr => if ok then WM WIdle tr else WN tr).
    - apply tri_try_sched; intros tr Ht; destruct (HP tr Ht) as (HI & Hc & Hx).
      + split; [apply WI_sched; [done| |done]; simpl; split; [done|]; exact Hx|]. rewrite !wcount_app, !wcount_one. simpl. lia.
      + split; [done|lia].
    - intros [|]; [exact Hk|apply worker_end_ok].
  Qed.
  Lemma serve_worker_ok items mode : tri (WM mode) (serve_worker content ord w o items mode) (fun _ => WEnd) WE.
  Proof.
    revert mode. induction items as [|[m|b] items IH]; intros mode.
    - destruct mode as [|[rs h n [[[f k] chunks]|]]]; simpl.
      + eapply tri_pre; [apply worker_end_ok|]. apply WM_WN.
      + apply tri_panic. apply WM_WE.
      + apply tri_fail. apply WM_WE.
    - destruct mode as [|[rs h n [[[f k] chunks]|]]]; simpl; [|apply tri_panic; apply WM_WE|].
      + assert (forall tr, is_widone (XRecv m : xevent worker_in wmsg) = false -> WM WIdle tr -> WM WIdle (tr ++ [XRecv m])) as Hidle.
        { intros tr Hm [HI Hc]. split; [by apply WI_other|]. rewrite !wcount_app, Hc, !wcount_one, Hm. done. }
        assert (forall tr e, is_widone e = false -> sched_of e = None -> (forall w', e <> XGone w') -> e <> XExit -> WM WIdle tr -> WM WIdle (tr ++ [e])) as Hother.
        { intros tr e H1 H2 H3 H4 [HI Hc]. split; [by apply WI_other|]. rewrite !wcount_app, Hc, !wcount_one, H1.
          by replace (is_result_ev e) with false by (by destruct e). }
        destruct m as [|rs outs|f k|k].
        * eapply tri_bind with (Q := fun _ tr => WM WIdle tr /\ exists a', tr = a' ++ [XRecv WIGetWork]).
          { apply tri_emit. intros tr H. split; [by apply Hidle|eauto]. }
          intros []. eapply tri_bind with (Q := fun (ok : bool) tr => if ok then WM WIdle tr else WN tr).
          -- apply tri_try_sched; intros tr [[HI Hc] Hl].
             ++ split; [by apply WI_sched|]. rewrite !wcount_app, Hc. done.
             ++ split; [done|lia].
          -- intros [|]; [apply IH|apply worker_end_ok].
        * eapply tri_bind with (Q := fun _ tr => exists t, tr = t ++ [XRecv (WIDone rs outs)] /\ WM WIdle t); [apply tri_emit; eauto|]. intros [].
          intros tr (t & -> & HI & Hc). destruct (split_outputs_spec (ord outs) ∅ []) as [Hs1 Hs2].
          specialize (Hs1 (t ++ [XRecv (WIDone rs outs)]) I). unfold xbind at 1.
          destruct (split_outputs o (ord outs) ∅ [] (t ++ [XRecv (WIDone rs outs)])) as [tr' [[h m]|e]] eqn:E; [|done].
          assert (NoDup (ord outs).*1) as Hnd. { rewrite ord_ok. apply NoDup_fst_map_to_list. }
          destruct (Hs2 _ _ _ _ E Hnd) as (d & -> & Hd & m' & -> & Hm & H1 & H2 & H3 & H4). simpl in *. clear E Hs1 Hs2.
          assert (forall f, f ∈ (ord outs).*1 <-> is_Some (outs !! f)) as Hdom.
          { intros f. rewrite ord_ok, elem_of_list_fmap. split.
            - intros ([f' k] & -> & Hin). apply elem_of_map_to_list in Hin. eauto.
            - intros [k Hk]. exists (f, k). split; [done|]. by apply elem_of_map_to_list. }
          set (t2 := (t ++ [XRecv (WIDone rs outs)]) ++ d).
          assert (WI t2 /\ wcount is_widone t2 = S (wcount is_result_ev t2)) as [HI2 Hc2].
          { subst t2. rewrite !wcount_app. split.
            - assert (WI (t ++ [XRecv (WIDone rs outs)])) as HI1 by by apply WI_other. revert HI1.
              generalize (t ++ [XRecv (WIDone rs outs)]). clear -Hd content ord w o ord_ok. induction Hd as [|e d (k & b & ->) Hd IH]; intros t' Ht; [by rewrite app_nil_r|].
              change (XHas k b :: d) with ([XHas k b] ++ d). rewrite app_assoc. apply IH. by apply WI_other.
            - assert (wcount is_widone d = 0 /\ wcount is_result_ev d = 0) as [-> ->].
              { clear -Hd. unfold wcount. induction Hd as [|e d (k & b & ->) Hd IH]; done. }
              rewrite Hc, !wcount_one. simpl. lia. }
          assert (collected outs m' h (length m') (d ++ [XOut (Msg (WAskFiles m'))])) as Hcol.
          { assert (omap stored_of (d ++ [XOut (Msg (WAskFiles m'))] : trace) = []) as Hst.
            { rewrite omap_app, app_nil_r. clear -Hd. induction Hd as [|e d (k & b & ->) Hd IH]; [done|]. cbn. exact IH. }
            split.
            - apply Forall_app. split; [|by apply Forall_singleton]. eapply Forall_impl; [exact Hd|]. by intros e (k & b & ->).
            - set_solver.
            - by rewrite Hst.
            - done.
            - intros f Hf. by apply Hdom, H1.
            - intros f Hf. by apply H2, Hdom.
            - intros f Hf. rewrite Hst in Hf. by apply elem_of_nil in Hf.
            - intros f k Hk. destruct (H4 f k Hk) as [?|[Hin ?]]; [done|]. left. rewrite ord_ok in Hin. apply elem_of_map_to_list in Hin. set_solver. }
          match goal with |- match xbind ?x ?f t2 with _ => _ end => set (X := xbind x f) end.
          enough (tri (fun t' => t' = t2) X (fun _ => WEnd) WE) as G by by apply (G t2 eq_refl). subst X.
          eapply tri_bind with (Q := fun _ t' => t' = t2 ++ [XOut (Msg (WAskFiles m'))]).
          { apply tri_out; intros ? ->; [done|]. done. }
          intros []. assert (WI (t2 ++ [XOut (Msg (WAskFiles m'))]) /\ wcount is_widone (t2 ++ [XOut (Msg (WAskFiles m'))]) = S (wcount is_result_ev (t2 ++ [XOut (Msg (WAskFiles m'))]))) as [HI3 Hc3].
          { split; [by apply WI_other|]. rewrite !wcount_app, Hc2. done. }
          assert (t2 ++ [XOut (Msg (WAskFiles m'))] = t ++ XRecv (WIDone rs outs) :: (d ++ [XOut (Msg (WAskFiles m'))])) as Heq.
          { subst t2. by rewrite <- !app_assoc. }
          destruct m' as [|f0 m'].
          -- apply result_ok; [|apply IH]. intros ? ->. split; [done|]. split; [done|]. exists t, (d ++ [XOut (Msg (WAskFiles []))]), outs, []. done.
          -- eapply tri_pre; [apply IH|]. intros ? ->. split; [done|]. split; [done|]. split; [simpl; lia|].
             exists t, (d ++ [XOut (Msg (WAskFiles (f0 :: m')))]), outs, (f0 :: m'). done.
        * eapply tri_bind with (Q := fun _ => WM WIdle); [apply tri_emit; intros; by apply Hidle|]. intros []. apply tri_panic, WM_WE.
        * eapply tri_bind with (Q := fun _ => WM WIdle); [apply tri_emit; intros; by apply Hidle|]. intros [].
          eapply tri_bind with (Q := fun _ => WM WIdle); [apply tri_has; intros; by apply Hother|]. intros [|]; [|apply tri_fail, WM_WE].
          eapply tri_bind with (Q := fun _ => WM WIdle); [apply tri_out; intros; [by apply Hother|by eapply WM_WE]|]. intros [].
          eapply tri_bind with (Q := fun _ => WM WIdle); [|intros []; apply IH].
          apply (tri_iter _ _ (fun _ => WM WIdle)). intros a x b _. apply tri_out; intros; [by apply Hother|by eapply WM_WE].
      + destruct m as [|rs' outs'|f k|k].
        * eapply tri_bind with (Q := fun _ => WE); [|intros []; by apply tri_fail]. apply tri_emit. intros tr [H _]. by apply WI_other.
        * eapply tri_bind with (Q := fun _ => WE); [|intros []; by apply tri_fail]. apply tri_emit. intros tr [H _]. by apply WI_other.
        * eapply tri_bind with (Q := fun _ => WM (WCollect (Collect rs h n (Some (f, k, []))))); [|intros []; apply IH].
          apply tri_emit. intros tr H. by eapply WM_collect_other.
        * eapply tri_bind with (Q := fun _ => WE); [|intros []; by apply tri_fail]. apply tri_emit. intros tr [H _]. by apply WI_other.
    - destruct mode as [|[rs h n [[[f k] chunks]|]]]; simpl.
      + eapply tri_pre; [apply worker_end_ok|]. apply WM_WN.
      + case_bool_decide as Hb; [|by eapply tri_pre; [apply IH|]].
        eapply tri_bind with (Q := fun _ tr => WI tr /\ wcount is_widone tr = S (wcount is_result_ev tr) /\ 1 <= n /\
          exists a1 a2 outs missing, tr = a1 ++ XRecv (WIDone rs outs) :: a2 /\ collected outs missing (<[f := k]> h) (n - 1) a2).
        * apply tri_store; [|by apply WM_WE]. intros tr (HI & Hc & Hn & a1 & a2 & outs & missing & -> & Hcol). split; [by apply WI_other|]. split; [|split; [done|]].
          -- rewrite (wcount_app is_widone _ [_]), (wcount_app is_result_ev _ [_]), Hc, !wcount_one. simpl. lia.
          -- exists a1, (a2 ++ [XStored f k chunks]), outs, missing. rewrite <- app_assoc. split; [done|]. apply collected_store.
             by replace (S (n - 1)) with n by lia.
        * intros []. case_decide as Hn.
          -- subst n. apply result_ok; [|apply IH]. intros tr (HI & Hc & _ & Hx). done.
          -- eapply tri_pre; [apply IH|]. intros tr (HI & Hc & Hn' & Hx). split; [done|]. split; [done|]. split; [lia|]. done.
      + apply tri_fail, WM_WE.
  Qed.
End worker.
