(** * ClientProofs2: the invariant of the loop of the client *)
From Verif Require Import ClientSpec ClientProofs.

Notation keys tr := (omap once_key tr).
Definition keyless (l : list cevent) : Prop := Forall (fun e => once_key e = None) l.
Lemma keyless_keys l : keyless l -> keys l = [].
Proof. induction 1 as [|e l He _ IH]; [reflexivity|]. cbn. by rewrite He. Qed.
Lemma keyless_app tr l : keyless l -> keys (tr ++ l) = keys tr.
Proof. intros H. rewrite omap_app, (keyless_keys l H). by rewrite app_nil_r. Qed.
Lemma keyless_prefix d l : keyless l -> d `prefix_of` l -> keyless d.
Proof. intros H [q ->]. by apply Forall_app in H as [? _]. Qed.
Lemma elem_keys x (tr : list cevent) : x ∈ keys tr <-> exists e, e ∈ tr /\ once_key e = Some x.
Proof. apply elem_of_list_omap. Qed.

Definition inert (it : chan server_msg) : Prop := match it with Msg m => notifies m = None | Raw _ => True end.

(** [c0]: the callbacks at the start; [c]: the current ones; [used]: the items consumed so far. *)
Definition once (tr : list cevent) : Prop := NoDup (keys tr).
Definition spent (c : callbacks) (tr : list cevent) : Prop := forall k u i, (k, u, i) ∈ keys tr -> registered c k u = 0.
Definition faithful (c0 : callbacks) (used : list (chan server_msg)) (tr : list cevent) : Prop :=
  forall e k u i, e ∈ tr -> once_key e = Some (k, u, i) -> k <> KContent ->
    i < registered c0 k u /\ exists m ev, Msg m ∈ used /\ notifies m = Some (k, u, ev) /\ e = ev i.
Definition fresh (c0 c : callbacks) (used : list (chan server_msg)) : Prop :=
  forall k e, k <> KContent -> registered c k e = 0 \/ registered c k e = registered c0 k e /\ ~ Exists (notifies_about k e) used.
Definition fresh' (c0 c : callbacks) (used : list (chan server_msg)) : Prop :=
  forall k e, k <> KContent -> ~ Exists (notifies_about k e) used -> registered c k e = registered c0 k e.
Definition called (c0 : callbacks) (used : list (chan server_msg)) (tr : list cevent) : Prop :=
  forall k e ev a m b, used = a ++ Msg m :: b -> notifies m = Some (k, e, ev) -> ~ Exists (notifies_about k e) a ->
    forall i, i < registered c0 k e -> ev i ∈ tr.
Definition inv (c0 c : callbacks) (used : list (chan server_msg)) (tr : list cevent) : Prop :=
  once tr /\ spent c tr /\ faithful c0 used tr /\ fresh c0 c used /\ fresh' c0 c used /\ called c0 used tr.
Definition einv (c0 : callbacks) (used : list (chan server_msg)) (tr : list cevent) : Prop := once tr /\ faithful c0 used tr.

Lemma faithful_mono c0 used used' tr : faithful c0 used tr -> faithful c0 (used ++ used') tr.
Proof. intros H e k u i He Hk Hc. destruct (H e k u i He Hk Hc) as (Hi & m & ev & Hm & ?). split; [done|]. exists m, ev. set_solver. Qed.
Lemma faithful_keyless c0 used tr l : faithful c0 used tr -> keyless l -> faithful c0 used (tr ++ l).
Proof.
  intros H Hl e k u i [He|He]%elem_of_app Hk Hc; [by eapply H|].
  eapply Forall_forall in Hl; [|exact He]. by rewrite Hk in Hl.
Qed.
Lemma called_mono c0 used tr l : called c0 used tr -> called c0 used (tr ++ l).
Proof. intros H k e ev a m b Hu Hn Ha i Hi. apply elem_of_app. left. by eapply H. Qed.
Lemma inv_keyless c0 c used tr l : inv c0 c used tr -> keyless l -> inv c0 c used (tr ++ l).
Proof.
  intros (H1 & H2 & H3 & H4 & H5 & H6) Hl. unfold inv, once, spent. rewrite keyless_app by done.
  split_and!; try done; [by apply faithful_keyless|by apply called_mono].
Qed.
Lemma inv_einv c0 c used tr : inv c0 c used tr -> einv c0 used tr.
Proof. intros (H1 & _ & H3 & _). done. Qed.
Lemma einv_mono c0 used used' tr : einv c0 used tr -> einv c0 (used ++ used') tr.
Proof. intros [H1 H2]. split; [done|]. by apply faithful_mono. Qed.
Lemma inert_not_about k e l : Forall inert l -> ~ Exists (notifies_about k e) l.
Proof.
  intros Hl He. apply Exists_exists in He as (it & Hit & m & ev & -> & Hn).
  eapply Forall_forall in Hl; [|exact Hit]. simpl in Hl. by rewrite Hn in Hl.
Qed.
Lemma inv_inert c0 c used l tr : inv c0 c used tr -> Forall inert l -> inv c0 c (used ++ l) tr.
Proof.
  intros (H1 & H2 & H3 & H4 & H5 & H6) Hl. split_and!; try done.
  - by apply faithful_mono.
  - intros k e Hk. destruct (H4 k e Hk) as [?|[? Hn]]; [by left|]. right. split; [done|].
    rewrite Exists_app. intros [?|?]; [done|]. by eapply inert_not_about.
  - intros k e Hk Hn. apply H5; [done|]. rewrite Exists_app in Hn. tauto.
  - intros k e ev a m b Hu Hn Ha i Hi. 
    assert (exists b', used = a ++ Msg m :: b') as [b' ->].
    { apply app_eq_inv in Hu as [(x & -> & Hx)|(x & -> & Hx)].
      - destruct x as [|y x].
        + simpl in Hx. exfalso. assert (Msg m ∈ l) as Hin; [rewrite <- Hx; set_solver|].
          eapply Forall_forall in Hl; [|exact Hin]. simpl in Hl. by rewrite Hn in Hl.
        + simpl in Hx. simplify_eq. by exists x.
      - exfalso. assert (Msg m ∈ l) as Hin; [rewrite Hx; set_solver|].
        eapply Forall_forall in Hl; [|exact Hin]. simpl in Hl. by rewrite Hn in Hl. }
    by eapply H6.
Qed.

Section proofs.
  Context (ok : list cevent -> cevent -> bool).
  Context (same_path : path -> path -> bool).
  Context (dest_exists : list cevent -> path -> bool).
  Context (local : store_key -> option (list bytes)).
  Local Notation emit := (emit ok). Local Notation emits := (emits ok).
  Local Notation process_provided_file := (process_provided_file ok same_path dest_exists).
  Context (c0 : callbacks).

  Lemma t_emits c used l : keyless l ->
    triple (inv c0 c used) (emits l) (fun _ => inv c0 c used) (einv c0 used).
  Proof.
    intros Hl. apply triple_emits.
    - intros tr H. by apply inv_keyless.
    - intros tr d H Hd. eapply inv_einv. eapply inv_keyless; [done|]. by eapply keyless_prefix.
  Qed.
  Lemma t_emit c used e : once_key e = None ->
    triple (inv c0 c used) (emit e) (fun _ => inv c0 c used) (einv c0 used).
  Proof. intros He tr. rewrite emit_emits. apply t_emits. by constructor. Qed.
  Lemma chunk_events_keyless u c dest b : keyless (chunk_events u c dest b).
  Proof.
    unfold chunk_events. apply Forall_app. split; [destruct dest; by repeat constructor|]. by apply Forall_fmap, Forall_true.
  Qed.
  Lemma t_chunk_loop c used u fc dest limit chunks buffer :
    triple (inv c0 c used) (chunk_loop ok u fc dest limit chunks buffer) (fun _ => inv c0 c used) (einv c0 used).
  Proof.
    revert buffer. induction chunks as [|b chunks IH]; intros buffer; simpl; [by apply triple_ret|].
    eapply triple_bind; [apply t_emits, chunk_events_keyless|]. intros []. apply IH.
  Qed.
  Lemma registered_file f x f' k e : k <> KContent -> registered (Callbacks f x) k e = registered (Callbacks f' x) k e.
  Proof. by destruct k. Qed.
  Lemma fresh_file f x f' used : fresh c0 (Callbacks f x) used -> fresh c0 (Callbacks f' x) used.
  Proof. intros H k e Hk. rewrite (registered_file f' x f) by done. by apply H. Qed.
  Lemma fresh'_file f x f' used : fresh' c0 (Callbacks f x) used -> fresh' c0 (Callbacks f' x) used.
  Proof. intros H k e Hk. rewrite (registered_file f' x f) by done. by apply H. Qed.
  Lemma t_process f x used u success chunks complete hint :
    triple (inv c0 (Callbacks f x) used) (process_provided_file f u success chunks complete hint)
      (fun f' => inv c0 (Callbacks f' x) used) (einv c0 used).
  Proof.
    unfold ClientModel.process_provided_file. destruct (f !! u) as [c|] eqn:Eu.
    2:{ destruct complete; [by apply triple_ret|]. apply triple_panic. intros. by eapply inv_einv. }
    eapply triple_bind. { apply t_emits. destruct (write_dest same_path c success hint); by repeat constructor. } intros [].
    eapply triple_bind; [apply t_chunk_loop|]. intros buffer.
    apply (triple_bind _ _ _ (fun _ => inv c0 (Callbacks f x) used)).
    { destruct complete; [by apply triple_ret|]. apply triple_panic. intros. by eapply inv_einv. } intros [].
    eapply triple_bind. { apply t_emits. by apply Forall_fmap, Forall_true. } intros [].
    apply (triple_bind _ _ _ (fun _ => inv c0 (Callbacks f x) used)).
    { intros tr H. destruct (fc_write_to c) as [w|]; [|done].
      destruct (w_executable w && dest_exists tr (w_dest w)); [|done]. by apply t_emit. }
    intros [].
    assert (forall tr, inv c0 (Callbacks f x) used tr -> fc_content c = None ->
      inv c0 (Callbacks (<[u := FileCb (fc_write_to c) None (fc_chunked c)]> f) x) used tr) as Hnone.
    { intros tr (H1 & H2 & H3 & H4 & H5 & H6) Hc. split_and!; try done; [|by eapply fresh_file|by eapply fresh'_file]. intros k v i Hk.
      specialize (H2 k v i Hk). destruct k; try done. unfold registered, file_cb_of in *. simpl in *.
      destruct (decide (v = u)) as [->|Hv]; [by rewrite lookup_insert|]. rewrite lookup_insert_ne by done. exact H2. }
    destruct (fc_content c) as [limit|] eqn:Ec.
    2:{ apply (triple_bind _ _ _ (fun _ => inv c0 (Callbacks f x) used)); [by apply triple_ret|]. intros []. apply triple_ret. intros tr H. by apply Hnone. }
    eapply (triple_bind _ _ _ (fun _ => inv c0 (Callbacks (<[u := FileCb (fc_write_to c) None (fc_chunked c)]> f) x) used));
      [|intros []; by apply triple_ret].
    assert (forall tr, inv c0 (Callbacks f x) used tr ->
      inv c0 (Callbacks (<[u := FileCb (fc_write_to c) None (fc_chunked c)]> f) x) used (tr ++ [EContent u buffer])) as Hgo.
    { intros tr (H1 & H2 & H3 & H4 & H5 & H6). unfold inv, once, spent. rewrite omap_app. simpl. split_and!.
      - apply NoDup_app. split_and!; [done| |apply NoDup_singleton]. intros y Hy ->%elem_of_list_singleton.
        specialize (H2 _ _ _ Hy). unfold registered, file_cb_of in H2. simpl in H2. rewrite Eu in H2. simpl in H2. by rewrite Ec in H2.
      - intros k v i [Hk|Hk%elem_of_list_singleton]%elem_of_app.
        + specialize (H2 k v i Hk). destruct k; try done. unfold registered, file_cb_of in *. simpl in *.
          destruct (decide (v = u)) as [->|]; [by rewrite lookup_insert|by rewrite lookup_insert_ne].
        + simplify_eq. unfold registered, file_cb_of. simpl. by rewrite lookup_insert.
      - intros e k v i [He|He%elem_of_list_singleton]%elem_of_app Hk Hc; [by eapply H3|]. subst. simpl in Hk. by simplify_eq.
      - by eapply fresh_file.
      - by eapply fresh'_file.
      - by apply called_mono. }
    apply triple_emit; [done|]. intros tr H. split; [by eapply inv_einv|]. eapply inv_einv. by apply Hgo.
  Qed.

  Lemma t_process' c used u success chunks complete hint :
    triple (inv c0 c used) (process_provided_file (cb_files c) u success chunks complete hint)
      (fun f' => inv c0 (Callbacks f' (cb_execs c)) used) (einv c0 used).
  Proof. destruct c as [fs xs]. apply t_process. Qed.
  (** Draining the callbacks of kind [k0]. *)
  Lemma t_drain s used m k0 e0 ev n clear :
    notifies m = Some (k0, e0, ev) -> k0 <> KContent ->
    (forall x, cb_execs (c_cbs s) !! e0 = Some x -> n x = registered (c_cbs s) k0 e0 /\
       (forall k, k <> KContent -> registered (Callbacks (cb_files (c_cbs s)) (<[e0 := clear x]> (cb_execs (c_cbs s)))) k e0 =
                     if decide (k = k0) then 0 else registered (c_cbs s) k e0)) ->
    (forall i, once_key (ev i) = Some (k0, e0, i)) ->
    triple (inv c0 (c_cbs s) used) (drain ok e0 n clear ev s)
      (fun s' tr => inv c0 (c_cbs s') (used ++ [Msg m]) tr /\ c_missing s' = c_missing s) (einv c0 (used ++ [Msg m])).
  Proof.
    intros Hm Hk0 Hx Hev. unfold drain.
    assert (forall k e, notifies_about k e (Msg m) <-> k = k0 /\ e = e0) as Habout.
    { intros k e. unfold notifies_about. split; [intros (m' & ev' & [= <-] & H); by simplify_eq|]. intros [-> ->]. by exists m, ev. }
    destruct (cb_execs (c_cbs s) !! e0) as [x|] eqn:Ex.
    2:{ apply triple_ret. intros tr (H1 & H2 & H3 & H4 & H5 & H6). split; [|done].
        assert (registered (c_cbs s) k0 e0 = 0) as Hz. { unfold registered, exec_cb_of. rewrite Ex. by destruct k0. }
        split_and!; try done.
        - by apply faithful_mono.
        - intros k e Hk. destruct (decide (k = k0 /\ e = e0)) as [[-> ->]|Hne]; [by left|].
          destruct (H4 k e Hk) as [?|[? Hn]]; [by left|]. right. split; [done|].
          rewrite Exists_app, Exists_cons, Exists_nil, Habout. tauto.
        - intros k e Hk Hn. apply H5; [done|]. rewrite Exists_app in Hn. tauto.
        - intros k e ev' a m' b Hu Hn Ha i Hi. destruct b as [|y b _] using rev_ind.
          + apply app_inj_tail in Hu as [-> [= <-]]. rewrite Hm in Hn. simplify_eq.
            rewrite <- (H5 k e) in Hi by done. lia.
          + rewrite app_comm_cons, app_assoc in Hu. apply app_inj_tail in Hu as [-> <-]. by eapply H6. }
    destruct (Hx x eq_refl) as [Hn Hclear].
    assert (forall tr d, inv c0 (c_cbs s) used tr -> d `prefix_of` map ev (seq 0 (n x)) -> einv c0 (used ++ [Msg m]) (tr ++ d)) as HE.
    { intros tr d (H1 & H2 & H3 & H4 & H5 & H6) Hd.
      assert (forall e, e ∈ d -> exists i, i < n x /\ e = ev i) as Hmem.
      { intros e He. assert (e ∈ map ev (seq 0 (n x))) as He'. { destruct Hd as [q ->]. set_solver. }
        apply elem_of_list_fmap in He' as (i & -> & Hi). apply elem_of_seq in Hi. exists i. split; [lia|done]. }
      split.
      - unfold once. rewrite omap_app. apply NoDup_app. split_and!; [done| |].
        + intros y Hy (e & He & Hk)%elem_keys. destruct (Hmem e He) as (i & Hi & ->). rewrite Hev in Hk. simplify_eq.
          specialize (H2 _ _ _ Hy). lia.
        + assert (keys (map ev (seq 0 (n x))) = map (fun i => (k0, e0, i)) (seq 0 (n x))) as Hks.
          { generalize (seq 0 (n x)). intros l. induction l as [|i l IH]; simpl; [done|]. rewrite Hev. by rewrite <- IH. }
          assert (NoDup (keys (map ev (seq 0 (n x))))) as Hnd.
          { rewrite Hks. apply NoDup_fmap_2; [intros ???; by simplify_eq|apply NoDup_seq]. }
          destruct Hd as [q Hq]. rewrite Hq, omap_app in Hnd. by apply NoDup_app in Hnd as [? _].
      - intros e k u i [He|He]%elem_of_app Hk Hc; [by eapply faithful_mono|].
        destruct (Hmem e He) as (j & Hj & ->). rewrite Hev in Hk. simplify_eq. split.
        + destruct (H4 k u Hc) as [?|[Heq _]]; lia.
        + exists m, ev. split_and!; [set_solver|done|done]. }
    eapply (triple_bind _ _ _ (fun _ tr => exists tr0, tr = tr0 ++ map ev (seq 0 (n x)) /\ inv c0 (c_cbs s) used tr0)).
    { apply triple_emits.
      - intros tr H. by exists tr.
      - intros tr d H Hd. by apply HE. }
    intros []. apply triple_ret. intros tr (tr0 & -> & Hinv). split; [|done].
    pose proof (HE tr0 _ Hinv (reflexivity _)) as [He1 He2].
    destruct Hinv as (H1 & H2 & H3 & H4 & H5 & H6). split_and!; [done| |done|..].
    - intros k u i (e & [He|He]%elem_of_app & Hk)%elem_keys.
      + specialize (H2 k u i). assert (registered (c_cbs s) k u = 0) as Hz by (apply H2, elem_keys; eauto).
        destruct (decide (k = KContent)) as [->|Hkc]; [done|].
        destruct (decide (u = e0)) as [->|Hu].
        * simpl. rewrite Hclear by done. by case_decide.
        * unfold registered, exec_cb_of in *. simpl. rewrite lookup_insert_ne by done. done.
      + apply elem_of_list_fmap in He as (j & -> & _). rewrite Hev in Hk. simplify_eq. simpl. rewrite Hclear by done.
        by rewrite decide_True.
    - intros k e Hk. simpl. destruct (decide (e = e0)) as [->|Hne].
      + rewrite Hclear by done. case_decide as Hd; [by left|].
        destruct (H4 k e0 Hk) as [?|[? Hn']]; [by left|]. right. split; [done|].
        rewrite Exists_app, Exists_cons, Exists_nil, Habout. tauto.
      + assert (registered (Callbacks (cb_files (c_cbs s)) (<[e0:=clear x]> (cb_execs (c_cbs s)))) k e = registered (c_cbs s) k e) as ->.
        { unfold registered, exec_cb_of. simpl. rewrite lookup_insert_ne by done. by destruct k. }
        destruct (H4 k e Hk) as [?|[? Hn']]; [by left|]. right. split; [done|].
        rewrite Exists_app, Exists_cons, Exists_nil, Habout. tauto.
    - intros k e Hk Hn'. rewrite Exists_app, Exists_cons, Exists_nil, Habout in Hn'. simpl.
      destruct (decide (e = e0)) as [->|Hne].
      + rewrite Hclear by done. rewrite decide_False by tauto. apply H5; tauto.
      + assert (registered (Callbacks (cb_files (c_cbs s)) (<[e0:=clear x]> (cb_execs (c_cbs s)))) k e = registered (c_cbs s) k e) as ->.
        { unfold registered, exec_cb_of. simpl. rewrite lookup_insert_ne by done. by destruct k. }
        apply H5; tauto.
    - intros k e ev' a m' b Hu Hn' Ha i Hi. destruct b as [|y b _] using rev_ind.
      + apply app_inj_tail in Hu as [-> [= <-]]. rewrite Hm in Hn'. simplify_eq.
        apply elem_of_app. right. apply elem_of_list_fmap. exists i. split; [done|]. apply elem_of_seq.
        rewrite Hn. rewrite (H5 k e) by done. lia.
      + rewrite app_comm_cons, app_assoc in Hu. apply app_inj_tail in Hu as [-> <-].
        apply elem_of_app. left. by eapply H6.
  Qed.

  Lemma recv_file_used {M} (items : list (chan M)) chunks rest : recv_file items = (chunks, Some rest) ->
    items = map Raw chunks ++ Raw [] :: rest /\ Forall (fun c => c <> []) chunks.
  Proof.
    revert chunks. induction items as [|[m|b] items IH]; intros chunks H; simpl in H; [done..|].
    case_bool_decide as Hb; [by simplify_eq|]. destruct (recv_file items) as [cs r]. simplify_eq.
    destruct (IH cs eq_refl) as [-> ?]. split; [done|by constructor].
  Qed.

  Lemma t_start_files f x used l :
    triple (inv c0 (Callbacks f x) used) (start_files ok same_path dest_exists f l)
      (fun f' => inv c0 (Callbacks f' x) used) (einv c0 used).
  Proof.
    revert f. induction l as [|[u p] l IH]; intros f; simpl; [by apply triple_ret|].
    eapply triple_bind; [|intros f'; apply IH]. unfold start_one. simpl. destruct p as [k p [chunks|]|k content].
    - apply t_process.
    - apply triple_error. intros. by eapply inv_einv.
    - apply t_process.
  Qed.
  Lemma t_done_files f x used l n :
    triple (inv c0 (Callbacks f x) used) (done_files ok same_path dest_exists local f l n)
      (fun r tr => inv c0 (Callbacks r.1 x) used tr /\ r.2 = n + length (filter (fun y => local y.1.2 = None) l)) (einv c0 used).
  Proof.
    revert f n. induction l as [|[[u k] success] l IH]; intros f n; simpl.
    { apply triple_ret. intros. split; [done|]. simpl. lia. }
    rewrite filter_cons. simpl. destruct (local k) as [chunks|].
    - rewrite decide_False by done. eapply triple_bind; [apply t_process|]. intros f'. apply IH.
    - rewrite decide_True by done. eapply triple_bind; [by apply t_emit|]. intros [].
      eapply triple_conseq; [apply (IH f (S n))|done| |done]. intros r tr [? ->]. split; [done|]. simpl. lia.
  Qed.
  Lemma t_done_files' c used l n :
    triple (inv c0 c used) (done_files ok same_path dest_exists local (cb_files c) l n)
      (fun r tr => inv c0 (Callbacks r.1 (cb_execs c)) used tr /\ r.2 = n + length (filter (fun y => local y.1.2 = None) l)) (einv c0 used).
  Proof. destruct c as [fs xs]. apply t_done_files. Qed.
  Lemma send_file_keyless chunks : keyless (map ESent (send_file chunks)).
  Proof. by apply Forall_fmap, Forall_true. Qed.
  Lemma t_ask_file provided u c used :
    triple (inv c0 c used) (handle_ask_file ok provided u) (fun _ => inv c0 c used) (einv c0 used).
  Proof.
    unfold handle_ask_file. destruct (plook u provided) as [[k p [chunks|]|k content]|].
    - eapply triple_bind; [by apply t_emit|]. intros []. apply t_emits. by apply Forall_fmap, Forall_true.
    - eapply triple_bind; [by apply t_emit|]. intros []. apply triple_error. intros. by eapply inv_einv.
    - eapply triple_bind; [by apply t_emit|]. intros []. apply t_emits. by apply Forall_fmap, Forall_true.
    - apply triple_panic. intros. by eapply inv_einv.
  Qed.

  Definition after (used : list (chan server_msg)) (m : server_msg) (items : list (chan server_msg)) (s : cstate)
      (r : cstate * list (chan server_msg) + stop_reason) (tr : list cevent) : Prop :=
    match r with
    | inl (s', items') => exists raws, items = map Raw raws ++ items' /\
        inv c0 (c_cbs s') (used ++ Msg m :: map Raw raws) tr /\ c_missing s' = waits local (c_missing s) (Msg m)
    | inr why => why = StopError /\ (exists msg, m = SError msg) /\ inv c0 (c_cbs s) (used ++ [Msg m]) tr
    end.
  Lemma inert_raws l : Forall inert (map Raw l).
  Proof. by apply Forall_fmap, Forall_true. Qed.
  Lemma t_handle used provided m items s :
    triple (inv c0 (c_cbs s) used) (handle_msg ok same_path dest_exists local provided m items s)
      (after used m items s) (einv c0 (used ++ [Msg m])).
  Proof.
    destruct m as [f|f success|e w|e r|e|msg| |files]; simpl.
    - eapply triple_bind. { eapply triple_conseq; [apply t_ask_file|done|done|]. intros. by apply einv_mono. }
      intros []. apply triple_ret. intros tr H. exists []. split_and!; [done| |done]. simpl. apply inv_inert; [done|]. by constructor.
    - destruct (recv_file items) as [chunks rest] eqn:Er. destruct rest as [rest|].
      + apply recv_file_used in Er as [-> _].
        eapply triple_bind. { eapply triple_conseq; [|intros tr H; exact H|intros ? ? H; exact H|intros tr H; by apply einv_mono].
          apply (t_process' (c_cbs s) used). }
        intros fs. apply triple_ret. intros tr H. exists (chunks ++ [[]]). simpl. split_and!; [|..|done].
        * by rewrite map_app, <- app_assoc.
        * apply inv_inert; [done|]. constructor; [done|]. apply inert_raws.
      + rewrite bool_decide_false by (by intros [? ?]).
        intros tr H. pose proof (t_process (cb_files (c_cbs s)) (cb_execs (c_cbs s)) used f success chunks false None tr) as Ht.
        destruct (c_cbs s) as [fs xs]. simpl in *. specialize (Ht H). unfold cbind.
        destruct (process_provided_file fs f success chunks false None tr) as [tr' [fs'|e]] eqn:E.
        * apply process_run in E as [? _]. done.
        * by apply einv_mono.
    - eapply triple_bind. { apply (t_drain s used (SNotifyStart e w) KStart e); [done..| |done].
        intros x Hx. unfold registered, exec_cb_of. rewrite Hx. simpl. split; [done|]. rewrite lookup_insert. intros k Hk. by destruct k. }
      intros s'. apply triple_ret. intros tr [H Hm]. exists []. by split_and!.
    - eapply triple_bind. { apply (t_drain s used (SNotifyDone e r) KDone e); [done..| |done].
        intros x Hx. unfold registered, exec_cb_of. rewrite Hx. simpl. split; [done|]. rewrite lookup_insert. intros k Hk. by destruct k. }
      intros s'. apply triple_ret. intros tr [H Hm]. exists []. by split_and!.
    - eapply triple_bind. { apply (t_drain s used (SNotifySkip e) KSkip e); [done..| |done].
        intros x Hx. unfold registered, exec_cb_of. rewrite Hx. simpl. split; [done|]. rewrite lookup_insert. intros k Hk. by destruct k. }
      intros s'. apply triple_ret. intros tr [H Hm]. exists []. by split_and!.
    - eapply triple_bind. { eapply triple_conseq; [by apply (t_emit (c_cbs s) used)|done|intros ? ? H; exact H|]. intros. by apply einv_mono. }
      intros []. apply triple_ret. intros tr H. simpl. split_and!; [done|by eexists|]. apply inv_inert; [done|]. by repeat constructor.
    - eapply triple_bind. { eapply triple_conseq; [by apply (t_emit (c_cbs s) used)|done|intros ? ? H; exact H|]. intros. by apply einv_mono. }
      intros []. apply triple_ret. intros tr H. exists []. split_and!; [done| |done]. simpl. apply inv_inert; [done|]. by constructor.
    - eapply triple_bind. { eapply triple_conseq; [|intros tr H; exact H|intros ? ? H; exact H|intros tr H; by apply einv_mono].
        apply (t_done_files' (c_cbs s) used). }
      intros [fs n]. apply triple_ret. intros tr [H Hn]. exists []. simpl in *. split_and!; [done| |by rewrite Hn].
      apply inv_inert; [done|]. by constructor.
  Qed.

  (** The loop. *)
  Definition waits_ok (used : list (chan server_msg)) (s : cstate) : Prop :=
    c_missing s = waiting_for local used /\
    forall p q, used = p ++ q -> waiting_for local p = Some 0 -> exists raws, q = map Raw raws.
  Lemma waiting_for_app a b : waiting_for local (a ++ b) = fold_left (waits local) b (waiting_for local a).
  Proof. unfold waiting_for. by rewrite fold_left_app. Qed.
  Lemma waits_raws raws w : fold_left (waits local) (map Raw raws) w = w.
  Proof. induction raws; simpl; [done|]. done. Qed.
  Lemma waits_ok_step used s m raws s' : waits_ok used s -> c_waiting s = true ->
    c_missing s' = waits local (c_missing s) (Msg m) -> waits_ok (used ++ Msg m :: map Raw raws) s'.
  Proof.
    intros [H1 H2] Hw Hm. split.
    - rewrite waiting_for_app. simpl. rewrite waits_raws. by rewrite Hm, H1.
    - intros p q Heq Hp. apply app_eq_inv in Heq as [(x & -> & Hx)|(x & -> & Hx)].
      + destruct (H2 p x eq_refl Hp) as [raws' ->]. exfalso.
        rewrite waiting_for_app, waits_raws, Hp in H1. unfold c_waiting in Hw. rewrite H1 in Hw. simpl in Hw. done.
      + destruct x as [|y x].
        * rewrite app_nil_r in Hp. rewrite <- H1 in Hp. unfold c_waiting in Hw. rewrite Hp in Hw. simpl in Hw. done.
        * simpl in Hx. simplify_eq. exists (drop (length x) raws). rewrite <- fmap_drop || rewrite map_drop || idtac.
          assert (map Raw raws = x ++ q) as Hmr by done. change (map Raw raws) with (Raw <$> raws : list (chan server_msg)) in Hmr.
          rewrite fmap_drop. rewrite Hmr. by rewrite drop_app.
  Qed.
  Definition loop_post (all : list (chan server_msg)) (r : option (cstate * list (chan server_msg) * stop_reason)) (tr : list cevent) : Prop :=
    match r with
    | None => False
    | Some (s', rest, why) => exists used s'', all = used ++ rest /\ inv c0 (c_cbs s'') used tr /\
        (forall p q, used = p ++ q -> waiting_for local p = Some 0 -> exists raws, q = map Raw raws) /\
        match why with
        | StopDone => waiting_for local used = Some 0
        | StopError => exists u msg, used = u ++ [Msg (SError msg)] /\ waiting_for local u <> Some 0
        | StopClosed => waiting_for local used <> Some 0 /\ (rest = [] \/ exists u b, used = u ++ [Raw b])
        end
    end.
  Lemma t_loop fuel provided items s used all :
    length items < fuel -> all = used ++ items -> waits_ok used s ->
    triple (inv c0 (c_cbs s) used) (client_loop ok same_path dest_exists local fuel provided items s)
      (loop_post all) (einv c0 all).
  Proof.
    revert items s used. induction fuel as [|fuel IH]; intros items s used Hf Hall Hw; [lia|]. simpl.
    destruct (c_waiting s) eqn:Ew; simpl.
    2:{ apply triple_ret. intros tr H. exists used, s. destruct Hw as [Hw1 Hw2]. split_and!; try done.
        rewrite <- Hw1. unfold c_waiting in Ew. apply bool_decide_eq_false in Ew. destruct (c_missing s) as [[|n]|]; simpl in *; [done|lia|lia]. }
    assert (waiting_for local used <> Some 0) as Hnz.
    { destruct Hw as [Hw1 _]. rewrite <- Hw1. intros E. unfold c_waiting in Ew. rewrite E in Ew. simpl in Ew. done. }
    destruct items as [|[m|b] items].
    - apply triple_ret. intros tr H. exists used, s. destruct Hw. split_and!; try done. by left.
    - eapply triple_bind.
      { eapply triple_conseq; [apply (t_handle used)|done|intros ? ? H; exact H|]. intros tr H.
        subst all. change (Msg m :: items) with ([Msg m] ++ items). rewrite app_assoc. by apply einv_mono. }
      intros [[s' items']|why].
      + intros tr (raws & -> & Hinv & Hm). simpl in Hf. rewrite app_length in Hf.
        eapply (IH items' s' (used ++ Msg m :: map Raw raws)); [lia|subst all; by rewrite <- app_assoc| |exact Hinv].
        by apply (waits_ok_step used s).
      + apply triple_ret. intros tr (-> & (msg & ->) & Hinv). exists (used ++ [Msg (SError msg)]), s. split_and!.
        * subst all. by rewrite <- app_assoc.
        * done.
        * pose proof (waits_ok_step used s (SError msg) [] s Hw Ew eq_refl) as [_ H]. exact H.
        * by exists used, msg.
    - apply triple_ret. intros tr H. exists (used ++ [Raw b]), s. destruct Hw as [Hw1 Hw2]. split_and!.
      + subst all. by rewrite <- app_assoc.
      + apply inv_inert; [done|]. by repeat constructor.
      + intros p q Heq Hp. destruct q as [|y q _] using rev_ind; [by exists []|].
        rewrite app_assoc in Heq. apply app_inj_tail in Heq as [-> <-]. destruct (Hw2 p q eq_refl Hp) as [raws ->].
        exists (raws ++ [b]). by rewrite map_app.
      + by rewrite waiting_for_app.
      + right. by exists used, b.
  Qed.
  Lemma inv_start : inv c0 c0 [] [].
  Proof.
    split_and!; try done.
    - constructor.
    - intros k u i H. by apply elem_of_nil in H.
    - intros e k u i H. by apply elem_of_nil in H.
    - intros k e Hk. right. split; [done|]. intros H. by apply Exists_nil in H.
    - intros k e ev a m b H. by destruct a.
  Qed.
  Lemma t_evaluate provided items :
    triple (fun tr => tr = []) (evaluate ok same_path dest_exists local c0 provided items) (loop_post items) (einv c0 items).
  Proof.
    unfold evaluate. eapply (triple_bind _ _ _ (fun c tr => inv c0 c [] tr)).
    - unfold start_evaluation. eapply triple_bind.
      { eapply triple_conseq; [apply (t_start_files (cb_files c0) (cb_execs c0) [])| |intros ? ? H; exact H|].
        - intros tr ->. destruct c0 eqn:E. simpl. rewrite <- E. apply inv_start.
        - intros tr H. by apply (einv_mono _ []). }
      intros f. eapply triple_bind.
      { eapply triple_conseq; [by apply (t_emit (Callbacks f (cb_execs c0)) [])|intros ? H; exact H|intros ? ? H; exact H|].
        intros tr H. by apply (einv_mono _ []). }
      intros []. by apply triple_ret.
    - intros c. apply (t_loop _ _ _ (c_init c) []); [lia|done|]. split; [done|].
      intros p q Heq Hp. symmetry in Heq. apply app_eq_nil in Heq as [-> ->]. by exists [].
  Qed.
End proofs.
