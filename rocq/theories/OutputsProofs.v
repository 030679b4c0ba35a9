(** * OutputsProofs: lemmas for C76 *)
From Coq Require Import Ascii.
From Verif Require Import OutputsModel OutputsSpec MiscProofs.
From stdpp Require Import base list gmap.

Section outputs.
  Context {hash : Type} `{EqDecision hash} (H : bytes -> hash) (utf8 : bytes -> option text).
  Notation hasher_chunk := (hasher_chunk H).
  Fixpoint out_feed (h : hasher) (l : list bytes) : hasher * list (test_output (hash := hash)) :=
    match l with
    | [] => (h, [])
    | b :: l => let r := out_feed (hasher_chunk h b).1 l in (r.1, option_list (hasher_chunk h b).2 ++ r.2)
    end.
  Lemma out_feed_app h l1 l2 : out_feed h (l1 ++ l2) = ((out_feed (out_feed h l1).1 l2).1, (out_feed h l1).2 ++ (out_feed (out_feed h l1).1 l2).2).
  Proof. revert h. induction l1 as [|b l1 IH]; intros h; cbn [app out_feed]; [apply surjective_pairing|]. rewrite IH. cbn [fst snd]. by rewrite app_assoc. Qed.
  Lemma out_feed_chunks l : [] ∉ l -> forall h, out_feed h l = (Hasher (match hs_first h with None => head l | Some x => Some x end) (hs_bytes h ++ concat l), []).
  Proof.
    induction l as [|b l IH]; intros Hl h; cbn [out_feed concat head].
    - destruct h as [[x|] b]; cbn; by rewrite app_nil_r.
    - apply not_elem_of_cons in Hl as [Hb Hl]. destruct b as [|c b]; [done|]. cbn [OutputsModel.hasher_chunk fst snd option_list]. rewrite IH by done. cbn [hs_first hs_bytes fst snd].
      rewrite <- app_assoc. by destruct (hs_first h).
  Qed.
  Lemma out_feed_once content n s : deliveries content n s -> n <= 1 ->
    (out_feed new_hasher s).2 = [] /\ n = 0 \/
    exists first, (out_feed new_hasher s).2 = [TestOutput first (H content)] /\ n = 1 /\ (first = None <-> content = []) /\ forall x, first = Some x -> x <> [] /\ x `prefix_of` content.
  Proof.
    intros (ds & rest & Hn & -> & Hds & Hr & _) Hn1. destruct ds as [|d [|d' ds]]; cbn in Hn; [| |lia].
    - left. cbn [map concat app]. rewrite out_feed_chunks by done. done.
    - right. exists (head d). destruct (Hds d ltac:(left)) as [Hd Hne]. cbn [map concat app]. rewrite app_nil_r, <- app_assoc, out_feed_app, (out_feed_chunks d) by done.
      cbn [new_hasher hs_first hs_bytes fst snd app out_feed]. cbn [OutputsModel.hasher_chunk fst snd option_list]. rewrite (out_feed_chunks rest) by done. cbn [hs_first hs_bytes snd app]. rewrite Hd.
      split; [done|]. split; [done|]. destruct d as [|b d].
      + cbn in Hd. subst content. cbn. done.
      + apply not_elem_of_cons in Hne as [Hb _]. cbn. split.
        * split; [done|]. intros E. rewrite <- Hd in E. destruct b; [done|]. done.
        * intros x [= <-]. split; [by intros ->|]. rewrite <- Hd. cbn. by eexists.
  Qed.

  (** ** The run *)
  Definition ob_stream (x : out_binding) (tr : list cevent) : list bytes := omap (chunk_of (ob_file x) (ob_index x)) tr.
  Definition ob_key (x : out_binding) : file_uuid * nat := (ob_file x, ob_index x).
  Lemma ob_find_some bs (x : out_binding) f i : NoDup (map ob_key bs) -> x ∈ bs -> ob_file x = f -> ob_index x = i ->
    find (fun x => bool_decide (ob_file x = f /\ ob_index x = i)) bs = Some x.
  Proof.
    induction bs as [|y bs IH]; [by intros _ ?%elem_of_nil|]. cbn. intros [Hy HN]%NoDup_cons Hx Hf Hi.
    destruct (decide (ob_file y = f /\ ob_index y = i)) as [E|E].
    - rewrite bool_decide_eq_true_2 by done. apply elem_of_cons in Hx as [->|Hx]; [done|]. exfalso. apply Hy. apply elem_of_list_fmap.
      exists x. split; [|done]. destruct E. unfold ob_key. congruence.
    - rewrite bool_decide_eq_false_2 by done. apply IH; try done. apply elem_of_cons in Hx as [->|Hx]; [|done]. tauto.
  Qed.
  Lemma ob_find_inv bs f i x : find (fun x => bool_decide (ob_file x = f /\ ob_index x = i)) bs = Some x -> x ∈ bs /\ ob_file x = f /\ ob_index x = i.
  Proof. intros Hf. apply List.find_some in Hf as [H1 H2]. apply bool_decide_eq_true in H2. by rewrite elem_of_list_In. Qed.
  Lemma ob_stream_snoc x tr ev : ob_stream x (tr ++ [ev]) = ob_stream x tr ++ (match chunk_of (ob_file x) (ob_index x) ev with Some b => [b] | None => [] end).
  Proof. unfold ob_stream. rewrite omap_app. f_equal. Qed.
  Definition of_subtask (st : nat) (bs : list out_binding) : list out_binding := List.filter (fun x => bool_decide (ob_subtask x = st)) bs.
  Definition arrived_outputs (bs : list out_binding) (tr : list cevent) (st : nat) : list (test_output (hash := hash)) :=
    of_subtask st bs ≫= fun x => (out_feed new_hasher (ob_stream x tr)).2.

  Lemma bind_split {A B} (g g' : A -> list B) (l : list A) x extra : NoDup l -> x ∈ l -> (forall y, y ∈ l -> y <> x -> g' y = g y) -> g' x = g x ++ extra ->
    (l ≫= g') ≡ₚ (l ≫= g) ++ extra.
  Proof.
    intros HN Hx Hy Hg. induction HN as [|a l Ha HN IH]; [by apply elem_of_nil in Hx|]. rewrite !bind_cons. apply elem_of_cons in Hx as [->|Hx].
    - rewrite Hg. assert (l ≫= g' = l ≫= g) as ->.
      { assert (forall y, y ∈ l -> g' y = g y) as Hl. { intros y Hin. apply Hy; [by right|]. by intros ->. }
        clear -Hl. induction l as [|y l IH]; [done|]. rewrite !bind_cons. rewrite Hl by left. f_equal. apply IH. intros z Hz. apply Hl. by right. }
      rewrite <- !app_assoc. f_equiv. apply Permutation_app_comm.
    - rewrite (Hy a) by (try left; by intros ->). rewrite IH by (try done; intros y Hin; apply Hy; by right). by rewrite app_assoc.
  Qed.
  Lemma filter_key_NoDup bs st : NoDup (map ob_key bs) -> NoDup (of_subtask st bs).
  Proof.
    intros HN. unfold of_subtask. induction bs as [|x bs IH]; cbn; [constructor|]. cbn in HN. apply NoDup_cons in HN as [Hx HN]. case_bool_decide; [|by apply IH].
    constructor; [|by apply IH]. intros Hin. apply Hx. apply elem_of_list_In, filter_In in Hin as [Hin _]. apply elem_of_list_fmap. exists x. split; [done|]. by apply elem_of_list_In.
  Qed.
  Lemma out_run_spec sts bs tr : NoDup (map ob_key bs) -> (forall x, x ∈ bs -> ob_subtask x ∈ out_keys sts) ->
    (forall x, x ∈ bs -> default new_hasher (os_hashers (out_run H sts bs tr) !! ob_key x) = (out_feed new_hasher (ob_stream x tr)).1) /\
    (forall st, match os_outputs (out_run H sts bs tr) !! st with
                | Some l => st ∈ out_keys sts /\ l ≡ₚ arrived_outputs bs tr st
                | None => st ∉ out_keys sts
                end).
  Proof.
    intros HN Hk. induction tr as [|ev tr [IH1 IH2]] using rev_ind.
    - split; [done|]. intros st. cbn. destruct (list_to_map _ !! st) as [l|] eqn:E.
      + apply elem_of_list_to_map_2 in E. apply elem_of_list_fmap in E as (k & [= -> ->] & Hin). split; [done|]. unfold arrived_outputs, ob_stream.
        clear. induction (of_subtask k bs) as [|x l IH]; [done|]. rewrite bind_cons. cbn [omap list_omap out_feed snd app]. exact IH.
      + apply not_elem_of_list_to_map_2 in E. intros Hin. apply E. rewrite <- list_fmap_compose. apply elem_of_list_fmap. by exists st.
    - assert (Hrun : out_run H sts bs (tr ++ [ev]) = out_event H bs (out_run H sts bs tr) ev) by (unfold out_run; by rewrite fold_left_app).
      rewrite Hrun. clear Hrun. set (s := out_run H sts bs tr) in *. clearbody s.
      assert (Hsame : forall x, chunk_of (ob_file x) (ob_index x) ev = None -> ob_stream x (tr ++ [ev]) = ob_stream x tr).
      { intros x E. rewrite ob_stream_snoc, E. by rewrite app_nil_r. }
      assert (Hno : (forall x, x ∈ bs -> chunk_of (ob_file x) (ob_index x) ev = None) -> out_event H bs s ev = s ->
        (forall x, x ∈ bs -> default new_hasher (os_hashers (out_event H bs s ev) !! ob_key x) = (out_feed new_hasher (ob_stream x (tr ++ [ev]))).1) /\
        (forall st, match os_outputs (out_event H bs s ev) !! st with Some l => st ∈ out_keys sts /\ l ≡ₚ arrived_outputs bs (tr ++ [ev]) st | None => st ∉ out_keys sts end)).
      { intros Hn ->. split.
        - intros x Hx. rewrite Hsame by auto. by apply IH1.
        - intros st. specialize (IH2 st). destruct (os_outputs s !! st); [|done]. destruct IH2 as [Hst ->]. split; [done|]. unfold arrived_outputs.
          assert (forall x, x ∈ of_subtask st bs -> ob_stream x (tr ++ [ev]) = ob_stream x tr) as Hx.
          { intros x Hx. apply Hsame, Hn. apply elem_of_list_In, filter_In in Hx as [Hx _]. by apply elem_of_list_In. }
          clear -Hx. induction (of_subtask st bs) as [|x l' IH]; [done|]. rewrite !bind_cons. rewrite (Hx x) by left. f_equiv. apply IH. intros y Hy. apply Hx. by right. }
      destruct ev as [| | |f i b| | | | | |]; try (apply Hno; done).
      destruct (find (fun x => bool_decide (ob_file x = f /\ ob_index x = i)) bs) as [x0|] eqn:E.
      2:{ apply Hno; [|cbn; by rewrite E]. intros x Hx. cbn. rewrite bool_decide_eq_false_2; [done|]. intros [Hf Hi]. rewrite (ob_find_some bs x f i) in E by done. done. }
      clear Hno. destruct (ob_find_inv _ _ _ _ E) as (Hx0 & Hf & Hi).
      assert (Hs0 : ob_stream x0 (tr ++ [EChunk f i b]) = ob_stream x0 tr ++ [b]). { rewrite ob_stream_snoc. cbn. by rewrite bool_decide_eq_true_2 by done. }
      assert (Hne : forall x, x ∈ bs -> x <> x0 -> ob_key x <> (f, i) /\ ob_stream x (tr ++ [EChunk f i b]) = ob_stream x tr).
      { intros x Hx Hxne. assert (ob_key x <> (f, i)) as Hkk. { intros [= Hf' Hi']. rewrite (ob_find_some bs x f i) in E by done. congruence. }
        split; [done|]. apply Hsame. cbn. rewrite bool_decide_eq_false_2; [done|]. intros [Hf' Hi']. apply Hkk. unfold ob_key. congruence. }
      cbn [out_event]. rewrite E. destruct (OutputsModel.hasher_chunk H (default new_hasher (os_hashers s !! (f, i))) b) as [h o] eqn:Ec.
      pose proof (IH1 x0 Hx0) as Hst. unfold ob_key in Hst. rewrite Hf, Hi in Hst. rewrite Hst in Ec.
      assert (Hfeed : out_feed new_hasher (ob_stream x0 (tr ++ [EChunk f i b])) = (h, (out_feed new_hasher (ob_stream x0 tr)).2 ++ option_list o)).
      { rewrite Hs0, out_feed_app. cbn [out_feed]. rewrite Ec. cbn [fst snd]. by rewrite app_nil_r. }
      split.
      + intros x Hx. cbn [os_hashers]. destruct (decide (ob_key x = (f, i))) as [Hkx|Hkx].
        * assert (x = x0) as ->. { injection Hkx as ? ?. pose proof (ob_find_some bs x f i HN Hx ltac:(done) ltac:(done)). congruence. }
          rewrite Hkx, lookup_insert. cbn. by rewrite Hfeed.
        * rewrite lookup_insert_ne by done. assert (x <> x0) as Hxne by (intros ->; apply Hkx; unfold ob_key; congruence). destruct (Hne x) as [_ ->]; [done..|]. by apply IH1.
      + intros st. cbn [os_outputs].
        assert (Hother : ob_subtask x0 <> st -> arrived_outputs bs (tr ++ [EChunk f i b]) st = arrived_outputs bs tr st).
        { intros Hst'. unfold arrived_outputs. assert (forall x, x ∈ of_subtask st bs -> ob_stream x (tr ++ [EChunk f i b]) = ob_stream x tr) as Hx.
          { intros x Hx. apply elem_of_list_In, filter_In in Hx as [Hx Hxs]. apply elem_of_list_In in Hx. apply bool_decide_eq_true in Hxs. apply (Hne x Hx). intros ->. done. }
          clear -Hx. induction (of_subtask st bs) as [|x l' IH]; [done|]. rewrite !bind_cons. rewrite (Hx x) by left. f_equal. apply IH. intros y Hy. apply Hx. by right. }
        assert (Hmine : arrived_outputs bs (tr ++ [EChunk f i b]) (ob_subtask x0) ≡ₚ arrived_outputs bs tr (ob_subtask x0) ++ option_list o).
        { unfold arrived_outputs. apply (bind_split _ _ _ x0).
          - by apply filter_key_NoDup.
          - apply elem_of_list_In, filter_In. split; [by apply elem_of_list_In|by apply bool_decide_eq_true_2].
          - intros y Hy Hyne. apply elem_of_list_In, filter_In in Hy as [Hy _]. apply elem_of_list_In in Hy. destruct (Hne y Hy Hyne) as [_ ->]. done.
          - by rewrite Hfeed. }
        destruct o as [o|].
        * pose proof (IH2 (ob_subtask x0)) as Hx. destruct (os_outputs s !! ob_subtask x0) as [l|] eqn:El; [|by destruct Hx; apply Hk].
          destruct Hx as [Hkx Hl]. destruct (decide (ob_subtask x0 = st)) as [<-|Hst'].
          -- rewrite lookup_insert. split; [done|]. rewrite Hmine, Hl. done.
          -- rewrite lookup_insert_ne by done. specialize (IH2 st). destruct (os_outputs s !! st); [|done]. by rewrite Hother.
        * specialize (IH2 st). destruct (os_outputs s !! st); [|done]. destruct (decide (ob_subtask x0 = st)) as [<-|Hst']; [|by rewrite Hother].
          destruct IH2 as [? IH2]. split; [done|]. rewrite Hmine, IH2. cbn. by rewrite app_nil_r.
  Qed.

  (** ** The registration *)
  Definition out_bound (s : callbacks * list out_binding) : Prop :=
    NoDup (map ob_key s.2) /\ forall x, x ∈ s.2 -> ob_index x < fc_chunked (file_cb_of (ob_file x) s.1).
  Lemma out_bind_ok st f s : out_bound s -> out_bound (out_bind st s f).
  Proof.
    intros [HN Hb]. destruct f as [f|]; [|done]. unfold out_bind. split; cbn [fst snd].
    - rewrite map_app. apply NoDup_app. split; [done|]. split; [|apply NoDup_singleton].
      intros y Hy1 Hy2. cbn in Hy2. apply elem_of_list_singleton in Hy2 as ->. apply elem_of_list_fmap in Hy1 as (x & [= Hf Hi] & Hx).
      apply Hb in Hx. rewrite <- Hf, <- Hi in Hx. lia.
    - intros x Hx. rewrite chunked_after. apply elem_of_app in Hx as [Hx|Hx].
      + apply Hb in Hx. destruct (decide (f = ob_file x)) as [->|]; lia.
      + apply elem_of_list_singleton in Hx as ->. cbn. rewrite decide_True by done. lia.
  Qed.
  Lemma out_binds_ok st fs s : out_bound s -> out_bound (fold_left (out_bind st) fs s).
  Proof. revert s. induction fs as [|f fs IH]; intros s Hs; [done|]. cbn. by apply IH, out_bind_ok. Qed.
  Lemma out_pre_hook_ok sts c : out_bound (out_pre_hook sts c).
  Proof.
    unfold out_pre_hook. assert (forall s, out_bound s -> out_bound (fold_left (fun s x => if bool_decide (2 <= length (ot_files x.2)) then fold_left (out_bind x.1) (ot_files x.2) s else s) sts s)) as Hs.
    { induction sts as [|x sts IH]; intros s Hs; [done|]. cbn [fold_left]. apply IH. case_bool_decide; [|done]. by apply out_binds_ok. }
    apply Hs. split; [constructor|]. intros x Hx. by apply elem_of_nil in Hx.
  Qed.
  Lemma out_binds_snd st fs s : exists bs, (fold_left (out_bind st) fs s).2 = s.2 ++ bs /\ map ob_file bs = omap id fs /\ Forall (fun x => ob_subtask x = st) bs.
  Proof.
    revert s. induction fs as [|f fs IH]; intros s; cbn.
    - exists []. by rewrite app_nil_r.
    - destruct (IH (out_bind st s f)) as (bs & E & Hf & Hst). destruct f as [f|].
      + exists (OutBinding f (fc_chunked (file_cb_of f s.1)) st :: bs). rewrite E. cbn [out_bind snd]. rewrite <- app_assoc. split; [done|]. cbn. rewrite Hf. split; [done|]. by constructor.
      + exists bs. rewrite E. cbn. done.
  Qed.
  Lemma of_subtask_app st a b : of_subtask st (a ++ b) = of_subtask st a ++ of_subtask st b.
  Proof. apply List.filter_app. Qed.
  Lemma of_subtask_all st bs : Forall (fun x => ob_subtask x = st) bs -> of_subtask st bs = bs.
  Proof. induction 1 as [|x bs Hx _ IH]; [done|]. cbn. rewrite bool_decide_eq_true_2 by done. f_equal. exact IH. Qed.
  Lemma of_subtask_none st st' bs : Forall (fun x => ob_subtask x = st') bs -> st' <> st -> of_subtask st bs = [].
  Proof. induction 1 as [|x bs Hx _ IH]; intros Hne; [done|]. cbn. rewrite bool_decide_eq_false_2 by congruence. by apply IH. Qed.
  Lemma out_keys_spec sts st : st ∈ out_keys sts <-> exists s, (st, s) ∈ sts /\ 2 <= length (ot_files s).
  Proof.
    unfold out_keys. rewrite elem_of_list_omap. split.
    - intros ([k s] & Hin & E). case_bool_decide as Hl; [|done]. injection E as <-. by exists s.
    - intros (s & Hin & Hl). exists (st, s). split; [done|]. cbn. by rewrite bool_decide_eq_true_2.
  Qed.
  Lemma out_keys_NoDup sts : NoDup sts.*1 -> NoDup (out_keys sts).
  Proof.
    induction sts as [|[k s] sts IH]; [constructor|]. intros [Hk HN]%NoDup_cons. unfold out_keys. cbn. case_bool_decide; [|by apply IH].
    constructor; [|by apply IH]. intros Hin. apply Hk. apply (out_keys_spec sts) in Hin as (z & Hz & _). apply elem_of_list_fmap. by exists (k, z).
  Qed.
  Lemma out_pre_hook_bindings sts c : NoDup sts.*1 ->
    (forall x, x ∈ (out_pre_hook sts c).2 -> ob_subtask x ∈ out_keys sts) /\
    (forall st s, (st, s) ∈ sts -> 2 <= length (ot_files s) -> map ob_file (of_subtask st (out_pre_hook sts c).2) = omap id (ot_files s)).
  Proof.
    induction sts as [|[k s] sts IH] using rev_ind; intros HN.
    - split; [intros x Hx; by apply elem_of_nil in Hx|]. intros st s Hin. by apply elem_of_nil in Hin.
    - rewrite fmap_app in HN. cbn in HN. apply NoDup_app in HN as (HN & Hd & _). destruct (IH HN) as [H1 H2].
      assert (Hpre : out_pre_hook (sts ++ [(k, s)]) c = if bool_decide (2 <= length (ot_files s)) then fold_left (out_bind k) (ot_files s) (out_pre_hook sts c) else out_pre_hook sts c).
      { unfold out_pre_hook. by rewrite fold_left_app. }
      rewrite Hpre. clear Hpre. set (p := out_pre_hook sts c) in *. clearbody p.
      assert (Hkeys : forall y, y ∈ out_keys sts -> y ∈ out_keys (sts ++ [(k, s)])).
      { intros y Hy. apply out_keys_spec in Hy as (z & Hz & Hl). apply out_keys_spec. exists z. split; [apply elem_of_app; by left|done]. }
      assert (Hnk : k ∉ out_keys sts). { intros Hk. apply out_keys_spec in Hk as (z & Hz & _). apply (Hd k); [apply elem_of_list_fmap; by exists (k, z)|left]. }
      case_bool_decide as Hl.
      + destruct (out_binds_snd k (ot_files s) p) as (bs & E & Hf & Hst). rewrite E. split.
        * intros x [Hx|Hx]%elem_of_app; [by apply Hkeys, H1|]. rewrite Forall_forall in Hst. rewrite (Hst x Hx). apply out_keys_spec. exists s. split; [apply elem_of_app; right; left|done].
        * intros st s' [Hin|Hin]%elem_of_app Hl'.
          -- rewrite of_subtask_app, (of_subtask_none st k bs Hst), app_nil_r; [by apply H2|]. intros ->. apply Hnk, out_keys_spec. by exists s'.
          -- apply elem_of_list_singleton in Hin as [= -> ->]. rewrite of_subtask_app, (of_subtask_all k bs Hst). rewrite map_app, Hf.
             assert (of_subtask k p.2 = []) as ->; [|done]. destruct (of_subtask k p.2) as [|x l] eqn:Ek; [done|]. assert (x ∈ of_subtask k p.2) as Hx by (rewrite Ek; left).
             apply elem_of_list_In, filter_In in Hx as [Hx Hxk]. apply bool_decide_eq_true in Hxk. destruct Hnk. rewrite <- Hxk. apply H1. by apply elem_of_list_In.
      + split; [intros x Hx; by apply Hkeys, H1|]. intros st s' [Hin|Hin]%elem_of_app Hl'; [by apply H2|]. apply elem_of_list_singleton in Hin as [= -> ->]. done.
  Qed.
End outputs.
