(** * MiscProofs: lemmas for C51 and C53 *)
From Coq Require Import Ascii.
From Verif Require Export MiscSpec.

(** ** One checker *)
Fixpoint feed (s : eol) (l : list bytes) : eol * bool :=
  match l with
  | [] => (s, false)
  | b :: l => let r := feed (eol_chunk s b).1 l in (r.1, (eol_chunk s b).2 || r.2)
  end.
Lemma feed_app s l1 l2 : feed s (l1 ++ l2) = ((feed (feed s l1).1 l2).1, (feed s l1).2 || (feed (feed s l1).1 l2).2).
Proof. revert s. induction l1 as [|b l1 IH]; intros s; cbn; [by destruct (feed s l2)|]. rewrite IH. cbn. by rewrite orb_assoc. Qed.
Definition ends_nl (prev : bool) (content : bytes) : bool := match last content with Some c => bool_decide (c = 10%N) | None => prev end.
Lemma last_app_ne {A} (a b : list A) : b <> [] -> last (a ++ b) = last b.
Proof. intros H. rewrite last_app. destruct (last b) eqn:E; [done|]. by apply last_None in E. Qed.
Lemma feed_chunks l : [] ∉ l -> forall s, feed s l = (Eol (ends_nl (eol_last s) (concat l)) (eol_binary s || bool_decide (0%N ∈ concat l)), false).
Proof.
  induction l as [|b l IH]; intros Hl s; cbn [feed concat].
  - destruct s as [e bi]. cbn. by rewrite orb_false_r.
  - apply not_elem_of_cons in Hl as [Hb Hl].
    assert (eol_chunk s b = (Eol (ends_nl (eol_last s) b) (eol_binary s || bool_decide (0%N ∈ b)), false)) as ->.
    { destruct b as [|x b]; [done|]. unfold eol_chunk, ends_nl. by destruct (last (x :: b)) eqn:E; [|apply last_None in E]. }
    rewrite IH by done. cbn. f_equal. f_equal.
    + unfold ends_nl. rewrite last_app. by destruct (last (concat l)).
    + rewrite <- orb_assoc. f_equal. rewrite <- bool_decide_or. apply bool_decide_ext. by rewrite elem_of_app.
Qed.
Definition lacks_newlineb (content : bytes) : bool := negb (ends_nl true content) && negb (bool_decide (0%N ∈ content)).
Lemma lacks_newlineb_spec content : lacks_newlineb content = true <-> lacks_newline content.
Proof.
  unfold lacks_newlineb, lacks_newline, ends_nl. rewrite andb_true_iff, !negb_true_iff, bool_decide_eq_false.
  destruct (last content) as [c|] eqn:E.
  - rewrite bool_decide_eq_false. assert (content <> []) by (by intros ->). naive_solver.
  - apply last_None in E. naive_solver.
Qed.
Lemma feed_deliveries content ds : (forall d, d ∈ ds -> concat d = content /\ [] ∉ d) ->
  let s1 := Eol (ends_nl true content) (bool_decide (0%N ∈ content)) in
  forall s, s = eol_new \/ s = s1 ->
  feed s (concat (map (fun d => d ++ [[]]) ds)) = (if bool_decide (ds = []) then s else s1, negb (bool_decide (ds = [])) && lacks_newlineb content).
Proof.
  intros Hds s1. induction ds as [|d ds IH]; intros s Hs; [done|].
  destruct (Hds d ltac:(left)) as [Hd Hne].
  assert (feed s (d ++ [[]]) = (s1, lacks_newlineb content)) as E.
  { rewrite feed_app, (feed_chunks d) by done. rewrite Hd. cbn [feed fst snd eol_chunk eol_last eol_binary].
    assert (ends_nl (eol_last s) content = ends_nl true content) as ->. { destruct Hs as [->| ->]; [done|]. unfold s1, ends_nl. cbn. by destruct (last content). }
    assert (eol_binary s || bool_decide (0%N ∈ content) = bool_decide (0%N ∈ content)) as ->. { destruct Hs as [->| ->]; [done|]. cbn. by destruct (bool_decide _). }
    cbn. rewrite !orb_false_r. done. }
  cbn [map concat]. rewrite feed_app, E. cbn [fst snd].
  rewrite (IH ltac:(intros d' Hd'; apply Hds; by right) s1 ltac:(by right)).
  rewrite (bool_decide_eq_false_2 (d :: ds = [])) by done. cbn [fst snd]. by destruct (bool_decide (ds = [])), (lacks_newlineb content).
Qed.
Lemma feed_stream content n stream : deliveries content n stream -> (feed eol_new stream).2 = true <-> 0 < n /\ lacks_newline content.
Proof.
  intros (ds & rest & Hn & -> & Hds & Hr & _). rewrite feed_app. cbn [snd]. rewrite (feed_chunks rest) by done. cbn [snd]. rewrite orb_false_r.
  rewrite (feed_deliveries content ds Hds eol_new (or_introl eq_refl)). cbn [snd]. rewrite andb_true_iff, negb_true_iff, bool_decide_eq_false, lacks_newlineb_spec.
  destruct ds; cbn in Hn; split; intros [? ?]; (split; [|done]); [done|lia|lia|done].
Qed.

(** ** All the checkers *)
Definition stream (x : binding) (tr : list cevent) : list bytes := omap (chunk_of (b_file x) (b_index x)) tr.
Lemma find_some bs (x : binding) f i : NoDup (map (fun x => (b_file x, b_index x)) bs) -> x ∈ bs -> b_file x = f -> b_index x = i ->
  find (fun x => bool_decide (b_file x = f /\ b_index x = i)) bs = Some x.
Proof.
  induction bs as [|y bs IH]; [by intros _ ?%elem_of_nil|]. cbn. intros [Hy HN]%NoDup_cons Hx Hf Hi.
  destruct (decide (b_file y = f /\ b_index y = i)) as [E|E].
  - rewrite bool_decide_eq_true_2 by done. apply elem_of_cons in Hx as [->|Hx]; [done|]. exfalso. apply Hy. apply elem_of_list_fmap.
    exists x. split; [|done]. destruct E. congruence.
  - rewrite bool_decide_eq_false_2 by done. apply IH; try done. apply elem_of_cons in Hx as [->|Hx]; [|done]. tauto.
Qed.
Lemma find_inv bs f i x : find (fun x => bool_decide (b_file x = f /\ b_index x = i)) bs = Some x -> x ∈ bs /\ b_file x = f /\ b_index x = i.
Proof. intros H. apply List.find_some in H as [H1 H2]. apply bool_decide_eq_true in H2. by rewrite elem_of_list_In. Qed.

Lemma run_snoc bs tr ev : eol_run bs (tr ++ [ev]) = eol_event bs (eol_run bs tr) ev.
Proof. unfold eol_run. by rewrite foldl_app. Qed.
Lemma stream_snoc x tr ev : stream x (tr ++ [ev]) = stream x tr ++ (match chunk_of (b_file x) (b_index x) ev with Some b => [b] | None => [] end).
Proof. unfold stream. rewrite omap_app. f_equal. Qed.
Lemma eol_run_spec bs tr : NoDup (map (fun x => (b_file x, b_index x)) bs) ->
  (forall x, x ∈ bs -> default eol_new (es_checkers (eol_run bs tr) !! (b_file x, b_index x)) = (feed eol_new (stream x tr)).1) /\
  (forall k p, p ∈ es_list k (eol_run bs tr) <-> exists x, x ∈ bs /\ b_kind x = k /\ b_path x = p /\ (feed eol_new (stream x tr)).2 = true).
Proof.
  intros HN. induction tr as [|ev tr [IH1 IH2]] using rev_ind.
  - split; [done|]. intros k p. split; [destruct k; by intros ?%elem_of_nil|by intros (x & _ & _ & _ & ?)].
  - rewrite run_snoc.
    assert (forall x, x ∈ bs -> chunk_of (b_file x) (b_index x) ev = None -> stream x (tr ++ [ev]) = stream x tr) as Hsame.
    { intros x _ E. rewrite stream_snoc, E. by rewrite app_nil_r. }
    assert ((forall x, x ∈ bs -> chunk_of (b_file x) (b_index x) ev = None) -> eol_event bs (eol_run bs tr) ev = eol_run bs tr ->
      (forall x, x ∈ bs -> default eol_new (es_checkers (eol_event bs (eol_run bs tr) ev) !! (b_file x, b_index x)) = (feed eol_new (stream x (tr ++ [ev]))).1) /\
      (forall k p, p ∈ es_list k (eol_event bs (eol_run bs tr) ev) <-> exists x, x ∈ bs /\ b_kind x = k /\ b_path x = p /\ (feed eol_new (stream x (tr ++ [ev]))).2 = true)) as Hno.
    { intros Hn ->. split.
      - intros x Hx. rewrite Hsame by auto. by apply IH1.
      - intros k p. rewrite IH2. by split; intros (x & Hx & ? & ? & ?); exists x; rewrite Hsame in * by auto. }
    destruct ev as [| | |f i b| | | | | |]; try (apply Hno; done).
    destruct (find (fun x => bool_decide (b_file x = f /\ b_index x = i)) bs) as [x0|] eqn:E.
    2:{ apply Hno; [|cbn; by rewrite E]. intros x Hx. cbn. rewrite bool_decide_eq_false_2; [done|]. intros [Hf Hi].
        rewrite (find_some bs x f i) in E by done. done. }
    clear Hno. destruct (find_inv _ _ _ _ E) as (Hx0 & Hf & Hi).
    assert (stream x0 (tr ++ [EChunk f i b]) = stream x0 tr ++ [b]) as Hs0. { rewrite stream_snoc. cbn. by rewrite bool_decide_eq_true_2 by done. }
    assert (forall x, x ∈ bs -> x <> x0 -> ((b_file x, b_index x) <> (f, i)) /\ stream x (tr ++ [EChunk f i b]) = stream x tr) as Hne.
    { intros x Hx Hne. assert ((b_file x, b_index x) <> (f, i)) as Hk. { intros [= Hf' Hi']. rewrite (find_some bs x f i) in E by done. congruence. }
      split; [done|]. apply Hsame; [done|]. cbn. rewrite bool_decide_eq_false_2; [done|]. intros [Hf' Hi']. apply Hk. congruence. }
    cbn [eol_event]. rewrite E. destruct (eol_chunk (default eol_new (es_checkers (eol_run bs tr) !! (f, i))) b) as [e w] eqn:Ec.
    pose proof (IH1 x0 Hx0) as Hst. rewrite Hf, Hi in Hst. rewrite Hst in Ec.
    assert (feed eol_new (stream x0 (tr ++ [EChunk f i b])) = (e, (feed eol_new (stream x0 tr)).2 || w)) as Hfeed.
    { rewrite Hs0, feed_app. cbn [feed]. rewrite Ec. cbn. by rewrite orb_false_r. }
    split.
    + intros x Hx. cbn [es_checkers]. destruct (decide ((b_file x, b_index x) = (f, i))) as [Hk|Hk].
      * assert (x = x0) as ->. { injection Hk as ? ?. pose proof (find_some bs x f i HN Hx ltac:(done) ltac:(done)). congruence. }
        rewrite Hk, lookup_insert. cbn. by rewrite Hfeed.
      * rewrite lookup_insert_ne by done. assert (x <> x0) by congruence. destruct (Hne x) as [_ ->]; [done..|]. by apply IH1.
    + intros k p.
      assert (p ∈ es_list k (EolState (<[(f, i):=e]> (es_checkers (eol_run bs tr)))
         (es_inputs (eol_run bs tr) ++ (if w && bool_decide (b_kind x0 = Inputs) then [b_path x0] else []))
         (es_outputs (eol_run bs tr) ++ (if w && bool_decide (b_kind x0 = Outputs) then [b_path x0] else []))) <->
         p ∈ es_list k (eol_run bs tr) \/ (w = true /\ b_kind x0 = k /\ b_path x0 = p)) as ->.
      { destruct k; cbn [es_list es_inputs es_outputs]; rewrite elem_of_app; (apply or_iff_compat_l);
          destruct w, (b_kind x0); cbn; rewrite ?bool_decide_eq_true_2 by done; rewrite ?elem_of_list_singleton, ?elem_of_nil; (split; intros H; [first [by destruct H|by subst p]|by destruct H as (? & ? & ?)]). }
      rewrite IH2. split.
      * intros [(x & Hx & Hk & Hp & H)|(-> & Hk & Hp)].
        -- exists x. split_and!; [done..|]. destruct (decide (x = x0)) as [->|Hx0']; [rewrite Hfeed; cbn; by rewrite H|]. destruct (Hne x) as [_ ->]; done.
        -- exists x0. split_and!; [done..|]. rewrite Hfeed. cbn. apply orb_true_r.
      * intros (x & Hx & Hk & Hp & H). destruct (decide (x = x0)) as [->|Hx0'].
        -- rewrite Hfeed in H. cbn in H. apply orb_true_iff in H as [H|H]; [left; by exists x0|right; done].
        -- destruct (Hne x Hx Hx0') as [_ Hs]. rewrite Hs in H. left. by exists x.
Qed.

(** ** The registration *)
Definition bound_ok (st : callbacks * list binding) : Prop :=
  NoDup (map (fun x => (b_file x, b_index x)) st.2) /\ forall x, x ∈ st.2 -> b_index x < fc_chunked (file_cb_of (b_file x) st.1).
Lemma chunked_after f g c : fc_chunked (file_cb_of g (default c (register false (RChunked f) c))) =
  if decide (f = g) then S (fc_chunked (file_cb_of f c)) else fc_chunked (file_cb_of g c).
Proof.
  cbn. unfold file_cb_of at 1, set_file_cb. cbn. destruct (decide (f = g)) as [->|Hne]; [by rewrite lookup_insert|]. by rewrite lookup_insert_ne.
Qed.
Lemma bind_ok k p f st : bound_ok st -> bound_ok (eol_bind k p f st).
Proof.
  intros [HN Hb]. unfold eol_bind. split; cbn [fst snd].
  - rewrite map_app. apply NoDup_app. split; [done|]. split; [|apply NoDup_singleton].
    intros y Hy1 Hy2. cbn in Hy2. apply elem_of_list_singleton in Hy2 as ->. apply elem_of_list_fmap in Hy1 as (x & [= Hf Hi] & Hx).
    apply Hb in Hx. rewrite <- Hf, <- Hi in Hx. lia.
  - intros x Hx. rewrite chunked_after. apply elem_of_app in Hx as [Hx|Hx].
    + apply Hb in Hx. destruct (decide (f = b_file x)) as [->|]; lia.
    + apply elem_of_list_singleton in Hx as ->. cbn. rewrite decide_True by done. lia.
Qed.
Lemma pre_hook_ok tests c : bound_ok (eol_pre_hook tests c).
Proof.
  unfold eol_pre_hook. induction tests as [|t tests IH] using rev_ind; [split; [constructor|by intros x ?%elem_of_nil]|].
  rewrite foldl_app. cbn [foldl]. destruct (et_input t), (et_output t); repeat apply bind_ok; done.
Qed.
Lemma pre_hook_bindings tests c k p f : (exists i, Binding f i k p ∈ (eol_pre_hook tests c).2) <->
  exists t, t ∈ tests /\ file_to_check k t = Some f /\ p = shown_path k (et_id t).
Proof.
  unfold eol_pre_hook. induction tests as [|t tests IH] using rev_ind.
  { split; [by intros (i & ?%elem_of_nil)|by intros (t & ?%elem_of_nil & _)]. }
  rewrite foldl_app. cbn [foldl]. set (st := foldl _ _ tests) in *. clearbody st.
  assert (forall k' p' f' st', (exists i, Binding f i k p ∈ (eol_bind k' p' f' st').2) <-> (exists i, Binding f i k p ∈ st'.2) \/ (f = f' /\ k = k' /\ p = p')) as Hb.
  { intros k' p' f' st'. unfold eol_bind. cbn [snd]. split.
    - intros (i & H). apply elem_of_app in H as [H|H]; [left; by exists i|]. apply elem_of_list_singleton in H. injection H as -> -> -> ->. by right.
    - intros [(i & H)|(-> & -> & ->)]; eexists; apply elem_of_app; [by left|right; by apply elem_of_list_singleton]. }
  transitivity ((exists i, Binding f i k p ∈ st.2) \/ (file_to_check k t = Some f /\ p = shown_path k (et_id t))).
  2:{ rewrite IH. split.
      - intros [(t' & Ht & H)|H]; [exists t'; split; [apply elem_of_app; by left|done]|exists t; split; [apply elem_of_app; right; by left|done]].
      - intros (t' & Ht & H). apply elem_of_app in Ht as [Ht|Ht]; [left; by exists t'|]. apply elem_of_list_singleton in Ht as ->. by right. }
  destruct (et_input t) as [fi|] eqn:Ei, (et_output t) as [fo|] eqn:Eo; rewrite ?Hb; destruct k; cbn [file_to_check shown_path]; rewrite ?Ei, ?Eo; unfold input_path, official_output_path;
    (split; [intros H; repeat destruct H as [H|H]; try (by left); try (destruct H as (? & ? & ?)); first [done|right; split; congruence]
            |intros [H|[H1 H2]]; [by auto|first [done|injection H1 as ->; by auto]]]).
Qed.

(** ** The order of strings *)
Global Instance string_le_total : Total string_le.
Proof. intros a b. unfold string_le. destruct (String.leb_total a b); auto. Qed.
