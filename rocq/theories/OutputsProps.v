(** * OutputsProps: the sanity check AllOutputsEqual (C76) *)
From Coq Require Import Ascii.
From Verif Require Import OutputsModel OutputsSpec OutputsProofs MiscProofs MiscProps.
From stdpp Require Import base list gmap.

Section outputs.
  Context {hash : Type} `{EqDecision hash} (H : bytes -> hash) (utf8 : bytes -> option text).
  Context (content : file_uuid -> bytes) (arrived : file_uuid -> bool).

  (** What a list of testcases delivered: one output for each file that arrived *)
  Definition delivered_once (f : file_uuid) (l : list (test_output (hash := hash))) : Prop :=
    if arrived f then exists first, l = [TestOutput first (H (content f))] /\ (first = None <-> content f = []) /\ forall x, first = Some x -> x <> [] /\ x `prefix_of` content f
    else l = [].
  Lemma delivered_length {A} (file : A -> file_uuid) (g : A -> list test_output) bl : (forall x, x ∈ bl -> delivered_once (file x) (g x)) ->
    length (bl ≫= g) <= length bl /\ (length (bl ≫= g) = length bl -> forall x, x ∈ bl -> arrived (file x) = true) /\
    ((forall x, x ∈ bl -> arrived (file x) = true) -> length (bl ≫= g) = length bl).
  Proof.
    induction bl as [|x bl IH]; intros Hx.
    { split; [done|]. split; [|done]. intros _ y Hy. by apply elem_of_nil in Hy. }
    rewrite bind_cons, app_length. destruct IH as (I1 & I2 & I3); [intros y Hy; apply Hx; by right|]. pose proof (Hx x ltac:(left)) as Hd. unfold delivered_once in Hd.
    cbn [length]. destruct (arrived (file x)) eqn:E.
    - destruct Hd as (first & -> & _). cbn [length]. split; [lia|]. split.
      + intros Hl y Hy. apply elem_of_cons in Hy as [->|Hy]; [done|]. apply I2; [lia|done].
      + intros Hy. rewrite I3; [lia|]. intros y Hin. apply Hy. by right.
    - rewrite Hd. cbn [length]. split; [lia|]. split; [intros; lia|]. intros Hy. rewrite (Hy x) in E by left. done.
  Qed.
  Lemma omap_id_length {A} (l : list (option A)) : length (omap id l) <= length l /\ (length (omap id l) = length l -> l = map Some (omap id l)).
  Proof.
    induction l as [|[a|] l [I1 I2]]; [done|..]; cbn.
    - split; [lia|]. intros Hl. f_equal. apply I2. lia.
    - split; [lia|]. intros Hl. lia.
  Qed.
  Lemma omap_id_map {A} (l : list A) : omap id (map Some l) = l.
  Proof. induction l as [|a l IH]; [done|]. cbn. by f_equal. Qed.
  Lemma all_same_unique s x y : all_same content arrived s x -> all_same content arrived s y -> x = y.
  Proof.
    intros (fs & E & Hl & Hx) (fs' & E' & _ & Hy). rewrite E in E'. assert (fs = fs') as <- by (by rewrite <- (omap_id_map fs), E', omap_id_map).
    destruct fs as [|f fs]; [cbn in Hl; lia|]. destruct (Hx f ltac:(left)) as [_ <-], (Hy f ltac:(left)) as [_ <-]. done.
  Qed.

  Context (sts : out_subtasks) (HN : NoDup sts.*1) (Hcol : no_collision H content sts).
  Lemma out_check_spec st s (bl : list out_binding) (g : out_binding -> list test_output) l :
    (st, s) ∈ sts -> 2 <= length (ot_files s) -> map ob_file bl = omap id (ot_files s) -> (forall x, x ∈ bl -> delivered_once (ob_file x) (g x)) -> l ≡ₚ (bl ≫= g) ->
    match out_check utf8 sts st l with
    | None => all_same content arrived s []
    | Some [] => forall x, ~ all_same content arrived s x
    | Some ws => exists x chunk, all_same content arrived s x /\ x <> [] /\ chunk <> [] /\ chunk `prefix_of` x /\ ws = [OutWarning st (ot_name s) (take 20 <$> utf8 chunk)]
    end.
  Proof using HN Hcol.
    intros Hin H2 Hfiles Hd Hl. unfold out_check. assert (list_to_map (M := gmap nat out_subtask) sts !! st = Some s) as -> by (by apply elem_of_list_to_map_1).
    destruct (delivered_length ob_file g bl Hd) as (L1 & L2 & L3).
    assert (Hlen : length bl = length (omap id (ot_files s))) by (rewrite <- Hfiles; by rewrite map_length).
    destruct (omap_id_length (ot_files s)) as [O1 O2]. assert (Hll : length l = length (bl ≫= g)) by (by rewrite Hl).
    case_bool_decide as Hne.
    { intros x (fs & E & _ & Hx). apply Hne. rewrite Hll, L3; [by rewrite Hlen, E, omap_id_map, map_length|].
      intros y Hy. apply Hx. assert (ob_file y ∈ map ob_file bl) as Hin' by (apply elem_of_list_fmap; by exists y). by rewrite Hfiles, E, omap_id_map in Hin'. }
    rewrite Hll in Hne.
    assert (Hall : ot_files s = map Some (omap id (ot_files s))) by (apply O2; lia). assert (Harr := L2 ltac:(lia)).
    assert (Hlf : length (omap id (ot_files s)) = length (ot_files s)) by lia.
    set (fs := omap id (ot_files s)) in *. clearbody fs.
    assert (Hof : forall o, o ∈ l -> exists f, f ∈ fs /\ to_hash o = H (content f) /\ (to_first o = None <-> content f = []) /\ forall x, to_first o = Some x -> x <> [] /\ x `prefix_of` content f).
    { intros o Ho. rewrite Hl in Ho. apply elem_of_list_bind in Ho as (x & Ho & Hx). pose proof (Hd x Hx) as Hdx. unfold delivered_once in Hdx. rewrite (Harr x Hx) in Hdx.
      destruct Hdx as (first & E & Hf1 & Hf2). rewrite E in Ho. apply elem_of_list_singleton in Ho as ->. exists (ob_file x). split; [|done].
      rewrite <- Hfiles. apply elem_of_list_fmap. by exists x. }
    assert (Hfo : forall f, f ∈ fs -> arrived f = true /\ exists o, o ∈ l /\ to_hash o = H (content f)).
    { intros f Hf. rewrite <- Hfiles in Hf. apply elem_of_list_fmap in Hf as (x & -> & Hx). split; [by apply Harr|]. pose proof (Hd x Hx) as Hdx. unfold delivered_once in Hdx.
      rewrite (Harr x Hx) in Hdx. destruct Hdx as (first & E & _). exists (TestOutput first (H (content (ob_file x)))). split; [|done]. rewrite Hl. apply elem_of_list_bind. exists x. rewrite E.
      split; [left|done]. }
    assert (Hsome : forall f, f ∈ fs -> Some f ∈ ot_files s). { intros f Hf. rewrite Hall. apply elem_of_list_fmap. by exists f. }
    destruct l as [|first l]; [cbn in Hll; lia|]. cbn [head mbind option_bind].
    destruct (Hof first ltac:(left)) as (f0 & Hf0 & Hh & Hfst1 & Hfst2).
    destruct (forallb _ _) eqn:Ef.
    - rewrite forallb_forall in Ef. assert (Hsame : all_same content arrived s (content f0)).
      { exists fs. split; [done|]. split; [lia|]. intros f Hf. destruct (Hfo f Hf) as (Ha & o & Ho & Hoh). split; [done|].
        apply elem_of_list_In in Ho. apply Ef, bool_decide_eq_true in Ho. apply (Hcol f f0 st s st s); auto. congruence. }
      destruct (to_first first) as [chunk|] eqn:E1; cbn [mbind option_bind].
      + destruct (Hfst2 chunk ltac:(done)) as [Hc1 Hc2]. exists (content f0), chunk. split; [done|]. split; [|done]. intros E0. by apply Hfst1 in E0.
      + rewrite <- (proj1 Hfst1) by done. done.
    - intros x (fs' & E' & _ & Hx). rewrite Hall in E'. assert (fs = fs') as <- by (by rewrite <- (omap_id_map fs), E', omap_id_map).
      rewrite <- not_true_iff_false in Ef. apply Ef. apply forallb_forall. intros o Ho. apply bool_decide_eq_true. apply elem_of_list_In in Ho.
      destruct (Hof o Ho) as (f & Hf & Hoh & _). rewrite Hoh, Hh. destruct (Hx f Hf) as [_ ->], (Hx f0 Hf0) as [_ ->]. done.
  Qed.

  (** The client calls the callbacks registered by the check: the chunks of each file that arrives, once. *)
  Context (c : callbacks) (tr : list cevent).
  Definition once : Prop := forall f i, i < fc_chunked (file_cb_of f (out_pre_hook sts c).1) -> deliveries (content f) (if arrived f then 1 else 0) (omap (chunk_of f i) tr).
  Context (Htr : once) (order : list nat) (Hord : order ≡ₚ out_keys sts).
  Notation result := (out_post_hook utf8 sts order (out_run H sts (out_pre_hook sts c).2 tr)).

  Definition out_one (id : nat) : option (list out_warning) :=
    match os_outputs (out_run H sts (out_pre_hook sts c).2 tr) !! id with Some l => out_check utf8 sts id l | None => Some [] end.
  Lemma out_one_spec st s : (st, s) ∈ sts -> 2 <= length (ot_files s) ->
    match out_one st with
    | None => all_same content arrived s []
    | Some [] => forall x, ~ all_same content arrived s x
    | Some ws => exists x chunk, all_same content arrived s x /\ x <> [] /\ chunk <> [] /\ chunk `prefix_of` x /\ ws = [OutWarning st (ot_name s) (take 20 <$> utf8 chunk)]
    end.
  Proof using HN Hcol Htr.
    intros Hin H2. unfold out_one. destruct (out_pre_hook_ok sts c) as [Hnd Hidx]. destruct (out_pre_hook_bindings sts c HN) as [Hk Hf].
    destruct (out_run_spec H sts (out_pre_hook sts c).2 tr Hnd Hk) as [_ Ho]. specialize (Ho st).
    assert (Hst : st ∈ out_keys sts) by (apply out_keys_spec; by exists s).
    destruct (os_outputs _ !! st) as [l|]; [|done]. destruct Ho as [_ Ho].
    eapply out_check_spec; [done|done|by apply Hf| |exact Ho].
    intros x Hx. apply elem_of_list_In, filter_In in Hx as [Hx _]. apply elem_of_list_In in Hx. unfold delivered_once.
    pose proof (Htr _ _ (Hidx x Hx)) as Hd. apply (out_feed_once H) in Hd; [|by destruct (arrived _); lia]. fold (ob_stream x tr) in Hd.
    destruct Hd as [[E Hn]|(first & E & Hn & Hd1 & Hd2)]; destruct (arrived (ob_file x)); try done. by exists first.
  Qed.

  (** The program is killed by the check iff in some subtask of at least two testcases every official output is empty. *)
  Theorem C76_killed : result = None <-> exists st s, (st, s) ∈ sts /\ all_same content arrived s [].
  Proof using HN Hcol Htr Hord.
    unfold out_post_hook. rewrite fmap_None. change (mapM out_one order = None <-> exists st s, (st, s) ∈ sts /\ all_same content arrived s []). rewrite mapM_None. split.
    - intros (id & Hin & E)%Exists_exists. rewrite Hord in Hin. apply out_keys_spec in Hin as (s & Hin & H2).
      pose proof (out_one_spec id s Hin H2) as Hs. rewrite E in Hs. by exists id, s.
    - intros (st & s & Hin & Hs). assert (2 <= length (ot_files s)) as H2. { destruct Hs as (fs & -> & Hl & _). by rewrite map_length. }
      apply Exists_exists. exists st. split; [rewrite Hord; apply out_keys_spec; by exists s|]. pose proof (out_one_spec st s Hin H2) as Ho. destruct (out_one st) as [[|w ws]|]; [by destruct (Ho [])| |done].
      destruct Ho as (x & ch & Hx & Hne & _). destruct Hne. by eapply all_same_unique.
  Qed.
  (** Otherwise it warns, once, of exactly the subtasks of at least two testcases whose official outputs all arrived and
      are equal; the message shows the first 20 characters of a nonempty beginning of that output, if they are text. *)
  Theorem C76_warned ws : result = Some ws ->
    NoDup (map ow_subtask ws) /\
    (forall w, w ∈ ws -> exists s x chunk, (ow_subtask w, s) ∈ sts /\ ow_name w = ot_name s /\ all_same content arrived s x /\
       chunk <> [] /\ chunk `prefix_of` x /\ ow_note w = take 20 <$> utf8 chunk) /\
    (forall st s x, (st, s) ∈ sts -> all_same content arrived s x -> exists w, w ∈ ws /\ ow_subtask w = st).
  Proof using HN Hcol Htr Hord.
    unfold out_post_hook. intros (wss & E & ->)%fmap_Some. change (mapM out_one order = Some wss) in E. apply mapM_Some in E.
    assert (Hone : forall st ws, out_one st = Some ws -> st ∈ order -> ws = [] /\ (forall s x, (st, s) ∈ sts -> ~ all_same content arrived s x) \/
      exists s x chunk, (st, s) ∈ sts /\ all_same content arrived s x /\ chunk <> [] /\ chunk `prefix_of` x /\ ws = [OutWarning st (ot_name s) (take 20 <$> utf8 chunk)]).
    { intros st ws' Ho Hin. rewrite Hord in Hin. apply out_keys_spec in Hin as (s & Hin & H2). pose proof (out_one_spec st s Hin H2) as Hs. rewrite Ho in Hs. destruct ws' as [|w ws'].
      - left. split; [done|]. intros s' x Hin' Ha. assert (s' = s) as ->; [|by eapply Hs].
        apply (elem_of_list_to_map_1 (M := gmap nat)) in Hin, Hin'; [congruence|done..].
      - right. destruct Hs as (x & ch & ? & _ & ? & ? & ->). by exists s, x, ch. }
    assert (Hno : NoDup order) by (rewrite Hord; by apply out_keys_NoDup).
    assert (Hcov : forall st s x, (st, s) ∈ sts -> all_same content arrived s x -> st ∈ order).
    { intros st s x Hin (fs & Ef & Hl & _). rewrite Hord. apply out_keys_spec. exists s. split; [done|]. by rewrite Ef, map_length. }
    assert (Hmem : forall w, w ∈ concat wss -> exists st ws, st ∈ order /\ out_one st = Some ws /\ w ∈ ws).
    { clear -E. induction E as [|st ws order wss Ho _ IH]; cbn; [intros w Hw; by apply elem_of_nil in Hw|]. intros w [Hw|Hw]%elem_of_app.
      - exists st, ws. split; [left|done].
      - destruct (IH w Hw) as (st' & ws' & ? & ? & ?). exists st', ws'. split; [by right|done]. }
    split; [|split].
    - clear Hord Hcov Hmem. revert Hno Hone. induction E as [|st ws order' wss Ho HE IH]; intros Hno Hone; [constructor|]. cbn. rewrite map_app. apply NoDup_cons in Hno as [Hst Hno].
      apply NoDup_app.
      assert (Hi : forall w, w ∈ concat wss -> ow_subtask w ∈ order').
      { clear -HE Hone. induction HE as [|st' ws' order'' wss Ho' _ IH]; cbn; [intros w Hw; by apply elem_of_nil in Hw|]. intros w [Hw|Hw]%elem_of_app.
        - destruct (Hone st' ws' Ho' ltac:(right; left)) as [[-> _]|(s & x & ch & _ & _ & _ & _ & ->)]; [by apply elem_of_nil in Hw|]. apply elem_of_list_singleton in Hw as ->. left.
        - right. apply IH; [|done]. intros st0 ws0 H0 H1. apply Hone; [done|]. apply elem_of_cons in H1 as [->|H1]; [left|by right; right]. }
      split; [|split].
      + destruct (Hone st ws Ho ltac:(left)) as [[-> _]|(s & x & ch & _ & _ & _ & _ & ->)]; [constructor|apply NoDup_singleton].
      + intros k Hk1 Hk2. apply elem_of_list_fmap in Hk2 as (w & -> & Hw). apply Hi in Hw. apply elem_of_list_fmap in Hk1 as (w' & Ew & Hw').
        destruct (Hone st ws Ho ltac:(left)) as [[-> _]|(s & x & ch & _ & _ & _ & _ & ->)]; [by apply elem_of_nil in Hw'|]. apply elem_of_list_singleton in Hw' as ->. cbn in Ew. by rewrite Ew in Hw.
      + apply IH; [done|]. intros st0 ws0 H0 H1. apply Hone; [done|by right].
    - intros w Hw. destruct (Hmem w Hw) as (st & ws & Hst & Ho & Hw'). destruct (Hone st ws Ho Hst) as [[-> _]|(s & x & ch & ? & ? & ? & ? & ->)]; [by apply elem_of_nil in Hw'|].
      apply elem_of_list_singleton in Hw' as ->. by exists s, x, ch.
    - intros st s x Hin Ha. pose proof (Hcov st s x Hin Ha) as Hst. apply elem_of_list_lookup in Hst as (i & Hi). destruct (Forall2_lookup_l _ _ _ _ _ E Hi) as (ws & Hws & Ho).
      destruct (Hone st ws Ho) as [[-> Hn]|(s' & x' & ch & ? & ? & ? & ? & ->)]; [by eapply elem_of_list_lookup_2|by destruct (Hn s x)|].
      exists (OutWarning st (ot_name s') (take 20 <$> utf8 ch)). split; [|done]. apply elem_of_list_In, in_concat. eexists. split; [apply elem_of_list_In; by eapply elem_of_list_lookup_2|]. by left.
  Qed.
End outputs.

(** Through the client: the files of [ds] are received, each once. *)
Section client.
  Context {hash : Type} `{EqDecision hash} (H : bytes -> hash) (utf8 : bytes -> option text).
  Context (ok : list cevent -> cevent -> bool) (same_path : path -> path -> bool) (dest_exists : list cevent -> path -> bool).
  Theorem C76_client sts c ds content tr cbs order : NoDup sts.*1 -> no_collision H content sts -> order ≡ₚ out_keys sts -> NoDup ds.*1 ->
    (forall u x, (u, x) ∈ ds -> concat x.1.2 = content u /\ [] ∉ x.1.2) ->
    deliver ok same_path dest_exists ds (cb_files (out_pre_hook sts c).1) [] = (tr, inl cbs) ->
    match out_post_hook utf8 sts order (out_run H sts (out_pre_hook sts c).2 tr) with
    | None => exists st s, (st, s) ∈ sts /\ all_same content (fun f => bool_decide (f ∈ ds.*1)) s []
    | Some ws => NoDup (map ow_subtask ws) /\
        forall st, st ∈ map ow_subtask ws <-> exists s x, (st, s) ∈ sts /\ all_same content (fun f => bool_decide (f ∈ ds.*1)) s x
    end.
  Proof.
    intros HN Hcol Hord Hds Hc Hrun. destruct (deliver_stream ok same_path dest_exists content ds Hc _ _ _ _ Hrun) as (d & -> & Hd). rewrite app_nil_l.
    set (arrived := fun f => bool_decide (f ∈ ds.*1)).
    assert (Htr : once content arrived sts c d).
    { intros f i Hi. specialize (Hd f i Hi). replace (if arrived f then 1 else 0) with (length (filter (fun x => x.1 = f) ds)); [done|].
      unfold arrived. clear -Hds. induction ds as [|[u x] ds IH]; [done|]. cbn in Hds. apply NoDup_cons in Hds as [Hu Hds]. specialize (IH Hds). rewrite filter_cons. cbn [fst].
      destruct (decide (u = f)) as [->|Hne].
      - cbn [length]. rewrite IH. rewrite (bool_decide_eq_false_2 (f ∈ ds.*1)) by done. rewrite bool_decide_eq_true_2; [done|]. cbn. left.
      - rewrite IH. cbn. erewrite bool_decide_ext; [reflexivity|]. rewrite elem_of_cons. split; [by right|]. intros [->|?]; [by destruct Hne|done]. }
    pose proof (C76_killed H utf8 content arrived sts HN Hcol c d Htr order Hord) as Hk.
    pose proof (C76_warned H utf8 content arrived sts HN Hcol c d Htr order Hord) as Hw.
    destruct (out_post_hook _ _ _ _) as [ws|]; [|by apply Hk]. destruct (Hw ws eq_refl) as (H1 & H2 & H3). split; [done|]. intros st. split.
    - intros (w & -> & Hin)%elem_of_list_fmap. destruct (H2 w Hin) as (s & x & ch & ? & _ & ? & _). by exists s, x.
    - intros (s & x & Hin & Ha). destruct (H3 st s x Hin Ha) as (w & Hw' & <-). apply elem_of_list_fmap. by exists w.
  Qed.
End client.

(** A task of three subtasks: one testcase; two testcases with the output 1; two testcases with different outputs.  The
    second is reported (with the identity as the hash, text read as ASCII). *)
Definition ex_outs : out_subtasks :=
  [(0, OutSubtask None [Some 1%positive]); (1, OutSubtask None [Some 2%positive; Some 3%positive]); (2, OutSubtask None [Some 2%positive; Some 4%positive])].
Definition ex_utf8 (b : bytes) : option text := Some b.
Definition ex_delivery : list (file_uuid * (bool * list bytes * option path)) :=
  [(1%positive, (true, [[53%N]], None)); (3%positive, (true, [[49%N; 10%N]], None)); (4%positive, (true, [[50%N]; [10%N]], None)); (2%positive, (true, [[49%N]; [10%N]], None))].
Example outputs_reported : exists tr cbs,
  deliver (fun _ _ => true) (fun _ _ => false) (fun _ _ => false) ex_delivery (cb_files (out_pre_hook ex_outs (Callbacks ∅ ∅)).1) [] = (tr, inl cbs) /\
  out_post_hook ex_utf8 ex_outs [2; 1] (out_run (fun b => b) ex_outs (out_pre_hook ex_outs (Callbacks ∅ ∅)).2 tr) =
    Some [OutWarning 1 None (Some [49%N; 10%N])].
Proof. do 2 eexists. split; [vm_compute; reflexivity|]. vm_compute. reflexivity. Qed.
(** A task whose official outputs are all empty (an output-only or a communication task) kills the program. *)
Theorem C76_never_killed_refuted : exists sts tr cbs ds,
  deliver (fun _ _ => true) (fun _ _ => false) (fun _ _ => false) ds (cb_files (out_pre_hook sts (Callbacks ∅ ∅)).1) [] = (tr, inl cbs) /\
  (forall u x, (u, x) ∈ ds -> [] ∉ x.1.2) /\ out_post_hook ex_utf8 sts (out_keys sts) (out_run (fun b => b) sts (out_pre_hook sts (Callbacks ∅ ∅)).2 tr) = None.
Proof.
  exists [(0, OutSubtask None [Some 1%positive; Some 2%positive])]. do 2 eexists. exists [(1%positive, (true, [], None)); (2%positive, (true, [], None))].
  split; [vm_compute; reflexivity|]. split; [|vm_compute; reflexivity]. intros u x Hin. apply elem_of_cons in Hin as [[= -> ->]|Hin]; [by intros ?%elem_of_nil|].
  apply elem_of_list_singleton in Hin as [= -> ->]. by intros ?%elem_of_nil.
Qed.
Print Assumptions C76_killed.
Print Assumptions C76_warned.
Print Assumptions C76_client.
Print Assumptions C76_never_killed_refuted.
