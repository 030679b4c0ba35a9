From Verif Require Export CompSpec.

(** ** Paths *)
Lemma strip_spec b p q : strip b p = Some q <-> p = b ++ q.
Proof.
  revert p. induction b as [|x b IH]; intros p; cbn; [split; congruence|]. destruct p as [|y p]; [split; done|].
  destruct (decide (x = y)) as [->|Hn]; [rewrite IH; split; [by intros ->|by intros [= ->]]|]. split; [done|]. intros [= -> _]. done.
Qed.
Lemma shown_path_ok s : shown s (shown_path s).
Proof.
  unfold shown, shown_path. destruct (strip (s_base s) (s_path s)) as [q|] eqn:E; cbn.
  - left. by apply strip_spec.
  - right. split; [done|]. intros q Hq. apply strip_spec in Hq. congruence.
Qed.
Lemma shown_unique s p q : shown s p -> shown s q -> p = q.
Proof.
  intros [Hp|[-> Hp]] [Hq|[-> Hq]]; [|by edestruct Hq|by edestruct Hp|done].
  rewrite Hp in Hq. by apply app_inv_head in Hq.
Qed.

Section comp.
Context (srcs : nat -> source) (up : list umsg -> bool).

(** ** The construction *)
Definition all_cbs (i : nat) : cbs :=
  Cbs [CbStatus (s_path (srcs i))] [CbStatus (s_path (srcs i)); CbFailure (shown_path (srcs i)) (s_desc (srcs i))] [CbStatus (s_path (srcs i))].
Record binv (comps : list (exec_uuid * nat)) (s : cstate) : Prop := {
  bi_execs : cs_execs s = comps.*1;
  bi_next : Forall (fun u => (u < cs_next s)%positive) comps.*1;
  bi_nodup1 : NoDup comps.*1;
  bi_nodup2 : NoDup comps.*2;
  bi_in : forall i, i ∈ comps.*2 <-> i ∈ cs_exes s /\ s_compiled (srcs i) = true;
  bi_ui : cs_ui s = map (fun i => UCompilation (s_path (srcs i)) UPending) comps.*2;
  bi_cbs : forall u i, (u, i) ∈ comps -> cs_cbs s !! u = Some (all_cbs i);
  bi_none : forall u, u ∉ comps.*1 -> cs_cbs s !! u = None }.

Lemma do_use_inv comps x s s' : binv comps s -> do_use srcs up x s = (true, s') ->
  exists new, binv (comps ++ new) s' /\ cs_exes s' = {[u_src x]} ∪ cs_exes s.
Proof.
  intros [He Hn Hd1 Hd2 Hi Hu Hc Hz] H. unfold do_use, prepare in H.
  destruct (decide (u_src x ∈ cs_exes s)) as [Hin|Hin].
  - exists []. rewrite app_nil_r. assert (s' = s) as ->.
    { destruct (u_kind x); cbn in H; [by injection H|by injection H|]. destruct (u_provide_ok x); [by injection H|done]. }
    split; [done|]. set_solver.
  - destruct (s_compiled (srcs (u_src x))) eqn:Ec.
    + destruct (u_prepare_ok x); [|done]. cbn in H.
      set (u := cs_next s) in *.
      set (s1 := CState (Pos.succ u) ({[u_src x]} ∪ cs_exes s) (cs_execs s ++ [u]) (cs_cbs s) (cs_ui s)) in *.
      assert (bind_compilation_exe srcs up (u_src x) (Some u) s1 = (true, s')) as H'.
      { destruct (u_kind x); [done..|]. destruct (u_provide_ok x); done. }
      clear H. unfold bind_compilation_exe, send in H'. destruct (up (cs_ui s1)) eqn:Eu; [|done]. injection H' as <-.
      assert (u ∉ comps.*1) as Hfresh.
      { intros Hf. rewrite Forall_forall in Hn. specialize (Hn u Hf). unfold u in Hn. lia. }
      assert (u_src x ∉ comps.*2) as Hfresh2 by (rewrite Hi; tauto).
      exists [(u, u_src x)]. split; [|done]. split; cbn.
      * by rewrite fmap_app, He.
      * rewrite fmap_app. apply Forall_app. split; [|repeat constructor; cbn; lia].
        eapply Forall_impl; [exact Hn|]. cbn. intros y Hy. lia.
      * rewrite fmap_app. apply NoDup_app. split_and!; [done| |apply NoDup_singleton]. cbn. set_solver.
      * rewrite fmap_app. apply NoDup_app. split_and!; [done| |apply NoDup_singleton]. cbn. set_solver.
      * intros i. rewrite fmap_app, elem_of_app, Hi. cbn. rewrite elem_of_list_singleton, elem_of_union, elem_of_singleton.
        split; [intros [[]| ->]; tauto|]. intros [[->|] ]; tauto.
      * rewrite fmap_app, map_app, Hu. done.
      * intros w i Hw. apply elem_of_app in Hw as [Hw|Hw].
        -- assert (w <> u) by (intros ->; apply Hfresh; apply elem_of_list_fmap; by exists (u, i)).
           rewrite !lookup_insert_ne by done. by apply Hc.
        -- apply elem_of_list_singleton in Hw. injection Hw as -> ->. rewrite lookup_insert.
           rewrite lookup_insert. cbn. rewrite (Hz u Hfresh). done.
      * intros w Hw. rewrite fmap_app in Hw. cbn in Hw. rewrite !lookup_insert_ne by set_solver. apply Hz. set_solver.
    + exists []. rewrite app_nil_r. destruct (u_prepare_ok x); [|done]. cbn in H.
      assert (s' = CState (cs_next s) ({[u_src x]} ∪ cs_exes s) (cs_execs s) (cs_cbs s) (cs_ui s)) as ->.
      { destruct (u_kind x); cbn in H; [by injection H|by injection H|]. destruct (u_provide_ok x); [by injection H|done]. }
      split; [|done]. split; cbn; try done. intros i. rewrite Hi. rewrite elem_of_union, elem_of_singleton.
      split; [tauto|]. intros [[->|] ?]; [congruence|tauto].
Qed.
Lemma build_inv comps xs s s' : binv comps s -> build srcs up xs s = (true, s') ->
  exists new, binv (comps ++ new) s' /\ forall i, i ∈ cs_exes s' <-> i ∈ cs_exes s \/ exists x, x ∈ xs /\ u_src x = i.
Proof.
  revert comps s. induction xs as [|x xs IH]; intros comps s Hs H; cbn in H.
  - injection H as <-. exists []. rewrite app_nil_r. split; [done|]. intros i. split; [tauto|]. intros [?|(x & Hx & _)]; [done|]. by apply elem_of_nil in Hx.
  - destruct (do_use srcs up x s) as [[] s1] eqn:E; [|done]. destruct (do_use_inv _ _ _ _ Hs E) as (n1 & H1 & E1).
    destruct (IH _ _ H1 H) as (n2 & H2 & E2). exists (n1 ++ n2). rewrite app_assoc. split; [done|]. intros i. rewrite E2, E1.
    rewrite elem_of_union, elem_of_singleton. split.
    + intros [[->|?]|(y & Hy & <-)]; [right; exists x; by split; [constructor|]|by left|right; exists y; by split; [constructor|]].
    + intros [?|(y & Hy & <-)]; [tauto|]. apply elem_of_cons in Hy as [->|Hy]; [tauto|]. right. by exists y.
Qed.
Lemma init_inv : binv [] init_cstate.
Proof. split; cbn; try done; try constructor; try set_solver. Qed.

(** ** The notifications *)
Lemma send_all_true ms s s' : send_all up ms s = (true, s') ->
  s' = CState (cs_next s) (cs_exes s) (cs_execs s) (cs_cbs s) (cs_ui s ++ ms).
Proof.
  revert s. induction ms as [|m ms IH]; intros s H; cbn in H; [injection H as <-; destruct s; cbn; by rewrite app_nil_r|].
  unfold send in H. destruct (up (cs_ui s)); [|done]. apply IH in H. subst. cbn. by rewrite <- app_assoc.
Qed.
Lemma call_all_true f l s s' : call_all up f l s = (true, s') ->
  s' = CState (cs_next s) (cs_exes s) (cs_execs s) (cs_cbs s) (cs_ui s ++ flat_map f l).
Proof.
  revert s. induction l as [|c l IH]; intros s H; cbn in H; [injection H as <-; destruct s; cbn; by rewrite app_nil_r|].
  destruct (send_all up (f c) s) as [[] s1] eqn:E; [|done]. apply send_all_true in E. apply IH in H. subst. cbn. by rewrite <- app_assoc.
Qed.

Definition is_start (u : exec_uuid) (n : notice) : bool := match n with NStart v _ => bool_decide (u = v) | _ => false end.
Definition is_done (u : exec_uuid) (n : notice) : bool := match n with NDone v _ => bool_decide (u = v) | _ => false end.
Definition is_skip (u : exec_uuid) (n : notice) : bool := match n with NSkip v => bool_decide (u = v) | _ => false end.
Definition cbs_after (before : list notice) (u : exec_uuid) (i : nat) : cbs :=
  Cbs (if existsb (is_start u) before then [] else cb_start (all_cbs i))
      (if existsb (is_done u) before then [] else cb_done (all_cbs i))
      (if existsb (is_skip u) before then [] else cb_skip (all_cbs i)).
Record ninv (comps : list (exec_uuid * nat)) (before : list notice) (s : cstate) : Prop := {
  ni_cbs : forall u i, (u, i) ∈ comps -> cs_cbs s !! u = Some (cbs_after before u i);
  ni_none : forall u, u ∉ comps.*1 -> cs_cbs s !! u = None }.

Lemma existsb_start u before : existsb (is_start u) before = true <-> exists w, NStart u w ∈ before.
Proof.
  rewrite existsb_exists. split.
  - intros (n & Hn & H). destruct n as [v w| |]; cbn in H; [|done..]. apply bool_decide_eq_true in H as <-. exists w. by apply elem_of_list_In.
  - intros (w & Hw). exists (NStart u w). split; [by apply elem_of_list_In|]. cbn. by apply bool_decide_eq_true.
Qed.
Lemma existsb_done u before : existsb (is_done u) before = true <-> exists r, NDone u r ∈ before.
Proof.
  rewrite existsb_exists. split.
  - intros (n & Hn & H). destruct n as [|v r|]; cbn in H; [done| |done]. apply bool_decide_eq_true in H as <-. exists r. by apply elem_of_list_In.
  - intros (w & Hw). exists (NDone u w). split; [by apply elem_of_list_In|]. cbn. by apply bool_decide_eq_true.
Qed.
Lemma existsb_skip u before : existsb (is_skip u) before = true <-> NSkip u ∈ before.
Proof.
  rewrite existsb_exists. split.
  - intros (n & Hn & H). destruct n as [| |v]; cbn in H; [done..|]. apply bool_decide_eq_true in H as <-. by apply elem_of_list_In.
  - intros Hw. exists (NSkip u). split; [by apply elem_of_list_In|]. cbn. by apply bool_decide_eq_true.
Qed.
Definition about (n : notice) : exec_uuid := match n with NStart u _ | NDone u _ | NSkip u => u end.
Lemma cbs_after_other before n u i : u <> about n -> cbs_after (before ++ [n]) u i = cbs_after before u i.
Proof.
  intros Hn. unfold cbs_after. rewrite !existsb_app. cbn. destruct n as [v w|v r|v]; cbn in *; rewrite bool_decide_eq_false_2 by done; by rewrite !orb_false_r.
Qed.
Lemma existsb_false u (f : exec_uuid -> notice -> bool) before : existsb (f u) before = false -> ~ existsb (f u) before = true.
Proof. congruence. Qed.

Lemma notify_step comps before n s s' : NoDup comps.*1 -> ninv comps before s -> notify up n s = (true, s') ->
  exists ms, cs_ui s' = cs_ui s ++ ms /\ told srcs comps before n ms /\ ninv comps (before ++ [n]) s'.
Proof.
  intros Hd Hi H.
  assert (forall u i j, (u, i) ∈ comps -> (u, j) ∈ comps -> i = j) as Hfun.
  { intros u i j H1 H2. pose proof (ni_cbs _ _ _ Hi). clear -Hd H1 H2. induction comps as [|[v k] l IH]; [by apply elem_of_nil in H1|].
    cbn in Hd. apply NoDup_cons in Hd as [Hv Hd]. apply elem_of_cons in H1 as [[= -> ->]|H1]; apply elem_of_cons in H2 as [E2|H2].
    - by injection E2 as ->.
    - destruct Hv. apply elem_of_list_fmap. by exists (v, j).
    - injection E2 as -> ->. destruct Hv. apply elem_of_list_fmap. by exists (v, i).
    - by apply IH. }
  destruct (decide (about n ∈ comps.*1)) as [Hu|Hu].
  - apply elem_of_list_fmap in Hu as ([u i] & Eu & Hu). cbn in Eu. pose proof (ni_cbs _ _ _ Hi _ _ Hu) as Ec.
    assert (forall c, (forall j, j = i -> cbs_after (before ++ [n]) u j = c) -> ninv comps (before ++ [n])
      (CState (cs_next s') (cs_exes s') (cs_execs s') (<[u := c]> (cs_cbs s)) (cs_ui s'))) as Hnew.
    { intros c Hc. split; cbn.
      - intros v j Hv. destruct (decide (v = u)) as [->|Hne].
        + rewrite lookup_insert. f_equal. symmetry. apply Hc. by eapply Hfun.
        + rewrite lookup_insert_ne by done. rewrite cbs_after_other by congruence. by apply (ni_cbs _ _ _ Hi).
      - intros v Hv. rewrite lookup_insert_ne; [by apply (ni_none _ _ _ Hi)|]. intros <-. apply Hv. apply elem_of_list_fmap. by exists (u, i). }
    destruct n as [v w|v r|v]; cbn in Eu; subst v; cbn [notify] in H; rewrite Ec in H; apply call_all_true in H; cbn in H.
    all: eexists; split; [rewrite H; cbn; reflexivity|].
    all: match goal with |- _ /\ ?G => assert G as HG end;
      [rewrite H; cbn in *; rewrite H in Hnew; cbn in Hnew; apply Hnew; intros j ->; unfold cbs_after; rewrite !existsb_app; cbn;
       rewrite bool_decide_eq_true_2 by done; rewrite ?orb_false_r, ?orb_true_r; reflexivity|split; [|exact HG]].
    + destruct (existsb (is_start u) before) eqn:E; cbn.
      * apply told_again. by apply existsb_start.
      * apply told_start; [done|]. intros w' Hw. apply (existsb_false _ _ _ E). apply existsb_start. by exists w'.
    + destruct (existsb (is_done u) before) eqn:E; cbn.
      * apply told_again. by apply existsb_done.
      * assert (forall r', NDone u r' ∉ before) as Hb.
        { intros r' Hr. apply (existsb_false _ _ _ E). apply existsb_done. by exists r'. }
        unfold failure_messages. destruct (res_status r) eqn:Es; cbn.
        1: by apply told_success.
        all: apply told_failure; [done|done|congruence|apply shown_path_ok].
    + destruct (existsb (is_skip u) before) eqn:E; cbn.
      * apply told_again. by apply existsb_skip.
      * apply told_skip; [done|]. intros Hw. apply (existsb_false _ _ _ E). by apply existsb_skip.
  - assert (s' = s) as ->.
    { pose proof (ni_none _ _ _ Hi _ Hu) as En. destruct n; cbn in *; rewrite En in H; by injection H. }
    exists []. rewrite app_nil_r. split; [done|]. split.
    + apply told_other. intros i Hin. apply Hu. apply elem_of_list_fmap. exists (about n, i). split; [done|]. by destruct n.
    + split; [|apply (ni_none _ _ _ Hi)]. intros u i Hin. rewrite cbs_after_other; [by apply (ni_cbs _ _ _ Hi)|].
      intros ->. apply Hu. apply elem_of_list_fmap. by exists (about n, i).
Qed.
Lemma notify_all_told comps before ns s s' : NoDup comps.*1 -> ninv comps before s -> notify_all up ns s = (true, s') ->
  exists ms, cs_ui s' = cs_ui s ++ ms /\ told_all srcs comps before ns ms.
Proof.
  intros Hd. revert before s. induction ns as [|n ns IH]; intros before s Hi H; cbn in H.
  - injection H as <-. exists []. rewrite app_nil_r. split; [done|constructor].
  - destruct (notify up n s) as [[] s1] eqn:E; [|done]. destruct (notify_step _ _ _ _ _ Hd Hi E) as (m1 & E1 & T1 & I1).
    destruct (IH _ _ I1 H) as (m2 & E2 & T2). exists (m1 ++ m2). rewrite E2, E1, app_assoc. split; [done|]. by econstructor.
Qed.
Lemma told_unique comps before n ms ms' : NoDup comps.*1 -> told srcs comps before n ms -> told srcs comps before n ms' -> ms = ms'.
Proof.
  intros Hd.
  assert (forall u i j, (u, i) ∈ comps -> (u, j) ∈ comps -> i = j) as Hfun.
  { intros u i j H1 H2. clear -Hd H1 H2. induction comps as [|[v k] l IH]; [by apply elem_of_nil in H1|].
    cbn in Hd. apply NoDup_cons in Hd as [Hv Hd]. apply elem_of_cons in H1 as [[= -> ->]|H1]; apply elem_of_cons in H2 as [E2|H2].
    - by injection E2 as ->.
    - destruct Hv. apply elem_of_list_fmap. by exists (v, j).
    - injection E2 as -> ->. destruct Hv. apply elem_of_list_fmap. by exists (v, i).
    - by apply IH. }
  intros H1 H2. destruct H1; inversion H2; subst; unfold source_of in *; try done;
    repeat match goal with
    | A : (?u, ?i) ∈ comps, B : (?u, ?j) ∈ comps |- _ => assert (i = j) as <- by (by eapply Hfun); clear B
    | A : shown ?s ?p, B : shown ?s ?q |- _ => assert (p = q) as <- by (by eapply shown_unique); clear B
    end; try done; try (exfalso; naive_solver).
Qed.
End comp.

(** ** When the interface goes away *)
Section gone.
Context (srcs : nat -> source) (up : list umsg -> bool).
Definition always (_ : list umsg) : bool := true.
(** the operation [f], with the interface as it is and with one that is always there *)
Definition cuts (ui : list umsg) (r rA : bool * cstate) : Prop :=
  (rA.1 = false -> r.1 = false) /\
  (rA.1 = true -> exists ms, cs_ui rA.2 = ui ++ ms /\
    (r = rA /\ (forall a b, ms = a ++ b -> b <> [] -> up (ui ++ a) = true) \/
     exists a b, ms = a ++ b /\ b <> [] /\ up (ui ++ a) = false /\ r.1 = false /\ cs_ui r.2 = ui ++ a /\
       forall a1 a2, a = a1 ++ a2 -> a2 <> [] -> up (ui ++ a1) = true)).
Lemma cuts_same ui s : cs_ui s = ui -> cuts ui (true, s) (true, s).
Proof.
  intros <-. split; [done|]. intros _. exists []. rewrite app_nil_r. split; [done|]. left. split; [done|].
  intros a b E Hb. symmetry in E. apply app_eq_nil in E as [_ ->]. done.
Qed.
Lemma cuts_err ui s s' : cuts ui (false, s) (false, s').
Proof. by split. Qed.
Lemma app_cut (A : Type) (x y a b : list A) : x ++ y = a ++ b ->
  (exists c, x = a ++ c /\ b = c ++ y) \/ exists c, a = x ++ c /\ y = c ++ b /\ c <> [].
Proof.
  revert a. induction x as [|z x IH]; intros a E.
  - destruct a; [left; exists []; done|right; eexists; split; [reflexivity|]; split; [exact E|done]].
  - destruct a as [|w a]; cbn in E; [left; exists (z :: x); cbn; by split|]. injection E as -> E.
    destruct (IH _ E) as [(c & -> & ->)|(c & -> & -> & Hc)]; [left; by exists c|right; by exists c].
Qed.
Lemma cuts_bind ui r rA (g gA : cstate -> bool * cstate) : cuts ui r rA -> (forall s, cuts (cs_ui s) (g s) (gA s)) ->
  cuts ui (match r with (true, s) => g s | (false, s) => (false, s) end) (match rA with (true, s) => gA s | (false, s) => (false, s) end).
Proof.
  intros [H1 H2] Hg. destruct r as [ok s], rA as [okA sA]. cbn in *. destruct okA; [|rewrite H1 by done; apply cuts_err].
  destruct (H2 eq_refl) as (ms & E & [[[= -> ->] Hu]|(a & b & -> & Hb & Hu & -> & Es & Hall)]).
  - destruct (Hg sA) as [G1 G2]. split; [done|]. intros Ht. destruct (G2 Ht) as (ms' & E' & Hcase). exists (ms ++ ms').
    rewrite E', E, app_assoc. split; [done|]. destruct Hcase as [[-> Hu']|(a & b & -> & Hb & Hu' & Hf & Es & Hall)].
    + left. split; [done|]. intros a b Eab Hb. apply app_cut in Eab as [(c & -> & ->)|(c & -> & -> & Hc)].
      * destruct c as [|x c].
        -- specialize (Hu' [] ms'). cbn in Hb. rewrite E in Hu'. rewrite !app_nil_r in Hu'. by apply Hu'.
        -- by apply (Hu a (x :: c)).
      * specialize (Hu' c b eq_refl Hb). rewrite E, <- app_assoc in Hu'. done.
    + right. exists (ms ++ a), b. rewrite app_assoc. split_and!; [done|done| |done| |].
      * by rewrite app_assoc, <- E.
      * by rewrite Es, E, app_assoc.
      * intros a1 a2 Eab Ha. apply app_cut in Eab as [(c & -> & ->)|(c & -> & -> & Hc)].
        -- destruct c as [|x c].
           ++ specialize (Hall [] a eq_refl Ha). rewrite E in Hall. by rewrite !app_nil_r in Hall.
           ++ by apply (Hu a1 (x :: c)).
        -- specialize (Hall c a2 eq_refl Ha). rewrite E, <- app_assoc in Hall. done.
  - split; [done|]. intros Ht. destruct (Hg sA) as [_ G2]. destruct (G2 Ht) as (ms' & E' & _). exists ((a ++ b) ++ ms').
    split; [by rewrite E', E, <- !app_assoc|]. right. exists a, (b ++ ms'). rewrite app_assoc. split_and!; [done| |done|done|done|exact Hall].
    intros Hn. apply app_eq_nil in Hn as [-> _]. done.
Qed.
Lemma cuts_send m s : cuts (cs_ui s) (send up m s) (send always m s).
Proof.
  unfold send, always. split; [done|]. cbn. intros _. exists [m]. split; [done|]. destruct (up (cs_ui s)) eqn:E.
  - left. split; [done|]. intros a b Eab Hb. destruct a as [|x a]; [by rewrite app_nil_r|]. injection Eab as -> Eab.
    symmetry in Eab. apply app_eq_nil in Eab as [_ ->]. done.
  - right. exists [], [m]. rewrite app_nil_r. split_and!; try done. intros a1 a2 Eab Ha. symmetry in Eab. apply app_eq_nil in Eab as [_ ->]. done.
Qed.
Lemma cuts_send_all ms s : cuts (cs_ui s) (send_all up ms s) (send_all always ms s).
Proof.
  revert s. induction ms as [|m ms IH]; intros s; [by apply cuts_same|]. cbn [send_all].
  apply (cuts_bind _ _ _ (send_all up ms) (send_all always ms)); [apply cuts_send|apply IH].
Qed.
Lemma cuts_call_all f l s : cuts (cs_ui s) (call_all up f l s) (call_all always f l s).
Proof.
  revert s. induction l as [|c l IH]; intros s; [by apply cuts_same|]. cbn [call_all].
  apply (cuts_bind _ _ _ (call_all up f l) (call_all always f l)); [apply cuts_send_all|apply IH].
Qed.
Lemma cuts_bind_comp i comp s : cuts (cs_ui s) (bind_compilation_exe srcs up i comp s) (bind_compilation_exe srcs always i comp s).
Proof.
  destruct comp as [u|]; [|by apply cuts_same]. unfold bind_compilation_exe.
  pose proof (cuts_bind (cs_ui s) _ _
    (fun s => (true, add_cbs u (Cbs [] [CbFailure (shown_path (srcs i)) (s_desc (srcs i))] []) (add_cbs u (Cbs [CbStatus (s_path (srcs i))] [CbStatus (s_path (srcs i))] [CbStatus (s_path (srcs i))]) s)))
    (fun s => (true, add_cbs u (Cbs [] [CbFailure (shown_path (srcs i)) (s_desc (srcs i))] []) (add_cbs u (Cbs [CbStatus (s_path (srcs i))] [CbStatus (s_path (srcs i))] [CbStatus (s_path (srcs i))]) s)))
    (cuts_send (UCompilation (s_path (srcs i)) UPending) s)) as H.
  apply H. intros s'. by apply cuts_same.
Qed.
Lemma cuts_do_use x s : cuts (cs_ui s) (do_use srcs up x s) (do_use srcs always x s).
Proof.
  unfold do_use. destruct (prepare srcs (u_src x) (u_prepare_ok x) s) as [[comp|] s1] eqn:E; [|apply cuts_err].
  assert (cs_ui s1 = cs_ui s) as <-.
  { unfold prepare in E. destruct (decide _); [by injection E as _ <-|]. destruct (s_compiled _), (u_prepare_ok x); by injection E as _ <-. }
  destruct (u_kind x); [apply cuts_bind_comp..|]. destruct (u_provide_ok x); [apply cuts_bind_comp|apply cuts_err].
Qed.
Lemma cuts_build xs s : cuts (cs_ui s) (build srcs up xs s) (build srcs always xs s).
Proof.
  revert s. induction xs as [|x xs IH]; intros s; [by apply cuts_same|]. cbn [build].
  apply (cuts_bind _ _ _ (build srcs up xs) (build srcs always xs)); [apply cuts_do_use|apply IH].
Qed.
Lemma cuts_notify n s : cuts (cs_ui s) (notify up n s) (notify always n s).
Proof.
  destruct n as [u w|u r|u]; cbn; destruct (cs_cbs s !! u); try (by apply cuts_same); apply (cuts_call_all _ _ (set_cbs u _ s)).
Qed.
Lemma cuts_notify_all ns s : cuts (cs_ui s) (notify_all up ns s) (notify_all always ns s).
Proof.
  revert s. induction ns as [|n ns IH]; intros s; [by apply cuts_same|]. cbn [notify_all].
  apply (cuts_bind _ _ _ (notify_all up ns) (notify_all always ns)); [apply cuts_notify|apply IH].
Qed.
Lemma cuts_run xs ns : cuts [] (build_and_run srcs up xs ns) (build_and_run srcs always xs ns).
Proof.
  unfold build_and_run. apply (cuts_bind _ _ _ (notify_all up ns) (notify_all always ns)); [apply (cuts_build xs init_cstate)|apply cuts_notify_all].
Qed.
End gone.
