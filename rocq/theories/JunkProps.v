(** * JunkProps: property C95, the checker is tried on files of junk *)
From stdpp Require Import base list gmap.
From Verif Require Import JunkModel JunkSpec.
Local Open Scope nat_scope.

Lemma is_zero_spec x : f64_eq x f64_zero = true <-> is_zero x.
Proof.
  unfold f64_eq, f64_zero, is_zero, SFeqb. destruct x as [[]|[]| |[] m e]; vm_compute; split; intros H; try done; try (by left); try (by right); try (by destruct H).
Qed.

Lemma sublist_nodup {A} (l k : list A) : l `sublist_of` k -> NoDup k -> NoDup l.
Proof.
  induction 1 as [|x l k H IH|x l k H IH]; intros Hn; [done| |apply IH; by inversion Hn].
  apply NoDup_cons in Hn as [Hx Hn]. constructor; [|by apply IH]. intros Hin. apply Hx. eapply elem_of_submseteq; [exact Hin|]. by apply sublist_submseteq.
Qed.

(** C95 (IOI): only a checker of the user is tried, and on one testcase whose files are there: once on each file of junk. *)
Theorem C95_tried : forall k cases,
  (junk_plan k cases <> [] <-> k = KBatch CustomChecker /\ Exists has_files cases) /\
  (junk_plan k cases <> [] -> exists c, c ∈ cases /\
     Forall2 (fun j x => jk_name x = j.1 /\ jk_content x = j.2 /\ jc_input c = Some (jk_input x) /\ jc_output c = Some (jk_official x)) junk_outputs (junk_plan k cases)).
Proof.
  intros k cases.
  assert (HE : forall c, find (fun c => bool_decide (is_Some (jc_input c)) && bool_decide (is_Some (jc_output c))) cases = Some c -> c ∈ cases /\ has_files c).
  { intros c Hf. apply find_some in Hf as [Hin%elem_of_list_In Hb]. apply andb_true_iff in Hb as [H1%bool_decide_eq_true H2%bool_decide_eq_true]. by split. }
  unfold junk_plan. destruct k as [[]|]; try (split; [split; [done|by intros [Hk _]]|done]).
  destruct (find _ cases) as [c|] eqn:Hf.
  - destruct (HE c eq_refl) as [Hin [[i Hi] [o Ho]]]. rewrite Hi, Ho. split.
    + split; [|done]. intros _. split; [done|]. apply Exists_exists. exists c. split; [done|]. split; by eexists.
    + intros _. exists c. split; [done|]. apply Forall2_fmap_r. apply Forall_Forall2_diag, Forall_true. intros j. cbn. done.
  - split; [|done]. split; [done|]. intros [_ (c & Hin & [H1 H2])%Exists_exists]. exfalso.
    apply find_none with (x := c) in Hf; [|by apply elem_of_list_In]. cbn in Hf. rewrite !bool_decide_eq_true_2 in Hf; done.
Qed.
Print Assumptions C95_tried.
(** The files of junk are not the same file *)
Theorem C95_four : NoDup junk_outputs.*1 /\ NoDup junk_outputs.*2 /\ length junk_outputs = 4 /\ Forall (fun j => Forall (fun b => (b < 256)%N) j.2) junk_outputs.
Proof.
  split; [apply (bool_decide_unpack _); vm_compute; exact Logic.I|].
  split; [apply (bool_decide_unpack _); vm_compute; exact Logic.I|].
  split; [done|apply (bool_decide_unpack _); vm_compute; exact Logic.I].
Qed.
Print Assumptions C95_four.

Section verdicts.
  Context (parse : list N -> option f64) (text : list N -> string).
  Lemma junk_done_total x r : kept r -> exists d, junk_done parse text x r = Some d /\ (d = [] \/ exists e, d = [e] /\ about e = jk_name x) /\
    (did_wrong parse r <-> d <> []).
  Proof.
    intros [[out Ho] [er He]]. unfold junk_done. rewrite Ho, He. cbn. destruct (is_success (res_status r)) eqn:Hs.
    - destruct (res_status r) eqn:Hst; try done. destruct (parse out) as [sc0|] eqn:Hp.
      + destruct (f64_eq sc0 f64_zero) eqn:Hz; cbn.
        * exists []. split; [done|]. split; [by left|]. split; [|done]. intros [Hx|out' Ho' Hp'|out' x' Ho' Hp' Hn]; [by rewrite Hst in Hx|by simplify_eq|].
          simplify_eq. by apply is_zero_spec in Hz.
        * eexists. split; [done|]. split; [right; by eexists|]. split; [done|]. intros _. eapply WPoints; [done|done|]. intros Hn%is_zero_spec; congruence.
      + eexists. split; [done|]. split; [right; by eexists|]. split; [done|]. intros _. by eapply WNoNumber.
    - eexists. split; [done|]. split; [right; by eexists|]. split; [done|]. intros _. apply WCrash. intros Hx. by rewrite Hx in Hs.
  Qed.
  Lemma junk_run_spec l : Forall (fun x => forall r, x.2 = Some r -> kept r) l -> exists ds, junk_run parse text l = Some ds /\
    (forall d, d ∈ ds <-> exists x r e, (x, Some r) ∈ l /\ junk_done parse text x r = Some e /\ d ∈ e) /\
    about <$> ds `sublist_of` jk_name <$> l.*1.
  Proof.
    induction l as [|[x [r|]] l IH]; intros Hk; cbn.
    - exists []. split; [done|]. split; [|done]. intros d. split; [by intros ?%elem_of_nil|]. intros (x & r & e & Hin & _). by apply elem_of_nil in Hin.
    - apply Forall_cons in Hk as [Hr Hk]. destruct (IH Hk) as (ds & Hds & Hspec & Hsub). destruct (junk_done_total x r (Hr r eq_refl)) as (d & Hd & Hshape & _).
      rewrite Hd, Hds. cbn. exists (d ++ ds). split; [done|]. split.
      + intros e. rewrite elem_of_app. split.
        * intros [Hin|Hin]; [exists x, r, d; split; [left|done]|]. apply Hspec in Hin as (x' & r' & e' & H1 & H2 & H3). exists x', r', e'. split; [by right|done].
        * intros (x' & r' & e' & [Heq|Hin]%elem_of_cons & H2 & H3); [simplify_eq; by left|]. right. apply Hspec. by exists x', r', e'.
      + destruct Hshape as [->|(e & -> & He)]; cbn; [by apply sublist_cons|]. rewrite He. by apply sublist_skip.
    - apply Forall_cons in Hk as [_ Hk]. destruct (IH Hk) as (ds & Hds & Hspec & Hsub). exists ds. split; [done|]. split; [|by apply sublist_cons].
      intros d. rewrite Hspec. split; intros (x' & r' & e' & H1 & H2 & H3); exists x', r', e'; (split; [|done]); [by right|]. by apply elem_of_cons in H1 as [?|?].
  Qed.

  (** C95 (IOI): whatever the order in which the executions end, there is exactly one error about a file of junk if the checker
      was run on it and did wrong, and none otherwise. *)
  Theorem C95_reported : forall k cases l, l.*1 ≡ₚ junk_plan k cases -> (forall x r, (x, Some r) ∈ l -> kept r) ->
    exists ds, junk_run parse text l = Some ds /\ NoDup (about <$> ds) /\
      forall n, n ∈ about <$> ds <-> exists x r, (x, Some r) ∈ l /\ jk_name x = n /\ did_wrong parse r.
  Proof.
    intros k cases l Hl Hk. destruct (junk_run_spec l) as (ds & Hds & Hspec & Hsub).
    { apply Forall_forall. intros [x r] Hin r' Hr. cbn in Hr. subst. by eapply Hk. }
    exists ds. split; [done|]. split.
    - eapply sublist_nodup; [exact Hsub|]. rewrite Hl. destruct (C95_tried k cases) as [_ H]. destruct (decide (junk_plan k cases = [])) as [->|Hne]; [constructor|].
      destruct (H Hne) as (c & _ & HF). replace (jk_name <$> junk_plan k cases) with (junk_outputs.*1); [apply C95_four|].
      clear -HF. induction HF as [|j x js xs [Hj _] _ IH]; [done|]. cbn. by rewrite IH, Hj.
    - intros n. rewrite elem_of_list_fmap. split.
      + intros (d & -> & (x & r & e & H1 & H2 & H3)%Hspec). exists x, r. split; [done|]. destruct (junk_done_total x r (Hk _ _ H1)) as (e' & H2' & Hsh & Hw). simplify_eq.
        destruct Hsh as [->|(e' & -> & He')]; [by apply elem_of_nil in H3|]. apply elem_of_list_singleton in H3 as ->. split; [done|]. by apply Hw.
      + intros (x & r & H1 & <- & Hw). destruct (junk_done_total x r (Hk _ _ H1)) as (e & He & [->|(d & -> & Hd)] & Hw'); [by apply Hw' in Hw|].
        exists d. split; [done|]. apply Hspec. exists x, r, [d]. split; [done|]. split; [done|left].
  Qed.
  (** C95: what the errors say is what happened *)
  Theorem C95_faithful : forall l ds d, junk_run parse text l = Some ds -> d ∈ ds -> exists x r, (x, Some r) ∈ l /\
    match d with
    | JCrashed n s er => n = jk_name x /\ s = res_status r /\ s <> Success /\ res_stderr r = Some er
    | JInvalid n out => n = jk_name x /\ res_status r = Success /\ res_stdout r = Some out /\ parse out = None
    | JScored n x0 m => n = jk_name x /\ res_status r = Success /\ ~ is_zero x0 /\ exists out er, res_stdout r = Some out /\ parse out = Some x0 /\
                        res_stderr r = Some er /\ m = translate (text er)
    end.
  Proof.
    induction l as [|[x [r|]] l IH]; intros ds d Hds Hin; cbn in Hds.
    - simplify_eq. by apply elem_of_nil in Hin.
    - apply bind_Some in Hds as (e & He & (ds' & Hds' & [= <-])%bind_Some). apply elem_of_app in Hin as [Hin|Hin].
      + exists x, r. split; [left|]. unfold junk_done in He. apply bind_Some in He as (out & Ho & (er & Her & He)%bind_Some).
        destruct (is_success (res_status r)) eqn:Hs.
        * destruct (res_status r) eqn:Hst; try done. destruct (parse out) as [x0|] eqn:Hp.
          -- destruct (f64_eq x0 f64_zero) eqn:Hz; cbn in He; simplify_eq; [by apply elem_of_nil in Hin|]. apply elem_of_list_singleton in Hin as ->.
             do 2 (split; [done|]). split; [intros Hn%is_zero_spec; congruence|]. by exists out, er.
          -- simplify_eq. apply elem_of_list_singleton in Hin as ->. done.
        * simplify_eq. apply elem_of_list_singleton in Hin as ->. do 2 (split; [done|]). split; [|done]. intros Hx. by rewrite Hx in Hs.
      + destruct (IH _ _ Hds' Hin) as (x' & r' & Hin' & H). exists x', r'. split; [by right|done].
    - destruct (IH _ _ Hds Hin) as (x' & r' & Hin' & H). exists x', r'. split; [by right|done].
  Qed.
End verdicts.
Print Assumptions C95_reported.
Print Assumptions C95_faithful.

(** C95 (IOI): whether the checker is tried does not depend on the order of the testcases (of a hash map)... *)
Theorem C95_any_order : forall k cases cases', cases ≡ₚ cases' -> junk_plan k cases = [] <-> junk_plan k cases' = [].
Proof.
  intros k cases cases' HP. destruct (C95_tried k cases) as [[H1 H1'] _], (C95_tried k cases') as [[H2 H2'] _].
  assert (HE : Exists has_files cases <-> Exists has_files cases') by (rewrite !Exists_exists; by setoid_rewrite HP).
  split; intros Hn; apply dec_stable; intros Hx.
  - apply H2 in Hx as [Hk Hx]. apply H1'; [by split; [|apply HE]|done].
  - apply H1 in Hx as [Hk Hx]. apply H2'; [by split; [|apply HE]|done].
Qed.
Print Assumptions C95_any_order.
(** ... but what is reported does: with the same checker (a function of the files it reads) the same task may have an error or none. *)
Definition no_resources : resources := Resources 0 0 0 0.
Definition one_checker (k : junk_check) : exec_result :=
  ExecResult (if decide (jk_input k = 1%positive) then ReturnCode 1 else Success) false false no_resources (Some []) (Some []).
Definition case_a : junk_case := JunkCase 0 (Some 1%positive) (Some 2%positive).
Definition case_b : junk_case := JunkCase 1 (Some 3%positive) (Some 4%positive).
Definition outcome_of (cases : list junk_case) : option (list junk_diag) :=
  junk_run (fun _ => Some f64_zero) (fun _ => "") ((fun k => (k, Some (one_checker k))) <$> junk_plan (KBatch CustomChecker) cases).
Theorem C95_same_verdict_refuted : exists cases cases', cases ≡ₚ cases' /\ outcome_of cases = Some [] /\ exists d ds, outcome_of cases' = Some (d :: ds).
Proof.
  exists [case_b; case_a], [case_a; case_b]. split; [by constructor|]. split; [by vm_compute|]. by vm_compute; eauto.
Qed.
Print Assumptions C95_same_verdict_refuted.

(** ** Terry *)
Section terry.
  Context {outcome : Type} (from_json : list N -> outcome + string).
  Lemma bad_done_spec n r ds : bad_done from_json n r = Some ds ->
    (forall d, d ∈ ds -> bad_about d = Some n) /\
    (no_outcome from_json r <-> exists e, BOutcome n e ∈ ds) /\ (res_status r <> Success <-> exists s er, BCrashed n s er ∈ ds) /\ length ds <= 2.
  Proof.
    intros (out & Ho & [= <-])%bind_Some. 
    assert (Hs : is_success (res_status r) = true <-> res_status r = Success) by (destruct (res_status r); split; done).
    unfold no_outcome. rewrite Ho. destruct (from_json out) as [o|e] eqn:He; destruct (is_success (res_status r)) eqn:Hx; cbn.
    - split; [by intros ? ?%elem_of_nil|]. split; [split; [intros (? & ? & [= <-] & ?); congruence|by intros [? ?%elem_of_nil]]|].
      split; [|lia]. split; [intros Hn; destruct Hn; by apply Hs|by intros (? & ? & ?%elem_of_nil)].
    - split; [intros ? Hd; by apply elem_of_list_singleton in Hd as ->|]. split; [split; [intros (? & ? & [= <-] & ?); congruence|by intros [? ?%elem_of_list_singleton]]|].
      split; [|lia]. split; [intros _; do 2 eexists; left|intros _ Hn; apply Hs in Hn; congruence].
    - split; [intros ? Hd; by apply elem_of_list_singleton in Hd as ->|]. split; [split; [intros _; eexists; left|intros _; by exists out, e]|].
      split; [|lia]. split; [intros Hn; destruct Hn; by apply Hs|by intros (? & ? & ?%elem_of_list_singleton)].
    - split; [intros ? [->|Hd]%elem_of_cons; [done|by apply elem_of_list_singleton in Hd as ->]|]. split; [split; [intros _; eexists; left|intros _; by exists out, e]|].
      split; [|lia]. split; [intros _; do 2 eexists; right; left|intros _ Hn; apply Hs in Hn; congruence].
  Qed.
  (** C95 (Terry): there is an error about a bad output exactly if the checker was run on it and crashed, or did not print an
      outcome; an error for each of the two. *)
  Theorem C95_bad_output : forall l ds, bad_run from_json l = Some ds ->
    (forall n, (exists e, BOutcome n e ∈ ds) <-> exists r, EChecked n (Some r) ∈ l /\ no_outcome from_json r) /\
    (forall n, (exists s er, BCrashed n s er ∈ ds) <-> exists r, EChecked n (Some r) ∈ l /\ res_status r <> Success) /\
    (forall s er, BGenerator s er ∈ ds <-> exists r, EGenerated r ∈ l /\ res_status r <> Success /\ s = res_status r /\ er = res_stderr r).
  Proof.
    intros l ds (dss & Hm & ->)%fmap_Some. apply mapM_Some_1 in Hm.
    induction Hm as [|ev d l dss Hev Hm (IH1 & IH2 & IH3)]; cbn.
    { split; [|split]; intros; split.
      - by intros [? ?%elem_of_nil]. - by intros (? & ?%elem_of_nil & _). - by intros (? & ? & ?%elem_of_nil). - by intros (? & ?%elem_of_nil & _).
      - by intros ?%elem_of_nil. - by intros (? & ?%elem_of_nil & _). }
    assert (H : (forall n, (exists e, BOutcome n e ∈ d) <-> exists r, ev = EChecked n (Some r) /\ no_outcome from_json r) /\
                (forall n, (exists s er, BCrashed n s er ∈ d) <-> exists r, ev = EChecked n (Some r) /\ res_status r <> Success) /\
                (forall s er, BGenerator s er ∈ d <-> exists r, ev = EGenerated r /\ res_status r <> Success /\ s = res_status r /\ er = res_stderr r)).
    { destruct ev as [r|n [r|]]; cbn in Hev.
      - simplify_eq. unfold bad_generated. assert (Hs : is_success (res_status r) = true <-> res_status r = Success) by (destruct (res_status r); split; done).
        destruct (is_success (res_status r)).
        + split; [|split]; intros; split.
          * by intros [? ?%elem_of_nil]. * by intros (? & ? & _). * by intros (? & ? & ?%elem_of_nil). * by intros (? & ? & _).
          * by intros ?%elem_of_nil. * intros (? & [= <-] & Hn & _). by destruct Hn; apply Hs.
        + split; [|split]; intros; split.
          * by intros [? ?%elem_of_list_singleton]. * by intros (? & ? & _). * by intros (? & ? & ?%elem_of_list_singleton). * by intros (? & ? & _).
          * intros [= -> ->]%elem_of_list_singleton. exists r. split; [done|]. split; [by intros ?%Hs|done].
          * intros (? & [= <-] & Hn & -> & ->). left.
      - destruct (bad_done_spec n r d Hev) as (Ha & Ho & Hc & _). split; [|split].
        + intros n'. split.
          * intros [e He]. pose proof (Ha _ He) as [= <-]. exists r. split; [done|]. apply Ho. by eexists.
          * intros (? & [= <- <-] & Hn). by apply Ho.
        + intros n'. split.
          * intros (s & er & He). pose proof (Ha _ He) as [= <-]. exists r. split; [done|]. apply Hc. by do 2 eexists.
          * intros (? & [= <- <-] & Hn). by apply Hc.
        + intros s er. split; [by intros ?%Ha|by intros (? & ? & _)].
      - simplify_eq. split; [|split]; intros; split.
        * by intros [? ?%elem_of_nil]. * by intros (? & ? & _). * by intros (? & ? & ?%elem_of_nil). * by intros (? & ? & _).
        * by intros ?%elem_of_nil. * by intros (? & ? & _). }
    destruct H as (H1 & H2 & H3). split; [|split].
    - intros n. transitivity ((exists e, BOutcome n e ∈ d) \/ (exists e, BOutcome n e ∈ concat dss)).
      { setoid_rewrite elem_of_app. naive_solver. }
      rewrite H1, IH1. setoid_rewrite elem_of_cons. naive_solver.
    - intros n. transitivity ((exists s er, BCrashed n s er ∈ d) \/ (exists s er, BCrashed n s er ∈ concat dss)).
      { setoid_rewrite elem_of_app. naive_solver. }
      rewrite H2, IH2. setoid_rewrite elem_of_cons. naive_solver.
    - intros s er. rewrite elem_of_app, H3, IH3. setoid_rewrite elem_of_cons. naive_solver.
  Qed.
  (** The run ends well if the standard output of the checker was kept *)
  Theorem C95_bad_total : forall l, (forall n r, EChecked n (Some r) ∈ l -> is_Some (res_stdout r)) -> is_Some (bad_run from_json l).
  Proof.
    intros l H. unfold bad_run. apply fmap_is_Some, mapM_is_Some, Forall_forall. intros [r|n [r|]] Hin; cbn; [by eexists| |by eexists].
    destruct (H n r Hin) as [out Ho]. unfold bad_done. rewrite Ho. by eexists.
  Qed.
  (** A checker that crashes before it prints is reported twice *)
  Theorem C95_once_refuted : forall n r, res_status r <> Success -> no_outcome from_json r ->
    exists e s er, bad_run from_json [EChecked n (Some r)] = Some [BOutcome n e; BCrashed n s er].
  Proof.
    intros n r Hs (out & e & Ho & He). unfold bad_run. cbn. unfold bad_done. rewrite Ho. cbn. rewrite He. destruct (res_status r) eqn:Hst; try done; cbn; by do 3 eexists.
  Qed.
End terry.
Print Assumptions C95_bad_output.
Print Assumptions C95_bad_total.
Print Assumptions C95_once_refuted.

(** A checker that gives 0 to the empty file, half a point to all the bytes, crashes on the ASCII and is not run on the last *)
Definition ex_res (s : status) (out : list N) : exec_result := ExecResult s false false no_resources (Some out) (Some []).
Definition ex_parse (o : list N) : option f64 := match o with [48%N] => Some f64_zero | [] => None | _ => Some f64_one end.
Example C95_example :
  junk_run ex_parse (fun _ => "translate:partial")
    (zip (junk_plan (KBatch CustomChecker) [JunkCase 0 (Some 1%positive) None; case_b])
       [Some (ex_res Success [48%N]); Some (ex_res Success [49%N]); Some (ex_res (ReturnCode 3) []); None])
  = Some [JScored "bytes from 0 to 255" f64_one "Output is partially correct"; JCrashed "ASCII from 32 to 127" (ReturnCode 3) []].
Proof. by vm_compute. Qed.
Example C95_example_terry :
  bad_run (fun o : list N => match o with [] => inr "EOF" | _ => inl tt end)
    [EGenerated (ex_res Success []); EChecked "a.txt" (Some (ex_res Success [123%N])); EChecked "b.txt" (Some (ex_res (ReturnCode 1) [])); EChecked "c.txt" None]
  = Some [BOutcome "b.txt" "EOF"; BCrashed "b.txt" (ReturnCode 1) (Some [])].
Proof. by vm_compute. Qed.
