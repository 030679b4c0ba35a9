(** * C100: the compilations are reported, and the failed ones are explained *)
From Verif Require Import CompModel CompSpec CompProofs.

Section props.
Context (srcs : nat -> source).

Lemma notify_keeps up n s s' : notify up n s = (true, s') -> cs_execs s' = cs_execs s.
Proof. destruct n; cbn; destruct (cs_cbs s !! u); intros H; [apply call_all_true in H as ->; done|by injection H as ->|apply call_all_true in H as ->; done|by injection H as ->|apply call_all_true in H as ->; done|by injection H as ->]. Qed.
Lemma notify_all_keeps up ns s s' : notify_all up ns s = (true, s') -> cs_execs s' = cs_execs s.
Proof.
  revert s. induction ns as [|n ns IH]; intros s H; cbn in H; [by injection H as ->|].
  destruct (notify up n s) as [[] s1] eqn:E; [|done]. rewrite (IH _ H). by eapply notify_keeps.
Qed.

(** Whatever the calls that use the source files, in any order and any number of times, and whatever the executor tells:
    each source file that is used and needs it is compiled exactly once, its compilation is announced once, and then the
    interface receives, for each notification about it, what [told] says. *)
Theorem C100_told up xs ns s : build_and_run srcs up xs ns = (true, s) ->
  exists comps ms, NoDup comps.*1 /\ NoDup comps.*2 /\
    (forall i, i ∈ comps.*2 <-> s_compiled (srcs i) = true /\ exists x, x ∈ xs /\ u_src x = i) /\
    cs_execs s = comps.*1 /\
    cs_ui s = map (fun i => UCompilation (s_path (srcs i)) UPending) comps.*2 ++ ms /\
    told_all srcs comps [] ns ms.
Proof.
  unfold build_and_run. destruct (build srcs up xs init_cstate) as [[] s1] eqn:E; [|done]. intros H.
  destruct (build_inv _ _ _ _ _ _ (init_inv srcs) E) as (comps & Hi & Hx). cbn in Hi.
  assert (ninv srcs comps [] s1) as Hn.
  { split; [|apply (bi_none _ _ _ Hi)]. intros u i Hu. rewrite (bi_cbs _ _ _ Hi _ _ Hu). done. }
  destruct (notify_all_told _ _ _ _ _ _ _ (bi_nodup1 _ _ _ Hi) Hn H) as (ms & Eu & T). exists comps, ms. split_and!.
  - apply (bi_nodup1 _ _ _ Hi).
  - apply (bi_nodup2 _ _ _ Hi).
  - intros i. rewrite (bi_in _ _ _ Hi), Hx. cbn. set_solver.
  - rewrite (notify_all_keeps _ _ _ _ H). apply (bi_execs _ _ _ Hi).
  - by rewrite Eu, (bi_ui _ _ _ Hi).
  - done.
Qed.
(** [told_all] leaves no choice. *)
Theorem C100_told_unique comps ns ms ms' : NoDup comps.*1 -> told_all srcs comps [] ns ms -> told_all srcs comps [] ns ms' -> ms = ms'.
Proof.
  intros Hd. generalize (@nil notice) as before. intros before H. revert ms'. induction H as [|before n ns m1 m2 H1 H2 IH]; intros ms' H'; inversion H'; subst; [done|].
  f_equal; [by eapply told_unique|by apply IH].
Qed.

(** A compilation that fails is explained, right after its end, by a diagnostic with the path of the file relative to the
    directory of the task, the description of the file and what the compiler said. *)
Theorem C100_failed comps ms a u r b p i : NoDup comps.*1 -> told_all srcs comps [] (a ++ NDone u r :: b) ms ->
  (u, i) ∈ comps -> (forall r', NDone u r' ∉ a) -> res_status r <> Success -> shown (srcs i) p ->
  exists before after, ms = before ++
    [UCompilation (s_path (srcs i)) (UDone r);
     UDiagnostic ("Failed to compile " +:+ show_path p) (Some (s_desc (srcs i))) (res_stderr r)] ++ after.
Proof.
  intros Hd T Hu Ha Hr Hp.
  assert (forall before ms, told_all srcs comps before (a ++ NDone u r :: b) ms -> (forall r', NDone u r' ∉ before) ->
    exists x y, ms = x ++ [UCompilation (s_path (srcs i)) (UDone r);
     UDiagnostic ("Failed to compile " +:+ show_path p) (Some (s_desc (srcs i))) (res_stderr r)] ++ y) as Hx.
  { clear T ms. induction a as [|n a IH]; intros before ms T Hb; cbn in T; inversion T as [|? ? ? m1 m2 T1 T2]; subst.
    - exists [], m2. cbn. change (?x :: ?y :: m2) with ([x; y] ++ m2). f_equal. eapply told_unique; [exact Hd|exact T1|]. by apply told_failure.
    - destruct (IH (fun r' Hin => Ha r' ltac:(by constructor)) _ _ T2) as (x & y & ->).
      + intros r' Hin. apply elem_of_app in Hin as [Hin|Hin]; [by eapply Hb|]. apply elem_of_list_singleton in Hin as <-. apply (Ha r'). constructor.
      + exists (m1 ++ x), y. by rewrite app_assoc. }
  apply (Hx _ _ T). intros r' Hin. by apply elem_of_nil in Hin.
Qed.
(** Nothing is blamed if no compilation fails. *)
Theorem C100_no_blame up xs ns s t note att : build_and_run srcs up xs ns = (true, s) ->
  UDiagnostic t note att ∈ cs_ui s -> exists u r, NDone u r ∈ ns /\ u ∈ cs_execs s /\ res_status r <> Success /\ att = res_stderr r.
Proof.
  intros H Hin. destruct (C100_told _ _ _ _ H) as (comps & ms & Hd & _ & _ & He & Es & T). rewrite Es in Hin.
  apply elem_of_app in Hin as [Hin|Hin]; [apply elem_of_list_In, in_map_iff in Hin as (? & ? & _); done|].
  rewrite He. clear Es H He. revert Hin. induction T as [|before n ns m1 m2 T1 T2 IH]; intros Hin; [by apply elem_of_nil in Hin|].
  apply elem_of_app in Hin as [Hin|Hin]; [|destruct (IH Hin) as (u & r & ? & ?); exists u, r; split; [by constructor|done]].
  destruct T1; repeat (apply elem_of_cons in Hin as [Hin|Hin]; try done); try by apply elem_of_nil in Hin.
  injection Hin as -> -> ->. exists u, r. split_and!; [constructor|apply elem_of_list_fmap; by exists (u, i)|done|done].
Qed.
(** The path in the message is the one inside the directory of the task. *)
Theorem C100_relative s rel : s_path s = s_base s ++ rel -> forall p, shown s p <-> p = rel.
Proof.
  intros E p. split; [intros [H|[_ H]]|intros ->].
  - rewrite E in H. by apply app_inv_head in H.
  - by destruct (H rel).
  - by left.
Qed.
(** If the interface goes away, everything it received is the beginning of what it would have received, and the program
    stops at the first message that cannot be sent. *)
Theorem C100_gone up xs ns full : build_and_run srcs (fun _ => true) xs ns = (true, full) ->
  let r := build_and_run srcs up xs ns in
  r = (true, full) /\ (forall a b, cs_ui full = a ++ b -> b <> [] -> up a = true) \/
  exists a b, cs_ui full = a ++ b /\ b <> [] /\ up a = false /\ r.1 = false /\ cs_ui r.2 = a /\
    forall a1 a2, a = a1 ++ a2 -> a2 <> [] -> up a1 = true.
Proof.
  intros H r. destruct (cuts_run srcs up xs ns) as [_ Hc].
  change (build_and_run srcs always xs ns) with (build_and_run srcs (fun _ => true) xs ns) in Hc. rewrite H in Hc.
  destruct (Hc eq_refl) as (ms & Em & [[E Hu]|(a & b & -> & ?)]); cbn in Em; rewrite Em in *; [by left|]. right. by exists a, b.
Qed.
(** How a path is written *)
Theorem C100_shown p : show_path p = String.concat "/" p.
Proof. induction p as [|x p IH]; [done|]. cbn. destruct p; [done|]. by rewrite IH. Qed.
End props.

(** An example: a checker that does not compile, used twice, and a script *)
Definition ex_srcs (i : nat) : source :=
  match i with
  | 0 => Source [""; "task"; "check"; "checker.cpp"] [""; "task"] "Checker" true
  | _ => Source [""; "task"; "sol"; "a.py"] [""; "task"] "Solution" false
  end.
Definition ex_res : exec_result := ExecResult (ReturnCode 1) false false (Resources 0 0 0 0) None (Some [101%N]).
Example ex_run : let r := build_and_run ex_srcs (fun _ => true)
    [Use 0 KExecute true true; Use 1 KExecute true true; Use 0 KExecutable true true]
    [NStart 1 7%positive; NDone 1 ex_res; NSkip 2] in
  r.1 = true /\ cs_execs r.2 = [1%positive] /\ cs_ui r.2 =
    [UCompilation [""; "task"; "check"; "checker.cpp"] UPending;
     UCompilation [""; "task"; "check"; "checker.cpp"] (UStarted 7%positive);
     UCompilation [""; "task"; "check"; "checker.cpp"] (UDone ex_res);
     UDiagnostic "Failed to compile check/checker.cpp" (Some "Checker") (Some [101%N])].
Proof. vm_compute. done. Qed.

Print Assumptions C100_told.
Print Assumptions C100_told_unique.
Print Assumptions C100_failed.
Print Assumptions C100_no_blame.
Print Assumptions C100_relative.
Print Assumptions C100_gone.
Print Assumptions C100_shown.
