(** * RunnerProps: C102 *)
From Verif Require Import RunnerSpec.

Section props.
  Context {conf : Type} (enc_conf : conf -> bytes) (dec_conf : bytes -> option conf).
  Context (enc_raw : raw -> bytes) (dec_raw : bytes -> option raw).
  Context (debug : error -> string) (lossy : bytes -> string).
  Notation program := (main_sandbox dec_conf enc_raw debug).
  Notation run := (runner enc_conf dec_raw lossy).

  (** A measure reaches the worker exactly when everything worked, and then it is the one that tabox made of this very
      configuration; in all the other cases, whatever happens to the child, the worker gets an error. *)
  Theorem C102_measure : forall tabox c m, json_ok enc_conf dec_conf enc_raw dec_raw ->
    faithful enc_conf (program tabox) c m ->
    (forall r, run c m = RawSuccess r <-> works m /\ tabox c = TbDone r) /\
    ((~ works m \/ forall r, tabox c <> TbDone r) <-> exists e, run c m = RawError e).
  Proof.
    intros tabox c m [Hc Hr] Hf.
    assert (H : run c m = match m_spawn m with
      | None => RawError "Cannot spawn the sandbox"
      | Some p => if m_stdin m then if m_write m then
          match m_wait m with
          | None => RawError "Failed to wait for the process"
          | Some ce => if ce_success ce then
              match tabox c with
              | TbDone r => RawSuccess r
              | TbCreateFails e => RawError ("Error: " ++ debug ["Failed to create sandbox"; e])
              | TbWaitFails e => RawError ("Error: " ++ debug ["Failed to wait sandbox"; e])
              end
            else RawError ("Sandbox process failed: " ++ ce_text ce ++ newline ++ lossy (ce_stderr ce))
          end else RawError "Failed to write config to stdin" else RawError "Failed to open stdin" end).
    { unfold runner, tools_sandbox_internal. destruct (m_spawn m) as [p|]; [|done]. destruct (m_stdin m); [|done].
      destruct (m_write m); [|done]. destruct (m_wait m) as [ce|] eqn:Ew; [|done]. simpl.
      destruct (ce_success ce) eqn:Es; [|done]. rewrite (Hf ce Ew Es). unfold main_sandbox, run_sandbox. rewrite Hc.
      destruct (tabox c); by rewrite Hr. }
    assert (Hiff : forall r, run c m = RawSuccess r <-> works m /\ tabox c = TbDone r).
    { intros r. rewrite H. unfold works. split.
      - destruct (m_spawn m); [|done]. destruct (m_stdin m); [|done]. destruct (m_write m); [|done].
        destruct (m_wait m) as [ce|]; [|done]. destruct (ce_success ce) eqn:Es; [|done]. destruct (tabox c); try done.
        intros [= ->]. split; [|done]. split; [eauto|]. split; [done|]. split; [done|]. eauto.
      - intros [([p ->]&->&->&ce&->&->) ->]. done. }
    split; [done|]. split.
    - intros Hno. destruct (run c m) as [r|e] eqn:E; [|eauto]. destruct (proj1 (Hiff r) eq_refl) as [Hw Ht].
      destruct Hno as [Hno|Hno]; [done|by destruct (Hno r)].
    - intros [e He]. destruct (run c m) as [r|e'] eqn:E; [done|]. clear He.
      destruct (tabox c) as [x|x|r] eqn:Et; [right; congruence..|].
      left. intros Hw. pose proof (proj2 (Hiff r) (conj Hw eq_refl)). done.
  Qed.

  (** Even if the child does not follow its program: a measure is what the child printed, and it got the whole
      configuration and ended well; the pid is published before the configuration is sent, hence before the
      program of the execution can start. *)
  Theorem C102_protocol : forall c m,
    (forall r, run c m = RawSuccess r -> exists p ce, m_spawn m = Some p /\ m_wait m = Some ce /\ ce_success ce = true /\
       dec_raw (ce_stdout ce) = Some (RawSuccess r) /\
       (tools_sandbox_internal enc_conf dec_raw lossy c m).1 = [PSpawn p; PPublish p; PWrite (enc_conf c); PWait]) /\
    (forall b ev1 ev2, (tools_sandbox_internal enc_conf dec_raw lossy c m).1 = ev1 ++ PWrite b :: ev2 ->
       b = enc_conf c /\ exists p, m_spawn m = Some p /\ PPublish p ∈ ev1) /\
    (forall p, PPublish p ∈ (tools_sandbox_internal enc_conf dec_raw lossy c m).1 <-> m_spawn m = Some p).
  Proof.
    intros c m. unfold runner, tools_sandbox_internal. destruct (m_spawn m) as [p|].
    2: { split; [done|]. split; [by intros b [] ev2|]. intros p. split; [by intros ?%elem_of_nil|done]. }
    assert (Hp : forall (ev : list pevent) (r : raw + error), (forall q, PPublish q ∈ ev <-> q = p) -> (forall q, PPublish q ∈ (ev, r).1 <-> Some p = Some q)).
    { intros ev r H q. rewrite H. split; [by intros ->|by intros [= ->]]. }
    assert (H2 : forall q, PPublish q ∈ [PSpawn p; PPublish p] <-> q = p).
    { intros q. rewrite !elem_of_cons, elem_of_nil. naive_solver. }
    assert (H4 : forall q, PPublish q ∈ [PSpawn p; PPublish p] ++ [PWrite (enc_conf c); PWait] <-> q = p).
    { intros q. rewrite elem_of_app, H2, !elem_of_cons, elem_of_nil. naive_solver. }
    assert (W2 : forall b ev1 ev2, [PSpawn p; PPublish p] = ev1 ++ PWrite b :: ev2 -> False).
    { intros b [|? [|? [|? ?]]] ev2; simpl; congruence. }
    assert (W4 : forall b ev1 ev2, [PSpawn p; PPublish p] ++ [PWrite (enc_conf c); PWait] = ev1 ++ PWrite b :: ev2 ->
       b = enc_conf c /\ exists p', Some p = Some p' /\ PPublish p' ∈ ev1).
    { intros b [|? [|? [|? [|? [|? ?]]]]] ev2; simpl; intros [=]; subst; try done. split; [done|]. exists p. split; [done|]. right. left. }
    destruct (m_stdin m); [|split; [done|split; [by intros ? ? ? ?%W2|by apply Hp]]].
    destruct (m_write m); [|split; [done|split; [by intros ? ? ? ?%W2|by apply Hp]]].
    destruct (m_wait m) as [ce|]; [|split; [done|split; [exact W4|by apply Hp]]].
    destruct (ce_success ce) eqn:Es; [|split; [done|split; [exact W4|by apply Hp]]].
    destruct (dec_raw (ce_stdout ce)) as [r|] eqn:Ed; (split; [|split; [exact W4|by apply Hp]]); [|done].
    simpl. intros r' ->. eauto 10.
  Qed.

  Lemma exec_status_success e r : exec_status e 0 None r = Success <-> within_limits e r.
  Proof.
    unfold exec_status, within_limits, exceeds. split.
    - intros H. repeat (match type of H with (if ?b then _ else _) = _ => destruct b eqn:?; [done|] end).
      repeat split; intros l Hl; rewrite Hl in *; apply Z.nlt_ge; by eapply bool_decide_eq_false_1.
    - intros (H1&H2&H3&H4).
      assert (G : forall o x, (forall l, o = Some l -> (x <= l)%Z) -> match o with Some l => bool_decide (l < x)%Z | None => false end = false).
      { intros [l|] x H; [|done]. apply bool_decide_eq_false_2, Z.nlt_ge. by apply H. }
      by rewrite !G.
  Qed.

  (** The result of the execution of a job: what tabox measured, or an internal error (which is never cached and never
      blamed on the solution) if any step failed. *)
  Theorem C102_result : forall e built keep saved m lo tabox, json_ok enc_conf dec_conf enc_raw dec_raw ->
    (forall c, faithful enc_conf (program tabox) c m) ->
    let res := execution_result e built keep saved (fun c => run c m) lo in
    (forall c r, built = inl c -> works m -> tabox c = TbDone r -> (keep = true -> saved = true) -> readable e lo ->
       res_resources res = usage r /\
       (res_was_killed res = true <-> tb_stat r = TbKilled) /\
       (res_status res = Success <-> tb_stat r = TbExitCode 0 /\ within_limits e (usage r)) /\
       (within_limits e (usage r) ->
          (forall x, x <> 0%Z -> tb_stat r = TbExitCode x -> res_status res = ReturnCode x) /\
          (forall x n, tb_stat r = TbSignal x (Some n) -> res_status res = Signal x n) /\
          (tb_stat r = TbKilled -> res_status res = Signal 9 "Killed by sandbox"))) /\
    (((exists b, built = inr b) \/ ~ works m \/ (keep = true /\ saved = false) \/
      (exists c, built = inl c /\ forall r, tabox c <> TbDone r) \/ ~ readable e lo) ->
      is_internal_error (res_status res) = true /\ res_status res <> Success).
  Proof.
    intros e built keep saved m lo tabox Hj Hf res. split.
    - intros c r -> Hw Ht Hk [Ho He]. pose proof (proj2 (proj1 (C102_measure tabox c m Hj (Hf c)) r) (conj Hw Ht)) as Hrun.
      unfold res, execution_result, sandbox_run. rewrite Hrun.
      replace (keep && negb saved) with false by (destruct keep, saved; naive_solver).
      unfold compute_execution_result. fold (usage r).
      destruct (capture_stream (lo_stdout lo) (e_capture_stdout e)); [|done].
      destruct (capture_stream (lo_stderr lo) (e_capture_stderr e)); [|done].
      assert (Hin : forall code sig, within_limits e (usage r) -> exec_status e code sig (usage r) =
        match sig with Some (s, n) => Signal s n | None => if bool_decide (code <> 0%Z) then ReturnCode code else Success end).
      { intros code sig. rewrite <- (exec_status_success e (usage r)). unfold exec_status. intros H.
        repeat (match type of H with (if ?b then _ else _) = _ => destruct b eqn:?; [done|] end). done. }
      assert (Hsucc : forall code sig, exec_status e code sig (usage r) = Success -> code = 0%Z /\ sig = None /\ within_limits e (usage r)).
      { intros code sig H. pose proof H as H'. unfold exec_status in H'.
        repeat (match type of H' with (if ?b then _ else _) = _ => destruct b eqn:?; [done|] end).
        destruct sig as [[? ?]|]; [done|]. case_bool_decide as Hc; [done|]. subst code. split; [done|]. split; [done|].
        by apply exec_status_success. }
      destruct (tb_stat r) as [x|x n|] eqn:Es; simpl.
      + split; [done|]. split; [done|]. split; [split|].
        * intros (->&_&Hl)%Hsucc. done.
        * intros [[= ->] Hl]. by apply exec_status_success.
        * intros Hl. rewrite (Hin _ _ Hl). split; [|done]. intros y Hy [= ->]. by rewrite bool_decide_eq_true_2.
      + split; [done|]. split; [done|]. split; [split; [by intros (_&?&_)%Hsucc|by intros [? _]]|].
        intros Hl. rewrite (Hin _ _ Hl). split; [done|]. split; [|done]. by intros y n' [= -> ->].
      + split; [done|]. split; [done|]. split; [split; [by intros (_&?&_)%Hsucc|by intros [? _]]|].
        intros Hl. rewrite (Hin _ _ Hl). done.
    - intros H. assert (Hi : is_internal_error (res_status res) = true); [|split; [done|]; intros E; by rewrite E in Hi].
      unfold res, execution_result, sandbox_run. destruct built as [c|b]; [|done].
      destruct (keep && negb saved) eqn:Ek; [done|].
      pose proof (proj2 (C102_measure tabox c m Hj (Hf c))) as Hm.
      destruct (run c m) as [r|err] eqn:Er; [|done].
      assert (Hrd : ~ readable e lo).
      { destruct H as [[b ?]|[Hw|[[-> ->]|[(c'&[= <-]&Ht)|Hrd]]]]; [done| |done| |done].
        - destruct (proj1 Hm (or_introl Hw)). congruence.
        - destruct (proj1 Hm (or_intror Ht)). congruence. }
      assert (forall code sig rr k, is_internal_error (res_status (compute_execution_result e (SbSuccess code sig rr k) lo)) = true) as G.
      { intros code sig rr k. unfold compute_execution_result. unfold readable in Hrd.
        destruct (capture_stream (lo_stdout lo) (e_capture_stdout e)) eqn:E1; [|done].
        destruct (capture_stream (lo_stderr lo) (e_capture_stderr e)) eqn:E2; [|done]. exfalso. apply Hrd. by split. }
      destruct (tb_stat r); apply G.
  Qed.

  (** A worker starts only if it can run a program: the check passes exactly when the sandbox was set up and [true]
      ended with exit code 0. *)
  Theorem C102_worker_starts : forall set_up built m tabox, json_ok enc_conf dec_conf enc_raw dec_raw ->
    (forall c, faithful enc_conf (program tabox) c m) ->
    (check_sandbox_is_supported set_up built (fun c => run c m) = None <->
     set_up = None /\ works m /\ exists c r, built = inl c /\ tabox c = TbDone r /\ tb_stat r = TbExitCode 0).
  Proof.
    intros set_up built m tabox Hj Hf. unfold check_sandbox_is_supported. destruct set_up as [e|]; [split; [done|by intros [? _]]|].
    unfold sandbox_run. destruct built as [c|b]; [|split; [done|by intros (_&_&c&r&?&_)]]. simpl.
    pose proof (proj1 (C102_measure tabox c m Hj (Hf c))) as Hm. destruct (run c m) as [r|err].
    - destruct (proj1 (Hm r) eq_refl) as [Hw Ht]. destruct (tb_stat r) as [x|x n|] eqn:Es.
      + case_bool_decide as Hx.
        * split; [done|]. intros (_&_&c'&r'&[= <-]&Ht'&Hs'). rewrite Ht in Ht'. injection Ht' as <-. rewrite Es in Hs'. by injection Hs' as ->.
        * subst x. split; [|done]. intros _. split; [done|]. split; [done|]. by exists c, r.
      + split; [done|]. intros (_&_&c'&r'&[= <-]&Ht'&Hs'). rewrite Ht in Ht'. injection Ht' as <-. congruence.
      + split; [done|]. intros (_&_&c'&r'&[= <-]&Ht'&Hs'). rewrite Ht in Ht'. injection Ht' as <-. congruence.
    - split; [done|]. intros (_&Hw&c'&r'&[= <-]&Ht'&_). discriminate (proj2 (Hm r') (conj Hw Ht')).
  Qed.
End props.
Print Assumptions C102_measure.
Print Assumptions C102_protocol.
Print Assumptions C102_result.
Print Assumptions C102_worker_starts.

(** ** Killing *)
Lemma wait_pid_spec cell n t : forall p t', wait_pid cell n t = (p, t') -> p <> 0%Z ->
  p = cell t' /\ exists i, i < n /\ t' = (t + 200 * N.of_nat i)%N.
Proof.
  revert t. induction n as [|n IH]; cbn [wait_pid]; intros t p t'; [intros [= <- <-]; done|]. case_bool_decide as E.
  - intros H Hp. destruct (IH _ _ _ H Hp) as (->&i&Hi&->). split; [done|]. exists (S i). split; lia.
  - intros [= <- <-] _. split; [done|]. exists 0. split; lia.
Qed.
Lemma wait_pid_zero cell n t t' : wait_pid cell n t = (0%Z, t') -> forall i, i < n -> cell (t + 200 * N.of_nat i)%N = 0%Z.
Proof.
  revert t. induction n as [|n IH]; cbn [wait_pid]; intros t; [lia|]. case_bool_decide as E; [|by intros [= ? ?]].
  intros H [|i] Hi; [by replace (t + 200 * N.of_nat 0)%N with t by lia|].
  replace (t + 200 * N.of_nat (S i))%N with (t + 200 + 200 * N.of_nat i)%N by lia. apply IH; [done|lia].
Qed.

(** A request to kill reaches the process of this sandbox, and no other, if its pid is published at most 0.8 s after
    the request; it is sent at once if the pid is already there, and at most 0.2 s after it is published. *)
Theorem C102_kill : forall t0 p t, p <> 0%Z ->
  (forall q t', kill (box_pid (Some (t0, p))) t = Some (q, t') -> q = p /\ (t <= t' <= t + 800)%N /\ (t0 <= t')%N) /\
  ((t0 <= t + 800)%N -> exists t', kill (box_pid (Some (t0, p))) t = Some (p, t') /\ (t' < N.max t (t0 + 200))%N \/
     kill (box_pid (Some (t0, p))) t = Some (p, t) /\ (t0 <= t)%N) /\
  ((t + 800 < t0)%N -> kill (box_pid (Some (t0, p))) t = None) /\
  kill (box_pid None) t = None.
Proof.
  intros t0 p t Hp.
  assert (Hcell : forall x, box_pid (Some (t0, p)) x = if bool_decide (t0 <= x)%N then p else 0%Z) by done.
  split; [|split; [|split]].
  - intros q t'. unfold kill. destruct (wait_pid _ 5 t) as [q' t2] eqn:E. case_bool_decide as Hq; [done|]. intros [= <- <-].
    destruct (wait_pid_spec _ _ _ _ _ E Hq) as (->&i&Hi&->). rewrite Hcell in *. case_bool_decide; [|done]. split; [done|]. lia.
  - intros Ht. unfold kill, wait_pid. rewrite !Hcell.
    destruct (decide (t0 <= t)%N) as [H0|H0].
    { exists t. right. split; [|done]. rewrite (bool_decide_eq_true_2 (t0 <= t)%N) by done. by rewrite !(bool_decide_eq_false_2 (p = 0%Z)) by done. }
    rewrite (bool_decide_eq_false_2 (t0 <= t)%N) by done. rewrite (bool_decide_eq_true_2 (0%Z = 0%Z)) by done.
    repeat (match goal with |- context [bool_decide (t0 <= ?x)%N] =>
      destruct (decide (t0 <= x)%N); [exists x; left; rewrite (bool_decide_eq_true_2 (t0 <= x)%N) by done; rewrite !(bool_decide_eq_false_2 (p = 0%Z)) by done; split; [done|lia]
        |rewrite (bool_decide_eq_false_2 (t0 <= x)%N) by done; rewrite ?(bool_decide_eq_true_2 (0%Z = 0%Z)) by done] end). lia.
  - intros Ht. unfold kill. destruct (wait_pid _ 5 t) as [q' t2] eqn:E. case_bool_decide as Hq; [done|].
    destruct (wait_pid_spec _ _ _ _ _ E Hq) as (->&i&Hi&->). rewrite Hcell in Hq. case_bool_decide; [lia|done].
  - unfold kill. destruct (wait_pid _ 5 t) as [q' t2] eqn:E. case_bool_decide as Hq; [done|].
    destruct (wait_pid_spec _ _ _ _ _ E Hq) as (->&i&Hi&->). done.
Qed.
Print Assumptions C102_kill.

(** False: "a kill request stops the process": if the process is slow to start the request is forgotten, and the
    process runs to its end. *)
Theorem C102_kill_refuted : exists published t, kill (box_pid published) t = None /\
  exists t' p, (t < t')%N /\ p <> 0%Z /\ box_pid published t' = p.
Proof. exists (Some (1001%N, 77%Z)), 200%N. split; [by vm_compute|]. exists 1001%N, 77%Z. done. Qed.
Print Assumptions C102_kill_refuted.

(** The program of the sandbox: the variable, else the file beside the executable, else the PATH. *)
Theorem C102_tools_path : forall var beside there,
  (forall p, var = Some p -> find_tools_path var beside there = p) /\
  (forall p, var = None -> beside = Some p -> there p = true -> find_tools_path var beside there = p) /\
  (var = None -> (forall p, beside = Some p -> there p = false) -> find_tools_path var beside there = "task-maker-tools").
Proof.
  intros var beside there. unfold find_tools_path. split; [by intros p ->|]. split.
  - intros p -> -> H. by rewrite H.
  - intros -> H. destruct beside as [p|]; [|done]. by rewrite (H p eq_refl).
Qed.
Print Assumptions C102_tools_path.

(** ** A concrete case: configurations and answers are encoded trivially. *)
Definition ex_enc_raw (r : raw) : bytes := match r with
  | RawSuccess (TbResult (TbExitCode c) a b w m) => [1; Z.to_N c; Z.to_N a; Z.to_N b; Z.to_N w; Z.to_N m]
  | RawSuccess _ => [2] | RawError _ => [3] end%N.
Definition ex_end (b : bool) (out : bytes) : child_end := ChildEnd b "signal: 15" out [].
Example C102_examples :
  let dec (b : bytes) := match b with [1; c; x; y; w; m]%N => Some (RawSuccess (TbResult (TbExitCode (Z.of_N c)) (Z.of_N x) (Z.of_N y) (Z.of_N w) (Z.of_N m))) | _ => None end in
  let tabox (c : bytes) := TbDone (TbResult (TbExitCode 0) 1 2 3 4096) in
  let out := main_sandbox Some ex_enc_raw (fun _ => "") tabox [7%N] in
  runner id dec (fun _ => "") [7%N] (Machine (Some 42%Z) true true (Some (ex_end true out))) = RawSuccess (TbResult (TbExitCode 0) 1 2 3 4096) /\
  (exists e, runner id dec (fun _ => "") [7%N] (Machine (Some 42%Z) true true (Some (ex_end false out))) = RawError e) /\
  (exists e, runner id dec (fun _ => "") [7%N] (Machine (Some 42%Z) true true (Some (ex_end true (take 3 out)))) = RawError e) /\
  kill (box_pid (Some (500%N, 42%Z))) 200 = Some (42%Z, 600%N).
Proof. vm_compute. eauto 10. Qed.
