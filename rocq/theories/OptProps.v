(** * C99: the options of task-maker mean what they say *)
From Coq Require Import Ascii.
From Verif Require Import OptModel OptSpec OptProofs.

Section props.
Context (ok : list oevent -> oevent -> bool) (m : machine).
Notation task_maker := (task_maker ok m).

(** With options that make sense the command does its operations in order -- search the task, build the DAG with the
    asked configuration, open the store, reach the executor, start the interface, evaluate -- stops with an error at the
    first one that fails, and ends well exactly when all of them succeed. *)
Theorem C99_run o : sensible m o -> exists plan, plan_of m o plan /\
  (done_all ok plan /\ task_maker o = (plan, Fine EDone) \/
   exists tr, stopped_at ok plan tr /\ task_maker o = (tr, Error)).
Proof.
  intros Hs. destruct (run_plan ok m o Hs) as (plan & Hp & E). exists plan. split; [done|].
  unfold OptModel.task_maker. rewrite E. unfold obind.
  destruct (acts_result ok plan []) as (tr & r & -> & [(-> & -> & H)|(-> & a & e & b & -> & -> & Hf & H)]).
  - left. split; [exact H|done].
  - right. exists (a ++ [e]). split; [|done]. exists a, e, b. split_and!; [done..|exact H].
Qed.
(** The DAG is built only with a configuration that is the asked one, whatever the options and the outcome of the other
    operations. *)
Theorem C99_config o rc c : OBuild rc c ∈ (task_maker o).1 ->
  asked (o_exec o) rc /\ eval_asked o c /\ good_cache (x_no_cache (o_exec o)) /\ (forall t, x_extra_time (o_exec o) = Some t -> good_time t).
Proof. intros H. apply task_maker_allowed in H as (_ & _ & H). tauto. Qed.
(** --exclusive does nothing but fail. *)
Theorem C99_exclusive o : o_exclusive o = true -> task_maker o = ([], Error).
Proof. intros H. unfold OptModel.task_maker, run_evaluation. by rewrite H. Qed.
(** --clean removes the generated files and evaluates nothing. *)
Theorem C99_clean o : o_exclusive o = false -> o_clean o = true -> exists c, eval_asked o c /\
  let plan := [OFind c (o_task_dir o) (o_max_depth o); OClean] in
  (done_all ok plan /\ task_maker o = (plan, Fine ECleaned) \/ exists tr, stopped_at ok plan tr /\ task_maker o = (tr, Error)).
Proof.
  intros Hx Hc. exists (to_config o). split; [apply to_config_asked|]. intros plan.
  assert (same (run_evaluation ok m o) (obind (acts ok plan) (fun _ => oret ECleaned))) as E.
  { unfold run_evaluation. rewrite Hx, Hc. change plan with ([OFind (to_config o) (o_task_dir o) (o_max_depth o)] ++ [OClean]).
    apply bind_acts; [apply act_acts|]. replace [OClean] with ([OClean] ++ [] : list oevent) by done. by apply bind_acts; [apply act_acts|]. }
  unfold OptModel.task_maker. rewrite E. unfold obind.
  destruct (acts_result ok plan []) as (tr & r & -> & [(-> & -> & H)|(-> & a & e & b & -> & Hl & Hf & H)]).
  - left. split; [exact H|done].
  - right. exists (a ++ [e]). split; [|done]. exists a, e, b. split_and!; [done..|exact H].
Qed.
(** Bad tags for --no-cache, or a negative --extra-time: nothing after the search of the task, and an error. *)
Theorem C99_rejected o : o_exclusive o = false -> o_clean o = false ->
  ~ good_cache (x_no_cache (o_exec o)) \/ (exists t, x_extra_time (o_exec o) = Some t /\ negative_time t) ->
  exists c, eval_asked o c /\ task_maker o = ([OFind c (o_task_dir o) (o_max_depth o)], Error).
Proof.
  intros Hx Hc Hb. exists (to_config o). split; [apply to_config_asked|].
  unfold OptModel.task_maker, run_evaluation. rewrite Hx, Hc. unfold obind at 1, act. cbn.
  destruct (ok [] _); [|done]. unfold new_context, obind.
  destruct (config_result (o_exec o) [OFind (to_config o) (o_task_dir o) (o_max_depth o)]) as [(Hg & Ht & _)|[(-> & _)|(E & Hg & Ht)]]; [|done|].
  - exfalso. destruct Hb as [Hb|(t & Et & Hn)]; [done|]. specialize (Ht t Et).
    destruct Hn as [->|(p & e & ->)]; destruct Ht as [|[(s & ?)|(p' & e' & ?)]]; done.
  - destruct Hb as [Hb|(t & Et & Hn)]; [done|]. rewrite Ht in Et. injection Et as <-. by destruct Hn as [|(? & ? & ?)].
Qed.
(** The evaluation is on the server exactly when --evaluate-on says so, with the given name. *)
Theorem C99_where o e : e ∈ (task_maker o).1 ->
  match e with
  | OConnect a p => x_evaluate_on (o_exec o) = Some a /\ p = 27182%N
  | OWelcome n => named m (o_exec o) n
  | OWorkers n _ => x_evaluate_on (o_exec o) = None /\ (x_num_cores (o_exec o) = Some n \/ x_num_cores (o_exec o) = None /\ n = mc_cores m)
  | OStore d _ _ => exists d', storage_at m (o_storage o) d' /\ d = d' ++ ["store"]
  | OUi u => ui_asked o u
  | _ => True
  end.
Proof. intros H. apply task_maker_allowed in H as (_ & H). destruct e; cbn in H; tauto. Qed.

(** ** --dry-run *)
(** It changes nothing in the directory of the task, without --copy-dag and --clean. *)
Theorem C99_dry_run_partial o e : x_dry_run (o_exec o) = true -> x_copy_dag (o_exec o) = false -> o_clean o = false ->
  e ∈ (task_maker o).1 -> ~ changes_task e /\
  (forall rc c, e = OBuild rc c -> rc_dry_run rc = true /\ ec_dry_run c = true) /\ (forall c d k, e = OFind c d k -> ec_dry_run c = true).
Proof.
  intros Hd Hg Hc He. apply task_maker_allowed in He as (_ & He). destruct e; cbn in He; split_and!; try (by intros []); try done.
  all: try (intros H; cbn in H; rewrite Hc in He; done).
  all: try (intros H; cbn in H; destruct He as (_ & He & _); rewrite Hg in He; done).
  - intros c' d' k' [= <- <- <-]. destruct He as ((_ & _ & _ & _ & _ & _ & ->) & _). done.
  - intros rc' c' [= <- <-]. destruct He as (_ & (_ & -> & _) & (_ & _ & _ & _ & _ & _ & ->) & _). done.
Qed.
End props.

(** The hypotheses can be met. *)
Definition x_plain : exec_opt := ExecOpt false true (Some (Some "evaluation,checking")) (Some (S754_finite false (2 ^ 52) (-52))) None true false false (Some 4%N) None None 0.
Definition o_plain (x : exec_opt) : opt := Opt ["sol"] [] None 3 UICurses false None false false false [] (StorageOpt None 3072 2048) x 1.
Definition m_plain : machine := Machine (Some ["home"; "me"; ".cache"; "task-maker"]) ["tmp"] "me" (Some "here") 8 false.
Example ex_sensible : sensible m_plain (o_plain x_plain).
Proof.
  split; try done.
  - intros l [= <-] t Ht. assert (split_on ","%char "evaluation,checking" = ["evaluation"; "checking"]) as E by (vm_compute; reflexivity).
    rewrite E in Ht. unfold known_tag. apply elem_of_cons in Ht as [->|Ht]; [do 2 apply elem_of_list_further; apply elem_of_list_here|].
    apply elem_of_cons in Ht as [->|Ht]; [do 3 apply elem_of_list_further; apply elem_of_list_here|]. by apply elem_of_nil in Ht.
  - intros t [= <-]. right; right. by eexists _, _.
Qed.
Example ex_run : exists tags : gset string, Permutation (elements tags) ["checking"; "evaluation"] /\ task_maker (fun _ _ => true) m_plain (o_plain x_plain) =
  ([OFind (EvalConfig ["sol"] false false [] [] None true) None 3;
    OBuild (RunConfig false true (CacheExcept tags) (S754_finite false (2 ^ 52) (-52)) 8192 true false 0) (EvalConfig ["sol"] false false [] [] None true);
    OStore ["home"; "me"; ".cache"; "task-maker"; "store"] 3221225472 2147483648;
    OCache ["home"; "me"; ".cache"; "task-maker"; "cache"]; OWorkers 4 ["home"; "me"; ".cache"; "task-maker"; "sandboxes"];
    OUi UIPrint; ORun], Fine EDone).
Proof.
  eexists. split; [|vm_compute; reflexivity]. apply (bool_decide_unpack _). vm_compute. exact Logic.I.
Qed.

(** --dry-run does not hold back --copy-dag, nor --clean. *)
Theorem C99_dry_run_refuted : exists ok m o e, x_dry_run (o_exec o) = true /\ o_clean o = false /\ sensible m o /\
  e ∈ (task_maker ok m o).1 /\ changes_task e /\ e = OWrite ["bin"; "DAG.dot"].
Proof.
  exists (fun _ _ => true), m_plain, (o_plain (ExecOpt false true None None None false false true None None None 0)), (OWrite ["bin"; "DAG.dot"]).
  split_and!; [done|done|split; done| |done|done]. { do 3 apply elem_of_list_further. apply elem_of_list_here. }
Qed.
Theorem C99_dry_run_clean_refuted : exists ok m o, x_dry_run (o_exec o) = true /\ OClean ∈ (task_maker ok m o).1.
Proof.
  exists (fun _ _ => true), m_plain, (Opt [] [] None 3 UIPrint false None true false false [] (StorageOpt None 3072 2048) x_plain 0).
  split; [done|]. apply elem_of_list_further, elem_of_list_here.
Qed.
(** An extra time that is not a number is not refused with an error: the command panics. *)
Theorem C99_extra_time_refuted : exists ok m o, x_extra_time (o_exec o) = Some S754_nan /\ (task_maker ok m o).2 = Panic.
Proof. exists (fun _ _ => true), m_plain, (o_plain (ExecOpt false false None (Some S754_nan) None false false false None None None 0)). done. Qed.
(** A size of the store that is too big is not refused: the build with overflow checks panics, the other one opens a store
    whose size is 0. *)
Theorem C99_store_size_refuted : exists ok m m' o d, mc_checked m = false /\ mc_checked m' = true /\ t_max_cache (o_storage o) = (2 ^ 44)%N /\
  OStore d 0 0 ∈ (task_maker ok m o).1 /\ (task_maker ok m o).2 = Fine EDone /\ (task_maker ok m' o).2 = Panic.
Proof.
  exists (fun _ _ => true), m_plain, (Machine (Some []) [] "me" None 8 true),
    (Opt [] [] None 3 UIPrint false None false false false [] (StorageOpt (Some ["s"]) (2 ^ 44) (2 ^ 44)) x_plain 0), ["s"; "store"].
  split_and!; try done; try (vm_compute; reflexivity). vm_compute. do 2 apply elem_of_list_further. apply elem_of_list_here.
Qed.
(** --num-cores 0 is accepted: the evaluation starts with no worker. *)
Theorem C99_no_worker_refuted : exists ok m o d, sensible m o /\ OWorkers 0 d ∈ (task_maker ok m o).1 /\ ORun ∈ (task_maker ok m o).1.
Proof.
  exists (fun _ _ => true), m_plain, (o_plain (ExecOpt false false None None None false false false (Some 0%N) None None 0)), ["home"; "me"; ".cache"; "task-maker"; "sandboxes"].
  split_and!; [split; done| |]; vm_compute; repeat (apply elem_of_list_here || apply elem_of_list_further).
Qed.

(** ** The interface *)
(** The names are the documented ones, in any case. *)
Definition ui_name (u : ui_type) : string := match u with UIPrint => "print" | UIRaw => "raw" | UICurses => "curses" | UIJson => "json" | UISilent => "silent" end.
Inductive same_letter : ascii -> ascii -> Prop :=
  | sl_same c : same_letter c c
  | sl_upper n : 97 <= n <= 122 -> same_letter (ascii_of_nat (n - 32)) (ascii_of_nat n).
Theorem C99_ui_names s u : ui_of s = Some u <-> Forall2 same_letter (list_ascii_of_string s) (list_ascii_of_string (ui_name u)).
Proof.
  assert (forall c d, same_letter c d -> nat_of_ascii d < 65 \/ 90 < nat_of_ascii d -> ascii_lower c = d) as Hlow.
  { intros c d [c'|n Hn] Hd; unfold ascii_lower.
    - destruct (65 <=? nat_of_ascii c') eqn:E1, (nat_of_ascii c' <=? 90) eqn:E2; cbn; try done. apply Nat.leb_le in E1, E2. lia.
    - rewrite nat_ascii_embedding by lia. replace (65 <=? n - 32) with true by (symmetry; apply Nat.leb_le; lia).
      replace (n - 32 <=? 90) with true by (symmetry; apply Nat.leb_le; lia). cbn. f_equal. lia. }
  assert (forall c, same_letter c (ascii_lower c)) as Hup.
  { intros c. unfold ascii_lower. destruct (65 <=? nat_of_ascii c) eqn:E1, (nat_of_ascii c <=? 90) eqn:E2; cbn; try constructor.
    apply Nat.leb_le in E1, E2. rewrite <- (ascii_nat_embedding c) at 1. replace (nat_of_ascii c) with (nat_of_ascii c + 32 - 32) at 1 by lia. constructor. lia. }
  assert (forall s t, (forall d, d ∈ list_ascii_of_string t -> nat_of_ascii d < 65 \/ 90 < nat_of_ascii d) ->
    string_lower s = t <-> Forall2 same_letter (list_ascii_of_string s) (list_ascii_of_string t)) as H.
  { clear s u. induction s as [|c s IH]; intros t Ht; split.
    - intros <-. constructor.
    - destruct t; [done|]. intros H. inversion H.
    - intros <-. cbn. constructor; [apply Hup|]. apply IH; [|done]. intros d Hd. apply Ht. cbn. by constructor.
    - destruct t as [|d t]; intros H; [inversion H|]. cbn in H. inversion H as [|? ? ? ? H1 H2]; subst. cbn. f_equal.
      + apply Hlow; [done|]. apply Ht. cbn. constructor.
      + apply IH; [|done]. intros x Hx. apply Ht. cbn. by constructor. }
  assert (forall u d, d ∈ list_ascii_of_string (ui_name u) -> nat_of_ascii d < 65 \/ 90 < nat_of_ascii d) as Hn.
  { intros [] d Hd; cbn in Hd; repeat (apply elem_of_cons in Hd as [->|Hd]; [right; vm_compute; lia|]); inversion Hd. }
  rewrite <- (H s (ui_name u) (Hn u)). unfold ui_of. split.
  - intros E. repeat (destruct (decide (string_lower s = _)) as [E'|]; [injection E as <-; exact E'|]). done.
  - intros ->. destruct u; done.
Qed.
(** The logs of -v, -vv, -vvv; without it only the warnings. *)
Theorem C99_verbose v : log_level v = match v with 0 => "warn,tabox=warn" | 1 => "info,tabox=info" | 2 => "debug,tabox=debug" | _ => "trace,tabox=trace" end%N.
Proof. unfold log_level. destruct v as [|[p|[p|p|]|]]; done. Qed.
(** The code with which the command exits: 0 exactly when it ended well. *)
Theorem C99_exit ok m o : exit_code (task_maker ok m o).2 = 0%N <-> exists r, (task_maker ok m o).2 = Fine r.
Proof. destruct (task_maker ok m o).2 as [r| |]; cbn; split; [by exists r|done|done|by intros []|done|by intros []]. Qed.

Print Assumptions C99_run.
Print Assumptions C99_config.
Print Assumptions C99_exclusive.
Print Assumptions C99_clean.
Print Assumptions C99_rejected.
Print Assumptions C99_where.
Print Assumptions C99_dry_run_partial.
Print Assumptions C99_dry_run_refuted.
Print Assumptions C99_dry_run_clean_refuted.
Print Assumptions C99_extra_time_refuted.
Print Assumptions C99_store_size_refuted.
Print Assumptions C99_no_worker_refuted.
Print Assumptions C99_ui_names.
Print Assumptions C99_verbose.
Print Assumptions C99_exit.
