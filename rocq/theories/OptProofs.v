(** * OptProofs *)
From Verif Require Import OptSpec MiscProps2.

Section proofs.
Context (ok : list oevent -> oevent -> bool) (m : machine).
Notation act := (act ok).

Fixpoint acts (l : list oevent) : om unit := match l with [] => oret tt | e :: l => (_ <== act e; acts l) end.

Lemma acts_result l tr : exists tr' r, acts l tr = (tr ++ tr', r) /\
  (r = Fine tt /\ tr' = l /\ (forall a e b, l = a ++ e :: b -> ok (tr ++ a) e = true) \/
   r = Error /\ exists a e b, tr' = a ++ [e] /\ l = a ++ e :: b /\ ok (tr ++ a) e = false /\ forall a' e' b', a = a' ++ e' :: b' -> ok (tr ++ a') e' = true).
Proof.
  revert tr. induction l as [|e l IH]; intros tr; cbn.
  - exists [], (Fine tt). rewrite app_nil_r. split; [done|]. left. split_and!; [done..|]. intros a e b H. by destruct a.
  - unfold obind, OptModel.act. destruct (ok tr e) eqn:E.
    + destruct (IH (tr ++ [e])) as (tr' & r & -> & H). exists (e :: tr'), r. rewrite <- app_assoc. split; [done|].
      destruct H as [(-> & -> & H)|(-> & a & e' & b & -> & -> & Hf & H)].
      * left. split_and!; [done..|]. intros a x b Hl. destruct a as [|y a]; cbn in Hl; injection Hl as -> Hl.
        { by rewrite app_nil_r. } { specialize (H a x b Hl). by rewrite <- app_assoc in H. }
      * right. split; [done|]. exists (e :: a), e', b. split_and!; [done..| |].
        { by rewrite <- app_assoc in Hf. }
        { intros a' x b' Ha. destruct a' as [|y a']; cbn in Ha; injection Ha as -> Ha.
          { by rewrite app_nil_r. } { specialize (H a' x b' Ha). by rewrite <- app_assoc in H. } }
    + exists [e], Error. split; [done|]. right. split; [done|]. exists [], e, l. rewrite app_nil_r. split_and!; [done..|].
      intros a' e' b' H. by destruct a'.
Qed.

(** Two computations that do the same *)
Definition same {A} (x y : om A) : Prop := forall tr, x tr = y tr.
Lemma bind_acts {A} l l' (x : om unit) (k : unit -> om A) (k' : om A) : same x (acts l) -> same (k tt) (obind (acts l') (fun _ => k')) ->
  same (obind x k) (obind (acts (l ++ l')) (fun _ => k')).
Proof.
  intros Hx Hk tr. unfold obind at 1. rewrite Hx. clear Hx. revert tr. induction l as [|e l IH]; intros tr; cbn.
  - apply Hk.
  - unfold obind, OptModel.act. destruct (ok tr e); [|done]. specialize (IH (tr ++ [e])).
    destruct (acts l (tr ++ [e])) as [tr' [[]| |]]; unfold obind in IH; apply IH.
Qed.
Lemma bind_value {A B} (x : om A) (a : A) (f : A -> om B) tr : same x (oret a) -> obind x f tr = f a tr.
Proof. intros H. unfold obind. by rewrite H. Qed.
Lemma act_acts e : same (act e) (acts [e]).
Proof. intros tr. cbn. unfold obind, OptModel.act. by destruct (ok tr e). Qed.

(** ** The configuration *)
Lemma time_cases t : good_time t \/ negative_time t \/ t = S754_nan.
Proof. unfold good_time, negative_time. destruct t as [s|[]| |[] m' e']; eauto 10. Qed.
Lemma good_time_ok t : good_time t -> f64_lt t f64_zero = false /\ (f64_lt f64_zero t || f64_eq f64_zero t) = true.
Proof. intros [->|[(s & ->)|(p & e & ->)]]; done. Qed.
Lemma negative_time_lt t : negative_time t -> f64_lt t f64_zero = true.
Proof. intros [->|(p & e & ->)]; done. Qed.

Lemma cache_mode_good c : good_cache c -> exists mode, cache_mode_of c valid_tags = Some mode /\ cache_asked c mode.
Proof.
  intros H. destruct c as [[l|]|]; cbn; [|by eexists..].
  destruct (forallb _ _) eqn:E.
  - eexists. split; [done|]. eexists. split; [done|]. intros t. apply elem_of_list_to_set.
  - exfalso. apply not_true_iff_false in E. apply E. apply forallb_forall. intros t Ht%elem_of_list_In%elem_of_elements%elem_of_list_to_set.
    apply bool_decide_eq_true. by apply (H l).
Qed.
Lemma cache_mode_asked c mode : cache_mode_of c valid_tags = Some mode -> good_cache c /\ cache_asked c mode.
Proof.
  destruct c as [[l|]|]; cbn; intros H; [|by simplify_eq..].
  destruct (forallb _ _) eqn:E; [|done]. injection H as <-. split.
  - intros l' [= <-] t Ht. rewrite forallb_forall in E. specialize (E t). rewrite bool_decide_eq_true in E. apply E.
    apply elem_of_list_In, elem_of_elements, elem_of_list_to_set, Ht.
  - eexists. split; [done|]. intros t. apply elem_of_list_to_set.
Qed.
Lemma cache_mode_bad c : ~ good_cache c -> cache_mode_of c valid_tags = None.
Proof. intros H. destruct (cache_mode_of c valid_tags) as [mode|] eqn:E; [|done]. destruct H. by destruct (cache_mode_asked _ _ E). Qed.

Lemma config_sensible x : good_cache (x_no_cache x) -> (forall t, x_extra_time x = Some t -> good_time t) ->
  exists rc, asked x rc /\ same (config_of_opt x) (oret rc).
Proof.
  intros Hc Ht. destruct (cache_mode_good _ Hc) as (mode & Em & Ha).
  exists (RunConfig (x_keep_sandboxes x) (x_dry_run x) mode (default half (x_extra_time x)) (default default_extra_memory (x_extra_memory x))
            (x_copy_exe x) (x_copy_logs x) (x_priority x)). split.
  - unfold asked; cbn. split_and!; try done.
    + intros t E. by rewrite E.
    + intros E. by rewrite E.
    + intros t E. by rewrite E.
    + intros E. by rewrite E.
  - intros tr. unfold config_of_opt. rewrite Em. unfold obind. destruct (x_extra_time x) as [t|] eqn:Et; [|done].
    destruct (good_time_ok t (Ht t eq_refl)) as [-> ->]. done.
Qed.
Lemma config_result x tr : 
  (good_cache (x_no_cache x) /\ (forall t, x_extra_time x = Some t -> good_time t) /\ exists rc, asked x rc /\ config_of_opt x tr = (tr, Fine rc)) \/
  (config_of_opt x tr = (tr, Error) /\ (~ good_cache (x_no_cache x) \/ exists t, x_extra_time x = Some t /\ negative_time t)) \/
  (config_of_opt x tr = (tr, Panic) /\ good_cache (x_no_cache x) /\ x_extra_time x = Some S754_nan).
Proof.
  destruct (cache_mode_of (x_no_cache x) valid_tags) as [mode|] eqn:Em.
  - destruct (cache_mode_asked _ _ Em) as [Hg _]. destruct (x_extra_time x) as [t|] eqn:Et.
    + destruct (time_cases t) as [Ht|[Ht| ->]].
      * left. split; [done|]. split; [by intros ? [= <-]|]. destruct (config_sensible x Hg) as (rc & Ha & H); [rewrite Et; by intros ? [= <-]|].
        exists rc. split; [done|]. apply H.
      * right; left. split; [|right; eauto]. unfold config_of_opt. rewrite Em, Et. unfold obind. by rewrite (negative_time_lt _ Ht).
      * right; right. split; [|done]. unfold config_of_opt. by rewrite Em, Et.
    + left. split; [done|]. split; [done|]. destruct (config_sensible x Hg) as (rc & Ha & H); [by rewrite Et|]. exists rc. split; [done|]. apply H.
  - right; left. split; [|left; intros H; destruct (cache_mode_good _ H) as (? & ? & _); congruence].
    unfold config_of_opt. by rewrite Em.
Qed.

Lemma mebibytes_small n : (n < 2 ^ 44)%N -> same (mebibytes m n) (oret (n * 2 ^ 20)%N).
Proof.
  intros H tr. unfold mebibytes. rewrite <- N.mul_assoc. replace (1024 * 1024)%N with (2 ^ 20)%N by done.
  assert (n * 2 ^ 20 < 2 ^ 64)%N as ->%N.ltb_lt; [|done].
  replace (2 ^ 64)%N with (2 ^ 44 * 2 ^ 20)%N by done. apply N.mul_lt_mono_pos_r; [done|done].
Qed.

Lemma store_dir_at s : storage_at m s (store_dir m s).
Proof. unfold storage_at, store_dir. destruct (t_store_dir s); [by left|right]. destruct (mc_cache_dir m); [split; [done|by left]|split; [done|by right]]. Qed.
Lemma used_ui_asked o : ui_asked o (used_ui o).
Proof.
  unfold ui_asked, used_ui. destruct (0 <? o_verbose o)%N eqn:E.
  - apply N.ltb_lt in E. case_decide as D.
    + by destruct D as [-> _].
    + destruct (o_ui o); try done. destruct D. split; [done|lia].
  - apply N.ltb_ge in E. case_decide as D; [|done]. destruct D as [_ D]. lia.
Qed.
Lemma to_config_asked o : eval_asked o (to_config o).
Proof. unfold eval_asked; cbn. done. Qed.

Lemma executor_plan x s o : x = o_exec o -> s = o_storage o -> sensible m o ->
  exists ex, executor_of m o (store_dir m s) ex /\
    same (connect_executor ok m x s)
      (acts ([OStore (store_dir m s ++ ["store"]) (t_max_cache s * 2 ^ 20) (t_min_cache s * 2 ^ 20)] ++ ex)).
Proof.
  intros -> -> Hs. unfold connect_executor. destruct Hs as [_ _ _ _ Hmx Hmn Hn].
  destruct (x_evaluate_on (o_exec o)) as [a|] eqn:Ea.
  - assert (exists n, named m (o_exec o) n /\ same (client_name m (o_exec o)) (oret n)) as (n & Hname & En).
    { unfold named, client_name. destruct (x_name (o_exec o)) as [n|] eqn:E; [by exists n; split; [left|]|].
      specialize (Hn ltac:(done) ltac:(done)). destruct (mc_host m) as [h|] eqn:Eh; [|done]. exists (mc_user m +:+ "@" +:+ h). split; [|done]. right. eauto. }
    exists [OConnect a 27182; OWelcome n]. split; [by constructor|]. intros tr.
    rewrite (bind_value _ _ _ _ (mebibytes_small _ Hmx)), (bind_value _ _ _ _ (mebibytes_small _ Hmn)). cbn. unfold obind, OptModel.act.
    destruct (ok tr _); [|done]. destruct (ok (tr ++ _) _); [|done]. rewrite En. cbn. by destruct (ok _ _).
  - exists [OCache (store_dir m (o_storage o) ++ ["cache"]); OWorkers (default (mc_cores m) (x_num_cores (o_exec o))) (store_dir m (o_storage o) ++ ["sandboxes"])].
    split. { constructor; [done|]. destruct (x_num_cores (o_exec o)); [by left|by right]. }
    intros tr. rewrite (bind_value _ _ _ _ (mebibytes_small _ Hmx)), (bind_value _ _ _ _ (mebibytes_small _ Hmn)). cbn. unfold obind, OptModel.act.
    destruct (ok tr _); [|done]. destruct (ok (tr ++ _) _); [|done]. by destruct (ok _ _).
Qed.

Lemma run_plan o : sensible m o -> exists plan, plan_of m o plan /\ same (run_evaluation ok m o) (obind (acts plan) (fun _ => oret EDone)).
Proof.
  intros Hs. destruct (config_sensible (o_exec o) (sn_cache _ _ Hs) (sn_time _ _ Hs)) as (rc & Ha & Hc).
  destruct (executor_plan _ _ o eq_refl eq_refl Hs) as (ex & Hex & He).
  eexists. split; [apply (plan_run _ _ (to_config o) rc (store_dir m (o_storage o)) ex (used_ui o)); [apply to_config_asked|done|apply store_dir_at|done|apply used_ui_asked]|].
  unfold run_evaluation. rewrite (sn_exclusive _ _ Hs), (sn_clean _ _ Hs).
  change ([OFind (to_config o) (o_task_dir o) (o_max_depth o); OBuild rc (to_config o)] ++ ?r) with
    ([OFind (to_config o) (o_task_dir o) (o_max_depth o)] ++ ([OBuild rc (to_config o)] ++ r)).
  apply bind_acts; [apply act_acts|].
  rewrite (app_assoc [OBuild _ _]). apply bind_acts.
  { intros tr. unfold new_context. rewrite (bind_value _ _ _ _ Hc). cbn. destruct (x_copy_dag (o_exec o)); cbn; unfold obind, OptModel.act.
    - destruct (ok tr _); [|done]. destruct (ok (tr ++ _) _); [|done]. by destruct (ok _ _).
    - by destruct (ok tr _). }
  rewrite (app_assoc [OStore _ _ _]). apply bind_acts; [exact He|].
  change [OUi (used_ui o); ORun] with ([OUi (used_ui o)] ++ [ORun]).
  apply bind_acts; [apply act_acts|].
  replace [ORun] with ([ORun] ++ [] : list oevent) by done.
  apply bind_acts; [apply act_acts|]. done.
Qed.

(** ** For all the options *)
Definition emitted {A} (P : oevent -> Prop) (x : om A) : Prop := forall tr, exists l, (x tr).1 = tr ++ l /\ Forall P l.
Lemma emitted_ret {A} P (a : A) : emitted P (oret a).
Proof. intros tr. exists []. by rewrite app_nil_r. Qed.
Lemma emitted_bind {A B} P (x : om A) (f : A -> om B) : emitted P x -> (forall a tr tr', x tr = (tr', Fine a) -> exists l, (f a tr').1 = tr' ++ l /\ Forall P l) -> emitted P (obind x f).
Proof.
  intros Hx Hf tr. unfold obind. destruct (Hx tr) as (l & E & Hl). destruct (x tr) as [tr' r] eqn:Ex. cbn in E. subst tr'.
  destruct r as [a| |]; [|exists l; done|exists l; done]. destruct (Hf a tr _ Ex) as (l' & -> & Hl').
  exists (l ++ l'). rewrite app_assoc. split; [done|]. by apply Forall_app.
Qed.
Lemma emitted_act (P : oevent -> Prop) e : P e -> emitted P (act e).
Proof. intros H tr. exists [e]. split; [done|by constructor]. Qed.
Lemma emitted_error {A} P : emitted P (oerror : om A).
Proof. intros tr. exists []. by rewrite app_nil_r. Qed.
Lemma emitted_panic {A} P : emitted P (opanic : om A).
Proof. intros tr. exists []. by rewrite app_nil_r. Qed.
Lemma emitted_config P x : emitted P (config_of_opt x).
Proof.
  intros tr. exists []. rewrite app_nil_r. split; [|done].
  destruct (config_result x tr) as [(_ & _ & rc & _ & ->)|[(-> & _)|(-> & _)]]; done.
Qed.
Lemma emitted_mebibytes P n : emitted P (mebibytes m n).
Proof. unfold mebibytes. destruct (_ <? _)%N; [apply emitted_ret|]. destruct (mc_checked m); [apply emitted_panic|apply emitted_ret]. Qed.
Lemma emitted_name P x : emitted P (client_name m x).
Proof. unfold client_name. destruct (x_name x); [apply emitted_ret|]. destruct (mc_host m); [apply emitted_ret|apply emitted_panic]. Qed.

(** What may be in the trace *)
Definition allowed (o : opt) (e : oevent) : Prop :=
  match e with
  | OFind c d k => eval_asked o c /\ d = o_task_dir o /\ k = o_max_depth o
  | OClean => o_clean o = true
  | OBuild rc c => o_clean o = false /\ asked (o_exec o) rc /\ eval_asked o c /\ good_cache (x_no_cache (o_exec o)) /\ (forall t, x_extra_time (o_exec o) = Some t -> good_time t)
  | OMkdir p => o_clean o = false /\ x_copy_dag (o_exec o) = true /\ p = ["bin"]
  | OWrite p => o_clean o = false /\ x_copy_dag (o_exec o) = true /\ p = ["bin"; "DAG.dot"]
  | OStore d mx mn => o_clean o = false /\ exists d', storage_at m (o_storage o) d' /\ d = d' ++ ["store"]
  | OConnect a p => o_clean o = false /\ x_evaluate_on (o_exec o) = Some a /\ p = 27182%N
  | OWelcome n => o_clean o = false /\ named m (o_exec o) n
  | OCache d => o_clean o = false /\ x_evaluate_on (o_exec o) = None
  | OWorkers n d => o_clean o = false /\ x_evaluate_on (o_exec o) = None /\ (x_num_cores (o_exec o) = Some n \/ x_num_cores (o_exec o) = None /\ n = mc_cores m)
  | OUi u => o_clean o = false /\ ui_asked o u
  | ORun => o_clean o = false
  end.
Lemma run_allowed o : emitted (fun e => o_exclusive o = false /\ allowed o e) (run_evaluation ok m o).
Proof.
  unfold run_evaluation. destruct (o_exclusive o); [apply emitted_error|].
  apply emitted_bind; [apply emitted_act; split; [done|]; cbn; auto using to_config_asked|]. intros _ tr tr' _. clear tr. revert tr'.
  destruct (o_clean o) eqn:Ec.
  { apply emitted_bind; [by apply emitted_act|]. intros ? ? tr' _. by apply emitted_ret. }
  change (emitted (fun e => false = false /\ allowed o e) (_ <== new_context ok (o_exec o) (to_config o); _ <== connect_executor ok m (o_exec o) (o_storage o); _ <== act (OUi (used_ui o)); _ <== act ORun; oret EDone)).
  apply emitted_bind.
  { unfold new_context. apply emitted_bind; [apply emitted_config|]. intros rc tr tr' E.
    destruct (config_result (o_exec o) tr) as [(Hg & Ht & rc' & Ha & E')|[(E' & _)|(E' & _)]]; rewrite E' in E; [|done..]. injection E as <- <-.
    revert tr E'. intros tr _. revert tr.
    apply emitted_bind; [apply emitted_act; split; [done|]; cbn; auto using to_config_asked|]. intros _ tr0 tr' _. clear tr0. revert tr'.
    destruct (x_copy_dag (o_exec o)) eqn:Ed; [|apply emitted_ret].
    apply emitted_bind; [by apply emitted_act|]. intros _ tr0 tr' _. by apply emitted_act. }
  intros _ tr tr' _. clear tr. revert tr'. apply emitted_bind.
  { unfold connect_executor. apply emitted_bind; [apply emitted_mebibytes|]. intros mx tr tr' _. clear tr. revert tr'.
    apply emitted_bind; [apply emitted_mebibytes|]. intros mn tr tr' _. clear tr. revert tr'.
    apply emitted_bind. { apply emitted_act. split; [done|]. split; [done|]. exists (store_dir m (o_storage o)). split; [apply store_dir_at|done]. }
    intros _ tr tr' _. clear tr. revert tr'. destruct (x_evaluate_on (o_exec o)) as [a|] eqn:Ea.
    - apply emitted_bind; [by apply emitted_act|]. intros _ tr tr' _. clear tr. revert tr'.
      apply emitted_bind; [apply emitted_name|]. intros n tr tr' En. apply emitted_act. split; [done|]. split; [done|].
      unfold named. unfold client_name in En. destruct (x_name (o_exec o)); [left; by injection En as _ <-|]. destruct (mc_host m) as [h|]; [|done].
      right. split; [done|]. exists h. split; [done|]. by injection En as _ <-.
    - apply emitted_bind; [by apply emitted_act|]. intros _ tr tr' _. apply emitted_act. split; [done|]. split; [done|]. split; [done|].
      destruct (x_num_cores (o_exec o)); [by left|by right]. }
  intros _ tr tr' _. clear tr. revert tr'. apply emitted_bind; [apply emitted_act; split; [done|]; split; [done|apply used_ui_asked]|].
  intros _ tr tr' _. clear tr. revert tr'. apply emitted_bind; [by apply emitted_act|]. intros _ tr tr' _. by apply emitted_ret.
Qed.
Lemma task_maker_allowed o e : e ∈ (task_maker ok m o).1 -> o_exclusive o = false /\ allowed o e.
Proof. intros He. destruct (run_allowed o []) as (l & El & Hl). unfold task_maker in He. rewrite El in He. cbn in He. rewrite Forall_forall in Hl. by apply Hl. Qed.
End proofs.
