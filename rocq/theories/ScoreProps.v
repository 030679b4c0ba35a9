(** * ScoreProps: properties C39-C41, C50, C61 *)
From Coq Require Import Reals Lra.
From Flocq Require Import Core.
From Verif Require Import ScoreSpec ScoreProofs ScoreProofs2 FloatProofs ScoreReal.

(** ** C39: scores do not depend on the completion order *)

(** Whatever the order [l] in which the scores arrive: about each subtask there is a message exactly if all its testcases
    arrived, exactly one, with the aggregate and its product with the maximum; the total is sent exactly if all the subtasks
    were scored, exactly once, and is the sum of the scores of the subtasks. *)
Theorem C39_scores_partial t order l evs :
  task_ok t order -> order <> [] -> arrivals_ok l -> run_scores t order l = Some evs ->
  (forall st info, (st, info) ∈ tk_subtasks t -> omap (subtask_scored st) evs = option_list (expected (tk_aggregator t) l info)) /\
  omap task_scored evs = option_list (total t l order) /\
  omap testcase_scored evs = l.
Proof.
  intros Hok Hne Ha H. destruct (run_inv t order Hok l evs Ha H) as [sm [I1 I2 I3 I4 I5 I6]]. split_and!.
  - intros st info Hin. rewrite I3; [|apply (order_in t order Hok); rewrite (info_in t order Hok _ _ Hin); by eexists].
    unfold want. by rewrite (info_in t order Hok _ _ Hin).
  - rewrite I4. unfold total. destruct order as [|x order]; [done|].
    assert (mapM (fun st => fst <$> want t l st) (x :: order) = mapM (fun st => info ← info_of t st; r ← expected (tk_aggregator t) l info; Some r.1) (x :: order)) as ->.
    { apply mapM_ext. intros st. unfold want. destruct (info_of t st) as [info|]; simpl; [|done]. by destruct (expected _ l info). }
    match goal with |- _ = option_list (?m ≫= _) => destruct m end; done.
  - done.
Qed.
(** When: the messages sent after some of the scores arrived are not changed by those that arrive later.  So a score is sent at the
    arrival of the last testcase that it needs. *)
Theorem C39_when t order l1 l2 evs :
  run_scores t order (l1 ++ l2) = Some evs ->
  exists evs1 evs2, run_scores t order l1 = Some evs1 /\ evs = evs1 ++ evs2.
Proof.
  unfold run_scores. destruct (new_manager t order) as [[sm0 e0]|]; simpl; [|done]. rewrite score_all_app.
  destruct (score_all t l1 sm0) as [[sm1 e1]|]; simpl; [|done]. destruct (score_all t l2 sm1) as [[sm2 e2]|]; simpl; [|done].
  intros [= <-]. exists (e0 ++ e1), e2. by rewrite app_assoc.
Qed.
(** The subtask is told at the arrival of its last testcase. *)
Theorem C39_at_the_last_testcase t order l x evs st info :
  task_ok t order -> order <> [] -> arrivals_ok (l ++ [x]) -> run_scores t order (l ++ [x]) = Some evs -> (st, info) ∈ tk_subtasks t ->
  exists evs1 evs2, run_scores t order l = Some evs1 /\ evs = evs1 ++ evs2 /\
    omap (subtask_scored st) evs2 = match expected (tk_aggregator t) l info with Some _ => [] | None => option_list (expected (tk_aggregator t) (l ++ [x]) info) end.
Proof.
  intros Hok Hne Ha H Hin. destruct (C39_when t order l [x] evs H) as (evs1 & evs2 & H1 & ->). exists evs1, evs2. split_and!; [done..|].
  assert (arrivals_ok l) as Hl. { unfold arrivals_ok in *. rewrite map_app in Ha. by apply NoDup_app in Ha as (? & _). }
  destruct (C39_scores_partial t order l evs1 Hok Hne Hl H1) as (Hs1 & _). destruct (C39_scores_partial t order (l ++ [x]) _ Hok Hne Ha H) as (Hs & _).
  specialize (Hs1 _ _ Hin). specialize (Hs _ _ Hin). rewrite omap_app, Hs1 in Hs. destruct (expected _ l info) as [r|] eqn:E; [|done].
  destruct x as [[st' tc] v]. simpl in Hs. assert (want t l st = Some r) as Hw by (unfold want; rewrite (info_in t order Hok _ _ Hin); done).
  pose proof (want_stable t l st' tc v st r Ha Hw) as Hw'. unfold want in Hw'. rewrite (info_in t order Hok _ _ Hin) in Hw'. simpl in Hw'. rewrite Hw' in Hs. simpl in Hs.
  by injection Hs as Hs.
Qed.
Lemma score_of_perm l l' tc : l ≡ₚ l' -> arrivals_ok l -> score_of l tc = score_of l' tc.
Proof.
  intros Hp Ha. unfold score_of. f_equal. apply list_to_map_proper.
  - rewrite <- list_fmap_compose. exact Ha.
  - by apply fmap_Permutation.
Qed.
Lemma expected_perm a l l' info : l ≡ₚ l' -> arrivals_ok l -> expected a l info = expected a l' info.
Proof.
  intros Hp Ha. unfold expected, subtask_scores. f_equal. apply mapM_ext. intros tc. by apply score_of_perm.
Qed.
(** Two orders of arrival of the same scores: the same messages about each subtask and the same total. *)
Theorem C39_any_order t order l l' evs evs' :
  task_ok t order -> order <> [] -> arrivals_ok l -> l ≡ₚ l' -> run_scores t order l = Some evs -> run_scores t order l' = Some evs' ->
  (forall st info, (st, info) ∈ tk_subtasks t -> omap (subtask_scored st) evs = omap (subtask_scored st) evs') /\
  omap task_scored evs = omap task_scored evs'.
Proof.
  intros Hok Hne Ha Hp H H'. assert (arrivals_ok l') as Ha'. { unfold arrivals_ok in *. by rewrite <- Hp. }
  destruct (C39_scores_partial t order l evs Hok Hne Ha H) as (H1 & H2 & _). destruct (C39_scores_partial t order l' evs' Hok Hne Ha' H') as (H1' & H2' & _). split.
  - intros st info Hin. rewrite (H1 _ _ Hin), (H1' _ _ Hin). by rewrite (expected_perm _ l l').
  - rewrite H2, H2'. unfold total. f_equal. f_equal. apply mapM_ext. intros st. destruct (info_of t st) as [info|]; simpl; [|done]. by rewrite (expected_perm _ l l').
Qed.
(** Without NaN there is always a result. *)
Theorem C39_no_panic t order l : task_ok t order -> arrivals_ok l -> Forall (fun x => x.2 <> S754_nan) l -> is_Some (run_scores t order l).
Proof. intros H. by apply run_total. Qed.
(** Full statement refuted in three ways.  (1) A custom checker may print "nan": with the aggregator [Min] and two testcases the evaluation panics. *)
Theorem C39_nan_refuted : exists t order l, task_ok t order /\ arrivals_ok l /\ run_scores t order l = None.
Proof.
  exists (ScoreTask [(0, SubtaskInfo f64_one [0; 1])] [0; 1] Min), [0], [(0, 0, S754_nan); (0, 1, f64_one)].
  split_and!; [|by apply (bool_decide_unpack _); vm_compute|by vm_compute]. split_and!; [by apply (bool_decide_unpack _); vm_compute|done|].
  intros st info tc [= -> ->]%elem_of_list_singleton Htc. done.
Qed.
(** (2) The total is the sum in the order of a hash map: with three subtasks of 1/10, 2/10 and 3/10 of a point it depends on that order. *)
Definition f64_tenths (n : Z) : f64 := f64_div (f64_of_Z n) (f64_of_Z 10).
Definition tenths : score_task := ScoreTask [(0, SubtaskInfo (f64_tenths 1) [0]); (1, SubtaskInfo (f64_tenths 2) [1]); (2, SubtaskInfo (f64_tenths 3) [2])] [0; 1; 2] Min.
Theorem C39_hash_order_refuted : exists order order' l evs evs', task_ok tenths order /\ task_ok tenths order' /\ arrivals_ok l /\
  run_scores tenths order l = Some evs /\ run_scores tenths order' l = Some evs' /\ omap task_scored evs <> omap task_scored evs'.
Proof.
  exists [0; 1; 2], [2; 1; 0], [(0, 0, f64_one); (1, 1, f64_one); (2, 2, f64_one)]. eexists _, _.
  assert (forall order, order ≡ₚ [0; 1; 2] -> task_ok tenths order) as Hok.
  { intros order Ho. split_and!; [by apply (bool_decide_unpack _); vm_compute|done|]. intros st info tc Hin Htc.
    repeat (apply elem_of_cons in Hin as [[= -> ->]|Hin]; [apply elem_of_list_singleton in Htc as ->; apply (bool_decide_unpack _); by vm_compute|]). by apply elem_of_nil in Hin. }
  split_and!; [by apply Hok|apply Hok; apply (bool_decide_unpack _); by vm_compute|by apply (bool_decide_unpack _); vm_compute|vm_compute; reflexivity|vm_compute; reflexivity|by vm_compute].
Qed.
(** (3) Without subtasks the total is never sent. *)
Theorem C39_no_subtasks_refuted : exists t, task_ok t [] /\ total t [] [] = Some f64_zero /\ run_scores t [] [] = Some [].
Proof. exists (ScoreTask [] [] Min). split_and!; [|done|done]. split_and!; [by constructor|done|]. intros st info tc Hin. by apply elem_of_nil in Hin. Qed.

(** A task with two subtasks that share a testcase and one without testcases; the scores arrive in one of the orders. *)
Example C39_example :
  let t := ScoreTask [(0, SubtaskInfo (f64_of_Z 40) [0; 1]); (1, SubtaskInfo (f64_of_Z 60) [1; 2]); (2, SubtaskInfo f64_zero [])] [0; 1; 2] Sum in
  let l := [(1, 2, f64_one); (0, 0, f64_zero); (0, 1, f64_one)] in
  task_ok t [1; 0; 2] /\ arrivals_ok l /\
  run_scores t [1; 0; 2] l = Some [SubtaskScored 2 f64_zero f64_one; TestcaseScored 1 2 f64_one; TestcaseScored 0 0 f64_zero; TestcaseScored 0 1 f64_one;
    SubtaskScored 1 (f64_of_Z 60) f64_one; SubtaskScored 0 (f64_of_Z 20) (f64_tenths 5); TaskScored (f64_of_Z 80)].
Proof.
  split_and!; [split_and!| |by vm_compute].
  - apply (bool_decide_unpack _); by vm_compute.
  - apply (bool_decide_unpack _); by vm_compute.
  - intros st info tc Hin Htc. simpl. repeat (apply elem_of_cons in Hin as [[= -> ->]|Hin]; [simpl in Htc; set_solver|]). by apply elem_of_nil in Hin.
  - apply (bool_decide_unpack _); by vm_compute.
Qed.

(** ** C40: score aggregation *)

(** [Min] is the minimum. *)
Theorem C40_min x l : Forall unit_score (x :: l) -> exists r, aggregate Min (x :: l) = Some r /\ r ∈ x :: l /\ Forall (fun y => f64_R r <= f64_R y)%R (x :: l).
Proof.
  intros H. apply Forall_cons in H as [[Hx _] H]. destruct (min_from_spec l x Hx) as (r & Hr & Hm); [eapply Forall_impl; [exact H|]; by intros ? [? _]|].
  exists r. split; [exact Hr|]. by apply first_min_le.
Qed.
(** [Sum] is the mean, up to the rounding of the additions and of the division. *)
Theorem C40_sum l : l <> [] -> Forall unit_score l -> (Z.of_nat (length l) < 2 ^ 31)%Z ->
  exists r, aggregate Sum l = Some r /\ (Rabs (f64_R r - Rmean (map f64_R l)) <= (INR (length l) + 2) / 2 ^ 53)%R.
Proof.
  intros Hne Hl Hn. destruct (sum_mean l Hne Hl Hn) as (r & Hr & _ & _ & He). exists r. split; [done|].
  eapply Rle_trans; [exact He|]. right. unfold Rdiv. f_equal. simpl bpow. f_equal. simpl. lra.
Qed.
(** A subtask without testcases *)
Theorem C40_empty a : aggregate a [] = Some f64_one /\ f64_R f64_one = 1%R.
Proof. split; [by destruct a|apply f64_one_R]. Qed.
(** The aggregate is between 0 and 1, the score of the subtask between 0 and the maximum. *)
Theorem C40_bounds a l max : Forall unit_score l -> (Z.of_nat (length l) < 2 ^ 31)%Z -> fin max -> (0 <= f64_R max)%R ->
  exists n, aggregate a l = Some n /\ unit_score n /\ fin (f64_mul max n) /\ (0 <= f64_R (f64_mul max n) <= f64_R max)%R.
Proof.
  intros Hl Hn Hm H0. destruct (agg_unit a l Hl Hn) as (n & Hr & Hu). exists n. destruct (scaled max n Hm H0 Hu) as (H1 & H2 & _). done.
Qed.
(** Improving testcases never lowers the score of the subtask, not even by rounding. *)
Theorem C40_monotone a l l' n n' max : Forall unit_score l -> Forall unit_score l' -> Forall2 (fun x y => f64_R x <= f64_R y)%R l l' -> (Z.of_nat (length l) < 2 ^ 31)%Z ->
  fin max -> (0 <= f64_R max)%R -> aggregate a l = Some n -> aggregate a l' = Some n' -> (f64_R n <= f64_R n')%R /\ (f64_R (f64_mul max n) <= f64_R (f64_mul max n'))%R.
Proof.
  intros Hl Hl' Hb Hn Hm H0 Ha Ha'. pose proof (agg_mono a l l' n n' Hb Hl Hl' Hn Ha Ha') as Hle. split; [done|].
  destruct (agg_unit a l Hl Hn) as (q & Hq & Hu). rewrite Ha in Hq. injection Hq as <-.
  destruct (agg_unit a l' Hl') as (q & Hq & Hu'); [by rewrite <- (Forall2_length _ _ _ Hb)|]. rewrite Ha' in Hq. injection Hq as <-.
  destruct (scaled max n Hm H0 Hu) as (_ & _ & ->). destruct (scaled max n' Hm H0 Hu') as (_ & _ & ->). apply rnd_le. nra.
Qed.
(** Refuted: the scores of a custom checker are not checked.  With a score of 2 the subtask gets more than its maximum. *)
Theorem C40_unchecked_refuted : exists v n, aggregate Min [v] = Some n /\ f64_lt f64_one (f64_mul f64_one n) = true /\ fin v.
Proof. exists (f64_of_Z 2), (f64_of_Z 2). split_and!; [by vm_compute|by vm_compute|]. by split; vm_compute. Qed.
Example C40_example : Forall unit_score [f64_tenths 5; f64_one].
Proof.
  assert (f64_tenths 5 = S754_finite false 4503599627370496 (-53)) as -> by by vm_compute. repeat constructor; try (by apply f64_one_R); unfold f64_R; simpl; unfold F2R; simpl; lra.
Qed.

(** ** C41: communication tasks take the worst outcome *)
Section c41.
  Context (parse : list N -> option f64) (text : list N -> string) (show : status -> string).
  (** [n] processes and the manager, heard in any order (each of the [n + 1] calls counts one, whoever makes it): nothing is sent
      before the last of them, then the smallest score heard with the message of the first execution that gave it. *)
  Theorem C41_worst n l heard rs :
    length l = n + 1 -> mapM (group_answer parse text show) l = Some heard -> Forall no_nan (sent heard) ->
    group_run parse text show l (new_sender n) = Some rs ->
    exists answer, rs = replicate n None ++ [answer] /\ worst heard answer.
  Proof.
    intros Hl Hm Hn H. destruct (group_run_calls parse text show l (new_sender n)) as [E|E]; [|congruence]. rewrite E, Hm in H. simpl in H.
    assert (length heard = n + 1) as Hlen by (rewrite <- Hl; symmetry; by eapply mapM_length). unfold new_sender in H. rewrite sender_calls_spec, decide_True in H by lia.
    injection H as <-. exists (fold_left pick heard None). split.
    - unfold answers. destruct heard as [|a heard]; [simpl in Hlen; lia|]. rewrite decide_True by done. by replace (length (a :: heard) - 1) with n by lia.
    - apply (worst_fold heard [] None); [|done]. simpl. intros a Ha. by apply elem_of_nil in Ha.
  Qed.
  (** It never fails, if the output of the manager is a number when it succeeds. *)
  Theorem C41_total n l : length l <= n + 1 -> (forall r, ManagerDone r ∈ l -> is_Some (manager_answer parse text r)) ->
    is_Some (group_run parse text show l (new_sender n)).
  Proof.
    intros Hl Hm. destruct (group_run_calls parse text show l (new_sender n)) as [E|E].
    - rewrite E. destruct (mapM (group_answer parse text show) l) as [heard|] eqn:Em; simpl.
      + unfold new_sender. rewrite sender_calls_spec, decide_True; [by eexists|]. by rewrite <- (mapM_length _ _ _ Em).
      + apply mapM_None in Em. apply Exists_exists in Em as (e & Hin & He). destruct e as [s|r]; [done|]. simpl in He. destruct (Hm r Hin) as [a Ha]. by rewrite Ha in He.
    - apply mapM_None in E. apply Exists_exists in E as (e & Hin & He). destruct e as [s|r]; [done|]. simpl in He. destruct (Hm r Hin) as [a Ha]. by rewrite Ha in He.
  Qed.
  (** In particular: when all the processes succeed the score is that of the manager, when one of them fails it is 0 or the lower score of the manager. *)
  Theorem C41_meaning n statuses r l v m rs :
    length statuses = n -> l ≡ₚ ManagerDone r :: map ProcessDone statuses -> manager_answer parse text r = Some (v, m) -> no_nan v ->
    group_run parse text show l (new_sender n) = Some rs ->
    exists answer, rs = replicate n None ++ [Some answer] /\
      (Forall (fun s => s = Success) statuses -> answer = (v, m)) /\
      (Exists (fun s => s <> Success) statuses -> f64_lt f64_zero v = true -> answer.1 = f64_zero).
  Proof.
    intros Hs Hp Hv Hn H. assert (length l = n + 1) as Hl by (rewrite Hp; simpl; rewrite map_length; lia).
    assert (exists heard, mapM (group_answer parse text show) l = Some heard) as [heard Hm].
    { destruct (group_run_calls parse text show l (new_sender n)) as [E|E]; [rewrite E in H; destruct (mapM _ l); [by eexists|done]|].
      exfalso. apply mapM_None in E. apply Exists_exists in E as (e & Hin & He). rewrite Hp in Hin. apply elem_of_cons in Hin as [->|Hin]; [simpl in He; by rewrite Hv in He|]. by apply elem_of_list_fmap in Hin as (? & -> & _). }
    assert (heard ≡ₚ Some (v, m) :: map (process_answer show) statuses) as Hh.
    { pose proof (proj1 (mapM_Some _ _ _) Hm) as F2.
      destruct (Permutation.Permutation_Forall2 Hp F2) as (k & Hk & F). apply Forall2_cons_inv_l in F as (y & k' & Hy & F & ->). simpl in Hy. rewrite Hv in Hy. injection Hy as <-.
      rewrite Hk. constructor. assert (k' = map (process_answer show) statuses) as ->; [|done]. clear -F. revert k' F. induction statuses as [|s ss IH]; intros k' F; [by apply Forall2_nil_inv_l in F|].
      apply Forall2_cons_inv_l in F as (y & k2 & Hy & F & ->). simpl in *. injection Hy as <-. by rewrite (IH k2). }
    assert (forall v' m', Some (v', m') ∈ heard -> (v', m') = (v, m) \/ (v' = f64_zero /\ exists s, s ∈ statuses /\ s <> Success)) as Hin.
    { intros v' m' Hi. rewrite Hh in Hi. apply elem_of_cons in Hi as [[= -> ->]|Hi]; [by left|]. right. apply elem_of_list_fmap in Hi as (s & Ha & Hi). unfold process_answer in Ha.
      destruct (is_success s) eqn:Es; [done|]. injection Ha as -> ->. split; [done|]. exists s. split; [done|]. by intros ->. }
    destruct (C41_worst n l heard rs Hl Hm) as (answer & -> & Hw); [|done|].
    { apply Forall_forall. intros x Hx. apply elem_of_list_omap in Hx as ([[v' m']|] & Hx & He); [|done]. simpl in He. injection He as <-. destruct (Hin _ _ Hx) as [[= -> ->]|[-> _]]; done. }
    destruct answer as [[v0 m0]|].
    - exists (v0, m0). split; [done|]. destruct Hw as (l1 & l2 & Heq & H1 & H2). split.
      + intros Hall. destruct (Hin v0 m0) as [?|(_ & s & Hi & Hns)]; [rewrite Heq; apply elem_of_app; right; by left|done|]. rewrite Forall_forall in Hall. by destruct Hns; apply Hall.
      + intros Hex Hlt. simpl. destruct (Hin v0 m0) as [[= -> ->]|[-> _]]; [rewrite Heq; apply elem_of_app; right; by left| |done]. exfalso.
        apply Exists_exists in Hex as (s & Hi & Hns). assert (Some (f64_zero, show s) ∈ heard) as Hz.
        { rewrite Hh. right. apply elem_of_list_fmap. exists s. split; [|done]. unfold process_answer. by destruct s. }
        rewrite Heq in Hz. apply elem_of_app in Hz as [Hz|Hz].
        * apply H1 in Hz. apply f64_lt_asym in Hz; [congruence|done|done].
        * apply elem_of_cons in Hz as [[= <- _]|Hz]; [|apply H2 in Hz; congruence]. by vm_compute in Hlt.
    - exfalso. simpl in Hw. assert (Some (v, m) ∈ heard) as Hx by (rewrite Hh; by left). by apply Hw in Hx.
  Qed.
  (** A call more than [n + 1] is a panic. *)
  Theorem C41_extra n l : n + 1 < length l -> group_run parse text show l (new_sender n) = None.
  Proof.
    intros Hl. destruct (group_run_calls parse text show l (new_sender n)) as [E|E].
    - rewrite E. destruct (mapM (group_answer parse text show) l) as [heard|] eqn:Em; simpl; [|done]. unfold new_sender. rewrite sender_calls_spec, decide_False; [done|].
      rewrite <- (mapM_length _ _ _ Em). lia.
    - clear Hl. revert E. generalize (new_sender n). induction l as [|e l IH]; intros d E; simpl in *; [done|]. destruct (group_answer parse text show e) as [a|]; simpl in *; [|done].
      destruct (sender_call a d) as [[d' r]|]; simpl; [|done]. rewrite IH; [done|]. by destruct (mapM _ l).
  Qed.
  (** When the manager fails the score is 0 *)
  Theorem C41_failed_manager n statuses r l rs :
    length statuses = n -> l ≡ₚ ManagerDone r :: map ProcessDone statuses -> res_status r <> Success ->
    group_run parse text show l (new_sender n) = Some rs -> exists m, rs = replicate n None ++ [Some (f64_zero, m)].
  Proof.
    intros Hs Hp Hr H. assert (length l = n + 1) as Hl by (rewrite Hp; simpl; rewrite map_length; lia).
    assert (exists heard, mapM (group_answer parse text show) l = Some heard) as [heard Hm].
    { destruct (group_run_calls parse text show l (new_sender n)) as [E|E]; [rewrite E in H; destruct (mapM _ l); [by eexists|done]|].
      exfalso. apply mapM_None in E. apply Exists_exists in E as (e & Hin & He). rewrite Hp in Hin. apply elem_of_cons in Hin as [->|Hin]; [|by apply elem_of_list_fmap in Hin as (? & -> & _)].
      simpl in He. unfold manager_answer in He. by destruct (res_status r). }
    pose proof (proj1 (mapM_Some _ _ _) Hm) as F2.
    assert (forall v m, Some (v, m) ∈ heard -> v = f64_zero) as Hz.
    { intros v m Hin. apply elem_of_list_lookup in Hin as [i Hi]. destruct (Forall2_lookup_r _ _ _ _ _ F2 Hi) as (e & He & Ha). assert (e ∈ l) as Hel by (by eapply elem_of_list_lookup_2).
      rewrite Hp in Hel. apply elem_of_cons in Hel as [->|Hel].
      - simpl in Ha. unfold manager_answer in Ha. destruct (res_status r); try done; simpl in Ha; by injection Ha as <- _.
      - apply elem_of_list_fmap in Hel as (s & -> & _). simpl in Ha. unfold process_answer in Ha. destruct (is_success s); [done|]. by injection Ha as <- _. }
    assert (exists m, Some (f64_zero, m) ∈ heard) as [m0 Hm0].
    { assert (ManagerDone r ∈ l) as Hin by (rewrite Hp; by left). apply elem_of_list_lookup in Hin as [i Hi]. destruct (Forall2_lookup_l _ _ _ _ _ F2 Hi) as (a & Ha & Hb). simpl in Hb. unfold manager_answer in Hb.
      exists "Checker failed". eapply elem_of_list_lookup_2. rewrite Ha. destruct (res_status r); try done; simpl in Hb; by injection Hb as <-. }
    destruct (C41_worst n l heard rs Hl Hm) as (answer & -> & Hw); [|done|].
    { apply Forall_forall. intros x Hx. apply elem_of_list_omap in Hx as ([[v' m']|] & Hx & He); [|done]. simpl in He. injection He as <-. by rewrite (Hz _ _ Hx). }
    destruct answer as [[v0 m1]|].
    - destruct Hw as (l1 & l2 & Heq & _). assert (v0 = f64_zero) as ->. { apply (Hz v0 m1). rewrite Heq. apply elem_of_app. right. by left. } by exists m1.
    - exfalso. simpl in Hw. by apply Hw in Hm0.
  Qed.
  (** When all succeed, the score is the number that the manager printed and the message is its own, translated *)
  Theorem C41_manager_message n statuses r l rs out err v :
    length statuses = n -> l ≡ₚ ManagerDone r :: map ProcessDone statuses -> Forall (fun s => s = Success) statuses ->
    res_status r = Success -> res_stdout r = Some out -> res_stderr r = Some err -> parse out = Some v -> no_nan v ->
    group_run parse text show l (new_sender n) = Some rs ->
    exists m, rs = replicate n None ++ [Some (v, m)] /\
      (text err = "translate:success" -> m = "Output is correct") /\ (text err = "translate:partial" -> m = "Output is partially correct") /\
      (text err = "translate:wrong" -> m = "Output is incorrect") /\
      (text err <> "translate:success" -> text err <> "translate:partial" -> text err <> "translate:wrong" -> m = text err).
  Proof.
    intros Hs Hp Hall Hr Ho He Hv Hn H. assert (manager_answer parse text r = Some (v, translate (text err))) as Ha by (unfold manager_answer; rewrite Hr, Ho, He; simpl; by rewrite Hv).
    destruct (C41_meaning n statuses r l v _ rs Hs Hp Ha Hn H) as (answer & -> & Hans & _). rewrite (Hans Hall). eexists. split; [done|]. unfold translate. split_and!.
    - intros ->. done.
    - intros ->. done.
    - intros ->. done.
    - intros H1 H2 H3. by rewrite !decide_False.
  Qed.
  (** A manager that succeeds and prints something that is not a number is an error of the evaluation, whoever was heard before. *)
  Theorem C41_bad_manager n l r : ManagerDone r ∈ l -> res_status r = Success -> (stdout ← res_stdout r; parse stdout) = None ->
    group_run parse text show l (new_sender n) = None.
  Proof.
    intros Hin Hs Hp. generalize (new_sender n). induction l as [|e l IH]; intros d; [by apply elem_of_nil in Hin|]. simpl. apply elem_of_cons in Hin as [<-|Hin].
    - simpl. unfold manager_answer. rewrite Hs. simpl. destruct (res_stdout r) as [o|]; simpl in *; [|done]. destruct (res_stderr r); simpl; [|done]. by rewrite Hp.
    - destruct (group_answer parse text show e); simpl; [|done]. destruct (sender_call o d) as [[d' r']|]; simpl; [|done]. by rewrite IH.
  Qed.
End c41.
Example C41_example : group_run (fun _ => Some f64_one) (fun _ => "ok"%string) (fun _ => "failed"%string)
   [ManagerDone (ExecResult Success false false (Resources 0 0 0 0) (Some []) (Some [])); ProcessDone Success; ProcessDone TimeLimitExceeded] (new_sender 2)
  = Some [None; None; Some (f64_zero, "failed"%string)].
Proof. done. Qed.

(** ** C50: score status classification *)
Theorem C50_status s max : fin s -> fin max -> (0 <= f64_R s)%R -> (2 / 1000 + / 2 ^ 60 <= f64_R max)%R ->
  (from_score s max = StWrongAnswer <-> f64_R s = 0%R) /\
  (from_score s max = StAccepted <-> f64_R s <> 0%R /\ (Rabs (f64_R s - f64_R max) < f64_R f64_thousandth)%R) /\
  (1 / 1000 < f64_R f64_thousandth < 1 / 1000 + / 2 ^ 60)%R.
Proof.
  intros Hs Hm H0 H1. assert (bpow radix2 (-65) < / 2 ^ 60)%R as Hb1 by (simpl; lra). assert (bpow radix2 (-64) < / 2 ^ 60)%R as Hb2 by (simpl; lra).
  pose proof (near_iff s max Hs Hm H0 ltac:(lra)) as Hnear. pose proof (f64_eq_R s f64_zero Hs (proj1 f64_zero_R)) as Hz. rewrite (proj2 f64_zero_R) in Hz.
  destruct thousandth_R as [_ Ht]. split; [|split; [|lra]].
  - unfold from_score. destruct (f64_eq s f64_zero) eqn:E; [split; [intros _; by apply Hz|done]|]. split.
    + destruct (f64_lt _ _); done.
    + intros H. by apply Hz in H.
  - unfold from_score. destruct (f64_eq s f64_zero) eqn:E.
    + split; [done|]. intros [H _]. destruct H. by apply Hz.
    + rewrite <- Hnear. destruct (f64_lt _ _); split; try done; [intros _; split; [|done]; intros H; by apply Hz in H|by intros [_ ?]].
Qed.
(** The maximum 1.0, used for the testcases, meets the hypotheses. *)
Example C50_one : fin f64_one /\ (2 / 1000 + / 2 ^ 60 <= f64_R f64_one)%R.
Proof. split; [apply f64_one_R|]. rewrite (proj2 f64_one_R). simpl. lra. Qed.
(** For any maximum and score: [WrongAnswer] iff the score is 0, so a subtask of 0 points is always wrong. *)
Theorem C50_zero s max : fin s -> from_score s max = StWrongAnswer <-> f64_R s = 0%R.
Proof.
  intros Hs. pose proof (f64_eq_R s f64_zero Hs (proj1 f64_zero_R)) as Hz. rewrite (proj2 f64_zero_R) in Hz. unfold from_score.
  destruct (f64_eq s f64_zero) eqn:E; [split; [intros _; by apply Hz|done]|]. split; [destruct (f64_lt _ _); done|]. intros H. by apply Hz in H.
Qed.
(** A score that is not a number, or infinite, is partial. *)
Theorem C50_odd max : fin max -> from_score S754_nan max = StPartialScore /\ forall b, from_score (S754_infinity b) max = StPartialScore.
Proof. intros [_ H]. destruct max as [?| | |? ? ?]; try done; split; try done; intros []; done. Qed.

(** ** C61: a solution of a batch task is scored in full *)
Section c61.
  Context (parse : list N -> option f64) (text : list N -> string).
  (** Whatever the checker and the order in which the executions are heard, no testcase is scored twice. *)
  Theorem C61_once c l la : batch_ok l -> batch_arrivals parse text c l = Some la -> arrivals_ok la.
  Proof. apply batch_nodup. Qed.
  (** With the built-in checker, when every execution was heard: every subtask gets its score, exactly once, and the total is sent exactly once. *)
  Theorem C61_white_diff t order l la evs :
    task_ok t order -> order <> [] -> batch_ok l -> batch_complete t l -> batch_arrivals parse text WhiteDiff l = Some la -> run_scores t order la = Some evs ->
    (forall st info, (st, info) ∈ tk_subtasks t -> exists score n, omap (subtask_scored st) evs = [(score, n)]) /\
    exists s, omap task_scored evs = [s].
  Proof.
    intros Hok Hne Hb Hc Hl H. pose proof (C61_once _ _ _ Hb Hl) as Ha. destruct (C39_scores_partial t order la evs Hok Hne Ha H) as (H1 & H2 & _).
    assert (forall st info, (st, info) ∈ tk_subtasks t -> exists r, expected (tk_aggregator t) la info = Some r) as He.
    { intros st info Hin. unfold expected. assert (exists scores, subtask_scores la info = Some scores /\ Forall (fun v => v <> S754_nan) scores) as (scores & -> & Hn).
      { unfold subtask_scores. assert (forall tc, tc ∈ st_testcases info -> tc ∈ tk_testcases t) as Htc by (intros; destruct Hok as (_ & _ & Hok); by eapply Hok).
        induction (st_testcases info) as [|tc tcs IH]; [by exists []|]. destruct IH as (ss & IH & Hf); [intros; apply Htc; by right|].
        destruct (white_diff_complete _ _ _ _ _ Hl Hb Hc tc) as (v & Hv & Hv'); [apply Htc; by left|]. exists (v :: ss). simpl. rewrite Hv, IH. split; [done|]. constructor; [by destruct Hv' as [-> | ->]|done]. }
      simpl. destruct (aggregate_total t scores Hn) as [n ->]. simpl. by eexists. }
    split.
    - intros st info Hin. rewrite (H1 _ _ Hin). destruct (He _ _ Hin) as [[score n] ->]. by exists score, n.
    - rewrite H2. unfold total.
      assert (exists all, mapM (fun st => info ← info_of t st; r ← expected (tk_aggregator t) la info; Some r.1) order = Some all) as [all ->]; [|by eexists].
      assert (forall st, st ∈ order -> is_Some (info_of t st)) as Ho by (intros st Hst; by apply (order_in t order Hok)).
      clear -He Ho. induction order as [|st order IH]; [by exists []|]. simpl. destruct (Ho st) as [info Hi]; [by left|]. rewrite Hi. simpl.
      destruct (He st info) as [r Hr]; [by apply in_info|]. rewrite Hr. simpl. destruct IH as [all ->]; [intros; apply Ho; by right|]. by eexists.
  Qed.
End c61.
(** The first testcase is solved, on the second the solution fails. *)
Example C61_example :
  let t := ScoreTask [(0, SubtaskInfo f64_one [0; 1])] [0; 1] Sum in
  let l := [SolutionDone 0 1 TimeLimitExceeded; SolutionDone 0 0 Success; CheckerDone 0 0 (ExecResult Success false false (Resources 0 0 0 0) None None)] in
  batch_ok l /\ batch_complete t l /\ batch_arrivals (fun _ => None) (fun _ => ""%string) WhiteDiff l = Some [(0, 1, f64_zero); (0, 0, f64_one)].
Proof.
  split_and!; [split_and!| |done].
  - apply (bool_decide_unpack _); by vm_compute.
  - apply (bool_decide_unpack _); by vm_compute.
  - intros tc s [[= -> ->]|[[= -> ->]|[]%elem_of_nil]%elem_of_cons]%elem_of_cons Hc; [|done]. cbn in Hc. by apply elem_of_list_singleton in Hc.
  - intros tc [->|[->|[]%elem_of_nil]%elem_of_cons]%elem_of_cons.
    + exists Success. split; [cbn; right; by left|]. intros _. by left.
    + exists TimeLimitExceeded. split; [by left|done].
Qed.
(** Refuted: with a custom checker that fails, or prints something that is not a number, the testcase has no score, its subtask has no score and there is no total (the
    user only gets a diagnostic) *)
Theorem C61_custom_refuted : exists parse text t order l la evs, task_ok t order /\ order <> [] /\ batch_ok l /\ batch_complete t l /\
  batch_arrivals parse text CustomChecker l = Some la /\ run_scores t order la = Some evs /\ evs = [].
Proof.
  exists (fun _ => None), (fun _ => ""%string), (ScoreTask [(0, SubtaskInfo f64_one [0])] [0] Min), [0],
    [SolutionDone 0 0 Success; CheckerDone 0 0 (ExecResult Success false false (Resources 0 0 0 0) (Some []) (Some []))]. eexists _, _.
  split_and!; [split_and!; [by apply (bool_decide_unpack _); vm_compute|done|]|done| | |by vm_compute|by vm_compute|done].
  - intros st info tc [= -> ->]%elem_of_list_singleton Htc. done.
  - split_and!; [by apply (bool_decide_unpack _); vm_compute|by apply (bool_decide_unpack _); vm_compute|]. intros tc s [= -> ->]%elem_of_list_singleton _. done.
  - intros tc ->%elem_of_list_singleton. exists Success. split; [by left|]. intros _. by left.
Qed.
(** ... and when [diff] ends in another way than 0 and 1, for instance because it was killed, the evaluation panics. *)
Theorem C61_diff_refuted parse text r st tc : res_status r <> Success -> res_status r <> ReturnCode 1 -> batch_arrivals parse text WhiteDiff [CheckerDone st tc r] = None.
Proof.
  intros H1 H2. unfold batch_arrivals. simpl. destruct (res_status r) as [|z| | | | | |]; simpl; try done. destruct z as [|[?|?|]|]; done.
Qed.

Print Assumptions C39_scores_partial.
Print Assumptions C39_at_the_last_testcase.
Print Assumptions C39_any_order.
Print Assumptions C39_no_panic.
Print Assumptions C40_sum.
Print Assumptions C40_bounds.
Print Assumptions C40_monotone.
Print Assumptions C41_worst.
Print Assumptions C41_meaning.
Print Assumptions C50_status.
Print Assumptions C61_white_diff.
