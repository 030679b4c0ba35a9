(** * LifeProofs: lemmas for C77 *)
From Verif Require Import LifeModel.
From stdpp Require Import base list.

(** ** Sums *)
Fixpoint sum_of {A} (f : A -> nat) (l : list A) : nat := match l with [] => 0 | x :: l => f x + sum_of f l end.
Lemma sum_of_app {A} (f : A -> nat) l1 l2 : sum_of f (l1 ++ l2) = sum_of f l1 + sum_of f l2.
Proof. induction l1 as [|x l1 IH]; cbn; [done|]. lia. Qed.
Lemma sum_of_insert {A} (f : A -> nat) l i x y : l !! i = Some x -> sum_of f (<[i := y]> l) + f x = sum_of f l + f y.
Proof. revert i. induction l as [|z l IH]; intros [|i] H; try done; [injection H as ->; cbn; lia|]. specialize (IH i H). change (<[S i := y]> (z :: l)) with (z :: <[i := y]> l). cbn [sum_of]. lia. Qed.
Lemma sum_of_alter {A} (f : A -> nat) l i g d : (forall x, f (g x) = f x + d) -> sum_of f (alter g i l) <= sum_of f l + d.
Proof. intros Hg. revert i. induction l as [|z l IH]; intros [|i]; try (cbn; rewrite ?Hg; lia). specialize (IH i). change (alter g (S i) (z :: l)) with (z :: alter g i l). cbn [sum_of]. lia. Qed.
Lemma sum_of_replicate {A} (f : A -> nat) n x : sum_of f (replicate n x) = n * f x.
Proof. induction n as [|n IH]; cbn; [done|]. lia. Qed.

(** ** Lexicographic order *)
Fixpoint lex_lt (a b : list nat) : Prop :=
  match a, b with
  | x :: a, y :: b => x < y \/ (x = y /\ lex_lt a b)
  | _, _ => False
  end.
Lemma lex_lt_wf n : forall l, length l = n -> Acc (fun a b => length a = n /\ lex_lt a b) l.
Proof.
  induction n as [|n IH]; intros l Hl.
  { constructor. intros y [Hy H]. destruct y; [|done]. by destruct H. }
  destruct l as [|x l]; [done|]. injection Hl as Hl. revert l Hl. induction (lt_wf x) as [x _ IHx]. intros l Hl.
  induction (IH l Hl) as [l _ IHl]. constructor. intros y [Hy H]. destruct y as [|z y]; [done|]. injection Hy as Hy. destruct H as [H|[-> H]].
  - by apply IHx.
  - by apply IHl.
Qed.

(** ** The measure *)
Definition client_rank (c : client_phase) : nat :=
  match c with CStart => 9 | CEval _ => 8 | CLeft _ => 7 | CTaken => 6 | CJoin _ => 5 | CStopUI _ => 4 | CJoinUI _ => 3 | CExit _ | CAbort => 0 end.
Definition a_eval (m : a_msg) : nat := match m with AEvaluate => 1 | _ => 0 end.
Definition a_other (m : a_msg) : nat := match m with AProvide | AStop | AStatus => 1 | _ => 0 end.
Definition a_ask (m : a_msg) : nat := match m with AAsk => 1 | _ => 0 end.
Definition b_ask (m : b_msg) : nat := match m with BAsk => 2 | _ => 0 end.
Definition b_done (m : b_msg) : nat := match m with BDone => 1 | _ => 0 end.
Definition d_done (m : d_msg) : nat := match m with DDone => 2 | _ => 0 end.
Definition e_job (m : e_msg) : nat := match m with EJob _ => 11 | _ => 0 end.
Definition f_work (m : f_msg) : nat := match m with FWork => 10 | _ => 0 end.
Definition g_out (m : g_msg) : nat := match m with GGet => 2 | GDone => 3 end.
Definition w_weight (x : worker) : nat := sum_of f_work (w_in x) + (match w_phase x with WIdle => 0 | WBusy => 9 | WWait => 5 end) + sum_of g_out (w_out x).
Definition w_rest (x : worker) : nat := length (w_in x) + (if w_gone x then 0 else 1).
Definition measure (s : life) : list nat :=
  [ client_rank (cl s);
    sum_of a_eval (qa s);
    sum_of b_ask (qb s) + sum_of a_other (qa s);
    (match mg s with MRun _ => 2 | MLeave _ => 1 | _ => 0 end);
    (match sc s with SchRun _ _ => 1 | _ => 0 end);
    (if wm s then 1 else 0);
    12 * work s + length (qc s) + sum_of e_job (qe s) + sum_of w_weight (ws s);
    sum_of d_done (qd s) + sum_of b_done (qb s);
    sum_of a_ask (qa s);
    2 * length (qd s) + length (qb s);
    2 * length (qe s) + sum_of w_rest (ws s);
    length (qu s) ].

Ltac lexs := cbn [lex_lt]; repeat (first [left; lia | right; split; [lia|]]); try lia.
Ltac sums := repeat first [rewrite sum_of_app | rewrite sum_of_replicate | rewrite app_length]; cbn [sum_of length].
Lemma leave_lex r s s0 : client_rank (cl s0) > 7 -> lex_lt (measure (leave r s)) (measure s0).
Proof. intros H. left. unfold leave. destruct (poller s), r; cbn; lia. Qed.
Lemma ui_lex l s s0 : lex_lt (take 11 (measure s)) (take 11 (measure s0)) -> lex_lt (measure (ui_send l s)) (measure s0).
Proof. unfold measure. cbn [take cl qa qb mg sc wm work qc qe ws qd qu ui_send lex_lt]. intuition. Qed.
Ltac flat := cbn [measure cl slot poller qa mg qb sc work qc qd wm qe ws ui qu shown sent
  set_client set_slot set_poller set_qa set_manager set_qb set_sched set_work set_qc set_qd set_wm set_qe set_ws ui_send ui_recv].
Lemma map_EKill ks : sum_of e_job (map EKill ks) = 0.
Proof. induction ks as [|k ks IH]; [done|]. cbn. lia. Qed.
Lemma map_EJob js : sum_of e_job (map EJob js) = 11 * length js.
Proof. induction js as [|k js IH]; [done|]. cbn. lia. Qed.

Lemma step_lex local valid s s' : step local valid s s' -> lex_lt (measure s') (measure s).
Proof.
  destruct 1 as [s l Hc Ha Hl|s r l Hc Hr Hl|s Hc|s m q Hc Hm Hq|s m q l Hc Hm Hq Hl|s m q l Hc Hm Hq Hl|s m q Hc Hm Hq|s m q k l Hc Hm Hq Hl|s m Hc Hm Hq Hr Ha|s m b q r l Hc Hm Hq Hr Hl
    |s Hc|s Hc|s r l Hc Hl|s r Hc He|s r Hc|s r Hc Hu
    |s h m q k found Hg Hq|s h Hg Hq Ha|s h Hg|s kn dn m q ns js ks Hs Hq Hj Hn|s d q Hq|s m q Hw Hq
    |s w x m q Hw Hq He|s w x Hw Hp|s w x Hw Hp He|s w x Hw Hp He Hg|s w x m q Hw Hq Hs|s w x m q Hw Hq Hs|s m q Hu Hq].
  - left. rewrite Hc. cbn. lia.
  - apply ui_lex. left. cbn [measure take]. rewrite Hc. unfold leave. destruct (poller s), r; cbn; lia.
  - apply leave_lex. rewrite Hc. cbn. lia.
  - destruct (manager_alive s); [|apply leave_lex; rewrite Hc; cbn; lia]. unfold measure. flat. rewrite Hq, Hc. sums. cbn [a_eval a_other b_ask]. lexs.
  - unfold measure. flat. rewrite Hq, Hc. sums. cbn [client_rank b_ask b_done]. lexs.
  - unfold measure. flat. rewrite Hq, Hc. sums. cbn [client_rank b_ask b_done]. lexs.
  - destruct (manager_alive s); apply leave_lex; rewrite Hc; cbn; lia.
  - apply ui_lex. destruct (manager_alive s || bool_decide (k = 0)).
    + unfold measure. flat. rewrite Hq, Hc. sums. cbn [client_rank a_eval a_other b_ask b_done take]. lexs.
    + left. cbn [measure take]. rewrite Hc. unfold leave. cbn. destruct (poller s); cbn; lia.
  - apply leave_lex. rewrite Hc. cbn. lia.
  - apply ui_lex. left. cbn [measure take]. rewrite Hc. unfold leave. cbn. destruct (poller s), r; cbn; lia.
  - left. rewrite Hc. cbn. lia.
  - left. rewrite Hc. destruct (slot s && manager_alive s); cbn; lia.
  - left. rewrite Hc. cbn. lia.
  - left. rewrite Hc. cbn. lia.
  - left. rewrite Hc. cbn. lia.
  - left. rewrite Hc. cbn. lia.
  - destruct m; cbn [manager_msg]; [destruct valid; [destruct h|]|destruct h|destruct found|destruct h|destruct h]; unfold measure; flat; rewrite Hq, ?Hg; sums; cbn [a_eval a_other a_ask b_ask b_done]; lexs.
  - unfold measure, manager_end. flat. rewrite Hg. destruct h; sums; lexs.
  - unfold measure, manager_end. flat. rewrite Hg. destruct h; sums; lexs.
  - assert (m = SExit \/ m = SDisconnect \/ sched_msg m kn dn ns js ks (set_qc q s) = set_sched (SchRun (kn || bool_decide (m = SEvaluate)) (dn || bool_decide (DDone ∈ ns)))
        (set_work (work s - length js) (set_qd (qd s ++ ns) (set_qe (qe s ++ map EJob js) (set_qc q s))))) as [->|[->|E]] by (destruct m; auto).
    + unfold measure. cbn [sched_msg]. flat. rewrite Hs. lexs.
    + unfold measure. cbn [sched_msg]. flat. rewrite Hs, Hq. sums. rewrite map_EKill. lexs.
    + rewrite E. unfold measure. flat. rewrite Hs, Hq. sums. rewrite map_EJob. lexs.
  - unfold measure. flat. rewrite Hq. sums. destruct d; cbn [binder_msg d_done b_done b_ask]; lexs.
  - destruct m as [w|w|]; cbn [wm_msg]; unfold worker_send, measure; flat; rewrite Hq; sums; cbn [e_job].
    + match goal with |- context [alter ?g w (ws s)] => pose proof (sum_of_alter w_weight (ws s) w g 10) as E; pose proof (sum_of_alter w_rest (ws s) w g 1) as E' end.
      rewrite Hw. assert (sum_of w_weight (alter (fun x => Worker (w_phase x) (w_in x ++ [FWork]) (w_out x) (w_exiting x) (w_gone x)) w (ws s)) <= sum_of w_weight (ws s) + 10) as E1.
      { apply E. intros x. unfold w_weight. cbn [w_in w_phase w_out]. sums. cbn [f_work]. lia. }
      lexs.
    + match goal with |- context [alter ?g w (ws s)] => pose proof (sum_of_alter w_weight (ws s) w g 0) as E; pose proof (sum_of_alter w_rest (ws s) w g 1) as E' end.
      rewrite Hw. match goal with |- context [alter ?g w (ws s)] => assert (sum_of w_weight (alter g w (ws s)) <= sum_of w_weight (ws s) + 0) as E1; [|assert (sum_of w_rest (alter g w (ws s)) <= sum_of w_rest (ws s) + 1) as E2] end.
      { apply E. intros x. unfold w_weight. cbn [w_in w_phase w_out]. sums. cbn [f_work]. lia. }
      { apply E'. intros x. unfold w_rest. cbn [w_in w_gone]. sums. lia. }
      cbn [lex_lt]. do 6 (right; split; [lia|]). destruct (decide (sum_of w_weight (alter (fun x => Worker (w_phase x) (w_in x ++ [FKill]) (w_out x) (w_exiting x) (w_gone x)) w (ws s)) = sum_of w_weight (ws s))); lexs.
    + rewrite Hw. lexs.
  - assert (Hpw : w_weight (worker_msg m (pop_in x)) < w_weight x \/ w_weight (worker_msg m (pop_in x)) = w_weight x /\ w_rest (worker_msg m (pop_in x)) < w_rest x).
    { unfold w_weight, w_rest, pop_in. destruct m, (w_phase x) eqn:Ep; cbn [worker_msg w_in w_phase w_out w_gone]; rewrite ?Ep; cbn [w_in w_phase w_out w_gone]; rewrite Hq; sums; cbn [f_work g_out]; rewrite ?skipn_cons, ?drop_0; cbn [length]; lia. }
    unfold measure. flat. pose proof (sum_of_insert w_weight _ _ _ (worker_msg m (pop_in x)) Hw). pose proof (sum_of_insert w_rest _ _ _ (worker_msg m (pop_in x)) Hw).
    cbn [lex_lt]. do 6 (right; split; [lia|]). destruct Hpw as [Hpw|[Hpw Hpr]]; lexs.
  - match goal with |- context [<[w := ?y]> _] => pose proof (sum_of_insert w_weight _ _ _ y Hw) as E; assert (w_weight y < w_weight x) as Ey end.
    { unfold w_weight. cbn [w_in w_phase w_out]. rewrite Hp. sums. cbn [g_out]. lia. }
    unfold measure. flat. lexs.
  - match goal with |- context [<[w := ?y]> _] => pose proof (sum_of_insert w_weight _ _ _ y Hw) as E; assert (w_weight y < w_weight x) as Ey end.
    { unfold w_weight. cbn [w_in w_phase w_out]. rewrite Hp. lia. }
    unfold measure. flat. lexs.
  - match goal with |- context [<[w := ?y]> _] => pose proof (sum_of_insert w_weight _ _ _ y Hw) as E; pose proof (sum_of_insert w_rest _ _ _ y Hw) as E'; assert (w_weight y = w_weight x) as Ey; [|assert (w_rest y < w_rest x) as Ey'] end.
    { unfold w_weight. cbn [w_in w_phase w_out]. by rewrite Hp. }
    { unfold w_rest. cbn [w_in w_gone]. rewrite Hg. lia. }
    unfold measure. flat. lexs.
  - match goal with |- context [<[w := ?y]> _] => pose proof (sum_of_insert w_weight _ _ _ y Hw) as E; assert (w_weight y + 1 < w_weight x) as Ey end.
    { unfold w_weight, out_msg. cbn [w_in w_phase w_out]. rewrite Hq. destruct m; sums; cbn [g_out f_work]; rewrite ?skipn_cons, ?drop_0; sums; cbn [g_out f_work]; lia. }
    unfold measure. flat. sums. lexs.
  - match goal with |- context [<[w := ?y]> _] => pose proof (sum_of_insert w_weight _ _ _ y Hw) as E; assert (w_weight y < w_weight x) as Ey end.
    { unfold w_weight, out_msg. cbn [w_in w_phase w_out]. rewrite Hq. destruct m; sums; cbn [g_out f_work]; rewrite ?skipn_cons, ?drop_0; sums; cbn [g_out f_work]; lia. }
    unfold measure. flat. lexs.
  - unfold measure. flat. rewrite Hq. cbn [length]. lexs.
Qed.
Lemma step_acc local valid s : Acc (fun s' s => step local valid s s') s.
Proof.
  remember (measure s) as v eqn:E. assert (Hv : length v = 12) by (by rewrite E). revert s E. induction (lex_lt_wf 12 v Hv) as [v _ IH]. intros s ->.
  constructor. intros s' Hs. apply (IH (measure s')); [|done|done]. split; [done|]. by eapply step_lex.
Qed.
