(** * ScoreProofs2: the score of communication and batch tasks *)
From Verif Require Import ScoreSpec ScoreProofs.

(** ** The order of the scores that are not NaN *)
Lemma f64_cmp_total x y : no_nan x -> no_nan y -> exists c, f64_cmp x y = Some c.
Proof. unfold no_nan, f64_cmp. destruct x as [?|?| |? ? ?], y as [?|?| |? ? ?]; try done; eexists; reflexivity. Qed.

(** A total order embeds the numbers that are not NaN: the sign, then the exponent, then the mantissa. *)
Definition key (x : f64) : Z * Z * Z :=
  match x with
  | S754_zero _ | S754_nan => (0, 0, 0)%Z
  | S754_infinity true => (-2, 0, 0)%Z
  | S754_infinity false => (2, 0, 0)%Z
  | S754_finite true m e => (-1, - e, Z.neg m)%Z
  | S754_finite false m e => (1, e, Z.pos m)%Z
  end.
Definition klt (a b : Z * Z * Z) : Prop := (a.1.1 < b.1.1 \/ (a.1.1 = b.1.1 /\ (a.1.2 < b.1.2 \/ (a.1.2 = b.1.2 /\ a.2 < b.2))))%Z.
Lemma f64_lt_key x y : no_nan x -> no_nan y -> f64_lt x y = true <-> klt (key x) (key y).
Proof.
  unfold no_nan, f64_lt, SFltb, klt.
  destruct x as [[]|[]| |[] m e], y as [[]|[]| |[] m' e']; intros Hx Hy; try done; simpl;
    try (split; [try done; lia|intros; try done; lia]).
  all: destruct (Z.compare_spec e e') as [H|H|H]; simpl.
  all: try (change (Pos.compare_cont Eq m m') with (Pos.compare m m'); destruct (Pos.compare_spec m m')); simpl.
  all: split; intros; try done; lia.
Qed.
Lemma f64_lt_trans_ge x y z : no_nan x -> no_nan y -> no_nan z -> f64_lt x y = false -> f64_lt y z = false -> f64_lt x z = false.
Proof.
  intros Hx Hy Hz. rewrite <- !not_true_iff_false, !f64_lt_key by done. unfold klt. lia.
Qed.
Lemma f64_lt_trans x y z : no_nan x -> no_nan y -> no_nan z -> f64_lt x y = true -> f64_lt z y = false -> f64_lt x z = true.
Proof. intros Hx Hy Hz. rewrite <- !not_true_iff_false, !f64_lt_key by done. unfold klt. lia. Qed.
Lemma f64_lt_asym x y : no_nan x -> no_nan y -> f64_lt x y = true -> f64_lt y x = false.
Proof. intros Hx Hy. rewrite <- !not_true_iff_false, !f64_lt_key by done. unfold klt. lia. Qed.

(** ** The sender *)
Definition pick (old a : option (f64 * string)) : option (f64 * string) :=
  match a, old with
  | Some (score, message), None => Some (score, message)
  | Some (score, message), Some old => if f64_lt score old.1 then Some (score, message) else Some old
  | None, old => old
  end.
Lemma sender_call_S a k old : sender_call a (SenderData (S k) old) = Some (SenderData k (pick old a), if decide (k = 0) then pick old a else None).
Proof.
  unfold sender_call, maybe_flush. rewrite decide_True by (simpl; lia). simpl. rewrite Nat.sub_0_r. destruct k as [|k]; simpl; [done|]. done.
Qed.
Lemma worst_snoc l a old : Forall no_nan (sent (l ++ [a])) -> worst l old -> worst (l ++ [a]) (pick old a).
Proof.
  intros Hn Hw. unfold sent in Hn. rewrite omap_app in Hn. apply Forall_app in Hn as [Hl Ha].
  destruct a as [[v m]|]; simpl.
  - cbn in Ha. apply Forall_cons in Ha as [Hv _]. destruct old as [[v0 m0]|].
    + destruct Hw as (l1 & l2 & -> & H1 & H2). simpl. cbn in Hl. rewrite omap_app in Hl. apply Forall_app in Hl as [Hl1 Hl2]. cbn in Hl2. apply Forall_cons in Hl2 as [Hv0 Hl2].
      assert (forall (v' : f64) (m' : string) (L : list (option (f64 * string))), Forall no_nan (omap (fmap fst) L) -> Some (v', m') ∈ L -> no_nan v') as Hin.
      { intros v' m' L HL Hin. rewrite Forall_forall in HL. apply HL. apply elem_of_list_omap. by exists (Some (v', m')). }
      destruct (f64_lt v v0) eqn:E.
      * exists (l1 ++ Some (v0, m0) :: l2), []. split_and!; [done| |by intros ? ? ?%elem_of_nil].
        intros v' m' [H|[H|H]%elem_of_cons]%elem_of_app.
        -- pose proof (Hin _ _ _ Hl1 H). apply (f64_lt_trans v v0 v'); try done. apply f64_lt_asym; try done. by eapply H1.
        -- injection H as -> ->. done.
        -- pose proof (Hin _ _ _ Hl2 H). apply (f64_lt_trans v v0 v'); try done. by eapply H2.
      * exists l1, (l2 ++ [Some (v, m)]). split_and!; [by rewrite <- app_assoc|done|]. intros v' m' [H|H]%elem_of_app; [by eapply H2|]. apply elem_of_list_singleton in H. by injection H as -> ->.
    + simpl in Hw. exists l, []. split_and!; [done| |by intros ? ? ?%elem_of_nil]. intros v' m' H. by apply Hw in H.
  - destruct old as [[v0 m0]|].
    + destruct Hw as (l1 & l2 & -> & H1 & H2). exists l1, (l2 ++ [None]). split_and!; [by rewrite <- app_assoc|done|]. intros v' m' [H|H]%elem_of_app; [by eapply H2|]. by apply elem_of_list_singleton in H.
    + simpl in *. intros a [H|H]%elem_of_app; [by apply Hw|]. by apply elem_of_list_singleton in H.
Qed.
Lemma worst_fold l2 : forall l1 old, worst l1 old -> Forall no_nan (sent (l1 ++ l2)) -> worst (l1 ++ l2) (fold_left pick l2 old).
Proof.
  induction l2 as [|a l2 IH]; intros l1 old Hw Hn; simpl; [by rewrite app_nil_r|].
  assert (l1 ++ a :: l2 = (l1 ++ [a]) ++ l2) as Heq by by rewrite <- app_assoc. rewrite Heq in *.
  apply IH; [|done]. apply worst_snoc; [|done]. unfold sent in *. rewrite omap_app in Hn. by apply Forall_app in Hn as [? _].
Qed.
(** The answers: nothing before the last call *)
Definition answers (l : list (option (f64 * string))) (k : nat) (old : option (f64 * string)) : list (option (f64 * string)) :=
  match l with [] => [] | _ => replicate (length l - 1) None ++ [if decide (length l = k) then fold_left pick l old else None] end.
Lemma sender_calls_spec l : forall k old, sender_calls l (SenderData k old) = if decide (length l <= k) then Some (answers l k old) else None.
Proof.
  induction l as [|a l IH]; intros k old.
  - by rewrite decide_True by (simpl; lia).
  - simpl. destruct k as [|k]; [by rewrite decide_False by lia|]. rewrite sender_call_S. simpl. rewrite IH. destruct (decide (length l <= k)) as [Hle|Hle].
    + rewrite (decide_True (P := S (length l) <= S k)) by lia. simpl. f_equal. unfold answers. simpl. rewrite Nat.sub_0_r. destruct l as [|b l]; simpl.
      * destruct k as [|k]; simpl; done.
      * rewrite Nat.sub_0_r. rewrite (decide_False (P := k = 0)) by (simpl in Hle; lia). f_equal.
        destruct (decide (S (length l) = k)); [rewrite decide_True by lia|rewrite decide_False by lia]; done.
    + simpl. by rewrite (decide_False (P := S (length l) <= S k)) by lia.
Qed.
Lemma group_run_calls parse text show l d :
  group_run parse text show l d = (heard ← mapM (group_answer parse text show) l; sender_calls heard d) \/ mapM (group_answer parse text show) l = None.
Proof.
  revert d. induction l as [|e l IH]; intros d; simpl; [by left|]. destruct (group_answer parse text show e) as [a|]; simpl; [|by right].
  destruct (mapM (group_answer parse text show) l) as [heard|] eqn:E; simpl; [|by right]. left. destruct (sender_call a d) as [[d' r]|]; simpl; [|done].
  destruct (IH d') as [->|?]; done.
Qed.

(** ** Batch tasks *)
Section batch.
  Context (parse : list N -> option f64) (text : list N -> string) (show : status -> string) (c : checker).
  Local Notation ans := (batch_answer parse text c).
  Lemma batch_arrivals_cons e l : batch_arrivals parse text c (e :: l) = (a ← ans e; rest ← batch_arrivals parse text c l; Some (option_list a ++ rest)).
  Proof.
    unfold batch_arrivals. simpl. destruct (ans e) as [a|]; simpl; [|done]. destruct (mapM ans l) as [as'|]; simpl; [|done]. by destruct a.
  Qed.
  Lemma ans_tc e st tc v : ans e = Some (Some (st, tc, v)) -> tc = event_tc e /\
    ((exists s, solution_done e = Some (tc, s) /\ s <> Success /\ v = f64_zero) \/ (checker_done e = Some tc /\ solution_done e = None)).
  Proof.
    destruct e as [st' tc' s|st' tc' r]; simpl.
    - destruct (is_success s) eqn:E; [done|]. intros [= <- <- <-]. split; [done|]. left. exists s. split_and!; [done| |done]. by intros ->.
    - destruct (checker_answer parse text c r) as [[a|]|]; simpl; [|done..]. intros [= <- <- <-]. split; [done|]. by right.
  Qed.
  Lemma arrivals_from l la st tc v : batch_arrivals parse text c l = Some la -> (st, tc, v) ∈ la -> exists e, e ∈ l /\ ans e = Some (Some (st, tc, v)).
  Proof.
    revert la. induction l as [|e l IH]; intros la H Hin; [unfold batch_arrivals in H; simpl in H; injection H as <-; by apply elem_of_nil in Hin|].
    rewrite batch_arrivals_cons in H. destruct (ans e) as [a|] eqn:Ea; simpl in H; [|done]. destruct (batch_arrivals parse text c l) as [rest|]; simpl in H; [|done]. injection H as <-.
    apply elem_of_app in Hin as [Hin|Hin].
    - destruct a as [a|]; simpl in Hin; [|by apply elem_of_nil in Hin]. apply elem_of_list_singleton in Hin as <-. exists e. split; [by left|done].
    - destruct (IH rest eq_refl Hin) as (e' & ? & ?). exists e'. split; [by right|done].
  Qed.
  Lemma arrivals_to l la e st tc v : batch_arrivals parse text c l = Some la -> e ∈ l -> ans e = Some (Some (st, tc, v)) -> (st, tc, v) ∈ la.
  Proof.
    revert la. induction l as [|e' l IH]; intros la H Hin Ha; [by apply elem_of_nil in Hin|].
    rewrite batch_arrivals_cons in H. destruct (ans e') as [a|] eqn:Ea; simpl in H; [|done]. destruct (batch_arrivals parse text c l) as [rest|]; simpl in H; [|done]. injection H as <-.
    apply elem_of_app. apply elem_of_cons in Hin as [->|Hin]; [left|right; by apply IH]. rewrite Ha in Ea. injection Ea as <-. simpl. by left.
  Qed.
  Lemma batch_nodup l la : batch_ok l -> batch_arrivals parse text c l = Some la -> arrivals_ok la.
  Proof.
    unfold arrivals_ok. revert la. induction l as [|e l IH]; intros la (H1 & H2 & H3) H; [unfold batch_arrivals in H; simpl in H; injection H as <-; constructor|].
    rewrite batch_arrivals_cons in H. destruct (ans e) as [a|] eqn:Ea; simpl in H; [|done]. destruct (batch_arrivals parse text c l) as [rest|] eqn:Er; simpl in H; [|done]. injection H as <-.
    assert (batch_ok l) as Hok.
    { split_and!.
      - destruct e; cbn in H1; [by apply NoDup_cons in H1 as [_ ?]|done].
      - destruct e; cbn in H2; [done|by apply NoDup_cons in H2 as [_ ?]].
      - intros tc s Hs Hc. apply (H3 tc s); destruct e; cbn; try done; by right. }
    destruct a as [[[st tc] v]|]; [|by apply IH]. simpl. apply NoDup_cons. split; [|by apply IH]. simpl.
    intros Hin. apply elem_of_list_fmap in Hin as ([[st' tc'] v'] & Htc & Hin). simpl in Htc. subst tc'.
    destruct (arrivals_from _ _ _ _ _ Er Hin) as (e' & He' & Ha').
    apply ans_tc in Ea as [_ Ea]. apply ans_tc in Ha' as [_ Ha'].
    destruct Ea as [(s & Hs & Hns & _)|[Hc Hsn]], Ha' as [(s' & Hs' & Hns' & _)|[Hc' Hsn']].
    - destruct e as [st1 tc1 s1|]; [|done]. cbn in Hs. injection Hs as -> ->. cbn in H1. apply NoDup_cons in H1 as [H1 _]. apply H1. apply elem_of_list_fmap. exists (tc, s'). split; [done|]. apply elem_of_list_omap. eauto.
    - apply Hns. apply (H3 tc s); [destruct e as [st1 tc1 s1|]; [|done]; cbn in Hs; injection Hs as -> ->; cbn; by left|]. apply elem_of_list_omap. exists e'. split; [by right|done].
    - apply Hns'. apply (H3 tc s'); [apply elem_of_list_omap; exists e'; split; [by right|done]|]. destruct e as [|st1 tc1 r]; [done|]. cbn in Hc. injection Hc as ->. cbn. by left.
    - destruct e as [|st1 tc1 r]; [done|]. cbn in Hc. injection Hc as ->. cbn in H2. apply NoDup_cons in H2 as [H2 _]. apply H2. apply elem_of_list_omap. eauto.
  Qed.
  Lemma score_of_in l st tc v : (st, tc, v) ∈ l -> arrivals_ok l -> score_of l tc = Some v.
  Proof.
    intros Hin Ha. unfold score_of. apply elem_of_list_to_map_1.
    - rewrite <- list_fmap_compose. exact Ha.
    - apply elem_of_list_fmap. by exists (st, tc, v).
  Qed.
End batch.
Lemma white_diff_complete parse text t l la : batch_arrivals parse text WhiteDiff l = Some la -> batch_ok l -> batch_complete t l ->
  forall tc, tc ∈ tk_testcases t -> exists v, score_of la tc = Some v /\ (v = f64_zero \/ v = f64_one).
Proof.
  intros H Hok Hc tc Htc. pose proof (batch_nodup _ _ _ _ _ Hok H) as Ha. destruct (Hc tc Htc) as (s & Hs & Hcs).
  apply elem_of_list_omap in Hs as ([st tc' s'|] & Hin & He); [|done]. simpl in He. injection He as -> ->.
  destruct (is_success s) eqn:E.
  - assert (s = Success) as -> by by destruct s. specialize (Hcs eq_refl). apply elem_of_list_omap in Hcs as ([|st2 tc2 r] & Hin2 & He2); [done|]. simpl in He2. injection He2 as ->.
    assert (exists a, batch_answer parse text WhiteDiff (CheckerDone st2 tc r) = Some a) as [a Hb].
    { unfold batch_arrivals in H. destruct (mapM _ l) as [as'|] eqn:Em; simpl in H; [|done]. apply mapM_Some in Em. apply elem_of_list_lookup in Hin2 as [i Hi].
      eapply Forall2_lookup_l in Em; [|exact Hi]. destruct Em as (a & _ & ?). eauto. }
    assert (exists v, a = Some (st2, tc, v) /\ (v = f64_zero \/ v = f64_one)) as (v & -> & Hv).
    { simpl in Hb. destruct (res_status r) as [|z| | | | | |]; simpl in Hb; try done; [injection Hb as <-; eauto|]. destruct z as [|[]|]; try done. injection Hb as <-. eauto. }
    exists v. split; [|done]. apply (score_of_in _ st2); [|done]. eapply arrivals_to; [exact H|exact Hin2|exact Hb].
  - exists f64_zero. split; [|by left]. apply (score_of_in _ st); [|done]. eapply arrivals_to; [exact H|exact Hin|]. simpl. by rewrite E.
Qed.
