(** * ConnProofs: the listener (C88) *)
From stdpp Require Import prelude strings.
From Coq Require Import Ascii String.
From Verif Require Import ConnModel ConnSpec.
Open Scope string_scope.
Open Scope list_scope.

Section listener.
  Context (mine : string).
  Notation listen := (listen mine).
  Implicit Types executor : nat -> bool.

  Lemma earlier_S executor m conns i : earlier mine (m :: conns) (S i) =
    (match m with Welcome _ v => if bool_decide (v = mine) then 1 else 0 | _ => 0 end + earlier mine conns i)%nat.
  Proof. unfold earlier. destruct m; simpl; try done. case_bool_decide; done. Qed.
  Lemma same_version_S m conns i : same_version mine (m :: conns) (S i) <-> same_version mine conns i.
  Proof. done. Qed.
  Lemma reached_S executor m conns i : reached mine executor (m :: conns) (S i) <->
    m <> Silent /\ ((exists n, m = Welcome n mine) -> executor 0%nat = true) /\
    reached mine (fun k => executor (k + match m with Welcome _ v => if bool_decide (v = mine) then 1 else 0 | _ => 0 end)%nat) conns i.
  Proof.
    split.
    - intros H. split_and!.
      + intros ->. by apply (H 0%nat ltac:(lia)).
      + intros [n ->]. apply (H 0%nat ltac:(lia)). by exists n.
      + intros j Hj. destruct (H (S j) ltac:(lia)) as [H1 H2]. split; [done|]. intros Hs.
        rewrite (earlier_S executor) in H2. rewrite Nat.add_comm. apply H2. done.
    - intros (H1 & H2 & H3) [|j] Hj.
      + split; [simpl; congruence|]. intros [n Hn]. simplify_eq/=. apply H2. by eexists.
      + destruct (H3 j ltac:(lia)) as [H4 H5]. split; [done|]. intros Hs. rewrite (earlier_S executor), Nat.add_comm. by apply H5.
  Qed.

  (** The numbering can begin anywhere *)
  Definition shift_ev (k : nat) (e : event) : event := match e with Replied i r => Replied (i + k) r | Handed i n => Handed (i + k) n end.
  Definition shift_end (k : nat) (e : ending) : ending := match e with StuckOn i => StuckOn (i + k) | _ => e end.
  Lemma listen_shift k conns : forall executor conn given,
    listen executor (conn + k) given conns = (shift_ev k <$> (listen executor conn given conns).1, shift_end k (listen executor conn given conns).2).
  Proof.
    induction conns as [|m conns IH]; intros executor conn given; [done|].
    destruct m as [| |name version]; simpl.
    - done.
    - replace (conn + k + 1)%nat with (conn + 1 + k)%nat by lia. apply IH.
    - replace (conn + k + 1)%nat with (conn + 1 + k)%nat by lia. destruct (validate_welcome mine version); [destruct (executor given); [|done]|].
      + rewrite IH. by destruct (listen executor (conn + 1) (given + 1) conns).
      + rewrite IH. by destruct (listen executor (conn + 1) given conns).
  Qed.
  Lemma listen_given g conns : forall executor conn given,
    listen executor conn (given + g) conns = listen (fun k => executor (k + g)%nat) conn given conns.
  Proof.
    induction conns as [|m conns IH]; intros executor conn given; [done|].
    destruct m as [| |name version]; simpl; [done|apply IH|].
    destruct (validate_welcome mine version); [destruct (executor (given + g)%nat); [|done]|].
    - replace (given + g + 1)%nat with (given + 1 + g)%nat by lia. by rewrite IH.
    - by rewrite IH.
  Qed.

  (** One step *)
  Lemma listen_cons executor m conns : listen executor 0 0 (m :: conns) =
    match m with
    | Silent => ([], StuckOn 0)
    | NotWelcome => let r := listen executor 0 0 conns in (shift_ev 1 <$> r.1, shift_end 1 r.2)
    | Welcome name version =>
      if decide (version = mine) then
        if executor 0%nat then let r := listen (fun k => executor (k + 1)%nat) 0 0 conns in (Replied 0 Accepted :: Handed 0 name :: (shift_ev 1 <$> r.1), shift_end 1 r.2)
        else ([Replied 0 Accepted], ExecutorGone)
      else let r := listen executor 0 0 conns in (Replied 0 (Rejected (wrong_version version mine)) :: (shift_ev 1 <$> r.1), shift_end 1 r.2)
    end.
  Proof.
    destruct m as [| |name version]; cbn [ConnModel.listen].
    - done.
    - apply (listen_shift 1).
    - unfold validate_welcome. destruct (decide (version = mine)) as [->|Hv].
      + rewrite decide_False by tauto. destruct (executor 0%nat); [|done].
        rewrite (listen_shift 1), (listen_given 1). done.
      + rewrite decide_True by done. rewrite (listen_shift 1). done.
  Qed.

  Lemma elem_shift_replied k (es : list event) i r : Replied i r ∈ shift_ev k <$> es <-> exists j, i = (j + k)%nat /\ Replied j r ∈ es.
  Proof.
    rewrite elem_of_list_fmap. split.
    - intros ([j r'|j n] & He & Hin); simplify_eq/=. by exists j.
    - intros (j & -> & Hin). by exists (Replied j r).
  Qed.
  Lemma elem_shift_handed k (es : list event) i r : Handed i r ∈ shift_ev k <$> es <-> exists j, i = (j + k)%nat /\ Handed j r ∈ es.
  Proof.
    rewrite elem_of_list_fmap. split.
    - intros ([j r'|j n] & He & Hin); simplify_eq/=. by exists j.
    - intros (j & -> & Hin). by exists (Handed j r).
  Qed.

  Lemma reached_0 executor conns : reached mine executor conns 0.
  Proof. intros j Hj. lia. Qed.
  Lemma reached_ext executor executor' conns i : (forall k, executor k = executor' k) -> reached mine executor conns i <-> reached mine executor' conns i.
  Proof. intros He. unfold reached. split; intros H j Hj; destruct (H j Hj) as [H1 H2]; (split; [done|]); intros Hs; [rewrite <- He|rewrite He]; by apply H2. Qed.
  Lemma reached_S0 executor m conns i : (m = NotWelcome \/ exists n v, m = Welcome n v /\ v <> mine) ->
    reached mine executor (m :: conns) (S i) <-> reached mine executor conns i.
  Proof.
    intros Hm. rewrite reached_S. split.
    - intros (_ & _ & H). revert H. apply reached_ext. intros k. f_equal. destruct Hm as [->|(n & v & -> & Hv)]; [lia|]. rewrite bool_decide_false by done. lia.
    - intros H. split_and!.
      + by destruct Hm as [->|(n & v & -> & Hv)].
      + intros [n ->]. destruct Hm as [?|(n' & v & [=] & Hv)]; [done|]. congruence.
      + revert H. apply reached_ext. intros k. f_equal. destruct Hm as [->|(n & v & -> & Hv)]; [lia|]. rewrite bool_decide_false by done. lia.
  Qed.
  Lemma reached_S1 executor n conns i : reached mine executor (Welcome n mine :: conns) (S i) <-> executor 0%nat = true /\ reached mine (fun k => executor (k + 1)%nat) conns i.
  Proof.
    rewrite reached_S. rewrite bool_decide_true by done. split.
    - intros (_ & H & H'). split; [|done]. apply H. by exists n.
    - intros (H & H'). done.
  Qed.
  Lemma reached_Silent executor conns i : ~ reached mine executor (Silent :: conns) (S i).
  Proof. rewrite reached_S. by intros (H & _). Qed.

  Theorem replied_iff conns : forall executor i r,
    Replied i r ∈ (listen executor 0 0 conns).1 <-> reached mine executor conns i /\ exists name version, conns !! i = Some (Welcome name version) /\ right_reply mine version r.
  Proof.
    induction conns as [|m conns IH]; intros executor i r.
    { split; [intros H; by apply elem_of_nil in H|]. intros (_ & n & v & H & _). done. }
    rewrite listen_cons. destruct m as [| |name version].
    - split; [intros H; by apply elem_of_nil in H|]. intros (Hr & n & v & H & _). destruct i; [done|]. by apply reached_Silent in Hr.
    - simpl. rewrite elem_shift_replied. split.
      + intros (j & -> & Hin). apply IH in Hin as (Hr & H). rewrite Nat.add_1_r. split; [apply reached_S0; [by left|done]|done].
      + intros (Hr & n & v & H & Hrr). destruct i as [|i]; [done|]. exists i. split; [lia|]. apply IH. apply reached_S0 in Hr; [|by left]. eauto.
    - destruct (decide (version = mine)) as [->|Hv].
      + destruct (executor 0%nat) eqn:He; simpl.
        * rewrite !elem_of_cons, elem_shift_replied. split.
          -- intros [H|[H|(j & -> & Hin)]]; [simplify_eq| done |].
             { split; [apply reached_0|]. exists name, mine. split; [done|]. by left. }
             apply IH in Hin as (Hr & H). rewrite Nat.add_1_r. split; [by apply reached_S1|done].
          -- intros (Hr & n & v & H & Hrr). destruct i as [|i].
             { simplify_eq/=. left. destruct Hrr as [[_ ->]|[? _]]; done. }
             right; right. exists i. split; [lia|]. apply IH. apply reached_S1 in Hr as [_ Hr]. eauto.
        * rewrite elem_of_list_singleton. split.
          -- intros H; simplify_eq. split; [apply reached_0|]. exists name, mine. split; [done|]. by left.
          -- intros (Hr & n & v & H & Hrr). destruct i as [|i]; [|apply reached_S1 in Hr as [? _]; congruence].
             simplify_eq/=. destruct Hrr as [[_ ->]|[? _]]; done.
      + simpl. rewrite elem_of_cons, elem_shift_replied. split.
        * intros [H|(j & -> & Hin)]; [simplify_eq|].
          { split; [apply reached_0|]. exists name, version. split; [done|]. by right. }
          apply IH in Hin as (Hr & H). rewrite Nat.add_1_r. split; [apply reached_S0; [right; eauto|done]|done].
        * intros (Hr & n & v & H & Hrr). destruct i as [|i].
          { simplify_eq/=. left. destruct Hrr as [[? _]|[_ ->]]; done. }
          right. exists i. split; [lia|]. apply IH. apply reached_S0 in Hr; [|right; eauto]. eauto.
  Qed.

  Theorem handed_iff conns : forall executor i name,
    Handed i name ∈ (listen executor 0 0 conns).1 <-> reached mine executor conns i /\ conns !! i = Some (Welcome name mine) /\ executor (earlier mine conns i) = true.
  Proof.
    induction conns as [|m conns IH]; intros executor i nm.
    { split; [intros H; by apply elem_of_nil in H|]. intros (_ & H & _). done. }
    rewrite listen_cons. destruct m as [| |name version].
    - split; [intros H; by apply elem_of_nil in H|]. intros (Hr & H & _). destruct i; [done|]. by apply reached_Silent in Hr.
    - simpl. rewrite elem_shift_handed. split.
      + intros (j & -> & Hin). apply IH in Hin as (Hr & H & He). rewrite Nat.add_1_r. split; [apply reached_S0; [by left|done]|done].
      + intros (Hr & H & Hrr). destruct i as [|i]; [done|]. exists i. split; [lia|]. apply IH. apply reached_S0 in Hr; [|by left]. eauto.
    - destruct (decide (version = mine)) as [->|Hv].
      + destruct (executor 0%nat) eqn:He; simpl.
        * rewrite !elem_of_cons, elem_shift_handed. split.
          -- intros [H|[H|(j & -> & Hin)]]; [done|simplify_eq|].
             { split; [apply reached_0|]. done. }
             apply IH in Hin as (Hr & H & He'). rewrite Nat.add_1_r. split; [by apply reached_S1|]. split; [done|].
             rewrite (earlier_S executor), bool_decide_true, Nat.add_comm by done. done.
          -- intros (Hr & H & Hrr). destruct i as [|i].
             { simplify_eq/=. right. by left. }
             right; right. exists i. split; [lia|]. apply IH. apply reached_S1 in Hr as [_ Hr]. split_and!; try done.
             rewrite (earlier_S executor), bool_decide_true, Nat.add_comm in Hrr by done. done.
        * rewrite elem_of_list_singleton. split; [done|].
          intros (Hr & H & Hrr). destruct i as [|i]; [simpl in Hrr; unfold earlier in Hrr; simpl in Hrr; congruence|apply reached_S1 in Hr as [? _]; congruence].
      + simpl. rewrite elem_of_cons, elem_shift_handed. split.
        * intros [H|(j & -> & Hin)]; [done|].
          apply IH in Hin as (Hr & H & He). rewrite Nat.add_1_r. split; [apply reached_S0; [right; eauto|done]|]. split; [done|].
          rewrite (earlier_S executor), bool_decide_false by done. done.
        * intros (Hr & H & Hrr). destruct i as [|i].
          { simplify_eq/=. }
          right. exists i. split; [lia|]. apply IH. apply reached_S0 in Hr; [|right; eauto].
          rewrite (earlier_S executor), bool_decide_false in Hrr by done. done.
  Qed.

  Theorem ending_iff conns : forall executor,
    match (listen executor 0 0 conns).2 with
    | Listening => reached mine executor conns (List.length conns)
    | StuckOn i => reached mine executor conns i /\ conns !! i = Some Silent
    | ExecutorGone => exists i, reached mine executor conns i /\ same_version mine conns i /\ executor (earlier mine conns i) = false
    end.
  Proof.
    induction conns as [|m conns IH]; intros executor.
    { apply reached_0. }
    rewrite listen_cons. destruct m as [| |name version].
    - split; [apply reached_0|done].
    - simpl. specialize (IH executor). destruct (ConnModel.listen _ _ _ _ _) as [es []]; simpl in *.
      + apply reached_S0; [by left|done].
      + rewrite Nat.add_1_r. split; [apply reached_S0; [by left|]|]; tauto.
      + destruct IH as (i & H1 & H2 & H3). exists (S i). split; [apply reached_S0; [by left|done]|]. done.
    - destruct (decide (version = mine)) as [->|Hv].
      + destruct (executor 0%nat) eqn:He; simpl.
        * specialize (IH (fun k => executor (k + 1)%nat)). destruct (ConnModel.listen _ _ _ _ _) as [es []]; simpl in *.
          -- by apply reached_S1.
          -- rewrite Nat.add_1_r. split; [apply reached_S1; tauto|tauto].
          -- destruct IH as (i & H1 & H2 & H3). exists (S i). split; [by apply reached_S1|]. split; [done|].
             by rewrite (earlier_S executor), bool_decide_true, Nat.add_comm by done.
        * exists 0%nat. split; [apply reached_0|]. split; [by exists name|done].
      + simpl. specialize (IH executor). destruct (ConnModel.listen _ _ _ _ _) as [es []]; simpl in *.
        * apply reached_S0; [right; eauto|done].
        * rewrite Nat.add_1_r. split; [apply reached_S0; [right; eauto|]|]; tauto.
        * destruct IH as (i & H1 & H2 & H3). exists (S i). split; [apply reached_S0; [right; eauto|done]|]. split; [done|].
          by rewrite (earlier_S executor), bool_decide_false by done.
  Qed.

  Definition before_ev (e e' : event) : Prop := (conn_of e < conn_of e')%nat \/ (conn_of e = conn_of e' /\ is_accept e /\ is_handed e').
  Lemma shift_conn k e : conn_of (shift_ev k e) = (conn_of e + k)%nat.
  Proof. by destruct e. Qed.
  Lemma shift_before k e e' : before_ev e e' -> before_ev (shift_ev k e) (shift_ev k e').
  Proof.
    intros [H|(H & [i ->] & j & n & ->)]; [left; rewrite !shift_conn; lia|]. right. rewrite !shift_conn. split; [lia|].
    split; [by eexists|by do 2 eexists].
  Qed.
  Theorem in_order conns : forall executor a b e e',
    (listen executor 0 0 conns).1 !! a = Some e -> (listen executor 0 0 conns).1 !! b = Some e' -> (a < b)%nat -> before_ev e e'.
  Proof.
    induction conns as [|m conns IH]; intros executor a b e e'; [done|].
    rewrite listen_cons. destruct m as [| |name version]; [done| |].
    - simpl. intros Ha Hb Hab. rewrite list_lookup_fmap in Ha, Hb. apply fmap_Some in Ha as (x & Ha & ->), Hb as (y & Hb & ->). apply shift_before. eauto.
    - destruct (decide (version = mine)) as [->|Hv].
      + destruct (executor 0%nat) eqn:He; simpl.
        * intros Ha Hb Hab. destruct a as [|[|a]], b as [|[|b]]; try lia; simpl in Ha, Hb; simplify_eq.
          -- right. split; [done|]. split; by repeat eexists.
          -- left. rewrite list_lookup_fmap in Hb. apply fmap_Some in Hb as (y & Hb & ->). rewrite shift_conn. simpl. lia.
          -- left. rewrite list_lookup_fmap in Hb. apply fmap_Some in Hb as (y & Hb & ->). rewrite shift_conn. simpl. lia.
          -- rewrite list_lookup_fmap in Ha, Hb. apply fmap_Some in Ha as (x & Ha & ->), Hb as (y & Hb & ->). apply shift_before. eapply IH; [apply Ha|apply Hb|lia].
        * intros Ha Hb Hab. destruct b; [lia|]. done.
      + simpl. intros Ha Hb Hab. destruct b as [|b]; [lia|]. destruct a as [|a]; simpl in Ha, Hb; simplify_eq.
        * left. rewrite list_lookup_fmap in Hb. apply fmap_Some in Hb as (y & Hb & ->). rewrite shift_conn. simpl. lia.
        * rewrite list_lookup_fmap in Ha, Hb. apply fmap_Some in Ha as (x & Ha & ->), Hb as (y & Hb & ->). apply shift_before. eapply IH; [apply Ha|apply Hb|lia].
  Qed.
End listener.
