(** * StoreProofs2: the index and the disk agree when nothing fails (C27) *)
From Verif Require Export StoreProofs.

(** The index as the thread that is flushing sees it. *)
Definition cur (s : lstate) (ix : index) : Prop :=
  (exists t k fl q, ls_threads s !! t = Some (SFlush k fl q) /\ ix = flush_end fl q) \/ (refs_free s /\ ix = ls_index s).
Definition agree (s : lstate) (ix : index) : Prop :=
  ix_total ix = known_size ix /\
  (forall k it, ix_known ix !! k = Some it -> exists c, ls_files s !! k = Some c /\ i_size it = Z.of_nat (length c)) /\
  (forall k, is_Some (ls_files s !! k) -> is_Some (ix_known ix !! k) \/ exists t, ls_threads s !! t = Some (SRenamed k)).
Record acc_ok (s : lstate) : Prop := {
  ao_mutex : forall t t' p p', ls_threads s !! t = Some p -> ls_threads s !! t' = Some p' -> holds_index p = true -> holds_index p' = true -> t = t';
  ao_agree : forall ix, cur s ix -> agree s ix;
  ao_flush : forall t k fl q, ls_threads s !! t = Some (SFlush k fl q) ->
    NoDup (fl_surviving fl ++ q).*1 /\ (forall x, x ∈ fl_surviving fl -> in_refs (ls_refs s) x.1 = true) /\
    (forall x, x ∈ fl_surviving fl ++ q -> (0 <= i_size x.2)%Z)
}.

Lemma refs_index p : holds_refs p = true -> holds_index p = true.
Proof. by destruct p. Qed.
Lemma not_refs_free s t k fl q : ls_threads s !! t = Some (SFlush k fl q) -> refs_free s -> False.
Proof. intros H Hf. by specialize (Hf _ _ H). Qed.
Lemma not_index_free s t k fl q : ls_threads s !! t = Some (SFlush k fl q) -> index_free s -> False.
Proof. intros H Hf. by specialize (Hf _ _ H). Qed.
Lemma index_refs_free s : index_free s -> refs_free s.
Proof. intros H t p Hp. specialize (H t p Hp). destruct (holds_refs p) eqn:E; [|done]. apply refs_index in E. congruence. Qed.

(** Steps that keep the index, and in which thread [t] neither starts nor stops flushing or being renamed. *)
Definition quiet (p : pc) : Prop := match p with SFlush _ _ _ | SRenamed _ => False | _ => True end.
Definition same_holder (p p' : option pc) : Prop := (exists x, p' = Some x /\ holds_index x = true) -> exists y, p = Some y /\ holds_index y = true.

Lemma acc_quiet s s' t po po' :
  acc_ok s -> ls_files s' = ls_files s -> ls_index s' = ls_index s ->
  ls_threads s !! t = po -> ls_threads s' = (match po' with Some p' => <[t := p']> (ls_threads s) | None => delete t (ls_threads s) end) ->
  (forall p, po = Some p -> quiet p) -> (forall p, po' = Some p -> quiet p) -> same_holder po po' ->
  (ls_refs s' = ls_refs s \/ refs_free s) -> acc_ok s'.
Proof.
  intros [Hm Ha Hf] Efiles Eix Epo Ethr Hq Hq' Hh Hrefs.
  assert (Hl : forall u p, ls_threads s' !! u = Some p -> (u = t /\ po' = Some p) \/ (u <> t /\ ls_threads s !! u = Some p)).
  { intros u p Hu. rewrite Ethr in Hu. destruct po' as [p'|].
    - destruct (decide (u = t)) as [->|?]; [rewrite lookup_insert in Hu; injection Hu as <-; auto|rewrite lookup_insert_ne in Hu by done; auto].
    - apply lookup_delete_Some in Hu as [? ?]. auto. }
  assert (Hl2 : forall u p, u <> t -> ls_threads s !! u = Some p -> ls_threads s' !! u = Some p).
  { intros u p Hu Hp. rewrite Ethr. destruct po' as [p'|]; [by rewrite lookup_insert_ne|by rewrite lookup_delete_ne]. }
  assert (Hfl : forall u k fl q, ls_threads s' !! u = Some (SFlush k fl q) -> u <> t /\ ls_threads s !! u = Some (SFlush k fl q)).
  { intros u k fl q Hu. destruct (Hl _ _ Hu) as [[-> E]|?]; [|done]. by specialize (Hq' _ E). }
  assert (Hfree : refs_free s' -> refs_free s).
  { intros H u p Hp. destruct (decide (u = t)) as [->|Hne]; [|by eapply H, Hl2]. rewrite Hp in Epo. subst po. specialize (Hq p eq_refl). by destruct p. }
  split.
  - intros u u' p p' Hu Hu' Hp Hp'. destruct (Hl _ _ Hu) as [[-> E]|[Hne E]], (Hl _ _ Hu') as [[-> E']|[Hne' E']].
    + done.
    + destruct Hh as (y&Ey&Hy); [eauto|]. rewrite Ey in Epo. by eapply Hm.
    + destruct Hh as (y&Ey&Hy); [eauto|]. rewrite Ey in Epo. by eapply Hm.
    + by eapply Hm.
  - intros ix Hc. assert (Hc' : cur s ix).
    { destruct Hc as [(u&k&fl&q&Hu&->)|[Hr ->]].
      - left. destruct (Hfl _ _ _ _ Hu) as [_ ?]. eauto 10.
      - right. rewrite Eix. auto. }
    destruct (Ha ix Hc') as (H1&H2&H3). split; [done|]. rewrite Efiles. split; [done|]. intros k Hk.
    destruct (H3 k Hk) as [?|(u&Hu)]; [by left|]. right. exists u. apply Hl2; [|done]. intros ->. rewrite Hu in Epo. subst po. by specialize (Hq _ eq_refl).
  - intros u k fl q Hu. destruct (Hfl _ _ _ _ Hu) as [_ Hu']. destruct (Hf _ _ _ _ Hu') as (?&?&?). split; [done|]. split; [|done].
    destruct Hrefs as [-> | Hr]; [done|]. exfalso. by eapply not_refs_free.
Qed.

Lemma flush_end_start ix t : ix_total ix = t -> flush_end (Flushing t [] []) (flush_queue ix) = ix.
Proof.
  intros <-. unfold flush_end. simpl. destruct ix as [tot known]. simpl. f_equal.
  rewrite <- (list_to_map_to_list known) at 2. apply list_to_map_proper; [apply queue_nodup|apply (queue_perm (Index tot known))].
Qed.
Lemma flush_end_size fl q : NoDup (fl_surviving fl ++ q).*1 -> known_size (flush_end fl q) = sum_sizes (fl_surviving fl ++ q).
Proof. intros H. unfold known_size, flush_end. simpl. apply sum_sizes_perm. by apply map_to_list_to_map. Qed.
Lemma flush_end_lookup fl q k it : NoDup (fl_surviving fl ++ q).*1 -> ix_known (flush_end fl q) !! k = Some it <-> (k, it) ∈ fl_surviving fl ++ q.
Proof. intros H. unfold flush_end. simpl. symmetry. by apply elem_of_list_to_map. Qed.

Lemma step_acc (P : store_key -> bytes -> Prop) max min s l s' : (forall k c c', P k c -> P k c' -> c = c') ->
  lstep max min s l s' -> no_fault s l -> contents_ok P s -> acc_ok s -> acc_ok s'.
Proof.
  intros HP H [Hnf Hnc] Hc Hacc. inversion H; subst; try done; clear Hnf Hnc.
  - eapply (acc_quiet s _ t None (Some _)); simpl; try done; [by intros ? [= <-]| |by left]. intros (x&[= <-]&Hx). done.
  - eapply (acc_quiet s _ t (Some _) (Some _)); simpl; try done; [by intros ? [= <-]|by intros ? [= <-]| |by right]. intros (x&[= <-]&Hx). done.
  - eapply (acc_quiet s _ t (Some _) None); simpl; try done; [by intros ? [= <-]| |by left]. intros (x&?&Hx). done.
  - eapply (acc_quiet s _ t (Some _) (Some _)); simpl; try done; [by intros ? [= <-]|by intros ? [= <-]| |by left]. intros (x&[= <-]&Hx). done.
  - eapply (acc_quiet s _ t (Some _) (Some _)); simpl; try done; [by intros ? [= <-]|by intros ? [= <-]| |by left]. intros (x&[= <-]&Hx). done.
  - (* rename *) destruct Hacc as [Hm Ha Hf].
    assert (Hw : P k w). { destruct Hc as [_ Ht]. specialize (Ht _ _ H0). simpl in Ht. by rewrite app_nil_r in Ht. }
    assert (Hl : forall u p, ls_threads (at_pc t (SRenamed k) (set_files (<[k:=w]> (ls_files s)) s)) !! u = Some p -> p = SRenamed k \/ ls_threads s !! u = Some p).
    { intros u p. simpl. destruct (decide (u = t)) as [->|?]; [rewrite lookup_insert; intros [= <-]; auto|rewrite lookup_insert_ne by done; auto]. }
    assert (Hfree : refs_free (at_pc t (SRenamed k) (set_files (<[k:=w]> (ls_files s)) s)) -> refs_free s).
    { intros Hr u p Hu. destruct (decide (u = t)) as [->|?]; [rewrite H0 in Hu; by injection Hu as <-|]. apply (Hr u). simpl. by rewrite lookup_insert_ne. }
    split.
    + intros u u' p p' Hu Hu' Hp Hp'. destruct (Hl _ _ Hu) as [->|Eu]; [done|]. destruct (Hl _ _ Hu') as [->|Eu']; [done|]. by eapply Hm.
    + intros ix Hcur. assert (Hc' : cur s ix).
      { destruct Hcur as [(u&k'&fl&q&Hu&->)|[Hr ->]]; [|right; auto]. left. destruct (Hl _ _ Hu) as [?|?]; [done|]. eauto 10. }
      destruct (Ha ix Hc') as (H1&H2&H3). split; [done|]. split; simpl.
      * intros k' it Hk'. destruct (H2 k' it Hk') as (c&Hcf&Hs). destruct (decide (k' = k)) as [->|Hne]; [|rewrite lookup_insert_ne by done; eauto].
        rewrite lookup_insert. exists w. split; [done|]. rewrite (HP k w c Hw); [done|]. by apply Hc.
      * intros k' Hk'. destruct (decide (k' = k)) as [->|Hne]; [right; exists t; by rewrite lookup_insert|]. rewrite lookup_insert_ne in Hk' by done.
        destruct (H3 k' Hk') as [?|(u&Hu)]; [by left|]. right. exists u. rewrite lookup_insert_ne; [done|]. intros ->. congruence.
    + intros u k' fl q Hu. destruct (Hl _ _ Hu) as [?|Eu]; [done|]. by apply (Hf u k').
  - (* add *) destruct Hacc as [Hm Ha Hf]. pose proof (index_refs_free _ H1) as Hrf.
    destruct (Ha (ls_index s)) as (A1&A2&A3); [right; done|].
    assert (Hfile : forall c, ls_files s !! k = Some c -> True) by done.
    split.
    + intros u u' p p' Hu Hu' Hp Hp'. simpl in *. destruct (decide (u = t)) as [->|Hu1], (decide (u' = t)) as [->|Hu2]; try done.
      * rewrite lookup_insert_ne in Hu' by done. specialize (H1 _ _ Hu'). congruence.
      * rewrite lookup_insert_ne in Hu by done. specialize (H1 _ _ Hu). congruence.
      * rewrite lookup_insert_ne in Hu by done. specialize (H1 _ _ Hu). congruence.
    + intros ix' Hcur. assert (ix' = ix) as ->.
      { destruct Hcur as [(u&k'&fl&q&Hu&->)|[_ ->]]; [|done]. exfalso. simpl in Hu. destruct (decide (u = t)) as [->|?]; [by rewrite lookup_insert in Hu|].
        rewrite lookup_insert_ne in Hu by done. by eapply not_index_free. }
      unfold ix_add in H2. destruct (ix_known (ls_index s) !! k) as [it|] eqn:Ek.
      * injection H2 as <-. split; [|split]; simpl.
        -- unfold known_size in *. simpl. rewrite (sum_update _ _ it) by done. done.
        -- intros k' it'. destruct (decide (k' = k)) as [->|?]; [rewrite lookup_insert; intros [= <-]; simpl; by apply A2|rewrite lookup_insert_ne by done; apply A2].
        -- intros k' Hk'. destruct (decide (k' = k)) as [->|?]; [left; rewrite lookup_insert; eauto|]. rewrite lookup_insert_ne by done.
           destruct (A3 k' Hk') as [?|(u&Hu)]; [by left|]. right. exists u. rewrite lookup_insert_ne; [done|]. intros ->. congruence.
      * destruct (ls_files s !! k) as [c|] eqn:Ec; [|done]. simpl in H2. injection H2 as <-. split; [|split]; simpl.
        -- unfold known_size in *. simpl. rewrite sum_insert by done. simpl. lia.
        -- intros k' it'. destruct (decide (k' = k)) as [->|?]; [rewrite lookup_insert; intros [= <-]; simpl; eauto|rewrite lookup_insert_ne by done; apply A2].
        -- intros k' Hk'. destruct (decide (k' = k)) as [->|?]; [left; rewrite lookup_insert; eauto|]. rewrite lookup_insert_ne by done.
           destruct (A3 k' Hk') as [?|(u&Hu)]; [by left|]. right. exists u. rewrite lookup_insert_ne; [done|]. intros ->. congruence.
    + intros u k' fl q Hu. exfalso. simpl in Hu. destruct (decide (u = t)) as [->|?]; [by rewrite lookup_insert in Hu|].
      rewrite lookup_insert_ne in Hu by done. by eapply not_index_free.
  - eapply (acc_quiet s _ t (Some _) (Some _)); simpl; try done; [by intros ? [= <-]|by intros ? [= <-]| |by left]. intros _. eauto.
  - (* flush starts *) destruct Hacc as [Hm Ha Hf]. destruct (Ha (ls_index s)) as (A1&A2&A3); [right; done|].
    assert (Hnd : NoDup (fl_surviving (Flushing (ix_total (ls_index s)) [] []) ++ flush_queue (ls_index s)).*1) by apply queue_nodup.
    assert (Hl : forall u p, <[t := SFlush k (Flushing (ix_total (ls_index s)) [] []) (flush_queue (ls_index s))]> (ls_threads s) !! u = Some p -> (u = t /\ p = SFlush k (Flushing (ix_total (ls_index s)) [] []) (flush_queue (ls_index s))) \/ (u <> t /\ ls_threads s !! u = Some p)).
    { intros u p. destruct (decide (u = t)) as [->|?]; [rewrite lookup_insert; intros [= <-]; auto|rewrite lookup_insert_ne by done; auto]. }
    split; simpl.
    + intros u u' p p' Hu Hu' Hp Hp'. destruct (Hl _ _ Hu) as [[-> ->]|[? Eu]], (Hl _ _ Hu') as [[-> ->]|[? Eu']]; try done; by eapply Hm.
    + intros ix Hcur. assert (ix = ls_index s) as ->.
      { destruct Hcur as [(u&k'&fl&q&Hu&->)|[Hr ->]]; [|done]. destruct (Hl _ _ Hu) as [[-> [= -> -> ->]]|[? Eu]]; [by apply flush_end_start|].
        exfalso. by eapply not_refs_free. }
      split; [done|]. split; [done|]. simpl. intros k' Hk'. destruct (A3 k' Hk') as [?|(u&Hu)]; [by left|]. right. exists u. rewrite lookup_insert_ne; [done|]. intros ->. congruence.
    + intros u k' fl q Hu. destruct (Hl _ _ Hu) as [[-> [= -> -> ->]]|[? Eu]].
      * split; [done|]. split; [intros x Hx; simpl in Hx; by apply not_elem_of_nil in Hx|]. simpl. intros [k0 it] Hx. apply queue_elem in Hx. simpl in *. destruct (A2 _ _ Hx) as (c&_&->). lia.
      * exfalso. by eapply not_refs_free.
  - (* locked entry *) destruct Hacc as [Hm Ha Hf]. destruct (Hf _ _ _ _ H0) as (F1&F2&F3). unfold flush_one. rewrite H2.
    set (fl' := Flushing (fl_total fl) (fl_surviving fl ++ [x]) (fl_gone fl)) in *.
    assert (Hl : forall u p, <[t := SFlush k fl' queue]> (ls_threads s) !! u = Some p -> (u = t /\ p = SFlush k fl' queue) \/ (u <> t /\ ls_threads s !! u = Some p)).
    { intros u p. destruct (decide (u = t)) as [->|?]; [rewrite lookup_insert; intros [= <-]; auto|rewrite lookup_insert_ne by done; auto]. }
    assert (Eend : flush_end fl' queue = flush_end fl (x :: queue)) by (unfold flush_end; simpl; by rewrite <- app_assoc).
    split; simpl.
    + intros u u' p p' Hu Hu' Hp Hp'. destruct (Hl _ _ Hu) as [[-> ->]|[? Eu]], (Hl _ _ Hu') as [[-> ->]|[? Eu']]; try done; by eapply Hm.
    + intros ix Hcur. assert (Hc' : cur s ix).
      { destruct Hcur as [(u&k'&fl1&q&Hu&->)|[Hr ->]].
        - left. destruct (Hl _ _ Hu) as [[-> [= -> -> ->]]|[? Eu]]; [exists t, k, fl, (x :: queue); by rewrite Eend|eauto 10].
        - exfalso. specialize (Hr t (SFlush k fl' queue)). simpl in Hr. rewrite lookup_insert in Hr. by specialize (Hr eq_refl). }
      destruct (Ha ix Hc') as (A1&A2&A3). split; [done|]. split; [done|]. simpl. intros k' Hk'. destruct (A3 k' Hk') as [?|(u&Hu)]; [by left|]. right. exists u. rewrite lookup_insert_ne; [done|]. intros ->. congruence.
    + intros u k' fl1 q Hu. destruct (Hl _ _ Hu) as [[-> [= -> -> ->]]|[? Eu]]; [|by eapply Hf]. simpl. rewrite <- app_assoc. split; [done|]. split; [|done].
      intros y Hy. apply elem_of_app in Hy as [Hy|Hy]; [by apply F2|]. by apply elem_of_list_singleton in Hy as ->.
  - (* removed entry *) destruct Hacc as [Hm Ha Hf]. destruct (Hf _ _ _ _ H0) as (F1&F2&F3). unfold flush_one. rewrite H2.
    set (fl' := Flushing (fl_total fl - i_size x.2) (fl_surviving fl) (x.1 :: fl_gone fl)) in *.
    assert (Hl : forall u p, <[t := SFlush k fl' queue]> (ls_threads s) !! u = Some p -> (u = t /\ p = SFlush k fl' queue) \/ (u <> t /\ ls_threads s !! u = Some p)).
    { intros u p. destruct (decide (u = t)) as [->|?]; [rewrite lookup_insert; intros [= <-]; auto|rewrite lookup_insert_ne by done; auto]. }
    destruct (Ha (flush_end fl (x :: queue))) as (A1&A2&A3); [left; eauto 10|].
    assert (Hperm : fl_surviving fl ++ x :: queue ≡ₚ x :: (fl_surviving fl ++ queue)) by (symmetry; apply Permutation_middle).
    assert (Hnd' : NoDup (x.1 :: (fl_surviving fl ++ queue).*1)) by (rewrite <- fmap_cons, <- Hperm; done).
    apply NoDup_cons in Hnd' as [Hx Hnd'].
    split; simpl.
    + intros u u' p p' Hu Hu' Hp Hp'. destruct (Hl _ _ Hu) as [[-> ->]|[? Eu]], (Hl _ _ Hu') as [[-> ->]|[? Eu']]; try done; by eapply Hm.
    + intros ix Hcur. assert (ix = flush_end fl' queue) as ->.
      { destruct Hcur as [(u&k'&fl1&q&Hu&->)|[Hr ->]].
        - destruct (Hl _ _ Hu) as [[-> [= -> -> ->]]|[Hne Eu]]; [done|]. exfalso. apply Hne. by eapply Hm.
        - exfalso. specialize (Hr t (SFlush k fl' queue)). simpl in Hr. rewrite lookup_insert in Hr. by specialize (Hr eq_refl). }
      assert (Hlook : forall k' it, ix_known (flush_end fl' queue) !! k' = Some it <-> k' <> x.1 /\ ix_known (flush_end fl (x :: queue)) !! k' = Some it).
      { intros k' it. rewrite !flush_end_lookup by done. simpl. rewrite Hperm, elem_of_cons. split.
        - intros Hin. split; [|by right]. intros ->. apply Hx. by apply (elem_of_list_fmap_1 fst) in Hin.
        - intros [Hne [<-|?]]; done. }
      split; [|split]; simpl.
      * rewrite flush_end_size by done. simpl. rewrite flush_end_size in A1 by done. simpl in A1. rewrite (sum_sizes_perm _ _ Hperm) in A1. simpl in A1. lia.
      * intros k' it Hk'. apply Hlook in Hk' as [Hne Hk']. rewrite lookup_delete_ne by done. by apply A2.
      * intros k' Hk'. assert (Hne : k' <> x.1) by (intros ->; rewrite lookup_delete in Hk'; by destruct Hk').
        rewrite lookup_delete_ne in Hk' by done. destruct (A3 k' Hk') as [(it&Hit)|(u&Hu)]; [left; exists it; by apply Hlook|].
        right. exists u. rewrite lookup_insert_ne; [done|]. intros ->. congruence.
    + intros u k' fl1 q Hu. destruct (Hl _ _ Hu) as [[-> [= -> -> ->]]|[Hne Eu]]; [|exfalso; apply Hne; by eapply Hm]. simpl. split; [done|]. split; [done|].
      intros y Hy. apply F3. rewrite Hperm. by right.
  - (* flush ends *) destruct Hacc as [Hm Ha Hf].
    assert (Hl : forall u p, <[t := SSave k]> (ls_threads s) !! u = Some p -> (u = t /\ p = SSave k) \/ (u <> t /\ ls_threads s !! u = Some p)).
    { intros u p. destruct (decide (u = t)) as [->|?]; [rewrite lookup_insert; intros [= <-]; auto|rewrite lookup_insert_ne by done; auto]. }
    split; simpl.
    + intros u u' p p' Hu Hu' Hp Hp'. destruct (Hl _ _ Hu) as [[-> ->]|[? Eu]], (Hl _ _ Hu') as [[-> ->]|[? Eu']]; try done; by eapply Hm.
    + intros ix Hcur. assert (Hc' : cur s ix).
      { left. destruct Hcur as [(u&k'&fl1&q&Hu&->)|[Hr ->]]; [|simpl; eauto 10]. destruct (Hl _ _ Hu) as [[-> [=]]|[? Eu]]. eauto 10. }
      destruct (Ha ix Hc') as (A1&A2&A3). split; [done|]. split; [done|]. simpl. intros k' Hk'. destruct (A3 k' Hk') as [?|(u&Hu)]; [by left|]. right. exists u. rewrite lookup_insert_ne; [done|]. intros ->. congruence.
    + intros u k' fl1 q Hu. destruct (Hl _ _ Hu) as [[-> [=]]|[? Eu]]. by eapply Hf.
  - eapply (acc_quiet s _ t (Some _) None); simpl; try done; [by intros ? [= <-]| |by left]. intros (x&?&Hx). done.
  - eapply (acc_quiet s _ t (Some _) None); simpl; try done; [by intros ? [= <-]| |by right]. intros (x&?&Hx). done.
  - eapply (acc_quiet s _ t None (Some _)); simpl; try done; [by intros ? [= <-]| |by left]. intros (x&[= <-]&Hx). done.
  - (* touch *) destruct Hacc as [Hm Ha Hf]. pose proof (index_refs_free _ H1) as Hrf.
    destruct (Ha (ls_index s)) as (A1&A2&A3); [right; done|].
    split.
    + intros u u' p p' Hu Hu' Hp Hp'. simpl in *. destruct (decide (u = t)) as [->|Hu1]; [rewrite lookup_insert in Hu; by injection Hu as <-|].
      rewrite lookup_insert_ne in Hu by done. specialize (H1 _ _ Hu). congruence.
    + intros ix' Hcur. assert (ix' = ix_touch now k (ls_index s)) as ->.
      { destruct Hcur as [(u&k'&fl&q&Hu&->)|[_ ->]]; [|done]. exfalso. simpl in Hu. destruct (decide (u = t)) as [->|?]; [by rewrite lookup_insert in Hu|].
        rewrite lookup_insert_ne in Hu by done. by eapply not_index_free. }
      assert (A3' : forall k' : store_key, is_Some (ls_files s !! k') -> is_Some (ix_known (ls_index s) !! k') \/ exists u, <[t := GTouched k]> (ls_threads s) !! u = Some (SRenamed k')).
      { intros k' Hk'. destruct (A3 k' Hk') as [?|(u&Hu)]; [by left|]. right. exists u. rewrite lookup_insert_ne; [done|]. intros ->. congruence. }
      unfold ix_touch. destruct (ix_known (ls_index s) !! k) as [it|] eqn:Ek; [|split; [done|split; done]].
      split; [|split]; simpl.
      -- unfold known_size in *. simpl. by rewrite (sum_update _ _ it).
      -- intros k' it'. destruct (decide (k' = k)) as [->|?]; [rewrite lookup_insert; intros [= <-]; simpl; by apply A2|rewrite lookup_insert_ne by done; apply A2].
      -- intros k' Hk'. destruct (decide (k' = k)) as [->|?]; [left; rewrite lookup_insert; eauto|]. rewrite lookup_insert_ne by done. by apply A3'.
    + intros u k' fl q Hu. exfalso. simpl in Hu. destruct (decide (u = t)) as [->|?]; [by rewrite lookup_insert in Hu|].
      rewrite lookup_insert_ne in Hu by done. by eapply not_index_free.
  - eapply (acc_quiet s _ t (Some _) None); simpl; try done; [by intros ? [= <-]| |by right]. intros (x&?&Hx). done.
  - (* clone *) destruct Hacc as [Hm Ha Hf]. split; simpl; try done. intros u k' fl q Hu. exfalso. by eapply not_refs_free.
  - (* drop *) destruct Hacc as [Hm Ha Hf]. split; simpl; try done. intros u k' fl q Hu. exfalso. by eapply not_refs_free.
  - (* close *) destruct Hacc as [Hm Ha Hf].
    assert (Hrf : refs_free s) by (intros u p Hu; rewrite H0 in Hu; by rewrite lookup_empty in Hu).
    destruct (Ha (ls_index s)) as (A1&A2&A3); [right; done|].
    assert (Hacc0 : accounted (ls_index s)). { split; [done|]. intros k it Hk. destruct (A2 k it Hk) as (c&_&->). lia. }
    assert (Hfd : forall gone k, foldr delete (ls_files s) gone !! k = if decide (k ∈ gone) then None else ls_files s !! k).
    { clear. intros gone k. induction gone as [|x g IH]; cbn [foldr]; [by rewrite decide_False by apply not_elem_of_nil|].
      destruct (decide (k = x)) as [->|Hne]; [rewrite lookup_delete, decide_True; [done|left]|]. rewrite lookup_delete_ne, IH by done.
      destruct (decide (k ∈ g)); [rewrite decide_True; [done|by right]|]. rewrite decide_False; [done|]. intros [?|?]%elem_of_cons; done. }
    assert (Hcase : accounted ix /\ (forall k, k ∈ gone -> ix_known ix !! k = None) /\ (forall k, k ∉ gone -> ix_known ix !! k = ix_known (ls_index s) !! k)).
    { destruct (need_flush max (ls_index s)); [|injection H1 as <- <-; split; [done|]; split; [intros k Hk; by apply not_elem_of_nil in Hk|done]].
      split; [by eapply flush_accounted|]. destruct (flush_gone _ _ _ _ _ H1) as (_&G1&G2). split; [|done]. intros k Hk. by apply G1. }
    destruct Hcase as ([B1 _]&G1&G2). split; simpl; [by intros ? ? ? ? Hu; rewrite lookup_empty in Hu| |by intros ? ? ? ? Hu; rewrite lookup_empty in Hu].
    intros ix' Hcur. assert (ix' = ix) as ->.
    { destruct Hcur as [(u&k'&fl&q&Hu&->)|[_ ->]]; [|done]. simpl in Hu. by rewrite lookup_empty in Hu. }
    split; [done|]. split; simpl.
    + intros k it Hk. rewrite Hfd. destruct (decide (k ∈ gone)) as [Hg|Hg]; [rewrite G1 in Hk by done; done|]. rewrite G2 in Hk by done. by apply A2.
    + intros k. rewrite Hfd. destruct (decide (k ∈ gone)) as [Hg|Hg]; [by intros []|]. intros Hk. left. rewrite G2 by done.
      destruct (A3 k Hk) as [?|(u&Hu)]; [done|]. rewrite H0 in Hu. by rewrite lookup_empty in Hu.
Qed.

Lemma run_acc (P : store_key -> bytes -> Prop) max min ls s : (forall k c c', P k c -> P k c' -> c = c') ->
  lrun no_fault max min ls_empty ls s -> calls_ok P ls -> acc_ok s.
Proof.
  intros HP. remember ls_empty as s0 eqn:E0. induction 1 as [|s0 ls s' l s'' H IH HQ Hstep]; intros Hc.
  - subst. split; simpl; try (by intros ? ? ? ? Hu; rewrite lookup_empty in Hu).
    intros ix [(u&k'&fl&q&Hu&->)|[_ ->]]; [simpl in Hu; by rewrite lookup_empty in Hu|]. split; [done|]. simpl. split; [intros k it; by rewrite lookup_empty|].
    intros k. rewrite lookup_empty. by intros [].
  - assert (Hc' : calls_ok P ls) by (intros k c Hin; apply Hc; apply elem_of_app; by left).
    subst. eapply step_acc; try done; [by eapply run_contents|by apply IH].
Qed.
