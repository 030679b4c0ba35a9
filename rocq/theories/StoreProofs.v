(** * StoreProofs: invariants of the store *)
From Verif Require Export StoreSpec StoreIndexProofs.

(** ** Contents (C26) *)
Definition pc_ok (P : store_key -> bytes -> Prop) (p : pc) : Prop :=
  match p with
  | SStart k cs | SHeld k cs => P k (concat cs)
  | SWrite k w cs => P k (w ++ concat cs)
  | _ => True
  end.
Definition contents_ok (P : store_key -> bytes -> Prop) (s : lstate) : Prop :=
  (forall k c, ls_files s !! k = Some c -> P k c) /\ (forall t p, ls_threads s !! t = Some p -> pc_ok P p).

Lemma threads_insert (P : pc -> Prop) t p (m : gmap tid pc) : (forall t p, m !! t = Some p -> P p) -> P p ->
  forall t' p', <[t := p]> m !! t' = Some p' -> P p'.
Proof. intros H Hp t' p'. destruct (decide (t' = t)) as [->|?]; [rewrite lookup_insert; by intros [= <-]|rewrite lookup_insert_ne by done; apply H]. Qed.
Lemma threads_delete (P : pc -> Prop) t (m : gmap tid pc) : (forall t p, m !! t = Some p -> P p) ->
  forall t' p', delete t m !! t' = Some p' -> P p'.
Proof. intros H t' p' E. apply lookup_delete_Some in E as [_ E]. by apply H in E. Qed.

Lemma foldr_delete_some {V} gone (m : gmap store_key V) k c : foldr delete m gone !! k = Some c -> m !! k = Some c.
Proof. induction gone as [|x g IH]; simpl; [done|]. intros H. apply lookup_delete_Some in H as [_ H]. auto. Qed.

Lemma step_contents (P : store_key -> bytes -> Prop) max min s l s' : lstep max min s l s' -> (forall k c, l = LCall k c -> P k c) ->
  contents_ok P s -> contents_ok P s'.
Proof.
  intros H Hl [Hf Ht]. inversion H; subst; split; simpl; try assumption;
    try (eapply threads_insert; [done|]; simpl); try (by apply threads_delete); try done;
    try match goal with E : ls_threads s !! _ = Some _ |- _ => specialize (Ht _ _ E); simpl in Ht end; try done.
  - by apply Hl.
  - by rewrite <- app_assoc.
  - intros k0 c. destruct (decide (k0 = k)) as [->|?]; [rewrite lookup_insert; intros [= <-]; by rewrite app_nil_r in Ht|].
    rewrite lookup_insert_ne by done. apply Hf.
  - intros k0 c E. apply lookup_delete_Some in E as [_ E]. by apply Hf.
  - intros k0 c E. apply foldr_delete_some in E. by apply Hf.
Qed.
Lemma run_contents (P : store_key -> bytes -> Prop) Q max min ls s : lrun Q max min ls_empty ls s -> calls_ok P ls -> contents_ok P s.
Proof.
  remember ls_empty as s0 eqn:E0. induction 1 as [|s0 ls s' l s'' H IH HQ Hstep]; intros Hc.
  - subst. split; intros ? ?; simpl; by rewrite lookup_empty.
  - eapply step_contents; [done| |].
    + intros k c ->. apply Hc. apply elem_of_app. right. left.
    + apply IH; [done|]. intros k c Hin. apply Hc. apply elem_of_app. by left.
Qed.

(** ** Reference counts (C28) *)
Definition refs_ok (s : lstate) : Prop := forall k, ls_refs s !! k = if decide (live k s = 0) then None else Some (live k s).
Definition b2n (b : bool) : nat := if b then 1 else 0.
Definition cnt (k : store_key) (m : gmap tid pc) : nat := length (filter (fun x => owned x.2 = Some k) (map_to_list m)).
Lemma cnt_perm k l1 l2 : l1 ≡ₚ l2 -> length (filter (fun x : tid * pc => owned x.2 = Some k) l1) = length (filter (fun x => owned x.2 = Some k) l2).
Proof. intros H. by rewrite H. Qed.
Lemma cnt_insert_new k t p m : m !! t = None -> cnt k (<[t := p]> m) = b2n (bool_decide (owned p = Some k)) + cnt k m.
Proof.
  intros H. unfold cnt. rewrite (cnt_perm _ _ _ (map_to_list_insert m t p H)), filter_cons. simpl.
  destruct (decide (owned p = Some k)) as [E|E].
  - rewrite bool_decide_eq_true_2 by done. done.
  - rewrite bool_decide_eq_false_2 by done. done.
Qed.
Lemma cnt_delete k t p m : m !! t = Some p -> cnt k m = b2n (bool_decide (owned p = Some k)) + cnt k (delete t m).
Proof. intros H. rewrite <- (insert_delete m t p H) at 1. apply cnt_insert_new, lookup_delete. Qed.
Lemma cnt_insert k t p p' m : m !! t = Some p' -> cnt k (<[t := p]> m) + b2n (bool_decide (owned p' = Some k)) = b2n (bool_decide (owned p = Some k)) + cnt k m.
Proof.
  intros H. rewrite <- insert_delete_insert, cnt_insert_new by apply lookup_delete. rewrite (cnt_delete k t p' m H). lia.
Qed.
Definition hcnt (k : store_key) (l : list (store_key * origin)) : nat := length (filter (fun h => h.1 = k) l).
Lemma hcnt_cons k h l : hcnt k (h :: l) = b2n (bool_decide (h.1 = k)) + hcnt k l.
Proof.
  unfold hcnt. rewrite filter_cons. destruct (decide (h.1 = k)).
  - rewrite bool_decide_eq_true_2 by done. done.
  - rewrite bool_decide_eq_false_2 by done. done.
Qed.
Lemma hcnt_perm k l1 l2 : l1 ≡ₚ l2 -> hcnt k l1 = hcnt k l2.
Proof. intros H. unfold hcnt. by rewrite H. Qed.

Definition rcount (m : gmap store_key nat) (f : store_key -> nat) : Prop := forall k, m !! k = if decide (f k = 0) then None else Some (f k).
Lemma rcount_ext m f g : rcount m f -> (forall k, f k = g k) -> rcount m g.
Proof. intros H E k. rewrite <- E. apply H. Qed.
Lemma rcount_add k m f g : rcount m f -> (forall k', g k' = b2n (bool_decide (k = k')) + f k') -> rcount (ref_add k m) g.
Proof.
  intros H Hg k'. unfold ref_add. rewrite Hg. destruct (decide (k' = k)) as [->|Hne].
  - rewrite lookup_insert, H, bool_decide_eq_true_2 by done. simpl. destruct (decide (f k = 0)) as [->|?]; done.
  - rewrite lookup_insert_ne, H, bool_decide_eq_false_2 by done. done.
Qed.
Lemma rcount_drop k m m' f g : rcount m f -> ref_drop k m = Some m' -> (forall k', f k' = b2n (bool_decide (k = k')) + g k') -> rcount m' g.
Proof.
  intros H Hd Hf k'. unfold ref_drop in Hd. pose proof (H k) as Hk. pose proof (Hf k) as Hfk. rewrite bool_decide_eq_true_2 in Hfk by done. simpl in Hfk.
  rewrite Hk in Hd. rewrite Hfk in Hd. simpl in Hd. injection Hd as <-. clear Hk.
  destruct (decide (k' = k)) as [->|Hne].
  - case_decide; [by rewrite lookup_delete|by rewrite lookup_insert].
  - specialize (Hf k'). rewrite bool_decide_eq_false_2 in Hf by done. simpl in Hf. rewrite <- Hf.
    case_decide; [rewrite lookup_delete_ne by done|rewrite lookup_insert_ne by done]; apply H.
Qed.
Lemma rcount_drop_ok k m f : rcount m f -> f k <> 0 -> exists m', ref_drop k m = Some m'.
Proof. intros H Hk. unfold ref_drop. rewrite H, decide_False by done. destruct (f k); [done|]. eauto. Qed.

Lemma refs_ok_alt s : refs_ok s <-> rcount (ls_refs s) (fun k => hcnt k (ls_handles s) + cnt k (ls_threads s)).
Proof. done. Qed.

Lemma step_refs max min s l s' : lstep max min s l s' -> refs_ok s -> refs_ok s'.
Proof.
  rewrite !refs_ok_alt. intros H Hr.
  inversion H; subst; simpl;
    try match goal with E : ls_threads s !! ?t = Some ?p' |- rcount _ (fun k => _ + cnt k (<[?t := ?p]> _)) => pose proof (fun k => cnt_insert k t p p' (ls_threads s) E) as Hc; simpl in Hc end;
    try match goal with E : ls_threads s !! ?t = Some ?p' |- rcount _ (fun k => _ + cnt k (delete ?t _)) => pose proof (fun k => cnt_delete k t p' (ls_threads s) E) as Hc; simpl in Hc end;
    try match goal with E : ls_threads s !! ?t = None |- rcount _ (fun k => _ + cnt k (<[?t := ?p]> _)) => pose proof (fun k => cnt_insert_new k t p (ls_threads s) E) as Hc; simpl in Hc end.
  (* no change *)
  all: try (eapply rcount_ext; [exact Hr|]; intros k0; simpl; specialize (Hc k0); try rewrite hcnt_cons; simpl;
            try (rewrite (bool_decide_ext (Some k = Some k0) (k = k0)) in Hc by (split; congruence)); lia).
  - eapply rcount_add; [exact Hr|]. intros k0; simpl; specialize (Hc k0).
    rewrite (bool_decide_ext (Some k = Some k0) (k = k0)) in Hc by (split; congruence). simpl in Hc. lia.
  - match goal with E : may_fail _ = Some _ |- _ => destruct p; simpl in E; try done; injection E as <- end; simpl in *;
      (eapply rcount_ext; [exact Hr|]; intros k1; simpl; specialize (Hc k1); lia).
  - eapply rcount_drop; [exact Hr|eassumption|]. intros k0; simpl; specialize (Hc k0).
    rewrite (bool_decide_ext (Some k = Some k0) (k = k0)) in Hc by (split; congruence). lia.
  - eapply rcount_add; [exact Hr|]. intros k0; simpl; specialize (Hc k0). rewrite hcnt_cons. simpl. lia.
  - eapply rcount_add; [exact Hr|]. intros k0; simpl. rewrite hcnt_cons. simpl. lia.
  - eapply rcount_drop; [exact Hr|eassumption|]. intros k0; simpl.
    match goal with E : ls_handles s ≡ₚ _ |- _ => rewrite (hcnt_perm k0 _ _ E) end. rewrite hcnt_cons. simpl. lia.
  - intros k. by rewrite lookup_empty.
  - intros k. by rewrite lookup_empty.
Qed.
Lemma run_refs Q max min ls s : lrun Q max min ls_empty ls s -> refs_ok s.
Proof.
  remember ls_empty as s0 eqn:E0. induction 1 as [|s0 ls s' l s'' H IH HQ Hstep].
  - subst. intros k. simpl. by rewrite lookup_empty.
  - eapply step_refs; [done|]. by apply IH.
Qed.
Lemma refs_thread s t p k : refs_ok s -> ls_threads s !! t = Some p -> owned p = Some k -> in_refs (ls_refs s) k = true.
Proof.
  intros Hr Ht Ho. unfold in_refs. apply bool_decide_eq_true. specialize (Hr k). rewrite Hr. destruct (decide (live k s = 0)) as [E|E]; [|eauto].
  exfalso. unfold live, pending in E. fold (cnt k (ls_threads s)) in E. rewrite (cnt_delete k t p) in E by done. rewrite bool_decide_eq_true_2 in E by done. simpl in E. lia.
Qed.
Lemma refs_handle s k o : refs_ok s -> (k, o) ∈ ls_handles s -> in_refs (ls_refs s) k = true.
Proof.
  intros Hr Hin. unfold in_refs. apply bool_decide_eq_true. specialize (Hr k). rewrite Hr. destruct (decide (live k s = 0)) as [E|E]; [|eauto].
  exfalso. unfold live, returned in E. assert (length (filter (fun h : store_key * origin => h.1 = k) (ls_handles s)) = 0) as E' by lia.
  apply length_zero_iff_nil in E'. apply (not_elem_of_nil (k, o)). rewrite <- E'. apply elem_of_list_filter. done.
Qed.

(** ** Files of live handles (C25) *)
Definition needs_file (get : bool) (p : pc) : option store_key :=
  match p with
  | SRenamed k | SAdded k | SFlush k _ _ | SSave k => Some k
  | GChecked k | GTouched k => if get then Some k else None
  | _ => None
  end.
(** With [get] the lookups are considered too. *)
Definition files_ok (get : bool) (s : lstate) : Prop :=
  (forall k o, (k, o) ∈ ls_handles s -> o = FromStore \/ get = true -> is_Some (ls_files s !! k)) /\
  (forall t p k, ls_threads s !! t = Some p -> needs_file get p = Some k -> is_Some (ls_files s !! k)).

Lemma files_insert get t p s (f : gmap store_key bytes) :
  (forall t p k, ls_threads s !! t = Some p -> needs_file get p = Some k -> is_Some (f !! k)) ->
  (forall k, needs_file get p = Some k -> is_Some (f !! k)) ->
  forall t' p' k, <[t := p]> (ls_threads s) !! t' = Some p' -> needs_file get p' = Some k -> is_Some (f !! k).
Proof. intros H Hp t' p' k. destruct (decide (t' = t)) as [->|?]; [rewrite lookup_insert; intros [= <-]; auto|rewrite lookup_insert_ne by done; apply H]. Qed.
Lemma files_delete get t s (f : gmap store_key bytes) :
  (forall t p k, ls_threads s !! t = Some p -> needs_file get p = Some k -> is_Some (f !! k)) ->
  forall t' p' k, delete t (ls_threads s) !! t' = Some p' -> needs_file get p' = Some k -> is_Some (f !! k).
Proof. intros H t' p' k E. apply lookup_delete_Some in E as [_ E]. by eapply H. Qed.
Lemma is_Some_insert {V} k k' (v : V) (m : gmap store_key V) : is_Some (m !! k') -> is_Some (<[k := v]> m !! k').
Proof. destruct (decide (k' = k)) as [->|?]; [rewrite lookup_insert; eauto|by rewrite lookup_insert_ne]. Qed.

Lemma step_files get max min s l s' : lstep max min s l s' -> (get = true -> no_get_race s l) -> refs_ok s -> files_ok get s -> files_ok get s'.
Proof.
  intros H Hq Hr [Hh Ht].
  inversion H; subst; split; simpl; try assumption;
    try (eapply files_insert; [assumption|]; simpl); try (eapply files_delete; assumption); try done.
  (* goals about handles gained *)
  all: try (intros k0 o Hin Ho; apply elem_of_cons in Hin as [[= -> ->]|Hin]; [|by eapply Hh]).
  all: try match goal with E : ls_threads _ !! ?t = Some ?p |- _ => pose proof (Ht t p) as Hp; simpl in Hp end.
  all: try (intros k0 [= <-]; by eapply Hp).
  all: try (by eapply Hp).
  - done.
  - (* rename, handles *) intros k0 o Hin Ho. apply is_Some_insert. by eapply Hh.
  - eapply files_insert; [|].
    + intros t' p' k0 Ht' Hn. apply is_Some_insert. by eapply Ht.
    + intros k0 [= <-]. rewrite lookup_insert. eauto.
  - (* remove, handles *) intros k0 o Hin Ho. assert (k0 <> x.1).
    { intros ->. pose proof (refs_handle _ _ _ Hr Hin). congruence. }
    rewrite lookup_delete_ne by done. by eapply Hh.
  - assert (Hgen : forall t' p' k0, ls_threads s !! t' = Some p' -> needs_file get p' = Some k0 -> is_Some (delete x.1 (ls_files s) !! k0)).
    { intros t' p' k0 Ht' Hn. assert (k0 <> x.1); [|rewrite lookup_delete_ne by done; by eapply Ht].
      intros ->. destruct (owned p') as [k1|] eqn:Eo.
      - assert (k1 = x.1) as -> by (destruct p'; simpl in *; congruence). pose proof (refs_thread _ _ _ _ Hr Ht' Eo). congruence.
      - destruct p'; simpl in *; try done; destruct get; try done; injection Hn as ->; destruct (Hq eq_refl t'); done. }
    eapply files_insert; [exact Hgen|]. simpl. intros k0 [= <-]. eapply Hgen; [eassumption|done].
  - intros k0 Hn. destruct get; [|done]. by injection Hn as <-.
  - intros k0 Hn. destruct get; [|done]. injection Hn as <-. by eapply Hp.
  - destruct Ho as [?|Hget]; [done|]. rewrite Hget in Hp. by eapply Hp.
  - intros k0 o' Hin Ho. apply elem_of_cons in Hin as [[= -> ->]|Hin]; by eapply Hh.
  - intros k0 o' Hin Ho. match goal with E : ls_handles s ≡ₚ _ |- _ => eapply Hh; [rewrite E; right; exact Hin|done] end.
  - intros k0 o Hin. by apply not_elem_of_nil in Hin.
  - intros k0 o Hin. by apply not_elem_of_nil in Hin.
Qed.
