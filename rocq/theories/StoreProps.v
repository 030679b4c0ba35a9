(** * StoreProps: properties C25-C28 of the store *)
From Verif Require Import StoreProofs StoreProofs2 StoreIndexProps.

(** ** An interpreter, to write down concrete runs *)
Definition index_freeb (s : lstate) : bool := bool_decide (map_Forall (fun _ p => holds_index p = false) (ls_threads s)).
Definition refs_freeb (s : lstate) : bool := bool_decide (map_Forall (fun _ p => holds_refs p = false) (ls_threads s)).
Inductive action := ACall (t : tid) (k : store_key) (chunks : list bytes) | AGet (t : tid) (k : store_key) | ANext (t : tid) (now : Z)
  | ADrop | ACrash.
Definition act (max min : Z) (a : action) (s : lstate) : option (label * lstate) :=
  match a with
  | ACall t k cs => match ls_threads s !! t with None => Some (LCall k (concat cs), at_pc t (SStart k cs) s) | _ => None end
  | AGet t k => match ls_threads s !! t, ls_files s !! k with None, Some _ => Some (LNone, at_pc t (GChecked k) s) | _, _ => None end
  | ADrop => match ls_handles s with
             | (k, o) :: hs => if refs_freeb s then
                                 match ref_drop k (ls_refs s) with Some refs => Some (LNone, set_handles hs (set_refs refs s)) | None => None end
                               else None
             | [] => None end
  | ACrash => Some (LCrash, LState (ls_files s) (ls_saved s) (ls_saved s) ∅ [] ∅)
  | ANext t now =>
    match ls_threads s !! t with
    | Some (SStart k cs) => if refs_freeb s then Some (LNone, at_pc t (SHeld k cs) (set_refs (ref_add k (ls_refs s)) s)) else None
    | Some (SHeld k cs) => match ls_files s !! k with
                           | Some _ => Some (LNone, idle t (set_handles ((k, FromStore) :: ls_handles s) s))
                           | None => Some (LNone, at_pc t (SWrite k [] cs) s)
                           end
    | Some (SWrite k w (c :: cs)) => Some (LNone, at_pc t (SWrite k (w ++ c) cs) s)
    | Some (SWrite k w []) => Some (LNone, at_pc t (SRenamed k) (set_files (<[k := w]> (ls_files s)) s))
    | Some (SRenamed k) => if index_freeb s then
        match ix_add now ((fun c : bytes => Z.of_nat (length c)) <$> ls_files s !! k) k (ls_index s) with
        | Some ix => Some (LNone, at_pc t (SAdded k) (set_index ix s)) | None => None end else None
    | Some (SAdded k) => if need_flush max (ls_index s) then
        (if refs_freeb s then Some (LNone, at_pc t (SFlush k (Flushing (ix_total (ls_index s)) [] []) (flush_queue (ls_index s))) s) else None)
        else Some (LNone, at_pc t (SSave k) s)
    | Some (SFlush k fl (x :: q)) => if flush_go min fl then
        (if in_refs (ls_refs s) x.1 then Some (LNone, at_pc t (SFlush k (flush_one (in_refs (ls_refs s)) x fl) q) s)
         else Some (LRemove x.1, at_pc t (SFlush k (flush_one (in_refs (ls_refs s)) x fl) q) (set_files (delete x.1 (ls_files s)) s)))
        else Some (LFlushed, at_pc t (SSave k) (set_index (flush_end fl (x :: q)) s))
    | Some (SFlush k fl []) => Some (LFlushed, at_pc t (SSave k) (set_index (flush_end fl []) s))
    | Some (SSave k) => Some (LNone, idle t (set_handles ((k, FromStore) :: ls_handles s) (set_saved (ls_index s) s)))
    | Some (GChecked k) => if index_freeb s then Some (LNone, at_pc t (GTouched k) (set_index (ix_touch now k (ls_index s)) s)) else None
    | Some (GTouched k) => if refs_freeb s then Some (LNone, idle t (set_handles ((k, FromGet) :: ls_handles s) (set_refs (ref_add k (ls_refs s)) s))) else None
    | _ => None
    end
  end.
Lemma act_sound max min a s l s' : act max min a s = Some (l, s') -> lstep max min s l s'.
Proof.
  assert (Hi : index_freeb s = true -> index_free s) by (intros H; by apply bool_decide_eq_true in H).
  assert (Hr : refs_freeb s = true -> refs_free s) by (intros H; by apply bool_decide_eq_true in H).
  destruct a as [t k cs|t k|t now| |]; simpl.
  - destruct (ls_threads s !! t) eqn:E; [done|]. intros [= <- <-]. by constructor.
  - destruct (ls_threads s !! t) eqn:E; [done|]. destruct (ls_files s !! k) eqn:Ef; [|done]. intros [= <- <-]. constructor; [done|]. rewrite Ef. eauto.
  - destruct (ls_threads s !! t) as [p|] eqn:E; [|done].
    destruct p as [k cs|k cs|k w cs|k|k|k fl q|k|k|k|k].
    + destruct (refs_freeb s) eqn:Er; [|done]. intros [= <- <-]. apply st_handle; auto.
    + destruct (ls_files s !! k) eqn:Ef; intros [= <- <-]; [eapply st_exists; eauto; by rewrite Ef|by apply st_missing].
    + destruct cs as [|c cs]; intros [= <- <-]; [by apply st_rename|by apply st_write].
    + destruct (index_freeb s) eqn:Er; [|done]. destruct (ix_add now _ k (ls_index s)) as [ix|] eqn:Ea; [|done]. intros [= <- <-]. eapply st_add; eauto.
    + destruct (need_flush max (ls_index s)) eqn:En.
      * destruct (refs_freeb s) eqn:Er; [|done]. intros [= <- <-]. apply st_flush; auto.
      * intros [= <- <-]. by apply st_no_flush.
    + destruct q as [|x q].
      * intros [= <- <-]. apply st_flush_end; auto.
      * destruct (flush_go min fl) eqn:Eg.
        -- destruct (in_refs (ls_refs s) x.1) eqn:Ei; intros [= <- <-]; [by apply st_flush_locked|by apply st_flush_remove].
        -- intros [= <- <-]. apply st_flush_end; auto.
    + intros [= <- <-]. by apply st_save.
    + done.
    + destruct (index_freeb s) eqn:Er; [|done]. intros [= <- <-]. apply gt_touch; auto.
    + destruct (refs_freeb s) eqn:Er; [|done]. intros [= <- <-]. apply gt_handle; auto.
  - destruct (ls_handles s) as [|[k o] hs] eqn:Eh; [done|]. destruct (refs_freeb s) eqn:Er; [|done]. destruct (ref_drop k (ls_refs s)) eqn:Ed; [|done].
    intros [= <- <-]. eapply hd_drop; eauto. by rewrite Eh.
  - intros [= <- <-]. constructor.
Qed.
Fixpoint acts (max min : Z) (l : list action) (s : lstate) : option (list label * lstate) :=
  match l with
  | [] => Some ([], s)
  | a :: l => match act max min a s with
              | Some (lb, s') => match acts max min l s' with Some (lbs, s'') => Some (lb :: lbs, s'') | None => None end
              | None => None
              end
  end.
Lemma acts_sound max min l s0 ls0 s ls s' : lrun any_step max min s0 ls0 s -> acts max min l s = Some (ls, s') ->
  lrun any_step max min s0 (ls0 ++ ls) s'.
Proof.
  revert s ls0 ls. induction l as [|a l IH]; intros s ls0 ls Hrun; simpl.
  - intros [= <- <-]. by rewrite app_nil_r.
  - destruct (act max min a s) as [[lb s1]|] eqn:Ea; [|done]. destruct (acts max min l s1) as [[lbs s2]|] eqn:El; [|done].
    intros [= <- <-]. rewrite cons_middle, app_assoc. eapply IH; [|done]. econstructor; [done|done|]. by eapply act_sound.
Qed.
Definition store_all (t : tid) (k : store_key) (c : bytes) (n : nat) : list action := ACall t k [c] :: repeat (ANext t 0) n.

(** ** C26 *)
(** At every moment, whatever the threads do, fails or crashes, a visible file has exactly a content given to [store]
    for that key. *)
Theorem C26_no_partial_file : forall max min ls s, lrun any_step max min ls_empty ls s ->
  forall k c, ls_files s !! k = Some c -> LCall k c ∈ ls.
Proof.
  intros max min ls s H. exact (proj1 (run_contents (fun k c => LCall k c ∈ ls) _ _ _ _ _ H (fun _ _ h => h))).
Qed.
Print Assumptions C26_no_partial_file.
(** In particular if callers give contents that match their key, so do the visible files. *)
Theorem C26_content_matches : forall (P : store_key -> bytes -> Prop) max min ls s, lrun any_step max min ls_empty ls s ->
  (forall k c, LCall k c ∈ ls -> P k c) -> forall k c, ls_files s !! k = Some c -> P k c.
Proof. intros P max min ls s H HP k c Hk. apply HP. by eapply C26_no_partial_file. Qed.
Print Assumptions C26_content_matches.

(** ** C28 *)
(** The number recorded for a key is the number of its live handles (returned, or of calls in progress); it is recorded
    iff there is one; dropping a live handle never panics. *)
Theorem C28_reference_counts : forall max min ls s, lrun any_step max min ls_empty ls s -> forall k,
  default 0 (ls_refs s !! k) = live k s /\ (is_Some (ls_refs s !! k) <-> 0 < live k s) /\
  (forall o, (k, o) ∈ ls_handles s -> exists refs, ref_drop k (ls_refs s) = Some refs) /\
  (forall t, ls_threads s !! t = Some (SFailed k) -> exists refs, ref_drop k (ls_refs s) = Some refs).
Proof.
  intros max min ls s H k. pose proof (run_refs _ _ _ _ _ H) as Hr. pose proof (Hr k) as Hk.
  assert (Hd : in_refs (ls_refs s) k = true -> exists refs, ref_drop k (ls_refs s) = Some refs).
  { unfold in_refs. rewrite bool_decide_eq_true. intros [n Hn]. apply (rcount_drop_ok k (ls_refs s) (fun k => live k s)); [done|].
    rewrite Hk in Hn. destruct (decide (live k s = 0)); done. }
  split; [|split; [|split]].
  - rewrite Hk. destruct (decide (live k s = 0)); simpl; lia.
  - rewrite Hk. destruct (decide (live k s = 0)) as [E|E]; [rewrite E; split; [by intros []|lia]|split; [lia|eauto]].
  - intros o Hin. apply Hd. by eapply refs_handle.
  - intros t Ht. apply Hd. by eapply refs_thread.
Qed.
Print Assumptions C28_reference_counts.

(** ** C25 *)
Lemma run_files (get : bool) (Q : lstate -> label -> Prop) max min ls s : (get = true -> forall s l, Q s l -> no_get_race s l) -> lrun Q max min ls_empty ls s -> files_ok get s.
Proof.
  intros HQ. remember ls_empty as s0 eqn:E0. induction 1 as [|s0 ls s' l s'' H IH Hq Hstep].
  - subst. split; simpl; [intros k o Hin; by apply not_elem_of_nil in Hin|]. intros t p k. by rewrite lookup_empty.
  - subst. eapply step_files; [done|intros Hg; by apply HQ|by eapply run_refs|by apply IH].
Qed.
(** As long as a handle obtained from [store] (or a clone of it) is alive its file is on disk, with a content given for
    that key. *)
Theorem C25_store_handles : forall max min ls s, lrun any_step max min ls_empty ls s ->
  forall k, (k, FromStore) ∈ ls_handles s -> exists c, ls_files s !! k = Some c /\ LCall k c ∈ ls.
Proof.
  intros max min ls s H k Hk. destruct (run_files false any_step max min ls s ltac:(done) H) as [Hh _].
  destruct (Hh k FromStore Hk) as (c&Hc); [by left|]. exists c. split; [done|]. by eapply C26_no_partial_file.
Qed.
Print Assumptions C25_store_handles.
(** The same for all the handles if no flush deletes a file between the existence check and the creation of the handle
    of a concurrent [get] of that file. *)
Theorem C25_get_handles_partial : forall max min ls s, lrun no_get_race max min ls_empty ls s ->
  forall k o, (k, o) ∈ ls_handles s -> exists c, ls_files s !! k = Some c /\ LCall k c ∈ ls.
Proof.
  intros max min ls s H k o Hk. destruct (run_files true no_get_race max min ls s ltac:(done) H) as [Hh _].
  destruct (Hh k o Hk) as (c&Hc); [by right|]. exists c. split; [done|].
  exact (proj1 (run_contents (fun k c => LCall k c ∈ ls) _ _ _ _ _ H (fun _ _ h => h)) _ _ Hc).
Qed.
Print Assumptions C25_get_handles_partial.

(** Finding: without that hypothesis [get] can return a handle of a file that is not there. *)
Definition race : list action :=
  store_all 1 10 [1%Z; 2%Z] 7 ++ [ADrop] ++           (* thread 1 stores a file and drops the handle *)
  [AGet 2 10] ++                                      (* thread 2 looks it up: it exists *)
  store_all 1 20 [3%Z; 4%Z] 10 ++                     (* thread 1 stores another file, which makes a flush *)
  [ANext 2 0; ANext 2 0].                             (* thread 2 gets its handle *)
Theorem C25_get_refuted : exists max min ls s k, lrun any_step max min ls_empty ls s /\
  (k, FromGet) ∈ ls_handles s /\ ls_files s !! k = None.
Proof.
  destruct (acts 3 2 race ls_empty) as [[ls s]|] eqn:E; [|by vm_compute in E].
  exists 3%Z, 2%Z, ls, s, 10%positive. split; [apply (acts_sound _ _ _ _ [] _ _ _ (lrun_nil _ _ _ _) E)|].
  vm_compute in E. injection E as <- <-. split; [left|done].
Qed.
Print Assumptions C25_get_refuted.
(** A run with a live handle, after a flush that deletes another file. *)
Example C25_example : exists ls s c, lrun any_step 3 2 ls_empty ls s /\ (20%positive, FromStore) ∈ ls_handles s /\
  ls_files s !! 20%positive = Some c /\ ls_files s !! 10%positive = None /\ LRemove 10 ∈ ls.
Proof.
  destruct (acts 3 2 (store_all 1 10 [1%Z; 2%Z] 7 ++ [ADrop] ++ store_all 1 20 [3%Z; 4%Z] 10) ls_empty) as [[ls s]|] eqn:E; [|by vm_compute in E].
  exists ls, s, [3%Z; 4%Z]. split; [apply (acts_sound _ _ _ _ [] _ _ _ (lrun_nil _ _ _ _) E)|].
  vm_compute in E. injection E as <- <-. split; [left|]. split; [done|]. split; [done|]. repeat (first [left|right]).
Qed.

(** ** C27 *)
Lemma disk_known s : (forall k, is_Some (ls_files s !! k) -> is_Some (ix_known (ls_index s) !! k)) ->
  (forall k it, ix_known (ls_index s) !! k = Some it -> exists c, ls_files s !! k = Some c /\ i_size it = Z.of_nat (length c)) ->
  disk_usage s = known_size (ls_index s).
Proof.
  intros H1 H2. unfold disk_usage, known_size, sum_sizes.
  assert (E : (fun c : bytes => Z.of_nat (length c)) <$> ls_files s = i_size <$> ix_known (ls_index s)).
  { apply map_eq. intros k. rewrite !lookup_fmap. destruct (ls_files s !! k) as [c|] eqn:Ef, (ix_known (ls_index s) !! k) as [it|] eqn:Ek; simpl; try done.
    - destruct (H2 k it Ek) as (c'&Hc&Hs). congruence.
    - destruct (H1 k) as [? ?]; [by rewrite Ef|]. congruence.
    - destruct (H2 k it Ek) as (c'&Hc&Hs). congruence. }
  assert (G : forall {V} (f : V -> Z) (m : gmap store_key V), foldr (fun x n => (f x.2 + n)%Z) 0%Z (map_to_list m) = foldr (fun x n => (x.2 + n)%Z) 0%Z (map_to_list (f <$> m))).
  { intros V f m. assert (Hp : forall l1 l2 : list (store_key * Z), l1 ≡ₚ l2 -> foldr (fun x n => (x.2 + n)%Z) 0%Z l1 = foldr (fun x n => (x.2 + n)%Z) 0%Z l2) by (induction 1; simpl; lia).
    rewrite (Hp _ _ (map_to_list_fmap f m)). induction (map_to_list m) as [|x l IH]; [done|]. simpl. by rewrite IH. }
  rewrite (G _ (fun c : bytes => Z.of_nat (length c))), (G _ i_size), E. done.
Qed.
(** If nothing fails and the process is only closed properly, and the contents are determined by the key, the disk usage is
    exactly what the index accounts for whenever no thread is between writing a file and updating the index. *)
Theorem C27_disk_usage_partial : forall max min ls s, lrun no_fault max min ls_empty ls s ->
  (forall k c c', LCall k c ∈ ls -> LCall k c' ∈ ls -> c = c') ->
  index_free s -> (forall t k, ls_threads s !! t <> Some (SRenamed k)) ->
  disk_usage s = ix_total (ls_index s).
Proof.
  intros max min ls s H HP Hi Hn. destruct (run_acc (fun k c => LCall k c ∈ ls) max min ls s HP H (fun _ _ h => h)) as [_ Ha _].
  destruct (Ha (ls_index s)) as (A1&A2&A3); [right; split; [by apply index_refs_free|done]|].
  rewrite A1. apply disk_known; [|done]. intros k Hk. destruct (A3 k Hk) as [?|(t&Ht)]; [done|]. by apply Hn in Ht.
Qed.
Print Assumptions C27_disk_usage_partial.
(** and when a call is about to save the index the size is under the maximum, or at most the target of the flush, or all the
    known files are in use. *)
Theorem C27_bounded_partial : forall max min ls s l s' t k, lrun no_fault max min ls_empty ls s ->
  (forall k c c', LCall k c ∈ ls -> LCall k c' ∈ ls -> c = c') ->
  lstep max min s l s' -> no_fault s l -> ls_threads s !! t <> Some (SSave k) -> ls_threads s' !! t = Some (SSave k) ->
  (ix_total (ls_index s') < max)%Z \/ (ix_total (ls_index s') <= min)%Z \/
  forall k', is_Some (ix_known (ls_index s') !! k') -> 0 < live k' s'.
Proof.
  intros max min ls s l s' t k H HP Hs Hnf Hb Ha'. destruct (run_acc (fun k c => LCall k c ∈ ls) max min ls s HP H (fun _ _ h => h)) as [_ _ Hf].
  pose proof (run_refs _ _ _ _ _ H) as Hr. pose proof (step_refs _ _ _ _ _ Hs Hr) as Hr'.
  assert (Hlive : forall k', in_refs (ls_refs s') k' = true -> 0 < live k' s').
  { intros k'. unfold in_refs. rewrite bool_decide_eq_true, (Hr' k'). destruct (decide (live k' s' = 0)); [by intros []|lia]. }
  inversion Hs; subst; simpl in *;
    try (match type of Ha' with context [<[?u := _]> _ !! ?v] => destruct (decide (v = u)) as [->|?]; [rewrite lookup_insert in Ha'|rewrite lookup_insert_ne in Ha' by done] end);
    try (apply lookup_delete_Some in Ha' as [_ Ha']); try done.
  - left. unfold need_flush in *. by apply bool_decide_eq_false in H1; lia.
  - right. destruct H1 as [->|Hgo].
    + right. intros k' (it&Hk'). apply Hlive. destruct (Hf _ _ _ _ H0) as (F1&F2&_). apply flush_end_lookup in Hk'; [|done].
      rewrite app_nil_r in Hk'. by apply F2 in Hk'.
    + left. unfold flush_go in Hgo. apply bool_decide_eq_false in Hgo. lia.
Qed.
Print Assumptions C27_bounded_partial.

(** Finding: a crash right after the file becomes visible leaves it out of the index for ever (storing it again does not add
    it): no bound on the disk usage holds. *)
Definition lost (k : store_key) (c : bytes) : list action :=
  store_all 1 k c 4 ++ [ACrash] ++ store_all 1 k c 2 ++ [ADrop].
Theorem C27_crash_refuted : forall max min n, exists ls s, lrun any_step max min ls_empty ls s /\ ls_threads s = ∅ /\ ls_handles s = [] /\
  ix_total (ls_index s) = 0%Z /\ (Z.of_nat n <= disk_usage s)%Z.
Proof.
  intros max min n. set (c := repeat 0%Z n).
  destruct (acts max min (lost 10 c) ls_empty) as [[ls s]|] eqn:E.
  - exists ls, s. split; [apply (acts_sound _ _ _ _ [] _ _ _ (lrun_nil _ _ _ _) E)|].
    assert (Hs : ls_threads s = ∅ /\ ls_handles s = [] /\ ls_index s = ix_empty /\ ls_files s = {[10%positive := c]}).
    { unfold lost, store_all in E. cbn [app repeat] in E. clearbody c.
      vm_compute in E. injection E as _ <-. simpl. split; [apply map_eq; intros ?; reflexivity|]. split; [reflexivity|].
      split; [unfold ix_empty; f_equal|]. apply map_eq; intros ?; reflexivity. }
    destruct Hs as (->&->&->&Hf). split_and!; try done. unfold disk_usage. rewrite Hf, map_to_list_singleton. simpl. unfold c. rewrite repeat_length. lia.
  - exfalso. clearbody c. by vm_compute in E.
Qed.
Print Assumptions C27_crash_refuted.
