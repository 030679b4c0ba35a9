(** * CacheProofs2: entries, lookups, histories, limits *)
From Verif Require Import CacheSpec CacheProofs.

(** ** Verdicts *)
Lemma exceeds_over l u : exceeds l u = true <-> over l u.
Proof.
  unfold exceeds, over. destruct l as [x|]; [rewrite bool_decide_eq_true|]; split; try done.
  - eauto.
  - intros (?&[= <-]&?). done.
  - by intros (?&?&_).
Qed.
Lemma exec_status_verdict e code sig r s : exec_status e code sig r = s <-> verdict (e_limits e) code sig r s.
Proof.
  unfold exec_status, verdict.
  pose proof (exceeds_over (l_cpu_time (e_limits e)) (r_cpu_time r)) as H1.
  pose proof (exceeds_over (l_sys_time (e_limits e)) (r_sys_time r)) as H2.
  pose proof (exceeds_over (l_wall_time (e_limits e)) (r_wall_time r)) as H3.
  pose proof (exceeds_over (l_memory (e_limits e)) (r_memory r)) as H4.
  generalize dependent (over (l_cpu_time (e_limits e)) (r_cpu_time r)). intros P1 H1.
  generalize dependent (over (l_sys_time (e_limits e)) (r_sys_time r)). intros P2 H2.
  generalize dependent (over (l_wall_time (e_limits e)) (r_wall_time r)). intros P3 H3.
  generalize dependent (over (l_memory (e_limits e)) (r_memory r)). intros P4 H4. cbv zeta.
  destruct (exceeds (l_cpu_time (e_limits e)) (r_cpu_time r)); [destruct s; naive_solver|].
  destruct (exceeds (l_sys_time (e_limits e)) (r_sys_time r)); [destruct s; naive_solver|].
  destruct (exceeds (l_wall_time (e_limits e)) (r_wall_time r)); [destruct s; naive_solver|].
  destruct (exceeds (l_memory (e_limits e)) (r_memory r)); [destruct s; naive_solver|].
  destruct sig as [[n nm]|]; [destruct s; naive_solver|]. case_bool_decide; destruct s; naive_solver.
Qed.

(** ** Entries *)
Definition out_rel (keys : gmap file_uuid store_key) (pf : path * file_uuid) (x : path * store_key) : Prop :=
  keys !! pf.2 = Some x.2 /\ x.1 = pf.1.
Lemma item_of_exec_spec keys e r i : item_of_exec keys e r = ROk i <->
  exists os, Forall2 (out_rel keys) (e_outputs e) os /\
   i = EntryItem r (e_limits e) (cfg_extra_time (e_config e)) (cfg_extra_memory (e_config e)) (f ← e_stdout e; keys !! f) (f ← e_stderr e; keys !! f) os.
Proof.
  unfold item_of_exec.
  set (step := fun acc pf => match keys !! pf.2 with Some k => ROk (acc ++ [(pf.1, k)]) | None => RPanic end).
  assert (Hstep : forall acc x r, step acc x = ROk r <-> exists y, out_rel keys x y /\ r = acc ++ [y]).
  { intros acc [p i0] r0. unfold step, out_rel. simpl. destruct (keys !! i0) as [k0|]; split.
    - intros [= <-]. by exists (p, k0).
    - intros ([p' k']&(H1&H2)&->). simpl in *. by simplify_eq.
    - done.
    - intros (y&(H1&_)&_). done. }
  pose proof (rfold_collect step _ Hstep) as Hc. split.
  - destruct (rfold step (e_outputs e) []) as [os| | |] eqn:E; try done. simpl. intros [= <-]. apply Hc in E as (ys&->&?). eauto.
  - intros (os&Hos&->). assert (rfold step (e_outputs e) [] = ROk os) as -> by (apply Hc; eauto). done.
Qed.
Lemma entry_of_group_spec keys g results en : entry_of_group keys g results = ROk en <->
  Forall2 (fun er i => item_of_exec keys er.1 er.2 = ROk i) (zip (g_execs g) results) en.
Proof.
  unfold entry_of_group. rewrite (rfold_collect _ (fun er i => item_of_exec keys er.1 er.2 = ROk i)).
  - split; [by intros (ys&->&H)|eauto].
  - intros acc e r. destruct (item_of_exec keys e.1 e.2) as [i| | |]; simpl; split; try (by intros (?&?&_)); try done.
    + intros [= <-]. eauto.
    + intros (y&[= <-]&->). done.
Qed.

(** ** Maps *)
Lemma clookup_cupdate k es c : clookup k (cupdate k es c) = es.
Proof.
  induction c as [|[k' es'] c IH]; simpl; [by rewrite decide_True|].
  destruct (decide (k = k')) as [->|Hne]; simpl; [by rewrite decide_True|]. by rewrite decide_False.
Qed.
Lemma clookup_cupdate_ne k k' es c : k' <> k -> clookup k' (cupdate k es c) = clookup k' c.
Proof.
  intros Hne. induction c as [|[k2 es2] c IH]; simpl; [by rewrite decide_False|].
  destruct (decide (k = k2)) as [->|Hne2]; simpl; [by rewrite !decide_False by done|].
  destruct (decide (k' = k2)); [done|]. done.
Qed.
Lemma put_entry_elem en es x : x ∈ put_entry en es -> x = en \/ x ∈ es.
Proof.
  induction es as [|e es IH]; simpl; [intros H; apply elem_of_list_singleton in H; auto|].
  destruct (same_limits e en); intros H; apply elem_of_cons in H as [->|H]; auto.
  - right. by right.
  - right. left.
  - destruct (IH H); [auto|right; by right].
Qed.

(** ** Histories *)
Lemma built_entries ok h c : built ok h c -> forall k en, en ∈ clookup k c ->
  exists g keys results, (g, keys, results) ∈ h /\ ok (g, keys, results) /\ key_of_group keys g = ROk k /\ entry_of_group keys g results = ROk en.
Proof.
  induction 1 as [|h c g keys results c' Hb IH Hok Hins]; intros k en Hin; [by apply not_elem_of_nil in Hin|].
  unfold cache_insert in Hins. destruct (key_of_group keys g) as [k0| | |] eqn:Ek; try done. simpl in Hins.
  destruct (entry_of_group keys g results) as [en0| | |] eqn:Een; try done. simpl in Hins. injection Hins as <-.
  assert (Hold : forall en, en ∈ clookup k c -> exists g0 keys0 results0, (g0, keys0, results0) ∈ (g, keys, results) :: h /\
    ok (g0, keys0, results0) /\ key_of_group keys0 g0 = ROk k /\ entry_of_group keys0 g0 results0 = ROk en).
  { intros en' Hin'. destruct (IH k en' Hin') as (g0&keys0&results0&?&?&?&?). exists g0, keys0, results0. split; [by right|done]. }
  destruct (decide (k = k0)) as [->|Hne].
  - rewrite clookup_cupdate in Hin. apply put_entry_elem in Hin as [->|Hin]; [|by apply Hold].
    exists g, keys, results. split; [left|done].
  - rewrite clookup_cupdate_ne in Hin by done. by apply Hold.
Qed.
Lemma search_hit checked st g es rs outs : search checked st g es = ROk (Some (rs, outs)) ->
  exists en, en ∈ es /\ entry_outputs st g en = Some outs /\ is_compatible checked g en = Some true /\ rs = replays g en.
Proof.
  induction es as [|en es IH]; simpl; [done|].
  destruct (entry_outputs st g en) as [o|] eqn:Eo.
  - destruct (is_compatible checked g en) as [[]|] eqn:Ec; [intros [= <- <-]; exists en; split; [left|done]| |done].
    intros H. destruct (IH H) as (en'&?&?). exists en'. split; [by right|done].
  - intros H. destruct (IH H) as (en'&?&?). exists en'. split; [by right|done].
Qed.
Lemma key_length keys g k : key_of_group keys g = ROk k -> length k = length (g_execs g).
Proof. intros H. apply key_of_group_spec in H. symmetry. by eapply Forall2_length. Qed.
Lemma entry_length keys g results en : entry_of_group keys g results = ROk en -> length results = length (g_execs g) -> length en = length (g_execs g).
Proof.
  intros H Hl. apply entry_of_group_spec in H. apply Forall2_length in H. rewrite <- H. rewrite zip_with_length. lia.
Qed.

(** ** Outputs of an entry *)
(** The keys recorded in an item for the files of an execution. *)
Definition recorded (e : execution) (i : entry_item) (f : file_uuid) (k : store_key) : Prop :=
  (e_stdout e = Some f /\ ei_stdout i = Some k) \/ (e_stderr e = Some f /\ ei_stderr i = Some k) \/
  exists p, (p, f) ∈ e_outputs e /\ plookup p (ei_outputs i) = Some k.
Lemma add_output_spec st f k m m' : add_output st f k m = Some m' -> exists k0, k = Some k0 /\ st k0 = true /\ m' = <[f := k0]> m.
Proof. unfold add_output. destruct k as [k0|]; [|done]. destruct (st k0) eqn:E; [|done]. intros [= <-]. eauto. Qed.
Lemma outs_fold st i l m m' : ofoldl (fun m pf => add_output st pf.2 (plookup pf.1 (ei_outputs i)) m) l m = Some m' ->
  (forall p f, (p, f) ∈ l -> is_Some (m' !! f)) /\
  (forall f k, m' !! f = Some k -> m !! f = Some k \/ (exists p, (p, f) ∈ l /\ plookup p (ei_outputs i) = Some k /\ st k = true)) /\
  (forall f, is_Some (m !! f) -> is_Some (m' !! f)) /\
  (forall f, (forall p, (p, f) ∉ l) -> m' !! f = m !! f).
Proof.
  revert m. induction l as [|[p0 f0] l IH]; intros m; simpl.
  - intros [= <-]. split; [intros p f H; by apply not_elem_of_nil in H|]. auto.
  - destruct (add_output st f0 (plookup p0 (ei_outputs i)) m) as [m1|] eqn:E; [|done]. intros H.
    apply add_output_spec in E as (k0&Ek&Hst&->). destruct (IH _ H) as (H1&H2&H3&H4). split; [|split; [|split]].
    + intros p f Hin. apply elem_of_cons in Hin as [[= -> ->]|Hin]; [|by eapply H1]. apply H3. rewrite lookup_insert. eauto.
    + intros f k Hf. destruct (H2 f k Hf) as [Hf'|(p&Hp&?)]; [|right; exists p; split; [by right|done]].
      destruct (decide (f = f0)) as [->|Hne]; [rewrite lookup_insert in Hf'; injection Hf' as <-; right; exists p0; split; [left|done]|].
      rewrite lookup_insert_ne in Hf' by done. auto.
    + intros f Hf. apply H3. destruct (decide (f = f0)) as [->|Hne]; [rewrite lookup_insert; eauto|]. by rewrite lookup_insert_ne.
    + intros f Hn. rewrite H4; [|intros p Hp; apply (Hn p); by right]. rewrite lookup_insert_ne; [done|]. intros ->. apply (Hn p0). left.
Qed.
Lemma item_outputs_spec st m e i m' : item_outputs st m (e, i) = Some m' ->
  (forall f, f ∈ outputs e -> is_Some (m' !! f)) /\
  (forall f k, m' !! f = Some k -> m !! f = Some k \/ (recorded e i f k /\ st k = true)) /\
  (forall f, is_Some (m !! f) -> is_Some (m' !! f)) /\
  (forall f, f ∉ outputs e -> m' !! f = m !! f).
Proof.
  unfold item_outputs. intros H.
  destruct (match e_stdout e with Some f => add_output st f (ei_stdout i) m | None => Some m end) as [m1|] eqn:E1; [|done].
  destruct (match e_stderr e with Some f => add_output st f (ei_stderr i) m1 | None => Some m1 end) as [m2|] eqn:E2; [|done].
  destruct (outs_fold _ _ _ _ _ H) as (H1&H2&H3&H4).
  assert (A1 : forall f, e_stdout e = Some f -> exists k, ei_stdout i = Some k /\ st k = true /\ m1 = <[f := k]> m).
  { intros f Ef. rewrite Ef in E1. by apply add_output_spec in E1. }
  assert (A2 : forall f, e_stderr e = Some f -> exists k, ei_stderr i = Some k /\ st k = true /\ m2 = <[f := k]> m1).
  { intros f Ef. rewrite Ef in E2. by apply add_output_spec in E2. }
  assert (B1 : e_stdout e = None -> m1 = m) by (intros Ef; rewrite Ef in E1; congruence).
  assert (B2 : e_stderr e = None -> m2 = m1) by (intros Ef; rewrite Ef in E2; congruence).
  assert (C1 : forall f, is_Some (m !! f) -> is_Some (m1 !! f)).
  { intros f Hf. destruct (e_stdout e) as [f'|]; [|by rewrite (B1 eq_refl)]. destruct (A1 f' eq_refl) as (k&_&_&->).
    destruct (decide (f = f')) as [->|?]; [rewrite lookup_insert; eauto|by rewrite lookup_insert_ne]. }
  assert (C2 : forall f, is_Some (m1 !! f) -> is_Some (m2 !! f)).
  { intros f Hf. destruct (e_stderr e) as [f'|]; [|by rewrite (B2 eq_refl)]. destruct (A2 f' eq_refl) as (k&_&_&->).
    destruct (decide (f = f')) as [->|?]; [rewrite lookup_insert; eauto|by rewrite lookup_insert_ne]. }
  split; [|split; [|split]].
  - intros f Hf. unfold outputs in Hf. rewrite !elem_of_app in Hf. destruct Hf as [Hf|[Hf|Hf]].
    + destruct (e_stdout e) as [f'|]; simpl in Hf; [|by apply not_elem_of_nil in Hf]. apply elem_of_list_singleton in Hf as ->.
      apply H3, C2. destruct (A1 f' eq_refl) as (k&_&_&->). rewrite lookup_insert. eauto.
    + destruct (e_stderr e) as [f'|]; simpl in Hf; [|by apply not_elem_of_nil in Hf]. apply elem_of_list_singleton in Hf as ->.
      apply H3. destruct (A2 f' eq_refl) as (k&_&_&->). rewrite lookup_insert. eauto.
    + apply elem_of_list_In, in_map_iff in Hf as ([p f']&<-&Hin). apply elem_of_list_In in Hin. by eapply H1.
  - intros f k Hf. destruct (H2 f k Hf) as [Hf2|(p&Hp&Hk&Hst)].
    + destruct (e_stderr e) as [f'|] eqn:Ee; [destruct (A2 f' eq_refl) as (k'&Hk'&Hst'&->)|rewrite (B2 eq_refl) in Hf2].
      * destruct (decide (f = f')) as [->|Hne].
        -- rewrite lookup_insert in Hf2. injection Hf2 as <-. right. split; [|done]. right. left. auto.
        -- rewrite lookup_insert_ne in Hf2 by done. destruct (e_stdout e) as [f1|] eqn:Eo.
           ++ destruct (A1 f1 eq_refl) as (k1&Hk1&Hst1&->). destruct (decide (f = f1)) as [->|Hne1].
              ** rewrite lookup_insert in Hf2. injection Hf2 as <-. right. split; [|done]. left. auto.
              ** rewrite lookup_insert_ne in Hf2 by done. auto.
           ++ rewrite (B1 eq_refl) in Hf2. auto.
      * destruct (e_stdout e) as [f1|] eqn:Eo.
        -- destruct (A1 f1 eq_refl) as (k1&Hk1&Hst1&->). destruct (decide (f = f1)) as [->|Hne1].
           ++ rewrite lookup_insert in Hf2. injection Hf2 as <-. right. split; [|done]. left. auto.
           ++ rewrite lookup_insert_ne in Hf2 by done. auto.
        -- rewrite (B1 eq_refl) in Hf2. auto.
    + right. split; [|done]. right. right. eauto.
  - intros f Hf. by apply H3, C2, C1.
  - intros f Hf. unfold outputs in Hf. rewrite !elem_of_app in Hf. rewrite H4.
    + destruct (e_stderr e) as [f'|].
      * destruct (A2 f' eq_refl) as (k&_&_&->). rewrite lookup_insert_ne by (intros ->; apply Hf; right; left; simpl; left).
        destruct (e_stdout e) as [f1|]; [|by rewrite (B1 eq_refl)]. destruct (A1 f1 eq_refl) as (k1&_&_&->).
        rewrite lookup_insert_ne; [done|]. intros ->. apply Hf. left. simpl. left.
      * rewrite (B2 eq_refl). destruct (e_stdout e) as [f1|]; [|by rewrite (B1 eq_refl)]. destruct (A1 f1 eq_refl) as (k1&_&_&->).
        rewrite lookup_insert_ne; [done|]. intros ->. apply Hf. left. simpl. left.
    + intros p Hp. apply Hf. right. right. apply elem_of_list_In, in_map_iff. exists (p, f). split; [done|]. by apply elem_of_list_In.
Qed.
Lemma entry_outputs_fold st l m m' : ofoldl (item_outputs st) l m = Some m' ->
  (forall e i f, (e, i) ∈ l -> f ∈ outputs e -> is_Some (m' !! f)) /\
  (forall f k, m' !! f = Some k -> m !! f = Some k \/ exists e i, (e, i) ∈ l /\ recorded e i f k /\ st k = true) /\
  (forall f, is_Some (m !! f) -> is_Some (m' !! f)).
Proof.
  revert m. induction l as [|[e0 i0] l IH]; intros m H.
  - simpl in H. injection H as <-. split; [intros e i f Hin; by apply not_elem_of_nil in Hin|]. auto.
  - cbn [ofoldl] in H. destruct (item_outputs st m (e0, i0)) as [m1|] eqn:E; [|done].
    destruct (item_outputs_spec _ _ _ _ _ E) as (A1&A2&A3&_). destruct (IH _ H) as (B1&B2&B3). split; [|split].
    + intros e i f Hin Hf. apply elem_of_cons in Hin as [[= -> ->]|Hin]; [|by eapply B1]. by apply B3, A1.
    + intros f k Hf. destruct (B2 f k Hf) as [Hf1|(e&i&Hin&?)]; [|right; exists e, i; split; [by right|done]].
      destruct (A2 f k Hf1) as [?|[? ?]]; [auto|]. right. exists e0, i0. split; [left|done].
    + intros f Hf. by apply B3, A3.
Qed.

(** ** Limits *)
Lemma check_limit_le l r d : check_limit l r d = true <-> lim_le (shift d l) r.
Proof.
  unfold check_limit, lim_le, shift. destruct l as [x|], r as [y|]; simpl; split; try done.
  - rewrite negb_true_iff, bool_decide_eq_false. intros H. eexists. split; [done|lia].
  - intros (z&[= <-]&Hz). rewrite negb_true_iff, bool_decide_eq_false. lia.
  - intros (z&?&_). done.
Qed.
Lemma shift_0 l : shift 0 l = l.
Proof. destruct l as [x|]; [|done]. unfold shift. simpl. f_equal. lia. Qed.
Lemma check_memory_le checked l r a b : (0 <= a)%Z -> (0 <= b)%Z ->
  match l with Some x => (0 <= x)%Z /\ (x + a < U64)%Z | None => True end ->
  match r with Some y => (y < U64)%Z | None => True end ->
  check_memory checked l r a b = Some true -> lim_le (shift (a - b) l) r.
Proof.
  unfold check_memory, lim_le, shift. destruct l as [x|], r as [y|]; simpl; try done. intros Ha Hb [Hx Hxa] Hy H.
  exists (x + (a - b))%Z. split; [done|]. destruct checked.
  - case_bool_decide; [done|]. case_bool_decide; [done|]. injection H as H. rewrite negb_true_iff, bool_decide_eq_false in H. lia.
  - injection H as H. rewrite negb_true_iff, bool_decide_eq_false in H.
    rewrite Z.add_mod_idemp_r in H by (unfold U64; lia).
    destruct (decide (0 <= x + (a - b))%Z) as [Hp|Hp].
    + rewrite Z.mod_small in H by lia. lia.
    + assert (Hlow : (0 <= (x + (a - b)) mod U64)%Z) by (apply Z.mod_pos_bound; unfold U64; lia). lia.
Qed.
Lemma check_memory_same checked l x : (0 <= x)%Z -> match l with Some y => (0 <= y)%Z /\ (y + x < U64)%Z | None => (x < U64)%Z end ->
  check_memory checked l l x x = Some true.
Proof.
  intros Hx Hl. unfold check_memory. destruct l as [y|]; [|done]. destruct checked.
  - rewrite bool_decide_eq_false_2 by lia. rewrite bool_decide_eq_false_2 by lia. rewrite bool_decide_eq_false_2; [done|lia].
  - rewrite Z.sub_diag, Z.mod_0_l by (unfold U64; lia). rewrite Z.mod_small by lia. rewrite bool_decide_eq_false_2; [done|lia].
Qed.
Definition chain (l r : limits) : Prop :=
  (forall d, d ∈ l_extra_readable_dirs l -> d ∈ l_extra_readable_dirs r) \/ (forall d, d ∈ l_extra_readable_dirs r -> d ∈ l_extra_readable_dirs l).
Lemma check_dirs_chain l r : check_dirs l r = true -> (forall d, d ∈ l -> d ∈ r) \/ (forall d, d ∈ r -> d ∈ l) -> forall d, d ∈ l -> d ∈ r.
Proof.
  unfold check_dirs. rewrite negb_true_iff, andb_false_iff, !bool_decide_eq_false. intros [H|H] Hc.
  - destruct (decide ((list_to_set l : gset string) = list_to_set r)) as [E|E]; [|done].
    intros d Hd. rewrite <- (elem_of_list_to_set (C := gset string)), <- E. by apply elem_of_list_to_set.
  - destruct Hc as [Hc|Hc]; [done|]. exfalso. apply H. intros d. rewrite !elem_of_list_to_set. auto.
Qed.
Lemma check_dirs_same l : check_dirs l l = true.
Proof. unfold check_dirs. rewrite negb_true_iff, andb_false_iff, !bool_decide_eq_false. left. intros H. by apply H. Qed.
Lemma check_limits_sound checked l r dt a b : memory_fits l a -> memory_fits r b ->
  check_limits checked l r dt a b = Some true ->
  numbers_le l r dt (a - b) /\ flags_le l r /\ (chain l r -> dirs_le l r).
Proof.
  intros [Ha Hl] [Hb Hr]. unfold check_limits.
  destruct (check_limit (l_cpu_time l) (l_cpu_time r) dt) eqn:E1; [|done].
  destruct (check_limit (l_sys_time l) (l_sys_time r) dt) eqn:E2; [|done].
  destruct (check_limit (l_wall_time l) (l_wall_time r) dt) eqn:E3; [|done]. simpl.
  destruct (check_memory checked (l_memory l) (l_memory r) a b) as [[]|] eqn:E4; try done. intros [= H].
  rewrite !andb_true_iff, !check_limit_le, !shift_0 in H. destruct H as (((((((H1&H2)&H3)&H4)&H5)&H6)&H7)&H8).
  apply check_limit_le in E1, E2, E3. apply check_memory_le in E4; [| | |by destruct (l_memory l)|destruct (l_memory r); [lia|done]]; [|lia..].
  split; [unfold numbers_le; auto 10|]. split.
  - split; [|split].
    + destruct (l_allow_multiprocess l), (l_allow_multiprocess r); done.
    + destruct (l_read_only l), (l_read_only r); done.
    + destruct (l_mount_tmpfs l), (l_mount_tmpfs r); done.
  - intros Hc. unfold dirs_le. by apply check_dirs_chain.
Qed.
Lemma check_limits_same checked l x : memory_fits l x -> check_limits checked l l 0 x x = Some true.
Proof.
  intros [Hx Hl]. unfold check_limits.
  assert (Hle : forall o, check_limit o o 0 = true).
  { intros [y|]; [|done]. simpl. rewrite bool_decide_eq_false_2; [done|lia]. }
  rewrite !Hle. simpl. rewrite check_memory_same by done. rewrite check_dirs_same.
  by destruct (l_allow_multiprocess l), (l_read_only l), (l_mount_tmpfs l).
Qed.
