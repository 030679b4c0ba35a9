(** * CacheProofs: lemmas about the cache model *)
From Verif Require Import CacheSpec.

(** ** Folds that collect results *)
Lemma rfold_collect {A B} (step : list B -> A -> res (list B)) (P : A -> B -> Prop) :
  (forall acc x r, step acc x = ROk r <-> exists y, P x y /\ r = acc ++ [y]) ->
  forall l acc r, rfold step l acc = ROk r <-> exists ys, r = acc ++ ys /\ Forall2 P l ys.
Proof.
  intros Hstep. induction l as [|x l IH]; intros acc r; simpl.
  - split; [intros [= <-]; exists []; rewrite app_nil_r; auto|].
    intros (ys&->&H). inversion H; subst. by rewrite app_nil_r.
  - split.
    + destruct (step acc x) as [a| | |] eqn:E; try done. simpl. intros H. apply Hstep in E as (y&Hy&->).
      apply IH in H as (ys&->&Hys). exists (y :: ys). split; [by rewrite <- app_assoc|]. by constructor.
    + intros (ys&->&H). inversion H as [|? y ? ys' Hy Hys]; subst.
      assert (step acc x = ROk (acc ++ [y])) as -> by (apply Hstep; eauto). simpl. apply IH. exists ys'.
      split; [by rewrite <- app_assoc|done].
Qed.

Definition key_rel (keys : gmap file_uuid store_key) (pi : path * exec_input) (x : key_input) : Prop :=
  keys !! in_file pi.2 = Some x.1.2 /\ x.1.1 = pi.1 /\ x.2 = in_executable pi.2.
Lemma key_of_exec_spec keys g e k : key_of_exec keys g e = ROk k <->
  exists xs, Forall2 (key_rel keys) (e_inputs e) xs /\
    (forall f, e_stdin e = Some f -> is_Some (keys !! f)) /\
    k = KeyItem (e_command e) (key_args g (e_args e)) (stdin_key keys e) (merge_sort input_le xs) (merge_sort env_le (e_env e)).
Proof.
  unfold key_of_exec, stdin_key.
  set (step := fun acc pi => match keys !! in_file pi.2 with Some k => ROk (acc ++ [(pi.1, k, in_executable pi.2)]) | None => RPanic end).
  assert (Hstep : forall acc x r, step acc x = ROk r <-> exists y, key_rel keys x y /\ r = acc ++ [y]).
  { intros acc [p i] r. unfold step, key_rel. simpl. destruct (keys !! in_file i) as [k0|]; split.
    - intros [= <-]. by exists (p, k0, in_executable i).
    - intros ([[p' k'] b]&(H1&H2&H3)&->). simpl in *. by simplify_eq.
    - done.
    - intros (y&(H1&_)&_). done. }
  pose proof (rfold_collect step _ Hstep) as Hc.
  assert (Hs : forall so, (let! inputs := rfold step (e_inputs e) [] in
      ROk (KeyItem (e_command e) (key_args g (e_args e)) so (merge_sort input_le inputs) (merge_sort env_le (e_env e)))) = ROk k <->
    exists xs, Forall2 (key_rel keys) (e_inputs e) xs /\
      k = KeyItem (e_command e) (key_args g (e_args e)) so (merge_sort input_le xs) (merge_sort env_le (e_env e))).
  { intros so. split.
    - destruct (rfold step (e_inputs e) []) as [xs| | |] eqn:E; try done. simpl. intros [= <-].
      apply Hc in E as (ys&->&Hys). exists ys. done.
    - intros (xs&Hxs&->). assert (rfold step (e_inputs e) [] = ROk xs) as -> by (apply Hc; eauto). done. }
  destruct (e_stdin e) as [f|] eqn:Ef; simpl.
  - destruct (keys !! f) as [kf|] eqn:Ek; simpl.
    + rewrite Hs. split; intros (xs&H1&H2); exists xs; [split; [done|split; [|done]]; intros ? [= <-]; eauto|]. by destruct H2.
    + split; [done|]. intros (xs&_&H2&_). destruct (H2 f eq_refl). congruence.
  - rewrite Hs. split; intros (xs&H1&H2); exists xs; [split; [done|split; [|done]]; done|]. by destruct H2.
Qed.
Lemma key_of_group_spec keys g k : key_of_group keys g = ROk k <-> Forall2 (fun e i => key_of_exec keys g e = ROk i) (g_execs g) k.
Proof.
  unfold key_of_group. rewrite (rfold_collect _ (fun e i => key_of_exec keys g e = ROk i)).
  - split; [by intros (ys&->&H)|eauto].
  - intros acc e r. destruct (key_of_exec keys g e) as [i| | |]; simpl; split; try (by intros (?&?&_)); try done.
    + intros [= <-]. eauto.
    + intros (y&[= <-]&->). done.
Qed.

(** ** Orders *)
Lemma lex_le_refl a : lex_le a a = true.
Proof. induction a as [|x a IH]; [done|]. simpl. rewrite N.ltb_irrefl, N.eqb_refl. done. Qed.
Lemma lex_le_trans a b c : lex_le a b = true -> lex_le b c = true -> lex_le a c = true.
Proof.
  revert b c. induction a as [|x a IH]; intros [|y b] [|z c]; simpl; try done.
  destruct (N.ltb_spec x y), (N.ltb_spec y z), (N.ltb_spec x z); try done; try lia;
    destruct (N.eqb_spec x y), (N.eqb_spec y z), (N.eqb_spec x z); try done; try lia; subst; eauto.
Qed.
Lemma lex_le_total a b : lex_le a b = true \/ lex_le b a = true.
Proof.
  revert b. induction a as [|x a IH]; intros [|y b]; simpl; auto.
  destruct (N.ltb_spec x y), (N.ltb_spec y x); auto; destruct (N.eqb_spec x y), (N.eqb_spec y x); subst; auto; lia.
Qed.
Lemma lex_le_antisym a b : lex_le a b = true -> lex_le b a = true -> a = b.
Proof.
  revert b. induction a as [|x a IH]; intros [|y b]; simpl; try done.
  destruct (N.ltb_spec x y), (N.ltb_spec y x); try lia; destruct (N.eqb_spec x y), (N.eqb_spec y x); try done; try lia.
  subst. intros ? ?. f_equal. auto.
Qed.
Lemma str_code_inj a b x y : str_code a ++ x = str_code b ++ y -> a = b /\ x = y.
Proof.
  revert b. induction a as [|c a IH]; intros [|d b]; simpl.
  - intros [= ->]. done.
  - intros [= H _]. lia.
  - intros [= H _]. lia.
  - intros H. injection H as H1 H2. destruct (IH _ H2) as [-> ->]. split; [|done]. f_equal.
    apply N.succ_inj in H1. rewrite <- (Ascii.ascii_N_embedding c), <- (Ascii.ascii_N_embedding d). by rewrite H1.
Qed.
Global Instance input_le_trans : Transitive input_le.
Proof. intros a b c. apply lex_le_trans. Qed.
Global Instance input_le_total : Total input_le.
Proof. intros a b. apply lex_le_total. Qed.
Global Instance input_le_antisym : AntiSymm (=) input_le.
Proof.
  intros [[p k] b] [[p' k'] b'] H1 H2. pose proof (lex_le_antisym _ _ H1 H2) as H. unfold input_code in H. simpl in H.
  apply str_code_inj in H as [-> H]. injection H as -> H. f_equal. by destruct b, b'.
Qed.
Global Instance env_le_trans : Transitive env_le.
Proof. intros a b c. apply lex_le_trans. Qed.
Global Instance env_le_total : Total env_le.
Proof. intros a b. apply lex_le_total. Qed.
Global Instance env_le_antisym : AntiSymm (=) env_le.
Proof.
  intros [p k] [p' k'] H1 H2. pose proof (lex_le_antisym _ _ H1 H2) as H. unfold env_code in H. simpl in H.
  apply str_code_inj in H as [-> H].
  assert (E : str_code k ++ [] = str_code k' ++ []) by (by rewrite H). apply str_code_inj in E as [-> _]. done.
Qed.
Lemma sort_eq {A} (R : relation A) `{!RelDecision R, !Transitive R, !Total R, !AntiSymm (=) R} l1 l2 :
  merge_sort R l1 = merge_sort R l2 <-> l1 ≡ₚ l2.
Proof.
  split.
  - intros H. by rewrite <- (merge_sort_Permutation R l1), H, merge_sort_Permutation.
  - intros H. apply (Sorted_unique R); [apply Sorted_merge_sort; apply _..|]. by rewrite !merge_sort_Permutation.
Qed.

(** ** Arguments *)
Lemma fifo_path_inj u v : fifo_path u = fifo_path v -> u = v.
Proof. unfold fifo_path. intros H. by simplify_eq. Qed.
Lemma fifo_name_inj i j : fifo_name i = fifo_name j -> i = j.
Proof. unfold fifo_name. intros H. by simplify_eq. Qed.
Lemma fifo_names_spec g a : NoDup (g_fifo g) ->
  (forall i u, g_fifo g !! i = Some u -> a = fifo_path u -> fifo_names g !! a = Some (fifo_name i)) /\
  ((forall u, u ∈ g_fifo g -> a <> fifo_path u) -> fifo_names g !! a = None).
Proof.
  intros Hnd. unfold fifo_names.
  assert (Hgen : forall n l (m : gmap string string), NoDup l ->
    (forall i u, l !! i = Some u -> a = fifo_path u -> fold_left (fun m iu => <[fifo_path iu.2 := fifo_name iu.1]> m) (imap (fun i u => (n + i, u)) l) m !! a = Some (fifo_name (n + i))) /\
    ((forall u, u ∈ l -> a <> fifo_path u) -> fold_left (fun m iu => <[fifo_path iu.2 := fifo_name iu.1]> m) (imap (fun i u => (n + i, u)) l) m !! a = m !! a)).
  { clear. intros n l. revert n. induction l as [|x l IH]; intros n m Hnd; [split; [done|done]|].
    apply NoDup_cons in Hnd as [Hx Hnd]. simpl.
    assert (Heq : imap ((fun i u => (n + i, u)) ∘ S) l = imap (fun i u => (S n + i, u)) l).
    { apply imap_ext. intros i y _. simpl. f_equal. lia. }
    rewrite Heq. destruct (IH (S n) (<[fifo_path x := fifo_name (n + 0)]> m) Hnd) as [H1 H2]. split.
    - intros [|i] u Hi Ha; simpl in Hi.
      + injection Hi as ->. rewrite H2; [by rewrite Ha, lookup_insert|]. intros v Hv Hav. rewrite Ha in Hav.
        apply fifo_path_inj in Hav as <-. done.
      + rewrite (H1 i u Hi Ha). f_equal. f_equal. lia.
    - intros Hn. rewrite H2; [|intros u Hu; apply Hn; by right]. rewrite lookup_insert_ne; [done|]. intros E. by apply (Hn x); [left|]. }
  specialize (Hgen 0 (g_fifo g) ∅ Hnd) as [H1 H2]. split; [exact H1|]. intros Hn. etransitivity; [exact (H2 Hn)|]. apply lookup_empty.
Qed.
Lemma elem_fifo_dec a (l : list fifo_uuid) : (exists i u, l !! i = Some u /\ a = fifo_path u) \/ (forall u, u ∈ l -> a <> fifo_path u).
Proof.
  induction l as [|x l IH]; [right; intros u Hu; by apply not_elem_of_nil in Hu|].
  destruct (decide (a = fifo_path x)) as [->|Hne]; [left; exists 0, x; done|].
  destruct IH as [(i&u&?&?)|IH]; [left; exists (S i), u; done|]. right. intros u Hu. apply elem_of_cons in Hu as [->|?]; auto.
Qed.
Lemma arg_eq g1 g2 a b : NoDup (g_fifo g1) -> NoDup (g_fifo g2) -> (forall i, a <> fifo_name i) -> (forall i, b <> fifo_name i) ->
  default a (fifo_names g1 !! a) = default b (fifo_names g2 !! b) <-> same_arg g1 g2 a b.
Proof.
  intros Hn1 Hn2 Ha Hb. destruct (fifo_names_spec g1 a Hn1) as [A1 A2]. destruct (fifo_names_spec g2 b Hn2) as [B1 B2].
  unfold same_arg. destruct (elem_fifo_dec a (g_fifo g1)) as [(i&u&Hi&Ea)|Hna]; destruct (elem_fifo_dec b (g_fifo g2)) as [(j&v&Hj&Eb)|Hnb].
  - rewrite (A1 i u Hi Ea), (B1 j v Hj Eb). simpl. split.
    + intros H. apply fifo_name_inj in H as ->. left. eauto 10.
    + intros [(k&u'&v'&Hk1&Hk2&E1&E2)|(_&H&_)].
      * subst a b. apply fifo_path_inj in E1 as <-. apply fifo_path_inj in E2 as <-. f_equal.
        rewrite (NoDup_lookup _ _ _ _ Hn1 Hi Hk1), (NoDup_lookup _ _ _ _ Hn2 Hj Hk2). done.
      * exfalso. eapply H; [|exact Ea]. by eapply elem_of_list_lookup_2.
  - rewrite (A1 i u Hi Ea), (B2 Hnb). simpl. split; [intros H; exfalso; by eapply Hb|].
    intros [(k&u'&v'&_&Hk2&_&E2)|(_&H&_)]; exfalso.
    + eapply Hnb; [|exact E2]. by eapply elem_of_list_lookup_2.
    + eapply H; [|exact Ea]. by eapply elem_of_list_lookup_2.
  - rewrite (A2 Hna), (B1 j v Hj Eb). simpl. split; [intros H; exfalso; by eapply Ha|].
    intros [(k&u'&v'&Hk1&_&E1&_)|(_&_&H)]; exfalso.
    + eapply Hna; [|exact E1]. by eapply elem_of_list_lookup_2.
    + eapply H; [|exact Eb]. by eapply elem_of_list_lookup_2.
  - rewrite (A2 Hna), (B2 Hnb). simpl. split; [intros ->; by right|].
    intros [(k&u'&v'&Hk1&_&E1&_)|(->&_)]; [|done]. exfalso. eapply Hna; [|exact E1]. by eapply elem_of_list_lookup_2.
Qed.
Lemma args_eq g1 g2 l1 l2 : NoDup (g_fifo g1) -> NoDup (g_fifo g2) -> (forall a i, a ∈ l1 -> a <> fifo_name i) -> (forall a i, a ∈ l2 -> a <> fifo_name i) ->
  key_args g1 l1 = key_args g2 l2 <-> Forall2 (same_arg g1 g2) l1 l2.
Proof.
  intros Hn1 Hn2. revert l2. induction l1 as [|a l1 IH]; intros [|b l2] H1 H2; simpl; [done| | |].
  - split; [done|]. intros H; inversion H.
  - split; [done|]. intros H; inversion H.
  - assert (Hh : default a (fifo_names g1 !! a) = default b (fifo_names g2 !! b) <-> same_arg g1 g2 a b).
    { apply arg_eq; try done; intros i; [apply (H1 a)|apply (H2 b)]; left. }
    specialize (IH l2 (fun x i Hx => H1 x i (elem_of_list_further _ _ _ Hx)) (fun x i Hx => H2 x i (elem_of_list_further _ _ _ Hx))).
    unfold key_args in *. simpl. split.
    + intros [= E1 E2]. constructor; [by apply Hh|by apply IH].
    + intros H. inversion H; subst. f_equal; [by apply Hh|by apply IH].
Qed.

(** ** Inputs *)
Lemma key_rel_elem keys ins xs : Forall2 (key_rel keys) ins xs -> forall p k b,
  (p, k, b) ∈ xs <-> exists i, (p, i) ∈ ins /\ keys !! in_file i = Some k /\ in_executable i = b.
Proof.
  induction 1 as [|[p0 i0] [[p1 k1] b1] ins xs (H1&H2&H3) _ IH]; intros p k b.
  - split; [intros H; by apply not_elem_of_nil in H|]. intros (i&H&_). by apply not_elem_of_nil in H.
  - simpl in *. subst p1 b1. rewrite elem_of_cons, IH. split.
    + intros [[= -> -> ->]|(i&Hi&?)]; [exists i0; split; [left|done]|exists i; split; [by right|done]].
    + intros (i&Hi&Hk&Hb). apply elem_of_cons in Hi as [[= -> ->]|Hi]; [left; congruence|right; eauto].
Qed.
Lemma key_rel_paths keys ins xs : Forall2 (key_rel keys) ins xs -> (fun x : key_input => x.1.1) <$> xs = ins.*1.
Proof. induction 1 as [|pi x ins xs (_&H&_) _ IH]; [done|]. rewrite fmap_cons, IH, H. done. Qed.
Lemma NoDup_of_fmap {A B} (f : A -> B) l : NoDup (f <$> l) -> NoDup l.
Proof. apply NoDup_fmap_1. Qed.
Lemma perm_of_elem {A} (l1 l2 : list A) : NoDup l1 -> NoDup l2 -> (forall x, x ∈ l1 <-> x ∈ l2) -> l1 ≡ₚ l2.
Proof. intros H1 H2 H. by apply NoDup_Permutation. Qed.

Lemma key_items_eq g1 keys1 g2 keys2 e1 e2 k1 k2 : key_of_exec keys1 g1 e1 = ROk k1 -> key_of_exec keys2 g2 e2 = ROk k2 ->
  NoDup (g_fifo g1) -> NoDup (g_fifo g2) -> NoDup (e_inputs e1).*1 -> NoDup (e_inputs e2).*1 -> NoDup (e_env e1).*1 -> NoDup (e_env e2).*1 ->
  (forall a i, a ∈ e_args e1 -> a <> fifo_name i) -> (forall a i, a ∈ e_args e2 -> a <> fifo_name i) ->
  k1 = k2 <-> same_exec g1 keys1 g2 keys2 e1 e2.
Proof.
  intros H1 H2 Hf1 Hf2 Hi1 Hi2 He1 He2 Ha1 Ha2.
  apply key_of_exec_spec in H1 as (xs1&Hx1&_&->). apply key_of_exec_spec in H2 as (xs2&Hx2&_&->).
  assert (Hp : merge_sort input_le xs1 = merge_sort input_le xs2 <-> forall p k b, sees keys1 e1 p k b <-> sees keys2 e2 p k b).
  { transitivity (xs1 ≡ₚ xs2); [apply (sort_eq input_le)|]. unfold sees. split.
    - intros Hp p k b. by rewrite <- (key_rel_elem _ _ _ Hx1), <- (key_rel_elem _ _ _ Hx2), Hp.
    - intros H. apply perm_of_elem.
      + eapply NoDup_of_fmap. erewrite key_rel_paths by exact Hx1. done.
      + eapply NoDup_of_fmap. erewrite key_rel_paths by exact Hx2. done.
      + intros [[p k] b]. by rewrite (key_rel_elem _ _ _ Hx1), (key_rel_elem _ _ _ Hx2). }
  assert (He : merge_sort env_le (e_env e1) = merge_sort env_le (e_env e2) <-> forall x v, (x, v) ∈ e_env e1 <-> (x, v) ∈ e_env e2).
  { transitivity (e_env e1 ≡ₚ e_env e2); [apply (sort_eq env_le)|]. split.
    - intros Hp0 x v. by rewrite Hp0.
    - intros H. apply perm_of_elem; [by eapply NoDup_of_fmap..|]. by intros [x v]. }
  assert (Ha : key_args g1 (e_args e1) = key_args g2 (e_args e2) <-> Forall2 (same_arg g1 g2) (e_args e1) (e_args e2)) by (by apply args_eq).
  unfold same_exec. rewrite <- Hp, <- He, <- Ha. split.
  - intros [= E1 E2 E3 E4 E5]. done.
  - intros (E1&E2&E3&E4&E5). by rewrite E1, E2, E3, E4, E5.
Qed.
