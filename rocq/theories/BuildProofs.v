(** * BuildProofs: the invariant of a DAG under construction *)
From Verif Require Import BuildModel BuildSpec CheckDagSpec.

Definition cnt (x : positive) (l : list positive) : nat := count_occ Pos.eq_dec l x.
Lemma cnt_app x l1 l2 : cnt x (l1 ++ l2) = cnt x l1 + cnt x l2.
Proof. apply count_occ_app. Qed.
Lemma cnt_nil x : cnt x [] = 0.
Proof. done. Qed.
Lemma cnt_cons x y l : cnt x (y :: l) = (if decide (x = y) then 1 else 0) + cnt x l.
Proof. unfold cnt. cbn [count_occ]. destruct (Pos.eq_dec y x), (decide (x = y)); subst; try done; lia. Qed.
Lemma cnt_in x l : x ∈ l <-> 0 < cnt x l.
Proof. unfold cnt. rewrite elem_of_list_In. apply count_occ_In. Qed.
Lemma cnt_NoDup l : NoDup l <-> forall x, cnt x l <= 1.
Proof. rewrite NoDup_ListNoDup. apply NoDup_count_occ. Qed.
Lemma cnt_Permutation x l1 l2 : l1 ≡ₚ l2 -> cnt x l1 = cnt x l2.
Proof. intros H. unfold cnt. by apply Permutation_count_occ. Qed.
Global Opaque cnt.

Lemma ainsert_keys {V} (f : positive) (v : V) l x : NoDup l.*1 ->
  cnt x (ainsert f v l).*1 = cnt x l.*1 + (if decide (x = f) then (if decide (f ∈ l.*1) then 0 else 1) else 0).
Proof.
  induction l as [|[k' v'] l IH]; intros Hnd; cbn [ainsert].
  - cbn. rewrite cnt_cons, cnt_nil. destruct (decide (x = f)), (decide (f ∈ [])) as [Hx|]; try done; by apply not_elem_of_nil in Hx.
  - cbn in Hnd. apply NoDup_cons in Hnd as [Hk Hnd]. destruct (decide (f = k')) as [->|E].
    + cbn. rewrite !cnt_cons. destruct (decide (x = k')), (decide (k' ∈ k' :: l.*1)) as [|Hx]; try lia; by destruct Hx; left.
    + cbn. rewrite !cnt_cons, IH by done. rewrite (decide_ext (f ∈ k' :: l.*1) (f ∈ l.*1)).
      * repeat case_decide; lia.
      * rewrite elem_of_cons. naive_solver.
Qed.
Lemma ainsert_elem {K V} `{EqDecision K} (f : K) (v : V) l x : x ∈ (ainsert f v l).*1 <-> x = f \/ x ∈ l.*1.
Proof.
  induction l as [|[k' v'] l IH]; cbn [ainsert].
  - cbn. rewrite elem_of_list_singleton, elem_of_nil. naive_solver.
  - case_decide; cbn; rewrite !elem_of_cons; [subst; naive_solver|]. rewrite IH. naive_solver.
Qed.
Lemma aget_ainsert {K V} `{EqDecision K} (f : K) (v : V) l x :
  aget x (ainsert f v l) = if decide (x = f) then Some v else aget x l.
Proof.
  induction l as [|[k' v'] l IH]; cbn [ainsert aget].
  - by case_decide.
  - destruct (decide (f = k')) as [->|E]; cbn [aget].
    + by destruct (decide (x = k')).
    + rewrite IH. destruct (decide (x = k')) as [E1|E1], (decide (x = f)) as [E2|E2]; congruence.
Qed.
Lemma aget_elem {K V} `{EqDecision K} (l : list (K * V)) x v : aget x l = Some v -> x ∈ l.*1.
Proof. induction l as [|[k' v'] l IH]; [done|]. cbn. rewrite elem_of_cons. case_decide; naive_solver. Qed.
Lemma aget_pair {K V} `{EqDecision K} (l : list (K * V)) x v : aget x l = Some v -> (x, v) ∈ l.
Proof. induction l as [|[k' v'] l IH]; [done|]. cbn. rewrite elem_of_cons. case_decide; naive_solver. Qed.
Lemma elem_aget {K V} `{EqDecision K} (l : list (K * V)) x : x ∈ l.*1 -> is_Some (aget x l).
Proof. induction l as [|[k' v'] l IH]; [by intros ?%elem_of_nil|]. cbn. rewrite elem_of_cons. case_decide; naive_solver. Qed.
Lemma ainsert_pair {K V} `{EqDecision K} (f : K) (v : V) l x y : (x, y) ∈ ainsert f v l -> (x = f /\ y = v) \/ (x, y) ∈ l.
Proof.
  induction l as [|[k' v'] l IH]; cbn [ainsert].
  - rewrite elem_of_list_singleton. naive_solver.
  - case_decide; rewrite !elem_of_cons; naive_solver.
Qed.

(** ** Triples *)
Definition triple {A} (Pre : bstate -> Prop) (m : M A) (Post : A -> bstate -> Prop) : Prop :=
  forall s, Pre s -> match m s with ROk (a, s') => Post a s' | RErr => True | RPanic => False end.
Lemma t_bind {A B} Pre (m : M A) Mid (f : A -> M B) Post :
  triple Pre m Mid -> (forall a, triple (Mid a) (f a) Post) -> triple Pre (bind m f) Post.
Proof.
  intros Hm Hf s Hs. unfold bind. specialize (Hm s Hs). destruct (m s) as [[a s']| |]; [|done|done].
  by apply (Hf a s').
Qed.
Lemma t_ret {A} (Pre : bstate -> Prop) (a : A) (Post : A -> bstate -> Prop) : (forall s, Pre s -> Post a s) -> triple Pre (ret a) Post.
Proof. intros H s Hs. by apply H. Qed.
Lemma t_conseq {A} (Pre Pre' : bstate -> Prop) (m : M A) (Post Post' : A -> bstate -> Prop) :
  triple Pre' m Post' -> (forall s, Pre s -> Pre' s) -> (forall a s, Post' a s -> Post a s) -> triple Pre m Post.
Proof. intros Hm H1 H2 s Hs. specialize (Hm s (H1 s Hs)). destruct (m s) as [[a s']| |]; eauto. Qed.
Lemma t_pre {A} (Pre Pre' : bstate -> Prop) (m : M A) (Post : A -> bstate -> Prop) :
  triple Pre' m Post -> (forall s, Pre s -> Pre' s) -> triple Pre m Post.
Proof. intros Hm H. by apply (t_conseq Pre Pre' m Post Post). Qed.
Lemma t_assume {A} (Q : Prop) (Pre : bstate -> Prop) (m : M A) Post :
  (Q -> triple Pre m Post) -> triple (fun s => Q /\ Pre s) m Post.
Proof. intros H s [HQ Hs]. by apply H. Qed.
Lemma t_exists {A X} (Pre : X -> bstate -> Prop) (m : M A) Post :
  (forall x, triple (Pre x) m Post) -> triple (fun s => exists x, Pre x s) m Post.
Proof. intros H s [x Hs]. by apply (H x). Qed.

(** ** The invariant: [P] are the executions under construction, [R] the identifiers given out and not used yet *)
Definition execs_of (s : bstate) : list execution := (b_groups s).*2 ≫= g_execs.
Definition douts (s : bstate) : list positive := execs_of s ≫= outputs.
Definition dids (s : bstate) : list positive := map e_uuid (execs_of s).
Definition known (s : bstate) (f : positive) : Prop := f ∈ douts s \/ f ∈ (b_provided s).*1.
Definition caps_ok (e : execution) : Prop :=
  (is_Some (e_capture_stdout e) -> is_Some (e_stdout e)) /\ (is_Some (e_capture_stderr e) -> is_Some (e_stderr e)).
Definition low (s : bstate) (P : list execution) (R : list positive) (x : positive) : nat :=
  cnt x (douts s) + cnt x (dids s) + cnt x (b_groups s).*1 + cnt x (P ≫= outputs) + cnt x (map e_uuid P) + cnt x R.

Record Inv (n0 : positive) (P : list execution) (R : list positive) (s : bstate) : Prop := {
  i_n0 : (n0 <= b_next s)%positive;
  i_count : forall x, low s P R x + cnt x (b_provided s).*1 <= 1;
  i_next : forall x, 0 < low s P R x + cnt x (b_provided s).*1 -> (x < b_next s)%positive;
  i_low : forall x, 0 < low s P R x -> (n0 <= x)%positive;
  i_key : forall k g, (k, g) ∈ b_groups s -> g_uuid g = k /\ g_execs g <> [] /\ NoDup (g_fifo g);
  i_order : forall pre k g post e f, b_groups s = pre ++ (k, g) :: post -> e ∈ g_execs g -> f ∈ dependencies e ->
      f ∈ (b_provided s).*1 \/ f ∈ ((pre.*2 ≫= g_execs) ≫= outputs);
  i_caps : forall e, e ∈ execs_of s ++ P -> caps_ok e;
  i_deps : forall e f, e ∈ P -> f ∈ dependencies e -> known s f;
  i_exes : forall i f, b_exes s !! i = Some f -> known s f;
  i_written : forall f, f ∈ (b_written s).*1 -> known s f \/ f ∈ P ≫= outputs;
  i_roles : forall u, u ∈ (b_roles s).*1 -> u ∈ dids s \/ u ∈ map e_uuid P
}.

(** What only grows.  [ext n0 s s']: everything in [s] is in [s'], unchanged. *)
Definition noncomp (l : list (exec_uuid * role)) : list role := filter (fun r => comp_role r = false) l.*2.
Record ext (n0 : positive) (s s' : bstate) : Prop := {
  x_next : (b_next s <= b_next s')%positive;
  x_groups : exists l, b_groups s' = b_groups s ++ l;
  x_provided : forall f, (n0 <= f)%positive -> (f < b_next s)%positive -> aget f (b_provided s') = aget f (b_provided s);
  x_known : forall f, f ∈ (b_provided s).*1 -> f ∈ (b_provided s').*1;
  x_exes : forall i f, b_exes s !! i = Some f -> b_exes s' !! i = Some f;
  x_written : forall f, (f < b_next s)%positive -> aget f (b_written s') = aget f (b_written s);
  x_roles : exists l, b_roles s' = b_roles s ++ l
}.
Lemma ext_refl n0 s : ext n0 s s.
Proof. split; try done; try lia; by exists []; rewrite app_nil_r. Qed.
Lemma ext_trans n0 s1 s2 s3 : ext n0 s1 s2 -> ext n0 s2 s3 -> ext n0 s1 s3.
Proof.
  intros H1 H2. pose proof (x_next _ _ _ H1). pose proof (x_next _ _ _ H2). split.
  - lia.
  - destruct (x_groups _ _ _ H1) as [l E1]. destruct (x_groups _ _ _ H2) as [l' E2]. exists (l ++ l').
    by rewrite E2, E1, (assoc_L (++)).
  - intros f ? ?. rewrite (x_provided _ _ _ H2), (x_provided _ _ _ H1) by lia. done.
  - intros f Hf. by apply (x_known _ _ _ H2), (x_known _ _ _ H1).
  - intros i f Hf. by apply (x_exes _ _ _ H2), (x_exes _ _ _ H1).
  - intros f ?. rewrite (x_written _ _ _ H2), (x_written _ _ _ H1) by lia. done.
  - destruct (x_roles _ _ _ H1) as [l E1]. destruct (x_roles _ _ _ H2) as [l' E2]. exists (l ++ l').
    by rewrite E2, E1, (assoc_L (++)).
Qed.

(** [I n0 s0 L P R s]: the invariant, [s] extends [s0], and since [s0] the executions in [L] were bound to the UI *)
Definition I (n0 : positive) (s0 : bstate) (L : list role) (P : list execution) (R : list positive) (s : bstate) : Prop :=
  Inv n0 P R s /\ ext n0 s0 s /\ noncomp (b_roles s) = noncomp (b_roles s0) ++ L.

Lemma known_outs_app s f : known s f <-> 0 < cnt f (douts s) + cnt f (b_provided s).*1.
Proof. unfold known. rewrite !cnt_in. lia. Qed.

Lemma Inv_perm n0 P P' R R' s : P ≡ₚ P' -> R ≡ₚ R' -> Inv n0 P R s -> Inv n0 P' R' s.
Proof.
  intros HP HR [h1 h2 h3 h4 h5 h6 h7 h8 h9 h10 h11].
  assert (HL : forall x, low s P' R' x = low s P R x).
  { intros x. unfold low. rewrite (cnt_Permutation x R' R) by done.
    rewrite (cnt_Permutation x (P' ≫= outputs) (P ≫= outputs)) by (by rewrite HP).
    rewrite (cnt_Permutation x (map e_uuid P') (map e_uuid P)) by (by rewrite HP). done. }
  split; try done; try (intros x; rewrite HL; by auto).
  - intros e He. apply h7. by rewrite HP.
  - intros e f He. apply h8. by rewrite HP.
  - intros f Hf. rewrite <- HP. by apply h10.
  - intros u Hu. rewrite <- HP. by apply h11.
Qed.

Lemma Inv_drop n0 P x R s : Inv n0 P (x :: R) s -> Inv n0 P R s.
Proof.
  intros [h1 h2 h3 h4 h5 h6 h7 h8 h9 h10 h11].
  assert (HL : forall y, low s P R y <= low s P (x :: R) y) by (intros y; unfold low; rewrite cnt_cons; lia).
  split; try done; intros y; specialize (HL y); [specialize (h2 y)|specialize (h3 y)|specialize (h4 y)]; lia.
Qed.

Lemma I_R n0 s0 L P x R s : I n0 s0 L P (x :: R) s -> x ∉ (b_provided s).*1 /\ (n0 <= x)%positive /\ ~ known s x.
Proof.
  intros [[h1 h2 h3 h4 _ _ _ _ _ _ _] _]. specialize (h2 x). specialize (h4 x).
  assert (1 <= low s P (x :: R) x) by (unfold low; rewrite cnt_cons, decide_True by done; lia).
  rewrite known_outs_app, cnt_in. unfold low in *. rewrite cnt_cons, decide_True in * by done. lia.
Qed.

(** ** Primitive operations *)
Lemma op_new_id n0 s0 L P R : triple (I n0 s0 L P R) new_id (fun x s => (b_next s0 <= x)%positive /\ (n0 <= x)%positive /\ I n0 s0 L P (x :: R) s).
Proof.
  intros s (Hi & Hx & HL). cbn. destruct Hi as [h1 h2 h3 h4 h5 h6 h7 h8 h9 h10 h11].
  pose proof (x_next _ _ _ Hx). split; [done|]. split; [lia|].
  assert (Hf : low s P R (b_next s) + cnt (b_next s) (b_provided s).*1 = 0).
  { specialize (h3 (b_next s)). destruct (decide (0 < low s P R (b_next s) + cnt (b_next s) (b_provided s).*1)); [|lia].
    apply h3 in l. lia. }
  split; [|split].
  - split; try done; cbn [b_next b_provided b_groups].
    + lia.
    + intros x. specialize (h2 x). unfold low in *. cbn [b_groups]. unfold douts, dids, execs_of in *. cbn [b_groups].
      rewrite cnt_cons. case_decide; subst; lia.
    + intros x. specialize (h3 x). unfold low in *. unfold douts, dids, execs_of in *. cbn [b_groups] in *.
      rewrite cnt_cons. case_decide; subst; [lia|]. intros. apply Pos.lt_lt_succ, h3. lia.
    + intros x. specialize (h4 x). unfold low in *. unfold douts, dids, execs_of in *. cbn [b_groups] in *.
      rewrite cnt_cons. case_decide; subst; [lia|]. intros. apply h4. lia.
  - destruct Hx. split; cbn; try done. lia.
  - done.
Qed.

Lemma op_provide n0 s0 L P R w f p : (b_next s0 <= f)%positive ->
  triple (I n0 s0 L P (f :: R)) (provide_file w f p)
    (fun _ s => aget f (b_provided s) = w_key w p /\ is_Some (w_key w p) /\ I n0 s0 L P R s).
Proof.
  intros Hge s Hs. pose proof (I_R _ _ _ _ _ _ _ Hs) as (Hnp & Hn & _). destruct Hs as (Hi & Hx & HL).
  unfold provide_file. destruct (w_key w p) as [k|] eqn:Ek; [|done]. cbn [b_provided].
  destruct Hi as [h1 h2 h3 h4 h5 h6 h7 h8 h9 h10 h11].
  assert (Hnd : NoDup (b_provided s).*1) by (apply cnt_NoDup; intros x; specialize (h2 x); lia).
  pose proof (fun x => ainsert_keys f k (b_provided s) x Hnd) as Hk.
  assert (HK : forall x, cnt x (ainsert f k (b_provided s)).*1 = cnt x (b_provided s).*1 + (if decide (x = f) then 1 else 0)).
  { intros x. rewrite Hk. destruct (decide (x = f)); [|done]. by rewrite decide_False. }
  assert (Hin : forall x, x ∈ (ainsert f k (b_provided s)).*1 <-> x = f \/ x ∈ (b_provided s).*1) by (intros; apply ainsert_elem).
  split; [rewrite aget_ainsert; by rewrite decide_True|]. split; [by eexists|].
  split; [|split; [|done]].
  - unfold low, douts, dids, execs_of in *.
    split; cbn [b_next b_provided b_groups b_exes b_written b_roles]; try done; unfold known, low, douts, dids, execs_of in *; cbn [b_next b_provided b_groups b_exes b_written b_roles].
    + intros x. specialize (h2 x). rewrite HK. rewrite cnt_cons in h2. destruct (decide (x = f)); lia.
    + intros x. specialize (h3 x). rewrite HK. rewrite cnt_cons in h3. intros ?. apply h3. destruct (decide (x = f)); lia.
    + intros x. specialize (h4 x). rewrite cnt_cons in h4. intros ?. apply h4. lia.
    + intros pre k0 g post e f0 E He Hf. destruct (h6 pre k0 g post e f0 E He Hf) as [?|?]; [|by right]. left. apply Hin. by right.
    + intros e f0 He Hf. destruct (h8 e f0 He Hf); [by left|]. right. apply Hin. by right.
    + intros i f0 Hf. destruct (h9 i f0 Hf); [by left|]. right. apply Hin. by right.
    + intros f0 Hf. destruct (h10 f0 Hf) as [[?|?]|?]; [by left; left|left; right|by right]. apply Hin. by right.
  - destruct Hx as [y1 y2 y3 y4 y5 y6 y7]. split; cbn [b_next b_provided b_groups b_exes b_written b_roles]; try done.
    + intros f0 ? ?. rewrite aget_ainsert, decide_False by (intros ->; lia). by apply y3.
    + intros f0 Hf. apply Hin. right. by apply y4.
Qed.

(** The grader of a language: the same handle may be provided many times. *)
Lemma op_provide_grader n0 s0 L P R w f p : (f < n0)%positive ->
  triple (I n0 s0 L P R) (provide_file w f p)
    (fun _ s => aget f (b_provided s) = w_key w p /\ is_Some (w_key w p) /\ f ∈ (b_provided s).*1 /\ I n0 s0 L P R s).
Proof.
  intros Hlt s Hs. destruct Hs as (Hi & Hx & HL).
  unfold provide_file. destruct (w_key w p) as [k|] eqn:Ek; [|done]. cbn [b_provided].
  destruct Hi as [h1 h2 h3 h4 h5 h6 h7 h8 h9 h10 h11].
  assert (Hnd : NoDup (b_provided s).*1) by (apply cnt_NoDup; intros x; specialize (h2 x); lia).
  pose proof (fun x => ainsert_keys f k (b_provided s) x Hnd) as Hk.
  assert (Hin : forall x, x ∈ (ainsert f k (b_provided s)).*1 <-> x = f \/ x ∈ (b_provided s).*1) by (intros; apply ainsert_elem).
  assert (Hlow : low s P R f = 0).
  { specialize (h4 f). destruct (decide (0 < low s P R f)) as [Hl|]; [|lia]. apply h4 in Hl. lia. }
  split; [rewrite aget_ainsert; by rewrite decide_True|]. split; [by eexists|]. split; [apply Hin; by left|].
  split; [|split; [|done]].
  - unfold low, douts, dids, execs_of in *.
    split; cbn [b_next b_provided b_groups b_exes b_written b_roles]; try done; unfold known, low, douts, dids, execs_of in *; cbn [b_next b_provided b_groups b_exes b_written b_roles].
    + intros x. specialize (h2 x). rewrite Hk. destruct (decide (x = f)) as [->|]; [|lia].
      destruct (decide (f ∈ (b_provided s).*1)) as [|Hno]; [lia|]. rewrite cnt_in in Hno. lia.
    + intros x. specialize (h3 x). rewrite Hk. destruct (decide (x = f)) as [->|]; intros ?; [lia|]. apply h3. lia.
    + intros pre k0 g post e f0 E He Hf. destruct (h6 pre k0 g post e f0 E He Hf) as [?|?]; [|by right]. left. apply Hin. by right.
    + intros e f0 He Hf. destruct (h8 e f0 He Hf); [by left|]. right. apply Hin. by right.
    + intros i f0 Hf. destruct (h9 i f0 Hf); [by left|]. right. apply Hin. by right.
    + intros f0 Hf. destruct (h10 f0 Hf) as [[?|?]|?]; [by left; left|left; right|by right]. apply Hin. by right.
  - destruct Hx as [y1 y2 y3 y4 y5 y6 y7]. split; cbn [b_next b_provided b_groups b_exes b_written b_roles]; try done.
    + intros f0 ? ?. rewrite aget_ainsert, decide_False by (intros ->; lia). by apply y3.
    + intros f0 Hf. apply Hin. right. by apply y4.
Qed.

Lemma op_provide_key n0 s0 L P R f k : (b_next s0 <= f)%positive ->
  triple (I n0 s0 L P (f :: R)) (provide_key f k) (fun _ s => aget f (b_provided s) = Some k /\ I n0 s0 L P R s).
Proof.
  intros Hge s Hs. pose proof (op_provide n0 s0 L P R (World (fun _ => true) (fun _ => Some k)) f "" Hge s Hs) as H.
  unfold provide_file in H. cbn in H. destruct H as (H1 & _ & H2). split; [exact H1|exact H2].
Qed.

(** A new execution, and any change of the execution at the head. *)
Lemma Inv_exec n0 P R s u cmd : Inv n0 P (u :: R) s -> Inv n0 (exec_new u cmd :: P) R s.
Proof.
  intros [h1 h2 h3 h4 h5 h6 h7 h8 h9 h10 h11].
  assert (HL : forall x, low s (exec_new u cmd :: P) R x = low s P (u :: R) x).
  { intros x. unfold low. cbn. rewrite !cnt_cons. lia. }
  split; try done; try (intros x; rewrite HL; by auto).
  - intros e. rewrite elem_of_app, elem_of_cons. intros [He|[->|He]]; [apply h7; set_solver|split; cbn; by intros [? ?]|apply h7; set_solver].
  - intros e f. rewrite elem_of_cons. intros [->|He]; [by intros ?%elem_of_nil|by apply h8].
  - intros u'. intros Hu. destruct (h11 u' Hu) as [?|?]; [by left|]. right. cbn. by right.
Qed.
Lemma Inv_head n0 P R fs s e e' : Inv n0 (e :: P) (fs ++ R) s ->
  e_uuid e' = e_uuid e -> (forall x, cnt x (outputs e') = cnt x (outputs e) + cnt x fs) ->
  caps_ok e' -> (forall f, f ∈ dependencies e' -> known s f) -> Inv n0 (e' :: P) R s.
Proof.
  intros [h1 h2 h3 h4 h5 h6 h7 h8 h9 h10 h11] Hu Ho Hc Hd.
  assert (HL : forall x, low s (e' :: P) R x = low s (e :: P) (fs ++ R) x).
  { intros x. unfold low. cbn. rewrite !cnt_app, !cnt_cons, Ho, Hu. lia. }
  split; try done; try (intros x; rewrite HL; by auto).
  - intros e0. rewrite elem_of_app, elem_of_cons. intros [He|[->|He]]; [apply h7; set_solver|done|apply h7; set_solver].
  - intros e0 f. rewrite elem_of_cons. intros [->|He]; [by auto|]. apply h8. by right.
  - intros f Hf. destruct (h10 f Hf) as [?|Hf']; [by left|]. right. revert Hf'. cbn. rewrite !elem_of_app, !cnt_in, Ho. intros [?|?]; [left; lia|by right].
  - intros u Hf. destruct (h11 u Hf) as [?|Hf']; [by left|]. right. revert Hf'. cbn. by rewrite Hu.
Qed.
Lemma I_head n0 s0 L P R s e e' : I n0 s0 L (e :: P) R s ->
  e_uuid e' = e_uuid e -> outputs e' = outputs e -> caps_ok e' -> (forall f, f ∈ dependencies e' -> known s f \/ f ∈ dependencies e) ->
  I n0 s0 L (e' :: P) R s.
Proof.
  intros (Hi & Hx & HL) Hu Ho Hc Hd. split; [|done]. apply (Inv_head n0 P R [] s e e'); try done.
  - intros x. rewrite Ho, cnt_nil. lia.
  - intros f Hf. destruct (Hd f Hf) as [?|He]; [done|]. apply (i_deps _ _ _ _ Hi e f); [by left|done].
Qed.
Lemma I_caps n0 s0 L P R s e : I n0 s0 L (e :: P) R s -> caps_ok e.
Proof. intros (Hi & _). apply (i_caps _ _ _ _ Hi). rewrite elem_of_app. right. by left. Qed.

Lemma op_write n0 s0 L P R c f p x :  (b_next s0 <= f)%positive ->
  triple (fun s => (known s f \/ f ∈ P ≫= outputs) /\ I n0 s0 L P R s) (write_file_to c f p x)
    (fun _ s => (cfg_dry_run (bc_dag c) = false -> aget f (b_written s) = Some (p, x)) /\ I n0 s0 L P R s).
Proof.
  intros Hge s (Hf & Hi & Hx & HL). unfold write_file_to. destruct (cfg_dry_run (bc_dag c)); [split; [done|]; by split|].
  cbn [b_written]. split; [intros _; by rewrite aget_ainsert, decide_True|].
  destruct Hi as [h1 h2 h3 h4 h5 h6 h7 h8 h9 h10 h11]. split; [|split; [|done]].
  - split; try done. cbn [b_written]. intros f0 [->|Hf0]%ainsert_elem; [done|]. by apply h10.
  - destruct Hx as [y1 y2 y3 y4 y5 y6 y7]. split; try done. cbn [b_written]. intros f0 ?.
    rewrite aget_ainsert, decide_False by (intros ->; lia). by apply y6.
Qed.

Lemma noncomp_snoc l u r : noncomp (l ++ [(u, r)]) = noncomp l ++ (if comp_role r then [] else [r]).
Proof. unfold noncomp. rewrite fmap_app, filter_app. f_equal. cbn [fmap list_fmap snd]. rewrite filter_cons, filter_nil. destruct (comp_role r); by case_decide. Qed.

Lemma op_role n0 s0 L P R e r : e ∈ P ->
  triple (I n0 s0 L P R) (bind_role e r)
    (fun _ s => (e_uuid e, r) ∈ b_roles s /\ I n0 s0 (L ++ (if comp_role r then [] else [r])) P R s).
Proof.
  intros He s (Hi & Hx & HL). cbn. split; [set_solver|].
  destruct Hi as [h1 h2 h3 h4 h5 h6 h7 h8 h9 h10 h11]. split; [|split].
  - split; try done. cbn [b_roles]. intros u. rewrite fmap_app. cbn. rewrite elem_of_app, elem_of_list_singleton.
    intros [Hu| ->]; [by apply h11|]. right. apply elem_of_list_fmap. by exists e.
  - destruct Hx as [y1 y2 y3 y4 y5 y6 y7]. split; try done. cbn [b_roles]. destruct y7 as [l ->]. eexists. by rewrite <- (assoc_L (++)).
  - cbn [b_roles]. rewrite noncomp_snoc, HL. by rewrite (assoc_L (++)).
Qed.

Lemma op_set_exe n0 s0 L P R src f : b_exes s0 !! sf_id src = None ->
  triple (fun s => known s f /\ I n0 s0 L P R s) (set_exe src f)
    (fun _ s => b_exes s !! sf_id src = Some f /\ I n0 s0 L P R s).
Proof.
  intros Hno s (Hf & Hi & Hx & HL). cbn. split; [by rewrite lookup_insert|].
  destruct Hi as [h1 h2 h3 h4 h5 h6 h7 h8 h9 h10 h11]. split; [|split; [|done]].
  - split; try done. cbn [b_exes]. intros i f0. rewrite lookup_insert_Some. intros [[<- <-]|[_ ?]]; [done|by apply (h9 i)].
  - destruct Hx as [y1 y2 y3 y4 y5 y6 y7]. split; try done. cbn [b_exes]. intros i f0 Hi.
    destruct (decide (i = sf_id src)) as [->|]; [congruence|]. rewrite lookup_insert_ne by done. by apply y5.
Qed.

Lemma dependencies_config c e : dependencies (set_config c e) = dependencies e.
Proof. done. Qed.
Lemma map_config_outputs c es : map (set_config c) es ≫= outputs = es ≫= outputs.
Proof. induction es as [|e es IH]; [done|]. cbn. by rewrite IH. Qed.
Lemma map_config_uuid c es : map e_uuid (map (set_config c) es) = map e_uuid es.
Proof. rewrite map_map. done. Qed.

Definition group_of (c : build_config) (g : positive) (es : list execution) (fifos : list positive) : positive * group :=
  (g, Group g (map (set_config (bc_dag c)) es) fifos).

Lemma op_group n0 s0 L P R c g es fifos : es <> [] -> NoDup fifos ->
  triple (I n0 s0 L (es ++ P) (g :: R)) (add_group c g es fifos)
    (fun _ s => group_of c g es fifos ∈ b_groups s /\ I n0 s0 L P R s).
Proof.
  intros Hne Hff s (Hi & Hx & HL). unfold add_group. cbn [b_groups]. split; [set_solver|].
  destruct Hi as [h1 h2 h3 h4 h5 h6 h7 h8 h9 h10 h11].
  set (s' := BState _ _ _ _ _ _).
  assert (He : execs_of s' = execs_of s ++ map (set_config (bc_dag c)) es).
  { unfold execs_of, s'. cbn [b_groups]. rewrite fmap_app, bind_app. cbn. by rewrite app_nil_r. }
  assert (Ho : douts s' = douts s ++ (es ≫= outputs)).
  { unfold douts. rewrite He, bind_app, map_config_outputs. done. }
  assert (Hd : dids s' = dids s ++ map e_uuid es).
  { unfold dids. rewrite He, map_app, map_config_uuid. done. }
  assert (Hk : forall f, known s f -> known s' f).
  { intros f [?|?]; [left; rewrite Ho; set_solver|by right]. }
  assert (HL' : forall x, low s' P R x = low s (es ++ P) (g :: R) x).
  { intros x. unfold low. rewrite Ho, Hd, bind_app, map_app. unfold s'. cbn [b_groups]. rewrite fmap_app. cbn.
    rewrite !cnt_app, !cnt_cons, cnt_nil. lia. }
  split; [|split; [|done]].
  - split; try done; try (intros x; rewrite HL'; by auto).
    + intros k gr. unfold s'. cbn [b_groups]. rewrite elem_of_app, elem_of_list_singleton. intros [?|[= -> ->]]; [by apply h5|].
      cbn. split; [done|]. split; [|done]. destruct es; done.
    + intros pre k gr post e f E Hin Hf. unfold s' in E |- *. cbn [b_groups b_provided] in *.
      destruct post as [|p0 post0 _] using rev_ind.
      * apply app_inj_tail in E as [<- [= <- <-]]. cbn in Hin.
        apply elem_of_list_fmap in Hin as (e0 & -> & He0). rewrite dependencies_config in Hf.
        destruct (h8 e0 f) as [?|?]; [set_solver|done|by right|by left].
      * rewrite app_comm_cons, (assoc_L (++)) in E. apply app_inj_tail in E as [E _].
        by apply (h6 pre k gr post0 e f).
    + intros e. rewrite He, !elem_of_app. intros [[?|Hin]|?]; [apply h7; set_solver| |apply h7; set_solver].
      apply elem_of_list_fmap in Hin as (e0 & -> & He0). specialize (h7 e0). destruct h7 as [a b]; [set_solver|]. by split.
    + intros e f Hin Hf. apply Hk, (h8 e f); set_solver.
    + intros i f Hf. apply Hk. by apply (h9 i).
    + intros f Hf. destruct (h10 f Hf) as [?|Hf']; [by left; apply Hk|]. rewrite bind_app, elem_of_app in Hf'.
      destruct Hf'; [left; left; rewrite Ho; set_solver|by right].
    + intros u Hu. rewrite Hd. destruct (h11 u Hu) as [?|Hu']; [left; set_solver|]. rewrite map_app, elem_of_app in Hu'. set_solver.
  - destruct Hx as [y1 y2 y3 y4 y5 y6 y7]. split; try done. unfold s'. cbn [b_groups]. destruct y2 as [l ->]. eexists.
    by rewrite <- (assoc_L (++)).
Qed.

Lemma op_add_execution n0 s0 L P R c e :
  triple (I n0 s0 L (e :: P) R) (add_execution c e)
    (fun _ s => (exists g, group_of c g [e] [] ∈ b_groups s) /\ I n0 s0 L P R s).
Proof.
  eapply t_bind; [apply op_new_id|]. intros g. cbn. apply t_assume; intros _. apply t_assume; intros _.
  eapply t_conseq; [apply (op_group n0 s0 L P R c g [e] []); [done|apply NoDup_nil_2]| |].
  - intros s Hs. exact Hs.
  - intros ? s [? ?]. split; [by exists g|done].
Qed.

(** ** Derived operations on the execution at the head *)

Lemma op_stdout n0 s0 L P R e :
  triple (I n0 s0 L (e :: P) R) (stdout_of e)
    (fun fe s => e_stdout (snd fe) = Some (fst fe) /\ snd fe = set_out (fst fe) e /\
                 (e_stdout e = None -> b_next s0 <= fst fe)%positive /\ I n0 s0 L (snd fe :: P) R s).
Proof.
  unfold stdout_of. destruct (e_stdout e) as [f|] eqn:Ef.
  - apply t_ret. intros s Hs. cbn. split; [done|]. split; [destruct e; cbn in *; by rewrite Ef|]. done.
  - eapply t_bind; [apply op_new_id|]. intros f. apply t_assume; intros Hge. apply t_assume; intros _. apply t_ret. intros s Hs. cbn.
    split; [done|]. split; [done|]. split; [done|]. destruct Hs as (Hi & Hx). split; [|done].
    apply (Inv_head n0 P R [f] s e); try done.
    + intros x. unfold outputs. cbn. rewrite Ef. cbn. rewrite !cnt_app, !cnt_cons, cnt_nil, !cnt_app. lia.
    + pose proof (i_caps _ _ _ _ Hi e) as [Ha Hb]; [set_solver|]. split; [by eexists|done].
    + intros f0 Hf. apply (i_deps _ _ _ _ Hi e f0); [by left|done].
Qed.
Lemma op_stderr n0 s0 L P R e :
  triple (I n0 s0 L (e :: P) R) (stderr_of e)
    (fun fe s => snd fe = set_err (fst fe) e /\ I n0 s0 L (snd fe :: P) R s).
Proof.
  unfold stderr_of. destruct (e_stderr e) as [f|] eqn:Ef.
  - apply t_ret. intros s Hs. cbn. split; [destruct e; cbn in *; by rewrite Ef|]. done.
  - eapply t_bind; [apply op_new_id|]. intros f. apply t_assume; intros Hge. apply t_assume; intros _. apply t_ret. intros s Hs. cbn.
    split; [done|]. destruct Hs as (Hi & Hx). split; [|done].
    apply (Inv_head n0 P R [f] s e); try done.
    + intros x. unfold outputs. cbn. rewrite Ef. cbn. rewrite !cnt_app, !cnt_cons, cnt_nil. lia.
    + pose proof (i_caps _ _ _ _ Hi e) as [Ha Hb]; [set_solver|]. split; [done|by eexists].
    + intros f0 Hf. apply (i_deps _ _ _ _ Hi e f0); [by left|done].
Qed.
Lemma op_capture_stdout n0 s0 L P R e k :
  triple (I n0 s0 L (e :: P) R) (capture_stdout k e)
    (fun e' s => (exists f, e' = set_captures (Some k) (e_capture_stderr e) (set_out f e) /\ (e_stdout e = None -> b_next s0 <= f)%positive) /\ I n0 s0 L (e' :: P) R s).
Proof.
  unfold capture_stdout. eapply t_bind; [apply op_stdout|]. intros [f e']. apply t_ret. cbn.
  intros s (Ho & -> & Hge & Hs). split; [by exists f|]. eapply I_head; [exact Hs|done|done| |by right].
  apply I_caps in Hs as [Ha Hb]. split; [cbn; by eexists|done].
Qed.
Lemma op_capture_stderr n0 s0 L P R e k :
  triple (I n0 s0 L (e :: P) R) (capture_stderr k e)
    (fun e' s => (exists f, e' = set_captures (e_capture_stdout e) (Some k) (set_err f e)) /\ I n0 s0 L (e' :: P) R s).
Proof.
  unfold capture_stderr. eapply t_bind; [apply op_stderr|]. intros [f e']. apply t_ret. cbn.
  intros s (-> & Hs). split; [by exists f|]. eapply I_head; [exact Hs|done|done| |by right].
  apply I_caps in Hs as [Ha Hb]. split; [done|cbn; by eexists].
Qed.
Lemma op_output n0 s0 L P R e p : aget p (e_outputs e) = None ->
  triple (I n0 s0 L (e :: P) R) (output_of p e)
    (fun fe s => snd fe = set_outputs (e_outputs e ++ [(p, fst fe)]) e /\ (b_next s0 <= fst fe)%positive /\ I n0 s0 L (snd fe :: P) R s).
Proof.
  intros Hp. unfold output_of. eapply t_bind; [apply op_new_id|]. intros f. apply t_assume; intros Hge. apply t_assume; intros _.
  rewrite Hp. apply t_ret. intros s Hs. cbn. split; [done|]. split; [done|]. destruct Hs as (Hi & Hx). split; [|done].
  apply (Inv_head n0 P R [f] s e); try done.
  - intros x. unfold outputs. cbn. rewrite map_app. cbn. rewrite !cnt_app, !cnt_cons, cnt_nil. lia.
  - pose proof (i_caps _ _ _ _ Hi e) as [Ha Hb]; [set_solver|]. done.
  - intros f0 Hf. apply (i_deps _ _ _ _ Hi e f0); [by left|done].
Qed.

Lemma deps_ainsert p i e : forall f, f ∈ dependencies (set_inputs (ainsert p i (e_inputs e)) e) -> f = in_file i \/ f ∈ dependencies e.
Proof.
  intros f. unfold dependencies. cbn. rewrite !elem_of_app, !elem_of_list_fmap.
  intros [?|([q j] & -> & Hj)]; [by right; left|]. apply ainsert_pair in Hj as [[-> ->]|Hj]; [by left|]. right. right. by exists (q, j).
Qed.
Lemma I_add_input n0 s0 L P R s e f p x : known s f -> I n0 s0 L (e :: P) R s -> I n0 s0 L (add_input f p x e :: P) R s.
Proof.
  intros Hf Hs. eapply I_head; [exact Hs|done|done| |].
  - apply I_caps in Hs as [Ha Hb]. by split.
  - intros f0 Hf0. apply deps_ainsert in Hf0 as [->|?]; [by left|by right].
Qed.
