(** * FormatProofs2: gen/GEN, the task it describes *)
From Verif Require Import FormatSpec FormatProofs.

(** ** Files and lines *)
Lemma no_newline_split l r : no_newline l -> match split_lines r with [] => split_lines (l ++ r) = [l] | l' :: ls => split_lines (l ++ r) = (l ++ l') :: ls end.
Proof.
  induction 1 as [|c l [Hc Hc'] _ IH]; [cbn [app]; destruct (split_lines r) eqn:E; [|done]|].
  - exfalso. destruct r as [|d r]; [done|]. cbn [split_lines] in E. repeat (case_decide; [try destruct r; try case_decide; done|]). destruct (split_lines r); done.
  - cbn [app split_lines]. rewrite !decide_False by done. destruct (split_lines r); by rewrite IH.
Qed.
Lemma split_lines_lines t ls : Lines t ls -> split_lines t = ls.
Proof.
  induction 1 as [t Ht|l t ls Hl _ IH|l t ls Hl _ IH|l t ls Hl Hh _ IH].
  - pose proof (no_newline_split t [] Ht) as H. cbn in H. by rewrite app_nil_r in H.
  - pose proof (no_newline_split l (10%N :: t) Hl) as H. cbn [split_lines] in H. rewrite decide_True in H by done. by rewrite H, IH, app_nil_r.
  - pose proof (no_newline_split l (13%N :: 10%N :: t) Hl) as H. cbn [split_lines] in H. rewrite decide_False, !decide_True in H by done. by rewrite H, IH, app_nil_r.
  - pose proof (no_newline_split l (13%N :: t) Hl) as H. destruct t as [|c t].
    + cbn in H, IH. by rewrite H, <- IH, app_nil_r.
    + cbn [split_lines] in H. rewrite decide_False, decide_True, (decide_False (P := (c = 10%N))) in H; [|naive_solver|done|done]. fold split_lines in H. rewrite H, app_nil_r. f_equal. exact IH.
Qed.
Lemma lines_split_lines t : Lines t (split_lines t).
Proof.
  assert (forall n t, length t <= n -> Lines t (split_lines t)) as H; [|by apply (H (length t))]. clear t.
  induction n as [|n IH]; intros t Hlen; [destruct t; [|cbn in Hlen; lia]; apply Lines_last; constructor|].
  destruct t as [|c t]; [apply Lines_last; constructor|]. cbn [length] in Hlen. cbn [split_lines].
  destruct (decide (c = 10%N)) as [->|H10]; [apply (Lines_lf []); [constructor|apply IH; lia]|].
  destruct (decide (c = 13%N)) as [->|H13].
  - destruct t as [|d t]; [apply (Lines_cr [] []); [constructor|done|apply Lines_last; constructor]|].
    destruct (decide (d = 10%N)) as [->|Hd].
    + apply (Lines_crlf []); [constructor|]. apply IH. cbn in Hlen. lia.
    + apply (Lines_cr []); [constructor|cbn; congruence|]. apply IH. lia.
  - assert (Lines t (split_lines t)) as Hl by (apply IH; lia).
    revert Hl. generalize (split_lines t). intros ls0 Hl.
    destruct Hl as [t' Ht|l t' ls Hn Hl'|l t' ls Hn Hl'|l t' ls Hn Hh Hl'].
    + apply Lines_last. by constructor.
    + apply (Lines_lf (c :: l)); [by constructor|done].
    + apply (Lines_crlf (c :: l)); [by constructor|done].
    + apply (Lines_cr (c :: l)); [by constructor|done|done].
Qed.

(** ** Prefixes *)
Section snoc.
  Context {A : Type}.
  Implicit Types (P Q : list A -> A -> Prop) (ls : list A).
  Lemma snoc_split ls x before l after : ls ++ [x] = before ++ l :: after <-> (after = [] /\ before = ls /\ l = x) \/ exists after', after = after' ++ [x] /\ ls = before ++ l :: after'.
  Proof.
    split.
    - destruct after as [|y after' _] using rev_ind; intros H.
      + apply app_inj_tail in H as [-> ->]. by left.
      + right. rewrite app_comm_cons, app_assoc in H. apply app_inj_tail in H as [-> ->]. by exists after'.
    - intros [(-> & -> & ->)|(after' & -> & ->)]; [done|]. by rewrite <- app_assoc.
  Qed.
  Lemma somewhere_nil P : ~ somewhere P [].
  Proof. intros (b & l & a & H & _). by destruct b. Qed.
  Lemma somewhere_snoc P ls x : somewhere P (ls ++ [x]) <-> somewhere P ls \/ P ls x.
  Proof.
    unfold somewhere. split.
    - intros (b & l & a & H & HP). apply snoc_split in H as [(-> & -> & ->)|(a' & -> & ->)]; [by right|left; by exists b, l, a'].
    - intros [(b & l & a & -> & HP)|HP]; [exists b, l, (a ++ [x]); split; [by rewrite <- app_assoc|done]|by exists ls, x, []].
  Qed.
  Lemma everywhere_snoc P ls x : everywhere P (ls ++ [x]) <-> everywhere P ls /\ P ls x.
  Proof.
    unfold everywhere. split.
    - intros H. split; [|by apply (H ls x [])]. intros b l a ->. apply (H b l (a ++ [x])). by rewrite <- app_assoc.
    - intros [H1 H2] b l a H. apply snoc_split in H as [(-> & -> & ->)|(a' & -> & ->)]; [done|]. by apply (H1 b l a').
  Qed.
  Lemma somewhere_impl P Q ls : (forall before l after, ls = before ++ l :: after -> P before l -> Q before l) -> somewhere P ls -> somewhere Q ls.
  Proof. intros H (b & l & a & -> & HP). exists b, l, a. split; [done|]. by apply (H b l a). Qed.
  Lemma somewhere_iff P Q ls : (forall before l after, ls = before ++ l :: after -> P before l <-> Q before l) -> somewhere P ls <-> somewhere Q ls.
  Proof. intros H. split; apply somewhere_impl; intros b l a Hl; by apply (H b l a). Qed.
  Lemma count_app (f : A -> bool) l1 l2 : count f (l1 ++ l2) = count f l1 + count f l2.
  Proof. unfold count. induction l1 as [|x l1 IH]; [done|]. cbn [app List.filter]. destruct (f x); cbn [length]; lia. Qed.
  Lemma find_app (f : A -> bool) l1 l2 : List.find f (l1 ++ l2) = match List.find f l1 with Some x => Some x | None => List.find f l2 end.
  Proof. induction l1 as [|x l1 IH]; [done|]. cbn [app List.find]. by destruct (f x). Qed.
  Lemma find_None (f : A -> bool) l : existsb f l = false <-> List.find f l = None.
  Proof. induction l as [|x l IH]; [done|]. cbn [existsb List.find]. by destruct (f x). Qed.
  Lemma find_sat (f : A -> bool) l x : List.find f l = Some x -> f x = true.
  Proof. induction l as [|y l IH]; [done|]. cbn [List.find]. destruct (f y) eqn:E; [by intros [= <-]|done]. Qed.
End snoc.

Definition started (ls : list gen_line) : bool := existsb structural ls.
Lemma started_app l1 l2 : started (l1 ++ l2) = started l1 || started l2.
Proof. apply existsb_app. Qed.
Lemma default_first_app l1 l2 : default_first (l1 ++ l2) = if started l1 then default_first l1 else default_first l2.
Proof.
  unfold default_first, started. rewrite find_app. destruct (List.find structural l1) eqn:E.
  - destruct (existsb structural l1) eqn:E'; [done|]. apply find_None in E'. congruence.
  - apply find_None in E as ->. done.
Qed.
Lemma not_started ls : started ls = false -> count declares ls = 0 /\ count tests ls = 0 /\ default_first ls = false.
Proof.
  unfold started. induction ls as [|l ls IH]; [done|]. cbn [existsb]. intros [H1 H2]%orb_false_iff. destruct (IH H2) as (Hd & Ht & Hf). unfold count in *. cbn [List.filter].
  unfold structural in H1. apply orb_false_iff in H1 as [H1 H1']. rewrite H1, H1'. split_and!; [done..|]. unfold default_first in *. cbn [List.find]. unfold structural at 1. by rewrite H1, H1'.
Qed.
Lemma subtasks_of_snoc ls x : subtasks_of (ls ++ [x]) = subtasks_of ls + (if declares x then 1 else if started ls then 0 else if tests x then 1 else 0).
Proof.
  unfold subtasks_of. rewrite count_app, default_first_app. destruct (started ls) eqn:E.
  - unfold count at 2. cbn [List.filter]. destruct (declares x); cbn [length]; lia.
  - destruct (not_started ls E) as (-> & _ & ->). unfold count, default_first, structural. cbn [List.filter List.find]. destruct x; done.
Qed.
Lemma testcases_of_snoc ls x : testcases_of (ls ++ [x]) = testcases_of ls + (if tests x then 1 else 0).
Proof. unfold testcases_of. rewrite count_app. unfold count at 2. cbn [List.filter]. by destruct (tests x). Qed.
Lemma in_header_snoc ls x : in_header (ls ++ [x]) = if structural x then declares x else in_header ls.
Proof. unfold in_header. rewrite rev_app_distr. cbn [rev app List.find]. by destruct (structural x). Qed.
Lemma in_header_started ls : in_header ls = true -> started ls = true.
Proof.
  unfold in_header, started. destruct (List.find structural (rev ls)) as [l|] eqn:E; [|done]. intros _. apply existsb_exists. exists l. split; [|by apply find_sat in E].
  apply in_rev. apply find_some in E as [? _]. done.
Qed.
Lemma subtasks_of_mono l1 l2 : subtasks_of l1 <= subtasks_of (l1 ++ l2).
Proof.
  induction l2 as [|x l2 IH] using rev_ind; [by rewrite app_nil_r|]. rewrite app_assoc, subtasks_of_snoc. lia.
Qed.
Lemma testcases_of_mono l1 l2 : testcases_of l1 <= testcases_of (l1 ++ l2).
Proof. unfold testcases_of. rewrite count_app. lia. Qed.
Lemma started_subtasks ls : started ls = false -> subtasks_of ls = 0.
Proof. intros H. unfold subtasks_of. by destruct (not_started ls H) as (-> & _ & ->). Qed.
Lemma subtasks_started ls : started ls = true -> 1 <= subtasks_of ls.
Proof.
  induction ls as [|x ls IH] using rev_ind; [done|]. rewrite started_app, subtasks_of_snoc. destruct (started ls) eqn:E; [specialize (IH eq_refl); lia|].
  unfold started. cbn [existsb orb]. rewrite orb_false_r. unfold structural. destruct x; cbn; intros H; try done; lia.
Qed.
Lemma default_first_snoc ls x : default_first (ls ++ [x]) = if started ls then default_first ls else tests x.
Proof. rewrite default_first_app. destruct (started ls); [done|]. unfold default_first. cbn [List.find]. destruct (structural x) eqn:E; [done|]. unfold structural in E. apply orb_false_iff in E as [_ ->]. done. Qed.
(** A prefix and its line *)
Lemma prefix_subtasks ls before l after : ls = before ++ l :: after -> subtasks_of before <= subtasks_of (before ++ [l]) /\ subtasks_of (before ++ [l]) <= subtasks_of ls.
Proof. intros ->. split; [apply subtasks_of_mono|]. replace (before ++ l :: after) with ((before ++ [l]) ++ after) by (by rewrite <- app_assoc). apply subtasks_of_mono. Qed.
Lemma prefix_testcases ls before l after : ls = before ++ l :: after -> tests l = true -> testcases_of before < testcases_of ls.
Proof. intros -> Hl. replace (before ++ l :: after) with ((before ++ [l]) ++ after) by (by rewrite <- app_assoc). pose proof (testcases_of_mono (before ++ [l]) after). rewrite testcases_of_snoc, Hl in H. lia. Qed.
