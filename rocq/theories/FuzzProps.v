(** * FuzzProps: the fuzzing of a checker (C90) *)
From Coq Require Import ZArith Ascii.
From stdpp Require Import numbers pretty strings list gmap.
From Verif Require Import FuzzSpec FuzzProofs FuzzProofs2.

Lemma rooted_none f d p : rooted f -> f !! d = None -> d `prefix_of` p -> f !! p = None.
Proof.
  intros Hr Hd [l ->]. induction l as [|x l IH] using rev_ind; [by rewrite app_nil_r|]. rewrite app_assoc. destruct (f !! ((d ++ l) ++ [x])) eqn:E; [|done].
  apply Hr in E. by rewrite IH in E.
Qed.
Lemma snoc_prefix (d : path) x p : (d ++ [x]) `prefix_of` p -> d `prefix_of` p.
Proof. intros [l ->]. rewrite <- app_assoc. by eexists. Qed.
Lemma sub_prefix (d : path) x y p : (d ++ [x]) `prefix_of` p -> (d ++ [y]) `prefix_of` p -> x = y.
Proof. intros [l ->] [k H]. rewrite <- !app_assoc in H. apply app_inv_head in H. cbn in H. by injection H. Qed.
Lemma not_prefix_sub (d : path) x y l : x <> y -> ~ (d ++ [x]) `prefix_of` (d ++ y :: l).
Proof. intros Hne H. apply Hne. eapply sub_prefix; [exact H|]. exists l. by rewrite <- app_assoc. Qed.
Lemma not_prefix_self (d : path) x : ~ (d ++ [x]) `prefix_of` d.
Proof. intros [l H]. apply (f_equal length) in H. rewrite !app_length in H. cbn in H. lia. Qed.

(** ** The initial corpus *)
Lemma corpus_ok task fuzz n f : fuzz_dir_ok fuzz f -> outputs_of task n f ->
  exists f', write_initial_corpus task fuzz n f = Some f' /\
    (forall i b, (i < n)%nat -> f !! output_path task i = Some (NFile b) -> f' !! (fuzz ++ ["initial_corpus"; num i +:+ ".txt"]) = Some (NFile (to_le (N.of_nat i) ++ b))) /\
    (forall p, ~ (fuzz ++ ["initial_corpus"]) `prefix_of` p -> f' !! p = f !! p).
Proof.
  intros [Hd Hsub Hc Hr] Hout. unfold write_initial_corpus. set (d := fuzz ++ ["initial_corpus"]).
  assert (exists f1, (if exists_at d f then Some f else create_dir fuzz "initial_corpus" f) = Some f1 /\ f1 !! d = Some NDir /\ forall p, p <> d -> f1 !! p = f !! p) as (f1 & -> & H1 & H2).
  { unfold exists_at, create_dir, is_dir. fold d. destruct (f !! d) as [v|] eqn:E.
    - exists f. split_and!; [done| |done]. rewrite E. f_equal. apply (Hsub "initial_corpus"); [left|done].
    - rewrite Hd. eexists. split; [done|]. split; [by rewrite lookup_insert|]. intros p Hp. by rewrite lookup_insert_ne. }
  cbn [mbind option_bind]. assert (Ho : forall i, output_path task i <> d).
  { intros i H. apply (f_equal list.last) in H. unfold output_path, d in H. rewrite !last_app in H. cbn in H. done. }
  destruct (corpus_all_ok task fuzz (seq 0 n) f1) as (f' & Hf' & H3 & H4).
  - done.
  - intros i Hi. rewrite H2 by done. apply Hout. apply elem_of_seq in Hi. lia.
  - intros i Hi. rewrite H2; [apply Hc|]. unfold d. intros H. by apply app_inv_head in H.
  - apply NoDup_seq.
  - exists f'. split; [done|]. split.
    + intros i b Hi Hb. apply H3; [apply elem_of_seq; lia|]. by rewrite H2.
    + intros p Hp. rewrite H4; [apply H2; intros ->; by apply Hp|]. intros i _ ->. apply Hp. exists [num i +:+ ".txt"]. unfold d. by rewrite <- app_assoc.
Qed.
(** The fuzzer starts from the official outputs: with each of them the checker is called on that testcase, with exactly that output; nothing else is touched *)
Theorem C90_corpus task fuzz n f : fuzz_dir_ok fuzz f -> outputs_of task n f -> (N.of_nat n <= 4294967296)%N ->
  exists f', write_initial_corpus task fuzz n f = Some f' /\
    (forall i b, (i < n)%nat -> f !! output_path task i = Some (NFile b) -> b <> [] ->
      exists data, f' !! (fuzz ++ ["initial_corpus"; num i +:+ ".txt"]) = Some (NFile data) /\ fuzz_one n data = Some (i, b)) /\
    (forall p, ~ (fuzz ++ ["initial_corpus"]) `prefix_of` p -> f' !! p = f !! p).
Proof.
  intros Hf Ho Hn. destruct (corpus_ok task fuzz n f Hf Ho) as (f' & H1 & H2 & H3). exists f'. split_and!; [done| |done].
  intros i b Hi Hb Hne. eexists. split; [by apply H2|]. apply fuzz_one_le; [lia|done|done].
Qed.
(** With an empty output the checker is not called *)
Theorem C90_empty_output_refuted n i : fuzz_one n (to_le i) = None.
Proof. reflexivity. Qed.

(** ** The failures *)
Lemma put_artifacts fuzz found f : NoDup found.*1 ->
  (forall x b, (x, b) ∈ found -> foldr (put_artifact fuzz) f found !! (fuzz ++ ["artifacts"; x]) = Some (NFile b)) /\
  (forall p, (forall x, x ∈ found.*1 -> p <> fuzz ++ ["artifacts"; x]) -> foldr (put_artifact fuzz) f found !! p = f !! p).
Proof.
  induction found as [|[x b] found IH]; cbn; intros Hd.
  - split; [intros x b H; by apply elem_of_nil in H|done].
  - apply NoDup_cons in Hd as [Hx Hd]. destruct (IH Hd) as [H1 H2]. unfold put_artifact at 1 3. cbn [fst snd]. split.
    + intros y c Hy. apply elem_of_cons in Hy as [Hy|Hy]; [injection Hy as -> ->; by rewrite lookup_insert|]. rewrite lookup_insert_ne; [by apply H1|].
      intros H. apply app_inv_head in H. injection H as ->. apply Hx. apply elem_of_list_fmap. by exists (y, c).
    + intros p Hp. rewrite lookup_insert_ne by (intros <-; by apply (Hp x (elem_of_list_here _ _))). apply H2. intros y Hy. apply Hp. by right.
Qed.
Lemma run_fuzzer_ok fuzz found f : f !! fuzz = Some NDir -> (forall v, f !! (fuzz ++ ["artifacts"]) = Some v -> v = NDir) -> NoDup found.*1 ->
  exists f', run_fuzzer fuzz found f = Some f' /\ (forall x b, (x, b) ∈ found -> f' !! (fuzz ++ ["artifacts"; x]) = Some (NFile b)) /\
    (forall p, ~ (fuzz ++ ["artifacts"]) `prefix_of` p -> f' !! p = f !! p).
Proof.
  intros Hd Ha Hdup. unfold run_fuzzer. set (d := fuzz ++ ["artifacts"]).
  assert (exists f1, (if exists_at d f then remove_dir_all d f else Some f) = Some f1 /\ f1 !! d = None /\ forall p, ~ d `prefix_of` p -> f1 !! p = f !! p) as (f1 & -> & H1 & H2).
  { unfold exists_at, remove_dir_all, is_dir. destruct (f !! d) as [v|] eqn:E; [|by exists f].
    rewrite (Ha v E). eexists. split; [done|]. split; [apply map_filter_lookup_None; right; intros v' _ H; cbn in H; by apply H|].
    intros p Hp. destruct (f !! p) as [v'|] eqn:E'; [by apply map_filter_lookup_Some|apply map_filter_lookup_None; by left]. }
  cbn [mbind option_bind]. unfold create_dir, is_dir. rewrite (H2 fuzz) by apply not_prefix_self. rewrite Hd. fold d. rewrite H1. cbn [mbind option_bind].
  destruct (put_artifacts fuzz found (<[d := NDir]> f1) Hdup) as [H3 H4]. eexists. split; [done|]. split; [done|]. intros p Hp. rewrite H4.
  - rewrite lookup_insert_ne by (intros <-; by apply Hp). by apply H2.
  - intros x _ ->. apply Hp. exists [x]. unfold d. by rewrite <- app_assoc.
Qed.

Section failures.
  Context (task fuzz : path) (n : nat) (readme : bytes) (found : list (string * bytes)) (listing : list string) (f : fs).
  Hypothesis (Hf : fuzz_dir_ok fuzz f) (Ho : outputs_of task n f) (Hn : (0 < n)%nat).
  (** [listing]: the directory of the artifacts, in any order *)
  Hypothesis (Hdup : NoDup found.*1) (Hl : listing ≡ₚ found.*1).
  Lemma before_organize : exists f2, fuzz_checker task fuzz n readme found listing f = Some (organize_failures task fuzz n readme ((fun x => fuzz ++ ["artifacts"; x]) <$> listing) f2) /\
    (forall x b, (x, b) ∈ found -> f2 !! (fuzz ++ ["artifacts"; x]) = Some (NFile b)) /\
    (forall p, ~ (fuzz ++ ["initial_corpus"]) `prefix_of` p -> ~ (fuzz ++ ["artifacts"]) `prefix_of` p -> f2 !! p = f !! p).
  Proof using Hf Ho Hdup.
    unfold fuzz_checker. destruct (corpus_ok task fuzz n f Hf Ho) as (f1 & -> & _ & H1). cbn [mbind option_bind].
    destruct (run_fuzzer_ok fuzz found f1) as (f2 & -> & H2 & H3); [rewrite H1 by apply not_prefix_self; apply Hf| |done|].
    { intros v Hv. rewrite H1 in Hv by (by apply (not_prefix_sub _ _ _ [])). eapply (fd_sub _ _ Hf "artifacts"); [right; left|done]. }
    cbn [mbind option_bind]. exists f2. split; [done|]. split; [done|]. intros p Hp1 Hp2. rewrite H3 by done. by apply H1.
  Qed.
  Lemma cleared f2 : (forall p, ~ (fuzz ++ ["initial_corpus"]) `prefix_of` p -> ~ (fuzz ++ ["artifacts"]) `prefix_of` p -> f2 !! p = f !! p) ->
    let dir := fuzz ++ ["failures"] in
    exists f3, (f ← (if exists_at dir f2 then remove_dir_all dir f2 else Some f2); create_dir fuzz "failures" f) = Some f3 /\
      f3 !! dir = Some NDir /\ (forall p, inside dir p -> f3 !! p = None) /\ (forall p, ~ dir `prefix_of` p -> f3 !! p = f2 !! p).
  Proof using Hf.
    intros H dir. assert (Hsub : forall p, dir `prefix_of` p -> f2 !! p = f !! p).
    { intros p Hp. apply H; intros Hp'; pose proof (sub_prefix _ _ _ _ Hp Hp'); done. }
    assert (exists f1, (if exists_at dir f2 then remove_dir_all dir f2 else Some f2) = Some f1 /\ (forall p, dir `prefix_of` p -> f1 !! p = None) /\ forall p, ~ dir `prefix_of` p -> f1 !! p = f2 !! p) as (f1 & -> & H1 & H2).
    { unfold exists_at, remove_dir_all, is_dir. destruct (f2 !! dir) as [v|] eqn:E.
      - rewrite Hsub in E by done. rewrite (fd_sub _ _ Hf "failures" v) by (first [done | by do 2 right; left]). eexists. split; [done|]. split.
        + intros p Hp. apply map_filter_lookup_None. right. intros v' _ H'. by apply H'.
        + intros p Hp. destruct (f2 !! p) as [v'|] eqn:E'; [by apply map_filter_lookup_Some|apply map_filter_lookup_None; by left].
      - exists f2. split_and!; [done| |done]. intros p Hp. rewrite Hsub by done. rewrite Hsub in E by done. eapply rooted_none; [apply Hf|exact E|done]. }
    cbn [mbind option_bind]. unfold create_dir, is_dir. rewrite (H2 fuzz) by apply not_prefix_self. rewrite (H fuzz) by apply not_prefix_self. rewrite (fd_dir _ _ Hf).
    change (fuzz ++ ["failures"]) with dir. rewrite (H1 dir) by done. eexists. split; [done|]. split; [by rewrite lookup_insert|]. split.
    - intros p (x & l & ->). rewrite lookup_insert_ne by (intros H'; symmetry in H'; by apply snoc_ne in H'). apply H1. by apply prefix_app_r.
    - intros p Hp. rewrite lookup_insert_ne by (intros <-; by apply Hp). by apply H2.
  Qed.
  (** Each artifact with which the checker has been called has its own directory, with the input and the correct output of the testcase and the output that the checker was given, the artifact and the README, and nothing else; the failures of the runs before are not there; nothing outside of the directory of the fuzzer is touched *)
  Theorem C90_failures : found <> [] -> (forall x b, (x, b) ∈ found -> is_Some (fuzz_one n b)) ->
    exists f', fuzz_checker task fuzz n readme found listing f = Some (f', true) /\
      (forall k x b id out, listing !! k = Some x -> (x, b) ∈ found -> fuzz_one n b = Some (id, out) ->
        f' !! (fuzz ++ ["artifacts"; x]) = Some (NFile b) /\
        exists type, before_dash x type /\ ~ has_dash type /\
          failure_at f' (fuzz ++ ["failures"; "fail-" +:+ num k]) (failure_files task readme (fuzz ++ ["artifacts"; x]) type id out)) /\
      (forall p, inside (fuzz ++ ["failures"]) p -> is_Some (f' !! p) -> exists k, (k < length found)%nat /\ (fuzz ++ ["failures"; "fail-" +:+ num k]) `prefix_of` p) /\
      (forall p, ~ fuzz `prefix_of` p -> f' !! p = f !! p).
  Proof using Hf Ho Hn Hdup Hl.
    intros Hne Hcalled. destruct before_organize as (f2 & -> & H1 & H2). unfold organize_failures. rewrite decide_False; cycle 1.
    { intros H. apply fmap_nil_inv in H. rewrite H in Hl. apply Permutation_nil_l in Hl. symmetry in Hl. by apply fmap_nil_inv in Hl. }
    destruct (cleared f2 H2) as (f3 & E3 & H3 & H4 & H5). cbv zeta in E3. rewrite E3. set (dir := fuzz ++ ["failures"]) in *.
    assert (Hart : forall x, ~ dir `prefix_of` (fuzz ++ ["artifacts"; x])) by (intros x; by apply not_prefix_sub).
    destruct (organize_all_ok task dir n readme ((fun x => fuzz ++ ["artifacts"; x]) <$> listing) 0 f3) as (f' & -> & H6 & H7).
    - done.
    - done.
    - intros j p _ [l ->]. apply H4. unfold fail_dir. rewrite <- app_assoc. by eexists _, _.
    - intros a Ha. apply elem_of_list_fmap in Ha as (x & -> & Hx). rewrite Hl in Hx. apply elem_of_list_fmap in Hx as ([x' b] & -> & Hx). cbn. split; [by destruct fuzz|]. split; [apply Hart|].
      rewrite H5 by apply Hart. exists b. destruct (Hcalled _ _ Hx) as [r Hr]. unfold fuzz_one in Hr. case_decide; [done|]. destruct (from_le b) as [r'|]; [|done]. exists r'. split; [by apply H1|done].
    - rewrite fmap_length in H6. exists f'. split; [done|].
      assert (Hlen : length listing = length found) by (rewrite Hl; apply fmap_length). split; [|split].
      + intros k x b id out Hk Hx Hc. split.
        * rewrite H6; [rewrite H5 by apply Hart; by apply H1|]. intros j _ Hp. eapply Hart. eapply snoc_prefix, Hp.
        * destruct (fail_type_spec x) as [Ht1 Ht2]. exists (fail_type x). split; [done|]. split; [done|]. unfold fuzz_one in Hc. case_decide; [done|].
          destruct (from_le b) as [[id' out']|] eqn:Hle; [|done]. injection Hc as <- <-.
          specialize (H7 k (fuzz ++ ["artifacts"; x]) x b id' out'). cbn [plus] in H7. unfold fail_dir, dir in H7. rewrite <- app_assoc in H7. apply H7.
          -- rewrite list_lookup_fmap, Hk. done.
          -- change ["artifacts"; x] with (["artifacts"] ++ [x]). rewrite app_assoc. apply last_snoc.
          -- rewrite H5 by apply Hart. by apply H1.
          -- done.
      + intros p Hp [v Hv]. destruct (decide (Exists (fun j => fail_dir dir j `prefix_of` p) (seq 0 (length listing)))) as [He|He].
        * apply Exists_exists in He as (k & Hk & Hpre). apply elem_of_seq in Hk. exists k. split; [lia|]. unfold fail_dir, dir in Hpre. by rewrite <- app_assoc in Hpre.
        * exfalso. rewrite H6, H4 in Hv; [done|done|]. intros j Hj Hpre. apply He. apply Exists_exists. exists j. split; [apply elem_of_seq; lia|done].
      + intros p Hp. rewrite H6; [|intros j _ Hpre; apply Hp; eapply snoc_prefix, snoc_prefix, Hpre].
        rewrite H5 by (intros Hpre; apply Hp; eapply snoc_prefix, Hpre). apply H2; intros Hpre; apply Hp; eapply snoc_prefix, Hpre.
  Qed.
  (** If no failure has been found the failures of the runs before are still there *)
  Theorem C90_stale_refuted : found = [] -> exists f', fuzz_checker task fuzz n readme found listing f = Some (f', true) /\
    forall p, (fuzz ++ ["failures"]) `prefix_of` p -> f' !! p = f !! p.
  Proof using Hf Ho Hdup Hl.
    intros Hne. destruct before_organize as (f2 & -> & _ & H2). unfold organize_failures. rewrite decide_True; cycle 1.
    { rewrite Hne in Hl. cbn in Hl. apply Permutation_nil_r in Hl. by rewrite Hl. }
    exists f2. split; [done|]. intros p Hp. apply H2; intros Hp'; pose proof (sub_prefix _ _ _ _ Hp Hp'); done.
  Qed.
  (** An artifact of less than four bytes makes it fail *)
  Theorem C90_short_refuted x b : (x, b) ∈ found -> (length b < 4)%nat -> exists f', fuzz_checker task fuzz n readme found listing f = Some (f', false).
  Proof using Hf Ho Hdup Hl.
    intros Hx Hb. destruct before_organize as (f2 & -> & H1 & H2). unfold organize_failures.
    assert (Hin : x ∈ listing) by (rewrite Hl; apply elem_of_list_fmap; by exists (x, b)). apply elem_of_list_lookup in Hin as [k Hk].
    rewrite decide_False by (intros H; apply fmap_nil_inv in H; by rewrite H in Hk).
    destruct (cleared f2 H2) as (f3 & E3 & H3 & H4 & H5). cbv zeta in E3. rewrite E3.
    assert (Hart : ~ (fuzz ++ ["failures"]) `prefix_of` (fuzz ++ ["artifacts"; x])) by (by apply not_prefix_sub).
    destruct (organize_all task _ n readme 0 _ f3) as [f' r] eqn:E. exists f'. f_equal. f_equal.
    change r with (f', r).2. rewrite <- E. eapply organize_short; [by rewrite list_lookup_fmap, Hk|by rewrite H5; [apply H1|]|done|done].
  Qed.
End failures.
(** The README says that the output is in output-crash.txt: for other failures there is no such file *)
Theorem C90_readme_refuted task readme a type id out : type <> "crash" -> failure_files task readme a type id out !! "output-crash.txt" = None.
Proof.
  intros Ht. unfold failure_files. cbn [list_to_map foldr curry uncurry fst snd]. rewrite lookup_insert_ne; [by rewrite !lookup_insert_ne by done|].
  intros H. change "output-crash.txt" with ("output-" +:+ ("crash" +:+ ".txt")) in H. apply str_app_inj_l, str_app_inj_r in H. done.
Qed.

(** ** The number of testcases *)
Theorem C90_count subtasks T : concat subtasks ≡ₚ seq 0 T -> num_testcases subtasks = T.
Proof.
  intros H. assert (E : num_testcases subtasks = length (concat subtasks)).
  { unfold num_testcases. clear H. induction subtasks as [|s l IH]; [done|]. cbn. rewrite app_length. unfold num_testcases in IH. by rewrite <- IH. }
  rewrite E, H. apply seq_length.
Qed.
Lemma corpus_one_outputs task fuzz i f f' j : corpus_one task fuzz i f = Some f' -> f' !! output_path task j = f !! output_path task j.
Proof.
  intros E. unfold corpus_one in E. cbv zeta in E.
  apply bind_Some in E as (f1 & E1 & E). apply bind_Some in E as (f2 & E2 & E). apply bind_Some in E as (f3 & E3 & E). apply bind_Some in E as (b & E4 & E5).
  assert (Hne : (fuzz ++ ["initial_corpus"]) ++ [num i +:+ ".txt"] <> output_path task j) by (rewrite <- app_assoc; apply corpus_not_output).
  assert (H1 : f1 !! output_path task j = f !! output_path task j).
  { destruct (exists_at _ f); [|by injection E1 as <-]. unfold remove_file in E1. destruct (f !! _) as [[]|] in E1; [done|..|done]; injection E1 as <-; by rewrite lookup_delete_ne. }
  assert (Hw : forall d x b f f', d ++ [x] <> output_path task j -> write_file d x b f = Some f' -> f' !! output_path task j = f !! output_path task j).
  { clear. intros d x b f f' Hne Hw. unfold write_file in Hw. destruct (is_dir d f); [|done]. destruct (f !! (d ++ [x])) as [[]|]; [done|..]; try discriminate Hw; injection Hw as <-; by rewrite lookup_insert_ne. }
  apply Hw in E2, E3, E5; [|done..]. congruence.
Qed.
(** A testcase that is in two subtasks is counted twice: the tool looks for an output that does not exist, and stops *)
Theorem C90_shared_refuted task fuzz subtasks T f : (forall tc, (tc < T)%nat <-> tc ∈ concat subtasks) -> ~ NoDup (concat subtasks) -> f !! output_path task T = None ->
  outputs_ready task (num_testcases subtasks) f = false /\
  (f !! (fuzz ++ ["initial_corpus"]) <> None -> write_initial_corpus task fuzz (num_testcases subtasks) f = None).
Proof.
  intros Hall Hdup HT. assert (E : num_testcases subtasks = length (concat subtasks)).
  { unfold num_testcases. clear. induction subtasks as [|s l IH]; [done|]. cbn. rewrite app_length. by rewrite <- IH. }
  assert (Hlt : (T < num_testcases subtasks)%nat).
  { rewrite E. destruct (decide (length (concat subtasks) <= T)%nat) as [Hle|]; [|lia]. exfalso. apply Hdup.
    assert (Hsub : seq 0 T ⊆ concat subtasks) by (intros x Hx; apply Hall; apply elem_of_seq in Hx; lia).
    apply NoDup_ListNoDup. eapply NoDup_incl_NoDup; [apply NoDup_ListNoDup, NoDup_seq| |].
    - rewrite seq_length. exact Hle.
    - intros x Hx. apply elem_of_list_In, Hsub, elem_of_list_In. exact Hx. }
  assert (HinT : T ∈ seq 0 (num_testcases subtasks)) by (apply elem_of_seq; lia). split.
  - apply not_true_iff_false. intros H. unfold outputs_ready in H. rewrite forallb_forall in H. apply elem_of_list_In in HinT. apply H in HinT. unfold exists_at in HinT. by rewrite HT in HinT.
  - intros Hex. unfold write_initial_corpus, exists_at. destruct (f !! (fuzz ++ ["initial_corpus"])); [|done]. cbn [mbind option_bind]. clear -HinT HT.
    revert f HT. induction (seq 0 (num_testcases subtasks)) as [|i l IH]; intros f HT; [by apply elem_of_nil in HinT|]. cbn [corpus_all].
    apply elem_of_cons in HinT as [->|Hin]; [by rewrite corpus_one_missing|]. destruct (corpus_one task fuzz i f) as [f1|] eqn:E; [|done]. cbn [mbind option_bind]. apply IH; [done|].
    by rewrite (corpus_one_outputs _ _ _ _ _ _ E).
Qed.

(** ** The hypotheses are met *)
Definition ex_fs : fs := <[["output"; "output0.txt"] := NFile [65%N]]> (<[["output"] := NDir]> (<[["fuzz"] := NDir]> (<[[] := NDir]> ∅))).
Theorem C90_hypotheses_met : fuzz_dir_ok ["fuzz"] ex_fs /\ outputs_of [] 1 ex_fs /\ is_Some (fuzz_one 1 [0; 1; 2; 3; 66]%N) /\
  (fst <$> fuzz_checker [] ["fuzz"] 1 [] [("timeout-abc", [0; 1; 2; 3; 66]%N)] ["timeout-abc"] ex_fs) ≫= lookup ["fuzz"; "failures"; "fail-0"; "output-timeout.txt"] = Some (NFile [66%N]).
Proof.
  split_and!.
  - assert (Hlk : forall p v, ex_fs !! p = Some v -> (p = [] \/ p = ["fuzz"] \/ p = ["output"]) /\ v = NDir \/ p = ["output"; "output0.txt"]).
    { intros p v H. unfold ex_fs in H. repeat (apply lookup_insert_Some in H as [[<- <-]|[_ H]]; [naive_solver|]). by rewrite lookup_empty in H. }
    split.
    + reflexivity.
    + intros x v Hx H. apply Hlk in H as [[_ ->]|H]; [done|]. cbn in H. done.
    + intros i H. apply Hlk in H as [[[H|[H|H]] _]|H]; cbn in H; done.
    + intros p x v H. apply Hlk in H as [[[H|[H|H]] _]|H].
      * by destruct p.
      * destruct p as [|a p]; [reflexivity|]. cbn in H. injection H as -> H. by destruct p.
      * destruct p as [|a p]; [reflexivity|]. cbn in H. injection H as -> H. by destruct p.
      * destruct p as [|a [|b p]]; cbn in H; [done| |injection H as -> -> H; by destruct p]. injection H as -> ->. reflexivity.
  - intros i Hi. assert (i = 0)%nat as -> by lia. by eexists.
  - by eexists.
  - vm_compute. reflexivity.
Qed.
Print Assumptions C90_corpus.
Print Assumptions C90_failures.
Print Assumptions C90_stale_refuted.
Print Assumptions C90_short_refuted.
Print Assumptions C90_shared_refuted.
