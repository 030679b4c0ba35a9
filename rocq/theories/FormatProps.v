(** * FormatProps: C43 *)
From Verif Require Import FormatSpec FormatProofs FormatProofs2 FormatProofs3 FormatProofs4.

(** ** C43: gen/GEN *)
(** The lines that are accepted, and how they are read *)
Theorem C43_lines t l : parse_gen_line t = Some l <-> GenLine t l.
Proof. split; [apply gen_line_sound|apply gen_line_complete]. Qed.
Theorem C43_file content ls : parse_gen_lines content = Some ls <-> exists ts, Lines content ts /\ Forall2 GenLine ts ls.
Proof.
  unfold parse_gen_lines. rewrite mapM_Some. split.
  - intros H. exists (split_lines content). split; [apply lines_split_lines|]. eapply Forall2_impl; [exact H|]. intros t l. apply C43_lines.
  - intros (ts & Hl & H). rewrite (split_lines_lines _ _ Hl). eapply Forall2_impl; [exact H|]. intros t l. apply C43_lines.
Qed.
Section props.
  Context (clean : text -> option text) (get_validator : nat -> validator) (get_output : nat -> output_gen) (generator : text).
  Notation parse := (parse_gen_gen clean get_validator get_output generator).
  Lemma parse_inv content es : parse content = Some es <-> exists ls s, parse_gen_lines content = Some ls /\ gen_run clean get_validator get_output generator gen_init ls = Some s /\
    mapM (resolve_entry (gs_names s) (gs_subtasks s) (gs_deps s)) (gs_entries s) = Some es.
  Proof.
    unfold parse_gen_gen. split.
    - destruct (parse_gen_lines content) as [ls|]; [|done]. cbn [mbind option_bind]. destruct (gen_run _ _ _ _ _ ls) as [s|] eqn:Hs; [|done]. cbn [mbind option_bind]. intros H. by exists ls, s.
    - intros (ls & s & -> & Hs & H). cbn [mbind option_bind]. rewrite Hs. done.
  Qed.
  (** The files that are accepted *)
  Theorem C43_accepted content : is_Some (parse content) <-> exists ts ls, Lines content ts /\ Forall2 GenLine ts ls /\ GenOk clean get_output ls.
  Proof.
    split.
    - intros [es H]. apply parse_inv in H as (ls & s & Hl & Hs & Hm). pose proof Hl as Hl'. apply C43_file in Hl' as (ts & Ht & Hf). exists ts, ls. split_and!; [done..|].
      apply (gen_accepted clean get_validator get_output generator). rewrite Hs. cbn [mbind option_bind]. by eexists.
    - intros (ts & ls & Ht & Hf & Hok). assert (parse_gen_lines content = Some ls) as Hl by (apply C43_file; by exists ts).
      apply (gen_accepted clean get_validator get_output generator) in Hok as [es Hes]. destruct (gen_run _ _ _ _ _ ls) as [s|] eqn:Hs; [|done]. exists es. apply parse_inv. by exists ls, s.
  Qed.
  (** The task they describe *)
  Theorem C43_task content es : parse content = Some es ->
    exists ts ls sts tcs, Lines content ts /\ Forall2 GenLine ts ls /\ assemble es = Some (sts, tcs) /\ GenTask clean get_validator get_output generator ls sts tcs.
  Proof.
    intros H. apply parse_inv in H as (ls & s & Hl & Hs & Hm). apply C43_file in Hl as (ts & Ht & Hf).
    destruct (proj2 (run_spec clean get_validator get_output generator ls) s Hs) as (_ & a & HJ). destruct (gen_task _ _ _ _ _ _ _ _ HJ Hm) as (sts & tcs & Ha & HG). by exists ts, ls, sts, tcs.
  Qed.
  (** ... which is only one *)
  Lemma sorted_unique (l l' : list nat) : StronglySorted lt l -> StronglySorted lt l' -> (forall x, x ∈ l <-> x ∈ l') -> l = l'.
  Proof.
    intros Hl. revert l'. induction Hl as [|x l Hl IH Hx]; intros l' Hl' H.
    - destruct l' as [|y l']; [done|]. pose proof (proj2 (H y) ltac:(left)) as H1. by apply elem_of_nil in H1.
    - destruct Hl' as [|y l' Hl' Hy]; [pose proof (proj1 (H x) ltac:(left)) as H1; by apply elem_of_nil in H1|]. rewrite Forall_forall in Hx, Hy.
      assert (x = y) as ->. { pose proof (proj1 (H x) ltac:(left)) as H1. pose proof (proj2 (H y) ltac:(left)) as H2. apply elem_of_cons in H1 as [?|H1]; [done|]. apply elem_of_cons in H2 as [?|H2]; [done|]. apply Hy in H1. apply Hx in H2. lia. }
      f_equal. apply IH; [done|]. intros z. split; intros Hz.
      + pose proof (proj1 (H z) ltac:(by right)) as H1. apply elem_of_cons in H1 as [->|?]; [|done]. apply Hx in Hz. lia.
      + pose proof (proj2 (H z) ltac:(by right)) as H1. apply elem_of_cons in H1 as [->|?]; [|done]. apply Hy in Hz. lia.
  Qed.
  Lemma declared_unique ls b b' s s' af af' : ls = b ++ LSubtask s :: af -> ls = b' ++ LSubtask s' :: af' -> subtasks_of b = subtasks_of b' -> s = s'.
  Proof.
    intros H H' Heq. revert b b' af af' H H' Heq. induction ls as [|x ls IH] using rev_ind; intros b b' af af' H H' Heq; [by destruct b|].
    assert (forall b1 b2 a1 s1, b1 ++ LSubtask s1 :: a1 = b2 -> subtasks_of b1 < subtasks_of b2) as Hlt.
    { intros b1 b2 a1 s1 <-. destruct (prefix_subtasks (b1 ++ LSubtask s1 :: a1) b1 (LSubtask s1) a1 eq_refl) as [_ Hle]. rewrite subtasks_of_snoc in Hle. cbn in Hle. lia. }
    apply snoc_split in H as [(-> & -> & Hs)|(a1 & -> & H)]; apply snoc_split in H' as [(-> & -> & Hs')|(a2 & -> & H')].
    - congruence.
    - symmetry in H'. apply Hlt in H'. lia.
    - symmetry in H. apply Hlt in H. lia.
    - by apply (IH b b' a1 a2).
  Qed.
  Theorem C43_unique ls sts tcs sts' tcs' : GenTask clean get_validator get_output generator ls sts tcs -> GenTask clean get_validator get_output generator ls sts' tcs' -> sts = sts' /\ tcs = tcs'.
  Proof.
    intros H H'. split.
    2:{ apply map_eq. intros k. apply option_eq. intros t. by rewrite (gt_testcases _ _ _ _ _ _ _ H), (gt_testcases _ _ _ _ _ _ _ H'). }
    assert (forall id s s', sts !! id = Some s -> sts' !! id = Some s' -> se_name (st_info s) = se_name (st_info s')) as Hname.
    { intros id s s' Hs Hs'. apply option_eq. intros n. by rewrite (gt_name _ _ _ _ _ _ _ H id s n Hs), (gt_name _ _ _ _ _ _ _ H' id s' n Hs'). }
    assert (forall id s, sts !! id = Some s -> exists s', sts' !! id = Some s') as Hex.
    { intros id s Hs. apply (gt_ids _ _ _ _ _ _ _ H'), (gt_ids _ _ _ _ _ _ _ H). by eexists. }
    assert (forall id s, sts' !! id = Some s -> exists s', sts !! id = Some s') as Hex'.
    { intros id s Hs. apply (gt_ids _ _ _ _ _ _ _ H), (gt_ids _ _ _ _ _ _ _ H'). by eexists. }
    apply map_eq. intros id. destruct (sts !! id) as [s|] eqn:Hs.
    2:{ destruct (sts' !! id) as [s'|] eqn:Hs'; [|done]. destruct (Hex' _ _ Hs'). congruence. }
    destruct (Hex _ _ Hs) as [s' Hs']. rewrite Hs'. f_equal.
    destruct (gt_info _ _ _ _ _ _ _ H id s Hs) as [Hid Hval]. destruct (gt_info _ _ _ _ _ _ _ H' id s' Hs') as [Hid' Hval'].
    destruct (gt_sorted _ _ _ _ _ _ _ H id s Hs) as [Hso Hst]. destruct (gt_sorted _ _ _ _ _ _ _ H' id s' Hs') as [Hso' Hst'].
    assert (st_owned s = st_owned s') as Hown. { apply sorted_unique; [done..|]. intros k. by rewrite (gt_owned _ _ _ _ _ _ _ H id s k Hs), (gt_owned _ _ _ _ _ _ _ H' id s' k Hs'). }
    assert (se_deps (st_info s) = se_deps (st_info s')) as Hdeps.
    { apply sorted_unique; [by apply (gt_deps_sorted _ _ _ _ _ _ _ H id)|by apply (gt_deps_sorted _ _ _ _ _ _ _ H' id)|]. intros j.
      rewrite (gt_deps _ _ _ _ _ _ _ H id s j Hs), (gt_deps _ _ _ _ _ _ _ H' id s' j Hs'). apply somewhere_iff. intros b l af _.
      assert (forall d, (exists s1, sts !! j = Some s1 /\ se_name (st_info s1) = Some d) <-> (exists s1, sts' !! j = Some s1 /\ se_name (st_info s1) = Some d)) as Hd.
      { intros d. split; intros (s1 & H1 & H2); [destruct (Hex _ _ H1) as [s2 H3]|destruct (Hex' _ _ H1) as [s2 H3]]; exists s2; (split; [done|]); [by rewrite <- (Hname _ _ _ H1 H3)|by rewrite (Hname _ _ _ H3 H1)]. }
      split; intros (ds & d & ? & ? & ? & ? & Hc); exists ds, d; (split_and!; [done..|]); (destruct Hc as [?|[? Hc]]; [by left|right; split; [done|by apply Hd]]). }
    assert (se_default (st_info s) = se_default (st_info s')) as Hdef. { by rewrite (gt_default _ _ _ _ _ _ _ H id s Hs), (gt_default _ _ _ _ _ _ _ H' id s' Hs'). }
    assert (se_score (st_info s) = se_score (st_info s')) as Hscore.
    { destruct (se_default (st_info s)) eqn:Ed.
      - by rewrite (proj1 (gt_default_score _ _ _ _ _ _ _ H id s Hs Ed)), (proj1 (gt_default_score _ _ _ _ _ _ _ H' id s' Hs' (eq_sym Hdef))).
      - destruct (gt_score _ _ _ _ _ _ _ H id s Hs Ed) as (b & l & af & Hb & -> & Hi). destruct (gt_score _ _ _ _ _ _ _ H' id s' Hs' (eq_sym Hdef)) as (b' & l' & af' & Hb' & -> & Hi').
        apply (declared_unique ls b b' _ _ af af' Hb Hb'). congruence. }
    pose proof (Hname _ _ _ Hs Hs') as Hn. destruct s as [[? ? ? ? ? ?] ? ?], s' as [[? ? ? ? ? ?] ? ?]. cbn in *. subst. done.
  Qed.
  (** Different subtasks have different names *)
  Theorem C43_names content es sts tcs id id' s s' n : parse content = Some es -> assemble es = Some (sts, tcs) -> sts !! id = Some s -> sts !! id' = Some s' ->
    se_name (st_info s) = Some n -> se_name (st_info s') = Some n -> id = id'.
  Proof.
    intros H Ha Hs Hs' Hn Hn'. pose proof H as Hacc. apply parse_inv in H as (ls & st & Hl & Hst & Hm).
    destruct (proj2 (run_spec clean get_validator get_output generator ls) st Hst) as (_ & a & HJ). destruct (gen_task _ _ _ _ _ _ _ _ HJ Hm) as (sts' & tcs' & Ha' & HG).
    rewrite Ha in Ha'. injection Ha' as <- <-.
    apply (gt_name _ _ _ _ _ _ _ HG id s n Hs) in Hn. apply (gt_name _ _ _ _ _ _ _ HG id' s' n Hs') in Hn'. apply (J_named _ _ _ _ _ _ _ _ _ HJ) in Hn, Hn'. congruence.
  Qed.
End props.
(** An example: a default subtask, a copied testcase, a subtask with a name and a dependency on all *)
Definition example_gen : text := chars "# the sample" ++ newline ++ chars "#COPY: gen/sample.txt" ++ newline ++ chars "#ST: 40" ++ newline ++ chars "#STNAME: small # easy" ++ newline ++
  chars "  10 20" ++ newline ++ chars "#ST:60" ++ newline ++ chars "#STDEP: small" ++ newline ++ newline ++ chars "1000 2000" ++ newline ++ chars "7" ++ newline.
Definition example_output (k : nat) : output_gen := CustomOut (chars "sol/solution.py").
Definition example_validator (id : nat) : validator := AssumeValid.
Theorem C43_example :
  let e := parse_gen_gen Some example_validator example_output (chars "gen/generator.py") example_gen in
  (es ← e; '(sts, tcs) ← assemble es; Some (map (fun id => s ← sts !! id; Some (se_score (st_info s), se_default (st_info s), se_name (st_info s), se_deps (st_info s), st_owned s)) [0; 1; 2; 3], size tcs)) =
  Some ([Some (chars "100", true, None, [], [0]); Some (chars "40", false, Some (chars "small"), [], [1]); Some (chars "60", false, None, [1], [2; 3]); None], 4).
Proof. by vm_compute. Qed.
Theorem C43_example_rejected :
  parse_gen_gen Some example_validator example_output (chars "g") (chars "#STNAME: x") = None /\ parse_gen_gen Some example_validator example_output (chars "g") (chars "#ST: x") = None /\
  parse_gen_gen Some example_validator example_output (chars "g") (chars "#ST: 1" ++ newline ++ chars "3" ++ newline ++ chars "#STNAME: x") = None.
Proof. by vm_compute. Qed.
(** A name is normalized and a dependency is not: what is written the same way can be unknown *)
Theorem C43_normalized_refuted : exists nfkc, nfkc [64257%N] = chars "fi" /\ (forall t, nfkc (nfkc t) = nfkc t) /\
  parse_gen_gen (cleanup nfkc (fun _ => true)) example_validator example_output (chars "g")
    (chars "#ST: 50" ++ newline ++ chars "#STNAME: " ++ [64257%N] ++ newline ++ chars "#ST: 50" ++ newline ++ chars "#STDEP: " ++ [64257%N]) = None.
Proof.
  exists (fun t => if decide (t = [64257%N]) then chars "fi" else t). split_and!; [done| |by vm_compute].
  intros t. destruct (decide (t = [64257%N])) as [->|Hne]; [done|]. cbv beta. by rewrite decide_False.
Qed.

Print Assumptions C43_lines.
Print Assumptions C43_file.
Print Assumptions C43_accepted.
Print Assumptions C43_task.
Print Assumptions C43_unique.
Print Assumptions C43_names.
Print Assumptions C43_example.
Print Assumptions C43_example_rejected.
Print Assumptions C43_normalized_refuted.
