(** * ChecksProps: C47, C48, C49, C52, C62, C63 *)
From Verif Require Import ChecksSpec ChecksProofs ChecksProofs2 ChecksProofs3 ChecksProofs4.

(** ** C47: the meaning of a check *)
Theorem C47_check k l : check k l = true <-> (exists o, minimal o l /\ named k o) \/ (l = [] /\ k = KAccepted).
Proof. apply check_true. Qed.
(** ... which is what the documentation says *)
Theorem C47_documented k l : check k l = true <-> documented k l.
Proof.
  rewrite check_true.
  assert (forall o, zero_points o -> (o ∈ l <-> minimal o l)) as Hz. { intros o Ho. split; [|by intros [? _]]. intros Hin. split; [done|]. intros o' _. by apply not_worse_bottom. }
  assert (forall o, o = OWrongAnswer \/ o = OTimeLimit \/ o = OWallTime \/ o = OMemory \/ o = ORuntimeError -> zero_points o) as Hzp. { intros o Ho. unfold zero_points. intuition congruence. }
  assert (forall k o, (forall o', named k o' <-> o' = o) -> zero_points o -> ((exists o', minimal o' l /\ named k o') \/ (l = [] /\ k = KAccepted) <-> o ∈ l)) as Hone.
  { intros k' o Hn Ho. split.
    - intros [(o' & Hm & H)|[_ ->]]; [apply Hn in H as ->; by destruct Hm|]. specialize (Hn OAccepted). cbn in Hn. destruct Ho as [Ho _]. exfalso. apply Ho. symmetry. by apply Hn.
    - intros Hin. left. exists o. split; [by apply Hz|by apply Hn]. }
  destruct k; cbn [documented].
  - split.
    + intros [(o & [Hin Hm] & ->)|[-> _]]; [|constructor]. apply Forall_forall. intros o' Ho'. specialize (Hm o' Ho'). destruct (decide (o' = OAccepted)) as [?|Hne]; [done|]. exfalso. apply Hm. destruct (decide (o' = OPartial)) as [->|?]; [by right|]. left. split; [done|]. by intros [? _].
    + intros H. destruct (decide (l = [])) as [->|Hl]; [by right|]. left. destruct (has_minimal l Hl) as [o Ho]. exists o. split; [done|]. rewrite Forall_forall in H. by apply H, Ho.
  - split.
    + intros [(o & [Hin Hm] & ->)|[-> ?]]; [|done]. split; [done|]. apply Forall_forall. intros o' Ho'. specialize (Hm o' Ho'). destruct (decide (o' = OAccepted)) as [->|Hne]; [by right|]. destruct (decide (o' = OPartial)) as [->|?]; [by left|]. exfalso. apply Hm. left. split; [done|]. by intros [_ ?].
    + intros [Hin H]. left. exists OPartial. split; [|done]. split; [done|]. intros o' Ho' [[[H1 H2] _]|[_ ?]]; [|done]. rewrite Forall_forall in H. by destruct (H _ Ho').
  - apply (Hone KWrongAnswer OWrongAnswer); [done|apply Hzp; tauto].
  - apply (Hone KTimeLimit OTimeLimit); [done|apply Hzp; tauto].
  - apply (Hone KWallTime OWallTime); [done|apply Hzp; tauto].
  - apply (Hone KMemory OMemory); [done|apply Hzp; tauto].
  - apply (Hone KRuntimeError ORuntimeError); [done|apply Hzp; tauto].
  - rewrite Exists_exists. split.
    + intros [(o & [Hin _] & H)|[_ ?]]; [by exists o|done].
    + intros (o & Hin & H). left. exists o. split; [by apply Hz|done].
Qed.
Example C47_example : check KZero [OAccepted; OTimeLimit; OPartial] = true /\ check KWrongAnswer [OAccepted; OTimeLimit] = false /\ check KPartialScore [OPartial; OWrongAnswer] = false /\ check KAccepted [] = true.
Proof. by vm_compute. Qed.

(** ** C48: the check that add-solution-checks chooses *)
Theorem C48_total l : exists k, choose_check l = Some k.
Proof. apply choose_total. Qed.
Theorem C48_holds l k : choose_check l = Some k -> check k l = true.
Proof.
  intros H. destruct (all_named k l) as [?| ->]; [by apply choose_spec|done|]. vm_compute in H. by injection H as <-.
Qed.
(** It names all the outcomes that are minimal, and no check before it in the documented order does *)
Theorem C48_first l k : choose_check l = Some k ->
  (forall o, minimal o l -> named k o) /\
  exists l1 l2, [KAccepted; KPartialScore; KWrongAnswer; KTimeLimit; KWallTime; KMemory; KRuntimeError; KZero] = l1 ++ k :: l2 /\
    Forall (fun k' => exists o, minimal o l /\ ~ named k' o) l1.
Proof. apply choose_spec. Qed.
(** Only the set of the outcomes matters *)
Theorem C48_order l l' : (forall o, o ∈ l <-> o ∈ l') -> choose_check l = choose_check l'.
Proof.
  intros H. assert (forall o, minimal o l <-> minimal o l') as Hm. { intros o. unfold minimal. rewrite H. split; intros [? Hn]; (split; [done|]); intros o' Ho'; apply Hn; by apply H. }
  rewrite !choose_find. generalize sorted_all. intros ks. induction ks as [|k ks IH]; [done|]. cbn [List.find]. rewrite IH.
  assert (forallb (contains (minimals k)) (minimal_results l) = forallb (contains (minimals k)) (minimal_results l')) as ->; [|done].
  apply eq_true_iff_eq. rewrite !covers. split; intros Hc o Ho; apply Hc; by apply Hm.
Qed.
Example C48_example : choose_check [OAccepted; OTimeLimit; OMemory; OTimeLimit] = Some KZero /\ choose_check [OAccepted; OTimeLimit] = Some KTimeLimit /\ choose_check [OPartial; OAccepted] = Some KPartialScore.
Proof. by vm_compute. Qed.

(** ** C49: the names of the checks *)
Theorem C49_round_trip k : from_str (chars (as_str k)) = Some k.
Proof. by destruct k. Qed.
Theorem C49_only_names s k : from_str s = Some k -> s = chars (as_str k).
Proof. unfold from_str. repeat (case_decide as H; [subst s; intros [= <-]; done|]; clear H). done. Qed.
(** The checks of a source are those of its rules, with their lines ... *)
Theorem C49_checks content checks bad : extract content = Some (checks, bad) ->
  forall c, c ∈ checks <-> exists i, sc_line c = i + 1 /\ written (split_nl content) i (sc_kind c) (sc_pattern c).
Proof. rewrite extract_eq. intros H c. apply (extract_from_checks _ _ _ _ _ H). Qed.
(** ... and the user is warned about the lines that have the mark of a check but no rule *)
Theorem C49_warned content checks bad : extract content = Some (checks, bad) -> forall line, line ∈ bad <-> line ∈ split_nl content /\ has_mark line /\ ~ has_rule line.
Proof. rewrite extract_eq. intros H line. apply (extract_from_bad _ _ _ _ _ H). Qed.
Theorem C49_lines content : Forall one_line (split_nl content) /\ join [nl] (split_nl content) = content.
Proof.
  split; [apply split_nl_one_line|]. induction content as [|c t IH]; [done|]. cbn [split_nl]. case_decide as H.
  - subst c. destruct (split_nl t) as [|l ls] eqn:E; [by apply split_nl_ne in E|]. change (join [nl] ([] :: l :: ls)) with (nl :: join [nl] (l :: ls)). by rewrite IH.
  - destruct (split_nl t) as [|l ls] eqn:E; [by apply split_nl_ne in E|]. destruct ls as [|l2 ls]; [cbn [join] in *; by rewrite IH|]. change (join [nl] ((c :: l) :: l2 :: ls)) with (c :: join [nl] (l :: l2 :: ls)). by rewrite IH.
Qed.
(** Every name but one is recognised in a source *)
Theorem C49_recognised_partial prefix k names : good_prefix prefix -> Forall good_name names -> k <> KWallTime ->
  exists checks, extract (prefix ++ chars " @check-" ++ chars (as_str k) ++ chars ": " ++ join [space] names) = Some (checks, []) /\ pairs checks = map (pair k) names.
Proof.
  intros Hp Hn Hk. fold (comment prefix k names). rewrite extract_eq. rewrite split_nl_line by (by apply comment_one_line). cbn [extract_from]. rewrite comment_res by done. cbn [mbind option_bind]. eexists. split; [done|]. rewrite app_nil_r. unfold pairs. rewrite map_map. cbn [sc_kind sc_pattern]. rewrite <- (map_id (map (pair k) names)) at 2. apply map_ext. by intros [? ?].
Qed.
(** Refuted: [wall-time-limit-exceeded] is a name ([C49_round_trip]), but in a source it is not recognised: there is no check, only a warning *)
Theorem C49_wall_time_refuted prefix names : good_prefix prefix -> Forall good_name names ->
  extract (prefix ++ chars " @check-" ++ chars (as_str KWallTime) ++ chars ": " ++ join [space] names) =
  Some ([], [prefix ++ chars " @check-" ++ chars (as_str KWallTime) ++ chars ": " ++ join [space] names]).
Proof.
  intros Hp Hn. fold (comment prefix KWallTime names). rewrite extract_eq. rewrite split_nl_line by (by apply comment_one_line). cbn [extract_from].
  assert (has_mark (comment prefix KWallTime names)) as Hm. { exists (length prefix + 1), (prefix ++ [space]), (chars (as_str KWallTime) ++ chars ": " ++ join [space] names). split; [unfold comment; by rewrite <- !app_assoc|by rewrite app_length]. }
  assert (~ has_rule (comment prefix KWallTime names)) as Hr.
  { intros (n & k & rest & Hr). pose proof (comment_marks _ _ _ _ Hp Hn (rule_mark _ _ _ _ Hr)) as ->. destruct Hr as (b & Hb & Hl & Hk). unfold comment in Hb. change (chars " @check-") with ([space] ++ chars "@check-") in Hb. rewrite <- app_assoc in Hb. rewrite app_assoc in Hb.
    apply app_inj_1 in Hb as [_ Hb]; [|by rewrite app_length, Hl]. apply app_inv_head in Hb. change (chars ": ") with (chars ":" ++ [space]) in Hb. rewrite <- app_assoc in Hb. apply no_name_prefix in Hb as [<- _]. done. }
  unfold line_res. destruct (last_check _) as [f|] eqn:L; [|by apply last_check_none in L]. destruct (first_match _) as [[[s nm] r]|] eqn:F; [|done]. exfalso. apply Hr. apply first_match_rule in F as (k & _ & _ & F). by exists s, k, r.
Qed.
Example C49_example : exists checks, extract (chars "int main() {} // @check-time-limit-exceeded:  st1   st*") = Some (checks, []) /\ pairs checks = [(KTimeLimit, chars "st1"); (KTimeLimit, chars "st*")].
Proof. eexists. split; by vm_compute. Qed.

(** ** C52: writing the checks *)
(** [str::lines] gives the lines *)
Theorem C52_lines ls : Forall one_line ls -> Forall (fun l => cr ∉ l) ls -> lines (file_of ls) = ls.
Proof. apply lines_file. Qed.
(** The lines with the checks to remove are removed, the comments are added at the top (or after the first line that is left, if the file starts with [#!]) and the other
    lines are kept in order *)
Theorem C52_write content cs old bad remove : extract content = Some (old, bad) -> remove = old \/ remove = [] -> cs <> [] ->
  let kept := keep 0 (fun i => bool_decide (i ∈ map (fun c => sc_line c - 1) remove)) (lines content) in
  ((~ exists r, content = chars "#!" ++ r) -> write_comments content cs remove = Some (file_of (cs ++ kept))) /\
  ((exists r, content = chars "#!" ++ r) -> write_comments content cs remove =
     match kept with [] => None | first :: kept => Some (file_of (first :: cs ++ kept)) end).
Proof.
  intros He Hr Hcs. cbv zeta. fold (check_lines remove). fold (kept content remove). rewrite write_spec; [| |done].
  - unfold place. destruct (starts (chars "#!") content) eqn:E.
    + apply starts_spec in E. split; [done|]. intros _. destruct (kept content remove) as [|x l]; [by rewrite decide_False by (simpl; lia)|]. rewrite decide_True by (simpl; lia). done.
    + split; [|intros H; apply starts_spec in H; congruence]. intros _. rewrite decide_True by lia. by rewrite take_0, drop_0.
  - apply Forall_forall. intros c Hc. destruct Hr as [->| ->]; [by eapply extract_lines_bound|by apply elem_of_nil in Hc].
Qed.
(** Refuted: in a file whose only line is a shebang with a check, nothing is written: the tool panics *)
Theorem C52_shebang_refuted : exists content subtasks, (exists checks, extract content = Some (checks, [])) /\ add_checks true (chars "#") subtasks content = None.
Proof. exists (chars "#! @check-zero: a"), [(chars "a", [OAccepted])]. split; [eexists; by vm_compute|by vm_compute]. Qed.
(** Refuted: the carriage returns at the end of the lines are lost *)
Theorem C52_carriage_refuted : exists content subtasks, add_checks true (chars "//") subtasks content = Some (chars "// @check-accepted: a" ++ [nl] ++ chars "x" ++ [nl]) /\ content = chars "x" ++ [cr; nl].
Proof. exists (chars "x" ++ [cr; nl]), [(chars "a", [OAccepted])]. split; by vm_compute. Qed.
(** Refuted: a rule without subtasks is not a check, so it is never removed *)
Theorem C52_empty_rule_refuted : exists content new, (exists line n rest, line ∈ split_nl content /\ rule_at line n KZero rest) /\ add_checks true (chars "//") [(chars "a", [OAccepted])] content = Some new /\
  (exists line n rest, line ∈ split_nl new /\ rule_at line n KZero rest).
Proof.
  exists (chars "// @check-zero:"), (chars "// @check-accepted: a" ++ [nl] ++ chars "// @check-zero:" ++ [nl]). split_and!; [|by vm_compute|]; exists (chars "// @check-zero:"), 3, []; (split; [|by exists (chars "// ")]); apply (bool_decide_unpack _); by vm_compute.
Qed.
Example C52_example : add_checks true (chars "#") [(chars "easy", [OAccepted]); (chars "hard", [OTimeLimit; OAccepted])] (file_of [chars "#!/bin/sh"; chars "# @check-zero: *"; chars "echo"]) =
  Some (file_of [chars "#!/bin/sh"; chars "# @check-accepted: easy"; chars "# @check-time-limit-exceeded: hard"; chars "echo"]).
Proof. by vm_compute. Qed.

(** ** C62: the checks that were written are those that are read *)
Lemma chosen_not_wall l k : choose_check l = Some k -> (l = [] \/ exists o, minimal o l /\ o <> OWallTime) -> k <> KWallTime.
Proof. intros H [->|(o & Hm & Ho)]; [vm_compute in H; by injection H as <-|]. intros ->. apply choose_spec in H as [H _]. by apply Ho, H. Qed.
Theorem C62_read_back_partial overwrite prefix subtasks content old bad new : extract content = Some (old, bad) -> overwrite = true \/ old = [] ->
  good_prefix prefix -> Forall (fun s => good_name s.1) subtasks -> Forall (fun s => s.2 = [] \/ exists o, minimal o s.2 /\ o <> OWallTime) subtasks -> subtasks <> [] ->
  add_checks overwrite prefix subtasks content = Some new ->
  exists checks warned expected, extract new = Some (checks, warned) /\ pairs checks ≡ₚ expected /\ Forall2 (fun s x => x.2 = s.1 /\ check x.1 s.2 = true) subtasks expected.
Proof.
  intros He Ho Hp Hn Hwt Hne Hadd. destruct (chosen_spec subtasks) as (l & Hl & H2). unfold add_checks in Hadd. rewrite He in Hadd. cbn [mbind option_bind] in Hadd.
  assert ((negb overwrite && match old with [] => false | _ => true end) = false) as Hc by (destruct Ho as [->| ->]; [done|by rewrite andb_false_r]). rewrite Hc in Hadd. rewrite comments_eq, Hl in Hadd. cbn [mbind option_bind] in Hadd.
  assert (l <> []) as Hln. { intros ->. apply Forall2_nil_inv_r in H2. done. }
  assert (omap (comment_of prefix l) sorted_all <> []) as Hcn by (by intros ?%comments_nil).
  assert (write_comments content (omap (comment_of prefix l) sorted_all) old = Some new) as Hw. { destruct Ho as [->| ->]; [by destruct (omap (comment_of prefix l) sorted_all)|]. destruct overwrite; by destruct (omap (comment_of prefix l) sorted_all). }
  assert (Forall (fun x : check_kind * text => good_name x.2 /\ x.1 <> KWallTime) l) as Hg.
  { clear -H2 Hn Hwt. induction H2 as [|s x subtasks l [Hk Hx] H2 IH]; [constructor|]. apply Forall_cons in Hn as [Hs Hn]. apply Forall_cons in Hwt as [Hw Hwt]. constructor; [|by apply IH]. split; [by rewrite Hx|]. by eapply chosen_not_wall. }
  destruct (read_back content old bad prefix l old new He ltac:(done) ltac:(done) Hln Hp Hg Hw) as (c & b & Hx & Hpairs). exists c, b, l. split; [done|]. split; [rewrite Hpairs; apply grouped_perm|].
  eapply Forall2_impl; [exact H2|]. intros s x [Hk Hs]. split; [done|]. by apply C48_holds.
Qed.
(** Refuted without that: if the worst outcome of a subtask is only that the wall time was exceeded, the check that is written is not read back, and the user is warned *)
Theorem C62_wall_time_refuted : exists new, add_checks true (chars "//") [(chars "a", [OAccepted; OWallTime])] [] = Some new /\ extract new = Some ([], [chars "// @check-wall-time-limit-exceeded: a"]).
Proof. eexists. split; [by vm_compute|]. by vm_compute. Qed.
(** Writing twice is the same as writing once *)
Theorem C62_idempotent prefix subtasks content old bad new : extract content = Some (old, bad) ->
  good_prefix prefix -> cr ∉ prefix -> (~ exists r, prefix = chars "#!" ++ r) -> cr ∉ content ->
  Forall (fun s => good_name s.1) subtasks -> Forall (fun s => s.2 = [] \/ exists o, minimal o s.2 /\ o <> OWallTime) subtasks ->
  ((exists r, content = chars "#!" ++ r) -> Forall (fun c => sc_line c <> 1) old) ->
  add_checks true prefix subtasks content = Some new -> add_checks true prefix subtasks new = Some new.
Proof.
  intros He Hp Hcp Hsh Hcc Hn Hwt H0 Hadd. destruct (chosen_spec subtasks) as (l & Hl & H2). eapply add_again; eauto.
  - destruct (starts (chars "#!") prefix) eqn:E; [|done]. apply starts_spec in E. done.
  - clear -H2 Hn Hwt. induction H2 as [|s x subtasks l [Hk Hx] H2 IH]; [constructor|]. apply Forall_cons in Hn as [Hs Hn]. apply Forall_cons in Hwt as [Hw Hwt]. constructor; [|by apply IH]. split; [by rewrite Hx|]. by eapply chosen_not_wall.
  - intros E. apply starts_spec in E. specialize (H0 E). intros Hin. apply elem_of_list_fmap in Hin as (c & Hc & Hin). rewrite Forall_forall in H0. specialize (H0 c Hin). rewrite extract_eq in He. apply (extract_from_checks _ _ _ _ _ He) in Hin as (j & Hj & _). lia.
Qed.
(** Without [--overwrite] a solution with checks is left alone *)
Theorem C62_left_alone prefix subtasks content old bad : extract content = Some (old, bad) -> old <> [] -> add_checks false prefix subtasks content = Some content.
Proof. intros He Ho. unfold add_checks. rewrite He. cbn [mbind option_bind negb andb]. by destruct old. Qed.
Example C62_example : exists new, add_checks true (chars "#") [(chars "easy", [OAccepted]); (chars "hard", [OTimeLimit; OAccepted])] (file_of [chars "#!/bin/sh"; chars "# @check-zero: *"; chars "echo"]) = Some new /\
  exists checks, extract new = Some (checks, []) /\ pairs checks = [(KAccepted, chars "easy"); (KTimeLimit, chars "hard")].
Proof. eexists. split; [by vm_compute|]. eexists. split; by vm_compute. Qed.

(** ** C63: the solutions with checks *)
(** A solution in a known language is not silently dropped because of what its comments say ... unless a line has two marks *)
Theorem C63_not_dropped_partial content : Forall (fun line => ~ two_marks line) (split_nl content) -> exists checks, new_solution true content = Some checks.
Proof.
  intros H. unfold new_solution. destruct (extract content) as [[checks bad]|] eqn:E; [by eexists|]. exfalso. rewrite extract_eq in E. apply extract_from_none in E. apply Exists_exists in E as (l & Hin & Hl). rewrite Forall_forall in H. by apply (H l).
Qed.
(** Exactly: a solution is dropped iff a rule is followed by a mark on its line *)
Theorem C63_dropped content : new_solution true content = None <-> Exists (fun line => exists n k rest m, rule_at line n k rest /\ mark_at line m /\ n < m) (split_nl content).
Proof.
  unfold new_solution. rewrite <- (extract_from_none 0). rewrite extract_eq. destruct (extract_from 0 (split_nl content)) as [[checks bad]|]; done.
Qed.
Theorem C63_two_rules_refuted : new_solution true (chars "// @check-accepted: easy @check-zero: hard") = None.
Proof. by vm_compute. Qed.
Example C63_example : exists checks, new_solution true (chars "// @check-accepted: easy" ++ [nl] ++ chars "// @check- @check-zero: hard") = Some checks /\ pairs checks = [(KAccepted, chars "easy"); (KZero, chars "hard")].
Proof. eexists. split; by vm_compute. Qed.

Print Assumptions C47_check.
Print Assumptions C47_documented.
Print Assumptions C48_first.
Print Assumptions C49_checks.
Print Assumptions C49_wall_time_refuted.
Print Assumptions C52_write.
Print Assumptions C62_read_back_partial.
Print Assumptions C62_idempotent.
Print Assumptions C63_dropped.
