(** * TaskProps: C42, C46 *)
From Verif Require Import TaskSpec FormatSpec FormatProofs FormatProofs4 TaskProofs FormatProps.
From stdpp Require Import relations.

(** ** C42: the testcases of a subtask *)
(** The loop ends, whatever the dependencies (cycles included) and the order of the passes, and gives the testcases that can be reached *)
Theorem C42_closure m : just_parsed m -> exists n, forall order fuel, visits_all m order -> n <= fuel -> exists m', closure order fuel 0 m = Some m' /\ closed m m'.
Proof.
  intros Hm. exists (S (length (keys m) * length (universe m))). intros order fuel Hord Hfuel. apply (closure_good m Hm order Hord); [by apply good_start|]. lia.
Qed.
Theorem C42_result m order fuel m' : just_parsed m -> visits_all m order -> closure order fuel 0 m = Some m' -> closed m m'.
Proof. intros Hm Hord. apply (closure_result m Hm order Hord). by apply good_start. Qed.
(** The order has no effect *)
Theorem C42_order m order order' fuel fuel' m1 m2 : just_parsed m -> visits_all m order -> visits_all m order' -> closure order fuel 0 m = Some m1 -> closure order' fuel' 0 m = Some m2 -> m1 = m2.
Proof. intros Hm H1 H2 Hc1 Hc2. apply (closed_unique m); [by apply (C42_result m order fuel)|by apply (C42_result m order' fuel')]. Qed.
(** The subtasks of a gen/GEN are as required *)
Theorem C42_gen clean get_validator get_output generator ls sts tcs : GenTask clean get_validator get_output generator ls sts tcs -> just_parsed sts.
Proof.
  intros HG. split.
  - intros id j (s & Hs & Hj). apply (gt_deps _ _ _ _ _ _ _ HG id s j Hs) in Hj as (b & l & a & _ & ds & d & _ & _ & _ & _ & [[_ H]|(_ & s' & H & _)]); [by apply HG|by eexists].
  - intros id s Hs. by apply (gt_sorted _ _ _ _ _ _ _ HG id).
Qed.
Theorem C42_gen_total clean get_validator get_output generator content es : parse_gen_gen clean get_validator get_output generator content = Some es ->
  exists sts tcs n, assemble es = Some (sts, tcs) /\ forall order fuel, visits_all sts order -> n <= fuel -> exists m', closure order fuel 0 sts = Some m' /\ closed sts m'.
Proof.
  intros H. apply C43_task in H as (ts & ls & sts & tcs & _ & _ & Ha & HG). apply C42_gen in HG. destruct (C42_closure sts HG) as [n Hn]. by exists sts, tcs, n.
Qed.
(** An example with a cycle *)
Definition cyclic : gmap nat subtask :=
  let st id deps own := Subtask (SubtaskEntry id None (chars "10") false AssumeValid deps) own own in
  list_to_map [(0, st 0 [1] [0]); (1, st 1 [2] [1; 2]); (2, st 2 [0] [3]); (3, st 3 [2] [4; 5]); (4, st 4 [] [6])].
Theorem C42_example : just_parsed cyclic /\ visits_all cyclic (fun _ => [4; 2; 0; 3; 1]) /\
  (m ← closure (fun _ => [4; 2; 0; 3; 1]) 10 0 cyclic; Some (map (fun id => st_testcases <$> m !! id) (seq 0 5))) = Some [Some [0; 1; 2; 3]; Some [0; 1; 2; 3]; Some [0; 1; 2; 3]; Some [0; 1; 2; 3; 4; 5]; Some [6]].
Proof.
  assert (forall id s, cyclic !! id = Some s -> id < 5 /\ StronglySorted lt (st_owned s) /\ st_testcases s = st_owned s /\ Forall (fun j => j < 5) (se_deps (st_info s))) as H.
  { intros id s Hs. apply elem_of_list_to_map_2 in Hs. repeat (apply elem_of_cons in Hs as [[= -> ->]|Hs]; [cbn; split_and!; [lia|repeat constructor; lia|done|repeat constructor; lia]|]). by apply elem_of_nil in Hs. }
  assert (forall id, id < 5 -> is_Some (cyclic !! id)) as H5. { intros id Hid. do 5 (destruct id as [|id]; [by eexists|]). lia. }
  split_and!; [split|..].
  - intros id j (s & Hs & Hj). destruct (H _ _ Hs) as (_ & _ & _ & Hd). rewrite Forall_forall in Hd. apply H5. by apply Hd.
  - intros id s Hs. by destruct (H _ _ Hs) as (_ & ? & ? & _).
  - intros _ id. split.
    + intros Hin. apply H5. repeat (apply elem_of_cons in Hin as [->|Hin]; [lia|]). by apply elem_of_nil in Hin.
    + intros [s Hs]. destruct (H _ _ Hs) as (Hlt & _). do 5 (destruct id as [|id]; [apply (bool_decide_unpack _); by vm_compute|]). lia.
  - by vm_compute.
Qed.

(** ** C46: the files of the user *)
Lemma contains_spec p t : contains p t = true <-> exists a b, t = a ++ p ++ b.
Proof.
  induction t as [|c t IH]; cbn [contains]; rewrite orb_true_iff, bool_decide_eq_true.
  - split.
    + intros [[r Hr]|?]; [|done]. apply literal_inv in Hr. by exists [], r.
    + intros (a & b & H). left. symmetry in H. apply app_eq_nil in H as [-> H]. apply app_eq_nil in H as [-> ->]. by exists [].
  - rewrite IH. split.
    + intros [[r Hr]|(a & b & ->)]; [apply literal_inv in Hr; by exists [], r|by exists (c :: a), b].
    + intros (a & b & H). destruct a as [|c' a]; [left; cbn [app] in H; rewrite H, literal_app; by eexists|]. right. cbn [app] in H. injection H as -> ->. by exists a, b.
Qed.
Lemma deletable_spec c : deletable c = true <-> has_cookie c.
Proof. apply contains_spec. Qed.
Lemma header_cookie r : has_cookie (generated_header ++ r).
Proof. apply deletable_spec. unfold deletable. apply contains_spec. by eexists (chars "# Generated by task-maker. Do not edit!" ++ newline ++ chars "# "), _. Qed.
Lemma write_if_allowed_changed path content fs p : write_if_allowed path content fs !! p <> fs !! p -> p = path /\ (forall c, fs !! p = Some c -> has_cookie c) /\ write_if_allowed path content fs !! p = Some content.
Proof.
  unfold write_if_allowed, may_write. destruct (fs !! path) as [c|] eqn:E.
  - destruct (deletable c) eqn:Hd; [|done]. intros H. destruct (decide (p = path)) as [->|]; [|by rewrite lookup_insert_ne in H]. rewrite lookup_insert. split_and!; [done| |done]. intros c' Hc'. rewrite E in Hc'. injection Hc' as <-. by apply deletable_spec.
  - intros H. destruct (decide (p = path)) as [->|]; [|by rewrite lookup_insert_ne in H]. rewrite lookup_insert. split_and!; [done| |done]. intros c' Hc'. congruence.
Qed.
Lemma opt_cookie (x : option text) : (forall c, x = Some c -> has_cookie c) -> x = None \/ exists c, x = Some c /\ has_cookie c.
Proof. destruct x as [c|]; [|by left]. intros H. right. exists c. split; [done|by apply H]. Qed.
Section load.
  Context (parse_yaml : bool -> text -> option (option aggregator)) (setup late : files -> bool) (cases gens : files -> text -> option (list entry)) (statics : files -> list entry)
    (yaml_content : text -> aggregator -> list (text * list nat) -> text) (gen_body : text -> text).
  (** The gen/GEN that is written begins with the header *)
  Notation load := (parse_task parse_yaml setup late cases gens (fun c => generated_header ++ gen_body c) statics yaml_content).
  (** Loading a task, with success or not: what changes *)
  Theorem C46_load dry_run order fuel fs fs' r path : load dry_run order fuel fs = (fs', r) -> fs' !! path <> fs !! path ->
    dry_run = false /\
    (path = chars "gen/GEN" /\ is_Some (fs !! chars "gen/cases.gen") \/ path = chars "task.yaml" /\ is_Some (fs !! chars "task.yaml.orig")) /\
    (fs !! path = None \/ exists c, fs !! path = Some c /\ has_cookie c) /\
    exists c, fs' !! path = Some c /\ has_cookie c.
  Proof.
    unfold parse_task. intros H Hne.
    assert (forall l fs1, task_entries cases gens (fun c => generated_header ++ gen_body c) statics dry_run fs = (fs1, l) -> forall p, fs1 !! p <> fs !! p ->
      dry_run = false /\ p = chars "gen/GEN" /\ is_Some (fs !! chars "gen/cases.gen") /\ (fs !! p = None \/ exists c, fs !! p = Some c /\ has_cookie c) /\ exists c, fs1 !! p = Some c /\ has_cookie c) as Hentries.
    { intros l fs1 He p Hp. unfold task_entries in He. destruct (fs !! chars "gen/cases.gen") as [c|] eqn:Ec.
      - destruct (cases fs c); [|by injection He as <- _]. injection He as <- _. destruct dry_run; [done|]. apply write_if_allowed_changed in Hp as (-> & Hc & ->). split_and!; [done|done|by eexists| |].
        + by apply opt_cookie.
        + eexists. split; [done|]. apply header_cookie.
      - destruct (fs !! chars "gen/GEN"); by injection He as <- _. }
    destruct (match fs !! chars "task.yaml.orig" with Some c => Some (true, c) | None => match fs !! chars "task.yaml" with Some c => Some (false, c) | None => None end end) as [[orig y]|] eqn:Ey; [|by injection H as <- _].
    destruct (parse_yaml orig y) as [st|]; [|by injection H as <- _]. destruct (setup fs); [|by injection H as <- _].
    destruct (task_entries _ _ _ _ dry_run fs) as [fs1 l] eqn:Et. specialize (Hentries l fs1 eq_refl).
    assert (fs' = fs1 \/ dry_run = false /\ orig = true /\ exists c, fs' = write_if_allowed (chars "task.yaml") (generated_header ++ c) fs1) as Hfs.
    { destruct (l ≫= _) as [[m tcs]|]; [|injection H as <- _; by left]. unfold finish_task in H. destruct orig.
      - injection H as <- _. destruct dry_run; [by left|right]. split_and!; [done..|]. by eexists.
      - destruct (existsb _ _); injection H as <- _; by left. }
    destruct Hfs as [->|(Hdry & -> & c & ->)].
    - destruct (Hentries path Hne) as (-> & -> & ? & ? & ?). split_and!; [done|by left|done|done].
    - assert (is_Some (fs !! chars "task.yaml.orig")) as Horig. { destruct (fs !! chars "task.yaml.orig"); [by eexists|]. by destruct (fs !! chars "task.yaml"). }
      destruct (decide (write_if_allowed (chars "task.yaml") (generated_header ++ c) fs1 !! path = fs1 !! path)) as [Heq|Hneq].
      + rewrite Heq in Hne |- *. destruct (Hentries path Hne) as (-> & -> & ? & ? & ?). split_and!; [done|by left|done|done].
      + apply write_if_allowed_changed in Hneq as (-> & Hc & ->).
        assert (fs1 !! chars "task.yaml" = fs !! chars "task.yaml") as H1. { destruct (decide (fs1 !! chars "task.yaml" = fs !! chars "task.yaml")) as [?|Hx]; [done|]. destruct (Hentries _ Hx) as (_ & ? & _). done. }
        rewrite H1 in Hc. split_and!; [done|by right| |].
        * by apply opt_cookie.
        * eexists. split; [done|]. apply header_cookie.
  Qed.
  Theorem C46_dry_run order fuel fs fs' r : load true order fuel fs = (fs', r) -> fs' = fs.
  Proof. intros H. apply map_eq. intros p. destruct (decide (fs' !! p = fs !! p)) as [?|Hne]; [done|]. by destruct (C46_load _ _ _ _ _ _ _ H Hne) as (? & _). Qed.
End load.
Lemma txt_in_spec dir path : txt_in dir path = true <-> TxtIn dir path.
Proof.
  unfold txt_in, TxtIn. split.
  - destruct (literal (dir ++ [slash]) path) as [name|] eqn:E; [|done]. apply literal_inv in E. intros [H1 H2]%andb_true_iff. apply bool_decide_eq_true in H1, H2. destruct H2 as [r Hr]. apply literal_inv in Hr.
    assert (name = rev r ++ chars ".txt") as Hn. { rewrite <- (rev_involutive name), Hr, rev_app_distr, rev_involutive. done. }
    exists (rev r). rewrite E, Hn, <- !app_assoc. split; [done|]. intros Hin. apply H1. rewrite Hn. apply elem_of_app. by left.
  - intros (name & -> & Hn). replace (dir ++ [47%N] ++ name ++ chars ".txt") with ((dir ++ [slash]) ++ (name ++ chars ".txt")) by (by rewrite <- !app_assoc). rewrite literal_app. apply andb_true_iff. rewrite !bool_decide_eq_true. split.
    + intros H. apply elem_of_app in H as [?|H]; [done|]. revert H. apply (bool_decide_unpack (¬ (_ ∈ _))). by vm_compute.
    + rewrite rev_app_distr, literal_app. by eexists.
Qed.
Lemma under_spec dir path : under dir path = true <-> exists r, path = dir ++ [slash] ++ r.
Proof.
  unfold under. rewrite bool_decide_eq_true. split.
  - intros [r Hr]. apply literal_inv in Hr. exists r. by rewrite app_assoc.
  - intros [r ->]. rewrite app_assoc, literal_app. by eexists.
Qed.
Lemma remove_generated_changed g from fs p : remove_generated g from fs !! p <> fs !! p -> p = g /\ is_Some (fs !! from) /\ (exists c, fs !! g = Some c /\ has_cookie c) /\ remove_generated g from fs !! p = None.
Proof.
  unfold remove_generated. destruct (fs !! from) as [c0|] eqn:E0; [|done]. destruct (fs !! g) as [c|] eqn:E; [|done]. destruct (deletable c) eqn:Hd; [|done].
  intros H. destruct (decide (p = g)) as [->|]; [|by rewrite lookup_delete_ne in H]. split_and!; [done|by eexists| |by apply lookup_delete]. exists c. split; [done|]. by apply deletable_spec.
Qed.
(** Cleaning a task only deletes, and only these files *)
Theorem C46_clean custom_checker tcs fs path : clean_task custom_checker tcs fs !! path <> fs !! path ->
  clean_task custom_checker tcs fs !! path = None /\ cleanable custom_checker tcs fs path.
Proof.
  unfold clean_task, cleanable.
  set (fs1 := filter (fun '(p, _) => negb ((txt_in (chars "input") p || txt_in (chars "output") p) && negb (used_by_static tcs p)) = true) fs).
  set (fs2 := filter (fun '(p, _) => under (chars "bin") p = false) fs1).
  set (fs3 := if custom_checker then delete (chars "check/checker") (delete (chars "cor/correttore") fs2) else fs2).
  set (fs4 := remove_generated (chars "gen/GEN") (chars "gen/cases.gen") fs3).
  assert (forall p, (fs1 !! p = fs !! p) \/ fs1 !! p = None /\ (TxtIn (chars "input") p \/ TxtIn (chars "output") p)) as H1.
  { intros p. destruct (fs1 !! p) as [c|] eqn:E.
    - left. unfold fs1 in E. apply map_filter_lookup_Some in E as [-> _]. done.
    - destruct (fs !! p) as [c|] eqn:E'; [|by left]. right. split; [done|]. unfold fs1 in E. apply map_filter_lookup_None in E as [E|E]; [congruence|]. specialize (E c E'). cbn in E.
      apply not_true_iff_false, negb_false_iff, andb_true_iff in E as [E _]. apply orb_true_iff in E. by rewrite !txt_in_spec in E. }
  assert (forall p, (fs2 !! p = fs1 !! p) \/ fs2 !! p = None /\ exists r, p = chars "bin" ++ [slash] ++ r) as H2.
  { intros p. destruct (fs2 !! p) as [c|] eqn:E.
    - left. unfold fs2 in E. apply map_filter_lookup_Some in E as [-> _]. done.
    - destruct (fs1 !! p) as [c|] eqn:E'; [|by left]. right. split; [done|]. unfold fs2 in E. apply map_filter_lookup_None in E as [E|E]; [congruence|]. specialize (E c E'). cbn in E.
      apply not_false_iff_true, under_spec in E. exact E. }
  assert (forall p, (fs3 !! p = fs2 !! p) \/ fs3 !! p = None /\ custom_checker = true /\ (p = chars "check/checker" \/ p = chars "cor/correttore")) as H3.
  { intros p. unfold fs3. destruct custom_checker; [|by left]. destruct (decide (p = chars "check/checker")) as [->|Hn1]; [right; rewrite lookup_delete; split_and!; [done|done|by left]|].
    rewrite lookup_delete_ne by done. destruct (decide (p = chars "cor/correttore")) as [->|Hn2]; [right; rewrite lookup_delete; split_and!; [done|done|by right]|]. rewrite lookup_delete_ne by done. by left. }
  assert (forall p, p = chars "gen/GEN" \/ p = chars "gen/cases.gen" \/ p = chars "task.yaml" \/ p = chars "task.yaml.orig" -> fs3 !! p = fs !! p) as Hkeep.
  { intros p Hp. assert (txt_in (chars "input") p = false /\ txt_in (chars "output") p = false /\ under (chars "bin") p = false /\ p <> chars "check/checker" /\ p <> chars "cor/correttore") as (Ha & Hb & Hc & Hd & He).
    { destruct Hp as [->|[->|[->| ->]]]; split_and!; done. }
    destruct (H3 p) as [->|(_ & _ & [?|?])]; [|done..]. destruct (H2 p) as [->|[_ Hu]]; [|apply under_spec in Hu; congruence].
    destruct (H1 p) as [->|[_ [Hu|Hu]]]; [done|apply txt_in_spec in Hu; congruence..]. }
  intros Hne. destruct (decide (remove_generated (chars "task.yaml") (chars "task.yaml.orig") fs4 !! path = fs4 !! path)) as [Heq|Hne1].
  2:{ apply remove_generated_changed in Hne1 as (-> & H4 & H5 & ->). split; [done|]. do 4 right.
      assert (forall p, p = chars "task.yaml" \/ p = chars "task.yaml.orig" -> fs4 !! p = fs3 !! p) as H34.
      { intros p Hp. destruct (decide (fs4 !! p = fs3 !! p)) as [?|Hn]; [done|]. unfold fs4 in Hn. apply remove_generated_changed in Hn as (-> & _). by destruct Hp. }
      rewrite H34, Hkeep in H4, H5 by tauto. done. }
  rewrite Heq in Hne |- *. destruct (decide (fs4 !! path = fs3 !! path)) as [Heq1|Hne1].
  2:{ unfold fs4 in Hne1 |- *. apply remove_generated_changed in Hne1 as (-> & H4 & H5 & ->). split; [done|]. do 3 right. left. rewrite Hkeep in H4, H5 by tauto. done. }
  rewrite Heq1 in Hne |- *. destruct (H3 path) as [E3|(E3 & Hc & Hp)]; [|rewrite E3; split; [done|]; do 2 right; by left].
  rewrite E3 in Hne |- *. destruct (H2 path) as [E2|(E2 & Hp)]; [|rewrite E2; split; [done|]; right; by left].
  rewrite E2 in Hne |- *. destruct (H1 path) as [E1|(E1 & Hp)]; [done|]. rewrite E1. split; [done|by left].
Qed.
Lemma used_by_static_spec tcs path : used_by_static tcs path = true <-> exists k t, tcs !! k = Some t /\ static_match path t = true.
Proof.
  unfold used_by_static. rewrite existsb_exists. split.
  - intros (t & Hin & H). apply elem_of_list_In, elem_of_list_fmap in Hin as ([k t'] & -> & Hin). apply elem_of_map_to_list in Hin. by exists k, t'.
  - intros (k & t & Ht & H). exists t. split; [|done]. apply elem_of_list_In, elem_of_list_fmap. exists (k, t). split; [done|]. by apply elem_of_map_to_list.
Qed.
(** A static input in input/ is kept; a static output in output/ is if the input is generated *)
Lemma clean_kept custom_checker tcs fs path dir : dir = chars "input" \/ dir = chars "output" -> TxtIn dir path -> used_by_static tcs path = true -> clean_task custom_checker tcs fs !! path = fs !! path.
Proof.
  intros Hdir Htxt Hused. destruct (decide (clean_task custom_checker tcs fs !! path = fs !! path)) as [?|Hne]; [done|]. exfalso.
  apply txt_in_spec in Htxt. unfold clean_task in Hne.
  set (fs1 := filter (fun '(p, _) => negb ((txt_in (chars "input") p || txt_in (chars "output") p) && negb (used_by_static tcs p)) = true) fs) in Hne.
  assert (fs1 !! path = fs !! path) as H1.
  { destruct (fs !! path) as [c|] eqn:E.
    - apply map_filter_lookup_Some. split; [done|]. cbn. rewrite Hused. by rewrite andb_false_r.
    - apply map_filter_lookup_None. by left. }
  assert (under (chars "bin") path = false /\ path <> chars "check/checker" /\ path <> chars "cor/correttore" /\ path <> chars "gen/GEN" /\ path <> chars "task.yaml") as (Ha & Hb & Hc & Hd & He).
  { apply txt_in_spec in Htxt as (name & -> & _). destruct Hdir as [-> | ->]; done. }
  apply Hne. clear Hne. unfold remove_generated at 1.
  assert (forall g f fs', path <> g -> remove_generated g f fs' !! path = fs' !! path) as Hrem.
  { intros g f fs' Hg. destruct (decide (remove_generated g f fs' !! path = fs' !! path)) as [?|Hn]; [done|]. by apply remove_generated_changed in Hn as (? & _). }
  fold (remove_generated (chars "task.yaml") (chars "task.yaml.orig") (remove_generated (chars "gen/GEN") (chars "gen/cases.gen") (if custom_checker then delete (chars "check/checker") (delete (chars "cor/correttore") (filter (fun '(p, _) => under (chars "bin") p = false) fs1)) else filter (fun '(p, _) => under (chars "bin") p = false) fs1))).
  rewrite !Hrem by done. rewrite <- H1.
  assert (filter (fun '(p, _) => under (chars "bin") p = false) fs1 !! path = fs1 !! path) as H2.
  { destruct (fs1 !! path) as [c|] eqn:E; [by apply map_filter_lookup_Some|apply map_filter_lookup_None; by left]. }
  destruct custom_checker; [rewrite !lookup_delete_ne by done|]; done.
Qed.
Theorem C46_static_inputs_kept custom_checker tcs fs k t path : tcs !! k = Some t -> te_input t = StaticIn path -> TxtIn (chars "input") path -> clean_task custom_checker tcs fs !! path = fs !! path.
Proof.
  intros Ht Hi Htxt. apply (clean_kept _ _ _ _ (chars "input")); [by left|done|]. apply used_by_static_spec. exists k, t. split; [done|]. unfold static_match. rewrite Hi. by apply bool_decide_eq_true.
Qed.
Theorem C46_static_outputs_kept_partial custom_checker tcs fs k t path : tcs !! k = Some t -> te_output t = StaticOut path -> TxtIn (chars "output") path ->
  (forall p, te_input t <> StaticIn p) -> clean_task custom_checker tcs fs !! path = fs !! path.
Proof.
  intros Ht Ho Htxt Hi. apply (clean_kept _ _ _ _ (chars "output")); [by right|done|]. apply used_by_static_spec. exists k, t. split; [done|]. unfold static_match. rewrite Ho. destruct (te_input t) as [p|]; [by destruct (Hi p)|]. by apply bool_decide_eq_true.
Qed.
(** A task whose inputs and outputs are files: cleaning deletes the outputs *)
Definition static_output (k : nat) : output_gen := StaticOut (chars "output/output" ++ chars (pretty k) ++ chars ".txt").
Definition static_files : files := list_to_map [(chars "input/input0.txt", chars "1 2"); (chars "output/output0.txt", chars "3"); (chars "task.yaml", chars "title: sum")].
Theorem C46_static_outputs_refuted : exists es sts tcs,
  es = static_inputs (fun n => bool_decide (is_Some (static_files !! input_path n))) example_validator static_output 10 /\ assemble es = Some (sts, tcs) /\
  (exists t, tcs !! 0 = Some t /\ te_input t = StaticIn (chars "input/input0.txt") /\ te_output t = StaticOut (chars "output/output0.txt")) /\
  clean_task false tcs static_files !! chars "input/input0.txt" = Some (chars "1 2") /\ clean_task false tcs static_files !! chars "output/output0.txt" = None.
Proof.
  eexists _, _, _. split; [done|]. split; [by vm_compute|]. split; [eexists; split; [by vm_compute|done]|]. by vm_compute.
Qed.
(** A load that fails can have written gen/GEN: the dependencies need a task.yaml.orig, and this is seen after *)
Theorem C46_failed_load_writes : exists cases fs fs',
  parse_task (fun _ _ => Some None) (fun _ => true) (fun _ => true) (fun _ _ => cases) (fun _ _ => None) (fun _ => generated_header) (fun _ => []) (fun _ _ _ => []) false (fun _ => [0]) 10 fs = (fs', None) /\
  fs !! chars "gen/GEN" = None /\ is_Some (fs' !! chars "gen/GEN").
Proof.
  exists (Some [ESubtask (SubtaskEntry 0 None (chars "100") false AssumeValid [0])]), (list_to_map [(chars "task.yaml", []); (chars "gen/cases.gen", [])]). eexists.
  split; [by vm_compute|]. split; [by vm_compute|by eexists].
Qed.

Print Assumptions C42_closure.
Print Assumptions C42_result.
Print Assumptions C42_order.
Print Assumptions C42_gen.
Print Assumptions C42_gen_total.
Print Assumptions C42_example.
Print Assumptions C46_load.
Print Assumptions C46_dry_run.
Print Assumptions C46_clean.
Print Assumptions C46_static_inputs_kept.
Print Assumptions C46_static_outputs_kept_partial.
Print Assumptions C46_static_outputs_refuted.
Print Assumptions C46_failed_load_writes.
