(** * SettingsProps: property C96, the settings of a task are those that are written in its files *)
From Coq Require Import NArith Ascii String.
From stdpp Require Import base list pretty.
From Verif Require Import SettingsModel SettingsSpec SettingsProofs SettingsProofs2.
Local Open Scope string_scope.
Local Open Scope list_scope.

(** C96. What is read from task.yaml and from task.yaml.orig, key by key: a file is accepted exactly if there are such settings. *)
Theorem C96_yaml : forall y d s, read_yaml y d = Some s <-> yaml_means y d s.
Proof. apply read_yaml_spec. Qed.
Theorem C96_orig : forall y dir d s, read_orig y dir d = Some s <-> orig_means y dir d s.
Proof. apply read_orig_spec. Qed.
Print Assumptions C96_yaml.
Print Assumptions C96_orig.

(** C96. The task that is loaded has these settings: the empty name of a file is the standard input (output); without a score
    type it is the sum if there is exactly one subtask, and the minimum otherwise; if there is a manager it is a communication
    task, of one process that uses the pipes unless it is said otherwise, and otherwise what is said of the processes is ignored. *)
Definition task_means (s : settings) (f : found) (t : task_settings) : Prop :=
  t_name t = s_name s /\ t_title t = s_title s /\ t_time t = s_time s /\ t_memory t = s_memory s /\ t_precision t = s_precision s /\
  t_difficulty t = s_difficulty s /\ t_syllabus t = s_syllabus s /\
  (t_infile t = None <-> s_infile s = "") /\ (forall p, t_infile t = Some p -> p = s_infile s) /\
  (t_outfile t = None <-> s_outfile s = "") /\ (forall p, t_outfile t = Some p -> p = s_outfile s) /\
  (forall k, s_score_type s = Some k -> t_aggregator t = k) /\
  (s_score_type s = None -> t_aggregator t = KSum <-> length (fd_subtasks f) = 1) /\
  (fd_manager f = false -> t_kind t = KindBatch) /\
  (fd_manager f = true -> exists n i, t_kind t = KindCommunication n i /\ (s_processes s = Some n \/ s_processes s = None /\ n = 1%N) /\
     match i with IoStd => s_user_io s = Some "std_io" | IoFifo => s_user_io s = None \/ s_user_io s = Some "fifo_io" end).
Lemma task_of_means s k f : kind_of s f = Some k -> task_means s f (task_of s k f).
Proof.
  intros Hk. unfold task_means, task_of, map_file. cbn [t_name t_title t_time t_memory t_precision t_difficulty t_syllabus t_infile t_outfile t_aggregator t_kind].
  do 7 (split; [done|]). split; [by case_decide|]. split; [intros p; case_decide; [done|by intros [= <-]]|].
  split; [by case_decide|]. split; [intros p; case_decide; [done|by intros [= <-]]|]. unfold aggregator_of.
  split; [by intros k' ->|]. split; [intros ->; by case_decide|]. unfold kind_of in Hk.
  split; intros Hm; rewrite Hm in Hk; [by injection Hk as <-|]. apply bind_Some in Hk as (i & Hi & [= <-]).
  exists (default 1%N (s_processes s)), i. split; [done|]. split; [destruct (s_processes s); [by left|by right]|].
  destruct (s_user_io s) as [t|]; [|injection Hi as <-; by left]. case_decide; [by simplify_eq|]. case_decide; [|done]. simplify_eq. by right.
Qed.
Theorem C96_task : forall y dir w fs f fs' t, load y dir w fs f = (fs', LTask t) ->
  exists s, task_means s f t /\
    match yf_orig fs with
    | Some d => exists n, dir = Some n /\ orig_means y n d s
    | None => fd_dependencies f = false /\ exists d, yf_yaml fs = Some d /\ yaml_means y d s
    end.
Proof.
  intros y dir w fs f fs' t. unfold load. destruct (yf_orig fs) as [d|].
  - destruct dir as [n|]; [|by destruct (read_orig y "" d)]. destruct (read_orig y n d) as [s|] eqn:Hr; [|done].
    destruct (kind_of s f) as [k|] eqn:Hk; [|done]. intros [= _ <-]. exists s. split; [by apply task_of_means|]. exists n. split; [done|]. by apply C96_orig.
  - destruct (yf_yaml fs) as [d|]; [|done]. destruct (read_yaml y d) as [s|] eqn:Hr; [|done].
    destruct (kind_of s f) as [k|] eqn:Hk; [|done]. destruct (fd_dependencies f); [done|]. intros [= _ <-]. exists s. split; [by apply task_of_means|]. split; [done|].
    exists d. split; [done|]. by apply C96_yaml.
Qed.
Print Assumptions C96_task.
(** C96. task.yaml.orig is never written, and task.yaml only if there is a task.yaml.orig that is accepted *)
Theorem C96_written : forall y dir w fs f fs' r, load y dir w fs f = (fs', r) ->
  yf_orig fs' = yf_orig fs /\ (fs' <> fs -> w = true /\ exists t, r = LTask t /\ is_Some (yf_orig fs)).
Proof.
  intros y dir w fs f fs' r. unfold load. destruct (yf_orig fs) as [d|] eqn:Ho.
  - destruct dir as [n|]; [|intros [= <- _]; done]. destruct (read_orig y n d) as [s|]; [|intros [= <- _]; done].
    destruct (kind_of s f) as [k|]; [|intros [= <- _]; done]. destruct w; intros [= <- <-]; [|done]. split; [done|]. intros _. split; [done|]. eexists. split; [done|]. by eexists.
  - destruct (yf_yaml fs) as [d|]; [|intros [= <- _]; done]. destruct (read_yaml y d) as [s|]; [|intros [= <- _]; done].
    destruct (kind_of s f) as [k|]; intros [= <- _]; done.
Qed.
Print Assumptions C96_written.

(** C96. The task.yaml that is written has the same settings: if task.yaml.orig is removed the task does not change (for a task
    without dependencies between subtasks, whose numbers are read back as they are). *)
Lemma orig_in_range y dir d s : orig_means y dir d s -> in_range s.
Proof.
  intros M. destruct (om_precision _ _ _ _ M) as [[_ H]|(n & _ & t & _ & _ & H)].
  all: unfold in_range, u64, u8; split; [first [by rewrite H|exact H]|]; split;
    [intros m Hm; destruct (om_memory _ _ _ _ M) as (x & Hx & n0 & _ & t0 & _ & _ & Hl); rewrite Hx in Hm; by injection Hm as <-|];
    split; [intros m Hm; pose proof (om_difficulty _ _ _ _ M) as Hd; rewrite Hm in Hd; by destruct Hd as (n0 & _ & _ & t0 & _ & _ & Hl)|];
    split; [intros m Hm; pose proof (om_syllabus _ _ _ _ M) as Hd; rewrite Hm in Hd; by destruct Hd as (n0 & _ & _ & t0 & _ & _ & Hl)|];
    intros m Hm; pose proof (om_processes _ _ _ _ M) as Hd; rewrite Hm in Hd; by destruct Hd as (n0 & _ & _ & t0 & _ & _ & Hl).
Qed.
Theorem C96_reload : forall y dir fs f fs' t, syntax_ok y -> is_Some (yf_orig fs) -> load y dir true fs f = (fs', LTask t) ->
  (forall x, t_time t = Some x -> survives y x) -> Forall (fun st => survives y st.1) (fd_subtasks f) -> fd_dependencies f = false ->
  forall dir' w, (load y dir' w (YamlFiles None (yf_yaml fs')) f).2 = LTask t.
Proof.
  intros y dir fs f fs' t Hy [d Ho] Hl Ht Hst Hdep dir' w. unfold load in Hl. rewrite Ho in Hl.
  destruct dir as [n|]; [|by destruct (read_orig y "" d)]. destruct (read_orig y n d) as [s|] eqn:Hr; [|done].
  destruct (kind_of s f) as [k|] eqn:Hk; [|done]. injection Hl as <- <-. unfold load. cbn [yf_orig yf_yaml].
  rewrite rt_settings; [|done| |].
  - assert (Hk' : kind_of (finish s f) f = kind_of s f) by done. rewrite Hk', Hk, Hdep. done.
  - apply C96_orig, orig_in_range in Hr. exact Hr.
  - split; [exact Ht|]. intros l [= <-]. unfold parameters_of. apply Forall_map. eapply Forall_impl; [exact Hst|done].
Qed.
Print Assumptions C96_reload.

(** C96. Keys that are not known are ignored (a key that is misspelled is not an error), *)
Lemma bind_ext {A B} (o o' : option A) (g g' : A -> option B) : o = o' -> (forall x, g x = g' x) -> o ≫= g = o' ≫= g'.
Proof. intros -> H. destruct o'; [apply H|done]. Qed.
Definition alias_groups : list (list string) :=
  [["name"; "nome_breve"]; ["title"; "nome"]; ["score_type"]; ["score_type_parameters"]; ["score_precision"]; ["primary_language"];
   ["time_limit"; "timeout"]; ["memory_limit"; "memlimit"]; ["output_only"]; ["infile"]; ["outfile"]; ["difficulty"]; ["syllabuslevel"];
   ["num_processes"]; ["user_io"]; ["score_mode"]; ["token_mode"]; ["public_testcases"]; ["feedback_level"]].
Ltac in_groups H := apply H; apply (bool_decide_unpack _); vm_compute; exact Logic.I.
Ltac ext_fields H := unfold required, optional, defaulted; repeat (apply bind_ext; [apply bind_ext; [in_groups H|intros ?; reflexivity]|intros ?]); reflexivity.
Lemma read_yaml_ext y d d' : (forall names, names ∈ alias_groups -> field names d = field names d') -> read_yaml y d = read_yaml y d'.
Proof. intros H. unfold read_yaml. ext_fields H. Qed.
Lemma read_orig_ext y dir d d' : (forall names, names ∈ [["name"]; ["title"]; ["time_limit"]; ["memory_limit"]] ++ alias_groups -> field names d = field names d') ->
  read_orig y dir d = read_orig y dir d'.
Proof. intros H. unfold read_orig. ext_fields H. Qed.
Theorem C96_unknown : forall y dir a k n b, k ∉ known_keys ->
  read_yaml y (a ++ (k, n) :: b) = read_yaml y (a ++ b) /\ read_orig y dir (a ++ (k, n) :: b) = read_orig y dir (a ++ b).
Proof.
  intros y dir a k n b Hk.
  assert (HF : forall names, Forall (fun x => x ∈ known_keys) names -> field names (a ++ (k, n) :: b) = field names (a ++ b)).
  { intros names Hn. apply field_app_ignored. intros Hin. rewrite Forall_forall in Hn. by apply Hk, Hn. }
  assert (HK : Forall (Forall (fun x => x ∈ known_keys)) ([["name"]; ["title"]; ["time_limit"]; ["memory_limit"]] ++ alias_groups)).
  { apply (bool_decide_unpack _); vm_compute; exact Logic.I. }
  rewrite Forall_forall in HK.
  split; [apply read_yaml_ext|apply read_orig_ext]; intros names Hn; apply HF, HK; [|done]. apply elem_of_app. by right.
Qed.
Print Assumptions C96_unknown.
(** and in task.yaml the old names of the keys mean the same as the new ones. *)
Lemma field_rename g names (d : doc) : (forall k, g k ∈ names <-> k ∈ names) -> field names (prod_map g id <$> d) = field names d.
Proof.
  intros Hg. unfold field.
  assert (HE : (filter (fun x : string * node => x.1 ∈ names) (prod_map g id <$> d)).*2 = (filter (fun x : string * node => x.1 ∈ names) d).*2).
  { induction d as [|[k n] d IH]; [done|]. cbn [fmap list_fmap prod_map]. rewrite !filter_cons. cbn [fst].
    destruct (decide (g k ∈ names)) as [H1|H1]; destruct (decide (k ∈ names)) as [H2|H2]; [cbn; by rewrite IH| | |done]; exfalso; by rewrite Hg in H1. }
  destruct (filter _ (prod_map g id <$> d)) as [|[k1 n1] [|x1 l1]], (filter _ d) as [|[k2 n2] [|x2 l2]]; cbn in HE; try done; by simplify_eq.
Qed.
Theorem C96_aliases : forall y d, read_yaml y (prod_map canonical id <$> d) = read_yaml y d.
Proof.
  intros y d. apply read_yaml_ext. intros names Hn. apply field_rename. intros k.
  assert (HC : forall k' k'', Forall (fun ns => bool_decide (k' ∈ ns) = bool_decide (k'' ∈ ns)) alias_groups -> k' ∈ names <-> k'' ∈ names).
  { intros k' k'' HF. rewrite Forall_forall in HF. specialize (HF names Hn). clear Hn. split; intros Hx; [apply (bool_decide_eq_true_1 _); rewrite <- HF|apply (bool_decide_eq_true_1 _); rewrite HF]; by apply bool_decide_eq_true_2. }
  unfold canonical.
  destruct (decide (k = "nome_breve")) as [->|_]; [|destruct (decide (k = "nome")) as [->|_]; [|destruct (decide (k = "timeout")) as [->|_];
    [|destruct (decide (k = "memlimit")) as [->|_]; [|done]]]]; apply HC; apply (bool_decide_unpack _); vm_compute; exact Logic.I.
Qed.
Print Assumptions C96_aliases.

(** C96. The testcases of a subtask are written in such a way that they can be read back: *)
Lemma zeros n t : decimal 0 (String.append (String.concat "" (replicate n "0")) t) = decimal 0 t.
Proof.
  induction n as [|n IH]; [done|]. destruct n as [|n]; [done|]. exact IH.
Qed.
Lemma code_value tc : decimal 0 (code tc) = Some (N.of_nat tc).
Proof. unfold code. rewrite zeros. change (pretty tc) with (pretty (N.of_nat tc)). apply decimal_pretty. Qed.
Lemma no_bar acc t x a b : decimal acc t = Some x -> t <> String.append a (String "|" b).
Proof.
  revert acc t. induction a as [|c a IH]; intros acc t Hd ->; cbn in Hd.
  - done.
  - apply bind_Some in Hd as (v & _ & Hd). by eapply IH.
Qed.
Lemma bar_split acc acc' t t' x x' r r' : decimal acc t = Some x -> decimal acc' t' = Some x' ->
  String.append t (String "|" r) = String.append t' (String "|" r') -> t = t' /\ r = r'.
Proof.
  revert acc acc' t'. induction t as [|c t IH]; intros acc acc' [|c' t'] H1 H2 HE; cbn in *.
  - by simplify_eq.
  - injection HE as <- HE. done.
  - injection HE as -> HE. done.
  - injection HE as <- HE. apply bind_Some in H1 as (? & _ & H1). apply bind_Some in H2 as (? & _ & H2). destruct (IH _ _ _ H1 H2 HE) as [-> ->]. done.
Qed.
Lemma code_inj a b : code a = code b -> a = b.
Proof. intros H. pose proof (code_value a) as Ha. rewrite H, code_value in Ha. injection Ha. lia. Qed.
Lemma string_app_length a b : String.length (String.append a b) = String.length a + String.length b.
Proof. induction a as [|c a IH]; [done|]. change (S (String.length (String.append a b)) = S (String.length a + String.length b)). by rewrite IH. Qed.
Lemma zeros_length n : String.length (String.concat "" (replicate n "0")) = n.
Proof. induction n as [|n IH]; [done|]. destruct n as [|n]; [done|]. change (S (String.length (String.concat "" (replicate (S n) "0"))) = S (S n)). by rewrite IH. Qed.
Lemma code_length a : 3 <= String.length (code a).
Proof. unfold code. rewrite string_app_length, zeros_length. lia. Qed.
(** each has at least three digits, and is the number of the testcase; the texts of two lists are different *)
Theorem C96_code : forall tc, 3 <= String.length (code tc) /\ decimal 0 (code tc) = Some (N.of_nat tc).
Proof. intros tc. split; [apply code_length|apply code_value]. Qed.
Theorem C96_codes : forall l l', codes l = codes l' -> l = l'.
Proof.
  assert (H0 : forall a l, codes (a :: l) <> "").
  { intros a l H. assert (3 <= String.length (codes (a :: l))) as Hl; [|rewrite H in Hl; cbn in Hl; lia].
    pose proof (code_length a). unfold codes. cbn [map String.concat]. destruct (map code l); [done|]. rewrite string_app_length. lia. }
  assert (H1 : forall a b l, codes (a :: b :: l) = String.append (code a) (String "|" (codes (b :: l)))) by done.
  induction l as [|a l IH]; intros [|a' l'] H; [done|by destruct (H0 a' l')|by destruct (H0 a l)|].
  destruct l as [|b l], l' as [|b' l'].
  - by apply code_inj in H as ->.
  - rewrite H1 in H. by apply (no_bar 0 (code a) (N.of_nat a)) in H; [|apply code_value].
  - rewrite H1 in H. symmetry in H. by apply (no_bar 0 (code a') (N.of_nat a')) in H; [|apply code_value].
  - rewrite !H1 in H. eapply bar_split in H as [Hc Hr]; [|apply code_value|apply code_value]. apply code_inj in Hc as ->. f_equal. by apply IH.
Qed.
Lemma bars_no acc t x : decimal acc t = Some x -> between_bars t = [t].
Proof.
  revert acc. induction t as [|c t IH]; intros acc H; [done|]. cbn in H. apply bind_Some in H as (v & Hv & H). cbn [between_bars].
  rewrite decide_False; [by rewrite (IH _ H)|]. intros ->. by vm_compute in Hv.
Qed.
Lemma bars_app acc t x r : decimal acc t = Some x -> between_bars (String.append t (String "|" r)) = t :: between_bars r.
Proof.
  revert acc. induction t as [|c t IH]; intros acc H; [done|]. cbn in H. apply bind_Some in H as (v & Hv & H).
  change (String.append (String c t) (String "|" r)) with (String c (String.append t (String "|" r))). cbn [between_bars].
  rewrite decide_False; [by rewrite (IH _ H)|]. intros ->. by vm_compute in Hv.
Qed.
Theorem C96_listed : forall l, lists (codes l) l.
Proof.
  intros [|a l]; [done|]. unfold lists. revert a. induction l as [|b l IH]; intros a.
  - unfold codes. cbn [map String.concat]. rewrite (bars_no 0 _ _ (code_value a)). constructor; [|constructor]. split; [apply code_value|apply code_length].
  - change (codes (a :: b :: l)) with (String.append (code a) (String "|" (codes (b :: l)))). rewrite (bars_app 0 _ _ _ (code_value a)).
    constructor; [split; [apply code_value|apply code_length]|apply IH].
Qed.
Print Assumptions C96_listed.
(** In the task.yaml that is written there is, for each subtask, its maximum score and its testcases *)
Theorem C96_parameters : forall y dir fs f fs' t, syntax_ok y -> is_Some (yf_orig fs) -> load y dir true fs f = (fs', LTask t) ->
  (forall x, t_time t = Some x -> survives y x) -> Forall (fun st => survives y st.1) (fd_subtasks f) ->
  exists d s l, yf_yaml fs' = Some d /\ read_yaml y d = Some s /\ s_parameters s = Some l /\
    Forall2 (fun p st => p.1 = st.1 /\ lists p.2 st.2) l (fd_subtasks f).
Proof.
  intros y dir fs f fs' t Hy [d Ho] Hl Ht Hst. unfold load in Hl. rewrite Ho in Hl.
  destruct dir as [n|]; [|by destruct (read_orig y "" d)]. destruct (read_orig y n d) as [s|] eqn:Hr; [|done].
  destruct (kind_of s f) as [k|] eqn:Hk; [|done]. injection Hl as <- <-. cbn [yf_yaml].
  exists (write_yaml y (finish s f)), (finish s f), (parameters_of f). split; [done|]. split.
  - apply rt_settings; [done|apply C96_orig, orig_in_range in Hr; exact Hr|].
    split; [exact Ht|]. intros l [= <-]. unfold parameters_of. apply Forall_map. eapply Forall_impl; [exact Hst|done].
  - split; [done|]. unfold parameters_of. clear. induction (fd_subtasks f) as [|[x l] sts IH]; [constructor|]. cbn. constructor; [|exact IH]. split; [done|apply C96_listed].
Qed.
Print Assumptions C96_parameters.
Print Assumptions C96_code.
Print Assumptions C96_codes.

(** ** What is false *)
(** A syntax for the examples: decimal numbers, and the time limit *)
Definition one_half : f64 := S754_finite false 4503599627370496 (-53).
Definition example_syntax : yaml_syntax :=
  YamlSyntax (fun t => if decide (t = "") then None else decimal 0 t) (fun t => if decide (t = "0.5") then Some one_half else None)
    (fun _ => "0.5") (fun t => negb (null_text t)).
Theorem C96_syntax_example : syntax_ok example_syntax /\ survives example_syntax one_half.
Proof.
  split; [split|].
  - intros n. cbn. rewrite decide_False; [apply decimal_pretty|]. intros H. pose proof (pretty_not_null n) as Hn. rewrite H in Hn. by vm_compute in Hn.
  - intros t H. cbn. unfold null_text. by rewrite bool_decide_eq_true_2.
  - split; [done|]. apply (bool_decide_unpack _); vm_compute; exact Logic.I.
Qed.
Definition minimal : doc := [("title", YScalar "Easy sum" true); ("time_limit", YScalar "0.5" true); ("memory_limit", YScalar "256" true)].
Definition two_subtasks : found := Found [(one_half, [0; 1]); (one_half, [2; 1000])] false false.
(** A task whose subtasks depend on each other cannot be loaded from the task.yaml that was written for it *)
Theorem C96_dependencies_refuted : exists f fs' t, load example_syntax (Some "sum") true (YamlFiles (Some minimal) None) f = (fs', LTask t) /\
  (load example_syntax (Some "sum") true (YamlFiles None (yf_yaml fs')) f).2 = LErr.
Proof. exists (Found [(one_half, [0; 1])] true false). do 2 eexists. split; [by vm_compute|by vm_compute]. Qed.
Print Assumptions C96_dependencies_refuted.
(** The same content means something else in the two files: without infile and outfile the solutions read the standard input
    for task.yaml.orig, and input.txt for task.yaml. *)
Theorem C96_same_content_refuted : exists d f t t', (load example_syntax (Some "sum") false (YamlFiles (Some d) None) f).2 = LTask t /\
  (load example_syntax (Some "sum") false (YamlFiles None (Some d)) f).2 = LTask t' /\ t_infile t = None /\ t_infile t' = Some "input.txt".
Proof. exists (("name", YScalar "sum" true) :: minimal), two_subtasks. do 2 eexists. split; [by vm_compute|]. split; [by vm_compute|done]. Qed.
Print Assumptions C96_same_content_refuted.
(** The name that is written in task.yaml.orig is not the name of the task *)
Theorem C96_name_refuted : exists d f t, must d ["name"] text_of "sum" /\ (load example_syntax (Some "easy") false (YamlFiles (Some d) None) f).2 = LTask t /\ t_name t = "easy".
Proof.
  exists (("name", YScalar "sum" true) :: minimal), two_subtasks. eexists. split.
  - exists (YScalar "sum" true). split; [by apply field_says|by eexists].
  - split; [by vm_compute|done].
Qed.
Print Assumptions C96_name_refuted.
(** The task is in a directory that was named by .. or /: the program panics *)
Theorem C96_dotdot_refuted : exists d f, (load example_syntax None false (YamlFiles (Some d) None) f).2 = LPanic.
Proof. exists minimal, two_subtasks. by vm_compute. Qed.
Print Assumptions C96_dotdot_refuted.
(** An example of what is written, and of a communication task *)
Example C96_example :
  load example_syntax (Some "sum") true (YamlFiles (Some (minimal ++ [("num_processes", YScalar "2" true); ("user_io", YScalar "std_io" false)])) None) (Found [(one_half, [0; 1]); (one_half, [2; 1000])] false true)
  = (YamlFiles (Some (minimal ++ [("num_processes", YScalar "2" true); ("user_io", YScalar "std_io" false)]))
       (Some [("name", YScalar "sum" true); ("title", YScalar "Easy sum" true); ("score_type", YScalar "GroupMin" true);
              ("score_type_parameters", YSeq [YSeq [YScalar "0.5" true; YScalar "000|001" true]; YSeq [YScalar "0.5" true; YScalar "002|1000" true]]);
              ("score_precision", YScalar "0" true); ("primary_language", YScalar "en" true); ("time_limit", YScalar "0.5" true); ("memory_limit", YScalar "256" true);
              ("output_only", YScalar "false" true); ("infile", YScalar "" false); ("outfile", YScalar "" false); ("difficulty", YScalar "null" true);
              ("syllabuslevel", YScalar "null" true); ("num_processes", YScalar "2" true); ("user_io", YScalar "std_io" true); ("score_mode", YScalar "max_subtask" true);
              ("token_mode", YScalar "disabled" true); ("public_testcases", YScalar "all" true); ("feedback_level", YScalar "full" true)]),
     LTask (TaskSettings "sum" "Easy sum" (Some one_half) (Some 256%N) None None KMin 0 None None (KindCommunication 2 IoStd))).
Proof. by vm_compute. Qed.
