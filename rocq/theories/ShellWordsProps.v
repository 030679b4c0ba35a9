(** * ShellWordsProps: C106: the arguments of a generator, as a shell reads them *)
From Verif Require Import ShellWordsSpec ShellWordsProofs CasesSpec TaskSpec CasesProofs CasesProofs2 CasesProofs3 CasesProofs4 FormatProofs FormatProofs2 FormatProofs3 FormatProofs4 FormatProps TaskProps CasesProps GenBackSpec GenBackProofs GenBackProofs2 GenBackProofs3 GenBackProps.

(** ** The words of a line *)
Theorem C106_words t ws : shell_words t = Some ws <-> ShellText t ws.
Proof. apply shell_text. Qed.
(** A text is not split only when it has a quote that is not closed: not without quotes *)
Lemma words_no_quotes t : Forall (fun c => c <> 39%N /\ c <> 34%N) t -> forall st word, st <> WSingle -> st <> WDouble -> st <> WDoubleBackslash -> is_Some (words_from st word t).
Proof.
  induction 1 as [|c t [H1 H2] _ IH]; intros st word S1 S2 S3; (destruct st; try done); cbn [words_from]; try (by eexists); unfold squote, dquote, bslash, lf, hash.
  all: repeat (rewrite (decide_False (P := c = 39%N)) by done); repeat (rewrite (decide_False (P := c = 34%N)) by done); repeat case_decide; try (by apply IH); destruct (is_delim c); try (by apply IH).
  - destruct (IH WDelimiter []) as [ws ->]; [done..|]. by eexists.
Qed.
Theorem C106_no_quotes t : Forall (fun c => c <> 39%N /\ c <> 34%N) t -> exists ws, ShellText t ws.
Proof. intros H. destruct (words_no_quotes t H WDelimiter []) as [ws Hw]; [done..|]. exists ws. by apply shell_text. Qed.
(** Any arguments can be written: in single quotes ... *)
Theorem C106_quoted ws : ShellText (spaced (map single_quoted ws)) ws.
Proof. apply spaced_text. induction ws as [|w ws IH]; constructor; [apply quoted_written|done]. Qed.
(** ... and as they are if they have no delimiters and no special characters *)
Theorem C106_simple ws : Forall Simple ws -> ShellText (spaced ws) ws.
Proof. intros H. apply spaced_text. induction H as [|w ws Hw _ IH]; constructor; [by apply simple_written|done]. Qed.
(** The characters of the words are those of the text *)
Theorem C106_characters t ws : ShellText t ws -> Forall (Forall (fun c => c ∈ t)) ws.
Proof. intros H. apply (shell_inside (fun c => c ∈ t) t); [done|]. by apply Forall_forall. Qed.
Lemma words_newline line args : no_newline line -> shell_words line = Some args -> Forall no_newline args.
Proof. intros Hn H. apply shell_text in H. by apply (shell_inside (fun c => c <> 10%N /\ c <> 13%N) line). Qed.

(** ** gen/cases.gen *)
Section cases.
  Context (exists_file known : text -> bool) (get_output : nat -> output_gen) (file_name : text).
  Notation read := (read_cases exists_file known get_output file_name).
  (** Every line of a generator is a testcase, whose arguments are the words of the line *)
  Theorem C106_lines content es sts tcs ts ls before l after line : read content = Some es -> assemble es = Some (sts, tcs) ->
    Lines content ts -> Forall2 CasesLine ts ls -> ls = before ++ l :: after -> (exists n, l = CRun n line) \/ l = CTestcase line ->
    exists path args, ShellText line args /\ tcs !! testcases_in before = Some (TestcaseEntry (testcases_in before) (CustomIn path args) (get_output (testcases_in before))).
  Proof.
    intros H Ha Ht Hf Hls Hl. destruct (C45_task _ _ _ _ _ _ _ H) as (ts' & ls' & sts' & tcs' & Ht' & Hf' & [Hok _] & Ha' & HT). rewrite Ha in Ha'. injection Ha' as <- <-.
    assert (ls' = ls) as ->. { assert (parse_cases_lines content = Some ls) as H1 by (apply C45_file; by exists ts). assert (parse_cases_lines content = Some ls') as H2 by (apply C45_file; by exists ts'). congruence. }
    assert (exists path args, CasesInput shell_words before l (CustomIn path args) /\ shell_words line = Some args) as (path & args & Hi & Hs).
    { pose proof (Hok _ _ _ Hls) as Hx. destruct Hl as [[n ->]| ->]; cbn in Hx.
      - destruct Hx as (_ & path & vars & defs & args & Hg & _ & Hs & _). exists path, args. split; [|done]. by exists path, vars, args.
      - destruct Hx as (n & Hn & _ & path & vars & defs & args & Hg & _ & Hs & _). exists path, args. split; [|done]. by exists n, path, vars, args. }
    exists path, args. split; [by apply shell_text|]. apply (ct_testcases _ _ _ _ _ _ HT). exists before, l, after. split; [done|]. by exists (CustomIn path args).
  Qed.
  (** The arguments of every testcase are the words of a line *)
  Theorem C106_arguments content es sts tcs k t path args : read content = Some es -> assemble es = Some (sts, tcs) -> tcs !! k = Some t -> te_input t = CustomIn path args ->
    exists ts ls before l after line, Lines content ts /\ Forall2 CasesLine ts ls /\ ls = before ++ l :: after /\ k = testcases_in before /\
      ((exists n, l = CRun n line) \/ l = CTestcase line) /\ ShellText line args.
  Proof.
    intros H Ha Hk Hi. destruct (C45_task _ _ _ _ _ _ _ H) as (ts & ls & sts' & tcs' & Ht & Hf & _ & Ha' & HT). rewrite Ha in Ha'. injection Ha' as <- <-.
    apply (ct_testcases _ _ _ _ _ _ HT) in Hk as (before & l & after & Hls & i & HI & -> & ->). cbn in Hi. subst i. destruct l as [| | | | | |n line|line| |]; try done; cbn in HI.
    - destruct HI as (p & v & a & _ & Hs & [= <- <-]). exists ts, ls, before, (CRun n line), after, line. split_and!; [done..| |by apply shell_text]. left. by exists n.
    - destruct HI as (n & p & v & a & _ & _ & Hs & [= <- <-]). exists ts, ls, before, (CTestcase line), after, line. split_and!; [done..|by right|by apply shell_text].
  Qed.
  (** A line with a quote that is not closed: the file is rejected *)
  Theorem C106_rejected content ts ls before l after line : Lines content ts -> Forall2 CasesLine ts ls -> ls = before ++ l :: after -> (exists n, l = CRun n line) \/ l = CTestcase line ->
    (forall args, ~ ShellText line args) -> read content = None.
  Proof.
    intros Ht Hf Hls Hl Hno. destruct (read content) as [es|] eqn:H; [|done]. exfalso. destruct (C45_task _ _ _ _ _ _ _ H) as (ts' & ls' & sts & tcs & Ht' & Hf' & _ & Ha & _).
    destruct (C106_lines _ _ _ _ _ _ _ _ _ _ H Ha Ht Hf Hls Hl) as (path & args & Hs & _). by apply (Hno args).
  Qed.

  (** ** gen/GEN written from it (C87), with nothing assumed about [shell_words::split] *)
  Context (show_score source_name : text -> text) (clean : text -> option text) (get_validator : nat -> validator) (generator : text).
  Context (Hscore : forall t, Decimal t -> Word (show_score t) /\ no_newline (show_score t)).
  Context (Hsource : forall p, Word p -> no_newline p -> known p = true -> Word (source_name p) /\ no_newline (source_name p)).
  Notation written := (written_gen shell_words exists_file known get_output file_name show_score source_name).
  Notation gens := (parse_gen_gen clean get_validator get_output generator).
  Theorem C106_readable content g es : read content = Some es -> written content = Some g -> is_Some (gens g) <-> Readable clean show_score es.
  Proof using Hscore Hsource. apply C87_readable; [exact words_newline|done..]. Qed.
  Theorem C106_back content g es es' : read content = Some es -> written content = Some g -> gens g = Some es' -> Forall2 (Back clean get_validator generator show_score source_name) es es'.
  Proof using Hscore Hsource. apply C87_back; [exact words_newline|done..]. Qed.
  Theorem C106_plain content g es : read content = Some es -> written content = Some g -> Forall (EntryPlain clean show_score) es ->
    gens g = Some (map (plain_back get_validator generator show_score source_name) es).
  Proof using Hscore Hsource. apply C87_plain; [exact words_newline|done..]. Qed.
End cases.

(** ** The same function on bytes (the flags of the compilers, C105) *)
Definition codes (s : list Ascii.ascii) : text := map Ascii.N_of_ascii s.
Definition state_of (st : EnvModel.split_state) : words_state :=
  match st with
  | EnvModel.Delimiter => WDelimiter | EnvModel.Backslash => WBackslash | EnvModel.Unquoted => WUnquoted | EnvModel.UnquotedBackslash => WUnquotedBackslash
  | EnvModel.SingleQuoted => WSingle | EnvModel.DoubleQuoted => WDouble | EnvModel.DoubleQuotedBackslash => WDoubleBackslash | EnvModel.Comment => WComment
  end.
Lemma code_inj a b : Ascii.N_of_ascii a = Ascii.N_of_ascii b -> a = b.
Proof. intros H. rewrite <- (Ascii.ascii_N_embedding a), <- (Ascii.ascii_N_embedding b). by f_equal. Qed.
Lemma decide_code {A} (c d : Ascii.ascii) (n : N) (x y : A) : Ascii.N_of_ascii d = n -> (if decide (Ascii.N_of_ascii c = n) then x else y) = (if decide (c = d) then x else y).
Proof. intros <-. destruct (decide (c = d)) as [->|Hn]; [by rewrite decide_True|]. rewrite decide_False; [done|]. intros H. by apply Hn, code_inj. Qed.
Lemma eqb_code c d n : Ascii.N_of_ascii d = n -> (Ascii.N_of_ascii c =? n)%N = bool_decide (c = d).
Proof.
  intros <-. case_bool_decide as H; [subst; apply N.eqb_refl|]. apply N.eqb_neq. intros E. by apply H, code_inj.
Qed.
Local Notation num := (Ascii.Ascii true true false false false true false false).
Local Notation dol := (Ascii.Ascii false false true false false true false false).
Local Notation bq := (Ascii.Ascii false false false false false true true false).
Lemma bytes_state s : forall st word, words_from (state_of st) (codes word) (codes s) = map codes <$> EnvModel.split_from st word s.
Proof.
  assert (forall a b, codes (a ++ b) = codes a ++ codes b) as Happ by (intros; apply map_app).
  assert (forall c, is_delim (Ascii.N_of_ascii c) = EnvModel.is_delimiter c) as Hd.
  { intros c. unfold is_delim, EnvModel.is_delimiter. by rewrite (eqb_code c EnvModel.tab 9), (eqb_code c (Ascii.ascii_of_N 32) 32), (eqb_code c EnvModel.eol 10). }
  assert (forall A c (x y : A), (if escapable (Ascii.N_of_ascii c) then x else y) = (if decide (c ∈ [dol; bq; EnvModel.dquote; EnvModel.backslash]) then x else y)) as He.
  { intros A c x y. destruct (escapable (Ascii.N_of_ascii c)) eqn:E; [rewrite decide_True|rewrite decide_False]; try done.
    - unfold escapable in E. rewrite (eqb_code c dol 36), (eqb_code c bq 96), (eqb_code c EnvModel.dquote 34), (eqb_code c EnvModel.backslash 92) in E by done.
      rewrite !orb_true_iff, !bool_decide_eq_true in E. rewrite !elem_of_cons. tauto.
    - intros H. assert (escapable (Ascii.N_of_ascii c) = true) as E'; [|congruence]. unfold escapable.
      rewrite (eqb_code c dol 36), (eqb_code c bq 96), (eqb_code c EnvModel.dquote 34), (eqb_code c EnvModel.backslash 92) by done.
      rewrite !orb_true_iff, !bool_decide_eq_true. rewrite !elem_of_cons in H. set_solver. }
  induction s as [|c s IH]; intros st word.
  { destruct st; cbn; rewrite ?Happ; done. }
  assert (forall st w d, words_from (state_of st) (codes w ++ [Ascii.N_of_ascii d]) (codes s) = map codes <$> EnvModel.split_from st (w ++ [d]) s) as IH' by (intros; rewrite <- IH, Happ; done).
  assert (forall st w, words_from (state_of st) (codes w ++ [bslash; Ascii.N_of_ascii c]) (codes s) = map codes <$> EnvModel.split_from st (w ++ [EnvModel.backslash; c]) s) as IH2 by (intros; rewrite <- IH, Happ; done).
  change (codes (c :: s)) with (Ascii.N_of_ascii c :: codes s).
  destruct st; cbn [state_of words_from EnvModel.split_from];
    rewrite ?(decide_code c EnvModel.quote squote), ?(decide_code c EnvModel.dquote dquote), ?(decide_code c EnvModel.backslash bslash), ?(decide_code c EnvModel.eol lf), ?(decide_code c num hash), ?Hd, ?He by done;
    repeat match goal with
    | |- (if decide (c = ?d) then _ else _) = _ => change (decide (c = d)) with (decide (c = d)); destruct (decide (c = d)) as [?|?]
    | |- (if EnvModel.is_delimiter c then _ else _) = _ => destruct (EnvModel.is_delimiter c)
    end.
  all: try first [exact (IH EnvModel.Delimiter word)|exact (IH EnvModel.SingleQuoted word)|exact (IH EnvModel.DoubleQuoted word)|exact (IH EnvModel.Backslash word)|exact (IH EnvModel.Comment word)
    |exact (IH EnvModel.Unquoted word)|exact (IH EnvModel.UnquotedBackslash word)|exact (IH EnvModel.DoubleQuotedBackslash word)
    |exact (IH' EnvModel.Unquoted word c)|exact (IH' EnvModel.SingleQuoted word c)|exact (IH' EnvModel.DoubleQuoted word c)].
  - change (words_from WDelimiter [] (codes s)) with (words_from (state_of EnvModel.Delimiter) (codes []) (codes s)). rewrite IH. by destruct (EnvModel.split_from EnvModel.Delimiter [] s).
  - destruct (decide (c ∈ [dol; bq; EnvModel.dquote; EnvModel.backslash])); [exact (IH' EnvModel.DoubleQuoted word c)|exact (IH2 EnvModel.DoubleQuoted word)].
Qed.
Theorem C106_bytes s : shell_words (codes s) = map codes <$> EnvModel.split_from EnvModel.Delimiter [] s.
Proof. exact (bytes_state s EnvModel.Delimiter []). Qed.

(** ** Examples *)
Definition quote_cases : text :=
  chars ":GEN g gen/maker.py 'A B' C" ++ newline ++ chars ":SUBTASK 12" ++ newline ++ chars "'10 20' x\ y""a $b""" ++ newline ++ chars ":RUN g -n '' 3".
Definition read_sample : text -> option (list entry) := read_cases (fun _ => true) sample_known sample_output (chars "tm_validation_file").
Definition inputs_of (es : list entry) : list input_gen := omap (fun e => match e with ETestcase t => Some (te_input t) | _ => None end) es.
Theorem C106_example : inputs_of <$> read_sample quote_cases =
  Some [CustomIn (chars "gen/maker.py") [chars "10 20"; chars "x ya $b"]; CustomIn (chars "gen/maker.py") [chars "-n"; []; chars "3"]].
Proof. by vm_compute. Qed.
(** A number sign in quotes is not a comment for a shell; in gen/cases.gen it is: the line ends there *)
Theorem C106_hash_refuted :
  shell_words (chars "'a # b' c") = Some [chars "a # b"; chars "c"] /\ parse_cases_line (chars "'a # b' c") = Some (CTestcase (chars "'a ")) /\
  read_sample (chars ":GEN g gen/maker.py" ++ newline ++ chars ":SUBTASK 12" ++ newline ++ chars "'a # b' c") = None /\
  inputs_of <$> read_sample (chars ":GEN g gen/maker.py" ++ newline ++ chars ":SUBTASK 12" ++ newline ++ chars "a\#b c") = Some [CustomIn (chars "gen/maker.py") [chars "a\"]].
Proof. split_and!; by vm_compute. Qed.
(** The gen/GEN that is written has the arguments without their quotes: other arguments are read *)
Theorem C106_back_refuted : exists g es', written_gen shell_words (fun _ => true) sample_known sample_output (chars "tm_validation_file") (fun t => t) after_slash quote_cases = Some g /\
  parse_gen_gen Some (fun _ => AssumeValid) sample_output (chars "gen/generator.py") g = Some es' /\
  inputs_of es' = [CustomIn (chars "gen/generator.py") [chars "maker.py"; chars "10"; chars "20"; chars "x"; chars "ya"; chars "$b"]; CustomIn (chars "gen/generator.py") [chars "maker.py"; chars "-n"; chars "3"]].
Proof. do 2 eexists. split; [vm_compute; reflexivity|]. split; vm_compute; reflexivity. Qed.
(** The hypotheses are met *)
Theorem C106_hypotheses_met : Simple (chars "-O3") /\ Written (single_quoted (chars "it's")) (chars "it's") /\ single_quoted (chars "it's") = chars "'it'\''s'" /\
  (forall args, ~ ShellText (chars "'10 20") args) /\ ShellText (chars "a 'b c' # d") [chars "a"; chars "b c"].
Proof.
  split_and!.
  - split; [done|]. split; [|done]. apply Forall_forall. intros c Hc. rewrite <- is_delim_spec. unfold Special. assert (forallb (fun c => negb (is_delim c) && negb ((c =? 39) || (c =? 34) || (c =? 92))%N) (chars "-O3") = true) as H by (by vm_compute).
    apply Is_true_true in H. apply forallb_True in H. pose proof (proj1 (Forall_forall _ _) H c Hc) as Hx. apply Is_true_true, andb_true_iff in Hx as [H1 H2]. rewrite negb_true_iff in H1, H2. rewrite !orb_false_iff, !N.eqb_neq in H2. split; [congruence|tauto].
  - apply quoted_written.
  - by vm_compute.
  - intros args H. apply shell_text in H. by vm_compute in H.
  - apply shell_text. by vm_compute.
Qed.

Print Assumptions C106_words.
Print Assumptions C106_no_quotes.
Print Assumptions C106_quoted.
Print Assumptions C106_simple.
Print Assumptions C106_characters.
Print Assumptions C106_lines.
Print Assumptions C106_arguments.
Print Assumptions C106_rejected.
Print Assumptions C106_readable.
Print Assumptions C106_back.
Print Assumptions C106_plain.
Print Assumptions C106_bytes.
Print Assumptions C106_example.
Print Assumptions C106_hash_refuted.
Print Assumptions C106_back_refuted.
Print Assumptions C106_hypotheses_met.
