(** * FormatSpec: what the lines of gen/GEN and gen/cases.gen are, and what a sequence of lines means, without parsers *)
From Verif Require Export FormatModel TaskModel.

(** ** The lines of gen/GEN *)
Definition Blank (c : N) : Prop := c = 32%N \/ c = 9%N.
Definition Blanks (t : text) : Prop := Forall Blank t.
(** A word: no blanks and no number sign *)
Definition Word (t : text) : Prop := t <> [] /\ Forall (fun c => ~ Blank c /\ c <> hash) t.
Definition Digits (t : text) : Prop := t <> [] /\ Forall (fun c => 48 <= c <= 57)%N t.
(** A comment at the end of a line, or nothing *)
Definition Tail (t : text) : Prop := t = [] \/ exists r, t = hash :: r.
(** Words, each of them after at least a blank *)
Inductive Words : list text -> text -> Prop :=
  | Words_nil : Words [] []
  | Words_cons b w ws t : Blanks b -> b <> [] -> Word w -> Words ws t -> Words (w :: ws) (b ++ w ++ t).
Inductive GenLine : text -> gen_line -> Prop :=
  | GenLine_subtask b n b' c : Blanks b -> Digits n -> Blanks b' -> Tail c -> GenLine (chars "#ST:" ++ b ++ n ++ b' ++ c) (LSubtask n)
  | GenLine_name b w b' c : Blanks b -> Word w -> Blanks b' -> Tail c -> GenLine (chars "#STNAME:" ++ b ++ w ++ b' ++ c) (LName w)
  | GenLine_deps b w ws u b' c : Blanks b -> Word w -> Words ws u -> Blanks b' -> Tail c -> GenLine (chars "#STDEP:" ++ b ++ w ++ u ++ b' ++ c) (LDeps (w :: ws))
  | GenLine_no_deps b' c : Blanks b' -> Tail c -> GenLine (chars "#STDEP:" ++ b' ++ c) (LDeps [])
  | GenLine_copy b w b' c : Blanks b -> Word w -> Blanks b' -> Tail c -> GenLine (chars "#COPY:" ++ b ++ w ++ b' ++ c) (LCopy w)
  | GenLine_comment c r : Blank c -> GenLine (hash :: c :: r) LComment
  | GenLine_comment' c : Tail c -> GenLine (hash :: c) LComment
  | GenLine_command b w ws u b' c : Blanks b -> Word w -> Words ws u -> Blanks b' -> Tail c -> GenLine (b ++ w ++ u ++ b' ++ c) (LCommand (w :: ws))
  | GenLine_empty b c : Blanks b -> Tail c -> (b = [] -> c = []) -> GenLine (b ++ c) LEmpty.

(** The lines of a file: the ends of line are LF, CR LF and CR *)
Definition no_newline (t : text) : Prop := Forall (fun c => c <> 10%N /\ c <> 13%N) t.
Inductive Lines : text -> list text -> Prop :=
  | Lines_last t : no_newline t -> Lines t [t]
  | Lines_lf l t ls : no_newline l -> Lines t ls -> Lines (l ++ 10%N :: t) (l :: ls)
  | Lines_crlf l t ls : no_newline l -> Lines t ls -> Lines (l ++ 13%N :: 10%N :: t) (l :: ls)
  | Lines_cr l t ls : no_newline l -> head t <> Some 10%N -> Lines t ls -> Lines (l ++ 13%N :: t) (l :: ls).

(** ** What the lines of gen/GEN mean *)
(** [P before l] for a line [l] and the lines before it *)
Definition somewhere {A} (P : list A -> A -> Prop) (ls : list A) : Prop := exists before l after, ls = before ++ l :: after /\ P before l.
Definition everywhere {A} (P : list A -> A -> Prop) (ls : list A) : Prop := forall before l after, ls = before ++ l :: after -> P before l.
Definition count {A} (f : A -> bool) (l : list A) : nat := length (List.filter f l).
Definition declares (l : gen_line) : bool := match l with LSubtask _ => true | _ => false end.
Definition tests (l : gen_line) : bool := match l with LCopy _ | LCommand _ => true | _ => false end.
Definition structural (l : gen_line) : bool := declares l || tests l.
(** There is a testcase before the first subtask *)
Definition default_first (ls : list gen_line) : bool := match List.find structural ls with Some l => tests l | None => false end.
(** The subtasks there are after these lines, and the testcases *)
Definition subtasks_of (ls : list gen_line) : nat := count declares ls + (if default_first ls then 1 else 0).
Definition testcases_of (ls : list gen_line) : nat := count tests ls.
(** After a #ST line, with no other #ST line and no testcase in between *)
Definition in_header (ls : list gen_line) : bool := match List.find structural (rev ls) with Some l => declares l | None => false end.
Definition input_of (generator : text) (l : gen_line) : option input_gen :=
  match l with LCopy p => Some (StaticIn p) | LCommand args => Some (CustomIn generator args) | _ => None end.

Section gen_task.
  Context (clean : text -> option text) (get_validator : nat -> validator) (get_output : nat -> output_gen) (generator : text).
  (** The task a gen/GEN describes *)
  Record GenTask (ls : list gen_line) (sts : gmap nat subtask) (tcs : gmap nat testcase_entry) : Prop := {
    gt_ids : forall id, is_Some (sts !! id) <-> id < subtasks_of ls;
    gt_info : forall id s, sts !! id = Some s -> se_id (st_info s) = id /\ se_validator (st_info s) = get_validator id;
    gt_score : forall id s, sts !! id = Some s -> se_default (st_info s) = false ->
      somewhere (fun before l => l = LSubtask (se_score (st_info s)) /\ id = subtasks_of before) ls;
    gt_default : forall id s, sts !! id = Some s -> se_default (st_info s) = bool_decide (id = 0 /\ default_first ls = true);
    gt_default_score : forall id s, sts !! id = Some s -> se_default (st_info s) = true -> se_score (st_info s) = chars "100" /\ se_name (st_info s) = None;
    (** its testcases *)
    gt_owned : forall id s k, sts !! id = Some s ->
      (k ∈ st_owned s <-> somewhere (fun before l => tests l = true /\ k = testcases_of before /\ id + 1 = subtasks_of (before ++ [l])) ls);
    gt_sorted : forall id s, sts !! id = Some s -> StronglySorted lt (st_owned s) /\ st_testcases s = st_owned s;
    gt_testcases : forall k t, tcs !! k = Some t <->
      somewhere (fun before l => exists i, input_of generator l = Some i /\ k = testcases_of before /\ t = TestcaseEntry k i (get_output k)) ls;
    (** its name and its dependencies *)
    gt_name : forall id s n, sts !! id = Some s ->
      (se_name (st_info s) = Some n <-> somewhere (fun before l => exists w, l = LName w /\ in_header before = true /\ id + 1 = subtasks_of before /\ clean w = Some n) ls);
    gt_deps : forall id s j, sts !! id = Some s ->
      (j ∈ se_deps (st_info s) <-> somewhere (fun before l => exists ds d, l = LDeps ds /\ in_header before = true /\ id + 1 = subtasks_of before /\ d ∈ ds /\
         ((d = chars "*" /\ j < subtasks_of ls) \/ (d <> chars "*" /\ exists s', sts !! j = Some s' /\ se_name (st_info s') = Some d))) ls);
    gt_deps_sorted : forall id s, sts !! id = Some s -> StronglySorted lt (se_deps (st_info s)) }.
  (** The lines that describe a task *)
  Definition named (id : nat) (n : text) (before : list gen_line) (l : gen_line) : Prop := exists w, l = LName w /\ id + 1 = subtasks_of before /\ clean w = Some n.
  Record GenOk (ls : list gen_line) : Prop := {
    (** a name and the dependencies only after #ST, and one valid name for a subtask *)
    go_name : everywhere (fun before l => forall w, l = LName w -> in_header before = true /\ is_Some (clean w) /\ ~ somewhere (fun before' l' => exists n, named (subtasks_of before - 1) n before' l') before) ls;
    go_unique : forall id id' n, somewhere (named id n) ls -> somewhere (named id' n) ls -> id = id';
    go_deps : everywhere (fun before l => forall ds, l = LDeps ds -> in_header before = true) ls;
    go_known : everywhere (fun before l => forall ds d, l = LDeps ds -> d ∈ ds -> d = chars "*" \/ exists id, somewhere (named id d) ls) ls;
    (** a generator but no solution *)
    go_output : everywhere (fun before l => forall args, l = LCommand args -> forall p, get_output (testcases_of before) <> StaticOut p) ls }.
End gen_task.

(** ** The lines of gen/cases.gen *)
(** Everything up to a comment *)
Definition Rest (t : text) : Prop := t <> [] /\ Forall (fun c => c <> hash) t.
Definition Blanks1 (t : text) : Prop := t <> [] /\ Blanks t.
(** A number with a sign or without; [-5], [+5], [5] *)
Definition Number (t : text) : Prop := Digits t \/ exists s n, (s = 45%N \/ s = 43%N) /\ Digits n /\ t = s :: n.
Definition Decimal (t : text) : Prop := Digits t \/ exists n m, Digits n /\ Digits m /\ t = n ++ 46%N :: m.
Definition show_operator (o : operator) : text :=
  chars (match o with Less => "<" | LessEqual => "<=" | Greater => ">" | GreaterEqual => ">=" | Equal => "=" end).
