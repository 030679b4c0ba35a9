(** * CasesSpec: what the lines of gen/cases.gen are, and what a sequence of lines means *)
From Verif Require Export FormatSpec.

(** ** The lines *)
(** Everything up to a comment, from something that is not a blank *)
Definition Phrase (t : text) : Prop := Rest t /\ forall c, head t = Some c -> ~ Blank c.
Inductive Operand : item -> text -> Prop :=
  | Operand_number n : Number n -> Operand (INumber n) n
  | Operand_variable w : Word w -> Operand (IVariable w) (dollar :: w).
(** A name goes on until a blank, whatever comes: an operator needs a blank before it *)
Definition is_variable (i : item) : Prop := exists w, i = IVariable w.
Inductive Comparison : list item -> text -> Prop :=
  | Comparison_one i t : Operand i t -> Comparison [i] t
  | Comparison_more i t b o b' is u : Operand i t -> Blanks b -> (is_variable i -> b <> []) -> Blanks b' -> Comparison is u ->
      Comparison (i :: IOperator o :: is) (t ++ b ++ show_operator o ++ b' ++ u).
(** A command, after the colon *)
Inductive CasesCommand : text -> cases_line -> Prop :=
  | Command_gen b w b' : Blanks1 b -> Word w -> Blanks b' -> CasesCommand (chars "GEN" ++ b ++ w ++ b') (CGen w None)
  | Command_gen_def b w b2 p ws u b' : Blanks1 b -> Word w -> Blanks1 b2 -> Word p -> Words ws u -> Blanks b' ->
      CasesCommand (chars "GEN" ++ b ++ w ++ b2 ++ p ++ u ++ b') (CGen w (Some (p, u)))
  | Command_val b w b' : Blanks1 b -> Word w -> Blanks b' -> CasesCommand (chars "VAL" ++ b ++ w ++ b') (CVal w None)
  | Command_val_def b w b2 p ws u b' : Blanks1 b -> Word w -> Blanks1 b2 -> Word p -> Words ws u -> Blanks b' ->
      CasesCommand (chars "VAL" ++ b ++ w ++ b2 ++ p ++ u ++ b') (CVal w (Some (p, u)))
  | Command_constraint b is u b' : Blanks1 b -> Comparison is u -> 1 < length is -> Blanks b' -> CasesCommand (chars "CONSTRAINT" ++ b ++ u ++ b') (CConstraint is)
  | Command_subtask b n b' : Blanks1 b -> Decimal n -> Blanks b' -> CasesCommand (chars "SUBTASK" ++ b ++ n ++ b') (CSubtask n None)
  | Command_subtask_name b n b2 d : Blanks1 b -> Decimal n -> Blanks1 b2 -> Phrase d -> CasesCommand (chars "SUBTASK" ++ b ++ n ++ b2 ++ d) (CSubtask n (Some d))
  | Command_deps ws u b' : Words ws u -> Blanks b' -> CasesCommand (chars "STDEP" ++ u ++ b') (CDeps ws)
  | Command_copy b p : Blanks1 b -> Phrase p -> CasesCommand (chars "COPY" ++ b ++ p) (CCopy p)
  | Command_run b w b2 a : Blanks1 b -> Word w -> Blanks1 b2 -> Phrase a -> CasesCommand (chars "RUN" ++ b ++ w ++ b2 ++ a) (CRun w a).
Inductive CasesLine : text -> cases_line -> Prop :=
  | CasesLine_comment r : CasesLine (hash :: r) CComment
  | CasesLine_command b t l c : Blanks b -> CasesCommand t l -> Tail c -> CasesLine (colon :: b ++ t ++ c) l
  | CasesLine_testcase t c : Rest t -> head t <> Some colon -> Tail c -> CasesLine (t ++ c) (CTestcase t)
  | CasesLine_empty : CasesLine [] CEmpty.

(** ** Numbers and constraints *)
Inductive Value : text -> Z -> Prop :=
  | Value_nil : Value [] 0
  | Value_snoc t z c : Value t z -> (48 <= c <= 57)%N -> Value (t ++ [c]) (10 * z + (Z.of_N c - 48)).
(** A 64 bit integer *)
Definition Integer (t : text) (z : Z) : Prop :=
  (- 2 ^ 63 <= z < 2 ^ 63)%Z /\ exists d v, d <> [] /\ Value d v /\ (t = d /\ z = v \/ t = 43%N :: d /\ z = v \/ t = 45%N :: d /\ z = (- v)%Z).
Definition Rel (o : operator) (a b : Z) : Prop :=
  match o with Less => a < b | LessEqual => a <= b | Equal => a = b | Greater => a > b | GreaterEqual => a >= b end%Z.
Definition ItemOperand (i : item) (x : operand) : Prop :=
  match i with INumber t => exists k, x = Const k /\ Integer t k | IVariable v => x = Var v | IOperator _ => False end.
Inductive Chain : list item -> list operand -> list operator -> Prop :=
  | Chain_one i x : ItemOperand i x -> Chain [i] [x] []
  | Chain_more i x o rest xs os : ItemOperand i x -> Chain rest xs os -> Chain (i :: IOperator o :: rest) (x :: xs) (o :: os).
Definition upward (o : operator) : Prop := o = Less \/ o = LessEqual.
Definition downward (o : operator) : Prop := o = Greater \/ o = GreaterEqual.
Definition ConstraintOf (items : list item) (c : constraint) : Prop :=
  Chain items (co_operands c) (co_operators c) /\ co_operators c <> [] /\ ~ exists o o', o ∈ co_operators c /\ o' ∈ co_operators c /\ upward o /\ downward o'.
(** The value of an operand; [V v t]: the variable [v] is [t] *)
Definition OperandVal (V : text -> text -> Prop) (x : operand) (z : Z) : Prop :=
  match x with Const k => z = k | Var v => exists t, V v t /\ Integer t z end.
(** All the operands have a value and all the consecutive pairs are in the relation *)
Definition Satisfied (V : text -> text -> Prop) (c : constraint) : Prop :=
  exists zs, Forall2 (OperandVal V) (co_operands c) zs /\ forall i o a b, co_operators c !! i = Some o -> zs !! i = Some a -> zs !! (i + 1) = Some b -> Rel o a b.
(** Two consecutive operands are not in the relation, and all the operands up to there have a value *)
Definition Violated (V : text -> text -> Prop) (c : constraint) : Prop :=
  exists i o zs rest a b, Forall2 (OperandVal V) (take (i + 2) (co_operands c)) zs /\ co_operands c = take (i + 2) (co_operands c) ++ rest /\
    co_operators c !! i = Some o /\ zs !! i = Some a /\ zs !! (i + 1) = Some b /\ ~ Rel o a b.

(** ** What the lines mean *)
Definition opens (l : cases_line) : bool := match l with CSubtask _ _ => true | _ => false end.
Definition makes_test (l : cases_line) : bool := match l with CCopy _ | CRun _ _ | CTestcase _ => true | _ => false end.
Definition subtasks_in (ls : list cases_line) : nat := count opens ls.
Definition testcases_in (ls : list cases_line) : nat := count makes_test ls.
(** After a SUBTASK line, with no testcase in between *)
Definition after_subtask (ls : list cases_line) : bool := match List.find (fun l => opens l || makes_test l) (rev ls) with Some l => opens l | None => false end.
(** A description without its blanks *)
Definition name_of (description : option text) : option text := List.filter (fun c => negb (is_blank c)) <$> description.
Fixpoint last_name (rl : list cases_line) : option text :=
  match rl with [] => None | CSubtask _ d :: _ => name_of d | _ :: rl => last_name rl end.
(** The name of the subtask we are in *)
Definition current_name (ls : list cases_line) : option text := last_name (rev ls).
Definition gen_names (ls : list cases_line) : list text := omap (fun l => match l with CGen n (Some _) => Some n | _ => None end) ls.
Definition val_names (ls : list cases_line) : list text := omap (fun l => match l with CVal n (Some _) => Some n | _ => None end) ls.
(** The one called default, or the first *)
Definition default_name (names : list text) : option text := if decide (chars "default" ∈ names) then Some (chars "default") else head names.
(** The generator in force: the last one set since the beginning of the subtask, or the default there was at its beginning; the same for the validator *)
Fixpoint gen_in_force (rl : list cases_line) : option text :=
  match rl with
  | [] => None
  | CGen n None :: _ => Some n
  | CSubtask _ _ :: rl => default_name (gen_names (rev rl))
  | _ :: rl => gen_in_force rl
  end.
Definition current_gen (ls : list cases_line) : option text := gen_in_force (rev ls).
Fixpoint val_in_force (rl : list cases_line) : option text :=
  match rl with
  | [] => None
  | CVal n None :: _ => Some n
  | CSubtask _ _ :: rl => default_name (val_names (rev rl))
  | _ :: rl => val_in_force rl
  end.
Definition current_val (ls : list cases_line) : option text := val_in_force (rev ls).
(** The constraints a testcase must satisfy at this point: those before the first subtask and those of this subtask *)
Definition InForce (before : list cases_line) (c : constraint) : Prop :=
  exists b items a, before = b ++ CConstraint items :: a /\ ConstraintOf items c /\ (subtasks_in b = 0 \/ subtasks_in a = 0).
(** The lines up to the end of the subtask [id] *)
Definition Through (ls : list cases_line) (id : nat) (part : list cases_line) : Prop :=
  exists rest, ls = part ++ rest /\ subtasks_in part = id + 1 /\ (rest = [] \/ exists n d r, rest = CSubtask n d :: r).

Section cases_task.
  Context (split : text -> option (list text)) (exists_file known : text -> bool) (get_output : nat -> output_gen) (file_name : text).
  (** The variables of a subtask, and those of a testcase *)
  Definition AutoVar (id : nat) (name : option text) (v t : text) : Prop :=
    v = chars "INPUT" /\ t = file_name \/ v = chars "ST_NUM" /\ t = chars (pretty id) \/ v = chars "ST_NAME" /\ name = Some t.
  Definition ArgVar (defs args : list text) (v t : text) : Prop :=
    exists i, defs !! i = Some v /\ args !! i = Some t /\ forall j, i < j -> defs !! j = Some v -> args !! j = None.
  Definition TestVar (id : nat) (name : option text) (defs args : list text) (v t : text) : Prop :=
    ArgVar defs args v t \/ (forall t', ~ ArgVar defs args v t') /\ AutoVar id name v t.
  Definition WithoutDollar (a v : text) : Prop := a = dollar :: v \/ head a <> Some dollar /\ v = a.
  Definition ValidatorIs (ls : list cases_line) (id : nat) (name chosen : option text) (val : validator) : Prop :=
    match chosen with
    | None => val = AssumeValid
    | Some n => exists path vars args vals, CVal n (Some (path, vars)) ∈ ls /\ split vars = Some args /\ val = CustomVal path vals /\
        (args = [] /\ vals = [file_name; chars (pretty id)] \/ args <> [] /\ Forall2 (fun a t => exists v, WithoutDollar a v /\ AutoVar id name v t) args vals)
    end.
  (** A testcase made with a generator is allowed: the generator has been defined and no constraint in force is violated *)
  Definition RunOk (before : list cases_line) (n line : text) : Prop :=
    subtasks_in before <> 0 /\ exists path vars defs args, CGen n (Some (path, vars)) ∈ before /\ split vars = Some defs /\ split line = Some args /\
      forall c, InForce before c -> ~ Violated (TestVar (subtasks_in before - 1) (current_name before) defs args) c.
  Definition CasesLineOk (before : list cases_line) (l : cases_line) : Prop :=
    match l with
    | CGen n None => subtasks_in before <> 0 /\ n ∈ gen_names before
    | CGen n (Some (path, vars)) => exists_file path = true /\ known path = true /\ is_Some (split vars) /\ n ∉ gen_names before
    | CVal n None => after_subtask before = true /\ exists val, ValidatorIs before (subtasks_in before - 1) (current_name before) (Some n) val
    | CVal n (Some (path, vars)) => exists_file path = true /\ known path = true /\ is_Some (split vars) /\ n ∉ val_names before
    | CConstraint items => exists c, ConstraintOf items c
    | CSubtask _ d =>
      (forall n, name_of d = Some n -> ~ somewhere (fun _ l => exists sc d', l = CSubtask sc d' /\ name_of d' = Some n) before) /\
      exists val, ValidatorIs before (subtasks_in before) (name_of d) (default_name (val_names before)) val
    | CDeps ds => ds = [] \/ after_subtask before = true
    | CCopy path => subtasks_in before <> 0 /\ exists_file path = true
    | CRun n line => RunOk before n line
    | CTestcase line => exists n, current_gen before = Some n /\ RunOk before n line
    | CComment | CEmpty => True
    end.
  (** The files that are accepted *)
  Definition CasesOk (ls : list cases_line) : Prop :=
    everywhere CasesLineOk ls /\
    everywhere (fun _ l => forall ds d, l = CDeps ds -> d ∈ ds -> d = chars "*" \/ somewhere (fun _ l => exists sc d', l = CSubtask sc d' /\ name_of d' = Some d) ls) ls.

  (** The input of a testcase *)
  Definition CasesInput (before : list cases_line) (l : cases_line) (i : input_gen) : Prop :=
    match l with
    | CCopy path => i = StaticIn path
    | CRun n line => exists path vars args, CGen n (Some (path, vars)) ∈ before /\ split line = Some args /\ i = CustomIn path args
    | CTestcase line => exists n path vars args, current_gen before = Some n /\ CGen n (Some (path, vars)) ∈ before /\ split line = Some args /\ i = CustomIn path args
    | _ => False
    end.
  (** The task they describe *)
  Record CasesTask (ls : list cases_line) (sts : gmap nat subtask) (tcs : gmap nat testcase_entry) : Prop := {
    ct_ids : forall id, is_Some (sts !! id) <-> id < subtasks_in ls;
    ct_info : forall id s, sts !! id = Some s ->
      se_id (st_info s) = id /\ se_default (st_info s) = false /\
      somewhere (fun before l => exists d, l = CSubtask (se_score (st_info s)) d /\ se_name (st_info s) = name_of d /\ subtasks_in before = id) ls;
    ct_validator : forall id s, sts !! id = Some s -> exists part, Through ls id part /\ ValidatorIs ls id (se_name (st_info s)) (current_val part) (se_validator (st_info s));
    ct_owned : forall id s k, sts !! id = Some s ->
      (k ∈ st_owned s <-> somewhere (fun before l => makes_test l = true /\ k = testcases_in before /\ subtasks_in before = id + 1) ls);
    ct_sorted : forall id s, sts !! id = Some s -> StronglySorted lt (st_owned s) /\ st_testcases s = st_owned s;
    ct_testcases : forall k t, tcs !! k = Some t <->
      somewhere (fun before l => exists i, CasesInput before l i /\ k = testcases_in before /\ t = TestcaseEntry k i (get_output k)) ls;
    ct_deps : forall id s j, sts !! id = Some s ->
      (j ∈ se_deps (st_info s) <-> somewhere (fun before l => exists ds d, l = CDeps ds /\ subtasks_in before = id + 1 /\ d ∈ ds /\
         ((d = chars "*" /\ j < subtasks_in ls) \/ (d <> chars "*" /\ exists s', sts !! j = Some s' /\ se_name (st_info s') = Some d))) ls);
    ct_deps_sorted : forall id s, sts !! id = Some s -> StronglySorted lt (se_deps (st_info s)) }.
End cases_task.
