(** * GenBackSpec: what is in a gen/GEN made from a gen/cases.gen when it is read again *)
From Verif Require Export CasesSpec GenBackModel.

(** The words of a text, up to a comment *)
Definition WordsUpTo (t : text) (ws : list text) : Prop := exists u b c, Words ws u /\ Blanks b /\ Tail c /\ t = u ++ b ++ c.

Section back.
  Context (clean : text -> option text) (get_validator : nat -> validator) (get_output : nat -> output_gen) (generator : text).
  Context (show_score : text -> text) (source_name : text -> text).
  (** An entry of gen/cases.gen and what is read in its place *)
  Definition BackSubtask (s s' : subtask_entry) : Prop :=
    se_id s' = se_id s /\ se_score s' = show_score (se_score s) /\ se_default s' = false /\
    (match se_name s with Some n => exists n', clean n = Some n' /\ se_name s' = Some n' | None => se_name s' = None end) /\
    se_validator s' = get_validator (se_id s) /\ se_deps s' = [].
  Definition BackInput (i i' : input_gen) : Prop :=
    match i with
    | StaticIn p => exists w b, Word w /\ Blanks b /\ p = w ++ b /\ i' = StaticIn w
    | CustomIn src args => exists ws, WordsUpTo (chars " " ++ join_words args) ws /\ i' = CustomIn generator (source_name src :: ws)
    end.
  Definition Back (e e' : entry) : Prop :=
    match e, e' with
    | ESubtask s, ESubtask s' => BackSubtask s s'
    | ETestcase t, ETestcase t' => te_id t' = te_id t /\ te_output t' = te_output t /\ BackInput (te_input t) (te_input t')
    | _, _ => False
    end.
  (** The entries whose gen/GEN can be read *)
  Definition EntryReadable (e : entry) : Prop :=
    match e with
    | ESubtask s => Digits (show_score (se_score s)) /\ forall n, se_name s = Some n -> is_Some (clean n)
    | ETestcase t =>
      match te_input t with
      | StaticIn p => exists w b, Word w /\ Blanks b /\ p = w ++ b
      | CustomIn _ _ => forall p, te_output t <> StaticOut p
      end
    end.
  Definition Readable (es : list entry) : Prop :=
    Forall EntryReadable es /\
    forall i j s s' n n' c, es !! i = Some (ESubtask s) -> es !! j = Some (ESubtask s') -> se_name s = Some n -> se_name s' = Some n' -> clean n = Some c -> clean n' = Some c -> i = j.
  (** Nothing is lost but the validators, the dependencies and the generators: whole scores, names that need no cleaning, paths and arguments that are words *)
  Definition EntryPlain (e : entry) : Prop :=
    match e with
    | ESubtask s => Digits (show_score (se_score s)) /\ forall n, se_name s = Some n -> clean n = Some n
    | ETestcase t =>
      match te_input t with
      | StaticIn p => Word p
      | CustomIn _ args => Forall Word args /\ forall p, te_output t <> StaticOut p
      end
    end.
  Definition plain_back (e : entry) : entry :=
    match e with
    | ESubtask s => ESubtask (SubtaskEntry (se_id s) (se_name s) (show_score (se_score s)) false (get_validator (se_id s)) [])
    | ETestcase t =>
      ETestcase (TestcaseEntry (te_id t) (match te_input t with StaticIn p => StaticIn p | CustomIn src args => CustomIn generator (source_name src :: args) end) (te_output t))
    end.
End back.
