(** * ShellWordsModel: [shell_words::split], on texts (task-maker-format/src/ioi/format/italian_yaml/cases_gen.rs:332 and 398)

    Definitions only.  The crate shell-words (1.1, task-maker-format/Cargo.toml:49) is not in /repo: this is its [split],
    from its documentation and source.  The texts are lists of characters, as in FormatModel; the same function on
    bytes is [EnvModel.shell_split]. *)
From Verif Require Export FormatModel.
From Verif Require EnvModel.

Inductive words_state := WDelimiter | WBackslash | WUnquoted | WUnquotedBackslash | WSingle | WDouble | WDoubleBackslash | WComment.
Definition squote : N := 39%N.
Definition dquote : N := 34%N.
Definition bslash : N := 92%N.
Definition lf : N := 10%N.
Definition is_delim (c : N) : bool := (c =? 9)%N || (c =? 32)%N || (c =? 10)%N.
(** What a backslash escapes between double quotes: the dollar, the backquote, the double quote and the backslash *)
Definition escapable (c : N) : bool := (c =? 36)%N || (c =? 96)%N || (c =? 34)%N || (c =? 92)%N.
(** The words that are after the state [st], when [word] has been read of the current one; [None]: [ParseError] *)
Fixpoint words_from (st : words_state) (word : text) (t : text) : option (list text) :=
  match t with
  | [] =>
    match st with
    | WDelimiter | WComment => Some []
    | WBackslash | WUnquotedBackslash => Some [word ++ [bslash]]
    | WUnquoted => Some [word]
    | WSingle | WDouble | WDoubleBackslash => None
    end
  | c :: t =>
    match st with
    | WDelimiter =>
      if decide (c = squote) then words_from WSingle word t
      else if decide (c = dquote) then words_from WDouble word t
      else if decide (c = bslash) then words_from WBackslash word t
      else if is_delim c then words_from WDelimiter word t
      else if decide (c = hash) then words_from WComment word t
      else words_from WUnquoted (word ++ [c]) t
    | WBackslash => if decide (c = lf) then words_from WDelimiter word t else words_from WUnquoted (word ++ [c]) t
    | WUnquoted =>
      if decide (c = squote) then words_from WSingle word t
      else if decide (c = dquote) then words_from WDouble word t
      else if decide (c = bslash) then words_from WUnquotedBackslash word t
      else if is_delim c then ws ← words_from WDelimiter [] t; Some (word :: ws)
      else words_from WUnquoted (word ++ [c]) t
    | WUnquotedBackslash => if decide (c = lf) then words_from WUnquoted word t else words_from WUnquoted (word ++ [c]) t
    | WSingle => if decide (c = squote) then words_from WUnquoted word t else words_from WSingle (word ++ [c]) t
    | WDouble =>
      if decide (c = dquote) then words_from WUnquoted word t
      else if decide (c = bslash) then words_from WDoubleBackslash word t
      else words_from WDouble (word ++ [c]) t
    | WDoubleBackslash =>
      if decide (c = lf) then words_from WDouble word t
      else if escapable c then words_from WDouble (word ++ [c]) t
      else words_from WDouble (word ++ [bslash; c]) t
    | WComment => if decide (c = lf) then words_from WDelimiter word t else words_from WComment word t
    end
  end.
Definition shell_words (t : text) : option (list text) := words_from WDelimiter [] t.

(** ** gen/cases.gen, with it *)
Section cases.
  Context (exists_file known : text -> bool) (get_output : nat -> output_gen) (file_name : text).
  (** cases_gen.rs:127-182 *)
  Definition read_cases (content : text) : option (list entry) := parse_cases_gen shell_words exists_file known get_output file_name content.
End cases.
