(** * ShellWordsSpec: vocabulary of C106: how the words of a line are written *)
From Verif Require Export ShellWordsModel.

(** A space, a tab or an end of line *)
Definition Delim (c : N) : Prop := c = 32%N \/ c = 9%N \/ c = 10%N.
(** The single quote, the double quote and the backslash *)
Definition Special (c : N) : Prop := c = 39%N \/ c = 34%N \/ c = 92%N.

(** What is between double quotes, and what it stands for *)
Inductive InDouble : text -> text -> Prop :=
  | D_end : InDouble [] []
  | D_plain c t v : c <> 34%N -> c <> 92%N -> InDouble t v -> InDouble (c :: t) (c :: v)
  | D_escape c t v : c = 36%N \/ c = 96%N \/ c = 34%N \/ c = 92%N -> InDouble t v -> InDouble (92%N :: c :: t) (c :: v)
  | D_newline t v : InDouble t v -> InDouble (92%N :: 10%N :: t) v
  | D_backslash c t v : c <> 36%N -> c <> 96%N -> c <> 34%N -> c <> 92%N -> c <> 10%N -> InDouble t v -> InDouble (92%N :: c :: t) (92%N :: c :: v).
(** A piece of a word: a character, a character after a backslash, a text in quotes *)
Inductive Piece : text -> text -> Prop :=
  | P_plain c : ~ Delim c -> ~ Special c -> Piece [c] [c]
  | P_escape c : c <> 10%N -> Piece [92%N; c] [c]
  | P_single t : 39%N ∉ t -> Piece (39%N :: t ++ [39%N]) t
  | P_double t v : InDouble t v -> Piece (34%N :: t ++ [34%N]) v.
(** Pieces one after another; an end of line after a backslash is nothing *)
Inductive Pieces : text -> text -> Prop :=
  | PS_end : Pieces [] []
  | PS_piece p v t vs : Piece p v -> Pieces t vs -> Pieces (p ++ t) (v ++ vs)
  | PS_newline t vs : Pieces t vs -> Pieces (92%N :: 10%N :: t) vs.
(** A word: its first piece is not a number sign *)
Inductive Written : text -> text -> Prop :=
  | written_word p v t vs : Piece p v -> p <> [35%N] -> Pieces t vs -> Written (p ++ t) (v ++ vs).
(** The words of a text: between the words delimiters and comments; an end of line after a backslash is a blank; a
    backslash is itself at the end of the text *)
Inductive ShellText : text -> list text -> Prop :=
  | ST_end : ShellText [] []
  | ST_delim c t ws : Delim c -> ShellText t ws -> ShellText (c :: t) ws
  | ST_newline t ws : ShellText t ws -> ShellText (92%N :: 10%N :: t) ws
  | ST_comment c t ws : 10%N ∉ c -> ShellText t ws -> ShellText (35%N :: c ++ 10%N :: t) ws
  | ST_last_comment c : 10%N ∉ c -> ShellText (35%N :: c) []
  | ST_word p v c t ws : Written p v -> Delim c -> ShellText t ws -> ShellText (p ++ c :: t) (v :: ws)
  | ST_last p v : Written p v -> ShellText p [v]
  | ST_last_backslash p v : Written p v -> ShellText (p ++ [92%N]) [v ++ [92%N]]
  | ST_backslash : ShellText [92%N] [[92%N]].

(** A word that needs no quotes *)
Definition Simple (w : text) : Prop := w <> [] /\ Forall (fun c => ~ Delim c /\ ~ Special c) w /\ head w <> Some 35%N.
(** Words with a space between them *)
Fixpoint spaced (ws : list text) : text := match ws with [] => [] | [w] => w | w :: ws => w ++ 32%N :: spaced ws end.
(** A word in single quotes: a single quote in it is written out of them, after a backslash *)
Definition single_quoted (w : text) : text := 39%N :: concat (map (fun c => if (c =? 39)%N then [39%N; 92%N; 39%N; 39%N] else [c]) w) ++ [39%N].
