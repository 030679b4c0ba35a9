(** * DiagSpec: what is printed of a diagnostic (C93), independent of the program *)
From Coq Require Import Ascii String NArith.
From stdpp Require Import base list strings pretty.
Local Open Scope nat_scope.

Notation byte_text := (list ascii).
Notation lf := ("010"%char).
Notation cr := ("013"%char).
(** The lines of a text: each ends with LF or with CR LF, the last may end with nothing *)
Inductive text_lines : byte_text -> list byte_text -> Prop :=
| lines_none : text_lines [] []
| lines_last l : lf ∉ l -> l <> [] -> text_lines l [l]
| lines_lf l t ls : lf ∉ l -> list.last l <> Some cr -> text_lines t ls -> text_lines (l ++ lf :: t) (l :: ls)
| lines_crlf l t ls : lf ∉ l -> text_lines t ls -> text_lines (l ++ cr :: lf :: t) (l :: ls).

Definition spaces (n : nat) : byte_text := replicate n " "%char.
(** [t] at the end of a column of [w] characters *)
Definition at_right (w : nat) (t : byte_text) : byte_text := spaces (w - length t) ++ t.
Definition str (s : string) : byte_text := list_ascii_of_string s.
Definition decimal (n : nat) : byte_text := str (pretty (N.of_nat n)).
(** The lines of a note: all in one column, after the label *)
Definition note_rows (w : nat) (ls : list byte_text) : list byte_text :=
  match ls with [] => [] | l :: ls => (at_right w (str "Note") ++ str ": " ++ l) :: map (fun l => spaces (w + 2) ++ l) ls end.
(** The line number [i] (from 0) of an attachment, with its number (from 1) *)
Definition numbered (w i : nat) (l : byte_text) : byte_text := at_right w (decimal (S i)) ++ str " | " ++ l.
(** An attachment of at most 11 lines is shown entirely; of one that is longer the first 5 and the last 5 lines are shown, with dots between them *)
Definition attachment_rows (w : nat) (ls rows : list byte_text) : Prop :=
  (length ls <= 11 /\ length rows = length ls /\ forall i l, ls !! i = Some l -> rows !! i = Some (numbered w i l)) \/
  (11 < length ls /\ length rows = 11 /\ rows !! 5 = Some (at_right w (str "...") ++ str " |") /\
   (forall i l, i < 5 -> ls !! i = Some l -> rows !! i = Some (numbered w i l)) /\
   (forall k l, k < 5 -> ls !! (length ls - 5 + k) = Some l -> rows !! (6 + k) = Some (numbered w (length ls - 5 + k) l))).
