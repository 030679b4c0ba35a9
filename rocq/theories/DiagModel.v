(** * DiagModel: how a diagnostic is printed (task-maker-diagnostics/src/lib.rs)

    Definitions only.  A text is the list of its bytes.
    - The colors are not modelled (the widths do not depend on them).
    - The attachment is the text after [String::from_utf8_lossy]. *)
From Verif Require Export SpanModel.
From Coq Require Import Ascii String NArith.
From stdpp Require Import base list pretty.
Local Open Scope nat_scope.

(** lib.rs:19-34 [DiagnosticLevel], [as_str] *)
Inductive diag_level := DWarning | DError.
Definition level_str (l : diag_level) : string := match l with DWarning => "Warning" | DError => "Error" end.
(** lib.rs:53-67 [Diagnostic] *)
Record diagnostic := Diagnostic {
  dg_level : diag_level; dg_message : list ascii; dg_note : option (list ascii); dg_help : option (list ascii); dg_attachment : option (list ascii); dg_spans : list code_span }.
(** [str::lines]: the pieces between the newlines, without the last if it is empty, without a carriage return at the end (unless the last piece is not
    followed by a newline) *)
Definition cut_cr (l : list ascii) : list ascii := match list.last l with Some c => if decide (c = "013"%char) then take (length l - 1) l else l | None => l end.
Fixpoint cut_lines (pieces : list (list ascii)) : list (list ascii) :=
  match pieces with
  | [] => []
  | [p] => match p with [] => [] | _ => [p] end
  | p :: pieces => cut_cr p :: cut_lines pieces
  end.
Definition str_lines (t : list ascii) : list (list ascii) := cut_lines (split_on newline_byte t).
(** [{:>pad$}] on ASCII text *)
Definition pad_left (pad : nat) (t : list ascii) : list ascii := replicate (pad - length t) " "%char ++ t.
Definition writeln (t : list ascii) : list ascii := t ++ [newline_byte].
(** lib.rs:150-165: the lines of the attachment *)
Definition attachment_line (pad : nat) (i : nat) (line : list ascii) : list ascii := writeln (pad_left pad (show_nat (i + 1)) ++ chars " | " ++ line).
Definition print_attachment (pad : nat) (attachment : list ascii) : list ascii :=
  let lines := str_lines attachment in
  let context := 5 in
  if decide (context + 1 + context < length lines) then
    concat (imap (attachment_line pad) (take context lines)) ++
    writeln (pad_left pad (chars "...") ++ chars " |") ++
    concat (imap (fun i => attachment_line pad (length lines - context + i)) (drop (length lines - context) lines))
  else concat (imap (attachment_line pad) lines).
(** lib.rs:136-144: the note *)
Definition print_note (pad : nat) (note : list ascii) : list ascii :=
  pad_left pad (chars "Note") ++ chars ": " ++
  match str_lines note with
  | [] => []
  | line :: lines => writeln line ++ concat (map (fun l => writeln (replicate pad " "%char ++ chars "  " ++ l)) lines)
  end.
(** lib.rs:125-171 [Diagnostic::print] *)
Definition print_diag (d : diagnostic) : list ascii :=
  let pad := String.length (level_str (dg_level d)) in
  writeln (chars (level_str (dg_level d)) ++ chars ": " ++ dg_message d) ++
  match dg_note d with Some note => print_note pad note | None => [] end ++
  match dg_help d with Some help => writeln (pad_left pad (chars "Help") ++ chars ": " ++ help) | None => [] end ++
  match dg_attachment d with Some a => print_attachment pad a | None => [] end ++
  concat (map (fun s => concat (map (fun l => writeln (replicate (pad + 1) " "%char ++ chars " " ++ l)) (str_lines (span_show s)))) (dg_spans d)).
