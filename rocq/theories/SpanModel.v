(** * SpanModel: the spans of code of the diagnostics (task-maker-diagnostics/src/span.rs)

    Definitions only.  A text is the list of its bytes (UTF-8), as the offsets of the code are offsets of bytes.
    The sums of offsets do not overflow.  The colors of the terminal are not modelled. *)
From Verif Require Export LangModel.
From Coq Require Import Ascii String NArith.
From stdpp Require Import base list pretty.
Local Open Scope nat_scope.

Definition newline_byte : ascii := "010"%char.
(** span.rs:14-28 [CodeSpan] *)
Record code_span := CodeSpan {
  cs_file : text; cs_number : nat; cs_file_offset : nat; cs_line_offset : nat; cs_len : nat; cs_line : text }.
Inductive span_error := OnNewline | Multiline | BeyondTheEnd.
(** span.rs:38-63: the loop; [lines]: those that are left *)
Fixpoint span_from (file : text) (lines : list text) (previous skipped offset len : nat) : code_span + span_error :=
  match lines with
  | [] => inr BeyondTheEnd
  | line :: lines =>
    if decide (previous + length line = offset) then inr OnNewline
    else if decide (previous + length line < offset) then span_from file lines (previous + (length line + 1)) (skipped + 1) offset len
    else
      let line_offset := offset - previous in
      if decide (length line < line_offset + len) then inr Multiline
      else inl (CodeSpan file (skipped + 1) offset line_offset len line)
  end.
(** span.rs:32-65 [CodeSpan::from_str] *)
Definition span_of (file content : text) (offset len : nat) : code_span + span_error :=
  span_from file (split_on newline_byte content) 0 0 offset len.
(** [str::is_char_boundary]: the start, the end, or before a byte that does not continue a character *)
Definition continues (c : ascii) : bool := let n := N_of_ascii c in (128 <=? n)%N && (n <? 192)%N.
Definition char_boundary (t : list ascii) (i : nat) : bool :=
  match t !! i with Some c => bool_decide (i = 0) || negb (continues c) | None => bool_decide (i = length t) end.
(** the slice [start..end] of a [str]; [None]: a panic *)
Definition str_slice (t : list ascii) (i j : nat) : option text :=
  if bool_decide (i <= j) && char_boundary t i && char_boundary t j then Some (take (j - i) (drop i t)) else None.
(** span.rs:68-71 [as_str] *)
Definition span_text (s : code_span) : option text := str_slice (cs_line s) (cs_line_offset s) (cs_line_offset s + cs_len s).
(** span.rs:74-95 [to_string], without the colors *)
Definition show_nat (n : nat) : text := chars (pretty (N.of_nat n)).
Definition span_show (s : code_span) : text :=
  cs_file s ++ chars ":" ++ show_nat (cs_number s) ++ chars ":" ++ show_nat (cs_line_offset s) ++ [newline_byte] ++
  show_nat (cs_number s) ++ chars " | " ++ cs_line s ++ [newline_byte] ++
  replicate (length (show_nat (cs_number s)) + 3 + cs_line_offset s) " "%char ++ replicate (Nat.max (cs_len s) 1) "^"%char ++ [newline_byte].
