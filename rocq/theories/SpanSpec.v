(** * SpanSpec: what a span of code should be (C92), independent of the program *)
From Coq Require Import Ascii String NArith.
From stdpp Require Import base list strings.
Local Open Scope nat_scope.

Section spec.
Notation text := (list ascii).
Notation newline := ("010"%char).

(** The bytes from [offset], [len] of them, are there and on one line, and at [offset] there is a character of that line *)
Definition on_one_line (content : text) (offset len : nat) : Prop :=
  (exists c, content !! offset = Some c /\ c <> newline) /\
  forall i, offset <= i < offset + len -> exists c, content !! i = Some c /\ c <> newline.
(** [line] is the whole line of [content] that starts after [before] *)
Definition is_line (content before line : text) : Prop :=
  newline ∉ line /\ (before = [] \/ list.last before = Some newline) /\
  (content = before ++ line \/ exists after, content = before ++ line ++ newline :: after).
(** how many newlines *)
Definition newlines (t : text) : nat := length (filter (fun c => c = newline) t).

(** UTF-8 (more texts than those, as the number of the bytes that follow is not looked at): a character is a byte that does not continue a character, followed,
    if it is not an ASCII character, by bytes that do *)
Definition continuation (c : ascii) : Prop := (128 <= N_of_ascii c < 192)%N.
Definition one_char (t : text) : Prop := exists c l, t = c :: l /\ ~ continuation c /\ Forall continuation l /\ ((N_of_ascii c < 128)%N -> l = []).
Definition utf8 (t : text) : Prop := exists cs, t = concat cs /\ Forall one_char cs.
(** the number of characters *)
Definition columns (t : text) : nat := length (filter (fun c => ~ continuation c) t).
End spec.
