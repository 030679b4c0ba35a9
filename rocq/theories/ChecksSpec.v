(** * ChecksSpec: vocabulary of the properties C47-C49, C52, C62, C63 *)
From Verif Require Export ChecksModel.

(** ** Outcomes and checks *)
Definition zero_points (o : outcome) : Prop := o <> OAccepted /\ o <> OPartial.
(** [a] is worse than [b] *)
Definition worse (a b : outcome) : Prop := (zero_points a /\ ~ zero_points b) \/ (a = OPartial /\ b = OAccepted).
Definition minimal (o : outcome) (l : list outcome) : Prop := o ∈ l /\ forall o', o' ∈ l -> ~ worse o' o.
(** The outcomes that a check names *)
Definition named (k : check_kind) (o : outcome) : Prop :=
  match k with
  | KAccepted => o = OAccepted
  | KPartialScore => o = OPartial
  | KWrongAnswer => o = OWrongAnswer
  | KTimeLimit => o = OTimeLimit
  | KWallTime => o = OWallTime
  | KMemory => o = OMemory
  | KRuntimeError => o = ORuntimeError
  | KZero => zero_points o
  end.
(** The documentation of the checks (solution.rs:163-179) *)
Definition documented (k : check_kind) (l : list outcome) : Prop :=
  match k with
  | KAccepted => Forall (fun o => o = OAccepted) l
  | KPartialScore => OPartial ∈ l /\ Forall (fun o => o = OPartial \/ o = OAccepted) l
  | KWrongAnswer => OWrongAnswer ∈ l
  | KTimeLimit => OTimeLimit ∈ l
  | KWallTime => OWallTime ∈ l
  | KMemory => OMemory ∈ l
  | KRuntimeError => ORuntimeError ∈ l
  | KZero => Exists zero_points l
  end.

(** ** Texts *)
(** A line with no newline in it *)
Definition one_line (l : text) : Prop := nl ∉ l.
(** The mark of the checks is at the position [n] of the line *)
Definition mark_at (line : text) (n : nat) : Prop := exists before rest, line = before ++ chars "@check-" ++ rest /\ length before = n.
(** A rule for the check [k] starts at the position [n] of the line, and [rest] follows its colon.  No rule names the wall time limit. *)
Definition rule_at (line : text) (n : nat) (k : check_kind) (rest : text) : Prop :=
  exists before, line = before ++ chars "@check-" ++ chars (as_str k) ++ chars ":" ++ rest /\ length before = n /\ k <> KWallTime.
Definition has_mark (line : text) : Prop := exists n, mark_at line n.
Definition has_rule (line : text) : Prop := exists n k rest, rule_at line n k rest.
(** A rule that is followed by another mark on its line *)
Definition two_marks (line : text) : Prop := exists n k rest m, rule_at line n k rest /\ mark_at line m /\ n < m.
(** The words of a text, separated by white space *)
Inductive words : text -> list text -> Prop :=
| words_none t : Forall (fun c => is_ws c = true) t -> words t []
| words_last s w : Forall (fun c => is_ws c = true) s -> w <> [] -> Forall (fun c => is_ws c = false) w -> words (s ++ w) [w]
| words_more s w c t l : Forall (fun c => is_ws c = true) s -> w <> [] -> Forall (fun c => is_ws c = false) w -> is_ws c = true -> words t l ->
    words (s ++ w ++ c :: t) (w :: l).
(** The line [i] of the file (from 0) has a rule for the check [k] with the pattern [p] *)
Definition written (ls : list text) (i : nat) (k : check_kind) (p : text) : Prop :=
  exists line n rest l, ls !! i = Some line /\ rule_at line n k rest /\ words rest l /\ p ∈ l.
(** The lines that are not at the given positions *)
Fixpoint keep {A} (n : nat) (R : nat -> bool) (l : list A) : list A :=
  match l with [] => [] | x :: l => if R n then keep (S n) R l else x :: keep (S n) R l end.
(** A file made of lines *)
Definition file_of (ls : list text) : text := concat (map (fun l => l ++ [nl]) ls).
(** The name of a subtask can be written in a check: a word without the character of the mark *)
Definition good_name (w : text) : Prop := w <> [] /\ Forall (fun c => is_ws c = false /\ c <> 64%N) w.
(** The characters before a comment *)
Definition good_prefix (p : text) : Prop := nl ∉ p /\ 64%N ∉ p.
(** The checks as pairs *)
Definition pairs (l : list sol_check) : list (check_kind * text) := map (fun c => (sc_kind c, sc_pattern c)) l.
Definition check_lines (l : list sol_check) : list nat := map (fun c => sc_line c - 1) l.
