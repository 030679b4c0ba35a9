(** * StmtSpec: the subtasks in a statement *)
From Verif Require Import FloatModel SanityModel StmtModel BookletSpec LatexSpec.
From Coq Require Import Ascii String NArith.
From stdpp Require Import base list sorting.
Local Open Scope nat_scope.

(** ** How a subtask is written in a line *)
Definition number (ds : text) : Prop := ds <> [] /\ decimal ds.
(** [\subtask], the new format of OII *)
Definition written_new (l : text) : Prop := exists a b, l = a ++ backslash :: chars "subtask" ++ b.
(** [\OISubtask{score}{number}{text}], or [\IIOTsubtask] *)
Definition ois_at (l a score : text) : Prop :=
  exists cmd k body b, l = a ++ backslash :: chars cmd ++ "{"%char :: score ++ chars "}{" ++ k ++ chars "}{" ++ body ++ "}"%char :: b
    /\ (cmd = "OISubtask" \/ cmd = "IIOTsubtask") /\ number score /\ number k /\ body <> [].
(** [{Subtask id} [score points]], where something of [\phantom] may be before the score *)
Definition oii_at (l a id score : text) : Prop :=
  exists spaces ph c b, l = a ++ chars "{Subtask " ++ id ++ "}"%char :: spaces ++ "["%char :: ph ++ score ++ c ++ "]"%char :: b
    /\ number id /\ number score /\ Forall (fun x => x = " "%char) spaces
    /\ (ph = [] \/ exists w, ph = backslash :: chars "phantom{" ++ w ++ ["}"%char] /\ w <> [] /\ "}"%char ∉ w)
    /\ (forall x r, c = x :: r -> x ∉ chars "0123456789").
(** If there are more in a line, the last one counts *)
Definition written_ois (l score : text) : Prop := exists a, ois_at l a score /\ forall a' s', ois_at l a' s' -> length a' <= length a.
Definition written_oii (l id score : text) : Prop := exists a, oii_at l a id score /\ forall a' i' s', oii_at l a' i' s' -> length a' <= length a.
(** What [\phantom] takes is closed in its line *)
Definition phantoms_closed (t : text) : Prop :=
  forall a b, t = a ++ backslash :: chars "phantom{" ++ b -> exists w r, b = w ++ "}"%char :: r /\ newline ∉ w /\ "}"%char ∉ w.
(** Exactly the lines with a property, in their order, with what they say *)
Inductive in_lines {A} (P : text -> A -> Prop) : list text -> list A -> Prop :=
  | IL_nil : in_lines P [] []
  | IL_yes l ls x xs : P l x -> in_lines P ls xs -> in_lines P (l :: ls) (x :: xs)
  | IL_no l ls xs : (forall x, ~ P l x) -> in_lines P ls xs -> in_lines P (l :: ls) xs.

(** ** What is expected *)
(** The subtasks of the task by their number *)
Definition in_order (sts es : list (N * f64)) : Prop := es ≡ₚ sts /\ StronglySorted (fun a b => (fst a < fst b)%N) es.
(** A statement may count from 1 *)
Definition counts_from (xs : list extracted) : N := match xs with x :: _ => if (x_id x =? 1)%N then 1%N else 0%N | [] => 0%N end.
Definition same_number (base : N) (e : N * f64) (x : extracted) : Prop := x_id x = (fst e + base)%N.
Definition same_score (e : N * f64) (x : extracted) : Prop := forall s, x_score x = Some s -> abs_diff_eq (snd e) s = true.
Definition agree_at (base : N) (es : list (N * f64)) (xs : list extracted) (i : nat) : Prop :=
  forall e x, es !! i = Some e -> xs !! i = Some x -> same_number base e x /\ same_score e x.

(** ** The statement of the task *)
(** The file that cms would import: [statement/statement.pdf], or [testo/testo.pdf]; a broken link counts *)
Definition there (d : pdf_disk) (p : fpath) : Prop := pd_exists d p = true \/ pd_link d p = true.
Definition in_task (task : fpath) (dir file : string) : fpath := FPath (p_abs task) (p_comps task ++ [dir; file]).
Definition official (d : pdf_disk) (task p : fpath) (name : string) : Prop :=
  p = in_task task "statement" "statement.pdf" /\ name = "statement/statement.pdf" /\ there d p
  \/ p = in_task task "testo" "testo.pdf" /\ name = "testo/testo.pdf" /\ there d p /\ ~ there d (in_task task "statement" "statement.pdf").
(** What git ls-files -z prints: a byte that is zero after each name *)
Definition zero_byte : ascii := ascii_of_N 0.
Definition git_output (names : list string) : text := concat (map (fun n => chars n ++ [zero_byte]) names).
