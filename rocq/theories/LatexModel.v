(** * LatexModel: the errors in the output of latexmk

    Models task-maker-format/src/ioi/statement/booklet.rs:250-291 [emit_warnings].

    Simplifications:
    - The output is ASCII.
    - The regex [(?ms)^!(?: LaTeX Error:)? ([^\n]+).*?(^l\.\d+)] is read line by line: a match begins at a line with an error, whose message is the
      rest of that line, and ends at the digits of the first line after it that begins with [l.] and a digit; the next match begins in a line after
      that one.  If there is no such line, there is no match (and there is none later).  The crate [regex] is not in /repo.
    - The diagnostic is the list of its notes; its title and the name of the booklet are not modelled. *)
From Verif Require Import BookletModel AttModel.
From Coq Require Import Ascii String NArith.
From stdpp Require Import base list sorting.
Local Open Scope nat_scope.

(** [ ([^\n]+)] at the end of a line *)
Definition message_of (l : text) : option text := match l with c :: d :: r => if decide (c = " "%char) then Some (d :: r) else None | _ => None end.
(** [^!(?: LaTeX Error:)? ([^\n]+)]: the optional part is taken if something is left *)
Definition error_line (l : text) : option text :=
  match l with
  | c :: r => if decide (c = "!"%char)
              then match strip_start (chars " LaTeX Error:") r with
                   | Some r' => match message_of r' with Some m => Some m | None => message_of r end
                   | None => message_of r
                   end
              else None
  | [] => None
  end.
(** [^l\.\d+]: the digits *)
Definition number_line (l : text) : option text :=
  match strip_start (chars "l.") l with
  | Some r => match fst (span is_digit r) with [] => None | ds => Some ds end
  | None => None
  end.
(** [parse::<i32>] of digits *)
Definition parse_i32 (ds : text) : option N := let n := number_of ds in if (n <? 2147483648)%N then Some n else None.
(** booklet.rs:262-268: the matches; [cur]: the message of the match that is being read *)
Fixpoint find_errors (cur : option text) (ls : list text) : list (option N * text) :=
  match ls with
  | [] => []
  | l :: ls => match cur with
               | Some m => match number_line l with Some ds => (parse_i32 ds, m) :: find_errors None ls | None => find_errors cur ls end
               | None => find_errors (error_line l) ls
               end
  end.
(** the order of [(Option<i32>, String)] *)
Definition error_le (a b : option N * text) : Prop :=
  match fst a, fst b with
  | None, None => text_le (snd a) (snd b)
  | None, Some _ => True
  | Some _, None => False
  | Some m, Some n => (m < n)%N \/ m = n /\ text_le (snd a) (snd b)
  end.
Global Instance error_le_dec : RelDecision error_le.
Proof. intros [[m|] a] [[n|] b]; unfold error_le; cbn; apply _. Defined.
Definition emit_warnings (content : text) : list (option N * text) :=
  merge_sort error_le (remove_dups (find_errors None (split_on newline content))).
(** booklet.rs:270-280 *)
Fixpoint show_digits (fuel : nat) (n : N) : text :=
  match fuel with
  | 0 => []
  | S fuel => (if (n <? 10)%N then [] else show_digits fuel (n / 10)) ++ [ascii_of_N (48 + n mod 10)]
  end.
Definition show_N (n : N) : text := show_digits (S (N.to_nat (N.log2 n))) n.
Definition note_of (e : option N * text) : text :=
  match fst e with Some n => chars "Line " ++ show_N n ++ chars ": " ++ snd e | None => snd e end.
(** the note of the warning, if there is one *)
Definition warning (content : text) : option text :=
  match emit_warnings content with [] => None | es => Some (unlines [newline] (map note_of es)) end.
