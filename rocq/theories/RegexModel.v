(** * RegexModel: the regular expressions of the crate regex

    The crate is not in /repo: this is its documented behaviour, used by the models of the code that calls it.  The leftmost match is found, and among
    those that begin there the one that a backtracking matcher would find first: a repetition takes as much as it can, an alternative is tried before
    the ones after it.

    Simplifications:
    - Text is ASCII; a class is a predicate on characters and only classes are repeated.
    - [captures_iter] is for expressions that do not match the empty text. *)
From Verif Require Import LangModel BookletModel.
From Coq Require Import Ascii String.
From stdpp Require Import base list.
Local Open Scope nat_scope.

Inductive re :=
  | REmpty
  | RClass (p : ascii -> bool)
  | RStar (p : ascii -> bool)          (* a class with [*] *)
  | RSeq (a b : re)
  | RAlt (a b : re)
  | RGroup (n : nat) (r : re).         (* the group number n *)
(** [+], [?], a literal text *)
Definition RPlus (p : ascii -> bool) : re := RSeq (RClass p) (RStar p).
Definition ROpt (r : re) : re := RAlt r REmpty.
Definition RChar (c : ascii) : re := RClass (fun d => bool_decide (d = c)).
Fixpoint RText (t : text) (k : re) : re := match t with [] => k | c :: t => RSeq (RChar c) (RText t k) end.

(** The groups that took part in a match, and their text *)
Definition caps : Type := list (nat * text).
Definition capture (n : nat) (c : caps) : option text :=
  match List.find (fun x => Nat.eqb n (fst x)) c with Some x => Some (snd x) | None => None end.
(** What is left after a repetition: the longest is the first *)
Fixpoint star (p : ascii -> bool) (s : text) : list text :=
  match s with
  | [] => [[]]
  | c :: s' => if p c then star p s' ++ [s] else [s]
  end.
(** The matches that begin at the beginning of [s], from the one that is tried first: the groups and what is left *)
Fixpoint run (r : re) (s : text) : list (caps * text) :=
  match r with
  | REmpty => [([], s)]
  | RClass p => match s with c :: s' => if p c then [([], s')] else [] | [] => [] end
  | RStar p => map (fun s' => ([], s')) (star p s)
  | RSeq a b => run a s ≫= fun x => map (fun y => (fst x ++ fst y, snd y)) (run b (snd x))
  | RAlt a b => run a s ++ run b s
  | RGroup n r => map (fun x => ((n, take (length s - length (snd x)) s) :: fst x, snd x)) (run r s)
  end.
(** [Regex::captures] *)
Fixpoint search (r : re) (s : text) : option (caps * text) :=
  match run r s with
  | x :: _ => Some x
  | [] => match s with [] => None | _ :: s' => search r s' end
  end.
(** [Regex::captures_iter] *)
Fixpoint captures_fuel (fuel : nat) (r : re) (s : text) : list caps :=
  match fuel with
  | 0 => []
  | S fuel => match search r s with Some x => fst x :: captures_fuel fuel r (snd x) | None => [] end
  end.
Definition captures_iter (r : re) (s : text) : list caps := captures_fuel (S (length s)) r s.
(** [.], and the expressions that take whole lines: [.*] around something *)
Definition dot (c : ascii) : bool := negb (bool_decide (c = newline)).
Definition line_re (body : re) : re := RSeq (RStar dot) (RSeq body (RStar dot)).
