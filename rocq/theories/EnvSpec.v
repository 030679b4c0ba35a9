(** * EnvSpec: vocabulary of C105 *)
From Verif Require Export EnvModel.
From Coq Require Import Ascii String.
From stdpp Require Import base list.

(** The first that is there. *)
Definition first_of {A} (l : list (option A)) (x : A) : Prop := exists i, l !! i = Some (Some x) /\ forall j, j < i -> l !! j = Some None.

(** Words of the shell. *)
Definition blank (c : ascii) : Prop := c = " "%char \/ c = ascii_of_N 9 \/ c = ascii_of_N 10.
Definition quoting (c : ascii) : Prop := c = "'"%char \/ c = """"%char \/ c = "\"%char.
Definition plain_word (w : list ascii) : Prop := w <> [] /\ Forall (fun c => ~ blank c /\ ~ quoting c) w /\ head w <> Some "#"%char.
(** Plain words with any blanks before, between and after. *)
Inductive laid_out : list ascii -> list (list ascii) -> Prop :=
  | laid_out_end b : Forall blank b -> laid_out b []
  | laid_out_last b w : Forall blank b -> plain_word w -> laid_out (b ++ w) [w]
  | laid_out_word b w c rest ws : Forall blank b -> plain_word w -> blank c -> laid_out rest ws -> laid_out (b ++ w ++ c :: rest) (w :: ws).
(** Any word can be written in single quotes, a single quote being written out of them. *)
Definition escaped (c : ascii) : list ascii := if decide (c = "'"%char) then chars "'\''" else [c].
Definition in_quotes (w : list ascii) : list ascii := chars "'" ++ concat (map escaped w) ++ chars "'".
Definition quoted_line (ws : list (list ascii)) : list ascii := concat (map (fun w => chars " " ++ in_quotes w) ws).
