(** * ResetSpec: vocabulary of C103 *)
From Verif Require Export ResetModel.

(** The answer is a yes: [y] or [Y], with blanks around. *)
Definition white (c : ascii) : Prop := N_of_ascii c = 32%N \/ (9 <= N_of_ascii c <= 13)%N.
Definition says_yes (line : list ascii) : Prop := exists a c b, line = a ++ c :: b /\ Forall white a /\ Forall white b /\
  (c = "y"%char \/ c = "Y"%char).

(** [n] is in the tree; all the directories above it (not itself) could be listed when [b]. *)
Inductive inside : node -> bool -> node -> Prop :=
  | inside_here n : inside n true n
  | inside_down m es name child b n : (name, child) ∈ es -> inside child b n -> inside (NDir m es) (p_r m && b) n.

(** The user could remove what is in this directory with rm. *)
Definition user_removable (m : perm) (es : list (string * node)) : Prop :=
  p_r m = true /\ (es <> [] -> p_w m = true /\ p_x m = true).

(** The directories outside of the tree that are linked from where the first pass arrives. *)
Definition linked (t : node) (o : out_dir) : Prop := inside t true (NLink (Some o)).
