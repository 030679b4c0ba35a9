(** * FuzzSpec: what is expected of the fuzzing of a checker (C90) *)
From Coq Require Import Ascii.
From stdpp Require Import numbers pretty strings list gmap.
From Verif Require Export FuzzModel.

(** The text of a name before the first dash *)
Definition before_dash (name type : string) : Prop :=
  (exists rest, name = type +:+ "-" +:+ rest) \/ name = type.
Definition has_dash (s : string) : Prop := exists a b, s = a +:+ "-" +:+ b.

(** What must be in the directory of a failure: [id], [out] are the testcase and the output with which the checker was called *)
Definition failure_files (task : path) (readme : bytes) (artifact : path) (type : string) (id : nat) (out : bytes) : gmap string node :=
  list_to_map
    [("output-" +:+ type +:+ ".txt", NFile out); ("input.txt", NLink (input_path task id)); ("output.txt", NLink (output_path task id));
     ("artifact.bin", NLink artifact); ("README", NFile readme)].
(** The directory of a failure has those files and nothing else *)
Definition failure_at (f : fs) (d : path) (files : gmap string node) : Prop :=
  f !! d = Some NDir /\ (forall x, f !! (d ++ [x]) = files !! x) /\ forall x y l, f !! (d ++ x :: y :: l) = None.
(** A path inside a directory *)
Definition inside (d p : path) : Prop := exists x l, p = d ++ x :: l.
(** A file system: the parent of what exists is a directory *)
Definition rooted (f : fs) : Prop := forall p x v, f !! (p ++ [x]) = Some v -> f !! p = Some NDir.
(** The directory of the fuzzer, maybe left by another run *)
Record fuzz_dir_ok (fuzz : path) (f : fs) : Prop := {
  fd_dir : f !! fuzz = Some NDir;
  fd_sub : forall x v, x ∈ ["initial_corpus"; "artifacts"; "failures"] -> f !! (fuzz ++ [x]) = Some v -> v = NDir;
  fd_corpus : forall i, f !! (fuzz ++ ["initial_corpus"; num i +:+ ".txt"]) <> Some NDir;
  fd_rooted : rooted f
}.
(** The task has been evaluated *)
Definition outputs_of (task : path) (n : nat) (f : fs) : Prop := forall i, (i < n)%nat -> exists b, f !! output_path task i = Some (NFile b).
