(** * AttSpec: what the checks on the attachments should report *)
From Verif Require Import AttModel FindSpec LangSpec.
From Coq Require Import Ascii String NArith.
From stdpp Require Import base list sorting gmap.
Local Open Scope nat_scope.

(** The attachment [n], and how it is shown *)
Definition att (task : fpath) (n : string) : fpath := child (child task "att") n.
Definition att_rel (n : string) : fpath := FPath false ["att"; n].

(** The digit [v]; a number written in base ten, maybe with zeros at the start *)
Definition digit_char (v : nat) : ascii := ascii_of_nat (48 + v).
Inductive decimal : text -> N -> Prop :=
  | decimal_one v : v < 10 -> decimal [digit_char v] (N.of_nat v)
  | decimal_more l n v : decimal l n -> v < 10 -> decimal (l ++ [digit_char v]) (10 * n + N.of_nat v).
(** [n] is [*w*.txt] *)
Definition about (w n : string) : Prop := exists a b, n = a +:+ w +:+ b +:+ ".txt".
(** [n] ends with [input] or [output], the number [k] and [.txt]; the number fits 32 bits *)
Definition sample_number (n : string) (k : N) : Prop :=
  (k < 2 ^ 32)%N /\ exists pre w ds, w ∈ ["input"; "output"] /\ decimal (chars ds) k /\ n = pre +:+ w +:+ ds +:+ ".txt".
(** The attachments [*w*.txt] (w: input or output) with the number [k] *)
Definition sample_file (d : att_disk) (task : fpath) (w : string) (k : N) (n : string) : Prop :=
  entry (ad_tree d) (child task "att") n /\ about w n /\ sample_number n k.
(** all of them, in the order of their names; the first one *)
Definition sample_files (d : att_disk) (task : fpath) (w : string) (k : N) (l : list string) : Prop :=
  NoDup l /\ StronglySorted name_le l /\ forall n, n ∈ l <-> sample_file d task w k n.
Definition first_sample (d : att_disk) (task : fpath) (w : string) (k : N) (n : string) : Prop :=
  sample_file d task w k n /\ forall m, sample_file d task w k m -> name_le n m.

(** ** [AttSampleFiles] *)
(** A sample of att/: an input or an output *)
Definition att_sample (d : att_disk) (task : fpath) (n : string) : Prop :=
  entry (ad_tree d) (child task "att") n /\ (about "input" n \/ about "output" n).
(** [c] is the file of an input of the first subtask, whose inputs are all files *)
Definition task_sample (d : att_disk) (subtask : option (list sample_gen)) (c : fpath) : Prop :=
  exists l p, subtask = Some l /\ SCustom ∉ l /\ SStatic p ∈ l /\ c = match ad_canon d p with Some c => c | None => p end.
(** [s] occurs in [n] *)
Definition has_inside (s n : string) : Prop := exists a b, n = a +:+ s +:+ b.
(** [c] is what a sample of att/ leads to, and its name says that it is an input *)
Definition linked (d : att_disk) (task : fpath) (c : fpath) : Prop :=
  exists n m, att_sample d task n /\ ad_canon d (att task n) = Some c /\ file_name c = Some m /\ has_inside "input" m.

(** ** The graders and the templates *)
(** [n] is a source of the directory [folder] in the language [l], and not a grader *)
Definition source_in (d : att_disk) (task : fpath) (folder : string) (l : lang) (n : string) : Prop :=
  entry (ad_tree d) (child task folder) n /\ detect_language (FPath false [folder; n]) = Some l /\ file_stem n <> "grader" /\ file_stem n <> "stub".
(** the last one, in the order of the names *)
Definition last_source (d : att_disk) (task : fpath) (folder : string) (l : lang) (n : string) : Prop :=
  source_in d task folder l n /\ forall m, source_in d task folder l m -> name_le m n.
(** the first extension of a language *)
Definition main_ext (l : lang) : string :=
  match l with LCpp => "cpp" | LC => "c" | LPython => "py" | LShell => "sh" | LPascal => "pas" | LRust => "rs" | LCSharp => "cs" | LJS => "js" end.
Definition uses_stub (graders : list fpath) : Prop := exists p n, p ∈ graders /\ file_name p = Some n /\ file_stem n = "stub".
(** a grader: a file with a name and an extension *)
Definition proper_grader (g : fpath) (ext : string) : Prop := exists n, file_name g = Some n /\ plain n /\ has_extension n (chars ext).

(** ** The attachments *)
(** The text does not end with a new line: it is not empty and its last character is neither a new line nor a NUL *)
Definition unfinished (t : text) : Prop := exists a c, t = a ++ [c] /\ c <> "010"%char /\ c <> "000"%char.
(** [m], at the start of the line of [t] that follows [a], includes bits/stdc++.h; between # and the name there is only white space, new lines too *)
Definition bits_include (t a m : text) : Prop := exists ws1 ws2 o c rest,
  t = a ++ m ++ rest /\ (a = [] \/ last a = Some "010"%char) /\ m = chars "#" ++ ws1 ++ chars "include" ++ ws2 ++ o :: chars "bits/stdc++.h" ++ [c] /\
  Forall (fun c => white c = true) ws1 /\ Forall (fun c => white c = true) ws2 /\ (o = "<"%char \/ o = "034"%char) /\ (c = ">"%char \/ c = "034"%char).
(** the first of them *)
Definition first_bits (t a m : text) : Prop := bits_include t a m /\ forall a' m', bits_include t a' m' -> length a <= length a'.
(** The file [r] of the task *)
Definition under (task : fpath) (r : list string) : fpath := FPath (p_abs task) (p_comps task ++ r).
