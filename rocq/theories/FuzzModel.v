(** * FuzzModel: the tool that fuzzes a checker (src/tools/fuzz_checker.rs, src/tools/fuzz_checker/fuzzer.cpp, README)

    Definitions only.
    - The file system is a map from paths to nodes.  Only regular files are read, a link is not followed: the program makes
      links only in the directories of the failures, that it does not read.  An error of the disk is not modelled.
    - The evaluation that makes the outputs, the sanity checks of the source, its patching and the compilation are not
      modelled; what libFuzzer finds is a parameter.
    - [None] is an error or a panic. *)
From Coq Require Import Ascii.
From stdpp Require Import numbers pretty strings list gmap.

Notation path := (list string).
Definition bytes := list N.
Inductive node := NDir | NFile (b : bytes) | NLink (target : path).
Notation fs := (gmap path node).

(** ** std::fs *)
Definition is_dir (p : path) (f : fs) : bool := match f !! p with Some NDir => true | _ => false end.
Definition exists_at (p : path) (f : fs) : bool := match f !! p with Some _ => true | None => false end.
(** [create_dir d/x] *)
Definition create_dir (d : path) (x : string) (f : fs) : option fs :=
  if is_dir d f then match f !! (d ++ [x]) with Some _ => None | None => Some (<[d ++ [x] := NDir]> f) end else None.
(** [remove_dir_all] *)
Definition remove_dir_all (p : path) (f : fs) : option fs :=
  if is_dir p f then Some (filter (fun kv => ~ p `prefix_of` kv.1) f) else None.
(** [remove_file] *)
Definition remove_file (p : path) (f : fs) : option fs :=
  match f !! p with Some (NFile _) | Some (NLink _) => Some (delete p f) | _ => None end.
(** [File::create] and [write_all], [fs::write] *)
Definition write_file (d : path) (x : string) (b : bytes) (f : fs) : option fs :=
  if is_dir d f then match f !! (d ++ [x]) with Some NDir | Some (NLink _) => None | _ => Some (<[d ++ [x] := NFile b]> f) end else None.
(** [symlink] *)
Definition symlink (target d : path) (x : string) (f : fs) : option fs :=
  if is_dir d f then match f !! (d ++ [x]) with Some _ => None | None => Some (<[d ++ [x] := NLink target]> f) end else None.
(** [fs::read] *)
Definition read_file (p : path) (f : fs) : option bytes := match f !! p with Some (NFile b) => Some b | _ => None end.

(** ** The names *)
Definition num (i : nat) : string := pretty (N.of_nat i).
Definition input_path (task : path) (i : nat) : path := task ++ ["input"; "input" +:+ num i +:+ ".txt"].
Definition output_path (task : path) (i : nat) : path := task ++ ["output"; "output" +:+ num i +:+ ".txt"].

(** ** [u32::to_le_bytes], [u32::from_le_bytes] *)
Definition to_le (n : N) : bytes := [n mod 256; (n / 256) mod 256; (n / 65536) mod 256; (n / 16777216) mod 256]%N.
Definition from_le (b : bytes) : option (N * bytes) :=
  match b with b0 :: b1 :: b2 :: b3 :: rest => Some (b0 + 256 * b1 + 65536 * b2 + 16777216 * b3, rest)%N | _ => None end.

(** ** fuzzer.cpp:50-90: which testcase and which output the checker is given; [None]: it is not called *)
Definition fuzz_one (n : nat) (data : bytes) : option (nat * bytes) :=
  if decide (length data <= 4)%nat then None
  else match from_le data with Some (id, rest) => Some (N.to_nat (id mod N.of_nat n), rest) | None => None end.

(** ** fuzz_checker.rs:121: the number of testcases; the subtasks with their testcases *)
Definition num_testcases (subtasks : list (list nat)) : nat := sum_list (length <$> subtasks).
(** fuzz_checker.rs:124-141: with --no-build the output files must be there *)
Definition outputs_ready (task : path) (n : nat) (f : fs) : bool := forallb (fun i => exists_at (output_path task i) f) (seq 0 n).

(** ** fuzz_checker.rs:182-227 [write_initial_corpus] *)
Definition corpus_one (task fuzz : path) (i : nat) (f : fs) : option fs :=
  let d := fuzz ++ ["initial_corpus"] in
  let x := num i +:+ ".txt" in
  f ← (if exists_at (d ++ [x]) f then remove_file (d ++ [x]) f else Some f);
  f ← write_file d x [] f;
  f ← write_file d x (to_le (N.of_nat i)) f;
  b ← read_file (output_path task i) f;
  write_file d x (to_le (N.of_nat i) ++ b) f.
Fixpoint corpus_all (task fuzz : path) (l : list nat) (f : fs) : option fs :=
  match l with [] => Some f | i :: l => f ← corpus_one task fuzz i f; corpus_all task fuzz l f end.
Definition write_initial_corpus (task fuzz : path) (n : nat) (f : fs) : option fs :=
  f ← (if exists_at (fuzz ++ ["initial_corpus"]) f then Some f else create_dir fuzz "initial_corpus" f);
  corpus_all task fuzz (seq 0 n) f.

(** ** fuzz_checker.rs:429-505 [run_fuzzer]; [found]: the artifacts that libFuzzer writes, with their names *)
Definition put_artifact (fuzz : path) (a : string * bytes) (f : fs) : fs := <[fuzz ++ ["artifacts"; a.1] := NFile a.2]> f.
Definition run_fuzzer (fuzz : path) (found : list (string * bytes)) (f : fs) : option fs :=
  f ← (if exists_at (fuzz ++ ["artifacts"]) f then remove_dir_all (fuzz ++ ["artifacts"]) f else Some f);
  f ← create_dir fuzz "artifacts" f;
  Some (foldr (put_artifact fuzz) f found).

(** ** fuzz_checker.rs:507-621 [organize_failures] *)
(** the part of the name of the artifact before the first dash *)
Fixpoint fail_type (name : string) : string :=
  match name with
  | EmptyString => EmptyString
  | String c s => if decide (c = "-"%char) then EmptyString else String c (fail_type s)
  end.
(** [dir]: the directory of the failures; [a]: the artifact; [i]: its position; [readme]: the contents of the README, where the path of the checker has been put *)
Definition write_failure (task dir : path) (id : nat) (out readme : bytes) (i : nat) (a : path) (type : string) (f : fs) : option fs :=
  let d := dir ++ ["fail-" +:+ num i] in
  f ← create_dir dir ("fail-" +:+ num i) f;
  f ← write_file d ("output-" +:+ type +:+ ".txt") out f;
  f ← symlink (input_path task id) d "input.txt" f;
  f ← symlink (output_path task id) d "output.txt" f;
  f ← symlink a d "artifact.bin" f;
  write_file d "README" readme f.
Definition organize_one (task dir : path) (n : nat) (readme : bytes) (i : nat) (a : path) (f : fs) : option fs :=
  match read_file a f with
  | Some b =>
    match from_le b, list.last a with
    | Some (id, out), Some name =>
      if decide (n = 0)%nat then None
      else write_failure task dir (N.to_nat (id mod N.of_nat n)) out readme i a (fail_type name) f
    | _, _ => None
    end
  | None => None
  end.
(** The files that are there at the end, and whether there has been an error: nothing is undone *)
Fixpoint organize_all (task dir : path) (n : nat) (readme : bytes) (i : nat) (l : list path) (f : fs) : fs * bool :=
  match l with
  | [] => (f, true)
  | a :: l => match organize_one task dir n readme i a f with Some f => organize_all task dir n readme (S i) l f | None => (f, false) end
  end.
Definition organize_failures (task fuzz : path) (n : nat) (readme : bytes) (l : list path) (f : fs) : fs * bool :=
  if decide (l = []) then (f, true)
  else
    let dir := fuzz ++ ["failures"] in
    match (f ← (if exists_at dir f then remove_dir_all dir f else Some f); create_dir fuzz "failures" f) with
    | Some f => organize_all task dir n readme 0 l f
    | None => (f, false)
    end.

(** ** fuzz_checker.rs:90-180 [main_fuzz_checker], after the evaluation; [listing]: the artifacts in the order of [read_dir] *)
Definition fuzz_checker (task fuzz : path) (n : nat) (readme : bytes) (found : list (string * bytes)) (listing : list string) (f : fs) : option (fs * bool) :=
  f ← write_initial_corpus task fuzz n f;
  f ← run_fuzzer fuzz found f;
  Some (organize_failures task fuzz n readme ((fun x => fuzz ++ ["artifacts"; x]) <$> listing) f).
