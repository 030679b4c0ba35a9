(** * DotModel: the picture of the DAG (src/copy_dag.rs), written to bin/DAG.dot with --copy-dag

    Definitions only.  A text is the list of its bytes: every replacement is of an ASCII character.  Simplifications: the
    fields of an execution that are not drawn are left out; the command is given as [{:?}] writes it; the HashMaps of the
    DAG are lists, in the order in which they are iterated; writing to a String does not fail. *)
From Coq Require Import NArith Ascii.
From stdpp Require Export gmap strings sorting.

Notation bytes := (list ascii).
Definition str (s : string) : bytes := list_ascii_of_string s.

(** task-maker-dag/src/file.rs:41-48 [File], task-maker-dag/src/execution.rs [Execution]: a uuid is a number of 128 bits *)
Record dfile := DFile { df_uuid : N; df_description : bytes }.
Record dexec := DExec { dx_uuid : N; dx_description : bytes; dx_command : bytes; dx_args : list bytes;
  dx_stdin : option N; dx_inputs : list N; dx_outputs : list dfile; dx_stdout : option dfile; dx_stderr : option dfile }.
(** task-maker-dag/src/dag.rs:74-81 [ExecutionDAGData]: the files that are provided, and the executions of each group *)
Record drawing := Drawing { dg_provided : list dfile; dg_groups : list (list dexec) }.
(** copy_dag.rs:9-18 [Node] *)
Inductive node := NExec (x : dexec) | NFile (f : dfile).

(** uuid's [to_string]: 8-4-4-4-12 hexadecimal digits in lower case *)
Definition hex_digit (n : N) : ascii := ascii_of_N (if N.ltb n 10 then 48 + n else 87 + n).
Fixpoint hexes (k : nat) (n : N) : bytes :=
  match k with O => [] | S k => hexes k (n / 16) ++ [hex_digit (n mod 16)] end.
Definition uuid_text (u : N) : bytes :=
  let h := hexes 32 u in
  take 8 h ++ str "-" ++ take 4 (drop 8 h) ++ str "-" ++ take 4 (drop 12 h) ++ str "-" ++ take 4 (drop 16 h) ++ str "-" ++ drop 20 h.
(** [str::replace] of a character *)
Fixpoint replace_char (c : ascii) (r : bytes) (s : bytes) : bytes :=
  match s with [] => [] | b :: s => (if decide (b = c) then r else [b]) ++ replace_char c r s end.
(** copy_dag.rs:65-72 [node_id] *)
Definition node_uuid (n : node) : N := match n with NExec x => dx_uuid x | NFile f => df_uuid f end.
Definition node_id (n : node) : bytes := str "uuid" ++ replace_char "-" [] (uuid_text (node_uuid n)).
(** [Vec<String>::join] *)
Fixpoint join_args (l : list bytes) : bytes :=
  match l with [] => [] | [a] => a | a :: l => a ++ str " " ++ join_args l end.
(** copy_dag.rs:74-85 [node_label] *)
Definition node_label (n : node) : bytes :=
  match n with
  | NExec x => dx_description x ++ str " | " ++ dx_command x ++ str " " ++ join_args (dx_args x)
  | NFile f => df_description f
  end.

(** [files.insert]: the last file with a uuid is the one that is kept *)
Definition insert_file (m : gmap N dfile) (f : dfile) : gmap N dfile := <[df_uuid f := f]> m.
Definition written (x : dexec) : list dfile := dx_outputs x ++ option_list (dx_stdout x) ++ option_list (dx_stderr x).
(** copy_dag.rs:23-50: the files, and the edges from the executions to what they write *)
Definition files_of (d : drawing) : gmap N dfile :=
  foldl insert_file (foldl insert_file ∅ (dg_provided d)) (concat (map written (concat (dg_groups d)))).
Definition write_edges (x : dexec) : list (node * node) := map (fun f => (NExec x, NFile f)) (written x).
(** execution.rs:480-489 [dependencies] *)
Definition dependencies (x : dexec) : list N := option_list (dx_stdin x) ++ dx_inputs x.
(** copy_dag.rs:51-60: the edges from what an execution reads; None is the panic of lines 54-56 *)
Definition read_edges (m : gmap N dfile) (x : dexec) : option (list (node * node)) :=
  mapM (fun u => f ← m !! u; Some (NFile f, NExec x)) (dependencies x).
(** [String]'s [Ord]: byte by byte *)
Fixpoint bytes_le (a b : bytes) : bool :=
  match a, b with
  | [], _ => true
  | _ :: _, [] => false
  | x :: a, y :: b => match N.compare (N_of_ascii x) (N_of_ascii y) with Lt => true | Gt => false | Eq => bytes_le a b end
  end.
(** [sort_by_cached_key], a stable sort, as an insertion sort *)
Fixpoint insert_node (n : node) (l : list node) : list node :=
  match l with [] => [n] | m :: l' => if bytes_le (node_label n) (node_label m) then n :: l else m :: insert_node n l' end.
Definition sort_nodes (l : list node) : list node := foldr insert_node [] l.

(** copy_dag.rs:87-118 [render_graph] *)
Definition quote_char : ascii := Ascii.Ascii false true false false false true false false.
Definition escape_label (s : bytes) : bytes :=
  replace_char ">" (str "\>") (replace_char "<" (str "\<") (replace_char "}" (str "\}") (replace_char "{" (str "\{")
    (replace_char quote_char ("\"%char :: [quote_char]) s)))).
Definition newline : bytes := [Ascii.Ascii false true false true false false false false].
Definition node_style (n : node) : bytes :=
  match n with NExec _ => str "style=rounded shape=record" | NFile _ => str "style=dashed shape=box" end.
Definition render_node (n : node) : bytes :=
  str "    " ++ node_id n ++ str "[label=" ++ [quote_char] ++ escape_label (node_label n) ++ [quote_char] ++ str "][" ++ node_style n ++ str "];" ++ newline.
Definition render_edge (e : node * node) : bytes :=
  str "    " ++ node_id e.1 ++ str " -> " ++ node_id e.2 ++ str ";" ++ newline.
Definition render_graph (nodes : list node) (edges : list (node * node)) : bytes :=
  str "digraph taskmaker {" ++ newline ++ str "    rankdir=" ++ [quote_char] ++ str "LR" ++ [quote_char] ++ str ";" ++ newline ++
  concat (map render_node nodes) ++ concat (map render_edge edges) ++ str "}" ++ newline.

(** copy_dag.rs:20-63 [render_dag]; [order] is the order in which the HashMap of the files is iterated; None is a panic *)
Definition render_dag (order : gmap N dfile -> list dfile) (d : drawing) : option bytes :=
  let m := files_of d in
  let execs := concat (dg_groups d) in
  reads ← mapM (read_edges m) execs;
  Some (render_graph (sort_nodes (map NExec execs ++ map NFile (order m))) (concat (map write_edges execs) ++ concat reads)).
