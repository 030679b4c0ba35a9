(** * AttModel: the sanity checks that look at the files of att/ and sol/

    Models task-maker-format/src/ioi/sanity_checks/att.rs (all the checks but the executions that [AttSampleFilesValid] and
    [AttTemplatesShouldCompile] add), [check_missing_graders] of mod.rs, [SolTemplateSymlink] of sol.rs, [BrokenSymlinks] and
    [NoBitsStdCpp] of task.rs, and ioi/mod.rs [path_of].

    Simplifications:
    - Paths, globs and languages are those of [FindModel] and [LangModel]; text is ASCII.
    - A diagnostic carries the data of its message.
    - The iteration order of the hash maps is the parameter [ord], any permutation.
    - The order of the paths in the notes about missing samples (a [BTreeSet]) is not modelled.
    - [list_files] with [**] (task.rs) is a parameter: the list of the files.
    - A directory can be opened, its last byte cannot be read (att.rs:486-490).
    - The panics of [list_files] (a task in a directory whose path is not a valid pattern, C72) are the empty list. *)
From Verif Require Export FindModel SpanModel.
From Coq Require Import Ascii String NArith.
From stdpp Require Import base list sorting gmap.
Local Open Scope nat_scope.

(** The disk: the tree of [FindModel], what a symlink contains ([read_link], [is_symlink]), [canonicalize], the bytes of the
    files that can be read to the end, the patterns of the checks that [extract_check_list] finds (C63; [None]: an error) *)
Record att_disk := AttDisk {
  ad_tree : tree;
  ad_link : fpath -> option string;
  ad_canon : fpath -> option fpath;
  ad_bytes : fpath -> option text;
  ad_checks : fpath -> option (list string)
}.
Inductive att_diag :=
  | AMissingGrader (grader cause : fpath)          (* mod.rs:75-79 *)
  | AMissingTemplate (template grader : fpath)     (* att.rs:67-71 *)
  | ABrokenSample (p : fpath) (target : string)    (* att.rs:125-131 *)
  | ANotLink (p : fpath)                           (* att.rs:134-137 *)
  | AMissingInAtt (l : list fpath)                 (* att.rs:156-159 *)
  | AMissingInTask (l : list fpath)                (* att.rs:166-169 *)
  | ANoSample                                      (* att.rs:172-174 *)
  | ADuplicate (input : bool) (n : N) (l : list fpath)   (* att.rs:353-356, 373-376 *)
  | ANoOutput (p : fpath)                          (* att.rs:383-386 *)
  | ANoInput (p : fpath)                           (* att.rs:392-395 *)
  | ACheckRule (p : fpath) (pattern : string)      (* att.rs:423-429 *)
  | ANoNewLine (l : list string)                   (* io.rs:75-83 *)
  | ADirectory (p : fpath)                         (* att.rs:532-535 *)
  | ATemplateNotLink (p att : fpath)               (* sol.rs:58-62 *)
  | ABrokenLink (p : fpath) (target : string)      (* task.rs:71-74 *)
  | ABits (l : list (fpath * nat)).                        (* task.rs:109-121 *)
(** A hook: the diagnostics that it added before it ended, and the error if it failed *)
Definition hook_result : Type := list att_diag * option string.

(** ioi/mod.rs:246-248 [path_of] *)
Fixpoint strip_comps (p q : list string) : option (list string) :=
  match p, q with
  | [], _ => Some q
  | a :: p, b :: q => if decide (a = b) then strip_comps p q else None
  | _ :: _, [] => None
  end.
Definition path_of (task p : fpath) : fpath :=
  if bool_decide (p_abs task = p_abs p)
  then match strip_comps (p_comps task) (p_comps p) with Some r => FPath false r | None => p end
  else p.
(** [list_files] when the pattern is valid *)
Definition files_of (d : att_disk) (base : fpath) (patterns : list string) : list fpath :=
  match list_files (ad_tree d) base patterns with Some l => l | None => [] end.

(** ** The samples *)
(** [\d] *)
Definition is_digit (c : ascii) : bool := bool_decide (48 <= nat_of_ascii c) && bool_decide (nat_of_ascii c <= 57).
(** the value of some digits *)
Definition number_of (l : text) : N := fold_left (fun a c => (10 * a + N.of_nat (nat_of_ascii c - 48))%N) l 0%N.
(** [str::parse::<u32>] of digits *)
Definition parse_u32 (l : text) : option N := let n := number_of l in if (n <? 4294967296)%N then Some n else None.
(** att.rs:331-342 [extract_num]: the regex (in|out)put(\d+)\.txt$, read from the end of the text *)
Definition extract_num (l : text) : option N :=
  match strip_start (rev (chars ".txt")) (rev l) with
  | None => None
  | Some l =>
    let (ds, l) := span is_digit l in
    match ds with
    | [] => None
    | _ => match strip_start (rev (chars "input")) l, strip_start (rev (chars "output")) l with
           | None, None => None
           | _, _ => parse_u32 (rev ds)
           end
    end
  end.
(** att.rs:343-348: the files with a number, in the order of the listing *)
Definition numbered_files (files : list fpath) : list (N * fpath) :=
  omap (fun p => match extract_num (chars (show_path p)) with Some n => Some (n, p) | None => None end) files.
Definition group_files (l : list (N * fpath)) : gmap N (list fpath) :=
  fold_left (fun m x => <[fst x := match m !! fst x with Some fs => fs ++ [snd x] | None => [snd x] end]> m) l ∅.
(** att.rs:349-357, 369-377 [sorted] *)
Definition num_le (a b : N * list fpath) : Prop := (fst a <= fst b)%N.
Global Instance num_le_dec : RelDecision num_le.
Proof. unfold num_le. solve_decision. Defined.
Definition duplicates (task : fpath) (input : bool) (m : gmap N (list fpath)) : list att_diag :=
  omap (fun x : N * list fpath => if decide (length (snd x) = 1) then None else Some (ADuplicate input (fst x) (map (path_of task) (snd x))))
    (merge_sort num_le (map_to_list m)).
(** att.rs:379-390 *)
Fixpoint pair_loop (task : fpath) (l : list (N * list fpath)) (outputs : gmap N (list fpath))
    : list (fpath * fpath) * list att_diag * gmap N (list fpath) :=
  match l with
  | [] => ([], [], outputs)
  | (n, fs) :: l =>
    let input := hd (FPath false []) fs in
    match outputs !! n with
    | Some os => let '(ps, ds, rest) := pair_loop task l (delete n outputs) in ((input, hd (FPath false []) os) :: ps, ds, rest)
    | None => let '(ps, ds, rest) := pair_loop task l outputs in (ps, ANoOutput (path_of task input) :: ds, rest)
    end
  end.
(** att.rs:326-398 [get_sample_files] *)
Definition get_sample_files (ord : list (N * list fpath) -> list (N * list fpath)) (d : att_disk) (task : fpath) : list (fpath * fpath) * list att_diag :=
  let inputs := group_files (numbered_files (files_of d task ["att/*input*.txt"])) in
  let outputs := group_files (numbered_files (files_of d task ["att/*output*.txt"])) in
  let '(ps, ds, rest) := pair_loop task (ord (map_to_list inputs)) outputs in
  (ps, duplicates task true inputs ++ duplicates task false outputs ++ ds ++
       map (fun x => ANoInput (path_of task (hd (FPath false []) (snd x)))) (ord (map_to_list rest))).

(** ioi/mod.rs [InputGenerator]: the file of a static input *)
Inductive sample_gen := SStatic (p : fpath) | SCustom.
(** att.rs:86-105 [extract_sample_files_from_task]; [subtask]: the testcases of the subtask 0 *)
Fixpoint static_samples (d : att_disk) (l : list sample_gen) : option (list fpath) :=
  match l with
  | [] => Some []
  | SCustom :: _ => None
  | SStatic p :: l => option_map (cons (match ad_canon d p with Some c => c | None => p end)) (static_samples d l)
  end.
Definition samples_from_task (d : att_disk) (subtask : option (list sample_gen)) : list fpath :=
  match subtask with
  | None => []
  | Some l => match static_samples d l with Some l => l | None => [] end
  end.
(** [str::contains] *)
Fixpoint contains (p l : text) : bool :=
  starts p l || match l with [] => false | _ :: l => contains p l end.
(** att.rs:121-139 *)
Definition sample_diag (d : att_disk) (task p : fpath) : list att_diag :=
  match ad_link d p with
  | Some target => match ad_canon d p with Some _ => [] | None => [ABrokenSample (path_of task p) target] end
  | None => [ANotLink (path_of task p)]
  end.
(** att.rs:140-145 *)
Definition sample_of (d : att_disk) (p : fpath) : option fpath :=
  match ad_canon d p with
  | Some c => if contains (chars "input") (chars (match file_name c with Some n => n | None => "" end)) then Some c else None
  | None => None
  end.
(** att.rs:115-176 [AttSampleFiles::post_hook] *)
Definition att_sample_files (d : att_disk) (task : fpath) (subtask : option (list sample_gen)) : hook_result :=
  let files := files_of d task ["att/*input*.txt"; "att/*output*.txt"] in
  let from_task := remove_dups (samples_from_task d subtask) in
  let from_att := remove_dups (omap (sample_of d) files) in
  let in_att := list_difference from_task from_att in
  let in_task := list_difference from_att from_task in
  ((files ≫= sample_diag d task) ++
   (match from_task with
    | [] => []
    | _ => match in_att with [] => [] | _ => [AMissingInAtt (map (path_of task) in_att)] end ++
           match in_task with [] => [] | _ => [AMissingInTask (map (path_of task) in_task)] end
    end) ++
   match files with [] => [ANoSample] | _ => [] end, None).

(** ** The graders and the templates *)
(** mod.rs:58-74: for each language (its first extension) the grader and the last file that needs it *)
Fixpoint by_ext (task : fpath) (stub : bool) (files : list fpath) (m : list (string * (fpath * fpath * fpath))) : list (string * (fpath * fpath * fpath)) :=
  match files with
  | [] => m
  | f :: files =>
    let file := path_of task f in
    let m :=
      match file_name file with
      | None => m
      | Some n =>
        let stem := fst (stem_ext n) in
        if decide (stem = chars "grader") then m else if decide (stem = chars "stub") then m
        else match detect_language file with
             | None => m
             | Some l =>
               let ext := hd "" (extensions l) in
               let name := (if stub then "stub" else "grader") +:+ "." +:+ ext in
               let grader := with_file_name file (fpath_of (chars name)) in
               ainsert ext (fjoin task grader, grader, file) m
             end
      end in
    by_ext task stub files m
  end.
(** mod.rs:52-56 *)
Definition is_stub (graders : list fpath) : bool :=
  existsb (fun p => match file_name p with Some n => bool_decide (fst (stem_ext n) = chars "stub") | None => false end) graders.
(** mod.rs:41-86 [check_missing_graders]; [graders]: [task.grader_map.all_paths()] *)
Definition check_missing_graders (ord : list (string * (fpath * fpath * fpath)) -> list (string * (fpath * fpath * fpath)))
    (d : att_disk) (task : fpath) (graders : list fpath) (folder : string) : hook_result :=
  match graders with
  | [] => ([], None)
  | _ =>
    (omap (fun x : string * (fpath * fpath * fpath) => let '(_, (path, name, cause)) := x in
             if stat (ad_tree d) path then None else Some (AMissingGrader name cause))
       (ord (by_ext task (is_stub graders) (files_of d (child task folder) ["*.*"]) [])), None)
  end.
(** the extension of a path *)
Definition extension (p : fpath) : option text := match file_name p with Some n => snd (stem_ext n) | None => None end.
(** att.rs:57-76 [AttTemplates::pre_hook]; [name]: the name of the task *)
Fixpoint att_templates (d : att_disk) (task : fpath) (name : string) (graders : list fpath) : hook_result :=
  match graders with
  | [] => ([], None)
  | g :: graders =>
    match extension g with
    | None => ([], Some "Grader has no extension")
    | Some ext =>
      let att_name := fpath_of (chars "att/" ++ chars name ++ chars "." ++ ext) in
      let (ds, e) := att_templates d task name graders in
      (if stat (ad_tree d) (fjoin task att_name) then ds else AMissingTemplate att_name (path_of task g) :: ds, e)
    end
  end.
(** sol.rs:48-67 [SolTemplateSymlink::pre_hook] *)
Fixpoint template_links (d : att_disk) (task : fpath) (name : string) (templates : list fpath) : hook_result :=
  match templates with
  | [] => ([], None)
  | t :: templates =>
    match extension t with
    | None => ([], Some "Template has no extension")
    | Some ext =>
      let (ds, e) := template_links d task name templates in
      (match ad_link d t with Some _ => ds | None => ATemplateNotLink (path_of task t) (fpath_of (chars "att/" ++ chars name ++ chars "." ++ ext)) :: ds end, e)
    end
  end.
Definition sol_template_symlink (d : att_disk) (task : fpath) (name : string) : hook_result :=
  template_links d task name (files_of d task ["sol/template.*"]).

(** ** The attachments *)
(** att.rs:415-434 [AttWithNoCheck::pre_hook] (the diagnostics that [extract_check_list] adds are those of C63) *)
Definition att_with_no_check (d : att_disk) (task : fpath) : hook_result :=
  (omap (fun p => match ad_checks d p with Some (c :: _) => Some (ACheckRule (path_of task p) c) | _ => None end) (files_of d task ["att/*"]), None).
(** io.rs:57-67 [add_chunk]: (ends with a new line, is binary), and whether the path is pushed *)
Definition add_chunk (s : bool * bool) (chunk : text) : (bool * bool) * bool :=
  let binary := snd s || bool_decide ("000"%char ∈ chunk) in
  match last chunk with
  | None => ((fst s, binary), negb (fst s) && negb binary)
  | Some c => ((bool_decide (c = "010"%char), binary), false)
  end.
(** att.rs:477-497: the last byte, then the empty chunk *)
Definition reported (bytes : text) : bool :=
  let chunk := match last bytes with Some c => [c] | None => [] end in
  let (s, b1) := add_chunk (true, false) chunk in
  let (_, b2) := add_chunk s [] in b1 || b2.
Fixpoint no_new_line (d : att_disk) (task : fpath) (files : list fpath) (acc : list string) : list string + string :=
  match files with
  | [] => inl acc
  | f :: files =>
    match ad_bytes d f with
    | None => inr ("Failed to open attachment " +:+ show_path (path_of task f))
    | Some bytes => no_new_line d task files (if reported bytes then acc ++ [show_path (path_of task f)] else acc)
    end
  end.
(** att.rs:470-501 [AttEndWithNewLine::pre_hook], io.rs:69-86 [emit_warning] *)
Definition att_end_with_new_line (d : att_disk) (task : fpath) : hook_result :=
  match no_new_line d task (files_of d task ["att/*"]) [] with
  | inl [] => ([], None)
  | inl l => ([ANoNewLine (merge_sort name_le (remove_dups l))], None)
  | inr e => ([], Some e)
  end.
(** att.rs:518-540 [AttNoDirectory::pre_hook]; the entries are in the order of [read_dir] *)
Fixpoint directories (d : att_disk) (task : fpath) (files : list fpath) : hook_result :=
  match files with
  | [] => ([], None)
  | f :: files =>
    match ad_canon d f with
    | None => ([], Some ("Failed to find canonical path of " +:+ show_path f))
    | Some c =>
      let (ds, e) := directories d task files in
      (match ls (ad_tree d) c with Some _ => ADirectory (path_of task f) :: ds | None => ds end, e)
    end
  end.
Definition att_no_directory (d : att_disk) (task : fpath) : hook_result :=
  match ls (ad_tree d) (child task "att") with
  | None => ([], Some "Failed to open att/ directory")
  | Some names => directories d task (map (child (child task "att")) names)
  end.

(** ** task.rs *)
(** task.rs:60-79 [BrokenSymlinks::post_hook]; [files]: [list_files] of all the files of the task *)
Definition broken_symlinks (d : att_disk) (task : fpath) (files : list fpath) : hook_result :=
  (omap (fun p => if stat (ad_tree d) p then None
                  else if bool_decide (hd "" (p_comps (path_of task p)) = "fuzz") then None
                  else match ad_link d p with Some target => Some (ABrokenLink (path_of task p) target) | None => None end) files, None).
(** task.rs:98-100: the regex at the start of a line, up to the closing quote; what follows *)
Definition bits_at (l : text) : option text :=
  match strip_start (chars "#") l with
  | None => None
  | Some l =>
    match strip_start (chars "include") (drop_while white l) with
    | None => None
    | Some l =>
      match drop_while white l with
      | c :: l => if opening c then match strip_start (chars "bits/stdc++.h") l with Some (c :: rest) => if closing c then Some rest else None | _ => None end else None
      | [] => None
      end
    end
  end.
(** [Regex::find]: the offset and the length of the first match, that goes on to the end of the line *)
Fixpoint find_bits (line_start : bool) (pos : nat) (l : text) : option (nat * nat) :=
  match (if line_start then bits_at l else None) with
  | Some rest => Some (pos, length l - length (drop_while (fun c => negb (bool_decide (c = newline_byte))) rest))
  | None => match l with [] => None | c :: l => find_bits (bool_decide (c = newline_byte)) (S pos) l end
  end.
(** task.rs:104-123: of each file that matches, its path and the number of the line of its span; [inr]: an error.
    The name of the file in the span is not modelled *)
Fixpoint bits_spans (d : att_disk) (cwd : fpath) (files : list fpath) : list (fpath * nat) + string :=
  match files with
  | [] => inl []
  | p :: files =>
    match ad_bytes d (fjoin cwd p) with
    | None => bits_spans d cwd files
    | Some t =>
      match find_bits true 0 t with
      | None => bits_spans d cwd files
      | Some (start, len) =>
        match span_of [] t start len with
        | inr _ => inr "Multiline spans are not supported"
        | inl s => match bits_spans d cwd files with inl l => inl ((p, cs_number s) :: l) | inr e => inr e end
        end
      end
    end
  end.
(** task.rs:95-130 [NoBitsStdCpp::pre_hook]: a file is read at its path in the task, from the current directory [cwd] *)
Definition no_bits (d : att_disk) (cwd task : fpath) (files : list fpath) : hook_result :=
  match bits_spans d cwd (map (path_of task) files) with
  | inl [] => ([], None)
  | inl l => ([ABits l], None)
  | inr e => ([], Some e)
  end.
