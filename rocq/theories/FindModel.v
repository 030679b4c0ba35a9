(** * FindModel: which files are the programs of a task

    Models task-maker-format/src/lib.rs [list_files], [EvaluationConfig::find_solutions], [find_source_file]; the choice of the
    validator, of the official solution, of the checker, of the manager and of the generator
    (ioi/format/italian_yaml/mod.rs, gen_gen.rs), of the managers of a Terry task (terry/format/mod.rs) and
    terry/mod.rs [clean].

    Simplifications:
    - Text, paths and the languages are those of [LangModel].
    - The crate [glob] is not in /repo: [glob] follows its version 0.3 (an invalid pattern is an error; a component without
      wildcards is looked up, another one is matched against the entries of the directory, in the order of their names).
      [**] is read as [*]: no pattern of the modelled functions has it.
    - What cannot be read while globbing is skipped ([flatten]).
    - [Solution::new] (solution.rs:30-51) fails when the language is unknown or the file cannot be read (C63: it has
      no other reason); the panics are [None]. *)
From Verif Require Export LangModel.
From Coq Require Import Ascii String.
From stdpp Require Import base list sorting.
Local Open Scope nat_scope.

(** The disk: the entries of a directory, in any order ([None]: not a directory); what exists (following the links); the
    files that can be read as text *)
Record tree := Tree { ls : fpath -> option (list string); stat : fpath -> bool; readable : fpath -> bool }.
Definition child (p : fpath) (c : string) : fpath := FPath (p_abs p) (p_comps p ++ [c]).

(** ** The crate [glob] *)
Inductive tok := TChar (c : ascii) | TAny | TStar | TOne (neg : bool) (cs : list (ascii * ascii)).
(** what is before and after the first [c] *)
Fixpoint cut_at (c : ascii) (l : text) : option (text * text) :=
  match l with
  | [] => None
  | x :: l => if decide (x = c) then Some ([], l) else match cut_at c l with Some (a, b) => Some (x :: a, b) | None => None end
  end.
(** [parse_char_specifiers] *)
Fixpoint specifiers (l : text) : list (ascii * ascii) :=
  match l with
  | [] => []
  | a :: l1 => match l1 with
               | m :: b :: l2 => if decide (m = "-"%char) then (a, b) :: specifiers l2 else (a, a) :: specifiers l1
               | _ => (a, a) :: specifiers l1
               end
  end.
(** after a bracket: the negation, the characters, what remains *)
Definition bracket (l : text) : option (bool * text * text) :=
  match l with
  | c :: l => if decide (c = "!"%char)
              then match l with d :: l => match cut_at "]"%char l with Some (a, b) => Some (true, d :: a, b) | None => None end | [] => None end
              else match cut_at "]"%char l with Some (a, b) => Some (false, c :: a, b) | None => None end
  | [] => None
  end.
(** [Pattern::new]; [None]: an error.  [n]: at least the length *)
Fixpoint parse_pattern (n : nat) (l : text) : option (list tok) :=
  match n, l with
  | _, [] => Some []
  | 0, _ => None
  | S n, c :: l =>
    if decide (c = "?"%char) then option_map (cons TAny) (parse_pattern n l)
    else if decide (c = "*"%char) then option_map (cons TStar) (parse_pattern n l)
    else if decide (c = "["%char) then
      match bracket l with
      | Some (neg, cs, l) => option_map (cons (TOne neg (specifiers cs))) (parse_pattern n l)
      | None => None
      end
    else option_map (cons (TChar c)) (parse_pattern n l)
  end.
Definition pattern_of (s : string) : option (list tok) := parse_pattern (String.length s) (chars s).
Definition in_range (c : ascii) (r : ascii * ascii) : bool :=
  (nat_of_ascii (fst r) <=? nat_of_ascii c) && (nat_of_ascii c <=? nat_of_ascii (snd r)).
(** [Pattern::matches] on the name of a file (a hidden file is like the others) *)
Fixpoint tok_match (ts : list tok) (l : text) : bool :=
  match ts with
  | [] => match l with [] => true | _ => false end
  | TStar :: ts => (fix any (l : text) : bool := tok_match ts l || match l with [] => false | _ :: l => any l end) l
  | TAny :: ts => match l with _ :: l => tok_match ts l | [] => false end
  | TChar c :: ts => match l with x :: l => bool_decide (x = c) && tok_match ts l | [] => false end
  | TOne neg cs :: ts => match l with x :: l => xorb neg (existsb (in_range x) cs) && tok_match ts l | [] => false end
  end.
(** [pattern_as_str]: a component without wildcards *)
Fixpoint literal (ts : list tok) : option text :=
  match ts with
  | [] => Some []
  | TChar c :: ts => option_map (cons c) (literal ts)
  | _ :: _ => None
  end.
(** the order of the names, byte by byte *)
Definition name_le (a b : string) : Prop := String.leb a b = true.
Global Instance name_le_dec : RelDecision name_le.
Proof. unfold name_le. solve_decision. Defined.
(** [fill_todo] and the iterator *)
Fixpoint glob_in (d : tree) (dir : fpath) (pats : list (list tok)) : list fpath :=
  match pats with
  | [] => [dir]
  | p :: pats =>
    match literal p with
    | Some s => let n := child dir (string_of_list_ascii s) in if stat d n then glob_in d n pats else []
    | None =>
      match ls d dir with
      | Some names => merge_sort name_le (filter (fun c => tok_match p (chars c) = true) names) ≫= fun c => glob_in d (child dir c) pats
      | None => []
      end
    end
  end.
(** [glob::glob]; [None]: an invalid pattern.  A leading ["."] is not repeated in the results. *)
Definition glob (d : tree) (p : fpath) : option (list fpath) :=
  match mapM pattern_of (filter (fun c => c <> ".") (p_comps p)) with
  | Some pats => Some (glob_in d (FPath (p_abs p) []) pats)
  | None => None
  end.

(** lib.rs:224-238 [list_files]; [None]: the panic "Invalid pattern for list_files" *)
Definition list_files (d : tree) (cwd : fpath) (patterns : list string) : option (list fpath) :=
  match mapM (fun p => glob d (fjoin cwd (fpath_of (chars p)))) patterns with
  | Some l => Some (concat l)
  | None => None
  end.

(** ** The solutions *)
Record eval_config := EvalConfig { ec_filter : list string; ec_paths : list fpath }.
(** lib.rs:160-173 [solution_filters]; [None]: the panic "Invalid filter provided" *)
Definition solution_filters (c : eval_config) : option (list string) :=
  mapM (fun f => file_name (fpath_of (chars f))) (ec_filter c).
(** lib.rs:177-183 [solution_paths] *)
Definition solution_paths (d : tree) (c : eval_config) (base : fpath) (patterns : list string) : option (list fpath) :=
  match ec_paths c with [] => list_files d base patterns | l => Some l end.
Definition starts (p l : text) : bool := match strip_start p l with Some _ => true | None => false end.
(** lib.rs:208-216; [None]: the panic of a path without a file name *)
Definition passes_filter (c : eval_config) (filters : list string) (p : fpath) : option bool :=
  match ec_filter c with
  | [] => Some true
  | _ => match file_name p with
         | Some n => Some (existsb (fun f => starts (chars f) (chars n)) filters)
         | None => None
         end
  end.
(** solution.rs:30-51 [Solution::new]: the file and its language; [None]: the panic of a path without a file name *)
Definition solution_new (d : tree) (p : fpath) : option (option (fpath * lang)) :=
  match file_name p with
  | None => None
  | Some _ => Some (match detect_language p with Some l => if readable d p then Some (p, l) else None | None => None end)
  end.
(** lib.rs:202-220: the chain of filters is lazy, a path is treated before the next one *)
Fixpoint pick_solutions (d : tree) (c : eval_config) (filters : list string) (graders : list fpath) (l : list fpath)
    : option (list (fpath * lang)) :=
  match l with
  | [] => Some []
  | p :: l =>
    if bool_decide (p ∈ graders) then pick_solutions d c filters graders l
    else if negb (stat d p) then pick_solutions d c filters graders l
    else match passes_filter c filters p with
         | None => None
         | Some false => pick_solutions d c filters graders l
         | Some true =>
           match solution_new d p with
           | None => None
           | Some None => pick_solutions d c filters graders l
           | Some (Some s) => option_map (cons s) (pick_solutions d c filters graders l)
           end
         end
  end.
(** lib.rs:190-221 [find_solutions]; [graders]: what [GraderMap::all_paths] returns *)
Definition find_solutions (d : tree) (c : eval_config) (base : fpath) (patterns : list string) (graders : list fpath)
    : option (list (fpath * lang)) :=
  match solution_paths d c base patterns, solution_filters c with
  | Some l, Some filters => pick_solutions d c filters graders l
  | _, _ => None
  end.
(** task-maker-lang/src/grader_map.rs:103-105 [all_paths] of the [grader_map] of [LangModel] *)
Definition all_paths (m : list (string * (file_uuid * fpath))) : list fpath := map (fun x => snd (snd x)) m.
(** the files of [GraderMap::new] are numbered: their handles are of no use here *)
Definition used_graders (l : list fpath) : list fpath := all_paths (grader_map (map (fun p => (1%positive, p)) l) []).
(** italian_yaml/mod.rs:539-540, ioi/mod.rs:272-277: the solutions of an IOI task *)
Definition ioi_solutions (d : tree) (c : eval_config) (task : fpath) : option (list (fpath * lang)) :=
  match list_files d task ["sol/grader.*"; "sol/stub.*"] with
  | Some graders => find_solutions d c task ["sol/*"] (used_graders graders)
  | None => None
  end.
(** terry/mod.rs:174: the solutions of a Terry task *)
Definition terry_solutions (d : tree) (c : eval_config) (task : fpath) : option (list (fpath * lang)) :=
  find_solutions d c task ["solutions/*"] [].

(** ** The other programs *)
(** lib.rs:240-256 [WriteBinTo] (the variant [None] is not used) *)
Inductive write_bin := WithoutExtension | WriteTo (p : string).
(** [Path::with_extension("")] *)
Definition without_extension (p : fpath) : fpath :=
  match file_name p with
  | Some n => FPath (p_abs p) (removelast (p_comps p) ++ [string_of_list_ascii (fst (stem_ext n))])
  | None => p
  end.
(** lib.rs:258-296 [find_source_file]: the files and where their executables go *)
Definition find_source_file (d : tree) (cwd : fpath) (patterns : list string) (w : write_bin) : option (list (fpath * fpath)) :=
  match list_files d cwd patterns with
  | Some l =>
    Some (map (fun p => (p, match w with WithoutExtension => without_extension p | WriteTo b => fjoin cwd (fpath_of (chars b)) end))
      (filter (fun p => stat d p = true /\ is_Some (detect_language p)) l))
  | None => None
  end.
(** no file, one file (and its executable), more than one (an error), a panic *)
Inductive found := FNone | FOne (src dest : fpath) | FMany (l : list fpath) | FPanic.
Definition the_only (d : tree) (cwd : fpath) (patterns : list string) (w : write_bin) : found :=
  match find_source_file d cwd patterns w with
  | None => FPanic
  | Some [] => FNone
  | Some [(p, b)] => FOne p b
  | Some l => FMany (map fst l)
  end.
(** italian_yaml/mod.rs:722-742 [detect_validator] *)
Definition detect_validator (d : tree) (task : fpath) : found :=
  the_only d task ["gen/validator.*"; "gen/valida.*"; "gen/validator"; "gen/valida"] (WriteTo "bin/validator").
(** italian_yaml/mod.rs:763-787 [detect_output_generator] *)
Definition detect_official (d : tree) (task : fpath) : found :=
  the_only d task ["sol/solution.*"; "sol/soluzione.*"; "sol/solution"; "sol/soluzione"] (WriteTo "bin/official_solution").
(** italian_yaml/mod.rs:800-812 [parse_batch_task_data] *)
Definition detect_checker (d : tree) (task : fpath) : found :=
  the_only d task ["check/checker.*"; "cor/correttore.*"] WithoutExtension.
(** italian_yaml/mod.rs:843-859 [parse_communication_task_data] *)
Definition detect_manager (d : tree) (task : fpath) : found :=
  the_only d task ["check/manager.*"; "cor/manager.*"] WithoutExtension.
(** gen_gen.rs:62-80; there no generator is an error *)
Definition detect_generator (d : tree) (task : fpath) : found :=
  the_only d task ["gen/generator.*"; "gen/generatore.*"; "gen/generator"; "gen/generatore"] (WriteTo "bin/generator").
(** terry/format/mod.rs:66-86 [get_manager]; [exe]: the extension of the executables of this machine *)
Definition get_manager (d : tree) (task : fpath) (exe : string) (manager : string) : found :=
  the_only d task ["managers/" +:+ manager +:+ ".*"] (WriteTo ("managers/" +:+ manager +:+ "." +:+ exe)).

(** ** terry/mod.rs:232-258 [clean] *)
Definition file_stem (name : string) : string := string_of_list_ascii (fst (stem_ext name)).
(** mod.rs:239-240: the stem of the stem; [None]: the panic of a stem that is [.] or [..] *)
Definition double_stem (name : string) : option string :=
  let s := file_stem name in if decide (s = "." \/ s = "..") then None else Some (file_stem s).
(** mod.rs:238-249: the files removed, and whether the end was reached *)
Fixpoint clean_loop (d : tree) (managers : list string) (l : list fpath) : list fpath * bool :=
  match l with
  | [] => ([], true)
  | p :: l =>
    match file_name p with
    | None => ([], false)
    | Some n =>
      match double_stem n with
      | None => ([], false)
      | Some s =>
        if bool_decide (s ∈ managers) then
          if ls d p then ([], false)
          else let (r, b) := clean_loop d managers l in (p :: r, b)
        else clean_loop d managers l
      end
    end
  end.
(** [None]: the panic of [list_files]; otherwise the files removed and, if the end was reached, the directory bin/ when
    it exists *)
Definition terry_clean (d : tree) (task : fpath) : option (list fpath * bool) :=
  match list_files d task ["managers/*.*"], list_files d task ["managers/*.*.*"] with
  | Some all, Some maybe =>
    let managers := omap (fun p => option_map file_stem (file_name p)) all in
    let (r, b) := clean_loop d managers maybe in
    let bin := child task "bin" in
    Some (if b then (if stat d bin then r ++ [bin] else r, true) else (r, false))
  | _, _ => None
  end.
