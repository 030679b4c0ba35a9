(** * LangModel: the dependencies of a source file and the languages

    Models task-maker-lang: languages/mod.rs [find_dependencies], languages/cpp.rs [extract_includes], languages/python.rs
    [extract_imports], lib.rs [LanguageManager], language.rs and the eight languages, grader_map.rs.

    Simplifications:
    - Text is ASCII: [\s], [trim] and [to_lowercase] are those of ASCII.
    - A path is a flag (absolute) and its components; ["."] is a component only at the start of a relative path
      (as in [Path::components], on which the comparison of two paths is based).
    - The disk is [disk]: which paths exist and the text of those that can be read.
    - The configuration of the compilers (environment variables) is [lang_env]. *)
From Verif Require Export BuildModel.
From Coq Require Import Ascii String.
From stdpp Require Import base list.
Local Open Scope nat_scope.

(** ** Paths *)
Record fpath := FPath { p_abs : bool; p_comps : list string }.
Global Instance fpath_eq_dec : EqDecision fpath.
Proof. solve_decision. Defined.

Definition text := list ascii.
Definition chars (s : string) : text := list_ascii_of_string s.
Definition is_sep (sep : ascii) (c : ascii) : bool := bool_decide (c = sep).
(** split on a character: always at least one piece *)
Fixpoint split_on (sep : ascii) (l : text) : list text :=
  match l with
  | [] => [[]]
  | c :: l => if decide (c = sep) then [] :: split_on sep l
              else match split_on sep l with p :: ps => (c :: p) :: ps | [] => [[c]] end
  end.
(** [PathBuf::from]: empty components and, except at the start of a relative path, ["."] are not components *)
Definition real_comp (c : text) : bool := negb (bool_decide (c = [])) && negb (bool_decide (c = chars ".")).
Definition fpath_of (l : text) : fpath :=
  let cs := split_on "/"%char l in
  match cs with
  | [] :: _ :: _ => FPath true (map string_of_list_ascii (filter (fun c => real_comp c = true) cs))
  | c :: _ => FPath false ((if decide (c = chars ".") then ["."] else []) ++ map string_of_list_ascii (filter (fun c => real_comp c = true) cs))
  | [] => FPath false []
  end.
(** [Path::join] on a non-empty base *)
Definition fjoin (b p : fpath) : fpath :=
  if p_abs p then p else FPath (p_abs b) (p_comps b ++ filter (fun c => c <> ".") (p_comps p)).
(** [Path::file_name]: the last component, unless it is [..] *)
Definition file_name (p : fpath) : option string :=
  match last (p_comps p) with Some c => if decide (c = ".." \/ c = ".") then None else Some c | None => None end.
(** [Path::parent] *)
Definition parent (p : fpath) : option fpath :=
  match p_comps p with [] => None | _ => Some (FPath (p_abs p) (removelast (p_comps p))) end.
(** [Path::with_file_name] *)
Definition with_file_name (p i : fpath) : fpath :=
  fjoin (if file_name p then FPath (p_abs p) (removelast (p_comps p)) else p) i.
(** [Path::extension], [Path::file_stem]: after and before the last dot of the file name, if it is not its first character *)
Fixpoint last_dot (l : text) : option (text * text) :=
  match l with
  | [] => None
  | c :: l => match last_dot l with
              | Some (a, b) => Some (c :: a, b)
              | None => if decide (c = "."%char) then Some ([], l) else None
              end
  end.
Definition stem_ext (name : string) : text * option text :=
  match last_dot (chars name) with
  | Some ((_ :: _) as a, b) => (a, Some b)
  | _ => (chars name, None)
  end.

Record disk := Disk { d_exists : fpath -> bool; d_text : fpath -> option text }.

(** ** languages/mod.rs:26-62 [find_dependencies] *)
(** mod.rs:40-58: the imports of one file; [done]: the files that were looked at; the result is the pairs
    (local path, path in the sandbox) in order *)
Fixpoint add_imports (d : disk) (base : fpath) (seen : list fpath) (imports : list (fpath * fpath))
    (pending : list fpath) (result : list (fpath * fpath)) : list fpath * list (fpath * fpath) :=
  match imports with
  | [] => (pending, result)
  | (local, sandbox) :: imports =>
    let local := fjoin base local in
    if d_exists d local && negb (bool_decide (local ∈ seen)) && negb (bool_decide (sandbox ∈ result.*2))
    then add_imports d base seen imports (pending ++ [local]) (result ++ [(local, sandbox)])
    else add_imports d base seen imports pending result
  end.
(** mod.rs:36-59: the loop; [None] if [fuel] iterations are not enough *)
Fixpoint deps_loop (d : disk) (extract : fpath -> list (fpath * fpath)) (base : fpath) (fuel : nat)
    (pending seen : list fpath) (result : list (fpath * fpath)) : option (list (fpath * fpath)) :=
  match pending with
  | [] => Some result
  | p :: pending =>
    match fuel with
    | O => None
    | S fuel =>
      let seen := p :: seen in
      let '(pending, result) := add_imports d base seen (extract p) pending result in
      deps_loop d extract base fuel pending seen result
    end
  end.
Definition find_dependencies (d : disk) (extract : fpath -> list (fpath * fpath)) (fuel : nat) (root : fpath) : option (list (fpath * fpath)) :=
  match parent root with
  | None => None
  | Some base => deps_loop d extract base fuel [root] [] []
  end.

(** ** languages/cpp.rs:106-129 [extract_includes] *)
Definition white (c : ascii) : bool := bool_decide (c ∈ [" "; "009"; "010"; "011"; "012"; "013"]%char).
Fixpoint strip_start (p l : text) : option text :=
  match p, l with
  | [], _ => Some l
  | a :: p, b :: l => if decide (a = b) then strip_start p l else None
  | _ :: _, [] => None
  end.
Fixpoint drop_while (f : ascii -> bool) (l : text) : text :=
  match l with c :: r => if f c then drop_while f r else l | [] => [] end.
Fixpoint span (f : ascii -> bool) (l : text) : text * text :=
  match l with
  | c :: r => if f c then let '(a, b) := span f r in (c :: a, b) else ([], l)
  | [] => ([], [])
  end.
Definition dq : ascii := "034".
Definition opening (c : ascii) : bool := bool_decide (c = "<"%char) || bool_decide (c = dq).
Definition closing (c : ascii) : bool := bool_decide (c = ">"%char) || bool_decide (c = dq).
(** the regex of cpp.rs:108 at the start of the text ([#include], white space, an opening quote, some characters that are not
    closing quotes, a closing quote): the captured name and what follows *)
Definition match_include (l : text) : option (text * text) :=
  match strip_start (chars "#include") l with
  | None => None
  | Some r =>
    match drop_while white r with
    | [] => None
    | o :: r =>
      if opening o then
        let '(name, r) := span (fun c => negb (closing c)) r in
        match name, r with
        | _ :: _, _ :: r => Some (name, r)
        | _, _ => None
        end
      else None
    end
  end.
(** [Regex::captures_iter]; the fuel is the length of the text *)
Fixpoint scan_includes (fuel : nat) (l : text) : list text :=
  match fuel, l with
  | S fuel, _ :: l' =>
    match match_include l with
    | Some (name, rest) => name :: scan_includes fuel rest
    | None => scan_includes fuel l'
    end
  | _, _ => []
  end.
Definition includes (l : text) : list text := scan_includes (length l) l.
Definition extract_includes (d : disk) (p : fpath) : list (fpath * fpath) :=
  match d_text d p with
  | None => []
  | Some content => map (fun name => (with_file_name p (fpath_of name), fpath_of name)) (includes content)
  end.
Definition find_cpp_deps (d : disk) := find_dependencies d (extract_includes d).

(** ** languages/python.rs:86-111 [extract_imports] *)
Definition space (c : ascii) : bool := bool_decide (c = " "%char).
Fixpoint trim_end (l : text) : text :=
  match l with
  | [] => []
  | c :: l => match trim_end l with [] => if white c then [] else [c] | r => c :: r end
  end.
Definition trim (l : text) : text := trim_end (drop_while white l).
(** [import +(.+)]: the group *)
Definition match_import (l : text) : option text :=
  match strip_start (chars "import") l with
  | Some (c :: r) =>
    if space c then
      match drop_while space r with
      | [] => match r with [] => None | _ => Some [" "%char] end
      | g => Some g
      end
    else None
  | _ => None
  end.
(** the last occurrence of [ import] after at least [n] characters *)
Fixpoint last_import (n : nat) (l : text) : option (text * text) :=
  match l with
  | [] => None
  | c :: r =>
    match last_import (n - 1) r with
    | Some (a, b) => Some (c :: a, b)
    | None => match n with
              | O => match strip_start (chars " import") l with Some b => Some ([], b) | None => None end
              | S _ => None
              end
    end
  end.
(** [from +(.+) +import]: the group (up to spaces at its ends) and what follows *)
Definition match_from (l : text) : option (text * text) :=
  match strip_start (chars "from") l with
  | Some (c :: r) => if space c then last_import 1 r else None
  | _ => None
  end.
(** the matches in a line; a [.] is not a newline *)
Fixpoint scan_imports (fuel : nat) (l : text) : list text :=
  match fuel, l with
  | S fuel, _ :: l' =>
    match match_import l with
    | Some g => map trim (split_on ","%char g)
    | None => match match_from l with
              | Some (g, rest) => trim g :: scan_imports fuel rest
              | None => scan_imports fuel l'
              end
    end
  | _, _ => []
  end.
Definition imports_of (content : text) : list text := split_on "010"%char content ≫= fun l => scan_imports (length l) l.
Definition extract_imports (d : disk) (p : fpath) : list (fpath * fpath) :=
  match d_text d p with
  | None => []
  | Some content => map (fun name => (fpath_of (name ++ chars ".py"), fpath_of (name ++ chars ".py"))) (imports_of content)
  end.
Definition find_python_deps (d : disk) := find_dependencies d (extract_imports d).

(** ** The languages *)
Inductive lang := LCpp | LC | LPython | LShell | LPascal | LRust | LCSharp | LJS.
Global Instance lang_eq_dec : EqDecision lang.
Proof. solve_decision. Defined.
(** lib.rs:72-91 *)
Definition known_languages : list lang := [LCpp; LC; LPython; LShell; LPascal; LRust; LCSharp; LJS].
Definition lang_name (l : lang) : string :=
  match l with
  | LCpp => "C++" | LC => "C" | LPython => "Python / Autodetect" | LShell => "Shell" | LPascal => "Pascal / fpc"
  | LRust => "Rust" | LCSharp => "C#" | LJS => "JavaScript"
  end.
Definition extensions (l : lang) : list string :=
  match l with
  | LCpp => ["cpp"; "cc"; "c++"] | LC => ["c"] | LPython => ["py"] | LShell => ["sh"] | LPascal => ["pas"]
  | LRust => ["rs"] | LCSharp => ["cs"] | LJS => ["js"; "cjs"; "mjs"]
  end.
Definition need_compilation (l : lang) : bool :=
  match l with LCpp | LC | LPascal | LRust | LCSharp => true | LPython | LShell | LJS => false end.

Definition lower (c : ascii) : ascii :=
  let n := nat_of_ascii c in if bool_decide (65 <= n) && bool_decide (n <= 90) then ascii_of_nat (n + 32) else c.
(** lib.rs:104-121 [detect_language] *)
Definition detect_language (p : fpath) : option lang :=
  let ext := match file_name p with
             | Some n => match snd (stem_ext n) with Some e => map lower e | None => [] end
             | None => [] end in
  find (fun l => existsb (fun e => bool_decide (ext = chars e)) (extensions l)) known_languages.
(** lib.rs:124-132 [from_name] *)
Definition from_name (n : string) : option lang := find (fun l => bool_decide (lang_name l = n)) known_languages.

(** language.rs:86-92 [executable_name]; shell.rs:48-51.  A path without a file name is a panic: [None]. *)
Definition executable_name (l : lang) (p : fpath) (write_to : option fpath) : option string :=
  match l, write_to with
  | LShell, _ => file_name p
  | _, Some w => file_name w
  | _, None => match file_name p with Some n => Some (string_of_list_ascii (fst (stem_ext n))) | None => None end
  end.
(** language.rs:52-54, python.rs:54-62 (Autodetect), javascript.rs:35-37, csharp.rs:60-62 *)
Definition runtime_command (l : lang) (exe : string) : command :=
  match l with LCSharp => System "mono" | LJS => System "node" | _ => Local exe end.
(** language.rs:57-64, python.rs:64-83 (Autodetect), javascript.rs:39-51, csharp.rs:64-76: [args.push] *)
Definition runtime_args (l : lang) (exe : string) (args : list string) : list string :=
  match l with LCSharp | LJS => args ++ [exe] | _ => args end.
(** javascript.rs:53-55, shell.rs:44-46, csharp.rs:78-83 *)
Definition custom_limits (l : lang) (lim : limits) : limits :=
  match l with
  | LJS | LShell => allow_multiprocess lim
  | LCSharp =>
      let lim := add_readable_dirs ["/etc/mono"] lim in
      allow_multiprocess (set_mounts (l_read_only lim) (l_mount_tmpfs lim) true lim)
  | _ => lim
  end.

(** The environment of the compilers: cpp.rs:31-45, c.rs:38-54, rust.rs:23-30, pascal.rs:67-97. *)
Record lang_env := LangEnv {
  le_cxx : string; le_cxx_std : string; le_cxx_flags : list string;
  le_cc : string; le_cc_std : string; le_cc_flags : list string;
  le_rustup : option path; le_fpc_cfg : option fpath }.

(** [Path::to_str] *)
Definition show_path (p : fpath) : string := (if p_abs p then "/" else "") +:+ String.concat "/" (p_comps p).
Definition dep_of (p : fpath * fpath) : dependency := Dependency (show_path (fst p)) (show_path (snd p)).

(** language.rs:177-188: names starting with - can be interpreted as command line options *)
Definition source_name (name : string) : string := match name with String c _ => if decide (c = "-"%char) then "./" +:+ name else name | _ => name end.
Definition binary_name : string := "__compiled".
(** the [compilation_builder] of the languages: cpp.rs:69-101, c.rs:72-107, pascal.rs:39-66, rust.rs:70-114, csharp.rs:35-58;
    [name]: the file name of the source, [static]: [list_static], [deps]: what [find_cpp_deps] returns *)
Definition compilation (l : lang) (env : lang_env) (name : string) (static : bool) (deps : list (fpath * fpath)) : option compile_spec :=
  match l with
  | LCpp => Some (CompileSpec (System (le_cxx env))
      (["-O2"; "-Wall"; "-ggdb3"; "-DEVAL"; "-fdiagnostics-color=always"; "-std=" +:+ le_cxx_std env; "-o"; binary_name] ++
       le_cxx_flags env ++ (if static then ["-static"] else [])) (source_name name) binary_name (map dep_of deps) false [] [])
  | LC => Some (CompileSpec (System (le_cc env))
      (["-O2"; "-Wall"; "-ggdb3"; "-DEVAL"; "-fdiagnostics-color=always"; "-std=" +:+ le_cc_std env; "-o"; binary_name; "-lm"] ++
       le_cc_flags env ++ (if static then ["-static"] else [])) (source_name name) binary_name (map dep_of deps) false [] [])
  | LPascal => Some (CompileSpec (System "fpc") ["-dEVAL"; "-Fe/dev/stderr"; "-O2"; "-XS"; "-o" +:+ binary_name] (source_name name) binary_name
      (match le_fpc_cfg env with Some p => [Dependency (show_path p) "fpc.cfg"] | None => [] end) false [] [])
  | LRust => Some (CompileSpec (System "rustc")
      (["-O"; "--cfg"; "EVAL"; "-o"; binary_name] ++ (if static then ["--target"; "x86_64-unknown-linux-musl"] else []))
      "source.rs" binary_name [] true
      (match le_rustup env with Some p => [("RUSTUP_HOME", p)] | None => [] end) (match le_rustup env with Some p => [p] | None => [] end))
  | LCSharp => Some (CompileSpec (System "mcs") ["-define:EVAL"; "-optimize+"; "-out:" +:+ binary_name] (source_name name) binary_name [] false [] ["/etc/mono"])
  | LPython | LShell | LJS => None
  end.

(** ** grader_map.rs:32-54 [GraderMap::new]: for each language the last grader; [fresh_of]: the handles *)
Fixpoint grader_map (graders : list (file_uuid * fpath)) (m : list (string * (file_uuid * fpath))) : list (string * (file_uuid * fpath)) :=
  match graders with
  | [] => m
  | (f, g) :: graders =>
    match detect_language g with
    | Some l => grader_map graders (ainsert (lang_name l) (f, g) m)
    | None => grader_map graders m
    end
  end.
Definition grader_dep (p : fpath) : dependency := Dependency (show_path p) (match file_name p with Some n => n | None => "" end).
(** grader_map.rs:66-72 [get_compilation_deps], 85-91 [get_runtime_deps] *)
Definition compilation_grader (m : list (string * (file_uuid * fpath))) (l : lang) : option (file_uuid * fpath) :=
  if negb (need_compilation l) then None else aget (lang_name l) m.
Definition runtime_graders (m : list (string * (file_uuid * fpath))) (l : lang) : list (file_uuid * fpath) :=
  if need_compilation l then [] else match aget (lang_name l) m with Some g => [g] | None => [] end.

(** source_file.rs:52-74 [SourceFile::new], as the [source] of [BuildModel]; [cdeps] and [pdeps]: what [find_cpp_deps] and
    [find_python_deps] return for this file.  [None]: unknown language (or a path without a file name). *)
Definition make_source (env : lang_env) (m : list (string * (file_uuid * fpath))) (i : positive) (p : fpath) (base : string)
    (write_to : option fpath) (copy static : bool) (cdeps pdeps : list (fpath * fpath)) : option source :=
  match detect_language p, file_name p with
  | Some l, Some name =>
    match executable_name l p write_to with
    | Some exe =>
      Some (Source i (show_path p) base (compilation l env name static cdeps)
        (match aget (lang_name l) m with Some (f, g) => Some (f, grader_dep g) | None => None end)
        (option_map show_path write_to) copy exe (runtime_command l exe) (runtime_args l exe)
        (match l with LPython => map dep_of pdeps | _ => [] end) (custom_limits l))
    | None => None
    end
  | _, _ => None
  end.
