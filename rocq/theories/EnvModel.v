(** * EnvModel: the compilers, from the environment (task-maker-lang: cpp.rs, c.rs, rust.rs [from_env], pascal.rs
    [find_fpc_cfg], lib.rs [LanguageManager::new])

    Definitions only.  Strings are bytes: a variable is UTF-8 or it is not.  [shell_split] is that of the crate shell-words,
    which is not in /repo: it is written here from its documentation and source (1.1).  [which::which] and the
    existence of files are parameters.  Non-UTF-8 paths: as bytes, [to_string_lossy] is left out. *)
From Verif Require Export LangModel.
From Coq Require Import Ascii String.
From stdpp Require Import base list.

(** ** shell_words::split *)
Inductive split_state := Delimiter | Backslash | Unquoted | UnquotedBackslash | SingleQuoted | DoubleQuoted | DoubleQuotedBackslash | Comment.
Definition quote : ascii := "'"%char.
Definition dquote : ascii := """"%char.
Definition backslash : ascii := "\"%char.
Definition eol : ascii := ascii_of_N 10.
Definition tab : ascii := ascii_of_N 9.
Definition is_delimiter (c : ascii) : bool := bool_decide (c = tab) || bool_decide (c = " "%char) || bool_decide (c = eol).
(** The words that are after the state [st], with [word] the word that has been read; [None] is [ParseError]. *)
Fixpoint split_from (st : split_state) (word : list ascii) (s : list ascii) : option (list (list ascii)) :=
  match s with
  | [] =>
    match st with
    | Delimiter | Comment => Some []
    | Backslash | UnquotedBackslash => Some [word ++ [backslash]]
    | Unquoted => Some [word]
    | SingleQuoted | DoubleQuoted | DoubleQuotedBackslash => None
    end
  | c :: s =>
    match st with
    | Delimiter =>
      if decide (c = quote) then split_from SingleQuoted word s
      else if decide (c = dquote) then split_from DoubleQuoted word s
      else if decide (c = backslash) then split_from Backslash word s
      else if is_delimiter c then split_from Delimiter word s
      else if decide (c = "#"%char) then split_from Comment word s
      else split_from Unquoted (word ++ [c]) s
    | Backslash => if decide (c = eol) then split_from Delimiter word s else split_from Unquoted (word ++ [c]) s
    | Unquoted =>
      if decide (c = quote) then split_from SingleQuoted word s
      else if decide (c = dquote) then split_from DoubleQuoted word s
      else if decide (c = backslash) then split_from UnquotedBackslash word s
      else if is_delimiter c then cons word <$> split_from Delimiter [] s
      else split_from Unquoted (word ++ [c]) s
    | UnquotedBackslash => if decide (c = eol) then split_from Unquoted word s else split_from Unquoted (word ++ [c]) s
    | SingleQuoted => if decide (c = quote) then split_from Unquoted word s else split_from SingleQuoted (word ++ [c]) s
    | DoubleQuoted =>
      if decide (c = dquote) then split_from Unquoted word s
      else if decide (c = backslash) then split_from DoubleQuotedBackslash word s
      else split_from DoubleQuoted (word ++ [c]) s
    | DoubleQuotedBackslash =>
      if decide (c = eol) then split_from DoubleQuoted word s
      else if decide (c ∈ ["$"%char; "`"%char; dquote; backslash]) then split_from DoubleQuoted (word ++ [c]) s
      else split_from DoubleQuoted (word ++ [backslash; c]) s
    | Comment => if decide (c = eol) then split_from Delimiter word s else split_from Comment word s
    end
  end.
Definition shell_split (s : string) : option (list string) := map string_of_list_ascii <$> split_from Delimiter [] (chars s).

(** ** The environment *)
Inductive os_string := Utf8 (s : string) | NotUtf8 (s : string).
Definition environment := string -> option os_string.
(** [std::env::var_os] *)
Definition var_os (env : environment) (k : string) : option string :=
  match env k with Some (Utf8 s) | Some (NotUtf8 s) => Some s | None => None end.
(** [std::env::var]: an error if the variable is not set or is not UTF-8 *)
Definition var (env : environment) (k : string) : option string :=
  match env k with Some (Utf8 s) => Some s | _ => None end.
Definition or_else {A} (a b : option A) : option A := match a with Some x => Some x | None => b end.
Definition unwrap_or {A} (a : option A) (d : A) : A := match a with Some x => x | None => d end.

(** cpp.rs:32-47; [None]: it panics *)
Definition cpp_from_env (env : environment) : option (string * string * list string) :=
  let compiler := unwrap_or (or_else (var_os env "TM_CXX") (var_os env "CXX")) "g++" in
  let std_version := unwrap_or (var env "TM_CXX_STD_VERSION") "c++17" in
  let extra_flags := unwrap_or (or_else (var env "TM_CXXFLAGS") (var env "CXXFLAGS")) "" in
  match shell_split extra_flags with
  | Some extra_flags => Some (compiler, std_version, extra_flags)
  | None => None
  end.
(** c.rs:37-52 *)
Definition c_from_env (env : environment) : option (string * string * list string) :=
  let compiler := unwrap_or (or_else (var_os env "TM_CC") (var_os env "CC")) "gcc" in
  let std_version := unwrap_or (var env "TM_CC_STD_VERSION") "c11" in
  let extra_flags := unwrap_or (or_else (var env "TM_CFLAGS") (var env "CFLAGS")) "" in
  match shell_split extra_flags with
  | Some extra_flags => Some (compiler, std_version, extra_flags)
  | None => None
  end.
(** rust.rs:24-29 *)
Definition rust_from_env (env : environment) : option string := or_else (var_os env "TM_RUSTUP_HOME") (var_os env "RUSTUP_HOME").

(** pascal.rs:74-99; [exists_file] is [Path::exists], [which] what [which::which("fpc")] finds *)
Section fpc.
  Context (exists_file : fpath -> bool) (which : option fpath).
  Definition if_exists (p : fpath) : option fpath := if exists_file p then Some p else None.
  Definition find_fpc_cfg (env : environment) : option fpath :=
    or_else (home ← var env "HOME"; if_exists (fjoin (fpath_of (chars home)) (FPath false [".fpc.cfg"])))
    (or_else (config_path ← var env "PPC_CONFIG_PATH"; if_exists (fjoin (fpath_of (chars config_path)) (FPath false ["fpc.cfg"])))
    (or_else (fpc ← which; fpc_parent ← parent fpc; fpc_parent ← parent fpc_parent; if_exists (fjoin fpc_parent (FPath false ["etc"; "fpc.cfg"])))
    (if_exists (FPath true ["etc"; "fpc.cfg"])))).
  (** lib.rs:72-92 [LanguageManager::new], done once when the first language is searched (lib.rs:135-138), with the
      configuration of Pascal, which is read at each compilation. *)
  Definition lang_env_of (env : environment) : option lang_env :=
    match cpp_from_env env, c_from_env env with
    | Some (cxx, cxx_std, cxx_flags), Some (cc, cc_std, cc_flags) =>
      Some (LangEnv cxx cxx_std cxx_flags cc cc_std cc_flags (rust_from_env env) (find_fpc_cfg env))
    | _, _ => None
    end.
End fpc.
