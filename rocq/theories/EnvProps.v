(** * C105: the compilers, and their options, are those that the environment says. *)
From Verif Require Import EnvSpec EnvProofs.
From Coq Require Import Ascii String.
From stdpp Require Import base option list.

(** ** The words of TM_CXXFLAGS and TM_CFLAGS *)
(** Words without special characters are separated by blanks, as many as one wants. *)
Theorem C105_plain s ws : laid_out s ws -> shell_split (string_of_list_ascii s) = Some (map string_of_list_ascii ws).
Proof. intros H. by apply split_inverse, split_laid_out. Qed.
(** All lists of words, with any characters, can be written. *)
Theorem C105_quoted ws : shell_split (string_of_list_ascii (quoted_line ws)) = Some (map string_of_list_ascii ws).
Proof. apply split_inverse, split_quoted_line. Qed.
(** Only a quote can be wrong. *)
Theorem C105_no_quotes s : Forall (fun c => c <> "'"%char /\ c <> """"%char) (chars s) -> is_Some (shell_split s).
Proof. intros H. unfold shell_split. apply fmap_is_Some. apply split_no_quotes; [done|by intros []]. Qed.

(** ** The command lines *)
Section env.
  Context (exists_file : fpath -> bool) (which : option fpath) (env : environment).
  Notation config := (lang_env_of exists_file which env).

  (** C++: the compiler and the options are those of the first variable that is there, and the options come after the
      fixed ones. *)
  Theorem C105_cpp le name static deps cs : config = Some le -> compilation LCpp le name static deps = Some cs ->
    (exists compiler, cs_compiler cs = System compiler /\ first_of [var_os env "TM_CXX"; var_os env "CXX"; Some "g++"] compiler) /\
    exists std text flags, first_of [var env "TM_CXX_STD_VERSION"; Some "c++17"] std /\
      first_of [var env "TM_CXXFLAGS"; var env "CXXFLAGS"; Some ""] text /\ shell_split text = Some flags /\
      cs_args cs = ["-O2"; "-Wall"; "-ggdb3"; "-DEVAL"; "-fdiagnostics-color=always"; "-std=" +:+ std; "-o"; cs_binary cs] ++
        flags ++ (if static then ["-static"] else []).
  Proof.
    unfold lang_env_of, cpp_from_env, c_from_env. intros H Hc.
    destruct (shell_split (unwrap_or (or_else (var env "TM_CXXFLAGS") _) _)) as [f1|] eqn:E1; [|done].
    destruct (shell_split (unwrap_or (or_else (var env "TM_CFLAGS") _) _)) as [f2|] eqn:E2; [|done].
    injection H as <-. cbn [compilation] in Hc. injection Hc as <-. split.
    - eexists. split; [reflexivity|]. apply first_or_else.
    - eexists _, _, _. split; [apply first_unwrap|]. split; [apply first_or_else|]. split; [exact E1|]. reflexivity.
  Qed.
  Theorem C105_c le name static deps cs : config = Some le -> compilation LC le name static deps = Some cs ->
    (exists compiler, cs_compiler cs = System compiler /\ first_of [var_os env "TM_CC"; var_os env "CC"; Some "gcc"] compiler) /\
    exists std text flags, first_of [var env "TM_CC_STD_VERSION"; Some "c11"] std /\
      first_of [var env "TM_CFLAGS"; var env "CFLAGS"; Some ""] text /\ shell_split text = Some flags /\
      cs_args cs = ["-O2"; "-Wall"; "-ggdb3"; "-DEVAL"; "-fdiagnostics-color=always"; "-std=" +:+ std; "-o"; cs_binary cs; "-lm"] ++
        flags ++ (if static then ["-static"] else []).
  Proof.
    unfold lang_env_of, cpp_from_env, c_from_env. intros H Hc.
    destruct (shell_split (unwrap_or (or_else (var env "TM_CXXFLAGS") _) _)) as [f1|] eqn:E1; [|done].
    destruct (shell_split (unwrap_or (or_else (var env "TM_CFLAGS") _) _)) as [f2|] eqn:E2; [|done].
    injection H as <-. cbn [compilation] in Hc. injection Hc as <-. split.
    - eexists. split; [reflexivity|]. apply first_or_else.
    - eexists _, _, _. split; [apply first_unwrap|]. split; [apply first_or_else|]. split; [exact E2|]. reflexivity.
  Qed.
  (** Rust: RUSTUP_HOME is given to the compiler, and its directory can be read, if a variable says so. *)
  Theorem C105_rust le name static deps cs : config = Some le -> compilation LRust le name static deps = Some cs ->
    (var_os env "TM_RUSTUP_HOME" = None -> var_os env "RUSTUP_HOME" = None -> cs_env cs = [] /\ cs_dirs cs = []) /\
    forall home, first_of [var_os env "TM_RUSTUP_HOME"; var_os env "RUSTUP_HOME"] home -> cs_env cs = [("RUSTUP_HOME", home)] /\ cs_dirs cs = [home].
  Proof.
    intros H Hc. assert (Hr : le_rustup le = rust_from_env env).
    { unfold lang_env_of in H. destruct (cpp_from_env env) as [[[? ?] ?]|]; [|done]. destruct (c_from_env env) as [[[? ?] ?]|]; [|done]. by injection H as <-. }
    cbn [compilation] in Hc. injection Hc as <-. cbn [cs_env cs_dirs]. rewrite Hr. unfold rust_from_env. split.
    - by intros -> ->.
    - intros home (i&Hi&Hj). destruct i as [|[|i]]; cbn in Hi; [| |done].
      + injection Hi as ->. done.
      + injection Hi as E. specialize (Hj 0 ltac:(lia)). injection Hj as ->. by rewrite E.
  Qed.
  (** Pascal: fpc.cfg is the first of those that the documentation lists that exists; it is given to the compiler. *)
  Definition fpc_candidates : list (option fpath) := [
    option_map (fun home => fjoin (fpath_of (chars home)) (FPath false [".fpc.cfg"])) (var env "HOME");
    option_map (fun dir => fjoin (fpath_of (chars dir)) (FPath false ["fpc.cfg"])) (var env "PPC_CONFIG_PATH");
    option_map (fun dir => fjoin dir (FPath false ["etc"; "fpc.cfg"])) (match which with Some fpc => match parent fpc with Some dir => parent dir | None => None end | None => None end);
    Some (FPath true ["etc"; "fpc.cfg"])].
  Definition there (p : option fpath) : option fpath := match p with Some p => if exists_file p then Some p else None | None => None end.
  Theorem C105_fpc_cfg : (forall p, find_fpc_cfg exists_file which env = Some p <-> first_of (map there fpc_candidates) p) /\
    (find_fpc_cfg exists_file which env = None <-> Forall (fun p => there p = None) fpc_candidates).
  Proof.
    set (a := there (option_map (fun home => fjoin (fpath_of (chars home)) (FPath false [".fpc.cfg"])) (var env "HOME"))).
    set (b := there (option_map (fun dir => fjoin (fpath_of (chars dir)) (FPath false ["fpc.cfg"])) (var env "PPC_CONFIG_PATH"))).
    set (c := there (option_map (fun dir => fjoin dir (FPath false ["etc"; "fpc.cfg"])) (match which with Some fpc => match parent fpc with Some dir => parent dir | None => None end | None => None end))).
    set (d := there (Some (FPath true ["etc"; "fpc.cfg"]))).
    assert (E : find_fpc_cfg exists_file which env = or_else a (or_else b (or_else c d))).
    { unfold find_fpc_cfg. subst a b c d. unfold if_exists, there.
      f_equal; [by destruct (var env "HOME")|]. f_equal; [by destruct (var env "PPC_CONFIG_PATH")|]. f_equal.
      destruct which as [f|]; [|done]. cbn. destruct (parent f) as [f1|]; [|done]. cbn. by destruct (parent f1). }
    rewrite E. assert (El : map there fpc_candidates = [a; b; c; d]) by done.
    assert (Hf : Forall (fun p => there p = None) fpc_candidates <-> a = None /\ b = None /\ c = None /\ d = None).
      { unfold fpc_candidates. rewrite !Forall_cons. rewrite Forall_nil. subst a b c d. tauto. }
    clear E. clearbody a b c d.
    split.
    - intros p. rewrite El. split.
      + destruct a as [a'|] eqn:Ea; cbn [or_else]. { intros [= <-]. exists 0. split; [done|lia]. }
        destruct b as [b'|] eqn:Eb; cbn [or_else]. { intros [= <-]. exists 1. split; [done|]. intros [|j] Hj; [done|lia]. }
        destruct c as [c'|] eqn:Ec; cbn [or_else]. { intros [= <-]. exists 2. split; [done|]. intros [|[|j]] Hj; [done..|lia]. }
        intros ->. exists 3. split; [done|]. intros [|[|[|j]]] Hj; [done..|lia].
      + intros (i&Hi&Hj). destruct i as [|[|[|[|i]]]]; cbn in Hi; [..|done].
        * by injection Hi as ->.
        * pose proof (Hj 0 ltac:(lia)) as [= ->]. by injection Hi as ->.
        * pose proof (Hj 0 ltac:(lia)) as [= ->]. pose proof (Hj 1 ltac:(lia)) as [= ->]. by injection Hi as ->.
        * pose proof (Hj 0 ltac:(lia)) as [= ->]. pose proof (Hj 1 ltac:(lia)) as [= ->]. pose proof (Hj 2 ltac:(lia)) as [= ->]. by injection Hi as ->.
    - rewrite Hf. destruct a, b, c, d; cbn [or_else]; (split; [intros H; try discriminate H; done|intros (?&?&?&?); congruence]).
  Qed.
  Theorem C105_pascal le name static deps cs : config = Some le -> compilation LPascal le name static deps = Some cs ->
    cs_deps cs = match find_fpc_cfg exists_file which env with Some p => [Dependency (show_path p) "fpc.cfg"] | None => [] end.
  Proof.
    intros H Hc. unfold lang_env_of in H. destruct (cpp_from_env env) as [[[? ?] ?]|]; [|done]. destruct (c_from_env env) as [[[? ?] ?]|]; [|done].
    injection H as <-. cbn [compilation] in Hc. by injection Hc as <-.
  Qed.
  (** It panics exactly when the options, of C++ or of C, are not words of the shell: whatever the languages used. *)
  Theorem C105_panics : config = None <-> exists text, shell_split text = None /\
    (first_of [var env "TM_CXXFLAGS"; var env "CXXFLAGS"; Some ""] text \/ first_of [var env "TM_CFLAGS"; var env "CFLAGS"; Some ""] text).
  Proof.
    unfold lang_env_of, cpp_from_env, c_from_env.
    pose proof (first_or_else (var env "TM_CXXFLAGS") (var env "CXXFLAGS") "") as H1.
    pose proof (first_or_else (var env "TM_CFLAGS") (var env "CFLAGS") "") as H2.
    split.
    - intros H. destruct (shell_split (unwrap_or (or_else (var env "TM_CXXFLAGS") _) _)) as [f1|] eqn:E1; [|eauto].
      destruct (shell_split (unwrap_or (or_else (var env "TM_CFLAGS") _) _)) as [f2|] eqn:E2; [done|eauto].
    - intros (text&Hs&[Hf|Hf]).
      + rewrite (first_unique _ _ _ H1 Hf), Hs. done.
      + rewrite (first_unique _ _ _ H2 Hf), Hs. destruct (shell_split (unwrap_or (or_else (var env "TM_CXXFLAGS") _) _)); done.
  Qed.
End env.

(** A variable of other programs that task-maker cannot read should not stop it. *)
Definition C105_never_panics : Prop := forall exists_file which env, is_Some (lang_env_of exists_file which env).
Definition bad_env : environment := fun k => if decide (k = "CFLAGS") then Some (Utf8 "-DNAME=""poldo -Wextra") else None.
(** It does: at the first source file, also of another language, with a message that names TM_CFLAGS. *)
Theorem C105_panic_refuted : ~ C105_never_panics.
Proof. intros H. destruct (H (fun _ => false) None bad_env) as [le E]. vm_compute in E. discriminate E. Qed.
(** There should always be the name of a compiler. *)
Definition C105_compiler_named : Prop := forall exists_file which env le, lang_env_of exists_file which env = Some le -> le_cxx le <> "".
(** A variable that is empty is not as one that is not set. *)
Definition empty_env : environment := fun k => if decide (k = "CXX") then Some (Utf8 "") else None.
Theorem C105_empty_refuted : ~ C105_compiler_named.
Proof. intros H. eapply (H (fun _ => false) None empty_env); [vm_compute; reflexivity|]. vm_compute. reflexivity. Qed.

Definition an_env : environment := fun k =>
  if decide (k = "CXX") then Some (Utf8 "clang++") else if decide (k = "TM_CXX") then Some (NotUtf8 "g++-13") else
  if decide (k = "TM_CXXFLAGS") then Some (Utf8 "  -I'/usr/include/my lib' -DX=\""a\ b\"" # comment") else
  if decide (k = "HOME") then Some (Utf8 "/home/me") else if decide (k = "RUSTUP_HOME") then Some (Utf8 "/opt/rustup") else None.
Theorem C105_example :
  lang_env_of (fun p => bool_decide (p = FPath true ["usr"; "etc"; "fpc.cfg"])) (Some (FPath true ["usr"; "bin"; "fpc"])) an_env =
    Some (LangEnv "g++-13" "c++17" ["-I/usr/include/my lib"; "-DX=""a b"""] "gcc" "c11" [] (Some "/opt/rustup") (Some (FPath true ["usr"; "etc"; "fpc.cfg"]))) /\
  laid_out (chars " -O3  -g") [chars "-O3"; chars "-g"] /\ shell_split "'a" = None.
Proof.
  split; [vm_compute; reflexivity|]. split; [|vm_compute; reflexivity].
  assert (Hp : forall w, bool_decide (w <> [] /\ Forall (fun c => c ∉ [" "%char; ascii_of_N 9; ascii_of_N 10; "'"%char; """"%char; "\"%char]) w /\ head w <> Some "#"%char) = true -> plain_word w).
  { intros w H. apply bool_decide_eq_true in H as (H1&H2&H3). split; [done|]. split; [|done].
    eapply Forall_impl; [exact H2|]. cbn. intros c Hc. rewrite !elem_of_cons in Hc. unfold blank, quoting. tauto. }
  apply (laid_out_word [" "%char] (chars "-O3") " "%char (chars " -g") [chars "-g"]).
  - repeat constructor.
  - apply Hp. vm_compute. reflexivity.
  - by left.
  - apply (laid_out_last [" "%char] (chars "-g")); [repeat constructor|]. apply Hp. vm_compute. reflexivity.
Qed.

Print Assumptions C105_plain.
Print Assumptions C105_quoted.
Print Assumptions C105_no_quotes.
Print Assumptions C105_cpp.
Print Assumptions C105_c.
Print Assumptions C105_rust.
Print Assumptions C105_fpc_cfg.
Print Assumptions C105_pascal.
Print Assumptions C105_panics.
Print Assumptions C105_panic_refuted.
Print Assumptions C105_empty_refuted.
Print Assumptions C105_example.
