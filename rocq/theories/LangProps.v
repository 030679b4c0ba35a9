(** * LangProps: C68 (the dependencies of a source file) and C69 (the languages) *)
From Verif Require Import LangModel LangSpec LangProofs LangProofs2 LangProofs3.
From Coq Require Import Ascii String.
From stdpp Require Import base list.

(** ** C68: the dependencies of a source file *)
(** The search terminates (also when files include each other, or are reached by several paths) and the result does not
    depend on the number of iterations allowed, if the disk has finitely many file contents. *)
Theorem C68_terminates d root (texts : list text) : is_Some (parent root) -> (forall p t, d_text d p = Some t -> t ∈ texts) ->
  (exists fuel r, forall k, find_cpp_deps d (k + fuel) root = Some r) /\ (exists fuel r, forall k, find_python_deps d (k + fuel) root = Some r).
Proof. intros H1 H2. split; [by eapply cpp_terminates|by eapply python_terminates]. Qed.
Print Assumptions C68_terminates.

Lemma find_cases d extract fuel root r : find_dependencies d extract fuel root = Some r ->
  exists base, parent root = Some base /\ deps_loop d extract base fuel [root] [] [] = Some r.
Proof. unfold find_dependencies. destruct (parent root) as [b|]; [|done]. intros H. by exists b. Qed.

(** No path of the sandbox is used twice. *)
Theorem C68_once d fuel root r : find_cpp_deps d fuel root = Some r \/ find_python_deps d fuel root = Some r -> NoDup r.*2.
Proof. intros [H|H]; apply find_cases in H as (b & Hb & H); by apply start_spec in H as (? & _). Qed.
Print Assumptions C68_once.

(** Every dependency exists, is not the source itself, and is included by the source or by another dependency; the path in the
    sandbox is the text of the include. *)
Theorem C68_cpp_sound d fuel root r l s : find_cpp_deps d fuel root = Some r -> (l, s) ∈ r ->
  d_exists d l = true /\ l <> root /\ exists base p m, parent root = Some base /\ (p = root \/ p ∈ r.*1) /\ m ∈ included d p /\ s = fpath_of (chars m) /\ l = fjoin base (with_file_name p (fpath_of (chars m))).
Proof.
  intros H Hls. apply find_cases in H as (b & Hb & H). apply start_spec in H as (_ & _ & Hso). destruct (Hso l s Hls) as (He & Hne & p & l0 & _ & Hp & Hx & El).
  split; [done|]. split; [done|]. apply cpp_entries in Hx as (m & Hm & [= -> ->]). by exists b, p, m.
Qed.
Print Assumptions C68_cpp_sound.
Theorem C68_python_sound d fuel root r l s : find_python_deps d fuel root = Some r -> (l, s) ∈ r ->
  d_exists d l = true /\ l <> root /\ exists base p m, parent root = Some base /\ (p = root \/ p ∈ r.*1) /\ m ∈ imported d p /\ s = fpath_of (chars m) /\ l = fjoin base (fpath_of (chars m)).
Proof.
  intros H Hls. apply find_cases in H as (b & Hb & H). apply start_spec in H as (_ & _ & Hso). destruct (Hso l s Hls) as (He & Hne & p & l0 & _ & Hp & Hx & El).
  split; [done|]. split; [done|]. apply py_entries in Hx as (m & Hm & [= -> ->]). by exists b, p, m.
Qed.
Print Assumptions C68_python_sound.

(** The result is closed: what the source or a dependency includes, if it exists, has its path in the sandbox, or the file
    is the source or a dependency under another name. *)
Theorem C68_cpp_closed d fuel root r base p m : find_cpp_deps d fuel root = Some r -> parent root = Some base ->
  p = root \/ p ∈ r.*1 -> m ∈ included d p -> let l := fjoin base (with_file_name p (fpath_of (chars m))) in
  d_exists d l = true -> fpath_of (chars m) ∈ r.*2 \/ l = root \/ l ∈ r.*1.
Proof.
  intros H Hb Hp Hm l Hl. apply find_cases in H as (b & Hb' & H). assert (b = base) by congruence. subst b. apply start_spec in H as (_ & Hcl & _).
  destruct (Hcl p (with_file_name p (fpath_of (chars m))) (fpath_of (chars m))) as [?|?]; [by apply elem_of_cons| |done|by left|right; by apply elem_of_cons].
  apply cpp_entries. by exists m.
Qed.
Print Assumptions C68_cpp_closed.
Theorem C68_python_closed d fuel root r base p m : find_python_deps d fuel root = Some r -> parent root = Some base ->
  p = root \/ p ∈ r.*1 -> m ∈ imported d p -> let l := fjoin base (fpath_of (chars m)) in
  d_exists d l = true -> fpath_of (chars m) ∈ r.*2 \/ l = root \/ l ∈ r.*1.
Proof.
  intros H Hb Hp Hm l Hl. apply find_cases in H as (b & Hb' & H). assert (b = base) by congruence. subst b. apply start_spec in H as (_ & Hcl & _).
  destruct (Hcl p (fpath_of (chars m)) (fpath_of (chars m))) as [?|?]; [by apply elem_of_cons| |done|by left|right; by apply elem_of_cons].
  apply py_entries. by exists m.
Qed.
Print Assumptions C68_python_closed.

(** The sources of one directory that include only each other (and system headers): exactly the files that are needed, each
    under its name. *)
Theorem C68_cpp_flat d dir root fuel r : plain root -> flat_names d (included d) dir -> find_cpp_deps d fuel (in_dir dir root) = Some r ->
  forall l s, (l, s) ∈ r <-> exists m, s = local_name m /\ l = in_dir dir m /\ d_exists d l = true /\ m <> root /\ needed d (included d) dir root m.
Proof. apply cpp_flat. Qed.
Print Assumptions C68_cpp_flat.
Theorem C68_python_flat d dir root fuel r : plain root -> flat_names d (imported d) dir -> find_python_deps d fuel (in_dir dir root) = Some r ->
  forall l s, (l, s) ∈ r <-> exists m, s = local_name m /\ l = in_dir dir m /\ d_exists d l = true /\ m <> root /\ needed d (imported d) dir root m.
Proof. apply python_flat. Qed.
Print Assumptions C68_python_flat.

(** What is an include: the keyword, white space, a quote, a name without quotes, a quote. *)
Theorem C68_includes t ws o name c rest : ~ occurs (chars "#include") t ->
  Forall (fun x => x ∈ [" "; "009"; "010"; "011"; "012"; "013"]%char) ws -> o ∈ ["<"; """"]%char -> name <> [] ->
  Forall (fun x => x ∉ [">"; """"]%char) name -> c ∈ [">"; """"]%char ->
  includes (t ++ chars "#include" ++ ws ++ o :: name ++ c :: rest) = name :: includes rest.
Proof.
  intros Ht Hws Ho Hne Hname Hc. apply includes_found; [done| | |done| |].
  - eapply Forall_impl; [exact Hws|]. intros x Hx. unfold white. by apply bool_decide_eq_true.
  - rewrite !elem_of_cons, elem_of_nil in Ho. by destruct Ho as [->|[->|?]].
  - eapply Forall_impl; [exact Hname|]. intros x Hx. cbv beta in Hx. rewrite !elem_of_cons, elem_of_nil in Hx. unfold closing. apply orb_false_iff. split; apply bool_decide_eq_false; naive_solver.
  - rewrite !elem_of_cons, elem_of_nil in Hc. by destruct Hc as [->|[->|?]].
Qed.
Print Assumptions C68_includes.
Theorem C68_no_include t : ~ occurs (chars "#include") t -> includes t = [].
Proof. intros H. rewrite <- (app_nil_r t). by rewrite includes_text. Qed.
Print Assumptions C68_no_include.

(** The imports of a Python file are those of its lines; *)
Definition newline : ascii := "010".
Theorem C68_lines ls : ls <> [] -> Forall (fun l => newline ∉ l) ls -> imports_of (join_with newline ls) = ls ≫= imports_of.
Proof.
  intros Hne Hls. unfold imports_of at 1. change "010"%char with newline. rewrite split_join by done. clear Hne.
  induction Hls as [|l ls Hl _ IH]; [done|]. cbn [mbind list_bind]. rewrite IH. f_equal. symmetry. by apply imports_last.
Qed.
Print Assumptions C68_lines.
Lemma white_blank c : white c = true <-> blank c.
Proof. unfold white, blank. apply bool_decide_eq_true. Qed.
Lemma drop_white m : exists a, m = a ++ drop_while white m /\ Forall blank a /\ forall c r, drop_while white m = c :: r -> ~ blank c.
Proof.
  induction m as [|c m (a & E & Ha & Hr)]; [exists []; split; [done|]; split; [constructor|done]|]. cbn [drop_while]. destruct (white c) eqn:Ew.
  - exists (c :: a). split; [cbn; by rewrite <- E|]. split; [constructor; [by apply white_blank|done]|done].
  - exists []. split; [done|]. split; [constructor|]. intros x r [= -> ->] Hb%white_blank. congruence.
Qed.
Lemma trim_end_spec m : exists b, m = trim_end m ++ b /\ Forall blank b /\ (forall c r, trim_end m = r ++ [c] -> ~ blank c).
Proof.
  induction m as [|c m (b & E & Hb & Hr)]; [exists []; split; [done|]; split; [constructor|by intros c [|]]|]. cbn [trim_end]. destruct (trim_end m) as [|x t] eqn:Et.
  - destruct (white c) eqn:Ew.
    + exists (c :: m). split; [done|]. split; [|by intros y [|]]. constructor; [by apply white_blank|]. by rewrite E.
    + exists m. split; [done|]. split; [by rewrite E|]. intros y [|z [|]]; [intros [= ->] Hy%white_blank; congruence|done|done].
  - exists b. split; [cbn; by rewrite E at 1|]. split; [done|]. intros y [|z r] Ey; [by destruct t|]. injection Ey as -> Ey. by apply (Hr y r).
Qed.
Lemma trim_trimmed m : trimmed m (trim m).
Proof.
  unfold trim. destruct (drop_white m) as (a & E & Ha & Hf). destruct (trim_end_spec (drop_while white m)) as (b & E2 & Hb & Hl). split; [|split; [|done]].
  - exists a, b. split; [|done]. by rewrite <- E2.
  - intros c r Ec. apply (Hf c (r ++ b)). rewrite E2, Ec. done.
Qed.
(** [import a, b], indented; *)
Theorem C68_import_line ind sp ms : Forall (fun c => c = " "%char) ind -> Forall (fun c => c = " "%char) sp -> ms <> [] ->
  Forall (fun m => newline ∉ m /\ ","%char ∉ m) ms -> (forall m ms', ms = m :: ms' -> exists c m', m = c :: m' /\ c <> " "%char) ->
  Forall2 trimmed ms (imports_of (ind ++ chars "import " ++ sp ++ join_with ","%char ms)).
Proof.
  intros Hi Hs Hne Hms Hfirst.
  enough (imports_of (ind ++ chars "import " ++ sp ++ join_with ","%char ms) = map trim ms) as ->.
  { clear. induction ms as [|m ms IH]; [constructor|]. cbn [map]. constructor; [apply trim_trimmed|done]. }
  assert (Hnl : newline ∉ ind ++ sp).
  { intros [H|H]%elem_of_app; [rewrite Forall_forall in Hi; by specialize (Hi _ H)|rewrite Forall_forall in Hs; by specialize (Hs _ H)]. }
  assert (Hj : newline ∉ join_with ","%char ms).
  { clear Hfirst Hne. induction Hms as [|m ms [Hm _] _ IH]; [by apply not_elem_of_nil|]. destruct ms as [|m2 ms]; [done|].
    change (join_with ","%char (m :: m2 :: ms)) with (m ++ ","%char :: join_with ","%char (m2 :: ms)). rewrite elem_of_app, elem_of_cons. intros [?|[?|?]]; done. }
  assert (Hsp : forall l, Forall (fun c => c = " "%char) l -> Forall (fun c => space c = true) l).
  { intros l Hl. eapply Forall_impl; [exact Hl|]. intros c ->. done. }
  rewrite imports_last.
  - change (scan_imports _ _) with (line_imports (ind ++ chars "import " ++ sp ++ join_with ","%char ms)).
    rewrite import_found; [|by apply Hsp..|].
    + rewrite split_join; [done|done|]. eapply Forall_impl; [exact Hms|]. by intros m [_ ?].
    + destruct ms as [|m ms]; [done|]. destruct (Hfirst m ms eq_refl) as (c & m' & -> & Hc). destruct ms; cbn [join_with app]; unfold space; by apply bool_decide_eq_false.
  - rewrite !elem_of_app. rewrite elem_of_app in Hnl. change "010"%char with newline. intros [?|[H|[?|?]]]; [tauto| |tauto|done].
    revert H. apply (bool_decide_unpack (newline ∉ chars "import ")). vm_compute. exact Logic.I.
Qed.
Print Assumptions C68_import_line.
(** [from a import b]; *)
Theorem C68_from_line ind m rest : Forall (fun c => c = " "%char) ind -> m <> [] -> newline ∉ m ++ rest -> ~ occurs (chars "import") rest ->
  exists t, imports_of (ind ++ chars "from " ++ m ++ chars " import " ++ rest) = [t] /\ trimmed m t.
Proof.
  intros Hi Hm Hnl Hno. exists (trim m). split; [|apply trim_trimmed].
  assert (Hni : newline ∉ ind) by (intros H; rewrite Forall_forall in Hi; by specialize (Hi _ H)).
  assert (E : chars " import " ++ rest = chars " import" ++ " "%char :: rest) by done.
  rewrite imports_last.
  - rewrite E. change (scan_imports _ _) with (line_imports (ind ++ chars "from " ++ m ++ chars " import" ++ " "%char :: rest)).
    rewrite from_found; [f_equal| |done|].
    + apply other_line. intros (a & b & Hab). apply Hno. destruct a as [|c a]; [by cbn in Hab|]. cbn in Hab. injection Hab as <- Hab. by exists a, b.
    + eapply Forall_impl; [exact Hi|]. intros c ->. done.
    + intros (a & b & Hab).
      assert (Hin : occurs (chars "import") (chars "mport " ++ rest)).
      { destruct a as [|c0 a]; [by cbn in Hab|]. cbn in Hab. injection Hab as <- Hab. exists (a ++ [" "%char]), b.
        change (chars "mport " ++ rest) with ("m"%char :: "p"%char :: "o"%char :: "r"%char :: "t"%char :: " "%char :: rest). rewrite Hab. by rewrite <- !(assoc_L (++)). }
      destruct Hin as (x & y & Hxy). do 6 (destruct x as [|? x]; [by cbn in Hxy|]; cbn in Hxy; injection Hxy as <- Hxy). apply Hno. by exists x, y.
  - rewrite !elem_of_app in *. change "010"%char with newline. intros [?|[H|[?|[H|?]]]]; [tauto| |tauto| |tauto]; revert H.
    + apply (bool_decide_unpack (newline ∉ chars "from ")). vm_compute. exact Logic.I.
    + apply (bool_decide_unpack (newline ∉ chars " import ")). vm_compute. exact Logic.I.
Qed.
Print Assumptions C68_from_line.
(** and a file where the word does not occur imports nothing. *)
Theorem C68_no_import t : ~ occurs (chars "import") t -> newline ∉ t -> imports_of t = [].
Proof. intros H Hnl. rewrite imports_last by done. by apply other_line. Qed.
Print Assumptions C68_no_import.

(** *** A task: a solution with a library, which includes a header that includes the solution back *)
Definition file_table := list (list string * text).
Definition disk_of (t : file_table) (cwd : list string) : disk :=
  let full p := if p_abs p then p_comps p else cwd ++ p_comps p in
  Disk (fun p => existsb (fun e => bool_decide (fst e = full p)) t) (fun p => option_map snd (find (fun e => bool_decide (fst e = full p)) t)).
Definition quote : ascii := """".
Definition inc (n : string) : text := chars "#include " ++ quote :: chars n ++ [quote; newline].
Definition ex_disk : disk := disk_of [
  (["t"; "sol"; "a.cpp"], chars "#include <bits/stdc++.h>" ++ newline :: inc "lib.h" ++ chars "int main() {}");
  (["t"; "sol"; "lib.h"], inc "types.h");
  (["t"; "sol"; "types.h"], inc "lib.h" ++ inc "a.cpp");
  (["t"; "sol"; "other.h"], [])] [].
Example C68_example_cpp :
  plain "a.cpp" /\ flat_names ex_disk (included ex_disk) ["t"; "sol"] /\
  find_cpp_deps ex_disk 10 (in_dir ["t"; "sol"] "a.cpp") =
    Some [(in_dir ["t"; "sol"] "lib.h", local_name "lib.h"); (in_dir ["t"; "sol"] "types.h", local_name "types.h")].
Proof.
  split; [by repeat split; try done; apply (bool_decide_unpack _); vm_compute|]. split; [|vm_compute; reflexivity].
  assert (Hp : forall m, m ∈ ["lib.h"; "types.h"; "a.cpp"] -> plain m).
  { intros m Hm. rewrite !elem_of_cons, elem_of_nil in Hm. destruct Hm as [->|[->|[->|[]]]]; repeat split; try done; apply (bool_decide_unpack _); vm_compute; exact Logic.I. }
  intros n m Hm.
  assert (Hcase : m ∈ ["bits/stdc++.h"; "lib.h"] \/ m ∈ ["types.h"] \/ m ∈ ["lib.h"; "a.cpp"]).
  { unfold included in Hm. cbn [ex_disk disk_of d_text in_dir p_abs p_comps find fst] in Hm.
    repeat (match type of Hm with context [bool_decide ?P] => destruct (bool_decide P) end; [vm_compute in Hm; try tauto; by apply elem_of_nil in Hm|]).
    by apply elem_of_nil in Hm. }
  rewrite !elem_of_cons, !elem_of_nil in Hcase.
  destruct Hcase as [[->|[->|[]]]|[[->|[]]|[->|[->|[]]]]]; [right; split; vm_compute; reflexivity|left; apply Hp; set_solver..].
Qed.
Definition ex_py : disk := disk_of [
  (["t"; "gen"; "gen.py"], chars "import sys, lib" ++ newline :: chars "from limits import *" ++ newline :: chars "print(1)");
  (["t"; "gen"; "lib.py"], chars "    import gen"); (["t"; "gen"; "limits.py"], [])] [].
Example C68_example_python :
  find_python_deps ex_py 10 (in_dir ["t"; "gen"] "gen.py") =
    Some [(in_dir ["t"; "gen"] "lib.py", local_name "lib.py"); (in_dir ["t"; "gen"] "limits.py", local_name "limits.py")].
Proof. vm_compute. reflexivity. Qed.

(** *** What does not hold *)
(** A header of a subdirectory that includes a file next to it: the file is put where the compiler does not look for it. *)
Theorem C68_subdirectory_refuted : exists d root r p q l,
  find_cpp_deps d 10 root = Some r /\ (p, q) ∈ r /\ l ∈ included d p /\ d_exists d (with_file_name p (fpath_of (chars l))) = true /\
  looked_up q (fpath_of (chars l)) ∉ r.*2.
Proof.
  exists (disk_of [(["t"; "a.cpp"], inc "sub/b.h"); (["t"; "sub"; "b.h"], inc "c.h"); (["t"; "sub"; "c.h"], [])] []), (in_dir ["t"] "a.cpp").
  eexists _, (FPath true ["t"; "sub"; "b.h"]), (FPath false ["sub"; "b.h"]), "c.h". split; [vm_compute; reflexivity|].
  split; [apply (bool_decide_unpack _); vm_compute; exact Logic.I|]. split; [apply (bool_decide_unpack _); vm_compute; exact Logic.I|].
  split; [vm_compute; reflexivity|apply (bool_decide_unpack _); vm_compute; exact Logic.I].
Qed.
Print Assumptions C68_subdirectory_refuted.
(** Two files included with the same text from different directories: only one of them is in the sandbox. *)
Theorem C68_same_text_refuted : exists d root r p q l,
  find_cpp_deps d 10 root = Some r /\ (p, q) ∈ r /\ l ∈ included d p /\ d_exists d (with_file_name p (fpath_of (chars l))) = true /\
  with_file_name p (fpath_of (chars l)) ∉ r.*1.
Proof.
  exists (disk_of [(["t"; "a.cpp"], inc "c.h" ++ inc "sub/b.h"); (["t"; "c.h"], []); (["t"; "sub"; "b.h"], inc "c.h"); (["t"; "sub"; "c.h"], [])] []), (in_dir ["t"] "a.cpp").
  eexists _, (FPath true ["t"; "sub"; "b.h"]), (FPath false ["sub"; "b.h"]), "c.h". split; [vm_compute; reflexivity|].
  split; [apply (bool_decide_unpack _); vm_compute; exact Logic.I|]. split; [apply (bool_decide_unpack _); vm_compute; exact Logic.I|].
  split; [vm_compute; reflexivity|apply (bool_decide_unpack _); vm_compute; exact Logic.I].
Qed.
Print Assumptions C68_same_text_refuted.
(** A C++ source given by a relative path with a directory: its includes are looked for in [sols/sols]. *)
Theorem C68_relative_refuted : exists d root m,
  m ∈ included d root /\ d_exists d (with_file_name root (fpath_of (chars m))) = true /\ find_cpp_deps d 10 root = Some [].
Proof.
  exists (disk_of [(["t"; "sols"; "a.cpp"], inc "lib.h"); (["t"; "sols"; "lib.h"], [])] ["t"]), (FPath false ["sols"; "a.cpp"]), "lib.h".
  split; [apply (bool_decide_unpack _); vm_compute; exact Logic.I|]. split; vm_compute; reflexivity.
Qed.
Print Assumptions C68_relative_refuted.
(** A space after the #, an alias and a comment hide a dependency. *)
Theorem C68_text_refuted :
  includes (chars "# include <x.h>") = [] /\ imports_of (chars "import lib as l") = [chars "lib as l"] /\ imports_of (chars "import lib # the library") = [chars "lib # the library"].
Proof. split; [|split]; vm_compute; reflexivity. Qed.
Print Assumptions C68_text_refuted.

(** ** C69: the languages *)
(** The language of a file is the one of its lower-cased extension, and it is the only one with that extension. *)
Theorem C69_detect p l : detect_language p = Some l <->
  exists name ext, file_name p = Some name /\ has_extension name ext /\ (string_of_list_ascii (map lower ext), l) ∈ extension_table.
Proof.
  rewrite detect_spec. assert (forall e, e ∈ extensions l <-> (e, l) ∈ extension_table) as He.
  { intros e. unfold extension_table. rewrite !elem_of_cons, elem_of_nil. destruct l; cbn [extensions]; rewrite ?elem_of_cons, elem_of_nil; split; intros H;
      repeat match goal with H : _ \/ _ |- _ => destruct H as [H|H] end; try done; try subst e; try (injection H as ->); tauto. }
  split; intros (name & ext & H1 & H2 & H3%He); by exists name, ext.
Qed.
Print Assumptions C69_detect.
Theorem C69_one_language l1 l2 e : (e, l1) ∈ extension_table -> (e, l2) ∈ extension_table -> l1 = l2.
Proof.
  unfold extension_table. rewrite !elem_of_cons, !elem_of_nil. intros H1 H2. repeat match goal with H : _ \/ _ |- _ => destruct H as [H|H] end; by simplify_eq.
Qed.
Print Assumptions C69_one_language.
(** A language sent by name (as in the messages of the UI) is the same language when it is read. *)
Theorem C69_name l n : from_name n = Some l <-> n = lang_name l.
Proof.
  unfold from_name. split.
  - intros H. apply find_some in H as [_ H]. by apply bool_decide_eq_true in H.
  - intros ->. apply find_unique; [by apply bool_decide_eq_true|apply all_known|]. intros y Hy. apply bool_decide_eq_true in Hy. by apply lang_name_inj.
Qed.
Print Assumptions C69_name.
(** A compilation is built exactly for the languages that need it, it produces the file that is then run, and the source is not
    an option of the compiler. *)
Theorem C69_compilation l env name static deps : (need_compilation l = true <-> is_Some (compilation l env name static deps)) /\
  forall cs, compilation l env name static deps = Some cs ->
    (exists a b, cs_args cs = a ++ ["-o"; cs_binary cs] ++ b \/ cs_args cs = a ++ ["-o" +:+ cs_binary cs] ++ b \/ cs_args cs = a ++ ["-out:" +:+ cs_binary cs] ++ b) /\
    (exists c r, cs_source_name cs = String c r /\ c <> "-"%char \/ name = "" /\ cs_source_name cs = "").
Proof.
  split; [destruct l; cbn; split; (done || by intros [? ?])|].
  intros cs H.
  assert (Hname : cs_source_name cs = source_name name \/ cs_source_name cs = "source.rs").
  { destruct l; cbn in H; try done; injection H as <-; cbn; tauto. }
  split.
  - destruct l; cbn in H; try done; injection H as <-; cbn [cs_args cs_binary].
    + exists ["-O2"; "-Wall"; "-ggdb3"; "-DEVAL"; "-fdiagnostics-color=always"; "-std=" +:+ le_cxx_std env]. eexists. left. reflexivity.
    + exists ["-O2"; "-Wall"; "-ggdb3"; "-DEVAL"; "-fdiagnostics-color=always"; "-std=" +:+ le_cc_std env]. eexists. left. reflexivity.
    + exists ["-dEVAL"; "-Fe/dev/stderr"; "-O2"; "-XS"], []. right. left. reflexivity.
    + exists ["-O"; "--cfg"; "EVAL"]. eexists. left. reflexivity.
    + exists ["-define:EVAL"; "-optimize+"], []. right. right. reflexivity.
  - destruct Hname as [->|E]; [|exists "s"%char, "ource.rs"; left; split; [exact E|done]]. unfold source_name. destruct name as [|c r]; [exists "x"%char, ""; by right|].
    case_decide; [|exists c, r; by left]. exists "."%char, ("/" +:+ String c r). left. split; [reflexivity|done].
Qed.
Print Assumptions C69_compilation.
(** The grader of a language is the last one given for it; it is used when compiling if the language is compiled, otherwise when running. *)
Theorem C69_grader gs l :
  compilation_grader (grader_map gs []) l = (if need_compilation l then last (graders_of l gs) else None) /\
  runtime_graders (grader_map gs []) l = (if need_compilation l then [] else match last (graders_of l gs) with Some g => [g] | None => [] end).
Proof.
  unfold compilation_grader, runtime_graders. rewrite grader_map_get. cbn [aget]. destruct (need_compilation l); cbn [negb]; by destruct (last (graders_of l gs)).
Qed.
Print Assumptions C69_grader.
(** The program that is started is the executable and it sees the arguments, except with arguments in JavaScript and C#. *)
Theorem C69_run_partial l exe args : args = [] \/ (l <> LJS /\ l <> LCSharp) ->
  program_sees (runtime_command l exe) (runtime_args l exe args) = Some (exe, args).
Proof. intros [->|[H1 H2]]; by destruct l. Qed.
Print Assumptions C69_run_partial.
Theorem C69_run_refuted : exists l exe args, program_sees (runtime_command l exe) (runtime_args l exe args) <> Some (exe, args).
Proof. exists LJS, "generator", ["7"]. done. Qed.
Print Assumptions C69_run_refuted.
(** The math library precedes the source (which comes after all the arguments) in the command line of the C compiler. *)
Theorem C69_libm_refuted env name static deps : exists cs a b, compilation LC env name static deps = Some cs /\ cs_args cs ++ [cs_source_name cs] = a ++ "-lm" :: b ++ [cs_source_name cs].
Proof.
  eexists _, ["-O2"; "-Wall"; "-ggdb3"; "-DEVAL"; "-fdiagnostics-color=always"; "-std=" +:+ le_cc_std env; "-o"; binary_name], _. split; reflexivity.
Qed.
Print Assumptions C69_libm_refuted.
Definition ex_env : lang_env := LangEnv "g++" "c++17" [] "gcc" "c11" [] None None.
Example C69_example :
  detect_language (FPath true ["t"; "sol"; "Slow.v2.CPP"]) = Some LCpp /\ detect_language (FPath true ["t"; ".py"]) = None /\ detect_language (FPath true ["t"; "Makefile"]) = None /\
  (forall gs, gs = [(1%positive, FPath true ["t"; "sol"; "grader.cc"]); (2%positive, FPath true ["t"; "sol"; "grader.cpp"]); (3%positive, FPath true ["t"; "sol"; "grader.py"])] ->
    compilation_grader (grader_map gs []) LCpp = Some (2%positive, FPath true ["t"; "sol"; "grader.cpp"]) /\ runtime_graders (grader_map gs []) LCpp = [] /\
    runtime_graders (grader_map gs []) LPython = [(3%positive, FPath true ["t"; "sol"; "grader.py"])]) /\
  source_name "-rf.c" = "./-rf.c".
Proof. split_and!; try (vm_compute; reflexivity). intros gs ->. split_and!; vm_compute; reflexivity. Qed.
