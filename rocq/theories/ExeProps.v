(** * ExeProps: C94, what is recognised as an executable *)
From Verif Require Import ExeModel ExeSpec.
From Coq Require Import NArith Lia.
From stdpp Require Import base list numbers.
Local Open Scope N_scope.

Definition answer (k : exe_kind) : platform * bits :=
  match k with
  | Script => (PLinux, BUnknown) | Elf32 => (PLinux, B32) | Elf64 => (PLinux, B64) | WindowsExe => (PWindows, BUnknown)
  | MachO32 => (PMacOs, B32) | MachO64 => (PMacOs, B64) | MachOFat32 => (PMacOsFat, B32) | MachOFat64 => (PMacOsFat, B64)
  end.
Lemma starts_with_spec h p : starts_with h p = true <-> exists rest, h = p ++ rest.
Proof.
  unfold starts_with. rewrite bool_decide_eq_true. split.
  - intros H. exists (drop (length p) h). rewrite <- H at 1. symmetry. apply take_drop.
  - intros [rest ->]. by rewrite take_app.
Qed.
Lemma prefix_app (h file p : bytes) : (length p <= length h)%nat -> (exists rest, h = p ++ rest) <-> exists rest, h ++ file = p ++ rest.
Proof.
  intros Hle. split; [intros [rest ->]; exists (rest ++ file); by rewrite app_assoc|]. intros [rest E]. exists (drop (length p) h).
  assert (p = take (length p) h) as Hp. { rewrite <- (take_app_le h file) by done. rewrite E. by rewrite take_app. } rewrite Hp at 1. symmetry. apply take_drop.
Qed.
(** patterns sorted by length: reading what is missing does not lose anything *)
Fixpoint by_length (n : nat) (ps : list (bytes * (platform * bits))) : Prop :=
  match ps with [] => True | (p, _) :: ps => (n <= length p)%nat /\ by_length (length p) ps end.
Lemma by_length_le n ps : by_length n ps -> Forall (fun x => (n <= length x.1)%nat) ps.
Proof.
  revert n. induction ps as [|[p r] ps IH]; intros n H; [done|]. destruct H as [H1 H2]. constructor; [done|]. eapply Forall_impl; [|exact (IH _ H2)]. cbn. intros x Hx. lia.
Qed.
Lemma detect_loop_spec ps : forall header file, by_length (length header) ps ->
  match detect_loop ps header file with
  | DOk (Some r) => exists p rest, (p, r) ∈ ps /\ header ++ file = p ++ rest
  | DOk None => forall p r, (p, r) ∈ ps -> (length p <= length (header ++ file))%nat /\ ~ exists rest, header ++ file = p ++ rest
  | DErr => (exists p r, (p, r) ∈ ps /\ (length (header ++ file) < length p)%nat) /\ forall p r, (p, r) ∈ ps -> ~ exists rest, header ++ file = p ++ rest
  end.
Proof.
  induction ps as [|[p r] ps IH]; intros header file Hs; cbn [detect_loop]; [intros p r Hin; by apply elem_of_nil in Hin|].
  destruct Hs as [Hle Hs]. 
  assert (forall h f, h ++ f = header ++ file -> length h = length p ->
    match (if starts_with h p then DOk (Some r) else detect_loop ps h f) with
    | DOk (Some r0) => exists p0 rest, (p0, r0) ∈ (p, r) :: ps /\ header ++ file = p0 ++ rest
    | DOk None => forall p0 r0, (p0, r0) ∈ (p, r) :: ps -> (length p0 <= length (header ++ file))%nat /\ ~ exists rest, header ++ file = p0 ++ rest
    | DErr => (exists p0 r0, (p0, r0) ∈ (p, r) :: ps /\ (length (header ++ file) < length p0)%nat) /\ forall p0 r0, (p0, r0) ∈ (p, r) :: ps -> ~ exists rest, header ++ file = p0 ++ rest
    end) as Hgo.
  { intros h f E Hlen. destruct (starts_with h p) eqn:Es.
    - apply starts_with_spec in Es as [rest Hr]. exists p, (rest ++ f). split; [left|]. rewrite <- E, Hr. by rewrite app_assoc.
    - assert (~ exists rest, header ++ file = p ++ rest) as Hnp.
      { rewrite <- E, <- prefix_app by lia. rewrite <- starts_with_spec. by rewrite Es. }
      specialize (IH h f). rewrite Hlen in IH. specialize (IH Hs). rewrite E in IH. destruct (detect_loop ps h f) as [|[r0|]].
      + destruct IH as [(p0 & r0 & Hin & Hlt) Hno]. split; [exists p0, r0; split; [by right|done]|]. intros p1 r1 [[= -> ->]|Hin']%elem_of_cons; [done|by eapply Hno].
      + destruct IH as (p0 & rest & Hin & Hr). exists p0, rest. split; [by right|done].
      + intros p0 r0 [[= -> ->]|Hin]%elem_of_cons; [|by eapply IH]. split; [|done]. rewrite <- E, app_length. lia. }
  case_decide as Hlt.
  - unfold read_exact. case_decide as Hn.
    + apply Hgo; [by rewrite <- app_assoc, take_drop|]. rewrite app_length, take_length. lia.
    + assert (forall x, x ∈ (p, r) :: ps -> (length p <= length x.1)%nat) as Hall.
      { intros x [->|Hx]%elem_of_cons; [done|]. apply by_length_le in Hs. rewrite List.Forall_forall in Hs. by apply Hs, elem_of_list_In. }
      split; [exists p, r; split; [left|rewrite app_length; lia]|]. intros p0 r0 Hin [rest E]. specialize (Hall _ Hin). cbn in Hall.
      apply (f_equal length) in E. rewrite !app_length in E. lia.
  - apply (Hgo header file); [done|lia].
Qed.
Lemma patterns_by_length : by_length 0 patterns.
Proof. cbn. lia. Qed.
(** the table of the program and the headers of the specification *)
Lemma patterns_kinds p r : (p, r) ∈ patterns <-> exists k, p = header_of k /\ r = answer k.
Proof.
  split.
  - unfold patterns. rewrite !elem_of_cons, elem_of_nil. intros H.
    destruct_or! H; try done; injection H as -> ->; [by exists WindowsExe|by exists Script|by exists MachO32|by exists MachO64|by exists MachOFat32|by exists MachOFat64|by exists Elf32|by exists Elf64].
  - intros (k & -> & ->). unfold patterns. destruct k; cbn; rewrite !elem_of_cons; tauto.
Qed.
Lemma kind_unique content k k' : is_exe content k -> is_exe content k' -> k = k'.
Proof. intros [r ->] [r' E]. destruct k, k'; try done; cbn in E; congruence. Qed.

(** A file is recognised exactly when it starts with the header of a kind of executable, as that kind *)
Theorem C94_recognised content r : detect_exe content = DOk (Some r) <-> exists k, is_exe content k /\ r = answer k.
Proof.
  pose proof (detect_loop_spec patterns [] content patterns_by_length) as H. cbn [app] in H. fold (detect_exe content) in H. split.
  - intros E. rewrite E in H. destruct H as (p & rest & (k & -> & ->)%patterns_kinds & Hr). exists k. split; [by exists rest|done].
  - intros (k & [rest Hk] & ->). destruct (detect_exe content) as [|[r0|]].
    + destruct H as [_ H]. exfalso. eapply (H (header_of k) (answer k)); [apply patterns_kinds; by exists k|by exists rest].
    + destruct H as (p & rest' & (k' & -> & ->)%patterns_kinds & Hr). do 2 f_equal. f_equal. eapply kind_unique; [by exists rest'|by exists rest].
    + exfalso. destruct (H (header_of k) (answer k)) as [_ Hno]; [apply patterns_kinds; by exists k|]. apply Hno. by exists rest.
Qed.
(** Every other file is said not to be an executable if it has at least five bytes, and is an error if it has fewer *)
Theorem C94_others content : (forall k, ~ is_exe content k) -> detect_exe content = if decide (5 <= length content)%nat then DOk None else DErr.
Proof.
  intros Hno. pose proof (detect_loop_spec patterns [] content patterns_by_length) as H. cbn [app] in H. fold (detect_exe content) in H. destruct (detect_exe content) as [|[r|]] eqn:E.
  - destruct H as [(p & r & (k & -> & _)%patterns_kinds & Hlt) _]. rewrite decide_False; [done|]. destruct k; cbn in Hlt; lia.
  - apply C94_recognised in E as (k & Hk & _). by destruct (Hno k).
  - rewrite decide_True; [done|]. destruct (H (header_of Elf32) (answer Elf32)) as [Hle _]; [apply patterns_kinds; by exists Elf32|]. done.
Qed.
(** The sandbox runs a local command exactly when it is a file that starts with one of the headers *)
Theorem C94_validated file : validate_local_executable file = None <-> exists content k, file = Some content /\ is_exe content k.
Proof.
  unfold validate_local_executable. destruct file as [content|]; [|split; [done|by intros (? & ? & ? & _)]].
  split.
  - destruct (detect_exe content) as [|[r|]] eqn:E; try done. intros _. apply C94_recognised in E as (k & Hk & _). by exists content, k.
  - intros (c & k & [= <-] & Hk). rewrite (proj2 (C94_recognised content (answer k))); [done|]. by exists k.
Qed.
(** A file that is not an executable is not always said so: a short one is an error *)
Theorem C94_short_refuted : exists content : list N, (forall k, ~ is_exe content k) /\ detect_exe content = DErr /\ validate_local_executable (Some content) = Some FailedToDetect.
Proof. exists [72; 105]. split_and!; [|done|done]. intros k [rest E]. destruct k; done. Qed.
(** The universal binaries of macOS are not recognised *)
Theorem C94_universal_refuted rest : validate_local_executable (Some (universal_header ++ rest)) <> None.
Proof. intros (content & k & [= <-] & [r E])%C94_validated. destruct k; done. Qed.
(** A Python script, an ELF program, a text of five bytes *)
Theorem C94_example : detect_exe [35; 33; 47; 98] = DOk (Some (PLinux, BUnknown)) /\ detect_exe [127; 69; 76; 70; 2; 1; 1] = DOk (Some (PLinux, B64)) /\
  detect_exe [104; 101; 108; 108; 111] = DOk None /\ (forall k, ~ is_exe [104; 101; 108; 108; 111] k).
Proof. split_and!; try (vm_compute; reflexivity). intros k [rest E]. destruct k; done. Qed.

Print Assumptions C94_recognised.
Print Assumptions C94_others.
Print Assumptions C94_validated.
Print Assumptions C94_short_refuted.
Print Assumptions C94_universal_refuted.
Print Assumptions C94_example.
