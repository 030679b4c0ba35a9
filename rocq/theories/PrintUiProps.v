(** * PrintUiProps: C108 *)
From Verif Require Import PrintUiModel PrintUiSpec PrintUiProofs PrintUiRead.
From Coq Require Import Ascii String.
From stdpp Require Import list.

(** ** C108: what the print UI shows identifies what happened *)

(** A message is one line: one newline, at its end *)
Theorem C108_one_line : forall plain m, one_line_message m -> exists l, 10%N ∉ l /\ on_message plain m = l ++ [10%N].
Proof. exact message_one_line. Qed.

(** A line identifies the message, but for the captured output and for how a checker finished *)
Theorem C108_identified : forall plain m1 m2, one_line_message m1 -> one_line_message m2 ->
  on_message plain m1 = on_message plain m2 -> said m1 = said m2.
Proof. exact line_read. Qed.

(** All that is printed identifies the list of the messages, in order *)
Theorem C108_history_partial : forall plain h1 h2, Forall one_line_message h1 -> Forall one_line_message h2 ->
  printed plain h1 = printed plain h2 -> map said h1 = map said h2.
Proof. exact printed_read. Qed.

(** As many lines as messages *)
Theorem C108_lines : forall plain h, Forall one_line_message h -> count_occ N.eq_dec (printed plain h) 10%N = length h.
Proof.
  intros plain h. unfold printed. induction 1 as [|m h O H IH]; [done|]. cbn.
  destruct (message_one_line plain m O) as (l & N & E). rewrite E, !count_occ_app, IH.
  rewrite (proj1 (count_occ_not_In N.eq_dec l 10%N)); [done|]. by rewrite <- elem_of_list_In.
Qed.

(** The outcome of an execution starts at the same column of every line *)
Theorem C108_columns : forall t s, (length t <= 80)%nat -> length (write_status s ++ write_message t) = 90%nat.
Proof.
  intros t s H. assert (length (write_status s) = 10%nat) as E by by destruct s.
  unfold write_message. rewrite !app_length, replicate_length, E. lia.
Qed.

(** Example *)
Definition all_plain (_ : nat) (c : N) : bool := (32 <=? c)%N.
Definition ex_history : list message :=
  [Compilation (str "sol/a b.cpp") (Started (str "Sandbox 1")); Compilation (str "sol/a b.cpp") (Finished Success None None);
   Evaluation 1 2 (str "sol/a b.cpp") (Finished (Signal 11 (str "SIGSEGV")) (Some (str "oops")) None) 0 1; Checker 1 2 (str "sol/a b.cpp") Skipped;
   SubtaskScore 1 (str "sol/a b.cpp") (str "0.00") (str "0.5"); TaskScore (str "sol/a b.cpp") (str "30.00")].
Theorem C108_example : Forall one_line_message ex_history /\ map said ex_history <> map said (rev ex_history) /\
  on_message all_plain (TaskScore (str "a.cpp") (str "30.00")) = str "[TASK]    Solution ""a.cpp"" scored 30.00 " ++ replicate 50 32%N ++ [10%N] /\
  on_message all_plain (Evaluation 1 2 (str "a.cpp") (Finished (ReturnCode 3) None None) 0 1) =
    str "[DONE]    Evaluation of ""a.cpp"" of testcase 2 of subtask 1 (part 1 of 1) " ++ replicate 17 32%N ++ str "[ReturnCode(3)]" ++ [10%N].
Proof.
  split; [|split; [done|split; vm_compute; reflexivity]].
  repeat constructor; try done; apply (bool_decide_unpack _); vm_compute; exact Logic.I.
Qed.

(** *** What is not identified *)
(** The message of a checker may contain newlines: it can print the line of the score of another solution *)
Theorem C108_forged_refuted : exists msg h,
  printed all_plain [TestcaseScore 1 2 (str "a.cpp") (str "0.00") msg] = printed all_plain h /\ TaskScore (str "b.cpp") (str "100.00") ∈ h.
Proof.
  exists (replicate 80 33%N ++ [10%N] ++ str "[TASK]    " ++ write_message (str "Solution ""b.cpp"" scored 100.00 ")),
    [TestcaseScore 1 2 (str "a.cpp") (str "0.00") (replicate 80 33%N); TaskScore (str "b.cpp") (str "100.00")].
  split; [vm_compute; reflexivity|]. rewrite elem_of_cons, elem_of_cons. auto.
Qed.

(** The paths of a Terry solution are not quoted, and the blanks at the end of a line tell nothing *)
Theorem C108_terry_refuted : exists p q, p <> q /\ on_message all_plain (TerrySolution p Pending) = on_message all_plain (TerrySolution q Pending).
Proof. exists (str "a"), (str "a "). split; [done|]. vm_compute; reflexivity. Qed.

(** The names of a booklet and of its dependencies are not quoted *)
Theorem C108_booklet_refuted : exists b1 n1 b2 n2, b1 <> b2 /\ n1 <> n2 /\
  on_message all_plain (BookletDependency b1 n1 0 1 Pending) = on_message all_plain (BookletDependency b2 n2 0 1 Pending).
Proof.
  exists (str "x"), (str "a of booklet b"), (str "b of booklet x"), (str "a"). split; [done|]. split; [done|]. vm_compute; reflexivity.
Qed.

(** How a checker finished is not shown *)
Theorem C108_checker_refuted : forall plain st tc sol s1 s2,
  on_message plain (Checker st tc sol (Finished s1 None None)) = on_message plain (Checker st tc sol (Finished s2 None None)).
Proof. done. Qed.

Print Assumptions C108_one_line.
Print Assumptions C108_identified.
Print Assumptions C108_history_partial.
Print Assumptions C108_lines.
Print Assumptions C108_columns.
Print Assumptions C108_example.
Print Assumptions C108_forged_refuted.
Print Assumptions C108_terry_refuted.
Print Assumptions C108_booklet_refuted.
Print Assumptions C108_checker_refuted.
