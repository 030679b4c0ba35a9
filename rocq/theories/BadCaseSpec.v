(** * BadCaseSpec: what the tool that looks for a bad case must do *)
From Verif Require Import BadCaseModel.

(** The tag of the executions, by the message they are bound to *)
Definition tag_of (ty : task_type) (r : role) : string :=
  match r with
  | RCompilation _ => "compilation"
  | REvaluation _ _ _ _ _ => "evaluation"
  | RChecker _ _ _ => match ty with TCommunication _ _ _ => "evaluation" | _ => "checking" end
  | _ => "generation"
  end.

(** The ids of all the testcases fit in a [TestcaseId]. *)
Definition in_range (size index : nat) : Prop := (N.of_nat (S index) * N.of_nat size <= 2 ^ 32)%N.

(** The arguments of the generator: those of the user, with the seed where there is an argument that is exactly two braces *)
Definition args_ok (user : list string) (seed : nat) (args : list string) : Prop :=
  Forall2 (fun u a => (u = "{}" -> a = pretty seed) /\ (u <> "{}" -> a = u)) user args.

(** A testcase of the batch: its arguments and where its files go *)
Definition case_ok (dir : string) (user : list string) (seed : nat) (d : case_data) : Prop :=
  cd_seed d = seed /\ args_ok user seed (cd_args d) /\
  cd_input d = dir +:+ "/testcase-" +:+ pretty seed +:+ "/input.txt" /\
  cd_output d = dir +:+ "/testcase-" +:+ pretty seed +:+ "/output.txt" /\
  cd_correct d = dir +:+ "/testcase-" +:+ pretty seed +:+ "/correct_output.txt".

(** The patched task *)
Record batch_task (t : btask) (validator : input_validator) (user : list string) (size index : nat) (dir : string)
    (seed : nat -> nat) (t' : btask) (b : batch) : Prop := {
  (* the generator and the official solution are those of a testcase of the task *)
  bt_template : exists gen a out tc0, bk_testcases t !! tc0 = Some (BTestcase (ICustom gen a) out) /\
    forall i, i < size -> exists d, b !! (index * size + i) = Some d /\ case_ok dir user (seed i) d /\
      bk_testcases t' !! (index * size + i) = Some (BTestcase (ICustom gen (cd_args d)) out);
  (* there is nothing else *)
  bt_only : forall tc, is_Some (b !! tc) \/ is_Some (bk_testcases t' !! tc) -> exists i, i < size /\ tc = index * size + i;
  (* one subtask with all of them *)
  bt_subtask : exists sub, bk_subtasks t' = [sub] /\ bs_id sub = 0 /\ bs_validator sub = validator /\
    bs_owned sub ≡ₚ seq (index * size) size /\ bs_testcases sub = bs_owned sub;
  (* the rest of the task is the same *)
  bt_same : bk_path t' = bk_path t /\ bk_type t' = bk_type t /\ bk_time t' = bk_time t /\ bk_memory t' = bk_memory t /\
    bk_infile t' = bk_infile t /\ bk_outfile t' = bk_outfile t
}.

(** An execution of the solution or of the checker is as urgent as a generation; nothing else changes. *)
Definition urgent (e : execution) : execution :=
  if bool_decide (e_tag e = Some "evaluation" \/ e_tag e = Some "checking") then set_priority 1000001 e else e.
Definition urgent_group (kg : group_uuid * group) : group_uuid * group :=
  (fst kg, Group (g_uuid (snd kg)) (map urgent (g_execs (snd kg))) (g_fifo (snd kg))).

(** A path inside a directory of the task *)
Definition inside (root dir p : string) : Prop := exists rest, components p = components root ++ dir :: rest.
(** The executables go inside the task, not among the input and output files *)
Definition exes_inside (root : string) (s : bstate) : Prop :=
  forall f p, (f, (p, true)) ∈ b_written s ->
    exists dir, inside root dir p /\ dir <> "input" /\ dir <> "output".
