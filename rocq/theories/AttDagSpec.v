(** * AttDagSpec: what must be run for the sample files of the attachments *)
From Verif Require Import BuildModel BuildSpec AttDagModel.
From Coq Require Import Ascii String.
From stdpp Require Import base.

Definition official_sources (o : option output_generator) : list source := match o with Some g => output_sources g | None => [] end.

Section samples.
  Context (n0 : positive) (w : world) (c : build_config) (t : btask) (s : bstate).

  (** The validator is run on the file [fi], as testcase 0 of the subtask 0, whose name is att *)
  Definition sample_validated (v : input_validator) (input : string) (fi : file_uuid) (val : option file_uuid) : Prop :=
    match v with
    | VAssume => val = None
    | VCustom src args => exists e fv, val = Some fv /\ has_role c s (said_invalid input) e /\
        runs n0 w c s src args ["tm_validation_file"] e /\
        aget "tm_validation_file" (e_inputs e) = Some (ExecInput fi false) /\
        e_stdin e = None /\ e_stdin_redirect e = None /\ e_stdout e = Some fv /\ e_stdout_redirect e = None /\
        aget "TM_SUBTASK" (e_env e) = Some "0" /\ aget "TM_TESTCASE" (e_env e) = Some "0" /\
        aget "TM_SUBTASK_NAME" (e_env e) = Some "att" /\ e_capture_stderr e = Some 1024%N /\
        e_limits e = allow_multiprocess (sf_limits src default_limits)
    end.

  (** The official solution reads the file [fi], after its validation; [fc] is what it writes *)
  Definition sample_solved (g : output_generator) (input : string) (fi : file_uuid) (val : option file_uuid) (fc : file_uuid) : Prop :=
    match g with
    | ONotAvailable => aget fc (b_provided s) = Some (bc_empty c)
    | OStatic p => holds n0 w s fc p
    | OCustom src args => exists e, has_role c s (said_solution input) e /\ runs n0 w c s src args (io_names t val) e /\
        e_stdin_redirect e = None /\ e_stdout_redirect e = None /\ e_env e = [] /\ io_ok t fi val e fc /\
        e_capture_stderr e = Some 1024%N /\ e_limits e = sf_limits src default_limits
    end.

  (** The checker compares the file [ft] with the correct one [fc] *)
  Definition sample_checked (ck : checker) (output : string) (fi fc ft : file_uuid) : Prop :=
    exists e, has_role c s (said_score output) e /\ e_stdin e = None /\ e_stdin_redirect e = None /\ e_stdout_redirect e = None /\
    match ck with
    | CWhiteDiff => e_command e = System "diff" /\
        e_args e = ["--brief"; "--speed-large-files"; "--ignore-blank-lines"; "--ignore-space-change"; "correct"; "test"] /\
        e_inputs e = [("correct", ExecInput fc false); ("test", ExecInput ft false)] /\ e_limits e = default_limits
    | CCustom src => runs n0 w c s src ["input"; "correct_output"; "test_output"] ["test_output"; "correct_output"; "input"] e /\
        aget "input" (e_inputs e) = Some (ExecInput fi false) /\
        aget "correct_output" (e_inputs e) = Some (ExecInput fc false) /\
        aget "test_output" (e_inputs e) = Some (ExecInput ft false) /\
        e_capture_stdout e = Some 128%N /\ is_Some (e_capture_stderr e) /\
        e_limits e = allow_multiprocess (sf_limits src default_limits)
    end.

  (** A pair of sample files *)
  Definition sample_ok (v : input_validator) (official : option output_generator) (ck : checker) (p : string * string) : Prop :=
    exists fi val, holds n0 w s fi (fst p) /\ sample_validated v (fst p) fi val /\
      match official with
      | None => True
      | Some g => exists fc ft, holds n0 w s ft (snd p) /\ sample_solved g (fst p) fi val fc /\ sample_checked ck (snd p) fi fc ft
      end.
End samples.

(** The callbacks, in order *)
Definition sample_roles (v : input_validator) (official : option output_generator) (p : string * string) : list role :=
  match v with VAssume => [] | VCustom _ _ => [said_invalid (fst p)] end ++
  match official with
  | None => []
  | Some g => match g with OCustom _ _ => [said_solution (fst p)] | _ => [] end ++ [said_score (snd p)]
  end.
Definition hook_roles (t : btask) (v : input_validator) (official : option output_generator) (samples : list (string * string)) : list role :=
  match bk_type t with TBatch _ => samples ≫= sample_roles v official | _ => [] end.
