(** * CompSpec: what the user is told of the compilations *)
From Verif Require Export CompModel.

(** [comps]: the executions that are compilations, with the source file each of them compiles *)
Definition source_of (comps : list (exec_uuid * nat)) (u : exec_uuid) (i : nat) : Prop := (u, i) ∈ comps.

(** The path shown in a message: relative to the base directory when the file is inside it *)
Definition shown (s : source) (p : list string) : Prop :=
  s_path s = s_base s ++ p \/ p = s_path s /\ forall q, s_path s <> s_base s ++ q.

(** What the notification [n], which arrives after [before], makes the interface receive: only the first notification of
    each kind counts *)
Inductive told (srcs : nat -> source) (comps : list (exec_uuid * nat)) (before : list notice) : notice -> list umsg -> Prop :=
  | told_start u i w : source_of comps u i -> (forall w', NStart u w' ∉ before) ->
      told srcs comps before (NStart u w) [UCompilation (s_path (srcs i)) (UStarted w)]
  | told_success u i r : source_of comps u i -> (forall r', NDone u r' ∉ before) -> res_status r = Success ->
      told srcs comps before (NDone u r) [UCompilation (s_path (srcs i)) (UDone r)]
  | told_failure u i r p : source_of comps u i -> (forall r', NDone u r' ∉ before) -> res_status r <> Success ->
      shown (srcs i) p ->
      told srcs comps before (NDone u r)
        [UCompilation (s_path (srcs i)) (UDone r);
         UDiagnostic ("Failed to compile " +:+ show_path p) (Some (s_desc (srcs i))) (res_stderr r)]
  | told_skip u i : source_of comps u i -> NSkip u ∉ before ->
      told srcs comps before (NSkip u) [UCompilation (s_path (srcs i)) USkipped]
  | told_again n : (match n with NStart u _ => exists w', NStart u w' ∈ before | NDone u _ => exists r', NDone u r' ∈ before
                    | NSkip u => NSkip u ∈ before end) -> told srcs comps before n []
  | told_other n : (forall i, ~ source_of comps (match n with NStart u _ | NDone u _ | NSkip u => u end) i) -> told srcs comps before n [].
Inductive told_all (srcs : nat -> source) (comps : list (exec_uuid * nat)) : list notice -> list notice -> list umsg -> Prop :=
  | told_nil before : told_all srcs comps before [] []
  | told_cons before n ns ms ms' : told srcs comps before n ms -> told_all srcs comps (before ++ [n]) ns ms' ->
      told_all srcs comps before (n :: ns) (ms ++ ms').
