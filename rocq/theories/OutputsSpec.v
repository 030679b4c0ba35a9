(** * OutputsSpec: vocabulary of the property C76 *)
From Coq Require Import Ascii.
From Verif Require Export OutputsModel MiscSpec.

(** The files of a subtask, if every testcase has an official output *)
Definition files_of (s : out_subtask) : option (list file_uuid) := mapM id (ot_files s).
(** The subtask has at least two testcases, all the official outputs arrived, and they all are [content]. *)
Definition all_same (content : file_uuid -> bytes) (arrived : file_uuid -> bool) (s : out_subtask) (x : bytes) : Prop :=
  exists fs, ot_files s = map Some fs /\ 2 <= length fs /\ forall f, f ∈ fs -> arrived f = true /\ content f = x.
(** The hash tells apart the outputs of the task. *)
Definition no_collision {hash} (H : bytes -> hash) (content : file_uuid -> bytes) (sts : out_subtasks) : Prop :=
  forall f g st s st' s', (st, s) ∈ sts -> (st', s') ∈ sts -> Some f ∈ ot_files s -> Some g ∈ ot_files s' -> H (content f) = H (content g) -> content f = content g.
