(** * HooksSpec: what the user expects of the sanity checks *)
From Verif Require Import HooksModel.
From Coq Require Import Ascii String.
From stdpp Require Import base list sorting strings.

(** The user asked to skip this check: by its name or by its category *)
Definition skipped (skip : list string) (c : check) : Prop := ck_name c ∈ skip \/ as_str (ck_category c) ∈ skip.

(** The hooks [ns] are run one after the other from [s] to [s']; [said] are the diagnostics added about the failures *)
Inductive all_run {St Er Dg} (hook : string -> St -> St * option Er) (add : Dg -> St -> St * bool) (failed : string -> Er -> Dg) :
    list string -> St -> St -> list Dg -> Prop :=
  | run_none s : all_run hook add failed [] s s []
  | run_fine n ns s s1 s2 said : hook n s = (s1, None) -> all_run hook add failed ns s1 s2 said ->
      all_run hook add failed (n :: ns) s s2 said
  | run_failed n ns s s1 e s2 s3 said : hook n s = (s1, Some e) -> add (failed n e) s1 = (s2, true) -> all_run hook add failed ns s2 s3 said ->
      all_run hook add failed (n :: ns) s s3 (failed n e :: said).
