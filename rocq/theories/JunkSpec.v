(** * JunkSpec: what the fuzzing of a checker has to report *)
From stdpp Require Import base list.
From Verif Require Export JunkModel.

(** The number zero, with either sign *)
Definition is_zero (x : f64) : Prop := x = S754_zero false \/ x = S754_zero true.
(** A checker that was given a file of junk did wrong: it crashed, or did not print a number, or gave some points (an infinite
    number and "not a number" are some points) *)
Inductive did_wrong (parse : list N -> option f64) (r : exec_result) : Prop :=
  | WCrash : res_status r <> Success -> did_wrong parse r
  | WNoNumber out : res_stdout r = Some out -> parse out = None -> did_wrong parse r
  | WPoints out x : res_stdout r = Some out -> parse out = Some x -> ~ is_zero x -> did_wrong parse r.
Definition about (d : junk_diag) : string := match d with JCrashed n _ _ | JInvalid n _ | JScored n _ _ => n end.
(** A testcase whose input and official output are there *)
Definition has_files (c : junk_case) : Prop := is_Some (jc_input c) /\ is_Some (jc_output c).
(** The outputs of the executions were kept (the executions of the check ask for it) *)
Definition kept (r : exec_result) : Prop := is_Some (res_stdout r) /\ is_Some (res_stderr r).

(** A Terry checker did wrong on a bad output: it crashed, or did not print an outcome *)
Definition bad_about (d : bad_diag) : option string := match d with BGenerator _ _ => None | BOutcome n _ | BCrashed n _ _ => Some n end.
Definition no_outcome {outcome} (from_json : list N -> outcome + string) (r : exec_result) : Prop :=
  exists out e, res_stdout r = Some out /\ from_json out = inr e.
