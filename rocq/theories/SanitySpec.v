(** * SanitySpec: vocabulary of the property C75 *)
From Coq Require Import Ascii String.
From stdpp Require Import base list.
From Verif Require Export SanityModel.

(** The subtasks of a task: a map from the ids *)
Definition sn_ok (sts : sn_subtasks) : Prop := NoDup sts.*1.
Definition named (s : sn_subtask) : Prop := exists name, ss_name s = Some name.

Section spec.
  Context (wild : text -> text -> bool) (sts : sn_subtasks).
  (** A check is about a subtask if its pattern matches the name of the subtask. *)
  Definition about (c : sol_check) (st : nat) : Prop :=
    exists s name, (st, s) ∈ sts /\ ss_name s = Some name /\ wild (sc_pattern c) name = true.
  (** What a solution declares about a subtask: its last check about it. *)
  Definition declares (s : sn_solution) (st : nat) (k : check_kind) : Prop :=
    exists before c after, so_checks s = before ++ c :: after /\ about c st /\ sc_kind c = k /\ (forall c', c' ∈ after -> ~ about c' st).
  (** A subtask that gives points *)
  Definition gives_points (st : nat) : Prop := exists s, (st, s) ∈ sts /\ f64_lt f64_zero (ss_score s) = true.
  (** A solution shows that [a] can be solved without solving [b]: it declares that it may get points on [a] (accepted, or
      partial), and that it does not solve [b]. *)
  Definition shows (s : sn_solution) (a b : nat) : Prop :=
    exists ka kb, declares s a ka /\ declares s b kb /\ (ka = KAccepted \/ ka = KPartialScore) /\ kb <> KAccepted.
  (** No solution shows that [a] can be solved without solving [b]. *)
  Definition implied (sols : list sn_solution) (a b : nat) : Prop :=
    gives_points a /\ gives_points b /\ a <> b /\ forall s, s ∈ sols -> ~ shows s a b.
  Definition alike (sols : list sn_solution) (a b : nat) : Prop := implied sols a b /\ implied sols b a.
  Definition some_check (sols : list sn_solution) : Prop := exists s, s ∈ sols /\ so_checks s <> [].
End spec.

(** The integer scores *)
Definition integer_scores (sts : sn_subtasks) (zs : list Z) : Prop :=
  map (fun x => ss_score x.2) sts = map f64_of_Z zs /\ Forall (fun z => 0 <= z)%Z zs /\ (foldr Z.add 0 zs <= 2 ^ 53)%Z.
