(** * LifeSpec: what a user expects of the life of the program (C77) *)
From stdpp Require Import base list relations.
From Verif Require Import LifeModel.

(** No thread can do anything. *)
Definition halted (local valid : bool) (s : life) : Prop := forall s', ~ step local valid s s'.
(** What can happen next: a step of a thread, the clock, ctrl-c. *)
Definition next (local valid : bool) (s s' : life) : Prop := step local valid s s' \/ event s s'.
(** The program ended. *)
Definition exited (s : life) : Prop := (exists r, cl s = CExit r) \/ cl s = CAbort.
(** The evaluation failed (a callback failed or panicked, a file cannot be read or written) and the program waits for the
    threads of the local executor. *)
Definition failed_join (local : bool) (s : life) : Prop := local = true /\ slot s = true /\ exists r, cl s = CJoin r /\ r <> OkEnd.
(** The client manager, the thread that handles the messages of the client, panicked. *)
Definition manager_panicked (s : life) : Prop := mg s = MPanicked.
(** The client waits for the end of an evaluation that the scheduler knows and did not complete, no message is travelling,
    and all the workers are free: excluded by C10, the scheduler always has something to assign. *)
Definition starving (s : life) : Prop :=
  cl s = CEval None /\ sc s = SchRun true false /\ mg s = MRun true /\ wm s = true /\
  qa s = [] /\ qb s = [] /\ qc s = [] /\ qd s = [] /\ qe s = [] /\
  forall w x, ws s !! w = Some x -> x = Worker WIdle [] [] false false.
(** When is it safe to press ctrl-c: the evaluation was received by the executor and all the files it asked were sent, or
    the evaluation is over. *)
Definition calm_moment (s : life) : Prop :=
  match cl s with CStart => False | CEval _ => AEvaluate ∉ qa s /\ BAsk ∉ qb s | _ => True end.
(** The states of a run in which ctrl-c is only pressed in such moments. *)
Inductive calm (local valid : bool) (n jobs : nat) : life -> Prop :=
  | CalmStart : calm local valid n jobs (life_start n jobs)
  | CalmStep s s' : calm local valid n jobs s -> step local valid s s' -> calm local valid n jobs s'
  | CalmTick s : calm local valid n jobs s -> poller s = PRun -> calm local valid n jobs (tick s)
  | CalmCtrlC s : calm local valid n jobs s -> calm_moment s -> calm local valid n jobs (ctrl_c s).
(** The threads of the local executor are all gone. *)
Definition executor_gone (s : life) : Prop :=
  sc s = SchEnded /\ wm s = false /\ qd s = [] /\ forall w x, ws s !! w = Some x -> w_gone x = true.
(** The evaluation failed. *)
Definition eval_failed (s : life) : Prop := cl s = CLeft ErrEnd \/ (slot s = true /\ exists r, cl s = CJoin r).
