(** * ClientSpec: vocabulary of the properties C31-C33 *)
From Verif Require Export ClientModel.

(** The callbacks that must run at most once: those of an execution and [get_content]. *)
Inductive kind := KStart | KDone | KSkip | KContent.
Global Instance kind_eq_dec : EqDecision kind.
Proof. solve_decision. Defined.
(** The callback an event is a call of: its kind, the execution or file, and its number. *)
Definition once_key (e : cevent) : option (kind * positive * nat) :=
  match e with
  | EStart e i _ => Some (KStart, e, i)
  | EDone e i _ => Some (KDone, e, i)
  | ESkip e i => Some (KSkip, e, i)
  | EContent f _ => Some (KContent, f, 0)
  | _ => None
  end.
(** How many callbacks of that kind are registered. *)
Definition registered (c : callbacks) (k : kind) (u : positive) : nat :=
  match k with
  | KStart => xc_start (exec_cb_of u c)
  | KDone => xc_done (exec_cb_of u c)
  | KSkip => xc_skip (exec_cb_of u c)
  | KContent => match fc_content (file_cb_of u c) with Some _ => 1 | None => 0 end
  end.
(** The message notifies something about an execution; [ev i] is the call of the [i]-th callback with what it says. *)
Definition notifies (m : server_msg) : option (kind * exec_uuid * (nat -> cevent)) :=
  match m with
  | SNotifyStart e w => Some (KStart, e, fun i => EStart e i w)
  | SNotifyDone e r => Some (KDone, e, fun i => EDone e i r)
  | SNotifySkip e => Some (KSkip, e, fun i => ESkip e i)
  | _ => None
  end.
Definition notifies_about (k : kind) (e : exec_uuid) (it : chan server_msg) : Prop :=
  exists m ev, it = Msg m /\ notifies m = Some (k, e, ev).

(** ** Projections of a trace *)
(** The calls of the [i]-th chunked callback of a file. *)
Definition chunk_of (f : file_uuid) (i : nat) (e : cevent) : option bytes :=
  match e with EChunk g j b => if bool_decide (f = g /\ i = j) then Some b else None | _ => None end.
Definition content_of (f : file_uuid) (e : cevent) : option bytes :=
  match e with EContent g b => if bool_decide (f = g) then Some b else None | _ => None end.
(** The effect of the trace on a file of the disk. *)
Definition write_effect (dest : path) (old : option bytes) (e : cevent) : option bytes :=
  match e with
  | ECreate d => if bool_decide (dest = d) then Some [] else old
  | EWrite d b => if bool_decide (dest = d) then Some (default [] old ++ b) else old
  | _ => old
  end.
Definition disk_after (dest : path) (old : option bytes) (tr : list cevent) : option bytes :=
  fold_left (write_effect dest) tr old.
Definition is_write (e : cevent) : bool :=
  match e with ECreate _ | EWrite _ _ | EChmod _ => true | _ => false end.

(** ** What the client still waits for *)
(** After the items received so far: [None] before [Done]; afterwards the number of files the client asked for when it
    received the last [Done] minus the number of files received since. *)
Definition waits (local : store_key -> option (list bytes)) (w : option nat) (it : chan server_msg) : option nat :=
  match it with
  | Msg (SDone files) => Some (length (filter (fun x => local x.1.2 = None) files))
  | Msg (SProvideFile _ _) => match w with Some n => Some (n - 1) | None => None end
  | _ => w
  end.
Definition waiting_for (local : store_key -> option (list bytes)) (items : list (chan server_msg)) : option nat :=
  fold_left (waits local) items None.
(** The item announces a file. *)
Definition provides (it : chan server_msg) : Prop := match it with Msg (SProvideFile _ _) => True | _ => False end.
Global Instance provides_dec it : Decision (provides it).
Proof. destruct it as [[]|]; apply _. Defined.
