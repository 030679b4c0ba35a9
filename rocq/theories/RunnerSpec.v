(** * RunnerSpec: vocabulary of C102 *)
From Verif Require Export RunnerModel.

Section spec.
  Context {conf : Type} (enc_conf : conf -> bytes) (dec_conf : bytes -> option conf).
  Context (enc_raw : raw -> bytes) (dec_raw : bytes -> option raw).

  (** JSON: what is written is read back. *)
  Definition json_ok : Prop := (forall c, dec_conf (enc_conf c) = Some c) /\ (forall r, dec_raw (enc_raw r) = Some r).

  (** The child follows its program: it ends with success only after it has printed the answer for the
      configuration that it was sent; in all other cases (a signal, a crash, a panic) anything may be on its stdout. *)
  Definition faithful (program : bytes -> bytes) (c : conf) (m : machine) : Prop :=
    forall ce, m_wait m = Some ce -> ce_success ce = true -> ce_stdout ce = program (enc_conf c).

  (** The operating system did all it was asked, and the child ended by itself. *)
  Definition works (m : machine) : Prop :=
    is_Some (m_spawn m) /\ m_stdin m = true /\ m_write m = true /\ exists ce, m_wait m = Some ce /\ ce_success ce = true.

  (** How the process of the execution ended and what it used. *)
  Definition usage (r : tb_result) : resources := Resources (tb_user r) (tb_sys r) (tb_wall r) (tb_memory r / 1024).
  Definition within_limits (e : execution) (r : resources) : Prop :=
    (forall l, l_cpu_time (e_limits e) = Some l -> (r_cpu_time r <= l)%Z) /\
    (forall l, l_sys_time (e_limits e) = Some l -> (r_sys_time r <= l)%Z) /\
    (forall l, l_wall_time (e_limits e) = Some l -> (r_wall_time r <= l)%Z) /\
    (forall l, l_memory (e_limits e) = Some l -> (r_memory r <= l)%Z).
  (** The captured streams can be read. *)
  Definition readable (e : execution) (lo : leftovers) : Prop :=
    capture_stream (lo_stdout lo) (e_capture_stdout e) <> None /\ capture_stream (lo_stderr lo) (e_capture_stderr e) <> None.
End spec.
