(** * SandboxSpec: vocabulary of the properties C54, C65, C66 *)
From Coq Require Import Reals.
From Verif Require Export SandboxModel FloatProofs.
Open Scope Z_scope.

(** ** Time *)
(** A duration: a finite number that is not negative *)
Definition duration (x : f64) : Prop := fin x /\ (0 <= f64_R x)%R.
(** A multiple of 2^-k seconds *)
Definition on_grid (k : Z) (x : f64) : Prop := exists z, f64_R x = (IZR z * powerRZ 2 (- k))%R.
Definition opt_R (x : option f64) : R := match x with Some x => f64_R x | None => 0%R end.
(** The processor time that is asked for, with the allowance *)
Definition asked_cpu (e : sexec) : R := (opt_R (sl_cpu (se_limits e)) + opt_R (sl_sys (se_limits e)) + f64_R (se_extra_time e))%R.
Definition asked_wall (e : sexec) : R := (opt_R (sl_wall (se_limits e)) + f64_R (se_extra_time e))%R.
Definition durations (e : sexec) : Prop :=
  duration (se_extra_time e) /\ forall x, Some x ∈ [sl_cpu (se_limits e); sl_sys (se_limits e); sl_wall (se_limits e)] -> duration x.
Definition all_on_grid (k : Z) (e : sexec) : Prop :=
  on_grid k (se_extra_time e) /\ forall x, Some x ∈ [sl_cpu (se_limits e); sl_sys (se_limits e); sl_wall (se_limits e)] -> on_grid k x.
(** When the sandbox may kill a process: it used more processor time, or more time, than the limits of its configuration. *)
Definition may_kill (c : config) (u : usage) : Prop :=
  (exists t, c_time c = Some t /\ (IZR t < f64_R (u_user u) + f64_R (u_sys u))%R) \/
  (exists t, c_wall c = Some t /\ (IZR t < f64_R (u_wall u))%R).
Definition measured (u : usage) : Prop := duration (u_user u) /\ duration (u_sys u) /\ duration (u_wall u).

(** ** Directories *)
(** A path below a directory, that does not climb *)
Definition below (d p : spath) : Prop := exists l, p = SPath (sp_abs d) (sp_comps d ++ l) /\ l <> [] /\ (".."%string ∉ l).
(** A name for a file of the sandbox: relative, below the directory of the sandbox *)
Definition plain (p : spath) : Prop := sp_abs p = false /\ sp_comps p <> [] /\ ".."%string ∉ sp_comps p.
Definition op_path (o : disk_op) : spath :=
  match o with DirAt p | PasswdAt p | FileAt p _ _ | EmptyAt p _ | ModeOf p _ => p end.
Definition plain_files (e : sexec) : Prop := (forall p f x, (p, (f, x)) ∈ se_inputs e -> plain p) /\ (forall p, p ∈ se_outputs e -> plain p).

(** The mode of the file at a path, when the files are hard links of the files of the store: the links of the same content
    share their mode, so it is that of the last operation on this content. *)
Definition content_at (ops : list disk_op) (p : spath) : option positive :=
  fold_left (fun acc o => match o with FileAt q k _ => if decide (q = p) then Some k else acc | _ => acc end) ops None.
Definition mode_of_content (ops : list disk_op) (k : positive) : option Z :=
  fold_left (fun acc o => match o with FileAt _ k' m => if decide (k' = k) then Some m else acc | _ => acc end) ops None.
Definition mode_at (ops : list disk_op) (p : spath) : option Z := content_at ops p ≫= mode_of_content ops.
