(** * ExeModel: what an executable is (task-maker-exec/src/detect_exe.rs, task-maker-exec/src/sandbox.rs)

    Definitions only.  A file is its content, a list of bytes (numbers below 256). *)
From Coq Require Import NArith.
From stdpp Require Import base list numbers.
Local Open Scope N_scope.

Definition bytes := list N.
(** detect_exe.rs:8-22 *)
Inductive platform := PLinux | PWindows | PMacOs | PMacOsFat.
Inductive bits := BUnknown | B32 | B64.
Global Instance platform_eq_dec : EqDecision platform.
Proof. solve_decision. Defined.
Global Instance bits_eq_dec : EqDecision bits.
Proof. solve_decision. Defined.
(** detect_exe.rs:25-53 [PATTERNS] *)
Definition patterns : list (bytes * (platform * bits)) :=
  [([0x4D; 0x5A], (PWindows, BUnknown));
   ([0x23; 0x21], (PLinux, BUnknown));
   ([0xCE; 0xFA; 0xED; 0xFE], (PMacOs, B32));
   ([0xCF; 0xFA; 0xED; 0xFE], (PMacOs, B64));
   ([0xBE; 0xBA; 0xFE; 0xCA], (PMacOsFat, B32));
   ([0xBF; 0xBA; 0xFE; 0xCA], (PMacOsFat, B64));
   ([0x7F; 0x45; 0x4C; 0x46; 0x01], (PLinux, B32));
   ([0x7F; 0x45; 0x4C; 0x46; 0x02], (PLinux, B64))].
(** [Read::read_exact]: [n] bytes and what is left; [None]: the file ends before *)
Definition read_exact (n : nat) (file : bytes) : option (bytes * bytes) :=
  if decide (n <= length file)%nat then Some (take n file, drop n file) else None.
Inductive detected := DErr | DOk (r : option (platform * bits)).
(** [starts_with] *)
Definition starts_with (h p : bytes) : bool := bool_decide (take (length p) h = p).
(** detect_exe.rs:66-83: the loop; [file]: what has not been read yet *)
Fixpoint detect_loop (ps : list (bytes * (platform * bits))) (header file : bytes) : detected :=
  match ps with
  | [] => DOk None
  | (p, r) :: ps =>
    if decide (length header < length p)%nat then
      match read_exact (length p - length header) file with
      | None => DErr
      | Some (missing, file) => if starts_with (header ++ missing) p then DOk (Some r) else detect_loop ps (header ++ missing) file
      end
    else if starts_with header p then DOk (Some r) else detect_loop ps header file
  end.
(** detect_exe.rs:60-85 [detect_exe] of a file that can be opened *)
Definition detect_exe (file : bytes) : detected := detect_loop patterns [] file.
(** sandbox.rs:566-579 [validate_local_executable]; [None]: it is not a file (or it cannot be opened) *)
Inductive exe_error := NotAFile | FailedToDetect | MissingShebang.
Definition validate_local_executable (file : option bytes) : option exe_error :=
  match file with
  | None => Some NotAFile
  | Some content => match detect_exe content with DErr => Some FailedToDetect | DOk None => Some MissingShebang | DOk (Some _) => None end
  end.
