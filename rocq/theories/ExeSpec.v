(** * ExeSpec: the headers of the executables (C94), independent of the program *)
From Coq Require Import NArith.
From stdpp Require Import base list numbers.
Local Open Scope N_scope.

(** A script, a program of Linux (ELF of 32 or 64 bits), of Windows, of macOS: the bytes they start with *)
Inductive exe_kind := Script | Elf32 | Elf64 | WindowsExe | MachO32 | MachO64 | MachOFat32 | MachOFat64.
Definition header_of (k : exe_kind) : list N :=
  match k with
  | Script => [35; 33]                       (* #! *)
  | Elf32 => [127; 69; 76; 70; 1]            (* DEL E L F *)
  | Elf64 => [127; 69; 76; 70; 2]
  | WindowsExe => [77; 90]                   (* MZ *)
  | MachO32 => [206; 250; 237; 254]          (* feedface, the least significant byte first *)
  | MachO64 => [207; 250; 237; 254]          (* feedfacf *)
  | MachOFat32 => [190; 186; 254; 202]       (* cafebabe, the least significant byte first *)
  | MachOFat64 => [191; 186; 254; 202]
  end.
Definition is_exe (content : list N) (k : exe_kind) : Prop := exists rest, content = header_of k ++ rest.
(** The header with which the universal binaries of macOS are written: cafebabe, the most significant byte first *)
Definition universal_header : list N := [202; 254; 186; 190].
