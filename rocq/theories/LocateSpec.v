(** * LocateSpec: what is expected of the search (C91) *)
From stdpp Require Import strings list.
From Verif Require Export LocateModel.

(** The directory [n] levels above *)
Definition up (n : nat) (d : list string) : list string := take (length d - n) d.
(** No component goes up *)
Definition plain (d : list string) : Prop := ".." ∉ d.
