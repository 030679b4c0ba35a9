(** * LatexSpec: the errors of LaTeX *)
From Verif Require Import BookletModel BookletSpec LatexModel.
From Coq Require Import Ascii String NArith.
From stdpp Require Import base list.
Local Open Scope nat_scope.

(** The line [l] is the error [m] *)
Definition latex_prefix : text := chars "! LaTeX Error: ".
Definition is_error (l m : text) : Prop :=
  m <> [] /\ (l = latex_prefix ++ m \/ l = chars "! " ++ m /\ ~ exists m', m' <> [] /\ l = latex_prefix ++ m').
(** The characters of a number, and their value *)
Definition decimal (ds : text) : Prop := Forall (fun c => c ∈ chars "0123456789") ds.
Fixpoint value (acc : N) (ds : text) : N := match ds with [] => acc | c :: ds => value (10 * acc + (N_of_ascii c - 48)) ds end.
(** The line [l] says at what line of the source the error is *)
Definition is_place (l : text) (n : N) : Prop :=
  exists ds rest, l = chars "l." ++ ds ++ rest /\ ds <> [] /\ decimal ds /\ (forall c r, rest = c :: r -> c ∉ chars "0123456789") /\ n = value 0 ds.
(** The error [m] is in the line [i] of the output, and [n] is the first place after it *)
Definition error_at (ls : list text) (i : nat) (m : text) (n : N) : Prop :=
  exists l j k, ls !! i = Some l /\ is_error l m /\ i < j /\ ls !! j = Some k /\ is_place k n /\ forall x y z, i < x -> x < j -> ls !! x = Some y -> ~ is_place y z.
(** After each error there is its place, before the next error *)
Definition paired (ls : list text) : Prop :=
  forall i1 i2 l1 l2 m1 m2, i1 < i2 -> ls !! i1 = Some l1 -> is_error l1 m1 -> ls !! i2 = Some l2 -> is_error l2 m2 -> exists j l n, i1 < j /\ j < i2 /\ ls !! j = Some l /\ is_place l n.
(** The line number in the report: it is lost if it does not fit in 32 bits *)
Definition line_shown (n : N) : option N := if (n <? 2^31)%N then Some n else None.
