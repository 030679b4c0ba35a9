(** * MiscSpec: vocabulary of the properties C51, C53 *)
From Coq Require Import Ascii.
From Verif Require Export MiscModel ClientSpec.

(** ** C51 *)
(** The text file lacks the final newline: it is not empty, not binary, and its last byte is not a newline. *)
Definition lacks_newline (content : bytes) : Prop := content <> [] /\ 0%N ∉ content /\ last content <> Some 10%N.
(** What a callback receives if the content is sent [n] times, each time cut in some (non-empty) pieces and followed by
    the empty piece that ends it; the last time may be interrupted. *)
Definition deliveries (content : bytes) (n : nat) (stream : list bytes) : Prop :=
  exists ds rest, length ds = n /\ stream = concat (map (fun d => d ++ [[]]) ds) ++ rest /\
    (forall d, d ∈ ds -> concat d = content /\ [] ∉ d) /\ [] ∉ rest /\ concat rest `prefix_of` content.
(** The files to check and the name shown for them *)
Definition file_to_check (k : eol_kind) (t : eol_testcase) : option file_uuid := match k with Inputs => et_input t | Outputs => et_output t end.
Definition shown_path (k : eol_kind) (id : N) : string :=
  match k with
  | Inputs => "input/input" +:+ pretty id +:+ ".txt"
  | Outputs => "output/output" +:+ pretty id +:+ ".txt"
  end.

(** ** C53 *)
(** [l] is the list of the pieces of [s] separated by commas. *)
Definition comma_separated (s : string) (l : list string) : Prop :=
  l <> [] /\ String.concat "," l = s /\ forall x, x ∈ l -> forall i, String.get i x <> Some ","%char.
