(** * CursesSpec: vocabulary of C104 *)
From Verif Require Export CursesModel.

(** The alphabetical order, by code point. *)
Inductive before : text -> text -> Prop :=
  | before_nil b : before [] b
  | before_lt x y a b : (x < y)%N -> before (x :: a) (y :: b)
  | before_eq x a b : before a b -> before (x :: a) (x :: b).

(** The workers that are on the screen, column by column. *)
Definition on_screen (height rotation : nat) (ws : list worker) : list worker :=
  server_columns 80 height rotation ws ≫= snd.

(** A text of ASCII characters. *)
Definition ascii_text (s : text) : Prop := Forall (fun c => (c < 128)%N) s.
