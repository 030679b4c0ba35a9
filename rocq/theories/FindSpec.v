(** * FindSpec: what the programs of a task are *)
From Verif Require Import FindModel LangSpec.
From Coq Require Import Ascii String.
From stdpp Require Import base list sorting.

(** A path whose components have none of the characters that are special in a pattern ([?], [*], [[]) *)
Definition no_special (s : string) : Prop := Forall (fun c => c <> "?"%char /\ c <> "*"%char /\ c <> "["%char) (chars s).
Definition ordinary (p : fpath) : Prop := Forall (fun c => no_special c /\ c <> ".") (p_comps p).

(** A disk: what exists is in its directory, that exists; a directory has each name once, and no name is [.] or [..] *)
Record good_tree (d : tree) : Prop := GoodTree {
  gt_names : forall p names, ls d p = Some names -> NoDup names /\ Forall plain names;
  gt_listed : forall p n, stat d (child p n) = true -> plain n -> exists names, ls d p = Some names /\ n ∈ names;
  gt_parent : forall p n, stat d (child p n) = true -> p_comps p <> [] -> stat d p = true;
  gt_dir : forall p names, ls d p = Some names -> p_comps p <> [] -> stat d p = true }.
(** The directory [p] has an entry called [n] *)
Definition entry (d : tree) (p : fpath) (n : string) : Prop := exists names, ls d p = Some names /\ n ∈ names.

(** The same disk, listed in another order *)
Definition same_tree (d1 d2 : tree) : Prop :=
  (forall p, match ls d1 p, ls d2 p with Some l1, Some l2 => l1 ≡ₚ l2 | None, None => True | _, _ => False end) /\
  (forall p, stat d1 p = stat d2 p) /\ (forall p, readable d1 p = readable d2 p).

(** [n] starts with [s] *)
Definition begins (s n : string) : Prop := exists x, n = s +:+ x.
(** A filter (the last component of what the user wrote) selects the name [n]; no filter selects everything *)
Definition selected (filter : list string) (n : string) : Prop :=
  filter = [] \/ exists f g, f ∈ filter /\ file_name (fpath_of (chars f)) = Some g /\ begins g n.
Definition valid_filter (filter : list string) : Prop := Forall (fun f => is_Some (file_name (fpath_of (chars f)))) filter.
(** The names of the graders *)
Definition grader_name (n : string) : Prop := begins "grader." n \/ begins "stub." n.
(** There are not two graders for a language *)
Definition one_grader (d : tree) (task : fpath) : Prop :=
  forall n1 n2, entry d (child task "sol") n1 -> entry d (child task "sol") n2 -> grader_name n1 -> grader_name n2 ->
  is_Some (detect_language (child (child task "sol") n1)) ->
  detect_language (child (child task "sol") n1) = detect_language (child (child task "sol") n2) -> n1 = n2.

(** A file that can be used as a program: it exists and its language is known *)
Definition program (d : tree) (p : fpath) : Prop := stat d p = true /\ is_Some (detect_language p).
(** The candidates for a role: the files [stem.*] of a directory *)
Definition candidate (d : tree) (task : fpath) (places : list (string * string)) (p : fpath) : Prop :=
  exists dir stem n, (dir, stem) ∈ places /\ p = child (child task dir) n /\ begins (stem +:+ ".") n /\ entry d (child task dir) n /\ program d p.
(** The outcome of the search: none, the only one, or an error that names them all *)
Definition chosen (cand : fpath -> Prop) (dest : fpath -> fpath) (r : found) : Prop :=
  match r with
  | FNone => forall p, ~ cand p
  | FOne p b => cand p /\ (forall q, cand q -> q = p) /\ b = dest p
  | FMany l => 2 <= length l /\ NoDup l /\ forall p, p ∈ l <-> cand p
  | FPanic => False
  end.

(** ** [clean] of a Terry task *)
Definition no_dot (s : string) : Prop := "."%char ∉ chars s.
(** [a] is the name [m] without its extension; a hidden file such as [.y] has none *)
Definition stem_of (a m : string) : Prop :=
  (exists x, m = a +:+ "." +:+ x /\ a <> "" /\ no_dot x) \/ (m = a /\ exists y, a = "." +:+ y /\ no_dot y).
(** [a.b.c] in managers/, where there is a manager [a.x]: what a compilation may have left *)
Definition leftover (d : tree) (task : fpath) (n : string) : Prop :=
  exists a b c m, n = a +:+ "." +:+ b +:+ "." +:+ c /\ a <> "" /\ no_dot b /\ no_dot c /\ stem_of a m /\
    entry d (child task "managers") n /\ entry d (child task "managers") m.
(** [.b.c] in managers/: a hidden file *)
Definition hidden (d : tree) (task : fpath) (n : string) : Prop :=
  exists b c, n = "." +:+ b +:+ "." +:+ c /\ b <> "" /\ no_dot b /\ no_dot c /\ entry d (child task "managers") n.
