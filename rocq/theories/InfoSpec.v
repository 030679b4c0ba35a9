(** * InfoSpec: what the information about a task is, and where the files of the competition are *)
From Coq Require Import NArith ZArith.
From Verif Require Export InfoModel.

(** The listing of a directory: each of its entries once, in some order *)
Definition lists (listing : files -> fpath -> list string) : Prop :=
  forall f d, NoDup (listing f d) /\ forall n, n ∈ listing f d <-> is_Some (f !! (d ++ [n])).
(** The subtasks in the order of their identifiers *)
Definition in_order {A} (l l' : list (nat * A)) : Prop :=
  l' ≡ₚ l /\ forall i j a b, l' !! i = Some a -> l' !! j = Some b -> i < j -> a.1 < b.1.
(** The scores are integers, and their sum is exact *)
Definition whole_scores (t : info_task) (zs : list Z) : Prop :=
  map (fun x => x.2.1) (it_subtasks t) = map f64_of_Z zs /\ Forall (fun z => 0 <= z)%Z zs /\ (foldr Z.add 0 zs <= 2 ^ 53)%Z.

(** The file [x] of the list is the last one with the base name [n]: it is copied from [src] *)
Definition last_called (task : fpath) (l : list info_file) (n : string) (src : fpath) : Prop :=
  exists a x b, l = a ++ x :: b /\ last (if_path x) = Some n /\ src = task ++ if_path x /\ Forall (fun y => last (if_path y) <> Some n) b.
(** The files that are copied: the statements and then the attachments *)
Definition to_copy (i : task_info) : list info_file := ti_statements i ++ ti_attachments i.
Definition outside (d p : fpath) : Prop := ~ d `prefix_of` p.
