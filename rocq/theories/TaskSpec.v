(** * TaskSpec: what the testcases of a subtask are, and which files may change *)
From Verif Require Export TaskModel.

(** A subtask depends on another one *)
Definition depends (m : gmap nat subtask) (id j : nat) : Prop := exists s, m !! id = Some s /\ j ∈ se_deps (st_info s).
(** A testcase of a subtask, or of one that can be reached through the dependencies *)
Definition belongs (m : gmap nat subtask) (id k : nat) : Prop := exists j s, rtc (depends m) id j /\ m !! j = Some s /\ k ∈ st_owned s.
(** Subtasks as the parsers make them *)
Definition just_parsed (m : gmap nat subtask) : Prop :=
  (forall id j, depends m id j -> is_Some (m !! j)) /\ (forall id s, m !! id = Some s -> StronglySorted lt (st_owned s) /\ st_testcases s = st_owned s).
(** In each pass every subtask is visited, in some order *)
Definition visits_all (m : gmap nat subtask) (order : nat -> list nat) : Prop := forall pass id, id ∈ order pass <-> is_Some (m !! id).
(** The subtasks with all their testcases *)
Definition closed (m m' : gmap nat subtask) : Prop :=
  forall id, match m !! id, m' !! id with
             | Some s, Some s' => st_info s' = st_info s /\ st_owned s' = st_owned s /\ StronglySorted lt (st_testcases s') /\ forall k, k ∈ st_testcases s' <-> belongs m id k
             | None, None => True
             | _, _ => False
             end.

(** ** Files *)
Definition has_cookie (content : text) : Prop := exists a b, content = a ++ chars "tm-allow-delete" ++ b.
(** [dir/<name>.txt] *)
Definition TxtIn (dir path : text) : Prop := exists name, path = dir ++ [47%N] ++ name ++ chars ".txt" /\ ~ 47%N ∈ name.
(** What cleaning may delete *)
Definition cleanable (custom_checker : bool) (tcs : gmap nat testcase_entry) (fs : files) (path : text) : Prop :=
  (TxtIn (chars "input") path \/ TxtIn (chars "output") path) \/
  (exists r, path = chars "bin/" ++ r) \/
  (custom_checker = true /\ (path = chars "check/checker" \/ path = chars "cor/correttore")) \/
  (path = chars "gen/GEN" /\ is_Some (fs !! chars "gen/cases.gen") /\ exists c, fs !! path = Some c /\ has_cookie c) \/
  (path = chars "task.yaml" /\ is_Some (fs !! chars "task.yaml.orig") /\ exists c, fs !! path = Some c /\ has_cookie c).
