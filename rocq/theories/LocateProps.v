(** * LocateProps: the search for the directory of a task (C91) *)
From stdpp Require Import strings list sets gmap.
From Verif Require Import LocateSpec.

Lemma resolve_app d l : resolve (d ++ l) = foldl (fun d c => if decide (c = "..") then take (length d - 1) d else d ++ [c]) (resolve d) l.
Proof. apply foldl_app. Qed.
Lemma resolve_plain d : plain d -> resolve d = d.
Proof.
  induction d as [|c d IH] using rev_ind; [done|]. intros H. rewrite resolve_app. cbn. rewrite decide_False; [|intros ->; apply H; set_solver].
  rewrite IH; [done|]. intros H'. apply H. set_solver.
Qed.
Lemma up_0 d : up 0 d = d.
Proof. unfold up. rewrite Nat.sub_0_r. apply firstn_all. Qed.
Lemma up_plain n d : plain d -> plain (up n d).
Proof. intros H H'. apply H. apply elem_of_list_lookup in H' as [i Hi]. unfold up in Hi. apply lookup_take_Some in Hi as [Hi _]. by eapply elem_of_list_lookup_2. Qed.
Lemma up_up n d : up n (up 1 d) = up (S n) d.
Proof. unfold up. rewrite take_length, take_take. f_equal. lia. Qed.
Lemma parent_up d : d <> [] -> parent d = Some (up 1 d).
Proof. by destruct d. Qed.

Section find.
  Context (is_ioi is_terry : list string -> parsed).
  Notation from := (find_from is_ioi is_terry).
  (** The directory has a task of a format that can be read *)
  Definition task_at (d : list string) (f : format) : Prop := match f with IOI => is_ioi d = Parsed | Terry => is_terry d = Parsed end.
  Definition no_task_at (d : list string) : Prop := forall f, ~ task_at d f.
  (** What is said of the directories with a task that cannot be read *)
  Definition broken_at (d : list string) : list (format * list string * string) :=
    (match is_ioi d with Broken e => [(IOI, d, e)] | _ => [] end) ++ (match is_terry d with Broken e => [(Terry, d, e)] | _ => [] end).
  Lemma from_none depth base fails : plain base -> no_task_at base ->
    from (S depth) base fails = match parent base with None => NoTask (fails ++ broken_at base) | Some b => from depth b (fails ++ broken_at base) end.
  Proof.
    intros Hp H. pose proof (H IOI) as H1. pose proof (H Terry) as H2. cbn in H1, H2. cbn [find_from]. unfold try_ioi, try_terry, broken_at. rewrite resolve_plain by done.
    destruct (is_ioi base), (is_terry base); try done; by destruct H1 || by destruct H2.
  Qed.
  Lemma from_skip n : forall depth base fails, plain base -> n <= length base -> n <= depth -> (forall m, m < n -> no_task_at (up m base)) ->
    from depth base fails = from (depth - n) (up n base) (fails ++ concat (map (fun m => broken_at (up m base)) (seq 0 n))).
  Proof.
    induction n as [|n IH]; intros depth base fails Hp Hl Hd Hno.
    - cbn. by rewrite up_0, Nat.sub_0_r, app_nil_r.
    - destruct depth as [|depth]; [lia|]. assert (H0 : no_task_at base) by (specialize (Hno 0 ltac:(lia)); by rewrite up_0 in Hno).
      rewrite from_none by done. rewrite parent_up by (intros ->; cbn in Hl; lia).
      rewrite IH; [|by apply up_plain|unfold up; rewrite take_length; lia|lia|intros m Hm; rewrite up_up; apply Hno; lia].
      rewrite up_up. replace (S depth - S n) with (depth - n) by lia. f_equal. rewrite <- app_assoc. f_equal. cbn [seq map concat]. rewrite up_0. f_equal.
      rewrite <- seq_shift, map_map. f_equal. apply map_ext. intros m. by rewrite up_up.
  Qed.

  (** The starting directory: the one given, relative to the current one *)
  Definition start (cwd : list string) (base : option path) : list string := match base with Some (Path true d) => d | Some (Path false d) => cwd ++ d | None => cwd end.
  Lemma find_from_start cwd base depth : find_task is_ioi is_terry cwd base depth = from depth (start cwd base) [].
  Proof. unfold find_task, start, path_join. by destruct base as [[[] ?]|]. Qed.

  (** The task that is found is that of the nearest directory, at most [max_depth - 1] levels above, that has a task that can be read *)
  Theorem C91_found cwd base max_depth n f : plain (start cwd base) -> n <= length (start cwd base) -> n < max_depth ->
    (forall m, m < n -> no_task_at (up m (start cwd base))) -> task_at (up n (start cwd base)) f -> (forall g, task_at (up n (start cwd base)) g -> g = f) ->
    find_task is_ioi is_terry cwd base max_depth = Found f (up n (start cwd base)).
  Proof.
    intros Hp Hl Hd Hno Hf Hone. rewrite find_from_start, (from_skip n) by (first [done | lia]). destruct (max_depth - n) as [|k] eqn:E; [lia|]. cbn [find_from].
    unfold try_ioi, try_terry. rewrite resolve_plain by (by apply up_plain). set (d := up n (start cwd base)) in *. pose proof (Hone IOI) as H1. pose proof (Hone Terry) as H2. cbn in H1, H2.
    destruct f; cbn in Hf; rewrite Hf; [destruct (is_terry d); cbn; try done; by specialize (H2 eq_refl)|destruct (is_ioi d); cbn; try done; by specialize (H1 eq_refl)].
  Qed.
  (** If it is a task of both formats the search fails *)
  Theorem C91_ambiguous cwd base max_depth n : plain (start cwd base) -> n <= length (start cwd base) -> n < max_depth ->
    (forall m, m < n -> no_task_at (up m (start cwd base))) -> (forall g, task_at (up n (start cwd base)) g) ->
    find_task is_ioi is_terry cwd base max_depth = Ambiguous (up n (start cwd base)).
  Proof.
    intros Hp Hl Hd Hno Hall. rewrite find_from_start, (from_skip n) by (first [done | lia]). destruct (max_depth - n) as [|k] eqn:E; [lia|]. cbn [find_from].
    unfold try_ioi, try_terry. rewrite resolve_plain by (by apply up_plain). by rewrite (Hall IOI), (Hall Terry).
  Qed.
  (** If none of them has a task that can be read it fails, and says why each of those with a task.yaml cannot be read *)
  Theorem C91_none cwd base max_depth : plain (start cwd base) ->
    (forall m, m < max_depth -> m <= length (start cwd base) -> no_task_at (up m (start cwd base))) ->
    find_task is_ioi is_terry cwd base max_depth = NoTask (concat (map (fun m => broken_at (up m (start cwd base))) (seq 0 (max_depth `min` S (length (start cwd base)))))).
  Proof.
    intros Hp Hno. rewrite find_from_start. set (b := start cwd base) in *. destruct (decide (max_depth <= length b)) as [Hle|Hgt].
    - rewrite (from_skip max_depth); [|done|done|lia|intros m Hm; apply Hno; lia]. rewrite Nat.sub_diag. cbn [find_from app]. by rewrite Nat.min_l by lia.
    - rewrite (from_skip (length b)); [|done|lia|lia|intros m Hm; apply Hno; lia]. destruct (max_depth - length b) as [|k] eqn:E; [lia|].
      rewrite from_none by (first [by apply up_plain | apply Hno; lia]). assert (Hup : up (length b) b = []) by (unfold up; by rewrite Nat.sub_diag).
      rewrite Nat.min_r by lia. rewrite seq_S, map_app, concat_app. cbn [map concat app]. rewrite app_nil_r, Nat.add_0_l, Hup. reflexivity.
  Qed.
End find.

(** ** What is not as expected *)
Definition only (d : list string) (p : list string) : parsed := if decide (p = d) then Parsed else NotValid.
Definition nothing (p : list string) : parsed := NotValid.
(** The option says that at most that number of parents are looked at: the last one is not *)
Theorem C91_depth_refuted n d : plain d -> n <= length d -> find_task (only (up n d)) nothing d None n = NoTask [].
Proof.
  intros Hp Hl. assert (Hne : forall m, m < n -> up m d <> up n d).
  { intros m Hm H. apply (f_equal length) in H. unfold up in H. rewrite !take_length in H. lia. }
  rewrite C91_none; [|done|].
  - cbn [start]. rewrite Nat.min_l by lia. f_equal. induction (seq 0 n) as [|m l IH]; [done|]. cbn [map concat]. unfold broken_at at 1, only, nothing. rewrite app_nil_r.
    destruct (decide _); exact IH.
  - cbn [start]. intros m Hm _ [] H; cbn in H; [|done]. unfold only in H. case_decide as Hc; [|done]. by apply (Hne m).
Qed.
Theorem C91_depth_example : find_task (only ["a"]) nothing ["a"; "b"; "c"] None 2 = NoTask [] /\ find_task (only ["a"]) nothing ["a"; "b"; "c"] None 3 = Found IOI ["a"].
Proof. split; reflexivity. Qed.
(** From .. the search does not go up: it looks again in the current directory *)
Theorem C91_dotdot_refuted : find_task (only ["a"; "b"]) nothing ["a"; "b"] (Some (Path false [".."])) 3 = Found IOI ["a"; "b"] /\
  find_task (only []) nothing ["a"; "b"] (Some (Path false [".."])) 3 = NoTask [].
Proof. split; reflexivity. Qed.
(** If the task of the current directory cannot be read, the task of a directory above is taken *)
Theorem C91_broken_refuted cause : find_task (fun p => if decide (p = ["a"; "b"]) then Broken cause else only ["a"] p) nothing ["a"; "b"] None 3 = Found IOI ["a"].
Proof. reflexivity. Qed.
Print Assumptions C91_found.
Print Assumptions C91_ambiguous.
Print Assumptions C91_none.
Print Assumptions C91_depth_refuted.
