(** * C104: the live screen shows the workers, the compilations, the statements and the solutions. *)
From Coq Require Import Ascii String.
From stdpp Require Import list sorting list_numbers.
From Verif Require Import CursesSpec CursesProofs.

(** ** The workers *)
(** If there is space all the workers are there, each once, by name, at every moment. *)
Theorem C104_all_workers height rotation ws : (N.of_nat (length ws) < 65536)%N -> length ws <= slots height (length ws) ->
  on_screen height rotation ws ≡ₚ ws /\ StronglySorted (fun a b => before (wk_name a) (wk_name b)) (on_screen height rotation ws).
Proof.
  intros Hn Hs. rewrite on_screen_take by done. rewrite (proj2 (Nat.leb_le _ _) Hs), rotate_0.
  rewrite take_ge by (rewrite sort_by_length; lia). split; [apply sort_by_perm|apply (sort_by_sorted wk_name)].
Qed.
(** There is space when the workers are not more than the rows, or than twice the rows. *)
Theorem C104_space height n : n <= slots height n <-> n <= 2 * height.
Proof. unfold slots. destruct (Nat.ltb_spec height n); lia. Qed.

(** If there is not, the screen is full and is a window on the workers in the order of their names, that goes around:
    nobody is twice on the screen, and each one comes back: it is shown in one of any [length ws] rotations. *)
Definition by_name (ws : list worker) : list worker := sort_by wk_name ws.
Lemma full height rotation ws : (N.of_nat (length ws) < 65536)%N -> 2 * height < length ws ->
  on_screen height rotation ws = take (2 * height) (rotate rotation (by_name ws)).
Proof.
  intros Hn Hs. rewrite on_screen_take by done. unfold slots.
  rewrite (proj2 (Nat.ltb_lt _ _)) by lia. by rewrite (proj2 (Nat.leb_gt _ _) Hs).
Qed.
Theorem C104_window height rotation ws : (N.of_nat (length ws) < 65536)%N -> 2 * height < length ws ->
  by_name ws ≡ₚ ws /\ StronglySorted (fun a b => before (wk_name a) (wk_name b)) (by_name ws) /\
  length (on_screen height rotation ws) = 2 * height /\
  forall i, i < 2 * height -> on_screen height rotation ws !! i = by_name ws !! ((rotation + i) mod length ws).
Proof.
  intros Hn Hs. split; [apply sort_by_perm|]. split; [apply (sort_by_sorted wk_name)|].
  rewrite full by done. destruct (rotate_lookup rotation (by_name ws)) as [H1 H2].
  unfold by_name in *. rewrite sort_by_length in *. rewrite take_length, H1. split; [lia|].
  intros i Hi. rewrite lookup_take by done. apply H2. lia.
Qed.
Theorem C104_once height rotation (ws : list worker) i j : (N.of_nat (length ws) < 65536)%N -> 2 * height < length ws ->
  i < 2 * height -> j < 2 * height -> (rotation + i) mod length ws = (rotation + j) mod length ws -> i = j.
Proof.
  intros _ Hs Hi Hj E.
  assert (Hd : forall a b, a <= b -> b < length ws -> (rotation + a) mod length ws = (rotation + b) mod length ws -> a = b).
  { intros a b Hab Hb E2.
    pose proof (Nat.div_mod (rotation + a) (length ws) ltac:(lia)) as D1.
    pose proof (Nat.div_mod (rotation + b) (length ws) ltac:(lia)) as D2. rewrite E2 in D1.
    set (q1 := (rotation + a) / length ws) in *. set (q2 := (rotation + b) / length ws) in *.
    destruct (Nat.lt_trichotomy q1 q2) as [Hq|[Hq|Hq]]; [|rewrite Hq in D1; lia|].
    - assert (length ws * (q1 + 1) <= length ws * q2) by (apply Nat.mul_le_mono_l; lia). lia.
    - assert (length ws * (q2 + 1) <= length ws * q1) by (apply Nat.mul_le_mono_l; lia). lia. }
  destruct (Nat.le_ge_cases i j); [apply Hd; (done || lia)|symmetry; apply Hd; (done || lia)].
Qed.
Theorem C104_comes_back height start ws w : (N.of_nat (length ws) < 65536)%N -> 0 < height -> w ∈ ws ->
  exists k, k < length ws /\ w ∈ on_screen height (start + k) ws.
Proof.
  intros Hn Hh Hw. assert (Hpos : length ws <> 0) by (destruct ws; [by apply elem_of_nil in Hw|done]).
  destruct (decide (length ws <= 2 * height)) as [Hl|Hl].
  - exists 0. split; [lia|]. apply (C104_space) in Hl. destruct (C104_all_workers height (start + 0) ws Hn Hl) as [Hp _]. by rewrite Hp.
  - destruct (C104_window height start ws Hn ltac:(lia)) as (Hp&_&_).
    rewrite <- Hp in Hw. apply elem_of_list_lookup in Hw as [p Hpp].
    assert (p < length ws) as Hlt by (apply lookup_lt_Some in Hpp; unfold by_name in Hpp; by rewrite sort_by_length in Hpp).
    pose proof (Nat.mod_upper_bound start (length ws) Hpos) as Hm.
    pose proof (Nat.div_mod start (length ws) Hpos) as Hd.
    set (k := (p + (length ws - start mod length ws)) mod length ws).
    exists k. split; [by apply Nat.mod_upper_bound|].
    destruct (C104_window height (start + k) ws Hn ltac:(lia)) as (_&_&_&H2).
    apply elem_of_list_lookup. exists 0. rewrite H2 by lia. rewrite Nat.add_0_r. rewrite <- Hpp. f_equal.
    unfold k. rewrite Nat.add_mod_idemp_r by done.
    replace (start + (p + (length ws - start mod length ws))) with (p + (1 + start / length ws) * length ws) by lia.
    rewrite Nat.mod_add by done. by apply Nat.mod_small.
Qed.
(** A rotation for each second: 30 frames. *)
Theorem C104_rotation f : rotation_of (f + 30) = rotation_of f + 1.
Proof. unfold rotation_of. rewrite !Nat.div_1_r. replace (f + 30) with (f + 1 * 30) by lia. by rewrite Nat.div_add by done. Qed.

(** The columns are inside of the panel. *)
Theorem C104_columns width height f loading ws :
  list_sum (map fst (draw_server_status width height f loading ws)) <= width /\
  Forall (fun c => length c.2 <= height) (draw_server_status width height f loading ws).
Proof.
  unfold draw_server_status, server_columns, columns. set (l := rotate _ _). set (b := (_ <? _)%N). clearbody l b.
  destruct (height =? 0); [split; [simpl; lia|constructor]|].
  assert (Hd : width / 2 <= width) by (apply Nat.div_le_upper_bound; lia).
  destruct b; cbn [imap map list_sum foldr fst snd]; unfold compose; cbn [fst snd].
  - split; [lia|]. repeat (constructor; [cbn [snd]; unfold draw_workers_chunk; rewrite map_length, take_length; lia|]). constructor.
  - split; [lia|]. repeat (constructor; [cbn [snd]; unfold draw_workers_chunk; rewrite map_length, take_length; lia|]). constructor.
Qed.

(** The jobs of a column start at the same place. *)
Lemma bytes_length s : length s <= bytes s.
Proof. induction s as [|c s IH]; [done|]. unfold bytes in *. simpl. assert (1 <= utf8_len c) by (unfold utf8_len; repeat case_match; lia). lia. Qed.
Lemma max_bytes_ge s l : s ∈ l -> bytes s <= max_bytes l.
Proof. unfold max_bytes. induction 1 as [s l|s x l Hin IH]; simpl; lia. Qed.
Lemma pad_length n s : length s <= n -> length (pad n s) = n.
Proof. intros H. unfold pad. rewrite app_length, replicate_length. lia. Qed.
Theorem C104_aligned ws : exists col, forall width loading,
  Forall2 (fun w row => exists name rest, row = name ++ rest /\ length name = col /\
    (exists blanks, name = t "- " ++ wk_name w ++ blanks /\ Forall (eq 32%N) blanks /\ blanks <> []) /\ (wk_job w = None -> rest = []))
    ws (draw_workers_chunk width loading ws).
Proof.
  exists (max_bytes (map wk_name ws) + 3). intros width loading. unfold draw_workers_chunk.
  apply Forall2_fmap_r. apply Forall_Forall2_diag. apply Forall_forall. intros w Hw.
  eexists _, _. split; [done|]. assert (Hb : length (wk_name w) <= max_bytes (map wk_name ws)).
  { pose proof (bytes_length (wk_name w)). pose proof (max_bytes_ge (wk_name w) (map wk_name ws)) as H2.
    specialize (H2 (elem_of_list_fmap_1 _ _ _ Hw)). lia. }
  split; [|split].
  - unfold worker_name. rewrite !app_length, pad_length by done. simpl. lia.
  - eexists. unfold worker_name, pad. rewrite <- !app_assoc. split; [done|]. split; [|by destruct (replicate _ _)].
    apply Forall_app. split; [|by repeat constructor]. apply Forall_replicate. done.
  - by intros ->.
Qed.

(** ** The job of a worker *)
(** It is whole when it fits. *)
Theorem C104_job_whole width loading n job d :
  n + length job + length d + 6 <= width -> job_line width loading n job d = loading :: t " " ++ job ++ t " (" ++ d ++ t "s)".
Proof.
  intros H. unfold job_line. rewrite (proj2 (Nat.ltb_ge _ _)); [done|].
  simpl. rewrite !app_length. simpl. rewrite app_length. simpl. lia.
Qed.
(** Otherwise, if the name is ASCII and there is space for some of it and the time, it is cut to fit exactly, and ends
    with the time; if there is no space it is the start of the line. *)
Lemma ascii_bytes s : ascii_text s -> bytes s = length s.
Proof.
  induction 1 as [|c s Hc Hs IH]; [done|]. unfold bytes in *. simpl. rewrite IH.
  unfold utf8_len. by rewrite (proj2 (N.ltb_lt _ _) Hc).
Qed.
Lemma line_length (loading : N) job d : length (loading :: 32%N :: job ++ t " (" ++ d ++ t "s)") = length job + length d + 6.
Proof. simpl. rewrite !app_length. simpl. rewrite app_length. simpl. lia. Qed.
Theorem C104_job_cut width loading n job d : ascii_text job -> width < n + length job + length d + 6 ->
  (width < n + length d + 9 -> job_line width loading n job d = take width (loading :: t " " ++ job ++ t " (" ++ d ++ t "s)")) /\
  (n + length d + 9 <= width -> n + length (job_line width loading n job d) = width /\
    exists s, job_line width loading n job d = s ++ t "... (" ++ d ++ t "s)").
Proof.
  intros Ha%ascii_bytes Hw. unfold job_line. rewrite line_length, Ha. rewrite (proj2 (Nat.ltb_lt _ _)) by lia. split.
  - intros H. by rewrite (proj2 (Nat.ltb_lt _ _)) by lia.
  - intros H. rewrite (proj2 (Nat.ltb_ge _ _)) by lia. split.
    + cbn [length]. rewrite app_length, take_length, line_length. simpl. rewrite app_length. simpl. lia.
    + eexists (_ :: _ :: take _ _). done.
Qed.
(** What is before the dots should be the start of the name of the job. *)
Definition C104_prefix_of_the_name : Prop := forall width loading n job d, ascii_text job -> ascii_text d ->
  width < n + length job + length d + 6 -> n + length d + 9 <= width ->
  exists k, job_line width loading n job d = loading :: t " " ++ take k job ++ t "... (" ++ d ++ t "s)".
(** It is not: it is the start of the line, that has the spinner again. *)
Theorem C104_spinner_twice_refuted : ~ C104_prefix_of_the_name.
Proof.
  intros H. destruct (H 30 9680%N 8 (t "Evaluation of sol.cpp") (t "0.50")) as [k E];
    [by apply (bool_decide_unpack _); vm_compute|by apply (bool_decide_unpack _); vm_compute|vm_compute; lia|vm_compute; lia|].
  vm_compute in E. destruct k as [|k]; vm_compute in E; discriminate E.
Qed.
(** Each line of a worker should fit in its column. *)
Definition C104_fits : Prop := forall width loading n job d, n + length d + 9 <= width -> n + length (job_line width loading n job d) <= width.
(** It does not with a name that is not ASCII: what is cut is counted in bytes, and the time is out of the screen. *)
Theorem C104_bytes_refuted : ~ C104_fits.
Proof.
  intros H. specialize (H 30 9680%N 8 (replicate 21 232%N) (t "0.50")). vm_compute in H. lia.
Qed.

(** ** The other panels *)
Lemma concat_rows loading bs : length (bs ≫= booklet_rows loading) = list_sum (map (fun b => length (b_deps b) + 1) bs).
Proof.
  induction bs as [|b bs IH]; [done|]. cbn [mbind list_bind] in *. rewrite app_length. unfold booklet_rows at 1.
  cbn [length]. rewrite map_length, sort_by_length. cbn [map list_sum foldr]. fold (list_sum (map (fun b => length (b_deps b) + 1) bs)). lia.
Qed.
Lemma list_sum_perm l1 l2 : l1 ≡ₚ l2 -> list_sum l1 = list_sum l2.
Proof. induction 1; simpl; lia. Qed.
Lemma booklets_rows loading v : booklet_len v = if length (v_booklets v) =? 0 then 0 else length (draw_booklets loading (v_booklets v)) + 2.
Proof.
  unfold booklet_len. destruct (_ =? 0); [done|]. f_equal. unfold draw_booklets. rewrite concat_rows.
  apply list_sum_perm. apply Permutation_map. symmetry. apply sort_by_perm.
Qed.
Lemma compilations_rows loading v : compilations_len v = if length (v_compilations v) =? 0 then 0 else length (draw_compilations loading (v_compilations v)) + 2.
Proof. unfold compilations_len. destruct (_ =? 0); [done|]. unfold draw_compilations. by rewrite map_length, sort_by_length. Qed.
Lemma visible_all h rows : length rows + 2 <= h -> visible h rows = rows.
Proof. intros H. apply take_ge. unfold inner_height. destruct (Nat.ltb_spec h 2); lia. Qed.

(** A row for each compilation, by path: its name and, all in the same column, its status. *)
Theorem C104_compilations loading cs : exists order col, order ≡ₚ cs /\ StronglySorted (fun a b => before (c_path a) (c_path b)) order /\
  Forall2 (fun c row => exists blanks, row = c_name c ++ blanks ++ compilation_status_text loading (c_status c) /\
    Forall (eq 32%N) blanks /\ 4 <= length blanks /\ length (c_name c ++ blanks) = col) order (draw_compilations loading cs).
Proof.
  exists (sort_by c_path cs), (max_bytes (map c_name cs) + 4). split; [apply sort_by_perm|]. split; [apply sort_by_sorted|].
  unfold draw_compilations. apply Forall2_fmap_r. apply Forall_Forall2_diag. apply Forall_forall. intros c Hc.
  rewrite sort_by_perm in Hc. pose proof (bytes_length (c_name c)).
  pose proof (max_bytes_ge _ _ (elem_of_list_fmap_1 c_name _ _ Hc)) as H2. change (c_name <$> cs) with (map c_name cs) in H2.
  eexists. unfold pad. rewrite <- app_assoc. split; [done|]. split; [by apply Forall_replicate|].
  rewrite app_length, replicate_length. lia.
Qed.
(** A row for each statement, by name, with its status, followed by a row for each of its dependencies, by name, with
    the letter of each step. *)
Theorem C104_booklets loading bs : exists order blocks, order ≡ₚ bs /\ StronglySorted (fun a b => before (b_name a) (b_name b)) order /\
  draw_booklets loading bs = concat blocks /\
  Forall2 (fun b rows => exists row deps_rows deps, rows = row :: deps_rows /\
    (exists blanks, row = b_name b ++ blanks ++ ui_execution_status_text loading (b_status b) /\ Forall (eq 32%N) blanks /\ blanks <> []) /\
    deps ≡ₚ b_deps b /\ StronglySorted (fun a b => before a.1 b.1) deps /\
    Forall2 (fun d row => exists blanks, row = t "  " ++ d.1 ++ blanks ++ t "[" ++ concat (map (ui_execution_status_text loading) d.2) ++ t "]" /\
      Forall (eq 32%N) blanks) deps deps_rows) order blocks.
Proof.
  assert (Hbind : forall A B (f : A -> list B) l, l ≫= f = concat (map f l)).
  { intros A B f l. induction l as [|x l IH]; [done|]. cbn. f_equal. apply IH. }
  exists (sort_by b_name bs), (map (booklet_rows loading) (sort_by b_name bs)). split; [apply sort_by_perm|]. split; [apply sort_by_sorted|].
  split; [apply Hbind|]. apply Forall2_fmap_r. apply Forall_Forall2_diag. apply Forall_forall. intros b _.
  eexists _, _, (sort_by fst (b_deps b)). split; [done|]. split; [|split; [apply sort_by_perm|split; [apply sort_by_sorted|]]].
  - eexists. unfold pad. rewrite <- app_assoc. rewrite (app_assoc (replicate _ _)). split; [done|]. split; [|by destruct (replicate _ _)].
    apply Forall_app. split; [by apply Forall_replicate|by repeat constructor].
  - apply Forall2_fmap_r. apply Forall_Forall2_diag. apply Forall_forall. intros d _.
    exists (replicate (18 - length d.1) 32%N ++ t " "). rewrite Hbind. unfold pad. rewrite <- !app_assoc. split; [done|].
    apply Forall_app. split; [by apply Forall_replicate|by repeat constructor].
Qed.

(** The rows of the screen that the panels without the workers need, from what is drawn. *)
Definition needed (loading : N) (v : view) : nat :=
  let panel (rows : list text) := match rows with [] => 0 | _ => length rows + 2 end in
  2 + panel (draw_compilations loading (v_compilations v)) + panel (draw_booklets loading (v_booklets v)) +
  match v_generations v with None => 0 | Some _ => 3 end + (length (v_evaluations v) + 2).
Lemma needed_len loading v : needed loading v = top_height v + evaluations_len v.
Proof.
  unfold needed, top_height, header_len, evaluations_len, generations_len. f_equal. f_equal.
  rewrite (compilations_rows loading), (booklets_rows loading).
  assert (H1 : length (draw_compilations loading (v_compilations v)) = length (v_compilations v)) by (unfold draw_compilations; by rewrite map_length, sort_by_length).
  assert (H2 : draw_booklets loading (v_booklets v) = [] <-> v_booklets v = []).
  { split; [|by intros ->]. intros E. apply (f_equal length) in E. unfold draw_booklets in E. rewrite concat_rows in E.
    pose proof (sort_by_perm b_name (v_booklets v)) as Hp. destruct (sort_by b_name (v_booklets v)) as [|b bs]; [by apply Permutation_nil|].
    simpl in E. lia. }
  destruct (v_booklets v) as [|b bs] eqn:Eb.
  - rewrite (proj2 H2) by done. simpl.
    destruct (draw_compilations loading (v_compilations v)) eqn:E; simpl in *; destruct (v_compilations v); simpl in *; lia.
  - destruct (draw_booklets loading (b :: bs)) as [|r rs]; [by discriminate (proj1 H2 eq_refl)|]. simpl.
    destruct (draw_compilations loading (v_compilations v)) eqn:E; simpl in *; destruct (v_compilations v); simpl in *; lia.
Qed.
(** Everything is visible when there is space for it; and with less space, until that for a worker, only the workers
    have fewer rows (at least one, and all that is left). *)
Theorem C104_layout loading v total : needed loading v + 3 <= total ->
  exists h, layout v total = Some h /\
    (v_compilations v <> [] -> visible (h_compilations h) (draw_compilations loading (v_compilations v)) = draw_compilations loading (v_compilations v)) /\
    (v_booklets v <> [] -> visible (h_booklets h) (draw_booklets loading (v_booklets v)) = draw_booklets loading (v_booklets v)) /\
    (forall row, v_generations v = Some row -> visible (h_generations h) [row] = [row]) /\
    visible (h_evaluations h) (v_evaluations v) = v_evaluations v /\
    (forall ws, v_workers v = Some ws ->
      (ws <> [] -> 1 <= inner_height (h_workers h)) /\
      (needed loading v + length ws + 2 <= total -> inner_height (h_workers h) = length ws) /\
      (total < needed loading v + length ws + 2 -> inner_height (h_workers h) = total - needed loading v - 2)).
Proof.
  intros Hn. rewrite needed_len in Hn.
  assert (Hw : workers_len v total = Nat.min (total - top_height v - evaluations_len v) (match v_workers v with None => 0 | Some ws => length ws end + 2)).
  { unfold workers_len. destruct (Nat.ltb_spec total (top_height v + evaluations_len v + (match v_workers v with None => 0 | Some ws => length ws end + 2))); lia. }
  unfold layout. rewrite Hw. set (w := Nat.min _ _) in *.
  rewrite (proj2 (Nat.leb_le (top_height v + w) total)) by lia. eexists. split; [done|].
  cbn [h_compilations h_booklets h_generations h_evaluations h_workers].
  split; [|split; [|split; [|split]]].
  - intros Hc. apply visible_all. rewrite (compilations_rows loading). destruct (v_compilations v); [done|]. simpl; lia.
  - intros Hc. apply visible_all. rewrite (booklets_rows loading). destruct (v_booklets v); [done|]. simpl; lia.
  - intros row E. apply visible_all. unfold generations_len. rewrite E. simpl. lia.
  - apply visible_all. unfold evaluations_len in *. lia.
  - intros ws E. rewrite needed_len. subst w. rewrite E in *. unfold inner_height.
    destruct (Nat.ltb_spec (Nat.min (total - top_height v - evaluations_len v) (length ws + 2)) 2); [lia|].
    split; [destruct ws; [done|simpl; lia]|]. split; lia.
Qed.

Definition five : list worker := map (fun n => Worker (t n) (Some (t "Evaluation of sol", t "1.25"))) ["local3"; "local1"; "local5"; "local2"; "local4"]%string.
Definition screen := View
  [Compilation (t "check/checker.cpp") (t "checker.cpp") CDone; Compilation (t "gen/generator.py") (t "generator.py") CSkipped]
  [Booklet (t "statement.pdf") SStarted [(t "logo.asy", [SSuccess; SPending])]] (Some (t "[VV.][...]"))
  [t "a.cpp"; t "b.cpp"; t "c.cpp"] (Some five).
Theorem C104_example :
  map wk_name (on_screen 1 0 five) = [t "local1"; t "local2"] /\
  map wk_name (on_screen 1 4 five) = [t "local5"; t "local1"] /\
  map wk_name (on_screen 3 7 five) = map t ["local1"; "local2"; "local3"; "local4"; "local5"]%string /\
  draw_server_status 100 3 0 9680%N (take 1 five) = [(100, [t "- local3 " ++ 9680%N :: t " Evaluation of sol (1.25s)"])] /\
  draw_compilations 9680%N (v_compilations screen) = [t "checker.cpp     OK  "; t "generator.py    skip"] /\
  needed 9680%N screen = 18 /\
  layout screen 21 = Some (Heights 4 4 3 5 3) /\ layout screen 25 = Some (Heights 4 4 3 5 7) /\ layout screen 16 = Some (Heights 4 4 3 0 3).
Proof. repeat split; vm_compute; reflexivity. Qed.

Print Assumptions C104_all_workers.
Print Assumptions C104_space.
Print Assumptions C104_window.
Print Assumptions C104_once.
Print Assumptions C104_comes_back.
Print Assumptions C104_rotation.
Print Assumptions C104_columns.
Print Assumptions C104_aligned.
Print Assumptions C104_job_whole.
Print Assumptions C104_job_cut.
Print Assumptions C104_spinner_twice_refuted.
Print Assumptions C104_bytes_refuted.
Print Assumptions C104_compilations.
Print Assumptions C104_booklets.
Print Assumptions C104_layout.
Print Assumptions C104_example.
