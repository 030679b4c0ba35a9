(** * C97: the picture of the DAG (bin/DAG.dot)

    The text is read by the DOT reader of DotSpec, and compared with the DAG. *)
From Coq Require Import NArith Ascii.
From Verif Require Import DotModel DotSpec DotProofs DotProofs2.

(** ** Specification *)
Definition is_exec (d : drawing) (x : dexec) : Prop := exists g, g ∈ dg_groups d /\ x ∈ g.
Definition writes (x : dexec) (f : dfile) : Prop := f ∈ dx_outputs x \/ dx_stdout x = Some f \/ dx_stderr x = Some f.
Definition needs (x : dexec) (u : N) : Prop := dx_stdin x = Some u \/ u ∈ dx_inputs x.
Definition is_file (d : drawing) (f : dfile) : Prop := f ∈ dg_provided d \/ exists x, is_exec d x /\ writes x f.
(** The identifiers are unique, and of 128 bits *)
Definition unique_ids (d : drawing) : Prop :=
  (forall f g, is_file d f -> is_file d g -> df_uuid f = df_uuid g -> f = g) /\
  NoDup (map dx_uuid (concat (dg_groups d))) /\
  (forall x f, is_exec d x -> is_file d f -> dx_uuid x <> df_uuid f) /\
  (forall x, is_exec d x -> dx_uuid x < 2 ^ 128)%N /\ (forall f, is_file d f -> df_uuid f < 2 ^ 128)%N.
Definition title (x : dexec) : list ascii := dx_description x ++ word " | " ++ dx_command x ++ word " " ++ with_sep (word " ") (dx_args x).
Definition no_char (c : ascii) (s : list ascii) : Prop := c ∉ s.
Definition plain (d : drawing) : Prop :=
  (forall x, is_exec d x -> no_char "\" (title x)) /\ (forall f, is_file d f -> no_char "\" (df_description f)).
(** The iteration of the HashMap of the files: every value once *)
Definition iterates (order : gmap N dfile -> list dfile) : Prop := forall m, order m ≡ₚ (map_to_list m).*2.
(** The edges of the DAG: one for each file that is written, one for each file that is read *)
Definition edges_of (d : drawing) : list (N * N) :=
  concat (map (fun x => map (fun f => (dx_uuid x, df_uuid f)) (dx_outputs x ++ option_list (dx_stdout x) ++ option_list (dx_stderr x)) ++
                        map (fun u => (u, dx_uuid x)) (option_list (dx_stdin x) ++ dx_inputs x)) (concat (dg_groups d))).
Definition picture_text (p : picture) : list ascii := match p with Box t => t | Record fs => with_sep (word "|") fs end.
(** What is drawn for an execution: a record with its title; for a file: a box with its description *)
Definition draws_exec (x : dexec) (p : picture) : Prop :=
  exists fields, p = Record fields /\ with_sep (word "|") fields = title x /\ Forall (no_char "|") fields.

(** ** Lemmas *)
Lemma concat_elem {A} (l : list (list A)) a : a ∈ concat l <-> exists k, k ∈ l /\ a ∈ k.
Proof. rewrite elem_of_list_In, in_concat. setoid_rewrite <- elem_of_list_In. done. Qed.
Lemma exec_concat d x : x ∈ concat (dg_groups d) <-> is_exec d x.
Proof. apply concat_elem. Qed.
Lemma written_writes x f : f ∈ written x <-> writes x f.
Proof.
  unfold written, writes. rewrite !elem_of_app. destruct (dx_stdout x) as [o|], (dx_stderr x) as [e|]; cbn; rewrite ?elem_of_list_singleton, ?elem_of_nil; naive_solver.
Qed.
Lemma deps_needs x u : u ∈ dependencies x <-> needs x u.
Proof. unfold dependencies, needs. rewrite elem_of_app. destruct (dx_stdin x); cbn; rewrite ?elem_of_list_singleton, ?elem_of_nil; naive_solver. Qed.
Lemma concat_map_elem {A B} (g : A -> list B) l b : b ∈ concat (map g l) <-> exists a, a ∈ l /\ b ∈ g a.
Proof.
  rewrite concat_elem. split.
  - intros (k & Hk & Hb). apply elem_of_list_fmap in Hk as (a & -> & Ha). by exists a.
  - intros (a & Ha & Hb). exists (g a). split; [|done]. apply elem_of_list_fmap. by exists a.
Qed.
Lemma files_of_some d u f : files_of d !! u = Some f -> is_file d f /\ df_uuid f = u.
Proof.
  intros H. unfold files_of in H. apply foldl_insert in H as [H|[H E]].
  - apply foldl_insert in H as [H|[H E]]; [by rewrite lookup_empty in H|]. split; [by left|done].
  - split; [|done]. right. apply concat_map_elem in H as (x & Hx & Hf). exists x. by rewrite <- exec_concat, <- written_writes.
Qed.
Lemma files_of_is d f : is_file d f -> is_Some (files_of d !! df_uuid f).
Proof.
  intros H. unfold files_of. apply foldl_some. destruct H as [H|(x & Hx & Hf)].
  - left. apply foldl_some. right. by exists f.
  - right. exists f. split; [|done]. apply concat_map_elem. exists x. by rewrite exec_concat, written_writes.
Qed.
Lemma files_of_lookup d f : unique_ids d -> is_file d f -> files_of d !! df_uuid f = Some f.
Proof. intros (Hu & _) H. destruct (files_of_is d f H) as [g Hg]. pose proof (files_of_some _ _ _ Hg) as [Hg' E]. by rewrite (Hu g f Hg' H E) in Hg. Qed.
Lemma order_elem d order f : iterates order -> f ∈ order (files_of d) <-> files_of d !! df_uuid f = Some f.
Proof.
  intros Ho. rewrite (Ho (files_of d)). rewrite elem_of_list_fmap. split.
  - intros ([u g] & -> & H). apply elem_of_map_to_list in H. cbn. pose proof (files_of_some _ _ _ H) as [_ E]. by rewrite E.
  - intros H. exists (df_uuid f, f). split; [done|]. by apply elem_of_map_to_list.
Qed.
Lemma order_file d order f : unique_ids d -> iterates order -> f ∈ order (files_of d) <-> is_file d f.
Proof.
  intros Hu Ho. rewrite order_elem by done. split; [intros H; by apply files_of_some in H as []|by apply files_of_lookup].
Qed.
Lemma order_nodup d order : iterates order -> NoDup (map df_uuid (order (files_of d))).
Proof.
  intros Ho. assert (map df_uuid (order (files_of d)) ≡ₚ (map_to_list (files_of d)).*1) as ->; [|apply NoDup_fst_map_to_list].
  rewrite (Ho (files_of d)). rewrite map_map.
  assert (forall l : list (N * dfile), Forall (fun p => df_uuid p.2 = p.1) l -> map (fun p => df_uuid p.2) l = l.*1) as Hl.
  { induction 1 as [|p l Hp Hl IH]; [done|]. cbn. by rewrite Hp, IH. }
  rewrite Hl; [done|]. apply Forall_forall. intros [u f] H. apply elem_of_map_to_list in H. by apply files_of_some in H as [].
Qed.
Lemma join_args_sep l : join_args l = with_sep (word " ") l.
Proof. induction l as [|a [|b l] IH]; [done|cbn; by rewrite app_nil_r|]. cbn [join_args] in *. rewrite IH. done. Qed.
Lemma label_title x : node_label (NExec x) = title x.
Proof. unfold node_label, title. by rewrite join_args_sep. Qed.
Lemma backslash_char c : backslash c = true <-> c = "\"%char.
Proof. split; [|by intros ->]. destruct c as [[] [] [] [] [] [] [] []]; intros H; vm_compute in H; first [discriminate|done]. Qed.
Lemma no_char_backslash s : no_char "\" s -> no_backslash s.
Proof. intros H. apply Forall_forall. intros c Hc. destruct (backslash c) eqn:E; [|done]. apply backslash_char in E as ->. done. Qed.
Definition all_nodes (order : gmap N dfile -> list dfile) (d : drawing) : list node :=
  map NExec (concat (dg_groups d)) ++ map NFile (order (files_of d)).
Lemma all_nodes_elem order d n : n ∈ all_nodes order d <-> (exists x, n = NExec x /\ is_exec d x) \/ (exists f, n = NFile f /\ f ∈ order (files_of d)).
Proof.
  unfold all_nodes. rewrite elem_of_app, !elem_of_list_fmap. setoid_rewrite exec_concat. done.
Qed.
Lemma all_nodes_plain order d : iterates order -> plain d -> Forall (fun n => no_backslash (node_label n)) (sort_nodes (all_nodes order d)).
Proof.
  intros Ho [Hx Hf]. rewrite sort_perm. apply Forall_forall. intros n H. apply no_char_backslash. apply all_nodes_elem in H as [(x & -> & H)|(f & -> & H)].
  - rewrite label_title. by apply Hx.
  - apply Hf. apply order_elem in H; [|done]. by apply files_of_some in H as [].
Qed.
Lemma render_dag_some order d t : render_dag order d = Some t -> exists reads, mapM (read_edges (files_of d)) (concat (dg_groups d)) = Some reads /\
  t = render_graph (sort_nodes (all_nodes order d)) (concat (map write_edges (concat (dg_groups d))) ++ concat reads).
Proof. unfold render_dag. intros H. apply bind_Some in H as (reads & H1 & H2). injection H2 as <-. by exists reads. Qed.
Lemma read_edges_names m x l : (forall u f, m !! u = Some f -> df_uuid f = u) -> read_edges m x = Some l ->
  map (fun e => (node_uuid e.1, node_uuid e.2)) l = map (fun u => (u, dx_uuid x)) (dependencies x).
Proof.
  intros Hm. unfold read_edges. revert l. induction (dependencies x) as [|u us IH]; intros l H; cbn in H.
  - by injection H as <-.
  - apply bind_Some in H as (e & H1 & H). apply bind_Some in H as (l' & H2 & H3). injection H3 as <-. apply bind_Some in H1 as (f & Hf & H1). injection H1 as <-.
    cbn. rewrite (IH _ H2), (Hm _ _ Hf). done.
Qed.
Lemma perm_zip {A} (a b c d : list A) : (a ++ b) ++ (c ++ d) ≡ₚ (a ++ c) ++ (b ++ d).
Proof. solve_Permutation. Qed.
Lemma edges_perm d reads : mapM (read_edges (files_of d)) (concat (dg_groups d)) = Some reads ->
  map (fun e => (node_uuid e.1, node_uuid e.2)) (concat (map write_edges (concat (dg_groups d))) ++ concat reads) ≡ₚ edges_of d.
Proof.
  unfold edges_of. rewrite map_app. revert reads. induction (concat (dg_groups d)) as [|x xs IH]; intros reads H; cbn in H.
  - by injection H as <-.
  - apply bind_Some in H as (l & H1 & H). apply bind_Some in H as (ls & H2 & H3). injection H3 as <-. cbn [map concat]. rewrite !map_app, perm_zip, (IH _ H2).
    apply Permutation_app; [|done]. rewrite (read_edges_names _ _ _ (fun u f H => proj2 (files_of_some d u f H)) H1).
    unfold write_edges, dependencies, written. rewrite map_map, !map_app. done.
Qed.

(** ** The properties *)
(** The program panics exactly when an execution needs a file that is neither provided nor written by an execution *)
Theorem C97_panic order d : render_dag order d = None <-> exists x u, is_exec d x /\ needs x u /\ forall f, is_file d f -> df_uuid f <> u.
Proof.
  assert (render_dag order d = None <-> mapM (read_edges (files_of d)) (concat (dg_groups d)) = None) as ->.
  { unfold render_dag. destruct (mapM _ _); cbn; split; done. }
  split.
  - intros H. apply mapM_None in H. apply Exists_exists in H as (x & Hx & H). unfold read_edges in H. apply mapM_None, Exists_exists in H as (u & Hu & H).
    exists x, u. rewrite <- exec_concat, <- deps_needs. split_and!; [done..|]. intros f Hf <-. destruct (files_of_is d f Hf) as [g Hg]. by rewrite Hg in H.
  - intros (x & u & Hx & Hu & Hf). apply mapM_None, Exists_exists. exists x. rewrite exec_concat. split; [done|]. unfold read_edges. apply mapM_None, Exists_exists.
    exists u. rewrite deps_needs. split; [done|]. destruct (files_of d !! u) as [f|] eqn:E; [|done]. apply files_of_some in E as [H1 H2]. by destruct (Hf f H1).
Qed.
Print Assumptions C97_panic.
(** Without backslashes, what is written is a DOT file with one node for each execution and one for each file, which draws
    them, and an edge for each file that an execution writes or needs, in the right direction *)
Theorem C97_graph order d t : iterates order -> unique_ids d -> plain d -> render_dag order d = Some t ->
  exists g name, graph_in t = Some g /\ (forall u v, (u < 2 ^ 128)%N -> (v < 2 ^ 128)%N -> name u = name v -> u = v) /\
    (forall i p, (i, p) ∈ g_nodes g <-> (exists x, is_exec d x /\ i = name (dx_uuid x) /\ draws_exec x p) \/ (exists f, is_file d f /\ i = name (df_uuid f) /\ p = Box (df_description f))) /\
    NoDup (g_nodes g).*1 /\
    g_edges g ≡ₚ map (fun e => (name e.1, name e.2)) (edges_of d).
Proof.
  intros Ho Hu Hp H. apply render_dag_some in H as (reads & Hr & ->). pose proof (all_nodes_plain order d Ho Hp) as Hpl.
  eexists _, uuid_name. split; [by apply graph_render|]. split; [apply uuid_name_inj|]. cbn [g_nodes g_edges].
  assert (forall f, f ∈ order (files_of d) <-> is_file d f) as Hof by (intros f; by apply order_file).
  assert (forall i p, (i, p) ∈ map (fun n => (node_name n, node_picture n)) (sort_nodes (all_nodes order d)) <->
     (exists x, is_exec d x /\ i = uuid_name (dx_uuid x) /\ p = node_picture (NExec x)) \/ (exists f, is_file d f /\ i = uuid_name (df_uuid f) /\ p = Box (df_description f))) as Hn.
  { intros i p. rewrite sort_perm. rewrite elem_of_list_fmap. setoid_rewrite all_nodes_elem. setoid_rewrite Hof. split.
    - intros (n & E & [(x & -> & Hx)|(f & -> & Hf)]); injection E as -> ->; [left; by exists x|right; by exists f].
    - intros [(x & Hx & -> & ->)|(f & Hf & -> & ->)]; [exists (NExec x)|exists (NFile f)]; (split; [done|]); [left; by exists x|right; by exists f]. }
  assert (forall x, draws_exec x (node_picture (NExec x))) as Hd.
  { intros x. eexists. split; [done|]. rewrite split_join, label_title. split; [done|]. apply split_free, not_elem_of_nil. }
  split_and!.
  - intros i p. rewrite Hn. split.
    + intros [(x & Hx & -> & ->)|Hf]; [left; exists x; by split_and!|by right].
    + intros [(x & Hx & -> & Hp')|Hf]; [|by right]. left. exists x. split_and!; [done..|].
      destruct Hp' as (fs & -> & E & Hfs). cbn [node_picture]. f_equal. rewrite label_title, <- E. clear -Hfs E.
      assert (fs <> []) as Hne by (intros ->; unfold title in E; cbn in E; by destruct (dx_description x)). clear E.
      assert (forall cur s r, no_char "|" s -> split_bars cur (s ++ "|"%char :: r) = (cur ++ s) :: split_bars [] r) as Hs.
      { intros cur s. revert cur. induction s as [|c s IH]; intros cur r Hc; cbn [app split_bars]; [by rewrite bool_decide_eq_true_2, app_nil_r|].
        unfold no_char in Hc. rewrite not_elem_of_cons in Hc. destruct Hc as [H1 H2]. rewrite bool_decide_eq_false_2 by done. rewrite IH by done. by rewrite <- app_assoc. }
      assert (forall cur s, no_char "|" s -> split_bars cur s = [cur ++ s]) as Hs0.
      { intros cur s. revert cur. induction s as [|c s IH]; intros cur Hc; cbn [split_bars]; [by rewrite app_nil_r|].
        unfold no_char in Hc. rewrite not_elem_of_cons in Hc. destruct Hc as [H1 H2]. rewrite bool_decide_eq_false_2 by done. rewrite IH by done. by rewrite <- app_assoc. }
      induction Hfs as [|a l Ha Hl IH]; [done|]. cbn [with_sep]. destruct l as [|b l]; [by rewrite app_nil_r, Hs0|].
      change (word "|" ++ ?r) with ("|"%char :: r). rewrite Hs by done. by rewrite <- IH.
  - rewrite sort_perm. assert (forall l, (map (fun n => (node_name n, node_picture n)) l).*1 = map uuid_name (map node_uuid l)) as -> by (intros l; induction l as [|n l IH]; [done|]; cbn [map fmap list_fmap fst]; by rewrite <- IH).
    assert (map node_uuid (all_nodes order d) = map dx_uuid (concat (dg_groups d)) ++ map df_uuid (order (files_of d))) as ->.
    { unfold all_nodes. rewrite map_app, !map_map. done. }
    destruct Hu as (_ & Hx & Hxf & Hx128 & Hf128). apply NoDup_fmap_2_strong; [|].
    + intros u v H1 H2. assert (forall w, w ∈ map dx_uuid (concat (dg_groups d)) ++ map df_uuid (order (files_of d)) -> (w < 2 ^ 128)%N) as Hw.
      { intros w. rewrite elem_of_app, !elem_of_list_fmap. intros [(x & -> & Hx')|(f & -> & Hf')]; [apply Hx128; by apply exec_concat|apply Hf128; by apply Hof]. }
      apply uuid_name_inj; by apply Hw.
    + apply NoDup_app. split_and!; [done| |by apply order_nodup]. intros u. rewrite !elem_of_list_fmap. intros (x & -> & Hx') (f & E & Hf').
      apply (Hxf x f); [by apply exec_concat|by apply Hof|done].
  - rewrite <- (edges_perm d reads Hr). rewrite !map_map. done.
Qed.
Print Assumptions C97_graph.
(** An execution without [|] in its texts is drawn as two fields: its description, and the command with its arguments *)
Theorem C97_two_fields x : no_char "|" (dx_description x) -> no_char "|" (dx_command x) -> Forall (no_char "|") (dx_args x) ->
  forall p, draws_exec x p -> p = Record [dx_description x ++ word " "; word " " ++ dx_command x ++ word " " ++ with_sep (word " ") (dx_args x)].
Proof.
  intros Hd Hc Ha p (fs & -> & E & Hfs). f_equal.
  assert (no_char "|" (word " " ++ dx_command x ++ word " " ++ with_sep (word " ") (dx_args x))) as H2.
  { unfold no_char. rewrite !not_elem_of_app. split_and!; [by apply (bool_decide_unpack _); vm_compute|done|by apply (bool_decide_unpack _); vm_compute|].
    clear -Ha. induction Ha as [|a l Ha Hl IH]; cbn; [apply not_elem_of_nil|]. rewrite not_elem_of_app. split; [done|]. destruct l; [apply not_elem_of_nil|].
    rewrite not_elem_of_cons. split; [done|exact IH]. }
  assert (no_char "|" (dx_description x ++ word " ")) as H1.
  { unfold no_char. rewrite not_elem_of_app. split; [done|by apply (bool_decide_unpack _); vm_compute]. }
  set (A := dx_description x ++ word " ") in *. set (B := word " " ++ dx_command x ++ word " " ++ with_sep (word " ") (dx_args x)) in *.
  assert (title x = A ++ "|"%char :: B) as ET by (unfold title, A, B; by rewrite <- !app_assoc). rewrite ET in E. clearbody A B. clear ET.
  assert (forall (a b r s : bytes), no_char "|" a -> no_char "|" b -> a ++ "|"%char :: r = b ++ "|"%char :: s -> a = b /\ r = s) as Hu.
  { clear. induction a as [|c a IH]; intros [|c' b] r s Ha Hb E; cbn in E.
    - by injection E as ->.
    - injection E as <- _. destruct Hb. left.
    - injection E as -> _. destruct Ha. left.
    - injection E as -> E. unfold no_char in Ha, Hb. rewrite not_elem_of_cons in Ha, Hb. destruct (IH b r s) as [-> ->]; by try apply Ha; try apply Hb. }
  destruct fs as [|a [|b [|c fs]]].
  - cbn in E. by destruct A.
  - cbn in E. rewrite app_nil_r in E. inversion Hfs as [|? ? Hf _]; subst. destruct Hf. rewrite elem_of_app. right; left.
  - inversion Hfs as [|? ? Hf Hf']; subst. cbn in E. rewrite app_nil_r in E. by destruct (Hu _ _ _ _ Hf H1 E) as [-> ->].
  - inversion Hfs as [|? ? Hf Hf']; subst. cbn [with_sep] in E. change (word "|" ++ ?r) with ("|"%char :: r) in E. destruct (Hu _ _ _ _ Hf H1 E) as [_ E2]. destruct H2. rewrite <- E2. rewrite elem_of_app. right. left.
Qed.
Print Assumptions C97_two_fields.
(** The nodes are listed in the order of their texts, so that two runs differ little *)
Theorem C97_sorted order d t : iterates order -> plain d -> render_dag order d = Some t ->
  exists g, graph_in t = Some g /\ StronglySorted before (map (fun n => picture_text n.2) (g_nodes g)).
Proof.
  intros Ho Hp H. apply render_dag_some in H as (reads & Hr & ->). eexists. split; [apply graph_render; by apply all_nodes_plain|]. cbn [g_nodes]. rewrite map_map. cbn [snd].
  assert (forall n, picture_text (node_picture n) = node_label n) as Hl by (intros [x|f]; [cbn [node_picture picture_text]; by rewrite split_join|done]).
  pose proof (sort_sorted (all_nodes order d)) as Hs. induction Hs as [|n l Hl' IH Hn]; cbn; [constructor|]. constructor; [done|].
  rewrite Hl. apply Forall_map. eapply Forall_impl; [exact Hn|]. intros m Hm. cbn. by rewrite Hl.
Qed.
Print Assumptions C97_sorted.

(** ** What is false *)
Definition one_exec (args : list string) : drawing :=
  Drawing [DFile 1 (word "input")] [[DExec 2 (word "Run") (word "System(cat)") (map word args) (Some 1%N) [] [] (Some (DFile 3 (word "out {1}"))) None]].
Definition by_key (m : gmap N dfile) : list dfile := (map_to_list m).*2.
(** With a backslash the file that is written may be malformed *)
Theorem C97_backslash_refuted : exists d t, unique_ids d /\ render_dag by_key d = Some t /\ graph_in t = None.
Proof.
  exists (one_exec ["a\"]). eexists. split; [|split; [by vm_compute|by vm_compute]].
  assert (forall x, is_exec (one_exec ["a\"]) x -> x = DExec 2 (word "Run") (word "System(cat)") [word "a\"] (Some 1%N) [] [] (Some (DFile 3 (word "out {1}"))) None) as Hx.
  { intros x (g & Hg & Hx). cbn in Hg. apply elem_of_list_singleton in Hg as ->. by apply elem_of_list_singleton in Hx as ->. }
  assert (forall f, is_file (one_exec ["a\"]) f -> f = DFile 1 (word "input") \/ f = DFile 3 (word "out {1}")) as Hf.
  { intros f [H|(x & H & Hw)]; [apply elem_of_list_singleton in H; by left|]. apply Hx in H as ->. right. destruct Hw as [Hw|[Hw|Hw]]; cbn in Hw; [by apply elem_of_nil in Hw|by injection Hw as <-|done]. }
  split_and!.
  - intros f g [->| ->]%Hf [->| ->]%Hf; done.
  - apply (bool_decide_unpack _); vm_compute; exact Logic.I.
  - intros x f ->%Hx [->| ->]%Hf; done.
  - intros x ->%Hx. by vm_compute.
  - intros f [->| ->]%Hf; by vm_compute.
Qed.
Print Assumptions C97_backslash_refuted.
(** or it may say something else *)
Theorem C97_label_refuted : exists d t g i, render_dag by_key d = Some t /\ graph_in t = Some g /\ is_file d (DFile 1 (word "a\\b")) /\ g_nodes g = [(i, Box (word "a\b"))].
Proof. exists (Drawing [DFile 1 (word "a\\b")] []). do 3 eexists. split; [by vm_compute|]. split; [by vm_compute|]. split; [left; left|]. done. Qed.
Print Assumptions C97_label_refuted.
Example C97_example : option_map (fun t => (string_of_list_ascii t)) (render_dag by_key (one_exec ["-n"; "<x>"])) = Some
"digraph taskmaker {
    rankdir=""LR"";
    uuid00000000000000000000000000000002[label=""Run | System(cat) -n \<x\>""][style=rounded shape=record];
    uuid00000000000000000000000000000001[label=""input""][style=dashed shape=box];
    uuid00000000000000000000000000000003[label=""out \{1\}""][style=dashed shape=box];
    uuid00000000000000000000000000000002 -> uuid00000000000000000000000000000003;
    uuid00000000000000000000000000000001 -> uuid00000000000000000000000000000002;
}
"%string.
Proof. by vm_compute. Qed.
Example C97_example_hyps : plain (one_exec ["-n"; "<x>"]).
Proof.
  split.
  - intros x (g & Hg & Hx). cbn in Hg. apply elem_of_list_singleton in Hg as ->. apply elem_of_list_singleton in Hx as ->. apply (bool_decide_unpack _); vm_compute; exact Logic.I.
  - intros f [H|(x & (g & Hg & Hx) & Hw)].
    + apply elem_of_list_singleton in H as ->. apply (bool_decide_unpack _); vm_compute; exact Logic.I.
    + cbn in Hg. apply elem_of_list_singleton in Hg as ->. apply elem_of_list_singleton in Hx as ->. destruct Hw as [Hw|[Hw|Hw]]; cbn in Hw; [by apply elem_of_nil in Hw| |done].
      injection Hw as <-. apply (bool_decide_unpack _); vm_compute; exact Logic.I.
Qed.
