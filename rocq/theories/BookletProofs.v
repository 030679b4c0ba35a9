(** * BookletProofs: lemmas for C81 *)
From Verif Require Export BookletModel BookletSpec.
From Verif Require Import FindSpec LangSpec FindProofs FindProofs2 FindProofs3 LangProofs LangProofs2 LangProofs3.
From Coq Require Import Ascii String.
From stdpp Require Import base list sorting.
Local Open Scope nat_scope.

(** ** Results *)
Lemma rmap_ok {A B} (f : A -> result B) l r : rmap f l = inl r <-> Forall2 (fun x y => f x = inl y) l r.
Proof.
  revert r. induction l as [|x l IH]; intros r; cbn [rmap]; [split; [intros [= <-]; constructor|by inversion 1]|]. unfold rbind. split.
  - destruct (f x) as [y|] eqn:E; [|done]. destruct (rmap f l) as [ys|] eqn:E2; [|done]. intros [= <-]. constructor; [done|]. by apply IH.
  - inversion 1 as [|? y ? ys H1 H2]; subst. by rewrite H1, (proj2 (IH ys) H2).
Qed.
Lemma rmap_err {A B} (f : A -> result B) l : (exists e, rmap f l = inr e) <-> exists x e, x ∈ l /\ f x = inr e.
Proof.
  induction l as [|x l IH]; cbn [rmap]; [split; [by intros [e [=]]|by intros (x & e & ?%elem_of_nil & _)]|]. unfold rbind. split.
  - intros [e H]. destruct (f x) as [y|e'] eqn:E; [|exists x, e'; split; [left|done]]. destruct (rmap f l) as [ys|e'] eqn:E2; [done|].
    destruct (proj1 IH) as (z & e2 & Hz & Hf); [by exists e'|]. exists z, e2. split; [by right|done].
  - intros (z & e & [->|Hz]%elem_of_cons & Hf); [rewrite Hf; by exists e|]. destruct (f x); [|by eexists]. destruct (proj2 IH) as [e' ->]; [by exists z, e|]. by eexists.
Qed.
Lemma Forall2_mapl {A B C} (P : B -> C -> Prop) (f : A -> B) l k : Forall2 P (map f l) k <-> Forall2 (fun x y => P (f x) y) l k.
Proof.
  revert k. induction l as [|x l IH]; intros k; cbn [map]; [split; inversion 1; constructor|].
  split; inversion 1; subst; constructor; try done; by apply IH.
Qed.

Lemma Forall2_mem {A B} (P : A -> B -> Prop) l k : Forall2 P l k -> Forall2 (fun x y => x ∈ l /\ P x y) l k.
Proof.
  induction 1 as [|x y l k H _ IH]; constructor; [split; [left|done]|]. eapply Forall2_impl; [exact IH|]. intros a b [? ?]. split; [by right|done].
Qed.
(** ** The statements of a task *)
Definition tex_pattern : list tok := TStar :: map TChar (chars ".tex").
Lemma tex_match n : tok_match tex_pattern (chars n) = true <-> exists a, n = a +:+ ".tex".
Proof.
  unfold tex_pattern. rewrite star_spec.
  assert (forall b, tok_match (map TChar (chars ".tex")) b = true <-> b = chars ".tex") as Hl.
  { intros b. rewrite <- (app_nil_r (map TChar (chars ".tex"))), lit_spec. split.
    - intros (c & -> & H). destruct c; [by rewrite app_nil_r|done].
    - intros ->. exists []. by rewrite app_nil_r. }
  setoid_rewrite Hl. split.
  - intros (a & b & H & ->). exists (string_of_list_ascii a). apply chars_inj. by rewrite chars_app, chars_string.
  - intros (a & ->). exists (chars a), (chars ".tex"). by rewrite chars_app.
Qed.
Lemma tex_stem l : l <> "" -> string_of_list_ascii (fst (stem_ext (l +:+ ".tex"))) = l.
Proof. intros H. change (l +:+ ".tex") with (l +:+ "." +:+ "tex"). apply (file_stem_dot l "tex" H). apply (bool_decide_unpack _). vm_compute. exact Logic.I. Qed.
Lemma tex_inj a b : a +:+ ".tex" = b +:+ ".tex" -> a = b.
Proof. intros H. apply (f_equal chars) in H. rewrite !chars_app in H. apply app_inv_tail in H. by apply chars_inj. Qed.
Definition languages (d : book_disk) (task : fpath) (dir : string) : list string :=
  map (fun n => string_of_list_ascii (fst (stem_ext n))) (matching (bd_tree d) (child task dir) tex_pattern).
Section task.
  Context (d : book_disk) (task : fpath).
  Hypothesis Hg : good_tree (bd_tree d).
  Hypothesis Hh : no_hidden d task.
  Lemma matching_tex dir n : dir ∈ statement_dirs -> n ∈ matching (bd_tree d) (child task dir) tex_pattern <-> exists l, n = l +:+ ".tex" /\ written d task dir l.
  Proof using Hh.
    intros Hd. rewrite matching_spec, tex_match. unfold written. split.
    - intros [He [l ->]]. exists l. split; [done|]. split_and!; [|done|done]. intros ->. by apply (Hh dir).
    - intros (l & -> & _ & _ & He). split; [done|]. by exists l.
  Qed.
  Lemma matching_languages dir : dir ∈ statement_dirs -> matching (bd_tree d) (child task dir) tex_pattern = map (fun l => l +:+ ".tex") (languages d task dir).
  Proof using Hh.
    intros Hd. unfold languages. rewrite map_map. rewrite <- (map_id (matching _ _ _)) at 1. apply map_ext_in. intros n Hn%elem_of_list_In.
    apply matching_tex in Hn as (l & -> & Hl & _); [|done]. by rewrite tex_stem.
  Qed.
  Lemma languages_spec dir : dir ∈ statement_dirs -> languages_in d task dir (languages d task dir).
  Proof using Hg Hh.
    intros Hd. unfold languages_in. split_and!.
    - assert (NoDup (map (fun l => l +:+ ".tex") (languages d task dir))) as H; [|by apply NoDup_fmap_1 in H]. rewrite <- matching_languages by done. by apply matching_NoDup.
    - rewrite <- matching_languages by done. apply matching_sorted.
    - intros l. split.
      + intros Hl. assert (l +:+ ".tex" ∈ matching (bd_tree d) (child task dir) tex_pattern) as H; [rewrite matching_languages by done; apply elem_of_list_fmap; by exists l|].
        apply matching_tex in H as (l' & ->%tex_inj & H); done.
      + intros Hl. assert (l +:+ ".tex" ∈ matching (bd_tree d) (child task dir) tex_pattern) as H; [apply matching_tex; [done|by exists l]|].
        rewrite matching_languages in H by done. apply elem_of_list_fmap in H as (l' & ->%tex_inj & H). done.
  Qed.
  Lemma statement_files : ordinary task ->
    find_statement_files d task = Some (map (fun l => (l, tex_path task "statement" l)) (languages d task "statement") ++ map (fun l => (l, tex_path task "testo" l)) (languages d task "testo")).
  Proof using Hg Hh.
    intros Ho. unfold find_statement_files.
    assert (forall dir, dir ∈ statement_dirs -> glob (bd_tree d) (fjoin task (fpath_of (chars (dir +:+ "/*.tex")))) = Some (map (tex_path task dir) (languages d task dir))) as Hgl.
    { intros dir Hd. assert (fjoin task (fpath_of (chars (dir +:+ "/*.tex"))) = FPath (p_abs task) (p_comps task ++ [dir; "*.tex"])) as ->.
      { unfold statement_dirs in Hd. apply elem_of_cons in Hd as [->|Hd%elem_of_list_singleton]; [reflexivity|subst dir; reflexivity]. }
      rewrite (glob_dir (bd_tree d) task dir "*.tex" tex_pattern); try done.
      - rewrite matching_languages, map_map by done. done.
      - unfold statement_dirs in Hd. apply elem_of_cons in Hd as [->|Hd%elem_of_list_singleton]; [plain_literal|subst dir; plain_literal].
      - unfold statement_dirs in Hd. apply elem_of_cons in Hd as [->|Hd%elem_of_list_singleton]; [done|by subst dir]. }
    erewrite lf_cons; [|exact (Hgl "statement" ltac:(left))|eapply lf_cons; [exact (Hgl "testo" ltac:(right; left))|apply lf_nil]].
    rewrite app_nil_r. f_equal.
    assert (forall dir, dir ∈ statement_dirs -> omap (fun p => match file_name p with Some n => Some (string_of_list_ascii (fst (stem_ext n)), p) | None => None end) (map (tex_path task dir) (languages d task dir))
      = map (fun l => (l, tex_path task dir l)) (languages d task dir)) as Hm.
    { intros dir Hd. pose proof (languages_spec dir Hd) as (_ & _ & Hl). revert Hl. generalize (languages d task dir) as ls. intros ls Hl.
      assert (Forall (fun l => l <> "" /\ plain (l +:+ ".tex")) ls) as Hf.
      { apply Forall_forall. intros l H. apply Hl in H as (H1 & H2 & (names & H3 & H4)). split; [done|]. destruct (gt_names _ Hg _ _ H3) as [_ Hp]. rewrite Forall_forall in Hp. by apply Hp. }
      clear Hl. induction Hf as [|l ls [H1 H2] _ IH]; [done|]. cbn [map]. set (f := fun p : fpath => _).
      change (omap f (?x :: ?l)) with (match f x with Some y => y :: omap f l | None => omap f l end).
      assert (f (tex_path task dir l) = Some (l, tex_path task dir l)) as ->; [|by rewrite <- IH].
      unfold f. unfold tex_path at 1. by rewrite file_name_child, tex_stem. }
    rewrite omap_app, !Hm; [done|right; left|left].
  Qed.
End task.
Lemma with_pdf task dir l : l <> "" -> plain (l +:+ ".tex") -> with_ext (tex_path task dir l) "pdf" = child (child task dir) (l +:+ ".pdf").
Proof.
  intros H1 H2. unfold with_ext. unfold tex_path at 1. rewrite file_name_child by done. rewrite tex_stem by done. unfold tex_path, child. cbn [p_abs p_comps].
  by rewrite removelast_snoc.
Qed.
Lemma written_plain d task dir l : good_tree (bd_tree d) -> written d task dir l -> plain (l +:+ ".tex").
Proof. intros Hg (_ & _ & (names & H3 & H4)). destruct (gt_names _ Hg _ _ H3) as [_ Hp]. rewrite Forall_forall in Hp. by apply Hp. Qed.

(** ** The settings *)
Lemma settings_ok d lang dir sol c : from_contest d lang dir sol = inl c <-> settings d dir lang sol c.
Proof.
  unfold from_contest, settings. destruct c as [l s sm f i de lo da lg it]. cbn. destruct (bd_contest d (child dir "contest.yaml")) as [[y|]|].
  2: { split; [done|tauto]. }
  2: { split; [by intros [= <- <- <- <- <- <- <- <- <- <-]|]. by intros (-> & -> & -> & -> & -> & -> & -> & -> & -> & ->). }
  split.
  - intros [= <- <- <- <- <- <- <- <- <- <-]. split_and!; try done; by rewrite bool_decide_eq_true.
  - intros (-> & -> & -> & -> & Hs & -> & -> & -> & -> & ->). do 2 f_equal. case_bool_decide as E; destruct sm; try done; exfalso; [by apply Hs in E|by apply E, Hs].
Qed.
Lemma settings_err d lang dir sol : (exists e, from_contest d lang dir sol = inr e) <-> bd_contest d (child dir "contest.yaml") = Some None.
Proof. unfold from_contest. destruct (bd_contest d (child dir "contest.yaml")) as [[y|]|]; naive_solver. Qed.
Lemma told_iff t c : told t c <-> c = config_of t.
Proof.
  unfold told, config_of, file_called. destruct c as [a b i o ti me di sy]. cbn. split.
  - intros (-> & -> & Hi & Ho & -> & -> & -> & ->). f_equal; [destruct Hi as [(f & -> & ->)|[-> ->]]; done|destruct Ho as [(f & -> & ->)|[-> ->]]; done].
  - intros [= -> -> -> -> -> -> -> ->]. split_and!; try done; [destruct (td_infile t)|destruct (td_outfile t)]; by eauto.
Qed.
Lemma statement_ok d t dir lang s : new_statement d (tex_path (td_path t) dir lang) (config_of t) = inl s <-> is_statement d t dir lang s.
Proof.
  unfold new_statement, is_statement. rewrite told_iff. destruct s as [c p x]. cbn. destruct (bd_text d _) as [y|]; [|naive_solver]. split; [by intros [= <- <- <-]|]. by intros (-> & -> & [= ->]).
Qed.

(** ** The languages of a contest *)
Section group.
  Context {A : Type}.
  Implicit Types m : list (string * list A).
  Lemma push_at_get k x m k' : aget k' (push_at k x m) = if decide (k' = k) then Some (match aget k m with Some l => l | None => [] end ++ [x]) else aget k' m.
  Proof.
    induction m as [|[k2 l] m IH]; cbn [push_at aget]; [done|]. destruct (decide (k = k2)) as [->|Hk]; cbn [aget].
    - by destruct (decide (k' = k2)).
    - rewrite IH. destruct (decide (k' = k2)) as [->|]; [|done]. by destruct (decide (k2 = k)) as [->|].
  Qed.
  Lemma push_at_keys k x m k' : k' ∈ map fst (push_at k x m) <-> k' = k \/ k' ∈ map fst m.
  Proof.
    induction m as [|[k2 l] m IH]; cbn [push_at map fst]; [rewrite elem_of_list_singleton, elem_of_nil; tauto|].
    destruct (decide (k = k2)) as [->|Hk]; cbn [map fst]; rewrite !elem_of_cons; [|rewrite IH]; tauto.
  Qed.
  Lemma push_at_NoDup k x m : NoDup (map fst m) -> NoDup (map fst (push_at k x m)).
  Proof.
    induction m as [|[k2 l] m IH]; cbn [push_at map fst]; intros H; [apply NoDup_singleton|]. destruct (decide (k = k2)) as [->|Hk]; [done|]. cbn [map fst].
    apply NoDup_cons in H as [H1 H2]. apply NoDup_cons. split; [|by apply IH]. rewrite push_at_keys. intros [->|?]; done.
  Qed.
  Definition pushes (l : list (string * A)) m := fold_left (fun m x => push_at (fst x) (snd x) m) l m.
  Lemma pushes_spec l : forall m, NoDup (map fst m) -> NoDup (map fst (pushes l m)) /\ forall k, aget k (pushes l m) =
    match map snd (filter (fun x => fst x = k) l) with [] => aget k m | xs => Some (match aget k m with Some ys => ys | None => [] end ++ xs) end.
  Proof.
    induction l as [|[k0 x] l IH]; intros m Hm; [done|]. change (pushes ((k0, x) :: l) m) with (pushes l (push_at k0 x m)). destruct (IH (push_at k0 x m)) as [H1 H2]; [by apply push_at_NoDup|].
    split; [done|]. intros k. rewrite H2, push_at_get. destruct (decide (k = k0)) as [->|Hk].
    - rewrite filter_cons_True by done. cbn [map snd]. destruct (map snd (filter _ l)); [done|]. by rewrite <- app_assoc.
    - rewrite filter_cons_False by (cbn; congruence). done.
  Qed.
End group.
Lemma aget_In {V} k (v : V) (m : list (string * V)) : NoDup (map fst m) -> aget k m = Some v <-> (k, v) ∈ m.
Proof.
  induction m as [|[k' v'] m IH]; cbn [aget map fst]; intros H; [by rewrite elem_of_nil|]. apply NoDup_cons in H as [H1 H2]. rewrite elem_of_cons. destruct (decide (k = k')) as [->|Hk].
  - split; [intros [= ->]; by left|]. intros [[= ->]|Hi]; [done|]. destruct H1. apply elem_of_list_fmap. by exists (k', v).
  - rewrite IH by done. naive_solver.
Qed.
Lemma by_language_pushes l : by_language l = pushes (l ≫= fun x => map (fun y => (fst y, (fst x, snd y))) (snd x)) [].
Proof.
  unfold by_language, pushes. generalize (@nil (string * list (task_data * fpath))). induction l as [|[t ys] l IH]; intros m; [done|].
  cbn [fold_left fst snd]. rewrite IH. rewrite bind_cons. rewrite fold_left_app. cbn [fst snd]. f_equal. clear. revert m. induction ys as [|[k p] ys IH]; intros m; [done|]. cbn. apply IH.
Qed.
