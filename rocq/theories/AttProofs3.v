(** * AttProofs3: the graders and the templates *)
From Verif Require Export AttProofs2.
From Verif Require Import FindProofs FindProofs2 FindProofs3 LangProofs LangProofs2 LangProofs3 BuildProofs.
From Coq Require Import Ascii String NArith.
From stdpp Require Import base list sorting gmap.
Local Open Scope nat_scope.

(** ** The pattern [*.*] *)
Lemma dot_match n : tok_match [TStar; TChar "."%char; TStar] (chars n) = true <-> "."%char ∈ chars n.
Proof.
  rewrite star_spec. setoid_rewrite char_spec. rewrite elem_of_list_In. split.
  - intros (a & b & -> & c & -> & _). apply in_app_iff. right. by left.
  - intros H. apply in_split in H as (a & b & ->). exists a, ("."%char :: b). split; [done|]. exists b. split; [done|]. apply star_last.
Qed.
Definition dotted (d : att_disk) (task : fpath) (folder : string) : list string :=
  matching (ad_tree d) (child task folder) [TStar; TChar "."%char; TStar].
Lemma files_dotted d task folder : good_tree (ad_tree d) -> ordinary task -> no_special folder -> folder <> "." ->
  files_of d (child task folder) ["*.*"] = map (child (child task folder)) (dotted d task folder).
Proof.
  intros Hg Ho Hf Hd. unfold files_of. erewrite lf_cons; [|..|apply lf_nil]; [by rewrite app_nil_r|].
  assert (fjoin (child task folder) (fpath_of (chars "*.*")) = FPath (p_abs task) (p_comps task ++ [folder; "*.*"])) as ->.
  { unfold fjoin, child. cbn. by rewrite <- app_assoc. }
  by apply glob_dir.
Qed.
(** ** The map *)
Definition ext_item (stub : bool) (folder : string) (task : fpath) (n : string) : option (string * (fpath * fpath * fpath)) :=
  if decide (file_stem n = "grader") then None else if decide (file_stem n = "stub") then None
  else match detect_language (FPath false [folder; n]) with
       | None => None
       | Some l => let name := (if stub then "stub." else "grader.") +:+ main_ext l in
                   Some (main_ext l, (child (child task folder) name, FPath false [folder; name], FPath false [folder; n]))
       end.
Lemma stem_eq n s : fst (stem_ext n) = chars s <-> file_stem n = s.
Proof.
  unfold file_stem. split.
  - intros ->. apply string_chars.
  - intros <-. by rewrite chars_string.
Qed.
Lemma by_ext_fold task stub folder names m : folder <> "." -> folder <> ".." -> Forall plain names ->
  by_ext task stub (map (child (child task folder)) names) m = fold_left (fun m x => ainsert (fst x) (snd x) m) (omap (ext_item stub folder task) names) m.
Proof.
  intros Hf1 Hf2. revert m. induction names as [|n names IH]; intros m Hp; [done|]. apply Forall_cons in Hp as [Hn Hp].
  change (map (child (child task folder)) (n :: names)) with (child (child task folder) n :: map (child (child task folder)) names). cbn [by_ext].
  change (omap (ext_item stub folder task) (n :: names)) with (match ext_item stub folder task n with Some y => y :: omap (ext_item stub folder task) names | None => omap (ext_item stub folder task) names end).
  rewrite path_of_child.
  assert (file_name (FPath false [folder; n]) = Some n) as Hfn by exact (file_name_child (FPath false [folder]) n Hn).
  rewrite Hfn. unfold ext_item.
  destruct (decide (file_stem n = "grader")) as [E1|E1]; [rewrite decide_True by (by apply stem_eq); by apply IH|].
  rewrite decide_False by (intros H; apply E1; by apply stem_eq).
  destruct (decide (file_stem n = "stub")) as [E2|E2]; [rewrite decide_True by (by apply stem_eq); by apply IH|].
  rewrite decide_False by (intros H; apply E2; by apply stem_eq).
  destruct (detect_language (FPath false [folder; n])) as [l|] eqn:El; [|by apply IH].
  cbn [fold_left fst snd]. rewrite <- IH by done. f_equal.
  assert (hd "" (extensions l) = main_ext l) as -> by by destruct l. cbn zeta.
  assert ((if stub then "stub" else "grader") +:+ "." +:+ main_ext l = (if stub then "stub." else "grader.") +:+ main_ext l) as -> by by destruct stub, l.
  set (name := (if stub then "stub." else "grader.") +:+ main_ext l).
  assert (fpath_of (chars name) = FPath false [name]) as Hname. { unfold name. by destruct stub, l. }
  assert (name <> ".") as Hnd. { unfold name. by destruct stub, l. }
  assert (with_file_name (FPath false [folder; n]) (fpath_of (chars name)) = FPath false [folder; name]) as ->.
  { unfold with_file_name. rewrite Hfn, Hname. unfold fjoin. cbn [p_abs p_comps removelast]. rewrite filter_cons_True, filter_nil by done. done. }
  assert (fjoin task (FPath false [folder; name]) = child (child task folder) name) as ->.
  { unfold fjoin, child. cbn [p_abs p_comps]. rewrite !filter_cons_True, filter_nil by done. by rewrite <- app_assoc. }
  done.
Qed.
Lemma ainsert_elem {V} k (v : V) (m : list (string * V)) x : NoDup (map fst m) -> x ∈ ainsert k v m <-> x = (k, v) \/ (x ∈ m /\ fst x <> k).
Proof.
  induction m as [|[k' v'] m IH]; intros Hn; cbn [ainsert].
  - rewrite elem_of_list_singleton. split; [by left|]. intros [?|[?%elem_of_nil _]]; done.
  - cbn [map fst] in Hn. apply NoDup_cons in Hn as [H1 H2]. case_decide as E.
    + subst k'. rewrite !elem_of_cons. split; [intros [?|H]; [by left|]; right; split; [by right|]; intros E; apply H1; apply elem_of_list_fmap; exists x; by rewrite <- E|].
      intros [?|[[->|?] Hx]]; [by left|done|by right].
    + rewrite !elem_of_cons, IH by done. split; [intros [->|[?|[? ?]]]; [right; cbn; split; [by left|congruence]|by left|right; split; [by right|done]]|].
      intros [?|[[?|?] ?]]; tauto.
Qed.
Lemma ainsert_keys {V} k (v : V) (m : list (string * V)) : NoDup (map fst m) -> NoDup (map fst (ainsert k v m)).
Proof.
  induction m as [|[k' v'] m IH]; intros Hn; cbn [ainsert]; [repeat constructor; apply not_elem_of_nil|].
  cbn [map fst] in Hn. pose proof Hn as Hn0. apply NoDup_cons in Hn as [H1 H2]. case_decide as E; [by subst k'|]. cbn [map fst]. apply NoDup_cons. split; [|by apply IH].
  intros (x & Hx & Hi)%elem_of_list_fmap. apply ainsert_elem in Hi as [->|[Hi _]]; [|..|done]; [cbn in Hx; congruence|]. apply H1. apply elem_of_list_fmap. by exists x.
Qed.
Lemma fold_ainsert {V} (L : list (string * V)) : let m := fold_left (fun m x => ainsert (fst x) (snd x) m) L [] in
  NoDup (map fst m) /\ forall x, x ∈ m <-> exists a b, L = a ++ x :: b /\ Forall (fun y => fst y <> fst x) b.
Proof.
  cbn zeta. induction L as [|[k v] L IH] using rev_ind.
  - split; [constructor|]. intros x. split; [by intros ?%elem_of_nil|]. by intros ([] & b & [=] & _).
  - rewrite fold_left_app. cbn [fold_left fst snd]. destruct IH as [H1 H2]. split; [by apply ainsert_keys|]. intros x. rewrite ainsert_elem by done. rewrite H2. split.
    + intros [->|[(a & b & -> & Hb) Hx]]; [exists L, []; split; [done|constructor]|]. exists a, (b ++ [(k, v)]). split; [by rewrite <- app_assoc|].
      apply Forall_app. split; [done|]. repeat constructor. cbn. congruence.
    + intros (a & b & E & Hb). destruct (decide (b = [])) as [->|Hne].
      * apply app_inj_tail in E as [-> ->]. by left.
      * destruct (exists_last Hne) as (b' & y & ->). rewrite app_comm_cons, app_assoc in E. apply app_inj_tail in E as [-> <-].
        apply Forall_app in Hb as [Hb Hy]. apply Forall_cons in Hy as [Hy _]. right. split; [by exists a, b'|]. cbn in Hy. congruence.
Qed.
Lemma dotted_plain d task folder : good_tree (ad_tree d) -> Forall plain (dotted d task folder).
Proof. intros Hg. apply Forall_forall. intros n Hn. by eapply matching_plain. Qed.
Lemma language_dot folder n l : detect_language (FPath false [folder; n]) = Some l -> plain n -> "."%char ∈ chars n.
Proof.
  intros H Hn. unfold detect_language in H. rewrite (file_name_child (FPath false [folder]) n Hn : file_name (FPath false [folder; n]) = Some n) in H.
  destruct (snd (stem_ext n)) as [e|] eqn:E.
  - apply stem_ext_Some in E as (s & _ & _ & E). rewrite E. apply elem_of_app. right. left.
  - exfalso. revert H. vm_compute. done.
Qed.
Lemma ext_item_Some stub folder task n x : ext_item stub folder task n = Some x <->
  exists l, detect_language (FPath false [folder; n]) = Some l /\ file_stem n <> "grader" /\ file_stem n <> "stub" /\
    x = (main_ext l, (child (child task folder) ((if stub then "stub." else "grader.") +:+ main_ext l), FPath false [folder; (if stub then "stub." else "grader.") +:+ main_ext l], FPath false [folder; n])).
Proof.
  unfold ext_item. repeat case_decide; try (split; [done|naive_solver]). destruct (detect_language _) as [l|].
  - split; [intros [= <-]; by exists l|]. by intros (l' & [= <-] & _ & _ & ->).
  - split; [done|]. by intros (l' & [=] & _).
Qed.
Lemma main_ext_inj a b : main_ext a = main_ext b -> a = b.
Proof. by destruct a, b. Qed.
Lemma omap_split {A B} (f : A -> option B) l a x b : omap f l = a ++ x :: b -> exists l1 y l2, l = l1 ++ y :: l2 /\ f y = Some x /\ omap f l1 = a /\ omap f l2 = b.
Proof.
  revert a. induction l as [|z l IH]; intros a; [by destruct a|].
  change (omap f (z :: l)) with (match f z with Some y => y :: omap f l | None => omap f l end). destruct (f z) as [w|] eqn:Ez.
  - destruct a as [|w' a].
    + intros [= -> <-]. by exists [], z, l.
    + intros [= -> E]. destruct (IH a E) as (l1 & y & l2 & -> & Hy & H1 & H2). exists (z :: l1), y, l2. split_and!; try done.
      change (omap f (z :: l1)) with (match f z with Some y => y :: omap f l1 | None => omap f l1 end). by rewrite Ez, H1.
  - intros E. destruct (IH a E) as (l1 & y & l2 & -> & Hy & H1 & H2). exists (z :: l1), y, l2. split_and!; try done.
    change (omap f (z :: l1)) with (match f z with Some y => y :: omap f l1 | None => omap f l1 end). by rewrite Ez.
Qed.
(** the items of the map: the last source of each language *)
Lemma by_ext_spec d task stub folder x : good_tree (ad_tree d) -> folder <> "." -> folder <> ".." ->
  let m := by_ext task stub (map (child (child task folder)) (dotted d task folder)) [] in
  NoDup (map fst m) /\
  (x ∈ m <-> exists l n, last_source d task folder l n /\
    x = (main_ext l, (child (child task folder) ((if stub then "stub." else "grader.") +:+ main_ext l), FPath false [folder; (if stub then "stub." else "grader.") +:+ main_ext l], FPath false [folder; n]))).
Proof.
  intros Hg Hf1 Hf2. cbn zeta. rewrite by_ext_fold by (try done; by apply dotted_plain). destruct (fold_ainsert (omap (ext_item stub folder task) (dotted d task folder))) as [H1 H2].
  split; [done|]. rewrite H2. clear H1 H2.
  assert (forall n l, n ∈ dotted d task folder /\ detect_language (FPath false [folder; n]) = Some l /\ file_stem n <> "grader" /\ file_stem n <> "stub" <-> source_in d task folder l n) as Hsrc.
  { intros n l. unfold dotted, source_in. rewrite matching_spec, dot_match. split; [tauto|]. intros (He & Hl & H). split_and!; try tauto. eapply language_dot; [done|].
    destruct He as (names & E & Hn). destruct (gt_names _ Hg _ _ E) as [_ Hp]. rewrite Forall_forall in Hp. by apply Hp. }
  pose proof (matching_sorted (ad_tree d) (child task folder) [TStar; TChar "."%char; TStar]) as Hs. fold (dotted d task folder) in Hs. split.
  - intros (a & b & E & Hb). apply omap_split in E as (l1 & n & l2 & El & Hn & _ & Hl2). apply ext_item_Some in Hn as (l & Hl & Hg1 & Hg2 & ->).
    exists l, n. split; [|done]. split; [apply Hsrc; rewrite El; split_and!; try done; apply elem_of_app; right; left|].
    intros m Hm. apply Hsrc in Hm as (Hm & Hlm & Hm1 & Hm2). rewrite El in Hm, Hs. apply elem_of_app in Hm as [Hm|Hm].
    + clear -Hs Hm. induction l1 as [|z l1 IH]; [by apply elem_of_nil in Hm|]. cbn in Hs. apply StronglySorted_inv in Hs as [Hs Hz].
      apply elem_of_cons in Hm as [->|Hm]; [|auto]. rewrite Forall_forall in Hz. apply Hz. apply elem_of_app. right. left.
    + apply elem_of_cons in Hm as [->|Hm]; [apply name_le_refl|]. exfalso.
      assert (exists y, ext_item stub folder task m = Some y /\ fst y = main_ext l) as (y & Hy & Ey). { eexists. split; [apply ext_item_Some; by exists l|]. done. }
      rewrite Forall_forall in Hb. apply (Hb y); [|done]. rewrite <- Hl2. apply elem_of_list_omap. by exists m.
  - intros (l & n & [Hn Hmax] & ->). apply Hsrc in Hn as Hn'. destruct Hn' as (Hin & Hl & Hg1 & Hg2).
    apply elem_of_list_split in Hin as (l1 & l2 & El).
    exists (omap (ext_item stub folder task) l1), (omap (ext_item stub folder task) l2). split.
    + rewrite El. rewrite omap_app. f_equal.
      change (omap (ext_item stub folder task) (n :: l2)) with (match ext_item stub folder task n with Some y => y :: omap (ext_item stub folder task) l2 | None => omap (ext_item stub folder task) l2 end).
      assert (ext_item stub folder task n = Some (main_ext l, (child (child task folder) ((if stub then "stub." else "grader.") +:+ main_ext l), FPath false [folder; (if stub then "stub." else "grader.") +:+ main_ext l], FPath false [folder; n]))) as ->
        by (apply ext_item_Some; by exists l). done.
    + apply Forall_forall. intros y Hy Ey. apply elem_of_list_omap in Hy as (m & Hm & Hy). apply ext_item_Some in Hy as (l' & Hl' & Hm1 & Hm2 & ->). cbn in Ey. apply main_ext_inj in Ey as ->.
      assert (name_le m n) as H1. { apply Hmax. apply Hsrc. rewrite El. split_and!; try done. apply elem_of_app. right. by right. }
      assert (name_le n m) as H2. { rewrite El in Hs. clear -Hs Hm. induction l1 as [|z l1 IH]; cbn in Hs; apply StronglySorted_inv in Hs as [Hs Hz]; [|auto]. rewrite Forall_forall in Hz. by apply Hz. }
      assert (m = n) as -> by by apply (anti_symm name_le).
      assert (NoDup (dotted d task folder)) as Hnd by by apply matching_NoDup. rewrite El in Hnd. apply NoDup_app in Hnd as (_ & _ & Hnd). apply NoDup_cons in Hnd as [? _]. done.
Qed.
