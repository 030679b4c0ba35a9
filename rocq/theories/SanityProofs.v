(** * SanityProofs: lemmas for C75 *)
From Coq Require Import Ascii String.
From Verif Require Import SanityModel SanitySpec.
From stdpp Require Import base list gmap sorting.

Lemma list_to_map_Some (sts : sn_subtasks) id s : sn_ok sts -> list_to_map (M := gmap nat sn_subtask) sts !! id = Some s <-> (id, s) ∈ sts.
Proof. intros H. split; [apply elem_of_list_to_map_2|by apply elem_of_list_to_map_1]. Qed.
Lemma elem_of_sorted_ids sts id : id ∈ sorted_ids sts <-> exists s, (id, s) ∈ sts.
Proof.
  unfold sorted_ids. rewrite merge_sort_Permutation. rewrite elem_of_list_fmap. split.
  - intros ([i s] & -> & H). by exists s.
  - intros [s H]. by exists (id, s).
Qed.
Lemma sorted_ids_sorted sts : StronglySorted le (sorted_ids sts).
Proof. apply StronglySorted_merge_sort; [intros a b c; lia|intros a b; lia]. Qed.
Lemma sorted_ids_NoDup sts : sn_ok sts -> NoDup (sorted_ids sts).
Proof. intros H. unfold sorted_ids. by rewrite merge_sort_Permutation. Qed.

Lemma omap_sorted {A} (f : nat -> option A) (g : A -> nat) l : (forall x y, f x = Some y -> g y = x) ->
  StronglySorted le l -> StronglySorted le (g <$> omap f l).
Proof.
  intros Hf. induction 1 as [|x l Hl IH Hx]; [constructor|]. cbn. destruct (f x) as [y|] eqn:E; [|done]. cbn. constructor; [done|].
  apply Forall_forall. intros z Hz. apply elem_of_list_fmap in Hz as (y' & -> & Hy'). apply elem_of_list_omap in Hy' as (x' & Hx' & E').
  rewrite (Hf _ _ E), (Hf _ _ E'). rewrite Forall_forall in Hx. by apply Hx.
Qed.
Lemma omap_NoDup {A} (f : nat -> option A) (g : A -> nat) l : (forall x y, f x = Some y -> g y = x) -> NoDup l -> NoDup (g <$> omap f l).
Proof.
  intros Hf. induction 1 as [|x l Hx Hl IH]; [constructor|]. cbn. destruct (f x) as [y|] eqn:E; [|done]. cbn. constructor; [|done].
  intros Hz. apply elem_of_list_fmap in Hz as (y' & Hy & Hy'). apply elem_of_list_omap in Hy' as (x' & Hx' & E').
  rewrite (Hf _ _ E), (Hf _ _ E') in Hy. by subst.
Qed.
Lemma sorted_strict l : StronglySorted le l -> NoDup l -> StronglySorted lt l.
Proof.
  induction 1 as [|x l Hl IH Hx]; intros HN; [constructor|]. apply NoDup_cons in HN as [Hn HN]. constructor; [by apply IH|].
  rewrite Forall_forall in Hx |- *. intros y Hy. specialize (Hx y Hy). destruct (decide (x = y)) as [->|]; [done|lia].
Qed.

(** ** Matching *)
Section match_.
  Context (wild : text -> text -> bool) (sts : sn_subtasks).
  Lemma elem_of_matching p st : st ∈ sn_matching wild sts p <-> exists s name, (st, s) ∈ sts /\ ss_name s = Some name /\ wild p name = true.
  Proof.
    unfold sn_matching. rewrite elem_of_list_fmap. split.
    - intros ([i s] & -> & H). apply elem_of_list_In, filter_In in H as [H1 H2]. apply elem_of_list_In in H1. cbn in H2. cbn.
      destruct (ss_name s) as [name|] eqn:E; [|done]. by exists s, name.
    - intros (s & name & H1 & E & H2). exists (st, s). split; [done|]. apply elem_of_list_In, filter_In. split; [by apply elem_of_list_In|]. cbn. by rewrite E.
  Qed.
  Lemma about_matching c st : about wild sts c st <-> st ∈ sn_matching wild sts (sc_pattern c).
  Proof. by rewrite elem_of_matching. Qed.
  Lemma elem_of_non_zero st : st ∈ non_zero sts <-> gives_points sts st.
  Proof.
    unfold non_zero, gives_points. rewrite elem_of_list_fmap. split.
    - intros ([i s] & -> & H). apply elem_of_list_In, filter_In in H as [H1 H2]. apply elem_of_list_In in H1. by exists s.
    - intros (s & H1 & H2). exists (st, s). split; [done|]. apply elem_of_list_In, filter_In. split; [by apply elem_of_list_In|done].
  Qed.
  Lemma non_zero_NoDup : sn_ok sts -> NoDup (non_zero sts).
  Proof.
    unfold sn_ok, non_zero. induction sts as [|[i s] l IH]; cbn; [done|]. intros H. apply NoDup_cons in H as [Hi H]. destruct (f64_lt _ _); [|by apply IH].
    cbn. constructor; [|by apply IH]. intros Hin. apply Hi. apply elem_of_list_fmap in Hin as ([i' s'] & Hi' & Hin). apply elem_of_list_In, filter_In in Hin as [Hin _].
    apply elem_of_list_fmap. exists (i', s'). split; [done|]. by apply elem_of_list_In.
  Qed.
End match_.

(** ** What a solution declares *)
Section range.
  Context (wild : text -> text -> bool) (sts : sn_subtasks).
  Lemma insert_all (l : list nat) (v : bool * bool) m st :
    fold_left (fun m st => <[st := v]> m) l m !! st = if decide (st ∈ l) then Some v else (m : gmap nat (bool * bool)) !! st.
  Proof.
    revert m. induction l as [|x l IH]; intros m; cbn; [by rewrite decide_False by apply not_elem_of_nil|]. rewrite IH.
    destruct (decide (st ∈ l)) as [H|H]; [by rewrite decide_True by (by right)|]. destruct (decide (st = x)) as [->|Hx].
    - rewrite decide_True by left. by rewrite lookup_insert.
    - rewrite decide_False by (rewrite elem_of_cons; tauto). by rewrite lookup_insert_ne.
  Qed.
  Definition range_from (cs : list sol_check) (m : gmap nat (bool * bool)) :=
    fold_left (fun m c => fold_left (fun m st => <[st := score_bounds (sc_kind c)]> m) (sn_matching wild sts (sc_pattern c)) m) cs m.
  Lemma range_app cs c m st : range_from (cs ++ [c]) m !! st =
    if decide (st ∈ sn_matching wild sts (sc_pattern c)) then Some (score_bounds (sc_kind c)) else range_from cs m !! st.
  Proof. unfold range_from. rewrite fold_left_app. cbn. by rewrite insert_all. Qed.
  Lemma range_spec cs st v : range_from cs ∅ !! st = Some v <->
    exists before c after, cs = before ++ c :: after /\ about wild sts c st /\ score_bounds (sc_kind c) = v /\ (forall c', c' ∈ after -> ~ about wild sts c' st).
  Proof.
    induction cs as [|c cs IH] using rev_ind.
    - unfold range_from. cbn. rewrite lookup_empty. split; [done|]. intros (b & c & a & E & _). by destruct b.
    - rewrite range_app. destruct (decide _) as [H|H].
      + split.
        * intros [= <-]. exists cs, c, []. split; [done|]. split; [by apply about_matching|]. split; [done|]. intros c' Hc. by apply elem_of_nil in Hc.
        * intros (b & c0 & a & E & Hab & <- & Ha). destruct a as [|x a' _] using rev_ind.
          -- apply app_inj_tail in E as [-> ->]. done.
          -- assert (E' : cs ++ [c] = (b ++ c0 :: a') ++ [x]) by (rewrite E; by rewrite <- app_assoc). apply app_inj_tail in E' as [_ ->].
             destruct (Ha x); [apply elem_of_app; right; left|by apply about_matching].
      + rewrite IH. split.
        * intros (b & c0 & a & -> & Hab & Hv & Ha). exists b, c0, (a ++ [c]). split; [by rewrite <- app_assoc|]. split; [done|]. split; [done|].
          intros c' [Hc|Hc]%elem_of_app; [by apply Ha|]. apply elem_of_list_singleton in Hc as ->. by rewrite about_matching.
        * intros (b & c0 & a & E & Hab & <- & Ha). destruct a as [|x a' _] using rev_ind.
          -- apply app_inj_tail in E as [-> ->]. by rewrite about_matching in Hab.
          -- assert (E' : cs ++ [c] = (b ++ c0 :: a') ++ [x]) by (rewrite E; by rewrite <- app_assoc). apply app_inj_tail in E' as [-> ->].
             exists b, c0, a'. split; [done|]. split; [done|]. split; [done|]. intros c' Hc. apply Ha, elem_of_app. by left.
  Qed.
  Lemma score_range_spec s st v : score_range wild sts s !! st = Some v <-> exists k, declares wild sts s st k /\ score_bounds k = v.
  Proof.
    unfold score_range. change (range_from (so_checks s) ∅ !! st = Some v <-> exists k, declares wild sts s st k /\ score_bounds k = v).
    rewrite range_spec. unfold declares. split.
    - intros (b & c & a & E & Hab & Hv & Ha). exists (sc_kind c). split; [|done]. by exists b, c, a.
    - intros (k & (b & c & a & E & Hab & <- & Ha) & Hv). by exists b, c, a.
  Qed.
  Lemma declares_det s st k k' : declares wild sts s st k -> declares wild sts s st k' -> k = k'.
  Proof.
    intros (b & c & a & E & Hab & <- & Ha) (b' & c' & a' & E' & Hab' & <- & Ha'). rewrite E in E'.
    revert b' E'. clear E. induction b as [|x b IH]; intros [|x' b'] E'; cbn in E'.
    - by injection E' as -> _.
    - injection E' as _ E'. destruct (Ha c'); [|done]. rewrite E'. apply elem_of_app. right. left.
    - injection E' as _ E'. destruct (Ha' c); [|done]. rewrite <- E'. apply elem_of_app. right. left.
    - injection E' as _ E'. by apply (IH b').
  Qed.
  Lemma separated_spec s a b : separated (score_range wild sts s) a b = true <-> shows wild sts s a b.
  Proof.
    unfold separated, shows. split.
    - destruct (_ !! a) as [v1|] eqn:E1; [|done]. destruct (_ !! b) as [v2|] eqn:E2; [|done]. intros H.
      apply score_range_spec in E1 as (k1 & H1 & <-). apply score_range_spec in E2 as (k2 & H2 & <-). exists k1, k2. split; [done|]. split; [done|].
      destruct k1; cbn in H; try done; destruct k2; cbn in H; try done; split; auto; done.
    - intros (k1 & k2 & H1 & H2 & Hk1 & Hk2). pose proof (proj2 (score_range_spec s a _) (ex_intro _ k1 (conj H1 eq_refl))) as ->.
      pose proof (proj2 (score_range_spec s b _) (ex_intro _ k2 (conj H2 eq_refl))) as ->. destruct Hk1 as [-> | ->]; destruct k2; done.
  Qed.

  (** ** The dependencies *)
  Lemma prune_pairs range (ps : list (nat * nat)) deps p :
    p ∈ fold_left (fun deps p => if separated range p.1 p.2 then deps ∖ {[p]} else deps) ps deps <->
    p ∈ (deps : gset (nat * nat)) /\ ~ (p ∈ ps /\ separated range p.1 p.2 = true).
  Proof.
    revert deps. induction ps as [|q ps IH]; intros deps; cbn.
    - split; [|tauto]. intros H. split; [done|]. intros [Hn _]. by apply elem_of_nil in Hn.
    - rewrite IH, elem_of_cons. destruct (separated range q.1 q.2) eqn:E.
      + rewrite elem_of_difference, elem_of_singleton. destruct (decide (p = q)) as [->|Hq]; [|tauto]. rewrite E. tauto.
      + destruct (decide (p = q)) as [->|Hq]; [|tauto]. rewrite E. split; [|tauto]. intros [H1 _]. split; [done|]. by intros [_ ?].
  Qed.
  Lemma elem_of_square (l : list nat) a b : (a, b) ∈ (l ≫= fun a => l ≫= fun b => [(a, b)]) <-> a ∈ l /\ b ∈ l.
  Proof.
    rewrite elem_of_list_bind. split.
    - intros (x & H & Hx). apply elem_of_list_bind in H as (y & H & Hy). apply elem_of_list_singleton in H as [= -> ->]. done.
    - intros [Ha Hb]. exists a. split; [|done]. apply elem_of_list_bind. exists b. split; [by left|done].
  Qed.
  Lemma elem_of_all_pairs (l : list nat) a b : (a, b) ∈ all_pairs l <-> a ∈ l /\ b ∈ l /\ a <> b.
  Proof.
    unfold all_pairs. rewrite elem_of_list_bind. split.
    - intros (x & H & Hx). apply elem_of_list_bind in H as (y & H & Hy). destruct (decide (x = y)); [by apply elem_of_nil in H|]. apply elem_of_list_singleton in H as [= -> ->]. done.
    - intros (Ha & Hb & Hn). exists a. split; [|done]. apply elem_of_list_bind. exists b. split; [|done]. rewrite decide_False by done. by left.
  Qed.
  Lemma prune_spec deps s a b : (a, b) ∈ prune wild sts deps s <->
    (a, b) ∈ deps /\ ~ (gives_points sts a /\ gives_points sts b /\ shows wild sts s a b).
  Proof.
    unfold prune. rewrite prune_pairs, elem_of_square. cbn [fst snd]. rewrite separated_spec, !elem_of_non_zero. tauto.
  Qed.
  Lemma dependencies_spec sols a b : (a, b) ∈ dependencies wild sts sols <-> implied wild sts sols a b.
  Proof.
    unfold dependencies, implied. induction sols as [|s sols IH] using rev_ind.
    - cbn. unfold initial_dependencies. rewrite elem_of_list_to_set, elem_of_all_pairs, !elem_of_non_zero. split; [|tauto].
      intros (Ha & Hb & Hn). split; [done|]. split; [done|]. split; [done|]. intros s Hs. by apply elem_of_nil in Hs.
    - rewrite fold_left_app. cbn. rewrite prune_spec, IH. split.
      + intros ((Ha & Hb & Hn & H) & Hs). split; [done|]. split; [done|]. split; [done|]. intros s' [Hs'|Hs']%elem_of_app; [by apply H|].
        apply elem_of_list_singleton in Hs' as ->. intros Hsh. by apply Hs.
      + intros (Ha & Hb & Hn & H). split.
        * split; [done|]. split; [done|]. split; [done|]. intros s' Hs'. apply H, elem_of_app. by left.
        * intros (_ & _ & Hsh). apply (H s); [apply elem_of_app; right; left|done].
  Qed.
End range.
