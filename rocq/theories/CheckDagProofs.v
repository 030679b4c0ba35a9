From Verif Require Import CheckDagSpec.
From stdpp Require Import relations.

Ltac fold_bind := repeat match goal with
  | |- context[list_bind ?A ?B ?f ?l] => change (list_bind A B f l) with (mbind (M:=list) f l)
  | |- context[list_fmap ?A ?B ?f ?l] => change (list_fmap A B f l) with (fmap (M:=list) f l)
  | H : context[list_fmap ?A ?B ?f ?l] |- _ => change (list_fmap A B f l) with (fmap (M:=list) f l) in H
  | H : context[list_bind ?A ?B ?f ?l] |- _ => change (list_bind A B f l) with (mbind (M:=list) f l) in H
  end.

Definition cnt (x : positive) (l : list positive) : nat := length (filter (fun y => y = x) l).

Lemma cnt_app x l1 l2 : cnt x (l1 ++ l2) = cnt x l1 + cnt x l2.
Proof. unfold cnt. by rewrite filter_app, app_length. Qed.
Lemma cnt_cons x y l : cnt x (y :: l) = (if decide (y = x) then 1 else 0) + cnt x l.
Proof. unfold cnt. rewrite filter_cons. destruct (decide (y = x)); simpl; lia. Qed.
Lemma cnt_pos x l : x ∈ l <-> 0 < cnt x l.
Proof.
  induction l as [|y l IH].
  - unfold cnt; simpl. split; [set_solver|lia].
  - rewrite elem_of_cons, cnt_cons, IH. destruct (decide (y = x)) as [->|Hne]; [split; [lia|auto]|].
    split; [intros [?|?]; [congruence|lia]|right; lia].
Qed.
Lemma cnt_0 x l : x ∉ l <-> cnt x l = 0.
Proof. rewrite cnt_pos. lia. Qed.

Lemma ofold_app {A B} (f : B -> A -> outcome B) l1 l2 b :
  ofold f (l1 ++ l2) b = obind (ofold f l1 b) (ofold f l2).
Proof.
  revert b; induction l1 as [|x l1 IH]; intros b; simpl; [done|].
  destruct (f b x); simpl; auto.
Qed.

(** Insertion of a list in a set failing on duplicates. *)
Lemma insert_fold (err : positive -> dag_error) l L :
  NoDup L ->
  match ofold (fun (s : gset positive) f =>
      if decide (f ∈ s) then Fail (err f) else Done ({[f]} ∪ s)) l (list_to_set L) with
  | Done s => s = list_to_set (L ++ l) /\ NoDup (L ++ l)
  | Fail e => ~ NoDup (L ++ l) /\ exists f, e = err f /\ f ∈ l
  | _ => False
  end.
Proof.
  revert L; induction l as [|f l IH]; intros L HL; simpl.
  - by rewrite app_nil_r.
  - destruct (decide (f ∈ list_to_set (C:=gset positive) L)) as [Hf|Hf]; simpl.
    + split; [|set_solver]. rewrite NoDup_app. rewrite elem_of_list_to_set in Hf. intros (_&H&_).
      apply (H f Hf). set_solver.
    + assert (Hn : NoDup (L ++ [f])).
      { apply NoDup_app; split; [done|]. split; [|apply NoDup_singleton]. set_solver. }
      specialize (IH (L ++ [f]) Hn).
      replace (list_to_set (L ++ [f]) : gset positive) with ({[f]} ∪ list_to_set L : gset positive) in IH
        by (apply leibniz_equiv; set_solver).
      rewrite <- app_assoc in IH; simpl in IH.
      destruct (ofold _ l _); try done. destruct IH as [? (f'&?&?)]. split; [done|]. exists f'; set_solver.
Qed.

Lemma check_fifos_spec l :
  match check_fifos l with
  | Done _ => NoDup l
  | Fail e => ~ NoDup l /\ exists f, e = DuplicateFifoUUID f /\ f ∈ l
  | _ => False
  end.
Proof.
  unfold check_fifos. pose proof (insert_fold DuplicateFifoUUID l [] (NoDup_nil_2)) as H.
  simpl in H. destruct (ofold _ l ∅); [apply H|done|done|done].
Qed.

(** ** Phase 1 *)
Definition capture_ok (e : execution) : Prop :=
  (is_Some (e_capture_stdout e) -> is_Some (e_stdout e)) /\
  (is_Some (e_capture_stderr e) -> is_Some (e_stderr e)).

Definition depmap (L : list (file_uuid * group_uuid)) (m : gmap file_uuid (list group_uuid)) :=
  fold_left (fun m fg => add_dependency m fg.1 fg.2) L m.
Definition edges_of (k : group_uuid) (g : list execution) : list (file_uuid * group_uuid) :=
  map (fun f => (f, k)) (g ≫= dependencies).

Lemma depmap_map k l m :
  fold_left (fun m f => add_dependency m f k) l m = depmap (map (fun f => (f, k)) l) m.
Proof. revert m; induction l; intros; simpl; auto. Qed.
Lemma depmap_app L1 L2 m : depmap (L1 ++ L2) m = depmap L2 (depmap L1 m).
Proof. unfold depmap. apply fold_left_app. Qed.
Lemma depmap_lookup L m f :
  default [] (depmap L m !! f) = default [] (m !! f) ++ (filter (fun fg => fg.1 = f) L).*2.
Proof.
  revert m; induction L as [|[f' g] L IH]; intros m; simpl; [by rewrite app_nil_r|].
  unfold depmap in IH |- *. simpl. rewrite IH. unfold add_dependency. rewrite filter_cons. simpl.
  destruct (decide (f' = f)) as [->|Hne]; simpl.
  - rewrite lookup_insert. simpl. by rewrite <- app_assoc.
  - rewrite lookup_insert_ne by done. done.
Qed.

Definition execs_ok (EL FL : list positive) (es : list execution) : Prop :=
  NoDup (EL ++ map e_uuid es) /\ NoDup (FL ++ (es ≫= outputs)) /\ (forall e, e ∈ es -> capture_ok e).

Lemma isS_is_Some {A} (o : option A) : isS o = true <-> is_Some o.
Proof. destruct o; simpl; split; intros H; try done; by destruct H. Qed.
Lemma isS_false {A} (o : option A) : isS o = false <-> o = None.
Proof. destruct o; simpl; split; intros; done. Qed.

Local Arguments visit_exec : simpl never.
Local Arguments visit_group : simpl never.
Local Arguments visit_provided : simpl never.
Local Arguments drain_file : simpl never.
Local Arguments drain_group : simpl never.
Local Arguments decr : simpl never.
Lemma visit_execs_spec gid es v c EL FL :
  v_execs v = list_to_set EL -> NoDup EL -> v_files v = list_to_set FL -> NoDup FL ->
  match ofold (visit_exec gid) es (v, c) with
  | Done (v', c') =>
      execs_ok EL FL es /\ c' = c + length (es ≫= dependencies) /\
      v' = Vars (depmap (edges_of gid es) (v_deps v)) (v_num v)
             (list_to_set (FL ++ (es ≫= outputs))) (list_to_set (EL ++ map e_uuid es))
             (v_rgroups v) (v_rfiles v)
  | Fail _ => ~ execs_ok EL FL es
  | _ => False
  end.
Proof.
  revert v c EL FL. induction es as [|e es IH]; intros v c EL FL HE HEn HF HFn; simpl.
  - unfold execs_ok, edges_of. simpl. rewrite !app_nil_r. split; [set_solver|]. split; [lia|].
    rewrite <- HE, <- HF. by destruct v.
  - remember (ofold (visit_exec gid) es) as rest eqn:Hrest. unfold visit_exec at 1.
    destruct (decide (e_uuid e ∈ v_execs v)) as [Hin|Hnin]; simpl.
    { rewrite HE, elem_of_list_to_set in Hin. intros (Hn&_). apply NoDup_app in Hn as (_&Hd&_).
      apply (Hd _ Hin). simpl. set_solver. }
    destruct (isS (e_capture_stdout e) && negb (isS (e_stdout e))) eqn:E1; simpl.
    { apply andb_prop in E1 as [E1 E1']. apply isS_is_Some in E1. rewrite negb_true_iff, isS_false in E1'.
      intros (_&_&Hc). destruct (Hc e) as [Hc1 _]; [set_solver|]. destruct (Hc1 E1); congruence. }
    destruct (isS (e_capture_stderr e) && negb (isS (e_stderr e))) eqn:E2; simpl.
    { apply andb_prop in E2 as [E2 E2']. apply isS_is_Some in E2. rewrite negb_true_iff, isS_false in E2'.
      intros (_&_&Hc). destruct (Hc e) as [_ Hc2]; [set_solver|]. destruct (Hc2 E2); congruence. }
    assert (Hcap : capture_ok e).
    { split; intros Hs; apply isS_is_Some in Hs; apply isS_is_Some.
      - rewrite Hs in E1; simpl in E1. by apply negb_false_iff in E1.
      - rewrite Hs in E2; simpl in E2. by apply negb_false_iff in E2. }
    unfold insert_files. rewrite HF.
    pose proof (insert_fold DuplicateFileUUID (outputs e) FL HFn) as Hins.
    destruct (ofold _ (outputs e) (list_to_set FL)) as [s|er| |]; simpl; try done.
    + destruct Hins as [-> HFn'].
      assert (HEn' : NoDup (EL ++ [e_uuid e])).
      { apply NoDup_app; split; [done|]. split; [|apply NoDup_singleton].
        intros x Hx. rewrite HE in Hnin. set_solver. }
      specialize (IH (Vars (fold_left (fun m f => add_dependency m f gid) (dependencies e) (v_deps v)) (v_num v)
        (list_to_set (FL ++ outputs e)) ({[e_uuid e]} ∪ v_execs v) (v_rgroups v) (v_rfiles v))
        (c + length (dependencies e)) (EL ++ [e_uuid e]) (FL ++ outputs e)).
      simpl in IH.
      assert (Hss : ({[e_uuid e]} ∪ v_execs v : gset positive) = list_to_set (EL ++ [e_uuid e])).
      { rewrite HE. apply leibniz_equiv. set_solver. }
      specialize (IH Hss HEn' eq_refl HFn').
      match goal with |- context[rest ?x] => destruct (rest x) as [[v' c']| | |] end; try done.
      * destruct IH as (Hok&Hc&Hv). unfold execs_ok in *.
        rewrite <- !app_assoc in Hok. simpl in Hok. split; [|split].
        -- destruct Hok as (?&?&?). simpl. split; [done|]. split; [done|]. intros e' He'.
           apply elem_of_cons in He' as [->|]; auto.
        -- rewrite Hc. rewrite app_length. fold_bind. lia.
        -- rewrite Hv, depmap_map. unfold edges_of. simpl. rewrite map_app, depmap_app, <- !app_assoc. done.
      * intros (H1&H2&H3). apply IH. unfold execs_ok. rewrite <- !app_assoc. simpl in *.
        split; [done|]. split; [done|]. intros; apply H3; set_solver.
    + destruct Hins as [Hins _]. intros (_&H2&_). apply Hins. simpl in H2.
      rewrite app_assoc in H2. by apply NoDup_app in H2 as [? _].
Qed.

Definition gedges (gs : list (group_uuid * group)) : list (file_uuid * group_uuid) :=
  gs ≫= fun kg => edges_of kg.1 (g_execs kg.2).

Record inv1 (gs : list (group_uuid * group)) (v : vars) : Prop := {
  i1_deps : v_deps v = depmap (gedges gs) ∅;
  i1_num : forall k g, (k, g) ∈ gs -> v_num v !! k = Some (length (group_deps g));
  i1_num_none : forall k, k ∉ gs.*1 -> v_num v !! k = None;
  i1_files : v_files v = list_to_set ((gs.*2 ≫= g_execs) ≫= outputs);
  i1_execs : v_execs v = list_to_set (map e_uuid (gs.*2 ≫= g_execs));
  i1_rg : v_rgroups v = (filter (fun kg => group_deps kg.2 = []) gs).*1;
  i1_rf : v_rfiles v = []
}.

Definition groups_ok (gs : list (group_uuid * group)) : Prop :=
  (forall k g, (k, g) ∈ gs -> g_execs g <> [] /\ NoDup (g_fifo g)) /\
  NoDup (map e_uuid (gs.*2 ≫= g_execs)) /\
  NoDup ((gs.*2 ≫= g_execs) ≫= outputs) /\
  (forall e, e ∈ gs.*2 ≫= g_execs -> capture_ok e).

Lemma bind_single {A B} (f : A -> list B) x : [x] ≫= f = f x.
Proof. simpl. by rewrite app_nil_r. Qed.

Lemma visit_groups_spec gs : NoDup gs.*1 ->
  match ofold visit_group gs vars0 with
  | Done v => groups_ok gs /\ inv1 gs v
  | Fail _ => ~ groups_ok gs
  | _ => False
  end.
Proof.
  induction gs as [|[k g] gs IH] using rev_ind; intros Hnd.
  - simpl. split.
    + split; [set_solver|]. simpl. split; [constructor|]. split; [constructor|set_solver].
    + constructor; simpl; try done; set_solver.
  - rewrite fmap_app in Hnd. apply NoDup_app in Hnd as (Hnd&Hk&_). specialize (IH Hnd).
    rewrite ofold_app. destruct (ofold visit_group gs vars0) as [v|er| |]; simpl; try done.
    2:{ intros (H1&H2&H3&H4). apply IH. rewrite fmap_app, !bind_app in *. simpl in *.
        split; [|split; [|split]].
        - intros k' g' Hin. apply (H1 k'). set_solver.
        - rewrite fmap_app in H2. by apply NoDup_app in H2 as [? _].
        - by apply NoDup_app in H3 as [? _].
        - set_solver. }
    destruct IH as [Hok Hinv]. destruct Hok as (Ho1&Ho2&Ho3&Ho4).
    assert (Hvg : g_execs g <> [] -> visit_group v (k, g) =
      let? _ := check_fifos (g_fifo g) in
      let? vc := ofold (visit_exec k) (g_execs g) (v, 0) in
      let '(v, count) := vc in
      let num := <[ k := count ]> (v_num v) in
      let rg := if bool_decide (count = 0) then v_rgroups v ++ [k] else v_rgroups v in
      Done (Vars (v_deps v) num (v_files v) (v_execs v) rg (v_rfiles v))).
    { unfold visit_group. by destruct (g_execs g). }
    destruct (decide (g_execs g = [])) as [Ees|Ees].
    { unfold visit_group. rewrite Ees. simpl. intros (H1&_). destruct (H1 k g) as [H _]; [set_solver|]. congruence. }
    rewrite (Hvg Ees). clear Hvg. pose proof (check_fifos_spec (g_fifo g)) as Hff.
    destruct (check_fifos (g_fifo g)); simpl; try done.
    2:{ intros (H1&_). destruct (H1 k g) as [_ H]; [set_solver|]. by destruct Hff. }
    pose proof (visit_execs_spec k (g_execs g) v 0 _ _ (i1_execs _ _ Hinv) Ho2 (i1_files _ _ Hinv) Ho3) as Hve.
    destruct (ofold (visit_exec k) (g_execs g) (v, 0)) as [[v' c']| | |]; simpl; try done.
    + destruct Hve as (Heo&Hc&->). destruct Heo as (He1&He2&He3). split.
      * split; [|split; [|split]].
        -- intros k' g' Hin. apply elem_of_app in Hin as [Hin|Hin]; [by apply (Ho1 k')|].
           apply elem_of_list_singleton in Hin. injection Hin as -> ->. done.
        -- rewrite fmap_app, bind_app. simpl. rewrite app_nil_r, map_app. done.
        -- rewrite fmap_app, !bind_app. simpl. rewrite app_nil_r. done.
        -- rewrite fmap_app, bind_app. simpl. rewrite app_nil_r. intros e He. apply elem_of_app in He as [?|?]; auto.
      * assert (Hc' : c' = length (group_deps g)) by (rewrite Hc; done).
        constructor; simpl.
        -- rewrite (i1_deps _ _ Hinv). unfold gedges. rewrite bind_app. simpl. rewrite app_nil_r, depmap_app. done.
        -- intros k' g' Hin. apply elem_of_app in Hin as [Hin|Hin].
           ++ rewrite lookup_insert_ne; [by apply (i1_num _ _ Hinv)|]. intros <-. apply (Hk k); [|set_solver].
              apply elem_of_list_fmap. by exists (k, g').
           ++ apply elem_of_list_singleton in Hin. injection Hin as -> ->. rewrite lookup_insert. by rewrite Hc'.
        -- intros k' Hk'. rewrite fmap_app in Hk'. simpl in Hk'. rewrite lookup_insert_ne by set_solver.
           apply (i1_num_none _ _ Hinv). set_solver.
        -- rewrite fmap_app, !bind_app. simpl. rewrite app_nil_r. done.
        -- rewrite fmap_app, bind_app. simpl. rewrite app_nil_r, map_app. done.
        -- rewrite filter_app, fmap_app, filter_cons. simpl. rewrite (i1_rg _ _ Hinv).
           case_bool_decide as Hz; destruct (decide (group_deps g = [])) as [Hd|Hd]; simpl; try done.
           ++ exfalso. apply Hd. apply nil_length_inv. lia.
           ++ exfalso. rewrite Hd in Hc'. simpl in Hc'. lia.
           ++ by rewrite app_nil_r.
        -- apply (i1_rf _ _ Hinv).
    + intros (H1&H2&H3&H4). apply Hve. rewrite fmap_app, !bind_app in *. simpl in *.
      rewrite app_nil_r in *. rewrite map_app in H2. split; [done|]. split; [done|]. intros e1 He. apply H4. set_solver.
Qed.

Lemma visit_provided_spec l v L :
  v_files v = list_to_set L -> NoDup L ->
  match ofold visit_provided l v with
  | Done v' => NoDup (L ++ l) /\ v' = Vars (v_deps v) (v_num v) (list_to_set (L ++ l)) (v_execs v) (v_rgroups v) (v_rfiles v ++ l)
  | Fail _ => ~ NoDup (L ++ l)
  | _ => False
  end.
Proof.
  revert v L; induction l as [|f l IH]; intros v L HL Hnd; simpl.
  - rewrite !app_nil_r. split; [done|]. rewrite <- HL. by destruct v.
  - unfold visit_provided at 1. destruct (decide (f ∈ v_files v)) as [Hin|Hin]; simpl.
    + rewrite HL, elem_of_list_to_set in Hin. intros Hn. apply NoDup_app in Hn as (_&H&_). apply (H f Hin). set_solver.
    + assert (Hn : NoDup (L ++ [f])).
      { apply NoDup_app; split; [done|]. split; [|apply NoDup_singleton]. rewrite HL in Hin. set_solver. }
      specialize (IH (Vars (v_deps v) (v_num v) ({[f]} ∪ v_files v) (v_execs v) (v_rgroups v) (v_rfiles v ++ [f])) (L ++ [f])).
      simpl in IH. rewrite <- !app_assoc in IH; simpl in IH. apply IH; [|done].
      rewrite HL. apply leibniz_equiv. set_solver.
Qed.

(** ** Phase 2: the visit *)
Lemma decr_fold l num rg :
  (forall g, g ∈ l -> exists n, num !! g = Some n /\ cnt g l <= n) ->
  exists num' new, ofold decr l (num, rg) = Done (num', rg ++ new) /\
    (forall g, num' !! g = (fun n => n - cnt g l) <$> num !! g) /\
    NoDup new /\ (forall g, g ∈ new <-> g ∈ l /\ num !! g = Some (cnt g l)).
Proof.
  revert num rg; induction l as [|x l IH]; intros num rg H.
  - exists num, []. simpl. rewrite app_nil_r. split; [done|]. split; [|split; [constructor|set_solver]].
    intros g. destruct (num !! g); simpl; [|done]. unfold cnt; simpl. f_equal. lia.
  - destruct (H x) as (n&Hn&Hle); [set_solver|]. rewrite cnt_cons in Hle.
    destruct (decide (x = x)) as [_|]; [|done]. destruct n as [|n]; [lia|].
    assert (Hpre : forall g, g ∈ l -> exists m, <[x := n]> num !! g = Some m /\ cnt g l <= m).
    { intros g Hg. destruct (decide (g = x)) as [->|Hne].
      - exists n. rewrite lookup_insert. split; [done|lia].
      - destruct (H g) as (m&Hm&Hlm); [set_solver|]. exists m. rewrite lookup_insert_ne by done.
        split; [done|]. rewrite cnt_cons in Hlm. destruct (decide (x = g)); [congruence|lia]. }
    destruct (IH (<[x := n]> num) (if bool_decide (n = 0) then rg ++ [x] else rg) Hpre) as (num'&new&Hf&Hnum&Hnd&Hin).
    exists num', ((if bool_decide (n = 0) then [x] else []) ++ new). split; [|split; [|split]].
    + cbn [ofold]. unfold decr at 1. rewrite Hn. simpl. rewrite Hf. f_equal. f_equal. case_bool_decide; by rewrite <- ?app_assoc.
    + intros g. rewrite Hnum, cnt_cons. destruct (decide (g = x)) as [->|Hne].
      * rewrite lookup_insert, Hn. simpl. destruct (decide (x = x)); [|done]. try done; f_equal; lia.
      * rewrite lookup_insert_ne by done. destruct (decide (x = g)); [congruence|]. done.
    + case_bool_decide as Hz; simpl; [|done]. constructor; [|done]. rewrite Hin. intros [Hx Hx'].
      rewrite lookup_insert in Hx'. injection Hx' as Hx'. apply cnt_pos in Hx. lia.
    + intros g. rewrite elem_of_app, Hin. rewrite elem_of_cons, cnt_cons.
      destruct (decide (g = x)) as [->|Hne].
      * rewrite lookup_insert. rewrite Hn. destruct (decide (x = x)); [|done].
        case_bool_decide as Hz; subst; split.
        -- intros _. split; [by left|]. f_equal. lia.
        -- intros _. left. set_solver.
        -- intros [?|[Hx Hx']]; [set_solver|]. split; [by left|]. f_equal. injection Hx' as Hx'. lia.
        -- intros [_ Hx]. right. injection Hx as Hx. split; [|f_equal; lia]. apply cnt_pos. lia.
      * rewrite lookup_insert_ne by done. destruct (decide (x = g)); [congruence|]. simpl.
        case_bool_decide; set_solver.
Qed.

Section visit.
  Context (d : dag).
  Hypothesis Hkeys : NoDup (d_groups d).*1.
  Hypothesis Hfiles : NoDup (dag_outputs d ++ (d_provided d).*1).
  Notation provided := (d_provided d).*1.
  Notation deps := (depmap (gedges (d_groups d)) ∅).

  Lemma alookup_in g gr : (g, gr) ∈ d_groups d -> alookup g (d_groups d) = Some gr.
  Proof.
    clear Hfiles. revert Hkeys. generalize (d_groups d). intros l. induction l as [|[k x] l IH]; simpl; intros Hn Hin; [set_solver|].
    apply NoDup_cons in Hn as [Hk Hn]. apply elem_of_cons in Hin as [Hin|Hin].
    - injection Hin as -> ->. by destruct (decide (k = k)).
    - destruct (decide (g = k)) as [->|]; [|auto]. exfalso. apply Hk. apply elem_of_list_fmap. by exists (k, gr).
  Qed.
  Lemma alookup_Some g gr : alookup g (d_groups d) = Some gr -> (g, gr) ∈ d_groups d.
  Proof.
    clear. generalize (d_groups d). intros l. induction l as [|[k x] l IH]; simpl; [done|].
    destruct (decide (g = k)) as [->|]; [injection 1 as ->; set_solver|]. set_solver.
  Qed.

  Lemma edges_cnt f g gr : (g, gr) ∈ d_groups d -> cnt g (default [] (deps !! f)) = cnt f (group_deps gr).
  Proof.
    clear Hfiles. intros Hin. rewrite depmap_lookup, lookup_empty. simpl. unfold gedges. revert Hkeys Hin.
    generalize (d_groups d). intros l. induction l as [|[k x] l IH]; intros Hn Hin; [set_solver|].
    cbn [mbind list_bind]. rewrite filter_app, fmap_app, cnt_app.
    assert (Hhd : cnt g (filter (fun fg => fg.1 = f) (edges_of k (g_execs x))).*2 = if decide (k = g) then cnt f (group_deps x) else 0).
    { unfold edges_of, group_deps. simpl. generalize (g_execs x ≫= dependencies). intros l'.
      induction l' as [|f' l' IH']; simpl; [by destruct (decide (k = g))|].
      rewrite filter_cons, cnt_cons. simpl. destruct (decide (f' = f)); simpl; fold_bind; rewrite ?cnt_cons;
      destruct (decide (k = g)); lia. }
    cbn [fst snd]. rewrite Hhd.
    fold_bind.
    apply NoDup_cons in Hn as [Hk Hn]. apply elem_of_cons in Hin as [Hin|Hin].
    - injection Hin as -> ->. destruct (decide (k = k)); [|done].
      assert (cnt k (filter (fun fg => fg.1 = f) (l ≫= fun kg => edges_of kg.1 (g_execs kg.2))).*2 = 0); [|lia].
      apply cnt_0. intros Hx. apply elem_of_list_fmap in Hx as ([f' k']&Hk'&Hx). simpl in Hk'. subst k'.
      apply elem_of_list_filter in Hx as [_ Hx]. apply elem_of_list_bind in Hx as ([k'' x'']&Hx&Hx2).
      unfold edges_of in Hx. apply elem_of_list_fmap in Hx as (?&Hx&_). injection Hx as _ ->.
      apply Hk. apply elem_of_list_fmap. by exists (k'', x'').
    - rewrite IH by done. destruct (decide (k = g)) as [->|]; [|done]. exfalso. apply Hk.
      apply elem_of_list_fmap. by exists (g, gr).
  Qed.

  Lemma edges_in f g : g ∈ default [] (deps !! f) -> exists gr, (g, gr) ∈ d_groups d /\ f ∈ group_deps gr.
  Proof.
    clear. rewrite depmap_lookup, lookup_empty. simpl. intros Hin. apply elem_of_list_fmap in Hin as ([f' g']&->&Hin).
    apply elem_of_list_filter in Hin as [Hf Hin]. simpl in Hf. subst f'. unfold gedges in Hin.
    apply elem_of_list_bind in Hin as ([k gr]&Hin&Hg). unfold edges_of in Hin. simpl in Hin.
    apply elem_of_list_fmap in Hin as (f'&Hin&Hf). injection Hin as -> ->. eauto.
  Qed.

  Definition outs_of (D : list group_uuid) : list file_uuid :=
    D ≫= fun g => match alookup g (d_groups d) with Some gr => group_outputs gr | None => [] end.

  Definition left_deps (P : list file_uuid) (gr : group) : nat := length (filter (fun f => f ∉ P) (group_deps gr)).

  Definition topo (l : list group_uuid) : Prop :=
    forall l1 g l2 gr f, l = l1 ++ g :: l2 -> (g, gr) ∈ d_groups d -> f ∈ group_deps gr ->
      f ∈ provided \/ f ∈ outs_of l1.

  Record vinv (P : list file_uuid) (D : list group_uuid) (num : gmap group_uuid nat)
      (rg : list group_uuid) (rf : list file_uuid) : Prop := {
    vi_files : P ++ rf = provided ++ outs_of D;
    vi_num : forall g gr, (g, gr) ∈ d_groups d -> num !! g = Some (left_deps P gr);
    vi_nodup : NoDup (D ++ rg);
    vi_zero : forall g, g ∈ D ++ rg <-> exists gr, (g, gr) ∈ d_groups d /\ left_deps P gr = 0;
    vi_topo : topo (D ++ rg)
  }.

  Lemma left_deps_snoc P f gr : f ∉ P -> left_deps P gr = left_deps (P ++ [f]) gr + cnt f (group_deps gr).
  Proof.
    clear. intros Hf. unfold left_deps. generalize (group_deps gr). intros l. induction l as [|x l IH]; [done|].
    rewrite !filter_cons, cnt_cons.
    destruct (decide (x ∉ P)), (decide (x ∉ P ++ [f])), (decide (x = f)); simpl; subst; try lia;
      exfalso; set_solver.
  Qed.

  Lemma outs_of_app D1 D2 : outs_of (D1 ++ D2) = outs_of D1 ++ outs_of D2.
  Proof. clear. unfold outs_of. apply bind_app. Qed.

  Lemma topo_snoc l g : topo l ->
    (forall gr f, (g, gr) ∈ d_groups d -> f ∈ group_deps gr -> f ∈ provided \/ f ∈ outs_of l) ->
    topo (l ++ [g]).
  Proof.
    clear. intros Ht Hg l1 g' l2 gr f Heq Hin Hf. destruct l2 as [|y l2 _] using rev_ind.
    - apply app_inj_tail in Heq as [-> ->]. eauto.
    - rewrite app_comm_cons, app_assoc in Heq. apply app_inj_tail in Heq as [-> ->]. eauto.
  Qed.

  Lemma topo_app l new : topo l ->
    (forall g gr f, g ∈ new -> (g, gr) ∈ d_groups d -> f ∈ group_deps gr -> f ∈ provided \/ f ∈ outs_of l) ->
    topo (l ++ new).
  Proof.
    clear. revert l; induction new as [|g new IH]; intros l Ht Hn; [by rewrite app_nil_r|].
    replace (l ++ g :: new) with ((l ++ [g]) ++ new) by (by rewrite <- app_assoc).
    apply IH.
    - apply topo_snoc; [done|]. intros gr f ? ?. apply (Hn g gr f); auto. set_solver.
    - intros g' gr f ? ? ?. destruct (Hn g' gr f) as [?|?]; auto; [set_solver|]. right. rewrite outs_of_app. set_solver.
  Qed.

  (** draining one ready file *)
  Lemma drain_file_ok P D num rg f rf :
    NoDup (P ++ f :: rf) ->
    vinv P D num rg (f :: rf) ->
    exists num' rg', drain_file deps (num, rg) f = Done (num', rg') /\ vinv (P ++ [f]) D num' rg' rf.
  Proof.
    intros Hnd [Hvf Hvn Hvd Hvz Hvt].
    assert (HfP : f ∉ P). { apply NoDup_app in Hnd as (_&H&_). intros Hx. apply (H f Hx). set_solver. }
    assert (Hdr : exists num' new, drain_file deps (num, rg) f = Done (num', rg ++ new) /\
      (forall g, num' !! g = (fun n => n - cnt g (default [] (deps !! f))) <$> num !! g) /\
      NoDup new /\ (forall g, g ∈ new <-> g ∈ default [] (deps !! f) /\ num !! g = Some (cnt g (default [] (deps !! f))))).
    { unfold drain_file. destruct (deps !! f) as [l|] eqn:El; simpl.
      - apply decr_fold. intros g Hg. destruct (edges_in f g) as (gr&Hin&Hf); [by rewrite El|].
        exists (left_deps P gr). split; [by apply Hvn|].
        pose proof (edges_cnt f g gr Hin) as Hc. rewrite El in Hc. simpl in Hc. rewrite Hc.
        rewrite (left_deps_snoc P f gr HfP). lia.
      - exists num, []. rewrite app_nil_r. split; [done|]. split; [|split; [constructor|set_solver]].
        intros g. destruct (num !! g); simpl; [|done]. unfold cnt; simpl. f_equal; lia. }
    destruct Hdr as (num'&new&Hd&Hnum&Hnn&Hin).
    exists num', (rg ++ new). split; [done|].
    assert (Hnew : forall g, g ∈ new <-> exists gr, (g, gr) ∈ d_groups d /\ left_deps P gr <> 0 /\ left_deps (P ++ [f]) gr = 0).
    { intros g. rewrite Hin. split.
      - intros [Hg Hng]. destruct (edges_in f g Hg) as (gr&Hgr&Hf). exists gr. split; [done|].
        rewrite (Hvn g gr Hgr) in Hng. injection Hng as Hng. rewrite (edges_cnt f g gr Hgr) in Hng.
        pose proof (left_deps_snoc P f gr HfP). apply cnt_pos in Hf. lia.
      - intros (gr&Hgr&Hnz&Hz). pose proof (left_deps_snoc P f gr HfP) as Hs.
        split; [|rewrite (Hvn g gr Hgr), (edges_cnt f g gr Hgr); f_equal; lia].
        apply cnt_pos. rewrite (edges_cnt f g gr Hgr). lia. }
    constructor.
    - rewrite <- app_assoc. done.
    - intros g gr Hgr. rewrite Hnum, (Hvn g gr Hgr). simpl. f_equal. rewrite (edges_cnt f g gr Hgr).
      rewrite (left_deps_snoc P f gr HfP). lia.
    - rewrite app_assoc. apply NoDup_app. split; [done|]. split; [|done]. intros g Hg Hg'.
      apply Hvz in Hg as (gr&Hgr&Hz). apply Hnew in Hg' as (gr'&Hgr'&Hnz&_).
      pose proof (alookup_in g gr Hgr). pose proof (alookup_in g gr' Hgr').
      assert (gr = gr') by congruence. subst. done.
    - intros g. rewrite app_assoc, elem_of_app, Hvz, Hnew. split.
      + intros [(gr&Hgr&Hz)|(gr&Hgr&_&Hz)]; exists gr; split; auto. pose proof (left_deps_snoc P f gr HfP). lia.
      + intros (gr&Hgr&Hz). destruct (decide (left_deps P gr = 0)); [left|right]; eauto.
    - rewrite app_assoc. apply topo_app; [done|]. intros g gr f' Hg Hgr Hf'.
      apply Hnew in Hg as (gr'&Hgr'&_&Hz). pose proof (alookup_in g gr Hgr). pose proof (alookup_in g gr' Hgr').
      assert (gr = gr') by congruence. subst gr'.
      assert (Hp : f' ∈ P ++ [f]).
      { unfold left_deps in Hz. apply nil_length_inv in Hz. destruct (decide (f' ∈ P ++ [f])); [done|].
        exfalso. assert (Hx : f' ∈ filter (fun x => x ∉ P ++ [f]) (group_deps gr)) by (apply elem_of_list_filter; done).
        rewrite Hz in Hx. set_solver. }
      assert (Hp' : f' ∈ provided ++ outs_of D). { rewrite <- Hvf. set_solver. }
      rewrite outs_of_app. set_solver.
  Qed.

  Lemma drain_files_ok rf P D num rg :
    NoDup (P ++ rf) -> vinv P D num rg rf ->
    exists num' rg', ofold (drain_file deps) rf (num, rg) = Done (num', rg') /\ vinv (P ++ rf) D num' rg' [].
  Proof.
    revert P num rg; induction rf as [|f rf IH]; intros P num rg Hnd Hv.
    - exists num, rg. rewrite app_nil_r. simpl. split; [done|]. done.
    - destruct (drain_file_ok P D num rg f rf Hnd Hv) as (num'&rg'&Hd&Hv'). cbn [ofold]. rewrite Hd. simpl.
      replace (P ++ f :: rf) with ((P ++ [f]) ++ rf) in * by (by rewrite <- app_assoc). by apply IH.
  Qed.

  Lemma drain_groups_ok rg acc : (forall g, g ∈ rg -> g ∈ (d_groups d).*1) ->
    ofold (drain_group d) rg acc = Done (acc ++ outs_of rg).
  Proof.
    clear. revert acc; induction rg as [|g rg IH]; intros acc Hin; [simpl; by rewrite app_nil_r|].
    cbn [ofold]. unfold drain_group at 1.
    destruct (alookup g (d_groups d)) as [gr|] eqn:E.
    - cbn [obind]. rewrite IH by set_solver. unfold outs_of. simpl. rewrite E. by rewrite <- app_assoc.
    - exfalso. assert (Hg : g ∈ (d_groups d).*1) by set_solver. clear -Hg E. revert Hg E. generalize (d_groups d).
      intros l. induction l as [|[k x] l IH]; simpl; [set_solver|]. destruct (decide (g = k)); [done|]. set_solver.
  Qed.

  Lemma outs_nodup D : NoDup D -> (forall g, g ∈ D -> g ∈ (d_groups d).*1) -> NoDup (provided ++ outs_of D).
  Proof.
    intros HD Hin. apply NoDup_app in Hfiles as (Ho&Hop&Hp).
    assert (Hsub : forall f g gr, (g, gr) ∈ d_groups d -> f ∈ group_outputs gr -> f ∈ dag_outputs d).
    { intros f g gr Hg Hf. unfold dag_outputs, dag_execs. unfold group_outputs in Hf.
      apply elem_of_list_bind in Hf as (e&Hf&He). apply elem_of_list_bind. exists e. split; [done|].
      apply elem_of_list_bind. exists gr. split; [done|]. apply elem_of_list_fmap. by exists (g, gr). }
    assert (Hso : forall D f, f ∈ outs_of D -> exists g gr, g ∈ D /\ (g, gr) ∈ d_groups d /\ f ∈ group_outputs gr).
    { intros D' f Hf. unfold outs_of in Hf. apply elem_of_list_bind in Hf as (g&Hf&Hg).
      destruct (alookup g (d_groups d)) as [gr|] eqn:E; [|set_solver]. apply alookup_Some in E. eauto 6. }
    assert (Huniq : forall g1 gr1 g2 gr2 f, (g1, gr1) ∈ d_groups d -> (g2, gr2) ∈ d_groups d ->
      f ∈ group_outputs gr1 -> f ∈ group_outputs gr2 -> g1 = g2).
    { intros g1 gr1 g2 gr2 f H1 H2 Hf1 Hf2. destruct (decide (g1 = g2)) as [|Hne]; [done|]. exfalso.
      apply elem_of_list_split in H1 as (la&lb&Hl). unfold dag_outputs, dag_execs in Ho. rewrite Hl in Ho, H2.
      rewrite fmap_app, !bind_app in Ho. simpl in Ho. rewrite bind_app in Ho.
      assert (Hcase : (g2, gr2) ∈ la \/ (g2, gr2) ∈ lb).
      { apply elem_of_app in H2 as [?|H2]; [by left|]. apply elem_of_cons in H2 as [H2|?]; [congruence|by right]. }
      apply NoDup_app in Ho as (_&Hd1&Ho2). apply NoDup_app in Ho2 as (_&Hd2&_).
      destruct Hcase as [Hc|Hc].
      - apply (Hd1 f).
        + unfold group_outputs in Hf2. apply elem_of_list_bind in Hf2 as (e&Hf2&He). apply elem_of_list_bind. exists e.
          split; [done|]. apply elem_of_list_bind. exists gr2. split; [done|]. apply elem_of_list_fmap. by exists (g2, gr2).
        + apply elem_of_app. left. done.
      - apply (Hd2 f); [done|]. unfold group_outputs in Hf2. apply elem_of_list_bind in Hf2 as (e&Hf2&He).
        apply elem_of_list_bind. exists e. split; [done|]. apply elem_of_list_bind. exists gr2. split; [done|].
        apply elem_of_list_fmap. by exists (g2, gr2). }
    assert (Hone : forall g gr, (g, gr) ∈ d_groups d -> NoDup (group_outputs gr)).
    { intros g gr Hg. apply elem_of_list_split in Hg as (la&lb&Hl). unfold dag_outputs, dag_execs in Ho. rewrite Hl in Ho.
      rewrite fmap_app, !bind_app in Ho. simpl in Ho. rewrite bind_app in Ho.
      apply NoDup_app in Ho as (_&_&Ho2). by apply NoDup_app in Ho2 as (?&_). }
    apply NoDup_app. split; [done|]. split.
    - intros f Hf Hf'. apply Hso in Hf' as (g&gr&_&Hg&Hf'). apply (Hop f); [|done]. eauto.
    - clear Hop Hp. induction D as [|g D IH]; [constructor|]. unfold outs_of. simpl. fold (outs_of D).
      apply NoDup_cons in HD as [Hg HD]. apply NoDup_app. split; [|split].
      + destruct (alookup g (d_groups d)) as [gr|] eqn:E; [|constructor]. apply alookup_Some in E. eauto.
      + intros f Hf Hf'. destruct (alookup g (d_groups d)) as [gr|] eqn:E; [|set_solver]. apply alookup_Some in E.
        apply Hso in Hf' as (g'&gr'&Hg'&Hgr'&Hf'). assert (g = g') by eauto. subst. done.
      + apply IH; [done|]. set_solver.
  Qed.

  Lemma vinv_sub P D num rg rf : vinv P D num rg rf -> forall g, g ∈ D ++ rg -> g ∈ (d_groups d).*1.
  Proof. intros Hv g Hg. apply (vi_zero _ _ _ _ _ Hv) in Hg as (gr&Hg&_). apply elem_of_list_fmap. by exists (g, gr). Qed.

  Lemma visit_ok fuel P D num rg rf :
    vinv P D num rg rf -> length (d_groups d) - length D < fuel ->
    exists num' P' D', visit fuel d deps num rg rf = Done num' /\ vinv P' D' num' [] [].
  Proof.
    revert P D num rg rf; induction fuel as [|fuel IH]; intros P D num rg rf Hv Hfuel; [lia|].
    assert (Hnd : NoDup (P ++ rf)).
    { rewrite (vi_files _ _ _ _ _ Hv). apply outs_nodup.
      - pose proof (vi_nodup _ _ _ _ _ Hv) as Hn. by apply NoDup_app in Hn as [? _].
      - intros g Hg. apply (vinv_sub _ _ _ _ _ Hv). set_solver. }
    destruct (drain_files_ok rf P D num rg Hnd Hv) as (num'&rg'&Hd&Hv').
    assert (Hgr : ofold (drain_group d) rg' [] = Done (outs_of rg')).
    { rewrite drain_groups_ok; [done|]. intros g Hg. apply (vinv_sub _ _ _ _ _ Hv'). set_solver. }
    assert (Hv2 : vinv (P ++ rf) (D ++ rg') num' [] (outs_of rg')).
    { destruct Hv' as [H1 H2 H3 H4 H5]. constructor; rewrite ?app_nil_r in *; try done.
      rewrite H1, outs_of_app, app_assoc. done. }
    assert (Hstep : exists num'' P' D', visit fuel d deps num' [] (outs_of rg') = Done num'' /\ vinv P' D' num'' [] []).
    { destruct rg' as [|g rg'].
      - exists num'. exists (P ++ rf), (D ++ []). split; [|done]. destruct fuel; done.
      - apply (IH _ _ _ _ _ Hv2). rewrite app_length. simpl.
        assert (length (D ++ g :: rg') <= length (d_groups d)); [|rewrite app_length in *; simpl in *; lia].
        rewrite <- (fmap_length fst (d_groups d)). apply submseteq_length, NoDup_submseteq.
        + pose proof (vi_nodup _ _ _ _ _ Hv2) as Hn. by rewrite app_nil_r in Hn.
        + intros x Hx. apply (vinv_sub _ _ _ _ _ Hv2). set_solver. }
    destruct rg as [|g0 rg0], rf as [|f0 rf0].
    - exists num, P, D. split; done.
    - cbn [visit]. rewrite Hd. cbn [obind]. rewrite Hgr. cbn [obind]. done.
    - cbn [visit]. rewrite Hd. cbn [obind]. rewrite Hgr. cbn [obind]. done.
    - cbn [visit]. rewrite Hd. cbn [obind]. rewrite Hgr. cbn [obind]. done.
  Qed.
End visit.
