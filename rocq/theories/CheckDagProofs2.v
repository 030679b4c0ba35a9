From Verif Require Import CheckDagProofs CheckDagSpec.
From stdpp Require Import relations.

Lemma well_formed_groups_ok d : well_formed d -> groups_ok (d_groups d).
Proof.
  intros [H1 H2 H3 H4 H5 H6 H7 H8]. split; [|split; [|split]].
  - intros k g Hin. split; eauto.
  - done.
  - apply NoDup_app in H6 as [? _]. done.
  - intros e He. split; [by apply H4|by apply H5].
Qed.

Lemma in_dag_outputs d g gr f : (g, gr) ∈ d_groups d -> f ∈ group_outputs gr -> f ∈ dag_outputs d.
Proof.
  intros Hg Hf. unfold group_outputs in Hf. apply elem_of_list_bind in Hf as (e&Hf&He).
  apply elem_of_list_bind. exists e. split; [done|]. apply elem_of_list_bind. exists gr. split; [done|].
  apply elem_of_list_fmap. by exists (g, gr).
Qed.
Lemma dag_outputs_inv d f : f ∈ dag_outputs d -> exists g gr e, (g, gr) ∈ d_groups d /\ e ∈ g_execs gr /\ f ∈ outputs e.
Proof.
  intros Hf. apply elem_of_list_bind in Hf as (e&Hf&He). apply elem_of_list_bind in He as (gr&He&Hgr).
  apply elem_of_list_fmap in Hgr as ([g gr']&->&Hin). exists g, gr', e. done.
Qed.
Lemma dag_execs_inv d e : e ∈ dag_execs d <-> exists g gr, (g, gr) ∈ d_groups d /\ e ∈ g_execs gr.
Proof.
  split.
  - intros He. apply elem_of_list_bind in He as (gr&He&Hgr).
    apply elem_of_list_fmap in Hgr as ([g gr']&->&Hin). exists g, gr'. done.
  - intros (g&gr&Hg&He). apply elem_of_list_bind. exists gr. split; [done|]. apply elem_of_list_fmap. by exists (g, gr).
Qed.
Lemma elem_group_outputs gr f : f ∈ group_outputs gr <-> exists e, e ∈ g_execs gr /\ f ∈ outputs e.
Proof. unfold group_outputs. rewrite elem_of_list_bind. naive_solver. Qed.
Lemma elem_group_deps gr f : f ∈ group_deps gr <-> exists e, e ∈ g_execs gr /\ f ∈ dependencies e.
Proof. unfold group_deps. rewrite elem_of_list_bind. naive_solver. Qed.

Lemma dag_outputs_uniq d g1 gr1 g2 gr2 f :
  NoDup (dag_outputs d) -> (g1, gr1) ∈ d_groups d -> (g2, gr2) ∈ d_groups d ->
  f ∈ group_outputs gr1 -> f ∈ group_outputs gr2 -> g1 = g2.
Proof.
  intros Ho H1 H2 Hf1 Hf2. destruct (decide (g1 = g2)) as [|Hne]; [done|]. exfalso.
  assert (Hsub : forall L, (g2, gr2) ∈ L -> f ∈ ((L.*2 ≫= g_execs) ≫= outputs)).
  { intros L HL. unfold group_outputs in Hf2. apply elem_of_list_bind in Hf2 as (e&Hf2&He).
    apply elem_of_list_bind. exists e. split; [done|]. apply elem_of_list_bind. exists gr2. split; [done|].
    apply elem_of_list_fmap. by exists (g2, gr2). }
  apply elem_of_list_split in H1 as (la&lb&Hl). unfold dag_outputs, dag_execs in Ho. rewrite Hl in Ho, H2.
  rewrite fmap_app, fmap_cons, bind_app, bind_cons, !bind_app in Ho. simpl in Ho.
  assert (Hcase : (g2, gr2) ∈ la \/ (g2, gr2) ∈ lb).
  { apply elem_of_app in H2 as [?|H2]; [by left|]. apply elem_of_cons in H2 as [H2|?]; [congruence|by right]. }
  apply NoDup_app in Ho as (_&Hd1&Ho2). apply NoDup_app in Ho2 as (_&Hd2&_).
  destruct Hcase as [Hc|Hc].
  - apply (Hd1 f); [by apply Hsub|]. apply elem_of_app. left. done.
  - apply (Hd2 f); [done|]. by apply Hsub.
Qed.

Lemma NoDup_filter_fst {A} (P : positive * A -> Prop) `{forall x, Decision (P x)} l :
  NoDup l.*1 -> NoDup (filter P l).*1.
Proof.
  induction l as [|[k x] l IH]; [done|]. rewrite fmap_cons, NoDup_cons. intros [Hk Hn].
  rewrite filter_cons. destruct (decide (P (k, x))); [|auto]. rewrite fmap_cons, NoDup_cons. split; [|auto].
  intros Hin. apply Hk. apply elem_of_list_fmap in Hin as (y&->&Hy). apply elem_of_list_filter in Hy as [_ Hy].
  apply elem_of_list_fmap. eauto.
Qed.
Lemma groups_inj d g gr gr' : NoDup (d_groups d).*1 -> (g, gr) ∈ d_groups d -> (g, gr') ∈ d_groups d -> gr = gr'.
Proof. intros Hk H1 H2. apply (alookup_in d Hk) in H1. apply (alookup_in d Hk) in H2. congruence. Qed.

(** The state reached after the first two loops satisfies the invariant of the visit. *)
Lemma vinv_init d v :
  NoDup (d_groups d).*1 -> inv1 (d_groups d) v ->
  vinv d [] [] (v_num v) (v_rgroups v) (d_provided d).*1.
Proof.
  intros Hk Hi. assert (Hz : forall gr, left_deps [] gr = length (group_deps gr)).
  { intros gr. unfold left_deps. f_equal. induction (group_deps gr) as [|x l IH]; [done|].
    rewrite filter_cons. destruct (decide (x ∉ [])); [by rewrite IH|set_solver]. }
  assert (Hrg : forall g, g ∈ v_rgroups v <-> exists gr, (g, gr) ∈ d_groups d /\ group_deps gr = []).
  { intros g. rewrite (i1_rg _ _ Hi), elem_of_list_fmap. split.
    - intros ([k gr]&->&Hin). apply elem_of_list_filter in Hin as [Hd Hin]. eauto.
    - intros (gr&Hin&Hd). exists (g, gr). split; [done|]. apply elem_of_list_filter. done. }
  constructor.
  - unfold outs_of. simpl. by rewrite app_nil_r.
  - intros g gr Hin. rewrite Hz. by apply (i1_num _ _ Hi).
  - simpl. rewrite (i1_rg _ _ Hi). by apply NoDup_filter_fst.
  - intros g. simpl. rewrite Hrg. setoid_rewrite Hz. split; intros (gr&?&Hd); exists gr; (split; [done|]).
    + by rewrite Hd.
    + by apply nil_length_inv.
  - intros l1 g l2 gr f Heq Hin Hf. exfalso. simpl in Heq.
    assert (Hg : g ∈ v_rgroups v) by (rewrite Heq; set_solver).
    apply Hrg in Hg as (gr'&Hin'&Hd). rewrite (groups_inj _ _ _ _ Hk Hin Hin') in Hf. rewrite Hd in Hf. set_solver.
Qed.

(** What is known when the visit is over. [D]: the groups that can be run, in order. *)
Record visited (d : dag) (num : gmap group_uuid nat) (D : list group_uuid) : Prop := {
  vd_nodup : NoDup D;
  vd_sub : forall g, g ∈ D -> g ∈ (d_groups d).*1;
  vd_num : forall g gr, (g, gr) ∈ d_groups d -> exists n, num !! g = Some n /\ (n = 0 <-> g ∈ D);
  vd_in : forall g gr, (g, gr) ∈ d_groups d -> g ∈ D <->
     (forall f, f ∈ group_deps gr -> f ∈ (d_provided d).*1 \/ f ∈ outs_of d D);
  vd_run : runnable d D
}.

Lemma left_deps_0 P gr : left_deps P gr = 0 <-> forall f, f ∈ group_deps gr -> f ∈ P.
Proof.
  unfold left_deps. induction (group_deps gr) as [|x l IH]; [simpl; set_solver|].
  rewrite filter_cons. destruct (decide (x ∉ P)) as [Hx|Hx]; simpl.
  - split; [lia|]. intros H. exfalso. apply Hx, H. set_solver.
  - rewrite IH. apply dec_stable in Hx. set_solver.
Qed.

Lemma outs_of_inv d D f : NoDup (d_groups d).*1 ->
  f ∈ outs_of d D <-> exists g gr e, g ∈ D /\ (g, gr) ∈ d_groups d /\ e ∈ g_execs gr /\ f ∈ outputs e.
Proof.
  intros Hk. unfold outs_of. rewrite elem_of_list_bind. split.
  - intros (g&Hf&Hg). destruct (alookup g (d_groups d)) as [gr|] eqn:E; [|set_solver].
    apply alookup_Some in E. apply elem_group_outputs in Hf as (e&?&?). eauto 8.
  - intros (g&gr&e&Hg&Hgr&He&Hf). exists g. split; [|done]. rewrite (alookup_in d Hk g gr Hgr).
    apply elem_group_outputs. eauto.
Qed.

Lemma vinv_visited d P D num : NoDup (d_groups d).*1 -> vinv d P D num [] [] -> visited d num D.
Proof.
  intros Hk [H1 H2 H3 H4 H5]. rewrite app_nil_r in *. subst P.
  assert (Hin : forall g gr, (g, gr) ∈ d_groups d -> g ∈ D <-> left_deps ((d_provided d).*1 ++ outs_of d D) gr = 0).
  { intros g gr Hg. rewrite H4. split; [|eauto]. intros (gr'&Hg'&Hz). by rewrite (groups_inj _ _ _ _ Hk Hg Hg'). }
  constructor; [done| | | |].
  - intros g Hg. apply H4 in Hg as (gr&Hg&_). apply elem_of_list_fmap. by exists (g, gr).
  - intros g gr Hg. rewrite (H2 g gr Hg). eexists. split; [done|]. by rewrite (Hin g gr Hg).
  - intros g gr Hg. rewrite (Hin g gr Hg), left_deps_0. setoid_rewrite elem_of_app. done.
  - intros l1 g l2 gr e f Heq Hg He Hf. destruct (H5 l1 g l2 gr f Heq Hg) as [?|Ho]; [|by left|].
    { apply elem_group_deps. eauto. }
    right. apply outs_of_inv in Ho as (g'&gr'&e'&?&?&?&?); [|done]. eauto 8.
Qed.

(** The first three loops succeed iff the local conditions hold. *)
Lemma phases_spec d : NoDup (d_groups d).*1 ->
  match (let? v := ofold visit_group (d_groups d) vars0 in
         let? v := ofold visit_provided (d_provided d).*1 v in
         let? num := visit (S (S (length (d_groups d)))) d (v_deps v) (v_num v) (v_rgroups v) (v_rfiles v) in
         Done (v, num)) with
  | Done (v, num) => groups_ok (d_groups d) /\ NoDup (dag_outputs d ++ (d_provided d).*1) /\
      (forall f, f ∈ v_files v <-> known_file d f) /\
      (forall e, e ∈ v_execs v <-> e ∈ map e_uuid (dag_execs d)) /\
      exists D, visited d num D
  | Fail _ => ~ (groups_ok (d_groups d) /\ NoDup (dag_outputs d ++ (d_provided d).*1))
  | _ => False
  end.
Proof.
  intros Hk. pose proof (visit_groups_spec (d_groups d) Hk) as H1.
  destruct (ofold visit_group (d_groups d) vars0) as [v| | |]; cbn [obind]; try done; [|by intros [? _]].
  destruct H1 as [Hok Hi].
  pose proof (visit_provided_spec (d_provided d).*1 v (dag_outputs d) (i1_files _ _ Hi)) as H2.
  destruct (ofold visit_provided (d_provided d).*1 v) as [v2| | |]; cbn [obind].
  2:{ intros [_ ?]. apply H2; [|done]. by destruct Hok as (_&_&?&_). }
  2:{ apply H2. by destruct Hok as (_&_&?&_). }
  2:{ apply H2. by destruct Hok as (_&_&?&_). }
  destruct H2 as [Hnd ->]; [by destruct Hok as (_&_&?&_)|]. cbn [v_deps v_num v_rgroups v_rfiles].
  rewrite (i1_rf _ _ Hi), (i1_deps _ _ Hi). simpl app.
  destruct (visit_ok d Hk Hnd (S (S (length (d_groups d)))) [] [] (v_num v) (v_rgroups v) (d_provided d).*1)
    as (num'&P'&D'&Hv&Hvi).
  { by apply vinv_init. }
  { simpl. lia. }
  rewrite Hv. cbn [obind]. split; [done|]. split; [done|]. split; [|split].
  - intros f. cbn [v_files]. rewrite elem_of_list_to_set, elem_of_app. done.
  - intros e. cbn [v_execs]. rewrite (i1_execs _ _ Hi), elem_of_list_to_set. done.
  - exists D'. by eapply vinv_visited.
Qed.

(** Acyclicity. *)
Lemma runnable_acyclic d D :
  NoDup (d_groups d).*1 -> NoDup (dag_outputs d ++ (d_provided d).*1) ->
  NoDup D -> (forall g, g ∈ (d_groups d).*1 -> g ∈ D) -> runnable d D -> forall g, ~ tc (depends d) g g.
Proof.
  intros Hk Hnd HD Hall Hrun.
  assert (Hbefore : forall g1 g2, depends d g1 g2 -> exists l1 l2 l3, D = l1 ++ g2 :: l2 ++ g1 :: l3).
  { intros g1 g2 (gr1&gr2&e1&e2&f&Hg1&Hg2&He1&He2&Hf1&Hf2).
    assert (Hg1D : g1 ∈ D). { apply Hall. apply elem_of_list_fmap. by exists (g1, gr1). }
    apply elem_of_list_split in Hg1D as (l1&l3&HDe).
    destruct (Hrun l1 g1 l3 gr1 e1 f HDe Hg1 He1 Hf1) as [Hp|(g'&gr'&e'&Hg'&Hgr'&He'&Hf')].
    - exfalso. apply NoDup_app in Hnd as (_&Hd&_). apply (Hd f); [|done].
      apply (in_dag_outputs d g2 gr2); [done|]. apply elem_group_outputs; eauto.
    - assert (g' = g2) as ->.
      { apply NoDup_app in Hnd as (Ho&_&_). apply (dag_outputs_uniq d g' gr' g2 gr2 f Ho Hgr' Hg2);
        apply elem_group_outputs; eauto. }
      apply elem_of_list_split in Hg' as (a&b&->). exists a, b, l3. rewrite HDe, <- app_assoc. done. }
  assert (Hlt : forall g1 g2, tc (depends d) g1 g2 -> exists l1 l2 l3, D = l1 ++ g2 :: l2 ++ g1 :: l3).
  { intros g1 g2 Htc. induction Htc as [g1 g2 H|g1 g2 g3 H _ IH]; [by apply Hbefore|].
    destruct IH as (l1&l2&l3&E1). apply Hbefore in H as (m1&m2&m3&E2).
    (* g3 before g2 before g1 *)
    assert (Hm : m1 = l1 ++ g3 :: l2 /\ l3 = m2 ++ g1 :: m3).
    { rewrite E1 in E2. rewrite app_comm_cons, app_assoc in E2.
      rewrite E1 in HD. clear -HD E2.
      assert (HD' : NoDup ((l1 ++ g3 :: l2) ++ g2 :: l3)) by (rewrite <- app_assoc; exact HD).
      revert HD' E2. generalize (l1 ++ g3 :: l2) as p. intros p. clear HD. revert m1.
      induction p as [|x p IH]; intros m1 Hn He.
      - destruct m1 as [|y m1]; simpl in He; [injection He as ->; done|].
        injection He as -> ->. simpl in Hn. apply NoDup_cons in Hn as [Hn _]. set_solver.
      - destruct m1 as [|y m1]; simpl in He.
        + injection He as -> _. simpl in Hn. apply NoDup_cons in Hn as [Hn _]. set_solver.
        + injection He as -> He. simpl in Hn. apply NoDup_cons in Hn as [_ Hn].
          destruct (IH m1 Hn He) as [-> ->]. done. }
    destruct Hm as [-> ->]. exists l1, (l2 ++ g2 :: m2), m3. rewrite E1. f_equal. f_equal. rewrite <- app_assoc. done. }
  intros g Hg. apply Hlt in Hg as (l1&l2&l3&E). rewrite E in HD.
  apply NoDup_app in HD as (_&_&HD). apply NoDup_cons in HD as [HD _]. set_solver.
Qed.

(** A stuck group has an unknown dependency or depends on a stuck group. *)
Lemma stuck_step d num D g gr : NoDup (d_groups d).*1 -> visited d num D ->
  (g, gr) ∈ d_groups d -> g ∉ D ->
  (exists f, f ∈ group_deps gr /\ ~ known_file d f) \/ (exists g', depends d g g' /\ g' ∉ D).
Proof.
  intros Hk Hv Hg HgD. rewrite (vd_in _ _ _ Hv g gr Hg) in HgD.
  assert (Hex : exists f, f ∈ group_deps gr /\ f ∉ (d_provided d).*1 ++ outs_of d D).
  { assert (Hz : left_deps ((d_provided d).*1 ++ outs_of d D) gr <> 0).
    { rewrite left_deps_0. intros H. apply HgD. intros f Hf. by apply elem_of_app, H. }
    unfold left_deps in Hz. destruct (filter _ (group_deps gr)) as [|f l] eqn:E; [done|].
    assert (Hf : f ∈ f :: l) by set_solver. rewrite <- E in Hf. apply elem_of_list_filter in Hf as [? ?]. eauto. }
  destruct Hex as (f&Hf&Hn). rewrite elem_of_app in Hn.
  destruct (decide (f ∈ dag_outputs d)) as [Ho|Ho].
  - right. apply dag_outputs_inv in Ho as (g'&gr'&e'&Hg'&He'&Hf').
    exists g'. split.
    + apply elem_group_deps in Hf as (e&He&Hf). exists gr, gr', e, e', f. done.
    + intros HD. apply Hn. right. apply outs_of_inv; [done|]. eauto 8.
  - left. exists f. split; [done|]. intros [?|?]; [done|]. by apply Hn; left.
Qed.

Lemma visited_stuck d num D g gr : NoDup (d_groups d).*1 -> visited d num D ->
  (g, gr) ∈ d_groups d -> g ∉ D -> stuck d g.
Proof.
  intros Hk Hv Hg HgD.
  enough (Hx : forall n path c, length (d_groups d) - length path < n -> NoDup path -> c ∈ path ->
    (forall p, p ∈ path -> p ∈ (d_groups d).*1 /\ rtc (depends d) p c) ->
    c ∉ D -> rtc (depends d) g c -> stuck d g).
  { apply (Hx (S (length (d_groups d))) [g] g); try done; [simpl; lia|apply NoDup_singleton|set_solver| ].
    intros p Hp. apply elem_of_list_singleton in Hp as ->. split; [|done]. apply elem_of_list_fmap. by exists (g, gr). }
  clear gr Hg HgD. induction n as [|n IH]; intros path c Hlen Hnd Hc Hp HcD Hgc; [lia|].
  destruct (Hp c Hc) as [Hck _]. apply elem_of_list_fmap in Hck as ([c' gr]&Heq&Hcg). simpl in Heq. subst c'.
  destruct (stuck_step d num D c gr Hk Hv Hcg HcD) as [(f&Hf&Hn)|(c'&Hdep&Hc'D)].
  - exists c. split; [done|]. left. apply elem_group_deps in Hf as (e&?&?). exists gr, e, f. done.
  - destruct (decide (c' ∈ path)) as [Hin|Hnin].
    + exists c. split; [done|]. right. eapply tc_rtc_r with (y := c'); [by apply tc_once|]. by apply Hp.
    + assert (Hk' : c' ∈ (d_groups d).*1).
      { destruct Hdep as (gr1&gr2&e1&e2&f&_&Hg2&_). apply elem_of_list_fmap. by exists (c', gr2). }
      assert (Hnd' : NoDup (c' :: path)) by (by constructor).
      apply (IH (c' :: path) c'); try done.
      * simpl. enough (length (c' :: path) <= length (d_groups d)) by (simpl in *; lia).
        rewrite <- (fmap_length fst (d_groups d)). apply submseteq_length, NoDup_submseteq; [done|].
        intros p Hpp. apply elem_of_cons in Hpp as [->|Hpp]; [done|]. by apply Hp.
      * set_solver.
      * intros p Hpp. apply elem_of_cons in Hpp as [->|Hpp]; [done|]. destruct (Hp p Hpp) as [? ?]. split; [done|].
        eapply rtc_r; done.
      * eapply rtc_r; done.
Qed.

Lemma unreachable_spec d num D files order :
  NoDup (d_groups d).*1 -> visited d num D -> (forall f, f ∈ files <-> known_file d f) ->
  (forall g, g ∈ order -> g ∈ (d_groups d).*1) ->
  match unreachable_groups d num files order with
  | Done _ => forall g, g ∈ order -> g ∈ D
  | Fail er => exists g, g ∈ order /\ g ∉ D /\ (forall cb, error_is_real d cb er)
  | _ => False
  end.
Proof.
  intros Hk Hv Hfiles. induction order as [|g order IH]; intros Hin; [set_solver|].
  assert (Hg : g ∈ (d_groups d).*1) by set_solver.
  apply elem_of_list_fmap in Hg as ([g' gr]&Heq&Hg). simpl in Heq. subst g'.
  destruct (vd_num _ _ _ Hv g gr Hg) as (n&Hn&HnD). simpl. rewrite Hn.
  destruct n as [|n].
  - specialize (IH ltac:(set_solver)). destruct (unreachable_groups d num files order); try done.
    + intros g' Hg'. apply elem_of_cons in Hg' as [->|Hg']; [by apply HnD|auto].
    + destruct IH as (g'&?&?&?). exists g'. set_solver.
  - assert (HgD : g ∉ D) by (rewrite <- HnD; lia).
    rewrite (alookup_in d Hk g gr Hg). destruct (filter _ (group_deps gr)) as [|f l] eqn:E.
    + exists g. split; [set_solver|]. split; [done|]. intros cb. exists gr. split; [done|]. split.
      * intros e f He Hf. apply Hfiles. destruct (decide (f ∈ files)) as [|Hnf]; [done|]. exfalso.
        assert (Hx : f ∈ filter (fun f => f ∉ files) (group_deps gr)).
        { apply elem_of_list_filter. split; [done|]. apply elem_group_deps. eauto. }
        rewrite E in Hx. set_solver.
      * by eapply visited_stuck.
    + exists g. split; [set_solver|]. split; [done|]. intros cb.
      assert (Hf : f ∈ f :: l) by set_solver. rewrite <- E in Hf. apply elem_of_list_filter in Hf as [Hnf Hf].
      split; [by rewrite <- Hfiles|]. left. apply elem_group_deps in Hf as (e&He&Hf). exists e. split; [|done].
      apply dag_execs_inv. eauto.
Qed.

Lemma acyclic_all_visited d num D : NoDup (d_groups d).*1 -> visited d num D ->
  (forall e f, e ∈ dag_execs d -> f ∈ dependencies e -> known_file d f) ->
  (forall g, ~ tc (depends d) g g) -> forall g, g ∈ (d_groups d).*1 -> g ∈ D.
Proof.
  intros Hk Hv Hdeps Hacy g Hg. destruct (decide (g ∈ D)) as [|HgD]; [done|]. exfalso.
  apply elem_of_list_fmap in Hg as ([g' gr]&Heq&Hg). simpl in Heq. subst g'.
  destruct (visited_stuck d num D g gr Hk Hv Hg HgD) as (g'&_&[(gr'&e&f&Hg'&He&Hf&Hn)|Hc]); [|by apply (Hacy g')].
  apply Hn, (Hdeps e f); [|done]. apply dag_execs_inv. eauto.
Qed.

Lemma watch_fold {A} (P : A -> Prop) `{forall x, Decision (P x)} (err : A -> dag_error) l :
  match ofold (fun _ f => if decide (P f) then Done tt else Fail (err f)) l tt with
  | Done _ => forall f, f ∈ l -> P f
  | Fail er => exists f, f ∈ l /\ ~ P f /\ er = err f
  | _ => False
  end.
Proof.
  induction l as [|x l IH]; [set_solver|]. cbn [ofold]. destruct (decide (P x)) as [Hp|Hp]; cbn [obind].
  - destruct (ofold _ l tt); try done.
    + intros f Hf. apply elem_of_cons in Hf as [->|?]; auto.
    + destruct IH as (f&?&?&?). exists f. set_solver.
  - exists x. set_solver.
Qed.

Lemma check_dag_eq ord d cb : check_dag ord d cb =
  let? vn := (let? v := ofold visit_group (d_groups d) vars0 in
         let? v := ofold visit_provided (d_provided d).*1 v in
         let? num := visit (S (S (length (d_groups d)))) d (v_deps v) (v_num v) (v_rgroups v) (v_rfiles v) in
         Done (v, num)) in
  let? _ := unreachable_groups d vn.2 (v_files vn.1) (ord (d_groups d).*1) in
  let? _ := ofold (fun _ f => if decide (f ∈ v_files vn.1) then Done tt else Fail (MissingFile f)) (w_files cb) tt in
  ofold (fun _ e => if decide (e ∈ v_execs vn.1) then Done tt else Fail (MissingExecution e)) (w_executions cb) tt.
Proof.
  unfold check_dag. destruct (ofold visit_group (d_groups d) vars0) as [v| | |]; cbn [obind]; try done.
  destruct (ofold visit_provided (d_provided d).*1 v) as [v2| | |]; cbn [obind]; try done.
  destruct (visit _ _ _ _ _ _); cbn [obind]; done.
Qed.

Lemma check_dag_spec ord d cb :
  NoDup (d_groups d).*1 -> (forall l, ord l ≡ₚ l) ->
  match check_dag ord d cb with
  | Done _ => well_formed d /\ callbacks_ok d cb /\ exists order, order ≡ₚ (d_groups d).*1 /\ runnable d order
  | Fail _ => ~ (well_formed d /\ callbacks_ok d cb)
  | _ => False
  end.
Proof.
  intros Hk Hord. rewrite check_dag_eq. pose proof (phases_spec d Hk) as H1.
  match type of H1 with match ?x with _ => _ end => destruct x as [[v num]|er| |] end; cbn [obind fst snd]; try done.
  2:{ intros [Hw _]. apply H1. split; [by apply well_formed_groups_ok|]. by destruct Hw. }
  destruct H1 as (Hok&Hnd&Hf&He&(D&Hv)).
  pose proof (unreachable_spec d num D (v_files v) (ord (d_groups d).*1) Hk Hv Hf) as H2.
  assert (Hsub : forall g, g ∈ ord (d_groups d).*1 -> g ∈ (d_groups d).*1) by (intros g; by rewrite Hord).
  specialize (H2 Hsub).
  destruct (unreachable_groups d num (v_files v) (ord (d_groups d).*1)) as [[]|er| |]; cbn [obind]; try done.
  2:{ destruct H2 as (g&Hg&HgD&_). intros [Hw _]. apply HgD.
      apply (acyclic_all_visited d num D Hk Hv (wf_deps d Hw) (wf_acyclic d Hw)). by apply Hsub. }
  assert (Hall : forall g, g ∈ (d_groups d).*1 -> g ∈ D) by (intros g Hg; apply H2; by rewrite Hord).
  pose proof (watch_fold (fun f => f ∈ v_files v) MissingFile (w_files cb)) as H3.
  destruct (ofold _ (w_files cb) tt) as [[]| | |]; cbn [obind]; try done.
  2:{ destruct H3 as (f&Hfc&Hnf&_). intros [_ [Hc _]]. apply Hnf, Hf, Hc, Hfc. }
  pose proof (watch_fold (fun f => f ∈ v_execs v) MissingExecution (w_executions cb)) as H4.
  destruct (ofold _ (w_executions cb) tt) as [[]| | |]; cbn [obind]; try done.
  2:{ destruct H4 as (f&Hfc&Hnf&_). intros [_ [_ Hc]]. apply Hnf, He, Hc, Hfc. }
  destruct Hok as (Ho1&Ho2&Ho3&Ho4). split; [|split].
  - constructor; try done.
    + intros k g Hg. by apply (Ho1 k g).
    + intros k g Hg. by apply (Ho1 k g).
    + intros e Hin. by apply Ho4.
    + intros e Hin. by apply Ho4.
    + intros e f Hin Hfe. apply dag_execs_inv in Hin as (g&gr&Hg&Hin).
      assert (HgD : g ∈ D). { apply Hall. apply elem_of_list_fmap. by exists (g, gr). }
      rewrite (vd_in _ _ _ Hv g gr Hg) in HgD. destruct (HgD f) as [?|Ho].
      { apply elem_group_deps. eauto. }
      { by right. }
      left. apply outs_of_inv in Ho as (g'&gr'&e'&_&Hg'&He'&Hf'); [|done].
      apply (in_dag_outputs d g' gr'); [done|]. apply elem_group_outputs. eauto.
    + apply (runnable_acyclic d D Hk Hnd (vd_nodup _ _ _ Hv) Hall (vd_run _ _ _ Hv)).
  - split; [intros f Hfc; apply Hf; auto|intros e Hec; apply He; auto].
  - exists D. split; [|apply (vd_run _ _ _ Hv)]. apply NoDup_Permutation; [apply (vd_nodup _ _ _ Hv)|done|].
    intros g. split; [apply (vd_sub _ _ _ Hv)|auto].
Qed.
