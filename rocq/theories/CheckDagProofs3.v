(** Every error reported by check_dag describes an actual defect. *)
From Verif Require Import CheckDagProofs CheckDagProofs2 CheckDagSpec.
From stdpp Require Import relations.
Local Arguments visit_exec : simpl never.

Lemma twice_in {A} (x : A) L l : x ∈ L -> x ∈ l -> twice x (L ++ l).
Proof.
  intros (a&b&->)%elem_of_list_split (c&e&->)%elem_of_list_split. exists a, (b ++ c), e.
  by rewrite <- !app_assoc.
Qed.
Lemma twice_mono {A} (x : A) l1 l2 l3 : twice x l2 -> twice x (l1 ++ l2 ++ l3).
Proof. intros (a&b&c&->). exists (l1 ++ a), b, (c ++ l3). by rewrite <- !app_assoc; simpl; rewrite <- !app_assoc. Qed.
Lemma twice_r {A} (x : A) l2 l3 : twice x l2 -> twice x (l2 ++ l3).
Proof. apply (twice_mono x [] l2 l3). Qed.

Lemma insert_fold_err (err : positive -> dag_error) l L er :
  ofold (fun (s : gset positive) f =>
      if decide (f ∈ s) then Fail (err f) else Done ({[f]} ∪ s)) l (list_to_set L) = Fail er ->
  exists f, er = err f /\ twice f (L ++ l).
Proof.
  revert L; induction l as [|f l IH]; intros L; cbn [ofold]; [done|].
  destruct (decide (f ∈ list_to_set (C:=gset positive) L)) as [Hf|Hf]; cbn [obind].
  - intros [= <-]. exists f. split; [done|]. apply twice_in; set_solver.
  - replace ({[f]} ∪ list_to_set L : gset positive) with (list_to_set (L ++ [f]) : gset positive)
      by (apply leibniz_equiv; set_solver).
    intros Hx. apply IH in Hx as (f'&->&Ht). exists f'. split; [done|]. by rewrite <- app_assoc in Ht.
Qed.

(** [EL], [FL]: the executions and files already known. *)
Definition execs_err (EL FL : list positive) (es : list execution) (er : dag_error) : Prop :=
  match er with
  | DuplicateExecutionUUID u => twice u (EL ++ map e_uuid es)
  | DuplicateFileUUID f => twice f (FL ++ (es ≫= outputs))
  | InvalidCapture true u => exists e, e ∈ es /\ e_uuid e = u /\ is_Some (e_capture_stdout e) /\ e_stdout e = None
  | InvalidCapture false u => exists e, e ∈ es /\ e_uuid e = u /\ is_Some (e_capture_stderr e) /\ e_stderr e = None
  | _ => False
  end.

Lemma visit_execs_err gid es v c EL FL er :
  v_execs v = list_to_set EL -> NoDup EL -> v_files v = list_to_set FL -> NoDup FL ->
  ofold (visit_exec gid) es (v, c) = Fail er -> execs_err EL FL es er.
Proof.
  revert v c EL FL. induction es as [|e es IH]; intros v c EL FL HE HEn HF HFn; cbn [ofold]; [done|].
  remember (ofold (visit_exec gid) es) as rest eqn:Hrest. unfold visit_exec at 1.
  destruct (decide (e_uuid e ∈ v_execs v)) as [Hin|Hnin]; cbn [obind].
  { intros [= <-]. simpl. apply twice_in; [|set_solver]. rewrite HE, elem_of_list_to_set in Hin. done. }
  destruct (isS (e_capture_stdout e) && negb (isS (e_stdout e))) eqn:E1; cbn [obind].
  { intros [= <-]. apply andb_prop in E1 as [E1 E1']. apply isS_is_Some in E1. rewrite negb_true_iff, isS_false in E1'.
    exists e. split; [by left|done]. }
  destruct (isS (e_capture_stderr e) && negb (isS (e_stderr e))) eqn:E2; cbn [obind].
  { intros [= <-]. apply andb_prop in E2 as [E2 E2']. apply isS_is_Some in E2. rewrite negb_true_iff, isS_false in E2'.
    exists e. split; [by left|done]. }
  unfold insert_files. rewrite HF.
  pose proof (insert_fold DuplicateFileUUID (outputs e) FL HFn) as Hins.
  pose proof (insert_fold_err DuplicateFileUUID (outputs e) FL) as Hie.
  destruct (ofold _ (outputs e) (list_to_set FL)) as [s|er'| |]; cbn [obind]; try done.
  - destruct Hins as [-> HFn']. intros Hx.
    assert (HEn' : NoDup (EL ++ [e_uuid e])).
    { apply NoDup_app; split; [done|]. split; [|apply NoDup_singleton].
      intros x Hxx. rewrite HE in Hnin. set_solver. }
    eapply (IH _ _ (EL ++ [e_uuid e]) (FL ++ outputs e)) in Hx; simpl; try done.
    + clear -Hx. destruct er as [|[]| | | | | |]; simpl in Hx |- *; try exact Hx.
      * destruct Hx as (e'&?&?). exists e'. split; [by right|done].
      * destruct Hx as (e'&?&?). exists e'. split; [by right|done].
      * by rewrite <- app_assoc in Hx.
      * by rewrite <- app_assoc in Hx.
    + rewrite HE. apply leibniz_equiv. set_solver.
  - intros [= <-]. destruct (Hie er' eq_refl) as (f&->&Ht). simpl. rewrite app_assoc. by apply twice_r.
Qed.

Definition groups_err (gs : list (group_uuid * group)) (er : dag_error) : Prop :=
  match er with
  | EmptyGroup g => exists gr, (g, gr) ∈ gs /\ g_execs gr = []
  | DuplicateFifoUUID f => exists g gr, (g, gr) ∈ gs /\ twice f (g_fifo gr)
  | _ => execs_err [] [] (gs.*2 ≫= g_execs) er
  end.

Lemma execs_err_mono es1 es2 er : execs_err [] [] es1 er -> execs_err [] [] (es1 ++ es2) er.
Proof.
  destruct er as [|[]| | | | | |]; simpl; try done; try (intros (e'&?&?); exists e'; split; [by apply elem_of_app; left|done]).
  - rewrite bind_app. by apply twice_r.
  - rewrite map_app. by apply twice_r.
Qed.

Lemma groups_err_mono gs kg er : groups_err gs er -> groups_err (gs ++ [kg]) er.
Proof.
  destruct er; simpl; try done; try (intros H; rewrite fmap_app, bind_app; by apply (execs_err_mono _ _ (InvalidCapture _ _)) ||
    by apply (execs_err_mono _ _ (DuplicateFileUUID _)) || by apply (execs_err_mono _ _ (DuplicateExecutionUUID _))).
  - intros (g'&gr&?&?). exists g', gr. set_solver.
  - intros (gr&?&?). exists gr. set_solver.
Qed.

Lemma visit_groups_err gs er : NoDup gs.*1 ->
  ofold visit_group gs vars0 = Fail er -> groups_err gs er.
Proof.
  induction gs as [|[k g] gs IH] using rev_ind; intros Hnd; [done|].
  rewrite fmap_app in Hnd. apply NoDup_app in Hnd as (Hnd&_&_). specialize (IH Hnd).
  pose proof (visit_groups_spec gs Hnd) as Hsp.
  rewrite ofold_app. destruct (ofold visit_group gs vars0) as [v|er'| |]; cbn [obind]; try done.
  2:{ intros [= ->]. apply groups_err_mono. auto. }
  destruct Hsp as [(Ho1&Ho2&Ho3&Ho4) Hinv]. cbn [ofold]. unfold visit_group.
  destruct (g_execs g) as [|e0 es0] eqn:Ees; cbn [obind].
  { intros [= <-]. exists g. set_solver. }
  pose proof (check_fifos_spec (g_fifo g)) as Hff.
  pose proof (insert_fold_err DuplicateFifoUUID (g_fifo g) []) as Hfe. unfold check_fifos in *.
  simpl list_to_set in Hfe.
  destruct (ofold _ (g_fifo g) ∅) as [s|erf| |] eqn:Eff; cbn [obind]; try done.
  2:{ intros [= <-]. destruct (Hfe erf eq_refl) as (f&->&Ht). exists k, g. set_solver. }
  pose proof (visit_execs_spec k (e0 :: es0) v 0 _ _ (i1_execs _ _ Hinv) Ho2 (i1_files _ _ Hinv) Ho3) as Hve.
  pose proof (fun er => visit_execs_err k (e0 :: es0) v 0 _ _ er (i1_execs _ _ Hinv) Ho2 (i1_files _ _ Hinv) Ho3) as Hverr.
  destruct (ofold (visit_exec k) (e0 :: es0) (v, 0)) as [[v' c']|er'| |]; cbn [obind]; try done.
  intros [= <-].
  specialize (Hverr er' eq_refl).
  destruct er' as [|[]| | | | | |]; try done; unfold groups_err, execs_err in *;
    rewrite fmap_app, bind_app; simpl; rewrite Ees, ?app_nil_r;
    try (destruct Hverr as (e9&?&?); exists e9; split; [by apply elem_of_app; right|done]).
  - rewrite bind_app. exact Hverr.
  - rewrite map_app. exact Hverr.
Qed.

Lemma visit_provided_err l v L er :
  v_files v = list_to_set L -> ofold visit_provided l v = Fail er ->
  exists f, er = DuplicateFileUUID f /\ twice f (L ++ l).
Proof.
  revert v L; induction l as [|f l IH]; intros v L HL; cbn [ofold]; [done|].
  unfold visit_provided at 1. destruct (decide (f ∈ v_files v)) as [Hin|Hin]; cbn [obind].
  - intros [= <-]. exists f. split; [done|]. apply twice_in; [|set_solver]. by rewrite HL, elem_of_list_to_set in Hin.
  - intros Hx. apply (IH _ (L ++ [f])) in Hx; [|simpl; rewrite HL; apply leibniz_equiv; set_solver].
    by rewrite <- app_assoc in Hx.
Qed.

Lemma check_dag_err ord d cb er :
  NoDup (d_groups d).*1 -> (forall l, ord l ≡ₚ l) ->
  check_dag ord d cb = Fail er -> error_is_real d cb er.
Proof.
  intros Hk Hord. rewrite check_dag_eq. pose proof (phases_spec d Hk) as H1.
  pose proof (visit_groups_spec (d_groups d) Hk) as Hs. pose proof (visit_groups_err (d_groups d)) as He1.
  destruct (ofold visit_group (d_groups d) vars0) as [v|er1| |]; cbn [obind] in *; try done.
  2:{ intros [= ->]. specialize (He1 er Hk eq_refl). destruct er as [|[]| | | | | |]; simpl in He1 |- *; try done.
      by apply twice_r. }
  destruct Hs as [Hok Hi].
  pose proof (visit_provided_err (d_provided d).*1 v (dag_outputs d)) as He2.
  pose proof (visit_provided_spec (d_provided d).*1 v (dag_outputs d) (i1_files _ _ Hi)) as H2.
  destruct (ofold visit_provided (d_provided d).*1 v) as [v2|er2| |]; cbn [obind] in *; try done.
  2:{ intros [= ->]. destruct (He2 er (i1_files _ _ Hi) eq_refl) as (f&->&Ht). done. }
  destruct H2 as [Hnd _]; [by destruct Hok as (_&_&?&_)|].
  destruct (visit _ _ _ _ _ _) as [num|er3| |]; cbn [obind fst snd] in *; try done.
  2:{ intros _. exfalso. apply H1. done. }
  destruct H1 as (_&_&Hf&He&(D&Hv)).
  pose proof (unreachable_spec d num D (v_files v2) (ord (d_groups d).*1) Hk Hv Hf) as H3.
  assert (Hsub : forall g, g ∈ ord (d_groups d).*1 -> g ∈ (d_groups d).*1) by (intros g; by rewrite Hord).
  specialize (H3 Hsub).
  destruct (unreachable_groups d num (v_files v2) (ord (d_groups d).*1)) as [[]|er4| |]; cbn [obind]; try done.
  2:{ intros [= ->]. destruct H3 as (g&_&_&Hr). apply Hr. }
  pose proof (watch_fold (fun f => f ∈ v_files v2) MissingFile (w_files cb)) as H4.
  destruct (ofold _ (w_files cb) tt) as [[]| | |]; cbn [obind]; try done.
  2:{ intros [= ->]. destruct H4 as (f&Hfc&Hnf&->). split; [by rewrite <- Hf|by right]. }
  pose proof (watch_fold (fun f => f ∈ v_execs v2) MissingExecution (w_executions cb)) as H5.
  destruct (ofold _ (w_executions cb) tt) as [[]| | |]; cbn [obind]; try done.
  intros [= ->]. destruct H5 as (u&Hu&Hnu&->). split; [done|]. by rewrite <- He.
Qed.
