(** * BuildProofs6: the whole task *)
From Verif Require Import BuildModel BuildSpec CheckDagSpec BuildProofs BuildProofs2 BuildProofs3 BuildProofs4 BuildProofs5.

Section build.
Context (n0 : positive) (w : world) (c : build_config) (src_of : positive -> source) (gpath : positive -> string) (t : btask) (sols : list source).
Local Notation src_ok := (src_ok n0 src_of gpath).
Local Notation exes_ok := (exes_ok n0 w c src_of gpath).
Local Notation later := (later n0 w c src_of gpath).
Local Notation K := (K n0 w c src_of gpath).

Definition sources_ok : Prop :=
  type_src n0 src_of gpath (bk_type t) /\ (forall sol, sol ∈ sols -> src_ok sol) /\
  (forall sub, sub ∈ bk_subtasks t -> val_src n0 src_of gpath (bs_validator sub)) /\
  (forall tc b, bk_testcases t !! tc = Some b -> gen_src n0 src_of gpath (bt_input b) /\ out_src n0 src_of gpath (bt_output b)).
Definition testcases_ok : Prop :=
  (forall sub tc, sub ∈ bk_subtasks t -> tc ∈ bs_owned sub -> is_Some (bk_testcases t !! tc)) /\
  (forall sub tc, sub ∈ bk_subtasks t -> tc ∈ bs_testcases sub -> tc ∈ bs_owned sub \/ exists sub', sub' ∈ bk_subtasks t /\ tc ∈ bs_owned sub').

Lemma mforeach_ok {A} (f : A -> M unit) (l : list A) (rs : A -> list role) (Pre : bstate -> Prop) (Q : A -> bstate -> Prop) P R s :
  (forall s s', later s s' -> Pre s -> Pre s') -> (forall a s s', a ∈ l -> later s s' -> Q a s -> Q a s') ->
  (forall a s, a ∈ l -> Inv n0 P R s -> Pre s -> ok (f a s) (fun _ s' => K s (rs a) P R s' /\ Q a s')) ->
  Inv n0 P R s -> Pre s -> ok (mforeach f l s) (fun _ s' => K s (l ≫= rs) P R s' /\ forall a, a ∈ l -> Q a s').
Proof.
  intros HPre. revert s. induction l as [|a l IH]; intros s HQ Hf Hi Hp; cbn [mforeach].
  - apply ok_ret. split; [by apply K_start|]. by intros a ?%elem_of_nil.
  - eapply ok_bind; [apply Hf; [by left|done|done]|]. intros [] s1 (H1 & HQ1). pose proof (K_later _ _ _ _ _ _ _ _ _ _ H1) as L1.
    eapply ok_conseq; [apply (IH s1)|].
    + intros a' x x' Ha'. apply HQ. by right.
    + intros a' x Ha'. apply Hf. by right.
    + by eapply K_inv.
    + by eapply HPre.
    + intros [] s2 (H2 & HQ2). split; [exact (K_trans _ _ _ _ _ _ _ _ _ _ _ _ _ _ H1 H2)|].
      intros a' [->|Ha']%elem_of_cons; [|by apply HQ2]. eapply HQ; [by left| |done]. by eapply K_later.
Qed.

(** a testcase as [testcase_ok] wants it *)
Definition tc_done (s : bstate) (sub : bsubtask) (tc : nat) (fi : file_uuid) : Prop :=
  known s fi /\ exists b val fc, known s fc /\ (fi < b_next s)%positive /\ (fc < b_next s)%positive /\ bk_testcases t !! tc = Some b /\
      input_ok n0 w c t s (bt_input b) (bs_id sub) tc fi /\
      validation_ok n0 w c s (bs_validator sub) (bs_id sub) (bs_name sub) tc fi val /\
      output_ok n0 w c t s (bt_output b) (bs_id sub) tc fi val fc /\
      forall sol, sol ∈ sols -> evaluation_ok n0 w c t s (bs_id sub) tc fi val fc sol.
Lemma tc_done_ok s sub tc fi : tc_done s sub tc fi -> testcase_ok n0 w c t s sols sub tc fi.
Proof. intros (_ & b & val & fc & _ & _ & _ & H). by exists b, val, fc. Qed.
Lemma l_tc_done s s' sub tc fi : sources_ok -> sub ∈ bk_subtasks t -> later s s' -> tc_done s sub tc fi -> tc_done s' sub tc fi.
Proof.
  intros (S1 & S2 & S3 & S4) Hsub H (Hk & b & val & fc & Hk' & Hfi & Hfc & Hb & H1 & H2 & H3 & H4).
  pose proof (x_next _ _ _ (l_ext _ _ _ _ _ _ _ H)). destruct (S4 tc b Hb) as [S5 S6].
  split; [by eapply l_known|]. exists b, val, fc. split; [by eapply l_known|]. split; [lia|]. split; [lia|]. split; [done|].
  split; [by eapply l_input|]. split; [eapply l_validation; [by apply S3|done|done]|]. split; [by eapply l_output|].
  intros sol Hsol. eapply l_evaluation; [done|by apply S2|done|by apply H4].
Qed.

Definition acc_ok (acc : gmap nat file_uuid) (s : bstate) : Prop :=
  forall tc fi, acc !! tc = Some fi -> exists sub, sub ∈ bk_subtasks t /\ tc ∈ bs_owned sub /\ tc_done s sub tc fi.
Lemma l_acc acc s s' : sources_ok -> later s s' -> acc_ok acc s -> acc_ok acc s'.
Proof. intros HS H Ha tc fi Hf. destruct (Ha tc fi Hf) as (sub & H1 & H2 & H3). exists sub. split; [done|]. split; [done|]. by eapply l_tc_done. Qed.

Lemma build_testcase_ok sub acc tc s : sources_ok -> testcases_ok -> sub ∈ bk_subtasks t -> tc ∈ bs_owned sub ->
  exes_ok s -> Inv n0 [] [] s -> acc_ok acc s ->
  ok (build_testcase w c t sols sub acc tc s) (fun acc' s' => K s (testcase_roles t sols sub tc) [] [] s' /\
    acc_ok acc' s' /\ (exists fi, acc' = <[tc := fi]> acc) /\ exists fi, tc_done s' sub tc fi).
Proof.
  intros HS [HT _] Hsub Htc Hall Hi Hacc. unfold build_testcase, testcase_roles. destruct (HT sub tc Hsub Htc) as [b Eb]. rewrite Eb.
  destruct HS as (S1 & S2 & S3 & S4). destruct (S4 tc b Eb) as [S5 S6]. pose proof (S3 sub Hsub) as S7.
  assert (HS : sources_ok) by done.
  eapply ok_bind; [by apply (bind_input_ok n0 w c src_of gpath)|]. intros fi s1 (K1 & Hin & Kfi).
  pose proof (K_later _ _ _ _ _ _ _ _ _ _ K1) as L1. pose proof (K_inv _ _ _ _ _ _ _ _ _ _ K1) as I1.
  eapply ok_bind; [apply (bind_validation_ok n0 w c src_of gpath); [done|exact (l_exes_ok _ _ _ _ _ _ _ L1 Hall)|done|done]|]. intros val s2 (K2 & Hval & Kval).
  pose proof (K_later _ _ _ _ _ _ _ _ _ _ K2) as L2. pose proof (K_inv _ _ _ _ _ _ _ _ _ _ K2) as I2. pose proof (later_trans _ _ _ _ _ _ _ _ L1 L2) as L02.
  assert (Kfi2 : known s2 fi) by (exact (l_known _ _ _ _ _ _ _ _ L2 Kfi)).
  eapply ok_bind; [apply (bind_output_ok n0 w c src_of gpath); [done|exact (l_exes_ok _ _ _ _ _ _ _ L02 Hall)|done|done|done]|]. intros fc s3 (K3 & Hout & Kfc).
  pose proof (K_later _ _ _ _ _ _ _ _ _ _ K3) as L3. pose proof (K_inv _ _ _ _ _ _ _ _ _ _ K3) as I3. pose proof (later_trans _ _ _ _ _ _ _ _ L02 L3) as L03.
  assert (Kfi3 : known s3 fi) by (exact (l_known _ _ _ _ _ _ _ _ L3 Kfi2)).
  eapply ok_bind.
  { apply (mforeach_ok _ sols (evaluation_roles (bk_type t) (bs_id sub) tc) (fun s => exes_ok s /\ known s fi /\ known s fc /\ forall fv, val = Some fv -> known s fv)
      (fun sol s => evaluation_ok n0 w c t s (bs_id sub) tc fi val fc sol)).
    - intros x x' Lx (P1 & P2 & P3 & P4). split; [by eapply l_exes_ok|]. split; [by eapply l_known|]. split; [by eapply l_known|].
      intros fv Hv. eapply l_known; [done|by apply P4].
    - intros sol x x' Hsol Lx. apply (l_evaluation n0 w c src_of gpath); [done|by apply S2|done].
    - intros sol x Hsol Ix (P1 & P2 & P3 & P4). apply (evaluate_ok n0 w c src_of gpath); try done. by apply S2.
    - exact I3.
    - split; [exact (l_exes_ok _ _ _ _ _ _ _ L03 Hall)|]. split; [done|]. split; [done|]. intros fv Hv. exact (l_known _ _ _ _ _ _ _ _ L3 (Kval fv Hv)). }
  intros [] s4 (K4 & Hev). apply ok_ret. pose proof (K_later _ _ _ _ _ _ _ _ _ _ K4) as L4. pose proof (K_inv _ _ _ _ _ _ _ _ _ _ K4) as I4.
  pose proof (later_trans _ _ _ _ _ _ _ _ L03 L4) as L04.
  assert (Hdone : tc_done s4 sub tc fi).
  { assert (Kfi4 : known s4 fi) by (exact (l_known _ _ _ _ _ _ _ _ L4 Kfi3)). split; [done|]. exists b, val, fc. assert (Kfc4 : known s4 fc) by (exact (l_known _ _ _ _ _ _ _ _ L4 Kfc)).
    pose proof (later_trans _ _ _ _ _ _ _ _ L3 L4) as L24. pose proof (later_trans _ _ _ _ _ _ _ _ L2 L24) as L14.
    split; [done|]. split; [by eapply Inv_known_lt|]. split; [by eapply Inv_known_lt|]. split; [done|].
    split; [apply (l_input n0 w c src_of gpath t s1); [done|by eapply (Inv_known_lt _ _ _ s1)|done|done]|]. split; [by apply (l_validation n0 w c src_of gpath s2)|].
    split; [apply (l_output n0 w c src_of gpath t s3); [done|by eapply (Inv_known_lt _ _ _ s3)|done|done]|done]. }
  split; [|split; [|split; [by eexists|by exists fi]]].
  - pose proof (K_trans _ _ _ _ _ _ _ _ _ _ _ _ _ _ K1 (K_trans _ _ _ _ _ _ _ _ _ _ _ _ _ _ K2 (K_trans _ _ _ _ _ _ _ _ _ _ _ _ _ _ K3 K4))) as KK.
    exact KK.
  - intros tc' fi'. rewrite lookup_insert_Some. intros [[<- <-]|[_ Hf]]; [by exists sub|]. by apply (l_acc acc s).
Qed.

Lemma build_subtask_ok sub l acc s : sources_ok -> testcases_ok -> sub ∈ bk_subtasks t -> (forall tc, tc ∈ l -> tc ∈ bs_owned sub) ->
  exes_ok s -> Inv n0 [] [] s -> acc_ok acc s ->
  ok (mfold (build_testcase w c t sols sub) l acc s) (fun acc' s' => K s (l ≫= testcase_roles t sols sub) [] [] s' /\
    acc_ok acc' s' /\ (forall tc, is_Some (acc !! tc) \/ tc ∈ l -> is_Some (acc' !! tc)) /\ forall tc, tc ∈ l -> exists fi, tc_done s' sub tc fi).
Proof.
  intros HS HT Hsub. revert acc s. induction l as [|tc l IH]; intros acc s Hl Hall Hi Hacc; cbn [mfold].
  - apply ok_ret. split; [by apply K_start|]. split; [done|]. split; [intros tc [?|?%elem_of_nil]; done|]. by intros tc ?%elem_of_nil.
  - eapply ok_bind; [apply build_testcase_ok; try done; apply Hl; by left|]. intros acc1 s1 (K1 & Ha1 & (fi & ->) & fi1 & Hd1).
    pose proof (K_later _ _ _ _ _ _ _ _ _ _ K1) as L1.
    eapply ok_conseq; [apply (IH _ s1); [intros tc' Htc'; apply Hl; by right|exact (l_exes_ok _ _ _ _ _ _ _ L1 Hall)|by eapply K_inv|done]|].
    intros acc2 s2 (K2 & Ha2 & Hm2 & Hd2). pose proof (K_later _ _ _ _ _ _ _ _ _ _ K2) as L2.
    split; [exact (K_trans _ _ _ _ _ _ _ _ _ _ _ _ _ _ K1 K2)|]. split; [done|]. split.
    + intros tc' Htc'. apply Hm2. rewrite elem_of_cons in Htc'. destruct (decide (tc' = tc)) as [->|E]; [left; rewrite lookup_insert; by eexists|].
      rewrite lookup_insert_ne by done. naive_solver.
    + intros tc' [->|Htc']%elem_of_cons; [|by apply Hd2]. exists fi1. by apply (l_tc_done s1).
Qed.

Lemma build_subtasks_ok l acc s : sources_ok -> testcases_ok -> (forall sub, sub ∈ l -> sub ∈ bk_subtasks t) ->
  exes_ok s -> Inv n0 [] [] s -> acc_ok acc s ->
  ok (mfold (build_subtask w c t sols) l acc s) (fun acc' s' => K s (l ≫= fun sub => bs_owned sub ≫= testcase_roles t sols sub) [] [] s' /\
    acc_ok acc' s' /\ (forall tc, is_Some (acc !! tc) \/ (exists sub, sub ∈ l /\ tc ∈ bs_owned sub) -> is_Some (acc' !! tc)) /\
    forall sub tc, sub ∈ l -> tc ∈ bs_owned sub -> exists fi, tc_done s' sub tc fi).
Proof.
  intros HS HT. revert acc s. induction l as [|sub l IH]; intros acc s Hl Hall Hi Hacc; cbn [mfold].
  - apply ok_ret. split; [by apply K_start|]. split; [done|]. split; [intros tc [?|(sub & ?%elem_of_nil & _)]; done|]. by intros sub tc ?%elem_of_nil.
  - eapply ok_bind; [apply (build_subtask_ok sub (bs_owned sub) acc s); try done; apply Hl; by left|]. intros acc1 s1 (K1 & Ha1 & Hm1 & Hd1).
    pose proof (K_later _ _ _ _ _ _ _ _ _ _ K1) as L1.
    eapply ok_conseq; [apply (IH _ s1); [intros tc' Htc'; apply Hl; by right|exact (l_exes_ok _ _ _ _ _ _ _ L1 Hall)|by eapply K_inv|done]|].
    intros acc2 s2 (K2 & Ha2 & Hm2 & Hd2). pose proof (K_later _ _ _ _ _ _ _ _ _ _ K2) as L2.
    split; [exact (K_trans _ _ _ _ _ _ _ _ _ _ _ _ _ _ K1 K2)|]. split; [done|]. split.
    + intros tc [Htc|(sub' & Hsub' & Htc)].
      * apply Hm2. left. apply Hm1. by left.
      * apply elem_of_cons in Hsub' as [->|Hsub']; [|apply Hm2; right; by exists sub']. apply Hm2. left. apply Hm1. by right.
    + intros sub' tc [->|Hsub']%elem_of_cons Htc; [|by apply Hd2]. destruct (Hd1 tc Htc) as [fi Hf]. exists fi. apply (l_tc_done s1); try done. apply Hl. by left.
Qed.

Definition other_done (s : bstate) (sub : bsubtask) (tc : nat) : Prop :=
  tc ∉ bs_owned sub -> exists owner fi val, owner ∈ bk_subtasks t /\ tc ∈ bs_owned owner /\ tc_done s owner tc fi /\
    validation_ok n0 w c s (bs_validator sub) (bs_id sub) (bs_name sub) tc fi val.
Lemma l_other_done s s' sub tc : sources_ok -> sub ∈ bk_subtasks t -> later s s' -> other_done s sub tc -> other_done s' sub tc.
Proof.
  intros HS Hsub H Ho Hn. destruct (Ho Hn) as (owner & fi & val & H1 & H2 & H3 & H4). exists owner, fi, val. split; [done|]. split; [done|].
  split; [by apply (l_tc_done s)|]. apply (l_validation n0 w c src_of gpath s); [by apply HS|done|done].
Qed.
Definition other_roles (sub : bsubtask) (tc : nat) : list role :=
  if decide (tc ∈ bs_owned sub) then [] else validation_roles (bs_validator sub) (bs_id sub) tc.
Lemma validate_other_ok acc sub tc s : sources_ok -> testcases_ok -> sub ∈ bk_subtasks t -> tc ∈ bs_testcases sub ->
  (forall sub' tc', sub' ∈ bk_subtasks t -> tc' ∈ bs_owned sub' -> is_Some (acc !! tc')) ->
  exes_ok s -> Inv n0 [] [] s -> acc_ok acc s ->
  ok (validate_other w c t acc sub tc s) (fun _ s' => K s (other_roles sub tc) [] [] s' /\ other_done s' sub tc).
Proof.
  intros HS [HT1 HT2] Hsub Htc Hsome Hall Hi Hacc. unfold validate_other, other_roles, other_done. destruct (decide (tc ∈ bs_owned sub)) as [|Hn].
  { apply ok_ret. split; [by apply K_start|done]. }
  destruct (HT2 sub tc Hsub Htc) as [?|(owner & Ho1 & Ho2)]; [done|].
  destruct (HT1 owner tc Ho1 Ho2) as [b ->]. destruct (Hsome owner tc Ho1 Ho2) as [fi Ef]. rewrite Ef.
  destruct (Hacc tc fi Ef) as (own & Hw1 & Hw2 & Hd).
  eapply ok_bind; [apply (bind_validation_ok n0 w c src_of gpath); [by apply HS|done|done|apply Hd]|]. intros val s1 (K1 & Hv & _). apply ok_ret.
  split; [done|]. intros _. exists own, fi, val. split; [done|]. split; [done|]. split; [|done]. eapply (l_tc_done s); try done. by eapply K_later.
Qed.

Lemma other_roles_filter sub l : l ≫= other_roles sub = filter (fun tc => tc ∉ bs_owned sub) l ≫= validation_roles (bs_validator sub) (bs_id sub).
Proof.
  induction l as [|tc l IH]; [done|]. change ((tc :: l) ≫= other_roles sub) with (other_roles sub tc ++ (l ≫= other_roles sub)). rewrite IH. unfold other_roles. rewrite filter_cons.
  destruct (decide (tc ∈ bs_owned sub)), (decide (tc ∉ bs_owned sub)); try done; by exfalso.
Qed.
Lemma bind_ext_list {A B} (f g : A -> list B) l : (forall a, f a = g a) -> l ≫= f = l ≫= g.
Proof. intros H. induction l as [|a l IH]; [done|]. cbn. by rewrite H, IH. Qed.

Lemma Inv_start : Inv n0 [] [] (bstate0 n0).
Proof.
  assert (Hz : forall x, low (bstate0 n0) [] [] x = 0) by (intros x; unfold low; cbn; by rewrite cnt_nil).
  split; cbn; try done; try lia.
  - intros x. rewrite Hz, cnt_nil. lia.
  - intros x. rewrite Hz, cnt_nil. lia.
  - intros x. rewrite Hz. lia.
  - by intros k g ?%elem_of_nil.
  - intros pre k g post e f E. by destruct pre.
  - by intros e ?%elem_of_nil.
  - by intros e f ?%elem_of_nil.
  - by intros f ?%elem_of_nil.
  - by intros f ?%elem_of_nil.
Qed.

Lemma build_ok : sources_ok -> testcases_ok ->
  ok (build_dag w c t sols (bstate0 n0)) (fun _ s => K (bstate0 n0) (task_roles t sols) [] [] s /\ exes_ok s /\
    (forall sub tc, sub ∈ bk_subtasks t -> tc ∈ bs_owned sub -> exists fi, tc_done s sub tc fi) /\
    (forall sub tc, sub ∈ bk_subtasks t -> tc ∈ bs_testcases sub -> other_done s sub tc)).
Proof.
  intros HS HT. unfold build_dag.
  assert (Hall0 : exes_ok (bstate0 n0)) by (by intros i f ?).
  eapply ok_bind with (Mid := fun _ s => K (bstate0 n0) [] [] [] s).
  { unfold prepare_task. destruct HS as [S1 _]. destruct (bk_type t) as [[|src]|m n io|]; cbn in S1; try (apply ok_ret; apply K_start, Inv_start).
    - eapply ok_conseq; [by apply (prepare_ok n0 w c src_of gpath src [] []); [| |apply Inv_start]|]. by intros [] s [H _].
    - eapply ok_conseq; [by apply (prepare_ok n0 w c src_of gpath m [] []); [| |apply Inv_start]|]. by intros [] s [H _]. }
  intros [] s1 K1. pose proof (K_later _ _ _ _ _ _ _ _ _ _ K1) as L1.
  eapply ok_bind; [apply (build_subtasks_ok (bk_subtasks t) ∅ s1); try done; [exact (l_exes_ok _ _ _ _ _ _ _ L1 Hall0)|by eapply K_inv]|].
  intros acc s2 (K2 & Ha2 & Hm2 & Hd2). pose proof (K_later _ _ _ _ _ _ _ _ _ _ K2) as L2. pose proof (later_trans _ _ _ _ _ _ _ _ L1 L2) as L02.
  eapply ok_conseq.
  { apply (mforeach_ok _ (bk_subtasks t) (fun sub => bs_testcases sub ≫= other_roles sub) (fun s => exes_ok s /\ acc_ok acc s)
      (fun sub s => forall tc, tc ∈ bs_testcases sub -> other_done s sub tc) [] [] s2).
    - intros x x' Lx [P1 P2]. split; [exact (l_exes_ok _ _ _ _ _ _ _ Lx P1)|by apply (l_acc acc x)].
    - intros sub x x' Hsub Lx Hx tc Htc. apply (l_other_done x); try done. by apply Hx.
    - intros sub x Hsub Ix [P1 P2].
      apply (mforeach_ok _ (bs_testcases sub) (other_roles sub) (fun s => exes_ok s /\ acc_ok acc s) (fun tc s => other_done s sub tc) [] [] x); try done.
      + intros y y' Ly [Q1 Q2]. split; [exact (l_exes_ok _ _ _ _ _ _ _ Ly Q1)|by apply (l_acc acc y)].
      + intros tc y y' Htc Ly. by apply l_other_done.
      + intros tc y Htc Iy [Q1 Q2]. apply validate_other_ok; try done. intros sub' tc' Hs' Ht'. apply Hm2. right. by exists sub'.
    - by eapply K_inv.
    - split; [exact (l_exes_ok _ _ _ _ _ _ _ L02 Hall0)|done]. }
  intros [] s3 (K3 & Hd3). pose proof (K_later _ _ _ _ _ _ _ _ _ _ K3) as L3. pose proof (later_trans _ _ _ _ _ _ _ _ L02 L3) as L03.
  split; [|split; [|split]].
  - pose proof (K_trans _ _ _ _ _ _ _ _ _ _ _ _ _ _ K1 (K_trans _ _ _ _ _ _ _ _ _ _ _ _ _ _ K2 K3)) as KK.
    unfold task_roles. rewrite <- (bind_ext_list (fun sub => bs_testcases sub ≫= other_roles sub)
      (fun sub => filter (fun tc => tc ∉ bs_owned sub) (bs_testcases sub) ≫= validation_roles (bs_validator sub) (bs_id sub))); [exact KK|].
    intros sub. by rewrite other_roles_filter.
  - exact (l_exes_ok _ _ _ _ _ _ _ L03 Hall0).
  - intros sub tc Hsub Htc. destruct (Hd2 sub tc Hsub Htc) as [fi Hf]. exists fi. by apply (l_tc_done s2).
  - intros sub tc Hsub Htc. by apply Hd3.
Qed.
End build.
