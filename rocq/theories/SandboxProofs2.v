(** * SandboxProofs2: the mounts, the files *)
From Coq Require Import Lia ZArith.
From Verif Require Import SandboxSpec.
Open Scope Z_scope.

Lemma mount_dirs_spec m dirs mounted :
  (forall mt, mt ∈ (mount_dirs m dirs mounted).1 <-> exists d, mt = Mount d d false /\ d ∈ dirs /\ m_is_dir m d = true /\ d ∉ mounted) /\
  NoDup (mount_dirs m dirs mounted).1 /\
  (forall d, d ∈ (mount_dirs m dirs mounted).2 <-> d ∈ mounted \/ (d ∈ dirs /\ m_is_dir m d = true)).
Proof.
  revert mounted. induction dirs as [|d dirs IH]; intros mounted; cbn [mount_dirs].
  - split; [|split; [constructor|]].
    + intros mt. split; [intros H; by apply elem_of_nil in H|]. intros (d & _ & H & _). by apply elem_of_nil in H.
    + intros d. cbn [snd]. split; [auto|]. intros [H|[H _]]; [done|]. by apply elem_of_nil in H.
  - destruct (negb (bool_decide (d ∈ mounted)) && m_is_dir m d) eqn:Hb.
    + apply andb_true_iff in Hb as [Hb1 Hb2]. apply negb_true_iff, bool_decide_eq_false in Hb1.
      destruct (IH (d :: mounted)) as (I1 & I2 & I3). cbn [fst snd]. split; [|split].
      * intros mt. rewrite elem_of_cons, I1. split.
        -- intros [-> | (x & -> & Hx & Hd & Hn)]; [exists d; split_and!; [done|left|done|done]|].
           exists x. split_and!; [done|by right|done|set_solver].
        -- intros (x & -> & Hx & Hd & Hn). destruct (decide (x = d)) as [->|Hne]; [by left|]. right. exists x.
           split_and!; [done|set_solver|done|set_solver].
      * constructor; [|done]. rewrite I1. intros (x & Hx & _ & _ & Hn). injection Hx as ->. set_solver.
      * intros x. rewrite I3. rewrite !elem_of_cons. split; [intros [[->|H]|[H1 H2]]|intros [H|[[->|H1] H2]]]; auto.
    + destruct (IH mounted) as (I1 & I2 & I3). apply andb_false_iff in Hb. rewrite negb_false_iff, bool_decide_eq_true in Hb.
      split; [|split; [done|]].
      * intros mt. rewrite I1. split.
        -- intros (x & -> & Hx & Hd & Hn). exists x. split_and!; [done|by right|done|done].
        -- intros (x & -> & Hx & Hd & Hn). exists x. split_and!; [done| |done|done]. apply elem_of_cons in Hx as [->|Hx]; [|done].
           destruct Hb as [Hb|Hb]; [done|congruence].
      * intros x. rewrite I3. rewrite !elem_of_cons. split; [intros [H|[H1 H2]]|intros [H|[[->|H1] H2]]]; auto.
        destruct Hb as [Hb|Hb]; [by left|congruence].
Qed.

(** What a configuration is *)
Lemma build_inv m boxdir e fifo c : build_command m boxdir e fifo = Some c ->
  exists x, executable m boxdir e (mount_dirs m (sl_extra_dirs (se_limits e)) (mount_dirs m readable_dirs []).2).2 = Some x /\
  c_mounts c = Mount (pjoin boxdir (rel ["box"%string])) box_root true :: Mount (pjoin boxdir (rel ["etc"%string])) (absolute ["etc"%string]) true ::
     match fifo with Some d => [Mount d (pjoin box_root fifo_sandbox_dir) false] | None => [] end ++
     (mount_dirs m readable_dirs []).1 ++ (mount_dirs m (sl_extra_dirs (se_limits e)) (mount_dirs m readable_dirs []).2).1 ++ x.1 /\
  c_executable c = x.2.
Proof.
  unfold build_command. destruct (mount_dirs m readable_dirs []) as [m1 d1]. cbn [fst snd].
  destruct (mount_dirs m (sl_extra_dirs (se_limits e)) d1) as [m2 d2]. cbn [fst snd].
  destruct (executable m boxdir e d2) as [x|] eqn:Hx; cbn [mbind option_bind]; [|done]. intros [= <-]. cbn. by exists x.
Qed.

Lemma executable_mounts m boxdir e mounted x : executable m boxdir e mounted = Some x ->
  (forall mt, mt ∈ x.1 <-> exists cmd found, se_command e = SSystem cmd /\ m_which m cmd = Some found /\ mt = Mount (m_parent m found) (m_parent m found) false /\ m_parent m found ∉ mounted) /\
  NoDup x.1.
Proof.
  unfold executable. destruct (se_command e) as [cmd|cmd].
  - intros H. apply bind_Some in H as (found & Hf & H). injection H as <-. cbn [fst]. case_bool_decide as Hd.
    + split; [|constructor]. intros mt. split; [by intros ?%elem_of_nil|]. intros (cmd' & f' & [= <-] & Hf' & -> & Hn). rewrite Hf in Hf'. by injection Hf' as <-.
    + split; [|apply NoDup_singleton]. intros mt. rewrite elem_of_list_singleton. split; [intros ->; by exists cmd, found|].
      intros (cmd' & f' & [= <-] & Hf' & -> & Hn). rewrite Hf in Hf'. by injection Hf' as <-.
  - destruct (m_local_ok _ _); [|done]. intros [= <-]. split; [|constructor]. intros mt. split; [by intros ?%elem_of_nil|by intros (? & ? & ? & _)].
Qed.

(** Paths *)
Lemma pjoin_rel p l : pjoin p (rel l) = SPath (sp_abs p) (sp_comps p ++ l).
Proof. done. Qed.
Lemma below_join d p : plain p -> below d (pjoin d p).
Proof. intros (Ha & Hn & Hd). exists (sp_comps p). unfold pjoin. by rewrite Ha. Qed.
Lemma below_name d n : n <> ".."%string -> below d (pjoin d (rel [n])).
Proof. intros H. apply below_join. split_and!; [done|done|]. cbn. set_solver. Qed.
Lemma below_trans d n p : n <> ".."%string -> plain p -> below d (pjoin (pjoin d (rel [n])) p).
Proof.
  intros H (Ha & Hn & Hd). exists (n :: sp_comps p). split_and!; [|done|set_solver]. unfold pjoin. rewrite Ha. cbn. by rewrite <- app_assoc.
Qed.
Lemma pjoin_inj d p q : sp_abs p = false -> sp_abs q = false -> pjoin d p = pjoin d q -> p = q.
Proof.
  intros Hp Hq. unfold pjoin. rewrite Hp, Hq. intros [= H]. destruct p, q; cbn in *. apply app_inv_head in H. by subst.
Qed.

(** The operations of [setup] *)
Definition input_op (box : spath) (keys : gmap positive positive) (i : spath * (positive * bool)) : option disk_op :=
  k ← keys !! i.2.1; Some (write_file (pjoin box i.1) k i.2.2).
Lemma setup_inv boxdir e keys ops : setup boxdir e keys = Some ops ->
  exists stdin inputs,
    match se_stdin e with
    | None => stdin = []
    | Some f => exists k, keys !! f = Some k /\ stdin = [FileAt (pjoin boxdir (rel ["stdin"%string])) k 256]
    end /\
    Forall2 (fun i o => exists k, keys !! i.2.1 = Some k /\ o = write_file (pjoin (pjoin boxdir (rel ["box"%string])) i.1) k i.2.2) (se_inputs e) inputs /\
    ops = [DirAt (pjoin boxdir (rel ["box"%string])); DirAt (pjoin boxdir (rel ["etc"%string])); PasswdAt (pjoin (pjoin boxdir (rel ["etc"%string])) (rel ["passwd"%string]))] ++
        stdin ++
        match se_stdout e with Some _ => [EmptyAt (pjoin boxdir (rel ["stdout"%string])) 384] | None => [] end ++
        match se_stderr e with Some _ => [EmptyAt (pjoin boxdir (rel ["stderr"%string])) 384] | None => [] end ++
        inputs ++
        map (fun p => EmptyAt (pjoin (pjoin boxdir (rel ["box"%string])) p) 384) (se_outputs e) ++
        (if sl_read_only (se_limits e) then [ModeOf (pjoin boxdir (rel ["box"%string])) 320] else []).
Proof.
  unfold setup. intros H. apply bind_Some in H as (stdin & H1 & H). apply bind_Some in H as (inputs & H2 & H). injection H as <-.
  exists stdin, inputs. split; [|split; [|done]].
  - destruct (se_stdin e) as [f|]; [|by injection H1]. apply bind_Some in H1 as (k & Hk & Hs). injection Hs as <-. by exists k.
  - apply mapM_Some_1 in H2. eapply Forall2_impl; [exact H2|]. cbn. intros i o Ho. apply bind_Some in Ho as (k & Hk & Ho). injection Ho as <-. by exists k.
Qed.
