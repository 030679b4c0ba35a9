(** * BuildProofs5: the evaluation of a solution *)
From Verif Require Import BuildModel BuildSpec CheckDagSpec BuildProofs BuildProofs2 BuildProofs3 BuildProofs4.

Section build.
Context (n0 : positive) (w : world) (c : build_config) (src_of : positive -> source) (gpath : positive -> string) (t : btask).
Local Notation src_ok := (src_ok n0 src_of gpath).
Local Notation exes_ok := (exes_ok n0 w c src_of gpath).
Local Notation later := (later n0 w c src_of gpath).
Local Notation K := (K n0 w c src_of gpath).
Local Notation keeps := (keeps n0 w gpath).
Local Notation check_src := (check_src n0 src_of gpath).
Local Notation type_src := (type_src n0 src_of gpath).
Ltac kp := repeat first
  [ apply keeps_ret | apply keeps_err | apply keeps_new_id | apply keeps_provide_key | apply keeps_provide_new | apply keeps_write
  | (apply keeps_role; reflexivity) | apply keeps_group | apply keeps_add_execution | apply keeps_stdout | apply keeps_stderr
  | apply keeps_capture_stdout | apply keeps_capture_stderr | apply keeps_output | apply keeps_exec_io | (apply keeps_bind; [|intros; cbn beta zeta])
  | match goal with |- keeps _ (match ?x with _ => _ end) => destruct x | |- keeps (match ?x with _ => _ end) => destruct x end ].

Lemma solution_limited l : limited t (bk_time t) l (solution_limits t l).
Proof.
  unfold limited, solution_limits. destruct l. destruct (bk_time t), (bk_memory t); cbn; split_and!; try done; f_equal; lia.
Qed.
Lemma manager_limited n l : limited t (option_map (fun tl => Z.of_nat n * (tl + 1000))%Z (bk_time t)) l (manager_limits t n l).
Proof.
  unfold limited, manager_limits. destruct l. destruct (bk_time t), (bk_memory t); cbn; split_and!; try done; f_equal; lia.
Qed.

Lemma bind_checker_ok ck st tc sol fi fc ft P R s : check_src ck -> exes_ok s -> Inv n0 P R s -> known s fi -> known s fc -> known s ft ->
  ok (bind_checker w c ck st tc sol fi fc ft s) (fun _ s' => K s [RChecker st tc sol] P R s' /\ checker_ok n0 w c s' ck st tc sol fi fc ft).
Proof.
  intros Hsrc Hall Hi Hfi Hfc Hft. unfold bind_checker. destruct ck as [|src]; cbn [BuildProofs4.check_src] in *.
  - apply (ok_keeps n0 w c src_of gpath _ s P R [RChecker st tc sol] (fun _ => P) R); [kp|done|].
    rewrite <- bind_assoc. eapply ok_bind; [apply ok_op with (1 := op_new_id n0 s [] P R); by apply I_start|].
    intros u s1 (_ & _ & H1). cbn beta. apply ok_ret_bind. apply I_exec with (cmd := System "diff") in H1.
    set (e := set_tag _ _ _).
    assert (Hk1 : forall f, known s f -> known s1 f) by (intros f; apply (known_ext n0), (I_ext _ _ _ _ _ _ H1)).
    assert (H2 : I n0 s [] (e :: P) R s1) by (by apply I_tag, I_add_input, I_add_input, I_args; [apply Hk1|apply Hk1|]).
    eapply ok_conseq; [apply (finish_ok n0 c [] P R s s1 e (RChecker st tc sol)); done|].
    intros [] s2 (H3 & Hr & _). split; [done|]. exists e. by split_and!.
  - rewrite <- bind_assoc.
    apply (execute_then n0 w c src_of gpath src _ _ P R s [RChecker st tc sol] (fun _ => P) R); [done|done|done| |].
    { intros e. kp. }
    intros u i s1 Hl1 Hi1 Hb. cbn zeta.
    set (e1 := set_tag _ _ _).
    assert (Hk1 : forall f, known s f -> known s1 f) by (intros f; by apply (l_known n0 w c src_of gpath)).
    assert (H1 : I n0 s1 [] (e1 :: P) R s1).
    { apply I_tag, I_add_input; [by apply Hk1|]. apply I_add_input; [by apply Hk1|]. apply I_add_input; [by apply Hk1|]. by apply I_start. }
    rewrite <- bind_assoc. eapply ok_bind; [exact (ok_op _ _ _ _ (op_capture_stdout n0 s1 [] P R _ 128) H1)|].
    intros e2 s2 ((f2 & -> & _) & H2). rewrite <- bind_assoc.
    eapply ok_bind; [exact (ok_op _ _ _ _ (op_capture_stderr n0 s1 [] P R _ stderr_length) H2)|].
    intros e3 s3 ((f3 & ->) & H3). apply ok_ret_bind. set (e3 := set_limits _ _).
    assert (H3' : I n0 s1 [] (e3 :: P) R s3) by (by apply I_limits).
    eapply ok_conseq; [apply (finish_ok n0 c [] P R s1 s3 e3 (RChecker st tc sol)); done|].
    intros [] s4 (H4 & Hr & _). split; [done|]. intros H14. exists e3.
    split; [done|]. split; [done|]. split; [done|]. split; [done|]. split.
    { split; [done|]. split; [done|]. split; [done|]. do 3 apply (boxed_add n0 w c src_of gpath). by apply (l_boxed n0 w c src_of gpath s1). }
    split_and!; try done; cbn; rewrite ?aget_ainsert; done.
Qed.

Lemma evaluate_batch_ok ck st tc sol fi val fc P R s : check_src ck -> src_ok sol -> exes_ok s -> Inv n0 P R s ->
  known s fi -> known s fc -> (forall fv, val = Some fv -> known s fv) ->
  ok (evaluate_batch w c t ck st tc sol fi val fc s) (fun _ s' => K s (evaluation_roles (TBatch ck) st tc sol) P R s' /\
    batch_ok n0 w c t s' ck st tc sol fi val fc).
Proof.
  intros Hck Hsrc Hall Hi Hfi Hfc Hval.
  set (r := REvaluation st tc (sf_path sol) 0 1).
  assert (E : evaluate_batch w c t ck st tc sol fi val fc s =
    bind (bind (execute w c sol []) (fun e =>
       bind (bind_exec_io t fi val (set_tag "evaluation" (eval_priority - Z.of_nat tc) e)) (fun fe =>
         bind (bind_role (set_limits (solution_limits t (e_limits (snd fe))) (snd fe)) r ;!
               add_execution c (set_limits (solution_limits t (e_limits (snd fe))) (snd fe))) (fun _ => ret (fst fe)))))
      (fun fo => bind_checker w c ck st tc (sf_path sol) fi fc fo) s).
  { unfold evaluate_batch, bind. destruct (execute w c sol [] s) as [[e s1]| |]; [|done|done]. cbn zeta.
    destruct (bind_exec_io t fi val _ s1) as [[fe s2]| |]; done. }
  rewrite E. clear E.
  eapply ok_bind.
  { apply (execute_then n0 w c src_of gpath sol [] _ P R s [r] (fun _ => P) R (fun fo s' => known s' fo /\
      exists e, has_role c s' r e /\ runs n0 w c s' sol [] (io_names t val) e /\
      e_stdin_redirect e = None /\ e_stdout_redirect e = None /\ e_env e = [] /\
      io_ok t fi val e fo /\ limited t (bk_time t) (sf_limits sol default_limits) (e_limits e))); [done|done|done| |].
    { intros e. kp. }
    intros u i s1 Hl1 Hi1 Hb.
    set (e1 := set_tag _ _ _).
    assert (Hk1 : forall f, known s f -> known s1 f) by (intros f; by apply (l_known n0 w c src_of gpath)).
    assert (H1 : I n0 s1 [] (e1 :: P) R s1) by (apply I_tag; by apply I_start).
    eapply ok_bind; [apply (exec_io_ok n0 w c src_of gpath t [] P R s1 s1 e1 fi val H1); try done; [by apply Hk1|]; intros fv Hv; by apply Hk1, Hval|].
    intros [f e2] s2 (H2 & Hio & Hfo & Hge & Hsm & Hbx). cbn [fst snd] in *.
    set (e3 := set_limits _ _).
    assert (H2' : I n0 s1 [] (e3 :: P) R s2) by (by apply I_limits).
    eapply ok_bind; [apply (finish_ok n0 c [] P R s1 s2 e3 r); done|].
    intros [] s4 (H4 & Hr & Hk4). apply ok_ret. split; [done|]. intros H14. split; [by apply Hk4|]. exists e3.
    destruct Hsm as (G1 & G2 & G3 & G4 & G5 & G6 & G7 & G8 & G9 & G10 & G11).
    split; [done|]. split.
    { split; [done|]. split; [done|]. split; [done|]. apply Hbx. by apply (l_boxed n0 w c src_of gpath s1). }
    split; [done|]. split; [done|]. split; [done|]. split; [done|]. cbn. rewrite G11. apply solution_limited. }
  intros fo s1 (H1 & Hfo & e & Hr & Hrun & F1 & F2 & F3 & Hio & Hlim).
  pose proof (K_later _ _ _ _ _ _ _ _ _ _ H1) as L1.
  assert (Hk1 : forall f, known s f -> known s1 f) by (intros f; by apply (l_known n0 w c src_of gpath)).
  eapply ok_conseq; [apply (bind_checker_ok ck st tc (sf_path sol) fi fc fo P R s1); try done; [by eapply l_exes_ok|by eapply K_inv|by apply Hk1|by apply Hk1]|].
  intros [] s2 (H2 & Hc). pose proof (K_later _ _ _ _ _ _ _ _ _ _ H2) as L2.
  split; [exact (K_trans _ _ _ _ _ _ _ _ _ _ _ _ _ _ H1 H2)|].
  exists e, fo. split; [by eapply l_role|]. split; [by eapply l_runs|]. done.
Qed.

(** ** Communication *)
Definition fifo_ids (l : list (nat * (fifo_uuid * fifo_uuid))) : list positive := l ≫= (fun p => [fst (snd p); snd (snd p)]).
Lemma new_fifos_ok i k P R s0 L s : I n0 s0 L P R s ->
  ok (new_fifos i k s) (fun l s' => I n0 s0 L P (fifo_ids l ++ R) s' /\ map fst l = seq i k).
Proof.
  revert i R s. induction k as [|k IH]; intros i R s H; cbn [new_fifos].
  - by apply ok_ret.
  - eapply ok_bind; [exact (ok_op _ _ _ _ (op_new_id n0 s0 L P R) H)|]. intros a s1 (_ & _ & H1). cbn beta.
    eapply ok_bind; [exact (ok_op _ _ _ _ (op_new_id n0 s0 L P (a :: R)) H1)|]. intros b s2 (_ & _ & H2). cbn beta.
    eapply ok_bind; [exact (IH (S i) _ _ H2)|]. intros l s3 (H3 & E3). apply ok_ret. split; [|cbn; by rewrite E3].
    eapply I_perm; [done| |exact H3]. cbn. fold (fifo_ids l).
    rewrite <- (Permutation_middle (fifo_ids l) (a :: R) b), <- (Permutation_middle (fifo_ids l) R a). by constructor.
Qed.
Lemma keeps_new_fifos i k : keeps (new_fifos i k).
Proof. revert i. induction k as [|k IH]; intros i; cbn [new_fifos]; [kp|]. kp. apply IH. Qed.
Lemma I_drops L P l R s0 s : I n0 s0 L P (l ++ R) s -> I n0 s0 L P R s.
Proof. induction l as [|x l IH]; [done|]. intros H. by apply IH, (I_drop _ _ _ _ x). Qed.
Lemma I_R_NoDup s0 L P l R s : I n0 s0 L P (l ++ R) s -> NoDup l.
Proof.
  intros [Hi _]. apply cnt_NoDup. intros x. pose proof (i_count _ _ _ _ Hi x) as H. unfold low in H. rewrite cnt_app in H. lia.
Qed.
Lemma K_perm s0 L P P' R s : P ≡ₚ P' -> K s0 L P R s -> K s0 L P' R s.
Proof. intros HP [H1 H2]. split; [|done]. by eapply Inv_perm. Qed.

Lemma l_roles_in s s' x : later s s' -> x ∈ b_roles s -> x ∈ b_roles s'.
Proof. intros H Hx. destruct (x_roles _ _ _ (l_ext _ _ _ _ _ _ _ H)) as [l ->]. set_solver. Qed.

Definition process_pre (s : bstate) (io : user_io) (st tc : nat) (sol : source) (n : nat) (p : nat * (fifo_uuid * fifo_uuid)) (e : execution) : Prop :=
  (e_uuid e, REvaluation st tc (sf_path sol) (fst p) n) ∈ b_roles s /\ process_runs n0 w c t s io sol n (fst p) (fst (snd p)) (snd (snd p)) e.
Lemma l_process_pre s s' io st tc sol n p e : src_ok sol -> later s s' -> process_pre s io st tc sol n p e -> process_pre s' io st tc sol n p e.
Proof. intros Hs H [H1 H2]. split; [by eapply l_roles_in|by eapply l_process]. Qed.

Lemma process_pre_ok io st tc sol n p P R s : src_ok sol -> exes_ok s -> Inv n0 P R s ->
  ok (process w c t io st tc sol n p s) (fun e s' => K s [REvaluation st tc (sf_path sol) (fst p) n] (e :: P) R s' /\ process_pre s' io st tc sol n p e).
Proof.
  intros Hsrc Hall Hi. destruct p as [i [m2s s2m]]. unfold process. cbn [fst snd].
  set (args := _ ++ _).
  apply (execute_then n0 w c src_of gpath sol args _ P R s [_] (fun e => e :: P) R); [done|done|done| |].
  { intros e. kp. }
  intros u ins s1 Hl1 Hi1 Hb. cbn zeta.
  set (e1 := match io with StdIo => _ | FifoIo => _ end).
  set (e2 := set_limits _ _).
  assert (H1 : I n0 s1 [] (e2 :: P) R s1).
  { apply I_limits, I_tag. unfold e1. destruct io; [apply I_redirects|]; by apply I_start. }
  eapply ok_bind; [exact (ok_op _ _ _ _ (op_role n0 s1 [] (e2 :: P) R e2 _ (elem_of_list_here _ _)) H1)|].
  intros [] s2 (Hin & H2). apply ok_ret. split; [done|]. intros H12. split; [done|].
  split.
  - assert (Hbx : boxed n0 w c s2 sol args [] ins) by (by apply (l_boxed n0 w c src_of gpath s1)).
    cbn zeta. unfold e2, e1. unfold args in *. destruct (decide (n <= 1)), (decide (1 < n)); try lia; destruct io; done.
  - unfold e2, e1. destruct io; split_and!; try done; apply solution_limited.
Qed.

Lemma processes_ok io st tc sol n l P R s : src_ok sol -> exes_ok s -> Inv n0 P R s ->
  ok (processes w c t io st tc sol n l s) (fun es s' => K s (map (fun p => REvaluation st tc (sf_path sol) (fst p) n) l) (es ++ P) R s' /\
    Forall2 (process_pre s' io st tc sol n) l es).
Proof.
  intros Hsrc. revert P s. induction l as [|p l IH]; intros P s Hall Hi; cbn [processes].
  - apply ok_ret. split; [by apply K_start|constructor].
  - eapply ok_bind; [by apply process_pre_ok|]. intros e s1 (H1 & Hp). pose proof (K_later _ _ _ _ _ _ _ _ _ _ H1) as L1.
    eapply ok_bind; [apply (IH (e :: P) s1); [by eapply l_exes_ok|by eapply K_inv]|]. intros es s2 (H2 & Hes).
    pose proof (K_later _ _ _ _ _ _ _ _ _ _ H2) as L2. apply ok_ret. split.
    + pose proof (K_trans _ _ _ _ _ _ _ _ _ _ _ _ _ _ H1 H2) as H3. eapply K_perm; [|exact H3].
      cbn. by rewrite (Permutation_middle es P e).
    + constructor; [by eapply l_process_pre|done].
Qed.

Lemma map_snd_bind {B} (l : list (nat * (fifo_uuid * fifo_uuid))) (f : fifo_uuid * fifo_uuid -> list B) :
  map snd l ≫= f = l ≫= (fun p => f (snd p)).
Proof. induction l as [|p l IH]; [done|]. cbn. by rewrite IH. Qed.

Lemma evaluate_communication_ok manager n io st tc sol fi val P R s : src_ok manager -> src_ok sol -> exes_ok s -> Inv n0 P R s ->
  known s fi -> (forall fv, val = Some fv -> known s fv) ->
  ok (evaluate_communication w c t manager n io st tc sol fi val s) (fun _ s' => K s (evaluation_roles (TCommunication manager n io) st tc sol) P R s' /\
    communication_ok n0 w c t s' manager n io st tc sol fi val).
Proof.
  intros Hman Hsrc Hall Hi Hfi Hval. unfold evaluate_communication. pose proof (i_n0 _ _ _ _ Hi) as Hn.
  eapply ok_bind; [eapply ok_both; [apply ok_op with (1 := op_new_id n0 s [] P R); by apply I_start|apply (keeps_new_id n0 w gpath)]|].
  intros g s1 ((_ & _ & H1) & Hk1). cbn beta.
  eapply ok_bind; [eapply ok_both; [exact (new_fifos_ok 0 n P (g :: R) s [] s1 H1)|apply keeps_new_fifos]|].
  intros l s2 ((H2 & El) & Hk2).
  pose proof (keep_later n0 w c src_of gpath s _ _ _ s2 Hn (keep_trans _ _ _ _ _ _ Hk1 Hk2) H2) as K2.
  pose proof (K_later _ _ _ _ _ _ _ _ _ _ K2) as L2.
  eapply ok_bind; [apply (processes_ok io st tc sol n l P (fifo_ids l ++ g :: R) s2); [done|by eapply l_exes_ok|by eapply K_inv]|].
  intros es s3 (K3 & Hes). pose proof (K_later _ _ _ _ _ _ _ _ _ _ K3) as L3. cbn beta.
  pose proof (K_trans _ _ _ _ _ _ _ _ _ _ _ _ _ _ K2 K3) as K03. cbn [app] in K03. pose proof (K_later _ _ _ _ _ _ _ _ _ _ K03) as L03.
  assert (Hlen : length l = n) by (rewrite <- (map_length fst), El; apply seq_length).
  assert (Hroles : map (fun p => REvaluation st tc (sf_path sol) (fst p) n) l = map (fun i => REvaluation st tc (sf_path sol) i n) (seq 0 n)).
  { by rewrite <- El, map_map. }
  rewrite Hroles in K03.
  eapply (ok_conseq _ (fun _ s' => K s3 [RChecker st tc (sf_path sol)] P R s' /\ communication_ok n0 w c t s' manager n io st tc sol fi val)).
  2: { intros [] s' (K4 & HQ). split; [|done]. exact (K_trans _ _ _ _ _ _ _ _ _ _ _ _ _ _ K03 K4). }
  rewrite <- (map_snd_bind l (fun p => [fifo_path (snd p); fifo_path (fst p)])).
  rewrite <- (map_snd_bind l (fun p => [fst p; snd p])).
  apply (execute_then n0 w c src_of gpath manager _ _ (es ++ P) (fifo_ids l ++ g :: R) s3 [RChecker st tc (sf_path sol)] (fun _ => P) R);
    [done|by eapply l_exes_ok|by eapply K_inv| |].
  { intros e. kp. }
  intros u ins s4 L34 Hi4 Hb.
  set (e1 := set_tag _ _ _).
  pose proof (later_trans _ _ _ _ _ _ _ _ L03 L34) as L04.
  assert (Hk4 : forall f, known s f -> known s4 f) by (intros f; by apply (l_known n0 w c src_of gpath)).
  assert (H4 : I n0 s4 [] (e1 :: es ++ P) (fifo_ids l ++ g :: R) s4) by (apply I_tag; by apply I_start).
  eapply ok_bind; [exact (ok_op _ _ _ _ (op_capture_stdout n0 s4 [] _ _ _ 128) H4)|].
  intros e5 s5 ((f5 & -> & _) & H5).
  eapply ok_bind; [exact (ok_op _ _ _ _ (op_capture_stderr n0 s4 [] _ _ _ 1024) H5)|].
  intros e6 s6 ((f6 & ->) & H6). set (e6 := set_captures _ (Some 1024%N) _) in *.
  assert (Hk6 : forall f, known s f -> known s6 f).
  { intros f Hf. apply (known_ext n0 s4); [by eapply I_ext|by apply Hk4]. }
  eapply ok_bind; [apply (exec_io_ok n0 w c src_of gpath t [] _ _ s4 s6 e6 fi val H6); try done; [by apply Hk6|]; intros fv Hv; by apply Hk6, Hval|].
  intros [fo e7] s7 (H7 & Hio & Hfo & _ & Hsm & Hbx). cbn [fst snd] in *. cbn zeta.
  set (e8 := set_limits _ _).
  assert (H7' : I n0 s4 [] (e8 :: es ++ P) (fifo_ids l ++ g :: R) s7) by (by apply I_limits).
  pose proof (I_R_NoDup _ _ _ _ _ _ H7') as Hnd. apply I_drops in H7'.
  assert (H7'' : I n0 s4 [] ((es ++ [e8]) ++ P) (g :: R) s7).
  { eapply I_perm; [|done|exact H7']. rewrite <- (assoc_L (++)). cbn. by rewrite <- Permutation_middle. }
  assert (Hm : e8 ∈ (es ++ [e8]) ++ P) by (rewrite !elem_of_app; left; right; by left).
  assert (Hne : es ++ [e8] <> []) by (by destruct es).
  eapply ok_bind; [exact (ok_op _ _ _ _ (op_role n0 s4 [] _ _ e8 (RChecker st tc (sf_path sol)) Hm) H7'')|].
  intros [] s8 (Hin8 & H8). cbn [comp_role app] in H8.
  rewrite (map_snd_bind l (fun p => [fst p; snd p])). change (l ≫= _) with (fifo_ids l).
  eapply ok_conseq; [eapply ok_both; [exact (ok_op _ _ _ _ (op_group n0 s4 _ P R c g (es ++ [e8]) (fifo_ids l) Hne Hnd) H8)|
    intros a s' E; instantiate (1 := fun _ s' => b_roles s' = b_roles s8); unfold add_group in E; by injection E as <- <-]|].
  intros [] s9 ((Hg9 & H9) & Er). split; [done|]. intros L49.
  exists g, (map snd l), es, e8. split; [by rewrite map_length|]. rewrite (map_snd_bind l (fun p => [fst p; snd p])).
  split; [exact Hg9|]. split; [exact Hnd|]. split; [by rewrite <- (Forall2_length _ _ _ Hes)|].
  pose proof (later_trans _ _ _ _ _ _ _ _ L34 L49) as L39.
  destruct Hsm as (G1 & G2 & G3 & G4 & G5 & G6 & G7 & G8 & G9 & G10 & G11).
  split.
  - intros i p e Hp He. rewrite list_lookup_fmap in Hp.
    destruct (l !! i) as [[j q]|] eqn:Eq; [|done]. cbn in Hp. injection Hp as <-.
    assert (j = i) as ->.
    { assert (map fst l !! i = Some j) as Ej by (rewrite list_lookup_fmap, Eq; done). rewrite El in Ej. apply lookup_seq in Ej as [-> _]. done. }
    destruct (Forall2_lookup_lr _ _ _ _ _ _ Hes Eq He) as [Hin Hrun]. cbn [fst snd] in *. split.
    + eapply group_has_role; [exact Hg9|apply elem_of_app; left; by eapply elem_of_list_lookup_2|]. by eapply l_roles_in.
    + by eapply l_process.
  - split; [eapply group_has_role; [exact Hg9|apply elem_of_app; right; by left|by rewrite Er]|]. split.
    { split; [done|]. split; [done|]. split; [done|]. apply Hbx. by apply (l_boxed n0 w c src_of gpath s4). }
    split; [done|]. split; [done|]. split; [done|]. split; [by exists fo|]. split; [done|]. split; [done|].
    rewrite map_length, Hlen. cbn. rewrite G11. apply manager_limited.
Qed.

Lemma evaluate_ok st tc fi val fc sol P R s : type_src (bk_type t) -> src_ok sol -> exes_ok s -> Inv n0 P R s ->
  known s fi -> known s fc -> (forall fv, val = Some fv -> known s fv) ->
  ok (evaluate w c t st tc fi val fc sol s) (fun _ s' => K s (evaluation_roles (bk_type t) st tc sol) P R s' /\
    evaluation_ok n0 w c t s' st tc fi val fc sol).
Proof.
  intros Ht Hsrc Hall Hi Hfi Hfc Hval. unfold evaluate, evaluation_ok. destruct (bk_type t) as [ck|m n io|]; cbn in Ht.
  - by apply evaluate_batch_ok.
  - by apply evaluate_communication_ok.
  - apply ok_ret. split; [by apply K_start|done].
Qed.
End build.
