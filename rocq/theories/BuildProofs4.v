(** * BuildProofs4: the executions of a testcase *)
From Verif Require Import BuildModel BuildSpec CheckDagSpec BuildProofs BuildProofs2 BuildProofs3.

Section build.
Context (n0 : positive) (w : world) (c : build_config) (src_of : positive -> source) (gpath : positive -> string) (t : btask).
Local Notation src_ok := (src_ok n0 src_of gpath).
Local Notation exes_ok := (exes_ok n0 w c src_of gpath).
Local Notation later := (later n0 w c src_of gpath).
Local Notation K := (K n0 w c src_of gpath).
Local Notation keeps := (keeps n0 w gpath).

(** ** What was established stays *)
Lemma l_runs s s' src args extra e : src_ok src -> later s s' -> runs n0 w c s src args extra e -> runs n0 w c s' src args extra e.
Proof. intros Hs H (H1 & H2 & H3 & H4). split; [done|]. split; [done|]. split; [done|]. by eapply l_boxed. Qed.
Lemma l_copied s s' f p : later s s' -> (f < b_next s)%positive -> copied_to c t s f p -> copied_to c t s' f p.
Proof. intros H Hf H1 Hd Hp. by eapply l_written; [done|done|apply H1]. Qed.

Definition gen_src (g : input_generator) : Prop := match g with IStatic _ => True | ICustom src _ => src_ok src end.
Definition val_src (v : input_validator) : Prop := match v with VAssume => True | VCustom src _ => src_ok src end.
Definition out_src (g : output_generator) : Prop := match g with OCustom src _ => src_ok src | _ => True end.
Definition check_src (ck : checker) : Prop := match ck with CWhiteDiff => True | CCustom src => src_ok src end.
Definition type_src (ty : task_type) : Prop := match ty with TBatch ck => check_src ck | TCommunication m _ _ => src_ok m | TNone => True end.

Lemma l_input s s' g st tc fi : gen_src g -> (fi < b_next s)%positive -> later s s' ->
  input_ok n0 w c t s g st tc fi -> input_ok n0 w c t s' g st tc fi.
Proof.
  intros Hs Hf H [H1 H2]. split; [by eapply l_copied|]. destruct g as [p|src args]; [by eapply l_holds|].
  destruct H2 as (e & Ha & Hb & Hc). exists e. split; [by eapply l_role|]. split; [by eapply l_runs|done].
Qed.
Lemma l_validation s s' v st name tc fi val : val_src v -> later s s' ->
  validation_ok n0 w c s v st name tc fi val -> validation_ok n0 w c s' v st name tc fi val.
Proof.
  intros Hs H H2. destruct v as [|src args]; [done|]. destruct H2 as (e & fv & Hv & Ha & Hb & Hc). exists e, fv.
  split; [done|]. split; [by eapply l_role|]. split; [by eapply l_runs|done].
Qed.
Lemma l_output s s' g st tc fi val fo : out_src g -> (fo < b_next s)%positive -> later s s' ->
  output_ok n0 w c t s g st tc fi val fo -> output_ok n0 w c t s' g st tc fi val fo.
Proof.
  intros Hs Hf H [H1 H2]. split; [by eapply l_copied|]. destruct g as [|p|src args].
  - destruct H2 as [Ha Hb]. split; [|done]. rewrite <- Ha. by apply (x_provided _ _ _ (l_ext _ _ _ _ _ _ _ H)).
  - by eapply l_holds.
  - destruct H2 as (e & Ha & Hb & Hc). exists e. split; [by eapply l_role|]. split; [by eapply l_runs|done].
Qed.
Lemma l_checker s s' ck st tc sol fi fc ft : check_src ck -> later s s' ->
  checker_ok n0 w c s ck st tc sol fi fc ft -> checker_ok n0 w c s' ck st tc sol fi fc ft.
Proof.
  intros Hs H (e & H1 & H2 & H3 & H4 & H5). exists e. split; [by eapply l_role|]. split; [done|]. split; [done|]. split; [done|].
  destruct ck as [|src]; [done|]. destruct H5 as [Ha Hb]. split; [by eapply l_runs|done].
Qed.
Lemma l_process s s' io sol n i a b e : src_ok sol -> later s s' -> process_runs n0 w c t s io sol n i a b e -> process_runs n0 w c t s' io sol n i a b e.
Proof.
  intros Hs H (G2 & G3). split; [|done]. cbn zeta in *. destruct io; destruct G2 as (G4 & G5); (split; [by eapply l_runs|done]).
Qed.
Lemma l_evaluation s s' st tc fi val fc sol : type_src (bk_type t) -> src_ok sol -> later s s' ->
  evaluation_ok n0 w c t s st tc fi val fc sol -> evaluation_ok n0 w c t s' st tc fi val fc sol.
Proof.
  unfold evaluation_ok. intros Ht Hs H. destruct (bk_type t) as [ck|m n io|]; [| |done]; intros H1.
  - destruct H1 as (e & fo & Ha & Hb & Hc & Hd & He & Hf & Hg & Hh). exists e, fo. split; [by eapply l_role|].
    split; [by eapply l_runs|]. split; [done|]. split; [done|]. split; [done|]. split; [done|]. split; [done|]. by eapply l_checker.
  - destruct H1 as (k & fifos & es & m' & Ha & Hb & Hc & Hd & He & Hf). exists k, fifos, es, m'. split; [done|].
    split; [destruct (x_groups _ _ _ (l_ext _ _ _ _ _ _ _ H)) as [l ->]; set_solver|]. split; [done|]. split; [done|]. split.
    + intros i p e Hi Hp. destruct (He i p e Hi Hp) as (G1 & G2). split; [by eapply l_role|by eapply l_process].
    + destruct Hf as (G1 & G2 & G3). split; [by eapply l_role|]. split; [by eapply l_runs|done].
Qed.

Ltac kp := repeat first
  [ apply keeps_ret | apply keeps_err | apply keeps_new_id | apply keeps_provide_key | apply keeps_provide_new | apply keeps_write
  | (apply keeps_role; reflexivity) | apply keeps_group | apply keeps_add_execution | apply keeps_stdout | apply keeps_stderr
  | apply keeps_capture_stdout | apply keeps_capture_stderr | apply keeps_output | (apply keeps_bind; [|intros; cbn beta zeta])
  | match goal with |- keeps _ (match ?x with _ => _ end) => destruct x | |- keeps (match ?x with _ => _ end) => destruct x end ].

(** executing a source file, then code that prepares nothing *)
Lemma execute_then {A} src args (k : execution -> M A) P R s L (PA : A -> list execution) RA (Q : A -> bstate -> Prop) : src_ok src -> exes_ok s -> Inv n0 P R s ->
  (forall e, keeps (k e)) ->
  (forall u i s1, later s s1 -> Inv n0 (exec_of u src args i :: P) R s1 -> boxed n0 w c s1 src args [] i ->
     ok (k (exec_of u src args i) s1) (fun a s' => I n0 s1 L (PA a) RA s' /\ (later s1 s' -> Q a s'))) ->
  ok (bind (execute w c src args) k s) (fun a s' => K s L (PA a) RA s' /\ Q a s').
Proof.
  intros Hsrc Hall Hi Hk H. eapply ok_bind; [by apply execute_ok|]. intros e s1 (H1 & u & i & -> & Hb).
  eapply (ok_conseq _ (fun a s' => K s1 L (PA a) RA s' /\ (later s1 s' -> Q a s'))).
  - apply (ok_keeps n0 w c src_of gpath _ s1 (exec_of u src args i :: P) R L PA RA); [by apply Hk|by eapply K_inv|].
    apply H; [by eapply K_later|by eapply K_inv|done].
  - intros a s' (H2 & H3). split; [|by apply H3, (K_later _ _ _ _ _ _ _ _ _ _ H2)]. exact (K_trans _ _ _ _ _ _ _ _ _ _ _ _ _ _ H1 H2).
Qed.

Lemma ok_ret_bind {A B} (a : A) (f : A -> M B) s Q : ok (f a s) Q -> ok (bind (ret a) f s) Q.
Proof. done. Qed.
Lemma I_outs_known s0 L P R s e f : I n0 s0 L (e :: P) R s -> f ∈ outputs e -> f ∈ (e :: P) ≫= outputs.
Proof. intros _ H. apply (outs_in e); [by left|done]. Qed.
(** an execution is bound to its message and added to the DAG *)
Lemma finish_ok L P R s0 s e r : comp_role r = false -> I n0 s0 L (e :: P) R s ->
  ok ((bind_role e r ;! add_execution c e) s) (fun _ s' => I n0 s0 (L ++ [r]) P R s' /\ has_role c s' r e /\ (forall f, f ∈ outputs e -> known s' f)).
Proof.
  intros Hr H. eapply ok_bind; [exact (ok_op _ _ _ _ (op_role n0 s0 L (e :: P) R e r (elem_of_list_here _ _)) H)|].
  intros [] s1 (Hin & H1). rewrite Hr in H1.
  eapply ok_conseq; [apply ok_both with (1 := ok_op _ _ _ _ (op_add_execution n0 s0 (L ++ [r]) P R c e) H1) (Q' := fun _ s' => b_roles s' = b_roles s1)|].
  - intros [] s'. unfold add_execution, bind, add_group. cbn. by intros [= <-].
  - intros [] s2 (((g & Hg) & H2) & Er). split; [done|]. split.
    + eapply group_has_role; [done|by left|]. by rewrite Er.
    + intros f Hf. left. eapply group_douts; [done|by left|done].
Qed.
Lemma join_rel b a : b <> "" -> starts_with_slash a = false -> path_join b a = b +:+ "/" +:+ a.
Proof. intros Hb Ha. unfold path_join. by rewrite Ha, bool_decide_false. Qed.
Lemma app_str_assoc a b d : (a +:+ b) +:+ d = a +:+ b +:+ d.
Proof. induction a as [|x a IH]; [done|]. change (String x ((a +:+ b) +:+ d) = String x (a +:+ b +:+ d)). by rewrite IH. Qed.
Lemma app_str_ne a x b : a +:+ String x b <> "".
Proof. by destruct a. Qed.
Lemma input_name tc : bk_path t <> "" -> input_file_name (bk_path t) tc = bk_path t +:+ "/input/input" +:+ pretty tc +:+ ".txt".
Proof.
  intros Hp. unfold input_file_name. rewrite (join_rel (bk_path t) "input") by done. rewrite join_rel; [|apply app_str_ne|done].
  by rewrite !app_str_assoc.
Qed.
Lemma output_name tc : bk_path t <> "" -> output_file_name (bk_path t) tc = bk_path t +:+ "/output/output" +:+ pretty tc +:+ ".txt".
Proof.
  intros Hp. unfold output_file_name. rewrite (join_rel (bk_path t) "output") by done. rewrite join_rel; [|apply app_str_ne|done].
  by rewrite !app_str_assoc.
Qed.

Lemma copied_intro s f p p' : (bk_path t <> "" -> p' = p) -> (cfg_dry_run (bc_dag c) = false -> aget f (b_written s) = Some (p', false)) -> copied_to c t s f p.
Proof. intros Hp H Hd Hne. by rewrite H, Hp. Qed.

Lemma bind_input_ok g st tc P R s : gen_src g -> exes_ok s -> Inv n0 P R s ->
  ok (bind_input w c t g st tc s) (fun fi s' => K s (input_roles g st tc) P R s' /\ (input_ok n0 w c t s' g st tc fi /\ known s' fi)).
Proof.
  intros Hsrc Hall Hi. unfold bind_input, generate_input. destruct g as [p|src args]; cbn [gen_src input_roles] in *.
  - destruct (w_exists w p); [|done].
    apply (ok_keeps n0 w c src_of gpath _ s P R [] (fun _ => P) R); [kp|done|].
    eapply ok_bind with (Mid := fun fe s' => snd fe = None /\ I n0 s [] P R s' /\ holds n0 w s' (fst fe) p /\ (b_next s <= fst fe)%positive).
    { eapply ok_bind; [by apply new_provided|]. intros f s1 (H1 & H2 & H3). by apply ok_ret. }
    intros [f o] s1 (-> & H1 & H2 & H3). cbn [fst snd] in *.
    eapply ok_bind; [apply (write_ok n0 s [] P R c f _ false s1 H3 H1); left; by eapply holds_known|].
    intros [] s2 (H4 & Hsame & Hw & _). apply ok_ret. cbn. split; [done|]. split.
    + split; [|by eapply same_holds]. eapply copied_intro; [apply input_name|done].
    + eapply holds_known. by eapply same_holds.
  - rewrite <- bind_assoc. apply (execute_then src args _ P R s [RGeneration st tc] (fun _ => P) R); [done|done|done| |].
    { intros e. kp. }
    intros u i s1 _ Hi1 Hb. cbn zeta. rewrite <- bind_assoc.
    set (e1 := set_tag _ _ _).
    assert (H1 : I n0 s1 [] (e1 :: P) R s1) by (apply I_tag, I_limits; by apply I_start).
    eapply ok_bind; [exact (ok_op _ _ _ _ (op_stdout n0 s1 [] P R e1) H1)|].
    intros [f e2] s2 (Ho & -> & Hge & H2). cbn [fst snd] in *. apply ok_ret_bind. cbn [fst snd].
    specialize (Hge eq_refl).
    eapply ok_bind; [apply (write_ok n0 s1 [] _ R c f _ false s2 Hge H2); right; apply (outs_in (set_out f e1)); [by left|by apply stdout_in]|].
    intros [] s3 (H3 & _ & Hw & _).
    assert (Hf3 : (f < b_next s3)%positive).
    { apply (Inv_P_lt _ _ _ _ _ (I_inv _ _ _ _ _ _ H3)). apply (outs_in (set_out f e1)); [by left|by apply stdout_in]. }
    pose proof (I_start _ _ _ _ (I_inv _ _ _ _ _ _ H3)) as H33.
    eapply ok_bind; [exact (ok_op _ _ _ _ (op_capture_stderr n0 s3 [] P R _ stderr_length) H33)|].
    intros e4 s4 ((f4 & ->) & H4). set (e4 := set_captures _ _ _) in *. cbn beta. rewrite bind_assoc.
    eapply ok_bind; [apply (finish_ok [] P R s3 s4 e4 (RGeneration st tc)); done|].
    intros [] s5 (H5 & Hr & Hk). apply ok_ret. cbn [app] in H5.
    split; [exact (I_trans _ _ _ _ _ _ _ _ _ _ H3 H5)|]. intros H15. split.
    + split; [eapply copied_intro; [apply input_name|]; intros Hd; rewrite (x_written _ _ _ (I_ext _ _ _ _ _ _ H5)) by done; by apply Hw|].
      exists e4. split; [done|]. split; [|done]. split; [done|]. split; [done|]. split; [done|]. by apply (l_boxed n0 w c src_of gpath s1).
    + apply Hk. by apply stdout_in.
Qed.

Lemma bind_validation_ok v st name tc fi P R s : val_src v -> exes_ok s -> Inv n0 P R s -> known s fi ->
  ok (bind_validation w c v st name tc fi s) (fun val s' => K s (validation_roles v st tc) P R s' /\
    (validation_ok n0 w c s' v st name tc fi val /\ forall fv, val = Some fv -> known s' fv)).
Proof.
  intros Hsrc Hall Hi Hfi. unfold bind_validation. destruct v as [|src args]; cbn [val_src validation_roles] in *.
  - apply ok_ret. split; [by apply K_start|]. split; [done|]. by intros fv.
  - apply (execute_then src args _ P R s [RValidation st tc] (fun _ => P) R); [done|done|done| |].
    { intros e. kp. }
    intros u i s1 Hl1 Hi1 Hb. cbn zeta.
    set (e1 := add_env "TM_TESTCASE" _ _).
    set (e2 := match name with Some n => add_env "TM_SUBTASK_NAME" n e1 | None => e1 end).
    assert (H1 : I n0 s1 [] (e1 :: P) R s1).
    { apply I_env, I_env, I_tag, I_add_input; [by apply (l_known n0 w c src_of gpath s)|]. by apply I_start. }
    assert (H2 : I n0 s1 [] (set_limits (allow_multiprocess (e_limits e2)) e2 :: P) R s1).
    { apply I_limits. unfold e2. destruct name; [by apply I_env|done]. }
    assert (E2 : exists v, e2 = set_env v (e_copy_env e1) e1 /\ aget "TM_SUBTASK" v = Some (pretty st) /\ aget "TM_TESTCASE" v = Some (pretty tc) /\
      aget "TM_SUBTASK_NAME" v = name).
    { unfold e2. destruct name as [n|]; eexists; (split; [done|]); done. }
    destruct E2 as (v & -> & Ev1 & Ev2 & Ev3).
    eapply ok_bind; [exact (ok_op _ _ _ _ (op_stdout n0 s1 [] P R _) H2)|].
    intros [f e3] s2 (Ho & -> & Hge & H3). cbn [fst snd] in *.
    eapply ok_bind; [exact (ok_op _ _ _ _ (op_capture_stderr n0 s1 [] P R _ stderr_length) H3)|].
    intros e4 s4 ((f4 & ->) & H4). set (e4 := set_captures _ _ _) in *. cbn beta. rewrite bind_assoc.
    eapply ok_bind; [apply (finish_ok [] P R s1 s4 e4 (RValidation st tc)); done|].
    intros [] s5 (H5 & Hr & Hk). apply ok_ret. cbn [app] in H5.
    split; [done|]. intros H15. split.
    + exists e4, f. split; [done|]. split; [done|]. split.
      { split; [done|]. split; [done|]. split; [done|]. apply (boxed_add n0 w c src_of gpath). by apply (l_boxed n0 w c src_of gpath s1). }
      split_and!; try done. cbn. by rewrite aget_ainsert, decide_True.
    + intros fv [= <-]. apply Hk. by apply stdout_in.
Qed.

(** the fields that [bind_exec_io!] does not change *)
Definition io_same (e e' : execution) : Prop :=
  e_uuid e' = e_uuid e /\ e_command e' = e_command e /\ e_args e' = e_args e /\ e_stderr e' = e_stderr e /\
  e_capture_stdout e' = e_capture_stdout e /\ e_capture_stderr e' = e_capture_stderr e /\
  e_stdin_redirect e' = e_stdin_redirect e /\ e_stdout_redirect e' = e_stdout_redirect e /\
  e_env e' = e_env e /\ e_copy_env e' = e_copy_env e /\ e_limits e' = e_limits e.
Lemma exec_io_ok L P R s0 s e fi val : I n0 s0 L (e :: P) R s -> known s fi -> (forall fv, val = Some fv -> known s fv) ->
  e_stdin e = None -> e_outputs e = [] ->
  ok (bind_exec_io t fi val e s) (fun fe s' => I n0 s0 L (snd fe :: P) R s' /\ io_ok t fi val (snd fe) (fst fe) /\
    fst fe ∈ outputs (snd fe) /\ (e_stdout e = None -> b_next s0 <= fst fe)%positive /\ io_same e (snd fe) /\
    (forall s src args, boxed n0 w c s src args [] (e_inputs e) -> boxed n0 w c s src args (io_names t val) (e_inputs (snd fe)))).
Proof.
  intros H Hfi Hval Hin Hout. unfold bind_exec_io.
  set (e1 := match bk_infile t with None => set_stdin fi e | Some p => add_input fi p false e end).
  assert (H1 : I n0 s0 L (e1 :: P) R s).
  { unfold e1. destruct (bk_infile t); [by apply I_add_input|]. eapply I_head; [exact H|done|done|exact (I_caps _ _ _ _ _ _ _ H)|].
    intros f Hf. unfold dependencies in Hf. cbn in Hf. apply elem_of_cons in Hf as [->|Hf]; [by left|]. right. unfold dependencies. by rewrite Hin. }
  assert (F1 : io_same e e1 /\ e_stdout e1 = e_stdout e /\ e_outputs e1 = []).
  { unfold e1. by destruct (bk_infile t). }
  set (e2 := match val with Some f => add_input f "wait_for_validation" false e1 | None => e1 end).
  assert (H2 : I n0 s0 L (e2 :: P) R s).
  { unfold e2. destruct val; [|done]. apply I_add_input; [by apply Hval|done]. }
  assert (F2 : io_same e e2 /\ e_stdout e2 = e_stdout e /\ e_outputs e2 = []).
  { unfold e2. by destruct val. }
  assert (B2 : forall s src args, boxed n0 w c s src args [] (e_inputs e) -> boxed n0 w c s src args (io_names t val) (e_inputs e2)).
  { intros s' src args Hb. unfold io_names, e2, e1.
    destruct val, (bk_infile t); cbn; repeat apply (boxed_add n0 w c src_of gpath); done. }
  assert (IO2 : match bk_infile t with
    | None => e_stdin e2 = Some fi
    | Some p => e_stdin e2 = None /\ ((p = "wait_for_validation" -> val = None) -> aget p (e_inputs e2) = Some (ExecInput fi false))
    end /\ match val with Some fv => aget "wait_for_validation" (e_inputs e2) = Some (ExecInput fv false) | None => True end).
  { unfold e2, e1. destruct val as [fv|], (bk_infile t) as [p|]; cbn; repeat rewrite aget_ainsert.
    - split; [|by rewrite decide_True]. split; [done|]. intros Hp. rewrite decide_False by (intros ->; by discriminate Hp). by rewrite decide_True.
    - split; [done|]. by rewrite decide_True.
    - split; [|done]. split; [done|]. intros _. by rewrite decide_True.
    - done. }
  clearbody e2. clear e1 H1 F1. destruct F2 as (F2 & F3 & F4).
  destruct (bk_outfile t) as [p|] eqn:Eo.
  - eapply ok_conseq; [apply ok_op with (1 := op_output n0 s0 L P R e2 p ltac:(by rewrite F4)); exact H2|].
    intros [f e3] s3 (E3 & Hge & H3). cbn [fst snd] in *. split; [done|]. rewrite E3. split; [|split; [|split; [done|split; [done|]]]].
    + unfold io_ok. rewrite Eo. split; [apply IO2|]. split; [apply IO2|]. cbn. by rewrite F4.
    + apply (out_in _ p). cbn. rewrite F4. by left.
    + done.
  - eapply ok_conseq; [apply ok_op with (1 := op_stdout n0 s0 L P R e2); exact H2|].
    intros [f e3] s3 (Ho & E3 & Hge & H3). cbn [fst snd] in *. split; [done|]. rewrite E3. split; [|split; [|split; [|split; [done|]]]].
    + unfold io_ok. rewrite Eo. split; [apply IO2|]. split; [apply IO2|]. done.
    + by apply stdout_in.
    + intros E. apply Hge. by rewrite F3.
    + done.
Qed.
Lemma keeps_exec_io fi val e : keeps (bind_exec_io t fi val e).
Proof. unfold bind_exec_io. cbn zeta. destruct (bk_outfile t); kp. Qed.

Lemma bind_output_ok g st tc fi val P R s : out_src g -> exes_ok s -> Inv n0 P R s -> known s fi -> (forall fv, val = Some fv -> known s fv) ->
  ok (bind_output w c t g st tc fi val s) (fun fo s' => K s (output_roles g st tc) P R s' /\
    (output_ok n0 w c t s' g st tc fi val fo /\ known s' fo)).
Proof.
  intros Hsrc Hall Hi Hfi Hval. unfold bind_output. destruct g as [|p|src args]; cbn [out_src output_roles] in *.
  - apply (ok_keeps n0 w c src_of gpath _ s P R [] (fun _ => P) R); [kp|done|].
    eapply ok_bind with (Mid := fun f s' => I n0 s [] P R s' /\ aget f (b_provided s') = Some (bc_empty c) /\ (b_next s <= f)%positive /\ (n0 <= f)%positive).
    { eapply ok_bind; [apply ok_op with (1 := op_new_id n0 s [] P R); by apply I_start|].
      intros f s1 (Hge & Hn & H1). cbn beta.
      eapply ok_bind; [exact (ok_op _ _ _ _ (op_provide_key n0 s [] P R f (bc_empty c) Hge) H1)|]. intros [] s2 (Ha & H2). by apply ok_ret. }
    intros f s1 (H1 & Ha & Hge & Hn).
    assert (Hkn : known s1 f) by (right; by eapply aget_elem).
    eapply ok_bind; [apply (write_ok n0 s [] P R c f _ false s1 Hge H1); by left|].
    intros [] s2 (H4 & Hsame & Hw & _). apply ok_ret. split; [done|]. destruct Hsame as (E1 & _ & E2 & _). split.
    + split; [eapply copied_intro; [apply output_name|done]|]. by rewrite E1.
    + unfold known, douts, execs_of in *. by rewrite E1, E2.
  - destruct (w_exists w p); [|done].
    apply (ok_keeps n0 w c src_of gpath _ s P R [] (fun _ => P) R); [kp|done|].
    eapply ok_bind; [by apply new_provided|].
    intros f s1 (H1 & H2 & H3).
    eapply ok_bind; [apply (write_ok n0 s [] P R c f _ false s1 H3 H1); left; by eapply holds_known|].
    intros [] s2 (H4 & Hsame & Hw & _). apply ok_ret. cbn. split; [done|]. split.
    + split; [|by eapply same_holds]. eapply copied_intro; [apply output_name|done].
    + eapply holds_known. by eapply same_holds.
  - rewrite <- bind_assoc. apply (execute_then src args _ P R s [RSolution st tc] (fun _ => P) R); [done|done|done| |].
    { intros e. kp. apply keeps_exec_io. }
    intros u i s1 Hl1 Hi1 Hb.
    set (e1 := set_tag _ _ _).
    assert (H1 : I n0 s1 [] (e1 :: P) R s1) by (apply I_tag; by apply I_start).
    rewrite <- bind_assoc.
    eapply ok_bind; [apply (exec_io_ok [] P R s1 s1 e1 fi val H1); try done; [by apply (l_known n0 w c src_of gpath s)|]; intros fv Hv; apply (l_known n0 w c src_of gpath s); [done|by apply Hval]|].
    intros [f e2] s2 (H2 & Hio & Hfo & Hge & Hsm & Hbx). cbn [fst snd] in *. specialize (Hge eq_refl).
    rewrite <- bind_assoc. eapply ok_bind; [exact (ok_op _ _ _ _ (op_capture_stderr n0 s1 [] P R _ stderr_length) H2)|].
    intros e4 s4 ((f4 & ->) & H4). set (e4 := set_captures _ _ _) in *. cbn beta.
    eapply ok_bind with (Mid := fun f' s5 => f' = f /\ I n0 s1 [RSolution st tc] P R s5 /\ has_role c s5 (RSolution st tc) e4 /\ (forall f, f ∈ outputs e4 -> known s5 f)).
    { rewrite bind_assoc. eapply ok_bind; [apply (finish_ok [] P R s1 s4 e4 (RSolution st tc)); done|]. intros [] s5 H5. by apply ok_ret. }
    intros ? s5 (-> & H5 & Hr & Hk).
    assert (Hfo4 : f ∈ outputs e4).
    { destruct Hsm as (_ & _ & _ & Hse & _). unfold outputs in *. cbn. rewrite Hse in Hfo. cbn in Hfo. set_solver. }
    eapply ok_bind; [apply (write_ok n0 s1 _ P R c f _ false s5 Hge H5); left; by apply Hk|].
    intros [] s6 (H6 & Hsame & Hw & _). apply ok_ret. split; [done|]. intros H16.
    assert (Hr6 : has_role c s6 (RSolution st tc) e4).
    { destruct Hr as (Hr1 & Hr2). destruct Hsame as (_ & _ & E2 & _ & E4). split; [by rewrite E4|]. by rewrite E2. }
    destruct Hsm as (G1 & G2 & G3 & G4 & G5 & G6 & G7 & G8 & G9 & G10 & G11).
    split; [split; [eapply copied_intro; [apply output_name|done]|]|].
    + exists e4. split; [done|]. split; [|done]. split; [done|]. split; [done|]. split; [done|]. cbn.
      apply Hbx. cbn. by apply (l_boxed n0 w c src_of gpath s1).
    + destruct Hsame as (E1 & _ & E2 & _). pose proof (Hk f Hfo4). unfold known, douts, execs_of in *. by rewrite E1, E2.
Qed.
End build.
