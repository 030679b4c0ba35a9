(** * TerryProofs: the executions of a solution of a Terry task *)
From Verif Require Import TerryModel BuildSpec TerrySpec CheckDagSpec BuildProofs BuildProofs2 BuildProofs3 BuildProofs4.
From Coq Require Import Ascii String.
From stdpp Require Import base list.
Local Open Scope nat_scope.

Section build.
Context (n0 : positive) (w : world) (c : build_config) (src_of : positive -> source) (gpath : positive -> string) (t : terry_task).
Local Notation src_ok := (src_ok n0 src_of gpath).
Local Notation exes_ok := (exes_ok n0 w c src_of gpath).
Local Notation later := (later n0 w c src_of gpath).
Local Notation K := (K n0 w c src_of gpath).
Local Notation keeps := (keeps n0 w gpath).
Ltac kp := repeat first
  [ apply keeps_ret | apply keeps_err | apply keeps_new_id | apply keeps_provide_key | apply keeps_provide_new | apply keeps_write
  | (apply keeps_role; reflexivity) | apply keeps_group | apply keeps_add_execution | apply keeps_stdout | apply keeps_stderr
  | apply keeps_capture_stdout | apply keeps_capture_stderr | apply keeps_output | (apply keeps_bind; [|intros; cbn beta zeta])
  | match goal with |- keeps (match ?x with _ => _ end) => destruct x end ].

Lemma executable_ok src P R s : src_ok src -> exes_ok s -> Inv n0 P R s ->
  ok (executable w c src s) (fun f s' => K s [] P R s' /\ exe_of n0 w c s' src f /\ known s' f).
Proof.
  intros Hsrc Hall Hi. unfold executable. eapply ok_bind; [by apply (prepare_ok n0 w c src_of gpath)|].
  intros [] s1 (H1 & exe & Hexe & Hx). unfold bind, exe_handle. rewrite Hexe. cbn [ok ret].
  split; [done|]. split; [done|]. exact (i_exes _ _ _ _ (K_inv _ _ _ _ _ _ _ _ _ _ H1) _ _ Hexe).
Qed.

Definition official_src : Prop := forall o, tt_official t = Some o -> src_ok o.
Lemma l_official s s' others i : official_src -> later s s' -> official_in n0 w c t s others i -> official_in n0 w c t s' others i.
Proof.
  intros Ho H H1 o Eo. destruct (H1 o Eo) as (p & n & exe & Ha & Hb & Hc & Hd). exists p, n, exe. split; [done|]. split; [done|]. split; [|done].
  eapply l_exe_of; [by apply Ho|done|done].
Qed.
Lemma official_add s others i p x : official_in n0 w c t s others i -> official_in n0 w c t s (p :: others) (ainsert p x i).
Proof.
  intros H o Eo. destruct (H o Eo) as (q & n & exe & Ha & Hb & Hc & Hd). exists q, n, exe. split; [done|]. split; [done|]. split; [done|].
  rewrite not_elem_of_cons. intros [H1 H2]. rewrite aget_ainsert, decide_False by done. by apply Hd.
Qed.

(** running a program together with the official solution *)
Lemma official_then {A} src args (k : execution -> M A) P R s L (PA : A -> list execution) RA (Q : A -> bstate -> Prop) :
  src_ok src -> official_src -> exes_ok s -> Inv n0 P R s -> (forall e, keeps (k e)) ->
  (forall u i s1, later s s1 -> Inv n0 (exec_of u src args i :: P) R s1 -> boxed n0 w c s1 src args (official_names t) i ->
     official_in n0 w c t s1 [] i ->
     ok (k (exec_of u src args i) s1) (fun a s' => I n0 s1 L (PA a) RA s' /\ (later s1 s' -> Q a s'))) ->
  ok (bind (execute w c src args) (fun e => bind (include_official w c (tt_official t) e) k) s) (fun a s' => K s L (PA a) RA s' /\ Q a s').
Proof.
  intros Hsrc Hoff Hall Hi Hk H. eapply ok_bind; [by apply (execute_ok n0 w c src_of gpath)|]. intros e s1 (H1 & u & i & -> & Hb).
  pose proof (K_later _ _ _ _ _ _ _ _ _ _ H1) as L1. pose proof (K_inv _ _ _ _ _ _ _ _ _ _ H1) as I1.
  eapply ok_bind with (Mid := fun e' s2 => K s1 [] (e' :: P) R s2 /\ exists j, e' = exec_of u src args j /\
    boxed n0 w c s2 src args (official_names t) j /\ official_in n0 w c t s2 [] j).
  { unfold include_official, official_names, official_in. destruct (tt_official t) as [o|] eqn:Eo.
    - eapply ok_bind; [apply (executable_ok o (exec_of u src args i :: P) R s1); [by apply Hoff|exact (l_exes_ok _ _ _ _ _ _ _ L1 Hall)|done]|].
      intros f s2 (H2 & Hx & Hkn). destruct (sf_write_to o) as [p|] eqn:Ep; [|done]. destruct (name_of p) as [n|] eqn:En; [|done].
      apply ok_ret. pose proof (K_later _ _ _ _ _ _ _ _ _ _ H2) as L2. split.
      + destruct H2 as (Hi2 & Hl2 & Hn2). split; [|done].
        apply (I_inv n0 s2 [] _ _ _ (I_add_input n0 s2 [] P R s2 (exec_of u src args i) f n true Hkn (I_start _ _ _ _ Hi2))).
      + exists (ainsert n (ExecInput f true) i). split; [done|]. split.
        * apply (boxed_add n0 w c src_of gpath). by apply (l_boxed n0 w c src_of gpath s1).
        * intros o' [= <-]. exists p, n, f. split; [done|]. split; [done|]. split; [done|]. intros _. by rewrite aget_ainsert, decide_True.
    - apply ok_ret. split; [by apply K_start|]. exists i. done. }
  intros e' s2 (H2 & j & -> & Hb2 & Ho2).
  pose proof (K_later _ _ _ _ _ _ _ _ _ _ H2) as L2. pose proof (K_inv _ _ _ _ _ _ _ _ _ _ H2) as I2.
  pose proof (K_trans _ _ _ _ _ _ _ _ _ _ _ _ _ _ H1 H2) as H12. cbn [app] in H12.
  eapply (ok_conseq _ (fun a s' => K s2 L (PA a) RA s' /\ (later s2 s' -> Q a s'))).
  - apply (ok_keeps n0 w c src_of gpath _ s2 (exec_of u src args j :: P) R L PA RA); [by apply Hk|done|].
    apply H; [by eapply K_later|done|done|done].
  - intros a s' (H3 & H4). split; [|by apply H4, (K_later _ _ _ _ _ _ _ _ _ _ H3)]. exact (K_trans _ _ _ _ _ _ _ _ _ _ _ _ _ _ H12 H3).
Qed.

Lemma I_stdin s0 L P R s e fi : known s fi -> e_stdin e = None -> I n0 s0 L (e :: P) R s -> I n0 s0 L (set_stdin fi e :: P) R s.
Proof.
  intros Hf Hin H. eapply I_head; [exact H|done|done|exact (I_caps _ _ _ _ _ _ _ H)|].
  intros f Hd. unfold dependencies in Hd. cbn in Hd. apply elem_of_cons in Hd as [->|Hd]; [by left|]. right. unfold dependencies. by rewrite Hin.
Qed.
Lemma io_name sol ext : tt_path t <> "" -> io_path t sol ext = tt_path t +:+ "/bin/io/" +:+ sol_name sol +:+ ext.
Proof. intros Hp. unfold io_path. by rewrite join_rel. Qed.
Lemma copy_io_ok s0 L P R f sol ext s : (b_next s0 <= f)%positive -> I n0 s0 L P R s -> (known s f \/ f ∈ P ≫= outputs) ->
  ok (copy_io c t f sol ext s) (fun _ s' => I n0 s0 L P R s' /\ same_dag s s' /\ io_copied c t s' f sol ext).
Proof.
  intros Hge H Hf. unfold copy_io, io_copied. destruct (bc_copy_exe c); [|by apply ok_ret].
  eapply ok_conseq; [by apply write_ok|]. intros [] s' (H1 & H2 & H3 & _). split; [done|]. split; [done|]. intros Hd _ Hp. by rewrite H3, io_name.
Qed.
Lemma l_io_copied s s' f sol ext : later s s' -> (f < b_next s)%positive -> io_copied c t s f sol ext -> io_copied c t s' f sol ext.
Proof. intros H Hf H1 Hd Hc Hp. by eapply l_written; [done|done|apply H1]. Qed.

Lemma l_t_generation s s' sol seed fi : src_ok (tt_generator t) -> official_src -> later s s' -> (fi < b_next s)%positive ->
  t_generation_ok n0 w c t s sol seed fi -> t_generation_ok n0 w c t s' sol seed fi.
Proof.
  intros Hs Ho H Hf [H0 (e & H1 & H2 & H3 & H4)]. split; [by eapply l_io_copied|]. exists e. split; [by eapply l_role|].
  split; [by eapply (l_runs n0 w c src_of gpath)|]. split; [by eapply l_official|done].
Qed.
Lemma l_t_validation s s' sol fi val : (forall v, tt_validator t = Some v -> src_ok v) -> official_src -> later s s' ->
  t_validation_ok n0 w c t s sol fi val -> t_validation_ok n0 w c t s' sol fi val.
Proof.
  intros Hs Ho H. unfold t_validation_ok. destruct (tt_validator t) as [v|]; [|done]. intros (e & fv & H0 & H1 & H2 & H3 & H4). exists e, fv.
  split; [done|]. split; [by eapply l_role|]. split; [eapply (l_runs n0 w c src_of gpath); [by apply Hs|done|done]|]. split; [by eapply l_official|done].
Qed.
Lemma l_t_solution s s' sol fi val fo : src_ok sol -> later s s' -> (fo < b_next s)%positive ->
  t_solution_ok n0 w c t s sol fi val fo -> t_solution_ok n0 w c t s' sol fi val fo.
Proof.
  intros Hs H Hf [H0 (e & H1 & H2 & H3)]. split; [by eapply l_io_copied|]. exists e. split; [by eapply l_role|].
  split; [by eapply (l_runs n0 w c src_of gpath)|done].
Qed.
Lemma l_t_checker s s' sol fi fo : src_ok (tt_checker t) -> official_src -> later s s' ->
  t_checker_ok n0 w c t s sol fi fo -> t_checker_ok n0 w c t s' sol fi fo.
Proof.
  intros Hs Ho H (e & H1 & H2 & H3 & H4). exists e. split; [by eapply l_role|]. split; [by eapply (l_runs n0 w c src_of gpath)|].
  split; [by eapply l_official|done].
Qed.

Lemma bind_ext {A B} (m : M A) (f g : A -> M B) s : (forall a s, f a s = g a s) -> bind m f s = bind m g s.
Proof. intros H. unfold bind. by destruct (m s) as [[a s']| |]. Qed.
Lemma t_generate_flat sol seed s : t_generate_and_bind w c t sol seed s =
  (do e <- execute w c (tt_generator t) [pretty seed; "0"];
   do e <- include_official w c (tt_official t) e;
   do fe <- stdout_of (set_tag "generation" 0 (set_limits (allow_multiprocess (e_limits e)) e));
   copy_io c t (fst fe) sol ".in" ;!
   do e <- capture_stderr stderr_limit (snd fe);
   bind_role e (RTerryGeneration (sf_path sol) seed) ;!
   add_execution c e ;!
   ret (fst fe)) s.
Proof.
  unfold t_generate_and_bind, t_generate. rewrite <- bind_assoc. apply bind_ext. intros e s1. by rewrite <- bind_assoc.
Qed.

Lemma t_generate_ok sol seed P R s : src_ok (tt_generator t) -> official_src -> exes_ok s -> Inv n0 P R s ->
  ok (t_generate_and_bind w c t sol seed s) (fun fi s' => K s [RTerryGeneration (sf_path sol) seed] P R s' /\
    (t_generation_ok n0 w c t s' sol seed fi /\ known s' fi)).
Proof.
  intros Hsrc Hoff Hall Hi. rewrite t_generate_flat.
  apply (official_then (tt_generator t) _ _ P R s [RTerryGeneration (sf_path sol) seed] (fun _ => P) R); [done|done|done|done| |].
  { intros e. unfold copy_io. kp. }
  intros u i s1 _ Hi1 Hb Ho.
  set (e1 := set_tag _ _ _).
  assert (H1 : I n0 s1 [] (e1 :: P) R s1) by (apply I_tag, I_limits; by apply I_start).
  eapply ok_bind; [exact (ok_op _ _ _ _ (op_stdout n0 s1 [] P R e1) H1)|].
  intros [f e2] s2 (Hso & -> & Hge & H2). cbn [fst snd] in *. specialize (Hge eq_refl).
  eapply ok_bind; [apply (copy_io_ok s1 [] _ R f sol ".in" s2 Hge H2); right; apply (outs_in (set_out f e1)); [by left|by apply stdout_in]|].
  intros [] s3 (H3 & _ & Hw).
  assert (Hf3 : (f < b_next s3)%positive).
  { apply (Inv_P_lt _ _ _ _ _ (I_inv _ _ _ _ _ _ H3)). apply (outs_in (set_out f e1)); [by left|by apply stdout_in]. }
  pose proof (I_start _ _ _ _ (I_inv _ _ _ _ _ _ H3)) as H33.
  eapply ok_bind; [exact (ok_op _ _ _ _ (op_capture_stderr n0 s3 [] P R _ stderr_limit) H33)|].
  intros e4 s4 ((f4 & ->) & H4). set (e4 := set_captures _ _ _) in *. cbn beta. rewrite bind_assoc.
  eapply ok_bind; [apply (finish_ok n0 c [] P R s3 s4 e4 (RTerryGeneration (sf_path sol) seed)); done|].
  intros [] s5 (H5 & Hr & Hk). apply ok_ret. cbn [app] in H5.
  split; [exact (I_trans _ _ _ _ _ _ _ _ _ _ H3 H5)|]. intros H15. split.
  - split.
    { intros Hd Hc Hp. rewrite (x_written _ _ _ (I_ext _ _ _ _ _ _ H5)) by done. by apply Hw. }
    exists e4. split; [done|]. split.
    { split; [done|]. split; [done|]. split; [done|]. by apply (l_boxed n0 w c src_of gpath s1). }
    split; [by apply (l_official s1)|done].
  - apply Hk. by apply stdout_in.
Qed.

Lemma t_validate_ok v sol fi P R s : tt_validator t = Some v -> src_ok v -> official_src -> exes_ok s -> Inv n0 P R s -> known s fi ->
  ok (t_validate_and_bind w c t v sol fi s) (fun fv s' => K s [RTerryValidation (sf_path sol)] P R s' /\
    (t_validation_ok n0 w c t s' sol fi (Some fv) /\ known s' fv)).
Proof.
  intros Ev Hsrc Hoff Hall Hi Hfi. unfold t_validate_and_bind.
  apply (official_then v _ _ P R s [RTerryValidation (sf_path sol)] (fun _ => P) R); [done|done|done|done| |].
  { intros e. kp. }
  intros u i s1 Hl1 Hi1 Hb Ho.
  set (e1 := set_tag _ _ _).
  assert (H1 : I n0 s1 [] (e1 :: P) R s1).
  { apply I_tag, I_stdin; [by apply (l_known n0 w c src_of gpath s)|done|]. apply I_limits. by apply I_start. }
  eapply ok_bind; [exact (ok_op _ _ _ _ (op_stdout n0 s1 [] P R e1) H1)|].
  intros [f e2] s2 (Hso & -> & Hge & H2). cbn [fst snd] in *.
  eapply ok_bind; [exact (ok_op _ _ _ _ (op_capture_stderr n0 s1 [] P R _ stderr_limit) H2)|].
  intros e4 s4 ((f4 & ->) & H4). set (e4 := set_captures _ _ _) in *. cbn beta. rewrite bind_assoc.
  eapply ok_bind; [apply (finish_ok n0 c [] P R s1 s4 e4 (RTerryValidation (sf_path sol))); done|].
  intros [] s5 (H5 & Hr & Hk). apply ok_ret. cbn [app] in H5.
  split; [done|]. intros H15. split.
  - unfold t_validation_ok. rewrite Ev. exists e4, f. split; [done|]. split; [done|]. split.
    { split; [done|]. split; [done|]. split; [done|]. by apply (l_boxed n0 w c src_of gpath s1). }
    split; [by apply (l_official s1)|done].
  - apply Hk. by apply stdout_in.
Qed.

Lemma t_solve_ok sol fi val P R s : src_ok sol -> exes_ok s -> Inv n0 P R s -> known s fi -> (forall fv, val = Some fv -> known s fv) ->
  ok (t_solve_and_bind w c t sol fi val s) (fun fo s' => K s [RTerrySolution (sf_path sol)] P R s' /\
    (t_solution_ok n0 w c t s' sol fi val fo /\ known s' fo)).
Proof.
  intros Hsrc Hall Hi Hfi Hval. unfold t_solve_and_bind.
  apply (execute_then n0 w c src_of gpath sol _ _ P R s [RTerrySolution (sf_path sol)] (fun _ => P) R); [done|done|done| |].
  { intros e. unfold copy_io. kp. }
  intros u i s1 Hl1 Hi1 Hb. cbn zeta.
  set (e0 := set_tag _ _ _).
  assert (H0 : I n0 s1 [] (e0 :: P) R s1).
  { apply I_tag, I_stdin; [by apply (l_known n0 w c src_of gpath s)|done|]. by apply I_start. }
  set (e1 := match val with Some f => add_input f "wait_for_validation" false e0 | None => e0 end).
  assert (H1 : I n0 s1 [] (e1 :: P) R s1).
  { unfold e1. destruct val as [fv|]; [|done]. apply I_add_input; [|done]. apply (l_known n0 w c src_of gpath s); [done|by apply Hval]. }
  assert (F1 : exists j, e1 = set_inputs j e0 /\ boxed n0 w c s1 sol [] (match val with Some _ => ["wait_for_validation"] | None => [] end) j /\
    forall fv, val = Some fv -> aget "wait_for_validation" j = Some (ExecInput fv false)).
  { unfold e1. destruct val as [fv|].
    - eexists. split; [done|]. split; [by apply (boxed_add n0 w c src_of gpath)|]. intros ? [= <-]. by rewrite aget_ainsert, decide_True.
    - exists i. split; [done|]. split; [done|]. by intros ?. }
  clearbody e1. destruct F1 as (j & -> & Hbj & Hwait).
  eapply ok_bind; [exact (ok_op _ _ _ _ (op_stdout n0 s1 [] P R _) H1)|].
  intros [f e2] s2 (Hso & -> & Hge & H2). cbn [fst snd] in *. specialize (Hge eq_refl).
  set (e3 := set_limits _ _).
  assert (H2' : I n0 s1 [] (e3 :: P) R s2) by (by apply I_limits).
  eapply ok_bind; [apply (copy_io_ok s1 [] (e3 :: P) R f sol ".out" s2 Hge H2'); right; apply (outs_in e3); [by left|by apply stdout_in]|].
  intros [] s3 (H3 & _ & Hw).
  assert (Hf3 : (f < b_next s3)%positive).
  { apply (Inv_P_lt _ _ _ _ _ (I_inv _ _ _ _ _ _ H3)). apply (outs_in e3); [by left|by apply stdout_in]. }
  pose proof (I_start _ _ _ _ (I_inv _ _ _ _ _ _ H3)) as H33.
  eapply ok_bind; [exact (ok_op _ _ _ _ (op_capture_stderr n0 s3 [] P R _ stderr_limit) H33)|].
  intros e4 s4 ((f4 & ->) & H4). set (e4 := set_captures _ _ _) in *. cbn beta. rewrite bind_assoc.
  eapply ok_bind; [apply (finish_ok n0 c [] P R s3 s4 e4 (RTerrySolution (sf_path sol))); done|].
  intros [] s5 (H5 & Hr & Hk). apply ok_ret. cbn [app] in H5.
  split; [exact (I_trans _ _ _ _ _ _ _ _ _ _ H3 H5)|]. intros H15. split.
  - split.
    { intros Hd Hc Hp. rewrite (x_written _ _ _ (I_ext _ _ _ _ _ _ H5)) by done. by apply Hw. }
    exists e4. split; [done|]. split.
    { split; [done|]. split; [done|]. split; [done|]. by apply (l_boxed n0 w c src_of gpath s1). }
    split; [done|]. split_and!; done.
  - apply Hk. by apply stdout_in.
Qed.

Lemma t_check_ok sol fi fo P R s : src_ok (tt_checker t) -> official_src -> exes_ok s -> Inv n0 P R s -> known s fi -> known s fo ->
  ok (t_check_and_bind w c t sol fi fo s) (fun _ s' => K s [RTerryChecker (sf_path sol)] P R s' /\ t_checker_ok n0 w c t s' sol fi fo).
Proof.
  intros Hsrc Hoff Hall Hi Hfi Hfo. unfold t_check_and_bind.
  apply (official_then (tt_checker t) _ _ P R s [RTerryChecker (sf_path sol)] (fun _ => P) R); [done|done|done|done| |].
  { intros e. kp. }
  intros u i s1 Hl1 Hi1 Hb Ho. cbn zeta.
  set (e1 := add_input fo "output.txt" false _).
  assert (H1 : I n0 s1 [] (e1 :: P) R s1).
  { apply I_add_input; [by apply (l_known n0 w c src_of gpath s)|]. apply I_add_input; [by apply (l_known n0 w c src_of gpath s)|].
    apply I_limits. by apply I_start. }
  eapply ok_bind; [exact (ok_op _ _ _ _ (op_capture_stdout n0 s1 [] P R e1 outcome_limit) H1)|].
  intros e2 s2 ((f2 & -> & _) & H2). cbn beta.
  eapply ok_bind; [exact (ok_op _ _ _ _ (op_capture_stderr n0 s1 [] P R _ stderr_limit) H2)|].
  intros e4 s4 ((f4 & ->) & H4). set (e4 := set_captures _ (Some stderr_limit) _) in *. cbn beta.
  eapply ok_conseq; [apply (finish_ok n0 c [] P R s1 s4 e4 (RTerryChecker (sf_path sol))); done|].
  intros [] s5 (H5 & Hr & Hk). cbn [app] in H5. split; [done|]. intros H15.
  exists e4. split; [done|]. split.
  { split; [done|]. split; [done|]. split; [done|]. cbn [app]. do 2 apply (boxed_add n0 w c src_of gpath). by apply (l_boxed n0 w c src_of gpath s1). }
  split.
  { intros o Eo. destruct (Ho o Eo) as (p & n & exe & Ha & Hx & Hc & Hd). exists p, n, exe. split; [done|]. split; [done|].
    split; [eapply l_exe_of; [by apply Hoff|done|done]|]. rewrite !not_elem_of_cons. intros (N1 & N2 & _). cbn.
    rewrite !aget_ainsert, !decide_False by done. apply Hd. by apply not_elem_of_nil. }
  split; [cbn; by rewrite !aget_ainsert, decide_False, decide_True by done|]. split; [cbn; by rewrite aget_ainsert, decide_True by done|].
  done.
Qed.

(** ** A solution, all the solutions *)
Definition managers_ok : Prop := src_ok (tt_generator t) /\ src_ok (tt_checker t) /\ (forall v, tt_validator t = Some v -> src_ok v) /\ official_src.
Lemma l_terry_solution s s' sol seed : managers_ok -> src_ok sol -> Inv n0 [] [] s -> later s s' ->
  (exists fi val fo, t_generation_ok n0 w c t s sol seed fi /\ t_validation_ok n0 w c t s sol fi val /\ t_solution_ok n0 w c t s sol fi val fo /\
    t_checker_ok n0 w c t s sol fi fo /\ known s fi /\ known s fo) ->
  exists fi val fo, t_generation_ok n0 w c t s' sol seed fi /\ t_validation_ok n0 w c t s' sol fi val /\ t_solution_ok n0 w c t s' sol fi val fo /\
    t_checker_ok n0 w c t s' sol fi fo /\ known s' fi /\ known s' fo.
Proof.
  intros (M1 & M2 & M3 & M4) Hs Hi H (fi & val & fo & H1 & H2 & H3 & H4 & H5 & H6). exists fi, val, fo.
  split; [eapply l_t_generation; [done|done|done|by eapply Inv_known_lt|done]|]. split; [by eapply l_t_validation|].
  split; [eapply l_t_solution; [done|done|by eapply Inv_known_lt|done]|]. split; [by eapply l_t_checker|].
  split; by eapply (l_known n0 w c src_of gpath).
Qed.
Definition sol_done (conf : option N) (s : bstate) (p : source * N) : Prop :=
  exists fi val fo, t_generation_ok n0 w c t s (fst p) (default (snd p) conf) fi /\ t_validation_ok n0 w c t s (fst p) fi val /\
    t_solution_ok n0 w c t s (fst p) fi val fo /\ t_checker_ok n0 w c t s (fst p) fi fo /\ known s fi /\ known s fo.
Lemma t_solution_step conf p s : managers_ok -> src_ok (fst p) -> exes_ok s -> Inv n0 [] [] s ->
  ok (t_solution w c conf t p s) (fun _ s' => K s (terry_solution_roles t (fst p) (default (snd p) conf)) [] [] s' /\ sol_done conf s' p).
Proof.
  intros (M1 & M2 & M3 & M4) Hs Hall Hi. destruct p as [sol rnd]. cbn [fst snd] in *. unfold t_solution. cbn [fst snd].
  replace (seed_of conf rnd) with (default rnd conf) by (by destruct conf).
  eapply ok_bind; [by apply (t_generate_ok sol (default rnd conf) [] [] s)|].
  intros fi s1 (H1 & G1 & K1). pose proof (K_later _ _ _ _ _ _ _ _ _ _ H1) as L1. pose proof (K_inv _ _ _ _ _ _ _ _ _ _ H1) as I1.
  pose proof (l_exes_ok _ _ _ _ _ _ _ L1 Hall) as A1.
  eapply ok_bind with (Mid := fun val s2 => K s1 (match tt_validator t with Some _ => [RTerryValidation (sf_path sol)] | None => [] end) [] [] s2 /\
     t_validation_ok n0 w c t s2 sol fi val /\ forall fv, val = Some fv -> known s2 fv).
  { destruct (tt_validator t) as [v|] eqn:Ev.
    - eapply ok_bind; [apply (t_validate_ok v sol fi [] [] s1); try done; by apply M3|]. intros fv s2 (Ha & Hb & Hc). apply ok_ret. split; [done|]. split; [done|].
      by intros ? [= <-].
    - apply ok_ret. split; [by apply K_start|]. unfold t_validation_ok. rewrite Ev. done. }
  intros val s2 (H2 & G2 & K2). pose proof (K_later _ _ _ _ _ _ _ _ _ _ H2) as L2. pose proof (K_inv _ _ _ _ _ _ _ _ _ _ H2) as I2.
  pose proof (l_exes_ok _ _ _ _ _ _ _ L2 A1) as A2.
  assert (K12 : known s2 fi) by (by eapply (l_known n0 w c src_of gpath)).
  eapply ok_bind; [by apply (t_solve_ok sol fi val [] [] s2)|].
  intros fo s3 (H3 & G3 & K3). pose proof (K_later _ _ _ _ _ _ _ _ _ _ H3) as L3. pose proof (K_inv _ _ _ _ _ _ _ _ _ _ H3) as I3.
  pose proof (l_exes_ok _ _ _ _ _ _ _ L3 A2) as A3.
  assert (K13 : known s3 fi) by (by eapply (l_known n0 w c src_of gpath)).
  eapply ok_conseq; [by apply (t_check_ok sol fi fo [] [] s3)|].
  intros [] s4 (H4 & G4). pose proof (K_later _ _ _ _ _ _ _ _ _ _ H4) as L4.
  split.
  - pose proof (K_trans _ _ _ _ _ _ _ _ _ _ _ _ _ _ H3 H4) as H34. pose proof (K_trans _ _ _ _ _ _ _ _ _ _ _ _ _ _ H2 H34) as H24.
    pose proof (K_trans _ _ _ _ _ _ _ _ _ _ _ _ _ _ H1 H24) as H14. exact H14.
  - pose proof (later_trans _ _ _ _ _ _ _ _ L3 L4) as L34. pose proof (later_trans _ _ _ _ _ _ _ _ L2 L34) as L24.
    exists fi, val, fo. split; [eapply l_t_generation; [done|done|exact L24|by eapply Inv_known_lt|done]|].
    split; [eapply l_t_validation; [done|done|exact L34|done]|]. split; [eapply l_t_solution; [done|exact L4|by eapply Inv_known_lt|done]|].
    split; [done|]. split; [exact (l_known n0 w c src_of gpath _ _ _ L4 K13)|exact (l_known n0 w c src_of gpath _ _ _ L4 K3)].
Qed.
Lemma terry_build_ok conf sols s : managers_ok -> (forall p, p ∈ sols -> src_ok (fst p)) -> exes_ok s -> Inv n0 [] [] s ->
  ok (terry_build w c conf t sols s) (fun _ s' => K s (terry_roles conf t sols) [] [] s' /\ forall p, p ∈ sols -> sol_done conf s' p).
Proof.
  intros HM. revert s. induction sols as [|p sols IH]; intros s Hs Hall Hi; cbn [terry_build mforeach].
  - apply ok_ret. split; [by apply K_start|]. by intros p ?%elem_of_nil.
  - eapply ok_bind; [apply (t_solution_step conf p s HM (Hs p (elem_of_list_here _ _)) Hall Hi)|].
    intros [] s1 (H1 & G1). pose proof (K_later _ _ _ _ _ _ _ _ _ _ H1) as L1. pose proof (K_inv _ _ _ _ _ _ _ _ _ _ H1) as I1.
    eapply ok_conseq; [apply (IH s1); [intros q Hq; apply Hs; by right|exact (l_exes_ok _ _ _ _ _ _ _ L1 Hall)|done]|].
    intros [] s2 (H2 & G2). split; [exact (K_trans _ _ _ _ _ _ _ _ _ _ _ _ _ _ H1 H2)|].
    intros q [->|Hq]%elem_of_cons; [|by apply G2]. eapply l_terry_solution; [done|apply Hs; by left|exact I1|by eapply K_later|exact G1].
Qed.
End build.
