(** * BuildProofs2: preparing and executing a source file *)
From Verif Require Import BuildModel BuildSpec CheckDagSpec BuildProofs.

Definition ok {A} (r : res (A * bstate)) (Q : A -> bstate -> Prop) : Prop :=
  match r with ROk (a, s) => Q a s | RErr => True | RPanic => False end.
Lemma ok_bind {A B} (m : M A) (f : A -> M B) s Mid Post :
  ok (m s) Mid -> (forall a s', Mid a s' -> ok (f a s') Post) -> ok (bind m f s) Post.
Proof. intros Hm Hf. unfold bind. destruct (m s) as [[a s']| |]; [by apply Hf|done|done]. Qed.
Lemma ok_ret {A} (a : A) s (Post : A -> bstate -> Prop) : Post a s -> ok (ret a s) Post.
Proof. done. Qed.
Lemma ok_conseq {A} (r : res (A * bstate)) (Q Q' : A -> bstate -> Prop) : ok r Q -> (forall a s, Q a s -> Q' a s) -> ok r Q'.
Proof. intros H HQ. destruct r as [[a s]| |]; [by apply HQ|done|done]. Qed.
Lemma ok_op {A} Pre (m : M A) Post s : triple Pre m Post -> Pre s -> ok (m s) Post.
Proof. intros H Hs. exact (H s Hs). Qed.

Lemma ok_both {A} (m : M A) s (Q Q' : A -> bstate -> Prop) :
  ok (m s) Q -> (forall a s', m s = ROk (a, s') -> Q' a s') -> ok (m s) (fun a s' => Q a s' /\ Q' a s').
Proof. intros H HQ. destruct (m s) as [[a s']| |]; [|done|done]. split; [done|by apply HQ]. Qed.
Lemma output_of_provided p e s a s' : output_of p e s = ROk (a, s') -> b_provided s' = b_provided s.
Proof. unfold output_of, bind. cbn. by destruct (aget p (e_outputs e)); intros [= <- <-]. Qed.
Lemma I_start n0 P R s : Inv n0 P R s -> I n0 s [] P R s.
Proof. intros H. split; [done|]. split; [apply ext_refl|by rewrite app_nil_r]. Qed.
Lemma I_trans n0 s0 L P R s L' P' R' s' : I n0 s0 L P R s -> I n0 s L' P' R' s' -> I n0 s0 (L ++ L') P' R' s'.
Proof.
  intros (_ & Hx & HL) (Hi' & Hx' & HL'). split; [done|]. split; [by eapply ext_trans|]. by rewrite HL', HL, (assoc_L (++)).
Qed.
Lemma I_inv n0 s0 L P R s : I n0 s0 L P R s -> Inv n0 P R s.
Proof. by intros []. Qed.
Lemma I_ext n0 s0 L P R s : I n0 s0 L P R s -> ext n0 s0 s.
Proof. by intros (? & ? & ?). Qed.
Lemma I_perm n0 s0 L P P' R R' s : P ≡ₚ P' -> R ≡ₚ R' -> I n0 s0 L P R s -> I n0 s0 L P' R' s.
Proof. intros HP HR [Hi Hx]. split; [|done]. by eapply Inv_perm. Qed.
Lemma I_exec n0 s0 L P R s u cmd : I n0 s0 L P (u :: R) s -> I n0 s0 L (exec_new u cmd :: P) R s.
Proof. intros [Hi Hx]. split; [|done]. by apply Inv_exec. Qed.
Lemma I_drop n0 s0 L P x R s : I n0 s0 L P (x :: R) s -> I n0 s0 L P R s.
Proof. intros [Hi Hx]. split; [|done]. by eapply Inv_drop. Qed.
Lemma known_ext n0 s s' f : ext n0 s s' -> known s f -> known s' f.
Proof.
  intros Hx [Hf|Hf]; [left|right; by apply (x_known _ _ _ Hx)].
  unfold douts, execs_of in *. destruct (x_groups _ _ _ Hx) as [l ->]. rewrite fmap_app, !bind_app. set_solver.
Qed.
Lemma Inv_known_lt n0 P R s f : Inv n0 P R s -> known s f -> (f < b_next s)%positive.
Proof. intros Hi Hk. apply known_outs_app in Hk. apply (i_next _ _ _ _ Hi f). unfold low. lia. Qed.
Lemma Inv_R_lt n0 P R s f : Inv n0 P R s -> f ∈ R -> (f < b_next s)%positive.
Proof. intros Hi Hk. rewrite cnt_in in Hk. apply (i_next _ _ _ _ Hi f). unfold low. lia. Qed.
Lemma Inv_P_lt n0 P R s f : Inv n0 P R s -> f ∈ P ≫= outputs -> (f < b_next s)%positive.
Proof. intros Hi Hk. rewrite cnt_in in Hk. apply (i_next _ _ _ _ Hi f). unfold low. lia. Qed.

Lemma holds_ext n0 w s s' f p : ext n0 s s' -> holds n0 w s f p -> holds n0 w s' f p.
Proof.
  intros Hx (H1 & H2 & H3 & H4). split; [done|]. split; [pose proof (x_next _ _ _ Hx); lia|].
  split; [|done]. rewrite <- H3. by apply (x_provided _ _ _ Hx).
Qed.
Lemma holds_known n0 w s f p : holds n0 w s f p -> known s f.
Proof. intros (_ & _ & H3 & [k Hk]). right. eapply aget_elem. by rewrite H3. Qed.

(** A new file with the content of a path *)
Lemma new_provided n0 w P R s p : Inv n0 P R s ->
  ok (provide_new w p s) (fun f s' => I n0 s [] P R s' /\ holds n0 w s' f p /\ (b_next s <= f)%positive).
Proof.
  intros Hi. eapply ok_bind; [apply ok_op with (1 := op_new_id n0 s [] P R); by apply I_start|].
  intros f s1 (Hge & Hn & H1). cbn beta.
  assert (Hlt : (f < b_next s1)%positive) by (eapply Inv_R_lt; [by eapply I_inv|by left]).
  eapply ok_bind; [apply ok_op with (1 := op_provide n0 s [] P R w f p Hge); exact H1|].
  intros [] s2 (Ha & Hk & H2). apply ok_ret. split; [done|]. split; [|done]. split; [done|]. split; [|done].
  assert (Hk2 : known s2 f) by (right; destruct Hk as [k E]; eapply aget_elem; by rewrite Ha, E).
  eapply Inv_known_lt; [by eapply I_inv|done].
Qed.
Lemma bind_assoc {A B C} (m : M A) (f : A -> M B) (g : B -> M C) s : bind m (fun a => bind (f a) g) s = bind (bind m f) g s.
Proof. unfold bind. destruct (m s) as [[a s']| |]; done. Qed.

(** Files that were put in the sandbox of an execution: its inputs other than those of [names] are those of [e0]. *)
Definition inputs_kept (names : list string) (e0 e : execution) : Prop :=
  forall p, p ∉ names -> aget p (e_inputs e) = aget p (e_inputs e0).
Definition same_but_inputs (e0 e : execution) : Prop := exists i, e = set_inputs i e0.
Lemma set_inputs_twice i j e : set_inputs i (set_inputs j e) = set_inputs i e.
Proof. done. Qed.

(** In the sandbox, [name] is a copy of the file [p] of the disk. *)
Definition has_copy (n0 : positive) (w : world) (s : bstate) (e : execution) (name p : string) : Prop :=
  exists f x, aget name (e_inputs e) = Some (ExecInput f x) /\ aget f (b_provided s) = w_key w p /\ is_Some (w_key w p).

Lemma add_dep_ok n0 w P R s e d : Inv n0 (e :: P) R s ->
  ok (add_dep w e d s) (fun e' s' => I n0 s [] (e' :: P) R s' /\
    exists f, holds n0 w s' f (dp_local d) /\ e' = add_input f (dp_sandbox d) false e).
Proof.
  intros Hi. unfold add_dep.
  eapply ok_bind; [by apply new_provided|]. intros f s1 (H1 & Hh & _). apply ok_ret.
  split; [|by exists f]. apply I_add_input; [by eapply holds_known|done].
Qed.

Lemma add_deps_ok n0 w P R s e ds : Inv n0 (e :: P) R s ->
  ok (mfold (add_dep w) ds e s) (fun e' s' => I n0 s [] (e' :: P) R s' /\ same_but_inputs e e' /\
    inputs_kept (map dp_sandbox ds) e e' /\
    (forall ds1 d ds2, ds = ds1 ++ d :: ds2 -> dp_sandbox d ∉ map dp_sandbox ds2 ->
       exists f, aget (dp_sandbox d) (e_inputs e') = Some (ExecInput f false) /\ holds n0 w s' f (dp_local d))).
Proof.
  revert e s. induction ds as [|d ds IH]; intros e s Hi; cbn [mfold].
  - apply ok_ret. split; [by apply I_start|]. split; [exists (e_inputs e); by destruct e|]. split; [done|].
    intros ds1 d ds2 E. by destruct ds1.
  - eapply ok_bind; [by apply add_dep_ok|]. intros e1 s1 (H1 & f & Hf & ->).
    eapply ok_conseq; [apply IH; by eapply I_inv|]. intros e2 s2 (H2 & (i & ->) & Hk & Hds).
    split; [exact (I_trans _ _ _ _ _ _ _ _ _ _ H1 H2)|]. split; [by exists i|]. split.
    + intros p Hp. cbn in Hp. rewrite not_elem_of_cons in Hp. rewrite Hk by apply Hp. cbn. rewrite aget_ainsert, decide_False by apply Hp. done.
    + intros ds1 d0 ds2 E Hu. destruct ds1 as [|d1 ds1]; cbn in E; injection E as -> E.
      * subst ds2. exists f. rewrite Hk by done. cbn. rewrite aget_ainsert, decide_True by done. split; [done|].
        eapply holds_ext; [by eapply I_ext|done].
      * by apply (Hds ds1 d0 ds2).
Qed.

(** only what is written to the disk changes *)
Definition same_dag (s s' : bstate) : Prop :=
  b_provided s' = b_provided s /\ b_next s' = b_next s /\ b_groups s' = b_groups s /\ b_exes s' = b_exes s /\ b_roles s' = b_roles s.
Lemma write_ok n0 s0 L P R c f p x s : (b_next s0 <= f)%positive -> I n0 s0 L P R s -> (known s f \/ f ∈ P ≫= outputs) ->
  ok (write_file_to c f p x s) (fun _ s' => I n0 s0 L P R s' /\ same_dag s s' /\
     (cfg_dry_run (bc_dag c) = false -> aget f (b_written s') = Some (p, x)) /\
     (cfg_dry_run (bc_dag c) = true -> b_written s' = b_written s)).
Proof.
  intros Hge Hs Hf. pose proof (op_write n0 s0 L P R c f p x Hge s (conj Hf Hs)) as Hw.
  unfold write_file_to in *. destruct (cfg_dry_run (bc_dag c)); cbn in *; destruct Hw as [Hw1 Hw2]; (split; [done|]); by split_and!.
Qed.
Lemma same_holds n0 w s s' f p : same_dag s s' -> holds n0 w s f p -> holds n0 w s' f p.
Proof. unfold same_dag, holds. intros (-> & -> & _). done. Qed.

Definition maybe_write (c : build_config) (src : source) (f : file_uuid) : M unit :=
  if bc_copy_exe c || sf_copy_exe src
  then match sf_write_to src with Some p => write_file_to c f p true | None => ret tt end
  else ret tt.
Lemma maybe_write_ok n0 s0 L P R c src f s : (b_next s0 <= f)%positive -> I n0 s0 L P R s -> (known s f \/ f ∈ P ≫= outputs) ->
  ok (maybe_write c src f s) (fun _ s' => I n0 s0 L P R s' /\ same_dag s s' /\ exe_written c src s' f).
Proof.
  intros Hge Hs Hf. unfold maybe_write, exe_written. destruct (bc_copy_exe c || sf_copy_exe src); [|by apply ok_ret].
  destruct (sf_write_to src) as [p|]; [|by apply ok_ret].
  eapply ok_conseq; [by apply write_ok|]. intros [] s' (H1 & H2 & H3 & _). split; [done|]. split; [done|]. intros Hd _ q [= <-]. by apply H3.
Qed.

Lemma out_in e p f : (p, f) ∈ e_outputs e -> f ∈ outputs e.
Proof. intros H. unfold outputs. rewrite !elem_of_app. right. right. apply elem_of_list_fmap. by exists (p, f). Qed.
Lemma stdout_in e f : e_stdout e = Some f -> f ∈ outputs e.
Proof. intros H. unfold outputs. rewrite !elem_of_app, H. left. by left. Qed.
Lemma outs_in e (P : list execution) f : e ∈ P -> f ∈ outputs e -> f ∈ P ≫= outputs.
Proof. intros H Hf. apply elem_of_list_bind. by exists e. Qed.

(** ** Compilation *)
Definition graders_ok (n0 : positive) (src : source) : Prop := forall gf gd, sf_grader src = Some (gf, gd) -> (gf < n0)%positive.

Lemma add_envs_same l e : fold_left (fun e kv => add_env (fst kv) (snd kv) e) l e =
  set_env (fold_left (fun l kv => ainsert (fst kv) (snd kv) l) l (e_env e)) (e_copy_env e) e.
Proof.
  revert e. induction l as [|[k v] l IH]; intros e; cbn.
  - by destruct e.
  - by rewrite (IH (add_env k v e)).
Qed.

Lemma I_args n0 s0 L P R s e a : I n0 s0 L (e :: P) R s -> I n0 s0 L (set_args a e :: P) R s.
Proof. intros Hs. eapply I_head; [exact Hs|done|done|exact (I_caps _ _ _ _ _ _ _ Hs)|by right]. Qed.
Lemma I_limits n0 s0 L P R s e a : I n0 s0 L (e :: P) R s -> I n0 s0 L (set_limits a e :: P) R s.
Proof. intros Hs. eapply I_head; [exact Hs|done|done|exact (I_caps _ _ _ _ _ _ _ Hs)|by right]. Qed.
Lemma I_env n0 s0 L P R s e a b : I n0 s0 L (e :: P) R s -> I n0 s0 L (set_env a b e :: P) R s.
Proof. intros Hs. eapply I_head; [exact Hs|done|done|exact (I_caps _ _ _ _ _ _ _ Hs)|by right]. Qed.
Lemma I_tag n0 s0 L P R s e a b : I n0 s0 L (e :: P) R s -> I n0 s0 L (set_tag a b e :: P) R s.
Proof. intros Hs. eapply I_head; [exact Hs|done|done|exact (I_caps _ _ _ _ _ _ _ Hs)|by right]. Qed.
Lemma I_redirects n0 s0 L P R s e a b : I n0 s0 L (e :: P) R s -> I n0 s0 L (set_redirects a b e :: P) R s.
Proof. intros Hs. eapply I_head; [exact Hs|done|done|exact (I_caps _ _ _ _ _ _ _ Hs)|by right]. Qed.

Lemma compile_ok n0 w c src cs P R s : graders_ok n0 src -> Inv n0 P R s ->
  ok (compile w c src cs s) (fun ef s' => I n0 s [] (fst ef :: P) R s' /\
    is_compilation n0 w s' src cs (fst ef) (snd ef) /\ e_stdout (fst ef) = None /\ e_stderr (fst ef) = None /\
    e_limits (fst ef) = add_readable_dirs (cs_dirs cs) default_limits /\
    e_env (fst ef) = fold_left (fun l kv => ainsert (fst kv) (snd kv) l) (cs_env cs) [] /\
    (n0 <= snd ef)%positive /\
    exe_written c src s' (snd ef)).
Proof.
  intros Hg Hi. unfold compile.
  eapply ok_bind; [apply ok_op with (1 := op_new_id n0 s [] P R); by apply I_start|].
  intros u s1 (_ & _ & H1). cbn beta. apply I_exec with (cmd := cs_compiler cs) in H1.
  set (e0 := exec_new u (cs_compiler cs)) in *.
  assert (H1' := I_args _ _ _ _ _ _ _ (cs_args cs) H1).
  eapply ok_bind; [apply add_deps_ok; by eapply I_inv|].
  intros e2 s2 (H2 & (i2 & ->) & Hk2 & Hd2). cbn beta.
  pose proof (I_trans _ _ _ _ _ _ _ _ _ _ H1' H2) as H02. cbn [app] in H02.
  eapply ok_bind; [apply new_provided; by eapply I_inv|].
  intros f s3 (H3 & Hh & _). cbn beta zeta.
  pose proof (I_trans _ _ _ _ _ _ _ _ _ _ H02 H3) as H03. cbn [app] in H03.
  assert (H03' := I_add_input _ _ _ _ _ _ _ f (cs_source_name cs) false (holds_known _ _ _ _ _ Hh) H03).
  set (e3 := add_input f (cs_source_name cs) false _) in *.
  eapply ok_bind with (Mid := fun e4 s4 => I n0 s3 [] (e4 :: P) R s4 /\
     e4 = set_inputs (e_inputs e4) (set_args (e_args e3 ++ match sf_grader src with
                           | Some (_, gd) => dp_sandbox gd :: (if cs_grader_only cs then [] else [cs_source_name cs])
                           | None => [cs_source_name cs] end) e3) /\
     inputs_kept (match sf_grader src with Some (_, gd) => [dp_sandbox gd] | None => [] end) e3 e4 /\
     (forall gf gd, sf_grader src = Some (gf, gd) ->
     aget (dp_sandbox gd) (e_inputs e4) = Some (ExecInput gf false) /\ aget gf (b_provided s4) = w_key w (dp_local gd) /\ is_Some (w_key w (dp_local gd)))).
  { pose proof (I_start _ _ _ _ (I_inv _ _ _ _ _ _ H03')) as H3'. destruct (sf_grader src) as [[gf gd]|] eqn:Eg.
    - eapply ok_bind; [apply ok_op with (1 := op_provide_grader n0 s3 [] (e3 :: P) R w gf (dp_local gd) (Hg gf gd Eg)); exact H3'|].
      intros [] s4 (Hc1 & Hc2 & Hin & H4). apply ok_ret.
      assert (H4' : I n0 s3 [] (set_args (e_args e3 ++ [dp_sandbox gd] ++ (if cs_grader_only cs then [] else [cs_source_name cs])) e3 :: P) R s4).
      { by apply I_args. }
      split; [apply I_add_input; [by right|done]|]. split; [done|]. split.
      + intros p Hp. cbn. rewrite aget_ainsert, decide_False; [done|]. set_solver.
      + intros gf0 gd0 [= <- <-]. split; [|done]. cbn. by rewrite aget_ainsert, decide_True.
    - apply ok_ret. split; [by apply I_args|]. split; [by destruct e3|]. done. }
  intros e4 s4 (H4 & E4 & Hk4 & Hg4). cbn beta.
  assert (Ho4 : e_outputs e4 = []) by (rewrite E4; done).
  assert (Hget4 : aget (cs_binary cs) (e_outputs e4) = None) by (rewrite Ho4; done).
  pose proof (I_trans _ _ _ _ _ _ _ _ _ _ H03' H4) as H04. cbn [app] in H04.
  eapply ok_bind; [eapply ok_both; [apply ok_op with (1 := op_output n0 s4 [] P R e4 (cs_binary cs) Hget4); eapply I_start; exact (I_inv _ _ _ _ _ _ H04)|apply output_of_provided]|].
  intros [fo e5] s5 ((E5 & Hge & H45) & Hprov). cbn [fst snd] in *.
  pose proof (I_trans _ _ _ _ _ _ _ _ _ _ H04 H45) as H05. cbn [app] in H05.
  assert (Hge0 : (b_next s <= fo)%positive) by (pose proof (x_next _ _ _ (I_ext _ _ _ _ _ _ H04)); lia).
  assert (Hn5 : (n0 <= fo)%positive) by (pose proof (i_n0 _ _ _ _ Hi); lia).
  eapply ok_bind; [apply (maybe_write_ok n0 s [] (e5 :: P) R c src fo s5 Hge0 H05); right; apply (outs_in e5); [by left|]; apply (out_in _ (cs_binary cs)); rewrite E5; cbn; rewrite Ho4; by left|].
  intros [] s6 (H06 & Hsame & Hw). cbn beta zeta. apply ok_ret. cbn [fst snd].
  rewrite (add_envs_same (cs_env cs) e5).
  pose proof (I_ext _ _ _ _ _ _ H4) as X4. pose proof (I_ext _ _ _ _ _ _ H45) as X5. pose proof (I_ext _ _ _ _ _ _ H3) as X3.
  pose proof (ext_trans _ _ _ _ X4 X5) as X35. pose proof (ext_trans _ _ _ _ X3 X35) as X25.
  split; [by apply I_limits, I_env|]. split; [|split_and!; try done; rewrite E5, E4; done].
  unfold is_compilation. cbn [set_limits set_env e_command e_stdin e_outputs e_args e_inputs].
  rewrite E5. cbn [set_outputs e_command e_stdin e_outputs e_args e_inputs].
  split; [by rewrite E4|]. split; [by rewrite E4|]. split; [by rewrite Ho4|]. split; [by rewrite E4|].
  split; [|split].
  - intros gf gd Eg. destruct (Hg4 gf gd Eg) as [Ha Hb]. split; [done|]. destruct Hsame as [-> _]. by rewrite Hprov.
  - intros Hn. exists f. split; [|eapply same_holds; [exact Hsame|]; exact (holds_ext _ _ _ _ _ _ X35 Hh)].
    rewrite Hk4.
    + cbn. by rewrite aget_ainsert, decide_True.
    + destruct (sf_grader src) as [[gf gd]|] eqn:Eg; [|apply not_elem_of_nil]. rewrite elem_of_list_singleton. intros E. by eapply Hn.
  - intros ds1 d ds2 E Hu Hn Hng. destruct (Hd2 ds1 d ds2 E Hu) as (fd & Ha & Hb). exists fd.
    split; [|eapply same_holds; [exact Hsame|]; exact (holds_ext _ _ _ _ _ _ X25 Hb)]. rewrite Hk4.
    + cbn. by rewrite aget_ainsert, decide_False.
    + destruct (sf_grader src) as [[gf gd]|] eqn:Eg; [|apply not_elem_of_nil]. rewrite elem_of_list_singleton. intros Ed. by eapply Hng.
Qed.
