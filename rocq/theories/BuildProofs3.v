(** * BuildProofs3: what never changes once it is in the DAG; executing a source file *)
From Verif Require Import BuildModel BuildSpec CheckDagSpec BuildProofs BuildProofs2.

Definition comps (s : bstate) : list role := filter (fun r => comp_role r = true) (b_roles s).*2.

Section build.
Context (n0 : positive) (w : world) (c : build_config) (src_of : positive -> source) (gpath : positive -> string).

(** A source file of the task: its handle is its own, its grader was made before the DAG *)
Definition src_ok (src : source) : Prop :=
  src_of (sf_id src) = src /\ (forall gf gd, sf_grader src = Some (gf, gd) -> (gf < n0)%positive /\ dp_local gd = gpath gf).

(** The relation between the states of a construction *)
Record later (s s' : bstate) : Prop := {
  l_ext : ext n0 s s';
  l_grader : forall f, (f < n0)%positive -> aget f (b_provided s') = aget f (b_provided s) \/ aget f (b_provided s') = w_key w (gpath f);
  l_exes : forall i f, b_exes s' !! i = Some f -> b_exes s !! i = Some f \/ (src_ok (src_of i) /\ exe_of n0 w c s' (src_of i) f);
  l_comps : exists ids, NoDup ids /\
      (forall i, i ∈ ids <-> b_exes s !! i = None /\ is_Some (b_exes s' !! i) /\ is_Some (sf_compile (src_of i))) /\
      comps s' = comps s ++ map (fun i => RCompilation (sf_path (src_of i))) ids
}.

Lemma l_holds s s' f p : later s s' -> holds n0 w s f p -> holds n0 w s' f p.
Proof. intros H. apply holds_ext, H. Qed.
Lemma l_known s s' f : later s s' -> known s f -> known s' f.
Proof. intros H. apply (known_ext n0), H. Qed.
Lemma l_role s s' r e : later s s' -> has_role c s r e -> has_role c s' r e.
Proof.
  intros H (H1 & k & g & H2 & H3). destruct (x_roles _ _ _ (l_ext _ _ H)) as [l E0]. destruct (x_groups _ _ _ (l_ext _ _ H)) as [l' E].
  split; [rewrite E0; set_solver|]. exists k, g. rewrite E. set_solver.
Qed.
Lemma l_written s s' f x : later s s' -> (f < b_next s)%positive -> aget f (b_written s) = x -> aget f (b_written s') = x.
Proof. intros H Hlt <-. by apply (x_written _ _ _ (l_ext _ _ H)). Qed.
Lemma l_gcontent s s' src gf gd : src_ok src -> sf_grader src = Some (gf, gd) -> later s s' ->
  aget gf (b_provided s) = w_key w (dp_local gd) -> aget gf (b_provided s') = w_key w (dp_local gd).
Proof.
  intros [_ Hg] Eg H E. destruct (Hg gf gd Eg) as [Hlt Hp]. destruct (l_grader _ _ H gf Hlt) as [->| ->]; [done|]. by rewrite Hp.
Qed.
Lemma is_compilation_same s src cs e e' exe : e_command e' = e_command e -> e_stdin e' = e_stdin e -> e_outputs e' = e_outputs e ->
  e_args e' = e_args e -> e_inputs e' = e_inputs e -> is_compilation n0 w s src cs e exe -> is_compilation n0 w s src cs e' exe.
Proof. unfold is_compilation. intros -> -> -> -> ->. done. Qed.
Lemma l_compilation s s' src cs e exe : src_ok src -> later s s' -> is_compilation n0 w s src cs e exe -> is_compilation n0 w s' src cs e exe.
Proof.
  intros Hsrc H (H1 & H2 & H3 & H4 & H5 & H6 & H7). split; [done|]. split; [done|]. split; [done|]. split; [done|]. split; [|split].
  - intros gf gd Eg. destruct (H5 gf gd Eg) as (Ha & Hb & Hc). split; [done|]. split; [|done]. by eapply l_gcontent.
  - intros Hn. destruct (H6 Hn) as (f & Ha & Hb). exists f. split; [done|]. by eapply l_holds.
  - intros ds1 d ds2 E Hu Hn Hng. destruct (H7 ds1 d ds2 E Hu Hn Hng) as (f & Ha & Hb). exists f. split; [done|]. by eapply l_holds.
Qed.
Lemma l_exe_of s s' src exe : src_ok src -> later s s' -> exe_of n0 w c s src exe -> exe_of n0 w c s' src exe.
Proof.
  intros Hsrc H (H1 & H2 & H3). pose proof (x_next _ _ _ (l_ext _ _ H)). split; [lia|]. split.
  - intros Hd Hc p Hp. by eapply l_written; [done|done|apply H2].
  - destruct (sf_compile src) as [cs|]; [|by eapply l_holds]. destruct H3 as (e & Ha & Hb & Hc). exists e.
    split; [by eapply l_role|]. split; [by eapply l_compilation|done].
Qed.
Lemma l_boxed s s' src args extra i : src_ok src -> later s s' -> boxed n0 w c s src args extra i -> boxed n0 w c s' src args extra i.
Proof.
  intros Hsrc H [H1 H2 H3 H4 H5]. split.
  - destruct H1 as (exe & Ha & Hb). exists exe. split; [by eapply l_exe_of|done].
  - intros ds1 d ds2 E Hn. destruct (H2 ds1 d ds2 E Hn) as (f & Ha & Hb). exists f. split; [done|]. by eapply l_holds.
  - intros gf gd Eg Ec Hn. destruct (H3 gf gd Eg Ec Hn) as (Ha & Hb & Hc). split; [done|]. split; [|done]. by eapply l_gcontent.
  - intros a Ha Hw Hn. destruct (H4 a Ha Hw Hn) as (f & Hf & Hb). exists f. split; [done|]. by eapply l_holds.
  - done.
Qed.
Lemma boxed_add s src args extra i p x : boxed n0 w c s src args extra i -> boxed n0 w c s src args (p :: extra) (ainsert p x i).
Proof.
  intros [H1 H2 H3 H4 H5]. split.
  - destruct H1 as (exe & Ha & Hb). exists exe. split; [done|]. intros Hn. rewrite aget_ainsert, decide_False by set_solver. apply Hb. set_solver.
  - intros ds1 d ds2 E Hn. destruct (H2 ds1 d ds2 E) as (f & Ha & Hb); [set_solver|]. exists f. split; [|done].
    rewrite aget_ainsert, decide_False by set_solver. done.
  - intros gf gd Eg Ec Hn. destruct (H3 gf gd Eg Ec) as (Ha & Hb & Hc); [set_solver|]. split; [|done].
    rewrite aget_ainsert, decide_False by set_solver. done.
  - intros a Ha Hw Hn. destruct (H4 a Ha Hw) as (f & Hf & Hb); [set_solver|]. exists f. split; [|done].
    rewrite aget_ainsert, decide_False by set_solver. done.
  - intros q f y. rewrite aget_ainsert. destruct (decide (q = p)) as [->|E]; [set_solver|]. intros Hq. destruct (H5 q f y Hq); set_solver.
Qed.


Lemma later_refl s : later s s.
Proof.
  split; [apply ext_refl|by left|by left|]. exists []. split; [apply NoDup_nil_2|]. split; [|by rewrite app_nil_r].
  intros i. split; [by intros ?%elem_of_nil|]. intros (H1 & H2 & _). rewrite H1 in H2. by destruct H2.
Qed.
Lemma later_trans s1 s2 s3 : later s1 s2 -> later s2 s3 -> later s1 s3.
Proof.
  intros H H'. split.
  - eapply ext_trans; [apply H|apply H'].
  - intros f Hf. destruct (l_grader _ _ H' f Hf) as [->| ->]; [|by right]. by apply (l_grader _ _ H).
  - intros i f Hf. destruct (l_exes _ _ H' i f Hf) as [Hf'|?]; [|by right]. destruct (l_exes _ _ H i f Hf') as [?|[? ?]]; [by left|].
    right. split; [done|]. by eapply l_exe_of.
  - destruct (l_comps _ _ H) as (ids & Hn & Hi & E). destruct (l_comps _ _ H') as (ids' & Hn' & Hi' & E'). exists (ids ++ ids').
    split; [|split].
    + apply NoDup_app. split; [done|]. split; [|done]. intros i H1%Hi H2%Hi'. destruct H1 as (_ & [x Hx] & _), H2 as (Hy & _). congruence.
    + intros i. rewrite elem_of_app, Hi, Hi'. split.
      * intros [(H1 & [f Hf] & H3)|(H1 & H2 & H3)].
        -- split; [done|]. split; [|done]. exists f. by apply (x_exes _ _ _ (l_ext _ _ H')).
        -- split; [|done]. destruct (b_exes s1 !! i) as [f|] eqn:Ef; [|done]. apply (x_exes _ _ _ (l_ext _ _ H)) in Ef. congruence.
      * intros (H1 & H2 & H3). destruct (b_exes s2 !! i) as [f|] eqn:Ef; [left|right]; [|done]. split; [done|]. split; [by eexists|done].
    + by rewrite E', E, map_app, (assoc_L (++)).
Qed.

Definition K (s0 : bstate) (L : list role) (P : list execution) (R : list positive) (s : bstate) : Prop :=
  Inv n0 P R s /\ later s0 s /\ noncomp (b_roles s) = noncomp (b_roles s0) ++ L.
Lemma K_start P R s : Inv n0 P R s -> K s [] P R s.
Proof. intros H. split; [done|]. split; [apply later_refl|by rewrite app_nil_r]. Qed.
Lemma K_trans s0 L P R s L' P' R' s' : K s0 L P R s -> K s L' P' R' s' -> K s0 (L ++ L') P' R' s'.
Proof.
  intros (_ & Hx & HL) (Hi' & Hx' & HL'). split; [done|]. split; [by eapply later_trans|]. by rewrite HL', HL, (assoc_L (++)).
Qed.
Lemma K_inv s0 L P R s : K s0 L P R s -> Inv n0 P R s.
Proof. by intros []. Qed.
Lemma K_later s0 L P R s : K s0 L P R s -> later s0 s.
Proof. by intros (? & ? & ?). Qed.
Lemma K_I s0 L P R s : K s0 L P R s -> I n0 s0 L P R s.
Proof. intros (H1 & H2 & H3). split; [done|]. split; [apply H2|done]. Qed.

(** Code that prepares no source file *)
Definition keep (s s' : bstate) : Prop :=
  (n0 <= b_next s -> n0 <= b_next s')%positive /\ b_exes s' = b_exes s /\ comps s' = comps s /\
  ((n0 <= b_next s)%positive -> forall f, (f < n0)%positive -> aget f (b_provided s') = aget f (b_provided s) \/ aget f (b_provided s') = w_key w (gpath f)).
Definition keeps {A} (m : M A) : Prop := forall s a s', m s = ROk (a, s') -> keep s s'.
Lemma keep_refl s : keep s s.
Proof. split; [done|]. split; [done|]. split; [done|]. by left. Qed.
Lemma keep_trans s1 s2 s3 : keep s1 s2 -> keep s2 s3 -> keep s1 s3.
Proof.
  intros (H1 & H2 & H3 & H4) (G1 & G2 & G3 & G4). split; [auto|]. split; [congruence|]. split; [congruence|].
  intros Hn f Hf. destruct (G4 (H1 Hn) f Hf) as [->| ->]; [by apply H4|by right].
Qed.
Lemma keeps_bind {A B} (m : M A) (f : A -> M B) : keeps m -> (forall a, keeps (f a)) -> keeps (bind m f).
Proof.
  intros Hm Hf s b s'. unfold bind. destruct (m s) as [[a s1]| |] eqn:E; [|done|done]. intros Hb.
  eapply keep_trans; [by eapply Hm|by eapply Hf].
Qed.
Lemma keeps_ret {A} (a : A) : keeps (ret a).
Proof. intros s b s' [= <- <-]. apply keep_refl. Qed.
Lemma keeps_err {A} : keeps (@err A).
Proof. by intros s b s'. Qed.
Lemma keeps_new_id : keeps new_id.
Proof. intros s b s' [= <- <-]. split; [cbn; lia|]. split; [done|]. split; [done|]. by left. Qed.
Lemma keeps_provide_new p : keeps (provide_new w p).
Proof.
  intros s b s'. unfold provide_new, bind, provide_file. cbn. destruct (w_key w p) as [k|]; [|done]. intros [= <- <-].
  split; [cbn; lia|]. split; [done|]. split; [done|]. cbn. intros Hn f Hf. left. rewrite aget_ainsert, decide_False by lia. done.
Qed.
Lemma keeps_provide_key k : keeps (do f <- new_id; provide_key f k ;! ret f).
Proof.
  intros s b s' [= <- <-].
  split; [cbn; lia|]. split; [done|]. split; [done|]. cbn. intros Hn f Hf. left. rewrite aget_ainsert, decide_False by lia. done.
Qed.
Lemma keeps_provide f p : (n0 <= f)%positive -> keeps (provide_file w f p).
Proof.
  intros Hf s b s'. unfold provide_file. destruct (w_key w p) as [k|]; [|done]. intros [= <- <-].
  split; [done|]. split; [done|]. split; [done|]. cbn. intros Hn f' Hf'. left. rewrite aget_ainsert, decide_False by lia. done.
Qed.
Lemma keeps_grader f p : gpath f = p -> keeps (provide_file w f p).
Proof.
  intros <- s b s'. unfold provide_file. destruct (w_key w (gpath f)) as [k|] eqn:E; [|done]. intros [= <- <-].
  split; [done|]. split; [done|]. split; [done|]. cbn. intros Hn f' Hf. rewrite aget_ainsert. destruct (decide (f' = f)) as [->|]; [by right|by left].
Qed.
Lemma keeps_write f p x : keeps (write_file_to c f p x).
Proof. intros s b s'. unfold write_file_to. destruct (cfg_dry_run (bc_dag c)); intros [= <- <-]; [apply keep_refl|]. split; [done|]. split; [done|]. split; [done|]. by left. Qed.
Lemma comps_snoc (l : list (exec_uuid * role)) u r : filter (fun r => comp_role r = true) (l ++ [(u, r)]).*2 = filter (fun r => comp_role r = true) l.*2 ++ (if comp_role r then [r] else []).
Proof. rewrite fmap_app, filter_app. f_equal. cbn [fmap list_fmap snd]. rewrite filter_cons, filter_nil. destruct (comp_role r); by case_decide. Qed.
Lemma keeps_role e r : comp_role r = false -> keeps (bind_role e r).
Proof.
  intros Hr s b s' [= <- <-]. split; [done|]. split; [done|]. split; [|by left]. unfold comps. cbn. by rewrite comps_snoc, Hr, app_nil_r.
Qed.
Lemma keeps_group g es fifos : keeps (add_group c g es fifos).
Proof. intros s b s' [= <- <-]. split; [done|]. split; [done|]. split; [done|]. by left. Qed.
Lemma keeps_add_execution e : keeps (add_execution c e).
Proof. apply keeps_bind; [apply keeps_new_id|intros; apply keeps_group]. Qed.
Lemma keeps_stdout e : keeps (stdout_of e).
Proof. unfold stdout_of. destruct (e_stdout e); [apply keeps_ret|]. apply keeps_bind; [apply keeps_new_id|intros; apply keeps_ret]. Qed.
Lemma keeps_stderr e : keeps (stderr_of e).
Proof. unfold stderr_of. destruct (e_stderr e); [apply keeps_ret|]. apply keeps_bind; [apply keeps_new_id|intros; apply keeps_ret]. Qed.
Lemma keeps_capture_stdout k e : keeps (capture_stdout k e).
Proof. apply keeps_bind; [apply keeps_stdout|intros; apply keeps_ret]. Qed.
Lemma keeps_capture_stderr k e : keeps (capture_stderr k e).
Proof. apply keeps_bind; [apply keeps_stderr|intros; apply keeps_ret]. Qed.
Lemma keeps_output p e : keeps (output_of p e).
Proof. apply keeps_bind; [apply keeps_new_id|intros]. destruct (aget p (e_outputs e)); apply keeps_ret. Qed.
Lemma keeps_mfold {A B} (f : B -> A -> M B) l b : (forall b a, keeps (f b a)) -> keeps (mfold f l b).
Proof. intros H. revert b. induction l as [|a l IH]; intros b; [apply keeps_ret|]. cbn [mfold]. apply keeps_bind; [apply H|apply IH]. Qed.
Lemma keeps_maybe_write src f : keeps (maybe_write c src f).
Proof. unfold maybe_write. destruct (bc_copy_exe c || sf_copy_exe src); [|apply keeps_ret]. destruct (sf_write_to src); [apply keeps_write|apply keeps_ret]. Qed.
Lemma keeps_add_dep e d : keeps (add_dep w e d).
Proof. apply keeps_bind; [apply keeps_provide_new|intros; apply keeps_ret]. Qed.
Lemma keeps_compile src cs : src_ok src -> keeps (compile w c src cs).
Proof.
  intros [_ Hg]. unfold compile. apply keeps_bind; [apply keeps_new_id|intros u]. apply keeps_bind; [apply keeps_mfold, keeps_add_dep|intros e].
  apply keeps_bind; [apply keeps_provide_new|intros f]. apply keeps_bind.
  - destruct (sf_grader src) as [[gf gd]|] eqn:Eg; [|apply keeps_ret]. apply keeps_bind; [|intros; apply keeps_ret].
    apply keeps_grader. symmetry. by apply (Hg gf gd).
  - intros e4. apply keeps_bind; [apply keeps_output|intros fe]. apply keeps_bind; [apply keeps_maybe_write|intros; apply keeps_ret].
Qed.

Lemma keep_later s L P R s' : (n0 <= b_next s)%positive -> keep s s' -> I n0 s L P R s' -> K s L P R s'.
Proof.
  intros Hn (H1 & H2 & H3 & H4) (Hi & Hx & HL). split; [done|]. split; [|done]. split; [done|by apply H4| |].
  - intros i f. rewrite H2. by left.
  - exists []. split; [apply NoDup_nil_2|]. split; [|by rewrite app_nil_r]. intros i. split; [by intros ?%elem_of_nil|].
    rewrite H2. intros (Ha & Hb & _). rewrite Ha in Hb. by destruct Hb.
Qed.
Lemma ok_keeps {A} (m : M A) s P' R' L P R Q : keeps m -> Inv n0 P' R' s ->
  ok (m s) (fun a s' => I n0 s L (P a) R s' /\ Q a s') -> ok (m s) (fun a s' => K s L (P a) R s' /\ Q a s').
Proof.
  intros Hk Hi H. unfold ok in *. destruct (m s) as [[a s']| |] eqn:E; [|done|done]. destruct H as [H HQ]. split; [|done].
  eapply keep_later; [by apply (i_n0 _ _ _ _ Hi)|by eapply Hk|done].
Qed.

(** ** Preparing a source file *)
Definition exes_ok (s : bstate) : Prop := forall i f, b_exes s !! i = Some f -> src_ok (src_of i) /\ exe_of n0 w c s (src_of i) f.
Lemma l_exes_ok s s' : later s s' -> exes_ok s -> exes_ok s'.
Proof.
  intros H Ha i f Hf. destruct (l_exes _ _ H i f Hf) as [Hf'|?]; [|done]. destruct (Ha i f Hf') as [H1 H2]. split; [done|]. by eapply l_exe_of.
Qed.
Lemma exe_swap src f p s : ok ((provide_file w f p ;! (maybe_write c src f ;! set_exe src f)) s) (fun a s' =>
  (maybe_write c src f ;! set_exe src f ;! provide_file w f p) s = ROk (a, s')).
Proof.
  unfold maybe_write, bind, provide_file, set_exe, write_file_to, ret.
  destruct (w_key w p); [|done]. destruct (bc_copy_exe c || sf_copy_exe src); [|done]. destruct (sf_write_to src); [|done].
  by destruct (cfg_dry_run (bc_dag c)).
Qed.
Lemma exe_swap_err src f p s : w_key w p = None -> (maybe_write c src f ;! set_exe src f ;! provide_file w f p) s = RErr.
Proof.
  intros E. unfold maybe_write, bind, provide_file, set_exe, write_file_to, ret.
  destruct (bc_copy_exe c || sf_copy_exe src); [|by rewrite E]. destruct (sf_write_to src); [|by rewrite E].
  by destruct (cfg_dry_run (bc_dag c)); rewrite E.
Qed.

(** the handle of a source file is set *)
Lemma later_exe s s' s'' src exe : src_ok src -> (n0 <= b_next s)%positive -> b_exes s !! sf_id src = None -> keep s s' -> ext n0 s s'' ->
  b_exes s'' = <[sf_id src := exe]> (b_exes s') -> b_provided s'' = b_provided s' ->
  comps s'' = comps s' ++ (if sf_compile src then [RCompilation (sf_path src)] else []) -> exe_of n0 w c s'' src exe -> later s s''.
Proof.
  intros Hsrc Hn Hno (_ & H2 & H3 & H4) Hx Ee Ep Ec Hexe. destruct Hsrc as [Hid Hg]. split.
  - done.
  - intros f Hf. rewrite Ep. by apply H4.
  - intros i f. rewrite Ee, lookup_insert_Some, H2. intros [[<- <-]|[_ ?]]; [|by left]. right. by rewrite Hid.
  - exists (if sf_compile src then [sf_id src] else []). split; [|split].
    + destruct (sf_compile src); [apply NoDup_singleton|apply NoDup_nil_2].
    + intros i. rewrite Ee, H2. split.
      * destruct (sf_compile src) eqn:Ecs; [|by intros ?%elem_of_nil]. intros ->%elem_of_list_singleton.
        rewrite lookup_insert, Hid, Ecs. split; [done|]. by split; eexists.
      * intros (Ha & Hb & Hc). destruct (decide (i = sf_id src)) as [->|E].
        -- rewrite Hid in Hc. destruct Hc as [cs ->]. by left.
        -- rewrite lookup_insert_ne in Hb by done. rewrite Ha in Hb. by destruct Hb.
    + rewrite Ec, H3. destruct (sf_compile src); [|done]. cbn. by rewrite Hid.
Qed.

Lemma op_role' s0 L P R u r s : I n0 s0 L P R s -> u ∈ dids s ->
  I n0 s0 (L ++ (if comp_role r then [] else [r])) P R (BState (b_next s) (b_provided s) (b_groups s) (b_exes s) (b_written s) (b_roles s ++ [(u, r)])).
Proof.
  intros (Hi & Hx & HL) Hu. destruct Hi as [h1 h2 h3 h4 h5 h6 h7 h8 h9 h10 h11]. split; [|split].
  - split; try done. cbn [b_roles]. intros u'. rewrite fmap_app. cbn. rewrite elem_of_app, elem_of_list_singleton.
    intros [?| ->]; [by apply h11|by left].
  - destruct Hx as [y1 y2 y3 y4 y5 y6 [l y7]]. split; try done. cbn. exists (l ++ [(u, r)]). by rewrite y7, (assoc_L (++)).
  - cbn [b_roles]. by rewrite noncomp_snoc, HL, (assoc_L (++)).
Qed.
Lemma group_dids g es fifos e s : group_of c g es fifos ∈ b_groups s -> e ∈ es -> e_uuid e ∈ dids s.
Proof.
  intros Hg He. unfold dids, execs_of. apply elem_of_list_fmap. exists (set_config (bc_dag c) e). split; [done|].
  apply elem_of_list_bind. exists (snd (group_of c g es fifos)). split; [|apply elem_of_list_fmap; by eexists].
  cbn. apply elem_of_list_fmap. by exists e.
Qed.
Lemma group_douts g es fifos e f s : group_of c g es fifos ∈ b_groups s -> e ∈ es -> f ∈ outputs e -> f ∈ douts s.
Proof.
  intros Hg He Hf. unfold douts, execs_of. apply elem_of_list_bind. exists (set_config (bc_dag c) e). split; [done|].
  apply elem_of_list_bind. exists (snd (group_of c g es fifos)). split; [|apply elem_of_list_fmap; by eexists].
  cbn. apply elem_of_list_fmap. by exists e.
Qed.
Lemma group_has_role g es fifos e r s : group_of c g es fifos ∈ b_groups s -> e ∈ es -> (e_uuid e, r) ∈ b_roles s -> has_role c s r e.
Proof.
  intros Hg He Hr. split; [done|]. exists g, (snd (group_of c g es fifos)). split; [done|]. cbn. apply elem_of_list_fmap. by exists e.
Qed.

Lemma prepare_ok src P R s : src_ok src -> exes_ok s -> Inv n0 P R s ->
  ok (prepare w c src s) (fun _ s' => K s [] P R s' /\ exists exe, b_exes s' !! sf_id src = Some exe /\ exe_of n0 w c s' src exe).
Proof.
  intros Hsrc Hall Hi. pose proof (i_n0 _ _ _ _ Hi) as Hn0. unfold prepare. eapply ok_bind with (Mid := fun h s' => s' = s /\ h = b_exes s !! sf_id src); [done|].
  intros h s' [-> ->]. destruct (b_exes s !! sf_id src) as [exe|] eqn:Eh.
  { apply ok_ret. split; [by apply K_start|]. exists exe. split; [done|]. destruct (Hall _ _ Eh) as [_ H]. by rewrite (proj1 Hsrc) in H. }
  assert (Hgr : graders_ok n0 src) by (intros gf gd Eg; by apply (proj2 Hsrc gf gd)).
  destruct (sf_compile src) as [cs|] eqn:Ecs.
  - eapply ok_bind; [eapply ok_both; [by apply compile_ok|by apply keeps_compile]|].
    intros [e exe] s1 ((H1 & Hc & Ho & Her & Hl & Hv & Hnx & Hw) & Hk1). cbn [fst snd] in *.
    pose proof (I_start _ _ _ _ (I_inv _ _ _ _ _ _ (I_tag _ _ _ _ _ _ _ "compilation" comp_priority H1))) as H1'.
    eapply ok_bind; [eapply ok_both; [exact (ok_op _ _ _ _ (op_capture_stdout n0 s1 [] P R _ comp_length) H1')|apply keeps_capture_stdout]|].
    intros e2 s2 (((f2 & -> & _) & H2) & Hk2). cbn [e_capture_stderr] in *.
    eapply ok_bind; [eapply ok_both; [exact (ok_op _ _ _ _ (op_capture_stderr n0 s1 [] P R _ comp_length) H2)|apply keeps_capture_stderr]|].
    intros e3 s3 (((f3 & ->) & H3) & Hk3). cbn beta zeta.
    set (e4 := set_limits _ _).
    assert (H3' : I n0 s1 [] (e4 :: P) R s3) by (by apply I_limits).
    eapply ok_bind; [eapply ok_both; [exact (ok_op _ _ _ _ (op_add_execution n0 s1 [] P R c e4) H3')|apply keeps_add_execution]|].
    intros [] s4 (((g & Hg4) & H4) & Hk4). cbn beta.
    pose proof (keep_trans _ _ _ Hk2 (keep_trans _ _ _ Hk3 Hk4)) as Hk14.
    pose proof (keep_trans _ _ _ Hk1 Hk14) as Hk04.
    assert (Hn1 : (n0 <= b_next s1)%positive) by (by apply Hk1).
    pose proof (K_later _ _ _ _ _ (keep_later _ _ _ _ _ Hn1 Hk14 H4)) as L14.
    pose proof (I_trans _ _ _ _ _ _ _ _ _ _ H1 H4) as H04. cbn [app] in H04.
    assert (Hexe1 : exe ∈ outputs e).
    { destruct Hc as (_ & _ & Ho' & _). apply (out_in _ (cs_binary cs)). rewrite Ho'. by left. }
    assert (Hlt1 : (exe < b_next s1)%positive).
    { apply (Inv_P_lt _ _ _ _ _ (I_inv _ _ _ _ _ _ H1)). apply (outs_in e); [by left|done]. }
    assert (Hexe4 : exe ∈ outputs e4).
    { destruct Hc as (_ & _ & Ho' & _). apply (out_in _ (cs_binary cs)). cbn. rewrite Ho'. by left. }
    pose proof (group_douts _ _ _ _ _ _ Hg4 (elem_of_list_here _ _) Hexe4) as Hd4.
    pose proof (op_set_exe n0 s [] P R src exe Eh s4 (conj (or_introl Hd4) H04)) as [_ H05].
    pose proof (group_dids _ _ _ _ _ Hg4 (elem_of_list_here _ _)) as Hid4.
    pose proof (op_role' s [] P R (e_uuid e4) (RCompilation (sf_path src)) _ H05 Hid4) as H06.
    cbn [b_next b_provided b_groups b_exes b_written b_roles comp_role app] in H06.
    change (ok ((set_exe src exe ;! bind_role e4 (RCompilation (sf_path src))) s4)
      (fun _ s' => K s [] P R s' /\ exists exe, b_exes s' !! sf_id src = Some exe /\ exe_of n0 w c s' src exe)).
    unfold set_exe, bind_role, bind. cbn [ok b_next b_provided b_groups b_exes b_written b_roles].
    match type of H06 with I _ _ _ _ _ ?st => set (s6 := st) in * end.
    assert (Hx : exe_of n0 w c s6 src exe).
    { split; [|split].
      - apply (Inv_known_lt _ _ _ _ _ (I_inv _ _ _ _ _ _ H06)). by left.
      - intros Hd Hcp p Hp. apply (l_written s1 s4); [done|done|by apply Hw].
      - rewrite Ecs. exists e4. split; [|split; [|split]].
        + apply (group_has_role g [e4] []); [done|by left|]. cbn. rewrite elem_of_app. right. by left.
        + apply (is_compilation_same s6 src cs e e4 exe); try done. apply (l_compilation s1 s4); done.
        + cbn. by rewrite Hl.
        + cbn. by rewrite Hv. }
    split; [|exists exe; split; [apply lookup_insert|done]].
    destruct H06 as (Hi6 & Hx6 & HL6). split; [done|]. split; [|done].
    apply (later_exe s s4 s6 src exe); try done. unfold comps, s6. cbn [b_roles]. by rewrite comps_snoc, Ecs.
  - eapply ok_bind; [eapply ok_both; [apply ok_op with (1 := op_new_id n0 s [] P R); by apply I_start|apply keeps_new_id]|].
    intros f s1 ((Hge & Hnf & H1) & Hk1). cbn beta. fold (maybe_write c src f).
    destruct (w_key w (sf_path src)) as [k|] eqn:Ek; [|by rewrite exe_swap_err].
    pose proof (exe_swap src f (sf_path src) s1) as Hsw.
    assert (Hok : ok ((provide_file w f (sf_path src) ;! (maybe_write c src f ;! set_exe src f)) s1)
      (fun _ s' => K s [] P R s' /\ exists exe, b_exes s' !! sf_id src = Some exe /\ exe_of n0 w c s' src exe)).
    { eapply ok_bind; [eapply ok_both; [exact (ok_op _ _ _ _ (op_provide n0 s [] P R w f (sf_path src) Hge) H1)|by apply keeps_provide]|]. cbn beta.
      intros [] s2 ((Ha & Hb & H2) & Hk12).
      assert (Hkn : known s2 f) by (right; eapply aget_elem; by rewrite Ha, Ek).
      assert (Hk2 : keep s s2).
      { by eapply keep_trans. }
      eapply ok_bind; [apply (maybe_write_ok n0 s [] P R c src f s2 Hge H2); by left|].
      intros [] s3 (H3 & Hsame & Hw).
      assert (Hkn3 : known s3 f) by (destruct Hsame as (E1 & _ & E2 & _); unfold known, douts, execs_of in *; by rewrite E1, E2).
      pose proof (op_set_exe n0 s [] P R src f Eh s3 (conj Hkn3 H3)) as [_ H04].
      unfold set_exe. cbn [ok].
      match type of H04 with I _ _ _ _ _ ?st => set (s4 := st) in * end.
      assert (Hh : holds n0 w s4 f (sf_path src)).
      { split; [done|]. split; [apply (Inv_known_lt _ _ _ _ _ (I_inv _ _ _ _ _ _ H04)); exact Hkn3|]. split; [|by eexists].
        cbn. destruct Hsame as [-> _]. done. }
      assert (Hx : exe_of n0 w c s4 src f) by (split; [apply Hh|]; split; [done|]; by rewrite Ecs).
      split; [|exists f; split; [apply lookup_insert|done]].
      destruct H04 as (Hi4 & Hx4 & HL4). split; [done|]. split; [|done].
      apply (later_exe s s2 s4 src f); try done; destruct Hsame as (E1 & _ & _ & E3 & E4); cbn.
      + by rewrite E3.
      + by rewrite E1.
      + unfold comps. cbn. by rewrite Ecs, E4, app_nil_r. }
    destruct ((provide_file w f (sf_path src) ;! (maybe_write c src f ;! set_exe src f)) s1) as [[a s']| |] eqn:E; cbn [ok] in *.
    + by rewrite Hsw.
    + exfalso. revert E. unfold bind, provide_file, maybe_write, set_exe, write_file_to. rewrite Ek.
      destruct (bc_copy_exe c || sf_copy_exe src); [|done]. destruct (sf_write_to src); [|done]. by destruct (cfg_dry_run (bc_dag c)).
    + done.
Qed.

(** ** Executing a source file *)
Lemma args_ok src P R s e args : Inv n0 (e :: P) R s ->
  ok (mfold (add_arg_file w src) args e s) (fun e' s' => I n0 s [] (e' :: P) R s' /\ same_but_inputs e e' /\
    (forall a, a ∈ args -> w_exists w (path_join (sf_base src) a) = true ->
       exists f, aget a (e_inputs e') = Some (ExecInput f false) /\ holds n0 w s' f (path_join (sf_base src) a)) /\
    (forall p, (p ∉ args \/ w_exists w (path_join (sf_base src) p) = false) -> aget p (e_inputs e') = aget p (e_inputs e))).
Proof.
  revert e s. induction args as [|a args IH]; intros e s Hi; cbn [mfold].
  - apply ok_ret. split; [by apply I_start|]. split; [exists (e_inputs e); by destruct e|]. split; [|done].
    by intros a ?%elem_of_nil.
  - eapply ok_bind with (Mid := fun e1 s1 => I n0 s [] (e1 :: P) R s1 /\ same_but_inputs e e1 /\
      (w_exists w (path_join (sf_base src) a) = true -> exists f, aget a (e_inputs e1) = Some (ExecInput f false) /\ holds n0 w s1 f (path_join (sf_base src) a)) /\
      (forall p, p <> a \/ w_exists w (path_join (sf_base src) p) = false -> aget p (e_inputs e1) = aget p (e_inputs e))).
    { unfold add_arg_file. destruct (w_exists w (path_join (sf_base src) a)) eqn:Ew.
      - eapply ok_bind; [by apply new_provided|]. intros f s1 (H1 & Hh & _). apply ok_ret.
        split; [by apply I_add_input; [by eapply holds_known|]|]. split; [by eexists|]. split.
        + intros _. exists f. split; [|done]. cbn. by rewrite aget_ainsert, decide_True.
        + intros p Hp. cbn. rewrite aget_ainsert, decide_False; [done|]. intros ->. destruct Hp; [done|congruence].
      - apply ok_ret. split; [by apply I_start|]. split; [exists (e_inputs e); by destruct e|]. done. }
    intros e1 s1 (H1 & (i1 & ->) & Ha & Hk).
    eapply ok_conseq; [apply IH; by eapply I_inv|]. intros e2 s2 (H2 & (i & ->) & Hargs & Hk').
    split; [exact (I_trans _ _ _ _ _ _ _ _ _ _ H1 H2)|]. split; [by exists i|]. split.
    + intros a' Ha' Hw. destruct (decide (a' ∈ args)) as [Hin|Hni]; [by apply Hargs|].
      apply elem_of_cons in Ha' as [->|?]; [|done]. destruct (Ha Hw) as (f & Hf & Hh). exists f. rewrite Hk' by (by left). split; [done|].
      eapply holds_ext; [by eapply I_ext|done].
    + intros p Hp. rewrite Hk', Hk; [done| |]; rewrite not_elem_of_cons in Hp; naive_solver.
Qed.

Lemma execute_ok src args P R s : src_ok src -> exes_ok s -> Inv n0 P R s ->
  ok (execute w c src args s) (fun e s' => K s [] (e :: P) R s' /\
    exists u i, e = exec_of u src args i /\ boxed n0 w c s' src args [] i).
Proof.
  intros Hsrc Hall Hi. unfold execute.
  eapply ok_bind; [by apply prepare_ok|]. intros [] s1 (H1 & exe & Hexe & Hx).
  eapply (ok_conseq _ (fun e s' => K s1 [] (e :: P) R s' /\ exists u i, e = exec_of u src args i /\ (later s1 s' -> boxed n0 w c s' src args [] i))).
  2: { intros e s' (H2 & u & i & He & HQ). split; [exact (K_trans _ _ _ _ _ _ _ _ _ H1 H2)|]. exists u, i. split; [done|]. by apply HQ, (K_later _ _ _ _ _ H2). }
  pose proof (K_inv _ _ _ _ _ H1) as Hi1. cbn beta.
  apply (ok_keeps _ s1 P R [] (fun e => e :: P) R _); [|done|].
  { apply keeps_bind; [apply keeps_new_id|intros u].
    apply keeps_bind; [apply keeps_mfold; intros e a; unfold add_arg_file; destruct (w_exists _ _); [|apply keeps_ret]; apply keeps_bind; [apply keeps_provide_new|intros; apply keeps_ret]|intros e].
    cbn beta zeta. apply keeps_bind; [intros s0 b s0' [= <- <-]; apply keep_refl|intros [x|]; [|done]].
    apply keeps_bind; [apply keeps_mfold, keeps_add_dep|intros e'].
    apply keeps_bind; [|intros; apply keeps_ret]. destruct (sf_grader src) as [[gf gd]|] eqn:Eg; [|apply keeps_ret].
    destruct (sf_compile src); [apply keeps_ret|]. apply keeps_bind; [|intros; apply keeps_ret]. apply keeps_grader. symmetry. by apply (proj2 Hsrc gf gd). }
  eapply ok_bind; [apply ok_op with (1 := op_new_id n0 s1 [] P R); by apply I_start|].
  intros u s2 (_ & _ & H2). cbn beta. apply I_exec with (cmd := sf_command src) in H2.
  eapply ok_bind; [apply args_ok; by eapply I_inv|].
  intros e3 s3 (H3 & (i3 & ->) & Hargs & Hk3). cbn beta zeta.
  pose proof (I_trans _ _ _ _ _ _ _ _ _ _ H2 H3) as H13. cbn [app] in H13.
  assert (Eexe : b_exes s3 !! sf_id src = Some exe) by (by apply (x_exes _ _ _ (I_ext _ _ _ _ _ _ H13))).
  eapply ok_bind with (Mid := fun h s' => s' = s3 /\ h = b_exes s3 !! sf_id src); [done|].
  intros h s' [-> ->]. rewrite Eexe.
  assert (Hkx : known s3 exe).
  { apply (i_exes _ _ _ _ (I_inv _ _ _ _ _ _ H13) _ _ Eexe). }
  pose proof (I_args _ _ _ _ _ _ _ (sf_args src args) H13) as H13'.
  pose proof (I_add_input _ _ _ _ _ _ _ exe (sf_exe_name src) true Hkx H13') as H13''.
  eapply ok_bind; [apply add_deps_ok; by eapply I_inv|].
  intros e4 s4 (H4 & (i4 & ->) & Hk4 & Hd4). cbn beta.
  set (e3' := add_input exe (sf_exe_name src) true _) in *.
  pose proof (I_trans _ _ _ _ _ _ _ _ _ _ H13'' H4) as H14. cbn [app] in H14.
  eapply ok_bind with (Mid := fun e5 s5 => I n0 s1 [] (e5 :: P) R s5 /\ ext n0 s4 s5 /\ exists i5, e5 = set_inputs i5 e3' /\
     (forall p, p ∉ runtime_grader src -> aget p i5 = aget p i4) /\
     (forall gf gd, sf_grader src = Some (gf, gd) -> sf_compile src = None ->
        aget (dp_sandbox gd) i5 = Some (ExecInput gf false) /\ aget gf (b_provided s5) = w_key w (dp_local gd) /\ is_Some (w_key w (dp_local gd)))).
  { unfold runtime_grader. destruct (sf_grader src) as [[gf gd]|] eqn:Eg; [destruct (sf_compile src) as [cs|] eqn:Ecs|].
    - apply ok_ret. split; [done|]. split; [apply ext_refl|]. by exists i4.
    - assert (Hlt : (gf < n0)%positive) by (by apply (proj2 Hsrc gf gd)).
      eapply ok_bind; [exact (ok_op _ _ _ _ (op_provide_grader n0 s4 [] _ R w gf (dp_local gd) Hlt) (I_start _ _ _ _ (I_inv _ _ _ _ _ _ H14)))|].
      intros [] s5 (Ha & Hb & Hin & H5). apply ok_ret.
      split; [apply I_add_input; [by right|]; exact (I_trans _ _ _ _ _ _ _ _ _ _ H14 H5)|]. split; [by eapply I_ext|].
      eexists. split; [done|]. split.
      + intros p Hp. rewrite aget_ainsert, decide_False; [done|]. intros ->. apply Hp. by left.
      + intros gf0 gd0 [= <- <-] _. split; [by rewrite aget_ainsert, decide_True|done].
    - apply ok_ret. split; [done|]. split; [apply ext_refl|]. by exists i4. }
  intros e5 s5 (H5 & X45 & i5 & -> & Hk5 & Hg5). cbn beta. apply ok_ret.
  split; [by apply I_env, I_env, I_limits|]. exists u, i5. split; [done|]. intros H15.
  pose proof (ext_trans _ _ _ _ (I_ext _ _ _ _ _ _ H4) X45) as X35.
  split.
  - exists exe. split; [by apply (l_exe_of s1)|]. rewrite app_nil_r, not_elem_of_app. intros [Hn1 Hn2].
    rewrite Hk5 by done. rewrite Hk4 by done. cbn. by rewrite aget_ainsert, decide_True.
  - intros ds1 d ds2 E. rewrite app_nil_r, not_elem_of_app. intros [Hn1 Hn2]. destruct (Hd4 ds1 d ds2 E Hn1) as (f & Ha & Hb).
    exists f. split; [by rewrite Hk5|]. exact (holds_ext _ _ _ _ _ _ X45 Hb).
  - intros gf gd Eg Ec _. by apply Hg5.
  - intros a Ha Hw Hn. rewrite app_nil_r, not_elem_of_cons, not_elem_of_app in Hn. destruct Hn as (Hn1 & Hn2 & Hn3).
    destruct (Hargs a Ha Hw) as (f & Hf & Hh). exists f. split; [|exact (holds_ext _ _ _ _ _ _ X35 Hh)].
    rewrite Hk5 by done. rewrite Hk4 by done. cbn. by rewrite aget_ainsert, decide_False.
  - intros p f x Hp. rewrite app_nil_r.
    destruct (decide (p ∈ sf_exe_name src :: map dp_sandbox (sf_runtime_deps src) ++ runtime_grader src)) as [|Hn]; [by left|].
    rewrite not_elem_of_cons, not_elem_of_app in Hn. destruct Hn as (Hn1 & Hn2 & Hn3).
    rewrite Hk5 in Hp by done. rewrite Hk4 in Hp by done. cbn in Hp. rewrite aget_ainsert, decide_False in Hp by done.
    right. destruct (decide (p ∈ args)) as [Hin|Hni]; [|by rewrite Hk3 in Hp by (by left)]. split; [done|].
    destruct (w_exists w (path_join (sf_base src) p)) eqn:Ew; [done|]. by rewrite Hk3 in Hp by (by right).
Qed.
End build.
