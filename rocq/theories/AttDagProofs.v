(** * AttDagProofs: the executions of a pair of sample files *)
From Verif Require Import BuildModel BuildSpec CheckDagSpec BuildProofs BuildProofs2 BuildProofs3 BuildProofs4 BuildProofs5 BuildProofs6 AttDagModel AttDagSpec.
From Coq Require Import Ascii String.
From stdpp Require Import base.

Section att.
Context (n0 : positive) (w : world) (c : build_config) (src_of : positive -> source) (gpath : positive -> string) (t : btask).
Local Notation src_ok := (src_ok n0 src_of gpath).
Local Notation exes_ok := (exes_ok n0 w c src_of gpath).
Local Notation later := (later n0 w c src_of gpath).
Local Notation K := (K n0 w c src_of gpath).
Local Notation keeps := (keeps n0 w gpath).
Local Notation val_src := (val_src n0 src_of gpath).
Local Notation out_src := (out_src n0 src_of gpath).
Local Notation check_src := (check_src n0 src_of gpath).
Ltac kp := repeat first
  [ apply keeps_ret | apply keeps_err | apply keeps_new_id | apply keeps_provide_key | apply keeps_provide_new | apply keeps_write
  | (apply keeps_role; reflexivity) | apply keeps_group | apply keeps_add_execution | apply keeps_stdout | apply keeps_stderr
  | apply keeps_capture_stdout | apply keeps_capture_stderr | apply keeps_output | apply keeps_exec_io | (apply keeps_bind; [|intros; cbn beta zeta])
  | match goal with |- keeps _ (match ?x with _ => _ end) => destruct x | |- keeps (match ?x with _ => _ end) => destruct x end ].

Lemma att_validate_ok v name fi P R s : val_src v -> exes_ok s -> Inv n0 P R s -> known s fi ->
  ok (att_validate w c v name fi s) (fun val s' => K s (match v with VAssume => [] | VCustom _ _ => [said_invalid name] end) P R s' /\
    (sample_validated n0 w c s' v name fi val /\ forall fv, val = Some fv -> known s' fv)).
Proof.
  intros Hsrc Hall Hi Hfi. unfold att_validate. destruct v as [|src args]; cbn [BuildProofs4.val_src] in *.
  - apply ok_ret. split; [by apply K_start|]. split; [done|]. by intros fv.
  - apply (execute_then n0 w c src_of gpath src args _ P R s [said_invalid name] (fun _ => P) R); [done|done|done| |].
    { intros e. kp. }
    intros u i s1 Hl1 Hi1 Hb. cbn zeta.
    set (e2 := add_env "TM_SUBTASK_NAME" _ _).
    assert (H1 : I n0 s1 [] (e2 :: P) R s1).
    { apply I_env, I_env, I_env, I_tag, I_add_input; [by apply (l_known n0 w c src_of gpath s)|]. by apply I_start. }
    assert (H2 : I n0 s1 [] (set_limits (allow_multiprocess (e_limits e2)) e2 :: P) R s1) by (by apply I_limits).
    eapply ok_bind; [exact (ok_op _ _ _ _ (op_stdout n0 s1 [] P R _) H2)|].
    intros [f e3] s2 (Ho & -> & Hge & H3). cbn [fst snd] in *.
    eapply ok_bind; [exact (ok_op _ _ _ _ (op_capture_stderr n0 s1 [] P R _ 1024) H3)|].
    intros e4 s4 ((f4 & ->) & H4). set (e4 := set_captures _ _ _) in *. cbn beta. rewrite bind_assoc.
    eapply ok_bind; [apply (finish_ok n0 c [] P R s1 s4 e4 (said_invalid name)); done|].
    intros [] s5 (H5 & Hr & Hk). apply ok_ret. cbn [app] in H5.
    split; [done|]. intros H15. split.
    + exists e4, f. split; [done|]. split; [done|]. split.
      { split; [done|]. split; [done|]. split; [done|]. apply (boxed_add n0 w c src_of gpath). by apply (l_boxed n0 w c src_of gpath s1). }
      split_and!; try done. cbn. by rewrite aget_ainsert, decide_True.
    + intros fv [= <-]. apply Hk. by apply stdout_in.
Qed.

Lemma att_solve_ok g name fi val P R s : out_src g -> exes_ok s -> Inv n0 P R s -> known s fi -> (forall fv, val = Some fv -> known s fv) ->
  ok (att_solve w c t g name fi val s) (fun fo s' => K s (match g with OCustom _ _ => [said_solution name] | _ => [] end) P R s' /\
    (sample_solved n0 w c t s' g name fi val fo /\ known s' fo /\ (fo < b_next s')%positive /\ (n0 <= fo)%positive)).
Proof.
  intros Hsrc Hall Hi Hfi Hval. unfold att_solve. destruct g as [|p|src args]; cbn [BuildProofs4.out_src] in *.
  - apply (ok_keeps n0 w c src_of gpath _ s P R [] (fun _ => P) R); [kp|done|].
    eapply ok_bind; [apply ok_op with (1 := op_new_id n0 s [] P R); by apply I_start|].
    intros f s1 (Hge & Hn & H1). cbn beta.
    assert (Hlt : (f < b_next s1)%positive) by (eapply Inv_R_lt; [by eapply I_inv|by left]).
    unfold bind, provide_key, ret, ok. pose proof (op_provide_key n0 s [] P R f (bc_empty c) Hge s1 H1) as (Ha & H2).
    split; [exact H2|]. split; [exact Ha|]. split; [right; by eapply aget_elem|done].
  - destruct (w_exists w p); [|done].
    apply (ok_keeps n0 w c src_of gpath _ s P R [] (fun _ => P) R); [kp|done|].
    eapply ok_conseq; [by apply new_provided|]. intros f s1 (H1 & H2 & H3). split; [done|]. split; [done|]. split; [by eapply holds_known|].
    destruct H2 as (A1 & A2 & _). done.
  - apply (execute_then n0 w c src_of gpath src args _ P R s [said_solution name] (fun _ => P) R); [done|done|done| |].
    { intros e. kp. }
    intros u i s1 Hl1 Hi1 Hb.
    set (e1 := set_tag _ _ _).
    assert (H1 : I n0 s1 [] (e1 :: P) R s1) by (apply I_tag; by apply I_start).
    eapply ok_bind; [apply (exec_io_ok n0 w c src_of gpath t [] P R s1 s1 e1 fi val H1); try done; [by apply (l_known n0 w c src_of gpath s)|]; intros fv Hv; apply (l_known n0 w c src_of gpath s); [done|by apply Hval]|].
    intros [f e2] s2 (H2 & Hio & Hfo & Hge & Hsm & Hbx). cbn [fst snd] in *. specialize (Hge eq_refl).
    eapply ok_bind; [exact (ok_op _ _ _ _ (op_capture_stderr n0 s1 [] P R _ 1024) H2)|].
    intros e4 s4 ((f4 & ->) & H4). set (e4 := set_captures _ _ _) in *. cbn beta. rewrite bind_assoc.
    assert (Hfo4 : f ∈ outputs e4).
    { destruct Hsm as (_ & _ & _ & Hse & _). unfold outputs in *. cbn. rewrite Hse in Hfo. cbn in Hfo. set_solver. }
    assert (Hlt : (f < b_next s4)%positive).
    { apply (Inv_P_lt _ _ _ _ _ (I_inv _ _ _ _ _ _ H4)). apply (outs_in e4); [by left|done]. }
    eapply ok_bind; [apply (finish_ok n0 c [] P R s1 s4 e4 (said_solution name)); done|].
    intros [] s5 (H5 & Hr & Hk). apply ok_ret. cbn [app] in H5. split; [done|]. intros H15.
    destruct Hsm as (G1 & G2 & G3 & G4 & G5 & G6 & G7 & G8 & G9 & G10 & G11).
    split; [|split; [by apply Hk|split]].
    + exists e4. split; [done|]. split.
      { split; [done|]. split; [done|]. split; [done|]. cbn. apply Hbx. cbn. by apply (l_boxed n0 w c src_of gpath s1). }
      split_and!; done.
    + eapply Inv_known_lt; [by eapply I_inv|]. by apply Hk.
    + pose proof (i_n0 _ _ _ _ Hi1). lia.
Qed.

Lemma att_check_ok ck name fi fc ft P R s : check_src ck -> exes_ok s -> Inv n0 P R s -> known s fi -> known s fc -> known s ft ->
  ok (att_check w c ck name fi fc ft s) (fun _ s' => K s [said_score name] P R s' /\ sample_checked n0 w c s' ck name fi fc ft).
Proof.
  intros Hsrc Hall Hi Hfi Hfc Hft. unfold att_check. destruct ck as [|src]; cbn [BuildProofs4.check_src] in *.
  - apply (ok_keeps n0 w c src_of gpath _ s P R [said_score name] (fun _ => P) R); [kp|done|].
    rewrite <- bind_assoc. eapply ok_bind; [apply ok_op with (1 := op_new_id n0 s [] P R); by apply I_start|].
    intros u s1 (_ & _ & H1). cbn beta. apply ok_ret_bind. apply I_exec with (cmd := System "diff") in H1.
    set (e := set_tag _ _ _).
    assert (Hk1 : forall f, known s f -> known s1 f) by (intros f; apply (known_ext n0), (I_ext _ _ _ _ _ _ H1)).
    assert (H2 : I n0 s [] (e :: P) R s1) by (by apply I_tag, I_add_input, I_add_input, I_args; [apply Hk1|apply Hk1|]).
    eapply ok_conseq; [apply (finish_ok n0 c [] P R s s1 e (said_score name)); done|].
    intros [] s2 (H3 & Hr & _). split; [done|]. exists e. by split_and!.
  - rewrite <- bind_assoc.
    apply (execute_then n0 w c src_of gpath src _ _ P R s [said_score name] (fun _ => P) R); [done|done|done| |].
    { intros e. kp. }
    intros u i s1 Hl1 Hi1 Hb. cbn zeta.
    set (e1 := set_tag _ _ _).
    assert (Hk1 : forall f, known s f -> known s1 f) by (intros f; by apply (l_known n0 w c src_of gpath)).
    assert (H1 : I n0 s1 [] (e1 :: P) R s1).
    { apply I_tag, I_add_input; [by apply Hk1|]. apply I_add_input; [by apply Hk1|]. apply I_add_input; [by apply Hk1|]. by apply I_start. }
    rewrite <- bind_assoc. eapply ok_bind; [exact (ok_op _ _ _ _ (op_capture_stdout n0 s1 [] P R _ 128) H1)|].
    intros e2 s2 ((f2 & -> & _) & H2). rewrite <- bind_assoc.
    eapply ok_bind; [exact (ok_op _ _ _ _ (op_capture_stderr n0 s1 [] P R _ stderr_length) H2)|].
    intros e3 s3 ((f3 & ->) & H3). apply ok_ret_bind. set (e3 := set_limits _ _).
    assert (H3' : I n0 s1 [] (e3 :: P) R s3) by (by apply I_limits).
    eapply ok_conseq; [apply (finish_ok n0 c [] P R s1 s3 e3 (said_score name)); done|].
    intros [] s4 (H4 & Hr & _). split; [done|]. intros H14. exists e3.
    split; [done|]. split; [done|]. split; [done|]. split; [done|]. split.
    { split; [done|]. split; [done|]. split; [done|]. do 3 apply (boxed_add n0 w c src_of gpath). by apply (l_boxed n0 w c src_of gpath s1). }
    split_and!; try done; cbn; rewrite ?aget_ainsert; done.
Qed.

(** ** What was established stays *)
Lemma l_validated s s' v name fi val : val_src v -> later s s' ->
  sample_validated n0 w c s v name fi val -> sample_validated n0 w c s' v name fi val.
Proof.
  intros Hs H H2. destruct v as [|src args]; [done|]. destruct H2 as (e & fv & Hv & Ha & Hb & Hc). exists e, fv.
  split; [done|]. split; [by apply (l_role n0 w c src_of gpath s)|]. split; [by apply (l_runs n0 w c src_of gpath s)|done].
Qed.
Lemma l_solved s s' g name fi val fo : out_src g -> (fo < b_next s)%positive -> (n0 <= fo)%positive -> later s s' ->
  sample_solved n0 w c t s g name fi val fo -> sample_solved n0 w c t s' g name fi val fo.
Proof.
  intros Hs Hf Hn H H2. destruct g as [|p|src args]; cbn [sample_solved] in *.
  - rewrite <- H2. by apply (x_provided _ _ _ (l_ext _ _ _ _ _ _ _ H)).
  - by apply (l_holds n0 w c src_of gpath s).
  - destruct H2 as (e & Ha & Hb & Hc). exists e. split; [by apply (l_role n0 w c src_of gpath s)|]. split; [by apply (l_runs n0 w c src_of gpath s)|done].
Qed.
Lemma l_checked s s' ck name fi fc ft : check_src ck -> later s s' ->
  sample_checked n0 w c s ck name fi fc ft -> sample_checked n0 w c s' ck name fi fc ft.
Proof.
  intros Hs H (e & H1 & H2 & H3 & H4 & H5). exists e. split; [by apply (l_role n0 w c src_of gpath s)|]. split; [done|]. split; [done|]. split; [done|].
  destruct ck as [|src]; [done|]. destruct H5 as [Ha Hb]. split; [by apply (l_runs n0 w c src_of gpath s)|done].
Qed.

(** [sample_ok], with what keeps it *)
Definition official_src (o : option output_generator) : Prop := match o with Some g => out_src g | None => True end.
Definition sample_done (s : bstate) v official ck (p : string * string) : Prop :=
  exists fi val, holds n0 w s fi (fst p) /\ sample_validated n0 w c s v (fst p) fi val /\
    match official with
    | None => True
    | Some g => exists fc ft, holds n0 w s ft (snd p) /\ (fc < b_next s)%positive /\ (n0 <= fc)%positive /\
        sample_solved n0 w c t s g (fst p) fi val fc /\ sample_checked n0 w c s ck (snd p) fi fc ft
    end.
Lemma sample_done_ok s v official ck p : sample_done s v official ck p -> sample_ok n0 w c t s v official ck p.
Proof.
  intros (fi & val & H1 & H2 & H3). exists fi, val. split; [done|]. split; [done|]. destruct official as [g|]; [|done].
  destruct H3 as (fc & ft & A & _ & _ & B & C). by exists fc, ft.
Qed.
Lemma l_sample_done s s' v official ck p : val_src v -> official_src official -> check_src ck -> later s s' ->
  sample_done s v official ck p -> sample_done s' v official ck p.
Proof.
  intros Hv Ho Hc L (fi & val & H1 & H2 & H3). exists fi, val. split; [by apply (l_holds n0 w c src_of gpath s)|]. split; [by apply (l_validated s)|].
  destruct official as [g|]; [|done]. destruct H3 as (fc & ft & A & B & B' & C & D). exists fc, ft.
  pose proof (x_next _ _ _ (l_ext _ _ _ _ _ _ _ L)).
  split; [by apply (l_holds n0 w c src_of gpath s)|]. split; [lia|]. split; [done|]. split; [by apply (l_solved s)|by apply (l_checked s)].
Qed.

Lemma provide_new_K p P R s : Inv n0 P R s ->
  ok (provide_new w p s) (fun f s' => K s [] P R s' /\ holds n0 w s' f p).
Proof.
  intros Hi. apply (ok_keeps n0 w c src_of gpath _ s P R [] (fun _ => P) R); [kp|done|].
  eapply ok_conseq; [by apply new_provided|]. by intros f s1 (H1 & H2 & H3).
Qed.

Lemma att_sample_ok v official ck p P R s : val_src v -> official_src official -> check_src ck -> exes_ok s -> Inv n0 P R s ->
  ok (att_sample w c t v official ck p s) (fun _ s' => K s (sample_roles v official p) P R s' /\ sample_done s' v official ck p).
Proof.
  intros Hv Ho Hc Hall Hi. unfold att_sample.
  eapply ok_bind; [by apply provide_new_K|]. intros fi s1 (K1 & H1). pose proof (K_later _ _ _ _ _ _ _ _ _ _ K1) as L1.
  eapply ok_bind; [apply (att_validate_ok v (fst p) fi P R s1); [done|by eapply l_exes_ok|by eapply K_inv|by eapply holds_known]|].
  intros val s2 (K2 & H2 & H2k). pose proof (K_later _ _ _ _ _ _ _ _ _ _ K2) as L2.
  pose proof (K_trans _ _ _ _ _ _ _ _ _ _ _ _ _ _ K1 K2) as K12. pose proof (later_trans _ _ _ _ _ _ _ _ L1 L2) as L12.
  destruct official as [g|]; cbn [official_src] in *.
  2:{ apply ok_ret. split; [unfold sample_roles; rewrite app_nil_r; exact K12|]. exists fi, val. split; [by apply (l_holds n0 w c src_of gpath s1)|done]. }
  eapply ok_bind; [apply (provide_new_K (snd p) P R s2); by eapply K_inv|]. intros ft s3 (K3 & H3). pose proof (K_later _ _ _ _ _ _ _ _ _ _ K3) as L3.
  pose proof (later_trans _ _ _ _ _ _ _ _ L12 L3) as L13.
  eapply ok_bind; [apply (att_solve_ok g (fst p) fi val P R s3); try done; [by eapply l_exes_ok|by eapply K_inv| |]|].
  { eapply holds_known. apply (l_holds n0 w c src_of gpath s1); [|done]. by eapply later_trans. }
  { intros fv E. apply (l_known n0 w c src_of gpath s2); [done|by apply H2k]. }
  intros fc s4 (K4 & H4 & H4k & H4l & H4n). pose proof (K_later _ _ _ _ _ _ _ _ _ _ K4) as L4.
  pose proof (later_trans _ _ _ _ _ _ _ _ L13 L4) as L14. pose proof (later_trans _ _ _ _ _ _ _ _ L3 L4) as L24.
  pose proof (later_trans _ _ _ _ _ _ _ _ L2 L24) as L1_4.
  eapply ok_conseq; [apply (att_check_ok ck (snd p) fi fc ft P R s4); try done; [exact (l_exes_ok _ _ _ _ _ _ _ L14 Hall)|by eapply K_inv| |]|].
  { eapply holds_known. by apply (l_holds n0 w c src_of gpath s1). }
  { eapply holds_known. by apply (l_holds n0 w c src_of gpath s3). }
  intros [] s5 (K5 & H5). pose proof (K_later _ _ _ _ _ _ _ _ _ _ K5) as L5. pose proof (x_next _ _ _ (l_ext _ _ _ _ _ _ _ L5)).
  split.
  - pose proof (K_trans _ _ _ _ _ _ _ _ _ _ _ _ _ _ K12 (K_trans _ _ _ _ _ _ _ _ _ _ _ _ _ _ K3 (K_trans _ _ _ _ _ _ _ _ _ _ _ _ _ _ K4 K5))) as KK.
    unfold sample_roles. exact KK.
  - exists fi, val. split; [apply (l_holds n0 w c src_of gpath s1); [by eapply later_trans|done]|].
    split; [apply (l_validated s2); [done|by eapply later_trans|done]|]. exists fc, ft.
    split; [apply (l_holds n0 w c src_of gpath s3); [by eapply later_trans|done]|]. split; [lia|]. split; [done|].
    split; [by apply (l_solved s4)|done].
Qed.

Lemma att_hook_ok v official samples P R s : val_src v -> official_src official -> type_src n0 src_of gpath (bk_type t) -> exes_ok s -> Inv n0 P R s ->
  ok (att_hook w c t v official samples s) (fun _ s' => K s (hook_roles t v official samples) P R s' /\
    forall ck p, bk_type t = TBatch ck -> p ∈ samples -> sample_done s' v official ck p).
Proof.
  intros Hv Ho Ht Hall Hi. unfold att_hook, hook_roles. destruct (bk_type t) as [ck|m n io|] eqn:E; cbn [BuildProofs4.type_src] in *.
  - eapply ok_conseq; [apply (mforeach_ok n0 w c src_of gpath _ samples (sample_roles v official) (fun s => exes_ok s) (fun p s => sample_done s v official ck p) P R s); try done|].
    + intros x x' L Hx. by eapply l_exes_ok.
    + intros p x x' _ L. by apply l_sample_done.
    + intros p x _ Ix Hx. by apply att_sample_ok.
    + intros [] s1 (H1 & H2). split; [done|]. intros ck' p [= <-] Hp. by apply H2.
  - apply ok_ret. split; [by apply K_start|done].
  - apply ok_ret. split; [by apply K_start|done].
Qed.
End att.
