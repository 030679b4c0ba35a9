(** * BadCaseProofs3: the batch and the patched DAG *)
From Verif Require Import BuildModel BuildSpec CheckDagSpec BuildProofs BuildProofs2 BuildProofs3 BuildProofs4 BuildProofs5 BuildProofs6 BuildProofs7 BuildProofs8 BuildProps BadCaseModel BadCaseSpec BadCaseProofs BadCaseProofs2.
From Coq Require Import Ascii String.
From stdpp Require Import base list.

Lemma case_id_eq size index i : in_range size index -> i < size -> case_id size index i = index * size + i.
Proof. unfold in_range, case_id. intros H Hi. rewrite N.mod_small by lia. lia. Qed.
Lemma case_id_fits size index i : in_range size index -> i < size -> fits_u32 (index * size + i) = true.
Proof. unfold in_range, fits_u32. intros H Hi. apply bool_decide_eq_true. lia. Qed.
Lemma generator_args_ok user seed : args_ok user seed (generator_args user seed).
Proof. induction user as [|a l IH]; cbn; constructor; [|done]. by destruct (decide (a = "{}")). Qed.
Lemma path_join_rel dir a : dir <> "" -> starts_with_slash a = false -> path_join dir a = dir +:+ "/" +:+ a.
Proof. intros Hd Ha. unfold path_join. rewrite Ha. by rewrite bool_decide_false. Qed.
Lemma case_for_ok dir user seed : dir <> "" -> case_ok dir user seed (case_for dir user seed).
Proof. intros Hd. unfold case_for. rewrite !path_join_rel by done. split_and!; [done|apply generator_args_ok|done..]. Qed.

(** Inserting a list of pairs *)
Lemma fold_insert {A} (f : nat -> nat) (g : nat -> A) l (m : gmap nat A) k : (forall i j, i ∈ l -> j ∈ l -> f i = f j -> i = j) ->
  fold_left (fun m i => <[f i := g i]> m) l m !! k =
    match list_find (fun i => f i = k) l with Some (_, i) => Some (g i) | None => m !! k end.
Proof.
  revert m. induction l as [|i l IH]; intros m H; cbn [fold_left list_find]; [done|].
  rewrite IH by (intros; apply H; [by right|by right|done]). destruct (decide (f i = k)) as [E|E].
  - destruct (list_find (fun i => f i = k) l) as [[n j]|] eqn:F; cbn; [|by rewrite <-E, lookup_insert].
    apply list_find_Some in F as (F1 & F2 & _). apply elem_of_list_lookup_2 in F1.
    rewrite (H i j); [done|by left|by right|congruence].
  - destruct (list_find (fun i => f i = k) l) as [[n j]|] eqn:F; cbn; [done|]. by rewrite lookup_insert_ne.
Qed.
Lemma fold_batch {A} size index (g : nat -> A) k : in_range size index ->
  (forall i, i < size -> fold_left (fun m i => <[case_id size index i := g i]> m) (seq 0 size) (∅ : gmap nat A) !! (index * size + i) = Some (g i)) /\
  (is_Some (fold_left (fun m i => <[case_id size index i := g i]> m) (seq 0 size) (∅ : gmap nat A) !! k) -> exists i, i < size /\ k = index * size + i).
Proof.
  intros Hr. assert (Hinj : forall i j, i ∈ seq 0 size -> j ∈ seq 0 size -> case_id size index i = case_id size index j -> i = j).
  { intros i j Hi Hj. apply elem_of_seq in Hi, Hj. rewrite !case_id_eq by (done || lia). lia. }
  split.
  - intros i Hi. rewrite fold_insert by done. destruct (list_find _ _) as [[n j]|] eqn:F.
    + apply list_find_Some in F as (F1 & F2 & _). apply elem_of_list_lookup_2, elem_of_seq in F1. rewrite case_id_eq in F2 by (done || lia). f_equal. f_equal. lia.
    + apply list_find_None in F. rewrite Forall_forall in F. destruct (F i); [apply elem_of_seq; lia|]. by apply case_id_eq.
  - rewrite fold_insert by done. destruct (list_find _ _) as [[n j]|] eqn:F; [|rewrite lookup_empty; by intros []].
    apply list_find_Some in F as (F1 & F2 & _). apply elem_of_list_lookup_2, elem_of_seq in F1. intros _. exists j. split; [lia|]. rewrite case_id_eq in F2 by (done || lia). done.
Qed.

Lemma find_template_spec vals gen out : find_template vals = Some (gen, out) -> exists a, BTestcase (ICustom gen a) out ∈ vals.
Proof.
  induction vals as [|[[p|s a] o] l IH]; cbn; [done| |].
  - intros H. destruct (IH H) as [a Ha]. exists a. by right.
  - intros [= -> ->]. exists a. by left.
Qed.
Lemma find_template_none vals : find_template vals = None -> forall gen a out, BTestcase (ICustom gen a) out ∉ vals.
Proof. induction vals as [|[[p|s a] o] l IH]; cbn; [set_solver| |done]. intros H gen a out [E|Hin]%elem_of_cons; [done|]. by apply (IH H gen a out). Qed.

Lemma patch_task_ok t validator vals ord user size index dir seed t' b :
  (forall l, ord l ≡ₚ l) -> vals ≡ₚ (map_to_list (bk_testcases t)).*2 -> in_range size index -> dir <> "" ->
  patch_task t validator vals ord user size index dir seed = ROk (t', b) -> batch_task t validator user size index dir seed t' b.
Proof.
  intros Hord Hv Hr Hd. unfold patch_task. destruct (find_template vals) as [[gen out]|] eqn:F; [|done].
  destruct (find_template_spec _ _ _ F) as [a Ha]. rewrite Hv in Ha. apply elem_of_list_fmap in Ha as ([tc0 bt0] & E0 & Ha). cbn in E0. subst bt0.
  apply elem_of_map_to_list in Ha.
  set (tcs := fold_left _ (seq 0 size) (∅ : gmap nat btestcase)). cbv zeta. match goal with |- context [ROk (_, ?x)] => set (bb := x) end.
  assert (H1 := fun k => fold_batch size index (fun i => BTestcase (ICustom gen (generator_args user (seed i))) out) k Hr).
  assert (H2 := fun k => fold_batch size index (fun i => case_for dir user (seed i)) k Hr).
  change (gmap nat case_data) with batch in H2. fold tcs in H1. intros [= <- <-]. split.
  - exists gen, a, out, tc0. split; [done|]. intros i Hi. exists (case_for dir user (seed i)). cbn [bk_testcases].
    split; [by apply (H2 0)|]. split; [by apply case_for_ok|]. by apply (H1 0).
  - cbn [bk_testcases]. intros tc [H|H]; [by apply H2|by apply H1].
  - eexists. split; [reflexivity|]. cbn. split; [done|]. split; [done|]. split; [|done]. rewrite Hord.
    apply NoDup_Permutation; [apply NoDup_fst_map_to_list|apply NoDup_seq|]. intros tc. rewrite elem_of_seq. split.
    + intros ([tc' bt] & -> & H)%elem_of_list_fmap. apply elem_of_map_to_list in H. cbn.
      destruct (proj2 (H1 tc')) as (i & Hi & ->); [by exists bt|]. lia.
    + intros H. apply elem_of_list_fmap. exists (tc, BTestcase (ICustom gen (generator_args user (seed (tc - index * size)))) out). split; [done|].
      apply elem_of_map_to_list. replace tc with (index * size + (tc - index * size)) at 1 by lia. apply (H1 0). lia.
  - cbn. tauto.
Qed.

(** ** The destinations *)
Lemma name_shape root dir (pre : string) (n : nat) : root <> "" -> dir = "input" \/ dir = "output" -> pre = dir ->
  strip_components (components root) (components (root +:+ "/" +:+ dir +:+ "/" +:+ (pre +:+ pretty n +:+ ".txt"))) = Some [dir; pre +:+ pretty n +:+ ".txt"].
Proof.
  intros Hr Hd ->. apply strip_file; [done|by destruct Hd as [-> | ->]| |by destruct Hd as [-> | ->]|].
  - unfold ordinary. rewrite !bool_decide_false; [done| |]; destruct Hd as [-> | ->]; done.
  - rewrite !absent_app, absent_pretty by done. by destruct Hd as [-> | ->].
Qed.
Lemma input_dest root n : root <> "" -> input_file_name root n = root +:+ "/" +:+ "input" +:+ "/" +:+ ("input" +:+ pretty n +:+ ".txt").
Proof. intros H. unfold input_file_name. rewrite (path_join_rel root) by done. rewrite path_join_rel; [by rewrite !app_str_assoc|by destruct root|done]. Qed.
Lemma output_dest root n : root <> "" -> output_file_name root n = root +:+ "/" +:+ "output" +:+ "/" +:+ ("output" +:+ pretty n +:+ ".txt").
Proof. intros H. unfold output_file_name. rewrite (path_join_rel root) by done. rewrite path_join_rel; [by rewrite !app_str_assoc|by destruct root|done]. Qed.
Lemma redirect_input root b f n x : root <> "" -> fits_u32 n = true ->
  redirect root b (f, (input_file_name root n, x)) = match b !! n with Some d => ROk (f, WriteTo (cd_input d) x true) | None => RErr end.
Proof.
  intros Hr Hn. unfold redirect. rewrite input_dest, name_shape by auto. cbn [first_is]. change (negb (bool_decide ("input" = "input")) && negb (bool_decide ("output" = "input"))) with false.
  cbn iota. rewrite (id_of_name "in" n) by auto. by destruct (b !! n).
Qed.
Lemma redirect_output root b f n x : root <> "" -> fits_u32 n = true ->
  redirect root b (f, (output_file_name root n, x)) = match b !! n with Some d => ROk (f, WriteTo (cd_correct d) x true) | None => RErr end.
Proof.
  intros Hr Hn. unfold redirect. rewrite output_dest, name_shape by auto. cbn [first_is]. change (negb (bool_decide ("input" = "output")) && negb (bool_decide ("output" = "output"))) with false.
  cbn iota. rewrite (id_of_name "out" n) by auto. by destruct (b !! n).
Qed.
Lemma redirect_exe root b f p x dir : inside root dir p -> dir <> "input" -> dir <> "output" -> redirect root b (f, (p, x)) = ROk (f, WriteTo p x false).
Proof.
  intros [rest E] H1 H2. unfold redirect. rewrite E, strip_app. cbn [first_is]. by rewrite !bool_decide_false.
Qed.
Lemma redirects_spec root b l r : redirects root b l = ROk r <-> Forall2 (fun w x => redirect root b w = ROk x) l r.
Proof.
  revert r. induction l as [|w l IH]; intros r; cbn.
  - split; [intros [= <-]; constructor|by inversion 1].
  - split.
    + destruct (redirect root b w) as [x| |] eqn:E; [|done..]. destruct (redirects root b l) as [r'| |] eqn:E'; [|done..]. intros [= <-]. constructor; [done|by apply IH].
    + inversion 1 as [|? x ? r' Hx Hr]; subst. rewrite Hx. apply IH in Hr. by rewrite Hr.
Qed.
Lemma redirects_total root b l : (forall w, w ∈ l -> exists x, redirect root b w = ROk x) -> exists r, redirects root b l = ROk r.
Proof.
  induction l as [|w l IH]; intros H; [by exists []|]. destruct (H w) as [x Hx]; [by left|]. destruct IH as [r Hr]; [intros; apply H; by right|].
  exists (x :: r). apply redirects_spec. constructor; [done|]. by apply redirects_spec.
Qed.
Lemma redirect_key root b w x : redirect root b w = ROk x -> fst x = fst w.
Proof.
  destruct w as [f [p e]]. unfold redirect. destruct (strip_components _ _) as [q|]; [|done]. destruct (_ && _); [by intros [= <-]|].
  destruct (id_of_file q) as [[tc|]| |]; try done. destruct (b !! tc); [|done]. by intros [= <-].
Qed.
Lemma aget_redirects root b l r f v : redirects root b l = ROk r -> aget f l = Some v -> exists x, redirect root b (f, v) = ROk (f, x) /\ aget f r = Some x.
Proof.
  intros H. apply redirects_spec in H. revert v. induction H as [|[k u] [k' x] l r Hx _ IH]; intros v; cbn; [done|].
  pose proof (redirect_key _ _ _ _ Hx) as E. cbn in E. subst k'. destruct (decide (f = k)) as [->|Hf]; [|apply IH]. intros [= ->]. by exists x.
Qed.

(** ** The executions *)
Lemma patch_exec_spec nm ty roles b e e' fs n : patch_exec nm ty roles b e = ROk (e', fs, n) ->
  e' = urgent e /\ n = (if bool_decide (e_tag e = Some "evaluation" \/ e_tag e = Some "checking") then 1 else 0) /\
  (forall f p, (f, p) ∈ fs -> e_tag e = Some "evaluation" /\ e_stdout e = Some f /\
     exists tc d, id_of_description (match aget (e_uuid e) roles with Some r => description nm ty r | None => "" end) = ROk (Some tc) /\ b !! tc = Some d /\ p = cd_output d) /\
  (e_tag e = Some "evaluation" -> forall f, e_stdout e = Some f -> exists p, fs = [(f, p)]).
Proof.
  unfold patch_exec, urgent. destruct (decide (e_tag e = Some "evaluation")) as [E|E].
  - rewrite bool_decide_true by auto. destruct (e_stdout e) as [f|] eqn:Es.
    + destruct (id_of_description _) as [[tc|]| |] eqn:Ed; try done. destruct (b !! tc) as [d|] eqn:Eb; [|done]. intros [= <- <- <-].
      split; [done|]. split; [done|]. split; [|intros _ f' [= <-]; eauto]. intros f' p H. apply elem_of_list_singleton in H as [= -> ->]. eauto 10.
    + intros [= <- <- <-]. split; [done|]. split; [done|]. split; [|done]. intros f p H. by apply elem_of_nil in H.
  - destruct (decide (e_tag e = Some "checking")) as [E'|E'].
    + rewrite bool_decide_true by auto. intros [= <- <- <-]. split; [done|]. split; [done|]. split; [|congruence]. intros f p H. by apply elem_of_nil in H.
    + rewrite bool_decide_false by tauto. intros [= <- <- <-]. split; [done|]. split; [done|]. split; [|congruence]. intros f p H. by apply elem_of_nil in H.
Qed.
Definition counted (e : execution) : Prop := e_tag e = Some "evaluation" \/ e_tag e = Some "checking".
Global Instance counted_dec e : Decision (counted e). Proof. unfold counted. apply _. Defined.
Definition exec_rel nm ty roles b (e : execution) (fs : list (file_uuid * string)) : Prop :=
  exists n, patch_exec nm ty roles b e = ROk (urgent e, fs, n).
Lemma patch_execs_spec nm ty roles b l l' fs n : patch_execs nm ty roles b l = ROk (l', fs, n) ->
  l' = map urgent l /\ n = length (filter counted l) /\ exists fss, Forall2 (exec_rel nm ty roles b) l fss /\ fs = mjoin fss.
Proof.
  revert l' fs n. induction l as [|e l IH]; intros l' fs n; cbn [patch_execs map].
  - intros [= <- <- <-]. split; [done|]. split; [done|]. exists []. split; [constructor|done].
  - destruct (patch_exec nm ty roles b e) as [[[e' f1] n1]| |] eqn:E; [|done..]. destruct (patch_execs nm ty roles b l) as [[[l1 f2] n2]| |] eqn:E'; [|done..].
    intros [= <- <- <-]. destruct (IH l1 f2 n2 eq_refl) as (-> & -> & fss & HF & ->). pose proof (patch_exec_spec _ _ _ _ _ _ _ _ E) as (-> & -> & _).
    split; [done|]. split.
    + rewrite filter_cons. unfold counted at 1. case_bool_decide as Hb; [rewrite decide_True by done|rewrite decide_False by done]; done.
    + exists (f1 :: fss). split; [|done]. constructor; [|done]. by eexists.
Qed.
Lemma mjoin_app' {A} (l k : list (list A)) : mjoin (l ++ k) = mjoin l ++ mjoin k.
Proof. induction l as [|x l IH]; [done|]. change (x ++ mjoin (l ++ k) = (x ++ mjoin l) ++ mjoin k). by rewrite IH, app_assoc. Qed.
Lemma patch_groups_spec nm ty roles b l l' fs n : patch_groups nm ty roles b l = ROk (l', fs, n) ->
  l' = map urgent_group l /\ n = length (filter counted (l.*2 ≫= g_execs)) /\ exists fss, Forall2 (exec_rel nm ty roles b) (l.*2 ≫= g_execs) fss /\ fs = mjoin fss.
Proof.
  revert l' fs n. induction l as [|[k g] l IH]; intros l' fs n; cbn [patch_groups map].
  - intros [= <- <- <-]. split; [done|]. split; [done|]. exists []. split; [constructor|done].
  - destruct (patch_execs nm ty roles b (g_execs g)) as [[[e' f1] n1]| |] eqn:E; [|done..]. destruct (patch_groups nm ty roles b l) as [[[l1 f2] n2]| |] eqn:E'; [|done..].
    intros [= <- <- <-]. destruct (IH l1 f2 n2 eq_refl) as (-> & -> & fss & HF & ->). pose proof (patch_execs_spec _ _ _ _ _ _ _ _ E) as (-> & -> & fss1 & HF1 & ->).
    split; [done|]. cbn. rewrite filter_app, app_length. split; [done|]. exists (fss1 ++ fss). split; [by apply Forall2_app|]. by rewrite mjoin_app'.
Qed.
Lemma patch_exec_total nm ty roles b e : (e_tag e = Some "evaluation" -> exists tc, id_of_description (match aget (e_uuid e) roles with Some r => description nm ty r | None => "" end) = ROk (Some tc) /\ is_Some (b !! tc)) ->
  exists x, patch_exec nm ty roles b e = ROk x.
Proof.
  intros H. unfold patch_exec. destruct (decide (e_tag e = Some "evaluation")) as [E|E].
  - destruct (e_stdout e); [|by eexists]. destruct (H E) as (tc & -> & [d ->]). by eexists.
  - destruct (decide _); by eexists.
Qed.
Lemma patch_groups_total nm ty roles b l : (forall e, e ∈ l.*2 ≫= g_execs -> exists x, patch_exec nm ty roles b e = ROk x) -> exists x, patch_groups nm ty roles b l = ROk x.
Proof.
  induction l as [|[k g] l IH]; intros H; [by eexists|]. cbn in H. cbn [patch_groups].
  assert (Hg : exists x, patch_execs nm ty roles b (g_execs g) = ROk x).
  { assert (Hg : forall e, e ∈ g_execs g -> exists x, patch_exec nm ty roles b e = ROk x) by (intros; apply H; apply elem_of_app; by left). clear -Hg.
    induction (g_execs g) as [|e es IHe]; [by eexists|]. cbn. destruct (Hg e) as [[[e' f] n] ->]; [by left|]. destruct IHe as [[[es' fs] m] ->]; [|by eexists].
    intros; apply Hg; by right. }
  destruct Hg as [[[e' f] n] ->]. destruct IH as [[[l' fs] m] ->]; [|by eexists]. intros; apply H; apply elem_of_app; by right.
Qed.

(** ** Tags and roles *)
Lemma build_wf n0 w c t sols s : task_ok n0 t sols -> build_dag w c t sols (bstate0 n0) = ROk (tt, s) ->
  well_formed (dag_of c s) /\ NoDup (b_roles s).*1 /\ (b_roles s).*1 ≡ₚ map e_uuid (execs_of s).
Proof.
  intros HT E. destruct (build_facts n0 w c t sols s HT E) as [HK _]. destruct (groups_wf n0 c s (K_inv _ _ _ _ _ _ _ _ _ _ HK)) as (_ & H2 & _).
  destruct (C67_roles n0 w c t sols s HT E) as (H3 & H4 & _). split; [done|]. by split.
Qed.
Lemma aget_role s u r : NoDup (b_roles s).*1 -> (u, r) ∈ b_roles s -> aget u (b_roles s) = Some r.
Proof.
  induction (b_roles s) as [|[u' r'] l IH]; cbn; [set_solver|]. rewrite NoDup_cons, elem_of_cons. intros [Hn Hd] [[= -> ->]|H]; [by rewrite decide_True|].
  rewrite decide_False; [by apply IH|]. intros ->. apply Hn. apply elem_of_list_fmap. by exists (u', r).
Qed.
Definition counted_role (ty : task_type) (r : role) : Prop := tag_of ty r = "evaluation" \/ tag_of ty r = "checking".
Global Instance counted_role_dec ty r : Decision (counted_role ty r). Proof. unfold counted_role. apply _. Defined.
Lemma count_roles n0 w c t sols s : task_ok n0 t sols -> build_dag w c t sols (bstate0 n0) = ROk (tt, s) ->
  length (filter counted (execs_of s)) = length (filter (counted_role (bk_type t)) (task_roles t sols)).
Proof.
  intros HT E. destruct (build_wf n0 w c t sols s HT E) as (Hwf & Hnd & Hp). destruct (build_tags w c t sols n0 s E) as [Ht _].
  destruct (C67_roles n0 w c t sols s HT E) as (_ & _ & Hr). rewrite <-Hr. clear Hr.
  set (L := map (fun e => (e_uuid e, e_tag e)) (execs_of s)). set (R := map (fun ur => (fst ur, Some (tag_of (bk_type t) (snd ur)))) (b_roles s)).
  assert (HL : L ≡ₚ R).
  { apply submseteq_Permutation_length_le; cycle 1.
    - apply NoDup_submseteq.
      + apply (NoDup_fmap_1 fst). subst L. change (NoDup (fst <$> map (fun e => (e_uuid e, e_tag e)) (execs_of s))).
        replace (fst <$> map (fun e => (e_uuid e, e_tag e)) (execs_of s)) with (map e_uuid (execs_of s)); [by rewrite <-Hp|]. exact (eq_sym (map_map (fun e => (e_uuid e, e_tag e)) fst (execs_of s))).
      + intros x (e & -> & He)%elem_of_list_fmap. destruct (Ht e He) as (r & H1 & H2). apply elem_of_list_fmap. exists (e_uuid e, r). cbn. by rewrite H2.
    - subst L R. rewrite !map_length. apply Permutation_length in Hp. rewrite fmap_length, map_length in Hp. lia. }
  assert (E1 : length (filter counted (execs_of s)) = length (filter (fun x : positive * option string => snd x = Some "evaluation" \/ snd x = Some "checking") L)).
  { subst L. clear. induction (execs_of s) as [|e l IH]; [done|]. cbn [map]. rewrite !filter_cons. unfold counted at 1. cbn [snd].
    destruct (decide (e_tag e = Some "evaluation" \/ e_tag e = Some "checking")); cbn; by rewrite IH. }
  rewrite E1, HL. subst R. clear. induction (b_roles s) as [|[u r] l IH]; [done|]. cbn [map]. rewrite filter_cons, fmap_cons, filter_cons. cbn [fst snd].
  destruct (decide (comp_role r = false)) as [Hc|Hc].
  - rewrite filter_cons. unfold counted_role at 1. destruct (decide (Some (tag_of (bk_type t) r) = Some "evaluation" \/ Some (tag_of (bk_type t) r) = Some "checking")) as [H|H].
    + destruct (decide (tag_of (bk_type t) r = "evaluation" \/ tag_of (bk_type t) r = "checking")) as [_|Hn]; [cbn; by rewrite IH|].
      destruct Hn. destruct H as [H|H]; injection H as H; [by left|by right].
    + destruct (decide (tag_of (bk_type t) r = "evaluation" \/ tag_of (bk_type t) r = "checking")) as [Hy|_]; [|done].
      destruct H. destruct Hy as [Hy|Hy]; rewrite Hy; [by left|by right].
  - by destruct r.
Qed.
