(** * LangProofs: the search of the dependencies *)
From Verif Require Import LangModel LangSpec.
From Coq Require Import Ascii String.
From stdpp Require Import base list.

Section deps.
Context (d : disk) (extract : fpath -> list (fpath * fpath)) (base root : fpath).
Local Notation reached := (reached d extract base root).

Record LI (pending seen : list fpath) (result : list (fpath * fpath)) : Prop := {
  li_nodup : NoDup result.*2;
  li_root : root ∈ seen;
  li_seen : forall p, p ∈ seen \/ p ∈ pending -> p = root \/ p ∈ result.*1;
  li_all : forall l, l ∈ result.*1 -> l ∈ seen \/ l ∈ pending;
  li_sound : forall l s, (l, s) ∈ result -> d_exists d l = true /\ l <> root /\ exists p l0, reached p /\ (p = root \/ p ∈ result.*1) /\ (l0, s) ∈ extract p /\ l = fjoin base l0;
}.
Definition closed (ps : list fpath) (result : list (fpath * fpath)) : Prop :=
  forall p l s, p ∈ ps -> (l, s) ∈ extract p -> d_exists d (fjoin base l) = true -> s ∈ result.*2 \/ fjoin base l ∈ root :: result.*1.

Lemma li_reached pending seen result : LI pending seen result -> forall l, l ∈ result.*1 -> reached l.
Proof.
  intros H l Hl. apply elem_of_list_fmap in Hl as ([l' s] & -> & Hl). destruct (li_sound _ _ _ H l' s Hl) as (He & _ & p & l0 & Hp & _ & Hx & E). cbn. rewrite E in *.
  by eapply reached_import.
Qed.

Lemma add_imports_spec seen p imports pending result pending' result' :
  reached p -> p ∈ seen -> (forall l s, (l, s) ∈ imports -> (l, s) ∈ extract p) ->
  LI pending seen result -> add_imports d base seen imports pending result = (pending', result') ->
  LI pending' seen result' /\ (exists add, result' = result ++ add /\ pending' = pending ++ add.*1) /\
  (forall l s, (l, s) ∈ imports -> d_exists d (fjoin base l) = true -> s ∈ result'.*2 \/ fjoin base l ∈ seen).
Proof.
  intros Hp Hps. revert pending result. induction imports as [|[l0 s0] imports IH]; intros pending result Himp HI; cbn [add_imports].
  - intros [= <- <-]. split; [done|]. split; [by exists []; rewrite !app_nil_r|]. by intros l s ?%elem_of_nil.
  - destruct (d_exists d (fjoin base l0)) eqn:Ee; cbn [andb].
    2: { intros E. destruct (IH pending result) as (H1 & H2 & H3); [intros; apply Himp; by right|done|done|].
         split; [done|]. split; [done|]. intros l s [[= -> ->]|?]%elem_of_cons He; [congruence|by apply H3]. }
    destruct (bool_decide (fjoin base l0 ∈ seen)) eqn:Es; cbn [andb negb].
    { apply bool_decide_eq_true in Es. intros E. destruct (IH pending result) as (H1 & H2 & H3); [intros; apply Himp; by right|done|done|].
      split; [done|]. split; [done|]. intros l s [[= -> ->]|?]%elem_of_cons He; [by right|by apply H3]. }
    apply bool_decide_eq_false in Es.
    destruct (bool_decide (s0 ∈ result.*2)) eqn:Er; cbn [andb negb].
    { apply bool_decide_eq_true in Er. intros E. destruct (IH pending result) as (H1 & (add & -> & ->) & H3); [intros; apply Himp; by right|done|done|].
      split; [done|]. split; [by exists add|]. intros l s [[= -> ->]|?]%elem_of_cons He; [left; rewrite fmap_app; set_solver|by apply H3]. }
    apply bool_decide_eq_false in Er. intros E.
    assert (HI' : LI (pending ++ [fjoin base l0]) seen (result ++ [(fjoin base l0, s0)])).
    { destruct HI as [h1 h2 h3 h4 h5]. split.
      - rewrite fmap_app. apply NoDup_app. split; [done|]. split; [|cbn; apply NoDup_singleton]. cbn. set_solver.
      - done.
      - intros q Hq. rewrite fmap_app. cbn. rewrite elem_of_app, elem_of_list_singleton in Hq. specialize (h3 q).
        rewrite elem_of_app, elem_of_list_singleton. destruct Hq as [?|[?|?]]; [|destruct h3; tauto|tauto]. destruct h3; tauto.
      - intros l. rewrite fmap_app. cbn. rewrite !elem_of_app, elem_of_list_singleton. intros [Hl|Hl]; [destruct (h4 l Hl); tauto|]. tauto.
      - intros l s. rewrite elem_of_app, elem_of_list_singleton. intros [Hl|Hl].
        + destruct (h5 l s Hl) as (H1 & H2 & q & q0 & H3 & H4 & H5 & H6). split; [done|]. split; [done|]. exists q, q0. rewrite fmap_app. set_solver.
        + injection Hl as -> ->. split; [done|]. split; [intros E'; apply Es; by rewrite E'|]. exists p, l0. split; [done|]. split; [|split; [apply Himp; by left|done]].
          rewrite fmap_app, elem_of_app. destruct (h3 p); [by left|by left|]. right. by left. }
    destruct (IH _ _ (fun l s H => Himp l s ltac:(by right)) HI' E) as (H1 & (add & -> & ->) & H3).
    split; [done|]. split; [exists ((fjoin base l0, s0) :: add); by rewrite <- !(assoc_L (++))|].
    intros l s [[= -> ->]|?]%elem_of_cons He; [|by apply H3]. left. rewrite !fmap_app. set_solver.
Qed.

Lemma loop_spec fuel pending seen result r : LI pending seen result -> closed seen result ->
  deps_loop d extract base fuel pending seen result = Some r ->
  NoDup r.*2 /\ closed (root :: r.*1) r /\
  (forall l s, (l, s) ∈ r -> d_exists d l = true /\ l <> root /\ exists p l0, reached p /\ (p = root \/ p ∈ r.*1) /\ (l0, s) ∈ extract p /\ l = fjoin base l0).
Proof.
  revert pending seen result. induction fuel as [|fuel IH]; intros pending seen result HI HC; destruct pending as [|p pending]; cbn [deps_loop]; try done.
  1,2: intros [= <-]; split; [apply HI|]; split; [|apply HI]; intros p l s Hp; apply HC; apply elem_of_cons in Hp as [->|Hp]; [apply HI|];
       destruct (li_all _ _ _ HI p Hp) as [?|?%elem_of_nil]; done.
  destruct (add_imports d base (p :: seen) (extract p) pending result) as [pending' result'] eqn:E. intros Hr.
  assert (Hp : reached p).
  { destruct (li_seen _ _ _ HI p) as [->|Hp]; [right; by left|constructor|]. by eapply li_reached. }
  assert (HI' : LI pending (p :: seen) result).
  { destruct HI as [h1 h2 h3 h4 h5]. split; try done; [by right| |].
    - intros q Hq. apply h3. rewrite elem_of_cons in Hq |- *. tauto.
    - intros q Hq. specialize (h4 q Hq). rewrite elem_of_cons in h4. rewrite elem_of_cons. tauto. }
  destruct (add_imports_spec (p :: seen) p (extract p) pending result pending' result') as (H1 & (add & Ea & Eb) & H3); try done; [by left|].
  apply (IH pending' (p :: seen) result'); [done| |done].
  intros q l s Hq Hl He. apply elem_of_cons in Hq as [->|Hq].
  - destruct (H3 l s Hl He) as [?|Hs]; [by left|]. right. apply elem_of_cons. apply (li_seen _ _ _ H1). by left.
  - destruct (HC q l s Hq Hl He) as [?|Hs]; [left|right]; rewrite Ea, fmap_app; set_solver.
Qed.

Lemma start_spec fuel r : deps_loop d extract base fuel [root] [] [] = Some r ->
  NoDup r.*2 /\ closed (root :: r.*1) r /\
  (forall l s, (l, s) ∈ r -> d_exists d l = true /\ l <> root /\ exists p l0, reached p /\ (p = root \/ p ∈ r.*1) /\ (l0, s) ∈ extract p /\ l = fjoin base l0).
Proof.
  destruct fuel as [|fuel]; cbn [deps_loop]; [done|].
  destruct (add_imports d base [root] (extract root) [] []) as [pending result] eqn:E. intros Hr.
  destruct (add_imports_spec [root] root (extract root) [] [] pending result) as (H1 & (add & Ea & Eb) & H3); try done; [constructor|by left| |].
  - split; cbn; try done; [constructor|by left| |by intros ? ?%elem_of_nil|by intros ? ? ?%elem_of_nil].
    intros p [Hp|Hp]; left; set_solver.
  - apply (loop_spec fuel pending [root] result r H1); [|done].
    intros q l s Hq%elem_of_list_singleton Hl He. subst q. destruct (H3 l s Hl He) as [?|Hs]; [by left|]. right. apply elem_of_list_singleton in Hs. rewrite Hs. by left.
Qed.

(** Termination *)
Lemma add_imports_sizes seen imports pending result pending' result' :
  add_imports d base seen imports pending result = (pending', result') ->
  exists add, result' = result ++ add /\ length pending' = length pending + length add /\ (forall l s, (l, s) ∈ add -> exists l0, (l0, s) ∈ imports) /\
    (NoDup result.*2 -> NoDup result'.*2).
Proof.
  revert pending result. induction imports as [|[l0 s0] imports IH]; intros pending result; cbn [add_imports].
  - intros [= <- <-]. exists []. rewrite app_nil_r. cbn. split; [done|]. split; [lia|]. split; [by intros ? ? ?%elem_of_nil|done].
  - case_match eqn:Eb.
    + intros E. destruct (IH _ _ E) as (add & -> & H2 & H3 & H4). exists ((fjoin base l0, s0) :: add). split; [by rewrite <- (assoc_L (++))|].
      rewrite app_length in H2. cbn in H2 |- *. split; [lia|]. split.
      * intros l s [[= -> ->]|Hl]%elem_of_cons; [exists l0; by left|]. destruct (H3 l s Hl) as [l1 ?]. exists l1. by right.
      * intros Hnd. apply H4. apply andb_prop in Eb as [_ Er]. apply negb_true_iff, bool_decide_eq_false in Er.
        rewrite fmap_app. apply NoDup_app. split; [done|]. split; [|cbn; apply NoDup_singleton]. cbn. set_solver.
    + intros E. destruct (IH _ _ E) as (add & -> & H2 & H3 & H4). exists add. split; [done|]. split; [done|]. split; [|done].
      intros l s Hl. destruct (H3 l s Hl) as [l1 ?]. exists l1. by right.
Qed.
Lemma loop_total (names : list fpath) fuel pending seen result :
  (forall p l s, (l, s) ∈ extract p -> s ∈ names) -> NoDup result.*2 -> (forall s, s ∈ result.*2 -> s ∈ names) ->
  length pending + (length names - length result) <= fuel -> is_Some (deps_loop d extract base fuel pending seen result).
Proof.
  intros Hn. revert pending seen result. induction fuel as [|fuel IH]; intros pending seen result Hnd Hsub Hle; destruct pending as [|p pending]; cbn [deps_loop]; [by eexists| |by eexists|].
  - cbn in Hle. lia.
  - destruct (add_imports d base (p :: seen) (extract p) pending result) as [pending' result'] eqn:E.
    destruct (add_imports_sizes _ _ _ _ _ _ E) as (add & -> & H2 & H3 & H4).
    assert (Hsub' : forall s, s ∈ (result ++ add).*2 -> s ∈ names).
    { intros s. rewrite fmap_app, elem_of_app. intros [?|Hs]; [by apply Hsub|]. apply elem_of_list_fmap in Hs as ([l s'] & -> & Hs). destruct (H3 l s' Hs) as [l0 ?]. by eapply Hn. }
    apply IH; [by apply H4|done|]. specialize (H4 Hnd).
    assert (Hlen : length (result ++ add) <= length names).
    { rewrite <- (fmap_length snd (result ++ add)). apply submseteq_length, NoDup_submseteq; done. }
    rewrite app_length in *. cbn in Hle. lia.
Qed.
Lemma loop_mono fuel k pending seen result r : deps_loop d extract base fuel pending seen result = Some r ->
  deps_loop d extract base (k + fuel) pending seen result = Some r.
Proof.
  revert pending seen result. induction fuel as [|fuel IH]; intros pending seen result; destruct pending as [|p pending].
  - intros H. cbn in H. by destruct (k + 0).
  - done.
  - intros H. cbn in H. by destruct (k + S fuel).
  - rewrite Nat.add_succ_r. cbn [deps_loop]. destruct (add_imports d base (p :: seen) (extract p) pending result). apply IH.
Qed.
End deps.

(** ** Files in one directory *)
Lemma removelast_snoc {A} (l : list A) x : removelast (l ++ [x]) = l.
Proof. apply removelast_last. Qed.
Lemma parent_in dir n : parent (in_dir dir n) = Some (FPath true dir).
Proof. unfold parent, in_dir. cbn [p_comps p_abs]. rewrite removelast_snoc. by destruct dir. Qed.
Lemma file_name_in dir n : plain n -> file_name (in_dir dir n) = Some n.
Proof. intros (H1 & H2 & _). unfold file_name, in_dir. cbn [p_comps]. rewrite last_snoc. rewrite decide_False; [done|]. tauto. Qed.
Lemma fjoin_local dir n : plain n -> fjoin (FPath true dir) (local_name n) = in_dir dir n.
Proof. intros (H1 & H2 & _). unfold fjoin, local_name, in_dir. cbn [p_abs p_comps]. rewrite filter_cons_True by done. done. Qed.
Lemma with_file_name_in dir n m : plain n -> plain m -> with_file_name (in_dir dir n) (local_name m) = in_dir dir m.
Proof.
  intros Hn Hm. unfold with_file_name. rewrite file_name_in by done. cbn [is_Some]. cbn [in_dir p_abs p_comps]. rewrite removelast_snoc. by apply fjoin_local.
Qed.

Lemma split_on_none sep l : sep ∉ l -> split_on sep l = [l].
Proof.
  induction l as [|c l IH]; [done|]. intros H. cbn [split_on]. rewrite decide_False by (intros ->; apply H; by left). rewrite IH; [done|]. intros ?. apply H. by right.
Qed.
Lemma fpath_of_plain n : plain n -> fpath_of (chars n) = local_name n.
Proof.
  intros (H1 & H2 & H3 & H4). unfold fpath_of. rewrite split_on_none by done.
  assert (Hs : string_of_list_ascii (chars n) = n) by apply string_of_list_ascii_of_string.
  assert (Hne : chars n <> []) by (intros E; rewrite E in Hs; by subst n).
  assert (Hnd : chars n <> chars ".") by (intros E; rewrite E in Hs; by subst n).
  destruct (chars n) as [|c l] eqn:E; [done|]. rewrite decide_False by done. cbn [app]. rewrite filter_cons_True.
  - cbn [filter map]. unfold local_name. by rewrite Hs.
  - unfold real_comp. rewrite !bool_decide_false by done. done.
Qed.

Section flat.
Context (d : disk) (extract : fpath -> list (fpath * fpath)) (names : fpath -> list string) (dir : list string) (root : string).
(** what [extract] gives for a file of the directory *)
Context (Hex : forall n l s, plain n -> (l, s) ∈ extract (in_dir dir n) -> d_exists d (fjoin (FPath true dir) l) = true -> exists m, m ∈ names (in_dir dir n) /\ plain m /\ s = local_name m /\ fjoin (FPath true dir) l = in_dir dir m).
Context (Hex' : forall n m, plain n -> m ∈ names (in_dir dir n) -> d_exists d (in_dir dir m) = true -> plain m /\ exists l, (l, local_name m) ∈ extract (in_dir dir n) /\ fjoin (FPath true dir) l = in_dir dir m).
Context (Hroot : plain root).
Lemma in_dir_inj m n : in_dir dir m = in_dir dir n -> m = n.
Proof. unfold in_dir. intros [= E]. apply app_inj_2 in E as [_ E]; [|done]. by injection E. Qed.
Lemma flat_exact fuel r : find_dependencies d extract fuel (in_dir dir root) = Some r ->
  forall l s, (l, s) ∈ r <-> exists m, s = local_name m /\ l = in_dir dir m /\ d_exists d l = true /\ m <> root /\ needed d names dir root m.
Proof.
  unfold find_dependencies. rewrite parent_in. intros Hr. destruct (start_spec d extract _ _ fuel r Hr) as (Hnd & Hcl & Hso).
  assert (HR : forall p, reached d extract (FPath true dir) (in_dir dir root) p ->
            exists m, p = in_dir dir m /\ plain m /\ (m = root \/ (needed d names dir root m /\ d_exists d (in_dir dir m) = true))).
  { intros p Hp. induction Hp as [|p l s Hp (m & -> & Hm & IH) Hl He].
    - exists root. split; [done|]. split; [done|]. by left.
    - apply Hex in Hl as (m' & Hm' & Hp' & _ & El); [|done..]. exists m'. split; [done|]. split; [done|]. right. split; [|by rewrite <- El].
      destruct IH as [->|[Hn He']]; [by apply needed_root|]. by eapply needed_dep. }
  assert (Hfwd : forall l s, (l, s) ∈ r -> exists m, s = local_name m /\ l = in_dir dir m /\ d_exists d l = true /\ m <> root /\ needed d names dir root m).
  { intros l s Hls. destruct (Hso l s Hls) as (He & Hne & p & l0 & Hp & _ & Hx & El). destruct (HR p Hp) as (m & -> & Hm & Hcase).
    apply Hex in Hx as (m' & Hm' & _ & -> & El'); [|done|by rewrite <- El]. exists m'. rewrite El, El' in *. split; [done|]. split; [done|]. split; [done|]. split; [by intros ->|].
    destruct Hcase as [->|[Hn He']]; [by apply needed_root|]. by eapply needed_dep. }
  intros l s. split; [apply Hfwd|]. intros (m & -> & -> & He & Hne & Hn).
  assert (Hone : forall n m, (n = root \/ in_dir dir n ∈ r.*1) -> plain n -> m ∈ names (in_dir dir n) -> d_exists d (in_dir dir m) = true -> m <> root ->
            (in_dir dir m, local_name m) ∈ r).
  { clear m He Hne Hn. intros n m Hnr Hpn Hm He Hne. destruct (Hex' n m Hpn Hm He) as (_ & l & Hl & El).
    destruct (Hcl (in_dir dir n) l (local_name m)) as [Hs|Hs].
    - apply elem_of_cons. destruct Hnr as [->|?]; [by left|by right].
    - done.
    - by rewrite El.
    - apply elem_of_list_fmap in Hs as ([l' s'] & E & Hs). cbn in E. subst s'. destruct (Hfwd l' _ Hs) as (m' & Em & -> & _). injection Em as ->. done.
    - rewrite El in Hs. apply elem_of_cons in Hs as [Hs|Hs]; [by apply in_dir_inj in Hs|].
      apply elem_of_list_fmap in Hs as ([l' s'] & E & Hs). cbn in E. subst l'. destruct (Hfwd _ _ Hs) as (m' & -> & Em & _). apply in_dir_inj in Em as ->. done. }
  clear Hnd. induction Hn as [m Hm|m' m Hn' IH He' Hm].
  - apply (Hone root m); [by left|done..].
  - destruct (decide (m' = root)) as [->|Hne']; [apply (Hone root m); [by left|done..]|].
    apply (Hone m'); try done; [|].
    + right. apply elem_of_list_fmap. exists (in_dir dir m', local_name m'). split; [done|]. by apply IH.
    + assert (Hin : (in_dir dir m', local_name m') ∈ r) by (by apply IH). destruct (Hso _ _ Hin) as (_ & _ & p & l0 & Hp & _ & Hx & El).
      destruct (HR p Hp) as (n & -> & Hpn & _). destruct (Hex n _ _ Hpn Hx) as (m2 & _ & Hp2 & _ & El2); [by rewrite <- El|].
      rewrite <- El in El2. by apply in_dir_inj in El2 as ->.
Qed.
End flat.
