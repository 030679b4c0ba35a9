(** * FuzzProofs2: the directories of the failures (C90) *)
From Coq Require Import ZArith Ascii.
From stdpp Require Import numbers pretty strings list gmap.
From Verif Require Import FuzzSpec FuzzProofs.

Lemma snoc_ne (d : path) x l : d ++ x :: l <> d.
Proof. intros H. apply (f_equal length) in H. rewrite app_length in H. cbn in H. lia. Qed.
Lemma out_name_ne type : "output-" +:+ type +:+ ".txt" <> "input.txt" /\ "output-" +:+ type +:+ ".txt" <> "output.txt" /\ "output-" +:+ type +:+ ".txt" <> "artifact.bin" /\ "output-" +:+ type +:+ ".txt" <> "README".
Proof. split_and!; discriminate. Qed.

Lemma write_new d x b f : f !! d = Some NDir -> f !! (d ++ [x]) = None -> write_file d x b f = Some (<[d ++ [x] := NFile b]> f).
Proof. intros H1 H2. unfold write_file, is_dir. by rewrite H1, H2. Qed.
Lemma symlink_new t d x f : f !! d = Some NDir -> f !! (d ++ [x]) = None -> symlink t d x f = Some (<[d ++ [x] := NLink t]> f).
Proof. intros H1 H2. unfold symlink, is_dir. by rewrite H1, H2. Qed.

(** One failure: [d] is its directory, where there is nothing before *)
Lemma write_failure_ok task dir id out readme i a type f :
  f !! dir = Some NDir -> (forall p, (dir ++ ["fail-" +:+ num i]) `prefix_of` p -> f !! p = None) ->
  exists f', write_failure task dir id out readme i a type f = Some f' /\
    failure_at f' (dir ++ ["fail-" +:+ num i]) (failure_files task readme a type id out) /\
    (forall p, ~ (dir ++ ["fail-" +:+ num i]) `prefix_of` p -> f' !! p = f !! p).
Proof.
  intros Hdir Hnone. unfold write_failure. cbv zeta. set (d := dir ++ ["fail-" +:+ num i]) in *.
  pose proof (out_name_ne type) as (N1 & N2 & N3 & N4). set (o := "output-" +:+ type +:+ ".txt") in *.
  assert (Hx : forall x y : string, x <> y -> d ++ [x] <> d ++ [y]) by (intros x y Hne H; apply app_inv_head in H; by injection H).
  assert (Hd : forall x, d ++ [x] <> d) by (intros x; apply snoc_ne).
  assert (Hn : forall x, f !! (d ++ [x]) = None) by (intros x; apply Hnone; by eexists).
  unfold create_dir, is_dir. rewrite Hdir. change (dir ++ ["fail-" +:+ num i]) with d. rewrite (Hnone d) by done. cbn [mbind option_bind].
  rewrite write_new by (first [by rewrite lookup_insert | by rewrite lookup_insert_ne, Hn by done]). cbn [mbind option_bind].
  do 3 (rewrite symlink_new; [cbn [mbind option_bind]|by rewrite !(lookup_insert_ne _ (d ++ _) d), lookup_insert by done|by rewrite !lookup_insert_ne, Hn by (first [done | by apply Hx])]).
  rewrite write_new; [|by rewrite !(lookup_insert_ne _ (d ++ _) d), lookup_insert by done|by rewrite !lookup_insert_ne, Hn by (first [done | by apply Hx])].
  eexists. split; [reflexivity|]. split; [split; [|split]|].
  - by rewrite !(lookup_insert_ne _ (d ++ _) d), lookup_insert by done.
  - intros x. unfold failure_files. fold o. cbn [list_to_map foldr curry uncurry fst snd].
    destruct (decide (x = "README")) as [->|M1]; [rewrite lookup_insert; by rewrite !lookup_insert_ne, lookup_insert by done|].
    rewrite lookup_insert_ne by (apply Hx; done). destruct (decide (x = "artifact.bin")) as [->|M2]; [rewrite lookup_insert; by rewrite !lookup_insert_ne, lookup_insert by done|].
    rewrite lookup_insert_ne by (apply Hx; done). destruct (decide (x = "output.txt")) as [->|M3]; [rewrite lookup_insert; by rewrite !lookup_insert_ne, lookup_insert by done|].
    rewrite lookup_insert_ne by (apply Hx; done). destruct (decide (x = "input.txt")) as [->|M4]; [rewrite lookup_insert; by rewrite !lookup_insert_ne, lookup_insert by done|].
    rewrite lookup_insert_ne by (apply Hx; done). destruct (decide (x = o)) as [->|M5]; [by rewrite !lookup_insert|].
    rewrite lookup_insert_ne by (apply Hx; done). rewrite lookup_insert_ne by (intros H; symmetry in H; by apply Hd in H). rewrite Hn. by rewrite !lookup_insert_ne by done.
  - intros x y l. assert (H2 : forall z, d ++ [z] <> d ++ x :: y :: l) by (intros z H; apply app_inv_head in H; done).
    rewrite !(lookup_insert_ne _ (d ++ _)) by apply H2. rewrite lookup_insert_ne by (intros H; symmetry in H; by apply snoc_ne in H). apply Hnone. by eexists.
  - intros p Hp. assert (Hp1 : forall l, d ++ l <> p) by (intros l <-; apply Hp; by eexists).
    rewrite !(lookup_insert_ne _ (d ++ _)) by apply Hp1. rewrite lookup_insert_ne; [done|]. intros ->. by apply Hp.
Qed.

(** All the failures *)
Definition fail_dir (dir : path) (i : nat) : path := dir ++ ["fail-" +:+ num i].
Lemma fail_dir_prefix dir i j p : fail_dir dir i `prefix_of` p -> fail_dir dir j `prefix_of` p -> i = j.
Proof.
  unfold fail_dir. intros [l1 ->] [l2 H]. rewrite <- !app_assoc in H. apply app_inv_head in H. apply (f_equal head) in H. apply fail_inj. by apply (inj Some).
Qed.
Lemma organize_all_ok task dir n readme l : forall i f,
  (0 < n)%nat -> f !! dir = Some NDir -> (forall j p, (i <= j)%nat -> fail_dir dir j `prefix_of` p -> f !! p = None) ->
  (forall a, a ∈ l -> a <> [] /\ ~ dir `prefix_of` a /\ exists b r, f !! a = Some (NFile b) /\ from_le b = Some r) ->
  exists f', organize_all task dir n readme i l f = (f', true) /\
    (forall p, (forall j, (i <= j < i + length l)%nat -> ~ fail_dir dir j `prefix_of` p) -> f' !! p = f !! p) /\
    forall k a name b id out, l !! k = Some a -> list.last a = Some name -> f !! a = Some (NFile b) -> from_le b = Some (id, out) ->
      failure_at f' (fail_dir dir (i + k)) (failure_files task readme a (fail_type name) (N.to_nat (id mod N.of_nat n)) out).
Proof.
  induction l as [|a l IH]; intros i f Hn Hdir Hnone Harts.
  - exists f. split_and!; [done|done|]. intros k a name b id out H. by rewrite lookup_nil in H.
  - destruct (Harts a (elem_of_list_here _ _)) as (Hane & Hpre & b & [id out] & Hb & Hle). cbn [organize_all]. unfold organize_one, read_file. rewrite Hb, Hle.
    destruct (list.last a) as [name|] eqn:Hlast; [|by apply last_None in Hlast]. rewrite decide_False by lia.
    destruct (write_failure_ok task dir (N.to_nat (id mod N.of_nat n)) out readme i a (fail_type name) f Hdir) as (f1 & -> & H1 & H2); [intros p Hp; by eapply (Hnone i)|].
    assert (Hout : forall p, ~ dir `prefix_of` p -> f1 !! p = f !! p).
    { intros p Hp. apply H2. intros [q ->]. apply Hp. rewrite <- app_assoc. by eexists. }
    destruct (IH (S i) f1) as (f' & Hf' & H3 & H4).
    + done.
    + rewrite H2; [done|]. intros [q Hq]. apply (f_equal length) in Hq. rewrite !app_length in Hq. cbn in Hq. lia.
    + intros j p Hj Hp. rewrite H2; [apply (Hnone j p); [lia|done]|]. intros Hp'. pose proof (fail_dir_prefix _ _ _ _ Hp Hp'). lia.
    + intros a' Ha'. destruct (Harts a' (elem_of_list_further _ _ _ Ha')) as (? & Hpre' & b' & r' & ? & ?). split; [done|]. split; [done|]. exists b', r'. by rewrite Hout.
    + exists f'. split; [done|]. split.
      * intros p Hp. rewrite H3; [|intros j Hj; apply Hp; cbn; lia]. apply H2. apply Hp. cbn. lia.
      * intros k a' name' b' id' out' Hk Hl' Hb' Hle'. destruct k as [|k]; cbn in Hk.
        -- injection Hk as ->. rewrite Hlast in Hl'. injection Hl' as <-. rewrite Hb in Hb'. injection Hb' as <-. rewrite Hle in Hle'. injection Hle' as <- <-. rewrite Nat.add_0_r.
           assert (Hk : forall p, fail_dir dir i `prefix_of` p -> f' !! p = f1 !! p).
           { intros p Hp. apply H3. intros j Hj Hp'. pose proof (fail_dir_prefix _ _ _ _ Hp Hp'). lia. }
           destruct H1 as (G1 & G2 & G3). split; [rewrite Hk; [done|done]|]. split.
           ++ intros x. rewrite Hk by (apply prefix_app_r; done). apply G2.
           ++ intros x y q. rewrite Hk by (apply prefix_app_r; done). apply G3.
        -- replace (i + S k)%nat with (S i + k)%nat by lia. eapply H4; [done|done| |done]. rewrite Hout; [done|]. apply elem_of_list_lookup_2 in Hk.
           by destruct (Harts a' (elem_of_list_further _ _ _ Hk)) as (_ & ? & _).
Qed.
(** An artifact that is too short stops it *)
Lemma organize_short task dir n readme l : forall i f k a b, l !! k = Some a -> f !! a = Some (NFile b) -> (length b < 4)%nat -> ~ dir `prefix_of` a ->
  (organize_all task dir n readme i l f).2 = false.
Proof.
  induction l as [|a0 l IH]; intros i f k a b Hk Hb Hlen Hpre; [by rewrite lookup_nil in Hk|]. cbn [organize_all].
  destruct (organize_one task dir n readme i a0 f) as [f1|] eqn:E; [|done]. destruct k as [|k]; cbn in Hk.
  - injection Hk as ->. exfalso. unfold organize_one, read_file in E. rewrite Hb in E. by destruct b as [|? [|? [|? [|? ?]]]]; cbn in *; try lia.
  - eapply IH; [done| |done|done]. rewrite <- Hb. clear -E Hpre. unfold organize_one in E. destruct (read_file a0 f) as [b0|]; [|done]. destruct (from_le b0) as [[id out]|]; [|done].
    destruct (list.last a0) as [name|]; [|done]. case_decide; [done|]. unfold write_failure in E. cbv zeta in E.
    assert (Hd : forall x y, dir ++ x :: y <> a) by (intros x y <-; apply Hpre; by eexists).
    assert (Hd2 : forall x y, (dir ++ [x]) ++ [y] <> a) by (intros x y; rewrite <- app_assoc; apply Hd).
    assert (Hw : forall d x b f f', d ++ [x] <> a -> write_file d x b f = Some f' -> f' !! a = f !! a).
    { clear. intros d x b f f' Hne Hw. unfold write_file in Hw. destruct (is_dir d f); [|done]. destruct (f !! (d ++ [x])) as [[]|]; [done|..]; try discriminate Hw; injection Hw as <-; by rewrite lookup_insert_ne. }
    assert (Hs : forall t d x f f', d ++ [x] <> a -> symlink t d x f = Some f' -> f' !! a = f !! a).
    { clear. intros t d x f f' Hne Hw. unfold symlink in Hw. destruct (is_dir d f); [|done]. destruct (f !! (d ++ [x])); [done|]. injection Hw as <-; by rewrite lookup_insert_ne. }
    apply bind_Some in E as (g1 & E1 & E). apply bind_Some in E as (g2 & E2 & E). apply bind_Some in E as (g3 & E3 & E). apply bind_Some in E as (g4 & E4 & E). apply bind_Some in E as (g5 & E5 & E6).
    apply Hw in E6; [|by apply Hd2]. apply Hs in E5; [|by apply Hd2]. apply Hs in E4; [|by apply Hd2]. apply Hs in E3; [|by apply Hd2]. apply Hw in E2; [|by apply Hd2].
    rewrite E6, E5, E4, E3, E2. unfold create_dir in E1. destruct (is_dir dir f); [|done]. destruct (f !! (dir ++ _)); [done|]. injection E1 as <-. rewrite lookup_insert_ne; [done|apply Hd].
Qed.
