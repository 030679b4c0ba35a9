(** * FuzzProofs: the corpus and the directories of the failures (C90) *)
From Coq Require Import ZArith Ascii.
From stdpp Require Import numbers pretty strings list gmap.
From Verif Require Import FuzzSpec.

(** ** The names *)
Lemma num_inj i j : num i = num j -> i = j.
Proof. unfold num. intros H. apply (inj pretty) in H. lia. Qed.
Lemma str_app_cons c a b : String c a +:+ b = String c (a +:+ b).
Proof. reflexivity. Qed.
Lemma str_app_inj_l a b c : a +:+ b = a +:+ c -> b = c.
Proof. induction a as [|x a IH]; [done|]. rewrite !str_app_cons. intros H. injection H as H. by apply IH. Qed.
Lemma str_length_app (a b : string) : String.length (a +:+ b) = (String.length a + String.length b)%nat.
Proof. induction a as [|x a IH]; [done|]. rewrite str_app_cons. cbn [String.length]. by rewrite IH. Qed.
Lemma str_app_inj_r a b c : a +:+ c = b +:+ c -> a = b.
Proof.
  revert b. induction a as [|x a IH]; intros [|y b] H.
  - done.
  - apply (f_equal String.length) in H. rewrite !str_length_app in H. cbn in H. lia.
  - apply (f_equal String.length) in H. rewrite !str_length_app in H. cbn in H. lia.
  - rewrite !str_app_cons in H. injection H as -> H. f_equal. by apply IH.
Qed.
Lemma txt_inj i j : num i +:+ ".txt" = num j +:+ ".txt" -> i = j.
Proof. intros H. apply str_app_inj_r in H. by apply num_inj. Qed.
Lemma fail_inj i j : "fail-" +:+ num i = "fail-" +:+ num j -> i = j.
Proof. intros H. apply str_app_inj_l in H. by apply num_inj. Qed.
(** a number does not start with a letter *)
Lemma pretty_N_char_digit n c : pretty_N_char n = c -> c <> "o"%char.
Proof. intros <-. unfold pretty_N_char. destruct n as [|p]; [done|]. do 4 (try destruct p as [p|p|]; try done). Qed.
Lemma num_first i s : num i <> String "o" s.
Proof.
  unfold num, pretty, pretty_N. case_decide as H; [done|].
  assert (Hgo : forall n s', (forall s'', s' <> String "o" s'') -> forall s'', pretty_N_go n s' <> String "o" s'').
  { induction n as [n IH] using (well_founded_induction N.lt_wf_0). intros s' Hs s''. destruct (decide (n = 0%N)) as [->|Hn]; [by rewrite pretty_N_go_0|].
    rewrite pretty_N_go_step by lia. apply IH; [apply N.div_lt; lia|]. intros s3 [= Hc _]. by eapply pretty_N_char_digit. }
  apply Hgo. done.
Qed.
Lemma corpus_not_output task fuzz i j : fuzz ++ ["initial_corpus"; num i +:+ ".txt"] <> output_path task j.
Proof.
  unfold output_path. intros H. apply (f_equal list.last) in H. rewrite !last_app in H. cbn in H. injection H as H.
  destruct (num i) as [|c s] eqn:E; [done|]. cbn in H. injection H as -> _. by eapply num_first.
Qed.

(** ** The numbers in the artifacts *)
Lemma from_to_le n rest : (n < 4294967296)%N -> from_le (to_le n ++ rest) = Some (n, rest).
Proof.
  intros Hn. unfold to_le, from_le. cbn [app]. f_equal. f_equal.
  pose proof (N.div_mod n 256) as H1. pose proof (N.div_mod (n / 256) 256) as H2. pose proof (N.div_mod (n / 65536) 256) as H3. pose proof (N.div_mod (n / 16777216) 256) as H4.
  assert (E1 : (n / 65536 = n / 256 / 256)%N) by (by rewrite N.div_div). assert (E2 : (n / 16777216 = n / 65536 / 256)%N) by (by rewrite N.div_div).
  assert (E3 : (n / 16777216 < 256)%N) by (apply N.div_lt_upper_bound; lia). rewrite (N.mod_small (n / 16777216)) by done. lia.
Qed.
Lemma fuzz_one_le n (i : nat) out : (N.of_nat i < 4294967296)%N -> (i < n)%nat -> out <> [] -> fuzz_one n (to_le (N.of_nat i) ++ out) = Some (i, out).
Proof.
  intros Hi Hn Ho. unfold fuzz_one. rewrite decide_False; [|rewrite app_length; cbn; destruct out; [done|cbn; lia]]. rewrite from_to_le by done.
  rewrite N.mod_small by lia. by rewrite Nat2N.id.
Qed.

(** ** The part before the dash *)
Lemma fail_type_spec name : before_dash name (fail_type name) /\ ~ has_dash (fail_type name).
Proof.
  induction name as [|c s [IH1 IH2]]; cbn.
  - split; [by right|]. intros (a & b & H). destruct a; done.
  - case_decide as Hc.
    + subst c. split; [left; by exists s|]. intros (a & b & H). destruct a; done.
    + split.
      * destruct IH1 as [[rest H]|H]; [left; exists rest; rewrite str_app_cons; by rewrite <- H|right; by rewrite <- H].
      * intros (a & b & H). destruct a as [|x a]; [injection H as ->; done|]. rewrite str_app_cons in H. injection H as -> H. apply IH2. by exists a, b.
Qed.

(** ** The corpus *)
Lemma corpus_one_ok task fuzz i f b : f !! (fuzz ++ ["initial_corpus"]) = Some NDir -> f !! output_path task i = Some (NFile b) ->
  f !! (fuzz ++ ["initial_corpus"; num i +:+ ".txt"]) <> Some NDir ->
  corpus_one task fuzz i f = Some (<[fuzz ++ ["initial_corpus"; num i +:+ ".txt"] := NFile (to_le (N.of_nat i) ++ b)]> f).
Proof.
  intros Hd Hout Hnd. unfold corpus_one. cbv zeta. rewrite <- (app_assoc fuzz ["initial_corpus"]). cbn [app].
  set (p := fuzz ++ ["initial_corpus"; num i +:+ ".txt"]) in *. set (d := fuzz ++ ["initial_corpus"]) in *.
  assert (Hp : d ++ [num i +:+ ".txt"] = p) by (unfold d, p; by rewrite <- app_assoc).
  assert (Hne : p <> d) by (intros H; apply (f_equal length) in H; unfold p, d in H; rewrite !app_length in H; cbn in H; lia).
  assert (Hno : p <> output_path task i) by apply corpus_not_output.
  set (f1 := delete p f).
  assert (E1 : (if exists_at p f then remove_file p f else Some f) = Some f1).
  { unfold exists_at, remove_file, f1. destruct (f !! p) as [[]|] eqn:E; [by destruct Hnd|done|done|]. by rewrite delete_notin. }
  rewrite E1. cbn [mbind option_bind]. unfold write_file, read_file, is_dir. rewrite !Hp.
  assert (F1 : f1 !! d = Some NDir) by (unfold f1; by rewrite lookup_delete_ne). assert (F2 : f1 !! p = None) by (unfold f1; by rewrite lookup_delete).
  assert (F3 : f1 !! output_path task i = Some (NFile b)) by (unfold f1; by rewrite lookup_delete_ne).
  rewrite F1, F2. cbn [mbind option_bind]. rewrite (lookup_insert_ne _ p d), F1, lookup_insert by done. cbn [mbind option_bind].
  rewrite !(lookup_insert_ne _ p (output_path task i)), F3 by done. cbn [mbind option_bind]. rewrite !(lookup_insert_ne _ p d), F1, lookup_insert by done.
  f_equal. rewrite !insert_insert. unfold f1. apply insert_delete_insert.
Qed.
Lemma corpus_one_missing task fuzz i f : f !! output_path task i = None -> corpus_one task fuzz i f = None.
Proof.
  intros Hout. unfold corpus_one. cbv zeta. destruct (corpus_one task fuzz i f) as [r|] eqn:E; [|exact E]. exfalso. unfold corpus_one in E. cbv zeta in E.
  apply bind_Some in E as (f1 & E1 & E). apply bind_Some in E as (f2 & E2 & E). apply bind_Some in E as (f3 & E3 & E). apply bind_Some in E as (b & E4 & _).
  assert (H1 : f1 !! output_path task i = None).
  { destruct (exists_at _ f); [|by injection E1 as <-]. unfold remove_file in E1. destruct (f !! _) as [[]|] in E1; [done|..|done]; injection E1 as <-; apply lookup_delete_None; by right. }
  assert (Hw : forall d x b f f', d ++ [x] <> output_path task i -> write_file d x b f = Some f' -> f !! output_path task i = None -> f' !! output_path task i = None).
  { clear. intros d x b f f' Hne Hw Hn. unfold write_file in Hw. destruct (is_dir d f); [|done]. destruct (f !! (d ++ [x])) as [[]|]; [done|..]; try discriminate Hw; injection Hw as <-; by rewrite lookup_insert_ne. }
  assert (Hne : (fuzz ++ ["initial_corpus"]) ++ [num i +:+ ".txt"] <> output_path task i) by (rewrite <- app_assoc; apply corpus_not_output).
  pose proof (Hw _ _ _ _ _ Hne E2 H1) as H2. pose proof (Hw _ _ _ _ _ Hne E3 H2) as H3. unfold read_file in E4. by rewrite H3 in E4.
Qed.
Lemma corpus_all_ok task fuzz l : forall f, f !! (fuzz ++ ["initial_corpus"]) = Some NDir ->
  (forall i, i ∈ l -> exists b, f !! output_path task i = Some (NFile b)) ->
  (forall i, i ∈ l -> f !! (fuzz ++ ["initial_corpus"; num i +:+ ".txt"]) <> Some NDir) -> NoDup l ->
  exists f', corpus_all task fuzz l f = Some f' /\
    (forall i b, i ∈ l -> f !! output_path task i = Some (NFile b) -> f' !! (fuzz ++ ["initial_corpus"; num i +:+ ".txt"]) = Some (NFile (to_le (N.of_nat i) ++ b))) /\
    (forall p, (forall i, i ∈ l -> p <> fuzz ++ ["initial_corpus"; num i +:+ ".txt"]) -> f' !! p = f !! p).
Proof.
  induction l as [|i l IH]; intros f Hd Hout Hnd Hdup.
  - exists f. split_and!; [done| |done]. intros i b Hi. by apply elem_of_nil in Hi.
  - apply NoDup_cons in Hdup as [Hi Hdup]. destruct (Hout i (elem_of_list_here _ _)) as [b Hb]. cbn [corpus_all].
    rewrite (corpus_one_ok _ _ _ _ b) by (first [done | apply Hnd; left]). cbn [mbind option_bind].
    set (f1 := <[_ := _]> f).
    assert (Hinj : forall j, fuzz ++ ["initial_corpus"; num i +:+ ".txt"] = fuzz ++ ["initial_corpus"; num j +:+ ".txt"] -> i = j).
    { intros j H. apply app_inv_head in H. injection H as H. by apply txt_inj. }
    assert (Hdir : fuzz ++ ["initial_corpus"; num i +:+ ".txt"] <> fuzz ++ ["initial_corpus"]) by (intros H; by apply app_inv_head in H).
    destruct (IH f1) as (f' & Hf' & H1 & H2).
    + unfold f1. by rewrite lookup_insert_ne.
    + intros j Hj. unfold f1. rewrite lookup_insert_ne by apply corpus_not_output. apply Hout. by right.
    + intros j Hj. unfold f1. rewrite lookup_insert_ne; [apply Hnd; by right|]. intros H. apply Hinj in H. by subst j.
    + done.
    + exists f'. split; [done|]. split.
      * intros j c Hj Hc. apply elem_of_cons in Hj as [->|Hj].
        -- rewrite H2; [unfold f1; rewrite lookup_insert; rewrite Hb in Hc; by injection Hc as ->|]. intros j Hj H. apply Hinj in H. by subst j.
        -- apply H1; [done|]. unfold f1. by rewrite lookup_insert_ne by apply corpus_not_output.
      * intros p Hp. rewrite H2; [|intros j Hj; apply Hp; by right]. unfold f1. rewrite lookup_insert_ne; [done|]. intros H. by eapply Hp; [left|].
Qed.
