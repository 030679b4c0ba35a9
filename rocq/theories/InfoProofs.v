(** * InfoProofs: lemmas on task-info and on the copies *)
From Coq Require Import NArith ZArith.
From Verif Require Import InfoModel InfoSpec.
From stdpp Require Import sorting.

Lemma path_of_under t r : path_of t (it_path t ++ r) = r.
Proof. unfold path_of. rewrite take_app, drop_app. by rewrite bool_decide_eq_true_2. Qed.
Lemma insert_perm {A} (x : nat * A) l : insert_by_id x l ≡ₚ x :: l.
Proof. induction l as [|y l IH]; cbn; [done|]. destruct Nat.leb; [done|]. rewrite IH. constructor. Qed.
Lemma sort_perm {A} (l : list (nat * A)) : sort_by_id l ≡ₚ l.
Proof. induction l as [|x l IH]; cbn; [done|]. rewrite insert_perm. by constructor. Qed.
Definition id_lt {A} (a b : nat * A) : Prop := a.1 < b.1.
Lemma insert_sorted {A} (x : nat * A) l : StronglySorted id_lt l -> x.1 ∉ l.*1 -> StronglySorted id_lt (insert_by_id x l).
Proof.
  induction 1 as [|y l Hl IH Hy]; intros Hx; cbn [insert_by_id]; [by repeat constructor|]. cbn in Hx. rewrite not_elem_of_cons in Hx. destruct Hx as [H1 H2].
  destruct (Nat.leb_spec x.1 y.1) as [H|H].
  - constructor; [by constructor|]. assert (x.1 < y.1) as Hlt by lia. constructor; [done|]. eapply Forall_impl; [exact Hy|]. intros z Hz. unfold id_lt in *. lia.
  - constructor; [by apply IH|]. rewrite insert_perm. by constructor.
Qed.
Lemma sort_sorted {A} (l : list (nat * A)) : NoDup l.*1 -> StronglySorted id_lt (sort_by_id l).
Proof.
  induction l as [|x l IH]; cbn; intros H; [constructor|]. apply NoDup_cons in H as [H1 H2]. apply insert_sorted; [by apply IH|]. change (foldr insert_by_id [] l) with (sort_by_id l). by rewrite sort_perm.
Qed.
Lemma strong_lookup {A} (R : A -> A -> Prop) l : StronglySorted R l <-> forall i j a b, l !! i = Some a -> l !! j = Some b -> i < j -> R a b.
Proof.
  split.
  - induction 1 as [|x l Hl IH Hx]; intros i j a b Ha Hb Hij; [done|]. destruct j as [|j]; [lia|]. cbn in Hb. destruct i as [|i].
    + injection Ha as <-. rewrite Forall_forall in Hx. apply Hx. by eapply elem_of_list_lookup_2.
    + eapply IH; [exact Ha|exact Hb|lia].
  - induction l as [|x l IH]; intros H; [constructor|]. constructor.
    + apply IH. intros i j a b Ha Hb Hij. apply (H (S i) (S j)); [done|done|lia].
    + apply Forall_forall. intros y Hy. apply elem_of_list_lookup in Hy as (j & Hj). apply (H 0 (S j)); [done|done|lia].
Qed.
Lemma sorted_unique {A} (l k : list (nat * A)) : StronglySorted id_lt l -> StronglySorted id_lt k -> l ≡ₚ k -> l = k.
Proof.
  intros Hl. revert k. induction Hl as [|x l Hl IH Hx]; intros k Hk HP; [by apply Permutation_nil_l in HP|].
  destruct Hk as [|y k Hk Hy]; [by apply Permutation_nil_r in HP|].
  assert (x = y) as ->.
  { assert (x ∈ y :: k) as H1 by (rewrite <- HP; left). assert (y ∈ x :: l) as H2 by (rewrite HP; left).
    apply elem_of_cons in H1 as [->|H1]; [done|]. apply elem_of_cons in H2 as [->|H2]; [done|].
    rewrite Forall_forall in Hx, Hy. pose proof (Hx _ H2). pose proof (Hy _ H1). unfold id_lt in *. lia. }
  f_equal. apply IH; [done|]. by apply Permutation_cons_inv in HP.
Qed.
Lemma sort_in_order {A} (l l' : list (nat * A)) : in_order l l' -> sort_by_id l = l'.
Proof.
  intros [HP HS]. assert (StronglySorted id_lt l') as Hs by (apply strong_lookup; exact HS).
  apply sorted_unique; [|done|by rewrite sort_perm]. apply sort_sorted. rewrite <- HP. clear -Hs.
  induction Hs as [|x l Hl IH Hx]; cbn; constructor; [|done]. rewrite elem_of_list_fmap. intros (y & E & Hy). rewrite Forall_forall in Hx. specialize (Hx _ Hy). unfold id_lt in Hx. lia.
Qed.

(** ** The copies *)
Lemma prefix_snoc (d : fpath) n : d `prefix_of` d ++ [n].
Proof. by exists [n]. Qed.
Lemma copy_to_spec src d n f f' : copy_to src d n f = Some f' -> exists b, f !! src = Some (FFile b) /\ is_dir d f = true /\ f' = <[d ++ [n] := FFile b]> f.
Proof.
  unfold copy_to. destruct (f !! src) as [[|b]|]; [done| |done]. destruct (is_dir d f) eqn:E; [|done]. intros H. exists b.
  split; [done|]. split; [done|]. destruct (f !! (d ++ [n])) as [[]|]; congruence.
Qed.
Lemma copy_all_outside task d l f f' p : copy_all task d l f = Some f' -> (forall y n, y ∈ l -> last (if_path y) = Some n -> p <> d ++ [n]) -> f' !! p = f !! p.
Proof.
  revert f. induction l as [|x l IH]; intros f H Hp; cbn in H; [by injection H as <-|]. apply bind_Some in H as (g & H1 & H2).
  rewrite (IH _ H2); [|intros y n Hy; apply Hp; by right]. apply bind_Some in H1 as (n & Hn & H1). apply copy_to_spec in H1 as (b & _ & _ & ->).
  apply lookup_insert_ne. intros E. by apply (Hp x n); [left| |].
Qed.
Lemma copy_all_last task d l f f' n src : copy_all task d l f = Some f' -> (forall y, y ∈ l -> outside d (task ++ if_path y)) -> last_called task l n src ->
  exists b, f !! src = Some (FFile b) /\ f' !! (d ++ [n]) = Some (FFile b).
Proof.
  revert f. induction l as [|x l IH]; intros f H Hd (a & y & b & E & Hy & Hs & Hb); [by destruct a|]. cbn in H. apply bind_Some in H as (g & H1 & H2).
  apply bind_Some in H1 as (m & Hm & H1). apply copy_to_spec in H1 as (c & Hc & _ & ->). destruct a as [|x' a]; cbn in E; injection E as <- ->.
  - rewrite Hy in Hm. injection Hm as <-. exists c. rewrite Hs. split; [done|].
    rewrite (copy_all_outside _ _ _ _ _ _ H2); [by rewrite lookup_insert|]. intros z k Hz Hk E'. apply app_inj_tail in E' as [_ ->]. rewrite Forall_forall in Hb. by apply (Hb z).
  - destruct (IH _ H2) as (e & He1 & He2); [intros z Hz; apply Hd; by right|by exists a, y, b|]. exists e. split; [|done]. rewrite lookup_insert_ne in He1; [done|].
    intros Ep. apply (Hd y); [right; rewrite elem_of_app, elem_of_cons; tauto|]. rewrite <- Hs, <- Ep. apply prefix_snoc.
Qed.
Lemma copy_all_app task d l k f : copy_all task d (l ++ k) f = f ← copy_all task d l f; copy_all task d k f.
Proof. revert f; induction l as [|x l IH]; intros f; cbn; [done|]. destruct (copy_one task d x f); cbn; [apply IH|done]. Qed.
Lemma copy_files_all i task d x f : copy_files i task d x f = f ← ensure_dir d x f; copy_all task (d ++ [x]) (to_copy i) f.
Proof. unfold copy_files, to_copy. destruct (ensure_dir d x f); cbn; [|done]. by rewrite copy_all_app. Qed.
Lemma ensure_spec d x f f' : ensure_dir d x f = Some f' -> (f' = f /\ is_Some (f !! (d ++ [x]))) \/ (f !! (d ++ [x]) = None /\ is_dir d f = true /\ f' = <[d ++ [x] := FDir]> f).
Proof.
  unfold ensure_dir. destruct (f !! (d ++ [x])) eqn:E; [intros [= <-]; left; by eauto|]. destruct (is_dir d f) eqn:E2; [|done]. intros [= <-]. by right.
Qed.
Lemma ensure_ne d x f f' p : ensure_dir d x f = Some f' -> p <> d ++ [x] -> f' !! p = f !! p.
Proof. intros H Hp. apply ensure_spec in H as [[-> _]|(_ & _ & ->)]; [done|]. by apply lookup_insert_ne. Qed.
Lemma copy_all_total task d l f : is_dir d f = true -> (forall y, y ∈ l -> outside d (task ++ if_path y)) ->
  (forall y, y ∈ l -> exists n, last (if_path y) = Some n /\ is_dir (d ++ [n]) f = false /\ is_file (task ++ if_path y) f = true) -> is_Some (copy_all task d l f).
Proof.
  revert f. induction l as [|x l IH]; intros f Hd Ho Hl; cbn; [by eauto|]. destruct (Hl x) as (n & Hn & Hnd & Hf); [left|]. unfold copy_one. rewrite Hn. cbn. unfold copy_to.
  unfold is_file in Hf. destruct (f !! (task ++ if_path x)) as [[|b]|] eqn:Eb; try done. rewrite Hd. unfold is_dir in Hnd.
  assert (is_Some (copy_all task d l (<[d ++ [n] := FFile b]> f))) as Hr.
  { apply IH.
    - unfold is_dir. rewrite lookup_insert_ne; [exact Hd|]. intros E. apply (f_equal length) in E. rewrite app_length in E. cbn in E. lia.
    - intros y Hy. apply Ho. by right.
    - intros y Hy. destruct (Hl y) as (m & Hm & Hmd & Hmf); [by right|]. exists m. split; [done|]. unfold is_dir, is_file in *. split.
      + destruct (decide (d ++ [n] = d ++ [m])) as [E|E]; [by rewrite E, lookup_insert|by rewrite lookup_insert_ne].
      + rewrite lookup_insert_ne; [done|]. intros E. apply (Ho y); [by right|]. rewrite <- E. apply prefix_snoc. }
  destruct (f !! (d ++ [n])) as [[]|]; done.
Qed.
