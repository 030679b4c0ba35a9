(** * ScoreReal: the aggregated scores as real numbers (C40, C50) *)
From Coq Require Import Reals Lra.
From Flocq Require Import Core Sterbenz.
From Verif Require Import ScoreSpec FloatProofs.
Local Open Scope R_scope.

(** A score of a testcase between 0 and 1 *)
Definition unit_score (x : f64) : Prop := fin x /\ 0 <= f64_R x <= 1.
(** The sum and the mean of the real numbers *)
Definition Rsum (l : list R) : R := fold_right Rplus 0 l.
Definition Rmean (l : list R) : R := Rsum l / INR (length l).
(** The first of the smallest elements *)
Definition first_min (r : f64) (l : list f64) : Prop :=
  exists l1 l2, l = l1 ++ r :: l2 /\ Forall (fun x => f64_R r < f64_R x) l1 /\ Forall (fun x => f64_R r <= f64_R x) l2.

Lemma rnd_bound x n : 0 <= x <= IZR n -> (Z.abs n <= 2 ^ 53)%Z -> 0 <= rnd x <= IZR n.
Proof.
  intros [H0 H1] Hn. split.
  - rewrite <- (rnd_Z 0) by lia. by apply rnd_le.
  - rewrite <- (rnd_Z n) by done. by apply rnd_le.
Qed.
Lemma small_fits x : 0 <= x <= IZR (2 ^ 53) -> Rabs x < bpow radix2 1024.
Proof. intros [H0 H1]. rewrite Rabs_pos_eq by done. eapply Rle_lt_trans; [exact H1|apply big_bound]. Qed.

Lemma min_from_spec l m : fin m -> Forall fin l -> exists r, min_from m l = Some r /\ first_min r (m :: l).
Proof.
  intros Hm Hl. cut (exists r, min_from m l = Some r /\ ((r = m /\ Forall (fun x => f64_R m <= f64_R x) l) \/
    exists l1 l2, l = l1 ++ r :: l2 /\ f64_R r < f64_R m /\ Forall (fun x => f64_R r < f64_R x) l1 /\ Forall (fun x => f64_R r <= f64_R x) l2)).
  { intros (r & Hr & [[-> H]|(l1 & l2 & -> & H1 & H2 & H3)]).
    - exists m. split; [done|]. exists [], l. by split_and!.
    - exists r. split; [done|]. exists (m :: l1), l2. split_and!; [done| |done]. by constructor. }
  revert m Hm. induction Hl as [|x l Hx Hl IH]; intros m Hm; simpl; [exists m; split; [done|by left]|].
  rewrite f64_cmp_R by done. destruct (Rcompare_spec (f64_R m) (f64_R x)) as [H|H|H].
  - destruct (IH m Hm) as (r & -> & [[-> H2]|(l1 & l2 & -> & H1 & H2 & H3)]); [exists m|exists r]; (split; [done|]).
    + left. split; [done|]. constructor; [lra|done].
    + right. exists (x :: l1), l2. split_and!; [done|done| |done]. constructor; [lra|done].
  - destruct (IH m Hm) as (r & -> & [[-> H2]|(l1 & l2 & -> & H1 & H2 & H3)]); [exists m|exists r]; (split; [done|]).
    + left. split; [done|]. constructor; [lra|done].
    + right. exists (x :: l1), l2. split_and!; [done|done| |done]. constructor; [lra|done].
  - destruct (IH x Hx) as (r & -> & [[-> H2]|(l1 & l2 & -> & H1 & H2 & H3)]); [exists x|exists r]; (split; [done|]).
    + right. exists [], l. by split_and!.
    + right. exists (x :: l1), l2. split_and!; [done|lra| |done]. constructor; [lra|done].
Qed.
Lemma first_min_le r l : first_min r l -> r ∈ l /\ Forall (fun x => f64_R r <= f64_R x) l.
Proof.
  intros (l1 & l2 & -> & H1 & H2). split; [apply elem_of_app; right; by left|]. apply Forall_app. split; [|constructor; [lra|done]].
  eapply Forall_impl; [exact H1|]. intros x Hx. simpl in Hx. lra.
Qed.

(** The running sums *)
Lemma sum_spec l acc (n : nat) : Forall unit_score l -> fin acc -> 0 <= f64_R acc <= INR n -> (Z.of_nat (n + length l) <= 2 ^ 31)%Z ->
  let s := fold_left f64_add l acc in
  fin s /\ 0 <= f64_R s <= INR (n + length l) /\
  Rabs (f64_R s - (f64_R acc + Rsum (map f64_R l))) <= INR (length l) * (bpow radix2 (-53) * INR (n + length l) + bpow radix2 (-1075)).
Proof.
  intros Hl. revert acc n. induction Hl as [|x l [Hx Hx1] Hl IH]; intros acc n Hacc Hb Hn; cbn [fold_left length].
  - simpl map. change (Rsum []) with 0. change (INR 0) with 0. rewrite Nat.add_0_r. split_and!; [done|lra|lra|]. replace (f64_R acc - (f64_R acc + 0)) with 0 by lra. rewrite Rabs_R0. lra.
  - change (Rsum (map f64_R (x :: l))) with (f64_R x + Rsum (map f64_R l)). assert (0 <= f64_R acc + f64_R x <= IZR (Z.of_nat (S n))) as Hs. { rewrite <- INR_IZR_INZ, S_INR. lra. }
    assert (Z.of_nat (S n) <= 2 ^ 31)%Z as Hz.
    { simpl length in Hn. lia. }
    destruct (rnd_bound _ _ Hs) as [Hr0 Hr1]; [lia|].
    destruct (f64_add_R acc x Hacc Hx) as [Hf HR].
    { apply small_fits. split; [done|]. eapply Rle_trans; [exact Hr1|]. apply IZR_le. lia. }
    rewrite <- INR_IZR_INZ in Hr1.
    destruct (IH (f64_add acc x) (S n) Hf) as (H1 & H2 & H3); [rewrite HR; lra|simpl in *; lia|].
    cbn zeta in H1, H2, H3. replace (S n + length l)%nat with (S (n + length l)) in H2, H3 by lia. replace (n + S (length l))%nat with (S (n + length l)) by lia. split_and!; [done|lra|lra|].
    set (s := fold_left f64_add l (f64_add acc x)) in *. rewrite HR in H3.
    replace (f64_R s - (f64_R acc + (f64_R x + Rsum (map f64_R l)))) with
      ((f64_R s - (rnd (f64_R acc + f64_R x) + Rsum (map f64_R l))) + (rnd (f64_R acc + f64_R x) - (f64_R acc + f64_R x))) by lra.
    eapply Rle_trans; [apply Rabs_triang|]. rewrite (S_INR (length l)).
    rewrite Rmult_plus_distr_r, Rmult_1_l. apply Rplus_le_compat; [exact H3|].
    eapply Rle_trans; [apply rnd_error|]. apply Rplus_le_compat_r. apply Rmult_le_compat_l; [apply bpow_ge_0|].
    rewrite Rabs_pos_eq by lra. rewrite <- INR_IZR_INZ in Hs. eapply Rle_trans; [apply Hs|]. apply le_INR. lia.
Qed.
Lemma len_Z (l : list f64) : l <> [] -> (Z.of_nat (length l) < 2 ^ 31)%Z -> (0 < Z.of_nat (length l) < 2 ^ 31)%Z.
Proof.
  intros Hne Hn. split; [destruct l; [done|simpl length; lia]|done].
Qed.
Lemma sum_mean l : l <> [] -> Forall unit_score l -> (Z.of_nat (length l) < 2 ^ 31)%Z ->
  exists r, aggregate Sum l = Some r /\ unit_score r /\ f64_R r = rnd (f64_R (fold_left f64_add l f64_zero) / INR (length l)) /\
    Rabs (f64_R r - Rmean (map f64_R l)) <= (INR (length l) + 2) * bpow radix2 (-53).
Proof.
  intros Hne Hl Hn. pose proof (len_Z l Hne Hn) as [Hz0 Hz1].
  destruct (sum_spec l f64_zero 0 Hl) as (H1 & H2 & H3); [apply f64_zero_R|rewrite (proj2 f64_zero_R); simpl; lra|lia|].
  cbn zeta in H1, H2, H3. rewrite Nat.add_0_l in H2, H3. set (s := fold_left f64_add l f64_zero) in *. set (n := length l) in *.
  destruct (f64_of_Z_R (Z.of_nat n)) as [Hnf HnR]; [lia|]. rewrite <- INR_IZR_INZ in HnR.
  assert (0 < INR n) as Hn0 by (apply lt_0_INR; lia).
  assert (0 <= f64_R s / INR n <= 1) as Hq.
  { split; [apply Rmult_le_pos; [lra|]; left; by apply Rinv_0_lt_compat|]. apply (Rmult_le_reg_r (INR n)); [done|]. unfold Rdiv. rewrite Rmult_assoc, Rinv_l by lra. lra. }
  destruct (rnd_bound _ 1 Hq) as [Hr0 Hr1]; [lia|].
  destruct (f64_div_R s (f64_of_Z (Z.of_nat n)) H1 Hnf) as [Hf HR]; [rewrite HnR; lra| |].
  { rewrite HnR. apply small_fits. split; [done|]. eapply Rle_trans; [exact Hr1|]. apply IZR_le. lia. }
  rewrite HnR in HR. exists (f64_div s (f64_of_Z (Z.of_nat n))). split; [unfold aggregate; by destruct l|]. split; [split; [done|rewrite HR; lra]|]. split; [done|].
  rewrite HR. unfold Rmean. rewrite map_length. fold n. rewrite (proj2 f64_zero_R), Rplus_0_l in H3. set (S := Rsum (map f64_R l)) in *.
  replace (rnd (f64_R s / INR n) - S / INR n) with ((rnd (f64_R s / INR n) - f64_R s / INR n) + (f64_R s - S) / INR n) by (field; lra).
  eapply Rle_trans; [apply Rabs_triang|].
  assert (Rabs (rnd (f64_R s / INR n) - f64_R s / INR n) <= bpow radix2 (-53) + bpow radix2 (-1075)) as HA.
  { eapply Rle_trans; [apply rnd_error|]. apply Rplus_le_compat_r. rewrite <- (Rmult_1_r (bpow radix2 (-53))) at 2. apply Rmult_le_compat_l; [apply bpow_ge_0|]. rewrite Rabs_pos_eq; lra. }
  assert (Rabs ((f64_R s - S) / INR n) <= bpow radix2 (-53) * INR n + bpow radix2 (-1075)) as HB.
  { unfold Rdiv. rewrite Rabs_mult, (Rabs_pos_eq (/ INR n)) by (left; by apply Rinv_0_lt_compat).
    apply (Rmult_le_reg_r (INR n)); [done|]. rewrite Rmult_assoc, Rinv_l, Rmult_1_r by lra. rewrite (Rmult_comm _ (INR n)). exact H3. }
  assert (bpow radix2 (-1075) <= bpow radix2 (-54)) as HC by (apply bpow_le; lia).
  assert (bpow radix2 (-53) = 2 * bpow radix2 (-54)) as HD by (change (-53)%Z with (1 + -54)%Z; rewrite bpow_plus; simpl (bpow radix2 1); lra).
  pose proof (bpow_gt_0 radix2 (-54)). nra.
Qed.
(** Monotonicity *)
Definition below (l l' : list f64) : Prop := Forall2 (fun x y => f64_R x <= f64_R y) l l'.
Lemma sum_mono l l' acc acc' (n : nat) : below l l' -> Forall unit_score l -> Forall unit_score l' -> fin acc -> fin acc' ->
  0 <= f64_R acc <= INR n -> 0 <= f64_R acc' <= INR n -> f64_R acc <= f64_R acc' -> (Z.of_nat (n + length l) <= 2 ^ 31)%Z ->
  f64_R (fold_left f64_add l acc) <= f64_R (fold_left f64_add l' acc').
Proof.
  intros Hb. revert acc acc' n. induction Hb as [|x y l l' Hxy Hb IH]; intros acc acc' n Hl Hl' Ha Ha' Hn Hn' Hle Hlen; simpl; [done|].
  apply Forall_cons in Hl as [[Hx Hx1] Hl], Hl' as [[Hy Hy1] Hl'].
  assert (0 <= f64_R acc + f64_R x <= IZR (Z.of_nat (S n))) as Hs. { rewrite <- INR_IZR_INZ, S_INR. lra. }
  assert (0 <= f64_R acc' + f64_R y <= IZR (Z.of_nat (S n))) as Hs'. { rewrite <- INR_IZR_INZ, S_INR. lra. }
  assert (Z.of_nat (S n) <= 2 ^ 31)%Z as Hz.
  { simpl length in Hlen. lia. }
  destruct (rnd_bound _ _ Hs) as [Hr0 Hr1]; [lia|]. destruct (rnd_bound _ _ Hs') as [Hr0' Hr1']; [lia|].
  destruct (f64_add_R acc x Ha Hx) as [Hf HR]. { apply small_fits. split; [done|]. eapply Rle_trans; [exact Hr1|]. apply IZR_le. lia. }
  destruct (f64_add_R acc' y Ha' Hy) as [Hf' HR']. { apply small_fits. split; [done|]. eapply Rle_trans; [exact Hr1'|]. apply IZR_le. lia. }
  rewrite <- INR_IZR_INZ in Hr1, Hr1'.
  apply (IH _ _ (S n)); [done|done|done|done|rewrite HR; lra|rewrite HR'; lra| |simpl length in *; lia].
  rewrite HR, HR'. apply rnd_le. lra.
Qed.
Lemma agg_mono a l l' r r' : below l l' -> Forall unit_score l -> Forall unit_score l' -> (Z.of_nat (length l) < 2 ^ 31)%Z ->
  aggregate a l = Some r -> aggregate a l' = Some r' -> f64_R r <= f64_R r'.
Proof.
  intros Hb Hl Hl' Hn Hr Hr'. destruct l as [|x l]. { apply Forall2_nil_inv_l in Hb as ->. rewrite Hr in Hr'. injection Hr' as ->. lra. }
  destruct l' as [|y l']; [by apply Forall2_nil_inv_r in Hb|]. destruct a.
  - simpl in Hr, Hr'. pose proof Hl as Hu. pose proof Hl' as Hu'. apply Forall_cons in Hl as [[Hx _] Hl], Hl' as [[Hy _] Hl'].
    destruct (min_from_spec l x Hx) as (q & Hq & Hmin); [eapply Forall_impl; [exact Hl|]; by intros ? [? _]|]. rewrite Hr in Hq. injection Hq as <-.
    destruct (min_from_spec l' y Hy) as (q & Hq & Hmin'); [eapply Forall_impl; [exact Hl'|]; by intros ? [? _]|]. rewrite Hr' in Hq. injection Hq as <-.
    apply first_min_le in Hmin as [_ Hmin], Hmin' as [Hin' _]. apply elem_of_list_lookup in Hin' as [i Hi].
    destruct (Forall2_lookup_r _ _ _ _ _ Hb Hi) as (z & Hz & Hzr). rewrite Forall_forall in Hmin. eapply Rle_trans; [|exact Hzr]. apply Hmin. by apply elem_of_list_lookup_2 in Hz.
  - destruct (sum_mean (x :: l)) as (q & Hq & _ & Hq2 & _); [done|done|done|]. rewrite Hr in Hq. injection Hq as <-.
    assert (length (x :: l) = length (y :: l')) as Hlen by by eapply Forall2_length.
    destruct (sum_mean (y :: l')) as (q & Hq & _ & Hq2' & _); [done|done|by rewrite <- Hlen|]. rewrite Hr' in Hq. injection Hq as <-.
    rewrite Hq2, Hq2', <- Hlen. apply rnd_le. apply Rmult_le_compat_r.
    + left. apply Rinv_0_lt_compat, lt_0_INR. simpl. lia.
    + apply (sum_mono _ _ _ _ 0); try done; try apply f64_zero_R; try (rewrite (proj2 f64_zero_R); simpl; lra). lia.
Qed.
Lemma agg_unit a l : Forall unit_score l -> (Z.of_nat (length l) < 2 ^ 31)%Z -> exists r, aggregate a l = Some r /\ unit_score r.
Proof.
  intros Hl Hn. destruct l as [|x l].
  { exists f64_one. split; [by destruct a|]. destruct f64_one_R as [? H]. split; [done|rewrite H; lra]. }
  destruct a.
  - pose proof Hl as Hu. apply Forall_cons in Hl as [[Hx _] Hl]. destruct (min_from_spec l x Hx) as (r & Hr & Hmin); [eapply Forall_impl; [exact Hl|]; by intros ? [? _]|].
    exists r. split; [exact Hr|]. apply first_min_le in Hmin as [Hin _]. rewrite Forall_forall in Hu. by apply Hu.
  - destruct (sum_mean (x :: l)) as (r & Hr & Hu & _); [done|done|done|]. eauto.
Qed.
Lemma scaled max n : fin max -> 0 <= f64_R max -> unit_score n -> fin (f64_mul max n) /\ 0 <= f64_R (f64_mul max n) <= f64_R max /\ f64_R (f64_mul max n) = rnd (f64_R max * f64_R n).
Proof.
  intros Hm H0 [Hn [Hn0 Hn1]]. assert (0 <= f64_R max * f64_R n <= f64_R max) as Hp by nra.
  assert (0 <= rnd (f64_R max * f64_R n) <= f64_R max) as Hr.
  { split; [rewrite <- (rnd_Z 0) by lia; apply rnd_le; apply Hp|]. rewrite <- (rnd_fin max) at 2 by done. apply rnd_le, Hp. }
  destruct (f64_mul_R max n Hm Hn) as [Hf HR]; [|by rewrite HR].
  rewrite Rabs_pos_eq by lra. eapply Rle_lt_trans; [apply Hr|]. destruct (fin_B max Hm) as (b & -> & Hb & ->). eapply Rle_lt_trans; [apply Rle_abs|]. apply BinarySingleNaN.abs_B2R_lt_emax.
Qed.

(** ** C50 *)
Lemma thousandth_R : fin f64_thousandth /\ 1 / 1000 < f64_R f64_thousandth < 1 / 1000 + bpow radix2 (-65).
Proof.
  split; [by split|]. unfold f64_R, f64_thousandth. simpl. unfold F2R. simpl. lra.
Qed.
Lemma sub_fits s m : fin s -> fin m -> 0 <= f64_R s -> 0 <= f64_R m -> Rabs (rnd (f64_R s - f64_R m)) < bpow radix2 1024.
Proof.
  intros Hs Hm H0 H1.
  assert (forall x, fin x -> f64_R x < bpow radix2 1024) as Hlt.
  { intros x Hx. destruct (fin_B x Hx) as (b & -> & Hb & ->). eapply Rle_lt_trans; [apply Rle_abs|]. apply BinarySingleNaN.abs_B2R_lt_emax. }
  destruct (Rle_or_lt (f64_R m) (f64_R s)) as [H|H].
  - assert (0 <= rnd (f64_R s - f64_R m) <= f64_R s) as Hr.
    { split; [rewrite <- (rnd_Z 0) by lia; apply rnd_le; simpl; lra|]. rewrite <- (rnd_fin s) at 2 by done. apply rnd_le. lra. }
    rewrite Rabs_pos_eq by lra. eapply Rle_lt_trans; [apply Hr|by apply Hlt].
  - assert (- f64_R m <= rnd (f64_R s - f64_R m) <= 0) as Hr.
    { split; [|rewrite <- (rnd_Z 0) by lia; apply rnd_le; simpl; lra]. 
      rewrite <- (rnd_id (- f64_R m)); [apply rnd_le; lra|]. by apply generic_format_opp, fin_format. }
    rewrite Rabs_left1 by lra. apply Rle_lt_trans with (f64_R m); [lra|by apply Hlt].
Qed.
Lemma near_iff s m : fin s -> fin m -> 0 <= f64_R s -> 2 / 1000 <= f64_R m - bpow radix2 (-64) ->
  f64_lt (f64_abs (f64_sub s m)) f64_thousandth = true <-> Rabs (f64_R s - f64_R m) < f64_R f64_thousandth.
Proof.
  intros Hs Hm H0 H1. assert (0 < bpow radix2 (-64)) by apply bpow_gt_0.
  destruct (f64_sub_R s m Hs Hm) as [Hf HR]; [apply sub_fits; try done; lra|].
  destruct (f64_abs_R _ Hf) as [Ha HaR]. destruct thousandth_R as [Ht Htb]. rewrite f64_lt_R by done. rewrite HaR, HR.
  assert (bpow radix2 (-64) = 2 * bpow radix2 (-65)) as E. { change (-64)%Z with (1 + -65)%Z. rewrite bpow_plus. simpl (bpow radix2 1). lra. }
  split; intros H2.
  - destruct (Rlt_or_le (Rabs (f64_R s - f64_R m)) (f64_R f64_thousandth)) as [?|Hle]; [done|]. exfalso.
    destruct (Rle_or_lt 0 (f64_R s - f64_R m)) as [Hp|Hp].
    + rewrite (Rabs_pos_eq (_ - _)) in Hle by done. apply rnd_le in Hle. rewrite (rnd_fin _ Ht) in Hle. pose proof (Rle_abs (rnd (f64_R s - f64_R m))). lra.
    + rewrite (Rabs_left1 (_ - _)) in Hle by lra. assert (f64_R s - f64_R m <= - f64_R f64_thousandth) as Hle' by lra. apply rnd_le in Hle'.
      rewrite (rnd_id (- _)) in Hle' by by apply generic_format_opp, fin_format. rewrite <- Rabs_Ropp in H2. pose proof (Rle_abs (- rnd (f64_R s - f64_R m))). lra.
  - rewrite rnd_id; [done|]. apply Rabs_lt_inv in H2. apply sterbenz; [apply FLT_exp_valid; done|apply FLT_exp_monotone|by apply fin_format..|]. lra.
Qed.
