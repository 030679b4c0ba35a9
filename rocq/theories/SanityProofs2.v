(** * SanityProofs2: the sum of the scores *)
From Coq Require Import ZArith Reals Lia Lra.
From Flocq Require Import Core.Core IEEE754.BinarySingleNaN.
From stdpp Require Import list.
From Verif Require Import SanityModel SanitySpec FloatModel FloatProofs.

Lemma sum_Z (zs : list Z) acc (a : Z) : fin acc -> f64_R acc = IZR a -> (0 <= a)%Z -> Forall (fun z => 0 <= z)%Z zs ->
  (a + foldr Z.add 0 zs <= 2 ^ 53)%Z ->
  fin (fold_left f64_add (map f64_of_Z zs) acc) /\ f64_R (fold_left f64_add (map f64_of_Z zs) acc) = IZR (a + foldr Z.add 0 zs)%Z.
Proof.
  revert acc a. induction zs as [|z zs IH]; intros acc a Ha Ra Pa Hz Hs.
  - cbn. replace (a + 0)%Z with a by lia. done.
  - cbn [map fold_left foldr] in *. apply Forall_cons in Hz as [Pz Hz]. assert (Hsum : (0 <= foldr Z.add 0 zs)%Z).
    { clear -Hz. induction Hz as [|x l Hx Hl IH]; cbn; lia. }
    destruct (f64_of_Z_R z) as [Fz Rz]; [lia|]. destruct (f64_add_R acc (f64_of_Z z)) as [F R]; [done|done| |].
    + rewrite Ra, Rz, <- plus_IZR. rewrite rnd_Z by lia. rewrite <- abs_IZR. eapply Rle_lt_trans; [apply IZR_le|apply big_bound]. lia.
    + rewrite Ra, Rz, <- plus_IZR in R. rewrite rnd_Z in R by lia. destruct (IH _ _ F R) as [F' R']; [lia|done|lia|]. split; [done|]. rewrite R'. f_equal. lia.
Qed.
Lemma epsilon_R : fin f64_epsilon /\ (0 < f64_R f64_epsilon < 1)%R.
Proof.
  split; [split; reflexivity|]. unfold f64_R, f64_epsilon. simpl. unfold F2R. simpl. lra.
Qed.
Lemma abs_diff_eq_Z x (a b : Z) : fin x -> f64_R x = IZR a -> (0 <= a <= 2 ^ 53)%Z -> (0 <= b <= 2 ^ 53)%Z -> abs_diff_eq x (f64_of_Z b) = true <-> a = b.
Proof.
  intros Fx Rx Ha Hb. destruct (f64_of_Z_R b) as [Fb Rb]; [lia|]. destruct (f64_sub_R x (f64_of_Z b)) as [F R]; [done|done| |].
  { rewrite Rx, Rb, <- minus_IZR, rnd_Z by lia. rewrite <- abs_IZR. eapply Rle_lt_trans; [apply IZR_le|apply big_bound]. lia. }
  rewrite Rx, Rb, <- minus_IZR, rnd_Z in R by lia. destruct (f64_abs_R _ F) as [FA RA]. rewrite R, <- abs_IZR in RA. destruct epsilon_R as [Fe [E0 E1]].
  unfold abs_diff_eq. rewrite f64_cmp_R by done. rewrite RA. destruct (Rcompare_spec (IZR (Z.abs (a - b))) (f64_R f64_epsilon)) as [H|H|H].
  - split; [|done]. intros _. assert (IZR (Z.abs (a - b)) < 1)%R as H1 by lra. apply lt_IZR in H1. lia.
  - split; [|done]. intros _. assert (IZR (Z.abs (a - b)) < 1)%R as H1 by lra. apply lt_IZR in H1. lia.
  - split; [done|]. intros ->. exfalso. rewrite Z.sub_diag in H. change (IZR (Z.abs 0)) with 0%R in H. lra.
Qed.
Lemma task_max_score_Z sts zs : integer_scores sts zs -> task_max_score sts = [] <-> foldr Z.add 0%Z zs = 100%Z.
Proof.
  intros (E & Hz & Hs). unfold task_max_score, total_score. rewrite E. destruct f64_zero_R as [F0 R0].
  destruct (sum_Z zs f64_zero 0%Z F0 R0) as [F R]; [lia|done|lia|]. rewrite Z.add_0_l in R.
  assert (0 <= foldr Z.add 0 zs)%Z as Hp. { clear -Hz. induction Hz as [|x l Hx Hl IH]; cbn; lia. }
  pose proof (abs_diff_eq_Z _ _ 100%Z F R (conj Hp Hs)) as H. unfold f64_hundred. destruct (abs_diff_eq _ _).
  - split; [|done]. intros _. apply H; [lia|done].
  - split; [done|]. intros H'. apply H in H'; [done|lia].
Qed.
