(** * FloatProofs: the meaning of the operations of FloatModel.v on real numbers, from Flocq *)
From Coq Require Import Reals Lra Lia ZArith Bool.
From Flocq Require Import Core BinarySingleNaN Operations Zaux Relative.
From Verif Require Export FloatModel.

Local Notation prec := 53%Z. Local Notation emax := 1024%Z.
Local Instance Hprec : Prec_gt_0 prec. Proof. reflexivity. Qed.
Local Instance Hmax : Prec_lt_emax prec emax. Proof. reflexivity. Qed.
Local Notation fexp := (FLT_exp (3 - emax - prec) prec).
(** Rounding to nearest, ties to even, in the format of f64 *)
Definition rnd (x : R) : R := round radix2 fexp (round_mode mode_NE) x.
Local Notation bf := (binary_float prec emax).
(** The real number of a finite f64 *)
Definition f64_R (x : f64) : R := SF2R radix2 x.

Lemma round_nearest_even_equiv s m l : round_nearest_even m l = choice_mode mode_NE s m l.
Proof. case l; [reflexivity|intro c]. case c; [|reflexivity..]. simpl; unfold Round.cond_incr; now case Z.even. Qed.
Lemma binary_round_aux_equiv sx mx ex lx : SpecFloat.binary_round_aux prec emax sx mx ex lx = BinarySingleNaN.binary_round_aux prec emax mode_NE sx mx ex lx.
Proof.
  unfold SpecFloat.binary_round_aux, BinarySingleNaN.binary_round_aux. set (mrse' := shr_fexp _ _ _). case mrse'; intros mrs' e'; simpl.
  now rewrite (round_nearest_even_equiv sx).
Qed.
Lemma binary_round_equiv s m e : SpecFloat.binary_round prec emax s m e = BinarySingleNaN.binary_round prec emax mode_NE s m e.
Proof.
  unfold SpecFloat.binary_round, BinarySingleNaN.binary_round, shl_align_fexp. set (mez := shl_align _ _ _); case mez as [mz ez]. apply binary_round_aux_equiv.
Qed.
Lemma binary_normalize_equiv m e szero :
  SpecFloat.binary_normalize prec emax m e szero = B2SF (BinarySingleNaN.binary_normalize prec emax Hprec Hmax mode_NE m e szero).
Proof.
  case m as [|p|p]; [now simpl|simpl; rewrite B2SF_SF2B; apply binary_round_equiv..].
Qed.
Lemma add_equiv (x y : bf) : f64_add (B2SF x) (B2SF y) = B2SF (Bplus mode_NE x y).
Proof.
  case x as [sx|sx| |sx mx ex Bx]; case y as [sy|sy| |sy my ey By]; [now (trivial || simpl; case Bool.eqb)..|]. apply binary_normalize_equiv.
Qed.
Lemma sub_equiv (x y : bf) : f64_sub (B2SF x) (B2SF y) = B2SF (Bminus mode_NE x y).
Proof.
  case x as [sx|sx| |sx mx ex Bx]; case y as [sy|sy| |sy my ey By]; [now (trivial || simpl; case Bool.eqb)..|].
  unfold f64_sub. simpl. unfold Zminus. rewrite <- cond_Zopp_negb. apply binary_normalize_equiv.
Qed.
Lemma mul_equiv (x y : bf) : f64_mul (B2SF x) (B2SF y) = B2SF (Bmult mode_NE x y).
Proof.
  case x as [sx|sx| |sx mx ex Bx]; case y as [sy|sy| |sy my ey By]; [now trivial..|].
  unfold f64_mul. simpl. rewrite B2SF_SF2B. apply binary_round_aux_equiv.
Qed.
Lemma div_equiv (x y : bf) : f64_div (B2SF x) (B2SF y) = B2SF (Bdiv mode_NE x y).
Proof.
  case x as [sx|sx| |sx mx ex Bx]; case y as [sy|sy| |sy my ey By]; [now (trivial || simpl; case Bool.eqb)..|].
  unfold f64_div. simpl. rewrite B2SF_SF2B. set (melz := SFdiv_core_binary _ _ _ _ _ _). case melz as [[mz ez] lz]. apply binary_round_aux_equiv.
Qed.

(** A valid and finite f64 *)
Definition fin (x : f64) : Prop := f64_valid x = true /\ f64_finite x = true.
Lemma fin_B x : fin x -> exists b : bf, x = B2SF b /\ is_finite b = true /\ f64_R x = B2R b.
Proof.
  intros [Hv Hf]. exists (SF2B x Hv). rewrite B2SF_SF2B. split; [reflexivity|]. rewrite B2R_SF2B. split; [|reflexivity].
  unfold is_finite. destruct x; simpl; try discriminate; reflexivity.
Qed.
Lemma B_fin (b : bf) : is_finite b = true -> fin (B2SF b) /\ f64_R (B2SF b) = B2R b.
Proof.
  intros H. split; [split|].
  - apply valid_binary_B2SF.
  - destruct b; try discriminate; reflexivity.
  - unfold f64_R. destruct b; reflexivity.
Qed.

Lemma rnd_le x y : (x <= y)%R -> (rnd x <= rnd y)%R.
Proof. intros H. apply round_le; [apply FLT_exp_valid; reflexivity|apply valid_rnd_N|exact H]. Qed.
Lemma rnd_id x : generic_format radix2 fexp x -> rnd x = x.
Proof. intros H. apply round_generic; [apply valid_rnd_N|exact H]. Qed.
Lemma fin_format x : fin x -> generic_format radix2 fexp (f64_R x).
Proof. intros H. destruct (fin_B x H) as (b & -> & Hb & ->). apply generic_format_B2R. Qed.
Lemma rnd_fin x : fin x -> rnd (f64_R x) = f64_R x.
Proof. intros H. now apply rnd_id, fin_format. Qed.
Lemma Z_format z : (Z.abs z <= 2 ^ 53)%Z -> generic_format radix2 fexp (IZR z).
Proof.
  intros Hz. destruct (Z.eq_dec (Z.abs z) (2 ^ 53)) as [He|Hne].
  - assert (IZR z = IZR (2 ^ 53) \/ IZR z = - IZR (2 ^ 53))%R as [-> | ->].
    { rewrite <- opp_IZR. destruct (Z.abs_eq_or_opp z) as [H|H]; [left; f_equal; lia|right; f_equal; lia]. }
    + change (2 ^ 53)%Z with (Zpower radix2 53). rewrite IZR_Zpower by lia. apply generic_format_bpow. unfold FLT_exp. lia.
    + apply generic_format_opp. change (2 ^ 53)%Z with (Zpower radix2 53). rewrite IZR_Zpower by lia. apply generic_format_bpow. unfold FLT_exp. lia.
  - apply generic_format_FLT. exists (Float radix2 z 0); simpl; [unfold F2R; simpl; lra|lia|lia].
Qed.
Lemma rnd_Z z : (Z.abs z <= 2 ^ 53)%Z -> rnd (IZR z) = IZR z.
Proof. intros H. now apply rnd_id, Z_format. Qed.
Lemma big_bound : (IZR (2 ^ 53) < bpow radix2 emax)%R.
Proof. change (2 ^ 53)%Z with (Zpower radix2 53). rewrite IZR_Zpower by lia. apply bpow_lt. lia. Qed.

Lemma f64_add_R x y : fin x -> fin y -> (Rabs (rnd (f64_R x + f64_R y)) < bpow radix2 emax)%R ->
  fin (f64_add x y) /\ f64_R (f64_add x y) = rnd (f64_R x + f64_R y).
Proof.
  intros Hx Hy Hb. destruct (fin_B x Hx) as (bx & -> & Fx & Rx). destruct (fin_B y Hy) as (b2 & -> & Fy & Ry). rewrite Rx, Ry in *.
  rewrite add_equiv. generalize (Bplus_correct prec emax Hprec Hmax mode_NE bx b2 Fx Fy). rewrite Rlt_bool_true by exact Hb.
  intros (H1 & H2 & _). destruct (B_fin _ H2) as [H3 H4]. split; [exact H3|]. rewrite H4. exact H1.
Qed.
Lemma f64_sub_R x y : fin x -> fin y -> (Rabs (rnd (f64_R x - f64_R y)) < bpow radix2 emax)%R ->
  fin (f64_sub x y) /\ f64_R (f64_sub x y) = rnd (f64_R x - f64_R y).
Proof.
  intros Hx Hy Hb. destruct (fin_B x Hx) as (bx & -> & Fx & Rx). destruct (fin_B y Hy) as (b2 & -> & Fy & Ry). rewrite Rx, Ry in *.
  rewrite sub_equiv. generalize (Bminus_correct prec emax Hprec Hmax mode_NE bx b2 Fx Fy). rewrite Rlt_bool_true by exact Hb.
  intros (H1 & H2 & _). destruct (B_fin _ H2) as [H3 H4]. split; [exact H3|]. rewrite H4. exact H1.
Qed.
Lemma f64_mul_R x y : fin x -> fin y -> (Rabs (rnd (f64_R x * f64_R y)) < bpow radix2 emax)%R ->
  fin (f64_mul x y) /\ f64_R (f64_mul x y) = rnd (f64_R x * f64_R y).
Proof.
  intros Hx Hy Hb. destruct (fin_B x Hx) as (bx & -> & Fx & Rx). destruct (fin_B y Hy) as (b2 & -> & Fy & Ry). rewrite Rx, Ry in *.
  rewrite mul_equiv. generalize (Bmult_correct prec emax Hprec Hmax mode_NE bx b2). rewrite Rlt_bool_true by exact Hb.
  intros (H1 & H2 & _). rewrite Fx, Fy in H2. destruct (B_fin _ H2) as [H3 H4]. split; [exact H3|]. rewrite H4. exact H1.
Qed.
Lemma f64_div_R x y : fin x -> fin y -> f64_R y <> 0%R -> (Rabs (rnd (f64_R x / f64_R y)) < bpow radix2 emax)%R ->
  fin (f64_div x y) /\ f64_R (f64_div x y) = rnd (f64_R x / f64_R y).
Proof.
  intros Hx Hy Hn Hb. destruct (fin_B x Hx) as (bx & -> & Fx & Rx). destruct (fin_B y Hy) as (b2 & -> & Fy & Ry). rewrite Rx, Ry in *.
  rewrite div_equiv. generalize (Bdiv_correct prec emax Hprec Hmax mode_NE bx b2 Hn). rewrite Rlt_bool_true by exact Hb.
  intros (H1 & H2 & _). rewrite Fx in H2. destruct (B_fin _ H2) as [H3 H4]. split; [exact H3|]. rewrite H4. exact H1.
Qed.
Lemma f64_of_Z_R z : (Z.abs z <= 2 ^ 53)%Z -> fin (f64_of_Z z) /\ f64_R (f64_of_Z z) = IZR z.
Proof.
  intros Hz. unfold f64_of_Z. rewrite binary_normalize_equiv. generalize (binary_normalize_correct prec emax Hprec Hmax mode_NE z 0 false).
  cbv zeta. replace (F2R (Float radix2 z 0)) with (IZR z) by (unfold F2R; simpl; lra). change (round radix2 _ _ (IZR z)) with (rnd (IZR z)).
  rewrite (rnd_Z z Hz). rewrite Rlt_bool_true.
  - intros (H1 & H2 & _). destruct (B_fin _ H2) as [H3 H4]. split; [exact H3|]. now rewrite H4.
  - rewrite <- abs_IZR. eapply Rle_lt_trans; [apply IZR_le, Hz|apply big_bound].
Qed.
Lemma f64_cmp_R x y : fin x -> fin y -> f64_cmp x y = Some (Rcompare (f64_R x) (f64_R y)).
Proof.
  intros Hx Hy. destruct (fin_B x Hx) as (bx & -> & Fx & Rx). destruct (fin_B y Hy) as (b2 & -> & Fy & Ry). rewrite Rx, Ry.
  exact (Bcompare_correct prec emax bx b2 Fx Fy).
Qed.
Lemma f64_lt_R x y : fin x -> fin y -> f64_lt x y = true <-> (f64_R x < f64_R y)%R.
Proof.
  intros Hx Hy. unfold f64_lt, SFltb. change (SFcompare x y) with (f64_cmp x y). rewrite f64_cmp_R by assumption.
  destruct (Rcompare_spec (f64_R x) (f64_R y)); split; intros; try reflexivity; try discriminate; try assumption; lra.
Qed.
Lemma f64_eq_R x y : fin x -> fin y -> f64_eq x y = true <-> f64_R x = f64_R y.
Proof.
  intros Hx Hy. unfold f64_eq, SFeqb. change (SFcompare x y) with (f64_cmp x y). rewrite f64_cmp_R by assumption.
  destruct (Rcompare_spec (f64_R x) (f64_R y)); split; intros; try reflexivity; try discriminate; try assumption; lra.
Qed.
Lemma f64_zero_R : fin f64_zero /\ f64_R f64_zero = 0%R.
Proof. split; [split; reflexivity|reflexivity]. Qed.
Lemma f64_one_R : fin f64_one /\ f64_R f64_one = 1%R.
Proof.
  change f64_one with (f64_of_Z 1). apply f64_of_Z_R. lia.
Qed.
Lemma f64_abs_R x : fin x -> fin (f64_abs x) /\ f64_R (f64_abs x) = Rabs (f64_R x).
Proof.
  intros [Hv Hf]. destruct x as [s| | |s m e]; try discriminate.
  - split; [split; reflexivity|]. simpl. now rewrite Rabs_R0.
  - split; [split; [exact Hv|reflexivity]|]. unfold f64_R. simpl. unfold F2R. simpl.
    rewrite Rabs_mult, (Rabs_pos_eq (bpow radix2 e)) by apply bpow_ge_0. f_equal. rewrite <- abs_IZR. now destruct s.
Qed.
(** The error of a rounding *)
Lemma rnd_error x : (Rabs (rnd x - x) <= bpow radix2 (-53) * Rabs x + bpow radix2 (-1075))%R.
Proof.
  destruct (relative_error_N_FLT'_ex radix2 (3 - emax - prec) prec Hprec (fun x => negb (Z.even x)) x) as (eps & eta & He & Hn & _ & H).
  unfold rnd. simpl round_mode. rewrite H. replace (x * (1 + eps) + eta - x)%R with (x * eps + eta)%R by ring.
  eapply Rle_trans; [apply Rabs_triang|]. rewrite Rabs_mult. apply Rplus_le_compat.
  - rewrite Rmult_comm. apply Rmult_le_compat_r; [apply Rabs_pos|]. eapply Rle_trans; [exact He|]. unfold u_ro.
    assert (/ 2 * bpow radix2 (- prec + 1) = bpow radix2 (-53))%R as E by (simpl; lra). 
    assert (0 < bpow radix2 (-53))%R by apply bpow_gt_0.
    rewrite E. unfold Rdiv. rewrite <- (Rmult_1_r (bpow radix2 (-53))) at 3. apply Rmult_le_compat_l; [lra|]. rewrite <- Rinv_1. apply Rinv_le; lra.
  - eapply Rle_trans; [exact Hn|]. change (3 - emax - prec)%Z with (-1074)%Z. change (-1074)%Z with (1 + (-1075))%Z. rewrite bpow_plus. simpl (bpow radix2 1). lra.
Qed.
