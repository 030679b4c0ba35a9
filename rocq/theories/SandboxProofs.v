(** * SandboxProofs: the limits *)
From Coq Require Import Reals Lra Lia ZArith Psatz.
From Flocq Require Import Core BinarySingleNaN Operations Zaux Relative Plus_error.
From Verif Require Import SandboxSpec.
Open Scope R_scope.

Local Notation fexp := (FLT_exp (3 - 1024 - 53) 53).
Local Instance Hp : Prec_gt_0 53. Proof. reflexivity. Qed.

Lemma ceil_Z_R x : fin x -> ceil_Z x = Zceil (f64_R x).
Proof.
  intros [_ Hf]. destruct x as [s| | |s m e]; try discriminate.
  - unfold f64_R. simpl. now rewrite Zceil_IZR.
  - unfold f64_R. simpl ceil_Z. cbn [SF2R]. set (v := if s then Z.neg m else Z.pos m).
    assert (F2R (Float radix2 (cond_Zopp s (Z.pos m)) e) = IZR v * bpow radix2 e) as ->. { unfold F2R. simpl. now destruct s. }
    destruct (0 <=? e)%Z eqn:He.
    + apply Z.leb_le in He. rewrite <- (IZR_Zpower radix2 e He), <- mult_IZR, Zceil_IZR. reflexivity.
    + apply Z.leb_gt in He. unfold Zceil. f_equal.
      assert (0 < 2 ^ (- e))%Z by (apply Z.pow_pos_nonneg; lia).
      rewrite <- Zfloor_div by lia. f_equal. unfold Rdiv.
      replace (bpow radix2 e) with (/ IZR (2 ^ (- e))).
      * rewrite opp_IZR. ring.
      * change (2 ^ (- e))%Z with (Zpower radix2 (- e)). rewrite IZR_Zpower by lia. rewrite <- bpow_opp. f_equal. lia.
Qed.
Lemma ceil_u64_R x : fin x -> 0 <= f64_R x <= IZR u64_max -> ceil_u64 x = Zceil (f64_R x).
Proof.
  intros Hx [H0 H1]. assert (0 <= Zceil (f64_R x) <= u64_max)%Z as [Ha Hb].
  { split; [|now apply Zceil_glb]. rewrite <- (Zceil_IZR 0). now apply Zceil_le. }
  rewrite <- ceil_Z_R in * by exact Hx. destruct Hx as [_ Hf]. destruct x; try discriminate; cbn [ceil_u64]; lia.
Qed.
Lemma ceil_bounds x : x <= IZR (Zceil x) < x + 1.
Proof. split; [apply Zceil_ub|]. unfold Zceil. rewrite opp_IZR. pose proof (Zfloor_ub (- x)). lra. Qed.

(** A sum of two durations: its error is relative *)
Lemma add_error x y : fin x -> fin y -> Rabs (rnd (f64_R x + f64_R y) - (f64_R x + f64_R y)) <= bpow radix2 (-53) * Rabs (f64_R x + f64_R y).
Proof.
  intros Hx Hy. set (s := f64_R x + f64_R y).
  destruct (Rle_or_lt (bpow radix2 (53 + (3 - 1024 - 53))) (Rabs s)) as [Hs|Hs].
  - unfold rnd. eapply Rle_trans; [apply (relative_error_N_FLT radix2 (3 - 1024 - 53) 53 Hp)|].
    + eapply Rle_trans; [|exact Hs]. apply bpow_le. lia.
    + apply Rmult_le_compat_r; [apply Rabs_pos|]. change (- (53) + 1)%Z with (1 + -53)%Z. rewrite bpow_plus. change (bpow radix2 1) with 2. lra.
  - rewrite rnd_id.
    + unfold s. rewrite Rminus_diag_eq by reflexivity. rewrite Rabs_R0. apply Rmult_le_pos; [apply bpow_ge_0|apply Rabs_pos].
    + apply (FLT_format_plus_small radix2 (3 - 1024 - 53) 53); [apply fin_format; exact Hx|apply fin_format; exact Hy|]. fold s. lra.
Qed.
Lemma small_sum n s : (0 <= n <= 1000)%Z -> 0 <= s <= IZR (2 ^ n) -> Rabs (rnd s) < bpow radix2 1024 /\ 0 <= rnd s <= IZR (2 ^ n).
Proof.
  intros Hn [H0 H1]. assert (rnd 0 = 0) as E0 by (apply rnd_id, generic_format_0).
  assert (IZR (2 ^ n) = bpow radix2 n) as En. { change (2 ^ n)%Z with (Zpower radix2 n). now rewrite IZR_Zpower by lia. }
  rewrite En in *.
  assert (rnd (bpow radix2 n) = bpow radix2 n) as E1. { apply rnd_id, generic_format_bpow. unfold FLT_exp. lia. }
  assert (0 <= rnd s <= bpow radix2 n) as Hr. { rewrite <- E0 at 1. rewrite <- E1. split; now apply rnd_le. }
  split; [|exact Hr]. rewrite Rabs_pos_eq by tauto. eapply Rle_lt_trans; [apply Hr|]. apply bpow_lt. lia.
Qed.
Lemma add_dur n x y : (0 <= n <= 1000)%Z -> duration x -> duration y -> f64_R x + f64_R y <= IZR (2 ^ n) ->
  duration (f64_add x y) /\ f64_R (f64_add x y) = rnd (f64_R x + f64_R y) /\ f64_R (f64_add x y) <= IZR (2 ^ n) /\
  f64_R x <= f64_R (f64_add x y) /\ f64_R y <= f64_R (f64_add x y) /\
  Rabs (f64_R (f64_add x y) - (f64_R x + f64_R y)) <= bpow radix2 (-53) * (f64_R x + f64_R y).
Proof.
  intros Hn [Hx Hx0] [Hy Hy0] Hs. destruct (small_sum n (f64_R x + f64_R y)) as [Ha Hb]; [exact Hn|lra|].
  destruct (f64_add_R x y Hx Hy Ha) as [Hf Hr]. unfold duration. rewrite Hr. repeat split; try tauto; try apply Hf; try lra.
  - rewrite <- (rnd_fin x Hx) at 1. apply rnd_le. lra.
  - rewrite <- (rnd_fin y Hy) at 1. apply rnd_le. lra.
  - pose proof (add_error x y Hx Hy) as He. rewrite (Rabs_pos_eq (f64_R x + f64_R y)) in He by lra. exact He.
Qed.
(** On a grid a small sum is exact *)
Lemma grid_exact k s : (0 <= k <= 1000)%Z -> (exists z, s = IZR z * powerRZ 2 (- k)) -> 0 <= s -> s < powerRZ 2 (53 - k) -> rnd s = s.
Proof.
  intros Hk [z ->] H0 H1. apply rnd_id. apply generic_format_FLT.
  assert (powerRZ 2 (- k) = bpow radix2 (- k)) as Ek. { rewrite <- (bpow_powerRZ radix2). reflexivity. }
  assert (powerRZ 2 (53 - k) = bpow radix2 (53 - k)) as Ek'. { rewrite <- (bpow_powerRZ radix2). reflexivity. }
  rewrite Ek in *. rewrite Ek' in *. exists (Float radix2 z (- k)); simpl; [reflexivity| |lia].
  assert (0 < bpow radix2 (- k)) by apply bpow_gt_0.
  assert (0 <= IZR z) as Hz by nra. assert (0 <= z)%Z by now apply le_IZR. rewrite Z.abs_eq by lia.
  apply lt_IZR. change (2 ^ 53)%Z with (Zpower radix2 53). change (Z.pow_pos 2 53) with (Zpower radix2 53). rewrite IZR_Zpower by lia.
  apply (Rmult_lt_reg_r (bpow radix2 (- k))); [lra|]. rewrite <- bpow_plus. replace (53 + - k)%Z with (53 - k)%Z by lia. exact H1.
Qed.

(** A number [x] near [total], rounded up *)
Definition near (x total : R) : Prop := (1 - bpow radix2 (-51)) * total <= x <= (1 + bpow radix2 (-51)) * total.
Lemma eps_small : 0 < bpow radix2 (-53) < 1 / 1000 /\ bpow radix2 (-51) = 4 * bpow radix2 (-53).
Proof.
  split; [split; [apply bpow_gt_0|]|].
  - apply Rlt_trans with (bpow radix2 (-20)); [apply bpow_lt; lia|]. simpl. lra.
  - change (-51)%Z with (2 + -53)%Z. rewrite bpow_plus. change (bpow radix2 2) with 4. ring.
Qed.
Lemma near_one x y : duration x -> duration y -> f64_R x + f64_R y <= IZR (2 ^ 62) ->
  duration (f64_add x y) /\ f64_R (f64_add x y) <= IZR (2 ^ 62) /\ f64_R x <= f64_R (f64_add x y) /\ near (f64_R (f64_add x y)) (f64_R x + f64_R y).
Proof.
  intros Hx Hy Hs. destruct (add_dur 62 x y ltac:(lia) Hx Hy Hs) as (Hd & _ & Hb & H1 & _ & He).
  split; [exact Hd|]. split; [exact Hb|]. split; [exact H1|]. destruct Hx as [_ Hx], Hy as [_ Hy].
  destruct eps_small as [[E0 E1] E2]. unfold near. rewrite E2. apply Rabs_le_inv in He. split; nra.
Qed.
Lemma near_two x y z : duration x -> duration y -> duration z -> f64_R x + f64_R y + f64_R z <= IZR (2 ^ 62) ->
  let s := f64_add (f64_add x y) z in
  duration s /\ f64_R s <= IZR (2 ^ 63) /\ f64_R x <= f64_R s /\ f64_R y <= f64_R s /\ near (f64_R s) (f64_R x + f64_R y + f64_R z).
Proof.
  intros Hx Hy Hz Hs s. assert (0 <= f64_R x /\ 0 <= f64_R y /\ 0 <= f64_R z) as (Hx0 & Hy0 & Hz0). { repeat split; [apply Hx|apply Hy|apply Hz]. }
  destruct (add_dur 62 x y ltac:(lia) Hx Hy ltac:(lra)) as (Hd & _ & Hb & H1 & H2 & He).
  assert (IZR (2 ^ 63) = 2 * IZR (2 ^ 62)) as E63 by (rewrite <- mult_IZR; reflexivity).
  destruct (add_dur 63 (f64_add x y) z ltac:(lia) Hd Hz ltac:(lra)) as (Hd' & _ & Hb' & H1' & _ & He'). fold s in Hd', Hb', H1', He'.
  split; [exact Hd'|]. split; [exact Hb'|]. split; [lra|]. split; [lra|].
  destruct eps_small as [[E0 E1] E2]. unfold near. rewrite E2. apply Rabs_le_inv in He. apply Rabs_le_inv in He'.
  set (a := f64_R (f64_add x y)) in *. set (t := f64_R s) in *. set (eps := bpow radix2 (-53)) in *.
  assert (a <= (1 + eps) * (f64_R x + f64_R y)) by lra. assert ((1 - eps) * (f64_R x + f64_R y) <= a) by lra. split; nra.
Qed.
Lemma small_u64 x : x <= IZR (2 ^ 63) -> x <= IZR u64_max.
Proof. intros H. eapply Rle_trans; [exact H|]. apply IZR_le. unfold u64_max. lia. Qed.
Lemma near_ceil x total : near x total -> (1 - bpow radix2 (-51)) * total <= IZR (Zceil x) < (1 + bpow radix2 (-51)) * total + 1.
Proof. intros [H1 H2]. pose proof (ceil_bounds x). lra. Qed.
Lemma small_62 x : x <= IZR (2 ^ 62) -> x <= IZR (2 ^ 63).
Proof. intros H. eapply Rle_trans; [exact H|]. apply IZR_le. lia. Qed.
Lemma bpow_51 : bpow radix2 (-51) = powerRZ 2 (-51).
Proof. now rewrite <- (bpow_powerRZ radix2). Qed.

Lemma cpu_bounds e : durations e -> (sl_cpu (se_limits e) <> None \/ sl_sys (se_limits e) <> None) -> asked_cpu e <= IZR (2 ^ 62) ->
  exists t, time_limit e = Some t /\ opt_R (sl_cpu (se_limits e)) <= IZR t /\ opt_R (sl_sys (se_limits e)) <= IZR t /\
    (1 - bpow radix2 (-51)) * asked_cpu e <= IZR t < (1 + bpow radix2 (-51)) * asked_cpu e + 1.
Proof.
  intros [Hx Hd] Hn Ha. unfold time_limit, cpu_limit, asked_cpu in *.
  destruct (sl_cpu (se_limits e)) as [c|] eqn:Ec; destruct (sl_sys (se_limits e)) as [y|] eqn:Es; cbn [opt_R fmap option_fmap option_map] in *.
  - assert (duration c /\ duration y) as [Hc Hy] by (split; apply Hd; set_solver).
    destruct (near_two c y (se_extra_time e) Hc Hy Hx Ha) as (D & B & B1 & B2 & N). eexists. split; [reflexivity|].
    rewrite ceil_u64_R by first [apply D|split; [apply D|now apply small_u64]]. pose proof (near_ceil _ _ N). pose proof (ceil_bounds (f64_R (f64_add (f64_add c y) (se_extra_time e)))). lra.
  - assert (duration c) as Hc by (apply Hd; set_solver). rewrite Rplus_0_r in *.
    destruct (near_one c (se_extra_time e) Hc Hx Ha) as (D & B & B1 & N). eexists. split; [reflexivity|].
    rewrite ceil_u64_R by first [apply D|split; [apply D|now apply small_u64, small_62]]. pose proof (near_ceil _ _ N). pose proof (ceil_bounds (f64_R (f64_add c (se_extra_time e)))).
    destruct D as [_ D]. lra.
  - assert (duration y) as Hy by (apply Hd; set_solver). rewrite Rplus_0_l in *.
    destruct (near_one y (se_extra_time e) Hy Hx Ha) as (D & B & B1 & N). eexists. split; [reflexivity|].
    rewrite ceil_u64_R by first [apply D|split; [apply D|now apply small_u64, small_62]]. pose proof (near_ceil _ _ N). pose proof (ceil_bounds (f64_R (f64_add y (se_extra_time e)))).
    destruct D as [_ D]. lra.
  - naive_solver.
Qed.
Lemma wall_bounds e : durations e -> sl_wall (se_limits e) <> None -> asked_wall e <= IZR (2 ^ 62) ->
  exists t, wall_limit e = Some t /\ opt_R (sl_wall (se_limits e)) <= IZR t /\
    (1 - bpow radix2 (-51)) * asked_wall e <= IZR t < (1 + bpow radix2 (-51)) * asked_wall e + 1.
Proof.
  intros [Hx Hd] Hn Ha. unfold wall_limit, asked_wall in *. destruct (sl_wall (se_limits e)) as [y|] eqn:Es; [|done]. cbn [opt_R fmap option_fmap option_map] in *.
  assert (duration y) as Hy by (apply Hd; set_solver).
  destruct (near_one y (se_extra_time e) Hy Hx Ha) as (D & B & B1 & N). eexists. split; [reflexivity|].
  rewrite ceil_u64_R by first [apply D|split; [apply D|now apply small_u64, small_62]]. pose proof (near_ceil _ _ N). pose proof (ceil_bounds (f64_R (f64_add y (se_extra_time e)))).
  lra.
Qed.
(** The exact case *)
Lemma grid_add k x y : (0 <= k <= 1000)%Z -> duration x -> duration y -> on_grid k x -> on_grid k y -> f64_R x + f64_R y < powerRZ 2 (53 - k) ->
  duration (f64_add x y) /\ f64_R (f64_add x y) = f64_R x + f64_R y /\ on_grid k (f64_add x y).
Proof.
  intros Hk Hx Hy [zx Gx] [zy Gy] Hs.
  assert (exists z, f64_R x + f64_R y = IZR z * powerRZ 2 (- k)) as Hg. { exists (zx + zy)%Z. rewrite plus_IZR, Gx, Gy. ring. }
  assert (powerRZ 2 (53 - k) <= IZR (2 ^ 53)) as Hle.
  { replace (powerRZ 2 (53 - k)) with (bpow radix2 (53 - k)) by (now rewrite <- (bpow_powerRZ radix2)).
    change (2 ^ 53)%Z with (Zpower radix2 53). rewrite IZR_Zpower by lia. apply bpow_le. lia. }
  destruct (add_dur 53 x y ltac:(lia) Hx Hy ltac:(lra)) as (D & E & _).
  rewrite (grid_exact k) in E; [|exact Hk|exact Hg|destruct Hx, Hy; lra|exact Hs]. split; [exact D|]. split; [exact E|].
  unfold on_grid. now rewrite E.
Qed.
Lemma grid_62 k : (0 <= k <= 1000)%Z -> powerRZ 2 (53 - k) <= IZR (2 ^ 53).
Proof.
  intros Hk. replace (powerRZ 2 (53 - k)) with (bpow radix2 (53 - k)) by (now rewrite <- (bpow_powerRZ radix2)).
  change (2 ^ 53)%Z with (Zpower radix2 53). rewrite IZR_Zpower by lia. apply bpow_le. lia.
Qed.
Lemma cpu_exact k e : (0 <= k <= 1000)%Z -> durations e -> all_on_grid k e -> (sl_cpu (se_limits e) <> None \/ sl_sys (se_limits e) <> None) ->
  asked_cpu e < powerRZ 2 (53 - k) -> time_limit e = Some (Zceil (asked_cpu e)).
Proof.
  intros Hk [Hx Hd] [Gx Gd] Hn Ha. pose proof (grid_62 k Hk) as H62. unfold time_limit, cpu_limit, asked_cpu in *.
  assert (IZR (2 ^ 53) <= IZR u64_max) as Hm by (apply IZR_le; unfold u64_max; lia).
  destruct (sl_cpu (se_limits e)) as [c|] eqn:Ec; destruct (sl_sys (se_limits e)) as [y|] eqn:Es; cbn [opt_R fmap option_fmap option_map] in *.
  - assert (duration c /\ duration y /\ on_grid k c /\ on_grid k y) as (Hc & Hy & Gc & Gy) by (repeat split; solve [apply Hd; set_solver|apply Gd; set_solver]).
    destruct (grid_add k c y Hk Hc Hy Gc Gy) as (D1 & E1 & G1); [destruct Hx; lra|].
    destruct (grid_add k (f64_add c y) (se_extra_time e) Hk D1 Hx G1 Gx) as (D & E & G); [rewrite E1; exact Ha|].
    rewrite ceil_u64_R; [now rewrite E, E1|apply D|rewrite E, E1; destruct Hc, Hy, Hx; lra].
  - assert (duration c /\ on_grid k c) as (Hc & Gc) by (split; solve [apply Hd; set_solver|apply Gd; set_solver]). rewrite Rplus_0_r in *.
    destruct (grid_add k c (se_extra_time e) Hk Hc Hx Gc Gx) as (D & E & G); [exact Ha|].
    rewrite ceil_u64_R; [now rewrite E|apply D|rewrite E; destruct Hc, Hx; lra].
  - assert (duration y /\ on_grid k y) as (Hy & Gy) by (split; solve [apply Hd; set_solver|apply Gd; set_solver]). rewrite Rplus_0_l in *.
    destruct (grid_add k y (se_extra_time e) Hk Hy Hx Gy Gx) as (D & E & G); [exact Ha|].
    rewrite ceil_u64_R; [now rewrite E|apply D|rewrite E; destruct Hy, Hx; lra].
  - naive_solver.
Qed.
Lemma wall_exact k e : (0 <= k <= 1000)%Z -> durations e -> all_on_grid k e -> sl_wall (se_limits e) <> None ->
  asked_wall e < powerRZ 2 (53 - k) -> wall_limit e = Some (Zceil (asked_wall e)).
Proof.
  intros Hk [Hx Hd] [Gx Gd] Hn Ha. pose proof (grid_62 k Hk) as H62. unfold wall_limit, asked_wall in *.
  assert (IZR (2 ^ 53) <= IZR u64_max) as Hm by (apply IZR_le; unfold u64_max; lia).
  destruct (sl_wall (se_limits e)) as [y|] eqn:Es; [|done]. cbn [opt_R fmap option_fmap option_map] in *.
  assert (duration y /\ on_grid k y) as (Hy & Gy) by (split; solve [apply Hd; set_solver|apply Gd; set_solver]).
  destruct (grid_add k y (se_extra_time e) Hk Hy Hx Gy Gx) as (D & E & G); [exact Ha|].
  rewrite ceil_u64_R; [now rewrite E|apply D|rewrite E; destruct Hy, Hx; lra].
Qed.
