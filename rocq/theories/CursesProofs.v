(** Proofs for C104. *)
From stdpp Require Import sorting list_numbers.
From Verif Require Import CursesSpec.

Lemma text_leb_before a b : text_leb a b = true <-> before a b.
Proof.
  split.
  - revert b. induction a as [|x a IH]; intros [|y b]; simpl; try done; [constructor..|].
    rewrite orb_true_iff, andb_true_iff, N.ltb_lt, N.eqb_eq. intros [H|[-> H]]; [by apply before_lt|apply before_eq; auto].
  - induction 1 as [b|x y a b H|x a b H IH]; simpl; [done|..].
    + by rewrite (proj2 (N.ltb_lt _ _) H).
    + by rewrite N.eqb_refl, IH, orb_true_r.
Qed.
Lemma before_total a b : before a b \/ before b a.
Proof.
  revert b. induction a as [|x a IH]; intros [|y b]; [left; constructor..|right; constructor|].
  destruct (N.lt_trichotomy x y) as [H|[->|H]]; [left; by constructor| |right; by constructor].
  destruct (IH b); [left|right]; by apply before_eq.
Qed.
Lemma before_trans a b c : before a b -> before b c -> before a c.
Proof.
  intros H. revert c. induction H as [b|x y a b H|x a b H IH]; intros c Hc; [constructor|..]; inversion Hc; subst.
  - constructor. by etrans.
  - by constructor.
  - by constructor.
  - apply before_eq. auto.
Qed.
Section sort.
  Context {A : Type} (key : A -> text).
  Definition key_before (x y : A) : Prop := before (key x) (key y).
  Lemma insert_by_perm x l : insert_by key x l ≡ₚ x :: l.
  Proof. induction l as [|y l IH]; [done|]. simpl. destruct (text_leb _ _); [done|]. rewrite IH. constructor. Qed.
  Lemma sort_by_perm l : sort_by key l ≡ₚ l.
  Proof. induction l as [|x l IH]; [done|]. simpl. by rewrite insert_by_perm, IH. Qed.
  Lemma insert_by_sorted x l : StronglySorted key_before l -> StronglySorted key_before (insert_by key x l).
  Proof.
    induction 1 as [|y l Hl IH Hy]; simpl; [by repeat constructor|].
    destruct (text_leb (key x) (key y)) eqn:E.
    - apply text_leb_before in E. constructor; [by constructor|]. constructor; [done|].
      eapply Forall_impl; [exact Hy|]. intros z. by apply before_trans.
    - constructor; [done|]. rewrite insert_by_perm. constructor; [|done].
      destruct (before_total (key x) (key y)) as [H|H]; [apply text_leb_before in H; congruence|done].
  Qed.
  Lemma sort_by_sorted l : StronglySorted key_before (sort_by key l).
  Proof. induction l as [|x l IH]; [constructor|]. by apply insert_by_sorted. Qed.
  Lemma sort_by_length l : length (sort_by key l) = length l.
  Proof. by rewrite sort_by_perm. Qed.
End sort.

(** ** The columns *)
Lemma rotate_0 ws : rotate 0 ws = ws.
Proof.
  unfold rotate. apply list_eq. intros i. simpl.
  enough (H : forall k, k <= length ws -> omap (fun i => ws !! (i mod length ws)) (seq 0 k) = take k ws).
  { rewrite H by done. by rewrite take_ge. }
  induction k as [|k IH]; intros Hk; [done|]. rewrite seq_S, omap_app, IH by lia. simpl.
  rewrite Nat.mod_small by lia. destruct (lookup_lt_is_Some_2 ws k) as [w Hw]; [lia|]. rewrite Hw. by rewrite (take_S_r _ _ w).
Qed.
Lemma omap_all {A B} (f : A -> option B) l : Forall (fun x => is_Some (f x)) l -> length (omap f l) = length l /\ forall i x, l !! i = Some x -> omap f l !! i = f x.
Proof.
  induction 1 as [|x l [y Hy] Hl [IH1 IH2]]; [done|].
  assert (E : omap f (x :: l) = y :: omap f l) by (simpl; by rewrite Hy). rewrite E. split; [cbn [length]; by rewrite IH1|].
  intros [|i] z; cbn [lookup list_lookup]; [by intros [= <-]|]. apply IH2.
Qed.
Lemma rotate_lookup r ws : length (rotate r ws) = length ws /\ forall i, i < length ws -> rotate r ws !! i = ws !! ((r + i) mod length ws).
Proof.
  unfold rotate. destruct (omap_all (fun i => ws !! ((r + i) mod length ws)) (seq 0 (length ws))) as [H1 H2].
  - apply Forall_forall. intros i Hin. apply elem_of_list_In, in_seq in Hin as [_ Hi]. apply lookup_lt_is_Some. apply Nat.mod_upper_bound. lia.
  - rewrite H1, seq_length. split; [done|]. intros i Hi. rewrite (H2 i i); [done|]. by apply lookup_seq_lt.
Qed.
Definition slots (height n : nat) : nat := if height <? n then 2 * height else height.
Lemma columns_spec w height n : (N.of_nat n < 65536)%N -> columns w height n = if height <? n then [w / 2; w - w / 2] else [w].
Proof.
  intros Hn. unfold columns. rewrite N.mod_small by done. destruct (N.ltb_spec (N.of_nat height) (N.of_nat n)), (Nat.ltb_spec height n); (done || lia).
Qed.
Lemma on_screen_take height rotation ws : (N.of_nat (length ws) < 65536)%N -> on_screen height rotation ws =
  take (slots height (length ws)) (rotate (if length ws <=? slots height (length ws) then 0 else rotation) (sort_by wk_name ws)).
Proof.
  intros Hn. unfold on_screen, server_columns. rewrite columns_spec by done. unfold slots.
  destruct (Nat.eqb_spec height 0) as [->|Hh].
  { destruct (0 <? length ws); simpl; by rewrite ?take_0. }
  destruct (Nat.ltb_spec height (length ws)).
  - replace (height * length _) with (2 * height) by (simpl; lia). cbn [imap]. cbn [mbind list_bind].
    rewrite app_nil_r. unfold compose. cbn [snd]. rewrite Nat.mul_1_l, Nat.mul_0_l, drop_0.
    rewrite take_take_drop. f_equal. lia.
  - replace (height * length _) with height by (simpl; lia). cbn [imap]. cbn [mbind list_bind].
    rewrite app_nil_r. cbn [snd]. by rewrite Nat.mul_0_l, drop_0.
Qed.
