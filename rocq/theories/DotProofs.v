(** * DotProofs: the DOT reader on what is rendered *)
From Coq Require Import NArith Ascii.
From Verif Require Import DotModel DotSpec.

(** ** The reader, in pieces *)
Fixpoint run (st : state) (s : bytes) : option (list token * state) :=
  match s with [] => Some ([], st) | c :: s => '(ts, st) ← step st c; '(rest, st) ← run st s; Some (ts ++ rest, st) end.
Lemma tokens_app st a b ts st' : run st a = Some (ts, st') -> tokens st (a ++ b) = rest ← tokens st' b; Some (ts ++ rest).
Proof.
  revert st ts. induction a as [|c a IH]; intros st ts H; cbn in H |- *.
  - injection H as <- <-. by destruct (tokens st b).
  - destruct (step st c) as [[t1 st1]|]; cbn in *; [|done]. destruct (run st1 a) as [[t2 st2]|] eqn:Hr; cbn in *; [|done].
    injection H as <- <-. rewrite (IH _ _ Hr). destruct (tokens st2 b); cbn; [|done]. by rewrite app_assoc.
Qed.
Lemma run_app st a b ts st' : run st a = Some (ts, st') -> run st (a ++ b) = '(rest, st'') ← run st' b; Some (ts ++ rest, st'').
Proof.
  revert st ts. induction a as [|c a IH]; intros st ts H; cbn in H |- *.
  - injection H as <- <-. by destruct (run st b) as [[]|].
  - destruct (step st c) as [[t1 st1]|]; cbn in *; [|done]. destruct (run st1 a) as [[t2 st2]|] eqn:Hr; cbn in *; [|done].
    injection H as <- <-. rewrite (IH _ _ Hr). destruct (run st2 b) as [[]|]; cbn; [|done]. by rewrite app_assoc.
Qed.
Lemma run_app2 st a b ts st' ts2 st2 : run st a = Some (ts, st') -> run st' b = Some (ts2, st2) -> run st (a ++ b) = Some (ts ++ ts2, st2).
Proof. intros H1 H2. rewrite (run_app _ _ _ _ _ H1), H2. done. Qed.
Lemma run_id acc w : Forall (fun c => id_char c = true) w -> run (SId acc) w = Some ([], SId (acc ++ w)).
Proof.
  revert acc. induction w as [|c w IH]; intros acc H; cbn; [by rewrite app_nil_r|].
  inversion H as [|? ? Hc Hw]; subst. rewrite Hc. cbn. rewrite IH by done. cbn. by rewrite <- app_assoc.
Qed.

(** ** The identifiers *)
Lemma digit_id d : (d < 16)%N -> id_char (hex_digit d) = true /\ hex_digit d <> "-"%char.
Proof.
  intros H. assert (d = 0 \/ d = 1 \/ d = 2 \/ d = 3 \/ d = 4 \/ d = 5 \/ d = 6 \/ d = 7 \/ d = 8 \/ d = 9 \/ d = 10 \/ d = 11 \/ d = 12 \/ d = 13 \/ d = 14 \/ d = 15)%N as Hd by lia.
  repeat destruct Hd as [->|Hd]; [..|subst d]; split; by vm_compute.
Qed.
Lemma digit_inj a b : (a < 16)%N -> (b < 16)%N -> hex_digit a = hex_digit b -> a = b.
Proof.
  intros Ha Hb H. apply (f_equal N_of_ascii) in H. unfold hex_digit in H.
  revert H. destruct (N.ltb_spec a 10), (N.ltb_spec b 10); intros E; rewrite !N_ascii_embedding in E by lia; lia.
Qed.
Lemma hexes_length k n : length (hexes k n) = k.
Proof. revert n; induction k as [|k IH]; intros n; cbn [hexes]; [done|]. rewrite app_length, IH. cbn. lia. Qed.
Lemma hexes_ok k n : Forall (fun c => id_char c = true /\ c <> "-"%char) (hexes k n).
Proof.
  revert n; induction k as [|k IH]; intros n; cbn [hexes]; [constructor|]. apply Forall_app. split; [done|].
  constructor; [|constructor]. apply digit_id, N.mod_lt. lia.
Qed.
Lemma hexes_inj k m n : (m < 16 ^ N.of_nat k)%N -> (n < 16 ^ N.of_nat k)%N -> hexes k m = hexes k n -> m = n.
Proof.
  revert m n; induction k as [|k IH]; intros m n Hm Hn H.
  - cbn in Hm, Hn. lia.
  - rewrite Nat2N.inj_succ, N.pow_succ_r in Hm, Hn by lia. cbn [hexes] in H. apply app_inj_tail in H as [H1 H2].
    apply IH in H1; [|apply N.div_lt_upper_bound; lia|apply N.div_lt_upper_bound; lia].
    apply digit_inj in H2; [|apply N.mod_lt; lia|apply N.mod_lt; lia].
    rewrite (N.div_mod m 16), (N.div_mod n 16) by lia. by rewrite H1, H2.
Qed.
Lemma replace_app c r a b : replace_char c r (a ++ b) = replace_char c r a ++ replace_char c r b.
Proof. induction a as [|x a IH]; cbn [replace_char app]; [done|]. by rewrite IH, app_assoc. Qed.
Lemma replace_none c r a : Forall (fun x => x <> c) a -> replace_char c r a = a.
Proof. induction 1 as [|x a Hx Ha IH]; cbn [replace_char]; [done|]. rewrite decide_False by done. by rewrite IH. Qed.
Lemma piece a b (h : bytes) : take a (drop b h) ++ drop (b + a) h = drop b h.
Proof. rewrite <- drop_drop. apply take_drop. Qed.
Definition simple_uuid (u : N) : bytes := hexes 32 u.
Lemma uuid_simple u : replace_char "-" [] (uuid_text u) = simple_uuid u.
Proof.
  unfold uuid_text, simple_uuid. pose proof (hexes_ok 32 u) as H. set (h := hexes 32 u) in *. clearbody h.
  assert (Forall (fun x => x <> "-"%char) h) as Hn by (eapply Forall_impl; [exact H|by intros ? []]).
  rewrite !replace_app. change (replace_char "-" [] (str "-")) with (@nil ascii). rewrite !app_nil_l.
  rewrite !replace_none by (repeat first [apply Forall_take|apply Forall_drop|exact Hn]).
  pose proof (piece 4 16 h) as P1. pose proof (piece 4 12 h) as P2. pose proof (piece 4 8 h) as P3. cbn [Nat.add] in P1, P2, P3. by rewrite P1, P2, P3, take_drop.
Qed.
Definition uuid_name (u : N) : bytes := str "uuid" ++ simple_uuid u.
Lemma node_id_eq n : node_id n = uuid_name (node_uuid n).
Proof. unfold node_id, uuid_name. by rewrite uuid_simple. Qed.
Lemma uuid_name_inj u v : (u < 2 ^ 128)%N -> (v < 2 ^ 128)%N -> uuid_name u = uuid_name v -> u = v.
Proof. intros Hu Hv H. unfold uuid_name in H. apply app_inv_head in H. apply (hexes_inj 32); [exact Hu|exact Hv|exact H]. Qed.
Lemma run_name u : run SStart (uuid_name u) = Some ([], SId (uuid_name u)).
Proof.
  unfold uuid_name. change (str "uuid" ++ simple_uuid u) with ("u"%char :: (str "uid" ++ simple_uuid u)).
  cbn [run step]. change (start "u") with (Some (@nil token, SId ["u"%char])). cbn [mbind option_bind].
  rewrite run_id; [done|]. apply Forall_app. split; [by apply (bool_decide_unpack _); vm_compute|].
  eapply Forall_impl; [apply hexes_ok|by intros ? []].
Qed.

(** ** The labels *)
Definition special (c : ascii) : bool := bool_decide (c ∈ ["{"; "}"; "<"; ">"]%char).
Definition esc1 (c : ascii) : bytes := if double_quote c || special c then ["\"%char; c] else [c].
Definition raw1 (c : ascii) : bytes := if special c then ["\"%char; c] else [c].
Definition raw (s : bytes) : bytes := flat_map raw1 s.
Lemma replace_flat c r s : replace_char c r s = flat_map (fun b => if decide (b = c) then r else [b]) s.
Proof. induction s as [|b s IH]; cbn [replace_char flat_map]; [done|]. by rewrite IH. Qed.
Lemma escape_app a b : escape_label (a ++ b) = escape_label a ++ escape_label b.
Proof. unfold escape_label. by rewrite !replace_app. Qed.
Lemma escape_one c : escape_label [c] = esc1 c.
Proof. destruct c as [[] [] [] [] [] [] [] []]; by vm_compute. Qed.
Lemma escape_eq s : escape_label s = flat_map esc1 s.
Proof. induction s as [|c s IH]; [done|]. change (c :: s) with ([c] ++ s) at 1. rewrite escape_app, escape_one, IH. done. Qed.
Definition no_backslash (s : bytes) : Prop := Forall (fun c => backslash c = false) s.
Lemma run_label acc s : no_backslash s -> run (SString acc) (escape_label s) = Some ([], SString (acc ++ raw s)).
Proof.
  intros H. rewrite escape_eq. revert acc. induction H as [|c s Hc Hs IH]; intros acc; cbn [flat_map raw].
  - cbn. by rewrite app_nil_r.
  - eapply (run_app2 _ _ _ [] _ [] _); [|rewrite IH, <- app_assoc; done].
    unfold esc1, raw1. destruct (double_quote c) eqn:Hq.
    + assert (special c = false) as -> by (destruct c as [[] [] [] [] [] [] [] []]; vm_compute in Hq; first [discriminate|by vm_compute]).
      cbn -[double_quote backslash]. change (double_quote "\") with false. change (backslash "\") with true. cbn -[double_quote backslash]. by rewrite Hq.
    + destruct (special c); cbn -[double_quote backslash].
      * change (double_quote "\") with false. change (backslash "\") with true. cbn -[double_quote backslash]. rewrite Hq. done.
      * rewrite Hq, Hc. done.
Qed.
Lemma box_raw s : no_backslash s -> box_text false (raw s) = Some s.
Proof.
  induction 1 as [|c s Hc Hs IH]; [done|]. cbn [raw flat_map]. fold (raw s). unfold raw1. destruct (special c) eqn:Hsp.
  - cbn [app box_text]. change (backslash "\") with true. cbn iota.
    assert (bool_decide (c ∈ ["n"; "l"; "r"]%char) = false /\ bool_decide (c ∈ ["N"; "G"; "E"; "T"; "H"; "L"]%char) = false) as [-> ->]
      by (destruct c as [[] [] [] [] [] [] [] []]; vm_compute in Hsp; first [discriminate|by vm_compute]).
    by rewrite IH.
  - cbn [app box_text]. by rewrite Hc, IH.
Qed.
(** The fields of a record that is not escaped any more *)
Fixpoint split_bars (cur s : bytes) : list bytes :=
  match s with [] => [cur] | c :: s => if bool_decide (c = "|"%char) then cur :: split_bars [] s else split_bars (cur ++ [c]) s end.
Lemma record_raw cur s : no_backslash s -> record_fields false cur (raw s) = Some (split_bars cur s).
Proof.
  intros H. revert cur. induction H as [|c s Hc Hs IH]; intros cur; [done|]. cbn [raw flat_map split_bars]. fold (raw s). unfold raw1. destruct (special c) eqn:Hsp.
  - cbn [app record_fields]. change (backslash "\") with true. cbn iota.
    assert (bool_decide (c ∈ ["n"; "l"; "r"; "N"; "G"; "E"; "T"; "H"; "L"]%char) = false /\ bool_decide (c = "|"%char) = false) as [-> ->]
      by (destruct c as [[] [] [] [] [] [] [] []]; vm_compute in Hsp; first [discriminate|by vm_compute]).
    apply IH.
  - cbn [app record_fields]. rewrite Hc. unfold special in Hsp. rewrite Hsp. destruct (bool_decide (c = "|"%char)); [by rewrite IH|apply IH].
Qed.
Lemma split_ne cur s : split_bars cur s <> [].
Proof. revert cur; induction s as [|c s IH]; intros cur; cbn [split_bars]; [done|]. case_bool_decide; [done|apply IH]. Qed.
Lemma split_join cur s : with_sep (word "|") (split_bars cur s) = cur ++ s.
Proof.
  revert cur; induction s as [|c s IH]; intros cur; cbn [split_bars].
  - cbn. by rewrite !app_nil_r.
  - case_bool_decide as E.
    + cbn [with_sep]. pose proof (split_ne [] s). pose proof (IH []) as IH'. destruct (split_bars [] s); [done|]. rewrite IH'. by subst c.
    + rewrite IH, <- app_assoc. done.
Qed.
Lemma split_free cur s : "|"%char ∉ cur -> Forall (fun f => "|"%char ∉ f) (split_bars cur s).
Proof.
  revert cur; induction s as [|c s IH]; intros cur Hc; cbn [split_bars]; [by repeat constructor|].
  case_bool_decide as E; [constructor; [done|apply IH, not_elem_of_nil]|]. apply IH. rewrite elem_of_app, elem_of_list_singleton. intros [?|?]; [done|by subst c].
Qed.
