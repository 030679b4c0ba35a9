(** * RestartProofs: round trip and prefix freeness of the encodings *)
From Verif Require Import RestartSpec.
Open Scope N_scope.

Definition rt {A} (P : A -> Prop) (e : A -> list N) (d : decoder A) : Prop :=
  forall a r, P a -> d (e a ++ r) = Some (a, r).
Definition ext {A} (d : decoder A) : Prop :=
  forall bs a r q, d bs = Some (a, r) -> d (bs ++ q) = Some (a, r ++ q).

(** ** Extension *)
Lemma ext_ret {A} (a : A) : ext (dret a).
Proof. intros bs a' r q H. unfold dret in *. by simplify_eq. Qed.
Lemma ext_fail {A} : ext (@dfail A).
Proof. intros bs a' r q H. done. Qed.
Lemma ext_bind {A B} (d : decoder A) (k : A -> decoder B) : ext d -> (forall a, ext (k a)) -> ext (dbind d k).
Proof.
  intros Hd Hk bs b r q H. unfold dbind in *. destruct (d bs) as [[a r1]|] eqn:E; [|done].
  rewrite (Hd _ _ _ q E). by apply Hk.
Qed.
Lemma ext_le n : ext (dec_le n).
Proof.
  induction n as [|n IH]; simpl; [apply ext_ret|].
  intros bs a r q H. destruct bs as [|b bs]; [done|]. simpl.
  revert H. apply (ext_bind (dec_le n) (fun x => dret (b + 256 * x)) IH (fun x => ext_ret _) bs a r q).
Qed.
Lemma ext_if {A} (b : bool) (d1 d2 : decoder A) : ext d1 -> ext d2 -> ext (if b then d1 else d2).
Proof. by destruct b. Qed.
Ltac ext_tac :=
  repeat first
    [ apply ext_ret | apply ext_fail | apply ext_le
    | assumption
    | apply ext_if
    | apply ext_bind; [|intros]
    | match goal with |- ext (match ?x with _ => _ end) => destruct x end ].
Lemma ext_u8 : ext dec_u8.
Proof. apply ext_le. Qed.
Lemma ext_u32 : ext dec_u32.
Proof. unfold dec_u32. ext_tac. Qed.
Lemma ext_u64 : ext dec_u64.
Proof. unfold dec_u64. ext_tac. Qed.
Lemma ext_f64 : ext dec_f64.
Proof. unfold dec_f64. ext_tac. Qed.
Lemma ext_bool : ext dec_bool.
Proof. unfold dec_bool, dec_u8. ext_tac. Qed.
Lemma ext_option {A} (d : decoder A) : ext d -> ext (dec_option d).
Proof. intros. unfold dec_option, dec_u8. ext_tac. Qed.
Lemma ext_n {A} (d : decoder A) n : ext d -> ext (dec_n d n).
Proof. intros. induction n; simpl; ext_tac. Qed.
Lemma ext_list {A} (d : decoder A) : ext d -> ext (dec_list d).
Proof. intros. unfold dec_list. apply ext_bind; [apply ext_u64|]. intros. by apply ext_n. Qed.
Lemma ext_str : ext dec_str.
Proof. unfold dec_str. apply ext_bind; [apply ext_list, ext_u8|]. intros. ext_tac. Qed.
Lemma ext_pair {A B} (d : decoder A) (f : decoder B) : ext d -> ext f -> ext (dec_pair d f).
Proof. intros. unfold dec_pair. ext_tac. Qed.
Lemma ext_key : ext dec_key.
Proof. unfold dec_key. ext_tac. Qed.
Ltac ext_all :=
  repeat first
    [ apply ext_ret | apply ext_fail | apply ext_le | apply ext_u8 | apply ext_u32 | apply ext_u64 | apply ext_f64
    | apply ext_bool | apply ext_key | apply ext_str | apply ext_option | apply ext_list | apply ext_pair
    | assumption
    | apply ext_if
    | apply ext_bind; [|intros]
    | match goal with |- ext (match ?x with _ => _ end) => destruct x end ].
Lemma ext_time : ext dec_time.
Proof. unfold dec_time. ext_all. Qed.
Lemma ext_item : ext dec_item.
Proof. unfold dec_item. pose proof ext_time. ext_all. Qed.
Lemma ext_index : ext dec_index.
Proof. unfold dec_index. pose proof ext_item. ext_all. Qed.
Lemma ext_command : ext dec_command.
Proof. unfold dec_command. ext_all. Qed.
Lemma ext_limits : ext dec_limits.
Proof. unfold dec_limits. ext_all. Qed.
Lemma ext_status : ext dec_status.
Proof. unfold dec_status. ext_all. Qed.
Lemma ext_resources : ext dec_resources.
Proof. unfold dec_resources. ext_all. Qed.
Lemma ext_result : ext dec_result.
Proof. unfold dec_result. pose proof ext_status. pose proof ext_resources. ext_all. Qed.
Lemma ext_key_input : ext dec_key_input.
Proof. unfold dec_key_input. ext_all. Qed.
Lemma ext_key_item : ext dec_key_item.
Proof. unfold dec_key_item. pose proof ext_command. pose proof ext_key_input. ext_all. Qed.
Lemma ext_entry_item : ext dec_entry_item.
Proof. unfold dec_entry_item. pose proof ext_result. pose proof ext_limits. ext_all. Qed.
Lemma ext_cache : ext dec_cache.
Proof. unfold dec_cache. pose proof ext_key_item. pose proof ext_entry_item. ext_all. Qed.

(** ** Round trip *)
Lemma bind_some {A B} (d : decoder A) (k : A -> decoder B) bs a r : d bs = Some (a, r) -> dbind d k bs = k a r.
Proof. unfold dbind. by intros ->. Qed.
Lemma rt_bind {A B} (P : A -> Prop) e (d : decoder A) (k : A -> decoder B) a bs :
  rt P e d -> P a -> dbind d k (e a ++ bs) = k a bs.
Proof. intros H Ha. by apply bind_some, H. Qed.
Lemma rt_le n x r : x < 256 ^ N.of_nat n -> dec_le n (enc_le n x ++ r) = Some (x, r).
Proof.
  revert x. induction n as [|n IH]; intros x Hx.
  - simpl in *. assert (x = 0) as -> by lia. done.
  - cbn [enc_le dec_le app]. rewrite (bind_some (dec_le n) _ _ (x / 256) r).
    + unfold dret. do 2 f_equal. pose proof (N.div_mod x 256). lia.
    + apply IH. rewrite Nat2N.inj_succ, N.pow_succ_r' in Hx. apply N.div_lt_upper_bound; lia.
Qed.
Lemma rt_u8 : rt byte_ok enc_u8 dec_u8.
Proof. intros a r Ha. apply rt_le. unfold byte_ok in Ha. simpl. lia. Qed.
Lemma rt_u32 : rt u32_ok enc_u32 dec_u32.
Proof.
  intros a r [Ha Hb]. unfold enc_u32, dec_u32. rewrite (bind_some _ _ _ (Z.to_N a) r).
  - unfold dret. by rewrite Z2N.id.
  - apply rt_le. change (256 ^ N.of_nat 4) with (Z.to_N (2 ^ 32)). apply Z2N.inj_lt; lia.
Qed.
Lemma rt_u64 : rt u64_ok enc_u64 dec_u64.
Proof.
  intros a r [Ha Hb]. unfold enc_u64, dec_u64. rewrite (bind_some _ _ _ (Z.to_N a) r).
  - unfold dret. by rewrite Z2N.id.
  - apply rt_le. change (256 ^ N.of_nat 8) with (Z.to_N (2 ^ 64)). apply Z2N.inj_lt; lia.
Qed.
Lemma rt_f64 : rt f64_ok enc_f64 dec_f64.
Proof.
  intros a r [Ha Hb]. unfold enc_f64, dec_f64. pose proof (Z.mod_pos_bound a (2 ^ 64) eq_refl) as Hm.
  rewrite (bind_some _ _ _ (Z.to_N (a mod 2 ^ 64)) r).
  - unfold dret. rewrite Z2N.id by lia. do 2 f_equal. destruct (decide (0 <= a)%Z).
    + rewrite Z.mod_small by lia. destruct (Z.ltb_spec a (2 ^ 63)); lia.
    + assert (a mod 2 ^ 64 = a + 2 ^ 64)%Z as ->.
      { rewrite <- (Z.mod_small (a + 2 ^ 64) (2 ^ 64)) by lia. rewrite <- Z.add_mod_idemp_r by lia.
        rewrite Z.mod_same by lia. by rewrite Z.add_0_r. }
      destruct (Z.ltb_spec (a + 2 ^ 64) (2 ^ 63)); lia.
  - apply rt_le. change (256 ^ N.of_nat 8) with (Z.to_N (2 ^ 64)). apply Z2N.inj_lt; lia.
Qed.
Lemma rt_bool : rt (fun _ => True) enc_bool dec_bool.
Proof.
  intros a r _. unfold enc_bool, dec_bool. rewrite (rt_bind byte_ok enc_u8 dec_u8 _ _ _ rt_u8).
  - by destruct a.
  - unfold byte_ok. destruct a; lia.
Qed.
Lemma rt_option {A} (P : A -> Prop) e (d : decoder A) : rt P e d -> rt (opt_ok P) (enc_option e) (dec_option d).
Proof.
  intros H [a|] r Ha; unfold enc_option, dec_option; [rewrite <- app_assoc|];
    rewrite (rt_bind byte_ok enc_u8 dec_u8 _ _ _ rt_u8); try (unfold byte_ok; lia); [|done].
  by rewrite (rt_bind P e d _ _ _ H).
Qed.
Lemma rt_n {A} (P : A -> Prop) e (d : decoder A) l r :
  rt P e d -> Forall P l -> dec_n d (length l) (concat (map e l) ++ r) = Some (l, r).
Proof.
  intros H HP. induction HP as [|a l Ha HP IH]; simpl; [done|].
  rewrite <- app_assoc. rewrite (rt_bind P e d _ _ _ H) by done.
  by rewrite (bind_some _ _ _ l r).
Qed.
Lemma rt_list {A} (P : A -> Prop) e (d : decoder A) : rt P e d -> rt (list_ok P) (enc_list e) (dec_list d).
Proof.
  intros H l r [Hl HP]. unfold enc_list, dec_list. rewrite <- app_assoc.
  rewrite (rt_bind u64_ok enc_u64 dec_u64 _ _ _ rt_u64) by done. rewrite Nat2Z.id. by apply (rt_n P).
Qed.
Lemma str_bytes_length s : length (str_bytes s) = String.length s.
Proof. unfold str_bytes. rewrite map_length. induction s; simpl; congruence. Qed.
Lemma bytes_str_bytes s : bytes_str (str_bytes s) = s.
Proof.
  unfold bytes_str, str_bytes. rewrite map_map. rewrite <- (String.string_of_list_ascii_of_string s) at 2. f_equal.
  induction (String.list_ascii_of_string s) as [|a l IH]; simpl; [done|]. by rewrite Ascii.ascii_N_embedding, IH.
Qed.
Lemma str_bytes_ok s : Forall byte_ok (str_bytes s).
Proof.
  unfold str_bytes. apply Forall_fmap, Forall_true. intros a. unfold byte_ok. apply Ascii.N_ascii_bounded.
Qed.
Lemma rt_str : rt str_ok enc_str dec_str.
Proof.
  intros s r [Hu Hl]. unfold enc_str, dec_str.
  rewrite (rt_bind (list_ok byte_ok) (enc_list enc_u8) (dec_list dec_u8)).
  - by rewrite Hu, bytes_str_bytes.
  - by apply (rt_list byte_ok), rt_u8.
  - split; [|apply str_bytes_ok]. by rewrite str_bytes_length.
Qed.
Lemma rt_pair {A B} (P : A -> Prop) (Q : B -> Prop) e f (d : decoder A) (g : decoder B) :
  rt P e d -> rt Q f g -> rt (fun x => P x.1 /\ Q x.2) (enc_pair e f) (dec_pair d g).
Proof.
  intros H1 H2 [a b] r [Ha Hb]. unfold enc_pair, dec_pair. rewrite <- app_assoc.
  rewrite (rt_bind P e d) by done. rewrite (rt_bind Q f g) by done. done.
Qed.
Lemma rt_key : rt key_ok enc_key dec_key.
Proof.
  intros k r Hk. unfold enc_key, dec_key. rewrite (bind_some _ _ _ (Pos.pred_N k) r).
  - unfold dret. do 2 f_equal. destruct k; simpl; try done. by rewrite Pos.succ_pred_double.
  - apply rt_le. unfold key_ok in Hk. change (256 ^ N.of_nat 32) with (2 ^ 256).
    assert (Pos.pred_N k < Npos k); [|lia]. rewrite N.pos_pred_spec. lia.
Qed.
Lemma rt_time : rt time_ok enc_time dec_time.
Proof.
  intros t r [H1 H2]. unfold enc_time, dec_time. rewrite <- app_assoc.
  pose proof (Z.mod_pos_bound t 1000000000 eq_refl). pose proof (Z.div_mod t 1000000000 ltac:(lia)).
  assert (0 <= t / 1000000000 < 2 ^ 63)%Z.
  { split; [apply Z.div_pos; lia|]. apply Z.div_lt_upper_bound; lia. }
  rewrite (rt_bind u64_ok enc_u64 dec_u64 _ _ _ rt_u64) by (unfold u64_ok; lia).
  rewrite (rt_bind u32_ok enc_u32 dec_u32 _ _ _ rt_u32) by (unfold u32_ok; lia).
  rewrite (Z.div_small (t mod 1000000000)) by lia.
  destruct (Z.ltb_spec (t / 1000000000 + 0) (2 ^ 63)); [|lia]. unfold dret. do 2 f_equal. lia.
Qed.
Lemma rt_item : rt item_ok enc_item dec_item.
Proof.
  intros i r [H1 H2]. unfold enc_item, dec_item. rewrite <- app_assoc.
  rewrite (rt_bind u64_ok enc_u64 dec_u64 _ _ _ rt_u64) by done.
  rewrite (rt_bind time_ok enc_time dec_time _ _ _ rt_time) by done. by destruct i.
Qed.

Lemma fold_insert_list_to_map {A} (l : list (store_key * A)) (m : gmap store_key A) :
  NoDup l.*1 -> fold_left (fun m ki => <[ki.1 := ki.2]> m) l m = list_to_map l ∪ m.
Proof.
  revert m. induction l as [|[k a] l IH]; intros m H; simpl.
  - by rewrite (left_id_L ∅ (∪)).
  - rewrite fmap_cons in H. apply NoDup_cons in H as [H1 H2]. rewrite IH by done.
    rewrite <- insert_union_l. rewrite insert_union_r; [done|]. by apply not_elem_of_list_to_map.
Qed.
Lemma dec_enc_index ix l r :
  index_ok ix -> l ≡ₚ map_to_list (ix_known ix) -> dec_index (enc_index (ix_total ix) l ++ r) = Some (ix, r).
Proof.
  intros (Ht & Hs & Hm) Hl. unfold enc_index, dec_index. rewrite <- app_assoc.
  rewrite (rt_bind u64_ok enc_u64 dec_u64 _ _ _ rt_u64) by done.
  rewrite (rt_bind (list_ok (fun x : store_key * item => key_ok x.1 /\ item_ok x.2)) (enc_list (enc_pair enc_key enc_item))).
  - unfold dret. rewrite fold_insert_list_to_map.
    + rewrite (right_id_L ∅ (∪)). assert (list_to_map l = ix_known ix) as ->; [|by destruct ix].
      rewrite <- (list_to_map_to_list (ix_known ix)). apply list_to_map_proper; [|done].
      rewrite Hl. apply NoDup_fst_map_to_list.
    + rewrite Hl. apply NoDup_fst_map_to_list.
  - apply rt_list. apply (rt_pair key_ok item_ok); [apply rt_key|apply rt_item].
  - split.
    + rewrite Hl. exact Hs.
    + rewrite Hl. apply map_Forall_to_list in Hm. eapply Forall_impl; [exact Hm|]. by intros [k i].
Qed.
Lemma rt_command : rt command_ok enc_command dec_command.
Proof.
  intros [p|p] r H; unfold enc_command, dec_command; rewrite <- app_assoc;
    rewrite (rt_bind u32_ok enc_u32 dec_u32 _ _ _ rt_u32) by (unfold u32_ok; lia);
    by rewrite (rt_bind str_ok enc_str dec_str _ _ _ rt_str).
Qed.
Ltac rt_step L P e d := rewrite (rt_bind P e d _ _ _ L); [|by auto].
Lemma rt_limits : rt limits_ok enc_limits dec_limits.
Proof.
  intros l r (H1 & H2 & H3 & H4 & H5 & H6 & H7 & H8 & H9). unfold enc_limits, dec_limits. rewrite <- !app_assoc.
  rewrite (rt_bind _ _ _ _ _ _ (rt_option _ _ _ rt_f64)) by done.
  rewrite (rt_bind _ _ _ _ _ _ (rt_option _ _ _ rt_f64)) by done.
  rewrite (rt_bind _ _ _ _ _ _ (rt_option _ _ _ rt_f64)) by done.
  rewrite (rt_bind _ _ _ _ _ _ (rt_option _ _ _ rt_u64)) by done.
  rewrite (rt_bind _ _ _ _ _ _ rt_bool) by done.
  rewrite (rt_bind _ _ _ _ _ _ (rt_option _ _ _ rt_u32)) by done.
  rewrite (rt_bind _ _ _ _ _ _ (rt_option _ _ _ rt_u64)) by done.
  rewrite (rt_bind _ _ _ _ _ _ (rt_option _ _ _ rt_u64)) by done.
  rewrite (rt_bind _ _ _ _ _ _ (rt_option _ _ _ rt_u64)) by done.
  rewrite (rt_bind _ _ _ _ _ _ rt_bool) by done.
  rewrite (rt_bind _ _ _ _ _ _ rt_bool) by done.
  rewrite (rt_bind _ _ _ _ _ _ rt_bool) by done.
  rewrite (rt_bind _ _ _ _ _ _ (rt_list _ _ _ rt_str)) by done.
  by destruct l.
Qed.
Lemma rt_status : rt status_ok enc_status dec_status.
Proof.
  intros s r H. unfold dec_status.
  destruct s; unfold enc_status; rewrite <- ?app_assoc;
    rewrite (rt_bind u32_ok enc_u32 dec_u32 _ _ _ rt_u32) by (unfold u32_ok; lia); simpl in H; try done.
  - by rewrite (rt_bind _ _ _ _ _ _ rt_u32).
  - destruct H. rewrite (rt_bind _ _ _ _ _ _ rt_u32) by done. by rewrite (rt_bind _ _ _ _ _ _ rt_str).
  - by rewrite (rt_bind _ _ _ _ _ _ rt_str).
Qed.
Lemma rt_resources : rt resources_ok enc_resources dec_resources.
Proof.
  intros x r (H1 & H2 & H3 & H4). unfold enc_resources, dec_resources. rewrite <- !app_assoc.
  do 3 rewrite (rt_bind _ _ _ _ _ _ rt_f64) by done.
  rewrite (rt_bind _ _ _ _ _ _ rt_u64) by done. by destruct x.
Qed.
Lemma rt_result : rt result_ok enc_result dec_result.
Proof.
  intros x r (H1 & H2 & H3 & H4). unfold enc_result, dec_result. rewrite <- !app_assoc.
  rewrite (rt_bind _ _ _ _ _ _ rt_status) by done.
  do 2 rewrite (rt_bind _ _ _ _ _ _ rt_bool) by done.
  rewrite (rt_bind _ _ _ _ _ _ rt_resources) by done.
  do 2 rewrite (rt_bind _ _ _ _ _ _ (rt_option _ _ _ (rt_list _ _ _ rt_u8))) by done. by destruct x.
Qed.
Lemma rt_key_input : rt (fun i : key_input => str_ok i.1.1 /\ key_ok i.1.2) enc_key_input dec_key_input.
Proof.
  intros i r [H1 H2]. unfold enc_key_input, dec_key_input. rewrite <- !app_assoc.
  rewrite (rt_bind _ _ _ _ _ _ rt_str) by done. rewrite (rt_bind _ _ _ _ _ _ rt_key) by done.
  rewrite (rt_bind _ _ _ _ _ _ rt_bool) by done. by destruct i as [[p k] b].
Qed.
Lemma rt_key_item : rt key_item_ok enc_key_item dec_key_item.
Proof.
  intros x r (H1 & H2 & H3 & H4 & H5). unfold enc_key_item, dec_key_item. rewrite <- !app_assoc.
  rewrite (rt_bind _ _ _ _ _ _ rt_command) by done.
  rewrite (rt_bind _ _ _ _ _ _ (rt_list _ _ _ rt_str)) by done.
  rewrite (rt_bind _ _ _ _ _ _ (rt_option _ _ _ rt_key)) by done.
  rewrite (rt_bind _ _ _ _ _ _ (rt_list _ _ _ rt_key_input)) by done.
  rewrite (rt_bind _ _ _ _ _ _ (rt_list _ _ _ (rt_pair _ _ _ _ _ _ rt_str rt_str))) by done. by destruct x.
Qed.
Lemma pinsert_fresh {A} p (v : A) l : p ∉ map fst l -> pinsert p v l = l ++ [(p, v)].
Proof.
  induction l as [|[q w] l IH]; simpl; intros H; [done|]. rewrite decide_False by set_solver.
  f_equal. apply IH. set_solver.
Qed.
Lemma fold_pinsert {A} (l m : list (path * A)) : NoDup (map fst (m ++ l)) ->
  fold_left (fun m pk => pinsert pk.1 pk.2 m) l m = m ++ l.
Proof.
  revert m. induction l as [|[p v] l IH]; intros m H; simpl; [by rewrite app_nil_r|].
  rewrite pinsert_fresh.
  - rewrite IH; [by rewrite <- app_assoc|]. by rewrite <- app_assoc.
  - rewrite map_app in H. apply NoDup_app in H as (_ & H & _). intros Hin. apply (H p Hin). simpl. left.
Qed.
Lemma rt_entry_item : rt entry_item_ok enc_entry_item dec_entry_item.
Proof.
  intros x r (H1 & H2 & H3 & H4 & H5 & H6 & H7 & H8). unfold enc_entry_item, dec_entry_item. rewrite <- !app_assoc.
  rewrite (rt_bind _ _ _ _ _ _ rt_result) by done.
  rewrite (rt_bind _ _ _ _ _ _ rt_limits) by done.
  rewrite (rt_bind _ _ _ _ _ _ rt_f64) by done.
  rewrite (rt_bind _ _ _ _ _ _ rt_u64) by done.
  do 2 rewrite (rt_bind _ _ _ _ _ _ (rt_option _ _ _ rt_key)) by done.
  rewrite (rt_bind _ _ _ _ _ _ (rt_list _ _ _ (rt_pair _ _ _ _ _ _ rt_str rt_key))) by done.
  rewrite fold_pinsert by done. by destruct x.
Qed.
Lemma cupdate_fresh k es (c : cache) : k ∉ map fst c -> cupdate k es c = c ++ [(k, es)].
Proof.
  induction c as [|[q w] l IH]; simpl; intros H; [done|]. rewrite decide_False by set_solver.
  f_equal. apply IH. set_solver.
Qed.
Lemma fold_cupdate (l m : cache) : NoDup (map fst (m ++ l)) ->
  fold_left (fun c ke => cupdate ke.1 ke.2 c) l m = m ++ l.
Proof.
  revert m. induction l as [|[p v] l IH]; intros m H; simpl; [by rewrite app_nil_r|].
  rewrite cupdate_fresh.
  - rewrite IH; [by rewrite <- app_assoc|]. by rewrite <- app_assoc.
  - rewrite map_app in H. apply NoDup_app in H as (_ & H & _). intros Hin. apply (H p Hin). simpl. left.
Qed.
Lemma rt_cache : rt cache_ok enc_cache dec_cache.
Proof.
  intros c r [H1 H2]. unfold enc_cache, dec_cache.
  rewrite (rt_bind _ _ _ _ _ _ (rt_list _ _ _ (rt_pair _ _ _ _ _ _ (rt_list _ _ _ rt_key_item)
    (rt_list _ _ _ (rt_list _ _ _ rt_entry_item))))) by done.
  by rewrite fold_cupdate.
Qed.
Lemma clookup_elem k es (c : cache) : NoDup (map fst c) -> (k, es) ∈ c -> clookup k c = es.
Proof.
  induction c as [|[q w] c IH]; simpl; intros Hd Hin; [by apply elem_of_nil in Hin|].
  apply NoDup_cons in Hd as [Hq Hd]. apply elem_of_cons in Hin as [?|Hin]; [by simplify_eq; rewrite decide_True|].
  rewrite decide_False; [by apply IH|]. intros ->. apply Hq. apply elem_of_list_fmap. by exists (q, es).
Qed.
Lemma clookup_none k (c : cache) : k ∉ map fst c -> clookup k c = [].
Proof.
  induction c as [|[q w] c IH]; simpl; intros H; [done|]. rewrite decide_False by set_solver. apply IH. set_solver.
Qed.
Lemma clookup_perm (c c' : cache) : NoDup (map fst c) -> c ≡ₚ c' -> same_cache c c'.
Proof.
  intros Hd Hp k. assert (NoDup (map fst c')) as Hd'.
  { assert (map fst c ≡ₚ map fst c') as <- by (by apply (fmap_Permutation fst)). done. }
  destruct (decide (k ∈ map fst c)) as [Hin|Hin].
  - apply elem_of_list_fmap in Hin as ([k' es] & -> & Hin). simpl.
    rewrite (clookup_elem k' es c) by done. symmetry. apply clookup_elem; [done|]. by rewrite <- Hp.
  - rewrite (clookup_none k c) by done. symmetry. apply clookup_none.
    intros Hin'. apply Hin. assert (map fst c ≡ₚ map fst c') as -> by (by apply (fmap_Permutation fst)). done.
Qed.
Lemma cache_ok_perm (c c' : cache) : c ≡ₚ c' -> cache_ok c -> cache_ok c'.
Proof.
  intros Hp [H1 [H2 H3]]. split; [|split].
  - assert (map fst c ≡ₚ map fst c') as <- by (by apply (fmap_Permutation fst)). done.
  - by rewrite <- Hp.
  - by rewrite <- Hp.
Qed.

(** ** Loading *)
Lemma load_file {A} magic (empty : A) d bs : load magic empty d (Some (magic ++ bs)) = fst <$> d bs.
Proof.
  unfold load. destruct (Nat.ltb_spec (length (magic ++ bs)) (length magic)) as [H|H].
  - rewrite app_length in H. lia.
  - rewrite take_app, drop_app. by rewrite decide_True.
Qed.
Lemma dec_prefix {A} (d : decoder A) p q a : ext d -> d (p ++ q) = Some (a, []) -> q <> [] -> d p = None.
Proof.
  intros He H Hq. destruct (d p) as [[b r]|] eqn:E; [|done].
  apply (He _ _ _ q) in E. rewrite E in H. simplify_eq. by destruct r.
Qed.
Lemma load_prefix {A} magic (empty : A) d p q bs a : ext d -> d bs = Some (a, []) -> bs <> [] -> magic ++ bs = p ++ q -> q <> [] ->
  load magic empty d (Some p) = None.
Proof.
  intros He Hd Hne Heq Hq. destruct (decide (length p < length magic)%nat) as [Hlt|Hge].
  - unfold load. destruct (Nat.ltb_spec (length p) (length magic)); [|lia].
    assert (d [] = None) as ->; [|done]. by apply (dec_prefix d [] bs a).
  - apply app_eq_inv in Heq as [(x & -> & ->)|(x & -> & ->)].
    + destruct x as [|y x]; [|rewrite app_length in Hge; simpl in Hge; lia].
      rewrite app_nil_r in *. pose proof (load_file p empty d []) as E. rewrite app_nil_r in E. rewrite E. simpl in *.
      assert (d [] = None) as ->; [|done]. by apply (dec_prefix d [] bs a).
    + rewrite load_file. assert (d x = None) as ->; [|done]. by apply (dec_prefix d x q a).
Qed.

(** ** The steps of [store] *)
Definition sinv (lossy : bool) (m0 : option (list N)) (new : list N) (ds : disk * saving) : Prop :=
  let '(Disk m t, st) := ds in
  match st with
  | SIdle => m = m0
  | SWriting buf todo => m = m0 /\ exists w, t = Some w /\ w ++ buf ++ todo = new
  | SDropped => m = m0 /\ exists w x, t = Some w /\ w ++ x = new /\ (lossy = false -> x = [])
  | SRenamed => t = None /\ exists w x, m = Some w /\ w ++ x = new /\ (lossy = false -> x = [])
  end.
Lemma sinv_step lossy m0 new a b : sinv lossy m0 new a -> save_step lossy new a b -> sinv lossy m0 new b.
Proof.
  intros H Hs. destruct Hs; simpl in *.
  - split; [done|]. by exists [].
  - destruct H as (-> & w & [= <-] & <-). split; [done|]. eexists. split; [done|]. by rewrite <- !app_assoc.
  - destruct H as (-> & w & [= <-] & <-). split; [done|]. eexists. split; [done|]. by rewrite <- !app_assoc.
  - destruct H as (-> & w & [= <-] & <-). split; [done|]. exists (t ++ buf), []. split_and!; try done.
    by rewrite !app_nil_r.
  - destruct H as (-> & w & [= <-] & <-). split; [done|]. exists (t ++ x), buf. split_and!; try done; [|by intros ->].
    by rewrite app_nil_r, <- app_assoc.
  - destruct H as (-> & w & x & [= <-] & <- & Hx). split; [done|]. exists t, x. done.
Qed.
Lemma save_run_spec lossy new d d' done : save_run lossy new d d' done ->
  if done then exists w x, d_main d' = Some w /\ w ++ x = new /\ (lossy = false -> x = []) else d_main d' = d_main d.
Proof.
  intros (st & Hr & ->).
  assert (sinv lossy (d_main d) new (d', st)) as H.
  { remember (d, SIdle) as a eqn:Ea. remember (d', st) as b eqn:Eb.
    assert (sinv lossy (d_main d) new a) as Ha by (subst; destruct d; done). clear Ea Eb.
    induction Hr as [|x y z Hs Hr IH]; [done|]. apply IH. by eapply sinv_step. }
  destruct d' as [m t]. destruct st; simpl in *; naive_solver.
Qed.
