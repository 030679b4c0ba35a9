(** * BadCaseProofs: the texts from which the tool reads back the number of a testcase *)
From Verif Require Import BadCaseModel.
From Coq Require Import Ascii String.
From stdpp Require Import base list.

Lemma app_cons c a s : String c a +:+ s = String c (a +:+ s).
Proof. done. Qed.
Lemma app_nil (s : string) : "" +:+ s = s.
Proof. done. Qed.
(** ** Numbers *)
Lemma digit_char x : (x < 10)%N -> digit (pretty_N_char x) = Some (N.to_nat x).
Proof.
  intros H. assert (E : x = 0%N \/ x = 1%N \/ x = 2%N \/ x = 3%N \/ x = 4%N \/ x = 5%N \/ x = 6%N \/ x = 7%N \/ x = 8%N \/ x = 9%N) by lia.
  repeat (destruct E as [E|E]; [subst; reflexivity|]). subst. reflexivity.
Qed.
Lemma parse_go x : forall s, parse_digits 0 (pretty_N_go x s) = parse_digits (N.to_nat x) s.
Proof.
  induction (N.lt_wf_0 x) as [x _ IH]. intros s. destruct (decide (x = 0)%N) as [->|Hx]; [reflexivity|].
  rewrite pretty_N_go_step by lia. rewrite IH by (apply N.div_lt; lia). cbn [parse_digits].
  rewrite digit_char by (apply N.mod_lt; lia). f_equal. pose proof (N.div_mod x 10). lia.
Qed.
Fixpoint absent (c : ascii) (s : string) : bool :=
  match s with EmptyString => true | String d s => negb (bool_decide (c = d)) && absent c s end.
Lemma absent_app c a b : absent c (a +:+ b) = absent c a && absent c b.
Proof. induction a as [|d a IH]; [done|]. change (String d a +:+ b) with (String d (a +:+ b)). cbn [absent]. rewrite IH. by rewrite andb_assoc. Qed.
Lemma absent_go c x : digit c = None -> forall s, absent c s = true -> absent c (pretty_N_go x s) = true.
Proof.
  intros Hc. induction (N.lt_wf_0 x) as [x _ IH]. intros s Hs. destruct (decide (x = 0)%N) as [->|Hx]; [done|].
  rewrite pretty_N_go_step by lia. apply IH; [apply N.div_lt; lia|]. cbn [absent]. rewrite Hs, andb_true_r.
  rewrite bool_decide_false; [done|]. intros ->. rewrite digit_char in Hc by (apply N.mod_lt; lia). done.
Qed.
Lemma pretty_nat_go n : pretty n = (if decide (n = 0) then "0" else pretty_N_go (N.of_nat n) "").
Proof.
  change (pretty n) with (pretty (N.of_nat n)). unfold pretty, pretty_N. destruct (decide (N.of_nat n = 0%N)), (decide (n = 0)); done || lia.
Qed.
Lemma absent_pretty c (n : nat) : digit c = None -> absent c (pretty n) = true.
Proof.
  intros Hc. rewrite pretty_nat_go. destruct (decide (n = 0)); [|by apply absent_go]. cbn. rewrite bool_decide_false; [done|]. by intros ->.
Qed.
Lemma pretty_nonempty (n : nat) : pretty n <> "".
Proof.
  rewrite pretty_nat_go. destruct (decide (n = 0)) as [|Hn]; [done|]. intros E.
  pose proof (parse_go (N.of_nat n) "") as H. rewrite E in H. cbn in H. injection H. lia.
Qed.
Lemma parse_pretty (n : nat) : fits_u32 n = true -> parse_u32 (pretty n) = Some n.
Proof.
  intros Hf. assert (Hb : strip_plus (pretty n) = pretty n).
  { pose proof (absent_pretty "+"%char n eq_refl) as Ha. destruct (pretty n) as [|c s]; [done|]. cbn in Ha. apply andb_true_iff in Ha as [Ha _].
    apply negb_true_iff, bool_decide_eq_false in Ha. cbn. rewrite decide_False; congruence. }
  unfold parse_u32. rewrite Hb. clear Hb. pose proof (pretty_nonempty n) as Hn.
  assert (Hp : parse_digits 0 (pretty n) = Some n).
  { rewrite pretty_nat_go. destruct (decide (n = 0)) as [->|]; [done|]. rewrite parse_go. cbn. by rewrite Nnat.Nat2N.id. }
  destruct (pretty n) as [|c s]; [done|]. rewrite Hp. by rewrite Hf.
Qed.

(** ** Positions *)
Lemma prefix_nil_r p : String.prefix p "" = match p with EmptyString => true | _ => false end.
Proof. by destruct p. Qed.
Lemma prefix_app p s : String.prefix p (p +:+ s) = true.
Proof. induction p as [|c p IH]; [by destruct s|]. rewrite app_cons. cbn [String.prefix]. by destruct (ascii_dec c c). Qed.
Lemma rfind_here p s i : p <> "" -> rfind p (match p +:+ s with String _ x => x | EmptyString => "" end) = i -> i = None -> rfind p (p +:+ s) = Some 0.
Proof.
  intros Hp Hi ->. pose proof (prefix_app p s) as H. destruct p as [|c p]; [done|]. rewrite app_cons in *. cbn [rfind]. rewrite Hi. by rewrite H.
Qed.
Lemma rfind_none c p s : absent c s = true -> rfind (String c p) s = None.
Proof.
  induction s as [|d s IH]; cbn [rfind absent]; [done|]. rewrite andb_true_iff, negb_true_iff. intros [Hd Hs]. rewrite (IH Hs).
  cbn [String.prefix]. destruct (ascii_dec c d) as [->|]; [|done]. by rewrite bool_decide_true in Hd.
Qed.
Lemma rfind_app p a s i : rfind p s = Some i -> rfind p (a +:+ s) = Some (String.length a + i).
Proof. intros H. induction a as [|c a IH]; [done|]. rewrite app_cons. cbn [rfind String.length]. by rewrite IH. Qed.
Lemma rfind_skip c p a s : absent c a = true -> rfind (String c p) s = None -> rfind (String c p) (a +:+ s) = None.
Proof.
  intros Ha Hs. induction a as [|d a IH]; [done|]. rewrite app_cons. cbn [rfind absent] in *. apply andb_true_iff in Ha as [Hd Ha]. rewrite (IH Ha).
  apply negb_true_iff, bool_decide_eq_false in Hd. cbn [String.prefix]. by destruct (ascii_dec c d).
Qed.
Lemma length_app_str a b : String.length (a +:+ b) = String.length a + String.length b.
Proof. induction a as [|c a IH]; [done|]. rewrite app_cons. cbn [String.length]. rewrite IH. done. Qed.
Lemma substring_0 b s : String.substring 0 (String.length b) (b +:+ s) = b.
Proof. induction b as [|c b IH]; [by destruct s|]. rewrite app_cons. cbn [String.length String.substring]. by rewrite IH. Qed.
Lemma substring_mid a b s : String.substring (String.length a) (String.length b) (a +:+ b +:+ s) = b.
Proof. induction a as [|c a IH]; [exact (substring_0 b s)|]. exact IH. Qed.
Lemma slice_mid a b s n m : n = String.length a -> m = String.length a + String.length b -> slice (a +:+ b +:+ s) n m = ROk b.
Proof. intros -> ->. unfold slice. rewrite decide_True by lia. by rewrite Nat.add_comm, Nat.add_sub, substring_mid. Qed.
Lemma app_str_assoc (a b s : string) : (a +:+ b) +:+ s = a +:+ b +:+ s.
Proof. induction a as [|c a IH]; [done|]. rewrite !app_cons. by rewrite IH. Qed.

(** ** The name of an input or output file *)
Lemma id_of_name pre (n : nat) p : fits_u32 n = true -> pre = "in" \/ pre = "out" -> file_name p = Some (pre +:+ "put" +:+ pretty n +:+ ".txt") ->
  id_of_file p = ROk (Some n).
Proof.
  intros Hf Hpre Hp. unfold id_of_file. rewrite Hp.
  assert (E1 : rfind "put" ("put" +:+ pretty n +:+ ".txt") = Some 0).
  { assert (E : rfind "put" ("ut" +:+ pretty n +:+ ".txt") = None).
    { apply rfind_none. rewrite !absent_app, absent_pretty by done. done. }
    by apply (rfind_here "put" _ None). }
  rewrite (rfind_app _ pre _ _ E1).
  assert (E2 : rfind "." (pre +:+ "put" +:+ pretty n +:+ ".txt") = Some (String.length (pre +:+ "put") + String.length (pretty n))).
  { rewrite <-!app_str_assoc. rewrite (rfind_app "." ((pre +:+ "put") +:+ pretty n) ".txt" 0) by done. f_equal. rewrite !length_app_str. cbn. lia. }
  rewrite E2. rewrite <-(app_str_assoc pre "put"). rewrite (slice_mid (pre +:+ "put") (pretty n) ".txt"); [by rewrite parse_pretty| |done].
  rewrite length_app_str. cbn. lia.
Qed.

(** ** The description of an evaluation *)
Lemma id_of_text pre (tc st : nat) : fits_u32 tc = true ->
  id_of_description (pre +:+ "testcase " +:+ pretty tc +:+ ", subtask " +:+ pretty st) = ROk (Some tc).
Proof.
  intros Hf. unfold id_of_description.
  assert (E0 : rfind "testcase " (", subtask " +:+ pretty st) = None).
  { assert (E : rfind "testcase " ("k " +:+ pretty st) = None) by (apply rfind_none; rewrite absent_app, absent_pretty by done; done).
    change (", subtask " +:+ pretty st) with (", subtas" +:+ "k " +:+ pretty st). revert E. generalize ("k " +:+ pretty st). intros s E.
    rewrite !app_cons, app_nil. cbn [rfind]. rewrite E. done. }
  assert (E1 : rfind "testcase " ("testcase " +:+ pretty tc +:+ ", subtask " +:+ pretty st) = Some 0).
  { assert (E : rfind "testcase " (pretty tc +:+ ", subtask " +:+ pretty st) = None) by (apply rfind_skip; [by apply absent_pretty|done]).
    revert E. generalize (pretty tc +:+ ", subtask " +:+ pretty st). intros s E. apply (rfind_here "testcase " s None); [done| |done]. rewrite !app_cons, app_nil. cbn [rfind]. by rewrite E. }
  assert (E2 : rfind ", " (", subtask " +:+ pretty st) = Some 0).
  { assert (E : rfind ", " (" subtask " +:+ pretty st) = None) by (apply rfind_none; rewrite absent_app, absent_pretty by done; done).
    change (", subtask " +:+ pretty st) with (", " +:+ "subtask " +:+ pretty st). by apply (rfind_here ", " _ None). }
  rewrite (rfind_app _ pre _ _ E1). rewrite <-!app_str_assoc. rewrite (app_str_assoc ((pre +:+ "testcase ") +:+ pretty tc)).
  rewrite (rfind_app _ _ _ _ E2). rewrite (app_str_assoc (pre +:+ "testcase ")).
  rewrite (slice_mid (pre +:+ "testcase ") (pretty tc)).
  - by rewrite parse_pretty.
  - rewrite length_app_str. cbn. lia.
  - rewrite !length_app_str. cbn. lia.
Qed.

(** ** Paths *)
Lemma split_nonempty s : split_slash s <> [].
Proof. destruct s as [|c s]; cbn; [done|]. case_decide; [done|]. by destruct (split_slash s). Qed.
Lemma split_app a b : split_slash (a +:+ "/" +:+ b) = split_slash a ++ split_slash b.
Proof.
  induction a as [|c a IH]; [done|]. rewrite app_cons. cbn [split_slash]. rewrite IH. case_decide; [done|].
  pose proof (split_nonempty a). by destruct (split_slash a).
Qed.
Lemma split_plain s : absent "/" s = true -> split_slash s = [s].
Proof.
  induction s as [|c s IH]; cbn; [done|]. rewrite andb_true_iff, negb_true_iff, bool_decide_eq_false. intros [Hc Hs].
  rewrite decide_False by congruence. by rewrite (IH Hs).
Qed.
Lemma filter_app' {A} (f : A -> bool) l k : List.filter f (l ++ k) = List.filter f l ++ List.filter f k.
Proof. induction l as [|x l IH]; cbn; [done|]. rewrite IH. by destruct (f x). Qed.
Lemma components_app a b : a <> "" -> components (a +:+ "/" +:+ b) = components a ++ List.filter ordinary (split_slash b).
Proof.
  intros Ha. unfold components. rewrite split_app. pose proof (split_nonempty a). destruct (split_slash a) as [|x l] eqn:E; [done|].
  cbn [app]. rewrite filter_app', app_assoc. do 2 f_equal. destruct (decide (x = "")); [|done]. rewrite !decide_False; [done|done|by destruct a].
Qed.
Lemma strip_app p q : strip_components p (p ++ q) = Some q.
Proof. induction p as [|x p IH]; cbn; [done|]. by rewrite decide_True. Qed.
Lemma strip_inv p q r : strip_components p q = Some r -> q = p ++ r.
Proof. revert q. induction p as [|x p IH]; intros [|y q]; cbn; try congruence. case_decide; [|done]. subst. intros H. by rewrite (IH _ H). Qed.
(** A file directly inside a directory of the task *)
Lemma strip_file root dir name : root <> "" -> ordinary dir = true -> ordinary name = true -> absent "/" dir = true -> absent "/" name = true ->
  strip_components (components root) (components (root +:+ "/" +:+ dir +:+ "/" +:+ name)) = Some [dir; name].
Proof.
  intros Hr H1 H2 H3 H4. rewrite components_app by done. rewrite split_app, !split_plain by done. cbn. rewrite H1, H2. apply strip_app.
Qed.
