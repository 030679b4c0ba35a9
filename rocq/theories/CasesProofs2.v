(** * CasesProofs2: numbers, constraints, variables, validators *)
From Verif Require Import CasesSpec FormatProofs.

(** ** Numbers *)
Lemma digits_value_snoc t c : digits_value (t ++ [c]) = (digits_value t * 10 + (Z.of_N c - 48))%Z.
Proof. unfold digits_value. by rewrite foldl_app. Qed.
Lemma value_spec t z : Value t z <-> Forall (fun c => is_digit c = true) t /\ digits_value t = z.
Proof.
  split.
  - induction 1 as [|t z c Hv [IH1 IH2] Hc]; [split; [constructor|done]|]. split; [apply Forall_app; split; [done|]; constructor; [|constructor]; by apply is_digit_spec|].
    rewrite digits_value_snoc, IH2. lia.
  - revert z. induction t as [|c t IH] using rev_ind; intros z [Hf <-]; [constructor|]. apply Forall_app in Hf as [Hf Hc]. inversion Hc; subst.
    rewrite digits_value_snoc. replace (digits_value t * 10 + (Z.of_N c - 48))%Z with (10 * digits_value t + (Z.of_N c - 48))%Z by lia. constructor; [by apply IH|by apply is_digit_spec].
Qed.
Lemma i64_spec z : i64 z = true <-> (- 2 ^ 63 <= z < 2 ^ 63)%Z.
Proof. unfold i64. rewrite andb_true_iff, Z.leb_le, Z.ltb_lt. done. Qed.
Lemma forallb_Forall f (t : text) : forallb f t = true <-> Forall (fun c => f c = true) t.
Proof. rewrite forallb_forall, Forall_forall. split; intros H x Hx; apply H; [by apply elem_of_list_In|by apply elem_of_list_In]. Qed.
Lemma parse_i64_spec t z : parse_i64 t = Some z <-> Integer t z.
Proof.
  unfold parse_i64, Integer. split.
  - intros H. remember (match t with c :: d => if decide (c = 45%N) then (true, d) else if decide (c = 43%N) then (false, d) else (false, t) | [] => (false, []) end) as p eqn:E.
    destruct p as [neg d]. symmetry in E. assert (d <> [] /\ forallb is_digit d = true /\ i64 (if neg then (- digits_value d)%Z else digits_value d) = true /\ z = if neg then (- digits_value d)%Z else digits_value d) as (Hd & Hf & Hi & ->).
    { destruct d as [|x d]; [done|]. destruct (forallb is_digit (x :: d)); [|done]. cbv zeta in H. destruct (i64 _) eqn:Ei; [|done]. by injection H as <-. }
    split; [by apply i64_spec|]. exists d, (digits_value d). split_and!; [done|apply value_spec; split; [by apply forallb_Forall|done]|].
    destruct t as [|c t]; [injection E as <- <-; by left|]. destruct (decide (c = 45%N)) as [->|]; [injection E as <- <-; by right; right|]. destruct (decide (c = 43%N)) as [->|]; [injection E as <- <-; by right; left|injection E as <- <-; by left].
  - intros (Hr & d & v & Hd & [Hf <-]%value_spec & Ht).
    assert (forall neg : bool, z = (if neg then - digits_value d else digits_value d)%Z ->
      match d with [] => None | _ :: _ => if forallb is_digit d then let z := (if neg then - digits_value d else digits_value d)%Z in if i64 z then Some z else None else None end = Some z) as Hgo.
    { intros neg ->. destruct d as [|x d]; [done|]. rewrite (proj2 (forallb_Forall is_digit (x :: d)) Hf). cbv zeta. by rewrite (proj2 (i64_spec _) Hr). }
    destruct Ht as [[-> Hz]|[[-> Hz]|[-> Hz]]].
    + destruct d as [|x d]; [done|]. inversion Hf as [|?? Hx _]; subst. apply is_digit_spec in Hx. rewrite decide_False by lia. rewrite decide_False by lia. by apply (Hgo false).
    + rewrite decide_False by done. rewrite decide_True by done. by apply (Hgo false).
    + rewrite decide_True by done. by apply (Hgo true).
Qed.
Lemma integer_fun t z z' : Integer t z -> Integer t z' -> z = z'.
Proof. intros H H'. apply parse_i64_spec in H, H'. congruence. Qed.

(** ** From the items to the constraint *)
Inductive Alt : list item -> Prop :=
  | Alt_one i : (forall o, i <> IOperator o) -> Alt [i]
  | Alt_more i o rest : (forall o, i <> IOperator o) -> Alt rest -> Alt (i :: IOperator o :: rest).
Lemma comparison_alt is u : Comparison is u -> Alt is.
Proof. induction 1 as [i t Ht|i t b o b' is u Ht ? ? ? ? IH]; constructor; try done; intros o' ->; inversion Ht. Qed.
Definition DirOk (d : option bool) (os : list operator) : Prop :=
  match d with
  | Some true => forall o, o ∈ os -> ~ downward o
  | Some false => forall o, o ∈ os -> ~ upward o
  | None => ~ exists o o', o ∈ os /\ o' ∈ os /\ upward o /\ downward o'
  end.
Lemma dir_step d o os : DirOk d (o :: os) <->
  ~ (direction_of o <> None /\ (match d with None => direction_of o | _ => d end) <> direction_of o) /\ DirOk (match d with None => direction_of o | _ => d end) os.
Proof.
  assert (forall (P : operator -> Prop) x l, (forall y, y ∈ x :: l -> P y) <-> P x /\ forall y, y ∈ l -> P y) as Hc. { intros P x l. setoid_rewrite elem_of_cons. naive_solver. }
  assert ((~ exists x x', x ∈ o :: os /\ x' ∈ o :: os /\ upward x /\ downward x') <-> (upward o -> forall x, x ∈ os -> ~ downward x) /\ (downward o -> forall x, x ∈ os -> ~ upward x) /\ ~ exists x x', x ∈ os /\ x' ∈ os /\ upward x /\ downward x') as Hn.
  { setoid_rewrite elem_of_cons. split.
    - intros H. split_and!; [intros Hu x Hx Hd; apply H; exists o, x; naive_solver|intros Hd x Hx Hu; apply H; exists x, o; naive_solver|intros (x & x' & ? & ? & ? & ?); apply H; exists x, x'; naive_solver].
    - intros (H1 & H2 & H3) (x & x' & [->|Hx] & [->|Hx'] & Hu & Hd).
      + unfold upward, downward in *. destruct o; naive_solver.
      + by apply (H1 Hu x').
      + by apply (H2 Hd x).
      + apply H3. by exists x, x'. }
  assert (forall (P : Prop), (forall x, x ∈ os -> ~ downward x) -> ~ exists x x', x ∈ os /\ x' ∈ os /\ upward x /\ downward x') as Hu1. { intros _ H (x & x' & _ & Hx & _ & Hd). by apply (H x'). }
  assert (forall (P : Prop), (forall x, x ∈ os -> ~ upward x) -> ~ exists x x', x ∈ os /\ x' ∈ os /\ upward x /\ downward x') as Hd1. { intros _ H (x & x' & Hx & _ & Hu & _). by apply (H x). }
  destruct d as [[]|]; cbn [DirOk].
  - rewrite Hc. unfold downward. destruct o; cbn; intuition congruence.
  - rewrite Hc. unfold upward. destruct o; cbn; intuition congruence.
  - rewrite Hn. assert (upward o <-> direction_of o = Some true) as Ho1 by (unfold upward; destruct o; cbn; intuition congruence). assert (downward o <-> direction_of o = Some false) as Ho2 by (unfold downward; destruct o; cbn; intuition congruence).
    destruct (direction_of o) as [[]|]; cbn [DirOk].
    + split; [intros (H1 & _ & _); split; [tauto|apply H1; by apply Ho1]|]. intros [_ H]. split_and!; [done|intros Hx%Ho2; congruence|by apply (Hu1 True)].
    + split; [intros (_ & H1 & _); split; [tauto|apply H1; by apply Ho2]|]. intros [_ H]. split_and!; [intros Hx%Ho1; congruence|done|by apply (Hd1 True)].
    + split; [tauto|]. intros [_ H]. split_and!; [intros Hx%Ho1; congruence|intros Hx%Ho2; congruence|done].
Qed.
Lemma operand_step i items xs os d : (forall o, i <> IOperator o) ->
  forall c, make_constraint (i :: items) (Constraint xs os) d = Some c <-> exists x, ItemOperand i x /\ make_constraint items (Constraint (xs ++ [x]) os) d = Some c.
Proof.
  intros Hi c. destruct i as [t|v|o]; [| |by destruct (Hi o)]; cbn [make_constraint ItemOperand co_operands co_operators].
  - split.
    + intros (k & Hk & H)%bind_Some'. exists (Const k). split; [|done]. exists k. split; [done|]. by apply parse_i64_spec.
    + intros (x & (k & -> & Hk) & H). apply parse_i64_spec in Hk. rewrite Hk. done.
  - split; [intros H; by exists (Var v)|]. by intros (x & -> & H).
Qed.
Lemma make_constraint_spec items xs os d c : Alt items ->
  make_constraint items (Constraint xs os) d = Some c <-> exists xs' os', Chain items xs' os' /\ c = Constraint (xs ++ xs') (os ++ os') /\ DirOk d os'.
Proof.
  intros Ha. revert xs os d. induction Ha as [i Hi|i o rest Hi Ha IH]; intros xs os d; rewrite operand_step by done.
  - cbn [make_constraint]. split.
    + intros (x & Hx & [= <-]). exists [x], []. split_and!; [by constructor|by rewrite app_nil_r|]. destruct d as [[]|]; cbn; [by intros o ?%elem_of_nil..|by intros (o & ? & ?%elem_of_nil & _)].
    + intros (xs' & os' & Hc & -> & _). inversion Hc; subst. exists x. by rewrite app_nil_r.
  - split.
    + intros (x & Hx & H). cbn [make_constraint co_operands co_operators] in H. cbv zeta in H. destruct (_ && _) eqn:E; [done|]. apply IH in H as (xs' & os' & Hc & -> & Hd).
      exists (x :: xs'), (o :: os'). split_and!; [by constructor|by rewrite <- !app_assoc|]. apply dir_step. split; [|done]. intros [HA HB]. by rewrite !bool_decide_eq_true_2 in E by done.
    + intros (xs' & os' & Hc & -> & Hd). inversion Hc as [|i' x o' rest' xs'' os'' Hx Hc']; subst. exists x. split; [done|]. cbn [make_constraint co_operands co_operators]. cbv zeta.
      apply dir_step in Hd as [H1 Hd]. destruct (_ && _) eqn:E; [apply andb_true_iff in E as [E1%bool_decide_eq_true E2%bool_decide_eq_true]; by destruct H1|]. apply IH. exists xs'', os''. split_and!; [done|by rewrite <- !app_assoc|done].
Qed.
Lemma chain_length items xs os : Chain items xs os -> length xs = length os + 1 /\ length items = 2 * length os + 1.
Proof. induction 1; cbn [length]; lia. Qed.
Lemma parse_constraint_spec items c : Alt items -> 1 < length items -> parse_constraint items = Some c <-> ConstraintOf items c.
Proof.
  intros Ha Hlen. unfold parse_constraint, ConstraintOf. split.
  - intros (c' & Hm & H)%bind_Some'. apply make_constraint_spec in Hm as (xs & os & Hc & -> & Hd); [|done]. cbn [app co_operands co_operators] in *. destruct (chain_length _ _ _ Hc) as [H1 H2].
    repeat (destruct (decide _) in H; [done|]). injection H as <-. cbn. split_and!; [done| |done]. destruct os; [cbn in *; lia|done].
  - intros (Hc & Hn & Hd). destruct c as [xs os]. cbn in *. rewrite (proj2 (make_constraint_spec items [] [] None (Constraint xs os) Ha)); [|by exists xs, os]. cbn [mbind option_bind co_operands co_operators].
    destruct (chain_length _ _ _ Hc) as [H1 H2]. destruct os; [done|]. cbn [length] in *. by rewrite !decide_False by lia.
Qed.
Lemma item_operand_fun i x x' : ItemOperand i x -> ItemOperand i x' -> x = x'.
Proof. destruct i; cbn; [|congruence|done]. intros (k & -> & Hk) (k' & -> & Hk'). f_equal. by apply (integer_fun t). Qed.
Lemma chain_fun items xs os xs' os' : Chain items xs os -> Chain items xs' os' -> xs = xs' /\ os = os'.
Proof.
  intros H. revert xs' os'. induction H as [i x Hx|i x o rest xs os Hx Hc IH]; intros xs' os' H'; inversion H'; subst.
  - split; [|done]. f_equal. by eapply item_operand_fun.
  - edestruct IH as [-> ->]; [done|]. split; [|done]. f_equal. by eapply item_operand_fun.
Qed.
Lemma constraint_fun items c c' : ConstraintOf items c -> ConstraintOf items c' -> c = c'.
Proof. intros [H _] [H' _]. destruct (chain_fun _ _ _ _ _ H H') as [? ?]. destruct c, c'; cbn in *; congruence. Qed.

(** ** The evaluation of a constraint *)
Lemma compare_op_spec o a b : compare_op o a b = true <-> Rel o a b.
Proof. destruct o; cbn; [rewrite Z.ltb_lt|rewrite Z.leb_le|rewrite Z.ltb_lt|rewrite Z.leb_le|rewrite Z.eqb_eq]; lia. Qed.
Definition MapVal (vars : gmap text text) (v t : text) : Prop := vars !! v = Some t.
Lemma operand_val_spec vars x z : operand_val vars x = Some z <-> OperandVal (MapVal vars) x z.
Proof.
  destruct x as [k|v]; cbn [operand_val OperandVal]; [naive_solver|]. unfold MapVal. split.
  - intros (t & Ht & H)%bind_Some'. exists t. split; [done|]. by apply parse_i64_spec.
  - intros (t & -> & H). cbn [mbind option_bind]. by apply parse_i64_spec.
Qed.
Lemma chain_true vars last ops xs : length xs = length ops ->
  valid_chain vars last ops xs = Some true <-> exists zs, Forall2 (OperandVal (MapVal vars)) xs zs /\ forall i o a b, ops !! i = Some o -> (last :: zs) !! i = Some a -> zs !! i = Some b -> Rel o a b.
Proof.
  revert last xs. induction ops as [|o ops IH]; intros last xs Hlen; (destruct xs as [|x xs]; [|try done]).
  - cbn [valid_chain]. split; [|done]. intros _. exists []. split; [constructor|]. done.
  - done.
  - cbn [valid_chain]. split.
    + intros (z & Hz & H)%bind_Some'. destruct (compare_op o last z) eqn:E; [|done]. apply IH in H as (zs & Hf & Hr); [|by injection Hlen]. exists (z :: zs). split; [constructor; [by apply operand_val_spec|done]|].
      intros [|i] o' a b; cbn [lookup list_lookup]; [intros [= <-] [= <-] [= <-]; by apply compare_op_spec|]. apply Hr.
    + intros (zs & Hf & Hr). inversion Hf as [|? z ? zs' Hz Hf']; subst. apply operand_val_spec in Hz. rewrite Hz. cbn [mbind option_bind].
      rewrite (proj2 (compare_op_spec o last z)); [|by apply (Hr 0)]. apply IH; [by injection Hlen|]. exists zs'. split; [done|]. intros i o' a b. apply (Hr (S i)).
Qed.
Lemma chain_false vars last ops xs : length xs = length ops ->
  valid_chain vars last ops xs = Some false <-> exists i o zs a b, Forall2 (OperandVal (MapVal vars)) (take (i + 1) xs) zs /\ ops !! i = Some o /\ (last :: zs) !! i = Some a /\ zs !! i = Some b /\ ~ Rel o a b.
Proof.
  revert last xs. induction ops as [|o ops IH]; intros last xs Hlen; (destruct xs as [|x xs]; [|try done]).
  - cbn [valid_chain]. split; [done|]. by intros (i & o & zs & a & b & _ & H & _).
  - done.
  - cbn [valid_chain]. split.
    + intros (z & Hz & H)%bind_Some'. destruct (compare_op o last z) eqn:E.
      * apply IH in H as (i & o' & zs & a & b & Hf & Ho & Ha & Hb & Hr); [|by injection Hlen]. exists (S i), o', (z :: zs), a, b. split_and!; [|done..]. cbn. constructor; [by apply operand_val_spec|done].
      * exists 0, o, [z], last, z. split_and!; [|done..|]. { cbn. constructor; [by apply operand_val_spec|constructor]. } rewrite <- compare_op_spec. congruence.
    + intros (i & o' & zs & a & b & Hf & Ho & Ha & Hb & Hr). replace (i + 1) with (S i) in Hf by lia. cbn [take firstn] in Hf. inversion Hf as [|? z ? zs' Hz Hf']; subst. apply operand_val_spec in Hz. rewrite Hz. cbn [mbind option_bind].
      destruct i as [|i].
      * cbn in Ho, Ha, Hb. injection Ho as <-. injection Ha as <-. injection Hb as <-. destruct (compare_op o last z) eqn:E; [|done]. by apply compare_op_spec in E.
      * destruct (compare_op o last z) eqn:E; [|done]. apply IH; [by injection Hlen|]. exists i, o', zs', a, b. replace (i + 1) with (S i) by lia. done.
Qed.
Lemma constraint_true vars c : length (co_operands c) = length (co_operators c) + 1 -> constraint_valid vars c = Some true <-> Satisfied (MapVal vars) c.
Proof.
  intros Hlen. unfold constraint_valid, Satisfied. destruct (co_operands c) as [|x xs]; [cbn in Hlen; lia|]. assert (length xs = length (co_operators c)) as Hlen' by (cbn in Hlen; lia). split.
  - intros (z & Hz & H)%bind_Some'. apply chain_true in H as (zs & Hf & Hr); [|done]. exists (z :: zs). split; [constructor; [by apply operand_val_spec|done]|]. intros i o a b Ho Ha Hb. apply (Hr i o); [done..|]. by rewrite Nat.add_1_r in Hb.
  - intros (zs & Hf & Hr). inversion Hf as [|? z ? zs' Hz Hf']; subst. apply operand_val_spec in Hz. rewrite Hz. cbn [mbind option_bind]. apply chain_true; [done|]. exists zs'. split; [done|]. intros i o a b Ho Ha Hb. apply (Hr i o); [done..|]. by rewrite Nat.add_1_r.
Qed.
Lemma constraint_false vars c : length (co_operands c) = length (co_operators c) + 1 -> constraint_valid vars c = Some false <-> Violated (MapVal vars) c.
Proof.
  intros Hlen. unfold constraint_valid, Violated. destruct (co_operands c) as [|x xs]; [cbn in Hlen; lia|]. assert (length xs = length (co_operators c)) as Hlen' by (cbn in Hlen; lia). split.
  - intros (z & Hz & H)%bind_Some'. apply chain_false in H as (i & o & zs & a & b & Hf & Ho & Ha & Hb & Hr); [|done]. exists i, o, (z :: zs), (drop (i + 2) (x :: xs)), a, b.
    split_and!; [|by rewrite take_drop|done|done|by rewrite Nat.add_1_r|done]. replace (i + 2) with (S (i + 1)) by lia. cbn [take firstn]. constructor; [by apply operand_val_spec|done].
  - intros (i & o & zs & rest & a & b & Hf & _ & Ho & Ha & Hb & Hr). replace (i + 2) with (S (i + 1)) in Hf by lia. cbn [take firstn] in Hf. inversion Hf as [|? z ? zs' Hz Hf']; subst. apply operand_val_spec in Hz. rewrite Hz. cbn [mbind option_bind].
    apply chain_false; [done|]. exists i, o, zs', a, b. split_and!; [done..| |done]. by rewrite Nat.add_1_r in Hb.
Qed.
Lemma operand_val_ext V V' x z : (forall v t, V v t <-> V' v t) -> OperandVal V x z -> OperandVal V' x z.
Proof. intros H. destruct x as [k|v]; cbn; [done|]. intros (t & Ht & Hz). exists t. split; [by apply H|done]. Qed.
Lemma violated_ext V V' c : (forall v t, V v t <-> V' v t) -> Violated V c <-> Violated V' c.
Proof.
  intros H. unfold Violated. split; intros (i & o & zs & rest & a & b & Hf & Hrest); exists i, o, zs, rest, a, b; (split; [|done]); (eapply Forall2_impl; [exact Hf|]); intros x z; apply operand_val_ext; [done|].
  intros v t. symmetry. apply H.
Qed.

(** ** Variables and validators *)
Lemma bind_args_keep defs args vars v : is_Some (vars !! v) -> is_Some (bind_args defs args vars !! v).
Proof.
  revert args vars. induction defs as [|d defs IH]; intros args vars H; [done|]. destruct args as [|a args]; [done|]. cbn [bind_args]. apply IH.
  destruct (decide (d = v)) as [->|]; [by rewrite lookup_insert|by rewrite lookup_insert_ne].
Qed.
Lemma bind_args_None defs args vars v : bind_args defs args vars !! v = None -> forall j, defs !! j = Some v -> args !! j = None.
Proof.
  revert args vars. induction defs as [|d defs IH]; intros args vars H j Hj; [by rewrite lookup_nil in Hj|]. destruct args as [|a args]; [by rewrite lookup_nil|]. cbn [bind_args] in H.
  destruct j as [|j]; [|by apply (IH args _ H)]. cbn in Hj. injection Hj as ->. destruct (bind_args_keep defs args (<[v:=a]> vars) v) as [x Hx]; [by rewrite lookup_insert|]. congruence.
Qed.
Lemma bind_args_base defs args vars v t : bind_args defs args vars !! v = Some t <-> bind_args defs args ∅ !! v = Some t \/ bind_args defs args ∅ !! v = None /\ vars !! v = Some t.
Proof.
  revert args vars t. induction defs as [|d defs IH]; intros args vars t.
  - cbn [bind_args]. rewrite lookup_empty. naive_solver.
  - destruct args as [|a args]; [cbn [bind_args]; rewrite lookup_empty; naive_solver|]. cbn [bind_args]. rewrite (IH args (<[d:=a]> vars)), (IH args (<[d:=a]> ∅)).
    assert (bind_args defs args (<[d:=a]> ∅) !! v = None <-> bind_args defs args ∅ !! v = None /\ d <> v) as ->.
    { destruct (bind_args defs args ∅ !! v) as [x|] eqn:E.
      - rewrite (proj2 (IH args (<[d:=a]> ∅) x)) by (by left). naive_solver.
      - split.
        + intros H. split; [done|]. intros ->. rewrite (proj2 (IH args (<[v:=a]> ∅) a)) in H; [done|]. right. by rewrite lookup_insert.
        + intros [_ Hne]. destruct (bind_args defs args (<[d:=a]> ∅) !! v) as [y|] eqn:E'; [|done]. apply IH in E' as [?|[_ E']]; [congruence|]. by rewrite lookup_insert_ne in E' by done. }
    destruct (decide (d = v)) as [->|Hne]; [rewrite !lookup_insert|rewrite !lookup_insert_ne by done; rewrite lookup_empty]; naive_solver.
Qed.
Lemma bind_args_arg defs args v t : bind_args defs args ∅ !! v = Some t <-> ArgVar defs args v t.
Proof.
  revert args t. induction defs as [|d defs IH]; intros args t.
  - cbn [bind_args]. rewrite lookup_empty. split; [done|]. intros (i & H & _). by rewrite lookup_nil in H.
  - destruct args as [|a args]; [cbn [bind_args]; rewrite lookup_empty; split; [done|]; intros (i & _ & H & _); by rewrite lookup_nil in H|].
    cbn [bind_args]. rewrite bind_args_base, IH. split.
    + intros [(i & H1 & H2 & H3)|[Hn H]].
      * exists (S i). split_and!; [done..|]. intros [|j] Hj Hd; [lia|]. apply (H3 j); [lia|done].
      * apply lookup_insert_Some in H as [[-> ->]|[_ H]]; [|by rewrite lookup_empty in H]. exists 0. split_and!; [done..|]. intros [|j] Hj Hd; [lia|]. by apply (bind_args_None defs args ∅ v Hn).
    + intros ([|i] & H1 & H2 & H3).
      * cbn in H1, H2. injection H1 as ->. injection H2 as ->. right. split; [|by rewrite lookup_insert]. destruct (bind_args defs args ∅ !! v) as [x|] eqn:E; [|done]. apply IH in E as (j & Hj1 & Hj2 & _).
        specialize (H3 (S j) ltac:(lia) Hj1). change (args !! j = None) in H3. congruence.
      * left. exists i. split_and!; [done..|]. intros j Hj Hd. apply (H3 (S j)); [lia|done].
Qed.
Section vars.
  Context (split : text -> option (list text)) (file_name : text).
  Lemma auto_spec n name v t : auto_variables file_name (n + 1) name !! v = Some t <-> AutoVar file_name n name v t.
  Proof.
    unfold auto_variables, AutoVar. replace (n + 1 - 1) with n by lia.
    assert (forall name', (<[chars "ST_NUM" := chars (pretty n)]> (<[chars "INPUT" := file_name]> (∅ : gmap text text))) !! v = Some t <-> v = chars "INPUT" /\ t = file_name \/ v = chars "ST_NUM" /\ t = chars (pretty n) \/ v = chars "ST_NAME" /\ (None : option text) = Some name') as Hbase.
    { intros name'. rewrite lookup_insert_Some, lookup_insert_Some, lookup_empty. split; [naive_solver|]. intros [[-> ->]|[[-> ->]|[_ ?]]]; [|by left|done]. right. split; [done|]. by left. }
    destruct name as [nm|]; [|apply (Hbase t)]. rewrite lookup_insert_Some, (Hbase nm). split.
    - intros [[<- <-]|[_ [?|[?|[_ ?]]]]]; [by right; right|by left|by right; left|done].
    - intros [[-> ->]|[[-> ->]|[-> [= ->]]]]; [right|right|by left]; (split; [done|]); [by left|by right; left].
  Qed.
  Lemma variables_spec s n defs args v t : cs_subtask_id s = n + 1 -> variables file_name s defs args !! v = Some t <-> TestVar file_name n (cs_subtask_name s) defs args v t.
  Proof.
    intros Hn. unfold variables, TestVar. rewrite bind_args_base, Hn, auto_spec, bind_args_arg. split; (intros [H|[H1 H2]]; [by left|right]); (split; [|done]).
    - intros t' Ht. apply bind_args_arg in Ht. congruence.
    - destruct (bind_args defs args ∅ !! v) as [x|] eqn:E; [|done]. apply bind_args_arg in E. by destruct (H1 x).
  Qed.
  Lemma without_dollar a v : WithoutDollar a v <-> v = strip_dollar a.
  Proof.
    unfold WithoutDollar, strip_dollar. destruct a as [|c a].
    - split; [by intros [?|[_ ?]]|]. intros ->. by right.
    - destruct (decide (c = dollar)) as [->|Hne].
      + split; [intros [[= ->]|[H _]]; [done|by destruct H]|]. intros ->. by left.
      + split; [intros [[= -> _]|[_ ?]]; done|]. intros ->. right. split; [|done]. cbn. congruence.
  Qed.
  (** The managers that have been defined *)
  Definition Managers (defs : text -> text -> text -> Prop) (m : gmap text manager) : Prop :=
    forall n mg, m !! n = Some mg <-> exists path vars args, defs n path vars /\ split vars = Some args /\ mg = Manager path args.
  Lemma find_validator_spec ls s id name chosen val : Managers (fun n p v => CVal n (Some (p, v)) ∈ ls) (cs_validators s) ->
    find_validator s chosen (auto_variables file_name (id + 1) name) = Some val <-> ValidatorIs split file_name ls id name chosen val.
  Proof.
    intros HM. unfold find_validator, ValidatorIs. destruct chosen as [n|]; [|naive_solver].
    assert (forall args vals, mapM (fun a => auto_variables file_name (id + 1) name !! strip_dollar a) args = Some vals <-> Forall2 (fun a t => exists v, WithoutDollar a v /\ AutoVar file_name id name v t) args vals) as Hargs.
    { intros args vals. rewrite mapM_Some. split; intros H; (eapply Forall2_impl; [exact H|]); intros a t; cbn beta.
      - intros Ht. exists (strip_dollar a). split; [by apply without_dollar|by apply auto_spec].
      - intros (v & ->%without_dollar & Hv). by apply auto_spec. }
    assert (auto_variables file_name (id + 1) name !! chars "INPUT" = Some file_name) as HI by (apply auto_spec; by left).
    assert (auto_variables file_name (id + 1) name !! chars "ST_NUM" = Some (chars (pretty id))) as HS by (apply auto_spec; by right; left).
    split.
    - intros (m & Hm & H)%bind_Some'. apply HM in Hm as (path & vars & args & Hd & Hs & ->). cbn [mg_args mg_source] in H. destruct args as [|a args].
      + rewrite HI, HS in H. cbn [mbind option_bind] in H. injection H as <-. exists path, vars, [], [file_name; chars (pretty id)]. split_and!; [done..|by left].
      + apply bind_Some' in H as (vals & Hv & H). injection H as <-. exists path, vars, (a :: args), vals. split_and!; [done..|]. right. split; [done|]. by apply Hargs.
    - intros (path & vars & args & vals & Hd & Hs & -> & Hc). rewrite (proj2 (HM n (Manager path args))) by (by exists path, vars, args). cbn [mbind option_bind mg_args mg_source].
      destruct Hc as [[-> ->]|[Hne Hf]]; [by rewrite HI, HS|]. destruct args as [|a args]; [done|]. rewrite (proj2 (Hargs _ _) Hf). done.
  Qed.
End vars.
