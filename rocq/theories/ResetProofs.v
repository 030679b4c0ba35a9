(** Proofs for C103. *)
From Verif Require Import ResetSpec.

Section ind.
  Context (P : node -> Prop) (Hf : P NFile) (Hl : forall o, P (NLink o))
    (Hd : forall m es, (forall name n, (name, n) ∈ es -> P n) -> P (NDir m es)).
  Fixpoint node_induction (n : node) : P n :=
    match n with
    | NFile => Hf
    | NLink o => Hl o
    | NDir m es => Hd m es ((fix go es : forall name n, (name, n) ∈ es -> P n :=
        match es with
        | [] => fun name n H => False_ind _ (not_elem_of_nil _ H)
        | (nm, x) :: es => fun name n H =>
            match proj1 (elem_of_cons es (name, n) (nm, x)) H with
            | or_introl E => eq_ind_r P (node_induction x) (f_equal snd E)
            | or_intror H => go es name n H
            end
        end) es)
    end.
End ind.

(** The two passes with the loops named. *)
Definition writables (es : list (string * node)) : list (string * node) := map (fun kn => (kn.1, (writable kn.2).1)) es.
Definition targets (es : list (string * node)) : list out_dir := es ≫= fun kn => (writable kn.2).2.
Lemma writable_dir m es : writable (NDir m es) =
  if p_r m then (NDir rwx (writables es), targets es) else (NDir rwx es, []).
Proof.
  simpl. destruct (p_r m); [|done].
  match goal with |- (NDir rwx (?g es).1, _) = _ => set (go := g) end.
  assert (H : go es = (writables es, targets es)); [|by rewrite H].
  induction es as [|[name n] es IH]; [done|].
  change (go ((name, n) :: es)) with (let '(n', l) := writable n in let '(es', ls) := go es in ((name, n') :: es', l ++ ls)).
  rewrite IH. unfold writables, targets. simpl. by destruct (writable n) as [n' l].
Qed.
Fixpoint remove_all (m : perm) (es : list (string * node)) : list (string * node) * bool :=
  match es with
  | [] => ([], true)
  | (name, n) :: rest =>
    match n with
    | NFile | NLink _ => if p_w m && p_x m then remove_all m rest else (es, false)
    | NDir m' _ =>
      if p_x m then
        match remove n with
        | (lft, true) => if p_w m then remove_all m rest else ((name, NDir m' lft) :: rest, false)
        | (lft, false) => ((name, NDir m' lft) :: rest, false)
        end
      else (es, false)
    end
  end.
Lemma remove_dir m es : remove (NDir m es) = if p_r m then remove_all m es else (es, false).
Proof.
  simpl. destruct (p_r m); [|done]. 
  match goal with |- ?g es = _ => set (go := g) end.
  induction es as [|[name n] es IH]; [done|]. cbn [remove_all]. 
  destruct n as [| |m' es']; simpl; rewrite ?IH; done.
Qed.
Lemma remove_ok n l : remove n = (l, true) -> l = [].
Proof.
  destruct n as [| |m es]; [by intros [= <-]..|]. rewrite remove_dir. destruct (p_r m); [|done].
  induction es as [|[name n] es IH]; [by intros [= <-]|]. cbn [remove_all].
  destruct n as [| |m' es'].
  - by destruct (p_w m && p_x m).
  - by destruct (p_w m && p_x m).
  - destruct (p_x m); [|done]. destruct (remove (NDir m' es')) as [l' []]; [|done]. by destruct (p_w m).
Qed.

(** What can be removed as it is. *)
Definition natively (n : node) : Prop := forall b m es, inside n b (NDir m es) -> user_removable m es.
Lemma remove_all_true m es : (remove_all m es).2 = true <->
  (es <> [] -> p_w m = true /\ p_x m = true) /\ (forall name n, (name, n) ∈ es -> (remove n).2 = true).
Proof.
  induction es as [|[name n] es IH]; simpl.
  - split; [|done]. intros _. split; [done|]. by intros ? ? ?%elem_of_nil.
  - assert (Hin : forall P : string -> node -> Prop, (forall nm x, (nm, x) ∈ (name, n) :: es -> P nm x) <-> P name n /\ forall nm x, (nm, x) ∈ es -> P nm x).
    { intros P. split; [intros H; split; [apply H; left|intros; apply H; by right]|]. intros [H1 H2] nm x [[= -> ->]|H]%elem_of_cons; auto. }
    rewrite (Hin (fun _ x => (remove x).2 = true)).
    destruct n as [|o|m' es'].
    + destruct (p_w m), (p_x m); simpl; try (split; [done|intros [H _]; by destruct (H ltac:(done))]). rewrite IH. naive_solver.
    + destruct (p_w m), (p_x m); simpl; try (split; [done|intros [H _]; by destruct (H ltac:(done))]). rewrite IH. naive_solver.
    + destruct (p_x m); [|split; [done|intros [H _]; by destruct (H ltac:(done))]].
      destruct (remove (NDir m' es')) as [l []] eqn:E; simpl; [|split; [done|by intros (_&?&_)]].
      destruct (p_w m); [|split; [done|intros [H _]; by destruct (H ltac:(done))]]. rewrite IH. naive_solver.
Qed.
Lemma inside_dir m es b n : inside (NDir m es) b n <-> (b = true /\ n = NDir m es) \/
  exists name child b', (name, child) ∈ es /\ inside child b' n /\ b = p_r m && b'.
Proof.
  split.
  - intros H. inversion H; subst; [by left|right; eauto 10].
  - intros [[-> ->]|(name&child&b'&Hin&Hc&->)]; [constructor|by econstructor].
Qed.
Lemma remove_native n : (remove n).2 = true <-> natively n.
Proof.
  induction n as [|o|m es IH] using node_induction.
  - split; [|done]. intros _ b m es H. inversion H.
  - split; [|done]. intros _ b m es H. inversion H.
  - rewrite remove_dir. unfold natively, user_removable. split.
    + destruct (p_r m) eqn:Er; [|done]. rewrite remove_all_true. intros [H1 H2] b m2 es2 [[_ [= -> ->]]|(nm&c&b'&Hin&Hc&_)]%inside_dir; [done|].
      by eapply (proj1 (IH _ _ Hin) (H2 _ _ Hin)).
    + intros H. destruct (H _ _ _ (inside_here _)) as [-> Hwx]. apply remove_all_true. split; [done|].
      intros nm c Hin. apply (IH _ _ Hin). intros b m2 es2 Hc. eapply H. by econstructor.
Qed.
Lemma writable_removable n : (remove (writable n).1).2 = true <->
  forall b m es, inside n b (NDir m es) -> b = true \/ user_removable m es.
Proof.
  induction n as [|o|m es IH] using node_induction.
  - split; [|done]. intros _ b m es H. inversion H.
  - destruct o; simpl; (split; [|done]); intros _ b m es H; inversion H.
  - rewrite writable_dir. destruct (p_r m) eqn:Er; simpl fst; rewrite remove_dir; simpl p_r; rewrite remove_all_true.
    + split.
      * intros [_ H] b m2 es2 [[-> _]|(nm&c&b'&Hin&Hc&->)]%inside_dir; [by left|]. rewrite Er. simpl.
        refine (proj1 (IH _ _ Hin) _ _ _ _ Hc).
        apply (H nm). unfold writables. apply elem_of_list_fmap. by exists (nm, c).
      * intros H. split; [done|]. intros nm n' Hin. unfold writables in Hin. apply elem_of_list_fmap in Hin as ([nm' c]&[= -> ->]&Hin).
        apply (IH _ _ Hin). intros b m2 es2 Hc. pose proof (H _ _ _ (inside_down m es nm' c b _ Hin Hc)) as HH. by rewrite Er in HH.
    + split.
      * intros [_ H] b m2 es2 [[-> _]|(nm&c&b'&Hin&Hc&->)]%inside_dir; [by left|]. right.
        eapply (proj1 (remove_native c) (H _ _ Hin)). exact Hc.
      * intros H. split; [done|]. intros nm c Hin. apply remove_native. intros b m2 es2 Hc.
        destruct (H (p_r m && b) m2 es2) as [E|?]; [by econstructor| |done]. by rewrite Er in E.
Qed.
Lemma targets_linked n o : o ∈ (writable n).2 <-> linked n o.
Proof.
  unfold linked. induction n as [|[o'|]|m es IH] using node_induction.
  - simpl. split; [by intros ?%elem_of_nil|]. intros H. inversion H.
  - simpl. rewrite elem_of_list_singleton. split; [intros ->; constructor|]. intros H. by inversion H.
  - simpl. split; [by intros ?%elem_of_nil|]. intros H. inversion H.
  - rewrite writable_dir, inside_dir. destruct (p_r m); simpl.
    + unfold targets. rewrite elem_of_list_bind. split.
      * intros ([nm c]&Ho&Hin). right. exists nm, c, true. split; [done|]. split; [|done]. by apply (IH nm c Hin).
      * intros [[_ ?]|(nm&c&b'&Hin&Hc&E)]; [done|]; simpl in E; subst b'. exists (nm, c). split; [|done]. by apply (IH nm c Hin).
    + split; [by intros ?%elem_of_nil|]. by intros [[_ ?]|(nm&c&b'&Hin&Hc&?)].
Qed.
Lemma chmod_lookup l : forall outside o, fold_left chmod_out l outside !! o =
  (fun d => if o_owned d && bool_decide (o ∈ l) then OutDir rwx true else d) <$> outside !! o.
Proof.
  induction l as [|x l IH]; intros outside o; simpl.
  - destruct (outside !! o) as [d|]; simpl; [|done]. by rewrite andb_false_r.
  - rewrite IH. unfold chmod_out. destruct (outside !! x) as [dx|] eqn:Ex.
    + destruct (o_owned dx) eqn:Eo.
      * destruct (decide (x = o)) as [->|Hne].
        -- rewrite lookup_insert, Ex. simpl. rewrite Eo. rewrite (bool_decide_eq_true_2 (o ∈ o :: l)) by left. by destruct (bool_decide (o ∈ l)).
        -- rewrite lookup_insert_ne by done. destruct (outside !! o) as [d|]; simpl; [|done].
           replace (bool_decide (o ∈ x :: l)) with (bool_decide (o ∈ l)); [done|]. apply bool_decide_ext. rewrite elem_of_cons. naive_solver.
      * destruct (outside !! o) as [d|] eqn:E; simpl; [|done]. destruct (o_owned d) eqn:Ed; simpl; [|done].
        replace (bool_decide (o ∈ x :: l)) with (bool_decide (o ∈ l)); [done|]. apply bool_decide_ext. rewrite elem_of_cons.
        split; [by right|]. intros [->|?]; [congruence|done].
    + destruct (outside !! o) as [d|] eqn:E; simpl; [|done].
      replace (bool_decide (o ∈ x :: l)) with (bool_decide (o ∈ l)); [done|]. apply bool_decide_ext. rewrite elem_of_cons.
      split; [by right|]. intros [->|?]; [congruence|done].
Qed.

(** The answer. *)
Lemma white_spec c : is_white c = true <-> white c.
Proof.
  unfold is_white, white. rewrite orb_true_iff, andb_true_iff, !N.leb_le, N.eqb_eq. tauto.
Qed.
Lemma trim_start_spec s : exists a, s = a ++ trim_start s /\ Forall white a /\ (forall c r, trim_start s = c :: r -> ~ white c).
Proof.
  induction s as [|c s (a&E&Ha&Hn)]; [exists []; done|]. simpl. destruct (is_white c) eqn:Ew.
  - exists (c :: a). simpl. split; [by rewrite <- E|]. split; [|done]. constructor; [by apply white_spec|done].
  - exists []. split; [done|]. split; [done|]. intros c' r [= <- <-] Hw. apply white_spec in Hw. congruence.
Qed.
Lemma trim_start_white a c r : Forall white a -> ~ white c -> trim_start (a ++ c :: r) = c :: r.
Proof.
  induction 1 as [|x a Hx Ha IH]; simpl; intros Hc.
  - destruct (is_white c) eqn:E; [|done]. by apply white_spec in E.
  - rewrite (proj2 (white_spec x) Hx). by apply IH.
Qed.
Lemma lower_y c : lower c = "y"%char <-> c = "y"%char \/ c = "Y"%char.
Proof. split; [|by intros [-> | ->]]. destruct c as [[] [] [] [] [] [] [] []]; vm_compute; intros H; try discriminate H; auto. Qed.
Lemma y_not_white c : c = "y"%char \/ c = "Y"%char -> ~ white c.
Proof. intros [-> | ->] H; apply white_spec in H; by vm_compute in H. Qed.
Lemma confirmed_spec line : confirmed line = true <-> says_yes line.
Proof.
  unfold confirmed, says_yes. rewrite bool_decide_eq_true. split.
  - intros H. unfold trim in H. destruct (trim_start_spec line) as (a&Ea&Ha&_).
    destruct (trim_start_spec (rev (trim_start line))) as (b&Eb&Hb&_).
    destruct (rev (trim_start (rev (trim_start line)))) as [|c [|? ?]] eqn:Er; simpl in H; try discriminate H.
    injection H as Hc. apply lower_y in Hc.
    apply (f_equal (@rev _)) in Er. rewrite rev_involutive in Er. simpl in Er. rewrite Er in Eb.
    apply (f_equal (@rev _)) in Eb. rewrite rev_involutive, rev_app_distr in Eb. simpl in Eb. rewrite Eb in Ea.
    exists a, c, (rev b). split; [done|]. split; [done|]. split; [by apply Forall_rev|done].
  - intros (a&c&b&->&Ha&Hb&Hc). unfold trim. rewrite trim_start_white by (done || by apply y_not_white).
    replace (rev (c :: b)) with (rev b ++ c :: []) by done.
    rewrite trim_start_white; [|by apply Forall_rev|by apply y_not_white]. simpl. f_equal. by apply lower_y.
Qed.
