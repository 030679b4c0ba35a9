(** * ClientProofs *)
From Verif Require Import ClientSpec.

(** ** Triples *)
Definition triple {A} (P : list cevent -> Prop) (x : cm A) (Q : A -> list cevent -> Prop) (E : list cevent -> Prop) : Prop :=
  forall tr, P tr -> match x tr with (tr', inl a) => Q a tr' | (tr', inr _) => E tr' end.
Lemma triple_ret {A} (a : A) (P : list cevent -> Prop) (Q : A -> list cevent -> Prop) (E : list cevent -> Prop) : (forall tr, P tr -> Q a tr) -> triple P (cret a) Q E.
Proof. intros H tr HP. by apply H. Qed.
Lemma triple_bind {A B} (x : cm A) (f : A -> cm B) (P : list cevent -> Prop) (R : A -> list cevent -> Prop) (Q : B -> list cevent -> Prop) (E : list cevent -> Prop) :
  triple P x R E -> (forall a, triple (R a) (f a) Q E) -> triple P (cbind x f) Q E.
Proof.
  intros H1 H2 tr HP. unfold cbind. specialize (H1 tr HP). destruct (x tr) as [tr' [a|e]]; [|done]. by apply H2.
Qed.
Lemma triple_conseq {A} (x : cm A) (P P' : list cevent -> Prop) (Q Q' : A -> list cevent -> Prop) (E E' : list cevent -> Prop) :
  triple P x Q E -> (forall tr, P' tr -> P tr) -> (forall a tr, Q a tr -> Q' a tr) -> (forall tr, E tr -> E' tr) -> triple P' x Q' E'.
Proof.
  intros H H1 H2 H3 tr HP. specialize (H tr (H1 _ HP)). destruct (x tr) as [tr' [a|e]]; auto.
Qed.
Lemma triple_panic {A} (P : list cevent -> Prop) (Q : A -> list cevent -> Prop) (E : list cevent -> Prop) : (forall tr, P tr -> E tr) -> triple P cpanic Q E.
Proof. intros H tr HP. simpl. by apply H. Qed.
Lemma triple_error {A} (P : list cevent -> Prop) (Q : A -> list cevent -> Prop) (E : list cevent -> Prop) : (forall tr, P tr -> E tr) -> triple P cerror Q E.
Proof. intros H tr HP. simpl. by apply H. Qed.

Section proofs.
  Context (ok : list cevent -> cevent -> bool).
  Context (same_path : path -> path -> bool).
  Context (dest_exists : list cevent -> path -> bool).
  Context (local : store_key -> option (list bytes)).
  Local Notation emit := (emit ok). Local Notation emits := (emits ok).
  Local Notation process_provided_file := (process_provided_file ok same_path dest_exists).

  Lemma emits_run l tr tr' r : emits l tr = (tr', r) ->
    exists d, d `prefix_of` l /\ tr' = tr ++ d /\ (r = inl () -> d = l) /\ (r = inl () \/ r = inr false).
  Proof.
    revert tr. induction l as [|e l IH]; intros tr H.
    - unfold ClientModel.emits in H. simpl in H. unfold cret in H. simplify_eq. exists []. rewrite app_nil_r. eauto.
    - unfold ClientModel.emits in H. simpl in H. unfold cbind, ClientModel.emit in H. destruct (ok tr e).
      + apply IH in H as (d & Hd & -> & Hr & Hr'). exists (e :: d). split_and!; [by apply prefix_cons|by rewrite <- app_assoc| |done].
        intros ->. by rewrite Hr.
      + simplify_eq. exists [e]. split_and!; [|done..|by right]. apply prefix_cons, prefix_nil.
  Qed.
  (** A set of events closed under prefixes. *)
  Lemma triple_emits l (P : list cevent -> Prop) (Q : unit -> list cevent -> Prop) (E : list cevent -> Prop) :
    (forall tr, P tr -> Q () (tr ++ l)) -> (forall tr d, P tr -> d `prefix_of` l -> E (tr ++ d)) -> triple P (emits l) Q E.
  Proof.
    intros H1 H2 tr HP. destruct (emits l tr) as [tr' r] eqn:Er. apply emits_run in Er as (d & Hd & -> & Hr & Hr').
    destruct r as [[]|b]; [rewrite Hr by done; by apply H1|by apply H2].
  Qed.
  Lemma emit_emits e tr : emit e tr = emits [e] tr.
  Proof. unfold ClientModel.emits. simpl. unfold cbind, cret, ClientModel.emit. by destruct (ok tr e). Qed.
  Lemma triple_emit e (P : list cevent -> Prop) (Q : unit -> list cevent -> Prop) (E : list cevent -> Prop) :
    (forall tr, P tr -> Q () (tr ++ [e])) -> (forall tr, P tr -> E tr /\ E (tr ++ [e])) -> triple P (emit e) Q E.
  Proof.
    intros H1 H2 tr HP. rewrite emit_emits. apply (triple_emits [e] P Q E); [done| |done].
    intros tr' d HP' Hd. destruct d as [|x d]; [rewrite app_nil_r; by apply H2|].
    apply prefix_cons_inv_1 in Hd as Hx. subst x. apply prefix_cons_inv_2 in Hd. apply prefix_nil_inv in Hd. subst. by apply H2.
  Qed.

  (** ** Exact traces of successful runs *)
  Lemma chunk_loop_run u c dest limit chunks buffer tr tr' b :
    chunk_loop ok u c dest limit chunks buffer tr = (tr', inl b) ->
    tr' = tr ++ concat (map (chunk_events u c dest) chunks) /\ b = fold_left (add_chunk limit) chunks buffer.
  Proof.
    revert buffer tr. induction chunks as [|x chunks IH]; intros buffer tr H; simpl in *.
    - unfold cret in H. simplify_eq. by rewrite app_nil_r.
    - unfold cbind in H. destruct (emits (chunk_events u c dest x) tr) as [tr1 [[]|e]] eqn:E; [|done].
      apply emits_run in E as (d & _ & -> & Hd & _). rewrite Hd in H by done.
      apply IH in H as [-> ->]. by rewrite <- app_assoc.
  Qed.
  Lemma add_chunk_take limit chunks buffer :
    (length buffer <= limit) ->
    fold_left (add_chunk limit) chunks buffer = take limit (buffer ++ concat chunks).
  Proof.
    revert buffer. induction chunks as [|x chunks IH]; intros buffer H; simpl.
    - rewrite app_nil_r. by rewrite take_ge.
    - unfold add_chunk at 2. case_bool_decide as Hb.
      + rewrite IH.
        * rewrite <- app_assoc.
          rewrite (take_app_ge buffer) by lia. rewrite (take_app_ge buffer _ limit) by lia. f_equal.
          set (n := limit - length buffer).
          destruct (decide (length x <= n)).
          { rewrite Nat.min_l by lia. rewrite (take_ge x) by lia. done. }
          rewrite Nat.min_r by lia. rewrite take_app_le by (rewrite take_length; lia).
          rewrite take_take. rewrite (take_app_le x) by lia. f_equal. lia.
        * rewrite app_length, take_length. lia.
      + assert (length buffer = limit) as Hl by lia. rewrite IH by lia.
        rewrite !take_app_alt by done. done.
  Qed.
  Definition chmod_events (c : file_cb) (tr : list cevent) : list cevent :=
    match fc_write_to c with
    | Some w => if w_executable w && dest_exists tr (w_dest w) then [EChmod (w_dest w)] else []
    | None => []
    end.
  Lemma process_run cbs u success chunks complete hint tr tr' cbs' :
    process_provided_file cbs u success chunks complete hint tr = (tr', inl cbs') ->
    complete = true /\
    match cbs !! u with
    | None => tr' = tr /\ cbs' = cbs
    | Some c =>
      let dest := write_dest same_path c success hint in
      exists trc, trc `prefix_of` tr' /\
      tr' = tr ++ (match dest with Some d => [ECreate d] | None => [] end)
            ++ concat (map (chunk_events u c dest) chunks)
            ++ map (fun i => EChunk u i []) (seq 0 (fc_chunked c))
            ++ chmod_events c trc
            ++ (match fc_content c with Some limit => [EContent u (take limit (concat chunks))] | None => [] end) /\
      cbs' = <[u := FileCb (fc_write_to c) None (fc_chunked c)]> cbs
    end.
  Proof.
    unfold ClientModel.process_provided_file. destruct (cbs !! u) as [c|].
    2:{ destruct complete; [|done]. unfold cret. intros H. by simplify_eq. }
    set (dest := write_dest same_path c success hint). simpl. unfold cbind.
    destruct (emits (match dest with Some d => [ECreate d] | None => [] end) tr) as [tr1 [[]|e]] eqn:E1; [|done].
    apply emits_run in E1 as (d1 & _ & -> & Hd1 & _). rewrite (Hd1 eq_refl). clear d1 Hd1.
    set (pre := match dest with Some d => [ECreate d] | None => [] end).
    destruct (chunk_loop ok u c dest (default 0 (fc_content c)) chunks [] (tr ++ pre)) as [tr2 [b|e]] eqn:E2; [|done].
    apply chunk_loop_run in E2 as [-> ->]. destruct complete; [|done]. unfold cret at 1.
    destruct (emits (map (fun i => EChunk u i []) (seq 0 (fc_chunked c))) _) as [tr3 [[]|e]] eqn:E3; [|done].
    apply emits_run in E3 as (d3 & _ & -> & Hd3 & _). rewrite (Hd3 eq_refl). clear d3 Hd3.
    set (trc := ((tr ++ pre) ++ concat (map (chunk_events u c dest) chunks)) ++ map (fun i => EChunk u i []) (seq 0 (fc_chunked c))).
    intros H. split; [done|]. exists trc.
    assert (exists tr4, tr4 = trc ++ chmod_events c trc /\
      (_ <<- match fc_content c with
             | Some _ => emit (EContent u (fold_left (add_chunk (default 0 (fc_content c))) chunks []))
             | None => cret ()
             end; cret (<[u := FileCb (fc_write_to c) None (fc_chunked c)]> cbs)) tr4 = (tr', inl cbs')) as (tr4 & -> & H4).
    { unfold chmod_events. revert H. destruct (fc_write_to c) as [w|]; [|intros H; exists trc; by rewrite app_nil_r].
      destruct (w_executable w && dest_exists trc (w_dest w)); [|intros H; exists trc; by rewrite app_nil_r].
      unfold ClientModel.emit at 1. destruct (ok trc (EChmod (w_dest w))); [|done]. intros H. eexists. split; [done|]. exact H. }
    clear H. rewrite !app_assoc. change ((((tr ++ pre) ++ _) ++ _)) with trc.
    unfold cbind in H4. destruct (fc_content c) as [limit|].
    - unfold ClientModel.emit in H4. destruct (ok _ _) in H4; [|done]. unfold cret in H4. simplify_eq.
      rewrite add_chunk_take by (simpl; lia). simpl. split_and!; try done. rewrite <- app_assoc. by apply prefix_app_r.
    - unfold cret in H4. simplify_eq. rewrite app_nil_r. split_and!; try done. by apply prefix_app_r.
  Qed.
End proofs.
