(** * BookletProofs2: lemmas for C82 *)
From Verif Require Export BookletModel BookletSpec.
From Verif Require Import LangProofs2 FindProofs FindProofs2.
From Coq Require Import Ascii String.
From stdpp Require Import base list sorting.
Local Open Scope nat_scope.

(** ** Lines *)
Lemma split_app sep a b : split_on sep (a ++ sep :: b) = split_on sep a ++ split_on sep b.
Proof.
  induction a as [|c a IH]; cbn [app split_on]; [by rewrite decide_True|]. destruct (decide (c = sep)); [by rewrite IH|]. rewrite IH.
  destruct (split_on sep a) as [|p ps] eqn:E; [|done]. exfalso. destruct a as [|x a']; cbn in E; [done|]. destruct (decide (x = sep)); [done|]. by destruct (split_on sep a').
Qed.
Lemma split_no sep a : sep ∉ a -> split_on sep a = [a].
Proof. induction a as [|c a IH]; intros H; [done|]. apply not_elem_of_cons in H as [H1 H2]. cbn [split_on]. rewrite decide_False by done. by rewrite IH. Qed.
Lemma lines_app a b : lines_of (a ++ newline :: b) = lines_of a ++ lines_of b.
Proof. apply split_app. Qed.
Lemma lines_no a : newline ∉ a -> lines_of a = [a].
Proof. apply split_no. Qed.
Lemma lines_cases t : newline ∉ t \/ exists l r, t = l ++ newline :: r /\ newline ∉ l.
Proof.
  induction t as [|c t IH]; [left; apply not_elem_of_nil|]. destruct (decide (c = newline)) as [->|Hc]; [right; exists [], t; split; [done|apply not_elem_of_nil]|].
  destruct IH as [H|(l & r & -> & H)]; [left; by apply not_elem_of_cons|]. right. exists (c :: l), r. split; [done|]. by apply not_elem_of_cons.
Qed.
Lemma lines_ind (P : text -> Prop) : (forall t, newline ∉ t -> P t) -> (forall l r, newline ∉ l -> P r -> P (l ++ newline :: r)) -> forall t, P t.
Proof.
  intros H1 H2 t. remember (length t) as n eqn:En. revert t En. induction (lt_wf n) as [n _ IH]. intros t ->. destruct (lines_cases t) as [H|(l & r & -> & H)]; [by apply H1|].
  apply H2; [done|]. apply (IH (length r)); [rewrite app_length; cbn; lia|done].
Qed.
Lemma lines_none t : Forall (fun l => newline ∉ l) (lines_of t).
Proof. induction t as [t H|l r H IH] using lines_ind; [rewrite lines_no by done; by repeat constructor|]. rewrite lines_app, (lines_no l) by done. by constructor. Qed.

(** ** The regex *)
Lemma package_at_spec x : package_at x = true <-> exists c r, x = usepackage ++ c :: r /\ c <> newline.
Proof.
  unfold package_at. split.
  - destruct (strip_start usepackage x) as [[|c r]|] eqn:E; try done. apply strip_start_Some in E. intros H%negb_true_iff%bool_decide_eq_false. by exists c, r.
  - intros (c & r & -> & H). rewrite strip_start_app. apply negb_true_iff. by apply bool_decide_eq_false.
Qed.
Lemma newline_use : newline ∉ usepackage.
Proof. apply (bool_decide_unpack _). vm_compute. exact Logic.I. Qed.
Lemma percent_use : "%"%char ∉ usepackage.
Proof. apply (bool_decide_unpack _). vm_compute. exact Logic.I. Qed.
Lemma package_at_line l rest : newline ∉ l -> package_at (l ++ newline :: rest) = package_at l.
Proof.
  intros H. apply eq_true_iff_eq. rewrite !package_at_spec. split.
  - intros (c & r & E & Hc). change (usepackage ++ c :: r) with (usepackage ++ [c] ++ r) in E. rewrite app_assoc in E. apply app_eq_app in E as (k & [[E1 E2]|[E1 E2]]).
    + rewrite E1. destruct k; [|by rewrite <- app_assoc; exists c, (a :: k)]. cbn in E2. rewrite app_nil_r. exists c, []. by rewrite ?app_nil_r.
    + destruct k as [|x k]; [rewrite app_nil_r in E1; rewrite <- E1; exists c, []; done|]. injection E2 as <- E2. exfalso.
      assert (newline ∈ usepackage ++ [c]) as Hn by (rewrite E1; set_solver). apply elem_of_app in Hn as [Hn|Hn%elem_of_list_singleton]; [by apply newline_use in Hn|done].
  - intros (c & r & -> & Hc). exists c, (r ++ newline :: rest). by rewrite <- app_assoc.
Qed.
Lemma package_at_load l : newline ∉ l -> package_at l = true <-> load l.
Proof.
  intros H. rewrite package_at_spec. unfold load. split; [naive_solver|]. intros (c & r & ->). exists c, r. split; [done|]. intros ->. apply H. set_solver.
Qed.
Lemma patch_true l : newline ∉ l -> patch true l = l.
Proof. induction l as [|c l IH]; intros H; [done|]. apply not_elem_of_cons in H as [H1 H2]. cbn [patch]. rewrite bool_decide_eq_false_2 by congruence. cbn [negb]. by rewrite IH. Qed.
Lemma patch_app l rest : newline ∉ l -> forall b, patch b (l ++ newline :: rest) = patch b l ++ newline :: patch false rest.
Proof.
  induction l as [|c l IH]; intros H b; [destruct b; reflexivity|]. assert (newline ∉ c :: l) as H0 by done. apply not_elem_of_cons in H as [H1 H2].
  change ((c :: l) ++ newline :: rest) with (c :: (l ++ newline :: rest)). cbn [patch]. destruct b.
  - rewrite bool_decide_eq_false_2 by congruence. cbn [negb]. by rewrite IH.
  - change (c :: l ++ newline :: rest) with ((c :: l) ++ newline :: rest). rewrite package_at_line by done. by destruct (package_at (c :: l)); rewrite IH.
Qed.
Lemma first_load_cons c l a p : ~ load (c :: l) -> first_load l a p -> first_load (c :: l) (c :: a) p.
Proof.
  intros Hn (-> & Hp & Hm). split_and!; [done|done|]. intros a' p' E Hp'. destruct a' as [|x a']; [cbn in E; subst p'; done|]. injection E as <- E. cbn. apply le_n_S. by eapply Hm.
Qed.
Lemma loads_cons c l : loads (c :: l) -> load (c :: l) \/ loads l.
Proof. intros (a & p & E & H). destruct a as [|x a]; [left; cbn in E; by subst|]. injection E as <- ->. right. by exists a, p. Qed.
Lemma load_nil : ~ load [].
Proof. by intros (c & r & E). Qed.
Lemma patch_line l : newline ∉ l -> commented l (patch false l).
Proof.
  induction l as [|c l IH]; intros H.
  - left. split; [|done]. intros (a & p & E & Hp). destruct a; [|done]. cbn in E. subst p. by apply load_nil.
  - assert (newline ∉ c :: l) as H0 by done. apply not_elem_of_cons in H as [H1 H2]. cbn [patch]. destruct (package_at (c :: l)) eqn:E.
    + apply package_at_load in E; [|done]. right. exists [], (c :: l). rewrite patch_true by done. split; [|done]. split_and!; [done|done|]. intros. cbn. lia.
    + assert (~ load (c :: l)) as Hn by (intros Hl%package_at_load; [congruence|done]). destruct (IH H2) as [[A B]|(a & p & A & B)].
      * left. rewrite B. split; [|done]. intros [?|?]%loads_cons; done.
      * right. exists (c :: a), p. rewrite B. split; [by apply first_load_cons|done].
Qed.
Lemma patch_newline l : newline ∉ l -> newline ∉ patch false l.
Proof.
  intros H. destruct (patch_line l H) as [[_ ->]|(a & p & (-> & _) & ->)]; [done|]. apply not_elem_of_app in H as [H1 H2]. rewrite !not_elem_of_app. split_and!; [done| |done].
  apply (bool_decide_unpack _). vm_compute. exact Logic.I.
Qed.
Lemma patch_lines t : Forall2 commented (lines_of t) (lines_of (patch false t)).
Proof.
  induction t as [t H|l r H IH] using lines_ind.
  - rewrite (lines_no t), lines_no by (try apply patch_newline; done). constructor; [by apply patch_line|constructor].
  - rewrite patch_app, !lines_app by done. rewrite (lines_no l), (lines_no (patch false l)) by (try apply patch_newline; done). constructor; [by apply patch_line|done].
Qed.
Lemma commented_percent l l' a p : commented l l' -> l' = a ++ p -> load p -> "%"%char ∈ a.
Proof.
  intros [[Hn ->]|(a0 & p0 & (-> & Hp0 & Hm) & ->)] E Hp; [exfalso; apply Hn; by exists a, p|].
  destruct (decide ("%"%char ∈ a)) as [|Hin]; [done|]. exfalso. change (chars "% ") with ["%"%char; " "%char] in E.
  apply app_eq_app in E as (k & [[E1 E2]|[E1 E2]]).
  - destruct k as [|x k].
    + (* the command starts where the comment does *) cbn in E2. rewrite E2 in Hp. by destruct Hp as (c & r & [=]).
    + assert (load (x :: k ++ p0)) as Hl.
      { destruct Hp as (c & r & E3). rewrite E2 in E3. symmetry in E3. apply app_eq_app in E3 as (k2 & [[E4 E5]|[E4 E5]]).
        - destruct k2 as [|y k2].
          + rewrite app_nil_r in E4. destruct Hp0 as (c0 & r0 & ->). unfold load. change (x :: k ++ ?z) with ((x :: k) ++ z). rewrite <- E4. by eexists _, _.
          + exfalso. injection E5 as <- _. apply percent_use. rewrite E4. set_solver.
        - change (x :: k ++ p0) with ((x :: k) ++ p0). rewrite E4, <- app_assoc. destruct k2 as [|y k2]; [destruct Hp0 as (c0 & r0 & ->); by eexists _, _|by eexists _, _]. }
      assert (length a0 <= length a) as H. { apply (Hm a (x :: k ++ p0)); [|done]. rewrite E1, <- app_assoc. done. } rewrite E1, app_length in H. cbn in H. lia.
  - destruct k as [|x k]; [cbn in E2; rewrite <- E2 in Hp; by destruct Hp as (c & r & [=])|]. injection E2 as <- E2. apply Hin. rewrite E1. set_solver.
Qed.

(** ** The packages *)
Lemma find_some l : newline ∉ l -> forall t, find_packages (Some t) l = [t ++ l] /\ forall rest, find_packages (Some t) (l ++ newline :: rest) = (t ++ l) :: find_packages None rest.
Proof.
  induction l as [|c l IH]; intros H t.
  - cbn [find_packages app]. rewrite app_nil_r. split; [done|]. intros rest. cbn [find_packages]. by rewrite decide_True.
  - apply not_elem_of_cons in H as [H1 H2]. destruct (IH H2 (t ++ [c])) as [A B]. cbn [find_packages app]. rewrite decide_False by congruence.
    split; [etrans; [apply A|]; by rewrite <- app_assoc|]. intros rest. rewrite decide_False by congruence. etrans; [apply B|]. by rewrite <- app_assoc.
Qed.
Lemma find_none l : newline ∉ l -> exists ps, loads_in [l] ps /\ find_packages None l = ps /\ forall rest, find_packages None (l ++ newline :: rest) = ps ++ find_packages None rest.
Proof.
  induction l as [|c l IH]; intros H.
  - exists []. split_and!; [|done|done]. apply loads_no; [|constructor]. intros (a & p & E & Hp). destruct a; [|done]. cbn in E. subst p. by apply load_nil.
  - assert (newline ∉ c :: l) as H0 by done. apply not_elem_of_cons in H as [H1 H2]. cbn [find_packages]. destruct (package_at (c :: l)) eqn:E.
    + destruct (find_some l H2 [c]) as [A B]. exists [c :: l]. split_and!; [|exact A|].
      * apply package_at_load in E; [|done]. eapply (loads_yes _ []); [|constructor]. split_and!; [done|done|]. intros. cbn. lia.
      * intros rest. change ((c :: l) ++ newline :: rest) with (c :: (l ++ newline :: rest)). cbn [find_packages].
        change (c :: l ++ newline :: rest) with ((c :: l) ++ newline :: rest). rewrite package_at_line, E by done. apply B.
    + destruct (IH H2) as (ps & A & B & C). exists ps. split_and!; [|done|].
      * assert (~ load (c :: l)) as Hn by (intros Hl%package_at_load; [congruence|done]). inversion A as [|? ? ? A1 A2|? a p ? ? A1 A2]; subst.
        -- apply loads_no; [|done]. intros [?|?]%loads_cons; done.
        -- eapply loads_yes; [|done]. by apply first_load_cons.
      * intros rest. change ((c :: l) ++ newline :: rest) with (c :: (l ++ newline :: rest)). cbn [find_packages].
        change (c :: l ++ newline :: rest) with ((c :: l) ++ newline :: rest). rewrite package_at_line, E, C by done. done.
Qed.
Lemma loads_app ls1 ps1 ls2 ps2 : loads_in ls1 ps1 -> loads_in ls2 ps2 -> loads_in (ls1 ++ ls2) (ps1 ++ ps2).
Proof. induction 1 as [|l ls ps H _ IH|l a p ls ps H _ IH]; intros H2; [done| |]; cbn [app]; [apply loads_no|eapply loads_yes]; try done; by apply IH. Qed.
Lemma find_lines t : loads_in (lines_of t) (find_packages None t).
Proof.
  induction t as [t H|l r H IH] using lines_ind.
  - rewrite lines_no by done. destruct (find_none t H) as (ps & A & -> & _). done.
  - rewrite lines_app, (lines_no l) by done. destruct (find_none l H) as (ps & A & _ & ->). by apply loads_app.
Qed.
Lemma loads_elem ls ps p : loads_in ls ps -> p ∈ ps <-> exists l a, l ∈ ls /\ first_load l a p.
Proof.
  assert (forall l a p a' p', first_load l a p -> first_load l a' p' -> p = p') as Hu.
  { intros l a q a' q' (E & H1 & H2) (E' & H1' & H2'). assert (length a = length a') as Hl by (apply Nat.le_antisymm; [by eapply H2|by eapply H2']). rewrite E in E'. apply app_inj_1 in E' as [_ ->]; done. }
  induction 1 as [|l ls ps H _ IH|l a q ls ps H _ IH].
  - rewrite elem_of_nil. split; [done|]. by intros (l & a & ?%elem_of_nil & _).
  - rewrite IH. split; [intros (k & a & ? & ?); exists k, a; split; [by right|done]|]. intros (k & a & [->|Hk]%elem_of_cons & Hf); [exfalso; apply H; exists a, p; destruct Hf as (? & ? & _); done|by exists k, a].
  - rewrite elem_of_cons, IH. split.
    + intros [->|(k & a' & ? & ?)]; [exists l, a; split; [left|done]|exists k, a'; split; [by right|done]].
    + intros (k & a' & [->|Hk]%elem_of_cons & Hf); [left; by eapply Hu|right; by exists k, a'].
Qed.
Lemma lines_join (ls : list text) : ls <> [] -> Forall (fun l => newline ∉ l) ls -> lines_of (unlines [newline] ls) = ls.
Proof.
  induction ls as [|x ls IH]; [done|]. intros _ H. apply Forall_cons in H as [H1 H2]. destruct ls as [|y ls]; [by apply lines_no|].
  change (unlines [newline] (x :: y :: ls)) with (x ++ newline :: unlines [newline] (y :: ls)). rewrite lines_app, lines_no by done. by rewrite IH.
Qed.
