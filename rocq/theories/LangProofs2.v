(** * LangProofs2: the names found in a file *)
From Verif Require Import LangModel LangSpec LangProofs.
From Coq Require Import Ascii String.
From stdpp Require Import base list.

Lemma strip_start_app p r : strip_start p (p ++ r) = Some r.
Proof. induction p as [|a p IH]; [done|]. cbn. by rewrite decide_True by done. Qed.
Lemma strip_start_Some p l r : strip_start p l = Some r -> l = p ++ r.
Proof.
  revert l. induction p as [|a p IH]; intros l; cbn; [by intros [= ->]|]. destruct l as [|b l]; [done|]. case_decide; [|done]. subst. intros H. cbn. by rewrite (IH _ H).
Qed.
Lemma drop_while_app f a l : Forall (fun c => f c = true) a -> match l with c :: _ => f c = false | [] => True end -> drop_while f (a ++ l) = l.
Proof.
  intros Ha Hl. induction Ha as [|c a Hc Ha IH]; cbn [app drop_while]; [|by rewrite Hc]. destruct l as [|c l]; [done|]. cbn. by rewrite Hl.
Qed.
Lemma span_app f a l : Forall (fun c => f c = true) a -> match l with c :: _ => f c = false | [] => True end -> span f (a ++ l) = (a, l).
Proof.
  intros Ha Hl. induction Ha as [|c a Hc Ha IH]; cbn [app span]; [|by rewrite Hc, IH]. destruct l as [|c l]; [done|]. cbn. by rewrite Hl.
Qed.
Lemma drop_while_length f l : length (drop_while f l) <= length l.
Proof. induction l as [|c l IH]; cbn; [lia|]. destruct (f c); cbn; lia. Qed.
Lemma span_length f l a b : span f l = (a, b) -> l = a ++ b.
Proof.
  revert a b. induction l as [|c l IH]; intros a b; cbn; [by intros [= <- <-]|]. destruct (f c); [|by intros [= <- <-]].
  destruct (span f l) as [a' b']. intros [= <- <-]. cbn. by rewrite (IH a' b').
Qed.

(** ** Includes *)
Lemma match_include_length l name rest : match_include l = Some (name, rest) -> length rest < length l.
Proof.
  unfold match_include. destruct (strip_start _ l) as [r|] eqn:E; [|done]. apply strip_start_Some in E as ->. pose proof (drop_while_length white r) as Hd.
  destruct (drop_while white r) as [|o r'] eqn:Er; [done|]. destruct (opening o); [|done]. destruct (span _ r') as [a b] eqn:Es. apply span_length in Es. subst r'.
  destruct a as [|x a]; [done|]. destruct b as [|y b]; [done|]. intros [= <- <-]. rewrite app_length. cbn in *. rewrite app_length in Hd. cbn in Hd. lia.
Qed.
Lemma scan_fuel n m l : length l <= n -> length l <= m -> scan_includes n l = scan_includes m l.
Proof.
  revert m l. induction n as [|n IH]; intros m l Hn Hm.
  - destruct l; [by destruct m|cbn in Hn; lia].
  - destruct l as [|c l]; [by destruct m|]. destruct m as [|m]; [cbn in Hm; lia|]. cbn [scan_includes].
    destruct (match_include (c :: l)) as [[name rest]|] eqn:E.
    + apply match_include_length in E. cbn in E, Hn, Hm. f_equal. apply IH; lia.
    + cbn in Hn, Hm. apply IH; lia.
Qed.
Lemma includes_cons c l : includes (c :: l) = match match_include (c :: l) with Some (name, rest) => name :: includes rest | None => includes l end.
Proof.
  unfold includes at 1. cbn [length scan_includes]. destruct (match_include (c :: l)) as [[name rest]|] eqn:E; [|done].
  apply match_include_length in E. cbn in E. f_equal. apply scan_fuel; lia.
Qed.
Lemma match_include_app ws o name c rest : Forall (fun c => white c = true) ws -> opening o = true -> name <> [] -> Forall (fun c => closing c = false) name -> closing c = true ->
  match_include (chars "#include" ++ ws ++ o :: name ++ c :: rest) = Some (name, rest).
Proof.
  intros Hws Ho Hne Hname Hc. unfold match_include. rewrite strip_start_app, drop_while_app; [|done|].
  - rewrite Ho. rewrite span_app.
    + by destruct name.
    + eapply Forall_impl; [exact Hname|]. intros x Hx. cbn. by rewrite Hx.
    + cbn. by rewrite Hc.
  - unfold opening in Ho. destruct (bool_decide (o = "<"%char)) eqn:E1.
    + apply bool_decide_eq_true in E1 as ->. done.
    + cbn in Ho. apply bool_decide_eq_true in Ho as ->. done.
Qed.
(** a text without the keyword *)
Lemma no_match u t rest : ~ occurs (chars "#include") (u :: t) -> match rest with [] => True | c :: _ => c = "#"%char end ->
  match_include ((u :: t) ++ rest) = None.
Proof.
  intros Hno Hr. unfold match_include. destruct (strip_start _ ((u :: t) ++ rest)) as [r|] eqn:E; [|done]. exfalso. apply strip_start_Some in E.
  destruct (decide (8 <= length (u :: t))) as [Hlen|Hlen].
  - apply Hno. exists [], (drop 8 (u :: t)). cbn [app].
    assert (E8 : take 8 ((u :: t) ++ rest) = chars "#include") by (rewrite E; done).
    rewrite take_app_le in E8 by lia. rewrite <- E8. by rewrite take_drop.
  - assert (Hx : ((u :: t) ++ rest) !! length (u :: t) = (chars "#include" ++ r) !! length (u :: t)) by (by rewrite E).
    rewrite lookup_app_r in Hx by lia. rewrite Nat.sub_diag in Hx. rewrite lookup_app_l in Hx by (cbn [length chars] in *; cbn; lia).
    assert (H1 : 1 <= length (u :: t)) by (cbn; lia). assert (H8 : length (u :: t) < 8) by lia. clear Hlen E Hno. generalize dependent (length (u :: t)). intros i Hx H1 H8.
    destruct rest as [|c rest].
    + assert (Hs : is_Some (chars "#include" !! i)) by (apply lookup_lt_is_Some; cbn; lia). destruct Hs as [y Hs]. assert (Hn : None = Some y) by exact (eq_trans Hx Hs). done.
    + subst c. change (Some "#"%char = chars "#include" !! i) in Hx. do 8 (destruct i as [|i]; [solve [lia | by vm_compute in Hx]|]). lia.
Qed.
Lemma occurs_cons p c l : occurs p l -> occurs p (c :: l).
Proof. intros (a & b & ->). by exists (c :: a), b. Qed.
Lemma includes_text t rest : ~ occurs (chars "#include") t -> match rest with [] => True | c :: _ => c = "#"%char end -> includes (t ++ rest) = includes rest.
Proof.
  intros Hno Hr. induction t as [|u t IH]; [done|]. change ((u :: t) ++ rest) with (u :: (t ++ rest)). rewrite includes_cons.
  change (u :: (t ++ rest)) with ((u :: t) ++ rest). rewrite no_match by done. apply IH. intros H. by apply Hno, occurs_cons.
Qed.
Lemma includes_found t ws o name c rest : ~ occurs (chars "#include") t -> Forall (fun c => white c = true) ws -> opening o = true -> name <> [] ->
  Forall (fun c => closing c = false) name -> closing c = true ->
  includes (t ++ chars "#include" ++ ws ++ o :: name ++ c :: rest) = name :: includes rest.
Proof.
  intros Hno Hws Ho Hne Hname Hc. rewrite includes_text by done. pose proof (match_include_app ws o name c rest Hws Ho Hne Hname Hc) as H.
  change (chars "#include" ++ ws ++ o :: name ++ c :: rest) with ("#"%char :: (chars "include" ++ ws ++ o :: name ++ c :: rest)) in *.
  by rewrite includes_cons, H.
Qed.

(** ** Imports *)
Lemma split_on_app sep a b : sep ∉ a -> split_on sep (a ++ sep :: b) = a :: split_on sep b.
Proof.
  induction a as [|c a IH]; intros H; cbn [app split_on]; [by rewrite decide_True by done|].
  rewrite decide_False by (intros ->; apply H; by left). rewrite IH; [done|]. intros ?. apply H. by right.
Qed.
Lemma split_join sep ps : ps <> [] -> Forall (fun p => sep ∉ p) ps -> split_on sep (join_with sep ps) = ps.
Proof.
  induction ps as [|p ps IH]; [done|]. intros _ H. apply Forall_cons in H as [Hp H]. destruct ps as [|q ps]; [by apply split_on_none|].
  change (join_with sep (p :: q :: ps)) with (p ++ sep :: join_with sep (q :: ps)). rewrite split_on_app by done. by rewrite IH.
Qed.
Lemma imports_line line rest : "010"%char ∉ line -> imports_of (line ++ "010"%char :: rest) = scan_imports (length line) line ++ imports_of rest.
Proof. intros H. unfold imports_of. by rewrite split_on_app. Qed.
Lemma imports_last line : "010"%char ∉ line -> imports_of line = scan_imports (length line) line.
Proof. intros H. unfold imports_of. rewrite split_on_none by done. cbn. by rewrite app_nil_r. Qed.
Lemma last_import_Some n l a b : last_import n l = Some (a, b) -> l = a ++ chars " import" ++ b /\ n <= length a.
Proof.
  revert n a b. induction l as [|c l IH]; intros n a b; [done|]. cbn [last_import].
  destruct (last_import (n - 1) l) as [[a' b']|] eqn:E.
  - intros [= <- <-]. destruct (IH _ _ _ E) as [-> Hn]. cbn [app length]. split; [done|lia].
  - destruct n; [|done]. destruct (strip_start (chars " import") (c :: l)) eqn:E'; [|done]. intros [= <- <-]. apply strip_start_Some in E'. split; [done|cbn; lia].
Qed.
Lemma match_from_length l g rest : match_from l = Some (g, rest) -> length rest < length l.
Proof.
  unfold match_from. destruct (strip_start _ l) as [[|c r]|] eqn:E; try done. apply strip_start_Some in E as ->. destruct (space c); [|done].
  intros H. apply last_import_Some in H as [-> _]. cbn. rewrite app_length. cbn. lia.
Qed.
Lemma scan_imports_fuel n m l : length l <= n -> length l <= m -> scan_imports n l = scan_imports m l.
Proof.
  revert m l. induction n as [|n IH]; intros m l Hn Hm.
  - destruct l; [by destruct m|cbn in Hn; lia].
  - destruct l as [|c l]; [by destruct m|]. destruct m as [|m]; [cbn in Hm; lia|]. cbn [scan_imports].
    destruct (match_import (c :: l)); [done|]. destruct (match_from (c :: l)) as [[g rest]|] eqn:E.
    + apply match_from_length in E. cbn in E, Hn, Hm. f_equal. apply IH; lia.
    + cbn in Hn, Hm. apply IH; lia.
Qed.
Definition line_imports (l : text) : list text := scan_imports (length l) l.
Lemma line_cons c l : line_imports (c :: l) = match match_import (c :: l) with
    | Some g => map trim (split_on ","%char g)
    | None => match match_from (c :: l) with Some (g, rest) => trim g :: line_imports rest | None => line_imports l end end.
Proof.
  unfold line_imports at 1. cbn [length scan_imports]. destruct (match_import (c :: l)); [done|]. destruct (match_from (c :: l)) as [[g rest]|] eqn:E; [|done].
  apply match_from_length in E. cbn in E. f_equal. apply scan_imports_fuel; lia.
Qed.
Lemma space_not_keyword l : match_import (" "%char :: l) = None /\ match_from (" "%char :: l) = None.
Proof. done. Qed.
Lemma line_indent ind l : Forall (fun c => space c = true) ind -> line_imports (ind ++ l) = line_imports l.
Proof.
  induction 1 as [|c ind Hc _ IH]; [done|]. unfold space in Hc. apply bool_decide_eq_true in Hc as ->. cbn [app]. by rewrite line_cons, IH.
Qed.
Lemma import_found ind sp g : Forall (fun c => space c = true) ind -> Forall (fun c => space c = true) sp -> match g with c :: _ => space c = false | [] => False end ->
  line_imports (ind ++ chars "import " ++ sp ++ g) = map trim (split_on ","%char g).
Proof.
  intros Hi Hs Hg. rewrite line_indent by done. change (chars "import " ++ sp ++ g) with ("i"%char :: (chars "mport " ++ sp ++ g)). rewrite line_cons.
  change ("i"%char :: (chars "mport " ++ sp ++ g)) with (chars "import" ++ " "%char :: (sp ++ g)). unfold match_import. rewrite strip_start_app.
  change (space " ") with true. cbv iota. rewrite drop_while_app; [|done|by destruct g]. by destruct g.
Qed.
Lemma strip_not_occurs p l : ~ occurs p l -> strip_start p l = None.
Proof. intros H. destruct (strip_start p l) as [r|] eqn:E; [|done]. apply strip_start_Some in E. destruct H. by exists [], r. Qed.
Lemma not_occurs_cons p c l : ~ occurs p (c :: l) -> ~ occurs p l.
Proof. intros H H'. by apply H, occurs_cons. Qed.
Lemma last_import_none n l : ~ occurs (chars " import") l -> last_import n l = None.
Proof.
  revert n. induction l as [|c l IH]; intros n H; [done|]. cbn [last_import]. rewrite IH by (by eapply not_occurs_cons). destruct n; [|done].
  by rewrite strip_not_occurs.
Qed.
Lemma last_import_app m rest n : ~ occurs (chars " import") (chars "import" ++ rest) -> n <= length m -> last_import n (m ++ chars " import" ++ rest) = Some (m, rest).
Proof.
  intros Hno. revert n. induction m as [|c m IH]; intros n Hn.
  - cbn in Hn. assert (n = 0) as -> by lia. change ([] ++ chars " import" ++ rest) with (" "%char :: (chars "import" ++ rest)). cbn [last_import].
    rewrite last_import_none by done. change (" "%char :: (chars "import" ++ rest)) with (chars " import" ++ rest). by rewrite strip_start_app.
  - cbn [app last_import]. rewrite IH; [done|]. cbn in Hn. lia.
Qed.
Lemma from_found ind m rest : Forall (fun c => space c = true) ind -> m <> [] -> ~ occurs (chars " import") (chars "import" ++ rest) ->
  line_imports (ind ++ chars "from " ++ m ++ chars " import" ++ rest) = trim m :: line_imports rest.
Proof.
  intros Hi Hm Hno. rewrite line_indent by done.
  change (chars "from " ++ m ++ chars " import" ++ rest) with ("f"%char :: (chars "rom " ++ m ++ chars " import" ++ rest)). rewrite line_cons.
  change (match_import ("f"%char :: (chars "rom " ++ m ++ chars " import" ++ rest))) with (@None text). cbv iota.
  change ("f"%char :: (chars "rom " ++ m ++ chars " import" ++ rest)) with (chars "from" ++ " "%char :: (m ++ chars " import" ++ rest)).
  unfold match_from. rewrite strip_start_app. change (space " ") with true. cbv iota. rewrite last_import_app; [done|done|]. destruct m; [done|cbn; lia].
Qed.
Lemma other_line l : ~ occurs (chars "import") l -> line_imports l = [].
Proof.
  intros H. induction l as [|c l IH]; [done|]. rewrite line_cons.
  assert (H1 : match_import (c :: l) = None) by (unfold match_import; by rewrite strip_not_occurs).
  assert (H2 : match_from (c :: l) = None).
  { destruct (match_from (c :: l)) as [[g rest]|] eqn:E; [|done]. exfalso. unfold match_from in E. destruct (strip_start _ (c :: l)) as [[|c' r]|] eqn:E'; try done.
    apply strip_start_Some in E'. destruct (space c'); [|done]. apply last_import_Some in E as [-> _]. apply H. rewrite E'.
    exists (chars "from" ++ c' :: g ++ [" "%char]), rest. rewrite <- !(assoc_L (++)). cbn. by rewrite <- (assoc_L (++)). }
  rewrite H1, H2. apply IH. by eapply not_occurs_cons.
Qed.
