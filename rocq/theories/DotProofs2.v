(** * DotProofs2: the statements of the file, the order of the nodes and the files of the DAG *)
From Coq Require Import NArith Ascii.
From Verif Require Import DotModel DotSpec DotProofs.

(** ** A node *)
Definition style_words (n : node) : bytes * bytes :=
  match n with NExec _ => (str "rounded", str "record") | NFile _ => (str "dashed", str "box") end.
Definition node_tokens (n : node) : list token :=
  [TId (uuid_name (node_uuid n)); TPunct "["; TId (str "label"); TPunct "="; TString (raw (node_label n)); TPunct "]"; TPunct "[";
   TId (str "style"); TPunct "="; TId (style_words n).1; TId (str "shape"); TPunct "="; TId (style_words n).2; TPunct "]"; TPunct ";"].
Lemma run_open w : run (SId w) (str "[label=" ++ [quote_char]) = Some ([TId w; TPunct "["; TId (str "label"); TPunct "="], SString []).
Proof. by vm_compute. Qed.
Lemma run_close w n : run (SString w) ([quote_char] ++ str "][" ++ node_style n ++ str "];" ++ newline) =
  Some ([TString w; TPunct "]"; TPunct "["; TId (str "style"); TPunct "="; TId (style_words n).1; TId (str "shape"); TPunct "="; TId (style_words n).2; TPunct "]"; TPunct ";"], SStart).
Proof. destruct n; by vm_compute. Qed.
Lemma run_node n : no_backslash (node_label n) -> run SStart (render_node n) = Some (node_tokens n, SStart).
Proof.
  intros H. unfold render_node. rewrite node_id_eq.
  eapply (run_app2 _ (str "    ") _ []); [by vm_compute|]. eapply (run_app2 _ _ _ []); [apply run_name|].
  rewrite app_assoc. eapply (run_app2 _ _ _ [_; _; _; _]); [apply run_open|].
  eapply (run_app2 _ _ _ []); [apply run_label, H|]. rewrite app_nil_l. apply run_close.
Qed.
Definition edge_tokens (e : node * node) : list token :=
  [TId (uuid_name (node_uuid e.1)); TArrow; TId (uuid_name (node_uuid e.2)); TPunct ";"].
Lemma run_edge e : run SStart (render_edge e) = Some (edge_tokens e, SStart).
Proof.
  unfold render_edge. rewrite !node_id_eq.
  eapply (run_app2 _ (str "    ") _ []); [by vm_compute|]. eapply (run_app2 _ _ _ []); [apply run_name|].
  eapply (run_app2 _ (str " -> ") _ [_; _]); [by vm_compute|]. eapply (run_app2 _ _ _ []); [apply run_name|].
  by vm_compute.
Qed.
Lemma run_concat {A} (f : A -> bytes) (g : A -> list token) l :
  (forall a, a ∈ l -> run SStart (f a) = Some (g a, SStart)) -> run SStart (concat (map f l)) = Some (concat (map g l), SStart).
Proof.
  induction l as [|a l IH]; intros H; cbn [map concat]; [done|]. eapply run_app2; [apply H; left|].
  apply IH. intros b Hb. apply H. by right.
Qed.

(** ** The statements *)
Definition node_statement (n : node) : statement :=
  SNode (uuid_name (node_uuid n)) [(str "label", raw (node_label n)); (str "style", (style_words n).1); (str "shape", (style_words n).2)].
Definition edge_statement (e : node * node) : statement := SEdge (uuid_name (node_uuid e.1)) (uuid_name (node_uuid e.2)).
Lemma statements_node fuel n r : statements (S fuel) (node_tokens n ++ r) = l ← statements fuel r; Some (node_statement n :: l).
Proof. unfold node_tokens, node_statement. set (w := uuid_name _). set (x := raw _). set (a := (style_words n).1). set (b := (style_words n).2). clearbody w x a b. reflexivity. Qed.
Lemma statements_edge fuel e r : statements (S fuel) (edge_tokens e ++ r) = l ← statements fuel r; Some (edge_statement e :: l).
Proof. unfold edge_tokens, edge_statement. set (w := uuid_name _). set (x := uuid_name (node_uuid e.2)). clearbody w x. reflexivity. Qed.
Lemma statements_edges fuel es : length es < fuel -> statements fuel (concat (map edge_tokens es) ++ [TPunct "}"]) = Some (map edge_statement es).
Proof.
  revert fuel; induction es as [|e es IH]; intros fuel H; (destruct fuel as [|fuel]; [cbn in H; lia|]); [done|].
  cbn [map concat]. rewrite <- app_assoc, statements_edge, IH; [done|]. cbn in H. lia.
Qed.
Lemma statements_all fuel ns es : length ns + length es < fuel ->
  statements fuel (concat (map node_tokens ns) ++ concat (map edge_tokens es) ++ [TPunct "}"]) = Some (map node_statement ns ++ map edge_statement es).
Proof.
  revert fuel; induction ns as [|n ns IH]; intros fuel H; [by apply statements_edges|]. destruct fuel as [|fuel]; [cbn in H; lia|].
  cbn [map concat]. rewrite <- app_assoc, statements_node, IH; [done|]. cbn in H. lia.
Qed.
Lemma concat_len {A} (g : A -> list token) l : (forall a, 1 <= length (g a)) -> length l <= length (concat (map g l)).
Proof. intros H. induction l as [|a l IH]; cbn; [lia|]. rewrite app_length. specialize (H a). lia. Qed.
Lemma read_render ns es : Forall (fun n => no_backslash (node_label n)) ns ->
  read (render_graph ns es) = Some (SGraph (str "rankdir") (str "LR") :: map node_statement ns ++ map edge_statement es).
Proof.
  intros H. unfold read, render_graph.
  set (head := [TId (str "digraph"); TId (str "taskmaker"); TPunct "{"; TId (str "rankdir"); TPunct "="; TString (str "LR"); TPunct ";"]).
  assert (tokens SStart (str "digraph taskmaker {" ++ newline ++ str "    rankdir=" ++ [quote_char] ++ str "LR" ++ [quote_char] ++ str ";" ++ newline ++
    concat (map render_node ns) ++ concat (map render_edge es) ++ str "}" ++ newline) = Some (head ++ concat (map node_tokens ns) ++ concat (map edge_tokens es) ++ [TPunct "}"])) as ->.
  { rewrite !app_assoc. rewrite <- (app_assoc _ (concat (map render_node ns))), <- (app_assoc _ (_ ++ _)), <- (app_assoc _ (_ ++ _)), <- !app_assoc.
    rewrite !(app_assoc _ _ (concat (map render_node ns) ++ _)).
    erewrite tokens_app; [|by vm_compute; reflexivity].
    erewrite tokens_app; [|apply run_concat; intros n Hn; apply run_node; rewrite Forall_forall in H; by apply H].
    erewrite tokens_app; [|apply run_concat; intros e _; apply run_edge]. cbn [app]. change (tokens SStart (str "}" ++ newline)) with (Some [TPunct "}"]). cbn. done. }
  cbn [mbind option_bind]. subst head. cbn [app]. rewrite bool_decide_eq_true_2 by done.
  match goal with |- statements (length ?l) ?r = _ => set (fl := length l); assert (length ns + length es + 1 < fl) as Hf end.
  { subst fl. cbn [length]. rewrite !app_length. pose proof (concat_len node_tokens ns ltac:(intros; cbn; lia)). pose proof (concat_len edge_tokens es ltac:(intros; cbn; lia)). cbn [length]. lia. }
  clearbody fl. destruct fl as [|fl]; [lia|].
  transitivity (l ← statements fl (concat (map node_tokens ns) ++ concat (map edge_tokens es) ++ [TPunct "}"]); Some (SGraph (str "rankdir") (str "LR") :: l)); [reflexivity|].
  rewrite statements_all by lia. done.
Qed.

(** ** The graph *)
Definition node_picture (n : node) : picture :=
  match n with NExec _ => Record (split_bars [] (node_label n)) | NFile _ => Box (node_label n) end.
Lemma drawn_node n : no_backslash (node_label n) ->
  drawn [(str "label", raw (node_label n)); (str "style", (style_words n).1); (str "shape", (style_words n).2)] = Some (node_picture n).
Proof.
  intros H. unfold drawn. change (get "label" _) with (Some (raw (node_label n))).
  change (get "shape" _) with (Some (style_words n).2). cbn [mbind option_bind]. destruct n as [x|f]; cbn [style_words snd node_picture].
  - rewrite bool_decide_eq_false_2 by done. rewrite bool_decide_eq_true_2 by done. by rewrite record_raw.
  - rewrite bool_decide_eq_true_2 by done. by rewrite box_raw.
Qed.
Definition node_name (n : node) : bytes := uuid_name (node_uuid n).
Lemma graph_edges es : graph_of (map edge_statement es) = Some (Graph [] (map (fun e => (node_name e.1, node_name e.2)) es)).
Proof. induction es as [|e es IH]; [done|]. cbn [map graph_of edge_statement]. by rewrite IH. Qed.
Lemma graph_all ns es : Forall (fun n => no_backslash (node_label n)) ns ->
  graph_of (map node_statement ns ++ map edge_statement es) =
  Some (Graph (map (fun n => (node_name n, node_picture n)) ns) (map (fun e => (node_name e.1, node_name e.2)) es)).
Proof.
  induction 1 as [|n ns Hn Hns IH]; [apply graph_edges|]. cbn [map app graph_of node_statement]. rewrite drawn_node by done. cbn [mbind option_bind]. by rewrite IH.
Qed.
Lemma graph_render ns es : Forall (fun n => no_backslash (node_label n)) ns ->
  graph_in (render_graph ns es) = Some (Graph (map (fun n => (node_name n, node_picture n)) ns) (map (fun e => (node_name e.1, node_name e.2)) es)).
Proof. intros H. unfold graph_in. rewrite read_render by done. cbn [mbind option_bind graph_of]. by apply graph_all. Qed.

(** ** The order *)
Lemma bytes_le_before a b : bytes_le a b = true <-> before a b.
Proof.
  split.
  - revert b; induction a as [|x a IH]; intros [|y b] H; cbn in H; try done; try apply before_nil.
    destruct (N.compare_spec (N_of_ascii x) (N_of_ascii y)) as [E|E|E]; [|apply before_lt; exact E|done].
    apply (f_equal ascii_of_N) in E. rewrite !ascii_N_embedding in E. subst y. apply before_eq. by apply IH.
  - induction 1 as [s|x y s t H|x s t H IH]; [done|..]; cbn [bytes_le].
    + unfold code in H. by apply N.compare_lt_iff in H as ->.
    + by rewrite N.compare_refl.
Qed.
Lemma bytes_le_total a b : bytes_le a b = false -> before b a.
Proof.
  revert b; induction a as [|x a IH]; intros [|y b] H; cbn in H; try done; try apply before_nil.
  destruct (N.compare_spec (N_of_ascii x) (N_of_ascii y)) as [E|E|E]; [|done|apply before_lt; exact E].
  apply (f_equal ascii_of_N) in E. rewrite !ascii_N_embedding in E. subst y. apply before_eq. by apply IH.
Qed.
Lemma before_trans a b c : before a b -> before b c -> before a c.
Proof.
  intros H. revert c. induction H as [s|x y s t H|x s t H IH]; intros c Hc; [constructor|..]; inversion Hc; subst.
  - constructor. lia.
  - by apply before_lt.
  - by apply before_lt.
  - apply before_eq. by apply IH.
Qed.
Lemma insert_perm n l : insert_node n l ≡ₚ n :: l.
Proof. induction l as [|m l IH]; cbn [insert_node]; [done|]. destruct bytes_le; [done|]. rewrite IH. constructor. Qed.
Lemma sort_perm l : sort_nodes l ≡ₚ l.
Proof. induction l as [|n l IH]; cbn; [done|]. rewrite insert_perm. by constructor. Qed.
Definition label_le (n m : node) : Prop := before (node_label n) (node_label m).
Lemma insert_sorted n l : StronglySorted label_le l -> StronglySorted label_le (insert_node n l).
Proof.
  induction 1 as [|m l Hl IH Hm]; cbn [insert_node]; [by repeat constructor|]. destruct bytes_le eqn:E.
  - apply bytes_le_before in E. constructor; [by constructor|]. constructor; [done|]. eapply Forall_impl; [exact Hm|]. intros k Hk. by eapply before_trans.
  - apply bytes_le_total in E. constructor; [done|]. rewrite insert_perm. by constructor.
Qed.
Lemma sort_sorted l : StronglySorted label_le (sort_nodes l).
Proof. induction l as [|n l IH]; cbn; [constructor|]. by apply insert_sorted. Qed.

(** ** The files *)
Lemma foldl_insert m l u f : foldl insert_file m l !! u = Some f -> m !! u = Some f \/ (f ∈ l /\ df_uuid f = u).
Proof.
  revert m; induction l as [|g l IH]; intros m H; cbn in H; [by left|]. apply IH in H as [H|[H E]]; [|right; split; [by right|done]].
  unfold insert_file in H. destruct (decide (df_uuid g = u)) as [<-|Hn].
  - rewrite lookup_insert in H. injection H as <-. right. split; [left|done].
  - rewrite lookup_insert_ne in H by done. by left.
Qed.
Lemma foldl_some m l u : (is_Some (m !! u) \/ exists f, f ∈ l /\ df_uuid f = u) -> is_Some (foldl insert_file m l !! u).
Proof.
  revert m; induction l as [|g l IH]; intros m H; cbn.
  - destruct H as [H|(f & Hf & _)]; [done|by apply elem_of_nil in Hf].
  - apply IH. unfold insert_file. destruct (decide (df_uuid g = u)) as [<-|Hn]; [left; by rewrite lookup_insert|]. rewrite lookup_insert_ne by done.
    destruct H as [H|(f & Hf & E)]; [by left|]. apply elem_of_cons in Hf as [->|Hf]; [done|]. right. by exists f.
Qed.
