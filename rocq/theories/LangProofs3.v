(** * LangProofs3: dependencies of C++ and Python files in one directory; the language of a file *)
From Verif Require Import LangModel LangSpec LangProofs LangProofs2 BuildProofs.
From Coq Require Import Ascii String.
From stdpp Require Import base list.

Lemma chars_string l : chars (string_of_list_ascii l) = l.
Proof. apply list_ascii_of_string_of_list_ascii. Qed.
Lemma string_chars n : string_of_list_ascii (chars n) = n.
Proof. apply string_of_list_ascii_of_string. Qed.
Lemma chars_app a b : chars (a +:+ b) = chars a ++ chars b.
Proof. induction a as [|c a IH]; [done|]. change (String c a +:+ b) with (String c (a +:+ b)). change (chars (String c (a +:+ b))) with (c :: chars (a +:+ b)). by rewrite IH. Qed.

Lemma fjoin_abs b p : p_abs p = true -> fjoin b p = p.
Proof. intros H. unfold fjoin. by rewrite H. Qed.
Lemma fjoin_is_abs dir p : p_abs (fjoin (FPath true dir) p) = true.
Proof. unfold fjoin. by destruct (p_abs p) eqn:E. Qed.

(** ** The two languages: an entry is a name *)
Definition cpp_entry (d : disk) (p : fpath) (m : string) : fpath * fpath := (with_file_name p (fpath_of (chars m)), fpath_of (chars m)).
Lemma cpp_entries d p l s : (l, s) ∈ extract_includes d p <-> exists m, m ∈ included d p /\ (l, s) = cpp_entry d p m.
Proof.
  unfold extract_includes, included. destruct (d_text d p) as [c|].
  - rewrite elem_of_list_In, in_map_iff. split.
    + intros (name & E & Hin). exists (string_of_list_ascii name). split; [|unfold cpp_entry; by rewrite chars_string].
      apply elem_of_list_In, in_map. done.
    + intros (m & Hm & ->). apply elem_of_list_In, in_map_iff in Hm as (name & <- & Hin). exists name. unfold cpp_entry. by rewrite chars_string.
  - split; [by intros ?%elem_of_nil|]. intros (m & ?%elem_of_nil & _). done.
Qed.
Lemma py_entries d p l s : (l, s) ∈ extract_imports d p <-> exists m, m ∈ imported d p /\ (l, s) = (fpath_of (chars m), fpath_of (chars m)).
Proof.
  unfold extract_imports, imported. destruct (d_text d p) as [c|].
  - rewrite elem_of_list_In, in_map_iff. split.
    + intros (name & E & Hin). exists (string_of_list_ascii name +:+ ".py"). split; [|by rewrite chars_app, chars_string].
      apply elem_of_list_In, in_map_iff. by exists name.
    + intros (m & Hm & ->). apply elem_of_list_In, in_map_iff in Hm as (name & <- & Hin). exists name. by rewrite chars_app, chars_string.
  - split; [by intros ?%elem_of_nil|]. intros (m & ?%elem_of_nil & _). done.
Qed.

Lemma cpp_flat d dir root fuel r : plain root -> flat_names d (included d) dir -> find_cpp_deps d fuel (in_dir dir root) = Some r ->
  forall l s, (l, s) ∈ r <-> exists m, s = local_name m /\ l = in_dir dir m /\ d_exists d l = true /\ m <> root /\ needed d (included d) dir root m.
Proof.
  intros Hroot Hflat. apply flat_exact; [| |done].
  - intros n l s Hn Hl He. apply cpp_entries in Hl as (m & Hm & [= -> ->]). exists m. split; [done|].
    assert (Hw : fjoin (FPath true dir) (with_file_name (in_dir dir n) (fpath_of (chars m))) = fjoin (FPath true dir) (fpath_of (chars m))).
    { rewrite fjoin_abs; unfold with_file_name; rewrite file_name_in by done; cbn [in_dir p_abs p_comps]; rewrite removelast_snoc; [done|apply fjoin_is_abs]. }
    rewrite Hw in *. destruct (Hflat n m Hm) as [Hp|[Hmis _]]; [|congruence]. split; [done|]. rewrite fpath_of_plain by done. split; [done|]. by apply fjoin_local.
  - intros n m Hn Hm He. destruct (Hflat n m Hm) as [Hp|[_ Hmis]]; [|congruence]. split; [done|]. exists (with_file_name (in_dir dir n) (local_name m)). split.
    + apply cpp_entries. exists m. split; [done|]. unfold cpp_entry. by rewrite fpath_of_plain.
    + rewrite with_file_name_in by done. by apply fjoin_abs.
Qed.
Lemma python_flat d dir root fuel r : plain root -> flat_names d (imported d) dir -> find_python_deps d fuel (in_dir dir root) = Some r ->
  forall l s, (l, s) ∈ r <-> exists m, s = local_name m /\ l = in_dir dir m /\ d_exists d l = true /\ m <> root /\ needed d (imported d) dir root m.
Proof.
  intros Hroot Hflat. apply flat_exact; [| |done].
  - intros n l s Hn Hl He. apply py_entries in Hl as (m & Hm & [= -> ->]). exists m. split; [done|].
    destruct (Hflat n m Hm) as [Hp|[Hmis _]]; [|congruence]. split; [done|]. rewrite fpath_of_plain by done. split; [done|]. by apply fjoin_local.
  - intros n m Hn Hm He. destruct (Hflat n m Hm) as [Hp|[_ Hmis]]; [|congruence]. split; [done|]. exists (local_name m). split.
    + apply py_entries. exists m. split; [done|]. by rewrite fpath_of_plain.
    + by apply fjoin_local.
Qed.

(** ** Termination *)
Lemma terminates d extract root (names : list fpath) : is_Some (parent root) -> (forall p l s, (l, s) ∈ extract p -> s ∈ names) ->
  exists fuel r, forall k, find_dependencies d extract (k + fuel) root = Some r.
Proof.
  intros [base Hb] Hn. unfold find_dependencies. rewrite Hb.
  destruct (loop_total d extract base names (1 + length names) [root] [] []) as [r Hr]; [done|constructor|by intros ? ?%elem_of_nil|cbn; lia|].
  exists (1 + length names), r. intros k. by apply loop_mono.
Qed.
Definition names_in (texts : list text) (f : text -> list fpath) : list fpath := texts ≫= f.
Lemma cpp_terminates d root (texts : list text) : is_Some (parent root) -> (forall p t, d_text d p = Some t -> t ∈ texts) ->
  exists fuel r, forall k, find_cpp_deps d (k + fuel) root = Some r.
Proof.
  intros Hp Ht. apply (terminates _ _ _ (names_in texts (fun t => map fpath_of (includes t)))); [done|].
  intros p l s. unfold extract_includes. destruct (d_text d p) as [t|] eqn:E; [|by intros ?%elem_of_nil]. intros H.
  apply elem_of_list_bind. exists t. split; [|by eapply Ht]. apply elem_of_list_In, in_map_iff in H as (n & [= <- <-] & Hn). apply elem_of_list_In, in_map. done.
Qed.
Lemma python_terminates d root (texts : list text) : is_Some (parent root) -> (forall p t, d_text d p = Some t -> t ∈ texts) ->
  exists fuel r, forall k, find_python_deps d (k + fuel) root = Some r.
Proof.
  intros Hp Ht. apply (terminates _ _ _ (names_in texts (fun t => map (fun n => fpath_of (n ++ chars ".py")) (imports_of t)))); [done|].
  intros p l s. unfold extract_imports. destruct (d_text d p) as [t|] eqn:E; [|by intros ?%elem_of_nil]. intros H.
  apply elem_of_list_bind. exists t. split; [|by eapply Ht]. apply elem_of_list_In, in_map_iff in H as (n & [= <- <-] & Hn). apply elem_of_list_In, in_map_iff. by exists n.
Qed.

(** ** The language of a file *)
Lemma last_dot_Some l a b : last_dot l = Some (a, b) <-> l = a ++ "."%char :: b /\ "."%char ∉ b.
Proof.
  revert a b. induction l as [|c l IH]; intros a b; cbn [last_dot].
  - split; [done|]. intros [E _]. by destruct a.
  - destruct (last_dot l) as [[a' b']|] eqn:E.
    + destruct (proj1 (IH a' b') eq_refl) as [E' Hb']. split.
      * intros [= <- <-]. split; [by rewrite E'|done].
      * intros [El Hb]. destruct a as [|c' a]; cbn in El; injection El as -> El.
        -- exfalso. apply Hb. rewrite <- El, E'. set_solver.
        -- assert (Hs : Some (a', b') = Some (a, b)) by (by apply IH). by injection Hs as -> ->.
    + case_decide as Hc.
      * subst c. split.
        -- intros [= <- <-]. split; [done|]. intros Hin. apply elem_of_list_split in Hin as (x & y & Hin).
           assert (exists x y, l = x ++ "."%char :: y /\ "."%char ∉ y) as (x' & y' & Hxy).
           { clear IH E. subst l. revert x. induction y as [y IHy] using (induction_ltof1 _ length). intros x. destruct (decide ("."%char ∈ y)) as [H|H].
             - apply elem_of_list_split in H as (u & v & ->). destruct (IHy v) with (x := x ++ "."%char :: u) as (x' & y' & E & ?).
               + unfold ltof. rewrite app_length. cbn. lia.
               + exists x', y'. split; [|done]. rewrite <- E. by rewrite <- (assoc_L (++)).
             - by exists x, y. }
           apply IH in Hxy. done.
        -- intros [El Hb]. destruct a as [|c' a]; cbn in El; injection El as El; [by subst|]. exfalso.
           assert (Hs : None = Some (a, b)) by (by apply IH). done.
      * split; [done|]. intros [El Hb]. destruct a as [|c' a]; cbn in El; injection El as E1 El; [done|].
        assert (Hs : None = Some (a, b)) by (by apply IH). done.
Qed.
Lemma stem_ext_Some name ext : snd (stem_ext name) = Some ext <-> has_extension name ext.
Proof.
  unfold stem_ext, has_extension. destruct (last_dot (chars name)) as [[a b]|] eqn:E.
  - apply last_dot_Some in E as E'. destruct E' as [E' Hb]. destruct a as [|x a]; cbn [snd].
    + split; [done|]. intros (stem & Hs & He & Hn). exfalso.
      assert (H : last_dot (chars name) = Some (stem, ext)) by (by apply last_dot_Some). rewrite E in H. injection H as <- <-. done.
    + split.
      * intros [= <-]. by exists (x :: a).
      * intros (stem & Hs & He & Hn). assert (H : last_dot (chars name) = Some (stem, ext)) by (by apply last_dot_Some). rewrite E in H. by injection H as _ ->.
  - split; [done|]. intros (stem & Hs & He & Hn). assert (H : last_dot (chars name) = Some (stem, ext)) by (by apply last_dot_Some). congruence.
Qed.
Lemma extension_unique l1 l2 e : e ∈ extensions l1 -> e ∈ extensions l2 -> l1 = l2.
Proof. destruct l1, l2; try done; cbn; rewrite !elem_of_cons, ?elem_of_nil; intros H1 H2; exfalso; naive_solver. Qed.
Lemma existsb_ext ext l : existsb (fun e => bool_decide (ext = chars e)) (extensions l) = true <-> exists e, e ∈ extensions l /\ ext = chars e.
Proof.
  rewrite existsb_exists. split; intros (e & H1 & H2); exists e; rewrite elem_of_list_In in *; split; try done; [by apply bool_decide_eq_true in H2|by apply bool_decide_eq_true].
Qed.
Lemma find_unique {A} (f : A -> bool) l x : f x = true -> x ∈ l -> (forall y, f y = true -> y = x) -> find f l = Some x.
Proof.
  intros Hx Hin Hu. induction l as [|y l IH]; [by apply elem_of_nil in Hin|]. cbn. destruct (f y) eqn:E; [by rewrite (Hu y E)|].
  apply elem_of_cons in Hin as [->|Hin]; [congruence|by apply IH].
Qed.
Lemma all_known l : l ∈ known_languages.
Proof. destruct l; apply (bool_decide_unpack _); vm_compute; exact Logic.I. Qed.
Lemma detect_spec p l : detect_language p = Some l <->
  exists name ext, file_name p = Some name /\ has_extension name ext /\ string_of_list_ascii (map lower ext) ∈ extensions l.
Proof.
  unfold detect_language. set (ext := match file_name p with Some n => _ | None => [] end).
  assert (Hf : forall l, existsb (fun e => bool_decide (ext = chars e)) (extensions l) = true <->
     exists name e, file_name p = Some name /\ has_extension name e /\ string_of_list_ascii (map lower e) ∈ extensions l).
  { intros l0. rewrite existsb_ext. split.
    - intros (e & He & Ee). subst ext. destruct (file_name p) as [n|]; [|by destruct l0; cbn in He; rewrite !elem_of_cons, ?elem_of_nil in He; naive_solver].
      destruct (snd (stem_ext n)) as [x|] eqn:Ex; [|by destruct l0; cbn in He; rewrite !elem_of_cons, ?elem_of_nil in He; naive_solver].
      exists n, x. split; [done|]. split; [by apply stem_ext_Some|]. rewrite Ee, string_chars. done.
    - intros (n & x & Hn & Hx & Hin). subst ext. rewrite Hn. apply stem_ext_Some in Hx. rewrite Hx. exists (string_of_list_ascii (map lower x)). split; [done|]. by rewrite chars_string. }
  split.
  - intros H. apply find_some in H as [_ H]. by apply Hf.
  - intros H. apply find_unique; [by apply Hf|apply all_known|]. intros y Hy. apply Hf in Hy as (n1 & e1 & H1 & H2 & H3). destruct H as (n2 & e2 & H4 & H5 & H6).
    assert (n1 = n2) by congruence. subst n2. apply stem_ext_Some in H2, H5. assert (e1 = e2) by congruence. subst e2. by eapply extension_unique.
Qed.

(** ** Graders *)
Lemma lang_name_inj l1 l2 : lang_name l1 = lang_name l2 -> l1 = l2.
Proof. by destruct l1, l2. Qed.
Lemma grader_map_get gs m l : aget (lang_name l) (grader_map gs m) = match last (graders_of l gs) with Some g => Some g | None => aget (lang_name l) m end.
Proof.
  revert m. induction gs as [|[f g] gs IH]; intros m; [done|]. cbn [grader_map]. unfold graders_of. 
  destruct (detect_language g) as [l'|] eqn:E.
  - rewrite IH, aget_ainsert. destruct (decide (l' = l)) as [->|Hne].
    + rewrite filter_cons_True by done. fold (graders_of l gs). rewrite last_cons. rewrite decide_True by done. by destruct (last (graders_of l gs)).
    + rewrite filter_cons_False by (cbn [snd]; rewrite E; naive_solver). fold (graders_of l gs). rewrite decide_False by (intros H; apply Hne; symmetry; by apply lang_name_inj). done.
  - rewrite filter_cons_False by (cbn [snd]; rewrite E; naive_solver). apply IH.
Qed.
