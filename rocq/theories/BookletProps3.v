(** * BookletProps3: C83, the files with which a booklet is compiled *)
From Verif Require Export BookletModel BookletModel2 BookletSpec BookletSpec2 LangSpec.
From Verif Require Import BookletProps BookletProps2 LangProofs LangProofs3 FindProofs FindProofs2 FindProofs3 LangProofs2 FindProps.
From Coq Require Import Ascii String.
From stdpp Require Import base list.
Local Open Scope nat_scope.

(** ** Sandboxes *)
Lemma sandbox_snoc {A} (l : list (fpath * A)) x : sandbox (l ++ [x]) = put_input (sandbox l) x.
Proof. unfold sandbox. by rewrite fold_left_app. Qed.
(** A path of the sandbox has the last file that was added for it *)
Lemma sandbox_last {A} (l : list (fpath * A)) q o : (q, o) ∈ sandbox l <-> exists l1 l2, l = l1 ++ (q, o) :: l2 /\ q ∉ l2.*1.
Proof.
  induction l as [|[q' o'] l IH] using rev_ind; [split; [by intros ?%elem_of_nil|by intros ([|] & ? & ? & _)]|].
  rewrite sandbox_snoc. unfold put_input. rewrite elem_of_cons, elem_of_list_filter, IH. cbn [fst]. split.
  - intros [[= -> ->]|[Hn (l1 & l2 & -> & H)]]; [exists l, []; split; [done|apply not_elem_of_nil]|]. exists l1, (l2 ++ [(q', o')]). rewrite <- app_assoc. split; [done|].
    rewrite fmap_app. apply not_elem_of_app. split; [done|]. cbn. by intros ?%elem_of_list_singleton.
  - intros (l1 & l2 & E & H). destruct l2 as [|x l3 _] using rev_ind.
    + apply app_inj_tail in E as [-> E]. left. done.
    + right. change (l1 ++ (q, o) :: l3 ++ [x]) with (l1 ++ ((q, o) :: l3) ++ [x]) in E. rewrite app_assoc in E. apply app_inj_tail in E as [-> <-].
      rewrite fmap_app in H. apply not_elem_of_app in H as [H1 H2]. split; [intros ->; apply H2; left|]. by exists l1, l3.
Qed.
Lemma sandbox_once {A} (l : list (fpath * A)) : NoDup (sandbox l).*1.
Proof.
  induction l as [|[q o] l IH] using rev_ind; [constructor|]. rewrite sandbox_snoc. unfold put_input. cbn [fmap list_fmap fst]. constructor.
  - intros ((q' & o') & -> & [Hn _]%elem_of_list_filter)%elem_of_list_fmap. by apply Hn.
  - revert IH. generalize (sandbox l). intros m. induction m as [|y m IHm]; [constructor|]. cbn [fmap list_fmap]. intros HN. inversion_clear HN as [|? ? H1 H2]. rewrite filter_cons. case_decide; [|by apply IHm].
    cbn [fmap list_fmap]. constructor; [|by apply IHm]. intros (z & E & [_ Hz]%elem_of_list_filter)%elem_of_list_fmap. apply H1. rewrite E. apply elem_of_list_fmap. by exists z.
Qed.
Lemma sandbox_sub {A} (l : list (fpath * A)) x : x ∈ sandbox l -> x ∈ l.
Proof. destruct x as [q o]. intros (l1 & l2 & -> & _)%sandbox_last. set_solver. Qed.
Lemma sandbox_has {A} (l : list (fpath * A)) q o : (q, o) ∈ l -> exists o', (q, o') ∈ sandbox l.
Proof.
  revert o. induction l as [|[q1 o1] l IH] using rev_ind; intros o H; [by apply elem_of_nil in H|]. rewrite sandbox_snoc. unfold put_input.
  destruct (decide (q = q1)) as [->|Hq]; [exists o1; left|]. apply elem_of_app in H as [H|H%elem_of_list_singleton]; [|by injection H as -> ->].
  destruct (IH o H) as [o' Ho]. exists o'. right. by apply elem_of_list_filter.
Qed.
(** ** Text *)
Lemma contains_spec p l : contains p l = true <-> occurs p l.
Proof.
  unfold occurs. induction l as [|c l IH].
  - cbn [contains]. rewrite orb_false_r. destruct (strip_start p []) as [r|] eqn:E.
    + apply strip_start_Some in E. split; [|done]. intros _. exists [], r. exact E.
    + split; [done|]. intros (a & b & Hl). destruct a; [|done]. cbn [app] in Hl. rewrite Hl, strip_start_app in E. done.
  - cbn [contains]. destruct (strip_start p (c :: l)) as [r|] eqn:E; cbn [orb].
    + apply strip_start_Some in E. split; [|done]. intros _. exists [], r. exact E.
    + rewrite IH. split.
      * intros (a & b & ->). by exists (c :: a), b.
      * intros ([|x a] & b & Hl); [cbn [app] in Hl; rewrite Hl, strip_start_app in E; done|]. injection Hl as <- Hl. by exists a, b.
Qed.
(** ** The dependencies of a statement *)
Lemma mapM_concat {A B} (f : A -> option (list B)) l r : mapM f l = Some r -> forall x, x ∈ concat r <-> exists a y, a ∈ l /\ f a = Some y /\ x ∈ y.
Proof.
  intros H%mapM_Some x. induction H as [|a y l r Hf _ IH]; [split; [by intros ?%elem_of_nil|by intros (? & ? & ?%elem_of_nil & _)]|]. cbn [concat]. rewrite elem_of_app, IH. split.
  - intros [H|(a' & y' & H1 & H2)]; [exists a, y; split; [left|done]|exists a', y'; split; [by right|done]].
  - intros (a' & y' & [->|H1]%elem_of_cons & H2 & H3); [left; congruence|right; by exists a', y'].
Qed.
Lemma mapM_None_elem {A B} (f : A -> option B) l : mapM f l = None <-> exists a, a ∈ l /\ f a = None.
Proof.
  rewrite mapM_None. rewrite stdpp.list.Exists_exists. done.
Qed.
Lemma logo_spec c p : (is_Some (logo_name c) /\ file_name p = logo_name c) <-> is_logo c p.
Proof.
  unfold logo_name, is_logo. destruct (bc_logo c) as [l|]; [|split; [by intros [[? ?] _]|by intros (? & ? & ? & _)]]. split.
  - intros [[n Hn] H]. exists l, n. by rewrite Hn in *.
  - intros (l' & n & [= <-] & H1 & H2). rewrite H1, H2. split; [by eexists|done].
Qed.
Lemma valid_spec d p : match valid_pdf d p with None => fd_canon d p = None | Some b => is_Some (fd_canon d p) /\ (b = true <-> ~ made_from_source d p) end.
Proof.
  unfold valid_pdf, made_from_source. destruct (fd_canon d p) as [r|]; [|done]. split; [by eexists|]. rewrite andb_true_iff, !negb_true_iff. split.
  - intros [H1 H2] (r' & [= <-] & [H|H]); congruence.
  - intros H. destruct (fd_exists d (with_ext r "asy")) eqn:E1, (fd_exists d (with_ext r "tex")) eqn:E2; try done; exfalso; apply H; exists r; auto.
Qed.
Lemma ext_neq : chars "asy" <> chars "pdf".
Proof. done. Qed.
(** what a file gives, if it gives something *)
Lemma process_dep_spec d c s base rel : file_under d base rel -> match process_dep d (sm_content s) (logo_name c) base rel with
  | Some l => forall q o, (q, o) ∈ l <-> stmt_dep d c s base q o /\ (o = OFigure (under base rel) /\ q = with_ext (relative rel) "pdf" /\ has_ext (under base rel) "asy" \/
                                         o = OFile (under base rel) /\ q = relative rel /\ ~ has_ext (under base rel) "asy")
  | None => unreadable d c s base
  end.
Proof.
  intros Hf. unfold process_dep. destruct (decide (extension_of (under base rel) = chars "asy")) as [Ea|Ea].
  - destruct (contains _ _) eqn:Ec.
    + apply contains_spec in Ec. assert (stmt_dep d c s base (with_ext (relative rel) "pdf") (OFigure (under base rel))) as Hd by by apply dep_figure.
      destruct (asy_inputs d (under base rel)) eqn:Ei; [|by eapply bad_figure]. intros q o. rewrite elem_of_list_singleton. split; [intros [= -> ->]; by split; [|left]|].
      intros [_ [(-> & -> & _)|(_ & _ & H)]]; [done|]. by destruct (H Ea).
    + intros q o. split; [by intros ?%elem_of_nil|]. intros [Hd [(-> & -> & _)|(_ & _ & H)]]; [|by destruct (H Ea)]. exfalso.
      inversion Hd as [rel' H1 H2 H3 Hq Hr| | |]; subst. assert (rel' = rel) as ->. { clear -Hr. by apply app_inv_head in Hr. }
      apply contains_spec in H3. unfold uses_figure in *. congruence.
  - assert (forall l, provided d (relative rel) (under base rel) = Some l -> stmt_dep d c s base (relative rel) (OFile (under base rel)) ->
        forall q o, (q, o) ∈ l <-> stmt_dep d c s base q o /\ (o = OFigure (under base rel) /\ q = with_ext (relative rel) "pdf" /\ has_ext (under base rel) "asy" \/
                                         o = OFile (under base rel) /\ q = relative rel /\ ~ has_ext (under base rel) "asy")) as Hp.
    { unfold provided. destruct (fd_provides d _); [|done]. intros l [= <-] Hd q o. rewrite elem_of_list_singleton. split; [intros [= -> ->]; by split; [|right]|]. intros [_ [(_ & _ & H)|(-> & -> & _)]]; [by apply Ea in H|done]. }
    assert (forall l, provided d (relative rel) (under base rel) = l -> stmt_dep d c s base (relative rel) (OFile (under base rel)) -> match l with
        | Some l => forall q o, (q, o) ∈ l <-> stmt_dep d c s base q o /\ (o = OFigure (under base rel) /\ q = with_ext (relative rel) "pdf" /\ has_ext (under base rel) "asy" \/
                                         o = OFile (under base rel) /\ q = relative rel /\ ~ has_ext (under base rel) "asy")
        | None => unreadable d c s base end) as Hpr.
    { intros [l|] E Hd; [by apply Hp|]. eapply bad_file; [exact Hd|]. unfold provided in E. by destruct (fd_provides d _). }
    clear Hp. destruct (decide (extension_of (under base rel) = chars "pdf")) as [Ep|Ep]; [|apply Hpr; [done|by apply dep_file]].
    destruct (decide _) as [Hl|Hl]; [apply Hpr; [done|]; apply logo_spec in Hl; apply dep_pdf; auto|]. rewrite logo_spec in Hl. pose proof (valid_spec d (under base rel)) as Hv.
    destruct (valid_pdf d (under base rel)) as [[]|].
    + apply Hpr; [done|]. apply dep_pdf; [done|done|]. right. by apply Hv.
    + intros q o. split; [by intros ?%elem_of_nil|]. intros [Hd [(_ & _ & H)|(-> & -> & _)]]; [by apply Ea in H|]. exfalso. destruct Hv as [_ Hv].
      assert (made_from_source d (under base rel) \/ ~ made_from_source d (under base rel)) as [Hm|Hm].
      { unfold made_from_source. destruct (fd_canon d (under base rel)) as [r|]; [|right; by intros (? & ? & _)]. destruct (fd_exists d (with_ext r "asy")) eqn:E1; [left; exists r; auto|].
        destruct (fd_exists d (with_ext r "tex")) eqn:E2; [left; exists r; auto|]. right. intros (r' & [= <-] & [?|?]); congruence. }
      2: { apply Hv in Hm. done. }
      inversion Hd as [|rel' H1 H2 H3 Hq Hr|rel' H1 H2 H3 Hq Hr|n H1 H2 Hq Hr]; subst.
      * by destruct H3.
      * by apply H3.
      * by apply app_inv_head in Hr.
    + by eapply bad_real.
Qed.
Lemma under_files d dir rel : rel ∈ filter (fun rel => fd_file d (under dir rel) = true) (fd_under d dir) <-> file_under d dir rel.
Proof. rewrite elem_of_list_filter. unfold file_under. tauto. Qed.
(** The dependencies are the files of the directory of the statement, the figures made from their sources (in the place of the files .pdf made from
    them) and the files with the limits *)
Theorem C83_deps d c s l : build_deps d c s = Some l -> exists base, parent (sm_path s) = Some base /\ forall q o, (q, o) ∈ l <-> stmt_dep d c s base q o.
Proof.
  unfold build_deps. destruct (parent (sm_path s)) as [base|]; [|done]. intros H. exists base. split; [done|].
  apply bind_Some in H as (l1 & H1 & H). apply bind_Some in H as (l2 & H2 & H). injection H as <-. intros q o.
  rewrite elem_of_app, (mapM_concat _ _ _ H1), (mapM_concat _ _ _ H2). split.
  - intros [(rel & y & Hr%under_files & E & Hy)|(n & y & [Hf Hn]%elem_of_list_filter & E & Hy)].
    + pose proof (process_dep_spec d c s base rel Hr) as Hp. rewrite E in Hp. by apply Hp in Hy as [? _].
    + unfold provided in E. destruct (fd_provides d _); [|done]. injection E as <-. apply elem_of_list_singleton in Hy as [= -> ->]. by apply dep_gen.
  - intros Hd. assert (forall rel, file_under d base rel -> exists y, process_dep d (sm_content s) (logo_name c) base rel = Some y) as Hy.
    { intros rel Hr%under_files. destruct (process_dep d (sm_content s) (logo_name c) base rel) eqn:E; [by eexists|]. exfalso.
      assert (mapM (process_dep d (sm_content s) (logo_name c) base) (filter (fun rel => fd_file d (under base rel) = true) (fd_under d base)) = None) as Hn; [|congruence].
      apply mapM_None_elem. by exists rel. }
    destruct Hd as [rel Hf He Hu|rel Hf He Hl|rel Hf Ha Hp|n Hn Hf].
    + left. destruct (Hy rel Hf) as [y E]. exists rel, y. split_and!; [by apply under_files|done|]. pose proof (process_dep_spec d c s base rel Hf) as Hs. rewrite E in Hs. apply Hs. split; [by apply dep_figure|by left].
    + left. destruct (Hy rel Hf) as [y E]. exists rel, y. split_and!; [by apply under_files|done|]. pose proof (process_dep_spec d c s base rel Hf) as Hs. rewrite E in Hs. apply Hs. split; [by apply dep_pdf|right].
      split_and!; [done|done|]. unfold has_ext in *. intros Ha. rewrite Ha in He. done.
    + left. destruct (Hy rel Hf) as [y E]. exists rel, y. split_and!; [by apply under_files|done|]. pose proof (process_dep_spec d c s base rel Hf) as Hs. rewrite E in Hs. apply Hs. split; [by apply dep_file|by right].
    + right. exists n. destruct (provided d (relative [n]) (gen_file base n)) as [y|] eqn:E.
      * exists y. split_and!; [by apply elem_of_list_filter|done|]. unfold provided in E. destruct (fd_provides d _); [|done]. injection E as <-. left.
      * exfalso. assert (mapM (fun n => provided d (relative [n]) (gen_file base n)) (filter (fun n => fd_file d (gen_file base n) = true) gen_files) = None) as Hnn; [|congruence].
        apply mapM_None_elem. exists n. split; [by apply elem_of_list_filter|done].
Qed.
(** They are not there exactly when one that is needed cannot be read *)
Theorem C83_deps_fails d c s base : parent (sm_path s) = Some base -> build_deps d c s = None <-> unreadable d c s base.
Proof.
  intros Hb. unfold build_deps. rewrite Hb. split.
  - intros H. destruct (mapM (process_dep _ _ _ _) _) as [l1|] eqn:E1; cbn [mbind option_bind] in H.
    + destruct (mapM _ (filter _ gen_files)) as [l2|] eqn:E2; cbn [mbind option_bind] in H; [done|]. apply mapM_None_elem in E2 as (n & [Hf Hn]%elem_of_list_filter & E).
      eapply bad_file; [by apply dep_gen|]. unfold provided in E. by destruct (fd_provides d _).
    + apply mapM_None_elem in E1 as (rel & Hr%under_files & E). pose proof (process_dep_spec d c s base rel Hr) as Hp. by rewrite E in Hp.
  - intros H. assert (forall rel, file_under d base rel -> process_dep d (sm_content s) (logo_name c) base rel = None -> mapM (process_dep d (sm_content s) (logo_name c) base)
      (filter (fun rel => fd_file d (under base rel) = true) (fd_under d base)) = None) as Hn. { intros rel Hr E. apply mapM_None_elem. exists rel. split; [by apply under_files|done]. }
    assert (forall rel, file_under d base rel -> process_dep d (sm_content s) (logo_name c) base rel = None -> (l1 ← mapM (process_dep d (sm_content s) (logo_name c) base) (filter (fun rel => fd_file d (under base rel) = true) (fd_under d base));
      l2 ← mapM (fun n => provided d (relative [n]) (gen_file base n)) (filter (fun n => fd_file d (gen_file base n) = true) gen_files); Some (concat l1 ++ concat l2)) = None) as Hr.
    { intros rel H1 H2. by rewrite (Hn rel H1 H2). }
    destruct H as [q p Hd Hp|rel Hf He Hl Hc|q p Hd Hi].
    + remember (OFile p) as o eqn:Eo. destruct Hd as [rel Hf He Hu|rel Hf He Hl|rel Hf Ha He|n Hg Hf]; [done|..]; injection Eo as <-.
      * apply (Hr rel Hf). unfold process_dep. unfold has_ext in He. rewrite decide_False by (rewrite He; done). rewrite decide_True by done. unfold provided. rewrite Hp.
        destruct (decide _) as [|Hnl]; [done|]. rewrite logo_spec in Hnl. destruct Hl as [?|Hm]; [done|]. pose proof (valid_spec d (under base rel)) as Hv. destruct (valid_pdf d (under base rel)) as [[]|]; [done| |done].
        destruct Hv as [_ Hv]. apply Hv in Hm. done.
      * apply (Hr rel Hf). unfold process_dep. rewrite decide_False by done. rewrite decide_False by done. unfold provided. by rewrite Hp.
      * destruct (mapM (process_dep _ _ _ _) _); [|done]. cbn [mbind option_bind]. assert (mapM (fun n => provided d (relative [n]) (gen_file base n)) (filter (fun n => fd_file d (gen_file base n) = true) gen_files) = None) as ->; [|done].
        apply mapM_None_elem. exists n. split; [by apply elem_of_list_filter|]. unfold provided. by rewrite Hp.
    + apply (Hr rel Hf). unfold process_dep. unfold has_ext in He. rewrite decide_False by (rewrite He; done). rewrite decide_True by done. destruct (decide _) as [Hy|_]; [by apply logo_spec in Hy|].
      unfold valid_pdf. by rewrite Hc.
    + remember (OFigure p) as o eqn:Eo. destruct Hd as [rel Hf He Hu|rel Hf He Hl|rel Hf Ha He|n Hg Hf]; [injection Eo as <-|done..]. apply (Hr rel Hf). unfold process_dep. rewrite decide_True by done.
      apply contains_spec in Hu. rewrite Hu. by rewrite Hi.
Qed.

(** ** The figures *)
(** asy has the source and the other files of its directory, at the same paths from it *)
Theorem C83_figure d p l : asy_inputs d p = Some l -> exists dir, parent p = Some dir /\
  forall q f, (q, f) ∈ l <-> (q = relative ["tm-compilation.asy"] /\ f = p) \/ exists rel, rel ∈ fd_under d dir /\ q = relative rel /\ f = under dir rel /\ f <> p /\ fd_dir d f = false.
Proof.
  unfold asy_inputs. destruct (file_name p) as [n|]; [|done]. destruct (parent p) as [dir|]; [|done]. destruct (_ && _); [|done]. intros [= <-]. exists dir. split; [done|]. intros q f.
  rewrite elem_of_cons. unfold asy_deps. rewrite elem_of_list_fmap. split.
  - intros [[= -> ->]|(rel & [= -> ->] & [[H1 H2] H3]%elem_of_list_filter)]; [by left|right]. by exists rel.
  - intros [[-> ->]|(rel & H & -> & -> & H1 & H2)]; [by left|right]. exists rel. split; [done|]. by apply elem_of_list_filter.
Qed.
Theorem C83_figure_fails d p dir n : file_name p = Some n -> parent p = Some dir -> asy_inputs d p = None <->
  fd_provides d p = false \/ exists rel, rel ∈ fd_under d dir /\ under dir rel <> p /\ fd_dir d (under dir rel) = false /\ fd_provides d (under dir rel) = false.
Proof.
  intros H1 H2. unfold asy_inputs. rewrite H1, H2. destruct (fd_provides d p); cbn [andb]; [|split; [by left|done]].
  destruct (forallb _ _) eqn:E.
  - split; [done|]. intros [|(rel & A & B & C & D)]; [done|]. rewrite forallb_forall in E. specialize (E (relative rel, under dir rel)). cbn [snd] in E. rewrite E in D; [done|].
    apply elem_of_list_In. unfold asy_deps. apply elem_of_list_fmap. exists rel. split; [done|]. by apply elem_of_list_filter.
  - split; [|done]. intros _. right. assert (~ Forall (fun x => fd_provides d (snd x) = true) (asy_deps d p dir)) as Hn.
    { intros Hf. assert (forallb (fun x => fd_provides d (snd x)) (asy_deps d p dir) = true); [|congruence]. apply forallb_forall. intros x Hx. rewrite List.Forall_forall in Hf. by apply Hf. }
    apply not_Forall_Exists, stdpp.list.Exists_exists in Hn as ([q f] & Hx & Hp); [|apply _]. unfold asy_deps in Hx. apply elem_of_list_fmap in Hx as (rel & [= -> ->] & [[A B] C]%elem_of_list_filter).
    exists rel. cbn [compose snd] in Hp. split_and!; [done|done|done|]. by destruct (fd_provides d (under dir rel)).
Qed.

(** ** The booklet *)
Lemma template_some fd data l : template_inputs fd data = Some l -> exists r, mapM (fun rel => provided fd (relative rel) (under (child data "statements") rel))
  (filter (fun rel => fd_file fd (under (child data "statements") rel) = true) (fd_under fd (child data "statements"))) = Some r /\ concat r = l.
Proof. unfold template_inputs. cbn zeta. destruct (mapM _ _) as [r|]; [|done]. intros [= <-]. by exists r. Qed.
Lemma inputs_spec d fd data cwd b l : booklet_inputs d fd data cwd b = Some l -> forall q o, (q, o) ∈ l <-> wanted d fd data cwd b q o.
Proof.
  unfold booklet_inputs. destruct (file_name (bk_dest b)) as [fn|]; [|done]. intros H. apply bind_Some in H as (l1 & H1 & H). apply bind_Some in H as (l2 & H2 & H). injection H as <-. intros q o.
  rewrite elem_of_cons, elem_of_app, (mapM_concat _ _ _ H1). apply template_some in H2 as (r & E2 & <-). rewrite (mapM_concat _ _ _ E2). split.
  - intros [[= -> ->]|[(s & y & Hs & E & Hy)|(rel & y & Hr%under_files & E & Hy)]].
    + apply wanted_main.
    + unfold statement_inputs in E. destruct (build_deps fd (bk_config b) s) as [deps|] eqn:Ed; [|done]. injection E as <-. apply C83_deps in Ed as (base & Hb & Hd).
      apply elem_of_cons in Hy as [[= -> ->]|([q' o'] & [= -> ->] & Hin)%elem_of_list_fmap]; [by apply wanted_statement|]. cbn [fst snd]. eapply wanted_dep; [done|done|by apply Hd].
    + unfold provided in E. destruct (fd_provides fd _); [|done]. injection E as <-. apply elem_of_list_singleton in Hy as [= -> ->]. by apply wanted_template.
  - assert (forall s, s ∈ bk_statements b -> exists deps, build_deps fd (bk_config b) s = Some deps /\ statement_inputs fd (bk_config b) s = Some ((place s (relative ["statement.tex"]), OText (statement_tex s)) :: map (fun x => (place s (fst x), snd x)) deps)) as Hs.
    { intros s Hs. apply mapM_Some in H1. apply elem_of_list_lookup in Hs as [i Hi]. destruct (Forall2_lookup_l _ _ _ _ _ H1 Hi) as (y & _ & E).
      unfold statement_inputs in *. destruct (build_deps fd (bk_config b) s) as [deps|]; [|done]. by exists deps. }
    intros [|s Hin|s base q' o' Hin Hb Hd|rel Hf]; [by left|right; left|right; left|right; right].
    + destruct (Hs s Hin) as (deps & _ & E). eexists s, _. split_and!; [done|exact E|left].
    + destruct (Hs s Hin) as (deps & E1 & E). eexists s, _. split_and!; [done|exact E|right]. apply elem_of_list_fmap. exists (q', o'). split; [done|]. apply C83_deps in E1 as (base' & Hb' & Hdd).
      apply Hdd. congruence.
    + exists rel. apply under_files in Hf. destruct (provided fd (relative rel) (under (child data "statements") rel)) as [y|] eqn:E.
      * exists y. split_and!; [done|done|]. unfold provided in E. destruct (fd_provides fd _); [|done]. injection E as <-. left.
      * exfalso. assert (mapM (fun rel => provided fd (relative rel) (under (child data "statements") rel)) (filter (fun rel => fd_file fd (under (child data "statements") rel) = true) (fd_under fd (child data "statements"))) = None) as Hn; [|congruence].
        apply mapM_None_elem. by exists rel.
Qed.
(** Each path of the sandbox of latexmk has one file, that should be there; all the paths that should be there are there *)
Theorem C83_sandbox d fd data cwd b l : booklet_inputs d fd data cwd b = Some l ->
  NoDup (sandbox l).*1 /\ (forall q o, (q, o) ∈ sandbox l -> wanted d fd data cwd b q o) /\ (forall q o, wanted d fd data cwd b q o -> exists o', (q, o') ∈ sandbox l).
Proof.
  intros H. pose proof (inputs_spec d fd data cwd b l H) as Hw. split_and!; [apply sandbox_once| |].
  - intros q o Hq%sandbox_sub. by apply Hw.
  - intros q o Hq%Hw. by eapply sandbox_has.
Qed.
(** If two files are not wanted at the same path, the sandbox is exactly what is wanted *)
Theorem C83_exact d fd data cwd b l : booklet_inputs d fd data cwd b = Some l -> (forall q o o', wanted d fd data cwd b q o -> wanted d fd data cwd b q o' -> o = o') ->
  forall q o, (q, o) ∈ sandbox l <-> wanted d fd data cwd b q o.
Proof.
  intros H Hu q o. destruct (C83_sandbox d fd data cwd b l H) as (_ & H1 & H2). split; [apply H1|]. intros Hw. destruct (H2 q o Hw) as [o' Ho']. rewrite (Hu q o o' Hw (H1 q o' Ho')). done.
Qed.
(** The files of the template replace all the others *)
Theorem C83_template d fd data cwd b l rel : booklet_inputs d fd data cwd b = Some l -> NoDup (fd_under fd (child data "statements")) -> file_under fd (child data "statements") rel ->
  (relative rel, OFile (under (child data "statements") rel)) ∈ sandbox l.
Proof.
  intros H Hn Hf. unfold booklet_inputs in H. destruct (file_name (bk_dest b)) as [fn|]; [|done]. apply bind_Some in H as (l1 & _ & H). apply bind_Some in H as (l2 & H2 & H). injection H as <-.
  apply template_some in H2 as (r & E2 & <-).
  assert (concat r = map (fun rel => (relative rel, OFile (under (child data "statements") rel))) (filter (fun rel => fd_file fd (under (child data "statements") rel) = true) (fd_under fd (child data "statements")))) as ->.
  { apply mapM_Some in E2. induction E2 as [|x y xs ys Hx _ IH]; [done|]. cbn [concat map]. rewrite IH. unfold provided in Hx. destruct (fd_provides fd _); [|done]. by injection Hx as <-. }
  apply under_files in Hf. assert (NoDup (filter (fun rel => fd_file fd (under (child data "statements") rel) = true) (fd_under fd (child data "statements")))) as HN by by apply stdpp.list.NoDup_filter.
  apply elem_of_list_split in Hf as (f1 & f2 & E). rewrite E in *. apply sandbox_last.
  exists ((relative ["booklet.tex"], OText (booklet_tex d cwd b)) :: concat l1 ++ map (fun rel => (relative rel, OFile (under (child data "statements") rel))) f1),
    (map (fun rel => (relative rel, OFile (under (child data "statements") rel))) f2). split.
  - rewrite map_app. cbn [map app]. by rewrite <- app_assoc.
  - intros ([? ?] & E1 & (rel' & [= -> ->] & Hin)%elem_of_list_fmap)%elem_of_list_fmap. cbn [fst] in E1. injection E1 as <-. apply stdpp.list.NoDup_app in HN as (_ & _ & HN). inversion_clear HN as [|? ? H3 _]. done.
Qed.
Lemma with_ext_rel rel : rel <> [] -> Forall plain rel -> exists n, with_ext (relative rel) "pdf" = relative (removelast rel ++ [n +:+ ".pdf"]).
Proof.
  intros Hne Hp. destruct rel as [|x rel _] using rev_ind; [done|]. apply Forall_app in Hp as [_ Hp]. apply Forall_cons in Hp as [(H1 & H2 & _) _].
  unfold with_ext, relative, file_name. cbn [p_comps p_abs]. rewrite last_snoc. rewrite decide_False by (intros [?|?]; done). by eexists.
Qed.
Lemma ends_pdf n m : n +:+ ".pdf" = m -> last (chars m) = Some "f"%char.
Proof. intros <-. rewrite chars_app. change (chars ".pdf") with (chars ".pd" ++ ["f"%char]). rewrite app_assoc. apply last_snoc. Qed.
Lemma filter_plain (l : list string) : Forall (fun c => c <> ".") l -> filter (fun c => c <> ".") l = l.
Proof. induction 1 as [|c l H _ IH]; [done|]. rewrite filter_cons, decide_True by done. by rewrite IH. Qed.
Lemma dep_path d c s base q o : good_files d -> stmt_dep d c s base q o -> exists l, l <> [] /\ q = relative l /\ filter (fun c => c <> ".") l = l /\
  (l = ["statement.tex"] -> file_under d base ["statement.tex"]).
Proof.
  intros Hg. assert (forall rel, rel ∈ fd_under d base -> rel <> [] /\ filter (fun c => c <> ".") rel = rel) as Hr.
  { intros rel [H1 H2]%Hg. split; [done|]. apply filter_plain. eapply Forall_impl; [exact H2|]. by intros x (? & _). }
  intros [rel Hf He Hu|rel Hf He Hl|rel Hf Ha He|n Hn Hf].
  - destruct (Hg _ _ (proj1 Hf)) as [H1 H2]. destruct (with_ext_rel rel H1 H2) as [n ->]. exists (removelast rel ++ [n +:+ ".pdf"]). split_and!; [by destruct (removelast rel)|done| |].
    + apply filter_plain. apply Forall_app. split.
      * apply List.Forall_forall. intros x Hx. rewrite List.Forall_forall in H2. destruct (H2 x) as (? & _); [|done].
        clear -Hx. induction rel as [|y rel IH]; [done|]. destruct rel as [|z rel]; [done|]. destruct Hx as [->|Hx]; [by left|right; by apply IH].
      * constructor; [|constructor]. intros E%ends_pdf. done.
    + intros E. change ["statement.tex"] with ([] ++ ["statement.tex"]) in E. apply app_inj_tail in E as [_ E%ends_pdf]. done.
  - exists rel. destruct (Hr _ (proj1 Hf)) as [H1 H2]. split_and!; [done|done|done|by intros <-].
  - exists rel. destruct (Hr _ (proj1 Hf)) as [H1 H2]. split_and!; [done|done|done|by intros <-].
  - exists [n]. unfold gen_files in Hn. rewrite !elem_of_cons in Hn. destruct Hn as [->|[->|[->|Hn%elem_of_nil]]]; done.
Qed.
Lemma same_name (l : list statement) s s' : NoDup (map (fun s => sm_name (sm_config s)) l) -> s ∈ l -> s' ∈ l -> sm_name (sm_config s) = sm_name (sm_config s') -> s = s'.
Proof.
  intros HN [i Hi]%elem_of_list_lookup [j Hj]%elem_of_list_lookup E. assert (i = j) as ->; [|congruence].
  eapply (NoDup_lookup _ _ _ (sm_name (sm_config s)) HN); [change (map ?f l) with (f <$> l); rewrite list_lookup_fmap, Hi; done|].
  change (map ?f l) with (f <$> l). rewrite list_lookup_fmap, Hj. cbn. by rewrite E.
Qed.
(** The source of the booklet and those of the statements are the generated ones, if the statements have different names and their directories have no file
    called statement.tex *)
Theorem C83_statement d fd data cwd b l : good_files fd -> booklet_inputs d fd data cwd b = Some l ->
  NoDup (map (fun s => sm_name (sm_config s)) (bk_statements b)) -> Forall (fun s => plain (sm_name (sm_config s))) (bk_statements b) ->
  (forall s base, s ∈ bk_statements b -> parent (sm_path s) = Some base -> ~ file_under fd base ["statement.tex"]) ->
  (forall rel, file_under fd (child data "statements") rel -> rel <> ["booklet.tex"] /\ forall s, s ∈ bk_statements b -> rel <> [sm_name (sm_config s); "statement.tex"]) ->
  (relative ["booklet.tex"], OText (booklet_tex d cwd b)) ∈ sandbox l /\
  forall s, s ∈ bk_statements b -> (relative [sm_name (sm_config s); "statement.tex"], OText (statement_tex s)) ∈ sandbox l.
Proof.
  intros Hg H HN Hp Hs Ht. pose proof (C83_sandbox d fd data cwd b l H) as (_ & H1 & H2). rewrite stdpp.list.Forall_forall in Hp.
  assert (forall s l, s ∈ bk_statements b -> place s (relative l) = relative (sm_name (sm_config s) :: filter (fun c => c <> ".") l)) as Hpl.
  { intros s k Hin. unfold place, fjoin. by rewrite fpath_of_plain by by apply Hp. }
  split.
  - destruct (H2 _ _ (wanted_main d fd data cwd b)) as [o Ho]. assert (o = OText (booklet_tex d cwd b)) as <-; [|done].
    apply H1 in Ho. remember (relative ["booklet.tex"]) as q eqn:E. destruct Ho as [|s Hin|s base q o Hin Hb Hd|rel Hf]; [done|exfalso..].
    + by rewrite Hpl in E.
    + apply dep_path in Hd as (k & Hk & -> & Hf & _); [|done]. rewrite Hpl, Hf in E by done. by destruct k.
    + injection E as ->. by apply Ht in Hf as [? _].
  - intros s Hin. pose proof (wanted_statement d fd data cwd b s Hin) as Hw. rewrite Hpl in Hw by done. destruct (H2 _ _ Hw) as [o Ho]. assert (o = OText (statement_tex s)) as <-; [|done].
    apply H1 in Ho. change (filter (fun c => c <> ".") ["statement.tex"]) with ["statement.tex"] in Ho. remember (relative [sm_name (sm_config s); "statement.tex"]) as q eqn:E.
    destruct Ho as [|s' Hin'|s' base q o Hin' Hb Hd|rel Hf].
    + done.
    + rewrite Hpl in E by done. injection E as E. by rewrite (same_name _ _ _ HN Hin' Hin E).
    + exfalso. apply dep_path in Hd as (k & Hk & -> & Hf & Hst); [|done]. rewrite Hpl, Hf in E by done. injection E as E ->. by apply (Hs s' base Hin' Hb), Hst.
    + exfalso. injection E as ->. apply Ht in Hf as [_ Hf]. by apply (Hf s Hin).
Qed.

(** ** Examples *)
Definition resolve (p : fpath) : list string := fold_left (fun acc c => if decide (c = "..") then removelast acc else acc ++ [c]) (p_comps p) [].
(** a disk with some files and some links to nothing *)
Definition fdisk (files broken : list (list string)) : files_disk := FilesDisk
  (fun dir => omap (fun f => match after (p_comps dir) f with Some (x :: r) => Some (x :: r) | _ => None end) (files ++ broken))
  (fun p => bool_decide (resolve p ∈ files)) (fun p => false) (fun p => bool_decide (resolve p ∈ files)) (fun p => if bool_decide (resolve p ∈ files) then Some p else None)
  (fun p => bool_decide (resolve p ∈ files)).
Lemma fdisk_good files broken : Forall (Forall plain) (files ++ broken) -> good_files (fdisk files broken).
Proof.
  intros H dir rel (f & Hf & E)%elem_of_list_omap. destruct (after (p_comps dir) f) as [[|x r]|] eqn:Ea; try done. injection E as <-. apply after_app in Ea. subst f. split; [done|].
  rewrite stdpp.list.Forall_forall in H. apply H in Hf. by apply Forall_app in Hf as [_ ?].
Qed.
Definition ex_files : files_disk := fdisk
  [["ct"; "a"; "statement"; "english.tex"]; ["ct"; "a"; "statement"; "english.pdf"]; ["ct"; "a"; "statement"; "img"; "fig.asy"]; ["ct"; "a"; "statement"; "img"; "fig.pdf"];
   ["ct"; "a"; "statement"; "unused.asy"]; ["ct"; "a"; "statement"; "map.pdf"]; ["ct"; "a"; "gen"; "GEN"]; ["ct"; "a"; "sol"; "sol.cpp"]; ["data"; "statements"; "cms-contest.cls"]; ["data"; "x"]] [].
Definition ex_book3 : booklet := a_booklet [a_statement "a" ["@includegraphics{img/fig.pdf}"]].
Example C83_ex_good : good_files ex_files.
Proof. apply fdisk_good. apply (bool_decide_unpack _). vm_compute. exact Logic.I. Qed.
Example C83_ex_sandbox : option_map (fun l => map (fun x => (p_comps x.1, match x.2 with OText _ => "text" | OFile p => show_path p | OFigure p => "figure of " +:+ show_path p end)) (sandbox l))
    (booklet_inputs ex_book ex_files (FPath true ["data"]) (FPath true []) ex_book3) =
  Some [(["cms-contest.cls"], "/data/statements/cms-contest.cls"); (["a"; "GEN"], "/ct/a/statement/../gen/GEN"); (["a"; "map.pdf"], "/ct/a/statement/map.pdf");
        (["a"; "img"; "fig.pdf"], "figure of /ct/a/statement/img/fig.asy"); (["a"; "english.tex"], "/ct/a/statement/english.tex"); (["a"; "statement.tex"], "text"); (["booklet.tex"], "text")].
Proof. vm_compute. reflexivity. Qed.
(** the hypotheses of [C83_statement] *)
Example C83_ex_statement : good_files ex_files /\ is_Some (booklet_inputs ex_book ex_files (FPath true ["data"]) (FPath true []) ex_book3) /\
  NoDup (map (fun s => sm_name (sm_config s)) (bk_statements ex_book3)) /\ Forall (fun s => plain (sm_name (sm_config s))) (bk_statements ex_book3) /\
  (forall s base, s ∈ bk_statements ex_book3 -> parent (sm_path s) = Some base -> ~ file_under ex_files base ["statement.tex"]) /\
  (forall rel, file_under ex_files (child (FPath true ["data"]) "statements") rel -> rel <> ["booklet.tex"] /\ forall s, s ∈ bk_statements ex_book3 -> rel <> [sm_name (sm_config s); "statement.tex"]).
Proof.
  split_and!; [apply C83_ex_good|by vm_compute; eexists|by apply (bool_decide_unpack _); vm_compute|by apply (bool_decide_unpack _); vm_compute| |].
  - intros s base ->%elem_of_list_singleton [= <-] [_ H]. by vm_compute in H.
  - intros rel [H _]. assert (fd_under ex_files (child (FPath true ["data"]) "statements") = [["cms-contest.cls"]]) as E by by vm_compute. rewrite E in H. apply elem_of_list_singleton in H as ->.
    split; [done|]. intros s ->%elem_of_list_singleton. done.
Qed.

(** ** What does not hold *)
(** A statement in the file statement.tex is used as it is: without the environment of the problem *)
Theorem C83_shadow_refuted : let fd := fdisk [["ct"; "a"; "statement"; "statement.tex"]] [] in
  let s := Statement (config_of (a_task "a")) (FPath true ["ct"; "a"; "statement"; "statement.tex"]) (chars "text") in
  good_files fd /\ exists l, booklet_inputs ex_book fd (FPath true ["data"]) (FPath true []) (a_booklet [s]) = Some l /\
    (relative ["a"; "statement.tex"], OFile (FPath true ["ct"; "a"; "statement"; "statement.tex"])) ∈ sandbox l.
Proof.
  cbn zeta. split; [apply fdisk_good; apply (bool_decide_unpack _); vm_compute; exact Logic.I|]. eexists. split; [vm_compute; reflexivity|]. vm_compute. left.
Qed.
(** The file GEN of the statement is not the one in the sandbox, if there is gen/GEN *)
Theorem C83_gen_refuted : let fd := fdisk [["ct"; "a"; "statement"; "english.tex"]; ["ct"; "a"; "statement"; "GEN"]; ["ct"; "a"; "gen"; "GEN"]] [] in
  exists l, booklet_inputs ex_book fd (FPath true ["data"]) (FPath true []) ex_book3 = Some l /\
    wanted ex_book fd (FPath true ["data"]) (FPath true []) ex_book3 (relative ["a"; "GEN"]) (OFile (FPath true ["ct"; "a"; "statement"; "GEN"])) /\
    (relative ["a"; "GEN"], OFile (FPath true ["ct"; "a"; "statement"; ".."; "gen"; "GEN"])) ∈ sandbox l.
Proof.
  cbn zeta. eexists. split_and!; [vm_compute; reflexivity| |vm_compute; left].
  change (relative ["a"; "GEN"]) with (place (a_statement "a" ["@includegraphics{img/fig.pdf}"]) (relative ["GEN"])). eapply wanted_dep; [left|reflexivity|].
  change (FPath true ["ct"; "a"; "statement"; "GEN"]) with (under (FPath true ["ct"; "a"; "statement"]) ["GEN"]). apply dep_file; [split; [vm_compute; right; left|by vm_compute]|by vm_compute|by vm_compute].
Qed.
(** Two tasks with the same name have one statement *)
Theorem C83_name_refuted : exists s1 s2 l, statement_tex s1 <> statement_tex s2 /\ booklet_inputs ex_book ex_files (FPath true ["data"]) (FPath true []) (a_booklet [s1; s2]) = Some l /\
  (relative ["a"; "statement.tex"], OText (statement_tex s2)) ∈ sandbox l /\ forall q, (q, OText (statement_tex s1)) ∉ sandbox l.
Proof.
  exists (a_statement "a" ["one"]), (a_statement "a" ["two"]). eexists. split_and!; [by vm_compute|vm_compute; reflexivity|vm_compute; set_solver|].
  intros q Hq. match type of Hq with _ ∈ ?L => assert (statement_tex (a_statement "a" ["one"]) ∈ omap (fun x : fpath * origin => match x.2 with OText t => Some t | _ => None end) L) as H end.
  { apply elem_of_list_omap. exists (q, OText (statement_tex (a_statement "a" ["one"]))). split; [exact Hq|done]. }
  revert H. apply (bool_decide_unpack _). vm_compute. exact Logic.I.
Qed.
(** A link to nothing is ignored, unless there is a figure in its directory: then there is no booklet *)
Theorem C83_link_refuted : let files := [["ct"; "a"; "statement"; "english.tex"]; ["ct"; "a"; "statement"; "img"; "fig.asy"]] in
  let broken := [["ct"; "a"; "statement"; "img"; "old.png"]] in
  is_Some (booklet_inputs ex_book (fdisk files broken) (FPath true ["data"]) (FPath true []) (a_booklet [a_statement "a" ["text"]])) /\
  is_Some (booklet_inputs ex_book (fdisk files []) (FPath true ["data"]) (FPath true []) ex_book3) /\
  booklet_inputs ex_book (fdisk files broken) (FPath true ["data"]) (FPath true []) ex_book3 = None.
Proof. cbn zeta. split_and!; vm_compute; by try eexists. Qed.
(** A file called tm-compilation.asy is compiled in the place of every figure of its directory *)
Theorem C83_asy_refuted : let fd := fdisk [["s"; "fig.asy"]; ["s"; "tm-compilation.asy"]] [] in
  exists l, asy_inputs fd (FPath true ["s"; "fig.asy"]) = Some l /\ sandbox l = [(relative ["tm-compilation.asy"], FPath true ["s"; "tm-compilation.asy"])].
Proof. cbn zeta. eexists. split; vm_compute; reflexivity. Qed.

Print Assumptions C83_deps.
Print Assumptions C83_deps_fails.
Print Assumptions C83_figure.
Print Assumptions C83_figure_fails.
Print Assumptions C83_sandbox.
Print Assumptions C83_exact.
Print Assumptions C83_template.
Print Assumptions C83_statement.
