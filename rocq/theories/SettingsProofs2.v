(** * SettingsProofs2: the meaning of the files *)
From Coq Require Import NArith Ascii String.
From stdpp Require Import base list pretty.
From Verif Require Import SettingsModel SettingsSpec SettingsProofs.
Local Open Scope string_scope.
Local Open Scope list_scope.

Lemma read_string_spec n x : read_string n = Some x <-> text_of n x.
Proof. unfold text_of. destruct n; cbn; split; try done; try (by intros [? [=]]). - intros [= ->]. by eexists. - intros [? [= -> _]]. done. Qed.
Lemma read_bool_spec n x : read_bool n = Some x <-> bool_of n x.
Proof.
  unfold bool_of, read_bool. destruct n as [t []| |]; try (split; [done|by intros (? & [=] & _)]). split.
  - intros H. exists t. split; [done|]. case_decide; [by simplify_eq|]. case_decide; by simplify_eq.
  - intros (t' & [= <-] & H). destruct x; [by rewrite decide_True|]. rewrite decide_False, decide_True; [done|done|]. intros H'.
    repeat (apply elem_of_cons in H as [->|H]; [repeat (apply elem_of_cons in H' as [H'|H']; [done|]); by apply elem_of_nil in H'|]). by apply elem_of_nil in H.
Qed.
Lemma read_score_spec n x : read_score_type n = Some x <-> score_type_of n x.
Proof.
  unfold score_type_of, read_score_type, text_of. destruct n as [t p| |]; try (split; [done|by intros (? & [? [=]] & _)]). split.
  - intros H. exists t. split; [by eexists|]. case_decide; [by simplify_eq|]. case_decide; by simplify_eq.
  - intros (t' & [p' Heq] & H). injection Heq as <- <-. destruct x; [by rewrite decide_True|]. rewrite decide_False, decide_True; [done|done|]. intros H'.
    repeat (apply elem_of_cons in H as [->|H]; [repeat (apply elem_of_cons in H' as [H'|H']; [done|]); by apply elem_of_nil in H'|]). by apply elem_of_nil in H.
Qed.
Section meaning.
  Context (y : yaml_syntax).
  Lemma read_float_spec n x : read_float y n = Some x <-> float_of y n x.
  Proof.
    unfold float_of, read_float. destruct n as [t []| |]; try (split; [done|by intros (? & [=] & _)]). split; [intros H; by exists t|by intros (? & [= <-] & H)].
  Qed.
  Lemma read_uint_spec limit n x : read_uint y limit n = Some x <-> uint_of y limit n x.
  Proof.
    unfold uint_of, read_uint. destruct n as [t []| |]; try (split; [done|by intros (? & [=] & _)]). split.
    - intros (x' & Hp & H)%bind_Some. case_decide; simplify_eq. by exists t.
    - intros (? & [= <-] & H & Hl). rewrite H. cbn. by rewrite decide_True.
  Qed.
  Lemma read_parameter_spec n p : read_parameter y n = Some p <-> exists a b, n = YSeq [a; b] /\ float_of y a p.1 /\ text_of b p.2.
  Proof.
    split.
    - intros H. destruct n as [| [|a [|b [|c l]]]|]; try done. cbn in H. apply bind_Some in H as (x & Hx & (t & Ht & [= <-])%bind_Some). exists a, b. split; [done|].
      by rewrite <- read_float_spec, <- read_string_spec.
    - intros (a & b & -> & Ha%read_float_spec & Hb%read_string_spec). cbn. rewrite Ha. cbn. rewrite Hb. cbn. by destruct p.
  Qed.
  Lemma read_parameters_spec n l : read_parameters y n = Some l <-> parameters_are y n l.
  Proof.
    unfold parameters_are, read_parameters. destruct n as [|ns|]; try (split; [done|by intros (? & [=] & _)]). split.
    - intros H%mapM_Some_1. exists ns. split; [done|]. eapply Forall2_impl; [exact H|]. intros a b Hab. by apply read_parameter_spec.
    - intros (ns' & [= <-] & H). apply mapM_Some_2. eapply Forall2_impl; [exact H|]. intros a b Hab. by apply read_parameter_spec.
  Qed.
  Section lift.
    Context {A : Type} (read : node -> option A) (P : node -> A -> Prop) (HP : forall n x, read n = Some x <-> P n x).
    Lemma must_spec d names x : required names read d = Some x <-> must d names P x.
    Proof. rewrite required_says. unfold must. by setoid_rewrite HP. Qed.
    Lemma unless_spec d names a x : defaulted names a read d = Some x <-> unless d names P a x.
    Proof. rewrite defaulted_says. unfold unless, must. by setoid_rewrite HP. Qed.
    Lemma may_spec d names o : optional names read d = Some o <-> may d names P o.
    Proof.
      rewrite optional_says. unfold may, must. destruct o as [x|].
      - split; [intros [[_ [=]]|(n & a & H1 & H2 & H3 & [= <-])]; exists n; split; [done|]; split; [done|by apply HP]|].
        intros (n & H1 & H2 & H3%HP). right. by exists n, x.
      - split; [by intros [[H _]|(n & a & _ & _ & _ & [=])]|intros H; by left].
    Qed.
  End lift.

  Lemma read_yaml_spec d s : read_yaml y d = Some s <-> yaml_means y d s.
  Proof.
    split.
    - unfold read_yaml. intros H.
      apply bind_Some in H as (name & H1 & H). apply bind_Some in H as (title & H2 & H). apply bind_Some in H as (score & H3 & H).
      apply bind_Some in H as (pars & H4 & H). apply bind_Some in H as (prec & H5 & H). apply bind_Some in H as (language & H6 & H).
      apply bind_Some in H as (time & H7 & H). apply bind_Some in H as (memory & H8 & H). apply bind_Some in H as (oo & H9 & H).
      apply bind_Some in H as (infile & H10 & H). apply bind_Some in H as (outfile & H11 & H). apply bind_Some in H as (diff & H12 & H).
      apply bind_Some in H as (syl & H13 & H). apply bind_Some in H as (procs & H14 & H). apply bind_Some in H as (user & H15 & H).
      apply bind_Some in H as (sm & H16 & H). apply bind_Some in H as (tm & H17 & H). apply bind_Some in H as (pub & H18 & H).
      apply bind_Some in H as (fb & H19 & H). injection H as <-. split; cbn [s_name s_title s_score_type s_parameters s_precision s_language s_time s_memory
        s_output_only s_infile s_outfile s_difficulty s_syllabus s_processes s_user_io s_score_mode s_token_mode s_public s_feedback].
      + by apply (must_spec _ _ read_string_spec). + by apply (must_spec _ _ read_string_spec). + by apply (may_spec _ _ read_score_spec).
      + by apply (may_spec _ _ read_parameters_spec). + by apply (unless_spec _ _ (read_uint_spec _)). + by apply (may_spec _ _ read_string_spec).
      + by apply (may_spec _ _ read_float_spec). + by apply (may_spec _ _ (read_uint_spec _)). + by apply (unless_spec _ _ read_bool_spec).
      + by apply (unless_spec _ _ read_string_spec). + by apply (unless_spec _ _ read_string_spec).
      + by apply (may_spec _ _ (read_uint_spec _)). + by apply (may_spec _ _ (read_uint_spec _)). + by apply (may_spec _ _ (read_uint_spec _)).
      + by apply (may_spec _ _ read_string_spec). + by apply (may_spec _ _ read_string_spec). + by apply (may_spec _ _ read_string_spec).
      + by apply (may_spec _ _ read_string_spec). + by apply (may_spec _ _ read_string_spec).
    - intros [H1 H2 H3 H4 H5 H6 H7 H8 H9 H10 H11 H12 H13 H14 H15 H16 H17 H18 H19]. unfold read_yaml.
      apply (must_spec _ _ read_string_spec) in H1 as ->. cbn [mbind option_bind]. apply (must_spec _ _ read_string_spec) in H2 as ->. cbn [mbind option_bind].
      apply (may_spec _ _ read_score_spec) in H3 as ->. cbn [mbind option_bind]. apply (may_spec _ _ read_parameters_spec) in H4 as ->. cbn [mbind option_bind].
      apply (unless_spec _ _ (read_uint_spec _)) in H5. unfold u64. rewrite H5. cbn [mbind option_bind]. apply (may_spec _ _ read_string_spec) in H6 as ->. cbn [mbind option_bind].
      apply (may_spec _ _ read_float_spec) in H7 as ->. cbn [mbind option_bind]. apply (may_spec _ _ (read_uint_spec _)) in H8 as ->. cbn [mbind option_bind].
      apply (unless_spec _ _ read_bool_spec) in H9 as ->. cbn [mbind option_bind]. apply (unless_spec _ _ read_string_spec) in H10 as ->. cbn [mbind option_bind].
      apply (unless_spec _ _ read_string_spec) in H11 as ->. cbn [mbind option_bind].
      apply (may_spec _ _ (read_uint_spec _)) in H12. unfold u8. rewrite H12. cbn [mbind option_bind].
      apply (may_spec _ _ (read_uint_spec _)) in H13 as ->. cbn [mbind option_bind]. apply (may_spec _ _ (read_uint_spec _)) in H14 as ->. cbn [mbind option_bind].
      apply (may_spec _ _ read_string_spec) in H15 as ->. cbn [mbind option_bind]. apply (may_spec _ _ read_string_spec) in H16 as ->. cbn [mbind option_bind].
      apply (may_spec _ _ read_string_spec) in H17 as ->. cbn [mbind option_bind]. apply (may_spec _ _ read_string_spec) in H18 as ->. cbn [mbind option_bind].
      apply (may_spec _ _ read_string_spec) in H19 as ->. cbn [mbind option_bind]. by destruct s.
  Qed.
  Lemma read_orig_spec dir d s : read_orig y dir d = Some s <-> orig_means y dir d s.
  Proof.
    split.
    - unfold read_orig. intros H.
      apply bind_Some in H as (name & H1 & H). apply bind_Some in H as (title & H2 & H). apply bind_Some in H as (score & H3 & H).
      apply bind_Some in H as (prec & H5 & H). apply bind_Some in H as (language & H6 & H).
      apply bind_Some in H as (time & H7 & H). apply bind_Some in H as (memory & H8 & H). apply bind_Some in H as (oo & H9 & H).
      apply bind_Some in H as (infile & H10 & H). apply bind_Some in H as (outfile & H11 & H). apply bind_Some in H as (diff & H12 & H).
      apply bind_Some in H as (syl & H13 & H). apply bind_Some in H as (procs & H14 & H). apply bind_Some in H as (user & H15 & H).
      injection H as <-. split; cbn [s_name s_title s_score_type s_parameters s_precision s_language s_time s_memory
        s_output_only s_infile s_outfile s_difficulty s_syllabus s_processes s_user_io s_score_mode s_token_mode s_public s_feedback].
      + split; [done|]. exists name. by apply (unless_spec _ _ read_string_spec). + by apply (must_spec _ _ read_string_spec).
      + by apply (may_spec _ _ read_score_spec). + done. + by apply (unless_spec _ _ (read_uint_spec _)).
      + exists language. split; [by apply (may_spec _ _ read_string_spec)|by destruct language].
      + exists time. split; [done|]. by apply (must_spec _ _ read_float_spec). + exists memory. split; [done|]. by apply (must_spec _ _ (read_uint_spec _)).
      + by apply (unless_spec _ _ read_bool_spec). + by apply (unless_spec _ _ read_string_spec). + by apply (unless_spec _ _ read_string_spec).
      + by apply (may_spec _ _ (read_uint_spec _)). + by apply (may_spec _ _ (read_uint_spec _)). + by apply (may_spec _ _ (read_uint_spec _)).
      + by apply (may_spec _ _ read_string_spec). + done.
    - intros [[Hn [name H1]] H2 H3 H4 H5 (language & H6 & Hl) (time & Ht & H7) (memory & Hm & H8) H9 H10 H11 H12 H13 H14 H15 (O1 & O2 & O3 & O4)]. unfold read_orig.
      apply (unless_spec _ _ read_string_spec) in H1 as ->. cbn [mbind option_bind]. apply (must_spec _ _ read_string_spec) in H2 as ->. cbn [mbind option_bind].
      apply (may_spec _ _ read_score_spec) in H3 as ->. cbn [mbind option_bind].
      apply (unless_spec _ _ (read_uint_spec _)) in H5. unfold u64. rewrite H5. cbn [mbind option_bind]. apply (may_spec _ _ read_string_spec) in H6 as ->. cbn [mbind option_bind].
      apply (must_spec _ _ read_float_spec) in H7 as ->. cbn [mbind option_bind]. apply (must_spec _ _ (read_uint_spec _)) in H8 as ->. cbn [mbind option_bind].
      apply (unless_spec _ _ read_bool_spec) in H9 as ->. cbn [mbind option_bind]. apply (unless_spec _ _ read_string_spec) in H10 as ->. cbn [mbind option_bind].
      apply (unless_spec _ _ read_string_spec) in H11 as ->. cbn [mbind option_bind].
      apply (may_spec _ _ (read_uint_spec _)) in H12. unfold u8. rewrite H12. cbn [mbind option_bind].
      apply (may_spec _ _ (read_uint_spec _)) in H13 as ->. cbn [mbind option_bind]. apply (may_spec _ _ (read_uint_spec _)) in H14 as ->. cbn [mbind option_bind].
      apply (may_spec _ _ read_string_spec) in H15 as ->. cbn [mbind option_bind]. destruct s; cbn in *; subst. by destruct language.
  Qed.
End meaning.
