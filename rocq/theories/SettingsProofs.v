(** * SettingsProofs: lemmas for [SettingsProps] *)
From Coq Require Import NArith Ascii String.
From stdpp Require Import base list pretty.
From Verif Require Import SettingsModel SettingsSpec.
Local Open Scope string_scope.
Local Open Scope list_scope.

(** ** Fields *)
Lemma silent_filter d names : silent d names <-> filter (fun x : string * node => x.1 ∈ names) d = [].
Proof.
  split.
  - intros H. apply filter_nil_iff || idtac. induction d as [|[k n] d IH]; [done|]. rewrite filter_cons, decide_False; [|eapply H; left].
    apply IH. intros k' n' Hin. eapply H. right. exact Hin.
  - intros H k n Hin Hk. assert (Hf : (k, n) ∈ filter (fun x : string * node => x.1 ∈ names) d) by by apply elem_of_list_filter.
    rewrite H in Hf. by apply elem_of_nil in Hf.
Qed.
Lemma field_silent d names : silent d names <-> field names d = Some None.
Proof.
  rewrite silent_filter. unfold field. destruct (filter _ d) as [|x [|x' l]] eqn:Hf; split; intros H; try done.
Qed.
Lemma silent_app a b names : silent (a ++ b) names <-> silent a names /\ silent b names.
Proof. rewrite !silent_filter, filter_app. split; [intros []%app_eq_nil; done|by intros [-> ->]]. Qed.
Lemma field_says d names n : says d names n <-> field names d = Some (Some n).
Proof.
  split.
  - intros (a & k & b & -> & Hk & Hs). apply silent_app in Hs as [Ha Hb]. apply silent_filter in Ha, Hb. unfold field.
    rewrite filter_app, filter_cons, Ha, Hb, decide_True by done. done.
  - unfold field. destruct (filter _ d) as [|[k n'] [|x' l]] eqn:Hf; intros [= ->].
    induction d as [|[k' n'] d IH]; [done|]. rewrite filter_cons in Hf. case_decide as Hk.
    + injection Hf as -> -> Hf. exists [], k, d. split; [done|]. split; [done|]. by apply silent_filter.
    + destruct (IH Hf) as (a & k0 & b & -> & Hk0 & Hs). exists ((k', n') :: a), k0, b. split; [done|]. split; [done|].
      apply silent_filter in Hs. apply silent_filter. cbn [app]. rewrite filter_cons, decide_False; done.
Qed.
Lemma field_app_ignored names a k n b : k ∉ names -> field names (a ++ (k, n) :: b) = field names (a ++ b).
Proof. intros Hk. unfold field. rewrite !filter_app, filter_cons, decide_False; done. Qed.

Lemma required_says {A} names (read : node -> option A) d x : required names read d = Some x <-> exists n, says d names n /\ read n = Some x.
Proof.
  unfold required. split.
  - intros (v & Hv & (n & -> & Hr)%bind_Some)%bind_Some. exists n. by rewrite field_says.
  - intros (n & Hs%field_says & Hr). by rewrite Hs.
Qed.
Lemma defaulted_says {A} names (a : A) (read : node -> option A) d x : defaulted names a read d = Some x <->
  (silent d names /\ x = a) \/ exists n, says d names n /\ read n = Some x.
Proof.
  unfold defaulted. split.
  - intros (v & Hv & H)%bind_Some. destruct v as [n|]; [right; exists n; by rewrite field_says|left]. rewrite field_silent. by simplify_eq.
  - intros [[Hs%field_silent ->]|(n & Hs%field_says & Hr)]; by rewrite Hs.
Qed.
Lemma is_null_spec n : is_null n = true <-> nothing n.
Proof.
  unfold nothing, is_null, null_text. destruct n as [t []|l|l]; split; try (intros (t' & [=] & _); done); try done.
  - intros H%bool_decide_eq_true. by exists t.
  - intros (t' & [= <-] & H). by apply bool_decide_eq_true.
Qed.
Lemma optional_says {A} names (read : node -> option A) d x : optional names read d = Some x <->
  ((silent d names \/ exists n, says d names n /\ nothing n) /\ x = None) \/ exists n a, says d names n /\ ~ nothing n /\ read n = Some a /\ x = Some a.
Proof.
  unfold optional. rewrite defaulted_says. unfold read_option. split.
  - intros [[Hs ->]|(n & Hs & Hr)]; [left; split; [by left|done]|]. destruct (is_null n) eqn:Hn.
    + left. split; [right; exists n; split; [done|by apply is_null_spec]|by simplify_eq].
    + right. apply fmap_Some in Hr as (a & Hr & ->). exists n, a. split; [done|]. split; [|done]. intros H%is_null_spec. congruence.
  - intros [[[Hs|(n & Hs & Hn)] ->]|(n & a & Hs & Hn & Hr & ->)]; [by left| |].
    + right. exists n. split; [done|]. apply is_null_spec in Hn. by rewrite Hn.
    + right. exists n. split; [done|]. destruct (is_null n) eqn:Hx; [by apply is_null_spec in Hx|]. by rewrite Hr.
Qed.

(** ** Numbers *)
Lemma digit_char x : (x < 10)%N -> digit_value (pretty_N_char x) = Some x.
Proof.
  intros H. assert (E : x = 0%N \/ x = 1%N \/ x = 2%N \/ x = 3%N \/ x = 4%N \/ x = 5%N \/ x = 6%N \/ x = 7%N \/ x = 8%N \/ x = 9%N) by lia.
  repeat (destruct E as [E|E]; [subst; by vm_compute|]). subst. by vm_compute.
Qed.
Lemma decimal_go x : forall t, decimal 0 (pretty_N_go x t) = decimal x t.
Proof.
  induction (N.lt_wf_0 x) as [x _ IH]. intros t. destruct (decide (x = 0)%N) as [->|Hx]; [done|].
  rewrite pretty_N_go_step by lia. rewrite IH by (apply N.div_lt; lia). cbn [decimal].
  rewrite digit_char by (apply N.mod_lt; lia). change (decimal (10 * (x `div` 10) + x `mod` 10) t = decimal x t). by rewrite <- N.div_mod by lia.
Qed.
Lemma decimal_pretty (n : N) : decimal 0 (pretty n) = Some n.
Proof. unfold pretty, pretty_N. case_decide as Hn; [subst; by vm_compute|]. rewrite decimal_go. done. Qed.
Lemma pretty_not_null (n : N) : null_text (pretty n) = false.
Proof.
  unfold null_text. apply bool_decide_eq_false. intros Hin. pose proof (decimal_pretty n) as H.
  assert (Hb : decimal 0 (pretty n) = None \/ pretty n = "").
  { repeat (apply elem_of_cons in Hin as [->|Hin]; [first [by right|by left; vm_compute]|]). by apply elem_of_nil in Hin. }
  destruct Hb as [Hb|Hb]; [congruence|]. revert Hb. unfold pretty, pretty_N. case_decide as Hn; [done|]. intros Hb.
  pose proof (decimal_go n "") as Hg. rewrite Hb in Hg. cbn in Hg. congruence.
Qed.

(** ** What is written is read *)
Section rt.
  Context (y : yaml_syntax) (Hy : syntax_ok y).
  Lemma rt_uint limit n : (n < limit)%N -> read_uint y limit (write_uint n) = Some n.
  Proof. intros H. cbn. rewrite (uint_ok _ Hy). cbn. by rewrite decide_True. Qed.
  Lemma rt_uint_opt limit o : (forall n, o = Some n -> (n < limit)%N) -> read_option (read_uint y limit) (write_option write_uint o) = Some o.
  Proof.
    intros H. destruct o as [n|]; [|done]. unfold read_option. cbn [write_option]. unfold write_uint at 1. cbn [is_null]. rewrite pretty_not_null.
    by rewrite rt_uint by auto.
  Qed.
  Lemma rt_string t : read_string (write_string y t) = Some t.
  Proof. done. Qed.
  Lemma rt_string_opt o : read_option read_string (write_option (write_string y) o) = Some o.
  Proof.
    destruct o as [t|]; [|done]. unfold read_option. cbn [write_option]. unfold write_string at 1. cbn [is_null].
    destruct (plain_ok y t) eqn:Hp; [|done]. destruct (null_text t) eqn:Hn; [|done]. unfold null_text in Hn. apply bool_decide_eq_true in Hn.
    apply (quotes_ok _ Hy) in Hn. congruence.
  Qed.
  Lemma rt_float x : survives y x -> read_float y (write_float y x) = Some x.
  Proof. by intros [H _]. Qed.
  Lemma rt_float_opt o : (forall x, o = Some x -> survives y x) -> read_option (read_float y) (write_option (write_float y) o) = Some o.
  Proof.
    intros H. destruct o as [x|]; [|done]. destruct (H x eq_refl) as [H1 H2]. unfold read_option. cbn.
    unfold null_text. rewrite bool_decide_eq_false_2 by done. by rewrite H1.
  Qed.
  Lemma rt_bool b : read_bool (write_bool b) = Some b.
  Proof. by destruct b. Qed.
  Lemma rt_score_opt o : read_option read_score_type (write_option (write_score_type y) o) = Some o.
  Proof. destruct o as [[]|]; [| |done]; unfold read_option, write_option, write_score_type, write_string, is_null; by destruct (plain_ok y _). Qed.
  Lemma rt_parameters l : Forall (fun p => survives y p.1) l -> read_parameters y (write_parameters y l) = Some l.
  Proof.
    induction 1 as [|[x t] l [Hx _] _ IH]; [done|]. cbn in *. rewrite Hx. cbn. by rewrite IH.
  Qed.
  Definition in_range (s : settings) : Prop :=
    (s_precision s < u64)%N /\ (forall n, s_memory s = Some n -> (n < u64)%N) /\ (forall n, s_difficulty s = Some n -> (n < u8)%N) /\
    (forall n, s_syllabus s = Some n -> (n < u8)%N) /\ (forall n, s_processes s = Some n -> (n < u8)%N).
  Definition floats_ok (s : settings) : Prop :=
    (forall x, s_time s = Some x -> survives y x) /\ (forall l, s_parameters s = Some l -> Forall (fun p => survives y p.1) l).
  Lemma rt_settings s : in_range s -> floats_ok s -> read_yaml y (write_yaml y s) = Some s.
  Proof.
    intros (R1 & R2 & R3 & R4 & R5) [F1 F2]. destruct s as [name title score pars prec language time memory oo infile outfile diff syl procs user sm tm pub fb].
    cbn [s_precision s_memory s_difficulty s_syllabus s_processes s_time s_parameters] in *. unfold read_yaml.
    set (d := write_yaml y _).
    assert (E : required ["name"; "nome_breve"] read_string d = Some name).
    { unfold optional, required, defaulted. assert (E : field ["name"; "nome_breve"] d = Some (Some (write_string y name))) by (unfold d, write_yaml; by destruct pars). rewrite E. cbn [mbind option_bind]. first [by rewrite rt_string|by rewrite rt_score_opt|by rewrite rt_uint|by rewrite rt_bool|by rewrite rt_string_opt|by rewrite rt_float_opt|by rewrite rt_uint_opt]. }
    rewrite E; clear E; cbn [mbind option_bind].
    assert (E : required ["title"; "nome"] read_string d = Some title).
    { unfold optional, required, defaulted. assert (E : field ["title"; "nome"] d = Some (Some (write_string y title))) by (unfold d, write_yaml; by destruct pars). rewrite E. cbn [mbind option_bind]. first [by rewrite rt_string|by rewrite rt_score_opt|by rewrite rt_uint|by rewrite rt_bool|by rewrite rt_string_opt|by rewrite rt_float_opt|by rewrite rt_uint_opt]. }
    rewrite E; clear E; cbn [mbind option_bind].
    assert (E : optional ["score_type"] read_score_type d = Some score).
    { unfold optional, required, defaulted. assert (E : field ["score_type"] d = Some (Some (write_option (write_score_type y) score))) by (unfold d, write_yaml; by destruct pars). rewrite E. cbn [mbind option_bind]. first [by rewrite rt_string|by rewrite rt_score_opt|by rewrite rt_uint|by rewrite rt_bool|by rewrite rt_string_opt|by rewrite rt_float_opt|by rewrite rt_uint_opt]. }
    rewrite E; clear E; cbn [mbind option_bind].
    assert (E : optional ["score_type_parameters"] (read_parameters y) d = Some pars).
    { unfold d, write_yaml, optional, defaulted. cbn [s_parameters]. destruct pars as [l|]; [|done].
      match goal with |- context [field ["score_type_parameters"] ?x] => change (field ["score_type_parameters"] x) with (Some (Some (write_parameters y l))) end.
      cbn [mbind option_bind]. unfold read_option. change (is_null (write_parameters y l)) with false. rewrite rt_parameters by auto. done. }
    rewrite E; clear E; cbn [mbind option_bind].
    assert (E : defaulted ["score_precision"] 0%N (read_uint y u64) d = Some prec).
    { unfold optional, required, defaulted. assert (E : field ["score_precision"] d = Some (Some (write_uint prec))) by (unfold d, write_yaml; by destruct pars). rewrite E. cbn [mbind option_bind]. first [by rewrite rt_string|by rewrite rt_score_opt|by rewrite rt_uint|by rewrite rt_bool|by rewrite rt_string_opt|by rewrite rt_float_opt|by rewrite rt_uint_opt]. }
    rewrite E; clear E; cbn [mbind option_bind].
    assert (E : optional ["primary_language"] read_string d = Some language).
    { unfold optional, required, defaulted. assert (E : field ["primary_language"] d = Some (Some (write_option (write_string y) language))) by (unfold d, write_yaml; by destruct pars). rewrite E. cbn [mbind option_bind]. first [by rewrite rt_string|by rewrite rt_score_opt|by rewrite rt_uint|by rewrite rt_bool|by rewrite rt_string_opt|by rewrite rt_float_opt|by rewrite rt_uint_opt]. }
    rewrite E; clear E; cbn [mbind option_bind].
    assert (E : optional ["time_limit"; "timeout"] (read_float y) d = Some time).
    { unfold optional, required, defaulted. assert (E : field ["time_limit"; "timeout"] d = Some (Some (write_option (write_float y) time))) by (unfold d, write_yaml; by destruct pars). rewrite E. cbn [mbind option_bind]. first [by rewrite rt_string|by rewrite rt_score_opt|by rewrite rt_uint|by rewrite rt_bool|by rewrite rt_string_opt|by rewrite rt_float_opt|by rewrite rt_uint_opt]. }
    rewrite E; clear E; cbn [mbind option_bind].
    assert (E : optional ["memory_limit"; "memlimit"] (read_uint y u64) d = Some memory).
    { unfold optional, required, defaulted. assert (E : field ["memory_limit"; "memlimit"] d = Some (Some (write_option write_uint memory))) by (unfold d, write_yaml; by destruct pars). rewrite E. cbn [mbind option_bind]. first [by rewrite rt_string|by rewrite rt_score_opt|by rewrite rt_uint|by rewrite rt_bool|by rewrite rt_string_opt|by rewrite rt_float_opt|by rewrite rt_uint_opt]. }
    rewrite E; clear E; cbn [mbind option_bind].
    assert (E : defaulted ["output_only"] false read_bool d = Some oo).
    { unfold optional, required, defaulted. assert (E : field ["output_only"] d = Some (Some (write_bool oo))) by (unfold d, write_yaml; by destruct pars). rewrite E. cbn [mbind option_bind]. first [by rewrite rt_string|by rewrite rt_score_opt|by rewrite rt_uint|by rewrite rt_bool|by rewrite rt_string_opt|by rewrite rt_float_opt|by rewrite rt_uint_opt]. }
    rewrite E; clear E; cbn [mbind option_bind].
    assert (E : defaulted ["infile"] "input.txt" read_string d = Some infile).
    { unfold optional, required, defaulted. assert (E : field ["infile"] d = Some (Some (write_string y infile))) by (unfold d, write_yaml; by destruct pars). rewrite E. cbn [mbind option_bind]. first [by rewrite rt_string|by rewrite rt_score_opt|by rewrite rt_uint|by rewrite rt_bool|by rewrite rt_string_opt|by rewrite rt_float_opt|by rewrite rt_uint_opt]. }
    rewrite E; clear E; cbn [mbind option_bind].
    assert (E : defaulted ["outfile"] "output.txt" read_string d = Some outfile).
    { unfold optional, required, defaulted. assert (E : field ["outfile"] d = Some (Some (write_string y outfile))) by (unfold d, write_yaml; by destruct pars). rewrite E. cbn [mbind option_bind]. first [by rewrite rt_string|by rewrite rt_score_opt|by rewrite rt_uint|by rewrite rt_bool|by rewrite rt_string_opt|by rewrite rt_float_opt|by rewrite rt_uint_opt]. }
    rewrite E; clear E; cbn [mbind option_bind].
    assert (E : optional ["difficulty"] (read_uint y u8) d = Some diff).
    { unfold optional, required, defaulted. assert (E : field ["difficulty"] d = Some (Some (write_option write_uint diff))) by (unfold d, write_yaml; by destruct pars). rewrite E. cbn [mbind option_bind]. first [by rewrite rt_string|by rewrite rt_score_opt|by rewrite rt_uint|by rewrite rt_bool|by rewrite rt_string_opt|by rewrite rt_float_opt|by rewrite rt_uint_opt]. }
    rewrite E; clear E; cbn [mbind option_bind].
    assert (E : optional ["syllabuslevel"] (read_uint y u8) d = Some syl).
    { unfold optional, required, defaulted. assert (E : field ["syllabuslevel"] d = Some (Some (write_option write_uint syl))) by (unfold d, write_yaml; by destruct pars). rewrite E. cbn [mbind option_bind]. first [by rewrite rt_string|by rewrite rt_score_opt|by rewrite rt_uint|by rewrite rt_bool|by rewrite rt_string_opt|by rewrite rt_float_opt|by rewrite rt_uint_opt]. }
    rewrite E; clear E; cbn [mbind option_bind].
    assert (E : optional ["num_processes"] (read_uint y u8) d = Some procs).
    { unfold optional, required, defaulted. assert (E : field ["num_processes"] d = Some (Some (write_option write_uint procs))) by (unfold d, write_yaml; by destruct pars). rewrite E. cbn [mbind option_bind]. first [by rewrite rt_string|by rewrite rt_score_opt|by rewrite rt_uint|by rewrite rt_bool|by rewrite rt_string_opt|by rewrite rt_float_opt|by rewrite rt_uint_opt]. }
    rewrite E; clear E; cbn [mbind option_bind].
    assert (E : optional ["user_io"] read_string d = Some user).
    { unfold optional, required, defaulted. assert (E : field ["user_io"] d = Some (Some (write_option (write_string y) user))) by (unfold d, write_yaml; by destruct pars). rewrite E. cbn [mbind option_bind]. first [by rewrite rt_string|by rewrite rt_score_opt|by rewrite rt_uint|by rewrite rt_bool|by rewrite rt_string_opt|by rewrite rt_float_opt|by rewrite rt_uint_opt]. }
    rewrite E; clear E; cbn [mbind option_bind].
    assert (E : optional ["score_mode"] read_string d = Some sm).
    { unfold optional, required, defaulted. assert (E : field ["score_mode"] d = Some (Some (write_option (write_string y) sm))) by (unfold d, write_yaml; by destruct pars). rewrite E. cbn [mbind option_bind]. first [by rewrite rt_string|by rewrite rt_score_opt|by rewrite rt_uint|by rewrite rt_bool|by rewrite rt_string_opt|by rewrite rt_float_opt|by rewrite rt_uint_opt]. }
    rewrite E; clear E; cbn [mbind option_bind].
    assert (E : optional ["token_mode"] read_string d = Some tm).
    { unfold optional, required, defaulted. assert (E : field ["token_mode"] d = Some (Some (write_option (write_string y) tm))) by (unfold d, write_yaml; by destruct pars). rewrite E. cbn [mbind option_bind]. first [by rewrite rt_string|by rewrite rt_score_opt|by rewrite rt_uint|by rewrite rt_bool|by rewrite rt_string_opt|by rewrite rt_float_opt|by rewrite rt_uint_opt]. }
    rewrite E; clear E; cbn [mbind option_bind].
    assert (E : optional ["public_testcases"] read_string d = Some pub).
    { unfold optional, required, defaulted. assert (E : field ["public_testcases"] d = Some (Some (write_option (write_string y) pub))) by (unfold d, write_yaml; by destruct pars). rewrite E. cbn [mbind option_bind]. first [by rewrite rt_string|by rewrite rt_score_opt|by rewrite rt_uint|by rewrite rt_bool|by rewrite rt_string_opt|by rewrite rt_float_opt|by rewrite rt_uint_opt]. }
    rewrite E; clear E; cbn [mbind option_bind].
    assert (E : optional ["feedback_level"] read_string d = Some fb).
    { unfold optional, required, defaulted. assert (E : field ["feedback_level"] d = Some (Some (write_option (write_string y) fb))) by (unfold d, write_yaml; by destruct pars). rewrite E. cbn [mbind option_bind]. first [by rewrite rt_string|by rewrite rt_score_opt|by rewrite rt_uint|by rewrite rt_bool|by rewrite rt_string_opt|by rewrite rt_float_opt|by rewrite rt_uint_opt]. }
    rewrite E; clear E; cbn [mbind option_bind].
    done.
  Qed.
End rt.
