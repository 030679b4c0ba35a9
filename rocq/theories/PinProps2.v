(** * PinProps2: what the small functions mean that the specifications of other properties mention (continued)

    Paths (C68, C81, C83) and the texts of a booklet (C82). *)
From Coq Require Import ZArith Ascii String.
From Verif Require Import LangModel FindModel BookletModel BookletModel2.
From stdpp Require Import base list.

(** ** Paths *)
(** The parent of an entry of a directory is the directory, and its name is its name *)
Theorem C81_parent d n : parent (child d n) = Some d.
Proof. unfold parent, child. destruct d as [a l]. cbn. assert (exists x k, l ++ [n] = x :: k) as (x & k & E) by (destruct l; by eexists _, _). rewrite E. rewrite <- E, removelast_last. done. Qed.
Print Assumptions C81_parent.
Theorem C81_file_name d n : n <> "." -> n <> ".." -> file_name (child d n) = Some n.
Proof. intros H1 H2. unfold file_name, child. cbn. rewrite last_snoc. rewrite decide_False; [done|]. naive_solver. Qed.
Print Assumptions C81_file_name.
(** A path is printed with its components separated by slashes, and a slash before them if it is absolute *)
Theorem C83_show : (forall l, show_path (FPath false l) = String.concat "/" l) /\ (forall l, show_path (FPath true l) = "/" +:+ String.concat "/" l).
Proof. done. Qed.
Print Assumptions C83_show.
Theorem C83_relative l : relative l = FPath false l /\ forall d, under d l = foldl child d l.
Proof.
  split; [done|]. intros [a k]. unfold under. cbn. revert k. induction l as [|x l IH]; intros k; cbn; [by rewrite app_nil_r|].
  change (child (FPath a k) x) with (FPath a (k ++ [x])). rewrite <- IH. by rewrite <- app_assoc.
Qed.
Print Assumptions C83_relative.
(** A path that is joined to another: an absolute one stays; the others are below it *)
Theorem C68_join b p : (p_abs p = true -> fjoin b p = p) /\ (p_abs p = false -> Forall (fun c => c <> ".") (p_comps p) -> fjoin b p = under b (p_comps p)).
Proof.
  unfold fjoin, under. split; [by intros ->|]. intros -> H. do 2 f_equal.
  induction H as [|c l Hc Hl IH]; [done|]. rewrite filter_cons_True by done. by rewrite IH.
Qed.
Print Assumptions C68_join.
(** The extension of a file: what follows the last dot, if it is not the first character *)
Lemma last_dot_app a b : "."%char ∉ b -> last_dot (a ++ "."%char :: b) = Some (a, b).
Proof.
  intros Hb. assert (last_dot b = None) as Hn.
  { clear a. induction b as [|c b IH]; [done|]. rewrite not_elem_of_cons in Hb. destruct Hb as [H1 H2]. cbn. rewrite IH by done. rewrite decide_False by congruence. done. }
  induction a as [|c a IH]; cbn; [by rewrite Hn|]. by rewrite IH.
Qed.
Theorem C83_extension d stem ext : stem <> "" -> "."%char ∉ list_ascii_of_string ext ->
  extension_of (child d (stem +:+ "." +:+ ext)) = list_ascii_of_string ext.
Proof.
  intros Hs He. unfold extension_of.
  assert (chars (stem +:+ "." +:+ ext) = chars stem ++ "."%char :: chars ext) as Hc.
  { clear. induction stem as [|c s IH]; [done|]. change (chars (String c s +:+ "." +:+ ext)) with (c :: chars (s +:+ "." +:+ ext)). rewrite IH. done. }
  assert (exists n, file_name (child d (stem +:+ "." +:+ ext)) = Some n /\ n = stem +:+ "." +:+ ext \/ (stem +:+ "." +:+ ext = "..")) as (n & [[-> ->]|E]).
  { exists (stem +:+ "." +:+ ext). destruct (decide (stem +:+ "." +:+ ext = "..")) as [E|E]; [by right|left]. split; [|done]. apply C81_file_name; [|done].
    intros E'. apply (f_equal chars) in E'. rewrite Hc in E'. destruct stem as [|c s]; [done|]. cbn in E'. injection E' as _ E'. by destruct s. }
  - unfold stem_ext. rewrite Hc, last_dot_app by done. destruct stem as [|c s]; [done|]. done.
  - apply (f_equal chars) in E. rewrite Hc in E. destruct stem as [|c s]; [done|]. cbn in E. injection E as -> E.
    destruct s as [|c' s]; [|cbn in E; injection E as _ E; by destruct s]. cbn in E. injection E as E. destruct ext; [|done].
    unfold file_name, child. cbn. rewrite last_snoc. done.
Qed.
Print Assumptions C83_extension.

(** ** The texts of a booklet *)
Theorem C82_texts : (forall s, or_empty (Some s) = list_ascii_of_string s) /\ or_empty None = [] /\ (forall t, braces t = list_ascii_of_string "{" ++ t ++ list_ascii_of_string "}") /\
  usepackage = list_ascii_of_string "\usepackage".
Proof. done. Qed.
Print Assumptions C82_texts.
