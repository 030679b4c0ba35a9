(** * PrintUiRead: a line can be read back *)
From Verif Require Import PrintUiModel PrintUiSpec PrintUiProofs.
From Coq Require Import Ascii String.
From stdpp Require Import list sets.

Section debug.
Context (plain : nat -> N -> bool).
(** ** Literals *)
Lemma clash c s d t x y : str (String c s) ++ x = str (String d t) ++ y -> c = d /\ str s ++ x = str t ++ y.
Proof.
  rewrite !str_cons. cbn [app]. intros E. injection E as E1 E2. split; [|done].
  by rewrite <- (ascii_N_embedding c), <- (ascii_N_embedding d), E1.
Qed.
Ltac nodigit := let H := fresh in intros [H _]; vm_compute in H; by apply H.
Ltac clashes E := repeat (apply clash in E; let C := fresh in destruct E as [C E]; first [discriminate C | clear C]).

Lemma status_tag s1 s2 x y : write_status s1 ++ x = write_status s2 ++ y ->
  (match s1, s2 with Pending, Pending | Started _, Started _ | Finished _ _ _, Finished _ _ _ | Skipped, Skipped => True | _, _ => False end) /\ x = y.
Proof.
  intros E. destruct s1, s2; cbn [write_status] in E; first [by apply lit in E|exfalso; clashes E].
Qed.
Lemma wm_split t1 t2 x y : write_message t1 ++ x = write_message t2 ++ y -> exists x' y', t1 ++ x' = t2 ++ y'.
Proof. unfold write_message. rewrite <- !(assoc_L (++)). eauto. Qed.

(** ** The outcome *)
Lemma exec_read a b : dbg_status plain a ++ str "]" = dbg_status plain b ++ str "]" -> a = b.
Proof.
  intros E. destruct a, b; cbn [dbg_status] in E; rewrite <- ?(assoc_L (++)) in E; try done; try (exfalso; by clashes E).
  - apply lit in E. apply (dec_lit _ _ ")" "") in E as [-> _]; [done|nodigit].
  - apply lit in E. apply (dec_lit _ _ "," " ") in E as [-> E]; [|nodigit]. by apply string_read in E as [-> _].
  - apply lit in E. by apply string_read in E as [-> _].
Qed.
Lemma details_read s1 s2 :
  (match s1, s2 with Pending, Pending | Started _, Started _ | Finished _ _ _, Finished _ _ _ | Skipped, Skipped => True | _, _ => False end) ->
  details plain s1 ++ [10%N] = details plain s2 ++ [10%N] -> said_status s1 = said_status s2.
Proof.
  intros K E. destruct s1, s2; try done; cbn [details said_status] in *; apply app_inv_tail in E; apply lit in E; [by subst|].
  by apply exec_read in E as ->.
Qed.
Lemma captured_none title what : captured title what None = [].
Proof. done. Qed.
Lemma plain_none s : plain_status s -> stderr_of s = None /\ stdout_of s = None.
Proof. destruct s; cbn; auto. Qed.

(** ** The lines *)
Lemma paren_lit a b x y : 41%N ∉ a -> 41%N ∉ b -> a ++ str ")" ++ x = b ++ str ")" ++ y -> a = b.
Proof. intros Ha Hb E. rewrite !str_cons in E. cbn [app] in E. by apply cut_at in E as [-> _]. Qed.
Ltac rd F := first
  [apply lit in F
  |apply path_read in F as [-> F]
  |let D := fresh "D" in apply dec_lit in F as [D F]; [|nodigit]].
Lemma line_read m1 m2 : one_line_message m1 -> one_line_message m2 -> on_message plain m1 = on_message plain m2 -> said m1 = said m2.
Proof.
  intros O1 O2 E.
  destruct m1; try done; destruct m2; try done; cbn [one_line_message] in *; cbv beta iota delta [on_message] in E;
    repeat match goal with H : plain_status ?s |- _ => let A := fresh in let B := fresh in
      pose proof (plain_none s H) as [A B]; rewrite ?A, ?B in E; clear A B H end;
    rewrite ?captured_none, ?(right_id_L [] (++)) in E; rewrite <- ?(assoc_L (++)) in E;
    lazymatch type of E with
    | write_status _ ++ _ = write_status _ ++ _ => apply status_tag in E as [K E]
    | str _ ++ _ = str _ ++ _ => first [apply lit in E|exfalso; by clashes E]
    | write_status ?s ++ _ = _ => exfalso; destruct s; cbn [write_status] in E; by clashes E
    | _ = write_status ?s ++ _ => exfalso; destruct s; cbn [write_status] in E; by clashes E
    end.
  all: destruct (wm_split _ _ _ _ E) as (x & y & F); rewrite <- ?(assoc_L (++)) in F.
  all: try (exfalso; by clashes F).
  1-6: repeat rd F; repeat match goal with H : (?n + 1)%N = (?m + 1)%N |- _ => assert (n = m) by lia; clear H end; subst; apply app_inv_head in E; cbn [said].
  1-5: rewrite (details_read _ _ K E); done.
  - destruct s, s0; cbn; done.
  - destruct O1 as [(_ & A1 & _) (_ & _ & B1)], O2 as [(_ & A2 & _) (_ & _ & B2)].
    repeat rd F. apply text_lit in F as [-> F]; [|done|done]. repeat rd F. subst. apply paren_lit in F as ->; done.
  - destruct O1 as (_ & A1 & _), O2 as (_ & A2 & _).
    repeat rd F. apply (text_lit _ _ "") in F as [-> F]; done.
Qed.

(** ** One line *)
Lemma str_line s : forallb (fun c => negb (Ascii.eqb c "010"%char)) (list_ascii_of_string s) = true -> 10%N ∉ str s.
Proof.
  unfold str. induction (list_ascii_of_string s) as [|c l IH]; cbn [forallb map]; [intros _ H; by apply elem_of_nil in H|].
  intros [H1 H2]%andb_prop. rewrite elem_of_cons. intros [H|H]; [|by apply IH in H].
  assert (c = "010"%char) as ->; [|done]. by rewrite <- (ascii_N_embedding c), <- H.
Qed.
Lemma message_line t : 10%N ∉ t -> 10%N ∉ write_message t.
Proof. unfold write_message. rewrite elem_of_app. intros H [G|G]; [done|]. by apply elem_of_replicate in G as [G _]. Qed.
Ltac noline := repeat (match goal with
  | |- 10%N ∉ _ ++ _ => rewrite not_elem_of_app; split
  | |- 10%N ∉ str _ => by apply str_line
  | |- 10%N ∉ dec _ => apply dec_line
  | |- 10%N ∉ dbg_path _ _ => apply path_line
  | |- 10%N ∉ dbg_str _ _ => apply string_line
  | |- 10%N ∉ write_message _ => apply message_line
  end); try done.
Lemma write_status_line s : 10%N ∉ write_status s.
Proof. destruct s; by apply str_line. Qed.
Lemma details_line s : any_status s -> 10%N ∉ details plain s.
Proof.
  destruct s as [|w|st e o|]; cbn [details any_status]; intros H; try (by apply not_elem_of_nil); noline.
  destruct st; cbn [dbg_status]; noline.
Qed.
Lemma plain_any s : plain_status s -> any_status s.
Proof. by destruct s. Qed.
Lemma message_one_line m : one_line_message m -> exists l, 10%N ∉ l /\ on_message plain m = l ++ [10%N].
Proof.
  intros O. destruct m; try done; cbn [one_line_message] in *; cbv beta iota delta [on_message];
    repeat match goal with H : plain_status ?s |- _ => let A := fresh in let B := fresh in
      pose proof (plain_none s H) as [A B]; rewrite ?A, ?B; clear A B; apply plain_any in H end;
    rewrite ?captured_none, ?(right_id_L [] (++)); (eexists; split; [|reflexivity]);
    pose proof write_status_line; pose proof details_line; noline; auto; try (by destruct O as [? _]); try (by destruct O as [[? _] [? _]]).
Qed.
(** ** The history *)
Lemma printed_read h1 h2 : Forall one_line_message h1 -> Forall one_line_message h2 -> printed plain h1 = printed plain h2 -> map said h1 = map said h2.
Proof.
  unfold printed. intros H1. revert h2. induction H1 as [|m1 h1 O1 H1 IH]; intros h2 H2 E.
  - destruct H2 as [|m2 h2 O2 H2]; [done|]. cbn in E. destruct (message_one_line m2 O2) as (l & _ & G). rewrite G in E. by destruct l.
  - destruct H2 as [|m2 h2 O2 H2].
    + cbn in E. destruct (message_one_line m1 O1) as (l & _ & G). rewrite G in E. by destruct l.
    + cbn in E. destruct (message_one_line m1 O1) as (l1 & N1 & G1), (message_one_line m2 O2) as (l2 & N2 & G2).
      rewrite G1, G2, <- !(assoc_L (++)) in E. cbn [app] in E. apply cut_at in E as [-> E]; [|done|done].
      cbn [map]. f_equal; [|by apply IH]. apply line_read; [done|done|]. by rewrite G1, G2.
Qed.
End debug.
