(** * ConnProofs2: the addresses (C88) *)
From stdpp Require Import prelude strings.
From Coq Require Import Ascii String.
From Verif Require Import ConnModel ConnSpec.
Open Scope string_scope.
Open Scope list_scope.

(** ** Facts about one character, by cases *)
Definition all_ascii : list ascii := ascii_of_nat <$> seq 0 256.
Lemma all_ascii_in c : c ∈ all_ascii.
Proof.
  unfold all_ascii. rewrite <- (ascii_nat_embedding c). apply elem_of_list_fmap_1. apply elem_of_seq. pose proof (nat_ascii_bounded c). lia.
Qed.
Lemma by_cases (P : ascii -> Prop) `{forall c, Decision (P c)} : bool_decide (Forall P all_ascii) = true -> forall c, P c.
Proof. intros Hb c. apply bool_decide_eq_true in Hb. pose proof (proj1 (Forall_forall _ _) Hb c (all_ascii_in c)). done. Qed.
Global Instance printable_dec c : Decision (printable c) := _.
Global Instance letter_dec c : Decision (letter c) := _.
Global Instance digit_dec c : Decision (digit c) := _.
Global Instance safe_dec c : Decision (safe c) := _.
Global Instance host_char_dec c : Decision (host_char c) := _.

Lemma char_userinfo c : userinfo_encoded c = false <-> safe c.
Proof. revert c. refine (by_cases (fun c => userinfo_encoded c = false <-> safe c) _). vm_compute. done. Qed.
Lemma char_scheme c : scheme_char c = true <-> letter c \/ digit c \/ c ∈ lst "+-.".
Proof. revert c. refine (by_cases (fun c => scheme_char c = true <-> letter c \/ digit c \/ c ∈ lst "+-.") _). vm_compute. done. Qed.
Lemma char_letter c : is_letter c = true <-> letter c.
Proof. revert c. refine (by_cases (fun c => is_letter c = true <-> letter c) _). vm_compute. done. Qed.
Lemma char_host c : host_char c -> forbidden_host c = false /\ ((code c <? 32) || (126 <? code c))%N = false /\ c <> ":"%char /\ c <> "["%char /\ c <> "]"%char /\ c <> "@"%char /\ ends_authority c = false.
Proof. revert c. refine (by_cases (fun c => host_char c -> forbidden_host c = false /\ ((code c <? 32) || (126 <? code c))%N = false /\ c <> ":"%char /\ c <> "["%char /\ c <> "]"%char /\ c <> "@"%char /\ ends_authority c = false) _). vm_compute. done. Qed.
Lemma char_printable c : printable c -> (code c <=? 32)%N = false /\ negb ((code c =? 9)%N || (code c =? 10)%N || (code c =? 13)%N) = true.
Proof. revert c. refine (by_cases (fun c => printable c -> (code c <=? 32)%N = false /\ negb ((code c =? 9)%N || (code c =? 10)%N || (code c =? 13)%N) = true) _). vm_compute. done. Qed.
Lemma char_digit c : digit c -> printable c /\ ends_authority c = false /\ c <> "@"%char /\ ((48 <=? code c) && (code c <=? 57))%N = true.
Proof. revert c. refine (by_cases (fun c => digit c -> printable c /\ ends_authority c = false /\ c <> "@"%char /\ ((48 <=? code c) && (code c <=? 57))%N = true) _). vm_compute. done. Qed.
Lemma char_password c : printable c /\ c ∉ lst "/?#" -> ends_authority c = false.
Proof. revert c. refine (by_cases (fun c => printable c /\ c ∉ lst "/?#" -> ends_authority c = false) _). vm_compute. done. Qed.
Lemma char_user c : printable c /\ c ∉ lst ":@/?#" -> ends_authority c = false /\ c <> ":"%char /\ c <> "@"%char.
Proof. revert c. refine (by_cases (fun c => printable c /\ c ∉ lst ":@/?#" -> ends_authority c = false /\ c <> ":"%char /\ c <> "@"%char) _). vm_compute. done. Qed.

(** ** Pieces *)
Lemma drop_low_id s : Forall printable s -> drop_low s = s.
Proof. intros H. destruct H as [|c s H]; [done|]. simpl. by rewrite (proj1 (char_printable _ H)). Qed.
Lemma tidy_id s : Forall printable s -> tidy s = s.
Proof.
  intros H. unfold tidy. rewrite (drop_low_id s) by done. rewrite (drop_low_id (rev s)).
  2: { apply Forall_forall. intros c Hc. apply (proj1 (Forall_forall _ _) H). apply elem_of_list_In, in_rev. by apply elem_of_list_In. }
  rewrite rev_involutive. induction H as [|c s Hc H IH]; [done|]. cbn [List.filter]. rewrite (proj2 (char_printable _ Hc)). by f_equal.
Qed.
Lemma cut_app p a b : Forall (fun c => p c = false) a -> cut p (a ++ b) = (a ++ (cut p b).1, (cut p b).2).
Proof. induction 1 as [|c a Hc H IH]; simpl; [by destruct (cut p b)|]. rewrite Hc, IH. done. Qed.
Lemma cut_all p a : Forall (fun c => p c = false) a -> cut p a = (a, []).
Proof. induction 1 as [|c a Hc H IH]; simpl; [done|]. by rewrite Hc, IH. Qed.
Lemma last_at_none s : Forall (fun c => c <> "@"%char) s -> last_at s = None.
Proof. induction 1 as [|c s Hc H IH]; simpl; [done|]. rewrite IH, bool_decide_false; done. Qed.
Lemma last_at_app a b : Forall (fun c => c <> "@"%char) b -> last_at (a ++ "@"%char :: b) = Some (a, b).
Proof. intros H. induction a as [|c a IH]; simpl; [|by rewrite IH]. by rewrite last_at_none. Qed.
Lemma cut_host_app h b : Forall host_char h -> cut_host false (h ++ b) = (h ++ (cut_host false b).1, (cut_host false b).2).
Proof.
  induction 1 as [|c h Hc H IH]; [simpl; by destruct (cut_host false b)|]. destruct (char_host _ Hc) as (_ & _ & H1 & H2 & H3 & _).
  simpl app. cbn [cut_host]. rewrite !bool_decide_false by done. cbn [andb]. rewrite IH. done.
Qed.
Lemma port_value_ok ds : forall acc, Forall digit ds -> (fold_left (fun v c => v * 10 + (N_of_ascii c - 48)) ds acc < 65536)%N ->
  port_value acc ds = Some (fold_left (fun v c => v * 10 + (N_of_ascii c - 48))%N ds acc).
Proof.
  induction ds as [|c ds IH]; intros acc Hd Hv; [done|]. apply Forall_cons_1 in Hd as [Hc Hd].
  cbn [port_value]. rewrite (proj2 (proj2 (proj2 (char_digit _ Hc)))). cbn [fold_left] in Hv.
  assert (Hle : forall l a, (a <= fold_left (fun v c => v * 10 + (N_of_ascii c - 48)) l a)%N).
  { intros l. induction l as [|x l IHl]; intros a; simpl; [lia|]. etrans; [|apply IHl]. lia. }
  specialize (Hle ds (acc * 10 + (N_of_ascii c - 48))%N).
  cbv zeta. unfold code. destruct (N.ltb_spec 65535 (acc * 10 + (N_of_ascii c - 48))%N); [lia|]. rewrite IH by done. done.
Qed.
Lemma port_of_ok ds p : port_text ds p -> port_of ds = Some (Some p).
Proof.
  intros (Hn & Hd & Hv & Hp). unfold port_of. destruct ds as [|c ds]; [done|]. rewrite port_value_ok; [|done|].
  - unfold value in Hv. by rewrite Hv.
  - unfold value in Hv. by rewrite Hv.
Qed.

Section address.
  Context {addr : Type} (ipv6 : list ascii -> bool) (normal opaque : list ascii -> list ascii) (resolve : list ascii -> N -> option (list addr)).
  Notation server_target := (server_target ipv6 normal opaque resolve).
  Notation parse_authority := (parse_authority ipv6 normal).
  Notation opaque_host := (opaque_host ipv6).
  Lemma opaque_host_ok h : host_name h -> opaque_host h = Some h.
  Proof.
    intros [Hn Hh]. destruct h as [|c h]; [done|]. unfold ConnModel.opaque_host.
    apply Forall_cons_1 in Hh as Hh'. destruct Hh' as [Hc _]. rewrite bool_decide_false by (by apply char_host).
    replace (existsb forbidden_host (c :: h)) with false.
    2: { symmetry. apply not_true_is_false. intros He. apply existsb_exists in He as (x & Hx & Hf). apply elem_of_list_In in Hx.
         pose proof (proj1 (Forall_forall _ _) Hh x Hx) as Hxc. destruct (char_host _ Hxc) as [? _]. congruence. }
    f_equal. clear Hn. revert Hh. generalize (c :: h). clear. intros l. induction 1 as [|c l Hc H IH]; [done|].
    rewrite bind_cons. destruct (char_host _ Hc) as (_ & H2 & _). rewrite H2. cbn [app]. f_equal. apply IH.
  Qed.

  Definition used_password (user : option (list ascii * option (list ascii))) : option (list ascii) :=
    match user with Some (_, Some p) => Some (p ≫= userinfo_encode) | _ => None end.
  Lemma authority_chars user h port v : good_user user -> host_name h -> good_port port v ->
    Forall (fun c => ends_authority c = false) (address_text user h port).
  Proof.
    intros Hu [_ Hh] Hp. unfold address_text. rewrite !Forall_app. split_and!.
    - destruct user as [[u [p|]]|]; simpl in Hu; [|by (apply Forall_app; split; [eapply Forall_impl; [exact Hu|]; intros c Hc; by apply char_user|by constructor])|done].
      destruct Hu as [Hu [_ Hpw]]. apply Forall_app; split; [eapply Forall_impl; [exact Hu|]; intros c Hc; by apply char_user|].
      constructor; [done|]. apply Forall_app; split; [|by constructor]. eapply Forall_impl; [exact Hpw|]. intros c Hc. by apply char_password.
    - eapply Forall_impl; [exact Hh|]. intros c Hc. by apply char_host.
    - destruct port as [ds|], v as [p|]; try done. constructor; [done|]. destruct Hp as (_ & Hd & _). eapply Forall_impl; [exact Hd|]. intros c Hc. by apply char_digit.
  Qed.
  Lemma address_printable user h port v : good_user user -> host_name h -> good_port port v -> Forall printable (address_text user h port).
  Proof.
    intros Hu [_ Hh] Hp. unfold address_text. rewrite !Forall_app. split_and!.
    - destruct user as [[u [p|]]|]; simpl in Hu; [|by (apply Forall_app; split; [eapply Forall_impl; [exact Hu|]; intros c Hc; apply Hc|by constructor])|done].
      destruct Hu as [Hu [_ Hpw]]. apply Forall_app; split; [eapply Forall_impl; [exact Hu|]; intros c Hc; apply Hc|].
      constructor; [done|]. apply Forall_app; split; [|by constructor]. eapply Forall_impl; [exact Hpw|]. intros c Hc. apply Hc.
    - eapply Forall_impl; [exact Hh|]. intros c Hc. apply Hc.
    - destruct port as [ds|], v as [p|]; try done. constructor; [done|]. destruct Hp as (_ & Hd & _). eapply Forall_impl; [exact Hd|]. intros c Hc. by apply char_digit.
  Qed.
  Definition path_part (rest : list ascii) : list ascii :=
    match rest with "/"%char :: r => "/"%char :: normal (cut (fun c => bool_decide (c ∈ lst "?#")) r).1 | _ => [] end.
  Lemma parse_authority_ok scheme user h port v rest : good_user user -> host_name h -> good_port port v ->
    match rest with [] => True | c :: _ => ends_authority c = true end ->
    parse_authority scheme (address_text user h port ++ rest) = Some (Url scheme (Some h) v (used_password user) (path_part rest)).
  Proof.
    intros Hu Hh Hp Hr. unfold ConnModel.parse_authority. rewrite cut_app by (by eapply authority_chars).
    replace (cut ends_authority rest) with (@nil ascii, rest).
    2: { destruct rest as [|c rest]; [done|]. simpl. by rewrite Hr. }
    cbn [fst snd]. rewrite app_nil_r.
    assert (Htail : Forall (fun c => c <> "@"%char) (h ++ match port with Some ds => ":"%char :: ds | None => [] end)).
    { apply Forall_app. split; [eapply Forall_impl; [apply Hh|]; intros c Hc; by apply char_host|].
      destruct port as [ds|], v as [p|]; try done. constructor; [done|]. destruct Hp as (_ & Hd & _). eapply Forall_impl; [exact Hd|]. intros c Hc. by apply char_digit. }
    assert (Hcut : cut_host false (h ++ match port with Some ds => ":"%char :: ds | None => [] end) = (h, match port with Some ds => ":"%char :: ds | None => [] end)).
    { rewrite cut_host_app by apply Hh. destruct port as [ds|]; cbn; by rewrite app_nil_r. }
    assert (Hend : forall info, (match h, match port with Some ds => ":"%char :: ds | None => [] end with
       | [], _ :: _ => None
       | [], [] => if match info with Some [] => match rest with [] => false | _ => true end | Some [":"%char] => false | Some _ => true | None => false end then None else Some (Url scheme None None (i ← info; info_password i) (path_part rest))
       | _, [] => Some (Url scheme (Some h) None (i ← info; info_password i) (path_part rest))
       | _, _ :: p => port ← port_of p; Some (Url scheme (Some h) port (i ← info; info_password i) (path_part rest))
       end) = Some (Url scheme (Some h) v (i ← info; info_password i) (path_part rest))).
    { intros info. destruct Hh as [Hn _]. destruct h as [|c h]; [done|]. destruct port as [ds|], v as [p|]; try done. by rewrite (port_of_ok _ _ Hp). }
    unfold address_text. destruct user as [[u [p|]]|]; simpl in Hu.
    - destruct Hu as [Hu [Hne Hpw]]. rewrite <- !app_assoc. cbn [app]. rewrite <- !app_assoc. cbn [app].
      rewrite (app_comm_cons p), (app_assoc u), last_at_app by done. rewrite Hcut, (opaque_host_ok _ Hh). cbn [mbind option_bind].
      etrans; [apply (Hend (Some (u ++ ":"%char :: p)))|]. cbn [mbind option_bind].
      do 2 f_equal. unfold info_password. rewrite cut_app.
      2: { eapply Forall_impl; [exact Hu|]. intros c Hc. apply bool_decide_false. by apply char_user. }
      cbn. rewrite bool_decide_true by done. destruct p as [|c p]; [done|]. done.
    - rewrite <- !app_assoc. cbn [app]. rewrite last_at_app by done. rewrite Hcut, (opaque_host_ok _ Hh). cbn [mbind option_bind].
      etrans; [apply (Hend (Some u))|]. cbn [mbind option_bind].
      do 2 f_equal. unfold info_password. rewrite cut_all; [done|].
      eapply Forall_impl; [exact Hu|]. intros c Hc. apply bool_decide_false. by apply char_user.
    - cbn [app]. rewrite last_at_none by done. rewrite Hcut, (opaque_host_ok _ Hh). cbn [mbind option_bind].
      apply (Hend None).
  Qed.
  Definition answer (h : list ascii) (p : N) (password : option (list ascii)) : option (target addr) :=
    addrs ← resolve h p; match addrs with [] => None | _ => Some (Tcp addrs password) end.
  Lemma tcp_target dp user h port v rest : good_user user -> host_name h -> good_port port v -> Forall printable rest ->
    match rest with [] => True | c :: _ => ends_authority c = true end ->
    server_target dp (lst "tcp://" ++ address_text user h port ++ rest) =
      if decide (path_part rest <> []) then None else answer h (default dp v) (used_password user).
  Proof.
    intros Hu Hh Hp Hrp Hr. unfold ConnModel.server_target, server_url, parse_url. rewrite tidy_id.
    2: { rewrite !Forall_app. split_and!; [|by eapply address_printable|done]. apply (bool_decide_unpack _). vm_compute. done. }
    change (parse_scheme (lst "tcp://" ++ address_text user h port ++ rest)) with (Some (lst "tcp", lst "//" ++ address_text user h port ++ rest)).
    cbv beta iota. change (parse_rest ipv6 normal opaque (lst "tcp") (lst "//" ++ address_text user h port ++ rest)) with (parse_authority (lst "tcp") (address_text user h port ++ rest)).
    rewrite (parse_authority_ok _ _ _ _ v) by done. cbn [mbind option_bind u_scheme u_host u_port u_path u_password].
    rewrite decide_True by done. unfold answer. destruct (resolve h (default dp v)) as [[|a addrs]|]; cbn; destruct (decide (path_part rest <> [])); done.
  Qed.

  (** ** Without a scheme *)
  Lemma scan_no_colon s : Forall (fun c => c <> ":"%char) s -> scan_scheme s = None.
  Proof. induction 1 as [|c s Hc H IH]; [done|]. cbn. rewrite bool_decide_false by done. destruct (scheme_char c); [|done]. by rewrite IH. Qed.
  Lemma scan_colon a b : Forall (fun c => c <> ":"%char) a ->
    scan_scheme (a ++ ":"%char :: b) = if bool_decide (Forall (fun c => scheme_char c = true) a) then Some (to_lower <$> a, b) else None.
  Proof.
    induction 1 as [|c s Hc H IH]; [done|]. cbn [app scan_scheme]. rewrite bool_decide_false by done. rewrite IH.
    destruct (scheme_char c) eqn:Hs.
    - case_bool_decide as H1; case_bool_decide as H2; try done.
      + exfalso. apply H2. by constructor.
      + apply Forall_cons_1 in H2 as [_ H2]. done.
    - rewrite bool_decide_false; [done|]. intros H2. apply Forall_cons_1 in H2 as [H2 _]. congruence.
  Qed.
  Lemma parse_scheme_no_colon s : Forall (fun c => c <> ":"%char) s -> parse_scheme s = None.
  Proof. intros H. unfold parse_scheme. destruct s as [|c s]; [done|]. destruct (is_letter c); [|done]. by apply scan_no_colon. Qed.
  Lemma parse_scheme_colon a b : Forall (fun c => c <> ":"%char) a ->
    (like_scheme a -> parse_scheme (a ++ ":"%char :: b) = Some (to_lower <$> a, b)) /\ (~ like_scheme a -> parse_scheme (a ++ ":"%char :: b) = None).
  Proof.
    intros H. split.
    - intros (c & t & -> & Hc & Ht). cbn [app parse_scheme]. rewrite (proj2 (char_letter c) Hc).
      etrans; [apply (scan_colon (c :: t)); done|]. rewrite bool_decide_true; [done|]. constructor.
      + apply char_scheme. by left.
      + eapply Forall_impl; [exact Ht|]. intros x Hx. by apply char_scheme.
    - intros Hn. destruct a as [|c t]; [done|]. cbn [app parse_scheme]. destruct (is_letter c) eqn:Hc; [|done].
      etrans; [apply (scan_colon (c :: t)); done|]. rewrite bool_decide_false; [done|]. intros Hs. apply Hn. apply Forall_cons_1 in Hs as [Hs1 Hs2].
      exists c, t. split; [done|]. split; [by apply char_letter|]. eapply Forall_impl; [exact Hs2|]. intros x Hx. by apply char_scheme.
  Qed.
  Lemma bare_target dp user h port v : good_user user -> host_name h -> good_port port v ->
    match before_colon user h port with Some a => ~ like_scheme a | None => True end ->
    server_target dp (address_text user h port) = server_target dp (lst "tcp://" ++ address_text user h port).
  Proof.
    intros Hu Hh Hp Hb.
    assert (Hs : parse_scheme (address_text user h port) = None).
    { assert (Hnc : Forall (fun c => c <> ":"%char) h).
      { eapply Forall_impl; [apply Hh|]. intros c Hc. by apply char_host. }
      assert (Hnu : forall u, user_text u -> Forall (fun c => c <> ":"%char) u).
      { intros u Hut. eapply Forall_impl; [apply Hut|]. intros c Hc. by apply char_user. }
      unfold address_text. destruct user as [[u [p|]]|]; simpl in Hu, Hb.
      - rewrite <- app_assoc. cbn [app]. apply parse_scheme_colon; [apply Hnu, Hu|by destruct port].
      - destruct port as [ds|]; simpl in Hb.
        + rewrite <- app_assoc. cbn [app]. rewrite (app_comm_cons h), (app_assoc u). apply parse_scheme_colon; [|done].
          apply Forall_app. split; [by apply Hnu|]. by constructor.
        + apply parse_scheme_no_colon. rewrite app_nil_r. rewrite !Forall_app. split_and!; [by apply Hnu|by constructor|done].
      - destruct port as [ds|]; simpl in Hb; cbn [app].
        + by apply parse_scheme_colon.
        + apply parse_scheme_no_colon. by rewrite app_nil_r. }
    unfold ConnModel.server_target. f_equal. unfold server_url. 
    assert (Hpu : parse_url ipv6 normal opaque (address_text user h port) = inr None).
    { unfold parse_url. rewrite tidy_id by (by eapply address_printable). by rewrite Hs. }
    rewrite Hpu. 
    assert (Hq : exists u, parse_url ipv6 normal opaque (lst "tcp://" ++ address_text user h port) = inr (Some u)).
    { unfold parse_url. rewrite tidy_id.
      2: { rewrite !Forall_app. split; [|by eapply address_printable]. apply (bool_decide_unpack _). vm_compute. done. }
      change (parse_scheme (lst "tcp://" ++ address_text user h port)) with (Some (lst "tcp", lst "//" ++ address_text user h port)).
      cbv beta iota. change (parse_rest ipv6 normal opaque (lst "tcp") (lst "//" ++ address_text user h port)) with (parse_authority (lst "tcp") (address_text user h port)).
      rewrite <- (app_nil_r (address_text user h port)). rewrite (parse_authority_ok _ _ _ _ v) by done. by eexists. }
    destruct Hq as [u ->]. done.
  Qed.
  Lemma parse_authority_scheme scheme s u : parse_authority scheme s = Some u -> u_scheme u = scheme.
  Proof.
    unfold ConnModel.parse_authority. destruct (cut ends_authority s) as [auth rest]. destruct (match last_at auth with Some (i, h) => (Some i, h) | None => (None, auth) end) as [info hp].
    destruct (cut_host false hp) as [h p]. destruct (opaque_host h) as [host|]; [|done]. cbn [mbind option_bind].
    generalize (match rest with "/"%char :: r => "/"%char :: normal (cut (fun c => bool_decide (c ∈ lst "?#")) r).1 | _ => [] end). intros path.
    generalize (match info with Some [] => match rest with [] => false | _ => true end | Some [":"%char] => false | Some _ => true | None => false end). intros named.
    cbv zeta. generalize (i ← info; info_password i). intros pw.
    destruct host as [|x host], p as [|y p].
    - destruct named; [done|]. by intros [= <-].
    - done.
    - by intros [= <-].
    - destruct (port_of p); [|done]. cbn. by intros [= <-].
  Qed.
  Lemma parse_rest_scheme scheme s u : parse_rest ipv6 normal opaque scheme s = Some u -> u_scheme u = scheme.
  Proof.
    destruct s as [|c t]; [by intros [= <-]|]. destruct (decide (c = "/"%char)) as [->|H].
    - destruct t as [|d t]; [by intros [= <-]|]. destruct (decide (d = "/"%char)) as [->|H].
      + apply parse_authority_scheme.
      + intros Hp. assert (Hq : parse_rest ipv6 normal opaque scheme ("/"%char :: d :: t) = Some (Url scheme None None None ("/"%char :: normal (cut (fun c => bool_decide (c ∈ lst "?#")) (d :: t)).1))).
        { destruct d as [[] [] [] [] [] [] [] []]; done. }
        rewrite Hq in Hp. by injection Hp as <-.
    - intros Hp. assert (Hq : parse_rest ipv6 normal opaque scheme (c :: t) = Some (Url scheme None None None (opaque (cut (fun c => bool_decide (c ∈ lst "?#")) (c :: t)).1))).
      { destruct c as [[] [] [] [] [] [] [] []]; done. }
      rewrite Hq in Hp. by injection Hp as <-.
  Qed.
  Lemma scheme_refused dp h rest : like_scheme h -> (to_lower <$> h) <> lst "tcp" -> (to_lower <$> h) <> lst "unix" -> Forall printable h -> Forall printable rest -> Forall (fun c => c <> ":"%char) h ->
    server_target dp (h ++ ":"%char :: rest) = None.
  Proof.
    intros Hl H1 H2 Hp Hpr Hc. unfold ConnModel.server_target, server_url, parse_url. rewrite tidy_id by (apply Forall_app; split; [done|by constructor]).
    rewrite (proj1 (parse_scheme_colon h rest Hc) Hl).
    destruct (parse_rest ipv6 normal opaque (to_lower <$> h) rest) as [u|] eqn:Hu; [|done]. cbn [mbind option_bind].
    assert (Hsc : u_scheme u = to_lower <$> h).
    { by eapply parse_rest_scheme. }
    rewrite Hsc, !decide_False by done. done.
  Qed.
  (** ** The password *)
  Lemma encode_id p : (p ≫= userinfo_encode) = p <-> Forall safe p.
  Proof.
    assert (Hlen : forall l : list ascii, (List.length l <= List.length (l ≫= userinfo_encode))%nat).
    { intros l. induction l as [|c l IH]; [done|]. rewrite bind_cons, app_length. simpl List.length at 1. unfold userinfo_encode at 1. destruct (userinfo_encoded c); simpl; lia. }
    split.
    - induction p as [|c p IH]; [done|]. rewrite bind_cons. unfold userinfo_encode at 1. destruct (userinfo_encoded c) eqn:Hc.
      + intros H. exfalso. apply (f_equal List.length) in H. rewrite app_length in H. simpl in H. specialize (Hlen p). lia.
      + intros H. cbn [app] in H. simplify_eq. constructor; [by apply char_userinfo|]. by apply IH.
    - induction 1 as [|c p Hc H IH]; [done|]. rewrite bind_cons. unfold userinfo_encode at 1. rewrite (proj2 (char_userinfo c) Hc). cbn [app]. by f_equal.
  Qed.
  Lemma try_all_iff (try_tcp : addr -> option (list ascii) -> attempt) addrs password a : try_all try_tcp addrs password = Some a <->
    exists i, addrs !! i = Some a /\ try_tcp a password = Connected /\ forall j b, (j < i)%nat -> addrs !! j = Some b -> try_tcp b password = NetworkError.
  Proof.
    induction addrs as [|x addrs IH]; cbn; [split; [done|]; intros (i & H & _); done|]. destruct (try_tcp x password) eqn:Hx.
    - split.
      + intros [= <-]. exists 0%nat. split_and!; [done..|]. intros; lia.
      + intros ([|i] & H1 & H2 & H3); [done|]. specialize (H3 0%nat x ltac:(lia) eq_refl). congruence.
    - rewrite IH. split.
      + intros (i & H1 & H2 & H3). exists (S i). split_and!; [done..|]. intros [|j] b Hj Hb; [by simplify_eq/=|]. eapply (H3 j); [lia|done].
      + intros ([|i] & H1 & H2 & H3); [simplify_eq/=; congruence|]. exists i. split_and!; [done..|]. intros j b Hj Hb. apply (H3 (S j) b); [lia|done].
    - split; [done|]. intros ([|i] & H1 & H2 & H3); [simplify_eq/=; congruence|]. specialize (H3 0%nat x ltac:(lia) eq_refl). congruence.
  Qed.
End address.
