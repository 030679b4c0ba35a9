(** * ConnSpec: what is expected of the connections of clients and workers (C88) *)
From stdpp Require Import prelude strings.
From Coq Require Import Ascii String.
From Verif Require Import ConnModel.
Open Scope string_scope.
Open Scope list_scope.

Section spec.
  Context (mine : string) (executor : nat -> bool) (conns : list first_message).
  (** The connection [i] begins with a welcome with the version of the server *)
  Definition same_version (i : nat) : Prop := exists name, conns !! i = Some (Welcome name mine).
  (** How many such connections there are before [i] *)
  Definition earlier (i : nat) : nat := List.length (List.filter (fun m => match m with Welcome _ v => bool_decide (v = mine) | _ => false end) (take i conns)).
  (** The server gets to the connection [i]: no earlier one says nothing, and the executor has taken the earlier ones that it has been given *)
  Definition reached (i : nat) : Prop := forall j, (j < i)%nat -> conns !! j <> Some Silent /\ (same_version j -> executor (earlier j) = true).
  (** The reply to a welcome *)
  Definition right_reply (version : string) (r : response) : Prop :=
    (version = mine /\ r = Accepted) \/
    (version <> mine /\ r = Rejected ("Wrong task-maker version, you have " +:+ version +:+ ", server has " +:+ mine)).
  Definition conn_of (e : event) : nat := match e with Replied i _ => i | Handed i _ => i end.
  Definition is_accept (e : event) : Prop := exists i, e = Replied i Accepted.
  Definition is_handed (e : event) : Prop := exists i n, e = Handed i n.
End spec.

(** ** Addresses *)
Definition printable (c : ascii) : Prop := (33 <= N_of_ascii c <= 126)%N.
(** The characters of the names of hosts *)
Definition host_char (c : ascii) : Prop := printable c /\ c ∉ lst "#/:<>?@[\]^|".
Definition host_name (h : list ascii) : Prop := h <> [] /\ Forall host_char h.
(** A number in base ten *)
Definition digit (c : ascii) : Prop := (48 <= N_of_ascii c <= 57)%N.
Definition value (ds : list ascii) : N := fold_left (fun v c => v * 10 + (N_of_ascii c - 48))%N ds 0%N.
Definition port_text (ds : list ascii) (p : N) : Prop := ds <> [] /\ Forall digit ds /\ value ds = p /\ (p < 65536)%N.
(** The characters of a scheme *)
Definition letter (c : ascii) : Prop := (65 <= N_of_ascii c <= 90)%N \/ (97 <= N_of_ascii c <= 122)%N.
Definition like_scheme (h : list ascii) : Prop := exists c t, h = c :: t /\ letter c /\ Forall (fun c => letter c \/ digit c \/ c ∈ lst "+-.") t.
(** The characters of a password that are taken as they are *)
Definition safe (c : ascii) : Prop := letter c \/ digit c \/ c ∈ lst "!$%&'()*+,-._~".
(** The characters that a user and a password can have in a url *)
Definition user_text (u : list ascii) : Prop := Forall (fun c => printable c /\ c ∉ lst ":@/?#") u.
Definition password_text (p : list ascii) : Prop := p <> [] /\ Forall (fun c => printable c /\ c ∉ lst "/?#") p.
(** [user:password@host:port], where only the host is needed *)
Definition address_text (user : option (list ascii * option (list ascii))) (host : list ascii) (port : option (list ascii)) : list ascii :=
  match user with Some (u, Some p) => u ++ ":"%char :: p ++ ["@"%char] | Some (u, None) => u ++ ["@"%char] | None => [] end
  ++ host ++ match port with Some ds => ":"%char :: ds | None => [] end.
Definition good_user (user : option (list ascii * option (list ascii))) : Prop :=
  match user with Some (u, Some p) => user_text u /\ password_text p | Some (u, None) => user_text u | None => True end.
Definition good_port (port : option (list ascii)) (v : option N) : Prop :=
  match port, v with Some ds, Some p => port_text ds p | None, None => True | _, _ => False end.
(** What comes before the first colon, if there is a colon *)
Definition before_colon (user : option (list ascii * option (list ascii))) (host : list ascii) (port : option (list ascii)) : option (list ascii) :=
  match user, port with
  | Some (u, Some _), _ => Some u
  | Some (u, None), Some _ => Some (u ++ "@"%char :: host)
  | None, Some _ => Some host
  | _, None => None
  end.
