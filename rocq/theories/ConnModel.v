(** * ConnModel: the connection of clients and workers to a server (task-maker-exec/src/executors/remote_executor.rs, src/remote.rs, src/context.rs:143-164, src/tools/worker.rs)

    Definitions only.
    - The channels of ductile deliver the messages in order or fail; a key is what it has been derived from.
    - [Url::parse] is the one of the url crate, for urls of one-byte characters, as documented; the addresses between brackets, the normal form of a path and the resolution of a name are parameters. *)
From stdpp Require Import prelude strings.
From Coq Require Import Ascii String.
Open Scope string_scope.
Open Scope list_scope.

(** ** The server *)
(** remote_executor.rs:23-42: the messages *)
Inductive response := Accepted | Rejected (reason : string).
(** What the server receives first on a connection: nothing for ever, something that is not a welcome (or the connection is closed), a welcome *)
Inductive first_message := Silent | NotWelcome | Welcome (name version : string).
(** remote_executor.rs:217-222 *)
Definition wrong_version (theirs mine : string) : string := "Wrong task-maker version, you have " +:+ theirs +:+ ", server has " +:+ mine.
Inductive event := Replied (conn : nat) (r : response) | Handed (conn : nat) (name : string).
Inductive ending := Listening | StuckOn (conn : nat) | ExecutorGone.
Section listener.
  (** [mine]: the version of the server; [executor n]: the executor takes the [n]-th connection that it is given *)
  Context (mine : string) (executor : nat -> bool).
  (** remote_executor.rs:205-229 [validate_welcome]: the reply; whether it can be sent is ignored *)
  Definition validate_welcome (version : string) : response := if decide (version <> mine) then Rejected (wrong_version version mine) else Accepted.
  (** remote_executor.rs:121-151 and 178-202: the loops of [client_listener] and [worker_listener] are the same; [conn]: the number of the connection, [given]: how many have been handed *)
  Fixpoint listen (conn given : nat) (conns : list first_message) : list event * ending :=
    match conns with
    | [] => ([], Listening)
    | Silent :: _ => ([], StuckOn conn)
    | NotWelcome :: conns => listen (conn + 1) given conns
    | Welcome name version :: conns =>
      match validate_welcome version with
      | Rejected r => let '(es, e) := listen (conn + 1) given conns in (Replied conn (Rejected r) :: es, e)
      | Accepted =>
        if executor given then let '(es, e) := listen (conn + 1) (given + 1) conns in (Replied conn Accepted :: Handed conn name :: es, e)
        else ([Replied conn Accepted], ExecutorGone)
      end
    end.
End listener.

(** ** The client and the worker *)
(** context.rs:143-164, tools/worker.rs:47-67: the welcome and what is done with the reply; [None]: it cannot be received *)
Inductive outcome := Proceeds | Fails.
Definition client_welcome (name version : string) : first_message := Welcome name version.
Definition worker_welcome (name : string) (id : option string) (version : string) : first_message := Welcome name version.
Definition after_reply (r : option response) : outcome := match r with Some (Rejected _) => Fails | Some Accepted => Proceeds | None => Fails end.
(** tools/worker.rs:69-73: the name of the worker for itself, not in the welcome *)
Definition worker_name (name : string) (id : option string) : string := match id with Some i => name +:+ " " +:+ i | None => name end.

(** ** The address *)
(** The url crate: control characters and spaces at the ends are removed, tabs and ends of line everywhere *)
Definition code (c : ascii) : N := N_of_ascii c.
Fixpoint drop_low (s : list ascii) : list ascii := match s with c :: s' => if (code c <=? 32)%N then drop_low s' else s | [] => [] end.
Definition tidy (s : list ascii) : list ascii :=
  List.filter (fun c => negb ((code c =? 9)%N || (code c =? 10)%N || (code c =? 13)%N)) (rev (drop_low (rev (drop_low s)))).
Definition is_upper (c : ascii) : bool := ((65 <=? code c) && (code c <=? 90))%N.
Definition is_letter (c : ascii) : bool := (((65 <=? code c) && (code c <=? 90)) || ((97 <=? code c) && (code c <=? 122)))%N.
Definition scheme_char (c : ascii) : bool := is_letter c || ((48 <=? code c) && (code c <=? 57))%N || bool_decide (c = "+"%char) || bool_decide (c = "-"%char) || bool_decide (c = "."%char).
Definition to_lower (c : ascii) : ascii := if is_upper c then ascii_of_N (code c + 32) else c.
Fixpoint scan_scheme (s : list ascii) : option (list ascii * list ascii) :=
  match s with
  | [] => None
  | c :: s => if bool_decide (c = ":"%char) then Some ([], s) else if scheme_char c then '(a, b) ← scan_scheme s; Some (to_lower c :: a, b) else None
  end.
(** the scheme and the rest; [None]: [RelativeUrlWithoutBase] *)
Definition parse_scheme (s : list ascii) : option (list ascii * list ascii) :=
  match s with c :: _ => if is_letter c then scan_scheme s else None | [] => None end.
(** The parts of a url that are used *)
Record url := Url { u_scheme : list ascii; u_host : option (list ascii); u_port : option N; u_password : option (list ascii); u_path : list ascii }.
Notation lst := list_ascii_of_string.
(** the url crate, [USERINFO]: the characters that are percent-encoded in a password *)
Definition userinfo_encoded (c : ascii) : bool := ((code c <? 32) || (126 <? code c))%N || bool_decide (c ∈ lst " #<>?`{}/:;=@[\]^|") || (code c =? 34)%N.
Definition hex (n : N) : ascii := nth (N.to_nat n) (lst "0123456789ABCDEF") "0"%char.
Definition percent (c : ascii) : list ascii := ["%"%char; hex (code c / 16); hex (code c mod 16)].
Definition userinfo_encode (c : ascii) : list ascii := if userinfo_encoded c then percent c else [c].
(** what precedes the first character that satisfies [p], and the rest from that character *)
Fixpoint cut (p : ascii -> bool) (s : list ascii) : list ascii * list ascii :=
  match s with [] => ([], []) | c :: s' => if p c then ([], s) else let '(a, b) := cut p s' in (c :: a, b) end.
Definition ends_authority (c : ascii) : bool := bool_decide (c ∈ lst "/?#").
(** the last at sign of the authority: what is before it and what is after *)
Fixpoint last_at (s : list ascii) : option (list ascii * list ascii) :=
  match s with
  | [] => None
  | c :: s => match last_at s with Some (a, b) => Some (c :: a, b) | None => if bool_decide (c = "@"%char) then Some ([], s) else None end
  end.
(** the password of the user information: after the first colon, [None] if it is empty *)
Definition info_password (info : list ascii) : option (list ascii) :=
  match (cut (fun c => bool_decide (c = ":"%char)) info).2 with _ :: ((_ :: _) as p) => Some (p ≫= userinfo_encode) | _ => None end.
(** the host: up to a colon that is not between brackets *)
Fixpoint cut_host (inside : bool) (s : list ascii) : list ascii * list ascii :=
  match s with
  | [] => ([], [])
  | c :: s' =>
    if bool_decide (c = ":"%char) && negb inside then ([], s)
    else let '(a, b) := cut_host (if bool_decide (c = "["%char) then true else if bool_decide (c = "]"%char) then false else inside) s' in (c :: a, b)
  end.
Definition forbidden_host (c : ascii) : bool := bool_decide (c ∈ lst " #/:<>?@[\]^|") || (code c =? 0)%N.
(** the port: digits up to the end of the authority, less than 65536; none if there is no digit *)
Fixpoint port_value (acc : N) (s : list ascii) : option N :=
  match s with
  | [] => Some acc
  | c :: s => if ((48 <=? code c) && (code c <=? 57))%N then let v := (acc * 10 + (code c - 48))%N in if (65535 <? v)%N then None else port_value v s else None
  end.
Definition port_of (s : list ascii) : option (option N) := match s with [] => Some None | _ => v ← port_value 0 s; Some (Some v) end.
Section address.
  (** [ipv6 h]: the address between brackets is valid; [normal p]: the normal form of the path [p] without the slash at its beginning; [opaque p]: of a path that does not begin with a slash; [resolve host port]: the addresses of a host, or an error *)
  Context {addr : Type} (ipv6 : list ascii -> bool) (normal opaque : list ascii -> list ascii) (resolve : list ascii -> N -> option (list addr)).
  (** the url crate, [Host::parse_opaque] *)
  Definition opaque_host (h : list ascii) : option (list ascii) :=
    match h with
    | c :: _ => if bool_decide (c = "["%char) then if ipv6 h then Some h else None
      else if existsb forbidden_host h then None else Some (h ≫= fun c => if ((code c <? 32) || (126 <? code c))%N then percent c else [c])
    | [] => Some []
    end.
  (** the url crate, [after_double_slash] for a scheme that is not special *)
  Definition parse_authority (scheme s : list ascii) : option url :=
    let '(auth, rest) := cut ends_authority s in
    let '(info, hostport) := match last_at auth with Some (i, h) => (Some i, h) | None => (None, auth) end in
    let '(h, p) := cut_host false hostport in
    host ← opaque_host h;
    let password := i ← info; info_password i in
    let named := match info with Some [] => match rest with [] => false | _ => true end | Some [":"%char] => false | Some _ => true | None => false end in
    let path := match rest with "/"%char :: r => "/"%char :: normal (cut (fun c => bool_decide (c ∈ lst "?#")) r).1 | _ => [] end in
    match host, p with
    | [], _ :: _ => None
    | [], [] => if named then None else Some (Url scheme None None password path)
    | _, [] => Some (Url scheme (Some host) None password path)
    | _, _ :: p => port ← port_of p; Some (Url scheme (Some host) port password path)
    end.
  (** the url crate, [parse_non_special]; for the special schemes (http, ...) there are other rules, but they are refused with any of them *)
  Definition parse_rest (scheme rest : list ascii) : option url :=
    match rest with
    | "/"%char :: "/"%char :: s => parse_authority scheme s
    | "/"%char :: s => Some (Url scheme None None None ("/"%char :: normal (cut (fun c => bool_decide (c ∈ lst "?#")) s).1))
    | s => Some (Url scheme None None None (opaque (cut (fun c => bool_decide (c ∈ lst "?#")) s).1))
    end.
  Inductive target := Tcp (addrs : list addr) (password : option (list ascii)) | Unix (path : list ascii).
  (** [Url::parse]: [inl]: an error, [inr None]: [RelativeUrlWithoutBase] *)
  Definition parse_url (s : list ascii) : unit + option url :=
    match parse_scheme (tidy s) with
    | None => inr None
    | Some (scheme, rest) => match parse_rest scheme rest with Some u => inr (Some u) | None => inl tt end
    end.
  (** remote.rs:17-23 *)
  Definition server_url (s : list ascii) : option url :=
    match parse_url s with
    | inr (Some u) => Some u
    | inr None => match parse_url (lst "tcp://" ++ s) with inr (Some u) => Some u | _ => None end
    | inl _ => None
    end.
  (** remote.rs:30-51 *)
  Definition server_target (default_port : N) (s : list ascii) : option target :=
    u ← server_url s;
    if decide (u_scheme u = lst "tcp") then
      h ← u_host u;
      addrs ← resolve h (default default_port (u_port u));
      match addrs with
      | [] => None
      | _ => if decide (u_path u <> []) then None else Some (Tcp addrs (u_password u))
      end
    else if decide (u_scheme u = lst "unix") then Some (Unix (u_path u))
    else None.
  (** remote.rs:54-78: the result of an attempt, and the attempts *)
  Inductive attempt := Connected | NetworkError | OtherError.
  Context (try_tcp : addr -> option (list ascii) -> attempt).
  Fixpoint try_all (addrs : list addr) (password : option (list ascii)) : option addr :=
    match addrs with
    | [] => None
    | a :: addrs => match try_tcp a password with Connected => Some a | NetworkError => try_all addrs password | OtherError => None end
    end.
End address.
Arguments target : clear implicits.
Arguments Tcp {addr} _ _.
Arguments Unix {addr} _.
