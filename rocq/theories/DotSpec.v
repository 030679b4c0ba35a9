(** * DotSpec: what a DOT file means (the part of the language of graphviz that is needed), and what the picture of a DAG
      is expected to contain.  Written without looking at copy_dag.rs. *)
From Coq Require Import NArith Ascii.
From stdpp Require Export list strings.

(** ** The tokens *)
Inductive token := TId (s : list ascii) | TString (s : list ascii) | TArrow | TPunct (c : ascii).
(** The state of the reader: between two tokens, in an identifier, in a string, in a string after a backslash, after a [-] *)
Inductive state := SStart | SId (s : list ascii) | SString (s : list ascii) | SEscape (s : list ascii) | SDash.
Definition code (c : ascii) : N := N_of_ascii c.
Definition within (a b n : N) : bool := N.leb a n && N.leb n b.
Definition id_char (c : ascii) : bool :=
  within 48 57 (code c) || within 65 90 (code c) || within 97 122 (code c) || N.eqb (code c) 95 || N.leb 128 (code c).
Definition blank (c : ascii) : bool := N.eqb (code c) 32 || within 9 13 (code c).
Definition double_quote (c : ascii) : bool := N.eqb (code c) 34.
Definition backslash (c : ascii) : bool := N.eqb (code c) 92.
Definition punctuation (c : ascii) : bool :=
  bool_decide (c ∈ ["{"; "}"; "["; "]"; "="; ";"]%char).
Definition start (c : ascii) : option (list token * state) :=
  if id_char c then Some ([], SId [c])
  else if blank c then Some ([], SStart)
  else if double_quote c then Some ([], SString [])
  else if punctuation c then Some ([TPunct c], SStart)
  else if bool_decide (c = "-"%char) then Some ([], SDash)
  else None.
Definition step (st : state) (c : ascii) : option (list token * state) :=
  match st with
  | SStart => start c
  | SId s => if id_char c then Some ([], SId (s ++ [c])) else '(ts, st) ← start c; Some (TId s :: ts, st)
  | SString s => if double_quote c then Some ([TString s], SStart) else if backslash c then Some ([], SEscape s) else Some ([], SString (s ++ [c]))
  (** in a string the only escape of the language is that of the double quote; the others are left to who draws the label *)
  | SEscape s => if double_quote c then Some ([], SString (s ++ [c])) else Some ([], SString (s ++ ["\"%char; c]))
  | SDash => if bool_decide (c = ">"%char) then Some ([TArrow], SStart) else None
  end.
Fixpoint tokens (st : state) (s : list ascii) : option (list token) :=
  match s with
  | [] => match st with SStart => Some [] | SId i => Some [TId i] | _ => None end
  | c :: s => '(ts, st) ← step st c; rest ← tokens st s; Some (ts ++ rest)
  end.

(** ** The statements: nodes with their attributes, edges *)
Definition word (s : string) : list ascii := list_ascii_of_string s.
Definition value (t : token) : option (list ascii) := match t with TId s | TString s => Some s | _ => None end.
Definition attribute := (list ascii * list ascii)%type.
(** after a [[]: the attributes up to the last []], and what follows *)
Fixpoint attributes (ts : list token) : option (list attribute * list token) :=
  match ts with
  | TPunct "]"%char :: ((TPunct c :: r) as r') => if bool_decide (c = "["%char) then attributes r else Some ([], r')
  | TPunct "]"%char :: r => Some ([], r)
  | k :: TPunct "="%char :: v :: r => k ← value k; v ← value v; '(l, r) ← attributes r; Some ((k, v) :: l, r)
  | _ => None
  end.
Inductive statement := SNode (id : list ascii) (l : list attribute) | SEdge (a b : list ascii) | SGraph (k v : list ascii).
Fixpoint statements (fuel : nat) (ts : list token) : option (list statement) :=
  match fuel with
  | O => None
  | S fuel =>
    match ts with
    | [TPunct "}"%char] => Some []
    | a :: TArrow :: b :: TPunct ";"%char :: r => a ← value a; b ← value b; l ← statements fuel r; Some (SEdge a b :: l)
    | k :: TPunct "="%char :: v :: TPunct ";"%char :: r => k ← value k; v ← value v; l ← statements fuel r; Some (SGraph k v :: l)
    | a :: TPunct "["%char :: r => a ← value a; '(at_, r) ← attributes r;
        match r with TPunct ";"%char :: r => l ← statements fuel r; Some (SNode a at_ :: l) | _ => None end
    | _ => None
    end
  end.
Definition read (s : list ascii) : option (list statement) :=
  ts ← tokens SStart s;
  match ts with
  | TId k :: TId _ :: TPunct "{"%char :: r => if bool_decide (k = word "digraph") then statements (length ts) r else None
  | _ => None
  end.

(** ** The labels as they are drawn *)
(** A box: a backslash and a letter among [nlr] is the end of a line, among [NGETHL] a name of the graph (None), and
    otherwise it is the character *)
Fixpoint box_text (esc : bool) (s : list ascii) : option (list ascii) :=
  match s with
  | [] => Some (if esc then ["\"%char] else [])
  | c :: s =>
    if esc then
      if bool_decide (c ∈ ["n"; "l"; "r"]%char) then cons "010"%char <$> box_text false s
      else if bool_decide (c ∈ ["N"; "G"; "E"; "T"; "H"; "L"]%char) then None
      else cons c <$> box_text false s
    else if backslash c then box_text true s else cons c <$> box_text false s
  end.
(** A record: the fields, which are separated by [|]; [{] and [}] open and close groups and [<] and [>] delimit the names
    of ports (None), unless they follow a backslash *)
Fixpoint record_fields (esc : bool) (cur : list ascii) (s : list ascii) : option (list (list ascii)) :=
  match s with
  | [] => Some [if esc then cur ++ ["\"%char] else cur]
  | c :: s =>
    if esc then
      if bool_decide (c ∈ ["n"; "l"; "r"; "N"; "G"; "E"; "T"; "H"; "L"]%char) then None
      else record_fields false (cur ++ [c]) s
    else if backslash c then record_fields true cur s
    else if bool_decide (c = "|"%char) then cons cur <$> record_fields false [] s
    else if bool_decide (c ∈ ["{"; "}"; "<"; ">"]%char) then None
    else record_fields false (cur ++ [c]) s
  end.
Definition get (k : string) (l : list attribute) : option (list ascii) := snd <$> find (fun kv => bool_decide (kv.1 = word k)) l.
(** The nodes that are drawn: a box with its text, a record with its fields *)
Inductive picture := Box (text : list ascii) | Record (fields : list (list ascii)).
Definition drawn (l : list attribute) : option picture :=
  label ← get "label" l; shape ← get "shape" l;
  if bool_decide (shape = word "box") then Box <$> box_text false label
  else if bool_decide (shape = word "record") then Record <$> record_fields false [] label
  else None.
(** ** The graph of a file *)
Record graph := Graph { g_nodes : list (list ascii * picture); g_edges : list (list ascii * list ascii) }.
Fixpoint graph_of (l : list statement) : option graph :=
  match l with
  | [] => Some (Graph [] [])
  | SNode a at_ :: l => p ← drawn at_; g ← graph_of l; Some (Graph ((a, p) :: g_nodes g) (g_edges g))
  | SEdge a b :: l => g ← graph_of l; Some (Graph (g_nodes g) ((a, b) :: g_edges g))
  | SGraph _ _ :: l => graph_of l
  end.
Definition graph_in (s : list ascii) : option graph := l ← read s; graph_of l.

(** ** Texts that are joined *)
Fixpoint with_sep (sep : list ascii) (l : list (list ascii)) : list ascii :=
  match l with [] => [] | a :: l => a ++ match l with [] => [] | _ => sep ++ with_sep sep l end end.
(** ** The order of the bytes *)
Inductive before : list ascii -> list ascii -> Prop :=
| before_nil s : before [] s
| before_lt a b s t : (code a < code b)%N -> before (a :: s) (b :: t)
| before_eq a s t : before s t -> before (a :: s) (a :: t).
