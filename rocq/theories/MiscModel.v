(** * MiscModel: the check of the final newline (ioi/sanity_checks/io.rs), the option --no-cache (dag.rs)

    Definitions only. *)
From stdpp Require Export base list gmap strings pretty sorting.
From Coq Require Import Ascii.
From Verif Require Export ClientModel.

(** ** ioi/sanity_checks/io.rs *)
(** io.rs:22-49 [CheckEndWithNewLine] *)
Record eol := Eol { eol_last : bool; eol_binary : bool }.
Definition eol_new : eol := Eol true false.
(** io.rs:63-73 [add_chunk]; the flag: the path is added to the list *)
Definition eol_chunk (s : eol) (b : bytes) : eol * bool :=
  let binary := eol_binary s || bool_decide (0%N ∈ b) in
  match b with
  | [] => (Eol (eol_last s) binary, negb (eol_last s) && negb binary)
  | _ => (Eol (match last b with Some c => bool_decide (c = 10%N) | None => false end) binary, false)
  end.
(** A testcase: its number, the files of the input and of the official output *)
Record eol_testcase := EolTestcase { et_id : N; et_input : option file_uuid; et_output : option file_uuid }.
(** Which list: the inputs or the outputs *)
Inductive eol_kind := Inputs | Outputs.
Global Instance eol_kind_eq_dec : EqDecision eol_kind.
Proof. solve_decision. Defined.
(** A registered checker: the callback that feeds it, the list, the path *)
Record binding := Binding { b_file : file_uuid; b_index : nat; b_kind : eol_kind; b_path : string }.
Global Instance binding_eq_dec : EqDecision binding.
Proof. solve_decision. Defined.
(** io.rs:51-61 [bind] *)
Definition eol_bind (kind : eol_kind) (p : string) (f : file_uuid) (st : callbacks * list binding) : callbacks * list binding :=
  (default st.1 (register false (RChunked f) st.1), st.2 ++ [Binding f (fc_chunked (file_cb_of f st.1)) kind p]).
Definition input_path (id : N) : string := "input/input" +:+ pretty id +:+ ".txt".
Definition official_output_path (id : N) : string := "output/output" +:+ pretty id +:+ ".txt".
(** io.rs:112-132 [pre_hook] *)
Definition eol_pre_hook (tests : list eol_testcase) (c : callbacks) : callbacks * list binding :=
  foldl (fun st t =>
    let st := match et_input t with Some f => eol_bind Inputs (input_path (et_id t)) f st | None => st end in
    match et_output t with Some f => eol_bind Outputs (official_output_path (et_id t)) f st | None => st end) (c, []) tests.
(** The state of the checkers, the two lists *)
Record eol_state := EolState { es_checkers : gmap (file_uuid * nat) eol; es_inputs : list string; es_outputs : list string }.
Definition es_list (k : eol_kind) (s : eol_state) : list string := match k with Inputs => es_inputs s | Outputs => es_outputs s end.
(** A call of a callback by the client: io.rs:58-60 *)
Definition eol_event (bs : list binding) (s : eol_state) (ev : cevent) : eol_state :=
  match ev with
  | EChunk f i b =>
    match find (fun x => bool_decide (b_file x = f /\ b_index x = i)) bs with
    | Some x =>
      let (e, w) := eol_chunk (default eol_new (es_checkers s !! (f, i))) b in
      EolState (<[(f, i) := e]> (es_checkers s))
        (es_inputs s ++ if w && bool_decide (b_kind x = Inputs) then [b_path x] else [])
        (es_outputs s ++ if w && bool_decide (b_kind x = Outputs) then [b_path x] else [])
    | None => s
    end
  | _ => s
  end.
Definition eol_run (bs : list binding) (tr : list cevent) : eol_state := foldl (eol_event bs) (EolState ∅ [] []) tr.
(** The order of strings (byte by byte) *)
Definition string_le (a b : string) : Prop := String.leb a b = true.
Global Instance string_le_dec : RelDecision string_le.
Proof. unfold string_le. solve_decision. Defined.
(** io.rs:75-95 [emit_warning]; the paths in the message *)
Definition emit_warning (files : list string) : option (list string) :=
  match files with [] => None | _ => Some (merge_sort string_le (remove_dups files)) end.
(** io.rs:134-142 [post_hook] *)
Definition eol_post_hook (s : eol_state) : list (eol_kind * list string) :=
  omap (fun k => pair k <$> emit_warning (es_list k s)) [Inputs; Outputs].

(** ** dag.rs: [CacheMode::try_from], tag.rs *)
(** std: [str::split] on a character: always at least one piece, nothing is trimmed *)
Fixpoint split_on (sep : Ascii.ascii) (s : string) : list string :=
  match s with
  | EmptyString => [""%string]
  | String c s =>
    if decide (c = sep) then ""%string :: split_on sep s
    else match split_on sep s with x :: l => String c x :: l | [] => [String c ""] end
  end.
(** tag.rs:5-15 [VALID_TAGS] *)
Definition valid_tags : list string := ["compilation"; "generation"; "evaluation"; "checking"; "booklet"]%string.
(** dag.rs:411-440 [CacheMode::try_from]; None: an error *)
Definition cache_mode_of (conf : option (option string)) (valid : list string) : option cache_mode :=
  match conf with
  | None => Some CacheEverything
  | Some None => Some CacheNothing
  | Some (Some l) =>
    let tags : gset string := list_to_set (split_on ","%char l) in
    if forallb (fun t => bool_decide (t ∈ valid)) (elements tags) then Some (CacheExcept tags) else None
  end.
