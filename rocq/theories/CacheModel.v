(** * CacheModel: task-maker-cache/src/{key.rs,entry.rs,lib.rs}

    Definitions only.  Loading and storing the file (storage.rs) is in CodecModel.v / RestartModel.v.

    - File handles are their store keys; [FileStore::get] is the function [st : store_key -> bool] telling whether
      the file is in the store (the store itself is StoreModel.v).
    - The [HashMap] of the entries is an association list with at most one binding per key.
    - u64 subtraction of the extra memory: [checked = true] is a build with overflow checks (panic), [false] the
      wrap-around of release builds.
    - f64 durations are exact integers (see DagModel.v). *)
From stdpp Require Export pretty.
From Verif Require Export SchedModel.

(** ** Sorting ([itertools::sorted] with the derived tuple order) *)
(** Lexicographic order on sequences of numbers. *)
Fixpoint lex_le (a b : list N) : bool :=
  match a, b with
  | [], _ => true
  | _ :: _, [] => false
  | x :: a, y :: b => if (x <? y)%N then true else if (x =? y)%N then lex_le a b else false
  end.
(** Bytes of a string plus one, ended by 0: with it the order of the concatenations is the order of the tuples. *)
Fixpoint str_code (s : string) : list N :=
  match s with EmptyString => [0%N] | String a s => N.succ (Ascii.N_of_ascii a) :: str_code s end.
Notation key_input := (path * store_key * bool)%type.
Definition input_code (i : key_input) : list N := str_code i.1.1 ++ [Npos i.1.2; if i.2 then 1%N else 0%N].
Definition env_code (i : string * string) : list N := str_code i.1 ++ str_code i.2.
Definition input_le (a b : key_input) : Prop := lex_le (input_code a) (input_code b) = true.
Definition env_le (a b : string * string) : Prop := lex_le (env_code a) (env_code b) = true.
Global Instance input_le_dec a b : Decision (input_le a b).
Proof. unfold input_le. apply _. Defined.
Global Instance env_le_dec a b : Decision (env_le a b).
Proof. unfold env_le. apply _. Defined.

(** ** key.rs *)
(** key.rs:10-25 [CacheKeyItem], key.rs:29-33 [CacheKey] (the list of the items) *)
Record key_item := KeyItem {
  ki_command : command;
  ki_args : list string;
  ki_stdin : option store_key;
  ki_inputs : list key_input;
  ki_env : list (string * string)
}.
Global Instance key_item_eq_dec : EqDecision key_item.
Proof. solve_decision. Defined.
Notation cache_key := (list key_item).

(** execution_group.rs:10, 50-52 [Fifo::sandbox_path]; the textual form of the uuid is a decimal number here. *)
Definition fifo_path (u : fifo_uuid) : string := "tm_pipes/" +:+ pretty u.
(** key.rs:53-57: the map from the path of a fifo to its name in the key ("tm_fifo_{i}"). *)
Definition fifo_name (i : nat) : string := "tm_fifo_" +:+ pretty i.
Definition fifo_names (g : group) : gmap string string :=
  fold_left (fun m iu => <[fifo_path iu.2 := fifo_name iu.1]> m) (imap pair (g_fifo g)) ∅.
(** key.rs:58-66 *)
Definition key_args (g : group) (args : list string) : list string :=
  map (fun a => default a (fifo_names g !! a)) args.

(** key.rs:38-75 [CacheKeyItem::from_execution]: [file_keys[..]] panics on a missing file. *)
Definition key_of_exec (keys : gmap file_uuid store_key) (g : group) (e : execution) : res key_item :=
  let! stdin := match e_stdin e with
                | None => ROk None
                | Some f => match keys !! f with Some k => ROk (Some k) | None => RPanic end
                end in
  let! inputs := rfold (fun acc pi =>
     match keys !! in_file pi.2 with
     | Some k => ROk (acc ++ [(pi.1, k, in_executable pi.2)])
     | None => RPanic
     end) (e_inputs e) [] in
  ROk (KeyItem (e_command e) (key_args g (e_args e)) stdin (merge_sort input_le inputs) (merge_sort env_le (e_env e))).

(** key.rs:81-92 [CacheKey::from_execution_group] *)
Definition key_of_group (keys : gmap file_uuid store_key) (g : group) : res cache_key :=
  rfold (fun acc e => let! k := key_of_exec keys g e in ROk (acc ++ [k])) (g_execs g) [].

(** ** entry.rs *)
(** entry.rs:10-27 [CacheEntryItem], entry.rs:34-38 [CacheEntry] (the list of the items) *)
Record entry_item := EntryItem {
  ei_result : exec_result;
  ei_limits : limits;
  ei_extra_time : Z;
  ei_extra_memory : Z;
  ei_stdout : option store_key;
  ei_stderr : option store_key;
  ei_outputs : list (path * store_key)
}.
Notation cache_entry := (list entry_item).

(** entry.rs:42-72 [CacheEntryItem::from_execution] *)
Definition item_of_exec (keys : gmap file_uuid store_key) (e : execution) (r : exec_result) : res entry_item :=
  let stdout := f ← e_stdout e; keys !! f in
  let stderr := f ← e_stderr e; keys !! f in
  let! outs := rfold (fun acc pf =>
     match keys !! pf.2 with Some k => ROk (acc ++ [(pf.1, k)]) | None => RPanic end) (e_outputs e) [] in
  ROk (EntryItem r (e_limits e) (cfg_extra_time (e_config e)) (cfg_extra_memory (e_config e)) stdout stderr outs).

(** entry.rs:76-87 [CacheEntry::from_execution_group] *)
Definition entry_of_group (keys : gmap file_uuid store_key) (g : group) (results : list exec_result) : res cache_entry :=
  rfold (fun acc er => let! i := item_of_exec keys er.1 er.2 in ROk (acc ++ [i])) (zip (g_execs g) results) [].

(** entry.rs:89-100 [same_limits] *)
Definition same_limits (a b : cache_entry) : bool :=
  bool_decide (length a = length b) &&
  forallb (fun xy => bool_decide (ei_limits xy.1 = ei_limits xy.2)) (zip a b).

(** Lookup of a path in a map. *)
Fixpoint plookup {A} (p : path) (l : list (path * A)) : option A :=
  match l with [] => None | (q, v) :: l => if decide (p = q) then Some v else plookup p l end.

(** entry.rs:104-150 [outputs]: one file: [None] (the whole function returns [None]) if it was not recorded or is gone. *)
Definition add_output (st : store_key -> bool) (f : file_uuid) (k : option store_key) (m : gmap file_uuid store_key)
    : option (gmap file_uuid store_key) :=
  match k with
  | Some k => if st k then Some (<[f := k]> m) else None
  | None => None
  end.
Fixpoint ofoldl {A B} (f : B -> A -> option B) (l : list A) (b : B) : option B :=
  match l with [] => Some b | x :: l => match f b x with Some b' => ofoldl f l b' | None => None end end.
Definition item_outputs (st : store_key -> bool) (m : gmap file_uuid store_key) (ei : execution * entry_item)
    : option (gmap file_uuid store_key) :=
  let '(e, i) := ei in
  match (match e_stdout e with Some f => add_output st f (ei_stdout i) m | None => Some m end) with
  | None => None
  | Some m =>
    match (match e_stderr e with Some f => add_output st f (ei_stderr i) m | None => Some m end) with
    | None => None
    | Some m => ofoldl (fun m pf => add_output st pf.2 (plookup pf.1 (ei_outputs i)) m) (e_outputs e) m
    end
  end.
Definition entry_outputs (st : store_key -> bool) (g : group) (en : cache_entry) : option (gmap file_uuid store_key) :=
  ofoldl (item_outputs st) (zip (g_execs g) en) ∅.

(** entry.rs:157-168 [check_limit!] *)
Definition check_limit (l r : option Z) (extra : Z) : bool :=
  match l, r with
  | Some l, Some r => negb (bool_decide (l + extra > r)%Z)
  | None, Some _ => false
  | _, _ => true
  end.
(** [check_limit!] for the memory: [l + (a - b) > r] on u64 ([None]: overflow panic). *)
Definition U64 : Z := 2 ^ 64.
Definition check_memory (checked : bool) (l r : option Z) (a b : Z) : option bool :=
  match l, r with
  | Some l, Some r =>
    if checked then
      if bool_decide (a < b)%Z then None
      else if bool_decide (U64 <= l + (a - b))%Z then None
      else Some (negb (bool_decide (l + (a - b) > r)%Z))
    else Some (negb (bool_decide ((l + (a - b) mod U64) mod U64 > r)%Z))
  | None, Some _ => Some false
  | _, _ => Some true
  end.
(** entry.rs:188-197: the readable directories. *)
Definition check_dirs (l r : list path) : bool :=
  let ls : gset string := list_to_set l in
  let rs : gset string := list_to_set r in
  negb (bool_decide (ls <> rs) && bool_decide (rs ⊆ ls)).
(** entry.rs:170-199 [check_limits!], in order ([false]: not compatible).  [bool] order: [false < true]. *)
Definition check_limits (checked : bool) (l r : limits) (extra_time mem_a mem_b : Z) : option bool :=
  if negb (check_limit (l_cpu_time l) (l_cpu_time r) extra_time) then Some false
  else if negb (check_limit (l_sys_time l) (l_sys_time r) extra_time) then Some false
  else if negb (check_limit (l_wall_time l) (l_wall_time r) extra_time) then Some false
  else match check_memory checked (l_memory l) (l_memory r) mem_a mem_b with
       | None => None
       | Some false => Some false
       | Some true => Some (
         check_limit (l_nofile l) (l_nofile r) 0 &&
         check_limit (l_fsize l) (l_fsize r) 0 &&
         check_limit (l_memlock l) (l_memlock r) 0 &&
         check_limit (l_stack l) (l_stack r) 0 &&
         negb (l_allow_multiprocess l && negb (l_allow_multiprocess r)) &&
         negb (negb (l_read_only l) && l_read_only r) &&
         negb (l_mount_tmpfs l && negb (l_mount_tmpfs r)) &&
         check_dirs (l_extra_readable_dirs l) (l_extra_readable_dirs r))
       end.

(** entry.rs:200-228: the loop of [is_compatible]; [et], [em] are the extras of [group.config()]. *)
Fixpoint compatible_loop (checked : bool) (et em : Z) (l : list (execution * entry_item)) : option bool :=
  match l with
  | [] => Some true
  | (e, i) :: l =>
    match (match res_status (ei_result i) with
           | Success => check_limits checked (ei_limits i) (e_limits e) (ei_extra_time i - et) (ei_extra_memory i) em
           | _ => check_limits checked (e_limits e) (ei_limits i) (et - ei_extra_time i) em (ei_extra_memory i)
           end) with
    | Some true => compatible_loop checked et em l
    | r => r
    end
  end.
(** execution_group.rs:90-95 [config] panics on an empty group. *)
Definition is_compatible (checked : bool) (g : group) (en : cache_entry) : option bool :=
  match g_execs g with
  | [] => None
  | e :: _ => compatible_loop checked (cfg_extra_time (e_config e)) (cfg_extra_memory (e_config e)) (zip (g_execs g) en)
  end.

(** ** lib.rs *)
Notation cache := (list (cache_key * list cache_entry)).
Fixpoint clookup (k : cache_key) (c : cache) : list cache_entry :=
  match c with [] => [] | (k', es) :: c => if decide (k = k') then es else clookup k c end.
Fixpoint cupdate (k : cache_key) (es : list cache_entry) (c : cache) : cache :=
  match c with
  | [] => [(k, es)]
  | (k', es') :: c => if decide (k = k') then (k, es) :: c else (k', es') :: cupdate k es c
  end.
(** lib.rs:147-154: replace the first entry with the same limits or append. *)
Fixpoint put_entry (en : cache_entry) (es : list cache_entry) : list cache_entry :=
  match es with
  | [] => [en]
  | e :: es => if same_limits e en then en :: es else e :: put_entry en es
  end.
(** lib.rs:138-156 [Cache::insert] *)
Definition cache_insert (g : group) (keys : gmap file_uuid store_key) (results : list exec_result) (c : cache) : res cache :=
  let! k := key_of_group keys g in
  let! en := entry_of_group keys g results in
  ROk (cupdate k (put_entry en (clookup k c)) c).

(** lib.rs:186-200: the results of a hit. *)
Definition replay (e : execution) (r : exec_result) : exec_result :=
  let '(code, sig) := match res_status r with
                      | ReturnCode c => (c, None)
                      | Signal s name => (0%Z, Some (s, name))
                      | _ => (0%Z, None)
                      end in
  ExecResult (exec_status e code sig (res_resources r)) (res_was_killed r) true (res_resources r) (res_stdout r) (res_stderr r).
Definition replays (g : group) (en : cache_entry) : list exec_result :=
  map (fun ei => replay ei.1 (ei_result ei.2)) (zip (g_execs g) en).
(** lib.rs:164-210 [Cache::get]: [None] is a miss. *)
Fixpoint search (checked : bool) (st : store_key -> bool) (g : group) (es : list cache_entry)
    : res (option (list exec_result * gmap file_uuid store_key)) :=
  match es with
  | [] => ROk None
  | en :: es =>
    match entry_outputs st g en with
    | None => search checked st g es
    | Some outs =>
      match is_compatible checked g en with
      | None => RPanic
      | Some true => ROk (Some (replays g en, outs))
      | Some false => search checked st g es
      end
    end
  end.
Definition cache_get (checked : bool) (st : store_key -> bool) (g : group) (keys : gmap file_uuid store_key) (c : cache)
    : res (option (list exec_result * gmap file_uuid store_key)) :=
  let! k := key_of_group keys g in
  search checked st g (clookup k c).
