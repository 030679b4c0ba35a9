(** * CodecModel: what bincode writes for the index of the store and for the cache

    Definitions only.  task-maker-store/src/index.rs:84,104 and task-maker-cache/src/storage.rs:64,92 call
    [bincode::deserialize_from] / [bincode::serialize_into] (bincode 1.x, default options of these functions: little
    endian, fixed size integers, no limit, trailing bytes allowed) on types with derived [serde] implementations.  The
    library is not part of the repository: its format is modelled here.

    - A byte is a number below 256, a file is a list of bytes.
    - An [f64] is an opaque 64 bit pattern: the integers that stand for durations (DagModel.v) are written in two's
      complement.
    - The key number [k] is the 32 byte hash whose little endian value is [k - 1].
    - A hash map is written in some order; the caller gives the order as a list. *)
From stdpp Require Export gmap strings.
From Verif Require Export CacheModel StoreIndexModel.
Open Scope N_scope.

Definition decoder (A : Type) : Type := list N -> option (A * list N).
Definition dret {A} (a : A) : decoder A := fun bs => Some (a, bs).
Definition dfail {A} : decoder A := fun _ => None.
Definition dbind {A B} (d : decoder A) (k : A -> decoder B) : decoder B :=
  fun bs => match d bs with Some (a, bs) => k a bs | None => None end.
Notation "x <~ d ; k" := (dbind d (fun x => k)) (at level 100, d at next level, right associativity).

(** ** Primitive types (bincode [Serializer]/[Deserializer]) *)
Fixpoint enc_le (n : nat) (x : N) : list N :=
  match n with O => [] | S n => x mod 256 :: enc_le n (x / 256) end.
Fixpoint dec_le (n : nat) : decoder N :=
  match n with
  | O => dret 0
  | S n => fun bs => match bs with
                     | [] => None
                     | b :: bs => (x <~ dec_le n; dret (b + 256 * x)) bs
                     end
  end.
Definition enc_u8 (x : N) : list N := enc_le 1 x.
Definition dec_u8 : decoder N := dec_le 1.
Definition enc_u32 (x : Z) : list N := enc_le 4 (Z.to_N x).
Definition dec_u32 : decoder Z := x <~ dec_le 4; dret (Z.of_N x).
Definition enc_u64 (x : Z) : list N := enc_le 8 (Z.to_N x).
Definition dec_u64 : decoder Z := x <~ dec_le 8; dret (Z.of_N x).
Definition enc_f64 (x : Z) : list N := enc_le 8 (Z.to_N (x mod 2 ^ 64)).
Definition dec_f64 : decoder Z :=
  x <~ dec_le 8; dret (if Z.of_N x <? 2 ^ 63 then Z.of_N x else Z.of_N x - 2 ^ 64)%Z.
(** One byte, only 0 and 1 are accepted. *)
Definition enc_bool (b : bool) : list N := enc_u8 (if b then 1 else 0).
Definition dec_bool : decoder bool :=
  x <~ dec_u8; match x with 0 => dret false | 1 => dret true | _ => dfail end.
Definition enc_option {A} (e : A -> list N) (o : option A) : list N :=
  match o with None => enc_u8 0 | Some a => enc_u8 1 ++ e a end.
Definition dec_option {A} (d : decoder A) : decoder (option A) :=
  x <~ dec_u8; match x with 0 => dret None | 1 => (a <~ d; dret (Some a)) | _ => dfail end.
(** Sequences: the number of elements (u64) and the elements. *)
Definition enc_list {A} (e : A -> list N) (l : list A) : list N :=
  enc_u64 (Z.of_nat (length l)) ++ concat (map e l).
Fixpoint dec_n {A} (d : decoder A) (n : nat) : decoder (list A) :=
  match n with O => dret [] | S n => (a <~ d; l <~ dec_n d n; dret (a :: l)) end.
Definition dec_list {A} (d : decoder A) : decoder (list A) :=
  n <~ dec_u64; dec_n d (Z.to_nat n).
(** Strings and paths: the number of bytes and the bytes, which must be UTF-8. *)
Definition is_cont (b : N) : bool := (128 <=? b) && (b <? 192).
Fixpoint utf8 (l : list N) : bool :=
  match l with
  | [] => true
  | a :: l =>
    if a <? 128 then utf8 l
    else match l with
    | [] => false
    | b :: l =>
      if (194 <=? a) && (a <? 224) then is_cont b && utf8 l
      else match l with
      | [] => false
      | c :: l =>
        if (224 <=? a) && (a <? 240) then
          is_cont b && negb ((a =? 224) && (b <? 160)) && negb ((a =? 237) && (160 <=? b)) && is_cont c && utf8 l
        else match l with
        | [] => false
        | d :: l =>
          (240 <=? a) && (a <? 245) && is_cont b && negb ((a =? 240) && (b <? 144)) && negb ((a =? 244) && (144 <=? b)) &&
          is_cont c && is_cont d && utf8 l
        end
      end
    end
  end.
Definition str_bytes (s : string) : list N := map Ascii.N_of_ascii (String.list_ascii_of_string s).
Definition bytes_str (l : list N) : string := String.string_of_list_ascii (map Ascii.ascii_of_N l).
Definition enc_str (s : string) : list N := enc_list enc_u8 (str_bytes s).
Definition dec_str : decoder string :=
  l <~ dec_list dec_u8; if utf8 l then dret (bytes_str l) else dfail.
Definition enc_pair {A B} (e : A -> list N) (f : B -> list N) (x : A * B) : list N := e x.1 ++ f x.2.
Definition dec_pair {A B} (d : decoder A) (f : decoder B) : decoder (A * B) := a <~ d; b <~ f; dret (a, b).

(** ** task-maker-store *)
(** lib.rs:465-484: a [FileStoreKey] is its 32 bytes *)
Definition enc_key (k : store_key) : list N := enc_le 32 (Pos.pred_N k).
Definition dec_key : decoder store_key := x <~ dec_le 32; dret (N.succ_pos x).
(** serde: [SystemTime] is the pair of the seconds (u64) and nanoseconds (u32) since the epoch; the model's time is in
    nanoseconds.  An overflow is an error. *)
Definition enc_time (t : Z) : list N := enc_u64 (t / 1000000000) ++ enc_u32 (t mod 1000000000).
Definition dec_time : decoder Z :=
  s <~ dec_u64; n <~ dec_u32;
  if (s + n / 1000000000 <? 2 ^ 63)%Z then dret (s * 1000000000 + n)%Z else dfail.
(** index.rs:24-30 *)
Definition enc_item (i : item) : list N := enc_u64 (i_size i) ++ enc_time (i_time i).
Definition dec_item : decoder item := s <~ dec_u64; t <~ dec_time; dret (Item s t).
(** index.rs:44-51; [l]: the order of the map. *)
Definition enc_index (total : Z) (l : list (store_key * item)) : list N :=
  enc_u64 total ++ enc_list (enc_pair enc_key enc_item) l.
(** Later bindings of a key replace the earlier ones. *)
Definition dec_index : decoder index :=
  t <~ dec_u64; l <~ dec_list (dec_pair dec_key dec_item);
  dret (Index t (fold_left (fun m ki => <[ki.1 := ki.2]> m) l ∅)).

(** ** task-maker-dag *)
(** execution.rs:62-68 *)
Definition enc_command (c : command) : list N :=
  match c with System p => enc_u32 0 ++ enc_str p | Local p => enc_u32 1 ++ enc_str p end.
Definition dec_command : decoder command :=
  t <~ dec_u32;
  match t with
  | 0%Z => (p <~ dec_str; dret (System p))
  | 1%Z => (p <~ dec_str; dret (Local p))
  | _ => dfail
  end.
(** execution.rs:186-218 *)
Definition enc_limits (l : limits) : list N :=
  enc_option enc_f64 (l_cpu_time l) ++ enc_option enc_f64 (l_sys_time l) ++ enc_option enc_f64 (l_wall_time l) ++
  enc_option enc_u64 (l_memory l) ++ enc_bool (l_allow_multiprocess l) ++ enc_option enc_u32 (l_nofile l) ++
  enc_option enc_u64 (l_fsize l) ++ enc_option enc_u64 (l_memlock l) ++ enc_option enc_u64 (l_stack l) ++
  enc_bool (l_read_only l) ++ enc_bool (l_mount_tmpfs l) ++ enc_bool (l_mount_proc l) ++
  enc_list enc_str (l_extra_readable_dirs l).
Definition dec_limits : decoder limits :=
  a <~ dec_option dec_f64; b <~ dec_option dec_f64; c <~ dec_option dec_f64; d <~ dec_option dec_u64;
  e <~ dec_bool; f <~ dec_option dec_u32; g <~ dec_option dec_u64; h <~ dec_option dec_u64; i <~ dec_option dec_u64;
  j <~ dec_bool; k <~ dec_bool; l <~ dec_bool; m <~ dec_list dec_str;
  dret (Limits a b c d e f g h i j k l m).
(** execution.rs:220-239 *)
Definition enc_status (s : status) : list N :=
  match s with
  | Success => enc_u32 0
  | ReturnCode c => enc_u32 1 ++ enc_u32 c
  | Signal s n => enc_u32 2 ++ enc_u32 s ++ enc_str n
  | TimeLimitExceeded => enc_u32 3
  | SysTimeLimitExceeded => enc_u32 4
  | WallTimeLimitExceeded => enc_u32 5
  | MemoryLimitExceeded => enc_u32 6
  | InternalError m => enc_u32 7 ++ enc_str m
  end.
Definition dec_status : decoder status :=
  t <~ dec_u32;
  match t with
  | 0%Z => dret Success
  | 1%Z => (c <~ dec_u32; dret (ReturnCode c))
  | 2%Z => (s <~ dec_u32; n <~ dec_str; dret (Signal s n))
  | 3%Z => dret TimeLimitExceeded
  | 4%Z => dret SysTimeLimitExceeded
  | 5%Z => dret WallTimeLimitExceeded
  | 6%Z => dret MemoryLimitExceeded
  | 7%Z => (m <~ dec_str; dret (InternalError m))
  | _ => dfail
  end.
(** execution.rs:241-253 *)
Definition enc_resources (r : resources) : list N :=
  enc_f64 (r_cpu_time r) ++ enc_f64 (r_sys_time r) ++ enc_f64 (r_wall_time r) ++ enc_u64 (r_memory r).
Definition dec_resources : decoder resources :=
  a <~ dec_f64; b <~ dec_f64; c <~ dec_f64; d <~ dec_u64; dret (Resources a b c d).
(** execution.rs:255-270 *)
Definition enc_result (r : exec_result) : list N :=
  enc_status (res_status r) ++ enc_bool (res_was_killed r) ++ enc_bool (res_was_cached r) ++
  enc_resources (res_resources r) ++ enc_option (enc_list enc_u8) (res_stdout r) ++
  enc_option (enc_list enc_u8) (res_stderr r).
Definition dec_result : decoder exec_result :=
  a <~ dec_status; b <~ dec_bool; c <~ dec_bool; d <~ dec_resources;
  e <~ dec_option (dec_list dec_u8); f <~ dec_option (dec_list dec_u8);
  dret (ExecResult a b c d e f).

(** ** task-maker-cache *)
(** key.rs:10-25: derived for the tuple (path, key, executable) *)
Definition enc_key_input (i : key_input) : list N := enc_str i.1.1 ++ enc_key i.1.2 ++ enc_bool i.2.
Definition dec_key_input : decoder key_input := p <~ dec_str; k <~ dec_key; b <~ dec_bool; dret (p, k, b).
Definition enc_key_item (k : key_item) : list N :=
  enc_command (ki_command k) ++ enc_list enc_str (ki_args k) ++ enc_option enc_key (ki_stdin k) ++
  enc_list enc_key_input (ki_inputs k) ++ enc_list (enc_pair enc_str enc_str) (ki_env k).
Definition dec_key_item : decoder key_item :=
  a <~ dec_command; b <~ dec_list dec_str; c <~ dec_option dec_key; d <~ dec_list dec_key_input;
  e <~ dec_list (dec_pair dec_str dec_str); dret (KeyItem a b c d e).
(** A decoded map of paths: later bindings of a path replace the earlier ones. *)
Fixpoint pinsert {A} (p : path) (v : A) (l : list (path * A)) : list (path * A) :=
  match l with
  | [] => [(p, v)]
  | (q, w) :: l => if decide (p = q) then (p, v) :: l else (q, w) :: pinsert p v l
  end.
(** entry.rs:10-27; the map of the outputs is written in the order of the list. *)
Definition enc_entry_item (i : entry_item) : list N :=
  enc_result (ei_result i) ++ enc_limits (ei_limits i) ++ enc_f64 (ei_extra_time i) ++ enc_u64 (ei_extra_memory i) ++
  enc_option enc_key (ei_stdout i) ++ enc_option enc_key (ei_stderr i) ++
  enc_list (enc_pair enc_str enc_key) (ei_outputs i).
Definition dec_entry_item : decoder entry_item :=
  a <~ dec_result; b <~ dec_limits; c <~ dec_f64; d <~ dec_u64; e <~ dec_option dec_key; f <~ dec_option dec_key;
  g <~ dec_list (dec_pair dec_str dec_key);
  dret (EntryItem a b c d e f (fold_left (fun m pk => pinsert pk.1 pk.2 m) g [])).
(** storage.rs:92: the entries as a sequence of pairs, storage.rs:64: read back as a map. *)
Definition enc_cache (c : cache) : list N :=
  enc_list (enc_pair (enc_list enc_key_item) (enc_list (enc_list enc_entry_item))) c.
Definition dec_cache : decoder cache :=
  l <~ dec_list (dec_pair (dec_list dec_key_item) (dec_list (dec_list dec_entry_item)));
  dret (fold_left (fun c ke => cupdate ke.1 ke.2 c) l []).
