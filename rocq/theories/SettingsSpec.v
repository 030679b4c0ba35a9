(** * SettingsSpec: what the settings of a task are *)
From Coq Require Import NArith Ascii String.
From stdpp Require Import base list.
From Verif Require Export SettingsModel.
Local Open Scope string_scope.
Local Open Scope list_scope.

(** The document has nothing under these names *)
Definition silent (d : doc) (names : list string) : Prop := forall k n, (k, n) ∈ d -> k ∉ names.
(** It has one value under these names, and only one *)
Definition says (d : doc) (names : list string) (n : node) : Prop :=
  exists a k b, d = a ++ (k, n) :: b /\ k ∈ names /\ silent (a ++ b) names.
(** A plain scalar that means nothing: empty, or null *)
Definition nothing (n : node) : Prop := exists t, n = YScalar t true /\ t ∈ [""; "~"; "null"; "Null"; "NULL"].
Definition text_of (n : node) (t : string) : Prop := exists p, n = YScalar t p.

(** What is expected of the numbers and of the quotes of serde_yaml: an unsigned number is read back, and a text that means
    nothing is quoted *)
Record syntax_ok (y : yaml_syntax) : Prop := {
  uint_ok : forall n, parse_uint y (pretty n) = Some n;
  quotes_ok : forall t, t ∈ [""; "~"; "null"; "Null"; "NULL"] -> plain_ok y t = false }.
(** This floating point number is read back as it is *)
Definition survives (y : yaml_syntax) (x : f64) : Prop :=
  parse_float y (show_float y x) = Some x /\ show_float y x ∉ [""; "~"; "null"; "Null"; "NULL"].

(** The names of the keys before they were translated *)
Definition canonical (k : string) : string :=
  if decide (k = "nome_breve") then "name" else if decide (k = "nome") then "title"
  else if decide (k = "timeout") then "time_limit" else if decide (k = "memlimit") then "memory_limit" else k.
(** The keys that mean something *)
Definition known_keys : list string :=
  ["name"; "nome_breve"; "title"; "nome"; "score_type"; "score_type_parameters"; "score_precision"; "primary_language";
   "time_limit"; "timeout"; "memory_limit"; "memlimit"; "output_only"; "infile"; "outfile"; "difficulty"; "syllabuslevel";
   "num_processes"; "user_io"; "score_mode"; "token_mode"; "public_testcases"; "feedback_level"].

(** Decimal digits and their value *)
Definition digit_value (c : ascii) : option N := let n := N_of_ascii c in if decide (48 <= n <= 57)%N then Some (n - 48)%N else None.
Fixpoint decimal (acc : N) (t : string) : option N :=
  match t with EmptyString => Some acc | String c t => d ← digit_value c; decimal (10 * acc + d) t end.

(** ** The meaning of the files *)
Definition must {A} (d : doc) (names : list string) (P : node -> A -> Prop) (x : A) : Prop := exists n, says d names n /\ P n x.
Definition unless {A} (d : doc) (names : list string) (P : node -> A -> Prop) (a x : A) : Prop := (silent d names /\ x = a) \/ must d names P x.
Definition may {A} (d : doc) (names : list string) (P : node -> A -> Prop) (o : option A) : Prop :=
  match o with
  | None => silent d names \/ must d names (fun n _ => nothing n) tt
  | Some x => exists n, says d names n /\ ~ nothing n /\ P n x
  end.
Definition bool_of (n : node) (b : bool) : Prop :=
  exists t, n = YScalar t true /\ t ∈ if b then ["true"; "True"; "TRUE"] else ["false"; "False"; "FALSE"].
Definition score_type_of (n : node) (k : score_kind) : Prop :=
  exists t, text_of n t /\ t ∈ match k with KMin => ["min"; "GroupMin"] | KSum => ["sum"; "Sum"] end.
Section meaning.
  Context (y : yaml_syntax).
  Definition float_of (n : node) (x : f64) : Prop := exists t, n = YScalar t true /\ parse_float y t = Some x.
  Definition uint_of (limit : N) (n : node) (x : N) : Prop := exists t, n = YScalar t true /\ parse_uint y t = Some x /\ (x < limit)%N.
  Definition parameters_are (n : node) (l : list (f64 * string)) : Prop :=
    exists ns, n = YSeq ns /\ Forall2 (fun n p => exists a b, n = YSeq [a; b] /\ float_of a p.1 /\ text_of b p.2) ns l.
  (** task.yaml; the limits are 64 bits for the precision and the memory, 8 bits for the levels and the processes *)
  Record yaml_means (d : doc) (s : settings) : Prop := {
    ym_name : must d ["name"; "nome_breve"] text_of (s_name s);
    ym_title : must d ["title"; "nome"] text_of (s_title s);
    ym_score : may d ["score_type"] score_type_of (s_score_type s);
    ym_parameters : may d ["score_type_parameters"] parameters_are (s_parameters s);
    ym_precision : unless d ["score_precision"] (uint_of (2 ^ 64)) 0%N (s_precision s);
    ym_language : may d ["primary_language"] text_of (s_language s);
    ym_time : may d ["time_limit"; "timeout"] float_of (s_time s);
    ym_memory : may d ["memory_limit"; "memlimit"] (uint_of (2 ^ 64)) (s_memory s);
    ym_output_only : unless d ["output_only"] bool_of false (s_output_only s);
    ym_infile : unless d ["infile"] text_of "input.txt" (s_infile s);
    ym_outfile : unless d ["outfile"] text_of "output.txt" (s_outfile s);
    ym_difficulty : may d ["difficulty"] (uint_of 256) (s_difficulty s);
    ym_syllabus : may d ["syllabuslevel"] (uint_of 256) (s_syllabus s);
    ym_processes : may d ["num_processes"] (uint_of 256) (s_processes s);
    ym_user_io : may d ["user_io"] text_of (s_user_io s);
    ym_score_mode : may d ["score_mode"] text_of (s_score_mode s);
    ym_token_mode : may d ["token_mode"] text_of (s_token_mode s);
    ym_public : may d ["public_testcases"] text_of (s_public s);
    ym_feedback : may d ["feedback_level"] text_of (s_feedback s) }.
  (** task.yaml.orig, in the directory [dir] *)
  Record orig_means (dir : string) (d : doc) (s : settings) : Prop := {
    om_name : s_name s = dir /\ exists x, unless d ["name"] text_of "" x;
    om_title : must d ["title"] text_of (s_title s);
    om_score : may d ["score_type"] score_type_of (s_score_type s);
    om_parameters : s_parameters s = None;
    om_precision : unless d ["score_precision"] (uint_of (2 ^ 64)) 0%N (s_precision s);
    om_language : exists o, may d ["primary_language"] text_of o /\ s_language s = Some (match o with Some l => l | None => "en" end);
    om_time : exists x, s_time s = Some x /\ must d ["time_limit"] float_of x;
    om_memory : exists x, s_memory s = Some x /\ must d ["memory_limit"] (uint_of (2 ^ 64)) x;
    om_output_only : unless d ["output_only"] bool_of false (s_output_only s);
    om_infile : unless d ["infile"] text_of "" (s_infile s);
    om_outfile : unless d ["outfile"] text_of "" (s_outfile s);
    om_difficulty : may d ["difficulty"] (uint_of 256) (s_difficulty s);
    om_syllabus : may d ["syllabuslevel"] (uint_of 256) (s_syllabus s);
    om_processes : may d ["num_processes"] (uint_of 256) (s_processes s);
    om_user_io : may d ["user_io"] text_of (s_user_io s);
    om_others : s_score_mode s = Some "max_subtask" /\ s_token_mode s = Some "disabled" /\ s_public s = Some "all" /\ s_feedback s = Some "full" }.
End meaning.
(** The pieces of a text between the bars *)
Fixpoint between_bars (t : string) : list string :=
  match t with
  | EmptyString => [""]
  | String c t =>
    if decide (c = "|"%char) then "" :: between_bars t
    else match between_bars t with p :: ps => String c p :: ps | [] => [String c ""] end
  end.
(** The testcases of a subtask as they are written: numbers of at least three digits between bars; nothing if there are none *)
Definition lists (t : string) (l : list nat) : Prop :=
  match l with
  | [] => t = ""
  | _ => Forall2 (fun p tc => decimal 0 p = Some (N.of_nat tc) /\ 3 <= String.length p) (between_bars t) l
  end.
