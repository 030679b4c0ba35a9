(** * CursesModel: the live screen (ui/curses.rs, the layout of ioi/curses_ui.rs and of terry/curses_ui.rs)

    Definitions only.

    - A text is a list of code points; a panel is the list of its rows; ratatui shows the rows of a panel from the
      first until there is no more space, and cuts them at the border.  Colors are left out.
    - The rows of the evaluations are those of C89 (a row for each solution) and are given; the text of a duration
      is given.
    - u16 and i16 do not wrap around, but the number of workers, which is compared as a u16.
    - When the lengths of a layout do not fit in the screen the heights are chosen by ratatui: not modelled. *)
From Coq Require Import Ascii String.
From Coq Require Export ZArith NArith.
From stdpp Require Export list.

Notation text := (list N).
Definition t (s : string) : text := map N_of_ascii (list_ascii_of_string s).
(** [char::len_utf8], [str::len] *)
Definition utf8_len (c : N) : nat := if (c <? 128)%N then 1 else if (c <? 2048)%N then 2 else if (c <? 65536)%N then 3 else 4.
Definition bytes (s : text) : nat := list_sum (map utf8_len s).
(** [format!("{:<n$}", s)]: the width is in chars *)
Definition pad (n : nat) (s : text) : text := s ++ replicate (n - length s) 32%N.
Definition max_bytes (l : list text) : nat := fold_right max 0 (map bytes l).

(** [sorted_by_key], a stable sort *)
Fixpoint text_leb (a b : text) : bool :=
  match a, b with
  | [], _ => true
  | _, [] => false
  | x :: a, y :: b => (x <? y)%N || (x =? y)%N && text_leb a b
  end.
Section sort.
  Context {A : Type} (key : A -> text).
  Fixpoint insert_by (x : A) (l : list A) : list A :=
    match l with
    | [] => [x]
    | y :: r => if text_leb (key x) (key y) then x :: l else y :: insert_by x r
    end.
  Definition sort_by (l : list A) : list A := fold_right insert_by [] l.
End sort.

(** ** Compilations (curses.rs:226-267) *)
Inductive comp_status := CPending | CRunning | CDone | CFailed | CSkipped.
Definition compilation_status_text (loading : N) (s : comp_status) : text :=
  match s with
  | CPending => t "... "
  | CRunning => loading :: t "   "
  | CDone => t "OK  "
  | CFailed => t "FAIL"
  | CSkipped => t "skip"
  end.
(** A compilation: its path, the name of the file, the status. *)
Record compilation := Compilation { c_path : text; c_name : text; c_status : comp_status }.
Definition draw_compilations (loading : N) (cs : list compilation) : list text :=
  let max_len := max_bytes (map c_name cs) + 4 in
  map (fun c => pad max_len (c_name c) ++ compilation_status_text loading (c_status c)) (sort_by c_path cs).

(** ** Booklets (ioi/curses_ui.rs:149-190) *)
Inductive step := SPending | SStarted | SSkipped | SSuccess | SInternal | SFailed.
Definition ui_execution_status_text (loading : N) (s : step) : text :=
  match s with
  | SPending => t "."
  | SStarted => [loading]
  | SSkipped => t "S"
  | SSuccess => t "S"
  | SInternal => t "I"
  | SFailed => t "F"
  end.
Record booklet := Booklet { b_name : text; b_status : step; b_deps : list (text * list step) }.
Definition booklet_rows (loading : N) (b : booklet) : list text :=
  (pad 20 (b_name b) ++ t " " ++ ui_execution_status_text loading (b_status b)) ::
  map (fun d => t "  " ++ pad 18 d.1 ++ t " " ++ t "[" ++ (d.2 ≫= ui_execution_status_text loading) ++ t "]") (sort_by fst (b_deps b)).
Definition draw_booklets (loading : N) (bs : list booklet) : list text := sort_by b_name bs ≫= booklet_rows loading.

(** ** Workers (curses.rs:277-412) *)
(** A worker: its name, the name of its job and since how many seconds (printed with two decimals). *)
Record worker := Worker { wk_name : text; wk_job : option (text * text) }.
(** curses.rs:386-406 *)
Definition job_line (width : nat) (loading : N) (name_len : nat) (job duration : text) : text :=
  let line := loading :: 32%N :: job ++ t " (" ++ duration ++ t "s)" in
  if width <? name_len + length line then
    let extra := name_len + length line - width in
    if bytes job <? extra + 3 then take width line
    else loading :: 32%N :: take (bytes job - extra - 3) line ++ t "... (" ++ duration ++ t "s)"
  else line.
Definition worker_name (max_len : nat) (w : worker) : text := t "- " ++ pad max_len (wk_name w) ++ t " ".
(** curses.rs:368-412 *)
Definition draw_workers_chunk (width : nat) (loading : N) (ws : list worker) : list text :=
  let max_len := max_bytes (map wk_name ws) in
  map (fun w => let n := worker_name max_len w in
    n ++ match wk_job w with Some (job, d) => job_line width loading (length n) job d | None => [] end) ws.
(** curses.rs:330-342: the widths of the columns *)
Definition columns (width height n : nat) : list nat :=
  if (N.of_nat height <? N.of_nat n mod 65536)%N then [width / 2; width - width / 2] else [width].
(** curses.rs:357-361 [cycle().skip(r).take(n)] *)
Definition rotate (r : nat) (ws : list worker) : list worker :=
  omap (fun i => ws !! ((r + i) mod length ws)) (seq 0 (length ws)).
(** curses.rs:319-366 [draw_server_status]: the workers of each column.  A column with no chunk has no worker. *)
Definition server_columns (width height rotation : nat) (ws : list worker) : list (nat * list worker) :=
  let cols := columns width height (length ws) in
  let sorted := sort_by wk_name ws in
  let rotation := if length ws <=? height * length cols then 0 else rotation in
  if height =? 0 then [] else imap (fun i w => (w, take height (drop (i * height) (rotate rotation sorted)))) cols.
(** curses.rs:291-297; 30 frames for each second, a second for each rotation *)
Definition rotation_of (frame_index : nat) : nat := frame_index / 30 / 1.
(** What is drawn: for each column its width and its rows. *)
Definition draw_server_status (width height frame_index : nat) (loading : N) (ws : list worker) : list (nat * list text) :=
  map (fun c => (c.1, draw_workers_chunk c.1 loading c.2)) (server_columns width height (rotation_of frame_index) ws).

(** ** The layout (ioi/curses_ui.rs:40-146; terry/curses_ui.rs:38-108 with no booklets and no generations) *)
Record view := View {
  v_compilations : list compilation;       (* those of files that are not solutions *)
  v_booklets : list booklet;
  v_generations : option text;             (* the row of the generations, if there is any subtask *)
  v_evaluations : list text;               (* a row for each solution *)
  v_workers : option (list worker)
}.
Definition header_len := 2.
Definition compilations_len (v : view) : nat := if length (v_compilations v) =? 0 then 0 else length (v_compilations v) + 2.
Definition booklet_len (v : view) : nat :=
  if length (v_booklets v) =? 0 then 0 else list_sum (map (fun b => length (b_deps b) + 1) (v_booklets v)) + 2.
Definition generations_len (v : view) : nat := match v_generations v with None => 0 | Some _ => 3 end.
Definition evaluations_len (v : view) : nat := length (v_evaluations v) + 2.
Definition top_height (v : view) : nat := header_len + compilations_len v + booklet_len v + generations_len v.
Definition workers_len (v : view) (total : nat) : nat :=
  let w := match v_workers v with None => 0 | Some ws => length ws end + 2 in
  if total <? top_height v + evaluations_len v + w
  then Z.to_nat (Z.max 3 (Z.of_nat total - Z.of_nat (top_height v) - Z.of_nat (evaluations_len v)))
  else w.
(** The heights of the panels: compilations, booklets, generations, evaluations, workers. *)
Record heights := Heights { h_compilations : nat; h_booklets : nat; h_generations : nat; h_evaluations : nat; h_workers : nat }.
Definition layout (v : view) (total : nat) : option heights :=
  let w := workers_len v total in
  if top_height v + w <=? total
  then Some (Heights (compilations_len v) (booklet_len v) (generations_len v) (total - (top_height v + w)) w)
  else None.
(** The rows inside of the border (curses.rs:218-223), and those that are visible. *)
Definition inner_height (h : nat) : nat := if h <? 2 then 0 else h - 2.
Definition visible (h : nat) (rows : list text) : list text := take (inner_height h) rows.
