(** * GenBackModel: the gen/GEN that cases_gen.rs [write_gen_gen] makes from a gen/cases.gen (task-maker-format/src/ioi/format/italian_yaml/cases_gen.rs)

    Definitions only; the lines of an entry are in TaskModel, the reading of gen/cases.gen and of gen/GEN in FormatModel. *)
From stdpp Require Import pretty.
From Verif Require Export FormatModel TaskModel.

(** cases_gen.rs:716-726: [Display] of an operator *)
Definition operator_text (o : operator) : text :=
  match o with Less => chars "<" | LessEqual => chars "<=" | Greater => chars ">" | GreaterEqual => chars ">=" | Equal => chars "=" end.
(** cases_gen.rs:750-757: [Display] of an operand *)
Definition operand_text (x : operand) : text := match x with Const k => chars (pretty k) | Var v => dollar :: v end.
(** cases_gen.rs:777-785: [Debug] of a constraint.  There is at least an operand (cases_gen.rs:512-521) *)
Fixpoint chain_text (ops : list operator) (operands : list operand) : text :=
  match ops, operands with
  | o :: ops, x :: operands => chars " " ++ operator_text o ++ chars " " ++ operand_text x ++ chain_text ops operands
  | _, _ => []
  end.
Definition constraint_text (c : constraint) : text := match co_operands c with x :: l => operand_text x ++ chain_text (co_operators c) l | [] => [] end.

Section written.
  (** As in FormatModel; [show_score]: [Display] of the number that was parsed; [source_name]: [SourceFile::name] *)
  Context (split : text -> option (list text)) (exists_file known : text -> bool) (get_output : nat -> output_gen) (file_name : text).
  Context (show_score : text -> text) (source_name : text -> text).
  (** cases_gen.rs:131-224 [CasesGen::new] and 229-280 [write_gen_gen]: the content of the file *)
  Definition written_gen (content : text) : option text :=
    l ← parse_cases_lines content;
    s ← cases_run split exists_file known get_output file_name cases_init l;
    es ← mapM (resolve_entry (cs_names s) (cs_subtask_id s) (cs_deps s)) (cs_result s);
    Some (gen_content show_score constraint_text source_name (cs_constraints s) (cs_st_constraints s) es).
End written.
