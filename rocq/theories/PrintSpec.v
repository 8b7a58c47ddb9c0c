(** Writing tokens down in one fixed layout: the specification side of C55. *)
From Coq Require Import List.
From Verif Require Import Chars SourceBuffer Token ExprSpec.
Import ListNotations.

(** What has been written last: nothing on this line yet, a token, or a type comment (which reaches to
    the end of its line). *)
Inductive place := AtStart | Inside | AfterComment.

(** What separates the next token: the indentation of its block, one space for each level; one space; or
    a new line (after a type comment there can only be a token inside brackets). *)
Definition lead (p : place) (depth : nat) : str :=
  match p with AtStart => repeat SP depth | Inside => [SP] | AfterComment => [LF] end.

(** One line for each Newline token, with one space between the tokens; every name, number and string as it
    was, every other token as in the tables of TokenSpec, every type comment without its text. *)
Fixpoint typeset (p : place) (depth : nat) (ts : list (kind * payload)) : str :=
  match ts with
  | [] => []
  | x :: ts' =>
      match fst x with
      | T_Indent => typeset p (S depth) ts'
      | T_Dedent => typeset p (pred depth) ts'
      | T_Newline => LF :: typeset AtStart depth ts'
      | T_EOF => match p with AtStart => repeat SP depth | _ => [] end
      | T_TypeComment => lead p depth ++ $"# type:" ++ typeset AfterComment depth ts'
      | _ => lead p depth ++ token_text x ++ typeset Inside depth ts'
      end
  end.
Definition written_out (ts : list (kind * payload)) : str := typeset AtStart 0 ts.
