(** /repo/src/main.rs: the demonstration program. *)
From Coq Require Import List Arith.
From Verif Require Import Chars SourceBuffer Token Tokenizer Node ParserState Parser.
Import ListNotations.

(** main.rs 19-36: the report on the result of the parse. *)
Definition report (res : outcome node) : option str :=
  match res with
  | Ok (AtomName 0 8 tok) _ =>
      match tok with
      | Tok T_AtomName (Range 0 8) None (Text txt) =>
          if str_eqb txt $"__init__" then Some $"Oh yeah!" else Some $"Failed!"
      | _ => Some $"Failed!"
      end
  | Ok _ _ | Err _ => Some $"Failed!"
  | Panic | Fuel => None
  end.

(** main.rs 12-38: the lines printed; [None] if the program does not come to its end.  The result of
    the parse is only inspected, so the state after it does not matter. *)
Definition main (U : unicode) (fuel : nat) : option (list str) :=
  let parser := parser_new (lexer_new $"__init__") in
  match report (bind (advance U) (fun _ => run U fuel F_atom_expr) parser) with
  | Some line => Some [$"PythonCore written in Rust!"; line]
  | None => None
  end.
