(** What a call may depend on. *)
From Verif Require Import Chars Token Tokenizer Node ParserState Parser.

(** Outcomes that differ at most in the kind of 'except' noted in the state left behind. *)
Definition same_but_flag {X : Type} (o o' : outcome X) : Prop :=
  match o, o' with
  | Ok x s, Ok x' s' => x = x' /\ ps_lexer s = ps_lexer s' /\ ps_symbol s = ps_symbol s'
  | Err e, Err e' => e = e'
  | Panic, Panic | Fuel, Fuel => True
  | _, _ => False
  end.
(** The two functions that read what is noted. *)
Definition reads_flag (f : fn) : bool := match f with F_except_stmt | F_except_clause => true | _ => false end.
