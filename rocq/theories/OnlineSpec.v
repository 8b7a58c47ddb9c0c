(** Vocabulary of the properties about what a parse depends on and where its errors are placed
    (C49, C50).  Not modelled code. *)
From Coq Require Import List String.
From Verif Require Import Chars SourceBuffer Token Tokenizer Node ParserState Parser GrammarSpec ParseBasics ParseSpec.
Import ListNotations.

(** The same place in the token stream (the except flag is not regarded). *)
Definition core (s s' : parser) : Prop := ps_lexer s = ps_lexer s' /\ ps_symbol s = ps_symbol s'.

(** A message of the form "SyntaxError at {p}: ..." *)
Definition syntax_error (e : err) (p : nat) : Prop :=
  exists msg, e = EAt msg p /\
    (String.prefix "SyntaxError at {}: " msg = true \/ String.prefix "Syntax Error at {} - " msg = true).

(** Starts of the tokens [l] and of the look-ahead of [s]. *)
Definition starts (l : list ptok) (s : parser) : list nat := map fst l ++ [pos s].

(** The outcome [o'] is the outcome [o], except that a success ends at the place of [t1]. *)
Definition agrees {A} (o o' : outcome A) (t1 : parser) : Prop :=
  match o with
  | Ok a s' => exists t', o' = Ok a t' /\ core t' t1 /\ ps_except t' = ps_except s'
  | Err e => o' = Err e
  | Panic => o' = Panic
  | Fuel => True
  end.

(** Positions handed to a function as arguments. *)
Definition given (f : fn) (p : nat) : Prop := match f with F_ann_assign q _ => p = q | _ => False end.

(** The functions for complete inputs take their first token themselves, the others find it taken. *)
Definition begun (U : unicode) (f : fn) (s s0 : parser) : Prop :=
  if input_fn f then advance U s = Ok tt s0 else s0 = s.
