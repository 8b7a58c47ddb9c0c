(** What it means that the tokenizer has come to rest (C74). *)
From Coq Require Import List.
From Verif Require Import Chars Token Tokenizer LexSpec TokenSpec LexErrorSpec.
Import ListNotations.

(** However often the tokenizer is called after the answers [evs], it gives [ev] and nothing moves. *)
Definition for_ever (U : unicode) (text : str) (evs : list (token + err)) (l : lexer) (ev : token + err) : Prop :=
  (exists l', history U text (evs ++ [ev]) l') /\
  forall more l', history U text (evs ++ more) l' -> Forall (eq ev) more /\ l' = l.

(** The errors that are reported without reading anything: an unknown character, a backslash that ends no line. *)
Definition stays (e : err) : Prop := (exists p c, e = lexical_error p c) \/ exists p, e = EAt continuation_message p.

(** The answers the tokenizer can come to rest at. *)
Definition last_answer (ev : token + err) : Prop :=
  match ev with inl t => tk_kind t = T_EOF | inr e => stays e end.
