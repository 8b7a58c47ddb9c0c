(** One parser, called again and again (as an interactive interpreter would): what becomes of the tokens. *)
From Coq Require Import List.
From Verif Require Import Chars Token Tokenizer LexSpec Node NodeView ParserState Parser ParseSpec TreeSpec.
Import ListNotations.

(** Calls of input functions on one parser, each begun in the state the one before has left. *)
Inductive session (U : unicode) : parser -> list (fn * node) -> parser -> Prop :=
| SE_none s : session U s [] s
| SE_call s f x s1 xs s' : input_fn f = true -> parsed U f s x s1 -> session U s1 xs s' -> session U s ((f, x) :: xs) s'.

(** Trees that end with the symbol the parser is left at: the end of the text, the Newline behind a compound statement. *)
Definition keeps_symbol (x : node) : bool :=
  match x with SingleInput _ _ (Some _) (Some _) | FileInput _ _ _ _ _ | EvalInput _ _ _ _ _ | FuncTypeInput _ _ _ _ _ => true | _ => false end.

(** What the tokenizer has given, call by call: the tokens of the tree, and the symbol the parser is left at, which is
    the last token of the tree or belongs to no tree. *)
Inductive turns : list node -> list (token + err) -> Prop :=
| TU_none : turns [] []
| TU_lost x xs ts d evs : keeps_symbol x = false -> written x ts -> turns xs evs -> turns (x :: xs) (map inl ts ++ d :: evs)
| TU_kept x xs ts t evs : keeps_symbol x = true -> written x (ts ++ [t]) -> turns xs evs -> turns (x :: xs) (map inl ts ++ inl t :: evs).

(** A call for a file that found no more than the end of the text. *)
Definition empty_file (c : fn * node) : Prop := fst c = F_file_input /\ exists a b e, snd c = FileInput a b [] [] e /\ tk_kind e = T_EOF.
