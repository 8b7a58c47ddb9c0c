(** Vocabulary of the parser properties (C30-C44): which states a parser function may be called in,
    and groups of parser functions.  Not modelled code. *)
From Coq Require Import List.
From Verif Require Import Chars SourceBuffer Token Tokenizer Node ParserState Parser LexSpec.
Import ListNotations.

(** A parser on [text]: its tokenizer has been called any number of times, with any results. *)
Definition on_text (U : unicode) (text : str) (s : parser) : Prop :=
  exists evs, history U text evs (ps_lexer s).

(** A parser on [text] that has just taken a token (or an error) from its tokenizer. *)
Definition at_token (U : unicode) (text : str) (s : parser) : Prop :=
  exists s0, on_text U text s0 /\ advance U s0 = Ok tt s.

(** The parser of [Parser::new(Tokenizer::new(text))]. *)
Definition fresh (text : str) : parser := parser_new (lexer_new text).

(** The functions of expressions.rs. *)
Definition expression_fn (f : fn) : bool :=
  match f with
  | F_atom | F_atom_expr | F_power | F_factor | F_term | F_arith | F_shift | F_and_expr | F_xor_expr
  | F_expr | F_star_expr | F_comparison | F_not_test | F_and_test | F_or_test | F_lambda_def _
  | F_no_cond_test | F_test | F_named_expression | F_testlist_comp | F_trailer | F_subscript_list
  | F_subscript | F_exprlist | F_testlist | F_dictorset_maker | F_arglist | F_argument | F_comp_iter
  | F_sync_comp_for | F_comp_for | F_comp_if | F_yield_expr | F_testlist_star_expr
  | F_var_args_list | F_var_args_assignments | F_vfp_def => true
  | _ => false
  end.

(** The entry points for complete inputs: they take their first token themselves. *)
Definition input_fn (f : fn) : bool :=
  match f with F_eval_input | F_file_input | F_single_input | F_func_type_input => true | _ => false end.

(** The call came back with a tree or an error. *)
Definition returned {A} (o : outcome A) : Prop := match o with Ok _ _ | Err _ => True | _ => False end.

(** The call succeeds, given enough fuel; the call never succeeds. *)
Definition parsed (U : unicode) (f : fn) (s : parser) (x : node) (s' : parser) : Prop :=
  exists n, run U n f s = Ok x s'.
Definition rejects (U : unicode) (f : fn) (s : parser) : Prop :=
  forall n x s', run U n f s <> Ok x s'.

(** [s] has [t] before it, and is in [s1] after taking it. *)
Definition takes (U : unicode) (s : parser) (t : token) (s1 : parser) : Prop :=
  ps_symbol s = inl t /\ advance U s = Ok tt s1.

(** Calls of functions [fs] one after the other, with a token of kind [k] taken between them. *)
Inductive series (U : unicode) (fs : list fn) (k : kind) : parser -> list node -> list token -> parser -> Prop :=
| series_one f s x s' : In f fs -> parsed U f s x s' -> series U fs k s [x] [] s'
| series_more f s x s1 t s2 xs ts s' :
    In f fs -> parsed U f s x s1 -> takes U s1 t s2 -> tk_kind t = k -> series U fs k s2 xs ts s' ->
    series U fs k s (x :: xs) (t :: ts) s'.

(** A key, a colon and a value. *)
Definition key_value (U : unicode) (s : parser) (x : node) (t : token) (y : node) (s' : parser) : Prop :=
  exists s1 s2, parsed U F_test s x s1 /\ takes U s1 t s2 /\ tk_kind t = PyColon /\ parsed U F_test s2 y s'.
