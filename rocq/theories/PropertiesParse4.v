(** Parser properties about errors and about what a parse depends on: C49, C50. *)
From Coq Require Import List Arith Lia String.
From Verif Require Import Chars SourceBuffer Token Tokenizer LexSpec Node ParserState Parser GrammarSpec ParseBasics ParseSpec
  OnlineSpec OnlineProofs ParseCorollaries OnlineCorollaries PropertiesParse1.
Import ListNotations.
Local Open Scope nat_scope.

(** C49.  An error returned by a parse is a "SyntaxError at p" where [p] is the start of a token it has
    read or of the look-ahead it failed at: not before the first token of the call, not after the
    look-ahead, which is at most one past the end of the text.  (The one function with a position among
    its arguments, the annotation part of an assignment, may report that position.) *)
Theorem C49_error_place : forall U text n f s e, (at_token U text s \/ input_fn f = true /\ on_text U text s) ->
  run U n f s = Err e ->
  exists s0 l s1 p, begun U f s s0 /\ reads U s0 l s1 /\ syntax_error e p /\
    (given f p \/ In p (starts l s1) /\ pos s0 <= p /\ p <= pos s1 /\ pos s1 <= S (length text)).
Proof. exact error_place. Qed.
Print Assumptions C49_error_place.

(** An error is final: wherever the tokens read up to it and the look-ahead are the same, in another text
    and whatever follows there, the call fails with the same message at the same place. *)
Theorem C49_error_final : forall U n f s e, run U n f s = Err e ->
  exists s0 l s1, begun U f s s0 /\ reads U s0 l s1 /\
    forall U' t t0 t1, begun U' f t t0 -> reads U' t0 l t1 -> view t1 = view s1 -> ps_except t = ps_except s ->
      rejects U' f t /\ forall m, n <= m -> run U' m f t = Err e.
Proof. exact error_final. Qed.
Print Assumptions C49_error_final.

Definition error_of {A} (o : outcome A) : option err := match o with Err e => Some e | _ => None end.
Example C49_case :
  error_of (run ascii_only 300 F_file_input (fresh ($"x = (a b)" ++ [LF]))) =
    Some (EAt "SyntaxError at {}: Expecting ')' in tuple atom expression!" 4) /\
  error_of (run ascii_only 300 F_test (opened $"aa + (lambda x = 1 y: z)")) =
    Some (EAt "SyntaxError at {}: Expecting ':' in 'lambda' expression!" 19) /\
  error_of (run ascii_only 300 F_file_input (fresh $"if a b")) =
    error_of (run ascii_only 300 F_file_input (fresh ($"if a b: c" ++ [LF] ++ $"d" ++ [LF]))) /\
  error_of (run ascii_only 300 F_file_input (fresh $"if a b")) <> None.
Proof. vm_compute. repeat split; discriminate. Qed.
(** One past the end does occur: a CR LF counts for three characters (C24). *)
Example C49_past_end : length ($"(lambda x" ++ [CR; LF]) = 11 /\
  error_of (run ascii_only 300 F_file_input (fresh ($"(lambda x" ++ [CR; LF]))) =
    Some (EAt "SyntaxError at {}: Expecting ':' in 'lambda' expression!" 12).
Proof. vm_compute. auto. Qed.

(** C50.  A parse is decided by the tokens it reads and one token of look-ahead: a call that gives a tree
    gives the same tree in every other text, and for all other text around, where the same tokens stand at
    the same places with the same look-ahead behind them; the except flag aside, nothing else is carried
    from what was parsed before. *)
Theorem C50_decided_by_tokens : forall U n f s x s', run U n f s = Ok x s' ->
  exists s0 l, begun U f s s0 /\ reads U s0 l s' /\
    forall U' t t0 t1, begun U' f t t0 -> reads U' t0 l t1 -> view t1 = view s' -> ps_except t = ps_except s ->
      exists t', run U' n f t = Ok x t' /\ core t' t1 /\ ps_except t' = ps_except s'.
Proof. exact success_decided. Qed.
Print Assumptions C50_decided_by_tokens.

Definition tree_of_run {A} (o : outcome A) : option A := match o with Ok x _ => Some x | _ => None end.
Example C50_case :
  tree_of_run (run ascii_only 300 F_test (opened $"a + b[c] :")) =
    tree_of_run (run ascii_only 300 F_test (opened $"a + b[c] : $ not python")) /\
  ok (run ascii_only 300 F_test (opened $"a + b[c] :")) = true.
Proof. vm_compute. auto. Qed.
