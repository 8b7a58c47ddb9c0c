(** What error messages say, and where they are placed: C61. *)
From Coq Require Import List Arith String.
From Verif Require Import Chars SourceBuffer Token Tokenizer LexSpec Node ParserState Parser GrammarSpec ParseBasics ParseSpec
  OnlineSpec ErrorSpec ErrorProofs PropertiesParse1 PropertiesParse4.
Import ListNotations.
Local Open Scope nat_scope.

(** C61.  The full claim: what a message says of the look-ahead, read off its text, is the case.  False of
    nine messages (below); for the others it holds, and for four of the nine ([departures]) a weaker
    claim does. *)

(** Every error is one of the listed messages.  It is given at the look-ahead behind the tokens it depends
    on; there what the message means holds; and it is placed as listed: at this look-ahead, or at the token
    that opens the construct. *)
Theorem C61_error_justified : forall U n f s e, run U n f s = Err e ->
  exists m x s0 l s1, e = EAt m (fst x) /\ begun U f s s0 /\ reads U s0 l s1 /\
    (given f (fst x) \/ In x (looks l s1)) /\ justified m x (view s1) /\
    forall U' t t0 t1, begun U' f t t0 -> reads U' t0 l t1 -> view t1 = view s1 -> ps_except t = ps_except s ->
      run U' n f t = Err e.
Proof. exact run_justified. Qed.
Print Assumptions C61_error_justified.

Theorem C61_truthful_partial : forall U n f s m p, run U n f s = Err (EAt m p) -> ~ In m (map fst departures) ->
  says m <> Nothing /\
  exists s0 l s1, begun U f s s0 /\ reads U s0 l s1 /\ holds (says m) (snd (view s1)) /\
    forall U' t t0 t1, begun U' f t t0 -> reads U' t0 l t1 -> view t1 = view s1 -> ps_except t = ps_except s ->
      run U' n f t = Err (EAt m p).
Proof. exact truthful. Qed.
Print Assumptions C61_truthful_partial.

(** What the messages say: some of them. *)
Example C61_says :
  says "SyntaxError at {}: Expecting ')' in tuple atom expression!" = Wants [PyRightParen] /\
  says "SyntaxError at {}: Expecting 'def', 'with' or 'for' in 'async' statement!" = Wants [PyDef; PyWith; PyFor] /\
  says "SyntaxError at {}: Expecting symbol in while statement!" = Unreadable /\
  says "Syntax Error at {} - Expecting a valid name after '.' in trailer expression!" = Wants [T_AtomName] /\
  says "SyntaxError at {}: Missing elements between two ',' in list expression!" = Sees [PyComa].
Proof. vm_compute. repeat split; reflexivity. Qed.

Example C61_case :
  error_of (run ascii_only 300 F_file_input (fresh ($"x = (a b)" ++ [LF]))) =
    Some (EAt "SyntaxError at {}: Expecting ')' in tuple atom expression!" 4) /\
  error_of (run ascii_only 300 F_file_input (fresh ($"while a b" ++ [LF]))) =
    Some (EAt "SyntaxError at {}: Expecting ':' in while statement!" 0) /\
  error_of (run ascii_only 300 F_file_input (fresh ($"global a, 1" ++ [LF]))) =
    Some (EAt "SyntaxError at {}: Expecting name literal in global statement!" 0) /\
  error_of (run ascii_only 300 F_file_input (fresh ($"del a,,b" ++ [LF]))) =
    Some (EAt "SyntaxError at {}: Missing elements between two ',' in list expression!" 6) /\
  error_of (run ascii_only 300 F_file_input (fresh ($"while $" ++ [LF]))) =
    Some (EAt "SyntaxError at {}: Expecting symbol in non conditional test expression!" 6).
Proof. vm_compute. repeat split; reflexivity. Qed.

(** The full claim fails: "Expecting symbol in atom expression!" is given at a token that was read. *)
Theorem C61_truthful_refuted : exists U n f s m, run U n f s = Err (EAt m (pos s)) /\ ~ holds (says m) (snd (view s)).
Proof.
  exists ascii_only, 20, F_test, (opened $"* a"), "SyntaxError at {}: Expecting symbol in atom expression!"%string.
  split; [vm_compute; reflexivity|]. vm_compute. discriminate.
Qed.
Print Assumptions C61_truthful_refuted.
(** The other messages that do not say what is the case. *)
Example C61_departures :
  error_of (run ascii_only 300 F_file_input (fresh ($"x = {}" ++ [LF]))) =
    Some (EAt "SyntaxError at {}: Expecting dictionary/set in atom expression!" 4) /\
  error_of (run ascii_only 300 F_yield_expr (opened $"a")) =
    Some (EAt "Syntax Error at {} - Expecting symbol in comprehension 'yield' expression!" 0) /\
  error_of (run ascii_only 300 F_if_stmt (opened $"a")) =
    Some (EAt "SyntaxError at {}: Expecting symbol in 'if' statement!" 0) /\
  error_of (run ascii_only 300 F_import_from (opened $"from a b")) =
    Some (EAt "SyntaxError at {}: Expecting symbol in 'from' statement!" 0) /\
  error_of (run ascii_only 300 F_decorator (opened $"@a ;")) =
    Some (EAt "SyntaxError at {}: Expecting end of file in function input!" 0) /\
  error_of (run ascii_only 300 F_func_type_input (fresh $"()(")) =
    Some (EAt "SyntaxError at {}: Expecting '(' in functional type!" 0) /\
  error_of (run ascii_only 300 F_file_input (fresh ($"try: a" ++ [LF] ++ $"except b: c" ++ [LF] ++ $"except* d: e" ++ [LF]))) =
    Some (EAt "SyntaxError at {}: Expecting 'except*' except statement!" 19) /\
  error_of (run ascii_only 300 F_file_input (fresh ($"try: a" ++ [LF] ++ $"except* b: c" ++ [LF] ++ $"except d: e" ++ [LF]))) =
    Some (EAt "SyntaxError at {}: Expecting 'except' except statement!" 20).
Proof. vm_compute. repeat split; reflexivity. Qed.
