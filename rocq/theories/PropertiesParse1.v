(** Parser properties about all calls: C30-C34, C36, C37. *)
From Coq Require Import List Arith ZArith Lia Permutation.
From Verif Require Import Chars SourceBuffer Token Tokenizer LexSpec Node NodeView ParserState Parser GrammarSpec ParseBasics ParseSpec
  SoundBasics Completeness TermBasics TermExpr TermStmt TermStable YieldProofs TreeSpec SpanProofs EndProofs ParseCorollaries.
Import ListNotations.
Local Open Scope nat_scope.

(** The states of the examples: a fresh parser that has taken its first token. *)
Definition opened (text : str) : parser :=
  match advance ascii_only (fresh text) with Ok _ s => s | _ => fresh text end.
Lemma opened_at : forall text, advance ascii_only (fresh text) = Ok tt (opened text) -> at_token ascii_only text (opened text).
Proof. intros text H. exists (fresh text). split; [apply fresh_on_text|exact H]. Qed.
Definition ok {A} (o : outcome A) : bool := match o with Ok _ _ => true | _ => false end.
Definition failed {A} (o : outcome A) : bool := match o with Err _ => true | _ => false end.
Definition program : str := $"def f():" ++ [LF] ++ $" if a < b: return (x, {1: y}, *z)" ++ [LF] ++ $" c = d = [g(h)[1].k for h, in m]" ++ [LF].

(** C30.  Every function of expressions.rs returns, with a tree or an error, from every state of
    a tokenizer on a text; the depth of recursion and the rounds of each loop stay below a linear
    function of the length of the text. *)
Theorem C30_expressions_return : forall U text f s n, expression_fn f = true -> on_text U text s ->
  192 * length text + 287 <= n -> returned (run U n f s).
Proof. exact expressions_return. Qed.
Print Assumptions C30_expressions_return.

Example C30_case : expression_fn F_testlist_star_expr = true /\ on_text ascii_only $"a+b*c" (opened $"a+b*c") /\
  ok (run ascii_only (192 * 5 + 287) F_testlist_star_expr (opened $"a+b*c")) = true /\
  failed (run ascii_only (192 * 3 + 287) F_testlist_star_expr (opened $"a+)")) = true.
Proof.
  split; [reflexivity|]. split; [apply at_token_on_text, opened_at; vm_compute; reflexivity|]. vm_compute. auto.
Qed.

(** C31.  Any function (other than the unwritten [match] statement) that does not return has read
    up to an [import] standing where a small statement may start; one that panics has read up to
    the name [match] standing where a statement may start.  (Missing from the full claim: those two
    cases, for which it is false, see [C31_import_refuted] and [C31_match_refuted].) *)
Theorem C31_statements_return_partial : forall U text f s n, f <> F_match -> on_text U text s -> 192 * length text + 287 <= n ->
  match run U n f s with
  | Ok _ _ | Err _ => True
  | Fuel => hits U f is_import s
  | Panic => hits U f is_match s
  end.
Proof. exact statements_return. Qed.
Print Assumptions C31_statements_return_partial.

Theorem C31_no_trigger_returns : forall U text f s n, f <> F_match -> on_text U text s -> 192 * length text + 287 <= n ->
  ~ hits U f is_import s -> ~ hits U f is_match s -> returned (run U n f s).
Proof. exact no_trigger_returns. Qed.
Print Assumptions C31_no_trigger_returns.

(** C31 as claimed is false: after any accepted lines of a module, a line that begins with [import]
    makes the parse run forever, whatever the fuel, *)
Theorem C31_import_refuted : forall U s s1 l xs ts c' s2 t, advance U s = Ok tt s1 -> reads U s1 l s2 ->
  lines (ps_except s1) l (view s2) xs ts c' -> ps_symbol s2 = inl t -> tk_kind t = PyImport ->
  forall n, run U n F_file_input s = Fuel.
Proof. exact module_import. Qed.
Print Assumptions C31_import_refuted.

(** and a line that begins with the name [match] makes it panic. *)
Theorem C31_match_refuted : forall U s s1 l xs ts c' s2 t, advance U s = Ok tt s1 -> reads U s1 l s2 ->
  lines (ps_except s1) l (view s2) xs ts c' -> ps_symbol s2 = inl t -> is_match t ->
  exists n0, forall n, n0 <= n -> run U n F_file_input s = Panic.
Proof. exact module_match. Qed.
Print Assumptions C31_match_refuted.

Example C31_case :
  run ascii_only 300 F_file_input (fresh $"import a") = Fuel /\
  run ascii_only 300 F_file_input (fresh $"match = 1") = Panic /\
  ok (run ascii_only 300 F_file_input (fresh program)) = true.
Proof. vm_compute. auto. Qed.
Lemma import_first : exists t, ps_symbol (opened $"import a") = inl t /\ tk_kind t = PyImport.
Proof. eexists. split; [vm_compute; reflexivity|reflexivity]. Qed.
Example C31_import_case : forall n, run ascii_only n F_file_input (fresh $"import a") = Fuel.
Proof.
  destruct import_first as (t & S & K).
  apply (module_import ascii_only (fresh $"import a") (opened $"import a") [] [] [] (ps_except (opened $"import a")) (opened $"import a") t);
    [vm_compute; reflexivity|apply reads_refl|constructor|exact S|exact K].
Qed.

(** C32.  A call succeeds exactly on the phrases of the grammar of GrammarSpec.v, and its tree is
    the one of the derivation, *)
Theorem C32_accepts_exactly : forall U f s x s', (exists fuel, run U fuel f s = Ok x s') <-> sound U f s x s'.
Proof. exact run_exact. Qed.
Print Assumptions C32_accepts_exactly.

(** which is unique. *)
Theorem C32_unambiguous : forall U f s x s1 y s2, sound U f s x s1 -> sound U f s y s2 -> x = y /\ s1 = s2.
Proof. exact derivation_unique. Qed.
Print Assumptions C32_unambiguous.

Example C32_case : exists x s', sound ascii_only F_file_input (fresh program) x s' /\ length (subnodes x) = 41.
Proof.
  destruct (run ascii_only 300 F_file_input (fresh program)) as [x s'| | |] eqn:R; try (vm_compute in R; discriminate R).
  exists x, s'. split; [apply run_exact; exists 300; exact R|].
  assert (Q : match run ascii_only 300 F_file_input (fresh program) with Ok y _ => length (subnodes y) | _ => 0 end = 41)
    by (vm_compute; reflexivity).
  rewrite R in Q. exact Q.
Qed.

(** C33.  The tokens stored in a tree are, counted, those the call consumed, and the look-ahead the
    input rules store (for an annotated assignment, the target it was given). *)
Theorem C33_tokens_kept : forall U text fuel f s x s', run U fuel f s = Ok x s' ->
  (if input_fn f then on_text U text s else at_token U text s) ->
  exists s1 l, (if input_fn f then advance U s = Ok tt s1 else s1 = s) /\ reads U s1 l s' /\
    Forall (fun t => tk_kind t <> T_EOF) (map snd l) /\
    Permutation (tokens x) (map snd l ++ extra f (view s') x).
Proof. exact tree_tokens. Qed.
Print Assumptions C33_tokens_kept.

Example C33_case : match run ascii_only 300 F_file_input (fresh program) with
  | Ok x s' => length (tokens x) = 49 /\ length (lex_all ascii_only 100 (lexer_new program)) = 49
  | _ => False end.
Proof. vm_compute. auto. Qed.

(** C34.  Every node of a tree lies over a part [l2] of the tokens read: it starts at the first of
    them (entries of dictionaries and sets record their container's start), ends where the token
    after them begins, its children lie inside it, and its components do not overlap. *)
Theorem C34_node_spans : forall U text fuel f s x s', target f = false -> run U fuel f s = Ok x s' ->
  (if input_fn f then on_text U text s else at_token U text s) ->
  exists s1 l, (if input_fn f then advance U s = Ok tt s1 else s1 = s) /\ reads U s1 l s' /\
    ordered l (view s') /\
    forall y, In y (subnodes x) -> exists l1 l2 l3, l = l1 ++ l2 ++ l3 /\
      node_end y = fst (ahead l3 (view s')) /\
      (entry y = false -> node_start y = start l2 (ahead l3 (view s'))) /\
      (forall z, In (Sub z) (items y) ->
         node_start y <= node_start z /\ node_start z <= node_end z /\ node_end z <= node_end y) /\
      exists ps, arranged y (ps ++ after y (ahead l3 (view s'))) /\
        ForallOrdPairs (fun i j => begins_after j (item_end i)) ps.
Proof. exact node_spans. Qed.
Print Assumptions C34_node_spans.

Example C34_case : match run ascii_only 300 F_test (opened $"aa + (bb) if c else {1:d, 2:e}") with
  | Ok x _ => map (fun y => (node_start y, node_end y)) (subnodes x)
  | _ => [] end =
  [(0, 30); (0, 10); (0, 3); (5, 10); (6, 8); (6, 8); (13, 15); (20, 30); (21, 29); (21, 29); (26, 27); (28, 29);
   (21, 24); (21, 22); (23, 24)].
Proof. vm_compute. reflexivity. Qed.

(** C36.  If a module (or an eval or function type input) parses, the tokenizer returned tokens
    only, up to EOF, and the tree holds exactly those tokens; *)
Theorem C36_every_token_consumed : forall U text fuel f x s', (f = F_file_input \/ f = F_eval_input \/ f = F_func_type_input) ->
  run U fuel f (fresh text) = Ok x s' ->
  exists ts t, history U text (map inl ts ++ [inl t]) (ps_lexer s') /\ tk_kind t = T_EOF /\
    Forall (fun u => tk_kind u <> T_EOF) ts /\ Permutation (tokens x) (ts ++ [t]) /\
    tk_span t = At (lx_pos (ps_lexer s')) /\ nth (lx_pos (ps_lexer s')) text NUL = NUL /\
    ps_symbol s' = inl t.
Proof. exact input_tokens. Qed.
Print Assumptions C36_every_token_consumed.

(** if the tokenizer reports an error before EOF, the parse does not succeed; *)
Theorem C36_error_fails : forall U text fuel f evs e l x s', (f = F_file_input \/ f = F_eval_input \/ f = F_func_type_input) ->
  history U text (map inl evs ++ [inr e]) l -> Forall (fun u => tk_kind u <> T_EOF) evs ->
  run U fuel f (fresh text) <> Ok x s'.
Proof. exact error_fails. Qed.
Print Assumptions C36_error_fails.

(** an error is refused as the first token of any phrase, and as the token after any phrase from
    power expressions up and any statement that looks at the next token. *)
Theorem C36_error_first : forall U fuel f s x s' e, input_fn f = false -> f <> F_typed_args_list -> ps_symbol s = inr e ->
  run U fuel f s <> Ok x s'.
Proof. exact error_first. Qed.
Print Assumptions C36_error_first.
Theorem C36_error_after : forall U fuel f s x s' e, looks f = true -> ps_symbol s' = inr e -> run U fuel f s <> Ok x s'.
Proof. exact error_after. Qed.
Print Assumptions C36_error_after.

Example C36_case : failed (run ascii_only 300 F_file_input (fresh ($"a = b $" ++ [LF]))) = true /\
  failed (run ascii_only 300 F_file_input (fresh ($"a = b" ++ [LF] ++ $"$"))) = true /\
  ok (run ascii_only 300 F_file_input (fresh ($"a = b" ++ [LF]))) = true /\
  failed (run ascii_only 300 F_or_test (opened $"a $")) = true /\
  ok (run ascii_only 300 F_atom_expr (opened $"a $")) = true.
Proof. vm_compute. auto 7. Qed.

(** C37.  A module or eval input succeeds only with EOF as look-ahead, at the end of the text or
    at a NUL, and stores that very token. *)
Theorem C37_end_of_file : forall U text fuel f x s', (f = F_file_input \/ f = F_eval_input \/ f = F_func_type_input) ->
  run U fuel f (fresh text) = Ok x s' ->
  exists t, ps_symbol s' = inl t /\ tk_kind t = T_EOF /\ tk_span t = At (node_end x) /\ nth (node_end x) text NUL = NUL /\
    match x with FileInput _ _ _ _ u | EvalInput _ _ _ _ u | FuncTypeInput _ _ _ _ u => u = t | _ => False end.
Proof. exact input_end. Qed.
Print Assumptions C37_end_of_file.

Example C37_case : match run ascii_only 300 F_eval_input (fresh ($"a, b" ++ [LF])) with
  | Ok (EvalInput a b _ [_] u) _ => (a, b, tk_kind u, tk_span u) = (0, 5, T_EOF, At 5)
  | _ => False end.
Proof. vm_compute. reflexivity. Qed.
