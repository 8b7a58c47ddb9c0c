(** Parser properties about particular constructs: C38-C44, C46, C47. *)
From Coq Require Import List Arith ZArith Lia.
From Verif Require Import Chars SourceBuffer Token Tokenizer LexSpec Node NodeView ParserState Parser GrammarSpec ParseBasics ParseSpec
  SoundBasics CompleteBlocks Completeness YieldProofs TreeSpec SpanProofs ParseCorollaries OrderProofs DefectProofs DefectProofs2 DisplayProofs
  TryProofs PropertiesParse1.
Import ListNotations.
Local Open Scope nat_scope.

(** Modules used as witnesses: accepted, or never accepted with any amount of fuel. *)
Definition line (text : str) : str := text ++ [LF].
Definition accepted (text : str) : Prop := exists x s', parsed ascii_only F_file_input (fresh text) x s'.
Definition refused (text : str) : Prop := rejects ascii_only F_file_input (fresh text).
Lemma accepted_run : forall text, ok (run ascii_only 400 F_file_input (fresh text)) = true -> accepted text.
Proof.
  intros text H. destruct (run ascii_only 400 F_file_input (fresh text)) as [x s'| | |] eqn:R; try discriminate H.
  exists x, s', 400. exact R.
Qed.
Lemma refused_run : forall text, failed (run ascii_only 400 F_file_input (fresh text)) = true -> refused text.
Proof.
  intros text H. destruct (run ascii_only 400 F_file_input (fresh text)) as [x s'|e| |] eqn:R; try discriminate H.
  eapply err_rejects; eauto.
Qed.
Ltac by_run := first [apply accepted_run | apply refused_run]; vm_compute; reflexivity.

(** C38.  The components of every node of a tree lie one after the other over its part of the
    tokens read, in the order that [arranged] gives them: list nodes store their elements and
    separators backwards ([rev] in [arranged]), ExprList and TestList forwards; *)
Theorem C38_source_order : forall U text fuel f s x s', target f = false -> run U fuel f s = Ok x s' ->
  (if input_fn f then on_text U text s else at_token U text s) ->
  exists s1 l, (if input_fn f then advance U s = Ok tt s1 else s1 = s) /\ reads U s1 l s' /\
    forall y, In y (subnodes x) -> exists l1 l2 l3 ps, l = l1 ++ l2 ++ l3 /\
      arranged y (ps ++ after y (ahead l3 (view s'))) /\
      tiles (node_start y) l2 (ahead l3 (view s')) ps.
Proof. exact node_order. Qed.
Print Assumptions C38_source_order.

(** and a list has as many separators as elements, or one less. *)
Theorem C38_separator_counts : forall U text fuel f s x s', target f = false -> run U fuel f s = Ok x s' ->
  (if input_fn f then on_text U text s else at_token U text s) ->
  forall y, In y (subnodes x) -> counted y.
Proof. exact list_counts. Qed.
Print Assumptions C38_separator_counts.

Definition name_of (x : node) : str := match x with AtomName _ _ t => text_of t | _ => [] end.
Definition list_names (y : node) : list (list str * nat) :=
  match y with
  | TestListComp _ _ a b | SetContainer _ _ a b | SubscriptList _ _ a b | TestListStarExpr _ _ a b | ExprList _ _ a b
  | TestList _ _ a b => [(map name_of a, length b)]
  | _ => []
  end.
Example C38_case : match run ascii_only 400 F_file_input (fresh (line $"del a, b, c" ++ line $"{d, e, f,}" ++ line $"[g, h]")) with
  | Ok x _ => flat_map list_names (subnodes x)
  | _ => [] end =
  [([$"h"; $"g"], 1); ([$"f"; $"e"; $"d"], 3); ([$"a"; $"b"; $"c"], 2)].
Proof. vm_compute. reflexivity. Qed.

(** C47.  Reading a tree back: taking the tokens of the tree node by node, each node's components in
    the order of the source, gives the tokens read by the call in their order, and then the
    look-ahead if the node stores it. *)
Theorem C47_tree_reads_back : forall U text fuel f s x s', target f = false -> f <> F_decorators ->
  run U fuel f s = Ok x s' -> (if input_fn f then on_text U text s else at_token U text s) ->
  exists s1 l, (if input_fn f then advance U s = Ok tt s1 else s1 = s) /\ reads U s1 l s' /\
    written x (map snd l ++ extra f (view s') x).
Proof. exact tree_written. Qed.
Print Assumptions C47_tree_reads_back.

(** For [written] to mean something: the tokens of "a, b" can be read from its tree in that order only. *)
Example C47_case : exists x s' t1 t2 t3, run ascii_only 300 F_testlist (opened $"a, b") = Ok x s' /\
  tokens x = [t1; t3; t2] /\ map text_of [t1; t3; t2] = [$"a"; $"b"; []] /\
  written x [t1; t2; t3] /\ ~ written x [t3; t2; t1].
Proof.
  eexists _, _, _, _, _. split; [vm_compute; reflexivity|]. split; [reflexivity|]. split; [reflexivity|]. split.
  - econstructor; [split; [reflexivity|cbn; lia]|]. cbn [map one weave concat app].
    apply (written_sub _ _ [_]); [econstructor; [reflexivity|]; repeat constructor|].
    constructor. apply (written_sub _ _ [_]); [econstructor; [reflexivity|]; repeat constructor|]. constructor.
  - intros W. inversion W as [? ps ts A WI]; subst. destruct A as (-> & _). cbn [map one weave concat app] in WI.
    inversion WI as [| |? ? ts1 ts2 W1 W2]; subst. inversion W1 as [? ps1 ? A1 WI1]; subst. cbn [arranged items] in A1. subst ps1.
    inversion WI1 as [|? ? ? W3|]; subst. inversion W3; subst. match goal with H : _ = _ :: _ |- _ => discriminate H || (injection H; intros; discriminate) end.
Qed.

(** C39.  Two successive clauses of a try statement are of the same kind when no try statement is
    nested in the first of them; *)
Theorem C39_clauses_alike_partial : forall U n f s x s', target f = false -> run U n f s = Ok x s' ->
  forall a b t u body cs o1 o2, In (TryStmt a b t u body (Some cs) o1 o2) (subnodes x) ->
  forall pre c d post, rev cs = pre ++ c :: d :: post -> no_try c -> starred c = starred d /\ starred c <> None.
Proof. exact try_clauses. Qed.
Print Assumptions C39_clauses_alike_partial.

(** what contains no try statement neither changes the flag nor depends on it; *)
Theorem C39_flag_local : forall U f s x s', parsed U f s x s' ->
  sort_of f = Plain \/ (sort_of f = Block /\ flagless f = true) -> no_try x ->
  ps_except s' = ps_except s /\ forall c, parsed U f (flag c s) x (flag c s').
Proof. exact flag_unused. Qed.
Print Assumptions C39_flag_local.

Definition except_plain : str := line $"try: a" ++ line $"except b: c" ++ line $"except d: e".
Definition except_mixed : str := line $"try: a" ++ line $"except b: c" ++ line $"except* d: e".
(** a try statement with except* inside the first clause of one with except: *)
Definition except_nested (star : str) : str :=
  line $"try: a" ++ line $"except b:" ++ line $" try: c" ++ line $" except* d: e" ++ line ($"except" ++ star ++ $" f: g").
Example C39_case : accepted except_plain /\ refused except_mixed.
Proof. split; by_run. Qed.
(** with a nested try statement both halves of the full claim fail: clauses that do not mix are
    refused and clauses that mix are accepted. *)
Theorem C39_refuted : refused (except_nested []) /\
  exists x s' a b t u body c d o1 o2, parsed ascii_only F_file_input (fresh (except_nested $"*")) x s' /\
    In (TryStmt a b t u body (Some [d; c]) o1 o2) (subnodes x) /\ starred c = Some false /\ starred d = Some true.
Proof.
  split; [by_run|]. eexists _, _, _, _, _, _, _, _, _, _, _. split; [exists 400; vm_compute; reflexivity|].
  split; [lazy; repeat first [left; reflexivity | right]|]. split; reflexivity.
Qed.
Print Assumptions C39_refuted.

(** C40.  No decorated definition is ever accepted, nor a statement that begins with '@'; *)
Theorem C40_never_accepted : forall U s, rejects U F_decorated s.
Proof. exact decorated_never. Qed.
Print Assumptions C40_never_accepted.
Theorem C40_statement_rejected : forall U s t, ps_symbol s = inl t -> tk_kind t = PyMatrice ->
  rejects U F_compound_stmt s /\ rejects U F_stmt s.
Proof. exact decorator_line. Qed.
Print Assumptions C40_statement_rejected.
(** and so no module in which one follows accepted lines. *)
Theorem C40_module_rejected : forall U s s1 l xs ts s2 t, advance U s = Ok tt s1 -> reads U s1 l s2 ->
  lines (ps_except s1) l (view s2) xs ts (ps_except s2) -> ps_symbol s2 = inl t -> tk_kind t = PyMatrice ->
  rejects U F_file_input s.
Proof.
  intros U s s1 l xs ts s2 t A R L SY K. eapply module_rejects; eauto; try congruence. eapply (decorator_line _ _ _ SY K).
Qed.
Print Assumptions C40_module_rejected.
Theorem C40_refuted : exists d, accepted d /\ refused (line $"@g" ++ d).
Proof. exists (line $"def f(): pass"). split; by_run. Qed.
Print Assumptions C40_refuted.

(** C41.  'async' before 'def', and a parameter list with anything in it, are rejected; *)
Theorem C41_async_def_rejected : forall U s t s1 u, takes U s t s1 -> tk_kind t = PyAsync -> ps_symbol s1 = inl u -> tk_kind u = PyDef ->
  rejects U F_async_stmt s /\ rejects U F_compound_stmt s /\ rejects U F_stmt s.
Proof. exact async_def. Qed.
Print Assumptions C41_async_def_rejected.
Theorem C41_parameters_rejected : forall U s t s1 u s2 v s3 w, takes U s t s1 -> tk_kind t = PyDef -> takes U s1 u s2 ->
  takes U s2 v s3 -> tk_kind v = PyLeftParen -> ps_symbol s3 = inl w -> tk_kind w <> PyRightParen ->
  rejects U F_func_def s /\ rejects U F_compound_stmt s /\ rejects U F_stmt s.
Proof. exact def_parameters. Qed.
Print Assumptions C41_parameters_rejected.
Theorem C41_refuted : accepted (line $"def f(): pass") /\ refused (line $"def f(a): pass") /\ refused (line $"def f(a, b=1): pass") /\
  refused (line $"async def f(): pass").
Proof. repeat split; by_run. Qed.
Print Assumptions C41_refuted.

(** C42.  Tuples and lists of any number of elements are accepted without a comma at the end, sets
    of any number of expressions with and without, dictionaries of one and two entries; *)
Theorem C42_tuple_list_partial : forall U s b s1 xs ts s2 u s3, takes U s b s1 ->
  series U [F_star_expr; F_named_expression] PyComa s1 xs ts s2 -> takes U s2 u s3 ->
  (tk_kind b = PyLeftParen -> tk_kind u = PyRightParen ->
    parsed U F_atom s (AtomTuple (pos s) (pos s3) b (Some (TestListComp (pos s1) (pos s2) (rev xs) (rev ts))) u) s3) /\
  (tk_kind b = PyLeftBracket -> tk_kind u = PyRightBracket ->
    parsed U F_atom s (AtomList (pos s) (pos s3) b (Some (TestListComp (pos s1) (pos s2) (rev xs) (rev ts))) u) s3).
Proof. exact display_accepted. Qed.
Print Assumptions C42_tuple_list_partial.
Theorem C42_set_partial : forall U s b s1 xs ts s2 u s3, takes U s b s1 -> tk_kind b = PyLeftCurly ->
  series U [F_test] PyComa s1 xs ts s2 -> takes U s2 u s3 -> tk_kind u = PyRightCurly ->
  parsed U F_atom s (AtomSet (pos s) (pos s3) b (Some (SetContainer (pos s1) (pos s2) (rev xs) (rev ts))) u) s3.
Proof. exact set_accepted. Qed.
Print Assumptions C42_set_partial.
Theorem C42_set_comma_partial : forall U s b s1 xs ts s2 c s3 u s4, takes U s b s1 -> tk_kind b = PyLeftCurly ->
  series U [F_test] PyComa s1 xs ts s2 -> takes U s2 c s3 -> tk_kind c = PyComa -> takes U s3 u s4 -> tk_kind u = PyRightCurly ->
  parsed U F_atom s (AtomSet (pos s) (pos s4) b (Some (SetContainer (pos s1) (pos s3) (rev xs) (rev (ts ++ [c])))) u) s4.
Proof. exact set_comma_accepted. Qed.
Print Assumptions C42_set_comma_partial.
Theorem C42_dictionary_one_partial : forall U s b s1 x t y s2 u s3, takes U s b s1 -> tk_kind b = PyLeftCurly ->
  key_value U s1 x t y s2 -> takes U s2 u s3 -> tk_kind u = PyRightCurly ->
  parsed U F_atom s (AtomDictionary (pos s) (pos s3) b
    (Some (DictionaryContainer (pos s1) (pos s2) [DictionaryEntry (pos s1) (pos s2) x t y] [])) u) s3.
Proof. exact dictionary_accepted. Qed.
Print Assumptions C42_dictionary_one_partial.
Theorem C42_dictionary_two_partial : forall U s b s1 x t y s2 c s3 x2 t2 y2 s4 u s5, takes U s b s1 -> tk_kind b = PyLeftCurly ->
  key_value U s1 x t y s2 -> takes U s2 c s3 -> tk_kind c = PyComa -> key_value U s3 x2 t2 y2 s4 ->
  takes U s4 u s5 -> tk_kind u = PyRightCurly ->
  parsed U F_atom s (AtomDictionary (pos s) (pos s5) b
    (Some (DictionaryContainer (pos s1) (pos s4) [DictionaryEntry (pos s1) (pos s4) x2 t2 y2; DictionaryEntry (pos s1) (pos s2) x t y] [c])) u) s5.
Proof. exact dictionary_two_accepted. Qed.
Print Assumptions C42_dictionary_two_partial.
(** but never the empty braces, a third comma in a dictionary, or a comma at the end of a tuple or list. *)
Theorem C42_empty_braces_rejected : forall U s t s1 u, takes U s t s1 -> tk_kind t = PyLeftCurly -> ps_symbol s1 = inl u ->
  tk_kind u = PyRightCurly -> rejects U F_atom s.
Proof. exact empty_braces. Qed.
Print Assumptions C42_empty_braces_rejected.
Theorem C42_dictionary_three_rejected : forall U s b s1 x t y s2 c s3 x2 t2 y2 s4 d, takes U s b s1 -> tk_kind b = PyLeftCurly ->
  key_value U s1 x t y s2 -> takes U s2 c s3 -> tk_kind c = PyComa -> key_value U s3 x2 t2 y2 s4 ->
  ps_symbol s4 = inl d -> tk_kind d = PyComa -> rejects U F_atom s.
Proof. exact dictionary_three. Qed.
Print Assumptions C42_dictionary_three_rejected.
Theorem C42_trailing_comma_rejected : forall U s b s1 xs ts s2 c s3 u, takes U s b s1 -> In (tk_kind b) [PyLeftParen; PyLeftBracket] ->
  series U [F_star_expr; F_named_expression] PyComa s1 xs ts s2 -> takes U s2 c s3 -> tk_kind c = PyComa ->
  ps_symbol s3 = inl u -> In (tk_kind u) [PyRightParen; PyRightBracket] -> rejects U F_atom s.
Proof. exact comma_rejected. Qed.
Print Assumptions C42_trailing_comma_rejected.
Theorem C42_refuted : refused (line $"{}") /\ refused (line $"{1: a, 2: b, 3: c}") /\ refused (line $"{1: a, 2: b,}") /\
  refused (line $"(a,)") /\ refused (line $"[a, b,]").
Proof. repeat split; by_run. Qed.
Print Assumptions C42_refuted.
Example C42_case : accepted (line $"{1: a}") /\ accepted (line $"{1: a,}") /\ accepted (line $"{1: a, 2: b}") /\
  accepted (line $"(a, *b, c)") /\ accepted (line $"[a, b, c, d]") /\ accepted (line $"{a, b, c,}") /\ accepted (line $"((), [])").
Proof. repeat split; by_run. Qed.

(** C43.  What stands between the parentheses of a call is a list of subscripts: an argument
    followed by '=', ':=' or a comprehension is rejected, and so is one that begins with '*' or '**'. *)
Theorem C43_keyword_rejected : forall U s t s1 x s2 u, takes U s t s1 -> tk_kind t = PyLeftParen -> parsed U F_test s1 x s2 ->
  ps_symbol s2 = inl u -> In (tk_kind u) [PyAssign; PyFor; PyAsync; PyColonAssign] -> rejects U F_trailer s.
Proof. exact call_argument. Qed.
Print Assumptions C43_keyword_rejected.
Theorem C43_star_rejected : forall U s t s1 u, takes U s t s1 -> tk_kind t = PyLeftParen ->
  ps_symbol s1 = inl u -> In (tk_kind u) [PyMul; PyPower] -> rejects U F_trailer s.
Proof. exact call_star. Qed.
Print Assumptions C43_star_rejected.
(** The ']' after a slice of two bounds is taken for the separator before a third: if the call
    succeeds it has read another ']'. *)
Theorem C43_slice_takes_bracket : forall U s t s1 x s2 u s3 y s4 v s5 z s', takes U s t s1 -> tk_kind t = PyLeftBracket ->
  parsed U F_test s1 x s2 -> takes U s2 u s3 -> tk_kind u = PyColon -> parsed U F_test s3 y s4 ->
  takes U s4 v s5 -> tk_kind v = PyRightBracket -> parsed U F_trailer s z s' ->
  exists l p w, reads U s5 (l ++ [(p, w)]) s' /\ tk_kind w = PyRightBracket.
Proof. exact slice_bracket. Qed.
Print Assumptions C43_slice_takes_bracket.
Theorem C43_refuted : refused (line $"x[a:b]") /\ refused (line $"x[a:]") /\ refused (line $"x[:]") /\ refused (line $"f(a=b)") /\
  refused (line $"f(*a)") /\ refused (line $"f(a for a, in b)") /\ accepted (line $"f(a:b:c)").
Proof. repeat split; by_run. Qed.
Print Assumptions C43_refuted.
Example C43_case : accepted (line $"x[a:b:c]") /\ accepted (line $"f(a, b)") /\ accepted (line $"x[a, b]").
Proof. repeat split; by_run. Qed.

(** C44.  An assert statement with a message after a comma is rejected; after 'from' it is accepted. *)
Theorem C44_message_rejected : forall U s t s1 x s2 u, takes U s t s1 -> tk_kind t = PyAssert -> parsed U F_test s1 x s2 ->
  ps_symbol s2 = inl u -> tk_kind u = PyComa -> rejects U F_simple_stmt s /\ rejects U F_stmt s.
Proof. exact assert_message. Qed.
Print Assumptions C44_message_rejected.
Theorem C44_from_accepted : forall U s t s1 x s2 u s3 y s', takes U s t s1 -> tk_kind t = PyAssert -> parsed U F_test s1 x s2 ->
  takes U s2 u s3 -> tk_kind u = PyFrom -> parsed U F_test s3 y s' ->
  parsed U F_assert_stmt s (AssertStmt (pos s) (pos s') t x (Some (u, y))) s'.
Proof. exact assert_from. Qed.
Print Assumptions C44_from_accepted.
Theorem C44_refuted : refused (line $"assert a, b") /\ accepted (line $"assert a from b").
Proof. split; by_run. Qed.
Print Assumptions C44_refuted.

(** C46.  'for' and a target that is not followed by a comma: neither a comprehension nor a for
    statement is accepted, since the target is read as an expression and takes the 'in' with it; *)
Theorem C46_plain_target_rejected : forall U s t s1 x s2 u, takes U s t s1 -> tk_kind t = PyFor -> parsed U F_named_expression s1 x s2 ->
  ps_symbol s2 = inl u -> tk_kind u <> PyComa ->
  rejects U F_sync_comp_for s /\ rejects U F_comp_for s /\ rejects U F_for_stmt s /\ rejects U F_stmt s.
Proof. exact for_plain. Qed.
Print Assumptions C46_plain_target_rejected.
(** an accepted target list before 'in' ends with a comma or a starred target. *)
Theorem C46_accepted_targets : forall l q u x, E F_exprlist l (q, Some u) x -> tk_kind u = PyIn ->
  (exists l1 p t, l = l1 ++ [(p, t)] /\ tk_kind t = PyComa) \/
  (exists l1 l2 y, l = l1 ++ l2 /\ E F_star_expr l2 (q, Some u) y).
Proof. exact exprlist_in. Qed.
Print Assumptions C46_accepted_targets.
Theorem C46_refuted : refused (line $"for a in b: c") /\ refused (line $"[a for a in b]") /\ refused (line $"for a, b in c: d").
Proof. repeat split; by_run. Qed.
Print Assumptions C46_refuted.
Example C46_case : accepted (line $"for a, in b: c") /\ accepted (line $"[a for a, in b]") /\ accepted (line $"for *a in b: c").
Proof. repeat split; by_run. Qed.
