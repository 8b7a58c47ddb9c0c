(** The constructs of accepted texts beyond the trees of C35 and C52: C63. *)
From Coq Require Import List Arith Bool.
From Verif Require Import Chars SourceBuffer Token Tokenizer LexSpec TokenSpec Node NodeView ParserState Parser GrammarSpec ParseBasics ParseSpec
  SchemaSpec SchemaProofs ExprSpec ExprText StmtSpec BeyondSpec BeyondStmt.
Import ListNotations.
Local Open Scope nat_scope.

(** C63.  The tree of an accepted file is that of a module of statements exactly if no node of it is
    one of the constructs listed in [beyond]; *)
Theorem C63_module : forall U text x s', parsed U F_file_input (fresh text) x s' ->
  ((exists m, module_of x = Some m) <-> forall y, In y (subnodes x) -> beyond y = false).
Proof. exact module_exact. Qed.
Print Assumptions C63_module.

(** and its text is the text of a module exactly then. *)
Theorem C63_accepted : forall U text x s', parsed U F_file_input (fresh text) x s' ->
  ((exists m ts t l, module_fits m /\ history U text (map inl ts ++ [inl t]) l /\ tk_kind t = T_EOF /\ laid m (map face ts)) <->
   forall y, In y (subnodes x) -> beyond y = false).
Proof. exact accepted_texts. Qed.
Print Assumptions C63_accepted.

(** Inputs of an expression, and interactive inputs. *)
Theorem C63_values : forall U text a b y ns t s', parsed U F_eval_input (fresh text) (EvalInput a b y ns t) s' ->
  ((exists r, listing_of y = Some r) <-> forall z, In z (subnodes y) -> beyond z = false).
Proof. exact values_exact. Qed.
Print Assumptions C63_values.
Theorem C63_interactive : forall U text a b y o s', parsed U F_single_input (fresh text) (SingleInput a b (Some y) o) s' ->
  ((exists r, stmt_of y = Some r) <-> forall z, In z (subnodes y) -> beyond z = false).
Proof. exact interactive_exact. Qed.
Print Assumptions C63_interactive.

(** Every expression and every statement within any tree that any function of the parser builds. *)
Theorem C63_expression : forall U text fuel f s x s', usual f = true -> run U fuel f s = Ok x s' ->
  (if input_fn f then on_text U text s else at_token U text s) ->
  forall y, In y (subnodes x) -> expression 0 y -> ((exists e, tree_of y = Some e) <-> forall z, In z (subnodes y) -> beyond z = false).
Proof. exact expressions_exact. Qed.
Print Assumptions C63_expression.
Theorem C63_statement : forall U text fuel f s x s', usual f = true -> run U fuel f s = Ok x s' ->
  (if input_fn f then on_text U text s else at_token U text s) ->
  forall y, In y (subnodes x) -> is_stmt y -> ((exists e, stmt_of y = Some e) <-> forall z, In z (subnodes y) -> beyond z = false).
Proof. exact statements_exact. Qed.
Print Assumptions C63_statement.

(** Accepted texts with each of the constructs, and two without. *)
Definition finding (text : str) : option (bool * list node) :=
  match run ascii_only 600 F_file_input (fresh text) with
  | Ok x _ => Some (match module_of x with Some _ => true | None => false end, filter beyond (subnodes x))
  | _ => None
  end.
Definition found (p : node -> bool) (text : str) : bool :=
  match finding (text ++ [LF]) with Some (false, l) => existsb p l | _ => false end.
Example C63_cases :
  found (fun y => match y with TestListComp _ _ [SyncCompForComprehension _ _ _ _ _ _ _; StarExpr _ _ _ _] _ => true | _ => false end) $"a = [*b for c, in d]" = true /\
  found (fun y => match y with Subscript _ _ _ (Some _) _ _ _ => true | _ => false end) $"a[b:c:d]" = true /\
  found (fun y => match y with AtomTuple _ _ _ (Some (TestListComp _ _ [StarExpr _ _ _ _] _)) _ => true | _ => false end) $"( *a )" = true /\
  found (fun y => match y with VarArgsList _ _ _ _ (Some _) _ _ _ _ => true | _ => false end) $"lambda a, *b: c" = true /\
  found (fun y => match y with VarArgsList _ _ _ _ _ _ (Some _) _ _ => true | _ => false end) $"class d(a, **b): pass" = true /\
  found (fun y => match y with VarArgsList _ _ _ _ _ _ _ _ (Some _) => true | _ => false end) $"lambda a, /: c" = true /\
  found (fun y => match y with AssertStmt _ _ _ _ (Some _) => true | _ => false end) $"assert a from b" = true /\
  found (fun y => match y with Node.FuncDef _ _ _ _ None _ _ _ _ => true | _ => false end) $"def a: pass" = true /\
  found (fun y => match y with AssignmentStmt _ _ _ _ (Some _) => true | _ => false end) $"a = b # type: c" = true /\
  found (fun y => match y with Node.ForStmt _ _ _ _ _ _ _ (Some _) _ _ => true | _ => false end) ($"for a, in b: # type: c" ++ [LF] ++ $" pass") = true /\
  found (fun y => match y with Node.FuncDef _ _ _ _ (Some _) _ _ (Some _) _ => true | _ => false end) ($"def a(): # type: c" ++ [LF] ++ $" pass") = true /\
  found (fun y => match y with FuncBodySuite _ _ _ (Some _) _ _ _ _ => true | _ => false end) ($"def a():" ++ [LF] ++ $" # type: c" ++ [LF] ++ $" pass") = true /\
  finding ($"a = [b for c, in d if e async for *f in g] or (yield *a, b)" ++ [LF] ++ $"b = (yield from {a: b,}) or {a, b,}" ++ [LF]) = Some (true, []) /\
  finding ($"a = [b, *c][d]" ++ [LF] ++ $"with e as f, g: return lambda h, i=j: {k: l}" ++ [LF]) = Some (true, []).
Proof. repeat (split; [vm_compute; reflexivity|]). vm_compute. reflexivity. Qed.
