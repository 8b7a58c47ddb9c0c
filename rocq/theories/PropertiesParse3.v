(** Parser properties about the shape of the tree: C48. *)
From Coq Require Import List Arith ZArith Lia.
From Verif Require Import Chars SourceBuffer Token Tokenizer LexSpec Node NodeView ParserState Parser ParseSpec
  PropertiesParse1 PropertiesParse2 SchemaSpec SchemaProofs.
Import ListNotations.
Local Open Scope nat_scope.

(** C48.  Every node of every tree holds the tokens and the kinds of nodes that its production
    calls for.  [usual] leaves out the two functions that continue a phrase begun by their caller,
    whose nodes are covered as parts of the trees of the callers, and the function for 'async def',
    which no statement calls; so no 'async def' occurs in any of these trees. *)
Theorem C48_tree_schema : forall U fuel f s x s', usual f = true -> run U fuel f s = Ok x s' ->
  forall y, In y (subnodes x) -> schema y.
Proof. exact run_schema. Qed.
Print Assumptions C48_tree_schema.
Theorem C48_async_def : forall U fuel s x s', run U fuel F_async_func_def s = Ok x s' ->
  exists p e t y, x = AsyncStmt p e t y /\ kind_is PyAsync t /\ is_def y /\ forall z, In z (subnodes y) -> schema z.
Proof. exact run_async_def. Qed.
Print Assumptions C48_async_def.
Example C48_async_case : ok (run ascii_only 100 F_async_func_def (opened (line $"async def f: pass"))) = true.
Proof. vm_compute. reflexivity. Qed.

(** The schema is met by trees of many kinds of nodes, and refuses trees that are wrong in one place. *)
Definition schema_text : str :=
  line $"class a(b): pass" ++ line $"while not a < b + c * -d ** e: x = f(y).z[1]" ++ line $"try: pass" ++ line $"except a as b: return lambda: 1 if x else y" ++
  line $"del a, b" ++ line $"x += (1, *y), [z]".
Example C48_case : match run ascii_only 400 F_file_input (fresh schema_text) with
  | Ok x _ => length (subnodes x)
  | _ => 0 end = 62.
Proof. vm_compute. reflexivity. Qed.
Definition tok (k : kind) : token := Tok k (Range 0 1) None NoPayload.
Example C48_wrong : forall a b, ~ schema (MulTerm 0 5 (PlusArithExpr 0 3 a (tok PyPlus) b) (tok PyMul) a) /\
  ~ schema (MulTerm 0 5 (AtomName 0 1 (tok T_AtomName)) (tok PyPlus) (AtomName 4 5 (tok T_AtomName))) /\
  ~ schema (IfStmt 0 9 (tok PyIf) a (tok PyColon) (AtomName 3 4 (tok T_AtomName)) [] None).
Proof.
  intros a b. repeat split; intro H; cbn in H; unfold left, kind_is, expression in H; cbn in H; repeat match goal with H : _ /\ _ |- _ => destruct H end; try lia; try discriminate; auto.
Qed.
(** Before 'in' stands a list of targets that ends in a comma or a starred target; a condition of a comprehension is no conditional
    expression; no comma ends the values of a yield in parentheses. *)
Definition nodes_of (text : str) : nat := match run ascii_only 400 F_file_input (fresh text) with Ok x _ => length (subnodes x) | _ => 0 end.
Example C48_more : (nodes_of (line $"[a for b, in c if d]") =? 0) = false /\ nodes_of (line $"[a for b in c if d]") = 0 /\
  (nodes_of (line $"x = (yield a, b)") =? 0) = false /\ nodes_of (line $"x = (yield a, b,)") = 0 /\ (nodes_of (line $"for *x in y: pass") =? 0) = false.
Proof. vm_compute. repeat split. Qed.
Example C48_wrong_more : forall n,
  ~ schema (SyncCompForComprehension 0 9 (tok PyFor) (AtomName 3 4 n) (tok PyIn) (AtomName 7 8 n) None) /\
  ~ schema (CompIfComprehension 0 9 (tok PyIf) (Test 2 9 (AtomName 2 3 n) (tok PyIf) (AtomName 4 5 n) (tok PyElse) (AtomName 6 7 n)) None) /\
  ~ schema (AtomTuple 0 9 (tok PyLeftParen) (Some (YieldExpr 1 8 (tok PyYield) (TestListStarExpr 2 7 [AtomName 2 3 n] [tok PyComa]))) (tok PyRightParen)).
Proof.
  intros n. repeat split; intro H; cbn in H; unfold kind_is, expression, between_all in H; cbn in H; repeat match goal with H : _ /\ _ |- _ => destruct H end; auto; try lia.
Qed.
