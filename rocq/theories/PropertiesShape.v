(** Trees and tokens determine each other: C64. *)
From Coq Require Import List Arith Bool.
From Verif Require Import Chars SourceBuffer Token Tokenizer LexSpec Node NodeView ParserState Parser GrammarSpec ParseBasics TreeSpec ParseSpec
  SchemaSpec SchemaProofs ExprSpec LayoutSpec ShapeSpec ShapeProofs.
Import ListNotations.
Local Open Scope nat_scope.

(** C64.  Of two accepted inputs the trees are the same, positions and trivia aside, exactly if the tokens are, when no
    node of the tree has '*' or '/' among other parameters: nothing else of a text than its layout is lost in its tree,
    and nothing of the layout shapes it. *)
Theorem C64_tree_determines_tokens_partial : forall U U' text text' n n' f x x' s s', f = F_file_input \/ f = F_eval_input \/ f = F_func_type_input ->
  run U n f (fresh text) = Ok x s -> run U' n' f (fresh text') = Ok x' s' -> (forall y, In y (subnodes x) -> scattered y = false) ->
  same_tree x x' <-> same_tokens U text U' text'.
Proof. exact same_tree_iff. Qed.
Print Assumptions C64_tree_determines_tokens_partial.

(** From tokens to trees no such condition is needed, and interactive inputs are covered as well. *)
Theorem C64_tokens_determine_tree : forall U U' text text' n n' f x x' s s', input_fn f = true ->
  run U n f (fresh text) = Ok x s -> run U' n' f (fresh text') = Ok x' s' -> same_tokens U text U' text' -> same_tree x x'.
Proof. exact tokens_determine_tree. Qed.
Print Assumptions C64_tokens_determine_tree.

(** The same for what any other function reads, from any token on. *)
Theorem C64_phrases_partial : forall U U' text text' n n' f s x s1 s' x' s1', usual f = true -> input_fn f = false ->
  f <> F_decorators -> f <> F_decorator ->
  at_token U text s -> at_token U' text' s' -> run U n f s = Ok x s1 -> run U' n' f s' = Ok x' s1' ->
  (forall y, In y (subnodes x) -> scattered y = false) -> same_tree x x' ->
  exists l l', reads U s l s1 /\ reads U' s' l' s1' /\ map face (map snd l) = map face (map snd l').
Proof. exact phrase_tokens. Qed.
Print Assumptions C64_phrases_partial.

(** Without the condition it is false: the tree does not tell where '*' and '/' stand among the parameters. *)
Definition parsed_text (f : fn) (text : str) : outcome node := run ascii_only 60 f (fresh text).
Definition confused (f : fn) (a b : str) : Prop :=
  exists x s x' s', parsed_text f a = Ok x s /\ parsed_text f b = Ok x' s' /\ same_tree x x' /\ ~ same_tokens ascii_only a ascii_only b.
Ltac confuse := eexists _, _, _, _; split; [vm_compute; reflexivity|]; split; [vm_compute; reflexivity|]; split;
  [repeat first [exact I | reflexivity | constructor]|vm_compute; discriminate].
Theorem C64_star_refuted : confused F_eval_input $"lambda a, *b: c" $"lambda *b, a: c".
Proof. confuse. Qed.
Print Assumptions C64_star_refuted.
Theorem C64_slash_refuted : confused F_eval_input $"lambda a, /, b: c" $"lambda a, b, /: c".
Proof. confuse. Qed.
Print Assumptions C64_slash_refuted.
Theorem C64_class_refuted : confused F_file_input ($"class A(a, *b): pass" ++ [LF]) ($"class A(*b, a): pass" ++ [LF]).
Proof. confuse. Qed.
Print Assumptions C64_class_refuted.
Theorem C64_types_refuted : confused F_func_type_input $"(a, *b) -> c" $"(*b, a) -> c".
Proof. confuse. Qed.
Print Assumptions C64_types_refuted.

(** The condition is met by most texts, also by those with other parameters; *)
Definition settled_text (f : fn) (text : str) : bool :=
  match parsed_text f text with Ok x _ => negb (existsb scattered (subnodes x)) | _ => false end.
Example C64_cases : settled_text F_file_input ($"for a, in b:" ++ [LF] ++ $"  if a: f(a)[1] = lambda c, d=1, **e: [c, d]" ++ [LF] ++ $"x = 1 # end" ++ [LF]) = true /\
  settled_text F_eval_input $"lambda *a: a" = true /\ settled_text F_func_type_input $"(a, b, **c) -> d" = true.
Proof. vm_compute. auto. Qed.
(** two layouts of one file have the same tree, *)
Example C64_same : exists x s x' s', parsed_text F_file_input ($"while a:" ++ [LF] ++ $" f(1)" ++ [LF]) = Ok x s /\
  parsed_text F_file_input ($"while   a : # again" ++ [LF] ++ $"    f (" ++ [LF] ++ $"1)" ++ [LF]) = Ok x' s' /\ same_tree x x' /\ x <> x'.
Proof.
  eexists _, _, _, _. split; [vm_compute; reflexivity|]. split; [vm_compute; reflexivity|].
  split; [repeat first [exact I | reflexivity | constructor]|discriminate].
Qed.
(** and one name or operator more or less makes another. *)
Definition apart (a b : str) : Prop := exists x s x' s', parsed_text F_eval_input a = Ok x s /\ parsed_text F_eval_input b = Ok x' s' /\ ~ same_tree x x'.
Lemma apart_texts a b : settled_text F_eval_input a = true -> settled_text F_eval_input b = true -> ~ same_tokens ascii_only a ascii_only b -> apart a b.
Proof.
  unfold settled_text, apart. destruct (parsed_text F_eval_input a) as [x s| | |] eqn:A; try discriminate.
  destruct (parsed_text F_eval_input b) as [x' s'| | |] eqn:B; try discriminate. intros C _ N. exists x, s, x', s'. split; [reflexivity|]. split; [reflexivity|].
  intro H. apply N. refine (tree_determines_tokens ascii_only ascii_only a b 60 60 F_eval_input x x' s s' _ A B _ H); [auto|].
  intros y I. destruct (scattered y) eqn:Y; [|reflexivity]. assert (E : existsb scattered (subnodes x) = true) by (apply existsb_exists; eauto).
  rewrite E in C. discriminate C.
Qed.
Example C64_apart : apart $"a - b - c" $"a - (b - c)" /\ apart $"a" $"(a)" /\ apart $"a, b" $"a, b," /\ apart $"a" $"b".
Proof. repeat split; apply apart_texts; vm_compute; solve [reflexivity|discriminate]. Qed.
