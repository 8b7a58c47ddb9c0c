(** The size of the tree: C68. *)
From Coq Require Import List Arith Bool Lia.
From Verif Require Import Chars SourceBuffer Token Tokenizer LexSpec Node NodeView ParserState Parser ParseSpec SchemaProofs LayoutSpec SizeProofs
  ExprSpec PropertiesParse1 PropertiesExpr.
Import ListNotations.
Local Open Scope nat_scope.

(** C68.  A tree has at most twice as many nodes as tokens, and one; whichever function of the parser made it. *)
Theorem C68_nodes_linear : forall U n f s x s', usual f = true -> run U n f s = Ok x s' -> length (subnodes x) <= 2 * length (tokens x) + 1.
Proof. exact nodes_linear. Qed.
Print Assumptions C68_nodes_linear.
(** The tree of a whole text has fewer nodes than twice the tokens of the text. *)
Theorem C68_nodes_of_text : forall U text n f x s', f = F_file_input \/ f = F_eval_input \/ f = F_func_type_input ->
  run U n f (fresh text) = Ok x s' -> length (subnodes x) < 2 * length (scanned U text).
Proof. exact nodes_of_text. Qed.
Print Assumptions C68_nodes_of_text.
Theorem C68_nodes_by_length : forall U text n f x s', f = F_file_input \/ f = F_eval_input \/ f = F_func_type_input ->
  run U n f (fresh text) = Ok x s' -> length (subnodes x) <= 6 * length text + 7.
Proof. exact nodes_by_length. Qed.
Print Assumptions C68_nodes_by_length.

(** Cases: the first bound is reached by the subscript [a], which is three nodes around one token; a text of nested subscripts, and
    how close it comes to the second. *)
Definition weighed (o : outcome node) : option (nat * nat) :=
  match o with Ok x _ => Some (length (subnodes x), length (tokens x)) | _ => None end.
Example C68_reached : weighed (run ascii_only 100 F_subscript_list (opened $"a")) = Some (3, 1).
Proof. vm_compute. reflexivity. Qed.
Definition nested_text : str := $"a[a[a[a[a[a[a[a[a[a]]]]]]]]]".
Example C68_case : weighed (run ascii_only 400 F_eval_input (fresh nested_text)) = Some (47, 29) /\ length (scanned ascii_only nested_text) = 29.
Proof. split; vm_compute; reflexivity. Qed.
