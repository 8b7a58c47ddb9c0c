(** C70: how tall the trees are, that is how much stack a walk over them or their release takes. *)
From Coq Require Import List Arith.
From Verif Require Import Chars SourceBuffer Token Tokenizer LexSpec Node NodeView ParserState Parser ParseSpec SchemaSpec SchemaProofs
  LayoutSpec DepthSpec HeightSpec HeightProofs.
Import ListNotations.
Local Open Scope nat_scope.

(** C70.  What holds of the height: no path in a tree is longer than twice its tokens, and in the tree of a whole text it is shorter
    than twice the tokens of the text.  Missing, since false: a bound by the nesting of the text. *)
Theorem C70_height_partial : forall U n f s x s' k, usual f = true -> run U n f s = Ok x s' -> path x k -> k <= 2 * length (tokens x).
Proof. exact height_linear. Qed.
Print Assumptions C70_height_partial.
Theorem C70_height_of_text_partial : forall U text n f x s' k, f = F_file_input \/ f = F_eval_input \/ f = F_func_type_input ->
  run U n f (fresh text) = Ok x s' -> path x k -> k + 1 < 2 * length (scanned U text).
Proof. exact height_of_text. Qed.
Print Assumptions C70_height_of_text_partial.
(** The nesting does not bound it: for any height there is an accepted text without nesting and without slices (so the parser calls
    itself no deeper than a constant, C65) whose tree is that tall. *)
Theorem C70_height_by_nesting_refuted : forall U k, exists text x s', nested_within U text 0 /\ without_slices U text /\
  parsed U F_eval_input (fresh text) x s' /\ path x k.
Proof. exact height_unbounded. Qed.
Print Assumptions C70_height_by_nesting_refuted.

(** A case: four operands of one operator, three nodes below one another under the root, the innermost operand below these. *)
Ltac down := eapply P_down; [cbn [items app]; left; reflexivity|].
Example C70_case : exists x s', run ascii_only 100 F_eval_input (fresh $"a-b-c-d") = Ok x s' /\ path x 4 /\ length (tokens x) = 8.
Proof. eexists. eexists. split; [vm_compute; reflexivity|]. split; [|vm_compute; reflexivity]. do 4 down. apply P_here. Qed.
