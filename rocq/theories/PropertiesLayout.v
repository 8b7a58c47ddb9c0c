(** Layout independence: C54. *)
From Coq Require Import List Arith Bool Lia.
From Verif Require Import Chars SourceBuffer Token Tokenizer LexSpec TokenSpec RenderSpec Node ParserState Parser ParseBasics ParseSpec
  ExprSpec LayoutSpec TwinProofs.
Import ListNotations.
Local Open Scope nat_scope.

(** C54.  Two texts with the same tokens, places and trivia aside, are parsed alike: to trees that differ in places and
    trivia only, or to the same message at corresponding places; or both runs panic, or neither ends within [n] levels.
    The texts may be read with different tables of characters. *)
Theorem C54_layout_independent : forall U U' text text' f n, input_fn f = true -> same_tokens U text U' text' ->
  same_outcome (corresponding U text U' text') (run U n f (fresh text)) (run U' n f (fresh text')).
Proof. exact layout_independent. Qed.
Print Assumptions C54_layout_independent.

(** In particular the same tokens may be written with any gaps and any indentation of the same blocks. *)
Theorem C54_respaced : forall U U' xs xs' ts f n, input_fn f = true -> program U [0] xs ts -> program U' [0] xs' ts ->
  same_outcome (corresponding U (RenderSpec.text_of xs) U' (RenderSpec.text_of xs'))
    (run U n f (fresh (RenderSpec.text_of xs))) (run U' n f (fresh (RenderSpec.text_of xs'))).
Proof. exact respaced. Qed.
Print Assumptions C54_respaced.

(** A comment, blanks, a line inside brackets and another width of the block change nothing but places and trivia; *)
Definition plain_text : str := $"while a:" ++ [LF] ++ $" f(1)" ++ [LF].
Definition laid_out : str := $"while   a  :   # again" ++ [LF] ++ [TAB] ++ $"f (" ++ [LF] ++ $"  1 # one" ++ [LF] ++ $")" ++ [LF].
Definition outcome_of (text : str) : outcome node := run ascii_only 60 F_file_input (fresh text).
Definition tree_in (o : outcome node) : option node := match o with Ok x _ => Some x | _ => None end.
Example C54_case : same_tokens ascii_only plain_text ascii_only laid_out /\ plain_text <> laid_out /\
  tree_in (outcome_of plain_text) <> None /\ tree_in (outcome_of laid_out) <> tree_in (outcome_of plain_text).
Proof. split; [vm_compute; reflexivity|]. split; [discriminate|]. split; vm_compute; discriminate. Qed.
(** an error is reported at the corresponding place; *)
Definition error_in (o : outcome node) : option err := match o with Err e => Some e | _ => None end.
Definition wrong_tokens : str := $"a = del" ++ [LF].
Definition wrong_laid_out : str := $"a   =\" ++ [LF] ++ $"    del" ++ [LF].
Example C54_error : same_tokens ascii_only wrong_tokens ascii_only wrong_laid_out /\
  exists msg p p', outcome_of wrong_tokens = Err (EAt msg p) /\ outcome_of wrong_laid_out = Err (EAt msg p') /\ p <> p'.
Proof. split; [vm_compute; reflexivity|]. eexists _, _, _. vm_compute. repeat split; discriminate. Qed.
(** and texts the tokenizer splits differently are not covered. *)
Example C54_other : ~ same_tokens ascii_only ($"a b" ++ [LF]) ascii_only ($"ab" ++ [LF]).
Proof. vm_compute. discriminate. Qed.
