(** Precedence and associativity: C35. *)
From Coq Require Import List Arith ZArith Lia.
From Verif Require Import Chars SourceBuffer Token Tokenizer LexSpec TokenSpec RenderSpec Node NodeView ParserState Parser ParseBasics ParseSpec
  SchemaProofs ExprSpec ExprText ExprPrint.
Import ListNotations.
Local Open Scope nat_scope.

(** C35.  The text of any expression tree, written with the parentheses that the precedences and
    groupings of the language reference call for, is parsed to that tree, *)
Theorem C35_canonical_text : forall U e, valid e -> writable U e ->
  exists a b y n t s', parsed U F_eval_input (fresh (expression_text (wrap 1 (canon e)))) (EvalInput a b y [n] t) s' /\
    tree_of y = Some (wrap 1 (canon e)).
Proof. exact canonical_text. Qed.
Print Assumptions C35_canonical_text.

(** where the parentheses added change nothing but the parentheses, and are put only around
    operands that bind too loosely for their place. *)
Theorem C35_parentheses : forall e, valid e -> proper (canon e) /\ bare (canon e) = bare e.
Proof. intros e V. split; [exact (canon_proper e (proj2 V))|exact (canon_bare e)]. Qed.
Print Assumptions C35_parentheses.
Theorem C35_no_parentheses : forall e, proper e -> canon e = e.
Proof. exact canon_proper_same. Qed.
Print Assumptions C35_no_parentheses.

(** On the line level, in both directions: a line of tokens is parsed to the expression [e] exactly
    if [e] obeys the precedences and the tokens are those of [e], with any blanks between them. *)
Theorem C35_exact : forall U x e, line_ok U x 0 ->
  (exists a b y ns t s', parsed U F_eval_input (fresh (text_of [x])) (EvalInput a b y ns t) s' /\ tree_of y = Some e) <->
  (proper e /\ 1 <= level e /\ map item_seen (ln_items x) = flatten e).
Proof. exact text_exact. Qed.
Print Assumptions C35_exact.

Theorem C35_unambiguous : forall U x e1 e2, proper e1 -> proper e2 -> 1 <= level e1 -> 1 <= level e2 ->
  writes U x e1 -> writes U x e2 -> e1 = e2.
Proof. exact unambiguous. Qed.
Print Assumptions C35_unambiguous.

(** Inside any phrase, before a token that ends an expression: *)
Theorem C35_phrase : forall U s l s' e, proper e -> 1 <= level e -> reads U s l s' -> ps_except s' = ps_except s -> closes s' ->
  map (fun x => face (snd x)) l = flatten e -> exists x, parsed U F_test s x s' /\ tree_of x = Some e.
Proof. exact phrase_read. Qed.
Print Assumptions C35_phrase.

(** Any part of any tree that reads as an expression stands for the tokens it was built from, and
    its operands obey the precedences. *)
Theorem C35_every_tree : forall U fuel f s x s', usual f = true -> run U fuel f s = Ok x s' ->
  exists s1 l, (if input_fn f then advance U s = Ok tt s1 else s1 = s) /\ reads U s1 l s' /\
    forall y e, In y (subnodes x) -> tree_of y = Some e ->
      exists l1 l2 l3, l = l1 ++ l2 ++ l3 /\ map (fun x => face (snd x)) l2 = flatten e /\ proper e.
Proof. exact tree_stands. Qed.
Print Assumptions C35_every_tree.

(** Concrete trees: -a ** -b, (a + b) * c ** d, a < b < c, (not a) in b and a call with a conditional. *)
Definition nm (c : str) : ast := Word T_AtomName (Text c).
Definition tree_text (e : ast) : str := expression_text (wrap 1 (canon e)).
Example C35_case :
  tree_text (Unary PyMinus (Power (nm $"a") (Unary PyMinus (nm $"b")))) = $"- a ** - b" ++ [LF] /\
  tree_text (Infix PyMul (Infix PyPlus (nm $"a") (nm $"b")) (Power (nm $"c") (nm $"d"))) = $"( a + b ) * c ** d" ++ [LF] /\
  tree_text (Infix PyMinus (nm $"a") (Infix PyMinus (nm $"b") (nm $"c"))) = $"a - ( b - c )" ++ [LF] /\
  tree_text (Infix PyMinus (Infix PyMinus (nm $"a") (nm $"b")) (nm $"c")) = $"a - b - c" ++ [LF] /\
  tree_text (Infix PyIn (Not (nm $"a")) (nm $"b")) = $"( not a ) in b" ++ [LF] /\
  tree_text (Call (nm $"f") [If (nm $"a") (NotIn (nm $"b") (nm $"c")) (nm $"d"); Word PyNone NoPayload]) = $"f ( a if b not in c else d , None )" ++ [LF] /\
  tree_text (SetOf false [Starred (Infix PyOr (nm $"a") (nm $"b")); Named (nm $"c") (nm $"d")]) = $"{ * ( a or b ) , ( c := d ) }" ++ [LF] /\
  tree_text (DictOf false [Pair (nm $"a") (Func [nm $"b"; Default (Text $"c") (nm $"d")] (Infix PyBitOr (nm $"b") (nm $"c"))); Spread (Infix PyBitOr (nm $"a") (nm $"b"))]) =
    $"{ a : lambda b , c = d : b | c , ** a | b }" ++ [LF] /\
  tree_text (SetOf true [nm $"a"]) = $"{ a , }" ++ [LF] /\
  tree_text (Comp true (Named (nm $"a") (nm $"b")) [ForIn false [nm $"c"] true (If (nm $"d") (nm $"a") (nm $"b")); When (Func [nm $"x"] (If (nm $"d") (nm $"a") (nm $"b")));
    ForIn true [nm $"c"; Starred (nm $"d")] false (nm $"a")]) =
    $"[ a := b for c , in ( d if a else b ) if ( lambda x : d if a else b ) async for c , * d in a ]" ++ [LF] /\
  tree_text (Infix PyPlus (Yielding [Starred (nm $"a"); Named (nm $"b") (nm $"c")]) (YieldingFrom (Func [] (nm $"a")))) =
    $"( yield * a , ( b := c ) ) + ( yield from lambda : a )" ++ [LF] /\
  tree_text (Infix PyOr (Func [] (nm $"a")) (ListOf [Starred (nm $"b"); nm $"c"])) = $"( lambda : a ) or [ * b , c ]" ++ [LF].
Proof. repeat split; vm_compute; reflexivity. Qed.
Lemma letter : forall c, In c [#"a"; #"b"; #"c"; #"d"] -> plain ascii_only [c] T_AtomName (Text [c]).
Proof.
  intros c H. apply PL_name; [discriminate| | |]; cbn in H;
    repeat (destruct H as [<-|H]; [first [vm_compute; tauto | repeat constructor; vm_compute; tauto | cbn; intuition discriminate]|]); destruct H.
Qed.
Example C35_writable : valid (Infix PyMul (Infix PyPlus (nm $"a") (nm $"b")) (Power (nm $"c") (nm $"d"))) /\
  writable ascii_only (Infix PyMul (Infix PyPlus (nm $"a") (nm $"b")) (Power (nm $"c") (nm $"d"))).
Proof.
  split.
  - repeat split; try discriminate; cbn; tauto.
  - unfold writable. cbn [flatten nm app]. repeat (apply Forall_cons; [intros C; first [discriminate C | apply letter; cbn; tauto]|]). apply Forall_nil.
Qed.
Example C35_parsed : match run ascii_only 400 F_eval_input (fresh ($"-a**b**c+d*(e if f else g).h(1)<i" ++ [LF])) with
  | Ok (EvalInput _ _ y _ _) _ => tree_of y
  | _ => None end =
  Some (Infix PyLess
    (Infix PyPlus (Unary PyMinus (Power (nm $"a") (Power (nm $"b") (nm $"c"))))
       (Infix PyMul (nm $"d") (Call (Attribute (Group (If (nm $"e") (nm $"f") (nm $"g"))) (Text $"h")) [Word T_AtomNumber (Text $"1")])))
    (nm $"i")).
Proof. vm_compute. reflexivity. Qed.
Example C35_parsed_displays : match run ascii_only 400 F_eval_input (fresh ($"{*a|b,(c:=1)} if {1:lambda x,y=2:x,**d} else (*e,f)" ++ [LF])) with
  | Ok (EvalInput _ _ y _ _) _ => tree_of y
  | _ => None end =
  Some (If (SetOf false [Starred (Infix PyBitOr (nm $"a") (nm $"b")); Group (Named (nm $"c") (Word T_AtomNumber (Text $"1")))])
    (DictOf false [Pair (Word T_AtomNumber (Text $"1")) (Func [nm $"x"; Default (Text $"y") (Word T_AtomNumber (Text $"2"))] (nm $"x")); Spread (nm $"d")])
    (Tuple [Starred (nm $"e"); nm $"f"])).
Proof. vm_compute. reflexivity. Qed.
Example C35_parsed_comprehensions : match run ascii_only 600 F_eval_input (fresh ($"[f(a) for a, in b if lambda: c async for *d in e] or (yield *a, b) or (yield from {x: y,}) or (z for x, *y in {w,})" ++ [LF])) with
  | Ok (EvalInput _ _ y _ _) _ => tree_of y
  | _ => None end =
  Some (Infix PyOr (Infix PyOr (Infix PyOr
    (Comp true (Call (nm $"f") [nm $"a"]) [ForIn false [nm $"a"] true (nm $"b"); When (Func [] (nm $"c")); ForIn true [Starred (nm $"d")] false (nm $"e")])
    (Yielding [Starred (nm $"a"); nm $"b"]))
    (YieldingFrom (DictOf true [Pair (nm $"x") (nm $"y")])))
    (Comp false (nm $"z") [ForIn false [nm $"x"; Starred (nm $"y")] false (SetOf true [nm $"w"])])).
Proof. vm_compute. reflexivity. Qed.
(** Refused: a target that an 'in' would follow directly. *)
Example C35_no_target : match run ascii_only 600 F_eval_input (fresh ($"[a for b in c]" ++ [LF])) with Ok _ _ => true | _ => false end = false.
Proof. vm_compute. reflexivity. Qed.
