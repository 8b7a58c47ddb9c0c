(** The functions of Expressions.v over the monad of Meter.v, unchanged (C67). *)
From Verif Require Import Chars SourceBuffer Token Tokenizer Node ParserState Expressions Meter.

Section MeterExpr.
Variable U : unicode.
Variable n : nat.
Variable rec : fn -> M node.

Local Notation advance := (advance U).

(** expressions.rs 81-95, loop collecting adjacent string tokens *)
Definition atom_string_step (lst : list token) : M (bool * list token) :=
  on_symbol (ret (false, lst)) (fun symbol1 =>
    if is T_AtomString symbol1 then advance;; ret (true, lst ++ [symbol1])
    else ret (false, lst)).

(** expressions.rs 47-202 *)
Definition p_atom : M node :=
  do start_pos <- position;
  on_symbol (fail "SyntaxError at {}: Expecting symbol in atom expression!" start_pos) (fun symbol1 =>
  if is PyElipsis symbol1 then
    advance;; do e <- position; ret (AtomElipsis start_pos e symbol1)
  else if is PyFalse symbol1 then
    advance;; do e <- position; ret (AtomFalse start_pos e symbol1)
  else if is PyNone symbol1 then
    advance;; do e <- position; ret (AtomNone start_pos e symbol1)
  else if is PyTrue symbol1 then
    advance;; do e <- position; ret (AtomTrue start_pos e symbol1)
  else if is T_AtomName symbol1 then
    advance;; do e <- position; ret (AtomName start_pos e symbol1)
  else if is T_AtomNumber symbol1 then
    advance;; do e <- position; ret (AtomNumber start_pos e symbol1)
  else if is T_AtomString symbol1 then
    advance;;
    do lst <- while_ n atom_string_step [symbol1];
    do e <- position; ret (AtomString start_pos e lst)
  else if is PyLeftParen symbol1 then
    advance;;
    do inner <- on_symbol (fail "SyntaxError at {}: Expecting symbol in atom expression!" start_pos) (fun s =>
      if is PyYield s then do r <- rec F_yield_expr; ret (Some r)
      else if is PyRightParen s then ret None
      else do r <- rec F_testlist_comp; ret (Some r));
    on_symbol (fail "SyntaxError at {}: Expecting symbol in atom expression!" start_pos) (fun symbol2 =>
      if is PyRightParen symbol2 then
        advance;; do e <- position; ret (AtomTuple start_pos e symbol1 inner symbol2)
      else fail "SyntaxError at {}: Expecting ')' in tuple atom expression!" start_pos)
  else if is PyLeftBracket symbol1 then
    advance;;
    do inner <- on_symbol (fail "SyntaxError at {}: Expecting symbol in atom expression!" start_pos) (fun s =>
      if is PyRightBracket s then ret None
      else do r <- rec F_testlist_comp; ret (Some r));
    on_symbol (fail "SyntaxError at {}: Expecting symbol in atom expression!" start_pos) (fun symbol2 =>
      if is PyRightBracket symbol2 then
        advance;; do e <- position; ret (AtomList start_pos e symbol1 inner symbol2)
      else fail "SyntaxError at {}: Expecting ']' in list atom expression!" start_pos)
  else if is PyLeftCurly symbol1 then
    advance;;
    do inner <- on_symbol (fail "SyntaxError at {}: Expecting symbol in atom expression!" start_pos) (fun s =>
      if is PyRightCurly s then ret None
      else do r <- rec F_dictorset_maker; ret (Some r));
    on_symbol (fail "SyntaxError at {}: Expecting symbol in atom expression!" start_pos) (fun symbol2 =>
      if is PyRightCurly symbol2 then
        advance;;
        match inner with
        | Some a =>
            match a with
            | DictionaryContainer _ _ _ _ =>
                do e <- position; ret (AtomDictionary start_pos e symbol1 inner symbol2)
            | SetContainer _ _ _ _ =>
                do e <- position; ret (AtomSet start_pos e symbol1 inner symbol2)
            | _ =>
                do e <- position; ret (AtomDictionary start_pos e symbol1 None symbol2)
            end
        | None => fail "SyntaxError at {}: Expecting dictionary/set in atom expression!" start_pos
        end
      else fail "SyntaxError at {}: Expecting end marker in dictionary/set atom expression!" start_pos)
  else fail "SyntaxError at {}: Expecting symbol in atom expression!" start_pos).

(** expressions.rs 229-248, trailer loop *)
Definition atom_expr_step (lst : list node) : M (bool * list node) :=
  on_symbol (ret (false, lst)) (fun s =>
    if is_one_of [PyLeftParen; PyLeftBracket; PyDot] s then
      do t <- rec F_trailer; ret (true, lst ++ [t])
    else ret (false, lst)).

(** expressions.rs 204-262 *)
Definition p_atom_expr : M node :=
  do start_pos <- position;
  do await_symbol <- on_symbol (fail "SyntaxError at {}: Expecting symbol in atom_expr expression!" start_pos) (fun symbol1 =>
    if is PyAwait symbol1 then advance;; ret (Some symbol1) else ret None);
  do right_node <- rec F_atom;
  do lst <- while_ n atom_expr_step [];
  match await_symbol, lst with
  | None, [] => ret right_node
  | _, _ => do e <- position; ret (AtomExpr start_pos e await_symbol right_node lst)
  end.

(** expressions.rs 264-281 *)
Definition p_power : M node :=
  do start_pos <- position;
  do left_node <- rec F_atom_expr;
  on_symbol (fail "SyntaxError at {}: Expecting symbol in power expression!" start_pos) (fun symbol =>
    if is PyPower symbol then
      advance;; do right_node <- rec F_factor;
      do e <- position; ret (PowerExpr start_pos e left_node symbol right_node)
    else ret left_node).

(** expressions.rs 283-311 *)
Definition p_factor : M node :=
  do start_pos <- position;
  on_symbol (fail "SyntaxError at {}: Expecting symbol in factor expression!" start_pos) (fun symbol =>
    if is PyPlus symbol then
      advance;; do right_node <- rec F_factor;
      do e <- position; ret (UnaryPlus start_pos e symbol right_node)
    else if is PyMinus symbol then
      advance;; do right_node <- rec F_factor;
      do e <- position; ret (UnaryMinus start_pos e symbol right_node)
    else if is PyBitInvert symbol then
      advance;; do right_node <- rec F_factor;
      do e <- position; ret (UnaryInvert start_pos e symbol right_node)
    else rec F_power).

(** expressions.rs 316-354 *)
Definition term_step (start_pos : nat) (left_node : node) : M (bool * node) :=
  on_symbol (fail "SyntaxError at {}: Expecting symbol in term expression!" start_pos) (fun symbol =>
    if is PyMul symbol then
      advance;; do right_node <- rec F_factor;
      do e <- position; ret (true, MulTerm start_pos e left_node symbol right_node)
    else if is PyDiv symbol then
      advance;; do right_node <- rec F_factor;
      do e <- position; ret (true, DivTerm start_pos e left_node symbol right_node)
    else if is PyFloorDiv symbol then
      advance;; do right_node <- rec F_factor;
      do e <- position; ret (true, FloorDivTerm start_pos e left_node symbol right_node)
    else if is PyModulo symbol then
      advance;; do right_node <- rec F_factor;
      do e <- position; ret (true, ModuloTerm start_pos e left_node symbol right_node)
    else if is PyMatrice symbol then
      advance;; do right_node <- rec F_factor;
      do e <- position; ret (true, MatriceTerm start_pos e left_node symbol right_node)
    else ret (false, left_node)).

(** expressions.rs 313-356 *)
Definition p_term : M node :=
  do start_pos <- position;
  do left_node <- rec F_factor;
  while_ n (term_step start_pos) left_node.

(** expressions.rs 361-381 *)
Definition arith_step (start_pos : nat) (left_node : node) : M (bool * node) :=
  on_symbol (fail "SyntaxError at {}: Expecting symbol in arith expression!" start_pos) (fun symbol =>
    if is PyPlus symbol then
      advance;; do right_node <- rec F_term;
      do e <- position; ret (true, PlusArithExpr start_pos e left_node symbol right_node)
    else if is PyMinus symbol then
      advance;; do right_node <- rec F_term;
      do e <- position; ret (true, MinusArithExpr start_pos e left_node symbol right_node)
    else ret (false, left_node)).

(** expressions.rs 358-383 *)
Definition p_arith : M node :=
  do start_pos <- position;
  do left_node <- rec F_term;
  while_ n (arith_step start_pos) left_node.

(** expressions.rs 388-408 *)
Definition shift_step (start_pos : nat) (left_node : node) : M (bool * node) :=
  on_symbol (fail "SyntaxError at {}: Expecting symbol in shift expression!" start_pos) (fun symbol =>
    if is PyShiftLeft symbol then
      advance;; do right_node <- rec F_arith;
      do e <- position; ret (true, ShiftLeftExpr start_pos e left_node symbol right_node)
    else if is PyShiftRight symbol then
      advance;; do right_node <- rec F_arith;
      do e <- position; ret (true, ShiftRightExpr start_pos e left_node symbol right_node)
    else ret (false, left_node)).

(** expressions.rs 385-410 *)
Definition p_shift : M node :=
  do start_pos <- position;
  do left_node <- rec F_arith;
  while_ n (shift_step start_pos) left_node.

(** expressions.rs 415-429 *)
Definition and_expr_step (start_pos : nat) (left_node : node) : M (bool * node) :=
  on_symbol (fail "SyntaxError at {}: Expecting symbol in and expression!" start_pos) (fun symbol =>
    if is PyBitAnd symbol then
      advance;; do right_node <- rec F_shift;
      do e <- position; ret (true, AndExpr start_pos e left_node symbol right_node)
    else ret (false, left_node)).

(** expressions.rs 412-431 *)
Definition p_and_expr : M node :=
  do start_pos <- position;
  do left_node <- rec F_shift;
  while_ n (and_expr_step start_pos) left_node.

(** expressions.rs 436-450 *)
Definition xor_expr_step (start_pos : nat) (left_node : node) : M (bool * node) :=
  on_symbol (fail "SyntaxError at {}: Expecting symbol in xor expression!" start_pos) (fun symbol =>
    if is PyBitXor symbol then
      advance;; do right_node <- rec F_and_expr;
      do e <- position; ret (true, XorExpr start_pos e left_node symbol right_node)
    else ret (false, left_node)).

(** expressions.rs 433-452 *)
Definition p_xor_expr : M node :=
  do start_pos <- position;
  do left_node <- rec F_and_expr;
  while_ n (xor_expr_step start_pos) left_node.

(** expressions.rs 457-471 *)
Definition expr_step (start_pos : nat) (left_node : node) : M (bool * node) :=
  on_symbol (fail "SyntaxError at {}: Expecting symbol in or expression!" start_pos) (fun symbol =>
    if is PyBitOr symbol then
      advance;; do right_node <- rec F_xor_expr;
      do e <- position; ret (true, Expr start_pos e left_node symbol right_node)
    else ret (false, left_node)).

(** expressions.rs 454-473 *)
Definition p_expr : M node :=
  do start_pos <- position;
  do left_node <- rec F_xor_expr;
  while_ n (expr_step start_pos) left_node.

(** expressions.rs 475-491 *)
Definition p_star_expr : M node :=
  do start_pos <- position;
  on_symbol (fail "SyntaxError at {}: Expecting symbol in star expression!" start_pos) (fun symbol =>
    if is PyMul symbol then
      advance;; do right_node <- rec F_expr;
      do e <- position; ret (StarExpr start_pos e symbol right_node)
    else fail "SyntaxError at {}: Expecting '*' in star expression!" start_pos).

(** expressions.rs 496-592 *)
Definition comparison_step (start_pos : nat) (left_node : node) : M (bool * node) :=
  on_symbol (fail "SyntaxError at {}: Expecting symbol in comparison expression!" start_pos) (fun symbol =>
    if is PyLess symbol then
      advance;; do right_node <- rec F_expr;
      do e <- position; ret (true, LessComparison start_pos e left_node symbol right_node)
    else if is PyLessEqual symbol then
      advance;; do right_node <- rec F_expr;
      do e <- position; ret (true, LessEqualComparison start_pos e left_node symbol right_node)
    else if is PyEqual symbol then
      advance;; do right_node <- rec F_expr;
      do e <- position; ret (true, EqualComparison start_pos e left_node symbol right_node)
    else if is PyGreaterEqual symbol then
      advance;; do right_node <- rec F_expr;
      do e <- position; ret (true, GreaterEqualComparison start_pos e left_node symbol right_node)
    else if is PyGreater symbol then
      advance;; do right_node <- rec F_expr;
      do e <- position; ret (true, GreaterComparison start_pos e left_node symbol right_node)
    else if is PyNotEqual symbol then
      advance;; do right_node <- rec F_expr;
      do e <- position; ret (true, NotEqualComparison start_pos e left_node symbol right_node)
    else if is PyIn symbol then
      advance;; do right_node <- rec F_expr;
      do e <- position; ret (true, InComparison start_pos e left_node symbol right_node)
    else if is PyIs symbol then
      advance;;
      on_symbol (fail "SyntaxError at {}: Expecting 'is' pr 'is not' in comparison expression!" start_pos) (fun symbol2 =>
        if is PyNot symbol2 then
          advance;; do right_node <- rec F_expr;
          do e <- position; ret (true, IsNotComparison start_pos e left_node symbol symbol2 right_node)
        else
          do right_node <- rec F_expr;
          do e <- position; ret (true, IsComparison start_pos e left_node symbol right_node))
    else if is PyNot symbol then
      advance;;
      on_symbol (fail "SyntaxError at {}: Expecting 'is' pr 'is not' in comparison expression!" start_pos) (fun symbol2 =>
        if is PyIn symbol2 then
          advance;; do right_node <- rec F_expr;
          do e <- position; ret (true, NotInComparison start_pos e left_node symbol symbol2 right_node)
        else fail "SyntaxError at {}: Expecting 'in' pr 'not in' in comparison expression!" start_pos)
    else ret (false, left_node)).

(** expressions.rs 493-593 *)
Definition p_comparison : M node :=
  do start_pos <- position;
  do left_node <- rec F_expr;
  while_ n (comparison_step start_pos) left_node.

(** expressions.rs 595-611 *)
Definition p_not_test : M node :=
  do start_pos <- position;
  on_symbol (fail "SyntaxError at {}: Expecting symbol in not test expression!" start_pos) (fun symbol =>
    if is PyNot symbol then
      advance;; do right_node <- rec F_not_test;
      do e <- position; ret (NotTest start_pos e symbol right_node)
    else rec F_comparison).

(** expressions.rs 616-630 *)
Definition and_test_step (start_pos : nat) (left_node : node) : M (bool * node) :=
  on_symbol (fail "SyntaxError at {}: Expecting symbol in and test expression!" start_pos) (fun symbol =>
    if is PyAnd symbol then
      advance;; do right_node <- rec F_not_test;
      do e <- position; ret (true, AndTest start_pos e left_node symbol right_node)
    else ret (false, left_node)).

(** expressions.rs 613-632 *)
Definition p_and_test : M node :=
  do start_pos <- position;
  do left_node <- rec F_not_test;
  while_ n (and_test_step start_pos) left_node.

(** expressions.rs 637-651 *)
Definition or_test_step (start_pos : nat) (left_node : node) : M (bool * node) :=
  on_symbol (fail "SyntaxError at {}: Expecting symbol in and test expression!" start_pos) (fun symbol =>
    if is PyOr symbol then
      advance;; do right_node <- rec F_and_test;
      do e <- position; ret (true, OrTest start_pos e left_node symbol right_node)
    else ret (false, left_node)).

(** expressions.rs 634-653 *)
Definition p_or_test : M node :=
  do start_pos <- position;
  do left_node <- rec F_and_test;
  while_ n (or_test_step start_pos) left_node.

(** expressions.rs 655-696; the first symbol is consumed without checking that it is 'lambda'
    (both callers have checked it). *)
Definition p_lambda_def (cond : bool) : M node :=
  do start_pos <- position;
  on_symbol (fail_here "SyntaxError at {}: Expecting symbol in 'lambda' expression!") (fun symbol1 =>
    advance;;
    do first <- on_symbol (fail_here "SyntaxError at {}: Expecting symbol in 'lambda' expression!") (fun s2 =>
      if is PyColon s2 then ret None
      else do r <- rec F_var_args_list; ret (Some r));
    on_symbol (fail_here "SyntaxError at {}: Expecting symbol in 'lambda' expression!") (fun symbol2 =>
      if is PyColon symbol2 then
        advance;;
        if cond then
          do inner <- rec F_test;
          do e <- position; ret (Lambda start_pos e symbol1 first symbol2 inner)
        else
          do inner <- rec F_or_test;
          do e <- position; ret (Lambda start_pos e symbol1 first symbol2 inner)
      else fail_here "SyntaxError at {}: Expecting ':' in 'lambda' expression!")).

(** expressions.rs 698-709 *)
Definition p_no_cond_test : M node :=
  on_symbol (fail_here "SyntaxError at {}: Expecting symbol in non conditional test expression!") (fun symbol =>
    if is PyLambda symbol then rec (F_lambda_def false) else rec F_or_test).

(** expressions.rs 711-751 *)
Definition p_test : M node :=
  do start_pos <- position;
  on_symbol (fail_here "SyntaxError at {}: Expecting symbol in non conditional test expression!") (fun s =>
    if is PyLambda s then rec (F_lambda_def true)
    else
      do first <- rec F_or_test;
      on_symbol (fail_here "SyntaxError at {}: Expecting symbol in test expression!") (fun symbol1 =>
        if is PyIf symbol1 then
          advance;;
          do inner <- rec F_or_test;
          on_symbol (fail_here "SyntaxError at {}: Expecting symbol in test expression!") (fun symbol2 =>
            if is PyElse symbol2 then
              advance;; do next <- rec F_test;
              do e <- position; ret (Test start_pos e first symbol1 inner symbol2 next)
            else fail_here "SyntaxError at {}: Expecting 'else' in test expression!")
        else ret first)).

(** expressions.rs 753-770 *)
Definition p_named_expression : M node :=
  do start_pos <- position;
  do first <- rec F_test;
  on_symbol (fail_here "SyntaxError at {}: Expecting symbol in named expression!") (fun symbol =>
    if is PyColonAssign symbol then
      advance;; do inner <- rec F_test;
      do e <- position; ret (NamedExpr start_pos e first symbol inner)
    else ret first).

(** expressions.rs 776-786, 800-810, 995-1005: element of a list: star expression or named
    expression. *)
Definition star_or_named : M node :=
  on_symbol (fail_here "SyntaxError at {}: Expecting symbol in list expression!") (fun s =>
    if is PyMul s then rec F_star_expr else rec F_named_expression).

(** expressions.rs 794-819 *)
Definition testlist_comp_step (st : list node * list token) : M (bool * (list node * list token)) :=
  let '(nodes_list, separators_list) := st in
  on_symbol (fail_here "SyntaxError at {}: Expecting symbol in list expression!") (fun s3 =>
    if is PyComa s3 then
      advance;; do x <- star_or_named; ret (true, (nodes_list ++ [x], separators_list ++ [s3]))
    else ret (false, st)).

(** expressions.rs 772-829 *)
Definition p_testlist_comp : M node :=
  do start_pos <- position;
  do first <- star_or_named;
  do (nodes_list, separators_list) <-
    on_symbol (fail_here "SyntaxError at {}: Expecting symbol in list expression!") (fun s2 =>
      if is_one_of [PyFor; PyAsync] s2 then
        do x <- rec F_comp_for; ret ([first; x], [])
      else if is PyComa s2 then while_ n testlist_comp_step ([first], [])
      else ret ([first], []));
  do e <- position;
  ret (TestListComp start_pos e (rev nodes_list) (rev separators_list)).

(** expressions.rs 831-901; the call trailer parses a subscript list (842). *)
Definition p_trailer : M node :=
  do start_pos <- position;
  on_symbol (fail_here "Syntax Error at {} - Expecting symbol in trailer expression!") (fun symbol1 =>
    if is PyLeftParen symbol1 then
      advance;;
      do inner <- on_symbol (fail_here "Syntax Error at {} - Expecting symbol in trailer expression!") (fun s2 =>
        if is PyRightParen s2 then ret None
        else do r <- rec F_subscript_list; ret (Some r));
      on_symbol (fail_here "Syntax Error at {} - Expecting symbol in trailer expression!") (fun symbol2 =>
        if is PyRightParen symbol2 then
          advance;; do e <- position; ret (CallTrailer start_pos e symbol1 inner symbol2)
        else fail_here "Syntax Error at {} - Expecting ')' in trailer expression!")
    else if is PyLeftBracket symbol1 then
      advance;;
      do inner <- rec F_subscript_list;
      on_symbol (fail_here "Syntax Error at {} - Expecting symbol in trailer expression!") (fun symbol2 =>
        if is PyRightBracket symbol2 then
          advance;; do e <- position; ret (IndexTrailer start_pos e symbol1 inner symbol2)
        else fail_here "Syntax Error at {} - Expecting ']' in trailer expression!")
    else if is PyDot symbol1 then
      advance;;
      on_symbol (fail_here "Syntax Error at {} - Expecting symbol in trailer expression!") (fun symbol2 =>
        if is T_AtomName symbol2 then
          advance;; do e <- position; ret (DotNameTrailer start_pos e symbol1 symbol2)
        else fail_here "Syntax Error at {} - Expecting a valid name after '.' in trailer expression!")
    else fail_here "Syntax Error at {} - Expecting a valid trailer expression!").

(** expressions.rs 908-923 *)
Definition subscript_list_step (st : list node * list token) : M (bool * (list node * list token)) :=
  let '(nodes_list, separators_list) := st in
  on_symbol (fail_here "Syntax Error at {} - Expecting symbol in subscript list expression!") (fun s =>
    if is PyComa s then
      advance;; do x <- rec F_subscript; ret (true, (nodes_list ++ [x], separators_list ++ [s]))
    else ret (false, st)).

(** expressions.rs 903-927 *)
Definition p_subscript_list : M node :=
  do start_pos <- position;
  do first <- rec F_subscript;
  do (nodes_list, separators_list) <- while_ n subscript_list_step ([first], []);
  do e <- position;
  ret (SubscriptList start_pos e (rev nodes_list) (rev separators_list)).

(** expressions.rs 929-990; the test for the second colon inspects the first one again (963),
    so whatever token follows is taken as the second separator. *)
Definition p_subscript : M node :=
  do start_pos <- position;
  do first_node <- on_symbol (fail_here "Syntax Error at {} - Expecting symbol in subscript expression!") (fun s =>
    if is PyColon s then ret None else do r <- rec F_test; ret (Some r));
  do (symbol1, second_node, symbol2, third_node) <-
    on_symbol (fail_here "Syntax Error at {} - Expecting symbol in subscript expression!") (fun s2 =>
      if is PyColon s2 then
        advance;;
        do second_node <- on_symbol (fail_here "Syntax Error at {} - Expecting symbol in subscript expression!") (fun s3 =>
          if is_one_of [PyRightBracket; PyColon] s3 then ret None
          else do r <- rec F_test; ret (Some r));
        on_symbol (fail_here "Syntax Error at {} - Expecting symbol in subscript expression!") (fun s3 =>
          if is PyColon s2 then
            advance;;
            do third_node <- on_symbol (fail_here "Syntax Error at {} - Expecting symbol in subscript expression!") (fun s4 =>
              if is_one_of [PyRightBracket; PyColon] s4 then ret None
              else do r <- rec F_test; ret (Some r));
            ret (Some s2, second_node, Some s3, third_node)
          else ret (Some s2, second_node, None, None))
      else ret (None, None, None, None));
  do e <- position;
  ret (Subscript start_pos e first_node symbol1 second_node symbol2 third_node).

(** expressions.rs 1006-1038 *)
Definition exprlist_step (st : list node * list token) : M (bool * (list node * list token)) :=
  let '(nodes_list, separators_list) := st in
  on_symbol (fail_here "Syntax Error at {} - Expecting symbol in subscript list expression!") (fun symbol1 =>
    if is PyComa symbol1 then
      advance;;
      on_symbol (fail_here "SyntaxError at {}: Expecting symbol in list expression!") (fun s2 =>
        if is PyIn s2 then ret (true, (nodes_list, separators_list ++ [symbol1]))
        else if is PyComa s2 then
          fail_here "SyntaxError at {}: Missing elements between two ',' in list expression!"
        else if is PyMul s2 then
          do x <- rec F_star_expr; ret (true, (nodes_list ++ [x], separators_list ++ [symbol1]))
        else
          do x <- rec F_named_expression;
          ret (true, (nodes_list ++ [x], separators_list ++ [symbol1])))
    else ret (false, st)).

(** expressions.rs 992-1045 *)
Definition p_exprlist : M node :=
  do start_pos <- position;
  do first <- star_or_named;
  do (nodes_list, separators_list) <- while_ n exprlist_step ([first], []);
  match nodes_list, separators_list with
  | [x], [] => ret x
  | _, _ => do e <- position; ret (ExprList start_pos e nodes_list separators_list)
  end.

(** expressions.rs 1052-1081 *)
Definition testlist_step (st : list node * list token) : M (bool * (list node * list token)) :=
  let '(nodes_list, separators_list) := st in
  on_symbol (fail_here "Syntax Error at {} - Expecting symbol in subscript list expression!") (fun symbol1 =>
    if is PyComa symbol1 then
      advance;;
      on_symbol (fail_here "SyntaxError at {}: Expecting symbol in list expression!") (fun s2 =>
        if is_one_of [T_Newline; PySemiColon; T_EOF] s2 then
          ret (true, (nodes_list, separators_list ++ [symbol1]))
        else if is PyComa s2 then
          fail_here "SyntaxError at {}: Missing elements between two ',' in list expression!"
        else
          do x <- rec F_test; ret (true, (nodes_list ++ [x], separators_list ++ [symbol1])))
    else ret (false, st)).

(** expressions.rs 1047-1088 *)
Definition p_testlist : M node :=
  do start_pos <- position;
  do first <- rec F_test;
  do (nodes_list, separators_list) <- while_ n testlist_step ([first], []);
  match nodes_list, separators_list with
  | [x], [] => ret x
  | _, _ => do e <- position; ret (TestList start_pos e nodes_list separators_list)
  end.

(** expressions.rs 1095-1134: first element; also tells whether this is a dictionary. *)
Definition dictorset_first (start_pos : nat) : M (bool * node) :=
  on_symbol (fail_here "Syntax Error at {} - Expecting symbol in dictionary/set expression!") (fun symbol1 =>
    if is PyMul symbol1 then
      advance;; do right_node <- rec F_expr;
      do e <- position; ret (false, MulSet start_pos e symbol1 right_node)
    else if is PyPower symbol1 then
      advance;; do right_node <- rec F_expr;
      do e <- position; ret (true, PowerDictionary start_pos e symbol1 right_node)
    else
      do left_node <- rec F_test;
      on_symbol (fail_here "Syntax Error at {} - Expecting symbol in dictionary/set expression!") (fun symbol2 =>
        if is PyColon symbol2 then
          advance;; do right_node <- rec F_test;
          do e <- position; ret (true, DictionaryEntry start_pos e left_node symbol2 right_node)
        else ret (false, left_node))).

(** expressions.rs 1137-1184: the body of the dictionary loop always ends with [false]. *)
Definition dictionary_step (start_pos : nat) (st : list node * list token)
  : M (bool * (list node * list token)) :=
  let '(nodes_list, separators_list) := st in
  on_symbol (fail_here "Syntax Error at {} - Expecting symbol in argument list expression!") (fun symbol1 =>
    if is PyComa symbol1 then
      advance;;
      on_symbol (fail_here "SyntaxError at {}: Expecting symbol in argument list expression!") (fun symbol2 =>
        if is PyRightCurly symbol2 then ret (false, (nodes_list, separators_list ++ [symbol1]))
        else if is PyComa symbol2 then
          fail_here "SyntaxError at {}: Missing elements between two ',' in set list expression!"
        else if is PyPower symbol2 then
          advance;; do right_node <- rec F_expr; do e <- position;
          ret (false, (nodes_list ++ [PowerDictionary start_pos e symbol2 right_node],
                       separators_list ++ [symbol1]))
        else
          do left_node <- rec F_test;
          on_symbol (fail_here "Syntax Error at {} - Expecting symbol in argument list expression!") (fun symbol3 =>
            if is PyColon symbol3 then
              advance;; do right_node <- rec F_test; do e <- position;
              ret (false, (nodes_list ++ [DictionaryEntry start_pos e left_node symbol3 right_node],
                           separators_list ++ [symbol1]))
            else fail_here "SyntaxError at {}: Expecting ':' in dictionary entry expression!"))
    else ret (false, st)).

(** expressions.rs 1187-1222 *)
Definition set_step (start_pos : nat) (st : list node * list token)
  : M (bool * (list node * list token)) :=
  let '(nodes_list, separators_list) := st in
  on_symbol (fail_here "Syntax Error at {} - Expecting symbol in argument list expression!") (fun symbol1 =>
    if is PyComa symbol1 then
      advance;;
      on_symbol (fail_here "SyntaxError at {}: Expecting symbol in argument list expression!") (fun symbol2 =>
        if is PyRightCurly symbol2 then ret (true, (nodes_list, separators_list ++ [symbol1]))
        else if is PyComa symbol2 then
          fail_here "SyntaxError at {}: Missing elements between two ',' in set list expression!"
        else if is PyMul symbol2 then
          advance;; do right_node <- rec F_expr; do e <- position;
          ret (true, (nodes_list ++ [MulSet start_pos e symbol2 right_node],
                      separators_list ++ [symbol1]))
        else
          do x <- rec F_test; ret (true, (nodes_list ++ [x], separators_list ++ [symbol1])))
    else ret (false, st)).

(** expressions.rs 1090-1235 *)
Definition p_dictorset_maker : M node :=
  do start_pos <- position;
  do (is_dictionary, first) <- dictorset_first start_pos;
  if is_dictionary : bool then
    do (nodes_list, separators_list) <- while_ n (dictionary_step start_pos) ([first], []);
    do e <- position;
    ret (DictionaryContainer start_pos e (rev nodes_list) (rev separators_list))
  else
    do (nodes_list, separators_list) <- while_ n (set_step start_pos) ([first], []);
    do e <- position;
    ret (SetContainer start_pos e (rev nodes_list) (rev separators_list)).

(** expressions.rs 1242-1269 *)
Definition arglist_step (st : list node * list token) : M (bool * (list node * list token)) :=
  let '(nodes_list, separators_list) := st in
  on_symbol (fail_here "Syntax Error at {} - Expecting symbol in argument list expression!") (fun symbol1 =>
    if is PyComa symbol1 then
      advance;;
      on_symbol (fail_here "SyntaxError at {}: Expecting symbol in argument list expression!") (fun s2 =>
        if is PyRightParen s2 then ret (true, (nodes_list, separators_list ++ [symbol1]))
        else if is PyComa s2 then
          fail_here "SyntaxError at {}: Missing elements between two ',' in argument list expression!"
        else
          do x <- rec F_argument; ret (true, (nodes_list ++ [x], separators_list ++ [symbol1])))
    else ret (false, st)).

(** expressions.rs 1237-1273 *)
Definition p_arglist : M node :=
  do start_pos <- position;
  do first <- rec F_argument;
  do (nodes_list, separators_list) <- while_ n arglist_step ([first], []);
  do e <- position;
  ret (ArgList start_pos e (rev nodes_list) (rev separators_list)).

(** expressions.rs 1275-1316 *)
Definition p_argument : M node :=
  do start_pos <- position;
  on_symbol (fail_here "Syntax Error at {} - Expecting symbol in argument expression!") (fun s =>
    if is_one_of [PyMul; PyPower] s then
      advance;; do right_node <- rec F_test;
      do e <- position; ret (Argument start_pos e None (Some s) (Some right_node))
    else
      do left_node <- rec F_test;
      on_symbol (fail_here "Syntax Error at {} - Expecting symbol in argument expression!") (fun s2 =>
        if is_one_of [PyFor; PyAsync] s2 then
          do right_node <- rec F_comp_for;
          do e <- position; ret (Argument start_pos e (Some left_node) None (Some right_node))
        else if is_one_of [PyColonAssign; PyAssign] s2 then
          advance;; do right_node <- rec F_test;
          do e <- position; ret (Argument start_pos e (Some left_node) (Some s2) (Some right_node))
        else
          do e <- position; ret (Argument start_pos e (Some left_node) None None))).

(** expressions.rs 1318-1334 *)
Definition p_comp_iter : M node :=
  on_symbol (fail_here "Syntax Error at {} - Expecting symbol in compiter expression!") (fun s =>
    if is_one_of [PyFor; PyAsync] s then rec F_comp_for
    else if is PyIf s then rec F_comp_if
    else fail_here "Syntax Error at {} - Expecting 'if', 'for' or 'async' in compiter expression!").

(** expressions.rs 1336-1380 *)
Definition p_sync_comp_for : M node :=
  do start_pos <- position;
  on_symbol (fail_here "Syntax Error at {} - Expecting symbol in comprehension 'for' expression!") (fun symbol1 =>
    if is PyFor symbol1 then
      advance;;
      do left_node <- rec F_exprlist;
      on_symbol (fail_here "Syntax Error at {} - Expecting 'for' in comprehension 'for' expression!") (fun symbol2 =>
        if is PyIn symbol2 then
          advance;;
          do right_node <- rec F_or_test;
          on_symbol (fail_here "Syntax Error at {} - Expecting symbol in comprehension 'for' expression!") (fun s3 =>
            if is_one_of [PyAsync; PyFor; PyIf] s3 then
              do next_node <- rec F_comp_iter; do e <- position;
              ret (SyncCompForComprehension start_pos e symbol1 left_node symbol2 right_node (Some next_node))
            else
              do e <- position;
              ret (SyncCompForComprehension start_pos e symbol1 left_node symbol2 right_node None))
        else fail_here "Syntax Error at {} - Expecting 'in' in comprehension 'for' expression!")
    else fail_here "Syntax Error at {} - Expecting 'for' in comprehension 'for' expression!").

(** expressions.rs 1382-1400 *)
Definition p_comp_for : M node :=
  do start_pos <- position;
  on_symbol (fail_here "Syntax Error at {} - Expecting symbol in comprehension 'async' expression!") (fun symbol1 =>
    if is PyAsync symbol1 then
      advance;; do right_node <- rec F_sync_comp_for;
      do e <- position; ret (CompForComprehension start_pos e symbol1 right_node)
    else rec F_sync_comp_for).

(** expressions.rs 1402-1433 *)
Definition p_comp_if : M node :=
  do start_pos <- position;
  on_symbol (fail_here "Syntax Error at {} - Expecting symbol in comprehension 'if' expression!") (fun symbol1 =>
    if is PyIf symbol1 then
      advance;;
      do right_node <- rec F_no_cond_test;
      on_symbol (fail_here "Syntax Error at {} - Expecting symbol in comprehension 'if' expression!") (fun s2 =>
        if is_one_of [PyAsync; PyFor; PyIf] s2 then
          do next_node <- rec F_comp_iter; do e <- position;
          ret (CompIfComprehension start_pos e symbol1 right_node (Some next_node))
        else
          do e <- position; ret (CompIfComprehension start_pos e symbol1 right_node None))
    else fail_here "Syntax Error at {} - Expecting 'if' in comprehension 'if' expression!").

(** expressions.rs 1435-1466 *)
Definition p_yield_expr : M node :=
  do start_pos <- position;
  on_symbol (fail_here "Syntax Error at {} - Expecting symbol in comprehension 'yield' expression!") (fun symbol1 =>
    if is PyYield symbol1 then
      advance;;
      on_symbol (fail_here "Syntax Error at {} - Expecting symbol in comprehension 'yield' expression!") (fun symbol2 =>
        if is PyFrom symbol2 then
          advance;; do right_node <- rec F_test;
          do e <- position; ret (YieldFromExpr start_pos e symbol1 symbol2 right_node)
        else
          do right_node <- rec F_testlist_star_expr;
          do e <- position; ret (YieldExpr start_pos e symbol1 right_node))
    else fail_here "Syntax Error at {} - Expecting symbol in comprehension 'yield' expression!").

(** expressions.rs 1483-1531 *)
Definition testlist_star_expr_step (st : list node * list token)
  : M (bool * (list node * list token)) :=
  let '(nodes_list, separators_list) := st in
  on_symbol (fail_here "Syntax Error at {} - Expecting symbol in subscript list expression!") (fun symbol1 =>
    if is PyComa symbol1 then
      advance;;
      on_symbol (fail_here "SyntaxError at {}: Expecting symbol in list expression!") (fun s2 =>
        if is_one_of testlist_star_stop s2 then
          ret (true, (nodes_list, separators_list ++ [symbol1]))
        else if is PyComa s2 then
          fail_here "SyntaxError at {}: Missing elements between two ',' in list expression!"
        else if is PyMul s2 then
          do x <- rec F_star_expr; ret (true, (nodes_list ++ [x], separators_list ++ [symbol1]))
        else
          do x <- rec F_test; ret (true, (nodes_list ++ [x], separators_list ++ [symbol1])))
    else ret (false, st)).

(** expressions.rs 1468-1540 *)
Definition p_testlist_star_expr : M node :=
  do start_pos <- position;
  do first <- on_symbol (fail_here "SyntaxError at {}: Expecting symbol in list expression!") (fun s =>
    if is PyMul s then rec F_star_expr else rec F_test);
  do (nodes_list, separators_list) <- while_ n testlist_star_expr_step ([first], []);
  match rev nodes_list, rev separators_list with
  | [x], [] => ret x
  | ns, ss => do e <- position; ret (TestListStarExpr start_pos e ns ss)
  end.

Definition va_err {A} : M A :=
  fail_here "Syntax Error at {} - Expecting symbol in variable arguments list expression!".

(** '**' name and optional trailing comma, starting at '**': expressions.rs 1569-1584, 1602-1617,
    1681-1696, 1715-1730, 1755-1770, 1789-1804 (six copies of the same code). *)
Definition va_power_part (v : var_args) (symbol : token) : M var_args :=
  advance;;
  do x <- rec F_var_args_assignments;
  let v1 := va_set_power v symbol x in
  on_symbol va_err (fun s4 =>
    if is PyComa s4 then advance;; ret (va_push_sep v1 s4) else ret v1).

(** the loop after '*' name: expressions.rs 1559-1600, 1671-1712, 1745-1786 (three copies of the
    same code). *)
Definition va_mul_step (v : var_args) : M (bool * var_args) :=
  on_symbol va_err (fun s2 =>
    if is PyComa s2 then
      let v1 := va_push_sep v s2 in
      advance;;
      on_symbol va_err (fun s3 =>
        if is PyPower s3 then do v2 <- va_power_part v1 s3; ret (false, v2)
        else do x <- rec F_var_args_assignments; ret (true, va_push_node v1 x))
    else ret (false, v)).

(** '*' name and what follows it, starting at '*': expressions.rs 1555-1600,
    1667-1712, 1741-1786. *)
Definition va_mul_part (v : var_args) (symbol : token) : M var_args :=
  advance;;
  do x <- rec F_var_args_assignments;
  while_ n va_mul_step (va_set_mul v symbol x).

(** the loop after '/': expressions.rs 1634-1661. *)
Definition va_div_step (v : var_args) : M (bool * var_args) :=
  on_symbol va_err (fun s11 =>
    if is PyComa s11 then
      let v1 := va_push_sep v s11 in
      advance;;
      on_symbol va_err (fun s12 =>
        if is_one_of [PyMul; PyPower] s12 then ret (false, va_set_coma v1)
        else do x <- rec F_var_args_assignments; ret (true, va_push_node v1 x))
    else ret (false, v)).

(** the main loop: expressions.rs 1621-1821. *)
Definition va_main_step (v : var_args) : M (bool * var_args) :=
  on_symbol va_err (fun s5 =>
    if is PyComa s5 then
      let v1 := va_push_sep v s5 in
      advance;;
      on_symbol va_err (fun s6 =>
        if is PyDiv s6 then
          advance;;
          do v2 <- while_ n va_div_step (va_set_div v1 s6);
          on_symbol va_err (fun s20 =>
            if va_coma v2 && is PyMul s20 then do v3 <- va_mul_part v2 s20; ret (false, v3)
            else if va_coma v2 && is PyPower s20 then do v3 <- va_power_part v2 s20; ret (false, v3)
            else ret (false, v2))
        else if is PyMul s6 then do v2 <- va_mul_part v1 s6; ret (false, v2)
        else if is PyPower s6 then do v2 <- va_power_part v1 s6; ret (false, v2)
        else do x <- rec F_var_args_assignments; ret (true, va_push_node v1 x))
    else ret (false, v)).

(** expressions.rs 1542-1829 *)
Definition p_var_args_list : M node :=
  do start_pos <- position;
  let v := mk_va [] [] None None None None None false in
  do v' <- on_symbol va_err (fun s =>
    if is PyMul s then va_mul_part v s
    else if is PyPower s then va_power_part v s
    else
      do x <- rec F_var_args_assignments;
      while_ n va_main_step (va_push_node v x));
  do e <- position;
  ret (VarArgsList start_pos e (rev (va_nodes v')) (rev (va_seps v'))
         (va_mul v') (va_mul_node v') (va_power v') (va_power_node v') (va_div v')).

(** expressions.rs 1831-1850 *)
Definition p_var_args_assignments : M node :=
  do start_pos <- position;
  do left_node <- rec F_vfp_def;
  on_symbol (fail_here "Syntax Error at {} - Expecting symbol in varargs assignment expression!") (fun symbol1 =>
    if is PyAssign symbol1 then
      advance;; do right_node <- rec F_test;
      do e <- position; ret (VFPAssign start_pos e left_node symbol1 right_node)
    else ret left_node).

(** expressions.rs 1852-1867 *)
Definition p_vfp_def : M node :=
  do start_pos <- position;
  on_symbol (fail_here "Syntax Error at {} - Expecting symbol in vfpdef expression!") (fun symbol1 =>
    if is T_AtomName symbol1 then
      advance;; do e <- position; ret (VFPDef start_pos e symbol1)
    else fail_here "Syntax Error at {} - Expecting name literal in vfpdef expression!").

End MeterExpr.
