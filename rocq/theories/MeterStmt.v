(** The functions of Statements.v over the monad of Meter.v, unchanged (C67). *)
From Verif Require Import Chars SourceBuffer Token Tokenizer Node ParserState Statements Meter.

Section MeterStmt.
Variable U : unicode.
Variable n : nat.
Variable rec : fn -> M node.

Local Notation advance := (advance U).
Local Notation expect := (expect U).

(** statements.rs 51-84 *)
Definition p_stmt : M node :=
  do start_pos <- position;
  on_symbol (fail "SyntaxError at {}: Expecting symbol in statement" start_pos) (fun s =>
    if is_one_of compound_start s then rec F_compound_stmt
    else if is T_AtomName s then
      if str_eqb (text_of s) $"match" then rec F_match else rec F_simple_stmt
    else rec F_simple_stmt).

(** statements.rs 91-118 *)
Definition simple_stmt_step (start_pos : nat) (st : list node * list token)
  : M (bool * (list node * list token)) :=
  let '(nodes_list, separators_list) := st in
  on_symbol (fail "SyntaxError at {}: Expecting symbol in statement list!" start_pos) (fun s =>
    if is PySemiColon s then
      advance;;
      on_symbol (fail "SyntaxError at {}: Expecting symbol in statement list!" start_pos) (fun s2 =>
        if is_one_of [T_Newline; T_EOF] s2 then ret (false, (nodes_list, separators_list ++ [s]))
        else
          do x <- rec F_small_stmt; ret (true, (nodes_list ++ [x], separators_list ++ [s])))
    else ret (false, st)).

(** statements.rs 86-135 *)
Definition p_simple_stmt : M node :=
  do start_pos <- position;
  do first <- rec F_small_stmt;
  do (nodes_list, separators_list) <- while_ n (simple_stmt_step start_pos) ([first], []);
  do s3 <- expect T_Newline start_pos
    "SyntaxError at {}: Expecting symbol in statement list!"
    "SyntaxError at {}: Expecting Newline at end of statement list!";
  do e <- position;
  ret (SimpleStmtList start_pos e (rev nodes_list) (rev separators_list) s3).

(** statements.rs 137-175 *)
Definition p_small_stmt : M node :=
  do start_pos <- position;
  on_symbol (fail "SyntaxError at {}: Expecting symbol in simple statement!" start_pos) (fun s =>
    if is PyDel s then rec F_del_stmt
    else if is PyPass s then rec F_pass_stmt
    else if is_one_of [PyBreak; PyContinue; PyReturn; PyRaise; PyYield] s then rec F_flow_stmt
    else if is_one_of [PyImport; PyFrom] s then rec F_import_stmt
    else if is PyGlobal s then rec F_global_stmt
    else if is PyNonLocal s then rec F_nonlocal_stmt
    else if is PyAssert s then rec F_assert_stmt
    else rec F_expr_stmt).

(** right-hand side of an assignment, statements.rs 195-205 and 14 more places. *)
Definition yield_or_testlist (start_pos : nat) : M node :=
  on_symbol (fail "SyntaxError at {}: Expecting symbol in expression statement!" start_pos) (fun s =>
    if is PyYield s then rec F_yield_expr else rec F_testlist).

(** statements.rs 187-216 *)
Definition assign_step (start_pos : nat) (nodes_list : list (token * node))
  : M (bool * list (token * node)) :=
  on_symbol (fail "SyntaxError at {}: Expecting symbol in expression statement!" start_pos) (fun s2 =>
    if is PyAssign s2 then
      advance;; do right_node <- yield_or_testlist start_pos;
      ret (true, nodes_list ++ [(s2, right_node)])
    else ret (false, nodes_list)).

(** statements.rs 233-250 and its 12 copies: augmented assignment with constructor [c]. *)
Definition aug_assign (start_pos : nat) (c : nat -> nat -> node -> token -> node -> node)
  (left_node : node) (symbol : token) : M node :=
  advance;; do right_node <- yield_or_testlist start_pos;
  do e <- position; ret (c start_pos e left_node symbol right_node).

(** statements.rs 177-487 *)
Definition p_expr_stmt : M node :=
  do start_pos <- position;
  do left_node <- rec F_testlist_star_expr;
  on_symbol (fail "SyntaxError at {}: Expecting symbol in expression statement!" start_pos) (fun s =>
    if is PyColon s then rec (F_ann_assign start_pos left_node)
    else if is PyAssign s then
      do nodes_list <- while_ n (assign_step start_pos) [];
      on_symbol (fail "SyntaxError at {}: Expecting symbol in expression statement!" start_pos) (fun s2 =>
        if is T_TypeComment s2 then
          advance;; do e <- position;
          ret (AssignmentStmt start_pos e left_node nodes_list (Some s2))
        else
          do e <- position; ret (AssignmentStmt start_pos e left_node nodes_list None))
    else if is PyPlusAssign s then aug_assign start_pos PlusAssignStmt left_node s
    else if is PyMinusAssign s then aug_assign start_pos MinusAssignStmt left_node s
    else if is PyMulAssign s then aug_assign start_pos MulAssignStmt left_node s
    else if is PyPowerAssign s then aug_assign start_pos PowerAssignStmt left_node s
    else if is PyDivAssign s then aug_assign start_pos DivAssignStmt left_node s
    else if is PyFloorDivAssign s then aug_assign start_pos FloorDivAssignStmt left_node s
    else if is PyModuloAssign s then aug_assign start_pos ModuloAssignStmt left_node s
    else if is PyMatriceAssign s then aug_assign start_pos MatriceAssignStmt left_node s
    else if is PyBitAndAssign s then aug_assign start_pos BitAndAssignStmt left_node s
    else if is PyBitOrAssign s then aug_assign start_pos BitOrAssignStmt left_node s
    else if is PyBitXorAssign s then aug_assign start_pos BitXorAssignStmt left_node s
    else if is PyShiftLeftAssign s then aug_assign start_pos ShiftLeftAssignStmt left_node s
    else if is PyShiftRightAssign s then aug_assign start_pos ShiftRightAssignStmt left_node s
    else ret left_node).

(** statements.rs 489-532 *)
Definition p_ann_assign (start_pos : nat) (left_node : node) : M node :=
  do symbol <- expect PyColon start_pos
    "SyntaxError at {}: Expecting symbol in annotation assignment statement!"
    "SyntaxError at {}: Expecting ':' in annotation assignment statement!";
  do right_node <- rec F_test;
  on_symbol (fail "SyntaxError at {}: Expecting symbol in annotation assignment statement!" start_pos) (fun s2 =>
    if is PyAssign s2 then
      advance;; do next_node <- yield_or_testlist start_pos;
      do e <- position;
      ret (AnnAssignStmt start_pos e left_node symbol right_node (Some (s2, next_node)))
    else
      do e <- position; ret (AnnAssignStmt start_pos e left_node symbol right_node None)).

(** statements.rs 534-550 *)
Definition p_del_stmt : M node :=
  do start_pos <- position;
  do symbol <- expect PyDel start_pos
    "SyntaxError at {}: Expecting symbol in 'del' statement!"
    "SyntaxError at {}: Expecting 'del' in del statement!";
  do right_node <- rec F_exprlist;
  do e <- position; ret (DelStmt start_pos e symbol right_node).

(** statements.rs 552-567 *)
Definition p_pass_stmt : M node :=
  do start_pos <- position;
  do symbol <- expect PyPass start_pos
    "SyntaxError at {}: Expecting symbol in 'pass' statement!"
    "SyntaxError at {}: Expecting 'pass' in pass statement!";
  do e <- position; ret (PassStmt start_pos e symbol).

(** statements.rs 569-594 *)
Definition p_flow_stmt : M node :=
  do start_pos <- position;
  on_symbol (fail "SyntaxError at {}: Expecting symbol in flow statement!" start_pos) (fun s =>
    if is PyBreak s then rec F_break_stmt
    else if is PyContinue s then rec F_continue_stmt
    else if is PyReturn s then rec F_return_stmt
    else if is PyRaise s then rec F_raise_stmt
    else if is PyYield s then rec F_yield_stmt
    else fail "SyntaxError at {}: Expecting flow statement!" start_pos).

(** statements.rs 596-611 *)
Definition p_break_stmt : M node :=
  do start_pos <- position;
  do symbol <- expect PyBreak start_pos
    "SyntaxError at {}: Expecting symbol in 'break' statement!"
    "SyntaxError at {}: Expecting 'break' in break statement!";
  do e <- position; ret (BreakStmt start_pos e symbol).

(** statements.rs 613-628 *)
Definition p_continue_stmt : M node :=
  do start_pos <- position;
  do symbol <- expect PyContinue start_pos
    "SyntaxError at {}: Expecting symbol in 'continue' statement!"
    "SyntaxError at {}: Expecting 'continue' in pass statement!";
  do e <- position; ret (ContinueStmt start_pos e symbol).

(** statements.rs 630-660 *)
Definition p_return_stmt : M node :=
  do start_pos <- position;
  do symbol <- expect PyReturn start_pos
    "SyntaxError at {}: Expecting symbol in 'return' statement!"
    "SyntaxError at {}: Expecting 'return' in 'return' statement!";
  on_symbol (fail "SyntaxError at {}: Expecting symbol in 'return' statement!" start_pos) (fun s2 =>
    if is_one_of [PySemiColon; T_Newline; T_EOF] s2 then
      do e <- position; ret (ReturnStmt start_pos e symbol None)
    else
      do right_node <- rec F_testlist_star_expr;
      do e <- position; ret (ReturnStmt start_pos e symbol (Some right_node))).

(** statements.rs 662-664 *)
Definition p_yield_stmt : M node := rec F_yield_expr.

(** statements.rs 666-711 *)
Definition p_raise_stmt : M node :=
  do start_pos <- position;
  do symbol1 <- expect PyRaise start_pos
    "SyntaxError at {}: Expecting Symbol in 'raise' statement!"
    "SyntaxError at {}: Expecting 'raise' in 'raise' statement!";
  on_symbol (fail "SyntaxError at {}: Expecting Symbol in 'raise' statement!" start_pos) (fun s2 =>
    if is_one_of [PySemiColon; T_Newline; T_EOF] s2 then
      do e <- position; ret (RaiseStmt start_pos e symbol1 None)
    else
      do left_node <- rec F_test;
      on_symbol (fail "SyntaxError at {}: Expecting Symbol in 'raise' statement!" start_pos) (fun symbol2 =>
        if is PyFrom symbol2 then
          advance;; do right_node <- rec F_test; do e <- position;
          ret (RaiseStmt start_pos e symbol1 (Some (left_node, Some (symbol2, right_node))))
        else
          do e <- position; ret (RaiseStmt start_pos e symbol1 (Some (left_node, None))))).

(** statements.rs 713-729; on 'import' the function calls itself (719). *)
Definition p_import_stmt : M node :=
  do start_pos <- position;
  on_symbol (fail "SyntaxError at {}: Expecting symbol in 'import' or 'from' statement!" start_pos) (fun s =>
    if is PyImport s then rec F_import_stmt
    else if is PyFrom s then rec F_import_from
    else fail "SyntaxError at {}: Expecting 'import' or 'from' in statement!" start_pos).

(** statements.rs 731-747 (never called) *)
Definition p_import_name : M node :=
  do start_pos <- position;
  do symbol <- expect PyImport start_pos
    "SyntaxError at {}: Expecting symbol in 'import' statement!"
    "SyntaxError at {}: Expecting 'import' in import statement!";
  do right_node <- rec F_dotted_as_names;
  do e <- position; ret (ImportNameStmt start_pos e symbol right_node).

(** statements.rs 758-774 *)
Definition import_dots_step (nodes_list : list token) : M (bool * list token) :=
  on_symbol (ret (false, nodes_list)) (fun s2 =>
    if is_one_of [PyDot; PyElipsis] s2 then advance;; ret (true, nodes_list ++ [s2])
    else ret (false, nodes_list)).

(** statements.rs 749-845 *)
Definition p_import_from : M node :=
  do start_pos <- position;
  do symbol1 <- expect PyFrom start_pos
    "SyntaxError at {}: Expecting symbol in 'from' statement!"
    "SyntaxError at {}: Expecting 'from' in import statement!";
  do dots <- while_ n import_dots_step [];
  let nodes_list := rev dots in
  do left_node <- on_symbol (fail "SyntaxError at {}: Expecting symbol in 'from' statement!" start_pos) (fun s3 =>
    if is PyImport s3 then
      match nodes_list with
      | [] => fail "SyntaxError at {}: Expecting '.' in from part of import statement!" start_pos
      | _ => ret None
      end
    else do r <- rec F_dotted_name; ret (Some r));
  do symbol2 <- expect PyImport start_pos
    "SyntaxError at {}: Expecting 'import' in from import statement!"
    "SyntaxError at {}: Expecting symbol in 'from' statement!";
  on_symbol (fail "SyntaxError at {}: Expecting symbol in 'from' statement!" start_pos) (fun symbol3 =>
    if is PyMul symbol3 then
      advance;; do e <- position;
      ret (ImportFromStmt start_pos e symbol1 nodes_list left_node symbol2 (Some symbol3) None None)
    else if is PyLeftParen symbol3 then
      advance;; do right_node <- rec F_import_as_names;
      do symbol4 <- expect PyRightParen start_pos
        "SyntaxError at {}: Expecting symbol in 'from' statement!"
        "SyntaxError at {}: Expecting ')' in from import statement!";
      do e <- position;
      ret (ImportFromStmt start_pos e symbol1 nodes_list left_node symbol2 (Some symbol3)
             (Some right_node) (Some symbol4))
    else
      do right_node <- rec F_import_as_names; do e <- position;
      ret (ImportFromStmt start_pos e symbol1 nodes_list left_node symbol2 None (Some right_node) None)).

(** statements.rs 847-888 *)
Definition p_import_as_name : M node :=
  do start_pos <- position;
  do symbol1 <- expect T_AtomName start_pos
    "SyntaxError at {}: Expecting symbol in import as name statement!"
    "SyntaxError at {}: Expecting name literal in import as name statement!";
  on_symbol (fail "SyntaxError at {}: Expecting symbol in import as name statement!" start_pos) (fun symbol2 =>
    if is PyAs symbol2 then
      advance;;
      do symbol3 <- expect T_AtomName start_pos
        "SyntaxError at {}: Expecting symbol in import as name statement!"
        "SyntaxError at {}: Expecting name literal in import as name statement!";
      do e <- position; ret (ImportAsName start_pos e symbol1 (Some (symbol2, symbol3)))
    else
      do e <- position; ret (ImportAsName start_pos e symbol1 None)).

(** statements.rs 890-930 *)
Definition p_dotted_as_name : M node :=
  do start_pos <- position;
  on_symbol (fail "SyntaxError at {}: Expecting symbol in dotted as name statement!" start_pos) (fun s =>
    if is T_AtomName s then
      do left_node <- rec F_dotted_name;
      on_symbol (fail "SyntaxError at {}: Expecting symbol in dotted as name statement!" start_pos) (fun symbol2 =>
        if is PyAs symbol2 then
          advance;;
          do symbol3 <- expect T_AtomName start_pos
            "SyntaxError at {}: Expecting symbol in dotted as name statement!"
            "SyntaxError at {}: Expecting name literal in dotted as name statement!";
          do e <- position; ret (DottedAsNameStmt start_pos e left_node (Some (symbol2, symbol3)))
        else
          do e <- position; ret (DottedAsNameStmt start_pos e left_node None))
    else fail "SyntaxError at {}: Expecting name literal in dotted as name statement!" start_pos).

(** statements.rs 937-951 *)
Definition import_as_names_step (start_pos : nat) (st : list node * list token)
  : M (bool * (list node * list token)) :=
  let '(nodes_list, separators_list) := st in
  on_symbol (fail "SyntaxError at {}: Expecting symbol in import as names statement!" start_pos) (fun s =>
    if is PyComa s then
      advance;; do x <- rec F_import_as_name;
      ret (true, (nodes_list ++ [x], separators_list ++ [s]))
    else ret (false, st)).

(** statements.rs 932-955 *)
Definition p_import_as_names : M node :=
  do start_pos <- position;
  do first <- rec F_import_as_name;
  do (nodes_list, separators_list) <- while_ n (import_as_names_step start_pos) ([first], []);
  do e <- position;
  ret (ImportAsNamesStmt start_pos e (rev nodes_list) (rev separators_list)).

(** statements.rs 962-976 *)
Definition dotted_as_names_step (start_pos : nat) (st : list node * list token)
  : M (bool * (list node * list token)) :=
  let '(nodes_list, separators_list) := st in
  on_symbol (fail "SyntaxError at {}: Expecting symbol in dotted as name statement!" start_pos) (fun s =>
    if is PyComa s then
      advance;; do x <- rec F_dotted_as_name;
      ret (true, (nodes_list ++ [x], separators_list ++ [s]))
    else ret (false, st)).

(** statements.rs 957-980 *)
Definition p_dotted_as_names : M node :=
  do start_pos <- position;
  do first <- rec F_dotted_as_name;
  do (nodes_list, separators_list) <- while_ n (dotted_as_names_step start_pos) ([first], []);
  do e <- position;
  ret (DottedAsNamesStmt start_pos e (rev nodes_list) (rev separators_list)).

(** statements.rs 993-1017 *)
Definition dotted_name_step (start_pos : nat) (st : list token * list token)
  : M (bool * (list token * list token)) :=
  let '(nodes_list, separators_list) := st in
  on_symbol (fail "SyntaxError at {}: Expecting symbol in dotted name statement!" start_pos) (fun s2 =>
    if is PyDot s2 then
      advance;;
      do s3 <- expect T_AtomName start_pos
        "SyntaxError at {}: Expecting symbol in dotted name statement!"
        "SyntaxError at {}: Expecting literal name in import statement!";
      ret (true, (nodes_list ++ [s3], separators_list ++ [s2]))
    else ret (false, st)).

(** statements.rs 982-1027 *)
Definition p_dotted_name : M node :=
  do start_pos <- position;
  do s <- expect T_AtomName start_pos
    "SyntaxError at {}: Expecting symbol in dotted name statement!"
    "SyntaxError at {}: Expecting literal name in import statement!";
  do (nodes_list, separators_list) <- while_ n (dotted_name_step start_pos) ([s], []);
  do e <- position;
  ret (DottedNameStmt start_pos e (rev nodes_list) (rev separators_list)).

(** statements.rs 1050-1075 *)
Definition global_step (start_pos : nat) (st : list token * list token)
  : M (bool * (list token * list token)) :=
  let '(nodes_list, separators_list) := st in
  on_symbol (fail "SyntaxError at {}: Expecting symbol in 'global' statement!" start_pos) (fun s3 =>
    if is PyComa s3 then
      advance;;
      do s4 <- expect T_AtomName start_pos
        "SyntaxError at {}: Expecting 'global' in global statement!"
        "SyntaxError at {}: Expecting name literal in global statement!";
      ret (true, (nodes_list ++ [s4], separators_list ++ [s3]))
    else ret (false, st)).

(** statements.rs 1029-1086 *)
Definition p_global_stmt : M node :=
  do start_pos <- position;
  do symbol <- expect PyGlobal start_pos
    "SyntaxError at {}: Expecting symbol in 'global' statement!"
    "SyntaxError at {}: Expecting 'global' in global statement!";
  do s2 <- expect T_AtomName start_pos
    "SyntaxError at {}: Expecting symbol in 'global' statement!"
    "SyntaxError at {}: Expecting name literal in global statement!";
  do (nodes_list, separators_list) <- while_ n (global_step start_pos) ([s2], []);
  do e <- position;
  ret (GlobalStmt start_pos e symbol (rev nodes_list) (rev separators_list)).

(** statements.rs 1109-1134 *)
Definition nonlocal_step (start_pos : nat) (st : list token * list token)
  : M (bool * (list token * list token)) :=
  let '(nodes_list, separators_list) := st in
  on_symbol (fail "SyntaxError at {}: Expecting symbol in 'nonlocal' statement!" start_pos) (fun s3 =>
    if is PyComa s3 then
      advance;;
      do s4 <- expect T_AtomName start_pos
        "SyntaxError at {}: Expecting 'nonlocal' in global statement!"
        "SyntaxError at {}: Expecting name literal in nonlocal statement!";
      ret (true, (nodes_list ++ [s4], separators_list ++ [s3]))
    else ret (false, st)).

(** statements.rs 1088-1145 *)
Definition p_nonlocal_stmt : M node :=
  do start_pos <- position;
  do symbol <- expect PyNonLocal start_pos
    "SyntaxError at {}: Expecting symbol in 'nonlocal' statement!"
    "SyntaxError at {}: Expecting 'nonlocal' in nonlocal statement!";
  do s2 <- expect T_AtomName start_pos
    "SyntaxError at {}: Expecting symbol in 'nonlocal' statement!"
    "SyntaxError at {}: Expecting name literal in nonlocal statement!";
  do (nodes_list, separators_list) <- while_ n (nonlocal_step start_pos) ([s2], []);
  do e <- position;
  ret (NonLocalStmt start_pos e symbol (rev nodes_list) (rev separators_list)).

(** statements.rs 1147-1178; the message separator is 'from' (1158). *)
Definition p_assert_stmt : M node :=
  do start_pos <- position;
  do symbol1 <- expect PyAssert start_pos
    "SyntaxError at {}: Expecting symbol in 'assert' statement!"
    "SyntaxError at {}: Expecting 'assert' in assert statement!";
  do left_node <- rec F_test;
  on_symbol (fail "SyntaxError at {}: Expecting symbol in 'assert' statement!" start_pos) (fun symbol2 =>
    if is PyFrom symbol2 then
      advance;; do right_node <- rec F_test; do e <- position;
      ret (AssertStmt start_pos e symbol1 left_node (Some (symbol2, right_node)))
    else
      do e <- position; ret (AssertStmt start_pos e symbol1 left_node None)).

(** statements.rs 1180-1217 *)
Definition p_compound_stmt : M node :=
  do start_pos <- position;
  on_symbol (fail "SyntaxError at {}: Expecting symbol in compound statement!" start_pos) (fun s =>
    if is PyIf s then rec F_if_stmt
    else if is PyWhile s then rec F_while_stmt
    else if is PyFor s then rec F_for_stmt
    else if is PyTry s then rec F_try_stmt
    else if is PyWith s then rec F_with_stmt
    else if is PyDef s then rec F_func_def
    else if is PyClass s then rec F_class_def
    else if is PyMatrice s then rec F_decorated
    else if is PyAsync s then rec F_async_stmt
    else fail "SyntaxError at {}: Expecting compound statement!" start_pos).

(** statements.rs 1219-1253; 'async def' calls the class parser (1230). *)
Definition p_async_stmt : M node :=
  do start_pos <- position;
  do symbol <- expect PyAsync start_pos
    "SyntaxError at {}: Expecting symbol in async statement!"
    "SyntaxError at {}: Expecting 'async' in async statement!";
  on_symbol (fail "SyntaxError at {}: Expecting symbol in async statement!" start_pos) (fun s =>
    if is PyDef s then
      do right_node <- rec F_class_def; do e <- position; ret (AsyncStmt start_pos e symbol right_node)
    else if is PyWith s then
      do right_node <- rec F_with_stmt; do e <- position; ret (AsyncStmt start_pos e symbol right_node)
    else if is PyFor s then
      do right_node <- rec F_for_stmt; do e <- position; ret (AsyncStmt start_pos e symbol right_node)
    else fail "SyntaxError at {}: Expecting 'def', 'with' or 'for' in 'async' statement!" start_pos).

(** statements.rs 1271-1283 *)
Definition if_step (start_pos : nat) (nodes_list : list node) : M (bool * list node) :=
  on_symbol (fail "SyntaxError at {}: Expecting symbol in if statement!" start_pos) (fun s3 =>
    if is PyElif s3 then do x <- rec F_elif_stmt; ret (true, nodes_list ++ [x])
    else ret (false, nodes_list)).

(** statements.rs 1255-1312 *)
Definition p_if_stmt : M node :=
  do start_pos <- position;
  do symbol1 <- expect PyIf start_pos
    "SyntaxError at {}: Expecting symbol in if statement!"
    "SyntaxError at {}: Expecting symbol in 'if' statement!";
  do left_node <- rec F_test;
  do symbol2 <- expect PyColon start_pos
    "SyntaxError at {}: Expecting symbol in if statement!"
    "SyntaxError at {}: Expecting ':' in if statement!";
  do right_node <- rec F_suite;
  do nodes_list <- while_ n (if_step start_pos) [];
  on_symbol (fail "SyntaxError at {}: Expecting symbol in if statement!" start_pos) (fun s =>
    if is PyElse s then
      do next_node <- rec F_else_stmt; do e <- position;
      ret (IfStmt start_pos e symbol1 left_node symbol2 right_node (rev nodes_list) (Some next_node))
    else
      do e <- position;
      ret (IfStmt start_pos e symbol1 left_node symbol2 right_node (rev nodes_list) None)).

(** statements.rs 1314-1343 *)
Definition p_elif_stmt : M node :=
  do start_pos <- position;
  do symbol1 <- expect PyElif start_pos
    "SyntaxError at {}: Expecting symbol in elif statement!"
    "SyntaxError at {}: Expecting 'elif' in elif statement!";
  do left_node <- rec F_test;
  do symbol2 <- expect PyColon start_pos
    "SyntaxError at {}: Expecting symbol in elif statement!"
    "SyntaxError at {}: Expecting ':' in elif statement!";
  do right_node <- rec F_suite;
  do e <- position; ret (ElifStmt start_pos e symbol1 left_node symbol2 right_node).

(** statements.rs 1345-1374 *)
Definition p_else_stmt : M node :=
  do start_pos <- position;
  do symbol1 <- expect PyElse start_pos
    "SyntaxError at {}: Expecting symbol in else statement!"
    "SyntaxError at {}: Expecting 'else' in elif statement!";
  do symbol2 <- expect PyColon start_pos
    "SyntaxError at {}: Expecting symbol in elif statement!"
    "SyntaxError at {}: Expecting ':' in else statement!";
  do right_node <- rec F_suite;
  do e <- position; ret (ElseStmt start_pos e symbol1 symbol2 right_node).

(** statements.rs 1376-1418 *)
Definition p_while_stmt : M node :=
  do start_pos <- position;
  do symbol1 <- expect PyWhile start_pos
    "SyntaxError at {}: Expecting symbol in while statement!"
    "SyntaxError at {}: Expecting 'while' in while statement!";
  do left_node <- rec F_test;
  do symbol2 <- expect PyColon start_pos
    "SyntaxError at {}: Expecting symbol in while statement!"
    "SyntaxError at {}: Expecting ':' in while statement!";
  do right_node <- rec F_suite;
  on_symbol (fail "SyntaxError at {}: Expecting symbol in while statement!" start_pos) (fun s3 =>
    if is PyElse s3 then
      do next_node <- rec F_else_stmt; do e <- position;
      ret (WhileStmt start_pos e symbol1 left_node symbol2 right_node (Some next_node))
    else
      do e <- position; ret (WhileStmt start_pos e symbol1 left_node symbol2 right_node None)).

(** optional type comment: statements.rs 1442-1453, blocks.rs 385-397. *)
Definition type_comment_opt (msg : String.string) (pos : nat) : M (option token) :=
  on_symbol (fail msg pos) (fun s =>
    if is T_TypeComment s then advance;; ret (Some s) else ret None).

(** statements.rs 1420-1488 *)
Definition p_for_stmt : M node :=
  do start_pos <- position;
  do symbol1 <- expect PyFor start_pos
    "SyntaxError at {}: Expecting symbol in for statement!"
    "SyntaxError at {}: Expecting 'for' in for statement!";
  do left_node <- rec F_exprlist;
  do symbol2 <- expect PyIn start_pos
    "SyntaxError at {}: Expecting symbol in for statement!"
    "SyntaxError at {}: Expecting 'in' in for statement!";
  do right_node <- rec F_testlist;
  do symbol3 <- expect PyColon start_pos
    "SyntaxError at {}: Expecting symbol in for statement!"
    "SyntaxError at {}: Expecting ':' in for statement!";
  do tc_symbol <- type_comment_opt "SyntaxError at {}: Expecting symbol in for statement!" start_pos;
  do next_node <- rec F_suite;
  on_symbol (fail "SyntaxError at {}: Expecting symbol in for statement!" start_pos) (fun s5 =>
    if is PyElse s5 then
      do else_node <- rec F_else_stmt; do e <- position;
      ret (ForStmt start_pos e symbol1 left_node symbol2 right_node symbol3 tc_symbol next_node
             (Some else_node))
    else
      do e <- position;
      ret (ForStmt start_pos e symbol1 left_node symbol2 right_node symbol3 tc_symbol next_node None)).

(** statements.rs 1517-1529 *)
Definition try_step (start_pos : nat) (nodes_list : list node) : M (bool * list node) :=
  on_symbol (fail "SyntaxError at {}: Expecting symbol in try statement!" start_pos) (fun s4 =>
    if is PyExcept s4 then do x <- rec F_except_stmt; ret (true, nodes_list ++ [x])
    else ret (false, nodes_list)).

(** statements.rs 1490-1572 *)
Definition p_try_stmt : M node :=
  do start_pos <- position;
  do symbol1 <- expect PyTry start_pos
    "SyntaxError at {}: Expecting symbol in try statement!"
    "SyntaxError at {}: Expecting 'try' in try statement!";
  set_except ExceptNone;;
  do symbol2 <- expect PyColon start_pos
    "SyntaxError at {}: Expecting symbol in try statement!"
    "SyntaxError at {}: Expecting ':' in try statement!";
  do left_node <- rec F_suite;
  on_symbol (fail "SyntaxError at {}: Expecting symbol in try statement!" start_pos) (fun s3 =>
    if is PyFinally s3 then
      do right_node <- rec F_finally_stmt; do e <- position;
      ret (TryStmt start_pos e symbol1 symbol2 left_node None None (Some right_node))
    else
      do first <- rec F_except_stmt;
      do nodes_list <- while_ n (try_step start_pos) [first];
      do else_node <- on_symbol (fail "SyntaxError at {}: Expecting symbol in try statement!" start_pos) (fun s5 =>
        if is PyElse s5 then do r <- rec F_else_stmt; ret (Some r) else ret None);
      do right_node <- on_symbol (fail "SyntaxError at {}: Expecting symbol in try statement!" start_pos) (fun s6 =>
        if is PyFinally s6 then do r <- rec F_finally_stmt; ret (Some r) else ret None);
      do e <- position;
      ret (TryStmt start_pos e symbol1 symbol2 left_node (Some (rev nodes_list)) else_node right_node)).

(** statements.rs 1574-1602 *)
Definition p_finally_stmt : M node :=
  do start_pos <- position;
  do symbol1 <- expect PyFinally start_pos
    "SyntaxError at {}: Expecting symbol in finally statement!"
    "SyntaxError at {}: Expecting 'finally' in finally statement!";
  do symbol2 <- expect PyColon start_pos
    "SyntaxError at {}: Expecting symbol in finally statement!"
    "SyntaxError at {}: Expecting ':' in finally statement!";
  do right_node <- rec F_suite;
  do e <- position; ret (FinallyStmt start_pos e symbol1 symbol2 right_node).

(** statements.rs 1624-1648 *)
Definition with_paren_step (start_pos : nat) (st : list node * list token)
  : M (bool * (list node * list token)) :=
  let '(nodes_list, separators_list) := st in
  on_symbol (fail "SyntaxError at {}: Expecting symbol in with statement!" start_pos) (fun s5 =>
    if is PyComa s5 then
      advance;;
      on_symbol (fail "SyntaxError at {}: Expecting symbol in with statement!" start_pos) (fun s6 =>
        if is PyRightParen s6 then ret (false, (nodes_list, separators_list ++ [s5]))
        else
          do x <- rec F_with_item; ret (true, (nodes_list ++ [x], separators_list ++ [s5])))
    else ret (false, st)).

(** statements.rs 1664-1678 *)
Definition with_step (start_pos : nat) (st : list node * list token)
  : M (bool * (list node * list token)) :=
  let '(nodes_list, separators_list) := st in
  on_symbol (fail "SyntaxError at {}: Expecting symbol in with statement!" start_pos) (fun s4 =>
    if is PyComa s4 then
      advance;; do x <- rec F_with_item; ret (true, (nodes_list ++ [x], separators_list ++ [s4]))
    else ret (false, st)).

(** statements.rs 1604-1706 *)
Definition p_with_stmt : M node :=
  do start_pos <- position;
  do symbol1 <- expect PyWith start_pos
    "SyntaxError at {}: Expecting symbol in with statement!"
    "SyntaxError at {}: Expecting 'with' in finally statement!";
  do (left_symbol, (nodes_list, separators_list), right_symbol) <-
    on_symbol (fail "SyntaxError at {}: Expecting symbol in with statement!" start_pos) (fun s3 =>
      if is PyLeftParen s3 then
        advance;;
        do first <- rec F_with_item;
        do st <- while_ n (with_paren_step start_pos) ([first], []);
        do s7 <- expect PyRightParen start_pos
          "SyntaxError at {}: Expecting symbol in with statement!"
          "SyntaxError at {}: Expecting ')' in with statement!";
        ret (Some s3, st, Some s7)
      else
        do first <- rec F_with_item;
        do st <- while_ n (with_step start_pos) ([first], []);
        ret (None, st, None));
  do symbol2 <- expect PyColon start_pos
    "SyntaxError at {}: Expecting symbol in with statement!"
    "SyntaxError at {}: Expecting ':' in with statement!";
  do right_node <- rec F_suite;
  do e <- position;
  ret (WithStmt start_pos e symbol1 left_symbol (rev nodes_list) (rev separators_list) right_symbol
         symbol2 right_node).

(** statements.rs 1708-1727; 'as' builds an except node (1718). *)
Definition p_with_item : M node :=
  do start_pos <- position;
  do left_node <- rec F_test;
  on_symbol (fail "SyntaxError at {}: Expecting symbol in with item statement!" start_pos) (fun symbol =>
    if is PyAs symbol then
      advance;; do right_node <- rec F_expr;
      do e <- position; ret (ExceptStmt start_pos e left_node symbol right_node)
    else
      do e <- position; ret (WithItem start_pos e left_node None)).

(** statements.rs 1729-1746 *)
Definition p_except_stmt : M node :=
  do start_pos <- position;
  do left_node <- rec F_except_clause;
  do symbol <- expect PyColon start_pos
    "SyntaxError at {}: Expecting symbol in except statement!"
    "SyntaxError at {}: Expecting ':' in except statement!";
  do right_node <- rec F_suite;
  do e <- position; ret (ExceptStmt start_pos e left_node symbol right_node).

(** statements.rs 1758-1784: 'except' or 'except*', checked against the flag. *)
Definition except_star (start_pos : nat) : M (option token) :=
  on_symbol (fail "SyntaxError at {}: Expecting symbol in except statement!" start_pos) (fun s10 =>
    if is PyMul s10 then
      advance;;
      do st <- get_except;
      match st with
      | ExceptNone => set_except ExceptMul;; ret (Some s10)
      | Except => fail "SyntaxError at {}: Expecting 'except*' except statement!" start_pos
      | ExceptMul => ret (Some s10)
      end
    else
      do st <- get_except;
      match st with
      | ExceptNone => set_except Except;; ret None
      | ExceptMul => fail "SyntaxError at {}: Expecting 'except' except statement!" start_pos
      | Except => ret None
      end).

(** statements.rs 1748-1833 *)
Definition p_except_clause : M node :=
  do start_pos <- position;
  do symbol1 <- expect PyExcept start_pos
    "SyntaxError at {}: Expecting symbol in except clause statement!"
    "SyntaxError at {}: Expecting 'except' in except statement!";
  do symbol_mul <- except_star start_pos;
  on_symbol (fail "SyntaxError at {}: Expecting symbol in except statement!" start_pos) (fun s2 =>
    if is PyColon s2 then
      do e <- position; ret (ExceptClauseStmt start_pos e symbol1 symbol_mul None)
    else
      do left_node <- rec F_test;
      on_symbol (fail "SyntaxError at {}: Expecting symbol in except statement!" start_pos) (fun symbol2 =>
        if is PyAs symbol2 then
          advance;;
          do symbol3 <- expect T_AtomName start_pos
            "SyntaxError at {}: Expecting symbol in except clause statement!"
            "SyntaxError at {}: Expecting name literal after 'as' in except statement!";
          do e <- position;
          ret (ExceptClauseStmt start_pos e symbol1 symbol_mul
                 (Some (left_node, Some (symbol2, symbol3))))
        else
          do e <- position;
          ret (ExceptClauseStmt start_pos e symbol1 symbol_mul (Some (left_node, None))))).

(** statements loop up to the dedent: statements.rs 1852-1865, blocks.rs 563-576. *)
Definition suite_step (msg : String.string) (start_pos : nat) (nodes_list : list node)
  : M (bool * list node) :=
  on_symbol (fail msg start_pos) (fun s3 =>
    if is T_Dedent s3 then ret (false, nodes_list)
    else do x <- rec F_stmt; ret (true, nodes_list ++ [x])).

(** statements.rs 1835-1894 *)
Definition p_suite : M node :=
  do start_pos <- position;
  on_symbol (fail "SyntaxError at {}: Expecting symbol in suite statement!" start_pos) (fun symbol1 =>
    if is T_Newline symbol1 then
      advance;;
      do symbol2 <- expect T_Indent start_pos
        "SyntaxError at {}: Expecting symbol in suite statement!"
        "SyntaxError at {}: Expecting indentation in suite statement!";
      do first <- rec F_stmt;
      do nodes_list <- while_ n
        (suite_step "SyntaxError at {}: Expecting symbol in suite statement!" start_pos) [first];
      do symbol3 <- expect T_Dedent start_pos
        "SyntaxError at {}: Expecting symbol in suite statement!"
        "SyntaxError at {}: Expecting dedent in suite statement!";
      do e <- position;
      ret (SuiteStmt start_pos e symbol1 symbol2 (rev nodes_list) symbol3)
    else rec F_simple_stmt).

(** patterns.rs 11-13: [todo!()] *)
Definition p_match : M node := panic.

End MeterStmt.
