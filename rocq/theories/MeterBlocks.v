(** The functions of Blocks.v over the monad of Meter.v, unchanged (C67). *)
From Verif Require Import Chars SourceBuffer Token Tokenizer Node ParserState Statements Blocks Meter MeterStmt.

Section MeterBlocks.
Variable U : unicode.
Variable n : nat.
Variable rec : fn -> M node.

Local Notation advance := (advance U).
Local Notation expect := (expect U).

(** loop over newlines: blocks.rs 31-44, 171-184. *)
Definition newlines_step (msg : String.string) (start_pos : nat) (separators_list : list token)
  : M (bool * list token) :=
  on_symbol (fail msg start_pos) (fun s =>
    if is T_Newline s then advance;; ret (true, separators_list ++ [s])
    else ret (false, separators_list)).

(** blocks.rs 26-58 *)
Definition p_eval_input : M node :=
  advance;;
  do start_pos <- position;
  do right_node <- rec F_testlist;
  do separators_list <- while_ n
    (newlines_step "SyntaxError at {}: Expecting symbol in eval expression!" start_pos) [];
  on_symbol (fail "SyntaxError at {}: Expecting symbol in eval expression!" start_pos) (fun symbol =>
    if is T_EOF symbol then
      do e <- position; ret (EvalInput start_pos e right_node (rev separators_list) symbol)
    else fail "SyntaxError at {}: Expecting send of file in eval expression!" start_pos).

(** blocks.rs 65-82 *)
Definition file_input_step (start_pos : nat) (st : list node * list token)
  : M (bool * (list node * list token)) :=
  let '(nodes_list, separators_list) := st in
  on_symbol (fail "SyntaxError at {}: Expecting symbol in eval expression!" start_pos) (fun s =>
    if is T_EOF s then ret (false, st)
    else if is T_Newline s then advance;; ret (true, (nodes_list, separators_list ++ [s]))
    else do x <- rec F_stmt; ret (true, (nodes_list ++ [x], separators_list))).

(** blocks.rs 60-97 *)
Definition p_file_input : M node :=
  advance;;
  do start_pos <- position;
  do (nodes_list, separators_list) <- while_ n (file_input_step start_pos) ([], []);
  on_symbol (fail "SyntaxError at {}: Expecting symbol in file input!" start_pos) (fun symbol =>
    if is T_EOF symbol then
      do e <- position;
      ret (FileInput start_pos e (rev nodes_list) (rev separators_list) symbol)
    else fail "SyntaxError at {}: Expecting end of file in file input!" start_pos).

(** blocks.rs 121-133, 139-151: the newline after a compound statement is checked, not consumed. *)
Definition single_compound (start_pos : nat) (f : fn) : M node :=
  do right_node <- rec f;
  on_symbol (fail "SyntaxError at {}: Expecting symbol in single input!" start_pos) (fun s2 =>
    if is T_Newline s2 then
      do e <- position; ret (SingleInput start_pos e (Some right_node) (Some s2))
    else fail "SyntaxError at {}: Expecting Newline after compound statement in single input!" start_pos).

(** blocks.rs 99-164 *)
Definition p_single_input : M node :=
  advance;;
  do start_pos <- position;
  on_symbol (fail "SyntaxError at {}: Expecting symbol in single input!" start_pos) (fun s =>
    if is T_Newline s then
      advance;; do e <- position; ret (SingleInput start_pos e None (Some s))
    else if is_one_of compound_start s then single_compound start_pos F_compound_stmt
    else if is T_AtomName s && str_eqb (text_of s) $"match" then single_compound start_pos F_match
    else
      do right_node <- rec F_simple_stmt;
      do e <- position; ret (SingleInput start_pos e (Some right_node) None)).

(** blocks.rs 166-198 *)
Definition p_func_type_input : M node :=
  advance;;
  do start_pos <- position;
  do right_node <- rec F_func_type;
  do separators_list <- while_ n
    (newlines_step "SyntaxError at {}: Expecting symbol in functional input!" start_pos) [];
  on_symbol (fail "SyntaxError at {}: Expecting symbol in functional input!" start_pos) (fun symbol =>
    if is T_EOF symbol then
      do e <- position; ret (FuncTypeInput start_pos e right_node (rev separators_list) symbol)
    else fail "SyntaxError at {}: Expecting end of file in function input!" start_pos).

(** blocks.rs 200-266; the closing newline is stored but not consumed (252-254). *)
Definition p_decorator : M node :=
  do start_pos <- position;
  do symbol1 <- expect PyMatrice start_pos
    "SyntaxError at {}: Expecting symbol in decorator statement!"
    "SyntaxError at {}: Expecting '@' in decorator statement!";
  do left_node <- rec F_dotted_name;
  do (symbol2, right_node, symbol3) <-
    on_symbol (fail "SyntaxError at {}: Expecting symbol in functional input!" start_pos) (fun s2 =>
      if is PyLeftParen s2 then
        advance;;
        do right_node <- on_symbol (fail "SyntaxError at {}: Expecting symbol in functional input!" start_pos) (fun s3 =>
          if is PyRightParen s3 then ret None else do r <- rec F_arglist; ret (Some r));
        do s4 <- expect PyRightParen start_pos
          "SyntaxError at {}: Expecting symbol in functional input!"
          "SyntaxError at {}: Expecting ')' in functional input!";
        ret (Some s2, right_node, Some s4)
      else ret (None, None, None));
  on_symbol (fail "SyntaxError at {}: Expecting symbol in functional input!" start_pos) (fun symbol4 =>
    if is T_Newline symbol4 then
      do e <- position;
      ret (Decorator start_pos e symbol1 left_node symbol2 right_node symbol3 symbol4)
    else fail "SyntaxError at {}: Expecting end of file in function input!" start_pos).

(** blocks.rs 272-284 *)
Definition decorators_step (start_pos : nat) (nodes_list : list node) : M (bool * list node) :=
  on_symbol (fail "SyntaxError at {}: Expecting symbol in decorator statement!" start_pos) (fun s =>
    if is PyMatrice s then do x <- rec F_decorator; ret (true, nodes_list ++ [x])
    else ret (false, nodes_list)).

(** blocks.rs 268-287 *)
Definition p_decorators : M node :=
  do start_pos <- position;
  do first <- rec F_decorator;
  do nodes_list <- while_ n (decorators_step start_pos) [first];
  do e <- position; ret (Decorators start_pos e (rev nodes_list)).

(** blocks.rs 289-322 *)
Definition p_decorated : M node :=
  do start_pos <- position;
  on_symbol (fail "SyntaxError at {}: Expecting symbol in decorator statement!" start_pos) (fun s =>
    if is PyMatrice s then
      do left_node <- rec F_decorators;
      on_symbol (fail "SyntaxError at {}: Expecting symbol in decorator statement!" start_pos) (fun s =>
        if is PyClass s then
          do right_node <- rec F_class_def; do e <- position; ret (Decorated start_pos e left_node right_node)
        else if is PyDef s then
          do right_node <- rec F_func_def; do e <- position; ret (Decorated start_pos e left_node right_node)
        else if is PyAsync s then
          do right_node <- rec F_async_func_def; do e <- position; ret (Decorated start_pos e left_node right_node)
        else fail "SyntaxError at {}: Expecting 'class', 'def' or 'async' after '@' in decorator statement!" start_pos)
    else fail "SyntaxError at {}: Expecting '@' in decorator statement!" start_pos).

(** blocks.rs 324-340 *)
Definition p_async_func_def : M node :=
  do start_pos <- position;
  do symbol <- expect PyAsync start_pos
    "SyntaxError at {}: Expecting symbol in async statement!"
    "SyntaxError at {}: Expecting 'async' in async statement!";
  do right_node <- rec F_func_def;
  do e <- position; ret (AsyncStmt start_pos e symbol right_node).

(** blocks.rs 342-420 *)
Definition p_func_def : M node :=
  do start_pos <- position;
  do symbol1 <- expect PyDef start_pos
    "SyntaxError at {}: Expecting symbol in function statement!"
    "SyntaxError at {}: Expecting 'def' in function statement!";
  do symbol2 <- expect T_AtomName start_pos
    "SyntaxError at {}: Expecting 'def' in function statement!"
    "SyntaxError at {}: Expecting literal name in function statement!";
  do left_node <- on_symbol (fail "SyntaxError at {}: Expecting 'def' in function statement!" start_pos) (fun s3 =>
    if is PyLeftParen s3 then do r <- rec F_parameters; ret (Some r) else ret None);
  do ret_node <- on_symbol (fail "SyntaxError at {}: Expecting 'def' in function statement!" start_pos) (fun s4 =>
    if is PyArrow s4 then advance;; do res_node <- rec F_test; ret (Some (s4, res_node)) else ret None);
  do symbol4 <- expect PyColon start_pos
    "SyntaxError at {}: Expecting symbol in function statement!"
    "SyntaxError at {}: Expecting ':' in function statement!";
  do tc_symbol <- type_comment_opt U "SyntaxError at {}: Expecting symbol in function statement!" start_pos;
  do body_node <- rec F_func_body_suite;
  do e <- position;
  ret (FuncDef start_pos e symbol1 symbol2 left_node ret_node symbol4 tc_symbol body_node).

(** blocks.rs 422-458 *)
Definition p_parameters : M node :=
  do start_pos <- position;
  do symbol1 <- expect PyLeftParen start_pos
    "SyntaxError at {}: Expecting symbol in parameters of function statement!"
    "SyntaxError at {}: Expecting '(' in parameters of function statement!";
  do right_node <- on_symbol (fail "SyntaxError at {}: Expecting symbol in parameters of function statement!" start_pos) (fun s2 =>
    if is PyRightParen s2 then ret None else do r <- rec F_typed_args_list; ret (Some r));
  do symbol2 <- expect PyRightParen start_pos
    "SyntaxError at {}: Expecting symbol in parameters of function statement!"
    "SyntaxError at {}: Expecting ')' in parameters of function statement!";
  do e <- position; ret (ParameterList start_pos e symbol1 right_node symbol2).

(** blocks.rs 460-469; the rule is missing in the source, nothing is consumed. *)
Definition p_typed_args_list : M node :=
  do start_pos <- position;
  do e <- position; ret (TypedArgsList start_pos e [] [] [] None None).

(** blocks.rs 471-488 (never called) *)
Definition p_tfp_def_assign : M node :=
  do start_pos <- position;
  do left_node <- rec F_tfp_def;
  on_symbol (fail "SyntaxError at {}: Expecting symbol in parameter of function statement!" start_pos) (fun symbol =>
    if is PyAssign symbol then
      advance;; do right_node <- rec F_test;
      do e <- position; ret (TFPAssign start_pos e left_node symbol right_node)
    else ret left_node).

(** blocks.rs 490-520 *)
Definition p_tfp_def : M node :=
  do start_pos <- position;
  do symbol1 <- expect T_AtomName start_pos
    "SyntaxError at {}: Expecting symbol in parameter of function statement!"
    "SyntaxError at {}: Expecting name literal in parameter of function statement!";
  on_symbol (fail "SyntaxError at {}: Expecting symbol in parameter of function statement!" start_pos) (fun symbol2 =>
    if is PyColon symbol2 then
      advance;; do right_node <- rec F_test;
      do e <- position; ret (TFPDef start_pos e symbol1 (Some (symbol2, right_node)))
    else
      do e <- position; ret (TFPDef start_pos e symbol1 None)).

(** blocks.rs 522-603 *)
Definition p_func_body_suite : M node :=
  do start_pos <- position;
  on_symbol (fail "SyntaxError at {}: Expecting symbol in function body!" start_pos) (fun symbol1 =>
    if is T_Newline symbol1 then
      advance;;
      do (tc_symbol, tc_newline) <-
        on_symbol (fail "SyntaxError at {}: Expecting symbol in function body!" start_pos) (fun s2 =>
          if is T_TypeComment s2 then
            advance;;
            do s3 <- expect T_Newline start_pos
              "SyntaxError at {}: Expecting symbol in function body!"
              "SyntaxError at {}: Expecting Newline after TypeComment in function body!";
            ret (Some s2, Some s3)
          else ret (None, None));
      do symbol2 <- expect T_Indent start_pos
        "SyntaxError at {}: Expecting symbol in function body!"
        "SyntaxError at {}: Expecting indentation in function body!";
      do first <- rec F_stmt;
      do nodes_list <- while_ n
        (suite_step rec "SyntaxError at {}: Expecting symbol in function body!" start_pos) [first];
      do symbol3 <- expect T_Dedent start_pos
        "SyntaxError at {}: Expecting symbol in function body!"
        "SyntaxError at {}: Expecting end of block in function body!";
      do e <- position;
      ret (FuncBodySuite start_pos e symbol1 tc_symbol tc_newline symbol2 (rev nodes_list) symbol3)
    else rec F_simple_stmt).

(** blocks.rs 605-680; the bases are parsed as lambda parameters (628). *)
Definition p_class_def : M node :=
  do start_pos <- position;
  do symbol1 <- expect PyClass start_pos
    "SyntaxError at {}: Expecting symbol in class statement!"
    "SyntaxError at {}: Expecting 'class' in class statement!";
  do symbol2 <- expect T_AtomName start_pos
    "SyntaxError at {}: Expecting symbol in class statement!"
    "SyntaxError at {}: Expecting literal name in class statement!";
  do (symbol3, left_node, symbol4) <-
    on_symbol (fail "SyntaxError at {}: Expecting symbol in class statement!" start_pos) (fun s3 =>
      if is PyLeftParen s3 then
        advance;;
        do left_node <- on_symbol (fail "SyntaxError at {}: Expecting symbol in class statement!" start_pos) (fun s5 =>
          if is PyRightParen s5 then ret None else do r <- rec F_var_args_list; ret (Some r));
        do s6 <- expect PyRightParen start_pos
          "SyntaxError at {}: Expecting symbol in class statement!"
          "SyntaxError at {}: Expecting ')' in class statement!";
        ret (Some s3, left_node, Some s6)
      else ret (None, None, None));
  do symbol5 <- expect PyColon start_pos
    "SyntaxError at {}: Expecting symbol in class statement!"
    "SyntaxError at {}: Expecting ':' in class statement!";
  do right_node <- rec F_suite;
  do e <- position;
  ret (ClassDef start_pos e symbol1 symbol2 symbol3 left_node symbol4 symbol5 right_node).

(** functions.rs 12-64 *)
Definition p_func_type : M node :=
  do start_pos <- position;
  do symbol1 <- expect PyLeftParen start_pos
    "SyntaxError at {}: Expecting symbol in functional type!"
    "SyntaxError at {}: Expecting '(' in functional type!";
  do left_node <- on_symbol (fail "SyntaxError at {}: Expecting symbol in functional type!" start_pos) (fun s2 =>
    if is PyRightParen s2 then ret None else do r <- rec F_type_list; ret (Some r));
  do symbol2 <- expect PyRightParen start_pos
    "SyntaxError at {}: Expecting symbol in functional type!"
    "SyntaxError at {}: Expecting '(' in functional type!";
  do symbol3 <- expect PyArrow start_pos
    "SyntaxError at {}: Expecting symbol in functional type!"
    "SyntaxError at {}: Expecting '(' in functional type!";
  do right_node <- rec F_test;
  do e <- position; ret (FuncType start_pos e symbol1 left_node symbol2 symbol3 right_node).

Definition ta_err {A} (start_pos : nat) : M A :=
  fail "SyntaxError at {}: Expecting symbol in functional type list!" start_pos.

(** '**' type: functions.rs 92-97, 113-117, 144-149, 166-171. *)
Definition ta_power_part (v : type_args) (symbol : token) : M type_args :=
  advance;; do x <- rec F_test; ret (ta_set_power v symbol x).

(** functions.rs 82-111, 134-163 *)
Definition ta_mul_step (start_pos : nat) (v : type_args) : M (bool * type_args) :=
  on_symbol (ta_err start_pos) (fun s2 =>
    if is PyComa s2 then
      let v1 := ta_push_sep v s2 in
      advance;;
      on_symbol (ta_err start_pos) (fun s =>
        if is PyPower s then do v2 <- ta_power_part v1 s; ret (false, v2)
        else do x <- rec F_test; ret (true, ta_push_node v1 x))
    else ret (false, v)).

(** '*' type and what follows: functions.rs 78-111, 130-164. *)
Definition ta_mul_part (start_pos : nat) (v : type_args) (symbol : token) : M type_args :=
  advance;; do x <- rec F_test; while_ n (ta_mul_step start_pos) (ta_set_mul v symbol x).

(** functions.rs 120-185 *)
Definition ta_main_step (start_pos : nat) (v : type_args) : M (bool * type_args) :=
  on_symbol (ta_err start_pos) (fun s2 =>
    if is PyComa s2 then
      let v1 := ta_push_sep v s2 in
      advance;;
      on_symbol (ta_err start_pos) (fun s =>
        if is PyMul s then do v2 <- ta_mul_part start_pos v1 s; ret (false, v2)
        else if is PyPower s then do v2 <- ta_power_part v1 s; ret (false, v2)
        else do x <- rec F_test; ret (true, ta_push_node v1 x))
    else ret (false, v)).

(** functions.rs 66-195 *)
Definition p_type_list : M node :=
  do start_pos <- position;
  let v := mk_ta [] [] None None None None in
  do v' <- on_symbol (ta_err start_pos) (fun s =>
    if is PyMul s then ta_mul_part start_pos v s
    else if is PyPower s then ta_power_part v s
    else do x <- rec F_test; while_ n (ta_main_step start_pos) (ta_push_node v x));
  do e <- position;
  ret (TypeList start_pos e (rev (ta_nodes v')) (rev (ta_seps v'))
         (ta_mul v') (ta_mul_node v') (ta_power v') (ta_power_node v')).

End MeterBlocks.
