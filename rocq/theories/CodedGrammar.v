(** The grammar of the parser as plain EBNF, without look-ahead: the rules of Python (PythonGrammar.v) as the parser has
    them.  A rule that differs from Python's says so.  Two departures of the parser are left out, since they are no matter
    of a context-free grammar: any token may stand for the second colon of a slice, and the flag that tells except from
    except* is shared by nested try statements; [plain] trees show neither.  Not modelled code. *)
From Coq Require Import List.
From Verif Require Import Chars Token Node NodeView PythonGrammar.
Import ListNotations.
Local Open Scope ebnf_scope.

(** A parameter; default values may stand anywhere. *)
Definition param : ebnf := << T_AtomName, (Opt << PyAssign, test >>) >>.
Definition params : ebnf := << param, comma_then param >>.
Definition powers : ebnf := << PyPower, param, (Opt PyComa) >>.
Definition stars : ebnf := one_of powers, << PyMul, params, (Opt << PyComa, powers >>) >> end_of.
Definition types : ebnf := << test, comma_then test >>.
Definition type_stars : ebnf := one_of << PyPower, test >>, << PyMul, types, (Opt << PyComa, PyPower, test >>) >> end_of.

(** Lists without a trailing comma. *)
Definition tests : ebnf := << test, comma_then test >>.
Definition starred_tests : ebnf := << starred_test, comma_then starred_test >>.
Definition elements : ebnf := << element, comma_then element >>.
(** Values of an assignment before another '=', and the last one, with and without a type comment after it. *)
Definition values : ebnf := Star << PyAssign, one_of yield_stmt, tests end_of >>.

Definition coded (r : rule) : ebnf :=
  match r with
  (* no empty line, no compound statement *)
  | single_input => simple_stmt
  | file_input => << Star (one_of T_Newline, stmt end_of), T_EOF >>
  | eval_input => << testlist, Star T_Newline, T_EOF >>
  (* the parameters may be missing and are always empty *)
  | funcdef => << PyDef, T_AtomName, (Opt parameters), (Opt << PyArrow, test >>), PyColon, (Opt T_TypeComment), func_body_suite >>
  | parameters => << PyLeftParen, PyRightParen >>
  (* no bare '*', no trailing comma but after '**' *)
  | varargslist =>
      one_of stars, << params, (Opt << PyComa, stars >>) >>,
             << params, PyComa, PyDiv, comma_then param, (Opt << PyComa, stars >>) >> end_of
  | stmt => one_of simple_stmt, compound_stmt end_of
  | simple_stmt => << small_stmt, Star << PySemiColon, small_stmt >>, (Opt PySemiColon), T_Newline >>
  | small_stmt => one_of expr_stmt, del_stmt, pass_stmt, flow_stmt, import_stmt, global_stmt, nonlocal_stmt, assert_stmt end_of
  (* no starred values; a trailing comma of a value only at the end, or after yield *)
  | expr_stmt =>
      << testlist_star_expr,
         one_of annassign, << augassign, one_of yield_stmt, testlist end_of >>,
                (Opt << values, PyAssign, one_of << one_of yield_stmt, testlist end_of >>, << one_of yield_expr, tests end_of, T_TypeComment >> end_of >>) end_of >>
  | annassign => << PyColon, test, (Opt << PyAssign, one_of yield_stmt, testlist end_of >>) >>
  | testlist_star_expr => << starred_tests, (Opt PyComa) >>
  | augassign => python augassign
  (* any elements as targets, no trailing comma *)
  | del_stmt => << PyDel, elements >>
  | pass_stmt => PyPass
  | flow_stmt => one_of break_stmt, continue_stmt, return_stmt, raise_stmt, yield_stmt end_of
  | break_stmt => PyBreak
  | continue_stmt => PyContinue
  | return_stmt => << PyReturn, (Opt testlist_star_expr) >>
  (* yield with a trailing comma; not alone *)
  | yield_stmt => << PyYield, one_of << PyFrom, test >>, testlist_star_expr end_of >>
  | raise_stmt => << PyRaise, (Opt << test, (Opt << PyFrom, test >>) >>) >>
  (* no import_name *)
  | import_stmt => import_from
  | import_from =>
      << PyFrom,
         one_of << Star (one_of PyDot, PyElipsis end_of), dotted_name >>, Plus (one_of PyDot, PyElipsis end_of) end_of,
         PyImport,
         one_of PyMul, << PyLeftParen, import_as_names, PyRightParen >>, import_as_names end_of >>
  | import_as_name => << T_AtomName, (Opt << PyAs, T_AtomName >>) >>
  (* no trailing comma *)
  | import_as_names => << import_as_name, comma_then import_as_name >>
  | dotted_name => << T_AtomName, Star << PyDot, T_AtomName >> >>
  | global_stmt => << PyGlobal, T_AtomName, comma_then T_AtomName >>
  | nonlocal_stmt => << PyNonLocal, T_AtomName, comma_then T_AtomName >>
  (* 'from' for ',' *)
  | assert_stmt => << PyAssert, test, (Opt << PyFrom, test >>) >>
  (* no decorated *)
  | compound_stmt => one_of if_stmt, while_stmt, for_stmt, try_stmt, with_stmt, funcdef, classdef, async_stmt end_of
  (* no async def *)
  | async_stmt => << PyAsync, one_of with_stmt, for_stmt end_of >>
  (* test for namedexpr_test *)
  | if_stmt => << PyIf, test, PyColon, suite, Star << PyElif, test, PyColon, suite >>, (Opt else_suite) >>
  | while_stmt => << PyWhile, test, PyColon, suite, (Opt else_suite) >>
  (* no trailing comma in the list *)
  | for_stmt => << PyFor, exprlist, PyIn, tests, PyColon, (Opt T_TypeComment), suite, (Opt else_suite) >>
  | try_stmt =>
      << PyTry, PyColon, suite,
         one_of << Plus << except_clause, PyColon, suite >>, (Opt else_suite), (Opt finally_suite) >>, finally_suite end_of >>
  (* '(' after 'with' always encloses the items; no type comment *)
  | with_stmt =>
      << PyWith,
         one_of << But PyLeftParen with_item, comma_then with_item >>,
                << PyLeftParen, with_item, comma_then with_item, (Opt PyComa), PyRightParen >> end_of,
         PyColon, suite >>
  | with_item => << test, (Opt << PyAs, expr >>) >>
  | except_clause => << PyExcept, (Opt << test, (Opt << PyAs, T_AtomName >>) >>) >>
  | suite => one_of simple_stmt, << T_Newline, T_Indent, Plus stmt, T_Dedent >> end_of
  | namedexpr_test => << test, (Opt << PyColonAssign, test >>) >>
  | test => one_of << or_test, (Opt << PyIf, or_test, PyElse, test >>) >>, lambdef end_of
  | test_nocond => one_of or_test, lambdef_nocond end_of
  | lambdef => << PyLambda, (Opt varargslist), PyColon, test >>
  (* or_test for test_nocond *)
  | lambdef_nocond => << PyLambda, (Opt varargslist), PyColon, or_test >>
  | or_test => << and_test, Star << PyOr, and_test >> >>
  | and_test => << not_test, Star << PyAnd, not_test >> >>
  | not_test => one_of << PyNot, not_test >>, comparison end_of
  | comparison => << expr, Star << comp_op, expr >> >>
  | comp_op => python comp_op
  | star_expr => << PyMul, expr >>
  | expr => << xor_expr, Star << PyBitOr, xor_expr >> >>
  | xor_expr => << and_expr, Star << PyBitXor, and_expr >> >>
  | and_expr => << shift_expr, Star << PyBitAnd, shift_expr >> >>
  | shift_expr => << arith_expr, Star << one_of PyShiftLeft, PyShiftRight end_of, arith_expr >> >>
  | arith_expr => << term, Star << one_of PyPlus, PyMinus end_of, term >> >>
  | term => << factor, Star << one_of PyMul, PyMatrice, PyDiv, PyModulo, PyFloorDiv end_of, factor >> >>
  | factor => one_of << one_of PyPlus, PyMinus, PyBitInvert end_of, factor >>, power end_of
  | power => << atom_expr, (Opt << PyPower, factor >>) >>
  | atom_expr => << (Opt PyAwait), atom, Star trailer >>
  (* no '{' '}' *)
  | atom =>
      one_of << PyLeftParen, (Opt one_of yield_expr, testlist_comp end_of), PyRightParen >>,
             << PyLeftBracket, (Opt testlist_comp), PyRightBracket >>,
             << PyLeftCurly, dictorsetmaker, PyRightCurly >>,
             T_AtomName, T_AtomNumber, Plus T_AtomString, PyElipsis, PyNone, PyTrue, PyFalse end_of
  (* no trailing comma *)
  | testlist_comp => << element, one_of comp_for, comma_then element end_of >>
  | trailer =>
      one_of << PyLeftParen, (Opt arglist), PyRightParen >>, << PyLeftBracket, subscriptlist, PyRightBracket >>,
             << PyDot, T_AtomName >> end_of
  (* the arguments of a call are subscripts *)
  | arglist => << subscript, comma_then subscript >>
  (* no trailing comma; a slice has two colons, and its third part may only be missing at the end *)
  | subscriptlist => one_of << subscript, comma_then subscript >>, << Star << subscript, PyComa >>, sliceop >> end_of
  | subscript => one_of test, << (Opt test), PyColon, (Opt test), PyColon, test >> end_of
  | sliceop => << (Opt test), PyColon, (Opt test), PyColon >>
  (* targets before 'in': the last one is starred or followed by a comma, as it would take the 'in' *)
  | exprlist => one_of << elements, PyComa >>, << Star << element, PyComa >>, star_expr >> end_of
  | testlist => << tests, (Opt PyComa) >>
  (* no comprehensions, at most two entries of a dictionary *)
  | dictorsetmaker => one_of << entry, (Opt PyComa) >>, << entry, PyComa, entry >>, << starred_tests, (Opt PyComa) >> end_of
  (* parameters for bases *)
  | classdef => << PyClass, T_AtomName, (Opt << PyLeftParen, (Opt varargslist), PyRightParen >>), PyColon, suite >>
  | comp_iter => one_of comp_for, comp_if end_of
  | sync_comp_for => << PyFor, exprlist, PyIn, or_test, (Opt comp_iter) >>
  | comp_for => << (Opt PyAsync), sync_comp_for >>
  | comp_if => << PyIf, test_nocond, (Opt comp_iter) >>
  (* yield without a trailing comma; not alone *)
  | yield_expr => << PyYield, one_of << PyFrom, test >>, starred_tests end_of >>
  | func_body_suite =>
      one_of simple_stmt, << T_Newline, (Opt << T_TypeComment, T_Newline >>), T_Indent, Plus stmt, T_Dedent >> end_of
  | func_type_input => << func_type, Star T_Newline, T_EOF >>
  | func_type => << PyLeftParen, (Opt typelist), PyRightParen, PyArrow, test >>
  (* no bare '*', no trailing comma *)
  | typelist => one_of type_stars, << types, (Opt << PyComa, type_stars >>) >> end_of
  (* not in use *)
  | decorator | decorators | decorated | async_funcdef | typedargslist | tfpdef | vfpdef | import_name | dotted_as_name
  | dotted_as_names | except_star_clause | argument | yield_arg => Alt []
  end.

(** Trees without the two departures that are left out. *)
Definition plain_node (x : node) : Prop :=
  match x with
  | Subscript _ _ _ _ _ (Some u) _ => tk_kind u = PyColon
  | ExceptClauseStmt _ _ _ m _ => m = None
  | _ => True
  end.
Definition plain (x : node) : Prop := Forall plain_node (subnodes x).
