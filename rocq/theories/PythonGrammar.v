(** The grammar of Python, written down as the language reference has it and independently of the
    parser: EBNF over the kinds of tokens, with its usual meaning.

    The rules are those of the LL(1) grammar of Python 3.8 (Grammar/Grammar), which the parser
    follows rule by rule, with the additions of later versions the parser knows of: parenthesised
    with items (3.10) and except* (3.11).  Type comments between parameters are left out (every
    sentence of the grammar below is a sentence of Python).  Not modelled code. *)
From Coq Require Import List.
From Verif Require Import Chars Token.
Import ListNotations.

(** ** EBNF *)

(** The rules' names. *)
Inductive rule :=
| single_input | file_input | eval_input
| decorator | decorators | decorated | async_funcdef | funcdef | parameters | typedargslist | tfpdef
| varargslist | vfpdef
| stmt | simple_stmt | small_stmt | expr_stmt | annassign | testlist_star_expr | augassign
| del_stmt | pass_stmt | flow_stmt | break_stmt | continue_stmt | return_stmt | yield_stmt | raise_stmt
| import_stmt | import_name | import_from | import_as_name | dotted_as_name | import_as_names
| dotted_as_names | dotted_name | global_stmt | nonlocal_stmt | assert_stmt
| compound_stmt | async_stmt | if_stmt | while_stmt | for_stmt | try_stmt | with_stmt | with_item
| except_clause | except_star_clause | suite
| namedexpr_test | test | test_nocond | lambdef | lambdef_nocond | or_test | and_test | not_test
| comparison | comp_op | star_expr | expr | xor_expr | and_expr | shift_expr | arith_expr | term
| factor | power | atom_expr | atom | testlist_comp | trailer | subscriptlist | subscript | sliceop
| exprlist | testlist | dictorsetmaker | classdef | arglist | argument
| comp_iter | sync_comp_for | comp_for | comp_if | yield_expr | yield_arg
| func_body_suite | func_type_input | func_type | typelist.

Inductive ebnf :=
| T (k : kind)             (* a token *)
| R (r : rule)             (* a phrase of a rule *)
| Seq (es : list ebnf)     (* one after the other *)
| Alt (es : list ebnf)     (* e1 | e2 | … *)
| Opt (e : ebnf)           (* [e] *)
| Star (e : ebnf)          (* e* *)
| Plus (e : ebnf)          (* e+ *)
| But (k : kind) (e : ebnf).   (* e, beginning with a token other than k; not used for Python itself *)

(** [fits G e ks]: the tokens [ks] are a phrase of [e], for the rules [G]. *)
Inductive fits (G : rule -> ebnf) : ebnf -> list kind -> Prop :=
| fits_token k : fits G (T k) [k]
| fits_rule r ks : fits G (G r) ks -> fits G (R r) ks
| fits_nil : fits G (Seq []) []
| fits_cons e es ks1 ks2 : fits G e ks1 -> fits G (Seq es) ks2 -> fits G (Seq (e :: es)) (ks1 ++ ks2)
| fits_alt e es ks : In e es -> fits G e ks -> fits G (Alt es) ks
| fits_none e : fits G (Opt e) []
| fits_some e ks : fits G e ks -> fits G (Opt e) ks
| fits_end e : fits G (Star e) []
| fits_more e ks1 ks2 : fits G e ks1 -> fits G (Star e) ks2 -> fits G (Star e) (ks1 ++ ks2)
| fits_plus e ks1 ks2 : fits G e ks1 -> fits G (Star e) ks2 -> fits G (Plus e) (ks1 ++ ks2)
| fits_but k e k' ks : fits G e (k' :: ks) -> k' <> k -> fits G (But k e) (k' :: ks).

(** ** The rules *)
Declare Scope ebnf_scope.
Delimit Scope ebnf_scope with ebnf.
Coercion T : kind >-> ebnf.
Coercion R : rule >-> ebnf.
Notation "<< x , .. , y >>" := (Seq (@cons ebnf x .. (@cons ebnf y nil) ..)) : ebnf_scope.
Notation "'one_of' x , .. , y 'end_of'" := (Alt (@cons ebnf x .. (@cons ebnf y nil) ..)) (at level 0, x at level 99, y at level 99) : ebnf_scope.
Local Open Scope ebnf_scope.

(** (',' e)* *)
Definition comma_then (e : ebnf) : ebnf := Star << PyComa, e >>.

(** A parameter of a lambda, and the parameters after the plain ones:
    '*' [vfpdef] (',' vfpdef ['=' test])* [',' ['**' vfpdef [',']]] | '**' vfpdef [','] *)
Definition parameter : ebnf := << vfpdef, (Opt << PyAssign, test >>) >>.
Definition power_parameter : ebnf := << PyPower, vfpdef, (Opt PyComa) >>.
Definition star_parameters : ebnf :=
  one_of << PyMul, (Opt vfpdef), comma_then parameter, (Opt << PyComa, (Opt power_parameter) >>) >>,
         power_parameter end_of.
Definition plain_parameters : ebnf :=
  << parameter, comma_then parameter, (Opt << PyComa, (Opt star_parameters) >>) >>.

(** The same for functions. *)
Definition typed_parameter : ebnf := << tfpdef, (Opt << PyAssign, test >>) >>.
Definition power_typed : ebnf := << PyPower, tfpdef, (Opt PyComa) >>.
Definition star_typed : ebnf :=
  one_of << PyMul, (Opt tfpdef), comma_then typed_parameter, (Opt << PyComa, (Opt power_typed) >>) >>,
         power_typed end_of.
Definition plain_typed : ebnf :=
  << typed_parameter, comma_then typed_parameter, (Opt << PyComa, (Opt star_typed) >>) >>.

Definition star_types : ebnf :=
  one_of << PyMul, (Opt test), comma_then test, (Opt << PyComa, PyPower, test >>) >>,
         << PyPower, test >> end_of.

Definition else_suite : ebnf := << PyElse, PyColon, suite >>.
Definition finally_suite : ebnf := << PyFinally, PyColon, suite >>.
Definition element : ebnf := one_of namedexpr_test, star_expr end_of.
Definition target : ebnf := one_of expr, star_expr end_of.
Definition starred_test : ebnf := one_of test, star_expr end_of.
Definition entry : ebnf := one_of << test, PyColon, test >>, << PyPower, expr >> end_of.

Definition python (r : rule) : ebnf :=
  match r with
  (* single_input: NEWLINE | simple_stmt | compound_stmt NEWLINE *)
  | single_input => one_of T_Newline, simple_stmt, << compound_stmt, T_Newline >> end_of
  (* file_input: (NEWLINE | stmt)* ENDMARKER *)
  | file_input => << Star (one_of T_Newline, stmt end_of), T_EOF >>
  (* eval_input: testlist NEWLINE* ENDMARKER *)
  | eval_input => << testlist, Star T_Newline, T_EOF >>
  (* decorator: '@' dotted_name [ '(' [arglist] ')' ] NEWLINE *)
  | decorator => << PyMatrice, dotted_name, (Opt << PyLeftParen, (Opt arglist), PyRightParen >>), T_Newline >>
  | decorators => Plus decorator
  | decorated => << decorators, one_of classdef, funcdef, async_funcdef end_of >>
  | async_funcdef => << PyAsync, funcdef >>
  (* funcdef: 'def' NAME parameters ['->' test] ':' [TYPE_COMMENT] func_body_suite *)
  | funcdef => << PyDef, T_AtomName, parameters, (Opt << PyArrow, test >>), PyColon, (Opt T_TypeComment), func_body_suite >>
  | parameters => << PyLeftParen, (Opt typedargslist), PyRightParen >>
  | typedargslist =>
      one_of << typed_parameter, comma_then typed_parameter, PyComa, PyDiv,
                (Opt << PyComa, (Opt one_of plain_typed, star_typed end_of) >>) >>,
             plain_typed, star_typed end_of
  | tfpdef => << T_AtomName, (Opt << PyColon, test >>) >>
  | varargslist =>
      one_of << parameter, comma_then parameter, PyComa, PyDiv,
                (Opt << PyComa, (Opt one_of plain_parameters, star_parameters end_of) >>) >>,
             plain_parameters, star_parameters end_of
  | vfpdef => T_AtomName
  | stmt => one_of simple_stmt, compound_stmt end_of
  (* simple_stmt: small_stmt (';' small_stmt)* [';'] NEWLINE *)
  | simple_stmt => << small_stmt, Star << PySemiColon, small_stmt >>, (Opt PySemiColon), T_Newline >>
  | small_stmt => one_of expr_stmt, del_stmt, pass_stmt, flow_stmt, import_stmt, global_stmt, nonlocal_stmt, assert_stmt end_of
  (* expr_stmt: testlist_star_expr (annassign | augassign (yield_expr|testlist) |
     [('=' (yield_expr|testlist_star_expr))+ [TYPE_COMMENT]] ) *)
  | expr_stmt =>
      << testlist_star_expr,
         one_of annassign, << augassign, one_of yield_expr, testlist end_of >>,
                (Opt << Plus << PyAssign, one_of yield_expr, testlist_star_expr end_of >>, (Opt T_TypeComment) >>) end_of >>
  (* annassign: ':' test ['=' (yield_expr|testlist_star_expr)] *)
  | annassign => << PyColon, test, (Opt << PyAssign, one_of yield_expr, testlist_star_expr end_of >>) >>
  | testlist_star_expr => << starred_test, comma_then starred_test, (Opt PyComa) >>
  | augassign =>
      one_of PyPlusAssign, PyMinusAssign, PyMulAssign, PyMatriceAssign, PyDivAssign, PyModuloAssign, PyBitAndAssign,
             PyBitOrAssign, PyBitXorAssign, PyShiftLeftAssign, PyShiftRightAssign, PyPowerAssign, PyFloorDivAssign end_of
  | del_stmt => << PyDel, exprlist >>
  | pass_stmt => PyPass
  | flow_stmt => one_of break_stmt, continue_stmt, return_stmt, raise_stmt, yield_stmt end_of
  | break_stmt => PyBreak
  | continue_stmt => PyContinue
  | return_stmt => << PyReturn, (Opt testlist_star_expr) >>
  | yield_stmt => yield_expr
  | raise_stmt => << PyRaise, (Opt << test, (Opt << PyFrom, test >>) >>) >>
  | import_stmt => one_of import_name, import_from end_of
  | import_name => << PyImport, dotted_as_names >>
  (* import_from: 'from' (('.' | '...')* dotted_name | ('.' | '...')+)
     'import' ('*' | '(' import_as_names ')' | import_as_names) *)
  | import_from =>
      << PyFrom,
         one_of << Star (one_of PyDot, PyElipsis end_of), dotted_name >>, Plus (one_of PyDot, PyElipsis end_of) end_of,
         PyImport,
         one_of PyMul, << PyLeftParen, import_as_names, PyRightParen >>, import_as_names end_of >>
  | import_as_name => << T_AtomName, (Opt << PyAs, T_AtomName >>) >>
  | dotted_as_name => << dotted_name, (Opt << PyAs, T_AtomName >>) >>
  | import_as_names => << import_as_name, comma_then import_as_name, (Opt PyComa) >>
  | dotted_as_names => << dotted_as_name, comma_then dotted_as_name >>
  | dotted_name => << T_AtomName, Star << PyDot, T_AtomName >> >>
  | global_stmt => << PyGlobal, T_AtomName, comma_then T_AtomName >>
  | nonlocal_stmt => << PyNonLocal, T_AtomName, comma_then T_AtomName >>
  | assert_stmt => << PyAssert, test, (Opt << PyComa, test >>) >>
  | compound_stmt => one_of if_stmt, while_stmt, for_stmt, try_stmt, with_stmt, funcdef, classdef, decorated, async_stmt end_of
  | async_stmt => << PyAsync, one_of funcdef, with_stmt, for_stmt end_of >>
  | if_stmt => << PyIf, namedexpr_test, PyColon, suite, Star << PyElif, namedexpr_test, PyColon, suite >>, (Opt else_suite) >>
  | while_stmt => << PyWhile, namedexpr_test, PyColon, suite, (Opt else_suite) >>
  | for_stmt => << PyFor, exprlist, PyIn, testlist, PyColon, (Opt T_TypeComment), suite, (Opt else_suite) >>
  (* try_stmt: 'try' ':' suite ((except_clause ':' suite)+ ['else' ':' suite] ['finally' ':' suite] |
     'finally' ':' suite); since 3.11 all clauses may be except* clauses instead *)
  | try_stmt =>
      << PyTry, PyColon, suite,
         one_of << Plus << except_clause, PyColon, suite >>, (Opt else_suite), (Opt finally_suite) >>,
                << Plus << except_star_clause, PyColon, suite >>, (Opt else_suite), (Opt finally_suite) >>,
                finally_suite end_of >>
  (* with_stmt: 'with' with_item (',' with_item)* ':' [TYPE_COMMENT] suite;
     since 3.10 also 'with' '(' with_item (',' with_item)* [','] ')' ':' [TYPE_COMMENT] suite *)
  | with_stmt =>
      << PyWith,
         one_of << with_item, comma_then with_item >>,
                << PyLeftParen, with_item, comma_then with_item, (Opt PyComa), PyRightParen >> end_of,
         PyColon, (Opt T_TypeComment), suite >>
  | with_item => << test, (Opt << PyAs, expr >>) >>
  | except_clause => << PyExcept, (Opt << test, (Opt << PyAs, T_AtomName >>) >>) >>
  | except_star_clause => << PyExcept, PyMul, test, (Opt << PyAs, T_AtomName >>) >>
  | suite => one_of simple_stmt, << T_Newline, T_Indent, Plus stmt, T_Dedent >> end_of
  | namedexpr_test => << test, (Opt << PyColonAssign, test >>) >>
  | test => one_of << or_test, (Opt << PyIf, or_test, PyElse, test >>) >>, lambdef end_of
  | test_nocond => one_of or_test, lambdef_nocond end_of
  | lambdef => << PyLambda, (Opt varargslist), PyColon, test >>
  | lambdef_nocond => << PyLambda, (Opt varargslist), PyColon, test_nocond >>
  | or_test => << and_test, Star << PyOr, and_test >> >>
  | and_test => << not_test, Star << PyAnd, not_test >> >>
  | not_test => one_of << PyNot, not_test >>, comparison end_of
  | comparison => << expr, Star << comp_op, expr >> >>
  | comp_op =>
      one_of PyLess, PyGreater, PyEqual, PyGreaterEqual, PyLessEqual, PyNotEqual, PyIn, << PyNot, PyIn >>, PyIs,
             << PyIs, PyNot >> end_of
  | star_expr => << PyMul, expr >>
  | expr => << xor_expr, Star << PyBitOr, xor_expr >> >>
  | xor_expr => << and_expr, Star << PyBitXor, and_expr >> >>
  | and_expr => << shift_expr, Star << PyBitAnd, shift_expr >> >>
  | shift_expr => << arith_expr, Star << one_of PyShiftLeft, PyShiftRight end_of, arith_expr >> >>
  | arith_expr => << term, Star << one_of PyPlus, PyMinus end_of, term >> >>
  | term => << factor, Star << one_of PyMul, PyMatrice, PyDiv, PyModulo, PyFloorDiv end_of, factor >> >>
  | factor => one_of << one_of PyPlus, PyMinus, PyBitInvert end_of, factor >>, power end_of
  | power => << atom_expr, (Opt << PyPower, factor >>) >>
  | atom_expr => << (Opt PyAwait), atom, Star trailer >>
  | atom =>
      one_of << PyLeftParen, (Opt one_of yield_expr, testlist_comp end_of), PyRightParen >>,
             << PyLeftBracket, (Opt testlist_comp), PyRightBracket >>,
             << PyLeftCurly, (Opt dictorsetmaker), PyRightCurly >>,
             T_AtomName, T_AtomNumber, Plus T_AtomString, PyElipsis, PyNone, PyTrue, PyFalse end_of
  | testlist_comp => << element, one_of comp_for, << comma_then element, (Opt PyComa) >> end_of >>
  | trailer =>
      one_of << PyLeftParen, (Opt arglist), PyRightParen >>, << PyLeftBracket, subscriptlist, PyRightBracket >>,
             << PyDot, T_AtomName >> end_of
  | subscriptlist => << subscript, comma_then subscript, (Opt PyComa) >>
  | subscript => one_of test, << (Opt test), PyColon, (Opt test), (Opt sliceop) >> end_of
  | sliceop => << PyColon, (Opt test) >>
  | exprlist => << target, comma_then target, (Opt PyComa) >>
  | testlist => << test, comma_then test, (Opt PyComa) >>
  (* dictorsetmaker: ((test ':' test | '**' expr) (comp_for | (',' (test ':' test | '**' expr))* [','])) |
     ((test | star_expr) (comp_for | (',' (test | star_expr))* [','])) *)
  | dictorsetmaker =>
      one_of << entry, one_of comp_for, << comma_then entry, (Opt PyComa) >> end_of >>,
             << starred_test, one_of comp_for, << comma_then starred_test, (Opt PyComa) >> end_of >> end_of
  | classdef => << PyClass, T_AtomName, (Opt << PyLeftParen, (Opt arglist), PyRightParen >>), PyColon, suite >>
  | arglist => << argument, comma_then argument, (Opt PyComa) >>
  | argument =>
      one_of << test, (Opt comp_for) >>, << test, PyColonAssign, test >>, << test, PyAssign, test >>,
             << PyPower, test >>, << PyMul, test >> end_of
  | comp_iter => one_of comp_for, comp_if end_of
  | sync_comp_for => << PyFor, exprlist, PyIn, or_test, (Opt comp_iter) >>
  | comp_for => << (Opt PyAsync), sync_comp_for >>
  | comp_if => << PyIf, test_nocond, (Opt comp_iter) >>
  | yield_expr => << PyYield, (Opt yield_arg) >>
  | yield_arg => one_of << PyFrom, test >>, testlist_star_expr end_of
  | func_body_suite =>
      one_of simple_stmt, << T_Newline, (Opt << T_TypeComment, T_Newline >>), T_Indent, Plus stmt, T_Dedent >> end_of
  | func_type_input => << func_type, Star T_Newline, T_EOF >>
  | func_type => << PyLeftParen, (Opt typelist), PyRightParen, PyArrow, test >>
  (* typelist: test (',' test)* [',' ['*' [test] (',' test)* [',' '**' test] | '**' test]]
     | '*' [test] (',' test)* [',' '**' test] | '**' test *)
  | typelist => one_of << test, comma_then test, (Opt << PyComa, (Opt star_types) >>) >>, star_types end_of
  end.

(** A sentence of Python: [r] is single_input, file_input, eval_input or func_type_input. *)
Definition sentence (r : rule) (ks : list kind) : Prop := fits python r ks.
