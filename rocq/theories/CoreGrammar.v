(** The part of Python the parser can be relied on to accept: the rules of Python (PythonGrammar.v) with some alternatives
    left out, as remarked.  Not modelled code. *)
From Coq Require Import List.
From Verif Require Import Chars Token PythonGrammar.
Import ListNotations.
Local Open Scope ebnf_scope.

Definition core_param : ebnf := << T_AtomName, (Opt << PyAssign, test >>) >>.
Definition core_params : ebnf := << core_param, comma_then core_param >>.
Definition core_power : ebnf := << PyPower, T_AtomName, (Opt PyComa) >>.
Definition core_stars : ebnf := one_of << PyMul, T_AtomName, comma_then core_param, (Opt << PyComa, core_power >>) >>, core_power end_of.
Definition core_types : ebnf := one_of << PyMul, test, comma_then test, (Opt << PyComa, PyPower, test >>) >>, << PyPower, test >> end_of.
Definition core_tests : ebnf := << test, comma_then test >>.
Definition core_testlist : ebnf := << test, comma_then test, (Opt PyComa) >>.
Definition core_base : ebnf := one_of T_AtomName, << T_AtomName, PyAssign, test >> end_of.
Definition core_bases : ebnf := << core_base, comma_then core_base >>.
Definition core_base_stars : ebnf :=
  one_of << PyMul, T_AtomName, comma_then core_base, (Opt << PyComa, PyPower, T_AtomName >>) >>, << PyPower, T_AtomName >> end_of.
Definition core_value : ebnf := one_of yield_expr, core_tests end_of.

Definition core (r : rule) : ebnf :=
  match r with
  (* no parameters of functions *)
  | parameters => << PyLeftParen, PyRightParen >>
  (* a name after '*', no trailing comma but after '**' *)
  | varargslist =>
      one_of << core_params, PyComa, PyDiv, (Opt one_of << PyComa, core_params, (Opt << PyComa, core_stars >>) >>, << PyComa, core_stars >> end_of) >>,
             << core_params, (Opt << PyComa, core_stars >>) >>, core_stars end_of
  (* no starred values; a trailing comma only of the last value *)
  | expr_stmt =>
      << testlist_star_expr,
         one_of annassign, << augassign, one_of yield_expr, testlist end_of >>,
                (Opt << Star << PyAssign, core_value >>, PyAssign,
                        one_of yield_expr, core_testlist, << core_value, T_TypeComment >> end_of >>) end_of >>
  | annassign => << PyColon, test, (Opt << PyAssign, one_of yield_expr, core_testlist end_of >>) >>
  (* no trailing comma *)
  | del_stmt => << PyDel, target, comma_then target >>
  (* no import *)
  | import_stmt => import_from
  | import_as_names => << import_as_name, comma_then import_as_name >>
  (* no message *)
  | assert_stmt => << PyAssert, test >>
  (* no decorators, no async def *)
  | compound_stmt => one_of if_stmt, while_stmt, for_stmt, try_stmt, with_stmt, funcdef, classdef, async_stmt end_of
  | async_stmt => << PyAsync, one_of with_stmt, for_stmt end_of >>
  (* no ':=' in conditions *)
  | if_stmt => << PyIf, test, PyColon, suite, Star << PyElif, test, PyColon, suite >>, (Opt else_suite) >>
  | while_stmt => << PyWhile, test, PyColon, suite, (Opt else_suite) >>
  (* no trailing comma in the list *)
  | for_stmt => << PyFor, exprlist, PyIn, core_tests, PyColon, (Opt T_TypeComment), suite, (Opt else_suite) >>
  (* the targets of for end with a comma or a starred one *)
  | exprlist => one_of << target, comma_then target, PyComa >>, << Star << target, PyComa >>, star_expr >> end_of
  (* no except* *)
  | try_stmt =>
      << PyTry, PyColon, suite,
         one_of << Plus << except_clause, PyColon, suite >>, (Opt else_suite), (Opt finally_suite) >>, finally_suite end_of >>
  (* no type comment; the first item begins with '(' only if all are in parentheses *)
  | with_stmt =>
      << PyWith,
         one_of << But PyLeftParen with_item, comma_then with_item >>,
                << PyLeftParen, with_item, comma_then with_item, (Opt PyComa), PyRightParen >> end_of,
         PyColon, suite >>
  | lambdef_nocond => << PyLambda, (Opt varargslist), PyColon, or_test >>
  (* no '{' '}' *)
  | atom =>
      one_of << PyLeftParen, (Opt one_of yield_expr, testlist_comp end_of), PyRightParen >>,
             << PyLeftBracket, (Opt testlist_comp), PyRightBracket >>,
             << PyLeftCurly, dictorsetmaker, PyRightCurly >>,
             T_AtomName, T_AtomNumber, Plus T_AtomString, PyElipsis, PyNone, PyTrue, PyFalse end_of
  (* no trailing commas *)
  | testlist_comp => << element, one_of comp_for, comma_then element end_of >>
  (* no keyword, starred or generator arguments *)
  | arglist => core_tests
  (* slices have three parts, the third one is given unless at the end *)
  | subscriptlist =>
      one_of << subscript, comma_then subscript >>,
             << Star << subscript, PyComa >>, (Opt test), PyColon, (Opt test), PyColon >> end_of
  | subscript => one_of test, << (Opt test), PyColon, (Opt test), PyColon, test >> end_of
  (* one or two entries, no comprehensions *)
  | dictorsetmaker =>
      one_of << entry, (Opt PyComa) >>, << entry, PyComa, entry >>, << starred_test, comma_then starred_test, (Opt PyComa) >> end_of
  (* names, keyword arguments and starred names for bases *)
  | classdef => << PyClass, T_AtomName, (Opt << PyLeftParen, (Opt one_of << core_bases, (Opt << PyComa, core_base_stars >>) >>, core_base_stars end_of), PyRightParen >>), PyColon, suite >>
  (* yield not alone, no trailing comma *)
  | yield_stmt | yield_expr => << PyYield, one_of << PyFrom, test >>, << starred_test, comma_then starred_test >> end_of >>
  | typelist => one_of << core_tests, (Opt << PyComa, core_types >>) >>, core_types end_of
  | single_input => simple_stmt
  (* not in use *)
  | decorator | decorators | decorated | async_funcdef | typedargslist | tfpdef | vfpdef | import_name | dotted_as_name
  | dotted_as_names | except_star_clause | argument | yield_arg | sliceop => Alt []
  (* as in Python *)
  | r => python r
  end.
