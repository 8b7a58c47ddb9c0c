(** Where the parser is known to accept more than the grammar of Python: the nodes that show it.
    Not modelled code. *)
From Coq Require Import List.
From Verif Require Import Chars Token Node NodeView ParserState SchemaSpec PythonGrammar.
Import ListNotations.
Local Open Scope ebnf_scope.

(** A target of [for] or [del]: an operand of a comparison, or '*' and one. *)
Definition tight (x : node) : Prop := is_star x \/ expression 6 x.
(** A single target, or a list of them (which is looked at itself). *)
Definition tight_list (x : node) : Prop :=
  match x with ExprList _ _ xs _ => Forall tight xs | _ => tight x end.
(** A parameter without a default value. *)
Definition no_default (o : option node) : Prop := match o with Some x => is_name x | None => True end.
(** A subscript without a colon. *)
Definition no_slice (x : node) : Prop := match x with Subscript _ _ _ None _ _ _ => True | _ => False end.
(** The handlers of a try statement: except clauses, except* clauses. *)
Definition plain_handler (x : node) : Prop :=
  match x with ExceptStmt _ _ (ExceptClauseStmt _ _ _ None _) _ _ => True | _ => False end.
Definition star_handler (x : node) : Prop :=
  match x with ExceptStmt _ _ (ExceptClauseStmt _ _ _ (Some _) (Some _)) _ _ => True | _ => False end.

(** [decent x]: at its root, [x] is as the grammar of Python has it. *)
Definition decent (x : node) : Prop :=
  match x with
  (* the token between the second and the third part of a slice is a colon *)
  | Subscript _ _ _ _ _ (Some u) _ => tk_kind u = PyColon
  (* no slices as arguments *)
  | CallTrailer _ _ _ (Some (SubscriptList _ _ xs _)) _ => Forall no_slice xs
  (* targets *)
  | DelStmt _ _ _ a => tight_list a
  | ForStmt _ _ _ a _ _ _ _ _ _ => tight_list a
  | SyncCompForComprehension _ _ _ a _ _ _ => tight_list a
  (* no default value after '*' and '**' *)
  | VarArgsList _ _ _ _ _ m _ w _ => no_default m /\ no_default w
  (* no '/' between the bases of a class *)
  | ClassDef _ _ _ _ _ (Some (VarArgsList _ _ _ _ _ _ _ _ (Some _))) _ _ _ => False
  (* no assert with 'from' *)
  | AssertStmt _ _ _ _ (Some _) => False
  (* no function without a parameter list *)
  | FuncDef _ _ _ _ None _ _ _ _ => False
  (* except or except*, not both, and an exception after except* *)
  | TryStmt _ _ _ _ _ (Some xs) _ _ => Forall plain_handler xs \/ Forall star_handler xs
  | _ => True
  end.

Definition regular (x : node) : Prop := Forall decent (subnodes x).

(** What the grammar of Python calls the phrases read by a function of the parser.  No entry: the functions for targets (which
    take more), for except clauses (of two kinds), for lambda (the caller sees the keyword) and for decorators (the newline
    is not read); the stub for parameter lists and the inputs. *)
Definition main (f : fn) : option ebnf :=
  match f with
  | F_atom => Some (R atom) | F_atom_expr => Some (R atom_expr) | F_power => Some (R power) | F_factor => Some (R factor)
  | F_term => Some (R term) | F_arith => Some (R arith_expr) | F_shift => Some (R shift_expr) | F_and_expr => Some (R and_expr)
  | F_xor_expr => Some (R xor_expr) | F_expr => Some (R expr) | F_star_expr => Some (R star_expr)
  | F_comparison => Some (R comparison) | F_not_test => Some (R not_test) | F_and_test => Some (R and_test)
  | F_or_test => Some (R or_test) | F_no_cond_test => Some (R test_nocond) | F_test => Some (R test)
  | F_named_expression => Some (R namedexpr_test) | F_testlist_comp => Some (R testlist_comp) | F_trailer => Some (R trailer)
  | F_subscript_list => Some (R subscriptlist) | F_subscript => Some (R subscript) | F_testlist => Some (R testlist)
  | F_dictorset_maker => Some (R dictorsetmaker) | F_arglist => Some (R arglist) | F_argument => Some (R argument)
  | F_comp_iter => Some (R comp_iter) | F_sync_comp_for => Some (R sync_comp_for) | F_comp_for => Some (R comp_for)
  | F_comp_if => Some (R comp_if) | F_yield_expr => Some (R yield_expr) | F_testlist_star_expr => Some (R testlist_star_expr)
  | F_var_args_list => Some (R varargslist) | F_var_args_assignments => Some parameter | F_vfp_def => Some (R vfpdef)
  | F_stmt => Some (R stmt) | F_simple_stmt => Some (R simple_stmt) | F_small_stmt => Some (R small_stmt)
  | F_expr_stmt => Some (R expr_stmt) | F_ann_assign _ _ => Some (R annassign) | F_del_stmt => Some (R del_stmt)
  | F_pass_stmt => Some (R pass_stmt) | F_flow_stmt => Some (R flow_stmt) | F_break_stmt => Some (R break_stmt)
  | F_continue_stmt => Some (R continue_stmt) | F_return_stmt => Some (R return_stmt) | F_yield_stmt => Some (R yield_stmt)
  | F_raise_stmt => Some (R raise_stmt) | F_import_stmt => Some (R import_stmt) | F_import_name => Some (R import_name)
  | F_import_from => Some (R import_from) | F_import_as_name => Some (R import_as_name) | F_dotted_as_name => Some (R dotted_as_name)
  | F_import_as_names => Some (R import_as_names) | F_dotted_as_names => Some (R dotted_as_names)
  | F_dotted_name => Some (R dotted_name) | F_global_stmt => Some (R global_stmt) | F_nonlocal_stmt => Some (R nonlocal_stmt)
  | F_assert_stmt => Some (R assert_stmt) | F_compound_stmt => Some (R compound_stmt) | F_async_stmt => Some (R async_stmt)
  | F_if_stmt => Some (R if_stmt) | F_elif_stmt => Some << PyElif, namedexpr_test, PyColon, suite >>
  | F_else_stmt => Some else_suite | F_while_stmt => Some (R while_stmt) | F_for_stmt => Some (R for_stmt)
  | F_try_stmt => Some (R try_stmt) | F_finally_stmt => Some finally_suite | F_with_stmt => Some (R with_stmt)
  | F_with_item => Some (R with_item) | F_suite => Some (R suite) | F_decorated => Some (R decorated)
  | F_async_func_def => Some (R async_funcdef) | F_func_def => Some (R funcdef) | F_parameters => Some (R parameters)
  | F_tfp_def => Some (R tfpdef) | F_tfp_def_assign => Some typed_parameter | F_func_body_suite => Some (R func_body_suite)
  | F_class_def => Some (R classdef) | F_func_type => Some (R func_type) | F_type_list => Some (R typelist)
  | F_exprlist | F_lambda_def _ | F_except_stmt | F_except_clause | F_decorator | F_decorators | F_typed_args_list
  | F_match | F_eval_input | F_file_input | F_single_input | F_func_type_input => None
  end.


(** The inputs read to their end, and their rules. *)
Definition whole_input (f : fn) (r : rule) : Prop :=
  f = F_file_input /\ r = file_input \/ f = F_eval_input /\ r = eval_input \/ f = F_func_type_input /\ r = func_type_input.
