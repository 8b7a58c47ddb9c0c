(** The parser with a meter (C67): Parser.v over the monad of Meter.v. *)
From Verif Require Import Chars SourceBuffer Token Tokenizer Node ParserState Meter
  MeterExpr MeterStmt MeterBlocks.

Section MeterParser.
Variable U : unicode.

(** dispatch from names to the functions of expressions.rs, statements.rs, patterns.rs,
    blocks.rs, functions.rs *)
Definition metered_body (n : nat) (rec : fn -> M node) (f : fn) : M node :=
  match f with
  | F_atom => p_atom U n rec
  | F_atom_expr => p_atom_expr U n rec
  | F_power => p_power U rec
  | F_factor => p_factor U rec
  | F_term => p_term U n rec
  | F_arith => p_arith U n rec
  | F_shift => p_shift U n rec
  | F_and_expr => p_and_expr U n rec
  | F_xor_expr => p_xor_expr U n rec
  | F_expr => p_expr U n rec
  | F_star_expr => p_star_expr U rec
  | F_comparison => p_comparison U n rec
  | F_not_test => p_not_test U rec
  | F_and_test => p_and_test U n rec
  | F_or_test => p_or_test U n rec
  | F_lambda_def cond => p_lambda_def U rec cond
  | F_no_cond_test => p_no_cond_test rec
  | F_test => p_test U rec
  | F_named_expression => p_named_expression U rec
  | F_testlist_comp => p_testlist_comp U n rec
  | F_trailer => p_trailer U rec
  | F_subscript_list => p_subscript_list U n rec
  | F_subscript => p_subscript U rec
  | F_exprlist => p_exprlist U n rec
  | F_testlist => p_testlist U n rec
  | F_dictorset_maker => p_dictorset_maker U n rec
  | F_arglist => p_arglist U n rec
  | F_argument => p_argument U rec
  | F_comp_iter => p_comp_iter rec
  | F_sync_comp_for => p_sync_comp_for U rec
  | F_comp_for => p_comp_for U rec
  | F_comp_if => p_comp_if U rec
  | F_yield_expr => p_yield_expr U rec
  | F_testlist_star_expr => p_testlist_star_expr U n rec
  | F_var_args_list => p_var_args_list U n rec
  | F_var_args_assignments => p_var_args_assignments U rec
  | F_vfp_def => p_vfp_def U
  | F_stmt => p_stmt rec
  | F_simple_stmt => p_simple_stmt U n rec
  | F_small_stmt => p_small_stmt rec
  | F_expr_stmt => p_expr_stmt U n rec
  | F_ann_assign start_pos left_node => p_ann_assign U rec start_pos left_node
  | F_del_stmt => p_del_stmt U rec
  | F_pass_stmt => p_pass_stmt U
  | F_flow_stmt => p_flow_stmt rec
  | F_break_stmt => p_break_stmt U
  | F_continue_stmt => p_continue_stmt U
  | F_return_stmt => p_return_stmt U rec
  | F_yield_stmt => p_yield_stmt rec
  | F_raise_stmt => p_raise_stmt U rec
  | F_import_stmt => p_import_stmt rec
  | F_import_name => p_import_name U rec
  | F_import_from => p_import_from U n rec
  | F_import_as_name => p_import_as_name U
  | F_dotted_as_name => p_dotted_as_name U rec
  | F_import_as_names => p_import_as_names U n rec
  | F_dotted_as_names => p_dotted_as_names U n rec
  | F_dotted_name => p_dotted_name U n
  | F_global_stmt => p_global_stmt U n
  | F_nonlocal_stmt => p_nonlocal_stmt U n
  | F_assert_stmt => p_assert_stmt U rec
  | F_compound_stmt => p_compound_stmt rec
  | F_async_stmt => p_async_stmt U rec
  | F_if_stmt => p_if_stmt U n rec
  | F_elif_stmt => p_elif_stmt U rec
  | F_else_stmt => p_else_stmt U rec
  | F_while_stmt => p_while_stmt U rec
  | F_for_stmt => p_for_stmt U rec
  | F_try_stmt => p_try_stmt U n rec
  | F_finally_stmt => p_finally_stmt U rec
  | F_with_stmt => p_with_stmt U n rec
  | F_with_item => p_with_item U rec
  | F_except_stmt => p_except_stmt U rec
  | F_except_clause => p_except_clause U rec
  | F_suite => p_suite U n rec
  | F_match => p_match
  | F_eval_input => p_eval_input U n rec
  | F_file_input => p_file_input U n rec
  | F_single_input => p_single_input U rec
  | F_func_type_input => p_func_type_input U n rec
  | F_decorator => p_decorator U rec
  | F_decorators => p_decorators n rec
  | F_decorated => p_decorated rec
  | F_async_func_def => p_async_func_def U rec
  | F_func_def => p_func_def U rec
  | F_parameters => p_parameters U rec
  | F_typed_args_list => p_typed_args_list
  | F_tfp_def_assign => p_tfp_def_assign U rec
  | F_tfp_def => p_tfp_def U rec
  | F_func_body_suite => p_func_body_suite U n rec
  | F_class_def => p_class_def U rec
  | F_func_type => p_func_type U rec
  | F_type_list => p_type_list U n rec
  end.

(** Every call is a step. *)
Fixpoint run_metered (fuel : nat) (f : fn) : M node :=
  match fuel with
  | O => plainly (fun _ => Fuel)
  | S n => fun s c => metered_body n (run_metered n) f s (a_step c)
  end.

End MeterParser.
