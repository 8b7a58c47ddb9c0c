(** Everything the parser accepts is a phrase of the grammar, and the tree it returns is the tree of
    the phrase. *)
From Coq Require Import List Arith Lia.
From Verif Require Import Chars SourceBuffer Token Tokenizer Node ParserState Expressions Statements Blocks Parser
  GrammarSpec ParseBasics SoundBasics SoundExpr SoundStmt SoundBlocks.
Import ListNotations.

Lemma body_sound : forall U n rec, good U rec -> good U (body U n rec).
Proof.
  intros U n rec IH f s x s' H. unfold sound.
  destruct f; cbn [sort_of body] in *;
    solve [eapply sound_atom; eassumption | eapply sound_atom_expr; eassumption | eapply sound_power; eassumption
    | eapply sound_factor; eassumption | eapply sound_term; eassumption | eapply sound_arith; eassumption
    | eapply sound_shift; eassumption | eapply sound_and_expr; eassumption | eapply sound_xor_expr; eassumption
    | eapply sound_expr; eassumption | eapply sound_star_expr; eassumption | eapply sound_comparison; eassumption
    | eapply sound_not_test; eassumption | eapply sound_and_test; eassumption | eapply sound_or_test; eassumption
    | eapply sound_lambda_def; eassumption | eapply sound_no_cond_test; eassumption | eapply sound_test; eassumption
    | eapply sound_named_expression; eassumption | eapply sound_testlist_comp; eassumption | eapply sound_trailer; eassumption
    | eapply sound_subscript_list; eassumption | eapply sound_subscript; eassumption | eapply sound_exprlist; eassumption
    | eapply sound_testlist; eassumption | eapply sound_dictorset_maker; eassumption | eapply sound_arglist; eassumption
    | eapply sound_argument; eassumption | eapply sound_comp_iter; eassumption | eapply sound_sync_comp_for; eassumption
    | eapply sound_comp_for; eassumption | eapply sound_comp_if; eassumption | eapply sound_yield_expr; eassumption
    | eapply sound_testlist_star_expr; eassumption | eapply sound_var_args_list; eassumption
    | eapply sound_var_args_assignments; eassumption | eapply sound_vfp_def; eassumption
    | eapply sound_stmt; eassumption | eapply sound_simple_stmt; eassumption | eapply sound_small_stmt; eassumption
    | eapply sound_expr_stmt; eassumption | eapply sound_ann_assign; eassumption | eapply sound_del_stmt; eassumption
    | eapply sound_pass_stmt; eassumption | eapply sound_flow_stmt; eassumption | eapply sound_break_stmt; eassumption
    | eapply sound_continue_stmt; eassumption | eapply sound_return_stmt; eassumption | eapply sound_yield_stmt; eassumption
    | eapply sound_raise_stmt; eassumption | eapply sound_import_stmt; eassumption | eapply sound_import_name; eassumption
    | eapply sound_import_from; eassumption | eapply sound_import_as_name; eassumption | eapply sound_dotted_as_name; eassumption
    | eapply sound_import_as_names; eassumption | eapply sound_dotted_as_names; eassumption | eapply sound_dotted_name; eassumption
    | eapply sound_global_stmt; eassumption | eapply sound_nonlocal_stmt; eassumption | eapply sound_assert_stmt; eassumption
    | eapply sound_compound_stmt; eassumption | eapply sound_async_stmt; eassumption | eapply sound_if_stmt; eassumption
    | eapply sound_elif_stmt; eassumption | eapply sound_else_stmt; eassumption | eapply sound_while_stmt; eassumption
    | eapply sound_for_stmt; eassumption | eapply sound_try_stmt; eassumption | eapply sound_finally_stmt; eassumption
    | eapply sound_with_stmt; eassumption | eapply sound_with_item; eassumption | eapply sound_except_stmt; eassumption
    | eapply sound_except_clause; eassumption | eapply sound_suite; eassumption
    | eapply sound_eval_input; eassumption | eapply sound_file_input; eassumption | eapply sound_single_input; eassumption
    | eapply sound_func_type_input; eassumption | eapply sound_decorator; eassumption | eapply sound_decorators; eassumption
    | eapply sound_decorated; eassumption | eapply sound_async_func_def; eassumption | eapply sound_func_def; eassumption
    | eapply sound_parameters; eassumption | eapply sound_typed_args_list; eassumption | eapply sound_tfp_def_assign; eassumption
    | eapply sound_tfp_def; eassumption | eapply sound_func_body_suite; eassumption | eapply sound_class_def; eassumption
    | eapply sound_func_type; eassumption | eapply sound_type_list; eassumption
    | discriminate].
Qed.

Theorem run_sound : forall U fuel f s x s', run U fuel f s = Ok x s' -> sound U f s x s'.
Proof.
  intros U fuel. induction fuel as [|n IHn]; intros f s x s' H; [discriminate|].
  cbn [run] in H. exact (body_sound U n (run U n) IHn f s x s' H).
Qed.
