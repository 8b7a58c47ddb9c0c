(** /repo/src/parser/parser.rs, and the error/state monad the parser functions are written in. *)
From Verif Require Import Chars SourceBuffer Token Tokenizer Node.

(** parser.rs 5, enum ET *)
Inductive except_status := ExceptNone | ExceptMul | Except.

(** parser.rs 7-11, struct PythonCoreParser; [symbol : Result<Box<Token>, String>]. *)
Record parser := mk_parser
  { ps_lexer : lexer; ps_symbol : token + err; ps_except : except_status }.

(** parser.rs 20-26 *)
Definition parser_new (l : lexer) : parser :=
  mk_parser l (inr (EMsg "Token not advanced yet! ")) ExceptNone.

(** Outcome of a parser function: [Ok]/[Err] are Rust's Result (the state after an error is
    dropped: no function in the code resumes after one, errors are only propagated);
    [Panic] is [todo!()]; [Fuel] means the recursion has not returned within the fuel. *)
Inductive outcome (A : Type) :=
| Ok (a : A) (s : parser)
| Err (e : err)
| Panic
| Fuel.
Arguments Ok {A} a s.
Arguments Err {A} e.
Arguments Panic {A}.
Arguments Fuel {A}.

Definition M (A : Type) := parser -> outcome A.

Definition ret {A} (a : A) : M A := fun s => Ok a s.

(** Sequencing, including Rust's [?]. *)
Definition bind {A B} (m : M A) (f : A -> M B) : M B := fun s =>
  match m s with
  | Ok a s' => f a s'
  | Err e => Err e
  | Panic => Panic
  | Fuel => Fuel
  end.

Notation "'do' x <- m ; k" := (bind m (fun x => k))
  (at level 200, x pattern, m at level 100, k at level 200, right associativity).
Notation "m ;; k" := (bind m (fun _ => k)) (at level 199, right associativity).

(** [Err(format!(msg, pos))] *)
Definition fail {A} (msg : String.string) (pos : nat) : M A := fun _ => Err (EAt msg pos).

(** [self.lexer.get_position()] *)
Definition position : M nat := fun s => Ok (lexer_get_position (ps_lexer s)) s.

(** [Err(format!(msg, self.lexer.get_position()))] *)
Definition fail_here {A} (msg : String.string) : M A := do p <- position; fail msg p.

(** [match self.symbol { Ok(s) => k s, _ => e }] *)
Definition on_symbol {A} (e : M A) (k : token -> M A) : M A := fun s =>
  match ps_symbol s with
  | inl t => k t s
  | inr _ => e s
  end.

(** parser.rs 28-30 *)
Definition advance (U : unicode) : M unit := fun s =>
  match get_symbol U (ps_lexer s) with
  | LOk t l => Ok tt (mk_parser l (inl t) (ps_except s))
  | LErr e l => Ok tt (mk_parser l (inr e) (ps_except s))
  | LFuel => Fuel
  end.

(** [match self.symbol { Ok(s) => match *s { k => { advance; s } , _ => Err(e2) }, _ => Err(e1) }],
    both errors carrying the position [pos]. *)
Definition expect (U : unicode) (k : kind) (pos : nat) (e1 e2 : String.string) : M token :=
  on_symbol (fail e1 pos) (fun s => if is k s then advance U;; ret s else fail e2 pos).

Definition get_except : M except_status := fun s => Ok (ps_except s) s.
Definition set_except (x : except_status) : M unit := fun s =>
  Ok tt (mk_parser (ps_lexer s) (ps_symbol s) x).

(** [todo!()] *)
Definition panic {A} : M A := fun _ => Panic.

(** [while step {}] : the step returns whether to go round again and the updated locals. *)
Fixpoint while_ (fuel : nat) {A} (step : A -> M (bool * A)) (a : A) : M A :=
  match fuel with
  | O => fun _ => Fuel
  | S fuel' => do (again, a') <- step a; if again : bool then while_ fuel' step a' else ret a'
  end.

(** The parser functions, by name; arguments as in the Rust signatures. *)
Inductive fn :=
(* expressions.rs *)
| F_atom | F_atom_expr | F_power | F_factor | F_term | F_arith | F_shift | F_and_expr
| F_xor_expr | F_expr | F_star_expr | F_comparison | F_not_test | F_and_test | F_or_test
| F_lambda_def (cond : bool) | F_no_cond_test | F_test | F_named_expression | F_testlist_comp
| F_trailer | F_subscript_list | F_subscript | F_exprlist | F_testlist | F_dictorset_maker
| F_arglist | F_argument | F_comp_iter | F_sync_comp_for | F_comp_for | F_comp_if
| F_yield_expr | F_testlist_star_expr | F_var_args_list | F_var_args_assignments | F_vfp_def
(* statements.rs *)
| F_stmt | F_simple_stmt | F_small_stmt | F_expr_stmt | F_ann_assign (start_pos : nat) (left_node : node)
| F_del_stmt | F_pass_stmt | F_flow_stmt | F_break_stmt | F_continue_stmt | F_return_stmt
| F_yield_stmt | F_raise_stmt | F_import_stmt | F_import_name | F_import_from
| F_import_as_name | F_dotted_as_name | F_import_as_names | F_dotted_as_names | F_dotted_name
| F_global_stmt | F_nonlocal_stmt | F_assert_stmt | F_compound_stmt | F_async_stmt | F_if_stmt
| F_elif_stmt | F_else_stmt | F_while_stmt | F_for_stmt | F_try_stmt | F_finally_stmt
| F_with_stmt | F_with_item | F_except_stmt | F_except_clause | F_suite
(* patterns.rs *)
| F_match
(* blocks.rs *)
| F_eval_input | F_file_input | F_single_input | F_func_type_input | F_decorator | F_decorators
| F_decorated | F_async_func_def | F_func_def | F_parameters | F_typed_args_list
| F_tfp_def_assign | F_tfp_def | F_func_body_suite | F_class_def
(* functions.rs *)
| F_func_type | F_type_list.
