(** The first token of a phrase. *)
From Coq Require Import List Arith Lia.
From Verif Require Import Chars SourceBuffer Token Tokenizer Node ParserState GrammarSpec ParseBasics.
Import ListNotations.

Definition first_atom : list kind :=
  [PyElipsis; PyFalse; PyNone; PyTrue; T_AtomName; T_AtomNumber; T_AtomString; PyLeftParen; PyLeftBracket; PyLeftCurly].
Definition first_atom_expr : list kind := PyAwait :: first_atom.
Definition first_factor : list kind := [PyPlus; PyMinus; PyBitInvert] ++ first_atom_expr.
Definition first_not : list kind := PyNot :: first_factor.
Definition first_test : list kind := PyLambda :: first_not.
Definition first_star : list kind := PyMul :: first_test.
Definition first_small : list kind :=
  [PyDel; PyPass; PyBreak; PyContinue; PyReturn; PyRaise; PyYield; PyFrom; PyGlobal; PyNonLocal; PyAssert] ++ first_star.
Definition first_compound : list kind :=
  [PyIf; PyWhile; PyFor; PyTry; PyWith; PyDef; PyClass; PyMatrice; PyAsync].

Definition firsts (f : fn) : list kind :=
  match f with
  | F_atom => first_atom
  | F_atom_expr | F_power => first_atom_expr
  | F_factor | F_term | F_arith | F_shift | F_and_expr | F_xor_expr | F_expr | F_comparison => first_factor
  | F_not_test | F_and_test | F_or_test => first_not
  | F_star_expr => [PyMul]
  | F_no_cond_test | F_test | F_named_expression | F_testlist | F_with_item => first_test
  | F_testlist_comp | F_exprlist | F_testlist_star_expr | F_expr_stmt => first_star
  | F_trailer => [PyLeftParen; PyLeftBracket; PyDot]
  | F_subscript_list | F_subscript => PyColon :: first_test
  | F_dictorset_maker | F_arglist | F_argument | F_type_list => [PyMul; PyPower] ++ first_test
  | F_comp_iter => [PyFor; PyAsync; PyIf]
  | F_sync_comp_for => [PyFor]
  | F_comp_for => [PyFor; PyAsync]
  | F_comp_if => [PyIf]
  | F_yield_expr | F_yield_stmt => [PyYield]
  | F_var_args_list => [PyMul; PyPower; T_AtomName]
  | F_var_args_assignments | F_vfp_def | F_tfp_def | F_tfp_def_assign | F_import_as_name | F_dotted_as_name
  | F_import_as_names | F_dotted_as_names | F_dotted_name => [T_AtomName]
  | F_simple_stmt | F_small_stmt => first_small
  | F_ann_assign _ _ => [PyColon]
  | F_del_stmt => [PyDel]
  | F_pass_stmt => [PyPass]
  | F_flow_stmt => [PyBreak; PyContinue; PyReturn; PyRaise; PyYield]
  | F_break_stmt => [PyBreak]
  | F_continue_stmt => [PyContinue]
  | F_return_stmt => [PyReturn]
  | F_raise_stmt => [PyRaise]
  | F_import_stmt | F_import_from => [PyFrom]
  | F_import_name => [PyImport]
  | F_global_stmt => [PyGlobal]
  | F_nonlocal_stmt => [PyNonLocal]
  | F_assert_stmt => [PyAssert]
  | F_decorator | F_decorators | F_decorated => [PyMatrice]
  | F_parameters | F_func_type => [PyLeftParen]
  | F_stmt => first_compound ++ first_small
  | F_compound_stmt => first_compound
  | F_async_stmt | F_async_func_def => [PyAsync]
  | F_if_stmt => [PyIf]
  | F_elif_stmt => [PyElif]
  | F_else_stmt => [PyElse]
  | F_while_stmt => [PyWhile]
  | F_for_stmt => [PyFor]
  | F_try_stmt => [PyTry]
  | F_finally_stmt => [PyFinally]
  | F_with_stmt => [PyWith]
  | F_except_stmt | F_except_clause => [PyExcept]
  | F_suite | F_func_body_suite => T_Newline :: first_small
  | F_func_def => [PyDef]
  | F_class_def => [PyClass]
  | F_lambda_def _ | F_typed_args_list | F_match
  | F_eval_input | F_file_input | F_single_input | F_func_type_input => []
  end.

(** The list starts with a token of [ks]. *)
Definition begins (ks : list kind) (l : list ptok) : Prop :=
  exists p t l', l = (p, t) :: l' /\ In (tk_kind t) ks.

Definition first_ok (f : fn) (l : list ptok) : Prop :=
  match f with
  | F_typed_args_list => l = []
  | F_lambda_def _ => l <> []
  | _ => begins (firsts f) l
  end.

Definition sub_kinds (a b : list kind) : bool := forallb (fun k => existsb (kind_eqb k) b) a.
Lemma sub_kinds_in : forall a b k, sub_kinds a b = true -> In k a -> In k b.
Proof.
  unfold sub_kinds. intros a b k H I. rewrite forallb_forall in H. apply H in I. apply existsb_exists in I.
  destruct I as (k' & I & K). apply kind_eqb_eq in K. subst. assumption.
Qed.
Lemma begins_sub : forall a b l, begins a l -> sub_kinds a b = true -> begins b l.
Proof. intros a b l (p & t & l' & -> & I) S. exists p, t, l'. split; auto. eapply sub_kinds_in; eauto. Qed.
Lemma begins_app : forall ks l l2, begins ks l -> begins ks (l ++ l2).
Proof. intros ks l l2 (p & t & l' & -> & I). exists p, t, (l' ++ l2). auto. Qed.
Lemma begins_cons : forall ks p t l, In (tk_kind t) ks -> begins ks ((p, t) :: l).
Proof. intros. exists p, t, l. auto. Qed.

Definition P_opt (f : fn) (l : list ptok) (o : option node) : Prop :=
  match o with Some _ => first_ok f l | None => l = [] end.


Ltac sub_goal :=
  match goal with H : begins _ ?l |- begins _ ?l => apply (begins_sub _ _ _ H); reflexivity end.
Ltac by_first :=
  repeat match goal with
  | H : exists f l1 l2, _ |- _ => destruct H as (? & ? & ? & -> & ? & ?)
  | H : In _ [_; _] |- _ => destruct H as [H | H]
  | H : In _ (_ :: _) |- _ => destruct H as [H | H]
  | H : In _ [] |- _ => destruct H
  | H : (_, _) = (_, _) |- _ => injection H as; subst
  | H : P_opt _ _ ?o |- _ => destruct o; cbn [P_opt] in H
  | H : _ \/ _ |- _ => destruct H | H : False |- _ => destruct H
  end; subst;
  cbn [app first_ok firsts] in *;
  repeat rewrite <- app_assoc in *; cbn [app] in *;
  repeat first
  [ assumption
  | discriminate
  | apply begins_cons; match goal with K : tk_kind ?t = _ |- _ => rewrite K; cbn; tauto end
  | apply begins_cons; match goal with K : _ = tk_kind ?t |- _ => rewrite <- K; cbn; tauto end
  | apply begins_cons; match goal with K : In (tk_kind ?t) _ |- _ => revert K; apply sub_kinds_in; reflexivity end
  | sub_goal
  | apply begins_app ].

Lemma E_first_all :
  (forall f l la x, E f l la x -> first_ok f l) /\
  (forall f l la x, E_chain f l la x -> match binary f with Some _ => begins (firsts f) l | None => True end) /\
  (forall f l la o, E_opt f l la o -> P_opt f l o) /\
  (forall f l la xs, E_many f l la xs -> xs <> [] -> f <> F_typed_args_list -> first_ok f l) /\
  (forall fs k l la xs ts, E_rest fs k l la xs ts -> xs <> [] -> begins [k] l) /\
  (forall fs k l la xs ts, E_items fs k l la xs ts -> exists f l1 l2, l = l1 ++ l2 /\ In f fs /\ first_ok f l1) /\
  (forall d s l la x, E_entry d s l la x -> begins ([PyMul; PyPower] ++ first_test) l) /\
  (forall s l la x, E_set_first s l la x -> begins ([PyMul; PyPower] ++ first_test) l) /\
  (forall s l la xs ts, E_set_rest s l la xs ts -> xs <> [] -> begins [PyComa] l) /\
  (forall l la ns ts m w, E_stars l la ns ts m w -> begins [PyMul; PyPower] l) /\
  (forall l la ns ts m w, E_type_stars l la ns ts m w -> begins [PyMul; PyPower] l) /\
  (forall l la xs, E_assigns l la xs -> xs <> [] -> begins [PyAssign] l) /\
  (forall l la a x b, E_import_list l la a x b -> begins [PyMul; PyLeftParen; T_AtomName] l).
Proof.
  apply E_mutual; intros; try (cbn [first_ok]; congruence); try (by_first; fail).
  - unfold constants in H. by_first.
  - unfold unary in H. by_first.
  - rewrite H in H1. destruct f; try discriminate; cbn [first_ok]; assumption.
  - cbn [first_ok]. specialize (H0 H1 ltac:(discriminate)). exact H0.
  - destruct f; try exact I; cbn [binary] in *; injection H as <- <-; by_first.
  - rewrite H in H2. destruct f; try discriminate; cbn [binary] in *; by_first.
  - specialize (H0). destruct f; cbn [first_ok] in *; try (apply begins_app; assumption); try congruence.
    intro Z. apply app_eq_nil in Z. tauto.
  - apply begins_cons. left. congruence.
  - exists f, l1, l2. auto.
Qed.

Lemma E_first : forall f l la x, E f l la x -> first_ok f l.
Proof. exact (proj1 E_first_all). Qed.
Lemma E_opt_first : forall f l la o, E_opt f l la o -> P_opt f l o.
Proof. exact (proj1 (proj2 (proj2 E_first_all))). Qed.

Lemma B_first_all :
  (forall f c l la x c', B f c l la x c' -> begins (firsts f) l) /\
  (forall f c l la o c', B_opt f c l la o c' ->
     match o with Some _ => begins (firsts f) l | None => l = [] end) /\
  (forall f c l la xs c', B_many f c l la xs c' -> match xs with [] => l = [] | _ => begins (firsts f) l end).
Proof.
  apply B_mutual; intros;
    repeat match goal with H : E _ _ _ _ |- _ => apply E_first in H end; try (by_first; fail).
  all: auto.
Qed.
Lemma B_first : forall f c l la x c', B f c l la x c' -> begins (firsts f) l.
Proof. exact (proj1 B_first_all). Qed.
Lemma B_opt_first : forall f c l la o c', B_opt f c l la o c' ->
     match o with Some _ => begins (firsts f) l | None => l = [] end.
Proof. exact (proj1 (proj2 B_first_all)). Qed.
Lemma B_many_first : forall f c l la xs c', B_many f c l la xs c' ->
     match xs with [] => l = [] | _ => begins (firsts f) l end.
Proof. exact (proj2 (proj2 B_first_all)). Qed.
