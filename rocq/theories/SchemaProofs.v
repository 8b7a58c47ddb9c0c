(** Every tree follows the schema of SchemaSpec.v (C48, and C35 for the ranks of operands). *)
From Coq Require Import List Arith Lia.
From Verif Require Import Chars SourceBuffer Token Tokenizer Node NodeView ParserState Parser GrammarSpec ParseBasics TreeSpec ParseSpec
  SoundBasics Soundness SpanProofs Completeness ParseCorollaries DefectProofs TryProofs SchemaSpec.
Import ListNotations.
Local Open Scope nat_scope.

Definition good (x : node) : Prop := Forall schema (subnodes x).
Lemma good_intro : forall x, schema x -> (forall z, In (Sub z) (items x) -> good z) -> good x.
Proof.
  intros x H I. unfold good. rewrite subnodes_items. constructor; [assumption|]. apply Forall_forall. intros y J.
  apply in_flat_map in J. destruct J as ([t|z] & J1 & J2); [destruct J2|]. specialize (I z J1). unfold good in I.
  rewrite Forall_forall in I. auto.
Qed.

(** What the functions return. *)
Definition cat (f : fn) (x : node) : Prop :=
  match f with
  | F_atom => expression 16 x
  | F_atom_expr => expression 14 x
  | F_power => expression 13 x
  | F_factor => expression 12 x
  | F_term => expression 11 x
  | F_arith => expression 10 x
  | F_shift => expression 9 x
  | F_and_expr => expression 8 x
  | F_xor_expr => expression 7 x
  | F_expr => expression 6 x
  | F_comparison => expression 5 x
  | F_not_test => expression 4 x
  | F_and_test => expression 3 x
  | F_or_test => expression 2 x
  | F_test => test x
  | F_no_cond_test => unconditional x
  | F_lambda_def c => if c then test x else unconditional x
  | F_named_expression => expression 0 x
  | F_star_expr => is_star x
  | F_testlist_comp => is_elements x
  | F_trailer => is_trailer x
  | F_subscript_list => is_subscripts x
  | F_subscript => is_subscript x
  | F_exprlist => targets x
  | F_testlist => values x
  | F_dictorset_maker => is_entries x \/ is_members x
  | F_arglist => is_arguments x
  | F_argument => is_argument x
  | F_comp_iter => is_comprehension x \/ is_filter x
  | F_sync_comp_for => is_for x
  | F_comp_for => is_comprehension x
  | F_comp_if => is_filter x
  | F_yield_expr | F_yield_stmt => is_yield x
  | F_testlist_star_expr => star_values x
  | F_var_args_list => is_parameters x
  | F_var_args_assignments => is_parameter x
  | F_vfp_def => is_name x
  | F_simple_stmt => is_simple x
  | F_small_stmt | F_del_stmt | F_pass_stmt | F_import_stmt | F_global_stmt | F_nonlocal_stmt | F_assert_stmt | F_expr_stmt
  | F_import_from => is_small x
  | F_ann_assign _ _ => is_assignment x
  | F_flow_stmt | F_break_stmt | F_continue_stmt | F_return_stmt | F_raise_stmt => is_flow x
  | F_import_as_name => is_import_name x
  | F_dotted_as_name => is_dotted_as_name x
  | F_import_as_names => is_import_names x
  | F_dotted_as_names => is_dotted_as_names x
  | F_dotted_name => is_dotted_name x
  | F_with_item => is_with_item x
  | F_decorator => is_decorator x
  | F_decorators => is_decorators x
  | F_parameters => is_parameter_list x
  | F_typed_args_list => is_typed_parameters x
  | F_tfp_def => is_typed_name x
  | F_tfp_def_assign => is_typed_parameter x
  | F_func_type => is_func_type x
  | F_type_list => is_type_list x
  | F_stmt => is_stmt x
  | F_compound_stmt => is_compound x
  | F_async_stmt | F_async_func_def => is_async x
  | F_if_stmt => is_if x
  | F_elif_stmt => is_elif x
  | F_else_stmt => is_else x
  | F_while_stmt => is_while x
  | F_for_stmt => is_for_stmt x
  | F_try_stmt => is_try_stmt x
  | F_finally_stmt => is_finally x
  | F_except_stmt => is_except x
  | F_except_clause => is_except_clause x
  | F_with_stmt => is_with x
  | F_suite => is_suite x
  | F_func_def => is_def x
  | F_func_body_suite => is_body x
  | F_class_def => is_class x
  | _ => True
  end.
Definition fits (f : fn) (x : node) : Prop := good x /\ cat f x.
Definition fits_any (fs : list fn) (x : node) : Prop := exists f, In f fs /\ fits f x.

Definition P_S (f : fn) (l : list ptok) (x : node) : Prop :=
  match f with
  | F_ann_assign _ a => good a -> star_values a -> fits f x
  | F_lambda_def _ => starts_with PyLambda l -> fits f x
  | _ => fits f x
  end.
Definition usual (f : fn) : bool := match f with F_ann_assign _ _ | F_lambda_def _ | F_async_func_def => false | _ => true end.
Lemma P_fits : forall f l x, usual f = true -> P_S f l x -> fits f x.
Proof. intros f l x T H. destruct f; try discriminate T; exact H. Qed.
Lemma fits_P : forall f l x, usual f = true -> fits f x -> P_S f l x.
Proof. intros f l x T H. destruct f; try discriminate T; exact H. Qed.
Lemma usual_in : forall f fs, forallb usual fs = true -> In f fs -> usual f = true.
Proof. intros f fs H I. rewrite forallb_forall in H. auto. Qed.

Lemma any_split : forall fs (Q : node -> Prop) xs, Forall (fits_any fs) xs -> (forall f x, In f fs -> cat f x -> Q x) ->
  Forall good xs /\ Forall Q xs.
Proof.
  intros fs Q xs H I. rewrite Forall_forall in H. split; apply Forall_forall; intros x J; destruct (H x J) as (f & IF & G & C); eauto.
Qed.
Lemma fits_split : forall f xs, Forall (fits f) xs -> Forall good xs /\ Forall (cat f) xs.
Proof. intros f xs H. rewrite Forall_forall in H. split; apply Forall_forall; intros x J; apply (H x J). Qed.
Lemma good_in : forall z xs, Forall good xs -> In z xs -> good z.
Proof. intros z xs H I. rewrite Forall_forall in H. auto. Qed.

Lemma expression_weak : forall k j x, expression k x -> j <= k -> expression j x.
Proof. intros k j x. unfold expression. destruct (rank x); [lia|auto]. Qed.

Definition infix_fits (j k : nat) (op : kind) (c : infix) : Prop :=
  forall a b x t y, tk_kind t = op -> good x -> good y -> expression j x -> expression k y -> good (c a b x t y) /\ expression j (c a b x t y).
Definition level (f : fn) : nat :=
  match f with
  | F_or_test => 2 | F_and_test => 3 | F_not_test => 4 | F_comparison => 5 | F_expr => 6 | F_xor_expr => 7 | F_and_expr => 8 | F_shift => 9
  | F_arith => 10 | F_term => 11 | F_factor => 12 | _ => 0
  end.
Lemma binary_fits : forall f g ops, binary f = Some (g, ops) ->
  usual f = true /\ usual g = true /\ level g = S (level f) /\
  (forall x, cat f x <-> expression (level f) x) /\ (forall x, cat g x <-> expression (level g) x) /\
  forall k c, In (k, c) ops -> infix_fits (level f) (level g) k c.
Proof.
  intros f g ops H. destruct f; try discriminate H; injection H as <- <-;
    (split; [reflexivity|split; [reflexivity|split; [reflexivity|]]]); (split; [intro; reflexivity|split; [intro; reflexivity|]]);
    intros k c I; cbn [In] in I;
    repeat (destruct I as [I | I]; [injection I as <- <-; intros a b x t y ? ? ? ? ?; split;
      [apply good_intro; [cbn; unfold left, kind_is; auto|intros ? ?; opened; in_tree; auto]|cbn; auto]|]); destruct I.
Qed.
Definition aug_fits (op : kind) (c : infix) : Prop :=
  forall a b x t y, tk_kind t = op -> good x -> good y -> star_values x -> assigned y -> good (c a b x t y) /\ is_assignment (c a b x t y).
Lemma augmented_fits : forall k c, In (k, c) augmented -> aug_fits k c.
Proof.
  intros k c I. unfold augmented in I. cbn [In] in I.
    repeat (destruct I as [I | I]; [injection I as <- <-; intros a b x t y ? ? ? ? ?; split;
      [apply good_intro; [cbn; unfold augments, kind_is; auto|intros ? ?; opened; in_tree; auto]|cbn; auto]|]); destruct I.
Qed.

Lemma small_flow : forall x, is_flow x -> is_small x.
Proof. intros x H. destruct x; cbn in *; auto. Qed.
Lemma small_assignment : forall x, is_assignment x -> is_small x.
Proof. intros x H. destruct x; cbn in *; auto. Qed.
Lemma small_values : forall x, star_values x -> is_small x.
Proof. intros x H. destruct x; cbn in *; auto. Qed.
Lemma values_test : forall x, test x -> values x.
Proof. intros x H. destruct x; cbn in *; auto. Qed.
Lemma star_values_any : forall x, star_or_test x -> star_values x.
Proof. intros x H. destruct x; cbn in *; auto. Qed.
Lemma targets_any : forall x, element x -> targets x.
Proof. intros x H. destruct x; cbn in *; auto. Qed.
Lemma Forall_rev' : forall A (P : A -> Prop) l, Forall P l -> Forall P (rev l).
Proof. intros. apply Forall_rev. assumption. Qed.
Lemma rev_nil_not : forall A (x : A) l, rev (x :: l) <> [].
Proof. intros A x l H. apply (f_equal (@length A)) in H. rewrite rev_length in H. discriminate H. Qed.
Lemma rev_not_nil : forall A (l : list A), l <> [] -> rev l <> [].
Proof. intros A [|x l] H; [congruence|apply rev_nil_not]. Qed.
Lemma app_one_not : forall A (x : A) l, l ++ [x] <> [].
Proof. intros A x [|y l]; discriminate. Qed.
Lemma names_fit : forall k l ns ts, E_names k l ns ts -> Forall (kind_is T_AtomName) ns /\ Forall (kind_is k) ts /\ length ts = length ns.
Proof. induction 1; [auto|]. destruct IHE_names as (? & ? & ?). split; [constructor; auto|]. split; [constructor; auto|cbn; auto]. Qed.
Lemma element_any : forall f x, In f [F_star_expr; F_named_expression] -> cat f x -> element x.
Proof. intros f x [<-|[<-|[]]] H; cbn in H; unfold element; auto. Qed.
Lemma star_any : forall f x, In f [F_star_expr; F_test] -> cat f x -> star_or_test x.
Proof. intros f x [<-|[<-|[]]] H; cbn in H; unfold star_or_test; auto. Qed.
Lemma test_any : forall f x, In f [F_test] -> cat f x -> test x.
Proof. intros f x [<-|[]] H; auto. Qed.
Lemma one_any : forall g f x, In f [g] -> cat f x -> cat g x.
Proof. intros g f x [<-|[]] H; auto. Qed.
Lemma any_one : forall g xs, Forall (fits_any [g]) xs -> Forall (fits g) xs.
Proof. intros g xs H. eapply Forall_impl; [|exact H]. intros x (f & [<-|[]] & F). exact F. Qed.

Definition opt_fits (f : fn) (o : option node) : Prop := if_any (fits f) o.
Definition pair_fits (k : kind) (f : fn) (o : option (token * node)) : Prop := if_any (fun p => kind_is k (fst p) /\ fits f (snd p)) o.

Ltac fit_open :=
  repeat match goal with
  | H : In _ [] |- _ => destruct H
  | H : In _ (_ :: _) |- _ => destruct H as [H | H]
  | H : In _ constants |- _ => unfold constants in H
  | H : In _ unary |- _ => unfold unary in H
  | H : _ :: _ = _ :: _ |- _ => injection H as; subst
  | H : (_, _) = (_, _) |- _ => injection H as; subst
  | H : binary _ = Some _ |- _ => apply binary_fits in H
  | H : In _ augmented |- _ => apply augmented_fits in H
  | H : _ = ?f |- _ => is_var f; match type of f with fn => subst f end
  | H : _ /\ _ |- _ => destruct H
  | H : ?b = ?b -> _ |- _ => specialize (H eq_refl)
  | H : fits _ _ |- _ => destruct H
  | H : E_names _ _ _ _ |- _ => apply names_fit in H
  | H : Forall (fits _) _ |- _ => apply fits_split in H
  | H : Forall (fits_any [F_star_expr; F_named_expression]) _ |- _ => apply (any_split _ element) in H; [|exact element_any]
  | H : Forall (fits_any [F_star_expr; F_test]) _ |- _ => apply (any_split _ star_or_test) in H; [|exact star_any]
  | H : Forall (fits_any [?g]) _ |- _ => apply (any_split _ (cat g)) in H; [|exact (one_any g)]
  | H : Forall _ (_ :: _) |- _ => apply Forall_cons_iff in H
  | o : option (_ * _) |- _ => destruct o as [(? & ?)|]
  | o : option _ |- _ => destruct o as [?|]
  | H : opt_fits _ _ |- _ => unfold opt_fits in H
  | H : pair_fits _ _ _ |- _ => unfold pair_fits in H
  end.
Ltac fit_cbn := cbn [P_S usual forallb andb cat if_any fst snd fst_opt snd_opt] in *.
(** No expression but an operand of a comparison is followed by 'in'. *)
Definition whole (f : fn) : bool :=
  match f with F_comparison | F_not_test | F_and_test | F_or_test | F_test | F_named_expression | F_lambda_def _ | F_no_cond_test => true | _ => false end.
Lemma stops_one : forall k ks la, In k ks -> stops ks la -> stops [k] la.
Proof. intros k ks la I (t & E & N). exists t. split; [exact E|]. intros [Z|[]]. apply N. rewrite <- Z. exact I. Qed.
Lemma whole_mutual :
  (forall f l la x, E f l la x -> whole f = true -> stops [PyIn] la) /\
  (forall f l la x, E_chain f l la x -> f = F_or_test \/ f = F_and_test -> stops [PyIn] la) /\
  (forall f l la o, E_opt f l la o -> True) /\ (forall f l la o, E_many f l la o -> True) /\ (forall fs k l la xs ts, E_rest fs k l la xs ts -> True) /\
  (forall fs k l la xs ts, E_items fs k l la xs ts -> True) /\ (forall b s l la x, E_entry b s l la x -> True) /\ (forall s l la x, E_set_first s l la x -> True) /\
  (forall s l la xs ts, E_set_rest s l la xs ts -> True) /\ (forall l la ns ts m w, E_stars l la ns ts m w -> True) /\
  (forall l la ns ts m w, E_type_stars l la ns ts m w -> True) /\ (forall l la xs, E_assigns l la xs -> True) /\ (forall l la a x b, E_import_list l la a x b -> True).
Proof.
  apply E_mutual; try (intros; exact I); try (intros; discriminate); try (intros; auto; fail).
  - intros f g ops l la x B _ IH S W. destruct f; try discriminate B; try discriminate W; auto. eapply stops_one; [|exact S]. cbn. tauto.
  - intros [] **; auto.
  - intros f g ops l la x B _ IH [->| ->]; injection B as <- <-; apply IH; reflexivity.
  - intros f g ops c l1 a p t l2 b la B _ _ _ _ IH [->| ->]; injection B as <- <-; apply IH; reflexivity.
  - intros. destruct H5; discriminate.
  - intros. destruct H5; discriminate.
Qed.
Lemma whole_stops : forall f l la x, E f l la x -> whole f = true -> stops [PyIn] la.
Proof. exact (proj1 whole_mutual). Qed.
Lemma not_after_in : forall f l la x, In f [F_star_expr; F_named_expression] -> E f l la x -> before [PyIn] la -> f = F_star_expr.
Proof.
  intros f l la x [<-|[<-|[]]] H B; [reflexivity|]. exfalso. destruct (whole_stops _ _ _ _ H eq_refl) as (t & E1 & N). destruct B as (u & E2 & I).
  rewrite E1 in E2. injection E2 as <-. exact (N I).
Qed.
Lemma items_last : forall fs k l la xs ts, E_items fs k l la xs ts -> exists ys y f m, xs = ys ++ [y] /\ In f fs /\ E f m la y.
Proof.
  assert (R : forall fs k l la xs ts, E_rest fs k l la xs ts -> xs <> [] -> exists ys y f m, xs = ys ++ [y] /\ In f fs /\ E f m la y).
  { induction 1 as [|fs k f p t l1 x l2 xs ts la K I D R IH]; intros N; [congruence|]. destruct xs as [|z xs].
    - inversion R; subst. exists [], x, f, l1. auto.
    - destruct IH as (ys & y & g & m & E1 & I1 & D1); [discriminate|]. exists (x :: ys), y, g, m. rewrite E1. auto. }
  intros fs k l la xs ts H. inversion H; subst. destruct xs0 as [|z xs].
  - match goal with Q : E_rest _ _ _ _ [] _ |- _ => inversion Q; subst end. exists [], x, f, l1. auto.
  - match goal with Q : E_rest _ _ _ _ _ _ |- _ => destruct (R _ _ _ _ _ _ Q) as (ys & y & g & m & E1 & I1 & D1); [discriminate|] end.
    exists (x :: ys), y, g, m. rewrite E1. auto.
Qed.
Lemma star_is : forall l la x, E F_star_expr l la x -> is_star x.
Proof. intros l la x H. inversion H; subst; try (match goal with B : binary _ = Some _ |- _ => discriminate B end). exact I. Qed.
Lemma items_lengths : forall fs k l la xs ts, E_items fs k l la xs ts -> between_all xs ts.
Proof.
  assert (R : forall fs k l la xs ts, E_rest fs k l la xs ts -> length ts = length xs) by (induction 1; cbn; congruence).
  intros fs k l la xs ts H. inversion H; subst. unfold between_all. cbn. f_equal. eauto.
Qed.
Ltac not_binary := try (match goal with B : binary _ = Some _ |- _ => discriminate B end).
Lemma exprlist_before_in : forall l q u x, E F_exprlist l (q, Some u) x -> tk_kind u = PyIn -> before_in x.
Proof.
  intros l q u x H K. assert (B : before [PyIn] (q, Some u)) by (exists u; cbn; auto). inversion H; subst; not_binary.
  - match goal with I : In _ _, D : E _ _ _ _ |- _ => pose proof (not_after_in _ _ _ _ I D B) as ->; apply star_is in D end. destruct x; try contradiction. exact I.
  - match goal with D : E_items _ _ _ _ _ _ |- _ => destruct (items_last _ _ _ _ _ _ D) as (ys & y & f & m & -> & I & D2) end.
    pose proof (not_after_in _ _ _ _ I D2 B) as ->. right. exists ys, y. split; [reflexivity|]. eapply star_is; eauto.
  - left. match goal with D : E_items _ _ _ _ _ _ |- _ => apply items_lengths in D; unfold between_all in D; rewrite app_length; cbn; lia end.
Qed.
Definition expression_fn (f : fn) : bool :=
  match f with
  | F_atom | F_atom_expr | F_power | F_factor | F_term | F_arith | F_shift | F_and_expr | F_xor_expr | F_expr | F_comparison | F_not_test | F_and_test
  | F_or_test | F_test | F_lambda_def _ => true
  | _ => false
  end.
Lemma ranked_mutual :
  (forall f l la x, E f l la x -> expression_fn f = true -> rank x <> None) /\
  (forall f l la x, E_chain f l la x -> rank x <> None) /\
  (forall f l la o, E_opt f l la o -> True) /\ (forall f l la o, E_many f l la o -> True) /\ (forall fs k l la xs ts, E_rest fs k l la xs ts -> True) /\
  (forall fs k l la xs ts, E_items fs k l la xs ts -> True) /\ (forall b s l la x, E_entry b s l la x -> True) /\ (forall s l la x, E_set_first s l la x -> True) /\
  (forall s l la xs ts, E_set_rest s l la xs ts -> True) /\ (forall l la ns ts m w, E_stars l la ns ts m w -> True) /\
  (forall l la ns ts m w, E_type_stars l la ns ts m w -> True) /\ (forall l la xs, E_assigns l la xs -> True) /\ (forall l la a x b, E_import_list l la a x b -> True).
Proof.
  apply E_mutual; try (intros; exact I); try (intros; discriminate); try (intros; auto; fail).
  - intros c p t la C _. cbn [In constants] in C. repeat (destruct C as [C|C]; [injection C as _ <-; discriminate|]). destruct C.
  - intros c p t l la x C _ _ _. cbn [In unary] in C. repeat (destruct C as [C|C]; [injection C as _ <-; discriminate|]). destruct C.
  - intros f g ops l la x B _ IH. apply IH. destruct f; try discriminate B; injection B as <- <-; reflexivity.
  - intros f g ops c l1 a p t l2 b la B C _ _ _ _. destruct f; try discriminate B; injection B as <- <-; cbn [In] in C;
      repeat (destruct C as [C|C]; [injection C as _ <-; discriminate|]); destruct C.
Qed.
Lemma yield_in_parentheses : forall l q u x, E F_yield_expr l (q, Some u) x -> tk_kind u = PyRightParen -> in_parentheses x.
Proof.
  intros l q u x H K. inversion H; subst; not_binary; [exact I|].
  match goal with D : E F_testlist_star_expr _ _ ?y |- _ => inversion D; subst; not_binary end.
  - match goal with I : In _ _, D : E _ _ _ x0 |- _ => destruct I as [<-|[<-|[]]]; [apply star_is in D; destruct x0; try contradiction; exact Logic.I|] end.
    cbn [in_parentheses]. match goal with D : E F_test _ _ _ |- _ => apply (proj1 ranked_mutual) in D; [|reflexivity] end. destruct x0; try exact I. match goal with R : rank _ <> None |- _ => elim R end. reflexivity.
  - cbn [in_parentheses]. match goal with D : E_items _ _ _ _ _ _ |- _ => apply items_lengths in D; unfold between_all in *; rewrite !rev_length; exact D end.
  - match goal with D : before ends_star_list _ |- _ => destruct D as (v & EV & I) end. injection EV as <-. rewrite K in I. cbn in I.
    repeat (destruct I as [I|I]; [discriminate I|]). destruct I.
Qed.

Create HintDb fit.
#[export] Hint Resolve small_flow small_assignment small_values values_test star_values_any targets_any Forall_rev' rev_nil_not rev_not_nil app_one_not good_in : fit.
#[export] Hint Extern 1 (kind_is _ _) => unfold kind_is; congruence : fit.
#[export] Hint Extern 1 (_ <> _) => discriminate : fit.
#[export] Hint Extern 2 (Forall _ ?l) => (match goal with H : Forall _ l |- _ => exact H end) : fit.
#[export] Hint Extern 2 (Forall _ (_ ++ _)) => (apply Forall_app; split) : fit.
#[export] Hint Extern 2 (Forall _ (_ :: _)) => (apply Forall_cons) : fit.
#[export] Hint Extern 2 (Forall _ []) => (apply Forall_nil) : fit.
#[export] Hint Extern 1 (between_all _ _) => (unfold between_all in *; rewrite ?rev_length, ?app_length in *; cbn [length] in *; rewrite ?rev_length, ?app_length in *; cbn [length] in *; lia) : fit.
#[export] Hint Extern 1 (_ = None -> _ = None -> _ = None -> between_all _ _) => (intros; exfalso; first [discriminate | match goal with H : _ -> _ -> False |- _ => apply H; reflexivity end]) : fit.
#[export] Hint Extern 1 (_ = None -> _ = None -> False) => (intros; discriminate) : fit.
#[export] Hint Extern 1 (spaced _ _) => (unfold spaced, between_all in *; rewrite ?rev_length, ?app_length in *; cbn [length] in *; rewrite ?rev_length, ?app_length in *; cbn [length] in *; lia) : fit.
#[export] Hint Extern 1 (between_all _ _ \/ _) => (unfold between_all in *; cbn [length]; lia) : fit.
#[export] Hint Extern 1 (before_in _) => (eapply exprlist_before_in; eassumption) : fit.
#[export] Hint Extern 1 (in_parentheses _ \/ _) => (left; eapply yield_in_parentheses; eassumption) : fit.
#[export] Hint Extern 3 (_ <-> _) => (split; intro; congruence) : fit.
#[export] Hint Extern 3 (_ -> _ <> _) => (intro; congruence) : fit.
Ltac in_nodes :=
  repeat match goal with
  | H : In (Sub _) (_ ++ _) |- _ => apply in_app_or in H; destruct H
  | H : In (Sub _) (_ :: _) |- _ => destruct H
  | H : In _ [] |- _ => destruct H
  | H : Leaf _ = Sub _ |- _ => discriminate H
  | H : Sub _ = Sub _ |- _ => injection H as; subst
  | H : In (Sub _) (map Sub _) |- _ => apply in_sub_map in H
  | H : In _ (rev _) |- _ => apply in_sub_rev in H
  | H : In (Sub _) (map Leaf _) |- _ => destruct (in_sub_leaf _ _ H)
  | H : In (Sub _) (opt_tokens _) |- _ => destruct (in_sub_opt_tok _ _ H)
  | H : In (Sub _) (pairs _) |- _ => apply in_sub_pairs in H; destruct H
  | H : In _ (_ ++ _) |- _ => apply in_app_or in H; destruct H
  | H : In _ (_ :: _) |- _ => destruct H; [subst|]
  | H : Forall good ?l, I : In _ ?l |- _ => apply (good_in _ _ H) in I
  end.
Ltac fit_cat := cbn [cat] in *; first [solve [auto with fit] | solve [unfold element, star_or_test, assigned; cbn; auto 6 with fit] |
  solve [cbn; auto 6 with fit] | eapply expression_weak; [eassumption|lia]].
Ltac fit_fields := repeat match goal with |- _ /\ _ => split | |- brackets _ _ _ _ => split | |- left _ _ _ _ _ => split end; fit_cbn; auto with fit; fit_cat.
Ltac fit_solve :=
  fit_cbn; fit_open; fit_cbn; fit_open; fit_cbn;
  repeat match goal with |- _ -> _ => intro end; fit_open;
  first [ assumption
        | split; [first [assumption | apply good_intro; [cbn [schema]; fit_fields | intros ? ?; opened; in_nodes; auto with fit]]
                 | fit_cat ] ].

Lemma E_fits :
  (forall f l la x, E f l la x -> P_S f l x) /\
  (forall f l la x, E_chain f l la x -> fits f x) /\
  (forall f l la o, E_opt f l la o -> usual f = true -> opt_fits f o) /\
  (forall f l la xs, E_many f l la xs -> usual f = true -> Forall (fits f) xs) /\
  (forall fs k l la xs ts, E_rest fs k l la xs ts -> forallb usual fs = true -> Forall (fits_any fs) xs /\ Forall (kind_is k) ts /\ length ts = length xs) /\
  (forall fs k l la xs ts, E_items fs k l la xs ts -> forallb usual fs = true -> (Forall (fits_any fs) xs /\ xs <> []) /\ Forall (kind_is k) ts /\ between_all xs ts) /\
  (forall d s l la x, E_entry d s l la x -> good x /\ (if d then is_pair x else is_spread x \/ test x)) /\
  (forall s l la x, E_set_first s l la x -> good x /\ (is_spread x \/ test x)) /\
  (forall s l la xs ts, E_set_rest s l la xs ts -> Forall good xs /\ Forall (fun y => is_spread y \/ test y) xs /\ commas ts /\ length ts = length xs) /\
  (forall l la ns ts m v, E_stars l la ns ts m v -> Forall (fits F_var_args_assignments) ns /\ commas ts /\
     pair_fits PyMul F_var_args_assignments m /\ pair_fits PyPower F_var_args_assignments v /\ (m = None -> v = None -> False)) /\
  (forall l la ns ts m v, E_type_stars l la ns ts m v -> Forall (fits F_test) ns /\ commas ts /\
     pair_fits PyMul F_test m /\ pair_fits PyPower F_test v) /\
  (forall l la xs, E_assigns l la xs -> Forall (fun p => good (snd p)) xs /\ Forall (fun p => kind_is PyAssign (fst p) /\ assigned (snd p)) xs) /\
  (forall l la a x b, E_import_list l la a x b -> if_any good x /\
     match a, x, b with
      | Some v, None, None => kind_is PyMul v
      | Some v, Some y, Some w => brackets PyLeftParen PyRightParen v w /\ is_import_names y
      | None, Some y, None => is_import_names y
      | _, _, _ => False
      end).
Proof.
  apply E_mutual; intros; try (solve [fit_solve]).
  all: try (solve [fit_cbn; fit_open; fit_cbn; fit_open; unfold pair_fits, opt_fits, fits; fit_cbn; fit_fields]).
  all: try (solve [match goal with |- Forall (fits ?f) ?l /\ _ =>
      fit_cbn; repeat match goal with H : ?b = ?b -> _ |- _ => specialize (H eq_refl) end; fit_open; fit_cbn; fit_open; unfold pair_fits, opt_fits; fit_cbn;
      repeat match goal with |- _ /\ _ => split end; unfold fits; auto with fit;
      apply Forall_forall; intros ? ?; split; [eapply good_in; eassumption|]; match goal with H : Forall (cat _) l |- _ => rewrite Forall_forall in H; apply H; assumption end end]).
  - (* strings *)
    fit_cbn. split; [|cbn; lia]. apply good_intro; [|intros ? ?; opened; in_nodes].
    cbn [schema]. split; [discriminate|]. constructor; [assumption|]. apply Forall_map. assumption.
  - fit_cbn. fit_open. split; [|cbn; lia]. apply good_intro; [|intros ? ?; opened; in_nodes; assumption].
    cbn [schema]. split; [split; assumption|]. eexists. split; [reflexivity|]. exact I.
  - fit_cbn. fit_open. split; [|cbn; lia]. apply good_intro; [|intros ? ?; opened; in_nodes; assumption].
    cbn [schema]. split; [split; assumption|]. eexists. split; [reflexivity|]. exact I.
  - apply fits_P; [|assumption]. fit_open. assumption.
  - (* lambda *)
    fit_cbn. intros (? & ? & ? & EQ & K). injection EQ as <- <- <-.
    assert (F : fits F_test x).
    { destruct cond; fit_cbn; [assumption|]. match goal with H : fits F_or_test x |- _ => destruct H end. split; [assumption|]. eapply expression_weak; [eassumption|lia]. }
    specialize (H0 eq_refl). destruct cond; [fit_solve|]. change (fits F_or_test x) in H3. destruct H3 as (G & L). cbn [cat] in L. destruct F as (_ & F). cbn [cat] in F.
    unfold opt_fits in H0. split; [|exact L]. apply good_intro; [cbn [schema]|intros ? ?; opened; in_nodes; auto; destruct o; opened; in_nodes; apply H0].
    repeat split; auto. destruct o; [apply H0|exact I].
  - fit_cbn. apply H1. exists p, t, l. auto.
  - fit_cbn. fit_open. split; [assumption|]. destruct x; try assumption. cbn in *; exfalso; lia.
  - fit_cbn. apply H1. exists p, t, l. auto.
  - (* comprehension *)
    assert (F : good x /\ element x) by (fit_cbn; fit_open; fit_cbn; fit_open; split; auto; unfold element; auto).
    clear H H0 H1. fit_cbn. fit_open. split; [|exact I]. apply good_intro; [|intros ? ?; opened; in_nodes; assumption].
    cbn [schema]. split; [constructor|]. right. eauto 8.
  - (* slice *)
    fit_cbn. repeat match goal with H : ?b = ?b -> _ |- _ => specialize (H eq_refl) end. unfold opt_fits in *.
    split; [|exact I]. apply good_intro; [|intros ? ?; opened; destruct o1, o2, o3; fit_cbn; fit_open; opened; in_nodes; assumption].
    cbn [schema]. destruct o1, o2, o3; fit_cbn; fit_open; repeat split; auto; discriminate.
  - fit_cbn. fit_open; fit_cbn; fit_open; (split; [assumption|]); apply targets_any; unfold element; auto.
  - fit_cbn. fit_open. split; [assumption|]. destruct x; try contradiction; exact I.
  - fit_cbn. fit_open; fit_cbn; fit_open; (split; [assumption|]); apply star_values_any; unfold star_or_test; auto.
  - fit_cbn. fit_open. split; [assumption|]. destruct x; try contradiction; exact I.
  - (* annotated assignment *)
    fit_cbn. fit_open. destruct H2 as (G & A); auto. split; [assumption|]. apply small_assignment. assumption.
  - fit_cbn. assert (F : good b /\ assigned b).
    { fit_open; fit_cbn; fit_open; (split; [assumption|]); unfold assigned; auto. }
    clear H2 H3 H4. destruct F. fit_open. match goal with G : aug_fits _ _ |- _ => rename G into AF end. destruct (AF (start l1 (p, Some t)) (fst la) a t b) as (G & A); auto. split; [assumption|]. apply small_assignment. assumption.
  - fit_cbn. fit_open. split; [|left; exact I]. apply good_intro; [cbn [schema]; fit_fields|].
    intros ? ?; opened; in_nodes; auto. match goal with H : Forall (fun p => good (snd p)) _, I : In _ _ |- _ => rewrite Forall_forall in H; exact (H _ I) end.
  - fit_cbn. fit_open. split; [|left; exact I]. apply good_intro; [cbn [schema]; fit_fields|].
    intros ? ?; opened; in_nodes; auto. match goal with H : Forall (fun p => good (snd p)) _, I : In _ _ |- _ => rewrite Forall_forall in H; exact (H _ I) end.
  - (* flow *)
    fit_cbn. fit_open; fit_cbn; fit_open; (split; [assumption|]); auto. destruct x; try contradiction; exact I.
  - (* from ... import *)
    specialize (H2 eq_refl). destruct H6 as (H6 & H7). unfold opt_fits in H2.
    split; [|exact I]. apply good_intro; [cbn [schema]|].
    + split; [assumption|]. split; [|split; [|split; [|split; [assumption|exact H7]]]].
      * apply Forall_rev, Forall_map. eapply Forall_impl; [|exact H0]. intros [? d] [D|[D|[]]]; unfold kind_is; cbn in D |- *; auto.
      * destruct o; cbn in *; [apply H2|exact I].
      * intros ->. specialize (H3 eq_refl). destruct dots as [|d dots]; [congruence|]. cbn [map]. apply rev_nil_not.
    + intros z J. opened. destruct o, x; cbn in H2, H6; opened; in_nodes; auto; apply H2.
  - (* decorator *)
    fit_cbn. specialize (H4 eq_refl). unfold opt_fits in H4. fit_open; fit_cbn; (split; [|exact I]); (apply good_intro; [cbn [schema]|intros ? ?; opened; in_nodes; auto]);
      repeat split; auto; try discriminate; try tauto; fit_open; auto.
  - fit_cbn. fit_open. split; [assumption|]. destruct x; try contradiction; exact I.
  - apply binary_fits in H. destruct H as (_ & U & L & C1 & C2 & _). apply P_fits in H1; [|assumption]. destruct H1 as (G & C).
    split; [assumption|]. apply C1. apply C2 in C. eapply expression_weak; [eassumption|lia].
  - apply binary_fits in H. destruct H as (_ & U & L & C1 & C2 & K). apply P_fits in H4; [|assumption]. destruct H4 as (G & C). destruct H2 as (G1 & G2).
    apply C2 in C. apply C1 in G2. destruct (K _ _ H0 (start l1 (p, Some t)) (fst la) a t b) as (K1 & K2); auto. split; [assumption|]. apply C1. assumption.
  - unfold opt_fits. cbn. eapply P_fits; eauto.
  - constructor; [eapply P_fits; eauto|auto].
  - destruct H4 as (F & K & N); [assumption|]. split; [|split; [constructor; auto|cbn; auto]]. constructor; [|assumption]. exists f. split; [assumption|].
    eapply P_fits; [|eassumption]. eapply usual_in; eauto.
  - destruct H3 as (F & K & N); [assumption|]. split; [|split; [assumption|unfold between_all; cbn; auto]]. split; [|discriminate]. constructor; [|assumption]. exists f. split; [assumption|].
    eapply P_fits; [|eassumption]. eapply usual_in; eauto.
  - destruct (H1 eq_refl) as ((F & _) & K & _). destruct H4 as (_ & K2 & _ & W). apply any_one in F. apply Forall_cons_iff in F. destruct F as (F1 & F2).
    split; [assumption|]. split; [apply Forall_app; auto|]. split; [split; [exact H|exact F1]|split; [exact (proj1 W)|discriminate]].
  - destruct (H1 eq_refl) as ((F & _) & K & _). destruct H4 as (_ & K2 & _ & W). apply any_one in F. apply Forall_cons_iff in F. destruct F as (F1 & F2).
    split; [assumption|]. split; [apply Forall_app; auto|]. split; [split; [exact H|exact F1]|exact W].
Qed.

Lemma E_fits1 : forall f l la x, E f l la x -> usual f = true -> fits f x.
Proof. intros f l la x H T. eapply P_fits; [exact T|]. eapply (proj1 E_fits); eauto. Qed.
Lemma E_opt_fits1 : forall f l la o, E_opt f l la o -> usual f = true -> opt_fits f o.
Proof. intros f l la o H T. exact (proj1 (proj2 (proj2 E_fits)) _ _ _ _ H T). Qed.
Lemma E_items_fits1 : forall fs k l la xs ts, E_items fs k l la xs ts -> forallb usual fs = true ->
  (Forall (fits_any fs) xs /\ xs <> []) /\ Forall (kind_is k) ts /\ between_all xs ts.
Proof. intros fs k l la xs ts H T. exact (proj1 (proj2 (proj2 (proj2 (proj2 (proj2 E_fits))))) _ _ _ _ _ _ H T). Qed.
Lemma opt_token_fits : forall k l o, opt_token k l o -> if_any (kind_is k) o.
Proof. intros k l o H. destruct H; cbn; auto. Qed.

Lemma stmt_compound : forall x, is_compound x -> is_stmt x.
Proof. unfold is_stmt. auto. Qed.
Lemma suite_simple : forall x, is_simple x -> is_suite x.
Proof. intros x H. destruct x; cbn in *; auto. Qed.
Lemma body_simple : forall x, is_simple x -> is_body x.
Proof. intros x H. destruct x; cbn in *; auto. Qed.
#[export] Hint Resolve stmt_compound suite_simple body_simple : fit.

Lemma B_fits :
  (forall f c l la x c', B f c l la x c' -> usual f = true -> fits f x) /\
  (forall f c l la o c', B_opt f c l la o c' -> usual f = true -> opt_fits f o) /\
  (forall f c l la xs c', B_many f c l la xs c' -> usual f = true -> Forall (fits f) xs).
Proof.
  apply B_mutual; intros; try discriminate;
    repeat match goal with D : usual _ = true -> _ |- _ => specialize (D eq_refl) | D : usual ?f = true -> _, U : usual ?f = true |- _ => specialize (D U) end;
    try match goal with D : B F_decorated _ _ _ _ _ |- _ => destruct (no_decorated _ _ _ _ _ D) end;
    try match goal with D : E F_decorators _ _ _, D2 : B _ _ _ _ _ _, G : In _ _ |- fits F_decorated _ => exfalso; eapply no_decorated; eapply B_decorated; eauto end;
    repeat match goal with
    | D : except_what _ _ _ |- _ => inversion D; subst; clear D
    | D : with_items _ _ _ _ _ _ |- _ => inversion D; subst; clear D
    | D : bases _ _ _ _ |- _ => inversion D; subst; clear D
    | D : returns _ _ _ |- _ => inversion D; subst; clear D
    | D : comment_line _ _ _ |- _ => inversion D; subst; clear D
    end;
    try match goal with D : E F_exprlist _ (_, Some ?u) _, K : tk_kind ?u = PyIn |- _ => pose proof (exprlist_before_in _ _ _ _ D K) end;
    repeat match goal with
    | D : E _ _ _ _ |- _ => apply E_fits1 in D; [|reflexivity]
    | D : E_opt _ _ _ ?o |- _ => apply E_opt_fits1 in D; [|reflexivity]
    | D : E_items _ _ _ _ _ _ |- _ => apply E_items_fits1 in D; [|reflexivity]
    | D : opt_token _ _ _ |- _ => apply opt_token_fits in D
    end; try (solve [fit_solve]).
  - destruct H as [G C]. split; [exact G|]. cbn in *. unfold is_stmt. auto.
  - assert (V : usual f = true) by (cbn in H; repeat (destruct H as [<-|H]; [reflexivity|]); destruct H).
    match goal with D : usual ?f = true -> fits ?f ?x |- _ => destruct (D V) as [G C] end. split; [exact G|].
    cbn in H; repeat (destruct H as [<-|H]; [first [destruct (no_decorated _ _ _ _ _ H0) | cbn in C |- *; unfold is_compound; tauto]|]); destruct H.
  - destruct H4 as [G4 C4]. assert (G : forall z, o = Some z -> good z /\ is_parameters z) by (intros z ->; exact H8). split; [apply good_intro|exact I].
    + cbn [schema]. unfold kind_is. repeat split; auto; try discriminate. destruct o as [n|]; [apply (G n eq_refl)|exact I].
    + intros z J. destruct o as [n|]; cbn in J; repeat (destruct J as [J|J]; [try discriminate J; injection J as <-; auto; apply (G n eq_refl)|]); destruct J.
  - exact I.
  - constructor.
  - constructor; assumption.
Qed.

Lemma lines_fits : forall c l la xs ts c', lines c l la xs ts c' -> Forall (fits F_stmt) xs.
Proof. induction 1; auto. constructor; auto. eapply (proj1 B_fits); eauto; reflexivity. Qed.
Lemma lines_newlines : forall c l la xs ts c', lines c l la xs ts c' -> Forall (kind_is T_Newline) ts.
Proof. induction 1; auto. Qed.
Lemma newlines_fit : forall l2 : list ptok, Forall (fun n => tk_kind (snd n) = T_Newline) l2 -> Forall (kind_is T_Newline) (rev (map snd l2)).
Proof. intros l2 H. apply Forall_rev'. apply Forall_map. exact H. Qed.
Lemma not_compound_simple : forall x, is_simple x -> is_stmt x.
Proof. unfold is_stmt. auto. Qed.
Lemma Input_good : forall f c l la x c', Input f c l la x c' -> good x.
Proof.
  destruct 1.
  - pose proof (lines_fits _ _ _ _ _ _ H) as F. apply fits_split in F as [F1 F2]. apply lines_newlines in H. apply good_intro.
    + cbn [schema]. repeat split; auto with fit.
    + intros z J. opened. in_nodes; auto.
  - apply E_fits1 in H as [G C]; [|reflexivity]. apply newlines_fit in H0. apply good_intro.
    + cbn [schema]. auto.
    + intros z J. opened. in_nodes; auto.
  - apply E_fits1 in H as [G C]; [|reflexivity]. apply newlines_fit in H0. apply good_intro.
    + cbn [schema]. auto.
    + intros z J. opened. in_nodes; auto.
  - apply good_intro.
    + cbn. unfold kind_is. repeat split; auto; discriminate.
    + intros z J. opened. in_nodes; auto.
  - apply E_fits1 in H as [G C]; [|reflexivity]. apply good_intro.
    + cbn [schema if_any]. split; [exact I|split; [apply not_compound_simple; exact C|split; [discriminate|]]].
      intros y [= <-]. split; auto.
    + intros z J. opened. in_nodes; auto.
  - apply (proj1 B_fits) in H as [G C]; [|reflexivity]. apply good_intro.
    + cbn [schema if_any]. split; [exact H0|split; [right; exact C|split; [discriminate|]]].
      intros y [= <-]. split; [|discriminate]. intro Sx. cbn [cat] in C. unfold is_compound in C. destruct x; cbn in C, Sx; tauto.
    + intros z J. opened. in_nodes; auto.
Qed.
Lemma sound_good : forall U f s x s', sound U f s x s' -> usual f = true -> good x.
Proof.
  intros U f s x s' H T. unfold sound in H. destruct (sort_of f) eqn:S.
  - destruct H as (l & _ & _ & D). exact (proj1 (E_fits1 _ _ _ _ D T)).
  - destruct H as (l & _ & D). exact (proj1 (proj1 B_fits _ _ _ _ _ _ D T)).
  - destruct H as (s1 & l & _ & _ & D). eapply Input_good; eauto.
  - destruct H.
Qed.
Lemma run_schema : forall U n f s x s', usual f = true -> run U n f s = Ok x s' -> forall y, In y (subnodes x) -> schema y.
Proof.
  intros U n f s x s' T H y I. apply run_sound in H. apply sound_good in H; [|assumption]. unfold good in H. rewrite Forall_forall in H. auto.
Qed.
(** The function for 'async def' is called by no statement. *)
Lemma run_async_def : forall U n s x s', run U n F_async_func_def s = Ok x s' ->
  exists p e t y, x = AsyncStmt p e t y /\ kind_is PyAsync t /\ is_def y /\ forall z, In z (subnodes y) -> schema z.
Proof.
  intros U n s x s' H. apply run_sound in H. unfold sound in H. cbn [sort_of] in H. destruct H as (l & _ & D).
  inversion D; subst. match goal with D : B F_func_def _ _ _ _ _ |- _ => apply (proj1 B_fits) in D as [G C]; [|reflexivity] end.
  unfold good in G. rewrite Forall_forall in G. eauto 10.
Qed.
