(** Tokens that never follow an expression: they would have continued it. *)
From Coq Require Import List Arith Lia.
From Verif Require Import Chars SourceBuffer Token Tokenizer Node ParserState Parser GrammarSpec ParseBasics.
Import ListNotations.
Local Open Scope nat_scope.

Definition after_atom_expr : list kind := [PyLeftParen; PyLeftBracket; PyDot].
Definition after_factor : list kind := PyPower :: after_atom_expr.
Definition after_term : list kind := continues F_term ++ after_factor.
Definition after_arith : list kind := continues F_arith ++ after_term.
Definition after_shift : list kind := continues F_shift ++ after_arith.
Definition after_and_expr : list kind := continues F_and_expr ++ after_shift.
Definition after_xor_expr : list kind := continues F_xor_expr ++ after_and_expr.
Definition after_expr : list kind := continues F_expr ++ after_xor_expr.
Definition after_comparison : list kind := continues F_comparison ++ after_expr.
Definition after_and_test : list kind := continues F_and_test ++ after_comparison.
Definition after_or_test : list kind := continues F_or_test ++ after_and_test.
Definition after_test : list kind := PyIf :: after_or_test.
Definition never_after (f : fn) : list kind :=
  match f with
  | F_atom_expr => after_atom_expr
  | F_power | F_factor => after_factor
  | F_term => after_term
  | F_arith => after_arith
  | F_shift => after_shift
  | F_and_expr => after_and_expr
  | F_xor_expr => after_xor_expr
  | F_expr | F_star_expr => after_expr
  | F_comparison | F_not_test => after_comparison
  | F_and_test => after_and_test
  | F_or_test | F_no_cond_test => after_or_test
  | F_test | F_named_expression => after_test
  | F_lambda_def true => after_test
  | F_lambda_def false => after_or_test
  | _ => []
  end.

Lemma stops_differs : forall a b la, stops a la -> differs b la -> differs (a ++ b) la.
Proof.
  intros a b la (t & S & N) D u V I. apply in_app_iff in I. destruct I as [I|I]; [|exact (D u V I)]. congruence.
Qed.
Lemma binary_after : forall f g ops, binary f = Some (g, ops) -> never_after f = continues f ++ never_after g.
Proof. intros f g ops H. destruct f; try discriminate H; injection H as <- _; reflexivity. Qed.
Lemma never_nil : forall la, differs [] la.
Proof. intros la t _ []. Qed.

Lemma E_after_all :
  (forall f l la x, E f l la x -> differs (never_after f) la) /\
  (forall f l la x, E_chain f l la x -> forall g ops, binary f = Some (g, ops) -> differs (never_after g) la) /\
  (forall f l la o, E_opt f l la o -> True) /\
  (forall f l la xs, E_many f l la xs -> True) /\
  (forall fs k l la xs ts, E_rest fs k l la xs ts -> True) /\
  (forall fs k l la xs ts, E_items fs k l la xs ts -> True) /\
  (forall d s l la x, E_entry d s l la x -> True) /\
  (forall s l la x, E_set_first s l la x -> True) /\
  (forall s l la xs ts, E_set_rest s l la xs ts -> True) /\
  (forall l la ns ts m w, E_stars l la ns ts m w -> True) /\
  (forall l la ns ts m w, E_type_stars l la ns ts m w -> True) /\
  (forall l la xs, E_assigns l la xs -> True) /\
  (forall l la a x b, E_import_list l la a x b -> True).
Proof.
  apply E_mutual; intros; try exact I; try apply never_nil; try assumption;
    try (match goal with S : stops ?a ?la, D : differs ?b ?la |- _ => exact (stops_differs a b la S D) end).
  - match goal with B : binary ?f = Some _, D : forall g ops, binary ?f = Some _ -> _ |- _ => pose proof (D _ _ B) as Q; rewrite (binary_after _ _ _ B) end.
    apply stops_differs; assumption.
  - destruct cond; assumption.
  - match goal with B : binary ?f = Some ?a, C : binary ?f = Some ?b |- _ => rewrite B in C; injection C as <- _ end. assumption.
  - match goal with B : binary ?f = Some ?a, C : binary ?f = Some ?b |- _ => rewrite B in C; injection C as <- _ end. assumption.
  - match goal with B : binary F_comparison = Some _ |- _ => injection B as <- _ end. assumption.
  - match goal with B : binary F_comparison = Some _ |- _ => injection B as <- _ end. assumption.
Qed.
(** A token that would continue a phrase does not follow it. *)
Lemma E_after : forall f l la x, E f l la x -> differs (never_after f) la.
Proof. exact (proj1 E_after_all). Qed.
