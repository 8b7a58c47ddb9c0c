(** Every sentence of the grammar of the parser in plain EBNF (CodedGrammar.v) has a derivation with look-ahead
    (GrammarSpec.v): the proofs of C59, first part. *)
From Coq Require Import List Arith Lia Bool NArith.
From Verif Require Import Chars Token LexBasics Node NodeView ParserState GrammarSpec ParseBasics PythonGrammar Recognise PythonProofs CodedGrammar.
Import ListNotations.
Local Open Scope nat_scope.
Local Open Scope ebnf_scope.

(** ** Heights of derivations *)
Inductive fitn : nat -> ebnf -> list kind -> Prop :=
| fitn_token n k : fitn (S n) (T k) [k]
| fitn_rule n r ks : fitn n (coded r) ks -> fitn (S n) (R r) ks
| fitn_nil n : fitn (S n) (Seq []) []
| fitn_cons n e es ks1 ks2 : fitn n e ks1 -> fitn n (Seq es) ks2 -> fitn (S n) (Seq (e :: es)) (ks1 ++ ks2)
| fitn_alt n e es ks : In e es -> fitn n e ks -> fitn (S n) (Alt es) ks
| fitn_none n e : fitn (S n) (Opt e) []
| fitn_some n e ks : fitn n e ks -> fitn (S n) (Opt e) ks
| fitn_end n e : fitn (S n) (Star e) []
| fitn_more n e ks1 ks2 : fitn n e ks1 -> fitn n (Star e) ks2 -> fitn (S n) (Star e) (ks1 ++ ks2)
| fitn_plus n e ks1 ks2 : fitn n e ks1 -> fitn n (Star e) ks2 -> fitn (S n) (Plus e) (ks1 ++ ks2)
| fitn_but n k e k' ks : fitn n e (k' :: ks) -> k' <> k -> fitn (S n) (But k e) (k' :: ks).

Lemma fitn_up n e ks : fitn n e ks -> forall m, n <= m -> fitn m e ks.
Proof.
  induction 1; intros m L; (destruct m as [|m]; [lia|]).
  - apply fitn_token.
  - apply fitn_rule. apply IHfitn. lia.
  - apply fitn_nil.
  - apply fitn_cons; [apply IHfitn1|apply IHfitn2]; lia.
  - eapply fitn_alt; [eassumption|]. apply IHfitn. lia.
  - apply fitn_none.
  - apply fitn_some. apply IHfitn. lia.
  - apply fitn_end.
  - apply fitn_more; [apply IHfitn1|apply IHfitn2]; lia.
  - apply fitn_plus; [apply IHfitn1|apply IHfitn2]; lia.
  - apply fitn_but; [apply IHfitn; lia|assumption].
Qed.
Lemma fits_fitn e ks : fits coded e ks -> exists n, fitn n e ks.
Proof.
  induction 1;
    repeat match goal with H : exists n, _ |- _ => let n := fresh "n" in destruct H as [n H] end;
    try (match goal with A : fitn ?a _ _, B : fitn ?b _ _ |- _ =>
           apply fitn_up with (m := a + b) in A; [|lia]; apply fitn_up with (m := a + b) in B; [|lia] end);
    first [solve [exists 1; constructor] | eexists; econstructor; eassumption].
Qed.
Lemma fitn_fits n e ks : fitn n e ks -> fits coded e ks.
Proof. induction 1; econstructor; eassumption. Qed.

(** ** First tokens *)
Fixpoint firsts (n : nat) (e : ebnf) {struct n} : option (bool * list kind) :=
  match n with
  | O => None
  | S n =>
      match e with
      | T k => Some (false, [k])
      | R r => firsts n (coded r)
      | Seq [] => Some (true, [])
      | Seq (d :: ds) =>
          match firsts n d with
          | Some (true, ks) => match firsts n (Seq ds) with Some (b, ks') => Some (b, ks ++ ks') | None => None end
          | o => o
          end
      | Alt ds =>
          fold_right (fun d o => match firsts n d, o with Some (b, ks), Some (b', ks') => Some (b || b', ks ++ ks') | _, _ => None end)
            (Some (false, [])) ds
      | Opt d | Star d => match firsts n d with Some (_, ks) => Some (true, ks) | None => None end
      | Plus d => firsts n d
      | But k d => match firsts n d with Some (_, ks) => Some (false, ks) | None => None end
      end
  end.
Definition begins (b : bool) (s : list kind) (ks : list kind) : Prop :=
  match ks with [] => b = true | k :: _ => In k s end.
Lemma firsts_sound n : forall e b s ks, firsts n e = Some (b, s) -> fits coded e ks -> begins b s ks.
Proof.
  induction n as [|n IH]; intros e b s ks; cbn [firsts]; [discriminate|]. destruct e as [k|r|es|es|d|d|d|k d]; intros H F.
  - injection H as <- <-. inversion F; subst. now left.
  - inversion F; subst. eapply IH; eauto.
  - destruct es as [|d ds].
    + injection H as <- <-. inversion F; subst. reflexivity.
    + destruct (firsts n d) as [[b1 s1]|] eqn:D; [|discriminate].
      inversion F as [| | |e es' k1 k2 F1 F2| | | | | | |]; subst. pose proof (IH _ _ _ _ D F1) as B1.
      destruct b1.
      * destruct (firsts n (Seq ds)) as [[b2 s2]|] eqn:D2; [|discriminate]. injection H as <- <-. pose proof (IH _ _ _ _ D2 F2) as B2.
        destruct k1 as [|k1 ks1]; cbn in *; [|apply in_or_app; now left]. destruct k2; cbn in *; [exact B2|apply in_or_app; now right].
      * injection H as <- <-. destruct k1; cbn in *; [discriminate|exact B1].
  - inversion F as [| | | |e es' k' I F1| | | | | |]; subst. clear F. revert b s H. induction es as [|d ds IHs]; intros b s H; [destruct I|].
    cbn [fold_right] in H. destruct (firsts n d) as [[b1 s1]|] eqn:D; [|discriminate].
    destruct (fold_right _ _ ds) as [[b2 s2]|] eqn:D2; [|discriminate]. injection H as <- <-. destruct I as [->|I].
    + pose proof (IH _ _ _ _ D F1) as B1. destruct ks; cbn in *; [rewrite B1; reflexivity|apply in_or_app; now left].
    + specialize (IHs I _ _ eq_refl). destruct ks; cbn in *; [rewrite IHs; apply orb_true_r|apply in_or_app; now right].
  - destruct (firsts n d) as [[b1 s1]|] eqn:D; [|discriminate]. injection H as <- <-.
    inversion F as [| | | | |e|e k' F1| | | |]; subst; [reflexivity|]. pose proof (IH _ _ _ _ D F1) as B1. destruct ks; [reflexivity|exact B1].
  - destruct (firsts n d) as [[b1 s1]|] eqn:D; [|discriminate]. injection H as <- <-.
    destruct (Recognise.star_cases _ _ _ F) as [->|(k1 & k2 & N1 & -> & F1 & F2)]; [reflexivity|].
    pose proof (IH _ _ _ _ D F1) as B1. destruct k1; [contradiction|exact B1].
  - inversion F as [| | | | | | | | |e k1 k2 F1 F2|]; subst. destruct k1 as [|k1 ks1].
    + cbn [app]. pose proof (IH _ _ _ _ H F1) as B1. cbn in B1. subst b.
      destruct (Recognise.star_cases _ _ _ F2) as [->|(k1 & k3 & N1 & -> & F3 & F4)]; [reflexivity|].
      pose proof (IH _ _ _ _ H F3) as B1. destruct k1; [contradiction|exact B1].
    + pose proof (IH _ _ _ _ H F1) as B1. exact B1.
  - destruct (firsts n d) as [[b1 s1]|] eqn:D; [|discriminate]. injection H as <- <-.
    inversion F as [| | | | | | | | | |k' e k2 ks' F1 N]; subst. pose proof (IH _ _ _ _ D F1) as B1. exact B1.
Qed.

(** ** What may follow a phrase *)
Definition has (ks : list kind) (k : kind) : bool := existsb (kind_eqb k) ks.
Lemma has_In ks k : has ks k = true <-> In k ks.
Proof.
  unfold has. rewrite existsb_exists. split.
  - intros (x & I & E). apply kind_eqb_eq in E. now subst.
  - intros I. exists k. split; [exact I|]. apply kind_eqb_eq. reflexivity.
Qed.
Lemma every_kind (p : kind -> bool) : forallb p all_kinds = true -> forall k, p k = true.
Proof.
  intros H k. rewrite forallb_forall in H. apply H. pose proof (kind_of_id k) as E. exact (proj1 (find_some _ _ E)).
Qed.

(** Tokens that would continue a phrase. *)
Definition goes_on (r : rule) : list kind :=
  let atom_ := [T_AtomString] in
  let atom_expr_ := PyLeftParen :: PyLeftBracket :: PyDot :: atom_ in
  let power_ := PyPower :: atom_expr_ in
  let term_ := PyMul :: PyDiv :: PyFloorDiv :: PyModulo :: PyMatrice :: power_ in
  let arith_ := PyPlus :: PyMinus :: term_ in
  let shift_ := PyShiftLeft :: PyShiftRight :: arith_ in
  let and_ := PyBitAnd :: shift_ in
  let xor_ := PyBitXor :: and_ in
  let expr_ := PyBitOr :: xor_ in
  let comparison_ := PyLess :: PyLessEqual :: PyEqual :: PyGreaterEqual :: PyGreater :: PyNotEqual :: PyIn :: PyIs :: PyNot :: expr_ in
  let and_test_ := PyAnd :: comparison_ in
  let or_test_ := PyOr :: and_test_ in
  let test_ := PyIf :: or_test_ in
  match r with
  | atom => atom_ | atom_expr => atom_expr_ | power | factor => power_ | term => term_ | arith_expr => arith_
  | shift_expr => shift_ | and_expr => and_ | xor_expr => xor_ | expr | star_expr => expr_
  | comparison | not_test => comparison_ | and_test => and_test_ | or_test | lambdef_nocond | test_nocond => or_test_
  | test | lambdef => test_
  | namedexpr_test => PyColonAssign :: test_
  | yield_expr => PyComa :: test_
  | _ => []
  end.
Definition line_end : list kind := [PySemiColon; T_Newline].
(** Tokens that may follow, where the grammar has few of them. *)
Definition followers (r : rule) : option (list kind) :=
  match r with
  | testlist_comp | comp_iter | comp_for | comp_if | sync_comp_for => Some [PyRightParen; PyRightBracket]
  | subscriptlist | sliceop => Some [PyRightBracket]
  | arglist => Some [PyRightParen]
  | subscript => Some [PyComa; PyRightParen; PyRightBracket]
  | exprlist => Some [PyIn]
  | testlist => Some [T_Newline; PySemiColon; T_EOF]
  | dictorsetmaker => Some [PyRightCurly]
  | testlist_star_expr | yield_stmt => Some ends_star_list
  | varargslist => Some [PyColon; PyRightParen]
  | small_stmt | expr_stmt | annassign | del_stmt | pass_stmt | flow_stmt | break_stmt | continue_stmt | return_stmt
  | raise_stmt | import_stmt | import_from | global_stmt | nonlocal_stmt | assert_stmt => Some line_end
  | import_as_name => Some [PyComa; PyRightParen; PySemiColon; T_Newline]
  | import_as_names => Some [PyRightParen; PySemiColon; T_Newline]
  | dotted_name => Some [PyImport]
  | with_item => Some [PyComa; PyColon; PyRightParen]
  | vfpdef => Some [PyComa; PyColon; PyRightParen]
  | func_type => Some [T_Newline; T_EOF]
  | typelist => Some [PyRightParen]
  | _ => None
  end.
Definition block_rule (r : rule) : bool :=
  match r with
  | stmt | compound_stmt | if_stmt | while_stmt | for_stmt | try_stmt | with_stmt | funcdef | classdef | async_stmt => true
  | _ => false
  end.
Definition okay (r : rule) (k : kind) : bool :=
  match followers r with
  | Some ks => has ks k
  | None => if block_rule r then negb (has [PyElif; PyElse; PyExcept; PyFinally] k) else negb (has (goes_on r) k)
  end.
Definition allows (r : rule) (la : look) : Prop := exists t, snd la = Some t /\ okay r (tk_kind t) = true.

Lemma allows_token r p t k : tk_kind t = k -> okay r k = true -> allows r (p, Some t).
Proof. intros <- H. exists t. auto. Qed.
Lemma allows_more r r' la : allows r la -> forallb (fun k => implb (okay r k) (okay r' k)) all_kinds = true -> allows r' la.
Proof.
  intros (t & E & O) H. exists t. split; [exact E|]. pose proof (every_kind _ H (tk_kind t)) as I. cbn in I. rewrite O in I. exact I.
Qed.
Lemma allows_stops r ks la : allows r la -> forallb (fun k => implb (okay r k) (negb (has ks k))) all_kinds = true -> stops ks la.
Proof.
  intros (t & E & O) H. exists t. split; [exact E|]. pose proof (every_kind _ H (tk_kind t)) as I. cbn in I. rewrite O in I. cbn in I.
  intros J. apply has_In in J. rewrite J in I. discriminate.
Qed.
Lemma allows_before r ks la : allows r la -> forallb (fun k => implb (okay r k) (has ks k)) all_kinds = true -> before ks la.
Proof.
  intros (t & E & O) H. exists t. split; [exact E|]. pose proof (every_kind _ H (tk_kind t)) as I. cbn in I. rewrite O in I.
  now apply has_In.
Qed.
Lemma stops_differs ks la : stops ks la -> differs ks la.
Proof. intros (t & E & N) u E'. rewrite E in E'. injection E' as <-. exact N. Qed.
Lemma stops_token ks p t k : tk_kind t = k -> has ks k = false -> stops ks (p, Some t).
Proof. intros <- H. exists t. split; [reflexivity|]. intros I. apply has_In in I. congruence. Qed.
Lemma before_token ks p t k : tk_kind t = k -> has ks k = true -> before ks (p, Some t).
Proof. intros <- H. exists t. split; [reflexivity|]. now apply has_In. Qed.

(** ** Plain trees *)
Lemma plain_make x : plain_node x -> Forall plain (kids (items x)) -> plain x.
Proof.
  intros N H. unfold plain. rewrite subnodes_items. constructor; [exact N|]. clear N.
  induction (items x) as [|i ps IH]; [constructor|]. cbn [kids flat_map] in *. destruct i; cbn in *.
  - exact (IH H).
  - inversion H as [|y ys H1 H2]; subst. apply Forall_app. split; [exact H1|exact (IH H2)].
Qed.
Ltac plainly :=
  apply plain_make; [first [exact I | reflexivity | assumption]|];
  cbn [items opt_pair opt_node_pair opt_node_tokens2 opt_nodes opt_tokens opt_tokens2 opt_list_nodes fst_opt snd_opt];
  rewrite ?kids_app, ?kids_sub, ?kids_leaf, ?kids_pairs, ?kids_opt_tokens, ?kids_opt_tokens2, ?kids_opt_list, ?kids_opt_nodes, ?kids_nil;
  repeat first [rewrite kids_sub_cons | rewrite kids_leaf_cons | rewrite kids_nil];
  cbn [app rev opt_list]; rewrite ?app_nil_r;
  repeat match goal with
  | |- _ => assumption
  | |- Forall plain [] => apply Forall_nil
  | |- Forall plain (_ :: _) => apply Forall_cons
  | |- Forall plain (_ ++ _) => apply Forall_app; split
  | |- Forall plain (rev _) => apply Forall_rev
  | |- plain _ => plainly
  end.

(** ** Derivations below a height *)
Definition fn_of (r : rule) : option fn :=
  match r with
  | atom => Some F_atom | atom_expr => Some F_atom_expr | power => Some F_power | factor => Some F_factor | term => Some F_term
  | arith_expr => Some F_arith | shift_expr => Some F_shift | and_expr => Some F_and_expr | xor_expr => Some F_xor_expr
  | expr => Some F_expr | star_expr => Some F_star_expr | comparison => Some F_comparison | not_test => Some F_not_test
  | and_test => Some F_and_test | or_test => Some F_or_test | test_nocond => Some F_no_cond_test | test => Some F_test
  | namedexpr_test => Some F_named_expression | lambdef => Some (F_lambda_def true) | lambdef_nocond => Some (F_lambda_def false)
  | testlist_comp => Some F_testlist_comp | trailer => Some F_trailer | arglist | subscriptlist => Some F_subscript_list
  | subscript | sliceop => Some F_subscript | exprlist => Some F_exprlist | testlist => Some F_testlist
  | dictorsetmaker => Some F_dictorset_maker | comp_iter => Some F_comp_iter | sync_comp_for => Some F_sync_comp_for
  | comp_for => Some F_comp_for | comp_if => Some F_comp_if | yield_expr | yield_stmt => Some F_yield_expr
  | testlist_star_expr => Some F_testlist_star_expr | varargslist => Some F_var_args_list
  | simple_stmt => Some F_simple_stmt | small_stmt => Some F_small_stmt | expr_stmt => Some F_expr_stmt | del_stmt => Some F_del_stmt
  | pass_stmt => Some F_pass_stmt | flow_stmt => Some F_flow_stmt | break_stmt => Some F_break_stmt
  | continue_stmt => Some F_continue_stmt | return_stmt => Some F_return_stmt | raise_stmt => Some F_raise_stmt
  | import_stmt => Some F_import_stmt | import_from => Some F_import_from | import_as_name => Some F_import_as_name
  | import_as_names => Some F_import_as_names | dotted_name => Some F_dotted_name | global_stmt => Some F_global_stmt
  | nonlocal_stmt => Some F_nonlocal_stmt | assert_stmt => Some F_assert_stmt | with_item => Some F_with_item
  | parameters => Some F_parameters | func_type => Some F_func_type | typelist => Some F_type_list
  | _ => None
  end.

Section Below.
Context (n : nat).
Definition below (e : ebnf) (l : list ptok) : Prop := exists m, m < n /\ fitn m e (kinds l).
Notation F := below.

Lemma F_fits e l : F e l -> fits coded e (kinds l).
Proof. intros (m & _ & H). exact (fitn_fits _ _ _ H). Qed.
Lemma split_kinds (l : list ptok) a b : kinds l = a ++ b -> exists l1 l2, l = l1 ++ l2 /\ kinds l1 = a /\ kinds l2 = b.
Proof. intros H. unfold kinds in *. apply map_eq_app in H. destruct H as (l1 & l2 & -> & <- & <-). eauto. Qed.
Lemma F_T k l : F (T k) l -> exists p t, l = [(p, t)] /\ tk_kind t = k.
Proof.
  intros (m & _ & H). inversion H; subst. destruct l as [|[p t] [|? ?]]; try discriminate.
  match goal with E : _ = kinds _ |- _ => injection E as E end. eauto.
Qed.
Lemma F_R r l : F (R r) l -> F (coded r) l.
Proof. intros (m & L & H). inversion H; subst. eexists. split; [|eassumption]. lia. Qed.
Lemma F_nil l : F (Seq []) l -> l = [].
Proof. intros (m & _ & H). inversion H as [| |m' E1 E2 E3| | | | | | | |]; subst. destruct l; [reflexivity|discriminate]. Qed.
Lemma F_cons e es l : F (Seq (e :: es)) l -> exists l1 l2, l = l1 ++ l2 /\ F e l1 /\ F (Seq es) l2.
Proof.
  intros (m & L & H). inversion H; subst.
  match goal with E : _ ++ _ = kinds l |- _ => symmetry in E; apply split_kinds in E; destruct E as (l1 & l2 & -> & <- & <-) end.
  exists l1, l2. split; [reflexivity|]. split; (eexists; split; [|eassumption]; lia).
Qed.
Lemma F_alt e es l : F (Alt (e :: es)) l -> F e l \/ F (Alt es) l.
Proof.
  intros (m & L & H). inversion H as [| | | |m' d ds ks I H1| | | | | |]; subst. destruct I as [->|I].
  - left. exists m'. split; [lia|exact H1].
  - right. exists (S m'). split; [lia|]. eapply fitn_alt; eassumption.
Qed.
Lemma F_alt_nil l : F (Alt []) l -> False.
Proof. intros (m & L & H). inversion H as [| | | |m' d ds ks I H1| | | | | |]; subst. destruct I. Qed.
Lemma F_opt e l : F (Opt e) l -> l = [] \/ F e l.
Proof.
  intros (m & L & H). inversion H; subst; [left; destruct l; [reflexivity|discriminate]|right]. eexists. split; [|eassumption]. lia.
Qed.
Lemma F_plus e l : F (Plus e) l -> exists l1 l2, l = l1 ++ l2 /\ F e l1 /\ F (Star e) l2.
Proof.
  intros (m & L & H). inversion H; subst.
  match goal with E : _ ++ _ = kinds l |- _ => symmetry in E; apply split_kinds in E; destruct E as (l1 & l2 & -> & <- & <-) end.
  exists l1, l2. split; [reflexivity|]. split; (eexists; split; [|eassumption]; lia).
Qed.
Lemma F_but k e l : F (But k e) l -> F e l /\ ~ starts_with k l.
Proof.
  intros (m & L & H). inversion H as [| | | | | | | | | |m' k1 e1 k' ks H1 N]; subst. split.
  - exists m'. split; [lia|]. congruence.
  - intros (p & t & l' & -> & K). match goal with E : _ = kinds _ |- _ => injection E as E _ end. congruence.
Qed.
Lemma F_star (P : list ptok -> Prop) e : P [] -> (forall l1 l2, F e l1 -> F (Star e) l2 -> P l2 -> P (l1 ++ l2)) ->
  forall l, F (Star e) l -> P l.
Proof.
  intros P0 P1 l (m & L & H). revert l L H. induction m as [|m IHm]; intros l L H; [inversion H|].
  inversion H; subst; [destruct l; [exact P0|discriminate]|].
  match goal with E : _ ++ _ = kinds l |- _ => symmetry in E; apply split_kinds in E; destruct E as (l1 & l2 & -> & <- & <-) end.
  apply P1; [exists m; split; [lia|assumption]|exists m; split; [lia|assumption]|]. apply IHm; [lia|assumption].
Qed.

Lemma ahead_app (a b : list ptok) la : ahead (a ++ b) la = ahead a (ahead b la).
Proof. destruct a as [|[p t] a]; reflexivity. Qed.
Definition begins_okay (d : nat) (r : rule) (e : ebnf) : bool :=
  match firsts d e with Some (_, s) => forallb (okay r) s | None => false end.
Definition not_empty (d : nat) (e : ebnf) : bool := match firsts d e with Some (b, _) => negb b | None => false end.
Lemma ahead_some d e l r la : F e l -> begins_okay d r e = true -> l <> [] -> allows r (ahead l la).
Proof.
  intros H B N. apply F_fits in H. unfold begins_okay in B. destruct (firsts d e) as [[b s]|] eqn:Q; [|discriminate].
  pose proof (firsts_sound _ _ _ _ _ Q H) as G. destruct l as [|[p t] l]; [congruence|]. cbn in G. exists t. split; [reflexivity|].
  rewrite forallb_forall in B. exact (B _ G).
Qed.
Lemma ahead_any d e l r la : F e l -> begins_okay d r e = true -> allows r la -> allows r (ahead l la).
Proof. intros H B A. destruct l as [|x l]; [exact A|]. eapply ahead_some; [exact H|exact B|discriminate]. Qed.
Lemma F_not_empty d e l : F e l -> not_empty d e = true -> l <> [].
Proof.
  intros H B ->. apply F_fits in H. unfold not_empty in B. destruct (firsts d e) as [[b s]|] eqn:Q; [|discriminate].
  pose proof (firsts_sound _ _ _ _ _ Q H) as G. cbn in G. subst. discriminate.
Qed.
Lemma ahead_must d e l r la : F e l -> begins_okay d r e = true -> not_empty d e = true -> allows r (ahead l la).
Proof. intros H B N. eapply ahead_some; eauto. eapply F_not_empty; eauto. Qed.

Lemma tokens_of k l : F (Star (T k)) l -> Forall (fun x => tk_kind (snd x) = k) l.
Proof.
  revert l. apply F_star; [constructor|]. intros l1 l2 H _ IHs. apply F_T in H. destruct H as (p & t & -> & K). constructor; auto.
Qed.
Lemma names_of k l : F (Star << T k, T T_AtomName >>) l -> exists ns ts, E_names k l ns ts.
Proof.
  revert l. apply F_star; [exists [], []; constructor|]. intros l1 l2 H _ (ns & ts & IHs).
  apply F_cons in H. destruct H as (a & b & -> & H1 & H2). apply F_cons in H2. destruct H2 as (c & d & -> & H2 & H3).
  apply F_nil in H3. subst d. apply F_T in H1. apply F_T in H2. destruct H1 as (p & t & -> & K1). destruct H2 as (q & u & -> & K2).
  exists (u :: ns), (t :: ts). cbn [app]. constructor; assumption.
Qed.

End Below.
Arguments F_fits {n}.
Arguments F_T {n}.
Arguments F_R {n}.
Arguments F_nil {n}.
Arguments F_cons {n}.
Arguments F_alt {n}.
Arguments F_alt_nil {n}.
Arguments F_opt {n}.
Arguments F_plus {n}.
Arguments F_but {n}.
Arguments F_star {n}.
Arguments ahead_some {n}.
Arguments ahead_any {n}.
Arguments F_not_empty {n}.
Arguments ahead_must {n}.
Arguments tokens_of {n}.
Arguments names_of {n}.

Ltac open :=
  repeat match goal with
  | H : below _ (T _) _ |- _ => apply F_T in H; let p := fresh "p" in let t := fresh "t" in let K := fresh "K" in destruct H as (p & t & -> & K)
  | H : below _ (Seq []) ?l |- _ => apply F_nil in H; subst l
  | H : below _ (Seq (_ :: _)) _ |- _ =>
      apply F_cons in H; let a := fresh "a" in let b := fresh "b" in let H1 := fresh "H" in let H2 := fresh "H" in destruct H as (a & b & -> & H1 & H2)
  | H : below _ (Alt []) _ |- _ => destruct (F_alt_nil _ H)
  | H : below _ (Alt (_ :: _)) _ |- _ => apply F_alt in H; destruct H as [H|H]
  | H : below _ (Opt _) _ |- _ => apply F_opt in H; destruct H as [->|H]
  | H : below _ (But _ _) _ |- _ => apply F_but in H; let N := fresh "N" in destruct H as [H N]
  | H : below _ (Plus _) _ |- _ =>
      apply F_plus in H; let a := fresh "a" in let b := fresh "b" in let H1 := fresh "H" in let H2 := fresh "H" in destruct H as (a & b & -> & H1 & H2)
  end; cbn [app]; rewrite ?app_nil_r; rewrite <- ?app_assoc; cbn [app].

Ltac allow :=
  rewrite ?ahead_app; cbn [ahead app];
  first
  [ assumption
  | eapply allows_token; [eassumption|vm_compute; reflexivity]
  | match goal with A : allows _ ?la |- allows _ ?la => eapply (allows_more _ _ _ A); vm_compute; reflexivity end
  | eapply (ahead_must 100); [eassumption|vm_compute; reflexivity|vm_compute; reflexivity]
  | eapply (ahead_any 100); [eassumption|vm_compute; reflexivity|allow] ].
Ltac suffix l L :=
  lazymatch L with
  | l => constr:(@nil ptok)
  | l ++ ?r => r
  | _ :: ?r => suffix l r
  | _ ++ ?r => suffix l r
  end.
Ltac next l :=
  lazymatch goal with |- exists _, E _ ?L ?la _ /\ _ =>
    let s := suffix l L in let la' := eval cbn [ahead app] in (ahead s la) in la' end.
Ltac stop :=
  rewrite ?ahead_app; cbn [ahead app];
  first [ eassumption
        | eapply stops_token; [eassumption|vm_compute; reflexivity]
        | match goal with A : allows _ ?la |- stops _ ?la => eapply (allows_stops _ _ _ A); vm_compute; reflexivity end
        | apply stops_differs; stop
        | eapply before_token; [eassumption|vm_compute; reflexivity]
        | match goal with A : allows _ ?la |- before _ ?la => eapply (allows_before _ _ _ A); vm_compute; reflexivity end ].

Ltac make c := eexists; split; [eapply c; try eassumption; try stop; try (cbn; tauto)|plainly].


Section Phrases.
Context (n : nat).
Notation F := (below n).
Context (IH : forall r f l la, fn_of r = Some f -> F (R r) l -> allows r la -> exists x, E f l la x /\ plain x).

Ltac get r :=
  match reverse goal with H : F (R r) ?l |- _ =>
    let la' := next l in
    let x := fresh "x" in let HE := fresh "HE" in let HP := fresh "HP" in
    destruct (IH r _ l la' eq_refl H ltac:(allow)) as (x & HE & HP); clear H end.
Ltac getall := repeat match reverse goal with H : F (R ?r) _ |- _ => get r end.
(** ** Lists *)
Definition reads_as (e : ebnf) (fs : list fn) (r : rule) : Prop :=
  forall l la, F e l -> allows r la -> exists f x, In f fs /\ E f l la x /\ plain x.
Lemma reads_rule r f : fn_of r = Some f -> reads_as (R r) [f] r.
Proof. intros Q l la H A. destruct (IH r f l la Q H A) as (x & HE & HP). exists f, x. split; [now left|auto]. Qed.
Lemma reads_element : reads_as element [F_star_expr; F_named_expression] namedexpr_test.
Proof.
  intros l la H A. unfold element in H. open.
  - destruct (IH namedexpr_test _ _ la eq_refl H A) as (x & HE & HP). exists F_named_expression, x. split; [now right; left|auto].
  - destruct (IH star_expr _ _ la eq_refl H ltac:(allow)) as (x & HE & HP). exists F_star_expr, x. split; [now left|auto].
Qed.
Lemma reads_starred : reads_as starred_test [F_star_expr; F_test] test.
Proof.
  intros l la H A. unfold starred_test in H. open.
  - destruct (IH test _ _ la eq_refl H A) as (x & HE & HP). exists F_test, x. split; [now right; left|auto].
  - destruct (IH star_expr _ _ la eq_refl H ltac:(allow)) as (x & HE & HP). exists F_star_expr, x. split; [now left|auto].
Qed.
Lemma reads_param : reads_as param [F_var_args_assignments] vfpdef.
Proof.
  intros l la H A. unfold param in H.
  cut (exists x, E F_var_args_assignments l la x /\ plain x); [intros (x & HE & HP); exists F_var_args_assignments, x; split; [now left|auto]|].
  open; getall.
  - eexists. split; [eapply E_var_arg; [apply E_vfp_def; eassumption|stop]|plainly].
  - eexists. split.
    { eapply (E_var_arg_default [_]); [apply E_vfp_def; eassumption|eassumption|eassumption]. }
    plainly.
Qed.

Lemma rest_of e fs k r : reads_as e fs r -> okay r k = true -> forall l, F (Star << T k, e >>) l -> forall la, allows r la ->
  exists xs ts, E_rest fs k l la xs ts /\ Forall plain xs /\ (ts = [] -> l = [] /\ xs = []).
Proof.
  intros Q O. apply (F_star (fun l => forall la, allows r la -> exists xs ts, E_rest fs k l la xs ts /\ Forall plain xs /\ (ts = [] -> l = [] /\ xs = []))).
  - intros la A. exists [], []. repeat split; constructor.
  - intros l1 l2 H H2 IHs la A. open. destruct (IHs la A) as (xs & ts & HR & HP & HT).
    assert (A2 : allows r (ahead l2 la)).
    { destruct l2 as [|[q u] l2]; [exact A|]. exists u. split; [reflexivity|]. clear - H2 O.
      apply F_fits in H2. apply Recognise.star_cases in H2. destruct H2 as [H2|(k1 & k2 & N & E & H1 & _)]; [discriminate|].
      inversion H1 as [| | |d ds a b H3 H4| | | | | | |]; subst. inversion H3; subst. cbn in E. injection E as -> _. exact O. }
    match goal with H : F e _ |- _ => destruct (Q _ _ H A2) as (f & x & If & HE & HX) end. exists (x :: xs), (t :: ts). split; [|split; [constructor; assumption|discriminate]].
    apply rest_cons with (f := f); assumption.
Qed.
Lemma items_of e fs k r : reads_as e fs r -> okay r k = true -> forall l la, F << e, Star << T k, e >> >> l -> allows r la ->
  exists xs ts, E_items fs k l la xs ts /\ Forall plain xs /\ (ts = [] -> exists f x, In f fs /\ E f l la x /\ xs = [x]).
Proof.
  intros Q O l la H A. apply F_cons in H. destruct H as (b & l2 & -> & H & H1). apply F_cons in H1. destruct H1 as (a0 & l3 & -> & H1 & H2). apply F_nil in H2. subst l3.
  rewrite app_nil_r. destruct (rest_of e fs k r Q O _ H1 la A) as (xs & ts & HR & HP & HT).
  assert (A2 : allows r (ahead a0 la)).
  { destruct a0 as [|[q u] a0]; [exact A|]. exists u. split; [reflexivity|]. clear - H1 O.
    apply F_fits in H1. apply Recognise.star_cases in H1. destruct H1 as [H2|(k1 & k2 & N & E & H1 & _)]; [discriminate|].
    inversion H1 as [| | |d ds a b H3 H4| | | | | | |]; subst. inversion H3; subst. cbn in E. injection E as -> _. exact O. }
  match goal with H : F e _ |- _ => destruct (Q _ _ H A2) as (f & x & If & HE & HX) end. exists (x :: xs), ts. split; [|split; [constructor; assumption|]].
  - apply items_intro with (f := f); assumption.
  - intros ->. destruct (HT eq_refl) as [-> ->]. exists f, x. rewrite app_nil_r. repeat split; assumption.
Qed.
(** (e sep)* d: the items before the last one. *)
Lemma before_of e fs k r d r' : reads_as e fs r -> reads_as d fs r' -> okay r k = true -> forall l, F (Star << e, T k >>) l -> forall l' la,
  F d l' -> allows r' la -> exists xs ts, E_items fs k (l ++ l') la xs ts /\ Forall plain xs /\ (ts = [] -> exists f x, In f fs /\ E f (l ++ l') la x /\ xs = [x]).
Proof.
  intros Q Q' O. apply (F_star (fun l => forall l' la, F d l' -> allows r' la -> exists xs ts, E_items fs k (l ++ l') la xs ts /\ Forall plain xs /\ (ts = [] -> exists f x, In f fs /\ E f (l ++ l') la x /\ xs = [x]))).
  - intros l' la H A. destruct (Q' _ _ H A) as (f & x & If & HE & HX). exists [x], []. split; [|split; [constructor; [exact HX|constructor]|]].
    + cbn [app]. rewrite <- (app_nil_r l'). apply items_intro with (f := f); [exact If|exact HE|constructor].
    + intros _. exists f, x. cbn [app]. auto.
  - intros l1 l2 H H2 IHs l' la HD A. open. destruct (IHs l' la HD A) as (xs & ts & HI & HP & HT).
    match goal with H : F e ?a |- _ => destruct (Q a (p, Some t) H) as (f & x & If & HE & HX) end; [eapply allows_token; eassumption|].
    exists (x :: xs), (t :: ts). split; [|split; [constructor; assumption|discriminate]].
    inversion HI as [fs' k' g m1 y m2 ys us la' Ig HG HR]; subst. apply items_intro with (f := f); [exact If|exact HE|].
    apply rest_cons with (f := g); first [assumption|reflexivity].
Qed.
Lemma many_of d r f : fn_of r = Some f -> begins_okay d r (R r) = true -> forall l, F (Star (R r)) l -> forall la, allows r la ->
  exists xs, E_many f l la xs /\ Forall plain xs /\ (xs = [] -> l = []).
Proof.
  intros Q O. apply (F_star (fun l => forall la, allows r la -> exists xs, E_many f l la xs /\ Forall plain xs /\ (xs = [] -> l = []))).
  - intros la A. exists []. repeat split; constructor.
  - intros l1 l2 H H2 IHs la A. destruct (IHs la A) as (xs & HM & HP & HT).
    assert (A2 : allows r (ahead l2 la)).
    { destruct l2 as [|[q u] l2]; [exact A|]. exists u. split; [reflexivity|]. clear - H2 O.
      apply F_fits in H2. apply Recognise.star_cases in H2. destruct H2 as [H2|(k1 & k2 & N & E & H1 & _)]; [discriminate|].
      unfold begins_okay in O. destruct (firsts d (R r)) as [[b s]|] eqn:V; [|discriminate].
      pose proof (firsts_sound _ _ _ _ _ V H1) as G. destruct k1 as [|k1 ks]; [congruence|]. cbn in E, G. injection E as -> _.
      rewrite forallb_forall in O. exact (O _ G). }
    destruct (IH r f _ _ Q H A2) as (x & HE & HX). exists (x :: xs). split; [constructor; assumption|]. split; [constructor; assumption|discriminate].
Qed.

(** Lists at the place where they stand. *)
Ltac list_ reads_ H l :=
  let la' := next l in
  let xs := fresh "xs" in let ts := fresh "ts" in let HI := fresh "HI" in let HP := fresh "HP" in let HT := fresh "HT" in
  destruct (items_of _ _ PyComa _ reads_ eq_refl l la' H ltac:(allow)) as (xs & ts & HI & HP & HT); clear H.
Ltac lists :=
  repeat match goal with
  | H : F tests ?l |- _ => list_ (reads_rule test F_test eq_refl) H l
  | H : F types ?l |- _ => list_ (reads_rule test F_test eq_refl) H l
  | H : F starred_tests ?l |- _ => list_ reads_starred H l
  | H : F elements ?l |- _ => list_ reads_element H l
  | H : F params ?l |- _ => list_ reads_param H l
  end.
Definition done (r : rule) : Prop :=
  forall f l la, fn_of r = Some f -> F (coded r) l -> allows r la -> exists x, E f l la x /\ plain x.
Ltac rule := intros f l la Q H A; injection Q as <-; cbn [coded] in H.

(** ** Atoms *)
Lemma maker_shape l la x : E F_dictorset_maker l la x ->
  exists a b ns ts, x = DictionaryContainer a b ns ts \/ x = SetContainer a b ns ts.
Proof. inversion 1; subst; try discriminate; eauto 6. Qed.
Lemma done_atom : done atom.
Proof.
  rule; open; getall.
  - make E_tuple_empty.
  - make (E_tuple F_yield_expr).
  - make (E_tuple F_testlist_comp).
  - make E_list_empty.
  - make E_list.
  - match goal with H : E F_dictorset_maker _ _ _ |- _ => destruct (maker_shape _ _ _ H) as (i & j & ns & ts & [-> | ->]) end;
      [make E_dictionary|make E_set].
  - eexists; split; [eapply (E_constant AtomName); rewrite K; cbn; tauto|plainly].
  - eexists; split; [eapply (E_constant AtomNumber); rewrite K; cbn; tauto|plainly].
  - match goal with H : F (Star _) _ |- _ => apply tokens_of in H end. make E_strings.
  - eexists; split; [eapply (E_constant AtomElipsis); rewrite K; cbn; tauto|plainly].
  - eexists; split; [eapply (E_constant AtomNone); rewrite K; cbn; tauto|plainly].
  - eexists; split; [eapply (E_constant AtomTrue); rewrite K; cbn; tauto|plainly].
  - eexists; split; [eapply (E_constant AtomFalse); rewrite K; cbn; tauto|plainly].
Qed.
Lemma done_atom_expr : done atom_expr.
Proof.
  rule; open; getall.
  - match goal with H : F (Star _) _ |- _ => destruct (many_of 100 trailer F_trailer eq_refl ltac:(vm_compute; reflexivity) _ H la ltac:(allow)) as (xs & HM & HX & HN) end.
    destruct xs as [|y xs].
    + rewrite (HN eq_refl) in *. rewrite app_nil_r. exists x. split; [|assumption]. apply E_atom_expr_atom; [assumption|]. stop.
    + make E_atom_expr_trailers. discriminate.
  - match goal with H : F (Star _) _ |- _ => destruct (many_of 100 trailer F_trailer eq_refl ltac:(vm_compute; reflexivity) _ H la ltac:(allow)) as (xs & HM & HX & HN) end.
    make E_atom_expr_await.
Qed.
Lemma done_power : done power.
Proof.
  rule; open; getall.
  - exists x. split; [apply E_power_base; [assumption|stop]|assumption].
  - make E_power.
Qed.
Lemma done_factor : done factor.
Proof.
  rule; open; getall.
  - eexists; split; [eapply (E_unary UnaryPlus); [rewrite K; cbn; tauto|eassumption]|plainly].
  - eexists; split; [eapply (E_unary UnaryMinus); [rewrite K; cbn; tauto|eassumption]|plainly].
  - eexists; split; [eapply (E_unary UnaryInvert); [rewrite K; cbn; tauto|eassumption]|plainly].
  - exists x. split; [apply E_factor_power; assumption|assumption].
Qed.

(** ** Operators *)
Definition ops_of (e : ebnf) (ops : list (kind * infix)) : Prop :=
  forall l, F e l -> exists p t c, l = [(p, t)] /\ In (tk_kind t, c) ops.
Lemma infix_plain f g ops k c s e a t b : binary f = Some (g, ops) -> In (k, c) ops -> plain a -> plain b -> plain (c s e a t b).
Proof.
  destruct f; try discriminate; intros H; injection H as <- <-; intros I Ha Hb;
    repeat (destruct I as [I|I]; [injection I as <- <-; plainly|]); destruct I.
Qed.
Lemma chain_of rf rg f g ops o : fn_of rf = Some f -> fn_of rg = Some g -> binary f = Some (g, ops) ->
  coded rf = << R rg, Star << o, R rg >> >> -> ops_of o ops ->
  forallb (fun k => implb (okay rf k) (okay rg k)) all_kinds = true ->
  forallb (okay rg) (map fst ops) = true ->
  forallb (fun k => implb (okay rf k) (negb (has (continues f) k))) all_kinds = true ->
  done rf.
Proof.
  intros Qf Qg Bf C O A1 A2 A3 f' l la Q H A. assert (f' = f) by congruence. subst f'. clear Q. rewrite C in H.
  apply F_cons in H. destruct H as (l1 & l2 & -> & H & H1). apply F_cons in H1. destruct H1 as (l3 & l4 & -> & H1 & H2). apply F_nil in H2. subst l4. rewrite app_nil_r.
  pose proof (allows_more _ _ _ A A1) as Ag.
  assert (X : exists x, E_chain f (l1 ++ l3) la x /\ plain x).
  { assert (Y : forall m, (forall la', allows rg la' -> exists x, E_chain f m la' x /\ plain x) -> exists x, E_chain f (m ++ l3) la x /\ plain x).
    { clear H. revert l3 H1. apply (F_star (fun l3 => forall m, (forall la', allows rg la' -> exists x, E_chain f m la' x /\ plain x) -> exists x, E_chain f (m ++ l3) la x /\ plain x)).
      - intros m X. rewrite app_nil_r. exact (X la Ag).
      - intros a b H _ IHb m X. rewrite app_assoc. apply IHb. intros la' A'.
        apply F_cons in H. destruct H as (w & v & -> & H & H1). apply F_cons in H1. destruct H1 as (v1 & v2 & -> & H1 & H2). apply F_nil in H2. subst v2. rewrite app_nil_r.
        destruct (O _ H) as (p & t & c & -> & I). destruct (IH rg g _ la' Qg H1 A') as (y & Hy & Py).
        destruct (X (p, Some t)) as (x & Hx & Px).
        { exists t. split; [reflexivity|]. rewrite forallb_forall in A2. apply A2. apply in_map_iff. exists (tk_kind t, c). auto. }
        eexists. split; [cbn [app]; eapply chain_operator; eassumption|]. eapply infix_plain; eassumption. }
    apply Y. intros la' A'. destruct (IH rg g _ la' Qg H A') as (x & Hx & Px). exists x. split; [eapply chain_operand; eassumption|exact Px]. }
  destruct X as (x & Hx & Px). exists x. split; [|exact Px]. eapply E_binary; [exact Bf|exact Hx|]. exact (allows_stops _ _ _ A A3).
Qed.
Ltac op_case c := eexists _, _, c; split; [reflexivity|match goal with K : tk_kind _ = _ |- _ => rewrite K; cbn; tauto end].
Ltac chain_ rg := eapply (chain_of _ rg); [reflexivity|reflexivity|reflexivity|reflexivity| |vm_compute; reflexivity|vm_compute; reflexivity|vm_compute; reflexivity]; intros l H; open.
Lemma done_term : done term.
Proof. chain_ factor; [op_case MulTerm|op_case MatriceTerm|op_case DivTerm|op_case ModuloTerm|op_case FloorDivTerm]. Qed.
Lemma done_arith : done arith_expr.
Proof. chain_ term; [op_case PlusArithExpr|op_case MinusArithExpr]. Qed.
Lemma done_shift : done shift_expr.
Proof. chain_ arith_expr; [op_case ShiftLeftExpr|op_case ShiftRightExpr]. Qed.
Lemma done_and_expr : done and_expr.
Proof. chain_ shift_expr. op_case AndExpr. Qed.
Lemma done_xor_expr : done xor_expr.
Proof. chain_ and_expr. op_case XorExpr. Qed.
Lemma done_expr : done expr.
Proof. chain_ xor_expr. op_case Expr. Qed.
Lemma done_and_test : done and_test.
Proof. chain_ not_test. op_case AndTest. Qed.
Lemma done_or_test : done or_test.
Proof. chain_ and_test. op_case OrTest. Qed.
Lemma done_comparison : done comparison.
Proof.
  rule. apply F_cons in H. destruct H as (l1 & l2 & -> & H & H1). apply F_cons in H1. destruct H1 as (l3 & l4 & -> & H1 & H2). apply F_nil in H2. subst l4. rewrite app_nil_r.
  assert (Ag : allows expr la) by allow.
  assert (X : exists x, E_chain F_comparison (l1 ++ l3) la x /\ plain x).
  { assert (Y : forall m, (forall la', allows expr la' -> exists x, E_chain F_comparison m la' x /\ plain x) -> exists x, E_chain F_comparison (m ++ l3) la x /\ plain x).
    { clear H. revert l3 H1. apply (F_star (fun l3 => forall m, (forall la', allows expr la' -> exists x, E_chain F_comparison m la' x /\ plain x) -> exists x, E_chain F_comparison (m ++ l3) la x /\ plain x)).
      - intros m X. rewrite app_nil_r. exact (X la Ag).
      - intros a b H _ IHb m X. rewrite app_assoc. apply IHb. intros la' A'.
        apply F_cons in H. destruct H as (w & v & -> & H & H1). apply F_cons in H1. destruct H1 as (v1 & v2 & -> & H1 & H2). apply F_nil in H2. subst v2. rewrite app_nil_r.
        destruct (IH expr _ _ la' eq_refl H1 A') as (y & Hy & Py). apply F_R in H. cbn [coded python] in H.
        open;
          match goal with |- exists x, E_chain _ (_ ++ (?p, ?t) :: _) _ _ /\ _ => destruct (X (p, Some t) ltac:(allow)) as (x & Hx & Px) end;
          eexists;
          (split;
          [first [ eapply chain_is_not; eassumption | eapply chain_not_in; eassumption
                | match goal with K : tk_kind ?t = _, X : E_chain _ _ (?p, Some ?t) _ |- _ =>
                  first [ eapply (chain_operator F_comparison F_expr _ LessComparison); [reflexivity|rewrite K; cbn; tauto|eassumption|eassumption]
                        | eapply (chain_operator F_comparison F_expr _ LessEqualComparison); [reflexivity|rewrite K; cbn; tauto|eassumption|eassumption]
                        | eapply (chain_operator F_comparison F_expr _ EqualComparison); [reflexivity|rewrite K; cbn; tauto|eassumption|eassumption]
                        | eapply (chain_operator F_comparison F_expr _ GreaterEqualComparison); [reflexivity|rewrite K; cbn; tauto|eassumption|eassumption]
                        | eapply (chain_operator F_comparison F_expr _ GreaterComparison); [reflexivity|rewrite K; cbn; tauto|eassumption|eassumption]
                        | eapply (chain_operator F_comparison F_expr _ NotEqualComparison); [reflexivity|rewrite K; cbn; tauto|eassumption|eassumption]
                        | eapply (chain_operator F_comparison F_expr _ InComparison); [reflexivity|rewrite K; cbn; tauto|eassumption|eassumption]
                        | eapply (chain_operator F_comparison F_expr _ IsComparison); [reflexivity|rewrite K; cbn; tauto|eassumption|eassumption] ] end ]
          |plainly]). }
    apply Y. intros la' A'. destruct (IH expr _ _ la' eq_refl H A') as (x & Hx & Px). exists x. split; [eapply chain_operand; [reflexivity|exact Hx]|exact Px]. }
  destruct X as (x & Hx & Px). exists x. split; [|exact Px]. eapply E_binary; [reflexivity|exact Hx|]. stop.
Qed.
Ltac same c := eexists; split; [eapply c; try eassumption; try stop; try (cbn; tauto)|assumption].
Lemma done_star_expr : done star_expr.
Proof. rule; open; getall. make E_star_expr. Qed.
Lemma done_not_test : done not_test.
Proof. rule; open; getall; [make E_not|same E_not_comparison]. Qed.
Lemma done_lambdef : done lambdef.
Proof.
  rule; open; getall.
  - eexists; split; [eapply (E_lambda true _ _ []); [apply opt_none|eassumption|eassumption]|plainly].
  - eexists; split; [eapply (E_lambda true); [apply opt_some; eassumption|eassumption|eassumption]|plainly].
Qed.
Lemma done_lambdef_nocond : done lambdef_nocond.
Proof.
  rule; open; getall.
  - eexists; split; [eapply (E_lambda false _ _ []); [apply opt_none|eassumption|eassumption]|plainly].
  - eexists; split; [eapply (E_lambda false); [apply opt_some; eassumption|eassumption|eassumption]|plainly].
Qed.
Lemma done_nocond : done test_nocond.
Proof.
  rule; open; [getall; same E_nocond_or|]. pose proof (F_R _ _ H) as HL. cbn [coded] in HL. get lambdef_nocond.
  apply F_cons in HL. destruct HL as (l1 & l2 & -> & HL & _). apply F_T in HL. destruct HL as (p & t & -> & K). same E_nocond_lambda.
Qed.
Lemma done_test : done test.
Proof.
  rule; open.
  - getall. same E_test_or.
  - getall. make E_test_if.
  - pose proof (F_R _ _ H) as HL. cbn [coded] in HL. get lambdef.
    apply F_cons in HL. destruct HL as (l1 & l2 & -> & HL & _). apply F_T in HL. destruct HL as (p & t & -> & K). same E_test_lambda.
Qed.
Lemma done_named : done namedexpr_test.
Proof. rule; open; getall; [same E_named_test|make E_named]. Qed.

(** ** Lists of expressions *)
Lemma done_testlist_comp : done testlist_comp.
Proof.
  rule. apply F_cons in H. destruct H as (l1 & l2 & -> & H & H1). apply F_cons in H1. destruct H1 as (l3 & l4 & -> & H1 & H2). apply F_nil in H2. subst l4. rewrite app_nil_r.
  apply F_alt in H1. destruct H1 as [H1|H1].
  - destruct (reads_element l1 (ahead l3 la) H) as (f & x & If & HE & HP); [allow|]. getall. make E_testlist_comp_for.
  - apply F_alt in H1. destruct H1 as [H1|H1]; [|destruct (F_alt_nil _ H1)].
    destruct (reads_element l1 (ahead l3 la) H) as (f & x & If & HE & HP); [allow|].
    destruct (rest_of _ _ PyComa _ reads_element eq_refl _ H1 la ltac:(allow)) as (xs & ts & HR & HX & HT).
    eexists; split; [eapply E_testlist_comp; [eapply items_intro; eassumption|destruct ts; stop]|plainly].
Qed.
Lemma done_trailer : done trailer.
Proof.
  rule; open; getall.
  - eexists; split; [eapply (E_call _ _ []); [eassumption|eassumption|apply opt_none]|plainly].
  - eexists; split; [eapply E_call; [eassumption|eassumption|apply opt_some; eassumption]|plainly].
  - make E_index.
  - make E_dot.
Qed.
Lemma done_arglist : done arglist.
Proof. rule. list_ (reads_rule subscript F_subscript eq_refl) H l. make E_subscript_list. Qed.
Lemma reads_sliceop : reads_as sliceop [F_subscript] sliceop.
Proof. exact (reads_rule sliceop F_subscript eq_refl). Qed.
Lemma done_subscriptlist : done subscriptlist.
Proof.
  rule. apply F_alt in H. destruct H as [H|H].
  - list_ (reads_rule subscript F_subscript eq_refl) H l. make E_subscript_list.
  - apply F_alt in H. destruct H as [H|H]; [|destruct (F_alt_nil _ H)].
    apply F_cons in H. destruct H as (l1 & l2 & -> & H & H1). apply F_cons in H1. destruct H1 as (l3 & l4 & -> & H1 & H2). apply F_nil in H2. subst l4. rewrite app_nil_r.
    destruct (before_of _ _ PyComa _ _ _ (reads_rule subscript F_subscript eq_refl) reads_sliceop eq_refl _ H _ la H1 ltac:(allow)) as (xs & ts & HI & HP & HT).
    make E_subscript_list.
Qed.
Lemma done_subscript : done subscript.
Proof.
  rule; open; getall.
  - make E_subscript.
  - eexists; split; [eapply (E_slice [] None _ _ [] None); [apply opt_none|eassumption|apply opt_none|rewrite K0; cbn; auto|apply opt_some; eassumption|discriminate]|plainly].
  - eexists; split; [eapply (E_slice _ _ _ _ [] None); [apply opt_some; eassumption|eassumption|apply opt_none|rewrite K0; cbn; auto|apply opt_some; eassumption|discriminate]|plainly].
  - eexists; split; [eapply (E_slice [] None); [apply opt_none|eassumption|apply opt_some; eassumption|discriminate|apply opt_some; eassumption|discriminate]|plainly].
  - eexists; split; [eapply E_slice; [apply opt_some; eassumption|eassumption|apply opt_some; eassumption|discriminate|apply opt_some; eassumption|discriminate]|plainly].
Qed.
Lemma done_sliceop : done sliceop.
Proof.
  rule; open; getall.
  - eexists; split; [eapply (E_slice [] None _ _ [] None _ _ [] None); [apply opt_none|eassumption|apply opt_none|rewrite K0; cbn; auto|apply opt_none|intros _; stop]|plainly].
  - eexists; split; [eapply (E_slice _ _ _ _ [] None _ _ [] None); [apply opt_some; eassumption|eassumption|apply opt_none|rewrite K0; cbn; auto|apply opt_none|intros _; stop]|plainly].
  - eexists; split; [eapply (E_slice [] None _ _ _ _ _ _ [] None); [apply opt_none|eassumption|apply opt_some; eassumption|discriminate|apply opt_none|intros _; stop]|plainly].
  - eexists; split; [eapply (E_slice _ _ _ _ _ _ _ _ [] None); [apply opt_some; eassumption|eassumption|apply opt_some; eassumption|discriminate|apply opt_none|intros _; stop]|plainly].
Qed.
Lemma exprlist_of l la xs ts : E_items [F_star_expr; F_named_expression] PyComa l la xs ts -> Forall plain xs ->
  (ts = [] -> exists f x, In f [F_star_expr; F_named_expression] /\ E f l la x /\ xs = [x]) -> stops [PyComa] la ->
  exists x, E F_exprlist l la x /\ plain x.
Proof.
  intros HI HP HT S. destruct ts as [|t ts].
  - destruct (HT eq_refl) as (f & x & If & HE & ->). inversion HP; subst. same E_exprlist_one.
  - make E_exprlist. discriminate.
Qed.
Lemma done_exprlist : done exprlist.
Proof.
  rule; open; lists.
  - make E_exprlist_comma.
  - assert (Q : reads_as star_expr [F_star_expr; F_named_expression] star_expr).
    { intros l' la' H' A'. destruct (IH star_expr _ _ la' eq_refl H' A') as (x & HE & HP). exists F_star_expr, x. split; [now left|auto]. }
    match goal with H1 : F (Star _) _, H2 : F (R star_expr) _ |- _ =>
      destruct (before_of _ _ PyComa _ _ _ reads_element Q eq_refl _ H1 _ la H2 ltac:(allow)) as (xs & ts & HI & HP & HT) end.
    eapply exprlist_of; try eassumption. stop.
Qed.
Lemma testlist_of l la xs ts : E_items [F_test] PyComa l la xs ts -> Forall plain xs ->
  (ts = [] -> exists f x, In f [F_test] /\ E f l la x /\ xs = [x]) -> stops [PyComa] la ->
  exists x, E F_testlist l la x /\ plain x.
Proof.
  intros HI HP HT S. destruct ts as [|t ts].
  - destruct (HT eq_refl) as (f & x & [<-|[]] & HE & ->). inversion HP; subst. same E_testlist_one.
  - make E_testlist. discriminate.
Qed.
Lemma done_testlist : done testlist.
Proof.
  rule; open; lists.
  - eapply testlist_of; try eassumption. stop.
  - make E_testlist_comma.
Qed.
Lemma star_list_of l la xs ts : E_items [F_star_expr; F_test] PyComa l la xs ts -> Forall plain xs ->
  (ts = [] -> exists f x, In f [F_star_expr; F_test] /\ E f l la x /\ xs = [x]) -> stops [PyComa] la ->
  exists x, E F_testlist_star_expr l la x /\ plain x.
Proof.
  intros HI HP HT S. destruct ts as [|t ts].
  - destruct (HT eq_refl) as (f & x & If & HE & ->). inversion HP; subst. same E_star_list_one.
  - make E_star_list. discriminate.
Qed.
Lemma done_star_list : done testlist_star_expr.
Proof.
  rule; open; lists.
  - eapply star_list_of; try eassumption. stop.
  - make E_star_list_comma.
Qed.

(** ** Dictionaries and sets *)
Lemma entry_of l la s : F entry l -> allows test la -> exists x, E_entry true s l la x /\ plain x.
Proof.
  intros H A. unfold entry in H. open.
  - match goal with H1 : F (R test) ?l1, H2 : F (R test) ?l2 |- context [?l1 ++ (?p, ?t) :: ?l2] =>
      destruct (IH test _ _ (p, Some t) eq_refl H1 ltac:(allow)) as (x & HE & HP); destruct (IH test _ _ la eq_refl H2 A) as (y & HY & HQ) end.
    eexists; split; [eapply entry_pair; eassumption|plainly].
  - match goal with H1 : F (R expr) ?l1 |- _ => destruct (IH expr _ _ la eq_refl H1 ltac:(allow)) as (x & HE & HP) end.
    eexists; split; [eapply entry_power; eassumption|plainly].
Qed.
Lemma set_entry l la s : F starred_test l -> allows test la -> exists x, E_entry false s l la x /\ plain x.
Proof.
  intros H A. unfold starred_test in H. open.
  - destruct (IH test _ _ la eq_refl H A) as (x & HE & HP). eexists; split; [eapply entry_test; eassumption|assumption].
  - apply F_R in H. cbn [coded] in H. open.
    match goal with H1 : F (R expr) ?l1 |- _ => destruct (IH expr _ _ la eq_refl H1 ltac:(allow)) as (x & HE & HP) end.
    eexists; split; [eapply entry_mul; eassumption|plainly].
Qed.
Lemma set_first l la s : F starred_test l -> allows test la -> stops [PyColon] la -> exists x, E_set_first s l la x /\ plain x.
Proof.
  intros H A S. unfold starred_test in H. open.
  - destruct (IH test _ _ la eq_refl H A) as (x & HE & HP). eexists; split; [eapply set_first_test; eassumption|assumption].
  - apply F_R in H. cbn [coded] in H. open.
    match goal with H1 : F (R expr) ?l1 |- _ => destruct (IH expr _ _ la eq_refl H1 ltac:(allow)) as (x & HE & HP) end.
    eexists; split; [eapply set_first_mul; eassumption|plainly].
Qed.
Lemma set_rest s : forall l, F (comma_then starred_test) l -> forall la, allows test la ->
  exists xs ts, E_set_rest s l la xs ts /\ Forall plain xs.
Proof.
  apply (F_star (fun l => forall la, allows test la -> exists xs ts, E_set_rest s l la xs ts /\ Forall plain xs)).
  - intros la A. exists [], []. split; constructor.
  - intros l1 l2 H H2 IHs la A. destruct (IHs la A) as (xs & ts & HR & HX).
    apply F_cons in H. destruct H as (a & b & -> & H & H1). apply F_cons in H1. destruct H1 as (c & d & -> & H1 & H3). apply F_nil in H3. subst d. rewrite app_nil_r.
    apply F_T in H. destruct H as (p & t & -> & K).
    destruct (set_entry c (ahead l2 la) s H1) as (x & HE & HP); [eapply (ahead_any 100); [exact H2|vm_compute; reflexivity|exact A]|].
    exists (x :: xs), (t :: ts). split; [|constructor; assumption]. cbn [app]. eapply set_rest_cons; eassumption.
Qed.
Lemma set_items l la : F starred_tests l -> allows test la -> stops [PyColon] la ->
  exists l1 l2 x xs ts, l = l1 ++ l2 /\ E_set_first (start l1 (ahead l2 la)) l1 (ahead l2 la) x /\
    E_set_rest (start l1 (ahead l2 la)) l2 la xs ts /\ plain x /\ Forall plain xs.
Proof.
  intros H A S. unfold starred_tests in H. apply F_cons in H. destruct H as (l1 & b & -> & H & H1).
  apply F_cons in H1. destruct H1 as (l2 & d & -> & H1 & H3). apply F_nil in H3. subst d. rewrite app_nil_r.
  set (s := start l1 (ahead l2 la)). destruct (set_rest s l2 H1 la A) as (xs & ts & HR & HX).
  destruct (set_first l1 (ahead l2 la) s H) as (x & HE & HP).
  - eapply (ahead_any 100); [exact H1|vm_compute; reflexivity|exact A].
  - destruct l2 as [|[p t] l2]; [exact S|]. exists t. split; [reflexivity|]. clear - H1. apply F_fits in H1.
    apply Recognise.star_cases in H1. destruct H1 as [H2|(k1 & k2 & N & E & H1 & _)]; [discriminate|].
    inversion H1 as [| | |d ds a b H3 H4| | | | | | |]; subst. inversion H3; subst. cbn in E. injection E as -> _. intros [|[]]; discriminate.
  - exists l1, l2, x, xs, ts. auto.
Qed.
Lemma done_maker : done dictorsetmaker.
Proof.
  rule; open.
  - match goal with H : F entry ?l |- _ => destruct (entry_of l la (start l la) H ltac:(allow)) as (x & HE & HP) end. make E_dict_one.
  - match goal with H : F entry ?l |- exists x, E _ (?l ++ [(?p, ?t)]) _ _ /\ _ => destruct (entry_of l (p, Some t) (start l (p, Some t)) H ltac:(allow)) as (x & HE & HP) end. make E_dict_comma.
  - match goal with H : F entry ?l, H2 : F entry ?l2 |- exists x, E _ (?l ++ (?p, ?t) :: ?l2) _ _ /\ _ =>
      destruct (entry_of l (p, Some t) (start l (p, Some t)) H ltac:(allow)) as (x & HE & HP);
      destruct (entry_of l2 la (start l (p, Some t)) H2 ltac:(allow)) as (y & HY & HQ) end. make E_dict_two.
  - match goal with H : F starred_tests ?l |- _ => destruct (set_items l la H ltac:(allow) ltac:(stop)) as (l1 & l2 & x & xs & ts & -> & HF & HR & HP & HX) end.
    make E_set_items.
  - match goal with H : F starred_tests ?l |- exists x, E _ (?l ++ [(?p, ?t)]) _ _ /\ _ =>
      destruct (set_items l (p, Some t) H ltac:(allow) ltac:(stop)) as (l1 & l2 & x & xs & ts & -> & HF & HR & HP & HX) end.
    rewrite <- app_assoc. make E_set_items_comma.
Qed.

(** ** Comprehensions *)
Lemma done_comp_iter : done comp_iter.
Proof. rule; open; getall; [same (E_comp_iter F_comp_for)|same (E_comp_iter F_comp_if)]. Qed.
Lemma done_sync_comp_for : done sync_comp_for.
Proof.
  rule; open; getall.
  - eexists; split; [rewrite <- (app_nil_r a0); eapply E_sync_comp_for; [eassumption|eassumption|eassumption|eassumption|apply opt_none|intros _; stop]|plainly].
  - eexists; split; [eapply E_sync_comp_for; [eassumption|eassumption|eassumption|eassumption|apply opt_some; eassumption|discriminate]|plainly].
Qed.
Lemma done_comp_for : done comp_for.
Proof. rule; open; getall; [same E_comp_for|make E_comp_for_async]. Qed.
Lemma done_comp_if : done comp_if.
Proof.
  rule; open; getall.
  - eexists; split; [rewrite <- (app_nil_r a); eapply E_comp_if; [eassumption|eassumption|apply opt_none|intros _; stop]|plainly].
  - eexists; split; [eapply E_comp_if; [eassumption|eassumption|apply opt_some; eassumption|discriminate]|plainly].
Qed.
Lemma done_yield_stmt : done yield_stmt.
Proof. rule; open; getall; [make E_yield_from|make E_yield]. Qed.
Lemma done_yield_expr : done yield_expr.
Proof.
  rule; open; getall; [make E_yield_from|]. lists.
  match goal with HI : E_items _ _ _ _ _ _ |- _ => edestruct (star_list_of _ _ _ _ HI) as (x & HE & HQ); [assumption|assumption|stop|] end.
  make E_yield.
Qed.

(** ** Parameters *)
Definition plain_opt (m : option (token * node)) : Prop := match m with Some (_, x) => plain x | None => True end.
Lemma param_of l la : F param l -> allows vfpdef la -> exists x, E F_var_args_assignments l la x /\ plain x.
Proof. intros H A. destruct (reads_param l la H A) as (f & x & [<-|[]] & HE & HP). eauto. Qed.
Lemma powers_of l la : F powers l -> allows varargslist la -> exists ts w, E_stars l la [] ts None w /\ plain_opt w.
Proof.
  intros H A. unfold powers in H. open.
  - match goal with H : F param ?l |- _ => destruct (param_of l la H ltac:(allow)) as (x & HE & HP) end.
    eexists _, (Some (_, _)). split; [eapply stars_power; [eassumption|eassumption|stop]|exact HP].
  - match goal with H : F param ?l |- context [?l ++ [(?p, ?t)]] => destruct (param_of l (p, Some t) H ltac:(allow)) as (x & HE & HP) end.
    eexists _, (Some (_, _)). split; [eapply stars_power_comma; eassumption|exact HP].
Qed.
Lemma params_of l la : F params l -> allows vfpdef la -> exists x xs ts, E_items [F_var_args_assignments] PyComa l la (x :: xs) ts /\ plain x /\ Forall plain xs.
Proof.
  intros H A. destruct (items_of _ _ PyComa _ reads_param eq_refl l la H A) as (xs & ts & HI & HP & _).
  inversion HI; subst. inversion HP; subst. eauto 6.
Qed.
Lemma stars_of l la : F stars l -> allows varargslist la ->
  exists ns ts m w, E_stars l la ns ts m w /\ Forall plain ns /\ plain_opt m /\ plain_opt w.
Proof.
  intros H A. unfold stars in H. open.
  - destruct (powers_of _ la H A) as (ts & w & HE & HP). exists [], ts, None, w. repeat split; auto.
  - match goal with H : F params ?l |- _ => destruct (params_of l la H ltac:(allow)) as (x & xs & ts & HE & HP & HX) end.
    eexists _, _, (Some (_, _)), None. split; [eapply stars_mul; [eassumption|eassumption|stop]|]. repeat split; assumption.
  - match goal with H : F params ?l, H2 : F powers ?l2 |- context [?l ++ (?p, ?t) :: ?l2] =>
      destruct (params_of l (p, Some t) H ltac:(allow)) as (x & xs & ts & HE & HP & HX); destruct (powers_of _ la H2 A) as (ts2 & w & HW & HQ) end.
    eexists _, _, (Some (_, _)), w. split; [eapply stars_mul_power; eassumption|]. repeat split; assumption.
Qed.
Ltac opts := repeat match goal with m : option (token * node) |- _ => destruct m as [[? ?]|]; cbn [plain_opt] in * end.
Ltac starry := match goal with H : F stars ?l |- _ => destruct (stars_of l _ H ltac:(eassumption)) as (ns & ts0 & m & w & HS & HN & HM & HW) end.
Lemma done_varargslist : done varargslist.
Proof.
  rule; open.
  - starry. eexists; split; [eapply E_var_args_stars; eassumption|opts; plainly].
  - lists. make E_var_args.
  - starry. lists. eexists; split; [eapply E_var_args_then_stars; eassumption|opts; plainly].
  - match goal with H : F (comma_then param) _ |- _ => destruct (rest_of _ _ PyComa _ reads_param eq_refl _ H la ltac:(allow)) as (xs & ts & HR & HX & _) end.
    lists. make E_var_args_slash.
  - starry.
    match goal with H : F (comma_then param) ?l |- context [?l ++ (?p, ?t) :: _] => destruct (rest_of _ _ PyComa _ reads_param eq_refl _ H (p, Some t) ltac:(allow)) as (xs & ts & HR & HX & _) end.
    lists. eexists; split; [eapply E_var_args_slash_stars; eassumption|opts; plainly].
Qed.
Lemma types_of l la : F types l -> allows test la -> exists x xs ts, E_items [F_test] PyComa l la (x :: xs) ts /\ plain x /\ Forall plain xs.
Proof.
  intros H A. destruct (items_of _ _ PyComa _ (reads_rule test F_test eq_refl) eq_refl l la H A) as (xs & ts & HI & HP & _).
  inversion HI; subst. inversion HP; subst. eauto 6.
Qed.
Lemma type_stars_of l la : F type_stars l -> allows typelist la ->
  exists ns ts m w, E_type_stars l la ns ts m w /\ Forall plain ns /\ plain_opt m /\ plain_opt w.
Proof.
  intros H A. unfold type_stars in H. open.
  - match goal with H : F (R test) ?l |- _ => destruct (IH test _ l la eq_refl H ltac:(allow)) as (x & HE & HP) end.
    eexists _, _, None, (Some (_, _)). split; [eapply type_stars_power; eassumption|]. repeat split; auto.
  - match goal with H : F types ?l |- _ => destruct (types_of l la H ltac:(allow)) as (x & xs & ts & HE & HP & HX) end.
    eexists _, _, (Some (_, _)), None. split; [eapply type_stars_mul; [eassumption|eassumption|stop]|]. repeat split; assumption.
  - match goal with H : F types ?l, H2 : F (R test) ?l2 |- context [?l ++ (?p, ?t) :: _] =>
      destruct (types_of l (p, Some t) H ltac:(allow)) as (x & xs & ts & HE & HP & HX); destruct (IH test _ l2 la eq_refl H2 ltac:(allow)) as (y & HY & HQ) end.
    eexists _, _, (Some (_, _)), (Some (_, _)). split; [eapply type_stars_mul_power; [eassumption|eassumption|eassumption|eapply type_stars_power; eassumption]|]. repeat split; assumption.
Qed.
Ltac type_starry := match goal with H : F type_stars ?l |- _ => destruct (type_stars_of l _ H ltac:(eassumption)) as (ns & ts0 & m & w & HS & HN & HM & HW) end.
Lemma done_typelist : done typelist.
Proof.
  rule; open.
  - type_starry. eexists; split; [eapply E_type_list_stars; eassumption|opts; plainly].
  - lists. make E_type_list.
  - type_starry. lists. eexists; split; [eapply E_type_list_then_stars; eassumption|opts; plainly].
Qed.
Lemma done_func_type : done func_type.
Proof.
  rule; open; getall.
  - eexists; split; [eapply (E_func_type _ _ []); [eassumption|apply opt_none|eassumption|eassumption|eassumption]|plainly].
  - eexists; split; [eapply E_func_type; [eassumption|apply opt_some; eassumption|eassumption|eassumption|eassumption]|plainly].
Qed.
Lemma done_parameters : done parameters.
Proof. rule; open. make E_parameters. Qed.

(** ** Simple statements *)
Lemma done_simple_stmt : done simple_stmt.
Proof.
  rule. apply F_cons in H. destruct H as (l1 & l2 & -> & H & H1). apply F_cons in H1. destruct H1 as (l3 & l4 & -> & H1 & H2). open.
  - destruct (rest_of _ _ PySemiColon _ (reads_rule small_stmt F_small_stmt eq_refl) eq_refl _ H1 (p, Some t) ltac:(allow)) as (xs & ts & HR & HX & _).
    destruct (IH small_stmt _ l1 (ahead l3 (p, Some t)) eq_refl H ltac:(allow)) as (x & HE & HP). rewrite app_assoc.
    eexists; split; [eapply E_simple_stmt; [eapply (items_intro [F_small_stmt]); [now left|eassumption|eassumption]|eassumption]|plainly].
  - destruct (rest_of _ _ PySemiColon _ (reads_rule small_stmt F_small_stmt eq_refl) eq_refl _ H1 (p0, Some t0) ltac:(allow)) as (xs & ts & HR & HX & _).
    destruct (IH small_stmt _ l1 (ahead l3 (p0, Some t0)) eq_refl H ltac:(allow)) as (x & HE & HP). rewrite app_assoc.
    eexists; split; [eapply E_simple_stmt_semi; [eapply (items_intro [F_small_stmt]); [now left|eassumption|eassumption]|eassumption|eassumption]|plainly].
Qed.
Lemma done_small_stmt : done small_stmt.
Proof.
  rule; open; getall;
    [same (E_small_stmt F_expr_stmt)|same (E_small_stmt F_del_stmt)|same (E_small_stmt F_pass_stmt)|same (E_small_stmt F_flow_stmt)
    |same (E_small_stmt F_import_stmt)|same (E_small_stmt F_global_stmt)|same (E_small_stmt F_nonlocal_stmt)|same (E_small_stmt F_assert_stmt)].
Qed.
Lemma aug_of l : F (R augassign) l -> exists p t c, l = [(p, t)] /\ In (tk_kind t, c) augmented.
Proof.
  intros H. apply F_R in H. cbn [coded python] in H. open;
  [op_case PlusAssignStmt|op_case MinusAssignStmt|op_case MulAssignStmt|op_case MatriceAssignStmt|op_case DivAssignStmt|op_case ModuloAssignStmt
  |op_case BitAndAssignStmt|op_case BitOrAssignStmt|op_case BitXorAssignStmt|op_case ShiftLeftAssignStmt|op_case ShiftRightAssignStmt
  |op_case PowerAssignStmt|op_case FloorDivAssignStmt].
Qed.
Lemma aug_plain k c s e a t b : In (k, c) augmented -> plain a -> plain b -> plain (c s e a t b).
Proof. intros I Ha Hb. repeat (destruct I as [I|I]; [injection I as <- <-; plainly|]). destruct I. Qed.
Definition plains (xs : list (token * node)) : Prop := Forall plain (map snd xs).
Lemma tests_of l la : F tests l -> allows test la -> stops [PyComa] la -> exists x, E F_testlist l la x /\ plain x.
Proof.
  intros H A S. destruct (items_of _ _ PyComa _ (reads_rule test F_test eq_refl) eq_refl l la H A) as (xs & ts & HI & HP & HT).
  eapply testlist_of; eassumption.
Qed.
Lemma values_of : forall l, F values l -> forall p t l' la xs, E_assigns ((p, t) :: l') la xs -> plains xs -> xs <> [] ->
  exists ys, E_assigns (l ++ (p, t) :: l') la ys /\ plains ys /\ ys <> [] /\ exists q u, ahead (l ++ (p, t) :: l') la = (q, Some u) /\ tk_kind u = PyAssign.
Proof.
  apply (F_star (fun l => forall p t l' la xs, E_assigns ((p, t) :: l') la xs -> plains xs -> xs <> [] ->
    exists ys, E_assigns (l ++ (p, t) :: l') la ys /\ plains ys /\ ys <> [] /\ exists q u, ahead (l ++ (p, t) :: l') la = (q, Some u) /\ tk_kind u = PyAssign)).
  - intros p t l' la xs H P N. exists xs. split; [exact H|]. split; [exact P|]. split; [exact N|]. exists p, t. split; [reflexivity|]. inversion H; subst; assumption.
  - intros l1 l2 H _ IHs p t l' la xs HA HX HN. destruct (IHs p t l' la xs HA HX HN) as (ys & HY & HP & _ & q & u & Q & Ku).
    open.
    + match goal with H1 : F (R yield_stmt) ?l |- _ => destruct (IH yield_stmt _ l (q, Some u) eq_refl H1 ltac:(allow)) as (x & HE & HQ) end.
      exists ((t0, x) :: ys). split; [|split; [constructor; assumption|split; [discriminate|exists p0, t0; split; [reflexivity|assumption]]]].
      eapply (assigns_cons F_yield_expr); [assumption|now left|rewrite Q; eassumption|eassumption].
    + match goal with H1 : F tests ?l |- _ => destruct (tests_of l (q, Some u) H1 ltac:(allow) ltac:(stop)) as (x & HE & HQ) end.
      exists ((t0, x) :: ys). split; [|split; [constructor; assumption|split; [discriminate|exists p0, t0; split; [reflexivity|assumption]]]].
      eapply (assigns_cons F_testlist); [assumption|now right; left|rewrite Q; eassumption|eassumption].
Qed.
Lemma assign_last f p t l la x : tk_kind t = PyAssign -> In f [F_yield_expr; F_testlist] -> E f l la x -> E_assigns ((p, t) :: l) la [(t, x)].
Proof.
  intros K I H. rewrite <- (app_nil_r l). apply assigns_cons with (f := f); [exact K|exact I|exact H|constructor].
Qed.
Ltac assigning f :=
  match goal with
  | K : tk_kind ?t = PyAssign, HE : E f ?l ?la0 ?x, HV : F values ?v |- exists _, E _ (_ ++ ?v ++ (?p, ?t) :: _) _ _ /\ _ =>
      let HA := fresh "HA" in
      assert (HA : E_assigns ((p, t) :: l) la0 [(t, x)]) by (apply (assign_last f); [exact K|cbn; tauto|exact HE]);
      destruct (values_of v HV p t l la0 [(t, x)] HA ltac:(constructor; [assumption|constructor]) ltac:(discriminate)) as (ys & HY & HYP & HYN & q & u & QA & KA)
  end.
Lemma assign_done l1 l2 ys a la : E F_testlist_star_expr l1 (ahead l2 la) a -> E_assigns l2 la ys -> ys <> [] ->
  stops [PyAssign; T_TypeComment] la -> plain a -> plains ys -> exists x, E F_expr_stmt (l1 ++ l2) la x /\ plain x.
Proof. intros. make E_expr_stmt_assign. Qed.
Lemma assign_comment_done l1 l2 ys a la p t : E F_testlist_star_expr l1 (ahead l2 (p, Some t)) a -> E_assigns l2 (p, Some t) ys -> ys <> [] ->
  tk_kind t = T_TypeComment -> plain a -> plains ys -> exists x, E F_expr_stmt (l1 ++ l2 ++ [(p, t)]) la x /\ plain x.
Proof. intros. make E_expr_stmt_assign_comment. Qed.
Lemma star_list l la : F (R testlist_star_expr) l -> allows testlist_star_expr la -> exists x, E F_testlist_star_expr l la x /\ plain x.
Proof. exact (fun H A => IH testlist_star_expr _ l la eq_refl H A). Qed.
Lemma done_expr_stmt : done expr_stmt.
Proof.
  rule; open.
  - match goal with H : F (R annassign) _ |- _ => apply F_R in H; cbn [coded] in H end. open; getall.
    + eexists; split; [eapply E_expr_stmt_ann; [eassumption|eapply E_ann_assign; [eassumption|eassumption|stop]]|plainly].
    + eexists; split; [eapply E_expr_stmt_ann; [eassumption|eapply (E_ann_assign_value _ _ F_yield_expr); [eassumption|eassumption|eassumption|cbn; tauto|eassumption]]|plainly].
    + eexists; split; [eapply E_expr_stmt_ann; [eassumption|eapply (E_ann_assign_value _ _ F_testlist); [eassumption|eassumption|eassumption|cbn; tauto|eassumption]]|plainly].
  - match goal with H : F (R augassign) _ |- _ => destruct (aug_of _ H) as (p & t & c & -> & I); clear H end. cbn [app].
    match goal with H : F (R testlist_star_expr) ?l |- _ => destruct (star_list l (p, Some t) H) as (x & HE & HP); clear H end.
    { exists t. split; [reflexivity|]. cbn in I. repeat (destruct I as [I|I]; [injection I as <- _; reflexivity|]). destruct I. }
    getall. eexists; split; [eapply (E_expr_stmt_aug _ F_yield_expr); [eassumption|eassumption|cbn; tauto|eassumption]|eapply aug_plain; eassumption].
  - match goal with H : F (R augassign) _ |- _ => destruct (aug_of _ H) as (p & t & c & -> & I); clear H end. cbn [app].
    match goal with H : F (R testlist_star_expr) ?l |- _ => destruct (star_list l (p, Some t) H) as (x & HE & HP); clear H end.
    { exists t. split; [reflexivity|]. cbn in I. repeat (destruct I as [I|I]; [injection I as <- _; reflexivity|]). destruct I. }
    getall. eexists; split; [eapply (E_expr_stmt_aug _ F_testlist); [eassumption|eassumption|cbn; tauto|eassumption]|eapply aug_plain; eassumption].
  - getall. same E_expr_stmt.
  - get yield_stmt. assigning F_yield_expr.
    match goal with H : F (R testlist_star_expr) ?l |- _ => destruct (star_list l (q, Some u) H ltac:(allow)) as (y & HZ & HZP) end.
    rewrite <- QA in HZ. eapply assign_done; try eassumption. stop.
  - get testlist. assigning F_testlist.
    match goal with H : F (R testlist_star_expr) ?l |- _ => destruct (star_list l (q, Some u) H ltac:(allow)) as (y & HZ & HZP) end.
    rewrite <- QA in HZ. eapply assign_done; try eassumption. stop.
  - get yield_expr. assigning F_yield_expr.
    match goal with H : F (R testlist_star_expr) ?l |- _ => destruct (star_list l (q, Some u) H ltac:(allow)) as (y & HZ & HZP) end.
    rewrite <- QA in HZ.
    match goal with Kc : tk_kind _ = T_TypeComment |- _ =>
      pose proof (assign_comment_done _ _ _ _ la _ _ HZ HY HYN Kc HZP HYP) as Z end.
    rewrite <- ?app_assoc in Z; cbn [app] in Z. exact Z.
  - match goal with H1 : F tests ?l |- exists _, E _ (_ ++ _ ++ _ :: ?l ++ [(?p, ?t)]) _ _ /\ _ => destruct (tests_of l (p, Some t) H1 ltac:(allow) ltac:(stop)) as (x & HE & HQ) end.
    assigning F_testlist.
    match goal with H : F (R testlist_star_expr) ?l |- _ => destruct (star_list l (q, Some u) H ltac:(allow)) as (y & HZ & HZP) end.
    rewrite <- QA in HZ.
    match goal with Kc : tk_kind _ = T_TypeComment |- _ =>
      pose proof (assign_comment_done _ _ _ _ la _ _ HZ HY HYN Kc HZP HYP) as Z end.
    rewrite <- ?app_assoc in Z; cbn [app] in Z. exact Z.
Qed.
Lemma done_del : done del_stmt.
Proof.
  rule; open; lists.
  match goal with HI : E_items _ _ _ _ _ _ |- _ => edestruct (exprlist_of _ _ _ _ HI) as (x & HE & HQ); [assumption|assumption|stop|] end.
  make E_del.
Qed.
Lemma done_pass : done pass_stmt.
Proof. rule; open. make E_pass. Qed.
Lemma done_flow : done flow_stmt.
Proof.
  rule; open; getall; [same (E_flow F_break_stmt)|same (E_flow F_continue_stmt)|same (E_flow F_return_stmt)|same (E_flow F_raise_stmt)|].
  eexists; split; [eapply (E_flow F_yield_stmt); [cbn; tauto|apply E_yield_stmt; eassumption]|assumption].
Qed.
Lemma done_break : done break_stmt.
Proof. rule; open. make E_break. Qed.
Lemma done_continue : done continue_stmt.
Proof. rule; open. make E_continue. Qed.
Lemma done_return : done return_stmt.
Proof. rule; open; getall; [make E_return|make E_return_value]. Qed.
Lemma done_raise : done raise_stmt.
Proof. rule; open; getall; [make E_raise|make E_raise_value|make E_raise_from]. Qed.
Lemma done_import : done import_stmt.
Proof. rule; open; getall. same E_import_stmt. Qed.
Lemma dots_of : forall l, F (Star (one_of PyDot, PyElipsis end_of)) l -> Forall (fun d => In (tk_kind (snd d)) [PyDot; PyElipsis]) l.
Proof.
  apply F_star; [constructor|]. intros l1 l2 H _ IHs. open; (constructor; [cbn [snd]; rewrite K; cbn; tauto|exact IHs]).
Qed.
Lemma import_list l la : F (one_of PyMul, << PyLeftParen, import_as_names, PyRightParen >>, import_as_names end_of) l -> allows import_from la ->
  exists a x b, E_import_list l la a x b /\ match x with Some x => plain x | None => True end.
Proof.
  intros H A. open.
  - eexists _, None, _. split; [eapply import_star; eassumption|exact I].
  - match goal with H : F (R import_as_names) ?l |- context [?l ++ [(?p, ?t)]] => destruct (IH import_as_names _ l (p, Some t) eq_refl H ltac:(allow)) as (x & HE & HP) end.
    eexists _, (Some x), _. split; [eapply import_paren; eassumption|exact HP].
  - destruct (IH import_as_names _ _ la eq_refl H ltac:(allow)) as (x & HE & HP).
    eexists _, (Some x), _. split; [eapply import_plain; eassumption|exact HP].
Qed.
Lemma done_import_from : done import_from.
Proof.
  rule. apply F_cons in H. destruct H as (l1 & l2 & -> & H & H1). apply F_cons in H1. destruct H1 as (l3 & l4 & -> & H1 & H2).
  apply F_cons in H2. destruct H2 as (l5 & l6 & -> & H2 & H3). apply F_cons in H3. destruct H3 as (l7 & l8 & -> & H3 & H4).
  apply F_nil in H4. subst l8. rewrite app_nil_r. destruct (import_list _ la H3 A) as (a & y & b & HL & HY). clear H3.
  apply F_T in H. destruct H as (p & t & -> & K). apply F_T in H2. destruct H2 as (q & u & -> & Ku). cbn [app].
  open.
  - match goal with H : F (Star _) _ |- _ => pose proof (dots_of _ H) end. getall.
    eexists; split; [eapply E_import_from; [eassumption|eassumption|apply opt_some; eassumption|discriminate|eassumption|eassumption]|destruct y; plainly].
  - match goal with H : F (Star _) _ |- _ => pose proof (dots_of _ H) as HD end.
    eexists; split; [eapply (E_import_from _ _ (_ :: _) []); [eassumption|constructor; [cbn [snd]; match goal with K : tk_kind ?x = _ |- In (tk_kind ?x) _ => rewrite K end; cbn; tauto|exact HD]|apply opt_none|discriminate|eassumption|eassumption]|destruct y; plainly].
  - match goal with H : F (Star _) _ |- _ => pose proof (dots_of _ H) as HD end.
    eexists; split; [eapply (E_import_from _ _ (_ :: _) []); [eassumption|constructor; [cbn [snd]; match goal with K : tk_kind ?x = _ |- In (tk_kind ?x) _ => rewrite K end; cbn; tauto|exact HD]|apply opt_none|discriminate|eassumption|eassumption]|destruct y; plainly].
Qed.
Lemma done_import_as_name : done import_as_name.
Proof. rule; open; [make E_import_as_name|make E_import_as_name_as]. Qed.
Lemma done_import_as_names : done import_as_names.
Proof. rule. list_ (reads_rule import_as_name F_import_as_name eq_refl) H l. make E_import_as_names. Qed.
Lemma done_dotted_name : done dotted_name.
Proof.
  rule; open. match goal with H : F (Star _) _ |- _ => destruct (names_of _ _ H) as (ns & ts & HN) end. make E_dotted_name.
Qed.
Lemma done_global : done global_stmt.
Proof.
  rule; open. match goal with H : F (comma_then _) _ |- _ => destruct (names_of _ _ H) as (ns & ts & HN) end. make E_global.
Qed.
Lemma done_nonlocal : done nonlocal_stmt.
Proof.
  rule; open. match goal with H : F (comma_then _) _ |- _ => destruct (names_of _ _ H) as (ns & ts & HN) end. make E_nonlocal.
Qed.
Lemma done_assert : done assert_stmt.
Proof. rule; open; getall; [make E_assert|make E_assert_from]. Qed.
Lemma done_with_item : done with_item.
Proof. rule; open; getall; [make E_with_item|make E_with_item_as]. Qed.

Lemma done_all r : done r.
Proof.
  destruct r; first
    [ exact done_atom | exact done_atom_expr | exact done_power | exact done_factor | exact done_term | exact done_arith | exact done_shift
    | exact done_and_expr | exact done_xor_expr | exact done_expr | exact done_star_expr | exact done_comparison | exact done_not_test
    | exact done_and_test | exact done_or_test | exact done_nocond | exact done_test | exact done_named | exact done_lambdef
    | exact done_lambdef_nocond | exact done_testlist_comp | exact done_trailer | exact done_arglist | exact done_subscriptlist
    | exact done_subscript | exact done_sliceop | exact done_exprlist | exact done_testlist | exact done_star_list | exact done_maker
    | exact done_comp_iter | exact done_sync_comp_for | exact done_comp_for | exact done_comp_if | exact done_yield_stmt
    | exact done_yield_expr | exact done_varargslist | exact done_typelist | exact done_func_type | exact done_parameters
    | exact done_simple_stmt | exact done_small_stmt | exact done_expr_stmt | exact done_del | exact done_pass | exact done_flow
    | exact done_break | exact done_continue | exact done_return | exact done_raise | exact done_import | exact done_import_from
    | exact done_import_as_name | exact done_import_as_names | exact done_dotted_name | exact done_global | exact done_nonlocal
    | exact done_assert | exact done_with_item | intros ? ? ? Q; discriminate ].
Qed.
End Phrases.
