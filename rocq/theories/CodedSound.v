(** What the parser accepts is a sentence of its grammar in plain EBNF (CodedGrammar.v), where the tree is plain: proofs. *)
From Coq Require Import List Arith Lia Bool NArith.
From Verif Require Import Chars Token LexBasics Node NodeView ParserState GrammarSpec SoundBasics ParseBasics PythonGrammar PythonSpec Recognise PythonProofs CodedGrammar CodedSpec CodedComplete CodedBlocks.
Import ListNotations.
Local Open Scope nat_scope.
Local Open Scope ebnf_scope.

Lemma plain_kids x : plain x -> plain_node x /\ Forall plain (kids (items x)).
Proof.
  unfold plain. rewrite subnodes_items. intros H. inversion H as [|y ys D F]; subst. split; [exact D|].
  clear D H. induction (items x) as [|i ps IH]; [constructor|]. cbn in F. apply Forall_app in F. destruct F as [F1 F2].
  destruct i; cbn; [exact (IH F2)|]. constructor; [exact F1|exact (IH F2)].
Qed.

(** The phrases read by a function, where they do not depend on what follows. *)
Definition cmain (f : fn) : option ebnf :=
  match f with
  | F_parameters => Some (R parameters)
  | F_var_args_assignments => Some param | F_vfp_def => Some (T T_AtomName)
  | F_elif_stmt => Some << PyElif, test, PyColon, suite >> | F_else_stmt => Some else_suite | F_finally_stmt => Some finally_suite
  | F_except_clause => Some (R except_clause) | F_except_stmt => Some << except_clause, PyColon, suite >>
  | F_yield_stmt => Some (R yield_stmt) | F_ann_assign _ _ => Some (R annassign)
  | F_arglist | F_argument | F_decorator | F_decorators | F_decorated | F_async_func_def | F_typed_args_list | F_tfp_def | F_tfp_def_assign
  | F_import_name | F_dotted_as_name | F_dotted_as_names => None
  | F_testlist | F_testlist_star_expr | F_yield_expr | F_exprlist | F_subscript | F_subscript_list | F_del_stmt | F_small_stmt => None
  | _ => main f
  end.
(** What is known of the tokens read by a function before the token [la]. *)
Definition Known (f : fn) (l : list ptok) (la : look) : Prop :=
  match f with
  | F_testlist => fits coded testlist (kinds l) /\ (fits coded tests (kinds l) \/ before [T_Newline; PySemiColon; T_EOF] la)
  | F_testlist_star_expr => fits coded testlist_star_expr (kinds l) /\ (fits coded starred_tests (kinds l) \/ before ends_star_list la)
  | F_yield_expr => fits coded yield_stmt (kinds l) /\ (fits coded yield_expr (kinds l) \/ before ends_star_list la)
  | F_exprlist => (before [PyIn] la -> fits coded exprlist (kinds l)) /\ (fits coded elements (kinds l) \/ before [PyIn] la)
  | F_subscript => fits coded subscript (kinds l) \/ fits coded sliceop (kinds l) /\ before [PyRightBracket; PyColon] la
  | F_subscript_list =>
      (before [PyRightParen] la -> fits coded arglist (kinds l)) /\ (before [PyRightBracket] la -> fits coded subscriptlist (kinds l))
  | F_del_stmt => fits coded del_stmt (kinds l) \/ before [PyIn] la
  | F_small_stmt => fits coded small_stmt (kinds l) \/ before [PyIn] la
  | F_named_expression => fits coded namedexpr_test (kinds l) /\ ~ before [PyIn] la
  | F_test => fits coded test (kinds l) /\ ~ before [PyIn] la
  | F_or_test => fits coded or_test (kinds l) /\ ~ before [PyIn] la
  | F_and_test => fits coded and_test (kinds l) /\ ~ before [PyIn] la
  | F_not_test => fits coded not_test (kinds l) /\ ~ before [PyIn] la
  | F_comparison => fits coded comparison (kinds l) /\ ~ before [PyIn] la
  | F_lambda_def c => starts_with PyLambda l -> fits coded (if c then lambdef else lambdef_nocond) (kinds l) /\ (c = true -> ~ before [PyIn] la)
  | _ => forall e, cmain f = Some e -> fits coded e (kinds l)
  end.

(** ** Putting phrases together *)
Lemma fit ps e ks : spells coded ps ks -> whole coded steps e ps = Some true -> fits coded e ks.
Proof. apply by_pieces. Qed.

Definition P (f : fn) (l : list ptok) (la : look) (x : node) : Prop := plain x -> Known f l la.
Definition P_opt (f : fn) (l : list ptok) (la : look) (o : option node) : Prop :=
  match o with None => l = [] | Some x => P f l la x end.
Definition P_many (f : fn) (l : list ptok) (la : look) (xs : list node) : Prop :=
  Forall plain xs -> forall e, cmain f = Some e -> fits coded (Star e) (kinds l).
(** A list: its last item, and the other ones, which stand before the separator [k]. *)
Definition listed (fs : list fn) (k : kind) (l : list ptok) (la : look) : Prop :=
  exists a b f, kinds l = a ++ kinds b /\ In f fs /\ Known f b la /\
    forall e, (forall g m p t, In g fs -> tk_kind t = k -> Known g m (p, Some t) -> fits coded e (kinds m)) -> fits coded (Star << e, T k >>) a.
Definition P_rest (fs : list fn) (k : kind) (l : list ptok) (la : look) (xs : list node) (ts : list token) : Prop :=
  Forall plain xs -> l = [] \/ exists p t l', l = (p, t) :: l' /\ tk_kind t = k /\ listed fs k l' la.
Definition P_items (fs : list fn) (k : kind) (l : list ptok) (la : look) (xs : list node) (ts : list token) : Prop :=
  Forall plain xs -> listed fs k l la.
Definition chain_known (f : fn) (l : list ptok) (la : look) : Prop :=
  (forall e, main f = Some e -> fits coded e (kinds l)) /\ (In f [F_or_test; F_and_test] -> ~ before [PyIn] la).
Definition P_chain (f : fn) (l : list ptok) (la : look) (x : node) : Prop := plain x -> chain_known f l la.
Definition P_entry (b : bool) (s : nat) (l : list ptok) (la : look) (x : node) : Prop :=
  plain x -> fits coded (if b then entry else starred_test) (kinds l).
Definition P_first (s : nat) (l : list ptok) (la : look) (x : node) : Prop :=
  plain x -> fits coded starred_test (kinds l).
Definition P_set_rest (s : nat) (l : list ptok) (la : look) (xs : list node) (ts : list token) : Prop :=
  Forall plain xs -> fits coded (comma_then starred_test) (kinds l).
Definition P_stars (l : list ptok) (la : look) (ns : list node) (ts : list token) (m w : option (token * node)) : Prop :=
  Forall plain ns -> (forall t x, m = Some (t, x) -> plain x) -> (forall t x, w = Some (t, x) -> plain x) ->
  fits coded stars (kinds l) /\ (m = None -> fits coded powers (kinds l)).
Definition P_types (l : list ptok) (la : look) (ns : list node) (ts : list token) (m w : option (token * node)) : Prop :=
  Forall plain ns -> (forall t x, m = Some (t, x) -> plain x) -> (forall t x, w = Some (t, x) -> plain x) ->
  fits coded type_stars (kinds l) /\ (m = None -> fits coded << PyPower, test >> (kinds l)).
Definition assigned (l : list ptok) (la : look) : Prop :=
  exists a b f, kinds l = a ++ PyAssign :: kinds b /\ fits coded values a /\ In f [F_yield_expr; F_testlist] /\ Known f b la.
Definition P_assigns (l : list ptok) (la : look) (xs : list (token * node)) : Prop :=
  Forall plain (map snd xs) -> (xs = [] /\ l = []) \/ assigned l la.
Definition P_import (l : list ptok) (la : look) (a : option token) (x : option node) (b : option token) : Prop :=
  (forall y, x = Some y -> plain y) ->
  fits coded (one_of PyMul, << PyLeftParen, import_as_names, PyRightParen >>, import_as_names end_of) (kinds l).

(** ** Lists *)
Lemma star_turn e k a c b : fits coded (Star << e, T k >>) a -> fits coded e b ->
  c = a ++ b -> exists x y, c = x ++ y /\ fits coded e x /\ fits coded (Star << T k, e >>) y.
Proof.
  intros H. remember (Star << e, T k >>) as d eqn:Ed. revert c. induction H; inversion Ed; subst; intros c Hb Ec.
  - exists b, []. rewrite app_nil_r. split; [exact Ec|]. split; [exact Hb|constructor].
  - destruct (IHfits2 eq_refl (ks2 ++ b) Hb eq_refl) as (x & y & Exy & Hx & Hy).
    inversion H as [| | |? ? k1 k2 F1 F2| | | | | | |]; subst. inversion F2 as [| | |? ? k3 k4 F3 F4| | | | | | |]; subst. inversion F3; subst. inversion F4; subst.
    exists k1, (k :: x ++ y). split; [rewrite <- Exy, !app_nil_r, <- !app_assoc; reflexivity|]. split; [exact F1|].
    change (fits coded (Star << T k, e >>) ((k :: x) ++ y)). apply fits_more; [|exact Hy].
    change (k :: x) with ([k] ++ x). apply fits_cons; [constructor|]. rewrite <- (app_nil_r x). apply fits_cons; [exact Hx|constructor].
Qed.
Lemma listed_all fs k l la e : listed fs k l la -> (forall g m la, In g fs -> Known g m la -> fits coded e (kinds m)) ->
  exists a b, kinds l = a ++ b /\ fits coded e a /\ fits coded (Star << T k, e >>) b.
Proof.
  intros (a & b & f & E & If & Hf & Ha) S. eapply star_turn; [apply Ha; intros; eapply S; eauto|eapply S; eauto|exact E].
Qed.
Lemma listed_one fs k l la f : In f fs -> Known f l la -> listed fs k l la.
Proof. intros If H. exists [], l, f. repeat (split; auto). intros e _. constructor. Qed.
Lemma listed_more fs k p t l1 l2 la f : In f fs -> tk_kind t = k -> Known f l1 (p, Some t) -> listed fs k l2 la -> listed fs k (l1 ++ (p, t) :: l2) la.
Proof.
  intros If K H (a & b & g & E & Ig & Hg & Ha). exists ((kinds l1 ++ [k]) ++ a), b, g. split; [|split; [exact Ig|split; [exact Hg|]]].
  - rewrite kinds_app, kinds_cons, E, K, <- !app_assoc. reflexivity.
  - intros e S. apply fits_more; [|apply Ha; exact S]. apply fits_cons; [exact (S f l1 p t If K H)|]. apply (fits_cons coded (T k) [] [k] []); constructor.
Qed.
Lemma listed_join fs k f l1 l2 la xs ts : In f fs -> Known f l1 (ahead l2 la) -> Forall plain xs -> P_rest fs k l2 la xs ts -> listed fs k (l1 ++ l2) la.
Proof.
  intros If H G HR. destruct (HR G) as [->|(p & t & l' & -> & K & HL)].
  - rewrite app_nil_r. eapply listed_one; eauto.
  - eapply listed_more; eauto.
Qed.

(** ** Look-ahead *)
Lemma not_before k ks p t : tk_kind t = k -> has ks k = false -> ~ before ks (p, Some t).
Proof. intros <- H (u & E & J). injection E as <-. apply has_In in J. congruence. Qed.
Lemma stops_not_before ks ks' la : stops ks la -> forallb (has ks) ks' = true -> ~ before ks' la.
Proof.
  intros (t & E & N) H (u & E' & J). rewrite E in E'. injection E' as <-. apply N. apply has_In. rewrite forallb_forall in H. auto.
Qed.
Lemma before_not_before ks ks' la : before ks la -> forallb (fun k => negb (has ks' k)) ks = true -> ~ before ks' la.
Proof.
  intros (t & E & J) H (u & E' & J'). rewrite E in E'. injection E' as <-. rewrite forallb_forall in H. specialize (H _ J).
  apply has_In in J'. rewrite J' in H. discriminate.
Qed.

(** ** Automation *)
Ltac conj_down :=
  repeat match goal with
  | H : Forall plain (_ ++ _) |- _ => apply Forall_app in H; destruct H
  | H : Forall plain (rev _) |- _ => apply Forall_back in H
  | H : Forall plain (_ :: _) |- _ => apply Forall_cons_iff in H; destruct H
  | H : Forall plain [] |- _ => clear H
  end.
Ltac parts H :=
  let D := fresh "D" in let F := fresh "F" in
  apply plain_kids in H; destruct H as [D F]; cbn [items opt_pair opt_node_pair opt_node_tokens2 opt_nodes opt_tokens opt_tokens2] in F;
  cbn [plain_node] in D;
  rewrite ?kids_app, ?kids_sub, ?kids_leaf, ?kids_pairs, ?kids_opt_tokens, ?kids_opt_tokens2, ?kids_opt_list, ?kids_opt_nodes,
    ?kids_nil in F; repeat first [rewrite kids_sub_cons in F | rewrite kids_leaf_cons in F | rewrite kids_nil in F]; cbn [app rev opt_list] in F; rewrite ?app_nil_r in F; conj_down.
Ltac options :=
  repeat match goal with
  | H : P_opt _ _ _ ?o |- _ => is_var o; destruct o; cbn [P_opt] in H; [|subst]
  end.
Ltac feed :=
  repeat match goal with
  | H : P ?f ?l ?la ?x, G : plain ?x |- _ => specialize (H G)
  | H : P_entry _ _ _ _ ?x, G : plain ?x |- _ => specialize (H G); cbv iota in H
  | H : P_first _ _ _ ?x, G : plain ?x |- _ => specialize (H G)
  | H : P_set_rest _ _ _ ?xs _, G : Forall plain ?xs |- _ => specialize (H G)
  | H : P_items _ _ _ _ ?xs _, G : Forall plain ?xs |- _ => specialize (H G)
  | H : P_many _ _ _ ?xs, G : Forall plain ?xs |- _ => specialize (H G _ eq_refl)
  end.
(** Say what is known, and what the look-ahead adds to it. *)
Ltac told := first [eapply before_token; [eassumption|vm_compute; reflexivity] | assumption].
Ltac untold :=
  first [ eapply not_before; [eassumption|vm_compute; reflexivity]
        | match goal with S : stops _ ?la |- ~ before _ ?la => apply (stops_not_before _ _ _ S); vm_compute; reflexivity end
        | match goal with S : before _ ?la |- ~ before _ ?la => apply (before_not_before _ _ _ S); vm_compute; reflexivity end
        | assumption ].
Ltac known1 :=
  match goal with
  | H : Known ?f ?l ?la |- _ => first [ let Q := fresh "Q" in pose proof (H _ eq_refl) as Q; cbn [cmain main] in Q; clear H | progress cbn [Known] in H ]
  | H : _ /\ _ |- _ => destruct H
  | H : before ?ks ?la -> fits _ _ _ |- _ =>
      first [ let B := fresh "B" in assert (B : before ks la) by told; specialize (H B); clear B
            | let B := fresh "B" in assert (B : ~ before ks la) by untold; clear H B ]
  | H : _ \/ before ?ks ?la |- _ =>
      let B := fresh "B" in assert (B : ~ before ks la) by untold; destruct H as [H|H]; [clear B|contradiction (B H)]
  | H : _ \/ (_ /\ before ?ks ?la) |- _ =>
      let B := fresh "B" in assert (B : ~ before ks la) by untold; destruct H as [H|[_ H]]; [clear B|contradiction (B H)]
  end.
Ltac knows := repeat known1.
Ltac spell :=
  lazymatch goal with
  | |- spells _ _ [] => apply spells_nil
  | |- spells _ _ (_ :: _) => eapply spells_word; spell
  | |- spells _ _ ((_ ++ _) ++ _) => rewrite <- app_assoc; spell
  | |- spells _ _ ((_ :: _) ++ _) => cbn [app]; spell
  | |- spells _ _ ([] ++ _) => cbn [app]; spell
  | |- spells _ _ (?a ++ _) =>
      multimatch goal with H : fits coded ?e a |- _ => eapply (spells_phrase _ e _ _ _ H); spell end
  | |- spells _ _ ?a =>
      multimatch goal with
        H : fits coded ?e a |- _ => rewrite <- (app_nil_r a); eapply (spells_phrase _ e _ _ _ H); apply spells_nil
      end
  end.
Ltac fitting := eapply fit; [spell|vm_compute; reflexivity].
(** Lists of one kind of items. *)
Ltac each :=
  let g := fresh "g" in let m := fresh "m" in let la := fresh "la" in let Ig := fresh "Ig" in let H := fresh "H" in
  intros g m la Ig H; cbn [In] in Ig; repeat (destruct Ig as [Ig|Ig]); try contradiction Ig; subst g; knows; fitting.
Lemma each_element : forall g m la, In g [F_star_expr; F_named_expression] -> Known g m la -> fits coded element (kinds m).
Proof. each. Qed.
Lemma each_starred : forall g m la, In g [F_star_expr; F_test] -> Known g m la -> fits coded starred_test (kinds m).
Proof. each. Qed.
Lemma each_test : forall g m la, In g [F_test] -> Known g m la -> fits coded test (kinds m).
Proof. each. Qed.
Lemma each_param : forall g m la, In g [F_var_args_assignments] -> Known g m la -> fits coded param (kinds m).
Proof. each. Qed.
Lemma each_import : forall g m la, In g [F_import_as_name] -> Known g m la -> fits coded import_as_name (kinds m).
Proof. each. Qed.
Lemma each_with : forall g m la, In g [F_with_item] -> Known g m la -> fits coded with_item (kinds m).
Proof. each. Qed.
Ltac lists :=
  repeat match goal with
  | H : listed ?fs ?k ?l ?la |- _ =>
      let a := fresh "a" in let b := fresh "b" in let E := fresh "E" in let H1 := fresh "H1" in let H2 := fresh "H2" in
      first [ destruct (listed_all _ _ _ _ _ H each_element) as (a & b & E & H1 & H2)
            | destruct (listed_all _ _ _ _ _ H each_starred) as (a & b & E & H1 & H2)
            | destruct (listed_all _ _ _ _ _ H each_test) as (a & b & E & H1 & H2)
            | destruct (listed_all _ _ _ _ _ H each_param) as (a & b & E & H1 & H2)
            | destruct (listed_all _ _ _ _ _ H each_import) as (a & b & E & H1 & H2)
            | destruct (listed_all _ _ _ _ _ H each_with) as (a & b & E & H1 & H2) ]; clear H
  end.
Ltac prepare :=
  intros; unfold P; tables; match goal with |- plain ?x -> _ => let G := fresh "G" in intros G; options;
    try (tryif is_var x then fail else parts G); feed; knows; lists end.
Ltac conclude :=
  cbn [Known];
  lazymatch goal with
  | |- forall e, cmain _ = Some e -> _ => let e := fresh "e" in let M := fresh "M" in intros e M; cbn [cmain main] in M; first [discriminate M | injection M as <-; kindly; fitting]
  | |- _ /\ _ => split; conclude
  | |- fits _ _ _ => kindly; fitting
  | |- ~ before _ _ => untold
  | |- _ \/ before _ _ => first [right; told | left; kindly; fitting]
  | |- before _ _ -> _ => let B := fresh "B" in intros B; first [exfalso; revert B; untold | kindly; fitting]
  end.
Ltac default := prepare; conclude.

(** ** Parts that are not one phrase after another *)
Lemma strings_fit (l : list ptok) k : Forall (fun x => tk_kind (snd x) = k) l -> fits coded (Star (T k)) (kinds l).
Proof.
  induction l as [|[p t] l IH]; intros H; [apply fits_end|]. inversion H as [|z zs H1 H2]; subst. cbn [snd] in *.
  change (fits coded (Star (T (tk_kind t))) ([tk_kind t] ++ kinds l)). apply fits_more; [apply fits_token|auto].
Qed.
Lemma names_fit k l ns ts : E_names k l ns ts -> fits coded (Star << T k, T T_AtomName >>) (kinds l).
Proof.
  induction 1 as [|k p t q u l ns ts K1 K2 _ IH]; [apply fits_end|].
  change (fits coded (Star << T k, T T_AtomName >>) ([tk_kind t; tk_kind u] ++ kinds l)). apply fits_more; [|exact IH].
  rewrite K1, K2. change (fits coded << T k, T T_AtomName >> ([k] ++ [T_AtomName] ++ [])). repeat constructor.
Qed.
Lemma dots_fit (l : list ptok) : Forall (fun d => In (tk_kind (snd d)) [PyDot; PyElipsis]) l ->
  fits coded (Star (one_of PyDot, PyElipsis end_of)) (kinds l) /\ (l <> [] -> fits coded (Plus (one_of PyDot, PyElipsis end_of)) (kinds l)).
Proof.
  induction l as [|[p t] l IH]; intros H; [split; [apply fits_end|congruence]|]. inversion H as [|z zs H1 H2]; subst. cbn [snd] in H1.
  destruct (IH H2) as [I1 _]. assert (F : fits coded (one_of PyDot, PyElipsis end_of) [tk_kind t]).
  { cbn [In] in H1. destruct H1 as [<-|[<-|[]]]; (eapply fit; [eapply spells_word; apply spells_nil|vm_compute; reflexivity]). }
  change (kinds ((p, t) :: l)) with ([tk_kind t] ++ kinds l). split; [|intros _].
  - apply fits_more; assumption.
  - eapply fits_plus; eassumption.
Qed.
Lemma chain_more r g (op : ebnf) a b : coded r = << g, Star << op, g >> >> -> fits coded (R r) a -> fits coded << op, g >> b -> fits coded (R r) (a ++ b).
Proof.
  intros Q H1 H2. inversion H1 as [|r' ks H| | | | | | | | |]; subst. rewrite Q in H.
  inversion H as [| | |e es k1 k2 F1 F2| | | | | | |]; subst. inversion F2 as [| | |e' es' k3 k4 F3 F4| | | | | | |]; subst.
  inversion F4; subst. apply fits_rule. rewrite Q, app_nil_r, <- app_assoc. apply fits_cons; [exact F1|].
  rewrite <- (app_nil_r (k3 ++ b)). apply fits_cons; [|constructor]. apply star_snoc; assumption.
Qed.
Lemma one_kind (k : kind) e : whole coded steps e [Word k] = Some true -> fits coded e [k].
Proof. intros H. eapply fit; [eapply spells_word; apply spells_nil|exact H]. Qed.
Lemma binary_shape f g ops : binary f = Some (g, ops) ->
  exists r d (op : ebnf), main f = Some (R r) /\ main g = Some d /\ coded r = << d, Star << op, d >> >> /\
    (forall k c, In (k, c) ops -> fits coded op [k]).
Proof.
  intros Bn; destruct f; cbn in Bn; inversion Bn; subst; cbn [main]; do 3 eexists; (split; [reflexivity|]); (split; [reflexivity|]);
    (split; [reflexivity|]); intros k c J; cbn [In] in J; repeat (destruct J as [J|J]); try contradiction J; injection J as <- <-;
    apply one_kind; vm_compute; reflexivity.
Qed.
Lemma binary_operand f g ops l la d : binary f = Some (g, ops) -> main g = Some d -> Known g l la -> fits coded d (kinds l).
Proof. intros Bn M H. destruct f; cbn in Bn; inversion Bn; subst; cbn [main] in M; injection M as <-; knows; assumption. Qed.
Lemma binary_in f g ops l la : binary f = Some (g, ops) -> In f [F_or_test; F_and_test] -> Known g l la -> ~ before [PyIn] la.
Proof.
  intros Bn J H. cbn [In] in J. destruct J as [<-|[<-|[]]]; cbn in Bn; injection Bn as <- <-; exact (proj2 H).
Qed.
Lemma binary_plain f g ops k c s e a t b : binary f = Some (g, ops) -> In (k, c) ops -> plain (c s e a t b) -> plain a /\ plain b.
Proof.
  intros Bn J H; destruct f; cbn in Bn; inversion Bn; subst; cbn [In] in J; repeat (destruct J as [J|J]); try contradiction J;
    injection J as <- <-; parts H; split; assumption.
Qed.
Lemma chain_one f g ops l la x : binary f = Some (g, ops) -> P g l la x -> P_chain f l la x.
Proof.
  intros Bn H G. specialize (H G). destruct (binary_shape _ _ _ Bn) as (r & d & op & M1 & M2 & Q & _). split.
  - intros e M. rewrite M1 in M. injection M as <-. apply fits_rule. rewrite Q, <- (app_nil_r (kinds l)).
    apply fits_cons; [eapply binary_operand; eauto|]. change (@nil kind) with (@nil kind ++ []). apply fits_cons; [apply fits_end|apply fits_nil].
  - intros J. eapply binary_in; eauto.
Qed.
Lemma chain_next f g ops c l1 a p t l2 b la : binary f = Some (g, ops) -> In (tk_kind t, c) ops ->
  P_chain f l1 (p, Some t) a -> P g l2 la b -> P_chain f (l1 ++ (p, t) :: l2) la (c (start l1 (p, Some t)) (fst la) a t b).
Proof.
  intros Bn J H1 H2 G. destruct (binary_plain _ _ _ _ _ _ _ _ _ _ Bn J G) as [Ga Gb]. destruct (H1 Ga) as [H1' _]. specialize (H2 Gb).
  destruct (binary_shape _ _ _ Bn) as (r & d & op & M1 & M2 & Q & O). split.
  - intros e M. rewrite M1 in M. injection M as <-. rewrite kinds_app. eapply chain_more; [exact Q|apply H1'; exact M1|].
    change (kinds ((p, t) :: l2)) with ([tk_kind t] ++ kinds l2). apply fits_cons; [eapply O; exact J|].
    rewrite <- (app_nil_r (kinds l2)). apply fits_cons; [eapply binary_operand; eauto|apply fits_nil].
  - intros J'. eapply binary_in; eauto.
Qed.
Lemma chain_known_of f l la g ops : binary f = Some (g, ops) -> chain_known f l la -> stops (continues f) la -> Known f l la.
Proof.
  intros Bn [H N] S. destruct f; cbn in Bn; try discriminate Bn; cbn [Known]; first
    [ intros e M; apply H; exact M
    | split; [apply H; reflexivity|first [apply N; cbn; tauto | apply (stops_not_before _ _ _ S); vm_compute; reflexivity]] ].
Qed.
(** Chains of comparisons with two-word operators. *)
Lemma chain_two k1 k2 l1 a p t q u l2 b la x : fits coded comp_op [k1; k2] -> tk_kind t = k1 -> tk_kind u = k2 ->
  P_chain F_comparison l1 (p, Some t) a -> P F_expr l2 la b -> (plain x -> plain a /\ plain b) -> P_chain F_comparison (l1 ++ (p, t) :: (q, u) :: l2) la x.
Proof.
  intros O K1 K2 H1 H2 HP G. destruct (HP G) as [Ga Gb]. destruct (H1 Ga) as [Q _]. specialize (H2 Gb). knows. split; [|cbn; intuition discriminate].
  intros e M. injection M as <-. rewrite kinds_app. eapply (chain_more comparison (R expr) (R comp_op)); [reflexivity|apply Q; reflexivity|].
  kindly. change (k1 :: k2 :: kinds l2) with ([k1; k2] ++ kinds l2). apply fits_cons; [exact O|].
  rewrite <- (app_nil_r (kinds l2)). apply fits_cons; [assumption|constructor].
Qed.
Lemma star_cases k e b : fits coded (Star << T k, e >>) b ->
  b = [] \/ exists b1 b2, b = k :: b1 ++ b2 /\ fits coded e b1 /\ fits coded (Star << T k, e >>) b2.
Proof.
  intros H. inversion H as [| | | | | | | |d a b' H1 H2| |]; subst; [now left|]. right.
  inversion H1 as [| | |e1 es1 k1 k2 F1 F2| | | | | | |]; subst. inversion F1; subst. inversion F2 as [| | |e2 es2 k3 k4 F3 F4| | | | | | |]; subst. inversion F4; subst.
  exists k3, b'. rewrite app_nil_r. auto.
Qed.
Lemma rest_fit fs k l la xs ts e : P_rest fs k l la xs ts -> Forall plain xs ->
  (forall g m la, In g fs -> Known g m la -> fits coded e (kinds m)) -> fits coded (Star << T k, e >>) (kinds l).
Proof.
  intros H G S. destruct (H G) as [->|(p & t & l' & -> & K & HL)]; [apply fits_end|].
  destruct (listed_all _ _ _ _ _ HL S) as (a & b & E & Ha & Hb). rewrite kinds_cons, K, E.
  change (fits coded (Star << T k, e >>) ((k :: a) ++ b)). apply fits_more; [|exact Hb].
  change (k :: a) with ([k] ++ a). apply fits_cons; [constructor|]. rewrite <- (app_nil_r a). apply fits_cons; [exact Ha|constructor].
Qed.
(** A subscript in parentheses, in brackets. *)
Lemma subscripts l la : listed [F_subscript] PyComa l la -> Known F_subscript_list l la.
Proof.
  intros (a & b & f & E & J & H & Ha). cbn [In] in J. destruct J as [<-|[]].
  assert (S : fits coded (Star << subscript, T PyComa >>) a).
  { apply Ha. intros g m p t [<-|[]] K HK. knows. assumption. }
  cbn [Known] in *. split; intros B.
  - assert (N : ~ before [PyRightBracket; PyColon] la) by untold. destruct H as [H|[_ H]]; [|contradiction (N H)].
    destruct (star_turn _ _ _ _ _ S H E) as (x & y & -> & Hx & Hy). fitting.
  - destruct H as [H|[H _]].
    + destruct (star_turn _ _ _ _ _ S H E) as (x & y & -> & Hx & Hy). fitting.
    + rewrite E. fitting.
Qed.
(** Statements of a line. *)
Lemma small_stmts l p t : listed [F_small_stmt] PySemiColon l (p, Some t) -> ~ before [PyIn] (p, Some t) ->
  exists a b, kinds l = a ++ b /\ fits coded small_stmt a /\ fits coded (Star << T PySemiColon, R small_stmt >>) b.
Proof.
  intros (a & b & f & E & J & H & Ha) N. cbn [In] in J. destruct J as [<-|[]]. cbn [Known] in H. destruct H as [H|H]; [|contradiction (N H)].
  eapply star_turn; [apply Ha|exact H|exact E]. intros g m q u [<-|[]] K HK. knows. assumption.
Qed.
(** Targets before 'in'. *)
Lemma targets l la : listed [F_star_expr; F_named_expression] PyComa l la -> before [PyIn] la -> fits coded exprlist (kinds l).
Proof.
  intros (a & b & f & E & J & H & Ha) B. cbn [In] in J. destruct J as [<-|[<-|[]]]; [|cbn [Known] in H; destruct H as [_ H]; contradiction].
  assert (S : fits coded (Star << element, T PyComa >>) a).
  { apply Ha. intros g m p t J K HK. eapply each_element; eauto. }
  knows. rewrite E. fitting.
Qed.
Lemma assigns_more f p t l1 x l2 xs la : tk_kind t = PyAssign -> In f [F_yield_expr; F_testlist] -> P f l1 (ahead l2 la) x ->
  E_assigns l2 la xs -> P_assigns l2 la xs -> P_assigns ((p, t) :: l1 ++ l2) la ((t, x) :: xs).
Proof.
  intros K J H HA IH G. right. cbn [map snd] in G. conj_down. specialize (H ltac:(assumption)). destruct (IH ltac:(assumption)) as [[-> ->]|(a & b & g & E & V & Jg & Hg)].
  - rewrite app_nil_r. exists [], l1, f. rewrite kinds_cons, K. split; [reflexivity|]. split; [constructor|]. auto.
  - inversion HA as [|f' q u l3 y l4 ys la' K' J' HE' HA']; subst; [destruct a; discriminate|]. cbn [ahead] in H.
    exists ((PyAssign :: kinds l1) ++ a), b, g. split; [rewrite kinds_cons, kinds_app, E, K, <- app_assoc; reflexivity|].
    split; [|auto]. apply fits_more; [|exact V]. cbn [In] in J. destruct J as [<-|[<-|[]]]; knows; fitting.
Qed.

Theorem is_coded :
  (forall f l la x, E f l la x -> P f l la x) /\
  (forall f l la x, E_chain f l la x -> P_chain f l la x) /\
  (forall f l la o, E_opt f l la o -> P_opt f l la o) /\
  (forall f l la xs, E_many f l la xs -> P_many f l la xs) /\
  (forall fs k l la xs ts, E_rest fs k l la xs ts -> P_rest fs k l la xs ts) /\
  (forall fs k l la xs ts, E_items fs k l la xs ts -> P_items fs k l la xs ts) /\
  (forall b s l la x, E_entry b s l la x -> P_entry b s l la x) /\
  (forall s l la x, E_set_first s l la x -> P_first s l la x) /\
  (forall s l la xs ts, E_set_rest s l la xs ts -> P_set_rest s l la xs ts) /\
  (forall l la ns ts m w, E_stars l la ns ts m w -> P_stars l la ns ts m w) /\
  (forall l la ns ts m w, E_type_stars l la ns ts m w -> P_types l la ns ts m w) /\
  (forall l la xs, E_assigns l la xs -> P_assigns l la xs) /\
  (forall l la a x b, E_import_list l la a x b -> P_import l la a x b).
Proof.
  apply E_mutual.
  - (* E_constant *) default.
  - (* E_strings *) prepare; match goal with H : Forall _ _ |- _ => pose proof (strings_fit _ _ H) end; conclude.
  - (* E_tuple_empty *) default.
  - (* E_tuple *) default.
  - (* E_list_empty *) default.
  - (* E_list *) default.
  - (* E_dictionary *) default.
  - (* E_set *) default.
  - (* E_atom_expr_atom *) default.
  - (* E_atom_expr_trailers *) default.
  - (* E_atom_expr_await *) default.
  - (* E_power_base *) default.
  - (* E_power *) default.
  - (* E_unary *) default.
  - (* E_factor_power *) default.
  - (* E_binary *) intros f g ops l la x Bn _ H S G; eapply chain_known_of; [exact Bn|exact (H G)|exact S].
  - (* E_star_expr *) default.
  - (* E_not *) default.
  - (* E_not_comparison *) default.
    - (* E_lambda *) intros cond; destruct cond; cbv iota; prepare; cbn [Known]; intros SW; (assert (K0 : tk_kind t = PyLambda) by
    (destruct SW as (? & ? & ? & Z & K0); injection Z; intros; subst; exact K0)); (split; [kindly; fitting|first [intros _; untold |
    discriminate]]).
    - (* E_nocond_lambda *) intros p t l la x K HE H G; specialize (H G); cbn [Known] in H; cbv iota in H; (destruct H as [H N]; [exists
    p, t, l; auto|]); cbn [Known]; first [split; [fitting|exact (N eq_refl)] | intros e M; injection M as <-; fitting].
  - (* E_nocond_or *) default.
    - (* E_test_lambda *) intros p t l la x K HE H G; specialize (H G); cbn [Known] in H; cbv iota in H; (destruct H as [H N]; [exists p,
    t, l; auto|]); cbn [Known]; first [split; [fitting|exact (N eq_refl)] | intros e M; injection M as <-; fitting].
  - (* E_test_or *) default.
  - (* E_test_if *) default.
  - (* E_named_test *) default.
  - (* E_named *) default.
  - (* E_testlist_comp_for *) default.
  - (* E_testlist_comp *) default.
  - (* E_call *) prepare; conclude.
  - (* E_index *) default.
  - (* E_dot *) default.
  - (* E_subscript_list *) prepare; apply subscripts; assumption.
  - (* E_subscript *) prepare; cbn [Known]; left; fitting.
  - (* E_slice *) prepare; cbn [Known]; rewrite D in *; first [left; kindly; fitting | right; split; [kindly; fitting|auto]].
    - (* E_exprlist_one *) intros f l la x J HE H S G; specialize (H G); cbn [Known]; (split; [intros B; eapply targets; [eapply
    listed_one; eassumption|exact B]|left; pose proof (each_element _ _ _ J H); fitting]).
    - (* E_exprlist *) intros l la xs ts HI H N S G; parts G; feed; cbn [Known]; (split; [intros B; eapply targets; eassumption|left;
    lists; kindly; fitting]).
  - (* E_exprlist_comma *) default.
  - (* E_testlist_one *) default.
  - (* E_testlist *) default.
  - (* E_testlist_comma *) default.
  - (* E_dict_one *) default.
  - (* E_dict_comma *) default.
  - (* E_dict_two *) default.
  - (* E_set_items *) default.
  - (* E_set_items_comma *) default.
  - (* E_arglist *) intros; intros _ e M; discriminate M.
  - (* E_arglist_comma *) intros; intros _ e M; discriminate M.
  - (* E_argument_star *) intros; intros _ e M; discriminate M.
  - (* E_argument *) intros; intros _ e M; discriminate M.
  - (* E_argument_for *) intros; intros _ e M; discriminate M.
  - (* E_argument_assign *) intros; intros _ e M; discriminate M.
  - (* E_comp_iter *) default.
  - (* E_sync_comp_for *) default.
  - (* E_comp_for_async *) default.
  - (* E_comp_for *) default.
  - (* E_comp_if *) default.
  - (* E_yield_from *) default.
    - (* E_yield *) prepare; cbn [Known]; (split; [kindly; fitting|]); match goal with H : _ \/ before _ _ |- _ => destruct H; [left;
    kindly; fitting|right; assumption] end.
  - (* E_star_list_one *) default.
  - (* E_star_list *) default.
  - (* E_star_list_comma *) default.
    - (* E_var_args_stars *) intros l la ns ts m w HS H G; destruct m as [[tm xm]|]; destruct w as [[tw xw]|]; cbn [snd_opt fst_opt] in *;
    parts G; (match goal with H : P_stars _ _ _ _ _ _ |- _ => destruct H as (Q1 & Q2); [assumption| | |] end; [intros ? ? Q; inversion Q;
    subst; assumption|intros ? ? Q; inversion Q; subst; assumption|]); conclude.
  - (* E_var_args *) default.
    - (* E_var_args_then_stars *) intros l1 ns ts p t l2 ns2 ts2 m w la HI H1 K1 HS H G; destruct m as [[tm xm]|]; destruct w as [[tw
    xw]|]; cbn [snd_opt fst_opt] in *; parts G; feed; lists; (match goal with H : P_stars _ _ _ _ _ _ |- _ => destruct H as (Q1 & Q2);
    [assumption| | |] end; [intros ? ? Q; inversion Q; subst; assumption|intros ? ? Q; inversion Q; subst; assumption|]); conclude.
    - (* E_var_args_slash *) prepare; match goal with H : P_rest _ _ _ _ _ _ |- _ => pose proof (rest_fit _ _ _ _ _ _ _ H
    ltac:(assumption) each_param) end; conclude.
    - (* E_var_args_slash_stars *) intros l1 ns ts p t q u l2 ns2 ts2 r v l3 ns3 ts3 m w la HI H1 K1 K2 HR H2 K3 HS H G; destruct m as
    [[tm xm]|]; destruct w as [[tw xw]|]; cbn [snd_opt fst_opt] in *; parts G; feed; lists; (match goal with H : P_stars _ _ _ _ _ _ |- _
    => destruct H as (Q1 & Q2); [assumption| | |] end; [intros ? ? Q; inversion Q; subst; assumption|intros ? ? Q; inversion Q; subst;
    assumption|]); pose proof (rest_fit _ _ _ _ _ _ _ H2 ltac:(assumption) each_param); conclude.
  - (* E_var_arg *) default.
  - (* E_var_arg_default *) default.
  - (* E_vfp_def *) default.
    - (* E_simple_stmt *) prepare; match goal with H : listed _ _ _ _ |- _ => apply small_stmts in H; [destruct H as (? & ? & ? & ? &
    ?)|untold] end; conclude.
    - (* E_simple_stmt_semi *) prepare; match goal with H : listed _ _ _ _ |- _ => apply small_stmts in H; [destruct H as (? & ? & ? & ? &
    ?)|untold] end; conclude.
    - (* E_small_stmt *) prepare; cbn [Known]; first [left; kindly; fitting | match goal with H : _ \/ before _ _ |- _ => destruct H;
    [left; kindly; fitting|right; assumption] end].
  - (* E_expr_stmt *) default.
    - (* E_expr_stmt_ann *) intros l1 a l2 la x HE1 H1 HE2 H2 G; (assert (Ga : plain a) by (invert HE2; parts G; assumption)); specialize
    (H1 Ga); specialize (H2 G); apply proj1 in H1; (assert (Q2 := H2 _ eq_refl)); cbn [cmain] in Q2; conclude.
  - (* E_expr_stmt_aug *) default.
    - (* E_expr_stmt_assign *) intros l1 a l2 xs la HE H1 HA H2 N S G; parts G; specialize (H1 ltac:(assumption)); apply proj1 in H1;
    (destruct (H2 ltac:(assumption)) as [[? _]|(c & b & f & Eq & V & J & Hf)]; [congruence|]); tables; apply proj1 in Hf; conclude.
    - (* E_expr_stmt_assign_comment *) intros l1 a l2 xs p t la HE H1 HA H2 N K G; parts G; specialize (H1 ltac:(assumption)); apply proj1
    in H1; (destruct (H2 ltac:(assumption)) as [[? _]|(c & b & f & Eq & V & J & Hf)]; [congruence|]); tables; knows; conclude.
  - (* E_ann_assign *) default.
  - (* E_ann_assign_value *) default.
  - (* E_del *) prepare; cbn [Known]; match goal with H : _ \/ before _ _ |- _ => destruct H; [left; kindly; fitting|right; assumption] end.
  - (* E_pass *) default.
  - (* E_flow *) default.
  - (* E_break *) default.
  - (* E_continue *) default.
  - (* E_return *) default.
  - (* E_return_value *) prepare; conclude.
  - (* E_yield_stmt *) default.
  - (* E_raise *) default.
  - (* E_raise_value *) default.
  - (* E_raise_from *) default.
  - (* E_import_stmt *) default.
  - (* E_import_name *) intros; intros _ e M; discriminate M.
    - (* E_import_from *) intros p t dots l1 o q u l2 a x b la K1 FD HO H1 ND K2 HI H2 G; assert (Q3 : fits coded (one_of PyMul, <<
    PyLeftParen, import_as_names, PyRightParen >>, import_as_names end_of) (kinds l2)) by (apply H2; intros y ->; parts G; assumption);
    destruct (dots_fit _ FD) as [Q1 Q2]; options; parts G; feed; knows; [conclude|specialize (Q2 (ND eq_refl)); clear Q1; conclude].
  - (* E_import_as_name *) default.
  - (* E_import_as_name_as *) default.
  - (* E_dotted_as_name *) intros; intros _ e M; discriminate M.
  - (* E_dotted_as_name_as *) intros; intros _ e M; discriminate M.
  - (* E_import_as_names *) default.
  - (* E_dotted_as_names *) intros; intros _ e M; discriminate M.
  - (* E_dotted_name *) prepare; match goal with H : E_names _ _ _ _ |- _ => pose proof (names_fit _ _ _ _ H) end; conclude.
  - (* E_global *) prepare; match goal with H : E_names _ _ _ _ |- _ => pose proof (names_fit _ _ _ _ H) end; conclude.
  - (* E_nonlocal *) prepare; match goal with H : E_names _ _ _ _ |- _ => pose proof (names_fit _ _ _ _ H) end; conclude.
  - (* E_assert *) default.
  - (* E_assert_from *) default.
  - (* E_with_item *) default.
  - (* E_with_item_as *) default.
  - (* E_decorator *) intros; intros _ e M; discriminate M.
  - (* E_decorator_call *) intros; intros _ e M; discriminate M.
  - (* E_decorators *) intros; intros _ e M; discriminate M.
  - (* E_parameters *) default.
  - (* E_typed_args_list *) intros; intros _ e M; discriminate M.
  - (* E_tfp_def *) intros; intros _ e M; discriminate M.
  - (* E_tfp_def_type *) intros; intros _ e M; discriminate M.
  - (* E_tfp_assign *) intros; intros _ e M; discriminate M.
  - (* E_tfp_assign_default *) intros; intros _ e M; discriminate M.
  - (* E_func_type *) default.
    - (* E_type_list_stars *) intros l la ns ts m w HS H G; destruct m as [[tm xm]|]; destruct w as [[tw xw]|]; cbn [snd_opt fst_opt] in
    *; parts G; (match goal with H : P_types _ _ _ _ _ _ |- _ => destruct H as (Q1 & Q2); [assumption| | |] end; [intros ? ? Q; inversion
    Q; subst; assumption|intros ? ? Q; inversion Q; subst; assumption|]); conclude.
  - (* E_type_list *) default.
    - (* E_type_list_then_stars *) intros l1 ns ts p t l2 ns2 ts2 m w la HI H1 K1 HS H G; destruct m as [[tm xm]|]; destruct w as [[tw
    xw]|]; cbn [snd_opt fst_opt] in *; parts G; feed; lists; (match goal with H : P_types _ _ _ _ _ _ |- _ => destruct H as (Q1 & Q2);
    [assumption| | |] end; [intros ? ? Q; inversion Q; subst; assumption|intros ? ? Q; inversion Q; subst; assumption|]); conclude.
  - (* chain_operand *) intros f g ops l la x Bn _ H; eapply chain_one; eassumption.
  - (* chain_operator *) intros f g ops c l1 a p t l2 b la Bn J _ H1 _ H2; eapply chain_next; eassumption.
    - (* chain_is_not *) intros l1 a p t q u l2 b la K1 K2 _ H1 _ H2; eapply chain_two; [|exact K1|exact K2|exact H1|exact H2|intros G;
    parts G; auto]; fitting.
    - (* chain_not_in *) intros l1 a p t q u l2 b la K1 K2 _ H1 _ H2; eapply chain_two; [|exact K1|exact K2|exact H1|exact H2|intros G;
    parts G; auto]; fitting.
  - (* opt_none *) intros; reflexivity.
  - (* opt_some *) intros f l la x _ H; exact H.
  - (* many_nil *) intros f la G e M; apply fits_end.
    - (* many_cons *) intros f l1 x l2 xs la HE H _ IH G e M; conj_down; (assert (F1 : fits coded e (kinds l1)) by (specialize (H
    ltac:(assumption)); destruct f; try discriminate M; cbn [cmain main] in M; injection M as <-; knows; assumption)); rewrite kinds_app;
    apply fits_more; [exact F1|apply IH; assumption].
  - (* rest_nil *) intros fs k la G; left; reflexivity.
    - (* rest_cons *) intros fs k f p t l1 x l2 xs ts la K J HE H _ IH G; conj_down; right; exists p, t, (l1 ++ l2); (split;
    [reflexivity|]); (split; [exact K|]); eapply listed_join; [exact J|apply H; assumption|eassumption|exact IH].
    - (* items_intro *) intros fs k f l1 x l2 xs ts la J HE H _ IH G; conj_down; eapply listed_join; [exact J|apply H;
    assumption|eassumption|exact IH].
    - (* entry_mul *) intros; unfold P_entry, P_first, P_set_rest; intros G; try (tryif (match type of G with plain ?y => is_var y end)
    then fail else parts G); conj_down; feed; knows; cbv iota; kindly; first [fitting|eapply fits_more; [fitting|assumption]].
    - (* entry_test *) intros; unfold P_entry, P_first, P_set_rest; intros G; try (tryif (match type of G with plain ?y => is_var y end)
    then fail else parts G); conj_down; feed; knows; cbv iota; kindly; first [fitting|eapply fits_more; [fitting|assumption]].
    - (* entry_power *) intros; unfold P_entry, P_first, P_set_rest; intros G; try (tryif (match type of G with plain ?y => is_var y end)
    then fail else parts G); conj_down; feed; knows; cbv iota; kindly; first [fitting|eapply fits_more; [fitting|assumption]].
    - (* entry_pair *) intros; unfold P_entry, P_first, P_set_rest; intros G; try (tryif (match type of G with plain ?y => is_var y end)
    then fail else parts G); conj_down; feed; knows; cbv iota; kindly; first [fitting|eapply fits_more; [fitting|assumption]].
    - (* set_first_mul *) intros; unfold P_entry, P_first, P_set_rest; intros G; try (tryif (match type of G with plain ?y => is_var y
    end) then fail else parts G); conj_down; feed; knows; cbv iota; kindly; first [fitting|eapply fits_more; [fitting|assumption]].
    - (* set_first_test *) intros; unfold P_entry, P_first, P_set_rest; intros G; try (tryif (match type of G with plain ?y => is_var y
    end) then fail else parts G); conj_down; feed; knows; cbv iota; kindly; first [fitting|eapply fits_more; [fitting|assumption]].
    - (* set_rest_nil *) intros; unfold P_entry, P_first, P_set_rest; intros G; try (tryif (match type of G with plain ?y => is_var y end)
    then fail else parts G); conj_down; feed; knows; cbv iota; kindly; first [fitting|eapply fits_more; [fitting|assumption]].
    - (* set_rest_cons *) intros s p t l1 x l2 xs ts la K HE H _ IH G; conj_down; feed; cbv iota in H; kindly; change (PyComa :: kinds l1
    ++ kinds l2) with ((PyComa :: kinds l1) ++ kinds l2); eapply fits_more; [fitting|assumption].
    - (* stars_power *) intros p t l la x K HE H _ Gn Gm Gw; specialize (H (Gw _ _ eq_refl)); knows; kindly; split; [fitting|intros _;
    fitting].
    - (* stars_power_comma *) intros p t l x q u la K HE H K2 Gn Gm Gw; specialize (H (Gw _ _ eq_refl)); knows; kindly; split;
    [fitting|intros _; fitting].
    - (* stars_mul *) intros p t l la x xs ts K HI H _ Gn Gm Gw; assert (G : Forall plain (x :: xs)) by (constructor; [exact (Gm _ _
    eq_refl)|assumption]); feed; lists; kindly; split; [fitting|discriminate].
    - (* stars_mul_power *) intros p t l1 x xs ts q u l2 ts2 w la K HI H K2 HS IH Gn Gm Gw; assert (G : Forall plain (x :: xs)) by
    (constructor; [exact (Gm _ _ eq_refl)|assumption]); feed; lists; destruct IH as [_ IH]; [constructor|discriminate|exact Gw|];
    specialize (IH eq_refl); kindly; split; [fitting|discriminate].
    - (* type_stars_power *) intros p t l la x K HE H Gn Gm Gw; specialize (H (Gw _ _ eq_refl)); knows; kindly; split; [fitting|intros _;
    fitting].
    - (* type_stars_mul *) intros p t l la x xs ts K HI H _ Gn Gm Gw; assert (G : Forall plain (x :: xs)) by (constructor; [exact (Gm _ _
    eq_refl)|assumption]); feed; lists; kindly; split; [fitting|discriminate].
    - (* type_stars_mul_power *) intros p t l1 x xs ts q u l2 ts2 w la K HI H K2 HS IH Gn Gm Gw; assert (G : Forall plain (x :: xs)) by
    (constructor; [exact (Gm _ _ eq_refl)|assumption]); feed; lists; destruct IH as [_ IH]; [constructor|discriminate|exact Gw|];
    specialize (IH eq_refl); kindly; split; [fitting|discriminate].
  - (* assigns_nil *) intros la G; left; auto.
  - (* assigns_cons *) intros; eapply assigns_more; eassumption.
  - (* import_star *) intros; intros G; kindly; fitting.
  - (* import_paren *) intros p t l x q u la K1 HE H K2 G; specialize (H (G _ eq_refl)); knows; kindly; fitting.
  - (* import_plain *) intros l la x HE H G; specialize (H (G _ eq_refl)); knows; kindly; fitting.
Qed.

(** ** Statements with suites *)
Lemma E_P f l la x : E f l la x -> P f l la x.
Proof. apply is_coded. Qed.
Lemma E_P_opt f l la o : E_opt f l la o -> P_opt f l la o.
Proof. apply is_coded. Qed.
Lemma E_P_items fs k l la xs ts : E_items fs k l la xs ts -> P_items fs k l la xs ts.
Proof. apply is_coded. Qed.

Definition Q (f : fn) (c : except_status) (l : list ptok) (la : look) (x : node) (c' : except_status) : Prop := P f l la x.
Definition Q_opt (f : fn) (c : except_status) (l : list ptok) (la : look) (o : option node) (c' : except_status) : Prop := P_opt f l la o.
Definition Q_many (f : fn) (c : except_status) (l : list ptok) (la : look) (xs : list node) (c' : except_status) : Prop :=
  Forall plain xs -> forall e, cmain f = Some e -> sort_of f = Block ->
  fits coded (Star e) (kinds l) /\ (xs <> [] -> fits coded (Plus e) (kinds l)).

Ltac made :=
  repeat match goal with
  | H : E _ _ _ _ |- _ => apply E_P in H
  | H : E_opt _ _ _ _ |- _ => apply E_P_opt in H
  | H : E_items _ _ _ _ _ _ |- _ => apply E_P_items in H
  | H : Q _ _ _ _ _ _ |- _ => unfold Q in H
  | H : Q_opt _ _ _ _ _ _ |- _ => unfold Q_opt in H
  end.
Ltac manyB :=
  repeat match goal with
  | H : Q_many ?f _ ?l _ ?xs _, G : Forall plain ?xs |- _ =>
      let S := fresh "S" in let K := fresh "K" in destruct (H G _ eq_refl eq_refl) as [S K]; clear H
  end;
  repeat match goal with K : ?xs <> [] -> _, N : ?xs <> [] |- _ => specialize (K N) end.
Ltac smalls :=
  repeat match goal with
  | H : opt_token _ _ _ |- _ => inversion H; subst; clear H
  | H : returns _ _ _ |- _ => inversion H; subst; clear H
  | H : comment_line _ _ _ |- _ => inversion H; subst; clear H
  | H : except_what _ _ _ |- _ => inversion H; subst; clear H
  | H : bases _ _ _ _ |- _ => inversion H; subst; clear H
  end.
Ltac prepareB :=
  intros; unfold Q, P; tables; smalls; made; match goal with |- plain ?x -> _ => let G := fresh "G" in intros G; options;
    try (tryif is_var x then fail else parts G); feed; knows; lists; manyB end.
Ltac defaultB := prepareB; conclude.
Lemma no_decorated c l la x c' : B F_decorated c l la x c' -> False.
Proof.
  intros H. inversion H as [| | | | | | | | | | | | | | | | |f c0 l1 a l2 b c1 la0 HD J HB| | | | |]; subst. destruct (decorators_newline _ _ _ HD) as (t & Q1 & Q2).
  cbn [In] in J; repeat (destruct J as [J|J]); try contradiction J; subst f; inversion HB; subst; cbn in Q1; injection Q1 as <-; congruence.
Qed.
Lemma item_nonempty a : fits coded with_item a -> a <> [].
Proof.
  intros H ->. assert (Q : exists s, firsts 40 (R with_item) = Some (false, s)) by (vm_compute; eexists; reflexivity).
  destruct Q as (s & Q). generalize dependent 40. intros d Q. pose proof (firsts_sound _ _ _ _ _ Q H) as N. discriminate N.
Qed.
Lemma but_item l a b : kinds l = a ++ b -> fits coded with_item a -> ~ starts_with PyLeftParen l -> fits coded (But PyLeftParen with_item) a.
Proof.
  intros E H N. destruct a as [|k a]; [destruct (item_nonempty _ H eq_refl)|]. apply fits_but; [assumption|]. intros ->. apply N.
  destruct l as [|[p t] l]; [discriminate|]. exists p, t, l. split; [reflexivity|]. injection E as E _. exact E.
Qed.
Lemma with_fit l la a xs ts b : with_items l la a xs ts b -> Forall plain xs ->
  fits coded (one_of << But PyLeftParen with_item, comma_then with_item >>,
                << PyLeftParen, with_item, comma_then with_item, (Opt PyComa), PyRightParen >> end_of) (kinds l).
Proof.
  intros H G. inversion H; subst; made; feed; lists; [|kindly; fitting|kindly; fitting].
  match goal with E : kinds _ = _, W : fits coded (R with_item) _, N : ~ starts_with _ _ |- _ => pose proof (but_item _ _ _ E W N) end.
  kindly. fitting.
Qed.

Theorem blocks_coded :
  (forall f c l la x c', B f c l la x c' -> Q f c l la x c') /\
  (forall f c l la o c', B_opt f c l la o c' -> Q_opt f c l la o c') /\
  (forall f c l la xs c', B_many f c l la xs c' -> Q_many f c l la xs c').
Proof.
  apply B_mutual.
  - (* B_stmt_compound *) defaultB.
  - (* B_stmt_simple *) defaultB.
    - (* B_compound *) intros f c l la x c' J HB H; cbn [In] in J; repeat (destruct J as [J|J]); try contradiction J; subst f; try
    (exfalso; exact (no_decorated _ _ _ _ _ HB)); prepareB; conclude.
  - (* B_async *) defaultB.
  - (* B_if *) defaultB.
  - (* B_elif *) defaultB.
  - (* B_else *) defaultB.
  - (* B_while *) defaultB.
  - (* B_for *) defaultB.
  - (* B_try_finally *) defaultB.
  - (* B_try *) defaultB.
  - (* B_finally *) defaultB.
  - (* B_except_stmt *) defaultB.
    - (* B_except_clause *) intros c p t l1 m c' l2 w la K1 HO _ HW G; (assert (Z : m = None) by (apply plain_kids in G; exact (proj1
    G))); subst m; inversion HO; subst; inversion HW; subst; made; parts G; feed; knows; conclude.
    - (* B_with *) intros c p t l1 a xs ts b q u l2 x c' la K1 HW K2 HB H G; unfold Q in H; parts G; feed; knows; pose proof (with_fit _ _
    _ _ _ _ HW ltac:(assumption)); conclude.
  - (* B_suite_simple *) defaultB.
  - (* B_suite_block *) defaultB.
  - (* B_decorated *) defaultB.
  - (* B_async_func *) defaultB.
  - (* B_func *) defaultB.
  - (* B_body_simple *) defaultB.
  - (* B_body_block *) defaultB.
  - (* B_class *) defaultB.
  - (* B_none *) intros; reflexivity.
  - (* B_some *) intros f c l la x c' _ H; exact H.
  - (* B_nil *) intros f c la G e M S; split; [apply fits_end|congruence].
    - (* B_cons *) intros f c l1 x c1 l2 xs c' la HB H _ IH G e M S; conj_down; (assert (F1 : fits coded e (kinds l1)) by (specialize (H
    ltac:(assumption)); destruct f; try discriminate S; try discriminate M; cbn [cmain main] in M; injection M as <-; knows; assumption));
    (destruct (IH ltac:(assumption) e M S) as [F2 _]); rewrite kinds_app; split; [apply fits_more; assumption|intros _; apply fits_plus;
    assumption].
Qed.

(** ** Statements do not begin with 'match' *)
Definition opens (k : kind) : bool := match k with T_Newline | T_Indent | T_Dedent => true | _ => false end.
Lemma opens_spec k : opens k = true <-> opens_line k.
Proof. unfold opens_line. split; [destruct k; try discriminate; auto|intros [->|[->| ->]]; reflexivity]. Qed.
(** Rules without such tokens. *)
Definition simple (r : rule) : bool :=
  match r with
  | single_input | file_input | eval_input | func_type_input | stmt | simple_stmt | compound_stmt | async_stmt | if_stmt | while_stmt
  | for_stmt | try_stmt | with_stmt | funcdef | classdef | suite | func_body_suite => false
  | _ => true
  end.
Fixpoint sober (e : ebnf) : bool :=
  match e with
  | T k => negb (opens k)
  | R r => simple r
  | Seq es | Alt es => forallb sober es
  | Opt d | Star d | Plus d | But _ d => sober d
  end.
Lemma simple_sober r : simple r = true -> sober (coded r) = true.
Proof. destruct r; intros H; try discriminate H; reflexivity. Qed.
Lemma sober_quiet e ks : fits coded e ks -> sober e = true -> Forall (fun k => opens k = false) ks.
Proof.
  induction 1; intros S; cbn [sober] in S; auto.
  - constructor; [|constructor]. now apply negb_true_iff.
  - apply IHfits. now apply simple_sober.
  - cbn [forallb] in S. apply andb_true_iff in S. destruct S. apply Forall_app. split; [auto|]. apply IHfits2. assumption.
  - apply IHfits. rewrite forallb_forall in S. auto.
  - apply Forall_app. split; auto.
  - apply Forall_app. split; auto.
Qed.
Lemma pcalm_nil : pcalm [].
Proof. intros a t u b E. destruct a; discriminate. Qed.
Lemma pcalm_word p t l : pcalm l -> opens (tk_kind t) = false -> pcalm ((p, t) :: l).
Proof.
  intros H N a u v b E O. destruct a as [|w a]; cbn in E; injection E as E1 E2.
  - subst. apply opens_spec in O. congruence.
  - eapply H; eauto.
Qed.
Lemma pcalm_line p t l : pcalm l -> ~ starts_match l -> pcalm ((p, t) :: l).
Proof.
  intros H N a u v b E O. destruct a as [|w a]; cbn in E; injection E as E1 E2.
  - subst. destruct l as [|[q y] l]; [discriminate|]. injection E2 as -> _. intros [K X]. apply N. exists q, v, l. auto.
  - eapply H; eauto.
Qed.
Lemma pcalm_make a b : pcalm a -> pcalm b -> ~ starts_match b -> pcalm (a ++ b).
Proof.
  intros Ha Hb N. induction a as [|[p t] a IH]; [exact Hb|]. cbn [app]. specialize (IH (pcalm_cons _ _ Ha)).
  destruct (opens (tk_kind t)) eqn:O; [|apply pcalm_word; assumption]. apply pcalm_line; [exact IH|].
  destruct a as [|[q u] a]; [exact N|]. intros (r & v & l & E & Z). injection E as <- <- <-.
  apply (pcalm_next [] p t ((q, u) :: a) Ha); [now apply opens_spec|]. exists q, u, a. auto.
Qed.
Lemma pcalm_quiet l : Forall (fun k => opens k = false) (kinds l) -> pcalm l.
Proof.
  induction l as [|[p t] l IH]; intros H; [apply pcalm_nil|]. cbn in H. inversion H; subst. apply pcalm_word; auto.
Qed.
Lemma pcalm_fits e l : fits coded e (kinds l) -> sober e = true -> pcalm l.
Proof. intros H S. apply pcalm_quiet. eapply sober_quiet; eauto. Qed.
Lemma no_match_word p t l k : tk_kind t = k -> kind_eqb k T_AtomName = false -> ~ starts_match ((p, t) :: l).
Proof. intros <- N (q & u & l' & E & K & _). injection E as <- <- <-. rewrite K in N. discriminate. Qed.
Lemma no_match_nil : ~ starts_match [].
Proof. intros (q & u & l' & E & _). discriminate. Qed.
Lemma no_match_app a b : ~ starts_match a -> ~ starts_match b -> ~ starts_match (a ++ b).
Proof.
  intros Ha Hb. destruct a as [|[p t] a]; [exact Hb|]. intros (q & u & l' & E & Z). injection E as <- <- <-. apply Ha. exists p, t, a. auto.
Qed.
Lemma simple_calm l : fits coded simple_stmt (kinds l) -> pcalm l.
Proof.
  intros H. inversion H as [|r ks H0| | | | | | | | |]; subst. clear H. cbn [coded] in H0.
  assert (X : exists a, kinds l = a ++ [T_Newline] /\ Forall (fun k => opens k = false) a).
  { repeat match goal with H : fits coded (Seq (_ :: _)) _ |- _ => inversion H; subst; clear H end.
    match goal with H : fits coded (Seq []) _ |- _ => inversion H; subst; clear H end.
    match goal with H : fits coded (T T_Newline) _ |- _ => inversion H; subst; clear H end.
    match goal with |- exists a, ?x ++ ?y ++ ?z ++ [T_Newline] ++ [] = a ++ _ /\ _ => exists (x ++ y ++ z) end.
    split; [rewrite <- !app_assoc; reflexivity|].
    repeat (apply Forall_app; split); (eapply sober_quiet; [eassumption|reflexivity]). }
  destruct X as (a & E & A). destruct l as [|[p t] l _] using rev_ind; [apply pcalm_nil|].
  rewrite kinds_app in E. apply app_inj_tail in E. destruct E as [<- E]. cbn in E.
  apply pcalm_make; [apply pcalm_quiet; exact A|apply pcalm_line; [apply pcalm_nil|apply no_match_nil]|].
  eapply no_match_word; [exact E|reflexivity].
Qed.

Definition loud (f : fn) : Prop := match f with F_suite | F_func_body_suite => False | _ => True end.
Definition W (f : fn) (c : except_status) (l : list ptok) (la : look) (x : node) (c' : except_status) : Prop :=
  plain x -> pcalm l /\ (loud f -> ~ starts_match l).
Definition W_opt (f : fn) (c : except_status) (l : list ptok) (la : look) (o : option node) (c' : except_status) : Prop :=
  (forall x, o = Some x -> plain x) -> loud f -> pcalm l /\ ~ starts_match l.
Definition W_many (f : fn) (c : except_status) (l : list ptok) (la : look) (xs : list node) (c' : except_status) : Prop :=
  Forall plain xs -> loud f -> pcalm l /\ ~ starts_match l.
Ltac calmed :=
  lazymatch goal with
  | |- pcalm [] => apply pcalm_nil
  | |- pcalm (_ ++ _) => apply pcalm_make; calmed
  | |- pcalm ((_, _) :: _) =>
      first [ apply pcalm_word; [calmed|match goal with K : tk_kind ?t = _ |- opens (tk_kind ?t) = _ => rewrite K; reflexivity end]
            | apply pcalm_line; calmed ]
  | |- pcalm _ => first [assumption | eapply pcalm_fits; [eassumption|reflexivity] | apply simple_calm; assumption]
  | |- ~ starts_match [] => apply no_match_nil
  | |- ~ starts_match (_ ++ _) => apply no_match_app; calmed
  | |- ~ starts_match (_ :: _) => eapply no_match_word; [eassumption|reflexivity]
  | |- _ => assumption
  end.
Ltac feedW :=
  repeat match goal with
  | H : W ?f _ _ _ ?x _, G : plain ?x |- _ => let A := fresh "A" in let B := fresh "B" in destruct (H G) as [A B]; clear H; cbn [loud] in B; try specialize (B I)
  | H : W_opt ?f _ _ _ (Some ?x) _, G : plain ?x |- _ =>
      let A := fresh "A" in let B := fresh "B" in
      destruct (H ltac:(let z := fresh in let Z := fresh in intros z Z; injection Z as <-; exact G) I) as [A B]; clear H
  | H : W_opt ?f _ _ _ None _ |- _ => let A := fresh "A" in let B := fresh "B" in destruct (H ltac:(intros; discriminate) I) as [A B]; clear H
  | H : W_many ?f _ _ _ ?xs _, G : Forall plain ?xs |- _ => let A := fresh "A" in let B := fresh "B" in destruct (H G I) as [A B]; clear H
  end.
Ltac optionsW := repeat match goal with H : W_opt _ _ _ _ ?o _ |- _ => is_var o; destruct o end.
Ltac prepareW :=
  intros; unfold W; tables; smalls; made; match goal with |- plain ?x -> _ => let G := fresh "G" in intros G; options; optionsW;
    try (tryif is_var x then fail else parts G); feed; knows; lists; feedW end.
Ltac concludeW := cbn [app]; split; [calmed|cbn [loud]; first [intros _; calmed | intros []]].
Ltac defaultW := prepareW; concludeW.

Theorem blocks_calm :
  (forall f c l la x c', B f c l la x c' -> W f c l la x c') /\
  (forall f c l la o c', B_opt f c l la o c' -> W_opt f c l la o c') /\
  (forall f c l la xs c', B_many f c l la xs c' -> W_many f c l la xs c').
Proof.
  apply B_mutual.
  - (* B_stmt_compound *) intros c l la x c' _ H; exact H.
  - (* B_stmt_simple *) defaultW.
  - (* B_compound *) intros f c l la x c' J HB H G; cbn [In] in J; repeat (destruct J as [J|J]); try contradiction J; subst f; exact (H G).
  - (* B_async *) defaultW.
  - (* B_if *) defaultW.
  - (* B_elif *) defaultW.
  - (* B_else *) defaultW.
  - (* B_while *) defaultW.
  - (* B_for *) defaultW.
  - (* B_try_finally *) defaultW.
  - (* B_try *) defaultW.
  - (* B_finally *) defaultW.
  - (* B_except_stmt *) defaultW.
    - (* B_except_clause *) intros c p t l1 m c' l2 w la K1 HO _ HW G; (assert (Z : m = None) by (apply plain_kids in G; exact (proj1
    G))); subst m; inversion HO; subst; inversion HW; subst; made; parts G; feed; knows; concludeW.
    - (* B_with *) intros c p t l1 a xs ts b q u l2 x c' la K1 HW K2 HB H G; parts G; feedW; pose proof (with_fit _ _ _ _ _ _ HW
    ltac:(assumption)); concludeW.
  - (* B_suite_simple *) defaultW.
  - (* B_suite_block *) defaultW.
  - (* B_decorated *) intros f c l1 a l2 b c' la HD J HB H G; exfalso; eapply no_decorated; econstructor; eassumption.
  - (* B_async_func *) defaultW.
  - (* B_func *) defaultW.
  - (* B_body_simple *) defaultW.
  - (* B_body_block *) defaultW.
  - (* B_class *) defaultW.
  - (* B_none *) intros; intros _ _; split; [apply pcalm_nil|apply no_match_nil].
  - (* B_some *) intros f c l la x c' _ H G L; destruct (H (G _ eq_refl)) as [A N]; auto.
  - (* B_nil *) intros; intros _ _; split; [apply pcalm_nil|apply no_match_nil].
    - (* B_cons *) intros f c l1 x c1 l2 xs c' la _ H _ IH G L; conj_down; (destruct (H ltac:(assumption)) as [A N]); specialize (N L);
    (destruct (IH ltac:(assumption) L) as [A2 N2]); split; calmed.
Qed.
