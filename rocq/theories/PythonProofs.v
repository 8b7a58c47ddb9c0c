(** What the parser accepts is Python, where the tree is regular (PythonSpec.v): proofs.  Every phrase of the grammar of
    the parser (GrammarSpec.v) is a phrase of the grammar of Python (PythonGrammar.v). *)
From Coq Require Import List Arith Lia Bool NArith.
From Verif Require Import Chars Token Node NodeView ParserState GrammarSpec SchemaSpec SchemaProofs ParseBasics PythonGrammar PythonSpec Recognise.
Import ListNotations.
Local Open Scope nat_scope.
Local Open Scope ebnf_scope.

Definition kinds (l : list ptok) : list kind := map (fun x => tk_kind (snd x)) l.

(** ** Regular trees *)
Definition kids (ps : list item) : list node := flat_map (fun i => match i with Sub y => [y] | Leaf _ => [] end) ps.
Lemma kids_app a b : kids (a ++ b) = kids a ++ kids b.
Proof. unfold kids. apply flat_map_app. Qed.
Lemma kids_sub l : kids (map Sub l) = l.
Proof. induction l as [|x l IH]; cbn; [reflexivity|]. f_equal. exact IH. Qed.
Lemma kids_leaf l : kids (map Leaf l) = [].
Proof. induction l as [|x l IH]; cbn; [reflexivity|exact IH]. Qed.
Lemma kids_pairs l : kids (pairs l) = map snd l.
Proof. induction l as [|x l IH]; cbn; [reflexivity|]. f_equal. exact IH. Qed.
Lemma kids_opt_tokens o : kids (opt_tokens o) = [].
Proof. destruct o; reflexivity. Qed.
Lemma kids_opt_tokens2 o : kids (opt_tokens2 o) = [].
Proof. destruct o as [[a b]|]; reflexivity. Qed.

Lemma regular_kids x : regular x -> decent x /\ Forall regular (kids (items x)).
Proof.
  unfold regular. rewrite subnodes_items. intros H. inversion H as [|y ys D F]; subst. split; [exact D|].
  clear D H. induction (items x) as [|i ps IH]; [constructor|]. cbn in F. apply Forall_app in F. destruct F as [F1 F2].
  destruct i; cbn; [exact (IH F2)|]. constructor; [exact F1|exact (IH F2)].
Qed.

(** Levels looser than an operand of a comparison. *)
Definition loose (f : fn) : bool :=
  match f with F_named_expression | F_test | F_or_test | F_and_test | F_not_test | F_comparison => true | _ => false end.

Definition special (f : fn) (x : node) (e : ebnf) : Prop :=
  match f with
  | F_var_args_assignments => e = R argument \/ (is_name x /\ e = T T_AtomName)
  | F_vfp_def => e = T T_AtomName
  | F_testlist => e = R testlist_star_expr
  | F_subscript => no_slice x /\ e = R argument
  | F_subscript_list => match x with SubscriptList _ _ xs _ => Forall no_slice xs | _ => False end /\ e = R arglist
  | F_var_args_list => match x with VarArgsList _ _ _ _ _ _ _ _ None => True | _ => False end /\ e = R arglist
  | F_exprlist => tight_list x /\ e = R exprlist
  | F_lambda_def c =>
      match x with Lambda _ _ t _ _ _ => tk_kind t = PyLambda | _ => False end /\
      e = R (if c then lambdef else lambdef_nocond)
  | F_except_clause =>
      match x with ExceptClauseStmt _ _ _ None _ => e = R except_clause | ExceptClauseStmt _ _ _ (Some _) (Some _) => e = R except_star_clause | _ => False end
  | F_except_stmt =>
      (plain_handler x /\ e = << except_clause, PyColon, suite >>) \/ (star_handler x /\ e = << except_star_clause, PyColon, suite >>)
  | _ => False
  end.

Definition role (f : fn) (x : node) (e : ebnf) : Prop :=
  main f = Some e \/ (loose f = true /\ expression 6 x /\ e = R expr) \/ special f x e.

(** [x], parsed by [f], may serve as [e]. *)
Definition serves (f : fn) (x : node) (e : ebnf) : Prop :=
  forall ks, (forall e', role f x e' -> fits python e' ks) -> fits python e ks.
Definition serve (fs : list fn) (xs : list node) (e : ebnf) : Prop :=
  forall f l la x, In f fs -> In x xs -> E f l la x -> serves f x e.

Lemma serves_main f x e : main f = Some e -> serves f x e.
Proof. intros M ks H. apply H. left. exact M. Qed.

(** ** Putting phrases together *)
Definition steps : nat := N.to_nat 400.
Lemma fit ps e ks : spells python ps ks -> whole python steps e ps = Some true -> fits python e ks.
Proof. apply by_pieces. Qed.

Lemma star_snoc G e a b : fits G (Star e) a -> fits G e b -> fits G (Star e) (a ++ b).
Proof.
  intros H. remember (Star e) as d eqn:E. induction H; inversion E; subst; intros Hb.
  - cbn. rewrite <- (app_nil_r b). apply fits_more; [exact Hb|constructor].
  - rewrite <- app_assoc. apply fits_more; [assumption|]. apply IHfits2; auto.
Qed.

Lemma kinds_app a b : kinds (a ++ b) = kinds a ++ kinds b.
Proof. unfold kinds. apply map_app. Qed.
Lemma kinds_cons p t l : kinds ((p, t) :: l) = tk_kind t :: kinds l.
Proof. reflexivity. Qed.
Lemma kinds_nil : kinds [] = [].
Proof. reflexivity. Qed.

(** What each part of the grammar of the parser is shown to be. *)
Definition P (f : fn) (l : list ptok) (la : look) (x : node) : Prop :=
  regular x -> forall e, role f x e -> fits python e (kinds l).
Definition P_opt (f : fn) (l : list ptok) (la : look) (o : option node) : Prop :=
  match o with None => l = [] | Some x => P f l la x end.
Definition P_many (f : fn) (l : list ptok) (la : look) (xs : list node) : Prop :=
  Forall regular xs -> forall e, serve [f] xs e -> fits python (Star e) (kinds l) /\ (xs <> [] -> fits python (Plus e) (kinds l)).
Definition P_rest (fs : list fn) (k : kind) (l : list ptok) (la : look) (xs : list node) (ts : list token) : Prop :=
  Forall regular xs -> forall e, serve fs xs e -> fits python (Star << k, e >>) (kinds l).
Definition P_items (fs : list fn) (k : kind) (l : list ptok) (la : look) (xs : list node) (ts : list token) : Prop :=
  Forall regular xs -> exists x xs' a b, xs = x :: xs' /\ kinds l = a ++ b /\
    (forall e, serve fs [x] e -> fits python e a) /\ (forall e, serve fs xs' e -> fits python (Star << k, e >>) b).
Definition P_chain (f : fn) (l : list ptok) (la : look) (x : node) : Prop :=
  regular x -> (forall e, main f = Some e -> fits python e (kinds l)) /\ (loose f = true -> expression 6 x -> fits python expr (kinds l)).
Definition P_entry (b : bool) (s : nat) (l : list ptok) (la : look) (x : node) : Prop :=
  regular x -> fits python (if b then entry else starred_test) (kinds l).
Definition P_first (s : nat) (l : list ptok) (la : look) (x : node) : Prop :=
  regular x -> fits python starred_test (kinds l).
Definition P_set_rest (s : nat) (l : list ptok) (la : look) (xs : list node) (ts : list token) : Prop :=
  Forall regular xs -> fits python (comma_then starred_test) (kinds l).
Definition arguments : ebnf := << argument, comma_then argument, (Opt PyComa) >>.
Definition more_arguments : ebnf := << comma_then argument, (Opt PyComa) >>.
Definition P_stars (l : list ptok) (la : look) (ns : list node) (ts : list token) (m w : option (token * node)) : Prop :=
  Forall regular ns -> (forall t x, m = Some (t, x) -> regular x /\ is_name x) -> (forall t x, w = Some (t, x) -> regular x /\ is_name x) ->
  fits python star_parameters (kinds l) /\ (m = None -> fits python power_parameter (kinds l)) /\ fits python arguments (kinds l) /\
  (forall b, fits python (comma_then argument) b -> fits python more_arguments (b ++ PyComa :: kinds l)).
Definition P_types (l : list ptok) (la : look) (ns : list node) (ts : list token) (m w : option (token * node)) : Prop :=
  Forall regular ns -> (forall t x, m = Some (t, x) -> regular x) -> (forall t x, w = Some (t, x) -> regular x) ->
  fits python star_types (kinds l) /\ (m = None -> fits python << PyPower, test >> (kinds l)).
Definition P_assigns (l : list ptok) (la : look) (xs : list (token * node)) : Prop :=
  Forall regular (map snd xs) ->
  xs <> [] -> fits python (Plus << PyAssign, one_of yield_expr, testlist_star_expr end_of >>) (kinds l).
Definition P_import (l : list ptok) (la : look) (a : option token) (x : option node) (b : option token) : Prop :=
  (forall y, x = Some y -> regular y) ->
  fits python (one_of PyMul, << PyLeftParen, import_as_names, PyRightParen >>, import_as_names end_of) (kinds l).

(** ** Automation *)
Lemma kids_nil : kids [] = [].
Proof. reflexivity. Qed.
Lemma kids_sub_cons a l : kids (Sub a :: l) = a :: kids l.
Proof. reflexivity. Qed.
Lemma kids_leaf_cons t l : kids (Leaf t :: l) = kids l.
Proof. reflexivity. Qed.
Lemma kids_opt_list xs : kids (opt_list_nodes (Some xs)) = xs.
Proof. apply kids_sub. Qed.
Definition opt_list {A} (o : option A) : list A := match o with Some x => [x] | None => [] end.
Lemma kids_opt_nodes o : kids (opt_nodes o) = opt_list o.
Proof. destruct o; reflexivity. Qed.
Lemma Forall_back {A} (Q : A -> Prop) l : Forall Q (rev l) -> Forall Q l.
Proof. intros H. apply Forall_rev in H. now rewrite rev_involutive in H. Qed.

Ltac conj_down :=
  repeat match goal with
  | H : Forall regular (_ ++ _) |- _ => apply Forall_app in H; destruct H
  | H : Forall regular (rev _) |- _ => apply Forall_back in H
  | H : Forall regular (_ :: _) |- _ => apply Forall_cons_iff in H; destruct H
  | H : Forall regular [] |- _ => clear H
  end.
Ltac parts H :=
  let D := fresh "D" in let F := fresh "F" in
  apply regular_kids in H; destruct H as [D F]; cbn [items opt_pair opt_node_pair opt_node_tokens2 opt_nodes opt_tokens opt_tokens2] in F;
  cbn [decent] in D;
  rewrite ?kids_app, ?kids_sub, ?kids_leaf, ?kids_pairs, ?kids_opt_tokens, ?kids_opt_tokens2, ?kids_opt_list, ?kids_opt_nodes,
    ?kids_nil in F; repeat first [rewrite kids_sub_cons in F | rewrite kids_leaf_cons in F | rewrite kids_nil in F]; cbn [app rev opt_list] in F; rewrite ?app_nil_r in F; conj_down; try contradiction D.
Ltac options :=
  repeat match goal with
  | H : P_opt _ _ _ ?o |- _ => is_var o; destruct o; cbn [P_opt] in H; [|subst]
  end.
Ltac feed :=
  repeat match goal with
  | H : P ?f ?l ?la ?x, G : regular ?x |- _ => specialize (H G)
  | H : P_entry _ _ _ _ ?x, G : regular ?x |- _ => specialize (H G); cbv iota in H
  | H : P_first _ _ _ ?x, G : regular ?x |- _ => specialize (H G)
  | H : P_set_rest _ _ _ ?xs _, G : Forall regular ?xs |- _ => specialize (H G)
  | H : P_assigns _ _ ?xs, G : Forall regular (map snd ?xs), N : ?xs <> [] |- _ => specialize (H G N)
  end.
Ltac mains :=
  repeat match goal with
  | H : forall e, role ?f ?x e -> fits python e ?ks |- _ =>
      let r := eval cbn in (main f) in
      match r with
      | Some ?e => lazymatch goal with
                   | _ : fits python e ks |- _ => fail
                   | _ => pose proof (H e (or_introl eq_refl))
                   end
      end
  | H : forall e, role F_testlist ?x e -> fits python e ?ks |- _ =>
      lazymatch goal with
      | _ : fits python (R testlist_star_expr) ks |- _ => fail
      | _ => pose proof (H (R testlist_star_expr) (or_intror (or_intror eq_refl)))
      end
  | H : forall e, role F_exprlist ?x e -> fits python e ?ks, D : tight_list ?x |- _ =>
      lazymatch goal with
      | _ : fits python (R exprlist) ks |- _ => fail
      | _ => pose proof (H (R exprlist) (or_intror (or_intror (conj D eq_refl))))
      end
  end.
Ltac roles :=
  let e := fresh "e" in let H := fresh "H" in let HL := fresh "HL" in let HX := fresh "HX" in
  intros e H; destruct H as [H|[H|H]];
  [ cbn [main] in H; first [discriminate H | injection H as <-]
  | destruct H as (HL & HX & ->); first [discriminate HL | idtac]
  | cbn [special no_slice is_name] in H;
    repeat match type of H with
    | _ /\ _ => let K := fresh "K" in destruct H as [K H]; try contradiction K
    | _ \/ _ => destruct H as [H|H]
    end; try contradiction H; try subst e ].
Ltac spell :=
  lazymatch goal with
  | |- spells _ _ [] => apply spells_nil
  | |- spells _ _ (_ :: _) => eapply spells_word; spell
  | |- spells _ _ ((_ ++ _) ++ _) => rewrite <- app_assoc; spell
  | |- spells _ _ ((_ :: _) ++ _) => cbn [app]; spell
  | |- spells _ _ ([] ++ _) => cbn [app]; spell
  | |- spells _ _ (?a ++ _) =>
      multimatch goal with H : fits python ?e a |- _ => eapply (spells_phrase _ e _ _ _ H); spell end
  | |- spells _ _ ?a =>
      multimatch goal with
        H : fits python ?e a |- _ => rewrite <- (app_nil_r a); eapply (spells_phrase _ e _ _ _ H); apply spells_nil
      end
  end.
Ltac fitting := eapply fit; [spell|vm_compute; reflexivity].
Ltac kindly :=
  repeat match goal with
  | |- context [kinds (@app ?A ?a ?b)] => change (kinds (@app A a b)) with (kinds (@app ptok a b)); rewrite (kinds_app a b)
  | |- context [kinds (cons (?p, ?t) ?l)] => change (kinds (cons (p, t) l)) with (tk_kind t :: kinds l)
  | |- context [kinds (@nil ?A)] => change (kinds (@nil A)) with (@nil kind)
  | E : kinds ?l = _ ++ _ |- context [kinds ?l] => rewrite E
  end;
  repeat match goal with H : tk_kind ?t = _ |- context [tk_kind ?t] => rewrite H end.
Ltac low := match goal with H : expression 6 _ |- _ => exfalso; cbn in H; first [contradiction | lia] end.
Ltac tables :=
  repeat match goal with
  | H : In (tk_kind _, _) ?tab |- _ => unfold tab in H
  | H : In (tk_kind _, _) _ |- _ =>
      cbn [In] in H; repeat (destruct H as [H|H]); try contradiction H; injection H as ? ?; subst
  | H : In (tk_kind _) _ |- _ => cbn [In] in H; repeat (destruct H as [H|H]); try contradiction H; symmetry in H
  | H : In ?f (_ :: _) |- _ => is_var f; cbn [In] in H; repeat (destruct H as [H|H]); try contradiction H; subst f
  end;
  repeat match goal with H : ?k = tk_kind ?t |- _ => symmetry in H end.

(** Lists. *)
Lemma serve_main f xs e : main f = Some e -> serve [f] xs e.
Proof. intros M g l la x [<-|[]] _ _. apply serves_main. exact M. Qed.
Ltac serving :=
  let f := fresh "f" in let l := fresh "l" in let la := fresh "la" in let x := fresh "x" in let If := fresh "If" in
  let Ix := fresh "Ix" in let HE := fresh "HE" in let ks := fresh "ks" in let H := fresh "H" in
  intros f l la x If Ix HE ks H; cbn [In] in If; repeat (destruct If as [If|If]); try contradiction If; subst f; mains;
  try (solve [fitting]).
Lemma serve_element xs : serve [F_star_expr; F_named_expression] xs element.
Proof. serving. Qed.
Lemma serve_starred xs : serve [F_star_expr; F_test] xs starred_test.
Proof. serving. Qed.
Lemma serve_test_starred xs : serve [F_test] xs starred_test.
Proof. serving. Qed.
Ltac lists :=
  repeat match goal with
  | H : P_items _ _ ?l _ ?xs _, G : Forall regular ?xs |- _ =>
      let x := fresh "x" in let xs' := fresh "xs'" in let a := fresh "a" in let b := fresh "b" in
      let E1 := fresh "E1" in let E2 := fresh "E2" in let H1 := fresh "H1" in let H2 := fresh "H2" in
      destruct (H G) as (x & xs' & a & b & E1 & E2 & H1 & H2); clear H
  | H : P_many _ ?l _ ?xs, G : Forall regular ?xs |- _ => specialize (H G)
  | H : P_rest _ _ ?l _ ?xs _, G : Forall regular ?xs |- _ => specialize (H G)
  end.
(** The lists of the context are lists of [d]s. *)
Ltac listing d tac :=
  repeat match goal with
  | H : forall e, serve ?fs ?xs e -> _ |- _ =>
      let S := fresh "S" in assert (S : serve fs xs d) by tac; apply H in S; clear H
  end.
Ltac autolist :=
  repeat match goal with
  | H : forall e, serve [?f] ?xs e -> _ |- _ =>
      let r := eval cbn in (main f) in
      match r with Some ?e => let S := fresh "S" in pose proof (H e (serve_main f xs e eq_refl)) as S; clear H end
  | H : forall e, serve [F_star_expr; F_named_expression] ?xs e -> _ |- _ =>
      let S := fresh "S" in pose proof (H element (serve_element xs)) as S; clear H
  | H : forall e, serve [F_star_expr; F_test] ?xs e -> _ |- _ =>
      let S := fresh "S" in pose proof (H starred_test (serve_starred xs)) as S; clear H
  end;
  repeat match goal with H : fits python (Star _) _ /\ (_ -> _) |- _ => let K := fresh "K" in destruct H as [H K] end.
Ltac loosely := match goal with
  | H : forall e, role _ ?x e -> fits python e ?ks, G : expression 6 ?x |- fits python _ ?ks =>
      apply H; right; left; repeat split; exact G
  end.
Ltac prepare :=
  intros; unfold P; tables; match goal with |- regular ?x -> _ => let G := fresh "G" in intros G; options;
    try (tryif is_var x then fail else parts G); feed; mains; lists end.
Ltac default := prepare; autolist; roles; try low; kindly; first [fitting | loosely].

(** ** Parts that are not one phrase after another *)
Lemma strings_fit (l : list ptok) k : Forall (fun x => tk_kind (snd x) = k) l -> fits python (Star (T k)) (kinds l).
Proof.
  induction l as [|[p t] l IH]; intros H; [apply fits_end|]. inversion H as [|z zs H1 H2]; subst. cbn [snd] in *.
  change (fits python (Star (T (tk_kind t))) ([tk_kind t] ++ kinds l)). apply fits_more; [apply fits_token|auto].
Qed.
Lemma names_fit k l ns ts : E_names k l ns ts -> fits python (Star << T k, T T_AtomName >>) (kinds l).
Proof.
  induction 1 as [|k p t q u l ns ts K1 K2 _ IH]; [apply fits_end|].
  change (fits python (Star << T k, T T_AtomName >>) ([tk_kind t; tk_kind u] ++ kinds l)). apply fits_more; [|exact IH].
  rewrite K1, K2. change (fits python << T k, T T_AtomName >> ([k] ++ [T_AtomName] ++ [])). repeat constructor.
Qed.
Lemma chain_more r g (op : ebnf) a b : python r = << g, Star << op, g >> >> -> fits python (R r) a -> fits python << op, g >> b -> fits python (R r) (a ++ b).
Proof.
  intros Q H1 H2. inversion H1 as [|r' ks H| | | | | | | | |]; subst. rewrite Q in H.
  inversion H as [| | |e es k1 k2 F1 F2| | | | | | |]; subst. inversion F2 as [| | |e' es' k3 k4 F3 F4| | | | | | |]; subst.
  inversion F4; subst. apply fits_rule. rewrite Q, app_nil_r, <- app_assoc. apply fits_cons; [exact F1|].
  rewrite <- (app_nil_r (k3 ++ b)). apply fits_cons; [|constructor]. apply star_snoc; assumption.
Qed.
Lemma star_cons e a b : fits python e a -> fits python (Star e) b -> fits python (Star e) (a ++ b).
Proof. apply fits_more. Qed.
Lemma tight_element f l la x ks : In f [F_star_expr; F_named_expression] -> E f l la x -> tight x ->
  (forall e, role f x e -> fits python e ks) -> fits python target ks.
Proof.
  intros I HE Ht H. cbn [In] in I. destruct I as [<-|[<-|[]]].
  - mains. fitting.
  - assert (X : expression 6 x).
    { destruct Ht as [S|X]; [|exact X]. destruct (E_fits1 _ _ _ _ HE eq_refl) as [_ C]. cbn [cat] in C. destruct x; try contradiction S; contradiction C. }
    assert (fits python expr ks) by (apply H; right; left; repeat split; exact X). fitting.
Qed.
Lemma serve_target xs : Forall tight xs -> serve [F_star_expr; F_named_expression] xs target.
Proof. intros F f l la x If Ix HE ks H. eapply tight_element; eauto. rewrite Forall_forall in F. auto. Qed.

Lemma serve_no_slice xs : Forall no_slice xs -> serve [F_subscript] xs (R argument).
Proof.
  intros F f l la x If Ix _ ks H. cbn [In] in If. destruct If as [<-|[]]. apply H. right. right. split; [|reflexivity].
  rewrite Forall_forall in F. auto.
Qed.
Lemma serve_argument xs : serve [F_var_args_assignments] xs (R argument).
Proof. intros f l la x If _ _ ks H. cbn [In] in If. destruct If as [<-|[]]. apply H. right. right. left. reflexivity. Qed.
Lemma serve_name x : is_name x -> serve [F_var_args_assignments] [x] (T T_AtomName).
Proof.
  intros N f l la y If Ix _ ks H. cbn [In] in If, Ix. destruct If as [<-|[]]. destruct Ix as [<-|[]]. apply H. right. right. right.
  split; [exact N|reflexivity].
Qed.
Lemma star_app e a b : fits python (Star e) a -> fits python (Star e) b -> fits python (Star e) (a ++ b).
Proof.
  intros H. remember (Star e) as d eqn:Ed. induction H; inversion Ed; subst; intros Hb; [exact Hb|].
  rewrite <- app_assoc. apply fits_more; auto.
Qed.
Lemma star_cases k e b : fits python (Star << T k, e >>) b ->
  b = [] \/ exists b1 b2, b = k :: b1 ++ b2 /\ fits python e b1 /\ fits python (Star << T k, e >>) b2.
Proof.
  intros H. inversion H as [| | | | | | | |d a b' H1 H2| |]; subst; [now left|]. right.
  inversion H1 as [| | |d' ds k1 k2 F1 F2| | | | | | |]; subst. inversion F1; subst.
  inversion F2 as [| | |d' ds' k3 k4 F3 F4| | | | | | |]; subst. inversion F4; subst. exists k3, b'. rewrite app_nil_r.
  split; [reflexivity|]. split; assumption.
Qed.
Lemma not_list f l la x : In f [F_star_expr; F_named_expression] -> E f l la x -> tight_list x -> tight x.
Proof.
  intros I HE Ht. destruct x; try exact Ht. exfalso. cbn [In] in I.
  destruct I as [<-|[<-|[]]]; destruct (E_fits1 _ _ _ _ HE eq_refl) as [_ C]; exact C.
Qed.
Lemma dots_fit (l : list ptok) : Forall (fun d => In (tk_kind (snd d)) [PyDot; PyElipsis]) l ->
  fits python (Star (one_of PyDot, PyElipsis end_of)) (kinds l) /\ (l <> [] -> fits python (Plus (one_of PyDot, PyElipsis end_of)) (kinds l)).
Proof.
  induction l as [|[p t] l IH]; intros H; [split; [apply fits_end|congruence]|]. inversion H as [|z zs H1 H2]; subst. cbn [snd] in H1.
  destruct (IH H2) as [I1 _]. assert (F : fits python (one_of PyDot, PyElipsis end_of) [tk_kind t]).
  { cbn [In] in H1. destruct H1 as [<-|[<-|[]]]; (eapply fit; [eapply spells_word; apply spells_nil|vm_compute; reflexivity]). }
  change (kinds ((p, t) :: l)) with ([tk_kind t] ++ kinds l). split; [|intros _].
  - apply fits_more; assumption.
  - eapply fits_plus; eassumption.
Qed.
Lemma serve_cons_one fs f l la x xs e : serve fs (x :: xs) e -> In f fs -> E f l la x -> serves f x e.
Proof. intros S I HE. apply (S f l la x I (or_introl eq_refl) HE). Qed.
Lemma serve_cons_more fs x xs e : serve fs (x :: xs) e -> serve fs xs e.
Proof. intros S f l la y I Iy HE. apply (S f l la y I (or_intror Iy) HE). Qed.
Ltac splitting l := match goal with S : fits python (Star _) (kinds l) |- _ =>
  apply star_cases in S; destruct S as [S|(? & ? & S & ? & ?)]; kindly; rewrite S end.
Ltac invert HE := inversion HE; subst; try (match goal with Q : binary _ = Some _ |- _ => discriminate Q end).

Lemma one_kind (k : kind) e : whole python steps e [Word k] = Some true -> fits python e [k].
Proof. intros H. eapply fit; [eapply spells_word; apply spells_nil|exact H]. Qed.
Lemma binary_shape f g ops : binary f = Some (g, ops) ->
  exists r d (op : ebnf), main f = Some (R r) /\ main g = Some d /\ python r = << d, Star << op, d >> >> /\
    (forall k c, In (k, c) ops -> fits python op [k]).
Proof.
  intros Bn; destruct f; cbn in Bn; inversion Bn; subst; cbn [main]; do 3 eexists; (split; [reflexivity|]); (split; [reflexivity|]);
    (split; [reflexivity|]); intros k c I; cbn [In] in I; repeat (destruct I as [I|I]); try contradiction I; injection I as <- <-;
    apply one_kind; vm_compute; reflexivity.
Qed.
Lemma binary_loose f g ops : binary f = Some (g, ops) -> loose f = true ->
  (loose g = true \/ main g = Some (R expr)) /\ forall k c s e a t b, In (k, c) ops -> ~ expression 6 (c s e a t b).
Proof.
  intros Bn L; destruct f; cbn in Bn; inversion Bn; subst; try discriminate L; (split; [auto|]);
    intros k c s e a t b I X; cbn [In] in I; repeat (destruct I as [I|I]); try contradiction I; injection I as <- <-; cbn in X; lia.
Qed.
Lemma binary_regular f g ops k c s e a t b : binary f = Some (g, ops) -> In (k, c) ops -> regular (c s e a t b) -> regular a /\ regular b.
Proof.
  intros Bn I H; destruct f; cbn in Bn; inversion Bn; subst; cbn [In] in I; repeat (destruct I as [I|I]); try contradiction I;
    injection I as <- <-; parts H; split; assumption.
Qed.
Lemma chain_one f g ops l la x : binary f = Some (g, ops) -> P g l la x -> P_chain f l la x.
Proof.
  intros Bn H G. specialize (H G). destruct (binary_shape _ _ _ Bn) as (r & d & op & M1 & M2 & Q & _). split.
  - intros e M. rewrite M1 in M. injection M as <-. apply fits_rule. rewrite Q, <- (app_nil_r (kinds l)).
    apply fits_cons; [apply H; left; exact M2|]. change (@nil kind) with (@nil kind ++ []). apply fits_cons; [apply fits_end|apply fits_nil].
  - intros L X. destruct (binary_loose _ _ _ Bn L) as [[L'|M] _]; apply H; [|left; exact M].
    right. left. repeat split; assumption.
Qed.
Lemma chain_next f g ops c l1 a p t l2 b la : binary f = Some (g, ops) -> In (tk_kind t, c) ops ->
  P_chain f l1 (p, Some t) a -> P g l2 la b -> P_chain f (l1 ++ (p, t) :: l2) la (c (start l1 (p, Some t)) (fst la) a t b).
Proof.
  intros Bn I H1 H2 G. destruct (binary_regular _ _ _ _ _ _ _ _ _ _ Bn I G) as [Ga Gb]. destruct (H1 Ga) as [H1' _]. specialize (H2 Gb).
  destruct (binary_shape _ _ _ Bn) as (r & d & op & M1 & M2 & Q & O). split.
  - intros e M. rewrite M1 in M. injection M as <-. rewrite kinds_app. eapply chain_more; [exact Q|apply H1'; exact M1|].
    change (kinds ((p, t) :: l2)) with ([tk_kind t] ++ kinds l2). apply fits_cons; [eapply O; exact I|].
    rewrite <- (app_nil_r (kinds l2)). apply fits_cons; [apply H2; left; exact M2|apply fits_nil].
  - intros L X. destruct (binary_loose _ _ _ Bn L) as [_ N]. exfalso. eapply N; eassumption.
Qed.
Lemma plus_more e a b : fits python e a -> fits python (Plus e) b -> fits python (Plus e) (a ++ b).
Proof. intros H1 H2. inversion H2; subst. apply fits_plus; [assumption|]. apply fits_more; assumption. Qed.
Lemma args_snoc b c : fits python (comma_then argument) b -> fits python argument c -> fits python (comma_then argument) (b ++ PyComa :: c).
Proof. intros H1 H2. apply star_snoc; [exact H1|]. assert (H2' := H2). fitting. Qed.
(** The items after '*', of which the first is a name. *)
Lemma items_stars x xs fs k l : (exists x' xs' a b, x :: xs = x' :: xs' /\ kinds l = a ++ b /\
    (forall e, serve fs [x'] e -> fits python e a) /\ (forall e, serve fs xs' e -> fits python (Star << T k, e >>) b)) ->
  exists a b, kinds l = a ++ b /\ (forall e, serve fs [x] e -> fits python e a) /\ (forall e, serve fs xs e -> fits python (Star << T k, e >>) b).
Proof. intros (x' & xs' & a & b & Q & Q' & H1 & H2). injection Q as <- <-. eauto. Qed.
Lemma more_none b : fits python (comma_then argument) b -> fits python more_arguments b.
Proof. intros H. fitting. Qed.
Lemma more_comma b : fits python (comma_then argument) b -> fits python more_arguments (b ++ [PyComa]).
Proof. intros H. fitting. Qed.
Lemma star_more a b : fits python T_AtomName a -> fits python more_arguments b -> fits python arguments (PyMul :: a ++ b).
Proof. intros H1 H2. fitting. Qed.
Lemma arg_more a b : fits python argument a -> fits python more_arguments b -> fits python arglist (a ++ b).
Proof. intros H1 H2. fitting. Qed.
Lemma assigns_more f p t l1 x l2 xs la : tk_kind t = PyAssign -> In f [F_yield_expr; F_testlist] -> P f l1 (ahead l2 la) x ->
  E_assigns l2 la xs -> P_assigns l2 la xs -> P_assigns ((p, t) :: l1 ++ l2) la ((t, x) :: xs).
Proof.
  intros K I H HA IH G _. cbn [map snd] in G. conj_down.
  assert (Q : fits python << PyAssign, one_of yield_expr, testlist_star_expr end_of >> (PyAssign :: kinds l1)) by (tables; feed; mains; fitting).
  kindly. change (PyAssign :: kinds l1 ++ kinds l2) with ((PyAssign :: kinds l1) ++ kinds l2). destruct xs as [|y ys].
  - inversion HA; subst. apply fits_plus; [exact Q|apply fits_end].
  - apply plus_more; [exact Q|]. apply IH; [assumption|discriminate].
Qed.

Theorem is_python :
  (forall f l la x, E f l la x -> P f l la x) /\
  (forall f l la x, E_chain f l la x -> P_chain f l la x) /\
  (forall f l la o, E_opt f l la o -> P_opt f l la o) /\
  (forall f l la xs, E_many f l la xs -> P_many f l la xs) /\
  (forall fs k l la xs ts, E_rest fs k l la xs ts -> P_rest fs k l la xs ts) /\
  (forall fs k l la xs ts, E_items fs k l la xs ts -> P_items fs k l la xs ts) /\
  (forall b s l la x, E_entry b s l la x -> P_entry b s l la x) /\
  (forall s l la x, E_set_first s l la x -> P_first s l la x) /\
  (forall s l la xs ts, E_set_rest s l la xs ts -> P_set_rest s l la xs ts) /\
  (forall l la ns ts m w, E_stars l la ns ts m w -> P_stars l la ns ts m w) /\
  (forall l la ns ts m w, E_type_stars l la ns ts m w -> P_types l la ns ts m w) /\
  (forall l la xs, E_assigns l la xs -> P_assigns l la xs) /\
  (forall l la a x b, E_import_list l la a x b -> P_import l la a x b).
Proof.
  apply E_mutual.
  - (* E_constant *) default.
  - (* E_strings *) prepare; roles; kindly; match goal with H : Forall _ _ |- _ => pose proof (strings_fit _ _ H) end; fitting.
  - (* E_tuple_empty *) default.
  - (* E_tuple *) default.
  - (* E_list_empty *) default.
  - (* E_list *) default.
  - (* E_dictionary *) default.
  - (* E_set *) default.
  - (* E_atom_expr_atom *) default.
  - (* E_atom_expr_trailers *) default.
  - (* E_atom_expr_await *) default.
  - (* E_power_base *) default.
  - (* E_power *) default.
  - (* E_unary *) default.
  - (* E_factor_power *) default.
    - (* E_binary *) intros f g ops l la x Bn _ H _ G; destruct (H G) as [H1 H2]; intros e [M|[(L & X & ->)|S]]; [auto|auto|]; destruct f;
    first [discriminate Bn | contradiction S].
  - (* E_star_expr *) default.
  - (* E_not *) default.
  - (* E_not_comparison *) default.
  - (* E_lambda *) intros cond; destruct cond; cbv iota; default.
    - (* E_nocond_lambda *) intros p t l la x K HE H G; invert HE; specialize (H G); match goal with |- forall e, _ -> fits python e ?ks
    => assert (fits python (R lambdef_nocond) ks) by (apply H; right; right; split; [exact K|reflexivity]) end; roles; try low; fitting.
  - (* E_nocond_or *) default.
    - (* E_test_lambda *) intros p t l la x K HE H G; invert HE; specialize (H G); match goal with |- forall e, _ -> fits python e ?ks =>
    assert (fits python (R lambdef) ks) by (apply H; right; right; split; [exact K|reflexivity]) end; roles; try low; fitting.
  - (* E_test_or *) default.
  - (* E_test_if *) default.
  - (* E_named_test *) default.
  - (* E_named *) default.
  - (* E_testlist_comp_for *) default.
  - (* E_testlist_comp *) default.
    - (* E_call *) intros p t l o q u la K1 K2 HO H G; destruct o as [n|]; [|cbn [P_opt] in H; subst; roles; kindly; fitting]; inversion
    HO as [|f' l' la' x' HE]; subst; invert HE; cbn [P_opt] in H; parts G; feed; assert (fits python (R arglist) (kinds l)) by (apply H;
    right; right; split; [exact D|reflexivity]); roles; kindly; fitting.
  - (* E_index *) default.
  - (* E_dot *) default.
    - (* E_subscript_list *) prepare; subst; roles; [autolist; kindly; fitting|]; apply Forall_back in K; apply Forall_cons_iff in K;
    destruct K as [K1 K2]; assert (K3 : Forall no_slice [x]) by (constructor; [exact K1|constructor]); listing (R argument) ltac:(apply
    serve_no_slice; assumption); kindly; fitting.
  - (* E_subscript *) default.
  - (* E_slice *) default.
    - (* E_exprlist_one *) intros f l la x I HE H _ G; specialize (H G); roles; pose proof (not_list _ _ _ _ I HE K) as Ht; pose proof
    (tight_element _ _ _ _ _ I HE Ht H); fitting.
    - (* E_exprlist *) prepare; subst; roles; apply Forall_cons_iff in K; destruct K as [K1 K2]; assert (K3 : Forall tight [x]) by
    (constructor; [exact K1|constructor]); listing target ltac:(apply serve_target; assumption); kindly; fitting.
    - (* E_exprlist_comma *) prepare; subst; roles; apply Forall_cons_iff in K; destruct K as [K1 K2]; assert (K3 : Forall tight [x]) by
    (constructor; [exact K1|constructor]); listing target ltac:(apply serve_target; assumption); kindly; fitting.
  - (* E_testlist_one *) default.
  - (* E_testlist *) prepare; roles; [autolist|listing starred_test ltac:(apply serve_test_starred)]; kindly; fitting.
  - (* E_testlist_comma *) prepare; roles; [autolist|listing starred_test ltac:(apply serve_test_starred)]; kindly; fitting.
  - (* E_dict_one *) default.
  - (* E_dict_comma *) default.
  - (* E_dict_two *) default.
  - (* E_set_items *) default.
  - (* E_set_items_comma *) default.
  - (* E_arglist *) default.
  - (* E_arglist_comma *) default.
  - (* E_argument_star *) default.
  - (* E_argument *) default.
  - (* E_argument_for *) default.
  - (* E_argument_assign *) default.
  - (* E_comp_iter *) default.
  - (* E_sync_comp_for *) default.
  - (* E_comp_for_async *) default.
  - (* E_comp_for *) default.
  - (* E_comp_if *) default.
  - (* E_yield_from *) default.
  - (* E_yield *) default.
  - (* E_star_list_one *) default.
  - (* E_star_list *) default.
  - (* E_star_list_comma *) default.
    - (* E_var_args_stars *) intros l la ns ts m w HS H G; destruct m as [[tm xm]|]; destruct w as [[tw xw]|]; cbn [snd_opt fst_opt] in *;
    parts G; cbn [no_default] in D; destruct D as [D1 D2]; (match goal with H : P_stars _ _ _ _ _ _ |- _ => destruct H as (Q1 & Q2 & Q3 &
    Q4); [assumption| | |] end; [intros ? ? Q; inversion Q; subst; split; assumption|intros ? ? Q; inversion Q; subst; split;
    assumption|]); roles; fitting.
  - (* E_var_args *) prepare; roles; [autolist|listing (R argument) ltac:(apply serve_argument)]; kindly; fitting.
    - (* E_var_args_then_stars *) intros l1 ns ts p t l2 ns2 ts2 m w la HI H1 K1 HS H G; destruct m as [[tm xm]|]; destruct w as [[tw
    xw]|]; cbn [snd_opt fst_opt] in *; parts G; cbn [no_default] in D; destruct D as [D1 D2]; lists; (match goal with H : P_stars _ _ _ _
    _ _ |- _ => destruct H as (Q1 & Q2 & Q3 & Q4); [assumption| | |] end; [intros ? ? Q; inversion Q; subst; split; assumption|intros ? ?
    Q; inversion Q; subst; split; assumption|]); (roles; [autolist; kindly; fitting|]); listing (R argument) ltac:(apply serve_argument);
    kindly; rewrite <- app_assoc; match goal with S : fits python (Star _) ?b |- _ => apply arg_more; [assumption|exact (Q4 _ S)] end.
  - (* E_var_args_slash *) intros l1 ns ts p t q u l2 ns2 ts2 la; prepare; roles; autolist; splitting l2; fitting.
    - (* E_var_args_slash_stars *) intros l1 ns ts p t q u l2 ns2 ts2 r v l3 ns3 ts3 m w la HI H1 K1 K2 HR H2 K3 HS H G; destruct m as
    [[tm xm]|]; destruct w as [[tw xw]|]; cbn [snd_opt fst_opt] in *; parts G; cbn [no_default] in D; destruct D as [D1 D2]; lists; (match
    goal with H : P_stars _ _ _ _ _ _ |- _ => destruct H as (Q1 & Q2 & Q3 & Q4); [assumption| | |] end; [intros ? ? Q; inversion Q; subst;
    split; assumption|intros ? ? Q; inversion Q; subst; split; assumption|]); roles; autolist; splitting l2; fitting.
  - (* E_var_arg *) intros l la x HE H _ G; invert HE; roles; kindly; fitting.
  - (* E_var_arg_default *) intros l1 a p t l2 b la HE H K HT H2 G; invert HE; parts G; feed; mains; roles; kindly; fitting.
  - (* E_vfp_def *) default.
  - (* E_simple_stmt *) default.
  - (* E_simple_stmt_semi *) default.
  - (* E_small_stmt *) default.
  - (* E_expr_stmt *) default.
    - (* E_expr_stmt_ann *) intros l1 a l2 la x HE1 H1 HE2 H2 G; invert HE2; pose proof G as G2; parts G; feed; mains; roles; rewrite
    kinds_app; fitting.
  - (* E_expr_stmt_aug *) default.
  - (* E_expr_stmt_assign *) default.
  - (* E_expr_stmt_assign_comment *) default.
  - (* E_ann_assign *) default.
  - (* E_ann_assign_value *) default.
  - (* E_del *) default.
  - (* E_pass *) default.
  - (* E_flow *) default.
  - (* E_break *) default.
  - (* E_continue *) default.
  - (* E_return *) default.
  - (* E_return_value *) default.
  - (* E_yield_stmt *) default.
  - (* E_raise *) default.
  - (* E_raise_value *) default.
  - (* E_raise_from *) default.
  - (* E_import_stmt *) default.
  - (* E_import_name *) default.
    - (* E_import_from *) intros p t dots l1 o q u l2 a x b la K1 FD HO H1 ND K2 HI H2 G; assert (Q3 : fits python (one_of PyMul, <<
    PyLeftParen, import_as_names, PyRightParen >>, import_as_names end_of) (kinds l2)) by (apply H2; intros y ->; parts G; assumption);
    destruct (dots_fit _ FD) as [Q1 Q2]; options; parts G; feed; mains; roles; kindly; first [fitting|specialize (Q2 (ND eq_refl)); clear
    Q1; fitting].
  - (* E_import_as_name *) default.
  - (* E_import_as_name_as *) default.
  - (* E_dotted_as_name *) default.
  - (* E_dotted_as_name_as *) default.
  - (* E_import_as_names *) default.
  - (* E_dotted_as_names *) default.
  - (* E_dotted_name *) prepare; match goal with H : E_names _ _ _ _ |- _ => pose proof (names_fit _ _ _ _ H) end; roles; kindly; fitting.
  - (* E_global *) prepare; match goal with H : E_names _ _ _ _ |- _ => pose proof (names_fit _ _ _ _ H) end; roles; kindly; fitting.
  - (* E_nonlocal *) prepare; match goal with H : E_names _ _ _ _ |- _ => pose proof (names_fit _ _ _ _ H) end; roles; kindly; fitting.
  - (* E_assert *) default.
  - (* E_assert_from *) default.
  - (* E_with_item *) default.
  - (* E_with_item_as *) default.
  - (* E_decorator *) default.
  - (* E_decorator_call *) default.
  - (* E_decorators *) default.
  - (* E_parameters *) default.
  - (* E_typed_args_list *) default.
  - (* E_tfp_def *) default.
  - (* E_tfp_def_type *) default.
  - (* E_tfp_assign *) default.
  - (* E_tfp_assign_default *) default.
  - (* E_func_type *) default.
    - (* E_type_list_stars *) intros l la ns ts m w HS H G; destruct m as [[tm xm]|]; destruct w as [[tw xw]|]; cbn [snd_opt fst_opt] in
    *; parts G; (match goal with H : P_types _ _ _ _ _ _ |- _ => destruct H as (Q1 & Q2); [assumption| | |] end; [intros ? ? Q; inversion
    Q; subst; assumption|intros ? ? Q; inversion Q; subst; assumption|]); roles; fitting.
  - (* E_type_list *) default.
    - (* E_type_list_then_stars *) intros l1 ns ts p t l2 ns2 ts2 m w la HI H1 K1 HS H G; destruct m as [[tm xm]|]; destruct w as [[tw
    xw]|]; cbn [snd_opt fst_opt] in *; parts G; lists; autolist; (match goal with H : P_types _ _ _ _ _ _ |- _ => destruct H as (Q1 & Q2);
    [assumption| | |] end; [intros ? ? Q; inversion Q; subst; assumption|intros ? ? Q; inversion Q; subst; assumption|]); roles; kindly;
    fitting.
  - (* chain_operand *) intros f g ops l la x Bn _ H; eapply chain_one; eassumption.
  - (* chain_operator *) intros f g ops c l1 a p t l2 b la Bn I _ H1 _ H2; eapply chain_next; eassumption.
    - (* chain_is_not *) intros l1 a p t q u l2 b la K1 K2 _ H1 _ H2 G; parts G; match goal with Ga : regular a |- _ => destruct (H1 Ga)
    as [Q _] end; match goal with Gb : regular b |- _ => specialize (H2 Gb) end; mains; (split; [intros e M; injection M as <-; rewrite
    kinds_app; eapply (chain_more comparison (R expr) (R comp_op)); [reflexivity|apply Q; reflexivity|kindly; fitting]|intros _ X; cbn in
    X; lia]).
    - (* chain_not_in *) intros l1 a p t q u l2 b la K1 K2 _ H1 _ H2 G; parts G; match goal with Ga : regular a |- _ => destruct (H1 Ga)
    as [Q _] end; match goal with Gb : regular b |- _ => specialize (H2 Gb) end; mains; (split; [intros e M; injection M as <-; rewrite
    kinds_app; eapply (chain_more comparison (R expr) (R comp_op)); [reflexivity|apply Q; reflexivity|kindly; fitting]|intros _ X; cbn in
    X; lia]).
  - (* opt_none *) intros; reflexivity.
  - (* opt_some *) intros f l la x _ H; exact H.
  - (* many_nil *) intros f la G e S; split; [apply fits_end|congruence].
    - (* many_cons *) intros f l1 x l2 xs la HE H _ IH G e S; conj_down; assert (F1 : fits python e (kinds l1)) by (apply (serve_cons_one
    _ _ _ _ _ _ _ S (or_introl eq_refl) HE); auto); match goal with G' : Forall regular xs |- _ => destruct (IH G' e (serve_cons_more _ _
    _ _ S)) as [F2 _] end; rewrite kinds_app; split; [apply fits_more; assumption|intros _; apply fits_plus; assumption].
  - (* rest_nil *) intros fs k la G e S; apply fits_end.
    - (* rest_cons *) intros fs k f p t l1 x l2 xs ts la K I HE H _ IH G e S; conj_down; assert (F1 : fits python e (kinds l1)) by (apply
    (serve_cons_one _ _ _ _ _ _ _ S I HE); auto); match goal with G' : Forall regular xs |- _ => pose proof (IH G' e (serve_cons_more _ _
    _ _ S)) as F2 end; change (kinds ((p, t) :: l1 ++ l2)) with (tk_kind t :: kinds (l1 ++ l2)); rewrite kinds_app, K; change (k :: kinds
    l1 ++ kinds l2) with ((k :: kinds l1) ++ kinds l2); apply fits_more; [|exact F2]; change (k :: kinds l1) with ([k] ++ kinds l1); apply
    fits_cons; [apply fits_token|]; rewrite <- (app_nil_r (kinds l1)); apply fits_cons; [exact F1|apply fits_nil].
    - (* items_intro *) intros fs k f l1 x l2 xs ts la I HE H _ IH G; conj_down; exists x, xs, (kinds l1), (kinds l2); repeat split;
    [apply kinds_app|intros e S; apply (serve_cons_one _ _ _ _ _ _ _ S I HE); auto|intros e S; apply IH; assumption].
    - (* entry_mul *) intros; unfold P_entry, P_first, P_set_rest; intros G; try (tryif (match type of G with regular ?y => is_var y end)
    then fail else parts G); conj_down; feed; mains; cbv iota; kindly; first [fitting|eapply star_cons; [fitting|assumption]].
    - (* entry_test *) intros; unfold P_entry, P_first, P_set_rest; intros G; try (tryif (match type of G with regular ?y => is_var y end)
    then fail else parts G); conj_down; feed; mains; cbv iota; kindly; first [fitting|eapply star_cons; [fitting|assumption]].
    - (* entry_power *) intros; unfold P_entry, P_first, P_set_rest; intros G; try (tryif (match type of G with regular ?y => is_var y
    end) then fail else parts G); conj_down; feed; mains; cbv iota; kindly; first [fitting|eapply star_cons; [fitting|assumption]].
    - (* entry_pair *) intros; unfold P_entry, P_first, P_set_rest; intros G; try (tryif (match type of G with regular ?y => is_var y end)
    then fail else parts G); conj_down; feed; mains; cbv iota; kindly; first [fitting|eapply star_cons; [fitting|assumption]].
    - (* set_first_mul *) intros; unfold P_entry, P_first, P_set_rest; intros G; try (tryif (match type of G with regular ?y => is_var y
    end) then fail else parts G); conj_down; feed; mains; cbv iota; kindly; first [fitting|eapply star_cons; [fitting|assumption]].
    - (* set_first_test *) intros; unfold P_entry, P_first, P_set_rest; intros G; try (tryif (match type of G with regular ?y => is_var y
    end) then fail else parts G); conj_down; feed; mains; cbv iota; kindly; first [fitting|eapply star_cons; [fitting|assumption]].
    - (* set_rest_nil *) intros; unfold P_entry, P_first, P_set_rest; intros G; try (tryif (match type of G with regular ?y => is_var y
    end) then fail else parts G); conj_down; feed; mains; cbv iota; kindly; first [fitting|eapply star_cons; [fitting|assumption]].
    - (* set_rest_cons *) intros; unfold P_entry, P_first, P_set_rest; intros G; try (tryif (match type of G with regular ?y => is_var y
    end) then fail else parts G); conj_down; feed; mains; cbv iota; kindly; first [fitting|eapply star_cons; [fitting|assumption]].
  - (* stars_power *) intros p t l la x K HE H _ Gn Gm Gw; destruct (Gw _ _ eq_refl) as [Gx Nx]; specialize (H Gx);
assert (fits python T_AtomName (kinds l)) by (apply H; right; right; right; split; [exact Nx|reflexivity]);
kindly; (split; [fitting|]); (split; [intros _; fitting|]); (split; [fitting|]);
intros b Hb;
assert (Q : fits python argument (PyPower :: kinds l)) by fitting; apply more_none; exact (args_snoc _ _ Hb Q).
  - (* stars_power_comma *) intros p t l x q u la K HE H K2 Gn Gm Gw; destruct (Gw _ _ eq_refl) as [Gx Nx]; specialize (H Gx);
assert (fits python T_AtomName (kinds l)) by (apply H; right; right; right; split; [exact Nx|reflexivity]);
kindly; (split; [fitting|]); (split; [intros _; fitting|]); (split; [fitting|]);
intros b Hb;
assert (Q : fits python argument (PyPower :: kinds l)) by fitting; rewrite !app_comm_cons, app_assoc; apply more_comma; exact (args_snoc _ _ Hb Q).
    - (* stars_mul *) intros p t l la x xs ts K HI H _ Gn Gm Gw; destruct (Gm _ _ eq_refl) as [Gx Nx]; assert (G : Forall regular (x ::
    xs)) by (constructor; assumption);
 destruct (items_stars _ _ _ _ _ (H G)) as (a & b & Eq & H1 & H2); pose proof (H1 _ (serve_name _ Nx)); pose proof (H2 _ (serve_argument xs)); pose proof (H2 _ (serve_main F_var_args_assignments xs _ eq_refl)); kindly; (split; [fitting|]); (split; [discriminate|]); (split; [fitting|]);
intros c Hc;
assert (Q : fits python argument (PyMul :: a)) by fitting; pose proof (args_snoc _ _ Hc Q) as Q2; match goal with Q' : fits python (Star << T PyComa, R argument >>) b |- _ => pose proof (star_app _ _ _ Q2 Q') as Q3 end; rewrite !app_comm_cons, app_assoc; apply more_none; exact Q3.
    - (* stars_mul_power *) intros p t l1 x xs ts q u l2 ts2 w la K HI H K2 HS IH Gn Gm Gw; destruct (Gm _ _ eq_refl) as [Gx Nx]; assert
    (G : Forall regular (x :: xs)) by (constructor; assumption);
 destruct (items_stars _ _ _ _ _ (H G)) as (a & b & Eq & H1 & H2); pose proof (H1 _ (serve_name _ Nx)); pose proof (H2 _ (serve_argument xs)); pose proof (H2 _ (serve_main F_var_args_assignments xs _ eq_refl)); (destruct IH as (_ & I2 & _ & I4); [constructor|discriminate|exact Gw|]); specialize (I2 eq_refl); 
 kindly; (split; [fitting|]); (split; [discriminate|]); (split; [match goal with Q' : fits python (Star << T PyComa, R argument >>) b |- _ => rewrite <- app_assoc; apply star_more; [assumption|exact (I4 _ Q')] end|]);
intros c Hc;
assert (Q : fits python argument (PyMul :: a)) by fitting; pose proof (args_snoc _ _ Hc Q) as Q2; match goal with Q' : fits python (Star << T PyComa, R argument >>) b |- _ => pose proof (star_app _ _ _ Q2 Q') as Q3 end; pose proof (I4 _ Q3) as Q4; rewrite <- !app_assoc in Q4; cbn [app] in Q4; rewrite <- !app_assoc; cbn [app]; exact Q4.
    - (* type_stars_power *) intros p t l la x K HE H Gn Gm Gw; specialize (H (Gw _ _ eq_refl)); mains; kindly; split; [fitting|intros _;
    fitting].
    - (* type_stars_mul *) intros p t l la x xs ts K HI H _ Gn Gm Gw; assert (G : Forall regular (x :: xs)) by (constructor; [first [exact
    (Gm _ _ eq_refl)|exact (proj1 (Gm _ _ eq_refl))]|assumption]); lists; autolist; kindly; split; [fitting|discriminate].
    - (* type_stars_mul_power *) intros p t l1 x xs ts q u l2 ts2 w la K HI H K2 HS IH Gn Gm Gw; assert (G : Forall regular (x :: xs)) by
    (constructor; [first [exact (Gm _ _ eq_refl)|exact (proj1 (Gm _ _ eq_refl))]|assumption]); lists; autolist; destruct IH as [_ IH];
    [constructor|discriminate|exact Gw|]; specialize (IH eq_refl); kindly; split; [fitting|discriminate].
  - (* assigns_nil *) intros la G N; congruence.
  - (* assigns_cons *) intros; eapply assigns_more; eassumption.
  - (* import_star *) intros; intros G; kindly; fitting.
  - (* import_paren *) intros p t l x q u la K1 HE H K2 G; specialize (H (G _ eq_refl)); mains; kindly; fitting.
  - (* import_plain *) intros l la x HE H G; specialize (H (G _ eq_refl)); mains; kindly; fitting.
Qed.

(** ** Statements with suites *)
Lemma E_P f l la x : E f l la x -> P f l la x.
Proof. apply is_python. Qed.
Lemma E_P_opt f l la o : E_opt f l la o -> P_opt f l la o.
Proof. apply is_python. Qed.
Lemma E_P_items fs k l la xs ts : E_items fs k l la xs ts -> P_items fs k l la xs ts.
Proof. apply is_python. Qed.

Definition Q (f : fn) (c : except_status) (l : list ptok) (la : look) (x : node) (c' : except_status) : Prop := P f l la x.
Definition Q_opt (f : fn) (c : except_status) (l : list ptok) (la : look) (o : option node) (c' : except_status) : Prop := P_opt f l la o.
Definition Q_many (f : fn) (c : except_status) (l : list ptok) (la : look) (xs : list node) (c' : except_status) : Prop :=
  Forall regular xs -> forall e, (forall x, In x xs -> serves f x e) ->
  fits python (Star e) (kinds l) /\ (xs <> [] -> fits python (Plus e) (kinds l)).

Ltac known :=
  repeat match goal with
  | H : E _ _ _ _ |- _ => apply E_P in H
  | H : E_opt _ _ _ _ |- _ => apply E_P_opt in H
  | H : E_items _ _ _ _ _ _ |- _ => apply E_P_items in H
  | H : Q _ _ _ _ _ _ |- _ => unfold Q in H
  | H : Q_opt _ _ _ _ _ _ |- _ => unfold Q_opt in H
  end.
Ltac manyB :=
  repeat match goal with
  | H : Q_many ?f _ ?l _ ?xs _, G : Forall regular ?xs |- _ =>
      let r := eval cbn in (main f) in
      match r with Some ?e => let S := fresh "S" in let K := fresh "K" in
        destruct (H G e (fun x _ => serves_main f x e eq_refl)) as [S K]; clear H end
  end;
  repeat match goal with K : ?xs <> [] -> _, N : ?xs <> [] |- _ => specialize (K N) end.
Ltac smalls :=
  repeat match goal with
  | H : opt_token _ _ _ |- _ => inversion H; subst; clear H
  | H : returns _ _ _ |- _ => inversion H; subst; clear H
  | H : comment_line _ _ _ |- _ => inversion H; subst; clear H
  | H : with_items _ _ _ _ _ _ |- _ => inversion H; subst; clear H
  end.
Ltac prepareB :=
  intros; unfold Q, P; tables; smalls; known; match goal with |- regular ?x -> _ => let G := fresh "G" in intros G; options;
    try (tryif is_var x then fail else parts G); feed; mains; lists; autolist; manyB end.
Ltac defaultB := prepareB; roles; kindly; fitting.
Lemma decorators_newline l la a : E F_decorators l la a -> exists t, snd la = Some t /\ tk_kind t = T_Newline.
Proof.
  intros H. invert H. clear H. match goal with H : E_many _ _ _ _ |- _ => rename H into M end.
  remember F_decorator as f eqn:Ef. induction M as [|f l1 x l2 xs la HE M IH]; [congruence|]. subst f.
  destruct xs as [|y ys]; [|apply IH; auto; discriminate]. inversion M; subst. cbn [ahead] in HE. invert HE; eexists; (split; [reflexivity|assumption]).
Qed.
Lemma bases_fit l la y s e t u a b v x : E F_var_args_list l la y -> regular y -> decent (ClassDef s e t u a (Some y) b v x) ->
  fits python arglist (kinds l).
Proof.
  intros HE G D. pose proof (E_P _ _ _ _ HE G) as H. apply H. right. right.
  invert HE; cbn [decent] in D; first [contradiction D|split; [exact I|reflexivity]].
Qed.

Theorem blocks_python :
  (forall f c l la x c', B f c l la x c' -> Q f c l la x c') /\
  (forall f c l la o c', B_opt f c l la o c' -> Q_opt f c l la o c') /\
  (forall f c l la xs c', B_many f c l la xs c' -> Q_many f c l la xs c').
Proof.
  apply B_mutual.
  - (* B_stmt_compound *) defaultB.
  - (* B_stmt_simple *) defaultB.
  - (* B_compound *) defaultB.
  - (* B_async *) defaultB.
  - (* B_if *) defaultB.
  - (* B_elif *) defaultB.
  - (* B_else *) defaultB.
  - (* B_while *) defaultB.
  - (* B_for *) defaultB.
  - (* B_try_finally *) defaultB.
    - (* B_try *) intros c p t q u l1 a c1 l2 xs c2 l3 o3 c3 l4 o4 c4 la K1 K2 B1 H1 B2 H2 N B3 H3 B4 H4 _ G; known; options; parts G;
    feed; mains; rename D into Dx; (destruct Dx as [Dx|Dx]; apply Forall_back in Dx; rewrite Forall_forall in Dx; [assert (S : forall x,
    In x xs -> serves F_except_stmt x << except_clause, PyColon, suite >>) by (intros x Ix ks Hx; apply Hx; right; right; left; split;
    [exact (Dx x Ix)|reflexivity])|assert (S : forall x, In x xs -> serves F_except_stmt x << except_star_clause, PyColon, suite >>) by
    (intros x Ix ks Hx; apply Hx; right; right; right; split; [exact (Dx x Ix)|reflexivity])]); (destruct (H2 ltac:(assumption) _ S) as [_
    Pl]); specialize (Pl N); roles; kindly; fitting.
  - (* B_finally *) defaultB.
    - (* B_except_stmt *) intros c l1 a c1 q u l2 b c' la B1 H1 K B2 H2 G; known; parts G; feed; mains; roles; cbn [plain_handler
    star_handler] in *; destruct a; try contradiction; repeat match goal with o : option _ |- _ => destruct o; try contradiction end;
    match type of H1 with forall e, role _ _ e -> _ => first [pose proof (H1 (R except_clause) (or_intror (or_intror eq_refl)))|pose proof
    (H1 (R except_star_clause) (or_intror (or_intror eq_refl)))] end; kindly; fitting.
    - (* B_except_clause *) intros c p t l1 m c' l2 w la K1 HO _ HW G; inversion HO; subst; inversion HW; subst; known; parts G; feed;
    mains; roles; kindly; fitting.
  - (* B_with *) defaultB.
  - (* B_suite_simple *) defaultB.
  - (* B_suite_block *) defaultB.
    - (* B_decorated *) intros f c l1 a l2 b c' la HD I HB H G; exfalso; destruct (decorators_newline _ _ _ HD) as (t & Q1 & Q2); cbn [In]
    in I; repeat (destruct I as [I|I]); try contradiction I; subst f; inversion HB; subst; cbn in Q1; injection Q1 as <-; congruence.
  - (* B_async_func *) defaultB.
  - (* B_func *) defaultB.
  - (* B_body_simple *) defaultB.
  - (* B_body_block *) defaultB.
    - (* B_class *) intros c p t q u l1 a o b r v l2 x c' la K1 K2 HB K3 B1 H1 G; unfold Q in H1; inversion HB; subst; [parts G; feed;
    mains; roles; kindly; fitting|]; match goal with HO : E_opt _ _ _ o |- _ => destruct o as [y|]; [inversion HO as [|f' l' la' x' HE];
    subst; clear HO|inversion HO; subst] end; [|parts G; feed; mains; roles; kindly; fitting]; destruct (regular_kids _ G) as [D' _];
    parts G; feed; mains; pose proof (bases_fit _ _ _ _ _ _ _ _ _ _ _ HE ltac:(assumption) D'); roles; kindly; fitting.
  - (* B_none *) intros; reflexivity.
  - (* B_some *) intros f c l la x c' _ H; exact H.
  - (* B_nil *) intros f c la G e S; split; [apply fits_end|congruence].
    - (* B_cons *) intros f c l1 x c1 l2 xs c' la _ H _ IH G e S; conj_down; assert (F1 : fits python e (kinds l1)) by (apply (S x
    (or_introl eq_refl)); apply H; assumption); match goal with G' : Forall regular xs |- _ => destruct (IH G' e (fun y Iy => S y
    (or_intror Iy))) as [F2 _] end; rewrite kinds_app; split; [apply fits_more; assumption|intros _; apply fits_plus; assumption].
Qed.

