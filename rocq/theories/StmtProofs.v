(** Statements: the tokens of a well-formed tree derive a syntax tree that reads as that tree (C52). *)
From Coq Require Import List Arith Lia.
From Verif Require Import Chars SourceBuffer Token Tokenizer LexSpec TokenSpec RenderSpec Node ParserState GrammarSpec ParseBasics ExprSpec ExprProofs StmtSpec.
Import ListNotations.
Local Open Scope nat_scope.

(** ** Lists of phrases *)
Lemma ahead_some : forall l p t, exists q u, ahead l (p, Some t) = (q, Some u).
Proof. intros [|(q, u) l] p t; [exists p, t|exists q, u]; reflexivity. Qed.
Section Lists.
Variables (A : Type) (flat : A -> toks) (fs : list fn) (k : kind) (r : node -> option A).
(** [a] is derived before a token of kind [j]. *)
Definition derives (j : kind) (a : A) : Prop := forall l p t, faces l = flat a -> tk_kind t = j ->
  exists f x, In f fs /\ E f l (p, Some t) x /\ r x = Some a.
Lemma last_cons : forall (P : A -> Prop) a b xs, (forall pre c, a :: b :: xs = pre ++ [c] -> P c) -> forall pre c, b :: xs = pre ++ [c] -> P c.
Proof. intros P a b xs H pre c Z. apply (H (a :: pre)). rewrite Z. reflexivity. Qed.
Lemma rest_of : forall xs, (forall a, In a xs -> derives k a) -> forall l p t, (forall pre a, xs = pre ++ [a] -> derives (tk_kind t) a) ->
  faces l = flat_map (fun m => mark k :: m) (map flat xs) ->
  exists ys ts, E_rest fs k l (p, Some t) ys ts /\ opts r ys = Some xs /\ length ts = length ys.
Proof.
  intros xs. induction xs as [|a xs IH]; intros DK l p t DT F.
  - cbn in F. split_faces. exists [], []. split; [constructor|split; reflexivity].
  - cbn [map flat_map] in F. cbn [app] in F. apply faces_cons in F as (p0 & t0 & l0 & -> & K0 & F). apply faces_app in F as (l1 & l2 & -> & F1 & F2).
    apply face_kind in K0. destruct (IH (fun a I => DK a (or_intror I)) l2 p t) as (ys & ts & R & O & L); [|exact F2|].
    { intros pre c Z. apply (DT (a :: pre)). rewrite Z. reflexivity. }
    destruct xs as [|b xs].
    + cbn in F2. split_faces. destruct (DT [] a eq_refl l1 p t F1 eq_refl) as (f & x & IF & EX & RX).
      exists (x :: ys), (t0 :: ts). split; [eapply rest_cons; eauto|]. rewrite opts_cons, RX, O. cbn. auto.
    + cbn [map flat_map] in F2. cbn [app] in F2. apply faces_cons in F2 as (p2 & t2 & l3 & -> & K2 & F2). apply face_kind in K2.
      destruct (DK a (or_introl eq_refl) l1 p2 t2 F1 K2) as (f & x & IF & EX & RX).
      exists (x :: ys), (t0 :: ts). split; [eapply rest_cons; eauto|]. rewrite opts_cons, RX, O. cbn. auto.
Qed.
Lemma items_of : forall xs, xs <> [] -> (forall a, In a xs -> derives k a) -> forall l p t, (forall pre a, xs = pre ++ [a] -> derives (tk_kind t) a) ->
  faces l = between (mark k) (map flat xs) ->
  exists ys ts, E_items fs k l (p, Some t) ys ts /\ opts r ys = Some xs /\ S (length ts) = length ys.
Proof.
  intros [|a xs] N DK l p t DT F; [congruence|]. cbn [map between] in F. apply faces_app in F as (l1 & l2 & -> & F1 & F2).
  destruct (rest_of xs (fun a I => DK a (or_intror I)) l2 p t) as (ys & ts & R & O & L); [|exact F2|].
  { intros pre c Z. apply (DT (a :: pre)). rewrite Z. reflexivity. }
  destruct xs as [|b xs].
  + cbn in F2. split_faces. destruct (DT [] a eq_refl l1 p t F1 eq_refl) as (f & x & IF & EX & RX).
    exists (x :: ys), ts. split; [eapply items_intro; eauto|]. rewrite opts_cons, RX, O. cbn. auto.
  + cbn [map flat_map] in F2. cbn [app] in F2. apply faces_cons in F2 as (p2 & t2 & l3 & -> & K2 & F2). apply face_kind in K2.
    destruct (DK a (or_introl eq_refl) l1 p2 t2 F1 K2) as (f & x & IF & EX & RX).
    exists (x :: ys), ts. split; [eapply items_intro; eauto|]. rewrite opts_cons, RX, O. cbn. auto.
Qed.
Lemma opts_rev : forall xs es, opts r xs = Some es -> opts r (rev xs) = Some (rev es).
Proof.
  assert (AP : forall xs ys as_ bs, opts r xs = Some as_ -> opts r ys = Some bs -> opts r (xs ++ ys) = Some (as_ ++ bs)).
  { induction xs as [|x xs IH]; intros ys as_ bs H1 H2; [injection H1 as <-; assumption|]. rewrite opts_cons in H1. cbn [app]. rewrite opts_cons.
    destruct (r x); [|discriminate H1]. destruct (opts r xs) as [cs|]; [|discriminate H1]. injection H1 as <-. rewrite (IH ys cs bs eq_refl H2). reflexivity. }
  induction xs as [|x xs IH]; intros es H; [injection H as <-; reflexivity|]. rewrite opts_cons in H. destruct (r x) eqn:R; [|discriminate H].
  destruct (opts r xs) as [cs|]; [|discriminate H]. injection H as <-. cbn [rev]. apply AP; [auto|]. cbn. rewrite R. reflexivity.
Qed.
Lemma elements_rev : forall xs ts es, opts r xs = Some es -> S (length ts) = length xs -> elements r (rev xs) (rev ts) = Some es.
Proof.
  intros xs ts es O L. unfold elements. rewrite !rev_length. apply Nat.eqb_eq in L. rewrite L. rewrite (opts_rev _ _ O). cbn. rewrite rev_involutive. reflexivity.
Qed.
Lemma opts_length : forall xs es, opts r xs = Some es -> length es = length xs.
Proof.
  induction xs as [|x xs IH]; intros es H; [injection H as <-; reflexivity|]. rewrite opts_cons in H. destruct (r x); [|discriminate H].
  destruct (opts r xs) as [cs|]; [|discriminate H]. injection H as <-. cbn. f_equal. auto.
Qed.
End Lists.

(** ** Expressions *)
Lemma fits_derived : forall k e l p t, fits k e -> k <= 14 -> faces l = flatten e -> quiet k (p, Some t) ->
  exists x, E (fn_at k) l (p, Some t) x /\ tree_of x = Some e.
Proof. intros k e l p t (P & S & L) K F Q. exact (proj1 (proj2 (known_stands e S (proper_known e P))) k l (p, Some t) L K F Q). Qed.
(** Tokens at which every expression ends. *)
Definition ending : list kind := ends_star_list ++ [PyRightParen; PyComa; PyAs; PyFrom; PyElse].
Lemma ending_quiet : forall p t k, In (tk_kind t) ending -> quiet k (p, Some t).
Proof.
  intros p t k H. exists t. split; [reflexivity|]. intros j _ I.
  assert (X : forall a b, In a ending -> In b (extends_at j) -> a <> b).
  { clear. intros a b A B <-. revert A. do 16 (destruct j as [|j]; [cbn in B |- *; intuition (subst; discriminate)|]). destruct B. }
  exact (X _ _ H I eq_refl).
Qed.
Lemma element_plain : forall x e, tree_of x = Some e -> element_of x = Some (false, e).
Proof. intros x e H. destruct x; try discriminate H; unfold element_of; rewrite H; reflexivity. Qed.
Lemma listing_one : forall x e, element_of x = Some e -> listing_of x = Some (Listing [e] false).
Proof. intros x e H. destruct x; try discriminate H; unfold listing_of; rewrite H; reflexivity. Qed.
Lemma source_values : forall x r, listing_of x = Some r -> source_of x = Some (Values r).
Proof. intros x r H. destruct x; try discriminate H; unfold source_of; rewrite H; reflexivity. Qed.
Lemma small_eval : forall x r, listing_of x = Some r -> small_of x = Some (Eval r).
Proof. intros x r H. destruct x; try discriminate H; unfold small_of; rewrite H; reflexivity. Qed.

Lemma yield_read : forall x v, source_of x = Some v -> match v with Values _ => False | _ => True end -> small_of x = Some (YieldStmt v).
Proof.
  intros x v H N. destruct x; try (unfold small_of; rewrite H; reflexivity); exfalso; unfold source_of in H;
    match type of H with option_map _ ?o = _ => destruct o; [injection H as <-; exact N|discriminate H] end.
Qed.

(** Elements; [f] is the function for those without a star. *)
Definition element_fn (k : nat) : fn := if k =? 0 then F_named_expression else F_test.
Lemma element_derives : forall k j x, k <= 1 -> element_fits k x -> In j (if fst x then PyIn :: ending else ending) ->
  derives _ element_tokens [F_star_expr; element_fn k] element_of j x.
Proof.
  intros k j [st e] K FI J l p t F KT. unfold element_fits in FI. unfold element_tokens in F. cbn [fst snd] in *. destruct st; cbn [if_true app] in F.
  - split_faces. destruct (fits_derived 6 e l0 p t FI) as (x & EX & TX); [lia|exact F0| |].
    { destruct J as [J|J]; [|apply ending_quiet; congruence]. apply (mark_quiet p t PyIn); [congruence|late]. }
    exists F_star_expr, (StarExpr p0 p t0 x). split; [left; reflexivity|]. split; [apply E_star_expr; assumption|]. cbn. rewrite TX. reflexivity.
  - destruct (fits_derived k e l p t FI) as (x & EX & TX); [lia|exact F|apply ending_quiet; congruence|].
    exists (element_fn k), x. split; [right; left; reflexivity|]. split; [|apply element_plain, TX].
    unfold element_fn. destruct k as [|[|k]]; [exact EX|exact EX|lia].
Qed.
Lemma in_ending : forall k, In k ends_star_list -> In k ending.
Proof. intros k H. apply in_or_app. left. exact H. Qed.
Lemma comma_ending : In PyComa ending.
Proof. cbn. tauto. Qed.
Definition last_ok (r : listing) (j : kind) : Prop := In j ending \/ (j = PyIn /\ exists xs e, ls_items r = xs ++ [(true, e)]).
Lemma listing_items : forall k r l p t, k <= 1 -> listing_fits k r -> ls_comma r = false -> faces l = listing_tokens r -> last_ok r (tk_kind t) ->
  exists ys ts, E_items [F_star_expr; element_fn k] PyComa l (p, Some t) ys ts /\ opts element_of ys = Some (ls_items r) /\ S (length ts) = length ys.
Proof.
  intros k r l p t K (N & FI) C F J. unfold listing_tokens in F. rewrite C in F. cbn [if_true] in F. rewrite app_nil_r in F.
  rewrite Forall_forall in FI. apply (items_of _ element_tokens); [exact N| | |exact F].
  - intros x I. apply element_derives; auto. destruct (fst x); [right|]; apply comma_ending.
  - intros pre x Z. apply element_derives; auto; [apply FI; rewrite Z; apply in_elt|]. destruct J as [J|(-> & xs & e & Y)].
    + destruct (fst x); [right|]; exact J.
    + rewrite Z in Y. apply app_inj_tail in Y. destruct Y as (_ & ->). left. reflexivity.
Qed.
Lemma listing_items_comma : forall k r l, k <= 1 -> listing_fits k r -> ls_comma r = true -> faces l = listing_tokens r ->
  exists l1 q u ys ts, l = l1 ++ [(q, u)] /\ tk_kind u = PyComa /\
    E_items [F_star_expr; element_fn k] PyComa l1 (q, Some u) ys ts /\ opts element_of ys = Some (ls_items r) /\ S (length ts) = length ys.
Proof.
  intros k [xs c] l K FI C F. cbn in C. subst c. unfold listing_tokens in F. cbn [if_true ls_comma ls_items] in F. split_faces.
  destruct (listing_items k (Listing xs false) l0 p t) as (ys & ts & I & O & L); auto.
  { unfold listing_tokens. cbn [if_true ls_comma ls_items]. rewrite app_nil_r. exact F0. }
  { left. rewrite K0. apply comma_ending. }
  exists l0, p, t, ys, ts. auto.
Qed.
Lemma single_item : forall fs k l la y, E_items fs k l la [y] [] -> exists f, In f fs /\ E f l la y.
Proof. intros fs k l la y H. inversion H; subst. match goal with R : E_rest _ _ _ _ _ _ |- _ => inversion R; subst end. rewrite app_nil_r. eauto. Qed.
Lemma unit_of : forall ys xs, opts element_of ys = Some xs -> length ys = 1 -> exists y x, ys = [y] /\ xs = [x] /\ element_of y = Some x.
Proof.
  intros [|y [|]] xs O L; try discriminate L. cbn in O. destruct (element_of y) as [x|] eqn:Y; [|discriminate O]. injection O as <-. exists y, x. auto.
Qed.
Lemma listed_false : forall xs ts es, opts element_of xs = Some es -> S (length ts) = length xs -> listed xs ts = Some (Listing es false).
Proof.
  intros xs ts es O L. unfold listed. rewrite O, (opts_length _ _ _ _ O), <- L.
  replace (length ts =? S (length ts)) with false by (symmetry; apply Nat.eqb_neq; lia). rewrite Nat.eqb_refl. reflexivity.
Qed.
Lemma listed_true : forall xs ts es, opts element_of xs = Some es -> length ts = length xs -> listed xs ts = Some (Listing es true).
Proof. intros xs ts es O L. unfold listed. rewrite O, (opts_length _ _ _ _ O), L, Nat.eqb_refl. reflexivity. Qed.
Lemma not_comma : forall p t ks, ~ In PyComa ks -> In (tk_kind t) ks -> stops [PyComa] (p, Some t).
Proof. intros p t ks N I. exists t. split; [reflexivity|]. intros [Z|[]]. rewrite <- Z in I. auto. Qed.
Lemma nocomma : ~ In PyComa ends_star_list.
Proof. cbn. intuition discriminate. Qed.
(** testlist_star_expr *)
Lemma star_listing : forall r l p t, listing_fits 1 r -> faces l = listing_tokens r -> In (tk_kind t) ends_star_list ->
  exists x, E F_testlist_star_expr l (p, Some t) x /\ listing_of x = Some r.
Proof.
  intros [es c] l p t FI F J. destruct c.
  - destruct (listing_items_comma 1 _ l (le_n 1) FI eq_refl F) as (l1 & q & u & ys & ts & -> & KU & I & O & L). cbn in O.
    eexists. split; [eapply E_star_list_comma; [exact I|exact KU|]; exists t; auto|]. cbn. rewrite rev_involutive. apply listed_true; [exact O|].
    rewrite rev_length, app_length. cbn. lia.
  - destruct (listing_items 1 _ l p t (le_n 1) FI eq_refl F) as (ys & ts & I & O & L); [left; apply in_ending; exact J|]. cbn in O.
    assert (ST : stops [PyComa] (p, Some t)) by (apply (not_comma p t _ nocomma J)).
    destruct ts as [|t1 ts].
    + destruct (unit_of ys es O) as (y & x & -> & -> & Y); [cbn in L; lia|]. destruct (single_item _ _ _ _ _ I) as (f & IF & EY).
      exists y. split; [eapply E_star_list_one; eauto|]. apply listing_one, Y.
    + eexists. split; [eapply E_star_list; [exact I|discriminate|exact ST]|]. unfold listing_of. rewrite rev_involutive.
      apply listed_false; [exact O|]. rewrite rev_length. exact L.
Qed.
(** exprlist *)
Lemma expr_listing : forall r l p t, listing_fits 0 r -> faces l = listing_tokens r ->
  (ls_comma r = true -> tk_kind t = PyIn) -> (ls_comma r = false -> last_ok r (tk_kind t) /\ tk_kind t <> PyComa) ->
  exists x, E F_exprlist l (p, Some t) x /\ listing_of x = Some r.
Proof.
  intros [es c] l p t FI F J1 J2. cbn in J1, J2. destruct c.
  - destruct (listing_items_comma 0 _ l (le_S _ _ (le_n 0)) FI eq_refl F) as (l1 & q & u & ys & ts & -> & KU & I & O & L). cbn in O.
    eexists. split; [eapply E_exprlist_comma; [exact I|exact KU|]; exists t; split; [reflexivity|left; symmetry; auto]|]. cbn. apply listed_true; [exact O|].
    rewrite app_length. cbn. lia.
  - destruct (J2 eq_refl) as (LO & NC). destruct (listing_items 0 _ l p t (le_S _ _ (le_n 0)) FI eq_refl F) as (ys & ts & I & O & L); [exact LO|]. cbn in O.
    assert (ST : stops [PyComa] (p, Some t)) by (exists t; split; [reflexivity|]; intros [Z|[]]; congruence).
    destruct ts as [|t1 ts].
    + destruct (unit_of ys es O) as (y & x & -> & -> & Y); [cbn in L; lia|]. destruct (single_item _ _ _ _ _ I) as (f & IF & EY).
      exists y. split; [eapply E_exprlist_one; eauto|]. apply listing_one, Y.
    + eexists. split; [eapply E_exprlist; [exact I|discriminate|exact ST]|]. apply listed_false; [exact O|exact L].
Qed.
(** testlist *)
Lemma unstarred_items : forall r l p t, listing_fits 1 r -> unstarred r -> ls_comma r = false -> faces l = listing_tokens r -> In (tk_kind t) ending ->
  exists ys ts, E_items [F_test] PyComa l (p, Some t) ys ts /\ opts element_of ys = Some (ls_items r) /\ S (length ts) = length ys.
Proof.
  intros r l p t (N & FI) US C F J. unfold listing_tokens in F. rewrite C in F. cbn [if_true] in F. rewrite app_nil_r in F.
  unfold unstarred in US. rewrite Forall_forall in FI, US. apply (items_of _ element_tokens); [exact N| | |exact F].
  - intros [st e] I l1 p1 t1 F1 K1. specialize (FI _ I). specialize (US _ I). cbn in FI, US, F1. subst st.
    destruct (fits_derived 1 e l1 p1 t1 FI) as (x & EX & TX); [lia|exact F1|apply ending_quiet; rewrite K1; apply comma_ending|].
    exists F_test, x. split; [left; reflexivity|]. split; [exact EX|apply element_plain, TX].
  - intros pre [st e] Z l1 p1 t1 F1 K1. assert (I : In (st, e) (ls_items r)) by (rewrite Z; apply in_elt). specialize (FI _ I). specialize (US _ I).
    cbn in FI, US, F1. subst st. destruct (fits_derived 1 e l1 p1 t1 FI) as (x & EX & TX); [lia|exact F1|apply ending_quiet; congruence|].
    exists F_test, x. split; [left; reflexivity|]. split; [exact EX|apply element_plain, TX].
Qed.
Lemma test_listing : forall r l p t, listing_fits 1 r -> unstarred r -> faces l = listing_tokens r -> In (tk_kind t) ends_star_list ->
  (ls_comma r = true -> In (tk_kind t) [T_Newline; PySemiColon; T_EOF]) ->
  exists x, E F_testlist l (p, Some t) x /\ listing_of x = Some r.
Proof.
  intros [es c] l p t FI US F J JC. destruct c.
  - unfold listing_tokens in F. cbn [if_true ls_comma ls_items] in F. split_faces.
    destruct (unstarred_items (Listing es false) l0 p0 t0) as (ys & ts & I & O & L); auto.
    { unfold listing_tokens. cbn [if_true ls_comma ls_items]. rewrite app_nil_r. exact F0. }
    { rewrite K. apply comma_ending. }
    eexists. split; [eapply E_testlist_comma; [exact I|exact K|]; exists t; split; [reflexivity|apply JC; reflexivity]|]. cbn. apply listed_true; [exact O|].
    rewrite app_length. cbn. lia.
  - destruct (unstarred_items _ l p t FI US eq_refl F) as (ys & ts & I & O & L); [apply in_ending; exact J|]. cbn in O.
    assert (ST : stops [PyComa] (p, Some t)) by (apply (not_comma p t _ nocomma J)).
    destruct ts as [|t1 ts].
    + destruct (unit_of ys es O) as (y & x & -> & -> & Y); [cbn in L; lia|]. destruct (single_item _ _ _ _ _ I) as (f & [<-|[]] & EY).
      exists y. split; [eapply E_testlist_one; eauto|]. apply listing_one, Y.
    + eexists. split; [eapply E_testlist; [exact I|discriminate|exact ST]|]. apply listed_false; [exact O|exact L].
Qed.
(** yield_expr | testlist *)
Lemma source_derived : forall b v l p t, source_fits b v -> faces l = source_tokens v -> In (tk_kind t) ends_star_list ->
  (b = true -> In (tk_kind t) [T_Newline; PySemiColon; T_EOF]) ->
  exists f x, In f [F_yield_expr; F_testlist] /\ (match v with Values _ => True | _ => f = F_yield_expr end) /\ E f l (p, Some t) x /\ source_of x = Some v.
Proof.
  intros b v l p t FI F J JB. destruct v as [r|r|e]; cbn [source_tokens source_fits] in *.
  - destruct FI as (FI & US & C). destruct (test_listing r l p t FI US F J) as (x & EX & LX).
    { intros Z. apply JB. destruct b; [reflexivity|]. rewrite C in Z by reflexivity. discriminate Z. }
    exists F_testlist, x. split; [cbn; auto|]. split; [exact I|]. split; [exact EX|apply source_values, LX].
  - split_faces. destruct (star_listing r l0 p t FI F0 J) as (x & EX & LX). exists F_yield_expr, (YieldExpr p0 p t0 x).
    split; [cbn; auto|]. split; [reflexivity|]. split; [apply E_yield; assumption|]. cbn. rewrite LX. reflexivity.
  - split_faces. match goal with F : faces ?m = flatten e |- _ => destruct (fits_derived 1 e m p t FI) as (x & EX & TX) end;
      [lia|assumption|apply ending_quiet, in_ending, J|].
    eexists F_yield_expr, _. split; [cbn; auto|]. split; [reflexivity|]. split; [apply E_yield_from; [| |exact EX]; assumption|]. cbn. rewrite TX. reflexivity.
Qed.

(** ** Simple statements *)
Lemma name_face : forall t p, face t = name_token p -> tk_kind t = T_AtomName /\ tk_payload t = p.
Proof. intros t p H. unfold face, name_token in H. injection H as K P. rewrite K in P. auto. Qed.
Ltac name_faces := repeat match goal with H : face _ = name_token _ |- _ => apply name_face in H; destruct H as (? & H) end.
(** The derivation of the expression [e], found among the split tokens. *)
Ltac expression e k p t H x EX TX :=
  match goal with F : faces ?m = flatten e |- _ => destruct (fits_derived k e m p t H) as (x & EX & TX); [lia|exact F| |] end.
Ltac in_stmt := first [assumption | apply ending_quiet; first [assumption | apply in_ending; assumption | cbn; tauto]].

Lemma names_derived : forall k ns l, faces l = flat_map (fun m => mark k :: m) (map (fun p => [name_token p]) ns) ->
  exists us ts, E_names k l us ts /\ map tk_payload us = ns.
Proof.
  intros k ns. induction ns as [|n ns IH]; intros l F.
  - cbn in F. split_faces. exists [], []. split; [constructor|reflexivity].
  - cbn [map flat_map app] in F. split_faces. name_faces. match goal with F : faces _ = flat_map _ _ |- _ => destruct (IH _ F) as (us & ts & N & M) end.
    eexists (_ :: us), (_ :: ts). split; [apply names_cons; eassumption|]. cbn. congruence.
Qed.
Lemma chain_derived : forall vs v l p t, chain_fits v vs -> faces l = flat_map (fun v => mark PyAssign :: source_tokens v) (v :: vs) ->
  In (tk_kind t) [T_Newline; PySemiColon; T_EOF] ->
  exists xs, E_assigns l (p, Some t) xs /\ opts (fun x => source_of (snd x)) xs = Some (v :: vs).
Proof.
  assert (SE : forall k, In k [T_Newline; PySemiColon; T_EOF] -> In k ends_star_list) by (intros k H; cbn in H |- *; tauto).
  intros vs. induction vs as [|w vs IH]; intros v l p t FI F J.
  - cbn [flat_map chain_fits] in *. rewrite app_nil_r in F. split_faces.
    match goal with F : faces ?m = source_tokens v |- _ => destruct (source_derived true v m p t FI F) as (f & x & IF & _ & EX & SX); [auto|auto|];
      exists [(t0, x)]; rewrite <- (app_nil_r m) end.
    split; [eapply assigns_cons; [exact K|exact IF|exact EX|apply assigns_nil]|]. cbn. rewrite SX. reflexivity.
  - destruct FI as (FV & FI). remember (w :: vs) as ws eqn:W. cbn [flat_map] in F. cbn [app] in F.
    apply faces_cons in F as (q & u & l0 & -> & K & F). apply faces_app in F as (l1 & l2 & -> & F1 & F2). apply face_kind in K.
    subst ws. destruct (IH w l2 p t FI F2 J) as (xs & AX & OX). cbn [flat_map] in F2. cbn [app] in F2. apply faces_cons in F2 as (q2 & u2 & l3 & -> & K2 & _).
    apply face_kind in K2. destruct (source_derived false v l1 q2 u2 FV F1) as (f & x & IF & _ & EX & SX); [rewrite K2; cbn; tauto|discriminate|].
    exists ((u, x) :: xs). split; [eapply assigns_cons; [exact K|exact IF|exact EX|exact AX]|]. rewrite opts_cons, OX. cbn. rewrite SX. reflexivity.
Qed.
Lemma alias_derives : forall j a, In j [PyComa; PyRightParen; T_Newline; PySemiColon] -> derives _ alias_tokens [F_import_as_name] alias_of j a.
Proof.
  intros j [n [q|]] J l p t F KT; unfold alias_tokens in F; cbn [fst snd] in F; split_faces; name_faces.
  - exists F_import_as_name. eexists. split; [left; reflexivity|]. split; [apply E_import_as_name_as; eassumption|]. subst. reflexivity.
  - exists F_import_as_name. eexists. split; [left; reflexivity|]. split; [apply E_import_as_name; [eassumption|]|subst; reflexivity].
    exists t. split; [reflexivity|]. intros [Z|[]]. rewrite <- Z in J. cbn in J. intuition discriminate.
Qed.
Lemma aliases_derived : forall n ns l p t, faces l = separated PyComa alias_tokens n ns -> In (tk_kind t) [PyRightParen; T_Newline; PySemiColon] ->
  exists x, E F_import_as_names l (p, Some t) x /\ aliases_of x = Some (n, ns).
Proof.
  intros n ns l p t F J. destruct (items_of _ alias_tokens [F_import_as_name] PyComa alias_of (n :: ns)) with (l := l) (p := p) (t := t) as (ys & ts & I & O & L).
  - discriminate.
  - intros a _. apply alias_derives. cbn. tauto.
  - intros pre a _. apply alias_derives. right. exact J.
  - exact F.
  - eexists. split; [eapply E_import_as_names; [exact I|]|].
    + exists t. split; [reflexivity|]. intros [Z|[]]. rewrite <- Z in J. cbn in J. intuition discriminate.
    + cbn [aliases_of]. rewrite (elements_rev _ _ _ _ _ O L). reflexivity.
Qed.
Lemma dots_face : forall ds l, faces l = map mark ds -> map tk_kind (map snd l) = ds.
Proof. induction ds as [|d ds IH]; intros l F; cbn [map] in F; split_faces; [reflexivity|]. cbn. f_equal; auto. Qed.
Lemma in_del : forall x, In x [F_del_stmt; F_pass_stmt; F_flow_stmt; F_import_stmt; F_global_stmt; F_nonlocal_stmt; F_assert_stmt; F_expr_stmt] ->
  forall l la y, E x l la y -> E F_small_stmt l la y.
Proof. intros x I l la y H. eapply E_small_stmt; eauto. Qed.
Ltac via f := apply (in_del f); [cbn; tauto|].
Ltac flow f := via F_flow_stmt; apply (E_flow f); [cbn; tauto|].
Lemma augmented_read : forall k, is_augmented k -> exists c, In (k, c) augmented /\
  forall s e a t b, small_of (c s e a t b) = if is k t then map2 (Augment k) (listing_of a) (source_of b) else None.
Proof.
  intros k H. unfold is_augmented in H. cbn in H.
  repeat (destruct H as [<-|H]; [eexists; split; [cbn; repeat (first [left; reflexivity | right])|reflexivity]|]). destruct H.
Qed.
Lemma module_name_derived : forall m l p t, faces l = match m with [] => [] | n :: ns => names_tokens PyDot n ns end -> tk_kind t = PyImport ->
  exists o, E_opt F_dotted_name l (p, Some t) o /\ module_name_of o = Some m /\ (o = None -> m = []).
Proof.
  intros [|n ns] l p t F K.
  - split_faces. exists None. split; [constructor|]. auto.
  - unfold names_tokens, separated in F. cbn [map between] in F. cbn [app] in F. split_faces. name_faces.
    match goal with F : faces _ = flat_map _ _ |- _ => destruct (names_derived _ _ _ F) as (us & ts & N & M) end.
    eexists (Some _). split; [apply opt_some; eapply E_dotted_name; [eassumption|exact N|]|].
    + exists t. split; [reflexivity|]. rewrite K. intros [Z|[]]. discriminate Z.
    + split; [|discriminate]. cbn [module_name_of]. rewrite rev_involutive. cbn [map]. congruence.
Qed.
Lemma small_derived : forall s l p t, small_fits s -> faces l = small_tokens s -> In (tk_kind t) [PySemiColon; T_Newline] ->
  exists x, E F_small_stmt l (p, Some t) x /\ small_of x = Some s.
Proof.
  intros s l p t FI F J0.
  assert (J : In (tk_kind t) ends_star_list) by (cbn in J0 |- *; tauto).
  assert (J3 : In (tk_kind t) [T_Newline; PySemiColon; T_EOF]) by (cbn in J0 |- *; tauto).
  assert (ST : forall ks, ~ In PySemiColon ks -> ~ In T_Newline ks -> stops ks (p, Some t)).
  { intros ks N1 N2. exists t. split; [reflexivity|]. intros I. destruct J0 as [J0|[J0|[]]]; rewrite <- J0 in I; auto. }
  assert (NC : ~ In PySemiColon [PyComa] /\ ~ In T_Newline [PyComa]) by (cbn; intuition discriminate).
  destruct s as [r|r v vs|k r v|r e v|r| | | |r|e|v|dots m names|n ns|n ns|e]; cbn [small_tokens small_fits] in *.
  - destruct (star_listing r l p t FI F J) as (x & EX & LX). exists x. split; [|apply small_eval, LX].
    via F_expr_stmt. apply E_expr_stmt; [exact EX|]. apply ST; cbn; intuition discriminate.
  - destruct FI as (FR & FV). apply faces_app in F as (l1 & l2 & -> & F1 & F2).
    destruct (chain_derived vs v l2 p t FV F2 J3) as (xs & AX & OX).
    assert (q : exists q u l3, l2 = (q, u) :: l3 /\ tk_kind u = PyAssign).
    { cbn [flat_map] in F2. cbn [app] in F2. apply faces_cons in F2 as (q & u & l3 & -> & K & _). apply face_kind in K. eauto 6. }
    destruct q as (q & u & l3 & -> & K). destruct (star_listing r l1 q u FR F1) as (a & EA & LA); [rewrite K; cbn; tauto|].
    eexists. split; [via F_expr_stmt; eapply E_expr_stmt_assign; [exact EA|exact AX| |]|].
    + intros ->. discriminate OX.
    + apply ST; cbn; intuition discriminate.
    + cbn [small_of]. rewrite LA, OX. reflexivity.
  - destruct FI as (FK & FR & FV). apply faces_app in F as (l1 & l2 & -> & F1 & F2). apply faces_cons in F2 as (q & u & l3 & -> & K & F2). apply face_kind in K.
    destruct (augmented_read k FK) as (c & IC & RC). destruct (star_listing r l1 q u FR F1) as (a & EA & LA).
    { rewrite K. unfold is_augmented in FK. cbn in FK |- *. tauto. }
    destruct (source_derived true v l3 p t FV F2 J) as (f & x & IF & _ & EX & SX); [auto|].
    eexists. split; [via F_expr_stmt; eapply (E_expr_stmt_aug c); [exact EA|rewrite K; exact IC|exact IF|exact EX]|].
    rewrite RC. rewrite (is_kind _ _ K), LA, SX. reflexivity.
  - destruct FI as (FR & FE & FV). apply faces_app in F as (l1 & l2 & -> & F1 & F2). apply faces_cons in F2 as (q & u & l3 & -> & K & F2). apply face_kind in K.
    destruct (star_listing r l1 q u FR F1) as (a & EA & LA); [rewrite K; cbn; tauto|].
    destruct v as [v|]; cbn [on_some] in FV.
    + split_faces. match goal with H : tk_kind ?t1 = PyAssign, F : faces ?m = source_tokens v |- _ => rename t1 into t1;
        destruct (source_derived true v m p t FV F J) as (f & x & IF & _ & EX & SX); [auto|] end.
      match goal with F : faces (?l1 ++ (?q1, ?t1) :: _) = _ |- _ => idtac | _ => idtac end.
      expression e 1 p0 t0 FE y EY TY; [apply ending_quiet; match goal with H : tk_kind t0 = _ |- _ => rewrite H end; cbn; tauto|].
      eexists. split; [via F_expr_stmt; eapply E_expr_stmt_ann; [exact EA|eapply E_ann_assign_value; [exact K|exact EY|eassumption|exact IF|exact EX]]|].
      cbn [small_of]. rewrite LA, TY. cbn [bind2 inside snd]. rewrite SX. reflexivity.
    + rewrite app_nil_r in F2. expression e 1 p t FE y EY TY; [apply ending_quiet, in_ending, J|].
      eexists. split; [via F_expr_stmt; eapply E_expr_stmt_ann; [exact EA|eapply E_ann_assign; [exact K|exact EY|]]|].
      * apply ST; cbn; intuition discriminate.
      * cbn [small_of]. rewrite LA, TY. reflexivity.
  - destruct FI as (FI & C). split_faces. match goal with F : faces ?m = listing_tokens r |- _ => destruct (expr_listing r m p t FI F) as (x & EX & LX) end.
    { rewrite C. discriminate. }
    { intros _. split; [left; apply in_ending, J|]. intros Z. rewrite Z in J0. cbn in J0. intuition discriminate. }
    eexists. split; [via F_del_stmt; apply E_del; [assumption|exact EX]|]. cbn. rewrite LX. reflexivity.
  - split_faces. eexists. split; [via F_pass_stmt; apply E_pass; assumption|reflexivity].
  - split_faces. eexists. split; [flow F_break_stmt; apply E_break; assumption|reflexivity].
  - split_faces. eexists. split; [flow F_continue_stmt; apply E_continue; assumption|reflexivity].
  - destruct r as [r|]; cbn [on_some] in FI; split_faces.
    + match goal with F : faces ?m = listing_tokens r |- _ => destruct (star_listing r m p t FI F J) as (x & EX & LX) end.
      eexists. split; [flow F_return_stmt; apply E_return_value; [assumption|exact EX]|]. cbn. rewrite LX. reflexivity.
    + eexists. split; [flow F_return_stmt; apply E_return; [assumption|]|reflexivity]. exists t. split; [reflexivity|]. cbn in J0 |- *. tauto.
  - destruct e as [(e & [d|])|]; cbn [on_some fst snd] in FI; split_faces.
    + destruct FI as (FE & FD). match goal with H : tk_kind ?u = PyFrom, F : faces ?m = flatten e |- context [?m ++ (?q, ?u) :: _] =>
        destruct (fits_derived 1 e m q u FE ltac:(lia) F) as (x & EX & TX); [apply ending_quiet; rewrite H; cbn; tauto|] end.
      expression d 1 p t FD y EY TY; [apply ending_quiet, in_ending, J|].
      eexists. split; [flow F_raise_stmt; eapply E_raise_from; [assumption|exact EX|assumption|exact EY]|]. cbn. rewrite TX, TY. reflexivity.
    + destruct FI as (FE & _). expression e 1 p t FE x EX TX; [apply ending_quiet, in_ending, J|].
      eexists. split; [flow F_raise_stmt; eapply E_raise_value; [assumption|exact EX|]|].
      * apply ST; cbn; intuition discriminate.
      * cbn. rewrite TX. reflexivity.
    + eexists. split; [flow F_raise_stmt; apply E_raise; [assumption|]|reflexivity]. exists t. split; [reflexivity|]. cbn in J0 |- *. tauto.
  - destruct (source_derived true v l p t) as (f & x & IF & YF & EX & SX); [destruct v; [destruct FI|exact FI..]|exact F|exact J|auto|].
    exists x. assert (YE : f = F_yield_expr) by (destruct v; [destruct FI|exact YF..]). subst f.
    split; [flow F_yield_stmt; apply E_yield_stmt, EX|]. apply yield_read; [exact SX|]. destruct v; [destruct FI|exact I..].
  - destruct FI as (FD & FM). cbn [app] in F. apply faces_cons in F as (q & u & l0 & -> & K & F). apply faces_app in F as (l1 & l2 & -> & F1 & F2).
    apply faces_app in F2 as (l3 & l4 & -> & F3 & F4). apply faces_cons in F4 as (q1 & u1 & l5 & -> & K1 & F5). apply face_kind in K. apply face_kind in K1.
    destruct (module_name_derived m l3 q1 u1 F3 K1) as (o & EO & MO & NO).
    assert (IL : exists a x b, E_import_list l5 (p, Some t) a x b /\
      small_of (ImportFromStmt q p u (rev (map snd l1)) o u1 a x b) = Some (FromImport dots m names)).
    { pose proof (dots_face _ _ F1) as DF. destruct names as [([|] & (n & ns))|]; cbn [if_true] in F5.
      - split_faces. match goal with H : tk_kind ?v = PyRightParen, F : faces ?m = separated _ _ _ _ |- context [?m ++ [(?r, ?v)]] =>
          destruct (aliases_derived n ns m r v F) as (x & EX & AX); [rewrite H; cbn; tauto|] end.
        do 3 eexists. split; [eapply import_paren; [eassumption|exact EX|eassumption]|]. cbn [small_of]. rewrite MO, AX, rev_involutive. reflexivity.
      - cbn [app] in F5. rewrite app_nil_r in F5. destruct (aliases_derived n ns l5 p t F5) as (x & EX & AX); [cbn in J0 |- *; tauto|].
        do 3 eexists. split; [eapply import_plain; exact EX|]. cbn [small_of]. rewrite MO, AX, rev_involutive, DF. reflexivity.
      - split_faces. do 3 eexists. split; [eapply import_star; eassumption|]. cbn [small_of]. rewrite MO, rev_involutive. reflexivity. }
    destruct IL as (a & x & b & IL & RD).
    eexists. split; [via F_import_stmt; apply E_import_stmt; eapply E_import_from; [exact K| |exact EO| |exact K1|exact IL]|exact RD].
    + apply Forall_forall. intros d ID. pose proof (dots_face _ _ F1) as DF. rewrite Forall_forall in FD.
      assert (In (tk_kind (snd d)) dots) by (rewrite <- DF; apply in_map, in_map, ID). destruct (FD _ H) as [-> | ->]; cbn; tauto.
    + intros ON ->. apply (FM (NO ON)). pose proof (dots_face _ _ F1) as DF. cbn in DF. auto.
  - unfold names_tokens, separated in F. cbn [map between] in F. cbn [app] in F. split_faces. name_faces.
    match goal with F : faces _ = flat_map _ _ |- _ => destruct (names_derived _ _ _ F) as (us & ts & N & M) end.
    eexists. split; [via F_global_stmt; eapply E_global; [eassumption|eassumption|exact N|apply ST; apply NC]|].
    cbn [small_of]. unfold names_of. rewrite rev_involutive. cbn [map option_map fst snd]. congruence.
  - unfold names_tokens, separated in F. cbn [map between] in F. cbn [app] in F. split_faces. name_faces.
    match goal with F : faces _ = flat_map _ _ |- _ => destruct (names_derived _ _ _ F) as (us & ts & N & M) end.
    eexists. split; [via F_nonlocal_stmt; eapply E_nonlocal; [eassumption|eassumption|exact N|apply ST; apply NC]|].
    cbn [small_of]. unfold names_of. rewrite rev_involutive. cbn [map option_map fst snd]. congruence.
  - split_faces. expression e 1 p t FI x EX TX; [apply ending_quiet, in_ending, J|].
    eexists. split; [via F_assert_stmt; eapply E_assert; [assumption|exact EX|]|].
    + apply ST; cbn; intuition discriminate.
    + cbn. rewrite TX. reflexivity.
Qed.
