(** Every tree of the parser that reads as statements stands for the tokens it was read from (the converse half of C52). *)
From Coq Require Import List Arith Lia.
From Verif Require Import Chars SourceBuffer Token Tokenizer LexSpec TokenSpec RenderSpec Node ParserState GrammarSpec ParseBasics
  SpanProofs SchemaSpec SchemaProofs ExprSpec ExprProofs ExprBack StmtSpec StmtProofs StmtDerive.
Import ListNotations.
Local Open Scope nat_scope.

(** ** Expressions *)
Lemma expression_back : forall f k l la x e, E f l la x -> usual f = true -> target f = false -> (forall y, cat f y -> expression k y) ->
  tree_of x = Some e -> faces l = flatten e /\ StmtSpec.fits k e.
Proof.
  intros f k l la x e H U T C R. destruct (E_fits1 _ _ _ _ H U) as (G & CX).
  destruct (proj1 (proj1 tiled_recovers 0 l la x (E_lies _ _ _ _ H T 0) G) e R) as (F & P & RK).
  split; [exact F|]. split; [exact P|]. split; [exact (tree_stands_alone x e R RK)|]. exact (expression_level _ _ _ (C _ CX) RK).
Qed.
Lemma test_back : forall l la x e, E F_test l la x -> tree_of x = Some e -> faces l = flatten e /\ StmtSpec.fits 1 e.
Proof. intros l la x e H. eapply expression_back; eauto. Qed.
Lemma named_back : forall l la x e, E F_named_expression l la x -> tree_of x = Some e -> faces l = flatten e /\ StmtSpec.fits 0 e.
Proof. intros l la x e H. eapply expression_back; eauto. Qed.
Lemma expr_back : forall l la x e, E F_expr l la x -> tree_of x = Some e -> faces l = flatten e /\ StmtSpec.fits 6 e.
Proof. intros l la x e H. eapply expression_back; eauto. Qed.

(** ** Lists of phrases *)
Lemma opts_inv : forall A B (r : A -> option B) x xs as_, opts r (x :: xs) = Some as_ -> exists a bs, as_ = a :: bs /\ r x = Some a /\ opts r xs = Some bs.
Proof. intros A B r x xs as_ O. rewrite opts_cons in O. destruct (r x); [|discriminate O]. destruct (opts r xs); [|discriminate O]. injection O as <-. eauto. Qed.
Lemma opts_nil_inv : forall A B (r : A -> option B) as_, opts r [] = Some as_ -> as_ = [].
Proof. intros A B r as_ O. injection O as <-. reflexivity. Qed.
Section Lists.
Variables (A : Type) (flat : A -> toks) (fs : list fn) (k : kind) (r : node -> option A) (Q : A -> Prop).
Hypothesis plain_k : carries k = false.
Definition gives_back (la : look) : Prop := forall f l x a, In f fs -> E f l la x -> r x = Some a -> faces l = flat a /\ Q a.
Definition after_sep : Prop := forall p t, tk_kind t = k -> gives_back (p, Some t).
Definition last_of (la : look) (as_ : list A) : Prop :=
  exists pre a f l x, as_ = pre ++ [a] /\ In f fs /\ E f l la x /\ r x = Some a.
Lemma rest_back : forall xs l la ts as_, after_sep -> gives_back la -> E_rest fs k l la xs ts -> opts r xs = Some as_ ->
  faces l = flat_map (fun m => mark k :: m) (map flat as_) /\ Forall Q as_ /\ length ts = length xs /\ (xs <> [] -> last_of la as_).
Proof.
  induction xs as [|x xs IH]; intros l la ts as_ HS HL H O.
  - inversion H; subst. apply opts_nil_inv in O as ->. cbn. repeat split; auto. congruence.
  - inversion H; subst. apply opts_inv in O as (a & bs & -> & RX & O).
    match goal with R : E_rest _ _ _ _ xs _ |- _ => destruct (IH _ _ _ _ HS HL R O) as (F & FQ & L & LA); rename R into HR end.
    assert (G : faces l1 = flat a /\ Q a).
    { destruct l2 as [|(q, u) l2]; [eapply HL; eauto|]. assert (KU : tk_kind u = k) by (inversion HR; assumption).
      match goal with I : In ?f fs, X : E ?f l1 _ x |- _ => exact (HS q u KU f l1 x a I X RX) end. }
    destruct G as (G & GQ). cbn [map flat_map]. rewrite faces_step, faces_join, G, F. rewrite (face_mark k t); [|assumption|assumption].
    split; [reflexivity|]. split; [auto|]. split; [cbn; auto|]. intros _. destruct xs as [|y xs].
    + inversion HR; subst. apply opts_nil_inv in O as ->. exists [], a, f, l1, x. auto.
    + destruct LA as (pre & b & g & m & z & -> & LA); [discriminate|]. exists (a :: pre), b, g, m, z. auto.
Qed.
Lemma items_back : forall xs l la ts as_, after_sep -> gives_back la -> E_items fs k l la xs ts -> opts r xs = Some as_ ->
  faces l = between (mark k) (map flat as_) /\ as_ <> [] /\ Forall Q as_ /\ S (length ts) = length xs /\ last_of la as_.
Proof.
  intros xs l la ts as_ HS HL H O. inversion H; subst. apply opts_inv in O as (a & bs & -> & RX & O).
  match goal with R : E_rest _ _ _ _ _ _ |- _ => destruct (rest_back _ _ _ _ _ HS HL R O) as (F & FQ & L & LA); rename R into HR end.
  assert (G : faces l1 = flat a /\ Q a).
  { destruct l2 as [|(q, u) l2]; [eapply HL; eauto|]. assert (KU : tk_kind u = k) by (inversion HR; assumption).
      match goal with I : In ?f fs, X : E ?f l1 _ x |- _ => exact (HS q u KU f l1 x a I X RX) end. }
  destruct G as (G & GQ). cbn [map between]. rewrite faces_join, G, F. split; [reflexivity|]. split; [discriminate|]. split; [auto|]. split; [cbn; auto|].
  destruct xs0 as [|y xs].
  - inversion HR; subst. apply opts_nil_inv in O as ->. exists [], a, f, l1, x. auto.
  - destruct LA as (pre & b & g & m & z & -> & LA); [discriminate|]. exists (a :: pre), b, g, m, z. auto.
Qed.
End Lists.

Lemma star_shape : forall l la x, E F_star_expr l la x -> exists p t l' y, l = (p, t) :: l' /\ tk_kind t = PyMul /\ E F_expr l' la y /\ x = StarExpr p (fst la) t y.
Proof. intros l la x H. inversion H; subst; try (match goal with B : binary _ = _ |- _ => discriminate B end). eauto 10. Qed.
Lemma element_plain_inv : forall j x a, expression j x -> element_of x = Some a -> exists e, a = (false, e) /\ tree_of x = Some e.
Proof.
  intros j x a H E. assert (Z : element_of x = option_map (pair false) (tree_of x)) by (destruct x; try destruct H; reflexivity).
  rewrite Z in E. destruct (tree_of x); [|discriminate E]. injection E as <-. eauto.
Qed.
Lemma element_back : forall k f l la x a, k <= 1 -> In f [F_star_expr; element_fn k] -> E f l la x -> element_of x = Some a ->
  faces l = element_tokens a /\ element_fits k a /\ fst a = match f with F_star_expr => true | _ => false end.
Proof.
  intros k f l la x a K I H EL. destruct I as [<-|[<-|[]]].
  - apply star_shape in H as (p & t & l' & y & -> & KT & H & ->). cbn in EL. destruct (tree_of y) as [e|] eqn:R; [|discriminate EL]. injection EL as <-.
    destruct (expr_back _ _ _ _ H R) as (F & FI). split; [|split; [exact FI|reflexivity]].
    unfold element_tokens. cbn [fst snd if_true app]. rewrite faces_step, F, (face_mark PyMul t KT); reflexivity.
  - destruct k as [|[|k]]; [| |lia]; unfold element_fn in *; cbn [Nat.eqb] in *.
    + destruct (E_fits1 _ _ _ _ H eq_refl) as (_ & C). destruct (element_plain_inv _ _ _ C EL) as (e & -> & R).
      destruct (named_back _ _ _ _ H R) as (F & FI). auto.
    + destruct (E_fits1 _ _ _ _ H eq_refl) as (_ & C). destruct (element_plain_inv _ _ _ C EL) as (e & -> & R).
      destruct (test_back _ _ _ _ H R) as (F & FI). auto.
Qed.
Lemma elements_back : forall k xs l la ts as_, k <= 1 -> E_items [F_star_expr; element_fn k] PyComa l la xs ts -> opts element_of xs = Some as_ ->
  faces l = between (mark PyComa) (map element_tokens as_) /\ as_ <> [] /\ Forall (element_fits k) as_ /\ S (length ts) = length xs /\
  last_of _ [F_star_expr; element_fn k] element_of la as_.
Proof.
  intros k xs l la ts as_ K. assert (G : forall la, gives_back _ element_tokens [F_star_expr; element_fn k] element_of (element_fits k) la).
  { intros la' f m x a I HE EL. destruct (element_back k f m la' x a K I HE EL) as (? & ? & _). auto. }
  apply items_back; [reflexivity|intros p t _; apply G|apply G].
Qed.
Lemma listed_inv : forall xs ts r, listed xs ts = Some r -> opts element_of xs = Some (ls_items r) /\ 
  length xs = (if ls_comma r then length ts else S (length ts)).
Proof.
  intros xs ts r H. unfold listed in H. destruct (opts element_of xs) as [es|] eqn:O; [|discriminate H].
  pose proof (opts_length _ _ _ _ O) as L.
  destruct (Nat.eqb_spec (length ts) (length es)); [injection H as <-; cbn; split; [reflexivity|congruence]|].
  destruct (Nat.eqb_spec (S (length ts)) (length es)); [injection H as <-; cbn; split; [reflexivity|congruence]|discriminate H].
Qed.
Lemma single_inv : forall j x r, element x \/ expression j x -> listing_of x = Some r -> exists a, r = Listing [a] false /\ element_of x = Some a.
Proof.
  intros j x r H E. assert (Z : listing_of x = option_map (fun e => Listing [e] false) (element_of x)).
  { destruct x; try reflexivity; destruct H as [[H|H]|H]; destruct H. }
  rewrite Z in E. destruct (element_of x); [|discriminate E]. injection E as <-. eauto.
Qed.
Lemma items_step : forall k la l xs ts r, k <= 1 -> E_items [F_star_expr; element_fn k] PyComa l la xs ts -> listed xs ts = Some r ->
  faces l = listing_tokens r /\ listing_fits k r /\ ls_comma r = false /\ last_of _ [F_star_expr; element_fn k] element_of la (ls_items r).
Proof.
  intros k la l xs ts r K H L. apply listed_inv in L as (O & L). destruct (elements_back k _ _ _ _ _ K H O) as (F & N & FI & LE & LA).
  assert (C : ls_comma r = false) by (destruct (ls_comma r); [lia|reflexivity]).
  unfold listing_tokens. rewrite C, F. cbn [if_true]. rewrite app_nil_r. repeat split; auto.
Qed.
Lemma items_comma : forall k p t l xs ts r, k <= 1 -> E_items [F_star_expr; element_fn k] PyComa l (p, Some t) xs ts -> tk_kind t = PyComa ->
  listed xs (ts ++ [t]) = Some r -> faces (l ++ [(p, t)]) = listing_tokens r /\ listing_fits k r /\ ls_comma r = true.
Proof.
  intros k p t l xs ts r K H KT L. apply listed_inv in L as (O & L). destruct (elements_back k _ _ _ _ _ K H O) as (F & N & FI & LE & LA).
  rewrite app_length in L. cbn in L. assert (C : ls_comma r = true) by (destruct (ls_comma r); [reflexivity|lia]).
  unfold listing_tokens. rewrite C, faces_join, F. cbn [if_true]. rewrite faces_step, (face_mark PyComa t KT) by reflexivity. repeat split; auto.
Qed.
Lemma listed_rev : forall xs ts, listed xs (rev ts) = listed xs ts.
Proof. intros. unfold listed. rewrite rev_length. reflexivity. Qed.
Ltac no_binary := try (match goal with B : binary _ = _ |- _ => discriminate B end).
Lemma star_list_back : forall l la x r, E F_testlist_star_expr l la x -> listing_of x = Some r -> faces l = listing_tokens r /\ listing_fits 1 r.
Proof.
  intros l la x r H L. inversion H; subst; no_binary.
  - assert (C : element x \/ expression 1 x).
    { destruct H0 as [<-|[<-|[]]]; destruct (E_fits1 _ _ _ _ H1 eq_refl) as (_ & C); cbn [cat] in C; [left; left|right]; exact C. }
    destruct (single_inv _ _ _ C L) as (a & -> & EL). destruct (element_back 1 _ _ _ _ _ (le_n 1) H0 H1 EL) as (F & FI & _).
    unfold listing_tokens. cbn [ls_items ls_comma map between flat_map if_true]. rewrite !app_nil_r. split; [exact F|]. split; [discriminate|constructor; auto].
  - cbn [listing_of] in L. rewrite rev_involutive, listed_rev in L. destruct (items_step 1 _ _ _ _ _ (le_n 1) H0 L) as (F & FI & _). auto.
  - cbn [listing_of] in L. rewrite rev_involutive, listed_rev in L. destruct (items_comma 1 _ _ _ _ _ _ (le_n 1) H0 H1 L) as (F & FI & _). auto.
Qed.
Lemma rest_widen : forall fs gs k xs l la ts, incl fs gs -> E_rest fs k l la xs ts -> E_rest gs k l la xs ts.
Proof. intros fs gs k xs. induction xs as [|y ys IH]; intros l la ts I R; inversion R; subst; [constructor|]. eapply rest_cons; eauto. Qed.
Lemma items_widen : forall fs gs k l la xs ts, incl fs gs -> E_items fs k l la xs ts -> E_items gs k l la xs ts.
Proof. intros fs gs k l la xs ts I H. inversion H; subst. eapply items_intro; eauto. eapply rest_widen; eauto. Qed.
Lemma tests_unstarred : forall l la xs ts as_, E_items [F_test] PyComa l la xs ts -> opts element_of xs = Some as_ -> Forall (fun a => fst a = false) as_.
Proof.
  intros l la xs ts as_ H O.
  assert (G : forall la, gives_back _ element_tokens [F_test] element_of (fun a => fst a = false) la).
  { intros la' f m x a [<-|[]] HE EL. destruct (element_back 1 F_test _ _ _ _ (le_n 1) (or_intror (or_introl eq_refl)) HE EL) as (? & _ & ?). auto. }
  destruct (items_back _ element_tokens [F_test] PyComa element_of (fun a => fst a = false) eq_refl xs l la ts as_) as (_ & _ & F & _); auto.
  intros p t _. apply G.
Qed.
Lemma test_list_back : forall l la x r, E F_testlist l la x -> listing_of x = Some r ->
  faces l = listing_tokens r /\ listing_fits 1 r /\ unstarred r /\ (ls_comma r = true -> before [T_Newline; PySemiColon; T_EOF] la).
Proof.
  intros l la x r H L. assert (W : incl [F_test] [F_star_expr; F_test]) by (intros f [<-|[]]; right; left; reflexivity).
  inversion H; subst; no_binary.
  - destruct (E_fits1 _ _ _ _ H0 eq_refl) as (_ & C). destruct (single_inv 1 _ _ (or_intror C) L) as (a & -> & EL).
    destruct (element_back 1 F_test _ _ _ _ (le_n 1) (or_intror (or_introl eq_refl)) H0 EL) as (F & FI & S).
    unfold listing_tokens. cbn [ls_items ls_comma map between flat_map if_true]. rewrite !app_nil_r. split; [exact F|]. split; [split; [discriminate|constructor; auto]|].
    split; [repeat constructor; exact S|discriminate].
  - cbn [listing_of] in L. destruct (items_step 1 _ _ _ _ _ (le_n 1) (items_widen _ _ _ _ _ _ _ W H0) L) as (F & FI & C & _).
    repeat split; auto; try apply FI; [|congruence]. apply listed_inv in L as (O & _). eapply tests_unstarred; eauto.
  - cbn [listing_of] in L. destruct (items_comma 1 _ _ _ _ _ _ (le_n 1) (items_widen _ _ _ _ _ _ _ W H0) H1 L) as (F & FI & C).
    repeat split; auto; try apply FI. apply listed_inv in L as (O & _). eapply tests_unstarred; eauto.
Qed.
Lemma target_list_back : forall l la x r, E F_exprlist l la x -> listing_of x = Some r ->
  faces l = listing_tokens r /\ listing_fits 0 r /\ (ls_comma r = true -> before [PyIn] la) /\ (before [PyIn] la -> ends_target r).
Proof.
  intros l la x r H L. inversion H; subst; no_binary.
  - assert (C : element x \/ expression 0 x).
    { destruct H0 as [<-|[<-|[]]]; destruct (E_fits1 _ _ _ _ H1 eq_refl) as (_ & C); cbn [cat] in C; [left; left|right]; exact C. }
    destruct (single_inv _ _ _ C L) as (a & -> & EL). destruct (element_back 0 _ _ _ _ _ (Nat.le_0_l 1) H0 H1 EL) as (F & FI & S).
    unfold listing_tokens. cbn [ls_items ls_comma map between flat_map if_true]. rewrite !app_nil_r. split; [exact F|]. split; [split; [discriminate|constructor; auto]|].
    split; [discriminate|]. intros B. pose proof (not_after_in _ _ _ _ H0 H1 B) as ->. right. exists [], (snd a). destruct a; cbn in *; subst; reflexivity.
  - cbn [listing_of] in L. destruct (items_step 0 _ _ _ _ _ (Nat.le_0_l 1) H0 L) as (F & FI & C & LA).
    repeat split; auto; try apply FI; [congruence|]. intros B. right. destruct LA as (pre & a & f & m & y & EQ & IF & HE & EL).
    pose proof (not_after_in _ _ _ _ IF HE B) as ->. destruct (element_back 0 _ _ _ _ _ (Nat.le_0_l 1) IF HE EL) as (_ & _ & S).
    exists pre, (snd a). rewrite EQ. destruct a; cbn in *; subst; reflexivity.
  - cbn [listing_of] in L. destruct (items_comma 0 _ _ _ _ _ _ (Nat.le_0_l 1) H0 H1 L) as (F & FI & C).
    repeat split; auto; try apply FI. intros _. left. exact C.
Qed.

(** ** Simple statements *)
Lemma before_stops : forall ks la, before ks la -> stops ks la -> False.
Proof. intros ks la (t & E1 & I) (u & E2 & N). rewrite E1 in E2. injection E2 as <-. exact (N I). Qed.
Lemma values_source : forall x, values x -> source_of x = option_map Values (listing_of x).
Proof. intros x H. destruct x; try reflexivity; destruct H. Qed.
Lemma map_some : forall A B (f : A -> B) o b, option_map f o = Some b -> exists a, o = Some a /\ b = f a.
Proof. intros A B f [a|] b H; [injection H as <-; eauto|discriminate H]. Qed.
Lemma yield_back : forall l la x v, E F_yield_expr l la x -> source_of x = Some v ->
  faces l = source_tokens v /\ source_fits false v /\ match v with Values _ => False | _ => True end.
Proof.
  intros l la x v H S. inversion H; subst; no_binary; cbn [source_of] in S; apply map_some in S as (a & R & ->).
  - destruct (test_back _ _ _ _ H2 R) as (F & FI). cbn [source_tokens source_fits]. rewrite !faces_step, F, (face_mark PyYield t), (face_mark PyFrom u); auto.
  - destruct (star_list_back _ _ _ _ H1 R) as (F & FI). cbn [source_tokens source_fits]. rewrite !faces_step, F, (face_mark PyYield t); auto.
Qed.
Lemma source_weak : forall v, source_fits false v -> source_fits true v.
Proof. intros [r|r|e] H; cbn in *; auto. destruct H as (? & ? & _). repeat split; auto; try discriminate; apply H. Qed.
Lemma source_back : forall f l la x v, In f [F_yield_expr; F_testlist] -> E f l la x -> source_of x = Some v ->
  faces l = source_tokens v /\ source_fits true v /\ (stops [T_Newline; PySemiColon; T_EOF] la -> source_fits false v).
Proof.
  intros f l la x v [<-|[<-|[]]] H S.
  - destruct (yield_back _ _ _ _ H S) as (F & FI & _). auto using source_weak.
  - destruct (E_fits1 _ _ _ _ H eq_refl) as (_ & C). rewrite (values_source _ C) in S. apply map_some in S as (r & R & ->).
    destruct (test_list_back _ _ _ _ H R) as (F & FI & U & B). split; [exact F|]. split; [cbn; repeat split; auto; try discriminate; apply FI|].
    intros ST. cbn. repeat split; auto; try apply FI. intros _. destruct (ls_comma r) eqn:C2; [|reflexivity]. destruct (before_stops _ _ (B eq_refl) ST).
Qed.
Lemma assigns_back : forall xs l la vs, E_assigns l la xs -> opts (fun x => source_of (snd x)) xs = Some vs ->
  faces l = flat_map (fun v => mark PyAssign :: source_tokens v) vs /\ match vs with [] => True | v :: vs => chain_fits v vs end.
Proof.
  induction xs as [|x xs IH]; intros l la vs H O; inversion H; subst; [apply opts_nil_inv in O as ->; auto|].
  apply opts_inv in O as (v & ws & -> & RX & O). cbn [snd] in RX.
  match goal with R : E_assigns _ _ xs |- _ => destruct (IH _ _ _ R O) as (F & C); rename R into HA end.
  match goal with I : In ?f _, X : E ?f l1 _ _ |- _ => destruct (source_back _ _ _ _ _ I X RX) as (FX & FI & FJ) end.
  split.
  - cbn [flat_map]. rewrite faces_step, faces_join, FX, F, (face_mark PyAssign t) by auto. reflexivity.
  - destruct ws as [|w ws]; [exact FI|]. split; [|exact C]. apply FJ. cbn [flat_map app] in F. apply faces_cons in F as (q & u & l3 & -> & K & _).
    exists u. split; [reflexivity|]. assert (KU : tk_kind u = PyAssign) by (apply face_kind in K; exact K). rewrite KU. cbn. intuition discriminate.
Qed.
Lemma names_back : forall k l ns ts, carries k = false -> E_names k l ns ts ->
  faces l = flat_map (fun m => mark k :: m) (map (fun p => [name_token p]) (map tk_payload ns)).
Proof.
  intros k l ns ts C H. induction H; [reflexivity|]. cbn [map flat_map app]. rewrite !faces_step, IHE_names by assumption.
  rewrite (face_mark k t) by assumption. unfold face. rewrite H0. reflexivity.
Qed.
Lemma name_face : forall t, tk_kind t = T_AtomName -> face t = name_token (tk_payload t).
Proof. intros t H. unfold face. rewrite H. reflexivity. Qed.
Lemma names_of_inv : forall u ns x, names_of (rev (u :: ns)) = Some x -> x = (tk_payload u, map tk_payload ns).
Proof. intros u ns x H. unfold names_of in H. rewrite rev_involutive in H. injection H as <-. reflexivity. Qed.
Lemma global_back : forall k k2 p t q u l ns ts, tk_kind t = k -> tk_kind u = T_AtomName -> carries k = false -> carries k2 = false -> E_names k2 l ns ts ->
  faces ((p, t) :: (q, u) :: l) = mark k :: names_tokens k2 (tk_payload u) (map tk_payload ns).
Proof.
  intros. unfold names_tokens, separated. cbn [map between app]. rewrite !faces_step, (names_back k2 l ns ts), (face_mark k t), (name_face u) by assumption. reflexivity.
Qed.
Lemma dots_back : forall dots, Forall (fun d : ptok => In (tk_kind (snd d)) [PyDot; PyElipsis]) dots ->
  faces dots = map mark (map (fun d => tk_kind (snd d)) dots) /\ Forall (fun k => k = PyDot \/ k = PyElipsis) (map (fun d => tk_kind (snd d)) dots).
Proof.
  induction 1 as [|[p t] dots H _ (IH1 & IH2)]; [cbn; auto|]. cbn [map snd] in *. rewrite faces_step, IH1. cbn in H.
  split; [f_equal; apply face_mark; [reflexivity|]; destruct H as [<-|[<-|[]]]; reflexivity|]. constructor; [|exact IH2]. destruct H as [<-|[<-|[]]]; auto.
Qed.
Lemma alias_back : forall f l la x a, In f [F_import_as_name] -> E f l la x -> alias_of x = Some a -> faces l = alias_tokens a /\ True.
Proof.
  intros f l la x a [<-|[]] H R. split; [|exact I]. inversion H; subst; no_binary; injection R as <-; unfold alias_tokens; cbn [fst snd].
  - rewrite faces_step, name_face by assumption. reflexivity.
  - rewrite !faces_step, (name_face t), (name_face v), (face_mark PyAs u) by auto. reflexivity.
Qed.
Lemma aliases_back : forall l la x a, E F_import_as_names l la x -> aliases_of x = Some a -> faces l = separated PyComa alias_tokens (fst a) (snd a).
Proof.
  intros l la x a H R. inversion H; subst; no_binary. cbn [aliases_of] in R. destruct (elements alias_of (rev xs) (rev ts)) as [[|n ns]|] eqn:EL; try discriminate R. injection R as <-.
  apply elements_split in EL as (O & _). rewrite rev_involutive in O.
  destruct (items_back _ alias_tokens [F_import_as_name] PyComa alias_of (fun _ => True) eq_refl xs l la ts (n :: ns)) as (F & _); auto.
  - intros q u _ f m y b. apply alias_back.
  - intros f m y b. apply alias_back.
Qed.
Lemma module_name_back : forall l la o m, E_opt F_dotted_name l la o -> module_name_of o = Some m ->
  faces l = match m with [] => [] | n :: ns => names_tokens PyDot n ns end /\ (m = [] -> o = None).
Proof.
  intros l la o m H R. inversion H; subst; [injection R as <-; auto|]. inversion H0; subst; no_binary. cbn [module_name_of] in R. rewrite rev_involutive in R.
  injection R as <-. cbn [map]. split; [|discriminate]. unfold names_tokens, separated. cbn [map between app].
  rewrite faces_step, name_face, (names_back PyDot l0 ns ts) by auto. reflexivity.
Qed.
Lemma bind2_some : forall A B C (f : A -> B -> option C) a b c, bind2 f a b = Some c -> exists x y, a = Some x /\ b = Some y /\ f x y = Some c.
Proof. intros A B C f [x|] [y|] c H; try discriminate H. eauto. Qed.
Lemma map2_some : forall A B C (f : A -> B -> C) a b c, map2 f a b = Some c -> exists x y, a = Some x /\ b = Some y /\ c = f x y.
Proof. intros A B C f [x|] [y|] c H; try discriminate H. injection H as <-. eauto. Qed.
Lemma inside_some : forall A B (f : A -> option B) o r, inside f o = Some r ->
  (o = None /\ r = None) \/ exists a b, o = Some a /\ f a = Some b /\ r = Some b.
Proof. intros A B f [a|] r H; cbn in H; [right; apply map_some in H as (b & E & ->); eauto|injection H as <-; auto]. Qed.
Lemma star_values_eval : forall x, star_values x -> small_of x = option_map Eval (listing_of x).
Proof. intros x H. destruct x; try reflexivity; destruct H as [H|H]; destruct H. Qed.
Lemma augmented_small : forall k c a b x t y, In (k, c) augmented -> tk_kind t = k ->
  small_of (c a b x t y) = map2 (Augment k) (listing_of x) (source_of y) /\ is_augmented k.
Proof.
  intros k c a b x t y I K. unfold augmented in I. cbn [In] in I.
  repeat (destruct I as [I|I]; [injection I as <- <-; cbn [small_of]; unfold is; rewrite K; split; [reflexivity|unfold is_augmented; cbn; tauto]|]). destruct I.
Qed.
Definition ends_small (la : look) : Prop := before [PySemiColon; T_Newline] la.
Lemma augmented_plain : forall k, is_augmented k -> carries k = false.
Proof. intros k H. cbn in H. repeat (destruct H as [<-|H]; [reflexivity|]). destruct H. Qed.
Lemma expr_stmt_back : forall l la x s, E F_expr_stmt l la x -> small_of x = Some s -> faces l = small_tokens s /\ small_fits s.
Proof.
  intros l la x s H R. inversion H; subst; no_binary.
  - destruct (E_fits1 _ _ _ _ H0 eq_refl) as (_ & C). rewrite (star_values_eval _ C) in R. apply map_some in R as (r & R & ->). exact (star_list_back _ _ _ _ H0 R).
  - inversion H1; subst; no_binary; cbn [small_of] in R; apply bind2_some in R as (r & e & RA & RX & R); apply map_some in R as (v & RV & ->);
      apply inside_some in RV as [(Z & ->)|(w & v' & Z & RV & ->)]; try discriminate Z.
    + destruct (star_list_back _ _ _ _ H0 RA) as (F1 & FI1). match goal with X : E F_test _ _ _ |- _ => destruct (test_back _ _ _ _ X RX) as (F2 & FI2) end. cbn [small_tokens small_fits on_some].
      rewrite faces_join, faces_step, F1, F2, (face_mark PyColon t) by auto. rewrite app_nil_r. auto.
    + injection Z as <-. cbn [snd] in RV. destruct (star_list_back _ _ _ _ H0 RA) as (F1 & FI1). match goal with X : E F_test _ _ _ |- _ => destruct (test_back _ _ _ _ X RX) as (F2 & FI2) end.
      match goal with I : In ?f [F_yield_expr; F_testlist], X : E ?f _ _ _ |- _ => destruct (source_back _ _ _ _ _ I X RV) as (F3 & FI3 & _) end. cbn [small_tokens small_fits on_some].
      rewrite !faces_join, faces_step, faces_join, faces_step, F1, F2, F3, (face_mark PyColon t), (face_mark PyAssign u) by auto. auto.
  - destruct (augmented_small _ c (start l1 (p, Some t)) (fst la) a t b H1 eq_refl) as (S & IA). rewrite S in R. apply map2_some in R as (r & v & RA & RB & ->).
    destruct (star_list_back _ _ _ _ H0 RA) as (F1 & FI1). destruct (source_back _ _ _ _ _ H2 H3 RB) as (F2 & FI2 & _).
    cbn [small_tokens small_fits]. rewrite faces_join, faces_step, F1, F2, (face_mark (tk_kind t) t) by (auto using augmented_plain). auto.
  - cbn [small_of] in R. apply bind2_some in R as (r & vs & RA & RX & R). destruct vs as [|v vs]; [discriminate R|]. injection R as <-.
    destruct (star_list_back _ _ _ _ H0 RA) as (F1 & FI1). destruct (assigns_back _ _ _ _ H1 RX) as (F2 & FI2).
    cbn [small_tokens small_fits]. rewrite faces_join, F1, F2. auto.
  - discriminate R.
Qed.
Lemma yield_small : forall x, is_yield x -> small_of x = option_map YieldStmt (source_of x).
Proof. intros x H. destruct x; try destruct H; reflexivity. Qed.
Lemma import_from_back : forall l la x s, E F_import_from l la x -> small_of x = Some s -> faces l = small_tokens s /\ small_fits s.
Proof.
  intros l la x s H R. inversion H; subst; no_binary. destruct (dots_back _ H1) as (FD & FK).
  assert (Z : exists m names, module_name_of o = Some m /\ s = FromImport (map (fun d => tk_kind (snd d)) dots) m names /\
    faces l2 = match names with None => [mark PyMul] | Some (b, (n, ns)) => if_true b PyLeftParen ++ separated PyComa alias_tokens n ns ++ if_true b PyRightParen end).
  { assert (MD : map tk_kind (rev (rev (map snd dots))) = map (fun d => tk_kind (snd d)) dots) by (rewrite rev_involutive, map_map; reflexivity).
    inversion H5; subst; cbn [small_of] in R.
    - apply map_some in R as (m & RM & ->). exists m, None. rewrite MD. repeat split; auto. rewrite faces_step, (face_mark PyMul t0) by auto. reflexivity.
    - apply map2_some in R as (m & al & RM & RA & ->). exists m, (Some (true, al)). rewrite MD. repeat split; auto. destruct al as (n, ns).
      cbn [if_true app]. rewrite faces_step, faces_join, faces_step, (aliases_back _ _ _ _ H7 RA), (face_mark PyLeftParen t0), (face_mark PyRightParen u0) by auto. reflexivity.
    - apply map2_some in R as (m & al & RM & RA & ->). exists m, (Some (false, al)). rewrite MD. repeat split; auto. destruct al as (n, ns).
      cbn [if_true app]. rewrite (aliases_back _ _ _ _ H6 RA), app_nil_r. reflexivity. }
  destruct Z as (m & names & RM & -> & FN). destruct (module_name_back _ _ _ _ H2 RM) as (FM & NM). cbn [small_tokens small_fits]. split.
  - rewrite faces_step, !faces_join, faces_step, FD, FM, FN, (face_mark PyFrom t), (face_mark PyImport u) by auto. reflexivity.
  - split; [exact FK|]. intros M. specialize (H3 (NM M)). destruct dots; [congruence|discriminate].
Qed.
Lemma small_back : forall f l la x s, In f [F_small_stmt] -> ends_small la -> E f l la x -> small_of x = Some s -> faces l = small_tokens s /\ small_fits s.
Proof.
  intros f0 l la x s [<-|[]] EN H R. inversion H; subst; no_binary. clear H. rename H1 into H. cbn [In] in H0.
  repeat (destruct H0 as [<-|H0]; [|]); try destruct H0.
  - inversion H; subst; no_binary. cbn [small_of] in R. apply map_some in R as (r & R & ->). destruct (target_list_back _ _ _ _ H1 R) as (F & FI & C & _).
    cbn [small_tokens small_fits]. rewrite faces_step, F, (face_mark PyDel t) by auto. split; [reflexivity|]. split; [exact FI|].
    destruct (ls_comma r); [|reflexivity]. exfalso. destruct (C eq_refl) as (v & E1 & [I|[]]). destruct EN as (w & E2 & J). rewrite E1 in E2. injection E2 as <-.
    rewrite <- I in J. cbn in J. intuition discriminate.
  - inversion H; subst; no_binary. injection R as <-. cbn [small_tokens small_fits]. rewrite faces_step, (face_mark PyPass t) by auto. auto.
  - inversion H; subst; no_binary. clear H. rename H1 into H. cbn [In] in H0. repeat (destruct H0 as [<-|H0]; [|]); try destruct H0.
    + inversion H; subst; no_binary. injection R as <-. cbn [small_tokens small_fits]. rewrite faces_step, (face_mark PyBreak t) by auto. auto.
    + inversion H; subst; no_binary. injection R as <-. cbn [small_tokens small_fits]. rewrite faces_step, (face_mark PyContinue t) by auto. auto.
    + inversion H; subst; no_binary; cbn [small_of inside] in R; apply map_some in R as (o & R & ->).
      * injection R as <-. cbn [small_tokens small_fits on_some]. rewrite faces_step, (face_mark PyReturn t) by auto. auto.
      * apply map_some in R as (r & R & ->). destruct (star_list_back _ _ _ _ H1 R) as (F & FI). cbn [small_tokens small_fits on_some].
        rewrite faces_step, F, (face_mark PyReturn t) by auto. auto.
    + inversion H; subst; no_binary; cbn [small_of inside fst snd] in R; apply map_some in R as (o & R & ->).
      * injection R as <-. cbn [small_tokens small_fits on_some]. rewrite faces_step, (face_mark PyRaise t) by auto. auto.
      * apply map_some in R as (y & R & ->). apply map2_some in R as (e & d & RE & RD & ->). injection RD as <-. destruct (test_back _ _ _ _ H1 RE) as (F & FI).
        cbn [small_tokens small_fits on_some fst snd]. rewrite faces_step, F, (face_mark PyRaise t) by auto. auto.
      * apply map_some in R as (z & R & ->). apply map2_some in R as (e & d & RE & RD & ->). apply map_some in RD as (d' & RD & ->).
        destruct (test_back _ _ _ _ H1 RE) as (F & FI). destruct (test_back _ _ _ _ H3 RD) as (F3 & FI3).
        cbn [small_tokens small_fits on_some fst snd]. rewrite faces_step, faces_join, faces_step, F, F3, (face_mark PyRaise t), (face_mark PyFrom u) by auto. auto.
    + inversion H; subst; no_binary. destruct (E_fits1 _ _ _ _ H0 eq_refl) as (_ & C). rewrite (yield_small _ C) in R. apply map_some in R as (v & R & ->).
      destruct (yield_back _ _ _ _ H0 R) as (F & FI & NV). cbn [small_tokens small_fits]. split; [exact F|]. destruct v; [destruct NV|apply source_weak, FI|apply source_weak, FI].
  - inversion H; subst; no_binary. eapply import_from_back; eauto.
  - inversion H; subst; no_binary. cbn [small_of] in R. apply map_some in R as (y & R & ->). apply names_of_inv in R as ->. cbn [small_tokens small_fits fst snd].
    split; [|exact I]. eapply global_back; eauto.
  - inversion H; subst; no_binary. cbn [small_of] in R. apply map_some in R as (y & R & ->). apply names_of_inv in R as ->. cbn [small_tokens small_fits fst snd].
    split; [|exact I]. eapply global_back; eauto.
  - inversion H; subst; no_binary; [|discriminate R]. cbn [small_of] in R. apply map_some in R as (e & R & ->). destruct (test_back _ _ _ _ H1 R) as (F & FI).
    cbn [small_tokens small_fits]. rewrite faces_step, F, (face_mark PyAssert t) by auto. auto.
  - eapply expr_stmt_back; eauto.
Qed.
Lemma smalls_list_back : forall l xs ts p t ss, E_items [F_small_stmt] PySemiColon l (p, Some t) xs ts -> In (tk_kind t) [PySemiColon; T_Newline] ->
  opts small_of xs = Some ss -> faces l = between (mark PySemiColon) (map small_tokens ss) /\ Forall small_fits ss /\ S (length ts) = length ss.
Proof.
  intros l xs ts p t ss H K O.
  destruct (items_back _ small_tokens [F_small_stmt] PySemiColon small_of small_fits eq_refl xs l (p, Some t) ts ss) as (F & _ & FI & L & _); auto.
  - intros q u KU f m y s I. apply small_back; [exact I|]. exists u. split; [reflexivity|]. left. symmetry. exact KU.
  - intros f m y s I. apply small_back; [exact I|]. exists t. auto.
  - rewrite (opts_length _ _ _ _ O). auto.
Qed.
Lemma smalls_back : forall l la x s, E F_simple_stmt l la x -> smalls_of x = Some s -> faces l = smalls_tokens s ++ [mark T_Newline] /\ smalls_fit s.
Proof.
  intros l la x s H R. inversion H; subst; no_binary; cbn [smalls_of] in R; rewrite rev_involutive in R; destruct (opts small_of xs) as [[|s1 ss]|] eqn:O; try discriminate R.
  - edestruct smalls_list_back as (F & FI & L); [exact H0| |exact O|]; [cbn; auto|]. rewrite rev_length in R. cbn [length] in L.
    destruct (Nat.eqb_spec (length ts) (S (length ss))); [lia|]. destruct (Nat.eqb_spec (length ts) (length ss)); [|lia]. injection R as <-.
    split; [|exact FI]. unfold smalls_tokens, separated. cbn [sm_first sm_more sm_semi if_true]. rewrite app_nil_r, faces_join, faces_step, F, (face_mark T_Newline t) by auto. reflexivity.
  - edestruct smalls_list_back as (F & FI & L); [exact H0| |exact O|]; [cbn; auto|]. rewrite rev_length, app_length in R. cbn [length] in L, R.
    destruct (Nat.eqb_spec (length ts + 1) (S (length ss))); [|lia]. injection R as <-.
    split; [|exact FI]. unfold smalls_tokens, separated. cbn [sm_first sm_more sm_semi if_true].
    rewrite faces_join, !faces_step, F, (face_mark T_Newline t), (face_mark PySemiColon u) by auto. rewrite <- app_assoc. reflexivity.
Qed.
Lemma no_match_back : forall l s, faces l = smalls_tokens s ++ [mark T_Newline] -> ~ starts_match l -> no_match s.
Proof.
  intros l s F N p (m & B). rewrite B in F. cbn [app] in F. apply faces_cons in F as (q & t & l2 & -> & FT & _). unfold face in FT.
  assert (K : tk_kind t = T_AtomName) by (unfold name_token in FT; congruence). rewrite K in FT. cbn [carries] in FT. injection FT as PT.
  assert (X : Token.text_of t <> $"match") by (intro Z; apply N; exists q, t, l2; auto). unfold Token.text_of in X. rewrite PT in X. destruct p; auto.
Qed.

(** ** Headers *)
Lemma part_back : forall f l la x a, In f [F_with_item] -> E f l la x -> part_of x = Some a -> faces l = part_tokens a /\ part_fits a.
Proof.
  intros f l la x a [<-|[]] H R. inversion H; subst; no_binary; cbn [part_of] in R; unfold part_tokens, part_fits.
  - apply map_some in R as (e & R & ->). destruct (test_back _ _ _ _ H0 R) as (F & FI). cbn [fst snd on_some]. rewrite app_nil_r. auto.
  - apply map2_some in R as (e & d & RE & RD & ->). destruct (test_back _ _ _ _ H0 RE) as (F & FI). destruct (expr_back _ _ _ _ H2 RD) as (F2 & FI2).
    cbn [fst snd on_some]. rewrite faces_join, faces_step, F, F2, (face_mark PyAs t) by auto. auto.
Qed.
Lemma parts_back : forall l la xs ts ps, E_items [F_with_item] PyComa l la xs ts -> opts part_of xs = Some ps ->
  exists i is, ps = i :: is /\ faces l = separated PyComa part_tokens i is /\ Forall part_fits (i :: is) /\ length ts = length is.
Proof.
  intros l la xs ts ps H O. destruct (items_back _ part_tokens [F_with_item] PyComa part_of part_fits eq_refl xs l la ts ps) as (F & N & FI & L & _); auto.
  - intros q u _ f m y b. apply part_back.
  - intros f m y b. apply part_back.
  - rewrite <- (opts_length _ _ _ _ O) in L. destruct ps as [|i is]; [congruence|]. exists i, is. repeat split; auto.
Qed.
Lemma with_back : forall y l la a xs ts b s d p t, tk_kind t = PyWith -> with_items l la a xs ts b -> (exists q u, la = (q, Some u) /\ tk_kind u = PyColon) ->
  bind2 (with_of y a b (rev ts)) (opts part_of (rev (rev xs))) (Some d) = Some s ->
  exists br i is, s = WithStmt y br i is d /\ if_true y PyAsync ++ faces ((p, t) :: l) ++ [mark PyColon] = with_head y br i is /\
    Forall part_fits (i :: is) /\ (br = None -> ~ begins (mark PyLeftParen) (separated PyComa part_tokens i is)).
Proof.
  intros y l la a xs ts b s d p t KT H (q & u & -> & KU) R. rewrite rev_involutive in R. apply bind2_some in R as (ps & d' & RP & RD & R). injection RD as <-.
  unfold with_of in R. rewrite rev_length in R. inversion H; subst.
  - destruct (parts_back _ _ _ _ _ H0 RP) as (i & is & -> & F & FI & L). rewrite L, Nat.eqb_refl in R. injection R as <-. exists None, i, is. split; [reflexivity|].
    split; [unfold with_head; rewrite faces_step, F, (face_mark PyWith t) by auto; reflexivity|]. split; [exact FI|].
    intros _ (m & Z). apply H1. rewrite Z in F. apply faces_cons in F as (q0 & u0 & l2 & -> & FT & _). apply face_kind in FT. exists q0, u0, l2. auto.
  - destruct (parts_back _ _ _ _ _ H1 RP) as (i & is & -> & F & FI & L). rewrite L, Nat.eqb_refl in R. injection R as <-. exists (Some false), i, is. split; [reflexivity|].
    split; [|split; [exact FI|discriminate]]. unfold with_head. cbn [if_true app].
    rewrite !faces_step, faces_join, faces_step, F, (face_mark PyWith t), (face_mark PyLeftParen t0), (face_mark PyRightParen u0) by auto. cbn [app]. rewrite <- ?app_assoc. reflexivity.
  - destruct (parts_back _ _ _ _ _ H1 RP) as (i & is & -> & F & FI & L). rewrite app_length, L in R. cbn [length] in R.
    destruct (Nat.eqb_spec (length is + 1) (length is)); [lia|]. destruct (Nat.eqb_spec (length is + 1) (S (length is))); [|lia]. injection R as <-.
    exists (Some true), i, is. split; [reflexivity|].
    split; [|split; [exact FI|discriminate]]. unfold with_head. cbn [if_true app].
    rewrite !faces_step, faces_join, !faces_step, F, (face_mark PyWith t), (face_mark PyLeftParen t0), (face_mark PyRightParen u0), (face_mark PyComa v) by auto.
    cbn [app]. rewrite <- ?app_assoc. reflexivity.
Qed.
Lemma what_back : forall l la w wt, except_what l la w -> what_of w = Some wt ->
  faces l = match wt with Anything => [] | Exactly e => flatten e | Bound e n => flatten e ++ [mark PyAs; name_token n] end /\ what_fits wt.
Proof.
  intros l la w wt H R. inversion H; subst; cbn [what_of] in R.
  - injection R as <-. cbn. auto.
  - apply map_some in R as (e & R & ->). exact (test_back _ _ _ _ H0 R).
  - apply map_some in R as (e & R & ->). destruct (test_back _ _ _ _ H0 R) as (F & FI). cbn [what_fits].
    rewrite faces_join, !faces_step, F, (face_mark PyAs u), (name_face v) by auto. auto.
Qed.
Lemma base_back : forall f l la x a, In f [F_var_args_assignments] -> E f l la x -> base_of x = Some a -> faces l = base_tokens a /\ on_some (StmtSpec.fits 1) (snd a).
Proof.
  intros f l la x a [<-|[]] H R. unfold base_tokens. inversion H; subst; no_binary.
  - inversion H0; subst; no_binary. injection R as <-. cbn [fst snd on_some]. rewrite faces_step, name_face by auto. auto.
  - inversion H0; subst; no_binary. cbn [base_of] in R. apply map_some in R as (e & R & ->). destruct (test_back _ _ _ _ H2 R) as (F & FI). cbn [fst snd on_some app].
    rewrite !faces_step, F, name_face, (face_mark PyAssign t) by auto. auto.
Qed.
Lemma bases_back : forall l a o b bs, bases l a o b -> bases_of a o b = Some bs ->
  faces l = match bs with None => [] | Some bs => mark PyLeftParen :: between (mark PyComa) (map base_tokens bs) ++ [mark PyRightParen] end /\
  on_some (Forall (fun x => on_some (StmtSpec.fits 1) (snd x))) bs.
Proof.
  intros l a o b bs H R. inversion H; subst; [injection R as <-; cbn; auto|]. inversion H2; subst.
  - injection R as <-. cbn [app on_some]. rewrite !faces_step, (face_mark PyLeftParen t), (face_mark PyRightParen u) by auto. cbn. auto.
  - cbn [bases_of] in R. inversion H3; subst; no_binary; try discriminate R.
    + match goal with S : E_stars _ _ _ _ _ _ |- _ => inversion S; subst; discriminate R end.
    + apply map_some in R as (es & R & ->). apply elements_split in R as (O & _). rewrite rev_involutive in O.
      destruct (items_back _ base_tokens [F_var_args_assignments] PyComa base_of (fun x => on_some (StmtSpec.fits 1) (snd x)) eq_refl ns l0 (q, Some u) ts es) as (F & N & FI & _); auto.
      * intros q0 u0 _ f m y d. apply base_back.
      * intros f m y d. apply base_back.
      * cbn [on_some]. rewrite faces_step, faces_join, faces_step, F, (face_mark PyLeftParen t), (face_mark PyRightParen u) by auto. auto.
    + match goal with S : E_stars _ _ _ _ _ _ |- _ => inversion S; subst; discriminate R end.
    + match goal with S : E_stars _ _ _ _ _ _ |- _ => inversion S; subst; discriminate R end.
Qed.
Lemma returns_back : forall l la w o, returns l la w -> inside (fun r => tree_of (snd r)) w = Some o ->
  faces l = match o with Some e => mark PyArrow :: flatten e | None => [] end /\ on_some (StmtSpec.fits 1) o.
Proof.
  intros l la w o H R. inversion H; subst; cbn [inside snd] in R; [injection R as <-; cbn; auto|]. apply map_some in R as (e & R & ->).
  destruct (test_back _ _ _ _ H1 R) as (F & FI). rewrite faces_step, F, (face_mark PyArrow t) by auto. auto.
Qed.

(** ** Compound statements *)
Definition moves {A} (note : option bool -> A -> option (option bool)) (a : A) (c c' : except_status) : Prop :=
  forall d, c = status d -> exists d', note d a = Some d' /\ c' = status d'.
Lemma status_onto : forall c, exists d, c = status d.
Proof. intros []; first [exists None; reflexivity | exists (Some false); reflexivity | exists (Some true); reflexivity]. Qed.
Definition back_stmt (c : except_status) (l : list ptok) (c' : except_status) (s : stmt) : Prop :=
  faces l = stmt_tokens s /\ stmt_fits s /\ moves stmt_note s c c'.
Definition back_plain (c : except_status) (l : list ptok) (c' : except_status) (y : bool) (s : stmt) : Prop :=
  if_true y PyAsync ++ faces l = stmt_tokens s /\ stmt_fits s /\ moves stmt_note s c c'.
Definition word_of (f : fn) : kind := match f with F_else_stmt => PyElse | _ => PyFinally end.
Definition Back (f : fn) (c : except_status) (l : list ptok) (x : node) (c' : except_status) : Prop :=
  match f with
  | F_stmt | F_compound_stmt | F_if_stmt | F_while_stmt | F_try_stmt | F_func_def | F_class_def | F_decorated | F_async_stmt =>
      forall s, stmt_of x = Some s -> back_stmt c l c' s
  | F_for_stmt | F_with_stmt => stmt_of x = plain_of x false /\ forall y s, plain_of x y = Some s -> back_plain c l c' y s
  | F_suite | F_func_body_suite => forall b, suite_of x = Some b -> faces l = suite_tokens b /\ suite_fits b /\ moves suite_note b c c'
  | F_elif_stmt => forall g, elif_of x = Some g -> (forall es, elifs_tokens (g es) = faces l ++ elifs_tokens es) /\
      (forall es, elifs_fit es -> elifs_fit (g es)) /\
      forall d, c = status d -> exists d', c' = status d' /\ forall es, elifs_note d (g es) = elifs_note d' es
  | F_except_stmt => forall g, handler_of x = Some g -> (forall hs, handlers_tokens (g hs) = faces l ++ handlers_tokens hs) /\
      (forall hs, handlers_fit hs -> handlers_fit (g hs)) /\ (forall hs, g hs <> NoHandler) /\
      forall d, c = status d -> exists d', c' = status d' /\ forall hs, handlers_note d (g hs) = handlers_note d' hs
  | F_else_stmt | F_finally_stmt =>
      forall o, clause_of (Some x) = Some o -> faces l = clause_tokens (word_of f) o /\ clause_fits o /\ moves clause_note o c c' /\ o <> Absent
  | F_except_clause => exists a b t m w, x = ExceptClauseStmt a b t m w /\ forall wt, what_of w = Some wt ->
      faces l ++ [mark PyColon] = except_head (is_some m) wt /\ what_fits wt /\
      (forall d, c = status d -> agrees d (is_some m) = true) /\ c' = status (Some (is_some m))
  | _ => True
  end.
Definition Back_opt (f : fn) (c : except_status) (l : list ptok) (o : option node) (c' : except_status) : Prop :=
  match f with
  | F_else_stmt | F_finally_stmt =>
      forall r, clause_of o = Some r -> faces l = clause_tokens (word_of f) r /\ clause_fits r /\ moves clause_note r c c' /\ (o <> None -> r <> Absent)
  | _ => True
  end.
Definition Back_many (f : fn) (c : except_status) (l : list ptok) (xs : list node) (c' : except_status) : Prop :=
  match f with
  | F_stmt => forall ss, opts stmt_of xs = Some ss -> faces l = flat_map stmt_tokens ss /\ Forall stmt_fits ss /\ moves module_note ss c c'
  | F_elif_stmt => forall gs, opts elif_of xs = Some gs -> let es := fold_right (fun g es => g es) NoElif gs in
      faces l = elifs_tokens es /\ elifs_fit es /\ moves elifs_note es c c'
  | F_except_stmt => forall gs, opts handler_of xs = Some gs -> let hs := fold_right (fun g hs => g hs) NoHandler gs in
      faces l = handlers_tokens hs /\ handlers_fit hs /\ moves handlers_note hs c c' /\ (xs <> [] -> hs <> NoHandler)
  | _ => True
  end.

Lemma block_back : forall ss b, block_of ss = Some b -> Forall stmt_fits ss ->
  block_tokens b = flat_map stmt_tokens ss /\ block_fits b /\ forall c, block_note c b = module_note c ss.
Proof.
  induction ss as [|s ss IH]; intros b R F; [discriminate R|]. inversion F as [|? ? F1 F2]; subst. destruct ss as [|s2 ss].
  - injection R as <-. cbn. rewrite app_nil_r. repeat split; auto. intros c. destruct (stmt_note c s); reflexivity.
  - cbn [block_of] in R. apply map_some in R as (b' & R & ->). destruct (IH b' R F2) as (T & FB & N). cbn [block_tokens block_fits block_note].
    split; [rewrite T; reflexivity|]. split; [auto|]. intros c. cbn [module_note] in N |- *. destruct (stmt_note c s); [apply N|reflexivity].
Qed.
Lemma opts_of_rev : forall A B (r : A -> option B) xs ss, opts r (rev xs) = Some ss -> opts r xs = Some (rev ss).
Proof.
  intros A B r xs ss H. rewrite <- (rev_involutive xs). revert ss H. generalize (rev xs) as ys.
  assert (AP : forall ys zs us vs, opts r ys = Some us -> opts r zs = Some vs -> opts r (ys ++ zs) = Some (us ++ vs)).
  { induction ys as [|y ys IH]; intros zs us vs H1 H2; [injection H1 as <-; assumption|]. apply opts_inv in H1 as (u & us' & -> & R & H1).
    cbn [app]. rewrite opts_cons, R, (IH _ _ _ H1 H2). reflexivity. }
  induction ys as [|y ys IH]; intros ss H; [injection H as <-; reflexivity|]. apply opts_inv in H as (u & us & -> & R & H). cbn [rev]. apply AP; [auto|].
  cbn. rewrite R. reflexivity.
Qed.
Lemma fold_rev : forall A (gs : list (A -> A)) z, fold_left (fun e f => f e) gs z = fold_right (fun g e => g e) z (rev gs).
Proof. intros A gs z. rewrite <- fold_left_rev_right. reflexivity. Qed.

Lemma moves_then : forall A B C (n1 : option bool -> A -> option (option bool)) (n2 : option bool -> B -> option (option bool)) (n : option bool -> C -> option (option bool))
  a b x c c1 c', moves n1 a c c1 -> moves n2 b c1 c' -> (forall d, n d x = andthen (n1 d a) (fun d => n2 d b)) -> moves n x c c'.
Proof.
  intros A B C n1 n2 n a b x c c1 c' M1 M2 EQ d D. destruct (M1 d D) as (d1 & N1 & D1). destruct (M2 d1 D1) as (d2 & N2 & D2). exists d2.
  rewrite EQ, N1. auto.
Qed.
Lemma moves_same : forall A B (n : option bool -> A -> option (option bool)) (m : option bool -> B -> option (option bool)) a b c c',
  moves n a c c' -> (forall d, m d b = n d a) -> moves m b c c'.
Proof. intros A B n m a b c c' M EQ d D. rewrite EQ. apply M, D. Qed.
Lemma elifs_one : forall c l x c', Back F_elif_stmt c l x c' -> forall c2 l2 xs, Back_many F_elif_stmt c' l2 xs c2 -> Back_many F_elif_stmt c (l ++ l2) (x :: xs) c2.
Proof.
  intros c l x c' H c2 l2 xs HM gs O. apply opts_inv in O as (g & gs' & -> & R & O). destruct (H g R) as (T & FI & M). destruct (HM gs' O) as (T2 & FI2 & M2).
  cbn [fold_right] in *. rewrite T, faces_join, T2. split; [reflexivity|]. split; [auto|]. intros d D. destruct (M d D) as (d1 & D1 & N1).
  destruct (M2 d1 D1) as (d2 & N2 & D2). exists d2. rewrite N1. auto.
Qed.
Lemma handlers_one : forall c l x c', Back F_except_stmt c l x c' -> forall c2 l2 xs, Back_many F_except_stmt c' l2 xs c2 -> Back_many F_except_stmt c (l ++ l2) (x :: xs) c2.
Proof.
  intros c l x c' H c2 l2 xs HM gs O. apply opts_inv in O as (g & gs' & -> & R & O). destruct (H g R) as (T & FI & NH & M). destruct (HM gs' O) as (T2 & FI2 & M2 & _).
  cbn [fold_right] in *. rewrite T, faces_join, T2. split; [reflexivity|]. split; [auto|]. split; [|auto]. intros d D. destruct (M d D) as (d1 & D1 & N1).
  destruct (M2 d1 D1) as (d2 & N2 & D2). exists d2. rewrite N1. auto.
Qed.
Lemma suite_block_back : forall c l xs c' b p t q u r v, Back_many F_stmt c l xs c' -> tk_kind t = T_Newline -> tk_kind u = T_Indent -> tk_kind v = T_Dedent ->
  match opts stmt_of (rev xs) with Some ss => option_map Block (block_of (rev ss)) | None => None end = Some b ->
  faces ((p, t) :: (q, u) :: l ++ [(r, v)]) = suite_tokens b /\ suite_fits b /\ moves suite_note b c c'.
Proof.
  intros c l xs c' b p t q u r v H KT KU KV R. destruct (opts stmt_of (rev xs)) as [ss|] eqn:O; [|discriminate R]. apply opts_of_rev in O.
  apply map_some in R as (b' & R & ->). destruct (H _ O) as (T & FI & M). destruct (block_back _ _ R FI) as (TB & FB & N).
  cbn [suite_tokens suite_fits]. rewrite !faces_step, faces_join, faces_step, T, TB, (face_mark T_Newline t), (face_mark T_Indent u), (face_mark T_Dedent v) by auto.
  split; [reflexivity|]. split; [exact FB|]. eapply moves_same; [exact M|]. intros d. cbn [suite_note]. apply N.
Qed.
Lemma simple_stmt_of : forall l la x, E F_simple_stmt l la x -> stmt_of x = option_map Simple (smalls_of x) /\ suite_of x = option_map Inline (smalls_of x).
Proof. intros l la x H. inversion H; subst; no_binary; rewrite stmt_of_compound; auto. Qed.
Lemma back_mutual :
  (forall f c l la x c', B f c l la x c' -> Back f c l x c') /\
  (forall f c l la o c', B_opt f c l la o c' -> Back_opt f c l o c') /\
  (forall f c l la xs c', B_many f c l la xs c' -> Back_many f c l xs c').
Proof.
  apply B_mutual.
  - intros c l la x c' _ IH. exact IH.
  - intros c l la x H N s R. destruct (simple_stmt_of _ _ _ H) as (Z & _). rewrite Z in R. apply map_some in R as (ss & R & ->).
    destruct (smalls_back _ _ _ _ H R) as (F & FI). split; [exact F|]. split; [split; [exact FI|eapply no_match_back; eauto]|]. intros d D. exists d. auto.
  - intros f c l la x c' IF _ IH s R. cbn [In] in IF.
    repeat (destruct IF as [<-|IF]; [first [exact (IH s R) | destruct IH as (Z & IH); rewrite Z in R; exact (IH false s R)]|]). destruct IF.
  - intros f c p t l la x c' KT IF _ IH s R. rewrite stmt_of_compound in R. cbn [compound_of] in R.
    assert (X : back_plain c l c' true s) by (destruct IF as [<-|[<-|[]]]; destruct IH as (_ & IH); exact (IH true s R)).
    destruct X as (T & FI & M). split; [|auto]. rewrite faces_step, (face_mark PyAsync t) by auto. exact T.
  - (* if *)
    intros c p t l1 a q u l2 b c1 l3 xs c2 l4 o c3 la KT HA KU _ IB _ IM _ IO _ s R. rewrite stmt_of_compound in R. cbn [compound_of] in R.
    apply bind2_some in R as (e & b' & RA & RB & R). apply map2_some in R as (fs & o' & RX & RO & ->). apply opts_of_rev in RX. rewrite fold_rev.
    destruct (test_back _ _ _ _ HA RA) as (F1 & FI1). destruct (IB _ RB) as (F2 & FI2 & M2). destruct (IM _ RX) as (F3 & FI3 & M3). destruct (IO _ RO) as (F4 & FI4 & M4 & _).
    split; [|split].
    + cbn [stmt_tokens]. unfold if_head. cbn [app]. rewrite faces_step, faces_join, faces_step, !faces_join, F1, F2, F3, F4, (face_mark PyIf t), (face_mark PyColon u) by auto.
      rewrite <- app_assoc. reflexivity.
    + cbn [stmt_fits]. auto.
    + intros d D. destruct (M2 d D) as (d1 & N1 & D1). destruct (M3 d1 D1) as (d2 & N2 & D2). destruct (M4 d2 D2) as (d3 & N3 & D3). exists d3.
      cbn [stmt_note]. rewrite N1. cbn [andthen]. rewrite N2. cbn [andthen]. auto.
  - (* elif *)
    intros c p t l1 a q u l2 b c' la KT HA KU _ IB g R. cbn [elif_of] in R. apply map2_some in R as (e & b' & RA & RB & ->).
    destruct (test_back _ _ _ _ HA RA) as (F1 & FI1). destruct (IB _ RB) as (F2 & FI2 & M2). split; [|split].
    + intros es. cbn [elifs_tokens]. unfold if_head. rewrite faces_step, faces_join, faces_step, F1, F2, (face_mark PyElif t), (face_mark PyColon u) by auto.
      cbn [app]. rewrite <- !app_assoc. reflexivity.
    + intros es H. cbn [elifs_fit]. auto.
    + intros d D. destruct (M2 d D) as (d1 & N1 & D1). exists d1. split; [exact D1|]. intros es. cbn [elifs_note]. rewrite N1. reflexivity.
  - (* else *)
    intros c p t q u l b c' la KT KU _ IB o R. cbn [clause_of] in R. apply map_some in R as (b' & RB & ->). destruct (IB _ RB) as (F2 & FI2 & M2).
    split; [|split; [|split]].
    + cbn [clause_tokens word_of]. unfold word_head. rewrite !faces_step, F2, (face_mark PyElse t), (face_mark PyColon u) by auto. reflexivity.
    + exact FI2.
    + eapply moves_same; [exact M2|reflexivity].
    + discriminate.
  - (* while *)
    intros c p t l1 a q u l2 b c1 l3 o c2 la KT HA KU _ IB _ IO _ s R. rewrite stmt_of_compound in R. cbn [compound_of] in R.
    apply bind2_some in R as (e & b' & RA & RB & R). apply map_some in R as (o' & RO & ->).
    destruct (test_back _ _ _ _ HA RA) as (F1 & FI1). destruct (IB _ RB) as (F2 & FI2 & M2). destruct (IO _ RO) as (F4 & FI4 & M4 & _).
    split; [|split].
    + cbn [stmt_tokens]. unfold if_head. cbn [app]. rewrite faces_step, faces_join, faces_step, !faces_join, F1, F2, F4, (face_mark PyWhile t), (face_mark PyColon u) by auto.
      rewrite <- app_assoc. reflexivity.
    + cbn [stmt_fits]. auto.
    + eapply moves_then; [exact M2|exact M4|reflexivity].
  - (* for *)
    intros c p t l1 a q u l2 b r v l3 w l4 d c1 l5 o c2 la KT HA KU HB KV HW _ ID _ IO _. split; [rewrite stmt_of_compound; reflexivity|]. intros y s R. cbn [plain_of] in R.
    destruct w as [w|]; [discriminate R|]. inversion HW; subst. apply bind2_some in R as (ra & rb & RA & RB & R). apply map2_some in R as (d' & o' & RD & RO & ->).
    destruct (target_list_back _ _ _ _ HA RA) as (F1 & FI1 & _ & EN). destruct (test_list_back _ _ _ _ HB RB) as (F2 & FI2 & UN & CO).
    destruct (ID _ RD) as (F3 & FI3 & M3). destruct (IO _ RO) as (F4 & FI4 & M4 & _). split; [|split].
    + cbn [stmt_tokens]. unfold for_head. cbn [app]. rewrite faces_step, faces_join, faces_step, !faces_join, faces_step, !faces_join, F1, F2, F3, F4, (face_mark PyFor t), (face_mark PyIn u), (face_mark PyColon v) by auto.
      destruct y; cbn [if_true app]; rewrite <- !app_assoc; cbn [app]; rewrite <- !app_assoc; reflexivity.
    + cbn [stmt_fits]. split; [split; [exact FI1|apply EN; exists u; split; [reflexivity|left; auto]]|]. split; [|auto]. split; [exact FI2|]. split; [exact UN|].
      destruct (ls_comma rb); [|reflexivity]. destruct (CO eq_refl) as (v' & E1 & J). injection E1 as <-. rewrite KV in J. cbn in J. intuition discriminate.
    + eapply moves_then; [exact M3|exact M4|reflexivity].
  - (* try finally *)
    intros c p t q u l1 a c1 l2 b c2 la KT KU _ IA _ IB s R. rewrite stmt_of_compound in R. cbn [compound_of] in R. apply bind2_some in R as (a' & fs & RA & RF & R).
    injection RF as <-. apply map2_some in R as (o' & f' & RO & RB & ->). injection RO as <-. cbn [fold_left].
    destruct (IA _ RA) as (F1 & FI1 & M1). destruct (IB _ RB) as (F2 & FI2 & M2 & NA). split; [|split].
    + cbn [stmt_tokens]. unfold word_head. cbn [app handlers_tokens clause_tokens]. rewrite !faces_step, faces_join, F1, F2, (face_mark PyTry t), (face_mark PyColon u) by auto. reflexivity.
    + cbn [stmt_fits]. repeat split; auto.
    + intros d _. destruct (M1 None eq_refl) as (d1 & N1 & D1). destruct (M2 d1 D1) as (d2 & N2 & D2). exists d2. cbn [stmt_note handlers_note]. rewrite N1. cbn. auto.
  - (* try *)
    intros c p t q u l1 a c1 l2 xs c2 l3 o3 c3 l4 o4 c4 la KT KU _ IA _ IH NE _ IO _ IF _ s R. rewrite stmt_of_compound in R. cbn [compound_of] in R.
    apply bind2_some in R as (a' & fs & RA & RF & R). apply map2_some in R as (o' & f' & RO & RB & ->). apply opts_of_rev in RF. rewrite fold_rev.
    destruct (IA _ RA) as (F1 & FI1 & M1). destruct (IH _ RF) as (F2 & FI2 & M2 & NH). destruct (IO _ RO) as (F3 & FI3 & M3 & _). destruct (IF _ RB) as (F4 & FI4 & M4 & _).
    split; [|split].
    + cbn [stmt_tokens]. unfold word_head. cbn [app]. rewrite !faces_step, !faces_join, F1, F2, F3, F4, (face_mark PyTry t), (face_mark PyColon u) by auto. reflexivity.
    + cbn [stmt_fits]. split; [exact FI1|]. split; [exact FI2|]. split; [exact FI3|]. split; [exact FI4|]. intros Z. destruct (NH NE Z).
    + intros d _. destruct (M1 None eq_refl) as (d1 & N1 & D1). destruct (M2 d1 D1) as (d2 & N2 & D2). destruct (M3 d2 D2) as (d3 & N3 & D3).
      destruct (M4 d3 D3) as (d4 & N4 & D4). exists d4. cbn [stmt_note]. rewrite N1. cbn [andthen]. rewrite N2. cbn [andthen]. rewrite N3. cbn [andthen]. auto.
  - (* finally *)
    intros c p t q u l b c' la KT KU _ IB o R. cbn [clause_of] in R. apply map_some in R as (b' & RB & ->). destruct (IB _ RB) as (F2 & FI2 & M2).
    split; [|split; [|split]].
    + cbn [clause_tokens word_of]. unfold word_head. rewrite !faces_step, F2, (face_mark PyFinally t), (face_mark PyColon u) by auto. reflexivity.
    + exact FI2.
    + eapply moves_same; [exact M2|reflexivity].
    + discriminate.
  - (* except *)
    intros c l1 a c1 q u l2 b c' la _ IA KU _ IB g R. destruct IA as (a1 & a2 & t & m & w & -> & IA). cbn [handler_of] in R. apply map2_some in R as (wt & b' & RW & RB & ->).
    replace (match m with Some _ => true | None => false end) with (is_some m) by reflexivity.
    destruct (IA _ RW) as (F1 & FI1 & AG & ->). destruct (IB _ RB) as (F2 & FI2 & M2). split; [|split; [|split]].
    + intros hs. cbn [handlers_tokens]. rewrite <- F1, faces_join, faces_step, F2, (face_mark PyColon u) by auto. rewrite <- !app_assoc. reflexivity.
    + intros hs H. cbn [handlers_fit]. auto.
    + discriminate.
    + intros d D. specialize (AG d D). destruct (M2 _ eq_refl) as (d2 & N2 & D2). exists d2. split; [exact D2|]. intros hs. cbn [handlers_note].
      fold (agrees d (is_some m)). rewrite AG, N2. reflexivity.
  - (* except clause *)
    intros c p t l1 m c' l2 w la KT OM ST HW. cbn [Back]. exists p, (fst la), t, m, w. split; [reflexivity|]. intros wt RW. destruct (what_back _ _ _ _ HW RW) as (F & FI).
    split; [|split; [exact FI|]].
    + unfold except_head. rewrite faces_step, faces_join, F, (face_mark PyExcept t) by auto. inversion OM; subst; cbn [is_some if_true app].
      * reflexivity.
      * rewrite !faces_step, (face_mark PyMul t0) by auto. reflexivity.
    + inversion ST; subst.
      * split; [|destruct (is_some m); reflexivity]. intros [[]|] D; try discriminate D. reflexivity.
      * split; [|destruct (is_some m); reflexivity]. intros [[]|] D; destruct (is_some m); try discriminate D; reflexivity.
  - (* with *)
    intros c p t l1 a xs ts b q u l2 x c' la KT HW KU _ IX. split; [rewrite stmt_of_compound; reflexivity|]. intros y s R. cbn [plain_of] in R.
    destruct (suite_of x) as [d|] eqn:RX; [|destruct (opts part_of (rev (rev xs))); discriminate R].
    destruct (with_back y l1 (q, Some u) a xs ts b s d p t KT HW) as (br & i & is & -> & F & FI & NB); [eauto|exact R|].
    destruct (IX _ RX) as (F2 & FI2 & M2). split; [|split].
    + cbn [stmt_tokens]. rewrite <- F. change ((p, t) :: l1 ++ (q, u) :: l2) with (((p, t) :: l1) ++ (q, u) :: l2). rewrite (faces_join ((p, t) :: l1)), (faces_step q), F2, (face_mark PyColon u) by auto. rewrite <- !app_assoc. reflexivity.
    + cbn [stmt_fits]. auto.
    + eapply moves_same; [exact M2|reflexivity].
  - (* suite *)
    intros c l la x H b R. destruct (simple_stmt_of _ _ _ H) as (_ & Z). rewrite Z in R. apply map_some in R as (ss & R & ->).
    destruct (smalls_back _ _ _ _ H R) as (F & FI). split; [exact F|]. split; [exact FI|]. intros d D. exists d. auto.
  - intros c p t q u l xs c' r v la KT KU _ IH _ KV b R. cbn [suite_of] in R. eapply suite_block_back; eauto.
  - (* decorated *)
    intros f c l1 a l2 b c' la _ _ _ _ s R. discriminate R.
  - intros. exact I.
  - (* def *)
    intros c p t q u l1 a l2 w r v l3 tc l4 b c' la KT KU HP HW KV HT _ IB s R. rewrite stmt_of_compound in R. cbn [compound_of] in R.
    inversion HP; subst; [discriminate R|]. inversion H; subst; no_binary. destruct tc as [tc|]; [discriminate R|]. inversion HT; subst.
    apply map2_some in R as (o & b' & RW & RB & ->). destruct (returns_back _ _ _ _ HW RW) as (F1 & FI1). destruct (IB _ RB) as (F2 & FI2 & M2). split; [|split].
    + cbn [stmt_tokens]. unfold def_head. cbn [app]. rewrite !faces_step, faces_join, faces_step, F1, F2, (face_mark PyDef t), (name_face u), (face_mark PyLeftParen t0), (face_mark PyRightParen u0), (face_mark PyColon v) by auto.
      rewrite <- !app_assoc. reflexivity.
    + cbn [stmt_fits]. auto.
    + eapply moves_same; [exact M2|reflexivity].
  - intros c l la x H b R. destruct (simple_stmt_of _ _ _ H) as (_ & Z). rewrite Z in R. apply map_some in R as (ss & R & ->).
    destruct (smalls_back _ _ _ _ H R) as (F & FI). split; [exact F|]. split; [exact FI|]. intros d D. exists d. auto.
  - intros c p t l1 a b q u l2 xs c' r v la KT HC KU _ IH _ KV b' R. cbn [suite_of] in R. destruct a as [a|]; [discriminate R|]. destruct b as [b|]; [discriminate R|].
    inversion HC; subst. cbn [app]. eapply suite_block_back; eauto.
  - (* class *)
    intros c p t q u l1 a o b r v l2 x c' la KT KU HB KV _ IX s R. rewrite stmt_of_compound in R. cbn [compound_of] in R.
    apply map2_some in R as (bs & d & RB & RX & ->). destruct (bases_back _ _ _ _ _ HB RB) as (F1 & FI1). destruct (IX _ RX) as (F2 & FI2 & M2). split; [|split].
    + cbn [stmt_tokens]. unfold class_head. cbn [app]. rewrite !faces_step, faces_join, faces_step, F1, F2, (face_mark PyClass t), (name_face u), (face_mark PyColon v) by auto.
      rewrite <- !app_assoc. reflexivity.
    + cbn [stmt_fits]. auto.
    + eapply moves_same; [exact M2|reflexivity].
  - (* opt *)
    intros f c la. destruct f; try exact I; intros r R; injection R as <-; cbn; repeat split; auto; intros d D; exists d; auto.
  - intros f c l la x c' _ IH. destruct f; try exact I; intros r R; destruct (IH r R) as (F & FI & M & N); auto.
  - (* many *)
    intros f c la. destruct f; try exact I; intros ss O; apply opts_nil_inv in O as ->; cbn; repeat split; auto; try congruence; intros d D; exists d; auto.
  - intros f c l1 x c1 l2 xs c' la _ IH _ IM. destruct f; try exact I.
    + intros ss O. apply opts_inv in O as (s & ss' & -> & R & O). destruct (IH s R) as (F1 & FI1 & M1). destruct (IM ss' O) as (F2 & FI2 & M2).
      cbn [flat_map]. rewrite faces_join, F1, F2. split; [reflexivity|]. split; [auto|]. eapply moves_then; [exact M1|exact M2|reflexivity].
    + eapply elifs_one; eauto.
    + eapply handlers_one; eauto.
Qed.
