(** Soundness of the expression functions. *)
From Coq Require Import List Arith Lia.
From Verif Require Import Chars SourceBuffer Token Tokenizer Node ParserState Expressions GrammarSpec
  ParseBasics SoundBasics.
Import ListNotations.

Section SoundExpr.
Variable U : unicode.
Variable n : nat.
Variable rec : fn -> M node.
Hypothesis IH : good U rec.

(** An optional phrase, absent before the tokens [ks]. *)
Lemma opt_sound : forall (e : M (option node)) f ks s o s',
  sort_of f = Plain ->
  on_symbol e (fun t => if is_one_of ks t then ret None else do r <- rec f; ret (Some r)) s = Ok o s' ->
  (forall x s1, e s = Ok x s1 -> False) ->
  exists t, ps_symbol s = inl t /\ (o = None <-> In (tk_kind t) ks) /\ (o = None -> s' = s) /\
  exists l, reads U s l s' /\ ps_except s' = ps_except s /\ E_opt f l (view s') o.
Proof.
  intros e f ks s o s' So H Ne. apply on_symbol_ok in H.
  destruct H as [(t & S & H)|(er & _ & H)]; [|exfalso; eauto].
  exists t. split; auto. mstep IH H.
  - minv IH H. split; [tauto|]. split; auto. exists []. split; [chain|]. split; auto. constructor.
  - apply bind_ok in H. destruct H as (x & s1 & R & H). apply ret_ok in H. destruct H; subst.
    apply IH in R. unfold sound in R. rewrite So in R. destruct R as (l & R & X & G).
    split; [split; [discriminate|tauto]|]. split; [discriminate|]. exists l. split; auto. split; auto. constructor. auto.
Qed.
Lemma opt_sound1 : forall (e : M (option node)) f k s o s',
  sort_of f = Plain ->
  on_symbol e (fun t => if is k t then ret None else do r <- rec f; ret (Some r)) s = Ok o s' ->
  (forall x s1, e s = Ok x s1 -> False) ->
  exists t, ps_symbol s = inl t /\ (o = None <-> tk_kind t = k) /\ (o = None -> s' = s) /\
  exists l, reads U s l s' /\ ps_except s' = ps_except s /\ E_opt f l (view s') o.
Proof.
  intros e f k s o s' So H Ne.
  destruct (opt_sound e f [k] s o s') as (t & S & D & Z & L); auto.
  - unfold on_symbol in *. destruct (ps_symbol s); auto.
    unfold is_one_of. cbn [existsb]. rewrite Bool.orb_false_r. exact H.
  - exists t. split; auto. split; auto. rewrite D. cbn. intuition congruence.
Qed.

Ltac opt_part M :=
  let t := fresh "t" in let S := fresh "S" in let D := fresh "D" in let Z := fresh "Z" in
  let l := fresh "l" in let R := fresh "R" in let X := fresh "X" in let G := fresh "G" in
  first [apply opt_sound1 in M | apply opt_sound in M]; [|reflexivity|discriminate];
  destruct M as (t & S & D & Z & l & R & X & G).

Lemma strings_loop : forall s0 s lst s' t0 , ps_symbol s0 = inl t0 -> advance U s0 = Ok tt s ->
  while_ n (atom_string_step U) [t0] s = Ok lst s' ->
  exists l, reads U s0 ((pos s0, t0) :: l) s' /\ ps_except s' = ps_except s0 /\ lst = t0 :: map snd l /\
    Forall (fun x => tk_kind (snd x) = T_AtomString) l /\ differs [T_AtomString] (view s').
Proof.
  intros s0 s lst s' t0 S A W.
  set (P := fun lst s' => exists l, reads U s0 ((pos s0, t0) :: l) s' /\ ps_except s' = ps_except s0 /\
    lst = t0 :: map snd l /\ Forall (fun x : ptok => tk_kind (snd x) = T_AtomString) l).
  set (Q := fun lst s' => exists l, reads U s0 ((pos s0, t0) :: l) s' /\ ps_except s' = ps_except s0 /\
    lst = t0 :: map snd l /\ Forall (fun x : ptok => tk_kind (snd x) = T_AtomString) l /\ differs [T_AtomString] (view s')).
  change (Q lst s'). refine (while_inv _ _ P Q _ n _ _ _ _ _ W).
  2: { exists []. split; [apply reads_one; auto|]. split; [eapply advance_except; eauto|]. split; auto. }
  clear W. intros a s1 b a' s2 (l & R & X & E1 & F) St. unfold atom_string_step in St.
  apply on_symbol_ok in St. destruct St as [(t & S1 & St)|(e & S1 & St)].
  - mstep IH St.
    + minv IH St. injection H as -> ->. exists (l ++ [(pos s1, t)]). split; [|split; [congruence|split]].
      * change ((pos s0, t0) :: l ++ [(pos s1, t)]) with (((pos s0, t0) :: l) ++ [(pos s1, t)]).
        eapply reads_app; eauto.
      * rewrite map_app. subst. reflexivity.
      * apply Forall_app. split; auto.
    + apply ret_ok in St. destruct St as [E2 ->]. injection E2 as -> ->. exists l. repeat split; auto.
      intros u V I. apply view_token in V. rewrite S1 in V. injection V as <-. cbn in I. intuition.
  - apply ret_ok in St. destruct St as [E2 ->]. injection E2 as -> ->. exists l. repeat split; auto.
    intros u V. apply view_token in V. congruence.
Qed.

Lemma sound_atom : forall s x s', p_atom U n rec s = Ok x s' -> sound_plain U F_atom s x s'.
Proof.
  unfold p_atom. intros s x s' H. mstep IH H. mstep IH H.
  mstep IH H. { minv IH H. by_rule (E_constant AtomElipsis). }
  mstep IH H. { minv IH H. by_rule (E_constant AtomFalse). }
  mstep IH H. { minv IH H. by_rule (E_constant AtomNone). }
  mstep IH H. { minv IH H. by_rule (E_constant AtomTrue). }
  mstep IH H. { minv IH H. by_rule (E_constant AtomName). }
  mstep IH H. { minv IH H. by_rule (E_constant AtomNumber). }
  mstep IH H.
  { minv IH H. destruct (strings_loop _ _ _ _ _ S A M) as (l & R1 & X1 & -> & F & D).
    exists ((pos s, t) :: l). split; [exact R1|]. split; auto. constructor; auto. }
  mstep IH H.
  { mstep IH H. mstep IH H. mstep IH M. mstep IH M.
    - mstep IH M. mstep IH M. minv IH H. by_rule (E_tuple F_yield_expr).
    - mstep IH M.
      + mstep IH M. minv IH H. by_rule E_tuple_empty.
      + mstep IH M. mstep IH M. minv IH H. by_rule (E_tuple F_testlist_comp). }
  mstep IH H.
  { mstep IH H. mstep IH H. mstep IH M. mstep IH M.
    - mstep IH M. minv IH H. by_rule E_list_empty.
    - mstep IH M. mstep IH M. minv IH H. by_rule E_list. }
  mstep IH H; [|discriminate H].
  mstep IH H. mstep IH H. mstep IH M. mstep IH M.
  { mstep IH M. minv IH H. }
  mstep IH M. mstep IH M. mstep IH H. mstep IH H; [|discriminate H]. mstep IH H.
  assert (C : (exists a b ns ts, x1 = DictionaryContainer a b ns ts) \/ (exists a b ns ts, x1 = SetContainer a b ns ts)).
  { inversion G; subst; try discriminate; eauto 10. }
  destruct C as [(a & b & ns & ts & ->)|(a & b & ns & ts & ->)]; minv IH H.
  - by_rule E_dictionary.
  - by_rule E_set.
Qed.

(** Trailers, decorators: a loop over phrases while the next token is one of [ks]. *)
Lemma trailers_loop : forall s0 s l0 lst s', reads U s0 l0 s -> ps_except s = ps_except s0 ->
  while_ n (atom_expr_step rec) [] s = Ok lst s' ->
  exists l, reads U s l s' /\ ps_except s' = ps_except s0 /\ E_many F_trailer l (view s') lst /\
    differs [PyLeftParen; PyLeftBracket; PyDot] (view s').
Proof.
  intros s0 s l0 lst s' R0 X0 W.
  set (P := fun lst s' => exists l, reads U s l s' /\ ps_except s' = ps_except s0 /\ E_many F_trailer l (view s') lst).
  set (Q := fun lst s' => exists l, reads U s l s' /\ ps_except s' = ps_except s0 /\ E_many F_trailer l (view s') lst /\
    differs [PyLeftParen; PyLeftBracket; PyDot] (view s')).
  change (Q lst s'). refine (while_inv _ _ P Q _ n _ _ _ _ _ W).
  2: { exists []. split; [apply reads_refl|]. split; auto. constructor. }
  clear W. intros a s1 b a' s2 (l & R & X & E1) St. unfold atom_expr_step in St.
  apply on_symbol_ok in St. destruct St as [(t & S1 & St)|(e & S1 & St)].
  - mstep IH St.
    + minv IH St. injection H as -> ->. exists (l ++ l1). split; [|split; [congruence|]].
      * eapply reads_app; eauto.
      * eapply many_snoc; eauto. side.
    + apply ret_ok in St. destruct St as [E2 ->]. injection E2 as -> ->. exists l. repeat split; auto.
      intros u V I. apply view_token in V. rewrite S1 in V. injection V as <-. auto.
  - apply ret_ok in St. destruct St as [E2 ->]. injection E2 as -> ->. exists l. repeat split; auto.
    intros u V. apply view_token in V. congruence.
Qed.

Lemma sound_atom_expr : forall s x s', p_atom_expr U n rec s = Ok x s' -> sound_plain U F_atom_expr s x s'.
Proof.
  unfold p_atom_expr. intros s x s' H. mstep IH H. mstep IH H. mstep IH M.
  mstep IH M; minv IH M; mstep IH H; mstep IH H.
  - destruct (trailers_loop _ _ _ _ _ R0 X0 M) as (l1 & R1 & X1 & Mn & D). minv IH H.
    by_rule E_atom_expr_await.
  - destruct (trailers_loop _ _ _ _ _ R X M) as (l1 & R1 & X1 & Mn & D).
    destruct x1 as [|y ys]; minv IH H.
    + inversion Mn; subst. inversion R1; subst.
      exists l. split; [eapply reads_core_r; eauto|]. split; auto. constructor; auto.
      rewrite <- (view_core _ _ H H0). exact G.
    + assert (y :: ys <> []) by discriminate. by_rule E_atom_expr_trailers.
Qed.

Lemma sound_power : forall s x s', p_power U rec s = Ok x s' -> sound_plain U F_power s x s'.
Proof.
  unfold p_power. intros s x s' H. minv IH H.
  - by_rule E_power.
  - by_rule E_power_base.
Qed.

Lemma sound_factor : forall s x s', p_factor U rec s = Ok x s' -> sound_plain U F_factor s x s'.
Proof.
  unfold p_factor. intros s x s' H. minv IH H.
  - by_rule (E_unary UnaryPlus).
  - by_rule (E_unary UnaryMinus).
  - by_rule (E_unary UnaryInvert).
  - use_rec IH H. by_rule E_factor_power.
Qed.

(** Chains of binary operators. *)
Definition chain_turn (f g : fn) (step : nat -> node -> M (bool * node)) : Prop :=
  forall s0 l a s r s', reads U s0 l s -> E_chain f l (view s) a -> step (pos s0) a s = Ok r s' ->
  (fst r = true /\ exists l2, reads U s l2 s' /\ ps_except s' = ps_except s /\ E_chain f (l ++ l2) (view s') (snd r)) \/
  (fst r = false /\ snd r = a /\ s' = s /\ stops (continues f) (view s)).

Lemma chain_loop : forall f g ops step, binary f = Some (g, ops) -> chain_turn f g step ->
  forall s0 l a s x s', reads U s0 l s -> ps_except s = ps_except s0 -> E g l (view s) a ->
  while_ n (step (pos s0)) a s = Ok x s' -> sound_plain U f s0 x s'.
Proof.
  intros f g ops step Bi T s0 l a s x s' R X G W.
  set (P := fun x s' => exists l, reads U s0 l s' /\ ps_except s' = ps_except s0 /\ E_chain f l (view s') x).
  set (Q := sound_plain U f s0).
  change (Q x s'). refine (while_inv _ _ P Q _ n _ _ _ _ _ W).
  2: { exists l. split; auto. split; auto. econstructor; eauto. }
  intros a1 s1 b a' s2 (l1 & R1 & X1 & C1) St.
  destruct (T _ _ _ _ _ _ R1 C1 St) as [(E1 & l2 & R2 & X2 & C2)|(E1 & E2 & E3 & Sp)]; cbn in E1; subst b.
  - exists (l1 ++ l2). split; [eapply reads_app; eauto|]. split; auto. congruence.
  - cbn in E2. subst. exists l1. split; auto. split; auto. eapply E_binary; eauto.
Qed.

Ltac stop_turn := right; repeat split; auto; side.
Ltac turn_by tac :=
  left; split; [reflexivity|]; eexists; split; [chain|split; [congruence|]]; cbn [app fst snd];
  (let H := fresh in
   match goal with |- E_chain ?f ?l ?la ?x =>
     assert (H : exists y, E_chain f l la y /\ y = x);
       [eexists; split; [tac; side|side]
       |destruct H as (? & H & ?); subst; exact H] end).
Ltac op_turn C := turn_by ltac:(eapply chain_operator with (c := C)).

Lemma turn_term : chain_turn F_term F_factor (term_step U rec).
Proof.
  intros s0 l a s r s' R C H. unfold term_step in H. minv IH H.
  - op_turn MulTerm.
  - op_turn DivTerm.
  - op_turn FloorDivTerm.
  - op_turn ModuloTerm.
  - op_turn MatriceTerm.
  - stop_turn.
Qed.
Lemma turn_arith : chain_turn F_arith F_term (arith_step U rec).
Proof.
  intros s0 l a s r s' R C H. unfold arith_step in H. minv IH H.
  - op_turn PlusArithExpr.
  - op_turn MinusArithExpr.
  - stop_turn.
Qed.
Lemma turn_shift : chain_turn F_shift F_arith (shift_step U rec).
Proof.
  intros s0 l a s r s' R C H. unfold shift_step in H. minv IH H.
  - op_turn ShiftLeftExpr.
  - op_turn ShiftRightExpr.
  - stop_turn.
Qed.
Lemma turn_and_expr : chain_turn F_and_expr F_shift (and_expr_step U rec).
Proof.
  intros s0 l a s r s' R C H. unfold and_expr_step in H. minv IH H; [op_turn AndExpr|stop_turn].
Qed.
Lemma turn_xor_expr : chain_turn F_xor_expr F_and_expr (xor_expr_step U rec).
Proof.
  intros s0 l a s r s' R C H. unfold xor_expr_step in H. minv IH H; [op_turn XorExpr|stop_turn].
Qed.
Lemma turn_expr : chain_turn F_expr F_xor_expr (expr_step U rec).
Proof.
  intros s0 l a s r s' R C H. unfold expr_step in H. minv IH H; [op_turn Expr|stop_turn].
Qed.
Lemma turn_and_test : chain_turn F_and_test F_not_test (and_test_step U rec).
Proof.
  intros s0 l a s r s' R C H. unfold and_test_step in H. minv IH H; [op_turn AndTest|stop_turn].
Qed.
Lemma turn_or_test : chain_turn F_or_test F_and_test (or_test_step U rec).
Proof.
  intros s0 l a s r s' R C H. unfold or_test_step in H. minv IH H; [op_turn OrTest|stop_turn].
Qed.
Lemma turn_comparison : chain_turn F_comparison F_expr (comparison_step U rec).
Proof.
  intros s0 l a s r s' R C H. unfold comparison_step in H. minv IH H.
  - op_turn LessComparison.
  - op_turn LessEqualComparison.
  - op_turn EqualComparison.
  - op_turn GreaterEqualComparison.
  - op_turn GreaterComparison.
  - op_turn NotEqualComparison.
  - op_turn InComparison.
  - turn_by ltac:(eapply chain_is_not).
  - op_turn IsComparison.
  - turn_by ltac:(eapply chain_not_in).
  - stop_turn.
Qed.

Ltac by_chain T := intros s x s' H; mstep IH H; mstep IH H; eapply chain_loop; eauto using T; reflexivity.
Lemma sound_term : forall s x s', p_term U n rec s = Ok x s' -> sound_plain U F_term s x s'.
Proof. unfold p_term. by_chain turn_term. Qed.
Lemma sound_arith : forall s x s', p_arith U n rec s = Ok x s' -> sound_plain U F_arith s x s'.
Proof. unfold p_arith. by_chain turn_arith. Qed.
Lemma sound_shift : forall s x s', p_shift U n rec s = Ok x s' -> sound_plain U F_shift s x s'.
Proof. unfold p_shift. by_chain turn_shift. Qed.
Lemma sound_and_expr : forall s x s', p_and_expr U n rec s = Ok x s' -> sound_plain U F_and_expr s x s'.
Proof. unfold p_and_expr. by_chain turn_and_expr. Qed.
Lemma sound_xor_expr : forall s x s', p_xor_expr U n rec s = Ok x s' -> sound_plain U F_xor_expr s x s'.
Proof. unfold p_xor_expr. by_chain turn_xor_expr. Qed.
Lemma sound_expr : forall s x s', p_expr U n rec s = Ok x s' -> sound_plain U F_expr s x s'.
Proof. unfold p_expr. by_chain turn_expr. Qed.
Lemma sound_comparison : forall s x s', p_comparison U n rec s = Ok x s' -> sound_plain U F_comparison s x s'.
Proof. unfold p_comparison. by_chain turn_comparison. Qed.
Lemma sound_and_test : forall s x s', p_and_test U n rec s = Ok x s' -> sound_plain U F_and_test s x s'.
Proof. unfold p_and_test. by_chain turn_and_test. Qed.
Lemma sound_or_test : forall s x s', p_or_test U n rec s = Ok x s' -> sound_plain U F_or_test s x s'.
Proof. unfold p_or_test. by_chain turn_or_test. Qed.

Lemma sound_star_expr : forall s x s', p_star_expr U rec s = Ok x s' -> sound_plain U F_star_expr s x s'.
Proof. unfold p_star_expr. intros s x s' H. minv IH H. by_rule E_star_expr. Qed.

Lemma sound_not_test : forall s x s', p_not_test U rec s = Ok x s' -> sound_plain U F_not_test s x s'.
Proof.
  unfold p_not_test. intros s x s' H. minv IH H.
  - by_rule E_not.
  - use_rec IH H. by_rule E_not_comparison.
Qed.

Lemma sound_lambda_def : forall c s x s', p_lambda_def U rec c s = Ok x s' -> sound_plain U (F_lambda_def c) s x s'.
Proof.
  unfold p_lambda_def. intros c s x s' H. mstep IH H. mstep IH H. mstep IH H. mstep IH H.
  opt_part M. destruct c; minv IH H; by_rule E_lambda.
Qed.

Lemma plain_first : forall f l s s' x t, reads U s l s' -> E f l (view s') x -> ps_symbol s = inl t ->
  l <> [] -> exists l', l = (pos s, t) :: l'.
Proof.
  intros f l s s' x t R G S N. inversion R; subst; [congruence|].
  assert (t0 = t) by congruence. subst. eauto.
Qed.

Lemma sound_no_cond_test : forall s x s', p_no_cond_test rec s = Ok x s' -> sound_plain U F_no_cond_test s x s'.
Proof.
  unfold p_no_cond_test. intros s x s' H. minv IH H; use_rec IH H.
  - assert (N : l <> []) by (intros ->; inversion G; discriminate).
    destruct (plain_first _ _ _ _ _ _ R G S N) as (l' & ->). by_rule E_nocond_lambda.
  - by_rule E_nocond_or.
Qed.

Lemma sound_test : forall s x s', p_test U rec s = Ok x s' -> sound_plain U F_test s x s'.
Proof.
  unfold p_test. intros s x s' H. mstep IH H. mstep IH H. mstep IH H.
  - use_rec IH H.
    assert (N : l <> []) by (intros ->; inversion G; discriminate).
    destruct (plain_first _ _ _ _ _ _ R G S N) as (l' & ->). by_rule E_test_lambda.
  - minv IH H.
    + by_rule E_test_if.
    + by_rule E_test_or.
Qed.

Lemma sound_named_expression : forall s x s', p_named_expression U rec s = Ok x s' -> sound_plain U F_named_expression s x s'.
Proof.
  unfold p_named_expression. intros s x s' H. minv IH H.
  - by_rule E_named.
  - by_rule E_named_test.
Qed.

(** ** Lists *)
(** Element of a list: star expression or the given phrase. *)
Lemma sound_star_or_named : forall s x s', star_or_named rec s = Ok x s' ->
  exists f l, In f [F_star_expr; F_named_expression] /\ reads U s l s' /\ ps_except s' = ps_except s /\ E f l (view s') x.
Proof.
  unfold star_or_named. intros s x s' H. minv IH H; use_rec IH H; do 2 eexists; repeat split; try eassumption; in_list.
Qed.

Ltac turn_done := left; repeat split; auto.
Ltac turn_item f :=
  right; split; [assumption|]; eexists; split; [eassumption|]; left; exists f; do 2 eexists;
  split; [in_list|]; split; [eassumption|]; split; [eassumption|]; split; [eassumption|reflexivity].
Ltac turn_stop :=
  right; split; [assumption|]; eexists; split; [eassumption|]; right; split; [side|]; split; [reflexivity|eauto].

Lemma turn_testlist_comp : list_turn U [F_star_expr; F_named_expression] PyComa [] (testlist_comp_step U rec).
Proof.
  intros ns ts s r s' H. unfold testlist_comp_step in H. mstep IH H. exists t. split; auto. mstep IH H.
  - mstep IH H. mstep IH H. apply sound_star_or_named in M. destruct M as (f & l & I & R1 & X1 & G).
    minv IH H. turn_item f.
  - minv IH H. turn_done.
Qed.

Lemma sound_testlist_comp : forall s x s', p_testlist_comp U n rec s = Ok x s' -> sound_plain U F_testlist_comp s x s'.
Proof.
  unfold p_testlist_comp. intros s x s' H. mstep IH H. mstep IH H. apply sound_star_or_named in M.
  destruct M as (f & l & I & R & X & G).
  mstep IH H. mstep IH M. mstep IH M.
  - minv IH M. minv IH H. by_rule (E_testlist_comp_for f).
  - mstep IH M.
    + destruct x1 as [ns ts].
      destruct (list_loop_plain _ _ _ _ turn_testlist_comp _ _ _ _ _ _ _ _ _ I R X G M) as (l2 & R2 & X2 & G2 & St & Z).
      clear R. minv IH H.
      match type of St with stops _ ?v =>
        assert (St' : stops (PyComa :: match ts with [] => [PyFor; PyAsync] | _ => [] end) v) end.
      { destruct ts as [|t1 ts]; [|exact St]. exfalso. rewrite (Z eq_refl) in St.
        destruct St as (u & V & N). apply view_token in V. rewrite S in V. injection V as <-. cbn in N. auto. }
      by_rule E_testlist_comp.
    + minv IH M. minv IH H.
      eexists. split; [chain|]. split; auto. eapply E_eq; [eapply E_testlist_comp|].
      eapply items_one; eauto. side. side.
Qed.

Lemma sound_trailer : forall s x s', p_trailer U rec s = Ok x s' -> sound_plain U F_trailer s x s'.
Proof.
  unfold p_trailer. intros s x s' H. mstep IH H. mstep IH H. mstep IH H.
  - mstep IH H. mstep IH H. opt_part M. minv IH H. by_rule E_call.
  - mstep IH H.
    + minv IH H. by_rule E_index.
    + minv IH H. by_rule E_dot.
Qed.

Lemma turn_subscript_list : list_turn U [F_subscript] PyComa [] (subscript_list_step U rec).
Proof.
  intros ns ts s r s' H. unfold subscript_list_step in H. mstep IH H. exists t. split; auto.
  minv IH H; [turn_item F_subscript|turn_done].
Qed.
Ltac plain_loop T f M :=
  let l2 := fresh "l" in let R2 := fresh "R" in let X2 := fresh "X" in let G2 := fresh "G" in
  let St := fresh "St" in let Z := fresh "Z" in
  match type of M with while_ _ _ ([?x], []) ?s = Ok (?ns, ?ts) ?s' =>
    match goal with R : reads U ?s0 ?l0 s, X : ps_except s = _, G : E f ?l0 (view s) x |- _ =>
      destruct (list_loop_plain U _ _ _ T f l0 x s0 s _ ns ts s' ltac:(in_list) R ltac:(congruence) G M)
        as (l2 & R2 & X2 & G2 & St & Z); clear R
    end end.

Lemma sound_subscript_list : forall s x s', p_subscript_list U n rec s = Ok x s' -> sound_plain U F_subscript_list s x s'.
Proof.
  unfold p_subscript_list. intros s x s' H. mstep IH H. mstep IH H. mstep IH H. destruct x1 as [ns ts].
  plain_loop turn_subscript_list F_subscript M. minv IH H. by_rule E_subscript_list.
Qed.

Lemma sound_subscript : forall s x s', p_subscript U rec s = Ok x s' -> sound_plain U F_subscript s x s'.
Proof.
  unfold p_subscript. intros s x s' H. mstep IH H. mstep IH H. opt_part M. mstep IH H.
  mstep IH M. mstep IH M.
  - mstep IH M. mstep IH M. opt_part M0. mstep IH M. cbv iota in M.
    mstep IH M. mstep IH M. opt_part M0. minv IH M. minv IH H.
    assert (C2 : x2 = None -> In (tk_kind t2) [PyRightBracket; PyColon]).
    { intros N. apply D0 in N as I. rewrite (Z0 N) in S2. congruence. }
    assert (C3 : x3 = None -> before [PyRightBracket; PyColon] (view s5)).
    { intros N. apply D1 in N as I. rewrite (Z1 N). side. }
    by_rule E_slice.
  - minv IH M. minv IH H. destruct x0 as [x0|].
    + inversion G; subst. by_rule E_subscript.
    + exfalso. apply K. rewrite (Z eq_refl) in S0. rewrite S in S0. injection S0 as <-. apply D. reflexivity.
Qed.

(** Lists with an optional trailing separator. *)
Ltac comma_loop T f M :=
  let l2 := fresh "l" in let R2 := fresh "R" in let X2 := fresh "X" in let G2 := fresh "G" in
  let St := fresh "St" in let Z := fresh "Z" in let p := fresh "p" in let t := fresh "t" in
  let ts0 := fresh "ts" in let K := fresh "K" in let Bf := fresh "Bf" in let Et := fresh "Et" in
  match type of M with while_ _ _ ([?x], []) ?s = Ok (?ns, ?ts) ?s' =>
    match goal with R : reads U ?s0 ?l0 s, X : ps_except s = _, G : E f ?l0 (view s) x |- _ =>
      destruct (list_loop U _ _ _ _ T ltac:(cbn; intuition congruence) f l0 x s0 s _ ns ts s' ltac:(in_list) R ltac:(congruence) G M)
        as (X2 & Z & [(l2 & R2 & G2 & St)|(l2 & p & t & ts0 & R2 & G2 & K & Et & Bf)]); clear R
    end end.

(** The start position of a phrase followed by a token. *)
Lemma start_snoc : forall l (p : nat) (t : token) la, start (l ++ [(p, t)]) la = start l (p, Some t).
Proof. intros l p t la. unfold start. rewrite ahead_app_cons. reflexivity. Qed.
Lemma reads_start_snoc : forall s l p t s', reads U s (l ++ [(p, t)]) s' -> pos s = start l (p, Some t).
Proof. intros s l p t s' R. rewrite (reads_start _ _ _ _ R). apply start_snoc. Qed.

Ltac side_snoc :=
  match goal with
  | R : reads U ?s (?l ++ [(?p, ?t)]) ?s' |- _ => rewrite <- ?(reads_start_snoc s l p t s' R); side
  end.
Ltac by_rule_snoc rule :=
  eexists; split; [chain | split; [congruence | cbn [app]; eapply E_eq; [eapply rule; side | side_snoc]]].

Lemma turn_exprlist : list_turn U [F_star_expr; F_named_expression] PyComa [PyIn] (exprlist_step U rec).
Proof.
  intros ns ts s r s' H. unfold exprlist_step in H. mstep IH H. exists t. split; auto.
  minv IH H; [turn_stop|turn_item F_star_expr|turn_item F_named_expression|turn_done].
Qed.

Lemma sound_exprlist : forall s x s', p_exprlist U n rec s = Ok x s' -> sound_plain U F_exprlist s x s'.
Proof.
  unfold p_exprlist. intros s x s' H. mstep IH H. mstep IH H. apply sound_star_or_named in M.
  destruct M as (f & l & I & R & X & G). mstep IH H. destruct x1 as [ns ts].
  comma_loop turn_exprlist f M.
  - destruct ns as [|y [|z ns]]; [exfalso; eapply items_nonempty; eauto| |].
    + destruct (items_single _ _ _ _ _ _ G0) as (-> & f' & I' & G'). minv IH H. by_rule (E_exprlist_one f').
    + assert (N : ts <> []) by (intros ->; apply items_length in G0; discriminate).
      minv IH H. by_rule E_exprlist.
  - subst ts. destruct ns as [|y ns]; [exfalso; eapply items_nonempty; eauto|].
    assert (H' : (do e <- position; ret (ExprList (pos s) e (y :: ns) (ts0 ++ [t]))) s1 = Ok x s').
    { destruct ns; destruct ts0; exact H. }
    minv IH H'. by_rule_snoc E_exprlist_comma.
Qed.

Lemma turn_testlist : list_turn U [F_test] PyComa [T_Newline; PySemiColon; T_EOF] (testlist_step U rec).
Proof.
  intros ns ts s r s' H. unfold testlist_step in H. mstep IH H. exists t. split; auto.
  minv IH H; [turn_stop|turn_item F_test|turn_done].
Qed.

Lemma sound_testlist : forall s x s', p_testlist U n rec s = Ok x s' -> sound_plain U F_testlist s x s'.
Proof.
  unfold p_testlist. intros s x s' H. mstep IH H. mstep IH H. mstep IH H. destruct x1 as [ns ts].
  comma_loop turn_testlist F_test M.
  - destruct ns as [|y [|z ns]]; [exfalso; eapply items_nonempty; eauto| |].
    + destruct (items_single _ _ _ _ _ _ G0) as (-> & f' & [<-|[]] & G'). minv IH H. by_rule E_testlist_one.
    + assert (N : ts <> []) by (intros ->; apply items_length in G0; discriminate).
      minv IH H. by_rule E_testlist.
  - subst ts. destruct ns as [|y ns]; [exfalso; eapply items_nonempty; eauto|].
    assert (H' : (do e <- position; ret (TestList (pos s) e (y :: ns) (ts0 ++ [t]))) s1 = Ok x s').
    { destruct ns; destruct ts0; exact H. }
    minv IH H'. by_rule_snoc E_testlist_comma.
Qed.

Lemma turn_arglist : list_turn U [F_argument] PyComa [PyRightParen] (arglist_step U rec).
Proof.
  intros ns ts s r s' H. unfold arglist_step in H. mstep IH H. exists t. split; auto.
  minv IH H; [turn_stop|turn_item F_argument|turn_done].
Qed.

Lemma sound_arglist : forall s x s', p_arglist U n rec s = Ok x s' -> sound_plain U F_arglist s x s'.
Proof.
  unfold p_arglist. intros s x s' H. mstep IH H. mstep IH H. mstep IH H. destruct x1 as [ns ts].
  comma_loop turn_arglist F_argument M.
  - minv IH H. by_rule E_arglist.
  - subst ts. minv IH H. by_rule_snoc E_arglist_comma.
Qed.

Lemma sound_argument : forall s x s', p_argument U rec s = Ok x s' -> sound_plain U F_argument s x s'.
Proof.
  unfold p_argument. intros s x s' H. minv IH H.
  - by_rule E_argument_star.
  - by_rule E_argument_for.
  - by_rule E_argument_assign.
  - by_rule E_argument.
Qed.

Lemma sound_comp_iter : forall s x s', p_comp_iter rec s = Ok x s' -> sound_plain U F_comp_iter s x s'.
Proof.
  unfold p_comp_iter. intros s x s' H. minv IH H; use_rec IH H.
  - by_rule (E_comp_iter F_comp_for).
  - by_rule (E_comp_iter F_comp_if).
Qed.

Lemma none_opt : forall f la, E_opt f [] la None.
Proof. intros. constructor. Qed.

Lemma sound_sync_comp_for : forall s x s', p_sync_comp_for U rec s = Ok x s' -> sound_plain U F_sync_comp_for s x s'.
Proof.
  unfold p_sync_comp_for. intros s x s' H. minv IH H.
  - match goal with G : E F_comp_iter _ _ _ |- _ => apply opt_some in G end.
    eexists; split; [chain|split; [congruence|cbn [app]; eapply E_eq; [eapply E_sync_comp_for; side|side]]].
  - eexists; split; [chain|split; [congruence|cbn [app]]].
    rewrite <- (app_nil_r l0).
    eapply E_eq; [eapply E_sync_comp_for with (l3 := []); cbn [ahead]; side|side].
    + constructor.
    + intros _. side.
Qed.

Lemma sound_comp_for : forall s x s', p_comp_for U rec s = Ok x s' -> sound_plain U F_comp_for s x s'.
Proof.
  unfold p_comp_for. intros s x s' H. minv IH H.
  - by_rule E_comp_for_async.
  - use_rec IH H. by_rule E_comp_for.
Qed.

Lemma sound_comp_if : forall s x s', p_comp_if U rec s = Ok x s' -> sound_plain U F_comp_if s x s'.
Proof.
  unfold p_comp_if. intros s x s' H. minv IH H.
  - match goal with G : E F_comp_iter _ _ _ |- _ => apply opt_some in G end.
    eexists; split; [chain|split; [congruence|cbn [app]; eapply E_eq; [eapply E_comp_if; side|side]]].
  - eexists; split; [chain|split; [congruence|cbn [app]]].
    rewrite <- (app_nil_r l).
    eapply E_eq; [eapply E_comp_if with (l2 := []); cbn [ahead]; side|side].
    + constructor.
    + intros _. side.
Qed.

Lemma sound_yield_expr : forall s x s', p_yield_expr U rec s = Ok x s' -> sound_plain U F_yield_expr s x s'.
Proof.
  unfold p_yield_expr. intros s x s' H. minv IH H.
  - by_rule E_yield_from.
  - by_rule E_yield.
Qed.

Lemma star_stop_ends : forall k, In k testlist_star_stop -> In k ends_star_list.
Proof. intros k H. cbn in *. tauto. Qed.

Lemma turn_testlist_star : list_turn U [F_star_expr; F_test] PyComa ends_star_list (testlist_star_expr_step U rec).
Proof.
  intros ns ts s r s' H. unfold testlist_star_expr_step in H. mstep IH H. exists t. split; auto.
  minv IH H; [|turn_item F_star_expr|turn_item F_test|turn_done].
  apply star_stop_ends in K0. turn_stop.
Qed.

Lemma sound_testlist_star_expr : forall s x s', p_testlist_star_expr U n rec s = Ok x s' -> sound_plain U F_testlist_star_expr s x s'.
Proof.
  unfold p_testlist_star_expr. intros s x s' H. mstep IH H. mstep IH H.
  assert (C : exists f l, In f [F_star_expr; F_test] /\ reads U s l s0 /\ ps_except s0 = ps_except s /\ E f l (view s0) x0).
  { minv IH M; use_rec IH M; do 2 eexists; repeat split; try eassumption; in_list. }
  clear M. destruct C as (f & l & I & R & X & G). mstep IH H. destruct x1 as [ns ts].
  comma_loop turn_testlist_star f M.
  - destruct ns as [|y [|z ns]]; [exfalso; eapply items_nonempty; eauto| |].
    + destruct (items_single _ _ _ _ _ _ G0) as (-> & f' & I' & G'). cbn [rev app] in H.
      minv IH H. by_rule (E_star_list_one f').
    + assert (N : ts <> []) by (intros ->; apply items_length in G0; discriminate).
      assert (H' : (do e <- position; ret (TestListStarExpr (pos s) e (rev (y :: z :: ns)) (rev ts))) s1 = Ok x s').
      { rewrite <- H. destruct (rev (y :: z :: ns)) as [|a [|b r]] eqn:Er; try reflexivity.
        apply (f_equal (@length _)) in Er. rewrite rev_length in Er. discriminate Er. }
      minv IH H'. by_rule E_star_list.
  - subst ts.
    assert (H' : (do e <- position; ret (TestListStarExpr (pos s) e (rev ns) (rev (ts0 ++ [t])))) s1 = Ok x s').
    { rewrite <- H. rewrite rev_app_distr. destruct (rev ns) as [|a [|b r]]; reflexivity. }
    minv IH H'. by_rule_snoc E_star_list_comma.
Qed.

(** ** Dictionaries and sets *)
Lemma entry_eq : forall b s l la x y, E_entry b s l la x -> x = y -> E_entry b s l la y.
Proof. intros. subst. assumption. Qed.
Lemma set_first_eq : forall s l la x y, E_set_first s l la x -> x = y -> E_set_first s l la y.
Proof. intros. subst. assumption. Qed.

Lemma sound_dictorset_first : forall p s b x s', dictorset_first U rec p s = Ok (b, x) s' ->
  exists l, reads U s l s' /\ ps_except s' = ps_except s /\
    if b : bool then E_entry true p l (view s') x else E_set_first p l (view s') x.
Proof.
  unfold dictorset_first. intros p s b x s' H. mstep IH H. mstep IH H.
  - minv IH H. injection H0 as -> ->. eexists; split; [chain|split; [congruence|cbn [app]]].
    eapply set_first_eq; [eapply set_first_mul; side|side].
  - mstep IH H.
    + minv IH H. injection H0 as -> ->. eexists; split; [chain|split; [congruence|cbn [app]]].
      eapply entry_eq; [eapply entry_power; side|side].
    + minv IH H; injection H0 as -> ->; (eexists; split; [chain|split; [congruence|cbn [app]]]).
      * eapply entry_eq; [eapply entry_pair; side|side].
      * eapply set_first_eq; [eapply set_first_test; side|side].
Qed.

Lemma set_loop : forall p s0 l0 x s ns ts s', reads U s0 l0 s -> ps_except s = ps_except s0 ->
  while_ n (set_step U rec p) ([x], []) s = Ok (ns, ts) s' ->
  exists l xs, ns = x :: xs /\ reads U s l s' /\ ps_except s' = ps_except s0 /\
   ((E_set_rest p l (view s') xs ts /\ stops [PyComa] (view s')) \/
    (exists l1 q t ts0, l = l1 ++ [(q, t)] /\ E_set_rest p l1 (q, Some t) xs ts0 /\ tk_kind t = PyComa /\
       ts = ts0 ++ [t] /\ before [PyRightCurly] (view s'))).
Proof.
  intros p s0 l0 x s ns ts s' R0 X0 W.
  set (P := fun (a : list node * list token) s' => exists l xs, fst a = x :: xs /\ reads U s l s' /\ ps_except s' = ps_except s0 /\
   (E_set_rest p l (view s') xs (snd a) \/
    (exists l1 q t ts0, l = l1 ++ [(q, t)] /\ E_set_rest p l1 (q, Some t) xs ts0 /\ tk_kind t = PyComa /\
       snd a = ts0 ++ [t] /\ before [PyRightCurly] (view s')))).
  set (Q := fun (a : list node * list token) s' => exists l xs, fst a = x :: xs /\ reads U s l s' /\ ps_except s' = ps_except s0 /\
   ((E_set_rest p l (view s') xs (snd a) /\ stops [PyComa] (view s')) \/
    (exists l1 q t ts0, l = l1 ++ [(q, t)] /\ E_set_rest p l1 (q, Some t) xs ts0 /\ tk_kind t = PyComa /\
       snd a = ts0 ++ [t] /\ before [PyRightCurly] (view s')))).
  change (Q (ns, ts) s'). refine (while_inv _ _ P Q _ n _ _ _ _ _ W).
  2: { exists [], []. split; auto. split; [apply reads_refl|]. split; auto. left. constructor. }
  clear W. intros [ns1 ts1] s1 b [ns2 ts2] s2 (l & xs & E1 & R & X & D) St. cbn [fst snd] in *. unfold set_step in St.
  mstep IH St. mstep IH St.
  - destruct D as [D|(l1 & q & u & ts0 & -> & _ & _ & _ & (v & V & I))].
    2: { exfalso. apply view_token in V. assert (EV : v = t) by congruence. rewrite EV, K in I. cbn in I. intuition discriminate. }
    rewrite (view_inl _ _ S) in D.
    minv IH St; injection H as -> -> ->.
    + exists (l ++ [(pos s1, t)]), xs. split; auto. split; [eapply reads_app; eauto|]. split; [congruence|].
      right. exists l, (pos s1), t, ts1. repeat split; auto. side.
    + exists (l ++ (pos s1, t) :: (pos s3, t0) :: l1), (xs ++ [MulSet p (pos s5) t0 x0]).
      split; [reflexivity|]. split; [|split; [congruence|]].
      * eapply reads_app; [exact R|]. apply (reads_app _ _ _ _ R1). apply (reads_app _ _ _ _ R2). exact R3.
      * left. eapply set_rest_snoc; eauto. eapply entry_eq; [eapply entry_mul; side|side].
    + exists (l ++ (pos s1, t) :: l1), (xs ++ [x0]).
      split; [reflexivity|]. split; [|split; [congruence|]].
      * eapply reads_app; [exact R|]. apply (reads_app _ _ _ _ R1). assumption.
      * left. eapply set_rest_snoc; eauto. eapply entry_test; side.
  - minv IH St. injection H as -> -> ->. exists l, xs. repeat split; auto.
    destruct D as [D|D]; [left; split; auto; side|right; exact D].
Qed.

Lemma sound_dictorset_maker : forall s x s', p_dictorset_maker U n rec s = Ok x s' -> sound_plain U F_dictorset_maker s x s'.
Proof.
  unfold p_dictorset_maker. intros s x s' H. mstep IH H. mstep IH H. destruct x0 as [b x0].
  apply sound_dictorset_first in M. destruct M as (l & R & X & G).
  destruct b; mstep IH H; destruct x1 as [ns ts].
  - destruct n as [|n']; [discriminate|]. cbn [while_] in M. mstep IH M. destruct x1 as [b st].
    unfold dictionary_step in M0.
    minv IH M0; injection H0 as -> ->; minv IH M; injection H0 as -> ->; minv IH H.
    + by_rule E_dict_comma.
    + assert (G1 : E_entry true (pos s) ((pos s3, t0) :: l0) (view s5) (PowerDictionary (pos s) (pos s5) t0 x1)).
      { eapply entry_eq; [eapply entry_power; side|side]. }
      by_rule E_dict_two.
    + assert (G9 : E_entry true (pos s) (l0 ++ (pos s4, t1) :: l1) (view s6) (DictionaryEntry (pos s) (pos s6) x1 t1 x2)).
      { eapply entry_eq; [eapply entry_pair; side|side]. }
      by_rule E_dict_two.
    + by_rule E_dict_one.
  - destruct (set_loop _ _ _ _ _ _ _ _ R X M) as (l2 & xs & -> & R2 & X2 & [(G2 & St)|(l1 & q & t & ts0 & -> & G2 & K & -> & Bf)]).
    + minv IH H. by_rule E_set_items.
    + minv IH H.
      assert (V : view s0 = ahead l1 (q, Some t)) by (rewrite (reads_ahead _ _ _ _ R2); apply ahead_app_cons).
      eexists; split; [chain|split; [congruence|]].
      eapply E_eq; [eapply E_set_items_comma; rewrite <- ?V; side|rewrite <- ?V; side].
Qed.

(** ** Parameter lists *)
Lemma va_item : forall s x s', rec F_var_args_assignments s = Ok x s' -> sound_plain U F_var_args_assignments s x s'.
Proof. intros s x s' H. apply IH in H. exact H. Qed.

Definition va_stars (v v' : var_args) (m w : option (token * node)) (ns : list node) (ts : list token) : Prop :=
  v' = mk_va (va_nodes v ++ ns) (va_seps v ++ ts)
    (match m with Some (t, _) => Some t | None => va_mul v end)
    (match m with Some (_, x) => Some x | None => va_mul_node v end)
    (match w with Some (t, _) => Some t | None => va_power v end)
    (match w with Some (_, x) => Some x | None => va_power_node v end)
    (va_div v) (va_coma v).

Lemma sound_power_part : forall v t s v' s', ps_symbol s = inl t -> tk_kind t = PyPower ->
  va_power_part U rec v t s = Ok v' s' ->
  exists l ts w, reads U s l s' /\ ps_except s' = ps_except s /\ E_stars l (view s') [] ts None w /\
    va_stars v v' None w [] ts.
Proof.
  intros v t s v' s' S K H. unfold va_power_part in H. cbv zeta in H. minv IH H.
  - do 3 eexists. split; [chain|split; [congruence|cbn [app]]]. split.
    + eapply stars_power_comma; side.
    + destruct v. unfold va_stars, va_push_sep, va_set_power. cbn. rewrite app_nil_r. reflexivity.
  - do 3 eexists. split; [chain|split; [congruence|cbn [app]]]. split.
    + eapply stars_power; side.
    + destruct v. unfold va_stars, va_push_sep, va_set_power. cbn. rewrite !app_nil_r. reflexivity.
Qed.

Lemma sound_mul_part : forall v t s v' s', ps_symbol s = inl t -> tk_kind t = PyMul ->
  va_mul_part U n rec v t s = Ok v' s' ->
  exists l ns ts x w, reads U s l s' /\ ps_except s' = ps_except s /\ E_stars l (view s') ns ts (Some (t, x)) w /\
    va_stars v v' (Some (t, x)) w ns ts.
Proof.
  intros v t s v' s' S K H. unfold va_mul_part in H. mstep IH H. mstep IH H.
  set (P := fun v1 s' => exists l xs ts, reads U s ((pos s, t) :: l) s' /\ ps_except s' = ps_except s /\
    E_items [F_var_args_assignments] PyComa l (view s') (x :: xs) ts /\ va_stars v v1 (Some (t, x)) None xs ts).
  set (Q := fun v' s' => exists l ns ts x w, reads U s l s' /\ ps_except s' = ps_except s /\
    E_stars l (view s') ns ts (Some (t, x)) w /\ va_stars v v' (Some (t, x)) w ns ts).
  change (Q v' s'). refine (while_inv _ _ P Q _ n _ _ _ _ _ H).
  2: { exists l, [], []. split; [apply (reads_app _ _ _ _ R _ _ R0)|]. split; [congruence|]. split.
       - eapply items_one; eauto. in_list.
       - destruct v. unfold va_stars, va_set_mul. cbn. rewrite !app_nil_r. reflexivity. }
  clear H. intros v1 s2 b v2 s3 (l2 & xs & ts & R2 & X2 & G2 & V) St. unfold va_mul_step, va_err in St. cbv zeta in St.
  mstep IH St. mstep IH St.
  - mstep IH St. mstep IH St. mstep IH St.
    + mstep IH St. apply sound_power_part in M; auto. destruct M as (l3 & ts3 & w & R3 & X3' & G3 & V3).
      minv IH St. injection H as -> ->. subst Q. cbn beta.
      do 5 eexists. split; [apply (reads_app _ _ _ _ R2); chain|]. split; [congruence|]. split.
      * cbn [app]. eapply stars_mul_power; side.
      * unfold va_stars in *. rewrite V3, V. unfold va_push_sep. cbn. rewrite app_nil_r, <- !app_assoc. reflexivity.
    + minv IH St. injection H as -> ->. subst P. cbn beta.
      exists (l2 ++ (pos s2, t0) :: l0), (xs ++ [x0]), (ts ++ [t0]). split.
      { change ((pos s, t) :: l2 ++ (pos s2, t0) :: l0) with (((pos s, t) :: l2) ++ [(pos s2, t0)] ++ l0).
        apply (reads_app _ _ _ _ R2). chain. }
      split; [congruence|]. split.
      * change (x :: xs ++ [x0]) with ((x :: xs) ++ [x0]). rewrite (view_inl _ _ S0) in G2.
        eapply items_snoc; eauto. in_list.
      * unfold va_stars in V. rewrite V. unfold va_stars, va_push_sep, va_push_node. cbn. rewrite <- !app_assoc. reflexivity.
  - minv IH St. injection H as -> ->. subst Q. cbn beta. do 5 eexists. split; [exact R2|]. split; auto. split.
    + eapply stars_mul; side.
    + exact V.
Qed.

Lemma sound_div_loop : forall v s v' s', va_coma v = false -> while_ n (va_div_step U rec) v s = Ok v' s' ->
  ps_except s' = ps_except s /\
  ((exists l ns ts, reads U s l s' /\ E_rest [F_var_args_assignments] PyComa l (view s') ns ts /\
      stops [PyComa] (view s') /\ va_stars v v' None None ns ts) \/
   (exists l ns ts p t, reads U s (l ++ [(p, t)]) s' /\ E_rest [F_var_args_assignments] PyComa l (p, Some t) ns ts /\
      tk_kind t = PyComa /\ before [PyMul; PyPower] (view s') /\
      v' = va_set_coma (mk_va (va_nodes v ++ ns) (va_seps v ++ ts ++ [t]) (va_mul v) (va_mul_node v)
                          (va_power v) (va_power_node v) (va_div v) (va_coma v)))).
Proof.
  intros v s v' s' C W.
  set (P := fun v' s' => ps_except s' = ps_except s /\
    exists l ns ts, reads U s l s' /\ E_rest [F_var_args_assignments] PyComa l (view s') ns ts /\ va_stars v v' None None ns ts).
  pattern v', s'. match goal with |- ?F v' s' => set (Q := F) end.
  refine (while_inv _ _ P Q _ n _ _ _ _ _ W).
  2: { split; auto. exists [], [], []. split; [apply reads_refl|]. split; [constructor|].
       destruct v. unfold va_stars. cbn. rewrite !app_nil_r. reflexivity. }
  clear W. intros v1 s2 b v2 s3 (X & l & ns & ts & R & G & V) St. unfold va_div_step, va_err in St. cbv zeta in St.
  mstep IH St. mstep IH St.
  - rewrite (view_inl _ _ S) in G. mstep IH St. mstep IH St. mstep IH St.
    + minv IH St. injection H as -> ->. subst Q. cbn beta. split; [congruence|]. right.
      exists l, ns, ts, (pos s2), t. split; [eapply reads_app; eauto|]. repeat split; auto; [side|].
      unfold va_stars in V. rewrite V. unfold va_push_sep, va_set_coma. cbn. rewrite <- app_assoc. reflexivity.
    + minv IH St. injection H as -> ->. subst P. cbn beta. split; [congruence|].
      exists (l ++ (pos s2, t) :: l0), (ns ++ [x]), (ts ++ [t]). split; [|split].
      * apply (reads_app _ _ _ _ R). apply (reads_app _ _ _ _ R0). assumption.
      * eapply rest_snoc; eauto. in_list.
      * unfold va_stars in *. rewrite V. unfold va_push_sep, va_push_node. cbn. rewrite <- !app_assoc. reflexivity.
  - minv IH St. injection H as -> ->. subst Q. cbn beta. split; auto. left. exists l, ns, ts. repeat split; auto. side.
Qed.

Lemma sound_var_args_list : forall s x s', p_var_args_list U n rec s = Ok x s' -> sound_plain U F_var_args_list s x s'.
Proof.
  unfold p_var_args_list, va_err. intros s x s' H. cbv zeta in H. mstep IH H. mstep IH H. mstep IH M. mstep IH M.
  { apply sound_mul_part in M; auto. destruct M as (l & ns & ts & y & w & R & X & G & V).
    unfold va_stars in V. cbn [va_nodes va_seps va_mul va_mul_node va_power va_power_node va_div va_coma app] in V.
    minv IH H. exists l. split; auto. split; auto. eapply E_eq; [eapply E_var_args_stars; exact G|].
    cbn. fold_views. destruct w as [[w1 w2]|]; reflexivity. }
  mstep IH M.
  { apply sound_power_part in M; auto. destruct M as (l & ts & w & R & X & G & V).
    unfold va_stars in V. cbn [va_nodes va_seps va_mul va_mul_node va_power va_power_node va_div va_coma app] in V.
    minv IH H. exists l. split; auto. split; auto. eapply E_eq; [eapply E_var_args_stars; exact G|].
    cbn. fold_views. destruct w as [[w1 w2]|]; reflexivity. }
  mstep IH M.
  set (P := fun v s' => exists l ns ts, reads U s l s' /\ ps_except s' = ps_except s /\
    E_items [F_var_args_assignments] PyComa l (view s') ns ts /\ v = mk_va ns ts None None None None None false).
  set (Q := fun v s' => sound_plain U F_var_args_list s (VarArgsList (pos s) (pos s') (rev (va_nodes v)) (rev (va_seps v))
         (va_mul v) (va_mul_node v) (va_power v) (va_power_node v) (va_div v)) s').
  assert (C : Q x0 s0).
  { refine (while_inv _ _ P Q _ n _ _ _ _ _ M).
    2: { exists l, [x1], []. repeat split; auto. eapply items_one; eauto. in_list. }
    clear - IH. intros v s1 b v' s2 (l & ns & ts & R & X & G & V) H. unfold va_main_step, va_err in H. cbv zeta in H.
    mstep IH H. mstep IH H.
    2: { minv IH H. injection H0 as -> ->. subst Q. cbn. by_rule E_var_args. }
    mstep IH H. mstep IH H. mstep IH H.
    { mstep IH H. mstep IH H. apply sound_div_loop in M; [|subst v; reflexivity].
      destruct M as (X3 & [(l3 & ns3 & ts3 & R3 & G3 & St & V3)|(l3 & ns3 & ts3 & p & u & R3 & G3 & K3 & Bf & V3)]);
        unfold va_stars in V3; subst v;
        cbn [va_nodes va_seps va_mul va_mul_node va_power va_power_node va_div va_coma va_set_div va_push_sep va_set_coma] in V3.
      - mstep IH H. subst x. cbn [va_coma andb] in H. minv IH H. injection H0 as -> ->. subst Q. cbn beta.
        eexists; split; [chain|split; [congruence|cbn [app]; eapply E_eq; [eapply E_var_args_slash; side|]]].
        fold_views. cbn. rewrite <- !app_assoc. reflexivity.
      - mstep IH H. subst x. unfold va_set_coma in H. cbn [va_coma andb] in H.
        mstep IH H.
        + mstep IH H. apply sound_mul_part in M; auto. destruct M as (l4 & ns4 & ts4 & y & w & R4 & X4 & G4 & V4).
          minv IH H. injection H0 as -> ->. subst Q. cbn beta.
          eexists; split; [chain|split; [congruence|]]. rewrite <- !app_assoc. cbn [app].
          eapply E_eq; [eapply E_var_args_slash_stars; side|].
          fold_views. unfold va_stars in V4. subst. cbn. rewrite <- !app_assoc. cbn. destruct w as [[w1 w2]|]; reflexivity.
        + mstep IH H.
          * mstep IH H. apply sound_power_part in M; auto. destruct M as (l4 & ts4 & w & R4 & X4 & G4 & V4).
            minv IH H. injection H0 as -> ->. subst Q. cbn beta.
            eexists; split; [chain|split; [congruence|]]. rewrite <- !app_assoc. cbn [app].
            eapply E_eq; [eapply E_var_args_slash_stars; side|].
            fold_views. unfold va_stars in V4. subst. cbn. rewrite <- !app_assoc, ?app_nil_r. cbn. destruct w as [[w1 w2]|]; reflexivity.
          * exfalso. destruct Bf as (z & Z & I). apply view_token in Z. assert (z = t1) by congruence. subst. cbn in I. intuition. }
    mstep IH H.
    { mstep IH H. apply sound_mul_part in M; auto. destruct M as (l4 & ns4 & ts4 & y & w & R4 & X4 & G4 & V4).
      minv IH H. injection H0 as -> ->. subst Q. cbn beta.
      eexists; split; [chain|split; [congruence|]]. cbn [app].
      eapply E_eq; [eapply E_var_args_then_stars; side|].
      fold_views. unfold va_stars in V4. subst. cbn. rewrite <- !app_assoc. cbn. destruct w as [[w1 w2]|]; reflexivity. }
    mstep IH H.
    { mstep IH H. apply sound_power_part in M; auto. destruct M as (l4 & ts4 & w & R4 & X4 & G4 & V4).
      minv IH H. injection H0 as -> ->. subst Q. cbn beta.
      eexists; split; [chain|split; [congruence|]]. cbn [app].
      eapply E_eq; [eapply E_var_args_then_stars; side|].
      fold_views. unfold va_stars in V4. subst. cbn. rewrite <- !app_assoc. cbn. destruct w as [[w1 w2]|]; reflexivity. }
    minv IH H. injection H0 as -> ->. subst P. cbn beta.
    exists (l ++ (pos s1, t) :: l0), (ns ++ [x]), (ts ++ [t]). split; [|split; [congruence|split]].
    - apply (reads_app _ _ _ _ R). apply (reads_app _ _ _ _ R0). assumption.
    - rewrite (view_inl _ _ S) in G. eapply items_snoc; eauto. in_list.
    - reflexivity. }
  minv IH H. exact C.
Qed.

Lemma sound_var_args_assignments : forall s x s', p_var_args_assignments U rec s = Ok x s' -> sound_plain U F_var_args_assignments s x s'.
Proof.
  unfold p_var_args_assignments. intros s x s' H. minv IH H.
  - by_rule E_var_arg_default.
  - by_rule E_var_arg.
Qed.

Lemma sound_vfp_def : forall s x s', p_vfp_def U s = Ok x s' -> sound_plain U F_vfp_def s x s'.
Proof. unfold p_vfp_def. intros s x s' H. minv IH H. by_rule E_vfp_def. Qed.

End SoundExpr.
