(** Soundness of the simple statements, decorators and function types. *)
From Coq Require Import List Arith Lia.
From Verif Require Import Chars SourceBuffer Token Tokenizer Node ParserState Expressions Statements Blocks
  GrammarSpec ParseBasics SoundBasics SoundExpr.
Import ListNotations.

Section SoundStmt.
Variable U : unicode.
Variable n : nat.
Variable rec : fn -> M node.
Hypothesis IH : good U rec.

Ltac opt_part M :=
  let t := fresh "t" in let S := fresh "S" in let D := fresh "D" in let Z := fresh "Z" in
  let l := fresh "l" in let R := fresh "R" in let X := fresh "X" in let G := fresh "G" in
  first [apply (opt_sound1 U rec IH) in M | apply (opt_sound U rec IH) in M]; [|reflexivity|discriminate];
  destruct M as (t & S & D & Z & l & R & X & G).
Ltac turn_done := left; repeat split; auto.
Ltac turn_item f :=
  right; split; [assumption|]; eexists; split; [eassumption|]; left; exists f; do 2 eexists;
  split; [in_list|]; split; [eassumption|]; split; [eassumption|]; split; [eassumption|reflexivity].
Ltac turn_stop :=
  right; split; [assumption|]; eexists; split; [eassumption|]; right; split; [side|]; split; [reflexivity|eauto].
Ltac plain_loop T f M :=
  let l2 := fresh "l" in let R2 := fresh "R" in let X2 := fresh "X" in let G2 := fresh "G" in
  let St := fresh "St" in let Z := fresh "Z" in
  match type of M with while_ _ _ ([?x], []) ?s = Ok (?ns, ?ts) ?s' =>
    match goal with R : reads U ?s0 ?l0 s, X : ps_except s = _, G : E f ?l0 (view s) x |- _ =>
      destruct (list_loop_plain U _ _ _ T f l0 x s0 s _ ns ts s' ltac:(in_list) R ltac:(congruence) G M)
        as (l2 & R2 & X2 & G2 & St & Z); clear R
    end end.
Ltac comma_loop T f M :=
  let l2 := fresh "l" in let R2 := fresh "R" in let X2 := fresh "X" in let G2 := fresh "G" in
  let St := fresh "St" in let Z := fresh "Z" in let p := fresh "p" in let t := fresh "t" in
  let ts0 := fresh "ts" in let K := fresh "K" in let Bf := fresh "Bf" in let Et := fresh "Et" in
  match type of M with while_ _ _ ([?x], []) ?s = Ok (?ns, ?ts) ?s' =>
    match goal with R : reads U ?s0 ?l0 s, X : ps_except s = _, G : E f ?l0 (view s) x |- _ =>
      destruct (list_loop U _ _ _ _ T ltac:(cbn; intuition congruence) f l0 x s0 s _ ns ts s' ltac:(in_list) R ltac:(congruence) G M)
        as (X2 & Z & [(l2 & R2 & G2 & St)|(l2 & p & t & ts0 & R2 & G2 & K & Et & Bf)]); clear R
    end end.
Ltac side_snoc :=
  match goal with
  | R : reads U ?s (?l ++ [(?p, ?t)]) ?s' |- _ => rewrite <- ?(reads_start_snoc U s l p t s' R); side
  end.

Lemma turn_simple : forall p, list_turn U [F_small_stmt] PySemiColon [T_Newline; T_EOF] (simple_stmt_step U rec p).
Proof.
  intros p ns ts s r s' H. unfold simple_stmt_step in H. mstep IH H. exists t. split; auto.
  minv IH H; [turn_stop|turn_item F_small_stmt|turn_done].
Qed.

Lemma sound_simple_stmt : forall s x s', p_simple_stmt U n rec s = Ok x s' -> sound_plain U F_simple_stmt s x s'.
Proof.
  unfold p_simple_stmt. intros s x s' H. mstep IH H. mstep IH H. mstep IH H. destruct x1 as [ns ts].
  comma_loop (turn_simple (pos s)) F_small_stmt M.
  - minv IH H. by_rule E_simple_stmt.
  - subst ts. minv IH H. eexists; split; [chain|split; [congruence|]]. rewrite <- app_assoc. cbn [app].
    eapply E_eq; [eapply E_simple_stmt_semi; side|side_snoc].
Qed.

Lemma sound_small_stmt : forall s x s', p_small_stmt rec s = Ok x s' -> sound_plain U F_small_stmt s x s'.
Proof.
  unfold p_small_stmt. intros s x s' H. minv IH H;
    match type of H with rec ?f _ = _ => use_rec IH H; by_rule (E_small_stmt f) end.
Qed.

Lemma sound_yield_or_testlist : forall p s x s', yield_or_testlist rec p s = Ok x s' ->
  exists f l, In f [F_yield_expr; F_testlist] /\ reads U s l s' /\ ps_except s' = ps_except s /\ E f l (view s') x.
Proof.
  unfold yield_or_testlist. intros p s x s' H. minv IH H; use_rec IH H; do 2 eexists; repeat split; try eassumption; in_list.
Qed.

Lemma assign_loop : forall p s xs s' , while_ n (assign_step U rec p) [] s = Ok xs s' ->
  exists l, reads U s l s' /\ ps_except s' = ps_except s /\ E_assigns l (view s') xs /\
    stops [PyAssign] (view s') /\ (xs = [] -> s' = s).
Proof.
  intros p s xs s' W.
  set (P := fun xs s' => exists l, reads U s l s' /\ ps_except s' = ps_except s /\ E_assigns l (view s') xs /\ (xs = [] -> s' = s)).
  pattern xs, s'. match goal with |- ?F xs s' => set (Q := F) end.
  refine (while_inv _ _ P Q _ n _ _ _ _ _ W).
  2: { exists []. split; [apply reads_refl|]. split; auto. split; auto. constructor. }
  clear W. intros a s1 b a' s2 (l & R & X & G & Z) H. unfold assign_step in H. mstep IH H. mstep IH H.
  - mstep IH H. mstep IH H. apply sound_yield_or_testlist in M. destruct M as (f & l2 & I & R2 & X2 & G2).
    minv IH H. injection H0 as -> ->. exists (l ++ (pos s1, t) :: l2). split; [|split; [congruence|split]].
    + apply (reads_app _ _ _ _ R). apply (reads_app _ _ _ _ R0). assumption.
    + rewrite (view_inl _ _ S) in G. eapply assigns_snoc with (f := f); eauto.
    + destruct a; discriminate.
  - minv IH H. injection H0 as -> ->. exists l. repeat split; auto. side.
Qed.

Lemma sound_aug : forall c l a t s0 s x s', In (tk_kind t, c) augmented -> reads U s0 l s -> ps_except s = ps_except s0 ->
  ps_symbol s = inl t -> E F_testlist_star_expr l (view s) a ->
  aug_assign U rec (pos s0) c a t s = Ok x s' -> sound_plain U F_expr_stmt s0 x s'.
Proof.
  unfold aug_assign. intros c l a t s0 s x s' I R X S G H. mstep IH H. mstep IH H.
  apply sound_yield_or_testlist in M. destruct M as (f & l2 & I2 & R2 & X2 & G2). minv IH H.
  by_rule (E_expr_stmt_aug c f).
Qed.

Lemma sound_expr_stmt : forall s x s', p_expr_stmt U n rec s = Ok x s' -> sound_plain U F_expr_stmt s x s'.
Proof.
  unfold p_expr_stmt. intros s x s' H. mstep IH H. mstep IH H. mstep IH H. mstep IH H.
  { use_rec IH H. rewrite (reads_start _ _ _ _ R) in G0. by_rule E_expr_stmt_ann.
    rewrite (reads_start _ _ _ _ R). exact G0. }
  mstep IH H.
  { mstep IH H. destruct (assign_loop _ _ _ _ M) as (l2 & R2 & X2 & G2 & St & Z).
    assert (N : x1 <> []).
    { intros ->. rewrite (Z eq_refl) in St. destruct St as (u & V & N). apply view_token in V.
      rewrite S in V. injection V as <-. apply N. in_list. }
    minv IH H.
    - by_rule E_expr_stmt_assign_comment.
    - assert (St' : stops [PyAssign; T_TypeComment] (view s1)).
      { destruct St as (u & V & N'). exists u. split; auto. apply view_token in V.
        assert (u = t0) by congruence. subst. not_in. }
      by_rule E_expr_stmt_assign. }
  do 13 (mstep IH H; [eapply sound_aug; eauto; in_list|]).
  minv IH H. by_rule E_expr_stmt.
Qed.

Lemma sound_ann_assign : forall p a s x s', p_ann_assign U rec p a s = Ok x s' -> sound_plain U (F_ann_assign p a) s x s'.
Proof.
  unfold p_ann_assign. intros p a s x s' H. mstep IH H. mstep IH H. mstep IH H. mstep IH H.
  - mstep IH H. mstep IH H. apply sound_yield_or_testlist in M. destruct M as (f & l2 & I & R2 & X2 & G2).
    minv IH H. by_rule (fun s0 a0 => E_ann_assign_value s0 a0 f).
  - minv IH H. by_rule E_ann_assign.
Qed.

Lemma sound_del_stmt : forall s x s', p_del_stmt U rec s = Ok x s' -> sound_plain U F_del_stmt s x s'.
Proof. unfold p_del_stmt. intros s x s' H. minv IH H. by_rule E_del. Qed.
Lemma sound_pass_stmt : forall s x s', p_pass_stmt U s = Ok x s' -> sound_plain U F_pass_stmt s x s'.
Proof. unfold p_pass_stmt. intros s x s' H. minv IH H. by_rule E_pass. Qed.
Lemma sound_flow_stmt : forall s x s', p_flow_stmt rec s = Ok x s' -> sound_plain U F_flow_stmt s x s'.
Proof.
  unfold p_flow_stmt. intros s x s' H. minv IH H;
    match type of H with rec ?f _ = _ => use_rec IH H; by_rule (E_flow f) end.
Qed.
Lemma sound_break_stmt : forall s x s', p_break_stmt U s = Ok x s' -> sound_plain U F_break_stmt s x s'.
Proof. unfold p_break_stmt. intros s x s' H. minv IH H. by_rule E_break. Qed.
Lemma sound_continue_stmt : forall s x s', p_continue_stmt U s = Ok x s' -> sound_plain U F_continue_stmt s x s'.
Proof. unfold p_continue_stmt. intros s x s' H. minv IH H. by_rule E_continue. Qed.
Lemma sound_return_stmt : forall s x s', p_return_stmt U rec s = Ok x s' -> sound_plain U F_return_stmt s x s'.
Proof.
  unfold p_return_stmt. intros s x s' H. minv IH H.
  - by_rule E_return.
  - by_rule E_return_value.
Qed.
Lemma sound_yield_stmt : forall s x s', p_yield_stmt rec s = Ok x s' -> sound_plain U F_yield_stmt s x s'.
Proof. unfold p_yield_stmt. intros s x s' H. use_rec IH H. by_rule E_yield_stmt. Qed.
Lemma sound_raise_stmt : forall s x s', p_raise_stmt U rec s = Ok x s' -> sound_plain U F_raise_stmt s x s'.
Proof.
  unfold p_raise_stmt. intros s x s' H. minv IH H.
  - by_rule E_raise.
  - by_rule E_raise_from.
  - by_rule E_raise_value.
Qed.
Lemma sound_import_stmt : forall s x s', p_import_stmt rec s = Ok x s' -> sound_plain U F_import_stmt s x s'.
Proof.
  unfold p_import_stmt. intros s x s' H. minv IH H.
  - apply IH in H. exact H.
  - use_rec IH H. by_rule E_import_stmt.
Qed.
Lemma sound_import_name : forall s x s', p_import_name U rec s = Ok x s' -> sound_plain U F_import_name s x s'.
Proof. unfold p_import_name. intros s x s' H. minv IH H. by_rule E_import_name. Qed.

Lemma dots_loop : forall s lst s', while_ n (import_dots_step U) [] s = Ok lst s' ->
  exists l, reads U s l s' /\ ps_except s' = ps_except s /\ lst = map snd l /\
    Forall (fun d => In (tk_kind (snd d)) [PyDot; PyElipsis]) l /\ differs [PyDot; PyElipsis] (view s').
Proof.
  intros s lst s' W.
  set (P := fun lst s' => exists l, reads U s l s' /\ ps_except s' = ps_except s /\ lst = map snd l /\
    Forall (fun d : ptok => In (tk_kind (snd d)) [PyDot; PyElipsis]) l).
  pattern lst, s'. match goal with |- ?F lst s' => set (Q := F) end.
  refine (while_inv _ _ P Q _ n _ _ _ _ _ W).
  2: { exists []. split; [apply reads_refl|]. repeat split; auto. }
  clear W. intros a s1 b a' s2 (l & R & X & E1 & F) St. unfold import_dots_step in St.
  apply on_symbol_ok in St. destruct St as [(t & S1 & St)|(e & S1 & St)].
  - mstep IH St.
    + minv IH St. injection H as -> ->. exists (l ++ [(pos s1, t)]). split; [eapply reads_app; eauto|].
      split; [congruence|]. split; [rewrite map_app; reflexivity|]. apply Forall_app. split; auto.
    + apply ret_ok in St. destruct St as [E2 ->]. injection E2 as -> ->. exists l. repeat split; auto.
      intros u V I. apply view_token in V. rewrite S1 in V. injection V as <-. auto.
  - apply ret_ok in St. destruct St as [E2 ->]. injection E2 as -> ->. exists l. repeat split; auto.
    intros u V. apply view_token in V. congruence.
Qed.

Lemma sound_import_from : forall s x s', p_import_from U n rec s = Ok x s' -> sound_plain U F_import_from s x s'.
Proof.
  unfold p_import_from. cbv zeta. intros s x s' H. mstep IH H. mstep IH H. mstep IH H.
  destruct (dots_loop _ _ _ M) as (dots & Rd & Xd & -> & Fd & _). clear M.
  mstep IH H.
  assert (C : exists l, reads U s1 l s2 /\ ps_except s2 = ps_except s1 /\ E_opt F_dotted_name l (view s2) x0 /\
    (x0 = None -> dots <> [])).
  { mstep IH M. mstep IH M.
    - destruct (rev (map snd dots)) as [|a r] eqn:Er; minv IH M.
      exists []. split; [apply reads_refl|]. split; auto. split; [constructor|]. intros _ ->. discriminate.
    - minv IH M. exists l. repeat split; auto. constructor; auto. discriminate. }
  clear M. destruct C as (l & R1 & X1 & G1 & N).
  minv IH H.
  - match goal with S : ps_symbol s3 = inl ?t, R : reads U s3 [(_, ?t)] ?s4 |- _ =>
      assert (IL : E_import_list [(pos s3, t)] (view s4) (Some t) None None) by (constructor; auto) end.
    by_rule E_import_from.
  - match goal with G : E F_import_as_names ?l0 (view ?s5) ?y, S : ps_symbol s3 = inl ?t, S' : ps_symbol ?s5 = inl ?u, 
                    R : reads U ?s5 [(_, ?u)] ?s6 |- _ =>
      assert (IL : E_import_list ((pos s3, t) :: l0 ++ [(pos s5, u)]) (view s6) (Some t) (Some y) (Some u))
        by (eapply import_paren; side) end.
    by_rule E_import_from.
  - match goal with G : E F_import_as_names ?l0 (view ?s5) ?y |- _ =>
      assert (IL : E_import_list l0 (view s5) None (Some y) None)
        by (eapply import_plain; side) end.
    by_rule E_import_from.
Qed.

Lemma sound_import_as_name : forall s x s', p_import_as_name U s = Ok x s' -> sound_plain U F_import_as_name s x s'.
Proof.
  unfold p_import_as_name. intros s x s' H. minv IH H.
  - by_rule E_import_as_name_as.
  - by_rule E_import_as_name.
Qed.
Lemma sound_dotted_as_name : forall s x s', p_dotted_as_name U rec s = Ok x s' -> sound_plain U F_dotted_as_name s x s'.
Proof.
  unfold p_dotted_as_name. intros s x s' H. minv IH H.
  - by_rule E_dotted_as_name_as.
  - by_rule E_dotted_as_name.
Qed.

Lemma turn_import_as_names : forall p, list_turn U [F_import_as_name] PyComa [] (import_as_names_step U rec p).
Proof.
  intros p ns ts s r s' H. unfold import_as_names_step in H. mstep IH H. exists t. split; auto.
  minv IH H; [turn_item F_import_as_name|turn_done].
Qed.
Lemma sound_import_as_names : forall s x s', p_import_as_names U n rec s = Ok x s' -> sound_plain U F_import_as_names s x s'.
Proof.
  unfold p_import_as_names. intros s x s' H. mstep IH H. mstep IH H. mstep IH H. destruct x1 as [ns ts].
  plain_loop (turn_import_as_names (pos s)) F_import_as_name M. minv IH H. by_rule E_import_as_names.
Qed.
Lemma turn_dotted_as_names : forall p, list_turn U [F_dotted_as_name] PyComa [] (dotted_as_names_step U rec p).
Proof.
  intros p ns ts s r s' H. unfold dotted_as_names_step in H. mstep IH H. exists t. split; auto.
  minv IH H; [turn_item F_dotted_as_name|turn_done].
Qed.
Lemma sound_dotted_as_names : forall s x s', p_dotted_as_names U n rec s = Ok x s' -> sound_plain U F_dotted_as_names s x s'.
Proof.
  unfold p_dotted_as_names. intros s x s' H. mstep IH H. mstep IH H. mstep IH H. destruct x1 as [ns ts].
  plain_loop (turn_dotted_as_names (pos s)) F_dotted_as_name M. minv IH H. by_rule E_dotted_as_names.
Qed.

(** Loops over names. *)
Definition names_turn (k : kind) (step : list token * list token -> M (bool * (list token * list token))) : Prop :=
  forall ns ts s r s', step (ns, ts) s = Ok r s' ->
  exists t, ps_symbol s = inl t /\
  ((tk_kind t <> k /\ r = (false, (ns, ts)) /\ s' = s) \/
   (tk_kind t = k /\ exists s1 u, advance U s = Ok tt s1 /\ ps_symbol s1 = inl u /\ tk_kind u = T_AtomName /\
      advance U s1 = Ok tt s' /\ r = (true, (ns ++ [u], ts ++ [t])))).

Lemma names_loop : forall k step, names_turn k step -> forall t0 s ns ts s',
  while_ n step ([t0], []) s = Ok (ns, ts) s' ->
  exists l ns', ns = t0 :: ns' /\ reads U s l s' /\ ps_except s' = ps_except s /\ E_names k l ns' ts /\ stops [k] (view s').
Proof.
  intros k step T t0 s ns ts s' W.
  set (P := fun (a : list token * list token) s' => exists l ns', fst a = t0 :: ns' /\ reads U s l s' /\
    ps_except s' = ps_except s /\ E_names k l ns' (snd a)).
  set (Q := fun (a : list token * list token) s' => exists l ns', fst a = t0 :: ns' /\ reads U s l s' /\
    ps_except s' = ps_except s /\ E_names k l ns' (snd a) /\ stops [k] (view s')).
  change (Q (ns, ts) s'). refine (while_inv _ _ P Q _ n _ _ _ _ _ W).
  2: { exists [], []. repeat split; auto. apply reads_refl. constructor. }
  clear W. intros [ns1 ts1] s1 b [ns2 ts2] s2 (l & xs & E1 & R & X & G) St. cbn [fst snd] in *.
  destruct (T _ _ _ _ _ St) as (t & S & [(K & E2 & ->)|(K & s3 & u & A & S2 & K2 & A2 & E2)]); injection E2 as -> -> ->.
  - exists l, xs. repeat split; auto. eapply stops_view; eauto. cbn. intuition congruence.
  - use_advance A. use_advance A2. exists (l ++ [(pos s1, t); (pos s3, u)]), (xs ++ [u]). split; [subst; reflexivity|].
    split; [|split; [congruence|]].
    + apply (reads_app _ _ _ _ R). apply (reads_app _ _ _ _ R0). assumption.
    + apply names_snoc; auto.
Qed.

Ltac names_step := 
  match goal with H : ?st _ _ = Ok _ _ |- _ =>
    mstep IH H; eexists; split; [eassumption|]; minv IH H;
    [right; split; [assumption|]; do 2 eexists; repeat split; eassumption|left; repeat split; auto] end.

Lemma turn_dotted_name : forall p, names_turn PyDot (dotted_name_step U p).
Proof. intros p ns ts s r s' H. unfold dotted_name_step in H. names_step. Qed.
Lemma turn_global : forall p, names_turn PyComa (global_step U p).
Proof. intros p ns ts s r s' H. unfold global_step in H. names_step. Qed.
Lemma turn_nonlocal : forall p, names_turn PyComa (nonlocal_step U p).
Proof. intros p ns ts s r s' H. unfold nonlocal_step in H. names_step. Qed.

Lemma sound_dotted_name : forall s x s', p_dotted_name U n s = Ok x s' -> sound_plain U F_dotted_name s x s'.
Proof.
  unfold p_dotted_name. intros s x s' H. mstep IH H. mstep IH H. mstep IH H. destruct x0 as [ns ts].
  destruct (names_loop _ _ (turn_dotted_name _) _ _ _ _ _ M) as (l & ns' & -> & R2 & X2 & G & St).
  minv IH H. by_rule E_dotted_name.
Qed.
Lemma sound_global_stmt : forall s x s', p_global_stmt U n s = Ok x s' -> sound_plain U F_global_stmt s x s'.
Proof.
  unfold p_global_stmt. intros s x s' H. mstep IH H. mstep IH H. mstep IH H. mstep IH H. destruct x0 as [ns ts].
  destruct (names_loop _ _ (turn_global _) _ _ _ _ _ M) as (l & ns' & -> & R2 & X2 & G & St).
  minv IH H. by_rule E_global.
Qed.
Lemma sound_nonlocal_stmt : forall s x s', p_nonlocal_stmt U n s = Ok x s' -> sound_plain U F_nonlocal_stmt s x s'.
Proof.
  unfold p_nonlocal_stmt. intros s x s' H. mstep IH H. mstep IH H. mstep IH H. mstep IH H. destruct x0 as [ns ts].
  destruct (names_loop _ _ (turn_nonlocal _) _ _ _ _ _ M) as (l & ns' & -> & R2 & X2 & G & St).
  minv IH H. by_rule E_nonlocal.
Qed.

Lemma sound_assert_stmt : forall s x s', p_assert_stmt U rec s = Ok x s' -> sound_plain U F_assert_stmt s x s'.
Proof.
  unfold p_assert_stmt. intros s x s' H. minv IH H.
  - by_rule E_assert_from.
  - by_rule E_assert.
Qed.

Lemma sound_with_item : forall s x s', p_with_item U rec s = Ok x s' -> sound_plain U F_with_item s x s'.
Proof.
  unfold p_with_item. intros s x s' H. minv IH H.
  - by_rule E_with_item_as.
  - by_rule E_with_item.
Qed.

Lemma sound_decorator : forall s x s', p_decorator U rec s = Ok x s' -> sound_plain U F_decorator s x s'.
Proof.
  unfold p_decorator. intros s x s' H. mstep IH H. mstep IH H. mstep IH H. mstep IH H.
  mstep IH M. mstep IH M.
  - mstep IH M. mstep IH M. opt_part M0. minv IH M. minv IH H.
    eexists; split; [chain|split; [congruence|cbn [app]]].
    match goal with S : ps_symbol ?s9 = inl ?w, K : tk_kind ?w = T_Newline |- E _ _ (view ?s9) _ => rewrite (view_inl _ _ S) end.
    eapply E_eq; [eapply E_decorator_call; side|side].
  - minv IH M. minv IH H.
    eexists; split; [chain|split; [congruence|cbn [app]]].
    match goal with S : ps_symbol ?s9 = inl ?w, K : tk_kind ?w = T_Newline |- E _ _ (view ?s9) _ => rewrite (view_inl _ _ S) end.
    eapply E_eq; [eapply E_decorator; side|side].
Qed.

Lemma decorators_loop : forall p s0 l0 x s xs s', reads U s0 l0 s -> ps_except s = ps_except s0 ->
  E F_decorator l0 (view s) x -> while_ n (decorators_step rec p) [x] s = Ok xs s' ->
  exists l, reads U s0 l s' /\ ps_except s' = ps_except s0 /\ E_many F_decorator l (view s') xs /\ xs <> [] /\
    stops [PyMatrice] (view s').
Proof.
  intros p s0 l0 x s xs s' R0 X0 G0 W.
  set (P := fun xs s' => exists l, reads U s0 l s' /\ ps_except s' = ps_except s0 /\ E_many F_decorator l (view s') xs /\ xs <> []).
  pattern xs, s'. match goal with |- ?F xs s' => set (Q := F) end.
  refine (while_inv _ _ P Q _ n _ _ _ _ _ W).
  2: { exists l0. split; auto. split; auto. split; [|discriminate]. rewrite <- (app_nil_r l0). eapply many_cons; [exact G0|constructor]. }
  clear W. intros a s1 b a' s2 (l & R & X & G & N) St. unfold decorators_step in St. minv IH St; injection H as -> ->.
  - exists (l ++ l1). split; [eapply reads_app; eauto|]. split; [congruence|]. split; [|destruct a; discriminate].
    eapply many_snoc; eauto. side.
  - exists l. repeat split; auto. side.
Qed.

Lemma sound_decorators : forall s x s', p_decorators n rec s = Ok x s' -> sound_plain U F_decorators s x s'.
Proof.
  unfold p_decorators. intros s x s' H. mstep IH H. mstep IH H. mstep IH H.
  destruct (decorators_loop _ _ _ _ _ _ _ R X G M) as (l2 & R2 & X2 & G2 & N & St). clear R.
  minv IH H. by_rule E_decorators.
Qed.

Lemma sound_parameters : forall s x s', p_parameters U rec s = Ok x s' -> sound_plain U F_parameters s x s'.
Proof.
  unfold p_parameters. intros s x s' H. mstep IH H. mstep IH H. mstep IH H. opt_part M.
  destruct x0 as [x0|].
  - exfalso. inversion G as [|? ? ? ? Gt]; subst. 
    assert (l = []) by (inversion Gt; subst; [discriminate|reflexivity]). subst.
    assert (Some x0 <> None) by discriminate.
    minv IH H. inversion R0; subst.
    match goal with S : ps_symbol s1 = inl ?t, K : tk_kind ?t = PyRightParen |- _ =>
      assert (EQ : t = t0) by congruence; rewrite EQ in K; apply D in K; discriminate end.
  - rewrite (Z eq_refl) in *. minv IH H.
    eexists; split; [|split; [congruence|]].
    + clear R0. chain.
    + cbn [app]. eapply E_eq; [eapply E_parameters; side|side].
Qed.

Lemma sound_typed_args_list : forall s x s', p_typed_args_list s = Ok x s' -> sound_plain U F_typed_args_list s x s'.
Proof.
  unfold p_typed_args_list. intros s x s' H. minv IH H. exists []. split; [chain|split; auto].
  change (pos s) with (fst (view s)). constructor.
Qed.

Lemma sound_tfp_def : forall s x s', p_tfp_def U rec s = Ok x s' -> sound_plain U F_tfp_def s x s'.
Proof.
  unfold p_tfp_def. intros s x s' H. minv IH H.
  - by_rule E_tfp_def_type.
  - by_rule E_tfp_def.
Qed.
Lemma sound_tfp_def_assign : forall s x s', p_tfp_def_assign U rec s = Ok x s' -> sound_plain U F_tfp_def_assign s x s'.
Proof.
  unfold p_tfp_def_assign. intros s x s' H. minv IH H.
  - by_rule E_tfp_assign_default.
  - by_rule E_tfp_assign.
Qed.

(** ** Function types *)
Lemma sound_func_type : forall s x s', p_func_type U rec s = Ok x s' -> sound_plain U F_func_type s x s'.
Proof.
  unfold p_func_type. intros s x s' H. mstep IH H. mstep IH H. mstep IH H. opt_part M.
  minv IH H. by_rule E_func_type.
Qed.

Definition ta_stars (v v' : type_args) (m w : option (token * node)) (ns : list node) (ts : list token) : Prop :=
  v' = mk_ta (ta_nodes v ++ ns) (ta_seps v ++ ts)
    (match m with Some (t, _) => Some t | None => ta_mul v end)
    (match m with Some (_, x) => Some x | None => ta_mul_node v end)
    (match w with Some (t, _) => Some t | None => ta_power v end)
    (match w with Some (_, x) => Some x | None => ta_power_node v end).

Lemma sound_ta_power_part : forall v t s v' s', ps_symbol s = inl t -> tk_kind t = PyPower ->
  ta_power_part U rec v t s = Ok v' s' ->
  exists l ts w, reads U s l s' /\ ps_except s' = ps_except s /\ E_type_stars l (view s') [] ts None w /\
    ta_stars v v' None w [] ts.
Proof.
  intros v t s v' s' S K H. unfold ta_power_part in H. minv IH H.
  do 3 eexists. split; [chain|split; [congruence|cbn [app]]]. split.
  - eapply type_stars_power; side.
  - destruct v. unfold ta_stars, ta_push_sep, ta_set_power. cbn. rewrite !app_nil_r. reflexivity.
Qed.

Lemma sound_ta_mul_part : forall p v t s v' s', ps_symbol s = inl t -> tk_kind t = PyMul ->
  ta_mul_part U n rec p v t s = Ok v' s' ->
  exists l ns ts x w, reads U s l s' /\ ps_except s' = ps_except s /\ E_type_stars l (view s') ns ts (Some (t, x)) w /\
    ta_stars v v' (Some (t, x)) w ns ts.
Proof.
  intros p v t s v' s' S K H. unfold ta_mul_part in H. mstep IH H. mstep IH H.
  set (P := fun v1 s' => exists l xs ts, reads U s ((pos s, t) :: l) s' /\ ps_except s' = ps_except s /\
    E_items [F_test] PyComa l (view s') (x :: xs) ts /\ ta_stars v v1 (Some (t, x)) None xs ts).
  set (Q := fun v' s' => exists l ns ts x w, reads U s l s' /\ ps_except s' = ps_except s /\
    E_type_stars l (view s') ns ts (Some (t, x)) w /\ ta_stars v v' (Some (t, x)) w ns ts).
  change (Q v' s'). refine (while_inv _ _ P Q _ n _ _ _ _ _ H).
  2: { exists l, [], []. split; [apply (reads_app _ _ _ _ R _ _ R0)|]. split; [congruence|]. split.
       - eapply items_one; eauto. in_list.
       - destruct v. unfold ta_stars, ta_set_mul. cbn. rewrite !app_nil_r. reflexivity. }
  clear H. intros v1 s2 b v2 s3 (l2 & xs & ts & R2 & X2 & G2 & V) St. unfold ta_mul_step, ta_err in St. cbv zeta in St.
  mstep IH St. mstep IH St.
  - mstep IH St. mstep IH St. mstep IH St.
    + mstep IH St. apply sound_ta_power_part in M; auto. destruct M as (l3 & ts3 & w & R3 & X3' & G3 & V3).
      minv IH St. injection H as -> ->. subst Q. cbn beta.
      do 5 eexists. split; [apply (reads_app _ _ _ _ R2); chain|]. split; [congruence|]. split.
      * cbn [app]. eapply type_stars_mul_power; side.
      * unfold ta_stars in *. rewrite V3, V. unfold ta_push_sep. cbn. rewrite app_nil_r, <- !app_assoc. reflexivity.
    + minv IH St. injection H as -> ->. subst P. cbn beta.
      exists (l2 ++ (pos s2, t0) :: l0), (xs ++ [x0]), (ts ++ [t0]). split.
      { change ((pos s, t) :: l2 ++ (pos s2, t0) :: l0) with (((pos s, t) :: l2) ++ [(pos s2, t0)] ++ l0).
        apply (reads_app _ _ _ _ R2). chain. }
      split; [congruence|]. split.
      * change (x :: xs ++ [x0]) with ((x :: xs) ++ [x0]). rewrite (view_inl _ _ S0) in G2.
        eapply items_snoc; eauto. in_list.
      * unfold ta_stars in V. rewrite V. unfold ta_stars, ta_push_sep, ta_push_node. cbn. rewrite <- !app_assoc. reflexivity.
  - minv IH St. injection H as -> ->. subst Q. cbn beta. do 5 eexists. split; [exact R2|]. split; auto. split.
    + eapply type_stars_mul; side.
    + exact V.
Qed.

Lemma sound_type_list : forall s x s', p_type_list U n rec s = Ok x s' -> sound_plain U F_type_list s x s'.
Proof.
  unfold p_type_list, ta_err. intros s x s' H. cbv zeta in H. mstep IH H. mstep IH H. mstep IH M. mstep IH M.
  { apply sound_ta_mul_part in M; auto. destruct M as (l & ns & ts & y & w & R & X & G & V).
    unfold ta_stars in V. cbn [ta_nodes ta_seps ta_mul ta_mul_node ta_power ta_power_node app] in V.
    minv IH H. exists l. split; auto. split; auto. eapply E_eq; [eapply E_type_list_stars; exact G|].
    cbn. fold_views. destruct w as [[w1 w2]|]; reflexivity. }
  mstep IH M.
  { apply sound_ta_power_part in M; auto. destruct M as (l & ts & w & R & X & G & V).
    unfold ta_stars in V. cbn [ta_nodes ta_seps ta_mul ta_mul_node ta_power ta_power_node app] in V.
    minv IH H. exists l. split; auto. split; auto. eapply E_eq; [eapply E_type_list_stars; exact G|].
    cbn. fold_views. destruct w as [[w1 w2]|]; reflexivity. }
  mstep IH M.
  set (P := fun v s' => exists l ns ts, reads U s l s' /\ ps_except s' = ps_except s /\
    E_items [F_test] PyComa l (view s') ns ts /\ v = mk_ta ns ts None None None None).
  set (Q := fun v s' => sound_plain U F_type_list s (TypeList (pos s) (pos s') (rev (ta_nodes v)) (rev (ta_seps v))
         (ta_mul v) (ta_mul_node v) (ta_power v) (ta_power_node v)) s').
  assert (C : Q x0 s0).
  { refine (while_inv _ _ P Q _ n _ _ _ _ _ M).
    2: { exists l, [x1], []. repeat split; auto. eapply items_one; eauto. in_list. }
    clear - IH. intros v s1 b v' s2 (l & ns & ts & R & X & G & V) H. unfold ta_main_step, ta_err in H. cbv zeta in H.
    mstep IH H. mstep IH H.
    2: { minv IH H. injection H0 as -> ->. subst Q. cbn. by_rule E_type_list. }
    mstep IH H. mstep IH H. mstep IH H.
    { mstep IH H. apply sound_ta_mul_part in M; auto. destruct M as (l4 & ns4 & ts4 & y & w & R4 & X4 & G4 & V4).
      minv IH H. injection H0 as -> ->. subst Q. cbn beta.
      eexists; split; [chain|split; [congruence|]]. cbn [app].
      eapply E_eq; [eapply E_type_list_then_stars; side|].
      fold_views. unfold ta_stars in V4. subst. cbn. rewrite <- !app_assoc. cbn. destruct w as [[w1 w2]|]; reflexivity. }
    mstep IH H.
    { mstep IH H. apply sound_ta_power_part in M; auto. destruct M as (l4 & ts4 & w & R4 & X4 & G4 & V4).
      minv IH H. injection H0 as -> ->. subst Q. cbn beta.
      eexists; split; [chain|split; [congruence|]]. cbn [app].
      eapply E_eq; [eapply E_type_list_then_stars; side|].
      fold_views. unfold ta_stars in V4. subst. cbn. rewrite <- !app_assoc. cbn. destruct w as [[w1 w2]|]; reflexivity. }
    minv IH H. injection H0 as -> ->. subst P. cbn beta.
    exists (l ++ (pos s1, t) :: l0), (ns ++ [x]), (ts ++ [t]). split; [|split; [congruence|split]].
    - apply (reads_app _ _ _ _ R). apply (reads_app _ _ _ _ R0). assumption.
    - rewrite (view_inl _ _ S) in G. eapply items_snoc; eauto. in_list.
    - reflexivity. }
  minv IH H. exact C.
Qed.

End SoundStmt.
