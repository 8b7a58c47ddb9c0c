(** Soundness of the compound statements and of complete inputs. *)
From Coq Require Import List Arith Lia.
From Verif Require Import Chars SourceBuffer Token Tokenizer Node ParserState Expressions Statements Blocks
  GrammarSpec ParseBasics SoundBasics SoundExpr.
Import ListNotations.

Section SoundBlocks.
Variable U : unicode.
Variable n : nat.
Variable rec : fn -> M node.
Hypothesis IH : good U rec.

Ltac opt_part M :=
  let t := fresh "t" in let S := fresh "S" in let D := fresh "D" in let Z := fresh "Z" in
  let l := fresh "l" in let R := fresh "R" in let X := fresh "X" in let G := fresh "G" in
  first [apply (opt_sound1 U rec IH) in M | apply (opt_sound U rec IH) in M]; [|reflexivity|discriminate];
  destruct M as (t & S & D & Z & l & R & X & G).
(** all flags in terms of the earliest state *)
Ltac flags :=
  unfold sound_block;
  repeat match goal with X : ps_except ?a = ps_except ?b |- _ =>
    first [ constr_eq a b; clear X | rewrite X in *; clear X ] end.
Ltac by_block rule :=
  flags; eexists; split; [chain | cbn [app]; eapply B_eq; [eapply rule; side | side]].

(** the symbol at the start of what is read *)
Lemma reads_head : forall s p t l s', reads U s ((p, t) :: l) s' -> ps_symbol s = inl t /\ p = pos s.
Proof. intros s p t l s' R. inversion R; subst. auto. Qed.

Lemma not_match : forall s t l s', reads U s l s' -> ps_symbol s = inl t ->
  (tk_kind t = T_AtomName -> text_of t <> $"match") -> ~ starts_match l.
Proof.
  intros s t l s' R S N (p & u & l' & -> & K & Tx). apply reads_head in R. destruct R as [S' _].
  assert (u = t) by congruence. subst. exact (N K Tx).
Qed.

Lemma sound_stmt : forall s x s', p_stmt rec s = Ok x s' -> sound_block U F_stmt s x s'.
Proof.
  unfold p_stmt. intros s x s' H. mstep IH H. mstep IH H. mstep IH H; [|mstep IH H; [mstep IH H|]].
  - use_rec IH H. exists l. split; auto. apply B_stmt_compound. assumption.
  - use_rec IH H.
  - use_rec IH H. exists l. split; auto. rewrite X. apply B_stmt_simple; auto.
    eapply not_match; eauto. intros _ Tx. rewrite Tx in K1. discriminate.
  - use_rec IH H. exists l. split; auto. rewrite X. apply B_stmt_simple; auto.
    eapply not_match; eauto.
Qed.

Lemma sound_compound_stmt : forall s x s', p_compound_stmt rec s = Ok x s' -> sound_block U F_compound_stmt s x s'.
Proof.
  unfold p_compound_stmt. intros s x s' H. minv IH H;
    match type of H with rec ?f _ = _ => use_rec IH H; by_block (B_compound f) end.
Qed.

Lemma sound_async_stmt : forall s x s', p_async_stmt U rec s = Ok x s' -> sound_block U F_async_stmt s x s'.
Proof.
  unfold p_async_stmt. intros s x s' H. mstep IH H. mstep IH H. mstep IH H. mstep IH H.
  - mstep IH H. exfalso. inversion G; subst.
    match goal with R : reads U s0 _ _ |- _ => apply reads_head in R; destruct R as [SS _] end. congruence.
  - minv IH H; match goal with G : B ?f _ _ _ _ _ |- _ => by_block (B_async f) end.
Qed.

Lemma B_many_loop : forall f k (step : list node -> M (bool * list node)),
  (forall xs s r s', step xs s = Ok r s' -> exists t, ps_symbol s = inl t /\
     ((tk_kind t <> k /\ r = (false, xs) /\ s' = s) \/
      (tk_kind t = k /\ exists x l, r = (true, xs ++ [x]) /\ reads U s l s' /\
         B f (ps_except s) l (view s') x (ps_except s')))) ->
  forall s0 l0 xs0 s xs s', reads U s0 l0 s -> B_many f (ps_except s0) l0 (view s) xs0 (ps_except s) ->
  while_ n step xs0 s = Ok xs s' ->
  exists l, reads U s0 l s' /\ B_many f (ps_except s0) l (view s') xs (ps_except s') /\ stops [k] (view s') /\
    (xs0 <> [] -> xs <> []).
Proof.
  intros f k step T s0 l0 xs0 s xs s' R0 G0 W.
  set (P := fun xs s' => exists l, reads U s0 l s' /\ B_many f (ps_except s0) l (view s') xs (ps_except s') /\ (xs0 <> [] -> xs <> [])).
  pattern xs, s'. match goal with |- ?F xs s' => set (Q := F) end.
  refine (while_inv _ _ P Q _ n _ _ _ _ _ W).
  2: { exists l0. auto. }
  clear W. intros a s1 b a' s2 (l & R & G & N) St. destruct (T _ _ _ _ St) as (t & S & [(K & E1 & ->)|(K & x & l2 & E1 & R2 & G2)]);
    injection E1 as -> ->.
  - exists l. repeat split; auto. eapply stops_view; eauto. cbn. intuition congruence.
  - exists (l ++ l2). split; [eapply reads_app; eauto|]. split; [|destruct a; discriminate].
    eapply B_many_snoc; eauto. eapply reads_ahead; eauto.
Qed.

Lemma B_many_one : forall f c l la x c', B f c l la x c' -> B_many f c l la [x] c'.
Proof. intros. rewrite <- (app_nil_r l). econstructor; [cbn [ahead]; eassumption|constructor]. Qed.

Lemma sound_if_stmt : forall s x s', p_if_stmt U n rec s = Ok x s' -> sound_block U F_if_stmt s x s'.
Proof.
  unfold p_if_stmt. intros s x s' H. mstep IH H. mstep IH H. mstep IH H. mstep IH H. mstep IH H. mstep IH H.
  eapply (B_many_loop F_elif_stmt PyElif) in M; [|clear M; intros xs sa r sb St; unfold if_step in St|apply reads_refl|constructor].
  2: { mstep IH St. exists t1. split; auto. minv IH St; [right|left]; repeat split; auto. do 2 eexists. repeat split; eassumption. }
  destruct M as (l3 & R5 & G5 & St & _). minv IH H.
  - match goal with G : B F_else_stmt _ _ _ _ _ |- _ => apply B_some in G end. by_block B_if.
  - flags. exists ([(pos s, t)] ++ l ++ [(pos s1, t0)] ++ l0 ++ l3 ++ []). split; [rewrite app_nil_r; chain|].
    cbn [app]. eapply B_eq; [eapply B_if; try apply B_none; rewrite ?app_nil_r; cbn [ahead]; side|side].
    intros _. destruct St as (u & V & N). exists u. split; auto. apply view_token in V.
    assert (u = t1) by congruence. subst u. cbn in *. intuition.
Qed.
Lemma sound_elif_stmt : forall s x s', p_elif_stmt U rec s = Ok x s' -> sound_block U F_elif_stmt s x s'.
Proof. unfold p_elif_stmt. intros s x s' H. minv IH H. by_block B_elif. Qed.
Lemma sound_else_stmt : forall s x s', p_else_stmt U rec s = Ok x s' -> sound_block U F_else_stmt s x s'.
Proof. unfold p_else_stmt. intros s x s' H. minv IH H. by_block B_else. Qed.
Lemma sound_finally_stmt : forall s x s', p_finally_stmt U rec s = Ok x s' -> sound_block U F_finally_stmt s x s'.
Proof. unfold p_finally_stmt. intros s x s' H. minv IH H. by_block B_finally. Qed.
Lemma sound_while_stmt : forall s x s', p_while_stmt U rec s = Ok x s' -> sound_block U F_while_stmt s x s'.
Proof.
  unfold p_while_stmt. intros s x s' H. minv IH H.
  - match goal with G : B F_else_stmt _ _ _ _ _ |- _ => apply B_some in G end. by_block B_while.
  - flags. exists ([(pos s, t)] ++ l ++ [(pos s1, t0)] ++ l0 ++ []). split; [rewrite app_nil_r; chain|].
    cbn [app]. eapply B_eq; [eapply B_while; try apply B_none; cbn [ahead]; side|side].
    intros _. side.
Qed.

Lemma comment_sound : forall msg p s o s', type_comment_opt U msg p s = Ok o s' ->
  exists l, reads U s l s' /\ ps_except s' = ps_except s /\ opt_token T_TypeComment l o.
Proof.
  unfold type_comment_opt. intros msg p s o s' H. minv IH H.
  - exists [(pos s, t)]. repeat split; auto. constructor; auto.
  - exists []. repeat split; auto. apply reads_refl. constructor.
Qed.

Lemma sound_for_stmt : forall s x s', p_for_stmt U rec s = Ok x s' -> sound_block U F_for_stmt s x s'.
Proof.
  unfold p_for_stmt. intros s x s' H. do 7 mstep IH H. mstep IH H.
  destruct (comment_sound _ _ _ _ _ M) as (lc & Rc & Xc & Gc). clear M. minv IH H.
  - match goal with G : B F_else_stmt _ _ _ _ _ |- _ => apply B_some in G end. by_block B_for.
  - flags. exists ([(pos s, t)] ++ l ++ [(pos s1, t0)] ++ l0 ++ [(pos s3, t1)] ++ lc ++ l1 ++ []).
    split; [rewrite app_nil_r; chain|].
    cbn [app]. eapply B_eq; [eapply B_for; try apply B_none; cbn [ahead]; side|side].
    intros _. side.
Qed.

Lemma opt_B : forall f k msg p s o s', sort_of f = Block ->
  on_symbol (fail msg p) (fun t => if is k t then do r <- rec f; ret (Some r) else ret None) s = Ok o s' ->
  exists l, reads U s l s' /\ B_opt f (ps_except s) l (view s') o (ps_except s') /\ (o = None -> s' = s /\ stops [k] (view s')).
Proof.
  intros f k msg p s o s' Sf H. mstep IH H. mstep IH H.
  - apply bind_ok in H. destruct H as (x & s1 & M & H). apply IH in M. unfold sound in M. rewrite Sf in M.
    destruct M as (l & R & G). minv IH H. exists l. repeat split; auto; try discriminate. constructor; auto.
  - minv IH H. exists []. split; [apply reads_refl|]. split; [constructor|]. intros _. split; auto. side.
Qed.

Lemma set_except_ok : forall A c (k : M A) s x s', (set_except c;; k) s = Ok x s' ->
  exists s1, ps_lexer s1 = ps_lexer s /\ ps_symbol s1 = ps_symbol s /\ ps_except s1 = c /\ k s1 = Ok x s'.
Proof. intros A c k s x s' H. exists (mk_parser (ps_lexer s) (ps_symbol s) c). auto. Qed.

Lemma sound_try_stmt : forall s x s', p_try_stmt U n rec s = Ok x s' -> sound_block U F_try_stmt s x s'.
Proof.
  unfold p_try_stmt. intros s x s' H. mstep IH H. mstep IH H. apply set_except_ok in H.
  destruct H as (s1 & L1 & S1 & X1 & H). 
  eapply reads_core_r in R; [|symmetry; exact L1|symmetry; exact S1].
  mstep IH H. mstep IH H. mstep IH H. mstep IH H.
  - minv IH H. flags. rewrite X1 in *. eexists; split; [chain|]. cbn [app]. eapply B_eq; [eapply B_try_finally; side|side].
  - mstep IH H. mstep IH H.
    eapply (B_many_loop F_except_stmt PyExcept) in M;
      [|clear M; intros xs s9 r s10 St; unfold try_step in St|exact R2|apply B_many_one; eassumption].
    2: { mstep IH St. match goal with S : ps_symbol s9 = inl ?t9 |- _ => exists t9 end. split; auto.
         minv IH St; [right|left]; repeat split; auto. do 2 eexists. repeat split; eassumption. }
    destruct M as (l3 & R5 & G5 & St & N). clear R2. mstep IH H. apply opt_B in M; auto.
    destruct M as (l4 & R6 & G6 & Z6). mstep IH H. apply opt_B in M; auto.
    destruct M as (l5 & R7 & G7 & Z7). minv IH H. flags. rewrite X1 in *. eexists; split; [chain|]. cbn [app].
    eapply B_eq; [eapply B_try; side|side].
    + apply N. discriminate.
    + intros ->. destruct (Z7 eq_refl) as [E7 St7]. subst.
      match goal with o : option node |- _ => destruct o; auto end.
      destruct (Z6 eq_refl) as [E6 St6]. subst.
      destruct St as (u & V & I), St6 as (u6 & V6 & I6), St7 as (u7 & V7 & I7). exists u. split; auto.
      assert (u6 = u) by congruence. assert (u7 = u) by congruence. subst. cbn in *. intuition.
Qed.

Lemma turn_with_paren : forall p, list_turn U [F_with_item] PyComa [PyRightParen] (with_paren_step U rec p).
Proof.
  intros p ns ts s r s' H. unfold with_paren_step in H. mstep IH H. exists t. split; auto.
  minv IH H.
  - right; split; [assumption|]; eexists; split; [eassumption|]; right; split; [side|]; split; [reflexivity|eauto].
  - right; split; [assumption|]; eexists; split; [eassumption|]; left; exists F_with_item; do 2 eexists;
    split; [in_list|]; split; [eassumption|]; split; [eassumption|]; split; [eassumption|reflexivity].
  - left; repeat split; auto.
Qed.
Lemma turn_with : forall p, list_turn U [F_with_item] PyComa [] (with_step U rec p).
Proof.
  intros p ns ts s r s' H. unfold with_step in H. mstep IH H. exists t. split; auto.
  minv IH H.
  - right; split; [assumption|]; eexists; split; [eassumption|]; left; exists F_with_item; do 2 eexists;
    split; [in_list|]; split; [eassumption|]; split; [eassumption|]; split; [eassumption|reflexivity].
  - left; repeat split; auto.
Qed.

Lemma sound_with_stmt : forall s x s', p_with_stmt U n rec s = Ok x s' -> sound_block U F_with_stmt s x s'.
Proof.
  unfold p_with_stmt. intros s x s' H. mstep IH H. mstep IH H. apply bind_ok in H.
  destruct H as ([[a [ns ts]] b] & s1 & M & H).
  assert (C : exists l, reads U s0 l s1 /\ ps_except s1 = ps_except s0 /\ with_items l (view s1) a ns ts b).
  { mstep IH M. mstep IH M.
    - mstep IH M. mstep IH M. mstep IH M. destruct x1 as [ns1 ts1].
      match goal with R : reads U ?sa ?l0 ?sb, W : while_ _ _ _ ?sb = _, G : E F_with_item _ _ _ |- _ =>
        destruct (list_loop U _ _ _ _ (turn_with_paren _) ltac:(cbn; intuition congruence) F_with_item _ _ _ _ _ _ _ _ ltac:(in_list) R ltac:(congruence) G W)
        as (X2 & Z & [(l2 & R2 & G2 & St)|(l2 & p & u & ts0 & R2 & G2 & K2 & Et & Bf)]) end.
      + minv IH M. injection H0 as -> -> -> ->.
        match goal with G : E_items _ _ _ (view ?s9) _ _, S : ps_symbol ?s9 = inl _ |- _ => rewrite (view_inl _ _ S) in G end.
        eexists. split; [|split; [congruence|apply with_paren; eassumption]].
        match goal with |- reads U _ (?a :: ?l1 ++ ?b) ?sz => change (reads U s0 ([a] ++ l1 ++ b) sz) end.
        eapply reads_app; [eassumption|]. eapply reads_app; eassumption.
      + subst ts1. minv IH M. injection H0 as -> -> -> ->.
        eexists. split; [|split; [congruence|eapply with_paren_comma; eassumption]].
        match goal with |- reads U _ (?a :: ?l1 ++ [?b; ?c]) ?sz => change (reads U s0 ([a] ++ l1 ++ [b] ++ [c]) sz) end.
        rewrite (app_assoc l2). eapply reads_app; [eassumption|]. eapply reads_app; eassumption.
    - mstep IH M. mstep IH M. destruct x1 as [ns1 ts1].
      match goal with R : reads U ?sa ?l0 ?sb, W : while_ _ _ _ ?sb = _, G : E F_with_item _ _ _ |- _ =>
        destruct (list_loop_plain U _ _ _ (turn_with _) F_with_item _ _ _ _ _ _ _ _ ltac:(in_list) R ltac:(congruence) G W)
        as (l2 & R2 & X2 & G2 & St & Z) end.
      minv IH M. injection H0 as -> -> -> ->. exists l2. split; auto. split; [congruence|]. apply with_plain; auto.
      intros (p' & t' & l' & -> & K'). apply reads_head in R2. destruct R2. congruence. }
  clear M. destruct C as (l & R1 & X1 & G1). minv IH H.
  match goal with S : ps_symbol s1 = inl _ |- _ => rewrite (view_inl _ _ S) in G1 end.
  flags. eexists; split; [chain|]. cbn [app]. eapply B_eq; [eapply B_with; [assumption|exact G1|..]; side|side].
Qed.

Lemma sound_except_stmt : forall s x s', p_except_stmt U rec s = Ok x s' -> sound_block U F_except_stmt s x s'.
Proof. unfold p_except_stmt. intros s x s' H. minv IH H. by_block B_except_stmt. Qed.

Lemma star_sound : forall p s o s', except_star U p s = Ok o s' ->
  exists l, reads U s l s' /\ opt_token PyMul l o /\ except_step (is_some o) (ps_except s) (ps_except s').
Proof.
  unfold except_star. intros p s o s' H. mstep IH H. mstep IH H.
  - mstep IH H. unfold bind at 1, get_except in H. rewrite X in H. destruct (ps_except s) eqn:Ex; [| |].
    all: try (minv IH H; fail).
    all: try (apply set_except_ok in H; destruct H as (s1 & L1 & S1 & X1 & H)).
    all: minv IH H; exists [(pos s, t)].
    + split; [eapply reads_core_r; eauto|]. split; [constructor; auto|]. rewrite X1. exact (except_first true).
    + split; auto. split; [constructor; auto|]. rewrite X. exact (except_again true).
  - unfold bind at 1, get_except in H. destruct (ps_except s) eqn:Ex.
    all: try (minv IH H; fail).
    all: try (apply set_except_ok in H; destruct H as (s1 & L1 & S1 & X1 & H)).
    all: minv IH H; exists [].
    + split; [constructor; auto|]. split; [constructor; auto|]. rewrite X1. exact (except_first false).
    + split; [apply reads_refl|]. split; [constructor; auto|]. rewrite Ex. exact (except_again false).
Qed.

Lemma sound_except_clause : forall s x s', p_except_clause U rec s = Ok x s' -> sound_block U F_except_clause s x s'.
Proof.
  unfold p_except_clause. intros s x s' H. mstep IH H. mstep IH H. mstep IH H.
  apply star_sound in M. destruct M as (l & R1 & O & X1).
  assert (C : exists l w, reads U s1 l s' /\ ps_except s' = ps_except s1 /\ except_what l (view s') w /\
    x = ExceptClauseStmt (pos s) (pos s') t x0 w).
  { minv IH H.
    - exists [], None. repeat split; auto. apply reads_refl. constructor. side.
    - do 2 eexists. split; [chain|]. split; [congruence|]. split; [|reflexivity]. cbn [app]. eapply except_as; side.
    - do 2 eexists. split; [chain|]. split; [congruence|]. split; [|reflexivity]. eapply except_test; side. }
  destruct C as (l2 & w & R2 & X2 & G2 & ->). flags. eexists; split; [chain|]. cbn [app].
  eapply B_eq; [eapply B_except_clause; side|side].
Qed.

Lemma stmts_loop : forall msg p s0 l0 x s xs s', reads U s0 l0 s ->
  B F_stmt (ps_except s0) l0 (view s) x (ps_except s) ->
  while_ n (suite_step rec msg p) [x] s = Ok xs s' ->
  exists l, reads U s0 l s' /\ B_many F_stmt (ps_except s0) l (view s') xs (ps_except s') /\ xs <> [].
Proof.
  intros msg p s0 l0 x s xs s' R0 G0 W.
  set (P := fun xs s' => exists l, reads U s0 l s' /\ B_many F_stmt (ps_except s0) l (view s') xs (ps_except s') /\ xs <> []).
  pattern xs, s'. match goal with |- ?F xs s' => set (Q := F) end.
  refine (while_inv _ _ P Q _ n _ _ _ _ _ W).
  2: { exists l0. split; auto. split; [|discriminate]. apply B_many_one; auto. }
  clear W. intros a s1 b a' s2 (l & R & G & N) St. unfold suite_step in St. minv IH St; injection H as -> ->.
  - exists l. auto.
  - exists (l ++ l1). split; [eapply reads_app; eauto|]. split; [|destruct a; discriminate].
    eapply B_many_snoc; eauto. side.
Qed.

Lemma sound_suite : forall s x s', p_suite U n rec s = Ok x s' -> sound_block U F_suite s x s'.
Proof.
  unfold p_suite. intros s x s' H. mstep IH H. mstep IH H. mstep IH H.
  - mstep IH H. mstep IH H. mstep IH H. mstep IH H.
    match goal with R : reads U ?sa _ ?sb, W : while_ _ _ _ ?sb = _, G : B F_stmt _ _ _ _ _ |- _ =>
      destruct (stmts_loop _ _ _ _ _ _ _ _ R G W) as (l3 & R3 & G3 & N3); clear R end.
    minv IH H. flags. eexists; split; [chain|]. cbn [app]. eapply B_eq; [eapply B_suite_block; side|side].
  - use_rec IH H. flags. exists l. split; auto. apply B_suite_simple; auto.
Qed.

Lemma sound_decorated : forall s x s', p_decorated rec s = Ok x s' -> sound_block U F_decorated s x s'.
Proof.
  unfold p_decorated. intros s x s' H.
  minv IH H; match goal with G : B ?f _ _ _ _ _ |- _ => by_block (B_decorated f) end.
Qed.
Lemma sound_async_func_def : forall s x s', p_async_func_def U rec s = Ok x s' -> sound_block U F_async_func_def s x s'.
Proof. unfold p_async_func_def. intros s x s' H. minv IH H. by_block B_async_func. Qed.

Lemma sound_func_def : forall s x s', p_func_def U rec s = Ok x s' -> sound_block U F_func_def s x s'.
Proof.
  unfold p_func_def. intros s x s' H. mstep IH H. mstep IH H. mstep IH H. mstep IH H.
  assert (C : exists l, reads U s1 l s2 /\ ps_except s2 = ps_except s1 /\ E_opt F_parameters l (view s2) x0).
  { minv IH M; [exists l; repeat split; auto; constructor; auto|exists []; repeat split; auto; [apply reads_refl|constructor]]. }
  clear M. destruct C as (l1 & R1 & X1' & G1). mstep IH H.
  assert (C : exists l, reads U s2 l s3 /\ ps_except s3 = ps_except s2 /\ returns l (view s3) x1).
  { minv IH M.
    - eexists. split; [chain|]. split; [congruence|]. cbn [app]. constructor; auto.
    - exists []. repeat split; auto; [apply reads_refl|constructor]. }
  clear M. destruct C as (l2 & R2 & X2 & G2). mstep IH H. mstep IH H.
  destruct (comment_sound _ _ _ _ _ M) as (lc & Rc & Xc & Gc). clear M. minv IH H.
  match goal with S : ps_symbol s3 = inl _ |- _ => rewrite (view_inl _ _ S) in G2 end.
  flags. eexists; split; [chain|]. cbn [app]. eapply B_eq; [eapply B_func with (w := x1); try eassumption; side|side].
Qed.

Lemma sound_func_body_suite : forall s x s', p_func_body_suite U n rec s = Ok x s' -> sound_block U F_func_body_suite s x s'.
Proof.
  unfold p_func_body_suite. intros s x s' H. mstep IH H. mstep IH H. mstep IH H.
  - mstep IH H. apply bind_ok in H. destruct H as ([a b] & s1 & M & H).
    assert (C : exists l, reads U s0 l s1 /\ ps_except s1 = ps_except s0 /\ comment_line l a b).
    { minv IH M.
      - injection H0 as -> ->. eexists. split; [chain|]. split; [congruence|]. cbn [app]. constructor; auto.
      - injection H0 as -> ->. exists []. repeat split; auto; [apply reads_refl|constructor]. }
    clear M. destruct C as (lc & Rc & Xc & Gc).
    mstep IH H. mstep IH H. mstep IH H.
    match goal with R : reads U ?sa _ ?sb, W : while_ _ _ _ ?sb = _, G : B F_stmt _ _ _ _ _ |- _ =>
      destruct (stmts_loop _ _ _ _ _ _ _ _ R G W) as (l3 & R3 & G3 & N3); clear R end.
    minv IH H. flags. eexists; split; [chain|]. cbn [app]. eapply B_eq; [eapply B_body_block; side|side].
  - use_rec IH H. exists l. split; auto. rewrite X. apply B_body_simple; auto.
Qed.

Lemma sound_class_def : forall s x s', p_class_def U rec s = Ok x s' -> sound_block U F_class_def s x s'.
Proof.
  unfold p_class_def. intros s x s' H. mstep IH H. mstep IH H. mstep IH H. apply bind_ok in H.
  destruct H as ([[a o] b] & s2 & M & H).
  assert (C : exists l, reads U s1 l s2 /\ ps_except s2 = ps_except s1 /\ bases l a o b).
  { mstep IH M. mstep IH M.
    - mstep IH M. mstep IH M. opt_part M0. minv IH M. injection H0 as -> -> ->.
      match goal with S : ps_symbol ?s9 = inl ?t9, G : E_opt _ _ (view ?s9) _, K : tk_kind ?t9 = PyRightParen |- _ => rewrite (view_inl _ _ S) in G end.
      eexists. split; [chain|]. split; [congruence|]. cbn [app]. constructor; auto.
    - minv IH M. injection H0 as -> -> ->. exists []. repeat split; auto; [apply reads_refl|constructor]. }
  clear M. destruct C as (lc & Rc & Xc & Gc). minv IH H. by_block B_class.
Qed.

(** ** Complete inputs *)
Lemma newlines_loop : forall msg p s ts s', while_ n (newlines_step U msg p) [] s = Ok ts s' ->
  exists l, reads U s l s' /\ ps_except s' = ps_except s /\ ts = map snd l /\
    Forall (fun d : ptok => tk_kind (snd d) = T_Newline) l.
Proof.
  intros msg p s ts s' W.
  set (P := fun ts s' => exists l, reads U s l s' /\ ps_except s' = ps_except s /\ ts = map snd l /\
    Forall (fun d : ptok => tk_kind (snd d) = T_Newline) l).
  change (P ts s'). refine (while_inv _ _ P P _ n _ _ _ _ _ W).
  2: { exists []. repeat split; auto. apply reads_refl. }
  clear W. intros a s1 b a' s2 (l & R & X & E1 & F) St. unfold newlines_step in St. minv IH St; injection H as -> ->.
  - exists (l ++ [(pos s1, t)]). split; [eapply reads_app; eauto|]. split; [congruence|]. split; [rewrite map_app; reflexivity|].
    apply Forall_app. split; auto.
  - exists l. auto.
Qed.

Lemma first_advance : forall A (k : M A) s x s', (advance U;; k) s = Ok x s' ->
  exists s1, advance U s = Ok tt s1 /\ k s1 = Ok x s'.
Proof. intros A k s x s' H. apply bind_ok in H. destruct H as ([] & s1 & A1 & H). eauto. Qed.

Lemma sound_eval_input : forall s x s', p_eval_input U n rec s = Ok x s' -> sound_whole U F_eval_input s x s'.
Proof.
  unfold p_eval_input. intros s x s' H. apply first_advance in H. destruct H as (s1 & A & H).
  mstep IH H. mstep IH H. mstep IH H. apply newlines_loop in M. destruct M as (l2 & R2 & X2 & -> & F2).
  minv IH H. exists s1, (l ++ l2). split; auto. split; [eapply reads_app; eauto|].
  match goal with S : ps_symbol _ = inl _ |- _ => rewrite (view_inl _ _ S) end. rewrite X2, X.
  match goal with |- Input _ _ _ (?p, Some ?t) ?x _ => replace x with (EvalInput (start l (ahead l2 (p, Some t))) p x0 (rev (map snd l2)) t) by side end.
  apply I_eval; auto. side.
Qed.

Lemma sound_func_type_input : forall s x s', p_func_type_input U n rec s = Ok x s' -> sound_whole U F_func_type_input s x s'.
Proof.
  unfold p_func_type_input. intros s x s' H. apply first_advance in H. destruct H as (s1 & A & H).
  mstep IH H. mstep IH H. mstep IH H. apply newlines_loop in M. destruct M as (l2 & R2 & X2 & -> & F2).
  minv IH H. exists s1, (l ++ l2). split; auto. split; [eapply reads_app; eauto|].
  match goal with S : ps_symbol _ = inl _ |- _ => rewrite (view_inl _ _ S) end. rewrite X2, X.
  match goal with |- Input _ _ _ (?p, Some ?t) ?x _ => replace x with (FuncTypeInput (start l (ahead l2 (p, Some t))) p x0 (rev (map snd l2)) t) by side end.
  apply I_func_type; auto. side.
Qed.

Lemma file_loop : forall p s xs ts s', while_ n (file_input_step U rec p) ([], []) s = Ok (xs, ts) s' ->
  exists l, reads U s l s' /\ lines (ps_except s) l (view s') xs ts (ps_except s').
Proof.
  intros p s xs ts s' W.
  set (P := fun (a : list node * list token) s' => exists l, reads U s l s' /\ lines (ps_except s) l (view s') (fst a) (snd a) (ps_except s')).
  change (P (xs, ts) s'). refine (while_inv _ _ P P _ n _ _ _ _ _ W).
  2: { exists []. split; [apply reads_refl|constructor]. }
  clear W. intros [xs1 ts1] s1 b [xs2 ts2] s2 (l & R & G) St. unfold file_input_step in St. cbn [fst snd] in *.
  minv IH St; injection H as -> -> ->.
  - exists l. auto.
  - exists (l ++ [(pos s1, t)]). split; [eapply reads_app; eauto|]. rewrite X. cbn [fst snd].
    eapply lines_snoc_newline; eauto. apply view_inl; auto.
  - exists (l ++ l0). split; [eapply reads_app; eauto|]. cbn [fst snd]. eapply lines_snoc_stmt; eauto. side.
Qed.

Lemma sound_file_input : forall s x s', p_file_input U n rec s = Ok x s' -> sound_whole U F_file_input s x s'.
Proof.
  unfold p_file_input. intros s x s' H. apply first_advance in H. destruct H as (s1 & A & H).
  mstep IH H. apply bind_ok in H. destruct H as ([xs ts] & s2 & M & H). apply file_loop in M.
  destruct M as (l & R & G). minv IH H. exists s1, l. split; auto. split; auto.
  match goal with S : ps_symbol _ = inl _ |- _ => rewrite (view_inl _ _ S) in * end.
  match goal with |- Input _ _ _ (?p, Some ?t) ?x _ => replace x with (FileInput (start l (p, Some t)) p (rev xs) (rev ts) t) by side end.
  apply I_file; auto.
Qed.

Lemma sound_single_compound : forall p f s x s', sort_of f <> Whole -> single_compound rec p f s = Ok x s' ->
  exists y t, ps_symbol s' = inl t /\ tk_kind t = T_Newline /\ sound U f s y s' /\ x = SingleInput p (pos s') (Some y) (Some t).
Proof.
  unfold single_compound. intros p f s x s' Sf H. apply bind_ok in H. destruct H as (y & s1 & M & H). apply IH in M.
  minv IH H. eauto 10.
Qed.

Lemma sound_single_input : forall s x s', p_single_input U rec s = Ok x s' -> sound_whole U F_single_input s x s'.
Proof.
  unfold p_single_input. intros s x s' H. apply first_advance in H. destruct H as (s1 & A & H).
  mstep IH H. mstep IH H. mstep IH H; [|mstep IH H; [|mstep IH H]].
  - minv IH H. exists s1, [(pos s1, t)]. split; auto. split; auto. rewrite X. match goal with |- context [pos ?z] => lazymatch z with s1 => fail | _ => change (pos z) with (fst (view z)) end end.
    apply I_single_newline; auto.
  - apply sound_single_compound in H; [|discriminate]. destruct H as (y & u & Su & Ku & (l & R & G) & ->).
    exists s1, l. split; auto. split; auto. rewrite (view_inl _ _ Su) in *.
    replace (pos s1) with (start l (pos s', Some u)) by side. apply I_single_compound; auto.
  - apply sound_single_compound in H; [|discriminate]. destruct H as (y & u & Su & Ku & [] & _).
  - minv IH H. exists s1, l. split; auto. split; auto. rewrite X.
    match goal with R : reads U s1 l ?z |- _ =>
      replace (pos s1) with (start l (view z)) by side; change (pos z) with (fst (view z)) end.
    apply I_single_simple; auto. eapply not_match; eauto. intros Ka Tx. rewrite (is_eq _ _ _ Ka), Tx in K1. discriminate.
Qed.

End SoundBlocks.
