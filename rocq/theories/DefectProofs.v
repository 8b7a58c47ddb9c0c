(** Inputs that the parser never accepts, whatever surrounds them (C40-C44, C46). *)
From Coq Require Import List Arith Lia.
From Verif Require Import Chars SourceBuffer Token Tokenizer Node ParserState Expressions Statements Blocks Parser GrammarSpec ParseBasics ParseSpec
  SoundBasics Soundness FirstSets CompleteBasics CompleteBlocks Completeness YieldProofs FollowProofs ParseCorollaries.
Import ListNotations.
Local Open Scope nat_scope.

Lemma rejects_sound : forall U f s, (forall x s', ~ sound U f s x s') -> rejects U f s.
Proof. intros U f s H n x s' R. exact (H x s' (run_sound U n f s x s' R)). Qed.
Lemma parsed_sound : forall U f s x s', parsed U f s x s' <-> sound U f s x s'.
Proof. intros. apply run_exact. Qed.

Lemma reads_head : forall U s p t l s', reads U s ((p, t) :: l) s' ->
  p = pos s /\ exists s1, takes U s t s1 /\ reads U s1 l s'.
Proof. intros U s p t l s' H. inversion H; subst. split; [reflexivity|]. eexists. split; [split; eassumption|assumption]. Qed.
Lemma takes_same : forall U s t s1 u s2, takes U s t s1 -> takes U s u s2 -> t = u /\ s1 = s2.
Proof. intros U s t s1 u s2 (A & B) (C & D). split; congruence. Qed.
Lemma reads_head_at : forall U s t s1 p u l s', takes U s t s1 -> reads U s ((p, u) :: l) s' -> u = t /\ reads U s1 l s'.
Proof.
  intros U s t s1 p u l s' T H. apply reads_head in H. destruct H as (_ & s2 & T2 & R).
  destruct (takes_same _ _ _ _ _ _ T T2) as (-> & ->). auto.
Qed.
Lemma reads_symbol : forall U s t l s', ps_symbol s = inl t -> reads U s l s' -> exists p, ahead l (view s') = (p, Some t).
Proof. intros U s t l s' SY R. rewrite <- (reads_ahead _ _ _ _ R). rewrite (view_inl s t SY). eauto. Qed.
Lemma begins_symbol : forall U ks s t l s', ps_symbol s = inl t -> reads U s l s' -> begins ks l -> In (tk_kind t) ks.
Proof.
  intros U ks s t l s' SY R (p & u & l' & -> & I). apply reads_head in R. destruct R as (_ & s1 & (S1 & _) & _). congruence.
Qed.

(** A phrase at the head of what is read is the one the call finds. *)
Lemma plain_unique : forall U f s1 x s2 l1 l2 s' y, parsed U f s1 x s2 -> sort_of f = Plain ->
  reads U s1 (l1 ++ l2) s' -> E f l1 (ahead l2 (view s')) y ->
  x = y /\ reads U s2 l2 s' /\ view s2 = ahead l2 (view s').
Proof.
  intros U f s1 x s2 l1 l2 s' y P SO R D. apply parsed_sound in P.
  apply reads_app_inv in R. destruct R as (m & R1 & R2 & EX).
  assert (SY : sound U f s1 y m).
  { unfold sound. rewrite SO. exists l1. split; [exact R1|]. split; [exact EX|]. rewrite (reads_ahead _ _ _ _ R2). exact D. }
  destruct (derivation_unique _ _ _ _ _ _ _ P SY) as (-> & ->). split; [reflexivity|]. split; [exact R2|].
  apply (reads_ahead _ _ _ _ R2).
Qed.
Lemma plain_unique_nil : forall U f s1 x s2 l s' y, parsed U f s1 x s2 -> sort_of f = Plain ->
  reads U s1 l s' -> E f l (view s') y -> x = y /\ view s2 = view s'.
Proof.
  intros U f s1 x s2 l s' y P SO R D. rewrite <- (app_nil_r l) in R.
  destruct (plain_unique U f s1 x s2 l [] s' y P SO R D) as (A & _ & B). auto.
Qed.

Lemma view_kind : forall s p t u, view s = (p, Some t) -> ps_symbol s = inl u -> t = u.
Proof. intros s p t u V SY. rewrite (view_inl s u SY) in V. congruence. Qed.
Lemma stops_not : forall ks s t, stops ks (view s) -> ps_symbol s = inl t -> ~ In (tk_kind t) ks.
Proof. intros ks s t (u & V & N) SY. rewrite (view_inl s t SY) in V. cbn in V. congruence. Qed.

(** The result of F_stmt on a simple statement. *)
Lemma stmt_simple : forall U s t, ps_symbol s = inl t -> ~ In (tk_kind t) first_compound ->
  rejects U F_simple_stmt s -> rejects U F_stmt s.
Proof.
  intros U s t SY N R. apply rejects_sound. intros x s' (l & RD & D). inversion D; subst.
  - match goal with C : B F_compound_stmt _ _ _ _ _ |- _ => apply B_first in C; pose proof (begins_symbol _ _ _ _ _ _ SY RD C) as I end.
    exact (N I).
  - destruct (proj2 (parsed_sound U F_simple_stmt s x s')) as (n & RN).
    { exists l. split; [exact RD|]. split; [congruence|]. assumption. }
    exact (R n x s' RN).
Qed.

(** ** C44 *)
Lemma simple_first : forall l la x, E F_simple_stmt l la x ->
  exists l1 y q u l2, l = l1 ++ (q, u) :: l2 /\ E F_small_stmt l1 (q, Some u) y /\
    (tk_kind u = PySemiColon \/ tk_kind u = T_Newline).
Proof.
  intros l la x D. inversion D; subst; try (match goal with B : binary _ = Some _ |- _ => discriminate B end);
    match goal with I : E_items _ _ _ _ _ _ |- _ => inversion I; subst; clear I end;
    match goal with I : In _ [F_small_stmt] |- _ => destruct I as [<-|[]] end;
    match goal with R : E_rest _ _ _ _ _ _ |- _ => inversion R; subst; clear R end;
    cbn [ahead] in *;
    match goal with G : E F_small_stmt ?a (?q, Some ?u) ?y |- _ =>
      exists a, y, q, u; eexists; (split; [rewrite ?app_nil_r, <- ?app_assoc; cbn [app]; reflexivity|split; [exact G|auto]]) end.
Qed.

Lemma assert_message : forall U s t s1 x s2 u, takes U s t s1 -> tk_kind t = PyAssert -> parsed U F_test s1 x s2 ->
  ps_symbol s2 = inl u -> tk_kind u = PyComa -> rejects U F_simple_stmt s /\ rejects U F_stmt s.
Proof.
  intros U s t s1 x s2 u T K P SY KU.
  assert (RS : rejects U F_simple_stmt s).
  { apply rejects_sound. intros y s' (l & RD & _ & D). destruct (simple_first _ _ _ D) as (l1 & z & q & v & l2 & -> & D1 & KV).
    inversion D1; subst; [match goal with B : binary _ = Some _ |- _ => discriminate B end|].
    match goal with I : In ?f _, G : E ?f _ _ _ |- _ => rename I into IF; rename G into DF; rename f into g end.
    pose proof (E_first _ _ _ _ DF) as F1.
    assert (BG : begins (firsts g) l1) by (cbn in IF; intuition (subst; exact F1)).
    pose proof (begins_symbol _ _ _ _ _ _ (proj1 T) RD (begins_app _ _ _ BG)) as I. rewrite K in I.
    assert (g = F_assert_stmt) by (cbn in IF; intuition (subst; cbn in I; try (intuition discriminate); auto)). subst g.
    inversion DF; subst; [match goal with B : binary _ = Some _ |- _ => discriminate B end| |].
    - cbn [app] in RD. apply (reads_head_at _ _ _ _ _ _ _ _ T) in RD. destruct RD as (_ & RD).
      destruct (plain_unique U F_test s1 x s2 _ ((q, v) :: l2) s' _ P eq_refl RD ltac:(eassumption)) as (_ & _ & V).
      cbn [ahead] in V. apply (view_kind _ _ _ _ V) in SY. subst v. intuition congruence.
    - cbn [app] in RD. apply (reads_head_at _ _ _ _ _ _ _ _ T) in RD. destruct RD as (_ & RD). rewrite <- app_assoc in RD. cbn [app] in RD.
      match type of RD with reads _ _ (?a ++ (?b, ?c) :: ?d) _ =>
        destruct (plain_unique U F_test s1 x s2 a ((b, c) :: d) s' _ P eq_refl RD ltac:(eassumption)) as (_ & _ & V) end.
      cbn [ahead] in V. apply (view_kind _ _ _ _ V) in SY. subst. congruence. }
  split; [exact RS|]. apply (stmt_simple U s t (proj1 T)); [|exact RS]. rewrite K. cbn. intuition discriminate.
Qed.
Lemma assert_from : forall U s t s1 x s2 u s3 y s', takes U s t s1 -> tk_kind t = PyAssert -> parsed U F_test s1 x s2 ->
  takes U s2 u s3 -> tk_kind u = PyFrom -> parsed U F_test s3 y s' ->
  parsed U F_assert_stmt s (AssertStmt (pos s) (pos s') t x (Some (u, y))) s'.
Proof.
  intros U s t s1 x s2 u s3 y s' (SY & A) K P (SY2 & A2) K2 Q. apply parsed_sound. apply parsed_sound in P. apply parsed_sound in Q.
  destruct P as (l1 & R1 & X1 & D1). destruct Q as (l2 & R2 & X2 & D2).
  exists ((pos s, t) :: l1 ++ (pos s2, u) :: l2). split.
  - eapply reads_cons; [exact SY|exact A|]. eapply reads_app; [exact R1|]. eapply reads_cons; eauto.
  - split; [rewrite X2, (advance_except _ _ _ A2), X1; apply (advance_except _ _ _ A)|].
    rewrite (view_inl s2 u SY2) in D1. apply E_assert_from; assumption.
Qed.

(** ** C41 *)
Lemma async_def : forall U s t s1 u, takes U s t s1 -> tk_kind t = PyAsync -> ps_symbol s1 = inl u -> tk_kind u = PyDef ->
  rejects U F_async_stmt s /\ rejects U F_compound_stmt s /\ rejects U F_stmt s.
Proof.
  intros U s t s1 u T K SY KU.
  assert (A : forall c l la x c' s', B F_async_stmt c l la x c' -> reads U s l s' -> False).
  { intros c l la x c' s' D R. inversion D; subst. apply (reads_head_at _ _ _ _ _ _ _ _ T) in R. destruct R as (_ & R).
    match goal with I : In _ [F_with_stmt; F_for_stmt], G : B _ _ _ _ _ _ |- _ => apply B_first in G; pose proof (begins_symbol _ _ _ _ _ _ SY R G) as J;
      destruct I as [<-|[<-|[]]] end; rewrite KU in J; cbn in J; intuition discriminate. }
  assert (C : forall c l la x c' s', B F_compound_stmt c l la x c' -> reads U s l s' -> False).
  { intros c l la x c' s' D R. inversion D; subst.
    match goal with I : In _ _, G : B _ _ _ _ _ _ |- _ => pose proof (begins_symbol _ _ _ _ _ _ (proj1 T) R (B_first _ _ _ _ _ _ G)) as J;
      rewrite K in J; cbn in I; intuition (subst; cbn in J; try (intuition discriminate); eauto) end. }
  split; [|split]; apply rejects_sound.
  - intros x s' (l & R & D). eauto.
  - intros x s' (l & R & D). eauto.
  - intros x s' (l & R & D). inversion D; subst; eauto.
    match goal with G : E F_simple_stmt _ _ _ |- _ => pose proof (begins_symbol _ _ _ _ _ _ (proj1 T) R (E_first _ _ _ _ G)) as J end.
    rewrite K in J. cbn in J. intuition discriminate.
Qed.

Lemma def_parameters : forall U s t s1 u s2 v s3 w, takes U s t s1 -> tk_kind t = PyDef -> takes U s1 u s2 ->
  takes U s2 v s3 -> tk_kind v = PyLeftParen -> ps_symbol s3 = inl w -> tk_kind w <> PyRightParen ->
  rejects U F_func_def s /\ rejects U F_compound_stmt s /\ rejects U F_stmt s.
Proof.
  intros U s t s1 u s2 v s3 w T K T1 T2 KV SW NW.
  assert (A : forall c l la x c' s', B F_func_def c l la x c' -> reads U s l s' -> False).
  { intros c l la x c' s' D R. inversion D; subst. apply (reads_head_at _ _ _ _ _ _ _ _ T) in R. destruct R as (_ & R).
    apply (reads_head_at _ _ _ _ _ _ _ _ T1) in R. destruct R as (_ & R).
    match goal with O : E_opt F_parameters _ _ _ |- _ => inversion O; subst; clear O end.
    - cbn [app] in R. match goal with Q : returns _ _ _ |- _ => inversion Q; subst; clear Q end.
      + cbn [app] in R. apply (reads_head_at _ _ _ _ _ _ _ _ T2) in R. destruct R as (-> & _). congruence.
      + cbn [app] in R. apply (reads_head_at _ _ _ _ _ _ _ _ T2) in R. destruct R as (-> & _). congruence.
    - match goal with Q : E F_parameters _ _ _ |- _ => inversion Q; subst; [|match goal with B : binary _ = Some _ |- _ => discriminate B end] end || idtac.
      match goal with Q : E F_parameters _ _ _ |- _ => inversion Q; subst; clear Q end;
        [match goal with B : binary _ = Some _ |- _ => discriminate B end|].
      cbn [app] in R. apply (reads_head_at _ _ _ _ _ _ _ _ T2) in R. destruct R as (-> & R).
      apply reads_head in R. destruct R as (_ & s4 & (SQ & _) & _). congruence. }
  assert (C : forall c l la x c' s', B F_compound_stmt c l la x c' -> reads U s l s' -> False).
  { intros c l la x c' s' D R. inversion D; subst.
    match goal with I : In _ _, G : B _ _ _ _ _ _ |- _ => pose proof (begins_symbol _ _ _ _ _ _ (proj1 T) R (B_first _ _ _ _ _ _ G)) as J;
      rewrite K in J; cbn in I; intuition (subst; cbn in J; try (intuition discriminate); eauto) end. }
  split; [|split]; apply rejects_sound.
  - intros x s' (l & R & D). eauto.
  - intros x s' (l & R & D). eauto.
  - intros x s' (l & R & D). inversion D; subst; eauto.
    match goal with G : E F_simple_stmt _ _ _ |- _ => pose proof (begins_symbol _ _ _ _ _ _ (proj1 T) R (E_first _ _ _ _ G)) as J end.
    rewrite K in J. cbn in J. intuition discriminate.
Qed.

(** ** C40 *)
Lemma no_decorated : forall c l la x c', ~ B F_decorated c l la x c'.
Proof. exact (not_decorated (fun _ => 0)). Qed.
Lemma decorated_never : forall U s, rejects U F_decorated s.
Proof. intros U s. apply rejects_sound. intros x s' (l & R & D). exact (no_decorated _ _ _ _ _ D). Qed.
Lemma decorator_line : forall U s t, ps_symbol s = inl t -> tk_kind t = PyMatrice ->
  rejects U F_compound_stmt s /\ rejects U F_stmt s.
Proof.
  intros U s t SY K.
  assert (C : forall c l la x c' s', B F_compound_stmt c l la x c' -> reads U s l s' -> False).
  { intros c l la x c' s' D R. inversion D; subst.
    match goal with I : In _ _, G : B _ _ _ _ _ _ |- _ => pose proof (begins_symbol _ _ _ _ _ _ SY R (B_first _ _ _ _ _ _ G)) as J;
      rewrite K in J; cbn in I; intuition (subst; cbn in J; try (intuition discriminate); eapply no_decorated; eassumption) end. }
  split; apply rejects_sound.
  - intros x s' (l & R & D). eauto.
  - intros x s' (l & R & D). inversion D; subst; eauto.
    match goal with G : E F_simple_stmt _ _ _ |- _ => pose proof (begins_symbol _ _ _ _ _ _ SY R (E_first _ _ _ _ G)) as J end.
    rewrite K in J. cbn in J. intuition discriminate.
Qed.

(** ** C46 *)
Lemma exprlist_open : forall U s1 n x s2 u l q v s' a, run U n F_named_expression s1 = Ok x s2 -> ps_symbol s2 = inl u ->
  tk_kind u <> PyComa -> tk_kind v = PyIn -> reads U s1 (l ++ (q, v) :: s') a -> forall y, ~ E F_exprlist l (q, Some v) y.
Proof.
  intros U s1 n x s2 u l q v s' a P SY NC KV R y D.
  assert (PP : parsed U F_named_expression s1 x s2) by (exists n; exact P).
  assert (F0 : forall f, In f [F_star_expr; F_named_expression] -> forall l1 l2 z, E f l1 (ahead l2 (view a)) z -> reads U s1 (l1 ++ l2) a ->
    f = F_named_expression).
  { intros f I l1 l2 z DZ RZ. destruct I as [<-|[<-|[]]]; [|reflexivity]. exfalso.
    apply E_first in DZ. apply run_sound in P. destruct P as (l3 & R3 & _ & D3). apply E_first in D3.
    destruct DZ as (p1 & t1 & l1' & -> & I1). destruct D3 as (p3 & t3 & l3' & -> & I3).
    apply reads_head in RZ. destruct RZ as (_ & m1 & (S1 & _) & _). apply reads_head in R3. destruct R3 as (_ & m3 & (S3 & _) & _).
    assert (t1 = t3) by congruence. subst t3. cbn in I1. destruct I1 as [I1|[]]. rewrite <- I1 in I3. cbn in I3. intuition discriminate. }
  assert (NI : tk_kind u <> PyIn).
  { intros KU. apply run_sound in P. destruct P as (l3 & R3 & _ & D3). apply E_after in D3.
    rewrite (view_inl s2 u SY) in D3. apply (D3 u eq_refl). rewrite KU. vm_compute. tauto. }
  assert (ITEMS : forall l1 l2 xs ts la, E_items [F_star_expr; F_named_expression] PyComa l1 la xs ts -> reads U s1 (l1 ++ l2) a ->
    la = ahead l2 (view a) -> ts <> [] -> False).
  { intros l1 l2 xs ts la I RI EL NT. inversion I; subst.
    match goal with H : E_rest _ _ _ _ _ _ |- _ => inversion H; subst; [congruence|] end.
    rewrite <- app_assoc in RI. cbn [app] in RI. cbn [ahead] in *.
    match goal with I0 : In ?f _, G : E ?f ?l0 (?p, Some ?t) ?z |- _ =>
      match type of RI with reads _ _ (l0 ++ (p, t) :: ?m) _ =>
        pose proof (F0 f I0 l0 ((p, t) :: m) z G RI) as EF; subst f;
        destruct (plain_unique U _ s1 x s2 l0 ((p, t) :: m) a z PP eq_refl RI G) as (_ & _ & V) end end.
    cbn [ahead] in V. apply (view_kind _ _ _ _ V) in SY. subst. congruence. }
  inversion D; subst; [discriminate| | |].
  - match goal with I0 : In ?f _, G : E ?f l _ ?z |- _ => pose proof (F0 f I0 l ((q, v) :: s') z G R) as EF; subst f;
      destruct (plain_unique U _ s1 x s2 l ((q, v) :: s') a z PP eq_refl R G) as (_ & _ & V) end.
    cbn [ahead] in V. apply (view_kind _ _ _ _ V) in SY. subst. congruence.
  - eapply ITEMS; [eassumption|exact R|reflexivity|assumption].
  - rewrite <- app_assoc in R. cbn [app] in R.
    match goal with I : E_items _ _ _ _ _ ?ts |- _ => destruct ts as [|t0 ts0]; [|eapply ITEMS; [exact I|exact R|reflexivity|discriminate]]; inversion I; subst end.
    match goal with H : E_rest _ _ _ _ _ [] |- _ => inversion H; subst end. rewrite app_nil_r in R. cbn [ahead] in *.
    match goal with I0 : In ?f _, G : E ?f ?l0 (?p, Some ?t) ?z |- _ =>
      match type of R with reads _ _ (l0 ++ (p, t) :: ?m) _ =>
        pose proof (F0 f I0 l0 ((p, t) :: m) z G R) as EF; subst f;
        destruct (plain_unique U _ s1 x s2 l0 ((p, t) :: m) a z PP eq_refl R G) as (_ & _ & V) end end.
    cbn [ahead] in V. apply (view_kind _ _ _ _ V) in SY. subst. congruence.
Qed.
Lemma for_plain : forall U s t s1 x s2 u, takes U s t s1 -> tk_kind t = PyFor -> parsed U F_named_expression s1 x s2 ->
  ps_symbol s2 = inl u -> tk_kind u <> PyComa ->
  rejects U F_sync_comp_for s /\ rejects U F_comp_for s /\ rejects U F_for_stmt s /\ rejects U F_stmt s.
Proof.
  intros U s t s1 x s2 u T K (n & P) SY NC.
  assert (X : forall l la y s', E F_sync_comp_for l la y -> reads U s l s' -> False).
  { intros l la y s' D R. inversion D; subst; [discriminate|]. apply (reads_head_at _ _ _ _ _ _ _ _ T) in R. destruct R as (_ & R).
    eapply (exprlist_open U s1 n x s2 u _ _ _ _ _ P SY NC); [eassumption|exact R|eassumption]. }
  assert (X2 : forall l la y s', E F_comp_for l la y -> reads U s l s' -> False).
  { intros l la y s' D R. inversion D; subst; [discriminate| |eauto].
    apply (reads_head_at _ _ _ _ _ _ _ _ T) in R. destruct R as (-> & _). congruence. }
  assert (A : forall c l la y c' s', B F_for_stmt c l la y c' -> reads U s l s' -> False).
  { intros c l la y c' s' D R. inversion D; subst. apply (reads_head_at _ _ _ _ _ _ _ _ T) in R. destruct R as (_ & R).
    eapply (exprlist_open U s1 n x s2 u _ _ _ _ _ P SY NC); [eassumption|exact R|eassumption]. }
  split; [|split; [|split]]; apply rejects_sound.
  - intros y s' (l & R & _ & D). eauto.
  - intros y s' (l & R & _ & D). eauto.
  - intros y s' (l & R & D). eauto.
  - intros y s' (l & R & D). inversion D; subst.
    + match goal with H : B F_compound_stmt _ _ _ _ _ |- _ => inversion H; subst end.
      match goal with I : In _ _, G : B _ _ _ _ _ _ |- _ => pose proof (begins_symbol _ _ _ _ _ _ (proj1 T) R (B_first _ _ _ _ _ _ G)) as J;
      rewrite K in J; cbn in I; intuition (subst; cbn in J; try (intuition discriminate); eauto) end.
    + match goal with G : E F_simple_stmt _ _ _ |- _ => pose proof (begins_symbol _ _ _ _ _ _ (proj1 T) R (E_first _ _ _ _ G)) as J end.
      rewrite K in J. cbn in J. intuition discriminate.
Qed.
(** What the accepted loops look like: the last target is starred, or a comma stands before 'in'. *)
Lemma items_last : forall fs k l la xs ts, E_items fs k l la xs ts ->
  exists f l1 l2 x, In f fs /\ l = l1 ++ l2 /\ E f l2 la x.
Proof.
  assert (REST : forall fs k l la xs ts, E_rest fs k l la xs ts -> l = [] \/
    exists f l1 l2 x, In f fs /\ l = l1 ++ l2 /\ E f l2 la x).
  { intros fs k l la xs ts H. induction H as [|fs k f p t l1 x l2 xs ts la K I D R IH]; [left; reflexivity|]. right.
    destruct IH as [->|(f' & a & b & y & I' & -> & D')].
    - exists f, [(p, t)], l1, x. rewrite app_nil_r. auto.
    - exists f', ((p, t) :: l1 ++ a), b, y. split; [exact I'|]. split; [cbn [app]; rewrite <- app_assoc; reflexivity|exact D']. }
  intros fs k l la xs ts H. inversion H; subst.
  match goal with R : E_rest _ _ _ _ _ _ |- _ => apply REST in R; destruct R as [->|(f' & a & b & y & I' & -> & D')] end.
  - exists f, [], l1, x. rewrite app_nil_r. auto.
  - exists f', (l1 ++ a), b, y. rewrite app_assoc. auto.
Qed.
Lemma exprlist_in : forall l q u x, E F_exprlist l (q, Some u) x -> tk_kind u = PyIn ->
  (exists l1 p t, l = l1 ++ [(p, t)] /\ tk_kind t = PyComa) \/
  (exists l1 l2 y, l = l1 ++ l2 /\ E F_star_expr l2 (q, Some u) y).
Proof.
  intros l q u x D K.
  assert (NM : forall l y, ~ E F_named_expression l (q, Some u) y).
  { intros l0 y D0. apply E_after in D0. apply (D0 u eq_refl). rewrite K. vm_compute. tauto. }
  inversion D; subst; [discriminate| | |].
  - match goal with I : In _ _ |- _ => destruct I as [<-|[<-|[]]] end; [right; exists [], l, x; auto|exfalso; eapply NM; eauto].
  - match goal with I : E_items _ _ _ _ _ _ |- _ => apply items_last in I; destruct I as (f & l1 & l2 & y & IF & -> & DF) end.
    destruct IF as [<-|[<-|[]]]; [right; exists l1, l2, y; auto|exfalso; eapply NM; eauto].
  - left. eauto.
Qed.

(** ** C43 *)
Lemma test_starts : forall U s x s', parsed U F_test s x s' -> exists t, ps_symbol s = inl t /\ In (tk_kind t) first_test.
Proof.
  intros U s x s' P. apply parsed_sound in P. destruct P as (l & R & _ & D). apply E_first in D.
  destruct D as (p & t & l' & -> & I). apply reads_head in R. destruct R as (_ & m & (SY & _) & _). eauto.
Qed.
Ltac no_binary := match goal with B : binary _ = Some _ |- _ => discriminate B end.
(** After an expression at the start of a subscript list comes ':', ',' or the look-ahead. *)
Lemma subscript_first : forall U s1 x s2 l l' s' y, parsed U F_test s1 x s2 -> reads U s1 (l ++ l') s' ->
  E F_subscript_list l (ahead l' (view s')) y ->
  view s2 = ahead l' (view s') \/ exists p t, view s2 = (p, Some t) /\ (tk_kind t = PyColon \/ tk_kind t = PyComa).
Proof.
  intros U s1 x s2 l l' s' y P R D. inversion D; subst; [discriminate|].
  match goal with G : E_items _ _ _ _ _ _ |- _ => inversion G; subst; clear G end.
  match goal with I : In _ [F_subscript] |- _ => destruct I as [<-|[]] end.
  rewrite <- app_assoc in R.
  match goal with G : E F_subscript _ _ _ |- _ => inversion G; subst; [no_binary| |] end.
  - rewrite <- ahead_app in *.
    match goal with G : E F_test ?a (ahead ?b _) _ |- _ => destruct (plain_unique U F_test s1 x s2 a b s' _ P eq_refl R G) as (_ & _ & V) end.
    match goal with G : E_rest _ _ _ _ _ _ |- _ => inversion G; subst end.
    + left. exact V.
    + right. cbn [app ahead] in V. eauto.
  - right. rewrite <- app_assoc in R. cbn [app] in R.
    match goal with G : E_opt F_test ?a (?b, Some ?c) ?o |- _ =>
      match type of R with reads _ _ (a ++ (b, c) :: _) _ => inversion G; subst end end.
    + exfalso. destruct (test_starts _ _ _ _ P) as (w & SU & IU). cbn [app] in R. apply reads_head in R. destruct R as (_ & m & (SM & _) & _).
      rewrite SU in SM. injection SM as <-.
      match goal with K : tk_kind w = PyColon |- _ => rewrite K in IU end. cbn in IU. intuition discriminate.
    + match goal with G : E F_test ?a (?b, Some ?c) _ |- _ =>
        match type of R with reads _ _ (a ++ (b, c) :: ?d) _ =>
          destruct (plain_unique U F_test s1 x s2 a ((b, c) :: d) s' _ P eq_refl R G) as (_ & _ & V) end end.
      cbn [ahead] in V. eauto.
Qed.
Lemma call_argument : forall U s t s1 x s2 u, takes U s t s1 -> tk_kind t = PyLeftParen -> parsed U F_test s1 x s2 ->
  ps_symbol s2 = inl u -> In (tk_kind u) [PyAssign; PyFor; PyAsync; PyColonAssign] -> rejects U F_trailer s.
Proof.
  intros U s t s1 x s2 u T K P SY IU. apply rejects_sound. intros y s' (l & R & _ & D).
  inversion D; subst; [discriminate| | |]; apply (reads_head_at _ _ _ _ _ _ _ _ T) in R; destruct R as (-> & R); try congruence.
  match goal with O : E_opt _ _ _ _ |- _ => inversion O; subst; clear O end.
  - destruct (test_starts _ _ _ _ P) as (v & SV & IV). cbn [app] in R. apply reads_head in R. destruct R as (_ & m1 & (S1 & _) & _).
    rewrite SV in S1. injection S1 as <-. match goal with Q : tk_kind v = _ |- _ => rewrite Q in IV end. cbn in IV. intuition discriminate.
  - match goal with G : E F_subscript_list ?a (?q, Some ?v) _ |- _ =>
      destruct (subscript_first U s1 x s2 a [(q, v)] s' _ P R G) as [V|(p1 & t1 & V & KT)] end.
    + cbn [ahead] in V. apply (view_kind _ _ _ _ V) in SY. subst. cbn in IU. intuition congruence.
    + apply (view_kind _ _ _ _ V) in SY. subst. cbn in IU. intuition congruence.
Qed.
Lemma call_star : forall U s t s1 u, takes U s t s1 -> tk_kind t = PyLeftParen ->
  ps_symbol s1 = inl u -> In (tk_kind u) [PyMul; PyPower] -> rejects U F_trailer s.
Proof.
  intros U s t s1 u T K SY IU. apply rejects_sound. intros y s' (l & R & _ & D).
  inversion D; subst; [discriminate| | |]; apply (reads_head_at _ _ _ _ _ _ _ _ T) in R; destruct R as (-> & R); try congruence.
  match goal with O : E_opt _ _ _ _ |- _ => inversion O; subst; clear O end.
  - cbn [app] in R. apply reads_head in R. destruct R as (_ & m1 & (S1 & _) & _). assert (u = u0) by congruence. subst. cbn in IU. intuition congruence.
  - match goal with G : E F_subscript_list _ _ _ |- _ => apply E_first in G;
      pose proof (begins_symbol _ _ _ _ _ _ SY R (begins_app _ _ _ G)) as J end.
    cbn in IU. destruct IU as [IU|[IU|[]]]; rewrite <- IU in J; cbn in J; intuition discriminate.
Qed.
(** The bracket after the second bound of a slice is taken for its second separator. *)
Lemma slice_bracket : forall U s t s1 x s2 u s3 y s4 v s5 z s', takes U s t s1 -> tk_kind t = PyLeftBracket ->
  parsed U F_test s1 x s2 -> takes U s2 u s3 -> tk_kind u = PyColon -> parsed U F_test s3 y s4 ->
  takes U s4 v s5 -> tk_kind v = PyRightBracket -> parsed U F_trailer s z s' ->
  exists l p w, reads U s5 (l ++ [(p, w)]) s' /\ tk_kind w = PyRightBracket.
Proof.
  intros U s t s1 x s2 u s3 y s4 v s5 z s' T K P1 T2 KU P2 T4 KV Z. apply parsed_sound in Z. destruct Z as (l & R & _ & D).
  inversion D; subst; [discriminate| | |]; apply (reads_head_at _ _ _ _ _ _ _ _ T) in R; destruct R as (-> & R); try congruence.
  match goal with G : E F_subscript_list _ _ _ |- _ => inversion G; subst; [no_binary|] end.
  match goal with G : E_items _ _ _ _ _ _ |- _ => inversion G; subst; clear G end.
  match goal with I : In _ [F_subscript] |- _ => destruct I as [<-|[]] end.
  rewrite <- app_assoc in R.
  match goal with G : E F_subscript _ _ _ |- _ => inversion G; subst; [no_binary| |] end.
  - exfalso. match goal with G : E F_test ?a (ahead ?b (?q, Some ?w)) _ |- _ =>
      destruct (plain_unique U F_test s1 x s2 a (b ++ [(q, w)]) s' _ P1 eq_refl R ltac:(rewrite ahead_app; exact G)) as (_ & _ & V) end.
    rewrite ahead_app in V. cbn [ahead] in V.
    match goal with ST : stops [PyColon] _ |- _ => rewrite <- V in ST; apply (stops_not _ _ _ ST (proj1 T2)) end. rewrite KU. cbn. auto.
  - rewrite <- app_assoc in R. cbn [app] in R. rewrite <- app_assoc in R. cbn [app] in R.
    match goal with G : E_opt F_test ?a (?b, Some ?c) ?o |- _ =>
      match type of R with reads _ _ (a ++ (b, c) :: _) _ => inversion G; subst; clear G end end.
    + exfalso. destruct (test_starts _ _ _ _ P1) as (w & SU & IU). cbn [app] in R. apply reads_head in R. destruct R as (_ & m & (SM & _) & _).
      rewrite SU in SM. injection SM as <-. match goal with Q : tk_kind w = PyColon |- _ => rewrite Q in IU end. cbn in IU. intuition discriminate.
    + match goal with G : E F_test ?a (?b, Some ?c) _ |- _ =>
        match type of R with reads _ _ (a ++ (b, c) :: ?d) _ =>
          destruct (plain_unique U F_test s1 x s2 a ((b, c) :: d) s' _ P1 eq_refl R G) as (_ & R2 & _); clear G R end end.
      apply (reads_head_at _ _ _ _ _ _ _ _ T2) in R2. destruct R2 as (-> & R).
      match goal with G : E_opt F_test ?a (?b, Some ?c) ?o |- _ =>
        match type of R with reads _ _ (a ++ (b, c) :: _) _ => inversion G; subst; clear G end end.
      * exfalso. destruct (test_starts _ _ _ _ P2) as (w & SU & IU). cbn [app] in R. apply reads_head in R. destruct R as (_ & m & (SM & _) & _).
        rewrite SU in SM. injection SM as <-.
        match goal with Q : None = None -> In (tk_kind w) _ |- _ => specialize (Q eq_refl); cbn in Q; destruct Q as [Q|[Q|[]]]; rewrite <- Q in IU end;
          cbn in IU; intuition discriminate.
      * match goal with G : E F_test ?a (?b, Some ?c) _ |- _ =>
          match type of R with reads _ _ (a ++ (b, c) :: ?d) _ =>
            destruct (plain_unique U F_test s3 y s4 a ((b, c) :: d) s' _ P2 eq_refl R G) as (_ & R2 & _); clear G R end end.
        apply (reads_head_at _ _ _ _ _ _ _ _ T4) in R2. destruct R2 as (-> & R).
        rewrite <- ?app_assoc, ?app_assoc in R. eauto.
Qed.

(** ** C42 *)
Lemma empty_braces : forall U s t s1 u, takes U s t s1 -> tk_kind t = PyLeftCurly -> ps_symbol s1 = inl u -> tk_kind u = PyRightCurly ->
  rejects U F_atom s.
Proof.
  intros U s t s1 u T K SY KU. apply rejects_sound. intros y s' (l & R & _ & D).
  assert (M : forall l' la x s'', E F_dictorset_maker l' la x -> forall m, reads U s1 (l' ++ m) s'' -> False).
  { intros l' la x s'' G m RM. apply E_first in G. pose proof (begins_symbol _ _ _ _ _ _ SY RM (begins_app _ _ _ G)) as J.
    rewrite KU in J. cbn in J. intuition discriminate. }
  inversion D; subst; try no_binary; apply (reads_head_at _ _ _ _ _ _ _ _ T) in R; destruct R as (-> & R); try congruence; eauto.
  match goal with I : In _ constants |- _ => rewrite K in I; cbn in I; intuition discriminate end.
Qed.
Lemma dictionary_size : forall U n s a b ns ts s', run U n F_dictorset_maker s = Ok (DictionaryContainer a b ns ts) s' ->
  (length ns = 1 /\ length ts <= 1) \/ (length ns = 2 /\ length ts = 1).
Proof.
  intros U n s a b ns ts s' H. apply run_sound in H. destruct H as (l & _ & _ & D). inversion D; subst; try no_binary; cbn; auto.
Qed.

(** Two readings of a list from the same place: one continues the other. *)
Lemma rest_prefix : forall U fs k, (forall f, In f fs -> sort_of f = Plain) ->
  (forall f g l1 la1 x l2 la2 y, In f fs -> In g fs -> E f l1 la1 x -> E g l2 la2 y -> ahead l1 la1 = ahead l2 la2 -> f = g) ->
  forall l la xs ts, E_rest fs k l la xs ts -> forall s s1, reads U s l s1 -> view s1 = la ->
  forall l' la' xs' ts', E_rest fs k l' la' xs' ts' -> forall s', reads U s l' s' -> view s' = la' ->
  (exists l2 m xs2 ts2, reads U m l2 s' /\ ps_lexer s1 = ps_lexer m /\ ps_symbol s1 = ps_symbol m /\ E_rest fs k l2 la' xs2 ts2) \/
  (exists t, snd la' = Some t /\ tk_kind t = k).
Proof.
  intros U fs k PL FD l la xs ts H. induction H as [fs k la|fs k f p t l1 x l2 xs ts la K I D R IH]; intros s s1 RD V l' la' xs' ts' H' s' RD' V'.
  - inversion RD; subst. left. exists l', s, xs', ts'. split; [exact RD'|]. split; [congruence|]. split; [congruence|]. exact H'.
  - apply reads_head in RD. destruct RD as (_ & m & T & RD). inversion H' as [|? ? g p' t' l1' x' l2' xs2 ts2 ? K' I' D' R']; subst.
    + right. inversion RD'; subst. exists t. split; [|reflexivity]. destruct T as (T & _). apply view_token. congruence.
    + apply (reads_head_at _ _ _ _ _ _ _ _ T) in RD'. destruct RD' as (_ & RD').
      pose proof (reads_app_inv _ _ _ _ _ RD) as (m1 & A1 & A2 & EX). pose proof (reads_app_inv _ _ _ _ _ RD') as (m2 & B1 & B2 & EX').
      assert (FG : f = g).
      { eapply FD; [exact I|exact I'|exact D|exact D'|].
        rewrite <- (reads_ahead _ _ _ _ A2), <- (reads_ahead _ _ _ _ B2), <- (reads_ahead _ _ _ _ A1), <- (reads_ahead _ _ _ _ B1). reflexivity. }
      subst g.
      assert (S1 : sound U f m x m1).
      { unfold sound. rewrite (PL f I). exists l1. split; [exact A1|]. split; [exact EX|]. rewrite (reads_ahead _ _ _ _ A2). exact D. }
      assert (S2 : sound U f m x' m2).
      { unfold sound. rewrite (PL f I). exists l1'. split; [exact B1|]. split; [exact EX'|]. rewrite (reads_ahead _ _ _ _ B2). exact D'. }
      destruct (derivation_unique _ _ _ _ _ _ _ S1 S2) as (_ & ->).
      exact (IH PL FD m2 s1 A2 eq_refl l2' (view s') xs2 ts2 R' s' B2 eq_refl).
Qed.
