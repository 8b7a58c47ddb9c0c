(** Tuples, lists, sets and dictionaries: which sizes are accepted (C42). *)
From Coq Require Import List Arith Lia.
From Verif Require Import Chars SourceBuffer Token Tokenizer Node ParserState Expressions Statements Blocks Parser GrammarSpec ParseBasics ParseSpec
  SoundBasics Soundness FirstSets CompleteBasics CompleteBlocks Completeness YieldProofs FollowProofs ParseCorollaries DefectProofs DefectProofs2.
Import ListNotations.
Local Open Scope nat_scope.

Lemma err_rejects : forall U n f s e, run U n f s = Err e -> rejects U f s.
Proof.
  intros U n f s e H m x s' R.
  pose proof (Monotone.run_fixed U n (n + m) f s ltac:(lia) ltac:(congruence)) as F.
  pose proof (Monotone.run_fixed U m (n + m) f s ltac:(lia) ltac:(congruence)) as G. congruence.
Qed.

Lemma takes_reads : forall U s t s1, takes U s t s1 -> reads U s [(pos s, t)] s1 /\ ps_except s1 = ps_except s /\ view s = (pos s, Some t).
Proof.
  intros U s t s1 (SY & A). split; [eapply reads_cons; [exact SY|exact A|apply reads_refl]|].
  split; [apply (advance_except _ _ _ A)|]. unfold view. rewrite SY. reflexivity.
Qed.
Lemma series_reads : forall U fs k s xs ts s', series U fs k s xs ts s' -> (forall f, In f fs -> sort_of f = Plain) ->
  exists f x xr l1 l2 la, xs = x :: xr /\ In f fs /\ reads U s (l1 ++ l2) s' /\ ps_except s' = ps_except s /\ la = view s' /\
    E f l1 (ahead l2 la) x /\ E_rest fs k l2 la xr ts.
Proof.
  induction 1 as [f s x s' I P|f s x s1 t s2 xs ts s' I P T K SR IH]; intros PL.
  - apply parsed_sound in P. unfold sound in P. rewrite (PL f I) in P. destruct P as (l & R & EX & D).
    exists f, x, [], l, [], (view s'). rewrite app_nil_r. repeat split; auto. constructor.
  - destruct (IH PL) as (g & y & yr & l1 & l2 & la & -> & IG & R & EX & -> & D & RE).
    apply parsed_sound in P. unfold sound in P. rewrite (PL f I) in P. destruct P as (l & RP & EP & DP).
    destruct (takes_reads _ _ _ _ T) as (RT & ET & V).
    exists f, x, (y :: yr), l, ((pos s1, t) :: l1 ++ l2), (view s'). split; [reflexivity|]. split; [assumption|]. split.
    + eapply reads_app; [exact RP|]. exact (reads_app _ _ _ _ RT _ _ R).
    + split; [congruence|]. split; [reflexivity|]. cbn [ahead]. rewrite <- V. split; [exact DP|]. econstructor; eauto.
Qed.
Lemma series_items : forall U fs k s xs ts s', series U fs k s xs ts s' -> (forall f, In f fs -> sort_of f = Plain) ->
  exists l, reads U s l s' /\ ps_except s' = ps_except s /\ E_items fs k l (view s') xs ts.
Proof.
  intros U fs k s xs ts s' H PL. destruct (series_reads _ _ _ _ _ _ _ H PL) as (f & x & xr & l1 & l2 & la & -> & I & R & EX & -> & D & RE).
  exists (l1 ++ l2). split; [exact R|]. split; [exact EX|]. econstructor; eauto.
Qed.
Lemma elements_plain : forall f, In f [F_star_expr; F_named_expression] -> sort_of f = Plain.
Proof. intros f [<-|[<-|[]]]; reflexivity. Qed.

(** ** Tuples and lists *)
Lemma comma_rejected : forall U s b s1 xs ts s2 c s3 u, takes U s b s1 -> In (tk_kind b) [PyLeftParen; PyLeftBracket] ->
  series U [F_star_expr; F_named_expression] PyComa s1 xs ts s2 -> takes U s2 c s3 -> tk_kind c = PyComa ->
  ps_symbol s3 = inl u -> In (tk_kind u) [PyRightParen; PyRightBracket] -> rejects U F_atom s.
Proof.
  intros U s b s1 xs ts s2 c s3 u TB KB SR TC KC SY KU. destruct (series_items _ _ _ _ _ _ _ SR elements_plain) as (l & R & EX & D).
  eapply trailing_comma; eauto.
Qed.
Lemma display_accepted : forall U s b s1 xs ts s2 u s3, takes U s b s1 ->
  series U [F_star_expr; F_named_expression] PyComa s1 xs ts s2 -> takes U s2 u s3 ->
  (tk_kind b = PyLeftParen -> tk_kind u = PyRightParen ->
    parsed U F_atom s (AtomTuple (pos s) (pos s3) b (Some (TestListComp (pos s1) (pos s2) (rev xs) (rev ts))) u) s3) /\
  (tk_kind b = PyLeftBracket -> tk_kind u = PyRightBracket ->
    parsed U F_atom s (AtomList (pos s) (pos s3) b (Some (TestListComp (pos s1) (pos s2) (rev xs) (rev ts))) u) s3).
Proof.
  intros U s b s1 xs ts s2 u s3 TB SR TU. destruct (series_items _ _ _ _ _ _ _ SR elements_plain) as (l & R & EX & D).
  destruct (takes_reads _ _ _ _ TB) as (RB & EB & VB). destruct (takes_reads _ _ _ _ TU) as (RU & EU & VU).
  assert (RA : reads U s ((pos s, b) :: l ++ [(pos s2, u)]) s3).
  { exact (reads_app _ _ _ _ RB _ _ (reads_app _ _ _ _ R _ _ RU)). }
  assert (P1 : pos s1 = start l (view s2)).
  { unfold start. rewrite <- (reads_ahead _ _ _ _ R). reflexivity. }
  split; intros K1 K2; apply parsed_sound; exists ((pos s, b) :: l ++ [(pos s2, u)]); (split; [exact RA|]); (split; [congruence|]);
    rewrite P1; change (pos s2) with (fst (view s2)) at 2; rewrite VU in *; [eapply (E_tuple F_testlist_comp)|eapply E_list]; auto; cbn [In]; auto;
    (apply E_testlist_comp; [assumption|]; eexists; split; [reflexivity|]; rewrite K2; destruct ts; cbn; intuition discriminate).
Qed.

(** ** Sets *)
Lemma set_rest_of : forall fs k l la xs ts, E_rest fs k l la xs ts -> fs = [F_test] -> k = PyComa -> forall s, E_set_rest s l la xs ts.
Proof.
  intros fs k l la xs ts H. induction H as [fs k la|fs k f p t l1 x l2 xs ts la K I D R IH]; intros -> -> s; [constructor|].
  destruct I as [<-|[]]. constructor; auto. apply entry_test. assumption.
Qed.
Lemma set_accepted : forall U s b s1 xs ts s2 u s3, takes U s b s1 -> tk_kind b = PyLeftCurly ->
  series U [F_test] PyComa s1 xs ts s2 -> takes U s2 u s3 -> tk_kind u = PyRightCurly ->
  parsed U F_atom s (AtomSet (pos s) (pos s3) b (Some (SetContainer (pos s1) (pos s2) (rev xs) (rev ts))) u) s3.
Proof.
  intros U s b s1 xs ts s2 u s3 TB KB SR TU KU.
  destruct (series_reads _ _ _ _ _ _ _ SR) as (f & x & xr & l1 & l2 & la & -> & I & R & EX & -> & D & RE); [intros f [<-|[]]; reflexivity|].
  destruct I as [<-|[]].
  destruct (takes_reads _ _ _ _ TB) as (RB & EB & VB). destruct (takes_reads _ _ _ _ TU) as (RU & EU & VU).
  apply parsed_sound. exists ((pos s, b) :: (l1 ++ l2) ++ [(pos s2, u)]).
  split; [exact (reads_app _ _ _ _ RB _ _ (reads_app _ _ _ _ R _ _ RU))|]. split; [congruence|].
  assert (P1 : pos s1 = start l1 (ahead l2 (pos s2, Some u))).
  { unfold start. rewrite <- ahead_app, <- VU, <- (reads_ahead _ _ _ _ R). reflexivity. }
  rewrite VU in *. rewrite P1. change (pos s2) with (fst (pos s2, Some u)) at 3. apply E_set; auto. apply E_set_items.
  - apply set_first_test; [assumption|]. inversion RE; subst; cbn [ahead]; (eexists; split; [reflexivity|]); cbn; intuition congruence.
  - eapply set_rest_of; eauto.
  - eexists; split; [reflexivity|]. rewrite KU. cbn. intuition discriminate.
Qed.
Lemma set_comma_accepted : forall U s b s1 xs ts s2 c s3 u s4, takes U s b s1 -> tk_kind b = PyLeftCurly ->
  series U [F_test] PyComa s1 xs ts s2 -> takes U s2 c s3 -> tk_kind c = PyComa -> takes U s3 u s4 -> tk_kind u = PyRightCurly ->
  parsed U F_atom s (AtomSet (pos s) (pos s4) b (Some (SetContainer (pos s1) (pos s3) (rev xs) (rev (ts ++ [c])))) u) s4.
Proof.
  intros U s b s1 xs ts s2 c s3 u s4 TB KB SR TC KC TU KU.
  destruct (series_reads _ _ _ _ _ _ _ SR) as (f & x & xr & l1 & l2 & la & -> & I & R & EX & -> & D & RE); [intros f [<-|[]]; reflexivity|].
  destruct I as [<-|[]].
  destruct (takes_reads _ _ _ _ TB) as (RB & EB & VB). destruct (takes_reads _ _ _ _ TU) as (RU & EU & VU).
  destruct (takes_reads _ _ _ _ TC) as (RC & EC & VC).
  apply parsed_sound. exists ((pos s, b) :: (l1 ++ l2 ++ [(pos s2, c)]) ++ [(pos s3, u)]).
  split; [refine (reads_app _ _ _ _ RB _ _ (reads_app _ _ _ _ _ _ _ RU)); rewrite app_assoc; exact (reads_app _ _ _ _ R _ _ RC)|]. split; [congruence|].
  assert (P1 : pos s1 = start l1 (ahead l2 (pos s2, Some c))).
  { unfold start. rewrite <- ahead_app, <- VC, <- (reads_ahead _ _ _ _ R). reflexivity. }
  rewrite VC in *. rewrite P1. change (pos s3) with (fst (pos s3, Some u)) at 1. apply E_set; auto. apply E_set_items_comma.
  - apply set_first_test; [assumption|]. inversion RE; subst; cbn [ahead]; (eexists; split; [reflexivity|]); cbn; intuition congruence.
  - eapply set_rest_of; eauto.
  - assumption.
  - eexists; split; [reflexivity|]. rewrite KU. cbn. auto.
Qed.

(** ** Dictionaries *)
Lemma key_value_entry : forall U s x t y s', key_value U s x t y s' -> exists l, reads U s l s' /\ ps_except s' = ps_except s /\
  forall p, E_entry true p l (view s') (DictionaryEntry p (pos s') x t y).
Proof.
  intros U s x t y s' (s1 & s2 & P1 & T & K & P2). apply parsed_sound in P1. apply parsed_sound in P2.
  destruct P1 as (l1 & R1 & X1 & D1). destruct P2 as (l2 & R2 & X2 & D2). destruct (takes_reads _ _ _ _ T) as (RT & ET & VT).
  exists (l1 ++ (pos s1, t) :: l2). split; [exact (reads_app _ _ _ _ R1 _ _ (reads_app _ _ _ _ RT _ _ R2))|]. split; [congruence|].
  intros p. rewrite VT in D1. apply entry_pair; assumption.
Qed.
Lemma dictionary_accepted : forall U s b s1 x t y s2 u s3, takes U s b s1 -> tk_kind b = PyLeftCurly ->
  key_value U s1 x t y s2 -> takes U s2 u s3 -> tk_kind u = PyRightCurly ->
  parsed U F_atom s (AtomDictionary (pos s) (pos s3) b
    (Some (DictionaryContainer (pos s1) (pos s2) [DictionaryEntry (pos s1) (pos s2) x t y] [])) u) s3.
Proof.
  intros U s b s1 x t y s2 u s3 TB KB KV TU KU. destruct (key_value_entry _ _ _ _ _ _ KV) as (l & R & EX & D).
  destruct (takes_reads _ _ _ _ TB) as (RB & EB & VB). destruct (takes_reads _ _ _ _ TU) as (RU & EU & VU).
  apply parsed_sound. exists ((pos s, b) :: l ++ [(pos s2, u)]).
  split; [exact (reads_app _ _ _ _ RB _ _ (reads_app _ _ _ _ R _ _ RU))|]. split; [congruence|].
  assert (P1 : pos s1 = start l (pos s2, Some u)).
  { unfold start. rewrite <- VU, <- (reads_ahead _ _ _ _ R). reflexivity. }
  rewrite VU in *. rewrite P1. apply (E_dictionary _ _ _ _ (fst (pos s2, Some u))); auto. apply E_dict_one; [apply D|].
  eexists; split; [reflexivity|]. rewrite KU. cbn. intuition discriminate.
Qed.
Lemma dictionary_two_accepted : forall U s b s1 x t y s2 c s3 x2 t2 y2 s4 u s5, takes U s b s1 -> tk_kind b = PyLeftCurly ->
  key_value U s1 x t y s2 -> takes U s2 c s3 -> tk_kind c = PyComa -> key_value U s3 x2 t2 y2 s4 ->
  takes U s4 u s5 -> tk_kind u = PyRightCurly ->
  parsed U F_atom s (AtomDictionary (pos s) (pos s5) b
    (Some (DictionaryContainer (pos s1) (pos s4) [DictionaryEntry (pos s1) (pos s4) x2 t2 y2; DictionaryEntry (pos s1) (pos s2) x t y] [c])) u) s5.
Proof.
  intros U s b s1 x t y s2 c s3 x2 t2 y2 s4 u s5 TB KB KV TC KC KV2 TU KU.
  destruct (key_value_entry _ _ _ _ _ _ KV) as (l & R & EX & D). destruct (key_value_entry _ _ _ _ _ _ KV2) as (l2 & R2 & EX2 & D2).
  destruct (takes_reads _ _ _ _ TB) as (RB & EB & VB). destruct (takes_reads _ _ _ _ TU) as (RU & EU & VU).
  destruct (takes_reads _ _ _ _ TC) as (RC & EC & VC).
  apply parsed_sound. exists ((pos s, b) :: (l ++ (pos s2, c) :: l2) ++ [(pos s4, u)]).
  split; [refine (reads_app _ _ _ _ RB _ _ (reads_app _ _ _ _ _ _ _ RU)); exact (reads_app _ _ _ _ R _ _ (reads_app _ _ _ _ RC _ _ R2))|].
  split; [congruence|].
  assert (P1 : pos s1 = start l (pos s2, Some c)).
  { unfold start. rewrite <- VC, <- (reads_ahead _ _ _ _ R). reflexivity. }
  rewrite VU, VC in *. rewrite P1. apply (E_dictionary _ _ _ _ (fst (pos s4, Some u))); auto. apply E_dict_two; auto.
Qed.

(** The first entry of what is read is the one found by the calls. *)
Lemma entry_found : forall U s x t y s' p l l2 s2 z, key_value U s x t y s' -> reads U s (l ++ l2) s2 ->
  E_entry true p l (ahead l2 (view s2)) z -> reads U s' l2 s2 /\ view s' = ahead l2 (view s2).
Proof.
  intros U s x t y s' p l l2 s2 z (m1 & m2 & P1 & T & K & P2) R D. inversion D; subst.
  - exfalso. destruct (test_starts _ _ _ _ P1) as (v & SV & IV). cbn [app] in R. apply reads_head in R. destruct R as (_ & n & (SN & _) & _).
    rewrite SV in SN. injection SN as ->. match goal with Q : tk_kind _ = PyPower |- _ => rewrite Q in IV end. cbn in IV. intuition discriminate.
  - rewrite <- app_assoc in R. cbn [app] in R.
    match goal with G : E F_test ?a (?q, Some ?v) ?w, J : E F_test ?bb _ _ |- _ =>
      match type of R with reads _ _ (a ++ (q, v) :: bb ++ l2) _ =>
        destruct (plain_unique U F_test s x m1 a ((q, v) :: bb ++ l2) s2 w P1 eq_refl R G) as (_ & R1 & _) end end.
    apply (reads_head_at _ _ _ _ _ _ _ _ T) in R1. destruct R1 as (-> & R1).
    match goal with J : E F_test ?bb (ahead l2 _) ?w |- _ =>
      match type of R1 with reads _ _ (bb ++ l2) _ => destruct (plain_unique U F_test m2 y s' bb l2 s2 w P2 eq_refl R1 J) as (_ & R2 & V) end end.
    auto.
Qed.
Lemma set_first_key : forall U s x t y s' p l l2 s2 z, key_value U s x t y s' -> reads U s (l ++ l2) s2 ->
  E_set_first p l (ahead l2 (view s2)) z -> False.
Proof.
  intros U s x t y s' p l l2 s2 z (m1 & m2 & P1 & T & K & P2) R D. inversion D; subst.
  - destruct (test_starts _ _ _ _ P1) as (v & SV & IV). cbn [app] in R. apply reads_head in R. destruct R as (_ & n & (SN & _) & _).
    rewrite SV in SN. injection SN as ->. match goal with Q : tk_kind _ = PyMul |- _ => rewrite Q in IV end. cbn in IV. intuition discriminate.
  - match goal with G : E F_test _ _ _ |- _ => destruct (plain_unique _ _ _ _ _ _ _ _ _ P1 eq_refl R G) as (_ & R1 & V) end.
    destruct (takes_reads _ _ _ _ T) as (_ & _ & VT). match goal with Q : stops _ _ |- _ => destruct Q as (w & SW & NW) end.
    rewrite <- V, VT in SW. cbn in SW. injection SW as <-. apply NW. cbn. auto.
Qed.
Lemma dictionary_three : forall U s b s1 x t y s2 c s3 x2 t2 y2 s4 d, takes U s b s1 -> tk_kind b = PyLeftCurly ->
  key_value U s1 x t y s2 -> takes U s2 c s3 -> tk_kind c = PyComa -> key_value U s3 x2 t2 y2 s4 ->
  ps_symbol s4 = inl d -> tk_kind d = PyComa -> rejects U F_atom s.
Proof.
  intros U s b s1 x t y s2 c s3 x2 t2 y2 s4 d TB KB KV TC KC KV2 SD KD. apply rejects_sound. intros z s' (l & R & _ & D).
  assert (MK : forall m q v w, tk_kind v = PyRightCurly -> reads U s1 (m ++ [(q, v)]) s' -> E F_dictorset_maker m (q, Some v) w -> False).
  { intros m q v w KW RM DM.
    assert (NX : exists u, In (tk_kind u) first_test /\ ps_symbol s3 = inl u).
    { destruct KV2 as (m1 & m2 & P1 & _). destruct (test_starts _ _ _ _ P1) as (u & SU & IU). eauto. }
    destruct NX as (u & IU & SU). destruct (takes_reads _ _ _ _ TC) as (_ & _ & VC).
    inversion DM; subst; try no_binary.
    - match goal with G : E_entry _ _ _ _ _ |- _ => destruct (entry_found _ _ _ _ _ _ _ _ [(q, v)] s' _ KV RM G) as (R1 & _) end.
      apply (reads_head_at _ _ _ _ _ _ _ _ TC) in R1. destruct R1 as (-> & _). congruence.
    - rewrite <- app_assoc in RM. cbn [app] in RM.
      match goal with G : E_entry _ _ _ (?p0, Some ?t0) _ |- _ => destruct (entry_found _ _ _ _ _ _ _ _ [(p0, t0); (q, v)] s' _ KV RM G) as (R1 & _) end.
      apply (reads_head_at _ _ _ _ _ _ _ _ TC) in R1. destruct R1 as (-> & R1).
      apply reads_head in R1. destruct R1 as (_ & n & (SN & _) & _). rewrite SU in SN. injection SN as ->. rewrite KW in IU. cbn in IU. intuition discriminate.
    - rewrite <- app_assoc in RM. cbn [app] in RM.
      match goal with G : E_entry _ _ ?a (?p0, Some ?t0) _, J : E_entry _ _ ?b0 (q, Some v) _ |- _ =>
        destruct (entry_found _ _ _ _ _ _ _ a ((p0, t0) :: b0 ++ [(q, v)]) s' _ KV RM G) as (R1 & _);
        apply (reads_head_at _ _ _ _ _ _ _ _ TC) in R1; destruct R1 as (-> & R1);
        destruct (entry_found _ _ _ _ _ _ _ b0 [(q, v)] s' _ KV2 R1 J) as (_ & V) end.
      apply (view_kind _ _ _ _ V) in SD. congruence.
    - rewrite <- app_assoc in RM.
      match goal with G : E_set_first _ ?a (ahead ?b0 _) _ |- _ => eapply (set_first_key _ _ _ _ _ _ _ a (b0 ++ [(q, v)]) s' _ KV RM) end.
      rewrite ahead_app. cbn [ahead]. eassumption.
    - rewrite <- !app_assoc in RM.
      match goal with G : E_set_first _ ?a (ahead ?b0 (?p0, Some ?t0)) _ |- _ => eapply (set_first_key _ _ _ _ _ _ _ a (b0 ++ [(p0, t0)] ++ [(q, v)]) s' _ KV RM) end.
      rewrite ahead_app. cbn [ahead app]. eassumption. }
  inversion D; subst; try no_binary; apply (reads_head_at _ _ _ _ _ _ _ _ TB) in R; destruct R as (-> & R); try congruence; eauto.
  match goal with I : In _ constants |- _ => rewrite KB in I; cbn in I; intuition discriminate end.
Qed.
