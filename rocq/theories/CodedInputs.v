(** The language of the parser, exactly: the proofs of C59 for whole inputs and texts. *)
From Coq Require Import List Arith Lia Bool NArith.
From Verif Require Import Chars SourceBuffer Token Tokenizer LexBasics LexSpec WellFormed CallLemmas HistoryProofs TokenSpec ParserState Node NodeView Parser ParseBasics ParseSpec
  GrammarSpec SoundBasics Soundness Completeness ParseCorollaries EndProofs YieldProofs LayoutSpec PrintSpec SequenceSpec PrintProofs NewlineProofs StmtExact PythonGrammar PythonSpec Recognise PythonProofs
  CodedGrammar CodedSpec CodedComplete CodedBlocks CodedSound.
Import ListNotations.
Local Open Scope nat_scope.
Local Open Scope ebnf_scope.

(** ** Inputs *)
Lemma lines_coded c l la xs ts c' : lines c l la xs ts c' -> Forall plain xs ->
  fits coded (Star (one_of T_Newline, stmt end_of)) (kinds l) /\ pcalm l /\ ~ starts_match l.
Proof.
  induction 1 as [c la|c p t l la xs ts c' K H IH|c l1 x c1 l2 la xs ts c' HB H IH]; intros G.
  - split; [apply fits_end|]. split; [apply pcalm_nil|apply no_match_nil].
  - destruct (IH G) as (F & A & N). split; [|split; calmed].
    kindly. change (T_Newline :: kinds l) with ([T_Newline] ++ kinds l). apply fits_more; [|exact F]. fitting.
  - conj_down. destruct (IH ltac:(assumption)) as (F & A & N).
    destruct (proj1 blocks_calm _ _ _ _ _ _ HB ltac:(assumption)) as [A1 N1]. specialize (N1 I).
    split; [|split; calmed]. rewrite kinds_app. apply fits_more; [|exact F].
    pose proof (proj1 blocks_coded _ _ _ _ _ _ HB) as HP. unfold Q in HP. feed. knows. fitting.
Qed.
Lemma Input_coded f r c l p t x c' : whole_rule f = Some r -> Input f c l (p, Some t) x c' -> plain x ->
  fits coded (R r) (kinds l ++ [tk_kind t]) /\ (f = F_file_input -> pcalm l /\ ~ starts_match l).
Proof.
  intros F H G. destruct f; try discriminate F; injection F as <-; inversion H; subst.
  - split; [|discriminate].
    parts G. made. feed. knows. match goal with HN : Forall _ _ |- _ => pose proof (strings_fit _ _ HN) end. kindly. fitting.
  - parts G. match goal with HL : lines _ _ _ _ _ _ |- _ => destruct (lines_coded _ _ _ _ _ _ HL ltac:(assumption)) as (FF & A & N) end.
    split; [|auto]. kindly. fitting.
  - split; [|discriminate].
    parts G. made. feed. knows. match goal with HN : Forall _ _ |- _ => pose proof (strings_fit _ _ HN) end. kindly. fitting.
Qed.

(** ** Texts *)
Lemma scanned_history U text ts : scanned U text = map inl ts -> exists l, history U text (map inl ts) l.
Proof.
  unfold scanned. intros H.
  assert (Z : forall N l ts0 ts1, history U text (map inl ts0) l -> lex_all U N l = map inl ts1 -> exists l', history U text (map inl (ts0 ++ ts1)) l').
  { induction N as [|N IH]; intros l ts0 ts1 H0 E; cbn [lex_all] in E.
    - destruct ts1; [|discriminate]. rewrite app_nil_r. eauto.
    - destruct (get_symbol U l) as [t l'|e l'|] eqn:GS.
      + destruct ts1 as [|t1 ts1]; [discriminate|]. cbn [map] in E. injection E as <- E.
        assert (H1 : history U text (map inl (ts0 ++ [t])) l') by (rewrite map_app; eapply H_ok; eauto).
        replace (ts0 ++ t :: ts1) with ((ts0 ++ [t]) ++ ts1) by (rewrite <- app_assoc; reflexivity).
        destruct (kind_eqb (tk_kind t) T_EOF); [destruct ts1; [rewrite app_nil_r; eauto|discriminate]|]. eapply IH; eauto.
      + destruct ts1; discriminate.
      + destruct ts1; [|discriminate]. rewrite app_nil_r. eauto. }
  apply (Z _ _ [] ts (H_start U text) H).
Qed.
Lemma calm_ended l t : pcalm l -> ~ starts_match l -> tk_kind t = T_EOF -> no_match (map snd l ++ [t]).
Proof.
  intros A N K. split.
  - intros u b E M. destruct l as [|[p v] l]; cbn in E; injection E as -> _; [destruct M; congruence|]. apply N. destruct M. exists p, u, l. auto.
  - replace (map snd l ++ [t]) with (map snd (l ++ [(0, t)])) by (rewrite map_app; reflexivity).
    change (pcalm (l ++ [(0, t)])). apply pcalm_make; [exact A|apply pcalm_line; [apply pcalm_nil|apply no_match_nil]|].
    eapply no_match_word; [exact K|reflexivity].
Qed.
Lemma calm_begun l t : no_match (map snd l ++ [t]) -> pcalm l /\ ~ starts_match l.
Proof.
  intros [H C]. split.
  - intros a u v b E O. apply (C a u v (b ++ [t])); [|exact O]. rewrite E, <- app_assoc. reflexivity.
  - intros (p & u & l' & -> & M). eapply (H u); [reflexivity|exact M].
Qed.
Lemma ended_coded r f ks : whole_rule f = Some r -> fits coded (R r) ks -> exists a, ks = a ++ [T_EOF].
Proof.
  intros W H. assert (X : forall e, coded r = e -> fits coded e ks) by (intros e <-; inversion H; assumption).
  destruct f; try discriminate W; injection W as <-; cbn [coded] in X; specialize (X _ eq_refl);
    repeat match goal with H : fits coded (Seq (_ :: _)) _ |- _ => inversion H; subst; clear H end;
    match goal with H : fits coded (Seq []) _ |- _ => inversion H; subst; clear H end;
    match goal with H : fits coded (T T_EOF) _ |- _ => inversion H; subst; clear H end;
    rewrite ?app_assoc, app_nil_r; eauto.
Qed.

Theorem coded_exact : forall U text f r, whole_rule f = Some r ->
  (exists x s', parsed U f (fresh text) x s' /\ plain x) <->
  (exists ts, scanned U text = map inl ts /\ fits coded (R r) (map tk_kind ts) /\ (f = F_file_input -> no_match ts)).
Proof.
  intros U text f r F.
  assert (IF : f = F_file_input \/ f = F_eval_input \/ f = F_func_type_input) by (destruct f; try discriminate F; auto).
  assert (SO : sort_of f = Whole) by (destruct IF as [->|[->| ->]]; reflexivity).
  split.
  - intros (x & s' & (n & H) & G). apply run_sound in H. unfold sound in H. rewrite SO in H. destruct H as (s1 & l & A & RD & HI).
    assert (H0 : history U text [] (ps_lexer (fresh text))) by constructor.
    pose proof (advance_history U text [] (fresh text) s1 H0 A) as S1.
    pose proof (reads_history U text _ _ _ RD [] S1) as S2. cbn [app] in S2.
    pose proof (reads_no_eof U text _ _ _ RD [] S1 (Input_quiet _ _ _ _ _ _ HI)) as NE.
    assert (V : exists t, ps_symbol s' = inl t /\ tk_kind t = T_EOF /\ view s' = (fst (view s'), Some t)).
    { clear - IF HI. remember (view s') as v eqn:EV.
      assert (W : exists p t, v = (p, Some t) /\ tk_kind t = T_EOF) by
        (destruct IF as [->|[->| ->]]; inversion HI; subst; eauto).
      destruct W as (p & t & -> & K). exists t. unfold view in EV. split; [destruct (ps_symbol s'); congruence|].
      split; [exact K|reflexivity]. }
    destruct V as (t & SY & K & EX). rewrite EX in HI. unfold EndProofs.seen in S2. rewrite SY in S2.
    destruct (Input_coded _ _ _ _ _ _ _ _ F HI G) as (FI & CA).
    exists (map snd l ++ [t]). split; [exact (history_scanned U text _ t _ S2 K NE)|]. split.
    + rewrite map_app, map_map. exact FI.
    + intros E. destruct (CA E). apply calm_ended; assumption.
  - intros (ts & SC & FI & CA). destruct (scanned_history _ _ _ SC) as (l0 & H).
    destruct (ended_coded _ _ _ F FI) as (ks & E).
    destruct ts as [|t ts _] using rev_ind; [destruct ks; discriminate E|].
    rewrite map_app in E. apply app_inj_tail in E. destruct E as [_ K]. rewrite map_app in H.
    destruct (history_reads U text ts t l0 H) as (s1 & l & s' & A & RD & <- & SY & _).
    assert (FI2 : fits coded (R r) (kinds (l ++ [(pos s', t)]))).
    { rewrite map_app, map_map in FI. unfold kinds. rewrite map_app. exact FI. }
    destruct (inputs_complete f r l (pos s') t F FI2) as (x & c' & HI & G); [intros Z; eapply calm_begun; eauto|].
    set (s2 := mk_parser (ps_lexer s') (ps_symbol s') c').
    assert (R2 : reads U s1 l s2) by (rewrite <- (app_nil_r l); eapply reads_app; [exact RD|apply reads_nil; reflexivity]).
    assert (V : view s2 = (pos s', Some t)) by (unfold view, s2; cbn [ps_symbol]; rewrite SY; reflexivity).
    assert (X1 : ps_except s1 = ExceptNone). { unfold advance in A. destruct (get_symbol U (ps_lexer (fresh text))); inversion A; subst; reflexivity. }
    exists x, s2. split; [|exact G]. 
    destruct (run_complete U f (fresh text) x s2) as (k & Z).
    { unfold sound. rewrite SO. exists s1, l. split; [exact A|]. split; [exact R2|]. rewrite V, X1. exact HI. }
    exists k. apply Z. lia.
Qed.

Theorem files_exact : forall U text,
  (exists x s', parsed U F_file_input (fresh text) x s' /\ plain x) <->
  (exists ts, scanned U text = map inl ts /\ fits coded (R file_input) (map tk_kind ts) /\ no_match ts).
Proof.
  intros U text. rewrite (coded_exact U text F_file_input file_input eq_refl). split; intros (ts & H & F & N); exists ts; auto.
Qed.
Theorem expressions_exact : forall U text,
  (exists x s', parsed U F_eval_input (fresh text) x s' /\ plain x) <->
  (exists ts, scanned U text = map inl ts /\ fits coded (R eval_input) (map tk_kind ts)).
Proof.
  intros U text. rewrite (coded_exact U text F_eval_input eval_input eq_refl). split; intros (ts & H & F); exists ts; [tauto|].
  split; [exact H|split; [exact F|discriminate]].
Qed.
Theorem function_types_exact : forall U text,
  (exists x s', parsed U F_func_type_input (fresh text) x s' /\ plain x) <->
  (exists ts, scanned U text = map inl ts /\ fits coded (R func_type_input) (map tk_kind ts)).
Proof.
  intros U text. rewrite (coded_exact U text F_func_type_input func_type_input eq_refl). split; intros (ts & H & F); exists ts; [tauto|].
  split; [exact H|split; [exact F|discriminate]].
Qed.
Lemma inl_map_eq (ts1 ts2 : list token) : map (@inl token err) ts1 = map inl ts2 -> ts1 = ts2.
Proof. revert ts2. induction ts1 as [|t ts1 IH]; intros [|u ts2] E; try discriminate; [reflexivity|]. injection E as -> E. f_equal. auto. Qed.
Theorem kinds_decide : forall U1 text1 U2 text2 ts1 ts2,
  scanned U1 text1 = map inl ts1 -> scanned U2 text2 = map inl ts2 -> map tk_kind ts1 = map tk_kind ts2 -> no_match ts2 ->
  (exists x s', parsed U1 F_file_input (fresh text1) x s' /\ plain x) ->
  exists x s', parsed U2 F_file_input (fresh text2) x s' /\ plain x.
Proof.
  intros U1 text1 U2 text2 ts1 ts2 S1 S2 K N H. apply files_exact. apply files_exact in H. destruct H as (ts & E & F & _).
  rewrite S1 in E. apply inl_map_eq in E. subst ts. exists ts2. rewrite <- K. auto.
Qed.

(** ** Interactive inputs *)
Lemma simple_any l la la' x : E F_simple_stmt l la x -> plain x -> exists y, E F_simple_stmt l la' y /\ plain y.
Proof.
  intros H G. inversion H; subst; try discriminate; apply plain_kids in G; destruct G as [_ G]; eexists;
    (split; [first [eapply E_simple_stmt; eassumption | eapply E_simple_stmt_semi; eassumption]|]);
    apply plain_make; first [exact I | exact G].
Qed.
Lemma simple_complete l la t : fits coded (R simple_stmt) (kinds l) -> snd la = Some t -> exists x, E F_simple_stmt l la x /\ plain x.
Proof. intros H T. apply (phrases_complete simple_stmt); [reflexivity|exact H|]. exists t. auto. Qed.
Lemma simple_some ks : fits coded (R simple_stmt) ks -> ks <> [].
Proof.
  intros H. inversion H as [|? ? F0| | | | | | | | |]; subst. clear H. cbn [coded] in F0.
  repeat match goal with H : fits coded (Seq (_ :: _)) _ |- _ => inversion H; subst; clear H end.
  match goal with H : fits coded (T T_Newline) _ |- _ => inversion H; subst; clear H end.
  intros E. apply (f_equal (@length kind)) in E. rewrite !app_length in E. cbn in E. lia.
Qed.
Theorem single_exact : forall U text,
  (exists x s', parsed U F_single_input (fresh text) x s' /\ plain x) <->
  (exists ts l, history U text (map inl ts) l /\ fits coded (R single_input) (map tk_kind ts) /\ forall t b, ts = t :: b -> ~ is_match t).
Proof.
  intros U text. split.
  - intros (x & s' & (n & H) & G). destruct (single_read U text n x s' H) as (a & b & y & l0 & la0 & -> & _).
    destruct (input_read U text n F_single_input _ s' eq_refl H) as (l & c & c' & (l' & FS) & IN & AH).
    assert (X : exists la y, E F_simple_stmt l la y /\ plain y /\ ~ starts_match l).
    { apply plain_kids in G. destruct G as [_ G]. cbn in G. inversion G as [|? ? G1 _]; subst.
      inversion IN; subst. eauto 6. }
    destruct X as (la & z & HE & HP & N). exists (map snd l), l'. split; [exact FS|]. split.
    + rewrite map_map. apply E_P in HE. feed. knows. change (fits coded (R single_input) (kinds l)). apply fits_rule. assumption.
    + intros t b' E M. destruct l as [|[p u] l]; [discriminate|]. injection E as -> _. apply N. exists p, t, l. auto.
  - intros (ts & l & H & F & N). inversion F as [|? ? F1| | | | | | | | |]; subst. cbn [coded] in F1.
    destruct ts as [|t ts _] using rev_ind; [exfalso|].
    { exact (simple_some _ F1 eq_refl). }
    rewrite map_app in H. destruct (history_reads U text ts t l H) as (s1 & ps & s2 & A & RD & <- & SY & LX).
    pose proof (history_call U text _ l H) as HC. 
    assert (AD : exists s3, advance U s2 = Ok tt s3).
    { unfold advance. rewrite LX. destruct (get_symbol U l); [eauto|eauto|contradiction]. }
    destruct AD as (s3 & AD).
    assert (R2 : reads U s1 (ps ++ [(pos s2, t)]) s3).
    { eapply reads_app; [exact RD|]. econstructor; [exact SY|exact AD|apply reads_refl]. }
    assert (F2 : fits coded (R simple_stmt) (kinds (ps ++ [(pos s2, t)]))).
    { rewrite map_app, map_map in F1. unfold kinds. rewrite map_app. exact F1. }
    destruct (simple_complete _ (0, Some t) t F2 eq_refl) as (y0 & E0 & P0). destruct (simple_any _ _ (view s3) _ E0 P0) as (y & HE & HP).
    assert (NM : ~ starts_match (ps ++ [(pos s2, t)])).
    { intros (p & u & l' & EQ & M). apply (f_equal (map snd)) in EQ. rewrite map_app in EQ. cbn in EQ. eapply N; [exact EQ|exact M]. }
    set (s4 := mk_parser (ps_lexer s3) (ps_symbol s3) (ps_except s1)).
    assert (V : view s4 = view s3) by reflexivity.
    destruct (run_complete U F_single_input (fresh text) (SingleInput (start (ps ++ [(pos s2, t)]) (view s3)) (fst (view s3)) (Some y) None) s4) as (k & Z).
    { exists s1, (ps ++ [(pos s2, t)]). split; [exact A|]. split; [rewrite <- (app_nil_r (ps ++ _)); eapply reads_app; [exact R2|apply reads_nil; reflexivity]|].
      rewrite V. apply I_single_simple; assumption. }
    eexists _, s4. split; [exists k; apply Z; lia|]. apply plain_make; [exact I|]. constructor; [exact HP|constructor].
Qed.
