(** Texts and trees written down again: the proofs of C55. *)
From Coq Require Import List Arith Lia Permutation.
From Verif Require Import Chars SourceBuffer Token Tokenizer LexBasics LexSpec WellFormed CallLemmas HistoryProofs TokenSpec ParserState Node NodeView Parser ParseBasics ParseSpec
  GrammarSpec TreeSpec SoundBasics Soundness SpanProofs PositionProofs ParseCorollaries OrderProofs EndProofs YieldProofs ExprSpec LayoutSpec TwinProofs PrintSpec SequenceSpec Steady Sheet Typeset.
Import ListNotations.
Local Open Scope nat_scope.

Lemma shows_lex : forall U l fs, shows U l fs -> forall text evs N, history U text evs l -> Forall going evs ->
  length evs + N = 3 * length text + 4 -> map event_face (lex_all U N l) = map Some fs.
Proof.
  intros U l fs S. induction S as [l t l1 G K|l t l1 fs G K S IH]; intros text evs N H F L;
    pose proof (history_lex U text evs l N H F L) as A; rewrite G in A; destruct A as (A & B); rewrite A.
  - rewrite K. reflexivity.
  - destruct (kind_eqb (tk_kind t) T_EOF) eqn:Q; [apply kind_eqb_eq in Q; congruence|]. cbn [map event_face]. f_equal.
    apply (IH text (evs ++ [inl t])); [exact (H_ok _ _ _ _ _ _ H G)| |exact (B K)].
    apply Forall_app. split; [exact F|]. constructor; [exact K|constructor].
Qed.
Lemma lex_shows : forall U text fs evs l N, history U text evs l -> Forall going evs ->
  length evs + N = 3 * length text + 4 -> map event_face (lex_all U N l) = map Some fs -> shows U l fs.
Proof.
  intros U text fs. induction fs as [|f fs IH]; intros evs l N H F L E;
    pose proof (history_lex U text evs l N H F L) as A; destruct (get_symbol U l) as [t l1|e l1|] eqn:G; try contradiction A.
  - destruct A as (A & _). rewrite A in E. discriminate E.
  - rewrite A in E. discriminate E.
  - destruct A as (A & B). rewrite A in E. cbn [map event_face] in E. injection E as E1 E2.
    assert (f = face t) by (rewrite <- E1; reflexivity). subst f.
    destruct (kind_eqb (tk_kind t) T_EOF) eqn:Q.
    + apply kind_eqb_eq in Q. destruct fs; [|discriminate E2]. eapply RD_end; eauto.
    + assert (K : tk_kind t <> T_EOF) by (intros K; rewrite K in Q; discriminate Q).
      eapply RD_more; [exact G|exact K|]. apply (IH (evs ++ [inl t]) l1 (pred N)); [exact (H_ok _ _ _ _ _ _ H G)| |exact (B K)|exact E2].
      apply Forall_app. split; [exact F|]. constructor; [exact K|constructor].
  - rewrite A in E. discriminate E.
Qed.
Lemma scanned_shows : forall U text fs, map event_face (scanned U text) = map Some fs <-> shows U (lexer_new text) fs.
Proof.
  intros U text fs. split; intros H.
  - eapply (lex_shows U text fs []); [constructor|constructor| |exact H]. reflexivity.
  - eapply (shows_lex U _ fs H text []); [constructor|constructor|reflexivity].
Qed.

Theorem written_out_scanned : forall U text fs, map event_face (scanned U text) = map Some fs ->
  map event_face (scanned U (written_out fs)) = map Some fs.
Proof. intros U text fs H. apply scanned_shows. apply written_out_shows with text. apply scanned_shows. exact H. Qed.

Theorem written_out_parsed : forall U text fs f n, map event_face (scanned U text) = map Some fs -> input_fn f = true ->
  same_outcome (corresponding U text U (written_out fs)) (run U n f (fresh text)) (run U n f (fresh (written_out fs))).
Proof.
  intros U text fs f n H I. apply layout_independent; [exact I|]. unfold same_tokens.
  rewrite (written_out_scanned U text fs H). exact H.
Qed.

(** ** From the tree *)
Lemma history_scanned_go : forall U text ts t l, history U text (map inl ts ++ [inl t]) l -> tk_kind t = T_EOF ->
  Forall (fun u => tk_kind u <> T_EOF) ts ->
  forall ts1 ts2 l1 N, ts = ts1 ++ ts2 -> history U text (map inl ts1) l1 ->
  length ts1 + N = 3 * length text + 4 -> lex_all U N l1 = map inl (ts2 ++ [t]).
Proof.
  intros U text ts t l H K F.
  assert (D := history_length_det U text).
  assert (P : forall evs l, history U text evs l -> forall a b, evs = a ++ b -> exists l0, history U text a l0).
  { clear. induction 1 as [|evs l t l' H IH G|evs l e l' H IH G]; intros a b E.
    - destruct a; [|discriminate]. eexists. constructor.
    - destruct b as [|y b] using rev_ind; [rewrite app_nil_r in E; subst a; eexists; eapply H_ok; eauto|].
      rewrite app_assoc in E. apply app_inj_tail in E. destruct E as (E & _). eapply IH. exact E.
    - destruct b as [|y b] using rev_ind; [rewrite app_nil_r in E; subst a; eexists; eapply H_err; eauto|].
      rewrite app_assoc in E. apply app_inj_tail in E. destruct E as (E & _). eapply IH. exact E. }
  intros ts1 ts2. revert ts1. induction ts2 as [|u ts2 IH]; intros ts1 l1 N E H1 L.
  - rewrite app_nil_r in E. subst ts1.
    assert (FG : Forall going (map (@inl token err) ts)) by (apply Forall_map; exact F).
    pose proof (history_lex U text _ l1 N H1 FG ltac:(rewrite map_length; exact L)) as A.
    destruct (get_symbol U l1) as [t' l2|e l2|] eqn:G; [| |contradiction A].
    + destruct (D _ _ (H_ok _ _ _ _ _ _ H1 G) _ _ H ltac:(rewrite !app_length; reflexivity)) as (E & _).
      apply app_inj_tail in E. destruct E as (_ & E). injection E as ->. destruct A as (-> & _). rewrite K. reflexivity.
    + destruct (D _ _ (H_err _ _ _ _ _ _ H1 G) _ _ H ltac:(rewrite !app_length; reflexivity)) as (E & _).
      apply app_inj_tail in E. destruct E as (_ & E). discriminate E.
  - subst ts. apply Forall_app in F. destruct F as (F1 & F2). inversion F2 as [|? ? KU F3]; subst.
    assert (FG : Forall going (map (@inl token err) ts1)) by (apply Forall_map; exact F1).
    pose proof (history_lex U text _ l1 N H1 FG ltac:(rewrite map_length; exact L)) as A.
    destruct (P _ _ H (map inl (ts1 ++ [u])) (map inl ts2 ++ [inl t])) as (lu & HU).
    { rewrite !map_app, <- !app_assoc. reflexivity. }
    rewrite map_app in HU. cbn [map] in HU.
    destruct (get_symbol U l1) as [t' l2|e l2|] eqn:G; [| |contradiction A].
    + pose proof (H_ok _ _ _ _ _ _ H1 G) as H2.
      destruct (D _ _ H2 _ _ HU ltac:(rewrite !app_length; reflexivity)) as (E & _).
      apply app_inj_tail in E. destruct E as (_ & E). injection E as ->. destruct A as (-> & B). cbn [app map].
      destruct (kind_eqb (tk_kind u) T_EOF) eqn:Q; [apply kind_eqb_eq in Q; congruence|]. f_equal.
      apply (IH (ts1 ++ [u]) l2 (pred N)); [rewrite <- app_assoc; reflexivity|rewrite map_app; exact H2|].
      specialize (B KU). rewrite app_length in *. rewrite map_length in B. cbn [length] in *. exact B.
    + destruct (D _ _ (H_err _ _ _ _ _ _ H1 G) _ _ HU ltac:(rewrite !app_length; reflexivity)) as (E & _).
      apply app_inj_tail in E. destruct E as (_ & E). discriminate E.
Qed.
Lemma history_scanned : forall U text ts t l, history U text (map inl ts ++ [inl t]) l -> tk_kind t = T_EOF ->
  Forall (fun u => tk_kind u <> T_EOF) ts -> scanned U text = map inl (ts ++ [t]).
Proof.
  intros U text ts t l H K F. eapply (history_scanned_go U text ts t l H K F [] ts); [reflexivity|constructor|reflexivity].
Qed.

(** The tokens of an accepted text can be read off its tree. *)
Lemma tree_scanned : forall U text n f x s', f = F_file_input \/ f = F_eval_input \/ f = F_func_type_input ->
  run U n f (fresh text) = Ok x s' -> exists ts, written x ts /\ scanned U text = map inl ts.
Proof.
  intros U text n f x s' F H.
  assert (SO : sort_of f = Whole) by (destruct F as [->|[->| ->]]; reflexivity).
  apply run_sound in H. unfold sound in H. rewrite SO in H. destruct H as (s1 & l & A & R & I).
  assert (W : written x (map snd l ++ extra f (view s') x)).
  { destruct (proj1 tiled_written_all _ _ _ _ (Input_lies _ _ _ _ _ _ I 0)) as (ts & W & J).
    rewrite <- (written_exact x ts (extra f (view s') x) l (view s') W J); [assumption| |].
    + eapply stored_after_input; eauto.
    + apply weights_permutation. intros w. rewrite weigh_app. eapply Input_extra; eauto. }
  assert (H0 : history U text [] (ps_lexer (fresh text))) by constructor.
  pose proof (advance_history U text [] (fresh text) s1 H0 A) as S1.
  pose proof (reads_history U text _ _ _ R [] S1) as S2. cbn [app] in S2.
  pose proof (reads_no_eof U text _ _ _ R [] S1 (Input_quiet _ _ _ _ _ _ I)) as NE.
  assert (V : exists t, ps_symbol s' = inl t /\ tk_kind t = T_EOF /\ extra f (view s') x = [t]).
  { clear - F I. remember (view s') as v eqn:EV.
    assert (W : exists p t, v = (p, Some t) /\ tk_kind t = T_EOF) by
      (destruct F as [->|[->| ->]]; inversion I; subst; eauto).
    destruct W as (p & t & -> & K). exists t. unfold view in EV. split; [destruct (ps_symbol s'); congruence|].
    split; [exact K|]. destruct F as [->|[->| ->]]; reflexivity. }
  destruct V as (t & SY & K & EX). rewrite EX in W. unfold seen in S2. rewrite SY in S2.
  exists (map snd l ++ [t]). split; [exact W|]. exact (history_scanned U text _ t _ S2 K NE).
Qed.

Theorem tree_written_out : forall U text n f x s', f = F_file_input \/ f = F_eval_input \/ f = F_func_type_input ->
  run U n f (fresh text) = Ok x s' ->
  exists ts x' s'', written x ts /\ scanned U text = map inl ts /\
    run U n f (fresh (written_out (map face ts))) = Ok x' s'' /\
    alike (corresponding U text U (written_out (map face ts))) x x'.
Proof.
  intros U text n f x s' F H. destruct (tree_scanned U text n f x s' F H) as (ts & W & S).
  assert (E : map event_face (scanned U text) = map Some (map face ts)) by (rewrite S, !map_map; reflexivity).
  assert (IF : input_fn f = true) by (destruct F as [->|[->| ->]]; reflexivity).
  pose proof (written_out_parsed U text (map face ts) f n E IF) as O. rewrite H in O. unfold same_outcome in O.
  destruct (run U n f (fresh (written_out (map face ts)))) as [x' s''|e| |] eqn:R; try contradiction O.
  exists ts, x', s''. auto.
Qed.

(** ** The fixed layout *)
Theorem written_out_again : forall U text fs fs', map event_face (scanned U text) = map Some fs ->
  map event_face (scanned U (written_out fs)) = map Some fs' -> written_out fs' = written_out fs.
Proof.
  intros U text fs fs' H H'. rewrite (written_out_scanned U text fs H) in H'. f_equal.
  apply (f_equal (map (fun o => match o with Some y => y | None => (T_EOF, NoPayload) end))) in H'. rewrite !map_map, !map_id in H'. symmetry. exact H'.
Qed.

(** ** Exactly these sequences *)
Lemma genuine_steady : forall U k pay, genuine U k pay <-> steady U (token_text (k, pay)) k pay /\ layout_kind k = false.
Proof.
  intros U k pay. split.
  - intros (s & n & NI & T). split; [|eapply token_kinds; eauto]. eapply steady_token; [exact T|].
    unfold significant. cbn [In] in NI. repeat split; intros X; apply NI; rewrite X; tauto.
  - intros (((c & w' & E & SG) & _ & T) & _). exists (token_text (k, pay) ++ []), (length (token_text (k, pay))). split.
    + rewrite E. cbn [app hd In]. unfold significant in SG. intuition congruence.
    + apply T. right. right. reflexivity.
Qed.
Lemma rows_stream : forall U s d o fs, rows U s d o fs -> stream U s d o fs.
Proof.
  induction 1; [apply SQ_eof|eapply SQ_item|apply SQ_newline|apply SQ_comment|apply SQ_same|apply SQ_deeper|apply SQ_back]; eauto.
  apply genuine_steady. auto.
Qed.
Lemma stream_rows : forall U s d o fs, stream U s d o fs -> rows U s d o fs.
Proof.
  induction 1 as [| s d o k pay o' fs SS G NE H IH| | | | |]; [apply RW_eof| |apply RW_newline|apply RW_comment|apply RW_same|apply RW_deeper|apply RW_back]; auto.
  apply genuine_steady in G. destruct G as (G & LK). eapply RW_item; eauto.
Qed.
Theorem streams_exact : forall U fs,
  (exists text, map event_face (scanned U text) = map Some fs) <-> stream U Start 0 [] fs.
Proof.
  intros U fs. split.
  - intros (text & H). apply scanned_shows in H. apply rows_stream.
    destruct (rows_all U text (length fs) fs (le_n _) (lexer_new text) (lx_ok_new text) ltac:(constructor) (shows_glimpse _ _ _ H) 0 eq_refl) as (_ & _ & _ & X).
    exact (X eq_refl eq_refl).
  - intros H. exists (written_out fs). apply scanned_shows. apply stream_rows in H.
    eapply (typeset_shows U Start 0 [] fs H (written_out fs)); try reflexivity.
    + apply lx_ok_new.
    + constructor.
    + split; [reflexivity|]. split; reflexivity.
Qed.
