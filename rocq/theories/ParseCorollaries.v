(** The parser theorems in the form in which the properties state them: C30-C34, C36, C37. *)
From Coq Require Import List Arith ZArith Lia Permutation.
From Verif Require Import Chars SourceBuffer Token Tokenizer LexSpec HistoryProofs WellFormed CallLemmas CallTheorem
  Node NodeView ParserState Expressions Statements Blocks Parser GrammarSpec ParseBasics ParseSpec SoundBasics Soundness FirstSets Completeness
  CompleteBasics CompleteBlocks TermBasics TermExpr TermStmt TermStable YieldProofs TreeSpec SpanProofs PositionProofs EndProofs.
Import ListNotations.
Local Open Scope nat_scope.

Lemma on_text_okay : forall U text s, on_text U text s -> okay text s.
Proof. intros U text s (evs & H). eapply history_ok; eauto. Qed.
Lemma fresh_on_text : forall U text, on_text U text (fresh text).
Proof. intros. exists []. constructor. Qed.
Lemma at_token_on_text : forall U text s, at_token U text s -> on_text U text s.
Proof. intros U text s (s0 & (evs & H) & A). eexists. eapply (advance_history U text evs s0 s H A). Qed.
Lemma at_token_ready : forall U text s, at_token U text s -> ready text s.
Proof. intros U text s (s0 & O & A). eapply advance_ready; eauto. eapply on_text_okay; eauto. Qed.
Lemma on_text_effort : forall U text s, on_text U text s -> effort (ps_lexer s) <= 3 * length text + 3.
Proof.
  intros U text s (evs & H). induction H as [|evs l t l' H IH E|evs l e l' H IH E].
  - unfold effort. cbn -[Nat.mul]. lia.
  - pose proof (history_call _ _ _ _ H) as C. rewrite E in C. destruct (oc_effort _ _ _ _ C) as [L|K]; [lia|].
    pose proof (effort_eof text l t l' (history_ok _ _ _ _ H) C K). lia.
  - pose proof (history_call _ _ _ _ H) as C. rewrite E in C. pose proof (ec_effort _ _ _ _ C). lia.
Qed.
Lemma on_text_need : forall U text f s, on_text U text s -> need f s <= 192 * length text + 287.
Proof.
  intros U text f s O. apply on_text_effort in O. unfold need, left. pose proof (rank_small f). destruct (solidb s); lia.
Qed.

(** ** C30 *)
Lemma expression_pure : forall f, expression_fn f = true -> pure f = true.
Proof. destruct f; intros H; (discriminate H || reflexivity). Qed.
Lemma expressions_return : forall U text f s n, expression_fn f = true -> on_text U text s ->
  192 * length text + 287 <= n -> returned (run U n f s).
Proof.
  intros U text f s n X O L. pose proof (on_text_need U text f s O) as N.
  destruct (pure_returns U text n f s (expression_pure _ X) (on_text_okay _ _ _ O) ltac:(lia)) as (A & B).
  destruct (run U n f s); cbn; exact I || congruence.
Qed.
(** ** C31 *)
Lemma pure_functions_return : forall U text f s n, pure f = true -> on_text U text s ->
  192 * length text + 287 <= n -> returned (run U n f s).
Proof.
  intros U text f s n X O L. pose proof (on_text_need U text f s O) as N.
  destruct (pure_returns U text n f s X (on_text_okay _ _ _ O) ltac:(lia)) as (A & B).
  destruct (run U n f s); cbn; exact I || congruence.
Qed.
Lemma statements_return : forall U text f s n, f <> F_match -> on_text U text s -> 192 * length text + 287 <= n ->
  match run U n f s with
  | Ok _ _ | Err _ => True
  | Fuel => hits U f is_import s
  | Panic => hits U f is_match s
  end.
Proof.
  intros U text f s n X O L. pose proof (on_text_need U text f s O) as N.
  destruct (pure f) eqn:P.
  - pose proof (pure_functions_return U text f s n P O L) as R. destruct (run U n f s); auto; destruct R.
  - assert (NE : nests f = true) by (destruct f; (reflexivity || discriminate P || congruence)).
    destruct (stmt_returns U text n f s NE (on_text_okay _ _ _ O) ltac:(lia)) as (A & B).
    destruct (run U n f s); auto.
Qed.
Lemma no_trigger_returns : forall U text f s n, f <> F_match -> on_text U text s -> 192 * length text + 287 <= n ->
  ~ hits U f is_import s -> ~ hits U f is_match s -> returned (run U n f s).
Proof.
  intros U text f s n X O L A B. pose proof (statements_return U text f s n X O L) as H.
  destruct (run U n f s); cbn; auto.
Qed.

(** A statement beginning with [import] does not return, one beginning with the name [match] panics. *)
Lemma run_stmt_import : forall U n s t, ps_symbol s = inl t -> tk_kind t = PyImport -> run U n F_stmt s = Fuel.
Proof.
  intros U n s t S K.
  assert (SM : forall n, run U n F_small_stmt s = Fuel).
  { intros [|m]; [reflexivity|]. cbn [run body]. unfold p_small_stmt. rewrite bind_position. unfold on_symbol. rewrite S.
    rewrite !(is_eq _ PyImport t K). rewrite !(one_of_eq _ PyImport t K). exact (run_import U m s t S K). }
  assert (SI : forall n, run U n F_simple_stmt s = Fuel).
  { intros [|m]; [reflexivity|]. cbn [run body]. unfold p_simple_stmt. rewrite bind_position. unfold bind. rewrite SM. reflexivity. }
  destruct n as [|n]; [reflexivity|]. cbn [run body]. unfold p_stmt. rewrite bind_position. unfold on_symbol. rewrite S.
  rewrite !(is_eq _ PyImport t K). rewrite !(one_of_eq _ PyImport t K). exact (SI n).
Qed.
Lemma run_stmt_match : forall U n s t, ps_symbol s = inl t -> is_match t -> run U (S (S n)) F_stmt s = Panic.
Proof.
  intros U n s t S (K & T). cbn [run body]. unfold p_stmt. rewrite bind_position. unfold on_symbol. rewrite S.
  rewrite !(is_eq _ T_AtomName t K). rewrite !(one_of_eq _ T_AtomName t K). rewrite T. reflexivity.
Qed.

Definition stuck (o : outcome node) (t : token) : Prop :=
  (tk_kind t = PyImport -> o = Fuel) /\ (is_match t -> o = Panic).
(** After any accepted lines of a module. *)
Lemma module_stuck : forall U s s1 l xs ts c' s2 t, advance U s = Ok tt s1 -> reads U s1 l s2 ->
  lines (ps_except s1) l (view s2) xs ts c' -> ps_symbol s2 = inl t -> (tk_kind t = PyImport \/ is_match t) ->
  exists n0, forall n, n0 <= n -> stuck (run U n F_file_input s) t.
Proof.
  intros U s s1 l xs ts c' s2 t A R L SY K.
  assert (RX : readx U s1 l (flag (ps_except s1) s2)).
  { split; [|reflexivity]. eapply reads_core_r; [exact R|reflexivity|reflexivity]. }
  destruct (lines_loop U _ _ _ _ _ _ L s1 (flag (ps_except s1) s2) RX eq_refl) as (k & n0 & EV).
  exists (S (n0 + S (S (S k)))). intros [|n] LE; [lia|]. specialize (EV n ltac:(lia)).
  assert (N1 : is T_EOF t = false) by (destruct K as [K|[K _]]; rewrite (is_eq _ _ t K); reflexivity).
  assert (N2 : is T_Newline t = false) by (destruct K as [K|[K _]]; rewrite (is_eq _ _ t K); reflexivity).
  assert (ST : file_input_step U (run U n) (pos s1) ([] ++ xs, [] ++ ts) (flag c' s2) =
    bind (run U n F_stmt) (fun x => ret (true, (([] ++ xs) ++ [x], [] ++ ts))) (flag c' s2)).
  { unfold file_input_step, on_symbol. cbn [ps_symbol flag]. rewrite SY, N1, N2. reflexivity. }
  assert (W : while_ n (file_input_step U (run U n) (pos s1)) ([], []) s1 =
    while_ (n - k) (file_input_step U (run U n) (pos s1)) ([] ++ xs, [] ++ ts) (flag c' s2)).
  { rewrite <- (flag_self s1) at 2. apply (while_split _ k); [lia|]. rewrite EV. reflexivity. }
  destruct (n - k) as [|j] eqn:NK; [lia|]. cbn [while_] in W. unfold bind at 1 in W. rewrite ST in W.
  cbn [run body]. unfold p_file_input. unfold bind at 1. rewrite A. rewrite bind_position. unfold bind at 1. rewrite W.
  destruct K as [K|K].
  - unfold bind at 1. rewrite (run_stmt_import U n (flag c' s2) t SY K). split; [auto|]. intros (K' & _). congruence.
  - destruct n as [|[|n]]; try lia. unfold bind at 1. rewrite (run_stmt_match U n (flag c' s2) t SY K). split; [|auto].
    intros K'. destruct K as (K & _). congruence.
Qed.
Lemma module_import : forall U s s1 l xs ts c' s2 t, advance U s = Ok tt s1 -> reads U s1 l s2 ->
  lines (ps_except s1) l (view s2) xs ts c' -> ps_symbol s2 = inl t -> tk_kind t = PyImport ->
  forall n, run U n F_file_input s = Fuel.
Proof.
  intros U s s1 l xs ts c' s2 t A R L S K n.
  destruct (module_stuck U s s1 l xs ts c' s2 t A R L S (or_introl K)) as (n0 & H).
  destruct (H (n + n0) ltac:(lia)) as (H1 & _). specialize (H1 K).
  destruct (run U n F_file_input s) eqn:Q; auto; exfalso;
    pose proof (Monotone.run_fixed U n (n + n0) F_file_input s ltac:(lia)) as F; rewrite Q in F; rewrite F in H1; discriminate.
Qed.
Lemma module_match : forall U s s1 l xs ts c' s2 t, advance U s = Ok tt s1 -> reads U s1 l s2 ->
  lines (ps_except s1) l (view s2) xs ts c' -> ps_symbol s2 = inl t -> is_match t ->
  exists n0, forall n, n0 <= n -> run U n F_file_input s = Panic.
Proof.
  intros U s s1 l xs ts c' s2 t A R L S K.
  destruct (module_stuck U s s1 l xs ts c' s2 t A R L S (or_intror K)) as (n0 & H).
  exists n0. intros n LE. apply (H n LE). exact K.
Qed.

(** ** C32 *)
Lemma derivation_unique : forall U f s x s1 y s2, sound U f s x s1 -> sound U f s y s2 -> x = y /\ s1 = s2.
Proof.
  intros U f s x s1 y s2 H1 H2. apply run_complete in H1. apply run_complete in H2.
  destruct H1 as (k1 & H1). destruct H2 as (k2 & H2).
  specialize (H1 (k1 + k2) ltac:(lia)). specialize (H2 (k1 + k2) ltac:(lia)). rewrite H1 in H2. injection H2 as -> ->. auto.
Qed.

(** ** C34 *)
Lemma subnodes_cases : forall x y, In y (subnodes x) -> y = x \/ exists z, In (Sub z) (items x) /\ In y (subnodes z).
Proof.
  intros x y H. rewrite subnodes_items in H. destruct H as [H|H]; [auto|]. right.
  apply in_flat_map in H. destruct H as (i & I & J). destruct i as [t|z]; [destruct J|]. eauto.
Qed.

Lemma tiled_subnodes_all :
  (forall s l la x, tiled s l la x -> forall y, In y (subnodes x) ->
     exists s' l1 l2 l3, l = l1 ++ l2 ++ l3 /\ tiled s' l2 (ahead l3 la) y) /\
  (forall s l la ps, tiles s l la ps -> forall z y, In (Sub z) ps -> In y (subnodes z) ->
     exists s' l1 l2 l3, l = l1 ++ l2 ++ l3 /\ tiled s' l2 (ahead l3 la) y).
Proof.
  apply tiled_mutual.
  - intros s l la x ps T IH P S Z y I. apply subnodes_cases in I. destruct I as [->|(z & I & J)].
    + exists s, [], l, []. split; [cbn; rewrite app_nil_r; reflexivity|]. cbn [ahead]. econstructor; eauto.
    + apply (Permutation_in _ (arranged_perm _ _ P)) in I. apply in_app_or in I. destruct I as [I|I]; [eauto|].
      exfalso. eapply no_sub_after; eauto.
  - intros s la z y [].
  - intros s p t l la ps T IH z y [I|I] J; [discriminate|]. destruct (IH z y I J) as (s' & l1 & l2 & l3 & -> & H).
    exists s', ((p, t) :: l1), l2, l3. auto.
  - intros s l1 l2 la x ps T IH1 T2 IH2 z y [I|I] J.
    + injection I as ->. destruct (IH1 y J) as (s' & m1 & m2 & m3 & -> & H).
      exists s', m1, m2, (m3 ++ l2). split; [rewrite <- !app_assoc; reflexivity|]. rewrite ahead_app. exact H.
    + destruct (IH2 z y I J) as (s' & m1 & m2 & m3 & -> & H). exists s', (l1 ++ m1), m2, m3.
      split; [rewrite <- !app_assoc; reflexivity|exact H].
Qed.

Lemma inside_subnodes : forall a b x, inside a b x -> forall y z, In y (subnodes x) -> In (Sub z) (items y) ->
  node_start y <= node_start z /\ node_start z <= node_end z /\ node_end z <= node_end y.
Proof.
  induction 1 as [a b x L1 L2 L3 CH IH]; intros y z I J. apply subnodes_cases in I. destruct I as [->|(w & I1 & I2)]; [|eauto].
  specialize (CH z J). inversion CH; subst. auto.
Qed.

Lemma node_spans : forall U text fuel f s x s', target f = false -> run U fuel f s = Ok x s' ->
  (if input_fn f then on_text U text s else at_token U text s) ->
  exists s1 l, (if input_fn f then advance U s = Ok tt s1 else s1 = s) /\ reads U s1 l s' /\
    ordered l (view s') /\
    forall y, In y (subnodes x) -> exists l1 l2 l3, l = l1 ++ l2 ++ l3 /\
      node_end y = fst (ahead l3 (view s')) /\
      (entry y = false -> node_start y = start l2 (ahead l3 (view s'))) /\
      (forall z, In (Sub z) (items y) ->
         node_start y <= node_start z /\ node_start z <= node_end z /\ node_end z <= node_end y) /\
      exists ps, arranged y (ps ++ after y (ahead l3 (view s'))) /\
        ForallOrdPairs (fun i j => begins_after j (item_end i)) ps.
Proof.
  intros U text fuel f s x s' T H O.
  assert (Q : input_fn f = match sort_of f with Whole => true | _ => false end) by (destruct f; reflexivity).
  rewrite Q in *.
  destruct (run_positions U text fuel f s x s' T H) as (s1 & l & A & R & TI & OR & IN).
  { destruct (match sort_of f with Whole => true | _ => false end); [eapply on_text_okay; eauto|eapply at_token_ready; eauto]. }
  exists s1, l. split; [assumption|]. split; [assumption|]. split; [assumption|].
  intros y I. destruct (proj1 tiled_subnodes_all _ _ _ _ (TI 0) y I) as (b & l1 & l2 & l3 & -> & TY).
  exists l1, l2, l3. split; [reflexivity|].
  apply ordered_app in OR. destruct OR as (_ & OR). apply ordered_app in OR. destruct OR as (OR & _).
  inversion TY as [b0 l0 la0 y0 ps TP PE ST EN]; subst.
  split; [assumption|]. split; [intros NE; rewrite NE in ST; exact ST|]. split.
  - intros z IZ. eapply inside_subnodes; eauto.
  - exists ps. split; [assumption|]. eapply tiles_apart; eauto.
Qed.

(** ** C33 *)
Lemma sound_quiet : forall U f s x s', sound U f s x s' -> exists s1 l,
  (if input_fn f then advance U s = Ok tt s1 else s1 = s) /\ reads U s1 l s' /\ quiet l (view s') /\
  Permutation (tokens x) (map snd l ++ extra f (view s') x).
Proof.
  intros U f s x s' H.
  assert (Q : input_fn f = match sort_of f with Whole => true | _ => false end) by (destruct f; reflexivity).
  rewrite Q. unfold sound in H. destruct (sort_of f) eqn:S.
  - destruct H as (l & R & _ & D). exists s, l. split; [reflexivity|]. split; [exact R|]. split; [eapply E_quiet; eauto|].
    apply weights_permutation. intros w. rewrite weigh_app. apply (E_extra w); auto.
  - destruct H as (l & R & D). exists s, l. split; [reflexivity|]. split; [exact R|]. split; [eapply B_quiet; eauto|].
    apply weights_permutation. intros w. rewrite weigh_app. apply (proj1 (B_weight w)) in D. rewrite D.
    destruct f; try discriminate S; cbn [extra weigh]; unfold phrase; lia.
  - destruct H as (s1 & l & A & R & D). exists s1, l. split; [assumption|]. split; [exact R|]. split; [eapply Input_quiet; eauto|].
    apply weights_permutation. intros w. rewrite weigh_app. eapply Input_extra; eauto.
  - destruct H.
Qed.
Lemma tree_tokens : forall U text fuel f s x s', run U fuel f s = Ok x s' ->
  (if input_fn f then on_text U text s else at_token U text s) ->
  exists s1 l, (if input_fn f then advance U s = Ok tt s1 else s1 = s) /\ reads U s1 l s' /\
    Forall (fun t => tk_kind t <> T_EOF) (map snd l) /\
    Permutation (tokens x) (map snd l ++ extra f (view s') x).
Proof.
  intros U text fuel f s x s' H O. apply run_sound in H. destruct (sound_quiet _ _ _ _ _ H) as (s1 & l & A & R & Q & P).
  exists s1, l. split; [assumption|]. split; [assumption|]. split; [|assumption].
  assert (S : exists evs, seen U text evs s1).
  { destruct (input_fn f).
    - destruct O as (evs & O). exists evs. eapply advance_history; eauto.
    - subst s1. destruct O as (s0 & (evs & O) & A0). exists evs. eapply advance_history; eauto. }
  destruct S as (evs & S). eapply reads_no_eof; eauto.
Qed.

(** ** C36, C37 *)
Lemma reads_seen : forall U text s s1 l s', on_text U text s -> advance U s = Ok tt s1 -> reads U s1 l s' ->
  exists evs, seen U text evs s1.
Proof. intros U text s s1 l s' (evs & H) A R. exists evs. eapply advance_history; eauto. Qed.

Lemma nth_hd_skipn : forall (text : str) n, nth n text NUL = hd NUL (skipn n text).
Proof. induction text as [|c text IH]; intros [|n]; cbn; auto. Qed.

Lemma input_tokens : forall U text fuel f x s', (f = F_file_input \/ f = F_eval_input \/ f = F_func_type_input) ->
  run U fuel f (fresh text) = Ok x s' ->
  exists ts t, history U text (map inl ts ++ [inl t]) (ps_lexer s') /\ tk_kind t = T_EOF /\
    Forall (fun u => tk_kind u <> T_EOF) ts /\ Permutation (tokens x) (ts ++ [t]) /\
    tk_span t = At (lx_pos (ps_lexer s')) /\ nth (lx_pos (ps_lexer s')) text NUL = NUL /\
    ps_symbol s' = inl t.
Proof.
  intros U text fuel f x s' F H.
  assert (SO : sort_of f = Whole) by (destruct F as [->|[->| ->]]; reflexivity).
  apply run_sound in H. unfold sound in H. rewrite SO in H. destruct H as (s1 & l & A & R & I).
  assert (P : Permutation (tokens x) (map snd l ++ extra f (view s') x)).
  { apply weights_permutation. intros w. rewrite weigh_app. eapply Input_extra; eauto. }
  assert (H0 : history U text [] (ps_lexer (fresh text))) by constructor.
  pose proof (advance_history U text [] (fresh text) s1 H0 A) as S1.
  pose proof (reads_history U text _ _ _ R [] S1) as S2. cbn [app] in S2.
  pose proof (reads_no_eof U text _ _ _ R [] S1 (Input_quiet _ _ _ _ _ _ I)) as NE.
  assert (V : exists t, ps_symbol s' = inl t /\ tk_kind t = T_EOF /\ extra f (view s') x = [t]).
  { clear - F I. remember (view s') as v eqn:EV.
    assert (W : exists p t, v = (p, Some t) /\ tk_kind t = T_EOF) by
      (destruct F as [->|[->| ->]]; inversion I; subst; eauto).
    destruct W as (p & t & -> & K). exists t. unfold view in EV. split; [destruct (ps_symbol s'); congruence|].
    split; [exact K|]. destruct F as [->|[->| ->]]; reflexivity. }
  destruct V as (t & SY & K & EX). rewrite EX in P. unfold seen in S2. rewrite SY in S2.
  exists (map snd l), t. split; [exact S2|]. split; [exact K|]. split; [exact NE|]. split; [exact P|].
  inversion S2 as [Z|evs0 l0 t0 l1 HH G0 Z|evs0 l0 e0 l1 HH G0 Z]; subst.
  - destruct (map inl (map snd l)); discriminate.
  - apply app_inj_tail in Z. destruct Z as (_ & Z). injection Z as ->.
    destruct (eof_absorbs _ _ _ _ _ _ HH G0 K) as (SP & _).
    pose proof (history_call _ _ _ _ HH) as C. rewrite G0 in C. destruct (oc_eof _ _ _ _ C K) as (_ & _ & HD).
    split; [exact SP|]. split; [|exact SY].
    destruct (ok_at _ _ (oc_ok _ _ _ _ C)) as (AT & _). rewrite AT in HD.
    rewrite nth_hd_skipn. exact HD.
  - apply app_inj_tail in Z. destruct Z as (_ & Z). discriminate.
Qed.

(** Histories of the same text agree. *)
Lemma history_length_det : forall U text evs1 l1, history U text evs1 l1 -> forall evs2 l2, history U text evs2 l2 ->
  length evs1 = length evs2 -> evs1 = evs2 /\ l1 = l2.
Proof.
  intros U text evs1 l1 H1. induction H1 as [|e1 l1 t1 l1' H1 IH G1|e1 l1 x1 l1' H1 IH G1]; intros evs2 l2 H2 LE.
  - inversion H2; subst; auto; rewrite app_length in LE; cbn in LE; lia.
  - inversion H2 as [|e2 k2 t2 l2' H3 G2|e2 k2 x2 l2' H3 G2]; subst; rewrite ?app_length in LE; cbn in LE; try lia;
      destruct (IH e2 k2 H3 ltac:(lia)) as (-> & ->); rewrite G1 in G2; inversion G2; subst; auto.
  - inversion H2 as [|e2 k2 t2 l2' H3 G2|e2 k2 x2 l2' H3 G2]; subst; rewrite ?app_length in LE; cbn in LE; try lia;
      destruct (IH e2 k2 H3 ltac:(lia)) as (-> & ->); rewrite G1 in G2; inversion G2; subst; auto.
Qed.
Lemma history_prefix : forall U text evs l, history U text evs l -> forall n, exists l', history U text (firstn n evs) l'.
Proof.
  intros U text evs l H. induction H as [|evs l t l' H IH G|evs l e l' H IH G]; intros n.
  - exists (lexer_new text). rewrite firstn_nil. constructor.
  - destruct (le_lt_dec n (length evs)) as [L|L].
    + destruct (IH n) as (k & K). exists k. rewrite firstn_app. replace (n - length evs) with 0 by lia.
      cbn [firstn]. rewrite app_nil_r. exact K.
    + exists l'. rewrite firstn_all2; [econstructor; eauto|]. rewrite app_length. cbn. lia.
  - destruct (le_lt_dec n (length evs)) as [L|L].
    + destruct (IH n) as (k & K). exists k. rewrite firstn_app. replace (n - length evs) with 0 by lia.
      cbn [firstn]. rewrite app_nil_r. exact K.
    + exists l'. rewrite firstn_all2; [econstructor; eauto|]. rewrite app_length. cbn. lia.
Qed.

Lemma history_nth : forall U text evs1 l1 evs2 l2, history U text evs1 l1 -> history U text evs2 l2 ->
  forall i, i < length evs1 -> i < length evs2 -> nth_error evs1 i = nth_error evs2 i.
Proof.
  intros U text evs1 l1 evs2 l2 H1 H2 i L1 L2.
  destruct (history_prefix _ _ _ _ H1 (S i)) as (k1 & P1). destruct (history_prefix _ _ _ _ H2 (S i)) as (k2 & P2).
  destruct (history_length_det _ _ _ _ P1 _ _ P2) as (Q & _); [rewrite !firstn_length; lia|].
  rewrite <- (firstn_skipn (S i) evs1), <- (firstn_skipn (S i) evs2).
  rewrite !nth_error_app1 by (rewrite firstn_length; lia). rewrite Q. reflexivity.
Qed.

(** A lexical error before the end of the text fails the parse of a complete input. *)
Lemma error_fails : forall U text fuel f evs e l x s', (f = F_file_input \/ f = F_eval_input \/ f = F_func_type_input) ->
  history U text (map inl evs ++ [inr e]) l -> Forall (fun u => tk_kind u <> T_EOF) evs ->
  run U fuel f (fresh text) <> Ok x s'.
Proof.
  intros U text fuel f evs e l x s' F H N R.
  destruct (input_tokens U text fuel f x s' F R) as (ts & t & HT & K & NT & _).
  assert (NTH : forall i, i < length evs + 1 -> i < length ts + 1 ->
    nth_error (map inl evs ++ [inr e]) i = nth_error (map inl ts ++ [inl t]) i).
  { intros i L1 L2. eapply history_nth; eauto; rewrite app_length, map_length; assumption. }
  destruct (Nat.lt_trichotomy (length evs) (length ts)) as [L|[L|L]].
  - specialize (NTH (length evs) ltac:(lia) ltac:(lia)). rewrite nth_error_app2 in NTH by (rewrite map_length; lia).
    rewrite map_length, Nat.sub_diag in NTH. rewrite nth_error_app1 in NTH by (rewrite map_length; lia).
    rewrite nth_error_map in NTH. destruct (nth_error ts (length evs)); discriminate.
  - specialize (NTH (length evs) ltac:(lia) ltac:(lia)). rewrite !nth_error_app2 in NTH by (rewrite map_length; lia).
    rewrite !map_length, L, Nat.sub_diag in NTH. discriminate.
  - specialize (NTH (length ts) ltac:(lia) ltac:(lia)). rewrite nth_error_app1 in NTH by (rewrite map_length; lia).
    rewrite nth_error_app2 in NTH by (rewrite map_length; lia). rewrite map_length, Nat.sub_diag in NTH. cbn in NTH.
    rewrite nth_error_map in NTH. destruct (nth_error evs (length ts)) as [u|] eqn:Q; [|discriminate].
    injection NTH as ->. apply nth_error_In in Q. rewrite Forall_forall in N. exact (N _ Q K).
Qed.

(** An error token is refused where a phrase begins, and after an expression. *)
Lemma error_first : forall U fuel f s x s' e, input_fn f = false -> f <> F_typed_args_list -> ps_symbol s = inr e ->
  run U fuel f s <> Ok x s'.
Proof.
  intros U fuel f s x s' e NI NT S R. apply run_sound in R. unfold sound in R.
  assert (Z : forall l, reads U s l s' -> l = []) by (intros l RD; inversion RD; congruence).
  destruct (sort_of f) eqn:SO.
  - destruct R as (l & RD & _ & D). specialize (Z l RD). subst. apply E_first in D. unfold first_ok in D.
    destruct f; try discriminate; try contradiction; try congruence; destruct D as (? & ? & ? & ? & _); discriminate.
  - destruct R as (l & RD & D). specialize (Z l RD). subst. apply B_first in D. destruct D as (? & ? & ? & ? & _). discriminate.
  - destruct f; discriminate.
  - contradiction.
Qed.
Lemma error_after : forall U fuel f s x s' e, looks f = true -> ps_symbol s' = inr e -> run U fuel f s <> Ok x s'.
Proof.
  intros U fuel f s x s' e L S R. apply run_sound in R. unfold sound in R.
  assert (SO : sort_of f = Plain) by (destruct f; (reflexivity || discriminate)). rewrite SO in R.
  destruct R as (l & RD & _ & D). destruct (E_looks _ _ _ _ D L) as (t & V). unfold view in V. rewrite S in V. discriminate.
Qed.

Lemma input_end : forall U text fuel f x s', (f = F_file_input \/ f = F_eval_input \/ f = F_func_type_input) ->
  run U fuel f (fresh text) = Ok x s' ->
  exists t, ps_symbol s' = inl t /\ tk_kind t = T_EOF /\ tk_span t = At (node_end x) /\ nth (node_end x) text NUL = NUL /\
    match x with FileInput _ _ _ _ u | EvalInput _ _ _ _ u | FuncTypeInput _ _ _ _ u => u = t | _ => False end.
Proof.
  intros U text fuel f x s' F H.
  destruct (input_tokens U text fuel f x s' F H) as (ts & t & HT & K & _ & _ & SP & NU & SY).
  exists t. split; [exact SY|]. split; [exact K|].
  assert (SO : sort_of f = Whole) by (destruct F as [->|[->| ->]]; reflexivity).
  pose proof H as H'. apply run_sound in H'. unfold sound in H'. rewrite SO in H'. destruct H' as (s1 & l & A & R & I).
  assert (NE : node_end x = pos s' /\
    match x with FileInput _ _ _ _ u | EvalInput _ _ _ _ u | FuncTypeInput _ _ _ _ u => u = t | _ => False end).
  { remember (view s') as v eqn:EV. unfold view in EV. rewrite SY in EV. clear - F I EV.
    destruct F as [->|[->| ->]]; inversion I as [? ? p t0| ? ? ? ? p t0| ? ? ? ? p t0| | | ]; subst;
      match goal with Q : (_, Some _) = (_, Some _) |- _ => injection Q as E1 E2 end; subst; split; reflexivity. }
  destruct NE as (NE & MX).
  assert (PO : pos s' = lx_pos (ps_lexer s')).
  { assert (RD : ready text s1) by (eapply advance_ready; [eapply on_text_okay, (fresh_on_text U)|exact A]).
    destruct (reads_ordered U text _ _ _ R RD) as (_ & (_ & _ & PL) & _). rewrite SY in PL. destruct PL as (PL & _).
    unfold placed in PL. rewrite SP in PL. destruct PL as (PL & _). exact PL. }
  rewrite NE, PO. auto.
Qed.
