(** Exactly the modules of statements (C53). *)
From Coq Require Import List Arith Lia.
From Verif Require Import Chars SourceBuffer Token Tokenizer LexSpec TokenSpec RenderSpec HistoryProofs RoundTrip.
From Verif Require Import Node ParserState Parser GrammarSpec ParseBasics ParseSpec SoundBasics Soundness CompleteBasics Completeness YieldProofs TreeSpec
  EndProofs ExprSpec ExprProofs ExprText ExprPrint StmtSpec StmtProofs StmtDerive StmtText StmtBack.
Import ListNotations.
Local Open Scope nat_scope.

Lemma lines_back : forall c l la xs ts c', lines c l la xs ts c' -> forall m, opts stmt_of xs = Some m ->
  laid m (faces l) /\ Forall stmt_fits m /\ moves module_note m c c' /\ (ts = [] -> faces l = module_tokens m).
Proof.
  induction 1 as [c la|c p t l la xs ts c' K L IH|c l1 x c1 l2 la xs ts c' BX L IH]; intros m O.
  - injection O as <-. split; [constructor|]. split; [constructor|]. split; [|reflexivity]. intros d ->. exists d. split; reflexivity.
  - destruct (IH m O) as (A & F & M & _). split; [|split; [exact F|split; [exact M|discriminate]]].
    unfold faces. cbn [map]. replace (face (snd (p, t))) with (mark T_Newline) by (unfold face; cbn [snd]; rewrite K; reflexivity).
    constructor. exact A.
  - rewrite opts_cons in O. destruct (stmt_of x) as [s|] eqn:S; [|discriminate O]. destruct (opts stmt_of xs) as [m'|] eqn:O'; [|discriminate O].
    injection O as <-. destruct (IH m' eq_refl) as (A & F & M & T).
    destruct (proj1 back_mutual _ _ _ _ _ _ BX s S) as (FS & FI & MS).
    unfold faces. rewrite map_app. change (map (fun x0 => face (snd x0)) l1) with (faces l1). change (map (fun x0 => face (snd x0)) l2) with (faces l2). rewrite FS.
    split; [constructor; exact A|]. split; [constructor; assumption|]. split; [|intros Z; rewrite (T Z); reflexivity].
    intros d E. destruct (MS d E) as (d1 & N1 & E1). destruct (M d1 E1) as (d2 & N2 & E2). exists d2. split; [|exact E2].
    cbn [module_note]. rewrite N1. exact N2.
Qed.

Lemma lines_laid : forall m ks, laid m ks -> forall c c' l p t, Forall stmt_fits m -> module_note c m = Some c' -> faces l = ks -> tk_kind t = T_EOF ->
  exists xs ts, lines (status c) l (p, Some t) xs ts (status c') /\ opts stmt_of xs = Some m /\ follows (ahead l (p, Some t)).
Proof.
  induction 1 as [|m ks A IH|s m ks A IH]; intros c c' l p t FI CO F K.
  - apply faces_nil in F. subst l. injection CO as <-. exists [], []. split; [constructor|]. split; [reflexivity|].
    exists t. split; [reflexivity|]. rewrite K. not_clause.
  - destruct l as [|(q & u) l]; [discriminate F|]. unfold faces in F. cbn [map snd] in F. injection F as KN _ F.
    destruct (IH c c' l p t FI CO F K) as (xs & ts & L & O & _).
    exists xs, (u :: ts). split; [apply lines_newline; assumption|]. split; [exact O|]. exists u. split; [reflexivity|]. rewrite KN. not_clause.
  - inversion FI as [|? ? F1 F2]; subst. apply faces_app in F as (l1 & l2 & -> & FA & FB).
    cbn [module_note] in CO. apply andthen_inv in CO as (c1 & CS & CO). destruct (IH c1 c' l2 p t F2 CO FB K) as (xs & ts & L & O & FO).
    destruct (proj1 tokens_mutual s c c1 l1 _ F1 CS FA FO) as (x & BX & SX).
    exists (x :: xs), ts. split; [eapply lines_stmt; eassumption|]. split; [rewrite opts_cons, SX, O; reflexivity|].
    eapply (opener_follows_app (stmt_tokens s) (faces l2)); [apply stmt_opener, F1|]. rewrite <- FA. apply map_app.
Qed.

(** The tokens up to the first end marker. *)
Theorem module_exact : forall U s m, ps_except s = ExceptNone ->
  (exists x s', parsed U F_file_input s x s' /\ module_of x = Some m) <->
  (module_fits m /\ exists s1 l s' u, advance U s = Ok tt s1 /\ reads U s1 l s' /\ ps_symbol s' = inl u /\ tk_kind u = T_EOF /\ laid m (faces l)).
Proof.
  intros U s m X. split.
  - intros (x & s' & (fuel & R) & M). apply run_sound in R. destruct R as (s1 & l & A & RD & IN). inversion IN as [c l0 p t xs ts c' L K| | | | |]; subst.
    cbn [module_of] in M. destruct (opts stmt_of (rev xs)) as [m'|] eqn:O; [|discriminate M]. injection M as <-.
    apply opts_rev in O. rewrite rev_involutive in O. destruct (lines_back _ _ _ _ _ _ L _ O) as (LD & FI & MV & _).
    assert (X1 : ps_except s1 = ExceptNone). { unfold advance in A. destruct (get_symbol U (ps_lexer s)); inversion A; subst; exact X. }
    destruct (MV None X1) as (d & N & _).
    split; [split; [exact FI|congruence]|]. 
    match goal with V : Some t = match ps_symbol s' with _ => _ end |- _ => destruct (ps_symbol s') as [u|] eqn:SU; [|discriminate V]; injection V as <- end.
    exists s1, l, s', t. repeat (split; [assumption|]). exact LD.
  - intros ((FI & NO) & s1 & l & s' & u & A & R & SU & KU & LD). destruct (module_note None m) as [c'|] eqn:CO; [|congruence].
    destruct (lines_laid _ _ LD None c' l (pos s') u FI CO eq_refl KU) as (ys & ts & L & O & _).
    assert (X1 : ps_except s1 = ExceptNone). { unfold advance in A. destruct (get_symbol U (ps_lexer s)); inversion A; subst; exact X. }
    set (s2 := mk_parser (ps_lexer s') (ps_symbol s') (status c')).
    assert (R2 : reads U s1 l s2) by (rewrite <- (app_nil_r l); eapply reads_app; [exact R|apply reads_nil; reflexivity]).
    assert (V : view s2 = (pos s', Some u)) by (unfold view, s2; cbn [ps_symbol]; rewrite SU; reflexivity).
    assert (SO : sound U F_file_input s (FileInput (start l (pos s', Some u)) (pos s') (rev ys) (rev ts) u) s2).
    { exists s1, l. split; [exact A|]. split; [exact R2|]. rewrite V, X1. apply (I_file ExceptNone l (pos s') u ys ts (status c')); [exact L|exact KU]. }
    destruct (run_complete U _ _ _ _ SO) as (k & Z). eexists. exists s2. split; [exists k; apply Z; lia|].
    cbn [module_of]. rewrite (opts_rev _ _ _ _ O). cbn [option_map]. rewrite rev_involutive. reflexivity.
Qed.

Lemma program_one_end : forall U levels xs ts, program U levels xs ts -> exists ts', ts = ts' ++ [(T_EOF, NoPayload)] /\ Forall (fun x => fst x <> T_EOF) ts'.
Proof.
  assert (RP : forall n, Forall (fun x => fst x <> T_EOF) (repeat (T_Dedent, NoPayload) n)).
  { intros n. induction n; constructor; [discriminate|assumption]. }
  assert (LS : forall U x col, line_ok U x col -> Forall (fun x => fst x <> T_EOF) (line_seen x)).
  { intros U x col (_ & I & _). unfold line_seen. apply Forall_app. split; [|repeat constructor; discriminate].
    apply items_ordinary in I. eapply Forall_impl; [|exact I]. intros a (H & _). exact H. }
  intros U levels xs ts H. induction H as [levels|levels x xs ts O P (t1 & -> & F)|levels x col xs ts O G P (t1 & -> & F)|levels x col xs ts O G P (t1 & -> & F)].
  - eexists. split; [reflexivity|apply RP].
  - exists (line_seen x ++ t1). split; [apply app_assoc|]. apply Forall_app. split; [eapply LS, O|exact F].
  - exists ((T_Indent, NoPayload) :: line_seen x ++ t1). split; [cbn [app]; rewrite <- app_assoc; reflexivity|]. constructor; [discriminate|]. apply Forall_app. split; [eapply LS, O|exact F].
  - exists (repeat (T_Dedent, NoPayload) (length levels - length (leave col levels)) ++ line_seen x ++ t1). split; [rewrite <- !app_assoc; reflexivity|]. apply Forall_app. split; [apply RP|]. apply Forall_app. split; [eapply LS, O|exact F].
Qed.

Theorem program_exact : forall U m xs ts, program U [0] xs (ts ++ [(T_EOF, NoPayload)]) ->
  (exists x s', parsed U F_file_input (fresh (text_of xs)) x s' /\ module_of x = Some m) <-> (module_fits m /\ laid m (map strip ts)).
Proof.
  intros U m xs ts PR. destruct (program_reads U xs ts PR) as (s1 & l & s' & u & A & R & F & SU & KU & X & X0). split.
  - intros (x & s2 & P & M). assert (PM : exists x s', parsed U F_file_input (fresh (text_of xs)) x s' /\ module_of x = Some m) by eauto.
    apply (proj1 (module_exact U (fresh (text_of xs)) m eq_refl)) in PM. destruct PM as (FI & _). split; [exact FI|].
    destruct P as (fuel & P). apply run_sound in P. destruct P as (s1' & l' & A' & RD & IN). rewrite A in A'. injection A' as <-.
    pose proof (Input_quiet _ _ _ _ _ _ IN) as Q.
    assert (S1 : EndProofs.seen U (text_of xs) [] s1) by (eapply advance_history; [|exact A]; constructor).
    pose proof (reads_no_eof U (text_of xs) _ _ _ RD [] S1 Q) as NE.
    inversion IN as [c l0 p t zs us c' L K| | | | |]; subst.
    cbn [module_of] in M. destruct (opts stmt_of (rev zs)) as [m'|] eqn:O; [|discriminate M]. injection M as <-.
    apply opts_rev in O. rewrite rev_involutive in O. destruct (lines_back _ _ _ _ _ _ L _ O) as (LD & _).
    match goal with V : Some t = match ps_symbol s2 with _ => _ end |- _ => destruct (ps_symbol s2) as [v|] eqn:SV; [|discriminate V]; injection V as <- end.
    assert (EQ : l' = l).
    { eapply reads_to_end; [exact RD|exact R| | |exact SV|exact K|exact SU|exact KU].
      - unfold no_end. rewrite Forall_map in NE. exact NE.
      - destruct (program_one_end _ _ _ _ PR) as (t1 & E & N). apply app_inj_tail in E as (<- & _). unfold no_end.
        assert (N2 : Forall (fun x => fst x <> T_EOF) (map strip ts)) by (rewrite Forall_map; exact N).
        rewrite <- F in N2. unfold faces in N2. rewrite Forall_map in N2. exact N2. }
    rewrite <- F, <- EQ. exact LD.
  - intros (FI & LD). apply (module_exact U (fresh (text_of xs)) m eq_refl). split; [exact FI|]. exists s1, l, s', u. repeat (split; [assumption|]). rewrite F. exact LD.
Qed.

(** ** By the tokens of the text *)
Lemma history_reads : forall U text ts t l, history U text (map inl ts ++ [inl t]) l -> exists s1 ps s',
  advance U (fresh text) = Ok tt s1 /\ reads U s1 ps s' /\ map snd ps = ts /\ ps_symbol s' = inl t /\ ps_lexer s' = l.
Proof.
  intros U text ts. induction ts as [|u ts IH] using rev_ind; intros t l H.
  - cbn [map app] in H. inversion H as [Z|evs0 l0 t0 l1 H0 G0 Z|evs0 l0 e0 l1 H0 G0 Z]; subst.
    + apply (app_inj_tail evs0 []) in Z. destruct Z as (-> & Z). injection Z as ->.
      inversion H0 as [Z|? ? ? ? ? ? Z|? ? ? ? ? ? Z]; subst; [|destruct evs; discriminate Z|destruct evs; discriminate Z].
      exists (mk_parser l (inl t) ExceptNone), [], (mk_parser l (inl t) ExceptNone).
      split; [unfold advance; cbn [ps_lexer fresh parser_new]; rewrite G0; reflexivity|]. split; [apply reads_nil; reflexivity|]. auto.
    + apply (app_inj_tail evs0 []) in Z. destruct Z as (_ & Z). discriminate Z.
  - inversion H as [Z|evs0 l0 t0 l1 H0 G0 Z|evs0 l0 e0 l1 H0 G0 Z]; subst.
    + destruct (map inl (ts ++ [u])); discriminate.
    + apply app_inj_tail in Z. destruct Z as (-> & Z). injection Z as ->. rewrite map_app in H0. cbn [map] in H0.
      destruct (IH _ _ H0) as (s1 & ps & s' & A & R & M & S & L). set (s2 := mk_parser l (inl t) (ps_except s')).
      exists s1, (ps ++ [(pos s', u)]), s2. split; [exact A|]. split.
      * eapply reads_app; [exact R|]. econstructor; [exact S| |apply reads_nil; reflexivity].
        unfold advance. rewrite L, G0. reflexivity.
      * split; [|auto]. rewrite <- M. apply map_app.
    + apply app_inj_tail in Z. destruct Z as (_ & Z). discriminate Z.
Qed.
Theorem text_exact : forall U text m,
  (exists x s', parsed U F_file_input (fresh text) x s' /\ module_of x = Some m) <->
  (module_fits m /\ exists ts t l, history U text (map inl ts ++ [inl t]) l /\ tk_kind t = T_EOF /\ laid m (map face ts)).
Proof.
  intros U text m. rewrite (module_exact U (fresh text) m eq_refl). split; intros (FI & H); (split; [exact FI|]).
  - destruct H as (s1 & l & s' & u & A & R & S & K & L).
    assert (S1 : EndProofs.seen U text [] s1) by (eapply advance_history; [|exact A]; constructor).
    pose proof (reads_history U text _ _ _ R [] S1) as S2. unfold EndProofs.seen in S2. cbn [app] in S2. rewrite S in S2.
    exists (map snd l), u, (ps_lexer s'). split; [exact S2|]. split; [exact K|]. rewrite map_map. exact L.
  - destruct H as (ts & t & l & H & K & L). destruct (history_reads _ _ _ _ _ H) as (s1 & ps & s' & A & R & M & S & _).
    exists s1, ps, s', t. repeat (split; [assumption|]). unfold faces. rewrite <- (map_map snd face), M. exact L.
Qed.
(** Texts with the same tokens, layout aside, have the same modules. *)
Theorem same_module : forall U text1 text2 ts1 t1 l1 ts2 t2 l2 m,
  history U text1 (map inl ts1 ++ [inl t1]) l1 -> history U text2 (map inl ts2 ++ [inl t2]) l2 ->
  tk_kind t1 = T_EOF -> tk_kind t2 = T_EOF -> map face ts1 = map face ts2 -> Forall (fun t => tk_kind t <> T_EOF) ts1 ->
  (exists x s', parsed U F_file_input (fresh text1) x s' /\ module_of x = Some m) ->
  exists x s', parsed U F_file_input (fresh text2) x s' /\ module_of x = Some m.
Proof.
  intros U text1 text2 ts1 t1 l1 ts2 t2 l2 m H1 H2 K1 K2 F N (x & s' & P & M). apply text_exact. split.
  - apply (text_exact U text1 m). eauto.
  - exists ts2, t2, l2. split; [exact H2|]. split; [exact K2|]. rewrite <- F.
    destruct (history_reads _ _ _ _ _ H1) as (s1 & ps & s2 & A & R & MP & S & _).
    destruct P as (fuel & P). apply run_sound in P. destruct P as (s1' & l' & A' & RD & IN). rewrite A in A'. injection A' as <-.
    pose proof (Input_quiet _ _ _ _ _ _ IN) as Q.
    assert (S1 : EndProofs.seen U text1 [] s1) by (eapply advance_history; [|exact A]; constructor).
    pose proof (reads_no_eof U text1 _ _ _ RD [] S1 Q) as NE.
    inversion IN as [c l0 p t zs us c' L K| | | | |]; subst.
    cbn [module_of] in M. destruct (opts stmt_of (rev zs)) as [m'|] eqn:O; [|discriminate M]. injection M as <-.
    apply opts_rev in O. rewrite rev_involutive in O. destruct (lines_back _ _ _ _ _ _ L _ O) as (LD & _).
    match goal with V : Some t = match ps_symbol s' with _ => _ end |- _ => destruct (ps_symbol s') as [v|] eqn:SV; [|discriminate V]; injection V as <- end.
    assert (EQ : l' = ps).
    { eapply reads_to_end; [exact RD|exact R| | |exact SV|exact K|exact S|exact K1]; unfold no_end; [rewrite Forall_map in NE; exact NE|rewrite Forall_map in N; exact N]. }
    rewrite map_map, <- EQ. exact LD.
Qed.
