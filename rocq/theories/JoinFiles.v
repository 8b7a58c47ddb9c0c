(** Joining files: acceptance and modules, the rest of the proofs of C66. *)
From Coq Require Import List Arith Lia Bool.
From Verif Require Import Chars SourceBuffer Token Tokenizer LexSpec Node ParserState Parser ParseBasics ParseSpec ExprSpec StmtSpec StmtProofs StmtExact
  LayoutSpec PrintProofs Soundness GrammarSpec YieldProofs EndProofs StmtBack StmtText PythonGrammar PythonSpec CodedGrammar CodedSpec CodedInputs JoinLexer JoinSpec JoinProofs.
Import ListNotations.
Local Open Scope nat_scope.
Local Open Scope ebnf_scope.

Lemma same_match : forall t t', same_face t t' -> is_match t' -> is_match t.
Proof. intros t t' (K & P) (A & B). split; [congruence|]. unfold Token.text_of in *. rewrite <- P. exact B. Qed.

Lemma faces_no_match : forall a b, Forall2 same_face a b -> CodedSpec.no_match a -> CodedSpec.no_match b.
Proof.
  intros a b F (N1 & N2). split.
  - intros t q -> M. inversion F as [|? t0 ? q0 S F']; subst. eapply N1; [reflexivity|]. eapply same_match; eauto.
  - intros p t u q -> O M. apply Forall2_app_inv_r in F. destruct F as (p' & r & FP & FR & ->). inversion FR as [|t' ? r' ? S1 F1]; subst. inversion F1 as [|u' ? q' ? S2 F2]; subst.
    apply (N2 p' t' u' q' eq_refl); [destruct S1 as (K & _); rewrite <- K; exact O|eapply same_match; eauto].
Qed.

Lemma joined_no_match : forall a e b, CodedSpec.no_match (a ++ [e]) -> CodedSpec.no_match b -> CodedSpec.no_match (a ++ b).
Proof.
  intros a e b (A1 & A2) (B1 & B2). split.
  - intros t q E M. destruct a as [|x a]; cbn [app] in *; [eapply B1; eauto|]. injection E as -> E. eapply A1; eauto.
  - intros p t u q E O M.
    assert (Z : (exists q', a = p ++ t :: u :: q') \/ (a = p ++ [t] /\ b = u :: q) \/ exists p', b = p' ++ t :: u :: q).
    { clear - E. revert p E. induction a as [|x a IH]; intros p E; cbn [app] in E.
      - right. right. exists p. exact E.
      - destruct p as [|y p]; cbn [app] in E.
        + injection E as -> E. destruct a as [|z a]; cbn [app] in E; [right; left; auto|]. injection E as -> E. left. exists a. reflexivity.
        + injection E as -> E. destruct (IH _ E) as [(q' & ->)|[(-> & ->)|H]]; [left; exists q'; reflexivity|right; left; auto|right; right; exact H]. }
    destruct Z as [(q' & ->)|[(-> & ->)|(p' & ->)]].
    + eapply A2; [rewrite <- app_assoc; cbn [app]; reflexivity|exact O|exact M].
    + eapply B1; [reflexivity|exact M].
    + eapply B2; [reflexivity|exact O|exact M].
Qed.

Lemma star_join : forall G e ks1, fits G (Star e) ks1 -> forall ks2, fits G (Star e) ks2 -> fits G (Star e) (ks1 ++ ks2).
Proof.
  intros G e ks1 H. remember (Star e) as se eqn:E. induction H; try discriminate E; injection E as ->; intros ks H2; cbn [app]; [exact H2|].
  rewrite <- app_assoc. constructor; auto.
Qed.

Lemma file_shape : forall ks, fits coded (R file_input) ks <-> exists ks', ks = ks' ++ [T_EOF] /\ fits coded (Star (one_of T_Newline, stmt end_of)) ks'.
Proof.
  intros ks. split.
  - intros H. inversion H as [|? ? F0| | | | | | | | |]; subst. cbn [coded] in F0.
    inversion F0 as [| | |? ? k1 k2 F1 F2| | | | | | |]; subst. inversion F2 as [| | |? ? k3 k4 F3 F4| | | | | | |]; subst. inversion F4; subst. inversion F3; subst.
    exists k1. split; [reflexivity|exact F1].
  - intros (ks' & -> & F). constructor. cbn [coded]. constructor; [exact F|]. change [T_EOF] with ([T_EOF] ++ []). constructor; constructor.
Qed.

Theorem files_joined : forall U text1 ts1 n text2, reads_as U text1 ts1 -> ends_line text1 ts1 n -> n = 0 \/ flush text2 ->
  (exists x s', parsed U F_file_input (fresh text1) x s' /\ plain x) ->
  (exists x s', parsed U F_file_input (fresh text2) x s' /\ plain x) ->
  exists x s', parsed U F_file_input (fresh (text1 ++ text2)) x s' /\ plain x.
Proof.
  intros U text1 ts1 n text2 R1 EL Z P1 P2. apply files_exact in P1, P2. destruct P1 as (us1 & S1 & F1 & N1), P2 as (us2 & S2 & F2 & N2).
  destruct (proj1 (file_shape _) F1) as (k1 & K1 & FS1). destruct (proj1 (file_shape _) F2) as (k2 & K2 & FS2).
  destruct us2 as [|e2 ts2 _] using rev_ind; [destruct k2; discriminate K2|]. rewrite map_app in K2. apply app_inj_tail in K2. destruct K2 as (<- & K2).
  destruct R1 as (e1 & SC1 & KE1). pose proof SC1 as SC1'. rewrite S1 in SC1. apply inl_map_eq in SC1. subst us1.
  rewrite map_app in K1. apply app_inj_tail in K1. destruct K1 as (<- & _).
  destruct (tokens_joined U text1 ts1 n text2 ts2) as (ts & (e & SC & KE) & FF & _); [exists e1; auto|exact EL|exists e2; auto|exact Z|].
  apply files_exact. exists (ts ++ [e]). split; [exact SC|]. split.
  - apply file_shape. exists (map tk_kind ts). rewrite map_app. cbn [map]. rewrite KE. split; [reflexivity|].
    rewrite (same_kinds _ _ FF), map_app. apply star_join; assumption.
  - pose proof (joined_no_match ts1 e1 (ts2 ++ [e2]) N1 N2) as N. rewrite app_assoc in N.
    destruct N as (A & B). split.
    + intros t q E M. destruct ts as [|t0 ts]; cbn [app] in E; injection E as -> E.
      * destruct M as (M & _). rewrite KE in M. discriminate M.
      * inversion FF as [|t1 ? q1 ? SF F3]; subst. apply (A t1 (q1 ++ [e2])); [|eapply same_match; eauto].
        match goal with H : _ :: _ = ts1 ++ ts2 |- _ => rewrite <- H end. reflexivity.
    + assert (FA : Forall2 (fun t t' => tk_kind t' = tk_kind t /\ (is_match t' -> is_match t)) ((ts1 ++ ts2) ++ [e2]) (ts ++ [e])).
      { apply Forall2_app.
        - clear - FF. induction FF as [|t t' a b S F IH]; constructor; auto. split; [apply S|apply same_match; exact S].
        - constructor; [|constructor]. split; [congruence|]. intros (M & _). rewrite KE in M. discriminate M. }
      intros p t u q E O M. rewrite E in FA. apply Forall2_app_inv_r in FA. destruct FA as (p' & r & FP & FR & EQ).
      inversion FR as [|t' ? r' ? X1 Y1]; subst. inversion Y1 as [|u' ? q' ? X2 Y2]; subst.
      apply (B p' t' u' q' EQ); [destruct X1 as (K & _); rewrite <- K; exact O|apply X2; exact M].
Qed.

Lemma laid_app : forall m1 l1, laid m1 l1 -> forall m2 l2, laid m2 l2 -> laid (m1 ++ m2) (l1 ++ l2).
Proof. intros m1 l1 H. induction H; intros m2 l2 H2; cbn [app]; [exact H2|constructor; auto|]. rewrite <- app_assoc. constructor; auto. Qed.

Lemma same_faces : forall ts ts', Forall2 same_face ts ts' -> map face ts' = map face ts.
Proof. intros ts ts' H. induction H as [|t t' a b (K & P) H IH]; [reflexivity|]. cbn [map]. f_equal; [|exact IH]. unfold face. rewrite K, P. reflexivity. Qed.

Lemma module_read : forall U text m, (exists x s', parsed U F_file_input (fresh text) x s' /\ module_of x = Some m) ->
  module_fits m /\ exists ts, reads_as U text ts /\ laid m (map face ts).
Proof.
  intros U text m P0. pose proof (proj1 (text_exact U text m) P0) as (FI & _). split; [exact FI|].
  destruct P0 as (x & s' & P & M). destruct P as (fuel & P). apply run_sound in P. destruct P as (s1 & l' & A & RD & IN).
  pose proof (Input_quiet _ _ _ _ _ _ IN) as Q.
  assert (S1 : EndProofs.seen U text [] s1) by (eapply advance_history; [|exact A]; constructor).
  pose proof (reads_no_eof U text _ _ _ RD [] S1 Q) as NE.
  pose proof (reads_history U text _ _ _ RD [] S1) as S2. unfold EndProofs.seen in S2. cbn [app] in S2.
  inversion IN as [c l0 p t zs us c' L K| | | | |]; subst.
  cbn [module_of] in M. destruct (opts stmt_of (rev zs)) as [m'|] eqn:O; [|discriminate M]. injection M as <-.
  apply StmtProofs.opts_rev in O. rewrite rev_involutive in O. destruct (lines_back _ _ _ _ _ _ L _ O) as (LD & _).
  match goal with V : Some t = match ps_symbol s' with _ => _ end |- _ => destruct (ps_symbol s') as [v|] eqn:SV; [|discriminate V]; injection V as <- end.
  exists (map snd l'). split; [|rewrite map_map; exact LD]. exists t. split; [|exact K].
  eapply history_scanned; [exact S2|exact K|exact NE].
Qed.

Lemma reads_once : forall U text ts ts', reads_as U text ts -> reads_as U text ts' -> ts = ts'.
Proof. intros U text ts ts' (e & A & _) (e' & B & _). rewrite A in B. apply inl_map_eq in B. apply app_inj_tail in B. apply B. Qed.

Lemma reads_modules : forall U text ts m, reads_as U text ts -> module_fits m -> laid m (map face ts) ->
  exists x s', parsed U F_file_input (fresh text) x s' /\ module_of x = Some m.
Proof.
  intros U text ts m (e & SC & KE) FI LD. apply text_exact. split; [exact FI|]. destruct (scanned_history _ _ _ SC) as (l & H).
  rewrite map_app in H. exists ts, e, l. auto.
Qed.

(** Whether a statement passes does not depend on the note the parser kept before it. *)
Lemma note_free :
  (forall s c d, stmt_note c s <> None -> stmt_note d s <> None) /\ (forall b c d, suite_note c b <> None -> suite_note d b <> None) /\
  (forall b c d, block_note c b <> None -> block_note d b <> None) /\ (forall es c d, elifs_note c es <> None -> elifs_note d es <> None) /\
  (forall hs : handlers, True) /\ (forall o c d, clause_note c o <> None -> clause_note d o <> None).
Proof.
  assert (TH : forall A B (f g : option A) (h k : A -> option B), (f <> None -> g <> None) -> (forall a b, h a <> None -> k b <> None) ->
    andthen f h <> None -> andthen g k <> None).
  { intros A B [a|] [b|] h k FG HK H; cbn [andthen] in *; auto; try congruence; try (exfalso; apply FG; congruence). eauto. }
  apply stmt_mutual; intros; try exact Logic.I; cbn [stmt_note suite_note block_note elifs_note clause_note] in *; try congruence; eauto;
    repeat match goal with
    | H : andthen ?f ?h <> None |- andthen ?g ?k <> None => revert H; apply (TH _ _ f g h k); [|intros ? ?]; intros
    end; eauto.
Qed.

Lemma module_note_free : forall m c d, module_note c m <> None -> module_note d m <> None.
Proof.
  induction m as [|s m IH]; intros c d H; [discriminate|]. cbn [module_note] in *.
  destruct (stmt_note c s) as [c1|] eqn:E; [|contradiction]. cbn [andthen] in H.
  pose proof (proj1 note_free s c d) as N. rewrite E in N. destruct (stmt_note d s) as [d1|]; [|exfalso; apply N; congruence]. cbn [andthen]. eauto.
Qed.

Lemma fits_joined : forall m1 m2, module_fits m1 -> module_fits m2 -> module_fits (m1 ++ m2).
Proof.
  intros m1 m2 (F1 & N1) (F2 & N2). split; [apply Forall_app; auto|]. clear F1.
  assert (Z : forall c, module_note c m1 <> None -> module_note c (m1 ++ m2) <> None); [clear N1|auto].
  induction m1 as [|s m1 IH]; intros c N1; cbn [app]; [eapply module_note_free; eauto|]. cbn [module_note] in *.
  destruct (stmt_note c s) as [c1|]; [|contradiction]. cbn [andthen] in *. auto.
Qed.

Theorem modules_joined : forall U text1 ts1 n text2 m1 m2, reads_as U text1 ts1 -> ends_line text1 ts1 n -> n = 0 \/ flush text2 ->
  (exists x s', parsed U F_file_input (fresh text1) x s' /\ module_of x = Some m1) ->
  (exists x s', parsed U F_file_input (fresh text2) x s' /\ module_of x = Some m2) ->
  exists x s', parsed U F_file_input (fresh (text1 ++ text2)) x s' /\ module_of x = Some (m1 ++ m2).
Proof.
  intros U text1 ts1 n text2 m1 m2 R1 EL Z P1 P2. destruct (module_read _ _ _ P1) as (F1 & us1 & RU & L1). destruct (module_read _ _ _ P2) as (F2 & ts2 & R2 & L2).
  rewrite (reads_once _ _ _ _ RU R1) in L1. clear RU us1.
  destruct (tokens_joined U text1 ts1 n text2 ts2 R1 EL R2 Z) as (ts & RD & FF & _).
  apply (reads_modules U _ ts); [exact RD| |].
  - exact (fits_joined _ _ F1 F2).
  - rewrite (same_faces _ _ FF), map_app. apply laid_app; assumption.
Qed.

Theorem modules_chained : forall U texts tss n, chained U texts tss n ->
  forall ms, Forall2 (fun text m => exists x s', parsed U F_file_input (fresh text) x s' /\ module_of x = Some m) texts ms ->
  exists x s', parsed U F_file_input (fresh (concat texts)) x s' /\ module_of x = Some (concat ms).
Proof.
  intros U texts tss n H. induction H as [text ts n R E|texts tss m text ts n H IH R E Z]; intros ms F.
  - inversion F as [|? m0 ? ms0 P F0]; subst. inversion F0; subst. cbn [concat]. rewrite !app_nil_r. exact P.
  - apply Forall2_app_inv_l in F. destruct F as (ms1 & ms2 & F1 & F2 & ->). inversion F2 as [|? m0 ? ms0 P F0]; subst. inversion F0; subst.
    rewrite !concat_app. cbn [concat]. rewrite !app_nil_r. destruct (chain_joined _ _ _ _ H) as (us & RU & EU & _).
    exact (modules_joined U _ us m text _ _ RU EU Z (IH _ F1) P).
Qed.
