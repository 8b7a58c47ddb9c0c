(** Every token is the token its text prescribes, and conversely. *)
From Coq Require Import ZArith Arith Lia.
From Verif Require Import Chars SourceBuffer Token Tokenizer LexBasics ScanLemmas LineLemmas
  TokenLemmas NumberLemmas WellFormed CallLemmas CallTheorem LexSpec TokenSpec HistoryProofs TilingProofs MidLine
  NumberProofs ZeroProofs WordProofs StringProofs.

Lemma radix_letter_dec : forall c, {radix_letter c} + {~ radix_letter c}.
Proof. intros c. unfold radix_letter. apply in_dec. apply N.eq_dec. Qed.

Lemma radix_letter_radix : forall c, radix_letter c -> exists isd, radix c isd /\ isd #"_" = false.
Proof.
  intros c H. cbn in H. destruct H as [<-|[<-|[<-|[<-|[<-|[<-|[]]]]]]]; eexists;
    (split; [first [apply Rx; cbn; tauto | apply Ro; cbn; tauto | apply Rb; cbn; tauto]|reflexivity]).
Qed.

Lemma digits_underscores_split : forall isd r, isd NUL = false -> exists w r' : str, r = w ++ r' /\ digits_and_underscores isd w r'.
Proof.
  intros isd r Z. destruct (run_while (fun c => isd c || (c =? #"_")) r) as [w r'] eqn:E.
  exists w, r'. pose proof (run_while_hd (fun c => isd c || (c =? #"_")) r w r') as H. cbv beta in H. rewrite Z in H. specialize (H eq_refl E).
  apply run_while_spec in E. destruct E as (-> & F & _). split; auto. 
  apply orb_false_iff in H. destruct H as (H1 & H2). apply N.eqb_neq in H2. repeat split; auto.
  apply Forall_forall. rewrite forallb_forall in F. intros x Hx. specialize (F _ Hx). apply orb_prop in F.
  rewrite N.eqb_eq in F. exact F.
Qed.

(** The call at a significant character of a line. *)
Lemma mid_inversion : forall U l t l', mid_line l -> significant (hd NUL (lx_rest l)) -> get_symbol U l = LOk t l' ->
  exists n, token_at U (lx_rest l) (tk_kind t) n (tk_payload t) /\
            tk_span t = Range (lx_pos l) (lx_pos l + n) /\ lx_pos l' = (lx_pos l + n)%nat.
Proof.
  intros U l t l' M SG E. pose proof M as (B & P).
  assert (NN : hd NUL (lx_rest l) <> NUL) by (unfold significant in SG; tauto).
  destruct (hd_nonnul _ NN) as (c & r & R & _). rewrite R in SG. cbn [hd] in SG.
  pose proof E as E0. rewrite (get_symbol_mid U l c r) in E by auto.
  pose proof (lex_token_case U (set_start l (lx_pos l)) []) as TC. rewrite E in TC.
  change (lx_rest (set_start l (lx_pos l))) with (lx_rest l) in TC.
  remember (LOk t l') as res eqn:RES.
  destruct TC as [k n O1|k cl O1 OO|k msg below O1 OO CC PS|k msg O1 OO CC PS|res O1 OO CC I W|res O1 OO CC I NS|res O1 OO CC I QQ SC|O1 OO CC I DD QQ DG];
    try discriminate; change (lx_rest (set_start l (lx_pos l))) with (lx_rest l) in *.
  - inversion RES; subst. destruct (operator_at_longest _ _ _ O1) as (LO & L & ND). exists n. repeat split.
    cbn [tk_kind tk_payload]. rewrite <- L at 1. apply TA_operator; auto.
  - inversion RES; subst. exists 1%nat. repeat split. cbn [tk_kind tk_payload]. rewrite R. apply TA_bracket.
    rewrite R in OO. cbn [hd] in OO. unfold opener_at in OO.
    destruct (N.eqb_spec c 40); [inversion OO; subst; cbn; tauto|].
    destruct (N.eqb_spec c 91); [inversion OO; subst; cbn; tauto|].
    destruct (N.eqb_spec c 123); [inversion OO; subst; cbn; tauto|]. discriminate.
  - inversion RES; subst. exists 1%nat. repeat split. cbn [tk_kind tk_payload]. rewrite R. apply TA_bracket.
    rewrite R in CC. cbn [hd] in CC. unfold closer_at in CC.
    destruct (N.eqb_spec c 41); [inversion CC; subst; cbn; tauto|].
    destruct (N.eqb_spec c 93); [inversion CC; subst; cbn; tauto|].
    destruct (N.eqb_spec c 125); [inversion CC; subst; cbn; tauto|]. discriminate.
  - apply word_start_ident in I.
    destruct W as [w' r' k' R' N' F' H' K'|w' r' R' N' F' H' K' P'|w' r' res R' N' F' H' K' P' Q' SC];
      change (lx_rest (set_start (set_start l (lx_pos l)) (lx_pos (set_start l (lx_pos l))))) with (lx_rest l) in R';
      rewrite R' in I; pose proof (word_case_at U w' r' N' I F' H') as WA.
    + inversion RES; subst. exists (length w'). repeat split. cbn [tk_kind tk_payload]. rewrite R'. 
      apply TA_keyword; auto. now apply keyword_reserved.
    + inversion RES; subst. exists (length w'). repeat split. cbn [tk_kind tk_payload]. rewrite R'. 
      apply TA_name; auto; [now apply keyword_none|]. rewrite <- prefix_word, quote_spec. intros (X & Y).
      rewrite X, Y in P'. discriminate.
    + subst res. apply quote_spec in Q'. apply string_case_ok in SC; auto.
      destruct SC as [(t' & r'' & ER & ST & EQ)|(_ & n & X & _)]; [|destruct (triple_at _ _); discriminate].
      inversion EQ; subst. exists (length (w' ++ t')). cbn [tk_kind tk_payload tk_span]. rewrite R', app_length. repeat split.
      * rewrite <- app_length. apply TA_prefixed; auto. now apply prefix_word.
      * change (lx_pos (set_start l (lx_pos l))) with (lx_pos l).
        change (lx_pos (set_start (set_start l (lx_pos l)) (lx_pos l))) with (lx_pos l). rewrite Nat.add_assoc. reflexivity.
      * rewrite Nat.add_assoc. reflexivity.
  - rewrite RES in E0. clear RES E. inversion NS as [p Z|p Z1 Z2|p Z]; subst; rewrite R in *; cbn [hd tl] in *.
    + subst c. destruct (radix_letter_dec (hd NUL r)) as [RL|RL].
      * destruct (radix_letter_radix _ RL) as (isd & RX & UN). destruct r as [|c r]; [exfalso; clear - RL; cbn in RL; repeat destruct RL as [RL|RL]; try discriminate RL; exact RL|].
        cbn [hd] in *. assert (Z0 : isd NUL = false) by (destruct RX; reflexivity).
        destruct (digits_underscores_split isd r Z0) as (w & r' & -> & DU).
        destruct (radix_call U l c isd w r' M RX R DU) as (G & B').
        assert (DEC : (udigits isd w /\ w <> []) \/ ~ (udigits isd w /\ w <> [])).
        { destruct (digit_run_spec isd UN w r' DU) as [(A & _)|(A & _)]; [|tauto]. destruct w; [tauto|left; split; auto; discriminate]. }
        destruct DEC as [D|D]; [|destruct (B' D) as (m & l2 & X); congruence].
        rewrite (G D) in E0. inversion E0; subst. exists (2 + length w)%nat. repeat split. cbn [tk_kind tk_payload].
        apply TA_radix with (isd := isd); tauto.
      * destruct (zero_split (tl r)) as (ip & f & ex & im & r' & T & ZP).
        destruct (zero_call U l r ip f ex im r' M R RL T ZP) as (G & B'). cbn zeta in *.
        assert (DEC : let good := frac_ok f /\ exp_as_coded ex /\ (existsb is_nonzero_digit ip = true -> f ++ ex ++ im <> []) in good \/ ~ good).
        { destruct (zero_number_spec (lx_pos l) r ip f ex im r' T ZP) as [(A & _)|(A & _)]; [left|right]; exact A. }
        cbn zeta in DEC. destruct DEC as [D|D]; [|destruct (B' D) as (m & l2 & X); congruence].
        rewrite (G D) in E0. inversion E0; subst. eexists. split; [|split; reflexivity]. cbn [tk_kind tk_payload].
        apply TA_zero with (r := r'); tauto.
    + subst c. destruct r as [|d r]; [discriminate|]. cbn [hd] in Z2.
      destruct (digits_underscores_split is_digit r eq_refl) as (w & r1 & -> & DU).
      destruct (exp_split r1) as (ex & r2 & -> & EP). destruct (imag_split r2) as (im & r3 & -> & IP).
      destruct (dot_call U l d w ex im r3 M R Z2 DU EP IP) as (G & B'). cbn zeta in *.
      assert (DEC : (udigits is_digit w /\ exp_as_coded ex) \/ ~ (udigits is_digit w /\ exp_as_coded ex)).
      { destruct (number_from_dot_spec 0 d w ex im r3 Z2 DU EP IP) as [(A & A' & _)|(A & _)]; tauto. }
      destruct DEC as [D|D]; [|destruct (B' D) as (m & l2 & X); congruence].
      rewrite (G D) in E0. inversion E0; subst. eexists. split; [|split; reflexivity]. cbn [tk_kind tk_payload].
      change (46 :: d :: w ++ ex ++ im ++ r3) with ((46 :: d :: w) ++ ex ++ im ++ r3). apply TA_dot; tauto.
    + destruct (number_split (c :: r)) as (ip & f & ex & im & r3 & EQ & NP).
      assert (NZ : is_nonzero_digit (hd NUL ip) = true).
      { destruct ip as [|c' ip]; [|cbn in EQ; inversion EQ; subst; exact Z].
        exfalso. destruct NP as ((_ & X & _) & _). cbn [app] in EQ, X. rewrite <- EQ in X. cbn [hd] in X.
        rewrite is_digit_cases, Z, orb_true_r in X. discriminate. }
      rewrite EQ in R.
      destruct (nonzero_call U l ip f ex im r3 M R NP NZ) as (G & B'). cbn zeta in *.
      assert (DEC : (digitpart is_digit ip /\ frac_ok f /\ exp_as_coded ex) \/ ~ (digitpart is_digit ip /\ frac_ok f /\ exp_as_coded ex)).
      { destruct (number_from_nonzero_spec 0 ip f ex im r3 NP) as [(A & A' & A'' & _)|(A & _)].
        - left. split; [|tauto]. split; [exact A|]. destruct ip; [discriminate|]. split; [discriminate|].
          cbn in NZ |- *. intros ->. discriminate.
        - right. unfold digitpart. tauto. }
      destruct DEC as [D|D]; [|destruct (B' D) as (m & l2 & X); congruence].
      rewrite (G D) in E0. inversion E0; subst. eexists. split; [|split; reflexivity]. cbn [tk_kind tk_payload].
      rewrite EQ. apply TA_nonzero; tauto.
  - subst res. apply quote_spec in QQ. apply string_case_ok in SC; auto.
    destruct SC as [(t' & r'' & ER & ST & EQ)|(_ & n & X & _)]; [|destruct (triple_at _ _); discriminate].
    inversion EQ; subst. exists (length t'). cbn [tk_kind tk_payload tk_span]. repeat split.
    rewrite ER. apply TA_string; auto.
Qed.

Theorem token_sound : forall U text evs l t l' s e, history U text evs l -> get_symbol U l = LOk t l' ->
  tk_span t = Range s e -> tk_kind t <> T_Newline -> tk_kind t <> T_TypeComment ->
  exists n, e = (s + n)%nat /\ (s < length text)%nat /\ token_at U (skipn s text) (tk_kind t) n (tk_payload t).
Proof.
  intros U text evs l t l' s e H E SP1 K1 K2.
  destruct (history_token_at_position _ _ _ _ _ _ _ _ H E SP1 K1 K2) as (G & SG & L).
  destruct (mid_inversion U (at_position text s (lx_parens l) (lx_indents l')) (without_trivia t) l') as (n & TA & SP2 & _); auto.
  - split; reflexivity.
  - exists n. cbn in TA, SP2. rewrite SP1 in SP2. inversion SP2. auto.
Qed.

Theorem token_complete : forall U l k n pay, mid_line l -> token_at U (lx_rest l) k n pay -> is_closer k = false ->
  get_symbol U l = LOk (Tok k (Range (lx_pos l) (lx_pos l + n)) None pay)
    (set_parens (after l n) (match k with
       | PyLeftParen => #")" :: lx_parens l | PyLeftBracket => #"]" :: lx_parens l
       | PyLeftCurly => #"}" :: lx_parens l | _ => lx_parens l end)).
Proof.
  intros U l k n pay M T C.
  assert (SAME : forall l n, set_parens (after l n) (lx_parens l) = after l n) by reflexivity.
  remember (lx_rest l) as rr eqn:R. symmetry in R.
  destruct T as [r w k LO ND|c r k I|w r k WA I|w r WA NI NQ|t r ST|w t r SP ST|c isd w r RX DU UD WN|ip f ex im r NP NZ DP FO EO|d w ex im r D DU EP IP UD EO|s ip f ex im r NR T ZP FO EO NZ].
  - replace (match k with PyLeftParen => _ | _ => _ end) with (lx_parens l).
    + rewrite SAME. apply operator_call; congruence.
    + destruct LO as (I & _). clear - I. cbn in I. repeat destruct I as [I|I]; try (inversion I; subst; reflexivity); destruct I.
  - pose proof M as (B & P). cbn in I.
    assert (SG : significant c) by (repeat destruct I as [I|I]; try (inversion I; subst; repeat split; discriminate); destruct I).
    rewrite (get_symbol_mid U l c r) by auto.
    unfold lex_token, cu_peek, peek3.
    change (cu_rest (lx_cur (set_start (set_start l (lx_pos l)) (lx_pos (set_start l (lx_pos l)))))) with (lx_rest l).
    unfold lx_skip. rewrite R. cbn [hd tl].
    assert (O : forall b d, operator_at (c, b, d) = None).
    { intros b d. clear - I. repeat destruct I as [I|I]; try (inversion I; subst; reflexivity); destruct I. }
    rewrite O, cu_skip_eq.
    change (cu_rest (lx_cur (set_start (set_start l (lx_pos l)) (lx_pos (set_start l (lx_pos l)))))) with (lx_rest l).
    unfold after. rewrite R.
    repeat destruct I as [I|I]; inversion I; subst; try discriminate C; reflexivity.
  - replace (match k with PyLeftParen => _ | _ => _ end) with (lx_parens l).
    + rewrite SAME. eapply keyword_call; eauto.
    + clear - I. cbn in I. repeat destruct I as [I|I]; try (inversion I; subst; reflexivity); destruct I.
  - rewrite SAME. eapply name_call; eauto.
  - rewrite SAME. eapply string_call; eauto.
  - rewrite SAME. eapply prefixed_call; eauto.
  - rewrite SAME. destruct (radix_call U l c isd w r M RX R DU) as (G & _). apply G. auto.
  - rewrite SAME. destruct (nonzero_call U l ip f ex im r M R NP NZ) as (G & _). apply G. auto.
  - rewrite SAME. destruct (dot_call U l d w ex im r M R D DU EP IP) as (G & _). apply G. auto.
  - rewrite SAME. destruct (zero_call U l s ip f ex im r M R NR T ZP) as (G & _). apply G. auto.
Qed.
