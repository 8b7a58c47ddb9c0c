(** A token stays the same token whatever blank, line end or end of text follows it. *)
From Coq Require Import ZArith Arith Lia Sorted.
From Verif Require Import Chars SourceBuffer Token Tokenizer LexBasics ScanLemmas LineLemmas
  TokenLemmas NumberLemmas WellFormed CallLemmas CallTheorem LexSpec TokenSpec RenderSpec HistoryProofs TilingProofs MidLine NumberProofs
  ZeroProofs WordProofs StringProofs TokenProofs Compose LayoutProofs RoundTrip ExprSpec ExprPrint.

Definition stops (c : char) : Prop := c = SP \/ c = LF \/ c = NUL.

Lemma stops_facts : forall c, stops c -> is_digit c = false /\ is_hex_digit c = false /\ is_oct_digit c = false /\
  is_bin_digit c = false /\ c <> #"_" /\ c <> #"." /\ c <> #"e" /\ c <> #"E" /\ c <> #"j" /\ c <> #"J" /\ c <> #"+" /\ c <> #"-".
Proof. intros c [->|[->| ->]]; repeat split; discriminate. Qed.

Lemma stops_not_word : forall U c, stops c -> ~ word_char U c.
Proof. intros U c E W. apply word_char_ident in W. destruct E as [->|[->| ->]]; cbn in W; discriminate. Qed.
Lemma stops_not_quote : forall c, stops c -> c <> SQ /\ c <> DQ.
Proof. intros c E. destruct E as [E|[E|E]]; subst; split; discriminate. Qed.

Lemma hd_app : forall (x : str) r r', x <> [] -> hd NUL (x ++ r) = hd NUL (x ++ r').
Proof. intros [|c x] r r' H; [congruence|reflexivity]. Qed.

(** [follow x r r']: if [x] is empty the two continuations differ. *)
Lemma digits_local : forall isd w x r r', isd NUL = false -> (isd = is_digit \/ isd = is_hex_digit \/ isd = is_oct_digit \/ isd = is_bin_digit) ->
  digits_and_underscores isd w (x ++ r) -> stops (hd NUL r') -> digits_and_underscores isd w (x ++ r').
Proof.
  intros isd w x r r' _ I (A & B & C) S. split; [exact A|]. destruct x as [|c x]; [|split; [exact B|exact C]].
  cbn [app]. apply stops_facts in S. destruct I as [->|[->|[->| ->]]]; tauto.
Qed.
Lemma digits_local_d : forall w x r r', digits_and_underscores is_digit w (x ++ r) -> stops (hd NUL r') -> digits_and_underscores is_digit w (x ++ r').
Proof. intros. eapply digits_local; eauto. Qed.

Lemma imag_local : forall im r r', imag_part im r -> stops (hd NUL r') -> imag_part im r'.
Proof. intros im r r' [(-> & _)|H] S; [left|right; exact H]. apply stops_facts in S. tauto. Qed.
Lemma exp_local : forall ex x r r', exp_part ex (x ++ r) -> stops (hd NUL r') -> exp_part ex (x ++ r').
Proof.
  intros ex x r r' [(-> & A)|(c & s & w & -> & C & D & E)] S.
  - left. split; [reflexivity|]. destruct x; [|exact A]. apply stops_facts in S. cbn [app]. tauto.
  - right. exists c, s, w. split; [reflexivity|]. split; [exact C|]. split; [|eapply digits_local_d; eauto].
    destruct D as [D|[D|(-> & D)]]; auto. right. right. split; [reflexivity|].
    destruct w; [|exact D]. destruct x; [|exact D]. cbn [app]. apply stops_facts in S. tauto.
Qed.
Lemma frac_local : forall f x r r', frac_part f (x ++ r) -> stops (hd NUL r') -> frac_part f (x ++ r').
Proof.
  intros f x r r' [(-> & A)|(w & -> & E)] S.
  - left. split; [reflexivity|]. destruct x; [|exact A]. apply stops_facts in S. cbn [app]. tauto.
  - right. exists w. split; [reflexivity|]. eapply digits_local_d; eauto.
Qed.

Definition steady (U : unicode) (w : str) (k : kind) (pay : payload) : Prop :=
  (exists c w', w = c :: w' /\ significant c) /\
  (is_closer k = true -> exists c, w = [c] /\ In (c, k) brackets /\ pay = NoPayload) /\
  forall r, stops (hd NUL r) -> token_at U (w ++ r) k (length w) pay.

Lemma stops_clean : forall w k c, In (w, k) operator_table -> stops c -> ~ In c w.
Proof.
  intros w k c I E.
  assert (C : forallb (fun e => forallb (fun x => negb ((x =? SP) || (x =? NUL) || (x =? LF))) (fst e)) operator_table = true)
    by (vm_compute; reflexivity).
  rewrite forallb_forall in C. specialize (C _ I). cbn [fst] in C. rewrite forallb_forall in C. intros J. specialize (C _ J).
  apply negb_true_iff in C. rewrite !orb_false_iff, !N.eqb_neq in C. destruct E as [->|[->| ->]]; tauto.
Qed.

Lemma prefix_short_nil : forall (w' w : str) r, prefix_of w' (w ++ r) -> ~ In (hd NUL r) w' -> (length w' <= length w)%nat.
Proof.
  intros w' w [|c r] P N; [|apply (prefix_short w' w c r P N)].
  rewrite app_nil_r in P. destruct P as (q & ->). rewrite app_length. lia.
Qed.

(** The tokens that carry no text, written as in the tables. *)
Lemma marks_steady : forall U k, plain_mark k = true -> steady U (spelling k) k NoPayload.
Proof.
  intros U k H. pose proof (spelling_plain U k H) as P. pose proof P as P2. split; [eapply plain_hd; eauto|]. split; [intros C; eapply plain_closer; eauto|].
  intros r E. remember (spelling k) as w. remember NoPayload as pay.
  destruct P as [w k I|c k I|w k I|w N S F NI|w HH|c isd w RX UD N|t S|p t P S]; try discriminate.
  - apply TA_operator.
    + split; auto. split; [exists r; auto|]. intros w' k' I' P'. apply (prefix_short_nil w' w r P'). eapply stops_clean; eauto.
    + intros (d & r' & X & D).
      assert (C : forallb (fun e => match fst e with a :: b :: _ => negb ((a =? #".") && is_digit b) | [_] => true | [] => false end) operator_table = true)
        by (vm_compute; reflexivity).
      rewrite forallb_forall in C. specialize (C _ I). cbn [fst] in C. destruct w as [|a [|b w]]; [discriminate| |].
      * cbn in X. injection X as X1 X2. subst r. cbn in E. apply stops_facts in E. intuition congruence.
      * cbn in X. inversion X; subst. rewrite D, N.eqb_refl in C. discriminate.
  - apply TA_bracket; auto.
  - destruct (reserved_words U w k I) as (N & S & F). apply TA_keyword; auto. split; auto. split; auto. split; auto.
    apply stops_not_word; auto.
Qed.

Lemma table_mark : forall w k, In (w, k) operator_table -> plain_mark k = true.
Proof. intros w k I. apply existsb_exists. exists (w, k). split; [apply in_or_app; auto|]. apply kind_eqb_eq; reflexivity. Qed.
Lemma reserved_mark : forall w k, In (w, k) reserved -> plain_mark k = true.
Proof. intros w k I. apply existsb_exists. exists (w, k). split; [apply in_or_app; right; apply in_or_app; auto|]. apply kind_eqb_eq; reflexivity. Qed.
Lemma bracket_mark : forall c k, In (c, k) brackets -> plain_mark k = true.
Proof.
  intros c k I. apply existsb_exists. exists ([c], k). split; [|apply kind_eqb_eq; reflexivity].
  apply in_or_app; right; apply in_or_app; left. apply in_map_iff. exists (c, k). auto.
Qed.

Lemma steady_token : forall U s k n pay, token_at U s k n pay -> significant (hd NUL s) ->
  steady U (token_text (k, pay)) k pay.
Proof.
  intros U s k n pay T SG.
  destruct T as [r w k LO ND|c r k I|w r k WA I|w r WA NI NQ|t r ST|w t r SP ST|c isd w r RX DU UD WN|ip f ex im r NP NZ DP FO EO|d w ex im r D DU EP IP UD EO|s ip f ex im r NR T ZP FO EO NZ];
    cbn [token_text fst snd].
  - apply marks_steady. destruct LO as (I & _). eapply table_mark; eauto.
  - apply marks_steady. eapply bracket_mark; eauto.
  - apply marks_steady. eapply reserved_mark; eauto.
  - destruct WA as (WN & WS & WF & WE). split; [|split; [discriminate|]].
    + destruct w as [|c w]; [congruence|]. exists c, w. auto.
    + intros r' E. apply TA_name; auto.
      * split; auto. split; auto. split; auto. apply stops_not_word; auto.
      * intros (_ & [Q|Q]); apply stops_not_quote in E; tauto.
  - split; [|split; [discriminate|]].
    + destruct t as [|c t]; [inversion ST|]. exists c, t. auto.
    + intros r' E. apply TA_string. eapply string_token_after; eauto. apply stops_not_quote; auto.
  - split; [|split; [discriminate|]].
    + destruct w as [|c w]; [|exists c, (w ++ t); auto]. exfalso. unfold string_prefix in SP. cbn in SP. intuition discriminate.
    + intros r' E. rewrite <- app_assoc. apply TA_prefixed; auto. eapply string_token_after; eauto. apply stops_not_quote; auto.
  - split; [|split; [discriminate|]].
    + eexists _, _. split; [reflexivity|]. repeat split; discriminate.
    + intros r' E. change ((#"0" :: c :: w) ++ r') with (#"0" :: c :: w ++ r'). change (length (#"0" :: c :: w)) with (2 + length w)%nat.
      apply TA_radix with (isd := isd); auto. change r' with ([] ++ r'). eapply digits_local; [| |exact DU|exact E]; destruct RX; auto.
  - split; [|split; [discriminate|]].
    + destruct ip as [|c ip]; [destruct DP as (_ & X & _); congruence|]. exists c, (ip ++ f ++ ex ++ im). split; [reflexivity|exact SG].
    + intros r' E. rewrite <- !app_assoc. destruct NP as (N1 & N2 & N3 & N4). apply TA_nonzero; auto.
      split; [|split; [|split]].
      * replace (f ++ ex ++ im ++ r') with ((f ++ ex ++ im) ++ r') by (rewrite <- !app_assoc; reflexivity).
        eapply digits_local_d; [|exact E]. rewrite <- !app_assoc. exact N1.
      * rewrite app_assoc. rewrite app_assoc in N2. eapply frac_local; eauto.
      * eapply exp_local; eauto.
      * eapply imag_local; eauto.
  - split; [|split; [discriminate|]].
    + eexists _, _. split; [reflexivity|]. repeat split; discriminate.
    + intros r' E. rewrite <- !app_assoc. apply TA_dot; auto.
      * rewrite app_assoc. rewrite app_assoc in DU. eapply digits_local_d; eauto.
      * eapply exp_local; eauto.
      * eapply imag_local; eauto.
  - split; [|split; [discriminate|]].
    + eexists _, _. split; [reflexivity|]. repeat split; discriminate.
    + intros r' E. destruct ZP as (Z1 & Z2 & Z3 & Z4 & Z5).
      assert (Q : token_at U (#"0" :: (hd NUL s :: ip ++ f ++ ex ++ im ++ r')) T_AtomNumber
         (length (#"0" :: hd NUL (hd NUL s :: ip ++ f ++ ex ++ im ++ r') :: ip ++ f ++ ex ++ im))
         (Text (#"0" :: hd NUL (hd NUL s :: ip ++ f ++ ex ++ im ++ r') :: ip ++ f ++ ex ++ im))).
      { apply TA_zero with (r := r'); auto. split; [exact Z1|]. split; [|split; [|split]].
        - replace (f ++ ex ++ im ++ r') with ((f ++ ex ++ im) ++ r') by (rewrite <- !app_assoc; reflexivity).
          replace (f ++ ex ++ im ++ r) with ((f ++ ex ++ im) ++ r) in Z2 by (rewrite <- !app_assoc; reflexivity).
          destruct (f ++ ex ++ im); [cbn [app]; apply stops_facts in E; tauto|exact Z2].
        - rewrite app_assoc. rewrite app_assoc in Z3. eapply frac_local; eauto.
        - eapply exp_local; eauto.
        - eapply imag_local; eauto. }
      cbn [hd] in Q. cbn [app]. rewrite <- !app_assoc. exact Q.
Qed.
