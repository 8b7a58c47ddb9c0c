(** Tokenising a written program gives back its tokens. *)
From Coq Require Import ZArith Arith Lia Sorted.
From Verif Require Import Chars SourceBuffer Token Tokenizer LexBasics ScanLemmas LineLemmas
  TokenLemmas NumberLemmas WellFormed CallLemmas CallTheorem LexSpec TokenSpec RenderSpec HistoryProofs TilingProofs MidLine NumberProofs
  ZeroProofs WordProofs StringProofs TokenProofs Compose LayoutProofs.

Definition ends (c : char) : Prop := c = SP \/ c = TAB \/ c = LF.

Lemma ends_cases : forall c (P : char -> Prop), ends c -> P SP -> P TAB -> P LF -> P c.
Proof. intros c P [->|[->| ->]]; auto. Qed.

Lemma prefix_short : forall (w' w : str) c r, prefix_of w' (w ++ c :: r) -> ~ In c w' -> (length w' <= length w)%nat.
Proof.
  intros w' w c r (q & E) N. revert w E. induction w' as [|a w' IH]; intros w E; cbn; [lia|].
  destruct w as [|b w]; cbn in E; inversion E; subst.
  - exfalso. apply N. cbn. auto.
  - cbn. apply le_n_S. apply IH; auto. intros I. apply N. cbn. auto.
Qed.

Lemma table_clean : forall w k c, In (w, k) operator_table -> ends c -> ~ In c w.
Proof.
  intros w k c I E.
  assert (C : forallb (fun e => forallb (fun x => negb ((x =? SP) || (x =? TAB) || (x =? LF))) (fst e)) operator_table = true)
    by (vm_compute; reflexivity).
  rewrite forallb_forall in C. specialize (C _ I). cbn [fst] in C. rewrite forallb_forall in C. intros J. specialize (C _ J).
  apply negb_true_iff in C. rewrite !orb_false_iff, !N.eqb_neq in C. destruct E as [->|[->| ->]]; tauto.
Qed.

Lemma ends_not_word : forall U c, ends c -> ~ word_char U c.
Proof.
  intros U c E W. apply word_char_ident in W. destruct E as [->|[->| ->]]; cbn in W; discriminate.
Qed.

Lemma ends_not_quote : forall c, ends c -> ~ quote c.
Proof. intros c E [->| ->]; destruct E as [E|[E|E]]; discriminate. Qed.

Lemma reserved_words : forall U w k, In (w, k) reserved -> w <> [] /\ word_start U (hd NUL w) /\ Forall (word_char U) w.
Proof.
  intros U w k I.
  assert (C : forallb (fun e => match fst e with [] => false | _ => forallb ascii_letter (fst e) end) reserved = true)
    by (vm_compute; reflexivity).
  rewrite forallb_forall in C. specialize (C _ I). cbn [fst] in C. destruct w as [|a w]; [discriminate|].
  rewrite forallb_forall in C.
  assert (L : forall c, In c (a :: w) -> is_alphabetic U c = true).
  { intros c J. unfold is_alphabetic. rewrite (C _ J). reflexivity. }
  split; [discriminate|]. split.
  - right. apply L. cbn. auto.
  - apply Forall_forall. intros c J. right. left. auto.
Qed.

Lemma digits_stop : forall isd w r, udigits isd w -> isd (hd NUL r) = false -> hd NUL r <> #"_" ->
  digits_and_underscores isd w r.
Proof.
  intros isd w r H A B. split; [|auto]. induction H; constructor; auto.
Qed.

Lemma ends_facts : forall c, ends c -> is_digit c = false /\ is_hex_digit c = false /\ is_oct_digit c = false /\
  is_bin_digit c = false /\ c <> #"_" /\ c <> #"." /\ c <> #"e" /\ c <> #"E" /\ c <> #"j" /\ c <> #"J" /\ c <> #"+" /\ c <> #"-".
Proof. intros c [->|[->| ->]]; repeat split; discriminate. Qed.

Lemma ends_number_facts : forall c, ends_number c -> is_digit c = false /\ c <> #"_" /\ c <> #"." /\ c <> #"e" /\ c <> #"E" /\
  c <> #"j" /\ c <> #"J".
Proof. intros c (D & N). cbn [In] in N. intuition. Qed.

Lemma ends_end : forall c, ends c -> ends_number c.
Proof. intros c [->|[->| ->]]; (split; [reflexivity|]); intros H; cbn in H; repeat destruct H as [H|H]; try discriminate H; destruct H. Qed.

Definition imag (im : str) := In im [[]; [#"j"]; [#"J"]].

Lemma imag_part_stop : forall im r, imag im -> ends_number (hd NUL r) -> imag_part im r.
Proof.
  intros im r I E. apply ends_number_facts in E. unfold imag_part. cbn in I. destruct I as [<-|[<-|[<-|[]]]]; tauto.
Qed.

Lemma imag_hd : forall im r, imag im -> ends_number (hd NUL r) ->
  let c := hd NUL (im ++ r) in is_digit c = false /\ c <> #"_" /\ c <> #"." /\ c <> #"e" /\ c <> #"E".
Proof.
  intros im r I E. apply ends_number_facts in E. cbn in I. destruct I as [<-|[<-|[<-|[]]]]; cbn [app hd]; cbv zeta; [tauto| |];
    repeat split; discriminate.
Qed.

Lemma exp_part_stop : forall ex im r, exp_ok ex -> imag im -> ends_number (hd NUL r) -> exp_part ex (im ++ r) /\ exp_as_coded ex.
Proof.
  intros ex im r O I E. pose proof (imag_hd im r I E) as H. cbv zeta in H. destruct O as [->|(c & s & w & -> & C & S & (D1 & D2 & D3))].
  - split; [left; tauto|left; auto].
  - split.
    + right. exists c, s, w. split; auto. split; auto. split.
      * destruct S as [->|[->| ->]]; auto. right. right. split; auto. destruct w as [|d w]; [congruence|]. cbn.
        inversion D1; subst; [|cbn in D3; congruence]. split; intros ->; discriminate.
      * apply digits_stop; tauto.
    + right. exists c, s, w. auto.
Qed.

Lemma exp_hd : forall ex im r, exp_ok ex -> imag im -> ends_number (hd NUL r) ->
  let c := hd NUL (ex ++ im ++ r) in is_digit c = false /\ c <> #"_" /\ c <> #".".
Proof.
  intros ex im r O I E. pose proof (imag_hd im r I E) as H. destruct O as [->|(c & s & w & -> & C & S & _)].
  - cbn [app]. cbv zeta in *. tauto.
  - cbn. destruct C; subst c; repeat split; discriminate.
Qed.

Lemma frac_part_stop : forall f ex im r, frac_ok f -> exp_ok ex -> imag im -> ends_number (hd NUL r) -> frac_part f (ex ++ im ++ r).
Proof.
  intros f ex im r O OE I E. pose proof (exp_hd ex im r OE I E) as H. cbv zeta in H.
  destruct O as [->|[->|(w & -> & D1 & D2 & D3)]].
  - left. tauto.
  - right. exists []. split; auto. split; [constructor|tauto].
  - right. exists w. split; auto. apply digits_stop; tauto.
Qed.

Lemma frac_hd : forall f ex im r, frac_ok f -> exp_ok ex -> imag im -> ends_number (hd NUL r) ->
  let c := hd NUL (f ++ ex ++ im ++ r) in is_digit c = false /\ c <> #"_".
Proof.
  intros f ex im r O OE I E. pose proof (exp_hd ex im r OE I E) as H. cbv zeta in *.
  destruct O as [->|[->|(w & -> & _)]]; cbn [app hd]; [tauto| |]; repeat split; discriminate.
Qed.

Lemma python_decimal_at : forall U w r, python_decimal w -> ends_number (hd NUL r) ->
  token_at U (w ++ r) T_AtomNumber (length w) (Text w).
Proof.
  intros U w r H E. destruct H as [ip f ex im D NZ FO EO I|w ex im D EO I].
  - rewrite <- !app_assoc. apply TA_nonzero; auto.
    + split; [|split; [|split]].
      * pose proof (frac_hd f ex im r FO EO I E) as X. cbv zeta in X. apply digits_stop; try tauto. apply D.
      * apply frac_part_stop; auto.
      * apply exp_part_stop; auto.
      * apply imag_part_stop; auto.
    + eapply exp_part_stop; eauto.
  - destruct D as (D1 & D2 & D3). destruct w as [|d w]; [congruence|].
    assert (DD : is_digit d = true) by (inversion D1; subst; auto; cbn in D3; congruence).
    pose proof (exp_hd ex im r EO I E) as X. cbv zeta in X.
    assert (UD : udigits is_digit w) by (apply (udigits_tl is_digit d); auto).
    rewrite <- !app_assoc. apply TA_dot; auto.
    + apply digits_stop; tauto.
    + apply exp_part_stop; auto.
    + apply imag_part_stop; auto.
    + eapply exp_part_stop; eauto.
Qed.

Lemma string_token_after : forall t r r', string_token t r -> (hd NUL r' <> SQ /\ hd NUL r' <> DQ) -> string_token t r'.
Proof.
  intros t r r' H (A & B). destruct H as [q b r Q F N|q b r Q NI TH].
  - apply ST_single; auto. intros _. destruct Q; subst; auto.
  - apply ST_triple; auto.
Qed.

Lemma ends_string : forall c, ends c -> c <> SQ /\ c <> DQ.
Proof. intros c [->|[->| ->]]; split; discriminate. Qed.

(** A written token followed by a gap or the end of the line is that token. *)
Lemma plain_at : forall U w k pay r, plain U w k pay -> ends (hd NUL r) -> token_at U (w ++ r) k (length w) pay.
Proof.
  intros U w k pay r H E. destruct H as [w k I|c k I|w k I|w N S F NI|w H|c isd w RX UD N|t S|p t P S].
  - apply TA_operator.
    + split; auto. split; [exists r; auto|]. intros w' k' I' P'. destruct r as [|c r]; [destruct E as [E|[E|E]]; discriminate|].
      cbn in E. apply (prefix_short w' w c r P'). eapply table_clean; eauto.
    + intros (d & r' & X & D). destruct r as [|c r]; [destruct E as [E|[E|E]]; discriminate|]. cbn in E.
      assert (C : forallb (fun e => match fst e with a :: b :: _ => negb ((a =? #".") && is_digit b) | [_] => true | [] => false end) operator_table = true)
        by (vm_compute; reflexivity).
      rewrite forallb_forall in C. specialize (C _ I). cbn [fst] in C. destruct w as [|a [|b w]]; [discriminate| |].
      * cbn in X. inversion X; subst. destruct (ends_facts _ E) as (Y & _). congruence.
      * cbn in X. inversion X; subst. rewrite D, N.eqb_refl in C. discriminate.
  - apply TA_bracket; auto.
  - destruct (reserved_words U w k I) as (N & S & F). apply TA_keyword; auto. split; auto. split; auto. split; auto.
    apply ends_not_word; auto.
  - apply TA_name; auto.
    + split; auto. split; auto. split; auto. apply ends_not_word; auto.
    + intros (_ & Q). eapply ends_not_quote; eauto.
  - apply python_decimal_at; auto. apply ends_end. exact E.
  - change ((#"0" :: c :: w) ++ r) with (#"0" :: c :: w ++ r). change (length (#"0" :: c :: w)) with (2 + length w)%nat.
    apply TA_radix with (isd := isd); auto. pose proof (ends_facts _ E) as X. destruct RX; apply digits_stop; tauto.
  - apply TA_string. eapply string_token_after; eauto. apply ends_string; auto.
  - rewrite <- app_assoc. apply TA_prefixed; auto. eapply string_token_after; eauto. apply ends_string; auto.
Qed.

Lemma plain_hd : forall U w k pay, plain U w k pay -> exists c w', w = c :: w' /\ significant c.
Proof.
  intros U w k pay H. destruct H as [w k I|c k I|w k I|w N S F NI|w H|c isd w RX UD N|t S|p t P S].
  - destruct (operator_significant w w k) as (A & c & r' & ->); [|eauto].
    split; auto. split; [exists []; rewrite app_nil_r; auto|]. intros w' k' I' (q & ->). rewrite app_length. lia.
  - exists c, []. split; auto. cbn in I. repeat destruct I as [I|I]; try (inversion I; subst; repeat split; discriminate); destruct I.
  - destruct (reserved_words ascii_only w k I) as (N & S & F). destruct w as [|c w]; [congruence|].
    exists c, w. split; auto. eapply (word_start_token _ c NUL NUL); eauto.
  - destruct w as [|c w]; [congruence|]. exists c, w. split; auto. eapply (word_start_token _ c NUL NUL); eauto.
  - destruct H as [ip f ex im (D1 & D2 & D3) NZ _ _ _|w ex im _ _ _].
    + destruct ip as [|c ip]; [congruence|]. cbn in NZ. exists c, (ip ++ f ++ ex ++ im). split; auto.
      apply (digit_token c NUL NUL). rewrite is_digit_cases, NZ. apply orb_true_r.
    + eexists _, _. split; [reflexivity|]. repeat split; discriminate.
  - eexists _, _. split; [reflexivity|]. repeat split; discriminate.
  - assert (Q : exists q t', t = q :: t' /\ quote q) by (destruct S; eexists _, _; (split; [reflexivity|]); assumption).
    destruct Q as (q & t' & -> & Q). exists q, t'. split; auto. destruct Q; subst; repeat split; discriminate.
  - assert (S' : exists a p', p = a :: p' /\ word_start ascii_only a).
    { apply prefix_word in P. apply existsb_exists in P. destruct P as (x & I & X). apply str_eqb_eq in X. subst x.
      assert (C : forallb (fun e => match e with a :: _ => ascii_letter a | [] => false end) prefix_table = true) by (vm_compute; reflexivity).
      rewrite forallb_forall in C. specialize (C _ I). destruct p as [|a p]; [discriminate|].
      exists a, p. split; auto. right. unfold is_alphabetic. rewrite C. reflexivity. }
    destruct S' as (a & p' & -> & WS). exists a, (p' ++ t). split; auto. eapply (word_start_token _ a NUL NUL); eauto.
Qed.

(** ** Results up to trivia *)
Definition bare (r : lexed) : lexed :=
  match r with LOk t l => LOk (without_trivia t) l | _ => r end.

Lemma bare_first : forall x r, bare (first_trivia x r) = bare r.
Proof. intros x [t l| |]; reflexivity. Qed.

(** Moving on without recording a token start. *)
Definition seek (l : lexer) (p : nat) (r : str) : lexer :=
  mk_lexer (mk_cursor p r) p (lx_parens l) (lx_bol l) (lx_pending l) (lx_indents l).

Lemma get_symbol_seek : forall U l, get_symbol U l = get_symbol U (seek l (lx_pos l) (lx_rest l)).
Proof. intros U [[p r] s ps b pe is]. reflexivity. Qed.

Lemma after_seek : forall U l w r, lx_rest l = w ++ r ->
  get_symbol U (after l (length w)) = get_symbol U (seek l (lx_pos l + length w) r).
Proof.
  intros U l w r R. rewrite get_symbol_seek. unfold seek, after, lx_rest, lx_pos in *. cbn -[get_symbol].
  rewrite R, skipn_app_len. reflexivity.
Qed.

Lemma gap_call : forall U n g l r, (length g <= n)%nat -> mid_line l -> lx_rest l = g ++ r -> Forall blank_char g -> ~ blank_char (hd NUL r) ->
  bare (get_symbol U l) = bare (get_symbol U (seek l (lx_pos l + length g) r)).
Proof.
  intros U n. induction n as [|n IH]; intros g l r L M R F NB.
  - destruct g; [|cbn in L; lia]. cbn [length app] in *. rewrite Nat.add_0_r, get_symbol_seek, R. reflexivity.
  - destruct g as [|c g].
    + cbn [length app] in *. rewrite Nat.add_0_r, get_symbol_seek, R. reflexivity.
    + inversion F as [|? ? Fc Fg]; subst. destruct Fc as [->| ->].
      * destruct (run_while (fun c => c =? SP) g) as [w g'] eqn:RW.
        pose proof (run_while_hd (fun c => c =? SP) g w g' eq_refl RW) as HH.
        apply run_while_spec in RW. destruct RW as (-> & FW & _).
        assert (FW' : Forall (fun x => x = SP) (SP :: w)).
        { constructor; auto. apply Forall_forall. rewrite forallb_forall in FW. intros x X. apply N.eqb_eq. auto. }
        assert (R' : lx_rest l = (SP :: w) ++ (g' ++ r)) by (rewrite R; cbn; rewrite <- app_assoc; reflexivity).
        rewrite (skip_call U l (SP :: w) (g' ++ r) SP M R'); auto; try discriminate.
        2:{ left. split; auto. destruct g' as [|d g']; cbn in *; [|now apply N.eqb_neq]. intros X. apply NB. left. auto. }
        rewrite bare_first, (after_seek U l _ _ R').
        rewrite (IH g' (seek l (lx_pos l + length (SP :: w)) (g' ++ r)) r).
        -- change (bare (get_symbol U (seek l (lx_pos l + length (SP :: w) + length g') r)) = bare (get_symbol U (seek l (lx_pos l + length (SP :: w ++ g')) r))).
           do 3 f_equal. cbn [length]. rewrite app_length. lia.
        -- cbn in L. rewrite app_length in L. lia.
        -- exact M.
        -- reflexivity.
        -- apply Forall_app in Fg. tauto.
        -- auto.
      * assert (R' : lx_rest l = [TAB] ++ (g ++ r)) by (rewrite R; reflexivity).
        rewrite (skip_call U l [TAB] (g ++ r) TAB M R'); auto; try discriminate.
        rewrite bare_first, (after_seek U l _ _ R').
        rewrite (IH g (seek l (lx_pos l + length [TAB]) (g ++ r)) r); auto.
        -- change (bare (get_symbol U (seek l (lx_pos l + 1 + length g) r)) = bare (get_symbol U (seek l (lx_pos l + length (TAB :: g)) r))).
           do 3 f_equal. cbn [length]. lia.
        -- cbn in L. lia.
Qed.

(** ** Lines *)
Inductive seen_calls (U : unicode) : lexer -> list (kind * payload) -> lexer -> Prop :=
| SC_nil l : seen_calls U l [] l
| SC_cons l t l1 ts l2 : get_symbol U l = LOk t l1 -> seen_calls U l1 ts l2 ->
    seen_calls U l ((tk_kind t, tk_payload t) :: ts) l2.

Lemma seen_calls_app : forall U l ts l1 ts' l2, seen_calls U l ts l1 -> seen_calls U l1 ts' l2 -> seen_calls U l (ts ++ ts') l2.
Proof. intros U l ts l1 ts' l2 H. induction H; cbn; intros; auto. econstructor; eauto. Qed.

Lemma calls_seen : forall U l ts l', calls U l ts l' -> seen_calls U l (map (fun t => (tk_kind t, tk_payload t)) ts) l'.
Proof. intros U l ts l' H. induction H; cbn; econstructor; eauto. Qed.

Lemma seen_calls_from : forall U l1 l2 ts l', get_symbol U l1 = get_symbol U l2 -> ts <> [] -> seen_calls U l1 ts l' -> seen_calls U l2 ts l'.
Proof. intros U l1 l2 ts l' E N H. destruct H; [congruence|]. econstructor; [rewrite <- E; eauto|auto]. Qed.

Lemma seen_one : forall U l t l1 k pay, get_symbol U l = LOk t l1 -> tk_kind t = k -> tk_payload t = pay -> seen_calls U l [(k, pay)] l1.
Proof. intros U l t l1 k pay E <- <-. econstructor; [exact E|constructor]. Qed.

Lemma seen_calls_history : forall U text l ts l', seen_calls U l ts l' -> forall evs, history U text evs l ->
  exists evs', history U text evs' l'.
Proof.
  intros U text l ts l' H. induction H as [|l t l1 ts l2 E H IH]; intros evs HI; [eauto|].
  eapply IH. eapply H_ok; eauto.
Qed.

Definition state (p : nat) (r : str) (ps : list char) (is : list nat) (l : lexer) : Prop :=
  mid_line l /\ lx_pos l = p /\ lx_rest l = r /\ lx_parens l = ps /\ lx_indents l = is.

Lemma bare_ok : forall r t l, bare r = LOk t l -> exists t', r = LOk t' l /\ tk_kind t' = tk_kind t /\ tk_payload t' = tk_payload t.
Proof. intros [t' l'|e0 l0|] t l H; cbn in H; inversion H; subst. exists t'. auto. Qed.

Lemma closing_kind : forall k c, is_closer k = true -> In (c, k) brackets ->
  In (c, k) [(#")", PyRightParen); (#"]", PyRightBracket); (#"}", PyRightCurly)] /\ close_kind c = k.
Proof.
  intros k c C I. cbn in I. repeat destruct I as [I|I]; try (inversion I; subst; try discriminate C; cbn; tauto); destruct I.
Qed.

Lemma close_kind_inj : forall a b, closers a -> closers b -> close_kind a = close_kind b -> a = b.
Proof. intros a b [->|[->| ->]] [->|[->| ->]] E; try reflexivity; discriminate. Qed.

Lemma plain_closer : forall U w k pay, plain U w k pay -> is_closer k = true -> exists c, w = [c] /\ In (c, k) brackets /\ pay = NoPayload.
Proof.
  intros U w k pay H C. destruct H as [w k I|c k I|w k I|w N S F NI|w H|c isd w RX UD N|t S|p t P S]; try discriminate C; eauto.
  - exfalso. revert I. cbn. intros I. repeat destruct I as [I|I]; try (inversion I; subst; discriminate C); destruct I.
  - exfalso. revert I. cbn. intros I. repeat destruct I as [I|I]; try (inversion I; subst; discriminate C); destruct I.
Qed.

(** One written token after a possibly empty gap. *)
Lemma item_call : forall U l g w k pay r ps is, plain U w k pay -> Forall blank_char g -> ends (hd NUL r) ->
  mid_line l -> lx_rest l = g ++ w ++ r -> lx_parens l = ps -> lx_indents l = is -> Forall closers ps ->
  forall st', nest [k] (map close_kind ps) = Some st' ->
  exists l1 ps', seen_calls U l [(k, pay)] l1 /\
    state (lx_pos l + length (g ++ w)) r ps' is l1 /\ map close_kind ps' = st' /\ Forall closers ps'.
Proof.
  intros U l g w k pay r ps is PL FG EN M R PA IN CL st' NE.
  destruct (plain_hd _ _ _ _ PL) as (c & w' & W & SG).
  assert (NB : ~ blank_char (hd NUL (w ++ r))).
  { rewrite W. cbn. unfold significant in SG. intros [X|X]; tauto. }
  pose proof (gap_call U (length g) g l (w ++ r) (le_n _) M R FG NB) as G.
  set (l0 := seek l (lx_pos l + length g) (w ++ r)) in *.
  assert (M0 : mid_line l0) by exact M.
  assert (POS : forall n, (lx_pos l0 + n = lx_pos l + length g + n)%nat) by reflexivity.
  destruct (is_closer k) eqn:C.
  - destruct (plain_closer _ _ _ _ PL C) as (c0 & -> & I & ->). destruct (closing_kind _ _ C I) as (I2 & CK).
    cbn [nest] in NE. rewrite C in NE.
    assert (CO : closer_of k = None) by (cbn in I2; repeat destruct I2 as [I2|I2]; try (inversion I2; subst; reflexivity); destruct I2).
    rewrite CO in NE. destruct ps as [|top below]; [discriminate|]. cbn [map] in NE.
    destruct (kind_eqb (close_kind top) k) eqn:KE; [|discriminate]. apply kind_eqb_eq in KE. inversion NE; subst st'.
    inversion CL as [|? ? CT CB]; subst.
    assert (top = c0).
    { apply close_kind_inj; auto. cbn in I2. unfold closers. repeat destruct I2 as [I2|I2]; try (inversion I2; subst; auto); destruct I2. }
    subst top.
    assert (R0 : lx_rest l0 = c0 :: r) by reflexivity.
    assert (P0 : lx_parens l0 = c0 :: below) by (cbn; auto).
    pose proof (closer_call U l0 c0 _ r below M0 R0 I2 P0) as E. rewrite E in G. cbn [bare without_trivia tk_kind tk_span tk_payload] in G.
    apply bare_ok in G. destruct G as (t' & G & K1 & K2). cbn in K1, K2.
    eexists _, below. split.
    + exact (seen_one _ _ _ _ _ _ G K1 K2).
    + split; [|auto]. split; [exact M0|]. split; [|split; [|split; reflexivity]].
      * rewrite app_length. cbn. lia.
      * reflexivity.
  - pose proof (plain_at U w k pay r PL EN) as TA.
    pose proof (token_complete U l0 k (length w) pay M0 TA C) as E. rewrite E in G.
    cbn [bare without_trivia tk_kind tk_span tk_payload] in G. apply bare_ok in G. destruct G as (t' & G & K1 & K2). cbn in K1, K2.
    eexists _, _. split.
    + exact (seen_one _ _ _ _ _ _ G K1 K2).
    + split.
      * split; [exact M0|]. split; [|split; [|split; [reflexivity|exact IN]]].
        -- rewrite app_length. cbn. lia.
        -- unfold lx_rest, set_parens, after. cbn [lx_cur cu_rest]. change (lx_rest l0) with (w ++ r). apply skipn_app_len.
      * change (lx_parens l0) with (lx_parens l). rewrite PA. cbn [nest] in NE. rewrite C in NE.
        assert (C1 : closers #")" /\ closers #"]" /\ closers #"}") by (unfold closers; tauto). destruct C1 as (C1 & C2 & C3).
        destruct k; cbn in NE; inversion NE; subst; split; try reflexivity; auto; constructor; auto.
Qed.

Lemma items_call : forall U xs l ps is r, Forall (item_ok U) xs -> Forall (fun i => gap (it_gap i)) xs ->
  mid_line l -> lx_rest l = flat_map (fun i => it_gap i ++ it_text i) xs ++ LF :: r -> lx_parens l = ps -> lx_indents l = is -> Forall closers ps ->
  nest (map it_kind xs) (map close_kind ps) = Some [] ->
  exists l1, seen_calls U l (map item_seen xs) l1 /\
    state (lx_pos l + length (flat_map (fun i => it_gap i ++ it_text i) xs)) (LF :: r) [] is l1.
Proof.
  intros U xs. induction xs as [|x xs IH]; intros l ps is r FO FG M R PA IN CL NE.
  - cbn [flat_map map length app] in *. exists l. split; [constructor|]. rewrite Nat.add_0_r.
    cbn in NE. destruct ps; [|discriminate]. split; [exact M|]. auto.
  - inversion FO as [|? ? O1 O2]; inversion FG as [|? ? G1 G2]; subst. cbn [flat_map] in R. 
    assert (R' : lx_rest l = it_gap x ++ it_text x ++ (flat_map (fun i => it_gap i ++ it_text i) xs ++ LF :: r)).
    { rewrite R. rewrite <- !app_assoc. reflexivity. }
    assert (EN : ends (hd NUL (flat_map (fun i => it_gap i ++ it_text i) xs ++ LF :: r))).
    { destruct xs as [|y ys]; cbn; [right; right; auto|]. inversion G2 as [|? ? GY _]; subst. destruct GY as (GN & GB).
      destruct (it_gap y) as [|a g]; [congruence|]. cbn. inversion GB as [|? ? [->| ->] _]; unfold ends; auto. }
    assert (NX : exists st', nest [it_kind x] (map close_kind (lx_parens l)) = Some st' /\ nest (map it_kind xs) st' = Some []).
    { cbn [map] in NE. destruct (nest [it_kind x] (map close_kind (lx_parens l))) as [st'|] eqn:Z.
      - exists st'. split; auto. rewrite <- (nest_app _ (map it_kind xs) _ _ Z). exact NE.
      - exfalso. cbn [nest] in NE, Z. destruct (closer_of (it_kind x)); [discriminate|].
        destruct (is_closer (it_kind x)); [|discriminate]. destruct (map close_kind (lx_parens l)) as [|t b]; [discriminate|].
        destruct (kind_eqb t (it_kind x)); discriminate. }
    destruct NX as (st' & NX1 & NX2).
    destruct (item_call U l (it_gap x) (it_text x) (it_kind x) (it_payload x) _ _ _ O1 (proj2 G1) EN M R' eq_refl eq_refl CL st' NX1)
      as (l1 & ps' & SC1 & (M1 & P1 & R1 & PA1 & IN1) & MK & CL').
    subst st'. destruct (IH l1 ps' _ r O2 G2 M1 R1 PA1 IN1 CL' NX2) as (l2 & SC2 & ST2).
    exists l2. split.
    + change (map item_seen (x :: xs)) with ([(it_kind x, it_payload x)] ++ map item_seen xs). eapply seen_calls_app; eauto.
    + cbn [flat_map]. rewrite app_length. rewrite P1 in ST2. rewrite <- Nat.add_assoc in ST2. exact ST2.
Qed.

Lemma closers_nil : Forall closers []. Proof. constructor. Qed.

(** A line read from its first token on. *)
Lemma line_call : forall U x col l r is, line_ok U x col -> mid_line l ->
  lx_rest l = it_text (ln_first x) ++ flat_map (fun i => it_gap i ++ it_text i) (ln_more x) ++ LF :: r ->
  lx_parens l = [] -> lx_indents l = is ->
  exists l1, seen_calls U l (line_seen x) l1 /\ lx_bol l1 = true /\ lx_pending l1 = 0%Z /\ lx_parens l1 = [] /\
    lx_indents l1 = is /\ lx_rest l1 = r.
Proof.
  intros U x col l r is (CO & FO & FG & NE) M R PA IN.
  inversion FO as [|? ? O1 O2]; subst.
  assert (EN : ends (hd NUL (flat_map (fun i => it_gap i ++ it_text i) (ln_more x) ++ LF :: r))).
  { destruct (ln_more x) as [|y ys]; cbn; [right; right; auto|]. inversion FG as [|? ? GY _]; subst. destruct GY as (GN & GB).
    destruct (it_gap y) as [|a g]; [congruence|]. cbn. inversion GB as [|? ? [->| ->] _]; unfold ends; auto. }
  assert (NX : exists st', nest [it_kind (ln_first x)] (map close_kind []) = Some st' /\ nest (map it_kind (ln_more x)) st' = Some []).
  { unfold ln_items in NE. cbn [map] in NE. cbn [map]. destruct (nest [it_kind (ln_first x)] []) as [st'|] eqn:Z.
    - exists st'. split; auto. rewrite <- (nest_app _ (map it_kind (ln_more x)) _ _ Z). exact NE.
    - exfalso. cbn [nest] in NE, Z. destruct (closer_of (it_kind (ln_first x))); [discriminate|].
      destruct (is_closer (it_kind (ln_first x))); discriminate. }
  destruct NX as (st' & NX1 & NX2).
  destruct (item_call U l [] (it_text (ln_first x)) (it_kind (ln_first x)) (it_payload (ln_first x)) _ [] _ O1 (Forall_nil _) EN M R PA eq_refl closers_nil st' NX1)
      as (l1 & ps' & SC1 & (M1 & P1 & R1 & PA1 & IN1) & MK & CL').
  subst st'. destruct (items_call U (ln_more x) l1 ps' _ r O2 FG M1 R1 PA1 IN1 CL' NX2) as (l2 & SC2 & (M2 & P2 & R2 & PA2 & IN2)).
  assert (LB : line_break_as_coded (lx_rest l2) 1) by (rewrite R2; constructor; constructor).
  pose proof (newline_call U l2 1 M2 LB) as NC. rewrite PA2 in NC.
  exists (set_bol (after l2 1) true). split; [|repeat split].
  - unfold line_seen, ln_items. cbn [map]. change (item_seen (ln_first x) :: map item_seen (ln_more x)) with ([(it_kind (ln_first x), it_payload (ln_first x))] ++ map item_seen (ln_more x)).
    rewrite <- app_assoc. eapply seen_calls_app; [exact SC1|]. eapply seen_calls_app; [exact SC2|].
    rewrite R2 in NC. eapply (SC_cons U l2 _ _ [] _ NC). constructor.
  - apply M2.
  - exact PA2.
  - exact IN2.
  - unfold after, lx_rest. cbn [set_bol lx_cur cu_rest]. change (skipn 1 (lx_rest l2) = r). rewrite R2. reflexivity.
Qed.

Lemma leave_spec : forall k popped kept, levels_ok (popped ++ kept) -> Forall (fun c => (k < c)%nat) popped -> (hd 0 kept <= k)%nat ->
  leave k (popped ++ kept) = kept.
Proof.
  intros k popped kept OK F H. induction popped as [|a po IH]; cbn [app leave].
  - destruct kept as [|b kept]; auto. cbn [leave hd] in *. destruct (Nat.ltb_spec k b); [lia|auto].
  - inversion F; subst. destruct (Nat.ltb_spec k a); [|lia]. apply IH; auto.
    destruct po as [|b po]; cbn [app] in *.
    + destruct kept as [|b kept]; [|eapply levels_ok_tail; eauto].
      exfalso. destruct OK as ([|z up] & E & _); inversion E; subst; [lia|destruct up; discriminate].
    + eapply levels_ok_tail; eauto.
Qed.

Lemma line_hd : forall U x col r, line_ok U x col ->
  let s := it_text (ln_first x) ++ r in ~ blank_char (hd NUL s) /\ ~ blank_line_start (hd NUL s).
Proof.
  intros U x col r (_ & FO & _). inversion FO as [|? ? O1 _]; subst. destruct (plain_hd _ _ _ _ O1) as (c & w' & E & SG).
  cbv zeta. rewrite E. cbn [app hd]. unfold significant in SG. split.
  - intros [X|X]; tauto.
  - unfold blank_line_start. cbn [In]. intuition congruence.
Qed.

Lemma dedents_seen : forall n, map (fun t => (tk_kind t, tk_payload t)) (repeat dedent_token n) = repeat (T_Dedent, NoPayload) n.
Proof. induction n; cbn; congruence. Qed.

Lemma line_text_split : forall x r, line_text x ++ r =
  ln_indent x ++ it_text (ln_first x) ++ flat_map (fun i => it_gap i ++ it_text i) (ln_more x) ++ LF :: r.
Proof. intros. unfold line_text. rewrite <- !app_assoc. reflexivity. Qed.

Lemma program_calls : forall U text levels xs ts, program U levels xs ts ->
  forall evs l, history U text evs l -> lx_bol l = true -> lx_parens l = [] -> lx_indents l = levels -> lx_rest l = text_of xs ->
  exists l', seen_calls U l ts l'.
Proof.
  intros U text levels xs ts H. induction H as [levels|levels x xs ts OK H IH|levels x col xs ts OK LT H IH|levels x col xs ts OK LT H IH];
    intros evs l HI B PA IN R; pose proof (history_ok _ _ _ _ HI) as LX.
  - assert (N1 : ~ blank_char (hd NUL (@nil char))) by (intros [X|X]; discriminate).
    assert (N2 : ~ blank_line_start (hd NUL (@nil char))) by (cbn; intuition discriminate).
    destruct (line_start_call U text l [] [] 0 LX B PA R CO_nil N1 N2) as (L1 & L2 & L3). cbn zeta in *.
    destruct (ok_levels _ _ LX) as (up & EU & SU). rewrite IN in *.
    assert (EOF : forall is, exists l', seen_calls U (at_position text (lx_pos l + length (@nil char)) [] is) [(T_EOF, NoPayload)] l').
    { intros is. eexists. eapply (SC_cons U _ (Tok T_EOF (At (lx_pos l + 0)) None NoPayload) _ []); [|constructor].
      apply (eof_call U (at_position text (lx_pos l + 0) [] is)); [split; reflexivity|].
      unfold at_position, lx_rest. cbn [lx_cur cu_rest]. rewrite Nat.add_0_r.
      destruct (ok_at _ _ LX) as (A & _). rewrite <- A, R. reflexivity. }
    destruct up as [|a up].
    + cbn [app] in EU. rewrite EU in *. cbn [length Nat.sub repeat app]. destruct (EOF [0%nat]) as (l' & E).
      exists l'. eapply seen_calls_from; [| |exact E]; [|discriminate]. symmetry. apply L1. reflexivity.
    + assert (AP : (0 < a)%nat).
      { rewrite EU in SU. cbn [app] in SU. apply StronglySorted_inv in SU. destruct SU as (_ & FU). rewrite Forall_forall in FU.
        apply FU. apply in_or_app. cbn. auto. }
      destruct L3 as (popped & kept & l1 & E & PN & FP & HK & CA & GK & IK); [rewrite EU; exact AP|].
      pose proof (ok_levels _ _ LX) as LV. rewrite IN in LV.
      assert (KE : length kept = 1%nat).
      { destruct kept as [|b kept].
        - exfalso. rewrite app_nil_r in E. subst popped. rewrite Forall_forall in FP. specialize (FP 0%nat). rewrite EU in FP.
          assert (0 < 0)%nat by (apply FP; apply in_or_app; cbn; auto). lia.
        - destruct kept as [|d kept]; auto. exfalso. cbn in HK. assert (b = 0%nat) by lia. subst b.
          rewrite E in SU. clear - SU. induction popped as [|q po IHp]; cbn [app] in SU.
          + apply StronglySorted_inv in SU. destruct SU as (_ & F). inversion F; lia.
          + apply StronglySorted_inv in SU. tauto. }
      destruct (EOF kept) as (l' & EE). exists l'.
      assert (LE : (length levels - 1 = length popped)%nat) by (rewrite E, app_length, KE; lia). rewrite LE.
      rewrite <- dedents_seen. eapply seen_calls_app; [apply calls_seen; exact CA|].
      eapply seen_calls_from; [| |exact EE]; [|discriminate]. auto.
  - set (r1 := flat_map (fun i => it_gap i ++ it_text i) (ln_more x) ++ LF :: text_of xs) in *.
    assert (RR : lx_rest l = ln_indent x ++ (it_text (ln_first x) ++ r1)).
    { rewrite R. unfold text_of. cbn [flat_map]. fold (text_of xs). apply line_text_split. }
    destruct (line_hd U x _ r1 OK) as (N1 & N2). 
    destruct (line_start_call U text l _ _ _ LX B PA RR (proj1 OK) N1 N2) as (L1 & _). cbn zeta in *.
    rewrite IN in *. specialize (L1 eq_refl).
    set (lA := at_position text (lx_pos l + length (ln_indent x)) [] levels) in *.
    assert (RA : lx_rest lA = it_text (ln_first x) ++ r1).
    { unfold lA, at_position, lx_rest. cbn [lx_cur cu_rest]. pose proof (ok_at _ _ LX) as AT. rewrite RR in AT. apply at_app in AT.
      destruct AT as (AT & _). symmetry. exact AT. }
    destruct (line_call U x _ lA (text_of xs) levels OK) as (l1 & SC & B1 & PE1 & PA1 & IN1 & R1); auto; [split; reflexivity|].
    assert (SC' : seen_calls U l (line_seen x) l1) by (eapply seen_calls_from; [symmetry; exact L1| |exact SC]; discriminate).
    destruct (seen_calls_history _ _ _ _ _ SC' _ HI) as (evs' & HI').
    destruct (IH evs' l1 HI' B1 PA1 IN1 R1) as (l2 & S2). exists l2. eapply seen_calls_app; eauto.
  - set (r1 := flat_map (fun i => it_gap i ++ it_text i) (ln_more x) ++ LF :: text_of xs) in *.
    assert (RR : lx_rest l = ln_indent x ++ (it_text (ln_first x) ++ r1)).
    { rewrite R. unfold text_of. cbn [flat_map]. fold (text_of xs). apply line_text_split. }
    destruct (line_hd U x _ r1 OK) as (N1 & N2). 
    destruct (line_start_call U text l _ _ _ LX B PA RR (proj1 OK) N1 N2) as (_ & L2 & _). cbn zeta in *.
    rewrite IN in *. destruct (L2 LT) as (l0 & G0 & G1 & _).
    set (lA := at_position text (lx_pos l + length (ln_indent x)) [] (col :: levels)) in *.
    assert (RA : lx_rest lA = it_text (ln_first x) ++ r1).
    { unfold lA, at_position, lx_rest. cbn [lx_cur cu_rest]. pose proof (ok_at _ _ LX) as AT. rewrite RR in AT. apply at_app in AT.
      destruct AT as (AT & _). symmetry. exact AT. }
    destruct (line_call U x _ lA (text_of xs) (col :: levels) OK) as (l1 & SC & B1 & PE1 & PA1 & IN1 & R1); auto; [split; reflexivity|].
    assert (SC' : seen_calls U l0 (line_seen x) l1) by (eapply seen_calls_from; [symmetry; exact G1| |exact SC]; discriminate).
    assert (SC2 : seen_calls U l ((T_Indent, NoPayload) :: line_seen x) l1) by (eapply (SC_cons U l indent_token); eauto).
    destruct (seen_calls_history _ _ _ _ _ SC2 _ HI) as (evs' & HI').
    destruct (IH evs' l1 HI' B1 PA1 IN1 R1) as (l2 & S2). exists l2.
    change ((T_Indent, NoPayload) :: line_seen x ++ ts) with (((T_Indent, NoPayload) :: line_seen x) ++ ts). eapply seen_calls_app; eauto.
  - set (r1 := flat_map (fun i => it_gap i ++ it_text i) (ln_more x) ++ LF :: text_of xs) in *.
    assert (RR : lx_rest l = ln_indent x ++ (it_text (ln_first x) ++ r1)).
    { rewrite R. unfold text_of. cbn [flat_map]. fold (text_of xs). apply line_text_split. }
    destruct (line_hd U x _ r1 OK) as (N1 & N2). 
    destruct (line_start_call U text l _ _ _ LX B PA RR (proj1 OK) N1 N2) as (_ & _ & L3). cbn zeta in *.
    pose proof (ok_levels _ _ LX) as LV. rewrite IN in *.
    destruct (L3 LT) as (popped & kept & l0 & E & PN & FP & HK & CA & GK & IK).
    assert (KE : leave col levels = kept) by (rewrite E in *; apply leave_spec; auto).
    rewrite KE in *.
    set (lA := at_position text (lx_pos l + length (ln_indent x)) [] kept) in *.
    assert (RA : lx_rest lA = it_text (ln_first x) ++ r1).
    { unfold lA, at_position, lx_rest. cbn [lx_cur cu_rest]. pose proof (ok_at _ _ LX) as AT. rewrite RR in AT. apply at_app in AT.
      destruct AT as (AT & _). symmetry. exact AT. }
    destruct (line_call U x _ lA (text_of xs) kept OK) as (l1 & SC & B1 & PE1 & PA1 & IN1 & R1); auto; [split; reflexivity|].
    assert (SC' : seen_calls U l0 (line_seen x) l1) by (eapply seen_calls_from; [symmetry; exact GK| |exact SC]; discriminate).
    assert (SC2 : seen_calls U l (repeat (T_Dedent, NoPayload) (length popped) ++ line_seen x) l1).
    { rewrite <- dedents_seen. eapply seen_calls_app; [apply calls_seen; exact CA|exact SC']. }
    destruct (seen_calls_history _ _ _ _ _ SC2 _ HI) as (evs' & HI').
    destruct (IH evs' l1 HI' B1 PA1 IN1 R1) as (l2 & S2). exists l2.
    assert (LE : (length levels - length kept = length popped)%nat) by (rewrite E, app_length; lia). rewrite LE.
    rewrite app_assoc. eapply seen_calls_app; eauto.
Qed.

Lemma program_eof : forall U levels xs ts, program U levels xs ts ->
  exists ts0, ts = ts0 ++ [(T_EOF, NoPayload)] /\ Forall (fun x => fst x <> T_EOF) ts0.
Proof.
  assert (L : forall U x col, line_ok U x col -> Forall (fun x => fst x <> T_EOF) (line_seen x)).
  { intros U x col (_ & FO & _). unfold line_seen. apply Forall_app. split; [|constructor; [discriminate|constructor]].
    apply Forall_forall. intros y I. apply in_map_iff in I. destruct I as (i & <- & I). rewrite Forall_forall in FO.
    specialize (FO i I). unfold item_ok in FO. cbn. intros E. clear I.
    destruct FO as [w k I|c k I|w k I|w N S F NI|w H|c isd w RX UD N|t S|p t P S]; try discriminate E; subst k; exfalso; revert I; cbn;
      intros I; repeat destruct I as [I|I]; try discriminate I; destruct I. }
  assert (D : forall n, Forall (fun x : kind * payload => fst x <> T_EOF) (repeat (T_Dedent, NoPayload) n)).
  { intros n. apply Forall_forall. intros y I. apply repeat_spec in I. subst. discriminate. }
  intros U levels xs ts H. induction H as [levels|levels x xs ts OK H (t0 & -> & F)|levels x col xs ts OK LT H (t0 & -> & F)|levels x col xs ts OK LT H (t0 & -> & F)].
  - eexists. split; [reflexivity|]. auto.
  - exists (line_seen x ++ t0). split; [apply app_assoc|]. apply Forall_app. eauto.
  - exists ((T_Indent, NoPayload) :: line_seen x ++ t0). split; [cbn [app]; rewrite <- app_assoc; reflexivity|].
    constructor; [discriminate|]. apply Forall_app. eauto.
  - eexists. split; [rewrite !app_assoc; reflexivity|]. apply Forall_app. split; auto. apply Forall_app. eauto.
Qed.

Lemma lex_all_seen : forall U ts0 l l', seen_calls U l (ts0 ++ [(T_EOF, NoPayload)]) l' -> Forall (fun x => fst x <> T_EOF) ts0 ->
  forall n, (length ts0 < n)%nat -> map seen (lex_all U n l) = map Some (ts0 ++ [(T_EOF, NoPayload)]).
Proof.
  intros U ts0. induction ts0 as [|x ts0 IH]; intros l l' H F n LE; (destruct n as [|n]; [cbn in LE; lia|]).
  - cbn [app] in H. inversion H; subst. cbn [lex_all]. match goal with E : get_symbol U l = LOk _ _ |- _ => rewrite E end. cbn [map seen app]. rewrite H0, H1. reflexivity.
  - cbn [app] in H. inversion H; subst. inversion F as [|? ? F1 F2]; subst. cbn [lex_all]. match goal with E : get_symbol U l = LOk _ _ |- _ => rewrite E end. cbn [map seen app].
    f_equal. cbn [fst] in F1. destruct (kind_eqb (tk_kind t) T_EOF) eqn:K; [apply kind_eqb_eq in K; congruence|].
    eapply IH; eauto. cbn in LE. lia.
Qed.

Theorem round_trip : forall U xs ts, program U [0%nat] xs ts ->
  forall n, (length ts <= n)%nat -> map seen (lex_all U n (lexer_new (text_of xs))) = map Some ts.
Proof.
  intros U xs ts H n L. destruct (program_calls U (text_of xs) _ _ _ H [] (lexer_new (text_of xs))) as (l' & SC); auto; [constructor|].
  destruct (program_eof _ _ _ _ H) as (ts0 & -> & F). rewrite app_length in L. cbn in L.
  eapply lex_all_seen; eauto. lia.
Qed.
