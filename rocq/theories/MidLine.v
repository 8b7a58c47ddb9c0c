(** Every token is what a call in the middle of a line returns at its position. *)
From Coq Require Import ZArith Arith Lia.
From Verif Require Import Chars SourceBuffer Token Tokenizer LexBasics ScanLemmas LineLemmas
  TokenLemmas NumberLemmas WellFormed CallLemmas CallTheorem LexSpec HistoryProofs TilingProofs.

Definition retrivia (tr : list trivia) (r : lexed) : lexed :=
  match r with
  | LOk t l => LOk (Tok (tk_kind t) (tk_span t) (finish_trivia tr) (tk_payload t)) l
  | _ => r
  end.

Lemma lex_string_retrivia : forall l s pre tr,
  lex_string l s pre tr = retrivia tr (lex_string l s pre []).
Proof.
  intros. unfold lex_string. destruct (cu_peek (lx_cur l)) as [[a b] c].
  destruct ((a =? b) && (b =? c)); [|destruct (a =? b)]; unfold handle_string; cbv zeta iota.
  - destruct (triple_body _ _) as [[x y] []]; reflexivity.
  - reflexivity.
  - destruct (single_body _ _) as [[x y] []]; reflexivity.
Qed.

Lemma lex_token_retrivia : forall U l tr, lex_token U l tr = retrivia tr (lex_token U l []).
Proof.
  intros U l tr. unfold lex_token. destruct (cu_peek _) as [[a b] c].
  destruct (operator_at (a, b, c)) as [[k n]|]; [reflexivity|].
  destruct (opener_at a) as [[k cl]|]; [reflexivity|].
  destruct (closer_at a) as [[k m]|].
  { destruct (lx_parens _) as [|top below]; [reflexivity|]. destruct (top =? a); reflexivity. }
  destruct (ident_start U a).
  { unfold lex_word. destruct (cu_run_while _ _) as [w cu]. destruct (keyword_of w); [reflexivity|].
    destruct (is_prefix_word w && _); [|reflexivity]. apply lex_string_retrivia. }
  unfold lex_number.
  destruct (a =? 48); [destruct (number_from_zero _) as [[? ?]|? [? ?]]; reflexivity|].
  destruct ((a =? 46) && is_digit b); [destruct (number_from_dot _) as [[? ?]|? [? ?]]; reflexivity|].
  destruct (is_nonzero_digit a); [destruct (number_from_nonzero _) as [[? ?]|? [? ?]]; reflexivity|].
  destruct (is_quote a); [|reflexivity]. apply lex_string_retrivia.
Qed.

Lemma token_at_position : forall U text l t l' s e, lx_ok text l -> get_symbol U l = LOk t l' ->
  tk_span t = Range s e -> tk_kind t <> T_Newline -> tk_kind t <> T_TypeComment ->
  get_symbol U (at_position text s (lx_parens l) (lx_indents l')) = LOk (without_trivia t) l' /\
  significant (hd NUL (skipn s text)) /\ (s < length text)%nat.
Proof.
  intros U text l t l' s e OK E SP' K1 K2. pose proof (get_symbol_case _ _ _ _ _ OK E) as C.
  destruct C as [k l' K TI NB | l1 tr w r OK1 PA NB PE TI Hr Hf Hs Ht | l1 tr OK1 PA NB PE TI HE
    | l1 tr n c1 c2 OK1 PA PL NB PE TI HN | l1 tr c q t l' OK1 PA NB PE TI Hr SI TC LT]; try discriminate;
    try (cbn in K1, K2; congruence).
  assert (HN : hd NUL (lx_rest (goto l1 (lx_pos l1) (lx_pos l1) (lx_rest l1))) <> NUL).
  { cbn. rewrite Hr. cbn. unfold significant in SI. tauto. }
  pose proof (token_case_move U text (goto l1 (lx_pos l1) (lx_pos l1) (lx_rest l1)) tr (LOk t l') (ok_at _ _ OK1) HN TC) as M.
  cbn [token_move] in M. destruct M as (k & ps' & _ & _ & M & SP2 & _ & _ & _).
  rewrite SP' in SP2. inversion SP2; subst s. clear SP2.
  change (lx_pos (goto l1 (lx_pos l1) (lx_pos l1) (lx_rest l1))) with (lx_pos l1).
  destruct (ok_at _ _ OK1) as (RE & _).
  assert (M2 : at_position text (lx_pos l1) (lx_parens l) (lx_indents l') = goto l1 (lx_pos l1) (lx_pos l1) (lx_rest l1)).
  { rewrite M. unfold at_position, goto. cbn. rewrite PA, NB, PE, RE. reflexivity. }
  rewrite <- RE, Hr. cbn [hd]. split; [|split; auto].
  - rewrite M2. rewrite (get_symbol_mid U _ c q) by auto. 
    change (set_start (goto l1 (lx_pos l1) (lx_pos l1) (lx_rest l1)) (lx_pos (goto l1 (lx_pos l1) (lx_pos l1) (lx_rest l1))))
      with (goto l1 (lx_pos l1) (lx_pos l1) (lx_rest l1)).
    rewrite lex_token_retrivia in LT.
    destruct (lex_token U (goto l1 (lx_pos l1) (lx_pos l1) (lx_rest l1)) []) as [t0 l0| |] eqn:LE; cbn in LT; try discriminate.
    inversion LT; subst. unfold without_trivia. cbn [tk_kind tk_span tk_payload].
    assert (TR0 : tk_trivia t0 = None).
    { pose proof (lex_token_retrivia U (goto l1 (lx_pos l1) (lx_pos l1) (lx_rest l1)) []) as Q.
      rewrite LE in Q. cbn in Q. inversion Q as [Q1]. rewrite Q1 at 1. reflexivity. }
    destruct t0 as [a b tr0 d]. cbn in TR0. subst tr0. reflexivity.
  - rewrite RE in Hr. pose proof (f_equal (@length _) Hr) as L. rewrite skipn_length in L. cbn in L. lia.
Qed.

Lemma history_token_at_position : forall U text evs l t l' s e, history U text evs l ->
  get_symbol U l = LOk t l' -> tk_span t = Range s e -> tk_kind t <> T_Newline -> tk_kind t <> T_TypeComment ->
  get_symbol U (at_position text s (lx_parens l) (lx_indents l')) = LOk (without_trivia t) l' /\
  significant (hd NUL (skipn s text)) /\ (s < length text)%nat.
Proof. intros. eapply token_at_position; eauto. eapply history_ok; eauto. Qed.
