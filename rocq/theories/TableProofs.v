(** Only the characters of the text matter of a character table: the proofs of C69. *)
From Coq Require Import List Arith NArith ZArith Bool Lia.
From Verif Require Import Chars SourceBuffer Token Tokenizer LexBasics LexSpec ScanLemmas LineLemmas WellFormed CallLemmas CallTheorem
  Node ParserState Expressions Statements Blocks Parser ParseSpec LayoutSpec TableSpec.
Import ListNotations.
Local Open Scope nat_scope.

Section Tables.
Variables (text : str) (U U' : unicode).
Hypothesis A : tables_agree text U U'.

Lemma alphabetic_same : forall c, In c text -> is_alphabetic U c = is_alphabetic U' c.
Proof.
  intros c I. unfold is_alphabetic. destruct (N.ltb_spec 127 c) as [L|L]; [|reflexivity]. rewrite (proj1 (A c I L)). reflexivity.
Qed.
Lemma numeric_same : forall c, In c text -> is_numeric U c = is_numeric U' c.
Proof.
  intros c I. unfold is_numeric. destruct (N.ltb_spec 127 c) as [L|L]; [|reflexivity]. rewrite (proj2 (A c I L)). reflexivity.
Qed.
Lemma ident_char_same : forall c, In c text -> ident_char U c = ident_char U' c.
Proof. intros c I. unfold ident_char, is_alphanumeric. rewrite (alphabetic_same c I), (numeric_same c I). reflexivity. Qed.
Lemma ident_start_same : forall c, c = NUL \/ In c text -> ident_start U c = ident_start U' c.
Proof. intros c [->|I]; [reflexivity|]. unfold ident_start. rewrite (alphabetic_same c I). reflexivity. Qed.
Lemma run_while_same : forall p p' r, (forall c, In c r -> p c = p' c) -> run_while p r = run_while p' r.
Proof.
  intros p p'. induction r as [|c r IH]; intros H; [reflexivity|]. cbn [run_while]. rewrite (H c (or_introl eq_refl)).
  rewrite (IH (fun c' I => H c' (or_intror I))). reflexivity.
Qed.
Definition inside (l : lexer) : Prop := forall c, In c (lx_rest l) -> In c text.
Lemma lex_token_same : forall l tr, inside l -> lex_token U l tr = lex_token U' l tr.
Proof.
  intros l0 tr I0. unfold lex_token. cbv zeta. set (l := set_start l0 (lx_pos l0)). assert (I : inside l) by exact I0. clearbody l. clear I0.
  assert (S : ident_start U (fst (fst (cu_peek (lx_cur l)))) = ident_start U' (fst (fst (cu_peek (lx_cur l))))).
  { apply ident_start_same. unfold cu_peek, peek3. cbn [fst]. unfold inside, lx_rest in I. destruct (cu_rest (lx_cur l)) as [|c r]; [left; reflexivity|].
    right. apply I. left. reflexivity. }
  destruct (cu_peek (lx_cur l)) as [[a b] c]. cbn [fst] in S. rewrite S.
  assert (W : lex_word U l tr = lex_word U' l tr).
  { unfold lex_word, cu_run_while. rewrite (run_while_same (ident_char U) (ident_char U') (cu_rest (lx_cur l))); [reflexivity|].
    intros x J. apply ident_char_same. apply I. exact J. }
  rewrite W. reflexivity.
Qed.
Lemma ok_inside : forall l, lx_ok text l -> inside l.
Proof.
  intros l OK c I. destruct (ok_at _ _ OK) as (E & _). rewrite E in I. rewrite <- (firstn_skipn (lx_pos l) text). apply in_or_app. right. exact I.
Qed.
Lemma get_symbol_same : forall l, lx_ok text l -> get_symbol U l = get_symbol U' l.
Proof.
  intros l OK. unfold get_symbol. set (l0 := set_start l (lx_pos l)).
  assert (ST : forall s s', loop_ok text l s -> scan_step s = inl s' -> loop_ok text l s').
  { intros s s' Hs E. apply step_line_done in E. destruct E as (l1 & b1 & LD & C). eapply inner_ok; eauto. eapply line_done_ok; eauto. }
  destruct (scan_invariant (loop_ok text l) ST (S (length (lx_rest l0))) (start_state l) (start_ok text l OK)) as [E|(s & LO & E)];
    cbn [start_state st_outer st_lex st_tr st_blank] in E; fold l0 in E.
  - rewrite E. reflexivity.
  - destruct (scan (S (length (lx_rest l0))) true l0 [] false) as [r|l1 tr]; [reflexivity|]. apply lex_token_same.
    assert (IN : forall l2 b2, lx_ok text l2 -> inner_step l2 (st_tr s) b2 = inr (SBreak l1 tr) -> inside l1).
    { intros l2 b2 K EI. pose proof (inner_step_case l2 (st_tr s) b2) as C. rewrite EI in C. apply ok_inside in K. inversion C; subst. exact K. }
    pose proof (lo_ok _ _ _ LO) as K. destruct s as [o l2 tr2 b2]. unfold scan_step in E. cbn [st_outer st_lex st_tr st_blank] in *. destruct o.
    + destruct (begin_line_ok text l2 b2 K) as (l3 & b3 & B & K3 & _). rewrite B in E.
      destruct (pending_token l3) as [[t l4]|]; [discriminate|]. eapply IN; eassumption.
    + eapply IN; eassumption.
Qed.
Lemma get_symbol_next : forall V l t l', lx_ok text l -> get_symbol V l = LOk t l' -> lx_ok text l'.
Proof. intros V l t l' OK G. pose proof (get_symbol_ok V text l OK) as H. rewrite G in H. apply H. Qed.
Lemma get_symbol_next_error : forall V l e l', lx_ok text l -> get_symbol V l = LErr e l' -> lx_ok text l'.
Proof. intros V l e l' OK G. pose proof (get_symbol_ok V text l OK) as H. rewrite G in H. apply H. Qed.
Lemma lex_all_same : forall n l, lx_ok text l -> lex_all U n l = lex_all U' n l.
Proof.
  induction n as [|n IH]; intros l OK; [reflexivity|]. cbn [lex_all]. rewrite <- (get_symbol_same l OK).
  destruct (get_symbol U l) as [t l'| |] eqn:G; [|reflexivity|reflexivity]. rewrite (IH l' (get_symbol_next U l t l' OK G)). reflexivity.
Qed.

(** ** The parser *)
Definition agrees {X} (m m' : M X) : Prop := forall s, lx_ok text (ps_lexer s) ->
  m s = m' s /\ forall a s', m s = Ok a s' -> lx_ok text (ps_lexer s').
Lemma agrees_bind : forall X Y (m m' : M X) (k k' : X -> M Y), agrees m m' -> (forall a, agrees (k a) (k' a)) -> agrees (bind m k) (bind m' k').
Proof.
  intros X Y m m' k k' H K s OK. unfold bind. destruct (H s OK) as (E & N). rewrite <- E. destruct (m s) as [a s'|e| |].
  - exact (K a s' (N a s' eq_refl)).
  - split; [reflexivity|discriminate].
  - split; [reflexivity|discriminate].
  - split; [reflexivity|discriminate].
Qed.
Lemma agrees_on : forall X (e e' : M X) k k', agrees e e' -> (forall t, agrees (k t) (k' t)) -> agrees (on_symbol e k) (on_symbol e' k').
Proof. intros X e e' k k' E K s OK. unfold on_symbol. destruct (ps_symbol s); [exact (K t s OK)|exact (E s OK)]. Qed.
Lemma agrees_advance : agrees (advance U) (advance U').
Proof.
  intros s OK. unfold advance. rewrite <- (get_symbol_same _ OK). destruct (get_symbol U (ps_lexer s)) as [t l|e l|] eqn:G; split; try reflexivity.
  - intros a s' E. inversion E; subst. exact (get_symbol_next U _ _ _ OK G).
  - intros a s' E. inversion E; subst. exact (get_symbol_next_error U _ _ _ OK G).
  - discriminate.
Qed.
Lemma agrees_while : forall X (step step' : X -> M (bool * X)), (forall a, agrees (step a) (step' a)) ->
  forall n a, agrees (while_ n step a) (while_ n step' a).
Proof.
  intros X step step' H. induction n as [|n IH]; intros a; [intros s OK; split; [reflexivity|discriminate]|]. cbn [while_].
  apply agrees_bind; [apply H|]. intros [[] a']; [apply IH|]. intros s OK. split; [reflexivity|]. intros b s' E. inversion E; subst. exact OK.
Qed.
Lemma agrees_quiet : forall X (m : M X), (forall s a s', m s = Ok a s' -> ps_lexer s' = ps_lexer s) -> agrees m m.
Proof. intros X m H s OK. split; [reflexivity|]. intros a s' E. rewrite (H s a s' E). exact OK. Qed.

Section Bodies.
Variables (n : nat) (rec rec' : fn -> M node).
Hypothesis R : forall f, agrees (rec f) (rec' f).
Ltac head t := lazymatch t with ?f _ => head f | _ => t end.
Ltac quiet := apply agrees_quiet; intros ? ? ? ?E; first [discriminate ?E | inversion E; reflexivity].
Ltac stage :=
  match goal with
  | |- agrees (rec _) _ => apply R
  | |- agrees (bind _ _) _ => apply agrees_bind; [|intro]
  | |- agrees (on_symbol _ _) _ => apply agrees_on; [|intro]
  | |- agrees (advance _) _ => apply agrees_advance
  | |- agrees (while_ _ _ _) _ => apply agrees_while; intro
  | |- agrees (expect _ _ _ _ _) _ => unfold expect
  | |- agrees (fail_here _) _ => unfold fail_here
  | |- agrees (ret _) _ => quiet
  | |- agrees (fail _ _) _ => quiet
  | |- agrees position _ => quiet
  | |- agrees get_except _ => quiet
  | |- agrees (set_except _) _ => quiet
  | |- agrees panic _ => quiet
  | |- agrees (if ?b then _ else _) _ => destruct b
  | |- agrees (match ?x with _ => _ end) _ => destruct x
  | |- agrees ?m ?m' => let h := head m in unfold h
  end; cbv beta iota.
Lemma body_agrees : forall f, agrees (body U n rec f) (body U' n rec' f).
Proof. destruct f; cbn [body]; repeat stage. Qed.
End Bodies.
Lemma run_agrees : forall n f, agrees (run U n f) (run U' n f).
Proof.
  induction n as [|n IH]; intros f; [intros s OK; split; [reflexivity|discriminate]|]. exact (body_agrees n (run U n) (run U' n) IH f).
Qed.

Theorem tables_local : scanned U text = scanned U' text /\ forall n f, run U n f (fresh text) = run U' n f (fresh text).
Proof.
  split; [apply lex_all_same, lx_ok_new|]. intros n f. exact (proj1 (run_agrees n f (fresh text) (lx_ok_new text))).
Qed.
End Tables.

Theorem ascii_tables : forall text U U', ascii_text text ->
  scanned U text = scanned U' text /\ forall n f, run U n f (fresh text) = run U' n f (fresh text).
Proof. intros text U U' H. apply tables_local. intros c I L. specialize (H c I). lia. Qed.
