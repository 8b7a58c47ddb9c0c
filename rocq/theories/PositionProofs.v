(** Positions of the tokens read by the parser, and of the nodes of its trees. *)
From Coq Require Import List ZArith Arith Lia Permutation.
From Verif Require Import Chars SourceBuffer Token Tokenizer LexBasics ScanLemmas LineLemmas WellFormed CallLemmas CallTheorem
  Node NodeView ParserState Parser GrammarSpec ParseBasics SoundBasics Soundness TermBasics TreeSpec SpanProofs.
Import ListNotations.
Local Open Scope nat_scope.

Lemma layout_update_start : forall l col, match layout_update l col with inl l3 => lx_start l3 = lx_start l | inr _ => True end.
Proof.
  intros l col. unfold layout_update.
  destruct (_ && _); [reflexivity|]. destruct (_ && _); [destruct l as [[? ?] ? ? ? ? ?]; reflexivity|].
  destruct (pop_levels _ _ _) as [p ls]. destruct (match ls with [] => true | _ => _ end); auto.
Qed.
Lemma begin_line_start : forall l b l1 b1, begin_line l b = inl (l1, b1) -> lx_start l1 = lx_start l.
Proof.
  intros l b l1 b1 H. pose proof (begin_line_case l b) as C. rewrite H in C.
  inversion C as [N|w r Y R W N G|w r Y R W N G I P Z]; subst.
  - reflexivity.
  - destruct l as [[? ?] ? ? ? ? ?]; reflexivity.
  - pose proof (layout_update_start (set_bol (goto l (lx_start l) (lx_pos l + length w) r) false) (column w)) as L.
    destruct (layout_update _ _); [|discriminate]. inversion Z; subst. rewrite L.
    destruct l as [[? ?] ? ? ? ? ?]; reflexivity.
Qed.

(** A token begins where the previous call ended, or later. *)
Lemma call_start : forall U text l t l', lx_ok text l -> get_symbol U l = LOk t l' -> lx_pos l <= lx_start l'.
Proof.
  intros U text l t l' OK G. pose proof (get_symbol_ok U text l OK) as C. rewrite G in C.
  destruct (get_symbol_loop U text l OK) as (s & LO & F). rewrite G in F.
  pose proof (oc_span _ _ _ _ C) as S. unfold span_ok in S. destruct (tk_span t) eqn:K.
  - inversion F as [e l1 Ho Hb | l1 b1 t' l2 Ho Hb Hp EQ | l1 b1 r LD CC EQ | l1 b1 c q r LD Hr N1 N2 N3 N4 N5 N6 N7 TC EQ]; subst.
    + unfold pending_token in Hp. pose proof (lo_start _ _ _ LO) as Q. apply begin_line_start in Hb.
      destruct (Z.ltb _ _); [|destruct (Z.ltb _ _); [|discriminate]]; inversion Hp; subst;
        destruct l1 as [[? ?] ? ? ? ? ?]; cbn in *; lia.
    + exfalso. inversion CC; subst; cbn in K; discriminate.
    + exfalso. pose proof (line_done_ok _ _ _ _ _ LO LD) as LO1.
      assert (HN : hd NUL (lx_rest (goto l1 (lx_pos l1) (lx_pos l1) (lx_rest l1))) <> NUL) by (cbn; rewrite Hr; cbn; assumption).
      pose proof (token_case_move U text (goto l1 (lx_pos l1) (lx_pos l1) (lx_rest l1)) (st_tr s) _ (ok_at _ _ (lo_ok _ _ _ LO1)) HN TC) as M.
      cbn [token_move] in M.
      destruct M as (k & ps' & _ & _ & _ & SP & _). congruence.
  - intuition lia.
  - intuition lia.
Qed.

Section Positions.
Variable U : unicode.
Variable text : str.

(** A state the parser may be in after reading a token. *)
Definition ready (s : parser) : Prop :=
  okay text s /\ pos s <= lx_pos (ps_lexer s) /\
  match ps_symbol s with inl t => placed (pos s) t /\ finish (pos s) t <= lx_pos (ps_lexer s) | inr _ => True end.

Lemma advance_ready : forall s s1, okay text s -> advance U s = Ok tt s1 ->
  ready s1 /\ lx_pos (ps_lexer s) <= pos s1.
Proof.
  intros s s1 OK A. unfold advance in A. pose proof (get_symbol_ok U text (ps_lexer s) OK) as C.
  destruct (get_symbol U (ps_lexer s)) as [t l|e l|] eqn:G; inversion A; subst; clear A.
  - pose proof (call_start _ _ _ _ _ OK G) as ST. destruct C as [C1 C2 _ _ C3 _ _ _ _ _].
    pose proof (ok_start _ _ C1) as SP. unfold ready, okay, pos, lexer_get_position. cbn [ps_lexer ps_symbol].
    unfold span_ok in C3. unfold placed, finish.
    split; [|assumption]. split; [assumption|]. split; [assumption|].
    destruct (tk_span t); intuition lia.
  - destruct C as [C1 _ _ _ _ C2 _]. pose proof (ok_start _ _ C1).
    unfold ready, okay, pos, lexer_get_position. cbn [ps_lexer ps_symbol].
    split; [|assumption]. split; [assumption|]. split; [assumption|exact I].
Qed.

Lemma reads_ordered : forall s l s', reads U s l s' -> ready s ->
  ordered l (view s') /\ ready s' /\ start l (view s') = pos s.
Proof.
  induction 1 as [s s' E1 E2|s t s1 l s' S A R IH]; intros RD.
  - cbn [ordered start ahead]. unfold start. cbn. unfold pos. rewrite E1. split; [exact I|]. split; [|reflexivity].
    destruct RD as (A1 & A2 & A3).
    unfold ready, okay, pos, lexer_get_position in *. rewrite <- E1, <- E2. auto.
  - destruct RD as (OK & P & Q). rewrite S in Q. destruct (advance_ready s s1 OK A) as (RD1 & LE).
    destruct (IH RD1) as (O & RD' & ST). cbn [ordered]. rewrite ST.
    split; [|split; [assumption|reflexivity]]. split; [apply Q|]. split; [lia|assumption].
Qed.
End Positions.

(** ** Nodes *)
Lemma ordered_app : forall l1 l2 la, ordered (l1 ++ l2) la -> ordered l1 (ahead l2 la) /\ ordered l2 la.
Proof.
  induction l1 as [|[p t] l1 IH]; intros l2 la H; cbn [app ordered] in *; auto.
  destruct H as (P & F & O). apply IH in O. rewrite start_app in F. tauto.
Qed.
Lemma placed_finish : forall p t, placed p t -> p <= finish p t.
Proof. intros p t. unfold placed, finish. destruct (tk_span t); lia. Qed.
Lemma ordered_start : forall l la, ordered l la -> start l la <= fst la.
Proof.
  induction l as [|[p t] l IH]; intros la H; [apply le_n|]. destruct H as (P & F & O).
  apply IH in O. apply placed_finish in P. unfold start at 1. cbn [ahead fst]. lia.
Qed.

Lemma inside_weaken : forall a b x, inside a b x -> forall a' b', a' <= a -> b <= b' -> inside a' b' x.
Proof. intros a b x H a' b' L1 L2. inversion H; subst. constructor; auto; lia. Qed.

Lemma no_sub_after : forall y x la, ~ In (Sub y) (after x la).
Proof.
  intros y x la H.
  assert (G : Forall (fun i => match i with Sub _ => False | Leaf _ => True end) (after x la)).
  { unfold after. destruct (snd la); destruct x; try (constructor; fail); try (repeat constructor; fail);
    destruct o as [?|]; [destruct o0 as [?|]| |destruct o0|]; repeat constructor. }
  rewrite Forall_forall in G. exact (G _ H).
Qed.

Lemma tiled_inside_all :
  (forall s l la x, tiled s l la x -> ordered l la -> s <= start l la -> inside s (fst la) x) /\
  (forall s l la ps, tiles s l la ps -> ordered l la -> s <= start l la ->
     forall y, In (Sub y) ps -> inside s (fst la) y).
Proof.
  apply tiled_mutual.
  - intros s l la x ps T IH P S Z O L.
    pose proof (ordered_start _ _ O) as SE.
    assert (S1 : s <= node_start x /\ node_start x <= start l la) by (rewrite S; destruct (entry x); lia).
    constructor; try lia. intros y I. rewrite Z. apply IH; try lia; auto.
    apply (Permutation_in _ (arranged_perm _ _ P)) in I. apply in_app_or in I. destruct I as [I|I]; auto.
    exfalso. eapply no_sub_after; eauto.
  - intros s la _ _ y [].
  - intros s p t l la ps T IH O L y I. destruct O as (P & F & O). apply placed_finish in P.
    destruct I as [I|I]; [discriminate|]. apply IH; auto. unfold start at 1 in L. cbn in L. lia.
  - intros s l1 l2 la y ps T IH1 T2 IH2 O L z I. apply ordered_app in O. destruct O as (O1 & O2).
    rewrite start_app in L. pose proof (ordered_start _ _ O1) as S1. pose proof (ordered_start _ _ O2) as S2.
    unfold start in S2. destruct I as [I|I].
    + injection I as ->. eapply inside_weaken; eauto.
    + apply IH2; auto. unfold start. lia.
Qed.

Lemma tiles_after : forall s l la ps, tiles s l la ps -> ordered l la -> forall n, n <= start l la ->
  Forall (fun j => begins_after j n) ps.
Proof.
  induction 1 as [s la|s p t l la ps T IH|s l1 l2 la y ps T1 T2 IH]; intros O n L; constructor.
  - cbn [ordered] in O. destruct O as (P & _). unfold start in L. cbn in L. cbn [begins_after]. unfold placed in P.
    destruct (tk_span t); lia || auto.
  - apply IH; [apply O|]. destruct O as (P & F & O). apply placed_finish in P. unfold start in L. cbn in L. lia.
  - rewrite start_app in L. cbn [begins_after]. inversion T1; subst. destruct (entry y); auto. right. lia.
  - apply ordered_app in O. destruct O as (O1 & O2). rewrite start_app in L. apply IH; auto.
    pose proof (ordered_start _ _ O1). unfold start in *. lia.
Qed.
Lemma tiles_apart : forall s l la ps, tiles s l la ps -> ordered l la ->
  ForallOrdPairs (fun i j => begins_after j (item_end i)) ps.
Proof.
  induction 1 as [s la|s p t l la ps T IH|s l1 l2 la y ps T1 T2 IH]; intros O; constructor.
  - destruct O as (P & F & O). eapply tiles_after; eauto. cbn [item_end]. unfold placed, finish in *.
    destruct (tk_span t); lia.
  - apply IH, O.
  - apply ordered_app in O. destruct O as (O1 & O2). eapply tiles_after; eauto. cbn [item_end].
    inversion T1; subst. unfold start in *. lia.
  - apply ordered_app in O. apply IH, O.
Qed.

(** Every node of the tree of a successful call: its phrase, and its place in the text. *)
Theorem run_positions : forall U text fuel f s x s', target f = false -> run U fuel f s = Ok x s' ->
  (if match sort_of f with Whole => true | _ => false end then okay text s else ready text s) ->
  exists s1 l, (if match sort_of f with Whole => true | _ => false end then advance U s = Ok tt s1 else s1 = s) /\
    reads U s1 l s' /\ (forall b, tiled b l (view s') x) /\ ordered l (view s') /\
    inside (pos s1) (pos s') x.
Proof.
  intros U text fuel f s x s' T H RD. destruct (run_tiled U fuel f s x s' T H) as (s1 & l & A & R & TI).
  exists s1, l. 
  assert (RD1 : ready text s1).
  { destruct (match sort_of f with Whole => true | _ => false end); [|congruence].
    eapply advance_ready; eauto. }
  destruct (reads_ordered U text _ _ _ R RD1) as (O & _ & ST).
  split; [assumption|]. split; [assumption|]. split; [assumption|]. split; [assumption|].
  change (pos s') with (fst (view s')). apply (proj1 tiled_inside_all _ _ _ _ (TI (pos s1))); auto. lia.
Qed.
