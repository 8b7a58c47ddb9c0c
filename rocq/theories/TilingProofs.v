(** Trivia and tokens tile the text (C06), texts are slices (C07), and the shape of a whole call. *)
From Coq Require Import ZArith Arith Lia Sorted.
From Verif Require Import Chars SourceBuffer Token Tokenizer LexBasics ScanLemmas LineLemmas
  TokenLemmas NumberLemmas WellFormed CallLemmas CallTheorem LexSpec HistoryProofs.

Lemma tiled_app : forall text b p ps b1 p1 ps' b2 p2,
  tiled text b p ps b1 p1 -> tiled text b1 p1 ps' b2 p2 -> tiled text b p (ps ++ ps') b2 p2.
Proof.
  intros text b p ps b1 p1 ps' b2 p2 H. induction H; cbn; intros; auto.
  - eapply TL_indent; eauto.
  - apply TL_trivia; auto.
  - apply TL_token; auto.
Qed.

Lemma tiled_trivia1 : forall text x, trivia_source text x ->
  tiled text false (trivia_start x) [PTrivia x] (is_newline_trivia x) (trivia_end x).
Proof. intros. apply TL_trivia; auto. constructor. Qed.

Lemma slice_at : forall text p w r, at_ text p (w ++ r) -> slice text p (p + length w) = w.
Proof.
  intros text p w r (E & _). unfold slice. rewrite <- E.
  replace (p + length w - p)%nat with (length w) by lia. rewrite firstn_app, firstn_all, Nat.sub_diag.
  cbn. apply app_nil_r.
Qed.

Lemma nth_at : forall text p r, at_ text p r -> nth p text NUL = hd NUL r.
Proof. intros text p r (E & _). rewrite E, hd_skipn_nth. reflexivity. Qed.

Lemma forallb_repeat : forall c (w : list char), forallb (fun x => x =? c) w = true -> w = repeat c (length w).
Proof.
  induction w as [|x w IH]; cbn; intros H; auto. apply andb_prop in H. destruct H as (A & B).
  apply N.eqb_eq in A. subst. f_equal. auto.
Qed.

Lemma comment_char_spec : forall c, comment_char c = true <-> c <> CR /\ c <> LF /\ c <> NUL.
Proof.
  intros c. unfold comment_char. rewrite negb_true_iff, !orb_false_iff, !N.eqb_neq. tauto.
Qed.
Lemma comment_char_false : forall c, comment_char c = false -> c = CR \/ c = LF \/ c = NUL.
Proof.
  intros c. unfold comment_char. rewrite negb_false_iff, !orb_true_iff, !N.eqb_eq. tauto.
Qed.

Lemma newline_at_spec : forall r n c1 c2, newline_at (peek3 r) = Some (n, c1, c2) ->
  line_break_as_coded r n /\ c1 = hd NUL r /\ c2 = (if Nat.eqb n 3 then LF else SP).
Proof.
  intros r n c1 c2 H. unfold peek3 in H. apply newline_at_width in H.
  destruct r as [|a r]; cbn in H.
  - unfold NUL, CR, LF in H. intuition discriminate.
  - destruct H as [(-> & -> & H & -> & ->)|[(-> & -> & H & -> & ->)|(-> & -> & -> & ->)]].
    + destruct r as [|b r]; cbn in H; [discriminate|]. subst b. repeat split. constructor.
    + repeat split. constructor. constructor. exact H.
    + repeat split. constructor. constructor.
Qed.

Lemma continuation_at_spec : forall r n c1 c2, continuation_at (peek3 r) = Some (Some (n, c1, c2)) ->
  exists r' m, r = BSL :: r' /\ n = S m /\ line_break r' m /\ c1 = hd NUL r' /\ c2 = (if Nat.eqb m 2 then LF else SP).
Proof.
  intros r n c1 c2 H. unfold peek3 in H.
  destruct r as [|a r]; [discriminate|]. cbn [hd tl] in H.
  unfold continuation_at in H.
  destruct (N.eqb_spec a BSL) as [->|]; cbn [andb] in H; [|discriminate].
  destruct (N.eqb_spec (hd NUL r) CR) as [E|E]; cbn [andb] in H.
  - destruct r as [|b r]; [discriminate|]. cbn [hd tl] in *. subst b.
    destruct (N.eqb_spec (hd NUL r) LF) as [E2|E2].
    + destruct r as [|b r]; [discriminate|]. cbn [hd] in E2. subst b. inversion H; subst.
      exists (CR :: LF :: r), 2%nat. repeat split. constructor.
    + inversion H; subst. exists (CR :: r), 1%nat. repeat split. now constructor.
  - destruct (N.eqb_spec (hd NUL r) LF) as [E2|E2]; [|discriminate].
    destruct r as [|b r]; [discriminate|]. cbn [hd] in E2. subst b. inversion H; subst.
    exists (LF :: r), 1%nat. repeat split. constructor.
Qed.

(** One trivia step. *)
Lemma inner_trivia : forall text l1 tr b1 s', at_ text (lx_pos l1) (lx_rest l1) ->
  lx_bol l1 = false ->
  inner_case l1 tr b1 (inl s') ->
  exists x, st_tr s' = tr ++ [x] /\ trivia_source text x /\ trivia_start x = lx_pos l1 /\
    trivia_end x = lx_pos (st_lex s') /\ lx_bol (st_lex s') = is_newline_trivia x /\
    st_outer s' = is_newline_trivia x /\ st_blank s' = b1 /\
    lx_pending (st_lex s') = lx_pending l1 /\
    (is_newline_trivia x = true -> b1 = true \/ lx_parens l1 <> []).
Proof.
  intros text l1 tr b1 s' AT NB C. remember (inl s') as o eqn:O.
  destruct C as [w r c Hr Hw Hf Hc | w r Hr Hh Hf Hs Ht | | | n c1 c2 HN HB | | n c1 c2 HC | | ];
    inversion O; subst s'; clear O; cbn [st_tr st_lex st_outer st_blank]; eexists; (split; [reflexivity|]);
    cbn [trivia_start trivia_end is_newline_trivia].
  - rewrite Hr in AT. split; [|repeat split; auto; discriminate].
    pose proof (slice_at _ _ _ _ AT) as SL.
    destruct Hc as [(-> & Hc)|(-> & Hc)].
    + constructor.
      * destruct w; [congruence|cbn [length]; lia].
      * rewrite SL. replace (lx_pos l1 + length w - lx_pos l1)%nat with (length w) by lia. now apply forallb_repeat.
      * apply at_app in AT. rewrite (nth_at _ _ _ AT). exact Hc.
    + rewrite Hc in *. destruct w as [|c [|c2 w]]; try discriminate. cbn in Hf. rewrite andb_true_r in Hf.
      apply N.eqb_eq in Hf. subst c. constructor. exact SL.
  - rewrite Hr in AT. split; [|repeat split; auto; discriminate].
    pose proof (slice_at _ _ _ _ AT) as SL. rewrite <- SL at 2. constructor; rewrite ?SL; auto.
    + destruct w; [discriminate|cbn [length]; lia].
    + intros c I. rewrite forallb_forall in Hf. apply comment_char_spec. auto.
    + apply at_app in AT. cbv zeta. rewrite (nth_at _ _ _ AT). now apply comment_char_false.
  - split; [|repeat split; auto]. apply newline_at_spec in HN. destruct HN as (HN & _).
    destruct AT as (E & _). rewrite E in HN. now constructor.
  - split; [|repeat split; auto; discriminate]. apply continuation_at_spec in HC.
    destruct HC as (r' & m & E & -> & LB & -> & ->).
    replace (lx_pos l1 + S m)%nat with (lx_pos l1 + 1 + m)%nat by lia.
    eapply TS_continuation; eauto. destruct AT as (E2 & _). congruence.
Qed.

(** The loop invariant. *)
Record trivia_ok (text : str) (l : lexer) (s : st) : Prop :=
  { to_loop : loop_ok text l s;
    to_tiled : tiled text (lx_bol l) (lx_pos l) (map PTrivia (st_tr s)) (lx_bol (st_lex s)) (lx_pos (st_lex s));
    to_start : st_outer s = true ->
      st_tr s = [] /\ st_blank s = false /\ st_lex s = set_start l (lx_pos l) \/
      (st_blank s = true \/ lx_parens l <> []) /\ lx_pending (st_lex s) = 0%Z }.

Lemma begin_line_tiled : forall text l b l1 b1, at_ text (lx_pos l) (lx_rest l) ->
  begin_line l b = inl (l1, b1) ->
  tiled text (lx_bol l) (lx_pos l) [] false (lx_pos l1) /\ lx_bol l1 = false.
Proof.
  intros text l b l1 b1 AT E. pose proof (begin_line_case l b) as C. rewrite E in C.
  assert (G : forall w r, lx_bol l = true -> lx_rest l = w ++ r -> forallb is_blank w = true ->
     is_blank (hd NUL r) = false -> tiled text (lx_bol l) (lx_pos l) [] false (lx_pos l + length w)).
  { intros w r B R F N. rewrite B. eapply TL_indent with (w := w) (r := r).
    - destruct AT as (A & _). congruence.
    - apply Forall_forall. intros c I. rewrite forallb_forall in F. specialize (F c I). unfold is_blank, blank_char in *.
      apply orb_prop in F. rewrite !N.eqb_eq in F. exact F.
    - unfold is_blank, blank_char in *. apply orb_false_iff in N. rewrite !N.eqb_neq in N. tauto.
    - constructor. }
  remember (inl (l1, b1)) as res eqn:R.
  destruct C as [Hb | w r Hb Hr Hw Hh Hd | w r Hb Hr Hw Hh Hbl Hi Hp].
  - inversion R; subst. rewrite Hb. split; auto. constructor.
  - inversion R; subst. split; [|reflexivity]. apply (G w r); auto.
  - pose proof (layout_update_cur (set_bol (goto l (lx_start l) (lx_pos l + length w) r) false) (column w)) as LU.
    destruct (layout_update _ _) as [l3|e]; [|discriminate]. inversion R; subst l3 b1.
    rewrite LU. split; [|reflexivity]. apply (G w r); auto.
Qed.

Lemma line_done_tiled : forall text l s l1 b1, trivia_ok text l s -> line_done s l1 b1 ->
  tiled text (lx_bol l) (lx_pos l) (map PTrivia (st_tr s)) false (lx_pos l1) /\ lx_bol l1 = false.
Proof.
  intros text l s l1 b1 [LO TI ST] LD. pose proof (line_done_ok _ _ _ _ _ LO LD) as LO1.
  unfold line_done in LD. destruct (st_outer s) eqn:OU.
  - destruct LD as (E & P). destruct (begin_line_tiled text _ _ _ _ (ok_at _ _ (lo_ok _ _ _ LO)) E) as (A & B).
    split; auto. rewrite <- (app_nil_r (map PTrivia (st_tr s))). eapply tiled_app; eauto.
  - destruct LD as (-> & ->). destruct (lo_inner _ _ _ LO OU) as (NB & _). rewrite NB in TI. auto.
Qed.

Lemma line_done_blank : forall s l1 b1, line_done s l1 b1 -> st_blank s = true -> b1 = true.
Proof.
  intros s l1 b1 LD B. unfold line_done in LD. destruct (st_outer s).
  - destruct LD as (E & _). pose proof (begin_line_case (st_lex s) (st_blank s)) as C. rewrite E in C.
    remember (inl (l1, b1)) as res eqn:R.
    destruct C; inversion R; subst; auto; rewrite B in *; auto.
    discriminate.
  - destruct LD as (-> & ->). auto.
Qed.

Lemma start_trivia_ok : forall text l, lx_ok text l -> trivia_ok text l (start_state l).
Proof.
  intros text l OK. constructor.
  - apply start_ok; auto.
  - cbn. constructor.
  - intros _. left. auto.
Qed.

Lemma step_trivia_ok : forall text l s s' l1 b1, trivia_ok text l s -> line_done s l1 b1 ->
  inner_case l1 (st_tr s) b1 (inl s') -> trivia_ok text l s'.
Proof.
  intros text l s s' l1 b1 TO LD C. pose proof (to_loop _ _ _ TO) as LO.
  pose proof (line_done_ok _ _ _ _ _ LO LD) as LO1.
  destruct (line_done_tiled _ _ _ _ _ TO LD) as (TI & NB).
  assert (AT : at_ text (lx_pos l1) (lx_rest l1)) by apply (lo_ok _ _ _ LO1).
  destruct (inner_trivia _ _ _ _ _ AT NB C) as (x & E1 & E2 & E3 & E4 & E5 & E6 & E7 & E8 & E9).
  constructor.
  - eapply inner_ok; eauto.
  - rewrite E1, map_app, E5, <- E4. eapply tiled_app; [exact TI|]. rewrite <- E3. cbn [map].
    apply tiled_trivia1; auto.
  - intros O. right. rewrite E8, E7. split.
    + rewrite E6 in O. destruct (E9 O); auto. right. pose proof (lo_parens _ _ _ LO1) as P. cbn in P. congruence.
    + apply (lo_inner _ _ _ LO1). reflexivity.
Qed.

Lemma get_symbol_trivia : forall U text l, lx_ok text l ->
  exists s, trivia_ok text l s /\ final_case U s (get_symbol U l).
Proof.
  intros U text l OK. apply get_symbol_invariant.
  - apply start_trivia_ok; auto.
  - intros. eapply step_trivia_ok; eauto.
Qed.

(** ** The shape of a successful call *)
Inductive call_case (U : unicode) (text : str) (l : lexer) : token -> lexer -> Prop :=
| CC_layout k l' : k = T_Indent \/ k = T_Dedent ->
    tiled text (lx_bol l) (lx_pos l) [] false (lx_pos l') ->
    lx_bol l' = false -> call_case U text l (Tok k NoSpan None NoPayload) l'
| CC_type_comment l1 tr w r :
    lx_ok text l1 -> lx_parens l1 = lx_parens l -> lx_bol l1 = false -> lx_pending l1 = 0%Z ->
    tiled text (lx_bol l) (lx_pos l) (map PTrivia tr) false (lx_pos l1) ->
    lx_rest l1 = w ++ r -> forallb comment_char w = true -> comment_char (hd NUL r) = false ->
    starts_with $"# type:" w = true ->
    call_case U text l
      (Tok T_TypeComment (Range (lx_pos l1) (lx_pos l1 + length w)) (finish_trivia tr) (Text w))
      (goto l1 (lx_pos l1) (lx_pos l1 + length w) r)
| CC_eof l1 tr :
    lx_ok text l1 -> lx_parens l1 = lx_parens l -> lx_bol l1 = false -> lx_pending l1 = 0%Z ->
    tiled text (lx_bol l) (lx_pos l) (map PTrivia tr) false (lx_pos l1) ->
    hd NUL (lx_rest l1) = NUL ->
    call_case U text l (Tok T_EOF (At (lx_pos l1)) (finish_trivia tr) NoPayload)
      (goto l1 (lx_pos l1) (lx_pos l1) (lx_rest l1))
| CC_newline l1 tr n c1 c2 :
    lx_ok text l1 -> lx_parens l1 = [] -> lx_parens l = [] -> lx_bol l1 = false -> lx_pending l1 = 0%Z ->
    tiled text (lx_bol l) (lx_pos l) (map PTrivia tr) false (lx_pos l1) ->
    newline_at (peek3 (lx_rest l1)) = Some (n, c1, c2) ->
    call_case U text l
      (Tok T_Newline (Range (lx_pos l1) (lx_pos l1 + n)) (finish_trivia tr) (Break c1 c2))
      (set_bol (goto l1 (lx_pos l1) (lx_pos l1 + n) (skipn n (lx_rest l1))) true)
| CC_token l1 tr c q t l' :
    lx_ok text l1 -> lx_parens l1 = lx_parens l -> lx_bol l1 = false -> lx_pending l1 = 0%Z ->
    tiled text (lx_bol l) (lx_pos l) (map PTrivia tr) false (lx_pos l1) ->
    lx_rest l1 = c :: q -> significant c ->
    token_case U (goto l1 (lx_pos l1) (lx_pos l1) (lx_rest l1)) tr (LOk t l') ->
    LOk t l' = lex_token U (goto l1 (lx_pos l1) (lx_pos l1) (lx_rest l1)) tr ->
    call_case U text l t l'.

Lemma get_symbol_case : forall U text l t l', lx_ok text l -> get_symbol U l = LOk t l' ->
  call_case U text l t l'.
Proof.
  intros U text l t l' OK E. destruct (get_symbol_trivia U text l OK) as (s & TO & F). rewrite E in F.
  pose proof (to_loop _ _ _ TO) as LO.
  remember (LOk t l') as res eqn:R.
  destruct F as [e l1 Ho Hb | l1 b1 t1 l2 Ho Hb Hp | l1 b1 r LD C | l1 b1 c q r LD Hr N1 N2 N3 N4 N5 N6 N7 TC].
  - discriminate.
  - inversion R; subst t1 l2.
    destruct (to_start _ _ _ TO Ho) as [(TR & BL & SL)|(BP & PE)].
    + pose proof (to_tiled _ _ _ TO) as TI. rewrite TR in TI. cbn [map] in TI.
      destruct (begin_line_tiled text _ _ _ _ (ok_at _ _ (lo_ok _ _ _ LO)) Hb) as (A & B).
      pose proof (tiled_app _ _ _ _ _ _ _ _ _ TI A) as T2. cbn [app] in T2.
      unfold pending_token in Hp. destruct (lx_pending l1 <? 0)%Z; [|destruct (0 <? lx_pending l1)%Z; [|discriminate]];
        inversion Hp; subst; constructor; auto.
    + exfalso. pose proof (begin_line_case (st_lex s) (st_blank s)) as C. rewrite Hb in C.
      assert (Z0 : lx_pending l1 = 0%Z).
      { remember (inl (l1, b1)) as o eqn:O. destruct C as [Hb1 | w r Hb1 Hr Hw Hh Hd | w r Hb1 Hr Hw Hh Hbl Hi Hpp].
        - inversion O; subst; auto.
        - inversion O; subst; auto.
        - exfalso. rewrite (lo_parens _ _ _ LO) in Hpp. destruct BP; congruence. }
      unfold pending_token in Hp. rewrite Z0 in Hp. discriminate.
  - subst r. pose proof (line_done_ok _ _ _ _ _ LO LD) as LO1.
    destruct (line_done_tiled _ _ _ _ _ TO LD) as (TI & NB).
    pose proof (lo_ok _ _ _ LO1) as OK1. pose proof (lo_parens _ _ _ LO1) as PA.
    destruct (lo_inner _ _ _ LO1 eq_refl) as (_ & PE). cbn [st_lex] in *.
    inversion C as [ | | w r0 Hr Hf Hs Ht | HE | | n c1 c2 HN HB HP | | | ]; subst; clear C.
    + eapply CC_type_comment; eauto.
    + eapply CC_eof; eauto.
    + eapply CC_newline; eauto. congruence.
  - subst r. pose proof (line_done_ok _ _ _ _ _ LO LD) as LO1.
    destruct (line_done_tiled _ _ _ _ _ TO LD) as (TI & NB).
    pose proof (lo_ok _ _ _ LO1) as OK1. pose proof (lo_parens _ _ _ LO1) as PA.
    destruct (lo_inner _ _ _ LO1 eq_refl) as (_ & PE). cbn [st_lex] in *.
    eapply CC_token; eauto. unfold significant. tauto.
Qed.

(** ** C06 *)
Lemma rev_finish : forall tr, rev (match finish_trivia tr with Some x => x | None => [] end) = tr.
Proof. intros [|x tr]; cbn [finish_trivia]; [reflexivity|]. apply rev_involutive. Qed.

Lemma finish_pieces : forall k sp tr pl,
  pieces (Tok k sp (finish_trivia tr) pl) = map PTrivia tr ++
  match sp with Range s e => [PToken s e (kind_eqb k T_Newline)] | _ => [] end.
Proof. intros. unfold pieces. cbn [tk_trivia tk_span tk_kind]. rewrite rev_finish. reflexivity. Qed.

Lemma call_tiled : forall U text l t l', lx_ok text l -> get_symbol U l = LOk t l' ->
  tiled text (lx_bol l) (lx_pos l) (pieces t) (lx_bol l') (lx_pos l').
Proof.
  intros U text l t l' OK E. pose proof (get_symbol_case _ _ _ _ _ OK E) as C.
  destruct C as [k l' K TI NB | l1 tr w r OK1 PA NB PE TI Hr Hf Hs Ht | l1 tr OK1 PA NB PE TI HE
    | l1 tr n c1 c2 OK1 PA PL NB PE TI HN | l1 tr c q t l' OK1 PA NB PE TI Hr SI TC].
  - rewrite NB. exact TI.
  - rewrite finish_pieces. eapply tiled_app; [exact TI|]. cbn [lx_bol goto lx_pos lx_cur cu_pos]. rewrite NB.
    assert (WL : (1 <= length w)%nat) by (destruct w; [discriminate|cbn; lia]).
    apply TL_token; [lia|]. constructor.
  - rewrite finish_pieces, app_nil_r. cbn [lx_bol goto]. rewrite NB. exact TI.
  - rewrite finish_pieces. eapply tiled_app; [exact TI|].
    destruct (newline_at_len _ _ _ _ HN) as (A & _).
    apply TL_token; [lia|]. constructor.
  - assert (HN : hd NUL (lx_rest (goto l1 (lx_pos l1) (lx_pos l1) (lx_rest l1))) <> NUL).
    { cbn. rewrite Hr. cbn. unfold significant in SI. tauto. }
    pose proof (token_case_move U text (goto l1 (lx_pos l1) (lx_pos l1) (lx_rest l1)) tr (LOk t l') (ok_at _ _ OK1) HN TC) as M.
    cbn [token_move] in M. destruct M as (k & ps' & K1 & ATk & -> & SP' & TR & BR & LK').
    destruct t as [tk ts tt tp]. cbn in SP', TR, LK'. subst ts tt. rewrite finish_pieces. eapply tiled_app; [exact TI|].
    cbn. rewrite NB. replace (kind_eqb tk T_Newline) with false by (destruct tk; cbn in *; auto; discriminate).
    apply TL_token; [lia|]. constructor.
Qed.

Lemma history_tiled : forall U text evs l, history U text evs l ->
  (forall ev, In ev evs -> exists t, ev = inl t) ->
  tiled text true 0 (flat_map pieces (tokens_of evs)) (lx_bol l) (lx_pos l).
Proof.
  intros U text evs l H. induction H as [|evs l t l' H IH E|evs l e l' H IH E]; intros F.
  - constructor.
  - unfold tokens_of. rewrite flat_map_app, flat_map_app. eapply tiled_app.
    + apply IH. intros. apply F. apply in_or_app. auto.
    + cbn. rewrite !app_nil_r. eapply call_tiled; eauto. eapply history_ok; eauto.
  - destruct (F (inr e)) as (t & X); [apply in_or_app; cbn; auto|discriminate].
Qed.
