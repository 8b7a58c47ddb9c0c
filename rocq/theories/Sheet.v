(** The shape of the token sequences the tokenizer can produce. *)
From Coq Require Import ZArith Arith Lia Sorted.
From Verif Require Import Chars SourceBuffer Token Tokenizer LexBasics ScanLemmas LineLemmas
  TokenLemmas NumberLemmas WellFormed CallLemmas CallTheorem LexSpec TokenSpec RenderSpec HistoryProofs TilingProofs MidLine NumberProofs
  ZeroProofs WordProofs StringProofs TokenProofs Compose LayoutProofs RoundTrip ExprSpec ExprPrint SequenceSpec Steady.

(** Calling until the end, without an error, shows these faces. *)
Inductive shows (U : unicode) : lexer -> list (kind * payload) -> Prop :=
| RD_end l t l' : get_symbol U l = LOk t l' -> tk_kind t = T_EOF -> shows U l [face t]
| RD_more l t l' fs : get_symbol U l = LOk t l' -> tk_kind t <> T_EOF -> shows U l' fs -> shows U l (face t :: fs).

(** [rows U s d o fs]: from the spot [s], at depth [d], with the closing brackets [o] expected. *)
Inductive rows (U : unicode) : spot -> nat -> list kind -> list (kind * payload) -> Prop :=
| RW_eof s d o : s <> Start -> rows U s d o [(T_EOF, NoPayload)]
| RW_item s d o k pay o' fs : s = Bare \/ s = Laid \/ s = Mid \/ (s = Noted /\ o <> []) ->
    steady U (token_text (k, pay)) k pay -> layout_kind k = false -> nest [k] o = Some o' ->
    rows U Mid d o' fs -> rows U s d o ((k, pay) :: fs)
| RW_newline s d fs : s = Mid \/ s = Noted -> rows U Start d [] fs -> rows U s d [] ((T_Newline, NoPayload) :: fs)
| RW_comment s d o fs : s = Bare \/ s = Mid \/ (s = Noted /\ o <> []) -> rows U Noted d o fs ->
    rows U s d o ((T_TypeComment, NoPayload) :: fs)
| RW_same d fs : rows U Bare d [] fs -> rows U Start d [] fs
| RW_deeper d fs : rows U Laid (S d) [] fs -> rows U Start d [] ((T_Indent, NoPayload) :: fs)
| RW_back d k fs : (0 < k <= d)%nat -> rows U Laid (d - k) [] fs ->
    rows U Start d [] (repeat (T_Dedent, NoPayload) k ++ fs).

Lemma shows_from : forall U l l' fs, get_symbol U l = get_symbol U l' -> shows U l fs -> shows U l' fs.
Proof. intros U l l' fs E H. destruct H as [l t l1 A B|l t l1 fs A B C]; rewrite E in A; econstructor; eauto. Qed.
Lemma shows_inv : forall U l fs, shows U l fs -> exists t l', get_symbol U l = LOk t l' /\
  (tk_kind t = T_EOF /\ fs = [face t] \/ tk_kind t <> T_EOF /\ exists fs', fs = face t :: fs' /\ shows U l' fs').
Proof. intros U l fs H. destruct H as [l t l1 A B|l t l1 fs A B C]; exists t, l1; split; auto. right. split; auto. eauto. Qed.

(** Calling some times, without an error, and taking the text for ended there, shows these faces. *)
Inductive glimpse (U : unicode) : lexer -> list (kind * payload) -> Prop :=
| GL_stop l : glimpse U l [(T_EOF, NoPayload)]
| GL_more l t l' fs : get_symbol U l = LOk t l' -> tk_kind t <> T_EOF -> glimpse U l' fs -> glimpse U l (face t :: fs).
Lemma shows_glimpse : forall U l fs, shows U l fs -> glimpse U l fs.
Proof.
  induction 1 as [l t l' E K|l t l' fs E K S IH]; [|eapply GL_more; eauto]. unfold face. rewrite K. constructor.
Qed.
Lemma glimpse_from : forall U l l' fs, get_symbol U l = get_symbol U l' -> glimpse U l fs -> glimpse U l' fs.
Proof. intros U l l' fs E H. destruct H as [l|l t l1 fs A B C]; [constructor|]. rewrite E in A. econstructor; eauto. Qed.

(** A call in the middle of a line returns no Indent and no Dedent. *)
Lemma mid_no_layout : forall U text l t l', lx_ok text l -> mid_line l -> get_symbol U l = LOk t l' ->
  tk_kind t <> T_Indent /\ tk_kind t <> T_Dedent.
Proof.
  intros U text l t l' OK (B & P) E. destruct (get_symbol_trivia U text l OK) as (s & TO & F). rewrite E in F.
  pose proof (to_loop _ _ _ TO) as LO.
  remember (LOk t l') as res eqn:R.
  destruct F as [e l1 Ho Hb | l1 b1 t1 l2 Ho Hb Hp | l1 b1 r LD C | l1 b1 c q r LD Hr N1 N2 N3 N4 N5 N6 N7 TC].
  - discriminate.
  - exfalso. assert (Z0 : lx_pending l1 = 0%Z).
    { pose proof (begin_line_case (st_lex s) (st_blank s)) as C. rewrite Hb in C.
      destruct (to_start _ _ _ TO Ho) as [(TR & BL & SL)|(BP & PE)].
      - rewrite SL in C. remember (inl (l1, b1)) as o eqn:O. destruct C as [Hb1 | w r Hb1 Hr Hw Hh Hd | w r Hb1 Hr Hw Hh Hbl Hi Hpp].
        + inversion O; subst; auto.
        + cbn in Hb1. congruence.
        + cbn in Hb1. congruence.
      - remember (inl (l1, b1)) as o eqn:O. destruct C as [Hb1 | w r Hb1 Hr Hw Hh Hd | w r Hb1 Hr Hw Hh Hbl Hi Hpp].
        + inversion O; subst; auto.
        + inversion O; subst; auto.
        + exfalso. rewrite (lo_parens _ _ _ LO) in Hpp. destruct BP; congruence. }
    unfold pending_token in Hp. rewrite Z0 in Hp. discriminate.
  - subst r. inversion C; subst; split; discriminate.
  - subst r. pose proof (line_done_ok _ _ _ _ _ LO LD) as LO1.
    pose proof (lo_ok _ _ _ LO1) as OK1. cbn [st_lex] in OK1.
    assert (HN : hd NUL (lx_rest (goto l1 (lx_pos l1) (lx_pos l1) (lx_rest l1))) <> NUL) by (cbn; rewrite Hr; exact N1).
    pose proof (token_case_move U text (goto l1 (lx_pos l1) (lx_pos l1) (lx_rest l1)) _ _ (ok_at _ _ OK1) HN TC) as M.
    destruct M as (k & ps' & _ & _ & _ & _ & _ & _ & LK). split; intros X; rewrite X in LK; discriminate.
Qed.

Lemma bracket_nest : forall k ps ps', bracket_step k ps ps' -> Forall closers ps ->
  nest [k] (map close_kind ps) = Some (map close_kind ps') /\ Forall closers ps'.
Proof.
  intros k ps ps' B FO. unfold bracket_step in B.
  assert (CL : closers #")" /\ closers #"]" /\ closers #"}") by (unfold closers; tauto).
  destruct CL as (C1 & C2 & C3).
  destruct k; cbn in B |- *; rewrite B in *; auto;
      try (inversion FO; subst; split; auto; fail); split; auto.
Qed.

Lemma face_plain : forall t, layout_kind (tk_kind t) = false -> forall U s n, token_at U s (tk_kind t) n (tk_payload t) ->
  face t = (tk_kind t, tk_payload t).
Proof.
  intros t L U s n T. unfold face. destruct (carries (tk_kind t)) eqn:C; [reflexivity|].
  destruct T; try reflexivity; discriminate C.
Qed.

(** A call that returns neither layout nor a comment. *)
Lemma call_item : forall U text l t l', lx_ok text l -> get_symbol U l = LOk t l' -> layout_kind (tk_kind t) = false ->
  Forall closers (lx_parens l) -> lx_pending l = 0%Z ->
  face t = (tk_kind t, tk_payload t) /\ steady U (token_text (face t)) (tk_kind t) (tk_payload t) /\
  nest [tk_kind t] (map close_kind (lx_parens l)) = Some (map close_kind (lx_parens l')) /\ Forall closers (lx_parens l') /\
  lx_ok text l' /\ mid_line l' /\ length (lx_indents l') = length (lx_indents l).
Proof.
  intros U text l t l' OK E L CL P. pose proof (get_symbol_ok U text l OK) as C. rewrite E in C.
  destruct C as [C1 C2 C3 C4 C5 C6 C7 C8 C9 C10]. unfold span_ok in C5.
  assert (K : tk_kind t <> T_Newline /\ tk_kind t <> T_TypeComment /\ tk_kind t <> T_Indent /\ tk_kind t <> T_Dedent /\ tk_kind t <> T_EOF)
    by (repeat split; intros X; rewrite X in L; discriminate).
  destruct K as (K1 & K2 & K3 & K4 & K5).
  destruct (tk_span t) as [|p|s e] eqn:SP1; [exfalso; intuition|exfalso; intuition|].
  destruct (token_at_position U text l t l' s e OK E SP1 K1 K2) as (G & SG & LT).
  destruct (mid_inversion U (at_position text s (lx_parens l) (lx_indents l')) (without_trivia t) l') as (n & TA & SP2 & _); auto.
  { split; reflexivity. }
  cbn in TA. pose proof (face_plain t L _ _ _ TA) as FP. split; [exact FP|]. rewrite FP. split; [eapply steady_token; eauto|].
  destruct (bracket_nest _ _ _ C3 CL) as (B1 & B2). split; [exact B1|]. split; [exact B2|]. split; [exact C1|].
  assert (BO : lx_bol l' = false) by (destruct (lx_bol l') eqn:X; auto; specialize (C9 eq_refl); congruence).
  assert (PE : lx_pending l' = 0%Z).
  { destruct (Z.eq_dec (lx_pending l') 0); auto. specialize (C10 n0). tauto. }
  split; [split; auto|]. unfold balance, balance_step in C4. rewrite P, PE in C4.
  destruct (tk_kind t); try discriminate L; lia.
Qed.

Lemma layout_kinds : forall k, layout_kind k = false \/ k = T_Newline \/ k = T_Indent \/ k = T_Dedent \/ k = T_EOF \/ k = T_TypeComment.
Proof. intros k. destruct k; cbn; tauto. Qed.

(** After a type comment its line is over. *)
Lemma call_comment : forall U text l t l', lx_ok text l -> get_symbol U l = LOk t l' -> tk_kind t = T_TypeComment -> lx_pending l = 0%Z ->
  face t = (T_TypeComment, NoPayload) /\ lx_ok text l' /\ mid_line l' /\ lx_parens l' = lx_parens l /\
  length (lx_indents l') = length (lx_indents l) /\ (hd NUL (lx_rest l') = CR \/ hd NUL (lx_rest l') = LF \/ hd NUL (lx_rest l') = NUL).
Proof.
  intros U text l t l' OK E K P. pose proof (get_symbol_ok U text l OK) as C. rewrite E in C.
  destruct C as [C1 C2 C3 C4 C5 C6 C7 C8 C9 C10].
  assert (BO : lx_bol l' = false) by (destruct (lx_bol l') eqn:X; auto; specialize (C9 eq_refl); congruence).
  assert (PE : lx_pending l' = 0%Z).
  { destruct (Z.eq_dec (lx_pending l') 0) as [X|X]; auto. specialize (C10 X). rewrite K in C10. destruct C10; discriminate. }
  split; [unfold face; rewrite K; reflexivity|]. split; [exact C1|]. split; [split; auto|].
  split; [unfold bracket_step in C3; rewrite K in C3; exact C3|].
  split; [unfold balance, balance_step in C4; rewrite K, P, PE in C4; lia|].
  pose proof (get_symbol_case _ _ _ _ _ OK E) as C.
  destruct C as [k l' KK TI NB | l1 tr w r OK1 PA NB PE1 TI Hr Hf Hs Ht | l1 tr OK1 PA NB PE1 TI HE
    | l1 tr n c1 c2 OK1 PA PL NB PE1 TI HN | l1 tr c q t l' OK1 PA NB PE1 TI Hr SI TC LT]; try discriminate K.
  - exfalso. cbn in K. destruct KK; congruence.
  - cbn. apply comment_char_false. exact Hs.
  - exfalso. assert (HN : hd NUL (lx_rest (goto l1 (lx_pos l1) (lx_pos l1) (lx_rest l1))) <> NUL).
    { cbn. rewrite Hr. cbn. unfold significant in SI. tauto. }
    pose proof (token_case_move U text (goto l1 (lx_pos l1) (lx_pos l1) (lx_rest l1)) tr (LOk t l') (ok_at _ _ OK1) HN TC) as M.
    destruct M as (k & ps' & _ & _ & _ & _ & _ & _ & LK). rewrite K in LK. discriminate.
Qed.

Lemma call_newline : forall U text l t l', lx_ok text l -> get_symbol U l = LOk t l' -> tk_kind t = T_Newline -> lx_pending l = 0%Z ->
  face t = (T_Newline, NoPayload) /\ lx_ok text l' /\ lx_bol l' = true /\ lx_pending l' = 0%Z /\ lx_parens l = [] /\ lx_parens l' = [] /\
  length (lx_indents l') = length (lx_indents l).
Proof.
  intros U text l t l' OK E K P. pose proof (get_symbol_ok U text l OK) as C. rewrite E in C.
  destruct C as [C1 C2 C3 C4 C5 C6 C7 C8 C9 C10].
  assert (PE : lx_pending l' = 0%Z).
  { destruct (Z.eq_dec (lx_pending l') 0) as [X|X]; auto. specialize (C10 X). rewrite K in C10. destruct C10; discriminate. }
  assert (PL : lx_parens l = []).
  { destruct (lx_parens l) eqn:X; auto. destruct (C7 ltac:(discriminate)) as (Y & _). congruence. }
  split; [unfold face; rewrite K; reflexivity|]. split; [exact C1|].
  assert (BO : lx_bol l' = true).
  { pose proof (get_symbol_case _ _ _ _ _ OK E) as C.
    destruct C as [k l' KK TI NB | l1 tr w r OK1 PA NB PE1 TI Hr Hf Hs Ht | l1 tr OK1 PA NB PE1 TI HE
    | l1 tr n c1 c2 OK1 PA PLL NB PE1 TI HN | l1 tr c q t l' OK1 PA NB PE1 TI Hr SI TC LT]; try discriminate K; try reflexivity.
    - exfalso. cbn in K. destruct KK; congruence.
    - exfalso. assert (HN : hd NUL (lx_rest (goto l1 (lx_pos l1) (lx_pos l1) (lx_rest l1))) <> NUL).
      { cbn. rewrite Hr. cbn. unfold significant in SI. tauto. }
      pose proof (token_case_move U text (goto l1 (lx_pos l1) (lx_pos l1) (lx_rest l1)) tr (LOk t l') (ok_at _ _ OK1) HN TC) as M.
      destruct M as (k & ps' & _ & _ & _ & _ & _ & _ & LK). rewrite K in LK. discriminate. }
  split; [exact BO|]. split; [exact PE|]. split; [exact PL|].
  split; [unfold bracket_step in C3; rewrite K in C3; congruence|].
  unfold balance, balance_step in C4; rewrite K, P, PE in C4; lia.
Qed.

Lemma blanks_split : forall r : str, exists w r' k, r = w ++ r' /\ column_of w k /\ ~ blank_char (hd NUL r').
Proof.
  intros r. destruct (run_while is_blank r) as [w r'] eqn:E.
  pose proof (run_while_hd is_blank r w r' eq_refl E) as H. apply run_while_spec in E as (-> & F & _).
  exists w, r', (column w). split; [reflexivity|]. split; [apply column_of_total, Forall_forall; rewrite forallb_forall in F; intros c I; apply F in I; unfold is_blank in I; apply orb_prop in I as [I|I]; apply N.eqb_eq in I; [left|right]; exact I|]. intros [X|X]; rewrite X in H; discriminate.
Qed.

Lemma lx_ok_at : forall text l w r is, lx_ok text l -> lx_rest l = w ++ r -> levels_ok is ->
  Forall (fun c => (c <= 4 * (lx_pos l + length w))%nat) is -> (length is <= lx_pos l + length w + 1)%nat ->
  lx_ok text (at_position text (lx_pos l + length w) [] is).
Proof.
  intros text l w r is OK R LV CO LE. pose proof (ok_at _ _ OK) as AT. rewrite R in AT. apply at_app in AT.
  constructor; unfold at_position, lx_pos, lx_rest in *; cbn [lx_cur cu_pos cu_rest lx_start lx_indents lx_bol lx_pending lx_parens] in *; auto; try lia; try easy.
  destruct AT as (A & B). split; auto.
Qed.
Lemma at_rest : forall text l w r is, lx_ok text l -> lx_rest l = w ++ r -> lx_rest (at_position text (lx_pos l + length w) [] is) = r.
Proof. intros text l w r is OK R. pose proof (ok_at _ _ OK) as AT. rewrite R in AT. apply at_app in AT. destruct AT as (A & _). symmetry. exact A. Qed.

Lemma calls_glimpse : forall U l ts l', calls U l ts l' -> Forall (fun t => tk_kind t <> T_EOF) ts -> forall fs, glimpse U l fs ->
  (exists j, (j < length ts)%nat /\ fs = map face (firstn j ts) ++ [(T_EOF, NoPayload)]) \/
  exists fs', fs = map face ts ++ fs' /\ glimpse U l' fs'.
Proof.
  intros U l ts l' H. induction H as [l|l t l1 ts l2 E C IH]; intros F fs R; [right; exists fs; auto|]. inversion F as [|? ? F1 F2]; subst.
  destruct R as [l|l t' l' fs E' K R]; [left; exists 0%nat; split; [cbn; lia|reflexivity]|].
  rewrite E in E'. injection E' as <- <-. destruct (IH F2 _ R) as [(j & J & ->)|(fs2 & -> & R2)].
  - left. exists (S j). split; [cbn; lia|reflexivity].
  - right. exists fs2. auto.
Qed.

Lemma token_kinds : forall U s k n pay, token_at U s k n pay -> layout_kind k = false.
Proof.
  intros U s k n pay T. destruct T as [r w k LO ND|c r k I|w r k WA I| | | | | | | ]; try reflexivity.
  - destruct LO as (I & _). cbn in I. repeat destruct I as [I|I]; try (inversion I; subst; reflexivity); destruct I.
  - cbn in I. repeat destruct I as [I|I]; try (inversion I; subst; reflexivity); destruct I.
  - cbn in I. repeat destruct I as [I|I]; try (inversion I; subst; reflexivity); destruct I.
Qed.

Lemma line_end_call : forall U l t l', mid_line l -> lx_parens l = [] ->
  (hd NUL (lx_rest l) = CR \/ hd NUL (lx_rest l) = LF \/ hd NUL (lx_rest l) = NUL) -> get_symbol U l = LOk t l' ->
  tk_kind t = T_Newline \/ tk_kind t = T_EOF.
Proof.
  intros U l t l' M PA H E.
  assert (N : forall n, line_break_as_coded (lx_rest l) n -> tk_kind t = T_Newline).
  { intros n B. pose proof (newline_call U l n M B) as C. rewrite PA, E in C. inversion C. reflexivity. }
  destruct H as [H|[H|H]].
  - left. destruct (lx_rest l) as [|c r]; [discriminate H|]. cbn in H. subst c.
    destruct (N.eq_dec (hd NUL r) LF) as [X|X]; [|apply (N 1%nat); constructor; constructor; exact X].
    destruct r as [|c r]; [discriminate X|]. cbn in X. subst c. apply (N 3%nat). constructor.
  - left. destruct (lx_rest l) as [|c r]; [discriminate H|]. cbn in H. subst c. apply (N 1%nat). constructor. constructor.
  - right. pose proof (eof_call U l M H) as C. rewrite E in C. inversion C. reflexivity.
Qed.

Lemma laid_bare : forall U d fs, rows U Laid d [] fs -> rows U Bare d [] fs.
Proof.
  intros U d fs H. inversion H; subst.
  - apply RW_eof. discriminate.
  - eapply RW_item; eauto.
  - destruct H0; discriminate.
  - destruct H0 as [X|[X|(X & _)]]; discriminate.
Qed.
Lemma mid_noted : forall U d o fs, o <> [] -> rows U Mid d o fs -> rows U Noted d o fs.
Proof.
  intros U d o fs O H. inversion H; subst.
  - apply RW_eof. discriminate.
  - eapply RW_item; eauto 6.
  - congruence.
  - apply RW_comment; auto.
Qed.

Lemma dedent_faces : forall k, map face (repeat dedent_token k) = repeat (T_Dedent, NoPayload) k.
Proof. induction k as [|k IH]; [reflexivity|]. cbn [repeat map]. rewrite IH. reflexivity. Qed.
Lemma dedent_no_eof : forall k, Forall (fun t => tk_kind t <> T_EOF) (repeat dedent_token k).
Proof. induction k; cbn; constructor; auto. discriminate. Qed.

Theorem rows_all : forall U text n fs, (length fs <= n)%nat -> forall l, lx_ok text l -> Forall closers (lx_parens l) -> glimpse U l fs ->
  forall d, length (lx_indents l) = S d ->
  (mid_line l -> rows U Mid d (map close_kind (lx_parens l)) fs) /\
  (mid_line l -> hd NUL (lx_rest l) = CR \/ hd NUL (lx_rest l) = LF \/ hd NUL (lx_rest l) = NUL ->
     rows U Noted d (map close_kind (lx_parens l)) fs) /\
  (mid_line l -> lx_parens l = [] -> significant (hd NUL (lx_rest l)) \/ hd NUL (lx_rest l) = NUL -> rows U Laid d [] fs) /\
  (lx_bol l = true -> lx_parens l = [] -> rows U Start d [] fs).
Proof.
  intros U text n. induction n as [|n IH]; intros fs LE l OK CL R d D.
  { exfalso. destruct R; cbn in LE; lia. }
  pose proof R as R0. destruct R0 as [l|l t l' fs E KT R1].
  { split; [|split; [|split]]; intros; try (apply RW_eof; discriminate). apply RW_same, RW_eof. discriminate. }
  assert (RI : tk_kind t = T_EOF /\ face t :: fs = [face t] \/ tk_kind t <> T_EOF /\ exists fs', face t :: fs = face t :: fs' /\ glimpse U l' fs') by (right; eauto).
  clear KT R1. set (fs0 := face t :: fs) in *. clearbody fs0. clear fs. rename fs0 into fs.
  (* one call that is no layout: what the rest looks like *)
  assert (ITEM : layout_kind (tk_kind t) = false -> lx_pending l = 0%Z -> forall s, s = Bare \/ s = Laid \/ s = Mid \/ (s = Noted /\ map close_kind (lx_parens l) <> []) ->
     rows U s d (map close_kind (lx_parens l)) fs).
  { intros L P s S. destruct (call_item U text l t l' OK E L CL P) as (F & ST & NE & CL' & OK' & M' & LN).
    destruct RI as [(K & _)|(_ & fs' & -> & R')]; [rewrite K in L; discriminate|].
    rewrite F in *. eapply RW_item; eauto.
    apply (IH fs') with (l := l'); auto; [cbn in LE; lia|lia]. }
  assert (COMMENT : tk_kind t = T_TypeComment -> lx_pending l = 0%Z -> forall s, s = Bare \/ s = Mid \/ (s = Noted /\ map close_kind (lx_parens l) <> []) ->
     rows U s d (map close_kind (lx_parens l)) fs).
  { intros K P s S. destruct (call_comment U text l t l' OK E K P) as (F & OK' & M' & PA & LN & H).
    destruct RI as [(K' & _)|(_ & fs' & -> & R')]; [congruence|].
    rewrite F. apply RW_comment; auto. rewrite <- PA.
    apply (IH fs') with (l := l'); auto; [cbn in LE; lia|rewrite PA; auto|lia]. }
  assert (NEWLINE : tk_kind t = T_Newline -> lx_pending l = 0%Z -> lx_parens l = [] /\ forall s, s = Mid \/ s = Noted ->
     rows U s d [] fs).
  { intros K P. destruct (call_newline U text l t l' OK E K P) as (F & OK' & B' & P' & PA & PA' & LN). split; [exact PA|]. intros s S.
    destruct RI as [(K' & _)|(_ & fs' & -> & R')]; [congruence|].
    rewrite F. apply RW_newline; auto.
    apply (IH fs') with (l := l'); auto; [cbn in LE; lia|rewrite PA'; constructor|lia]. }
  assert (EOF : tk_kind t = T_EOF -> forall s o, s <> Start -> rows U s d o fs).
  { intros K s o S. destruct RI as [(_ & ->)|(K' & _)]; [|congruence]. unfold face. rewrite K. apply RW_eof. exact S. }
  split; [|split; [|split]].
  - intros M. destruct (mid_no_layout U text l t l' OK M E) as (N1 & N2).
    destruct (layout_kinds (tk_kind t)) as [K|[K|[K|[K|[K|K]]]]]; try congruence.
    + apply ITEM; auto. apply M.
    + destruct (NEWLINE K (proj2 M)) as (PA & X). rewrite PA. apply X; auto.
    + apply EOF; auto. discriminate.
    + apply COMMENT; auto. apply M.
  - intros M H. destruct (lx_parens l) as [|c ps] eqn:PA.
    + destruct (line_end_call U l t l' M PA H E) as [K|K].
      * destruct (NEWLINE K (proj2 M)) as (_ & X). apply X; auto.
      * apply EOF; auto. discriminate.
    + destruct (mid_no_layout U text l t l' OK M E) as (N1 & N2).
      assert (NN : map close_kind (c :: ps) <> []) by discriminate.
      destruct (layout_kinds (tk_kind t)) as [K|[K|[K|[K|[K|K]]]]]; try congruence.
      * apply ITEM; auto. apply M.
      * destruct (NEWLINE K (proj2 M)) as (X & _). discriminate X.
      * apply EOF; auto. discriminate.
      * apply COMMENT; auto. apply M.
  - intros M PA [SG|NU].
    + destruct (mid_inversion U l t l' M SG E) as (m & TA & _). apply token_kinds in TA. rewrite PA in ITEM. apply ITEM; auto. apply M.
    + apply EOF; [|discriminate]. pose proof (eof_call U l M NU) as C. rewrite E in C. inversion C. reflexivity.
  - intros B PA. destruct (blanks_split (lx_rest l)) as (w & r & k & RR & CO & NB).
    pose proof (ok_bol _ _ OK B) as P.
    destruct (column_of_column _ _ CO) as (KC & FW).
    destruct (ignorable (hd NUL r)) eqn:IG.
    + apply ignorable_spec in IG. pose proof (blank_line_call U l w r B P RR FW IG) as C. rewrite E in C. destruct C as (C1 & C2 & C3 & _).
      apply RW_same. rewrite PA in *. destruct (layout_kinds (tk_kind t)) as [K|[K|[K|[K|[K|K]]]]]; try congruence.
      * apply ITEM; auto.
      * apply EOF; auto. discriminate.
      * apply COMMENT; auto.
    + assert (NI : ~ blank_line_start (hd NUL r)) by (intros X; apply ignorable_spec in X; congruence).
      destruct (line_start_call U text l w r k OK B PA RR CO NB NI) as (L1 & L2 & L3). cbv zeta in L1, L2, L3.
      assert (SN : significant (hd NUL r) \/ hd NUL r = NUL).
      { destruct (N.eq_dec (hd NUL r) NUL) as [X|X]; [right; exact X|left]. unfold significant. unfold blank_line_start in NI. cbn [In] in NI. unfold blank_char in NB.
        intuition congruence. }
      assert (AFTER : forall is fs' d', (length fs' <= n)%nat -> levels_ok is ->
        Forall (fun c => (c <= 4 * (lx_pos l + length w))%nat) is -> (length is <= lx_pos l + length w + 1)%nat -> length is = S d' ->
        glimpse U (at_position text (lx_pos l + length w) [] is) fs' -> rows U Laid d' [] fs').
      { intros is fs' d' L LV FC LC LD RD.
        apply (IH fs' L (at_position text (lx_pos l + length w) [] is)); auto.
        - eapply lx_ok_at; eauto.
        - constructor.
        - split; reflexivity.
        - rewrite (at_rest text l w r is OK RR). exact SN. }
      pose proof (ok_cols _ _ OK) as FC. pose proof (ok_levels _ _ OK) as LV. pose proof (ok_count _ _ OK) as CN. rewrite P in CN. cbn [Z.opp Z.max] in CN.
      assert (FC' : Forall (fun c => (c <= 4 * (lx_pos l + length w))%nat) (lx_indents l)).
      { eapply Forall_impl; [|exact FC]. cbn. intros. lia. }
      destruct (lt_eq_lt_dec k (hd 0%nat (lx_indents l))) as [[LT|EQ]|GT].
      * destruct (L3 LT) as (popped & kept & l1 & EP & PN & FP & HK & CA & GK & IK).
        assert (DL : (length popped < length (lx_indents l))%nat).
        { rewrite EP, app_length. enough (kept <> []) by (destruct kept; [congruence|cbn; lia]). intros ->.
          rewrite app_nil_r in EP. destruct LV as (up & EU & _). rewrite EP in EU. rewrite EU in FP.
          apply Forall_app in FP as (_ & FP). inversion FP; subst. lia. }
        destruct (calls_glimpse _ _ _ _ CA (dedent_no_eof _) _ R) as [(j & J & ->)|(fs' & -> & R1)].
        { rewrite repeat_length in J. destruct (Nat.eq_dec j 0) as [->|JN]; [apply RW_same, RW_eof; discriminate|].
          replace (firstn j (repeat dedent_token (length popped))) with (repeat dedent_token j).
          - rewrite dedent_faces. apply RW_back; [lia|]. apply RW_eof. discriminate.
          - clear - J. revert j J. induction (length popped) as [|m IHm]; intros [|j] J; cbn; try lia; auto. f_equal. apply IHm. lia. }
        rewrite dedent_faces in *.
        assert (LK : levels_ok kept).
        { assert (X : forall a b, a <> [] -> b <> [] -> levels_ok (a ++ b) -> levels_ok b).
          { clear. intros a. induction a as [|x a IHa]; intros b A B H; [congruence|]. cbn [app] in H.
            destruct a as [|y a]; [destruct b as [|z b]; [congruence|]; eapply levels_ok_tail; eauto|].
            apply IHa; auto; [discriminate|]. eapply levels_ok_tail; eauto. }
          destruct kept as [|z kept].
          - exfalso. rewrite app_nil_r in EP. destruct LV as (up & EU & _). rewrite EP in EU. rewrite EU in FP.
            apply Forall_app in FP as (_ & FP). inversion FP; subst. lia.
          - eapply X; [exact PN|discriminate|]. rewrite <- EP. exact LV. }
        pose proof (levels_ok_nonempty _ LK) as KN.
        assert (LL : (length popped + length kept = S d)%nat) by (rewrite <- app_length, <- EP; exact D).
        assert (PL : (0 < length popped)%nat) by (destruct popped; [congruence|cbn; lia]).
        assert (KL : (0 < length kept)%nat) by (destruct kept; [congruence|cbn; lia]).
        apply RW_back; [lia|]. apply (AFTER kept fs').
        -- rewrite app_length, repeat_length in LE. lia.
        -- exact LK.
        -- rewrite EP in FC'. apply Forall_app in FC'. tauto.
        -- lia.
        -- lia.
        -- eapply glimpse_from; [|eassumption]; assumption.
      * apply RW_same, laid_bare.
        set (l2 := at_position text (lx_pos l + length w) [] (lx_indents l)) in *.
        assert (M2 : mid_line l2) by (split; reflexivity).
        assert (OK2 : lx_ok text l2) by (eapply lx_ok_at; eauto; lia).
        rewrite (L1 EQ) in E. fold l2 in E.
        assert (RS : lx_rest l2 = r) by (eapply at_rest; eauto).
        destruct SN as [SG|NU].
        -- rewrite <- RS in SG. destruct (mid_inversion U l2 t l' M2 SG E) as (m & TA & _). apply token_kinds in TA. rewrite PA in ITEM. apply ITEM; auto.
        -- apply EOF; [|discriminate]. rewrite <- RS in NU. pose proof (eof_call U l2 M2 NU) as C. rewrite E in C. inversion C. reflexivity.
      * destruct (L2 GT) as (l1 & E1 & G1 & I1). rewrite E in E1. injection E1 as -> ->.
        destruct RI as [(K & _)|(_ & fs' & -> & R')]; [discriminate K|].
        change (face indent_token) with (T_Indent, NoPayload). apply RW_deeper. apply (AFTER (k :: lx_indents l) fs').
        -- cbn in LE. lia.
        -- apply levels_ok_push; auto.
        -- constructor; auto. rewrite KC. pose proof (column_bound w). lia.
        -- cbn [length]. assert (w <> []) by (intros ->; rewrite KC in GT; cbn in GT; lia). destruct w; [congruence|]. cbn [length]. lia.
        -- cbn. lia.
        -- eapply glimpse_from; [|eassumption]; assumption.
Qed.
