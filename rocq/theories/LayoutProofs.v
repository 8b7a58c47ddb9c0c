(** The beginning of a line, closing brackets, and characters that start nothing. *)
From Coq Require Import ZArith Arith Lia.
From Verif Require Import Chars SourceBuffer Token Tokenizer LexBasics ScanLemmas LineLemmas
  TokenLemmas NumberLemmas WellFormed CallLemmas CallTheorem LexSpec TokenSpec HistoryProofs TilingProofs MidLine NumberProofs
  ZeroProofs WordProofs StringProofs TokenProofs Compose.

(** ** Characters that start nothing *)
Lemma no_operator : forall r, (forall w k, In (w, k) operator_table -> ~ prefix_of w r) -> operator_at (peek3 r) = None.
Proof.
  intros r H. destruct (operator_at (peek3 r)) as [[k n]|] eqn:E; auto. exfalso.
  apply operator_at_longest in E. destruct E as ((I & P & _) & _). exact (H _ _ I P).
Qed.

Lemma not_quote : forall c, ~ quote c -> is_quote c = false.
Proof. intros c H. destruct (is_quote c) eqn:E; auto. apply quote_spec in E. contradiction. Qed.

Lemma unknown_call : forall U l, mid_line l -> starts_nothing U (lx_rest l) ->
  get_symbol U l = LErr (lexical_error (lx_pos l) (hd NUL (lx_rest l))) (after l 0).
Proof.
  intros U l M (c & r' & R & NI & NO & NB & NW & ND & NQ).
  assert (SG : significant c) by (unfold significant; cbn in NI; repeat split; intros ->; apply NI; tauto).
  destruct M as (B & P). rewrite (get_symbol_mid U l c r' B P R SG).
  pose proof (no_operator _ NO) as O. 
  unfold lex_token, cu_peek.
  change (cu_rest (lx_cur (set_start (set_start l (lx_pos l)) (lx_pos (set_start l (lx_pos l)))))) with (lx_rest l).
  destruct (peek3 (lx_rest l)) as [[a b] d] eqn:PK. unfold peek3 in PK. inversion PK as [[Ea Eb Ed]]. rewrite Ea, Eb, Ed, O.
  rewrite R in Ea. cbn [hd] in Ea. subst a.
  assert (OC : opener_at c = None /\ closer_at c = None).
  { unfold opener_at, closer_at. cbn in NB.
    repeat match goal with |- context [c =? ?x] => destruct (N.eqb_spec c x); [exfalso; apply NB; auto 10|] end. auto. }
  destruct OC as (O1 & O2). rewrite O1, O2.
  assert (W : ident_start U c = false).
  { destruct (ident_start U c) eqn:E; auto. apply word_start_ident in E. contradiction. }
  rewrite W.
  assert (D0 : (c =? #"0") = false /\ is_nonzero_digit c = false).
  { rewrite is_digit_cases in ND. apply orb_false_iff in ND. exact ND. }
  destruct D0 as (D0 & D1). rewrite D0, D1.
  assert (DOT : (c =? #".") = false).
  { apply N.eqb_neq. intros ->. apply (NO [#"."] PyDot); [cbn; tauto|]. exists r'. exact R. }
  rewrite DOT. cbn [andb]. rewrite (not_quote _ NQ).
  unfold lx_char, cu_char. change (cu_rest (lx_cur (set_start (set_start l (lx_pos l)) (lx_pos (set_start l (lx_pos l)))))) with (lx_rest l).
  rewrite R. unfold lexical_error, after. cbn [hd skipn]. rewrite R, Nat.add_0_r.
  f_equal. unfold set_start, lx_pos, lx_rest in *. cbn. destruct l as [[p q] s ps bo pe is]. cbn in *. subst. reflexivity.
Qed.

(** The same call again. *)
Lemma after_0_again : forall l, lx_rest (after l 0) = lx_rest l /\ lx_pos (after l 0) = lx_pos l /\ after (after l 0) 0 = after l 0.
Proof. intros l. unfold after, lx_rest, lx_pos. cbn. rewrite !Nat.add_0_r. auto. Qed.

Lemma unknown_stays : forall U l, mid_line l -> starts_nothing U (lx_rest l) ->
  let e := lexical_error (lx_pos l) (hd NUL (lx_rest l)) in
  get_symbol U l = LErr e (after l 0) /\ get_symbol U (after l 0) = LErr e (after l 0) /\ lx_pos (after l 0) = lx_pos l.
Proof.
  intros U l M S. cbv zeta. destruct (after_0_again l) as (A & B & C).
  split; [apply unknown_call; auto|]. split; [|exact B].
  rewrite unknown_call; rewrite ?A, ?B, ?C; auto. 
Qed.

(** ** Closing brackets *)
Lemma closer_call : forall U l c k r below, mid_line l -> lx_rest l = c :: r ->
  In (c, k) [(#")", PyRightParen); (#"]", PyRightBracket); (#"}", PyRightCurly)] -> lx_parens l = c :: below ->
  get_symbol U l = LOk (Tok k (Range (lx_pos l) (lx_pos l + 1)) None NoPayload) (set_parens (after l 1) below).
Proof.
  intros U l c k r below (B & P) R I PA.
  assert (SG : significant c) by (cbn in I; repeat destruct I as [I|I]; try (inversion I; subst; repeat split; discriminate); destruct I).
  rewrite (get_symbol_mid U l c r) by auto.
  unfold lex_token, cu_peek, peek3.
  change (cu_rest (lx_cur (set_start (set_start l (lx_pos l)) (lx_pos (set_start l (lx_pos l)))))) with (lx_rest l).
  unfold lx_skip. rewrite R. cbn [hd tl].
  assert (O : forall b d, operator_at (c, b, d) = None).
  { intros b d. clear - I. cbn in I. repeat destruct I as [I|I]; try (inversion I; subst; reflexivity); destruct I. }
  rewrite O, cu_skip_eq.
  change (cu_rest (lx_cur (set_start (set_start l (lx_pos l)) (lx_pos (set_start l (lx_pos l)))))) with (lx_rest l).
  unfold after. rewrite R. 
  cbn in I. repeat destruct I as [I|I]; inversion I; subst; cbn -[Nat.add]; rewrite PA; reflexivity.
Qed.

(** ** The beginning of a line *)
Lemma column_of_column : forall w k, column_of w k -> k = column w /\ Forall blank_char w.
Proof.
  intros w k H. induction H as [|w k H (IH & F)|w k k' H (IH & F) T].
  - split; [reflexivity|constructor].
  - unfold column in *. rewrite fold_left_app. cbn [fold_left]. split.
    + unfold col_step at 1. cbn. congruence.
    + apply Forall_app. split; auto. constructor; [left; auto|constructor].
  - unfold column in *. rewrite fold_left_app. cbn [fold_left]. split.
    + unfold col_step at 1. change (TAB =? SP) with false. cbv iota. rewrite <- IH. unfold tab_size.
      destruct T as (A & B & m & ->). rewrite Nat.mul_comm. f_equal.
      assert (Q : k = (4 * (m - 1) + (k - 4 * (m - 1)))%nat) by lia.
      assert (D : (k / 4 = m - 1)%nat) by (symmetry; apply (Nat.div_unique k 4 (m - 1) (k - 4 * (m - 1))); lia). lia.
    + apply Forall_app. split; auto. constructor; [right; auto|constructor].
Qed.

Lemma column_of_total : forall w, Forall blank_char w -> column_of w (column w).
Proof.
  intros w. induction w as [|c w IH] using rev_ind; intros F; [constructor|].
  apply Forall_app in F. destruct F as (F & FC). inversion FC as [|? ? [->| ->] _]; subst.
  - unfold column. rewrite fold_left_app. cbn [fold_left]. unfold col_step at 1. cbn. apply CO_blank. auto.
  - unfold column. rewrite fold_left_app. cbn [fold_left]. unfold col_step at 1. change (TAB =? SP) with false. cbv iota.
    eapply CO_tab; [apply IH; auto|]. unfold next_tab, tab_size. fold (column w).
    pose proof (Nat.div_mod (column w) 4 ltac:(lia)) as D. pose proof (Nat.mod_upper_bound (column w) 4 ltac:(lia)).
    split; [lia|]. split; [lia|]. exists (column w / 4 + 1)%nat. lia.
Qed.

Lemma blank_chars : forall w, Forall blank_char w -> forallb is_blank w = true.
Proof.
  intros w F. apply forallb_forall. rewrite Forall_forall in F. intros c I. destruct (F c I); subst; reflexivity.
Qed.
Lemma not_blank_char : forall c, ~ blank_char c -> is_blank c = false.
Proof.
  intros c H. unfold is_blank. apply orb_false_iff. rewrite !N.eqb_neq. unfold blank_char in H. tauto.
Qed.
Lemma ignorable_spec : forall c, ignorable c = true <-> blank_line_start c.
Proof.
  intros c. unfold ignorable, blank_line_start. rewrite !orb_true_iff, !N.eqb_eq. cbn [In].
  intuition (subst; auto).
Qed.
Lemma not_ignorable : forall c, ~ blank_line_start c -> ignorable c = false.
Proof. intros c H. destruct (ignorable c) eqn:E; auto. apply ignorable_spec in E. contradiction. Qed.

Lemma blanks_unique : forall w r w' r' : str, w ++ r = w' ++ r' -> forallb is_blank w = true -> is_blank (hd NUL r) = false ->
  forallb is_blank w' = true -> is_blank (hd NUL r') = false -> w = w' /\ r = r'.
Proof.
  induction w as [|c w IH]; intros r [|c' w'] r' E F N F' N'; cbn [app forallb hd] in *.
  - auto.
  - subst r. cbn in N. apply andb_prop in F'. destruct F'; congruence.
  - subst r'. cbn in N'. apply andb_prop in F. destruct F; congruence.
  - inversion E as [[E1 E2]]. subst c'. apply andb_prop in F, F'. destruct (IH _ _ _ E2 ltac:(tauto) N ltac:(tauto) N') as (-> & ->).
    auto.
Qed.

Lemma line_start : forall l w r, lx_bol l = true -> lx_rest l = w ++ r -> Forall blank_char w -> ~ blank_char (hd NUL r) ->
  ~ blank_line_start (hd NUL r) -> lx_parens l = [] ->
  begin_line l false = match layout_update (set_bol (goto l (lx_start l) (lx_pos l + length w) r) false) (column w) with
       | inl l3 => inl (l3, false) | inr e => inr e end.
Proof.
  intros l w r B R F N I P. pose proof (begin_line_case l false) as C. apply blank_chars in F. apply not_blank_char in N. apply not_ignorable in I.
  destruct C as [Hb | w' r' Hb Hr Hw Hh Hd | w' r' Hb Hr Hw Hh Hbl Hi Hp].
  - congruence.
  - rewrite R in Hr. destruct (blanks_unique _ _ _ _ Hr F N Hw Hh) as (-> & ->). cbn [orb] in Hd. destruct Hd; congruence.
  - rewrite R in Hr. destruct (blanks_unique _ _ _ _ Hr F N Hw Hh) as (-> & ->). reflexivity.
Qed.

Lemma pending_dedents : forall U n l, lx_bol l = false -> lx_pending l = (- Z.of_nat n)%Z ->
  exists l', calls U l (repeat dedent_token n) l' /\
    (n <> 0%nat -> lx_start l' = lx_pos l) /\ (n = 0%nat -> l' = l) /\
    lx_cur l' = lx_cur l /\ lx_parens l' = lx_parens l /\ lx_bol l' = false /\
    lx_pending l' = 0%Z /\ lx_indents l' = lx_indents l.
Proof.
  intros U n. induction n as [|n IH]; intros l B P.
  - exists l. repeat split; auto; try constructor. congruence.
  - set (l1 := set_layout (set_start l (lx_pos l)) (lx_pending l + 1) (lx_indents l)).
    assert (E : get_symbol U l = LOk dedent_token l1).
    { unfold get_symbol. cbv zeta. set (l0 := set_start l (lx_pos l)).
      pose proof (scan_S (length (lx_rest l0)) (St true l0 [] false)) as S1. cbn [st_outer st_lex st_tr st_blank] in S1. rewrite S1.
      unfold scan_step. cbn [st_outer st_lex st_tr st_blank]. unfold begin_line. change (lx_bol l0) with (lx_bol l). rewrite B.
      unfold pending_token. change (lx_pending l0) with (lx_pending l). rewrite P.
      destruct (Z.ltb_spec (- Z.of_nat (S n)) 0); [|lia]. unfold l1. rewrite P. reflexivity. }
    destruct (IH l1) as (l' & C & S1 & S2 & A1 & A2 & A3 & A4 & A5).
    + exact B.
    + cbn [l1 set_layout lx_pending]. rewrite P. lia.
    + exists l'. split; [cbn [repeat]; econstructor; [exact E|exact C]|].
      split; [|split; [congruence|]].
      * intros _. destruct n; [rewrite S2 by auto; reflexivity|rewrite S1 by auto; reflexivity].
      * repeat split; auto.
Qed.

(** What a call returns at the beginning of a line that is not blank, outside brackets. *)
Lemma line_start_call : forall U text l w r k, lx_ok text l -> lx_bol l = true -> lx_parens l = [] ->
  lx_rest l = w ++ r -> column_of w k -> ~ blank_char (hd NUL r) -> ~ blank_line_start (hd NUL r) ->
  let p := (lx_pos l + length w)%nat in
  let top := hd 0%nat (lx_indents l) in
  (k = top -> get_symbol U l = get_symbol U (at_position text p [] (lx_indents l))) /\
  ((top < k)%nat -> exists l', get_symbol U l = LOk indent_token l' /\
     get_symbol U l' = get_symbol U (at_position text p [] (k :: lx_indents l)) /\ lx_indents l' = k :: lx_indents l) /\
  ((k < top)%nat -> exists popped kept l', lx_indents l = popped ++ kept /\ popped <> [] /\
     Forall (fun c => (k < c)%nat) popped /\ (hd 0 kept <= k)%nat /\
     calls U l (repeat dedent_token (length popped)) l' /\
     get_symbol U l' = get_symbol U (at_position text p [] kept) /\ lx_indents l' = kept).
Proof.
  intros U text l w r k OK B PA R CO NB NI p top.
  destruct (column_of_column _ _ CO) as (-> & F).
  pose proof (line_start (set_start l (lx_pos l)) w r B R F NB NI PA) as BL.
  pose proof (ok_bol _ _ OK B) as PE. pose proof (ok_levels _ _ OK) as LV.
  set (l2 := set_bol (goto (set_start l (lx_pos l)) (lx_start (set_start l (lx_pos l))) (lx_pos (set_start l (lx_pos l)) + length w) r) false) in *.
  destruct (layout_update_case l2 (column w) LV) as (l3 & E & C). rewrite E in BL.
  assert (RR : r = skipn p text).
  { pose proof (ok_at _ _ OK) as AT. rewrite R in AT. apply at_app in AT. destruct AT as (AT & _). exact AT. }
  assert (SC : forall x, scan (S (length (lx_rest (set_start l (lx_pos l))))) true (set_start l (lx_pos l)) [] false = x ->
     x = match scan_step (start_state l) with
         | inl s' => scan (length (lx_rest (set_start l (lx_pos l)))) (st_outer s') (st_lex s') (st_tr s') (st_blank s')
         | inr r => r end).
  { intros x <-. exact (scan_S (length (lx_rest (set_start l (lx_pos l)))) (start_state l)). }
  assert (G : forall l4 is, lx_cur l4 = mk_cursor p r -> lx_parens l4 = [] -> lx_bol l4 = false -> lx_pending l4 = 0%Z -> lx_indents l4 = is ->
    get_symbol U l4 = get_symbol U (at_position text p [] is)).
  { intros [cu s4 ps4 b4 pe4 is4] is X1 X2 X3 X4 X5. cbn in X1, X2, X3, X4, X5. unfold at_position. rewrite <- RR. subst cu ps4 b4 pe4 is4. reflexivity. }
  destruct C as [HY|HY|popped is' p' HY HP HF HH HE HL].
  - change (hd 0%nat (lx_indents l2)) with top in HY.
    split; [intros _|split; intros X; exfalso; unfold top in *; lia].
    rewrite <- (G l2) by (try reflexivity; auto).
    unfold get_symbol. cbv zeta. rewrite (SC _ eq_refl). unfold scan_step at 1. cbn [start_state st_outer st_lex st_tr st_blank].
    rewrite BL. unfold pending_token. change (lx_pending l2) with (lx_pending l). rewrite PE. cbn [Z.ltb Z.compare].
    pose proof (scan_S (length (lx_rest (set_start l2 (lx_pos l2)))) (start_state l2)) as S2.
    cbn [start_state st_outer st_lex st_tr st_blank] in S2. rewrite S2.
    change (St true (set_start l2 (lx_pos l2)) [] false) with (start_state l2).
    rewrite (scan_step_mid l2) by (split; [reflexivity|exact PE]).
    destruct (inner_step l2 [] false) as [s'|x] eqn:EI; [|reflexivity].
    pose proof (inner_step_consumes _ _ _ _ EI) as LT.
    assert (LL : (length (lx_rest l2) <= length (lx_rest l))%nat).
    { change (lx_rest l2) with r. rewrite R, app_length. lia. }
    assert (MF : scan (length (lx_rest (set_start l (lx_pos l)))) (st_outer s') (st_lex s') (st_tr s') (st_blank s')
               = scan (length (lx_rest (set_start l2 (lx_pos l2)))) (st_outer s') (st_lex s') (st_tr s') (st_blank s')).
    { change (lx_rest (set_start l (lx_pos l))) with (lx_rest l). change (lx_rest (set_start l2 (lx_pos l2))) with (lx_rest l2).
      rewrite <- (scan_more_fuel (length (lx_rest l2)) s' (length (lx_rest l) - length (lx_rest l2))) by lia. f_equal. lia. }
    rewrite MF. reflexivity.
  - change (hd 0%nat (lx_indents l2)) with top in HY.
    split; [intros X; lia|]. split; [intros _|intros X; lia].
    change (lx_pending l2) with (lx_pending l) in BL. rewrite PE in BL. 
    eexists. split; [|split].
    + unfold get_symbol. cbv zeta. rewrite (SC _ eq_refl). unfold scan_step. cbn [start_state st_outer st_lex st_tr st_blank].
      rewrite BL. unfold pending_token. cbn [set_layout lx_pending Z.add Z.ltb Z.compare]. reflexivity.
    + apply G; reflexivity || auto.
    + reflexivity.
  - change (hd 0%nat (lx_indents l2)) with top in HY. change (lx_indents l2) with (lx_indents l) in *.
    change (lx_pending l2) with (lx_pending l) in HE. rewrite PE in HE.
    split; [intros X; lia|]. split; [intros X; lia|intros _].
    assert (PN : popped <> []).
    { intros ->. cbn [app] in HP. unfold top in HY. rewrite HP in HY. lia. }
    destruct popped as [|x popped]; [congruence|]. cbn [length] in HE.
    set (l4 := set_layout (set_layout l2 p' is') (p' + 1) is').
    assert (E1 : get_symbol U l = LOk dedent_token l4).
    { unfold get_symbol. cbv zeta. rewrite (SC _ eq_refl). unfold scan_step. cbn [start_state st_outer st_lex st_tr st_blank].
      rewrite BL. unfold pending_token. cbn [set_layout lx_pending]. destruct (Z.ltb_spec p' 0); [|lia]. reflexivity. }
    destruct (pending_dedents U (length popped) l4) as (l' & C & S1 & S2 & A1 & A2 & A3 & A4 & A5).
    + reflexivity.
    + cbn [l4 set_layout lx_pending]. lia.
    + exists (x :: popped), is', l'. repeat split; auto; try discriminate.
      * cbn [length repeat]. econstructor; eauto.
      * apply G; auto.
        -- rewrite A2. exact PA.
Qed.

(** ** Blank lines *)

(** From a blank line on, within the same call, nothing is done to the levels. *)
Lemma blank_line_call : forall U l w r, lx_bol l = true -> lx_pending l = 0%Z ->
  lx_rest l = w ++ r -> Forall blank_char w -> blank_line_start (hd NUL r) ->
  match get_symbol U l with
  | LOk t l' => tk_kind t <> T_Newline /\ tk_kind t <> T_Indent /\ tk_kind t <> T_Dedent /\
                lx_indents l' = lx_indents l /\ lx_pending l' = 0%Z
  | LErr e l' => lx_indents l' = lx_indents l /\ lx_pending l' = 0%Z
  | LFuel => False
  end.
Proof.
  intros U l w r B P R F I.
  assert (NB : ~ blank_char (hd NUL r)).
  { intros [X|X]; rewrite X in I; cbn in I; repeat destruct I as [I|I]; try discriminate; destruct I. }
  set (J := fun s : st => lx_pending (st_lex s) = 0%Z /\ lx_indents (st_lex s) = lx_indents l /\
     (s = start_state l \/ st_blank s = true)).
  assert (LD : forall s l1 b1, J s -> line_done s l1 b1 ->
     lx_pending l1 = 0%Z /\ lx_indents l1 = lx_indents l /\ b1 = true).
  { intros s l1 b1 (J1 & J2 & J3) LD. unfold line_done in LD. destruct (st_outer s) eqn:O.
    - destruct LD as (BL & PE). split; auto. 
      assert (Q : line_case (st_lex s) (st_blank s) (inl (l1, b1))) by (rewrite <- BL; apply begin_line_case).
      remember (inl (l1, b1)) as z eqn:Z. destruct Q as [Hb | w' r' Hb Hr Hw Hh Hd | w' r' Hb Hr Hw Hh Hbl Hi Hp].
      + inversion Z; subst. split; auto. destruct J3 as [->|J3]; auto. cbn in Hb. congruence.
      + inversion Z; subst. split; [exact J2|]. destruct J3 as [->|J3]; [|rewrite J3; reflexivity].
        cbn in Hr. change (lx_rest (set_start l (lx_pos l))) with (lx_rest l) in Hr. rewrite R in Hr.
        destruct (blanks_unique _ _ _ _ Hr (blank_chars _ F) (not_blank_char _ NB) Hw Hh) as (-> & ->).
        apply ignorable_spec in I. rewrite I. apply orb_true_r.
      + exfalso. destruct J3 as [->|J3]; [|congruence].
        cbn in Hr. change (lx_rest (set_start l (lx_pos l))) with (lx_rest l) in Hr. rewrite R in Hr.
        destruct (blanks_unique _ _ _ _ Hr (blank_chars _ F) (not_blank_char _ NB) Hw Hh) as (-> & ->).
        apply ignorable_spec in I. congruence.
    - destruct LD as (-> & ->). repeat split; auto. destruct J3 as [->|J3]; [discriminate|auto]. }
  destruct (get_symbol_invariant U l J) as (s & JS & FC).
  - repeat split; auto.
  - intros s s' l1 b1 JS LDs C. destruct (LD s l1 b1 JS LDs) as (A1 & A2 & A3).
    inversion C; subst; cbn; repeat split; auto.
  - destruct FC as [e l1 Ho Hb | l1 b1 t l2 Ho Hb Hp | l1 b1 r0 LDs C | l1 b1 c q r0 LDs Hr N1 N2 N3 N4 N5 N6 N7 TC LT].
    + exfalso. assert (Q : line_case (st_lex s) (st_blank s) (inr (e, l1))) by (rewrite <- Hb; apply begin_line_case).
      remember (inr (e, l1)) as z eqn:Z. destruct Q as [Hb' | w' r' Hb' Hr Hw Hh Hd | w' r' Hb' Hr Hw Hh Hbl Hi Hp]; try discriminate.
      destruct JS as (_ & _ & [->|J3]); [|congruence].
      cbn in Hr. change (lx_rest (set_start l (lx_pos l))) with (lx_rest l) in Hr. rewrite R in Hr.
      destruct (blanks_unique _ _ _ _ Hr (blank_chars _ F) (not_blank_char _ NB) Hw Hh) as (-> & ->).
      apply ignorable_spec in I. congruence.
    + exfalso.
      assert (Q : line_case (st_lex s) (st_blank s) (inl (l1, b1))) by (rewrite <- Hb; apply begin_line_case).
      assert (PZ : lx_pending l1 = 0%Z).
      { destruct JS as (J1 & J2 & J3).
        remember (inl (l1, b1)) as z eqn:Z. destruct Q as [Hb' | w' r' Hb' Hr Hw Hh Hd | w' r' Hb' Hr Hw Hh Hbl Hi Hpp].
        - inversion Z; subst; auto.
        - inversion Z; subst; auto.
        - exfalso. destruct J3 as [->|J3]; [|congruence].
          cbn in Hr. change (lx_rest (set_start l (lx_pos l))) with (lx_rest l) in Hr. rewrite R in Hr.
          destruct (blanks_unique _ _ _ _ Hr (blank_chars _ F) (not_blank_char _ NB) Hw Hh) as (-> & ->).
          apply ignorable_spec in I. congruence. }
      unfold pending_token in Hp. rewrite PZ in Hp. discriminate.
    + destruct (LD s l1 b1 JS LDs) as (A1 & A2 & A3). subst b1.
      remember (inr (SReturn r0)) as z eqn:Z. destruct C; inversion Z; subst; cbn; repeat split; auto; try discriminate.
    + destruct (LD s l1 b1 JS LDs) as (A1 & A2 & A3). subst b1.
      set (l9 := goto l1 (lx_pos l1) (lx_pos l1) (lx_rest l1)) in *.
      assert (HN : hd NUL (lx_rest l9) <> NUL) by (cbn; rewrite Hr; exact N1).
      assert (AT : at_ (repeat NUL (lx_pos l1) ++ lx_rest l1) (lx_pos l9) (lx_rest l9)).
      { split.
        - change (lx_pos l9) with (lx_pos l1). change (lx_rest l9) with (lx_rest l1).
          rewrite skipn_app, repeat_length, Nat.sub_diag, skipn_all2; [reflexivity|rewrite repeat_length; lia].
        - change (lx_pos l9) with (lx_pos l1). rewrite app_length, repeat_length. lia. }
      pose proof (token_case_move U _ l9 (st_tr s) r0 AT HN TC) as M.
      destruct r0 as [t l'|e l'|]; cbn [token_move] in M.
      * destruct M as (k & ps' & _ & _ & -> & _ & _ & _ & LK). cbn. repeat split; auto; intros X'; rewrite X' in LK; discriminate.
      * destruct M as (k & _ & ->). cbn. auto.
      * exact M.
Qed.
