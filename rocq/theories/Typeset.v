(** Tokens written down in the fixed layout are read back. *)
From Coq Require Import ZArith Arith Lia Sorted.
From Verif Require Import Chars SourceBuffer Token Tokenizer LexBasics ScanLemmas LineLemmas
  TokenLemmas NumberLemmas WellFormed CallLemmas CallTheorem LexSpec TokenSpec RenderSpec HistoryProofs TilingProofs MidLine NumberProofs
  ZeroProofs WordProofs StringProofs TokenProofs Compose LayoutProofs RoundTrip ExprSpec ExprPrint PrintSpec SequenceSpec Steady Sheet.

(** ** One call *)
Lemma steady_call : forall U l g w k pay r ps is, steady U w k pay -> Forall blank_char g -> stops (hd NUL r) ->
  mid_line l -> lx_rest l = g ++ w ++ r -> lx_parens l = ps -> lx_indents l = is -> Forall closers ps ->
  forall st', nest [k] (map close_kind ps) = Some st' ->
  exists t l1, get_symbol U l = LOk t l1 /\ tk_kind t = k /\ tk_payload t = pay /\
    mid_line l1 /\ lx_rest l1 = r /\ lx_indents l1 = is /\ map close_kind (lx_parens l1) = st' /\ Forall closers (lx_parens l1).
Proof.
  intros U l g w k pay r ps is PL FG EN M R PA IN CL st' NE.
  destruct PL as ((c & w' & W & SG) & PC & PT).
  assert (NB : ~ blank_char (hd NUL (w ++ r))).
  { rewrite W. cbn. unfold significant in SG. intros [X|X]; tauto. }
  pose proof (gap_call U (length g) g l (w ++ r) (le_n _) M R FG NB) as G.
  set (l0 := seek l (lx_pos l + length g) (w ++ r)) in *.
  assert (M0 : mid_line l0) by exact M.
  destruct (is_closer k) eqn:C.
  - destruct (PC eq_refl) as (c0 & -> & I & ->). destruct (closing_kind _ _ C I) as (I2 & CK).
    cbn [nest] in NE. rewrite C in NE.
    assert (CO : closer_of k = None) by (cbn in I2; repeat destruct I2 as [I2|I2]; try (inversion I2; subst; reflexivity); destruct I2).
    rewrite CO in NE. destruct ps as [|top below]; [discriminate|]. cbn [map] in NE.
    destruct (kind_eqb (close_kind top) k) eqn:KE; [|discriminate]. apply kind_eqb_eq in KE. inversion NE; subst st'.
    inversion CL as [|? ? CT CB]; subst.
    assert (top = c0).
    { apply close_kind_inj; auto. cbn in I2. unfold closers. repeat destruct I2 as [I2|I2]; try (inversion I2; subst; auto); destruct I2. }
    subst top.
    assert (R0 : lx_rest l0 = c0 :: r) by reflexivity.
    assert (P0 : lx_parens l0 = c0 :: below) by (cbn; auto).
    pose proof (closer_call U l0 c0 _ r below M0 R0 I2 P0) as E. rewrite E in G. cbn [RoundTrip.bare without_trivia tk_kind tk_span tk_payload] in G.
    apply bare_ok in G. destruct G as (t' & G & K1 & K2). cbn in K1, K2.
    eexists t', _. split; [exact G|]. split; [exact K1|]. split; [exact K2|].
    split; [exact M0|]. split; [reflexivity|]. split; [reflexivity|]. split; [reflexivity|exact CB].
  - pose proof (PT r EN) as TA.
    pose proof (token_complete U l0 k (length w) pay M0 TA C) as E. rewrite E in G.
    cbn [RoundTrip.bare without_trivia tk_kind tk_span tk_payload] in G. apply bare_ok in G. destruct G as (t' & G & K1 & K2). cbn in K1, K2.
    eexists t', _. split; [exact G|]. split; [exact K1|]. split; [exact K2|].
    split; [exact M0|]. split; [|split; [exact IN|]].
    + unfold lx_rest, set_parens, after. cbn [lx_cur cu_rest]. change (lx_rest l0) with (w ++ r). apply skipn_app_len.
    + change (lx_parens (set_parens (after l0 (length w)) ?x)) with x. change (lx_parens l0) with (lx_parens l). rewrite PA. cbn [nest] in NE. rewrite C in NE.
      assert (C1 : closers #")" /\ closers #"]" /\ closers #"}") by (unfold closers; tauto). destruct C1 as (C1 & C2 & C3).
      destruct k; cbn in NE; inversion NE; subst; split; try reflexivity; auto; constructor; auto.
Qed.

Lemma steady_face : forall U w k pay, steady U w k pay -> (if carries k then pay else NoPayload) = pay.
Proof.
  intros U w k pay (_ & _ & H). specialize (H [] ltac:(right; right; reflexivity)).
  destruct (carries k) eqn:C; [reflexivity|]. destruct H; try reflexivity; discriminate C.
Qed.

(** A line that is skipped over (inside brackets, or starting with a comment): the call goes on as in the middle of a line. *)
Lemma inner_step_blank : forall l b x, hd NUL (lx_rest l) <> CR -> hd NUL (lx_rest l) <> LF ->
  inner_step l [] false = inr x -> inner_step l [] b = inr x.
Proof.
  intros l b x N1 N2 H. pose proof (inner_step_case l [] false) as C1. rewrite H in C1.
  revert H. destruct l as [[p r] s ps bo pe is]. unfold lx_rest in *. cbn [lx_cur cu_rest] in *.
  unfold inner_step, lx_char, lx_pos, cu_char, cu_peek, lx_rest.
  cbn [lx_cur cu_pos cu_rest set_start set_cur lx_start lx_parens lx_bol lx_pending lx_indents set_bol]. cbv zeta.
  destruct (hd NUL r =? SP); [destruct (cu_run_while _ _) as [w c]; discriminate|]. destruct (hd NUL r =? TAB); [discriminate|].
  destruct (hd NUL r =? #"#").
  { destruct (cu_run_while comment_char _) as [w c] eqn:RW. destruct (starts_with _ w); [auto|discriminate]. }
  destruct (hd NUL r =? NUL); [auto|].
  assert (NN : newline_at (peek3 r) = None).
  { unfold peek3, newline_at. rewrite (eqb_false _ _ N1), (eqb_false _ _ N2). reflexivity. }
  rewrite NN. destruct (continuation_at (peek3 r)) as [[[[n c1] c2]|]|]; auto. discriminate.
Qed.

Definition past (l : lexer) (n : nat) (r : str) : lexer :=
  mk_lexer (mk_cursor (lx_pos l + n) r) (lx_pos l + n) (lx_parens l) false (lx_pending l) (lx_indents l).

Lemma skip_line_call : forall U l w r x, lx_bol l = true -> lx_pending l = 0%Z -> lx_rest l = w ++ r -> Forall blank_char w ->
  ~ blank_char (hd NUL r) -> lx_parens l <> [] \/ ignorable (hd NUL r) = true -> hd NUL r <> CR -> hd NUL r <> LF ->
  inner_step (past l (length w) r) [] false = inr x ->
  get_symbol U l = get_symbol U (past l (length w) r).
Proof.
  intros U l w r x B P R F NB SK N1 N2 E.
  assert (M : mid_line (past l (length w) r)) by (split; [reflexivity|exact P]).
  rewrite (mid_return U _ x M E).
  assert (BL : begin_line (set_start l (lx_pos l)) false = inl (set_start (past l (length w) r) (lx_pos l), ignorable (hd NUL r))).
  { pose proof (begin_line_case (set_start l (lx_pos l)) false) as C.
    destruct C as [Hb | w' r' Hb Hr Hw Hh Hd | w' r' Hb Hr Hw Hh Hbl Hi Hp].
    - cbn in Hb. congruence.
    - change (lx_rest (set_start l (lx_pos l))) with (lx_rest l) in Hr. rewrite R in Hr.
      destruct (blanks_unique _ _ _ _ Hr (blank_chars _ F) (not_blank_char _ NB) Hw Hh) as (-> & ->). reflexivity.
    - exfalso. change (lx_rest (set_start l (lx_pos l))) with (lx_rest l) in Hr. rewrite R in Hr.
      destruct (blanks_unique _ _ _ _ Hr (blank_chars _ F) (not_blank_char _ NB) Hw Hh) as (-> & ->).
      change (lx_parens (set_start l (lx_pos l))) with (lx_parens l) in Hp. destruct SK; congruence. }
  unfold get_symbol. cbv zeta.
  pose proof (scan_S (length (lx_rest (set_start l (lx_pos l)))) (start_state l)) as S1.
  cbn [start_state st_outer st_lex st_tr st_blank] in S1. rewrite S1.
  unfold scan_step. cbn [start_state st_outer st_lex st_tr st_blank]. rewrite BL.
  unfold pending_token. change (lx_pending (set_start (past l (length w) r) (lx_pos l))) with (lx_pending l). rewrite P. cbn [Z.ltb Z.compare].
  rewrite inner_step_start. rewrite (inner_step_blank _ (ignorable (hd NUL r)) x); auto.
Qed.

(** ** The levels of the written text *)
Fixpoint ladder (d : nat) : list nat := match d with O => [0%nat] | S d' => d :: ladder d' end.
Lemma ladder_hd : forall d, hd 0%nat (ladder d) = d.
Proof. intros [|d]; reflexivity. Qed.
Lemma ladder_length : forall d, length (ladder d) = S d.
Proof. induction d as [|d IH]; [reflexivity|]. cbn [ladder length]. lia. Qed.
Lemma ladder_le : forall d, Forall (fun c => (c <= d)%nat) (ladder d).
Proof. induction d as [|d IH]; cbn; constructor; auto. eapply Forall_impl; [|exact IH]. cbn. intros. lia. Qed.
Lemma ladder_ok : forall d, levels_ok (ladder d).
Proof. induction d as [|d IH]; [apply levels_ok_init|]. cbn [ladder]. apply levels_ok_push; auto. rewrite ladder_hd. lia. Qed.
Lemma ladder_split : forall d j popped kept, ladder d = popped ++ kept -> kept <> [] -> (j <= d)%nat -> Forall (fun c => (j < c)%nat) popped -> (hd 0 kept <= j)%nat ->
  kept = ladder j /\ length popped = (d - j)%nat.
Proof.
  induction d as [|d IH]; intros j popped kept E K J F H.
  - destruct popped as [|a popped].
    + cbn in E. subst kept. replace j with 0%nat by lia. auto.
    + exfalso. cbn in E. destruct popped; destruct kept; try discriminate; congruence.
  - destruct popped as [|a popped].
    + cbn [app] in E. subst kept. cbn [ladder hd] in H. replace j with (S d) by lia. cbn [length]. split; [reflexivity|lia].
    + cbn [ladder app] in E. injection E as <- E. inversion F as [|? ? F1 F2]; subst.
      destruct (IH j popped kept E K ltac:(lia) F2 H) as (A & B). split; [exact A|]. cbn [length]. lia.
Qed.

Lemma column_spaces : forall d, column_of (repeat SP d) d.
Proof.
  induction d as [|d IH]; [constructor|]. replace (repeat SP (S d)) with (repeat SP d ++ [SP]).
  - replace (S d) with (d + 1)%nat by lia. constructor. exact IH.
  - clear. induction d as [|d IH]; [reflexivity|]. cbn [repeat app] in *. rewrite IH. reflexivity.
Qed.
Lemma blank_spaces : forall d, Forall blank_char (repeat SP d).
Proof. induction d; cbn; constructor; auto. left. reflexivity. Qed.

(** ** What the written text looks like *)
Lemma typeset_item : forall p d k pay fs, layout_kind k = false ->
  typeset p d ((k, pay) :: fs) = lead p d ++ token_text (k, pay) ++ typeset Inside d fs.
Proof. intros p d k pay fs L. destruct k; try discriminate L; reflexivity. Qed.
Lemma typeset_back : forall k d fs, typeset AtStart d (repeat (T_Dedent, NoPayload) k ++ fs) = typeset AtStart (d - k) fs.
Proof.
  induction k as [|k IH]; intros d fs; cbn [repeat app]; [f_equal; lia|]. cbn [typeset fst]. rewrite IH. f_equal. lia.
Qed.

Lemma mid_stops : forall U d o fs, rows U Mid d o fs -> stops (hd NUL (typeset Inside d fs)).
Proof.
  intros U d o fs H. inversion H; subst.
  - right. right. reflexivity.
  - rewrite typeset_item by assumption. left. reflexivity.
  - right. left. reflexivity.
  - left. reflexivity.
Qed.
Lemma noted_stops : forall U d o fs, rows U Noted d o fs -> let c := hd NUL (typeset AfterComment d fs) in c = CR \/ c = LF \/ c = NUL.
Proof.
  intros U d o fs H. inversion H; subst.
  - right. right. reflexivity.
  - rewrite typeset_item by assumption. right. left. reflexivity.
  - right. left. reflexivity.
  - right. left. reflexivity.
Qed.
Lemma laid_text : forall U d o fs, rows U Laid d o fs -> exists x, typeset AtStart d fs = repeat SP d ++ x /\ (significant (hd NUL x) \/ x = []).
Proof.
  intros U d o fs H. inversion H; subst.
  - exists []. split; [cbn; rewrite app_nil_r; reflexivity|]. right. reflexivity.
  - rewrite typeset_item by assumption. eexists. split; [reflexivity|]. left.
    match goal with S : steady _ _ _ _ |- _ => destruct S as ((c & w' & -> & SG) & _) end. exact SG.
  - destruct H0; discriminate.
  - destruct H0 as [X|[X|(X & _)]]; discriminate.
Qed.

Definition type_mark : str := $"# type:".
Lemma mark_run : forall r, hd NUL r = CR \/ hd NUL r = LF \/ hd NUL r = NUL -> comment_run type_mark r.
Proof.
  intros r H. split; [reflexivity|]. split; [|exact H]. repeat constructor; try discriminate.
Qed.
Lemma mark_call : forall U l r, mid_line l -> lx_rest l = type_mark ++ r -> hd NUL r = CR \/ hd NUL r = LF \/ hd NUL r = NUL ->
  get_symbol U l = LOk (Tok T_TypeComment (Range (lx_pos l) (lx_pos l + length type_mark)) None (Text type_mark)) (after l (length type_mark)).
Proof. intros U l r M R H. rewrite (comment_call U l type_mark r M R (mark_run r H)). reflexivity. Qed.
Lemma comment_inner : forall l w r, lx_rest l = w ++ r -> comment_run w r -> starts_with $"# type:" w = true ->
  exists x, inner_step l [] false = inr x.
Proof.
  intros l w r R H ST. destruct (comment_run_chars _ _ H) as (F & S & w' & W).
  destruct l as [[p q] s ps bo pe is]. cbn in R. subst q.
  unfold inner_step, lx_char, lx_pos, cu_char, lx_rest.
  cbn [lx_cur cu_pos cu_rest set_start set_cur lx_start lx_parens lx_bol lx_pending lx_indents]. cbv zeta.
  assert (HW : hd NUL (w ++ r) = #"#") by (rewrite W; reflexivity). rewrite HW.
  change (#"#" =? SP) with false. change (#"#" =? TAB) with false. rewrite N.eqb_refl. cbv iota.
  unfold cu_run_while. cbn [cu_rest cu_pos]. rewrite run_while_app by auto. cbv iota beta.
  rewrite ST. cbv iota. eauto.
Qed.
Lemma mark_inner : forall l r, lx_rest l = type_mark ++ r -> hd NUL r = CR \/ hd NUL r = LF \/ hd NUL r = NUL ->
  exists x, inner_step l [] false = inr x.
Proof. intros l r R H. apply (comment_inner l type_mark r R (mark_run r H)). reflexivity. Qed.
Lemma significant_inner : forall l, significant (hd NUL (lx_rest l)) -> exists x, inner_step l [] false = inr x.
Proof.
  intros l S. pose proof (inner_step_case l [] false) as C. unfold significant in S.
  destruct (inner_step l [] false) as [s|x]; [|eauto]. exfalso.
  inversion C as [w r c Hr Hw Hf Hc | w r Hr Hh Hf Hs Ht | | | n c1 c2 HN HB | | n c1 c2 HC | | ]; subst; clear C.
  - destruct w as [|a w]; [congruence|]. rewrite Hr in S. cbn in S. cbn in Hf. apply andb_prop in Hf as (Hf & _). apply N.eqb_eq in Hf. subst a. intuition.
  - destruct w as [|a w]; [discriminate Hh|]. cbn in Hh. subst a. rewrite Hr in S. cbn in S. intuition.
  - apply newline_at_spec in HN as (HN & _). apply newline_at_coded in HN as (_ & a & q & HR & HH). rewrite HR in S. cbn in S. intuition.
  - apply continuation_at_spec in HC as (q & m & HR & _). rewrite HR in S. cbn in S. intuition.
Qed.

(** ** Reading it back *)
Definition stands (s : spot) (d : nat) (fs : list (kind * payload)) (l : lexer) : Prop :=
  match s with
  | Start | Bare => lx_bol l = true /\ lx_parens l = [] /\ lx_rest l = typeset AtStart d fs
  | Laid => mid_line l /\ typeset AtStart d fs = repeat SP d ++ lx_rest l
  | Mid => mid_line l /\ lx_rest l = typeset Inside d fs
  | Noted => mid_line l /\ lx_rest l = typeset AfterComment d fs
  end.

Lemma call_ok : forall U text l t l', lx_ok text l -> get_symbol U l = LOk t l' -> lx_ok text l'.
Proof. intros U text l t l' OK E. pose proof (get_symbol_ok U text l OK) as C. rewrite E in C. apply C. Qed.

(** The beginning of a line that carries a token or nothing. *)
Lemma line_begins : forall U text l d x, lx_ok text l -> lx_bol l = true -> lx_parens l = [] -> lx_indents l = ladder d ->
  forall d', lx_rest l = repeat SP d' ++ x -> significant (hd NUL x) \/ x = [] -> (d' <= S d)%nat ->
  exists l2, lx_ok text l2 /\ mid_line l2 /\ lx_rest l2 = x /\ lx_parens l2 = [] /\ lx_indents l2 = ladder d' /\
    forall fs, shows U l2 fs -> fs <> [] ->
      shows U l ((if (d' <? S d)%nat then repeat (T_Dedent, NoPayload) (d - d') else [(T_Indent, NoPayload)]) ++ fs).
Proof.
  intros U text l d x OK B PA IN d' R HX LE.
  assert (NB : ~ blank_char (hd NUL x)).
  { destruct HX as [S| ->]; [|intros [X|X]; discriminate]. unfold significant in S. intros [X|X]; tauto. }
  assert (NI : ~ blank_line_start (hd NUL x)).
  { destruct HX as [S| ->]; [|cbn; intuition discriminate]. unfold significant in S. unfold blank_line_start. cbn [In]. intuition congruence. }
  destruct (line_start_call U text l (repeat SP d') x d' OK B PA R (column_spaces d') NB NI) as (L1 & L2 & L3). cbv zeta in L1, L2, L3.
  rewrite IN, ladder_hd in L1, L2, L3.
  pose proof (ok_cols _ _ OK) as FC. pose proof (ok_count _ _ OK) as CN. rewrite (ok_bol _ _ OK B), IN, ladder_length in CN. cbn [Z.opp Z.max] in CN.
  set (l2 := at_position text (lx_pos l + length (repeat SP d')) [] (ladder d')).
  assert (LR : length (repeat SP d') = d') by apply repeat_length.
  assert (OK2 : lx_ok text l2).
  { apply (lx_ok_at text l (repeat SP d') x); auto.
    - apply ladder_ok.
    - eapply Forall_impl; [|apply ladder_le]. cbn. intros. rewrite LR. lia.
    - rewrite ladder_length, LR. lia. }
  assert (M2 : mid_line l2) by (split; reflexivity).
  exists l2. split; [exact OK2|]. split; [exact M2|]. split; [eapply at_rest; eauto|]. split; [reflexivity|]. split; [reflexivity|].
  intros fs RD NE.
  destruct (lt_eq_lt_dec d' d) as [[LT|EQ]|GT].
  - destruct (L3 LT) as (popped & kept & l1 & EP & PN & FP & HK & CA & GK & IK).
    assert (KN : kept <> []).
    { intros ->. rewrite app_nil_r in EP. rewrite <- EP in FP. clear - FP LT. revert FP. induction d as [|d IH]; intros F; cbn [ladder] in F; inversion F; subst; [lia|].
      destruct (Nat.eq_dec d' d) as [->|]; [|apply IH; auto; lia]. destruct d; cbn [ladder] in *; match goal with X : Forall _ (_ :: _) |- _ => inversion X; subst; lia end. }
    destruct (ladder_split d d' popped kept EP KN ltac:(lia) FP HK) as (-> & LP).
    destruct (Nat.ltb_spec d' (S d)); [|lia]. rewrite <- LP.
    assert (RL : shows U l1 fs) by (apply (shows_from U l2); [symmetry; exact GK|exact RD]).
    clear - CA RL. revert RL CA. generalize (length popped). intros n RL. revert l. induction n as [|n IH]; intros l CA; cbn [repeat] in *; inversion CA; subst; [exact RL|].
    cbn [app]. change (T_Dedent, NoPayload) with (face dedent_token) at 1. eapply RD_more; [eassumption|discriminate|]. apply IH. assumption.
  - subst d'. destruct (Nat.ltb_spec d (S d)); [|lia]. rewrite Nat.sub_diag. cbn [repeat app].
    apply (shows_from U l2); [symmetry; apply L1; reflexivity|exact RD].
  - assert (d' = S d) by lia. subst d'. rewrite Nat.ltb_irrefl. destruct (L2 GT) as (l1 & E1 & G1 & I1).
    cbn [app]. change (T_Indent, NoPayload) with (face indent_token). eapply RD_more; [exact E1|discriminate|].
    apply (shows_from U l2); [symmetry; exact G1|exact RD].
Qed.

Lemma shows_nonempty : forall U l fs, shows U l fs -> fs <> [].
Proof. intros U l fs H. destruct H; discriminate. Qed.

Theorem typeset_shows : forall U s d o fs, rows U s d o fs -> forall text l, lx_ok text l -> lx_indents l = ladder d ->
  Forall closers (lx_parens l) -> map close_kind (lx_parens l) = o -> stands s d fs l -> shows U l fs.
Proof.
  intros U s d o fs H. induction H as [s d o NS|s d o k pay o' fs SS ST LK NE H IH|s d fs SS H IH|s d o fs SS H IH|d fs H IH|d fs H IH|d k fs KD H IH];
    intros text l OK IN CL PK SD.
  - (* the end *)
    assert (EOF : forall l, mid_line l -> lx_rest l = [] -> shows U l [(T_EOF, NoPayload)]).
    { intros l0 M R. pose proof (eof_call U l0 M ltac:(rewrite R; reflexivity)) as E.
      exact (RD_end U l0 _ _ E eq_refl). }
    destruct s; [congruence| | | |]; cbn [stands] in SD.
    + destruct SD as (B & PA & R). cbn [typeset fst] in R. rewrite <- (app_nil_r (repeat SP d)) in R.
      destruct (line_begins U text l d [] OK B PA IN d R (or_intror eq_refl) ltac:(lia)) as (l2 & _ & M2 & R2 & _ & _ & X).
      specialize (X _ (EOF l2 M2 R2) ltac:(discriminate)). destruct (Nat.ltb_spec d (S d)); [|lia]. rewrite Nat.sub_diag in X. exact X.
    + destruct SD as (M & R). apply EOF; auto. cbn [typeset fst] in R. rewrite <- (app_nil_r (repeat SP d)) in R at 1. apply app_inv_head in R. congruence.
    + destruct SD as (M & R). apply EOF; auto.
    + destruct SD as (M & R). apply EOF; auto.
  - (* a token *)
    assert (ITEM : forall l g, lx_ok text l -> lx_indents l = ladder d -> Forall closers (lx_parens l) -> map close_kind (lx_parens l) = o ->
       mid_line l -> Forall blank_char g -> lx_rest l = g ++ token_text (k, pay) ++ typeset Inside d fs -> shows U l ((k, pay) :: fs)).
    { intros l0 g OK0 IN0 CL0 PK0 M0 FG R0. rewrite <- PK0 in NE.
      destruct (steady_call U l0 g _ k pay _ _ _ ST FG (mid_stops _ _ _ _ H) M0 R0 eq_refl eq_refl CL0 o' NE) as (t & l1 & E & K1 & K2 & M1 & R1 & I1 & P1 & C1).
      assert (F : face t = (k, pay)) by (unfold face; rewrite K1, K2, (steady_face _ _ _ _ ST); reflexivity).
      rewrite <- F. eapply RD_more; [exact E|rewrite K1; intros X; rewrite X in LK; discriminate|].
      apply (IH text l1); auto; [eapply call_ok; eauto|congruence|]. split; auto. }
    assert (TX : forall p, typeset p d ((k, pay) :: fs) = lead p d ++ token_text (k, pay) ++ typeset Inside d fs) by (intros; apply typeset_item; exact LK).
    assert (SG : forall r, significant (hd NUL (token_text (k, pay) ++ r))).
    { intros r. destruct ST as ((c & w' & -> & SG) & _). exact SG. }
    destruct s; cbn [stands] in SD; try (exfalso; intuition discriminate).
    + destruct SD as (B & PA & R). rewrite TX in R. cbn [lead] in R.
      destruct (line_begins U text l d _ OK B PA IN d R (or_introl (SG _)) ltac:(lia)) as (l2 & OK2 & M2 & R2 & P2 & I2 & X).
      assert (RD : shows U l2 ((k, pay) :: fs)).
      { apply (ITEM l2 []); auto; rewrite ?P2; auto. rewrite <- PK, PA. reflexivity. }
      specialize (X _ RD ltac:(discriminate)). destruct (Nat.ltb_spec d (S d)); [|lia]. rewrite Nat.sub_diag in X. exact X.
    + destruct SD as (M & R). rewrite TX in R. cbn [lead] in R. apply app_inv_head in R. apply (ITEM l []); auto.
    + destruct SD as (M & R). rewrite TX in R. apply (ITEM l [SP]); auto. constructor; [left; reflexivity|constructor].
    + destruct SD as (M & R). rewrite TX in R. cbn [lead app] in R.
      destruct SS as [SS|[SS|[SS|(_ & ON)]]]; try discriminate.
      assert (PN : lx_parens l <> []) by (intros X; rewrite X in PK; cbn in PK; congruence).
      set (l1 := set_bol (after l 1) true).
      assert (LB : line_break_as_coded (lx_rest l) 1) by (rewrite R; constructor; constructor).
      pose proof (newline_call U l 1 M LB) as NC. fold l1 in NC. destruct (lx_parens l) as [|c0 ps0] eqn:PL; [congruence|].
      assert (R1 : lx_rest l1 = token_text (k, pay) ++ typeset Inside d fs).
      { unfold l1, lx_rest, after. cbn [set_bol lx_cur cu_rest]. change (skipn 1 (lx_rest l) = token_text (k, pay) ++ typeset Inside d fs). rewrite R. reflexivity. }
      set (X := token_text (k, pay) ++ typeset Inside d fs) in *.
      pose proof (SG (typeset Inside d fs)) as SX. fold X in SX.
      destruct (significant_inner (past l1 (length (@nil char)) X) SX) as (x & EX).
      assert (SC : get_symbol U l1 = get_symbol U (past l1 0 X)).
      { apply (skip_line_call U l1 [] X x); auto.
        - exact (proj2 M).
        - unfold significant in SX. intros [Y|Y]; tauto.
        - left. change (lx_parens l1) with (lx_parens l). rewrite PL. discriminate.
        - unfold significant in SX. tauto.
        - unfold significant in SX. tauto. }
      (* the two calls differ in the trivia alone *)
      destruct (steady_call U (past l1 0 X) [] _ k pay _ _ _ ST (Forall_nil _) (mid_stops _ _ _ _ H) ltac:(split; [reflexivity|exact (proj2 M)]) eq_refl eq_refl eq_refl)
        with (st' := o') as (t & l3 & E & K1 & K2 & M1 & R3 & I1 & P1 & C1).
      * change (lx_parens (past l1 0 X)) with (lx_parens l). rewrite PL. exact CL.
      * change (lx_parens (past l1 0 X)) with (lx_parens l). rewrite PL, PK. exact NE.
      * rewrite SC, E in NC. cbn [first_trivia] in NC.
        match type of NC with _ = LOk ?tt _ => assert (F : face tt = (k, pay)) by (unfold face; cbn [tk_kind tk_payload]; rewrite K1, K2, (steady_face _ _ _ _ ST); reflexivity); assert (KK : tk_kind tt = k) by exact K1 end.
        rewrite <- F. eapply RD_more; [exact NC|rewrite KK; intros Y; rewrite Y in LK; discriminate|].
        apply (IH text l3); auto; [eapply call_ok; [exact OK|exact NC]|rewrite I1; exact IN|]. split; auto.
  - (* a new line *)
    assert (NL : forall l, lx_ok text l -> lx_indents l = ladder d -> mid_line l -> lx_parens l = [] -> lx_rest l = LF :: typeset AtStart d fs -> shows U l ((T_Newline, NoPayload) :: fs)).
    { intros l0 OK0 IN0 M0 P0 R0.
      assert (LB : line_break_as_coded (lx_rest l0) 1) by (rewrite R0; constructor; constructor).
      pose proof (newline_call U l0 1 M0 LB) as NC. rewrite P0 in NC.
      match type of NC with _ = LOk ?tt _ => change (T_Newline, NoPayload) with (face tt) end.
      eapply RD_more; [exact NC|discriminate|].
      apply (IH text); [eapply call_ok; [exact OK0|exact NC]|exact IN0| | |].
      - change (Forall closers (lx_parens l0)). rewrite P0. constructor.
      - change (map close_kind (lx_parens l0) = []). rewrite P0. reflexivity.
      - split; [reflexivity|]. split; [exact P0|]. unfold lx_rest, after. cbn [set_bol lx_cur cu_rest].
        change (skipn 1 (lx_rest l0) = typeset AtStart d fs). rewrite R0. reflexivity. }
    assert (PA : lx_parens l = []) by (destruct (lx_parens l); [reflexivity|discriminate PK]).
    destruct SS as [-> | ->]; destruct SD as (M & R); apply NL; auto.
  - (* a type comment *)
    pose proof (noted_stops _ _ _ _ H) as NS. cbv zeta in NS.
    set (X := typeset AfterComment d fs) in *.
    assert (TX : forall p, typeset p d ((T_TypeComment, NoPayload) :: fs) = lead p d ++ type_mark ++ X) by reflexivity.
    assert (NB : ~ blank_char (hd NUL (type_mark ++ X))) by (intros [Y|Y]; discriminate).
    assert (MARK : forall l0, RoundTrip.bare (get_symbol U l) = RoundTrip.bare (get_symbol U l0) ->
       mid_line l0 -> lx_rest l0 = type_mark ++ X -> lx_indents l0 = ladder d -> lx_parens l0 = lx_parens l ->
       shows U l ((T_TypeComment, NoPayload) :: fs)).
    { intros l0 G M0 R0 I0 P0. rewrite (mark_call U l0 X M0 R0 NS) in G. cbn [RoundTrip.bare without_trivia tk_kind tk_span tk_payload] in G.
      apply bare_ok in G. destruct G as (t' & E & K1 & K2). cbn in K1, K2.
      assert (F : face t' = (T_TypeComment, NoPayload)) by (unfold face; rewrite K1; reflexivity).
      rewrite <- F. eapply RD_more; [exact E|rewrite K1; discriminate|].
      apply (IH text); [eapply call_ok; [exact OK|exact E]|exact I0| | |].
      - change (Forall closers (lx_parens l0)). rewrite P0. exact CL.
      - change (map close_kind (lx_parens l0) = o). rewrite P0. exact PK.
      - split; [exact M0|]. unfold lx_rest, after. cbn [lx_cur cu_rest].
        change (skipn (length type_mark) (lx_rest l0) = X). rewrite R0. apply skipn_app_len. }
    destruct s; cbn [stands] in SD; try (exfalso; intuition discriminate).
    + destruct SD as (B & PA & R). rewrite TX in R. cbn [lead] in R.
      destruct (mark_inner (past l (length (repeat SP d)) (type_mark ++ X)) X eq_refl NS) as (x & EX).
      pose proof (skip_line_call U l (repeat SP d) (type_mark ++ X) x B (ok_bol _ _ OK B) R (blank_spaces d) NB (or_intror eq_refl) ltac:(discriminate) ltac:(discriminate) EX) as SC.
      apply (MARK (past l (length (repeat SP d)) (type_mark ++ X))).
      * rewrite SC. reflexivity.
      * split; [reflexivity|]. exact (ok_bol _ _ OK B).
      * reflexivity.
      * exact IN.
      * reflexivity.
    + destruct SD as (M & R). rewrite TX in R. cbn [lead] in R.
      pose proof (gap_call U 1 [SP] l (type_mark ++ X) ltac:(cbn; lia) M R ltac:(constructor; [left; reflexivity|constructor]) NB) as G.
      apply (MARK (seek l (lx_pos l + length [SP]) (type_mark ++ X))); auto.
    + destruct SD as (M & R). rewrite TX in R. cbn [lead app] in R.
      destruct SS as [SS|[SS|(_ & ON)]]; try discriminate.
      assert (PN : lx_parens l <> []) by (intros Y; rewrite Y in PK; cbn in PK; congruence).
      set (l1 := set_bol (after l 1) true).
      assert (LB : line_break_as_coded (lx_rest l) 1) by (rewrite R; constructor; constructor).
      pose proof (newline_call U l 1 M LB) as NC. fold l1 in NC.
      assert (NC' : RoundTrip.bare (get_symbol U l) = RoundTrip.bare (get_symbol U l1)) by (rewrite NC; destruct (lx_parens l); [congruence|apply bare_first]).
      assert (R1 : lx_rest l1 = [] ++ type_mark ++ X).
      { unfold l1, lx_rest, after. cbn [set_bol lx_cur cu_rest]. change (skipn 1 (lx_rest l) = type_mark ++ X). rewrite R. reflexivity. }
      destruct (mark_inner (past l1 (length (@nil char)) (type_mark ++ X)) X eq_refl NS) as (x & EX).
      pose proof (skip_line_call U l1 [] (type_mark ++ X) x eq_refl (proj2 M) R1 (Forall_nil _) NB (or_intror eq_refl) ltac:(discriminate) ltac:(discriminate) EX) as SC.
      apply (MARK (past l1 (length (@nil char)) (type_mark ++ X))).
      * rewrite NC', SC. reflexivity.
      * split; [reflexivity|]. exact (proj2 M).
      * reflexivity.
      * exact IN.
      * reflexivity.
  - (* a line at the same depth *)
    apply (IH text l); auto.
  - (* a deeper line *)
    destruct SD as (B & PA & R). cbn [typeset fst] in R.
    destruct (laid_text _ _ _ _ H) as (x & TX & HX). rewrite TX in R.
    destruct (line_begins U text l d x OK B PA IN (S d) R HX ltac:(lia)) as (l2 & OK2 & M2 & R2 & P2 & I2 & X).
    assert (RD : shows U l2 fs).
    { apply (IH text l2); auto; rewrite ?P2; auto. split; auto. rewrite R2. exact TX. }
    specialize (X _ RD (shows_nonempty _ _ _ RD)). rewrite Nat.ltb_irrefl in X. exact X.
  - (* back to an enclosing block *)
    destruct SD as (B & PA & R). rewrite typeset_back in R.
    destruct (laid_text _ _ _ _ H) as (x & TX & HX). rewrite TX in R.
    destruct (line_begins U text l d x OK B PA IN (d - k) R HX ltac:(lia)) as (l2 & OK2 & M2 & R2 & P2 & I2 & X).
    assert (RD : shows U l2 fs).
    { apply (IH text l2); auto; rewrite ?P2; auto. split; auto. rewrite R2. exact TX. }
    specialize (X _ RD (shows_nonempty _ _ _ RD)). destruct (Nat.ltb_spec (d - k) (S d)); [|lia]. replace (d - (d - k))%nat with k in X by lia. exact X.
Qed.

Theorem written_out_shows : forall U text fs, shows U (lexer_new text) fs -> shows U (lexer_new (written_out fs)) fs.
Proof.
  intros U text fs R.
  destruct (rows_all U text (length fs) fs (le_n _) (lexer_new text) (lx_ok_new text) ltac:(constructor) (shows_glimpse _ _ _ R) 0 eq_refl) as (_ & _ & _ & X).
  eapply (typeset_shows U Start 0 [] fs (X eq_refl eq_refl) (written_out fs)); try reflexivity.
  - apply lx_ok_new.
  - constructor.
  - split; [reflexivity|]. split; reflexivity.
Qed.
