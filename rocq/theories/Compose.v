(** A call in the middle of a line, read from left to right: blanks, comments, continuations and
    line breaks are recorded as trivia of what follows. *)
From Coq Require Import ZArith Arith Lia.
From Verif Require Import Chars SourceBuffer Token Tokenizer LexBasics ScanLemmas LineLemmas
  TokenLemmas NumberLemmas WellFormed CallLemmas CallTheorem LexSpec HistoryProofs TilingProofs MidLine NumberProofs.

Definition add_trivia (x : trivia) (r : scanned) : scanned :=
  match r with SReturn r => SReturn (first_trivia x r) | SBreak l tr => SBreak l (x :: tr) end.

Lemma finish_first : forall k sp tr pl x l,
  LOk (Tok k sp (finish_trivia (x :: tr)) pl) l = first_trivia x (LOk (Tok k sp (finish_trivia tr) pl) l).
Proof. intros. unfold first_trivia. cbn [tk_kind tk_span tk_trivia tk_payload]. destruct tr; reflexivity. Qed.

Definition quiet (s : st) : Prop :=
  lx_pending (st_lex s) = 0%Z /\ (st_outer s = true -> st_blank s = true \/ lx_parens (st_lex s) <> []).

Lemma inner_step_first : forall l tr b x,
  inner_step l (x :: tr) b = match inner_step l tr b with
                             | inl s => inl (St (st_outer s) (st_lex s) (x :: st_tr s) (st_blank s))
                             | inr r => inr (add_trivia x r)
                             end.
Proof.
  intros l tr b x. unfold inner_step.
  repeat match goal with
  | |- context [if ?b then _ else _] => destruct b eqn:?; auto
  | |- context [match ?x with pair _ _ => _ end] => destruct x eqn:?; auto
  | |- context [match ?x with Some _ => _ | None => _ end] => destruct x eqn:?; auto
  end; cbn [add_trivia]; rewrite <- finish_first; reflexivity.
Qed.

Lemma begin_line_quiet : forall s, quiet s -> st_outer s = true ->
  exists l1 b1, begin_line (st_lex s) (st_blank s) = inl (l1, b1) /\ lx_pending l1 = 0%Z /\
    lx_parens l1 = lx_parens (st_lex s) /\ lx_indents l1 = lx_indents (st_lex s) /\ (st_blank s = true -> b1 = true).
Proof.
  intros [o l tr b] (P & Q) O. cbn [st_outer st_lex st_tr st_blank] in *. subst o. specialize (Q eq_refl).
  pose proof (begin_line_case l b) as C. destruct (begin_line l b) as [[l1 b1]|e] eqn:E.
  - exists l1, b1. split; auto. remember (inl (l1, b1)) as r. destruct C as [Hb | w r Hb Hr Hw Hh Hd | w r Hb Hr Hw Hh Hbl Hi Hp];
      try (inversion Heqr; subst; cbn; repeat split; auto; intros ->; reflexivity).
    exfalso. destruct Q; congruence.
  - exfalso. remember (inr e) as r. destruct C as [Hb | w r Hb Hr Hw Hh Hd | w r Hb Hr Hw Hh Hbl Hi Hp]; try discriminate.
    destruct Q; congruence.
Qed.

Lemma scan_step_first : forall s x, quiet s ->
  scan_step (St (st_outer s) (st_lex s) (x :: st_tr s) (st_blank s))
  = match scan_step s with
    | inl s => inl (St (st_outer s) (st_lex s) (x :: st_tr s) (st_blank s))
    | inr r => inr (add_trivia x r)
    end.
Proof.
  intros s x Q. unfold scan_step. cbn [st_outer st_lex st_tr st_blank].
  destruct (st_outer s) eqn:O.
  - destruct (begin_line_quiet s Q O) as (l1 & b1 & E & P & _). rewrite E.
    unfold pending_token. rewrite P. cbn. apply inner_step_first.
  - apply inner_step_first.
Qed.

Lemma quiet_step : forall s s', quiet s -> scan_step s = inl s' -> quiet s' /\ lx_parens (st_lex s') = lx_parens (st_lex s) /\
  lx_indents (st_lex s') = lx_indents (st_lex s) /\ (st_blank s = true -> st_blank s' = true).
Proof.
  intros s s' Q E. unfold scan_step in E.
  assert (X : exists l1 b1, inner_step l1 (st_tr s) b1 = inl s' /\ lx_pending l1 = 0%Z /\
    lx_parens l1 = lx_parens (st_lex s) /\ lx_indents l1 = lx_indents (st_lex s) /\ (st_blank s = true -> b1 = true)).
  { destruct (st_outer s) eqn:O.
    - destruct (begin_line_quiet s Q O) as (l1 & b1 & EB & P & PA & IN & BL). rewrite EB in E.
      unfold pending_token in E. rewrite P in E. cbn in E. exists l1, b1. auto.
    - exists (st_lex s), (st_blank s). destruct Q as (P & _). auto. }
  destruct X as (l1 & b1 & EI & P & PA & IN & BL). pose proof (inner_step_case l1 (st_tr s) b1) as C. rewrite EI in C.
  unfold quiet. inversion C; subst; cbn [st_outer st_lex st_tr st_blank goto set_bol lx_pending lx_parens lx_indents];
    repeat split; auto; try discriminate.
Qed.

Lemma scan_first : forall fuel s x, quiet s ->
  scan fuel (st_outer s) (st_lex s) (x :: st_tr s) (st_blank s)
  = add_trivia x (scan fuel (st_outer s) (st_lex s) (st_tr s) (st_blank s)).
Proof.
  induction fuel as [|fuel IH]; intros s x Q; [reflexivity|].
  pose proof (scan_S fuel (St (st_outer s) (st_lex s) (x :: st_tr s) (st_blank s))) as S1.
  cbn [st_outer st_lex st_tr st_blank] in S1. rewrite S1, scan_S. rewrite scan_step_first by auto.
  destruct (scan_step s) as [s'|r] eqn:E; [|reflexivity]. cbn [st_outer st_lex st_tr st_blank].
  apply IH. eapply quiet_step; eauto.
Qed.

Lemma inner_step_start : forall l s tr b, inner_step (set_start l s) tr b = inner_step l tr b.
Proof. intros. reflexivity. Qed.

(** Starting a call in a quiet state does not depend on the recorded token start. *)
Lemma scan_start : forall fuel o l p tr b, quiet (St o l tr b) -> (length (lx_rest l) < fuel)%nat ->
  scan fuel o (set_start l p) tr b = scan fuel o l tr b.
Proof.
  intros [|fuel] o l p tr b Q L; [lia|].
  pose proof (scan_S fuel (St o (set_start l p) tr b)) as S1. pose proof (scan_S fuel (St o l tr b)) as S2.
  cbn [st_outer st_lex st_tr st_blank] in S1, S2. rewrite S1, S2. clear S1 S2.
  assert (E : scan_step (St o (set_start l p) tr b) = scan_step (St o l tr b)).
  { unfold scan_step. cbn [st_outer st_lex st_tr st_blank]. destruct o; [|apply inner_step_start].
    destruct (begin_line_quiet (St true l tr b) Q eq_refl) as (l1 & b1 & E & P & PA & IN & _). cbn [st_lex st_blank] in *.
    assert (E2 : begin_line (set_start l p) b = inl (set_start l1 p, b1)).
    { unfold begin_line in *. cbn [set_start lx_bol]. destruct (lx_bol l); [|inversion E; subst; reflexivity].
      change (lx_rest (set_bol (set_start l p) false)) with (lx_rest (set_bol l false)).
      change (lx_pos (set_bol (set_start l p) false)) with (lx_pos (set_bol l false)).
      destruct (indent_column 0 (lx_pos (set_bol l false)) (lx_rest (set_bol l false))) as [c0 cu].
      change (lx_char (set_cur (set_bol (set_start l p) false) cu)) with (lx_char (set_cur (set_bol l false) cu)).
      destruct (blank_check (lx_char (set_cur (set_bol l false) cu)) c0 b) as [b' col] eqn:BC.
      change (lx_parens (set_cur (set_bol (set_start l p) false) cu)) with (lx_parens l).
      change (lx_parens (set_cur (set_bol l false) cu)) with (lx_parens l) in E.
      rewrite blank_check_eq in BC. destruct Q as (_ & Q). specialize (Q eq_refl). cbn [st_blank st_lex] in Q.
      destruct (negb b' && match lx_parens l with [] => true | _ => false end) eqn:N.
      - exfalso. apply andb_prop in N. destruct N as (N1 & N2). destruct Q as [->|Q].
        + cbn in BC. inversion BC; subst. discriminate.
        + destruct (lx_parens l); [congruence|discriminate].
      - inversion E; subst. reflexivity. }
    rewrite E2, E. unfold pending_token. change (lx_pending (set_start l1 p)) with (lx_pending l1). rewrite P. cbn.
    apply inner_step_start. }
  rewrite E. reflexivity.
Qed.

Definition get_from (U : unicode) (r : scanned) : lexed :=
  match r with SReturn r => r | SBreak l tr => lex_token U l tr end.

Lemma get_from_add : forall U x r, get_from U (add_trivia x r) = first_trivia x (get_from U r).
Proof.
  intros U x [r|l tr]; cbn [add_trivia get_from]; [reflexivity|].
  rewrite (lex_token_retrivia U l (x :: tr)), (lex_token_retrivia U l tr).
  destruct (lex_token U l []) as [t l'| |]; cbn [retrivia]; auto. rewrite finish_first. reflexivity.
Qed.

(** One round of the loop, then a fresh call. *)
Lemma get_symbol_first : forall U l s' x, mid_line l -> scan_step (start_state l) = inl s' -> st_tr s' = [x] ->
  st_blank s' = false -> (st_outer s' = true -> lx_parens l <> []) -> (st_outer s' = false -> lx_bol (st_lex s') = false) ->
  get_symbol U l = first_trivia x (get_symbol U (st_lex s')).
Proof.
  intros U l s' x (B & P) E T NB O1 O2.
  change (get_symbol U l) with (get_from U (scan (S (length (lx_rest l))) true (set_start l (lx_pos l)) [] false)).
  pose proof (scan_S (length (lx_rest l)) (start_state l)) as S1. cbn [start_state st_outer st_lex st_tr st_blank] in S1.
  rewrite S1. clear S1. fold (start_state l). rewrite E.
  pose proof (scan_step_consumes _ _ E) as L. cbn [start_state st_lex] in L.
  change (lx_rest (set_start l (lx_pos l))) with (lx_rest l) in L.
  assert (PA : lx_parens (st_lex s') = lx_parens l /\ lx_pending (st_lex s') = 0%Z).
  { pose proof (step_line_done _ _ E) as (l1 & b1 & LD & C). unfold line_done in LD. cbn [start_state st_outer st_lex st_blank] in LD.
    destruct LD as (LD & PE).
    assert (X : l1 = set_start l (lx_pos l)).
    { unfold begin_line in LD. change (lx_bol (set_start l (lx_pos l))) with (lx_bol l) in LD. rewrite B in LD. inversion LD; auto. }
    subst l1. inversion C; subst; cbn; auto. }
  destruct PA as (PA & PE).
  assert (Q : quiet s').
  { split; auto. intros X. right. rewrite PA. auto. }
  destruct s' as [o l3 tr b]. cbn [st_outer st_lex st_tr st_blank] in *. subst tr b.
  pose proof (scan_first (length (lx_rest l)) (St o l3 [] false) x Q) as SF. cbn [st_outer st_lex st_tr st_blank] in SF.
  rewrite SF, get_from_add. f_equal. clear SF.
  change (get_symbol U l3) with (get_from U (scan (S (length (lx_rest l3))) true (set_start l3 (lx_pos l3)) [] false)).
  f_equal.
  assert (FU : scan (length (lx_rest l)) o l3 [] false = scan (S (length (lx_rest l3))) o l3 [] false).
  { pose proof (scan_more_fuel (S (length (lx_rest l3))) (St o l3 [] false) (length (lx_rest l) - S (length (lx_rest l3)))) as MF.
    cbn [st_outer st_lex st_tr st_blank] in MF. rewrite <- MF by lia. f_equal. lia. }
  rewrite FU. clear FU. symmetry. etransitivity; [|apply (scan_start _ _ _ (lx_pos l3)); [exact Q|lia]].
  destruct o; [reflexivity|].
  pose proof (scan_S (length (lx_rest l3)) (St true (set_start l3 (lx_pos l3)) [] false)) as S1.
  pose proof (scan_S (length (lx_rest l3)) (St false (set_start l3 (lx_pos l3)) [] false)) as S2.
  cbn [st_outer st_lex st_tr st_blank] in S1, S2. rewrite S1, S2. 
  assert (SE : scan_step (St true (set_start l3 (lx_pos l3)) [] false) = scan_step (St false (set_start l3 (lx_pos l3)) [] false)).
  { unfold scan_step. cbn [st_outer st_lex st_tr st_blank]. unfold begin_line.
    change (lx_bol (set_start l3 (lx_pos l3))) with (lx_bol l3). rewrite (O2 eq_refl).
    unfold pending_token. change (lx_pending (set_start l3 (lx_pos l3))) with (lx_pending l3). rewrite PE. reflexivity. }
  rewrite SE. reflexivity.
Qed.

Lemma scan_step_mid : forall l, mid_line l -> scan_step (start_state l) = inner_step l [] false.
Proof.
  intros l (B & P). unfold scan_step, start_state. cbn [st_outer st_lex st_tr st_blank]. unfold begin_line.
  change (lx_bol (set_start l (lx_pos l))) with (lx_bol l). rewrite B. unfold pending_token.
  change (lx_pending (set_start l (lx_pos l))) with (lx_pending l). rewrite P. cbn. apply inner_step_start.
Qed.

Lemma mid_first : forall U l l' x, mid_line l -> inner_step l [] false = inl (St false l' [x] false) ->
  lx_bol l' = false -> get_symbol U l = first_trivia x (get_symbol U l').
Proof.
  intros U l l' x M E B.
  rewrite (get_symbol_first U l (St false l' [x] false) x M); auto.
  - rewrite scan_step_mid; auto.
  - discriminate.
Qed.

Lemma mid_return : forall U l r, mid_line l -> inner_step l [] false = inr r -> get_symbol U l = get_from U r.
Proof.
  intros U l r M E.
  change (get_symbol U l) with (get_from U (scan (S (length (lx_rest l))) true (set_start l (lx_pos l)) [] false)).
  pose proof (scan_S (length (lx_rest l)) (start_state l)) as S1. cbn [start_state st_outer st_lex st_tr st_blank] in S1.
  rewrite S1. fold (start_state l). rewrite scan_step_mid by auto. rewrite E. reflexivity.
Qed.

Lemma after_mid : forall l n, mid_line l -> mid_line (after l n).
Proof. intros l n M. exact M. Qed.

Lemma skip_call : forall U l w r c, mid_line l -> lx_rest l = w ++ r -> w <> [] -> Forall (fun x => x = c) w ->
  (c = SP /\ hd NUL r <> SP \/ c = TAB /\ length w = 1%nat) ->
  get_symbol U l = first_trivia (WhiteSpace (lx_pos l) (lx_pos l + length w) c) (get_symbol U (after l (length w))).
Proof.
  intros U l w r c M R N F H.
  assert (E : inner_step l [] false = inl (St false (after l (length w)) [WhiteSpace (lx_pos l) (lx_pos l + length w) c] false)).
  { unfold inner_step, lx_char, cu_char. change (cu_rest (lx_cur l)) with (lx_rest l). rewrite R.
    destruct w as [|a w]; [congruence|]. inversion F as [|? ? Fa Fw]; subst a. cbn [app hd].
    destruct H as [(-> & H)|(-> & H)].
    - cbn [N.eqb]. rewrite N.eqb_refl. unfold cu_run_while. change (cu_rest (lx_cur l)) with (lx_rest l). rewrite R.
      rewrite run_while_app.
      + unfold after. rewrite R, skipn_app_len. reflexivity.
      + cbn. apply forallb_forall. rewrite Forall_forall in Fw. intros y Hy. apply N.eqb_eq. auto.
      + right. apply N.eqb_neq. auto.
    - cbn [length] in H. destruct w; [|discriminate]. cbn [N.eqb]. 
      unfold lx_skip. rewrite cu_skip_eq. change (cu_rest (lx_cur (set_start l (lx_pos l)))) with (lx_rest l).
      unfold after. rewrite R. reflexivity. }
  apply mid_first; auto. apply M.
Qed.

Lemma comment_run_chars : forall w r, comment_run w r ->
  forallb comment_char w = true /\ comment_char (hd NUL r) = false /\ exists w', w = #"#" :: w'.
Proof.
  intros w r (H & F & E). repeat split.
  - apply forallb_forall. rewrite Forall_forall in F. intros x Hx. apply comment_char_spec. auto.
  - destruct E as [->|[->| ->]]; reflexivity.
  - destruct w as [|c w]; [discriminate|]. cbn in H. subst. eauto.
Qed.

Lemma comment_call : forall U l w r, mid_line l -> lx_rest l = w ++ r -> comment_run w r ->
  get_symbol U l =
    if starts_with $"# type:" w
    then LOk (Tok T_TypeComment (Range (lx_pos l) (lx_pos l + length w)) None (Text w)) (after l (length w))
    else first_trivia (Comment (lx_pos l) (lx_pos l + length w) w) (get_symbol U (after l (length w))).
Proof.
  intros U l w r M R H. destruct (comment_run_chars _ _ H) as (F & S & w' & W).
  assert (E : inner_step l [] false = if starts_with $"# type:" w
     then inr (SReturn (LOk (Tok T_TypeComment (Range (lx_pos l) (lx_pos l + length w)) None (Text w)) (after l (length w))))
     else inl (St false (after l (length w)) [Comment (lx_pos l) (lx_pos l + length w) w] false)).
  { destruct l as [[p q] s ps bo pe is]. cbn in R. subst q.
    unfold inner_step, lx_char, lx_pos, cu_char, after, lx_rest, lx_pos.
    cbn [lx_cur cu_pos cu_rest set_start set_cur lx_start lx_parens lx_bol lx_pending lx_indents]. cbv zeta.
    assert (HW : hd NUL (w ++ r) = #"#") by (rewrite W; reflexivity). rewrite HW.
    change (#"#" =? SP) with false. change (#"#" =? TAB) with false. rewrite N.eqb_refl. cbv iota.
    unfold cu_run_while. cbn [cu_rest cu_pos]. rewrite run_while_app by auto. rewrite skipn_app_len.
    destruct (starts_with $"# type:" w); reflexivity. }
  destruct (starts_with $"# type:" w).
  - exact (mid_return _ _ _ M E).
  - apply mid_first; auto. apply M.
Qed.

Lemma eqb_false : forall a b : N, a <> b -> (a =? b) = false.
Proof. intros. now apply N.eqb_neq. Qed.

Lemma line_break_hd : forall r n, line_break r n -> exists c q, r = c :: q /\ (c = CR \/ c = LF).
Proof. intros r n H. destruct H; eauto. Qed.

Lemma continuation_call : forall U l r n, mid_line l -> lx_rest l = BSL :: r -> line_break r n ->
  get_symbol U l = first_trivia
    (LineContinuation (lx_pos l) (lx_pos l + (1 + n)) BSL (hd NUL r) (if Nat.eqb n 2 then LF else SP))
    (get_symbol U (after l (1 + n))).
Proof.
  intros U l r n M R H.
  assert (E : inner_step l [] false = inl (St false (after l (1 + n))
     [LineContinuation (lx_pos l) (lx_pos l + (1 + n)) BSL (hd NUL r) (if Nat.eqb n 2 then LF else SP)] false)).
  { destruct l as [[p q] s ps bo pe is]. cbn in R. subst q.
    unfold inner_step, lx_char, lx_pos, cu_char, cu_peek, lx_skip, after, lx_rest, lx_pos.
    destruct H as [q|q HN|q]; cbn -[cu_skip]; rewrite ?(eqb_false _ _ HN); cbn -[cu_skip]; rewrite ?cu_skip_eq; reflexivity. }
  apply mid_first; auto. apply M.
Qed.

Lemma newline_at_coded : forall r n, line_break_as_coded r n ->
  newline_at (peek3 r) = Some (n, hd NUL r, if Nat.eqb n 3 then LF else SP) /\
  exists c q, r = c :: q /\ (c = CR \/ c = LF).
Proof.
  intros r n H. destruct H as [r|r H]; [split; [reflexivity|eauto]|].
  inversion H; subst.
  - split; [|eauto]. unfold peek3, newline_at. cbn [hd tl]. rewrite (eqb_false _ _ H0). reflexivity.
  - split; [reflexivity|eauto].
Qed.

Lemma newline_inner : forall l n, line_break_as_coded (lx_rest l) n ->
  inner_step l [] false =
  match lx_parens l with
  | [] => inr (SReturn (LOk (Tok T_Newline (Range (lx_pos l) (lx_pos l + n)) None
            (Break (hd NUL (lx_rest l)) (if Nat.eqb n 3 then LF else SP))) (set_bol (after l n) true)))
  | _ => inl (St true (set_bol (after l n) true) [TrNewline (lx_pos l) (lx_pos l + n) CR LF] false)
  end.
Proof.
  intros l n H. destruct (newline_at_coded _ _ H) as (NL & c & q & R & CC).
  assert (X : (c =? SP) = false /\ (c =? TAB) = false /\ (c =? #"#") = false /\ (c =? NUL) = false)
    by (destruct CC; subst; auto).
  destruct X as (X1 & X2 & X3 & X4).
  destruct l as [[p q0] s ps bo pe is]. unfold lx_rest in *. cbn [lx_cur cu_rest] in *. 
  unfold inner_step, lx_char, lx_pos, cu_char, cu_peek, lx_skip.
  cbn [lx_cur cu_pos cu_rest set_start set_cur lx_start lx_parens lx_bol lx_pending lx_indents set_bol]. cbv zeta.
  rewrite NL. subst q0. cbn [hd]. rewrite X1, X2, X3, X4. rewrite cu_skip_eq.
  destruct ps; reflexivity.
Qed.

Lemma newline_call : forall U l n, mid_line l -> line_break_as_coded (lx_rest l) n ->
  get_symbol U l =
  match lx_parens l with
  | [] => LOk (Tok T_Newline (Range (lx_pos l) (lx_pos l + n)) None
            (Break (hd NUL (lx_rest l)) (if Nat.eqb n 3 then LF else SP))) (set_bol (after l n) true)
  | _ => first_trivia (TrNewline (lx_pos l) (lx_pos l + n) CR LF) (get_symbol U (set_bol (after l n) true))
  end.
Proof.
  intros U l n M H. pose proof (newline_inner l n H) as E.
  destruct (lx_parens l) eqn:PA.
  - exact (mid_return _ _ _ M E).
  - rewrite (get_symbol_first U l (St true (set_bol (after l n) true) [TrNewline (lx_pos l) (lx_pos l + n) CR LF] false)
      (TrNewline (lx_pos l) (lx_pos l + n) CR LF) M); auto.
    + rewrite scan_step_mid; auto.
    + intros _. congruence.
Qed.

Lemma eof_call : forall U l, mid_line l -> hd NUL (lx_rest l) = NUL ->
  get_symbol U l = LOk (Tok T_EOF (At (lx_pos l)) None NoPayload) (after l 0).
Proof.
  intros U l M H.
  assert (E : inner_step l [] false = inr (SReturn (LOk (Tok T_EOF (At (lx_pos l)) None NoPayload) (after l 0)))).
  { destruct l as [[p q] s ps bo pe is]. unfold lx_rest in *. cbn [lx_cur cu_rest] in *.
    unfold inner_step, lx_char, lx_pos, cu_char, after, lx_pos, lx_rest.
    cbn [lx_cur cu_pos cu_rest set_start]. cbv zeta. rewrite H, Nat.add_0_r. reflexivity. }
  exact (mid_return _ _ _ M E).
Qed.

Lemma bad_continuation_call : forall U l r, mid_line l -> lx_rest l = BSL :: r -> (forall n, ~ line_break r n) ->
  get_symbol U l = LErr (EAt "Line continuation at {} not followed by newline!" (lx_pos l)) (after l 0).
Proof.
  intros U l r M R H.
  assert (HH : hd NUL r <> CR /\ hd NUL r <> LF).
  { destruct r as [|c r]; [split; discriminate|]. cbn. split; intros ->.
    - destruct (N.eq_dec (hd NUL r) LF) as [E|E].
      + destruct r as [|d r]; [discriminate|]. cbn in E. subst d. exact (H 2%nat (LB_crlf r)).
      + exact (H 1%nat (LB_cr r E)).
    - exact (H 1%nat (LB_lf r)). }
  destruct HH as (H1 & H2).
  assert (E : inner_step l [] false = inr (SReturn (LErr (EAt "Line continuation at {} not followed by newline!" (lx_pos l)) (after l 0)))).
  { destruct l as [[p q] s ps bo pe is]. unfold lx_rest in *. cbn [lx_cur cu_rest] in *. subst q.
    unfold inner_step, lx_char, lx_pos, cu_char, cu_peek, peek3, after, lx_pos, lx_rest.
    cbn -[cu_skip Nat.add]. rewrite (eqb_false _ _ H1), (eqb_false _ _ H2). cbn -[Nat.add]. rewrite Nat.add_0_r. reflexivity. }
  exact (mid_return _ _ _ M E).
Qed.
