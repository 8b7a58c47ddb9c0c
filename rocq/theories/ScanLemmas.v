(** The trivia loop of Tokenizer.v as a transition system. *)
From Coq Require Import ZArith Arith Lia.
From Verif Require Import Chars SourceBuffer Token Tokenizer LexBasics.

(** A lexer moved to another read position and token start. *)
Definition goto (l : lexer) (start pos : nat) (r : list char) : lexer :=
  mk_lexer (mk_cursor pos r) start (lx_parens l) (lx_bol l) (lx_pending l) (lx_indents l).

Record st := St { st_outer : bool; st_lex : lexer; st_tr : list trivia; st_blank : bool }.

Definition inner_step (l1 : lexer) (tr : list trivia) (blank1 : bool) : st + scanned :=
  if lx_char l1 =? SP then
    let '(_, c) := cu_run_while (fun c => c =? SP) (lx_cur l1) in
    let l2 := set_cur (set_start l1 (lx_pos l1)) c in
    inl (St false l2 (tr ++ [WhiteSpace (lx_start l2) (lx_pos l2) SP]) blank1)
  else if lx_char l1 =? TAB then
    let l2 := lx_skip 1 (set_start l1 (lx_pos l1)) in
    inl (St false l2 (tr ++ [WhiteSpace (lx_start l2) (lx_pos l2) TAB]) blank1)
  else
  let l2 := set_start l1 (lx_pos l1) in
  if lx_char l2 =? #"#" then
    let '(text, c) := cu_run_while comment_char (lx_cur l2) in
    let l3 := set_cur l2 c in
    if starts_with $"# type:" text then
      inr (SReturn (LOk (Tok T_TypeComment (Range (lx_start l3) (lx_pos l3))
                        (finish_trivia tr) (Text text)) l3))
    else inl (St false l3 (tr ++ [Comment (lx_start l3) (lx_pos l3) text]) blank1)
  else if lx_char l2 =? NUL then
    inr (SReturn (LOk (Tok T_EOF (At (lx_pos l2)) (finish_trivia tr) NoPayload) l2))
  else
  match newline_at (cu_peek (lx_cur l2)) with
  | Some (n, c1, c2) =>
      let l3 := set_bol (lx_skip n l2) true in
      if blank1 || (match lx_parens l3 with [] => false | _ => true end) then
        inl (St true l3 (tr ++ [TrNewline (lx_start l3) (lx_pos l3) CR LF]) blank1)
      else
        inr (SReturn (LOk (Tok T_Newline (Range (lx_start l3) (lx_pos l3))
                          (finish_trivia tr) (Break c1 c2)) l3))
  | None =>
    match continuation_at (cu_peek (lx_cur l2)) with
    | Some (Some (n, c1, c2)) =>
        let l3 := lx_skip n l2 in
        inl (St false l3 (tr ++ [LineContinuation (lx_start l3) (lx_pos l3) BSL c1 c2]) blank1)
    | Some None =>
        inr (SReturn (LErr (EAt "Line continuation at {} not followed by newline!" (lx_pos l2)) l2))
    | None => inr (SBreak l2 tr)
    end
  end.

Definition scan_step (s : st) : st + scanned :=
  match (if st_outer s then begin_line (st_lex s) (st_blank s) else inl (st_lex s, st_blank s)) with
  | inr (e, l1) => inr (SReturn (LErr e l1))
  | inl (l1, blank1) =>
    match (if st_outer s then pending_token l1 else None) with
    | Some (t, l2) => inr (SReturn (LOk t l2))
    | None => inner_step l1 (st_tr s) blank1
    end
  end.

Lemma scan_S : forall fuel s,
  scan (S fuel) (st_outer s) (st_lex s) (st_tr s) (st_blank s)
  = match scan_step s with
    | inl s' => scan fuel (st_outer s') (st_lex s') (st_tr s') (st_blank s')
    | inr r => r
    end.
Proof.
  intros fuel [outer l tr blank]. cbn [scan scan_step st_outer st_lex st_tr st_blank].
  unfold scan_step. cbn [st_outer st_lex st_tr st_blank].
  destruct (if outer then begin_line l blank else inl (l, blank)) as [[l1 b1]|[e l1]]; auto.
  destruct (if outer then pending_token l1 else None) as [[t l2]|]; auto.
  unfold inner_step.
  repeat match goal with
  | |- context [if ?b then _ else _] => destruct b eqn:?; auto
  | |- context [match ?x with pair _ _ => _ end] => destruct x eqn:?; auto
  | |- context [match ?x with Some _ => _ | None => _ end] => destruct x eqn:?; auto
  end.
Qed.

(** What one step of the inner loop does, with the texts made explicit. *)
Inductive inner_case (l : lexer) (tr : list trivia) (blank : bool) : st + scanned -> Prop :=
| IC_blank w r c :
    lx_rest l = w ++ r -> w <> [] -> forallb (fun x => x =? c) w = true ->
    (c = SP /\ hd NUL r <> SP \/ c = TAB /\ length w = 1%nat) ->
    inner_case l tr blank (inl (St false (goto l (lx_pos l) (lx_pos l + length w) r)
      (tr ++ [WhiteSpace (lx_pos l) (lx_pos l + length w) c]) blank))
| IC_comment w r :
    lx_rest l = w ++ r -> hd NUL w = #"#" -> forallb comment_char w = true ->
    comment_char (hd NUL r) = false -> starts_with $"# type:" w = false ->
    inner_case l tr blank (inl (St false (goto l (lx_pos l) (lx_pos l + length w) r)
      (tr ++ [Comment (lx_pos l) (lx_pos l + length w) w]) blank))
| IC_type_comment w r :
    lx_rest l = w ++ r -> forallb comment_char w = true ->
    comment_char (hd NUL r) = false -> starts_with $"# type:" w = true ->
    inner_case l tr blank (inr (SReturn (LOk
      (Tok T_TypeComment (Range (lx_pos l) (lx_pos l + length w)) (finish_trivia tr) (Text w))
      (goto l (lx_pos l) (lx_pos l + length w) r))))
| IC_eof :
    hd NUL (lx_rest l) = NUL ->
    inner_case l tr blank (inr (SReturn (LOk
      (Tok T_EOF (At (lx_pos l)) (finish_trivia tr) NoPayload)
      (goto l (lx_pos l) (lx_pos l) (lx_rest l)))))
| IC_newline n c1 c2 :
    newline_at (peek3 (lx_rest l)) = Some (n, c1, c2) -> blank = true \/ lx_parens l <> [] ->
    inner_case l tr blank (inl (St true
      (set_bol (goto l (lx_pos l) (lx_pos l + n) (skipn n (lx_rest l))) true)
      (tr ++ [TrNewline (lx_pos l) (lx_pos l + n) CR LF]) blank))
| IC_newline_token n c1 c2 :
    newline_at (peek3 (lx_rest l)) = Some (n, c1, c2) -> blank = false -> lx_parens l = [] ->
    inner_case l tr blank (inr (SReturn (LOk
      (Tok T_Newline (Range (lx_pos l) (lx_pos l + n)) (finish_trivia tr) (Break c1 c2))
      (set_bol (goto l (lx_pos l) (lx_pos l + n) (skipn n (lx_rest l))) true))))
| IC_continuation n c1 c2 :
    continuation_at (peek3 (lx_rest l)) = Some (Some (n, c1, c2)) ->
    inner_case l tr blank (inl (St false
      (goto l (lx_pos l) (lx_pos l + n) (skipn n (lx_rest l)))
      (tr ++ [LineContinuation (lx_pos l) (lx_pos l + n) BSL c1 c2]) blank))
| IC_bad_continuation :
    continuation_at (peek3 (lx_rest l)) = Some None ->
    inner_case l tr blank (inr (SReturn (LErr
      (EAt "Line continuation at {} not followed by newline!" (lx_pos l))
      (goto l (lx_pos l) (lx_pos l) (lx_rest l)))))
| IC_break c r :
    lx_rest l = c :: r -> c <> SP -> c <> TAB -> c <> #"#" -> c <> NUL -> c <> CR -> c <> LF ->
    c <> BSL ->
    inner_case l tr blank (inr (SBreak (goto l (lx_pos l) (lx_pos l) (lx_rest l)) tr)).

Lemma newline_at_width : forall a b c n c1 c2, newline_at (a, b, c) = Some (n, c1, c2) ->
  (n = 3%nat /\ a = CR /\ b = LF /\ c1 = CR /\ c2 = LF) \/
  (n = 1%nat /\ a = CR /\ b <> LF /\ c1 = CR /\ c2 = SP) \/
  (n = 1%nat /\ a = LF /\ c1 = LF /\ c2 = SP).
Proof.
  unfold newline_at. intros a b c n c1 c2.
  destruct (a =? CR) eqn:A; [apply N.eqb_eq in A; destruct (b =? LF) eqn:B|].
  - apply N.eqb_eq in B. cbn. intros E. inversion E. subst. tauto.
  - apply N.eqb_neq in B. cbn. intros E. inversion E. subst. tauto.
  - cbn. destruct (a =? LF) eqn:C; [|discriminate]. apply N.eqb_eq in C.
    intros E. inversion E. subst. tauto.
Qed.

Lemma newline_at_none : forall a b c, newline_at (a, b, c) = None -> a <> CR /\ a <> LF.
Proof.
  unfold newline_at. intros a b c. destruct (N.eqb_spec a CR); cbn.
  - destruct (b =? LF); discriminate.
  - destruct (N.eqb_spec a LF); cbn; easy.
Qed.

Lemma continuation_at_width : forall a b c n c1 c2,
  continuation_at (a, b, c) = Some (Some (n, c1, c2)) -> a = BSL /\
  ((n = 3%nat /\ b = CR /\ c = LF /\ c1 = CR /\ c2 = LF) \/
   (n = 2%nat /\ b = CR /\ c <> LF /\ c1 = CR /\ c2 = SP) \/
   (n = 2%nat /\ b = LF /\ c1 = LF /\ c2 = SP)).
Proof.
  unfold continuation_at. intros a b c n c1 c2.
  destruct (N.eqb_spec a BSL), (N.eqb_spec b CR), (N.eqb_spec b LF), (N.eqb_spec c LF); cbn;
    intros E; inversion E; subst; tauto || discriminate.
Qed.

Lemma continuation_at_none : forall a b c, continuation_at (a, b, c) = None -> a <> BSL.
Proof.
  unfold continuation_at. intros a b c.
  destruct (N.eqb_spec a BSL), (b =? CR), (b =? LF), (c =? LF); cbn; easy.
Qed.

Lemma continuation_at_bad : forall a b c, continuation_at (a, b, c) = Some None ->
  a = BSL /\ b <> CR /\ b <> LF.
Proof.
  unfold continuation_at. intros a b c.
  destruct (N.eqb_spec a BSL), (N.eqb_spec b CR), (N.eqb_spec b LF), (c =? LF); cbn; easy.
Qed.

Lemma inner_step_case : forall l tr blank, inner_case l tr blank (inner_step l tr blank).
Proof.
  intros [[p r] s ps b pe is] tr blank. unfold inner_step, lx_char, lx_pos, cu_char.
  cbn [lx_cur cu_pos cu_rest set_start set_cur lx_start lx_parens lx_bol lx_pending lx_indents].
  set (l := mk_lexer (mk_cursor p r) s ps b pe is).
  destruct (N.eqb_spec (hd NUL r) SP) as [E|E].
  { unfold cu_run_while. cbn [cu_rest cu_pos].
    destruct (run_while (fun c => c =? SP) r) as [t r'] eqn:R. cbn.
    pose proof (run_while_hd _ _ _ _ eq_refl R) as H.
    apply run_while_spec in R. destruct R as (R & F & _).
    apply (IC_blank l tr blank t r' SP); auto.
    - intros ->. cbn in *. subst r'. apply N.eqb_neq in H. congruence.
    - left. split; auto. now apply N.eqb_neq. }
  destruct (N.eqb_spec (hd NUL r) TAB) as [E2|E2].
  { destruct r as [|c r]; [discriminate E2|]. cbn in E2. subst c.
    unfold lx_skip. rewrite cu_skip_eq. cbn. apply (IC_blank l tr blank [TAB] r TAB); auto. discriminate. }
  cbn [hd] in *.
  destruct (N.eqb_spec (hd NUL r) #"#") as [E3|E3].
  { unfold cu_run_while. cbn [cu_rest cu_pos].
    destruct (run_while comment_char r) as [t r'] eqn:R.
    pose proof (run_while_hd _ _ _ _ eq_refl R) as H.
    apply run_while_spec in R. destruct R as (R & F & _).
    destruct t as [|c t].
    { cbn in *. subst r'. rewrite E3 in H. discriminate. }
    destruct (starts_with $"# type:" (c :: t)) eqn:W.
    - apply (IC_type_comment l tr blank (c :: t) r'); auto.
    - apply (IC_comment l tr blank (c :: t) r'); auto. cbn. subst r. exact E3. }
  destruct (N.eqb_spec (hd NUL r) NUL) as [E4|E4].
  { apply (IC_eof l tr blank). exact E4. }
  unfold cu_peek. cbn [cu_rest lx_cur].
  destruct (newline_at (peek3 r)) as [[[n c1] c2]|] eqn:NL.
  { unfold lx_skip. cbn [lx_cur set_bol set_cur]. rewrite cu_skip_eq. cbn [cu_pos cu_rest lx_parens lx_start].
    destruct (blank || _) eqn:B.
    - apply (IC_newline l tr blank n c1 c2 NL). destruct blank; auto. right. cbn. destruct ps; easy.
    - apply orb_false_iff in B. destruct B as (-> & B).
      apply (IC_newline_token l tr false n c1 c2 NL); auto. cbn. destruct ps; easy. }
  destruct (continuation_at (peek3 r)) as [[[[n c1] c2]|]|] eqn:CO.
  - unfold lx_skip. cbn [lx_cur set_cur]. rewrite cu_skip_eq. cbn.
    apply (IC_continuation l tr blank n c1 c2 CO).
  - apply (IC_bad_continuation l tr blank CO).
  - unfold peek3 in *. apply newline_at_none in NL. apply continuation_at_none in CO.
    destruct r as [|c r]; [cbn in E4; congruence|]. cbn in *.
    apply (IC_break l tr blank c r); tauto.
Qed.

(** Invariants of the loop. *)
Lemma scan_invariant : forall (I : st -> Prop),
  (forall s s', I s -> scan_step s = inl s' -> I s') ->
  forall fuel s, I s ->
  let r := scan fuel (st_outer s) (st_lex s) (st_tr s) (st_blank s) in
  r = SReturn LFuel \/ exists s', I s' /\ scan_step s' = inr r.
Proof.
  intros I step. induction fuel; intros s Hs; cbn zeta.
  - left. reflexivity.
  - rewrite scan_S. destruct (scan_step s) as [s'|r] eqn:E.
    + apply IHfuel. eauto.
    + right. eauto.
Qed.
