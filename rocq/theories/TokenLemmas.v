(** Case analysis of [lex_token] with the texts made explicit. *)
From Coq Require Import ZArith Arith Lia.
From Verif Require Import Chars SourceBuffer Token Tokenizer LexBasics ScanLemmas.

Definition line_end (c : char) : bool := (c =? NUL) || (c =? CR) || (c =? LF).

(** ** Strings *)
Lemma single_body_spec : forall q r t r' ok, single_body q r = (t, r', ok) -> line_end q = false ->
  if ok then exists b, t = b ++ [q] /\ r = b ++ q :: r' /\
                       forallb (fun c => negb (line_end c) && negb (c =? q)) b = true
  else r = t ++ r' /\ line_end (hd NUL r') = true /\
       forallb (fun c => negb (line_end c) && negb (c =? q)) t = true.
Proof.
  intros q r. induction r as [|c r IH]; intros t r' ok E Q; cbn [single_body] in E.
  - inversion E; subst. auto.
  - fold (line_end c) in E. destruct (line_end c) eqn:L.
    + inversion E; subst. auto.
    + destruct (c =? q) eqn:C.
      * apply N.eqb_eq in C. inversion E; subst. exists []. auto.
      * destruct (single_body q r) as [[t1 r1] ok1] eqn:E1. inversion E; subst.
        specialize (IH _ _ _ eq_refl Q). destruct ok.
        -- destruct IH as (b & -> & -> & F). exists (c :: b). cbn. rewrite L, C, F. auto.
        -- destruct IH as (-> & A & F). cbn. rewrite L, C, F. auto.
Qed.

Definition triple_at (q : char) (r : list char) : bool := starts_with [q; q; q] r.

Lemma triple_at_spec : forall q r, q <> NUL ->
  (let '(x, y, z) := peek3 r in (q =? x) && (q =? y) && (q =? z)) = triple_at q r.
Proof.
  intros q r Q. unfold triple_at.
  assert (H : (q =? NUL) = false) by now apply N.eqb_neq.
  destruct r as [|x [|y [|z r]]]; cbn; rewrite ?H, ?andb_false_r, ?andb_true_r; auto.
  now rewrite andb_assoc.
Qed.

Lemma triple_at_app : forall q r, triple_at q r = true -> r = [q; q; q] ++ skipn 3 r.
Proof.
  intros q r H. apply starts_with_spec in H. destruct H as (r' & ->). reflexivity.
Qed.

Lemma triple_body_step : forall q a r, q <> CR -> q <> LF -> q <> NUL -> a <> NUL ->
  triple_body q (a :: r)
  = if triple_at q (a :: r) then (firstn 3 (a :: r), skipn 3 (a :: r), true)
    else let '(t, r', ok) := triple_body q r in (a :: t, r', ok).
Proof.
  intros q a r QC QL QN AN. cbn [triple_body].
  rewrite (proj2 (N.eqb_neq a NUL) AN).
  assert (T : forall x s, x <> q -> triple_at q (x :: s) = false).
  { intros x s N. unfold triple_at. cbn. rewrite (proj2 (N.eqb_neq q x)); auto. }
  destruct (N.eqb_spec a CR) as [->|AC].
  - rewrite (T CR r) by auto. destruct r as [|b r]; auto.
    destruct (N.eqb_spec b LF) as [->|BL]; auto.
    cbn [triple_body]. cbn [N.eqb LF CR NUL Pos.eqb].
    change (LF =? NUL) with false. cbn. destruct (triple_body q r) as [[t r'] ok]. reflexivity.
  - destruct (N.eqb_spec a LF) as [->|AL].
    + rewrite (T LF r) by auto. reflexivity.
    + pose proof (triple_at_spec q (a :: r) QN) as H. unfold peek3 in *.
      rewrite H. reflexivity.
Qed.

Lemma triple_body_spec : forall q r t r' ok, q <> CR -> q <> LF -> q <> NUL ->
  triple_body q r = (t, r', ok) ->
  exists b, ~ In NUL b /\ (forall i, (i < length b)%nat -> triple_at q (skipn i r) = false) /\
  if ok then t = b ++ [q; q; q] /\ r = b ++ [q; q; q] ++ r'
  else t = b /\ r = b ++ r' /\ hd NUL r' = NUL.
Proof.
  intros q r. induction r as [|a r IH]; intros t r' ok QC QL QN E.
  - cbn in E. inversion E; subst. exists []. cbn. repeat split; auto; intros; lia.
  - destruct (N.eqb_spec a NUL) as [->|AN].
    + cbn in E. inversion E; subst. exists []. cbn. repeat split; auto; intros; lia.
    + rewrite triple_body_step in E by auto.
      destruct (triple_at q (a :: r)) eqn:T.
      * inversion E; subst. exists []. apply triple_at_app in T. split; [easy|].
        split; [cbn; lia|]. 
        destruct r as [|y [|z r]]; try discriminate T. cbn in T. inversion T; subst. split; reflexivity.
      * destruct (triple_body q r) as [[t1 r1] ok1] eqn:E1. inversion E; subst.
        destruct (IH _ _ _ QC QL QN eq_refl) as (b & NB & F & S). exists (a :: b).
        split; [cbn; intros [X|X]; auto|]. split.
        -- intros [|i] Hi; [exact T|]. apply F. cbn in Hi. lia.
        -- destruct ok; [destruct S as (S1 & S2)|destruct S as (S1 & S2 & S3)]; subst t1;
             repeat split; auto; cbn; f_equal; exact S2.
Qed.

(** What [lex_string] returns, for a quote at the read position [p] with remaining text [r]. *)
Inductive string_case (l : lexer) (start p : nat) (r : list char) (prefix : option str)
  (tr : list trivia) : lexed -> Prop :=
| SC_empty q r' :
    r = q :: q :: r' -> hd NUL r' <> q ->
    string_case l start p r prefix tr
      (LOk (Tok T_AtomString (Range start (p + 2)) (finish_trivia tr) (StringLit [q; q] prefix))
           (goto l (lx_start l) (p + 2) r'))
| SC_single q b r' :
    r = q :: b ++ q :: r' -> b <> [] ->
    forallb (fun c => negb (line_end c) && negb (c =? q)) b = true ->
    string_case l start p r prefix tr
      (LOk (Tok T_AtomString (Range start (p + (length b + 2))) (finish_trivia tr)
                (StringLit (q :: b ++ [q]) prefix))
           (goto l (lx_start l) (p + (length b + 2)) r'))
| SC_triple q b r' :
    r = [q; q; q] ++ b ++ [q; q; q] ++ r' -> ~ In NUL b ->
    (forall i, (i < length b)%nat -> triple_at q (skipn i (b ++ [q; q; q] ++ r')) = false) ->
    string_case l start p r prefix tr
      (LOk (Tok T_AtomString (Range start (p + (length b + 6))) (finish_trivia tr)
                (StringLit ([q; q; q] ++ b ++ [q; q; q]) prefix))
           (goto l (lx_start l) (p + (length b + 6)) r'))
| SC_single_open q b r' :
    r = q :: b ++ r' -> line_end (hd NUL r') = true ->
    forallb (fun c => negb (line_end c) && negb (c =? q)) b = true ->
    string_case l start p r prefix tr
      (LErr (EAt "Unterminated single quote string at {}!" (p + (length b + 1)))
            (goto l (lx_start l) (p + (length b + 1)) r'))
| SC_triple_open q b r' :
    r = [q; q; q] ++ b ++ r' -> ~ In NUL b -> hd NUL r' = NUL ->
    (forall i, (i < length b)%nat -> triple_at q (skipn i (b ++ r')) = false) ->
    string_case l start p r prefix tr
      (LErr (EMsg "MORE DATA!") (goto l (lx_start l) (p + (length b + 3)) r')).

Lemma is_quote_spec : forall c, is_quote c = true -> c = SQ \/ c = DQ.
Proof. unfold is_quote. intros c H. apply orb_prop in H. rewrite !N.eqb_eq in H. exact H. Qed.

Lemma lex_string_case : forall l start prefix tr, is_quote (lx_char l) = true ->
  string_case l start (lx_pos l) (lx_rest l) prefix tr (lex_string l start prefix tr).
Proof.
  intros [[p r] s ps bol pe is] start prefix tr Q.
  set (l := mk_lexer (mk_cursor p r) s ps bol pe is) in *.
  unfold lx_char, cu_char in Q. cbn in Q.
  destruct r as [|q r]; [discriminate|]. cbn in Q. apply is_quote_spec in Q.
  assert (QN : q <> NUL /\ q <> CR /\ q <> LF) by (destruct Q; subst q; repeat split; discriminate).
  destruct QN as (QN & QC & QL).
  unfold lex_string, cu_peek, peek3. cbn [lx_cur cu_rest hd tl l].
  assert (SGL : hd NUL r <> q ->
    string_case l start (lx_pos l) (lx_rest l) prefix tr (handle_string l start false prefix tr)).
  { intros HN. unfold handle_string. cbn. unfold cu_char. cbn.
    destruct (single_body q r) as [[t r'] ok] eqn:E.
    assert (LQ : line_end q = false) by (destruct Q; subst q; reflexivity).
    pose proof (single_body_spec _ _ _ _ _ E LQ) as B.
    destruct ok.
    - destruct B as (b & -> & -> & F).
      assert (BN : b <> []). { intros ->. cbn in HN. auto. }
      pose proof (SC_single l start p (q :: b ++ q :: r') prefix tr q b r' eq_refl BN F) as H.
      unfold cu_after, set_cur, lx_pos, lx_rest. cbn. rewrite app_length. cbn.
      replace (S (p + (length b + 1))) with (p + (length b + 2))%nat by lia. exact H.
    - destruct B as (-> & LE & F).
      pose proof (SC_single_open l start p (q :: t ++ r') prefix tr q t r' eq_refl LE F) as H.
      unfold cu_after, set_cur, lx_pos, lx_rest. cbn.
      replace (S (p + length t)) with (p + (length t + 1))%nat by lia. exact H. }
  destruct (N.eqb_spec q (hd NUL r)) as [E1|E1]; cbn [andb]; [|apply SGL; auto].
  destruct r as [|q2 r]; [cbn in E1; congruence|]. cbn in E1. subst q2. cbn [hd tl].
  destruct (N.eqb_spec q (hd NUL r)) as [E2|E2].
  - destruct r as [|q3 r]; [cbn in E2; congruence|]. cbn in E2. subst q3.
    unfold handle_string. cbn. unfold cu_char. cbn.
    destruct (triple_body q r) as [[t r'] ok] eqn:E.
    destruct (triple_body_spec _ _ _ _ _ QC QL QN E) as (b & NB & F & B).
    destruct ok.
    + destruct B as (-> & ->).
      pose proof (SC_triple l start p _ prefix tr q b r' eq_refl NB F) as H.
      unfold cu_after, set_cur, lx_pos, lx_rest. cbn. rewrite app_length. cbn.
      replace (S (S (S (p + (length b + 3))))) with (p + (length b + 6))%nat by lia. exact H.
    + destruct B as (-> & -> & HN).
      pose proof (SC_triple_open l start p _ prefix tr q b r' eq_refl NB HN F) as H.
      unfold cu_after, set_cur, lx_pos, lx_rest. cbn.
      replace (S (S (S (p + length b)))) with (p + (length b + 3))%nat by lia. exact H.
  - unfold lx_skip. rewrite cu_skip_eq. cbn.
    pose proof (SC_empty l start p _ prefix tr q r eq_refl (not_eq_sym E2)) as H. exact H.
Qed.

(** ** Words *)
Inductive word_case (U : unicode) (l : lexer) (tr : list trivia) : lexed -> Prop :=
| WC_keyword w r k :
    lx_rest l = w ++ r -> w <> [] -> forallb (ident_char U) w = true ->
    ident_char U (hd NUL r) = false -> keyword_of w = Some k ->
    word_case U l tr (LOk (Tok k (Range (lx_start l) (lx_pos l + length w)) (finish_trivia tr) NoPayload)
                       (goto l (lx_start l) (lx_pos l + length w) r))
| WC_name w r :
    lx_rest l = w ++ r -> w <> [] -> forallb (ident_char U) w = true ->
    ident_char U (hd NUL r) = false -> keyword_of w = None ->
    is_prefix_word w && is_quote (hd NUL r) = false ->
    word_case U l tr (LOk (Tok T_AtomName (Range (lx_start l) (lx_pos l + length w))
                           (finish_trivia tr) (Text w))
                       (goto l (lx_start l) (lx_pos l + length w) r))
| WC_prefixed w r res :
    lx_rest l = w ++ r -> w <> [] -> forallb (ident_char U) w = true ->
    ident_char U (hd NUL r) = false -> keyword_of w = None ->
    is_prefix_word w = true -> is_quote (hd NUL r) = true ->
    string_case l (lx_start l) (lx_pos l + length w) r (Some w) tr res ->
    word_case U l tr res.

Lemma ident_char_NUL : forall U, ident_char U NUL = false.
Proof. reflexivity. Qed.

Lemma goto_goto : forall l a b c a' b' c', goto (goto l a b c) a' b' c' = goto l a' b' c'.
Proof. reflexivity. Qed.
Lemma start_goto : forall l a b c, lx_start (goto l a b c) = a.
Proof. reflexivity. Qed.

Lemma string_case_goto : forall l s p r start p' r' prefix tr res,
  s = lx_start l ->
  string_case (goto l s p' r') start p r prefix tr res -> string_case l start p r prefix tr res.
Proof.
  intros l s p r start p' r' prefix tr res -> H.
  inversion H; subst; rewrite goto_goto, start_goto; [eapply SC_empty|eapply SC_single|eapply SC_triple|eapply SC_single_open|eapply SC_triple_open];
    eauto.
Qed.

Lemma lex_word_case : forall U l tr, ident_char U (lx_char l) = true ->
  word_case U l tr (lex_word U l tr).
Proof.
  intros U [[p r] s ps bol pe is] tr H. unfold lex_word, cu_run_while. cbn [lx_cur cu_rest cu_pos].
  set (l := mk_lexer (mk_cursor p r) s ps bol pe is) in *.
  destruct (run_while (ident_char U) r) as [w r'] eqn:E.
  pose proof (run_while_hd _ _ _ _ (ident_char_NUL U) E) as ST.
  apply run_while_spec in E. destruct E as (E & F & _).
  assert (WN : w <> []).
  { intros ->. cbn in E. subst r'. unfold lx_char, cu_char in H. cbn in H. congruence. }
  destruct (keyword_of w) as [k|] eqn:K.
  - exact (WC_keyword U l tr w r' k E WN F ST K).
  - unfold lx_char, cu_char. cbn [set_cur lx_cur cu_rest].
    destruct (is_prefix_word w && is_quote (hd NUL r')) eqn:P.
    + pose proof P as P'. apply andb_prop in P'. destruct P' as (P1 & P2).
      eapply (WC_prefixed U l tr w r'); eauto.
      pose proof (lex_string_case (set_cur l (mk_cursor (p + length w) r')) s (Some w) tr P2) as S.
      cbn in S. apply (string_case_goto l s _ _ _ (p + length w)%nat r'); auto.
    + exact (WC_name U l tr w r' E WN F ST K P).
Qed.

(** ** Operators *)
Definition pat_nonnul (p : pat) : bool := match p with PChar c => negb (c =? NUL) | _ => false end.

Definition arm_ok (x : arm) : bool :=
  let '(pa, pb, pc, k, n) := x in
  pat_nonnul pa &&
  (Nat.eqb n 1 || (Nat.eqb n 2 && pat_nonnul pb) || (Nat.eqb n 3 && pat_nonnul pb && pat_nonnul pc)) &&
  (35 <=? kind_id k) && (kind_id k <=? 81) &&
  negb (existsb (kind_eqb k)
    [PyLeftParen; PyLeftBracket; PyLeftCurly; PyRightParen; PyRightBracket; PyRightCurly]).

Lemma arms_ok : forallb arm_ok operator_arms = true.
Proof. vm_compute. reflexivity. Qed.

Lemma pat_nonnul_spec : forall p c, pat_nonnul p = true -> pat_match p c = true -> c <> NUL.
Proof.
  intros [|d|] c; cbn; try discriminate. intros A B. apply N.eqb_eq in B. subst.
  now apply N.eqb_neq, negb_true_iff.
Qed.

Lemma operator_at_arm : forall a b c k n, operator_at (a, b, c) = Some (k, n) ->
  exists pa pb pc, In (pa, pb, pc, k, n) operator_arms /\ pat_match pa a = true /\ pat_match pb b = true /\ pat_match pc c = true /\ arm_ok (pa, pb, pc, k, n) = true.
Proof.
  unfold operator_at. intros a b c k n.
  destruct (find (arm_match (a, b, c)) operator_arms) as [[[[[pa pb] pc] k'] n']|] eqn:F; [|discriminate].
  intros E. inversion E; subst k' n'; clear E. apply find_some in F. destruct F as (I & M).
  unfold arm_match in M. apply andb_prop in M. destruct M as (M & M3).
  apply andb_prop in M. destruct M as (M1 & M2).
  exists pa, pb, pc. repeat split; auto.
  pose proof arms_ok as A. rewrite forallb_forall in A. now apply A.
Qed.

Lemma operator_at_width : forall a b c k n, operator_at (a, b, c) = Some (k, n) ->
  a <> NUL /\ (n = 1%nat \/ (n = 2%nat /\ b <> NUL) \/ (n = 3%nat /\ b <> NUL /\ c <> NUL)).
Proof.
  intros a b c k n H. apply operator_at_arm in H.
  destruct H as (pa & pb & pc & _ & A & B & C & OK). unfold arm_ok in OK.
  rewrite !andb_true_iff, !orb_true_iff, !andb_true_iff, !Nat.eqb_eq in OK.
  destruct OK as ((((X & Y) & _) & _) & _).
  pose proof (pat_nonnul_spec pa a). pose proof (pat_nonnul_spec pb b).
  pose proof (pat_nonnul_spec pc c). intuition.
Qed.

Lemma operator_kind : forall p k n, operator_at p = Some (k, n) ->
  35 <= kind_id k /\ kind_id k <= 81 /\
  existsb (kind_eqb k) [PyLeftParen; PyLeftBracket; PyLeftCurly; PyRightParen; PyRightBracket; PyRightCurly] = false.
Proof.
  intros [[a b] c] k n H. apply operator_at_arm in H.
  destruct H as (pa & pb & pc & _ & A & B & C & OK). unfold arm_ok in OK.
  rewrite !andb_true_iff, negb_true_iff in OK. destruct OK as ((((X & Y) & D) & E) & F).
  apply N.leb_le in D, E. auto.
Qed.

(** ** The whole of [lex_token] *)
Inductive number_start (r : list char) : numres -> nat -> Prop :=
| NS_zero p : hd NUL r = #"0" -> number_start r (number_from_zero (mk_cursor p r)) p
| NS_dot p : hd NUL r = #"." -> is_digit (hd NUL (tl r)) = true ->
    number_start r (number_from_dot (mk_cursor p r)) p
| NS_nonzero p : is_nonzero_digit (hd NUL r) = true ->
    number_start r (number_from_nonzero (mk_cursor p r)) p.

Inductive token_case (U : unicode) (l : lexer) (tr : list trivia) : lexed -> Prop :=
| TC_operator k n :
    operator_at (peek3 (lx_rest l)) = Some (k, n) ->
    token_case U l tr
      (LOk (Tok k (Range (lx_pos l) (lx_pos l + n)) (finish_trivia tr) NoPayload)
           (goto l (lx_pos l) (lx_pos l + n) (skipn n (lx_rest l))))
| TC_open k cl :
    operator_at (peek3 (lx_rest l)) = None ->
    opener_at (hd NUL (lx_rest l)) = Some (k, cl) ->
    token_case U l tr
      (LOk (Tok k (Range (lx_pos l) (lx_pos l + 1)) (finish_trivia tr) NoPayload)
           (set_parens (goto l (lx_pos l) (lx_pos l + 1) (skipn 1 (lx_rest l))) (cl :: lx_parens l)))
| TC_close k msg below :
    operator_at (peek3 (lx_rest l)) = None -> opener_at (hd NUL (lx_rest l)) = None ->
    closer_at (hd NUL (lx_rest l)) = Some (k, msg) ->
    lx_parens l = hd NUL (lx_rest l) :: below ->
    token_case U l tr
      (LOk (Tok k (Range (lx_pos l) (lx_pos l + 1)) (finish_trivia tr) NoPayload)
           (set_parens (goto l (lx_pos l) (lx_pos l + 1) (skipn 1 (lx_rest l))) below))
| TC_close_bad k msg :
    operator_at (peek3 (lx_rest l)) = None -> opener_at (hd NUL (lx_rest l)) = None ->
    closer_at (hd NUL (lx_rest l)) = Some (k, msg) ->
    hd_error (lx_parens l) <> Some (hd NUL (lx_rest l)) ->
    token_case U l tr
      (LErr (EAt msg (lx_pos l)) (goto l (lx_pos l) (lx_pos l + 1) (skipn 1 (lx_rest l))))
| TC_word res :
    operator_at (peek3 (lx_rest l)) = None -> opener_at (hd NUL (lx_rest l)) = None ->
    closer_at (hd NUL (lx_rest l)) = None -> ident_start U (hd NUL (lx_rest l)) = true ->
    word_case U (set_start l (lx_pos l)) tr res ->
    token_case U l tr res
| TC_number res :
    operator_at (peek3 (lx_rest l)) = None -> opener_at (hd NUL (lx_rest l)) = None ->
    closer_at (hd NUL (lx_rest l)) = None -> ident_start U (hd NUL (lx_rest l)) = false ->
    number_start (lx_rest l) res (lx_pos l) ->
    token_case U l tr (lex_number (set_start l (lx_pos l)) tr res)
| TC_string res :
    operator_at (peek3 (lx_rest l)) = None -> opener_at (hd NUL (lx_rest l)) = None ->
    closer_at (hd NUL (lx_rest l)) = None -> ident_start U (hd NUL (lx_rest l)) = false ->
    is_quote (hd NUL (lx_rest l)) = true ->
    string_case (set_start l (lx_pos l)) (lx_pos l) (lx_pos l) (lx_rest l) None tr res ->
    token_case U l tr res
| TC_unknown :
    operator_at (peek3 (lx_rest l)) = None -> opener_at (hd NUL (lx_rest l)) = None ->
    closer_at (hd NUL (lx_rest l)) = None -> ident_start U (hd NUL (lx_rest l)) = false ->
    is_digit (hd NUL (lx_rest l)) = false -> is_quote (hd NUL (lx_rest l)) = false ->
    (hd NUL (lx_rest l) = #"." -> is_digit (hd NUL (tl (lx_rest l))) = false) ->
    token_case U l tr
      (LErr (EAtChar "Lexical error at ({}), found '{}'" (lx_pos l) (hd NUL (lx_rest l)))
            (goto l (lx_pos l) (lx_pos l) (lx_rest l))).

Lemma ident_start_char : forall U c, ident_start U c = true -> ident_char U c = true.
Proof.
  unfold ident_start, ident_char, is_alphanumeric. intros U c H.
  apply orb_prop in H. destruct H as [-> | ->]; rewrite ?orb_true_r; reflexivity.
Qed.

Lemma is_digit_cases : forall c, is_digit c = (c =? #"0") || is_nonzero_digit c.
Proof.
  intros c. unfold is_digit, is_nonzero_digit, in_range.
  destruct (N.eqb_spec c 48) as [->|N]; [reflexivity|]. cbn [orb]. f_equal.
  destruct (N.leb_spec 48 c), (N.leb_spec 49 c); auto; lia.
Qed.

Lemma lex_token_case : forall U l tr, token_case U l tr (lex_token U l tr).
Proof.
  intros U [[p r] s ps bol pe is] tr. unfold lex_token.
  set (l := mk_lexer (mk_cursor p r) s ps bol pe is).
  unfold cu_peek. cbn [set_start lx_cur l cu_rest cu_pos lx_start lx_pos lx_parens lx_bol lx_pending lx_indents].
  change (lx_pos l) with p. fold (set_start l p).
  destruct (peek3 r) as [[a b] c] eqn:P3.
  assert (A : hd NUL r = a /\ hd NUL (tl r) = b) by (unfold peek3 in P3; inversion P3; auto).
  destruct A as (A & B).
  destruct (operator_at (a, b, c)) as [[k n]|] eqn:OP.
  { unfold lx_skip. rewrite cu_skip_eq. cbn. apply (TC_operator U l tr k n). cbn. rewrite P3. exact OP. }
  assert (OP' : operator_at (peek3 (lx_rest l)) = None) by (cbn; rewrite P3; exact OP).
  destruct (opener_at a) as [[k cl]|] eqn:OA.
  { unfold lx_skip. rewrite cu_skip_eq. apply (TC_open U l tr k cl OP'). cbn. rewrite A. exact OA. }
  assert (OA' : opener_at (hd NUL (lx_rest l)) = None) by (cbn; rewrite A; exact OA).
  destruct (closer_at a) as [[k msg]|] eqn:CA.
  { assert (CA' : closer_at (hd NUL (lx_rest l)) = Some (k, msg)) by (cbn; rewrite A; exact CA).
    unfold lx_skip. rewrite cu_skip_eq. cbn [set_cur lx_parens set_start l].
    destruct ps as [|top below].
    - apply (TC_close_bad U l tr k msg OP' OA' CA'). cbn. discriminate.
    - destruct (N.eqb_spec top a) as [E|E].
      + apply (TC_close U l tr k msg below OP' OA' CA'). cbn. congruence.
      + apply (TC_close_bad U l tr k msg OP' OA' CA'). cbn. congruence. }
  assert (CA' : closer_at (hd NUL (lx_rest l)) = None) by (cbn; rewrite A; exact CA).
  destruct (ident_start U a) eqn:IS.
  { assert (IS' : ident_start U (hd NUL (lx_rest l)) = true) by (cbn; rewrite A; exact IS).
    apply (TC_word U l tr _ OP' OA' CA' IS'). apply lex_word_case. apply ident_start_char. exact IS'. }
  assert (IS' : ident_start U (hd NUL (lx_rest l)) = false) by (cbn; rewrite A; exact IS).
  destruct (N.eqb_spec a #"0") as [Z|Z].
  { apply (TC_number U l tr (number_from_zero (mk_cursor p r)) OP' OA' CA' IS'). apply NS_zero. cbn. congruence. }
  destruct (N.eqb_spec a #".") as [D|D]; cbn [andb].
  { destruct (is_digit b) eqn:DB.
    - apply (TC_number U l tr (number_from_dot (mk_cursor p r)) OP' OA' CA' IS'). apply NS_dot; cbn; congruence.
    - exfalso. subst a. rewrite D in OP. clear - OP DB. unfold operator_at in OP. cbn in OP. rewrite DB in OP. cbn in OP.
      destruct (b =? 46), (c =? 46); discriminate. }
  destruct (is_nonzero_digit a) eqn:NZ.
  { apply (TC_number U l tr (number_from_nonzero (mk_cursor p r)) OP' OA' CA' IS'). apply NS_nonzero. cbn. congruence. }
  destruct (is_quote a) eqn:Q.
  { assert (Q' : is_quote (hd NUL (lx_rest l)) = true) by (cbn; rewrite A; exact Q).
    apply (TC_string U l tr _ OP' OA' CA' IS' Q'). exact (lex_string_case (set_start l p) p None tr Q'). }
  unfold lx_char, cu_char, lx_pos. cbn.
  apply (TC_unknown U l tr OP' OA' CA' IS'); cbn; rewrite A; auto.
  - rewrite is_digit_cases, NZ. apply N.eqb_neq in Z. now rewrite Z.
  - intros E. congruence.
Qed.
