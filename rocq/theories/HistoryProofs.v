(** Proofs of the history properties: C01-C05, C18-C20, C22. *)
From Coq Require Import ZArith Arith Lia Sorted.
From Verif Require Import Chars SourceBuffer Token Tokenizer LexBasics ScanLemmas LineLemmas
  TokenLemmas NumberLemmas WellFormed CallLemmas CallTheorem LexSpec.

(** ** C01 *)
Lemma advance_iter : forall text k, Nat.iter k sb_advance (sb_new text) = mk_buffer text k.
Proof.
  intros text k. induction k; [reflexivity|]. cbn [Nat.iter nat_rect]. unfold Nat.iter in IHk. rewrite IHk.
  unfold sb_advance. cbn. f_equal. lia.
Qed.

Lemma sb_at_nth : forall text k i, sb_at (mk_buffer text k) i = nth i text NUL.
Proof.
  intros. unfold sb_at. cbn [sb_chars]. destruct (Nat.ltb_spec i (length text)); auto.
  rewrite nth_overflow; [reflexivity|assumption].
Qed.

Lemma buffer_reads : forall text k,
  let b := Nat.iter k sb_advance (sb_new text) in
  sb_get_position b = k /\
  sb_get_char b = nth k text NUL /\
  sb_peek_three_chars b = (nth k text NUL, nth (k + 1) text NUL, nth (k + 2) text NUL) /\
  sb_count b = length text.
Proof.
  intros text k. cbv zeta. rewrite advance_iter.
  unfold sb_get_char, sb_peek_three_chars. cbn [sb_index]. rewrite !sb_at_nth. auto.
Qed.

Lemma hd_skipn_nth : forall (r : list char) k, hd NUL (skipn k r) = nth k r NUL.
Proof. induction r; intros [|k]; cbn; auto. Qed.

Lemma cursor_refines : forall b,
  cu_char (cursor_of b) = sb_get_char b /\
  cu_peek (cursor_of b) = sb_peek_three_chars b /\
  cu_pos (cursor_of b) = sb_get_position b /\
  cu_advance (cursor_of b) = cursor_of (sb_advance b).
Proof.
  intros [text k]. unfold cu_char, cu_peek, sb_get_char, sb_peek_three_chars, peek3, cursor_of, cu_advance, sb_advance.
  cbn [cu_rest cu_pos sb_index sb_chars]. rewrite !sb_at_nth, !skipn_tl, !hd_skipn_nth.
  repeat split; auto; try (repeat f_equal; lia).
Qed.

(** ** Histories *)
Lemma history_ok : forall U text evs l, history U text evs l -> lx_ok text l.
Proof.
  intros U text evs l H. induction H as [|evs l t l' H IH E|evs l e l' H IH E].
  - apply lx_ok_new.
  - pose proof (get_symbol_ok U text l IH) as G. rewrite E in G. apply G.
  - pose proof (get_symbol_ok U text l IH) as G. rewrite E in G. apply G.
Qed.

Lemma history_call : forall U text evs l, history U text evs l ->
  match get_symbol U l with
  | LOk t l' => ok_call text l t l'
  | LErr e l' => err_call text l e l'
  | LFuel => False
  end.
Proof. intros. apply get_symbol_ok. eapply history_ok; eauto. Qed.

(** ** Running a history *)
Fixpoint run_calls (U : unicode) (n : nat) (evs : list (token + err)) (l : lexer)
  : list (token + err) * lexer :=
  match n with
  | O => (evs, l)
  | S n' =>
      match get_symbol U l with
      | LOk t l' => run_calls U n' (evs ++ [inl t]) l'
      | LErr e l' => run_calls U n' (evs ++ [inr e]) l'
      | LFuel => (evs, l)
      end
  end.

Lemma run_calls_history : forall U text n evs l evs' l', history U text evs l ->
  run_calls U n evs l = (evs', l') -> history U text evs' l'.
Proof.
  induction n; intros evs l evs' l' H E; cbn in E.
  - inversion E; subst; auto.
  - destruct (get_symbol U l) as [t l1|e l1|] eqn:G.
    + eapply IHn; [|exact E]. eapply H_ok; eauto.
    + eapply IHn; [|exact E]. eapply H_err; eauto.
    + inversion E; subst; auto.
Qed.

Lemma history_of_run : forall U text n evs l, run_calls U n [] (lexer_new text) = (evs, l) ->
  history U text evs l.
Proof. intros. eapply run_calls_history; eauto. constructor. Qed.

(** ** C02 *)
Lemma call_returns : forall U text evs l, history U text evs l ->
  exists r, ((exists t l', r = LOk t l') \/ (exists e l', r = LErr e l')) /\
    forall fuel, (length text < fuel)%nat -> get_symbol_within fuel U l = r.
Proof.
  intros U text evs l H. pose proof (history_ok _ _ _ _ H) as OK. pose proof (history_call _ _ _ _ H) as C.
  exists (get_symbol U l). split.
  - destruct (get_symbol U l) as [t l'|e l'|]; [left; eauto|right; eauto|contradiction].
  - intros fuel F. unfold get_symbol_within, get_symbol.
    set (l0 := set_start l (lx_pos l)).
    assert (LE : (length (lx_rest l0) <= length text)%nat).
    { change (lx_rest l0) with (lx_rest l). destruct (ok_at _ _ OK) as (-> & _). rewrite skipn_length. lia. }
    pose proof (scan_fuel (S (length (lx_rest l0))) (start_state l)) as NF.
    cbn [start_state st_lex st_outer st_tr st_blank] in NF. fold l0 in NF. specialize (NF ltac:(lia)).
    assert (exists d, fuel = S (length (lx_rest l0)) + d)%nat as (d & ->) by (exists (fuel - S (length (lx_rest l0)))%nat; lia).
    pose proof (scan_more_fuel (S (length (lx_rest l0))) (start_state l) d) as M.
    cbn [start_state st_lex st_outer st_tr st_blank] in M. fold l0 in M. rewrite M; auto; lia.
Qed.

(** ** C03 *)
Lemma history_effort : forall U text evs l, history U text evs l ->
  (forall ev, In ev evs -> exists t, ev = inl t /\ tk_kind t <> T_EOF) ->
  (length evs + effort l <= 3 * length text + 3)%nat.
Proof.
  intros U text evs l H. induction H as [|evs l t l' H IH E|evs l e l' H IH E]; intros F.
  - unfold effort. cbn -[Nat.mul]. lia.
  - pose proof (history_call _ _ _ _ H) as C. rewrite E in C.
    rewrite app_length. cbn [length].
    assert (F' : (length evs + effort l <= 3 * length text + 3)%nat).
    { apply IH. intros ev I. apply F. apply in_or_app. auto. }
    destruct (F (inl t)) as (t' & Q & N); [apply in_or_app; cbn; auto|]. inversion Q; subst t'.
    destruct (oc_effort _ _ _ _ C); [lia|contradiction].
  - destruct (F (inr e)) as (t' & Q & N); [apply in_or_app; cbn; auto|]. discriminate.
Qed.

Lemma history_finishes : forall U text evs l, history U text evs l ->
  (3 * length text + 4 <= length evs)%nat ->
  exists ev, In ev evs /\ match ev with inl t => tk_kind t = T_EOF | inr _ => True end.
Proof.
  intros U text evs l H LEN.
  destruct (existsb (fun ev => match ev with inl t => kind_eqb (tk_kind t) T_EOF | inr _ => true end) evs) eqn:X.
  - apply existsb_exists in X. destruct X as (ev & I & T). exists ev. split; auto.
    destruct ev as [t|]; auto. unfold kind_eqb in T. apply N.eqb_eq in T.
    destruct (tk_kind t); cbn in T; congruence.
  - exfalso. pose proof (history_effort U text evs l H) as HE.
    assert (F : forall ev, In ev evs -> exists t, ev = inl t /\ tk_kind t <> T_EOF).
    { intros ev I. destruct ev as [t|e].
      - exists t. split; auto. intros K.
        assert (existsb (fun ev => match ev with inl t => kind_eqb (tk_kind t) T_EOF | inr _ => true end) evs = true).
        { apply existsb_exists. exists (inl t). split; auto. rewrite K. reflexivity. }
        congruence.
      - exfalso.
        assert (existsb (fun ev => match ev with inl t => kind_eqb (tk_kind t) T_EOF | inr _ => true end) evs = true).
        { apply existsb_exists. exists (inr e). auto. }
        congruence. }
    specialize (HE F). lia.
Qed.

Lemma eof_fixpoint : forall U l, lx_bol l = false -> lx_pending l = 0%Z -> hd NUL (lx_rest l) = NUL ->
  lx_start l = lx_pos l ->
  get_symbol U l = LOk (Tok T_EOF (At (lx_pos l)) None NoPayload) l.
Proof.
  intros U [[p r] s ps b pe is] B P R S. cbn in *. subst. unfold lx_rest in R. cbn in R.
  unfold get_symbol. cbn [set_start lx_rest lx_cur cu_rest].
  cbn [scan]. unfold begin_line. cbn [lx_bol set_start]. unfold pending_token. cbn [lx_pending set_start].
  cbn. unfold lx_char, cu_char. cbn. rewrite R. reflexivity.
Qed.

Lemma eof_absorbs : forall U text evs l t l', history U text evs l -> get_symbol U l = LOk t l' ->
  tk_kind t = T_EOF ->
  tk_span t = At (lx_pos l') /\
  get_symbol U l' = LOk (Tok T_EOF (At (lx_pos l')) None NoPayload) l'.
Proof.
  intros U text evs l t l' H E K. pose proof (history_call _ _ _ _ H) as C. rewrite E in C.
  destruct (oc_eof _ _ _ _ C K) as (B & P & R). pose proof (oc_span _ _ _ _ C) as SP'. unfold span_ok in SP'.
  destruct (tk_span t) as [|p|s e] eqn:Q.
  - destruct SP'; congruence.
  - destruct SP' as (_ & A1 & A2 & _). subst p. split; auto. apply eof_fixpoint; auto.
  - destruct SP' as (_ & _ & _ & _ & _ & _ & X). contradiction.
Qed.

(** ** C04 *)
Lemma positions_bounded : forall U text evs l, history U text evs l ->
  (lx_pos l <= length text + 1)%nat /\ (lx_start l <= lx_pos l)%nat /\
  Forall (fun c => (c <= 4 * (length text + 1))%nat) (lx_indents l) /\
  (length (lx_indents l) <= length text + 2)%nat /\
  (- Z.of_nat (length text + 2) <= lx_pending l <= 1)%Z.
Proof.
  intros U text evs l H. destruct (history_ok _ _ _ _ H) as [A B C D E F G I].
  destruct A as (_ & A). repeat split; try lia.
  eapply Forall_impl; [|exact G]. cbn. intros. lia.
Qed.

Lemma position_monotone : forall U text evs l, history U text evs l ->
  match get_symbol U l with
  | LOk _ l' | LErr _ l' => (lx_pos l <= lx_pos l')%nat
  | LFuel => False
  end.
Proof.
  intros U text evs l H. pose proof (history_call _ _ _ _ H) as C.
  destruct (get_symbol U l); try apply C.
Qed.

(** ** C05 *)
Lemma history_spans : forall U text evs l, history U text evs l ->
  forall i t, nth_error evs i = Some (inl t) ->
  match span_end t with Some e => (e <= lx_pos l)%nat | None => True end.
Proof.
  intros U text evs l H. induction H as [|evs l t l' H IH E|evs l e l' H IH E]; intros i t0 N.
  - destruct i; discriminate.
  - pose proof (history_call _ _ _ _ H) as C. rewrite E in C. pose proof (oc_pos _ _ _ _ C) as M.
    destruct (lt_dec i (length evs)) as [L|L].
    + rewrite nth_error_app1 in N by auto. specialize (IH _ _ N). destruct (span_end t0); auto. lia.
    + rewrite nth_error_app2 in N by lia.
      destruct (i - length evs)%nat as [|k]; cbn in N; [|destruct k; discriminate].
      inversion N; subst t0. pose proof (oc_span _ _ _ _ C) as SP'. unfold span_ok, span_end in *.
      destruct (tk_span t); auto; intuition lia.
  - pose proof (history_call _ _ _ _ H) as C. rewrite E in C. pose proof (ec_pos _ _ _ _ C) as M.
    destruct (lt_dec i (length evs)) as [L|L].
    + rewrite nth_error_app1 in N by auto. specialize (IH _ _ N). destruct (span_end t0); auto. lia.
    + rewrite nth_error_app2 in N by lia.
      destruct (i - length evs)%nat as [|k]; cbn in N; [|destruct k; discriminate]. discriminate.
Qed.

Lemma history_span_order : forall U text evs l, history U text evs l ->
  forall i j ti tj e s, (i < j)%nat ->
  nth_error evs i = Some (inl ti) -> nth_error evs j = Some (inl tj) ->
  span_end ti = Some e -> span_start tj = Some s -> (e <= s)%nat.
Proof.
  intros U text evs l H. induction H as [|evs l t l' H IH E|evs l e l' H IH E];
    intros i j ti tj en s L NI NJ SE SS.
  - destruct i; discriminate.
  - assert (JL : (j <= length evs)%nat).
    { apply Nat.lt_succ_r. rewrite <- (Nat.add_1_r (length evs)).
      change 1%nat with (length [@inl token err t]). rewrite <- app_length. apply nth_error_Some. congruence. }
    rewrite nth_error_app1 in NI by lia.
    destruct (lt_dec j (length evs)) as [L2|L2].
    + rewrite nth_error_app1 in NJ by lia. exact (IH i j ti tj en s L NI NJ SE SS).
    + assert (j = length evs) by lia. subst j.
      rewrite nth_error_app2, Nat.sub_diag in NJ by lia. cbn in NJ. inversion NJ; subst tj.
      pose proof (history_spans _ _ _ _ H _ _ NI) as A. rewrite SE in A.
      pose proof (history_call _ _ _ _ H) as C. rewrite E in C.
      pose proof (oc_span _ _ _ _ C) as SP'. unfold span_ok, span_start in *.
      destruct (tk_span t); inversion SS; subst; intuition lia.
  - assert (JL : (j <= length evs)%nat).
    { apply Nat.lt_succ_r. rewrite <- (Nat.add_1_r (length evs)).
      change 1%nat with (length [@inr token err e]). rewrite <- app_length. apply nth_error_Some. congruence. }
    rewrite nth_error_app1 in NI by lia.
    destruct (lt_dec j (length evs)) as [L2|L2].
    + rewrite nth_error_app1 in NJ by lia. exact (IH i j ti tj en s L NI NJ SE SS).
    + assert (j = length evs) by lia. subst j.
      rewrite nth_error_app2, Nat.sub_diag in NJ by lia. discriminate.
Qed.

Lemma call_span : forall U text evs l t l', history U text evs l -> get_symbol U l = LOk t l' ->
  match tk_span t with
  | NoSpan => tk_kind t = T_Indent \/ tk_kind t = T_Dedent
  | At p => tk_kind t = T_EOF /\ lexer_get_position l' = p /\ p = lx_pos l'
  | Range s e => (s < e)%nat /\ lexer_get_position l' = s /\ e = lx_pos l' /\
      tk_kind t <> T_Indent /\ tk_kind t <> T_Dedent /\ tk_kind t <> T_EOF
  end.
Proof.
  intros U text evs l t l' H E. pose proof (history_call _ _ _ _ H) as C. rewrite E in C.
  pose proof (oc_span _ _ _ _ C) as SP'. unfold span_ok, lexer_get_position in *.
  destruct (tk_span t); intuition.
Qed.

(** ** C18 *)
Definition close_kind (c : char) : kind :=
  if c =? #")" then PyRightParen else if c =? #"]" then PyRightBracket else PyRightCurly.

Lemma nest_app : forall ks ks' st st', nest ks st = Some st' -> nest (ks ++ ks') st = nest ks' st'.
Proof.
  induction ks as [|k ks IH]; intros ks' st st' H; cbn in *.
  - congruence.
  - destruct (closer_of k); eauto. destruct (is_closer k); eauto.
    destruct st as [|top below]; [discriminate|]. destruct (kind_eqb top k); [eauto|discriminate].
Qed.

Lemma kinds_of_app : forall a b, kinds_of (a ++ b) = kinds_of a ++ kinds_of b.
Proof. intros. unfold kinds_of, tokens_of. rewrite flat_map_app, map_app. reflexivity. Qed.

Definition closers (c : char) : Prop := c = #")" \/ c = #"]" \/ c = #"}".

Lemma history_parens : forall U text evs l, history U text evs l ->
  nest (kinds_of evs) [] = Some (map close_kind (lx_parens l)) /\ Forall closers (lx_parens l).
Proof.
  intros U text evs l H. induction H as [|evs l t l' H IH E|evs l e l' H IH E].
  - split; [reflexivity|constructor].
  - destruct IH as (IH & FO). pose proof (history_call _ _ _ _ H) as C. rewrite E in C.
    pose proof (oc_brackets _ _ _ _ C) as B. rewrite kinds_of_app, (nest_app _ _ _ _ IH).
    change (kinds_of [inl t]) with [tk_kind t]. unfold bracket_step in B.
    assert (CL : closers #")" /\ closers #"]" /\ closers #"}") by (unfold closers; tauto).
    destruct CL as (C1 & C2 & C3).
    destruct (tk_kind t); cbn in B |- *; rewrite B in *; auto;
      try (inversion FO; subst; split; auto; fail); split; auto.
  - pose proof (history_call _ _ _ _ H) as C. rewrite E in C. rewrite (ec_parens _ _ _ _ C).
    rewrite kinds_of_app. change (kinds_of [inr e]) with (@nil kind). rewrite app_nil_r. exact IH.
Qed.

(** ** C19, C20 *)
Lemma no_layout_inside : forall U text evs l t l', history U text evs l -> get_symbol U l = LOk t l' ->
  forall open, nest (kinds_of evs) [] = Some open -> open <> [] ->
  tk_kind t <> T_Newline /\ tk_kind t <> T_Indent /\ tk_kind t <> T_Dedent /\
  lx_indents l' = lx_indents l.
Proof.
  intros U text evs l t l' H E open N O. pose proof (history_call _ _ _ _ H) as C. rewrite E in C.
  apply (oc_inside _ _ _ _ C). destruct (history_parens _ _ _ _ H) as (P & _). rewrite N in P.
  inversion P; subst. destruct (lx_parens l); [contradiction|discriminate].
Qed.

Lemma no_layout_inside_err : forall U text evs l e l', history U text evs l -> get_symbol U l = LErr e l' ->
  forall open, nest (kinds_of evs) [] = Some open -> open <> [] -> lx_indents l' = lx_indents l.
Proof.
  intros U text evs l e l' H E open N O. pose proof (history_call _ _ _ _ H) as C. rewrite E in C.
  apply (ec_inside _ _ _ _ C). destruct (history_parens _ _ _ _ H) as (P & _). rewrite N in P.
  inversion P; subst. destruct (lx_parens l); [contradiction|discriminate].
Qed.

Lemma count_app : forall k a b, count k (a ++ b) = (count k a + count k b)%nat.
Proof.
  intros. unfold count. induction a as [|x a IH]; cbn; auto. destruct (kind_eqb x k); cbn; lia.
Qed.

Lemma history_balance : forall U text evs l, history U text evs l ->
  (Z.of_nat (count T_Indent (kinds_of evs)) - Z.of_nat (count T_Dedent (kinds_of evs)) = balance l)%Z.
Proof.
  intros U text evs l H. induction H as [|evs l t l' H IH E|evs l e l' H IH E].
  - reflexivity.
  - pose proof (history_call _ _ _ _ H) as C. rewrite E in C. rewrite (oc_balance _ _ _ _ C), <- IH.
    rewrite kinds_of_app, !count_app. change (kinds_of [inl t]) with [tk_kind t].
    destruct (tk_kind t); cbn -[Z.add Z.sub Z.of_nat]; lia.
  - pose proof (history_call _ _ _ _ H) as C. rewrite E in C. rewrite (ec_balance _ _ _ _ C), <- IH.
    rewrite kinds_of_app, !count_app. change (kinds_of [inr e]) with (@nil kind). cbn. lia.
Qed.

Lemma history_levels : forall U text evs l, history U text evs l ->
  exists up, lx_indents l = up ++ [0%nat] /\
    StronglySorted (fun a b => (b < a)%nat) (lx_indents l) /\
    Forall (fun c => (0 < c)%nat) up /\
    (Z.of_nat (count T_Indent (kinds_of evs)) - Z.of_nat (count T_Dedent (kinds_of evs))
     = Z.of_nat (length up) - lx_pending l)%Z /\
    (count T_Dedent (kinds_of evs) <= count T_Indent (kinds_of evs))%nat.
Proof.
  intros U text evs l H. pose proof (history_balance _ _ _ _ H) as B.
  destruct (history_ok _ _ _ _ H) as [_ _ LV _ _ PE _ _]. destruct LV as (up & E & S).
  exists up. unfold balance in B. rewrite E in *. rewrite app_length in *. cbn [length] in *.
  repeat split; auto; try lia.
  clear - S. induction up as [|a up IH]; [constructor|]. cbn in S. apply StronglySorted_inv in S.
  destruct S as (S & F). constructor; auto. apply Forall_app in F. destruct F as (_ & F). now inversion F.
Qed.

(** ** C22 *)
Lemma no_indentation_error : forall U text evs l e l', history U text evs l -> get_symbol U l = LErr e l' ->
  e <> EMsg "Inconsistent indentation level in block control!".
Proof.
  intros U text evs l e l' H E. pose proof (history_ok _ _ _ _ H) as OK.
  destruct (get_symbol_loop U text l OK) as (s & LO & F). rewrite E in F.
  remember (LErr e l') as res eqn:R.
  destruct F as [e1 l1 Ho Hb | l1 b1 t l2 Ho Hb Hp | l1 b1 r LD C | l1 b1 c q r LD Hr N1 N2 N3 N4 N5 N6 N7 TC];
    subst; try discriminate.
  - exfalso. destruct (begin_line_ok text (st_lex s) (st_blank s)) as (l2 & b2 & E2 & _); [apply LO|]. congruence.
  - inversion C; subst; discriminate.
  - remember (LErr e l') as res eqn:R.
    assert (SC : forall l1 s1 p1 r1 pre tr, string_case l1 s1 p1 r1 pre tr res ->
      e <> EMsg "Inconsistent indentation level in block control!").
    { intros l2 s1 p1 r1 pre tr S. destruct S; inversion R; subst; discriminate. }
    destruct TC as [k n HO | k cl HO Ho | k msg below HO Ho Hc Hp | k msg HO Ho Hc Hp | res HO Ho Hc HI HW
      | res HO Ho Hc HI HN | res HO Ho Hc HI HQ HS | HO Ho Hc HI HD HQ Hd];
      try discriminate; try (inversion R; subst; discriminate).
    + destruct HW; try discriminate. eapply SC; eauto.
    + destruct res as [[tx c1]|m [tx c1]]; inversion R; subst; discriminate.
    + eapply SC; eauto.
Qed.

Lemma counters_in_range : forall U text evs l, history U text evs l ->
  (Z.of_nat (length text) < 2 ^ 30 - 2)%Z ->
  (Z.of_nat (lx_pos l) + 2 < 2 ^ 32)%Z /\ (Z.of_nat (lx_start l) < 2 ^ 32)%Z /\
  Forall (fun c => (Z.of_nat c < 2 ^ 32)%Z) (lx_indents l) /\
  (- 2 ^ 31 <= lx_pending l < 2 ^ 31)%Z.
Proof.
  intros U text evs l H L. destruct (positions_bounded _ _ _ _ H) as (A & B & C & D & E).
  change (2 ^ 30)%Z with 1073741824%Z in L. change (2 ^ 32)%Z with 4294967296%Z.
  change (2 ^ 31)%Z with 2147483648%Z. repeat split; try lia.
  eapply Forall_impl; [|exact C]. cbn beta. intros. lia.
Qed.

Lemma brackets_nest : forall U text evs l, history U text evs l ->
  exists open, nest (kinds_of evs) [] = Some open.
Proof. intros U text evs l H. destruct (history_parens _ _ _ _ H) as (P & _). eauto. Qed.

(** ** Calls in the middle of a line *)
Definition significant (c : char) : Prop :=
  c <> SP /\ c <> TAB /\ c <> #"#" /\ c <> NUL /\ c <> CR /\ c <> LF /\ c <> BSL.

Lemma get_symbol_mid : forall U l c r, lx_bol l = false -> lx_pending l = 0%Z -> lx_rest l = c :: r ->
  significant c ->
  get_symbol U l = lex_token U (set_start l (lx_pos l)) [].
Proof.
  intros U [[p r0] s ps b pe is] c r B P R S. cbn in *. subst.
  unfold get_symbol. set (l0 := set_start _ _).
  pose proof (scan_S (length (lx_rest l0)) (St true l0 [] false)) as E. cbn [st_outer st_lex st_tr st_blank] in E.
  rewrite E. clear E. unfold scan_step. cbn [st_outer st_lex st_tr st_blank].
  change (begin_line l0 false) with (@inl (lexer * bool) (err * lexer) (l0, false)).
  change (pending_token l0) with (@None (token * lexer)).
  pose proof (inner_step_case l0 [] false) as C.
  change (lx_rest l0) with (c :: r) in *.
  destruct S as (S1 & S2 & S3 & S4 & S5 & S6 & S7).
  destruct C as [w r' c' Hr Hw Hf Hc | w r' Hr Hh Hf Hs Ht | w r' Hr Hf Hs Ht | HE | n c1 c2 HN HB | n c1 c2 HN HB HP
    | n c1 c2 HC | HC | c' r' Hr X1 X2 X3 X4 X5 X6 X7]; try reflexivity; exfalso;
    change (lx_rest l0) with (c :: r) in *.
  - destruct w as [|x w]; [congruence|]. cbn in Hr. inversion Hr; subst x. cbn in Hf.
    apply andb_prop in Hf. destruct Hf as (Hf & _). apply N.eqb_eq in Hf. subst c'. intuition.
  - destruct w as [|x w]; [discriminate|]. cbn in Hr. inversion Hr; subst x. cbn in Hh. congruence.
  - destruct w as [|x w]; [discriminate|]. cbn in Hr. inversion Hr; subst x. cbn [starts_with] in Ht.
    apply andb_prop in Ht. destruct Ht as (Ht & _). apply N.eqb_eq in Ht. congruence.
  - cbn in HE. congruence.
  - unfold peek3 in HN. apply newline_at_width in HN. cbn in HN. intuition congruence.
  - unfold peek3 in HN. apply newline_at_width in HN. cbn in HN. intuition congruence.
  - unfold peek3 in HC. apply continuation_at_width in HC. cbn in HC. intuition congruence.
  - unfold peek3 in HC. apply continuation_at_bad in HC. cbn in HC. intuition congruence.
Qed.

Lemma closer_decided : forall U text evs l open k c r, history U text evs l ->
  nest (kinds_of evs) [] = Some open ->
  lx_bol l = false -> lx_pending l = 0%Z -> lx_rest l = c :: r ->
  In (c, k) [(#")", PyRightParen); (#"]", PyRightBracket); (#"}", PyRightCurly)] ->
  (hd_error open = Some k ->
     exists l', get_symbol U l = LOk (Tok k (Range (lx_pos l) (lx_pos l + 1)) None NoPayload) l') /\
  (hd_error open <> Some k ->
     exists msg l', get_symbol U l = LErr (EAt msg (lx_pos l)) l').
Proof.
  intros U text evs l open k c r H N B P R I.
  destruct (history_parens _ _ _ _ H) as (PA & FO). rewrite N in PA. inversion PA; subst open. clear PA.
  assert (S : significant c).
  { unfold significant. cbn in I. intuition; match goal with H : (_, _) = (_, _) |- _ => inversion H; subst end; discriminate. }
  rewrite (get_symbol_mid U l c r B P R S).
  assert (OP : forall b d, operator_at (c, b, d) = None).
  { intros b d. cbn in I. intuition; match goal with H : (_, _) = (_, _) |- _ => inversion H; subst end; reflexivity. }
  assert (CL : opener_at c = None /\ (exists m, closer_at c = Some (k, m)) /\
               (forall d, closers d -> (close_kind d = k <-> d = c))).
  { unfold closers. cbn in I. intuition; match goal with H : (_, _) = (_, _) |- _ => inversion H; subst end;
      try reflexivity; try (eexists; reflexivity); subst; try reflexivity; discriminate. }
  destruct CL as (OP2 & (m & CL) & KEY).
  unfold lex_token, cu_peek, peek3. change (cu_rest (lx_cur (set_start (set_start l (lx_pos l)) (lx_pos (set_start l (lx_pos l)))))) with (lx_rest l).
  rewrite R. cbn [hd tl]. rewrite OP, OP2, CL.
  change (lx_parens (lx_skip 1 (set_start (set_start l (lx_pos l)) (lx_pos (set_start l (lx_pos l)))))) with (lx_parens l).
  destruct (lx_parens l) as [|d below] eqn:PS; cbn [map hd_error].
  - split; [discriminate|]. intros _. eexists _, _. reflexivity.
  - inversion FO; subst. destruct (N.eqb_spec d c) as [->|NE].
    + split; [|intros X; exfalso; apply X; f_equal; apply KEY; auto].
      intros _. eexists. unfold lx_skip. rewrite cu_skip_eq. cbn. reflexivity.
    + split; [intros X; exfalso; apply NE; apply KEY; auto; congruence|].
      intros _. eexists _, _. reflexivity.
Qed.
