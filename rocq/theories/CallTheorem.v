(** The combined effect of one call. *)
From Coq Require Import ZArith Arith Lia Sorted.
From Verif Require Import Chars SourceBuffer Token Tokenizer LexBasics ScanLemmas LineLemmas
  TokenLemmas NumberLemmas WellFormed CallLemmas.

Definition span_ok (l : lexer) (t : token) (l' : lexer) : Prop :=
  match tk_span t with
  | NoSpan => tk_kind t = T_Indent \/ tk_kind t = T_Dedent
  | At p => tk_kind t = T_EOF /\ p = lx_pos l' /\ lx_start l' = p /\ (lx_pos l <= p)%nat
  | Range s e => (lx_pos l <= s)%nat /\ (s < e)%nat /\ e = lx_pos l' /\ s = lx_start l' /\
                 tk_kind t <> T_Indent /\ tk_kind t <> T_Dedent /\ tk_kind t <> T_EOF
  end.

Definition balance_step (k : kind) : Z :=
  match k with T_Indent => 1 | T_Dedent => -1 | _ => 0 end.

Record ok_call (text : str) (l : lexer) (t : token) (l' : lexer) : Prop :=
  { oc_ok : lx_ok text l';
    oc_pos : (lx_pos l <= lx_pos l')%nat;
    oc_brackets : bracket_step (tk_kind t) (lx_parens l) (lx_parens l');
    oc_balance : balance l' = (balance l + balance_step (tk_kind t))%Z;
    oc_span : span_ok l t l';
    oc_effort : (effort l' < effort l)%nat \/ tk_kind t = T_EOF;
    oc_inside : lx_parens l <> [] ->
      tk_kind t <> T_Newline /\ tk_kind t <> T_Indent /\ tk_kind t <> T_Dedent /\ lx_indents l' = lx_indents l;
    oc_eof : tk_kind t = T_EOF -> lx_bol l' = false /\ lx_pending l' = 0%Z /\ hd NUL (lx_rest l') = NUL;
    oc_bol : lx_bol l' = true -> tk_kind t = T_Newline;
    oc_pending : lx_pending l' <> 0%Z -> tk_kind t = T_Indent \/ tk_kind t = T_Dedent }.

Record err_call (text : str) (l : lexer) (e : err) (l' : lexer) : Prop :=
  { ec_ok : lx_ok text l';
    ec_pos : (lx_pos l <= lx_pos l')%nat;
    ec_parens : lx_parens l' = lx_parens l;
    ec_balance : balance l' = balance l;
    ec_inside : lx_parens l <> [] -> lx_indents l' = lx_indents l;
    ec_start : (lx_pos l <= lx_start l')%nat;
    ec_effort : (effort l' <= effort l)%nat }.

Lemma lx_ok_parens : forall text l ps, lx_ok text l -> lx_pending l = 0%Z -> lx_ok text (set_parens l ps).
Proof. intros text l ps [A B C D E F G H] P. constructor; lx; auto. Qed.

Lemma get_symbol_ok : forall U text l, lx_ok text l ->
  match get_symbol U l with
  | LOk t l' => ok_call text l t l'
  | LErr e l' => err_call text l e l'
  | LFuel => False
  end.
Proof.
  intros U text l OK. destruct (get_symbol_loop U text l OK) as (s & LO & F).
  destruct F as [e l1 Ho Hb | l1 b1 t l2 Ho Hb Hp | l1 b1 r LD C | l1 b1 c q r LD Hr N1 N2 N3 N4 N5 N6 N7 TC].
  - exfalso. destruct (begin_line_ok text (st_lex s) (st_blank s)) as (l2 & b2 & E2 & _); [apply LO|]. congruence.
  - destruct LO as [LK P PS BA EF IN LA SR].
    destruct (begin_line_ok text (st_lex s) (st_blank s) LK) as (l3 & b3 & E2 & A & B & C & D & F & G & H).
    rewrite Hb in E2. inversion E2; subst l3 b3. clear E2.
    pose proof (begin_line_effort _ _ _ _ _ LK Hb) as EF2.
    unfold pending_token in Hp.
    assert (PN : lx_parens l1 = []).
    { destruct (lx_parens l1) eqn:PP; auto. exfalso.
      assert (Z0 : lx_pending l1 = 0%Z) by (apply (ok_parens _ _ A); congruence).
      rewrite Z0 in Hp. discriminate. }
    assert (PL : lx_parens l = []) by congruence.
    destruct (Z.ltb_spec (lx_pending l1) 0) as [LT|GE]; [|destruct (Z.ltb_spec 0 (lx_pending l1)) as [GT|]; [|discriminate]];
      inversion Hp; subst t l2; clear Hp.
    + destruct A as [A1 A2 A3 A4 A5 A6 A7 A8].
      constructor; unfold bracket_step, span_ok, balance, effort in *; lx; auto; try lia; try congruence; try easy.
      constructor; lx; auto; try lia; try congruence.
    + destruct A as [A1 A2 A3 A4 A5 A6 A7 A8].
      constructor; unfold bracket_step, span_ok, balance, effort in *; lx; auto; try lia; try congruence; try easy.
      constructor; lx; auto; try lia; try congruence.
  - pose proof (line_done_ok _ _ _ _ _ LO LD) as LO1. destruct LO1 as [LK P PS BA EF IN LA SR].
    cbn [st_lex st_outer] in *. destruct (IN eq_refl) as (NB & PE). pose proof (ok_at _ _ LK) as AT.
    inversion C as [ | | w r0 Hr Hf Hs Ht | HE | | n c1 c2 HN HB HP | | HC | ]; subst; clear C.
    + rewrite Hr in AT. apply at_app in AT.
      assert (WL : (1 <= length w)%nat) by (destruct w; [discriminate|cbn; lia]).
      constructor; unfold bracket_step, span_ok in *; try (lx; easy); auto.
      * apply lx_ok_goto; auto; lia.
      * lx. lia.
      * unfold balance in *. lx. lia.
      * cbn [tk_span]. lx. repeat split; auto; lia || discriminate.
      * left. unfold effort in *. rewrite Hr, app_length in EF. lx. lia.
      * intros X. repeat split; try discriminate. auto.
      * lx. congruence.
    + constructor; unfold bracket_step, span_ok in *; try (lx; easy); auto.
      * apply lx_ok_goto; auto; lia.
      * unfold balance in *. lx. lia.
      * intros X. repeat split; try discriminate. auto.
      * lx. congruence.
    + destruct (newline_at_len _ _ _ _ HN) as (M1 & M2 & M3 & M4).
      constructor; unfold bracket_step, span_ok in *; try (lx; easy); auto.
      * apply lx_ok_move; auto; try lia. apply at_skip; auto.
      * lx. lia.
      * unfold balance in *. lx. lia.
      * cbn [tk_span]. lx. repeat split; auto; lia || discriminate.
      * left. unfold effort in *. rewrite NB in EF. lx. lia.
      * intros X. exfalso. congruence.
    + constructor; auto.
      * apply lx_ok_goto; auto; lia.
  - pose proof (line_done_ok _ _ _ _ _ LO LD) as LO1. destruct LO1 as [LK P PS BA EF IN LA SR].
    cbn [st_lex st_outer] in *. destruct (IN eq_refl) as (NB & PE). pose proof (ok_at _ _ LK) as AT.
    assert (HN : hd NUL (lx_rest l1) <> NUL) by (rewrite Hr; exact N1).
    set (l2 := goto l1 (lx_pos l1) (lx_pos l1) (lx_rest l1)) in *.
    pose proof (token_case_move U text l2 (st_tr s) r AT HN TC) as M.
    assert (EFK : forall k, (1 <= k)%nat -> (length (skipn k (lx_rest l1)) < length (lx_rest l1))%nat).
    { intros k Hk. rewrite skipn_length, Hr. cbn [length]. lia. }
    assert (G : lx_ok text l2) by (apply lx_ok_goto; auto; lia).
    assert (Gk : forall k, at_ text (lx_pos l2 + k) (skipn k (lx_rest l2)) ->
      lx_ok text (goto l2 (lx_pos l2) (lx_pos l2 + k) (skipn k (lx_rest l2)))).
    { intros k A. apply lx_ok_goto; auto; lia. }
    destruct r as [t l'|e l'|]; [| |contradiction M].
    + destruct M as (k & ps' & K1 & ATk & -> & SP' & TR & BR & LK').
      constructor; [apply lx_ok_parens; auto|..]; clear Gk; unfold l2 in *.
      * lx. lia.
      * rewrite <- PS. exact BR.
      * unfold balance in *. lx. destruct (tk_kind t); cbn in *; try discriminate; lia.
      * unfold span_ok. rewrite SP'. lx. repeat split; auto; try lia; intros X; rewrite X in LK'; discriminate.
      * left. unfold effort in *. pose proof (EFK k K1). lx. lia.
      * intros X. repeat split; try (intros Y; rewrite Y in LK'; discriminate). lx. auto.
      * intros X. rewrite X in LK'. discriminate.
      * lx. congruence.
      * lx. congruence.
    + destruct M as (k & ATk & ->). constructor; auto; clear Gk; unfold l2 in *.
      * lx. lia.
      * unfold effort in *. lx. rewrite skipn_length. lia.
Qed.
