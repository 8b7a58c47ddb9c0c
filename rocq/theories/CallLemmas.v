(** The effect of one call of [get_symbol] on a well-formed lexer. *)
From Coq Require Import ZArith Arith Lia Sorted.
From Verif Require Import Chars SourceBuffer Token Tokenizer LexBasics ScanLemmas LineLemmas
  TokenLemmas NumberLemmas WellFormed.

Ltac lx := unfold lx_pos, lx_rest, lx_char, cu_char in *;
  cbn -[Z.add Z.max Z.of_nat Z.sub Nat.mul Nat.add] in *.

Ltac conj := repeat match goal with |- _ /\ _ => split end.

(** Bracket kinds and the character closing them. *)
Definition opens (k : kind) : option char :=
  match k with
  | PyLeftParen => Some #")" | PyLeftBracket => Some #"]" | PyLeftCurly => Some #"}" | _ => None
  end.
Definition closes (k : kind) : option char :=
  match k with
  | PyRightParen => Some #")" | PyRightBracket => Some #"]" | PyRightCurly => Some #"}" | _ => None
  end.

Definition bracket_step (k : kind) (ps ps' : list char) : Prop :=
  match opens k with
  | Some c => ps' = c :: ps
  | None => match closes k with
            | Some c => ps = c :: ps'
            | None => ps' = ps
            end
  end.

(** Open levels whose Indent has been returned and whose Dedent has not. *)
Definition balance (l : lexer) : Z := (Z.of_nat (length (lx_indents l)) - 1 - lx_pending l)%Z.

(** The measure of C03. *)
Definition effort (l : lexer) : nat :=
  (3 * length (lx_rest l) + (if lx_bol l then 2 else 0) + length (lx_indents l) + Z.abs_nat (lx_pending l))%nat.

Lemma begin_line_effort : forall text l b l1 b1, lx_ok text l -> begin_line l b = inl (l1, b1) ->
  (effort l1 <= effort l)%nat.
Proof.
  intros text l b l1 b1 OK E. pose proof (begin_line_case l b) as C. rewrite E in C. clear E.
  remember (inl (l1, b1)) as res eqn:R.
  destruct C as [Hb | w r Hb Hr Hw Hh Hd | w r Hb Hr Hw Hh Hbl Hi Hp].
  - inversion R; subst. lia.
  - inversion R; subst. unfold effort. rewrite Hr, app_length. lx. destruct (lx_bol l); lia.
  - set (l0 := set_bol (goto l (lx_start l) (lx_pos l + length w) r) false) in *.
    destruct (layout_update_case l0 (column w)) as (l' & E & LC).
    { cbn. apply OK. }
    rewrite E in R. inversion R; subst. clear R E.
    pose proof (ok_bol _ _ OK Hb) as P0. unfold effort. rewrite Hr, Hb, app_length.
    destruct LC as [LE | LE | popped is' p' LE LP LF LH LQ LO]; unfold l0 in *; lx; try lia.
    rewrite LP, app_length. subst p'. rewrite P0. lia.
Qed.

Record loop_ok (text : str) (l : lexer) (s : st) : Prop :=
  { lo_ok : lx_ok text (st_lex s);
    lo_pos : (lx_pos l <= lx_pos (st_lex s))%nat;
    lo_parens : lx_parens (st_lex s) = lx_parens l;
    lo_balance : balance (st_lex s) = balance l;
    lo_effort : (effort (st_lex s) <= effort l)%nat;
    lo_inner : st_outer s = false -> lx_bol (st_lex s) = false /\ lx_pending (st_lex s) = 0%Z;
    lo_layout : lx_parens l <> [] -> lx_indents (st_lex s) = lx_indents l;
    lo_start : (lx_pos l <= lx_start (st_lex s))%nat }.

Lemma line_done_ok : forall text l s l1 b1, loop_ok text l s -> line_done s l1 b1 ->
  loop_ok text l (St false l1 (st_tr s) b1).
Proof.
  intros text l [o l0 tr b] l1 b1 [OK P PS BA EF IN LA SR]. cbn [st_lex st_outer] in *.
  unfold line_done. cbn [st_lex st_outer st_blank st_tr]. destruct o.
  - intros (E & PE). destruct (begin_line_ok text l0 b OK) as (l2 & b2 & E2 & A & B & C & D & F & G & H).
    rewrite E in E2. inversion E2; subst l2 b2.
    constructor; cbn [st_lex st_outer]; auto; try lia.
    + congruence.
    + unfold balance in *. lia.
    + pose proof (begin_line_effort _ _ _ _ _ OK E). lia.
    + intros N. rewrite <- (LA N). apply H. rewrite PS. auto.
  - intros (-> & ->). constructor; cbn [st_lex st_outer]; auto.
Qed.

Lemma lx_ok_move : forall text l p r b s, lx_ok text l -> lx_pending l = 0%Z ->
  at_ text p r -> (lx_pos l <= p)%nat -> (s <= p)%nat ->
  lx_ok text (set_bol (goto l s p r) b).
Proof.
  intros text l p r b s [A B C D E F G H] P AT LE SP'. constructor; lx; auto.
  - eapply Forall_impl; [|exact G]. cbn. intros. lia.
  - lia.
Qed.

Lemma set_bol_same : forall l, set_bol l (lx_bol l) = l.
Proof. destruct l; reflexivity. Qed.

Lemma lx_ok_goto : forall text l p r s, lx_ok text l -> lx_pending l = 0%Z ->
  at_ text p r -> (lx_pos l <= p)%nat -> (s <= p)%nat -> lx_ok text (goto l s p r).
Proof.
  intros. pose proof (lx_ok_move text l p r (lx_bol l) s) as M. 
  change (goto l s p r) with (set_bol (goto l s p r) (lx_bol l)). auto.
Qed.

Lemma newline_at_len : forall r n c1 c2, newline_at (peek3 r) = Some (n, c1, c2) ->
  (1 <= n)%nat /\ (n <= S (length r))%nat /\ (length (skipn n r) < length r)%nat /\ hd NUL r <> NUL.
Proof.
  intros r n c1 c2 H. unfold peek3 in H. apply newline_at_width in H. rewrite skipn_length.
  destruct r as [|a [|b r]]; cbn in *; unfold NUL, CR, LF in *; intuition (try discriminate; subst; lia || discriminate).
Qed.

Lemma continuation_at_len : forall r n c1 c2, continuation_at (peek3 r) = Some (Some (n, c1, c2)) ->
  (2 <= n)%nat /\ (n <= length r)%nat /\ (length (skipn n r) < length r)%nat /\ hd NUL r <> NUL.
Proof.
  intros r n c1 c2 H. unfold peek3 in H. apply continuation_at_width in H. rewrite skipn_length.
  destruct r as [|a [|b [|c r]]]; cbn in *; unfold NUL, CR, LF, BSL in *;
    intuition (try discriminate; subst; lia || discriminate).
Qed.

Lemma inner_ok : forall text l l1 tr b1 s', loop_ok text l (St false l1 tr b1) ->
  inner_case l1 tr b1 (inl s') -> loop_ok text l s'.
Proof.
  intros text l l1 tr b1 s' [OK P PS BA EF IN LA SR] C. cbn [st_lex st_outer] in *.
  destruct (IN eq_refl) as (NB & PE). pose proof (ok_at _ _ OK) as AT.
  inversion C as [w r c Hr Hw Hf Hc | w r Hr Hh Hf Hs Ht | | | n c1 c2 HN HB | | n c1 c2 HC | | ]; subst; clear C.
  - rewrite Hr in AT. apply at_app in AT.
    constructor; cbn [st_lex st_outer]; auto; try (lx; lia).
    + apply lx_ok_goto; auto; lia.
    + unfold effort in *. rewrite Hr, app_length in EF. lx. lia.
  - rewrite Hr in AT. apply at_app in AT.
    constructor; cbn [st_lex st_outer]; auto; try (lx; lia).
    + apply lx_ok_goto; auto; lia.
    + unfold effort in *. rewrite Hr, app_length in EF. lx. lia.
  - destruct (newline_at_len _ _ _ _ HN) as (N1 & N2 & N3 & N4).
    constructor; cbn [st_lex st_outer]; auto; try (lx; lia); try easy.
    + apply lx_ok_move; auto; try lia. apply at_skip; auto.
    + unfold effort in *. rewrite NB in EF. lx. lia.
  - destruct (continuation_at_len _ _ _ _ HC) as (N1 & N2 & N3 & N4).
    constructor; cbn [st_lex st_outer]; auto; try (lx; lia).
    + apply lx_ok_goto; auto; try lia. apply at_skip; auto.
    + unfold effort in *. lx. lia.
Qed.

Lemma start_ok : forall text l, lx_ok text l -> loop_ok text l (start_state l).
Proof.
  intros text l OK. constructor; cbn [start_state st_lex st_outer]; auto; try (lx; lia); try easy.
  destruct OK. constructor; lx; auto.
Qed.

(** Every call ends in a state satisfying the loop invariant (for any lexer the text of which is known). *)
Lemma get_symbol_loop : forall U text l, lx_ok text l ->
  exists s, loop_ok text l s /\ final_case U s (get_symbol U l).
Proof.
  intros U text l OK. apply get_symbol_invariant.
  - apply start_ok. exact OK.
  - intros s s' l1 b1 H LD C. eapply inner_ok; eauto. eapply line_done_ok; eauto.
Qed.

(** ** Tokens *)
Definition layout_kind (k : kind) : bool :=
  match k with T_Newline | T_Indent | T_Dedent | T_EOF | T_TypeComment => true | _ => false end.

(** Where a result of [lex_token] leaves the lexer. *)
Definition token_move (text : str) (l : lexer) (tr : list trivia) (res : lexed) : Prop :=
  match res with
  | LOk t l' => exists k ps', (1 <= k)%nat /\ at_ text (lx_pos l + k) (skipn k (lx_rest l)) /\
      l' = set_parens (goto l (lx_pos l) (lx_pos l + k) (skipn k (lx_rest l))) ps' /\
      tk_span t = Range (lx_pos l) (lx_pos l + k) /\ tk_trivia t = finish_trivia tr /\
      bracket_step (tk_kind t) (lx_parens l) ps' /\ layout_kind (tk_kind t) = false
  | LErr e l' => exists k, at_ text (lx_pos l + k) (skipn k (lx_rest l)) /\
      l' = goto l (lx_pos l) (lx_pos l + k) (skipn k (lx_rest l))
  | LFuel => False
  end.

Lemma skipn_app_len : forall (w r : list char), skipn (length w) (w ++ r) = r.
Proof. intros. rewrite skipn_app, skipn_all, Nat.sub_diag. reflexivity. Qed.

Lemma skipn_app_eq : forall (r w r' : list char) k, r = w ++ r' -> k = length w -> skipn k r = r'.
Proof. intros r w r' k -> ->. apply skipn_app_len. Qed.

Lemma string_case_len : forall l start p r prefix tr res, string_case l start p r prefix tr res ->
  (exists t k, res = LOk t (goto l (lx_start l) (p + k) (skipn k r)) /\
     (2 <= k)%nat /\ (k <= length r)%nat /\ tk_span t = Range start (p + k) /\
     tk_kind t = T_AtomString /\ tk_trivia t = finish_trivia tr) \/
  (exists e k, res = LErr e (goto l (lx_start l) (p + k) (skipn k r)) /\ (k <= length r)%nat).
Proof.
  intros l start p r prefix tr res H.
  destruct H as [q r' E E2 | q b r' E E2 E3 | q b r' E E2 E3 | q b r' E E2 E3 | q b r' E E2 E3 E4]; subst r.
  - left. eexists _, 2%nat. split; [reflexivity|]. repeat split; cbn; lia.
  - left. eexists _, (length b + 2)%nat.
    rewrite (skipn_app_eq (q :: b ++ q :: r') (q :: b ++ [q]) r').
    + split; [reflexivity|]. repeat split; cbn; rewrite ?app_length; cbn; lia.
    + cbn. rewrite <- app_assoc. reflexivity.
    + cbn. rewrite app_length. cbn. lia.
  - left. eexists _, (length b + 6)%nat.
    rewrite (skipn_app_eq _ ([q; q; q] ++ b ++ [q; q; q]) r').
    + split; [reflexivity|]. repeat split; cbn; rewrite ?app_length; cbn; lia.
    + cbn. rewrite <- app_assoc. reflexivity.
    + cbn. rewrite app_length. cbn. lia.
  - right. eexists _, (length b + 1)%nat.
    rewrite (skipn_app_eq _ (q :: b) r'); [|reflexivity|cbn; lia].
    split; [reflexivity|]. cbn. rewrite app_length. lia.
  - right. eexists _, (length b + 3)%nat.
    rewrite (skipn_app_eq _ ([q; q; q] ++ b) r'); [|reflexivity|cbn; lia].
    split; [reflexivity|]. cbn. rewrite app_length. lia.
Qed.

Lemma keyword_of_kind : forall w k, keyword_of w = Some k ->
  opens k = None /\ closes k = None /\ layout_kind k = false /\ kind_id k <= 34.
Proof.
  intros w k. unfold keyword_of.
  destruct (find _ keyword_table) as [[w' k']|] eqn:F; [|discriminate].
  intros E. inversion E; subst. apply find_some in F. destruct F as (I & _).
  assert (ALL : forallb (fun x => match opens (snd x), closes (snd x) with None, None => true | _, _ => false end
     && negb (layout_kind (snd x)) && (kind_id (snd x) <=? 34)) keyword_table = true) by (vm_compute; reflexivity).
  rewrite forallb_forall in ALL. specialize (ALL _ I). cbn [snd] in ALL.
  rewrite !andb_true_iff, negb_true_iff, N.leb_le in ALL. destruct ALL as ((A & B) & C).
  destruct (opens k), (closes k); auto; discriminate.
Qed.

Lemma operator_kind' : forall p k n, operator_at p = Some (k, n) ->
  opens k = None /\ closes k = None /\ layout_kind k = false.
Proof.
  intros p k n H. apply operator_kind in H. destruct H as (A & B & C).
  destruct k; cbn in *; auto; try discriminate; exfalso; lia.
Qed.

Lemma opener_at_spec : forall a k cl, opener_at a = Some (k, cl) -> opens k = Some cl /\ a <> NUL /\ layout_kind k = false.
Proof.
  unfold opener_at. intros a k cl.
  destruct (N.eqb_spec a 40); [intros E; inversion E; subst; repeat split; discriminate|].
  destruct (N.eqb_spec a 91); [intros E; inversion E; subst; repeat split; discriminate|].
  destruct (N.eqb_spec a 123); [intros E; inversion E; subst; repeat split; discriminate|]. discriminate.
Qed.

Lemma closer_at_spec : forall a k msg, closer_at a = Some (k, msg) ->
  opens k = None /\ closes k = Some a /\ a <> NUL /\ layout_kind k = false.
Proof.
  unfold closer_at. intros a k msg.
  destruct (N.eqb_spec a 41); [intros E; inversion E; subst; repeat split; discriminate|].
  destruct (N.eqb_spec a 93); [intros E; inversion E; subst; repeat split; discriminate|].
  destruct (N.eqb_spec a 125); [intros E; inversion E; subst; repeat split; discriminate|]. discriminate.
Qed.

Lemma number_start_at : forall r res p, number_start r res p -> hd NUL r <> NUL -> res_at p r 1 res.
Proof.
  intros r res p H N. destruct H as [p H|p H D|p H].
  - apply number_from_zero_at. exact N.
  - eapply res_at_weaken; [|apply number_from_dot_at; auto]; [lia|].
    intros Z. rewrite Z in D. discriminate.
  - apply number_from_nonzero_at. exact H.
Qed.

Lemma operator_at_len : forall r k n, operator_at (peek3 r) = Some (k, n) ->
  (1 <= n)%nat /\ (n <= length r)%nat.
Proof.
  intros r k n H. unfold peek3 in H. apply operator_at_width in H.
  destruct r as [|a [|b [|c r]]]; cbn in *; unfold NUL in *; intuition (subst; try lia; congruence).
Qed.

Lemma token_case_move : forall U text l tr res, at_ text (lx_pos l) (lx_rest l) ->
  hd NUL (lx_rest l) <> NUL -> token_case U l tr res -> token_move text l tr res.
Proof.
  intros U text l tr res AT N H.
  assert (ATk : forall k, (k <= S (length (lx_rest l)))%nat -> at_ text (lx_pos l + k) (skipn k (lx_rest l))).
  { intros k Hk. apply at_skip; auto. }
  assert (L1 : (1 <= length (lx_rest l))%nat).
  { destruct (hd_nonnul _ N) as (c & q & E & _). rewrite E. cbn. lia. }
  destruct H as [k n HO | k cl HO Ho | k msg below HO Ho Hc Hp | k msg HO Ho Hc Hp | res HO Ho Hc HI HW
    | res HO Ho Hc HI HN | res HO Ho Hc HI HQ HS | HO Ho Hc HI HD HQ Hd]; cbn [token_move].
  - destruct (operator_at_len _ _ _ HO). destruct (operator_kind' _ _ _ HO) as (A & B & C).
    exists n, (lx_parens l). conj; auto; try lia; try (apply ATk; lia).
    unfold bracket_step. cbn. rewrite A, B. reflexivity.
  - destruct (opener_at_spec _ _ _ Ho) as (A & B & C).
    exists 1%nat, (cl :: lx_parens l). conj; auto; try lia; try (apply ATk; lia).
    + unfold bracket_step. cbn. rewrite A. reflexivity.
  - destruct (closer_at_spec _ _ _ Hc) as (A & B & C & D).
    exists 1%nat, below. conj; auto; try lia; try (apply ATk; lia).
    + unfold bracket_step. cbn. rewrite A, B. exact Hp.
  - exists 1%nat. split; auto.
  - change (lx_rest (set_start l (lx_pos l))) with (lx_rest l) in *.
    destruct HW as [w r k Hr Hw Hf Hs Hk | w r Hr Hw Hf Hs Hk Hp | w r res Hr Hw Hf Hs Hk Hp Hq Hsc];
      change (lx_rest (set_start l (lx_pos l))) with (lx_rest l) in Hr;
      assert (WL : (1 <= length w)%nat) by (destruct w; [congruence|cbn; lia]).
    + destruct (keyword_of_kind _ _ Hk) as (A & B & C & _).
      assert (SK : skipn (length w) (lx_rest l) = r) by (rewrite Hr; apply skipn_app_len).
      exists (length w), (lx_parens l). split; auto. split.
      { rewrite SK. rewrite Hr in AT. apply at_app in AT. exact AT. }
      conj; auto; try lia; try (apply ATk; lia); cbn.
      * rewrite SK. reflexivity.
      * unfold bracket_step. rewrite A, B. reflexivity.
    + assert (SK : skipn (length w) (lx_rest l) = r) by (rewrite Hr; apply skipn_app_len).
      exists (length w), (lx_parens l). split; auto. split.
      { rewrite SK. rewrite Hr in AT. apply at_app in AT. exact AT. }
      conj; auto; try lia; try (apply ATk; lia); cbn.
      * rewrite SK. reflexivity.
      * reflexivity.
    + apply string_case_len in Hsc.
      assert (SK : forall k, skipn k r = skipn (length w + k) (lx_rest l)).
      { intros k. rewrite Hr, <- skipn_skipn', skipn_app_len. reflexivity. }
      assert (LL : length (lx_rest l) = (length w + length r)%nat) by (rewrite Hr, app_length; lia).
      destruct Hsc as [(t & k & -> & A & B & C & D & E)|(e & k & -> & A)]; cbn [token_move].
      * exists (length w + k)%nat, (lx_parens l). rewrite SK. lx.
        rewrite <- Nat.add_assoc in *. conj; auto; try lia; try (apply ATk; lia).
        -- unfold bracket_step. rewrite D. reflexivity.
        -- rewrite D. reflexivity.
      * exists (length w + k)%nat. rewrite SK. lx. rewrite <- Nat.add_assoc. split; auto; try (apply ATk; lia).
  - apply number_start_at in HN; auto. destruct HN as (k & A & B & C).
    destruct res as [[tx c]|m [tx c]]; cbn [lex_number token_move]; inversion B; subst.
    + exists k, (lx_parens l). conj; auto; try lia; try (apply ATk; lia). reflexivity.
    + exists k. split; auto.
  - apply string_case_len in HS.
    destruct HS as [(t & k & -> & A & B & C & D & E)|(e & k & -> & A)]; cbn [token_move].
    + exists k, (lx_parens l). lx. conj; auto; try lia; try (apply ATk; lia).
      * unfold bracket_step. rewrite D. reflexivity.
      * rewrite D. reflexivity.
    + exists k. split; auto.
  - exists 0%nat. rewrite Nat.add_0_r. cbn. split; auto.
Qed.
