(** String literals: what one call in the middle of a line returns. *)
From Coq Require Import ZArith Arith Lia.
From Verif Require Import Chars SourceBuffer Token Tokenizer LexBasics ScanLemmas LineLemmas
  TokenLemmas NumberLemmas WellFormed CallLemmas CallTheorem LexSpec TokenSpec HistoryProofs NumberProofs
  WordProofs.

Definition body_char (q c : char) : bool := negb (line_end c) && negb (c =? q).

Lemma body_char_spec : forall q c, body_char q c = true <-> (c <> q /\ c <> CR /\ c <> LF /\ c <> NUL).
Proof.
  intros. unfold body_char, line_end. rewrite andb_true_iff, !negb_true_iff, !orb_false_iff, !N.eqb_neq. tauto.
Qed.

Lemma body_chars_spec : forall q b, forallb (fun c => negb (line_end c) && negb (c =? q)) b = true <->
  Forall (fun c => c <> q /\ c <> CR /\ c <> LF /\ c <> NUL) b.
Proof.
  intros. rewrite forallb_forall, Forall_forall. split; intros H x Hx; apply body_char_spec; apply H; auto.
Qed.

Lemma quote_facts : forall q, quote q -> q <> NUL /\ q <> CR /\ q <> LF /\ line_end q = false.
Proof. intros q [->| ->]; repeat split; discriminate. Qed.

Lemma triple_three : forall q s, triple_at q s = true <-> three q s.
Proof. intros. unfold triple_at, three, prefix_of. apply starts_with_spec. Qed.

Lemma three_app : forall q y r, (3 <= length y)%nat -> three q (y ++ r) -> three q y.
Proof.
  intros q y r L (r' & E). destruct y as [|a [|b [|c y]]]; cbn in L; try lia. cbn in E. inversion E.
  exists y. reflexivity.
Qed.

Lemma no_three_skip : forall q b r', (forall i, (i < length b)%nat -> triple_at q (skipn i (b ++ [q; q; q] ++ r')) = false) ->
  forall x y, b ++ [q; q; q] = x ++ y -> (length x < length b)%nat -> ~ three q y.
Proof.
  intros q b r' H x y E L (z & T). specialize (H _ L). rewrite app_assoc, E, <- app_assoc in H.
  rewrite skipn_app_len, T in H.
  assert (X : triple_at q (([q; q; q] ++ z) ++ r') = true) by (apply triple_three; exists (z ++ r'); reflexivity).
  congruence.
Qed.

Lemma single_unique : forall q b r b' r', quote q ->
  Forall (fun c => c <> q /\ c <> CR /\ c <> LF /\ c <> NUL) b ->
  forallb (body_char q) b' = true -> (body_char q (hd NUL r') = false \/ r' = []) ->
  b ++ q :: r = b' ++ r' -> b = b' /\ q :: r = r'.
Proof.
  intros q b r b' r' Q F F' S E. apply body_chars_spec in F.
  assert (A : run_while (body_char q) (b ++ q :: r) = (b, q :: r)).
  { apply run_while_app; [exact F|right]. cbn. unfold body_char. rewrite N.eqb_refl. apply andb_false_r. }
  assert (B : run_while (body_char q) (b' ++ r') = (b', r')) by (apply run_while_app; tauto).
  rewrite E in A. rewrite A in B. inversion B. auto.
Qed.

Lemma triple_unique : forall q b r b' r',
  (forall x y, b ++ [q; q; q] = x ++ y -> (length x < length b)%nat -> ~ three q y) ->
  (forall x y, b' ++ [q; q; q] = x ++ y -> (length x < length b')%nat -> ~ three q y) ->
  b ++ [q; q; q] ++ r = b' ++ [q; q; q] ++ r' -> b = b' /\ r = r'.
Proof.
  assert (LE : forall q b r b' r',
    (forall x y, b' ++ [q; q; q] = x ++ y -> (length x < length b')%nat -> ~ three q y) ->
    b ++ [q; q; q] ++ r = b' ++ [q; q; q] ++ r' -> (length b' <= length b)%nat).
  { intros q b r b' r' H E. destruct (Nat.le_gt_cases (length b') (length b)) as [|L]; auto. exfalso.
    set (x := firstn (length b) b'). set (y := skipn (length b) b' ++ [q; q; q]).
    assert (LX : length x = length b) by (unfold x; rewrite firstn_length; lia).
    apply (H x y); [unfold x, y; rewrite app_assoc, firstn_skipn; reflexivity|lia|].
    apply (three_app q y r'); [unfold y; rewrite app_length; cbn; lia|].
    exists r. unfold y. rewrite <- app_assoc.
    apply (f_equal (skipn (length b))) in E. rewrite skipn_app_len in E. cbn [app] in *. rewrite E.
    rewrite skipn_app. replace (length b - length b')%nat with 0%nat by lia. reflexivity. }
  intros q b r b' r' H H' E.
  pose proof (LE _ _ _ _ _ H' E) as L1. pose proof (LE _ _ _ _ _ H (eq_sym E)) as L2.
  assert (L : length b = length b') by lia.
  assert (B : b = b').
  { apply (f_equal (firstn (length b))) in E. rewrite !firstn_app, L, Nat.sub_diag in E.
    rewrite <- L in E at 1. rewrite !firstn_all in E. cbn in E. rewrite !app_nil_r in E. exact E. }
  split; auto. subst b'. apply app_inv_head in E. inversion E. auto.
Qed.

Lemma string_token_unique : forall t r t' r', string_token t r -> string_token t' r' -> t ++ r = t' ++ r' ->
  t = t' /\ r = r'.
Proof.
  intros t r t' r' S S' E.
  assert (X : forall q b r q' b' r', quote q -> Forall (fun c => c <> q /\ c <> CR /\ c <> LF /\ c <> NUL) b ->
     (b = [] -> hd NUL r <> q) -> (q :: b ++ [q]) ++ r = ([q'; q'; q'] ++ b' ++ [q'; q'; q']) ++ r' -> False).
  { intros q b s q' b' s' Q F H EE. cbn in EE. inversion EE; subst q'. rewrite <- app_assoc in H2. cbn in H2.
    destruct b as [|c b]; cbn in H2.
    - inversion H2. subst s. apply H; reflexivity.
    - inversion H2; subst. inversion F; subst. tauto. }
  destruct S as [q b r Q F H|q b r Q N H], S' as [q' b' r' Q' F' H'|q' b' r' Q' N' H'].
  - cbn in E. inversion E; subst q'. rewrite <- !app_assoc in H2. cbn in H2.
    destruct (single_unique q b r b' (q :: r') Q F) as (B & R).
    + now apply body_chars_spec.
    + left. cbn. unfold body_char. rewrite N.eqb_refl. apply andb_false_r.
    + exact H2.
    + subst b'. inversion R. auto.
  - exfalso. exact (X _ _ _ _ _ _ Q F H E).
  - exfalso. exact (X _ _ _ _ _ _ Q' F' H' (eq_sym E)).
  - cbn in E. injection E as <- _ _ E1. rewrite <- !app_assoc in E1.
    destruct (triple_unique q b r b' r' H H' E1). subst. auto.
Qed.

(** What [lex_string] returned is decided by the literal at the read position. *)
Definition string_ok (l : lexer) (start p : nat) (r : str) (prefix : option str) (tr : list trivia) (res : lexed) : Prop :=
  (exists t r', r = t ++ r' /\ string_token t r' /\
     res = LOk (Tok T_AtomString (Range start (p + length t)) (finish_trivia tr) (StringLit t prefix))
               (goto l (lx_start l) (p + length t) r')) \/
  ((forall t r', r = t ++ r' -> ~ string_token t r') /\
   exists n, res = LErr (if triple_at (hd NUL r) r then EMsg "MORE DATA!"
                         else EAt "Unterminated single quote string at {}!" (p + n))
               (goto l (lx_start l) (p + n) (skipn n r)) /\ (n <= length r)%nat /\
     (let c := nth n r NUL in c = NUL \/ (triple_at (hd NUL r) r = false /\ (c = CR \/ c = LF)))).

Lemma nth_app_hd : forall (a b : str), nth (length a) (a ++ b) NUL = hd NUL b.
Proof. intros. rewrite app_nth2, Nat.sub_diag by auto. destruct b; reflexivity. Qed.

Lemma string_case_ok : forall l start p r prefix tr res, quote (hd NUL r) ->
  string_case l start p r prefix tr res -> string_ok l start p r prefix tr res.
Proof.
  intros l start p r prefix tr res Q C. destruct C as [q r' R H|q b r' R BN F|q b r' R N H|q b r' R LE F|q b r' R N HN H];
    subst r; cbn [hd app] in Q.
  - left. exists (q :: [] ++ [q]), r'. repeat split. apply ST_single; auto.
  - left. exists (q :: b ++ [q]), r'. repeat split.
    + cbn. rewrite <- app_assoc. reflexivity.
    + apply ST_single; auto. now apply body_chars_spec.
    + cbn [length]. rewrite app_length. cbn [length].
      replace (S (length b + 1)) with (length b + 2)%nat by lia. reflexivity.
  - left. exists ([q; q; q] ++ b ++ [q; q; q]), r'. repeat split.
    + rewrite <- !app_assoc. reflexivity.
    + apply ST_triple; auto. eapply no_three_skip; eauto.
    + rewrite !app_length. cbn [length].
      replace (3 + (length b + 3))%nat with (length b + 6)%nat by lia. reflexivity.
  - right.
    assert (NT : triple_at q (q :: b ++ r') = false).
    { destruct (triple_at q (q :: b ++ r')) eqn:T; auto. apply triple_three in T. destruct T as (z & T).
      destruct b as [|c b]; cbn in T.
      - inversion T; subst r'. cbn in LE. destruct (quote_facts q Q) as (_ & _ & _ & X). congruence.
      - inversion T; subst c. cbn in F. rewrite N.eqb_refl, andb_false_r in F. discriminate. }
    split.
    + intros t s E S. destruct S as [q' b' s Q' F' H'|q' b' s Q' N' H'].
      * cbn in E. inversion E; subst q'. rewrite <- app_assoc in H1. cbn in H1.
        destruct (single_unique q b' s b r' Q F' F) as (B & R); auto.
        { left. unfold body_char. rewrite LE. reflexivity. }
        subst r'. cbn in LE. destruct (quote_facts q Q) as (_ & _ & _ & X). congruence.
      * rewrite E in NT. cbn in E. inversion E; subst q'. clear - NT. cbn in NT. rewrite !N.eqb_refl in NT. discriminate.
    + exists (S (length b)). cbn [hd]. rewrite NT. cbn [skipn]. rewrite skipn_app_len.
      replace (length b + 1)%nat with (S (length b)) by lia. repeat split.
      * cbn. rewrite app_length. lia.
      * cbn [nth]. rewrite nth_app_hd. unfold line_end in LE. rewrite !orb_true_iff, !N.eqb_eq in LE. cbn zeta. tauto.
  - right.
    assert (T : triple_at q ([q; q; q] ++ b ++ r') = true) by (apply triple_three; exists (b ++ r'); reflexivity).
    split.
    + intros t s E S. destruct S as [q' b' s Q' F' H'|q' b' s Q' N' H'].
      * cbn in E. inversion E; subst q'. rewrite <- app_assoc in H2. cbn in H2.
        destruct b' as [|c b']; cbn in H2; inversion H2; subst.
        -- apply H'; reflexivity.
        -- inversion F'; subst. tauto.
      * cbn in E. injection E as <- _ _ H1. rewrite <- !app_assoc in H1. cbn [app] in H1.
        destruct (Nat.le_gt_cases (length b) (length b')) as [L|L].
        -- apply (f_equal (skipn (length b))) in H1. rewrite skipn_app_len in H1.
           rewrite skipn_app in H1. replace (length b - length b')%nat with 0%nat in H1 by lia. cbn [skipn] in H1.
           destruct (skipn (length b) b') as [|c z] eqn:K.
           ++ rewrite H1 in HN. cbn in HN. destruct (quote_facts q Q) as (X & _). congruence.
           ++ rewrite H1 in HN. cbn in HN. subst c. apply N'.
              rewrite <- (firstn_skipn (length b) b'). apply in_or_app. right. rewrite K. left. reflexivity.
        -- specialize (H _ L). rewrite H1 in H. rewrite skipn_app_len in H. cbn in H. rewrite !N.eqb_refl in H. discriminate.
    + exists (length b + 3)%nat. change (hd NUL ([q; q; q] ++ b ++ r')) with q. rewrite T.
      assert (SK : skipn (length b + 3) ([q; q; q] ++ b ++ r') = r').
      { replace (length b + 3)%nat with (S (S (S (length b)))) by lia. cbn [skipn app]. apply skipn_app_len. }
      rewrite SK. repeat split.
      * rewrite !app_length. cbn. lia.
      * replace (length b + 3)%nat with (S (S (S (length b)))) by lia. cbn [nth app]. rewrite nth_app_hd. auto.
Qed.

Lemma quote_token : forall U q b d, quote q ->
  operator_at (q, b, d) = None /\ opener_at q = None /\ closer_at q = None /\ significant q /\ ident_start U q = false.
Proof.
  intros U q b d Q. split.
  { destruct (operator_at (q, b, d)) as [[k n]|] eqn:O; auto. apply operator_first in O.
    apply quote_spec in Q. destruct O as (_ & O & _). congruence. }
  destruct Q as [->| ->]; repeat split; discriminate.
Qed.

Lemma string_call_case : forall U l, mid_line l -> quote (hd NUL (lx_rest l)) ->
  string_ok (set_start l (lx_pos l)) (lx_pos l) (lx_pos l) (lx_rest l) None [] (get_symbol U l).
Proof.
  intros U l (B & P) Q. destruct (quote_facts _ Q) as (NN & _). destruct (hd_nonnul _ NN) as (c & r & R & _).
  rewrite R in Q. cbn in Q. destruct (quote_token U c NUL NUL Q) as (_ & O2 & O3 & SG & IS).
  rewrite (get_symbol_mid U l c r) by auto.
  pose proof (lex_token_case U (set_start l (lx_pos l)) []) as TC.
  remember (lex_token U (set_start l (lx_pos l)) []) as res.
  assert (HR : lx_rest (set_start l (lx_pos l)) = c :: r) by exact R.
  assert (OP : operator_at (peek3 (lx_rest (set_start l (lx_pos l)))) = None).
  { rewrite HR. unfold peek3. cbn [hd tl]. eapply quote_token; eauto. }
  pose proof Q as Q'. apply quote_spec in Q'.
  destruct TC as [| | | |res O1 OO CC I W|res O1 OO CC I NS|res O1 OO CC I QQ SC|O1 OO CC I DD QQ DG]; rewrite ?HR in *; cbn [hd] in *; try congruence.
  - exfalso. clear - NS Q. inversion NS; cbn in *; destruct Q; subst; discriminate.
  - rewrite R. apply string_case_ok; [exact Q|]. exact SC.
Qed.

Lemma after_goto : forall l w r, lx_rest l = w ++ r ->
  goto (set_start l (lx_pos l)) (lx_start (set_start l (lx_pos l))) (lx_pos l + length w) r = after l (length w).
Proof. intros l w r R. unfold after. rewrite R, skipn_app_len. reflexivity. Qed.

Lemma string_call : forall U l t r, mid_line l -> lx_rest l = t ++ r -> string_token t r ->
  get_symbol U l = LOk (Tok T_AtomString (Range (lx_pos l) (lx_pos l + length t)) None (StringLit t None))
                       (after l (length t)).
Proof.
  intros U l t r M R S.
  assert (Q : quote (hd NUL (lx_rest l))) by (rewrite R; destruct S; auto).
  destruct (string_call_case U l M Q) as [(t' & r' & E & S' & G)|(N & _)].
  - rewrite R in E. destruct (string_token_unique _ _ _ _ S S' E) as (<- & <-). rewrite G.
    now rewrite (after_goto l t r R).
  - exfalso. eapply N; eauto.
Qed.

Lemma string_error : forall U l, mid_line l -> quote (hd NUL (lx_rest l)) ->
  (forall t r, lx_rest l = t ++ r -> ~ string_token t r) ->
  exists n, let c := nth n (lx_rest l) NUL in
    (three (hd NUL (lx_rest l)) (lx_rest l) -> c = NUL /\ get_symbol U l = LErr (EMsg "MORE DATA!") (after l n)) /\
    (~ three (hd NUL (lx_rest l)) (lx_rest l) -> (c = NUL \/ c = CR \/ c = LF) /\
       get_symbol U l = LErr (EAt "Unterminated single quote string at {}!" (lx_pos l + n)) (after l n)).
Proof.
  intros U l M Q N. destruct (string_call_case U l M Q) as [(t' & r' & E & S' & G)|(_ & n & G & L & C)].
  - exfalso. eapply N; eauto.
  - exists n. cbn zeta in *. rewrite <- triple_three. rewrite G. split; intros T.
    + rewrite T in *. split; [|reflexivity]. destruct C as [C|(X & _)]; [auto|discriminate].
    + apply not_true_is_false in T. rewrite T in *. split; [tauto|reflexivity].
Qed.

(** ** With a prefix *)
Lemma string_prefix_word : forall U w r, string_prefix w -> quote (hd NUL r) -> word_at U w r.
Proof.
  intros U w r P Q. apply prefix_word in P. unfold is_prefix_word in P. apply existsb_exists in P.
  destruct P as (p & I & E). apply str_eqb_eq in E. subst p.
  assert (NQ : ~ word_char U (hd NUL r)).
  { destruct Q as [->| ->]; unfold word_char; intros [X|[X|X]]; discriminate X. }
  cbn in I. repeat destruct I as [<-|I]; [..|destruct I]; (split; [discriminate|split; [right; reflexivity|split; [|exact NQ]]]);
    repeat (apply Forall_cons; [right; left; reflexivity|]); apply Forall_nil.
Qed.

Lemma prefix_not_reserved : forall w, string_prefix w -> keyword_of w = None.
Proof.
  intros w P. apply prefix_word in P. unfold is_prefix_word in P. apply existsb_exists in P.
  destruct P as (p & I & E). apply str_eqb_eq in E. subst p.
  cbn in I. repeat destruct I as [<-|I]; [..|destruct I]; reflexivity.
Qed.

Lemma prefixed_call_case : forall U l w r, mid_line l -> lx_rest l = w ++ r -> string_prefix w -> quote (hd NUL r) ->
  string_ok (set_start l (lx_pos l)) (lx_pos l) (lx_pos l + length w) r (Some w) [] (get_symbol U l).
Proof.
  intros U l w r M R P Q. pose proof (string_prefix_word U w r P Q) as W.
  pose proof (word_call_case U l w r M R W) as C. pose proof (prefix_not_reserved w P) as K.
  destruct W as (N & S & F & H).
  assert (SS : word_start U (hd NUL (w ++ r))) by (destruct w; [congruence|exact S]).
  change (lx_rest l) with (lx_rest (set_start l (lx_pos l))) in R.
  assert (W : word_at U w r) by (repeat split; auto).
  destruct C as [w' r' k' R' N' F' H' K'|w' r' R' N' F' H' K' P'|w' r' res R' N' F' H' K' P' Q' SC];
    assert (E : w = w' /\ r = r') by (apply (word_at_split U); auto; [apply word_case_at; auto; congruence|congruence]);
    destruct E as (<- & <-); try congruence.
  - exfalso. apply prefix_word in P. apply quote_spec in Q. rewrite P, Q in P'. discriminate.
  - apply string_case_ok; auto.
Qed.

Lemma prefixed_call : forall U l w t r, mid_line l -> lx_rest l = w ++ t ++ r -> string_prefix w -> string_token t r ->
  get_symbol U l = LOk (Tok T_AtomString (Range (lx_pos l) (lx_pos l + length (w ++ t))) None (StringLit t (Some w)))
                       (after l (length (w ++ t))).
Proof.
  intros U l w t r M R P S.
  assert (Q : quote (hd NUL (t ++ r))) by (destruct S; auto).
  destruct (prefixed_call_case U l w (t ++ r) M R P Q) as [(t' & r' & E & S' & G)|(N & _)].
  - destruct (string_token_unique _ _ _ _ S S' E) as (<- & <-). rewrite G.
    assert (R2 : lx_rest l = (w ++ t) ++ r) by (rewrite <- app_assoc; exact R).
    rewrite <- (after_goto l (w ++ t) r R2). rewrite app_length, Nat.add_assoc. reflexivity.
  - exfalso. eapply N; eauto.
Qed.

Lemma prefixed_error : forall U l w r, mid_line l -> lx_rest l = w ++ r -> string_prefix w -> quote (hd NUL r) ->
  (forall t r', r = t ++ r' -> ~ string_token t r') ->
  exists e l', get_symbol U l = LErr e l'.
Proof.
  intros U l w r M R P Q N. destruct (prefixed_call_case U l w r M R P Q) as [(t' & r' & E & S' & G)|(_ & n & G & L & C)].
  - exfalso. eapply N; eauto.
  - eauto.
Qed.
