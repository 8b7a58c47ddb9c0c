(** The errors of the tokenizer are those of the specification: C62. *)
From Coq Require Import ZArith Arith Lia.
From Verif Require Import Chars SourceBuffer Token Tokenizer LexBasics ScanLemmas LineLemmas
  TokenLemmas NumberLemmas WellFormed CallLemmas CallTheorem LexSpec TokenSpec HistoryProofs TilingProofs MidLine
  NumberProofs ZeroProofs WordProofs StringProofs TokenProofs Compose LexCorollaries LayoutProofs LexErrorSpec.
From Coq Require Import List.
Import ListNotations.

(** ** Numbers *)
Lemma fraction_fault_spec : forall b p f r, frac_part f r ->
  (frac_ok f /\ num_fraction (b, mk_cursor p (f ++ r)) = NumOk (reads b p f r)) \/
  (exists m x, fraction_fault f m /\ num_fraction (b, mk_cursor p (f ++ r)) = NumErr m x).
Proof.
  intros b p f r H. destruct (num_fraction_spec b p f r H) as [A|(A & m & x & E)]; [left; exact A|right].
  exists m, x. split; [|exact E]. split; [exact A|].
  destruct H as [(-> & _)|(w & -> & H)]; [exfalso; apply A; left; reflexivity|].
  revert E. unfold num_fraction, num_char, cu_char. cbv zeta. cbn [snd cu_rest app hd]. rewrite N.eqb_refl, num_push_cons.
  cbn [snd cu_rest]. destruct (N.eqb_spec (hd NUL (w ++ r)) 95) as [E|NE].
  - intros X. inversion X; subst. left. split; [|reflexivity].
    destruct w as [|c w]; cbn in E; [|subst; eauto]. destruct H as (_ & _ & H). contradiction.
  - intros X. right. split.
    + intros w' Y. inversion Y; subst w. apply NE. reflexivity.
    + destruct (num_digits_spec is_digit msg_hex (b ++ [#"."]) (p + 1) w r eq_refl H) as [(_ & E)|(_ & x' & E)].
      * assert (Z : NumErr m x = NumOk (reads (b ++ [#"."]) (p + 1) w r)) by (rewrite <- X; exact E). discriminate Z.
      * assert (Z : NumErr m x = NumErr msg_hex x') by (rewrite <- X; exact E). inversion Z. reflexivity.
Qed.

Lemma exponent_fault_spec : forall b p ex r, exp_part ex r ->
  (exp_as_coded ex /\ num_exponent (b, mk_cursor p (ex ++ r)) = NumOk (reads b p ex r)) \/
  (~ exp_as_coded ex /\ exists x, num_exponent (b, mk_cursor p (ex ++ r)) = NumErr digits_message x).
Proof.
  intros b p ex r H. destruct (num_exponent_spec b p ex r H) as [A|(A & m & x & E)]; [left; exact A|right].
  split; [exact A|]. exists x. rewrite E. f_equal. revert E. unfold num_exponent. cbv zeta.
  destruct ((num_char (b, mk_cursor p (ex ++ r)) =? 101) || (num_char (b, mk_cursor p (ex ++ r)) =? 69)); [|discriminate].
  match goal with |- num_digits is_digit msg_hex ?y = _ -> _ => generalize y end. intros y. unfold num_digits.
  destruct (digit_run is_digit (cu_rest (snd y))) as [[t r'] ok]. destruct ok; intros E; inversion E. reflexivity.
Qed.

Lemma fraction_fault_fun : forall f m m', fraction_fault f m -> fraction_fault f m' -> m = m'.
Proof.
  intros f m m' (_ & A) (_ & B). destruct A as [((w & A) & ->)|(A & ->)], B as [((w' & B) & ->)|(B & ->)]; auto;
    exfalso; [eapply B|eapply A]; eauto.
Qed.

Definition parts_fault (ip f ex : str) (m : String.string) : Prop :=
  (~ udigits is_digit ip /\ m = digits_message) \/
  (udigits is_digit ip /\ fraction_fault f m) \/
  (udigits is_digit ip /\ frac_ok f /\ ~ exp_as_coded ex /\ m = digits_message).

Lemma parts_fault_fun : forall ip f ex m m', parts_fault ip f ex m -> parts_fault ip f ex m' -> m = m'.
Proof.
  intros ip f ex m m' [(A & ->)|[(A & A')|(A & A' & A'' & ->)]] [(B & ->)|[(B & B')|(B & B' & B'' & ->)]]; auto; try tauto;
    solve [eapply fraction_fault_fun; eauto | destruct A'; tauto | destruct B'; tauto].
Qed.

Lemma nonzero_fault : forall p ip f ex im r, number_parts ip f ex im r ->
  (udigits is_digit ip /\ frac_ok f /\ exp_as_coded ex /\
     number_from_nonzero (mk_cursor p (ip ++ f ++ ex ++ im ++ r)) = NumOk (reads [] p (ip ++ f ++ ex ++ im) r)) \/
  (exists m x, parts_fault ip f ex m /\ number_from_nonzero (mk_cursor p (ip ++ f ++ ex ++ im ++ r)) = NumErr m x).
Proof.
  intros p ip f ex im r NP. pose proof NP as (H1 & H2 & H3 & H4).
  destruct (number_from_nonzero_spec p ip f ex im r NP) as [A|(A & _)]; [left; exact A|right].
  destruct (num_digits_spec is_digit msg_hex [] p ip (f ++ ex ++ im ++ r) eq_refl H1) as [(B & E)|(B & x & E)];
    [|exists msg_hex, x; split; [left; auto|unfold number_from_nonzero; crw E; reflexivity]].
  destruct (fraction_fault_spec ip (p + length ip) f (ex ++ im ++ r) H2) as [(B2 & E2)|(m & x & B2 & E2)];
    [|exists m, x; split; [right; left; auto|unfold number_from_nonzero; crw E; cbn [num_bind]; crw E2; reflexivity]].
  destruct (exponent_fault_spec (ip ++ f) (p + length ip + length f) ex (im ++ r) H3) as [(B3 & E3)|(B3 & x & E3)]; [tauto|].
  exists digits_message, x. split; [right; right; auto|].
  unfold number_from_nonzero; crw E; cbn [num_bind]; crw E2; cbn [num_bind]; crw E3; reflexivity.
Qed.

Lemma dot_fault : forall p d w ex im r,
  is_digit d = true -> digits_and_underscores is_digit w (ex ++ im ++ r) -> exp_part ex (im ++ r) -> imag_part im r ->
  (udigits is_digit w /\ exp_as_coded ex /\
     exists x, number_from_dot (mk_cursor p ((#"." :: d :: w) ++ ex ++ im ++ r)) = NumOk x) \/
  (~ (udigits is_digit w /\ exp_as_coded ex) /\
     exists x, number_from_dot (mk_cursor p ((#"." :: d :: w) ++ ex ++ im ++ r)) = NumErr digits_message x).
Proof.
  intros p d w ex im r D H2 H3 H4.
  destruct (number_from_dot_spec p d w ex im r D H2 H3 H4) as [(A & A' & E)|(A & _)]; [left; eauto|right].
  split; [exact A|].
  destruct (num_digits_spec is_digit msg_hex [#"."; d] (S (S p)) w (ex ++ im ++ r) eq_refl H2) as [(A2 & E2)|(A2 & x & E2)];
    [|exists x; unfold number_from_dot; cbv zeta; crw E2; reflexivity].
  destruct (exponent_fault_spec ([#"."; d] ++ w) (S (S p) + length w) ex (im ++ r) H3) as [(A3 & E3)|(A3 & x & E3)]; [tauto|].
  exists x. unfold number_from_dot; cbv zeta; crw E2; cbn [num_bind]; crw E3; reflexivity.
Qed.

Definition zero_fault (ip f ex im : str) (m : String.string) : Prop :=
  fraction_fault f m \/ (frac_ok f /\ ~ exp_as_coded ex /\ m = digits_message) \/
  (frac_ok f /\ exp_as_coded ex /\ f ++ ex ++ im = [] /\ existsb is_nonzero_digit ip = true /\ m = zero_message).

Lemma zero_fault_fun : forall ip f ex im m m', zero_fault ip f ex im m -> zero_fault ip f ex im m' -> m = m'.
Proof.
  intros ip f ex im m m' [A|[(A & A' & ->)|(A & A' & _ & _ & ->)]] [B|[(B & B' & ->)|(B & B' & _ & _ & ->)]]; auto; try tauto;
    solve [eapply fraction_fault_fun; eauto | destruct A; tauto | destruct B; tauto].
Qed.

Lemma zero_number_fault : forall p s ip f ex im r, tl s = ip ++ f ++ ex ++ im ++ r -> zero_parts ip f ex im r ->
  (frac_ok f /\ exp_as_coded ex /\ (existsb is_nonzero_digit ip = true -> f ++ ex ++ im <> []) /\
     exists x, zero_number ([#"0"], mk_cursor p s) = NumOk x) \/
  (exists m x, zero_fault ip f ex im m /\ zero_number ([#"0"], mk_cursor p s) = NumErr m x).
Proof.
  intros p s ip f ex im r T ZP. pose proof ZP as (H0 & H1 & H2 & H3 & H4).
  destruct (zero_number_spec p s ip f ex im r T ZP) as [((A & A' & A'') & E)|(A & m & x & E)]; [left; eauto 6|right].
  exists m, x. split; [|exact E].
  revert E. unfold zero_number. cbv zeta. rewrite num_push_any. cbn [fst snd cu_rest]. rewrite T.
  assert (RW : run_while is_digit (ip ++ f ++ ex ++ im ++ r) = (ip, f ++ ex ++ im ++ r)).
  { apply run_while_app; [|auto]. apply forallb_forall. rewrite Forall_forall in H0. auto. }
  rewrite RW. unfold cu_after. cbn [cu_pos].
  set (b1 := ([#"0"] ++ [hd NUL s]) ++ ip). set (p1 := (p + 1 + length ip)%nat).
  destruct (fraction_fault_spec b1 p1 f (ex ++ im ++ r) H2) as [(A2 & E2)|(m' & x' & A2 & E2)];
    [|crw E2; cbn [num_bind]; intros X; inversion X; subst; left; exact A2].
  crw E2. cbn [num_bind]. unfold reads at 1.
  destruct (exponent_fault_spec (b1 ++ f) (p1 + length f) ex (im ++ r) H3) as [(A3 & E3)|(A3 & x' & E3)];
    [|crw E3; cbn [num_bind]; intros X; inversion X; subst; right; left; auto].
  crw E3. cbn [num_bind]. match goal with |- (if ?c then _ else _) = _ -> _ => destruct c end; intros X; inversion X; subst.
  right. right. repeat split; auto.
  - destruct (list_eq_dec N.eq_dec (f ++ ex ++ im) []) as [Y|Y]; [exact Y|]. exfalso. apply A. auto.
  - destruct (existsb is_nonzero_digit ip); [reflexivity|]. exfalso. apply A. repeat split; auto. discriminate.
Qed.

Lemma zero_is : forall p s, ~ radix_letter (hd NUL s) ->
  number_from_zero (mk_cursor p (#"0" :: s)) = zero_number ([#"0"], mk_cursor (p + 1) s).
Proof.
  intros p s NR. unfold number_from_zero. cbv zeta. rewrite num_push_cons. cbn [app]. unfold num_char, cu_char. cbn [snd cu_rest].
  assert (X : forall c, In c [#"x"; #"X"; #"o"; #"O"; #"b"; #"B"] -> (hd NUL s =? c) = false).
  { intros c I. apply N.eqb_neq. intros <-. apply NR. exact I. }
  rewrite !X by (cbn; tauto). reflexivity.
Qed.

Lemma radix_is : forall p c isd m w r, radix c isd -> radix_message c m -> digits_and_underscores isd w r ->
  (udigits isd w /\ w <> [] /\ exists x, number_from_zero (mk_cursor p (#"0" :: c :: w ++ r)) = NumOk x) \/
  (~ (udigits isd w /\ w <> []) /\ exists x, number_from_zero (mk_cursor p (#"0" :: c :: w ++ r)) = NumErr m x).
Proof.
  intros p c isd m w r RX RM DU.
  assert (E : number_from_zero (mk_cursor p (#"0" :: c :: w ++ r)) = radix_number isd m ([#"0"], mk_cursor (p + 1) (c :: w ++ r))).
  { unfold number_from_zero. cbv zeta. rewrite num_push_cons. cbn [app]. unfold num_char, cu_char. cbn [snd cu_rest hd].
    destruct RX as [c I|c I|c I], RM as [c J|c J|c J]; cbn in I, J; repeat destruct I as [<-|I]; try (destruct I);
      try reflexivity; repeat destruct J as [J|J]; try discriminate J; destruct J. }
  assert (UN : isd #"_" = false) by (destruct RX; reflexivity).
  destruct (radix_number_spec isd m [#"0"] (p + 1) c w r UN DU) as [(A & B & X)|(A & x & X)].
  - left. repeat split; auto. eexists. etransitivity; [exact E|exact X].
  - right. split; auto. eexists. etransitivity; [exact E|exact X].
Qed.

Lemma radix_message_ex : forall c isd, radix c isd -> exists m, radix_message c m.
Proof. intros c isd []; eexists; [apply RM_hex|apply RM_oct|apply RM_bin]; auto. Qed.

Lemma number_fault_sound : forall r res p m x, number_start r res p -> res = NumErr m x -> number_fault r m.
Proof.
  intros r res p m x NS E. destruct NS as [p Z|p Z1 Z2|p Z]; (destruct r as [|c r]; [cbn in *; discriminate|]); cbn [hd tl] in *.
  - subst c. destruct (radix_letter_dec (hd NUL r)) as [RL|RL].
    + destruct (radix_letter_radix _ RL) as (isd & RX & UN). destruct r as [|c r]; [exfalso; clear - RL; cbn in RL; repeat destruct RL as [RL|RL]; try discriminate RL; exact RL|].
      cbn [hd] in *. assert (Z0 : isd NUL = false) by (destruct RX; reflexivity).
      destruct (digits_underscores_split isd r Z0) as (w & r' & -> & DU).
      destruct (radix_message_ex _ _ RX) as (m' & RM).
      destruct (radix_is p c isd m' w r' RX RM DU) as [(_ & _ & x' & X)|(A & x' & X)].
      * assert (Y : NumErr m x = NumOk x') by (rewrite <- E; exact X). discriminate Y.
      * assert (Y : NumErr m x = NumErr m' x') by (rewrite <- E; exact X). inversion Y; subst. eapply NF_radix; eauto.
    + destruct (zero_split (tl r)) as (ip & f & ex & im & r' & T & ZP). pose proof (zero_is p r RL) as ZE.
      destruct (zero_number_fault (p + 1) r ip f ex im r' T ZP) as [(_ & _ & _ & x' & X)|(m' & x' & A & X)].
      * assert (Y : NumErr m x = NumOk x') by (rewrite <- E; etransitivity; [exact ZE|exact X]). discriminate Y.
      * assert (Y : NumErr m x = NumErr m' x') by (rewrite <- E; etransitivity; [exact ZE|exact X]). inversion Y; subst.
        destruct A as [A|[(A & A' & ->)|(A & A' & A2 & A3 & ->)]].
        -- eapply NF_zero_fraction; eauto.
        -- eapply NF_zero_exponent; eauto.
        -- apply app_eq_nil in A2. destruct A2 as (-> & A2). apply app_eq_nil in A2. destruct A2 as (-> & ->).
           eapply NF_zero_leading; eauto.
  - subst c. destruct r as [|d r]; [discriminate|]. cbn [hd] in Z2.
    destruct (digits_underscores_split is_digit r eq_refl) as (w & r1 & -> & DU).
    destruct (exp_split r1) as (ex & r2 & -> & EP). destruct (imag_split r2) as (im & r3 & -> & IP).
    destruct (dot_fault p d w ex im r3 Z2 DU EP IP) as [(_ & _ & x' & X)|(A & x' & X)].
    + assert (Y : NumErr m x = NumOk x') by (rewrite <- E; exact X). discriminate Y.
    + assert (Y : NumErr m x = NumErr digits_message x') by (rewrite <- E; exact X). inversion Y; subst.
      exact (NF_dot d w ex im r3 Z2 DU EP IP A).
  - destruct (number_split (c :: r)) as (ip & f & ex & im & r3 & EQ & NP).
    assert (NZ : is_nonzero_digit (hd NUL ip) = true).
    { destruct ip as [|c' ip]; [|cbn in EQ; inversion EQ; subst; exact Z].
      exfalso. destruct NP as ((_ & X & _) & _). cbn [app] in EQ, X. rewrite <- EQ in X. cbn [hd] in X.
      rewrite is_digit_cases, Z, orb_true_r in X. discriminate. }
    rewrite EQ in E |- *.
    destruct (nonzero_fault p ip f ex im r3 NP) as [(_ & _ & _ & X)|(m' & x' & A & X)].
    + assert (Y : NumErr m x = NumOk (reads [] p (ip ++ f ++ ex ++ im) r3)) by (rewrite <- E; exact X). discriminate Y.
    + assert (Y : NumErr m x = NumErr m' x') by (rewrite <- E; exact X). inversion Y; subst.
      destruct A as [(A & ->)|[(A & A')|(A & A' & A'' & ->)]];
        [apply NF_digits; auto|apply NF_fraction; auto|apply NF_exponent; auto].
Qed.

Lemma number_fault_complete : forall r m p, number_fault r m -> exists x, number_start r (NumErr m x) p.
Proof.
  intros r m p H. destruct H as [c isd m w r RX RM DU N|ip f ex im r NP NZ N|ip f ex im r m NP NZ UD F|ip f ex im r NP NZ UD FO N
    |d w ex im r D DU EP IP N|s ip f ex im r m NR T ZP F|s ip f ex im r NR T ZP FO N|s ip r NR T ZP NZ].
  - destruct (radix_is p c isd m w r RX RM DU) as [(A & B & _)|(_ & x & X)]; [tauto|].
    exists x. rewrite <- X. apply NS_zero. reflexivity.
  - destruct (nonzero_fault p ip f ex im r NP) as [(A & _)|(m' & x & A & X)]; [tauto|].
    rewrite (parts_fault_fun ip f ex digits_message m'); [|left; auto|auto]. exists x. rewrite <- X. apply NS_nonzero.
    destruct ip; [discriminate|exact NZ].
  - destruct (nonzero_fault p ip f ex im r NP) as [(_ & A & _)|(m' & x & A & X)]; [destruct F; tauto|].
    rewrite (parts_fault_fun ip f ex m m'); [|right; left; auto|auto]. exists x. rewrite <- X. apply NS_nonzero.
    destruct ip; [discriminate|exact NZ].
  - destruct (nonzero_fault p ip f ex im r NP) as [(_ & _ & A & _)|(m' & x & A & X)]; [tauto|].
    rewrite (parts_fault_fun ip f ex digits_message m'); [|right; right; auto|auto]. exists x. rewrite <- X. apply NS_nonzero.
    destruct ip; [discriminate|exact NZ].
  - destruct (dot_fault p d w ex im r D DU EP IP) as [(A & B & _)|(_ & x & X)]; [tauto|].
    exists x. rewrite <- X. apply NS_dot; [reflexivity|exact D].
  - destruct (zero_number_fault (p + 1) s ip f ex im r T ZP) as [(A & _)|(m' & x & A & X)]; [destruct F; tauto|].
    rewrite (zero_fault_fun ip f ex im m m'); [|left; auto|auto]. exists x. rewrite <- X, <- zero_is by auto. apply NS_zero. reflexivity.
  - destruct (zero_number_fault (p + 1) s ip f ex im r T ZP) as [(_ & A & _)|(m' & x & A & X)]; [tauto|].
    rewrite (zero_fault_fun ip f ex im digits_message m'); [|right; left; auto|auto]. exists x. rewrite <- X, <- zero_is by auto. apply NS_zero. reflexivity.
  - destruct (zero_number_fault (p + 1) s ip [] [] [] r T ZP) as [(_ & _ & A & _)|(m' & x & A & X)]; [exfalso; apply A; auto|].
    rewrite (zero_fault_fun ip [] [] [] zero_message m'); [exists x; rewrite <- X, <- zero_is by auto; apply NS_zero; reflexivity| |auto].
    right. right. repeat split; auto; left; reflexivity.
Qed.

Lemma number_call : forall U l res, mid_line l -> number_start (lx_rest l) res (lx_pos l) ->
  get_symbol U l = lex_number (set_start l (lx_pos l)) [] res.
Proof.
  intros U l res (B & P) NS.
  assert (SG : exists c r, lx_rest l = c :: r /\ significant c /\ (forall b d, (c = #"." -> is_digit b = true) -> operator_at (c, b, d) = None) /\ opener_at c = None /\ closer_at c = None /\ ident_start U c = false /\
    is_quote c = false).
  { destruct (lx_rest l) as [|c r]; [inversion NS; cbn in *; discriminate|]. exists c, r. split; [reflexivity|].
    assert (X : is_digit c = true \/ c = #".").
    { inversion NS; cbn in *; subst; auto. left. rewrite is_digit_cases, H, orb_true_r. reflexivity. }
    destruct X as [X| ->].
    - destruct (digit_token c NUL NUL X) as (_ & T2 & T3 & T4 & T5 & T6 & T7). repeat split; auto; try apply T4.
      intros b d _. apply (digit_token c b d X).
    - repeat split; try discriminate. intros b d D. apply dot_token. auto. }
  destruct SG as (c & r & R & SG & OP & OO & CC & II & QQ).
  rewrite (get_symbol_mid U l c r) by auto.
  unfold lex_token, cu_peek, peek3.
  change (cu_rest (lx_cur (set_start (set_start l (lx_pos l)) (lx_pos (set_start l (lx_pos l)))))) with (lx_rest l).
  change (set_start (set_start l (lx_pos l)) (lx_pos (set_start l (lx_pos l)))) with (set_start l (lx_pos l)).
  change (lx_cur (set_start l (lx_pos l))) with (lx_cur l).
  assert (LC : lx_cur l = mk_cursor (lx_pos l) (lx_rest l)) by (destruct l as [[? ?] ? ? ? ? ?]; reflexivity).
  rewrite LC. rewrite R in *. cbn [hd tl]. rewrite OO, CC, II.
  destruct NS as [p Z|p Z1 Z2|p Z]; cbn [hd tl] in *.
  - subst c. rewrite OP by discriminate. reflexivity.
  - subst c. rewrite OP by auto. rewrite Z2. reflexivity.
  - assert (D : is_digit c = true) by (rewrite is_digit_cases, Z, orb_true_r; reflexivity).
    destruct (digit_token c NUL NUL D) as (_ & _ & _ & _ & _ & _ & T7). rewrite T7, OP.
    + assert (Y : (c =? 48) = false).
      { unfold is_nonzero_digit, in_range in Z. apply andb_prop in Z. rewrite !N.leb_le in Z. apply N.eqb_neq. lia. }
      rewrite Y, Z. reflexivity.
    + intros ->. discriminate.
Qed.

(** ** Strings *)
Lemma string_shape : forall U l, mid_line l -> quote (hd NUL (lx_rest l)) ->
  string_case (set_start l (lx_pos l)) (lx_pos l) (lx_pos l) (lx_rest l) None [] (get_symbol U l).
Proof.
  intros U l (B & P) Q. destruct (quote_facts _ Q) as (NN & _). destruct (hd_nonnul _ NN) as (c & r & R & _).
  rewrite R in Q. cbn in Q. destruct (quote_token U c NUL NUL Q) as (_ & O2 & O3 & SG & IS).
  rewrite (get_symbol_mid U l c r) by auto.
  pose proof (lex_token_case U (set_start l (lx_pos l)) []) as TC.
  remember (lex_token U (set_start l (lx_pos l)) []) as res.
  assert (HR : lx_rest (set_start l (lx_pos l)) = c :: r) by exact R.
  assert (OP : operator_at (peek3 (lx_rest (set_start l (lx_pos l)))) = None).
  { rewrite HR. unfold peek3. cbn [hd tl]. eapply quote_token; eauto. }
  pose proof Q as Q'. apply quote_spec in Q'.
  destruct TC as [| | | |res O1 OO CC I W|res O1 OO CC I NS|res O1 OO CC I QQ SC|O1 OO CC I DD QQ DG]; rewrite ?HR in *; cbn [hd] in *; try congruence.
  - exfalso. clear - NS Q. inversion NS; cbn in *; destruct Q; subst; discriminate.
  - rewrite R. exact SC.
Qed.

Lemma prefixed_shape : forall U l w r, mid_line l -> lx_rest l = w ++ r -> string_prefix w -> quote (hd NUL r) ->
  string_case (set_start l (lx_pos l)) (lx_pos l) (lx_pos l + length w) r (Some w) [] (get_symbol U l).
Proof.
  intros U l w r M R P Q. pose proof (string_prefix_word U w r P Q) as W.
  pose proof (word_call_case U l w r M R W) as C. pose proof (prefix_not_reserved w P) as K.
  destruct W as (N & S & F & H).
  assert (SS : word_start U (hd NUL (w ++ r))) by (destruct w; [congruence|exact S]).
  change (lx_rest l) with (lx_rest (set_start l (lx_pos l))) in R.
  assert (W : word_at U w r) by (repeat split; auto).
  destruct C as [w' r' k' R' N' F' H' K'|w' r' R' N' F' H' K' P'|w' r' res R' N' F' H' K' P' Q' SC];
    assert (E : w = w' /\ r = r') by (apply (word_at_split U); auto; [apply word_case_at; auto; congruence|congruence]);
    destruct E as (<- & <-); try congruence.
  - exfalso. apply prefix_word in P. apply quote_spec in Q. rewrite P, Q in P'. discriminate.
  - exact SC.
Qed.

Lemma forall_body : forall q b, Forall (fun c => c <> q /\ c <> CR /\ c <> LF /\ c <> NUL) b -> forall x y, b <> q :: x /\ b <> x ++ q :: y.
Proof.
  intros q b F x y. split; intros ->.
  - inversion F; tauto.
  - rewrite Forall_forall in F. destruct (F q); [apply in_elt|tauto].
Qed.

Lemma single_case : forall l s p q b r pre tr res, quote q ->
  Forall (fun c => c <> q /\ c <> CR /\ c <> LF /\ c <> NUL) b -> In (hd NUL r) [CR; LF; NUL] ->
  string_case l s p (q :: b ++ r) pre tr res ->
  exists l', res = LErr (EAt unterminated_message (p + length (q :: b))) l'.
Proof.
  intros l s p q b r pre tr res Q F LE C.
  assert (NQ : In q [CR; LF; NUL] -> False).
  { destruct (quote_facts q Q) as (A & A1 & A2 & _). cbn. intros [X|[X|[X|[]]]]; congruence. }
  destruct C as [q' r' R H|q' b' r' R BN F'|q' b' r' R N H|q' b' r' R LE' F'|q' b' r' R N HN H].
  - cbn in R. inversion R; subst q'. exfalso. destruct b as [|c b]; cbn in *.
    + subst r. cbn in LE. auto.
    + inversion H2; subst. inversion F; tauto.
  - cbn in R. inversion R; subst q'. exfalso.
    destruct (single_unique q b' r' b r Q) as (B & R2); auto.
    + now apply body_chars_spec.
    + now apply body_chars_spec.
    + left. unfold body_char. cbn in LE. unfold line_end. destruct LE as [<-|[<-|[<-|[]]]]; reflexivity.
    + subst r. cbn in LE. auto.
  - exfalso. cbn in R. inversion R; subst q'. destruct b as [|c b]; cbn in *; [subst r; cbn in LE; auto|].
    inversion H2; subst. inversion F; tauto.
  - cbn in R. inversion R; subst q'.
    destruct (app_eq_app b r b' r' H1) as (z & [(A & B)|(A & B)]).
    + subst b r'. destruct z as [|c z].
      * rewrite app_nil_r. cbn [length]. replace (length b' + 1)%nat with (S (length b')) by lia. eauto.
      * exfalso. cbn in LE'. apply Forall_app in F. destruct F as (_ & F). inversion F; subst.
        unfold line_end in LE'. rewrite !orb_true_iff, !N.eqb_eq in LE'. tauto.
    + subst b' r. destruct z as [|c z].
      * rewrite app_nil_r. cbn [length]. replace (length b + 1)%nat with (S (length b)) by lia. eauto.
      * exfalso. cbn in LE. rewrite forallb_app in F'. apply andb_prop in F'. destruct F' as (_ & F'). cbn in F'.
        apply andb_prop in F'. destruct F' as (F' & _). unfold body_char, line_end in F'.
        destruct LE as [<-|[<-|[<-|[]]]]; discriminate F'.
  - exfalso. cbn in R. inversion R; subst q'. destruct b as [|c b]; cbn in *; [subst r; cbn in LE; auto|].
    inversion H2; subst. inversion F; tauto.
Qed.

Lemma triple_case : forall l s p q r pre tr res, quote q -> no_triple_end q r ->
  string_case l s p ([q; q; q] ++ r) pre tr res -> exists l', res = LErr (EMsg more_message) l'.
Proof.
  intros l s p q r pre tr res Q N C.
  destruct C as [q' r' R H|q' b' r' R BN F'|q' b' r' R NN H|q' b' r' R LE' F'|q' b' r' R NN HN H].
  - exfalso. cbn in R. inversion R; subst. cbn in H. apply H. reflexivity.
  - exfalso. cbn in R. inversion R; subst q'. destruct b' as [|c b']; [congruence|]. cbn in H1. inversion H1; subst c.
    cbn in F'. rewrite N.eqb_refl, andb_false_r in F'. discriminate.
  - exfalso. cbn in R. inversion R; subst. apply NN. eapply N. reflexivity.
  - exfalso. cbn in R. inversion R; subst q'. destruct b' as [|c b']; cbn in H1.
    + subst r'. cbn in LE'. destruct (quote_facts q Q) as (_ & _ & _ & X). congruence.
    + inversion H1; subst c. cbn in F'. rewrite N.eqb_refl, andb_false_r in F'. discriminate.
  - eauto.
Qed.

Lemma string_case_error : forall l s p r pre tr res e l', quote (hd NUL r) -> string_case l s p r pre tr res -> res = LErr e l' ->
  (exists q b r', r = q :: b ++ r' /\ quote q /\ Forall (fun c => c <> q /\ c <> CR /\ c <> LF /\ c <> NUL) b /\
     In (hd NUL r') [CR; LF; NUL] /\ e = EAt unterminated_message (p + length (q :: b))) \/
  (exists q r', r = [q; q; q] ++ r' /\ quote q /\ no_triple_end q r' /\ e = EMsg more_message).
Proof.
  intros l s p r pre tr res e l' Q C E.
  destruct C as [q' r' R H|q' b' r' R BN F'|q' b' r' R NN H|q' b' r' R LE' F'|q' b' r' R NN HN H];
    inversion E; subst; cbn [hd app] in Q; clear E.
  - left. exists q', b', r'. repeat split; auto.
    + now apply body_chars_spec.
    + unfold line_end in LE'. rewrite !orb_true_iff, !N.eqb_eq in LE'. cbn. intuition.
    + cbn [length]. f_equal. lia.
  - right. exists q', (b' ++ r'). repeat split; auto. intros b r E.
    destruct (Nat.le_gt_cases (length b') (length b)) as [L|L].
    + apply (f_equal (skipn (length b'))) in E. rewrite skipn_app_len, skipn_app in E.
      replace (length b' - length b)%nat with 0%nat in E by lia. cbn [skipn] in E.
      destruct (skipn (length b') b) as [|c z] eqn:K.
      * rewrite E in HN. cbn in HN. destruct (quote_facts q' Q) as (X & _). congruence.
      * rewrite E in HN. cbn in HN. subst c. rewrite <- (firstn_skipn (length b') b). apply in_or_app. right. rewrite K. left. reflexivity.
    + specialize (H _ L). rewrite E, skipn_app_len in H. cbn in H. rewrite !N.eqb_refl in H. discriminate.
Qed.

(** ** Every error *)
Lemma closer_closing : forall c k m, closer_at c = Some (k, m) <-> In (c, (k, m)) closing.
Proof.
  intros c k m. unfold closer_at, closing. cbn [In]. split.
  - destruct (N.eqb_spec c 41) as [->|]; [intros E; inversion E; auto|].
    destruct (N.eqb_spec c 93) as [->|]; [intros E; inversion E; auto|].
    destruct (N.eqb_spec c 125) as [->|]; [intros E; inversion E; auto|]. discriminate.
  - intros [E|[E|[E|[]]]]; inversion E; reflexivity.
Qed.

Lemma head_kind : forall ps c k m, Forall closers ps -> In (c, (k, m)) closing ->
  hd_error (map close_kind ps) = Some k <-> hd_error ps = Some c.
Proof.
  intros [|d ps] c k m F I; cbn [map hd_error]; [split; discriminate|]. inversion F as [|? ? D _]; subst.
  unfold closing in I. cbn [In] in I. unfold closers in D.
  destruct I as [I|[I|[I|[]]]]; inversion I; subst; destruct D as [->|[->| ->]]; vm_compute; split; intros X; congruence.
Qed.

Lemma token_error_sound : forall U l tr res e l', Forall closers (lx_parens l) -> token_case U l tr res -> res = LErr e l' ->
  ~ In (hd NUL (lx_rest l)) [SP; TAB; #"#"; NUL; CR; LF; BSL] -> lx_rest l <> [] ->
  error_at U (map close_kind (lx_parens l)) (lx_pos l) (lx_rest l) e.
Proof.
  intros U l tr res e l' FC TC E SG NE.
  destruct TC as [k n HO | k cl HO Ho | k msg below HO Ho Hc Hp | k msg HO Ho Hc Hp | res HO Ho Hc HI HW
      | res HO Ho Hc HI HN | res HO Ho Hc HI HQ HS | HO Ho Hc HI HD HQ Hd]; try discriminate.
  - inversion E; subst. destruct (lx_rest l) as [|c r]; [congruence|]. cbn [hd] in *. apply closer_closing in Hc.
    eapply EA_closer; eauto. rewrite head_kind by eauto. exact Hp.
  - destruct HW as [w' r' k' R' N' F' H' K'|w' r' R' N' F' H' K' P'|w' r' res R' N' F' H' K' P' Q' SC]; try discriminate.
    change (lx_rest (set_start l (lx_pos l))) with (lx_rest l) in R'. apply prefix_word in P'. apply quote_spec in Q'.
    destruct (string_case_error _ _ _ _ _ _ _ _ _ Q' SC E) as [(q & b & r2 & R & Q & F & LE & X)|(q & r2 & R & Q & N & X)]; subst e.
    + rewrite R', R. change (lx_pos (set_start l (lx_pos l))) with (lx_pos l). rewrite <- Nat.add_assoc, <- app_length. apply EA_single; auto.
    + rewrite R', R. apply EA_triple; auto.
  - destruct res as [[tx c1]|m1 [tx c1]]; [discriminate|]. pose proof (number_fault_sound _ _ _ _ _ HN eq_refl) as NF.
    cbn in E. inversion E; subst. apply EA_number. exact NF.
  - apply quote_spec in HQ.
    destruct (string_case_error _ _ _ _ _ _ _ _ _ HQ HS E) as [(q & b & r2 & R & Q & F & LE & X)|(q & r2 & R & Q & N & X)]; subst e; rewrite R.
    + apply (EA_single U _ _ [] q b r2); auto.
    + apply (EA_triple U _ _ [] q r2); auto.
  - inversion E; subst. destruct (lx_rest l) as [|c r] eqn:R; [congruence|]. cbn [hd tl] in *.
    apply (EA_unknown U _ (lx_pos l) (c :: r)).
    assert (DD : ~ dot_digit (c :: r)).
    { intros (d & r' & E1 & E2). inversion E1; subst. cbn [hd] in Hd. rewrite (Hd eq_refl) in E2. discriminate. }
    exists c, r. split; [reflexivity|]. split; [exact SG|].
    split; [apply no_operator_inv; auto|].
    split; [|split; [|split; auto]].
    + intros I. cbn in I. repeat (destruct I as [I|I]; [subst c; discriminate|]); destruct I.
    + intros W. apply word_start_ident in W. congruence.
    + intros Q. apply quote_spec in Q. congruence.
Qed.

Lemma errors_sound : forall U text evs l open e l', history U text evs l -> nest (kinds_of evs) [] = Some open ->
  get_symbol U l = LErr e l' ->
  exists tr p, (p < length text)%nat /\ tiled text (lx_bol l) (lx_pos l) (map PTrivia tr) false p /\
    error_at U open p (skipn p text) e.
Proof.
  intros U text evs l open e l' H NE E. pose proof (history_ok _ _ _ _ H) as OK.
  destruct (history_parens _ _ _ _ H) as (PA & FO). rewrite NE in PA. inversion PA; subst open. clear PA NE.
  destruct (get_symbol_trivia U text l OK) as (s & TO & F). rewrite E in F.
  pose proof (to_loop _ _ _ TO) as LO.
  remember (LErr e l') as res eqn:R.
  assert (IN : forall p c r, skipn p text = c :: r -> (p < length text)%nat).
  { intros p c r X. destruct (Nat.lt_ge_cases p (length text)) as [L|L]; auto. rewrite skipn_all2 in X by auto. discriminate. }
  destruct F as [e1 l1 Ho Hb | l1 b1 t l2 Ho Hb Hp | l1 b1 r LD C | l1 b1 c q r LD Hr N1 N2 N3 N4 N5 N6 N7 TC];
    try discriminate.
  - exfalso. destruct (begin_line_ok text (st_lex s) (st_blank s)) as (l2 & b2 & E2 & _); [apply LO|]. congruence.
  - pose proof (line_done_ok _ _ _ _ _ LO LD) as LO1. pose proof (ok_at _ _ (lo_ok _ _ _ LO1)) as AT. cbn [st_lex] in AT.
    destruct (line_done_tiled _ _ _ _ _ TO LD) as (TI & NB).
    subst r. inversion C; subst. exists (st_tr s), (lx_pos l1). destruct AT as (RE & LE).
    destruct (lx_rest l1) as [|c r] eqn:RL; [discriminate|]. unfold peek3 in H1. apply continuation_at_bad in H1.
    cbn [hd tl] in H1. destruct H1 as (-> & H1 & H2). split; [eapply IN; eauto|]. split; [exact TI|].
    rewrite <- RE. apply EA_continuation. intros n LB. destruct LB; cbn in H1, H2; congruence.
  - clear H0. pose proof (line_done_ok _ _ _ _ _ LO LD) as LO1. pose proof (ok_at _ _ (lo_ok _ _ _ LO1)) as AT. cbn [st_lex] in AT.
    destruct (line_done_tiled _ _ _ _ _ TO LD) as (TI & NB). pose proof (lo_parens _ _ _ LO1) as PS. cbn [st_lex] in PS.
    exists (st_tr s), (lx_pos l1). destruct AT as (RE & LE). rewrite Hr in RE. split; [eapply IN; eauto|]. split; [exact TI|].
    rewrite <- RE, <- PS, <- Hr. eapply (token_error_sound U (goto l1 (lx_pos l1) (lx_pos l1) (lx_rest l1))); eauto.
    + cbn. rewrite PS. exact FO.
    + cbn [lx_rest goto lx_cur cu_rest]. change (lx_rest (goto l1 (lx_pos l1) (lx_pos l1) (lx_rest l1))) with (lx_rest l1).
      rewrite Hr. cbn. intuition congruence.
    + change (lx_rest (goto l1 (lx_pos l1) (lx_pos l1) (lx_rest l1))) with (lx_rest l1). rewrite Hr. discriminate.
Qed.

Lemma closer_error : forall U l c k m r, mid_line l -> Forall closers (lx_parens l) -> lx_rest l = c :: r -> In (c, (k, m)) closing ->
  hd_error (map close_kind (lx_parens l)) <> Some k -> exists l', get_symbol U l = LErr (EAt m (lx_pos l)) l'.
Proof.
  intros U l c k m r (B & P) FO R I N. rewrite (head_kind _ _ _ _ FO I) in N.
  assert (S : significant c).
  { unfold significant. cbn in I. destruct I as [I|[I|[I|[]]]]; inversion I; subst; repeat split; discriminate. }
  rewrite (get_symbol_mid U l c r B P R S).
  assert (OP : forall b d, operator_at (c, b, d) = None).
  { intros b d. cbn in I. destruct I as [I|[I|[I|[]]]]; inversion I; subst; reflexivity. }
  assert (OO : opener_at c = None).
  { cbn in I. destruct I as [I|[I|[I|[]]]]; inversion I; subst; reflexivity. }
  apply closer_closing in I.
  unfold lex_token, cu_peek, peek3. change (cu_rest (lx_cur (set_start (set_start l (lx_pos l)) (lx_pos (set_start l (lx_pos l)))))) with (lx_rest l).
  rewrite R. cbn [hd tl]. rewrite OP, OO, I.
  change (lx_parens (lx_skip 1 (set_start (set_start l (lx_pos l)) (lx_pos (set_start l (lx_pos l)))))) with (lx_parens l).
  destruct (lx_parens l) as [|d below]; [eauto; eexists; reflexivity|].
  destruct (N.eqb_spec d c) as [->|]; [exfalso; apply N; reflexivity|]. eexists. reflexivity.
Qed.

Lemma errors_complete : forall U l e, mid_line l -> Forall closers (lx_parens l) ->
  error_at U (map close_kind (lx_parens l)) (lx_pos l) (lx_rest l) e -> exists l', get_symbol U l = LErr e l'.
Proof.
  intros U l e M FO H. remember (lx_rest l) as rr eqn:R. symmetry in R.
  destruct H as [r SN|c r k m I N|r LB|w q b r P Q F LE|w q r P Q N|r m NF].
  - rewrite <- R in SN |- *. eexists. apply unknown_call; auto.
  - eapply closer_error; eauto.
  - eexists. apply (bad_continuation_call U l r); auto.
  - destruct P as [->|P].
    + cbn [app] in R |- *. eapply single_case; eauto. rewrite <- R. apply (string_shape U l M). rewrite R. exact Q.
    + rewrite app_length, Nat.add_assoc. eapply single_case; eauto. apply (prefixed_shape U l w (q :: b ++ r)); auto.
  - destruct P as [->|P].
    + cbn [app] in R |- *. eapply triple_case; eauto. change ([q; q; q] ++ r) with (q :: q :: q :: r). rewrite <- R. apply (string_shape U l M). rewrite R. exact Q.
    + eapply triple_case; eauto. apply (prefixed_shape U l w ([q; q; q] ++ r)); auto.
  - destruct (number_fault_complete r m (lx_pos l) NF) as (x & NS). rewrite <- R in NS. rewrite (number_call U l _ M NS).
    destruct x as [tx c]. cbn. eauto.
Qed.

Lemma errors_exactly : forall U text evs l open e, history U text evs l -> nest (kinds_of evs) [] = Some open ->
  mid_line l -> starts_something (lx_rest l) ->
  ((exists l', get_symbol U l = LErr e l') <-> error_at U open (lx_pos l) (lx_rest l) e).
Proof.
  intros U text evs l open e H NE M (NI & NB).
  destruct (history_parens _ _ _ _ H) as (PA & FO). rewrite NE in PA. inversion PA; subst open. clear PA NE.
  split; [|apply errors_complete; auto]. intros (l' & E).
  destruct (lx_rest l) as [|c r] eqn:R; [exfalso; apply NI; cbn; tauto|]. cbn [hd] in NI.
  destruct (N.eq_dec c BSL) as [->|NBS].
  - rewrite (bad_continuation_call U l r M R) in E by (intros n; apply NB; reflexivity). inversion E; subst.
    apply EA_continuation. intros n. apply NB. reflexivity.
  - assert (SG : significant c) by (unfold significant; cbn in NI; repeat split; intros ->; apply NI; tauto).
    destruct M as (B & P). pose proof E as E0. rewrite (get_symbol_mid U l c r) in E by auto.
    rewrite <- R. change (lx_rest l) with (lx_rest (set_start l (lx_pos l))).
    change (lx_parens l) with (lx_parens (set_start l (lx_pos l))).
    change (lx_pos l) with (lx_pos (set_start l (lx_pos l))) at 2.
    eapply token_error_sound; [exact FO|apply lex_token_case|exact E| |].
    + change (lx_rest (set_start l (lx_pos l))) with (lx_rest l). rewrite R. cbn in *. intuition.
    + change (lx_rest (set_start l (lx_pos l))) with (lx_rest l). rewrite R. discriminate.
Qed.

(** ** What the messages say *)
Lemma fault_message : forall r m, number_fault r m ->
  In m [digits_message; octal_message; binary_message; point_message; zero_message].
Proof.
  intros r m H. destruct H as [c isd m w r RX RM DU N|ip f ex im r NP NZ N|ip f ex im r m NP NZ UD (F & X)|ip f ex im r NP NZ UD FO N
    |d w ex im r D DU EP IP N|s ip f ex im r m NR T ZP (F & X)|s ip f ex im r NR T ZP FO N|s ip r NR T ZP NZ]; cbn; auto 6.
  - destruct RM; auto.
  - destruct X as [(_ & ->)|(_ & ->)]; auto.
  - destruct X as [(_ & ->)|(_ & ->)]; auto.
Qed.

Lemma stated : forall U open p r m p', error_at U open p r (EAt m p') ->
  m <> digits_message -> (forall c k, ~ In (c, (k, m)) closing) -> as_stated open r m.
Proof.
  intros U open p r m p' H ND NC.
  assert (CLO : forall c k, In (c, (k, m)) closing -> hd_error open = Some k) by (intros c k I; exfalso; exact (NC c k I)).
  remember (EAt m p') as e eqn:E.
  destruct H as [r SN|c r k m' I N|r LB|w q b r P Q F LE|w q r P Q N|r m' NF]; inversion E; subst; clear E.
  - exfalso. eapply NC. exact I.
  - unfold as_stated. repeat split; try discriminate; auto. intros _. exists r. split; [reflexivity|].
    split; intros X; destruct r as [|c r]; cbn in X; try discriminate; subst c.
    + destruct (N.eq_dec (hd NUL r) LF) as [Y|Y].
      * destruct r as [|d r]; [discriminate|]. cbn in Y. subst d. exact (LB 2%nat (LB_crlf r)).
      * exact (LB 1%nat (LB_cr r Y)).
    + exact (LB 1%nat (LB_lf r)).
  - unfold as_stated. repeat split; try discriminate; auto.
  - destruct NF as [c isd m w r RX RM DU N|ip f ex im r NP NZ N|ip f ex im r m NP NZ UD (F & X)|ip f ex im r NP NZ UD FO N
    |d w ex im r D DU EP IP N|s ip f ex im r m NR T ZP (F & X)|s ip f ex im r NR T ZP FO N|s ip r NR T ZP NZ]; try congruence.
    + unfold as_stated. destruct RM; repeat split; try discriminate; auto; intros _; eauto.
    + destruct X as [((w & ->) & ->)|(_ & ->)]; [|congruence]. unfold as_stated. repeat split; try discriminate; auto.
      intros _. exists ip, (w ++ ex ++ im ++ r), #"_". split; reflexivity.
    + destruct X as [((w & ->) & ->)|(_ & ->)]; [|congruence]. unfold as_stated. repeat split; try discriminate; auto.
      intros _. destruct s as [|c s].
      { cbn in T. symmetry in T. apply app_eq_nil in T. destruct T as (_ & T). discriminate T. }
      cbn [tl] in T. exists (#"0" :: c :: ip), (w ++ ex ++ im ++ r), #"_". split; [|reflexivity]. cbn [app]. rewrite T. reflexivity.
    + unfold as_stated. repeat split; try discriminate; auto. intros _. eauto.
Qed.

Lemma bracket_message : forall U open p r m p' c k, error_at U open p r (EAt m p') -> In (c, (k, m)) closing ->
  hd NUL r = c /\ hd_error open <> Some k.
Proof.
  intros U open p r m p' c k H I. remember (EAt m p') as e eqn:E.
  destruct H as [r SN|c' r k' m' I' N|r LB|w q b r P Q F LE|w q r P Q N|r m' NF]; inversion E; subst; clear E.
  - unfold closing in I, I'. cbn [In] in I, I'. cbn [hd].
    destruct I as [I|[I|[I|[]]]]; inversion I; subst; destruct I' as [I'|[I'|[I'|[]]]]; inversion I'; subst; auto.
  - exfalso. cbn in I. destruct I as [I|[I|[I|[]]]]; inversion I.
  - exfalso. cbn in I. destruct I as [I|[I|[I|[]]]]; inversion I.
  - exfalso. apply fault_message in NF. cbn in I, NF. destruct I as [I|[I|[I|[]]]]; inversion I; subst;
      repeat destruct NF as [NF|NF]; try discriminate NF; destruct NF.
Qed.

(** ** What a parser means that expects a symbol *)
From Verif Require Import Node ParserState Parser GrammarSpec ParseBasics ParseSpec EndProofs OnlineSpec ErrorSpec ErrorProofs.

Lemma unreadable : forall U text n f m p, input_fn f = true -> run U n f (fresh text) = Err (EAt m p) ->
  says m = Unreadable -> ~ In m (map fst departures) ->
  exists ts l open tr q e, history U text (map inl ts) l /\ nest (kinds_of (map inl ts)) [] = Some open /\
    (q < length text)%nat /\ tiled text (lx_bol l) (lx_pos l) (map PTrivia tr) false q /\ error_at U open q (skipn q text) e.
Proof.
  intros U text n f m p IF R SA ND.
  destruct (truthful _ _ _ _ _ _ R ND) as (_ & s0 & l & s1 & BE & RD & HO & _).
  rewrite SA in HO. cbn [holds] in HO. unfold begun in BE. rewrite IF in BE.
  assert (H0 : history U text [] (ps_lexer (fresh text))) by constructor.
  pose proof (advance_history U text [] (fresh text) s0 H0 BE) as S0.
  pose proof (reads_history U text _ _ _ RD [] S0) as S1. cbn [app] in S1. unfold seen in S1.
  unfold view in HO. destruct (ps_symbol s1) as [t|e] eqn:SY; [discriminate|].
  inversion S1 as [Z|evs0 l0 t0 l1 HH G0 Z|evs0 l0 e0 l1 HH G0 Z]; subst.
  - destruct (map inl (map snd l)); discriminate.
  - apply app_inj_tail in Z. destruct Z as (_ & Z). discriminate.
  - apply app_inj_tail in Z. destruct Z as (Z & _). subst evs0.
    destruct (history_parens _ _ _ _ HH) as (PA & _).
    destruct (errors_sound U text _ l0 _ e0 _ HH PA G0) as (tr & q & A & B & C).
    exists (map snd l), l0, (map close_kind (lx_parens l0)), tr, q, e0. auto.
Qed.
