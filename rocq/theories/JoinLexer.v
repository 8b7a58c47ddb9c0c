(** One call of [get_symbol] on a text and on the same text followed by more. *)
From Coq Require Import ZArith Arith Lia.
From Verif Require Import Chars SourceBuffer Token Tokenizer LexBasics ScanLemmas LineLemmas.

Definition same_face (t t' : token) : Prop := tk_kind t' = tk_kind t /\ tk_payload t' = tk_payload t.

(** The lexer [l'] has [x] after everything [l] has left to read; where they stand in their
    texts is immaterial. *)
Definition followed (x : str) (l l' : lexer) : Prop :=
  lx_rest l' = lx_rest l ++ x /\ lx_parens l' = lx_parens l /\ lx_bol l' = lx_bol l /\
  lx_pending l' = lx_pending l /\ lx_indents l' = lx_indents l.

Section More.
Variable x : str.

Definition more (r r' : list char) : Prop := r' = r ++ x /\ (x = [] \/ exists r0, r = r0 ++ [LF]).
Definition lost (r : list char) : Prop := x <> [] /\ r = [].
Definition kin (r r' : list char) : Prop := lost r \/ more r r'.

Lemma more_nil : forall r', more [] r' -> x = [] /\ r' = [].
Proof. intros r' (E & [X|(r0 & X)]); [rewrite E, X; auto|]. destruct r0; discriminate X. Qed.

Lemma more_cons : forall c r r', more (c :: r) r' -> exists r1, r' = c :: r1 /\ kin r r1 /\ (lost r -> c = LF).
Proof.
  intros c r r' (E & X). exists (r ++ x). split; [exact E|]. destruct X as [X|(r0 & X)].
  - split; [right; split; auto|intros (N & _); contradiction].
  - destruct r0 as [|d r0]; injection X as <- X.
    + split; [|auto]. subst r. destruct (list_eq_dec N.eq_dec x []) as [EX|EX]; [right|left].
      * split; [reflexivity|auto].
      * split; [exact EX|reflexivity].
    + split; [right; split; [reflexivity|right; eauto]|]. intros (_ & N). subst r. destruct r0; discriminate N.
Qed.

Lemma more_hd : forall r r', more r r' -> hd NUL r' = hd NUL r.
Proof.
  intros [|c r] r' M; [destruct (more_nil _ M) as (_ & ->); reflexivity|].
  destruct (more_cons _ _ _ M) as (r1 & -> & _). reflexivity.
Qed.

Lemma kin_tl : forall r r', kin r r' -> kin (tl r) (tl r').
Proof.
  intros r r' [(N & ->)|M]; [left; split; auto|]. destruct r as [|c r].
  - destruct (more_nil _ M) as (E & ->). right. split; [rewrite E; reflexivity|auto].
  - destruct (more_cons _ _ _ M) as (r1 & -> & K & _). exact K.
Qed.

Lemma kin_skip : forall n c c', kin (cu_rest c) (cu_rest c') -> kin (cu_rest (cu_skip n c)) (cu_rest (cu_skip n c')).
Proof. induction n as [|n IH]; intros c c' K; [exact K|]. cbn [cu_skip]. apply IH. apply kin_tl. exact K. Qed.

Lemma skip_lost : forall n c, cu_rest c = [] -> cu_rest (cu_skip n c) = [].
Proof. induction n as [|n IH]; intros c E; [exact E|]. cbn [cu_skip]. apply IH. cbn [cu_advance cu_rest]. rewrite E. reflexivity. Qed.

Lemma more_peek : forall r r', more r r' ->
  peek3 r' = peek3 r \/ (x <> [] /\ (r = [LF] \/ exists a, r = [a; LF])).
Proof.
  intros r r' M. unfold peek3. destruct r as [|a r]; [destruct (more_nil _ M) as (_ & ->); auto|].
  destruct (more_cons _ _ _ M) as (r1 & -> & [L|M1] & A).
  { right. destruct L as (N & ->). split; auto. left. rewrite A; auto. split; auto. }
  destruct r as [|b r]; [destruct (more_nil _ M1) as (_ & ->); auto|].
  destruct (more_cons _ _ _ M1) as (r2 & -> & [L|M2] & B).
  { right. destruct L as (N & ->). split; auto. right. exists a. rewrite B; auto. split; auto. }
  left. cbn [hd tl]. rewrite (more_hd _ _ M2). reflexivity.
Qed.

(** ** The loops *)
Lemma run_while_kin : forall p r r', more r r' ->
  lost (snd (run_while p r)) \/
  (fst (run_while p r') = fst (run_while p r) /\ more (snd (run_while p r)) (snd (run_while p r'))).
Proof.
  intros p. induction r as [|c r IH]; intros r' M.
  - destruct (more_nil _ M) as (_ & ->). right. auto.
  - destruct (more_cons _ _ _ M) as (r1 & -> & K & _). cbn [run_while]. destruct (p c) eqn:P.
    + destruct K as [L|M1].
      * left. destruct L as (N & ->). split; auto.
      * specialize (IH _ M1). destruct (run_while p r) as [t u], (run_while p r1) as [t' u']. cbn [fst snd] in *.
        destruct IH as [L|(E & M2)]; [left; exact L|right; split; [congruence|exact M2]].
    + right. split; [reflexivity|exact M].
Qed.

Lemma indent_column_kin : forall r r' col pos pos', more r r' ->
  lost (cu_rest (snd (indent_column col pos r))) \/
  (fst (indent_column col pos' r') = fst (indent_column col pos r) /\
   more (cu_rest (snd (indent_column col pos r))) (cu_rest (snd (indent_column col pos' r')))).
Proof.
  induction r as [|c r IH]; intros r' col pos pos' M.
  - destruct (more_nil _ M) as (_ & ->). right. split; [reflexivity|exact M].
  - destruct (more_cons _ _ _ M) as (r1 & -> & K & _). cbn [indent_column]. destruct (c =? SP); [|destruct (c =? TAB)].
    1,2: destruct K as [L|M1]; [left; destruct L as (N & ->); split; auto|apply IH; exact M1].
    right. split; [reflexivity|exact M].
Qed.

Lemma digit_run_kin : forall isd r r', more r r' ->
  match digit_run isd r with
  | (t, u, true) => lost u \/ exists u', digit_run isd r' = (t, u', true) /\ more u u'
  | (_, _, false) => True
  end.
Proof.
  intros isd. induction r as [|c r IH]; intros r' M.
  - destruct (more_nil _ M) as (_ & ->). right. exists []. auto.
  - destruct (more_cons _ _ _ M) as (r1 & -> & K & LLF). cbn [digit_run]. destruct (c =? #"_") eqn:C.
    + destruct K as [L|M1]; [apply N.eqb_eq in C; rewrite C in LLF; discriminate (LLF L)|].
      rewrite (more_hd _ _ M1). destruct (isd (hd NUL r)); [|exact Logic.I].
      specialize (IH _ M1). destruct (digit_run isd r) as [[t u] [|]]; [|exact Logic.I].
      destruct IH as [L|(u' & -> & M2)]; [left; exact L|right; eauto].
    + destruct (isd c).
      * destruct K as [L|M1]; [destruct L as (N & ->); left; split; auto|].
        specialize (IH _ M1). destruct (digit_run isd r) as [[t u] [|]]; [|exact Logic.I].
        destruct IH as [L|(u' & -> & M2)]; [left; exact L|right; eauto].
      * right. eauto.
Qed.

Lemma single_body_kin : forall q r r', more r r' ->
  match single_body q r with
  | (t, u, true) => lost u \/ exists u', single_body q r' = (t, u', true) /\ more u u'
  | (_, _, false) => True
  end.
Proof.
  intros q. induction r as [|c r IH]; intros r' M.
  - exact Logic.I.
  - destruct (more_cons _ _ _ M) as (r1 & -> & K & LLF). cbn [single_body].
    destruct ((c =? NUL) || (c =? CR) || (c =? LF)); [exact Logic.I|]. destruct (c =? q).
    + destruct K as [L|M1]; [left; exact L|right; eauto].
    + destruct K as [L|M1]; [destruct L as (N & ->); exact Logic.I|].
      specialize (IH _ M1). destruct (single_body q r) as [[t u] [|]]; [|exact Logic.I].
      destruct IH as [L|(u' & -> & M2)]; [left; exact L|right; eauto].
Qed.

Lemma triple_body_kin : forall q n r r', (length r <= n)%nat -> more r r' ->
  match triple_body q r with
  | (t, u, true) => lost u \/ exists u', triple_body q r' = (t, u', true) /\ more u u'
  | (_, _, false) => True
  end.
Proof.
  intros q. induction n as [|n IH]; intros r r' LE M.
  { destruct r; [exact Logic.I|cbn in LE; lia]. }
  destruct r as [|a r]; [exact Logic.I|]. cbn [length] in LE.
  destruct (more_peek _ _ M) as [P|(N & P)].
  2:{ assert (Z : snd (triple_body q (a :: r)) = false).
      { destruct P as [P|(c & P)]; injection P as -> ->; cbn [triple_body peek3 hd tl].
        - reflexivity.
        - destruct (c =? NUL); [reflexivity|]. destruct (c =? CR); [reflexivity|]. destruct (c =? LF); [reflexivity|].
          destruct (q =? c); [|reflexivity]. destruct (N.eqb_spec q LF) as [->|]; reflexivity. }
      destruct (triple_body q (a :: r)) as [[t u] ok]. cbn [snd] in Z. subst. exact Logic.I. }
  destruct (more_cons _ _ _ M) as (r1 & -> & K & LLF).
  assert (STEP : match (let '(t, r', ok) := triple_body q r in (a :: t, r', ok)) with
    | (t, u, true) => lost u \/ exists u', (let '(t, r', ok) := triple_body q r1 in (a :: t, r', ok)) = (t, u', true) /\ more u u'
    | (_, _, false) => True end).
  { destruct K as [L|M1]; [destruct L as (N & ->); exact Logic.I|].
    specialize (IH r r1 ltac:(lia) M1). destruct (triple_body q r) as [[t u] [|]]; [|exact Logic.I].
    destruct IH as [L|(u' & -> & M2)]; [left; exact L|right; eauto]. }
  cbn [triple_body]. destruct (a =? NUL); [exact Logic.I|]. destruct (a =? CR).
  - destruct r as [|b r]; [exact Logic.I|]. destruct K as [(_ & L)|M1]; [discriminate L|].
    destruct (more_cons _ _ _ M1) as (r2 & -> & K2 & _). destruct (b =? LF); [|exact STEP].
    destruct K2 as [L|M2]; [destruct L as (N & ->); exact Logic.I|].
    cbn [length] in LE. specialize (IH r r2 ltac:(lia) M2). destruct (triple_body q r) as [[t u] [|]]; [|exact Logic.I].
    destruct IH as [L|(u' & -> & M3)]; [left; exact L|right; eauto].
  - destruct (a =? LF); [exact STEP|]. rewrite P. destruct (peek3 (a :: r)) as [[xa ya] za] eqn:PE.
    destruct ((q =? xa) && (q =? ya) && (q =? za)) eqn:Q; [|exact STEP].
    destruct r as [|b r]; [|destruct r as [|c r]].
    + injection PE as <- <- <-. cbn [hd tl] in Q. destruct (N.eqb_spec q NUL) as [->|]; [|rewrite !andb_false_r in Q; discriminate Q].
      destruct K as [L|M1]; [left; exact L|]. right. destruct (more_nil _ M1) as (_ & ->). exists []. auto.
    + destruct K as [(_ & L)|M1]; [discriminate L|]. destruct (more_cons _ _ _ M1) as (r2 & -> & K2 & _).
      destruct K2 as [L|M2]; [left; exact L|]. destruct (more_nil _ M2) as (_ & ->). right. exists []. auto.
    + destruct K as [(_ & L)|M1]; [discriminate L|]. destruct (more_cons _ _ _ M1) as (r2 & -> & [(_ & L)|M2] & _); [discriminate L|].
      destruct (more_cons _ _ _ M2) as (r3 & -> & [L|M3] & _); [left; exact L|]. right. eexists. split; [reflexivity|exact M3].
Qed.

(** ** Numbers *)
Definition num_more (y y' : num) : Prop := fst y' = fst y /\ more (cu_rest (snd y)) (cu_rest (snd y')).
Definition num_lost (y : num) : Prop := lost (cu_rest (snd y)).
Definition num_kin (y y' : num) : Prop := num_lost y \/ num_more y y'.
Definition res_kin (R R' : numres) : Prop :=
  match R with
  | NumOk y => num_lost y \/ exists y', R' = NumOk y' /\ num_more y y'
  | NumErr _ _ => True
  end.
(** A part of a number: what it does when nothing is left, and when something is. *)
Definition stage (k k' : num -> numres) : Prop :=
  (forall y R', num_lost y -> res_kin (k y) R') /\ (forall y y', num_more y y' -> res_kin (k y) (k' y')).

Lemma stage_kin : forall k k' y y', stage k k' -> num_kin y y' -> res_kin (k y) (k' y').
Proof. intros k k' y y' (A & B) [L|M]; auto. Qed.

Lemma stage_bind : forall R R' k k', res_kin R R' -> stage k k' -> res_kin (num_bind R k) (num_bind R' k').
Proof.
  intros [y|m y] R' k k' K (A & B); [|exact Logic.I]. cbn [num_bind]. destruct K as [L|(y' & -> & M)]; [apply A; exact L|].
  cbn [num_bind]. apply B. exact M.
Qed.

Lemma bind_lost : forall R R' k, (forall R0, res_kin R R0) -> (forall y R0, num_lost y -> res_kin (k y) R0) -> res_kin (num_bind R k) R'.
Proof.
  intros [y|m y] R' k K A; [|exact Logic.I]. cbn [num_bind]. destruct (K (NumErr msg_hex y)) as [L|(y' & E & _)]; [apply A; exact L|discriminate E].
Qed.

Lemma push_lost : forall y, num_lost y -> num_lost (num_push y).
Proof. intros y (N & E). split; auto. unfold num_push. cbn [snd cu_advance cu_rest]. rewrite E. reflexivity. Qed.

Lemma push_kin : forall y y', num_more y y' -> num_kin (num_push y) (num_push y').
Proof.
  intros [t [p r]] [t' [p' r']] (E & M); unfold num_push, num_kin, num_more, num_lost in *; cbn [fst snd cu_rest cu_char cu_advance] in *.
  destruct (kin_tl r r') as [L|M1]; [right; exact M|left; exact L|]. right. split; [|exact M1].
  unfold cu_char. cbn [cu_rest]. rewrite (more_hd _ _ M), E. reflexivity.
Qed.

Lemma char_more : forall y y', num_more y y' -> num_char y' = num_char y.
Proof. intros y y' (_ & M). apply more_hd. exact M. Qed.
Lemma char_lost : forall y, num_lost y -> num_char y = NUL.
Proof. intros y (_ & E). unfold num_char, cu_char. rewrite E. reflexivity. Qed.

Lemma digits_stage : forall isd m, stage (num_digits isd m) (num_digits isd m).
Proof.
  intros isd m. split.
  - intros y R' (N & E). unfold num_digits. rewrite E. cbn [digit_run]. left. split; auto.
  - intros y y' (E & M). unfold num_digits.
    pose proof (digit_run_kin isd _ _ M) as D. destruct (digit_run isd (cu_rest (snd y))) as [[t u] [|]]; [|exact Logic.I].
    destruct D as [L|(u' & -> & M1)]; [left; exact L|]. right. eexists. split; [reflexivity|]. unfold num_more. cbn [fst snd cu_after cu_rest].
    split; [congruence|exact M1].
Qed.

Lemma fraction_stage : stage num_fraction num_fraction.
Proof.
  split; unfold num_fraction.
  - intros y R' L. rewrite (char_lost _ L). left. exact L.
  - intros y y' M. rewrite (char_more _ _ M). destruct (num_char y =? #"."); [|right; eauto].
    destruct (push_kin _ _ M) as [L|M1].
    + rewrite (char_lost _ L). change (NUL =? #"_") with false. cbv iota. apply (proj1 (digits_stage _ _)). exact L.
    + rewrite (char_more _ _ M1). destruct (num_char (num_push y) =? #"_"); [exact Logic.I|]. apply digits_stage. exact M1.
Qed.

Lemma exponent_stage : stage num_exponent num_exponent.
Proof.
  split; unfold num_exponent.
  - intros y R' L. rewrite (char_lost _ L). left. exact L.
  - intros y y' M. rewrite (char_more _ _ M). destruct ((num_char y =? #"e") || (num_char y =? #"E")); [|right; eauto].
    destruct (push_kin _ _ M) as [L|M1].
    + rewrite (char_lost _ L). change ((NUL =? #"+") || (NUL =? #"-")) with false. cbv iota zeta. apply (proj1 (digits_stage _ _)). exact L.
    + cbv zeta. rewrite (char_more _ _ M1). destruct ((num_char (num_push y) =? #"+") || (num_char (num_push y) =? #"-")).
      * apply (stage_kin _ _ _ _ (digits_stage _ _)). apply push_kin. exact M1.
      * apply digits_stage. exact M1.
Qed.

Lemma imaginary_kin : forall y y', num_more y y' -> num_kin (num_imaginary y) (num_imaginary y').
Proof.
  intros y y' M. unfold num_imaginary. rewrite (char_more _ _ M).
  destruct ((num_char y =? #"j") || (num_char y =? #"J")); [apply push_kin; exact M|right; exact M].
Qed.

Lemma imaginary_lost : forall y, num_lost y -> num_lost (num_imaginary y).
Proof. intros y L. unfold num_imaginary. rewrite (char_lost _ L). exact L. Qed.

Lemma kin_ok : forall y y', num_kin y y' -> res_kin (NumOk y) (NumOk y').
Proof. intros y y' [L|M]; [left; exact L|right; eauto]. Qed.

Lemma last_stage : forall b : char -> bool,
  stage (fun y => let f := b (num_char y) in if f then NumErr msg_zero (num_imaginary y) else NumOk (num_imaginary y))
        (fun y => let f := b (num_char y) in if f then NumErr msg_zero (num_imaginary y) else NumOk (num_imaginary y)).
Proof.
  intros b. split.
  - intros y R' L. cbv zeta. destruct (b (num_char y)); [exact Logic.I|]. left. apply imaginary_lost. exact L.
  - intros y y' M. cbv zeta. rewrite (char_more _ _ M). destruct (b (num_char y)); [exact Logic.I|]. apply kin_ok. apply imaginary_kin. exact M.
Qed.

Lemma plain_last : stage (fun y => NumOk (num_imaginary y)) (fun y => NumOk (num_imaginary y)).
Proof.
  split.
  - intros y R' L. left. apply imaginary_lost. exact L.
  - intros y y' M. apply kin_ok. apply imaginary_kin. exact M.
Qed.

Lemma exponent_then : forall k k', stage k k' ->
  stage (fun y => num_bind (num_exponent y) k) (fun y => num_bind (num_exponent y) k').
Proof.
  intros k k' S. split.
  - intros y R' L. apply bind_lost; [intros R0; apply (proj1 exponent_stage); exact L|apply S].
  - intros y y' M. apply stage_bind; [apply exponent_stage; exact M|exact S].
Qed.

Lemma radix_kin : forall isd m y y', isd NUL = false -> num_more y y' -> res_kin (radix_number isd m y) (radix_number isd m y').
Proof.
  intros isd m y y' Z M. unfold radix_number. cbv zeta. destruct (push_kin _ _ M) as [L|M1].
  - rewrite (char_lost _ L), Z. exact Logic.I.
  - rewrite (char_more _ _ M1). destruct (isd (num_char (num_push y)) || (num_char (num_push y) =? #"_")); [|exact Logic.I].
    apply digits_stage. exact M1.
Qed.

(** After a zero and the character behind it. *)
Definition zero_rest (x1 : num) : numres :=
  let '(t, r) := run_while is_digit (cu_rest (snd x1)) in
  let x2 := (fst x1 ++ t, cu_after (snd x1) t r) in
  let nz := existsb is_nonzero_digit t in
  let nz1 := if num_char x2 =? #"." then false else nz in
  num_bind (num_fraction x2) (fun x3 =>
  let nz2 := if (num_char x3 =? #"e") || (num_char x3 =? #"E") then false else nz1 in
  num_bind (num_exponent x3) (fun x4 =>
  let nz3 := if (num_char x4 =? #"j") || (num_char x4 =? #"J") then false else nz2 in
  let x5 := num_imaginary x4 in
  if nz3 then NumErr msg_zero x5 else NumOk x5)).

Lemma zero_end_stage : forall nz1 : bool,
  let k := (fun x3 : num =>
    let nz2 := if (num_char x3 =? #"e") || (num_char x3 =? #"E") then false else nz1 in
    num_bind (num_exponent x3) (fun x4 =>
    let nz3 := if (num_char x4 =? #"j") || (num_char x4 =? #"J") then false else nz2 in
    let x5 := num_imaginary x4 in
    if nz3 then NumErr msg_zero x5 else NumOk x5)) in stage k k.
Proof.
  intros nz1 k. unfold k. split.
  - intros y R' L. cbv zeta. apply bind_lost; [intros R0; apply (proj1 exponent_stage); exact L|].
    intros y1 R0 L1. rewrite (char_lost _ L1). 
    change ((NUL =? #"j") || (NUL =? #"J")) with false. cbv iota.
    destruct (if (num_char y =? #"e") || (num_char y =? #"E") then false else nz1); [exact Logic.I|left; apply imaginary_lost; exact L1].
  - intros y y' M. cbv zeta. rewrite (char_more _ _ M). set (nz2 := if (num_char y =? #"e") || (num_char y =? #"E") then false else nz1).
    apply stage_bind; [apply exponent_stage; exact M|].
    apply (last_stage (fun c => if (c =? #"j") || (c =? #"J") then false else nz2)).
Qed.

Lemma zero_stage : stage zero_rest zero_rest.
Proof.
  split; unfold zero_rest.
  - intros y R' (N & E). rewrite E. cbn [run_while]. apply bind_lost; [|apply zero_end_stage].
    intros R0. apply (proj1 fraction_stage). split; auto.
  - intros y y' (E & M). destruct (run_while_kin is_digit _ _ M) as [L|(ET & M1)].
    + destruct (run_while is_digit (cu_rest (snd y))) as [t u]. cbn [snd] in L. cbv zeta.
      destruct (run_while is_digit (cu_rest (snd y'))) as [t' u'].
      apply bind_lost; [|apply zero_end_stage]. intros R0. apply (proj1 fraction_stage). exact L.
    + destruct (run_while is_digit (cu_rest (snd y))) as [t u], (run_while is_digit (cu_rest (snd y'))) as [t' u']. cbn [fst snd] in *. subst t'.
      assert (M2 : num_more (fst y ++ t, cu_after (snd y) t u) (fst y' ++ t, cu_after (snd y') t u')).
      { split; cbn [fst snd cu_after cu_rest]; [congruence|exact M1]. }
      cbv zeta. rewrite (char_more _ _ M2).
      apply stage_bind; [apply fraction_stage; exact M2|]. apply zero_end_stage.
Qed.

Lemma from_zero_kin : forall c c', more (cu_rest c) (cu_rest c') -> res_kin (number_from_zero c) (number_from_zero c').
Proof.
  intros c c' M0. unfold number_from_zero. cbv zeta.
  assert (M : num_more ([], c) ([], c')) by (split; auto).
  destruct (push_kin _ _ M) as [L|M1].
  - rewrite (char_lost _ L). cbv iota. cbn [orb]. change (NUL =? #"x") with false. change (NUL =? #"X") with false.
    change (NUL =? #"o") with false. change (NUL =? #"O") with false. change (NUL =? #"b") with false. change (NUL =? #"B") with false.
    cbv iota. apply zero_stage. apply push_lost. exact L.
  - rewrite (char_more _ _ M1). set (d := num_char (num_push ([], c))).
    destruct ((d =? #"x") || (d =? #"X")); [apply radix_kin; [reflexivity|exact M1]|].
    destruct ((d =? #"o") || (d =? #"O")); [apply radix_kin; [reflexivity|exact M1]|].
    destruct ((d =? #"b") || (d =? #"B")); [apply radix_kin; [reflexivity|exact M1]|].
    apply (stage_kin _ _ _ _ zero_stage). apply push_kin. exact M1.
Qed.

Lemma from_nonzero_kin : forall c c', more (cu_rest c) (cu_rest c') -> res_kin (number_from_nonzero c) (number_from_nonzero c').
Proof.
  intros c c' M0. unfold number_from_nonzero. assert (M : num_more ([], c) ([], c')) by (split; auto).
  apply stage_bind; [apply digits_stage; exact M|]. split.
  - intros y R' L. apply bind_lost; [intros R0; apply (proj1 fraction_stage); exact L|]. apply (exponent_then _ _ plain_last).
  - intros y y' M1. apply stage_bind; [apply fraction_stage; exact M1|]. apply (exponent_then _ _ plain_last).
Qed.

Lemma from_dot_kin : forall c c', more (cu_rest c) (cu_rest c') -> res_kin (number_from_dot c) (number_from_dot c').
Proof.
  intros c c' M0. unfold number_from_dot. assert (M : num_more ([], c) ([], c')) by (split; auto). cbv zeta.
  assert (K : num_kin (num_push (num_push ([], c))) (num_push (num_push ([], c')))).
  { destruct (push_kin _ _ M) as [L|M1]; [left; apply push_lost; exact L|apply push_kin; exact M1]. }
  destruct K as [L|K].
  - apply bind_lost; [intros R0; apply (proj1 (digits_stage _ _)); exact L|]. apply (exponent_then _ _ plain_last).
  - apply stage_bind; [apply digits_stage; exact K|]. apply (exponent_then _ _ plain_last).
Qed.

(** ** Tokens *)
Definition going (l l' : lexer) : Prop :=
  more (lx_rest l) (lx_rest l') /\ lx_parens l' = lx_parens l /\ lx_bol l' = lx_bol l /\
  lx_pending l' = lx_pending l /\ lx_indents l' = lx_indents l.

Definition lexed_kin (R R' : lexed) : Prop :=
  match R with
  | LOk t l1 => (lost (lx_rest l1) /\ tk_payload t <> Break LF SP) \/
      exists t' l1', R' = LOk t' l1' /\ same_face t t' /\ followed x l1 l1'
  | _ => True
  end.

Lemma going_followed : forall l l', going l l' -> followed x l l'.
Proof. intros l l' ((E & _) & Z). split; auto. Qed.

Lemma going_cur : forall l l' c c', going l l' -> more (cu_rest c) (cu_rest c') -> going (set_cur l c) (set_cur l' c').
Proof. intros l l' c c' (_ & A & B & C & D) M. split; [exact M|]. auto. Qed.

Lemma going_start : forall l l' p p', going l l' -> going (set_start l p) (set_start l' p').
Proof. intros l l' p p' (M & A & B & C & D). split; [exact M|]. auto. Qed.

Lemma going_char : forall l l', going l l' -> lx_char l' = lx_char l.
Proof. intros l l' (M & _). apply more_hd. exact M. Qed.

Lemma kin_token : forall t t' l1 l1', tk_payload t <> Break LF SP -> same_face t t' ->
  kin (lx_rest l1) (lx_rest l1') -> lx_parens l1' = lx_parens l1 -> lx_bol l1' = lx_bol l1 ->
  lx_pending l1' = lx_pending l1 -> lx_indents l1' = lx_indents l1 ->
  lexed_kin (LOk t l1) (LOk t' l1').
Proof.
  intros t t' l1 l1' N F [L|(M & _)] A B C D; [left; auto|]. right. exists t', l1'. split; [reflexivity|]. split; [exact F|].
  split; [exact M|]. auto.
Qed.

Lemma skip_kin : forall n l l', going l l' -> kin (lx_rest (lx_skip n l)) (lx_rest (lx_skip n l')).
Proof. intros n l l' (M & _). apply (kin_skip n (lx_cur l) (lx_cur l')). right. exact M. Qed.

Lemma arms_at_break : forall a z z', operator_at (a, LF, z) = operator_at (a, LF, z').
Proof.
  intros a z z'. unfold operator_at.
  assert (Z : forall l, forallb (fun y : arm => let '(_, pb, pc, _, _) := y in
      match pc with PAny => true | _ => negb (pat_match pb LF) end) l = true -> find (arm_match (a, LF, z)) l = find (arm_match (a, LF, z')) l).
  { induction l as [|y l IH]; [reflexivity|]. cbn [forallb find]. intros H. apply andb_prop in H. destruct H as (H1 & H2).
    rewrite (IH H2). replace (arm_match (a, LF, z) y) with (arm_match (a, LF, z') y); [reflexivity|].
    destruct y as [[[[pa pb] pc] k] n]. cbn [arm_match]. destruct pc; [reflexivity| |];
      destruct (pat_match pb LF); try discriminate H1; rewrite !andb_false_r; reflexivity. }
  rewrite Z; [reflexivity|]. reflexivity.
Qed.

Lemma string_kin : forall l l' s s' p tr tr', going l l' -> is_quote (lx_char l) = true ->
  lexed_kin (lex_string l s p tr) (lex_string l' s' p tr').
Proof.
  intros l l' s s' p tr tr' G Q.
  assert (H : forall b, lexed_kin (handle_string l s b p tr) (handle_string l' s' b p tr')).
  { intros b. unfold handle_string. cbv zeta. rewrite (going_char _ _ G). pose proof G as (M & A & B & C & D). destruct b.
    - destruct (kin_skip 3 (lx_cur l) (lx_cur l') (or_intror M)) as [L|M1].
      + destruct L as (_ & ->). exact Logic.I.
      + pose proof (triple_body_kin (lx_char l) _ _ _ (le_n _) M1) as T.
        destruct (triple_body (lx_char l) (cu_rest (cu_skip 3 (lx_cur l)))) as [[t u] [|]] eqn:ET; [|exact Logic.I].
        assert (F3 : firstn 3 (lx_rest l') = firstn 3 (lx_rest l)).
        { destruct M as (-> & _). unfold lx_rest in *. destruct (cu_rest (lx_cur l)) as [|c0 [|c1 [|c2 r]]] eqn:ER; try reflexivity.
          all: cbn [cu_skip cu_advance cu_rest tl] in ET; rewrite ER in ET; cbn [tl] in ET; discriminate ET. }
        destruct T as [L|(u' & -> & M2)].
        * left. split; [exact L|discriminate].
        * apply kin_token; try assumption; [discriminate| |right; exact M2].
          split; [reflexivity|]. cbn [tk_payload]. rewrite F3. reflexivity.
    - destruct (kin_skip 1 (lx_cur l) (lx_cur l') (or_intror M)) as [L|M1].
      + destruct L as (_ & ->). exact Logic.I.
      + pose proof (single_body_kin (lx_char l) _ _ M1) as T.
        destruct (single_body (lx_char l) (cu_rest (cu_skip 1 (lx_cur l)))) as [[t u] [|]]; [|exact Logic.I].
        destruct T as [L|(u' & -> & M2)].
        * left. split; [exact L|discriminate].
        * apply kin_token; try assumption; [discriminate|split; reflexivity|right; exact M2]. }
  assert (E2 : forall a b, lexed_kin
     (LOk (Tok T_AtomString (Range s (lx_pos (lx_skip 2 l))) (finish_trivia tr) (StringLit [a; b] p)) (lx_skip 2 l))
     (LOk (Tok T_AtomString (Range s' (lx_pos (lx_skip 2 l'))) (finish_trivia tr') (StringLit [a; b] p)) (lx_skip 2 l'))).
  { intros a b. pose proof G as (M & A & B & C & D). apply kin_token; try assumption; [discriminate|split; reflexivity|]. apply skip_kin. exact G. }
  pose proof G as (M & _). unfold lex_string, cu_peek.
  change (cu_rest (lx_cur l)) with (lx_rest l). change (cu_rest (lx_cur l')) with (lx_rest l').
  destruct (more_peek _ _ M) as [P|(N & [P|(a & P)])].
  - rewrite P. destruct (peek3 (lx_rest l)) as [[a b] c]. cbv zeta. destruct ((a =? b) && (b =? c)); [apply H|].
    destruct (a =? b); [apply E2|apply H].
  - exfalso. unfold lx_char, cu_char in Q. change (cu_rest (lx_cur l)) with (lx_rest l) in Q. rewrite P in Q. discriminate Q.
  - assert (P' : exists z, peek3 (lx_rest l') = (a, LF, z)).
    { destruct M as (-> & _). rewrite P. eexists. reflexivity. }
    destruct P' as (z & ->). rewrite P. cbn [peek3 hd tl]. assert (AL : (a =? LF) = false).
    { unfold lx_char, cu_char in Q. change (cu_rest (lx_cur l)) with (lx_rest l) in Q. rewrite P in Q. cbn [hd] in Q.
      destruct (N.eqb_spec a LF) as [->|]; [discriminate Q|reflexivity]. }
    rewrite AL. cbn [andb]. apply H.
Qed.

Lemma while_kin : forall p l l', going l l' ->
  lost (cu_rest (snd (cu_run_while p (lx_cur l)))) \/
  (fst (cu_run_while p (lx_cur l')) = fst (cu_run_while p (lx_cur l)) /\
   more (cu_rest (snd (cu_run_while p (lx_cur l)))) (cu_rest (snd (cu_run_while p (lx_cur l'))))).
Proof.
  intros p l l' (M & _). unfold cu_run_while. pose proof (run_while_kin p _ _ M) as K. unfold lx_rest in K.
  destruct (run_while p (cu_rest (lx_cur l))), (run_while p (cu_rest (lx_cur l'))). exact K.
Qed.

Lemma string_lost : forall l s p tr R', lost (lx_rest l) -> lexed_kin (lex_string l s p tr) R'.
Proof.
  intros l s p tr R' (N & E). unfold lex_string, cu_peek. change (cu_rest (lx_cur l)) with (lx_rest l). rewrite E. cbn [peek3 hd tl].
  change ((NUL =? NUL) && (NUL =? NUL)) with true. cbv iota. unfold handle_string. cbv zeta. 
  rewrite (skip_lost 3 (lx_cur l) E). exact Logic.I.
Qed.

Lemma word_kin : forall U l l' tr tr', going l l' -> lexed_kin (lex_word U l tr) (lex_word U l' tr').
Proof.
  intros U l l' tr tr' G. unfold lex_word. pose proof (while_kin (ident_char U) _ _ G) as K. pose proof G as (M & A & B & C & D).
  destruct (cu_run_while (ident_char U) (lx_cur l)) as [w c] eqn:E1, (cu_run_while (ident_char U) (lx_cur l')) as [w' c'] eqn:E2. cbn [fst snd] in K.
  destruct K as [L|(-> & M1)].
  - cbv zeta. destruct (keyword_of w); [left; split; [exact L|discriminate]|].
    destruct (is_prefix_word w && is_quote (lx_char (set_cur l c))); [|left; split; [exact L|discriminate]].
    apply string_lost. exact L.
  - cbv zeta. pose proof (going_cur _ _ _ _ G M1) as G1. destruct (keyword_of w).
    + apply kin_token; try assumption; [discriminate|split; reflexivity|right; exact M1].
    + rewrite (going_char _ _ G1). destruct (is_prefix_word w && is_quote (lx_char (set_cur l c))) eqn:Q.
      * apply string_kin; [exact G1|]. apply andb_prop in Q. apply Q.
      * apply kin_token; try assumption; [discriminate|split; reflexivity|right; exact M1].
Qed.

Lemma number_kin : forall l l' tr tr' R R', going l l' -> res_kin R R' -> lexed_kin (lex_number l tr R) (lex_number l' tr' R').
Proof.
  intros l l' tr tr' [[t c]|m [t c]] R' G K; [|exact Logic.I]. cbn [lex_number]. destruct K as [L|([t' c'] & -> & E & M)].
  - left. split; [exact L|discriminate].
  - pose proof G as (_ & A & B & C & D). cbn [fst snd] in E, M. subst t'. cbn [lex_number]. cbv zeta.
    apply kin_token; try assumption; [discriminate|split; reflexivity|right; exact M].
Qed.

Lemma token_kin : forall U l l' tr tr', going l l' -> lx_char l <> LF -> lexed_kin (lex_token U l tr) (lex_token U l' tr').
Proof.
  intros U l0 l0' tr tr' G0 NL. unfold lex_token. cbv zeta.
  pose proof (going_start _ _ (lx_pos l0) (lx_pos l0') G0) as G.
  change (lx_char l0) with (lx_char (set_start l0 (lx_pos l0))) in NL.
  set (l := set_start l0 (lx_pos l0)) in *. set (l' := set_start l0' (lx_pos l0')) in *. clearbody l l'. clear G0 l0 l0'.
  pose proof G as (M & A & B & C & D). unfold cu_peek.
  change (cu_rest (lx_cur l)) with (lx_rest l). change (cu_rest (lx_cur l')) with (lx_rest l').
  assert (P : exists a b c c', peek3 (lx_rest l) = (a, b, c) /\ peek3 (lx_rest l') = (a, b, c') /\ operator_at (a, b, c') = operator_at (a, b, c) /\ lx_char l = a).
  { destruct (more_peek _ _ M) as [P|(N & [P|(a & P)])].
    - destruct (peek3 (lx_rest l)) as [[a b] c] eqn:PE. exists a, b, c, c. split; [reflexivity|]. split; [congruence|]. split; [reflexivity|]. injection PE as <- _ _. reflexivity.
    - exfalso. apply NL. unfold lx_char, cu_char. change (cu_rest (lx_cur l)) with (lx_rest l). rewrite P. reflexivity.
    - exists a, LF, NUL, (hd NUL x). destruct M as (-> & _). rewrite P. split; [reflexivity|]. split; [reflexivity|]. split; [apply arms_at_break|].
      unfold lx_char, cu_char. change (cu_rest (lx_cur l)) with (lx_rest l). rewrite P. reflexivity. }
  destruct P as (a & b & c & c' & -> & -> & OP & CA). rewrite OP. destruct (operator_at (a, b, c)) as [[k n]|].
  { cbv zeta. apply kin_token; try assumption; [discriminate|split; reflexivity|]. apply skip_kin. exact G. }
  destruct (opener_at a) as [[k closer]|].
  { apply kin_token; try assumption; [discriminate|split; reflexivity| |]; cbn [set_parens lx_parens]; [|congruence].
    exact (skip_kin 1 _ _ G). }
  destruct (closer_at a) as [[k msg]|].
  { change (lx_parens (lx_skip 1 l')) with (lx_parens l'). change (lx_parens (lx_skip 1 l)) with (lx_parens l). rewrite A.
    destruct (lx_parens l) as [|top below]; [exact Logic.I|]. destruct (top =? a); [|exact Logic.I].
    apply kin_token; try assumption; [discriminate|split; reflexivity| |reflexivity]. exact (skip_kin 1 _ _ G). }
  destruct (ident_start U a); [apply word_kin; exact G|].
  destruct (a =? #"0"); [apply number_kin; [exact G|apply from_zero_kin; exact M]|].
  destruct ((a =? #".") && is_digit b); [apply number_kin; [exact G|apply from_dot_kin; exact M]|].
  destruct (is_nonzero_digit a); [apply number_kin; [exact G|apply from_nonzero_kin; exact M]|].
  destruct (is_quote a) eqn:Q; [|exact Logic.I]. apply string_kin; [exact G|]. rewrite CA. exact Q.
Qed.

(** ** The loop before the token *)
Lemma layout_kin : forall l l' col, going l l' ->
  match layout_update l col with
  | inl l1 => exists l1', layout_update l' col = inl l1' /\ going l1 l1'
  | inr _ => True
  end.
Proof.
  intros l l' col G. pose proof G as (M & A & B & C & D). unfold layout_update. cbv zeta. rewrite C, D.
  destruct (_ && (col =? last_level (lx_indents l))%nat); [eauto|].
  destruct (_ && (last_level (lx_indents l) <? col)%nat).
  - eexists. split; [reflexivity|]. split; [exact M|]. auto.
  - destruct (pop_levels col (lx_pending l) (lx_indents l)) as [p levels']. cbv iota.
    destruct (match levels' with [] => true | _ => (col <? last_level levels')%nat end); [exact Logic.I|].
    eexists. split; [reflexivity|]. split; [exact M|]. auto.
Qed.

Lemma layout_rest : forall l col l1, layout_update l col = inl l1 -> lx_rest l1 = lx_rest l.
Proof.
  intros l col l1. unfold layout_update. cbv zeta.
  destruct (_ && (col =? last_level (lx_indents l))%nat); [intros [= <-]; reflexivity|].
  destruct (_ && (last_level (lx_indents l) <? col)%nat); [intros [= <-]; reflexivity|].
  destruct (pop_levels col (lx_pending l) (lx_indents l)) as [p levels'].
  destruct (match levels' with [] => true | _ => (col <? last_level levels')%nat end); [discriminate|]. intros [= <-]. reflexivity.
Qed.

Lemma begin_kin : forall l l' b, going l l' ->
  match begin_line l b with
  | inl (l1, b1) => lost (lx_rest l1) \/ exists l1', begin_line l' b = inl (l1', b1) /\ going l1 l1'
  | inr _ => True
  end.
Proof.
  intros l l' b G. pose proof G as (M & A & B & C & D). unfold begin_line. rewrite B. destruct (lx_bol l); [|right; eauto].
  cbv zeta. pose proof (indent_column_kin _ _ 0%nat (lx_pos (set_bol l false)) (lx_pos (set_bol l' false)) M) as K.
  change (lx_rest (set_bol l false)) with (lx_rest l). change (lx_rest (set_bol l' false)) with (lx_rest l').
  destruct (indent_column 0 (lx_pos (set_bol l false)) (lx_rest l)) as [col c],
           (indent_column 0 (lx_pos (set_bol l' false)) (lx_rest l')) as [col' c']. cbn [fst snd] in K.
  destruct K as [L|(-> & M1)].
  - destruct (blank_check (lx_char (set_cur (set_bol l false) c)) col b) as [b1 col1].
    destruct (negb b1 && _); [|left; exact L].
    destruct (layout_update (set_cur (set_bol l false) c) col1) as [l3|e] eqn:LU; [|exact Logic.I]. left. rewrite (layout_rest _ _ _ LU). exact L.
  - assert (G1 : going (set_cur (set_bol l false) c) (set_cur (set_bol l' false) c')).
    { split; [exact M1|]. cbn. auto. }
    rewrite (going_char _ _ G1). change (lx_parens (set_cur (set_bol l' false) c')) with (lx_parens l'). rewrite A.
    change (lx_parens (set_cur (set_bol l false) c)) with (lx_parens l).
    destruct (blank_check (lx_char (set_cur (set_bol l false) c)) col b) as [b1 col1].
    destruct (negb b1 && match lx_parens l with [] => true | _ => false end); [|right; eauto].
    pose proof (layout_kin _ _ col1 G1) as LK. destruct (layout_update (set_cur (set_bol l false) c) col1) as [l3|e]; [|exact Logic.I].
    destruct LK as (l3' & -> & G3). right. eauto.
Qed.

Definition state_kin (s s' : st) : Prop := going (st_lex s) (st_lex s') /\ st_outer s' = st_outer s /\ st_blank s' = st_blank s.

Definition scanned_kin (R R' : scanned) : Prop :=
  match R with
  | SReturn r => match R' with SReturn r' => lexed_kin r r' | SBreak _ _ => lexed_kin r LFuel end
  | SBreak l1 _ => exists l1' tr', R' = SBreak l1' tr' /\ going l1 l1' /\ lx_char l1 <> LF
  end.

Definition step_kin (R R' : st + scanned) : Prop :=
  match R with
  | inl s => lost (lx_rest (st_lex s)) \/ exists s', R' = inl s' /\ state_kin s s'
  | inr r => match R' with inr r' => scanned_kin r r' | inl _ => scanned_kin r (SReturn LFuel) end
  end.

Lemma lexed_kin_any : forall R R', lexed_kin R LFuel -> lexed_kin R R'.
Proof. intros [t l|e l|] R' H; try exact Logic.I. destruct H as [L|(t' & l' & E & _)]; [left; exact L|discriminate E]. Qed.

Lemma inner_lost : forall l tr b, lost (lx_rest l) -> exists t l1, inner_step l tr b = inr (SReturn (LOk t l1)) /\ lost (lx_rest l1) /\ tk_payload t = NoPayload.
Proof.
  intros l tr b L. pose proof L as (N & E). unfold inner_step.
  assert (Z : lx_char l = NUL) by (unfold lx_char, cu_char; change (cu_rest (lx_cur l)) with (lx_rest l); rewrite E; reflexivity).
  rewrite Z. change (NUL =? SP) with false. change (NUL =? TAB) with false. cbv iota zeta.
  change (lx_char (set_start l (lx_pos l))) with (lx_char l). rewrite Z. change (NUL =? #"#") with false. change (NUL =? NUL) with true. cbv iota.
  eexists _, _. split; [reflexivity|]. split; [exact L|reflexivity].
Qed.

Lemma begin_lost : forall l b l1 b1, begin_line l b = inl (l1, b1) -> lost (lx_rest l) -> lost (lx_rest l1).
Proof.
  intros l b l1 b1 H (N & E). apply begin_line_rest in H. destruct H as (w & A & _). split; [exact N|].
  rewrite E in A. destruct w; [symmetry; exact A|discriminate A].
Qed.

Lemma step_lost : forall s, lost (lx_rest (st_lex s)) ->
  exists r, scan_step s = inr (SReturn r) /\ lexed_kin r LFuel.
Proof.
  intros [o l tr b] L. unfold scan_step. cbn [st_lex st_outer st_tr st_blank] in *. destruct o.
  - destruct (begin_line l b) as [[l1 b1]|[e l1]] eqn:BL; [|eexists; split; [reflexivity|exact Logic.I]].
    pose proof (begin_lost _ _ _ _ BL L) as L1. unfold pending_token. destruct (lx_pending l1 <? 0)%Z; [|destruct (0 <? lx_pending l1)%Z].
    + eexists. split; [reflexivity|]. left. split; [exact L1|discriminate].
    + eexists. split; [reflexivity|]. left. split; [exact L1|discriminate].
    + destruct (inner_lost l1 tr b1 L1) as (t & l2 & -> & L2 & P). eexists. split; [reflexivity|]. left. split; [exact L2|rewrite P; discriminate].
  - destruct (inner_lost l tr b L) as (t & l2 & -> & L2 & P). eexists. split; [reflexivity|]. left. split; [exact L2|rewrite P; discriminate].
Qed.

Lemma newline_any : forall a b c c', newline_at (a, b, c) = newline_at (a, b, c').
Proof. reflexivity. Qed.

Lemma inner_kin : forall l l' tr tr' b, going l l' -> step_kin (inner_step l tr b) (inner_step l' tr' b).
Proof.
  intros l l' tr tr' b G. pose proof G as (M & A & B & C & D). unfold inner_step. rewrite (going_char _ _ G).
  destruct (lx_char l =? SP) eqn:ESP.
  { pose proof (while_kin (fun c => c =? SP) _ _ G) as K.
    destruct (cu_run_while (fun c => c =? SP) (lx_cur l)) as [w c], (cu_run_while (fun c => c =? SP) (lx_cur l')) as [w' c']. cbn [fst snd] in K.
    destruct K as [L|(_ & M1)]; [left; exact L|]. right. eexists. split; [reflexivity|]. split; [|split; reflexivity]. cbn [st_lex].
    apply going_cur; [apply going_start; exact G|exact M1]. }
  destruct (lx_char l =? TAB) eqn:ETAB.
  { pose proof (going_start _ _ (lx_pos l) (lx_pos l') G) as G1. destruct (skip_kin 1 _ _ G1) as [L|M1]; [left; exact L|].
    right. eexists. split; [reflexivity|]. split; [|split; reflexivity]. cbn [st_lex]. apply going_cur; [exact G1|exact M1]. }
  cbv zeta. pose proof (going_start _ _ (lx_pos l) (lx_pos l') G) as G2.
  change (lx_char (set_start l (lx_pos l))) with (lx_char l). change (lx_char (set_start l' (lx_pos l'))) with (lx_char l'). rewrite (going_char _ _ G).
  destruct (lx_char l =? #"#") eqn:EH.
  { pose proof (while_kin comment_char _ _ G2) as K.
    destruct (cu_run_while comment_char (lx_cur (set_start l (lx_pos l)))) as [w c], (cu_run_while comment_char (lx_cur (set_start l' (lx_pos l')))) as [w' c']. cbn [fst snd] in K.
    destruct K as [L|(-> & M1)].
    - destruct (starts_with $"# type:" w); [|left; exact L].
      destruct (starts_with $"# type:" w'); left; (split; [exact L|discriminate]).
    - destruct (starts_with $"# type:" w).
      + apply kin_token; try assumption; [discriminate|split; reflexivity|right; exact M1].
      + right. eexists. split; [reflexivity|]. split; [|split; reflexivity]. cbn [st_lex]. apply going_cur; [exact G2|exact M1]. }
  destruct (lx_char l =? NUL) eqn:EN.
  { apply kin_token; try assumption; [discriminate|split; reflexivity|right; exact M]. }
  unfold cu_peek. change (cu_rest (lx_cur (set_start l (lx_pos l)))) with (lx_rest l). change (cu_rest (lx_cur (set_start l' (lx_pos l')))) with (lx_rest l').
  assert (P : newline_at (peek3 (lx_rest l')) = newline_at (peek3 (lx_rest l)) /\
    (newline_at (peek3 (lx_rest l)) = None -> continuation_at (peek3 (lx_rest l')) = continuation_at (peek3 (lx_rest l)))).
  { destruct (more_peek _ _ M) as [P|(N & [P|(a & P)])].
    - rewrite P. auto.
    - destruct M as (-> & _). rewrite P. split; [reflexivity|discriminate].
    - destruct M as (-> & _). rewrite P. split; [reflexivity|]. intros _. unfold continuation_at, peek3. cbn [hd tl app].
      destruct (a =? BSL); reflexivity. }
  destruct P as (PN & PC). rewrite PN.
  destruct (newline_at (peek3 (lx_rest l))) as [[[n c1] c2]|] eqn:NW.
  { change (lx_parens (set_bol (lx_skip n (set_start l' (lx_pos l'))) true)) with (lx_parens l').
    change (lx_parens (set_bol (lx_skip n (set_start l (lx_pos l))) true)) with (lx_parens l). rewrite A.
    destruct (b || match lx_parens l with [] => false | _ => true end).
    - destruct (skip_kin n _ _ G2) as [L|M1]; [left; exact L|]. right. eexists. split; [reflexivity|]. split; [|split; reflexivity]. cbn [st_lex].
      split; [exact M1|]. auto.
    - destruct (skip_kin n _ _ G2) as [L|M1].
      + (* the break was the last thing in the text *)
        assert (Z : (n = 1%nat /\ c1 = LF /\ c2 = SP) \/ c1 = CR).
        { unfold newline_at in NW. destruct (peek3 (lx_rest l)) as [[a0 b0] c0]. destruct ((a0 =? CR) && (b0 =? LF)); [injection NW as <- <- <-; auto|].
          destruct (a0 =? CR); [injection NW as <- <- <-; auto|]. destruct (a0 =? LF); [injection NW as <- <- <-; auto|discriminate NW]. }
        destruct Z as [(-> & -> & ->)| -> ]; [|left; split; [exact L|discriminate]].
        right. eexists _, _. split; [reflexivity|]. split; [split; reflexivity|].
        split; [|auto]. cbn. change (cu_rest (lx_cur l')) with (lx_rest l'). change (cu_rest (lx_cur l)) with (lx_rest l).
        destruct M as (-> & _). destruct (lx_rest l) as [|c r] eqn:ER; [|reflexivity].
        discriminate NW.
      + right. eexists _, _. split; [reflexivity|]. split; [split; reflexivity|]. destruct M1 as (M1 & _). split; [exact M1|]. auto. }
  rewrite (PC eq_refl). destruct (continuation_at (peek3 (lx_rest l))) as [[[[n c1] c2]|]|].
  - destruct (skip_kin n _ _ G2) as [L|M1]; [left; exact L|]. right. eexists. split; [reflexivity|]. split; [|split; reflexivity]. cbn [st_lex].
    apply going_cur; [exact G2|exact M1].
  - exact Logic.I.
  - eexists _, _. split; [reflexivity|]. split; [exact G2|]. intros E. unfold peek3 in NW.
    change (hd NUL (lx_rest l)) with (lx_char l) in NW. change (lx_char (set_start l (lx_pos l))) with (lx_char l) in E. rewrite E in NW. discriminate NW.
Qed.

Lemma pending_kin : forall l l', going l l' ->
  match pending_token l with
  | Some (t, l1) => exists l1', pending_token l' = Some (t, l1') /\ followed x l1 l1'
  | None => pending_token l' = None
  end.
Proof.
  intros l l' ((M & _) & A & B & C & D). unfold pending_token. rewrite C, D. destruct (lx_pending l <? 0)%Z; [|destruct (0 <? lx_pending l)%Z; [|reflexivity]].
  1,2: eexists; split; [reflexivity|]; split; [exact M|]; auto.
Qed.

Lemma step_kin_holds : forall s s', state_kin s s' -> step_kin (scan_step s) (scan_step s').
Proof.
  intros [o l tr b] [o' l' tr' b'] (G & EO & EB). cbn [st_lex st_outer st_blank] in *. subst o' b'. unfold scan_step. cbn [st_lex st_outer st_blank st_tr].
  destruct o; [|apply inner_kin; exact G].
  pose proof (begin_kin _ _ b G) as K. destruct (begin_line l b) as [[l1 b1]|[e l1]].
  2:{ unfold step_kin, scanned_kin. destruct (match begin_line l' b with inl _ => _ | inr _ => _ end) as [s0|[r|? ?]]; exact Logic.I. }
  destruct K as [L|(l1' & -> & G1)].
  - assert (Z : exists r, (match pending_token l1 with Some (t, l2) => inr (SReturn (LOk t l2)) | None => inner_step l1 tr b1 end) = inr (SReturn r) /\ lexed_kin r LFuel).
    { unfold pending_token. destruct (lx_pending l1 <? 0)%Z; [|destruct (0 <? lx_pending l1)%Z].
      + eexists. split; [reflexivity|]. left. split; [exact L|discriminate].
      + eexists. split; [reflexivity|]. left. split; [exact L|discriminate].
      + destruct (inner_lost l1 tr b1 L) as (t & l2 & -> & L2 & P). eexists. split; [reflexivity|]. left. split; [exact L2|rewrite P; discriminate]. }
    destruct Z as (r & -> & Z). unfold step_kin, scanned_kin.
    destruct (match begin_line l' b with inl _ => _ | inr _ => _ end) as [s0|[r'|? ?]]; [exact Z|apply lexed_kin_any; exact Z|exact Z].
  - pose proof (pending_kin _ _ G1) as P. destruct (pending_token l1) as [[t l2]|].
    + destruct P as (l2' & -> & F). right. exists t, l2'. split; [reflexivity|]. split; [split; reflexivity|exact F].
    + rewrite P. apply inner_kin. exact G1.
Qed.

Lemma scan_kin : forall n s s' n', state_kin s s' -> (length (lx_rest (st_lex s')) < n')%nat ->
  match scan n (st_outer s) (st_lex s) (st_tr s) (st_blank s) with
  | SReturn LFuel => True
  | R => scanned_kin R (scan n' (st_outer s') (st_lex s') (st_tr s') (st_blank s'))
  end.
Proof.
  induction n as [|n IH]; intros s s' n' K LE; [exact Logic.I|].
  destruct n' as [|n']; [lia|]. rewrite !scan_S. pose proof (step_kin_holds _ _ K) as SK. unfold step_kin in SK.
  destruct (scan_step s) as [s1|r] eqn:E1.
  - destruct SK as [L|(s1' & E2 & K1)].
    + destruct n as [|n]; [exact Logic.I|]. rewrite scan_S. destruct (step_lost s1 L) as (r & -> & Z).
      destruct r as [t l|e l|]; [| |exact Logic.I]; unfold scanned_kin;
        (destruct (match scan_step s' with inl _ => _ | inr _ => _ end) as [r'|? ?]; [apply lexed_kin_any; exact Z|exact Z]).
    + rewrite E2. apply IH; [exact K1|]. apply scan_step_consumes in E2. lia.
  - destruct r as [[t l|e l|]|l tr]; try exact Logic.I.
    + destruct (scan_step s') as [s1'|r']; [|exact SK]. unfold scanned_kin in *.
      destruct (scan n' (st_outer s1') (st_lex s1') (st_tr s1') (st_blank s1')); [apply lexed_kin_any; exact SK|exact SK].
    + destruct (match scan_step s' with inl _ => _ | inr _ => _ end) as [r'|? ?]; exact Logic.I.
    + destruct (scan_step s') as [s1'|r']; [destruct SK as (? & ? & E & _); discriminate E|exact SK].
Qed.

Lemma symbol_kin : forall U l l' t l1, going l l' -> get_symbol U l = LOk t l1 ->
  (lost (lx_rest l1) /\ tk_payload t <> Break LF SP) \/
  exists t' l1', get_symbol U l' = LOk t' l1' /\ same_face t t' /\ followed x l1 l1'.
Proof.
  intros U l l' t l1 G H. unfold get_symbol in *. cbv zeta in *.
  pose proof (scan_kin (S (length (lx_rest (set_start l (lx_pos l))))) (St true (set_start l (lx_pos l)) [] false)
    (St true (set_start l' (lx_pos l')) [] false) (S (length (lx_rest (set_start l' (lx_pos l')))))) as K.
  cbn [st_outer st_lex st_tr st_blank] in K.
  specialize (K ltac:(split; [apply going_start; exact G|split; reflexivity]) ltac:(lia)).
  destruct (scan (S (length (lx_rest (set_start l (lx_pos l))))) true (set_start l (lx_pos l)) [] false) as [r|l2 tr].
  - subst r. unfold scanned_kin in K. destruct (scan _ true (set_start l' (lx_pos l')) [] false) as [r'|l2' tr'].
    + exact K.
    + destruct K as [K|(t' & l1' & E & _)]; [left; exact K|discriminate E].
  - destruct K as (l2' & tr' & -> & G2 & NL). pose proof (token_kin U l2 l2' tr tr' G2 NL) as T. rewrite H in T. exact T.
Qed.
End More.
