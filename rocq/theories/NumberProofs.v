(** Number literals: C11-C13. *)
From Coq Require Import ZArith Arith Lia.
From Verif Require Import Chars SourceBuffer Token Tokenizer LexBasics ScanLemmas LineLemmas
  TokenLemmas NumberLemmas WellFormed CallLemmas CallTheorem LexSpec HistoryProofs.

Lemma udigits_tl : forall isd d w, isd #"_" = false -> isd d = true ->
  udigits isd (d :: w) -> udigits isd w.
Proof. intros isd d w U D H. inversion H; subst; auto. congruence. Qed.

Lemma udigits_under : forall isd w, isd #"_" = false -> udigits isd (#"_" :: w) ->
  exists d w', w = d :: w' /\ isd d = true /\ udigits isd w'.
Proof. intros isd w U H. inversion H; subst; [congruence|eauto]. Qed.

Lemma digit_run_spec : forall isd, isd #"_" = false -> forall w r,
  digits_and_underscores isd w r ->
  (udigits isd w /\ digit_run isd (w ++ r) = (w, r, true)) \/
  (~ udigits isd w /\ exists t r1, digit_run isd (w ++ r) = (t, r1, false)).
Proof.
  intros isd U. induction w as [|c w IH]; intros r (F & H1 & H2).
  - left. split; [constructor|]. cbn [app]. destruct r as [|c r]; [reflexivity|].
    cbn [digit_run hd] in *. destruct (N.eqb_spec c 95); [contradiction|]. rewrite H1. reflexivity.
  - inversion F as [|? ? Hc Fw]; subst.
    destruct (IH r (conj Fw (conj H1 H2))) as [(UD & E)|(UD & t & r1 & E)]; cbn [app digit_run];
      destruct (N.eqb_spec c 95) as [->|NE].
    + destruct (isd (hd NUL (w ++ r))) eqn:D.
      * left. rewrite E. split; auto. destruct w as [|d w].
        -- cbn in D. congruence.
        -- cbn in D. apply UD_under; auto. eapply udigits_tl; eauto.
      * right. split; [|eauto]. intros X. apply udigits_under in X; auto.
        destruct X as (d & w' & -> & X & _). cbn in D. congruence.
    + left. destruct Hc as [Hc|Hc]; [|contradiction]. rewrite Hc, E. split; auto. constructor; auto.
    + right. split.
      * intros X. apply udigits_under in X; auto. destruct X as (d & w' & -> & X & Y).
        apply UD. constructor; auto.
      * destruct (isd (hd NUL (w ++ r))); [rewrite E|]; eauto.
    + right. destruct Hc as [Hc|Hc]; [|contradiction]. rewrite Hc, E. split; eauto.
      intros X. apply UD. eapply udigits_tl; eauto.
Qed.

Definition reads (b : str) (p : nat) (w r : str) : num := (b ++ w, mk_cursor (p + length w) r).

Lemma num_digits_spec : forall isd m b p w r, isd #"_" = false -> digits_and_underscores isd w r ->
  (udigits isd w /\ num_digits isd m (b, mk_cursor p (w ++ r)) = NumOk (reads b p w r)) \/
  (~ udigits isd w /\ exists x, num_digits isd m (b, mk_cursor p (w ++ r)) = NumErr m x).
Proof.
  intros isd m b p w r U H. unfold num_digits. cbn [snd cu_rest fst].
  destruct (digit_run_spec isd U w r H) as [(A & E)|(A & t & r1 & E)]; rewrite E; [left|right]; eauto.
Qed.

Lemma num_push_cons : forall b p c r, num_push (b, mk_cursor p (c :: r)) = @pair str cursor (b ++ [c]) (mk_cursor (p + 1) r).
Proof. intros. unfold num_push, cu_char, cu_advance. cbn. f_equal. f_equal. lia. Qed.

Lemma reads_reads : forall b p w r w' r' , 
  reads (b ++ w) (p + length w) w' r' = reads b p (w ++ w') r' /\ reads b p [] r = (b, mk_cursor p r).
Proof.
  intros. unfold reads. rewrite app_length, app_assoc, Nat.add_assoc, app_nil_r, Nat.add_0_r. auto.
Qed.

Lemma reads_more : forall b p w w' r',
  reads (b ++ w) (p + length w) w' r' = reads b p (w ++ w') r'.
Proof. intros. unfold reads. rewrite app_length, app_assoc, Nat.add_assoc. auto. Qed.

Lemma reads_nil : forall b p r, reads b p [] r = (b, mk_cursor p r).
Proof. intros. unfold reads. rewrite app_nil_r, Nat.add_0_r. auto. Qed.

Lemma reads_cons : forall b p c w r, reads (b ++ [c]) (p + 1) w r = reads b p (c :: w) r.
Proof. intros. apply (reads_more b p [c]). Qed.

Lemma radix_number_spec : forall isd m b p c w r, isd #"_" = false -> digits_and_underscores isd w r ->
  (udigits isd w /\ w <> [] /\ radix_number isd m (b, mk_cursor p (c :: w ++ r)) = NumOk (reads b p (c :: w) r)) \/
  (~ (udigits isd w /\ w <> []) /\ exists x, radix_number isd m (b, mk_cursor p (c :: w ++ r)) = NumErr m x).
Proof.
  intros isd m b p c w r U H. unfold radix_number. cbv zeta. rewrite num_push_cons. unfold num_char, cu_char. cbn [snd cu_rest].
  destruct w as [|d w].
  - right. split; [tauto|]. destruct H as (_ & H1 & H2). cbn [app]. rewrite H1.
    destruct (N.eqb_spec (hd NUL r) 95); [contradiction|]. cbn. eauto.
  - cbn [app hd]. pose proof H as H'. destruct H as (F & H1 & H2). inversion F as [|? ? Hd Fw]; subst.
    assert (X : isd d || (d =? 95) = true).
    { destruct Hd as [->| ->]; [reflexivity|]. apply orb_true_r. }
    rewrite X. destruct (num_digits_spec isd m (b ++ [c]) (p + 1) (d :: w) r U H') as [(A & E)|(A & x & E)].
    + left. repeat split; auto; [discriminate|]. cbn [app] in E. rewrite E. f_equal. apply reads_cons.
    + right. split; [tauto|]. eauto.
Qed.

Definition frac_ok' (f : str) : Prop := f = [] \/ exists w : str, f = #"." :: w /\ udigits is_digit w /\ hd NUL w <> #"_".

Lemma frac_ok_iff : forall f, frac_ok f <-> frac_ok' f.
Proof.
  intros f. unfold frac_ok, frac_ok', digitpart. split.
  - intros [->|[->|(w & -> & A & B & C)]]; auto; right.
    + exists []. repeat split; [constructor|discriminate].
    + eauto.
  - intros [->|(w & -> & A & B)]; auto. destruct w as [|c w]; [auto|]. right. right.
    exists (c :: w). repeat split; auto. discriminate.
Qed.

Lemma num_fraction_spec : forall b p f r, frac_part f r ->
  (frac_ok f /\ num_fraction (b, mk_cursor p (f ++ r)) = NumOk (reads b p f r)) \/
  (~ frac_ok f /\ exists m x, num_fraction (b, mk_cursor p (f ++ r)) = NumErr m x).
Proof.
  intros b p f r H. rewrite frac_ok_iff. unfold num_fraction, num_char, cu_char. cbv zeta. cbn [snd cu_rest].
  destruct H as [(-> & H)|(w & -> & H)].
  - left. split; [left; auto|]. cbn [app]. destruct (N.eqb_spec (hd NUL r) 46); [contradiction|].
    rewrite reads_nil. reflexivity.
  - cbn [app hd]. rewrite N.eqb_refl. rewrite num_push_cons. cbn [snd cu_rest].
    destruct (N.eqb_spec (hd NUL (w ++ r)) 95) as [E|NE].
    + right. split; [|eauto]. intros [X|(w' & X & Y & Z)]; [discriminate|]. inversion X; subst w'.
      destruct w as [|c w]; cbn in *; [|congruence]. destruct H as (_ & _ & H). contradiction.
    + destruct (num_digits_spec is_digit msg_hex (b ++ [#"."]) (p + 1) w r eq_refl H) as [(A & E)|(A & x & E)].
      * left. split.
        -- right. exists w. repeat split; auto. destruct w; [discriminate|exact NE].
        -- etransitivity; [exact E|]. f_equal. apply reads_cons.
      * right. split; [|do 2 eexists; exact E]. intros [X|(w' & X & Y & Z)]; [discriminate|]. inversion X; subst w'. auto.
Qed.

Definition exp_as_coded' := exp_as_coded.

Lemma num_exponent_spec : forall b p ex r, exp_part ex r ->
  (exp_as_coded ex /\ num_exponent (b, mk_cursor p (ex ++ r)) = NumOk (reads b p ex r)) \/
  (~ exp_as_coded ex /\ exists m x, num_exponent (b, mk_cursor p (ex ++ r)) = NumErr m x).
Proof.
  intros b p ex r H. unfold num_exponent, num_char, cu_char. cbv zeta. cbn [snd cu_rest].
  destruct H as [(-> & H1 & H2)|(c & s & w & -> & Hc & Hs & H)].
  - left. split; [left; auto|]. cbn [app]. destruct (N.eqb_spec (hd NUL r) 101); [contradiction|].
    destruct (N.eqb_spec (hd NUL r) 69); [contradiction|]. rewrite reads_nil. reflexivity.
  - assert (X : (c =? 101) || (c =? 69) = true) by (destruct Hc; subst c; reflexivity).
    cbn [app hd]. rewrite X. rewrite num_push_cons. cbn [snd cu_rest].
    assert (EX : (if (hd NUL ((s ++ w) ++ r) =? 43) || (hd NUL ((s ++ w) ++ r) =? 45)
                  then num_push (@pair str cursor (b ++ [c]) (mk_cursor (p + 1) ((s ++ w) ++ r)))
                  else @pair str cursor (b ++ [c]) (mk_cursor (p + 1) ((s ++ w) ++ r)))
                 = @pair str cursor (b ++ c :: s) (mk_cursor (p + length (c :: s)) (w ++ r))).
    { destruct Hs as [->|[->|(-> & H1 & H2)]]; cbn [app hd].
      - rewrite num_push_cons, <- app_assoc. cbn. do 2 f_equal. lia.
      - rewrite num_push_cons, <- app_assoc. cbn. do 2 f_equal. lia.
      - destruct (N.eqb_spec (hd NUL (w ++ r)) 43); [contradiction|].
        destruct (N.eqb_spec (hd NUL (w ++ r)) 45); [contradiction|]. reflexivity. }
    rewrite EX.
    destruct (num_digits_spec is_digit msg_hex (b ++ c :: s) (p + length (c :: s)) w r eq_refl H) as [(A & E)|(A & x & E)].
    + left. split.
      * right. exists c, s, w. repeat split; auto. destruct Hs as [Hs|[Hs|(Hs & _)]]; auto.
      * etransitivity; [exact E|]. f_equal. rewrite reads_more. reflexivity.
    + right. split; [|do 2 eexists; exact E]. intros [Y|(c' & s' & w' & Y & Hc' & Hs' & UD)]; [discriminate|].
      injection Y as Yc H1. subst c'.
      assert (w = w').
      { clear x E. assert (NS : forall x (y z : str), x = 43 \/ x = 45 -> x :: y = z -> digits_and_underscores is_digit z r -> False).
        { intros x y z Hx <- (Fz & _). inversion Fz as [|? ? Hd _]; subst.
          destruct Hx; subst x; destruct Hd as [Hd|Hd]; discriminate. }
        assert (NS' : forall x (y z : str), x = 43 \/ x = 45 -> x :: y = z -> udigits is_digit z -> False).
        { intros x y z Hx <- Uz. inversion Uz; subst; destruct Hx as [Hx|Hx]; subst; discriminate. }
        destruct Hs as [->|[->|(-> & _)]]; destruct Hs' as [->|[->| ->]]; cbn in H1; try congruence;
          try (exfalso; eapply NS; [|exact H1|]; eauto; fail);
          try (exfalso; eapply NS; [|symmetry; exact H1|]; eauto; fail);
          try (exfalso; eapply NS'; [|exact H1|]; eauto; fail);
          try (exfalso; eapply NS'; [|symmetry; exact H1|]; eauto; fail). }
      subst w'. auto.
Qed.

Lemma num_imaginary_spec : forall b p im r, imag_part im r ->
  num_imaginary (b, mk_cursor p (im ++ r)) = reads b p im r.
Proof.
  intros b p im r H. unfold num_imaginary, num_char, cu_char. cbn [snd cu_rest].
  destruct H as [(-> & H1 & H2)|[->| ->]].
  - cbn [app]. destruct (N.eqb_spec (hd NUL r) 106); [contradiction|].
    destruct (N.eqb_spec (hd NUL r) 74); [contradiction|]. rewrite reads_nil. reflexivity.
  - cbn [app hd]. cbn. rewrite num_push_cons. reflexivity.
  - cbn [app hd]. cbn. rewrite num_push_cons. reflexivity.
Qed.

(** Rewriting up to the [str] / [list char] abbreviations. *)
Ltac crw E := match type of E with
  | num_digits ?i ?m ?x = _ => match goal with |- context [num_digits ?i' ?m' ?x'] =>
      change (num_digits i' m' x') with (num_digits i m x) end
  | num_fraction ?x = _ => match goal with |- context [num_fraction ?x'] =>
      change (num_fraction x') with (num_fraction x) end
  | num_exponent ?x = _ => match goal with |- context [num_exponent ?x'] =>
      change (num_exponent x') with (num_exponent x) end
  | radix_number ?i ?m ?x = _ => match goal with |- context [radix_number ?i' ?m' ?x'] =>
      change (radix_number i' m' x') with (radix_number i m x) end
  | number_from_dot ?x = _ => match goal with |- context [number_from_dot ?x'] =>
      change (number_from_dot x') with (number_from_dot x) end
  | number_from_zero ?x = _ => match goal with |- context [number_from_zero ?x'] =>
      change (number_from_zero x') with (number_from_zero x) end
  | number_from_nonzero ?x = _ => match goal with |- context [number_from_nonzero ?x'] =>
      change (number_from_nonzero x') with (number_from_nonzero x) end
  end; rewrite E.

(** ** The whole scanners *)
Lemma number_from_nonzero_spec : forall p ip f ex im r, number_parts ip f ex im r ->
  (udigits is_digit ip /\ frac_ok f /\ exp_as_coded ex /\
     number_from_nonzero (mk_cursor p (ip ++ f ++ ex ++ im ++ r))
     = NumOk (reads [] p (ip ++ f ++ ex ++ im) r)) \/
  (~ (udigits is_digit ip /\ frac_ok f /\ exp_as_coded ex) /\
     exists m x, number_from_nonzero (mk_cursor p (ip ++ f ++ ex ++ im ++ r)) = NumErr m x).
Proof.
  intros p ip f ex im r (H1 & H2 & H3 & H4).
  destruct (num_digits_spec is_digit msg_hex [] p ip (f ++ ex ++ im ++ r) eq_refl H1) as [(A & E)|(A & x & E)];
    [|right; split; [tauto|]; unfold number_from_nonzero; crw E; cbn [num_bind]; eauto].
  destruct (num_fraction_spec ip (p + length ip) f (ex ++ im ++ r) H2) as [(A2 & E2)|(A2 & m & x & E2)];
    [|right; split; [tauto|]; unfold number_from_nonzero; crw E; cbn [num_bind]; crw E2; cbn [num_bind]; eauto].
  destruct (num_exponent_spec (ip ++ f) (p + length ip + length f) ex (im ++ r) H3) as [(A3 & E3)|(A3 & m & x & E3)];
    [|right; split; [tauto|]; unfold number_from_nonzero; crw E; cbn [num_bind]; crw E2; cbn [num_bind];
      crw E3; cbn [num_bind]; eauto].
  left. repeat split; auto.
  unfold number_from_nonzero; crw E; cbn [num_bind]; crw E2; cbn [num_bind]; crw E3; cbn [num_bind].
  unfold reads at 1. rewrite num_imaginary_spec by auto. f_equal.
  unfold reads. rewrite !app_length, <- !app_assoc, !Nat.add_assoc. reflexivity.
Qed.

Lemma number_from_dot_spec : forall p d w ex im r,
  is_digit d = true -> digits_and_underscores is_digit w (ex ++ im ++ r) -> exp_part ex (im ++ r) -> imag_part im r ->
  (udigits is_digit w /\ exp_as_coded ex /\
     number_from_dot (mk_cursor p ((#"." :: d :: w) ++ ex ++ im ++ r))
     = NumOk (reads [] p ((#"." :: d :: w) ++ ex ++ im) r)) \/
  (~ (udigits is_digit w /\ exp_as_coded ex) /\
     exists m x, number_from_dot (mk_cursor p ((#"." :: d :: w) ++ ex ++ im ++ r)) = NumErr m x).
Proof.
  intros p d w ex im r D H2 H3 H4.
  destruct (num_digits_spec is_digit msg_hex [#"."; d] (S (S p)) w (ex ++ im ++ r) eq_refl H2) as [(A2 & E2)|(A2 & x & E2)];
    [|right; split; [tauto|]; unfold number_from_dot; cbv zeta; crw E2; cbn [num_bind]; eauto].
  destruct (num_exponent_spec ([#"."; d] ++ w) (S (S p) + length w) ex (im ++ r) H3) as [(A3 & E3)|(A3 & m & x & E3)];
    [|right; split; [tauto|]; unfold number_from_dot; cbv zeta; crw E2; cbn [num_bind]; crw E3; cbn [num_bind]; eauto].
  left. repeat split; auto.
  unfold number_from_dot; cbv zeta; crw E2; cbn [num_bind]; crw E3; cbn [num_bind].
  unfold reads at 1. rewrite num_imaginary_spec by auto. f_equal.
  unfold reads. cbn [app length]. rewrite !app_length, <- !app_assoc. cbn [app].
  replace (S (S p) + length w + length ex + length im)%nat
    with (p + S (S (length w + (length ex + length im))))%nat by lia. reflexivity.
Qed.

(** Existence of the parts. *)
Lemma digits_split : forall isd, isd NUL = false -> forall r, exists w r',
  r = w ++ r' /\ digits_and_underscores isd w r'.
Proof.
  intros isd NZ r. destruct (run_while (fun c => isd c || (c =? 95)) r) as [w r'] eqn:E.
  assert (Z : (fun c => isd c || (c =? 95)) NUL = false) by (cbn; rewrite NZ; reflexivity).
  pose proof (run_while_hd _ _ _ _ Z E) as H. apply run_while_spec in E. destruct E as (-> & F & _).
  exists w, r'. split; auto. repeat split.
  - apply Forall_forall. intros c I. rewrite forallb_forall in F. specialize (F c I). cbn in F.
    apply orb_prop in F. rewrite N.eqb_eq in F. exact F.
  - cbn in H. apply orb_false_iff in H. tauto.
  - cbn in H. apply orb_false_iff in H. rewrite N.eqb_neq in H. tauto.
Qed.

Lemma imag_split : forall r, exists im r', r = im ++ r' /\ imag_part im r'.
Proof.
  intros [|c r].
  - exists [], []. split; auto. left. repeat split; discriminate.
  - destruct (N.eq_dec c 106) as [->|N1]; [exists [106], r; split; auto; right; auto|].
    destruct (N.eq_dec c 74) as [->|N2]; [exists [74], r; split; auto; right; auto|].
    exists [], (c :: r). split; auto. left. repeat split; auto.
Qed.

Lemma sign_split : forall r : str, exists s r1 : str, r = s ++ r1 /\
  (s = [#"+"] \/ s = [#"-"] \/ s = [] /\ hd NUL r1 <> #"+" /\ hd NUL r1 <> #"-").
Proof.
  intros [|d r].
  - exists [], []. split; auto. right. right. repeat split; discriminate.
  - destruct (N.eq_dec d 43) as [->|]; [exists [43], r; auto|].
    destruct (N.eq_dec d 45) as [->|]; [exists [45], r; auto|].
    exists [], (d :: r). split; [reflexivity|]. right. right. auto.
Qed.

Lemma exp_split : forall r, exists ex r', r = ex ++ r' /\ exp_part ex r'.
Proof.
  assert (G : forall c r, c = #"e" \/ c = #"E" -> exists ex r', c :: r = ex ++ r' /\ exp_part ex r').
  { intros c r Hc. destruct (sign_split r) as (s & r1 & -> & Hs).
    destruct (digits_split is_digit eq_refl r1) as (w & r' & -> & H). exists (c :: s ++ w), r'.
    split; [cbn; rewrite <- app_assoc; auto|]. right. exists c, s, w. repeat split; auto; apply H. }
  intros [|c r].
  - exists [], []. split; auto. left. repeat split; discriminate.
  - destruct (N.eq_dec c 101) as [E|N1]; [apply G; auto|]. destruct (N.eq_dec c 69) as [E|N2]; [apply G; auto|].
    exists [], (c :: r). split; auto. left. repeat split; auto.
Qed.

Lemma frac_split : forall r, exists f r', r = f ++ r' /\ frac_part f r'.
Proof.
  intros [|c r].
  - exists [], []. split; auto. left. repeat split; discriminate.
  - destruct (N.eq_dec c 46) as [->|N1].
    + destruct (digits_split is_digit eq_refl r) as (w & r' & -> & H). exists (46 :: w), r'. split; auto.
      right. eauto.
    + exists [], (c :: r). split; auto. left. auto.
Qed.

Lemma number_split : forall rest, exists ip f ex im r,
  rest = ip ++ f ++ ex ++ im ++ r /\ number_parts ip f ex im r.
Proof.
  intros rest. destruct (digits_split is_digit eq_refl rest) as (ip & r1 & -> & H1).
  destruct (frac_split r1) as (f & r2 & -> & H2). destruct (exp_split r2) as (ex & r3 & -> & H3).
  destruct (imag_split r3) as (im & r & -> & H4). exists ip, f, ex, im, r. split; auto. repeat split; auto.
  - apply H1.
  - apply H1.
  - apply H1.
Qed.

(** ** Calls *)
Definition arm_first (x : arm) : bool :=
  match x with (PChar a, _, _, _, _) => negb (is_digit a) && negb (is_quote a) && negb (ascii_letter a) && negb (a =? 95) && (a <? 128) | _ => false end.

Lemma operator_first : forall a b c k n, operator_at (a, b, c) = Some (k, n) ->
  is_digit a = false /\ is_quote a = false /\ ascii_letter a = false /\ a <> 95 /\ a < 128.
Proof.
  intros a b c k n H. unfold operator_at in H.
  destruct (find (arm_match (a, b, c)) operator_arms) as [[[[[pa pb] pc] k'] n']|] eqn:F; [|discriminate].
  apply find_some in F. destruct F as (I & M).
  assert (A : forallb arm_first operator_arms = true) by (vm_compute; reflexivity).
  rewrite forallb_forall in A. specialize (A _ I). unfold arm_match in M. cbn [arm_first] in A.
  destruct pa as [|d|]; try discriminate. rewrite !andb_true_iff, !negb_true_iff, N.ltb_lt, N.eqb_neq in A.
  apply andb_prop in M. destruct M as (M & _). apply andb_prop in M. destruct M as (M & _). cbn in M.
  apply N.eqb_eq in M. subst d. tauto.
Qed.

Lemma digit_token : forall c b d, is_digit c = true ->
  operator_at (c, b, d) = None /\ opener_at c = None /\ closer_at c = None /\ significant c /\
  (forall U, ident_start U c = false) /\ is_quote c = false /\ (c =? #".") = false.
Proof.
  intros c b d D. split.
  { destruct (operator_at (c, b, d)) as [[k n]|] eqn:O; auto. apply operator_first in O.
    destruct O; congruence. }
  unfold is_digit, in_range in D. apply andb_prop in D. rewrite !N.leb_le in D. destruct D as (D1 & D2).
  assert (X : forall a, (a < 48 \/ 57 < a) -> (c =? a) = false) by (intros a Ha; apply N.eqb_neq; lia).
  unfold opener_at, closer_at, significant, ident_start, is_alphabetic, ascii_letter, in_range, is_quote,
    SP, TAB, NUL, CR, LF, BSL, SQ, DQ.
  rewrite !X by lia.
  assert (L : forall a b, (57 < a) -> (a <=? c) && b = false).
  { intros a b' Ha. replace (a <=? c) with false; auto. symmetry. apply N.leb_gt. lia. }
  rewrite !L by lia. repeat split; try lia.
  intros U. replace (127 <? c) with false by (symmetry; apply N.ltb_ge; lia). reflexivity.
Qed.

Lemma dot_token : forall b d, is_digit b = true -> operator_at (#".", b, d) = None.
Proof.
  intros b d D. assert (X : (b =? 46) = false).
  { apply N.eqb_neq. intros ->. discriminate. }
  unfold operator_at.
  cbv -[is_digit N.eqb]. rewrite X, D. reflexivity.
Qed.

Lemma reads_goto : forall l w r, lx_rest l = w ++ r ->
  set_cur (set_start l (lx_pos l)) (mk_cursor (lx_pos l + length w) r) = after l (length w).
Proof.
  intros [[p r0] s ps b pe is] w r E. unfold after. cbn in *. subst r0. rewrite skipn_app_len. reflexivity.
Qed.

Lemma nonzero_call : forall U l ip f ex im r, mid_line l -> lx_rest l = ip ++ f ++ ex ++ im ++ r ->
  number_parts ip f ex im r -> is_nonzero_digit (hd NUL ip) = true ->
  let w := ip ++ f ++ ex ++ im in
  (digitpart is_digit ip /\ frac_ok f /\ exp_as_coded ex ->
     get_symbol U l = LOk (Tok T_AtomNumber (Range (lx_pos l) (lx_pos l + length w)) None (Text w)) (after l (length w))) /\
  (~ (digitpart is_digit ip /\ frac_ok f /\ exp_as_coded ex) ->
     exists m l', get_symbol U l = LErr (EAt m (lx_pos l)) l').
Proof.
  intros U l ip f ex im r (B & P) R NP NZ w.
  destruct ip as [|c ip]; [discriminate|]. cbn [hd] in NZ.
  assert (D : is_digit c = true) by (rewrite is_digit_cases, NZ; apply orb_true_r).
  assert (DP : digitpart is_digit (c :: ip) <-> udigits is_digit (c :: ip)).
  { unfold digitpart. split; [tauto|]. intros X. repeat split; auto; [discriminate|]. cbn. intros ->. discriminate. }
  rewrite DP. clear DP.
  assert (GS : get_symbol U l = lex_number (set_start l (lx_pos l)) [] (number_from_nonzero (lx_cur l))).
  { rewrite (get_symbol_mid U l c (ip ++ f ++ ex ++ im ++ r)); auto.
    2:{ apply (digit_token c NUL NUL D). }
    unfold lex_token, cu_peek, peek3.
    change (cu_rest (lx_cur (set_start (set_start l (lx_pos l)) (lx_pos (set_start l (lx_pos l)))))) with (lx_rest l).
    rewrite R. cbn [app hd tl].
    match goal with |- context [operator_at (c, ?b, ?d)] => destruct (digit_token c b d D) as (T1 & T2 & T3 & T4 & T5 & T6 & T7) end.
    rewrite T1, T2, T3, T5, T7. cbn [andb].
    assert (Z : (c =? 48) = false).
    { unfold is_nonzero_digit, in_range in NZ. apply andb_prop in NZ. rewrite !N.leb_le in NZ. apply N.eqb_neq. lia. }
    rewrite Z, NZ. reflexivity. }
  rewrite GS. assert (LC : lx_cur l = mk_cursor (lx_pos l) (lx_rest l)) by (destruct l as [[? ?] ? ? ? ? ?]; reflexivity).
  rewrite LC, R.
  destruct (number_from_nonzero_spec (lx_pos l) (c :: ip) f ex im r NP) as [(A1 & A2 & A3 & E)|(A & m & x & E)]; crw E.
  - split; [|tauto]. intros _. unfold reads, lex_number. cbn [app].
    assert (RW : lx_rest l = w ++ r) by (unfold w; rewrite R, <- !app_assoc; reflexivity).
    rewrite <- (reads_goto l w r RW). reflexivity.
  - split; [tauto|]. intros _. destruct x as [tx cu]. cbn. eauto.
Qed.

Lemma dot_call : forall U l d w0 ex im r, mid_line l -> lx_rest l = (#"." :: d :: w0) ++ ex ++ im ++ r ->
  is_digit d = true -> digits_and_underscores is_digit w0 (ex ++ im ++ r) -> exp_part ex (im ++ r) -> imag_part im r ->
  let w := (#"." :: d :: w0) ++ ex ++ im in
  (udigits is_digit w0 /\ exp_as_coded ex ->
     get_symbol U l = LOk (Tok T_AtomNumber (Range (lx_pos l) (lx_pos l + length w)) None (Text w)) (after l (length w))) /\
  (~ (udigits is_digit w0 /\ exp_as_coded ex) ->
     exists m l', get_symbol U l = LErr (EAt m (lx_pos l)) l').
Proof.
  intros U l d w0 ex im r (B & P) R D DU EP IP w.
  assert (GS : get_symbol U l = lex_number (set_start l (lx_pos l)) [] (number_from_dot (lx_cur l))).
  { rewrite (get_symbol_mid U l #"." (d :: w0 ++ ex ++ im ++ r)); auto.
    2:{ repeat split; discriminate. }
    unfold lex_token, cu_peek, peek3.
    change (cu_rest (lx_cur (set_start (set_start l (lx_pos l)) (lx_pos (set_start l (lx_pos l)))))) with (lx_rest l).
    rewrite R. cbn [app hd tl]. rewrite dot_token by auto. cbn [opener_at closer_at]. 
    cbn. rewrite D. reflexivity. }
  rewrite GS. assert (LC : lx_cur l = mk_cursor (lx_pos l) (lx_rest l)) by (destruct l as [[? ?] ? ? ? ? ?]; reflexivity).
  rewrite LC, R.
  destruct (number_from_dot_spec (lx_pos l) d w0 ex im r D DU EP IP) as [(A2 & A3 & E)|(A & m & x & E)]; crw E.
  - split; [|tauto]. intros _. unfold reads, lex_number. cbn [app]. fold w.
    assert (RW : lx_rest l = w ++ r) by (unfold w; rewrite R, <- !app_assoc; reflexivity).
    pose proof (reads_goto l w r RW) as RG. exact (f_equal2 LOk eq_refl RG).
  - split; [tauto|]. intros _. destruct x as [tx cu]. cbn. eauto.
Qed.

Lemma radix_call : forall U l c isd w r, mid_line l -> radix c isd ->
  lx_rest l = #"0" :: c :: w ++ r -> digits_and_underscores isd w r ->
  (udigits isd w /\ w <> [] ->
     get_symbol U l = LOk (Tok T_AtomNumber (Range (lx_pos l) (lx_pos l + (2 + length w))) None
                            (Text (#"0" :: c :: w))) (after l (2 + length w))) /\
  (~ (udigits isd w /\ w <> []) ->
     exists m l', get_symbol U l = LErr (EAt m (lx_pos l)) l').
Proof.
  intros U l c isd w r (B & P) RX R DU.
  assert (UN : isd 95 = false) by (destruct RX; reflexivity).
  assert (GS : get_symbol U l = lex_number (set_start l (lx_pos l)) [] (number_from_zero (lx_cur l))).
  { rewrite (get_symbol_mid U l #"0" (c :: w ++ r)); auto.
    2:{ repeat split; discriminate. }
    unfold lex_token, cu_peek, peek3.
    change (cu_rest (lx_cur (set_start (set_start l (lx_pos l)) (lx_pos (set_start l (lx_pos l)))))) with (lx_rest l).
    rewrite R. cbn [app hd tl].
    match goal with |- context [operator_at (?a, ?b, ?d)] => destruct (digit_token a b d eq_refl) as (T1 & T2 & T3 & T4 & T5 & T6 & T7) end.
    rewrite T1, T2, T3, T5. reflexivity. }
  rewrite GS. assert (LC : lx_cur l = mk_cursor (lx_pos l) (lx_rest l)) by (destruct l as [[? ?] ? ? ? ? ?]; reflexivity).
  rewrite LC, R.
  assert (EZ : exists m, number_from_zero (mk_cursor (lx_pos l) (48 :: c :: w ++ r))
           = radix_number isd m ([48], mk_cursor (lx_pos l + 1) (c :: w ++ r))).
  { unfold number_from_zero. rewrite num_push_cons. cbn [app]. unfold num_char, cu_char. cbn [snd cu_rest hd].
    destruct RX as [c I|c I|c I]; cbn in I; destruct I as [<-|[<-|[]]]; eexists; reflexivity. }
  destruct EZ as (m & EZ). crw EZ.
  destruct (radix_number_spec isd m [48] (lx_pos l + 1) c w r UN DU) as [(A1 & A2 & E)|(A & x & E)]; crw E.
  - split; [|tauto]. intros _. unfold lex_number, reads. cbn [app].
    pose proof (reads_goto l (48 :: c :: w) r R) as RG.
    replace (lx_pos l + 1 + length (c :: w))%nat with (lx_pos l + S (length (c :: w)))%nat by lia.
    exact (f_equal2 LOk eq_refl RG).
  - split; [tauto|]. intros _. destruct x as [tx cu]. cbn. eauto.
Qed.
