(** Positions and texts of the number scanner. *)
From Coq Require Import ZArith Arith Lia.
From Verif Require Import Chars SourceBuffer Token Tokenizer LexBasics.

(** [x] has read the first [k] characters of [r] (padded with one NUL) from position [p]. *)
Definition num_at (p : nat) (r : list char) (k : nat) (x : num) : Prop :=
  x = (firstn k (r ++ [NUL]), mk_cursor (p + k) (skipn k r)) /\ (k <= S (length r))%nat.

Lemma firstn_S_hd : forall (r : list char) k, (k <= length r)%nat ->
  firstn (S k) (r ++ [NUL]) = firstn k (r ++ [NUL]) ++ [hd NUL (skipn k r)].
Proof.
  induction r as [|c r IH]; intros k H; cbn in *.
  - replace k with 0%nat by lia. reflexivity.
  - destruct k; cbn; auto. f_equal. apply IH. lia.
Qed.

Lemma skipn_tl : forall (r : list char) k, tl (skipn k r) = skipn (S k) r.
Proof.
  induction r as [|c r IH]; intros k; [destruct k; reflexivity|].
  destruct k; cbn; auto. apply IH.
Qed.

Lemma skipn_skipn' : forall (r : list char) a b, skipn b (skipn a r) = skipn (a + b) r.
Proof.
  induction r as [|c r IH]; intros a b; [rewrite !skipn_nil; reflexivity|].
  destruct a; cbn; auto.
Qed.

Lemma num_at_nil : forall p r, num_at p r 0 ([], mk_cursor p r).
Proof. intros. split; [|lia]. cbn. rewrite Nat.add_0_r. reflexivity. Qed.

Lemma num_at_push : forall p r k x, num_at p r k x -> (k <= length r)%nat ->
  num_at p r (S k) (num_push x).
Proof.
  intros p r k x (-> & _) H. split; [|lia]. unfold num_push, cu_char, cu_advance.
  cbn [fst snd cu_pos cu_rest].
  rewrite firstn_S_hd by auto. rewrite skipn_tl. do 2 f_equal. lia.
Qed.

Lemma num_at_char : forall p r k x, num_at p r k x -> num_char x = hd NUL (skipn k r).
Proof. intros p r k x (-> & _). reflexivity. Qed.

Lemma hd_skipn_len : forall (r : list char) k, hd NUL (skipn k r) <> NUL -> (k < length r)%nat.
Proof.
  intros r k H. destruct (le_lt_dec (length r) k); auto. rewrite skipn_all2 in H; auto. cbn in H. congruence.
Qed.

Lemma num_at_push' : forall p r k x, num_at p r k x -> num_char x <> NUL ->
  num_at p r (S k) (num_push x).
Proof.
  intros p r k x H N. apply num_at_push; auto. rewrite (num_at_char _ _ _ _ H) in N.
  apply hd_skipn_len in N. lia.
Qed.

Lemma firstn_app_run : forall (r t r' : list char) k, skipn k r = t ++ r' -> (t <> [] -> k <= length r)%nat ->
  firstn (k + length t) (r ++ [NUL]) = firstn k (r ++ [NUL]) ++ t.
Proof.
  intros r t. revert r. induction t as [|c t IH]; intros r r' k E H.
  - cbn. rewrite Nat.add_0_r, app_nil_r. reflexivity.
  - assert (HL : (k <= length r)%nat) by (apply H; discriminate).
    cbn [length]. replace (k + S (length t))%nat with (S k + length t)%nat by lia.
    rewrite (IH r r' (S k)).
    + rewrite firstn_S_hd by auto. rewrite E. cbn. rewrite <- app_assoc. reflexivity.
    + rewrite <- skipn_tl, E. reflexivity.
    + intros _. destruct (le_lt_dec (length r) k); [|lia]. rewrite skipn_all2 in E by auto. discriminate.
Qed.

(** Any scanned run [t] moves the state by its length. *)
Lemma num_at_run : forall p r k x t r', num_at p r k x -> cu_rest (snd x) = t ++ r' ->
  num_at p r (k + length t) (fst x ++ t, cu_after (snd x) t r').
Proof.
  intros p r k x t r' (-> & H) E. cbn in E.
  assert (L : (t <> [] -> k + length t <= length r)%nat).
  { intros N. pose proof (f_equal (@length _) E) as EL. rewrite skipn_length, app_length in EL.
    destruct t; [congruence|]. cbn in *. lia. }
  split.
  - cbn [fst snd]. unfold cu_after. cbn [cu_pos].
    rewrite (firstn_app_run r t r') by (auto; intros N; apply L in N; lia).
    rewrite <- skipn_skipn', E, skipn_app, skipn_all, Nat.sub_diag. cbn. f_equal. f_equal. lia.
  - destruct t; cbn in *; [lia|]. specialize (L ltac:(discriminate)). lia.
Qed.

Lemma digit_run_app : forall isd r t r' ok, digit_run isd r = (t, r', ok) -> r = t ++ r'.
Proof.
  induction r as [|c r IH]; cbn; intros t r' ok E.
  - inversion E. reflexivity.
  - destruct (c =? 95).
    + destruct (isd (hd NUL r)).
      * destruct (digit_run isd r) as [[t1 r1] ok1]. inversion E; subst. cbn. f_equal. eauto.
      * inversion E. reflexivity.
    + destruct (isd c).
      * destruct (digit_run isd r) as [[t1 r1] ok1]. inversion E; subst. cbn. f_equal. eauto.
      * inversion E. reflexivity.
Qed.

(** ** Every number function advances consistently. *)
Definition res_at (p : nat) (r : list char) (k0 : nat) (res : numres) : Prop :=
  exists k, (k0 <= k)%nat /\ num_at p r k (match res with NumOk x => x | NumErr _ x => x end).

Lemma res_at_weaken : forall p r k k' res, (k <= k')%nat -> res_at p r k' res -> res_at p r k res.
Proof. intros p r k k' res H (j & A & B). exists j. split; [lia|auto]. Qed.

Lemma num_bind_at : forall p r k res f, res_at p r k res ->
  (forall j x, (k <= j)%nat -> num_at p r j x -> res_at p r j (f x)) -> res_at p r k (num_bind res f).
Proof.
  intros p r k [x|m x] f (j & A & B) F; cbn [num_bind].
  - eapply res_at_weaken; [exact A|]. apply F; auto.
  - exists j. auto.
Qed.

Lemma num_digits_at : forall p r k x isd msg, num_at p r k x -> res_at p r k (num_digits isd msg x).
Proof.
  intros p r k x isd msg H. unfold num_digits.
  destruct (digit_run isd (cu_rest (snd x))) as [[t r'] ok] eqn:E. apply digit_run_app in E.
  exists (k + length t)%nat. split; [lia|].
  destruct ok; apply num_at_run; auto.
Qed.

Lemma char_nonnul : forall x d, num_char x =? d = true -> d <> NUL -> num_char x <> NUL.
Proof. intros x d H N. apply N.eqb_eq in H. congruence. Qed.

Lemma num_fraction_at : forall p r k x, num_at p r k x -> res_at p r k (num_fraction x).
Proof.
  intros p r k x H. unfold num_fraction. destruct (num_char x =? 46) eqn:E.
  - assert (H1 : num_at p r (S k) (num_push x)) by (apply num_at_push'; auto; eapply char_nonnul; eauto; discriminate).
    destruct (num_char (num_push x) =? 95).
    + exists (S k). split; [lia|auto].
    + eapply res_at_weaken; [|apply num_digits_at; eauto]. lia.
  - exists k. split; [lia|auto].
Qed.

Lemma num_exponent_at : forall p r k x, num_at p r k x -> res_at p r k (num_exponent x).
Proof.
  intros p r k x H. unfold num_exponent. destruct (_ || _) eqn:E.
  - assert (N : num_char x <> NUL).
    { apply orb_prop in E. destruct E as [E|E]; eapply char_nonnul; eauto; discriminate. }
    pose proof (num_at_push' _ _ _ _ H N) as H1.
    destruct ((num_char (num_push x) =? 43) || _) eqn:E2.
    + assert (N2 : num_char (num_push x) <> NUL).
      { apply orb_prop in E2. destruct E2 as [E2|E2]; eapply char_nonnul; eauto; discriminate. }
      eapply res_at_weaken; [|apply num_digits_at; apply num_at_push'; eauto]. lia.
    + eapply res_at_weaken; [|apply num_digits_at; eauto]. lia.
  - exists k. split; [lia|auto].
Qed.

Lemma num_imaginary_at : forall p r k x, num_at p r k x ->
  exists j, (k <= j)%nat /\ num_at p r j (num_imaginary x).
Proof.
  intros p r k x H. unfold num_imaginary. destruct (_ || _) eqn:E.
  - exists (S k). split; [lia|]. apply num_at_push'; auto.
    apply orb_prop in E. destruct E as [E|E]; eapply char_nonnul; eauto; discriminate.
  - exists k. auto.
Qed.

Lemma number_from_zero_at : forall p r, hd NUL r <> NUL -> res_at p r 1 (number_from_zero (mk_cursor p r)).
Proof.
  intros p r N. assert (H1 : num_at p r 1 (num_push ([], mk_cursor p r))).
  { apply num_at_push'; [apply num_at_nil|exact N]. }
  assert (L : (1 <= length r)%nat) by (destruct r; cbn in *; [congruence|lia]).
  unfold number_from_zero.
  assert (H2 := num_at_push _ _ _ _ H1 L).
  assert (RX : forall isd msg, res_at p r 1 (radix_number isd msg (num_push ([], mk_cursor p r)))).
  { intros. unfold radix_number. destruct (_ || _).
    - eapply res_at_weaken; [|apply num_digits_at; eauto]. lia.
    - exists 2%nat. split; [lia|auto]. }
  destruct (_ || _); auto. destruct (_ || _); auto. destruct (_ || _); auto.
  unfold zero_number.
  destruct (run_while is_digit _) as [t r'] eqn:E. apply run_while_spec in E. destruct E as (E & _).
  pose proof (num_at_run _ _ _ _ _ _ H2 E) as H3.
  eapply res_at_weaken with (k' := (2 + length t)%nat); [lia|].
  apply num_bind_at; [apply num_fraction_at; auto|]. intros j x _ Hx.
  apply num_bind_at; [apply num_exponent_at; auto|]. intros j' x' _ Hx'.
  destruct (num_imaginary_at _ _ _ _ Hx') as (j2 & A & B).
  match goal with |- res_at _ _ _ (if ?b then _ else _) => destruct b end; exists j2; auto.
Qed.

Lemma number_from_dot_at : forall p r, hd NUL r <> NUL -> hd NUL (tl r) <> NUL ->
  res_at p r 2 (number_from_dot (mk_cursor p r)).
Proof.
  intros p r N N2.
  assert (H1 : num_at p r 1 (num_push ([], mk_cursor p r))).
  { apply num_at_push'; [apply num_at_nil|exact N]. }
  assert (H2 : num_at p r 2 (num_push (num_push ([], mk_cursor p r)))).
  { apply num_at_push'; auto. }
  unfold number_from_dot.
  apply num_bind_at; [apply num_digits_at; auto|]. intros j x _ Hx.
  apply num_bind_at; [apply num_exponent_at; auto|]. intros j' x' _ Hx'.
  apply num_imaginary_at; auto.
Qed.

Lemma number_from_nonzero_at : forall p r, is_nonzero_digit (hd NUL r) = true ->
  res_at p r 1 (number_from_nonzero (mk_cursor p r)).
Proof.
  intros p r N. unfold number_from_nonzero.
  apply num_bind_at.
  - unfold num_digits. destruct (digit_run is_digit _) as [[t r'] ok] eqn:E.
    cbn [cu_rest snd] in E. pose proof (digit_run_app _ _ _ _ _ E) as A.
    exists (length t). split.
    + destruct r as [|c r]; [discriminate|]. cbn in N, E.
      assert (D : is_digit c = true).
      { clear - N. unfold is_nonzero_digit, is_digit, in_range in *.
        apply andb_prop in N. destruct N as (A & B). rewrite B. apply N.leb_le in A.
        rewrite (proj2 (N.leb_le 48 c)); auto. lia. }
      destruct (N.eqb_spec c 95) as [->|C]; [discriminate|].
      rewrite D in E. destruct (digit_run is_digit r) as [[t1 r1] ok1]. inversion E. cbn. lia.
    + destruct ok; apply (num_at_run p r 0 ([], mk_cursor p r) t r'); auto; apply num_at_nil.
  - intros j x _ Hx.
    apply num_bind_at; [apply num_fraction_at; auto|]. intros j0 x0 _ Hx0.
    apply num_bind_at; [apply num_exponent_at; auto|]. intros j' x' _ Hx'.
    apply num_imaginary_at; auto.
Qed.
