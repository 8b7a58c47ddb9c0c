(** Reading tokens: the relation between parser states that the grammar theorems are about, and
    inversion lemmas for the monad. *)
From Coq Require Import List Arith Lia.
From Verif Require Import Chars SourceBuffer Token Tokenizer Node ParserState GrammarSpec.
Import ListNotations.

Lemma kind_eqb_eq : forall a b, kind_eqb a b = true <-> a = b.
Proof.
  intros a b. unfold kind_eqb. rewrite N.eqb_eq. split; [|congruence].
  intros H. destruct a; destruct b; try reflexivity; discriminate H.
Qed.

Lemma is_true : forall k t, is k t = true -> tk_kind t = k.
Proof. intros k t H. apply kind_eqb_eq. exact H. Qed.
Lemma is_false : forall k t, is k t = false -> tk_kind t <> k.
Proof. intros k t H E. apply kind_eqb_eq in E. unfold is in H. congruence. Qed.
Lemma is_eq : forall k k' t, tk_kind t = k' -> is k t = kind_eqb k' k.
Proof. intros k k' t <-. reflexivity. Qed.
Lemma is_one_of_true : forall ks t, is_one_of ks t = true <-> In (tk_kind t) ks.
Proof.
  intros ks t. unfold is_one_of. rewrite existsb_exists. split.
  - intros (k & I & E). apply is_true in E. congruence.
  - intros I. exists (tk_kind t). split; auto. apply kind_eqb_eq. reflexivity.
Qed.
Lemma is_one_of_false : forall ks t, is_one_of ks t = false <-> ~ In (tk_kind t) ks.
Proof.
  intros ks t. rewrite <- is_one_of_true. destruct (is_one_of ks t); split; congruence.
Qed.

(** ** States *)
Section Reads.
Variable U : unicode.

Definition pos (s : parser) : nat := lexer_get_position (ps_lexer s).

(** The look-ahead of a state. *)
Definition view (s : parser) : look :=
  (pos s, match ps_symbol s with inl t => Some t | inr _ => None end).

(** [reads s l s']: from [s] the tokens [l] are read one after the other, reaching [s'];
    the except flag is not regarded. *)
Inductive reads : parser -> list ptok -> parser -> Prop :=
| reads_nil s s' :
    ps_lexer s = ps_lexer s' -> ps_symbol s = ps_symbol s' -> reads s [] s'
| reads_cons s t s1 l s' :
    ps_symbol s = inl t -> advance U s = Ok tt s1 -> reads s1 l s' ->
    reads s ((pos s, t) :: l) s'.

Lemma reads_refl : forall s, reads s [] s.
Proof. intros. constructor; reflexivity. Qed.

Lemma advance_core : forall s s1 s2, advance U s = Ok tt s1 ->
  ps_lexer s = ps_lexer s2 ->
  exists s3, advance U s2 = Ok tt s3 /\ ps_lexer s1 = ps_lexer s3 /\ ps_symbol s1 = ps_symbol s3 /\
    ps_except s3 = ps_except s2.
Proof.
  intros s s1 s2 A E. unfold advance in *. rewrite <- E.
  destruct (get_symbol U (ps_lexer s)); inversion A; subst; eauto.
Qed.

Lemma reads_core : forall s l s', reads s l s' -> forall s2, ps_lexer s = ps_lexer s2 ->
  ps_symbol s = ps_symbol s2 -> reads s2 l s'.
Proof.
  induction 1; intros s2 E1 E2.
  - constructor; congruence.
  - destruct (advance_core _ _ _ H0 E1) as (s3 & A & B & C & _).
    replace (pos s) with (pos s2) by (unfold pos; rewrite E1; reflexivity).
    econstructor; [congruence|eassumption|]. eauto.
Qed.

Lemma reads_core_r : forall s l s', reads s l s' -> forall s2, ps_lexer s' = ps_lexer s2 ->
  ps_symbol s' = ps_symbol s2 -> reads s l s2.
Proof. induction 1; intros s2 E1 E2; [constructor; congruence|econstructor; eauto]. Qed.

Lemma reads_app : forall s l1 s1, reads s l1 s1 -> forall l2 s2, reads s1 l2 s2 -> reads s (l1 ++ l2) s2.
Proof.
  induction 1; intros l2 s2 R; cbn [app].
  - eapply reads_core; eauto.
  - econstructor; eauto.
Qed.

Lemma reads_app_inv : forall l1 l2 s s2, reads s (l1 ++ l2) s2 -> exists s1, reads s l1 s1 /\ reads s1 l2 s2 /\ ps_except s1 = ps_except s.
Proof.
  induction l1 as [|a l1 IH]; intros l2 s s2 R.
  - exists s. split; [apply reads_refl|auto].
  - cbn [app] in R. inversion R as [|? ? s3 ? ? S0 A0 R0]; subst.
    destruct (IH _ _ _ R0) as (s4 & A & B & C).
    exists s4. split; [econstructor; eauto|split; auto].
    rewrite C. unfold advance in A0. destruct (get_symbol U (ps_lexer s)); inversion A0; reflexivity.
Qed.

Lemma reads_snoc : forall s l s1 t s2, reads s l s1 -> ps_symbol s1 = inl t -> advance U s1 = Ok tt s2 ->
  reads s (l ++ [(pos s1, t)]) s2.
Proof.
  intros. eapply reads_app; [eassumption|]. econstructor; eauto. apply reads_refl.
Qed.

Lemma advance_except : forall s s1, advance U s = Ok tt s1 -> ps_except s1 = ps_except s.
Proof. unfold advance. intros s s1 H. destruct (get_symbol U (ps_lexer s)); inversion H; reflexivity. Qed.

Lemma view_core : forall s s', ps_lexer s = ps_lexer s' -> ps_symbol s = ps_symbol s' -> view s = view s'.
Proof. intros s s' A B. unfold view, pos. rewrite A, B. reflexivity. Qed.

Lemma reads_ahead : forall s l s', reads s l s' -> view s = ahead l (view s').
Proof.
  destruct 1; cbn [ahead].
  - apply view_core; auto.
  - unfold view. rewrite H. reflexivity.
Qed.

Lemma reads_ahead_app : forall s l1 s1 l2 s', reads s l1 s1 -> reads s1 l2 s' ->
  view s = ahead (l1 ++ l2) (view s').
Proof. intros. apply reads_ahead. eapply reads_app; eauto. Qed.

Lemma reads_start : forall s l s', reads s l s' -> pos s = start l (view s').
Proof. intros s l s' R. unfold start. rewrite <- (reads_ahead _ _ _ R). reflexivity. Qed.

Lemma view_inl : forall s t, ps_symbol s = inl t -> view s = (pos s, Some t).
Proof. intros s t H. unfold view. rewrite H. reflexivity. Qed.

Lemma view_some : forall s p t, view s = (p, Some t) -> ps_symbol s = inl t /\ pos s = p.
Proof. unfold view. intros s p t H. destruct (ps_symbol s); inversion H; auto. Qed.

Lemma view_token : forall s t, snd (view s) = Some t <-> ps_symbol s = inl t.
Proof. intros s t. unfold view. cbn. destruct (ps_symbol s); split; congruence. Qed.

Lemma ahead_app_cons : forall l p t l2 la, ahead (l ++ (p, t) :: l2) la = ahead l (p, Some t).
Proof. intros [|[q u] l] p t l2 la; reflexivity. Qed.

Lemma ahead_app : forall l1 l2 la, ahead (l1 ++ l2) la = ahead l1 (ahead l2 la).
Proof. intros [|[q u] l1] l2 la; reflexivity. Qed.

Lemma stops_view : forall ks s t, ps_symbol s = inl t -> ~ In (tk_kind t) ks -> stops ks (view s).
Proof. intros ks s t H N. exists t. split; auto. apply view_token. auto. Qed.
Lemma before_view : forall ks s t, ps_symbol s = inl t -> In (tk_kind t) ks -> before ks (view s).
Proof. intros ks s t H N. exists t. split; auto. apply view_token. auto. Qed.

(** ** Inversion of the monad *)
Lemma bind_ok : forall A C (m : M A) (k : A -> M C) s x s', bind m k s = Ok x s' ->
  exists a s1, m s = Ok a s1 /\ k a s1 = Ok x s'.
Proof. unfold bind. intros. destruct (m s) as [a s1| | |]; try discriminate. eauto. Qed.

Lemma on_symbol_ok : forall A (e : M A) k s x s', on_symbol e k s = Ok x s' ->
  (exists t, ps_symbol s = inl t /\ k t s = Ok x s') \/ (exists er, ps_symbol s = inr er /\ e s = Ok x s').
Proof. unfold on_symbol. intros. destruct (ps_symbol s); eauto. Qed.

Lemma fail_not_ok : forall A msg p s (x : A) s', fail msg p s = Ok x s' -> False.
Proof. unfold fail. discriminate. Qed.
Lemma fail_here_not_ok : forall A msg s (x : A) s', fail_here msg s = Ok x s' -> False.
Proof. unfold fail_here, bind, position, fail. discriminate. Qed.

Lemma on_symbol_fail_ok : forall A msg p (k : token -> M A) s x s',
  on_symbol (fail msg p) k s = Ok x s' -> exists t, ps_symbol s = inl t /\ k t s = Ok x s'.
Proof. intros A msg p k s x s' H. apply on_symbol_ok in H. destruct H as [H|(e & _ & H)]; auto. discriminate. Qed.
Lemma on_symbol_fail_here_ok : forall A msg (k : token -> M A) s x s',
  on_symbol (fail_here msg) k s = Ok x s' -> exists t, ps_symbol s = inl t /\ k t s = Ok x s'.
Proof. intros A msg k s x s' H. apply on_symbol_ok in H. destruct H as [H|(e & _ & H)]; auto. discriminate. Qed.

Lemma position_ok : forall s p s', position s = Ok p s' -> p = pos s /\ s' = s.
Proof. unfold position. intros. inversion H. auto. Qed.

Lemma ret_ok : forall A (a : A) s x s', ret a s = Ok x s' -> x = a /\ s' = s.
Proof. unfold ret. intros. inversion H. auto. Qed.

Lemma expect_ok : forall k p e1 e2 s t s', expect U k p e1 e2 s = Ok t s' ->
  ps_symbol s = inl t /\ tk_kind t = k /\ advance U s = Ok tt s'.
Proof.
  unfold expect. intros k p e1 e2 s t s' H. apply on_symbol_fail_ok in H.
  destruct H as (u & S & H). destruct (is k u) eqn:K; [|discriminate].
  apply bind_ok in H. destruct H as ([] & s1 & A & R). apply ret_ok in R. destruct R; subst.
  split; [auto|split; [apply is_true; auto|auto]].
Qed.

Lemma advance_not_fuel : forall s, exists s', advance U s = Ok tt s' /\ ps_except s' = ps_except s \/ advance U s = Fuel.
Proof. intros s. unfold advance. destruct (get_symbol U (ps_lexer s)); eexists; eauto. Unshelve. exact s. Qed.

End Reads.
