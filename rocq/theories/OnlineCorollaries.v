(** Where errors are placed and what a parse depends on, in the form of C49 and C50. *)
From Coq Require Import List Arith Lia.
From Verif Require Import Chars SourceBuffer Token Tokenizer LexSpec LexBasics WellFormed Node ParserState Parser GrammarSpec ParseBasics ParseSpec
  TermBasics Monotone TreeSpec SpanProofs PositionProofs ParseCorollaries OnlineSpec OnlineProofs.
Import ListNotations.
Local Open Scope nat_scope.

Lemma ready_bound : forall text s, ready text s -> pos s <= S (length text).
Proof.
  intros text s (O & P & _). unfold okay in O. pose proof (ok_at _ _ O) as A. destruct A as [A B]. lia.
Qed.

Lemma starts_bound : forall U text s l s1, reads U s l s1 -> ready text s -> 
  forall p, In p (starts l s1) -> pos s <= p <= pos s1.
Proof.
  intros U text s l s1 R. induction R as [s s' E1 E2|s t s1 l s' S A R IH]; intros RD p I.
  - unfold starts in I. cbn in I. destruct I as [I|[]]. subst. unfold pos. rewrite E1. lia.
  - destruct RD as (O & Q & _). destruct (advance_ready U text s s1 O A) as (RD1 & LE).
    assert (B : pos s1 <= pos s') by (apply (IH RD1 (pos s1)); exact (starts_first _ _ _ _ R)).
    unfold starts in I. cbn [map app In] in I. destruct I as [I|I]; [subst p; cbn [fst]; lia|].
    specialize (IH RD1 p I). lia.
Qed.

(** A call in a state whose look-ahead has been read, or a call for a whole input. *)
Lemma begun_ready : forall U text f s s0, (at_token U text s \/ input_fn f = true /\ on_text U text s) ->
  begun U f s s0 -> ready text s0.
Proof.
  intros U text f s s0 H B. unfold begun in B. destruct (input_fn f) eqn:I.
  - assert (O : on_text U text s) by (destruct H as [H|[_ H]]; auto using at_token_on_text).
    eapply advance_ready; [eapply on_text_okay; exact O|exact B].
  - subst. destruct H as [H|[H _]]; [eapply at_token_ready; eauto|discriminate].
Qed.

Theorem error_place : forall U text n f s e, (at_token U text s \/ input_fn f = true /\ on_text U text s) ->
  run U n f s = Err e ->
  exists s0 l s1 p, begun U f s s0 /\ reads U s0 l s1 /\ syntax_error e p /\
    (given f p \/ In p (starts l s1) /\ pos s0 <= p /\ p <= pos s1 /\ pos s1 <= S (length text)).
Proof.
  intros U text n f s e H E. destruct (run_decided U n f s ltac:(rewrite E; discriminate)) as (s0 & l & s1 & B & R & Q & _).
  rewrite E in Q. destruct Q as (p & X & Y). exists s0, l, s1, p. repeat (split; [assumption|]).
  destruct Y as [Y|Y]; [left; assumption|right].
  pose proof (begun_ready _ _ _ _ _ H B) as RD. pose proof (starts_bound _ _ _ _ _ R RD p Y) as [L1 L2].
  repeat (split; [assumption|]). apply ready_bound. apply (reads_ordered U text _ _ _ R RD).
Qed.

Theorem error_final : forall U n f s e, run U n f s = Err e ->
  exists s0 l s1, begun U f s s0 /\ reads U s0 l s1 /\
    forall U' t t0 t1, begun U' f t t0 -> reads U' t0 l t1 -> view t1 = view s1 -> ps_except t = ps_except s ->
      rejects U' f t /\ forall m, n <= m -> run U' m f t = Err e.
Proof.
  intros U n f s e E. destruct (run_decided U n f s ltac:(rewrite E; discriminate)) as (s0 & l & s1 & B & R & _ & D).
  exists s0, l, s1. repeat (split; [assumption|]). intros U' t t0 t1 B' R' V X. specialize (D U' t t0 t1 B' R' V X).
  rewrite E in D. cbn in D. split.
  - intros m x s' F. destruct (Nat.le_ge_cases n m) as [L|L].
    + rewrite (run_fixed U' n m f t L) in F; rewrite D in *; discriminate.
    + rewrite <- (run_fixed U' m n f t L) in F; [congruence|rewrite F; discriminate].
  - intros m L. rewrite (run_fixed U' n m f t L); rewrite D; [reflexivity|discriminate].
Qed.

Theorem success_decided : forall U n f s x s', run U n f s = Ok x s' ->
  exists s0 l, begun U f s s0 /\ reads U s0 l s' /\
    forall U' t t0 t1, begun U' f t t0 -> reads U' t0 l t1 -> view t1 = view s' -> ps_except t = ps_except s ->
      exists t', run U' n f t = Ok x t' /\ core t' t1 /\ ps_except t' = ps_except s'.
Proof.
  intros U n f s x s' E. destruct (run_decided U n f s ltac:(rewrite E; discriminate)) as (s0 & l & s1 & B & R & Q & D).
  rewrite E in Q. exists s0, l. split; [assumption|]. split; [eapply reads_core_right; [exact R|apply core_sym; exact Q]|].
  intros U' t t0 t1 B' R' V X. assert (V1 : view t1 = view s1) by (rewrite V; apply view_core; apply Q).
  specialize (D U' t t0 t1 B' R' V1 X). rewrite E in D. exact D.
Qed.
