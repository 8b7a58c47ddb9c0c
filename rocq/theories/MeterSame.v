(** The meter changes nothing (C67). *)
From Coq Require Import List Arith Bool.
From Verif Require Import Chars SourceBuffer Token Tokenizer Node ParserState Expressions Statements Blocks Parser
  Meter MeterExpr MeterStmt MeterBlocks MeterParser.
Import ListNotations.

Definition same {A} (m : Meter.M A) (m' : ParserState.M A) : Prop := forall s c, fst (m s c) = m' s.
Lemma same_plainly : forall A (m : ParserState.M A), same (plainly m) m.
Proof. intros A m s c. reflexivity. Qed.
Lemma same_bind : forall A B (m : Meter.M A) m' (k : A -> Meter.M B) k', same m m' -> (forall a, same (k a) (k' a)) ->
  same (Meter.bind m k) (ParserState.bind m' k').
Proof.
  intros A B m m' k k' H K s c. unfold Meter.bind, ParserState.bind. rewrite <- (H s c). destruct (m s c) as [[a s'|e| |] c']; cbn [fst]; auto.
  apply K.
Qed.
Lemma same_on : forall A (e : Meter.M A) e' k k', same e e' -> (forall t, same (k t) (k' t)) -> same (Meter.on_symbol e k) (ParserState.on_symbol e' k').
Proof. intros A e e' k k' E K s c. unfold Meter.on_symbol, ParserState.on_symbol. destruct (ps_symbol s); [apply K|apply E]. Qed.
Lemma same_advance : forall U, same (Meter.advance U) (ParserState.advance U).
Proof. intros U s c. reflexivity. Qed.
Lemma same_while : forall A (step : A -> Meter.M (bool * A)) step', (forall a, same (step a) (step' a)) ->
  forall n a, same (Meter.while_ n step a) (ParserState.while_ n step' a).
Proof.
  intros A step step' H. induction n as [|n IH]; intros a s c; [reflexivity|]. cbn [Meter.while_ ParserState.while_].
  apply (same_bind _ _ (step a) (step' a)); [apply H|]. intros [[] a']; [apply IH|apply same_plainly].
Qed.

Section Bodies.
Variables (U : unicode) (n : nat) (rec : fn -> Meter.M node) (rec' : fn -> ParserState.M node).
Hypothesis R : forall f, same (rec f) (rec' f).
Ltac head t := lazymatch t with ?f _ => head f | _ => t end.
Ltac stage :=
  match goal with
  | |- same (rec _) _ => apply R
  | |- same (Meter.bind _ _) _ => apply same_bind; [|intro]
  | |- same (Meter.on_symbol _ _) _ => apply same_on; [|intro]
  | |- same (Meter.advance _) _ => apply same_advance
  | |- same (Meter.while_ _ _ _) _ => apply same_while; intro
  | |- same (Meter.expect _ _ _ _ _) _ => unfold Meter.expect, ParserState.expect
  | |- same (Meter.ret _) _ => apply same_plainly
  | |- same (Meter.fail _ _) _ => apply same_plainly
  | |- same (Meter.fail_here _) _ => apply same_plainly
  | |- same Meter.position _ => apply same_plainly
  | |- same Meter.get_except _ => apply same_plainly
  | |- same (Meter.set_except _) _ => apply same_plainly
  | |- same Meter.panic _ => apply same_plainly
  | |- same (if ?b then _ else _) _ => destruct b
  | |- same (match ?x with _ => _ end) _ => destruct x
  | |- same ?m ?m' => let h := head m in let h' := head m' in unfold h, h'
  end; cbv beta iota.
Lemma body_same : forall f, same (metered_body U n rec f) (body U n rec' f).
Proof. destruct f; cbn [metered_body body]; repeat stage. Qed.
End Bodies.

Theorem run_same : forall U n f s c, fst (run_metered U n f s c) = run U n f s.
Proof.
  intros U. induction n as [|n IH]; intros f s c; [reflexivity|]. cbn [run_metered run]. apply body_same. exact IH.
Qed.
