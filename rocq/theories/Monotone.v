(** More fuel never changes a result: it only turns [Fuel] into something else. *)
From Coq Require Import List Arith Lia.
From Verif Require Import Chars SourceBuffer Token Tokenizer Node ParserState Expressions Statements
  Blocks Parser.
Import ListNotations.
Local Open Scope nat_scope.

Definition le_out {A} (r r' : outcome A) : Prop := r = Fuel \/ r = r'.
Definition le_m {A} (m m' : M A) : Prop := forall s, le_out (m s) (m' s).

Lemma le_refl_m : forall A (m : M A), le_m m m.
Proof. intros A m s. right. reflexivity. Qed.
Lemma le_bind : forall A C (m m' : M A) (k k' : A -> M C), le_m m m' -> (forall a, le_m (k a) (k' a)) ->
  le_m (bind m k) (bind m' k').
Proof.
  intros A C m m' k k' H K s. unfold bind. destruct (H s) as [E | E]; rewrite E.
  - left. reflexivity.
  - destruct (m' s); try (right; reflexivity). apply K.
Qed.
Lemma le_on : forall A (e e' : M A) (k k' : token -> M A), le_m e e' -> (forall t, le_m (k t) (k' t)) ->
  le_m (on_symbol e k) (on_symbol e' k').
Proof. intros A e e' k k' H K s. unfold on_symbol. destruct (ps_symbol s); [apply K|apply H]. Qed.
Lemma le_while : forall A (step step' : A -> M (bool * A)), (forall a, le_m (step a) (step' a)) ->
  forall n n', n <= n' -> forall a, le_m (while_ n step a) (while_ n' step' a).
Proof.
  intros A step step' H n. induction n as [|n IH]; intros n' L a s; [left; reflexivity|].
  destruct n' as [|n']; [lia|]. cbn [while_]. apply le_bind; [apply H|].
  intros [[] a']; [apply IH; lia|apply le_refl_m].
Qed.

Section Mono.
Variables (U : unicode) (n n' : nat) (rec rec' : fn -> M node).
Hypothesis N : n <= n'.
Hypothesis R : forall f, le_m (rec f) (rec' f).

Ltac mono1 :=
  match goal with
  | |- le_m (rec _) (rec' _) => apply R
  | |- le_m ?m ?m => apply le_refl_m
  | |- le_m (bind _ _) (bind _ _) => apply le_bind; [|intro]
  | |- le_m (on_symbol _ _) (on_symbol _ _) => apply le_on; [|intro]
  | |- le_m (while_ _ _ _) (while_ _ _ _) => apply le_while; [intro|exact N]
  | |- le_m (if ?b then _ else _) _ => destruct b
  | |- le_m (match ?b with _ => _ end) _ => destruct b
  | |- forall _, _ => intro
  | |- le_m ?m _ =>
      let rec head t := lazymatch t with ?f _ => head f | _ => t end in
      let h := head m in unfold h
  end.

Lemma body_mono : forall f, le_m (body U n rec f) (body U n' rec' f).
Proof. intros f. destruct f; cbn [body]; repeat mono1. Qed.
End Mono.

Theorem run_mono : forall U n n' f, n <= n' -> le_m (run U n f) (run U n' f).
Proof.
  intros U n. induction n as [|n IH]; intros n' f L s; [left; reflexivity|].
  destruct n' as [|n']; [lia|]. cbn [run]. apply body_mono; [lia|]. intros g. apply IH. lia.
Qed.

Corollary run_fixed : forall U n n' f s, n <= n' -> run U n f s <> Fuel -> run U n' f s = run U n f s.
Proof. intros U n n' f s L H. destruct (run_mono U n n' f L s); [contradiction|auto]. Qed.
