(** Calls do not depend on the kind of 'except' noted before, nor inputs on anything but the tokenizer (C72). *)
From Coq Require Import List Arith.
From Verif Require Import Chars SourceBuffer Token Tokenizer Node ParserState Expressions Statements Blocks Parser ParseSpec SessionSpec FlagSpec.
Import ListNotations.
Local Open Scope nat_scope.

Section Flag.
Variable U : unicode.
Definition like {X} (m : M X) : Prop := forall s s', ps_lexer s = ps_lexer s' -> ps_symbol s = ps_symbol s' -> same_but_flag (m s) (m s').
Lemma same_refl : forall X (o : outcome X), same_but_flag o o.
Proof. intros X [x s|e| |]; cbn; auto. Qed.
Lemma like_bind : forall X Y (m : M X) (k : X -> M Y), like m -> (forall a, like (k a)) -> like (bind m k).
Proof.
  intros X Y m k H K s s' L S. unfold bind. specialize (H s s' L S). destruct (m s), (m s'); cbn [same_but_flag] in H; try contradiction H; auto.
  - destruct H as (-> & L1 & S1). exact (K _ _ _ L1 S1).
Qed.
Lemma like_on : forall X (e : M X) k, like e -> (forall t, like (k t)) -> like (on_symbol e k).
Proof. intros X e k E K s s' L S. unfold on_symbol. rewrite <- S. destruct (ps_symbol s) eqn:Q; [apply K|apply E]; congruence. Qed.
Lemma advance_same : forall s s', ps_lexer s = ps_lexer s' -> same_but_flag (advance U s) (advance U s').
Proof. intros s s' L. unfold advance. rewrite <- L. destruct (get_symbol U (ps_lexer s)); cbn; auto. Qed.
Lemma like_advance : like (advance U).
Proof. intros s s' L _. apply advance_same, L. Qed.
Lemma like_while : forall X (step : X -> M (bool * X)), (forall a, like (step a)) -> forall n a, like (while_ n step a).
Proof.
  intros X step H. induction n as [|n IH]; intros a; [intros s s' _ _; cbn; auto|]. cbn [while_].
  apply like_bind; [apply H|]. intros [[] a']; [apply IH|]. intros s s' L S. cbn. auto.
Qed.
Lemma like_ret : forall X (a : X), like (ret a).
Proof. intros X a s s' L S. cbn. auto. Qed.
Lemma like_fail : forall X m p, like (@fail X m p).
Proof. intros X m p s s' L S. cbn. auto. Qed.
Lemma like_panic : forall X, like (@panic X).
Proof. intros X s s' L S. cbn. auto. Qed.
Lemma like_position : like position.
Proof. intros s s' L S. unfold position. rewrite <- L. cbn. auto. Qed.
(** What is noted is forgotten at the word 'try'. *)
Lemma like_reset : forall X c (k : unit -> M X), like (bind (set_except c) k).
Proof. intros X c k s s' L S. unfold bind, set_except. rewrite <- L, <- S. apply same_refl. Qed.

Section Bodies.
Variables (n : nat) (rec : fn -> M node).
Hypothesis R : forall f, reads_flag f = false -> like (rec f).
Ltac head t := lazymatch t with ?f _ => head f | _ => t end.
Ltac stage :=
  match goal with
  | |- like (rec _) => apply R; reflexivity
  | |- like (bind (set_except _) _) => apply like_reset
  | |- like (bind _ _) => apply like_bind; [|intro]
  | |- like (on_symbol _ _) => apply like_on; [|intro]
  | |- like (advance _) => apply like_advance
  | |- like (while_ _ _ _) => apply like_while; intro
  | |- like (expect _ _ _ _ _) => unfold expect
  | |- like (fail_here _) => unfold fail_here
  | |- like (ret _) => apply like_ret
  | |- like (fail _ _) => apply like_fail
  | |- like position => apply like_position
  | |- like panic => apply like_panic
  | |- like (if ?b then _ else _) => destruct b
  | |- like (match ?x with _ => _ end) => destruct x
  | |- like ?m => let h := head m in unfold h
  end; cbv beta iota.
Lemma body_like : forall f, reads_flag f = false -> like (body U n rec f).
Proof. destruct f; intros RF; try discriminate RF; cbn [body]; repeat stage. Qed.
End Bodies.
Lemma run_like : forall n f, reads_flag f = false -> like (run U n f).
Proof. induction n as [|n IH]; intros f RF; [intros s s' _ _; cbn; auto|]. exact (body_like n (run U n) IH f RF). Qed.
(** Inputs take a new symbol first. *)
Lemma run_input : forall n f s s', input_fn f = true -> ps_lexer s = ps_lexer s' -> same_but_flag (run U n f s) (run U n f s').
Proof.
  intros n f s s' I L.
  assert (E : run U n f s' = run U n f (mk_parser (ps_lexer s') (ps_symbol s) (ps_except s'))).
  { destruct n as [|n]; [reflexivity|]. destruct f; try discriminate I; reflexivity. }
  rewrite E. apply run_like; [destruct f; try discriminate I; reflexivity|exact L|reflexivity].
Qed.
Lemma session_like : forall s cs t, session U s cs t -> forall s', ps_lexer s = ps_lexer s' ->
  exists t', session U s' cs t' /\ ps_lexer t = ps_lexer t'.
Proof.
  intros s cs t H. induction H as [s|s f x s1 cs t I (n & P) S IH]; intros s' L; [exists s'; split; [constructor|exact L]|].
  pose proof (run_input n f s s' I L) as Q. rewrite P in Q. destruct (run U n f s') as [y u|e| |] eqn:E; try contradiction Q.
  destruct Q as (<- & LU & _). destruct (IH u LU) as (t' & S' & LT). exists t'. split; [|exact LT].
  apply (SE_call U s' f x u); [exact I|exists n; exact E|exact S'].
Qed.
End Flag.
