(** The fuel [need f s] decides: with more fuel the outcome of a call is the same, also when it
    does not return. *)
From Coq Require Import List Arith ZArith Lia.
From Verif Require Import Chars SourceBuffer Token Tokenizer LexBasics Node ParserState Expressions Statements
  Blocks Parser WellFormed CallLemmas CallTheorem GrammarSpec ParseBasics SoundBasics Soundness FirstSets
  Monotone TermBasics TermExpr TermStmt.
Import ListNotations.
Local Open Scope nat_scope.

Section Rules.
Variables (U : unicode) (text : str).

(** [m] and [m'] have the same outcome on [s], and a result is in [Q]. *)
Definition rwp {A} (m m' : M A) (s : parser) (Q : A -> parser -> Prop) : Prop :=
  m s = m' s /\ forall a s', m s = Ok a s' -> Q a s'.

Lemma rwp_bind : forall A C (m m' : M A) (k k' : A -> M C) s Q,
  rwp m m' s (fun a s1 => rwp (k a) (k' a) s1 Q) -> rwp (bind m k) (bind m' k') s Q.
Proof.
  intros A C m m' k k' s Q (E & H). unfold rwp, bind. rewrite <- E.
  destruct (m s) as [a s1| | |] eqn:Em; [|split; [reflexivity|discriminate]..].
  apply (H a s1 eq_refl).
Qed.
Lemma rwp_same : forall A (m : M A) s Q, wp True True m s Q -> rwp m m s Q.
Proof. intros A m s Q H. split; auto. intros a s' E. unfold wp in H. rewrite E in H. exact H. Qed.
Lemma rwp_on : forall A (e e' : M A) k k' s (Q : A -> parser -> Prop),
  (forall t, ps_symbol s = inl t -> rwp (k t) (k' t) s Q) -> ((forall t, ps_symbol s <> inl t) -> rwp e e' s Q) ->
  rwp (on_symbol e k) (on_symbol e' k') s Q.
Proof.
  intros A e e' k k' s Q H1 H2. unfold rwp, on_symbol in *.
  destruct (ps_symbol s) as [t|]; [exact (H1 t eq_refl)|apply H2; discriminate].
Qed.
Lemma rwp_weak : forall A (m m' : M A) s (Q Q' : A -> parser -> Prop),
  rwp m m' s Q -> (forall a s', Q a s' -> Q' a s') -> rwp m m' s Q'.
Proof. intros A m m' s Q Q' (E & H) W. split; auto. Qed.
Lemma rwp_while : forall A (step step' : A -> M (bool * A)) (I : parser -> Prop) (Q : A -> parser -> Prop),
  (forall a s, I s -> rwp (step a) (step' a) s (fun r s' =>
      if fst r then I s' /\ left s' < left s else Q (snd r) s')) ->
  forall n n' a s, left s < n -> n <= n' -> I s -> rwp (while_ n step a) (while_ n' step' a) s Q.
Proof.
  intros A step step' I Q St. induction n as [|n IH]; intros n' a s L L' H; [lia|].
  destruct n' as [|n']; [lia|].
  cbn [while_]. apply rwp_bind. eapply rwp_weak; [apply St; exact H|].
  intros [[] a'] s'; cbn [fst snd].
  - intros (H' & L2). apply IH; auto; lia.
  - intros q. apply rwp_same. exact q.
Qed.
End Rules.

Section Stable.
Variables (U : unicode) (text : str) (n n' : nat) (rec rec' : fn -> M node).
Hypothesis NN : n <= n'.
Hypothesis G : good U rec.
Hypothesis R : forall f s, okay text s -> need f s <= n -> rec f s = rec' f s.
Hypothesis RI : forall s t, ps_symbol s = inl t -> tk_kind t = PyImport ->
  rec F_import_stmt s = Fuel /\ rec' F_import_stmt s = Fuel.

Lemma rwp_rec : forall f s (Q : node -> parser -> Prop), okay text s -> need f s <= n ->
  (forall x s', okay text s' -> left s' <= left s -> (eats f = true -> left s' < left s) -> Q x s') ->
  rwp (rec f) (rec' f) s Q.
Proof.
  intros f s Q O N H. split; [auto|]. intros x s' E. apply G in E.
  destruct (sound_post _ _ _ _ _ _ O E) as (A & B & C). auto.
Qed.

Ltac step1 :=
  match goal with
  | |- rwp (bind _ _) (bind _ _) _ _ => apply rwp_bind
  | |- rwp (ret _) _ _ _ => apply rwp_same, wp_ret
  | |- rwp (fail _ _) _ _ _ => apply rwp_same; exact I
  | |- rwp (fail_here _) _ _ _ => apply rwp_same; exact I
  | |- rwp panic _ _ _ => apply rwp_same; exact I
  | |- rwp position _ _ _ => apply rwp_same, wp_position
  | |- rwp get_except _ _ _ => apply rwp_same, wp_get
  | |- rwp (set_except _) _ _ _ => apply rwp_same, (wp_set U text); [assumption|intros ? ? ? ?]
  | |- rwp (advance U) _ _ _ => apply rwp_same, (wp_advance U text); [assumption|intros ? ? ? ? ?; less]
  | |- rwp (expect _ _ _ _ _) _ _ _ => unfold expect
  | |- rwp (on_symbol _ _) _ _ _ => apply rwp_on; [intros ? ?|intros _]
  | |- rwp (rec ?f) _ ?s _ =>
      apply rwp_rec; [assumption|enough_fuel|
        let EQ := fresh "EQ" in intros ? ? ? ? EQ; first [specialize (EQ eq_refl) | clear EQ]]
  | |- rwp (while_ n ?step ?a) (while_ n' ?step' ?a) ?s ?Q =>
      apply (rwp_while _ step step' (fun s1 => okay text s1 /\ left s1 <= left s) Q);
      [ intros ? ? [? ?] | enough_fuel | exact NN | split; [assumption|lia] ]
  | |- rwp (if ?b then _ else _) _ _ _ => let H := fresh "T" in destruct b eqn:H
  | |- rwp (match ?x with _ => _ end) _ _ _ => destruct x
  | |- forall _, _ => intro
  | |- (if fst (true, _) then _ else _) => cbn [fst snd]; split; [split; [assumption|lia]|lia]
  | |- (if fst (false, _) then _ else _) => cbn [fst snd]
  | |- True => exact I
  | |- rwp ?m _ _ _ =>
      let rec head t := lazymatch t with ?f _ => head f | _ => t end in
      let h := head m in unfold h
  end; cbv beta iota.

Lemma body_stable : forall f s, okay text s -> need f s <= S n ->
  rwp (body U n rec f) (body U n' rec' f) s (fun _ _ => True).
Proof.
  intros f s O N. destruct f; cbn [body].
  all: repeat step1.
  - unfold rwp. destruct (RI s t) as (A & B); auto; [apply is_true; assumption|].
    rewrite A, B. split; [reflexivity|discriminate].
Qed.
End Stable.

Theorem run_stable : forall U text n n' f s, okay text s -> need f s <= n -> n <= n' ->
  run U n' f s = run U n f s.
Proof.
  intros U text n. induction n as [|n IH]; intros n' f s O N L; [unfold need in N; lia|].
  destruct n' as [|n']; [lia|]. cbn [run]. symmetry.
  apply (proj1 (body_stable U text n n' (run U n) (run U n') ltac:(lia)
    ltac:(intros g x y z; apply run_sound)
    ltac:(intros g s1 O1 N1; symmetry; apply IH; auto; lia)
    ltac:(intros s1 t S1 K1; split; eapply run_import; eauto) f s O N)).
Qed.

(** The outcome of a call: what [run] gives with enough fuel, [Fuel] when it does not return. *)
Definition outcome_of (U : unicode) (f : fn) (s : parser) : outcome node := run U (need f s) f s.

Theorem outcome_of_spec : forall U text f s r, okay text s ->
  (outcome_of U f s = r <-> exists n0, forall n, n0 <= n -> run U n f s = r).
Proof.
  intros U text f s r O. unfold outcome_of. split.
  - intros <-. exists (need f s). intros n L. eapply run_stable; eauto.
  - intros (n0 & H). rewrite <- (H (Nat.max n0 (need f s)) (Nat.le_max_l _ _)).
    symmetry. eapply run_stable; eauto. apply Nat.le_max_r.
Qed.
