(** Termination of the expression functions and of the other functions that parse no nested
    statement: they return on every state, and do not panic. *)
From Coq Require Import List Arith ZArith Lia.
From Verif Require Import Chars SourceBuffer Token Tokenizer Node ParserState Expressions Statements
  Blocks Parser WellFormed CallLemmas CallTheorem GrammarSpec ParseBasics SoundBasics Soundness FirstSets
  TermBasics.
Import ListNotations.
Local Open Scope nat_scope.

(** The functions that parse no nested statement. *)
Definition pure (f : fn) : bool :=
  match f with
  | F_simple_stmt | F_small_stmt | F_import_stmt | F_except_clause | F_eval_input | F_func_type_input =>
      match f with F_simple_stmt | F_small_stmt | F_import_stmt => false | _ => true end
  | _ => match sort_of f with Plain => true | _ => false end
  end.

Ltac solve_solid :=
  match goal with
  | S : ps_symbol ?s = inl ?t |- solid ?s =>
      exists t; split; [exact S|]; let Z := fresh in intro Z;
      match goal with H : _ = true |- _ =>
        unfold is_one_of in H; cbn [existsb] in H; unfold is in H; rewrite Z in H; vm_compute in H; discriminate H end
  end.
Ltac less :=
  repeat match goal with
  | H : solid ?s -> left ?s1 < left ?s |- _ =>
      first [ let Q := fresh in assert (Q : left s1 < left s) by (apply H; solve_solid); clear H | clear H ]
  end.
Ltac enough_fuel := unfold need in *; cbn [rank] in *; lia.

Section Pure.
Variables (U : unicode) (text : str) (n : nat) (rec : fn -> M node).
Hypothesis R : forall f s, pure f = true -> okay text s -> need f s <= n ->
  wp False False (rec f) s (fun _ s' => post text f s s').

Lemma wp_rec : forall f s (Q : node -> parser -> Prop), pure f = true -> okay text s -> need f s <= n ->
  (forall x s', okay text s' -> left s' <= left s -> (eats f = true -> left s' < left s) -> Q x s') ->
  wp False False (rec f) s Q.
Proof.
  intros f s Q P O N H. eapply wp_weak; [apply R; auto|]. intros x s' (A & B & C). auto.
Qed.

Ltac step1 :=
  match goal with
  | |- wp _ _ (bind _ _) _ _ => apply wp_bind
  | |- wp _ _ (ret _) _ _ => apply wp_ret
  | |- wp _ _ (fail _ _) _ _ => exact I
  | |- wp _ _ (fail_here _) _ _ => exact I
  | |- wp _ _ position _ _ => apply wp_position
  | |- wp _ _ get_except _ _ => apply wp_get
  | |- wp _ _ (set_except _) _ _ => apply (wp_set U text); [assumption|intros ? ? ? ?]
  | |- wp _ _ (advance U) _ _ => apply (wp_advance U text); [assumption|intros ? ? ? ? ?; less]
  | |- wp _ _ (expect _ _ _ _ _) _ _ => unfold expect
  | |- wp _ _ (on_symbol _ _) _ _ => apply wp_on; [intros ? ?|intros _]
  | |- wp _ _ (rec ?f) ?s _ =>
      apply wp_rec; [reflexivity|assumption|enough_fuel|
        let EQ := fresh "EQ" in intros ? ? ? ? EQ; first [specialize (EQ eq_refl) | clear EQ]]
  | |- wp ?X ?Y (while_ n ?step ?a) ?s ?Q =>
      apply (wp_while X Y _ step (fun s1 => okay text s1 /\ left s1 <= left s) Q);
      [ intros ? ? [? ?] | enough_fuel | split; [assumption|lia] ]
  | |- wp _ _ (if ?b then _ else _) _ _ => let H := fresh "T" in destruct b eqn:H
  | |- wp _ _ (match ?x with _ => _ end) _ _ => destruct x
  | |- forall _, _ => intro
  | |- (if fst (true, _) then _ else _) => cbn [fst snd]; split; [split; [assumption|lia]|lia]
  | |- (if fst (false, _) then _ else _) => cbn [fst snd]
  | |- True => exact I
  | |- wp _ _ ?m _ _ =>
      let rec head t := lazymatch t with ?f _ => head f | _ => t end in
      let h := head m in unfold h
  end; cbv beta iota.

Lemma body_pure : forall f s, pure f = true -> okay text s -> need f s <= S n ->
  wp False False (body U n rec f) s (fun _ _ => True).
Proof.
  intros f s P O N. destruct f; try discriminate P; clear P; cbn [body].
  all: repeat step1.
Qed.
End Pure.

Lemma need_pos : forall f s n, need f s <= n -> exists m, n = S m.
Proof. intros f s [|n] H; [unfold need in H; lia|eauto]. Qed.

Lemma wp_eq : forall (X Y : Prop) A (m : M A) s (Q : A -> parser -> Prop), wp X Y m s Q ->
  wp X Y m s (fun a s' => Q a s' /\ m s = Ok a s').
Proof. intros X Y A m s Q H. unfold wp in *. destruct (m s); auto. Qed.

Lemma run_pure : forall U text n f s, pure f = true -> okay text s -> need f s <= n ->
  wp False False (run U n f) s (fun _ s' => post text f s s').
Proof.
  intros U text n. induction n as [|n IH]; intros f s P O N; [unfold need in N; lia|].
  assert (W : wp False False (run U (S n) f) s (fun _ _ => True)) by (apply body_pure with (text := text); auto).
  apply wp_eq in W. eapply wp_weak; [exact W|]. intros x s' (_ & H). cbv beta.
  eapply sound_post; [exact O|]. eapply run_sound; eauto.
Qed.

(** The expression functions and the others that parse no nested statement always return. *)
Theorem pure_returns : forall U text n f s, pure f = true -> okay text s -> need f s <= n ->
  run U n f s <> Fuel /\ run U n f s <> Panic.
Proof.
  intros U text n f s P O N. pose proof (run_pure U text n f s P O N) as W. unfold wp in W.
  destruct (run U n f s); split; (discriminate || contradiction).
Qed.
