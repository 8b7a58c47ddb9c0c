(** Two texts with the same tokens are parsed alike (C54). *)
From Coq Require Import List Arith Lia String.
From Verif Require Import Chars SourceBuffer Token Tokenizer LexSpec HistoryProofs Node ParserState Expressions Statements
  Blocks Parser ParseBasics ParseSpec ExprSpec RenderSpec RoundTrip LayoutSpec.
Import ListNotations.
Local Open Scope nat_scope.

Section Two.
Variables (U U' : unicode) (l0 l0' : lexer).

(** ** The two tokenizers in step *)
Fixpoint step_alike (n : nat) (l l' : lexer) : Prop :=
  match n with
  | O => True
  | S n =>
      match get_symbol U l, get_symbol U' l' with
      | LOk t l1, LOk t' l1' => twin t t' /\ step_alike n l1 l1'
      | LErr _ _, LErr _ _ => True
      | _, _ => False
      end
  end.
Definition places (p p' : nat) : Prop :=
  exists k, p = lexer_get_position (after U k l0) /\ p' = lexer_get_position (after U' k l0').
Record related (s s' : parser) : Prop := Related
  { re_walk : exists k, ps_lexer s = after U k l0 /\ ps_lexer s' = after U' k l0';
    re_symbol : match ps_symbol s, ps_symbol s' with
      | inl t, inl t' => twin t t' /\ forall n, step_alike n (ps_lexer s) (ps_lexer s')
      | inr _, inr _ => True
      | _, _ => False
      end;
    re_except : ps_except s = ps_except s' }.

Lemma after_end : forall V k l l1, (exists t, get_symbol V (after V k l) = LOk t l1) \/ (exists e, get_symbol V (after V k l) = LErr e l1) -> after V (S k) l = l1.
Proof.
  intros V k. induction k as [|k IH]; intros l l1 H.
  - cbn [after] in *. destruct H as [(t & ->)|(e & ->)]; reflexivity.
  - change (after V (S (S k)) l) with (match get_symbol V l with LOk _ l' | LErr _ l' => after V (S k) l' | LFuel => l end).
    change (after V (S k) l) with (match get_symbol V l with LOk _ l' | LErr _ l' => after V k l' | LFuel => l end) in H.
    destruct (get_symbol V l) as [t l2|e l2|] eqn:G; [apply IH; exact H|apply IH; exact H|].
    rewrite G in H. destruct H as [(t & H)|(e & H)]; discriminate H.
Qed.

(** ** Computations in step *)
Definition sim {A} (R : A -> A -> Prop) (m m' : M A) (s s' : parser) : Prop :=
  related s s' ->
  match m s, m' s' with
  | Ok a t, Ok a' t' => R a a' /\ related t t'
  | Err e, Err e' => exists msg p p', e = EAt msg p /\ e' = EAt msg p' /\ places p p'
  | Panic, Panic | Fuel, Fuel => True
  | _, _ => False
  end.

Lemma sim_ret : forall A (R : A -> A -> Prop) a a' s s', R a a' -> sim R (ret a) (ret a') s s'.
Proof. intros A R a a' s s' H L. cbn. auto. Qed.
Lemma sim_fail : forall A (R : A -> A -> Prop) msg p p' s s', places p p' -> sim R (fail msg p) (fail msg p') s s'.
Proof. intros A R msg p p' s s' H L. cbn. eauto 8. Qed.
Lemma sim_panic : forall A (R : A -> A -> Prop) s s', sim R panic panic s s'.
Proof. intros A R s s' L. exact I. Qed.
Lemma sim_position : forall s s', sim places position position s s'.
Proof.
  intros s s' L. cbn. split; [|exact L]. destruct (re_walk _ _ L) as (k & E & E'). exists k. rewrite E, E'. auto.
Qed.
Lemma sim_get : forall s s', sim eq get_except get_except s s'.
Proof. intros s s' L. cbn. split; [apply L|exact L]. Qed.
Lemma sim_set : forall x s s', sim eq (set_except x) (set_except x) s s'.
Proof. intros x s s' [A B C]. cbn. split; [reflexivity|]. constructor; cbn [ps_lexer ps_symbol ps_except]; auto. Qed.
Lemma advance_alike : forall s s', (exists k, ps_lexer s = after U k l0 /\ ps_lexer s' = after U' k l0') -> (forall n, step_alike n (ps_lexer s) (ps_lexer s')) ->
  ps_except s = ps_except s' ->
  match advance U s, advance U' s' with
  | Ok a t, Ok a' t' => a = a' /\ related t t'
  | _, _ => False
  end.
Proof.
  intros s s' (k & W & W') A X. unfold advance. pose proof (A 1) as A1. cbn [step_alike] in A1.
  destruct (get_symbol U (ps_lexer s)) as [t l|e l|] eqn:G, (get_symbol U' (ps_lexer s')) as [t' l'|e' l'|] eqn:G'; try contradiction A1;
    (split; [reflexivity|]); constructor; cbn [ps_lexer ps_symbol ps_except]; auto.
  - exists (S k). rewrite W in G. rewrite W' in G'. split; symmetry; apply after_end; left; eauto.
  - split; [apply A1|]. intros n. specialize (A (S n)). cbn [step_alike] in A. rewrite G, G' in A. apply A.
  - exists (S k). rewrite W in G. rewrite W' in G'. split; symmetry; apply after_end; right; eauto.
Qed.
Lemma sim_advance : forall s s' t t', ps_symbol s = inl t -> ps_symbol s' = inl t' -> sim eq (advance U) (advance U') s s'.
Proof.
  intros s s' t t' S S' [W B X]. rewrite S, S' in B. destruct B as (_ & B). pose proof (advance_alike s s' W B X) as A.
  destruct (advance U s), (advance U' s'); try contradiction A. exact A.
Qed.
Lemma sim_bind : forall A B (R : A -> A -> Prop) (Q : B -> B -> Prop) m m' k k' s s',
  sim R m m' s s' -> (forall a a' t t', R a a' -> sim Q (k a) (k' a') t t') -> sim Q (bind m k) (bind m' k') s s'.
Proof.
  intros A B R Q m m' k k' s s' H K L. specialize (H L). unfold bind.
  destruct (m s) as [a t|e| |], (m' s') as [a' t'|e'| |]; try contradiction H; auto. destruct H as (H & L'). exact (K a a' t t' H L').
Qed.
Lemma sim_on : forall A (R : A -> A -> Prop) e e' k k' s s',
  sim R e e' s s' -> (forall t t', twin t t' -> ps_symbol s = inl t -> ps_symbol s' = inl t' -> sim R (k t) (k' t') s s') ->
  sim R (on_symbol e k) (on_symbol e' k') s s'.
Proof.
  intros A R e e' k k' s s' H K L. unfold on_symbol. pose proof (re_symbol _ _ L) as B.
  destruct (ps_symbol s) as [t|], (ps_symbol s') as [t'|]; try contradiction B; [|exact (H L)].
  destruct B as (B & _). exact (K t t' B eq_refl eq_refl L).
Qed.
Lemma sim_while : forall A (R : A -> A -> Prop) (step step' : A -> M (bool * A)) n,
  (forall a a' s s', R a a' -> sim (on_pair eq R) (step a) (step' a') s s') ->
  forall a a' s s', R a a' -> sim R (while_ n step a) (while_ n step' a') s s'.
Proof.
  intros A R step step' n H. induction n as [|n IH]; intros a a' s s' K L; [exact I|]. cbn [while_].
  revert L. change (sim R (bind (step a) (fun p => let (again, a') := p in if again : bool then while_ n step a' else ret a'))
    (bind (step' a') (fun p => let (again, a') := p in if again : bool then while_ n step' a' else ret a')) s s').
  eapply sim_bind; [apply H; exact K|]. intros x x' t t' [[] b1 c c' <- C]; [apply IH; exact C|apply sim_ret; exact C].
Qed.

Lemma twin_kind : forall t t', twin t t' -> tk_kind t' = tk_kind t.
Proof. intros t t' H. unfold twin, face in H. congruence. Qed.
Lemma is_twin : forall k t t', twin t t' -> is k t' = is k t.
Proof. intros k t t' H. apply twin_kind in H. unfold is. rewrite H. reflexivity. Qed.
Lemma is_one_of_twin : forall ks t t', twin t t' -> is_one_of ks t' = is_one_of ks t.
Proof. intros ks t t' H. unfold is_one_of. induction ks as [|k ks IH]; [reflexivity|]. cbn [existsb]. rewrite (is_twin k t t' H), IH. reflexivity. Qed.
Lemma text_twin : forall t t', twin t t' -> is T_AtomName t = true -> Token.text_of t' = Token.text_of t.
Proof.
  intros t t' H K. pose proof (twin_kind _ _ H) as E. unfold twin, face in H. unfold is in K. apply kind_eqb_eq in K. rewrite E, K in H. cbn in H.
  injection H as H. unfold Token.text_of. rewrite H. reflexivity.
Qed.
Lemma word_twin : forall w t t', twin t t' -> (is T_AtomName t && str_eqb (Token.text_of t') w)%bool = (is T_AtomName t && str_eqb (Token.text_of t) w)%bool.
Proof. intros w t t' H. destruct (is T_AtomName t) eqn:K; [|reflexivity]. rewrite (text_twin t t' H K). reflexivity. Qed.
Lemma forall2_rev : forall A (R : A -> A -> Prop) a b, Forall2 R a b -> Forall2 R (rev a) (rev b).
Proof. intros A R a b H. induction H; cbn [rev]; [constructor|]. apply Forall2_app; auto. Qed.
Inductive fn_alike : fn -> fn -> Prop :=
| fn_same f : (forall p x, f <> F_ann_assign p x) -> fn_alike f f
| fn_ann p p' x x' : places p p' -> alike places x x' -> fn_alike (F_ann_assign p x) (F_ann_assign p' x').
Inductive va_alike : var_args -> var_args -> Prop :=
| va_both a b c d e f g h a' b' c' d' e' f' g' :
    Forall2 (alike places) a a' -> Forall2 twin b b' -> on_option twin c c' -> on_option (alike places) d d' ->
    on_option twin e e' -> on_option (alike places) f f' -> on_option twin g g' ->
    va_alike (mk_va a b c d e f g h) (mk_va a' b' c' d' e' f' g' h).
Inductive ta_alike : type_args -> type_args -> Prop :=
| ta_both a b c d e f a' b' c' d' e' f' :
    Forall2 (alike places) a a' -> Forall2 twin b b' -> on_option twin c c' -> on_option (alike places) d d' ->
    on_option twin e e' -> on_option (alike places) f f' ->
    ta_alike (mk_ta a b c d e f) (mk_ta a' b' c' d' e' f').

Section Bodies.
Variables (n : nat) (rec rec' : fn -> M node).
Hypothesis R : forall f f' s s', input_fn f = false -> fn_alike f f' -> sim (alike places) (rec f) (rec' f') s s'.

Ltac rel_of A :=
  lazymatch A with
  | nat => constr:(places)
  | token => constr:(twin)
  | node => constr:(alike places)
  | option ?B => let r := rel_of B in constr:(on_option r)
  | list ?B => let r := rel_of B in constr:(Forall2 r)
  | (?B * ?C)%type => let r := rel_of B in let q := rel_of C in constr:(on_pair r q)
  | var_args => constr:(va_alike)
  | type_args => constr:(ta_alike)
  | _ => constr:(@eq A)
  end.
Ltac relate := repeat first [assumption | reflexivity | apply forall2_rev | apply Forall2_app | constructor].
Ltac tidy :=
  repeat match goal with
  | H : on_pair _ _ _ _ |- _ => destruct H
  | H : va_alike _ _ |- _ => destruct H
  | H : ta_alike _ _ |- _ => destruct H
  | H : @eq bool ?a ?b |- _ => is_var a; is_var b; subst b
  | H : @eq except_status ?a ?b |- _ => is_var a; is_var b; subst b
  | H : @eq unit _ _ |- _ => clear H
  end;
  cbv [va_push_node va_push_sep va_set_mul va_set_power va_set_div va_set_coma ta_push_node ta_push_sep ta_set_mul ta_set_power];
  cbn [va_nodes va_seps va_mul va_mul_node va_power va_power_node va_div va_coma ta_nodes ta_seps ta_mul ta_mul_node ta_power ta_power_node].
Ltac twins := repeat match goal with
  | W : twin ?t ?t' |- context [is ?k ?t'] => rewrite (is_twin k t t' W)
  | W : twin ?t ?t' |- context [(is T_AtomName ?t && str_eqb (Token.text_of ?t') ?w)%bool] => rewrite (word_twin w t t' W)
  | W : twin ?t ?t' |- context [is_one_of ?k ?t'] => rewrite (is_one_of_twin k t t' W)
  end.
Ltac sim1 :=
  cbv beta zeta; 
  lazymatch goal with
  | |- sim _ (rec _) (rec' _) _ _ => apply R; [reflexivity|first [apply fn_same; discriminate | apply fn_ann; assumption]]
  | |- sim _ (ret _) (ret _) _ _ => apply sim_ret; relate
  | |- sim _ (fail _ _) (fail _ _) _ _ => apply sim_fail; assumption
  | |- sim _ panic panic _ _ => apply sim_panic
  | |- sim _ position position _ _ => apply sim_position
  | |- sim _ get_except get_except _ _ => apply sim_get
  | |- sim _ (set_except _) (set_except _) _ _ => apply sim_set
  | |- sim _ (advance U) (advance U') _ _ => eapply sim_advance; eassumption
  | |- sim _ (@bind ?A _ _ _) (bind _ _) _ _ => let r := rel_of A in apply (sim_bind _ _ r); [|intros ? ? ? ? ?; tidy]
  | |- sim _ (on_symbol _ _) (on_symbol _ _) _ _ => apply sim_on; [|intros ? ? ? ? ?]; twins
  | |- sim _ (@while_ _ ?A _ _) (while_ _ _ _) _ _ => let r := rel_of A in apply (sim_while _ r); [intros ? ? ? ? ?; tidy|relate]
  | |- sim _ (if ?b then _ else _) (if ?b then _ else _) _ _ => let E := fresh "E" in destruct b eqn:E
  | |- sim _ (match ?v with _ => _ end) (match ?v with _ => _ end) _ _ => destruct v
  | W : twin ?t ?t', K : is T_AtomName ?t = true |- sim _ (if str_eqb (Token.text_of ?t) _ then _ else _) (if str_eqb (Token.text_of ?t') _ then _ else _) _ _ =>
      rewrite (text_twin t t' W K)
  | |- sim _ (match ?v with _ => _ end) (match ?w with _ => _ end) _ _ =>
      let T := type of v in
      lazymatch T with bool => fail | _ => idtac end; let r := rel_of T in let H := fresh in assert (H : r v w) by relate;
      revert H; first [generalize v w; intros ? ? H; destruct H | intros H; destruct H ]; subst
  | |- sim _ ?m ?m' _ _ =>
      let rec head t := lazymatch t with ?f _ => head f | _ => t end in
      let h := head m in unfold h
  end.

Lemma body_alike : forall f f' s s', input_fn f = false -> fn_alike f f' -> sim (alike places) (body U n rec f) (body U' n rec' f') s s'.
Proof.
  intros f f' s s' I H; destruct H as [g N|p p' x x' PP XX]; [destruct g; cbn [input_fn] in I; try discriminate I; clear I; cbn [body]; try (exfalso; eapply N; reflexivity)|cbn [body]];
  solve [repeat sim1].
Qed.

(** The input functions take a token first. *)
Lemma input_alike : forall f, input_fn f = true -> exists tail tail' : M node,
  body U n rec f = bind (advance U) (fun _ => tail) /\ body U' n rec' f = bind (advance U') (fun _ => tail') /\
  forall s s', sim (alike places) tail tail' s s'.
Proof.
  intros f I. destruct f; cbn [input_fn] in I; try discriminate I; clear I; cbn [body];
    eexists; eexists; (split; [reflexivity|split; [reflexivity|intros s s'; repeat sim1]]).
Qed.
End Bodies.

Lemma run_alike : forall n f f' s s', input_fn f = false -> fn_alike f f' -> sim (alike places) (run U n f) (run U' n f') s s'.
Proof.
  induction n as [|n IH]; intros f f' s s' I H; [intros _; exact Logic.I|]. cbn [run]. apply body_alike; auto.
Qed.

(** From the first token on. *)
Theorem input_run_alike : forall n f s s', input_fn f = true ->
  (exists k, ps_lexer s = after U k l0 /\ ps_lexer s' = after U' k l0') -> (forall n, step_alike n (ps_lexer s) (ps_lexer s')) ->
  ps_except s = ps_except s' ->
  same_outcome places (run U n f s) (run U' n f s').
Proof.
  intros n f s s' I W A X. destruct n as [|n]; [exact Logic.I|]. cbn [run].
  destruct (input_alike n (run U n) (run U' n) (run_alike n) f I) as (tail & tail' & E & E' & T). rewrite E, E'. unfold bind.
  pose proof (advance_alike s s' W A X) as V. destruct (advance U s) as [a t|?| |], (advance U' s') as [a' t'|?| |]; try contradiction V.
  destruct V as (_ & L). specialize (T t t' L). destruct (tail t) as [x u|e| |], (tail' t') as [x' u'|e'| |]; try contradiction T; cbn [same_outcome]; auto.
  apply T.
Qed.
End Two.

(** ** Texts *)
Definition going (ev : token + err) : Prop := match ev with inl t => tk_kind t <> T_EOF | inr _ => False end.
Lemma eof_alike : forall U U' l l' t t', get_symbol U l = LOk t l -> get_symbol U' l' = LOk t' l' -> twin t t' -> forall n, step_alike U U' n l l'.
Proof. intros U U' l l' t t' G G' W n. induction n as [|n IH]; [exact I|]. cbn [step_alike]. rewrite G, G'. auto. Qed.
Lemma history_lex : forall U text evs l N, history U text evs l -> Forall going evs -> length evs + N = 3 * length text + 4 ->
  match get_symbol U l with
  | LOk t l1 =>
      lex_all U N l = inl t :: (if kind_eqb (tk_kind t) T_EOF then [] else lex_all U (pred N) l1) /\
      (tk_kind t <> T_EOF -> length (evs ++ [inl t]) + pred N = 3 * length text + 4)
  | LErr e _ => lex_all U N l = [inr e]
  | LFuel => False
  end.
Proof.
  intros U text evs l N H F L. destruct N as [|N].
  { exfalso. destruct (history_finishes U text evs l H) as (ev & I & K); [lia|].
    rewrite Forall_forall in F. specialize (F _ I). destruct ev; [exact (F K)|exact F]. }
  cbn [lex_all pred]. destruct (get_symbol U l) as [t l1|e l1|] eqn:G; [|reflexivity|].
  - split; [reflexivity|]. intros _. rewrite app_length. cbn [length]. lia.
  - pose proof (history_call U text evs l H) as C. rewrite G in C. exact C.
Qed.
Lemma texts_alike : forall U U' text text' n evs evs' l l' N N', history U text evs l -> history U' text' evs' l' ->
  Forall going evs -> Forall going evs' -> length evs + N = 3 * length text + 4 -> length evs' + N' = 3 * length text' + 4 ->
  map event_face (lex_all U N l) = map event_face (lex_all U' N' l') -> step_alike U U' n l l'.
Proof.
  intros U U' text text' n. induction n as [|n IH]; intros evs evs' l l' N N' H H' F F' L L' E; [exact I|]. cbn [step_alike].
  pose proof (history_lex U text evs l N H F L) as A. pose proof (history_lex U' text' evs' l' N' H' F' L') as A'.
  destruct (get_symbol U l) as [t l1|e l1|] eqn:G; [| |contradiction A]; (destruct (get_symbol U' l') as [t' l1'|e' l1'|] eqn:G'; [| |contradiction A']).
  - destruct A as (A & B), A' as (A' & B'). rewrite A, A' in E. cbn [map event_face] in E. injection E as E EP E1.
    assert (W : twin t t') by (unfold twin, face; rewrite EP, E; reflexivity). split; [exact W|].
    pose proof (twin_kind _ _ W) as K. rewrite K in E1. destruct (kind_eqb (tk_kind t) T_EOF) eqn:Q.
    + apply kind_eqb_eq in Q. destruct (eof_absorbs U text evs l t l1 H G Q) as (_ & X).
      destruct (eof_absorbs U' text' evs' l' t' l1' H' G') as (_ & X'); [congruence|]. exact (eof_alike U U' _ _ _ _ X X' eq_refl n).
    + assert (T : tk_kind t <> T_EOF) by (intros T; rewrite T in Q; discriminate Q).
      apply (IH (evs ++ [inl t]) (evs' ++ [inl t']) l1 l1' (pred N) (pred N')).
      * exact (H_ok _ _ _ _ _ _ H G).
      * exact (H_ok _ _ _ _ _ _ H' G').
      * apply Forall_app. split; [exact F|]. constructor; [exact T|constructor].
      * apply Forall_app. split; [exact F'|]. constructor; [cbn; congruence|constructor].
      * exact (B T).
      * apply B'. congruence.
      * exact E1.
  - destruct A as (A & _). rewrite A, A' in E. discriminate E.
  - destruct A' as (A' & _). rewrite A, A' in E. discriminate E.
  - exact I.
Qed.

Theorem layout_independent : forall U U' text text' f n, input_fn f = true -> same_tokens U text U' text' ->
  same_outcome (corresponding U text U' text') (run U n f (fresh text)) (run U' n f (fresh text')).
Proof.
  intros U U' text text' f n I E. apply (input_run_alike U U' (lexer_new text) (lexer_new text')); [exact I| | |reflexivity].
  - exists 0. split; reflexivity.
  - intros k. apply (texts_alike U U' text text' k [] [] _ _ (3 * length text + 4) (3 * length text' + 4)); try constructor; exact E.
Qed.

(** Writing the same tokens with other gaps and indentations. *)
Lemma lex_all_enough : forall U text n evs l N, history U text evs l -> Forall going evs -> length evs + N = 3 * length text + 4 ->
  N <= n -> lex_all U n l = lex_all U N l.
Proof.
  intros U text n. induction n as [|n IH]; intros evs l N H F L LE; [replace N with 0 by lia; reflexivity|].
  pose proof (history_lex U text evs l N H F L) as A. cbn [lex_all].
  destruct (get_symbol U l) as [t l1|e l1|] eqn:G; [|symmetry; exact A|contradiction A].
  destruct A as (A & B). rewrite A. destruct (kind_eqb (tk_kind t) T_EOF) eqn:Q; [reflexivity|].
  assert (T : tk_kind t <> T_EOF) by (intros T; rewrite T in Q; discriminate Q). f_equal.
  apply (IH (evs ++ [inl t]) l1 (pred N)); [exact (H_ok _ _ _ _ _ _ H G)| |exact (B T)|lia].
  apply Forall_app. split; [exact F|]. constructor; [exact T|constructor].
Qed.
Lemma program_scanned : forall U xs ts, program U [0] xs ts ->
  map event_face (scanned U (RenderSpec.text_of xs)) =
  map (fun x => Some (fst x, if carries (fst x) then snd x else NoPayload)) ts.
Proof.
  intros U xs ts H. unfold scanned. set (text := RenderSpec.text_of xs). set (N := 3 * length text + 4).
  rewrite <- (lex_all_enough U text (N + length ts) [] (lexer_new text) N); [|constructor|constructor|reflexivity|lia].
  pose proof (round_trip U xs ts H (N + length ts) ltac:(lia)) as E. fold text in E.
  transitivity (map (fun o => match o with Some x => Some (fst x, if carries (fst x) then snd x else NoPayload) | None => None end)
    (map seen (lex_all U (N + length ts) (lexer_new text)))).
  - rewrite map_map. apply map_ext. intros [t|e]; reflexivity.
  - rewrite E, map_map. reflexivity.
Qed.
Theorem respaced : forall U U' xs xs' ts f n, input_fn f = true -> program U [0] xs ts -> program U' [0] xs' ts ->
  same_outcome (corresponding U (RenderSpec.text_of xs) U' (RenderSpec.text_of xs'))
    (run U n f (fresh (RenderSpec.text_of xs))) (run U' n f (fresh (RenderSpec.text_of xs'))).
Proof.
  intros U U' xs xs' ts f n I H H'. apply layout_independent; [exact I|]. unfold same_tokens.
  rewrite (program_scanned U xs ts H), (program_scanned U' xs' ts H'). reflexivity.
Qed.
