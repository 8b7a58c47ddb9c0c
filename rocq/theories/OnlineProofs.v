(** The outcome of a parser function is decided by the tokens it has read and its look-ahead, and an
    error is placed at one of these. *)
From Coq Require Import List Arith Lia String.
From Verif Require Import Chars SourceBuffer Token Tokenizer Node ParserState Expressions Statements
  Blocks Parser GrammarSpec ParseBasics ParseSpec OnlineSpec.
Import ListNotations.
Local Open Scope nat_scope.

(** ** Compositional statement *)

(** [m] called in [s] reads tokens [l] and looks at the one after them, and does the same wherever
    it finds these; errors are placed at one of these, or at a place satisfying [P]. *)
Definition online {A} (P : nat -> Prop) (m : unicode -> M A) (U : unicode) (s : parser) : Prop :=
  m U s = Fuel \/
    exists l s1, reads U s l s1 /\
      match m U s with
      | Ok _ s' => core s' s1
      | Err e => exists p, syntax_error e p /\ (P p \/ In p (starts l s1))
      | _ => True
      end /\
      forall U' t t1, reads U' t l t1 -> view t1 = view s1 -> ps_except t = ps_except s ->
        agrees (m U s) (m U' t) t1.

Lemma core_sym : forall s s', core s s' -> core s' s.
Proof. intros s s' [A B]. split; auto. Qed.
Lemma core_pos : forall s s', core s s' -> pos s = pos s'.
Proof. intros s s' [A B]. unfold pos. rewrite A. reflexivity. Qed.
Lemma reads_core_left : forall U s l s' s2, reads U s l s' -> core s2 s -> reads U s2 l s'.
Proof. intros U s l s' s2 R [A B]. eapply reads_core; eauto. Qed.
Lemma reads_core_right : forall U s l s' s2, reads U s l s' -> core s' s2 -> reads U s l s2.
Proof. intros U s l s' s2 R [A B]. eapply reads_core_r; eauto. Qed.

Lemma view_before : forall U s l s1, reads U s l s1 -> forall U' t t1, reads U' t l t1 -> view t1 = view s1 -> view t = view s.
Proof.
  intros U s l s1 R U' t t1 R' V. rewrite (reads_ahead _ _ _ _ R), (reads_ahead _ _ _ _ R'), V. reflexivity.
Qed.

Lemma starts_first : forall U s l s1, reads U s l s1 -> In (pos s) (starts l s1).
Proof.
  destruct 1; unfold starts; cbn.
  - left. symmetry. apply core_pos. split; assumption.
  - left. reflexivity.
Qed.
Lemma starts_app_l : forall U l1 s1 l2 s2, reads U s1 l2 s2 -> forall p, In p (starts l1 s1) -> In p (starts (l1 ++ l2) s2).
Proof.
  intros U l1 s1 l2 s2 R p I. unfold starts in *. rewrite map_app, <- app_assoc. rewrite in_app_iff in *.
  destruct I as [I|[I|[]]]; [left; assumption|]. right. subst. exact (starts_first _ _ _ _ R).
Qed.
Lemma starts_app_r : forall l1 l2 s2 p, In p (starts l2 s2) -> In p (starts (l1 ++ l2) s2).
Proof. intros l1 l2 s2 p I. unfold starts in *. rewrite map_app, <- app_assoc, in_app_iff. auto. Qed.

Lemma online_weaken : forall A (P Q : nat -> Prop) (m : unicode -> M A) U s,
  (forall p, P p -> Q p) -> online P m U s -> online Q m U s.
Proof.
  intros A P Q m U s I [F|(l & s1 & R & E & D)]; [left; assumption|right].
  exists l, s1. split; [assumption|split; [|assumption]]. destruct (m U s); auto.
  destruct E as (p & X & [Y|Y]); exists p; auto.
Qed.

Lemma online_stay : forall A P (m : unicode -> M A) U s,
  match m U s with Ok _ s' => core s' s | Err e => exists p, syntax_error e p /\ (P p \/ p = pos s) | _ => True end ->
  (forall U' t, view t = view s -> ps_except t = ps_except s -> agrees (m U s) (m U' t) t) -> online P m U s.
Proof.
  intros A P m U s H K. right. exists [], s. split; [apply reads_refl|]. split.
  - destruct (m U s); auto. destruct H as (p & X & [Y|Y]); exists p; split; auto. right. left. auto.
  - intros U' t t1 R V X. inversion R as [? ? E1 E2|]; subst.
    assert (V' : view t = view s) by (rewrite <- V; apply view_core; auto).
    specialize (K U' t V' X). unfold agrees in *. destruct (m U s); auto.
    destruct K as (t' & B & [Q1 Q2] & W). exists t'. split; [assumption|]. split; [split; congruence|assumption].
Qed.

Lemma online_ret : forall A P (a : A) U s, online P (fun _ => ret a) U s.
Proof.
  intros. apply online_stay; unfold ret; [split; reflexivity|].
  intros U' t V X. exists t. split; [reflexivity|]. split; [split; reflexivity|assumption].
Qed.
Lemma online_fail : forall A (P : nat -> Prop) msg p U s,
  String.prefix "SyntaxError at {}: " msg = true \/ String.prefix "Syntax Error at {} - " msg = true -> P p ->
  online (A := A) P (fun _ => fail msg p) U s.
Proof.
  intros A P msg p U s M I. apply online_stay; unfold fail; [|intros; reflexivity].
  exists p. split; [exists msg; auto|left; assumption].
Qed.
Lemma online_panic : forall A P U s, online (A := A) P (fun _ => panic) U s.
Proof. intros. apply online_stay; unfold panic; [exact I|]. intros. reflexivity. Qed.
Lemma online_get : forall P U s, online P (fun _ => get_except) U s.
Proof.
  intros. apply online_stay; unfold get_except; [split; reflexivity|].
  intros U' t V X. exists t. split; [rewrite X; reflexivity|]. split; [split; reflexivity|assumption].
Qed.
Lemma online_set : forall P x U s, online P (fun _ => set_except x) U s.
Proof.
  intros. apply online_stay; unfold set_except; [split; reflexivity|].
  intros U' t V X. eexists. split; [reflexivity|]. split; [split; reflexivity|reflexivity].
Qed.
Lemma online_advance : forall P U s t, ps_symbol s = inl t -> online P advance U s.
Proof.
  intros P U s t S. destruct (advance U s) as [[] s1|e| |] eqn:A;
    try (exfalso; unfold advance in A; destruct (get_symbol U (ps_lexer s)); discriminate).
  - right. exists [(pos s, t)], s1. split; [econstructor; eauto using reads_refl|]. rewrite A.
    split; [split; reflexivity|].
    intros U' u u1 R V X. inversion R as [|? ? u2 ? ? S2 A2 R2]; subst. inversion R2; subst.
    exists u2. split; [assumption|]. split; [split; assumption|].
    rewrite (advance_except _ _ _ A), (advance_except _ _ _ A2). assumption.
  - left. assumption.
Qed.

Lemma online_bind : forall A C P (m : unicode -> M A) (k : A -> unicode -> M C) U s,
  online P m U s -> (forall a s1, m U s = Ok a s1 -> online P (k a) U s1) ->
  online P (fun V => bind (m V) (fun a => k a V)) U s.
Proof.
  intros A C P m k U s Hm Hk. unfold online in *.
  assert (B : bind (m U) (fun a => k a U) s = match m U s with Ok a s' => k a U s' | Err e => Err e | Panic => Panic | Fuel => Fuel end)
    by reflexivity.
  rewrite B. clear B. destruct Hm as [Hm|Hm]; [rewrite Hm; auto|].
  destruct Hm as (l1 & s1 & R1 & C1 & D1). destruct (m U s) as [a s2|e| |] eqn:E; auto.
  - specialize (Hk a s2 eq_refl). destruct Hk as [F|(l2 & s3 & R2 & C2 & D2)]; [left; assumption|].
    right. exists (l1 ++ l2), s3.
    assert (R2' : reads U s1 l2 s3) by (eapply reads_core_left; [exact R2|apply core_sym; exact C1]).
    split; [eapply reads_app; eauto|]. split.
    + destruct (k a U s2); auto. destruct C2 as (p & X & [Y|Y]); exists p; auto using starts_app_r.
    + intros U' t t1 R V X. destruct (reads_app_inv _ _ _ _ _ R) as (u & Ra & Rb & _).
      assert (Vu : view u = view s1) by (eapply view_before; eauto).
      destruct (D1 U' t u Ra Vu X) as (u' & M & Cu & Xu).
      assert (Rb' : reads U' u' l2 t1) by (eapply reads_core_left; eauto).
      specialize (D2 U' u' t1 Rb' V Xu). unfold bind. rewrite M. assumption.
  - right. exists l1, s1. split; [assumption|]. split; [assumption|].
    intros U' t t1 R V X. specialize (D1 U' t t1 R V X). cbn in *. unfold bind. rewrite D1. reflexivity.
  - right. exists l1, s1. split; [assumption|]. split; [exact I|].
    intros U' t t1 R V X. specialize (D1 U' t t1 R V X). cbn in *. unfold bind. rewrite D1. reflexivity.
Qed.

(** The position taken is that of the first token read from here, or of the look-ahead. *)
Lemma online_here : forall C (P : nat -> Prop) (k : nat -> unicode -> M C) U s,
  online (fun p => p = pos s \/ P p) (k (pos s)) U s ->
  online P (fun V => bind position (fun a => k a V)) U s.
Proof.
  intros C P k U s H. unfold online in *.
  assert (B : forall V t, bind position (fun a => k a V) t = k (pos t) V t) by reflexivity.
  rewrite B. destruct H as [H|(l & s1 & R & E & D)]; [auto|right]. exists l, s1. split; [assumption|]. split.
  - destruct (k (pos s) U s); auto. destruct E as (p & X & [[Y|Y]|Y]); exists p; auto.
    split; [assumption|]. right. subst. exact (starts_first _ _ _ _ R).
  - intros U' t t1 R' V X. rewrite B. replace (pos t) with (pos s); [auto|].
    pose proof (view_before _ _ _ _ R _ _ _ R' V) as W. unfold view in W. congruence.
Qed.

Lemma online_on : forall A P (e : unicode -> M A) (k : token -> unicode -> M A) U s,
  (forall er, ps_symbol s = inr er -> online P e U s) ->
  (forall t, ps_symbol s = inl t -> online P (k t) U s) ->
  online P (fun V => on_symbol (e V) (fun t => k t V)) U s.
Proof.
  intros A P e k U s He Hk. unfold online in *.
  assert (B : on_symbol (e U) (fun t => k t U) s = match ps_symbol s with inl t => k t U s | inr _ => e U s end) by reflexivity.
  rewrite B. clear B. destruct (ps_symbol s) as [t|er] eqn:S.
  - destruct (Hk t eq_refl) as [F|(l & s1 & R & Q & D)]; [auto|right]. exists l, s1. split; [exact R|split; [exact Q|]].
    intros U' u u1 R' V X. pose proof (view_before _ _ _ _ R _ _ _ R' V) as W. rewrite (view_inl _ _ S) in W.
    apply view_some in W. destruct W as [W _]. unfold on_symbol. rewrite W. auto.
  - destruct (He er eq_refl) as [F|(l & s1 & R & Q & D)]; [auto|right]. exists l, s1. split; [exact R|split; [exact Q|]].
    intros U' u u1 R' V X. pose proof (view_before _ _ _ _ R _ _ _ R' V) as W. unfold view in W. rewrite S in W.
    unfold on_symbol. destruct (ps_symbol u); [discriminate|auto].
Qed.

Lemma online_while : forall A P (step : A -> unicode -> M (bool * A)) U n,
  (forall a s, online P (step a) U s) -> forall a s, online P (fun V => while_ n (fun a => step a V) a) U s.
Proof.
  intros A P step U n H. induction n as [|n IH]; intros a s; [left; reflexivity|].
  change (online P (fun V => bind (step a V) (fun p => (fun (p : bool * A) (V : unicode) => let (again, a') := p in
    if again : bool then while_ n (fun a => step a V) a' else ret a') p V)) U s).
  apply online_bind; [apply H|]. intros [[] a'] s1 _; [apply IH|apply online_ret].
Qed.

(** ** The parser functions *)

Section Bodies.
Variables (U : unicode) (n : nat) (rec : unicode -> fn -> M node).
Hypothesis R : forall f s, input_fn f = false -> online (given f) (fun V => rec V f) U s.

Ltac place := first [left; reflexivity | right; place | reflexivity | assumption].
Ltac on1 :=
  cbv beta;
  match goal with
  | |- online _ (fun V => rec V _) U _ =>
      eapply online_weaken; [|apply R; reflexivity]; intros ? Z; cbn [given] in Z; first [destruct Z; fail | rewrite Z; place]
  | |- online _ (fun _ => ret _) U _ => apply online_ret
  | |- online _ (fun _ => fail _ _) U _ => apply online_fail; [first [left; reflexivity|right; reflexivity] | place]
  | |- online _ (fun _ => panic) U _ => apply online_panic
  | |- online _ (fun _ => get_except) U _ => apply online_get
  | |- online _ (fun _ => set_except _) U _ => apply online_set
  | |- online _ advance U _ => eapply online_advance; eassumption
  | |- online _ (fun V => bind position _) U _ => apply online_here
  | |- online _ (fun V => bind _ _) U _ => apply online_bind; [|intros ? ? _]
  | |- online _ (fun V => on_symbol _ _) U _ => apply online_on; intros ? ?
  | |- online _ (fun V => while_ _ _ _) U _ => apply online_while; intros ? ?
  | |- online _ (fun V => if ?b then _ else _) U _ => destruct b
  | |- online _ (fun V => match ?b with _ => _ end) U _ => destruct b
  | |- online _ ?m U _ =>
      let b := eval cbv beta in (m U) in
      let rec head t := lazymatch t with ?f _ => head f | _ => t end in
      let h := head b in unfold h
  end.

Lemma body_online : forall f s, input_fn f = false -> online (given f) (fun V => body V n (rec V) f) U s.
Proof. intros f s I. destruct f; cbn [input_fn] in I; try discriminate I; clear I; cbn [body]; repeat on1. Qed.

(** The input functions take a token first. *)
Lemma input_online : forall f, input_fn f = true -> exists tail : unicode -> M node,
  (forall V, body V n (rec V) f = bind (advance V) (fun _ => tail V)) /\ forall s, online (given f) tail U s.
Proof.
  intros f I. destruct f; cbn [input_fn] in I; try discriminate I; clear I; cbn [body];
    eexists (fun V => _); (split; [intros V; reflexivity|intros s; repeat on1]).
Qed.
End Bodies.

Lemma run_online : forall U n f s, input_fn f = false -> online (given f) (fun V => run V n f) U s.
Proof.
  intros U n. induction n as [|n IH]; intros f s I; [left; reflexivity|].
  change (online (given f) (fun V => body V n (run V n) f) U s). apply body_online; auto.
Qed.

Theorem run_decided : forall U n f s, run U n f s <> Fuel ->
  exists s0 l s1, begun U f s s0 /\ reads U s0 l s1 /\
    match run U n f s with
    | Ok _ s' => core s' s1
    | Err e => exists p, syntax_error e p /\ (given f p \/ In p (starts l s1))
    | _ => True
    end /\
    forall U' t t0 t1, begun U' f t t0 -> reads U' t0 l t1 -> view t1 = view s1 -> ps_except t = ps_except s ->
      agrees (run U n f s) (run U' n f t) t1.
Proof.
  intros U n f s NF. unfold begun. destruct (input_fn f) eqn:I.
  - destruct n as [|n]; [exfalso; apply NF; reflexivity|]. cbn [run] in *.
    destruct (input_online U n (fun V => run V n) (fun g s G => run_online U n g s G) f I) as (tail & B & H).
    rewrite B in *. destruct (advance U s) as [[] s0|e| |] eqn:A;
      try (exfalso; unfold advance in A; destruct (get_symbol U (ps_lexer s)); discriminate).
    + assert (Q : bind (advance U) (fun _ => tail U) s = tail U s0) by (unfold bind; rewrite A; reflexivity).
      rewrite Q in *. destruct (H s0) as [F|(l & s1 & R & E & D)]; [contradiction|].
      exists s0, l, s1. split; [reflexivity|]. split; [assumption|]. split; [assumption|].
      intros U' t t0 t1 A' R' V X. rewrite B. unfold bind. rewrite A'. apply D; auto.
      rewrite (advance_except _ _ _ A), (advance_except _ _ _ A'). assumption.
    + exfalso. apply NF. unfold bind. rewrite A. reflexivity.
  - destruct (run_online U n f s I) as [F|(l & s1 & R & E & D)]; [contradiction|].
    exists s, l, s1. split; [reflexivity|]. split; [assumption|]. split; [assumption|].
    intros U' t t0 t1 -> R' V X. auto.
Qed.
