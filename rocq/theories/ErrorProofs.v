(** What an error message says is the case where it is given. *)
From Coq Require Import List Arith Lia String.
From Verif Require Import Chars SourceBuffer Token Tokenizer Node ParserState Expressions Statements
  Blocks Parser GrammarSpec ParseBasics ParseSpec OnlineSpec OnlineProofs ErrorSpec.
Import ListNotations.
Local Open Scope nat_scope.

(** ** Compositional statement, extending [online] *)
Definition honest {A} (P : look -> Prop) (m : unicode -> M A) (U : unicode) (s : parser) : Prop :=
  m U s = Fuel \/
    exists l s1, reads U s l s1 /\
      match m U s with
      | Ok _ s' => core s' s1
      | Err e => exists msg x, e = EAt msg (fst x) /\ (P x \/ In x (looks l s1)) /\ justified msg x (view s1)
      | _ => True
      end /\
      forall U' t t1, reads U' t l t1 -> view t1 = view s1 -> ps_except t = ps_except s ->
        agrees (m U s) (m U' t) t1.

Lemma core_view : forall s s', core s s' -> view s = view s'.
Proof. intros s s' [A B]. apply view_core; auto. Qed.
Lemma looks_first : forall U s l s1, reads U s l s1 -> In (view s) (looks l s1).
Proof.
  destruct 1; unfold looks; cbn.
  - left. symmetry. apply core_view. split; assumption.
  - left. symmetry. apply view_inl. assumption.
Qed.
Lemma looks_app_l : forall U l1 s1 l2 s2, reads U s1 l2 s2 -> forall x, In x (looks l1 s1) -> In x (looks (l1 ++ l2) s2).
Proof.
  intros U l1 s1 l2 s2 R p I. unfold looks in *. rewrite map_app, <- app_assoc. rewrite in_app_iff in *.
  destruct I as [I|[I|[]]]; [left; assumption|]. right. subst. exact (looks_first _ _ _ _ R).
Qed.
Lemma looks_app_r : forall l1 l2 s2 x, In x (looks l2 s2) -> In x (looks (l1 ++ l2) s2).
Proof. intros l1 l2 s2 p I. unfold looks in *. rewrite map_app, <- app_assoc, in_app_iff. auto. Qed.

Lemma honest_weaken : forall A (P Q : look -> Prop) (m : unicode -> M A) U s,
  (forall x, P x -> Q x) -> honest P m U s -> honest Q m U s.
Proof.
  intros A P Q m U s I [F|(l & s1 & R & E & D)]; [left; assumption|right].
  exists l, s1. split; [assumption|split; [|assumption]]. destruct (m U s); auto.
  destruct E as (msg & x & X & [Y|Y] & Z); exists msg, x; auto.
Qed.

Lemma honest_stay : forall A P (m : unicode -> M A) U s,
  match m U s with
  | Ok _ s' => core s' s
  | Err e => exists msg x, e = EAt msg (fst x) /\ (P x \/ x = view s) /\ justified msg x (view s)
  | _ => True
  end ->
  (forall U' t, view t = view s -> ps_except t = ps_except s -> agrees (m U s) (m U' t) t) -> honest P m U s.
Proof.
  intros A P m U s H K. right. exists [], s. split; [apply reads_refl|]. split.
  - destruct (m U s); auto. destruct H as (msg & x & X & [Y|Y] & Z); exists msg, x; split; auto. split; [|auto]. right. left. auto.
  - intros U' t t1 R V X. inversion R as [? ? E1 E2|]; subst.
    assert (V' : view t = view s) by (rewrite <- V; apply view_core; auto).
    specialize (K U' t V' X). unfold agrees in *. destruct (m U s); auto.
    destruct K as (t' & B & [Q1 Q2] & W). exists t'. split; [assumption|]. split; [split; congruence|assumption].
Qed.

Lemma honest_ret : forall A P (a : A) U s, honest P (fun _ => ret a) U s.
Proof.
  intros. apply honest_stay; unfold ret; [split; reflexivity|].
  intros U' t V X. exists t. split; [reflexivity|]. split; [split; reflexivity|assumption].
Qed.
Lemma honest_fail : forall A (P : look -> Prop) msg x U s,
  P x \/ x = view s -> justified msg x (view s) -> honest (A := A) P (fun _ => fail msg (fst x)) U s.
Proof.
  intros A P msg x U s M I. apply honest_stay; unfold fail; [|intros; reflexivity].
  exists msg, x. split; [reflexivity|]. split; assumption.
Qed.
Lemma honest_panic : forall A P U s, honest (A := A) P (fun _ => panic) U s.
Proof. intros. apply honest_stay; unfold panic; [exact I|]. intros. reflexivity. Qed.
Lemma honest_get : forall P U s, honest P (fun _ => get_except) U s.
Proof.
  intros. apply honest_stay; unfold get_except; [split; reflexivity|].
  intros U' t V X. exists t. split; [rewrite X; reflexivity|]. split; [split; reflexivity|assumption].
Qed.
Lemma honest_set : forall P x U s, honest P (fun _ => set_except x) U s.
Proof.
  intros. apply honest_stay; unfold set_except; [split; reflexivity|].
  intros U' t V X. eexists. split; [reflexivity|]. split; [split; reflexivity|reflexivity].
Qed.
Lemma honest_advance : forall P U s t, ps_symbol s = inl t -> honest P advance U s.
Proof.
  intros P U s t S. destruct (advance U s) as [[] s1|e| |] eqn:A;
    try (exfalso; unfold advance in A; destruct (get_symbol U (ps_lexer s)); discriminate).
  - right. exists [(pos s, t)], s1. split; [econstructor; eauto using reads_refl|]. rewrite A.
    split; [split; reflexivity|].
    intros U' u u1 R V X. inversion R as [|? ? u2 ? ? S2 A2 R2]; subst. inversion R2; subst.
    exists u2. split; [assumption|]. split; [split; assumption|].
    rewrite (advance_except _ _ _ A), (advance_except _ _ _ A2). assumption.
  - left. assumption.
Qed.

Lemma honest_bind : forall A C P (m : unicode -> M A) (k : A -> unicode -> M C) U s,
  honest P m U s -> (forall a s1, m U s = Ok a s1 -> honest P (k a) U s1) ->
  honest P (fun V => bind (m V) (fun a => k a V)) U s.
Proof.
  intros A C P m k U s Hm Hk. unfold honest in *.
  assert (B : bind (m U) (fun a => k a U) s = match m U s with Ok a s' => k a U s' | Err e => Err e | Panic => Panic | Fuel => Fuel end)
    by reflexivity.
  rewrite B. clear B. destruct Hm as [Hm|Hm]; [rewrite Hm; auto|].
  destruct Hm as (l1 & s1 & R1 & C1 & D1). destruct (m U s) as [a s2|e| |] eqn:E; auto.
  - specialize (Hk a s2 eq_refl). destruct Hk as [F|(l2 & s3 & R2 & C2 & D2)]; [left; assumption|].
    right. exists (l1 ++ l2), s3.
    assert (R2' : reads U s1 l2 s3) by (eapply reads_core_left; [exact R2|apply core_sym; exact C1]).
    split; [eapply reads_app; eauto|]. split.
    + destruct (k a U s2); auto. destruct C2 as (msg & x & X & [Y|Y] & Z); exists msg, x; auto using looks_app_r.
    + intros U' t t1 R V X. destruct (reads_app_inv _ _ _ _ _ R) as (u & Ra & Rb & _).
      assert (Vu : view u = view s1) by (eapply view_before; eauto).
      destruct (D1 U' t u Ra Vu X) as (u' & M & Cu & Xu).
      assert (Rb' : reads U' u' l2 t1) by (eapply reads_core_left; eauto).
      specialize (D2 U' u' t1 Rb' V Xu). unfold bind. rewrite M. assumption.
  - right. exists l1, s1. split; [assumption|]. split; [assumption|].
    intros U' t t1 R V X. specialize (D1 U' t t1 R V X). cbn in *. unfold bind. rewrite D1. reflexivity.
  - right. exists l1, s1. split; [assumption|]. split; [exact I|].
    intros U' t t1 R V X. specialize (D1 U' t t1 R V X). cbn in *. unfold bind. rewrite D1. reflexivity.
Qed.

(** The position taken is that of the first token read from here, or of the look-ahead. *)
Lemma honest_here : forall C (P : look -> Prop) (k : nat -> unicode -> M C) U s,
  honest (fun x => x = view s \/ P x) (k (pos s)) U s ->
  honest P (fun V => bind position (fun a => k a V)) U s.
Proof.
  intros C P k U s H. unfold honest in *.
  assert (B : forall V t, bind position (fun a => k a V) t = k (pos t) V t) by reflexivity.
  rewrite B. destruct H as [H|(l & s1 & R & E & D)]; [auto|right]. exists l, s1. split; [assumption|]. split.
  - destruct (k (pos s) U s); auto. destruct E as (msg & x & X & [[Y|Y]|Y] & Z); exists msg, x; auto.
    split; [assumption|]. split; [|assumption]. right. subst. exact (looks_first _ _ _ _ R).
  - intros U' t t1 R' V X. rewrite B. replace (pos t) with (pos s); [auto|].
    pose proof (view_before _ _ _ _ R _ _ _ R' V) as W. unfold view in W. congruence.
Qed.

Lemma honest_on : forall A P (e : unicode -> M A) (k : token -> unicode -> M A) U s,
  (forall er, ps_symbol s = inr er -> honest P e U s) ->
  (forall t, ps_symbol s = inl t -> honest P (k t) U s) ->
  honest P (fun V => on_symbol (e V) (fun t => k t V)) U s.
Proof.
  intros A P e k U s He Hk. unfold honest in *.
  assert (B : on_symbol (e U) (fun t => k t U) s = match ps_symbol s with inl t => k t U s | inr _ => e U s end) by reflexivity.
  rewrite B. clear B. destruct (ps_symbol s) as [t|er] eqn:S.
  - destruct (Hk t eq_refl) as [F|(l & s1 & R & Q & D)]; [auto|right]. exists l, s1. split; [exact R|split; [exact Q|]].
    intros U' u u1 R' V X. pose proof (view_before _ _ _ _ R _ _ _ R' V) as W. rewrite (view_inl _ _ S) in W.
    apply view_some in W. destruct W as [W _]. unfold on_symbol. rewrite W. auto.
  - destruct (He er eq_refl) as [F|(l & s1 & R & Q & D)]; [auto|right]. exists l, s1. split; [exact R|split; [exact Q|]].
    intros U' u u1 R' V X. pose proof (view_before _ _ _ _ R _ _ _ R' V) as W. unfold view in W. rewrite S in W.
    unfold on_symbol. destruct (ps_symbol u); [discriminate|auto].
Qed.

Lemma honest_while : forall A P (step : A -> unicode -> M (bool * A)) U n,
  (forall a s, honest P (step a) U s) -> forall a s, honest P (fun V => while_ n (fun a => step a V) a) U s.
Proof.
  intros A P step U n H. induction n as [|n IH]; intros a s; [left; reflexivity|].
  change (honest P (fun V => bind (step a V) (fun p => (fun (p : bool * A) (V : unicode) => let (again, a') := p in
    if again : bool then while_ n (fun a => step a V) a' else ret a') p V)) U s).
  apply honest_bind; [apply H|]. intros [[] a'] s1 _; [apply IH|apply honest_ret].
Qed.

Lemma expect_ok : forall U k p e1 e2 s a s1, expect U k p e1 e2 s = Ok a s1 -> ps_symbol s = inl a /\ is k a = true.
Proof.
  intros U k p e1 e2 s a s1 H. unfold expect, on_symbol in H. destruct (ps_symbol s) as [t|er]; [|discriminate].
  destruct (is k t) eqn:K; [|discriminate]. unfold bind in H. destruct (advance U s); try discriminate.
  unfold ret in H. injection H as <- <-. auto.
Qed.

(** ** Justification of a message *)
Definition entry (m : string) : option place :=
  match find (fun x => String.eqb (fst x) m) messages with Some x => Some (snd x) | None => None end.
Lemma entry_in : forall m pl, entry m = Some pl -> In (m, pl) messages.
Proof.
  unfold entry. intros m pl H. destruct (find _ messages) as [[m' pl']|] eqn:F; [|discriminate]. cbn in H. injection H as <-.
  apply find_some in F. destruct F as [F E]. cbn in E. apply String.eqb_eq in E. subst. assumption.
Qed.
Lemma justify : forall m pl c x y, entry m = Some pl -> meaning m = c -> placed pl x y -> holds c (snd y) -> justified m x y.
Proof. intros m pl c x y E <- A B. exists pl. auto using entry_in. Qed.

Lemma look_inl : forall s t, ps_symbol s = inl t -> snd (view s) = Some t.
Proof. intros s t H. unfold view. rewrite H. reflexivity. Qed.
Lemma look_inr : forall s e, ps_symbol s = inr e -> snd (view s) = None.
Proof. intros s t H. unfold view. rewrite H. reflexivity. Qed.
Lemma wants_none : forall s e ks, ps_symbol s = inr e -> holds (Wants ks) (snd (view s)).
Proof. intros s e ks H t E. rewrite (look_inr _ _ H) in E. discriminate. Qed.
Lemma wants_other : forall s t ks, ps_symbol s = inl t -> existsb (fun k => is k t) ks = false -> holds (Wants ks) (snd (view s)).
Proof.
  intros s t ks H N u E I. rewrite (look_inl _ _ H) in E. injection E as <-.
  assert (existsb (fun k => is k t) ks = true); [|congruence]. apply existsb_exists. exists (tk_kind t). split; [assumption|].
  unfold is. destruct (tk_kind t); reflexivity.
Qed.
Lemma is_kind : forall k t, is k t = true -> k = tk_kind t.
Proof. unfold is. intros k t H. symmetry. apply kind_eqb_eq. assumption. Qed.
Lemma is_any : forall s t k ks, ps_symbol s = inl t -> is k t = true -> existsb (kind_eqb k) ks = true ->
  exists u, snd (view s) = Some u /\ In (tk_kind u) ks.
Proof.
  intros s t k ks H K E. exists t. split; [apply look_inl; assumption|]. rewrite <- (is_kind _ _ K).
  apply existsb_exists in E. destruct E as (j & I & J). apply kind_eqb_eq in J. subst. assumption.
Qed.

Definition handed (f : fn) (x0 x : look) : Prop := match f with F_ann_assign _ _ => x = x0 | _ => False end.
Definition fitting (f : fn) (x0 : look) : Prop := match f with F_ann_assign q _ => fst x0 = q | _ => True end.

Section Bodies.
Variables (U : unicode) (n : nat) (rec : unicode -> fn -> M node).
Hypothesis R : forall f s x0, input_fn f = false -> fitting f x0 -> honest (handed f x0) (fun V => rec V f) U s.

Ltac place := first [left; reflexivity | right; place | reflexivity | assumption].
Ltac opened := match goal with S : ps_symbol ?s = inl ?t, K : is ?k ?t = true |- exists u, snd (view ?s) = Some u /\ _ =>
    apply (is_any s t k); [exact S|exact K|vm_compute; reflexivity] end.
Ltac put := cbn [placed]; first [reflexivity | exact I | opened | left; reflexivity | right; opened].
Ltac said :=
  match goal with
  | |- holds Nothing _ => exact I
  | |- holds Unreadable _ => eapply look_inr; eassumption
  | |- holds (Wants _) _ => first
      [ eapply wants_none; eassumption
      | eapply wants_other; [eassumption|]; unfold is_one_of in *; cbn [existsb] in *;
        repeat match goal with K : (_ || _)%bool = false |- _ => apply Bool.orb_false_iff in K; destruct K end;
        repeat match goal with K : is ?k ?t = false |- context [is ?k ?t] => rewrite K end; reflexivity
      | match goal with S : ps_symbol ?s = inl ?t, K : is ?k ?t = true |- holds _ (snd (view ?s)) =>
          eapply wants_other; [exact S|]; unfold is; rewrite <- (is_kind _ _ K); vm_compute; reflexivity end ]
  | |- holds (Sees _) _ => cbn [holds]; opened
  end.
Ltac just := eapply justify; [vm_compute; reflexivity | vm_compute; reflexivity | put | said].
Ltac on1 :=
  cbv beta;
  match goal with
  | |- honest _ (fun V => rec V (F_ann_assign (pos ?s) _)) U _ =>
      eapply honest_weaken; [|apply (R _ _ (view s)); reflexivity]; cbn [handed]; intros ? Z; rewrite Z; place
  | |- honest _ (fun V => rec V _) U _ =>
      eapply honest_weaken; [|apply (R _ _ (0, None)); [reflexivity|exact I]]; intros ? Z; cbn [handed] in Z; destruct Z
  | |- honest _ (fun _ => ret _) U _ => apply honest_ret
  | |- honest _ (fun _ => fail _ (pos ?s)) U _ => apply (honest_fail _ _ _ (view s)); [left; place|just]
  | |- honest _ (fun _ => fail _ (fst ?x)) U _ => apply (honest_fail _ _ _ x); [left; place|just]
  | |- honest _ (fun _ => panic) U _ => apply honest_panic
  | |- honest _ (fun _ => get_except) U _ => apply honest_get
  | |- honest _ (fun _ => set_except _) U _ => apply honest_set
  | |- honest _ advance U _ => eapply honest_advance; eassumption
  | |- honest _ (fun V => bind position _) U _ => apply honest_here
  | |- honest _ (fun V => bind (expect _ _ _ _ _) _) U _ =>
      apply honest_bind; [|let E := fresh in intros ? ? E; apply expect_ok in E; destruct E]
  | |- honest _ (fun V => bind _ _) U _ => apply honest_bind; [|intros ? ? _]
  | |- honest _ (fun V => on_symbol _ _) U _ => apply honest_on; intros ? ?
  | |- honest _ (fun V => while_ _ _ _) U _ => apply honest_while; intros ? ?
  | |- honest _ (fun V => if ?b then _ else _) U _ => let K := fresh in destruct b eqn:K
  | |- honest _ (fun V => match ?b with _ => _ end) U _ => destruct b
  | |- honest _ ?m U _ =>
      let b := eval cbv beta in (m U) in
      let rec head t := lazymatch t with ?f _ => head f | _ => t end in
      let h := head b in unfold h
  end.

Lemma body_honest : forall f s x0, input_fn f = false -> fitting f x0 ->
  honest (handed f x0) (fun V => body V n (rec V) f) U s.
Proof.
  intros f s x0 I F. destruct f; cbn [input_fn] in I; try discriminate I; clear I; cbn [fitting] in F; cbn [body];
    try (subst start_pos); repeat on1.
Qed.

(** The input functions take a token first. *)
Lemma input_honest : forall f x0, input_fn f = true -> exists tail : unicode -> M node,
  (forall V, body V n (rec V) f = bind (advance V) (fun _ => tail V)) /\ forall s, honest (handed f x0) tail U s.
Proof.
  intros f x0 I. destruct f; cbn [input_fn] in I; try discriminate I; clear I; cbn [body];
    eexists (fun V => _); (split; [intros V; reflexivity|intros s; repeat on1]).
Qed.
End Bodies.

Lemma run_honest : forall U n f s x0, input_fn f = false -> fitting f x0 -> honest (handed f x0) (fun V => run V n f) U s.
Proof.
  intros U n. induction n as [|n IH]; intros f s x0 I F; [left; reflexivity|].
  change (honest (handed f x0) (fun V => body V n (run V n) f) U s). apply body_honest; auto.
Qed.

Theorem run_justified : forall U n f s e, run U n f s = Err e ->
  exists m x s0 l s1, e = EAt m (fst x) /\ begun U f s s0 /\ reads U s0 l s1 /\
    (given f (fst x) \/ In x (looks l s1)) /\ justified m x (view s1) /\
    forall U' t t0 t1, begun U' f t t0 -> reads U' t0 l t1 -> view t1 = view s1 -> ps_except t = ps_except s ->
      run U' n f t = Err e.
Proof.
  intros U n f s e H. unfold begun.
  set (x0 := (match f with F_ann_assign q _ => q | _ => 0 end, None) : look).
  assert (F0 : fitting f x0) by (destruct f; cbn; auto).
  assert (F1 : forall x, handed f x0 x -> given f (fst x)) by (intros x; destruct f; cbn; auto; intros ->; reflexivity).
  destruct (input_fn f) eqn:I.
  - destruct n as [|n]; [discriminate|]. cbn [run] in *.
    destruct (input_honest U n (fun V => run V n) (fun g s x G => run_honest U n g s x G) f x0 I) as (tail & B & T).
    rewrite B in *. destruct (advance U s) as [[] s0|e0| |] eqn:A;
      try (exfalso; unfold advance in A; destruct (get_symbol U (ps_lexer s)); discriminate).
    + assert (Q : bind (advance U) (fun _ => tail U) s = tail U s0) by (unfold bind; rewrite A; reflexivity).
      rewrite Q in H. destruct (T s0) as [F|(l & s1 & R & E & D)]; [congruence|]. rewrite H in E, D.
      destruct E as (m & x & -> & P & J). exists m, x, s0, l, s1. split; [reflexivity|]. split; [reflexivity|]. split; [assumption|].
      split; [destruct P; auto|]. split; [assumption|].
      intros U' t t0 t1 A' R' V X. rewrite B. unfold bind. rewrite A'. apply (D U' t0 t1); auto.
      rewrite (advance_except _ _ _ A), (advance_except _ _ _ A'). assumption.
    + exfalso. unfold bind in H. rewrite A in H. discriminate.
  - destruct (run_honest U n f s x0 I F0) as [F|(l & s1 & R & E & D)]; [congruence|]. rewrite H in E, D.
    destruct E as (m & x & -> & P & J). exists m, x, s, l, s1. split; [reflexivity|]. split; [reflexivity|]. split; [assumption|].
    split; [destruct P; auto|]. split; [assumption|].
    intros U' t t0 t1 -> R' V X. apply (D U' t t1); auto.
Qed.

(** ** Messages that mean what they say *)
Lemma departs : forall m, ~ In m (map fst departures) -> meaning m = says m.
Proof.
  intros m N. unfold meaning. destruct (find _ departures) as [[m' c]|] eqn:F; [|reflexivity].
  apply find_some in F. destruct F as [I E]. apply String.eqb_eq in E. cbn in E. subst. exfalso. apply N.
  apply in_map_iff. exists (m, c). auto.
Qed.
Lemma all_say : forallb (fun x => existsb (String.eqb (fst x)) (map fst departures) ||
  match says (fst x) with Nothing => false | _ => true end)%bool messages = true.
Proof. vm_compute. reflexivity. Qed.
Lemma listed_says : forall m pl, In (m, pl) messages -> ~ In m (map fst departures) -> says m <> Nothing.
Proof.
  intros m pl I N E. pose proof all_say as A. rewrite forallb_forall in A. specialize (A _ I). cbn [fst] in A. rewrite E in A.
  rewrite Bool.orb_false_r in A. apply existsb_exists in A. destruct A as (m' & J & K). apply String.eqb_eq in K. subst. auto.
Qed.

Theorem truthful : forall U n f s m p, run U n f s = Err (EAt m p) -> ~ In m (map fst departures) ->
  says m <> Nothing /\
  exists s0 l s1, begun U f s s0 /\ reads U s0 l s1 /\ holds (says m) (snd (view s1)) /\
    forall U' t t0 t1, begun U' f t t0 -> reads U' t0 l t1 -> view t1 = view s1 -> ps_except t = ps_except s ->
      run U' n f t = Err (EAt m p).
Proof.
  intros U n f s m p H N. destruct (run_justified _ _ _ _ _ H) as (m' & x & s0 & l & s1 & E & B & R & P & J & D).
  injection E as <- ->. destruct J as (pl & I & _ & L). rewrite (departs _ N) in L. split; [eapply listed_says; eauto|].
  exists s0, l, s1. auto.
Qed.
