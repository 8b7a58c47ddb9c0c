(** Tools for the completeness of the parser: running the parser functions forwards on the
    tokens of a phrase, with any large enough fuel. *)
From Coq Require Import List Arith Lia.
From Verif Require Import Chars SourceBuffer Token Tokenizer Node ParserState Expressions Statements
  Blocks Parser GrammarSpec ParseBasics FirstSets.
Import ListNotations.
Local Open Scope nat_scope.

(** Holds for all large enough fuels. *)
Definition ev (P : nat -> Prop) : Prop := exists k : nat, forall n, k <= n -> P n.

Lemma ev_always : forall (P : nat -> Prop), (forall n, P n) -> ev P.
Proof. intros P H. exists 0. auto. Qed.
Lemma ev_mono : forall (P Q : nat -> Prop), ev P -> (forall n, P n -> Q n) -> ev Q.
Proof. intros P Q (N & H) I. exists N. auto. Qed.
Lemma ev_and : forall (P Q : nat -> Prop), ev P -> ev Q -> ev (fun n => P n /\ Q n).
Proof. intros P Q (N & H) (N2 & H2). exists (N + N2). intros n L. split; [apply H|apply H2]; lia. Qed.
Lemma ev_above : forall k, ev (fun n => k <= n).
Proof. intros k. exists k. auto. Qed.
Lemma ev_S : forall (P : nat -> Prop), ev (fun n => P (S n)) -> ev P.
Proof. intros P (N & H). exists (S N). intros [|n] L; [lia|]. apply H. lia. Qed.

Lemma ev_use : forall (P Q : nat -> Prop), ev P -> ev (fun n => P n -> Q n) -> ev Q.
Proof. intros P Q (k & H) (k2 & H2). exists (k + k2). intros n L. apply H2; [lia|]. apply H. lia. Qed.

(** ** Decisions on tokens *)
Definition member (k : kind) (ks : list kind) : bool := existsb (kind_eqb k) ks.
Lemma member_in : forall k ks, member k ks = true <-> In k ks.
Proof.
  intros. unfold member. rewrite existsb_exists. split.
  - intros (x & I & E). apply kind_eqb_eq in E. subst. assumption.
  - intros I. exists k. split; auto. apply kind_eqb_eq. reflexivity.
Qed.
Lemma member_not : forall k ks, member k ks = false <-> ~ In k ks.
Proof. intros. rewrite <- member_in. destruct (member k ks); split; congruence. Qed.

Lemma is_in_false : forall k t ks, In (tk_kind t) ks -> member k ks = false -> is k t = false.
Proof.
  intros k t ks I M. destruct (is k t) eqn:E; auto. apply is_true in E. subst.
  apply member_not in M. contradiction.
Qed.
Lemma is_in_true : forall k t ks, In (tk_kind t) ks -> forallb (kind_eqb k) ks = true -> is k t = true.
Proof.
  intros k t ks I F. rewrite forallb_forall in F. apply F in I. apply kind_eqb_eq in I. subst.
  apply kind_eqb_eq. reflexivity.
Qed.
Lemma is_out_false : forall k t ks, ~ In (tk_kind t) ks -> member k ks = true -> is k t = false.
Proof.
  intros k t ks I M. destruct (is k t) eqn:E; auto. apply is_true in E. subst.
  apply member_in in M. contradiction.
Qed.
Lemma one_of_in_true : forall ks' t ks, In (tk_kind t) ks -> sub_kinds ks ks' = true -> is_one_of ks' t = true.
Proof. intros. apply is_one_of_true. eapply sub_kinds_in; eauto. Qed.
Lemma one_of_in_false : forall ks' t ks, In (tk_kind t) ks -> forallb (fun k => negb (member k ks')) ks = true ->
  is_one_of ks' t = false.
Proof.
  intros ks' t ks I F. apply is_one_of_false. rewrite forallb_forall in F. apply F in I.
  apply member_not. destruct (member (tk_kind t) ks'); [discriminate|reflexivity].
Qed.
Lemma one_of_out_false : forall ks' t ks, ~ In (tk_kind t) ks -> sub_kinds ks' ks = true ->
  is_one_of ks' t = false.
Proof. intros ks' t ks I F. apply is_one_of_false. intro J. apply I. eapply sub_kinds_in; eauto. Qed.
Lemma one_of_eq : forall ks k t, tk_kind t = k -> is_one_of ks t = member k ks.
Proof.
  intros ks k t <-. unfold is_one_of, member. induction ks as [|a ks IH]; [reflexivity|]. cbn [existsb]. rewrite IH. reflexivity.
Qed.

(** ** Running the monad forwards *)
Lemma bind_run : forall A C (m : M A) (k : A -> M C) s a s1 r, m s = Ok a s1 -> k a s1 = r -> bind m k s = r.
Proof. unfold bind. intros A C m k s a s1 r -> H. exact H. Qed.
Lemma on_symbol_run : forall A (e : M A) k s t r, ps_symbol s = inl t -> k t s = r -> on_symbol e k s = r.
Proof. unfold on_symbol. intros A e k s t r -> H. exact H. Qed.
Lemma on_symbol_err : forall A (e : M A) k s x r, ps_symbol s = inr x -> e s = r -> on_symbol e k s = r.
Proof. unfold on_symbol. intros A e k s x r -> H. exact H. Qed.
Lemma position_run : forall s, position s = Ok (pos s) s.
Proof. reflexivity. Qed.
Lemma expect_run : forall U k p e1 e2 s t s', ps_symbol s = inl t -> tk_kind t = k -> advance U s = Ok tt s' ->
  expect U k p e1 e2 s = Ok t s'.
Proof.
  intros U k p e1 e2 s t s' S K A. unfold expect. eapply on_symbol_run; [eassumption|].
  rewrite (is_eq _ _ _ K). replace (kind_eqb k k) with true by (symmetry; apply kind_eqb_eq; reflexivity).
  eapply bind_run; [eassumption|reflexivity].
Qed.
Lemma while_stop : forall A n step (a a' : A) s s', 0 < n -> step a s = Ok (false, a') s' ->
  while_ n step a s = Ok a' s'.
Proof. intros A [|n] step a a' s s' L H; [lia|]. cbn [while_]. eapply bind_run; [eassumption|reflexivity]. Qed.
Lemma while_split : forall A k n step (a : A) s r, k <= n -> while_ (k + (n - k)) step a s = r ->
  while_ n step a s = r.
Proof. intros A k n step a s r L H. replace (k + (n - k)) with n in H by lia. exact H. Qed.
Lemma while_turn : forall A n step (a a' : A) s s1, step a s = Ok (true, a') s1 ->
  while_ (S n) step a s = while_ n step a' s1.
Proof. intros A n step a a' s s1 H. cbn [while_]. eapply bind_run; [eassumption|reflexivity]. Qed.

(** ** Reading without change of the flag *)
Section ReadX.
Variable U : unicode.

Definition readx (s : parser) (l : list ptok) (s' : parser) : Prop :=
  reads U s l s' /\ ps_except s' = ps_except s.

Lemma state_eq : forall s s' : parser, ps_lexer s = ps_lexer s' -> ps_symbol s = ps_symbol s' ->
  ps_except s' = ps_except s -> s' = s.
Proof. intros [] []; cbn; congruence. Qed.

Lemma readx_nil : forall s s', readx s [] s' -> s' = s.
Proof. intros s s' (R & X). inversion R; subst. apply state_eq; auto. Qed.
Lemma readx_cons : forall s p t l s', readx s ((p, t) :: l) s' ->
  p = pos s /\ ps_symbol s = inl t /\ exists s1, advance U s = Ok tt s1 /\ readx s1 l s'.
Proof.
  intros s p t l s' (R & X). inversion R; subst. repeat split; auto.
  exists s1. split; auto. split; auto. rewrite X. symmetry. eapply advance_except; eauto.
Qed.
Lemma readx_app : forall s l1 l2 s', readx s (l1 ++ l2) s' -> exists s1, readx s l1 s1 /\ readx s1 l2 s'.
Proof.
  intros s l1 l2 s' (R & X). apply reads_app_inv in R. destruct R as (s1 & R1 & R2 & X1).
  exists s1. repeat split; auto. congruence.
Qed.
Lemma readx_ahead : forall s l s' la, readx s l s' -> view s' = la -> view s = ahead l la.
Proof. intros s l s' la (R & _) <-. eapply reads_ahead; eauto. Qed.
Lemma readx_start : forall s l s' la, readx s l s' -> view s' = la -> start l la = pos s.
Proof. intros s l s' la (R & _) <-. symmetry. eapply reads_start; eauto. Qed.
Lemma readx_begins : forall s l s' ks, readx s l s' -> begins ks l ->
  exists t, ps_symbol s = inl t /\ In (tk_kind t) ks.
Proof.
  intros s l s' ks R (p & t & l' & -> & I). apply readx_cons in R. destruct R as (_ & S & _). eauto.
Qed.
Lemma stops_symbol : forall s ks la, view s = la -> stops ks la ->
  exists t, ps_symbol s = inl t /\ ~ In (tk_kind t) ks.
Proof. intros s ks la <- (t & V & N). exists t. split; auto. apply view_token. auto. Qed.
Lemma before_symbol : forall s ks la, view s = la -> before ks la ->
  exists t, ps_symbol s = inl t /\ In (tk_kind t) ks.
Proof. intros s ks la <- (t & V & N). exists t. split; auto. apply view_token. auto. Qed.
Lemma differs_symbol : forall s ks la, view s = la -> differs ks la ->
  (exists t, ps_symbol s = inl t /\ ~ In (tk_kind t) ks) \/ (exists e, ps_symbol s = inr e).
Proof.
  intros s ks la <- D. destruct (ps_symbol s) as [t|e] eqn:E; [left|right; eauto].
  exists t. split; auto. apply D. apply view_token. auto.
Qed.

(** ** Sequences of items read by a loop *)
Inductive each {X : Type} (T : parser -> X -> parser -> Prop) : parser -> list X -> parser -> Prop :=
| each_nil s : each T s [] s
| each_cons s x s1 xs s' : T s x s1 -> each T s1 xs s' -> each T s (x :: xs) s'.

Lemma each_loop : forall A X (T : parser -> X -> parser -> Prop) (step : A -> M (bool * A)) (push : A -> X -> A),
  (forall a s x s', T s x s' -> step a s = Ok (true, push a x) s') ->
  forall s xs s', each T s xs s' -> forall j a,
  while_ (length xs + j) step a s = while_ j step (fold_left push xs a) s'.
Proof.
  intros A X T step push H s xs s' E. induction E; intros j a; [reflexivity|].
  cbn [length Nat.add fold_left]. erewrite while_turn by (apply H; eassumption). apply IHE.
Qed.

Lemma each_run : forall A X (T : parser -> X -> parser -> Prop) (step : A -> M (bool * A)) (push : A -> X -> A)
  s xs s' n a a' s2,
  each T s xs s' ->
  (forall a s x s', T s x s' -> step a s = Ok (true, push a x) s') ->
  length xs < n ->
  step (fold_left push xs a) s' = Ok (false, a') s2 ->
  while_ n step a s = Ok a' s2.
Proof.
  intros A X T step push s xs s' n a a' s2 E H L S.
  replace n with (length xs + (n - length xs)) by lia. erewrite each_loop by eassumption.
  apply while_stop; [lia|assumption].
Qed.

Lemma each_mono : forall X (T T2 : parser -> X -> parser -> Prop) s xs s',
  (forall s x s', T s x s' -> T2 s x s') -> each T s xs s' -> each T2 s xs s'.
Proof. intros X T T2 s xs s' H E. induction E; econstructor; eauto. Qed.

Definition push2 (a : list node * list token) (x : node * token) : list node * list token :=
  (fst a ++ [fst x], snd a ++ [snd x]).
Lemma fold_push2 : forall xs a, fold_left push2 xs a = (fst a ++ map fst xs, snd a ++ map snd xs).
Proof.
  induction xs as [|[x t] xs IH]; intros [ns ts]; cbn [fold_left map].
  - cbn. rewrite !app_nil_r. reflexivity.
  - rewrite IH. cbn. rewrite <- !app_assoc. reflexivity.
Qed.
Lemma fold_push1 : forall X (xs a : list X), fold_left (fun a x => a ++ [x]) xs a = a ++ xs.
Proof.
  induction xs as [|x xs IH]; intros a; cbn [fold_left].
  - rewrite app_nil_r. reflexivity.
  - rewrite IH, <- app_assoc. reflexivity.
Qed.

(** What is known of the first token of a phrase [f] at [s]. *)
Definition sees (s : parser) (f : fn) : Prop :=
  match f with
  | F_typed_args_list | F_lambda_def _ => True
  | _ => exists t, ps_symbol s = inl t /\ In (tk_kind t) (firsts f)
  end.
Lemma E_sees : forall f l la x s s', E f l la x -> readx s l s' -> sees s f.
Proof.
  intros f l la x s s' G R. apply E_first in G. destruct f; try exact I; cbn [first_ok] in G;
    eapply readx_begins; eauto.
Qed.

(** separator, item *)
Definition rest_turn (n : nat) (fs : list fn) (k : kind) (s : parser) (x : node * token) (s' : parser) : Prop :=
  exists f s1, ps_symbol s = inl (snd x) /\ tk_kind (snd x) = k /\ advance U s = Ok tt s1 /\ In f fs /\
    sees s1 f /\ run U n f s1 = Ok (fst x) s'.
Definition many_turn (n : nat) (f : fn) (s : parser) (x : node) (s' : parser) : Prop :=
  sees s f /\ run U n f s = Ok x s'.

Lemma items_loop : forall n fs k (step : list node * list token -> M (bool * (list node * list token))) s is s' j ns ts,
  each (rest_turn n fs k) s is s' ->
  (forall ns ts s t f s1 x s', ps_symbol s = inl t -> tk_kind t = k -> advance U s = Ok tt s1 ->
     In f fs -> sees s1 f -> run U n f s1 = Ok x s' ->
     step (ns, ts) s = Ok (true, (ns ++ [x], ts ++ [t])) s') ->
  while_ (length is + j) step (ns, ts) s = while_ j step (ns ++ map fst is, ts ++ map snd is) s'.
Proof.
  intros n fs k step s is s' j ns ts E H.
  rewrite (each_loop _ _ (rest_turn n fs k) step push2) with (s' := s'); [|clear - H|assumption].
  - rewrite fold_push2. reflexivity.
  - intros [ns ts] s [x t] s' (f & s1 & A & B & D & F & G & I). unfold push2. cbn [fst snd] in *.
    eapply H; eauto.
Qed.
Lemma items_run1 : forall n fs k (step : list node * list token -> M (bool * (list node * list token))) s x is s' m a s2,
  each (rest_turn n fs k) s is s' ->
  (forall ns ts s t f s1 x s', ps_symbol s = inl t -> tk_kind t = k -> advance U s = Ok tt s1 ->
     In f fs -> sees s1 f -> run U n f s1 = Ok x s' ->
     step (ns, ts) s = Ok (true, (ns ++ [x], ts ++ [t])) s') ->
  S (length is) < m ->
  step (x :: map fst is, map snd is) s' = Ok (false, a) s2 ->
  while_ m step ([x], []) s = Ok a s2.
Proof.
  intros n fs k step s x is s' m a s2 E H L S. replace m with (length is + (m - length is)) by lia.
  erewrite items_loop by eassumption. apply while_stop; [lia|assumption].
Qed.
Lemma items_run2 : forall n fs k (step : list node * list token -> M (bool * (list node * list token))) s x is s' m a s2 a3 s3,
  each (rest_turn n fs k) s is s' ->
  (forall ns ts s t f s1 x s', ps_symbol s = inl t -> tk_kind t = k -> advance U s = Ok tt s1 ->
     In f fs -> sees s1 f -> run U n f s1 = Ok x s' ->
     step (ns, ts) s = Ok (true, (ns ++ [x], ts ++ [t])) s') ->
  S (length is) < m ->
  step (x :: map fst is, map snd is) s' = Ok (true, a) s2 ->
  step a s2 = Ok (false, a3) s3 ->
  while_ m step ([x], []) s = Ok a3 s3.
Proof.
  intros n fs k step s x is s' m a s2 a3 s3 E H L S S2.
  replace m with (length is + (1 + (m - length is - 1))) by lia.
  erewrite items_loop by eassumption. cbn [Nat.add]. erewrite while_turn by eassumption.
  apply while_stop; [lia|assumption].
Qed.
Lemma many_run : forall n f (step : list node -> M (bool * list node)) s xs s' m a a' s2,
  each (many_turn n f) s xs s' ->
  (forall ns s x s', sees s f -> run U n f s = Ok x s' -> step ns s = Ok (true, ns ++ [x]) s') ->
  S (length xs) < m ->
  step (a ++ xs) s' = Ok (false, a') s2 ->
  while_ m step a s = Ok a' s2.
Proof.
  intros n f step s xs s' m a a' s2 E H L S. replace m with (length xs + (m - length xs)) by lia.
  rewrite (each_loop _ _ (many_turn n f) step (fun a x => a ++ [x])) with (s' := s'); [| |assumption].
  - rewrite fold_push1. apply while_stop; [lia|assumption].
  - intros a0 s0 x s'0 (A & B). apply H; assumption.
Qed.

Definition token_turn (ok : token -> Prop) (s : parser) (t : token) (s' : parser) : Prop :=
  ps_symbol s = inl t /\ ok t /\ advance U s = Ok tt s'.
Lemma tokens_each : forall (ok : token -> Prop) l s s', readx s l s' -> Forall (fun x => ok (snd x)) l ->
  each (token_turn ok) s (map snd l) s'.
Proof.
  intros ok l. induction l as [|[p t] l IH]; intros s s' R F.
  - apply readx_nil in R. subst. constructor.
  - apply readx_cons in R. destruct R as (_ & S & s1 & A & R). inversion F; subst.
    cbn [map snd]. econstructor; [|eauto]. split; [|split]; eauto.
Qed.
Lemma tokens_run : forall ok (step : list token -> M (bool * list token)) s ts s' m a a' s2,
  each (token_turn ok) s ts s' ->
  (forall a s t s', ps_symbol s = inl t -> ok t -> advance U s = Ok tt s' -> step a s = Ok (true, a ++ [t]) s') ->
  S (length ts) < m ->
  step (a ++ ts) s' = Ok (false, a') s2 ->
  while_ m step a s = Ok a' s2.
Proof.
  intros ok step s ts s' m a a' s2 E H L S. replace m with (length ts + (m - length ts)) by lia.
  rewrite (each_loop _ _ (token_turn ok) step (fun a x => a ++ [x])) with (s' := s'); [| |assumption].
  - rewrite fold_push1. apply while_stop; [lia|assumption].
  - intros a0 s0 x s'0 (A & B & D). apply H; assumption.
Qed.

(** ** The claims *)
Definition C (f : fn) (s : parser) (x : node) (s' : parser) : Prop :=
  ev (fun n => run U n f s = Ok x s').
Definition K_E (f : fn) (l : list ptok) (la : look) (x : node) : Prop :=
  forall s s', readx s l s' -> view s' = la -> C f s x s'.
End ReadX.


(** ** Tactics *)
(* split the reading of the phrase *)
Ltac unread :=
  repeat match goal with
  | R : readx _ ?s [] ?s' |- _ => apply readx_nil in R; subst s'
  | R : readx _ ?s ((?p, ?t) :: ?l) ?s' |- _ =>
      let P := fresh in
      apply readx_cons in R; destruct R as (P & ? & ? & ? & R); try subst p
  | R : readx _ ?s (?l1 ++ ?l2) ?s' |- _ => apply readx_app in R; destruct R as (? & ? & R)
  end.

Ltac viewing :=
  first
  [ assumption
  | reflexivity
  | apply view_inl; assumption
  | rewrite ?ahead_app; eapply readx_ahead; [eassumption | viewing] ].

(* replace start positions *)
Ltac starts :=
  repeat match goal with
  | R : readx ?U ?s ?l ?s' |- context [start ?l ?la] => rewrite (readx_start U s l s' la R ltac:(viewing)) in *
  | R : readx ?U ?s ?l ?s', H : context [start ?l ?la] |- _ =>
      rewrite (readx_start U s l s' la R ltac:(viewing)) in *
  end.

Ltac merge :=
  repeat match goal with
  | A : ps_symbol ?s = inl ?t, B : ps_symbol ?s = inl ?u |- _ =>
      let E := fresh in
      assert (E : t = u) by congruence; clear B; first [subst u | subst t | clear E]
  end.

Ltac pick :=
  repeat match goal with
  | H : In ?f (_ :: _) |- _ =>
      match type of f with
      | fn => destruct H as [H | H]; [subst f |]
      | (kind * _)%type => destruct H as [H | H]; [injection H as ? ?; subst |]
      end
  | H : In ?f [] |- _ => destruct H
  | H : ?k = tk_kind ?t |- _ => symmetry in H
  end.

(* use the induction hypotheses, and the first token of each phrase *)
Ltac seeing H :=
  cbn [sees] in H;
  match type of H with
  | True => clear H
  | exists _, _ => destruct H as (? & ? & ?)
  | _ => idtac
  end.
Ltac feed :=
  repeat match goal with
  | IH : K_E ?U ?f ?l ?la ?x, G : E ?f ?l ?la ?x, R : readx ?U ?s ?l ?s' |- _ =>
      let H := fresh "RUN" in
      pose proof (IH s s' R ltac:(viewing)) as H; clear IH; unfold C in H;
      apply (E_sees U f l la x s s') in G; [| exact R]; seeing G
  end.
Ltac facts :=
  repeat match goal with
  | H : stops _ ?la |- _ => eapply (stops_symbol _ _ la) in H; [| viewing]; destruct H as (? & ? & ?)
  | H : before _ ?la |- _ => eapply (before_symbol _ _ la) in H; [| viewing]; destruct H as (? & ? & ?)
  | H : differs _ ?la |- _ =>
      eapply (differs_symbol _ _ la) in H; [| viewing]; destruct H as [(? & ? & ?) | (? & ?)]
  end; merge.

Ltac gather :=
  apply (ev_use _ _ (ev_above 5));
  repeat match goal with H : ev ?P |- ev _ => apply (ev_use P _ H); clear H end;
  apply ev_always; let n := fresh "n" in intro n; intros.

Ltac decide_is :=
  match goal with
  | |- context [is ?k ?t] =>
      first
      [ match goal with K : tk_kind t = ?k' |- _ =>
          rewrite (is_eq k k' t K);
          let b := eval vm_compute in (kind_eqb k' k) in change (kind_eqb k' k) with b end
      | match goal with I : In (tk_kind t) ?ks |- _ => rewrite (is_in_false k t ks I eq_refl) end
      | match goal with I : ~ In (tk_kind t) ?ks |- _ => rewrite (is_out_false k t ks I eq_refl) end
      | match goal with I : In (tk_kind t) ?ks |- _ => rewrite (is_in_true k t ks I eq_refl) end ]
  | |- context [is_one_of ?ks' ?t] =>
      first
      [ match goal with K : tk_kind t = ?k' |- _ =>
          rewrite (one_of_eq ks' k' t K);
          let b := eval vm_compute in (member k' ks') in change (member k' ks') with b end
      | match goal with I : In (tk_kind t) ?ks |- _ => rewrite (one_of_in_true ks' t ks I eq_refl) end
      | match goal with I : In (tk_kind t) ?ks |- _ => rewrite (one_of_in_false ks' t ks I eq_refl) end
      | match goal with I : ~ In (tk_kind t) ?ks |- _ => rewrite (one_of_out_false ks' t ks I eq_refl) end ]
  end; cbv beta iota.

Ltac head t := lazymatch t with ?f _ => head f | _ => t end.
Ltac open_fn := match goal with |- ?m ?s = _ => let h := head m in unfold h end.

Ltac open_sub :=
  match goal with |- ?m ?s = _ =>
    let h := head m in
    lazymatch h with
    | @run => fail | @while_ => fail | @fail => fail | @fail_here => fail | @advance => fail
    | @bind => fail | @ret => fail | @position => fail | @expect => fail
    | _ => unfold h
    end
  end.

Ltac sim1 :=
  match goal with
  | |- bind ?m _ _ = _ => eapply bind_run; [solve [sim] | cbv beta iota zeta]
  | |- on_symbol _ _ _ = _ =>
      first [ eapply on_symbol_run; [eassumption | cbv beta iota zeta]
            | eapply on_symbol_err; [eassumption | cbv beta iota zeta] ]
  | |- position _ = _ => apply position_run
  | |- expect _ _ _ _ _ _ = _ => eapply expect_run; eassumption
  | |- ret _ _ = _ => reflexivity
  | |- (if _ then _ else _) _ = _ => decide_is
  | |- while_ _ _ _ _ = _ => loop
  | |- ?G => first [eassumption | progress (cbv beta iota zeta) | open_sub]
  end
with sim := repeat sim1
with loop :=
  first
  [ eassumption
  | apply while_stop; [lia | solve [open_fn; sim]]
  | eapply items_run1; [eassumption | turn | lia | solve [open_fn; sim]]
  | eapply items_run2; [eassumption | turn | lia | solve [open_fn; sim] | solve [open_fn; sim]]
  | eapply many_run; [eassumption | turn | lia | solve [open_fn; sim]] ]
with turn :=
  solve [ intros; pick;
    repeat match goal with H : sees _ _ |- _ => cbn [sees] in H; destruct H as (? & ? & ?) end;
    open_fn; sim ].
