(** Completeness of the parser for phrases with suites and for complete inputs. *)
From Coq Require Import List Arith Lia.
From Verif Require Import Chars SourceBuffer Token Tokenizer Node ParserState Expressions Statements
  Blocks Parser LexBasics GrammarSpec ParseBasics FirstSets CompleteBasics CompleteExpr.
Import ListNotations.
Local Open Scope nat_scope.

(** The state with another except flag. *)
Definition flag (c : except_status) (s : parser) : parser := mk_parser (ps_lexer s) (ps_symbol s) c.

Section Flag.
Variable U : unicode.
Lemma flag_self : forall s, flag (ps_except s) s = s.
Proof. intros []; reflexivity. Qed.
Lemma flag_advance : forall s s1 c, advance U s = Ok tt s1 -> advance U (flag c s) = Ok tt (flag c s1).
Proof.
  intros s s1 c A. unfold advance, flag in *. cbn. destruct (get_symbol U (ps_lexer s)); inversion A; subst; reflexivity.
Qed.
Lemma flag_reads : forall c s l s', reads U s l s' -> reads U (flag c s) l (flag c s').
Proof.
  intros c s l s' R. eapply reads_core_r; [eapply reads_core; [exact R| |]| |]; reflexivity.
Qed.
Lemma flag_readx : forall c s l s', readx U s l s' -> readx U (flag c s) l (flag c s').
Proof. intros c s l s' (R & _). split; [apply flag_reads; exact R|reflexivity]. Qed.

Definition K_B (f : fn) (c : except_status) (l : list ptok) (la : look) (x : node) (c' : except_status) : Prop :=
  forall s s', readx U s l s' -> view s' = la -> C U f (flag c s) x (flag c' s').
Definition K_optB (f : fn) (c : except_status) (l : list ptok) (la : look) (o : option node) (c' : except_status) : Prop :=
  match o with Some x => K_B f c l la x c' /\ B f c l la x c' | None => l = [] /\ c' = c end.
Definition K_manyB (f : fn) (c : except_status) (l : list ptok) (la : look) (xs : list node) (c' : except_status) : Prop :=
  forall s s', readx U s l s' -> view s' = la -> ev (fun n => each (many_turn U n f) (flag c s) xs (flag c' s')).

Lemma E_flag : forall f l la x, E f l la x -> forall s s', readx U s l s' -> view s' = la ->
  ev (fun n => forall c, run U n f (flag c s) = Ok x (flag c s')).
Proof.
  intros f l la x G s s' R V. apply (E_complete U) in G.
  assert (Z : forall c, C U f (flag c s) x (flag c s')) by (intros c; apply G; [apply flag_readx; exact R|exact V]).
  apply (ev_use _ _ (Z ExceptNone)). apply (ev_use _ _ (Z ExceptMul)). apply (ev_use _ _ (Z Except)).
  apply ev_always. intros n A1 A2 A3 []; assumption.
Qed.
Lemma B_sees : forall f c l la x c' s s', B f c l la x c' -> readx U s l s' -> sees s f.
Proof.
  intros f c l la x c' s s' G R. apply B_first in G.
  destruct f; try exact I; cbn [sees]; eapply readx_begins; eauto.
Qed.
Lemma no_match : forall s l s' t, readx U s l s' -> ps_symbol s = inl t -> l <> [] -> ~ starts_match l ->
  tk_kind t = T_AtomName -> str_eqb (text_of t) $"match" = false.
Proof.
  intros s l s' t R S L N K. destruct l as [|[p u] l]; [contradiction|].
  apply readx_cons in R. destruct R as (_ & S' & _).
  assert (u = t) by congruence. subst u.
  destruct (str_eqb (text_of t) $"match") eqn:Q; [|reflexivity].
  exfalso. apply N. exists p, t, l. split; [reflexivity|]. split; [exact K|].
  apply str_eqb_eq. exact Q.
Qed.
Lemma set_run : forall c c0 s, set_except c (flag c0 s) = Ok tt (flag c s).
Proof. reflexivity. Qed.
Lemma get_run : forall c s, get_except (flag c s) = Ok c (flag c s).
Proof. reflexivity. Qed.
End Flag.

Lemma each_first : forall X T s (xs : list X) s', each T s xs s' -> xs <> [] ->
  exists x s1 xs', xs = x :: xs' /\ T s x s1 /\ each T s1 xs' s'.
Proof. intros X T s xs s' D Z. destruct D; [contradiction|]. eauto 10. Qed.

(** ** Tactics *)
Ltac sim1 ::=
  match goal with
  | |- bind ?m _ _ = _ => eapply bind_run; [solve [sim] | cbv beta iota zeta]
  | |- on_symbol _ _ _ = _ =>
      first [ eapply on_symbol_run; [eassumption | cbv beta iota zeta]
            | eapply on_symbol_err; [eassumption | cbv beta iota zeta] ]
  | |- position _ = _ => apply position_run
  | |- expect _ _ _ _ _ _ = _ =>
      first [ eapply expect_run; [eassumption | eassumption | eapply flag_advance; eassumption]
            | eapply expect_run; eassumption ]
  | |- advance _ (flag _ _) = _ => eapply flag_advance; eassumption
  | H : forall c, run _ _ ?f (flag c ?s) = Ok _ _ |- run _ _ ?f (flag _ ?s) = _ => apply H
  | |- set_except _ (flag _ _) = _ => apply set_run
  | |- get_except (flag _ _) = _ => apply get_run
  | |- ret _ _ = _ => reflexivity
  | |- (if _ then _ else _) _ = _ => decide_is
  | |- while_ _ _ _ _ = _ => loop
  | |- ?G => first [eassumption | progress (cbv beta iota zeta) | open_sub]
  end.

Ltac feedE :=
  repeat match goal with
  | G : E ?f ?l ?la ?x, R : readx ?U ?s ?l ?s' |- _ =>
      let H := fresh "RUN" in
      pose proof (E_flag U f l la x G s s' R ltac:(viewing)) as H;
      apply (E_sees U f l la x s s') in G; [| exact R]; seeing G
  end.
Ltac feedB :=
  repeat match goal with
  | IH : K_B ?U ?f ?c ?l ?la ?x ?c', G : B ?f ?c ?l ?la ?x ?c', R : readx ?U ?s ?l ?s' |- _ =>
      let H := fresh "RUN" in
      pose proof (IH s s' R ltac:(viewing)) as H; clear IH; unfold C in H;
      apply (B_sees U f c l la x c' s s') in G; [| exact R]; seeing G
  | IH : K_manyB ?U ?f ?c ?l ?la ?xs ?c', G : B_many ?f ?c ?l ?la ?xs ?c', R : readx ?U ?s ?l ?s' |- _ =>
      let H := fresh "EACH" in
      pose proof (IH s s' R ltac:(viewing)) as H; clear IH G;
      pose proof (ev_above (S (S (S (length xs)))))
  end.
Ltac optionsB :=
  repeat match goal with
  | G : B_opt _ _ _ _ ?o _, H : K_optB _ _ _ _ _ ?o _ |- _ =>
      clear G; destruct o; cbn [K_optB] in H; [destruct H as (? & ?) | destruct H; subst]
  | G : E_opt _ _ _ ?o |- _ => inversion G; clear G; subst
  | G : opt_token _ _ _ |- _ => inversion G; clear G; subst
  | G : returns _ _ _ |- _ => inversion G; clear G; subst
  | G : bases _ _ _ _ |- _ => inversion G; clear G; subst
  | G : comment_line _ _ _ |- _ => inversion G; clear G; subst
  | H : None = None -> _ |- _ => specialize (H eq_refl)
  | H : Some _ = None -> _ |- _ => clear H
  end.
Ltac prepareB :=
  pick; optionsB;
  match goal with |- K_B _ _ _ _ _ _ _ => idtac end;
  let s := fresh "s" in let s' := fresh "s'" in let R := fresh "R" in let V := fresh "V" in
  intros s s' R V; set_view V; cbn [app] in *; rewrite ?app_nil_r in *; unread; starts; feedE; feedB; facts.
Ltac parseB := unfold C; apply ev_S; gather; cbn [run body]; open_fn; sim.
Ltac ruleB := prepareB; parseB.

Lemma B_complete_all : forall U,
  (forall f c l la x c', B f c l la x c' -> K_B U f c l la x c') /\
  (forall f c l la o c', B_opt f c l la o c' -> K_optB U f c l la o c') /\
  (forall f c l la xs c', B_many f c l la xs c' -> K_manyB U f c l la xs c').
Proof.
  intros U. apply B_mutual; intros.
  all: try (ruleB; fail).
  - (* stmt *)
    assert (Z : l <> []) by (apply E_first in H; destruct H as (? & ? & ? & -> & _); discriminate).
    prepareB. parseB. destruct (is T_AtomName x0) eqn:Q; [|sim].
    rewrite (no_match U s l s' x0); [sim|assumption..|apply is_true; exact Q].
  - (* try *)
    prepareB.
    all: unfold C; apply ev_S; gather;
      match goal with D : each _ _ ?xs _, Z : ?xs <> [] |- _ =>
        destruct (each_first _ _ _ _ _ D Z) as (? & ? & ? & ? & (? & ?) & ?); clear D Z; subst end;
      match goal with D : sees _ _ |- _ => seeing D end;
      cbn [length] in *; cbn [run body]; open_fn; sim.
  - (* except_clause *)
    match goal with G : except_what _ _ _ |- _ => inversion G; clear G; subst end;
    optionsB;
    match goal with G : except_step _ _ _ |- _ => inversion G; clear G; subst end; cbn [is_some];
    prepareB; parseB.
  - (* with_stmt *)
    match goal with G : with_items _ _ _ _ _ _ |- _ => inversion G; clear G; subst end.
    all: pick; intros s s' R V; set_view V; unread; feedB; facts.
    all: match goal with G : E_items ?fs ?k ?l ?la ?xs ?ts, R : readx ?U ?s ?l ?s' |- _ =>
        let V := fresh in let Z := fresh in
        assert (V : view s' = la) by viewing;
        destruct (proj1 (proj2 (proj2 (proj2 (proj2 (proj2 (E_complete_all U)))))) fs k l la xs ts G
          (flag c s) (flag c s') (flag_readx U c s l s' R) V) as (? & ? & is & ? & ? & ? & ? & Z & ? & ?); clear G; subst; pick;
        seeing Z; pose proof (ev_above (S (S (S (length is)))))
      end.
    { assert (N : ~ In (tk_kind x4) [PyLeftParen]).
      { intros [N | []]. destruct l1 as [|[p0 u0] l1].
        - apply readx_nil in H0. subst. assert (x4 = u) by (cbn in H4; congruence). congruence.
        - apply readx_cons in H0. destruct H0 as (_ & S & _). apply H5. exists p0, u0, l1.
          split; [reflexivity|]. cbn in H4. congruence. }
      parseB. }
    { parseB. }
    { parseB. }
  - (* suite *)
    prepareB. unfold C; apply ev_S; gather;
      match goal with D : each _ _ ?xs _, Z : ?xs <> [] |- _ =>
        destruct (each_first _ _ _ _ _ D Z) as (? & ? & ? & ? & (? & ?) & ?); clear D Z; subst end;
      match goal with D : sees _ _ |- _ => seeing D end;
      cbn [length] in *; cbn [run body]; open_fn; sim.
  - prepareB; unfold C; apply ev_S; gather;
      match goal with D : each _ _ ?xs _, Z : ?xs <> [] |- _ =>
        destruct (each_first _ _ _ _ _ D Z) as (? & ? & ? & ? & (? & ?) & ?); clear D Z; subst end;
      match goal with D : sees _ _ |- _ => seeing D end;
      cbn [length] in *; cbn [run body]; open_fn; sim.
  - split; reflexivity.
  - split; assumption.
  - intros s s' R V. apply readx_nil in R. subst. apply ev_always. intros n. constructor.
  - intros s s' R V. set_view V. unread.
    pose proof (B_sees U _ _ _ _ _ _ _ _ H ltac:(eassumption)) as Z. feedB; gather; econstructor;
      try eassumption; split; eassumption.
Qed.

Theorem B_complete : forall U f c l la x c', B f c l la x c' -> K_B U f c l la x c'.
Proof. intros U. apply (B_complete_all U). Qed.
