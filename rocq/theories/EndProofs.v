(** The end-of-file token is never consumed, and the look-ahead after an expression is a token. *)
From Coq Require Import List Arith Lia.
From Verif Require Import Chars SourceBuffer Token Tokenizer LexSpec HistoryProofs CallTheorem CallLemmas WellFormed Node NodeView
  ParserState Parser GrammarSpec ParseBasics SoundBasics Soundness FirstSets TermBasics.
Import ListNotations.
Local Open Scope nat_scope.

(** ** End of file *)
(** After an EOF token of the list comes a token that is not EOF. *)
Fixpoint quiet (l : list ptok) (la : look) : Prop :=
  match l with
  | (p, t) :: l' => (tk_kind t = T_EOF -> exists u, snd (ahead l' la) = Some u /\ tk_kind u <> T_EOF) /\ quiet l' la
  | [] => True
  end.
Lemma quiet_app : forall l1 l2 la, quiet l1 (ahead l2 la) -> quiet l2 la -> quiet (l1 ++ l2) la.
Proof.
  induction l1 as [|[p t] l1 IH]; intros l2 la H1 H2; cbn [app quiet] in *; auto.
  destruct H1 as (A & B). rewrite ahead_app. auto.
Qed.
Lemma quiet_cons : forall p t l la, tk_kind t <> T_EOF -> quiet l la -> quiet ((p, t) :: l) la.
Proof. intros. cbn [quiet]. split; [congruence|assumption]. Qed.

Lemma begins_next : forall ks l la, begins ks l -> ~ In T_EOF ks ->
  exists u, snd (ahead l la) = Some u /\ tk_kind u <> T_EOF.
Proof. intros ks l la (p & t & l' & -> & I) N. exists t. split; auto. congruence. Qed.

Ltac not_eof :=
  match goal with
  | K : tk_kind ?t = _ |- tk_kind ?t <> T_EOF => rewrite K; discriminate
  | K : In (tk_kind ?t) ?ks |- tk_kind ?t <> T_EOF =>
      let Z := fresh in intro Z; rewrite Z in K; cbn in K; intuition discriminate
  | K : In (tk_kind ?t, _) ?ks |- tk_kind ?t <> T_EOF =>
      let Z := fresh in intro Z; rewrite Z in K; cbn in K; intuition discriminate
  end.
Ltac calm :=
  repeat first
  [ assumption
  | exact I
  | apply quiet_cons; [not_eof|]
  | apply quiet_app
  | rewrite !ahead_app
  | progress cbn [ahead app] ].

Lemma quiet_names : forall k l ns ts la, k <> T_EOF -> E_names k l ns ts -> quiet l la.
Proof. intros k l ns ts la K H. induction H; subst; [exact I|]. specialize (IHE_names K). apply quiet_cons; [assumption|]. calm. Qed.
Lemma quiet_all : forall k l la, k <> T_EOF -> Forall (fun x => tk_kind (snd x) = k) l -> quiet l la.
Proof. intros k l la K H. induction H as [|[p t] l Q H IH]; cbn [quiet snd] in *; auto. split; [congruence|assumption]. Qed.
Lemma quiet_in : forall ks l la, ~ In T_EOF ks -> Forall (fun x => In (tk_kind (snd x)) ks) l -> quiet l la.
Proof. intros ks l la K H. induction H as [|[p t] l Q H IH]; cbn [quiet snd] in *; auto. split; [congruence|assumption]. Qed.

Lemma binary_ops : forall f g ops k c, binary f = Some (g, ops) -> In (k, c) ops -> k <> T_EOF.
Proof. intros f g ops k c B I Z. subst. destruct f; try discriminate; injection B as <- <-; cbn in I; intuition discriminate. Qed.

Ltac calm1 := repeat match goal with |- quiet (_ ++ _) _ => apply quiet_app | |- quiet ((_, _) :: _) _ => apply quiet_cons; [not_eof|] end.

Lemma E_quiet_all :
  (forall f l la x, E f l la x -> quiet l la) /\
  (forall f l la x, E_chain f l la x -> quiet l la) /\
  (forall f l la o, E_opt f l la o -> quiet l la) /\
  (forall f l la xs, E_many f l la xs -> quiet l la) /\
  (forall fs k l la xs ts, E_rest fs k l la xs ts -> k <> T_EOF -> quiet l la) /\
  (forall fs k l la xs ts, E_items fs k l la xs ts -> k <> T_EOF -> quiet l la) /\
  (forall d s l la x, E_entry d s l la x -> quiet l la) /\
  (forall s l la x, E_set_first s l la x -> quiet l la) /\
  (forall s l la xs ts, E_set_rest s l la xs ts -> quiet l la) /\
  (forall l la ns ts m w, E_stars l la ns ts m w -> quiet l la) /\
  (forall l la ns ts m w, E_type_stars l la ns ts m w -> quiet l la) /\
  (forall l la xs, E_assigns l la xs -> quiet l la) /\
  (forall l la a x b, E_import_list l la a x b -> quiet l la).
Proof.
  apply E_mutual; intros;
    repeat match goal with H : _ <> T_EOF -> quiet _ _ |- _ => specialize (H ltac:(discriminate)) end;
    try (calm; fail).
  - apply quiet_cons; [not_eof|]. eapply quiet_all; [|eassumption]. discriminate.
  - cbn [quiet]. split; [|calm]. intros _. rewrite ahead_app. apply E_opt_first in H. destruct o; cbn [P_opt first_ok] in H.
    + eapply begins_next; [exact H|]. cbn. intuition discriminate.
    + subst l1. cbn. exists u. split; auto. not_eof.
  - apply quiet_app; [assumption|]. apply quiet_cons; [not_eof|]. apply quiet_app; [assumption|].
    cbn [quiet]. split; [|assumption]. intros _.
    match goal with H : E_opt _ l3 _ _ |- _ => apply E_opt_first in H; destruct o3; cbn [P_opt first_ok] in H end.
    + eapply begins_next; [eassumption|]. cbn. intuition discriminate.
    + subst l3. cbn [ahead]. match goal with H : None = None -> before _ _ |- _ => destruct (H eq_refl) as (v & V & K) end. exists v. split; auto. not_eof.
  - apply quiet_cons; [not_eof|]. apply quiet_app; [|calm].
    eapply quiet_in; [|eassumption]. cbn. intuition discriminate.
  - apply quiet_cons; [not_eof|]. eapply quiet_names; [|eassumption]. discriminate.
  - apply quiet_cons; [not_eof|]. apply quiet_cons; [not_eof|]. eapply quiet_names; [|eassumption]. discriminate.
  - apply quiet_cons; [not_eof|]. apply quiet_cons; [not_eof|]. eapply quiet_names; [|eassumption]. discriminate.
  - apply quiet_app; [assumption|]. apply quiet_cons; [|assumption]. eapply binary_ops; eauto.
  - subst k. apply quiet_cons; [assumption|]. apply quiet_app; auto.
  - apply quiet_app; auto.
Qed.
Lemma E_quiet : forall f l la x, E f l la x -> quiet l la.
Proof. exact (proj1 E_quiet_all). Qed.
Lemma E_opt_quiet : forall f l la o, E_opt f l la o -> quiet l la.
Proof. exact (proj1 (proj2 (proj2 E_quiet_all))). Qed.
Lemma E_items_quiet : forall fs k l la xs ts, E_items fs k l la xs ts -> k <> T_EOF -> quiet l la.
Proof. exact (proj1 (proj2 (proj2 (proj2 (proj2 (proj2 E_quiet_all)))))). Qed.

Lemma B_quiet_all :
  (forall f c l la x c', B f c l la x c' -> quiet l la) /\
  (forall f c l la o c', B_opt f c l la o c' -> quiet l la) /\
  (forall f c l la xs c', B_many f c l la xs c' -> quiet l la).
Proof.
  apply B_mutual; intros;
    repeat match goal with
    | H : opt_token _ _ _ |- _ => inversion H; subst; clear H
    | H : returns _ _ _ |- _ => inversion H; subst; clear H
    | H : bases _ _ _ _ |- _ => inversion H; subst; clear H
    | H : comment_line _ _ _ |- _ => inversion H; subst; clear H
    | H : except_what _ _ _ |- _ => inversion H; subst; clear H
    | H : with_items _ _ _ _ _ _ |- _ => inversion H; subst; clear H
    | H : E_items _ _ _ _ _ _ |- _ => apply E_items_quiet in H; [|discriminate]
    | H : E_opt _ _ _ _ |- _ => apply E_opt_quiet in H
    | H : E _ _ _ _ |- _ => apply E_quiet in H
    end; try (calm; fail).
Qed.
Lemma B_quiet : forall f c l la x c', B f c l la x c' -> quiet l la.
Proof. exact (proj1 B_quiet_all). Qed.

Lemma lines_quiet : forall c l la xs ts c', lines c l la xs ts c' -> quiet l la.
Proof.
  induction 1; [exact I| |].
  - apply quiet_cons; [not_eof|assumption].
  - apply quiet_app; [|assumption]. eapply B_quiet; eauto.
Qed.
Lemma Input_quiet : forall f c l la x c', Input f c l la x c' -> quiet l la.
Proof.
  intros f c l la x c' H. inversion H; subst.
  - eapply lines_quiet; eauto.
  - apply quiet_app; [eapply E_quiet; eauto|]. eapply quiet_all; [|eassumption]. discriminate.
  - apply quiet_app; [eapply E_quiet; eauto|]. eapply quiet_all; [|eassumption]. discriminate.
  - apply quiet_cons; [not_eof|exact I].
  - eapply E_quiet; eauto.
  - eapply B_quiet; eauto.
Qed.

Section Reading.
Variables (U : unicode) (text : str).


(** The events of the tokenizer up to the token the parser looks at. *)
Definition seen (evs : list (token + err)) (s : parser) : Prop := history U text (evs ++ [ps_symbol s]) (ps_lexer s).

Lemma advance_history : forall evs s s1, history U text evs (ps_lexer s) -> advance U s = Ok tt s1 -> seen evs s1.
Proof.
  intros evs s s1 H A. unfold advance in A. unfold seen.
  destruct (get_symbol U (ps_lexer s)) as [t l|e l|] eqn:G; inversion A; subst; cbn [ps_symbol ps_lexer].
  - eapply H_ok; eauto.
  - eapply H_err; eauto.
Qed.

Lemma reads_history : forall s l s', reads U s l s' -> forall evs, seen evs s -> seen (evs ++ map inl (map snd l)) s'.
Proof.
  induction 1 as [s s' A1 A2|s t s1 l s' S A R IH]; intros evs H.
  - cbn [map]. rewrite app_nil_r. unfold seen in *. congruence.
  - cbn [map snd]. assert (H1 : seen (evs ++ [inl t]) s1).
    { eapply advance_history; [|exact A]. unfold seen in H. rewrite S in H. exact H. }
    apply IH in H1. rewrite <- app_assoc in H1. exact H1.
Qed.

Lemma reads_ahead : forall s l s', reads U s l s' -> ahead l (view s') = view s.
Proof.
  intros s l s' R. inversion R as [s1 s2 A1 A2|s1 t s2 l' s3 S A R']; subst.
  - unfold view, pos. cbn [ahead]. rewrite A1, A2. reflexivity.
  - cbn [ahead]. unfold view. rewrite S. reflexivity.
Qed.

Lemma seen_eof : forall evs s t s1, seen evs s -> ps_symbol s = inl t -> tk_kind t = T_EOF -> advance U s = Ok tt s1 ->
  exists u, ps_symbol s1 = inl u /\ tk_kind u = T_EOF.
Proof.
  intros evs s t s1 H S K A. unfold seen in H. rewrite S in H.
  inversion H as [Z|evs0 l0 t0 l1 H0 G0 Z|evs0 l0 e0 l1 H0 G0 Z]; subst.
  - destruct evs; discriminate.
  - apply app_inj_tail in Z. destruct Z as (-> & Z). injection Z as ->.
    destruct (eof_absorbs _ _ _ _ _ _ H0 G0 K) as (_ & G1).
    unfold advance in A. rewrite G1 in A. inversion A; subst. cbn [ps_symbol]. eexists. split; [reflexivity|reflexivity].
  - apply app_inj_tail in Z. destruct Z as (_ & Z). discriminate.
Qed.

Lemma reads_no_eof : forall s l s', reads U s l s' -> forall evs, seen evs s -> quiet l (view s') ->
  Forall (fun t => tk_kind t <> T_EOF) (map snd l).
Proof.
  induction 1 as [s s' A1 A2|s t s1 l s' S A R IH]; intros evs H Q; constructor.
  - intros K. destruct Q as (Q & _). destruct (Q K) as (u & V & N).
    destruct (seen_eof _ _ _ _ H S K A) as (u' & S1 & K1).
    apply reads_ahead in R. cbn [map fst snd] in V. rewrite R in V. unfold view in V. rewrite S1 in V. cbn in V. congruence.
  - eapply IH; [|apply Q]. eapply advance_history; [|exact A]. unfold seen in H. rewrite S in H. exact H.
Qed.
End Reading.

(** ** The look-ahead of expressions *)
(** Functions that look at the token after their phrase. *)
Definition looks (f : fn) : bool :=
  match f with
  | F_power | F_factor | F_term | F_arith | F_shift | F_and_expr | F_xor_expr | F_expr | F_comparison
  | F_not_test | F_and_test | F_or_test | F_star_expr | F_lambda_def _ | F_no_cond_test | F_test
  | F_named_expression | F_testlist_comp | F_subscript_list | F_subscript | F_exprlist | F_testlist
  | F_dictorset_maker | F_arglist | F_argument | F_comp_iter | F_sync_comp_for | F_comp_for | F_comp_if
  | F_yield_expr | F_testlist_star_expr | F_del_stmt | F_return_stmt | F_raise_stmt | F_yield_stmt
  | F_ann_assign _ _ | F_dotted_name | F_global_stmt | F_nonlocal_stmt | F_assert_stmt
  | F_decorator | F_decorators | F_tfp_def | F_tfp_def_assign | F_func_type | F_with_item => true
  | _ => false
  end.
Definition visible (la : look) : Prop := exists t, snd la = Some t.
Lemma stops_visible : forall ks la, stops ks la -> visible la.
Proof. intros ks la (t & H & _). exists t. assumption. Qed.
Lemma before_visible : forall ks la, before ks la -> visible la.
Proof. intros ks la (t & H & _). exists t. assumption. Qed.

Lemma E_looks_all :
  (forall f l la x, E f l la x -> looks f = true -> visible la) /\
  (forall f l la x, E_chain f l la x -> True) /\
  (forall f l la o, E_opt f l la o -> looks f = true -> o <> None -> visible la) /\
  (forall f l la xs, E_many f l la xs -> True) /\
  (forall fs k l la xs ts, E_rest fs k l la xs ts -> True) /\
  (forall fs k l la xs ts, E_items fs k l la xs ts -> True) /\
  (forall d s l la x, E_entry d s l la x -> visible la) /\
  (forall s l la x, E_set_first s l la x -> visible la) /\
  (forall s l la xs ts, E_set_rest s l la xs ts -> True) /\
  (forall l la ns ts m w, E_stars l la ns ts m w -> True) /\
  (forall l la ns ts m w, E_type_stars l la ns ts m w -> True) /\
  (forall l la xs, E_assigns l la xs -> True) /\
  (forall l la a x b, E_import_list l la a x b -> True).
Proof.
  apply E_mutual; intros; try exact I;
    try (match goal with H : looks _ = true |- _ => discriminate H end);
    try (eapply stops_visible; eassumption); try (eapply before_visible; eassumption);
    try (match goal with H : looks _ = true -> visible ?la |- visible ?la => exact (H eq_refl) end);
    try assumption;
    try (eexists; reflexivity);
    try (match goal with H : In ?f _, K : looks ?f = true -> visible ?la |- visible ?la =>
           apply K; cbn in H; intuition (subst; reflexivity) end);
    try (match goal with o : option node |- _ => destruct o;
           [ match goal with H : looks _ = true -> _ <> None -> visible ?la |- _ => apply H; [reflexivity|discriminate] end
           | match goal with H : None = None -> _ |- _ => specialize (H eq_refl); first [eapply stops_visible; eassumption | eapply before_visible; eassumption] end ] end).
  - destruct cond; auto.
  - congruence.
  - auto.
Qed.
Lemma E_looks : forall f l la x, E f l la x -> looks f = true -> visible la.
Proof. exact (proj1 E_looks_all). Qed.
