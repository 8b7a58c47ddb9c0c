(** Expressions as texts: C35. *)
From Coq Require Import List Arith Lia.
From Verif Require Import Chars SourceBuffer Token Tokenizer LexSpec TokenSpec RenderSpec HistoryProofs RoundTrip.
From Verif Require Import Node ParserState Parser GrammarSpec ParseBasics ParseSpec SoundBasics Soundness CompleteBasics Completeness YieldProofs NodeView TreeSpec SpanProofs ParseCorollaries SchemaSpec SchemaProofs ExprSpec ExprProofs ExprBack.
Import ListNotations.
Local Open Scope nat_scope.

(** ** Tokens of a text, read by the parser *)
Definition look_of (t : token) : kind * payload := (tk_kind t, tk_payload t).
Lemma seen_reads : forall U ts s t l', ps_symbol s = inl t -> seen_calls U (ps_lexer s) ts l' ->
  exists l s' u, reads U s l s' /\ ps_symbol s' = inl u /\ ps_except s' = ps_except s /\ map look_of (map snd l ++ [u]) = look_of t :: ts.
Proof.
  intros U ts. induction ts as [|k ts IH]; intros s t l' S H; inversion H; subst.
  - exists [], s, t. repeat split; auto. apply reads_refl.
  - match goal with G : get_symbol U _ = LOk ?a ?b, SC : seen_calls U ?b ts l' |- _ => rename a into u, b into l1, G into GS, SC into SS end.
    destruct (IH (mk_parser l1 (inl u) (ps_except s)) u l' eq_refl SS) as (l & s' & v & R & SV & X & M).
    exists ((pos s, t) :: l), s', v. split; [|split; [assumption|split; [assumption|cbn in M |- *; rewrite M; reflexivity]]].
    econstructor; [exact S| |exact R]. unfold advance. rewrite GS. reflexivity.
Qed.

(** ** Brackets of an expression *)
Definition opens_nothing (k : kind) : Prop := closer_of k = None /\ is_closer k = false.
Lemma nest_pass : forall k r st, opens_nothing k -> nest (k :: r) st = nest r st.
Proof. intros k r st (A & B). cbn. rewrite A, B. reflexivity. Qed.
Definition neutral (l : list (kind * payload)) : Prop := forall r st, nest (map fst l ++ r) st = nest r st.
Lemma neutral_app : forall a b, neutral a -> neutral b -> neutral (a ++ b).
Proof. intros a b A B r st. rewrite map_app, <- app_assoc. rewrite A. apply B. Qed.
Lemma neutral_mark : forall k p l, opens_nothing k -> neutral l -> neutral ((k, p) :: l).
Proof. intros k p l N H r st. cbn [map fst app]. rewrite nest_pass by assumption. apply H. Qed.
Lemma neutral_nil : neutral [].
Proof. intros r st. reflexivity. Qed.
Lemma neutral_pair : forall o c l, closer_of o = Some c -> is_closer c = true -> closer_of c = None -> neutral l ->
  neutral (mark o :: l ++ [mark c]).
Proof.
  intros o c l O C N H r st. cbn [map fst app mark]. rewrite map_app, <- app_assoc. cbn [nest]. rewrite O. rewrite H.
  cbn [map fst mark app nest]. rewrite N, C, (proj2 (kind_eqb_eq c c) eq_refl). reflexivity.
Qed.
Lemma neutral_between : forall ls, Forall neutral ls -> neutral (between (mark PyComa) ls).
Proof.
  intros [|l ls] H; [apply neutral_nil|]. inversion H as [|? ? A B]; subst. cbn [between]. apply neutral_app; [assumption|].
  clear H A. induction B as [|m ms M B IH]; [apply neutral_nil|]. cbn [flat_map]. apply (neutral_app (mark PyComa :: m)); [|assumption].
  apply neutral_mark; [split; reflexivity|assumption].
Qed.
Lemma neutral_comma : forall c, neutral (comma_if c).
Proof. intros [|]; [apply neutral_mark; [split; reflexivity|]|]; apply neutral_nil. Qed.
Lemma neutral_all : forall es, Forall neutral (map flatten es) -> neutral (flat_map flatten es).
Proof. induction es as [|e es IH]; intros H; [apply neutral_nil|]. inversion H; subst. cbn [flat_map]. apply neutral_app; auto. Qed.
Lemma flatten_neutral : forall e, proper e -> neutral (flatten e).
Proof.
  assert (LS : forall k es, Forall (fun e => proper e -> neutral (flatten e)) es -> Forall (operand k) es -> Forall neutral (map flatten es)).
  { intros k es H P. induction H as [|e es A H IH]; inversion P as [|? ? (P1 & P2) P3]; subst; cbn; constructor; auto. }
  assert (OP : forall k, (exists n, infix_level k = Some n) \/ is_unary k -> opens_nothing k).
  { intros k [(n & H)|H]; [destruct k; try discriminate H; split; reflexivity|]. cbn in H. intuition (subst; split; reflexivity). }
  apply (ast_induction (fun e => proper e -> neutral (flatten e))).
  - intros k p (I & _). cbn [flatten]. apply neutral_mark; [|apply neutral_nil]. cbn in I. intuition (subst; split; reflexivity).
  - intros p ps _. cbn [flatten]. generalize (p :: ps). intros l. induction l as [|a l IH]; [apply neutral_nil|].
    cbn [map]. apply neutral_mark; [split; reflexivity|assumption].
  - intros e IH (_ & P). cbn [flatten]. apply neutral_pair; try reflexivity. exact (IH P).
  - intros es IH (N & _ & P). rewrite all_operands in P. cbn [flatten]. apply neutral_pair; try reflexivity. eapply neutral_between, LS; eauto.
  - intros es IH (_ & P). rewrite all_operands in P. cbn [flatten]. apply neutral_pair; try reflexivity. eapply neutral_between, LS; eauto.
  - intros e n IH (P & _). cbn [flatten]. apply neutral_app; [exact (IH P)|]. do 2 (apply neutral_mark; [split; reflexivity|]). apply neutral_nil.
  - intros e es IH IHS ((P & _) & PS). rewrite all_operands in PS. cbn [flatten]. apply neutral_app; [exact (IH P)|].
    apply neutral_pair; try reflexivity. eapply neutral_between, LS; eauto.
  - intros e es IH IHS ((P & _) & _ & PS). rewrite all_operands in PS. cbn [flatten]. apply neutral_app; [exact (IH P)|].
    apply neutral_pair; try reflexivity. eapply neutral_between, LS; eauto.
  - intros e IH (P & _). cbn [flatten]. apply neutral_mark; [split; reflexivity|exact (IH P)].
  - intros a b IHa IHb ((PA & _) & (PB & _)). cbn [flatten]. apply neutral_app; [exact (IHa PA)|]. apply neutral_mark; [split; reflexivity|exact (IHb PB)].
  - intros k e IH (K & P & _). cbn [flatten]. apply neutral_mark; [apply OP; auto|exact (IH P)].
  - intros k a b IHa IHb P. cbn [proper] in P. destruct (infix_level k) as [n|] eqn:N; [|destruct P]. destruct P as ((PA & _) & (PB & _)).
    cbn [flatten]. apply neutral_app; [exact (IHa PA)|]. apply neutral_mark; [apply OP; eauto|exact (IHb PB)].
  - intros a b IHa IHb ((PA & _) & (PB & _)). cbn [flatten]. apply neutral_app; [exact (IHa PA)|]. do 2 (apply neutral_mark; [split; reflexivity|]). exact (IHb PB).
  - intros a b IHa IHb ((PA & _) & (PB & _)). cbn [flatten]. apply neutral_app; [exact (IHa PA)|]. do 2 (apply neutral_mark; [split; reflexivity|]). exact (IHb PB).
  - intros e IH (P & _). cbn [flatten]. apply neutral_mark; [split; reflexivity|exact (IH P)].
  - intros a c b IHa IHc IHb ((PA & _) & (PC & _) & (PB & _)). cbn [flatten]. apply neutral_app; [exact (IHa PA)|].
    apply neutral_mark; [split; reflexivity|]. apply neutral_app; [exact (IHc PC)|]. apply neutral_mark; [split; reflexivity|exact (IHb PB)].
  - intros a b IHa IHb ((PA & _) & (PB & _)). cbn [flatten]. apply neutral_app; [exact (IHa PA)|]. apply neutral_mark; [split; reflexivity|exact (IHb PB)].
  - intros c es IH (_ & _ & P). rewrite all_operands in P. cbn [flatten]. apply neutral_pair; try reflexivity. apply neutral_app; [eapply neutral_between, LS; eauto|apply neutral_comma].
  - intros c es IH (_ & _ & P). rewrite all_operands in P. cbn [flatten]. apply neutral_pair; try reflexivity. apply neutral_app; [eapply neutral_between, LS; eauto|apply neutral_comma].
  - intros ps e IHS IH (_ & PS & P & _). rewrite all_operands in PS. cbn [flatten]. apply neutral_mark; [split; reflexivity|].
    apply neutral_app; [eapply neutral_between, LS; eauto|]. apply neutral_mark; [split; reflexivity|exact (IH P)].
  - intros e IH (P & _). cbn [flatten]. apply neutral_mark; [split; reflexivity|exact (IH P)].
  - intros e IH (P & _). cbn [flatten]. apply neutral_mark; [split; reflexivity|exact (IH P)].
  - intros a b IHa IHb ((PA & _) & (PB & _)). cbn [flatten]. apply neutral_app; [exact (IHa PA)|]. apply neutral_mark; [split; reflexivity|exact (IHb PB)].
  - intros n e IH (P & _). cbn [flatten]. do 2 (apply neutral_mark; [split; reflexivity|]). exact (IH P).
  - intros q e cs IH IHS ((_ & P) & _ & _ & PS). rewrite all_operands in PS. cbn [flatten]. apply neutral_pair; try (destruct q; reflexivity).
    apply neutral_app; [exact (IH P)|]. eapply neutral_all, LS; eauto.
  - intros es IH (_ & _ & P). rewrite all_operands in P. cbn [flatten]. apply neutral_pair; try reflexivity. apply neutral_mark; [split; reflexivity|]. eapply neutral_between, LS; eauto.
  - intros e IH (P & _). cbn [flatten]. apply neutral_pair; try reflexivity. do 2 (apply neutral_mark; [split; reflexivity|]). exact (IH P).
  - intros w ts c e IHS IH (_ & _ & PS & _ & P & _). rewrite all_operands in PS. cbn [flatten].
    apply neutral_app; [destruct w; [apply neutral_mark; [split; reflexivity|]|]; apply neutral_nil|]. apply neutral_mark; [split; reflexivity|].
    apply neutral_app; [apply neutral_app; [eapply neutral_between, LS; eauto|apply neutral_comma]|]. apply neutral_mark; [split; reflexivity|exact (IH P)].
  - intros e IH (P & _). cbn [flatten]. apply neutral_mark; [split; reflexivity|exact (IH P)].
Qed.

(** ** A phrase among other tokens *)
Definition closes (s : parser) : Prop :=
  exists t, ps_symbol s = inl t /\ In (tk_kind t) [PyRightParen; PyRightBracket; PyComa; PyElse; T_Newline; T_EOF; PyColon; PyRightCurly].
Lemma closes_quiet : forall s k, closes s -> quiet k (view s).
Proof.
  intros s k (t & S & I). unfold view. rewrite S. apply ends_quiet. cbn in I. intuition (subst; match goal with H : _ = _ |- _ => rewrite <- H end; reflexivity).
Qed.
Theorem phrase_read : forall U s l s' e, proper e -> 1 <= level e -> reads U s l s' -> ps_except s' = ps_except s -> closes s' ->
  map (fun x => face (snd x)) l = flatten e -> exists x, parsed U F_test s x s' /\ tree_of x = Some e.
Proof.
  intros U s l s' e P L R X C F. destruct (proj1 (proj2 (proper_derived e P L)) 1 l (view s') L ltac:(lia) F (closes_quiet _ _ C)) as (x & D & T).
  exists x. split; [|exact T]. destruct (run_complete U F_test s x s') as (k & Z); [exists l; repeat split; auto|]. exists k. apply Z. lia.
Qed.

(** ** A whole text *)
Lemma plain_face : forall U w k p, plain U w k p -> forall t, look_of t = (k, p) -> face t = (k, p).
Proof.
  intros U w k p H t E. injection E as K Q. unfold face. rewrite K, Q. destruct H as [w k I|c k I|w k I| | | | |]; try reflexivity;
    destruct (carries k); reflexivity.
Qed.
Lemma items_faces : forall U xs l, Forall (item_ok U) xs -> map look_of l = map item_seen xs -> map face l = map item_seen xs.
Proof.
  intros U xs. induction xs as [|x xs IH]; intros [|t l] F M; try discriminate M; [reflexivity|]. inversion F as [|? ? F1 F2]; subst.
  cbn [map] in *. injection M as E1 E2 M. f_equal; [|auto]. eapply plain_face; [exact F1|]. unfold look_of. congruence.
Qed.
(** A text of one line that writes the expression: its tokens with any blanks between them. *)
Definition writes (U : unicode) (x : line) (e : ast) : Prop :=
  ln_indent x = [] /\ Forall (item_ok U) (ln_items x) /\ Forall (fun i => gap (it_gap i)) (ln_more x) /\
  map item_seen (ln_items x) = flatten e.
Lemma writes_line : forall U x e, proper e -> writes U x e -> line_ok U x 0 /\ map item_seen (ln_items x) = flatten e.
Proof.
  intros U x e P (I & F & G & M). split; [|exact M]. split; [rewrite I; constructor|]. split; [exact F|]. split; [exact G|].
  replace (map it_kind (ln_items x)) with (map fst (map item_seen (ln_items x)) ++ []) by (rewrite app_nil_r, map_map; reflexivity).
  rewrite M. rewrite flatten_neutral by exact P. reflexivity.
Qed.
(** What the parser reads of such a text. *)
Lemma line_reads : forall U x, line_ok U x 0 -> exists s1 l q n s' u,
  advance U (fresh (text_of [x])) = Ok tt s1 /\ reads U s1 (l ++ [(q, n)]) s' /\ map face (map snd l) = map item_seen (ln_items x) /\
  tk_kind n = T_Newline /\ ps_symbol s' = inl u /\ tk_kind u = T_EOF /\ ps_except s' = ps_except s1.
Proof.
  intros U x LO. assert (PR : program U [0] [x] (map item_seen (ln_items x) ++ [(T_Newline, Break LF SP); (T_EOF, NoPayload)])).
  { replace (_ ++ _) with (line_seen x ++ repeat (T_Dedent, NoPayload) (length [0] - 1) ++ [(T_EOF, NoPayload)]).
    2:{ unfold line_seen. rewrite <- app_assoc. reflexivity. }
    apply PR_same; [exact LO|apply PR_end]. }
  destruct (program_calls U (text_of [x]) _ _ _ PR [] (lexer_new (text_of [x]))) as (l' & SC); auto; [constructor|].
  destruct LO as (CO & FI & G & NE). unfold ln_items in SC. cbn [map app] in SC. inversion SC; subst.
  match goal with G : get_symbol U _ = LOk ?a ?b |- _ => rename a into t0, b into l1, G into GS end.
  set (s0 := fresh (text_of [x])). set (s1 := mk_parser l1 (inl t0) ExceptNone).
  assert (A : advance U s0 = Ok tt s1) by (unfold advance, s0; cbn [ps_lexer fresh parser_new]; rewrite GS; reflexivity).
  match goal with S : seen_calls U l1 _ l' |- _ => destruct (seen_reads U _ s1 t0 l' eq_refl S) as (l & s' & u & R & SU & X & ML) end.
  rewrite map_app in ML. unfold look_of at 3 in ML.
  replace (_ :: _ ++ [_; _]) with ((map item_seen (ln_items x) ++ [(T_Newline, Break LF SP)]) ++ [(T_EOF, NoPayload)]) in ML.
  2:{ unfold ln_items. cbn [map]. rewrite <- app_assoc. cbn [app]. unfold item_seen at 1. congruence. }
  apply app_inj_tail in ML. destruct ML as (ML & EU).
  rewrite map_map in ML. apply map_eq_app in ML. destruct ML as (la & lb & -> & MA & MB).
  destruct lb as [|(q & n) [|]]; try discriminate MB. injection MB as KN _. injection EU as KU _.
  exists s1, la, q, n, s', u. split; [exact A|]. split; [exact R|]. split; [|auto].
  apply (items_faces U); [exact FI|]. rewrite map_map. exact MA.
Qed.
Lemma line_text_read : forall U x e, proper e -> 1 <= level e -> line_ok U x 0 -> map item_seen (ln_items x) = flatten e ->
  exists a b y n t s', parsed U F_eval_input (fresh (text_of [x])) (EvalInput a b y [n] t) s' /\ tree_of y = Some e.
Proof.
  intros U x e P L LO M. destruct (line_reads U x LO) as (s1 & la & q & n & s' & u & A & R & FA & KN & SU & KU & X).
  rewrite M, map_map in FA.
  destruct (proj1 (proj2 (proper_derived e P L)) 1 la (q, Some n) L ltac:(lia) FA) as (y & D & T).
  { apply ends_quiet. rewrite KN. reflexivity. }
  assert (V : view s' = (pos s', Some u)) by (unfold view; rewrite SU; reflexivity).
  assert (SO : sound U F_eval_input (fresh (text_of [x])) (EvalInput (start la (q, Some n)) (pos s') y [n] u) s').
  { exists s1, (la ++ [(q, n)]). split; [exact A|]. split; [exact R|]. rewrite V. rewrite X.
    apply (I_eval _ la y [(q, n)]); [|constructor; [exact KN|constructor]|exact KU]. apply E_testlist_one; [exact D|].
    exists n. split; [reflexivity|]. rewrite KN. intros [Z|[]]. discriminate Z. }
  destruct (run_complete U _ _ _ _ SO) as (k & Z). exists (start la (q, Some n)), (pos s'), y, n, u, s'. split; [exists k; apply Z; lia|exact T].
Qed.
Theorem text_read : forall U x e, proper e -> 1 <= level e -> writes U x e ->
  exists a b y n t s', parsed U F_eval_input (fresh (text_of [x])) (EvalInput a b y [n] t) s' /\ tree_of y = Some e.
Proof. intros U x e P L W. destruct (writes_line U x e P W) as (LO & M). apply line_text_read; assumption. Qed.

(** ** Parentheses for any tree *)
Lemma wrap_level : forall k e, k <= 16 -> k <= level (wrap k e).
Proof. intros k e L. unfold wrap. destruct (k <=? level e) eqn:B; [apply Nat.leb_le in B; exact B|cbn; lia]. Qed.
Lemma wrap_proper : forall k e, stands e = true -> proper e -> proper (wrap k e).
Proof. intros k e S P. unfold wrap. destruct (k <=? level e); [exact P|split; assumption]. Qed.
Lemma wrap_bare : forall k e, bare (wrap k e) = bare e.
Proof. intros k e. unfold wrap. destruct (k <=? level e); reflexivity. Qed.
Lemma wrapped : forall k e, k <= 16 -> stands e = true -> proper e -> proper (wrap k e) /\ k <= level (wrap k e).
Proof. intros k e L S P. split; [apply wrap_proper; assumption|apply wrap_level, L]. Qed.
(** Every part of a tree keeps its place. *)
Lemma canon_stands : forall e, stands (canon e) = stands e.
Proof. intros e. destruct e; reflexivity. Qed.
Lemma canon_in_display : forall e, in_display (canon e) = in_display e.
Proof. intros e. destruct e; reflexivity. Qed.
Lemma canon_in_dictionary : forall e, in_dictionary (canon e) = in_dictionary e.
Proof. intros e. destruct e; reflexivity. Qed.
Lemma canon_in_lambda : forall e, in_lambda (canon e) = in_lambda e.
Proof. intros e. destruct e; reflexivity. Qed.
Lemma forallb_through : forall (p : ast -> bool) f es, (forall e, p (f e) = p e) -> forallb p (map f es) = forallb p es.
Proof. intros p f es H. induction es as [|e es IH]; [reflexivity|]. cbn. rewrite H, IH. reflexivity. Qed.
Lemma set_wrapped : forall e, in_display e = true -> proper e -> proper (wrap_in_set e) /\ in_set (wrap_in_set e) = true.
Proof.
  intros e D P. unfold wrap_in_set. destruct (in_set e) eqn:I; [split; assumption|]. split; [|reflexivity].
  split; [|exact P]. destruct e; try exact D; discriminate I.
Qed.
Lemma wrap_in_set_bare : forall e, bare (wrap_in_set e) = bare e.
Proof. intros e. unfold wrap_in_set. destruct (in_set e); reflexivity. Qed.
Lemma canon_in_comprehension : forall e, in_comprehension (canon e) = in_comprehension e.
Proof. intros e. destruct e; reflexivity. Qed.
Lemma canon_runs_over : forall cs, runs_over (map canon cs) = runs_over cs.
Proof. intros [|e cs]; [reflexivity|]. destruct e; reflexivity. Qed.
Lemma canon_closed : forall c ts, closed_targets c (map canon ts) = closed_targets c ts.
Proof. intros c ts. unfold closed_targets. rewrite <- map_rev. destruct (rev ts) as [|e es]; [reflexivity|]. destruct e; reflexivity. Qed.
Lemma cond_wrapped : forall e, stands e = true -> proper e -> proper (wrap_cond e) /\ no_cond (wrap_cond e) = true.
Proof. intros e S P. unfold wrap_cond. destruct (no_cond e) eqn:N; [split; assumption|]. split; [split; assumption|reflexivity]. Qed.
Lemma wrap_cond_bare : forall e, bare (wrap_cond e) = bare e.
Proof. intros e. unfold wrap_cond. destruct (no_cond e); reflexivity. Qed.
Lemma map_not_nil : forall A B (f : A -> B) l, l <> [] -> map f l <> [].
Proof. intros A B f [|a l] H; [congruence|discriminate]. Qed.
Theorem canon_proper : forall e, made e -> proper (canon e).
Proof.
  assert (L0 : forall es, Forall (fun e => made e -> proper (canon e)) es -> Forall made es -> Forall (operand 0) (map canon es)).
  { intros es H P. induction H as [|e es A H IH]; inversion P; subst; cbn [map]; constructor; auto. split; [auto|lia]. }
  assert (L1 : forall es, Forall (fun e => made e -> proper (canon e)) es -> Forall made es -> forallb stands es = true ->
    Forall (operand 1) (map (fun d => wrap 1 (canon d)) es)).
  { intros es H P. induction H as [|e es A H IH]; inversion P; subst; cbn [map forallb]; intros S; constructor; apply Bool.andb_true_iff in S as (S1 & S2); auto.
    apply wrapped; [lia|rewrite canon_stands; exact S1|auto]. }
  assert (W : forall k e, k <= 16 -> (made e -> proper (canon e)) -> stands e = true /\ made e -> proper (wrap k (canon e)) /\ k <= level (wrap k (canon e))).
  { intros k e L IH (S & M). apply wrapped; [exact L|rewrite canon_stands; exact S|auto]. }
  assert (LV : forall k n, infix_level k = Some n -> S n <= 16) by (intros k n H; destruct k; try discriminate H; injection H as <-; lia).
  assert (LW : forall es, Forall (fun e => made e -> proper (canon e)) es -> forallb in_display es = true -> Forall made es ->
    forallb in_set (map (fun d => wrap_in_set (canon d)) es) = true /\ Forall (operand 0) (map (fun d => wrap_in_set (canon d)) es)).
  { intros es IH D V. induction IH as [|e es A H IH]; inversion V; subst; cbn [map forallb] in *; [auto|]. apply Bool.andb_true_iff in D as (D1 & D2).
    destruct (IH D2 ltac:(assumption)) as (I1 & I2). destruct (set_wrapped (canon e)) as (P & S); [rewrite canon_in_display; exact D1|auto|]. rewrite S, I1.
    split; [reflexivity|]. constructor; [split; [exact P|lia]|exact I2]. }
  apply (ast_induction (fun e => made e -> proper (canon e))); cbn [canon].
  - auto.
  - auto.
  - intros e IH (S & M). cbn [proper]. rewrite canon_stands. auto.
  - intros es IH (N & D & V). rewrite all_made in V. cbn [proper]. rewrite all_operands, map_length, (forallb_through _ _ _ canon_in_display). auto.
  - intros es IH (D & V). rewrite all_made in V. cbn [proper]. rewrite all_operands, (forallb_through _ _ _ canon_in_display). auto.
  - intros e n IH V. cbn [proper]. apply W; [lia|auto|exact V].
  - intros e es IH IHS (V & SS & VS). rewrite all_made in VS. cbn [proper]. rewrite all_operands. split; [apply W; [lia|auto|exact V]|apply L1; assumption].
  - intros e es IH IHS (V & N & SS & VS). rewrite all_made in VS. cbn [proper]. rewrite all_operands. split; [apply W; [lia|auto|exact V]|].
    split; [|apply L1; assumption]. intros Z. apply map_eq_nil in Z. auto.
  - intros e IH V. cbn [proper]. apply W; [lia|auto|exact V].
  - intros a b IHa IHb (VA & VB). cbn [proper]. split; apply W; auto; lia.
  - intros k e IH (K & V). cbn [proper]. split; [exact K|]. apply W; auto; lia.
  - intros k a b IHa IHb (K & VA & VB). cbn [proper level]. destruct (infix_level k) as [n|] eqn:N; [|congruence].
    specialize (LV k n N). split; apply W; auto; lia.
  - intros a b IHa IHb (VA & VB). cbn [proper]. split; apply W; auto; lia.
  - intros a b IHa IHb (VA & VB). cbn [proper]. split; apply W; auto; lia.
  - intros e IH V. cbn [proper]. apply W; auto; lia.
  - intros a c b IHa IHc IHb (VA & VC & VB). cbn [proper]. split; [|split]; apply W; auto; lia.
  - intros a b IHa IHb (VA & VB). cbn [proper]. split; apply W; auto; lia.
  - intros c es IH (N & D & V). rewrite all_made in V. cbn [proper]. rewrite all_operands. split; [apply map_not_nil, N|]. apply LW; assumption.
  - intros c es IH (N & D & V). rewrite all_made in V. cbn [proper]. rewrite all_operands, map_length, (forallb_through _ _ _ canon_in_dictionary). auto.
  - intros ps e IHS IH (D & VS & V). rewrite all_made in VS. cbn [proper]. rewrite all_operands, (forallb_through _ _ _ canon_in_lambda).
    split; [exact D|]. split; [auto|]. apply W; auto; lia.
  - intros e IH V. cbn [proper]. apply W; auto; lia.
  - intros e IH V. cbn [proper]. apply W; auto; lia.
  - intros a b IHa IHb (VA & VB). cbn [proper]. split; apply W; auto; lia.
  - intros n e IH V. cbn [proper]. apply W; auto; lia.
  - intros q e cs IH IHS ((S & M) & RO & IC & V). rewrite all_made in V. cbn [proper]. rewrite all_operands, (forallb_through _ _ _ canon_in_comprehension), canon_runs_over, canon_stands. auto.
  - intros es IH (N & D & V). rewrite all_made in V. cbn [proper]. rewrite all_operands. split; [apply map_not_nil, N|]. apply LW; assumption.
  - intros e IH V. cbn [proper]. apply W; auto; lia.
  - intros w ts c e IHS IH (N & D & VS & CT & V). rewrite all_made in VS. cbn [proper]. rewrite all_operands, (forallb_through _ _ _ canon_in_display), canon_closed.
    split; [apply map_not_nil, N|]. split; [exact D|]. split; [auto|]. split; [exact CT|]. apply W; auto; lia.
  - intros e IH (S & M). cbn [proper]. apply cond_wrapped; [rewrite canon_stands; exact S|auto].
Qed.
Theorem canon_bare : forall e, bare (canon e) = bare e.
Proof.
  assert (LS : forall f es, (forall e, bare (f e) = bare e) -> Forall (fun e => bare (canon e) = bare e) es ->
    map bare (map (fun d => f (canon d)) es) = map bare es).
  { intros f es FF H. induction H as [|e es A H IH]; cbn; [reflexivity|]. rewrite FF, A, IH. reflexivity. }
  apply (ast_induction (fun e => bare (canon e) = bare e)); intros; cbn [canon bare]; rewrite ?wrap_bare, ?wrap_cond_bare; try congruence.
  - f_equal. apply (LS (fun e => e)); auto.
  - f_equal. apply (LS (fun e => e)); auto.
  - f_equal; [assumption|]. apply (LS (wrap 1)); [apply wrap_bare|assumption].
  - f_equal; [assumption|]. apply (LS (wrap 1)); [apply wrap_bare|assumption].
  - f_equal. apply (LS wrap_in_set); [apply wrap_in_set_bare|assumption].
  - f_equal. apply (LS (fun e => e)); auto.
  - f_equal; [|assumption]. apply (LS (fun e => e)); auto.
  - f_equal; [assumption|]. apply (LS (fun e => e)); auto.
  - f_equal. apply (LS wrap_in_set); [apply wrap_in_set_bare|assumption].
  - f_equal; [|assumption]. apply (LS (fun e => e)); auto.
Qed.
Theorem any_tree_read : forall U x e, valid e -> writes U x (wrap 1 (canon e)) ->
  exists a b y n t s' d, parsed U F_eval_input (fresh (text_of [x])) (EvalInput a b y [n] t) s' /\ tree_of y = Some d /\ bare d = bare e.
Proof.
  intros U x e (S & V) W. destruct (wrapped 1 (canon e) ltac:(lia)) as (P & L); [rewrite canon_stands; exact S|exact (canon_proper e V)|].
  destruct (text_read U x _ P L W) as (a & b & y & n & t & s' & R & T). exists a, b, y, n, t, s', (wrap 1 (canon e)).
  repeat split; auto. rewrite wrap_bare. apply canon_bare.
Qed.

(** ** The converse *)
Lemma subnodes_child : forall x w, In (Sub w) (items x) -> incl (subnodes w) (subnodes x) /\ length (subnodes w) < length (subnodes x).
Proof.
  intros x w I. rewrite (subnodes_items x). split.
  - intros z Z. right. apply in_flat_map. exists (Sub w). auto.
  - cbn [length]. apply in_split in I as (a & b & ->). rewrite flat_map_app, app_length. cbn [flat_map item_subnodes]. rewrite app_length. lia.
Qed.
Lemma subnodes_trans : forall n x, length (subnodes x) <= n -> forall y z, In y (subnodes x) -> In z (subnodes y) -> In z (subnodes x).
Proof.
  induction n as [|n IH]; intros x L y z I J; [rewrite subnodes_items in L; cbn in L; lia|].
  destruct (subnodes_cases _ _ I) as [->|(w & W & I2)]; [exact J|]. destruct (subnodes_child _ _ W) as (S & L2). apply S. eapply IH; eauto. lia.
Qed.
Theorem tree_stands : forall U fuel f s x s', usual f = true -> run U fuel f s = Ok x s' ->
  exists s1 l, (if input_fn f then advance U s = Ok tt s1 else s1 = s) /\ reads U s1 l s' /\
    forall y e, In y (subnodes x) -> tree_of y = Some e ->
      exists l1 l2 l3, l = l1 ++ l2 ++ l3 /\ map (fun x => face (snd x)) l2 = flatten e /\ proper e.
Proof.
  intros U fuel f s x s' T H. destruct (run_tiled U fuel f s x s') as (s1 & l & A & R & TI); [destruct f; try discriminate T; reflexivity|exact H|].
  exists s1, l. split; [destruct f; exact A|]. split; [exact R|]. intros y e I TY.
  destruct (proj1 tiled_subnodes_all _ _ _ _ (TI 0) y I) as (b & l1 & l2 & l3 & -> & TL). exists l1, l2, l3. split; [reflexivity|].
  assert (G : good y). { unfold good. apply Forall_forall. intros z Z. eapply run_schema; eauto. exact (subnodes_trans _ _ (le_n _) _ _ I Z). }
  destruct (proj1 (proj1 tiled_recovers _ _ _ _ TL G) e TY) as (F & P & _). auto.
Qed.

Lemma parsed_once : forall U f s x1 s1 x2 s2, parsed U f s x1 s1 -> parsed U f s x2 s2 -> x1 = x2 /\ s1 = s2.
Proof.
  intros U f s x1 s1 x2 s2 H1 H2. apply run_exact, run_complete in H1 as (a & H1). apply run_exact, run_complete in H2 as (b & H2).
  specialize (H1 (Nat.max a b) (Nat.le_max_l a b)). specialize (H2 (Nat.max a b) (Nat.le_max_r a b)). rewrite H1 in H2. injection H2. auto.
Qed.
(** A text writes one expression only. *)
Theorem unambiguous : forall U x e1 e2, proper e1 -> proper e2 -> 1 <= level e1 -> 1 <= level e2 -> writes U x e1 -> writes U x e2 -> e1 = e2.
Proof.
  intros U x e1 e2 P1 P2 L1 L2 W1 W2. destruct (text_read U x e1 P1 L1 W1) as (a & b & y & t & n & s' & R & T).
  destruct (text_read U x e2 P2 L2 W2) as (a' & b' & y' & t' & n' & s2' & R' & T'). destruct (parsed_once _ _ _ _ _ _ _ R R') as (E & _).
  injection E. intros. subst. congruence.
Qed.

(** ** Exactly the expressions *)
Lemma reads_both : forall U s l1 s1, reads U s l1 s1 -> forall l2 s2, reads U s l2 s2 ->
  (exists p t m, l2 = l1 ++ (p, t) :: m /\ ps_symbol s1 = inl t) \/ (exists p t m, l1 = l2 ++ (p, t) :: m /\ ps_symbol s2 = inl t) \/ l1 = l2.
Proof.
  intros U s l1 s1 H. induction H as [s s1 E1 E2|s t s0 l s1 S A H IH]; intros l2 s2 H2.
  - inversion H2 as [? ? X1 X2|? t ? l ? X A H3]; subst; [right; right; reflexivity|]. left. exists (pos s), t, l. split; [reflexivity|congruence].
  - inversion H2 as [? ? X1 X2|? t' s0' l' ? X A' H3]; subst; [right; left; exists (pos s), t, l; split; [reflexivity|congruence]|].
    rewrite S in X. injection X as <-. rewrite A in A'. injection A' as <-.
    destruct (IH _ _ H3) as [(p & u & m & -> & Z)|[(p & u & m & -> & Z)| ->]]; [left|right; left|right; right; reflexivity]; exists p, u, m; auto.
Qed.
Definition no_end (l : list ptok) : Prop := Forall (fun x => tk_kind (snd x) <> T_EOF) l.
Lemma reads_to_end : forall U s l1 s1 l2 s2 u v, reads U s l1 s1 -> reads U s l2 s2 -> no_end l1 -> no_end l2 ->
  ps_symbol s1 = inl u -> tk_kind u = T_EOF -> ps_symbol s2 = inl v -> tk_kind v = T_EOF -> l1 = l2.
Proof.
  intros U s l1 s1 l2 s2 u v R1 R2 N1 N2 S1 K1 S2 K2. destruct (reads_both _ _ _ _ R1 _ _ R2) as [(p & t & m & -> & Z)|[(p & t & m & -> & Z)|H]]; [| |exact H].
  - exfalso. apply Forall_app in N2 as (_ & N2). inversion N2 as [|? ? N3 _]; subst. cbn in N3. congruence.
  - exfalso. apply Forall_app in N1 as (_ & N1). inversion N1 as [|? ? N3 _]; subst. cbn in N3. congruence.
Qed.
Definition ordinary (x : kind * payload) : Prop := fst x <> T_EOF /\ fst x <> T_Newline.
Lemma flatten_ordinary : forall e, proper e -> Forall ordinary (flatten e).
Proof.
  assert (LS : forall k es, Forall (fun e => proper e -> Forall ordinary (flatten e)) es -> Forall (operand k) es ->
    Forall ordinary (between (mark PyComa) (map flatten es))).
  { intros k es H P. assert (H2 : Forall (fun e => Forall ordinary (flatten e)) es).
    { rewrite Forall_forall in *. intros e I. apply (H e I). apply (P e I). }
    clear H P. destruct H2 as [|e es A B]; [constructor|]. cbn [map between]. apply Forall_app. split; [exact A|].
    induction B as [|d ds D B IH]; [constructor|]. cbn [map flat_map]. constructor; [split; discriminate|]. apply Forall_app. auto. }
  assert (OP : forall k, (exists n, infix_level k = Some n) \/ is_unary k -> ordinary (mark k)).
  { intros k [(n & H)|H]; [destruct k; try discriminate H; split; discriminate|]. cbn in H. intuition (subst; split; discriminate). }
  assert (MK : forall k p, k <> T_EOF -> k <> T_Newline -> ordinary (k, p)) by (intros; split; assumption).
  assert (CI : forall c, Forall ordinary (comma_if c)) by (intros [|]; repeat constructor; discriminate).
  apply (ast_induction (fun e => proper e -> Forall ordinary (flatten e))).
  - intros k p (I & _). cbn [flatten]. repeat constructor; cbn in I; intuition (subst; discriminate).
  - intros p ps _. cbn [flatten]. generalize (p :: ps). intros l. induction l as [|a l IH]; cbn [map]; constructor; auto. split; discriminate.
  - intros e IH (_ & P). cbn [flatten]. constructor; [split; discriminate|]. apply Forall_app. split; [exact (IH P)|repeat constructor; discriminate].
  - intros es IH (N & _ & P). rewrite all_operands in P. cbn [flatten]. constructor; [split; discriminate|]. apply Forall_app. split; [eapply LS; eauto|repeat constructor; discriminate].
  - intros es IH (_ & P). rewrite all_operands in P. cbn [flatten]. constructor; [split; discriminate|]. apply Forall_app. split; [eapply LS; eauto|repeat constructor; discriminate].
  - intros e n IH (P & _). cbn [flatten]. apply Forall_app. split; [exact (IH P)|repeat constructor; discriminate].
  - intros e es IH IHS ((P & _) & PS). rewrite all_operands in PS. cbn [flatten]. apply Forall_app. split; [exact (IH P)|].
    constructor; [split; discriminate|]. apply Forall_app. split; [eapply LS; eauto|repeat constructor; discriminate].
  - intros e es IH IHS ((P & _) & _ & PS). rewrite all_operands in PS. cbn [flatten]. apply Forall_app. split; [exact (IH P)|].
    constructor; [split; discriminate|]. apply Forall_app. split; [eapply LS; eauto|repeat constructor; discriminate].
  - intros e IH (P & _). cbn [flatten]. constructor; [split; discriminate|exact (IH P)].
  - intros a b IHa IHb ((PA & _) & (PB & _)). cbn [flatten]. apply Forall_app. split; [exact (IHa PA)|]. constructor; [split; discriminate|exact (IHb PB)].
  - intros k e IH (K & P & _). cbn [flatten]. constructor; [apply OP; auto|exact (IH P)].
  - intros k a b IHa IHb P. cbn [proper] in P. destruct (infix_level k) as [n|] eqn:N; [|destruct P]. destruct P as ((PA & _) & (PB & _)).
    cbn [flatten]. apply Forall_app. split; [exact (IHa PA)|]. constructor; [apply OP; eauto|exact (IHb PB)].
  - intros a b IHa IHb ((PA & _) & (PB & _)). cbn [flatten]. apply Forall_app. split; [exact (IHa PA)|]. do 2 (constructor; [split; discriminate|]). exact (IHb PB).
  - intros a b IHa IHb ((PA & _) & (PB & _)). cbn [flatten]. apply Forall_app. split; [exact (IHa PA)|]. do 2 (constructor; [split; discriminate|]). exact (IHb PB).
  - intros e IH (P & _). cbn [flatten]. constructor; [split; discriminate|exact (IH P)].
  - intros a c b IHa IHc IHb ((PA & _) & (PC & _) & (PB & _)). cbn [flatten]. apply Forall_app. split; [exact (IHa PA)|].
    constructor; [split; discriminate|]. apply Forall_app. split; [exact (IHc PC)|]. constructor; [split; discriminate|exact (IHb PB)].
  - intros a b IHa IHb ((PA & _) & (PB & _)). cbn [flatten]. apply Forall_app. split; [exact (IHa PA)|]. constructor; [split; discriminate|exact (IHb PB)].
  - intros c es IH (_ & _ & P). rewrite all_operands in P. cbn [flatten]. constructor; [split; discriminate|]. apply Forall_app. split; [apply Forall_app; split; [eapply LS; eauto|apply CI]|repeat constructor; discriminate].
  - intros c es IH (_ & _ & P). rewrite all_operands in P. cbn [flatten]. constructor; [split; discriminate|]. apply Forall_app. split; [apply Forall_app; split; [eapply LS; eauto|apply CI]|repeat constructor; discriminate].
  - intros ps e IHS IH (_ & PS & P & _). rewrite all_operands in PS. cbn [flatten]. constructor; [split; discriminate|]. apply Forall_app.
    split; [eapply LS; eauto|]. constructor; [split; discriminate|exact (IH P)].
  - intros e IH (P & _). cbn [flatten]. constructor; [split; discriminate|exact (IH P)].
  - intros e IH (P & _). cbn [flatten]. constructor; [split; discriminate|exact (IH P)].
  - intros a b IHa IHb ((PA & _) & (PB & _)). cbn [flatten]. apply Forall_app. split; [exact (IHa PA)|]. constructor; [split; discriminate|exact (IHb PB)].
  - intros n e IH (P & _). cbn [flatten]. do 2 (constructor; [split; discriminate|]). exact (IH P).
  - intros q e cs IH IHS ((_ & P) & _ & _ & PS). rewrite all_operands in PS. cbn [flatten]. constructor; [destruct q; split; discriminate|].
    apply Forall_app. split; [|destruct q; repeat constructor; discriminate]. apply Forall_app. split; [exact (IH P)|]. clear - IHS PS.
    induction IHS as [|d ds A H I]; inversion PS as [|? ? (P1 & _) P2]; subst; [constructor|]. cbn [flat_map]. apply Forall_app. auto.
  - intros es IH (_ & _ & P). rewrite all_operands in P. cbn [flatten]. constructor; [split; discriminate|]. apply Forall_app. split; [constructor; [split; discriminate|eapply LS; eauto]|repeat constructor; discriminate].
  - intros e IH (P & _). cbn [flatten]. constructor; [split; discriminate|]. apply Forall_app. split; [do 2 (constructor; [split; discriminate|]); exact (IH P)|repeat constructor; discriminate].
  - intros w ts c e IHS IH (_ & _ & PS & _ & P & _). rewrite all_operands in PS. cbn [flatten]. apply Forall_app. split; [destruct w; repeat constructor; discriminate|].
    constructor; [split; discriminate|]. apply Forall_app. split; [apply Forall_app; split; [eapply LS; eauto|apply CI]|]. constructor; [split; discriminate|exact (IH P)].
  - intros e IH (P & _). cbn [flatten]. constructor; [split; discriminate|exact (IH P)].
Qed.
Lemma items_ordinary : forall U xs, Forall (item_ok U) xs -> Forall ordinary (map item_seen xs).
Proof.
  intros U xs H. induction H as [|x xs A H IH]; cbn [map]; constructor; auto. unfold item_ok in A. unfold item_seen. split; cbn [fst]; intros E;
    destruct A as [w k I|c k I|w k I| | | | |]; try discriminate E; subst k; revert I; cbn; intros I; repeat destruct I as [I|I]; try discriminate I; destruct I.
Qed.
Lemma ordinary_faces : forall l, Forall ordinary (map face l) -> Forall (fun t => tk_kind t <> T_EOF /\ tk_kind t <> T_Newline) l.
Proof. intros l H. rewrite Forall_map in H. exact H. Qed.
Theorem text_exact : forall U x e, line_ok U x 0 ->
  (exists a b y ns t s', parsed U F_eval_input (fresh (text_of [x])) (EvalInput a b y ns t) s' /\ tree_of y = Some e) <->
  (proper e /\ 1 <= level e /\ map item_seen (ln_items x) = flatten e).
Proof.
  intros U x e LO. split.
  - intros (a & b & y & ns & t & s' & R & T). destruct (line_reads U x LO) as (s1 & l & q & n & s2 & u & A & RD & FA & KN & SU & KU & X).
    destruct R as (fuel & R). pose proof R as RS. apply run_sound in RS. destruct RS as (s1' & l' & A' & RD' & IN).
    rewrite A in A'. injection A' as <-.
    assert (G : forall z, In z (subnodes (EvalInput a b y ns t)) -> schema z) by (eapply run_schema; [|exact R]; reflexivity).
    inversion IN as [|c l1 y0 l2 p t0 EY NL KT| | | |]; subst.
    assert (GY : good y). { apply Forall_forall. intros z Z. apply G. cbn [subnodes]. right. rewrite ?app_nil_r. exact Z. }
    assert (V : values y) by (refine (match G _ (or_introl eq_refl) with conj V _ => V end)).
    pose proof (E_lies _ _ _ _ EY eq_refl 0) as TI. destruct (proj1 (proj1 tiled_recovers _ _ _ _ TI GY) e T) as (F & P & RK).
    split; [exact P|]. assert (TE : expression 1 y) by (destruct y; try discriminate T; exact V).
    split; [exact (expression_level _ _ _ TE RK)|].
    assert (EQ : l1 ++ l2 = l ++ [(q, n)]).
    { destruct LO as (_ & FI & _). eapply reads_to_end; [exact RD'|exact RD| | | |exact KT|exact SU|exact KU].
      - apply Forall_app. split.
        + pose proof (flatten_ordinary e P) as O. rewrite <- F in O. unfold faces in O. rewrite <- (map_map snd face) in O. apply ordinary_faces in O.
          rewrite Forall_map in O. eapply Forall_impl; [|exact O]. cbn. tauto.
        + eapply Forall_impl; [|exact NL]. cbn. intros z ->. discriminate.
      - apply Forall_app. split; [|constructor; [cbn; congruence|constructor]].
        pose proof (items_ordinary U _ FI) as O. rewrite <- FA in O. apply ordinary_faces in O. rewrite Forall_map in O. eapply Forall_impl; [|exact O]. cbn. tauto.
      - destruct (ps_symbol s') as [v|v]; [|discriminate H2]. injection H2 as <-. reflexivity. }
    assert (l1 = l) as ->; [|unfold faces in F; rewrite <- (map_map snd face) in F; congruence].
    destruct LO as (_ & FI & _).
    pose proof (flatten_ordinary e P) as O1. rewrite <- F in O1. unfold faces in O1. rewrite <- (map_map snd face) in O1. apply ordinary_faces in O1. rewrite Forall_map in O1.
    pose proof (items_ordinary U _ FI) as O2. rewrite <- FA in O2. apply ordinary_faces in O2. rewrite Forall_map in O2.
    clear - EQ O1 O2 NL KN. revert l EQ O2. induction l1 as [|(i & z) l1 IH]; intros [|(j & w) l] EQ O2; cbn [app] in EQ.
    + reflexivity.
    + subst l2. inversion NL as [|? ? N1 _]; subst. inversion O2 as [|? ? (_ & O3) _]; subst. cbn in N1, O3. congruence.
    + injection EQ as -> EQ. inversion O1 as [|? ? (_ & O3) _]; subst. cbn in O3. congruence.
    + injection EQ as -> -> EQ. inversion O1; subst. inversion O2; subst. f_equal. apply IH; assumption.
  - intros (P & L & M). destruct (line_text_read U x e P L LO M) as (a & b & y & n & t & s' & R & T). exists a, b, y, [n], t, s'. auto.
Qed.
