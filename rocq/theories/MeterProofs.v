(** The steps of the parser are bounded by the tokens it takes (C67). *)
From Coq Require Import List Arith Bool Lia.
From Verif Require Import Chars SourceBuffer Token Tokenizer LexSpec Node ParserState Parser WellFormed CallLemmas CallTheorem GrammarSpec ParseBasics
  TermBasics TermExpr TermStmt TermStable ParseSpec ParseCorollaries EndProofs TwinProofs LayoutSpec SoundBasics Soundness PrintProofs Meter MeterExpr MeterStmt MeterBlocks MeterParser MeterSame.
Import ListNotations.
Local Open Scope nat_scope.

(** The steps a function makes before it takes a token are at most [weight f]; every token pays for 62. *)
Definition storey (f : fn) : nat :=
  match f with
  | F_atom | F_trailer | F_vfp_def => 0
  | F_atom_expr => 1
  | F_power => 2
  | F_factor => 3
  | F_term => 4 | F_arith => 5 | F_shift => 6 | F_and_expr => 7 | F_xor_expr => 8 | F_expr => 9
  | F_star_expr => 10 | F_comparison => 10
  | F_not_test => 11
  | F_and_test => 12 | F_or_test => 13
  | F_lambda_def _ => 0
  | F_no_cond_test | F_test => 14
  | F_sync_comp_for | F_comp_if => 0
  | F_comp_for => 1
  | F_comp_iter => 2
  | F_named_expression | F_subscript | F_testlist | F_argument | F_var_args_assignments | F_tfp_def => 15
  | F_dictorset_maker => 15
  | F_testlist_comp | F_subscript_list | F_arglist | F_exprlist | F_testlist_star_expr | F_type_list | F_with_item
  | F_var_args_list | F_tfp_def_assign | F_func_type => 16
  | F_typed_args_list | F_parameters | F_del_stmt | F_return_stmt | F_raise_stmt | F_assert_stmt | F_except_clause
  | F_decorator | F_yield_expr => 17
  | F_yield_stmt | F_ann_assign _ _ | F_decorators => 18
  | F_flow_stmt | F_expr_stmt => 19
  | F_dotted_name | F_import_as_name => 0
  | F_dotted_as_name | F_import_as_names => 1
  | F_dotted_as_names | F_import_from => 2
  | F_import_name => 3
  | F_import_stmt => 4
  | F_small_stmt => 20 | F_simple_stmt => 21
  | F_suite | F_func_body_suite => 22
  | F_elif_stmt | F_else_stmt | F_finally_stmt | F_except_stmt => 23
  | F_if_stmt | F_while_stmt | F_for_stmt | F_try_stmt | F_with_stmt | F_class_def | F_func_def => 24
  | F_async_func_def => 25
  | F_async_stmt | F_decorated => 26
  | F_compound_stmt => 27
  | F_stmt => 28
  | F_eval_input | F_file_input | F_single_input | F_func_type_input => 29
  | _ => 0
  end.
Definition weight (f : fn) : nat := 2 + 2 * storey f.
(** The functions whose successful result has taken a token. *)
Definition gains (f : fn) : bool :=
  match f with F_typed_args_list | F_eval_input | F_file_input | F_single_input | F_func_type_input => false | _ => true end.
Definition called (f : fn) (s : parser) : Prop :=
  match f with
  | F_lambda_def _ => exists t, ps_symbol s = inl t /\ tk_kind t = PyLambda
  | F_eval_input | F_file_input | F_single_input | F_func_type_input => False
  | _ => True
  end.

Section Cost.
Variables (U : unicode) (most : nat) (standing : parser -> meter -> Prop).
Hypothesis standing_most : forall s c, standing s c -> taken c <= most.
Hypothesis standing_core : forall s c s' c', standing s c -> ps_lexer s' = ps_lexer s -> ps_symbol s' = ps_symbol s -> taken c' = taken c -> standing s' c'.
Hypothesis standing_advance : forall s c s', standing s c -> solid s -> ParserState.advance U s = Ok tt s' -> standing s' (a_token c).
Hypothesis standing_eof : forall s c t s', standing s c -> ps_symbol s = inl t -> tk_kind t = T_EOF -> ParserState.advance U s = Ok tt s' ->
  exists t', ps_symbol s' = inl t' /\ tk_kind t' = T_EOF.

(** [m], run on [s] at [c], does not return, or ends with an error or panic at a meter in [E], or gives a result in [Q]. *)
Definition mwp (E : meter -> Prop) {A} (m : Meter.M A) (s : parser) (c : meter) (Q : A -> parser -> meter -> Prop) : Prop :=
  match m s c with (Ok a s', c') => Q a s' c' | (Fuel, _) => True | (_, c') => E c' /\ taken c' <= S most end.

Lemma mwp_bind : forall E A B (m : Meter.M A) (k : A -> Meter.M B) s c Q,
  mwp E m s c (fun a s1 c1 => mwp E (k a) s1 c1 Q) -> mwp E (Meter.bind m k) s c Q.
Proof. intros E A B m k s c Q. unfold mwp, Meter.bind. destruct (m s c) as [[] ?]; auto. Qed.
Lemma mwp_weak : forall E A (m : Meter.M A) s c (Q Q' : A -> parser -> meter -> Prop),
  mwp E m s c Q -> (forall a s' c', Q a s' c' -> Q' a s' c') -> mwp E m s c Q'.
Proof. intros E A m s c Q Q' H W. unfold mwp in *. destruct (m s c) as [[] ?]; auto. Qed.
Lemma mwp_fail : forall (E : meter -> Prop) A msg p s c (Q : A -> parser -> meter -> Prop), standing s c -> E c -> mwp E (Meter.fail msg p) s c Q.
Proof. intros. split; [assumption|]. apply Nat.le_le_succ_r. eauto. Qed.
Lemma mwp_fail_here : forall (E : meter -> Prop) A msg s c (Q : A -> parser -> meter -> Prop), standing s c -> E c -> mwp E (Meter.fail_here msg) s c Q.
Proof. intros. split; [assumption|]. apply Nat.le_le_succ_r. eauto. Qed.
Lemma mwp_ret : forall E A (a : A) s c (Q : A -> parser -> meter -> Prop), Q a s c -> mwp E (Meter.ret a) s c Q.
Proof. intros. exact H. Qed.
Lemma mwp_position : forall E s c (Q : nat -> parser -> meter -> Prop), Q (lexer_get_position (ps_lexer s)) s c -> mwp E Meter.position s c Q.
Proof. intros. exact H. Qed.
Lemma mwp_get : forall E s c (Q : except_status -> parser -> meter -> Prop), Q (ps_except s) s c -> mwp E Meter.get_except s c Q.
Proof. intros. exact H. Qed.
Lemma mwp_panic : forall (E : meter -> Prop) A s c (Q : A -> parser -> meter -> Prop), standing s c -> E c -> mwp E Meter.panic s c Q.
Proof. intros. split; [assumption|]. apply Nat.le_le_succ_r. eauto. Qed.
Lemma mwp_on : forall E A (e : Meter.M A) k s c (Q : A -> parser -> meter -> Prop),
  (forall t, ps_symbol s = inl t -> mwp E (k t) s c Q) -> ((forall t, ps_symbol s <> inl t) -> mwp E e s c Q) ->
  mwp E (Meter.on_symbol e k) s c Q.
Proof.
  intros E A e k s c Q H1 H2. unfold mwp, Meter.on_symbol in *. destruct (ps_symbol s) as [t|]; [exact (H1 t eq_refl)|apply H2; discriminate].
Qed.
Lemma mwp_advance : forall E s c (Q : unit -> parser -> meter -> Prop), standing s c -> solid s ->
  (forall s1, standing s1 (a_token c) -> ParserState.advance U s = Ok tt s1 -> Q tt s1 (a_token c)) -> mwp E (Meter.advance U) s c Q.
Proof.
  intros E s c Q S SO H. unfold mwp, Meter.advance. destruct (ParserState.advance U s) as [[] s1| | |] eqn:X; auto.
  - apply H; auto. eapply standing_advance; eauto.
  - exfalso. unfold ParserState.advance in X. destruct (get_symbol U (ps_lexer s)); discriminate X.
  - exfalso. unfold ParserState.advance in X. destruct (get_symbol U (ps_lexer s)); discriminate X.
Qed.
Lemma mwp_set : forall E x s c (Q : unit -> parser -> meter -> Prop), standing s c -> (forall s1, standing s1 c -> Q tt s1 c) -> mwp E (Meter.set_except x) s c Q.
Proof. intros E x s c Q S H. apply H. eapply standing_core; eauto. Qed.
Lemma mwp_while : forall E A (step : A -> Meter.M (bool * A)) (J : parser -> meter -> Prop) (Q : A -> parser -> meter -> Prop),
  (forall a s c, J s c -> mwp E (step a) s (a_step c) (fun r s' c' => if fst r then J s' c' else Q (snd r) s' c')) ->
  forall n a s c, J s c -> mwp E (Meter.while_ n step a) s c Q.
Proof.
  intros E A step J Q H. induction n as [|n IH]; intros a s c X; [exact I|].
  unfold mwp. cbn [Meter.while_]. apply mwp_bind. eapply mwp_weak; [apply H; exact X|].
  intros [[] a'] s' c'; cbn [fst snd]; [apply IH|auto].
Qed.

(** ** Calls *)
Definition failing (f : fn) (c c' : meter) : Prop := steps c' + 62 * taken c <= steps c + weight f + 62 * taken c'.
Definition ending (f : fn) (c : meter) (s' : parser) (c' : meter) : Prop :=
  standing s' c' /\ if gains f then taken c < taken c' /\ steps c' + 62 * taken c + 62 <= steps c + weight f + 62 * taken c'
  else taken c <= taken c' /\ steps c' + 62 * taken c <= steps c + weight f + 62 * taken c'.
Variables (n : nat) (rec : fn -> Meter.M node).
Hypothesis R : forall f s c, called f s -> standing s c -> mwp (failing f c) (rec f) s c (fun _ s' c' => ending f c s' c').
Hypothesis RI : forall s c t, ps_symbol s = inl t -> tk_kind t = PyImport -> fst (rec F_import_stmt s c) = Fuel.

Hypothesis RE : forall s c t, ps_symbol s = inl t -> tk_kind t = T_EOF ->
  match rec F_test s c with (Ok _ _, _) => False | (Fuel, _) => True | (_, c') => taken c' = taken c /\ steps c' <= steps c + weight F_test end.

Lemma mwp_call : forall f (E : meter -> Prop) s c (Q : node -> parser -> meter -> Prop), called f s -> standing s c ->
  (forall c', failing f c c' -> E c') -> (forall x s' c', ending f c s' c' -> Q x s' c') -> mwp E (rec f) s c Q.
Proof.
  intros f E s c Q Y S HE HQ. pose proof (R f s c Y S) as H. unfold mwp in *. destruct (rec f s c) as [[] c']; auto.
  - destruct H; split; auto.
  - destruct H; split; auto.
Qed.

Ltac numbers := unfold failing, ending, weight in *; cbn [storey gains steps taken a_step a_token] in *; lia.
Ltac step1 :=
  match goal with
  | |- mwp _ (Meter.bind _ _) _ _ _ => apply mwp_bind
  | |- mwp _ (Meter.ret _) _ _ _ => apply mwp_ret
  | |- mwp _ (Meter.fail _ _) _ _ _ => apply mwp_fail; [assumption|numbers]
  | |- mwp _ (Meter.fail_here _) _ _ _ => apply mwp_fail_here; [assumption|numbers]
  | |- mwp _ Meter.panic _ _ _ => apply mwp_panic; [assumption|numbers]
  | |- mwp _ Meter.position _ _ _ => apply mwp_position
  | |- mwp _ Meter.get_except _ _ _ => apply mwp_get
  | |- mwp _ (Meter.set_except _) _ _ _ => apply mwp_set; [assumption|intros ? ?]
  | |- mwp _ (Meter.advance U) _ _ _ => try (match goal with T : (_ && is _ _)%bool = true |- _ => apply andb_prop in T; destruct T end); apply mwp_advance; [assumption|solve_solid|intros ? ? ?]
  | |- mwp _ (Meter.expect _ _ _ _ _) _ _ _ => unfold Meter.expect
  | |- mwp _ (Meter.on_symbol _ _) _ _ _ => apply mwp_on; [intros ? ?|intros _]
  | |- mwp _ (rec ?f) ?s ?c _ =>
      apply (mwp_call f); [first [exact I|eexists; split; [eassumption|apply is_true; assumption]]|assumption|intros; numbers|
        let H := fresh "H" in intros ? ? ? H; unfold ending in H; cbn [gains] in H; destruct H as (? & ? & ?)]
  | |- mwp _ (Meter.while_ n ?step ?a) ?s ?c ?Q =>
      apply (mwp_while _ _ step (fun s1 c1 => standing s1 c1 /\ taken c <= taken c1 /\ steps c1 + 62 * taken c <= steps c + 62 * taken c1));
      [ let S := fresh in intros ? ? ? (S & ? & ?); pose proof (standing_core _ _ _ (a_step _) S eq_refl eq_refl eq_refl); clear S
      | split; [assumption|lia] ]
  | |- mwp _ (if ?b then _ else _) _ _ _ => let H := fresh "T" in destruct b eqn:H
  | |- mwp _ (match ?x with _ => _ end) _ _ _ => destruct x
  | |- forall _, _ => intro
  | |- (if fst (true, _) then _ else _) => cbn [fst snd]; split; [assumption|numbers]
  | |- (if fst (false, _) then _ else _) => cbn [fst snd]
  | |- ending _ _ _ _ => unfold ending; split; [assumption|numbers]
  | |- mwp _ ?m _ _ _ => lazymatch m with Meter.advance _ => fail | Meter.while_ _ _ _ => fail | rec _ => fail | Meter.fail _ _ => fail | _ => idtac end;
      let rec head t := lazymatch t with ?f _ => head f | _ => t end in
      let h := head m in unfold h
  end; cbv beta iota.

(** What is taken behind the colon of a slice may be the end of the text; then nothing is returned. *)
Lemma mwp_advance_end : forall E s c t (Q : unit -> parser -> meter -> Prop), standing s c -> ps_symbol s = inl t ->
  (forall s1, standing s1 (a_token c) -> Q tt s1 (a_token c)) ->
  (forall s1 t1, taken c <= most -> ps_symbol s1 = inl t1 -> tk_kind t1 = T_EOF -> Q tt s1 (a_token c)) -> mwp E (Meter.advance U) s c Q.
Proof.
  intros E s c t Q S K H1 H2. destruct (kind_eqb (tk_kind t) T_EOF) eqn:X.
  - apply kind_eqb_eq in X. unfold mwp, Meter.advance. destruct (ParserState.advance U s) as [[] s1| | |] eqn:A; auto.
    + destruct (standing_eof s c t s1 S K X A) as (t1 & S1 & K1). eapply H2; eauto.
    + exfalso. unfold ParserState.advance in A. destruct (get_symbol U (ps_lexer s)); discriminate A.
    + exfalso. unfold ParserState.advance in A. destruct (get_symbol U (ps_lexer s)); discriminate A.
  - apply mwp_advance; [exact S| |auto]. exists t. split; [exact K|]. intros Z. rewrite Z in X. discriminate X.
Qed.
Ltac slice :=
  match goal with K : ps_symbol ?s = inl ?t |- mwp _ (Meter.advance U) ?s ?c _ => apply (mwp_advance_end _ s c t); [assumption|exact K|intros; repeat step1|] end;
  let s1 := fresh in let t1 := fresh in let S1 := fresh in let K1 := fresh in intros s1 t1 ? S1 K1; apply mwp_bind, mwp_on;
  [ let t2 := fresh in let Z := fresh in intros t2 Z; assert (t2 = t1) as -> by congruence; clear Z;
    unfold is_one_of; cbn [existsb]; unfold is; rewrite K1;
    repeat match goal with |- context [kind_eqb T_EOF ?k] => change (kind_eqb T_EOF k) with false end; cbn [orb]; apply mwp_bind;
    match goal with |- mwp _ _ s1 ?c1 _ => pose proof (RE s1 c1 t1 S1 K1) as Z; unfold mwp; destruct (rec F_test s1 c1) as [[] ?] end;
    [contradiction Z|split; numbers|split; numbers|exact I]
  | let N := fresh in intros N; destruct (N t1 S1) ].

Lemma body_cost : forall f s c, called f s -> standing s c ->
  mwp (failing f c) (metered_body U n rec f) s (a_step c) (fun _ s' c' => ending f c s' c').
Proof.
  intros f s c Y S0. assert (S : standing s (a_step c)) by (eapply standing_core; eauto).
  destruct f; cbn [metered_body]; cbn [called] in Y; try contradiction Y.
  all: try (destruct Y as (t0 & S1 & K0)).
  all: clear S0; repeat step1.
  - apply mwp_advance; [assumption| |intros s1 ST A; clear A].
    { exists t0. split; [exact S1|]. rewrite K0. discriminate. }
    repeat step1.
  - slice.
  - exfalso. assert (Z : t = t0) by congruence. rewrite Z in *. congruence.
  - slice.
  - pose proof (RI s (a_step c) t) as Z. unfold mwp. destruct (rec F_import_stmt s (a_step c)) as [o c']. cbn [fst] in Z.
    rewrite Z; [exact I|assumption|apply is_true; assumption].
Qed.
Lemma mwp_first : forall E s s1 c (Q : unit -> parser -> meter -> Prop), ParserState.advance U s = Ok tt s1 -> Q tt s1 (a_token c) ->
  mwp E (Meter.advance U) s c Q.
Proof. intros E s s1 c Q A H. unfold mwp, Meter.advance. rewrite A. exact H. Qed.
Lemma input_cost : forall f s s1 c, input_fn f = true -> ParserState.advance U s = Ok tt s1 -> standing s1 (a_token c) ->
  mwp (failing f c) (metered_body U n rec f) s (a_step c) (fun _ s' c' => standing s' c' /\ failing f c c').
Proof.
  intros f s s1 c IN A S0. assert (S : standing s1 (a_token (a_step c))) by (eapply standing_core; eauto).
  destruct f; try discriminate IN; cbn [metered_body].
  all: unfold p_file_input, p_single_input, p_eval_input, p_func_type_input; apply mwp_bind, (mwp_first _ s s1); [exact A|]; clear A S0; repeat step1.
  all: try (split; [assumption|numbers]).
Qed.
End Cost.

(** At the end of the text no expression is read, and no token taken. *)
Definition operand (f : fn) : bool :=
  match f with
  | F_atom | F_atom_expr | F_power | F_factor | F_term | F_arith | F_shift | F_and_expr | F_xor_expr | F_expr | F_comparison | F_not_test
  | F_and_test | F_or_test | F_test => true
  | _ => false
  end.
Definition never (f : fn) (c : meter) (o : outcome node * meter) : Prop :=
  match o with (Ok _ _, _) => False | (Fuel, _) => True | (_, c') => taken c' = taken c /\ steps c' <= steps c + weight f end.
Lemma never_bind : forall f c0 A (m : Meter.M A) (k : A -> Meter.M node) s c, mwp (taken c0) (fun c' => taken c' = taken c0 /\ steps c' <= steps c0 + weight f) m s c
    (fun a s' c' => never f c0 (k a s' c')) -> never f c0 (Meter.bind m k s c).
Proof. intros f c0 A m k s c. unfold never, Meter.bind, mwp. destruct (m s c) as [[] ?]; tauto. Qed.
Ltac at_end K := unfold is_one_of; cbn [existsb]; unfold is; rewrite ?K;
  repeat match goal with |- context [kind_eqb T_EOF ?k] => change (kind_eqb T_EOF k) with false end; cbn [orb]; cbv beta iota.
Lemma end_never : forall U n f s c t, operand f = true -> ps_symbol s = inl t -> tk_kind t = T_EOF -> never f c (run_metered U n f s c).
Proof.
  intros U n. induction n as [|n IH]; intros f s c t O S K; [exact I|]. cbn [run_metered].
  assert (D : forall g f c1, operand g = true -> steps c1 + weight g <= steps c + weight f -> taken c1 = taken c ->
     forall Q, mwp (taken c) (fun c' => taken c' = taken c /\ steps c' <= steps c + weight f) (run_metered U n g) s c1 Q).
  { intros g f0 c1 OG LE TE Q. pose proof (IH g s c1 t OG S K) as Z. unfold mwp, never in *. destruct (run_metered U n g s c1) as [[] ?];
      [contradiction|split; [lia|lia]|split; [lia|lia]|exact I]. }
  assert (D' : forall g f c1, operand g = true -> steps c1 + weight g <= steps c + weight f -> taken c1 = taken c -> never f c (run_metered U n g s c1)).
  { intros g f0 c1 OG LE TE. pose proof (IH g s c1 t OG S K) as Z. unfold never in *. destruct (run_metered U n g s c1) as [[] ?]; [contradiction|lia|lia|exact I]. }
  destruct f; try discriminate O; cbn [metered_body].
  all: match goal with |- never _ _ (?m _ _) => let rec head t := lazymatch t with ?f _ => head f | _ => t end in let h := head m in unfold h end.
  all: try (apply never_bind; unfold mwp at 1; cbn [Meter.position plainly ParserState.position]; cbv beta iota).
  all: try (unfold Meter.on_symbol at 1; rewrite S; at_end K).
  all: try (apply never_bind; apply D; [reflexivity|unfold weight; cbn [storey steps a_step]; lia|reflexivity]).
  all: try (apply D'; [reflexivity|unfold weight; cbn [storey steps a_step]; lia|reflexivity]).
  - unfold Meter.fail, plainly, ParserState.fail, never. cbn [steps taken a_step]. unfold weight. cbn [storey]. lia.
  - apply never_bind. unfold mwp at 1. unfold Meter.on_symbol at 1. rewrite S. at_end K.
    change (never F_atom_expr c ((do right_node <- run_metered U n F_atom;
      do lst <- while_ n (atom_expr_step (run_metered U n)) [];
      match lst with
      | [] => ret right_node
      | _ :: _ => do e <- position; ret (AtomExpr (lexer_get_position (ps_lexer s)) e None right_node lst)
      end) s (a_step c))).
    apply never_bind; apply D; [reflexivity|unfold weight; cbn [storey steps a_step]; lia|reflexivity].
Qed.

(** ** The whole parser *)
Section Whole.
Variables (U : unicode) (text : str).
(** As many tokens have been taken as the tokenizer has given so far, none but the last of them the end of the text. *)
Definition standing (s : parser) (c : meter) : Prop := exists evs, seen U text evs s /\ Forall going evs /\ taken c = S (length evs).
Definition most : nat := length (scanned U text).

Lemma scanned_so_far : forall evs l, history U text evs l -> Forall going evs ->
  exists N, length evs + N = 3 * length text + 4 /\ scanned U text = evs ++ lex_all U N l.
Proof.
  intros evs l H. induction H as [|evs l t l' H IH G|evs l e l' H IH G]; intros F.
  - exists (3 * length text + 4). split; reflexivity.
  - apply Forall_app in F. destruct F as (F & FT). inversion FT as [|? ? K _]; subst. cbn [going] in K.
    destruct (IH F) as (N & L & E). pose proof (history_lex U text evs l N H F L) as Z. rewrite G in Z. destruct Z as (Z & B).
    exists (pred N). split; [exact (B K)|]. rewrite E, Z, <- app_assoc. cbn [app].
    destruct (kind_eqb (tk_kind t) T_EOF) eqn:Q; [apply kind_eqb_eq in Q; contradiction|reflexivity].
  - apply Forall_app in F. destruct F as (_ & FT). inversion FT as [|? ? K _]; subst. contradiction K.
Qed.
Lemma standing_most : forall s c, standing s c -> taken c <= most.
Proof.
  intros s c (evs & H & F & ->). unfold seen in H.
  assert (P : exists l, history U text evs l /\ get_symbol U l <> LFuel).
  { inversion H as [Z|evs0 l0 t0 l1 H0 G0 Z|evs0 l0 e0 l1 H0 G0 Z]; subst.
    - destruct evs; discriminate.
    - apply app_inj_tail in Z. destruct Z as (-> & Z). exists l0. split; [exact H0|]. rewrite G0. discriminate.
    - apply app_inj_tail in Z. destruct Z as (-> & Z). exists l0. split; [exact H0|]. rewrite G0. discriminate. }
  destruct P as (l & P & NF). destruct (scanned_so_far evs l P F) as (N & L & E). unfold most. rewrite E, app_length.
  pose proof (history_lex U text evs l N P F L) as Z. destruct (get_symbol U l) as [t l1|e l1|]; [destruct Z as (-> & _)|rewrite Z|contradiction];
    cbn [length]; lia.
Qed.
Lemma standing_core : forall s c s' c', standing s c -> ps_lexer s' = ps_lexer s -> ps_symbol s' = ps_symbol s -> taken c' = taken c -> standing s' c'.
Proof. intros s c s' c' (evs & H & F & T) E1 E2 E3. exists evs. unfold seen in *. rewrite E1, E2, E3. auto. Qed.
Lemma standing_advance : forall s c s', standing s c -> solid s -> ParserState.advance U s = Ok tt s' -> standing s' (a_token c).
Proof.
  intros s c s' (evs & H & F & T) (t & S & K) A. exists (evs ++ [inl t]). split; [|split].
  - eapply advance_history; [|exact A]. unfold seen in H. rewrite S in H. exact H.
  - apply Forall_app. split; [exact F|]. constructor; [exact K|constructor].
  - cbn [taken a_token]. rewrite T, app_length. cbn [length]. lia.
Qed.
Lemma standing_eof : forall s c t s', standing s c -> ps_symbol s = inl t -> tk_kind t = T_EOF -> ParserState.advance U s = Ok tt s' ->
  exists t', ps_symbol s' = inl t' /\ tk_kind t' = T_EOF.
Proof. intros s c t s' (evs & H & F & T) S K A. eapply seen_eof; eauto. Qed.

Lemma run_cost : forall n f s c, called f s -> standing s c ->
  mwp most (failing f c) (run_metered U n f) s c (fun _ s' c' => ending standing f c s' c').
Proof.
  induction n as [|n IH]; intros f s c Y S; [exact I|]. unfold mwp. cbn [run_metered].
  apply (body_cost U most standing standing_most standing_core standing_advance standing_eof n (run_metered U n)); auto.
  - intros s0 c0 t H K. rewrite run_same. eapply run_import; eauto.
  - intros s0 c0 t H K. exact (end_never U n F_test s0 c0 t eq_refl H K).
Qed.

Lemma steps_bound : forall n f o c, input_fn f = true -> run_metered U n f (fresh text) start_meter = (o, c) -> o <> Fuel ->
  steps c <= 62 * taken c + 60 /\ taken c <= S most /\ (forall x s', o = Ok x s' -> standing s' c).
Proof.
  intros n f o c IN H NF. destruct n as [|n]; [injection H as <- _; contradiction NF; reflexivity|]. cbn [run_metered] in H.
  assert (ST : exists s1, ParserState.advance U (fresh text) = Ok tt s1 /\ standing s1 (a_token start_meter)).
  { destruct (advance_left U text (fresh text)) as (s1 & A & _); [exact (on_text_okay U text _ (fresh_on_text U text))|]. exists s1. split; [exact A|].
    exists []. split; [|split; [constructor|reflexivity]]. eapply advance_history; [|exact A]. constructor. }
  destruct ST as (s1 & A & S1).
  pose proof (input_cost U most standing standing_most standing_core standing_advance n (run_metered U n) (run_cost n)) as Z.
  specialize (Z f (fresh text) s1 start_meter IN A S1).
  unfold mwp in Z. rewrite H in Z.
  assert (B : failing f start_meter c -> steps c <= 62 * taken c + 60).
  { unfold failing, start_meter, weight. cbn [steps taken]. intros X. destruct f; try discriminate IN; cbn [storey] in X; lia. }
  destruct o as [x s'|e| |].
  - destruct Z as (Z1 & Z2). pose proof (standing_most _ _ Z1). split; [auto|]. split; [lia|]. intros ? ? E. injection E as _ <-. exact Z1.
  - destruct Z as (Z1 & Z2). split; [auto|]. split; [lia|]. discriminate.
  - destruct Z as (Z1 & Z2). split; [auto|]. split; [lia|]. discriminate.
  - contradiction NF; reflexivity.
Qed.
Lemma taken_once : forall n f x s' c, f = F_file_input \/ f = F_eval_input \/ f = F_func_type_input ->
  run_metered U n f (fresh text) start_meter = (Ok x s', c) -> taken c = most.
Proof.
  intros n f x s' c F H. assert (IN : input_fn f = true) by (destruct F as [->|[->| ->]]; reflexivity).
  destruct (steps_bound n f _ c IN H ltac:(discriminate)) as (_ & _ & Z). destruct (Z x s' eq_refl) as (evs & SE & G & T).
  pose proof (run_same U n f (fresh text) start_meter) as E. rewrite H in E. cbn [fst] in E. symmetry in E.
  assert (SO : sort_of f = Whole) by (destruct F as [->|[->| ->]]; reflexivity).
  apply run_sound in E. unfold sound in E. rewrite SO in E. destruct E as (s1 & l & A & R & I).
  assert (V : exists t, ps_symbol s' = inl t /\ tk_kind t = T_EOF).
  { clear - F I. remember (view s') as v eqn:EV.
    assert (W : exists p t, v = (p, Some t) /\ tk_kind t = T_EOF) by
      (destruct F as [->|[->| ->]]; inversion I; subst; eauto).
    destruct W as (p & t & -> & K). exists t. unfold view in EV. split; [destruct (ps_symbol s'); congruence|exact K]. }
  destruct V as (t & SY & K). unfold seen in SE. rewrite SY in SE.
  assert (W : exists ts, evs = map inl ts /\ Forall (fun u => tk_kind u <> T_EOF) ts).
  { clear - G. induction G as [|e evs GE G IH]; [exists []; split; constructor|]. destruct IH as (ts & -> & F). destruct e as [u|]; [|contradiction GE].
    exists (u :: ts). split; [reflexivity|]. constructor; auto. }
  destruct W as (ts & -> & FT). unfold most. rewrite (history_scanned U text ts t _ SE K FT), T, !map_length, app_length. cbn [length]. lia.
Qed.
End Whole.
Lemma scanned_length : forall U text, length (scanned U text) <= 3 * length text + 4.
Proof.
  intros U text. unfold scanned. generalize (lexer_new text) as l. generalize (3 * length text + 4) as n.
  induction n as [|n IH]; intros l; cbn [lex_all length]; [lia|].
  destruct (get_symbol U l) as [t l'|e l'|]; cbn [length]; try lia. destruct (kind_eqb _ _); cbn [length]; [lia|]. specialize (IH l'). lia.
Qed.
Lemma steps_linear : forall U text n f o c, input_fn f = true -> run_metered U n f (fresh text) start_meter = (o, c) -> o <> Fuel ->
  steps c <= 62 * taken c + 60 /\ taken c <= length (scanned U text) + 1.
Proof. intros U text n f o c IN H NF. destruct (steps_bound U text n f o c IN H NF) as (A & B & _). unfold most in B. lia. Qed.
Lemma steps_by_length : forall U text n f o c, input_fn f = true -> run_metered U n f (fresh text) start_meter = (o, c) -> o <> Fuel ->
  steps c <= 186 * length text + 370.
Proof.
  intros U text n f o c IN H NF. destruct (steps_linear U text n f o c IN H NF) as (A & B). pose proof (scanned_length U text). lia.
Qed.
