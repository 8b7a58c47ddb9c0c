(** The depth of the recursion is bounded by the nesting of the tokens (C65). *)
From Coq Require Import List Arith ZArith Bool Lia.
From Verif Require Import Chars SourceBuffer Token Tokenizer LexSpec LexBasics Node ParserState Expressions Statements
  Blocks Parser WellFormed CallLemmas CallTheorem GrammarSpec ParseBasics SoundBasics Soundness FirstSets
  Monotone TermBasics TermExpr TermStmt TermStable DepthSpec.
Import ListNotations.
Local Open Scope nat_scope.

Lemma deep_sound : forall U n d, good U (run_deep U n d).
Proof. intros U n. induction d as [|d IH]; [intros f s x s' H; discriminate H|]. cbn [run_deep]. apply body_sound. exact IH. Qed.

(** The functions that may read a line break, whose own calls stay in one block. *)
Definition linewise (f : fn) : bool := match f with F_simple_stmt => true | _ => match sort_of f with Plain => false | _ => true end end.

(** The place behind the tokens, unless one of them is the colon of a slice. *)
Fixpoint walk (p : place) (ks : list kind) : option place :=
  match ks with [] => Some p | k :: ks => if slice_colon p k then None else walk (next_place p k) ks end.
Lemma walk_after : forall ks p, sliced p ks = false -> walk p ks = Some (place_after ks p).
Proof.
  induction ks as [|k ks IH]; intros p H; [reflexivity|]. cbn [sliced walk] in *. apply orb_false_elim in H. destruct H as (-> & H).
  exact (IH _ H).
Qed.

(** The functions that read as many lambdas as colons of lambdas. *)
Definition balanced (f : fn) : bool :=
  match f with
  | F_atom | F_trailer | F_vfp_def | F_atom_expr | F_power | F_factor | F_term | F_arith | F_shift | F_and_expr | F_xor_expr | F_expr
  | F_star_expr | F_comparison | F_not_test | F_and_test | F_or_test | F_lambda_def _ | F_no_cond_test | F_test
  | F_sync_comp_for | F_comp_if | F_comp_for | F_comp_iter | F_named_expression | F_subscript | F_testlist | F_argument
  | F_var_args_assignments | F_dictorset_maker | F_testlist_comp | F_subscript_list | F_arglist | F_exprlist | F_testlist_star_expr
  | F_var_args_list | F_yield_expr | F_dotted_name | F_import_as_name | F_dotted_as_name | F_decorator => true
  | _ => false
  end.

Definition sees_kind (q : kind -> bool) (s : parser) : bool := match ps_symbol s with inl t => q (tk_kind t) | inr _ => false end.
(** How far a function is above those that call others behind a bracket, indent or nesting word only. *)
Definition level (f : fn) (p : place) (s : parser) : nat :=
  match f with
  | F_atom | F_trailer | F_vfp_def => 0
  | F_atom_expr => 1
  | F_power => 2
  | F_factor => 3 + (if sees_kind sign s then (if sign (last p) then 1 else 2) else 0)
  | F_term => 6 | F_arith => 7 | F_shift => 8 | F_and_expr => 9 | F_xor_expr => 10 | F_expr => 11
  | F_star_expr => 12 | F_comparison => 12
  | F_not_test => 13 + (if sees_kind negation s then (if negation (last p) then 1 else 2) else 0)
  | F_and_test => 16 | F_or_test => 17
  | F_lambda_def _ => 0
  | F_no_cond_test | F_test => 18
  | F_sync_comp_for | F_comp_if => 0
  | F_comp_for => 1
  | F_comp_iter => 2
  | F_named_expression | F_subscript | F_testlist | F_argument | F_var_args_assignments | F_tfp_def => 19
  | F_dictorset_maker => 19
  | F_testlist_comp | F_subscript_list | F_arglist | F_exprlist | F_testlist_star_expr | F_type_list | F_with_item
  | F_var_args_list | F_tfp_def_assign | F_func_type => 20
  | F_typed_args_list | F_parameters | F_del_stmt | F_return_stmt | F_raise_stmt | F_assert_stmt | F_except_clause
  | F_decorator | F_yield_expr => 21
  | F_yield_stmt | F_ann_assign _ _ | F_decorators => 22
  | F_flow_stmt | F_expr_stmt => 23
  | F_dotted_name | F_import_as_name => 0
  | F_dotted_as_name | F_import_as_names => 1
  | F_dotted_as_names | F_import_from => 2
  | F_import_name => 3
  | F_import_stmt => 4
  | F_small_stmt => 24 | F_simple_stmt => 25
  | F_suite | F_func_body_suite => 26
  | F_elif_stmt | F_else_stmt | F_finally_stmt | F_except_stmt => 27
  | F_if_stmt | F_while_stmt | F_for_stmt | F_try_stmt | F_with_stmt | F_class_def | F_func_def => 28
  | F_async_func_def => 29
  | F_async_stmt | F_decorated => 30
  | F_compound_stmt => 31
  | F_stmt => 32
  | F_eval_input | F_file_input | F_single_input | F_func_type_input => 33
  | _ => 0
  end.
Lemma level_small : forall f p s, level f p s <= 33.
Proof. intros f p s. destruct f; cbn [level]; repeat destruct (sees_kind _ _); repeat destruct (sign _); repeat destruct (negation _); lia. Qed.

(** What a function is called on. *)
Definition ready (f : fn) (p : place) (s : parser) : Prop :=
  match f with
  | F_subscript | F_subscript_list => slice_colon p PyColon = true
  | F_dictorset_maker => pending p = 0
  | F_lambda_def _ => exists t, ps_symbol s = inl t /\ tk_kind t = PyLambda
  | F_eval_input | F_file_input | F_single_input | F_func_type_input => False
  | _ => True
  end.

Section Depth.
Variables (U : unicode) (text : str) (m : nat).

(** Whatever is read from here stays within height [m]. *)
Definition fit (p : place) (s : parser) : Prop :=
  forall l s', reads U s l s' -> exists p', walk p (map (fun q => tk_kind (snd q)) l) = Some p' /\ height p' <= m.
Lemma fit_height : forall p s, fit p s -> height p <= m.
Proof. intros p s H. destruct (H [] s (reads_refl U s)) as (p' & E & L). injection E as <-. exact L. Qed.
Lemma fit_advance : forall p s t s1, fit p s -> ps_symbol s = inl t -> advance U s = Ok tt s1 ->
  slice_colon p (tk_kind t) = false /\ fit (next_place p (tk_kind t)) s1.
Proof.
  intros p s t s1 F S A. split.
  - destruct (F _ _ (reads_cons U s t s1 [] s1 S A (reads_refl U s1))) as (p' & E & _). cbn [map walk snd] in E.
    destruct (slice_colon p (tk_kind t)); [discriminate E|reflexivity].
  - intros l s' R. destruct (F _ _ (reads_cons U s t s1 l s' S A R)) as (p' & E & L). cbn [map walk snd] in E.
    destruct (slice_colon p (tk_kind t)); [discriminate E|]. eauto.
Qed.
Lemma fit_core : forall p s s1, fit p s -> reads U s [] s1 -> fit p s1.
Proof. intros p s s1 F R l s' R'. apply (F l s'). exact (reads_app U _ _ _ R _ _ R'). Qed.

(** The depth needed. *)
Definition room (f : fn) (p : place) : nat := m - (if linewise f then blocks p + height_around (around p) else height p).
Definition depth (f : fn) (p : place) (s : parser) : nat := 40 * room f p + level f p s + 1.

Definition done (f : fn) (p : place) (s' : parser) : Prop :=
  exists c l q, fit {| blocks := blocks p; words := c; pending := l; around := around p; last := q |} s' /\
    (linewise f = false -> words p <= c) /\ (balanced f = true -> l = pending p).

Variables (n n' d : nat) (rec rec' : fn -> M node).
Hypothesis NN : n <= n'.
Hypothesis G : good U rec.
Hypothesis R : forall f p s, ready f p s -> okay text s -> left s < n -> fit p s -> depth f p s <= d ->
  rwp (rec f) (rec' f) s (fun _ s' => done f p s').
Hypothesis RI : forall s t, ps_symbol s = inl t -> tk_kind t = PyImport ->
  rec F_import_stmt s = Fuel /\ rec' F_import_stmt s = Fuel.

Lemma rwp_rec : forall f p s (Q : node -> parser -> Prop), ready f p s -> okay text s -> left s < n -> fit p s -> depth f p s <= d ->
  (forall x s' c e q, okay text s' -> left s' <= left s -> (eats f = true -> left s' < left s) ->
     fit {| blocks := blocks p; words := c; pending := e; around := around p; last := q |} s' -> (linewise f = false -> words p <= c) ->
     (balanced f = true -> e = pending p) -> Q x s') ->
  rwp (rec f) (rec' f) s Q.
Proof.
  intros f p s Q Y O L F N H. destruct (R f p s Y O L F N) as (E & P). split; [exact E|]. intros x s' K.
  destruct (P x s' K) as (c & e & q & F' & W & W'). apply G in K. destruct (sound_post _ _ _ _ _ _ O K) as (A & B & C). eapply H; eauto.
Qed.

Ltac token_kinds_ T := match type of T with
  | is ?k ?t = true => apply is_true in T
  | is_one_of _ ?t = true => unfold is_one_of in T; cbn [existsb] in T; token_kinds_ T
  | (_ || _)%bool = true => apply orb_prop in T; destruct T as [T|T]; token_kinds_ T
  | false = true => discriminate T
  end.
Ltac known s := match goal with
  | S : ps_symbol s = inl ?t, K : tk_kind ?t = _ |- _ => idtac
  | S : ps_symbol s = inl ?t, T : is _ ?t = true |- _ => pose proof (is_true _ _ T)
  | S : ps_symbol s = inl ?t, T : (_ && is _ ?t)%bool = true |- _ => apply andb_prop in T; let T1 := fresh "T" in destruct T as (_ & T1); pose proof (is_true _ _ T1)
  | S : ps_symbol s = inl ?t, T : is_one_of _ ?t = true |- _ => let K := fresh "K" in pose proof T as K; token_kinds_ K
  end.
Ltac walked := match goal with
  | F : fit ?p ?s, S : ps_symbol ?s = inl ?t, A : advance U ?s = Ok tt ?s1, K : tk_kind ?t = _ |- _ =>
      let NC := fresh "NC" in let F1 := fresh "F" in let HT := fresh "HT" in
      destruct (fit_advance p s t s1 F S A) as (NC & F1); rewrite K in NC, F1; clear A; cbn [slice_colon around pending] in NC;
      cbn [next_place blocks words pending around last pred] in F1; unfold deepens in F1;
      cbn [nesting_word sign negation orb andb] in F1; rewrite ?orb_false_r in F1;
      try (match type of F1 with context [if ?b then _ else _] => destruct b eqn:? end);
      try (match type of NC with ?x = false => match goal with Y : x = true |- _ => exfalso; rewrite Y in NC; discriminate NC end end);
      pose proof (fit_height _ _ F1) as HT
  end.
Ltac choices := repeat match goal with
  | S : ps_symbol ?s = inl ?t, N : context [match ps_symbol ?s with _ => _ end] |- _ => rewrite S in N
  | K : tk_kind ?t = _, N : context [sign (tk_kind ?t)] |- _ => rewrite K in N
  | K : ?b = true, N : context [if ?b then _ else _] |- _ => rewrite K in N
  | K : ?b = false, N : context [if ?b then _ else _] |- _ => rewrite K in N
  | K : tk_kind ?t = _, N : context [negation (tk_kind ?t)] |- _ => rewrite K in N
  end.
Ltac suffices_ := unfold depth, room, height in *; cbn [linewise sort_of level blocks words pending around last height_around] in *;
  unfold sees_kind in *; choices; cbn [sign negation] in *;
  repeat match goal with
  | |- context [if ?b then _ else _] => destruct b
  | |- context [match ?b with inl _ => _ | inr _ => _ end] => destruct b
  | N : context [if ?b then _ else _] |- _ => destruct b
  end; lia.
Definition weak : Prop := True.
Ltac step1 :=
  match goal with
  | |- rwp (bind _ _) (bind _ _) _ _ => apply rwp_bind
  | |- rwp (ret _) _ _ _ => apply rwp_same, wp_ret
  | |- rwp (fail _ _) _ _ _ => apply rwp_same; exact I
  | |- rwp (fail_here _) _ _ _ => apply rwp_same; exact I
  | |- rwp panic _ _ _ => apply rwp_same; exact I
  | |- rwp position _ _ _ => apply rwp_same, wp_position
  | |- rwp get_except _ _ _ => apply rwp_same, wp_get
  | F : fit ?p ?s |- rwp (set_except _) _ ?s _ => apply rwp_same, (wp_set U text); [assumption|];
      let Z := fresh in intros ? ? ? Z; apply (fit_core p s _ F) in Z
  | |- rwp (advance U) _ ?s _ => apply rwp_same, (wp_advance U text); [assumption|intros ? ? ? ? ?; less; known s; walked]
  | |- rwp (expect _ _ _ _ _) _ _ _ => unfold expect
  | |- rwp (on_symbol _ _) _ _ _ => apply rwp_on; [intros ? ?|intros _]
  | F : fit ?p ?s |- rwp (rec ?f) _ ?s _ =>
      apply (rwp_rec f p s); [first [exact I|assumption|reflexivity|eexists; split; [eassumption|apply is_true; assumption]]|assumption|lia|exact F|suffices_|
        let EQ := fresh "EQ" in let WL := fresh "WL" in let BL := fresh "BL" in let F1 := fresh "F" in intros ? ? ? ? ? ? ? EQ F1 WL BL; first [specialize (EQ eq_refl) | clear EQ];
        cbn [blocks around words pending] in F1; first [specialize (BL eq_refl); cbn [pending] in BL; subst | clear BL]; first [specialize (WL eq_refl); cbn [words] in WL | clear WL]; let HT := fresh "HT" in pose proof (fit_height _ _ F1) as HT]
  | WK : weak, F : fit ?p ?s |- rwp (while_ n ?step ?a) (while_ n' ?step' ?a) ?s ?Q =>
      apply (rwp_while _ step step' (fun s1 => okay text s1 /\ left s1 <= left s /\
         exists c e9 q9, fit {| blocks := blocks p; words := c; pending := e9; around := around p; last := q9 |} s1 /\ 0 <= c) Q);
      [ cbn [blocks words pending around]; let F1 := fresh "F" in intros ? ? (? & ? & ? & ? & ? & F1 & ?); let HT := fresh "HT" in pose proof (fit_height _ _ F1) as HT
      | lia | exact NN | split; [assumption|split; [lia|exists (words p), (pending p), (last p); split; [exact F|lia]]] ]
  | F : fit ?p ?s |- rwp (while_ n ?step ?a) (while_ n' ?step' ?a) ?s ?Q =>
      apply (rwp_while _ step step' (fun s1 => okay text s1 /\ left s1 <= left s /\
         exists c q9, fit {| blocks := blocks p; words := c; pending := pending p; around := around p; last := q9 |} s1 /\ words p <= c) Q);
      [ cbn [blocks words pending around]; let F1 := fresh "F" in intros ? ? (? & ? & ? & ? & F1 & ?); let HT := fresh "HT" in pose proof (fit_height _ _ F1) as HT
      | lia | exact NN | split; [assumption|split; [lia|exists (words p), (last p); split; [exact F|lia]]] ]
  | |- rwp (if ?b then _ else _) _ _ _ => let H := fresh "T" in destruct b eqn:H
  | |- rwp (match ?x with _ => _ end) _ _ _ => destruct x
  | |- forall _, _ => intro
  | |- (if fst (true, _) then _ else _) => cbn [fst snd]; split; [split; [assumption|split; [lia|first [eexists _, _; split; [eassumption|lia]|eexists _, _, _; split; [eassumption|lia]]]]|lia]
  | |- (if fst (false, _) then _ else _) => cbn [fst snd]
  | |- done _ _ _ => unfold done; cbn [blocks words pending around linewise sort_of balanced]; eexists _, _, _; split; [eassumption|split; [lia || discriminate|reflexivity || discriminate]]
  | |- True => exact I
  | |- rwp ?m _ _ _ => lazymatch m with advance _ => fail | while_ _ _ _ => fail | _ => idtac end;
      let rec head t := lazymatch t with ?f _ => head f | _ => t end in
      let h := head m in unfold h
  end; cbv beta iota.

Lemma body_plain : forall f p s, linewise f = false -> ready f p s -> okay text s -> left s < n -> fit p s -> depth f p s <= S d ->
  rwp (body U n rec f) (body U n' rec' f) s (fun _ s' => done f p s').
Proof.
  intros f p s LW Y O L F N. destruct p as [b c e tl q]. destruct f; try discriminate LW; clear LW; cbn [body]; cbn [ready] in Y.
  all: try (destruct Y as (t0 & S0 & K0)); try (cbn [slice_colon around pending] in Y).
  all: try (destruct e; [|discriminate Y]); try (cbn in Y; subst e).
  all: repeat step1.
  - destruct (RI s t) as (A & B); auto; [apply is_true; assumption|]. unfold rwp. rewrite A, B. split; [reflexivity|discriminate].
Qed.

Lemma body_line : forall f p s, linewise f = true -> sort_of f <> Whole -> okay text s -> left s < n -> fit p s -> depth f p s <= S d ->
  rwp (body U n rec f) (body U n' rec' f) s (fun _ s' => done f p s').
Proof.
  intros f p s LW NW O L F N. destruct p as [b c e tl q]. destruct f; try discriminate LW; try (contradiction NW; reflexivity); clear LW NW; cbn [body].
  all: assert (WK : weak) by exact I.
  all: repeat step1.
Qed.

(** The input functions, which read the first token themselves. *)
Lemma body_input : forall f p s s1, sort_of f = Whole -> okay text s -> left s < n -> advance U s = Ok tt s1 -> fit p s1 ->
  40 * (m - (blocks p + height_around (around p))) + 33 <= d ->
  rwp (body U n rec f) (body U n' rec' f) s (fun _ _ => True).
Proof.
  intros f p s s1 SO O L A F N. destruct p as [b c e tl q]. destruct f; try discriminate SO; clear SO; cbn [body].
  all: assert (WK : weak) by exact I.
  all: unfold p_file_input, p_single_input, p_eval_input, p_func_type_input; apply rwp_bind;
    apply rwp_same, (wp_advance U text); [assumption|]; intros s1' O1 L1 _ A1; rewrite A in A1; injection A1 as <-; clear A.
  all: pose proof (fit_height _ _ F); repeat step1.
Qed.
End Depth.

Lemma deep_import : forall U n d s t, ps_symbol s = inl t -> tk_kind t = PyImport -> run_deep U n d F_import_stmt s = Fuel.
Proof.
  intros U n d s t S K. induction d as [|d IH]; [reflexivity|].
  cbn [run_deep body]. unfold p_import_stmt. rewrite bind_position. unfold on_symbol. rewrite S.
  rewrite (is_eq PyImport _ t K). exact IH.
Qed.

Lemma deep_run : forall U text m n d N f p s, n + d <= N -> ready f p s -> okay text s -> left s < n -> fit U m p s -> depth m f p s <= d ->
  rwp (run_deep U n d f) (run U N f) s (fun _ s' => done U m f p s').
Proof.
  intros U text m n d. induction d as [|d IH]; intros N f p s NN Y O L F D; [unfold depth in D; lia|].
  destruct N as [|N]; [lia|]. cbn [run_deep run].
  assert (G : good U (run_deep U n d)) by apply deep_sound.
  assert (R : forall f p s, ready f p s -> okay text s -> left s < n -> fit U m p s -> depth m f p s <= d ->
    rwp (run_deep U n d f) (run U N f) s (fun _ s' => done U m f p s')) by (intros; apply IH; auto; lia).
  assert (RI : forall s t, ps_symbol s = inl t -> tk_kind t = PyImport ->
    run_deep U n d F_import_stmt s = Fuel /\ run U N F_import_stmt s = Fuel)
    by (intros; split; [eapply deep_import; eauto|eapply run_import; eauto]).
  destruct (linewise f) eqn:LW.
  - apply (body_line U text m n N d (run_deep U n d) (run U N)); auto; [lia|]. destruct f; cbn in *; (discriminate || contradiction).
  - apply (body_plain U text m n N d (run_deep U n d) (run U N)); auto; lia.
Qed.

Lemma deep_input : forall U text m n d N f p s s1, n + d <= N -> sort_of f = Whole -> okay text s -> left s < n ->
  advance U s = Ok tt s1 -> fit U m p s1 -> 40 * (m - (blocks p + height_around (around p))) + 34 <= d ->
  run_deep U n d f s = run U N f s.
Proof.
  intros U text m n d N f p s s1 NN SO O L A F D. destruct d as [|d]; [lia|]. destruct N as [|N]; [lia|]. cbn [run_deep run].
  apply (body_input U text m n N d (run_deep U n d) (run U N) ltac:(lia) (deep_sound U n d)
    ltac:(intros; eapply deep_run; eauto; lia)
    f p s s1 SO O L A F ltac:(lia)).
Qed.
