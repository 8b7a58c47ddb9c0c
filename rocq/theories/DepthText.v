(** The depth of the recursion: whole texts, and how deep it gets (C65). *)
From Coq Require Import List Arith ZArith Bool Lia.
From Verif Require Import Chars SourceBuffer Token Tokenizer LexSpec LexBasics TokenSpec Node ParserState Expressions Statements
  Blocks Parser WellFormed CallLemmas CallTheorem HistoryProofs GrammarSpec ParseBasics ParseSpec SoundBasics Soundness FirstSets
  Monotone TermBasics TermExpr TermStmt TermStable ParseCorollaries EndProofs NewlineProofs ExprSpec LayoutSpec SequenceSpec PrintProofs CodedInputs
  DepthSpec DepthProofs DepthAmount.
Import ListNotations.
Local Open Scope nat_scope.

(** ** Bounds for texts *)
Lemma fresh_left : forall (U : unicode) text, left (fresh text) <= 6 * length text + 7.
Proof.
  intros U text. pose proof (on_text_effort U text _ (fresh_on_text U text)). unfold left. destruct (solidb _); lia.
Qed.
Lemma reads_from_start : forall U text s1 l s', advance U (fresh text) = Ok tt s1 -> reads U s1 l s' ->
  exists l0, history U text (map inl (map snd l)) l0.
Proof.
  intros U text s1 l s' A R.
  assert (H : seen U text [] s1) by (exact (advance_history U text [] (fresh text) s1 (H_start U text) A)).
  pose proof (reads_history U text _ _ _ R [] H) as H1. cbn [app] in H1. unfold seen in H1.
  eapply history_shorter; [exact H1|reflexivity].
Qed.
Lemma input_whole : forall f, input_fn f = true -> sort_of f = Whole.
Proof. intros f I. destruct f; try discriminate I; reflexivity. Qed.
Lemma fresh_advance : forall U text, exists s1, advance U (fresh text) = Ok tt s1.
Proof.
  intros U text. pose proof (history_call U text [] (lexer_new text) (H_start U text)) as C. unfold advance.
  change (ps_lexer (fresh text)) with (lexer_new text). destruct (get_symbol U (lexer_new text)); [eexists; reflexivity..|destruct C].
Qed.

Theorem depth_nesting : forall U text m f n d N, input_fn f = true -> without_slices U text -> nested_within U text m ->
  6 * length text + 8 <= n -> 40 * m + 34 <= d -> 192 * length text + 287 <= N ->
  run_deep U n d f (fresh text) = run U N f (fresh text).
Proof.
  intros U text m f n d N I WS NW Ln Ld LN.
  destruct (fresh_advance U text) as (s1 & A).
  pose proof (on_text_okay U text _ (fresh_on_text U text)) as O.
  rewrite <- (run_stable U text N (Nat.max N (n + d)) f (fresh text) O); [|pose proof (on_text_need U text f _ (fresh_on_text U text)); lia|lia].
  pose proof (fresh_left U text).
  eapply (deep_input U text m n d _ f start_place (fresh text) s1); auto; [lia|apply input_whole; exact I|lia| |cbn; lia].
  intros l s' R. destruct (reads_from_start U text s1 l s' A R) as (l0 & H0).
  exists (place_after (map (fun q => tk_kind (snd q)) l) start_place).
  rewrite <- (map_map snd tk_kind). split; [apply walk_after; eapply WS; eauto|eapply NW; eauto].
Qed.

Theorem depth_amount : forall U text m f n d N, input_fn f = true -> amounts_to U text m ->
  6 * length text + 8 <= n -> 40 * m + 34 <= d -> 192 * length text + 287 <= N ->
  run_deep U n d f (fresh text) = run U N f (fresh text).
Proof.
  intros U text m f n d N I AM Ln Ld LN.
  destruct (fresh_advance U text) as (s1 & A).
  pose proof (on_text_okay U text _ (fresh_on_text U text)) as O.
  rewrite <- (run_stable U text N (Nat.max N (n + d)) f (fresh text) O); [|pose proof (on_text_need U text f _ (fresh_on_text U text)); lia|lia].
  pose proof (fresh_left U text).
  eapply (amount_input U text m n d _ f 0 T_Newline (fresh text) s1); auto; [lia|apply input_whole; exact I|lia| |lia].
  intros l s' R. destruct (reads_from_start U text s1 l s' A R) as (l0 & H0).
  rewrite <- (map_map snd tk_kind). cbn [Nat.add]. eapply AM; eauto.
Qed.

(** ** Nesting computed from the tokens *)
Lemma history_after_eof : forall U text ts t r l, history U text (map inl ((ts ++ [t]) ++ r)) l -> tk_kind t = T_EOF ->
  Forall (fun u => tk_kind u = T_EOF) r.
Proof.
  intros U text ts t r. induction r as [|u r IH] using rev_ind; intros l H K; [constructor|].
  rewrite app_assoc in H. rewrite map_app in H. cbn [map] in H.
  inversion H as [Z|evs l0 t0 l1 H0 G Z|evs l0 e l1 H0 G Z].
  - destruct (map inl ((ts ++ [t]) ++ r)); discriminate Z.
  - apply app_inj_tail in Z. destruct Z as (-> & Z). injection Z as ->. specialize (IH _ H0 K). apply Forall_app. split; [exact IH|].
    constructor; [|constructor].
    assert (E : exists ts' v, (ts ++ [t]) ++ r = ts' ++ [v] /\ tk_kind v = T_EOF).
    { destruct r as [|v r _] using rev_ind; [exists ts, t; rewrite app_nil_r; auto|]. exists ((ts ++ [t]) ++ r), v. split; [apply app_assoc|].
      apply Forall_app in IH. destruct IH as (_ & IH). inversion IH; auto. }
    destruct E as (ts' & v & E & KV). rewrite E, map_app in H0. cbn [map] in H0.
    inversion H0 as [Z|evs9 l2 t2 l3 H9 G2 Z|evs9 l2 e l3 H9 G2 Z].
    + destruct (map inl ts'); discriminate Z.
    + apply app_inj_tail in Z. destruct Z as (-> & Z). injection Z as ->. subst.
      destruct (eof_absorbs U text _ _ _ _ H9 G2 KV) as (_ & G3). rewrite G in G3. injection G3 as -> _. reflexivity.
    + apply app_inj_tail in Z. destruct Z as (_ & Z). discriminate Z.
  - apply app_inj_tail in Z. destruct Z as (_ & Z). discriminate Z.
Qed.
Lemma kinds_repeat : forall r, Forall (fun u => tk_kind u = T_EOF) r -> map tk_kind r = repeat T_EOF (length r).
Proof. induction 1 as [|u r K _ IH]; [reflexivity|]. cbn [map length repeat]. rewrite K, IH. reflexivity. Qed.
Lemma history_kinds : forall U text ts0 t, scanned U text = map inl (ts0 ++ [t]) -> tk_kind t = T_EOF ->
  forall ts l, history U text (map inl ts) l -> exists i j, map tk_kind ts = firstn i (map tk_kind (ts0 ++ [t])) ++ repeat T_EOF j.
Proof.
  intros U text ts0 t S K ts l H. destruct (scanned_history _ _ _ S) as (l0 & H0).
  destruct (le_lt_dec (length ts) (length (ts0 ++ [t]))) as [L|L].
  - exists (length ts), 0. cbn [repeat]. rewrite app_nil_r.
    destruct (history_prefix _ _ _ _ H0 (length ts)) as (l1 & H1).
    destruct (history_length_det _ _ _ _ H _ _ H1) as (E & _); [rewrite firstn_length, !map_length; lia|].
    rewrite firstn_map in E. apply (f_equal (fun z => map (fun ev => match ev with inl u => tk_kind u | inr _ => T_EOF end) z)) in E.
    rewrite !map_map in E. rewrite firstn_map. exact E.
  - exists (length (ts0 ++ [t])). rewrite firstn_all2 by (rewrite map_length; lia).
    destruct (history_prefix _ _ _ _ H (length (ts0 ++ [t]))) as (l1 & H1).
    destruct (history_length_det _ _ _ _ H0 _ _ H1) as (E & _); [rewrite firstn_length, !map_length; lia|].
    rewrite firstn_map in E. assert (E' : ts0 ++ [t] = firstn (length (ts0 ++ [t])) ts).
    { assert (INJ : forall a b : list token, map (@inl token err) a = map inl b -> a = b).
      { induction a as [|x a IH]; intros [|y b] Z; try discriminate Z; [reflexivity|]. injection Z as -> Z. f_equal. auto. }
      apply INJ. exact E. }
    exists (length (skipn (length (ts0 ++ [t])) ts)).
    rewrite <- (firstn_skipn (length (ts0 ++ [t])) ts) at 1. rewrite <- E', map_app. f_equal. apply kinds_repeat.
    apply (history_after_eof U text ts0 t _ l); [|exact K].
    replace ((ts0 ++ [t]) ++ skipn (length (ts0 ++ [t])) ts) with ts; [exact H|].
    rewrite <- (firstn_skipn (length (ts0 ++ [t])) ts) at 1. rewrite <- E'. reflexivity.
Qed.

(** The greatest height. *)
Fixpoint tallest (p : place) (ks : list kind) : nat :=
  match ks with [] => height p | k :: ks => Nat.max (height p) (tallest (next_place p k) ks) end.
Lemma height_eofs : forall j p, height (place_after (repeat T_EOF j) p) = height p.
Proof.
  induction j as [|j IH]; intros p; [reflexivity|]. cbn [repeat]. unfold place_after in *. cbn [fold_left]. rewrite IH. reflexivity.
Qed.
Lemma tallest_prefix : forall ks p i, height (place_after (firstn i ks) p) <= tallest p ks.
Proof.
  induction ks as [|k ks IH]; intros p [|i]; cbn [firstn tallest]; unfold place_after; cbn [fold_left]; try lia.
  pose proof (IH (next_place p k) i) as H. unfold place_after in H. lia.
Qed.
Lemma sliced_app : forall a p b, sliced p (a ++ b) = (sliced p a || sliced (place_after a p) b)%bool.
Proof.
  induction a as [|k a IH]; intros p b; [reflexivity|]. cbn [app sliced]. rewrite IH, orb_assoc. reflexivity.
Qed.
Lemma sliced_eofs : forall j p, sliced p (repeat T_EOF j) = false.
Proof. induction j as [|j IH]; intros p; [reflexivity|]. cbn [repeat sliced]. rewrite IH. reflexivity. Qed.
Lemma amount_eofs : forall j k, amount k (repeat T_EOF j) = 0.
Proof. induction j as [|j IH]; intros k; [reflexivity|]. cbn [repeat amount]. rewrite IH. unfold deepens. cbn. reflexivity. Qed.
Lemma amount_prefix : forall ks k i j, amount k (firstn i ks ++ repeat T_EOF j) <= amount k ks.
Proof.
  induction ks as [|x ks IH]; intros k [|i] j; cbn [firstn app amount]; rewrite ?amount_eofs; try lia.
  specialize (IH x i j). lia.
Qed.

Theorem nesting_computed : forall U text ts t, scanned U text = map inl (ts ++ [t]) -> tk_kind t = T_EOF ->
  nested_within U text (tallest start_place (map tk_kind (ts ++ [t]))) /\
  (sliced start_place (map tk_kind (ts ++ [t])) = false -> without_slices U text) /\
  amounts_to U text (amount T_Newline (map tk_kind (ts ++ [t]))).
Proof.
  intros U text ts t S K. split; [|split].
  - intros us l H. destruct (history_kinds U text ts t S K us l H) as (i & j & ->).
    unfold place_after. rewrite fold_left_app. change (height (place_after (repeat T_EOF j) (place_after (firstn i (map tk_kind (ts ++ [t]))) start_place)) <= tallest start_place (map tk_kind (ts ++ [t]))).
    rewrite height_eofs. apply tallest_prefix.
  - intros SL us l H. destruct (history_kinds U text ts t S K us l H) as (i & j & ->). rewrite sliced_app, sliced_eofs, orb_false_r.
    rewrite <- (firstn_skipn i (map tk_kind (ts ++ [t]))) in SL. rewrite sliced_app in SL. apply orb_false_elim in SL. apply SL.
  - intros us l H. destruct (history_kinds U text ts t S K us l H) as (i & j & ->). apply amount_prefix.
Qed.

(** ** How deep it gets *)
Section Lower.
Variables (U : unicode) (n : nat).

Definition takes_kind (k : kind) (s s1 : parser) : Prop := exists t, ps_symbol s = inl t /\ tk_kind t = k /\ advance U s = Ok tt s1.

(** [k] opening parentheses. *)
Inductive parens : nat -> parser -> Prop :=
| PA_0 s : parens 0 s
| PA_S k s s1 : takes_kind PyLeftParen s s1 -> parens k s1 -> parens (S k) s.

Definition climb (f : fn) : nat :=
  match f with
  | F_atom => 1 | F_atom_expr => 2 | F_power => 3 | F_factor => 4 | F_term => 5 | F_arith => 6 | F_shift => 7 | F_and_expr => 8
  | F_xor_expr => 9 | F_expr => 10 | F_comparison => 11 | F_not_test => 12 | F_and_test => 13 | F_or_test => 14 | F_test => 15
  | F_named_expression => 16 | F_testlist_comp => 17 | _ => 0
  end.

Ltac next_call E := unfold p_atom_expr, p_power, p_factor, p_term, p_arith, p_shift, p_and_expr, p_xor_expr, p_expr, p_comparison, p_not_test,
  p_and_test, p_or_test, p_test, p_named_expression, p_testlist_comp, star_or_named, p_testlist, p_subscript_list, bind, position, on_symbol, ret;
  try match goal with S : ps_symbol ?s = inl ?t, K : tk_kind ?t = _ |- _ => rewrite S; rewrite ?(is_eq _ _ _ K) end;
  cbn [kind_eqb kind_id N.eqb Pos.eqb]; rewrite E by (cbn; lia); reflexivity.

Lemma paren_deep : forall d k f s, parens (S k) s -> 0 < climb f -> d < 17 * k + climb f -> run_deep U n d f s = Fuel.
Proof.
  induction d as [|d IH]; intros k f s P C L; [reflexivity|].
  inversion P as [|k0 s0 s1 (t & S & K & A) P1]; subst.
  assert (E : forall g, 0 < climb g -> climb g + 1 = climb f -> run_deep U n d g s = Fuel) by (intros g G1 G2; apply (IH k); auto; lia).
  destruct f; cbn [climb] in C, L; try lia; cbn [run_deep body]; try next_call E.
  - destruct k as [|k]; [lia|]. inversion P1 as [|k0 s0 s2 (t1 & S1 & K1 & A1) P2]; subst.
    assert (E1 : run_deep U n d F_testlist_comp s1 = Fuel) by (apply (IH k); [exact P1|cbn; lia|cbn [climb]; lia]).
    unfold p_atom. rewrite bind_position. unfold on_symbol at 1. rewrite S. rewrite !(is_eq _ _ _ K). cbn [kind_eqb kind_id N.eqb Pos.eqb].
    unfold bind. rewrite A. unfold on_symbol. rewrite S1. rewrite !(is_eq _ _ _ K1). cbn [kind_eqb kind_id N.eqb Pos.eqb].
    rewrite E1. reflexivity.
Qed.

(** [k] times an atom with a slice written [[:]]. *)
Inductive slices : nat -> parser -> Prop :=
| SL_0 s : slices 0 s
| SL_S k s s1 s2 s3 s4 : takes_kind PyElipsis s s1 -> takes_kind PyLeftBracket s1 s2 -> takes_kind PyColon s2 s3 ->
    takes_kind PyRightBracket s3 s4 -> slices k s4 -> slices (S k) s.
Definition climb_slice (f : fn) : nat :=
  match f with
  | F_atom_expr => 4 | F_power => 5 | F_factor => 6 | F_term => 7 | F_arith => 8 | F_shift => 9 | F_and_expr => 10
  | F_xor_expr => 11 | F_expr => 12 | F_comparison => 13 | F_not_test => 14 | F_and_test => 15 | F_or_test => 16 | F_test => 17 | _ => 0
  end.
Lemma slice_deep : forall d k s s1 s2 s3 s4, takes_kind PyElipsis s s1 -> takes_kind PyLeftBracket s1 s2 -> takes_kind PyColon s2 s3 ->
  takes_kind PyRightBracket s3 s4 -> slices k s4 ->
  (d < 17 * k + 1 -> run_deep U n d F_subscript s2 = Fuel) /\ (d < 17 * k + 2 -> run_deep U n d F_subscript_list s2 = Fuel) /\
  (d < 17 * k + 3 -> run_deep U n d F_trailer s1 = Fuel) /\
  (forall f, 0 < climb_slice f -> d < 17 * k + climb_slice f -> run_deep U n d f s = Fuel).
Proof.
  induction d as [|d IH]; intros k s s1 s2 s3 s4 T1 T2 T3 T4 SL; [repeat split; reflexivity|].
  destruct (IH k s s1 s2 s3 s4 T1 T2 T3 T4 SL) as (I1 & I2 & I3 & I4).
  destruct T1 as (t1 & S1 & K1 & A1), T2 as (t2 & S2 & K2 & A2), T3 as (t3 & S3 & K3 & A3), T4 as (t4 & S4 & K4 & A4).
  split; [|split; [|split]].
  - intros L. destruct k as [|k]; [lia|]. inversion SL as [|k0 s0 r1 r2 r3 r4 T1 T2 T3 T4 SL1]; subst.
    destruct (IH k s4 r1 r2 r3 r4 T1 T2 T3 T4 SL1) as (_ & _ & _ & J).
    assert (E : run_deep U n d F_test s4 = Fuel) by (apply J; cbn; lia).
    destruct T1 as (u & SU & KU & AU).
    cbn [run_deep body]. unfold p_subscript. rewrite bind_position. unfold on_symbol, bind, ret. rewrite S3. rewrite !(is_eq _ _ _ K3).
    cbn [kind_eqb kind_id N.eqb Pos.eqb]. rewrite S3. rewrite !(is_eq _ _ _ K3). cbn [kind_eqb kind_id N.eqb Pos.eqb].
    rewrite A3, S4. unfold is_one_of. cbn [existsb]. rewrite !(is_eq _ _ _ K4). cbn [kind_eqb kind_id N.eqb Pos.eqb orb].
    rewrite S4, A4, SU. rewrite !(is_eq _ _ _ KU). cbn [kind_eqb kind_id N.eqb Pos.eqb orb]. rewrite E. reflexivity.
  - intros L. assert (E : run_deep U n d F_subscript s2 = Fuel) by (apply I1; lia).
    cbn [run_deep body]. unfold p_subscript_list. rewrite bind_position. unfold bind. rewrite E. reflexivity.
  - intros L. assert (E : run_deep U n d F_subscript_list s2 = Fuel) by (apply I2; lia).
    cbn [run_deep body]. unfold p_trailer. rewrite bind_position. unfold on_symbol at 1. rewrite S2. rewrite !(is_eq _ _ _ K2).
    cbn [kind_eqb kind_id N.eqb Pos.eqb]. unfold bind. rewrite A2, E. reflexivity.
  - intros f C L.
    assert (E : forall g, 0 < climb_slice g -> climb_slice g + 1 = climb_slice f -> run_deep U n d g s = Fuel) by (intros g G1 G2; apply I4; lia).
    destruct f; cbn [climb_slice] in C, L; try lia; cbn [run_deep body]; try next_call E.
    + assert (E3 : run_deep U n d F_trailer s1 = Fuel) by (apply I3; lia).
      unfold p_atom_expr. rewrite bind_position. unfold bind, on_symbol, ret. rewrite S1. rewrite !(is_eq _ _ _ K1). cbn [kind_eqb kind_id N.eqb Pos.eqb].
      destruct d as [|d]; [reflexivity|]. cbn [run_deep body].
      unfold p_atom at 1. rewrite bind_position. unfold on_symbol at 1. rewrite S1. rewrite !(is_eq _ _ _ K1). cbn [kind_eqb kind_id N.eqb Pos.eqb].
      unfold bind at 1. rewrite A1. rewrite bind_position. unfold ret at 1.
      destruct n as [|n']; [reflexivity|]. cbn [while_]. unfold bind at 1, atom_expr_step at 1, on_symbol at 1. rewrite S2.
      unfold is_one_of. cbn [existsb]. rewrite !(is_eq _ _ _ K2). cbn [kind_eqb kind_id N.eqb Pos.eqb orb]. unfold bind at 1.
      cbn [run_deep] in E3. rewrite E3. reflexivity.
Qed.
End Lower.

Lemma follows : forall U text evs s t r l, seen U text evs s -> history U text (evs ++ inl t :: r) l ->
  ps_symbol s = inl t /\ exists s1, advance U s = Ok tt s1 /\ seen U text (evs ++ [inl t]) s1.
Proof.
  intros U text evs s t r l SE H.
  assert (E : ps_symbol s = inl t).
  { destruct (history_prefix _ _ _ _ H (length evs + 1)) as (l1 & H1).
    destruct (history_length_det _ _ _ _ SE _ _ H1) as (E & _); [rewrite firstn_length, !app_length; cbn [length]; lia|].
    rewrite firstn_app, firstn_all2 in E by lia. replace (length evs + 1 - length evs) with 1 in E by lia. cbn [firstn] in E.
    apply app_inv_head in E. injection E as E. exact E. }
  split; [exact E|]. unfold seen in SE. rewrite E in SE.
  pose proof (history_call U text _ _ SE) as C. assert (A : exists s1, advance U s = Ok tt s1).
  { unfold advance. destruct (get_symbol U (ps_lexer s)); [eexists; reflexivity..|destruct C]. }
  destruct A as (s1 & A). exists s1. split; [exact A|]. eapply advance_history; eauto.
Qed.
Lemma takes_next : forall U text evs s t r l k, seen U text evs s -> history U text (evs ++ map inl (t :: r)) l -> tk_kind t = k ->
  exists s1, takes_kind U k s s1 /\ seen U text (evs ++ [inl t]) s1 /\ history U text ((evs ++ [inl t]) ++ map inl r) l.
Proof.
  intros U text evs s t r l k SE H K. destruct (follows _ _ _ _ _ _ _ SE H) as (S & s1 & A & SE1).
  exists s1. split; [exists t; auto|]. split; [exact SE1|]. rewrite <- app_assoc. exact H.
Qed.
Lemma parens_ahead : forall U text k evs s ts r l, seen U text evs s -> history U text (evs ++ map inl ts) l ->
  map tk_kind ts = repeat PyLeftParen k ++ r -> parens U k s.
Proof.
  intros U text. induction k as [|k IH]; intros evs s ts r l SE H E; [constructor|].
  destruct ts as [|t ts]; [discriminate E|]. cbn [repeat app map] in E. injection E as K E.
  destruct (takes_next _ _ _ _ _ _ _ _ SE H K) as (s1 & T & SE1 & H1). econstructor; [exact T|]. eapply IH; eauto.
Qed.
Definition slice_row (k : nat) : list kind := concat (repeat [PyElipsis; PyLeftBracket; PyColon; PyRightBracket] k).
Lemma slices_ahead : forall U text k evs s ts r l, seen U text evs s -> history U text (evs ++ map inl ts) l ->
  map tk_kind ts = slice_row k ++ r -> slices U k s.
Proof.
  intros U text. induction k as [|k IH]; intros evs s ts r l SE H E; [constructor|].
  do 4 (destruct ts as [|?t ts]; [discriminate E|]). cbn in E. injection E as K K1 K2 K3 E.
  destruct (takes_next _ _ _ _ _ _ _ _ SE H K) as (s1 & T1 & SE1 & H1).
  destruct (takes_next _ _ _ _ _ _ _ _ SE1 H1 K1) as (s2 & T2 & SE2 & H2).
  destruct (takes_next _ _ _ _ _ _ _ _ SE2 H2 K2) as (s3 & T3 & SE3 & H3).
  destruct (takes_next _ _ _ _ _ _ _ _ SE3 H3 K3) as (s4 & T4 & SE4 & H4).
  econstructor; eauto.
Qed.

Lemma eval_deep : forall U text n d s1, advance U (fresh text) = Ok tt s1 ->
  (forall d', S (S d') = d -> run_deep U n d' F_test s1 = Fuel) -> run_deep U n d F_eval_input (fresh text) = Fuel.
Proof.
  intros U text n d s1 A H. destruct d as [|[|d]]; [reflexivity| |].
  - cbn [run_deep body]. unfold p_eval_input, bind. rewrite A. reflexivity.
  - specialize (H d eq_refl). cbn [run_deep body]. unfold p_eval_input. unfold bind at 1. rewrite A. rewrite bind_position. unfold bind at 1.
    assert (E : body U n (run_deep U n d) F_testlist s1 = Fuel)
      by (cbn [body]; unfold p_testlist; rewrite bind_position; unfold bind at 1; rewrite H; reflexivity).
    rewrite E. reflexivity.
Qed.
Theorem depth_parens : forall U text ts l k n d, history U text (map inl ts) l -> map tk_kind ts = repeat PyLeftParen (S k) ->
  d < 17 * k + 17 -> run_deep U n d F_eval_input (fresh text) = Fuel.
Proof.
  intros U text ts l k n d H E L. destruct (fresh_advance U text) as (s1 & A).
  assert (SE : seen U text [] s1) by (exact (advance_history U text [] (fresh text) s1 (H_start U text) A)).
  eapply eval_deep; [exact A|]. intros d' <-. apply (paren_deep U n d' k); [|cbn; lia|cbn [climb]; lia].
  eapply (parens_ahead U text (S k) [] s1 ts []); eauto. rewrite app_nil_r. exact E.
Qed.
Theorem depth_slices : forall U text ts l k n d, history U text (map inl ts) l -> map tk_kind ts = slice_row (S k) ->
  d < 17 * k + 19 -> run_deep U n d F_eval_input (fresh text) = Fuel.
Proof.
  intros U text ts l k n d H E L. destruct (fresh_advance U text) as (s1 & A).
  assert (SE : seen U text [] s1) by (exact (advance_history U text [] (fresh text) s1 (H_start U text) A)).
  eapply eval_deep; [exact A|]. intros d' <-.
  assert (SL : slices U (S k) s1) by (eapply (slices_ahead U text (S k) [] s1 ts []); eauto; rewrite app_nil_r; exact E).
  inversion SL as [|k0 s0 r1 r2 r3 r4 T1 T2 T3 T4 SL1]; subst.
  destruct (slice_deep U n d' k s1 r1 r2 r3 r4 T1 T2 T3 T4 SL1) as (_ & _ & _ & J). apply J; cbn; lia.
Qed.

(** ** Texts of these tokens *)
Definition no_payload (ks : list kind) : list (kind * payload) := map (fun k => (k, NoPayload)) ks.
Lemma stream_text : forall U ks, ks <> [] -> stream U Start 0 [] (no_payload (ks ++ [T_EOF])) ->
  exists text ts t, scanned U text = map inl (ts ++ [t]) /\ tk_kind t = T_EOF /\ map tk_kind ts = ks.
Proof.
  intros U ks NE ST. apply streams_exact in ST. destruct ST as (text & E). exists text.
  assert (Z : forall evs fs, map event_face evs = map Some fs -> exists ts, evs = map inl ts /\ map tk_kind ts = map fst fs).
  { induction evs as [|ev evs IH]; intros [|f fs] Z; try discriminate Z; [exists []; split; reflexivity|]. cbn [map] in Z. injection Z as Z1 Z2.
    destruct ev as [t|e]; [|discriminate Z1]. destruct (IH _ Z2) as (ts & -> & E'). injection Z1 as <-. exists (t :: ts). split; [reflexivity|].
    cbn [map]. rewrite E'. reflexivity. }
  destruct (Z _ _ E) as (us & E1 & E2). unfold no_payload in E2. rewrite map_map in E2. cbn [fst] in E2. rewrite map_id in E2.
  destruct us as [|t ts _] using rev_ind; [destruct ks; discriminate E2|]. rewrite map_app in E2. apply app_inj_tail in E2. destruct E2 as (E2 & K).
  exists ts, t. auto.
Qed.
Lemma mark_genuine : forall U w k, In (w, k) operator_table -> (forall w' k', In (w', k') operator_table -> prefix_of w' w -> length w' <= length w) ->
  ~ dot_digit w -> ~ In (hd NUL w) [SP; TAB; #"#"; NUL; CR; LF; BSL] -> genuine U k NoPayload.
Proof.
  intros U w k I L D H. exists w, (length w). split; [exact H|]. apply TA_operator; [|exact D]. split; [exact I|]. split; [|exact L].
  exists []. symmetry. apply app_nil_r.
Qed.
Lemma bracket_genuine : forall U c k, In (c, k) brackets -> genuine U k NoPayload.
Proof.
  intros U c k I. exists [c], 1. split; [|apply TA_bracket; exact I].
  cbn [hd]. repeat (destruct I as [I|I]; [injection I as <- <-; intros H; repeat (destruct H as [H|H]; [discriminate H|]); destruct H|]). destruct I.
Qed.
Ltac apart_ := let H := fresh in intros H; repeat (destruct H as [H|H]; [discriminate H|]); destruct H.
Lemma ellipsis_genuine : forall U, genuine U PyElipsis NoPayload.
Proof.
  intros U. apply (mark_genuine U $"..."); [vm_compute; tauto| |intros (d & r & E & D); injection E as <- _; discriminate D|apart_].
  intros w' k' I (r & E). apply (f_equal (@length char)) in E. rewrite app_length in E. cbn in *. lia.
Qed.
Lemma colon_genuine : forall U, genuine U PyColon NoPayload.
Proof.
  intros U. apply (mark_genuine U $":"); [vm_compute; tauto| |intros (d & r & E & D); discriminate E|apart_].
  intros w' k' I (r & E). apply (f_equal (@length char)) in E. rewrite app_length in E. cbn in *. lia.
Qed.
Lemma paren_genuine : forall U, genuine U PyLeftParen NoPayload.
Proof. intros U. apply (bracket_genuine U #"("). vm_compute. tauto. Qed.

Lemma paren_stream : forall U k s o, s = Bare \/ s = Mid -> stream U s 0 o (no_payload (repeat PyLeftParen k ++ [T_EOF])).
Proof.
  intros U. induction k as [|k IH]; intros s o B; cbn [repeat app no_payload map].
  - constructor. destruct B; subst; discriminate.
  - econstructor; [destruct B; auto|apply paren_genuine|reflexivity|apply IH; auto].
Qed.
Lemma slice_stream : forall U k s, s = Bare \/ s = Mid -> stream U s 0 [] (no_payload (slice_row k ++ [T_EOF])).
Proof.
  intros U. induction k as [|k IH]; intros s B.
  - constructor. destruct B; subst; discriminate.
  - unfold slice_row. cbn [repeat concat]. cbn [app no_payload map].
    econstructor; [destruct B; auto|apply ellipsis_genuine|reflexivity|].
    econstructor; [auto|apply (bracket_genuine U #"["); vm_compute; tauto|reflexivity|].
    econstructor; [auto|apply colon_genuine|reflexivity|].
    econstructor; [auto|apply (bracket_genuine U #"]"); vm_compute; tauto|reflexivity|]. apply IH. auto.
Qed.

Lemma tallest_parens : forall k p, words p = 0 -> tallest p (repeat PyLeftParen k ++ [T_EOF]) = height p + k.
Proof.
  induction k as [|k IH]; intros p W; cbn [repeat app tallest].
  - change (height (next_place p T_EOF)) with (height p). lia.
  - rewrite IH by reflexivity. unfold height. cbn [next_place blocks words around height_around]. lia.
Qed.
Lemma sliced_parens : forall k p, sliced p (repeat PyLeftParen k ++ [T_EOF]) = false.
Proof. induction k as [|k IH]; intros p; cbn [repeat app sliced]; [reflexivity|]. rewrite IH. reflexivity. Qed.
Lemma tallest_slices : forall k b q, tallest {| blocks := b; words := 0; pending := 0; around := []; last := q |} (slice_row k ++ [T_EOF]) <= b + 1.
Proof.
  induction k as [|k IH]; intros b q.
  - cbn. lia.
  - unfold slice_row. cbn [repeat concat]. cbn [app tallest next_place blocks words pending around last pred].
    change (deepens q PyElipsis) with false. specialize (IH b PyRightBracket). unfold slice_row in IH.
    change (if false then 1 else 0) with 0. unfold height at 1 2 3 4. cbn [blocks words around height_around]. lia.
Qed.

(** Texts as deep as one likes; the depth is that of the nesting, up to a factor. *)
Theorem parens_needed : forall U k, exists text, without_slices U text /\ nested_within U text (S k) /\
  forall n d, d < 17 * S k -> run_deep U n d F_eval_input (fresh text) = Fuel.
Proof.
  intros U k. destruct (stream_text U (repeat PyLeftParen (S k))) as (text & ts & t & SC & K & E); [discriminate| |].
  { apply SQ_same. apply paren_stream. auto. }
  destruct (nesting_computed U text ts t SC K) as (A & B & _). rewrite map_app, E in A, B. cbn [map] in A, B. rewrite K in A, B.
  exists text. split; [apply B; apply sliced_parens|]. split; [rewrite tallest_parens in A by reflexivity; exact A|].
  intros n d L. destruct (scanned_history _ _ _ SC) as (l & H). rewrite map_app in H. destruct (history_shorter _ _ _ _ H _ _ eq_refl) as (l1 & H1).
  eapply depth_parens; [exact H1|exact E|lia].
Qed.
(** With slices the nesting no longer bounds the depth. *)
Theorem slices_unbounded : forall U k, exists text, nested_within U text 1 /\
  (forall n d, d < k -> run_deep U n d F_eval_input (fresh text) = Fuel) /\
  exists N, returned (run U N F_eval_input (fresh text)).
Proof.
  intros U k. destruct (stream_text U (slice_row (S k))) as (text & ts & t & SC & K & E); [discriminate| |].
  { apply SQ_same. apply slice_stream. auto. }
  destruct (nesting_computed U text ts t SC K) as (A & _ & _). rewrite map_app, E in A. cbn [map] in A. rewrite K in A.
  exists text. split; [|split].
  - intros us l H. eapply Nat.le_trans; [eapply A; eauto|]. apply (tallest_slices (S k) 0).
  - intros n d L. destruct (scanned_history _ _ _ SC) as (l & H). rewrite map_app in H. destruct (history_shorter _ _ _ _ H _ _ eq_refl) as (l1 & H1).
    eapply depth_slices; [exact H1|exact E|lia].
  - exists (192 * length text + 287). eapply pure_functions_return; [reflexivity|apply fresh_on_text|lia].
Qed.
