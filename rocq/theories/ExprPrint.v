(** The text of an expression: C35. *)
From Coq Require Import List Arith Lia.
From Verif Require Import Chars SourceBuffer Token Tokenizer LexSpec TokenSpec RenderSpec HistoryProofs RoundTrip.
From Verif Require Import Node ParserState Parser GrammarSpec ParseBasics ParseSpec ExprSpec ExprProofs ExprText.
Import ListNotations.
Local Open Scope nat_scope.

(** ** The text of an expression *)
Definition plain_mark (k : kind) : bool := existsb (fun x => kind_eqb (snd x) k) (operator_table ++ map (fun x => ([fst x], snd x)) brackets ++ reserved).
Lemma spelling_plain : forall U k, plain_mark k = true -> plain U (spelling k) k NoPayload.
Proof.
  intros U k H. unfold plain_mark in H. unfold spelling.
  destruct (find (fun x => kind_eqb (snd x) k) (operator_table ++ map (fun x => ([fst x], snd x)) brackets ++ reserved)) as [(w & j)|] eqn:F.
  - apply find_some in F as (I & J). cbn in J. apply kind_eqb_eq in J. subst j. cbn [fst]. apply in_app_or in I as [I|I]; [apply PL_operator, I|].
    apply in_app_or in I as [I|I]; [|apply PL_keyword, I]. apply in_map_iff in I as ((c & j) & E & I). cbn in E. injection E as <- ->. apply PL_bracket, I.
  - exfalso. apply existsb_exists in H as (x & I & J). pose proof (find_none _ _ F x I) as N. cbn in N. congruence.
Qed.
Definition spelled (U : unicode) (x : kind * payload) : Prop := plain U (token_text x) (fst x) (snd x).
Definition writeable (U : unicode) (x : kind * payload) : Prop := carries (fst x) = true -> spelled U x.
Lemma spelled_mark : forall U k, plain_mark k = true -> spelled U (mark k).
Proof. intros U k H. unfold spelled, mark. cbn [fst snd]. apply spelling_plain. exact H. Qed.
Lemma infix_mark : forall k n, infix_level k = Some n -> plain_mark k = true.
Proof. intros k n H. destruct k; try discriminate H; vm_compute; reflexivity. Qed.
Lemma unary_mark : forall k, is_unary k -> plain_mark k = true.
Proof. intros k H. cbn in H. intuition (subst; vm_compute; reflexivity). Qed.

(** The tokens of an expression are marks and words. *)
Definition shaped (x : kind * payload) : Prop := (x = mark (fst x) /\ plain_mark (fst x) = true) \/ carries (fst x) = true.
Lemma shaped_mark : forall k, plain_mark k = true -> shaped (mark k).
Proof. intros k H. left. split; [reflexivity|exact H]. Qed.
Ltac shape := repeat first [apply Forall_cons; [first [apply shaped_mark; reflexivity | right; reflexivity]|] | apply Forall_nil | apply Forall_app; split].
Lemma flatten_shaped : forall e, proper e -> Forall shaped (flatten e).
Proof.
  assert (LS : forall k es, Forall (fun e => proper e -> Forall shaped (flatten e)) es -> Forall (operand k) es ->
    Forall shaped (between (mark PyComa) (map flatten es))).
  { intros k es H P. assert (H2 : Forall (fun e => Forall shaped (flatten e)) es).
    { rewrite Forall_forall in *. intros e I. apply (H e I). apply (P e I). }
    clear H P. destruct H2 as [|e es A B]; [constructor|]. cbn [map between]. apply Forall_app. split; [exact A|].
    induction B as [|d ds D B IH]; [constructor|]. cbn [map flat_map]. constructor; [apply shaped_mark; reflexivity|]. apply Forall_app. auto. }
  assert (CI : forall c, Forall shaped (comma_if c)) by (intros [|]; cbn [comma_if]; shape).
  apply (ast_induction (fun e => proper e -> Forall shaped (flatten e))).
  - intros k p (I & N). cbn [flatten]. constructor; [|constructor]. cbn in I.
    repeat (destruct I as [<-|I]; [first [right; reflexivity | rewrite N by reflexivity; apply shaped_mark; reflexivity]|]). destruct I.
  - intros p ps _. cbn [flatten]. generalize (p :: ps). intros l. induction l as [|a l IH]; cbn [map]; constructor; auto. right. reflexivity.
  - intros e IH (_ & P). cbn [flatten]. shape. exact (IH P).
  - intros es IH (N & _ & P). rewrite all_operands in P. cbn [flatten]. shape. eapply LS; eauto.
  - intros es IH (_ & P). rewrite all_operands in P. cbn [flatten]. shape. eapply LS; eauto.
  - intros e n IH (P & _). cbn [flatten]. shape. exact (IH P).
  - intros e es IH IHS ((P & _) & PS). rewrite all_operands in PS. cbn [flatten]. shape; [exact (IH P)|eapply LS; eauto].
  - intros e es IH IHS ((P & _) & _ & PS). rewrite all_operands in PS. cbn [flatten]. shape; [exact (IH P)|eapply LS; eauto].
  - intros e IH (P & _). cbn [flatten]. shape. exact (IH P).
  - intros a b IHa IHb ((PA & _) & (PB & _)). cbn [flatten]. shape; auto.
  - intros k e IH (K & P & _). cbn [flatten]. constructor; [apply shaped_mark, unary_mark, K|exact (IH P)].
  - intros k a b IHa IHb P. cbn [proper] in P. destruct (infix_level k) as [n|] eqn:N; [|destruct P]. destruct P as ((PA & _) & (PB & _)).
    cbn [flatten]. apply Forall_app. split; [auto|]. constructor; [eapply shaped_mark, infix_mark, N|auto].
  - intros a b IHa IHb ((PA & _) & (PB & _)). cbn [flatten]. shape; auto.
  - intros a b IHa IHb ((PA & _) & (PB & _)). cbn [flatten]. shape; auto.
  - intros e IH (P & _). cbn [flatten]. shape. exact (IH P).
  - intros a c b IHa IHc IHb ((PA & _) & (PC & _) & (PB & _)). cbn [flatten]. shape; auto.
  - intros a b IHa IHb ((PA & _) & (PB & _)). cbn [flatten]. shape; auto.
  - intros c es IH (_ & _ & P). rewrite all_operands in P. cbn [flatten]. shape; [eapply LS; eauto|apply CI].
  - intros c es IH (_ & _ & P). rewrite all_operands in P. cbn [flatten]. shape; [eapply LS; eauto|apply CI].
  - intros ps e IHS IH (_ & PS & P & _). rewrite all_operands in PS. cbn [flatten]. shape; [eapply LS; eauto|exact (IH P)].
  - intros e IH (P & _). cbn [flatten]. shape. exact (IH P).
  - intros e IH (P & _). cbn [flatten]. shape. exact (IH P).
  - intros a b IHa IHb ((PA & _) & (PB & _)). cbn [flatten]. shape; auto.
  - intros n e IH (P & _). cbn [flatten]. shape. exact (IH P).
  - intros q e cs IH IHS ((_ & P) & _ & _ & PS). rewrite all_operands in PS. cbn [flatten]. constructor; [destruct q; apply shaped_mark; reflexivity|].
    apply Forall_app. split; [|destruct q; shape]. apply Forall_app. split; [exact (IH P)|]. clear - IHS PS.
    induction IHS as [|d ds A H I]; inversion PS as [|? ? (P1 & _) P2]; subst; [constructor|]. cbn [flat_map]. apply Forall_app. auto.
  - intros es IH (_ & _ & P). rewrite all_operands in P. cbn [flatten]. shape. eapply LS; eauto.
  - intros e IH (P & _). cbn [flatten]. shape. exact (IH P).
  - intros w ts c e IHS IH (_ & _ & PS & _ & P & _). rewrite all_operands in PS. cbn [flatten]. apply Forall_app. split; [destruct w; shape|].
    shape; [eapply LS; eauto|apply CI|exact (IH P)].
  - intros e IH (P & _). cbn [flatten]. shape. exact (IH P).
Qed.

(** Parentheses add no words. *)
Definition carried (x : kind * payload) : bool := carries (fst x).
Definition words (e : ast) : list (kind * payload) := filter carried (flatten e).
Lemma words_wrap : forall k e, words (wrap k e) = words e.
Proof. intros k e. unfold wrap. destruct (k <=? level e); [reflexivity|]. unfold words. cbn. rewrite filter_app. cbn. apply app_nil_r. Qed.
Lemma words_wrap_in_set : forall e, words (wrap_in_set e) = words e.
Proof. intros e. unfold wrap_in_set. destruct (in_set e); [reflexivity|]. unfold words. cbn. rewrite filter_app. cbn. apply app_nil_r. Qed.
Lemma words_wrap_cond : forall e, words (wrap_cond e) = words e.
Proof. intros e. unfold wrap_cond. destruct (no_cond e); [reflexivity|]. unfold words. cbn. rewrite filter_app. cbn. apply app_nil_r. Qed.
Lemma words_between : forall ls, filter carried (between (mark PyComa) ls) = concat (map (filter carried) ls).
Proof.
  intros [|l ls]; [reflexivity|]. cbn [between map concat]. rewrite filter_app. f_equal. induction ls as [|m ms IH]; [reflexivity|].
  cbn [flat_map app]. cbn. rewrite filter_app, IH. reflexivity.
Qed.
Lemma canon_words : forall e, words (canon e) = words e.
Proof.
  assert (LS : forall f es, (forall e, words (f e) = words e) -> Forall (fun e => words (canon e) = words e) es ->
    map (filter carried) (map flatten (map (fun d => f (canon d)) es)) = map (filter carried) (map flatten es)).
  { intros f es FF H. induction H as [|e es A H IH]; [reflexivity|]. cbn [map]. f_equal; [|exact IH]. change (words (f (canon e)) = words e). rewrite FF. exact A. }
  apply (ast_induction (fun e => words (canon e) = words e)); intros; cbn [canon]; try reflexivity;
    unfold words in *; cbn [flatten]; repeat first [rewrite filter_app | rewrite words_between | progress (cbn [filter carried carries fst mark])];
    repeat match goal with |- context [filter carried (flatten (wrap ?k ?e))] => change (filter carried (flatten (wrap k e))) with (words (wrap k e)); rewrite words_wrap; unfold words end;
    try congruence.
  - f_equal. f_equal. apply (LS (fun e => e)); auto.
  - f_equal. f_equal. apply (LS (fun e => e)); auto.
  - f_equal; [assumption|]. do 2 f_equal. apply (LS (wrap 1)); [intros; apply words_wrap|assumption].
  - f_equal; [assumption|]. do 2 f_equal. apply (LS (wrap 1)); [intros; apply words_wrap|assumption].
  - destruct (carried (mark k)); congruence.
  - match goal with |- context [carried (mark k)] => destruct (carried (mark k)) end; congruence.
  - f_equal. f_equal. f_equal. apply (LS wrap_in_set); [intros; apply words_wrap_in_set|assumption].
  - f_equal. f_equal. f_equal. apply (LS (fun e => e)); auto.
  - f_equal; [|assumption]. f_equal. apply (LS (fun e => e)); auto.
  - assert (Z : filter carried (flat_map flatten (map canon cs)) = filter carried (flat_map flatten cs)).
    { rewrite !flat_map_concat_map. rewrite <- !concat_filter_map. f_equal. apply (LS (fun e => e)); auto. }
    match goal with |- context [if ?b then PyLeftBracket else _] => destruct b end; cbn [filter carried carries fst mark]; congruence.
  - f_equal. f_equal. apply (LS wrap_in_set); [intros; apply words_wrap_in_set|assumption].
  - f_equal. f_equal; [|assumption]. f_equal. f_equal. apply (LS (fun e => e)); auto.
  - change (words (wrap_cond (canon e)) = words e). rewrite words_wrap_cond. assumption.
Qed.

Definition item_of (x : kind * payload) : item := Item [SP] (token_text x) (fst x) (snd x).
Lemma seen_of : forall l, map item_seen (map item_of l) = l.
Proof. intros l. rewrite map_map. rewrite <- (map_id l) at 2. apply map_ext. intros (k & p). reflexivity. Qed.
Lemma flatten_nonempty : forall e, flatten e <> [].
Proof. intros e H. destruct e; cbn [flatten map] in H; try discriminate H; symmetry in H; apply app_cons_not_nil in H; exact H. Qed.
Theorem canonical_text : forall U e, valid e -> writable U e ->
  exists a b y n t s', parsed U F_eval_input (fresh (expression_text (wrap 1 (canon e)))) (EvalInput a b y [n] t) s' /\ tree_of y = Some (wrap 1 (canon e)).
Proof.
  intros U e (SE & V) W. destruct (wrapped 1 (canon e) ltac:(lia)) as (P & L); [rewrite canon_stands; exact SE|exact (canon_proper e V)|].
  assert (S : Forall (spelled U) (flatten (wrap 1 (canon e)))).
  { apply Forall_forall. intros x I. pose proof (flatten_shaped _ P) as S. rewrite Forall_forall in S. destruct (S x I) as [(E & M)|C].
    - rewrite E. apply spelled_mark, M.
    - unfold writable in W. rewrite Forall_forall in W. apply W; [|exact C].
      assert (J : In x (words (wrap 1 (canon e)))) by (apply filter_In; split; assumption). rewrite words_wrap, canon_words in J. apply filter_In in J. apply J. }
  unfold expression_text. remember (wrap 1 (canon e)) as d. destruct (flatten d) as [|x xs] eqn:F; [destruct (flatten_nonempty d F)|].
  set (ln := Line [] (item_of x) (map item_of xs)).
  replace (between SP (map token_text (x :: xs)) ++ [LF]) with (text_of [ln]).
  - apply text_read; [exact P|exact L|]. split; [reflexivity|]. split; [|split].
    + unfold ln_items, ln. cbn [ln_first ln_more]. change (Forall (item_ok U) (map item_of (x :: xs))). apply Forall_map. exact S.
    + unfold ln. cbn [ln_more]. apply Forall_map. apply Forall_forall. intros y _. split; [discriminate|]. repeat constructor.
    + unfold ln_items, ln. cbn [ln_first ln_more]. change (map item_seen (map item_of (x :: xs)) = flatten d). rewrite seen_of. congruence.
  - unfold ln, text_of, line_text. cbn [flat_map ln_indent ln_first ln_more item_of it_text app map between]. rewrite app_nil_r, <- app_assoc. f_equal. f_equal. clear. induction xs as [|z xs IH]; [reflexivity|]. cbn. rewrite IH. reflexivity.
Qed.

(** Where everything binds tightly enough, no parentheses are added. *)
Lemma wrap_same : forall k e, k <= level e -> wrap k e = e.
Proof. intros k e L. unfold wrap. apply Nat.leb_le in L. rewrite L. reflexivity. Qed.
Theorem canon_proper_same : forall e, proper e -> canon e = e.
Proof.
  assert (LS : forall k f es, (forall e, k <= level e -> f e = e) -> Forall (fun e => proper e -> canon e = e) es -> Forall (operand k) es ->
    map (fun d => f (canon d)) es = es).
  { intros k f es FF H P. induction H as [|e es A H IH]; [reflexivity|]. inversion P as [|? ? (P1 & P2) P3]; subst. cbn [map]. rewrite A, FF, IH; auto. }
  assert (L0 : forall es, Forall (fun e => proper e -> canon e = e) es -> Forall (operand 0) es -> map canon es = es).
  { intros es. apply (LS 0 (fun e => e)). auto. }
  assert (L1 : forall es, Forall (fun e => proper e -> canon e = e) es -> Forall (operand 1) es -> map (fun d => wrap 1 (canon d)) es = es).
  { intros es. apply (LS 1 (wrap 1)). intros. apply wrap_same. assumption. }
  assert (LW : forall es, Forall (fun e => proper e -> canon e = e) es -> forallb in_set es = true -> Forall (operand 0) es -> map (fun d => wrap_in_set (canon d)) es = es).
  { intros es IH IS P. induction IH as [|e es A H IH]; [reflexivity|]. inversion P as [|? ? (P1 & _) P3]; subst.
    cbn [forallb] in IS. apply Bool.andb_true_iff in IS as (I1 & I2). cbn [map]. rewrite (A P1). unfold wrap_in_set at 1. rewrite I1, (IH I2 P3). reflexivity. }
  apply (ast_induction (fun e => proper e -> canon e = e)); cbn [canon].
  - auto.
  - auto.
  - intros e IH (_ & P). rewrite (IH P). reflexivity.
  - intros es IH (N & _ & P). rewrite all_operands in P. rewrite L0 by assumption. reflexivity.
  - intros es IH (_ & P). rewrite all_operands in P. rewrite L0 by assumption. reflexivity.
  - intros e n IH (P & L). rewrite (IH P), wrap_same by assumption. reflexivity.
  - intros e es IH IHS ((P & L) & PS). rewrite all_operands in PS. rewrite (IH P), wrap_same, L1 by assumption. reflexivity.
  - intros e es IH IHS ((P & L) & _ & PS). rewrite all_operands in PS. rewrite (IH P), wrap_same, L1 by assumption. reflexivity.
  - intros e IH (P & L). rewrite (IH P), wrap_same by assumption. reflexivity.
  - intros a b IHa IHb ((PA & LA) & (PB & LB)). rewrite (IHa PA), (IHb PB), !wrap_same by assumption. reflexivity.
  - intros k e IH (K & P & L). rewrite (IH P), wrap_same by assumption. reflexivity.
  - intros k a b IHa IHb P. cbn [proper] in P. cbn [level]. destruct (infix_level k) as [n|] eqn:N; [|destruct P]. destruct P as ((PA & LA) & (PB & LB)).
    rewrite (IHa PA), (IHb PB), !wrap_same by assumption. reflexivity.
  - intros a b IHa IHb ((PA & LA) & (PB & LB)). rewrite (IHa PA), (IHb PB), !wrap_same by assumption. reflexivity.
  - intros a b IHa IHb ((PA & LA) & (PB & LB)). rewrite (IHa PA), (IHb PB), !wrap_same by assumption. reflexivity.
  - intros e IH (P & L). rewrite (IH P), wrap_same by assumption. reflexivity.
  - intros a c b IHa IHc IHb ((PA & LA) & (PC & LC) & (PB & LB)). rewrite (IHa PA), (IHb PB), (IHc PC), !wrap_same by assumption. reflexivity.
  - intros a b IHa IHb ((PA & LA) & (PB & LB)). rewrite (IHa PA), (IHb PB), !wrap_same by assumption. reflexivity.
  - intros c es IH (_ & IS & P). rewrite all_operands in P. f_equal. apply LW; assumption.
  - intros c es IH (_ & _ & P). rewrite all_operands in P. rewrite L0 by assumption. reflexivity.
  - intros ps e IHS IH (_ & PS & P & L). rewrite all_operands in PS. rewrite L0, (IH P), wrap_same by assumption. reflexivity.
  - intros e IH (P & L). rewrite (IH P), wrap_same by assumption. reflexivity.
  - intros e IH (P & L). rewrite (IH P), wrap_same by assumption. reflexivity.
  - intros a b IHa IHb ((PA & LA) & (PB & LB)). rewrite (IHa PA), (IHb PB), !wrap_same by assumption. reflexivity.
  - intros n e IH (P & L). rewrite (IH P), wrap_same by assumption. reflexivity.
  - intros q e cs IH IHS ((_ & P) & _ & _ & PS). rewrite all_operands in PS. rewrite (IH P), L0 by assumption. reflexivity.
  - intros es IH (_ & IS & P). rewrite all_operands in P. f_equal. apply LW; assumption.
  - intros e IH (P & L). rewrite (IH P), wrap_same by assumption. reflexivity.
  - intros w ts c e IHS IH (_ & _ & PS & _ & P & L). rewrite all_operands in PS. rewrite L0, (IH P), wrap_same by assumption. reflexivity.
  - intros e IH (P & N). rewrite (IH P). unfold wrap_cond. rewrite N. reflexivity.
Qed.
