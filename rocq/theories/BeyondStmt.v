(** What the readers of statements leave out, exactly (C63). *)
From Coq Require Import List Arith Bool Lia.
From Verif Require Import Chars SourceBuffer Token Tokenizer LexSpec Node NodeView ParserState Parser GrammarSpec ParseBasics TreeSpec ParseSpec
  SoundBasics Soundness SpanProofs Completeness ParseCorollaries OrderProofs SchemaSpec SchemaProofs ExprSpec ExprProofs ExprBack ExprText StmtSpec StmtDerive StmtExact
  BeyondSpec BeyondProofs.
Import ListNotations.
Local Open Scope nat_scope.

Lemma within_pair : forall o, forallb item_within (opt_pair o) = match o with Some p => within (snd p) | None => true end.
Proof. intros [(t & y)|]; cbn; rewrite ?andb_true_r; reflexivity. Qed.
Lemma within_pairs : forall l, forallb item_within (pairs l) = forallb (fun p => within (snd p)) l.
Proof. induction l as [|(t & y) l IH]; [reflexivity|]. cbn. f_equal. exact IH. Qed.
Lemma has_bind2 : forall A B C (f : A -> B -> option C) a b, (forall x y, has (f x y) = true) -> has (bind2 f a b) = has a && has b.
Proof. intros A B C f [a|] [b|] H; cbn; auto. Qed.

Definition listable (x : node) : Prop :=
  match x with ExprList _ _ _ _ | TestList _ _ _ _ | TestListStarExpr _ _ _ _ => True | _ => element x end.
Lemma test_any : forall x, test x -> expression 0 x.
Proof. intros x H. eapply expression_any, H. Qed.
Lemma star_or_test_element : forall x, star_or_test x -> element x.
Proof. intros x [H|H]; [left; exact H|right; apply test_any, H]. Qed.
Lemma targets_listable : forall x, SchemaSpec.targets x -> listable x.
Proof. intros x H. destruct x; exact H || exact I. Qed.
Lemma values_listable : forall x, values x -> listable x.
Proof. intros x H. destruct x; try exact I; right; apply test_any, H. Qed.
Lemma star_values_listable : forall x, star_values x -> listable x.
Proof. intros x H. destruct x; try exact I; apply star_or_test_element, H. Qed.

Lemma element_read : forall x, sane x -> element x -> has (element_of x) = within x.
Proof.
  intros x S E. destruct (reads_all x S) as (R & RS). destruct E as [E|E].
  - destruct x; try destruct E. cbn [element_of]. rewrite has_map. cbn [display] in RS.
    change (has (option_map Starred (tree_of x)) = within (StarExpr s e t x)) in RS. rewrite has_map in RS. exact RS.
  - rewrite <- (R E). destruct x; try destruct E; unfold element_of; rewrite has_map; reflexivity.
Qed.
Lemma sane_list : forall x xs ys, sane x -> items x = map Sub xs ++ ys -> forall y, In y xs -> sane y.
Proof. intros x xs ys S E y I. eapply sane_item; [exact S|]. rewrite E. apply in_or_app. left. apply in_map, I. Qed.
Lemma listed_read : forall x xs ts ys, sane x -> items x = map Sub ys ++ map Leaf ts -> beyond x = false -> (xs = ys \/ xs = rev ys) ->
  Forall element ys -> length ts <= length ys <= S (length ts) -> has (listed xs ts) = within x.
Proof.
  intros x xs ts ys S I B X F L. rewrite within_items, B, I, forallb_app, within_subs, within_leaves, andb_true_r. cbn [negb andb].
  assert (LX : length xs = length ys) by (destruct X as [->| ->]; rewrite ?rev_length; reflexivity).
  assert (H : has (opts element_of xs) = forallb within ys).
  { rewrite has_opts. destruct X as [->| ->]; rewrite ?forallb_rev; apply forallb_same; intros y J; apply element_read;
      try (eapply sane_list; eauto); rewrite Forall_forall in F; apply F, J. }
  unfold listed. rewrite <- H. destruct (opts element_of xs) as [es|] eqn:O; [|reflexivity]. apply opts_length in O. cbn [has].
  destruct (Nat.eqb_spec (length ts) (length es)); [reflexivity|]. destruct (Nat.eqb_spec (Datatypes.S (length ts)) (length es)); [reflexivity|]. lia.
Qed.
Lemma Forall_test_element : forall xs, Forall test xs -> Forall element xs.
Proof. intros xs. apply Forall_impl. intros y H. right. apply test_any, H. Qed.
Lemma listing_read : forall x, sane x -> listable x -> has (listing_of x) = within x.
Proof.
  intros x S L. destruct (sane_here x S) as (SC & C).
  destruct x; try (unfold listing_of; rewrite has_map; apply element_read; [exact S|exact L]); cbn [schema counted] in SC, C; cbn [listing_of].
  - eapply listed_read; [exact S|reflexivity|reflexivity|left; reflexivity|apply SC|exact C].
  - eapply listed_read; [exact S|reflexivity|reflexivity|left; reflexivity|apply Forall_test_element, SC|exact C].
  - eapply listed_read; [exact S|reflexivity|reflexivity|right; reflexivity| |exact C].
    eapply Forall_impl; [apply star_or_test_element|apply SC].
Qed.
Lemma test_read : forall k x, sane x -> expression k x -> has (tree_of x) = within x.
Proof. intros k x S E. apply expressions_read; [exact S|]. eapply expression_any, E. Qed.
Ltac part y := let H := fresh "S" in assert (H : sane y) by (match goal with S : sane ?x |- _ => solve [apply (sane_item x y S); cbn; rewrite ?in_app_iff; cbn; auto 12] end).
Lemma source_read : forall x, sane x -> assigned x -> has (source_of x) = within x.
Proof.
  intros x S A. destruct (sane_here x S) as (SC & _). destruct A as [A|A].
  - destruct x; try destruct A; cbn [schema] in SC; cbn [source_of]; rewrite has_map; part x; unfold_within.
    + apply listing_read; [assumption|]. apply star_values_listable, SC.
    + apply (test_read 1); [assumption|apply SC].
  - rewrite <- (listing_read x S (values_listable x A)). destruct x; try destruct A; unfold source_of; rewrite has_map; reflexivity.
Qed.

Lemma names_some : forall ns ts, between_all ns ts -> has (names_of ns) = true.
Proof.
  intros ns ts H. unfold names_of. destruct (map tk_payload (rev ns)) eqn:E; [|reflexivity].
  apply (f_equal (@length _)) in E. rewrite map_length, rev_length in E. unfold between_all in H. cbn in E. lia.
Qed.
Lemma aliases_read : forall x, sane x -> is_import_names x -> has (aliases_of x) = true /\ within x = true.
Proof.
  intros x S I. destruct x; try destruct I. destruct (sane_here _ S) as (SC & _). destruct SC as (SB & SF & _). cbn [aliases_of].
  assert (A : forall y, is_import_name y -> has (alias_of y) = true /\ within y = true).
  { intros y IY. destruct y; try destruct IY. destruct o as [(? & ?)|]; split; reflexivity. }
  rewrite Forall_forall in SF. split.
  - assert (H : has (elements alias_of l l0) = true).
    { rewrite has_elements. apply andb_true_intro. split; [apply Nat.eqb_eq, SB|]. apply forallb_forall. intros y J. apply A, SF, J. }
    destruct (elements alias_of l l0) as [es|] eqn:EE; [|discriminate H]. apply elements_split in EE as (O & L). apply opts_length in O.
    rewrite rev_length in O. unfold between_all in SB. destruct es; [cbn in O; lia|reflexivity].
  - unfold_within. apply forallb_forall. intros y J. apply A, SF, J.
Qed.

Lemma augment_read : forall k x a t b, sane x -> items x = [Sub a; Leaf t; Sub b] -> beyond x = false -> augments k a t b ->
  has (if is k t then map2 (Augment k) (listing_of a) (source_of b) else None) = within x.
Proof.
  intros k x a t b S I B (A & K & V). rewrite (is_kind _ _ K), has_map2, within_items, B, I. cbn [forallb item_within negb andb]. rewrite andb_true_r.
  rewrite listing_read, source_read; [reflexivity|eapply sane_item; [exact S|rewrite I; cbn; auto]|exact V|eapply sane_item; [exact S|rewrite I; cbn; auto]|].
  apply star_values_listable, A.
Qed.
Lemma in_pairs : forall p l, In p l -> In (Sub (snd p)) (pairs l).
Proof. intros p l H. unfold pairs. apply in_flat_map. exists p. cbn. auto. Qed.
Ltac within_more := rewrite ?within_pair, ?within_pairs, ?andb_true_r.
Lemma small_read : forall x, sane x -> is_small x -> has (small_of x) = within x.
Proof.
  intros x S M.
  assert (EV : star_values x -> (small_of x = option_map Eval (listing_of x)) -> has (small_of x) = within x).
  { intros V E. rewrite E, has_map. apply listing_read; [exact S|]. apply star_values_listable, V. }
  destruct (sane_here x S) as (SC & C).
  destruct x; try (destruct M as [M|[M|M]]; [destruct M|destruct M|apply EV; [exact M|reflexivity]]; fail);
    try (apply (augment_read _ _ _ _ _ S eq_refl eq_refl SC)).
  all: try reflexivity.
  all: clear M EV; cbn [schema counted] in SC, C; cbn [small_of].
  - rewrite has_map. apply source_read; [exact S|left; exact I].
  - rewrite has_map. apply source_read; [exact S|left; exact I].
  - destruct SC as (A & _ & B & D). part x1. part x2. unfold_within. within_more.
    rewrite <- (listing_read x1 S0 (star_values_listable _ A)), <- (test_read 1 x2 S1 B).
    destruct o as [(t1 & y)|]; cbn [snd].
    + cbn in D. part y. rewrite <- (source_read y S2 (proj2 D)). cbn [inside snd]. destruct (listing_of x1), (tree_of x2), (source_of y); reflexivity.
    + destruct (listing_of x1), (tree_of x2); reflexivity.
  - destruct SC as (A & N & F & _). destruct o as [t|]; [rewrite within_items; reflexivity|]. part x. unfold_within. within_more.
    rewrite <- (listing_read x S0 (star_values_listable _ A)).
    assert (H : has (opts (fun x => source_of (snd x)) l) = forallb (fun p => within (snd p)) l).
    { rewrite has_opts. apply forallb_same. intros p J. rewrite Forall_forall in F. apply source_read; [|apply (F p J)].
      eapply sane_item; [exact S|]. cbn. right. apply in_or_app. left. apply in_pairs, J. }
    rewrite <- H. destruct (listing_of x); [|reflexivity]. destruct (opts (fun x => source_of (snd x)) l) as [[|v vs]|] eqn:O; [|reflexivity|reflexivity].
    apply opts_length in O. destruct l; [congruence|discriminate O].
  - part x. rewrite has_map. unfold_within. apply listing_read; [assumption|]. apply targets_listable, SC.
  - rewrite has_map, has_inside. unfold_within. destruct o as [y|]; [|reflexivity]. part y. apply listing_read; [assumption|]. apply star_values_listable, SC.
  - rewrite has_map, has_inside. unfold_within. destruct o as [(y & [(t1 & z)|])|]; [| |reflexivity]; destruct SC as (_ & A & B); cbn in A, B; part y;
      cbn [fst snd inside opt_node_pair forallb item_within]; rewrite has_map2, (test_read 1 y S0 A).
    + part z. rewrite has_map, (test_read 1 z S1 (proj2 B)), andb_true_r. reflexivity.
    + reflexivity.
  - destruct SC as (_ & _ & DN & _ & _ & SC).
    assert (M : has (module_name_of o) = true /\ (match o with Some y => within y | None => true end) = true).
    { destruct o as [y|]; [|split; reflexivity]. destruct y; try destruct DN. split; [reflexivity|]. unfold_within. reflexivity. }
    destruct M as (M1 & M2). destruct o0, o1 as [y|], o2; try destruct SC as (_ & SC); try destruct SC.
    all: try (part y; destruct (aliases_read y S0 SC) as (A1 & A2)).
    all: rewrite ?has_map, ?has_map2, ?M1, ?A1; symmetry; rewrite within_items; cbn [beyond items negb andb]; rewrite !forallb_app, !within_opt, !within_opt_token, within_leaves, M2, ?A2; reflexivity.
  - rewrite has_map, (names_some _ _ (proj1 (proj2 SC))). symmetry. unfold_within. reflexivity.
  - rewrite has_map, (names_some _ _ (proj1 (proj2 SC))). symmetry. unfold_within. reflexivity.
  - destruct o; [rewrite within_items; reflexivity|]. part x. rewrite has_map. unfold_within. apply (test_read 1); [assumption|apply SC].
Qed.
Lemma smalls_read : forall x, sane x -> is_simple x -> has (smalls_of x) = within x.
Proof.
  intros x S M. destruct x; try destruct M. destruct (sane_here _ S) as ((N & F & _) & C). cbn [counted] in C. cbn [smalls_of]. unfold_within.
  assert (H : has (opts small_of (rev l)) = forallb within l).
  { rewrite has_opts, forallb_rev. apply forallb_same. intros y J. rewrite Forall_forall in F. apply small_read; [|apply F, J].
    eapply sane_list; [exact S|reflexivity|exact J]. }
  rewrite <- H. destruct (opts small_of (rev l)) as [[|s1 ss]|] eqn:O; [| |reflexivity]; apply opts_length in O; rewrite rev_length in O.
  - destruct l; [congruence|discriminate O].
  - cbn [length] in O. cbn [has]. destruct (Nat.eqb_spec (length l0) (Datatypes.S (length ss))); [reflexivity|].
    destruct (Nat.eqb_spec (length l0) (length ss)); [reflexivity|]. lia.
Qed.
Lemma part_read : forall x, sane x -> is_with_item x -> has (part_of x) = within x.
Proof.
  intros x S W. destruct (sane_here _ S) as (SC & _). destruct x; try destruct W as (W1 & W2); try destruct W.
  - destruct SC as (T & ->). cbn [part_of]. rewrite has_map. part x. unfold_within. apply (test_read 1); assumption.
  - cbn [part_of]. rewrite has_map2. part x1. part x2. unfold_within. rewrite (test_read 1 x1), (test_read 6 x2); auto.
Qed.
Lemma what_read : forall s e t o w, sane (ExceptClauseStmt s e t o w) -> has (what_of w) = within (ExceptClauseStmt s e t o w).
Proof.
  intros s e t o w S. destruct (sane_here _ S) as ((_ & _ & SC) & _). unfold_within.
  destruct w as [(y & [(u & v)|])|]; [| |reflexivity]; cbn [what_of]; rewrite has_map; part y; destruct SC as (SC & _); cbn in SC; cbn [opt_node_tokens2 forallb item_within];
    rewrite ?andb_true_r; apply (test_read 1); assumption.
Qed.
Lemma bases_read : forall a o b x, (forall y, o = Some y -> sane y /\ is_parameters y) -> (a = None <-> b = None) -> (a = None -> o = None) ->
  (x = match o with Some y => within y | None => true end) -> has (bases_of a o b) = x.
Proof.
  intros a o b x SO AB AO ->. destruct a, b; try (destruct AB as (A1 & A2); (discriminate (A1 eq_refl) || discriminate (A2 eq_refl)) ).
  - destruct o as [y|]; [|reflexivity]. destruct (SO y eq_refl) as (S & P). destruct y; try destruct P. unfold bases_of.
    destruct (reads_all _ S) as (_ & R).
    destruct o; [rewrite within_items; reflexivity|]. destruct o0; [rewrite within_items; reflexivity|].
    destruct o1; [rewrite within_items; reflexivity|]. destruct o2; [rewrite within_items; reflexivity|]. destruct o3; [rewrite within_items; reflexivity|].
    rewrite has_map, <- R, !has_elements. f_equal. apply forallb_same. intros y I. destruct y; try reflexivity. destruct y1; try reflexivity. cbn. rewrite !has_map. reflexivity.
  - rewrite (AO eq_refl). reflexivity.
Qed.
Lemma block_some : forall ss, ss <> [] -> has (block_of ss) = true.
Proof. induction ss as [|s [|s2 ss] IH]; intros N; [congruence|reflexivity|]. cbn [block_of]. rewrite has_map. apply IH. discriminate. Qed.

(** How the nodes of statements are read. *)
Definition Stmts (x : node) : Prop :=
  (is_suite x \/ is_body x -> has (suite_of x) = within x) /\
  (is_else x \/ is_finally x -> has (clause_of (Some x)) = within x) /\
  (is_elif x -> has (elif_of x) = within x) /\
  (is_except x -> has (handler_of x) = within x) /\
  (is_with x \/ is_for_stmt x -> forall b, has (plain_of x b) = within x) /\
  (is_stmt x -> has (stmt_of x) = within x).
Lemma blocks_read : forall x xs, (forall y, In y xs -> has (stmt_of y) = within y) -> xs <> [] ->
  within x = forallb within xs -> has (match opts stmt_of xs with Some ss => option_map Block (block_of (rev ss)) | None => None end) = within x.
Proof.
  intros x xs R N ->. assert (H : has (opts stmt_of xs) = forallb within xs) by (rewrite has_opts; apply forallb_same, R). rewrite <- H.
  destruct (opts stmt_of xs) as [ss|] eqn:O; [|reflexivity]. apply opts_length in O. rewrite has_map. apply block_some.
  intros E. apply (f_equal (@length _)) in E. rewrite rev_length in E. destruct xs; [congruence|]. cbn in *. lia.
Qed.
Lemma stmts_all : forall x, sane x -> Stmts x.
Proof.
  intros x. pattern x. apply node_items_ind. clear x. intros x IH0 S.
  assert (IH : forall y, In (Sub y) (items x) -> Stmts y) by (intros y I; apply IH0; [exact I|eapply sane_item; eauto]). clear IH0.
  destruct (sane_here x S) as (SC & C).
  assert (SU : forall y, In (Sub y) (items x) -> is_suite y \/ is_body y -> has (suite_of y) = within y) by (intros y I; apply (IH y I)).
  assert (CL : forall o, (forall y, o = Some y -> In (Sub y) (items x)) -> if_any is_else o \/ if_any is_finally o ->
    has (clause_of o) = match o with Some y => within y | None => true end).
  { intros [y|] J K; [|reflexivity]. apply (IH y (J y eq_refl)). exact K. }
  assert (ST : forall xs, (forall y, In y xs -> In (Sub y) (items x)) -> Forall is_stmt xs -> forall y, In y xs -> has (stmt_of y) = within y).
  { intros xs J F y K. rewrite Forall_forall in F. apply (IH y (J y K)). apply F, K. }
  assert (PL : is_with x \/ is_for_stmt x -> forall b, has (plain_of x b) = within x).
  { intros [W|W] b; destruct x; try destruct W; cbn [schema counted items app] in SC, C; cbn [plain_of].
    - destruct SC as (_ & N & F & _ & _ & B & SC).
      assert (P : has (opts part_of (rev l)) = forallb within l).
      { rewrite has_opts, forallb_rev. apply forallb_same. intros y J. rewrite Forall_forall in F. apply part_read; [|apply F, J].
        eapply sane_item; [exact S|]. cbn. rewrite !in_app_iff. right. right. left. apply in_map, J. }
      assert (Q : has (suite_of x) = within x) by (apply SU; [cbn; rewrite !in_app_iff; cbn; auto 12|left; exact B]).
      unfold_within. rewrite <- P, <- Q. destruct (opts part_of (rev l)) as [is|] eqn:O; [|reflexivity]. destruct (suite_of x) as [d|]; [|reflexivity].
      apply opts_length in O. rewrite rev_length in O. destruct is as [|i is]; [destruct l; [congruence|discriminate O]|]. cbn [length] in O. cbn [bind2 with_of has andb].
      destruct o, o0; [|destruct SC|destruct SC|].
      + destruct (Nat.eqb_spec (length l0) (length is)); [reflexivity|]. destruct (Nat.eqb_spec (length l0) (Datatypes.S (length is))); [reflexivity|]. lia.
      + unfold between_all in SC. destruct (Nat.eqb_spec (length l0) (length is)); [reflexivity|]. lia.
    - destruct SC as (_ & A & _ & _ & V & _ & _ & B & D). destruct o; [rewrite within_items; reflexivity|].
      part x1. part x2.
      assert (Q : has (suite_of x3) = within x3) by (apply SU; [cbn; rewrite ?in_app_iff; cbn; auto 12|left; exact B]).
      assert (K : has (clause_of o0) = match o0 with Some y => within y | None => true end) by (apply CL; [intros y ->; cbn; auto 12|left; exact D]).
      unfold_within. rewrite <- (listing_read x1 S0 (targets_listable _ A)), <- (listing_read x2 S1 (values_listable _ V)), <- Q, <- K.
      destruct (listing_of x1), (listing_of x2), (suite_of x3), (clause_of o0); reflexivity. }
  split; [|split; [|split; [|split; [|split; [exact PL|]]]]].
  - intros B. assert (B' : is_suite x \/ match x with FuncBodySuite _ _ _ _ _ _ _ _ => True | _ => False end) by (destruct B as [B|B]; [left; exact B|destruct x; try destruct B; cbn; auto]).
    clear B. destruct B' as [B|B]; destruct x; try destruct B; cbn [schema] in SC.
    + unfold suite_of. rewrite has_map. apply smalls_read; [exact S|exact I].
    + cbn [suite_of]. apply blocks_read; [|apply SC|unfold_within; reflexivity]. apply ST; [intros y J; cbn; rewrite in_app_iff; right; right; left; apply in_map, J|apply SC].
    + destruct SC as (_ & _ & _ & E & _ & N & F & _). destruct o as [?|]; [rewrite within_items; reflexivity|]. pose proof (proj1 E eq_refl) as ->. cbn [suite_of].
      apply blocks_read; [|exact N|unfold_within; reflexivity]. apply ST; [intros y J; cbn; rewrite in_app_iff; right; right; left; apply in_map, J|exact F].
  - intros [B|B]; destruct x; try destruct B; cbn [clause_of]; rewrite has_map; unfold_within; apply SU; try (cbn; auto; fail); left; apply SC.
  - intros B. destruct x; try destruct B. cbn [elif_of]. rewrite has_map2. part x1. unfold_within. rewrite (test_read 1 x1); [|assumption|apply SC]. f_equal.
    apply SU; [cbn; auto|left; apply SC].
  - intros B. destruct x; try destruct B. destruct x1; try destruct H. cbn [handler_of]. rewrite has_map2.
    assert (SX : sane (ExceptClauseStmt s0 e0 t0 o o0)) by (eapply sane_item; [exact S|cbn; auto]).
    rewrite (what_read _ _ _ _ _ SX). rewrite (within_items (ExceptStmt _ _ _ _ _)). cbn [beyond items app forallb item_within negb andb]. rewrite andb_true_r. f_equal.
    apply SU; [cbn; auto|left; assumption].
  - intros [B|B].
    + destruct x; try destruct B. rewrite stmt_of_compound. unfold compound_of. rewrite has_map. apply smalls_read; [exact S|exact I].
    + rewrite stmt_of_compound. destruct B as [B|[B|[B|[B|[B|[B|[B|B]]]]]]]; destruct x; try destruct B; cbn [schema] in SC; try (apply PL; cbn; auto; fail); cbn [compound_of].
      * destruct SC as (_ & T & _ & B & F & D). part x1.
        assert (Q : has (suite_of x2) = within x2) by (apply SU; [cbn; auto|left; exact B]).
        assert (K : has (clause_of o) = match o with Some y => within y | None => true end) by (apply CL; [intros y ->; cbn; rewrite in_app_iff; cbn; auto 12|left; exact D]).
        assert (P : has (opts elif_of l) = forallb within l).
        { rewrite has_opts. apply forallb_same. intros y J. rewrite Forall_forall in F. apply (IH y); [cbn; rewrite in_app_iff; do 4 right; left; apply in_map, J|apply F, J]. }
        unfold_within. rewrite <- (test_read 1 x1), <- Q, <- K, <- P; [|assumption..].
        destruct (tree_of x1), (suite_of x2), (opts elif_of l), (clause_of o); reflexivity.
      * destruct SC as (_ & T & _ & B & D). part x1.
        assert (Q : has (suite_of x2) = within x2) by (apply SU; [cbn; auto|left; exact B]).
        assert (K : has (clause_of o) = match o with Some y => within y | None => true end) by (apply CL; [intros y ->; cbn; auto 12|left; exact D]).
        unfold_within. rewrite <- (test_read 1 x1), <- Q, <- K; [|assumption..].
        destruct (tree_of x1), (suite_of x2), (clause_of o); reflexivity.
      * destruct SC as (_ & _ & B & D1 & D2 & F).
        assert (Q : has (suite_of x) = within x) by (apply SU; [cbn; auto|left; exact B]).
        assert (K1 : has (clause_of o0) = match o0 with Some y => within y | None => true end) by (apply CL; [intros y ->; cbn; rewrite ?in_app_iff; cbn; auto 12|left; exact D1]).
        assert (K2 : has (clause_of o1) = match o1 with Some y => within y | None => true end) by (apply CL; [intros y ->; cbn; rewrite ?in_app_iff; cbn; auto 12|right; exact D2]).
        assert (P : has (match o with Some ys => opts handler_of ys | None => Some [] end) = match o with Some ys => forallb within ys | None => true end).
        { destruct o as [ys|]; [|reflexivity]. destruct F as (_ & F). rewrite has_opts. apply forallb_same. intros y J. rewrite Forall_forall in F.
          apply (IH y); [cbn; rewrite in_app_iff; do 3 right; left; apply in_map, J|apply F, J]. }
        unfold_within. assert (WL : forallb item_within (opt_list_nodes o) = match o with Some ys => forallb within ys | None => true end) by (destruct o; [apply within_subs|reflexivity]).
        rewrite WL, <- P, <- Q, <- K1, <- K2. destruct (suite_of x), (match o with Some ys => opts handler_of ys | None => Some [] end), (clause_of o0), (clause_of o1); reflexivity.
      * destruct SC as (_ & _ & P & R & _ & _ & B).
        assert (Q : has (suite_of x) = within x) by (apply SU; [cbn [items]; rewrite !in_app_iff; cbn; auto 15|right; exact B]).
        destruct o as [y|]; [|destruct o1; rewrite within_items; reflexivity]. destruct y; try destruct P. destruct o; try destruct P.
        destruct o1; [rewrite within_items; reflexivity|].
        rewrite has_map2, has_inside. unfold_within. rewrite Q, within_pair. f_equal.
        destruct o0 as [(t5 & y)|]; [|reflexivity]. cbn [snd]. cbn in R. part y. apply (test_read 1); [assumption|apply R].
      * destruct SC as (_ & _ & _ & P & _ & AB & AO & _ & B).
        assert (Q : has (suite_of x) = within x) by (apply SU; [cbn [items]; rewrite !in_app_iff; cbn; auto 15|left; exact B]).
        rewrite has_map2. unfold_within. rewrite Q. f_equal. eapply bases_read; [|exact AB|exact AO|reflexivity].
        intros y ->. split; [|exact P]. eapply sane_item; [exact S|]. cbn [items]. rewrite !in_app_iff. cbn. auto 12.
      * destruct SC as (_ & [B|B]).
        -- assert (H : has (plain_of x true) = within x) by (apply (IH x); [cbn; auto|left; exact B]). rewrite H. destruct x; try destruct B. rewrite (within_items (AsyncStmt _ _ _ _)). cbn. rewrite andb_true_r. reflexivity.
        -- assert (H : has (plain_of x true) = within x) by (apply (IH x); [cbn; auto|right; exact B]). rewrite H. destruct x; try destruct B. rewrite (within_items (AsyncStmt _ _ _ _)). cbn. rewrite andb_true_r. reflexivity.
Qed.

Theorem statements_read : forall x, sane x -> is_stmt x -> has (stmt_of x) = within x.
Proof. intros x S M. exact (proj2 (proj2 (proj2 (proj2 (proj2 (stmts_all x S))))) M). Qed.
Theorem module_read : forall a b xs ns t, sane (FileInput a b xs ns t) -> has (module_of (FileInput a b xs ns t)) = within (FileInput a b xs ns t).
Proof.
  intros a b xs ns t S. destruct (sane_here _ S) as ((F & _) & _). cbn [module_of]. rewrite has_map, has_opts. unfold_within. apply forallb_same.
  intros y I. rewrite Forall_forall in F. apply statements_read; [eapply sane_list; [exact S|reflexivity|exact I]|apply F, I].
Qed.
Theorem eval_read : forall a b y ns t, sane (EvalInput a b y ns t) -> has (listing_of y) = within (EvalInput a b y ns t).
Proof.
  intros a b y ns t S. destruct (sane_here _ S) as ((F & _) & _). unfold_within. apply listing_read; [|apply values_listable, F]. eapply sane_item; [exact S|cbn; auto].
Qed.

(** ** Accepted texts *)
Lemma within_spec : forall x, within x = true <-> forall y, In y (subnodes x) -> beyond y = false.
Proof.
  intros x. unfold within. rewrite forallb_forall. split; intros H y I; specialize (H y I); destruct (beyond y); cbn in *; congruence.
Qed.
Lemma has_spec : forall A (o : option A), has o = true <-> exists a, o = Some a.
Proof. intros A [a|]; cbn; split; intros H; eauto; [discriminate H|destruct H as (a & H); discriminate H]. Qed.
Lemma read_exactly : forall A (o : option A) x, has o = within x -> ((exists a, o = Some a) <-> forall y, In y (subnodes x) -> beyond y = false).
Proof. intros A o x H. rewrite <- has_spec, <- within_spec, H. reflexivity. Qed.
Lemma run_sane : forall U text fuel f s x s', usual f = true -> run U fuel f s = Ok x s' ->
  (if input_fn f then on_text U text s else at_token U text s) -> sane x.
Proof. intros U text fuel f s x s' UF R O y I. split; [eapply run_schema; eauto|]. assert (T : target f = false) by (destruct f; try discriminate UF; reflexivity). eapply list_counts; eauto. Qed.
Lemma sane_sub : forall x y, sane x -> In y (subnodes x) -> sane y.
Proof. intros x y S I z J. apply S. exact (subnodes_trans _ _ (le_n _) _ _ I J). Qed.
Lemma expressions_exact : forall U text fuel f s x s', usual f = true -> run U fuel f s = Ok x s' ->
  (if input_fn f then on_text U text s else at_token U text s) ->
  forall y, In y (subnodes x) -> expression 0 y -> ((exists e, tree_of y = Some e) <-> forall z, In z (subnodes y) -> beyond z = false).
Proof. intros U text fuel f s x s' UF R O y I E. apply read_exactly, expressions_read; [|exact E]. eapply sane_sub; [eapply run_sane; eauto|exact I]. Qed.
Lemma statements_exact : forall U text fuel f s x s', usual f = true -> run U fuel f s = Ok x s' ->
  (if input_fn f then on_text U text s else at_token U text s) ->
  forall y, In y (subnodes x) -> is_stmt y -> ((exists e, stmt_of y = Some e) <-> forall z, In z (subnodes y) -> beyond z = false).
Proof. intros U text fuel f s x s' UF R O y I E. apply read_exactly, statements_read; [|exact E]. eapply sane_sub; [eapply run_sane; eauto|exact I]. Qed.

Lemma fresh_sane : forall U text f x s', parsed U f (fresh text) x s' -> input_fn f = true -> sane x.
Proof.
  intros U text f x s' (n & R) IF. eapply (run_sane U text); [|exact R|]; [destruct f; try discriminate IF; reflexivity|]. rewrite IF. apply fresh_on_text.
Qed.
Theorem module_exact : forall U text x s', parsed U F_file_input (fresh text) x s' ->
  ((exists m, module_of x = Some m) <-> forall y, In y (subnodes x) -> beyond y = false).
Proof.
  intros U text x s' P. apply read_exactly. pose proof (fresh_sane _ _ _ _ _ P eq_refl) as S. destruct P as (n & R).
  apply run_sound in R. destruct R as (s1 & l & _ & _ & IN). inversion IN; subst. apply module_read, S.
Qed.
Theorem values_exact : forall U text a b y ns t s', parsed U F_eval_input (fresh text) (EvalInput a b y ns t) s' ->
  ((exists r, listing_of y = Some r) <-> forall z, In z (subnodes y) -> beyond z = false).
Proof.
  intros U text a b y ns t s' P. apply read_exactly. pose proof (fresh_sane _ _ _ _ _ P eq_refl) as S.
  rewrite (eval_read _ _ _ _ _ S). unfold_within. reflexivity.
Qed.
Theorem interactive_exact : forall U text a b y o s', parsed U F_single_input (fresh text) (SingleInput a b (Some y) o) s' ->
  ((exists r, stmt_of y = Some r) <-> forall z, In z (subnodes y) -> beyond z = false).
Proof.
  intros U text a b y o s' P. apply read_exactly. pose proof (fresh_sane _ _ _ _ _ P eq_refl) as S.
  destruct (sane_here _ S) as ((_ & M & _) & _). apply statements_read; [|exact M]. eapply sane_item; [exact S|cbn; auto].
Qed.
(** An accepted file is the text of a module exactly if it contains none of the constructs. *)
Theorem accepted_texts : forall U text x s', parsed U F_file_input (fresh text) x s' ->
  ((exists m ts t l, module_fits m /\ history U text (map inl ts ++ [inl t]) l /\ tk_kind t = T_EOF /\ laid m (map face ts)) <->
   forall y, In y (subnodes x) -> beyond y = false).
Proof.
  intros U text x s' P. rewrite <- (module_exact _ _ _ _ P). split.
  - intros (m & ts & t & l & F & H). exists m. destruct (proj2 (text_exact U text m)) as (x' & s2 & P' & M); [split; [exact F|eauto]|].
    destruct (parsed_once _ _ _ _ _ _ _ P P') as (-> & _). exact M.
  - intros (m & M). destruct (proj1 (text_exact U text m)) as (F & ts & t & l & H); [eauto|]. exists m, ts, t, l. tauto.
Qed.
