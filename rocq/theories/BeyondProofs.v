(** What the readers of expressions and statements leave out, exactly (C63). *)
From Coq Require Import List Arith Bool Lia.
From Verif Require Import Chars SourceBuffer Token Tokenizer Node NodeView ParserState Parser GrammarSpec ParseBasics TreeSpec ParseSpec
  SoundBasics Soundness SpanProofs Completeness ParseCorollaries OrderProofs SchemaSpec SchemaProofs ExprSpec ExprProofs ExprBack StmtSpec StmtDerive BeyondSpec.
Import ListNotations.
Local Open Scope nat_scope.

Definition has {A} (o : option A) : bool := match o with Some _ => true | None => false end.
Definition item_within (i : item) : bool := match i with Leaf _ => true | Sub y => within y end.
Lemma within_items : forall x, within x = negb (beyond x) && forallb item_within (items x).
Proof.
  intros x. unfold within. rewrite subnodes_items. cbn [forallb]. f_equal. induction (items x) as [|i l IH]; [reflexivity|].
  cbn [flat_map forallb]. rewrite forallb_app, IH. destruct i; reflexivity.
Qed.
Definition sane (x : node) : Prop := forall y, In y (subnodes x) -> schema y /\ counted y.
Lemma sane_here : forall x, sane x -> schema x /\ counted x.
Proof. intros x H. apply H. rewrite subnodes_items. left. reflexivity. Qed.
Lemma sane_item : forall x y, sane x -> In (Sub y) (items x) -> sane y.
Proof. intros x y H I z J. apply H. rewrite subnodes_items. right. apply in_flat_map. exists (Sub y). auto. Qed.

(** ** Readings of lists *)
Lemma has_opts : forall A B (f : A -> option B) xs, has (opts f xs) = forallb (fun x => has (f x)) xs.
Proof. intros A B f xs. induction xs as [|x xs IH]; [reflexivity|]. cbn. rewrite <- IH. destruct (f x), (opts f xs); reflexivity. Qed.
Lemma has_elements : forall A B (f : A -> option B) xs ts, has (elements f xs ts) = (S (length ts) =? length xs) && forallb (fun x => has (f x)) xs.
Proof. intros. unfold elements. destruct (S (length ts) =? length xs); [|reflexivity]. cbn [andb]. rewrite <- has_opts. destruct (opts f xs); reflexivity. Qed.
Lemma has_trailing : forall A B (f : A -> option B) xs ts, spaced xs ts -> has (trailing f xs ts) = forallb (fun x => has (f x)) xs.
Proof.
  intros A B f xs ts S. unfold trailing. rewrite <- has_opts. destruct S as [S|S]; [unfold between_all in S|].
  - rewrite (proj2 (Nat.eqb_eq _ _) S). destruct (opts f xs); reflexivity.
  - rewrite (proj2 (Nat.eqb_neq (Datatypes.S (length ts)) (length xs))) by lia. rewrite (proj2 (Nat.eqb_eq _ _) S). destruct (opts f xs); reflexivity.
Qed.
Lemma has_map : forall A B (f : A -> B) o, has (option_map f o) = has o.
Proof. destruct o; reflexivity. Qed.
Lemma has_both : forall f a b, has (both f a b) = has a && has b.
Proof. destruct a, b; reflexivity. Qed.
Lemma has_map2 : forall A B C (f : A -> B -> C) a b, has (map2 f a b) = has a && has b.
Proof. destruct a, b; reflexivity. Qed.
Lemma has_inside : forall A B (f : A -> option B) o, has (inside f o) = match o with Some a => has (f a) | None => true end.
Proof. destruct o as [a|]; [|reflexivity]. cbn. apply has_map. Qed.
Lemma within_subs : forall xs, forallb item_within (map Sub xs) = forallb within xs.
Proof. induction xs as [|x xs IH]; [reflexivity|]. cbn. rewrite IH. reflexivity. Qed.
Lemma within_leaves : forall ts, forallb item_within (map Leaf ts) = true.
Proof. induction ts as [|t ts IH]; [reflexivity|]. cbn. exact IH. Qed.
Lemma within_opt : forall o, forallb item_within (opt_nodes o) = match o with Some y => within y | None => true end.
Proof. destruct o; cbn; rewrite ?andb_true_r; reflexivity. Qed.
Lemma within_opt_token : forall o, forallb item_within (opt_tokens o) = true.
Proof. destruct o; reflexivity. Qed.
Lemma forallb_same : forall A (f g : A -> bool) xs, (forall x, In x xs -> f x = g x) -> forallb f xs = forallb g xs.
Proof. intros A f g xs H. induction xs as [|x xs IH]; [reflexivity|]. cbn. rewrite H by (left; reflexivity). rewrite IH; [reflexivity|]. intros y I. apply H. right. exact I. Qed.
Lemma forallb_rev : forall A (f : A -> bool) xs, forallb f (rev xs) = forallb f xs.
Proof. intros A f xs. induction xs as [|x xs IH]; [reflexivity|]. cbn. rewrite forallb_app, IH. cbn. rewrite andb_true_r. apply andb_comm. Qed.

(** ** Expressions *)
Lemma never_comprehended : forall q xs ts e, comprehended q xs ts <> Some (Starred e).
Proof.
  intros q xs ts e. unfold comprehended. destruct xs as [|y [|x [|]]]; try discriminate. destruct ts; [|discriminate].
  destruct (tree_of x); [|discriminate]. destruct (clauses_of y); discriminate.
Qed.
Lemma never_starred : forall x e, tree_of x <> Some (Starred e).
Proof.
  intros x. pattern x. apply node_items_ind. clear x. intros x IH e T.
  destruct x; cbn [tree_of] in T; try discriminate T;
    repeat match type of T with
    | both _ ?a ?b = _ => destruct a, b; discriminate T
    | option_map _ ?a = _ => destruct a; discriminate T
    | (if ?b then _ else _) = _ => destruct b; [|discriminate T]
    | Some _ = Some _ => discriminate T
    end.
  all: try (change (tree_of (AtomTuple s e0 t o t0) = Some (Starred e)) in T; destruct o as [y|]; [|discriminate T];
    destruct (plain_tuple _ _ _ _ _ _ T) as [(a & b & xs & ts & ->)|[(a & b & v & z & ->)|(a & b & v & w & z & ->)]];
    [ rewrite tree_of_tuple in T; destruct (elements display xs ts) as [[|[] [|]]|]; try discriminate T; revert T; apply never_comprehended
    | rewrite tree_of_yielded in T; destruct (yielded (YieldExpr a b v z)); discriminate T
    | cbn [tree_of] in T; destruct (tree_of z); discriminate T ]).
  all: try (change (tree_of (AtomList s e0 t o t0) = Some (Starred e)) in T; destruct o as [y|]; [|discriminate T];
    destruct y; try discriminate T; rewrite tree_of_list in T; destruct (elements display l l0); try discriminate T; revert T; apply never_comprehended).
  all: try (destruct (tree_of x2); [destruct (tree_of x1), (tree_of x3)|]; discriminate T).
  all: try (solve [repeat match type of T with
    | context [match ?z with _ => _ end] => match z with
        | _ => is_var z; destruct z; try discriminate T
        | elements _ _ _ => destruct z as [[|[] [|]]|]; try discriminate T
        | option_map _ ?a => destruct a; discriminate T end
    | option_map _ ?a = _ => destruct a; discriminate T
    end]).
  destruct (tree_of x) as [d|] eqn:TX; [|discriminate T]. change (option_map (fun d => match o with Some _ => Await d | None => d end) (foldo trailer d l) = Some (Starred e)) in T.
  assert (F : forall ys c, (forall a, c <> Starred a) -> forall a, foldo trailer c ys <> Some (Starred a)).
  { induction ys as [|y ys IHy]; intros c N a E; cbn in E; [injection E as E; exact (N a E)|].
    destruct (trailer c y) as [b|] eqn:TR; [|discriminate E]. revert E. apply IHy. intros a' ->.
    destruct y; cbn in TR; try discriminate TR; try (destruct o0; try discriminate TR; destruct (arguments n); discriminate TR). destruct (arguments y); discriminate TR. }
  destruct (foldo trailer d l) as [b|] eqn:FO; [|discriminate T]. destruct o; [discriminate T|]. injection T as ->.
  revert FO. apply F. intros a ->. revert TX. apply IH. cbn [items opt_tokens app]. left. reflexivity.
Qed.

(** How the nodes that hold expressions are read. *)
Definition Reads (x : node) : Prop :=
  (expression 0 x -> has (tree_of x) = within x) /\
  match x with
  | TestListComp _ _ xs ts => forall q, has (elements display xs ts) || has (comprehended q xs ts) = within x
  | ExprList _ _ xs ts => has (trailing display xs ts) = within x
  | SyncCompForComprehension _ _ _ a _ s o => forall w, has (runs_of w a s o) = within x
  | CompForComprehension _ _ _ _ | CompIfComprehension _ _ _ _ _ => has (clauses_of x) = within x
  | TestListStarExpr _ _ xs ts => between_all xs ts -> has (elements display xs ts) = within x
  | YieldExpr _ _ _ _ => in_parentheses x -> has (yielded x) = within x
  | YieldFromExpr _ _ _ _ y => has (tree_of y) = within x
  | SetContainer _ _ xs ts => has (trailing member xs ts) = within x
  | DictionaryContainer _ _ xs ts => has (trailing dict_entry xs ts) = within x
  | VarArgsList _ _ xs ts None None None None None => has (elements parameter xs ts) = within x
  | StarExpr _ _ _ _ => has (display x) = within x
  | MulSet _ _ _ _ => has (member x) = within x
  | DictionaryEntry _ _ _ _ _ | PowerDictionary _ _ _ _ => has (dict_entry x) = within x
  | VFPDef _ _ _ | VFPAssign _ _ _ _ _ => has (parameter x) = within x
  | SubscriptList _ _ xs ts => has (elements argument xs ts) = within x
  | Subscript _ _ _ _ _ _ _ => has (argument x) = within x
  | CallTrailer _ _ _ _ _ | IndexTrailer _ _ _ _ _ | DotNameTrailer _ _ _ _ => forall e, has (trailer e x) = within x
  | _ => True
  end.
Lemma expression_any : forall k x, expression k x -> expression 0 x.
Proof. intros k x H. eapply expression_weak; [exact H|lia]. Qed.
Lemma reads_tree : forall k x, Reads x -> expression k x -> has (tree_of x) = within x.
Proof. intros k x (R & _) H. apply R. eapply expression_any, H. Qed.
Ltac unfold_within := rewrite within_items; cbn [beyond items forallb item_within negb andb app];
  rewrite ?forallb_app; cbn [forallb item_within]; rewrite ?forallb_app, ?within_subs, ?within_leaves, ?within_opt, ?within_opt_token; cbn [forallb item_within]; rewrite ?andb_true_r, ?andb_true_l.
Ltac ih y := let H := fresh "H" in assert (H : Reads y) by (match goal with IH : forall y, In (Sub y) _ -> Reads y |- _ => apply IH; cbn; auto 10 end).
Lemma has_display : forall y, Reads y -> element y -> has (display y) = within y.
Proof.
  intros y R [S|E].
  - destruct y; try destruct S. exact (proj2 R).
  - unfold display. pose proof (proj1 R E) as H. destruct (tree_of y); [exact H|]. destruct y; try exact H. destruct E.
Qed.
Lemma has_member : forall y, Reads y -> is_spread y \/ test y -> has (member y) = within y.
Proof.
  intros y R [S|E].
  - destruct y; try destruct S. exact (proj2 R).
  - unfold member. pose proof (reads_tree _ _ R E) as H. destruct (tree_of y); [exact H|]. destruct y; try exact H. destruct E.
Qed.
Lemma has_trailers : forall ys e, (forall y, In y ys -> Reads y) -> Forall is_trailer ys -> has (foldo trailer e ys) = forallb within ys.
Proof.
  induction ys as [|y ys IH]; intros e R T; [reflexivity|]. inversion T as [|? ? T1 T2]; subst. cbn.
  assert (H : has (trailer e y) = within y) by (pose proof (R y (or_introl eq_refl)) as (_ & R1); destruct y; try destruct T1; apply R1).
  rewrite <- H. destruct (trailer e y) as [c|]; [|reflexivity]. cbn. apply IH; [|exact T2]. intros z I. apply R. right. exact I.
Qed.

Lemma tuple_case : forall s e t a b xs ts u, (forall q, has (elements display xs ts) || has (comprehended q xs ts) = within (TestListComp a b xs ts)) ->
  has (tree_of (AtomTuple s e t (Some (TestListComp a b xs ts)) u)) = within (AtomTuple s e t (Some (TestListComp a b xs ts)) u).
Proof.
  intros s e t a b xs ts u R. rewrite tree_of_tuple, within_items. cbn [items opt_nodes app forallb item_within]. rewrite <- (R false), andb_true_r.
  destruct (elements display xs ts) as [es|] eqn:EL.
  - cbn [has andb orb]. rewrite andb_true_r. apply elements_split in EL as (O & L).
    destruct xs as [|x [|x2 xs]].
    + discriminate L.
    + cbn in O. destruct (display x) as [d|] eqn:D; [|discriminate O]. injection O as <-. unfold display in D. destruct (tree_of x) as [c|] eqn:TX.
      * injection D as <-. assert (N : forall z, c <> Starred z) by (intros z ->; exact (never_starred x z TX)).
        destruct x; try discriminate TX; destruct c; try reflexivity; destruct (N c eq_refl).
      * destruct x; try discriminate D. destruct (tree_of x); [|discriminate D]. injection D as <-. reflexivity.
    + apply opts_length in O. rewrite rev_length in O. destruct es as [|d1 [|d2 es]]; try discriminate O. destruct x, d1; reflexivity.
  - cbn [has andb orb]. destruct (comprehended false xs ts) as [c|] eqn:CO; cbn [has]; rewrite ?andb_false_r; [|reflexivity].
    destruct xs as [|x [|x2 xs]]; try discriminate CO. destruct x; reflexivity.
Qed.
Lemma has_targets : forall y, Reads y -> SchemaSpec.targets y -> has (targets_of y) = within y.
Proof.
  intros y R T. destruct y; try (cbn [targets_of]; rewrite has_map; apply has_display; [exact R|exact T]). exact (proj2 R).
Qed.
Lemma has_rest : forall o, (forall y, o = Some y -> Reads y) -> if_any (fun y => is_comprehension y \/ is_filter y) o ->
  has (rest_of o) = match o with Some y => within y | None => true end.
Proof.
  intros [y|] R S; [|reflexivity]. specialize (R y eq_refl). cbn [rest_of if_any] in *.
  destruct S as [S|S]; destruct y; try destruct S; try exact (proj2 R). rewrite clauses_of_for. exact (proj2 R false).
Qed.
Lemma has_runs : forall w a s o, has (runs_of w a s o) = has (targets_of a) && has (tree_of s) && has (rest_of o).
Proof. intros w a s o. unfold runs_of. destruct (targets_of a) as [(c & ts)|], (tree_of s), (rest_of o); reflexivity. Qed.

Lemma reads_all : forall x, sane x -> Reads x.
Proof.
  intros x. pattern x. apply node_items_ind. clear x. intros x IH0 SA.
  assert (IH : forall y, In (Sub y) (items x) -> Reads y) by (intros y I; apply IH0; [exact I|eapply sane_item; eauto]). clear IH0.
  destruct (sane_here x SA) as (S & C). clear SA.
  split.
  - intros X. destruct x; try (destruct X; fail); cbn [schema counted items app] in S, C, IH.
    all: try (destruct S as (S1 & S2 & S3); unfold kind_is in *; cbn [tree_of]; rewrite (is_kind _ _ S2); rewrite has_both; unfold_within;
      rewrite (reads_tree _ _ (IH _ (or_introl eq_refl)) S1); rewrite (reads_tree _ _ (IH _ (or_intror (or_intror (or_introl eq_refl)))) S3); reflexivity).
    all: try (destruct S as (S1 & S2); unfold kind_is in *; cbn [tree_of]; rewrite (is_kind _ _ S1); rewrite has_map; unfold_within;
      rewrite (reads_tree _ _ (IH _ (or_intror (or_introl eq_refl))) S2); reflexivity).
    all: try (unfold kind_is in S; cbn [tree_of]; rewrite (is_kind _ _ S); reflexivity).
    + (* NamedExpr *) destruct S as (S1 & S2 & S3). cbn [tree_of]. rewrite has_both. unfold_within. ih x1. ih x2. rewrite (reads_tree _ _ H S1), (reads_tree _ _ H0 S3). reflexivity.
    + (* Test *) destruct S as (S1 & S2 & S3 & S4 & S5). cbn [tree_of]. unfold_within. ih x1. ih x2. ih x3.
      rewrite <- (reads_tree _ _ H S1), <- (reads_tree _ _ H0 S3), <- (reads_tree _ _ H1 S5). destruct (tree_of x1), (tree_of x2), (tree_of x3); reflexivity.
    + (* Lambda *) destruct S as (S1 & S2 & S3 & S4). destruct o as [y|].
      * ih y. ih x. destruct y; try destruct S2. unfold_within. rewrite <- (reads_tree _ _ H0 S4).
        destruct o; [rewrite within_items; reflexivity|]. destruct o0; [rewrite within_items; reflexivity|]. destruct o1; [rewrite within_items; reflexivity|].
        destruct o2; [rewrite within_items; reflexivity|]. destruct o3; [rewrite within_items; reflexivity|].
        rewrite tree_of_lambda. destruct H as (_ & H). rewrite <- H. destruct (elements parameter l l0); [|reflexivity]. rewrite has_map. reflexivity.
      * ih x. cbn [tree_of]. rewrite has_map. unfold_within. rewrite (reads_tree _ _ H S4). reflexivity.
    + (* NotTest *) destruct S as (S1 & S2). cbn [tree_of]. rewrite has_map. unfold_within. ih x. rewrite (reads_tree _ _ H S2). reflexivity.
    + (* NotIn *) destruct S as ((S1 & S2 & S3) & S4). cbn [tree_of]. rewrite has_both. unfold_within. ih x1. ih x2. rewrite (reads_tree _ _ H S1), (reads_tree _ _ H0 S3). reflexivity.
    + (* IsNot *) destruct S as ((S1 & S2 & S3) & S4). cbn [tree_of]. rewrite has_both. unfold_within. ih x1. ih x2. rewrite (reads_tree _ _ H S1), (reads_tree _ _ H0 S3). reflexivity.
    + (* Power *) destruct S as (S1 & S2 & S3). cbn [tree_of]. rewrite has_both. unfold_within. ih x1. ih x2. rewrite (reads_tree _ _ H S1), (reads_tree _ _ H0 S3). reflexivity.
    + (* AtomExpr *) destruct S as (S1 & S2 & S3 & S4). rewrite tree_of_atom_expr. unfold_within.
      assert (H : Reads x) by (apply IH; apply in_or_app; right; left; reflexivity).
      assert (H0 : forall y, In y l -> Reads y) by (intros y I; apply IH; apply in_or_app; right; right; apply in_map; exact I).
      rewrite <- (reads_tree _ _ H S2). destruct (tree_of x) as [d|]; [|reflexivity]. rewrite has_map. cbn [has andb]. apply has_trailers; assumption.
    + (* AtomString *) destruct S as (S1 & S2). destruct l as [|t l]; [congruence|]. unfold_within. reflexivity.
    + (* AtomTuple *) destruct S as (_ & S). destruct o as [y|]; [|reflexivity]. ih y. destruct S as [S|S]; destruct y; try destruct S.
      * rewrite tree_of_yielded, has_map. unfold_within. apply (proj2 H). exact S.
      * cbn [tree_of]. rewrite has_map. unfold_within. exact (proj2 H).
      * apply tuple_case. exact (proj2 H).
    + (* AtomList *) destruct S as (_ & S). destruct o as [y|]; [|reflexivity]. ih y. destruct y; try destruct S. rewrite tree_of_list. unfold_within.
      rewrite <- (proj2 H true). destruct (elements display l l0); reflexivity.
    + (* AtomDictionary *) destruct S as (_ & y & -> & S). ih y. destruct y; try destruct S. rewrite tree_of_dictionary, has_map. unfold_within. exact (proj2 H).
    + (* AtomSet *) destruct S as (_ & y & -> & S). ih y. destruct y; try destruct S. rewrite tree_of_set, has_map. unfold_within. exact (proj2 H).
  - destruct x; try exact I; cbn [schema counted items app] in S, C, IH.
    + destruct S as (_ & S). ih x. change (has (option_map Starred (tree_of x)) = within (StarExpr s e t x)). rewrite has_map. unfold_within. exact (reads_tree _ _ H S).
    + intros q. rewrite has_elements. destruct S as (_ & [(S1 & S2)|(y & z & -> & -> & S1 & S2)]).
      * unfold between_all in S1. rewrite (proj2 (Nat.eqb_eq _ _) S1). cbn [andb].
        assert (CO : comprehended q l l0 = None) by (unfold comprehended; destruct l as [|? [|? [|]]]; try reflexivity; destruct l0; [discriminate S1|reflexivity]).
        assert (B : beyond (TestListComp s e l l0) = false)
          by (cbn [beyond]; destruct l as [|? [|[] [|]]]; try reflexivity; destruct l0; [discriminate S1|reflexivity]).
        rewrite CO, orb_false_r, within_items, B. cbn [negb andb items]. rewrite forallb_app, within_subs, within_leaves, andb_true_r.
        apply forallb_same. intros y I. rewrite Forall_forall in S2.
        apply has_display; [apply IH; apply in_or_app; left; apply in_map; exact I|apply S2; exact I].
      * cbn [length Nat.eqb andb orb comprehended]. ih y. ih z. cbn [map app forallb] in *.
        assert (HY : has (clauses_of y) = within y) by (destruct y; try destruct S1; [rewrite clauses_of_for; exact (proj2 H false)|exact (proj2 H)]).
        rewrite within_items. cbn [items map app forallb item_within]. rewrite andb_true_r. destruct S2 as [S2|S2].
        { destruct z; try destruct S2. reflexivity. }
        { replace (beyond (TestListComp s e [y; z] [])) with false by (destruct z; try reflexivity; destruct S2). cbn [negb andb].
          rewrite <- HY, <- (reads_tree _ _ H0 S2). destruct (tree_of z), (clauses_of y); reflexivity. }
    + intros e1. destruct S as (_ & S). destruct o as [y|]; [|reflexivity]. ih y. destruct y; try destruct S. cbn [trailer arguments]. rewrite has_map. unfold_within. exact (proj2 H).
    + intros e1. destruct S as (_ & S). ih x. destruct x; try destruct S. cbn [trailer arguments]. rewrite has_map. unfold_within. exact (proj2 H).
    + intros e1. reflexivity.
    + rewrite has_elements. destruct S as (S1 & S2 & _). unfold between_all in S1. unfold_within. rewrite (proj2 (Nat.eqb_eq _ _) S1). cbn [andb].
      apply forallb_same. intros y I. rewrite Forall_forall in S2. specialize (S2 y I). assert (H : Reads y) by (apply IH; apply in_or_app; left; apply in_map; exact I).
      destruct y; try destruct S2. exact (proj2 H).
    + destruct S as (S1 & _ & _ & _ & S5 & S6). destruct o0 as [t|].
      * rewrite within_items. destruct o; reflexivity.
      * destruct (S5 eq_refl) as (N & -> & -> & ->). destruct o as [y|]; [|congruence]. ih y. unfold_within. exact (reads_tree _ _ H S1).
    + (* ExprList *) destruct S as (_ & S2 & _ & _ & S4). rewrite has_trailing by exact S4. unfold_within.
      apply forallb_same. intros y I. rewrite Forall_forall in S2. apply has_display; [apply IH; apply in_or_app; left; apply in_map; exact I|exact (S2 y I)].
    + (* DictionaryContainer *) destruct S as (_ & S2 & _ & S4). rewrite has_trailing by (destruct S4 as [S4|(S4 & _)]; [left|right]; exact S4). unfold_within.
      apply forallb_same. intros y I. rewrite Forall_forall in S2. specialize (S2 y I).
      assert (H : Reads y) by (apply IH; apply in_or_app; left; apply in_map; exact I). destruct y; try destruct S2; exact (proj2 H).
    + destruct S as (S1 & S2 & S3). ih x1. ih x2. cbn [dict_entry]. rewrite has_both. unfold_within. rewrite (reads_tree _ _ H S1), (reads_tree _ _ H0 S3). reflexivity.
    + (* SetContainer *) destruct S as (_ & S2 & _ & S4). rewrite has_trailing by exact S4. unfold_within.
      apply forallb_same. intros y I. rewrite Forall_forall in S2. apply has_member; [apply IH; apply in_or_app; left; apply in_map; exact I|exact (S2 y I)].
    + destruct S as (_ & S). ih x. change (has (option_map Starred (tree_of x)) = within (MulSet s e t x)). rewrite has_map. unfold_within. exact (reads_tree _ _ H S).
    + destruct S as (_ & S). ih x. cbn [dict_entry]. rewrite has_map. unfold_within. exact (reads_tree _ _ H S).
    + (* SyncCompFor *) intros w. destruct S as (_ & S2 & _ & _ & S5 & S6). ih x1. ih x2. unfold_within. rewrite has_runs, (has_targets _ H S2), (reads_tree _ _ H0 S5).
      rewrite has_rest; [|intros y ->; apply IH; cbn; auto 10|exact S6]. rewrite ?andb_assoc. reflexivity.
    + (* CompFor *) destruct S as (_ & S). ih x. destruct x; try destruct S. unfold_within. rewrite clauses_of_async. exact (proj2 H true).
    + (* CompIf *) destruct S as (_ & S2 & S3). ih x. rewrite clauses_of_if.
      assert (X : expression 0 x) by (destruct x; try exact (expression_any _ _ S2); cbn; lia). unfold_within.
      rewrite <- (reads_tree _ _ H X). rewrite <- (has_rest o); [|intros y ->; apply IH; cbn; auto 10|exact S3].
      destruct (tree_of x), (rest_of o); reflexivity.
    + (* YieldExpr *) intros P. destruct S as (_ & S). ih x. unfold_within.
      destruct x; try (cbn [yielded]; rewrite has_map; apply has_display; [exact H|destruct S as [S|S]; [left; exact S|right; exact (expression_any _ _ S)]]).
      exact (proj2 H P).
    + (* YieldFromExpr *) destruct S as (_ & _ & S). ih x. unfold_within. exact (reads_tree _ _ H S).
    + (* TestListStarExpr *) intros P. destruct S as (_ & S2 & _). rewrite has_elements. unfold between_all in P. rewrite (proj2 (Nat.eqb_eq _ _) P). cbn [andb].
      unfold_within. rewrite ?within_subs. rewrite ?forallb_rev. apply forallb_same. intros y I. rewrite Forall_forall in S2.
      apply has_display; [apply IH; apply in_or_app; left; apply in_map; exact I|].
      destruct (S2 y I) as [E|E]; [left; exact E|right; exact (expression_any _ _ E)].
    + destruct o; [exact I|]. destruct o0; [exact I|]. destruct o1; [exact I|]. destruct o2; [exact I|]. destruct o3; [exact I|].
      rewrite has_elements. destruct S as (S1 & S2). rewrite within_items. cbn [beyond items opt_tokens opt_nodes app]. f_equal.
      { apply Nat.eqb_eq. apply S2; reflexivity. }
      rewrite app_nil_r, forallb_app, within_subs, within_leaves, andb_true_r. apply forallb_same. intros y I. rewrite Forall_forall in S1. specialize (S1 y I).
      assert (H : Reads y) by (apply IH; apply in_or_app; left; apply in_map; exact I). destruct y; try destruct S1; exact (proj2 H).
    + destruct S as (S1 & S2 & S3). ih x2. destruct x1; try destruct S1. cbn [parameter]. rewrite has_map.
      unfold_within.
      exact (reads_tree _ _ H S3).
    + reflexivity.
Qed.

Theorem expressions_read : forall x, sane x -> expression 0 x -> has (tree_of x) = within x.
Proof. intros x S E. exact (proj1 (reads_all x S) E). Qed.
