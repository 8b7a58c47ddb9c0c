(** Every expression tree of the parser stands for the tokens it was read from (the converse half of C35). *)
From Coq Require Import List Arith Lia Permutation.
From Verif Require Import Chars SourceBuffer Token Tokenizer Node NodeView ParserState Parser GrammarSpec ParseBasics TreeSpec ParseSpec
  SoundBasics Soundness SpanProofs Completeness ParseCorollaries OrderProofs SchemaSpec SchemaProofs ExprSpec ExprProofs.
Import ListNotations.
Local Open Scope nat_scope.

Definition listing (Q : ast -> Prop) (l : list ptok) (es : list ast) : Prop :=
  es <> [] /\ faces l = between (mark PyComa) (map flatten es) /\ Forall Q es.
(** A proper tree that may stand in a place. *)
Definition placed (f : ast -> bool) (e : ast) : Prop := proper e /\ f e = true.
(** The same where a comma may follow. *)
Definition ending (Q : ast -> Prop) (l : list ptok) (c : bool) (es : list ast) : Prop :=
  es <> [] /\ faces l = between (mark PyComa) (map flatten es) ++ comma_if c /\ Forall Q es.
(** Clauses of a comprehension. *)
Definition clausal (m : list (kind * payload)) (cs : list ast) : Prop :=
  m = flat_map flatten cs /\ forallb in_comprehension cs = true /\ Forall (operand 0) cs.
Definition yielded (x : node) : option (list ast) :=
  match x with
  | YieldExpr _ _ _ (TestListStarExpr _ _ xs ts) => elements display xs ts
  | YieldExpr _ _ _ y => option_map (fun e => [e]) (display y)
  | _ => None
  end.
Definition recovers (l : list ptok) (x : node) : Prop :=
  (forall e, tree_of x = Some e -> faces l = flatten e /\ proper e /\ rank x = Some (level e)) /\
  match x with
  | TestListComp _ _ xs ts => 
      (forall es, elements display xs ts = Some es -> listing (placed in_display) l es) /\
      (forall q e, comprehended q xs ts = Some e -> exists a cs, e = Comp q a cs /\ faces l = flatten a ++ flat_map flatten cs /\
        stands a = true /\ proper a /\ runs_over cs = true /\ forallb in_comprehension cs = true /\ Forall (operand 0) cs)
  | ExprList _ _ xs ts => forall c es, trailing display xs ts = Some (c, es) -> ending (placed in_display) l c es
  | SyncCompForComprehension _ _ _ a _ s o => forall w cs, runs_of w a s o = Some cs ->
      clausal ((if w then [mark PyAsync] else []) ++ faces l) cs /\ runs_over cs = true
  | CompForComprehension _ _ _ _ => forall cs, clauses_of x = Some cs -> clausal (faces l) cs /\ runs_over cs = true
  | CompIfComprehension _ _ _ _ _ => forall cs, clauses_of x = Some cs -> clausal (faces l) cs
  | TestListStarExpr _ _ xs ts => forall es, elements display xs ts = Some es -> listing (placed in_set) l es
  | YieldExpr _ _ _ _ => forall es, yielded x = Some es ->
      es <> [] /\ faces l = mark PyYield :: between (mark PyComa) (map flatten es) /\ Forall (placed in_set) es
  | YieldFromExpr _ _ _ _ y => forall e, tree_of y = Some e -> faces l = mark PyYield :: mark PyFrom :: flatten e /\ operand 1 e
  | Lambda _ _ _ _ _ b => forall e, tree_of b = Some e -> rank b = Some (level e)
  | SetContainer _ _ xs ts => forall c es, trailing member xs ts = Some (c, es) -> ending (placed in_set) l c (rev es)
  | DictionaryContainer _ _ xs ts => forall c es, trailing dict_entry xs ts = Some (c, es) ->
      ending (placed in_dictionary) l c (rev es) /\ length es <= (if c then 1 else 2)
  | VarArgsList _ _ xs ts None None None None None => forall es, elements parameter xs ts = Some es -> listing (placed in_lambda) l es
  | StarExpr _ _ _ _ => forall e, display x = Some e -> faces l = flatten e /\ placed in_display e
  | MulSet _ _ _ _ => forall e, member x = Some e -> faces l = flatten e /\ placed in_set e
  | DictionaryEntry _ _ _ _ _ | PowerDictionary _ _ _ _ => forall e, dict_entry x = Some e -> faces l = flatten e /\ placed in_dictionary e
  | VFPDef _ _ _ | VFPAssign _ _ _ _ _ => forall e, parameter x = Some e -> faces l = flatten e /\ placed in_lambda e
  | SubscriptList _ _ xs ts => forall es, elements argument xs ts = Some es -> listing (operand 1) l es
  | Subscript _ _ _ _ _ _ _ => forall e, argument x = Some e -> faces l = flatten e /\ operand 1 e
  | CallTrailer _ _ _ _ _ | IndexTrailer _ _ _ _ _ | DotNameTrailer _ _ _ _ =>
      forall e d, trailer e x = Some d -> operand 15 e -> flatten d = flatten e ++ faces l /\ proper d /\ level d = 15
  | _ => True
  end.
Inductive pieces : list ptok -> list item -> Prop :=
| pieces_nil : pieces [] []
| pieces_leaf p t l ps : pieces l ps -> pieces ((p, t) :: l) (Leaf t :: ps)
| pieces_sub l1 l2 y ps : recovers l1 y -> pieces l2 ps -> pieces (l1 ++ l2) (Sub y :: ps).

Lemma faces_join : forall a b, faces (a ++ b) = faces a ++ faces b.
Proof. intros a b. apply map_app. Qed.
Lemma faces_step : forall p t l, faces ((p, t) :: l) = face t :: faces l.
Proof. reflexivity. Qed.
Lemma face_mark : forall k t, tk_kind t = k -> carries k = false -> face t = mark k.
Proof. intros k t <- C. unfold face. rewrite C. reflexivity. Qed.
Lemma pieces_leaf_inv : forall l t ps, pieces l (Leaf t :: ps) -> exists p l', l = (p, t) :: l' /\ pieces l' ps.
Proof. intros l t ps H. inversion H; subst. eauto. Qed.
Lemma pieces_sub_inv : forall l y ps, pieces l (Sub y :: ps) -> exists l1 l2, l = l1 ++ l2 /\ recovers l1 y /\ pieces l2 ps.
Proof. intros l y ps H. inversion H; subst. eauto. Qed.
Lemma pieces_nil_inv : forall l, pieces l [] -> l = [].
Proof. intros l H. inversion H; reflexivity. Qed.
Ltac cut_pieces := repeat match goal with
  | H : pieces _ (Leaf _ :: _) |- _ => let p := fresh "p" in let l := fresh "l" in apply pieces_leaf_inv in H as (p & l & -> & H)
  | H : pieces _ (Sub _ :: _) |- _ => let l1 := fresh "l" in let l2 := fresh "l" in let R := fresh "R" in apply pieces_sub_inv in H as (l1 & l2 & -> & R & H)
  | H : pieces _ [] |- _ => apply pieces_nil_inv in H as ->
  end.
Lemma is_true : forall k t, is k t = true -> tk_kind t = k.
Proof. intros k t H. unfold is in H. apply kind_eqb_eq in H. congruence. Qed.

Lemma expression_level : forall k x e, expression k x -> rank x = Some (level e) -> k <= level e.
Proof. intros k x e H R. unfold expression in H. rewrite R in H. exact H. Qed.
Lemma binary_recovers : forall n k x a t b l e, infix_level k = Some n -> left n k a t b ->
  pieces l [Sub a; Leaf t; Sub b] ->
  (if is k t then both (Infix k) (tree_of a) (tree_of b) else None) = Some e -> rank x = Some n ->
  faces l = flatten e /\ proper e /\ rank x = Some (level e).
Proof.
  intros n k x a t b l e N (EA & K & EB) H T R. cut_pieces. destruct (is k t); [|discriminate T].
  destruct (tree_of a) as [d|] eqn:TA; [|discriminate T]. destruct (tree_of b) as [c|] eqn:TB; [|discriminate T]. injection T as <-.
  destruct (proj1 R0 d TA) as (FA & PA & RA). destruct (proj1 R1 c TB) as (FB & PB & RB).
  pose proof (expression_level _ _ _ EA RA). pose proof (expression_level _ _ _ EB RB).
  split; [|cbn [proper level]; rewrite N; auto]. rewrite app_nil_r. cbn [flatten]. rewrite faces_join, faces_step.
  rewrite FA, FB. rewrite (face_mark k t); [reflexivity|exact K|]. destruct k; try discriminate N; reflexivity.
Qed.
Lemma unary_recovers : forall k x a t l e, is_unary k -> kind_is k t -> expression 12 a -> pieces l [Leaf t; Sub a] ->
  (if is k t then option_map (Unary k) (tree_of a) else None) = Some e -> rank x = Some 12 ->
  faces l = flatten e /\ proper e /\ rank x = Some (level e).
Proof.
  intros k x a t l e U K EA H T R. cut_pieces. destruct (is k t); [|discriminate T].
  destruct (tree_of a) as [d|] eqn:TA; [|discriminate T]. injection T as <-. destruct (proj1 R0 d TA) as (FA & PA & RA).
  pose proof (expression_level _ _ _ EA RA). split; [|cbn [proper level]; auto]. rewrite app_nil_r. cbn [flatten]. rewrite faces_step. rewrite FA. rewrite (face_mark k t); [reflexivity|exact K|]. destruct U as [<-|[<-|[<-|[]]]]; reflexivity.
Qed.
Lemma word_recovers : forall k x t l e, In k [T_AtomName; T_AtomNumber; PyElipsis; PyNone; PyTrue; PyFalse] -> kind_is k t -> pieces l [Leaf t] ->
  (if is k t then Some (Word k (snd (face t))) else None) = Some e -> rank x = Some 16 ->
  faces l = flatten e /\ proper e /\ rank x = Some (level e).
Proof.
  intros k x t l e I K H T R. cut_pieces. destruct (is k t); [|discriminate T]. injection T as <-. unfold kind_is in K.
  split; [unfold faces, face; cbn; rewrite K; reflexivity|]. split; [|exact R]. split; [exact I|]. intros C. unfold face. rewrite K, C. reflexivity.
Qed.

(** Elements between separators. *)
Lemma elements_split : forall A B (r : A -> option B) xs ts es, elements r xs ts = Some es ->
  opts r (rev xs) = Some es /\ S (length (rev ts)) = length (rev xs).
Proof.
  intros A B r xs ts es H. unfold elements in H. destruct (S (length ts) =? length xs) eqn:L; [|discriminate H]. apply Nat.eqb_eq in L.
  rewrite !rev_length. split; [|exact L]. destruct (opts r xs) as [ds|] eqn:O; [|discriminate H]. injection H as <-.
  clear L. revert ds O. induction xs as [|x xs IH]; intros ds O; [injection O as <-; reflexivity|]. rewrite opts_cons in O.
  destruct (r x) as [d|] eqn:R; [|discriminate O]. destruct (opts r xs) as [cs|]; [|discriminate O]. injection O as <-.
  cbn [rev]. specialize (IH cs eq_refl). clear - IH R. revert IH. generalize (rev cs) as bs. generalize (rev xs) as ys. intros ys. induction ys as [|y ys IY]; intros bs H.
  - injection H as <-. cbn. rewrite R. reflexivity.
  - rewrite opts_cons in H. cbn [app]. rewrite opts_cons. destruct (r y); [|discriminate H]. destruct (opts r ys) as [us|]; [|discriminate H]. injection H as <-.
    rewrite (IY us eq_refl). reflexivity.
Qed.
Lemma opts_length : forall A B (r : A -> option B) xs es, opts r xs = Some es -> length es = length xs.
Proof.
  intros A B r. induction xs as [|x xs IH]; intros es H; [injection H as <-; reflexivity|]. rewrite opts_cons in H.
  destruct (r x); [|discriminate H]. destruct (opts r xs) as [ds|]; [|discriminate H]. injection H as <-. cbn. rewrite (IH ds eq_refl). reflexivity.
Qed.
Lemma weave_recovers : forall Q (r : node -> option ast) xs ts es, opts r xs = Some es -> S (length ts) = length xs -> commas ts ->
  (forall x l e, In x xs -> recovers l x -> r x = Some e -> faces l = flatten e /\ Q e) ->
  forall l, pieces l (weave (map one xs) ts) -> listing Q l es.
Proof.
  intros Q r xs. induction xs as [|x xs IH]; intros ts es O L C H l P; [discriminate L|]. rewrite opts_cons in O.
  destruct (r x) as [e|] eqn:R; [|discriminate O]. destruct (opts r xs) as [ds|] eqn:O'; [|discriminate O]. injection O as <-.
  destruct ts as [|t ts].
  - destruct xs; [|discriminate L]. injection O' as <-. cbn in P. cut_pieces. rewrite app_nil_r.
    destruct (H x l0 e (or_introl eq_refl) R0 R) as (F & OP). split; [discriminate|]. split; [cbn; rewrite app_nil_r; exact F|repeat constructor; apply OP].
  - inversion C as [|? ? K C']; subst. cbn [map weave one app] in P. cut_pieces. destruct (H x l0 e (or_introl eq_refl) R0 R) as (F & OP).
    destruct (IH ts ds eq_refl) with (l := l) as (N & FL & OS); auto. { intros y m d I. apply H. right. exact I. }
    split; [discriminate|]. split; [|constructor; assumption]. rewrite faces_join, faces_step. rewrite F, FL.
    rewrite (face_mark PyComa t K eq_refl). destruct ds; [congruence|]. reflexivity.
Qed.

Lemma weave_ends : forall Q (r : node -> option ast) xs ts es, opts r xs = Some es -> xs <> [] -> length ts = length xs -> commas ts ->
  (forall x l e, In x xs -> recovers l x -> r x = Some e -> faces l = flatten e /\ Q e) ->
  forall l, pieces l (weave (map one xs) ts) -> ending Q l true es.
Proof.
  intros Q r xs. induction xs as [|x xs IH]; intros ts es O N L C H l P; [congruence|]. rewrite opts_cons in O.
  destruct (r x) as [e|] eqn:R; [|discriminate O]. destruct (opts r xs) as [ds|] eqn:O'; [|discriminate O]. injection O as <-.
  destruct ts as [|t ts]; [discriminate L|]. injection L as L. inversion C as [|? ? K C']; subst. cbn [map weave one app] in P. cut_pieces.
  destruct (H x l0 e (or_introl eq_refl) R0 R) as (F & OP). destruct xs as [|y ys].
  - destruct ts; [|discriminate L]. injection O' as <-. cbn in P. cut_pieces. split; [discriminate|]. split; [|repeat constructor; exact OP].
    cbn. rewrite app_nil_r. rewrite faces_join, faces_step. rewrite F, (face_mark PyComa t K eq_refl). reflexivity.
  - destruct (IH ts ds eq_refl) with (l := l) as (N2 & FL & OS); auto; [discriminate| |]. { intros z m d I. apply H. right. exact I. }
    split; [discriminate|]. split; [|constructor; assumption]. rewrite faces_join, faces_step. rewrite F, FL.
    rewrite (face_mark PyComa t K eq_refl). destruct ds; [congruence|]. cbn [map between flat_map]. rewrite <- !app_assoc. reflexivity.
Qed.
Lemma trailing_recovers : forall Q (r : node -> option ast) xs ts c es, trailing r xs ts = Some (c, es) -> xs <> [] -> commas ts ->
  (forall x l e, In x xs -> recovers l x -> r x = Some e -> faces l = flatten e /\ Q e) ->
  forall l, pieces l (weave (map one xs) ts) -> ending Q l c es.
Proof.
  intros Q r xs ts c es T N C H l P. unfold trailing in T. destruct (S (length ts) =? length xs) eqn:L.
  - apply Nat.eqb_eq in L. destruct (opts r xs) as [ds|] eqn:O; [|discriminate T]. injection T as <- <-.
    destruct (weave_recovers Q r xs ts ds O L C H l P) as (A & B & D). split; [exact A|]. split; [|exact D]. cbn [comma_if]. rewrite app_nil_r. exact B.
  - destruct (length ts =? length xs) eqn:L2; [|discriminate T]. apply Nat.eqb_eq in L2. destruct (opts r xs) as [ds|] eqn:O; [|discriminate T]. injection T as <- <-.
    eapply weave_ends; eauto.
Qed.
Lemma stored_recovers : forall Q (r : node -> option ast) xs ts c es, trailing r xs ts = Some (c, es) -> xs <> [] -> commas ts ->
  (forall x l e, In x xs -> recovers l x -> r x = Some e -> faces l = flatten e /\ Q e) ->
  forall l, pieces l (weave (map one (rev xs)) (rev ts)) -> ending Q l c (rev es).
Proof.
  intros Q r xs ts c es T N C H l P. eapply trailing_recovers; [apply set_back; exact T| |apply Forall_rev'; exact C| |exact P].
  - intros X. apply N. rewrite <- (rev_involutive xs), X. reflexivity.
  - intros x m e I. apply H. apply in_rev. exact I.
Qed.

Lemma trailers_recover : forall ys l e d, pieces l (map Sub ys) -> Forall is_trailer ys -> operand 15 e -> foldo trailer e ys = Some d ->
  flatten d = flatten e ++ faces l /\ operand 15 d /\ (ys <> [] -> level d = 15).
Proof.
  induction ys as [|y ys IH]; intros l e d P T OE F.
  - cbn in P. cut_pieces. injection F as <-. cbn. rewrite app_nil_r. split; [reflexivity|]. split; [assumption|congruence].
  - cbn [map] in P. cut_pieces. inversion T as [|? ? T1 T2]; subst. cbn in F. destruct (trailer e y) as [c|] eqn:TR; [|discriminate F].
    fold (foldo trailer c ys) in F. destruct R as (_ & R). assert (Z : flatten c = flatten e ++ faces l0 /\ proper c /\ level c = 15).
    { destruct y; try destruct T1; apply (R e c TR OE). }
    destruct Z as (Z1 & Z2 & Z3). destruct (IH l1 c d P T2) as (Y1 & Y2 & Y3); [split; [exact Z2|lia]|exact F|].
    split; [rewrite Y1, Z1, faces_join, app_assoc; reflexivity|]. split; [exact Y2|]. intros _. destruct ys; [injection F as <-; exact Z3|apply Y3; discriminate].
Qed.
Lemma strings_recover : forall ts l, pieces l (map Leaf ts) -> Forall (kind_is T_AtomString) ts -> faces l = map (pair T_AtomString) (map tk_payload ts).
Proof.
  induction ts as [|t ts IH]; intros l P F; cbn [map] in P |- *; cut_pieces; [reflexivity|]. inversion F as [|? ? K F']; subst.
  rewrite faces_step. unfold face at 1. unfold kind_is in K. rewrite K. cbn [carries]. f_equal. apply IH; assumption.
Qed.
Lemma list_case : forall Q r l xs ts es, elements r xs ts = Some es -> commas ts ->
  (forall x l e, In x xs -> recovers l x -> r x = Some e -> faces l = flatten e /\ Q e) ->
  pieces l (weave (map one (rev xs)) (rev ts)) -> listing Q l es.
Proof.
  intros Q r l xs ts es O C H P. destruct (elements_split _ _ _ _ _ _ O) as (O' & L). eapply weave_recovers; eauto.
  - apply Forall_rev'. exact C.
  - intros x m e I. apply H. apply in_rev. exact I.
Qed.

Lemma tree_stands_alone : forall x e, tree_of x = Some e -> rank x = Some (level e) -> stands e = true.
Proof.
  intros x e T R. destruct (level e) as [|n] eqn:L; [|apply level_stands; lia]. destruct x; try discriminate R.
  - cbn [tree_of] in T. destruct (tree_of x1); [|discriminate T]. destruct (tree_of x2); [|discriminate T]. injection T as <-. reflexivity.
  - cbn [rank] in R. destruct o; discriminate R.
Qed.
Lemma absurd_none : forall A (e : A), None = Some e -> False.
Proof. discriminate. Qed.
Lemma tree_of_yielded : forall s f t a b v y u, tree_of (AtomTuple s f t (Some (YieldExpr a b v y)) u) = option_map Yielding (yielded (YieldExpr a b v y)).
Proof.
  intros s f t a b v y u.
  destruct y; try reflexivity; match goal with |- _ = option_map Yielding (yielded (YieldExpr _ _ _ ?y)) =>
    change (option_map (fun e => Yielding [e]) (display y) = option_map Yielding (option_map (fun e => [e]) (display y))); destruct (display y); reflexivity end.
Qed.
Lemma plain_tuple : forall s f t y u e, tree_of (AtomTuple s f t (Some y) u) = Some e ->
  (exists a c xs ts, y = TestListComp a c xs ts) \/ (exists a c v z, y = YieldExpr a c v z) \/ (exists a c v w z, y = YieldFromExpr a c v w z).
Proof.
  intros s f t y u e T. destruct y; first [left; do 4 eexists; reflexivity | right; left; do 4 eexists; reflexivity | right; right; do 5 eexists; reflexivity
    | exfalso; apply (absurd_none _ _ T)].
Qed.
Lemma plain_list : forall s f t y u e, tree_of (AtomList s f t (Some y) u) = Some e -> exists a c xs ts, y = TestListComp a c xs ts.
Proof.
  intros s f t y u e T. destruct y; try (do 4 eexists; reflexivity); exfalso; apply (absurd_none _ _ T).
Qed.
Lemma plain_dictionary : forall s f t y u e, tree_of (AtomDictionary s f t (Some y) u) = Some e -> exists a c xs ts, y = DictionaryContainer a c xs ts.
Proof.
  intros s f t y u e T. destruct y; try (do 4 eexists; reflexivity); exfalso; apply (absurd_none _ _ T).
Qed.
Lemma plain_set : forall s f t y u e, tree_of (AtomSet s f t (Some y) u) = Some e -> exists a c xs ts, y = SetContainer a c xs ts.
Proof.
  intros s f t y u e T. destruct y; try (do 4 eexists; reflexivity); exfalso; apply (absurd_none _ _ T).
Qed.
Lemma plain_lambda : forall s f t y u b e, tree_of (Lambda s f t (Some y) u b) = Some e ->
  exists a c xs ts, y = VarArgsList a c xs ts None None None None None.
Proof.
  intros s f t y u b e T.
  change ((match y with
    | VarArgsList _ _ xs ts None None None None None => match elements parameter xs ts with Some ps => option_map (Func ps) (tree_of b) | None => None end
    | _ => None
    end) = Some e) in T. revert T. generalize (tree_of b) as r. intros r T.
  destruct y; try discriminate T. destruct o; [discriminate T|]. destruct o0; [discriminate T|]. destruct o1; [discriminate T|]. destruct o2; [discriminate T|].
  destruct o3; [discriminate T|]. eauto.
Qed.
Lemma placed_operands : forall f es, Forall (placed f) es -> forallb f es = true /\ Forall (operand 0) es.
Proof.
  intros f es H. induction H as [|e es (P & B) H (IB & IO)]; [split; [reflexivity|constructor]|]. cbn [forallb]. rewrite B, IB.
  split; [reflexivity|]. constructor; [split; [exact P|lia]|exact IO].
Qed.
Lemma displayed_recovers : forall y m d, recovers m y -> display y = Some d -> faces m = flatten d /\ placed in_display d.
Proof.
  intros y m d R T.
  assert (Z : tree_of y = Some d \/ exists s f t z, y = StarExpr s f t z) by (unfold display, displayed in T; destruct (tree_of y); [left; exact T|]; destruct y; try discriminate T; right; do 4 eexists; reflexivity).
  destruct Z as [Z|(s1 & f1 & t1 & z1 & ->)]; [|exact (proj2 R d T)]. destruct (proj1 R d Z) as (F & PE & RE).
  split; [exact F|]. split; [exact PE|]. pose proof (tree_stands_alone y d Z RE) as SD. destruct d; try reflexivity; exact SD.
Qed.
Lemma value_recovers : forall y m d, star_or_test y -> recovers m y -> display y = Some d -> faces m = flatten d /\ placed in_set d.
Proof.
  intros y m d S R T. destruct (displayed_recovers y m d R T) as (F & P & _). split; [exact F|]. split; [exact P|].
  destruct S as [S|S].
  - destruct y; try destruct S. change (option_map Starred (tree_of y) = Some d) in T. destruct (tree_of y); [|discriminate T]. injection T as <-. reflexivity.
  - assert (Z : tree_of y = Some d) by (unfold display, displayed in T; destruct (tree_of y); [exact T|]; destruct y; try discriminate T; destruct S).
    destruct (proj1 R d Z) as (_ & _ & RE). pose proof (expression_level _ _ _ S RE) as LD. apply Nat.leb_le in LD. destruct d; try exact LD; reflexivity.
Qed.
(** Comprehensions. *)
Lemma closed_back : forall xs ts c es, trailing display xs ts = Some (c, es) -> length ts = length xs \/ (exists ys y, xs = ys ++ [y] /\ is_star y) -> closed_targets c es = true.
Proof.
  intros xs ts c es T [H|(ys & y & -> & SY)].
  - unfold trailing in T. rewrite H in T. destruct (S (length xs) =? length xs) eqn:L; [apply Nat.eqb_eq in L; lia|]. rewrite Nat.eqb_refl in T.
    destruct (opts display xs); [|discriminate T]. injection T as <- <-. reflexivity.
  - assert (O : opts display (ys ++ [y]) = Some es).
    { unfold trailing in T. destruct (S (length ts) =? _); [|destruct (length ts =? _); [|discriminate T]]; (destruct (opts display (ys ++ [y])); [|discriminate T]); cbn in T; congruence. }
    assert (Z : exists ds d, es = ds ++ [Starred d]).
    { clear T. revert es O. induction ys as [|z ys IH]; intros es O; cbn [app] in O; rewrite opts_cons in O.
      - assert (Y : exists s f t z, y = StarExpr s f t z) by (destruct y; try destruct SY; do 4 eexists; reflexivity). destruct Y as (s & f & t & z & ->).
        change (display (StarExpr s f t z)) with (option_map Starred (tree_of z)) in O. destruct (tree_of z) as [d|]; [|discriminate O]. injection O as <-. exists [], d. reflexivity.
      - destruct (display z) as [b|]; [|discriminate O]. destruct (opts display (ys ++ [y])) as [bs|] eqn:OB; [|discriminate O]. injection O as <-.
        destruct (IH bs eq_refl) as (ds & d & ->). exists (b :: ds), d. reflexivity. }
    destruct Z as (ds & d & ->). unfold closed_targets. rewrite rev_app_distr. apply Bool.orb_true_r.
Qed.
Lemma targets_recover : forall a m c ts, before_in a -> recovers m a -> targets_of a = Some (c, ts) -> ending (placed in_display) m c ts /\ closed_targets c ts = true.
Proof.
  intros a m c ts B R T. destruct a; try destruct B.
  - unfold targets_of in T. match type of T with context [display ?s] => destruct (display s) as [d|] eqn:D end; [|discriminate T]. injection T as <- <-. destruct (displayed_recovers _ _ _ R D) as (F & P).
    split; [split; [discriminate|]; split; [cbn; rewrite !app_nil_r; exact F|repeat constructor; apply P]|].
    change (option_map Starred (tree_of a) = Some d) in D. destruct (tree_of a); [|discriminate D]. injection D as <-. reflexivity.
  - split; [apply (proj2 R); exact T|eapply closed_back; [exact T|left; assumption]].
  - split; [apply (proj2 R); exact T|eapply closed_back; [exact T|right; assumption]].
Qed.
Lemma clauses_recover : forall z m cs, is_comprehension z \/ is_filter z -> recovers m z -> clauses_of z = Some cs -> clausal (faces m) cs.
Proof.
  intros z m cs S (_ & R) T. destruct z; try (destruct S as [[]|[]]).
  - exact (proj1 (R false cs T)).
  - exact (proj1 (R cs T)).
  - exact (R cs T).
Qed.
Lemma rest_recovers : forall o l cs, if_any (fun y => is_comprehension y \/ is_filter y) o -> pieces l (opt_nodes o) -> rest_of o = Some cs -> clausal (faces l) cs.
Proof.
  intros [z|] l cs S P T; cbn [opt_nodes] in P; cut_pieces.
  - rewrite app_nil_r. eapply clauses_recover; eauto.
  - injection T as <-. repeat constructor.
Qed.
Lemma condition_recovers : forall a m d, unconditional a -> recovers m a -> tree_of a = Some d -> faces m = flatten d /\ proper d /\ no_cond d = true.
Proof.
  intros a m d UN R T. destruct (proj1 R d T) as (F & P & RK). split; [exact F|]. split; [exact P|].
  assert (Z : (exists s f t o u b, a = Lambda s f t o u b) \/ expression 2 a) by (destruct a; try (right; exact UN); left; do 6 eexists; reflexivity).
  destruct Z as [(s & f & t & o & u & b & ->)|Z].
  - destruct R as (_ & R). assert (W : exists ps c, d = Func ps c /\ tree_of b = Some c).
    { destruct o as [y|].
      - destruct (plain_lambda _ _ _ _ _ _ _ T) as (a1 & b1 & xs & ts & ->). rewrite tree_of_lambda in T. destruct (elements parameter xs ts); [|discriminate T].
        destruct (tree_of b) as [c|]; [|discriminate T]. injection T as <-. eauto.
      - cbn [tree_of] in T. destruct (tree_of b) as [c|]; [|discriminate T]. injection T as <-. eauto. }
    destruct W as (ps & c & -> & TB). cbn [no_cond]. apply Nat.leb_le. exact (expression_level _ _ _ UN (R c TB)).
  - pose proof (expression_level _ _ _ Z RK) as L. destruct d; try (apply Nat.leb_le; exact L). cbn in L. lia.
Qed.
Lemma operand_0 : forall e, proper e -> operand 0 e.
Proof. intros e P. split; [exact P|lia]. Qed.
Ltac take T x := let d := fresh "d" in let E := fresh "T" x in destruct (tree_of x) as [d|] eqn:E; [|discriminate T].
Ltac whole R x :=
  let F := fresh "F" in let P := fresh "P" in let K := fresh "K" in let L := fresh "L" in
  match goal with T : tree_of x = Some ?d, S : expression _ x |- _ => destruct (proj1 R d T) as (F & P & K); pose proof (expression_level _ _ _ S K) as L end.
Lemma node_recovers : forall x l la ps, schema x -> arranged x (ps ++ after x la) -> pieces l ps -> recovers l x.
Proof.
  intros x l la ps S A P. split.
  - intros e T.
    destruct x; try discriminate T; cbn [arranged after items] in A; rewrite ?app_nil_r in A; cbn [schema] in S.
    all: try (destruct A as [A|A]).
    all: try (subst ps; first
      [ eapply binary_recovers; [|exact S|exact P|exact T|reflexivity]; reflexivity
      | destruct S as (S1 & S2); eapply unary_recovers; [|exact S1|exact S2|exact P|exact T|reflexivity]; cbn; tauto
      | eapply word_recovers; [|exact S|exact P|exact T|reflexivity]; cbn; tauto ]).
    (* NamedExpr *)
    + destruct S as (S1 & S2 & S3). subst ps. cbn [app] in P. apply pieces_sub_inv in P as (la1 & l2 & -> & R1 & P). cut_pieces. rewrite app_nil_r.
      cbn [tree_of] in T. take T x1. take T x2. injection T as <-. whole R1 x1. whole R x2. cbn [flatten proper level]. rewrite faces_join, faces_step.
      rewrite (face_mark PyColonAssign t S2 eq_refl). split; [congruence|]. auto.
    (* Test *)
    + destruct S as (S1 & S2 & S3 & S4 & S5). subst ps. cbn [app] in P. apply pieces_sub_inv in P as (la1 & l2 & -> & R1 & P). cut_pieces. rewrite app_nil_r.
      cbn [tree_of] in T. take T x2. take T x1. take T x3. injection T as <-. whole R1 x1. whole R x2. whole R0 x3. cbn [flatten proper level].
      rewrite faces_join, faces_step, faces_join, faces_step. rewrite (face_mark PyIf t S2 eq_refl), (face_mark PyElse t0 S4 eq_refl). split; [congruence|]. auto.
    (* Lambda *)
    + destruct S as (S1 & S2 & S3 & S4). subst ps. destruct o as [y|].
      * cbn [opt_nodes app] in P. cut_pieces. destruct (plain_lambda _ _ _ _ _ _ _ T) as (a1 & b1 & xs & ts & ->).
        rewrite tree_of_lambda in T. destruct R as (_ & R). destruct (elements parameter xs ts) as [es|] eqn:EL; [|discriminate T].
        destruct (R es eq_refl) as (N & F & O). apply placed_operands in O as (OB & O). take T x. injection T as <-. whole R0 x.
        rewrite faces_step, faces_join, faces_step, app_nil_r. rewrite (face_mark PyLambda t S1 eq_refl), (face_mark PyColon t0 S3 eq_refl). rewrite F, F0.
        split; [reflexivity|]. split; [|reflexivity]. cbn [proper]. split; [exact OB|]. split; [apply all_operands; exact O|auto].
      * cbn [opt_nodes app] in P. cut_pieces. cbn [tree_of] in T. take T x. injection T as <-. whole R x. rewrite app_nil_r.
        rewrite !faces_step. rewrite (face_mark PyLambda t S1 eq_refl), (face_mark PyColon t0 S3 eq_refl). rewrite F.
        split; [reflexivity|]. split; [|reflexivity]. cbn [proper]. auto.
    (* NotTest *)
    + destruct S as (S1 & S2). subst ps. cbn [app] in P. cut_pieces. rewrite app_nil_r. cbn [tree_of] in T. take T x. injection T as <-. whole R x.
      cbn [flatten proper level]. rewrite faces_step. rewrite (face_mark PyNot t S1 eq_refl). split; [congruence|]. auto.
    (* NotIn *)
    + destruct S as ((S1 & S2 & S3) & S4). subst ps. cbn [app] in P. apply pieces_sub_inv in P as (la1 & l2 & -> & R1 & P). cut_pieces. rewrite app_nil_r.
      cbn [tree_of] in T. take T x1. take T x2. injection T as <-. whole R1 x1. whole R x2. cbn [flatten proper level]. rewrite faces_join, !faces_step.
      rewrite (face_mark PyNot t S2 eq_refl), (face_mark PyIn t0 S4 eq_refl). split; [congruence|]. auto.
    (* IsNot *)
    + destruct S as ((S1 & S2 & S3) & S4). subst ps. cbn [app] in P. apply pieces_sub_inv in P as (la1 & l2 & -> & R1 & P). cut_pieces. rewrite app_nil_r.
      cbn [tree_of] in T. take T x1. take T x2. injection T as <-. whole R1 x1. whole R x2. cbn [flatten proper level]. rewrite faces_join, !faces_step.
      rewrite (face_mark PyIs t S2 eq_refl), (face_mark PyNot t0 S4 eq_refl). split; [congruence|]. auto.
    (* Power *)
    + destruct S as (S1 & S2 & S3). subst ps. cbn [app] in P. apply pieces_sub_inv in P as (la1 & l2 & -> & R1 & P). cut_pieces. rewrite app_nil_r.
      cbn [tree_of] in T. take T x1. take T x2. injection T as <-. whole R1 x1. whole R x2. cbn [flatten proper level]. rewrite faces_join, faces_step.
      rewrite (face_mark PyPower t S2 eq_refl). split; [congruence|]. auto.
    (* AtomExpr *)
    + destruct S as (S1 & S2 & S3 & S4). subst ps. rewrite tree_of_atom_expr in T. destruct (tree_of x) as [d|] eqn:TX; [|discriminate T].
      destruct (foldo trailer d l0) as [c|] eqn:FO; [|discriminate T]. injection T as <-. destruct o as [w|].
      * cbn [opt_tokens app] in P. cut_pieces. destruct (proj1 R d TX) as (FX & PX & RX). pose proof (expression_level _ _ _ S2 RX) as LX.
        destruct (trailers_recover _ _ _ _ P S3 (conj PX (Nat.le_trans 15 16 _ (Nat.le_succ_diag_r 15) LX)) FO) as (F & (O1 & O2) & _). cbn [flatten proper level rank].
        rewrite faces_step, faces_join. rewrite (face_mark PyAwait w S1 eq_refl). split; [congruence|]. auto.
      * cbn [opt_tokens app] in P. cut_pieces. destruct (proj1 R d TX) as (FX & PX & RX). pose proof (expression_level _ _ _ S2 RX) as LX.
        destruct (trailers_recover _ _ _ _ P S3 (conj PX (Nat.le_trans 15 16 _ (Nat.le_succ_diag_r 15) LX)) FO) as (F & (O1 & O2) & O3). cbn [rank].
        rewrite faces_join. split; [congruence|]. split; [assumption|]. rewrite O3 by auto. reflexivity.
    (* AtomString *)
    + destruct S as (S1 & S2). subst ps. rewrite (strings_recover _ _ P S2). destruct l0 as [|t ts]; [congruence|]. injection T as <-. repeat split.
    (* AtomTuple *)
    + destruct S as ((S1 & S3) & S2). subst ps. destruct o as [y|].
      * cbn [opt_nodes app] in P. cut_pieces. rewrite faces_step, faces_join, faces_step. rewrite (face_mark PyLeftParen t S1 eq_refl), (face_mark PyRightParen t0 S3 eq_refl).
        destruct (plain_tuple _ _ _ _ _ _ T) as [(a1 & b1 & xs & ts & ->)|[(a1 & b1 & v & z & ->)|(a1 & b1 & v & w & z & ->)]].
        2:{ rewrite tree_of_yielded in T. destruct R as (_ & R). destruct (yielded (YieldExpr a1 b1 v z)) as [es|] eqn:Y; [|discriminate T]. injection T as <-.
            destruct (R es eq_refl) as (N & F & O). apply placed_operands in O as (OB & O). rewrite F. split; [reflexivity|]. split; [|reflexivity].
            split; [exact N|]. split; [exact OB|]. apply all_operands. exact O. }
        2:{ cbn [tree_of] in T. take T z. injection T as <-. destruct R as (_ & R). destruct (R d Tz) as (F & O). rewrite F. split; [reflexivity|]. split; [|reflexivity]. exact O. }
        rewrite tree_of_tuple in T. destruct R as (_ & R & RC).
        destruct (elements display xs ts) as [es|] eqn:EL.
        2:{ destruct (RC false e T) as (a & cs & -> & F & SA & PA & RO & IC & OC). rewrite F. split; [reflexivity|]. split; [|reflexivity].
            split; [auto|]. split; [exact RO|]. split; [exact IC|]. apply all_operands. exact OC. }
        destruct (R es eq_refl) as (N & F & O). apply placed_operands in O as (OB & O). rewrite F.
        destruct es as [|d [|d2 es]]; [congruence| |].
        -- assert (E : e = Group d /\ stands d = true).
           { cbn [forallb] in OB. rewrite Bool.andb_true_r in OB. destruct d; try discriminate T; injection T as <-; try (split; reflexivity); discriminate OB. }
           destruct E as (-> & SD). cbn [map between flat_map flatten proper level rank]. rewrite app_nil_r. inversion O as [|? ? (O1 & _) _]; subst. auto.
        -- assert (E : e = Tuple (d :: d2 :: es)) by (destruct d; injection T as <-; reflexivity). subst e. cbn [level rank]. split; [reflexivity|]. split; [|reflexivity].
           exact (conj (ltac:(cbn; lia) : length (d :: d2 :: es) <> 1) (conj OB (proj2 (all_operands 0 (d :: d2 :: es)) O))).
      * cbn [opt_nodes app] in P. cut_pieces. injection T as <-. rewrite !faces_step.
        rewrite (face_mark PyLeftParen t S1 eq_refl), (face_mark PyRightParen t0 S3 eq_refl). split; [reflexivity|]. split; [|reflexivity]. split; [cbn; lia|split; [reflexivity|exact I]].
    (* AtomList *)
    + destruct S as ((S1 & S3) & S2). subst ps. destruct o as [y|].
      * cbn [opt_nodes app] in P. cut_pieces. destruct (plain_list _ _ _ _ _ _ T) as (a1 & b1 & xs & ts & ->). rewrite tree_of_list in T. destruct R as (_ & R & RC).
        rewrite faces_step, faces_join, faces_step. rewrite (face_mark PyLeftBracket t S1 eq_refl), (face_mark PyRightBracket t0 S3 eq_refl).
        destruct (elements display xs ts) as [es|] eqn:EL.
        2:{ destruct (RC true e T) as (a & cs & -> & F & SA & PA & RO & IC & OC). rewrite F. split; [reflexivity|]. split; [|reflexivity].
            split; [auto|]. split; [exact RO|]. split; [exact IC|]. apply all_operands. exact OC. }
        destruct (R es eq_refl) as (N & F & O). apply placed_operands in O as (OB & O). rewrite F.
        injection T as <-. cbn [level rank]. split; [reflexivity|]. split; [|reflexivity]. cbn [proper]. split; [exact OB|]. apply all_operands. exact O.
      * cbn [opt_nodes app] in P. cut_pieces. injection T as <-. rewrite !faces_step.
        rewrite (face_mark PyLeftBracket t S1 eq_refl), (face_mark PyRightBracket t0 S3 eq_refl). split; [reflexivity|]. split; [|reflexivity]. split; [reflexivity|exact I].
    (* AtomDictionary *)
    + destruct S as ((S1 & S3) & y & -> & S2). subst ps.
      cbn [opt_nodes app] in P. cut_pieces. destruct (plain_dictionary _ _ _ _ _ _ T) as (a1 & b1 & xs & ts & ->). rewrite tree_of_dictionary in T. destruct R as (_ & R).
      destruct (trailing dict_entry xs ts) as [(c & es)|] eqn:EL; [|discriminate T]. destruct (R c es eq_refl) as ((N & F & O) & SZ). apply placed_operands in O as (OB & O).
      rewrite faces_step, faces_join, faces_step. rewrite (face_mark PyLeftCurly t S1 eq_refl), (face_mark PyRightCurly t0 S3 eq_refl). rewrite F.
      injection T as <-. cbn [level rank]. split; [reflexivity|]. split; [|reflexivity]. cbn [proper].
      cbn [fst snd]. split; [|split; [exact OB|apply all_operands; exact O]]. rewrite rev_length. destruct es; [elim N; reflexivity|]. cbn [length] in *. lia.
    (* AtomSet *)
    + destruct S as ((S1 & S3) & y & -> & S2). subst ps.
      cbn [opt_nodes app] in P. cut_pieces. destruct (plain_set _ _ _ _ _ _ T) as (a1 & b1 & xs & ts & ->). rewrite tree_of_set in T. destruct R as (_ & R).
      destruct (trailing member xs ts) as [(c & es)|] eqn:EL; [|discriminate T]. destruct (R c es eq_refl) as (N & F & O). apply placed_operands in O as (OB & O).
      rewrite faces_step, faces_join, faces_step. rewrite (face_mark PyLeftCurly t S1 eq_refl), (face_mark PyRightCurly t0 S3 eq_refl). rewrite F.
      injection T as <-. cbn [level rank]. split; [reflexivity|]. split; [|reflexivity]. cbn [proper].
      split; [exact N|]. split; [exact OB|apply all_operands; exact O].
  - destruct x; try exact I; cbn [arranged after items] in A; rewrite ?app_nil_r in A; cbn [schema] in S.
    (* Lambda *)
    + intros e1 T. subst ps. destruct o as [y|]; cbn [opt_nodes app] in P; cut_pieces; [exact (proj2 (proj2 (proj1 R0 e1 T)))|exact (proj2 (proj2 (proj1 R e1 T)))].
    (* StarExpr *)
    + destruct S as (S1 & S2). subst ps. cbn [app] in P. cut_pieces. rewrite app_nil_r. intros e1 T. change (option_map Starred (tree_of x) = Some e1) in T. take T x. injection T as <-. whole R x.
      rewrite faces_step. rewrite (face_mark PyMul t S1 eq_refl). split; [cbn [flatten]; congruence|]. split; [cbn [proper]; auto|reflexivity].
    (* TestListComp *)
    + split.
      * intros es O. destruct A as [(-> & _)|(y & z & -> & -> & _)]; [|discriminate O]. destruct S as (S1 & S2).
        eapply list_case; eauto. intros y m d J R T. eapply displayed_recovers; eauto.
      * intros q e1 T. destruct l0 as [|y [|x [|? ?]]]; try discriminate T. destruct l1 as [|? ?]; [|discriminate T]. cbn [comprehended] in T. take T x.
        destruct (clauses_of y) as [cs|] eqn:CY; [|discriminate T]. injection T as <-. destruct S as (_ & [(BA & _)|(y' & x' & [= <- <-] & _ & IC & EX)]); [discriminate BA|].
        destruct A as [(_ & A)|(x' & y' & [= <- <-] & _ & -> & _)]; [cbn in A; lia|]. cut_pieces. rewrite app_nil_r.
        destruct (proj1 R d Tx) as (F & PX & RX). exists d, cs. split; [reflexivity|].
        destruct (clauses_recover y _ cs (or_introl IC) R0 CY) as (FC & IN & OC). rewrite faces_join. split; [congruence|].
        split; [exact (tree_stands_alone x d Tx RX)|]. split; [exact PX|]. split; [|split; assumption].
        destruct R0 as (_ & R0). destruct y; try destruct IC; [exact (proj2 (R0 false cs CY))|exact (proj2 (R0 cs CY))].
    (* CallTrailer *)
    + intros e1 d T (OE & LE). destruct S as ((S1 & S3) & S2). subst ps. cbn [trailer] in T. destruct o as [y|].
      * destruct (arguments y) as [es|] eqn:AR; [|discriminate T]. injection T as <-. cbn [opt_nodes app] in P. cut_pieces.
        destruct y; try discriminate AR. destruct R as (_ & R). destruct (R es AR) as (N & F & O).
        rewrite faces_step, faces_join, faces_step. rewrite (face_mark PyLeftParen t S1 eq_refl), (face_mark PyRightParen t0 S3 eq_refl). rewrite F.
        split; [reflexivity|]. split; [|reflexivity]. split; [auto|]. apply all_operands. exact O.
      * injection T as <-. cbn [opt_nodes app] in P. cut_pieces. rewrite !faces_step.
        rewrite (face_mark PyLeftParen t S1 eq_refl), (face_mark PyRightParen t0 S3 eq_refl). split; [reflexivity|]. split; [|reflexivity]. split; [auto|exact I].
    (* IndexTrailer *)
    + intros e1 d T (OE & LE). destruct S as ((S1 & S3) & S2). subst ps. cbn [trailer] in T.
      destruct (arguments x) as [es|] eqn:AR; [|discriminate T]. injection T as <-. cbn [app] in P. cut_pieces.
      destruct x; try discriminate AR. destruct R as (_ & R). destruct (R es AR) as (N & F & O).
      rewrite faces_step, faces_join, faces_step. rewrite (face_mark PyLeftBracket t S1 eq_refl), (face_mark PyRightBracket t0 S3 eq_refl). rewrite F.
      split; [reflexivity|]. split; [|reflexivity]. split; [auto|]. split; [exact N|]. apply all_operands. exact O.
    (* DotNameTrailer *)
    + intros e1 d T (OE & LE). destruct S as (S1 & S2). subst ps. cbn [trailer] in T. injection T as <-. cbn [app] in P. cut_pieces. rewrite !faces_step.
      rewrite (face_mark PyDot t S1 eq_refl). unfold face. unfold kind_is in S2. rewrite S2. split; [reflexivity|]. split; [|reflexivity]. split; assumption.
    (* SubscriptList *)
    + intros es O. destruct A as (-> & _). destruct S as (S1 & S2 & S3). eapply list_case; eauto.
      intros y m d J (_ & R) T. rewrite Forall_forall in S2. specialize (S2 y J). destruct y; try destruct S2. apply R. exact T.
    (* Subscript *)
    + intros d T. cbn [argument] in T. destruct o as [y|]; [|discriminate T]. destruct o0; [discriminate T|]. destruct o1; [discriminate T|].
      destruct o2; [discriminate T|]. destruct o3; [discriminate T|]. subst ps. cbn [opt_nodes opt_tokens app] in P. cut_pieces. rewrite app_nil_r.
      destruct S as (S1 & _). cbn [if_any] in S1. destruct (proj1 R d T) as (F & PE & RE). split; [exact F|]. split; [exact PE|]. exact (expression_level _ _ _ S1 RE).
    (* ExprList *)
    + intros c es O. destruct A as (-> & _). destruct S as (S1 & S2 & S3 & S4 & _). eapply trailing_recovers; eauto.
      intros y m d J R T. eapply displayed_recovers; eauto.
    (* DictionaryContainer *)
    + intros c es O. destruct A as (-> & _). destruct S as (S1 & S2 & S3 & S4). split.
      * eapply stored_recovers; eauto; [intros ->; cbn in S1; lia|].
        intros y m d J (_ & R) T. rewrite Forall_forall in S2. specialize (S2 y J). destruct y; try destruct S2; apply R; exact T.
      * unfold trailing in O. destruct (S (length l1) =? length l0) eqn:L.
        -- destruct (opts dict_entry l0) as [ds|] eqn:OD; [|discriminate O]. injection O as <- <-. rewrite (opts_length _ _ _ _ _ OD). apply S1.
        -- apply Nat.eqb_neq in L. destruct S4 as [S4|(_ & S4)]; [contradiction|]. destruct (length l1 =? length l0); [|discriminate O].
           destruct (opts dict_entry l0) as [ds|] eqn:OD; [|discriminate O]. injection O as <- <-. rewrite (opts_length _ _ _ _ _ OD). lia.
    (* DictionaryEntry *)
    + destruct S as (S1 & S2 & S3). subst ps. cbn [app] in P. cut_pieces. rewrite app_nil_r. intros e1 T. cbn [dict_entry] in T. take T x1. take T x2. injection T as <-.
      whole R x1. whole R0 x2. rewrite faces_join, faces_step. rewrite (face_mark PyColon t S2 eq_refl). split; [cbn [flatten]; congruence|]. split; [cbn [proper]; auto|reflexivity].
    (* SetContainer *)
    + intros c es O. destruct A as (-> & _). destruct S as (S1 & S2 & S3 & _).
      eapply stored_recovers; eauto. intros y m d J R T. rewrite Forall_forall in S2. specialize (S2 y J).
      assert (Z : tree_of y = Some d /\ test y \/ exists s f t z, y = MulSet s f t z).
      { unfold member in T. destruct S2 as [S2|S2]; [right; destruct y; try destruct S2; do 4 eexists; reflexivity|]. left.
        destruct (tree_of y); [split; [exact T|exact S2]|]. destruct y; try discriminate T. destruct S2. }
      destruct Z as [(Z & TY)|(s1 & f1 & t1 & z1 & ->)]; [|exact (proj2 R d T)]. destruct (proj1 R d Z) as (F & PE & RE).
      split; [exact F|]. split; [exact PE|]. pose proof (expression_level _ _ _ TY RE) as LD. apply Nat.leb_le in LD. destruct d; try exact LD; reflexivity.
    (* MulSet *)
    + destruct S as (S1 & S2). subst ps. cbn [app] in P. cut_pieces. rewrite app_nil_r. intros e1 T. change (option_map Starred (tree_of x) = Some e1) in T. take T x. injection T as <-. whole R x.
      rewrite faces_step. rewrite (face_mark PyMul t S1 eq_refl). split; [cbn [flatten]; congruence|]. split; [cbn [proper]; auto|reflexivity].
    (* PowerDictionary *)
    + destruct S as (S1 & S2). subst ps. cbn [app] in P. cut_pieces. rewrite app_nil_r. intros e1 T. cbn [dict_entry] in T. take T x. injection T as <-. whole R x.
      rewrite faces_step. rewrite (face_mark PyPower t S1 eq_refl). split; [cbn [flatten]; congruence|]. split; [cbn [proper]; auto|reflexivity].
    (* SyncCompForComprehension *)
    + intros w cs T. destruct S as (S1 & _ & S2 & S3 & S4 & S5). subst ps. cbn [app] in P. cut_pieces.
      unfold runs_of in T. destruct (targets_of x1) as [(c & ts)|] eqn:TA; [|discriminate T]. take T x2. destruct (rest_of o) as [ds|] eqn:RO; [|discriminate T]. injection T as <-.
      whole R0 x2. destruct (targets_recover _ _ _ _ S2 R TA) as ((N & FT & OT) & CT). apply placed_operands in OT as (OB & OT).
      destruct (rest_recovers _ _ _ S5 P RO) as (FR & IC & OC). split; [|reflexivity]. split; [|split; [exact IC|constructor; [apply operand_0|exact OC]]].
      * rewrite faces_step, faces_join, faces_step, faces_join. rewrite (face_mark PyFor t S1 eq_refl), (face_mark PyIn t0 S3 eq_refl). rewrite FT, F, FR.
        cbn [flat_map flatten]. rewrite <- !app_assoc. cbn [app]. rewrite <- !app_assoc. reflexivity.
      * cbn [proper]. split; [exact N|]. split; [exact OB|]. split; [apply all_operands; exact OT|]. auto.
    (* CompForComprehension *)
    + intros cs T. destruct S as (S1 & S2). subst ps. cbn [app] in P. cut_pieces. rewrite app_nil_r. destruct x; try destruct S2. rewrite clauses_of_async in T.
      destruct (proj2 R true cs T) as (C & RO). split; [|exact RO]. rewrite faces_step. rewrite (face_mark PyAsync t S1 eq_refl). exact C.
    (* CompIfComprehension *)
    + intros cs T. destruct S as (S1 & S2 & S3). subst ps. cbn [app] in P. cut_pieces. rewrite clauses_of_if in T. take T x. destruct (rest_of o) as [ds|] eqn:RO; [|discriminate T]. injection T as <-.
      destruct (condition_recovers _ _ _ S2 R Tx) as (F & PX & NC). destruct (rest_recovers _ _ _ S3 P RO) as (FR & IC & OC).
      split; [|split; [exact IC|constructor; [apply operand_0; split; assumption|exact OC]]]. rewrite faces_step, faces_join. rewrite (face_mark PyIf t S1 eq_refl). rewrite F, FR. reflexivity.
    (* YieldExpr *)
    + intros es T. destruct S as (S1 & S2). subst ps. cbn [app] in P. cut_pieces. rewrite app_nil_r. rewrite faces_step. rewrite (face_mark PyYield t S1 eq_refl).
      assert (Z : (exists a b xs ts, x = TestListStarExpr a b xs ts) \/ (star_or_test x /\ option_map (fun e => [e]) (display x) = Some es)).
      { destruct x; try (right; split; [exact S2|exact T]). left. do 4 eexists. reflexivity. }
      destruct Z as [(a & b & xs & ts & ->)|(ST & Z)].
      * destruct (proj2 R es T) as (N & F & O). split; [exact N|]. split; [congruence|exact O].
      * destruct (display x) as [d|] eqn:D; [|discriminate Z]. injection Z as <-. destruct (value_recovers x _ d ST R D) as (F & O).
        split; [discriminate|]. split; [cbn; rewrite app_nil_r; congruence|repeat constructor; apply O].
    (* YieldFromExpr *)
    + intros e1 T. destruct S as (S1 & S2 & S3). subst ps. cbn [app] in P. cut_pieces. rewrite app_nil_r. whole R x. rewrite !faces_step.
      rewrite (face_mark PyYield t S1 eq_refl), (face_mark PyFrom t0 S2 eq_refl). split; [congruence|]. split; assumption.
    (* TestListStarExpr *)
    + intros es O. destruct A as (-> & _). destruct S as (S1 & S2 & S3 & S4 & _). eapply list_case; eauto.
      intros y m d J R T. rewrite Forall_forall in S2. eapply value_recovers; eauto.
    (* VarArgsList *)
    + destruct o; [exact I|]. destruct o0; [exact I|]. destruct o1; [exact I|]. destruct o2; [exact I|]. destruct o3; [exact I|].
      intros es O. destruct A as (n1 & n2 & n3 & N & A). destruct S as (S1 & S2 & _). cbn [opt_nodes opt_tokens app group] in A. cbn [group app] in A.
      rewrite app_nil_r, <- !map_app, <- N in A. rewrite ?app_nil_r in A. destruct A as (-> & _).
      eapply list_case; eauto. intros y m d J (_ & R) T. rewrite Forall_forall in S1. specialize (S1 y J). destruct y; try destruct S1; apply R; exact T.
    (* VFPAssign *)
    + destruct S as (S1 & S2 & S3). subst ps. cbn [app] in P. cut_pieces. rewrite app_nil_r. intros e1 T. destruct x1; try destruct S1.
      cbn [parameter] in T. take T x2. injection T as <-. whole R0 x2. destruct R as (_ & R). destruct (R _ eq_refl) as (F1 & _).
      rewrite faces_join, faces_step. rewrite (face_mark PyAssign t S2 eq_refl). cbn [flatten] in F1 |- *. rewrite F1, F. split; [reflexivity|]. split; [cbn [proper]; auto|reflexivity].
    (* VFPDef *)
    + subst ps. cbn [app] in P. cut_pieces. intros e1 T. injection T as <-. rewrite faces_step. unfold face. unfold kind_is in S. rewrite S.
      split; [reflexivity|]. split; [|reflexivity]. split; [left; reflexivity|discriminate].
Qed.

Theorem tiled_recovers :
  (forall s l la x, tiled s l la x -> good x -> recovers l x) /\
  (forall s l la ps, tiles s l la ps -> Forall (fun i => match i with Sub y => good y | Leaf _ => True end) ps -> pieces l ps).
Proof.
  apply tiled_mutual.
  - intros s l la x ps _ IH A _ _ G. unfold good in G. rewrite subnodes_items in G. inversion G as [|? ? G1 G2]; subst.
    eapply node_recovers; [exact G1|exact A|]. apply IH. apply Forall_forall. intros [t|y] J; [exact I|].
    assert (J2 : In (Sub y) (items x)).
    { eapply Permutation_in; [apply Permutation_sym, (arranged_perm _ _ A)|]. apply in_or_app. left. exact J. }
    unfold good. apply Forall_forall. intros z Z. rewrite Forall_forall in G2. apply G2. apply in_flat_map. exists (Sub y). auto.
  - constructor.
  - intros s p t l la ps _ IH F. inversion F; subst. constructor. auto.
  - intros s l1 l2 la y ps _ IY _ IH F. inversion F; subst. constructor; auto.
Qed.
