(** The tokens of a proper expression derive a tree that reads as that expression (C35). *)
From Coq Require Import List Arith Lia.
From Verif Require Import Chars SourceBuffer Token Tokenizer Node ParserState GrammarSpec ParseBasics SoundBasics ExprSpec.
Import ListNotations.
Local Open Scope nat_scope.

Lemma ast_induction : forall P : ast -> Prop,
  (forall k p, P (Word k p)) -> (forall p ps, P (Strings p ps)) -> (forall e, P e -> P (Group e)) ->
  (forall es, Forall P es -> P (Tuple es)) -> (forall es, Forall P es -> P (ListOf es)) ->
  (forall e p, P e -> P (Attribute e p)) -> (forall e es, P e -> Forall P es -> P (Call e es)) ->
  (forall e es, P e -> Forall P es -> P (Index e es)) -> (forall e, P e -> P (Await e)) ->
  (forall a b, P a -> P b -> P (Power a b)) -> (forall k e, P e -> P (Unary k e)) ->
  (forall k a b, P a -> P b -> P (Infix k a b)) -> (forall a b, P a -> P b -> P (NotIn a b)) ->
  (forall a b, P a -> P b -> P (IsNot a b)) -> (forall e, P e -> P (Not e)) ->
  (forall a c b, P a -> P c -> P b -> P (If a c b)) -> (forall a b, P a -> P b -> P (Named a b)) ->
  (forall c es, Forall P es -> P (SetOf c es)) -> (forall c es, Forall P es -> P (DictOf c es)) ->
  (forall ps e, Forall P ps -> P e -> P (Func ps e)) -> (forall e, P e -> P (Starred e)) -> (forall e, P e -> P (Spread e)) ->
  (forall a b, P a -> P b -> P (Pair a b)) -> (forall n e, P e -> P (Default n e)) ->
  (forall q e cs, P e -> Forall P cs -> P (Comp q e cs)) -> (forall es, Forall P es -> P (Yielding es)) -> (forall e, P e -> P (YieldingFrom e)) ->
  (forall w ts c e, Forall P ts -> P e -> P (ForIn w ts c e)) -> (forall e, P e -> P (When e)) ->
  forall e, P e.
Proof.
  intros P H1 H2 H3 H4 H5 H6 H7 H8 H9 H10 H11 H12 H13 H14 H15 H16 H17 H18 H19 H20 H21 H22 H23 H24 H25 H26 H27 H28 H29. fix IH 1. intros e.
  pose (L := fix go (es : list ast) : Forall P es :=
    match es with [] => Forall_nil P | d :: ds => Forall_cons d (IH d) (go ds) end).
  exact match e with
  | Word k p => H1 k p | Strings p ps => H2 p ps | Group a => H3 a (IH a) | Tuple es => H4 es (L es) | ListOf es => H5 es (L es)
  | Attribute a p => H6 a p (IH a) | Call a es => H7 a es (IH a) (L es) | Index a es => H8 a es (IH a) (L es) | Await a => H9 a (IH a)
  | Power a b => H10 a b (IH a) (IH b) | Unary k a => H11 k a (IH a) | Infix k a b => H12 k a b (IH a) (IH b)
  | NotIn a b => H13 a b (IH a) (IH b) | IsNot a b => H14 a b (IH a) (IH b) | Not a => H15 a (IH a)
  | If a c b => H16 a c b (IH a) (IH c) (IH b) | Named a b => H17 a b (IH a) (IH b)
  | SetOf c es => H18 c es (L es) | DictOf c es => H19 c es (L es) | Func ps b => H20 ps b (L ps) (IH b) | Starred a => H21 a (IH a)
  | Spread a => H22 a (IH a) | Pair a b => H23 a b (IH a) (IH b) | Default n a => H24 n a (IH a)
  | Comp q a cs => H25 q a cs (IH a) (L cs) | Yielding es => H26 es (L es) | YieldingFrom a => H27 a (IH a)
  | ForIn w ts c a => H28 w ts c a (L ts) (IH a) | When a => H29 a (IH a)
  end.
Qed.

(** [all] of the definitions as [Forall]. *)
Definition operand (k : nat) (e : ast) : Prop := proper e /\ k <= level e.
Lemma all_operands : forall k es,
  (fix all (k : nat) (es : list ast) : Prop := match es with [] => True | d :: ds => (proper d /\ k <= level d) /\ all k ds end) k es <->
  Forall (operand k) es.
Proof.
  intros k es. induction es as [|d ds IH]; [split; auto|]. rewrite Forall_cons_iff, <- IH. reflexivity.
Qed.
Lemma all_made : forall es,
  (fix all (es : list ast) : Prop := match es with [] => True | d :: ds => made d /\ all ds end) es <-> Forall made es.
Proof. intros es. induction es as [|d ds IH]; [split; auto|]. rewrite Forall_cons_iff, <- IH. reflexivity. Qed.
Lemma level_stands : forall e, 1 <= level e -> stands e = true.
Proof. intros e L. destruct e; try reflexivity; cbn in L; lia. Qed.

(** ** The look-ahead at which an expression of level [k] ends *)
Definition extends_at (j : nat) : list kind :=
  match j with
  | 0 => [PyColonAssign] | 1 => [PyIf] | 2 => [PyOr] | 3 => [PyAnd]
  | 5 => [PyLess; PyLessEqual; PyEqual; PyGreaterEqual; PyGreater; PyNotEqual; PyIn; PyIs; PyNot]
  | 6 => [PyBitOr] | 7 => [PyBitXor] | 8 => [PyBitAnd] | 9 => [PyShiftLeft; PyShiftRight] | 10 => [PyPlus; PyMinus]
  | 11 => [PyMul; PyDiv; PyFloorDiv; PyModulo; PyMatrice]
  | 13 => [PyPower] | 14 => [PyLeftParen; PyLeftBracket; PyDot] | 15 => [T_AtomString]
  | _ => []
  end.
Definition quiet (k : nat) (la : look) : Prop :=
  exists t, snd la = Some t /\ forall j, k <= j -> ~ In (tk_kind t) (extends_at j).
Lemma quiet_up : forall k j la, quiet k la -> k <= j -> quiet j la.
Proof. intros k j la (t & E & H) L. exists t. split; [assumption|]. intros i I. apply H. lia. Qed.
Lemma quiet_stops : forall k la ks, quiet k la -> extends_at k = ks -> stops ks la.
Proof. intros k la ks (t & E & H) <-. exists t. split; [assumption|]. apply H. lia. Qed.
Lemma quiet_differs : forall k la ks, quiet k la -> extends_at k = ks -> differs ks la.
Proof. intros k la ks (t & E & H) <- u F. rewrite E in F. injection F as <-. apply H. lia. Qed.
Lemma infix_quiet : forall p t n, infix_level (tk_kind t) = Some n -> quiet (S n) (p, Some t).
Proof.
  intros p t n H. exists t. split; [reflexivity|]. intros j L I. destruct (tk_kind t); try discriminate H; injection H as <-;
    do 16 (destruct j as [|j]; [try lia; cbn in I; repeat (destruct I as [I|I]; [discriminate I|]); destruct I|]); destruct I.
Qed.
Definition ends_all (k : kind) : bool :=
  match k with
  | PyRightParen | PyRightBracket | PyComa | PyElse | T_Newline | T_EOF | PyColon | PyRightCurly => true
  | _ => false
  end.
Lemma ends_quiet : forall p t k, ends_all (tk_kind t) = true -> quiet k (p, Some t).
Proof.
  intros p t k H. exists t. split; [reflexivity|]. intros j L I. destruct (tk_kind t); try discriminate H;
    do 16 (destruct j as [|j]; [cbn in I; repeat (destruct I as [I|I]; [discriminate I|]); destruct I|]); destruct I.
Qed.
Lemma mark_quiet : forall p t k j, tk_kind t = k -> (forall i, j <= i -> ~ In k (extends_at i)) -> quiet j (p, Some t).
Proof. intros p t k j <- H. exists t. auto. Qed.
Ltac late := let i := fresh "i" in let L := fresh "L" in let I := fresh "I" in intros i L I;
  do 16 (destruct i as [|i]; [try lia; cbn in I; repeat (destruct I as [I|I]; [discriminate I|]); destruct I|]); destruct I.

(** ** Splitting the tokens *)
Definition faces (l : list ptok) : list (kind * payload) := map (fun x => face (snd x)) l.
Lemma faces_app : forall l a b, faces l = a ++ b -> exists l1 l2, l = l1 ++ l2 /\ faces l1 = a /\ faces l2 = b.
Proof. intros l a b H. apply map_eq_app in H. destruct H as (l1 & l2 & -> & <- & <-). exists l1, l2. auto. Qed.
Lemma faces_cons : forall l x b, faces l = x :: b -> exists p t l2, l = (p, t) :: l2 /\ face t = x /\ faces l2 = b.
Proof. intros [|(p, t) l2] x b H; [discriminate H|]. injection H as <- <-. exists p, t, l2. auto. Qed.
Lemma faces_nil : forall l, faces l = [] -> l = [].
Proof. intros [|x l] H; [reflexivity|discriminate H]. Qed.
Lemma face_kind : forall t k p, face t = (k, p) -> tk_kind t = k.
Proof. intros t k p [= H _]. exact H. Qed.
Ltac split_faces :=
  repeat match goal with
  | H : faces _ = _ ++ _ |- _ =>
      let l1 := fresh "l" in let l2 := fresh "l" in let H1 := fresh "F" in let H2 := fresh "F" in
      apply faces_app in H; destruct H as (l1 & l2 & -> & H1 & H2)
  | H : faces _ = _ :: _ |- _ =>
      let p := fresh "p" in let t := fresh "t" in let l := fresh "l" in let K := fresh "K" in let H1 := fresh "F" in
      apply faces_cons in H; destruct H as (p & t & l & -> & K & H1)
  | H : faces _ = [] |- _ => apply faces_nil in H; subst
  end;
  repeat match goal with H : face _ = mark _ |- _ => apply face_kind in H end.

(** ** Levels and functions *)
Definition fn_at (k : nat) : fn :=
  match k with
  | 0 => F_named_expression | 1 => F_test | 2 => F_or_test | 3 => F_and_test | 4 => F_not_test | 5 => F_comparison | 6 => F_expr
  | 7 => F_xor_expr | 8 => F_and_expr | 9 => F_shift | 10 => F_arith | 11 => F_term | 12 => F_factor | 13 => F_power | _ => F_atom_expr
  end.
Definition chained (k : nat) : Prop := In k [2; 3; 5; 6; 7; 8; 9; 10; 11].
Lemma chained_binary : forall k, chained k -> exists ops, binary (fn_at k) = Some (fn_at (S k), ops) /\ continues (fn_at k) = extends_at k.
Proof.
  intros k C. unfold chained in C. cbn in C. repeat (destruct C as [<-|C]; [eexists; split; reflexivity|]). destruct C.
Qed.
Lemma climb_one : forall k l la x, k < 14 -> E (fn_at (S k)) l la x -> quiet k la -> E (fn_at k) l la x.
Proof.
  intros k l la x L H Q.
  assert (C : chained k -> E (fn_at k) l la x).
  { intros C. destruct (chained_binary k C) as (ops & B & CO). eapply E_binary; [exact B| |rewrite CO; eapply quiet_stops; eauto].
    eapply chain_operand; eauto. }
  destruct (in_dec Nat.eq_dec k [2; 3; 5; 6; 7; 8; 9; 10; 11]) as [I|I]; [exact (C I)|]. clear C. cbn in I.
  assert (k = 0 \/ k = 1 \/ k = 4 \/ k = 12 \/ k = 13) as [-> | [-> | [-> | [-> | ->]]]] by lia.
  - apply E_named_test; [exact H|]. eapply quiet_stops; eauto.
  - apply E_test_or; [exact H|]. eapply quiet_stops; eauto.
  - apply E_not_comparison. exact H.
  - apply E_factor_power. exact H.
  - apply E_power_base; [exact H|]. eapply quiet_stops; eauto.
Qed.
Lemma climb : forall n k l la x, n <= 14 -> E (fn_at n) l la x -> k <= n -> quiet k la -> E (fn_at k) l la x.
Proof.
  intros n. induction n as [|n IH]; intros k l la x B H L Q.
  - replace k with 0 by lia. exact H.
  - destruct (Nat.eq_dec k (S n)) as [->|N]; [exact H|]. apply IH; [lia| |lia|assumption].
    apply climb_one; [lia|assumption|]. eapply quiet_up; eauto. lia.
Qed.

(** ** Lists *)
Lemma opts_cons : forall A B (r : A -> option B) x xs,
  opts r (x :: xs) = match r x, opts r xs with Some y, Some ys => Some (y :: ys) | _, _ => None end.
Proof. reflexivity. Qed.
Section Items.
Variables (fs : list fn) (r : node -> option ast) (K : kind).
Definition derives (e : ast) : Prop := forall l la, faces l = flatten e -> before [PyComa; K] la ->
  exists f x, In f fs /\ E f l la x /\ r x = Some e.
Lemma rest_derived : forall es, Forall derives es ->
  forall l la, faces l = flat_map (fun m => mark PyComa :: m) (map flatten es) -> before [K] la ->
  exists xs ts, E_rest fs PyComa l la xs ts /\ opts r xs = Some es /\ length ts = length xs.
Proof.
  intros es H. induction H as [|e es D H IH]; intros l la FA B.
  - cbn in FA. split_faces. exists [], []. split; [constructor|]. auto.
  - cbn [map flat_map] in FA. cbn [app] in FA. apply faces_cons in FA as (p & t & l0 & -> & K0 & FA). apply faces_app in FA as (l1 & l2 & -> & F0 & F1).
    apply face_kind in K0. destruct (IH _ _ F1 B) as (xs & ts & R & O & LE).
    destruct (D l1 (ahead l2 la) F0) as (f & x & IF & EX & RX).
    { destruct l2 as [|(q, u) l2]; [destruct B as (u & B1 & [B2|[]]); exists u; cbn; auto|].
      exists u. split; [reflexivity|]. left. destruct es as [|e1 es]; [discriminate F1|]. cbn in F1. injection F1 as F1 _. unfold face in F1. congruence. }
    exists (x :: xs), (t :: ts). split; [eapply rest_cons; eauto|]. rewrite opts_cons, RX, O. cbn [length]. auto.
Qed.
Lemma items_derived : forall e es, Forall derives (e :: es) ->
  forall l la, faces l = between (mark PyComa) (map flatten (e :: es)) -> before [K] la ->
  exists xs ts, E_items fs PyComa l la xs ts /\ opts r xs = Some (e :: es) /\ S (length ts) = length xs.
Proof.
  intros e es H l la FA B. inversion H as [|? ? D DS]; subst. cbn [map between] in FA. apply faces_app in FA as (l0 & l1 & -> & F & F0).
  destruct (rest_derived es DS _ _ F0 B) as (xs & ts & R & O & LE).
  destruct (D l0 (ahead l1 la) F) as (f & x & IF & EX & RX).
  { destruct l1 as [|(q, u) l1]; [destruct B as (u & B1 & [B2|[]]); exists u; cbn; auto|].
    exists u. split; [reflexivity|]. left. destruct es as [|e1 es]; [discriminate F0|]. cbn in F0. injection F0 as F0 _. unfold face in F0. congruence. }
  exists (x :: xs), ts. split; [eapply items_intro; eauto|]. rewrite opts_cons, RX, O. cbn [length]. auto.
Qed.
Lemma opts_app : forall xs ys as_ bs, opts r xs = Some as_ -> opts r ys = Some bs -> opts r (xs ++ ys) = Some (as_ ++ bs).
Proof.
  induction xs as [|x xs IH]; intros ys as_ bs H1 H2; [injection H1 as <-; assumption|]. cbn in H1 |- *. destruct (r x); [|discriminate H1].
  fold (opts r xs) in H1. fold (opts r (xs ++ ys)). destruct (opts r xs) as [cs|] eqn:O; [|discriminate H1]. injection H1 as <-.
  rewrite (IH ys cs bs eq_refl H2). reflexivity.
Qed.
Lemma opts_rev : forall xs es, opts r xs = Some es -> opts r (rev xs) = Some (rev es).
Proof.
  induction xs as [|x xs IH]; intros es H; [injection H as <-; reflexivity|]. cbn in H. destruct (r x) eqn:R; [|discriminate H].
  fold (opts r xs) in H. destruct (opts r xs) as [cs|]; [|discriminate H]. injection H as <-. cbn [rev]. apply opts_app; [auto|]. cbn. rewrite R. reflexivity.
Qed.
Lemma elements_rev : forall xs ts es, opts r xs = Some es -> S (length ts) = length xs -> elements r (rev xs) (rev ts) = Some es.
Proof.
  intros xs ts es O L. unfold elements. rewrite !rev_length. apply Nat.eqb_eq in L. rewrite L. rewrite (opts_rev _ _ O). cbn. rewrite rev_involutive. reflexivity.
Qed.
Lemma trailing_none : forall xs ts es, opts r xs = Some es -> S (length ts) = length xs -> trailing r xs ts = Some (false, es).
Proof. intros xs ts es O L. unfold trailing. apply Nat.eqb_eq in L. rewrite L, O. reflexivity. Qed.
Lemma trailing_one : forall xs ts es, opts r xs = Some es -> length ts = length xs -> trailing r xs ts = Some (true, es).
Proof.
  intros xs ts es O L. unfold trailing. replace (S (length ts) =? length xs) with false by (symmetry; apply Nat.eqb_neq; lia). rewrite L, Nat.eqb_refl, O. reflexivity.
Qed.
End Items.
Lemma rest_snoc : forall fs k f p t l2 la x, tk_kind t = k -> In f fs -> E f l2 la x ->
  forall l1 la1 xs ts, E_rest fs k l1 la1 xs ts -> la1 = (p, Some t) -> E_rest fs k (l1 ++ (p, t) :: l2) la (xs ++ [x]) (ts ++ [t]).
Proof.
  intros fs k f p t l2 la x K I D l1 la1 xs ts H. induction H as [fs k la1|fs k g q u m1 y m2 ys us la1 K1 J D1 R IH]; intros ->.
  - cbn [app]. rewrite <- (app_nil_r l2). eapply rest_cons; [exact K|exact I|exact D|constructor].
  - cbn [app]. rewrite <- app_assoc. eapply rest_cons; [exact K1|exact J|rewrite ahead_app_cons; exact D1|]. apply IH; auto.
Qed.
Lemma items_snoc : forall fs k f p t l1 l2 la x xs ts, tk_kind t = k -> In f fs -> E f l2 la x -> E_items fs k l1 (p, Some t) xs ts ->
  E_items fs k (l1 ++ (p, t) :: l2) la (xs ++ [x]) (ts ++ [t]).
Proof.
  intros fs k f p t l1 l2 la x xs ts K I D H. inversion H; subst. rewrite <- app_assoc. cbn [app]. eapply items_intro; [eassumption|rewrite ahead_app_cons; eassumption|].
  eapply (rest_snoc fs _ f); eauto.
Qed.
Lemma between_snoc : forall A (sep : A) ls l, ls <> [] -> between sep (ls ++ [l]) = between sep ls ++ sep :: l.
Proof.
  intros A sep [|m ls] l N; [congruence|]. cbn [app between]. rewrite flat_map_app. cbn. rewrite app_nil_r, app_assoc. reflexivity.
Qed.

(** ** Reading nodes *)
Definition argument (s : node) : option ast := match s with Subscript _ _ (Some y) None None None None => tree_of y | _ => None end.
Definition display (s : node) : option ast := 
  match tree_of s with Some e => Some e | None => match s with StarExpr _ _ _ y => option_map Starred (tree_of y) | _ => None end end.
Definition member (s : node) : option ast := 
  match tree_of s with Some e => Some e | None => match s with MulSet _ _ _ y => option_map Starred (tree_of y) | _ => None end end.
Definition dict_entry (s : node) : option ast :=
  match s with
  | DictionaryEntry _ _ a _ b => both Pair (tree_of a) (tree_of b)
  | PowerDictionary _ _ _ y => option_map Spread (tree_of y)
  | _ => None
  end.
Definition parameter (s : node) : option ast :=
  match s with
  | VFPDef _ _ t => Some (Word T_AtomName (tk_payload t))
  | VFPAssign _ _ (VFPDef _ _ t) _ y => option_map (Default (tk_payload t)) (tree_of y)
  | _ => None
  end.
Definition targets_of (s : node) : option (bool * list ast) :=
  match s with
  | ExprList _ _ xs ts => trailing display xs ts
  | _ => option_map (fun e => (false, [e])) (display s)
  end.
Definition clauses_of : node -> option (list ast) := clauses tree_of.
Definition rest_of (o : option node) : option (list ast) := match o with None => Some [] | Some z => clauses_of z end.
Definition runs_of (w : bool) (a s : node) (o : option node) : option (list ast) :=
  match targets_of a, tree_of s, rest_of o with Some (c, ts), Some d, Some cs => Some (ForIn w ts c d :: cs) | _, _, _ => None end.
Lemma clauses_of_for : forall p e t a u s o, clauses_of (SyncCompForComprehension p e t a u s o) = runs_of false a s o.
Proof. reflexivity. Qed.
Lemma clauses_of_async : forall p e t p1 e1 t1 a u s o, clauses_of (CompForComprehension p e t (SyncCompForComprehension p1 e1 t1 a u s o)) = runs_of true a s o.
Proof. reflexivity. Qed.
Lemma clauses_of_if : forall p e t c o, clauses_of (CompIfComprehension p e t c o) =
  match tree_of c, rest_of o with Some d, Some cs => Some (When d :: cs) | _, _ => None end.
Proof. reflexivity. Qed.
Definition comprehended (q : bool) (xs : list node) (ts : list token) : option ast :=
  match xs, ts with
  | [y; x], [] => match tree_of x, clauses_of y with Some e, Some cs => Some (Comp q e cs) | _, _ => None end
  | _, _ => None
  end.
Definition arguments (l : node) : option (list ast) := match l with SubscriptList _ _ xs ts => elements argument xs ts | _ => None end.
Definition trailer (e : ast) (y : node) : option ast :=
  match y with
  | DotNameTrailer _ _ _ t => Some (Attribute e (tk_payload t))
  | CallTrailer _ _ _ None _ => Some (Call e [])
  | CallTrailer _ _ _ (Some l) _ => option_map (Call e) (arguments l)
  | IndexTrailer _ _ _ l _ => option_map (Index e) (arguments l)
  | _ => None
  end.
Lemma tree_of_atom_expr : forall s t w a xs, tree_of (AtomExpr s t w a xs) =
  match tree_of a with
  | Some e => option_map (fun d => match w with Some _ => Await d | None => d end) (foldo trailer e xs)
  | None => None
  end.
Proof. reflexivity. Qed.
Lemma tree_of_tuple : forall s f t a b xs ts u, tree_of (AtomTuple s f t (Some (TestListComp a b xs ts)) u) =
  match elements display xs ts with
  | Some [Starred _] => None
  | Some [e] => Some (Group e)
  | Some es => Some (Tuple es)
  | None => comprehended false xs ts
  end.
Proof. reflexivity. Qed.
Lemma tree_of_list : forall s f t a b xs ts u, tree_of (AtomList s f t (Some (TestListComp a b xs ts)) u) =
  match elements display xs ts with Some es => Some (ListOf es) | None => comprehended true xs ts end.
Proof. reflexivity. Qed.
Lemma tree_of_set : forall s f t a b xs ts u, tree_of (AtomSet s f t (Some (SetContainer a b xs ts)) u) =
  option_map (fun r => SetOf (fst r) (rev (snd r))) (trailing member xs ts).
Proof. reflexivity. Qed.
Lemma tree_of_dictionary : forall s f t a b xs ts u,
  tree_of (AtomDictionary s f t (Some (DictionaryContainer a b xs ts)) u) =
  option_map (fun r => DictOf (fst r) (rev (snd r))) (trailing dict_entry xs ts).
Proof. reflexivity. Qed.
Lemma tree_of_yield : forall s f t a b v xs ts p q u, tree_of (AtomTuple s f t (Some (YieldExpr a b v (TestListStarExpr p q xs ts))) u) =
  option_map Yielding (elements display xs ts).
Proof. reflexivity. Qed.
Lemma tree_of_lambda : forall s f t a b xs ts u y, tree_of (Lambda s f t (Some (VarArgsList a b xs ts None None None None None)) u y) =
  match elements parameter xs ts with Some ps => option_map (Func ps) (tree_of y) | None => None end.
Proof. reflexivity. Qed.
Lemma foldo_snoc : forall A B (f : B -> A -> option B) xs x b c d, foldo f b xs = Some c -> f c x = Some d -> foldo f b (xs ++ [x]) = Some d.
Proof.
  intros A B f xs x. induction xs as [|y xs IH]; intros b c d H1 H2; cbn in H1 |- *.
  - injection H1 as ->. rewrite H2. reflexivity.
  - destruct (f b y); [|discriminate H1]. eapply IH; eauto.
Qed.
Lemma is_kind : forall k t, tk_kind t = k -> is k t = true.
Proof. intros k t H. unfold is. apply kind_eqb_eq. assumption. Qed.
Lemma tree_of_infix : forall k n, infix_level k = Some n -> chained n /\ exists ops c, binary (fn_at n) = Some (fn_at (S n), ops) /\ In (k, c) ops /\
  forall s f a t b, tk_kind t = k -> tree_of (c s f a t b) = both (Infix k) (tree_of a) (tree_of b).
Proof.
  intros k n H. destruct k; try discriminate H; injection H as <-; (split; [cbn; tauto|]); eexists; eexists; (split; [reflexivity|]);
    (split; [cbn; intuition reflexivity|]); intros s f a t b K; apply is_kind in K; cbn [tree_of]; rewrite K; reflexivity.
Qed.

(** ** The derivation *)
Definition primary (l : list ptok) (la : look) (e : ast) : Prop :=
  exists l1 a l2 xs e0, l = l1 ++ l2 /\ E F_atom l1 (ahead l2 la) a /\ E_many F_trailer l2 la xs /\
    tree_of a = Some e0 /\ foldo trailer e0 xs = Some e.
Definition derived (e : ast) : Prop :=
  (15 <= level e -> forall l la, faces l = flatten e -> differs [T_AtomString] la -> primary l la e) /\
  (forall k l la, k <= level e -> k <= 14 -> faces l = flatten e -> quiet k la -> exists x, E (fn_at k) l la x /\ tree_of x = Some e) /\
  (forall k l la, chained k -> k <= level e -> faces l = flatten e -> quiet (S k) la -> exists x, E_chain (fn_at k) l la x /\ tree_of x = Some e).

Lemma chained_small : forall k, chained k -> S k <= 14.
Proof. intros k C. unfold chained in C. cbn in C. repeat (destruct C as [<-|C]; [lia|]). destruct C. Qed.
Lemma from_plain : forall e n, level e = n -> n <= 14 -> ~ chained n ->
  (forall l la, faces l = flatten e -> quiet n la -> exists x, E (fn_at n) l la x /\ tree_of x = Some e) -> derived e.
Proof.
  intros e n L M N H. split; [intros; lia|]. split.
  - intros k l la K1 K2 F Q. destruct (H l la F) as (x & D & T); [eapply quiet_up; eauto; lia|]. exists x. split; [|assumption].
    apply (climb n); auto; lia.
  - intros k l la C K F Q. assert (k <> n) by (intros ->; contradiction). destruct (chained_binary k C) as (ops & B & _).
    destruct (H l la F) as (x & D & T); [eapply quiet_up; eauto; lia|]. exists x. split; [|assumption].
    eapply chain_operand; [exact B|]. apply (climb n); auto; lia.
Qed.
Lemma from_chain : forall e n, level e = n -> chained n ->
  (forall l la, faces l = flatten e -> quiet (S n) la -> exists x, E_chain (fn_at n) l la x /\ tree_of x = Some e) -> derived e.
Proof.
  intros e n L C H. pose proof (chained_small n C) as M.
  assert (H' : forall l la, faces l = flatten e -> quiet n la -> exists x, E (fn_at n) l la x /\ tree_of x = Some e).
  { intros l la F Q. destruct (H l la F) as (x & D & T); [eapply quiet_up; eauto|]. exists x. split; [|assumption].
    destruct (chained_binary n C) as (ops & B & CO). eapply E_binary; eauto. rewrite CO. eapply quiet_stops; eauto. }
  split; [intros; lia|]. split.
  - intros k l la K1 K2 F Q. destruct (H' l la F) as (x & D & T); [eapply quiet_up; eauto; lia|]. exists x. split; [|assumption].
    apply (climb n); auto; lia.
  - intros k l la CK K F Q. destruct (Nat.eq_dec k n) as [->|N]; [auto|]. destruct (chained_binary k CK) as (ops & B & _).
    destruct (H' l la F) as (x & D & T); [eapply quiet_up; eauto; lia|]. exists x. split; [|assumption].
    eapply chain_operand; [exact B|]. apply (climb n); auto; lia.
Qed.
Lemma primary_atom_expr : forall l la e, primary l la e -> differs [PyLeftParen; PyLeftBracket; PyDot] la ->
  exists x, E F_atom_expr l la x /\ tree_of x = Some e.
Proof.
  intros l la e (l1 & a & l2 & xs & e0 & -> & A & M & T & FO) D. destruct xs as [|y ys].
  - inversion M; subst. rewrite app_nil_r. cbn in FO. injection FO as ->. exists a. split; [|assumption]. apply E_atom_expr_atom; assumption.
  - eexists. split; [eapply E_atom_expr_trailers; eauto; discriminate|]. rewrite tree_of_atom_expr, T, FO. reflexivity.
Qed.
Lemma from_primary : forall e, 15 <= level e ->
  (forall l la, faces l = flatten e -> differs [T_AtomString] la -> primary l la e) -> derived e.
Proof.
  intros e L H.
  assert (H' : forall l la, faces l = flatten e -> quiet 14 la -> exists x, E F_atom_expr l la x /\ tree_of x = Some e).
  { intros l la F Q. apply primary_atom_expr; [|eapply quiet_differs; [exact Q|reflexivity]]. apply H; [assumption|].
    eapply quiet_differs; [exact (quiet_up 14 15 la Q ltac:(lia))|reflexivity]. }
  split; [auto|]. split.
  - intros k l la K1 K2 F Q. destruct (H' l la F) as (x & D & T); [eapply quiet_up; eauto|]. exists x. split; [|assumption].
    apply (climb 14); auto; lia.
  - intros k l la C K F Q. pose proof (chained_small k C) as M. destruct (chained_binary k C) as (ops & B & _).
    destruct (H' l la F) as (x & D & T); [eapply quiet_up; eauto|]. exists x. split; [|assumption].
    eapply chain_operand; [exact B|]. apply (climb 14); auto; lia.
Qed.
Lemma from_atom : forall e, 15 <= level e ->
  (forall l la, faces l = flatten e -> differs [T_AtomString] la -> exists x, E F_atom l la x /\ tree_of x = Some e) -> derived e.
Proof.
  intros e L H. apply from_primary; [assumption|]. intros l la F D. destruct (H l la F D) as (x & A & T).
  exists l, x, [], [], e. rewrite app_nil_r. split; [reflexivity|]. split; [exact A|]. split; [constructor|]. auto.
Qed.
Lemma many_snoc : forall f l2 la x, E f l2 la x -> forall l1 la1 xs, E_many f l1 la1 xs -> la1 = ahead l2 la -> E_many f (l1 ++ l2) la (xs ++ [x]).
Proof.
  intros f l2 la x H l1 la1 xs M. induction M as [f la1|f m1 y m2 ys la1 D1 D2 IH]; intros ->.
  - cbn [app]. rewrite <- (app_nil_r l2). constructor; [exact H|constructor].
  - rewrite <- app_assoc. cbn [app]. constructor; [rewrite ahead_app; exact D1|]. auto.
Qed.
(** What is known of a tree that may be a part: the same of the expressions in it. *)
Definition known (e : ast) : Prop :=
  match e with
  | Starred a | Spread a | Default _ a => derived a
  | Pair a b => derived a /\ derived b
  | Func _ b => derived e /\ (2 <= level b -> forall l la, faces l = flatten e -> quiet 2 la -> exists x, E F_no_cond_test l la x /\ tree_of x = Some e)
  | ForIn _ ts c a =>
      (forall l q u, faces l = between (mark PyComa) (map flatten ts) ++ comma_if c -> tk_kind u = PyIn ->
        exists x, E F_exprlist l (q, Some u) x /\ targets_of x = Some (c, ts)) /\ derived a
  | When a => forall l la, faces l = flatten a -> quiet 2 la -> exists x, E F_no_cond_test l la x /\ tree_of x = Some a
  | _ => derived e
  end.
Lemma known_stands : forall e, stands e = true -> known e -> derived e.
Proof. intros e S K. destruct e; try exact K; try discriminate S. exact (proj1 K). Qed.
Lemma known_level : forall e, known e -> 1 <= level e -> derived e.
Proof. intros e K L. apply known_stands; [apply level_stands, L|exact K]. Qed.
Lemma known_no_cond : forall e, known e -> no_cond e = true -> forall l la, faces l = flatten e -> quiet 2 la -> exists x, E F_no_cond_test l la x /\ tree_of x = Some e.
Proof.
  intros e K N l la F Q. destruct e; cbn [no_cond] in N; apply Nat.leb_le in N;
    try (destruct (proj1 (proj2 (known_level _ K ltac:(lia))) 2 l la N ltac:(lia) F Q) as (x & D & T); exists x; split; [apply E_nocond_or; exact D|exact T]).
  exact (proj2 K N l la F Q).
Qed.
Lemma elements_from : forall fs r es q u K, Forall (derives fs r K) es -> es <> [] -> tk_kind u = K ->
  forall l, faces l = between (mark PyComa) (map flatten es) ->
  exists xs ts, E_items fs PyComa l (q, Some u) xs ts /\ elements r (rev xs) (rev ts) = Some es.
Proof.
  intros fs r es q u K D N KU l F. destruct es as [|e es]; [congruence|].
  destruct (items_derived fs r K e es D l (q, Some u) F) as (xs & ts & I & O & L); [exists u; cbn; auto|].
  exists xs, ts. split; [assumption|]. apply elements_rev; assumption.
Qed.
Lemma list_quiet : forall K k la, ends_all K = true -> before [PyComa; K] la -> quiet k la.
Proof.
  intros K k (p & o) EK (t & LA & I). cbn in LA. subst o. apply ends_quiet. destruct I as [<- | [<- | []]]; [reflexivity|assumption].
Qed.
Lemma tree_display : forall x, tree_of x <> None -> display x = tree_of x.
Proof. intros x H. unfold display. destruct (tree_of x); [reflexivity|congruence]. Qed.
Lemma tree_member : forall x, tree_of x <> None -> member x = tree_of x.
Proof. intros x H. unfold member. destruct (tree_of x); [reflexivity|congruence]. Qed.
Definition is_starred (e : ast) : bool := match e with Starred _ => true | _ => false end.
Lemma display_derives : forall K e, ends_all K = true -> in_display e = true -> proper e -> known e ->
  derives [F_star_expr; F_named_expression] display K e.
Proof.
  intros K e EK ID P KE l la F B. pose proof (list_quiet K 6 la EK B) as Q6. pose proof (list_quiet K 0 la EK B) as Q0.
  destruct (is_starred e) eqn:SE.
  - destruct e; try discriminate SE. destruct P as (P & L). cbn [flatten] in F. apply faces_cons in F as (p & t & l1 & -> & KT & F). apply face_kind in KT.
    destruct (proj1 (proj2 KE) 6 l1 la L ltac:(lia) F Q6) as (x & D & T).
    exists F_star_expr, (StarExpr p (fst la) t x). split; [left; reflexivity|]. split; [apply E_star_expr; assumption|]. change (option_map Starred (tree_of x) = Some (Starred e)). rewrite T. reflexivity.
  - assert (S : stands e = true) by (destruct e; try reflexivity; discriminate).
    destruct (proj1 (proj2 (known_stands e S KE)) 0 l la ltac:(lia) ltac:(lia) F Q0) as (x & D & T).
    exists F_named_expression, x. split; [right; left; reflexivity|]. split; [exact D|]. rewrite tree_display by congruence. exact T.
Qed.
Lemma argument_derives : forall K e, ends_all K = true -> K <> PyColon -> 1 <= level e -> derived e -> derives [F_subscript] argument K e.
Proof.
  intros K e EK NK L (_ & D & _) l la F B. pose proof (list_quiet K 1 la EK B) as Q. destruct (D 1 l la L ltac:(lia) F Q) as (x & DX & TX).
  exists F_subscript, (Subscript (start l la) (fst la) (Some x) None None None None). split; [left; reflexivity|]. split; [|exact TX].
  apply E_subscript; [exact DX|]. destruct B as (t & LA & I). exists t. split; [exact LA|]. intros [J|[]]. rewrite <- J in I.
  destruct I as [I|[I|[]]]; [discriminate I|congruence].
Qed.
Lemma parameter_derives : forall e, in_lambda e = true -> proper e -> known e -> derives [F_var_args_assignments] parameter PyColon e.
Proof.
  intros e IL P KE l la F B. pose proof (list_quiet PyColon 1 la eq_refl B) as Q. destruct e; try discriminate IL.
  - destruct k; try discriminate IL. cbn [flatten] in F. apply faces_cons in F as (q & t & l1 & -> & KT & F). apply faces_nil in F as ->.
    pose proof (face_kind _ _ _ KT) as KN. exists F_var_args_assignments, (VFPDef q (fst la) t). split; [left; reflexivity|].
    split; [apply E_var_arg; [apply E_vfp_def; exact KN|]|].
    + destruct B as (u & LA & I). exists u. split; [exact LA|]. intros [J|[]]. rewrite <- J in I. destruct I as [I|[I|[]]]; discriminate I.
    + cbn [parameter]. unfold face in KT. rewrite KN in KT. cbn in KT. congruence.
  - destruct P as (P & L). cbn [flatten] in F. apply faces_cons in F as (q & t & l1 & -> & KT & F). apply faces_cons in F as (q2 & t2 & l2 & -> & KT2 & F).
    apply face_kind in KT2. pose proof (face_kind _ _ _ KT) as KN. destruct (proj1 (proj2 KE) 1 l2 la L ltac:(lia) F Q) as (x & D & T).
    eexists F_var_args_assignments, _. split; [left; reflexivity|].
    split; [apply (E_var_arg_default [(q, t)] (VFPDef q q2 t)); [exact (E_vfp_def q t (q2, Some t2) KN)|exact KT2|exact D]|].
    cbn [parameter]. rewrite T. cbn [option_map]. unfold face in KT. rewrite KN in KT. cbn in KT. congruence.
Qed.
Lemma arguments_from : forall es q u K, ends_all K = true -> K <> PyColon -> K <> PyComa -> tk_kind u = K -> es <> [] ->
  Forall (fun e => operand 1 e /\ known e) es ->
  forall l, faces l = between (mark PyComa) (map flatten es) ->
  exists y, E F_subscript_list l (q, Some u) y /\ arguments y = Some es.
Proof.
  intros es q u K EK NK NC KU N H l F.
  destruct (elements_from [F_subscript] argument es q u K) with (l := l) as (xs & ts & I & EL); auto.
  { eapply Forall_impl; [|exact H]. intros e ((_ & L) & D). apply argument_derives; auto. apply known_level; assumption. }
  eexists. split; [eapply E_subscript_list; [exact I|]|exact EL]. exists u. split; [reflexivity|]. intros [J|[]]. congruence.
Qed.
Lemma comp_from : forall es q u K, ends_all K = true -> K <> PyComa -> tk_kind u = K -> es <> [] -> forallb in_display es = true ->
  Forall (fun e => operand 0 e /\ known e) es ->
  forall l, faces l = between (mark PyComa) (map flatten es) ->
  exists xs ts a b, E F_testlist_comp l (q, Some u) (TestListComp a b xs ts) /\ elements display xs ts = Some es.
Proof.
  intros es q u K EK NC KU N ID H l F. rewrite forallb_forall in ID.
  destruct (elements_from [F_star_expr; F_named_expression] display es q u K) with (l := l) as (xs & ts & I & EL); auto.
  { rewrite Forall_forall in *. intros e J. destruct (H e J) as ((P & _) & D). apply display_derives; auto. }
  exists (rev xs), (rev ts). eexists. eexists. split; [eapply E_testlist_comp; [exact I|]|exact EL]. exists u. split; [reflexivity|].
  rewrite KU. intros J. assert (X : K = PyComa \/ K = PyFor \/ K = PyAsync) by (destruct ts; cbn in J; intuition).
  destruct X as [X|[X|X]]; [contradiction|rewrite X in EK; discriminate EK..].
Qed.
(** Members of sets. *)
Lemma member_reads : forall e l la s, in_set e = true -> proper e -> known e -> faces l = flatten e -> before [PyComa; PyRightCurly] la ->
  exists x, E_set_first s l la x /\ E_entry false s l la x /\ member x = Some e.
Proof.
  intros e l la s IS P KE F B. pose proof (list_quiet PyRightCurly 6 la eq_refl B) as Q6. pose proof (list_quiet PyRightCurly 1 la eq_refl B) as Q1.
  destruct (is_starred e) eqn:SE.
  - destruct e; try discriminate SE. destruct P as (P & L). cbn [flatten] in F. apply faces_cons in F as (p & t & l1 & -> & KT & F). apply face_kind in KT.
    destruct (proj1 (proj2 KE) 6 l1 la L ltac:(lia) F Q6) as (x & D & T).
    exists (MulSet s (fst la) t x). split; [apply set_first_mul; assumption|]. split; [apply entry_mul; assumption|]. change (option_map Starred (tree_of x) = Some (Starred e)). rewrite T. reflexivity.
  - assert (L : 1 <= level e) by (apply Nat.leb_le; destruct e; try exact IS; discriminate SE).
    destruct (proj1 (proj2 (known_level e KE L)) 1 l la L ltac:(lia) F Q1) as (x & D & T).
    exists x. split; [apply set_first_test; [exact D|]|split; [apply entry_test; exact D|rewrite tree_member by congruence; exact T]].
    destruct B as (u & LA & I). exists u. split; [exact LA|]. intros [J|[]]. rewrite <- J in I. destruct I as [I|[I|[]]]; discriminate I.
Qed.
Lemma members_rest : forall es s, forallb in_set es = true -> Forall (fun e => operand 0 e /\ known e) es ->
  forall l la, faces l = flat_map (fun m => mark PyComa :: m) (map flatten es) -> before [PyComa; PyRightCurly] la ->
  exists xs ts, E_set_rest s l la xs ts /\ opts member xs = Some es /\ length ts = length xs /\ before [PyComa; PyRightCurly] (ahead l la).
Proof.
  intros es s IS H. induction H as [|e es ((P & _) & D) H IH]; intros l la FA B.
  - cbn in FA. split_faces. exists [], []. split; [constructor|]. split; [reflexivity|]. split; [reflexivity|].
    exact B.
  - cbn [forallb] in IS. apply andb_prop in IS as (IS & ISS). cbn [map flat_map] in FA. cbn [app] in FA.
    apply faces_cons in FA as (p & t & l0 & -> & K0 & FA). apply faces_app in FA as (l1 & l2 & -> & F0 & F1).
    apply face_kind in K0. destruct (IH ISS _ _ F1 B) as (xs & ts & R & O & LE & B2).
    destruct (member_reads e l1 (ahead l2 la) s IS P D F0 B2) as (x & _ & EX & RX).
    exists (x :: xs), (t :: ts). split; [apply set_rest_cons; auto|]. rewrite opts_cons, RX, O. cbn [length]. split; [reflexivity|]. split; [auto|].
    exists t. split; [reflexivity|]. left. symmetry. exact K0.
Qed.
Lemma set_back : forall (r : node -> option ast) xs ts b es, trailing r xs ts = Some (b, es) -> trailing r (rev xs) (rev ts) = Some (b, rev es).
Proof.
  intros r xs ts b es H. unfold trailing in *. rewrite !rev_length. destruct (S (length ts) =? length xs).
  - destruct (opts r xs) as [ds|] eqn:O; [|discriminate H]. injection H as <- <-. rewrite (opts_rev r _ _ O). reflexivity.
  - destruct (length ts =? length xs); [|discriminate H]. destruct (opts r xs) as [ds|] eqn:O; [|discriminate H]. injection H as <- <-. rewrite (opts_rev r _ _ O). reflexivity.
Qed.
Lemma members_from : forall c es q u, tk_kind u = PyRightCurly -> es <> [] -> forallb in_set es = true ->
  Forall (fun e => operand 0 e /\ known e) es ->
  forall l, faces l = between (mark PyComa) (map flatten es) ++ comma_if c ->
  exists xs ts a b, E F_dictorset_maker l (q, Some u) (SetContainer a b xs ts) /\ trailing member xs ts = Some (c, rev es).
Proof.
  intros c [|e es] q u KU N IS H l F; [congruence|]. cbn [forallb] in IS. apply andb_prop in IS as (IS & ISS).
  inversion H as [|? ? ((P & _) & D) HS]; subst. cbn [map between] in F. rewrite <- app_assoc in F. apply faces_app in F as (l1 & l0 & -> & F1 & F).
  apply faces_app in F as (l2 & l3 & -> & F2 & F3).
  assert (B : before [PyComa; PyRightCurly] (ahead l3 (q, Some u))).
  { destruct c; cbn [comma_if] in F3.
    - apply faces_cons in F3 as (p & t & l4 & -> & K & _). apply face_kind in K. exists t. cbn. auto.
    - apply faces_nil in F3 as ->. exists u. cbn. auto. }
  destruct (members_rest es (start l1 (ahead l2 (ahead l3 (q, Some u)))) ISS HS l2 _ F2 B) as (xs & ts & R & O & LE & B2).
  destruct (member_reads e l1 _ (start l1 (ahead l2 (ahead l3 (q, Some u)))) IS P D F1 B2) as (x & EX & _ & RX).
  assert (OO : opts member (x :: xs) = Some (e :: es)) by (rewrite opts_cons, RX, O; reflexivity).
  destruct c; cbn [comma_if] in F3.
  - apply faces_cons in F3 as (p & t & l4 & -> & K & F4). apply face_kind in K. apply faces_nil in F4 as ->. cbn [ahead] in *.
    eexists _, _, _, _. split; [apply E_set_items_comma; [exact EX|exact R|exact K|exists u; cbn; auto]|].
    apply set_back. apply trailing_one; [exact OO|]. rewrite app_length. cbn [length]. lia.
  - apply faces_nil in F3 as ->. rewrite app_nil_r. cbn [ahead] in *. eexists _, _, _, _. split; [apply E_set_items; [exact EX|exact R|]|].
    { exists u. split; [reflexivity|]. rewrite KU. intros [J|[]]. discriminate J. }
    apply set_back. apply trailing_none; [exact OO|]. cbn [length]. lia.
Qed.
(** Entries of dictionaries. *)
Lemma entry_reads : forall e l la s, in_dictionary e = true -> proper e -> known e -> faces l = flatten e -> before [PyComa; PyRightCurly] la ->
  exists x, E_entry true s l la x /\ dict_entry x = Some e.
Proof.
  intros e l la s IS P KE F B. pose proof (list_quiet PyRightCurly 6 la eq_refl B) as Q6. pose proof (list_quiet PyRightCurly 1 la eq_refl B) as Q1.
  destruct e; try discriminate IS.
  - destruct P as (P & L). cbn [flatten] in F. apply faces_cons in F as (p & t & l1 & -> & KT & F). apply face_kind in KT.
    destruct (proj1 (proj2 KE) 6 l1 la L ltac:(lia) F Q6) as (x & D & T).
    exists (PowerDictionary s (fst la) t x). split; [apply entry_power; assumption|]. cbn [dict_entry]. rewrite T. reflexivity.
  - destruct P as ((P1 & L1) & (P2 & L2)). destruct KE as (K1 & K2). cbn [flatten] in F. apply faces_app in F as (l1 & l0 & -> & F1 & F).
    apply faces_cons in F as (p & t & l2 & -> & KT & F2). apply face_kind in KT.
    destruct (proj1 (proj2 K1) 1 l1 (p, Some t) L1 ltac:(lia) F1) as (x & DX & TX); [apply ends_quiet; rewrite KT; reflexivity|].
    destruct (proj1 (proj2 K2) 1 l2 la L2 ltac:(lia) F2 Q1) as (y & DY & TY).
    exists (DictionaryEntry s (fst la) x t y). split; [apply entry_pair; assumption|]. cbn [dict_entry]. rewrite TX, TY. reflexivity.
Qed.
Lemma entries_from : forall (c : bool) es q u, tk_kind u = PyRightCurly -> 1 <= length es <= (if c then 1 else 2) -> forallb in_dictionary es = true ->
  Forall (fun e => operand 0 e /\ known e) es ->
  forall l, faces l = between (mark PyComa) (map flatten es) ++ comma_if c ->
  exists xs ts a b, E F_dictorset_maker l (q, Some u) (DictionaryContainer a b xs ts) /\ trailing dict_entry xs ts = Some (c, rev es).
Proof.
  intros c es q u KU N IS H l F. assert (B : before [PyComa; PyRightCurly] (q, Some u)) by (exists u; cbn; auto).
  destruct es as [|e [|d [|? ?]]]; cbn [length] in N; try (destruct c; lia); cbn [forallb] in IS; inversion H as [|? ? ((P & _) & D) HS]; subst.
  - rewrite Bool.andb_true_r in IS. cbn [map between flat_map] in F. rewrite app_nil_r in F. destruct c; cbn [comma_if] in F.
    + apply faces_app in F as (l1 & l0 & -> & F1 & F). apply faces_cons in F as (p & t & l2 & -> & KT & F2). apply face_kind in KT. apply faces_nil in F2 as ->.
      destruct (entry_reads e l1 (p, Some t) (start l1 (p, Some t)) IS P D F1) as (x & EX & RX); [exists t; cbn; auto|].
      eexists [x], [t], _, _. split; [apply E_dict_comma; [exact EX|exact KT|exists u; cbn; auto]|]. unfold trailing. cbn. rewrite RX. reflexivity.
    + rewrite app_nil_r in F. destruct (entry_reads e l _ (start l (q, Some u)) IS P D F B) as (x & EX & RX).
      eexists [x], [], _, _. split; [apply E_dict_one; [exact EX|]|].
      { exists u. split; [reflexivity|]. rewrite KU. intros [J|[]]. discriminate J. }
      unfold trailing. cbn. rewrite RX. reflexivity.
  - destruct c; [lia|]. cbn [comma_if] in F. rewrite app_nil_r in F.
    apply andb_prop in IS as (IE & IS). rewrite Bool.andb_true_r in IS. inversion HS as [|? ? ((P2 & _) & D2) _]; subst.
    cbn [map between flat_map] in F. rewrite app_nil_r in F. apply faces_app in F as (l1 & l0 & -> & F1 & F).
    apply faces_cons in F as (p & t & l2 & -> & KT & F2). apply face_kind in KT.
    destruct (entry_reads e l1 (p, Some t) (start l1 (p, Some t)) IE P D F1) as (x & EX & RX); [exists t; cbn; auto|].
    destruct (entry_reads d l2 _ (start l1 (p, Some t)) IS P2 D2 F2 B) as (y & EY & RY).
    eexists [y; x], [t], _, _. split; [apply E_dict_two; [exact EX|exact KT|exact EY]|]. unfold trailing. cbn. rewrite RX, RY. reflexivity.
Qed.
Lemma parameters_from : forall es q u, tk_kind u = PyColon -> es <> [] -> forallb in_lambda es = true ->
  Forall (fun e => operand 0 e /\ known e) es ->
  forall l, faces l = between (mark PyComa) (map flatten es) ->
  exists xs ts a b, E F_var_args_list l (q, Some u) (VarArgsList a b xs ts None None None None None) /\ elements parameter xs ts = Some es.
Proof.
  intros es q u KU N IS H l F. rewrite forallb_forall in IS.
  destruct (elements_from [F_var_args_assignments] parameter es q u PyColon) with (l := l) as (xs & ts & I & EL); auto.
  { rewrite Forall_forall in *. intros e J. destruct (H e J) as ((P & _) & D). apply parameter_derives; auto. }
  exists (rev xs), (rev ts). eexists. eexists. split; [eapply E_var_args; [exact I|]|exact EL]. exists u. split; [reflexivity|].
  rewrite KU. intros [J|[]]. discriminate J.
Qed.
Lemma primary_snoc : forall l la e p t m x d, primary l (p, Some t) e -> E F_trailer ((p, t) :: m) la x -> trailer e x = Some d ->
  primary (l ++ (p, t) :: m) la d.
Proof.
  intros l la e p t m x d (l1 & a & l2 & xs & e0 & -> & A & M & T & FO) D X.
  exists l1, a, (l2 ++ (p, t) :: m), (xs ++ [x]), e0. split; [apply app_assoc_reverse|]. split; [rewrite ahead_app_cons; exact A|].
  split; [eapply many_snoc; [exact D|exact M|reflexivity]|]. split; [assumption|]. eapply foldo_snoc; eauto.
Qed.
Lemma primary_of : forall e l p t, derived e -> 15 <= level e -> faces l = flatten e -> tk_kind t <> T_AtomString -> primary l (p, Some t) e.
Proof.
  intros e l p t (D & _) L F N. apply D; [assumption..|]. intros u [= <-] [X|[]]. congruence.
Qed.
Lemma forall_known : forall k es, Forall (operand k) es -> Forall (fun e => proper e -> known e) es -> Forall (fun e => operand k e /\ known e) es.
Proof. intros k es H. induction H as [|e es [P L] H IH]; intros I; [constructor|]. inversion I; subst. constructor; auto. split; [split|]; auto. Qed.

Ltac enclosed F := (* open l1 close *)
  apply faces_cons in F as (p & t & l0 & -> & K & F); apply faces_app in F as (l1 & l2 & -> & F1 & F);
  apply faces_cons in F as (q & u & l3 & -> & K2 & F); apply faces_nil in F as ->; apply face_kind in K; apply face_kind in K2.
Ltac trailed F := (* l0 open l1 close *)
  apply faces_app in F as (lh & lt & -> & F0 & F); enclosed F.
Ltac infixed F := (* l1 t l2 *)
  apply faces_app in F as (l1 & l0 & -> & F1 & F); apply faces_cons in F as (p & t & l2 & -> & K & F2); apply face_kind in K.
Ltac prefixed F := (* t l1 *)
  apply faces_cons in F as (p & t & l1 & -> & K & F1); apply face_kind in K.
Lemma quiet_down : forall k la, quiet (S k) la -> extends_at k = [] -> quiet k la.
Proof.
  intros k la (t & LA & H) N. exists t. split; [assumption|]. intros j L. destruct (Nat.eq_dec j k) as [->|X]; [rewrite N; intros []|apply H; lia].
Qed.

(** Comprehensions. *)
Lemma starred_last : forall ts, closed_targets false ts = true -> exists ds d, ts = ds ++ [Starred d].
Proof.
  intros ts H. unfold closed_targets in H. cbn [orb] in H. destruct (rev ts) as [|e es] eqn:R; [discriminate H|]. destruct e; try discriminate H.
  exists (rev es), e. rewrite <- (rev_involutive ts), R. reflexivity.
Qed.
Lemma not_coma : forall q u, tk_kind u = PyIn -> stops [PyComa] (q, Some u).
Proof. intros q u K. exists u. split; [reflexivity|]. rewrite K. intros [J|[]]. discriminate J. Qed.
Lemma displays_items : forall es p t, tk_kind t = PyComa -> es <> [] -> forallb in_display es = true -> Forall (fun e => operand 0 e /\ known e) es ->
  forall l, faces l = between (mark PyComa) (map flatten es) ->
  exists xs ts, E_items [F_star_expr; F_named_expression] PyComa l (p, Some t) xs ts /\ opts display xs = Some es /\ S (length ts) = length xs.
Proof.
  intros [|e es] p t K N ID H l F; [congruence|]. rewrite forallb_forall in ID. eapply (items_derived _ _ PyComa); [|exact F|exists t; cbn; auto].
  rewrite Forall_forall in *. intros d J. destruct (H d J) as ((P & _) & D). apply display_derives; auto.
Qed.
Lemma targets_from : forall ts c q u, tk_kind u = PyIn -> ts <> [] -> forallb in_display ts = true -> closed_targets c ts = true ->
  Forall (fun e => operand 0 e /\ known e) ts ->
  forall l, faces l = between (mark PyComa) (map flatten ts) ++ comma_if c ->
  exists x, E F_exprlist l (q, Some u) x /\ targets_of x = Some (c, ts).
Proof.
  intros ts c q u KU N ID CT H l F. destruct c; cbn [comma_if] in F.
  - apply faces_app in F as (l1 & l2 & -> & F1 & F2). apply faces_cons in F2 as (p & t & l3 & -> & K & F2). apply faces_nil in F2 as ->. apply face_kind in K.
    destruct (displays_items ts p t K N ID H l1 F1) as (xs & us & I & O & L).
    eexists. split; [eapply E_exprlist_comma; [exact I|exact K|exists u; cbn; auto]|]. cbn [targets_of]. apply trailing_one; [exact O|].
    rewrite app_length. cbn [length]. lia.
  - rewrite app_nil_r in F. destruct (starred_last ts CT) as (ds & d & ->). apply Forall_app in H as (H & HD). inversion HD as [|? ? ((PD & _) & KD) _]; subst.
    destruct PD as (PD & LD). assert (Q6 : quiet 6 (q, Some u)) by (eapply mark_quiet; [exact KU|late]).
    assert (ST : forall m, faces m = flatten (Starred d) -> exists x, E F_star_expr m (q, Some u) x /\ display x = Some (Starred d) /\ targets_of x = Some (false, [Starred d])).
    { intros m FM. cbn [flatten] in FM. apply faces_cons in FM as (p & t & m1 & -> & K & FM). apply face_kind in K.
      destruct (proj1 (proj2 KD) 6 m1 _ LD ltac:(lia) FM Q6) as (x & D & T). eexists. split; [apply E_star_expr; [exact K|exact D]|].
      assert (DI : display (StarExpr p (fst (q, Some u)) t x) = Some (Starred d)) by (change (option_map Starred (tree_of x) = Some (Starred d)); rewrite T; reflexivity).
      split; [exact DI|]. cbn [targets_of]. rewrite DI. reflexivity. }
    destruct ds as [|e ds].
    + cbn in F. rewrite app_nil_r in F. destruct (ST l F) as (x & D & _ & T). exists x. split; [|exact T].
      eapply E_exprlist_one; [left; reflexivity|exact D|apply not_coma, KU].
    + rewrite map_app in F. cbn [map] in F. rewrite between_snoc in F by discriminate. apply faces_app in F as (l1 & l2 & -> & F1 & F2).
      apply faces_cons in F2 as (p & t & l3 & -> & K & F2). apply face_kind in K. rewrite forallb_app in ID. apply andb_prop in ID as (ID & _).
      destruct (displays_items (e :: ds) p t K ltac:(discriminate) ID H l1 F1) as (xs & us & I & O & L). destruct (ST l3 F2) as (x & D & DI & _).
      eexists. split; [eapply E_exprlist; [eapply (items_snoc _ _ F_star_expr); [exact K|left; reflexivity|exact D|exact I]| |apply not_coma, KU]|].
      { intros X. apply app_eq_nil in X as (_ & X). discriminate X. }
      cbn [targets_of]. apply trailing_none; [apply opts_app; [exact O|cbn; rewrite DI; reflexivity]|]. rewrite !app_length. cbn [length]. lia.
Qed.
Lemma clause_start : forall cs l, runs_over cs = true -> faces l = flat_map flatten cs -> exists p t l', l = (p, t) :: l' /\ In (tk_kind t) [PyFor; PyAsync].
Proof.
  intros [|c cs] l R F; [discriminate R|]. destruct c; try discriminate R. cbn [flat_map flatten] in F. destruct async; cbn [app] in F;
    apply faces_cons in F as (p & t & l' & -> & K & _); apply face_kind in K; exists p, t, l'; cbn; auto.
Qed.
Lemma clauses_quiet : forall cs l q u, forallb in_comprehension cs = true -> faces l = flat_map flatten cs -> In (tk_kind u) [PyRightParen; PyRightBracket] ->
  quiet 2 (ahead l (q, Some u)).
Proof.
  intros [|c cs] l q u I F K.
  - cbn in F. apply faces_nil in F as ->. apply ends_quiet. destruct K as [<-|[<-|[]]]; reflexivity.
  - cbn [forallb] in I. apply andb_prop in I as (I & _). cbn [flat_map] in F. apply faces_app in F as (l1 & l2 & -> & F & _).
    destruct c; try discriminate I; cbn [flatten] in F.
    + destruct async; cbn [app] in F; apply faces_cons in F as (p & t & l' & -> & KT & _); apply face_kind in KT; (eapply mark_quiet; [exact KT|late]).
    + apply faces_cons in F as (p & t & l' & -> & KT & _). apply face_kind in KT. eapply mark_quiet; [exact KT|late].
Qed.
Lemma clauses_from : forall cs q u, In (tk_kind u) [PyRightParen; PyRightBracket] -> forallb in_comprehension cs = true -> Forall (fun e => operand 0 e /\ known e) cs ->
  forall l, faces l = flat_map flatten cs ->
  (exists o, E_opt F_comp_iter l (q, Some u) o /\ rest_of o = Some cs /\ (o = None -> stops [PyAsync; PyFor; PyIf] (q, Some u))) /\
  (runs_over cs = true -> exists x, E F_comp_for l (q, Some u) x /\ clauses_of x = Some cs).
Proof.
  intros cs q u KU. induction cs as [|c cs IH]; intros IC H l F.
  - cbn in F. apply faces_nil in F as ->. split; [|discriminate]. exists None. split; [constructor|]. split; [reflexivity|]. intros _. exists u. split; [reflexivity|].
    intros J. destruct KU as [K|[K|[]]]; rewrite <- K in J; cbn in J; intuition discriminate.
  - cbn [forallb] in IC. apply andb_prop in IC as (I & IC). inversion H as [|? ? ((P & _) & K) HS]; subst. cbn [flat_map] in F. apply faces_app in F as (l0 & l3 & -> & F & F3).
    pose proof (clauses_quiet cs l3 q u IC F3 KU) as Q2. destruct (IH IC HS l3 F3) as ((o & RO & RE & ST) & _). destruct c; try discriminate I.
    + destruct P as (_ & _ & _ & _ & (P & L)). destruct K as (KT & KS). cbn [flatten] in F.
      assert (SY : forall m, faces m = mark PyFor :: (between (mark PyComa) (map flatten ts) ++ comma_if comma) ++ mark PyIn :: flatten c ->
        exists p t a v d, E F_sync_comp_for (m ++ l3) (q, Some u) (SyncCompForComprehension p (fst (q, Some u)) t a v d o) /\ forall w, runs_of w a d o = Some (ForIn w ts comma c :: cs)).
      { intros m FM. apply faces_cons in FM as (p & t & m1 & -> & K1 & FM). apply face_kind in K1. apply faces_app in FM as (m2 & m3 & -> & F2 & FM).
        apply faces_cons in FM as (p2 & v & m4 & -> & K2 & FM). apply face_kind in K2. destruct (KT m2 p2 v F2 K2) as (a & EA & TA).
        destruct (proj1 (proj2 KS) 2 m4 (ahead l3 (q, Some u)) L ltac:(lia) FM Q2) as (d & ED & TD).
        exists p, t, a, v, d. split; [|intros w; unfold runs_of; rewrite TA, TD, RE; reflexivity]. cbn [app]. rewrite <- app_assoc. cbn [app].
        apply E_sync_comp_for; assumption. }
      assert (FO : exists x, E F_comp_for (l0 ++ l3) (q, Some u) x /\ clauses_of x = Some (ForIn async ts comma c :: cs)).
      { destruct async; cbn [app] in F.
        - apply faces_cons in F as (p0 & t0 & m & -> & K0 & F). apply face_kind in K0. destruct (SY m F) as (p & t & a & v & d & ES & RS).
          eexists. split; [cbn [app]; apply E_comp_for_async; [exact K0|exact ES]|]. rewrite clauses_of_async. apply RS.
        - destruct (SY l0 F) as (p & t & a & v & d & ES & RS). eexists. split; [apply E_comp_for; exact ES|]. rewrite clauses_of_for. apply RS. }
      split; [|intros _; exact FO]. destruct FO as (x & EX & CX). exists (Some x). split; [apply opt_some; eapply E_comp_iter; [left; reflexivity|exact EX]|].
      split; [exact CX|discriminate].
    + split; [|discriminate]. cbn [flatten] in F. apply faces_cons in F as (p & t & m & -> & K1 & F). apply face_kind in K1.
      destruct (K m (ahead l3 (q, Some u)) F Q2) as (d & ED & TD). eexists (Some _).
      split; [apply opt_some; eapply E_comp_iter; [right; left; reflexivity|cbn [app]; apply E_comp_if; [exact K1|exact ED|exact RO|exact ST]]|].
      split; [cbn [rest_of]; rewrite clauses_of_if, TD, RE; reflexivity|discriminate].
Qed.
Lemma comprehension_from : forall e cs q u, In (tk_kind u) [PyRightParen; PyRightBracket] -> stands e = true -> proper e -> known e ->
  runs_over cs = true -> forallb in_comprehension cs = true -> Forall (fun e => operand 0 e /\ known e) cs ->
  forall l, faces l = flatten e ++ flat_map flatten cs ->
  exists a b y x, E F_testlist_comp l (q, Some u) (TestListComp a b [y; x] []) /\ tree_of x = Some e /\ clauses_of y = Some cs.
Proof.
  intros e cs q u KU S P K RO IC H l F. apply faces_app in F as (l1 & l2 & -> & F1 & F2).
  destruct (proj2 (clauses_from cs q u KU IC H l2 F2) RO) as (y & EY & CY).
  destruct (clause_start cs l2 RO F2) as (p & t & l2' & -> & KT).
  destruct (proj1 (proj2 (known_stands e S K)) 0 l1 (p, Some t) ltac:(lia) ltac:(lia) F1) as (x & EX & TX).
  { destruct KT as [KT|[KT|[]]]; (eapply mark_quiet; [symmetry; exact KT|late]). }
  eexists _, _, y, x. split; [|auto]. eapply (E_testlist_comp_for F_named_expression); [right; left; reflexivity|exact EX|exact EY].
Qed.
(** Values of a yield. *)
Lemma value_derives : forall K e, ends_all K = true -> in_set e = true -> proper e -> known e -> derives [F_star_expr; F_test] display K e.
Proof.
  intros K e EK IS P KE l la F B. pose proof (list_quiet K 6 la EK B) as Q6. pose proof (list_quiet K 1 la EK B) as Q1.
  destruct (is_starred e) eqn:SE.
  - destruct e; try discriminate SE. destruct P as (P & L). cbn [flatten] in F. apply faces_cons in F as (p & t & l1 & -> & KT & F). apply face_kind in KT.
    destruct (proj1 (proj2 KE) 6 l1 la L ltac:(lia) F Q6) as (x & D & T).
    exists F_star_expr, (StarExpr p (fst la) t x). split; [left; reflexivity|]. split; [apply E_star_expr; assumption|]. change (option_map Starred (tree_of x) = Some (Starred e)). rewrite T. reflexivity.
  - assert (L : 1 <= level e) by (apply Nat.leb_le; destruct e; try exact IS; discriminate SE).
    destruct (proj1 (proj2 (known_level e KE L)) 1 l la L ltac:(lia) F Q1) as (x & D & T).
    exists F_test, x. split; [right; left; reflexivity|]. split; [exact D|]. rewrite tree_display by congruence. exact T.
Qed.
Lemma values_from : forall es q u, tk_kind u = PyRightParen -> es <> [] -> forallb in_set es = true -> Forall (fun e => operand 0 e /\ known e) es ->
  forall l, faces l = between (mark PyComa) (map flatten es) ->
  exists y, E F_testlist_star_expr l (q, Some u) y /\ forall s f t a b v w, tree_of (AtomTuple s f t (Some (YieldExpr a b v y)) w) = Some (Yielding es).
Proof.
  intros es q u KU N IS H l F. rewrite forallb_forall in IS. assert (SC : stops [PyComa] (q, Some u)) by (exists u; split; [reflexivity|]; rewrite KU; intros [J|[]]; discriminate J).
  assert (D : Forall (derives [F_star_expr; F_test] display PyRightParen) es).
  { rewrite Forall_forall in *. intros e J. destruct (H e J) as ((P & _) & K). apply value_derives; auto. }
  destruct es as [|e [|e2 es]]; [congruence| |].
  - inversion D as [|? ? D1 _]; subst. cbn in F. rewrite app_nil_r in F. destruct (D1 l (q, Some u) F) as (f & y & I & EY & DY); [exists u; cbn; auto|].
    exists y. split; [eapply E_star_list_one; eauto|]. intros s f1 t a b v w.
    assert (Z : tree_of (AtomTuple s f1 t (Some (YieldExpr a b v y)) w) = option_map (fun e => Yielding [e]) (display y)).
    { assert (NY : ~ exists p1 p2 p3 p4, y = TestListStarExpr p1 p2 p3 p4) by (intros (p1 & p2 & p3 & p4 & ->); discriminate DY). destruct y; try reflexivity. elim NY. eauto. }
    rewrite Z, DY. reflexivity.
  - destruct (elements_from _ display (e :: e2 :: es) q u PyRightParen D N KU l F) as (xs & ts & I & EL).
    eexists. split; [eapply E_star_list; [exact I| |exact SC]|].
    + intros ->. inversion I as [? ? ? ? x ? ? ? ? ? ? R]; subst. inversion R; subst. unfold elements in EL. cbn in EL. destruct (display x); discriminate EL.
    + intros. rewrite tree_of_yield, EL. reflexivity.
Qed.

Lemma proper_known : forall e, proper e -> known e.
Proof.
  apply (ast_induction (fun e => proper e -> known e)).
  - (* Word *) intros k p (I & N). apply from_atom; [cbn; lia|]. intros l la F D. cbn [flatten] in F. apply faces_cons in F as (q & t & l2 & -> & FT & F). apply faces_nil in F as ->.
    assert (KT : tk_kind t = k) by (eapply face_kind; eauto).
    assert (X : forall c : nat -> nat -> token -> node, In (k, c) constants -> tree_of (c q (fst la) t) = Some (Word k (snd (face t))) ->
      exists x, E F_atom [(q, t)] la x /\ tree_of x = Some (Word k p)).
    { intros c IC TC. exists (c q (fst la) t). split; [apply E_constant; rewrite KT; exact IC|]. rewrite TC, FT. reflexivity. }
    apply is_kind in KT.
    cbn [In] in I. repeat (destruct I as [<-|I]; [eapply X; [cbn; intuition reflexivity|cbn [tree_of]; rewrite KT; reflexivity]|]). destruct I.
  - (* Strings *) intros p ps _. apply from_atom; [cbn; lia|]. intros l la F D. cbn [flatten map] in F. apply faces_cons in F as (q & t & l2 & -> & FT & F).
    assert (KT : tk_kind t = T_AtomString) by (eapply face_kind; eauto).
    assert (X : Forall (fun x => tk_kind (snd x) = T_AtomString) l2 /\ map tk_payload (map snd l2) = ps).
    { clear - F. revert ps F. induction l2 as [|(q, u) l2 IH]; intros [|p ps] F; try discriminate F; [split; [constructor|reflexivity]|].
      cbn in F. injection F as K P F. destruct (IH ps F) as (A & B). split; [constructor; assumption|]. cbn. rewrite K in P. cbn in P. congruence. }
    destruct X as (X1 & X2). exists (AtomString q (fst la) (t :: map snd l2)). split; [apply E_strings; assumption|]. cbn [tree_of]. rewrite X2.
    unfold face in FT. rewrite KT in FT. cbn in FT. congruence.
  - (* Group *) intros e IH (S & P). specialize (IH P). apply from_atom; [cbn; lia|]. intros l la F D. cbn [flatten] in F. enclosed F.
    destruct (comp_from [e] q u PyRightParen) with (l := l1) as (xs & ts & a & b & C & EL); auto; try discriminate.
    { cbn [forallb]. destruct e; try reflexivity; discriminate S. }
    { constructor; [split; [split; [exact P|lia]|exact IH]|constructor]. }
    { cbn. rewrite app_nil_r. assumption. }
    eexists. split; [eapply (E_tuple F_testlist_comp); eauto; right; left; reflexivity|]. rewrite tree_of_tuple, EL. destruct e; try reflexivity. discriminate S.
  - (* Tuple *) intros es IH (N & ID & P). rewrite all_operands in P. apply from_atom; [cbn; lia|]. intros l la F D. cbn [flatten] in F. enclosed F.
    destruct es as [|e es].
    { cbn in F1. apply faces_nil in F1 as ->. eexists. split; [eapply E_tuple_empty; assumption|]. reflexivity. }
    destruct (comp_from (e :: es) q u PyRightParen) with (l := l1) as (xs & ts & a & b & C & EL); auto; try discriminate.
    { apply forall_known; assumption. }
    eexists. split; [eapply (E_tuple F_testlist_comp); eauto; right; left; reflexivity|]. rewrite tree_of_tuple, EL.
    destruct es; [cbn in N; lia|destruct e; reflexivity].
  - (* ListOf *) intros es IH (ID & P). rewrite all_operands in P. apply from_atom; [cbn; lia|]. intros l la F D. cbn [flatten] in F. enclosed F.
    destruct es as [|e es].
    { cbn in F1. apply faces_nil in F1 as ->. eexists. split; [eapply E_list_empty; assumption|]. reflexivity. }
    destruct (comp_from (e :: es) q u PyRightBracket) with (l := l1) as (xs & ts & a & b & C & EL); auto; try discriminate.
    { apply forall_known; assumption. }
    eexists. split; [eapply E_list; eauto|]. rewrite tree_of_list, EL. reflexivity.
  - (* Attribute *) intros e n IH (P & L). specialize (IH P). apply known_level in IH; [|lia]. apply from_primary; [cbn; lia|]. intros l la F D. cbn [flatten] in F.
    apply faces_app in F as (l1 & l2 & -> & F1 & F). apply faces_cons in F as (p & t & l3 & -> & K & F). apply face_kind in K.
    apply faces_cons in F as (q & u & l4 & -> & K2 & F). apply faces_nil in F as ->.
    assert (KT : tk_kind u = T_AtomName) by (eapply face_kind; eauto).
    eapply (primary_snoc _ _ e); [apply primary_of; auto; congruence|eapply E_dot; assumption|]. cbn. unfold face in K2. rewrite KT in K2. cbn in K2. congruence.
  - (* Call *) intros e es IH IHS ((P & L) & PS). rewrite all_operands in PS. specialize (IH P). apply known_level in IH; [|lia]. apply from_primary; [cbn; lia|]. intros l la F D.
    cbn [flatten] in F. trailed F. destruct es as [|d ds].
    { cbn in F1. apply faces_nil in F1 as ->. eapply (primary_snoc _ _ e); [apply primary_of; auto; congruence|eapply (E_call _ _ []); [assumption..|constructor]|]. reflexivity. }
    destruct (arguments_from (d :: ds) q u PyRightParen) with (l := l1) as (y & EY & AY); auto; try discriminate.
    { apply forall_known; assumption. }
    eapply (primary_snoc _ _ e); [apply primary_of; auto; congruence|eapply E_call; [assumption..|apply opt_some; exact EY]|]. cbn [trailer]. rewrite AY. reflexivity.
  - (* Index *) intros e es IH IHS ((P & L) & N & PS). rewrite all_operands in PS. specialize (IH P). apply known_level in IH; [|lia]. apply from_primary; [cbn; lia|]. intros l la F D.
    cbn [flatten] in F. trailed F.
    destruct (arguments_from es q u PyRightBracket) with (l := l1) as (y & EY & AY); auto; try discriminate.
    { apply forall_known; assumption. }
    eapply (primary_snoc _ _ e); [apply primary_of; auto; congruence|eapply E_index; [assumption..|exact EY]|]. cbn [trailer]. rewrite AY. reflexivity.
  - (* Await *) intros e IH (P & L). specialize (IH P). apply known_level in IH; [|lia]. apply (from_plain _ 14); [reflexivity|lia|unfold chained; cbn; lia|]. intros l la F Q. cbn [flatten] in F. prefixed F.
    destruct (proj1 IH L _ la F1) as (m1 & a & m2 & xs & e0 & -> & A & M & T & FO).
    { eapply quiet_differs; [exact (quiet_up 14 15 la Q ltac:(lia))|reflexivity]. }
    eexists. split; [eapply E_atom_expr_await; eauto; eapply quiet_differs; [exact Q|reflexivity]|]. rewrite tree_of_atom_expr, T, FO. reflexivity.
  - (* Power *) intros a b IHa IHb ((PA & LA) & (PB & LB)). specialize (IHa PA). apply known_level in IHa; [|lia]. specialize (IHb PB). apply known_level in IHb; [|lia].
    apply (from_plain _ 13); [reflexivity|lia|unfold chained; cbn; lia|]. intros l la F Q. cbn [flatten] in F. infixed F.
    destruct (proj1 (proj2 IHa) 14 l1 (p, Some t) LA ltac:(lia) F1) as (x & DX & TX); [eapply mark_quiet; [exact K|late]|].
    destruct (proj1 (proj2 IHb) 12 l2 la LB ltac:(lia) F2) as (y & DY & TY); [apply quiet_down; [exact Q|reflexivity]|].
    eexists. split; [eapply E_power; eauto|]. cbn [tree_of]. rewrite TX, TY. reflexivity.
  - (* Unary *) intros k e IH (KU & P & L). specialize (IH P). apply known_level in IH; [|lia].
    apply (from_plain _ 12); [reflexivity|lia|unfold chained; cbn; lia|]. intros l la F Q. cbn [flatten] in F. prefixed F.
    destruct (proj1 (proj2 IH) 12 l1 la L ltac:(lia) F1 Q) as (x & DX & TX). pose proof (is_kind _ _ K) as IK.
    unfold is_unary in KU. cbn [In] in KU.
    repeat (destruct KU as [<-|KU]; [eexists; split; [eapply E_unary; [rewrite K; cbn; intuition reflexivity|exact DX]|cbn [tree_of]; rewrite IK, TX; reflexivity]|]).
    destruct KU.
  - (* Infix *) intros k a b IHa IHb P. cbn [proper] in P. destruct (infix_level k) as [n|] eqn:N; [|destruct P]. destruct P as ((PA & LA) & (PB & LB)).
    assert (N1 : 1 <= n) by (destruct k; try discriminate N; injection N as <-; lia).
    specialize (IHa PA). apply known_level in IHa; [|lia]. specialize (IHb PB). apply known_level in IHb; [|lia]. destruct (tree_of_infix k n N) as (C & ops & c & B & I & TC).
    apply (from_chain _ n); [cbn; rewrite N; reflexivity|exact C|]. intros l la F Q. cbn [flatten] in F. infixed F.
    destruct (proj2 (proj2 IHa) n l1 (p, Some t) C LA F1) as (x & DX & TX); [apply infix_quiet; rewrite K; exact N|].
    destruct (proj1 (proj2 IHb) (S n) l2 la LB (chained_small n C) F2 Q) as (y & DY & TY).
    eexists. split; [eapply chain_operator; [exact B|rewrite K; exact I|exact DX|exact DY]|]. rewrite TC by exact K. rewrite TX, TY. reflexivity.
  - (* NotIn *) intros a b IHa IHb ((PA & LA) & (PB & LB)). specialize (IHa PA). apply known_level in IHa; [|lia]. specialize (IHb PB). apply known_level in IHb; [|lia].
    assert (C : chained 5) by (cbn; tauto). apply (from_chain _ 5); [reflexivity|exact C|]. intros l la F Q. cbn [flatten] in F. infixed F.
    apply faces_cons in F2 as (q & u & l3 & -> & K2 & F2). apply face_kind in K2.
    destruct (proj2 (proj2 IHa) 5 l1 (p, Some t) C LA F1) as (x & DX & TX); [eapply mark_quiet; [exact K|late]|].
    destruct (proj1 (proj2 IHb) 6 l3 la LB ltac:(lia) F2 Q) as (y & DY & TY).
    eexists. split; [eapply chain_not_in; eauto|]. cbn [tree_of]. rewrite TX, TY. reflexivity.
  - (* IsNot *) intros a b IHa IHb ((PA & LA) & (PB & LB)). specialize (IHa PA). apply known_level in IHa; [|lia]. specialize (IHb PB). apply known_level in IHb; [|lia].
    assert (C : chained 5) by (cbn; tauto). apply (from_chain _ 5); [reflexivity|exact C|]. intros l la F Q. cbn [flatten] in F. infixed F.
    apply faces_cons in F2 as (q & u & l3 & -> & K2 & F2). apply face_kind in K2.
    destruct (proj2 (proj2 IHa) 5 l1 (p, Some t) C LA F1) as (x & DX & TX); [eapply mark_quiet; [exact K|late]|].
    destruct (proj1 (proj2 IHb) 6 l3 la LB ltac:(lia) F2 Q) as (y & DY & TY).
    eexists. split; [eapply chain_is_not; eauto|]. cbn [tree_of]. rewrite TX, TY. reflexivity.
  - (* Not *) intros e IH (P & L). specialize (IH P). apply known_level in IH; [|lia].
    apply (from_plain _ 4); [reflexivity|lia|unfold chained; cbn; lia|]. intros l la F Q. cbn [flatten] in F. prefixed F.
    destruct (proj1 (proj2 IH) 4 l1 la L ltac:(lia) F1 Q) as (x & DX & TX).
    eexists. split; [eapply E_not; eauto|]. cbn [tree_of]. rewrite TX. reflexivity.
  - (* If *) intros a c b IHa IHc IHb ((PA & LA) & (PC & LC) & (PB & LB)). specialize (IHa PA). apply known_level in IHa; [|lia]. specialize (IHb PB). apply known_level in IHb; [|lia]. specialize (IHc PC). apply known_level in IHc; [|lia].
    apply (from_plain _ 1); [reflexivity|lia|unfold chained; cbn; lia|]. intros l la F Q. cbn [flatten] in F. infixed F.
    apply faces_app in F2 as (l3 & l4 & -> & F3 & F2). apply faces_cons in F2 as (q & u & l5 & -> & K2 & F2). apply face_kind in K2.
    destruct (proj1 (proj2 IHa) 2 l1 (p, Some t) LA ltac:(lia) F1) as (x & DX & TX); [eapply mark_quiet; [exact K|late]|].
    destruct (proj1 (proj2 IHc) 2 l3 (q, Some u) LC ltac:(lia) F3) as (y & DY & TY); [apply ends_quiet; rewrite K2; reflexivity|].
    destruct (proj1 (proj2 IHb) 1 l5 la LB ltac:(lia) F2 Q) as (z & DZ & TZ).
    eexists. split; [eapply E_test_if; eauto|]. cbn [tree_of]. rewrite TX, TY, TZ. reflexivity.
  - (* Named *) intros a b IHa IHb ((PA & LA) & (PB & LB)). specialize (IHa PA). apply known_level in IHa; [|lia]. specialize (IHb PB). apply known_level in IHb; [|lia].
    apply (from_plain _ 0); [reflexivity|lia|unfold chained; cbn; lia|]. intros l la F Q. cbn [flatten] in F. infixed F.
    destruct (proj1 (proj2 IHa) 1 l1 (p, Some t) LA ltac:(lia) F1) as (x & DX & TX); [eapply mark_quiet; [exact K|late]|].
    destruct (proj1 (proj2 IHb) 1 l2 la LB ltac:(lia) F2) as (y & DY & TY); [eapply quiet_up; eauto|].
    eexists. split; [eapply E_named; eauto|]. cbn [tree_of]. rewrite TX, TY. reflexivity.
  - (* SetOf *) intros c es IH (N & IS & P). rewrite all_operands in P. apply from_atom; [cbn; lia|]. intros l la F D. cbn [flatten] in F. enclosed F.
    destruct (members_from c es q u K2 N IS) with (l := l1) as (xs & ts & a & b & C & EL); auto; [apply forall_known; assumption|].
    eexists. split; [eapply E_set; eauto|]. rewrite tree_of_set, EL. cbn [option_map fst snd]. rewrite rev_involutive. reflexivity.
  - (* DictOf *) intros c es IH (N & IS & P). rewrite all_operands in P. apply from_atom; [cbn; lia|]. intros l la F D. cbn [flatten] in F. enclosed F.
    destruct (entries_from c es q u K2 N IS) with (l := l1) as (xs & ts & a & b & C & EL); auto; [apply forall_known; assumption|].
    eexists. split; [eapply E_dictionary; eauto|]. rewrite tree_of_dictionary, EL. cbn [option_map fst snd]. rewrite rev_involutive. reflexivity.
  - (* Func *) intros ps b IHS IH (IL & PS & (P & L)). rewrite all_operands in PS. specialize (IH P). apply known_level in IH; [|lia].
    assert (FN : forall k cond l la, k = (if cond : bool then 1 else 2) -> k <= level b -> faces l = flatten (Func ps b) -> quiet k la ->
      exists p t l' x, l = (p, t) :: l' /\ tk_kind t = PyLambda /\ E (F_lambda_def cond) l la x /\ tree_of x = Some (Func ps b)).
    { intros k cond l la KC LK F Q. cbn [flatten] in F. prefixed F.
      apply faces_app in F1 as (m1 & m2 & -> & F1 & F2). apply faces_cons in F2 as (q & u & m3 & -> & K2 & F2). apply face_kind in K2.
      destruct (proj1 (proj2 IH) k m3 la LK ltac:(destruct cond; lia) F2 Q) as (x & DX & TX).
      assert (DX' : E (if cond then F_test else F_or_test) m3 la x) by (destruct cond; subst k; exact DX). destruct ps as [|d ds].
      + cbn in F1. apply faces_nil in F1 as ->. eexists p, t, _, _. split; [reflexivity|]. split; [exact K|].
        split; [apply (E_lambda cond p t [] None q u m3 x la); [constructor|exact K2|exact DX']|]. cbn [tree_of]. rewrite TX. reflexivity.
      + destruct (parameters_from (d :: ds) q u K2) with (l := m1) as (xs & ts & a & c & C & EL); auto; [discriminate|apply forall_known; assumption|].
        eexists p, t, _, _. split; [reflexivity|]. split; [exact K|]. split; [eapply (E_lambda cond p t m1); [apply opt_some; exact C|exact K2|exact DX']|].
        rewrite tree_of_lambda, EL, TX. reflexivity. }
    split.
    + apply (from_plain _ 1); [reflexivity|lia|unfold chained; cbn; lia|]. intros l la F Q.
      destruct (FN 1 true l la eq_refl L F Q) as (p & t & l' & x & -> & K & D & T). exists x. split; [apply E_test_lambda; assumption|exact T].
    + intros L2 l la F Q. destruct (FN 2 false l la eq_refl L2 F Q) as (p & t & l' & x & -> & K & D & T). exists x. split; [apply E_nocond_lambda; assumption|exact T].
  - (* Starred *) intros e IH (P & L). apply known_level; [exact (IH P)|lia].
  - (* Spread *) intros e IH (P & L). apply known_level; [exact (IH P)|lia].
  - (* Pair *) intros a b IHa IHb ((PA & LA) & (PB & LB)). split; apply known_level; auto.
  - (* Default *) intros n e IH (P & L). apply known_level; [exact (IH P)|lia].
  - (* Comp *) intros sq e cs IH IHS ((S & P) & RO & IC & PS). rewrite all_operands in PS. specialize (IH P). pose proof (forall_known _ _ PS IHS) as HS.
    apply from_atom; [cbn; lia|]. intros l la F D. cbn [flatten] in F. enclosed F.
    destruct (comprehension_from e cs q u) with (l := l1) as (a & b & y & x & C & TX & CY); auto; [destruct sq; cbn in K2; rewrite K2; cbn; auto|].
    destruct sq; cbn in K, K2.
    + eexists. split; [eapply E_list; eauto|]. rewrite tree_of_list. cbn. rewrite TX, CY. reflexivity.
    + eexists. split; [eapply (E_tuple F_testlist_comp); eauto; right; left; reflexivity|]. rewrite tree_of_tuple. cbn. rewrite TX, CY. reflexivity.
  - (* Yielding *) intros es IHS (N & IS & PS). rewrite all_operands in PS. pose proof (forall_known _ _ PS IHS) as HS.
    apply from_atom; [cbn; lia|]. intros l la F D. cbn [flatten] in F. enclosed F. apply faces_cons in F1 as (p1 & v & l4 & -> & K3 & F1). apply face_kind in K3.
    destruct (values_from es q u K2 N IS HS l4 F1) as (y & EY & TY).
    eexists. split; [eapply (E_tuple F_yield_expr); [exact K|exact K2|left; reflexivity|apply E_yield; [exact K3|exact EY]]|apply TY].
  - (* YieldingFrom *) intros e IH (P & L). specialize (IH P). apply known_level in IH; [|lia].
    apply from_atom; [cbn; lia|]. intros l la F D. cbn [flatten] in F. enclosed F. apply faces_cons in F1 as (p1 & v & l4 & -> & K3 & F1). apply face_kind in K3.
    apply faces_cons in F1 as (p2 & w & l5 & -> & K4 & F1). apply face_kind in K4.
    destruct (proj1 (proj2 IH) 1 l5 (q, Some u) L ltac:(lia) F1) as (x & EX & TX); [apply ends_quiet; rewrite K2; reflexivity|].
    eexists. split; [eapply (E_tuple F_yield_expr); [exact K|exact K2|left; reflexivity|apply E_yield_from; [exact K3|exact K4|exact EX]]|].
    cbn [tree_of]. rewrite TX. reflexivity.
  - (* ForIn *) intros w ts c e IHS IH (N & ID & PS & CT & (P & L)). rewrite all_operands in PS. pose proof (forall_known _ _ PS IHS) as HS.
    split; [|apply known_level; [exact (IH P)|lia]]. intros l q u F KU. apply targets_from; assumption.
  - (* When *) intros e IH (P & NC). intros l la F Q. apply known_no_cond; auto.
Qed.
Lemma proper_derived : forall e, proper e -> 1 <= level e -> derived e.
Proof. intros e P L. apply known_level; [apply proper_known, P|exact L]. Qed.
