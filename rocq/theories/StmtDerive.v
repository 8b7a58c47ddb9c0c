(** Compound statements: the tokens of a well-formed tree derive a syntax tree that reads as that tree (C52). *)
From Coq Require Import List Arith Lia.
From Verif Require Import Chars SourceBuffer Token Tokenizer LexSpec TokenSpec RenderSpec Node ParserState GrammarSpec ParseBasics ExprSpec ExprProofs StmtSpec StmtProofs.
Import ListNotations.
Local Open Scope nat_scope.

(** ** Lines of simple statements *)
Lemma simple_derived : forall s l la, smalls_fit s -> faces l = smalls_tokens s ++ [mark T_Newline] ->
  exists x, E F_simple_stmt l la x /\ smalls_of x = Some s.
Proof.
  intros [s ss semi] l la FI F. unfold smalls_fit in FI. cbn [sm_first sm_more] in FI. unfold smalls_tokens in F. cbn [sm_first sm_more sm_semi] in F.
  rewrite <- app_assoc in F. apply faces_app in F as (l1 & l2 & -> & F1 & F2).
  assert (IT : forall p t, In (tk_kind t) [PySemiColon; T_Newline] ->
    exists ys ts, E_items [F_small_stmt] PySemiColon l1 (p, Some t) ys ts /\ opts small_of ys = Some (s :: ss) /\ S (length ts) = length ys).
  { intros p t K. rewrite Forall_forall in FI. apply (items_of _ small_tokens); [discriminate| | |exact F1].
    - intros a I l0 q u F KU. destruct (small_derived a l0 q u (FI a I) F) as (x & EX & SX); [rewrite KU; cbn; tauto|].
      exists F_small_stmt, x. cbn. auto.
    - intros pre a Z l0 q u F KU. destruct (small_derived a l0 q u) as (x & EX & SX); [apply FI; rewrite Z; apply in_elt|exact F|congruence|].
      exists F_small_stmt, x. cbn. auto. }
  destruct semi; cbn [if_true app] in F2; split_faces.
  - destruct (IT p t) as (ys & ts & I & O & L); [rewrite K; cbn; tauto|].
    eexists. split; [eapply E_simple_stmt_semi; eassumption|]. cbn [smalls_of]. rewrite rev_involutive, O.
    pose proof (opts_length _ _ _ _ O) as OL. cbn [length] in OL. rewrite rev_length, app_length. cbn [length].
    replace (length ts + 1 =? S (length ss)) with true by (symmetry; apply Nat.eqb_eq; lia). reflexivity.
  - destruct (IT p t) as (ys & ts & I & O & L); [rewrite K; cbn; tauto|].
    eexists. split; [eapply E_simple_stmt; eassumption|]. cbn [smalls_of]. rewrite rev_involutive, O.
    pose proof (opts_length _ _ _ _ O) as OL. cbn [length] in OL. rewrite rev_length.
    replace (length ts =? S (length ss)) with false by (symmetry; apply Nat.eqb_neq; lia).
    replace (length ts =? length ss) with true by (symmetry; apply Nat.eqb_eq; lia). reflexivity.
Qed.

(** ** First tokens *)
Definition clause_words : list kind := [PyElif; PyElse; PyExcept; PyFinally].
Definition opener (l : toks) : Prop := exists x r, l = x :: r /\ ~ In (fst x) clause_words.
Lemma opener_app : forall a b, opener a -> opener (a ++ b).
Proof. intros a b (x & r & -> & N). exists x, (r ++ b). auto. Qed.
Lemma opener_mark : forall k l, ~ In k clause_words -> opener (mark k :: l).
Proof. intros k l N. exists (mark k), l. auto. Qed.
Ltac not_clause := cbn; intuition discriminate.
Lemma expr_opener : forall e, proper e -> opener (flatten e).
Proof.
  apply (ast_induction (fun e => proper e -> opener (flatten e))); try (intros; cbn [flatten]; first [apply opener_mark; not_clause | apply opener_app; cbn [proper] in *; tauto]).
  - intros k p (I & _). exists (k, p), []. split; [reflexivity|]. cbn in I |- *. intuition (subst; discriminate).
  - intros p ps _. exists (T_AtomString, p), (map (pair T_AtomString) ps). split; [reflexivity|]. not_clause.
  - intros k e IH (K & _). cbn [flatten]. apply opener_mark. cbn in K |- *. intuition (subst; discriminate).
  - intros k a b IHa IHb P. cbn [flatten]. apply opener_app. cbn [proper] in P. destruct (infix_level k); [tauto|destruct P].
  - intros n e IH _. cbn [flatten]. exists (T_AtomName, n), (mark PyAssign :: flatten e). split; [reflexivity|]. not_clause.
  - intros q e cs IH IHS _. cbn [flatten]. apply opener_mark. destruct q; not_clause.
  - intros w ts c e IHS IH _. cbn [flatten]. destruct w; cbn [app]; apply opener_mark; not_clause.
Qed.
Lemma element_opener : forall k x, element_fits k x -> opener (element_tokens x).
Proof. intros k [st e] (P & _). unfold element_tokens. cbn [fst snd]. destruct st; [apply opener_mark; not_clause|apply expr_opener, P]. Qed.
Lemma listing_opener : forall k r, listing_fits k r -> opener (listing_tokens r).
Proof.
  intros k [[|x xs] c] (N & FI); [cbn in N; congruence|]. unfold listing_tokens. cbn [ls_items ls_comma map between]. rewrite <- app_assoc.
  apply opener_app. inversion FI; subst. eapply element_opener; eauto.
Qed.
Lemma small_opener : forall s, small_fits s -> opener (small_tokens s).
Proof.
  intros s FI. destruct s as [r|r v vs|k r v|r e v|r| | | |[r|]|[(e & [d|])|]|v|dots m names|n ns|n ns|e]; cbn [small_tokens small_fits] in *;
    try (apply opener_mark; not_clause); try (eapply listing_opener; eauto; fail).
  - apply opener_app. eapply listing_opener, FI.
  - apply opener_app. eapply listing_opener. exact (proj1 (proj2 FI)).
  - apply opener_app. eapply listing_opener, FI.
  - destruct v as [r|r|e]; [destruct FI|apply opener_mark; not_clause..].
Qed.
Lemma smalls_opener : forall s, smalls_fit s -> opener (smalls_tokens s).
Proof.
  intros [s ss c] FI. unfold smalls_fit in FI. cbn in FI. inversion FI; subst. unfold smalls_tokens, separated. cbn [sm_first sm_more map between].
  rewrite <- app_assoc. apply opener_app, small_opener. assumption.
Qed.
Lemma async_opener : forall b k l, ~ In k clause_words -> opener (if_true b PyAsync ++ mark k :: l).
Proof. intros b k l N. destruct b; apply opener_mark; [not_clause|exact N]. Qed.
Lemma stmt_opener : forall s, stmt_fits s -> opener (stmt_tokens s).
Proof.
  intros s FI. destruct s; cbn [stmt_tokens stmt_fits] in *.
  - apply opener_app, smalls_opener, FI.
  - apply opener_mark; not_clause.
  - apply opener_mark; not_clause.
  - apply opener_app, async_opener. not_clause.
  - apply opener_mark; not_clause.
  - apply opener_app, async_opener. not_clause.
  - apply opener_mark; not_clause.
  - apply opener_mark; not_clause.
Qed.
(** The look-ahead does not continue a statement. *)
Definition follows (la : look) : Prop := stops clause_words la.
Lemma opener_follows : forall x l la, opener x -> faces l = x -> follows (ahead l la).
Proof.
  intros x l la (y & r & -> & N) F. apply faces_cons in F as (p & t & l2 & -> & <- & _). exists t. split; [reflexivity|exact N].
Qed.
Lemma opener_follows_app : forall x y l la, opener x -> faces l = x ++ y -> follows (ahead l la).
Proof. intros x y l la O F. eapply opener_follows; [apply opener_app, O|exact F]. Qed.
Lemma follows_stops : forall la ks, follows la -> incl ks clause_words -> stops ks la.
Proof. intros la ks (t & E & N) I. exists t. split; [exact E|]. intros J. apply N, I, J. Qed.

(** ** The reader *)
Definition suite_of (y : node) : option suite :=
  match y with
  | SuiteStmt _ _ _ _ xs _ => match opts stmt_of xs with Some ss => option_map Block (block_of (rev ss)) | None => None end
  | FuncBodySuite _ _ _ None None _ xs _ => match opts stmt_of xs with Some ss => option_map Block (block_of (rev ss)) | None => None end
  | _ => option_map Inline (smalls_of y)
  end.
Definition clause_of (o : option node) : option clause :=
  match o with
  | None => Some Absent
  | Some (ElseStmt _ _ _ _ b) => option_map Present (suite_of b)
  | Some (FinallyStmt _ _ _ _ b) => option_map Present (suite_of b)
  | Some _ => None
  end.
Definition elif_of (y : node) : option (elifs -> elifs) :=
  match y with ElifStmt _ _ _ a _ b => map2 Elif (tree_of a) (suite_of b) | _ => None end.
Definition handler_of (y : node) : option (handlers -> handlers) :=
  match y with
  | ExceptStmt _ _ (ExceptClauseStmt _ _ _ m w) _ b =>
      map2 (Handler (match m with Some _ => true | None => false end)) (what_of w) (suite_of b)
  | _ => None
  end.
Definition with_of (async : bool) (p q : option token) (ts : list token) (is : list with_part) (b : suite) : option stmt :=
  match is with
  | i :: is =>
      match p, q with
      | None, None => if length ts =? length is then Some (WithStmt async None i is b) else None
      | Some _, Some _ =>
          if length ts =? length is then Some (WithStmt async (Some false) i is b)
          else if length ts =? S (length is) then Some (WithStmt async (Some true) i is b) else None
      | _, _ => None
      end
  | [] => None
  end.
Definition plain_of (x : node) (async : bool) : option stmt :=
  match x with
  | Node.ForStmt _ _ _ a _ r _ None b o =>
      bind2 (fun a r => map2 (ForStmt async a r) (suite_of b) (clause_of o)) (listing_of a) (listing_of r)
  | Node.WithStmt _ _ _ p xs ts q _ b => bind2 (with_of async p q ts) (opts part_of (rev xs)) (suite_of b)
  | _ => None
  end.
Definition compound_of (x : node) : option stmt :=
  match x with
  | Node.IfStmt _ _ _ a _ b xs o =>
      bind2 (fun e b => map2 (fun fs o => IfStmt e b (fold_left (fun es f => f es) fs NoElif) o) (opts elif_of xs) (clause_of o)) (tree_of a) (suite_of b)
  | Node.WhileStmt _ _ _ a _ b o => bind2 (fun e b => option_map (WhileStmt e b) (clause_of o)) (tree_of a) (suite_of b)
  | Node.ForStmt _ _ _ _ _ _ _ _ _ _ | Node.WithStmt _ _ _ _ _ _ _ _ _ => plain_of x false
  | AsyncStmt _ _ _ y => plain_of y true
  | Node.TryStmt _ _ _ _ a xs o f =>
      bind2 (fun b fs => map2 (TryStmt b (fold_left (fun hs f => f hs) fs NoHandler)) (clause_of o) (clause_of f))
        (suite_of a) (match xs with Some ys => opts handler_of ys | None => Some [] end)
  | Node.ClassDef _ _ _ t a o b _ y => map2 (ClassDef (tk_payload t)) (bases_of a o b) (suite_of y)
  | Node.FuncDef _ _ _ t (Some (ParameterList _ _ _ None _)) o _ None y =>
      map2 (FuncDef (tk_payload t)) (inside (fun r => tree_of (snd r)) o) (suite_of y)
  | _ => option_map Simple (smalls_of x)
  end.
Lemma stmt_of_compound : forall x, stmt_of x = compound_of x.
Proof. intros x. destruct x; reflexivity. Qed.
Lemma smalls_suite : forall x s, smalls_of x = Some s -> suite_of x = Some (Inline s) /\ stmt_of x = Some (Simple s).
Proof. intros x s H. destruct x; try discriminate H. rewrite stmt_of_compound. unfold suite_of, compound_of. rewrite H. auto. Qed.

(** ** Headers *)
Lemma if_head_derived : forall k e l, fits 1 e -> faces l = if_head k e ->
  exists p t l1 q u x, l = (p, t) :: l1 ++ [(q, u)] /\ tk_kind t = k /\ tk_kind u = PyColon /\ E F_test l1 (q, Some u) x /\ tree_of x = Some e.
Proof.
  intros k e l FI F. unfold if_head in F. split_faces.
  match goal with H : tk_kind ?u = PyColon |- context [?m ++ [(?q, ?u)]] => expression e 1 q u FI x EX TX; [apply ending_quiet; rewrite H; cbn; tauto|];
    exists p, t, m, q, u, x end. auto 6.
Qed.
Lemma word_head_derived : forall k l, faces l = word_head k -> exists p t q u, l = [(p, t); (q, u)] /\ tk_kind t = k /\ tk_kind u = PyColon.
Proof. intros k l F. unfold word_head in F. split_faces. do 4 eexists. split; [reflexivity|]. auto. Qed.
Lemma for_head_derived : forall a r l, listing_fits 0 a -> ends_target a -> listing_fits 1 r -> unstarred r -> ls_comma r = false ->
  faces l = for_head false a r ->
  exists p t l1 q u l2 w v x y, l = (p, t) :: l1 ++ (q, u) :: l2 ++ [(w, v)] /\ tk_kind t = PyFor /\ tk_kind u = PyIn /\ tk_kind v = PyColon /\
    E F_exprlist l1 (q, Some u) x /\ listing_of x = Some a /\ E F_testlist l2 (w, Some v) y /\ listing_of y = Some r.
Proof.
  intros a r l FA EA FR UR CR F. unfold for_head in F. cbn [if_true app] in F.
  apply faces_cons in F as (p & t & l0 & -> & K & F). apply faces_app in F as (l1 & l2 & -> & F1 & F2).
  apply faces_cons in F2 as (q & u & l3 & -> & K2 & F3). apply faces_app in F3 as (l4 & l5 & -> & F4 & F5).
  apply faces_cons in F5 as (w & v & l6 & -> & K5 & F6). apply faces_nil in F6. subst l6. apply face_kind in K, K2, K5.
  destruct (expr_listing a l1 q u FA F1) as (x & EX & LX).
  { auto. }
  { intros C. split; [|rewrite K2; discriminate]. right. split; [exact K2|]. destruct EA as [EA|EA]; [congruence|exact EA]. }
  destruct (test_listing r l4 w v FR UR F4) as (y & EY & LY); [rewrite K5; cbn; tauto|congruence|].
  exists p, t, l1, q, u, l4, w, v, x, y. auto 10.
Qed.
Lemma part_derives : forall j i, In j [PyComa; PyColon; PyRightParen] -> part_fits i -> derives _ part_tokens [F_with_item] part_of j i.
Proof.
  intros j [e o] J (FE & FO) l p t F KT. cbn [fst snd] in *. unfold part_tokens in F. cbn [fst snd] in F.
  assert (JE : In (tk_kind t) ending) by (rewrite KT; cbn in J |- *; tauto).
  apply faces_app in F as (l1 & l2 & -> & F1 & F2). destruct o as [d|]; cbn [on_some] in FO.
  - split_faces. match goal with H : tk_kind ?u = PyAs |- context [?m ++ (?q, ?u) :: _] =>
      expression e 1 q u FE x EX TX; [apply ending_quiet; rewrite H; cbn; tauto|] end.
    expression d 6 p t FO y EY TY; [apply ending_quiet, JE|].
    exists F_with_item. eexists. split; [left; reflexivity|]. split; [eapply E_with_item_as; eassumption|]. cbn. rewrite TX, TY. reflexivity.
  - apply faces_nil in F2. subst l2. rewrite app_nil_r. expression e 1 p t FE x EX TX; [apply ending_quiet, JE|].
    exists F_with_item. eexists. split; [left; reflexivity|]. split; [eapply E_with_item; [exact EX|]|].
    + exists t. split; [reflexivity|]. intros [Z|[]]. rewrite KT in Z. rewrite <- Z in J. cbn in J. intuition discriminate.
    + cbn. rewrite TX. reflexivity.
Qed.
Lemma parts_derived : forall i is l p t, Forall part_fits (i :: is) -> faces l = separated PyComa part_tokens i is -> In (tk_kind t) [PyComa; PyColon; PyRightParen] ->
  exists ys ts, E_items [F_with_item] PyComa l (p, Some t) ys ts /\ opts part_of ys = Some (i :: is) /\ length ts = length is.
Proof.
  intros i is l p t FI F J. rewrite Forall_forall in FI.
  destruct (items_of _ part_tokens [F_with_item] PyComa part_of (i :: is)) with (l := l) (p := p) (t := t) as (ys & ts & I & O & L).
  - discriminate.
  - intros a IA. apply part_derives; auto. cbn. tauto.
  - intros pre a Z. apply part_derives; [exact J|]. apply FI. rewrite Z. apply in_elt.
  - exact F.
  - exists ys, ts. split; [exact I|]. split; [exact O|]. apply opts_length in O. cbn in O. lia.
Qed.
Lemma with_head_derived : forall br i is l, Forall part_fits (i :: is) -> (br = None -> ~ begins (mark PyLeftParen) (separated PyComa part_tokens i is)) ->
  faces l = with_head false br i is ->
  exists p t l1 q u a xs ts b, l = (p, t) :: l1 ++ [(q, u)] /\ tk_kind t = PyWith /\ tk_kind u = PyColon /\ with_items l1 (q, Some u) a xs ts b /\
    opts part_of xs = Some (i :: is) /\ forall y c, with_of y a b (rev ts) (i :: is) c = Some (WithStmt y br i is c).
Proof.
  intros br i is l FI NB F. unfold with_head in F. cbn [if_true app] in F. apply faces_cons in F as (p & t & l0 & -> & K & F).
  apply faces_app in F as (l1 & l2 & -> & F1 & F2). apply faces_cons in F2 as (q & u & l3 & -> & K2 & F3). apply faces_nil in F3. subst l3.
  apply face_kind in K, K2. destruct br as [c|].
  - apply faces_cons in F1 as (p1 & t1 & l2 & -> & K1 & F). apply faces_app in F as (l3 & l4 & -> & F3 & F4). apply face_kind in K1.
    destruct c; cbn [if_true app] in F4.
    + split_faces. match goal with H : tk_kind ?v = PyComa |- context [l3 ++ [(?r, ?v); _]] =>
        destruct (parts_derived i is l3 r v FI F3) as (ys & ts & I & O & L); [rewrite H; cbn; tauto|] end.
      do 9 eexists. split; [reflexivity|]. split; [exact K|]. split; [exact K2|]. split; [eapply with_paren_comma; eassumption|]. split; [exact O|].
      intros y c. unfold with_of. rewrite rev_length, app_length. cbn [length].
      replace (length ts + 1 =? length is) with false by (symmetry; apply Nat.eqb_neq; lia).
      replace (length ts + 1 =? S (length is)) with true by (symmetry; apply Nat.eqb_eq; lia). reflexivity.
    + split_faces. match goal with H : tk_kind ?v = PyRightParen |- context [l3 ++ [(?r, ?v)]] =>
        destruct (parts_derived i is l3 r v FI F3) as (ys & ts & I & O & L); [rewrite H; cbn; tauto|] end.
      do 9 eexists. split; [reflexivity|]. split; [exact K|]. split; [exact K2|]. split; [eapply with_paren; eassumption|]. split; [exact O|].
      intros y c. unfold with_of. rewrite rev_length. apply Nat.eqb_eq in L. rewrite L. reflexivity.
  - destruct (parts_derived i is l1 q u FI F1) as (ys & ts & I & O & L); [rewrite K2; cbn; tauto|].
    do 9 eexists. split; [reflexivity|]. split; [exact K|]. split; [exact K2|]. split; [eapply with_plain; [exact I| |]|].
    + intros (p1 & t1 & l' & -> & K1). apply (NB eq_refl). exists (faces l'). rewrite <- F1. cbn. f_equal. unfold face. rewrite K1. reflexivity.
    + exists u. split; [reflexivity|]. rewrite K2. intros [Z|[]]. discriminate Z.
    + split; [exact O|]. intros y c. unfold with_of. rewrite rev_length. apply Nat.eqb_eq in L. rewrite L. reflexivity.
Qed.
Lemma base_derives : forall j b, In j [PyComa; PyRightParen] -> on_some (fits 1) (snd b) -> derives _ base_tokens [F_var_args_assignments] base_of j b.
Proof.
  intros j [n o] J FO l p t F KT. unfold base_tokens in F. cbn [fst snd] in *. assert (JE : In (tk_kind t) ending) by (rewrite KT; cbn in J |- *; tauto).
  destruct o as [e|]; cbn [on_some] in FO.
  - apply faces_cons in F as (p0 & t0 & l0 & -> & K0 & F). apply faces_cons in F as (p1 & t1 & l1 & -> & K1 & F). apply face_kind in K1. name_faces.
    expression e 1 p t FO x EX TX; [apply ending_quiet, JE|].
    exists F_var_args_assignments. eexists. split; [left; reflexivity|]. split.
    + apply (E_var_arg_default [(p0, t0)] (VFPDef p0 p1 t0) p1 t1 l1 x); [apply (E_vfp_def p0 t0 (p1, Some t1)); assumption|exact K1|exact EX].
    + cbn. rewrite TX. subst. reflexivity.
  - apply faces_cons in F as (p0 & t0 & l0 & -> & K0 & F). apply faces_nil in F. subst l0. name_faces.
    exists F_var_args_assignments. eexists. split; [left; reflexivity|]. split; [apply E_var_arg; [apply E_vfp_def; assumption|]|subst; reflexivity].
    exists t. split; [reflexivity|]. intros [Z|[]]. rewrite KT in Z. rewrite <- Z in J. cbn in J. intuition discriminate.
Qed.
Lemma class_head_derived : forall n bs l, on_some (Forall (fun x => on_some (fits 1) (snd x))) bs -> faces l = class_head n bs ->
  exists p t q u l1 a o b r v, l = (p, t) :: (q, u) :: l1 ++ [(r, v)] /\ tk_kind t = PyClass /\ tk_kind u = T_AtomName /\ tk_payload u = n /\
    bases l1 a o b /\ tk_kind v = PyColon /\ bases_of a o b = Some bs.
Proof.
  intros n bs l FI F. unfold class_head in F. apply faces_cons in F as (p & t & l0 & -> & K & F). apply faces_cons in F as (q & u & l1 & -> & KU & F).
  apply faces_app in F as (l2 & l3 & -> & F2 & F3). apply faces_cons in F3 as (r & v & l4 & -> & KV & F3). apply faces_nil in F3. subst l4.
  apply face_kind in K, KV. name_faces.
  assert (X : exists a o b, bases l2 a o b /\ bases_of a o b = Some bs).
  { destruct bs as [bs|]; [|apply faces_nil in F2; subst l2; do 3 eexists; split; [constructor|reflexivity]].
    apply faces_cons in F2 as (p1 & t1 & l5 & -> & K1 & F). apply faces_app in F as (l6 & l7 & -> & F6 & F7).
    apply faces_cons in F7 as (p2 & t2 & l8 & -> & K2 & F8). apply faces_nil in F8. subst l8. apply face_kind in K1, K2.
    destruct bs as [|b bs].
    - cbn in F6. apply faces_nil in F6. subst l6. do 3 eexists. split; [apply bases_some; [exact K1|exact K2|constructor]|reflexivity].
    - cbn [on_some] in FI. rewrite Forall_forall in FI.
      destruct (items_of _ base_tokens [F_var_args_assignments] PyComa base_of (b :: bs)) with (l := l6) (p := p2) (t := t2) as (ys & ts & I & O & L).
      + discriminate.
      + intros x IX. apply base_derives; auto. cbn. tauto.
      + intros pre x Z. apply base_derives; [rewrite K2; cbn; tauto|]. apply FI. rewrite Z. apply in_elt.
      + exact F6.
      + do 3 eexists. split; [apply bases_some; [exact K1|exact K2|apply opt_some, E_var_args; [exact I|]]|].
        * exists t2. split; [reflexivity|]. rewrite K2. intros [Z|[]]. discriminate Z.
        * cbn [bases_of]. rewrite (elements_rev _ _ _ _ _ O L). reflexivity. }
  destruct X as (a & o & b & BA & RB). exists p, t, q, u, l2, a, o, b, r, v. auto 10.
Qed.
Lemma def_head_derived : forall n r l, on_some (fits 1) r -> faces l = def_head n r ->
  exists p t q u p1 t1 p2 t2 l2 w z v, l = (p, t) :: (q, u) :: [(p1, t1); (p2, t2)] ++ l2 ++ [(z, v)] /\ tk_kind t = PyDef /\ tk_kind u = T_AtomName /\
    tk_payload u = n /\ tk_kind t1 = PyLeftParen /\ tk_kind t2 = PyRightParen /\ returns l2 (z, Some v) w /\ tk_kind v = PyColon /\
    inside (fun r => tree_of (snd r)) w = Some r.
Proof.
  intros n r l FI F. unfold def_head in F. apply faces_cons in F as (p & t & l0 & -> & K & F). apply faces_cons in F as (q & u & l1 & -> & KU & F).
  apply faces_cons in F as (p1 & t1 & l2 & -> & K1 & F). apply faces_cons in F as (p2 & t2 & l3 & -> & K2 & F).
  apply faces_app in F as (l4 & l5 & -> & F4 & F5). apply faces_cons in F5 as (z & v & l6 & -> & KV & F6). apply faces_nil in F6. subst l6.
  apply face_kind in K, K1, K2, KV. name_faces. destruct r as [e|]; cbn [on_some] in FI.
  - apply faces_cons in F4 as (p3 & t3 & l5 & -> & K3 & F5). apply face_kind in K3. expression e 1 z v FI x EX TX; [apply ending_quiet; rewrite KV; cbn; tauto|].
    exists p, t, q, u, p1, t1, p2, t2. do 4 eexists. split; [reflexivity|]. repeat (split; [assumption|]). split; [eapply returns_some; eassumption|].
    split; [assumption|]. cbn. rewrite TX. reflexivity.
  - apply faces_nil in F4. subst l4. exists p, t, q, u, p1, t1, p2, t2, []. do 3 eexists. split; [reflexivity|]. repeat (split; [assumption|]).
    split; [constructor|]. split; [assumption|reflexivity].
Qed.
(** The note of the parser. *)
Definition status (c : option bool) : except_status := match c with None => ExceptNone | Some true => ExceptMul | Some false => Except end.
Definition agrees (c : option bool) (g : bool) : bool := match c with Some d => eqb d g | None => true end.
Lemma except_head_derived : forall g w c l, what_fits w -> agrees c g = true -> faces l = except_head g w ->
  exists l1 q u x, l = l1 ++ [(q, u)] /\ tk_kind u = PyColon /\ B F_except_clause (status c) l1 (q, Some u) x (status (Some g)) /\
    exists a b t m o, x = ExceptClauseStmt a b t m o /\ (match m with Some _ => true | None => false end) = g /\ what_of o = Some w.
Proof.
  intros g w c l FI CO F. unfold except_head in F. apply faces_cons in F as (p & t & l0 & -> & K & F). apply faces_app in F as (l1 & l2 & -> & F1 & F2).
  apply faces_app in F2 as (l3 & l4 & -> & F3 & F4). apply faces_cons in F4 as (q & u & l5 & -> & KU & F5). apply faces_nil in F5. subst l5. apply face_kind in K, KU.
  assert (W : exists o, except_what l3 (q, Some u) o /\ what_of o = Some w).
  { destruct w as [|e|e n]; cbn [what_fits] in FI.
    - apply faces_nil in F3. subst l3. exists None. split; [constructor|reflexivity]. exists u. split; [reflexivity|]. rewrite KU. cbn. tauto.
    - expression e 1 q u FI x EX TX; [apply ending_quiet; rewrite KU; cbn; tauto|]. eexists. split; [apply except_test; [exact EX|]|cbn; rewrite TX; reflexivity].
      exists u. split; [reflexivity|]. rewrite KU. intros [Z|[]]. discriminate Z.
    - apply faces_app in F3 as (l5 & l6 & -> & F5 & F6). apply faces_cons in F6 as (p1 & t1 & l7 & -> & K1 & F6).
      apply faces_cons in F6 as (p2 & t2 & l8 & -> & K2 & F7). apply faces_nil in F7. subst l8. apply face_kind in K1. name_faces.
      expression e 1 p1 t1 FI x EX TX; [apply ending_quiet; rewrite K1; cbn; tauto|]. eexists. split; [eapply except_as; eassumption|].
      cbn. rewrite TX. subst. reflexivity. }
  destruct W as (o & WO & WR).
  assert (M : exists m, opt_token PyMul l1 m /\ is_some m = g).
  { destruct g; cbn [if_true] in F1.
    - apply faces_cons in F1 as (p1 & t1 & l5 & -> & K1 & F1). apply faces_nil in F1. subst l5. apply face_kind in K1. exists (Some t1). split; [constructor; exact K1|reflexivity].
    - apply faces_nil in F1. subst l1. exists None. split; [constructor|reflexivity]. }
  destruct M as (m & OM & IM). exists ((p, t) :: l1 ++ l3), q, u. eexists. split; [cbn; rewrite <- app_assoc; reflexivity|]. split; [exact KU|].
  split.
  - eapply B_except_clause; [exact K|exact OM| |exact WO]. rewrite IM. destruct c as [d|]; [apply eqb_prop in CO; subst d|]; destruct g; constructor.
  - do 5 eexists. split; [reflexivity|]. split; [destruct m; exact IM|exact WR].
Qed.

(** ** Statements *)
Definition D_stmt (s : stmt) : Prop := forall c c' l la, stmt_fits s -> stmt_note c s = Some c' -> faces l = stmt_tokens s -> follows la ->
  exists x, B F_stmt (status c) l la x (status c') /\ stmt_of x = Some s.
Definition D_suite (b : suite) : Prop := forall f c c' l la, In f [F_suite; F_func_body_suite] -> suite_fits b -> suite_note c b = Some c' -> faces l = suite_tokens b ->
  exists x, B f (status c) l la x (status c') /\ suite_of x = Some b.
Definition D_block (b : block) : Prop := forall c c' l la, block_fits b -> block_note c b = Some c' -> faces l = block_tokens b -> follows la ->
  exists xs ss, B_many F_stmt (status c) l la xs (status c') /\ opts stmt_of xs = Some ss /\ block_of ss = Some b.
Definition D_elifs (es : elifs) : Prop := forall c c' l la, elifs_fit es -> elifs_note c es = Some c' -> faces l = elifs_tokens es ->
  exists xs fs, B_many F_elif_stmt (status c) l la xs (status c') /\ opts elif_of xs = Some fs /\ fold_right (fun f es => f es) NoElif fs = es.
Definition D_handlers (hs : handlers) : Prop := forall c c' l la, handlers_fit hs -> handlers_note c hs = Some c' -> faces l = handlers_tokens hs ->
  exists xs fs, B_many F_except_stmt (status c) l la xs (status c') /\ opts handler_of xs = Some fs /\ fold_right (fun f hs => f hs) NoHandler fs = hs.
Definition D_clause (o : clause) : Prop := forall k f c c' l la, In (k, f) [(PyElse, F_else_stmt); (PyFinally, F_finally_stmt)] -> clause_fits o -> clause_note c o = Some c' ->
  faces l = clause_tokens k o ->
  exists x, B_opt f (status c) l la x (status c') /\ clause_of x = Some o /\ (x = None -> o = Absent).
Lemma compound : forall f c l la x c', In f [F_if_stmt; F_while_stmt; F_for_stmt; F_try_stmt; F_with_stmt; F_func_def; F_class_def; F_async_stmt] ->
  B f c l la x c' -> B F_stmt c l la x c'.
Proof. intros f c l la x c' I H. apply B_stmt_compound. apply (B_compound f); [cbn in I |- *; tauto|exact H]. Qed.
Lemma block_of_cons : forall s ss b, block_of ss = Some b -> block_of (s :: ss) = Some (Then s b).
Proof. intros s [|s1 ss] b H; [discriminate H|]. cbn [block_of] in *. rewrite H. reflexivity. Qed.
Lemma async_split : forall b k h l, faces l = if_true b PyAsync ++ mark k :: h ->
  exists l1 l2, l = l1 ++ l2 /\ faces l2 = mark k :: h /\ ((b = false /\ l1 = []) \/ (b = true /\ exists p t, l1 = [(p, t)] /\ tk_kind t = PyAsync)).
Proof.
  intros b k h l F. apply faces_app in F as (l1 & l2 & -> & F1 & F2). exists l1, l2. split; [reflexivity|]. split; [exact F2|]. destruct b; cbn [if_true] in F1.
  - right. split; [reflexivity|]. apply faces_cons in F1 as (p & t & l3 & -> & K & F1). apply faces_nil in F1. subst l3. apply face_kind in K. eauto.
  - left. apply faces_nil in F1. auto.
Qed.
Lemma clause_absent : forall x, clause_of (Some x) = Some Absent -> False.
Proof. intros x H. destruct x; try discriminate H; cbn [clause_of] in H; unfold option_map in H; destruct (suite_of _) in H; discriminate H. Qed.
Lemma andthen_inv : forall A B (o : option A) (f : A -> option B) c, andthen o f = Some c -> exists d, o = Some d /\ f d = Some c.
Proof. intros A B [d|] f c H; [exists d; auto|discriminate H]. Qed.
Lemma tokens_mutual : (forall s, D_stmt s) /\ (forall b, D_suite b) /\ (forall b, D_block b) /\ (forall es, D_elifs es) /\ (forall hs, D_handlers hs) /\ (forall o, D_clause o).
Proof.
  apply stmt_mutual.
  - (* Simple *)
    intros s c c' l la (FI & NM) CO F FO. cbn [stmt_tokens] in F. destruct (simple_derived s l la FI F) as (x & EX & SX).
    injection CO as <-. exists x. split; [apply B_stmt_simple; [exact EX|]|]. 2:{ apply smalls_suite, SX. }
    intros (p & t & l' & -> & K & TX). cbn [faces map snd] in F. unfold face in F. rewrite K in F. cbn [carries] in F.
    destruct (smalls_opener s FI) as (z & r & ES & _). rewrite ES in F. injection F as F1 F2.
    specialize (NM (tk_payload t)). unfold begins in NM. rewrite ES, <- F1 in NM. specialize (NM (ex_intro _ r eq_refl)).
    unfold Token.text_of in TX. destruct (tk_payload t); try discriminate TX; congruence.
  - (* If *)
    intros e b IB es IE o IO c c' l la (FE & FB & FES & FOO) CO F FO. cbn [stmt_tokens] in F.
    apply faces_app in F as (l1 & l2 & -> & F1 & F2). apply faces_app in F2 as (l3 & l4 & -> & F3 & F4). apply faces_app in F4 as (l5 & l6 & -> & F5 & F6).
    destruct (if_head_derived _ _ _ FE F1) as (p & t & l0 & q & u & a & -> & KT & KU & EA & TA).
    cbn [stmt_note] in CO. apply andthen_inv in CO as (c1 & CB & CO). apply andthen_inv in CO as (c2 & CE & CO).
    destruct (IB F_suite c c1 l3 (ahead (l5 ++ l6) la)) as (y & BY & SY); auto; [cbn; tauto|].
    destruct (IE c1 c2 l5 (ahead l6 la)) as (xs & fs & BX & OX & RX); auto.
    destruct (IO PyElse F_else_stmt c2 c' l6 la) as (z & BZ & CZ & NZ); auto; [cbn; tauto|].
    eexists. split.
    + apply (compound F_if_stmt); [cbn; tauto|]. cbn [app]. rewrite <- app_assoc. cbn [app]. eapply B_if; eauto.
      intros _. apply (follows_stops _ _ FO). intros k I. cbn in I |- *. tauto.
    + rewrite stmt_of_compound. cbn [compound_of]. rewrite TA, SY, (opts_rev _ _ _ _ OX), CZ. cbn [bind2 map2]. do 2 f_equal.
      rewrite <- fold_left_rev_right, rev_involutive. rewrite RX. reflexivity.
  - (* While *)
    intros e b IB o IO c c' l la (FE & FB & FOO) CO F FO. cbn [stmt_tokens] in F.
    apply faces_app in F as (l1 & l2 & -> & F1 & F2). apply faces_app in F2 as (l3 & l6 & -> & F3 & F6).
    destruct (if_head_derived _ _ _ FE F1) as (p & t & l0 & q & u & a & -> & KT & KU & EA & TA).
    cbn [stmt_note] in CO. apply andthen_inv in CO as (c1 & CB & CO).
    destruct (IB F_suite c c1 l3 (ahead l6 la)) as (y & BY & SY); auto; [cbn; tauto|].
    destruct (IO PyElse F_else_stmt c1 c' l6 la) as (z & BZ & CZ & NZ); auto; [cbn; tauto|].
    eexists. split.
    + apply (compound F_while_stmt); [cbn; tauto|]. cbn [app]. rewrite <- app_assoc. cbn [app]. eapply B_while; eauto.
      intros _. apply (follows_stops _ _ FO). intros k I. cbn in I |- *. tauto.
    + rewrite stmt_of_compound. cbn [compound_of]. rewrite TA, SY, CZ. reflexivity.
  - (* For *)
    intros y a r b IB o IO c c' l la ((FA & EA) & (FR & UR & CR) & FB & FOO) CO F FO. cbn [stmt_tokens] in F.
    apply faces_app in F as (l1 & l2 & -> & F1 & F2). apply faces_app in F2 as (l3 & l6 & -> & F3 & F6).
    unfold for_head in F1. apply async_split in F1 as (la1 & l4 & -> & F4 & AS).
    destruct (for_head_derived a r l4 FA EA FR UR CR F4) as (p & t & m1 & q & u & m2 & w & v & x1 & x2 & -> & KT & KU & KV & E1 & L1 & E2 & L2).
    cbn [stmt_note] in CO. apply andthen_inv in CO as (c1 & CB & CO).
    destruct (IB F_suite c c1 l3 (ahead l6 la)) as (x3 & BY & SY); auto; [cbn; tauto|].
    destruct (IO PyElse F_else_stmt c1 c' l6 la) as (z & BZ & CZ & NZ); auto; [cbn; tauto|].
    assert (X : exists x, B F_for_stmt (status c) (((p, t) :: m1 ++ (q, u) :: m2 ++ [(w, v)]) ++ l3 ++ l6) la x (status c') /\
      compound_of x = plain_of x false /\ forall b', plain_of x b' = Some (ForStmt b' a r b o)).
    { eexists. split.
      - replace (_ ++ l3 ++ l6) with ((p, t) :: m1 ++ (q, u) :: m2 ++ (w, v) :: [] ++ l3 ++ l6).
        2:{ cbn [app]. rewrite <- app_assoc. cbn [app]. rewrite <- app_assoc. reflexivity. }
        eapply B_for; eauto; [constructor|]. intros _. apply (follows_stops _ _ FO). intros k I. cbn in I |- *. tauto.
      - split; [reflexivity|]. intros b'. cbn [plain_of]. rewrite L1, L2, SY, CZ. reflexivity. }
    destruct X as (x & BX & R1 & R2). destruct AS as [(-> & ->)|(-> & pa & ta & -> & KA)].
    + exists x. split; [apply (compound F_for_stmt); [cbn; tauto|exact BX]|]. rewrite stmt_of_compound, R1. apply R2.
    + eexists. split; [apply (compound F_async_stmt); [cbn; tauto|]; cbn [app] in BX |- *; eapply (B_async F_for_stmt); [exact KA|cbn; tauto|exact BX]|].
      rewrite stmt_of_compound. cbn [compound_of]. apply R2.
  - (* Try *)
    intros b IB hs IH o IO f IF c c' l la (FB & FH & FOO & FF & NH) CO F FO. cbn [stmt_tokens] in F.
    apply faces_app in F as (l1 & l2 & -> & F1 & F2). apply faces_app in F2 as (l3 & l4 & -> & F3 & F4). apply faces_app in F4 as (l5 & l6 & -> & F5 & F6).
    apply faces_app in F6 as (l7 & l8 & -> & F7 & F8).
    destruct (word_head_derived _ _ F1) as (p & t & q & u & -> & KT & KU).
    cbn [stmt_note] in CO. apply andthen_inv in CO as (c1 & CB & CO). apply andthen_inv in CO as (c2 & CH & CO). apply andthen_inv in CO as (c3 & CE & CO).
    destruct (IB F_suite None c1 l3 (ahead (l5 ++ l7 ++ l8) la)) as (y & BY & SY); auto; [cbn; tauto|].
    destruct (IH c1 c2 l5 (ahead (l7 ++ l8) la)) as (xs & fs & BX & OX & RX); auto.
    destruct (IO PyElse F_else_stmt c2 c3 l7 (ahead l8 la)) as (z & BZ & CZ & NZ); auto; [cbn; tauto|].
    destruct (IF PyFinally F_finally_stmt c3 c' l8 la) as (w & BW & CW & NW); auto; [cbn; tauto|].
    destruct xs as [|x1 xs].
    + injection OX as <-. cbn in RX. destruct (NH (eq_sym RX)) as (OA & FA). subst o. cbn [clause_tokens] in F7. apply faces_nil in F7. subst l7.
      rewrite <- RX in F5. apply faces_nil in F5. subst l5. destruct w as [w|]; [|exfalso; auto]. destruct z as [z|]; [destruct (clause_absent _ CZ)|].
      rewrite <- RX in CH. injection CH as <-. injection CE as <-. inversion BW; subst.
      eexists. split.
      * apply (compound F_try_stmt); [cbn; tauto|]. cbn [app] in *. eapply B_try_finally; eauto.
      * rewrite stmt_of_compound. cbn [compound_of]. rewrite SY, CW. reflexivity.
    + eexists. split.
      * apply (compound F_try_stmt); [cbn; tauto|]. cbn [app]. eapply B_try; eauto; [discriminate|].
        intros ->. apply (follows_stops _ _ FO). intros k I. destruct z; cbn in I |- *; tauto.
      * rewrite stmt_of_compound. cbn [compound_of]. rewrite SY, (opts_rev _ _ _ _ OX), CZ, CW. cbn [bind2 map2]. do 2 f_equal.
        rewrite <- fold_left_rev_right, rev_involutive. exact RX.
  - (* With *)
    intros y br i is b IB c c' l la (FI & NB & FB) CO F FO. cbn [stmt_tokens] in F. apply faces_app in F as (l1 & l2 & -> & F1 & F2).
    unfold with_head in F1. apply async_split in F1 as (la1 & l4 & -> & F4 & AS).
    destruct (with_head_derived br i is l4 FI NB F4) as (p & t & m1 & q & u & a & xs & ts & z & -> & KT & KU & WI & OX & RX).
    destruct (IB F_suite c c' l2 la) as (x3 & BY & SY); auto; [cbn; tauto|].
    assert (X : exists x, B F_with_stmt (status c) (((p, t) :: m1 ++ [(q, u)]) ++ l2) la x (status c') /\
      compound_of x = plain_of x false /\ forall b', plain_of x b' = Some (WithStmt b' br i is b)).
    { eexists. split.
      - cbn [app]. rewrite <- app_assoc. cbn [app]. eapply B_with; eauto.
      - split; [reflexivity|]. intros b'. cbn [plain_of]. rewrite rev_involutive, OX, SY. cbn [bind2]. apply RX. }
    destruct X as (x & BX & R1 & R2). destruct AS as [(-> & ->)|(-> & pa & ta & -> & KA)].
    + exists x. split; [apply (compound F_with_stmt); [cbn; tauto|exact BX]|]. rewrite stmt_of_compound, R1. apply R2.
    + eexists. split; [apply (compound F_async_stmt); [cbn; tauto|]; cbn [app] in BX |- *; eapply (B_async F_with_stmt); [exact KA|cbn; tauto|exact BX]|].
      rewrite stmt_of_compound. cbn [compound_of]. apply R2.
  - (* Class *)
    intros n bs b IB c c' l la (FI & FB) CO F FO. cbn [stmt_tokens] in F. apply faces_app in F as (l1 & l2 & -> & F1 & F2).
    destruct (class_head_derived n bs l1 FI F1) as (p & t & q & u & m1 & a & o & z & r & v & -> & KT & KU & PU & BA & KV & RB).
    destruct (IB F_suite c c' l2 la) as (x3 & BY & SY); auto; [cbn; tauto|].
    eexists. split; [apply (compound F_class_def); [cbn; tauto|]; cbn [app]; rewrite <- app_assoc; cbn [app]; eapply B_class; eauto|].
    rewrite stmt_of_compound. cbn [compound_of]. rewrite RB, SY, PU. reflexivity.
  - (* Def *)
    intros n r b IB c c' l la (FI & FB) CO F FO. cbn [stmt_tokens] in F. apply faces_app in F as (l1 & l2 & -> & F1 & F2).
    destruct (def_head_derived n r l1 FI F1) as (p & t & q & u & p1 & t1 & p2 & t2 & m1 & w & z & v & -> & KT & KU & PU & K1 & K2 & RE & KV & RW).
    destruct (IB F_func_body_suite c c' l2 la) as (x3 & BY & SY); auto; [cbn; tauto|].
    eexists. split; [apply (compound F_func_def); [cbn; tauto|]|].
    + replace (_ ++ l2) with ((p, t) :: (q, u) :: [(p1, t1); (p2, t2)] ++ m1 ++ (z, v) :: [] ++ l2).
      2:{ cbn [app]. rewrite <- app_assoc. reflexivity. }
      eapply B_func; eauto; [apply opt_some, E_parameters; eassumption|constructor].
    + rewrite stmt_of_compound. cbn [compound_of]. rewrite RW, SY, PU. reflexivity.
  - (* Inline *)
    intros s f c c' l la IF FI CO F. cbn [suite_tokens] in F. destruct (simple_derived s l la FI F) as (x & EX & SX). injection CO as <-. exists x.
    split; [destruct IF as [<-|[<-|[]]]; [apply B_suite_simple|apply B_body_simple]; exact EX|]. apply smalls_suite, SX.
  - (* Block *)
    intros b IB f c c' l la IF FI CO F. cbn [suite_tokens] in F. apply faces_cons in F as (p & t & l0 & -> & KT & F). apply faces_cons in F as (q & u & l1 & -> & KU & F).
    apply faces_app in F as (l2 & l3 & -> & F2 & F3). apply faces_cons in F3 as (r & v & l4 & -> & KV & F4). apply faces_nil in F4. subst l4. apply face_kind in KT, KU, KV.
    destruct (IB c c' l2 (r, Some v)) as (xs & ss & BX & OX & BS); auto.
    { exists v. split; [reflexivity|]. rewrite KV. not_clause. }
    assert (NE : xs <> []) by (intros ->; injection OX as <-; discriminate BS).
    assert (RE : forall s1 s2 s3 s4 s5, suite_of (SuiteStmt s1 s2 s3 s4 (rev xs) s5) = Some (Block b) /\ suite_of (FuncBodySuite s1 s2 s3 None None s4 (rev xs) s5) = Some (Block b)).
    { intros. cbn [suite_of]. rewrite (opts_rev _ _ _ _ OX), rev_involutive, BS. auto. }
    destruct IF as [<-|[<-|[]]].
    + eexists. split; [eapply B_suite_block; eauto|]. apply RE.
    + eexists. split; [eapply (B_body_block (status c) p t []); eauto; constructor|]. apply RE.
  - (* Last *)
    intros s IS c c' l la FI CO F FO. cbn [block_tokens] in F. destruct (IS c c' l la FI CO F FO) as (x & BX & RX).
    exists [x], [s]. split; [rewrite <- (app_nil_r l); eapply B_cons; [exact BX|constructor]|]. split; [cbn; rewrite RX; reflexivity|reflexivity].
  - (* Then *)
    intros s IS b IB c c' l la (FS & FB) CO F FO. cbn [block_tokens] in F. apply faces_app in F as (l1 & l2 & -> & F1 & F2).
    cbn [block_note] in CO. apply andthen_inv in CO as (c1 & CS & CO). destruct (IS c c1 l1 (ahead l2 la) FS CS F1) as (x & BX & RX).
    { assert (OB : opener (block_tokens b)) by (destruct b; cbn [block_tokens block_fits] in *; [eapply stmt_opener, FB|apply opener_app; eapply stmt_opener, FB]).
      eapply opener_follows; eauto. }
    destruct (IB c1 c' l2 la FB CO F2 FO) as (xs & ss & BXS & OX & BS).
    exists (x :: xs), (s :: ss). split; [eapply B_cons; eassumption|]. split; [rewrite opts_cons, RX, OX; reflexivity|].
    apply block_of_cons, BS.
  - (* NoElif *)
    intros c c' l la _ CO F. apply faces_nil in F. subst l. injection CO as <-. exists [], []. split; [constructor|]. auto.
  - (* Elif *)
    intros e b IB es IE c c' l la (FE & FB & FES) CO F. cbn [elifs_tokens] in F. apply faces_app in F as (l1 & l2 & -> & F1 & F2). apply faces_app in F2 as (l3 & l4 & -> & F3 & F4).
    destruct (if_head_derived _ _ _ FE F1) as (p & t & l0 & q & u & a & -> & KT & KU & EA & TA).
    cbn [elifs_note] in CO. apply andthen_inv in CO as (c1 & CB & CO).
    destruct (IB F_suite c c1 l3 (ahead l4 la)) as (y & BY & SY); auto; [cbn; tauto|].
    destruct (IE c1 c' l4 la) as (xs & fs & BX & OX & RX); auto.
    eexists (_ :: xs), (Elif e b :: fs). split; [|split; [|cbn; rewrite RX; reflexivity]].
    + replace (_ ++ l3 ++ l4) with (((p, t) :: l0 ++ (q, u) :: l3) ++ l4) by (cbn [app]; rewrite <- !app_assoc; reflexivity).
      eapply B_cons; [eapply B_elif; eauto|exact BX].
    + rewrite opts_cons. cbn [elif_of]. rewrite TA, SY, OX. reflexivity.
  - (* NoHandler *)
    intros c c' l la _ CO F. apply faces_nil in F. subst l. injection CO as <-. exists [], []. split; [constructor|]. auto.
  - (* Handler *)
    intros g w b IB hs IH c c' l la (FW & FB & FH) CO F. cbn [handlers_tokens] in F. apply faces_app in F as (l1 & l2 & -> & F1 & F2). apply faces_app in F2 as (l3 & l4 & -> & F3 & F4).
    cbn [handlers_note] in CO. fold (agrees c g) in CO. destruct (agrees c g) eqn:AG; [|discriminate CO]. apply andthen_inv in CO as (c1 & CB & CO).
    destruct (except_head_derived g w c l1 FW AG F1) as (m1 & q & u & x & -> & KU & BC & a1 & a2 & a3 & m & o & -> & MG & WR).
    destruct (IB F_suite (Some g) c1 l3 (ahead l4 la)) as (y & BY & SY); auto; [cbn; tauto|].
    destruct (IH c1 c' l4 la) as (xs & fs & BX & OX & RX); auto.
    eexists (_ :: xs), (Handler g w b :: fs). split; [|split; [|cbn; rewrite RX; reflexivity]].
    + replace (_ ++ l3 ++ l4) with ((m1 ++ (q, u) :: l3) ++ l4) by (rewrite <- !app_assoc; reflexivity).
      eapply B_cons; [eapply B_except_stmt; [exact BC|exact KU|exact BY]|exact BX].
    + rewrite opts_cons. cbn [handler_of]. rewrite MG, WR, SY, OX. reflexivity.
  - (* Absent *)
    intros k f c c' l la _ _ CO F. apply faces_nil in F. subst l. injection CO as <-. exists None. split; [constructor|]. auto.
  - (* Present *)
    intros b IB k f c c' l la IF FI CO F. cbn [clause_tokens clause_fits] in *. apply faces_app in F as (l1 & l2 & -> & F1 & F2).
    destruct (word_head_derived _ _ F1) as (p & t & q & u & -> & KT & KU).
    destruct (IB F_suite c c' l2 la) as (y & BY & SY); auto; [cbn; tauto|].
    destruct IF as [IF|[IF|[]]]; injection IF as <- <-.
    + eexists (Some _). split; [apply B_some; cbn [app]; eapply B_else; eauto|]. split; [cbn; rewrite SY; reflexivity|discriminate].
    + eexists (Some _). split; [apply B_some; cbn [app]; eapply B_finally; eauto|]. split; [cbn; rewrite SY; reflexivity|discriminate].
Qed.
