(** Soundness of the parser with respect to the grammar: basics. *)
From Coq Require Import List Arith Lia.
From Verif Require Import Chars SourceBuffer Token Tokenizer Node ParserState GrammarSpec ParseBasics.
Import ListNotations.

(** The functions that accept phrases of [E], of [B], and complete inputs. *)
Inductive sort := Plain | Block | Whole | Never.
Definition sort_of (f : fn) : sort :=
  match f with
  | F_stmt | F_compound_stmt | F_async_stmt | F_if_stmt | F_elif_stmt | F_else_stmt | F_while_stmt
  | F_for_stmt | F_try_stmt | F_finally_stmt | F_with_stmt | F_except_stmt | F_except_clause
  | F_suite | F_decorated | F_async_func_def | F_func_def | F_func_body_suite | F_class_def => Block
  | F_eval_input | F_file_input | F_single_input | F_func_type_input => Whole
  | F_match => Never
  | _ => Plain
  end.

Section Sound.
Variable U : unicode.

Definition sound_plain (f : fn) (s : parser) (x : node) (s' : parser) : Prop :=
  exists l, reads U s l s' /\ ps_except s' = ps_except s /\ E f l (view s') x.
Definition sound_block (f : fn) (s : parser) (x : node) (s' : parser) : Prop :=
  exists l, reads U s l s' /\ B f (ps_except s) l (view s') x (ps_except s').
Definition sound_whole (f : fn) (s : parser) (x : node) (s' : parser) : Prop :=
  exists s1 l, advance U s = Ok tt s1 /\ reads U s1 l s' /\
    Input f (ps_except s1) l (view s') x (ps_except s').
Definition sound (f : fn) (s : parser) (x : node) (s' : parser) : Prop :=
  match sort_of f with
  | Plain => sound_plain f s x s'
  | Block => sound_block f s x s'
  | Whole => sound_whole f s x s'
  | Never => False
  end.
Definition good (rec : fn -> M node) : Prop := forall f s x s', rec f s = Ok x s' -> sound f s x s'.

Lemma bind_position : forall A (k : nat -> M A) s, bind position k s = k (pos s) s.
Proof. reflexivity. Qed.
Lemma bind_ret : forall A C (a : A) (k : A -> M C) s, bind (ret a) k s = k a s.
Proof. reflexivity. Qed.
Lemma on_symbol_inl : forall A (e : M A) k s t, ps_symbol s = inl t -> on_symbol e k s = k t s.
Proof. intros. unfold on_symbol. rewrite H. reflexivity. Qed.
Lemma reads_one : forall s t s1, ps_symbol s = inl t -> advance U s = Ok tt s1 -> reads U s [(pos s, t)] s1.
Proof. intros. econstructor; eauto. apply reads_refl. Qed.

Lemma E_eq : forall f l la x y, E f l la x -> x = y -> E f l la y.
Proof. intros. subst. assumption. Qed.
Lemma B_eq : forall f c l la x y c', B f c l la x c' -> x = y -> B f c l la y c'.
Proof. intros. subst. assumption. Qed.

(** Loops: [P] is kept while the loop goes round, [Q] holds when it stops. *)
Lemma while_inv : forall A (step : A -> M (bool * A)) (P Q : A -> parser -> Prop),
  (forall a s b a' s', P a s -> step a s = Ok (b, a') s' -> if b : bool then P a' s' else Q a' s') ->
  forall n a s a' s', P a s -> while_ n step a s = Ok a' s' -> Q a' s'.
Proof.
  intros A step P Q St. induction n as [|n IH]; intros a s a' s' Pa W; [discriminate|].
  cbn [while_] in W. apply bind_ok in W. destruct W as ([b a1] & s1 & E1 & W).
  specialize (St _ _ _ _ _ Pa E1). destruct b.
  - eauto.
  - apply ret_ok in W. destruct W; subst. assumption.
Qed.

(** ** Adding an element at the end of a list *)
Lemma many_snoc : forall f l1 la1 xs, E_many f l1 la1 xs -> forall l2 la x,
  la1 = ahead l2 la -> E f l2 la x -> E_many f (l1 ++ l2) la (xs ++ [x]).
Proof.
  intros f l1 la1 xs H. induction xs as [|y xs IH] in l1, H |- *; intros l2 la x E1 E2; inversion H; subst.
  - cbn [app]. rewrite <- (app_nil_r l2). eapply many_cons; [exact E2|constructor].
  - rewrite <- app_assoc. cbn [app]. eapply many_cons; [|eauto].
    rewrite ahead_app. assumption.
Qed.

Lemma rest_snoc : forall fs k l1 la1 xs ts, E_rest fs k l1 la1 xs ts -> forall p t f l2 la x,
  la1 = (p, Some t) -> tk_kind t = k -> In f fs -> E f l2 la x ->
  E_rest fs k (l1 ++ (p, t) :: l2) la (xs ++ [x]) (ts ++ [t]).
Proof.
  intros fs k l1 la1 xs ts H.
  induction xs as [|y xs IH] in l1, ts, H |- *; intros p t f l2 la x E1 K I E2; inversion H; subst.
  - cbn [app]. rewrite <- (app_nil_r l2). eapply rest_cons; eauto. constructor.
  - cbn [app]. rewrite <- app_assoc. eapply rest_cons; eauto.
    rewrite ahead_app_cons. assumption.
Qed.

Lemma items_snoc : forall fs k l1 xs ts p t f l2 la x, E_items fs k l1 (p, Some t) xs ts ->
  tk_kind t = k -> In f fs -> E f l2 la x ->
  E_items fs k (l1 ++ (p, t) :: l2) la (xs ++ [x]) (ts ++ [t]).
Proof.
  intros fs k l1 xs ts p t f l2 la x H K I Ex.
  inversion H as [? ? f0 l0 x0 l3 xs0 ts0 ? I0 E0 R0]; subst.
  cbn [app]. rewrite <- app_assoc. apply (items_intro fs (tk_kind t) f0); auto.
  - rewrite ahead_app_cons. exact E0.
  - eapply rest_snoc with (f := f); eauto.
Qed.

Lemma items_one : forall fs k f l la x, In f fs -> E f l la x -> E_items fs k l la [x] [].
Proof. intros. rewrite <- (app_nil_r l). eapply items_intro; eauto. constructor. Qed.

Lemma items_nonempty : forall fs k l la xs ts, E_items fs k l la xs ts -> xs <> [].
Proof. intros fs k l la xs ts H. inversion H; subst. discriminate. Qed.

Lemma rest_length : forall fs k l la xs ts, E_rest fs k l la xs ts -> length xs = length ts.
Proof.
  intros fs k l la xs. revert l. induction xs; intros l ts H; inversion H; subst; auto.
  cbn. f_equal. eauto.
Qed.
Lemma items_length : forall fs k l la xs ts, E_items fs k l la xs ts -> length xs = S (length ts).
Proof. intros fs k l la xs ts H. inversion H; subst. cbn. f_equal. eapply rest_length; eauto. Qed.

Lemma items_single : forall fs k l la x ts, E_items fs k l la [x] ts ->
  ts = [] /\ exists f, In f fs /\ E f l la x.
Proof.
  intros fs k l la x ts H. inversion H; subst.
  match goal with H : E_rest _ _ _ _ [] _ |- _ => inversion H; subst end.
  split; auto. rewrite app_nil_r. eauto.
Qed.

Lemma names_snoc : forall k l1 ns ts p t q u, E_names k l1 ns ts -> tk_kind t = k -> tk_kind u = T_AtomName ->
  E_names k (l1 ++ [(p, t); (q, u)]) (ns ++ [u]) (ts ++ [t]).
Proof. induction 1; intros; subst; cbn [app]; constructor; auto. constructor. Qed.

Lemma assigns_snoc : forall l1 la1 xs, E_assigns l1 la1 xs -> forall f p t l2 la x,
  la1 = (p, Some t) -> tk_kind t = PyAssign -> In f [F_yield_expr; F_testlist] -> E f l2 la x ->
  E_assigns (l1 ++ (p, t) :: l2) la (xs ++ [(t, x)]).
Proof.
  intros l1 la1 xs H. induction xs as [|y xs IH] in l1, H |- *; intros; inversion H; subst.
  - cbn [app]. rewrite <- (app_nil_r l2). eapply assigns_cons; eauto. constructor.
  - cbn [app]. rewrite <- app_assoc. eapply assigns_cons; eauto. rewrite ahead_app_cons. assumption.
Qed.

Lemma set_rest_snoc : forall s l1 la1 xs ts, E_set_rest s l1 la1 xs ts -> forall p t l2 la x,
  la1 = (p, Some t) -> tk_kind t = PyComa -> E_entry false s l2 la x ->
  E_set_rest s (l1 ++ (p, t) :: l2) la (xs ++ [x]) (ts ++ [t]).
Proof.
  intros s l1 la1 xs ts H.
  induction xs as [|y xs IH] in l1, ts, H |- *; intros p t l2 la x E1 K E2; inversion H; subst.
  - cbn [app]. rewrite <- (app_nil_r l2). eapply set_rest_cons; eauto. constructor.
  - cbn [app]. rewrite <- app_assoc. eapply set_rest_cons; eauto.
    rewrite ahead_app_cons. assumption.
Qed.

Lemma B_many_snoc : forall f c l1 la1 xs c1, B_many f c l1 la1 xs c1 -> forall l2 la x c2,
  la1 = ahead l2 la -> B f c1 l2 la x c2 -> B_many f c (l1 ++ l2) la (xs ++ [x]) c2.
Proof.
  intros f c l1 la1 xs c1 H. induction xs as [|y xs IH] in c, l1, H |- *; intros l2 la x c2 E1 E2; inversion H; subst.
  - cbn [app]. rewrite <- (app_nil_r l2). eapply B_cons; [exact E2|constructor].
  - rewrite <- app_assoc. cbn [app]. eapply B_cons; [|eauto].
    rewrite ahead_app. eassumption.
Qed.

Lemma lines_snoc_newline : forall c l1 la1 xs ts c1, lines c l1 la1 xs ts c1 -> forall p t la,
  la1 = (p, Some t) -> tk_kind t = T_Newline -> lines c (l1 ++ [(p, t)]) la xs (ts ++ [t]) c1.
Proof.
  induction 1; intros p' t' la' E1 K; cbn [app].
  - constructor; auto. constructor.
  - constructor; auto.
  - rewrite <- app_assoc. econstructor; [|eauto]. rewrite ahead_app_cons. subst. assumption.
Qed.
Lemma lines_snoc_stmt : forall c l1 la1 xs ts c1, lines c l1 la1 xs ts c1 -> forall l2 la x c2,
  la1 = ahead l2 la -> B F_stmt c1 l2 la x c2 -> lines c (l1 ++ l2) la (xs ++ [x]) ts c2.
Proof.
  induction 1; intros l' la' x' c2' E1 K; cbn [app].
  - rewrite <- (app_nil_r l'). subst. econstructor; [exact K|constructor].
  - constructor; auto.
  - rewrite <- app_assoc. econstructor; [|eauto]. rewrite ahead_app. subst. eassumption.
Qed.

(** ** Lists with separators *)
(** One turn of a loop over elements [fs] with separator [k]; [stop] are the tokens before which a
    trailing separator is accepted. *)
Definition list_turn (fs : list fn) (k : kind) (stop : list kind)
  (step : list node * list token -> M (bool * (list node * list token))) : Prop :=
  forall ns ts s r s', step (ns, ts) s = Ok r s' ->
  exists t, ps_symbol s = inl t /\
  ((tk_kind t <> k /\ r = (false, (ns, ts)) /\ s' = s) \/
   (tk_kind t = k /\ exists s1, advance U s = Ok tt s1 /\
     ((exists f x l, In f fs /\ reads U s1 l s' /\ ps_except s' = ps_except s1 /\ E f l (view s') x /\
         r = (true, (ns ++ [x], ts ++ [t]))) \/
      (before stop (view s1) /\ s' = s1 /\ exists b, r = (b, (ns, ts ++ [t])))))).

Lemma list_loop : forall fs k stop step, list_turn fs k stop step -> ~ In k stop ->
  forall f l0 x s0 s n ns ts s', In f fs -> reads U s0 l0 s -> ps_except s = ps_except s0 ->
  E f l0 (view s) x -> while_ n step ([x], []) s = Ok (ns, ts) s' ->
  ps_except s' = ps_except s0 /\ (ts = [] -> s' = s) /\
  ((exists l, reads U s0 l s' /\ E_items fs k l (view s') ns ts /\ stops [k] (view s')) \/
   (exists l p t ts0, reads U s0 (l ++ [(p, t)]) s' /\ E_items fs k l (p, Some t) ns ts0 /\
      tk_kind t = k /\ ts = ts0 ++ [t] /\ before stop (view s'))).
Proof.
  intros fs k stop step T NK f l0 x s0 s n ns ts s' I R X Ex W.
  set (Q := fun (a : list node * list token) s' => ps_except s' = ps_except s0 /\ (snd a = [] -> s' = s) /\
    ((exists l, reads U s0 l s' /\ E_items fs k l (view s') (fst a) (snd a) /\ stops [k] (view s')) \/
     (exists l p t ts0, reads U s0 (l ++ [(p, t)]) s' /\ E_items fs k l (p, Some t) (fst a) ts0 /\
       tk_kind t = k /\ snd a = ts0 ++ [t] /\ before stop (view s')))).
  set (P := fun (a : list node * list token) s' => ps_except s' = ps_except s0 /\ (snd a = [] -> s' = s) /\
    ((exists l, reads U s0 l s' /\ E_items fs k l (view s') (fst a) (snd a)) \/
     (exists l p t ts0, reads U s0 (l ++ [(p, t)]) s' /\ E_items fs k l (p, Some t) (fst a) ts0 /\
       tk_kind t = k /\ snd a = ts0 ++ [t] /\ before stop (view s')))).
  change (Q (ns, ts) s').
  refine (while_inv _ step P Q _ n ([x], []) s (ns, ts) s' _ W).
  2: { split; auto. split; auto. left. exists l0. split; auto. cbn. eapply items_one; eauto. }
  clear - T NK. subst P Q. intros [ns ts] s1' b [ns' ts'] s' (X & Z & P) St. cbn [fst snd] in *.
  rename s into si. rename s1' into s.
  destruct (T _ _ _ _ _ St) as (t & S & D).
  destruct D as [(K & E1 & E2)|(K & s1 & A & D)].
  - inversion E1; subst. split; auto. split; auto. destruct P as [(l & R & I)|P]; [|right; exact P].
    left. exists l. split; auto. split; auto. eapply stops_view; eauto. cbn. intuition congruence.
  - destruct P as [(l & R & I)|(l & p & t0 & ts0 & R & I & K0 & E0 & (u & V & Bf))].
    2: { exfalso. apply view_token in V. assert (EU : u = t) by congruence. rewrite EU, K in Bf. exact (NK Bf). }
    rewrite (view_inl _ _ S) in I.
    pose proof (advance_except _ _ _ A) as XA. pose proof (reads_one _ _ _ S A) as R1.
    destruct D as [(f & x & l2 & If & R2 & X2 & Ex & E1)|(Bf & E1 & b' & E2)].
    + inversion E1; subst. split; [congruence|]. split; [destruct ts; discriminate|]. left. exists (l ++ (pos s, t) :: l2). split.
      * eapply reads_app; [exact R|]. change ((pos s, t) :: l2) with ([(pos s, t)] ++ l2).
        eapply reads_app; eauto.
      * eapply items_snoc; eauto.
    + inversion E2; subst.
      destruct b'; (split; [congruence|]); (split; [destruct ts; discriminate|]); right; exists l, (pos s), t, ts;
        (split; [eapply reads_app; eauto|repeat split; auto]).
Qed.

(** Without trailing separator. *)
Lemma list_loop_plain : forall fs k step, list_turn fs k [] step ->
  forall f l0 x s0 s n ns ts s', In f fs -> reads U s0 l0 s -> ps_except s = ps_except s0 ->
  E f l0 (view s) x -> while_ n step ([x], []) s = Ok (ns, ts) s' ->
  exists l, reads U s0 l s' /\ ps_except s' = ps_except s0 /\ E_items fs k l (view s') ns ts /\ stops [k] (view s') /\
    (ts = [] -> s' = s).
Proof.
  intros. destruct (list_loop fs k [] step H (fun i => i) f l0 x s0 s n ns ts s') as (X & Z & [D|D]); auto.
  - destruct D as (l & ? & ? & ?). eauto 10.
  - destruct D as (l & p & t & ts0 & _ & _ & _ & _ & (u & _ & F)). destruct F.
Qed.

End Sound.

(** ** Tactics *)
Ltac kind_facts :=
  repeat match goal with
  | H : is ?k ?t = true |- _ => apply is_true in H
  | H : is ?k ?t = false |- _ => apply is_false in H
  | H : is_one_of ?ks ?t = true |- _ => apply is_one_of_true in H
  | H : is_one_of ?ks ?t = false |- _ => apply is_one_of_false in H
  end.

Ltac use_rec IH R :=
  let l := fresh "l" in let Rd := fresh "R" in let X := fresh "X" in let Ex := fresh "G" in
  apply IH in R;
  lazymatch type of R with
  | sound _ ?f _ _ _ =>
      lazymatch eval cbn in (sort_of f) with
      | Plain => change (sound_plain _ f _ _ _) in R || (unfold sound in R; cbn [sort_of] in R);
                 destruct R as (l & Rd & X & Ex)
      | Block => unfold sound in R; cbn [sort_of] in R; destruct R as (l & Rd & Ex)
      | Never => exfalso; exact R
      end
  end.

Ltac use_advance A :=
  match type of A with
  | advance ?U ?s = Ok tt ?s1 =>
      match goal with
      | S : ps_symbol s = inl ?t |- _ =>
          let R := fresh "R" in let X := fresh "X" in
          pose proof (reads_one U s t s1 S A) as R; pose proof (advance_except U s s1 A) as X
      end
  end.

(** One step of the inversion of a successful run in hypothesis [H]. *)
Ltac mstep IH H :=
  lazymatch type of H with
  | bind position ?k ?s = Ok _ _ => rewrite bind_position in H; cbv beta in H
  | bind (ret ?a) ?k ?s = Ok _ _ => rewrite bind_ret in H; cbv beta iota in H
  | bind (advance ?U) ?k ?s = Ok _ _ =>
      let s1 := fresh "s" in let A := fresh "A" in
      apply bind_ok in H; destruct H as ([] & s1 & A & H); cbv beta in H; use_advance A
  | bind (expect ?U ?k ?p ?e1 ?e2) _ ?s = Ok _ _ =>
      let t := fresh "t" in let s1 := fresh "s" in let X := fresh "X" in
      let S := fresh "S" in let K := fresh "K" in let A := fresh "A" in
      apply bind_ok in H; destruct H as (t & s1 & X & H); cbv beta in H;
      apply expect_ok in X; destruct X as (S & K & A);
      (try match goal with S' : ps_symbol s = inl ?t' |- _ =>
        lazymatch t' with t => fail | _ => assert (t = t') by congruence; subst t; clear S end end);
      use_advance A
  | bind ?m ?k ?s = Ok _ _ =>
      let a := fresh "x" in let s1 := fresh "s" in let M := fresh "M" in
      apply bind_ok in H; destruct H as (a & s1 & M & H); cbv beta in H; try use_rec IH M
  | on_symbol ?e ?k ?s = Ok _ _ =>
      lazymatch goal with
      | S : ps_symbol s = inl ?t |- _ => rewrite (on_symbol_inl _ e k s t S) in H; cbv beta in H
      | _ =>
          let t := fresh "t" in let S := fresh "S" in
          (apply on_symbol_fail_ok in H || apply on_symbol_fail_here_ok in H);
          destruct H as (t & S & H); cbv beta in H
      end
  | (if ?b then _ else _) _ = Ok _ _ =>
      let K := fresh "K" in destruct b eqn:K; kind_facts
  | ret _ _ = Ok _ _ =>
      let A := fresh in let B := fresh in
      apply ret_ok in H; destruct H as (A & B); subst
  | fail _ _ _ = Ok _ _ => discriminate H
  | fail_here _ _ = Ok _ _ => discriminate H
  end.
Ltac minv IH H := repeat (mstep IH H).

Ltac fold_views :=
  repeat rewrite ahead_app;
  repeat match goal with
  | S : ps_symbol ?s = inl ?t |- context [(pos ?s, Some ?t)] => rewrite <- (view_inl s t S)
  | R : reads ?U ?s ?l ?s' |- context [ahead ?l (view ?s')] => rewrite <- (reads_ahead U s l s' R)
  | R : reads ?U ?s ?l ?s' |- context [start ?l (view ?s')] => rewrite <- (reads_start U s l s' R)
  | |- context [fst (view ?s)] => change (fst (view s)) with (pos s)
  end.

Ltac chain :=
  lazymatch goal with
  | |- reads _ ?s _ ?s => apply reads_refl
  | |- reads ?U ?s _ ?s' =>
      match goal with
      | R : reads U s ?l s' |- _ => exact R
      | R : reads U s ?l ?s1 |- _ => eapply (reads_app U s l s1 R); clear R; chain
      end
  end.

Ltac in_list := 
  match goal with
  | H : ?P |- ?P => exact H
  | K : tk_kind ?t = _ |- context [tk_kind ?t] => rewrite K; cbn; tauto
  | _ => cbn; tauto
  end.

Ltac not_in :=
  repeat match goal with H : ~ In _ _ |- _ => cbn [In] in H end; cbn; intuition congruence.

Ltac side :=
  fold_views;
  lazymatch goal with
  | H : ?P |- ?P => exact H
  | |- In _ _ => in_list
  | |- stops _ (view ?s) =>
      match goal with S : ps_symbol s = inl ?t |- _ => eapply (stops_view _ s t S); not_in end
  | |- before _ (view ?s) =>
      match goal with S : ps_symbol s = inl ?t |- _ => eapply (before_view _ s t S); in_list end
  | _ => first [eassumption | reflexivity | congruence | solve [eauto] | idtac]
  end.

(** Goal [sound_plain]: read the tokens found and apply the rule. *)
Ltac by_rule rule :=
  eexists; split; [chain | split; [congruence | cbn [app]; eapply E_eq; [eapply rule; side | side]]].
