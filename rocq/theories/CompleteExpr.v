(** Completeness of the parser for phrases without suites: every phrase of the grammar is parsed,
    to its tree, by any large enough fuel. *)
From Coq Require Import List Arith Lia.
From Verif Require Import Chars SourceBuffer Token Tokenizer Node ParserState Expressions Statements
  Blocks Parser GrammarSpec ParseBasics FirstSets CompleteBasics.
Import ListNotations.
Local Open Scope nat_scope.

Section Complete.
Variable U : unicode.

Definition step_of (n : nat) (f : fn) (p : nat) : node -> M (bool * node) :=
  match f with
  | F_or_test => or_test_step U (run U n) p
  | F_and_test => and_test_step U (run U n) p
  | F_comparison => comparison_step U (run U n) p
  | F_expr => expr_step U (run U n) p
  | F_xor_expr => xor_expr_step U (run U n) p
  | F_and_expr => and_expr_step U (run U n) p
  | F_shift => shift_step U (run U n) p
  | F_arith => arith_step U (run U n) p
  | F_term => term_step U (run U n) p
  | _ => fun x => ret (false, x)
  end.

Definition K_chain (f : fn) (l : list ptok) (la : look) (x : node) : Prop :=
  forall s s', readx U s l s' -> view s' = la -> forall g ops, binary f = Some (g, ops) ->
  exists k, ev (fun n => exists x0 s0, run U n g s = Ok x0 s0 /\
    forall j, while_ (k + j) (step_of n f (pos s)) x0 s0 = while_ j (step_of n f (pos s)) x s').
Definition K_opt (f : fn) (l : list ptok) (la : look) (o : option node) : Prop :=
  match o with Some x => K_E U f l la x /\ E f l la x | None => l = [] end.
Definition K_many (f : fn) (l : list ptok) (la : look) (xs : list node) : Prop :=
  forall s s', readx U s l s' -> view s' = la -> ev (fun n => each (many_turn U n f) s xs s').
Definition K_rest (fs : list fn) (k : kind) (l : list ptok) (la : look) (xs : list node) (ts : list token) : Prop :=
  forall s s', readx U s l s' -> view s' = la ->
  exists is, map fst is = xs /\ map snd is = ts /\ ev (fun n => each (rest_turn U n fs k) s is s').
Definition K_items (fs : list fn) (k : kind) (l : list ptok) (la : look) (xs : list node) (ts : list token) : Prop :=
  forall s s', readx U s l s' -> view s' = la ->
  exists f x is s1, xs = x :: map fst is /\ ts = map snd is /\ In f fs /\ sees s f /\
    ev (fun n => run U n f s = Ok x s1) /\ ev (fun n => each (rest_turn U n fs k) s1 is s').
Definition set_turn (n p : nat) (s : parser) (x : node * token) (s' : parser) : Prop :=
  forall ns ts, set_step U (run U n) p (ns, ts) s = Ok (true, (ns ++ [fst x], ts ++ [snd x])) s'.
Definition K_entry (d : bool) (p : nat) (l : list ptok) (la : look) (x : node) : Prop :=
  forall s s', readx U s l s' -> view s' = la ->
  (if d then ev (fun n => dictorset_first U (run U n) p s = Ok (true, x) s') else True) /\
  forall s0 t, ps_symbol s0 = inl t -> tk_kind t = PyComa -> advance U s0 = Ok tt s ->
  ev (fun n =>
    if d then forall ns ts, dictionary_step U (run U n) p (ns, ts) s0 = Ok (false, (ns ++ [x], ts ++ [t])) s'
    else set_turn n p s0 (x, t) s').
Definition K_set_first (p : nat) (l : list ptok) (la : look) (x : node) : Prop :=
  forall s s', readx U s l s' -> view s' = la ->
  ev (fun n => dictorset_first U (run U n) p s = Ok (false, x) s').
Definition K_set_rest (p : nat) (l : list ptok) (la : look) (xs : list node) (ts : list token) : Prop :=
  forall s s', readx U s l s' -> view s' = la ->
  exists is, map fst is = xs /\ map snd is = ts /\ ev (fun n => each (set_turn n p) s is s').

Definition va_more (v : var_args) (ns : list node) (ts : list token) (m w : option (token * node)) : var_args :=
  mk_va (va_nodes v ++ ns) (va_seps v ++ ts)
    (match m with Some (t, _) => Some t | None => va_mul v end)
    (match m with Some (_, x) => Some x | None => va_mul_node v end)
    (match w with Some (t, _) => Some t | None => va_power v end)
    (match w with Some (_, x) => Some x | None => va_power_node v end)
    (va_div v) (va_coma v).
Definition K_stars (l : list ptok) (la : look) (ns : list node) (ts : list token) (m w : option (token * node)) : Prop :=
  forall s s', readx U s l s' -> view s' = la ->
  exists t, ps_symbol s = inl t /\ tk_kind t = (match m with Some _ => PyMul | None => PyPower end) /\
  ev (fun n => forall v,
    (if m then va_mul_part U n (run U n) v t s else va_power_part U (run U n) v t s) = Ok (va_more v ns ts m w) s').
Definition ta_more (v : type_args) (ns : list node) (ts : list token) (m w : option (token * node)) : type_args :=
  mk_ta (ta_nodes v ++ ns) (ta_seps v ++ ts)
    (match m with Some (t, _) => Some t | None => ta_mul v end)
    (match m with Some (_, x) => Some x | None => ta_mul_node v end)
    (match w with Some (t, _) => Some t | None => ta_power v end)
    (match w with Some (_, x) => Some x | None => ta_power_node v end).
Definition K_type_stars (l : list ptok) (la : look) (ns : list node) (ts : list token) (m w : option (token * node)) : Prop :=
  forall s s', readx U s l s' -> view s' = la ->
  exists t, ps_symbol s = inl t /\ tk_kind t = (match m with Some _ => PyMul | None => PyPower end) /\
  ev (fun n => forall p v,
    (if m then ta_mul_part U n (run U n) p v t s else ta_power_part U (run U n) v t s) = Ok (ta_more v ns ts m w) s').
Definition assign_turn (n : nat) (s : parser) (x : token * node) (s' : parser) : Prop :=
  tk_kind (fst x) = PyAssign /\ ps_symbol s = inl (fst x) /\
  forall p xs, assign_step U (run U n) p xs s = Ok (true, xs ++ [x]) s'.
Definition K_assigns (l : list ptok) (la : look) (xs : list (token * node)) : Prop :=
  forall s s', readx U s l s' -> view s' = la -> ev (fun n => each (assign_turn n) s xs s').
Definition K_import_list (l : list ptok) (la : look) (a : option token) (x : option node) (b : option token) : Prop :=
  match a, x, b with
  | Some t, None, None => tk_kind t = PyMul /\ exists p, l = [(p, t)]
  | Some t, Some y, Some u =>
      tk_kind t = PyLeftParen /\ tk_kind u = PyRightParen /\ exists p l' q, l = (p, t) :: l' ++ [(q, u)] /\
        K_E U F_import_as_names l' (q, Some u) y /\ E F_import_as_names l' (q, Some u) y
  | None, Some y, None => K_E U F_import_as_names l la y /\ E F_import_as_names l la y
  | _, _, _ => False
  end.
End Complete.

(** name lists *)
Section Names.
Variable U : unicode.
Definition name_turn (k : kind) (s : parser) (x : token * token) (s' : parser) : Prop :=
  exists s1, ps_symbol s = inl (snd x) /\ tk_kind (snd x) = k /\ advance U s = Ok tt s1 /\
    ps_symbol s1 = inl (fst x) /\ tk_kind (fst x) = T_AtomName /\ advance U s1 = Ok tt s'.
Lemma names_each : forall k l ns ts, E_names k l ns ts -> forall s s', readx U s l s' ->
  exists is, map fst is = ns /\ map snd is = ts /\ each (name_turn k) s is s'.
Proof.
  intros k l ns ts G. induction G; intros s s' R.
  - apply readx_nil in R. subst. exists []. repeat split. constructor.
  - apply readx_cons in R. destruct R as (_ & S & s1 & A & R).
    apply readx_cons in R. destruct R as (_ & S1 & s2 & A1 & R).
    destruct (IHG s2 s' R) as (is & M & N & D). exists ((u, t) :: is). cbn [map fst snd]. subst ns ts.
    split; [reflexivity|]. split; [reflexivity|]. econstructor; [|exact D].
    exists s1. cbn [fst snd]. auto 10.
Qed.
Definition pusht (a : list token * list token) (x : token * token) : list token * list token :=
  (fst a ++ [fst x], snd a ++ [snd x]).
Lemma fold_pusht : forall xs a, fold_left pusht xs a = (fst a ++ map fst xs, snd a ++ map snd xs).
Proof.
  induction xs as [|[x t] xs IH]; intros [ns ts]; cbn [fold_left map].
  - cbn. rewrite !app_nil_r. reflexivity.
  - rewrite IH. cbn. rewrite <- !app_assoc. reflexivity.
Qed.
Lemma names_run : forall k (step : list token * list token -> M (bool * (list token * list token))) s x is s' m,
  each (name_turn k) s is s' ->
  (forall ns ts s t u s1 s', ps_symbol s = inl t -> tk_kind t = k -> advance U s = Ok tt s1 ->
     ps_symbol s1 = inl u -> tk_kind u = T_AtomName -> advance U s1 = Ok tt s' ->
     step (ns, ts) s = Ok (true, (ns ++ [u], ts ++ [t])) s') ->
  S (length is) < m ->
  forall a s2, step (x :: map fst is, map snd is) s' = Ok (false, a) s2 ->
  while_ m step ([x], []) s = Ok a s2.
Proof.
  intros k step s x is s' m E H L a s2 S. eapply (each_run _ _ (name_turn k) step pusht); [eassumption| |lia|].
  - intros [ns ts] s0 [u t] s0' (s1 & A & B & D & F & G & I). eapply H; eassumption.
  - rewrite fold_pusht. exact S.
Qed.
End Names.

Lemma assigns_run : forall U n s xs s' m p a s2, each (assign_turn U n) s xs s' -> length xs < m ->
  assign_step U (run U n) p xs s' = Ok (false, a) s2 ->
  while_ m (assign_step U (run U n) p) [] s = Ok a s2.
Proof.
  intros U n s xs s' m p a s2 D L H. eapply (each_run _ _ (assign_turn U n) _ (fun a x => a ++ [x]));
    [eassumption| |assumption|].
  - intros a0 s0 x s0' (K & S & T). apply T.
  - rewrite fold_push1. exact H.
Qed.
Lemma assigns_first : forall U n s xs s', each (assign_turn U n) s xs s' -> xs <> [] ->
  exists t, ps_symbol s = inl t /\ tk_kind t = PyAssign.
Proof. intros U n s xs s' D H. destruct D; [contradiction|]. destruct H0 as (K & S & _). eauto. Qed.

Ltac set_view V :=
  match type of V with
  | view _ = (?z, Some ?w) => let S := fresh in let P := fresh in apply view_some in V; destruct V as (S & P); subst z
  | view _ = ?la => subst la
  end.
Ltac options :=
  repeat match goal with
  | G : E_opt _ _ _ ?o, H : K_opt _ _ _ _ ?o |- _ =>
      clear G; destruct o; cbn [K_opt] in H; [destruct H as (? & ?) | subst]
  | H : None = None -> _ |- _ => specialize (H eq_refl)
  | H : Some _ = None -> _ |- _ => clear H
  end.
Ltac lists :=
  repeat match goal with
  | IH : K_items ?U ?fs ?k ?l ?la _ _, G : E_items ?fs ?k ?l ?la _ _, R : readx ?U ?s ?l ?s' |- _ =>
      let is := fresh "is" in let H := fresh in
      clear G; destruct (IH s s' R ltac:(viewing)) as (? & ? & is & ? & ? & ? & ? & H & ? & ?); clear IH; subst;
      pick; seeing H; pose proof (ev_above (S (S (S (length is)))))
  | IH : K_rest ?U ?fs ?k ?l ?la _ _, G : E_rest ?fs ?k ?l ?la _ _, R : readx ?U ?s ?l ?s' |- _ =>
      let is := fresh "is" in
      clear G; destruct (IH s s' R ltac:(viewing)) as (is & ? & ? & ?); clear IH; subst;
      pose proof (ev_above (S (S (S (length is)))))
  | IH : K_many ?U ?f ?l ?la ?xs, G : E_many ?f ?l ?la ?xs, R : readx ?U ?s ?l ?s' |- _ =>
      clear G; pose proof (IH s s' R ltac:(viewing)); clear IH; subst;
      pose proof (ev_above (S (S (S (length xs)))))
  end.
Ltac assigns :=
  match goal with
  | IH : K_assigns ?U ?l ?la ?xs, R : readx ?U ?s ?l ?s' |- _ =>
      pose proof (IH s s' R ltac:(viewing)); clear IH; pose proof (ev_above (S (S (S (length xs)))))
  end.
Ltac names :=
  match goal with
  | G : E_names ?k ?l ?ns ?ts, R : readx ?U ?s ?l ?s' |- _ =>
      let is := fresh "is" in
      destruct (names_each U k l ns ts G s s' R) as (is & ? & ? & ?); clear G; subst;
      pose proof (ev_above (S (S (S (length is)))))
  end.
Ltac dots :=
  match goal with
  | F : Forall (fun d => In (tk_kind (snd d)) ?ks) ?l, R : readx ?U ?s ?l ?s' |- _ =>
      pose proof (tokens_each U (fun d => In (tk_kind d) ks) l s s' R F);
      pose proof (ev_above (S (S (S (length (map snd l))))))
  end.
Ltac stars :=
  match goal with
  | IH : K_stars ?U ?l ?la _ _ _ _, R : readx ?U ?s ?l ?s' |- _ =>
      destruct (IH s s' R ltac:(viewing)) as (? & ? & ? & ?); clear IH
  | IH : K_type_stars ?U ?l ?la _ _ _ _, R : readx ?U ?s ?l ?s' |- _ =>
      destruct (IH s s' R ltac:(viewing)) as (? & ? & ? & ?); clear IH
  end.
Ltac the_items :=
  match goal with
  | IH : K_items ?U ?fs ?k ?l ?la _ _, G : E_items ?fs ?k ?l ?la _ _, R : readx ?U ?s ?l ?s' |- _ =>
      let is := fresh "is" in let H := fresh in let Q := fresh in
      clear G; destruct (IH s s' R ltac:(viewing)) as (? & ? & is & ? & Q & ? & ? & H & ? & ?); clear IH;
      injection Q as ? ?; subst; pick; seeing H; pose proof (ev_above (S (S (S (length is)))))
  end.
Ltac finish v :=
  destruct v; unfold ret, va_more, va_set_mul, va_set_power, va_push_sep, va_push_node,
    ta_more, ta_set_mul, ta_set_power, ta_push_sep, ta_push_node; cbn;
  rewrite ?app_nil_r, <- ?app_assoc; reflexivity.
Ltac prepare :=
  unfold constants, unary, augmented in *; pick; options;
  match goal with |- K_E _ _ _ _ _ => idtac end;
  let s := fresh "s" in let s' := fresh "s'" in let R := fresh "R" in let V := fresh "V" in
  intros s s' R V; set_view V; unread; starts; feed; lists; facts;
  try match goal with H : In (tk_kind ?t) [?k] |- _ => destruct H as [H | []]; symmetry in H end.
Ltac parse := unfold C; apply ev_S; gather; cbn [run body]; open_fn; sim.
Ltac rule := prepare; parse.

Lemma star_end : forall p ns ss s, ss <> [] ->
  (match rev ns, rev ss with
   | [x], [] => ret x
   | ns', ss' => do e <- position; ret (TestListStarExpr p e ns' ss')
   end) s = Ok (TestListStarExpr p (pos s) (rev ns) (rev ss)) s.
Proof.
  intros p ns ss s H. assert (Z : rev ss <> []) by (intro Z; apply H; rewrite <- (rev_involutive ss), Z; reflexivity).
  destruct (rev ss); [contradiction|]. destruct (rev ns) as [|a [|b l0]]; reflexivity.
Qed.

(** parameter lists *)
Definition va_push2 (v : var_args) (x : node * token) : var_args := va_push_node (va_push_sep v (snd x)) (fst x).
Lemma fold_va : forall is v, fold_left va_push2 is v = va_more v (map fst is) (map snd is) None None.
Proof.
  induction is as [|[x t] is IH]; intros v; cbn [fold_left map fst snd].
  - destruct v. unfold va_more. cbn. rewrite !app_nil_r. reflexivity.
  - rewrite IH. unfold va_more, va_push2, va_push_node, va_push_sep. cbn. rewrite <- !app_assoc. reflexivity.
Qed.
Definition ta_push2 (v : type_args) (x : node * token) : type_args := ta_push_node (ta_push_sep v (snd x)) (fst x).
Lemma fold_ta : forall is v, fold_left ta_push2 is v = ta_more v (map fst is) (map snd is) None None.
Proof.
  induction is as [|[x t] is IH]; intros v; cbn [fold_left map fst snd].
  - destruct v. unfold ta_more. cbn. rewrite !app_nil_r. reflexivity.
  - rewrite IH. unfold ta_more, ta_push2, ta_push_node, ta_push_sep. cbn. rewrite <- !app_assoc. reflexivity.
Qed.

Section VarArgs.
Variable U : unicode.
Variable n : nat.

Ltac one_turn :=
  intros v0 s0 [x0 t0] s0' (f & s1 & A & B & D & F & G & I); cbn [fst snd] in *; pick; seeing G; open_fn; sim.
Lemma va_mul_turn : forall v s x s', rest_turn U n [F_var_args_assignments] PyComa s x s' ->
  va_mul_step U (run U n) v s = Ok (true, va_push2 v x) s'.
Proof. one_turn. Qed.
Lemma va_div_turn : forall v s x s', rest_turn U n [F_var_args_assignments] PyComa s x s' ->
  va_div_step U (run U n) v s = Ok (true, va_push2 v x) s'.
Proof. one_turn. Qed.
Lemma va_main_turn : forall v s x s', rest_turn U n [F_var_args_assignments] PyComa s x s' ->
  va_main_step U n (run U n) v s = Ok (true, va_push2 v x) s'.
Proof. one_turn. Qed.
Lemma ta_mul_turn : forall p v s x s', rest_turn U n [F_test] PyComa s x s' ->
  ta_mul_step U (run U n) p v s = Ok (true, ta_push2 v x) s'.
Proof. intros p. one_turn. Qed.
Lemma ta_main_turn : forall p v s x s', rest_turn U n [F_test] PyComa s x s' ->
  ta_main_step U n (run U n) p v s = Ok (true, ta_push2 v x) s'.
Proof. intros p. one_turn. Qed.

(** a loop over items that stops, or whose last turn is special *)
Lemma va_loop : forall (step : var_args -> M (bool * var_args)) s is s' m v v' s2,
  each (rest_turn U n [F_var_args_assignments] PyComa) s is s' ->
  (forall v s x s', rest_turn U n [F_var_args_assignments] PyComa s x s' -> step v s = Ok (true, va_push2 v x) s') ->
  length is < m ->
  step (va_more v (map fst is) (map snd is) None None) s' = Ok (false, v') s2 ->
  while_ m step v s = Ok v' s2.
Proof. intros. eapply each_run; [eassumption|eassumption|assumption|]. rewrite fold_va. assumption. Qed.
Lemma ta_loop : forall (step : type_args -> M (bool * type_args)) s is s' m v v' s2,
  each (rest_turn U n [F_test] PyComa) s is s' ->
  (forall v s x s', rest_turn U n [F_test] PyComa s x s' -> step v s = Ok (true, ta_push2 v x) s') ->
  length is < m ->
  step (ta_more v (map fst is) (map snd is) None None) s' = Ok (false, v') s2 ->
  while_ m step v s = Ok v' s2.
Proof. intros. eapply each_run; [eassumption|eassumption|assumption|]. rewrite fold_ta. assumption. Qed.

Definition star_kind (m : option (token * node)) : kind := match m with Some _ => PyMul | None => PyPower end.
Lemma va_main_end : forall v s t s1 u ns ts m w s',
  ps_symbol s = inl t -> tk_kind t = PyComa -> advance U s = Ok tt s1 ->
  ps_symbol s1 = inl u -> tk_kind u = star_kind m ->
  (forall v, (if m then va_mul_part U n (run U n) v u s1 else va_power_part U (run U n) v u s1)
     = Ok (va_more v ns ts m w) s') ->
  va_main_step U n (run U n) v s = Ok (false, va_more (va_push_sep v t) ns ts m w) s'.
Proof.
  intros v s t s1 u ns ts m w s' S K A S1 K1 H. open_fn.
  destruct m as [[a b]|]; cbn [star_kind] in *; sim; eapply bind_run; try apply H; reflexivity.
Qed.
Lemma va_div_end : forall v s u ns ts m w s',
  ps_symbol s = inl u -> tk_kind u = star_kind m -> va_coma v = true ->
  (forall v, (if m then va_mul_part U n (run U n) v u s else va_power_part U (run U n) v u s)
     = Ok (va_more v ns ts m w) s') ->
  on_symbol va_err (fun s20 =>
    if va_coma v && is PyMul s20 then do v3 <- va_mul_part U n (run U n) v s20; ret (false, v3)
    else if va_coma v && is PyPower s20 then do v3 <- va_power_part U (run U n) v s20; ret (false, v3)
    else ret (false, v)) s = Ok (false, va_more v ns ts m w) s'.
Proof.
  intros v s u ns ts m w s' S K Z H. eapply on_symbol_run; [eassumption|]. rewrite Z. cbn [andb].
  destruct m as [[a b]|]; cbn [star_kind] in *; repeat decide_is; eapply bind_run; try apply H; reflexivity.
Qed.
Lemma ta_main_end : forall p v s t s1 u ns ts m w s',
  ps_symbol s = inl t -> tk_kind t = PyComa -> advance U s = Ok tt s1 ->
  ps_symbol s1 = inl u -> tk_kind u = star_kind m ->
  (forall p v, (if m then ta_mul_part U n (run U n) p v u s1 else ta_power_part U (run U n) v u s1)
     = Ok (ta_more v ns ts m w) s') ->
  ta_main_step U n (run U n) p v s = Ok (false, ta_more (ta_push_sep v t) ns ts m w) s'.
Proof.
  intros p v s t s1 u ns ts m w s' S K A S1 K1 H. open_fn.
  destruct m as [[a b]|]; cbn [star_kind] in *; sim; eapply bind_run; try apply (H p); reflexivity.
Qed.
End VarArgs.

Lemma E_complete_all : forall U,
  (forall f l la x, E f l la x -> K_E U f l la x) /\
  (forall f l la x, E_chain f l la x -> K_chain U f l la x) /\
  (forall f l la o, E_opt f l la o -> K_opt U f l la o) /\
  (forall f l la xs, E_many f l la xs -> K_many U f l la xs) /\
  (forall fs k l la xs ts, E_rest fs k l la xs ts -> K_rest U fs k l la xs ts) /\
  (forall fs k l la xs ts, E_items fs k l la xs ts -> K_items U fs k l la xs ts) /\
  (forall d s l la x, E_entry d s l la x -> K_entry U d s l la x) /\
  (forall s l la x, E_set_first s l la x -> K_set_first U s l la x) /\
  (forall s l la xs ts, E_set_rest s l la xs ts -> K_set_rest U s l la xs ts) /\
  (forall l la ns ts m w, E_stars l la ns ts m w -> K_stars U l la ns ts m w) /\
  (forall l la ns ts m w, E_type_stars l la ns ts m w -> K_type_stars U l la ns ts m w) /\
  (forall l la xs, E_assigns l la xs -> K_assigns U l la xs) /\
  (forall l la a x b, E_import_list l la a x b -> K_import_list U l la a x b).
Proof.
  intros U. apply E_mutual; intros.
  all: try (rule; fail).
  - (* strings *)
    intros s s' R V. set_view V. unread.
    pose proof (tokens_each U (fun t => tk_kind t = T_AtomString) _ _ _ R H0) as EA.
    pose proof (ev_above (S (S (S (length (map snd l)))))).
    facts; unfold C; apply ev_S; gather; cbn [run body]; open_fn; sim.
    all: eapply bind_run; [eapply tokens_run; [eassumption | intros; cbv beta in *; open_fn; sim | lia | open_fn; sim] | sim].
  - (* trailers *)
    destruct xs as [|x0 xs]; [contradiction|].
    rule; cbn [app]; sim.
  - (* binary *)
    intros s s' R V. set_view V. destruct (H1 s s' R eq_refl g ops H) as (k & EV). facts.
    pose proof (ev_above (S (S k))).
    unfold C. apply ev_S. gather.
    match goal with X : exists _, _ |- _ => destruct X as (y0 & s0 & RUN & LOOP) end.
    destruct f; try discriminate H; injection H as <- <-; cbn [run body continues binary map fst app] in *; open_fn.
    all: eapply bind_run; [apply position_run|]; eapply bind_run; [eassumption|].
    all: apply (while_split _ k); [lia|].
    all: etransitivity; [apply LOOP|]; apply while_stop; [lia|]; open_fn; sim.
  - (* lambda *)
    destruct cond; rule.
  - intros s s' R V. set_view V. pose proof (H1 s s' R eq_refl) as RUN. unfold C in RUN. unread. parse.
  - intros s s' R V. set_view V. pose proof (H1 s s' R eq_refl) as RUN. unfold C in RUN. unread. parse.
  - (* testlist_comp *)
    prepare.
    all: destruct is as [|[y t] is]; cbn [map fst snd] in *.
    1, 3: match goal with X : ev (fun n => each _ _ [] _) |- _ =>
        destruct X as (kk & X); specialize (X kk ltac:(lia)); inversion X; subst end; merge; parse.
    all: match goal with X : ev (fun n => each _ _ (_ :: _) _) |- _ =>
        assert (SEP : exists u, ps_symbol x1 = inl u /\ tk_kind u = PyComa)
          by (destruct X as (kk & X); specialize (X kk ltac:(lia)); inversion X as [|? ? ? ? ? (ff & ss & A1 & A2 & A3) ?]; subst; eauto) end;
      destruct SEP as (u & SU & KU); merge; parse.
  - (* exprlist *)
    prepare.
    all: destruct is as [|[y t] is]; cbn [map fst snd] in *; [contradiction|]; parse; cbn [map fst snd]; sim.
  - prepare.
    all: destruct is as [|[y t0] is]; parse; cbn [map fst snd app]; sim.
  - prepare.
    all: destruct is as [|[y t] is]; cbn [map fst snd] in *; [contradiction|]; parse; cbn [map fst snd]; sim.
  - prepare.
    all: destruct is as [|[y t0] is]; parse; cbn [map fst snd app]; sim.
  - (* dictorset_maker *)
    intros s s' R V. set_view V. starts. destruct (H0 s s' R eq_refl) as (F & _). facts. parse.
  - intros s s' R V. set_view V. unread. starts. edestruct (H0 s) as (F & _); [eassumption|viewing|].
    facts. parse.
  - intros s s' R V. set_view V. unread. starts. edestruct (H0 s) as (F & _); [eassumption|viewing|].
    edestruct (H3 x1 s') as (_ & F2); [eassumption|viewing|].
    specialize (F2 _ _ ltac:(eassumption) H1 ltac:(eassumption)).
    facts. parse.
    eapply bind_run; [apply while_stop; [lia|apply H8]|]. sim.
  - intros s s' R V. set_view V. unread. starts.
    pose proof (H0 s _ ltac:(eassumption) ltac:(viewing)) as F.
    edestruct H2 as (is & M1 & M2 & EV); [eassumption|viewing|]. subst.
    pose proof (ev_above (S (S (S (length is))))). facts. parse.
    eapply bind_run.
    { eapply (each_run _ _ (set_turn U n (pos s)) (set_step U (run U n) (pos s)) push2); [eassumption| |lia|].
      - intros [ns ts] s0 [y t] s1 T. apply T.
      - rewrite fold_push2. cbn [fst snd app]. open_fn; sim. }
    cbv beta iota. sim.
  - intros s s' R V. set_view V. unread. starts.
    pose proof (H0 s _ ltac:(eassumption) ltac:(viewing)) as F.
    edestruct H2 as (is & M1 & M2 & EV); [eassumption|viewing|]. subst.
    pose proof (ev_above (S (S (S (length is))))). facts. parse.
    eapply bind_run.
    { eapply (while_split _ (length is)); [lia|].
      erewrite (each_loop _ _ (set_turn U n (pos s)) (set_step U (run U n) (pos s)) push2); [| |eassumption].
      2: intros [ns ts] s0 [y t0] s1 T; apply T.
      rewrite fold_push2. cbn [fst snd app].
      replace (n - length is) with (S (n - length is - 1)) by lia.
      erewrite while_turn by (open_fn; sim). apply while_stop; [lia|]. open_fn; sim. }
    cbv beta iota. sim.
  - (* testlist_star_expr *)
    prepare.
    all: parse; cbn [rev app]; sim.
  - prepare.
    all: parse; apply star_end; assumption.
  - prepare.
    all: parse; apply star_end; destruct is; discriminate.
  - (* var_args_list *)
    intros s s' R V. set_view V. starts. destruct (H0 s s' R eq_refl) as (t & S & K & EV).
    unfold C; apply ev_S; gather; cbn [run body]; open_fn.
    eapply bind_run; [apply position_run|]. cbv zeta.
    eapply bind_run with (a := va_more (mk_va [] [] None None None None None false) ns ts m w) (s1 := s').
    { eapply on_symbol_run; [eassumption|]. destruct m as [[a b]|]; repeat decide_is; apply H1. }
    sim; destruct m as [[a b]|], w as [[a2 b2]|]; reflexivity.
  - prepare. parse. eapply bind_run.
    { sim. eapply va_loop; [eassumption|apply va_main_turn|lia|open_fn; sim]. }
    sim.
  - prepare. stars. parse. eapply bind_run.
    { sim. eapply va_loop; [eassumption|apply va_main_turn|lia|]. eapply va_main_end; eassumption. }
    sim. cbn. rewrite <- !app_assoc. destruct m as [[a b]|], w as [[a2 b2]|]; reflexivity.
  - prepare. parse. eapply bind_run.
    { sim. eapply va_loop; [eassumption|apply va_main_turn|lia|]. open_fn; sim. 
      eapply bind_run; [eapply va_loop; [eassumption|apply va_div_turn|lia|open_fn; sim]|]. sim.
      cbn [va_coma va_set_coma va_push_sep va_push_node va_set_div va_more andb]. reflexivity. }
    sim. cbn. rewrite <- !app_assoc. reflexivity.
  - prepare. stars. parse. eapply bind_run.
    { sim. eapply va_loop; [eassumption|apply va_main_turn|lia|]. open_fn; sim. 
      eapply bind_run; [eapply va_loop; [eassumption|apply va_div_turn|lia|open_fn]|].
      { destruct m as [[a b]|]; sim. }
      cbv beta iota. eapply va_div_end; [eassumption|eassumption|reflexivity|eassumption]. }
    sim. cbn. rewrite <- !app_assoc. destruct m as [[a b]|], w as [[a2 b2]|]; reflexivity.
  - (* expr_stmt *)
    prepare. assigns. unfold C; apply ev_S; gather.
    match goal with D : each _ _ _ _, Z : xs <> [] |- _ => destruct (assigns_first _ _ _ _ _ D Z) as (? & ? & ?) end.
    cbn [run body]; open_fn; sim.
    eapply bind_run; [eapply assigns_run; [eassumption|lia|open_fn; sim]|]. sim.
  - prepare. assigns. unfold C; apply ev_S; gather.
    match goal with D : each _ _ _ _, Z : xs <> [] |- _ => destruct (assigns_first _ _ _ _ _ D Z) as (? & ? & ?) end.
    cbn [run body]; open_fn; sim.
    eapply bind_run; [eapply assigns_run; [eassumption|lia|open_fn; sim]|]. sim.
  - (* import_from *)
    match goal with H : K_import_list _ _ _ _ _ _, G : E_import_list _ _ _ _ _ |- _ =>
      clear G; destruct a as [?|], x as [?|], b as [?|]; cbn [K_import_list] in H; try contradiction
    end;
    repeat match goal with
    | H : _ /\ _ |- _ => destruct H
    | H : exists _, _ |- _ => destruct H
    end; subst; prepare; dots; parse;
    (eapply bind_run;
      [eapply tokens_run;
        [eassumption | cbv beta; intros; open_fn; sim | lia | cbn [app]; open_fn; sim] |]); sim;
    match goal with Z : ?d <> [] |- _ =>
      destruct (rev (map snd d)) eqn:Q;
      [ exfalso; apply Z; rewrite <- map_rev in Q; apply map_eq_nil in Q;
        rewrite <- (rev_involutive d), Q; reflexivity | sim ] end.
  - (* dotted_name, global, nonlocal *)
    prepare; names; parse.
    (eapply bind_run; [eapply names_run; [eassumption | intros; open_fn; sim | lia | open_fn; sim] |]); sim.
  - prepare; names; parse.
    (eapply bind_run; [eapply names_run; [eassumption | intros; open_fn; sim | lia | open_fn; sim] |]); sim.
  - prepare; names; parse.
    (eapply bind_run; [eapply names_run; [eassumption | intros; open_fn; sim | lia | open_fn; sim] |]); sim.
  - (* decorators *)
    prepare. unfold C; apply ev_S; gather.
    match goal with D : each _ _ xs _, Z : xs <> [] |- _ => destruct D as [|? ? ? ? ? (? & ?) ?]; [contradiction|] end.
    match goal with D : sees _ _ |- _ => seeing D end.
    cbn [length] in *. cbn [run body]; open_fn; sim.
  - (* type_list *)
    intros s s' R V. set_view V. starts. stars.
    unfold C; apply ev_S; gather; cbn [run body]; open_fn.
    eapply bind_run; [apply position_run|]. cbv zeta.
    eapply bind_run with (a := ta_more (mk_ta [] [] None None None None) ns ts m w) (s1 := s').
    { eapply on_symbol_run; [eassumption|]. destruct m as [[a b]|]; repeat decide_is;
      apply (H0 (pos s)). }
    sim; destruct m as [[a b]|], w as [[a2 b2]|]; reflexivity.
  - prepare. parse. eapply bind_run.
    { sim. eapply ta_loop; [eassumption|apply ta_main_turn|lia|open_fn; sim]. }
    sim.
  - prepare. stars. parse. eapply bind_run.
    { sim. eapply ta_loop; [eassumption|apply ta_main_turn|lia|]. eapply ta_main_end; eassumption. }
    sim. cbn. rewrite <- !app_assoc. destruct m as [[a b]|], w as [[a2 b2]|]; reflexivity.
  - (* chains *)
    intros s s' R V g' ops' Q. rewrite H in Q. injection Q as <- <-. exists 0. set_view V. feed.
    gather. exists x, s'. split; [assumption|reflexivity].
  - intros s s' R V g' ops' Q. rewrite H in Q. injection Q as <- <-. set_view V. unread. starts. feed.
    match goal with IH : K_chain _ _ _ _ _, R : readx _ ?s l1 ?s1 |- _ =>
      destruct (IH s s1 R ltac:(viewing) _ _ H) as (k & EV); clear IH end.
    exists (S k). gather.
    match goal with EV : exists _ _, _ |- _ => destruct EV as (y & s0 & RUN0 & W) end.
    exists y, s0. split; [exact RUN0|]. intros j.
    replace (S k + j) with (k + S j) by lia. rewrite W. apply while_turn.
    destruct f; try discriminate; injection H as <- <-; pick;
      repeat match goal with Z : sees _ _ |- _ => seeing Z end; cbn [step_of]; open_fn; sim.
  - intros s s' R V g' ops' Q. set_view V. unread. starts. feed.
    match goal with IH : K_chain _ _ _ _ _, R : readx _ ?s l1 ?s1 |- _ =>
      destruct (IH s s1 R ltac:(viewing) _ _ Q) as (k & EV); clear IH end.
    injection Q as <- <-. exists (S k). gather.
    match goal with EV : exists _ _, _ |- _ => destruct EV as (y & s0 & RUN0 & W) end.
    exists y, s0. split; [exact RUN0|]. intros j.
    replace (S k + j) with (k + S j) by lia. rewrite W. apply while_turn.
    cbn [step_of]; open_fn; sim.
  - intros s s' R V g' ops' Q. set_view V. unread. starts. feed.
    match goal with IH : K_chain _ _ _ _ _, R : readx _ ?s l1 ?s1 |- _ =>
      destruct (IH s s1 R ltac:(viewing) _ _ Q) as (k & EV); clear IH end.
    injection Q as <- <-. exists (S k). gather.
    match goal with EV : exists _ _, _ |- _ => destruct EV as (y & s0 & RUN0 & W) end.
    exists y, s0. split; [exact RUN0|]. intros j.
    replace (S k + j) with (k + S j) by lia. rewrite W. apply while_turn.
    cbn [step_of]; open_fn; sim.
  - (* options and lists *) reflexivity.
  - split; assumption.
  - intros s s' R V. apply readx_nil in R. subst. apply ev_always. intros n. constructor.
  - intros s s' R V. set_view V. unread.
    pose proof (E_sees U _ _ _ _ _ _ H ltac:(eassumption)) as Z. feed. lists.
    all: gather; econstructor; [split|]; eassumption.
  - intros s s' R V. apply readx_nil in R. subst. exists []. repeat split. apply ev_always. intros n. constructor.
  - intros s s' R V. set_view V. unread.
    pose proof (E_sees U _ _ _ _ _ _ H1 ltac:(eassumption)) as Z. feed. lists.
    exists ((x, t) :: is). split; [reflexivity|]. split; [reflexivity|].
    gather; econstructor; [|eassumption]. unfold rest_turn; eauto 10.
  - intros s s' R V. set_view V. unread.
    pose proof (E_sees U _ _ _ _ _ _ H0 ltac:(eassumption)) as Z. feed. lists.
    do 4 eexists. split; [reflexivity|]. split; [reflexivity|]. split; [eassumption|]. split; [exact Z|].
    split; eassumption.
  - (* entries *)
    intros s0 s' R V. set_view V. unread. feed. split; [exact I|].
    intros s1 u S K A. gather. try intros ns ts. cbn [fst snd]. open_fn. sim.
  - intros s0 s' R V. set_view V. unread. feed. split; [exact I|].
    intros s1 u S K A. gather. try intros ns ts. cbn [fst snd]. open_fn. sim.
  - intros s0 s' R V. set_view V. unread. feed. split.
    + gather. open_fn. sim.
    + intros s1 u S K A. gather. try intros ns ts. cbn [fst snd]. open_fn. sim.
  - intros s0 s' R V. set_view V. unread. feed. split.
    + gather. open_fn. sim.
    + intros s1 u S K A. gather. try intros ns ts. cbn [fst snd]. open_fn. sim.
  - intros s0 s' R V. set_view V. unread. feed. gather. open_fn. sim.
  - intros s0 s' R V. set_view V. unread. feed. facts. gather. open_fn. sim.
  - intros s0 s' R V. apply readx_nil in R. subst. exists []. repeat split. apply ev_always. intros n. constructor.
  - intros s0 s' R V. set_view V. unread.
    match goal with IH : K_entry _ _ _ l1 _ _, R : readx _ ?a l1 ?b |- _ =>
      destruct (IH a b R ltac:(viewing)) as (_ & EV); clear IH end.
    match goal with IH : K_set_rest _ _ l2 _ _ _, R : readx _ ?a l2 ?b |- _ =>
      destruct (IH a b R ltac:(viewing)) as (is & <- & <- & EV2); clear IH end.
    exists ((x, t) :: is). split; [reflexivity|]. split; [reflexivity|].
    eapply ev_use; [eapply EV; eassumption|]. gather. econstructor; [|eassumption]. assumption.
  - (* stars *)
    intros s s' R V. set_view V. unread. feed. facts. exists t. split; [assumption|]. split; [assumption|].
    gather. open_fn. sim. finish v.
  - intros s s' R V. set_view V. unread. feed. facts. exists t. split; [assumption|]. split; [assumption|].
    gather. open_fn. sim. finish v.
  - intros s s' R V. set_view V. unread. the_items. facts. exists t. split; [assumption|]. split; [assumption|].
    gather. open_fn. sim. eapply va_loop; [eassumption|apply va_mul_turn|lia|open_fn; sim; finish v].
  - intros s s' R V. set_view V. unread. the_items. stars. facts. exists t. split; [assumption|]. split; [assumption|].
    gather. open_fn. sim. eapply va_loop; [eassumption|apply va_mul_turn|lia|].
    open_fn. eapply on_symbol_run; [eassumption|]. repeat decide_is. cbv beta iota zeta.
    eapply bind_run; [eassumption|]. eapply on_symbol_run; [eassumption|]. repeat decide_is.
    eapply bind_run; [match goal with T : forall v, _ = Ok _ _ |- _ => apply T end|]. finish v.
  - intros s s' R V. set_view V. unread. feed. facts. exists t. split; [assumption|]. split; [assumption|].
    gather. open_fn. sim. finish v.
  - intros s s' R V. set_view V. unread. the_items. facts. exists t. split; [assumption|]. split; [assumption|].
    gather. open_fn. sim. eapply ta_loop; [eassumption|apply ta_mul_turn|lia|open_fn; sim; finish v].
  - intros s s' R V. set_view V. unread. the_items. stars. facts. exists t. split; [assumption|]. split; [assumption|].
    gather. open_fn. sim. eapply ta_loop; [eassumption|apply ta_mul_turn|lia|].
    open_fn. eapply on_symbol_run; [eassumption|]. repeat decide_is. cbv beta iota zeta.
    eapply bind_run; [eassumption|]. eapply on_symbol_run; [eassumption|]. repeat decide_is.
    eapply bind_run; [match goal with T : nat -> forall v, _ = Ok _ _ |- _ => apply (T 0) end|]. finish v.
  - (* assigns *)
    intros s s' R V. apply readx_nil in R. subst. apply ev_always. intros n. constructor.
  - intros s s' R V. set_view V. unread. pick; feed; assigns; gather; (econstructor; [|eassumption]);
    (split; [assumption|]; split; [assumption|]); intros; cbn [fst snd]; open_fn; sim.
  - split; eauto.
  - split; [assumption|]. split; [assumption|]. eauto 10.
  - split; assumption.
Qed.

Theorem E_complete : forall U f l la x, E f l la x -> K_E U f l la x.
Proof. intros U. apply (E_complete_all U). Qed.
