(** No token is lost, duplicated or invented: the tokens stored in a tree are those of its phrase. *)
From Coq Require Import List Arith Lia Permutation.
From Verif Require Import Chars Token Node NodeView ParserState Parser GrammarSpec ParseBasics SoundBasics Soundness
  FirstSets.
Import ListNotations.
Local Open Scope nat_scope.

(** Weights of tokens, to count them. *)
Fixpoint weigh (w : token -> nat) (l : list token) : nat :=
  match l with t :: l' => w t + weigh w l' | [] => 0 end.

Lemma weigh_app : forall w a b, weigh w (a ++ b) = weigh w a + weigh w b.
Proof. intros w a b. induction a; cbn; lia. Qed.
Lemma weigh_cons : forall w t l, weigh w (t :: l) = w t + weigh w l.
Proof. reflexivity. Qed.
Lemma weigh_rev : forall w a, weigh w (rev a) = weigh w a.
Proof. intros w a. induction a; cbn; auto. rewrite weigh_app. cbn. lia. Qed.

Definition weigh_nodes (w : token -> nat) (xs : list node) : nat := weigh w (flat_map tokens xs).
Lemma weigh_nodes_app : forall w a b, weigh_nodes w (a ++ b) = weigh_nodes w a + weigh_nodes w b.
Proof. intros w a b. unfold weigh_nodes. rewrite flat_map_app. apply weigh_app. Qed.
Lemma weigh_nodes_rev : forall w a, weigh_nodes w (rev a) = weigh_nodes w a.
Proof.
  intros w a. induction a; cbn [rev]; auto. rewrite weigh_nodes_app, IHa. unfold weigh_nodes. cbn.
  rewrite app_nil_r, weigh_app. lia.
Qed.

(** The look-ahead stored by a decorator. *)
Definition stored (f : fn) (la : look) : list token :=
  match f with
  | F_decorator | F_decorators => match snd la with Some t => [t] | None => [] end
  | _ => []
  end.

Definition opt_weight (w : token -> nat) (o : option node) : nat :=
  match o with Some x => weigh w (tokens x) | None => 0 end.
Definition pair_weight (w : token -> nat) (o : option (token * node)) : nat :=
  match o with Some (t, x) => w t + weigh w (tokens x) | None => 0 end.
Definition tok_weight (w : token -> nat) (o : option token) : nat :=
  match o with Some t => w t | None => 0 end.

Definition phrase (w : token -> nat) (l : list ptok) : nat := weigh w (map snd l).
Lemma phrase_app : forall w a b, phrase w (a ++ b) = phrase w a + phrase w b.
Proof. intros. unfold phrase. rewrite map_app. apply weigh_app. Qed.
Lemma phrase_cons : forall w p t l, phrase w ((p, t) :: l) = w t + phrase w l.
Proof. reflexivity. Qed.
Lemma phrase_nil : forall w, phrase w [] = 0.
Proof. reflexivity. Qed.

Definition assigns_weight (w : token -> nat) (xs : list (token * node)) : nat :=
  weigh w (flat_map (fun p => fst p :: tokens (snd p)) xs).

Section Weights.
Variable w : token -> nat.

Lemma names_weight : forall k l ns ts, E_names k l ns ts -> weigh w ns + weigh w ts = phrase w l.
Proof. induction 1; cbn [weigh] in *; auto. rewrite !phrase_cons. lia. Qed.

Lemma decorator_ahead : forall l la x, E F_decorator l la x -> exists q u, la = (q, Some u) /\ tk_kind u = T_Newline.
Proof. intros l la x H. inversion H; subst; try discriminate; eauto. Qed.
Lemma decorator_one : forall l la xs, E_many F_decorator l la xs -> length xs <= 1.
Proof.
  intros l la xs H. inversion H as [|? l1 x l2 xs' ? E1 E2]; subst; cbn; [lia|].
  inversion E2 as [|? l3 y l4 ys ? E3 E4]; subst; cbn; [lia|]. exfalso.
  apply decorator_ahead in E1. destruct E1 as (q & u & A & K).
  apply E_first in E3. destruct E3 as (p & t & l' & -> & I). cbn in A, I. injection A as <- <-.
  rewrite K in I. intuition discriminate.
Qed.


(** A statement with an annotation is parsed after its first expression, which is a parameter. *)
Definition carried (f : fn) : nat := match f with F_ann_assign _ a => weigh w (tokens a) | _ => 0 end.
Definition base (f : fn) : bool :=
  match f with F_ann_assign _ _ | F_decorator | F_decorators => false | _ => true end.
Definition unit_of (f : fn) (l : list ptok) (la : look) (n : nat) : Prop :=
  n = carried f + phrase w l + weigh w (stored f la).
Lemma base_unit : forall f l la n, base f = true -> unit_of f l la n -> n = phrase w l.
Proof. intros f l la n B H. unfold unit_of in H. destruct f; try discriminate; cbn in H; lia. Qed.

Lemma nodes_fold : forall xs, weigh w (flat_map tokens xs) = weigh_nodes w xs.
Proof. reflexivity. Qed.
Lemma nodes_cons : forall x xs, weigh_nodes w (x :: xs) = weigh w (tokens x) + weigh_nodes w xs.
Proof. intros. unfold weigh_nodes. cbn. apply weigh_app. Qed.
Lemma nodes_nil : weigh_nodes w [] = 0.
Proof. reflexivity. Qed.
Lemma phrase_fold : forall l, weigh w (map snd l) = phrase w l.
Proof. reflexivity. Qed.
Lemma opt_fold : forall o, weigh w (match o with Some a => tokens a | None => [] end) = opt_weight w o.
Proof. destruct o; reflexivity. Qed.
Lemma tok_fold : forall o : option token, weigh w (match o with Some a => [a] | None => [] end) = tok_weight w o.
Proof. destruct o; cbn; auto. Qed.
Lemma assigns_fold : forall xs,
  weigh w (flat_map (fun p : token * node => fst p :: tokens (snd p)) xs) = assigns_weight w xs.
Proof. reflexivity. Qed.
Lemma assigns_cons_weight : forall t x xs,
  assigns_weight w ((t, x) :: xs) = w t + weigh w (tokens x) + assigns_weight w xs.
Proof. intros. unfold assigns_weight. cbn. rewrite weigh_app. lia. Qed.
Lemma assigns_nil_weight : assigns_weight w [] = 0.
Proof. reflexivity. Qed.
Lemma pair_split : forall m, pair_weight w m = tok_weight w (fst_opt m) + opt_weight w (snd_opt m).
Proof. destruct m as [[t x]|]; reflexivity. Qed.
Lemma base_in : forall f fs, forallb base fs = true -> In f fs -> base f = true.
Proof. intros f fs H. rewrite forallb_forall in H. auto. Qed.

Definition infix_ok (c : infix) : Prop :=
  forall a b x t y, weigh w (tokens (c a b x t y)) = weigh w (tokens x) + w t + weigh w (tokens y).
Lemma binary_base : forall f g ops, binary f = Some (g, ops) ->
  base f = true /\ base g = true /\ forall k c, In (k, c) ops -> infix_ok c.
Proof.
  intros f g ops H. destruct f; try discriminate H; injection H as <- <-;
    (split; [reflexivity|split; [reflexivity|]]); intros k c I; cbn [In] in I;
    repeat (destruct I as [I | I]; [injection I as <- <-; intros a b x t y; cbn [tokens app weigh];
      rewrite weigh_app; cbn [weigh]; lia|]); destruct I.
Qed.
Lemma augmented_ok : forall k c, In (k, c) augmented -> infix_ok c.
Proof.
  intros k c I. unfold augmented in I. cbn [In] in I.
    repeat (destruct I as [I | I]; [injection I as <- <-; intros a b x t y; cbn [tokens app weigh];
      rewrite weigh_app; cbn [weigh]; lia|]); destruct I.
Qed.
Lemma base_full : forall f l la n, base f = true -> n = phrase w l -> unit_of f l la n.
Proof. intros f l la n B H. unfold unit_of. destruct f; try discriminate; cbn; lia. Qed.

Ltac in_cases :=
  repeat match goal with
  | H : In _ constants |- _ => unfold constants in H
  | H : In _ unary |- _ => unfold unary in H
  | H : In _ augmented |- _ => unfold augmented in H
  | H : binary _ = Some _ |- _ => apply binary_base in H
  | H : _ = ?f |- _ => is_var f; subst f
  | H : _ /\ _ |- _ => destruct H
  | H : E_names _ _ _ _ |- _ => apply names_weight in H
  | H : In _ [] |- _ => destruct H
  | H : In _ (_ :: _) |- _ => destruct H as [H | H]
  | H : _ :: _ = _ :: _ |- _ => injection H as; subst
  | H : (_, _) = (_, _) |- _ => injection H as; subst
  | H : true = true -> _ |- _ => specialize (H eq_refl)
  end.
Ltac weigh_it :=
  unfold unit_of in *;
  cbn [tokens stored carried base forallb andb opt_weight tok_weight weigh fst_opt snd_opt snd fst app] in *;
  repeat rewrite ?weigh_app, ?weigh_cons, ?weigh_rev, ?nodes_fold, ?weigh_nodes_rev, ?weigh_nodes_app, ?nodes_cons, ?nodes_nil,
    ?phrase_fold, ?opt_fold, ?tok_fold, ?assigns_fold, ?phrase_app, ?phrase_cons, ?phrase_nil in *;
  cbn [weigh] in *;
  rewrite ?assigns_cons_weight, ?assigns_nil_weight, ?pair_split, ?nodes_cons, ?nodes_nil, ?phrase_nil in *; cbn [opt_weight tok_weight fst_opt snd_opt] in *;
  try lia.

Lemma E_weight :
  (forall f l la x, E f l la x -> unit_of f l la (weigh w (tokens x))) /\
  (forall f l la x, E_chain f l la x -> weigh w (tokens x) = phrase w l) /\
  (forall f l la o, E_opt f l la o -> base f = true -> opt_weight w o = phrase w l) /\
  (forall f l la xs, E_many f l la xs ->
     (base f = true -> weigh_nodes w xs = phrase w l) /\
     (f = F_decorator -> xs <> [] -> length xs <= 1 -> weigh_nodes w xs = phrase w l + weigh w (stored F_decorator la))) /\
  (forall fs k l la xs ts, E_rest fs k l la xs ts -> forallb base fs = true ->
     weigh_nodes w xs + weigh w ts = phrase w l) /\
  (forall fs k l la xs ts, E_items fs k l la xs ts -> forallb base fs = true ->
     weigh_nodes w xs + weigh w ts = phrase w l) /\
  (forall d s l la x, E_entry d s l la x -> weigh w (tokens x) = phrase w l) /\
  (forall s l la x, E_set_first s l la x -> weigh w (tokens x) = phrase w l) /\
  (forall s l la xs ts, E_set_rest s l la xs ts -> weigh_nodes w xs + weigh w ts = phrase w l) /\
  (forall l la ns ts m v, E_stars l la ns ts m v ->
     weigh_nodes w ns + weigh w ts + pair_weight w m + pair_weight w v = phrase w l) /\
  (forall l la ns ts m v, E_type_stars l la ns ts m v ->
     weigh_nodes w ns + weigh w ts + pair_weight w m + pair_weight w v = phrase w l) /\
  (forall l la xs, E_assigns l la xs -> assigns_weight w xs = phrase w l) /\
  (forall l la a x b, E_import_list l la a x b -> tok_weight w a + opt_weight w x + tok_weight w b = phrase w l).
Proof.
  apply E_mutual; intros; in_cases; try (weigh_it; fail).
  all: repeat match goal with cond : bool |- _ => destruct cond end; try (weigh_it; fail).
  - apply base_full; assumption.
  - pose proof (decorator_one _ _ _ H) as L.
    match goal with H : F_decorator = F_decorator -> _ |- _ => specialize (H eq_refl ltac:(assumption) L) end. weigh_it.
  - eapply base_unit; eauto.
  - match goal with H : unit_of g _ _ _ |- _ => apply base_unit in H; [|assumption] end.
    match goal with H : forall k c, In (k, c) ops -> _, I : In _ ops |- _ => rewrite (H _ _ I) end. weigh_it.
  - match goal with H : unit_of _ _ _ _ |- _ => apply base_unit in H; [|assumption] end. assumption.
  - split; [reflexivity|congruence].
  - split.
    + intros B. apply base_unit in H0; auto. weigh_it. intuition lia.
    + intros -> _ L. destruct xs; [|cbn in L; lia]. inversion H1; subst. cbn [ahead] in *. weigh_it.
  - match goal with H : unit_of _ _ _ _ |- _ => apply base_unit in H; [|eauto using base_in] end. weigh_it. intuition lia.
  - match goal with H : unit_of _ _ _ _ |- _ => apply base_unit in H; [|eauto using base_in] end. weigh_it. intuition lia.
Qed.

Lemma E_tokens : forall f l la x, base f = true -> E f l la x -> weigh w (tokens x) = phrase w l.
Proof. intros f l la x B H. apply (proj1 E_weight) in H. eapply base_unit; eauto. Qed.

Lemma decorators_ahead : forall l la x, E F_decorators l la x -> exists q u, la = (q, Some u) /\ tk_kind u = T_Newline.
Proof.
  intros l la x H. inversion H; subst; try discriminate.
  match goal with M : E_many _ _ _ ?xs |- _ => pose proof (decorator_one _ _ _ M) as L; inversion M; subst end; [congruence|].
  match goal with M : E_many _ _ _ ?xs |- _ => destruct xs; [|cbn in L; lia]; inversion M; subst end.
  cbn [ahead] in *. eauto using decorator_ahead.
Qed.
Lemma decorated_no : forall f c l1 a l2 b c' la, E F_decorators l1 (ahead l2 la) a ->
  In f [F_class_def; F_func_def; F_async_func_def] -> B f c l2 la b c' -> False.
Proof.
  intros f c l1 a l2 b c' la D F H.
  apply decorators_ahead in D. destruct D as (q & u & A & K).
  apply B_first in H. destruct H as (p & t & l' & -> & I).
  cbn in A. injection A as <- <-. rewrite K in I. in_cases; cbn in I; intuition discriminate.
Qed.
Lemma not_decorated : forall c l la x c', ~ B F_decorated c l la x c'.
Proof. intros c l la x c' H. inversion H; subst. eapply decorated_no; eauto. Qed.

Lemma opt_token_weight : forall k l o, opt_token k l o -> tok_weight w o = phrase w l.
Proof. destruct 1; weigh_it. Qed.
Lemma comment_weight : forall l a b, comment_line l a b -> tok_weight w a + tok_weight w b = phrase w l.
Proof. destruct 1; weigh_it. Qed.
Lemma opt_weight_E : forall f l la o, base f = true -> E_opt f l la o -> opt_weight w o = phrase w l.
Proof. intros f l la o H D. destruct D; weigh_it. eauto using E_tokens. Qed.
Lemma items_weight : forall fs k l la xs ts, forallb base fs = true -> E_items fs k l la xs ts ->
  weigh_nodes w xs + weigh w ts = phrase w l.
Proof. intros fs k l la xs ts B H. exact (proj1 (proj2 (proj2 (proj2 (proj2 (proj2 E_weight))))) _ _ _ _ _ _ H B). Qed.
Lemma returns_weight : forall l la o, returns l la o -> pair_weight w o = phrase w l.
Proof. destruct 1; weigh_it. apply E_tokens in H0; [lia|reflexivity]. Qed.
Lemma bases_weight : forall l a o b, bases l a o b -> tok_weight w a + opt_weight w o + tok_weight w b = phrase w l.
Proof. destruct 1; weigh_it. apply opt_weight_E in H1; [lia|reflexivity]. Qed.
Lemma with_items_weight : forall l la a xs ts b, with_items l la a xs ts b ->
  tok_weight w a + weigh_nodes w xs + weigh w ts + tok_weight w b = phrase w l.
Proof.
  destruct 1; match goal with D : E_items _ _ _ _ _ _ |- _ => apply items_weight in D; [|reflexivity] end; weigh_it.
Qed.
Definition what_weight (o : option (node * option (token * token))) : nat :=
  match o with
  | Some (x, Some (t, u)) => weigh w (tokens x) + w t + w u
  | Some (x, None) => weigh w (tokens x)
  | None => 0
  end.
Lemma except_what_weight : forall l la o, except_what l la o -> what_weight o = phrase w l.
Proof.
  destruct 1; cbn [what_weight]; auto;
    match goal with D : E _ _ _ _ |- _ => apply E_tokens in D; [|reflexivity] end; weigh_it.
Qed.

Lemma B_weight :
  (forall f c l la x c', B f c l la x c' -> weigh w (tokens x) = phrase w l) /\
  (forall f c l la o c', B_opt f c l la o c' -> opt_weight w o = phrase w l) /\
  (forall f c l la xs c', B_many f c l la xs c' -> weigh_nodes w xs = phrase w l).
Proof.
  apply B_mutual; intros;
  try match goal with D : E F_decorators _ _ _ |- _ => exfalso; eapply decorated_no; eassumption end;
  in_cases;
  repeat match goal with
  | D : E _ _ _ _ |- _ => apply E_tokens in D; [|reflexivity]
  | D : E_opt _ _ _ _ |- _ => apply opt_weight_E in D; [|reflexivity]
  | D : opt_token _ _ _ |- _ => apply opt_token_weight in D
  | D : comment_line _ _ _ |- _ => apply comment_weight in D
  | D : returns _ _ _ |- _ => apply returns_weight in D
  | D : bases _ _ _ _ |- _ => apply bases_weight in D
  | D : with_items _ _ _ _ _ _ |- _ => apply with_items_weight in D
  | D : except_what _ _ _ |- _ => apply except_what_weight in D
  end; try (weigh_it; fail).
  - match goal with o : option (node * _) |- _ => destruct o as [[x [[v z]|]]|] end; cbn [what_weight] in *; weigh_it.
  - match goal with o : option (token * node) |- _ => destruct o as [[? ?]|] end; weigh_it.
Qed.
End Weights.

Lemma lines_weight : forall w c l la xs ts c', lines c l la xs ts c' ->
  weigh_nodes w xs + weigh w ts = phrase w l.
Proof.
  induction 1; [reflexivity| |].
  - rewrite phrase_cons, weigh_cons. lia.
  - rewrite phrase_app, nodes_cons. apply (proj1 (B_weight w)) in H. lia.
Qed.

(** The tokens a call stores besides those it reads: a look-ahead, and for an annotated
    assignment those of the target, which is an argument of the function. *)
Definition extra (f : fn) (la : look) (x : node) : list token :=
  match f, x with
  | F_ann_assign _ a, _ => tokens a
  | F_single_input, SingleInput _ _ (Some _) (Some _)
  | F_file_input, _ | F_eval_input, _ | F_func_type_input, _ | F_decorator, _ | F_decorators, _ =>
      match snd la with Some t => [t] | None => [] end
  | _, _ => []
  end.

Lemma E_extra : forall w f l la x, E f l la x -> sort_of f = Plain ->
  weigh w (tokens x) = phrase w l + weigh w (extra f la x).
Proof.
  intros w f l la x H P. apply (proj1 (E_weight w)) in H. unfold unit_of in H. rewrite H.
  destruct f; try discriminate P; cbn [carried stored extra]; cbn [weigh]; lia.
Qed.
Lemma Input_extra : forall w f c l la x c', Input f c l la x c' ->
  weigh w (tokens x) = phrase w l + weigh w (extra f la x).
Proof.
  intros w f c l la x c' H.
  destruct H; cbn [tokens extra snd app opt_tokens];
    rewrite ?weigh_app, ?weigh_cons, ?nodes_fold, ?weigh_nodes_rev, ?weigh_rev, ?phrase_fold, ?phrase_app, ?phrase_cons;
    cbn [weigh].
  - apply (lines_weight w) in H. lia.
  - apply E_tokens with (w := w) in H; [|reflexivity]. lia.
  - apply E_tokens with (w := w) in H; [|reflexivity]. lia.
  - unfold phrase; cbn; lia.
  - apply E_tokens with (w := w) in H; [|reflexivity]. lia.
  - apply (proj1 (B_weight w)) in H. lia.
Qed.

Lemma token_eq_dec : forall a b : token, {a = b} + {a <> b}.
Proof.
  assert (K : forall a b : kind, {a = b} + {a <> b}).
  { intros a b. destruct (kind_eqb a b) eqn:D; [left|right].
    - apply kind_eqb_eq. assumption.
    - intros ->. assert (kind_eqb b b = true) by (apply kind_eqb_eq; reflexivity). congruence. }
  assert (S : forall a b : str, {a = b} + {a <> b}) by (apply list_eq_dec; apply N.eq_dec).
  repeat decide equality.
Defined.

Lemma count_weight : forall t l, count_occ token_eq_dec l t = weigh (fun u => if token_eq_dec u t then 1 else 0) l.
Proof.
  induction l as [|u l IH]; cbn [count_occ weigh]; [reflexivity|]. destruct (token_eq_dec u t); lia.
Qed.
Lemma weights_permutation : forall a b, (forall w, weigh w a = weigh w b) -> Permutation a b.
Proof. intros a b H. apply (Permutation_count_occ token_eq_dec). intros t. rewrite !count_weight. apply H. Qed.

Theorem tokens_kept : forall U fuel f s x s', run U fuel f s = Ok x s' ->
  exists s1 l, (if match sort_of f with Whole => true | _ => false end then advance U s = Ok tt s1 else s1 = s) /\
    reads U s1 l s' /\ Permutation (tokens x) (map snd l ++ extra f (view s') x).
Proof.
  intros U fuel f s x s' H. apply run_sound in H. unfold sound in H.
  destruct (sort_of f) eqn:S.
  - destruct H as (l & R & _ & D). exists s, l. repeat split; auto. apply weights_permutation. intros w.
    rewrite weigh_app. apply (E_extra w); auto.
  - destruct H as (l & R & D). exists s, l. repeat split; auto. apply weights_permutation. intros w.
    rewrite weigh_app. apply (proj1 (B_weight w)) in D. rewrite D.
    destruct f; try discriminate S; cbn [extra weigh]; unfold phrase; lia.
  - destruct H as (s1 & l & A & R & D). exists s1, l. repeat split; auto. apply weights_permutation. intros w.
    rewrite weigh_app. eapply Input_extra; eauto.
  - destruct H.
Qed.
