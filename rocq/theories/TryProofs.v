(** The except/except* flag of the parser: only try statements use it (C39). *)
From Coq Require Import List Arith Lia.
From Verif Require Import Chars SourceBuffer Token Tokenizer Node NodeView ParserState Parser GrammarSpec ParseBasics TreeSpec ParseSpec
  SoundBasics Soundness SpanProofs CompleteBasics CompleteBlocks Completeness ParseCorollaries DefectProofs.
Import ListNotations.
Local Open Scope nat_scope.

(** ** Trees without try statements *)
Notation plain_tree := no_try.
Lemma tree_plain : forall x, is_try x = false -> (forall z, In (Sub z) (items x) -> plain_tree z) -> plain_tree x.
Proof.
  intros x H I. unfold no_try. rewrite subnodes_items. constructor; [assumption|]. apply Forall_forall. intros y J.
  apply in_flat_map in J. destruct J as ([t|z] & J1 & J2); [destruct J2|]. specialize (I z J1). unfold no_try in I.
  rewrite Forall_forall in I. auto.
Qed.
Lemma plain_here : forall x, plain_tree x -> is_try x = false.
Proof. intros x H. unfold no_try in H. rewrite subnodes_items in H. inversion H; auto. Qed.
Lemma plain_under : forall x z, plain_tree x -> In (Sub z) (items x) -> plain_tree z.
Proof.
  intros x z H I. unfold no_try in *. rewrite subnodes_items in H. inversion H as [|? ? _ G]; subst.
  rewrite Forall_forall in *. intros y J. apply G. apply in_flat_map. exists (Sub z). auto.
Qed.

(** Expressions and simple statements contain none. *)
Definition P_tree (f : fn) (x : node) : Prop :=
  match f with F_ann_assign _ a => plain_tree a -> plain_tree x | _ => plain_tree x end.
Definition opt_plain (o : option node) : Prop := match o with Some x => plain_tree x | None => True end.
Definition pair_plain (o : option (token * node)) : Prop := match o with Some (_, x) => plain_tree x | None => True end.
Lemma in_sub_map : forall z xs, In (Sub z) (map Sub xs) -> In z xs.
Proof. intros z xs H. apply in_map_iff in H. destruct H as (y & H & I). congruence. Qed.
Lemma in_sub_rev : forall (z : node) xs, In z (rev xs) -> In z xs.
Proof. intros. apply in_rev. assumption. Qed.
Lemma in_sub_leaf : forall z ts, ~ In (Sub z) (map Leaf ts).
Proof. intros z ts H. apply in_map_iff in H. destruct H as (y & H & I). discriminate. Qed.
Lemma in_sub_opt_tok : forall z o, ~ In (Sub z) (opt_tokens o).
Proof. intros z [t|] H; cbn in H; intuition discriminate. Qed.
Lemma in_sub_pairs : forall z xs, In (Sub z) (pairs xs) -> exists t, In (t, z) xs.
Proof.
  intros z xs H. unfold pairs in H. apply in_flat_map in H. destruct H as ([t y] & I & J). cbn in J.
  destruct J as [J|[J|[]]]; [discriminate|]. injection J as ->. eauto.
Qed.
Ltac in_tree :=
  repeat match goal with
  | H : In (Sub _) (_ ++ _) |- _ => apply in_app_or in H; destruct H
  | H : In (Sub _) (_ :: _) |- _ => destruct H
  | H : In _ [] |- _ => destruct H
  | H : Leaf _ = Sub _ |- _ => discriminate H
  | H : Sub _ = Sub _ |- _ => injection H as; subst
  | H : In (Sub _) (map Sub _) |- _ => apply in_sub_map in H
  | H : In _ (rev _) |- _ => apply in_sub_rev in H
  | H : In (Sub _) (map Leaf _) |- _ => destruct (in_sub_leaf _ _ H)
  | H : In (Sub _) (opt_tokens _) |- _ => destruct (in_sub_opt_tok _ _ H)
  | H : In (Sub _) (pairs _) |- _ => apply in_sub_pairs in H; destruct H
  | H : In _ (_ ++ _) |- _ => apply in_app_or in H; destruct H
  | H : In _ (_ :: _) |- _ => destruct H; [subst|]
  | H : Forall _ ?l, I : In _ ?l |- _ => rewrite Forall_forall in H; apply H in I
  end.
Ltac opened := cbn [items opt_nodes opt_tokens opt_tokens2 opt_pair opt_node_pair opt_node_tokens2 opt_list_nodes fst snd fst_opt snd_opt app map] in *.
Ltac plain1 :=
  apply tree_plain; [reflexivity|]; intros ? ?; opened;
  repeat match goal with o : option _ |- _ => destruct o as [?|] | p : (_ * _)%type |- _ => destruct p end; opened;
  in_tree; cbn [opt_plain pair_plain P_tree] in *; auto; try tauto.
Definition infix_plain (c : infix) : Prop := forall a b x t y, plain_tree x -> plain_tree y -> plain_tree (c a b x t y).
Lemma binary_plain : forall f g ops, binary f = Some (g, ops) ->
  target f = false /\ target g = false /\ forall k c, In (k, c) ops -> infix_plain c.
Proof.
  intros f g ops H. destruct f; try discriminate H; injection H as <- <-;
    (split; [reflexivity|split; [reflexivity|]]); intros k c I; cbn [In] in I;
    repeat (destruct I as [I | I]; [injection I as <- <-; intros a b x t y ? ?; plain1|]); destruct I.
Qed.
Lemma augmented_plain : forall k c, In (k, c) augmented -> infix_plain c.
Proof.
  intros k c I. unfold augmented in I. cbn [In] in I.
    repeat (destruct I as [I | I]; [injection I as <- <-; intros a b x t y ? ?; plain1|]); destruct I.
Qed.
Lemma P_plain : forall f x, target f = false -> P_tree f x -> plain_tree x.
Proof. intros f x T H. destruct f; try discriminate T; exact H. Qed.
Lemma plain_P : forall f x, target f = false -> plain_tree x -> P_tree f x.
Proof. intros f x T H. destruct f; try discriminate T; exact H. Qed.
Lemma Forall_plain_in : forall z xs, Forall plain_tree xs -> In z xs -> plain_tree z.
Proof. intros z xs H I. rewrite Forall_forall in H. auto. Qed.

Ltac plain_cases :=
  repeat match goal with
  | H : In _ [] |- _ => destruct H
  | H : In _ (_ :: _) |- _ => destruct H as [H | H]
  | H : In _ constants |- _ => unfold constants in H
  | H : In _ unary |- _ => unfold unary in H
  | H : _ :: _ = _ :: _ |- _ => injection H as; subst
  | H : (_, _) = (_, _) |- _ => injection H as; subst
  | H : binary _ = Some _ |- _ => apply binary_plain in H
  | H : In _ augmented |- _ => apply augmented_plain in H
  | H : _ = ?f |- _ => is_var f; subst f
  | H : _ /\ _ |- _ => destruct H
  | H : ?b = ?b -> _ |- _ => specialize (H eq_refl)
  end.
Ltac plain_solve :=
  cbn [P_tree forallb target negb andb] in *; plain_cases; cbn [P_tree forallb target negb andb opt_plain pair_plain] in *;
  repeat match goal with H : Forall plain_tree (_ :: _) |- _ => inversion H; subst; clear H end;
  first [ assumption | apply tree_plain; [reflexivity|]; intros ? ?; opened; in_tree; eauto using Forall_plain_in ].

Lemma E_plain :
  (forall f l la x, E f l la x -> P_tree f x) /\
  (forall f l la x, E_chain f l la x -> plain_tree x) /\
  (forall f l la o, E_opt f l la o -> target f = false -> opt_plain o) /\
  (forall f l la xs, E_many f l la xs -> target f = false -> Forall plain_tree xs) /\
  (forall fs k l la xs ts, E_rest fs k l la xs ts -> forallb (fun g => negb (target g)) fs = true -> Forall plain_tree xs) /\
  (forall fs k l la xs ts, E_items fs k l la xs ts -> forallb (fun g => negb (target g)) fs = true -> Forall plain_tree xs) /\
  (forall d s l la x, E_entry d s l la x -> plain_tree x) /\
  (forall s l la x, E_set_first s l la x -> plain_tree x) /\
  (forall s l la xs ts, E_set_rest s l la xs ts -> Forall plain_tree xs) /\
  (forall l la ns ts m v, E_stars l la ns ts m v -> Forall plain_tree ns /\ pair_plain m /\ pair_plain v) /\
  (forall l la ns ts m v, E_type_stars l la ns ts m v -> Forall plain_tree ns /\ pair_plain m /\ pair_plain v) /\
  (forall l la xs, E_assigns l la xs -> Forall (fun p => plain_tree (snd p)) xs) /\
  (forall l la a x b, E_import_list l la a x b -> opt_plain x).
Proof.
  apply E_mutual; intros; try (plain_solve; fail).
  all: try (cbn [P_tree forallb target negb andb] in *; plain_cases;
    repeat match goal with o : option _ |- _ => destruct o as [?|] | p : (token * node)%type |- _ => destruct p end;
    cbn [P_tree opt_plain pair_plain fst_opt snd_opt opt_nodes opt_pair] in *; plain_solve; fail).
  all: cbn [P_tree forallb target negb andb opt_plain pair_plain] in *; plain_cases; cbn [P_tree] in *;
    try (solve [repeat constructor; auto; repeat match goal with H : Forall plain_tree (_ :: _) |- _ => inversion H; subst; clear H end; auto]).
  - apply plain_P; assumption.
  - destruct o; destruct cond; cbn [P_tree opt_plain] in *; plain_solve.
  - intros. plain_solve.
  - intros. plain_solve.
  - intros. plain_solve.
  - eapply P_plain; eauto.
  - match goal with H : forall k c, In (k, c) ops -> _ |- _ => eapply H; eauto using P_plain end.
  - eapply P_plain; eauto.
  - constructor; eauto using P_plain.
  - constructor; [|auto]. eapply P_plain; [|eassumption]. eapply target_in; eauto.
  - constructor; [|auto]. eapply P_plain; [|eassumption]. eapply target_in; eauto.
Qed.

Lemma E_tree : forall f l la x, E f l la x -> target f = false -> plain_tree x.
Proof. intros f l la x H T. eapply P_plain; [exact T|]. eapply (proj1 E_plain); eauto. Qed.
Lemma E_opt_tree : forall f l la o, E_opt f l la o -> target f = false -> opt_plain o.
Proof. intros f l la o H T. exact (proj1 (proj2 (proj2 E_plain)) _ _ _ _ H T). Qed.
Lemma E_items_tree : forall fs k l la xs ts, E_items fs k l la xs ts -> forallb (fun g => negb (target g)) fs = true -> Forall plain_tree xs.
Proof. intros fs k l la xs ts H T. exact (proj1 (proj2 (proj2 (proj2 (proj2 (proj2 E_plain))))) _ _ _ _ _ _ H T). Qed.

(** ** The flag *)
Definition flagless (f : fn) : bool := match f with F_except_clause | F_except_stmt => false | _ => true end.
Ltac child := match goal with P : plain_tree ?x |- plain_tree ?z => apply (plain_under x z P); cbn [items opt_nodes opt_list_nodes]; rewrite ?in_app_iff; cbn [In]; eauto 20 end.
Lemma Forall_child : forall x xs, plain_tree x -> (forall z, In z xs -> In (Sub z) (items x)) -> Forall plain_tree xs.
Proof. intros x xs P H. apply Forall_forall. intros z I. eapply plain_under; eauto. Qed.
Lemma in_map_sub : forall z xs, In z xs -> In (Sub z) (map Sub (rev xs)).
Proof. intros z xs I. apply in_map. apply -> in_rev. assumption. Qed.

Lemma flag_unused_all :
  (forall f c l la x c', B f c l la x c' -> flagless f = true -> plain_tree x -> c' = c /\ forall d, B f d l la x d) /\
  (forall f c l la o c', B_opt f c l la o c' -> flagless f = true -> opt_plain o -> c' = c /\ forall d, B_opt f d l la o d) /\
  (forall f c l la xs c', B_many f c l la xs c' -> flagless f = true -> Forall plain_tree xs -> c' = c /\ forall d, B_many f d l la xs d).
Proof.
  apply B_mutual; intros; try discriminate;
    try match goal with P : plain_tree (TryStmt _ _ _ _ _ _ _ _) |- _ => apply plain_here in P; discriminate P end;
    repeat match goal with
    | H : flagless ?f = true -> plain_tree ?z -> _, P : plain_tree ?x |- _ =>
        let A := fresh "A" in let D := fresh "D" in
        destruct H as (A & D); [reflexivity || assumption || (cbn [In] in *; intuition (subst; reflexivity))
          |first [assumption | apply (plain_under x z P); cbn [items]; rewrite ?in_app_iff; cbn [In]; tauto]|]; subst
    | H : flagless ?f = true -> Forall plain_tree ?xs -> _, P : plain_tree ?x |- _ =>
        let A := fresh "A" in let D := fresh "D" in
        destruct H as (A & D); [reflexivity
          |apply (Forall_child x); [assumption|]; intros z I; apply in_map_sub in I; cbn [items]; rewrite ?in_app_iff; cbn [In]; rewrite ?in_app_iff; tauto|]; subst
    | H : flagless ?f = true -> opt_plain ?o -> _, P : plain_tree ?x |- _ =>
        let A := fresh "A" in let D := fresh "D" in
        destruct H as (A & D); [reflexivity
          |destruct o as [?|]; cbn [opt_plain]; auto; eapply plain_under; [exact P|]; cbn [items opt_nodes]; repeat (rewrite ?in_app_iff; cbn [In]); tauto|]; subst
    end; try (split; [reflexivity|]; intros dd; econstructor; eauto; fail).
  - destruct H0 as (-> & D); auto. split; [reflexivity|]. intros d. constructor. auto.
  - match goal with F : Forall _ (_ :: _) |- _ => inversion F; subst end. destruct H0 as (-> & D); auto. destruct H2 as (-> & G); auto.
    split; [reflexivity|]. intros d. econstructor; eauto.
Qed.

Lemma flag_unused : forall U f s x s', parsed U f s x s' -> sort_of f = Plain \/ (sort_of f = Block /\ flagless f = true) -> no_try x ->
  ps_except s' = ps_except s /\ forall c, parsed U f (flag c s) x (flag c s').
Proof.
  intros U f s x s' P S T. apply parsed_sound in P. unfold sound in P. destruct S as [S|(S & F)].
  - rewrite S in P. destruct P as (l & R & EX & D). split; [assumption|]. intros c. apply parsed_sound. unfold sound. rewrite S.
    exists l. split; [|split; [reflexivity|exact D]].
    eapply reads_core_r; [eapply reads_core; [exact R|reflexivity|reflexivity]|reflexivity|reflexivity].
  - rewrite S in P. destruct P as (l & R & D). destruct (proj1 flag_unused_all _ _ _ _ _ _ D F T) as (EQ & G).
    split; [assumption|]. intros c. apply parsed_sound. unfold sound. rewrite S.
    exists l. split; [|exact (G c)].
    eapply reads_core_r; [eapply reads_core; [exact R|reflexivity|reflexivity]|reflexivity|reflexivity].
Qed.

(** ** Clauses *)
Lemma except_kind : forall c l la x c', B F_except_stmt c l la x c' -> no_try x ->
  exists b, starred x = Some b /\ except_step b c c' .
Proof.
  intros c l la x c' H T. inversion H; subst; try no_binary. 
  match goal with G : B F_except_clause _ _ _ ?a _ |- _ => inversion G; subst; clear G end.
  eexists. split; [cbn [starred]; reflexivity|].
  match goal with G : B F_suite _ _ _ ?b _ |- _ => destruct (proj1 flag_unused_all _ _ _ _ _ _ G eq_refl) as (-> & _) end; [|assumption].
  eapply plain_under; [exact T|]. cbn. auto.
Qed.
Lemma except_starred : forall c l la x c', B F_except_stmt c l la x c' -> exists b d, starred x = Some b /\ except_step b c d.
Proof.
  intros c l la x c' H. inversion H; subst.
  match goal with G : B F_except_clause _ _ _ ?a _ |- _ => inversion G; subst; clear G end.
  eexists _, _. split; [cbn [starred]; reflexivity|]. eassumption.
Qed.
Lemma clauses_same : forall f c l la xs c', B_many f c l la xs c' -> f = F_except_stmt ->
  forall pre a b post, xs = pre ++ a :: b :: post -> no_try a -> starred a = starred b /\ starred a <> None.
Proof.
  induction 1 as [|f c l1 x c1 l2 xs c' la H HS IH]; intros -> pre a b post E T.
  - destruct pre; discriminate E.
  - destruct pre as [|y pre]; cbn [app] in E; injection E as -> ->.
    + destruct (except_kind _ _ _ _ _ H T) as (k & S & ST). inversion HS; subst.
      match goal with G : B F_except_stmt _ _ _ b _ |- _ => destruct (except_starred _ _ _ _ _ G) as (k' & d & S' & ST') end.
      rewrite S, S'. split; [|discriminate]. f_equal. destruct k, k'; inversion ST; subst; inversion ST'; subst; reflexivity.
    + eapply IH; eauto.
Qed.

(** ** Try statements anywhere *)
Definition try_from (y : node) : Prop := exists c l la c', B F_try_stmt c l la y c'.
Definition tries (x : node) : Prop := forall y, In y (subnodes x) -> is_try y = true -> try_from y.
Lemma tries_intro : forall x, is_try x = false -> (forall z, In (Sub z) (items x) -> tries z) -> tries x.
Proof.
  intros x N H y I J. apply subnodes_cases in I. destruct I as [->|(z & I1 & I2)]; [congruence|]. eapply H; eauto.
Qed.
Lemma tries_plain : forall x, no_try x -> tries x.
Proof. intros x H y I J. unfold no_try in H. rewrite Forall_forall in H. specialize (H y I). congruence. Qed.
Lemma tries_self : forall x, try_from x -> (forall z, In (Sub z) (items x) -> tries z) -> tries x.
Proof. intros x N H y I J. apply subnodes_cases in I. destruct I as [->|(z & I1 & I2)]; [assumption|]. eapply H; eauto. Qed.
Definition opt_tries (o : option node) : Prop := match o with Some x => tries x | None => True end.
Lemma Forall_in : forall z xs, Forall tries xs -> In z xs -> tries z.
Proof. intros z xs H I. rewrite Forall_forall in H. auto. Qed.

Lemma B_tries :
  (forall f c l la x c', B f c l la x c' -> tries x) /\
  (forall f c l la o c', B_opt f c l la o c' -> opt_tries o) /\
  (forall f c l la xs c', B_many f c l la xs c' -> Forall tries xs).
Proof.
  apply B_mutual; intros;
    repeat match goal with
    | D : except_what _ _ _ |- _ => inversion D; subst; clear D
    | D : with_items _ _ _ _ _ _ |- _ => inversion D; subst; clear D
    | D : bases _ _ _ _ |- _ => inversion D; subst; clear D
    | D : returns _ _ _ |- _ => inversion D; subst; clear D
    | D : comment_line _ _ _ |- _ => inversion D; subst; clear D
    end;
    repeat match goal with
    | D : E _ _ _ _ |- _ => apply E_tree in D; [apply tries_plain in D|reflexivity]
    | D : E_opt _ _ _ ?o |- _ => apply E_opt_tree in D; [|reflexivity]; destruct o; cbn [opt_plain] in D; try apply tries_plain in D
    | D : E_items _ _ _ _ _ _ |- _ => apply E_items_tree in D; [|reflexivity]; apply (Forall_impl (P := no_try) tries tries_plain) in D
    end;
    first [ assumption | exact I | apply Forall_nil | constructor; assumption | apply tries_intro; [reflexivity|] | apply tries_self; [match goal with la : look |- _ => eexists ExceptNone, _, la, _; (eapply B_try_finally || eapply B_try); eassumption end|] ];
    intros ? ?; opened; repeat match goal with o : option node |- _ => destruct o as [?|] end; opened; in_tree; cbn [opt_tries] in *; eauto using Forall_in; try (cbn in *; tauto).
  Unshelve. all: exact 0.
Qed.
Lemma lines_tries : forall c l la xs ts c', lines c l la xs ts c' -> Forall tries xs.
Proof. induction 1; auto. constructor; auto. eapply (proj1 B_tries); eauto. Qed.
Lemma sound_tries : forall U f s x s', sound U f s x s' -> target f = false -> tries x.
Proof.
  intros U f s x s' H T. unfold sound in H. destruct (sort_of f) eqn:S.
  - destruct H as (l & _ & _ & D). apply tries_plain. eapply E_tree; eauto.
  - destruct H as (l & _ & D). eapply (proj1 B_tries); eauto.
  - destruct H as (s1 & l & _ & _ & D). destruct D;
    repeat match goal with
    | D : E _ _ _ _ |- _ => apply E_tree in D; [apply tries_plain in D|reflexivity]
    | D : B _ _ _ _ _ _ |- _ => apply (proj1 B_tries) in D
    | D : lines _ _ _ _ _ _ |- _ => apply lines_tries in D
    end; (apply tries_intro; [reflexivity|]);
    intros ? ?; opened; in_tree; eauto using Forall_in.
  - destruct H.
Qed.

Lemma try_clauses : forall U n f s x s', target f = false -> run U n f s = Ok x s' ->
  forall a b t u body cs o1 o2, In (TryStmt a b t u body (Some cs) o1 o2) (subnodes x) ->
  forall pre c d post, rev cs = pre ++ c :: d :: post -> no_try c -> starred c = starred d /\ starred c <> None.
Proof.
  intros U n f s x s' T H a b t u body cs o1 o2 I pre c d post E N. apply run_sound in H. apply sound_tries in H; [|assumption].
  destruct (H _ I eq_refl) as (c0 & l & la & c' & D). inversion D; subst. rewrite rev_involutive in E.
  eapply clauses_same; eauto.
Qed.
