(** Deciding whether tokens fit a rule: all the ways to read a phrase at the beginning of a list.
    The list may also contain whole phrases ([Phrase e]), which are only read as themselves; that
    is how derivations are put together in PythonProofs.v.  Not modelled code. *)
From Coq Require Import List Arith Lia Bool.
From Verif Require Import Chars Token ParseBasics PythonGrammar.
Import ListNotations.
Local Open Scope nat_scope.

Definition rule_dec (a b : rule) : {a = b} + {a <> b}.
Proof. decide equality. Defined.

Fixpoint same (a b : ebnf) {struct a} : bool :=
  let fix all (l m : list ebnf) {struct l} : bool :=
    match l, m with
    | [], [] => true
    | x :: l', y :: m' => same x y && all l' m'
    | _, _ => false
    end in
  match a, b with
  | T k, T k' => kind_eqb k k'
  | R r, R r' => if rule_dec r r' then true else false
  | Seq l, Seq m | Alt l, Alt m => all l m
  | Opt x, Opt y | Star x, Star y | Plus x, Plus y => same x y
  | But k x, But k' y => kind_eqb k k' && same x y
  | _, _ => false
  end.

Inductive piece := Word (k : kind) | Phrase (e : ebnf).

Definition same_piece (a b : piece) : bool :=
  match a, b with
  | Word k, Word k' => kind_eqb k k'
  | Phrase e, Phrase e' => same e e'
  | _, _ => false
  end.
Fixpoint same_pieces (l m : list piece) : bool :=
  match l, m with
  | [], [] => true
  | a :: l', b :: m' => same_piece a b && same_pieces l' m'
  | _, _ => false
  end.

(** Sets of lists of pieces. *)
Definition add (r : list piece) (rs : list (list piece)) : list (list piece) :=
  if existsb (same_pieces r) rs then rs else r :: rs.
Definition union (rs rs' : list (list piece)) : list (list piece) := fold_right add rs' rs.
Definition unions {A} (f : A -> option (list (list piece))) (rs : list A) : option (list (list piece)) :=
  fold_right (fun r acc => match f r, acc with Some a, Some b => Some (union a b) | _, _ => None end) (Some []) rs.

(** What remains after a phrase of [e], for all phrases of [e] that begin [ps]; [None]: no answer
    within [n] steps.  Of a [Phrase] that is asked for nothing else is tried. *)
Fixpoint ways (G : rule -> ebnf) (n : nat) (e : ebnf) (ps : list piece) {struct n} : option (list (list piece)) :=
  match n with
  | O => None
  | S n =>
      if match ps with Phrase d :: _ => same e d | _ => false end then Some [tl ps] else
      match e with
      | T k => Some (match ps with Word k' :: r => if kind_eqb k k' then [r] else [] | _ => [] end)
      | R x => ways G n (G x) ps
      | Seq [] => Some [ps]
      | Seq (d :: ds) => match ways G n d ps with Some rs => unions (ways G n (Seq ds)) rs | None => None end
      | Alt ds => unions (fun d => ways G n d ps) ds
      | Opt d => match ways G n d ps with Some rs => Some (add ps rs) | None => None end
      | Star d =>
          match ways G n d ps with
          | Some rs =>
              match unions (ways G n (Star d)) (filter (fun r => length r <? length ps) rs) with
              | Some rs' => Some (add ps rs')
              | None => None
              end
          | None => None
          end
      | Plus d => match ways G n d ps with Some rs => unions (ways G n (Star d)) rs | None => None end
      | But k d =>
          match ps with
          | Word k' :: _ =>
              if kind_eqb k k' then Some []
              else match ways G n d ps with Some rs => Some (filter (fun r => length r <? length ps) rs) | None => None end
          | _ => Some []
          end
      end
  end.

(** Is the whole list a phrase of [e]? *)
Definition whole (G : rule -> ebnf) (n : nat) (e : ebnf) (ps : list piece) : option bool :=
  match ways G n e ps with
  | Some rs => Some (existsb (fun r => match r with [] => true | _ => false end) rs)
  | None => None
  end.

(** ** Correctness *)

(** Tokens that spell a list of pieces. *)
Inductive spells (G : rule -> ebnf) : list piece -> list kind -> Prop :=
| spells_nil : spells G [] []
| spells_word k ps ks : spells G ps ks -> spells G (Word k :: ps) (k :: ks)
| spells_phrase e ps ks1 ks2 : fits G e ks1 -> spells G ps ks2 -> spells G (Phrase e :: ps) (ks1 ++ ks2).

Section Correct.
Context (G : rule -> ebnf).

Lemma spells_app ps qs ks : spells G (ps ++ qs) ks -> exists k1 k2, ks = k1 ++ k2 /\ spells G ps k1 /\ spells G qs k2.
Proof.
  revert ks; induction ps as [|x ps IH]; intros ks H; cbn in H.
  - exists [], ks. repeat split; [constructor|exact H].
  - inversion H as [|k ps' ks' H1|e ps' k1 k2 H1 H2]; subst; clear H.
    + destruct (IH _ H1) as (a & b & -> & Ha & Hb). exists (k :: a), b. repeat split; [constructor; exact Ha|exact Hb].
    + destruct (IH _ H2) as (a & b & -> & Ha & Hb). exists (k1 ++ a), b.
      split; [now rewrite app_assoc|]. split; [constructor; [exact H1|exact Ha]|exact Hb].
Qed.

Lemma spells_words ks : spells G (map Word ks) ks.
Proof. induction ks; cbn; constructor; assumption. Qed.

Lemma same_eq : forall a b, same a b = true -> a = b.
Proof.
  fix IH 1. intros a b.
  assert (L : forall l m, (fix all (l m : list ebnf) {struct l} : bool :=
    match l, m with
    | [], [] => true
    | x :: l', y :: m' => same x y && all l' m'
    | _, _ => false
    end) l m = true -> l = m).
  { fix L 1. intros [|x l] [|y m]; try discriminate; [reflexivity|]. intros H.
    apply andb_prop in H. destruct H as [H1 H2]. f_equal; [exact (IH _ _ H1)|exact (L _ _ H2)]. }
  destruct a, b; cbn; try discriminate; intros H.
  - apply kind_eqb_eq in H. now subst.
  - destruct (rule_dec r r0); [now subst|discriminate].
  - f_equal. exact (L _ _ H).
  - f_equal. exact (L _ _ H).
  - f_equal. exact (IH _ _ H).
  - f_equal. exact (IH _ _ H).
  - f_equal. exact (IH _ _ H).
  - apply andb_prop in H. destruct H as [K H]. apply kind_eqb_eq in K. f_equal; [exact K|exact (IH _ _ H)].
Qed.

Lemma same_pieces_eq l : forall m, same_pieces l m = true -> l = m.
Proof.
  induction l as [|a l IH]; intros [|b m]; cbn; try discriminate; [reflexivity|].
  intros H. apply andb_prop in H. destruct H as [H1 H2]. f_equal; [|exact (IH _ H2)].
  destruct a, b; cbn in H1; try discriminate.
  - apply kind_eqb_eq in H1. now subst.
  - apply same_eq in H1. now subst.
Qed.

Lemma in_add r s rs : In r (add s rs) <-> r = s \/ In r rs.
Proof.
  unfold add. destruct (existsb (same_pieces s) rs) eqn:X.
  - split; [tauto|]. intros [->|H]; [|exact H].
    apply existsb_exists in X. destruct X as (y & Hy & E). apply same_pieces_eq in E. now subst.
  - cbn. split; intros [H|H]; auto.
Qed.

Lemma in_union r a b : In r (union a b) <-> In r a \/ In r b.
Proof.
  induction a as [|x a IH]; cbn; [tauto|]. rewrite in_add, IH. split; intros [H|H]; auto; destruct H; auto.
Qed.

Lemma in_unions {A} (f : A -> option (list (list piece))) l rs r :
  unions f l = Some rs -> (In r rs <-> exists x qs, In x l /\ f x = Some qs /\ In r qs).
Proof.
  revert rs; induction l as [|x l IH]; cbn; intros rs H.
  - injection H as <-. split; [intros []|intros (x & _ & [] & _)].
  - destruct (f x) as [a|] eqn:Fx; [|discriminate].
    destruct (fold_right _ _ l) as [b|] eqn:Fl; [|discriminate].
    injection H as <-. rewrite in_union. specialize (IH b Fl). rewrite IH. split.
    + intros [H|(y & qs & H & E & I)]; [exists x, a; auto|exists y, qs; auto].
    + intros (y & qs & [<-|H] & E & I); [left; congruence|right; exists y, qs; auto].
Qed.

Lemma unions_some {A} (f : A -> option (list (list piece))) l rs x :
  unions f l = Some rs -> In x l -> exists qs, f x = Some qs.
Proof.
  revert rs; induction l as [|y l IH]; cbn; intros rs H; [intros []|].
  destruct (f y) as [a|] eqn:Fy; [|discriminate]. destruct (fold_right _ _ l) as [b|] eqn:Fl; [|discriminate].
  intros [<-|I]; [eauto|]. eapply IH; [exact Fl|exact I].
Qed.

(** What was read is a phrase, whatever the phrases within it are. *)
Lemma ways_sound n : forall e ps rs r, ways G n e ps = Some rs -> In r rs ->
  exists used, ps = used ++ r /\ forall ks, spells G used ks -> fits G e ks.
Proof.
  induction n as [|n IH]; intros e ps rs r; cbn [ways]; [discriminate|].
  destruct (match ps with Phrase d :: _ => same e d | _ => false end) eqn:HD.
  { intros H I. injection H as <-. destruct I as [<-|[]]. destruct ps as [|[k|d] ps]; try discriminate.
    apply same_eq in HD. subst d. exists [Phrase e]. split; [reflexivity|].
    intros ks S. inversion S as [| |e' ps' k1 k2 S1 S2]; subst. inversion S2; subst. now rewrite app_nil_r. }
  clear HD. destruct e as [k|x|es|es|d|d|d|k d].
  - intros H I. injection H as <-. destruct ps as [|[k'|d] ps]; try destruct I.
    destruct (kind_eqb k k') eqn:K; [|destruct I]. destruct I as [<-|[]]. apply kind_eqb_eq in K. subst k'.
    exists [Word k]. split; [reflexivity|]. intros ks S. inversion S as [|k1 ps1 ks1 S1|]; subst. inversion S1; subst. constructor.
  - intros H I. destruct (IH _ _ _ _ H I) as (used & E & F). exists used. split; [exact E|]. intros ks S. constructor. exact (F _ S).
  - destruct es as [|d ds].
    + intros H I. injection H as <-. destruct I as [<-|[]]. exists []. split; [reflexivity|].
      intros ks S. inversion S; subst. constructor.
    + destruct (ways G n d ps) as [qs|] eqn:W; [|discriminate]. intros H I.
      apply (in_unions _ _ _ r H) in I. destruct I as (q & ts & Iq & Wq & Ir).
      destruct (IH _ _ _ _ W Iq) as (u1 & -> & F1). destruct (IH _ _ _ _ Wq Ir) as (u2 & -> & F2).
      exists (u1 ++ u2). split; [now rewrite app_assoc|]. intros ks S.
      destruct (spells_app _ _ _ S) as (k1 & k2 & -> & S1 & S2). constructor; auto.
  - intros H I. apply (in_unions _ _ _ r H) in I. destruct I as (d & ts & Id & Wd & Ir).
    destruct (IH _ _ _ _ Wd Ir) as (u & E & F). exists u. split; [exact E|]. intros ks S. econstructor; eauto.
  - destruct (ways G n d ps) as [qs|] eqn:W; [|discriminate]. intros H I. injection H as <-.
    apply in_add in I. destruct I as [->|I].
    + exists []. split; [reflexivity|]. intros ks S. inversion S; subst. constructor.
    + destruct (IH _ _ _ _ W I) as (u & E & F). exists u. split; [exact E|]. intros ks S. constructor. auto.
  - destruct (ways G n d ps) as [qs|] eqn:W; [|discriminate].
    destruct (unions (ways G n (Star d)) _) as [ts|] eqn:V; [|discriminate]. intros H I. injection H as <-.
    apply in_add in I. destruct I as [->|I].
    + exists []. split; [reflexivity|]. intros ks S. inversion S; subst. constructor.
    + apply (in_unions _ _ _ r V) in I. destruct I as (q & ts' & Iq & Wq & Ir).
      apply filter_In in Iq. destruct Iq as [Iq _].
      destruct (IH _ _ _ _ W Iq) as (u1 & -> & F1). destruct (IH _ _ _ _ Wq Ir) as (u2 & -> & F2).
      exists (u1 ++ u2). split; [now rewrite app_assoc|]. intros ks S.
      destruct (spells_app _ _ _ S) as (k1 & k2 & -> & S1 & S2). apply fits_more; auto.
  - destruct (ways G n d ps) as [qs|] eqn:W; [|discriminate]. intros H I.
    apply (in_unions _ _ _ r H) in I. destruct I as (q & ts & Iq & Wq & Ir).
    destruct (IH _ _ _ _ W Iq) as (u1 & -> & F1). destruct (IH _ _ _ _ Wq Ir) as (u2 & -> & F2).
    exists (u1 ++ u2). split; [now rewrite app_assoc|]. intros ks S.
    destruct (spells_app _ _ _ S) as (k1 & k2 & -> & S1 & S2). constructor; auto.
  - destruct ps as [|[k'|d'] ps]; intros H I; try (injection H as <-; destruct I).
    destruct (kind_eqb k k') eqn:K; [injection H as <-; destruct I|].
    destruct (ways G n d (Word k' :: ps)) as [qs|] eqn:W; [|discriminate]. injection H as <-.
    apply filter_In in I. destruct I as [I L]. apply Nat.ltb_lt in L.
    destruct (IH _ _ _ _ W I) as (u & E & F). exists u. split; [exact E|]. intros ks S.
    destruct u as [|w u]; [cbn [app] in E; subst r; exact (False_ind _ (Nat.lt_irrefl _ L))|].
    injection E as <- _. pose proof (F _ S) as F1. inversion S; subst. apply fits_but; [exact F1|]. intros ->.
    assert (X : kind_eqb k k = true) by (apply kind_eqb_eq; reflexivity). congruence.
Qed.

(** A repetition is empty or begins with something that is not. *)
Lemma star_cases d ks : fits G (Star d) ks ->
  ks = [] \/ exists k1 k2, k1 <> [] /\ ks = k1 ++ k2 /\ fits G d k1 /\ fits G (Star d) k2.
Proof.
  intros H. remember (Star d) as e eqn:E. induction H; inversion E; subst; [now left|].
  destruct ks1 as [|k ks1].
  - cbn. apply IHfits2. reflexivity.
  - right. exists (k :: ks1), ks2. repeat split; try assumption. discriminate.
Qed.

(** Of tokens, every phrase is found. *)
Lemma ways_complete n : forall e a b rs, ways G n e (map Word (a ++ b)) = Some rs -> fits G e a -> In (map Word b) rs.
Proof.
  induction n as [|n IH]; intros e a b rs; cbn [ways]; [discriminate|].
  replace (match map Word (a ++ b) with Phrase d :: _ => same e d | _ => false end) with false
    by (destruct (a ++ b); reflexivity).
  destruct e as [k|x|es|es|d|d|d|k d].
  - intros H F. injection H as <-. inversion F; subst. cbn.
    replace (kind_eqb k k) with true by (symmetry; apply kind_eqb_eq; reflexivity). now left.
  - intros H F. inversion F; subst. eapply IH; eauto.
  - destruct es as [|d ds].
    + intros H F. injection H as <-. inversion F; subst. now left.
    + destruct (ways G n d _) as [qs|] eqn:W; [|discriminate]. intros H F.
      inversion F as [| | |e es' k1 k2 F1 F2| | | | | | |]; subst. rewrite <- app_assoc in W.
      pose proof (IH _ _ _ _ W F1) as I1. destruct (unions_some _ _ _ _ H I1) as (ts & Wt).
      apply (in_unions _ _ _ _ H). exists (map Word (k2 ++ b)), ts. repeat split; try assumption. eapply IH; eauto.
  - intros H F. inversion F as [| | | |e es' k' I F1| | | | | |]; subst.
    destruct (unions_some _ _ _ _ H I) as (ts & Wt). apply (in_unions _ _ _ _ H). exists e, ts.
    repeat split; try assumption. eapply IH; eauto.
  - destruct (ways G n d _) as [qs|] eqn:W; [|discriminate]. intros H F. injection H as <-. apply in_add.
    inversion F as [| | | | |e|e k' F1| | | |]; subst; [now left|right; eapply IH; eauto].
  - destruct (ways G n d _) as [qs|] eqn:W; [|discriminate].
    destruct (unions (ways G n (Star d)) _) as [ts|] eqn:V; [|discriminate]. intros H F. injection H as <-. apply in_add.
    destruct (star_cases _ _ F) as [->|(k1 & k2 & N1 & -> & F1 & F2)]; [now left|right].
    rewrite <- app_assoc in W. pose proof (IH _ _ _ _ W F1) as I1.
    assert (I2 : In (map Word (k2 ++ b)) (filter (fun r => length r <? length (map Word ((k1 ++ k2) ++ b))) qs)).
    { apply filter_In. split; [exact I1|]. apply Nat.ltb_lt. rewrite !map_length, !app_length.
      destruct k1; [contradiction|cbn; lia]. }
    destruct (unions_some _ _ _ _ V I2) as (us & Wu). apply (in_unions _ _ _ _ V).
    exists (map Word (k2 ++ b)), us. repeat split; try assumption. eapply IH; eauto.
  - destruct (ways G n d _) as [qs|] eqn:W; [|discriminate]. intros H F.
    inversion F as [| | | | | | | | |e k1 k2 F1 F2|]; subst. rewrite <- app_assoc in W.
    pose proof (IH _ _ _ _ W F1) as I1. destruct (unions_some _ _ _ _ H I1) as (ts & Wt).
    apply (in_unions _ _ _ _ H). exists (map Word (k2 ++ b)), ts. repeat split; try assumption. eapply IH; eauto.
  - intros H F. inversion F as [| | | | | | | | | |k' e k2 ks F1 N]; subst. cbn [app map] in H.
    destruct (kind_eqb k k2) eqn:K; [apply kind_eqb_eq in K; congruence|].
    destruct (ways G n d (Word k2 :: map Word (ks ++ b))) as [qs|] eqn:W; [|discriminate]. injection H as <-.
    apply filter_In. split; [exact (IH d (k2 :: ks) b qs W F1)|].
    apply Nat.ltb_lt. cbn [length]. rewrite !map_length, app_length. lia.
Qed.

(** Put together from pieces. *)
Lemma by_pieces n e ps ks : spells G ps ks -> whole G n e ps = Some true -> fits G e ks.
Proof.
  unfold whole. destruct (ways G n e ps) as [rs|] eqn:W; [|discriminate]. intros S H. injection H as H.
  apply existsb_exists in H. destruct H as (r & I & E). destruct r; [|discriminate].
  destruct (ways_sound _ _ _ _ _ W I) as (u & -> & F). rewrite app_nil_r in S. exact (F _ S).
Qed.

(** The answer of the procedure is right. *)
Lemma whole_exact n e ks b : whole G n e (map Word ks) = Some b -> (b = true <-> fits G e ks).
Proof.
  intros W. split; intros H.
  - subst b. exact (by_pieces n e _ ks (spells_words ks) W).
  - unfold whole in W. destruct (ways G n e (map Word ks)) as [rs|] eqn:V; [|discriminate]. injection W as <-.
    apply existsb_exists. exists []. split; [|reflexivity].
    apply (ways_complete n e ks [] rs); [now rewrite app_nil_r|exact H].
Qed.

End Correct.
