(** Reading the tree of a call node by node gives the tokens of its phrase in their order. *)
From Coq Require Import List Arith ZArith Lia Permutation.
From Verif Require Import Chars Token Node NodeView ParserState Parser GrammarSpec ParseBasics SoundBasics Soundness
  YieldProofs TreeSpec SpanProofs PositionProofs ParseSpec EndProofs ParseCorollaries.
Import ListNotations.
Local Open Scope nat_scope.

(** ** Subsequences *)
Inductive within {A} : list A -> list A -> Prop :=
| within_nil : within [] []
| within_both x a b : within a b -> within (x :: a) (x :: b)
| within_skip x a b : within a b -> within a (x :: b).
Lemma within_refl : forall A (a : list A), within a a.
Proof. induction a; constructor; auto. Qed.
Lemma within_app : forall A (a b c d : list A), within a b -> within c d -> within (a ++ c) (b ++ d).
Proof. induction 1; intros; cbn [app]; auto; constructor; auto. Qed.
Lemma within_none : forall A (b : list A), within [] b.
Proof. induction b; constructor; auto. Qed.
Lemma within_head : forall A (a c b : list A), within (a ++ c) b -> within a b.
Proof.
  intros A a c b H. remember (a ++ c) as d eqn:D. revert a c D. induction H; intros a' c' D.
  - symmetry in D. apply app_eq_nil in D. destruct D as (-> & _). constructor.
  - destruct a' as [|y a']; [apply within_none|]. cbn in D. injection D as -> D. constructor. eauto.
  - constructor. eauto.
Qed.
Lemma within_length : forall A (a b : list A), within a b -> length a <= length b.
Proof. induction 1; cbn; lia. Qed.
Lemma within_same : forall A (a b : list A), within a b -> length b <= length a -> a = b.
Proof.
  induction 1; cbn; intros L; auto.
  - f_equal. apply IHwithin. lia.
  - apply within_length in H. lia.
Qed.

(** ** Reading *)
Definition leaves (ps : list item) : list token :=
  flat_map (fun i => match i with Leaf t => [t] | Sub _ => [] end) ps.
Lemma written_app : forall a ts, written_items a ts -> forall b us, written_items b us -> written_items (a ++ b) (ts ++ us).
Proof.
  induction 1 using written_items_ind' with (P := fun _ _ => True); intros; cbn [app]; auto.
  - constructor. auto.
  - rewrite <- app_assoc. constructor; auto.
Qed.
Lemma written_leaves : forall ps, Forall (fun i => match i with Sub _ => False | Leaf _ => True end) ps ->
  written_items ps (leaves ps).
Proof. induction 1 as [|[t|y] ps H F IH]; cbn; [constructor|constructor; assumption|destruct H]. Qed.
Lemma after_leaves : forall x la, Forall (fun i => match i with Sub _ => False | Leaf _ => True end) (after x la).
Proof.
  intros x la. apply Forall_forall. intros [t|y] IN; [exact I|]. exact (no_sub_after _ _ _ IN).
Qed.
Lemma tiled_written_all :
  (forall s l la x, tiled s l la x -> exists ts, written x ts /\ within (map snd l ++ leaves (after x la)) ts) /\
  (forall s l la ps, tiles s l la ps -> exists ts, written_items ps ts /\ within (map snd l) ts).
Proof.
  apply tiled_mutual.
  - intros s l la x ps T (ts & W & I) P S Z. exists (ts ++ leaves (after x la)). split.
    + econstructor; [exact P|]. apply written_app; [assumption|]. apply written_leaves, after_leaves.
    + apply within_app; [assumption|apply within_refl].
  - intros s la. exists []. split; constructor.
  - intros s p t l la ps T (ts & W & I). exists (t :: ts). split; [constructor; assumption|]. cbn [map snd]. constructor. assumption.
  - intros s l1 l2 la y ps T (ts & W & I) T2 (us & W2 & I2). exists (ts ++ us). split; [constructor; assumption|].
    rewrite map_app. apply within_app; [eapply within_head; eauto|assumption].
Qed.
Lemma written_tokens_all :
  (forall x ts, written x ts -> Permutation (tokens x) ts) /\
  (forall ps ts, written_items ps ts -> Permutation (flat_map item_tokens ps) ts).
Proof.
  apply written_mutual; intros; cbn [flat_map item_tokens app]; auto.
  - rewrite tokens_items. rewrite <- H1. apply Permutation_flat_map, arranged_perm. assumption.
  - apply Permutation_app; assumption.
Qed.

Lemma written_tokens : forall x ts, written x ts -> Permutation (tokens x) ts.
Proof. apply written_tokens_all. Qed.
Lemma stored_after : forall f l la x, E f l la x -> sort_of f = Plain -> f <> F_decorators -> target f = false ->
  extra f la x = [] \/ extra f la x = leaves (after x la).
Proof.
  intros f l la x H S D T. destruct f; try discriminate S; try discriminate T; cbn [extra]; auto; try congruence.
  right. inversion H; subst; try discriminate; reflexivity.
Qed.
Lemma stored_after_input : forall f c l la x c', Input f c l la x c' ->
  extra f la x = [] \/ extra f la x = leaves (after x la).
Proof. destruct 1; cbn [extra after snd leaves flat_map app]; auto. Qed.

Lemma written_exact : forall x ts us (l : list ptok) la, written x ts -> within (map snd l ++ leaves (after x la)) ts ->
  (us = [] \/ us = leaves (after x la)) ->
  Permutation (tokens x) (map snd l ++ us) -> ts = map snd l ++ us.
Proof.
  intros x ts us l la W I C P. apply written_tokens in W.
  assert (L : length ts = length (map snd l ++ us)) by (rewrite <- P, W; reflexivity).
  symmetry. apply within_same; [|lia]. destruct C as [->| ->]; [|assumption]. rewrite app_nil_r. eapply within_head; eauto.
Qed.

Lemma tree_written : forall U text fuel f s x s', target f = false -> f <> F_decorators ->
  run U fuel f s = Ok x s' -> (if input_fn f then on_text U text s else at_token U text s) ->
  exists s1 l, (if input_fn f then advance U s = Ok tt s1 else s1 = s) /\ reads U s1 l s' /\
    written x (map snd l ++ extra f (view s') x).
Proof.
  intros U text fuel f s x s' T ND H _. apply run_sound in H.
  assert (Q : input_fn f = match sort_of f with Whole => true | _ => false end) by (destruct f; reflexivity).
  rewrite Q. unfold sound in H. destruct (sort_of f) eqn:S.
  - destruct H as (l & R & _ & D). exists s, l. split; [reflexivity|]. split; [exact R|].
    destruct (proj1 tiled_written_all _ _ _ _ (E_lies _ _ _ _ D T 0)) as (ts & W & I).
    rewrite <- (written_exact x ts (extra f (view s') x) l (view s') W I); [assumption| |].
    + eapply stored_after; eauto.
    + apply weights_permutation. intros w. rewrite weigh_app. apply (E_extra w); auto.
  - destruct H as (l & R & D). exists s, l. split; [reflexivity|]. split; [exact R|].
    destruct (proj1 tiled_written_all _ _ _ _ (proj1 B_tiled _ _ _ _ _ _ D 0)) as (ts & W & I).
    assert (X : extra f (view s') x = []) by (destruct f; try discriminate S; reflexivity).
    rewrite X. rewrite <- (written_exact x ts [] l (view s') W I); [assumption|auto|].
    apply weights_permutation. intros w. rewrite weigh_app. apply (proj1 (B_weight w)) in D. rewrite D.
    cbn [weigh]. unfold phrase; lia.
  - destruct H as (s1 & l & A & R & D). exists s1, l. split; [assumption|]. split; [exact R|].
    destruct (proj1 tiled_written_all _ _ _ _ (Input_lies _ _ _ _ _ _ D 0)) as (ts & W & I).
    rewrite <- (written_exact x ts (extra f (view s') x) l (view s') W I); [assumption| |].
    + eapply stored_after_input; eauto.
    + apply weights_permutation. intros w. rewrite weigh_app. eapply Input_extra; eauto.
  - destruct H.
Qed.

(** ** Lists *)
Lemma node_order : forall U text fuel f s x s', target f = false -> run U fuel f s = Ok x s' ->
  (if input_fn f then on_text U text s else at_token U text s) ->
  exists s1 l, (if input_fn f then advance U s = Ok tt s1 else s1 = s) /\ reads U s1 l s' /\
    forall y, In y (subnodes x) -> exists l1 l2 l3 ps, l = l1 ++ l2 ++ l3 /\
      arranged y (ps ++ after y (ahead l3 (view s'))) /\
      tiles (node_start y) l2 (ahead l3 (view s')) ps.
Proof.
  intros U text fuel f s x s' T H _.
  destruct (run_tiled U fuel f s x s' T H) as (s1 & l & A & R & TI).
  assert (Q : input_fn f = match sort_of f with Whole => true | _ => false end) by (destruct f; reflexivity).
  rewrite Q. exists s1, l. split; [assumption|]. split; [assumption|].
  intros y I. destruct (proj1 tiled_subnodes_all _ _ _ _ (TI 0) y I) as (b & l1 & l2 & l3 & -> & TY).
  inversion TY as [b0 l0 la0 y0 ps TP PE ST EN]; subst. exists l1, l2, l3, ps. auto.
Qed.
Lemma arranged_counts : forall y ps, arranged y ps -> counted y.
Proof.
  intros y ps H. destruct y; cbn [counted]; auto; cbn [arranged] in H;
    repeat match goal with
    | H : exists _, _ |- _ => destruct H
    | H : _ /\ _ |- _ => destruct H
    | H : parameters _ _ _ _ _ _ |- _ => destruct H
    | H : listed _ _ _ |- _ => destruct H
    end; rewrite ?map_length, ?rev_length in *; auto.
  destruct H as [[_ H]|(x & y & -> & -> & _)]; [left|right; split; reflexivity].
  rewrite map_length, !rev_length in H. exact H.
Qed.
Lemma list_counts : forall U text fuel f s x s', target f = false -> run U fuel f s = Ok x s' ->
  (if input_fn f then on_text U text s else at_token U text s) ->
  forall y, In y (subnodes x) -> counted y.
Proof.
  intros U text fuel f s x s' T H O y I. destruct (node_order U text fuel f s x s' T H O) as (s1 & l & _ & _ & K).
  destruct (K y I) as (l1 & l2 & l3 & ps & _ & AR & _). eapply arranged_counts; eauto.
Qed.
