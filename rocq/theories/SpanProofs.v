(** The trees of the grammar lie over their phrases as TreeSpec says. *)
From Coq Require Import List Arith Lia Permutation.
From Verif Require Import Chars Token Node NodeView ParserState Parser GrammarSpec ParseBasics SoundBasics Soundness
  TreeSpec.
Import ListNotations.
Local Open Scope nat_scope.

Lemma tiles_app : forall s l1 l2 la a b, tiles s l1 (ahead l2 la) a -> tiles s l2 la b -> tiles s (l1 ++ l2) la (a ++ b).
Proof.
  intros s l1 l2 la a b H. remember (ahead l2 la) as m eqn:M. revert M.
  induction H; intros M Hb; subst; cbn [app]; auto.
  - constructor. auto.
  - rewrite <- app_assoc. constructor; auto. rewrite ahead_app. assumption.
Qed.
Lemma tiles_one : forall s l la x, tiled s l la x -> tiles s l la [Sub x].
Proof. intros. rewrite <- (app_nil_r l). constructor; [assumption|constructor]. Qed.
Lemma tiles_leaves : forall s l la, tiles s l la (map Leaf (map snd l)).
Proof. induction l as [|[p t] l IH]; intros; cbn [map snd]; constructor; auto. Qed.
Lemma start_app : forall l1 l2 la, start (l1 ++ l2) la = start l1 (ahead l2 la).
Proof. intros. unfold start. rewrite ahead_app. reflexivity. Qed.

(** ** Permutations of concatenations *)
Section Perm.
Variable A : Type.
Implicit Types a b c : list A.
Lemma perm_nils : forall a b, Permutation (a ++ []) (b ++ []) -> Permutation a b.
Proof. intros a b. rewrite !app_nil_r. auto. Qed.
Lemma perm_rotate : forall a b c, Permutation a (c ++ b) -> Permutation a (b ++ c).
Proof. intros a b c H. rewrite H. apply Permutation_app_comm. Qed.
Lemma perm_rotate1 : forall a x c, Permutation a (c ++ [x]) -> Permutation a (x :: c).
Proof. intros a x c H. rewrite H. symmetry. apply Permutation_cons_append. Qed.
Lemma perm_rev_l : forall a b c, Permutation (a ++ b) c -> Permutation (rev a ++ b) c.
Proof. intros a b c <-. apply Permutation_app_tail. symmetry. apply Permutation_rev. Qed.
Lemma perm_rev_r : forall a b c, Permutation c (a ++ b) -> Permutation c (rev a ++ b).
Proof. intros a b c ->. apply Permutation_app_tail. apply Permutation_rev. Qed.
Lemma perm_sub_r : forall a a' b c, Permutation a a' -> Permutation c (a' ++ b) -> Permutation c (a ++ b).
Proof. intros a a' b c H ->. apply Permutation_app_tail. symmetry. assumption. Qed.
Lemma perm_sub_l : forall a a' b c, Permutation a a' -> Permutation (a' ++ b) c -> Permutation (a ++ b) c.
Proof. intros a a' b c H <-. apply Permutation_app_tail. assumption. Qed.
End Perm.

Ltac perm_norm := rewrite ?map_rev, ?map_app; cbn [map app opt_nodes opt_tokens opt_tokens2 opt_pair pairs
  opt_node_pair opt_node_tokens2 opt_list_nodes flat_map fst snd fst_opt snd_opt]; rewrite ?app_nil_r; apply perm_nils; rewrite <- ?app_assoc; cbn [app].
Ltac perm_step n :=
  lazymatch goal with
  | |- Permutation [] [] => apply perm_nil
  | |- Permutation (?a :: _) (?a :: _) => apply perm_skip; perm_go
  | |- Permutation (?a ++ _) (?a ++ _) => apply Permutation_app_head; perm_go
  | |- Permutation (rev _ ++ _) _ => apply perm_rev_l; perm_go
  | |- Permutation _ (rev _ ++ _) => apply perm_rev_r; perm_go
  | H : Permutation ?a _ |- Permutation _ (?a ++ _) => apply (perm_sub_r _ _ _ _ _ H); perm_go
  | H : Permutation ?a _ |- Permutation (?a ++ _) _ => apply (perm_sub_l _ _ _ _ _ H); perm_go
  | |- Permutation _ (_ :: _) => match n with S ?m => apply perm_rotate1; perm_norm; perm_step m end
  | |- Permutation _ (_ ++ _) => match n with S ?m => apply perm_rotate; perm_norm; perm_step m end
  end
with perm_go := perm_norm; perm_step constr:(20).
Ltac perm := perm_go.


(** ** Elements and separators *)
Lemma weave_app : forall els ts, length els = S (length ts) -> forall t els2 ts2,
  weave els ts ++ Leaf t :: weave els2 ts2 = weave (els ++ els2) (ts ++ t :: ts2).
Proof.
  induction els as [|e els IH]; intros [|u ts] L t els2 ts2; cbn in L; try lia.
  - destruct els; [|discriminate L]. cbn. rewrite app_nil_r. reflexivity.
  - cbn [weave app]. rewrite <- app_assoc. cbn [app]. rewrite IH; [reflexivity|lia].
Qed.
Lemma weave_end : forall els ts t, length els = S (length ts) -> weave els ts ++ [Leaf t] = weave els (ts ++ [t]).
Proof. intros els ts t L. rewrite <- (app_nil_r els) at 2. rewrite <- weave_app by assumption. reflexivity. Qed.
Lemma weave_last : forall els ts, length els = S (length ts) -> forall t e,
  weave els ts ++ Leaf t :: e = weave (els ++ [e]) (ts ++ [t]).
Proof. intros els ts L t e. rewrite <- weave_app by assumption. cbn [weave concat]. rewrite app_nil_r. reflexivity. Qed.
Lemma weave_perm : forall els ts, Permutation (weave els ts) (concat els ++ map Leaf ts).
Proof.
  induction els as [|e els IH]; intros [|t ts]; cbn [weave concat map app]; rewrite ?app_nil_r; auto.
  rewrite <- app_assoc. apply Permutation_app_head. rewrite IH. apply Permutation_middle.
Qed.
Lemma concat_one : forall xs, concat (map one xs) = map Sub xs.
Proof. induction xs; cbn; congruence. Qed.
Lemma concat_word : forall xs, concat (map word xs) = map Leaf xs.
Proof. induction xs; cbn; congruence. Qed.
Lemma concat_group : forall l, concat (group l) = l.
Proof. destruct l; cbn; rewrite ?app_nil_r; reflexivity. Qed.
Lemma shuffle_perm : forall A (a b c : list A), shuffle a b c -> Permutation (a ++ b) c.
Proof.
  induction 1; cbn [app]; auto. rewrite <- Permutation_middle. auto.
Qed.
(** The arrangement changes the order of the components only. *)
Lemma arranged_perm : forall x ps, arranged x ps -> Permutation (items x) ps.
Proof.
  intros x ps H. destruct x; cbn [arranged] in H;
    try match goal with o : option (list node) |- _ => destruct o end;
    try match goal with H : _ \/ _ |- _ => destruct H end; unfold comprehended in *;
    repeat match goal with H : exists _, _ |- _ => destruct H | H : _ /\ _ |- _ => destruct H | H : parameters _ _ _ _ _ _ |- _ => destruct H | H : listed _ _ _ |- _ => destruct H end;
    subst; auto; cbn [items opt_list_nodes];
    repeat match goal with |- context [weave ?a ?b] => let w := fresh "w" in let E := fresh "E" in
      pose proof (weave_perm a b) as E; rewrite ?concat_app, ?concat_one, ?concat_word, ?concat_group in E; set (w := weave a b) in *; clearbody w end;
    repeat match goal with H : shuffle _ _ _ |- _ => apply shuffle_perm in H; apply Permutation_sym in H end;
    repeat match goal with H : rev ?a = _ |- _ => apply (f_equal (map Sub)) in H; rewrite !map_app in H; rewrite map_rev in H end;
    try (perm; fail).
  all: match goal with H : rev (map Sub ?l) = ?r |- _ =>
    assert (PS : Permutation (map Sub l) r) by (rewrite <- H; apply Permutation_rev); clear H end; perm.
Qed.

(** ** Proof *)
Definition target (f : fn) : bool := match f with F_ann_assign _ _ => true | _ => false end.
Definition P_E (f : fn) (l : list ptok) (la : look) (x : node) : Prop :=
  match f with
  | F_ann_assign s0 a => forall l1, (forall s, tiled s l1 (ahead l la) a) -> s0 = start l1 (ahead l la) ->
      forall s, tiled s (l1 ++ l) la x
  | _ => forall s, tiled s l la x
  end.
Lemma P_tiled : forall f l la x, target f = false -> P_E f l la x -> forall s, tiled s l la x.
Proof. intros f l la x T H. destruct f; try discriminate T; exact H. Qed.
Lemma tiled_P : forall f l la x, target f = false -> (forall s, tiled s l la x) -> P_E f l la x.
Proof. intros f l la x T H. destruct f; try discriminate T; exact H. Qed.

Definition infix_tile (c : infix) : Prop := forall a b x t y,
  arranged (c a b x t y) [Sub x; Leaf t; Sub y] /\ node_start (c a b x t y) = a /\ node_end (c a b x t y) = b /\
  entry (c a b x t y) = false /\ forall la, after (c a b x t y) la = [].
Lemma binary_tile : forall f g ops, binary f = Some (g, ops) ->
  target f = false /\ target g = false /\ forall k c, In (k, c) ops -> infix_tile c.
Proof.
  intros f g ops H. destruct f; try discriminate H; injection H as <- <-;
    (split; [reflexivity|split; [reflexivity|]]); intros k c I; cbn [In] in I;
    repeat (destruct I as [I | I]; [injection I as <- <-; intros a b x t y; repeat split; reflexivity|]); destruct I.
Qed.
Lemma augmented_tile : forall k c, In (k, c) augmented -> infix_tile c.
Proof.
  intros k c I. unfold augmented in I. cbn [In] in I.
    repeat (destruct I as [I | I]; [injection I as <- <-; intros a b x t y; repeat split; reflexivity|]); destruct I.
Qed.
Lemma target_in : forall f fs, forallb (fun g => negb (target g)) fs = true -> In f fs -> target f = false.
Proof. intros f fs H I. rewrite forallb_forall in H. apply H in I. destruct (target f); auto. Qed.
Definition trails (ps : list item) (els : list (list item)) (ts : list token) : Prop :=
  length els = length ts /\ forall es us, length es = S (length us) -> weave es us ++ ps = weave (es ++ els) (us ++ ts).
Lemma trails_nil : trails [] [] [].
Proof. split; [reflexivity|]. intros. rewrite !app_nil_r. reflexivity. Qed.
Lemma trails_cons : forall e t ps els ts, trails ps els ts -> trails (Leaf t :: e ++ ps) (e :: els) (t :: ts).
Proof.
  intros e t ps els ts (L & H). split; [cbn; lia|]. intros es us LE.
  replace (weave es us ++ Leaf t :: e ++ ps) with ((weave es us ++ Leaf t :: e) ++ ps) by (rewrite <- app_assoc; reflexivity).
  rewrite weave_last by assumption. rewrite H by (rewrite !app_length; cbn; lia). rewrite <- !app_assoc. reflexivity.
Qed.
Lemma trails_first : forall e ps els ts, trails ps els ts -> e ++ ps = weave (e :: els) ts.
Proof. intros e ps els ts (L & H). specialize (H [e] [] eq_refl). cbn [weave concat app] in H. rewrite app_nil_r in H. exact H. Qed.
Lemma listed_first : forall e ps els ts, trails ps els ts -> listed (e :: els) ts (e ++ ps).
Proof. intros e ps els ts H. split; [apply trails_first; assumption|]. destruct H as (L & _). cbn [length]. lia. Qed.
Lemma listed_items : forall els ts, length els = S (length ts) -> listed els ts (weave els ts).
Proof. intros. split; [reflexivity|lia]. Qed.
Lemma listed_end : forall els ts t, length els = S (length ts) -> listed els (ts ++ [t]) (weave els ts ++ [Leaf t]).
Proof. intros. split; [apply weave_end; assumption|rewrite app_length; cbn [length]; lia]. Qed.
Lemma listed_first_end : forall e ps els ts t, trails ps els ts -> listed (e :: els) (ts ++ [t]) (e ++ ps ++ [Leaf t]).
Proof.
  intros e ps els ts t H. rewrite app_assoc. rewrite (trails_first _ _ _ _ H). apply listed_end.
  destruct H as (L & _). cbn [length]. lia.
Qed.
Lemma listed_app : forall els ts t els2 ts2 ps2, length els = S (length ts) -> listed els2 ts2 ps2 ->
  listed (els ++ els2) (ts ++ t :: ts2) (weave els ts ++ Leaf t :: ps2).
Proof.
  intros els ts t els2 ts2 ps2 L (-> & M). split; [apply weave_app; assumption|]. rewrite !app_length. cbn [length]. lia.
Qed.
Lemma listed_head : forall i e els ts ps, listed (e :: els) ts ps -> listed ((i :: e) :: els) ts (i :: ps).
Proof. intros i e els [|t ts] ps (-> & L); split; auto. Qed.
Lemma listed_cons_app : forall e ps els ts t els2 ts2 ps2, trails ps els ts -> listed els2 ts2 ps2 ->
  listed (e :: els ++ els2) (ts ++ t :: ts2) (e ++ ps ++ Leaf t :: ps2).
Proof.
  intros e ps els ts t els2 ts2 ps2 H M. rewrite app_assoc, (trails_first _ _ _ _ H).
  apply (listed_app (e :: els)); [|assumption]. destruct H as (L & _). cbn [length]. lia.
Qed.
Lemma names_tiles : forall k l ns ts, E_names k l ns ts -> trails (map Leaf (map snd l)) (map word ns) ts.
Proof. induction 1; [apply trails_nil|]. cbn [map snd]. apply (trails_cons (word u)). assumption. Qed.

Lemma pair_split : forall m, opt_pair m = opt_tokens (fst_opt m) ++ opt_nodes (snd_opt m).
Proof. destruct m as [[t x]|]; reflexivity. Qed.

Ltac span_cases :=
  repeat match goal with
  | H : In _ [] |- _ => destruct H
  | H : In _ (_ :: _) |- _ => destruct H as [H | H]
  | H : In _ constants |- _ => unfold constants in H
  | H : In _ unary |- _ => unfold unary in H
  | H : _ :: _ = _ :: _ |- _ => injection H as; subst
  | H : (_, _) = (_, _) |- _ => injection H as; subst
  | H : binary _ = Some _ |- _ => apply binary_tile in H
  | H : In _ augmented |- _ => apply augmented_tile in H
  | H : _ = ?f |- _ => is_var f; subst f
  | H : _ /\ _ |- _ => destruct H
  | H : E_names _ _ _ _ |- _ => apply names_tiles in H
  | H : ?b = ?b -> _ |- _ => specialize (H eq_refl)
  | H : exists _, _ |- _ => destruct H
  end.
Ltac piece :=
  first [ match goal with
  | H : forall s, tiles s ?l _ _ |- tiles _ ?l _ _ => apply H
  | H : forall la s, tiles s ?l la _ |- tiles _ ?l _ _ => apply H
  | H : tiles _ ?l _ _ |- tiles _ ?l _ _ => exact H
  | H : forall s, tiled s ?l _ _ |- tiles _ ?l _ _ => apply tiles_one; apply H
  | H : tiled _ ?l _ _ |- tiles _ ?l _ _ => apply tiles_one; exact H
  end | apply tiles_leaves ].
Ltac build :=
  cbn [app]; rewrite <- ?app_assoc; cbn [app];
  lazymatch goal with
  | |- tiles _ [] _ _ => apply tiles_nil
  | |- tiles _ ((_, _) :: _) _ _ => eapply tiles_leaf; build
  | |- tiles _ (_ ++ _) _ _ => eapply tiles_app; [rewrite ?ahead_app; cbn [ahead]; piece | build]
  | |- tiles _ _ _ _ => piece
  end.
Lemma comp_for_shape : forall l la y, E F_comp_for l la y ->
  match y with SyncCompForComprehension _ _ _ _ _ _ _ | CompForComprehension _ _ _ _ => True | _ => False end.
Proof.
  intros l la y H. inversion H; subst; auto; try discriminate.
  match goal with D : E F_sync_comp_for _ _ _ |- _ => inversion D; subst; auto; discriminate end.
Qed.
Ltac listing :=
  first [ assumption
        | apply listed_items; assumption
        | apply listed_end; assumption
        | apply (listed_first (one _)); assumption
        | apply (listed_first (word _)); assumption
        | apply (listed_first_end (one _)); assumption
        | split; [reflexivity | cbn [length]; lia] ].
Ltac arrange :=
  cbn [arranged items after app opt_nodes opt_tokens opt_tokens2 opt_pair pairs opt_node_pair opt_node_tokens2 opt_list_nodes flat_map fst snd fst_opt snd_opt];
  repeat (rewrite ?app_nil_r, ?rev_involutive, <- ?app_assoc; cbn [app map]);
  cbn [rev app map];
  first [ reflexivity
        | listing
        | left; listing
        | right; eexists _, _; repeat split; eapply comp_for_shape; eassumption
        | eexists; split; [ | reflexivity ]; listing
        | eexists; split; [ reflexivity | ]; assumption
        | eexists; split; [ | rewrite ?app_assoc; reflexivity ]; listing ].
Ltac tile :=
  eapply tiled_intro;
  [ build
  | arrange
  | cbn [node_start entry]; rewrite ?start_app, ?ahead_app; first [reflexivity | assumption]
  | reflexivity ].

Lemma tiles_eq : forall s l la ps qs, tiles s l la ps -> ps = qs -> tiles s l la qs.
Proof. intros. subst. assumption. Qed.
Lemma tiled_infix : forall c l1 a p t l2 b la, infix_tile c ->
  (forall s, tiled s l1 (p, Some t) a) -> (forall s, tiled s l2 la b) ->
  forall s, tiled s (l1 ++ (p, t) :: l2) la (c (start l1 (p, Some t)) (fst la) a t b).
Proof.
  intros c l1 a p t l2 b la C H1 H2 s. destruct (C (start l1 (p, Some t)) (fst la) a t b) as (I & S & Z & Y & A).
  eapply tiled_intro; [build | rewrite A, app_nil_r; exact I | rewrite S, Y, start_app; reflexivity | assumption].
Qed.

Lemma E_tiled :
  (forall f l la x, E f l la x -> P_E f l la x) /\
  (forall f l la x, E_chain f l la x -> forall s, tiled s l la x) /\
  (forall f l la o, E_opt f l la o -> target f = false -> forall s, tiles s l la (opt_nodes o)) /\
  (forall f l la xs, E_many f l la xs -> target f = false -> forall s, tiles s l la (map Sub xs)) /\
  (forall fs k l la xs ts, E_rest fs k l la xs ts -> forallb (fun g => negb (target g)) fs = true ->
     exists ps, (forall s, tiles s l la ps) /\ trails ps (map one xs) ts) /\
  (forall fs k l la xs ts, E_items fs k l la xs ts -> forallb (fun g => negb (target g)) fs = true ->
     (forall s, tiles s l la (weave (map one xs) ts)) /\ length (map one xs) = S (length ts)) /\
  (forall d s l la x, E_entry d s l la x -> tiled s l la x) /\
  (forall s l la x, E_set_first s l la x -> tiled s l la x) /\
  (forall s l la xs ts, E_set_rest s l la xs ts ->
     exists ps, tiles s l la ps /\ trails ps (map one xs) ts) /\
  (forall l la ns ts m v, E_stars l la ns ts m v -> exists ps, (forall s, tiles s l la ps) /\
     listed (group (opt_pair m) ++ map one ns ++ group (opt_pair v)) ts ps) /\
  (forall l la ns ts m v, E_type_stars l la ns ts m v -> exists ps, (forall s, tiles s l la ps) /\
     listed (group (opt_pair m) ++ map one ns ++ group (opt_pair v)) ts ps) /\
  (forall l la xs, E_assigns l la xs -> forall s, tiles s l la (pairs xs)) /\
  (forall l la a x b, E_import_list l la a x b -> forall s, tiles s l la (opt_tokens a ++ opt_nodes x ++ opt_tokens b)).
Proof.
  apply E_mutual; intros; cbn [P_E forallb target negb andb] in *; intros; span_cases;
    cbn [P_E forallb target negb andb] in *; rewrite ?pair_split in *; auto; try (tile; fail).
  all: repeat match goal with cond : bool |- _ => destruct cond end; cbn [P_E] in *; try (tile; fail).
  all: try (solve [eapply tiles_eq; [build | reflexivity]]).
  all: cbn [fst_opt snd_opt opt_tokens opt_nodes app map group] in *.
  - apply tiled_P; assumption.
  - eapply tiled_intro; [build | | reflexivity | reflexivity]. cbn [arranged after opt_tokens]. rewrite !rev_involutive, app_nil_r.
    exists [], [], ns. split; [reflexivity|]. cbn [map app group]. assumption.
  - eapply tiled_intro; [build | | reflexivity | reflexivity]. cbn [arranged after opt_tokens opt_nodes app]. rewrite !rev_involutive, app_nil_r.
    exists [], [], ns. split; [reflexivity|]. cbn [map app group]. rewrite app_nil_r. apply listed_items. assumption.
  - eapply tiled_intro; [build | | cbn [node_start entry]; rewrite start_app; reflexivity | reflexivity].
    cbn [arranged after opt_tokens]. rewrite !rev_involutive, app_nil_r.
    exists ns, [], ns2. split; [reflexivity|]. cbn [map app group]. apply listed_app; assumption.
  - eapply tiled_intro; [build | | cbn [node_start entry]; rewrite start_app; reflexivity | reflexivity].
    cbn [arranged after opt_tokens opt_nodes app]. rewrite !rev_involutive, app_nil_r.
    exists ns, [], ns2. split; [reflexivity|]. cbn [map app group]. rewrite app_nil_r.
    apply listed_app; [assumption|]. apply (listed_first [Leaf u]). assumption.
  - eapply tiled_intro; [build | | cbn [node_start entry]; rewrite start_app; reflexivity | reflexivity].
    cbn [arranged after opt_tokens opt_nodes app]. rewrite !rev_involutive, app_nil_r.
    exists ns, ns2, ns3. split; [reflexivity|]. cbn [map app group].
    apply listed_app; [assumption|]. apply (listed_cons_app [Leaf u]); assumption.
  - eapply tiled_intro; [build | | cbn [node_start entry]; rewrite start_app; reflexivity | reflexivity].
    cbn [arranged after]. rewrite !rev_involutive, app_nil_r. eexists. split; [apply listed_end; eassumption|].
    rewrite <- app_assoc. reflexivity.
  - apply tiled_infix; assumption.
  - apply tiled_infix; assumption.
  - eapply tiled_intro; [build | | reflexivity | reflexivity]. cbn [arranged after opt_tokens]. rewrite !rev_involutive, app_nil_r.
    exists [], [], ns. split; [reflexivity|]. cbn [map app group]. assumption.
  - eapply tiled_intro; [build | | reflexivity | reflexivity]. cbn [arranged after opt_tokens opt_nodes app]. rewrite !rev_involutive, app_nil_r.
    exists [], [], ns. split; [reflexivity|]. cbn [map app group]. rewrite app_nil_r. apply listed_items. assumption.
  - eapply tiled_intro; [build | | cbn [node_start entry]; rewrite start_app; reflexivity | reflexivity].
    cbn [arranged after opt_tokens]. rewrite !rev_involutive, app_nil_r.
    exists ns, [], ns2. split; [reflexivity|]. cbn [map app group]. apply listed_app; assumption.
  - eapply P_tiled; eauto.
  - match goal with H : P_E g _ _ _ |- _ => pose proof (P_tiled g _ _ _ ltac:(eassumption) H) end.
    apply tiled_infix; eauto.
  - apply tiles_one. eapply P_tiled; eauto.
  - match goal with H : P_E f _ _ _ |- _ => pose proof (P_tiled f _ _ _ ltac:(eassumption) H) end.
    eapply tiles_eq; [apply tiles_app; [apply tiles_one; auto | eauto] | reflexivity].
  - exists []. split; [intros; constructor | apply trails_nil].
  - match goal with H : P_E f _ _ _, I : In f fs, T : forallb _ fs = true |- _ =>
      pose proof (P_tiled f _ _ _ (target_in _ _ T I) H); match goal with H : _ -> exists _, _ |- _ => destruct (H T) as (? & ? & ?) end end.
    eexists; split; [intros; build | apply (trails_cons (one x)); assumption].
  - match goal with H : P_E f _ _ _, I : In f fs, T : forallb _ fs = true |- _ =>
      pose proof (P_tiled f _ _ _ (target_in _ _ T I) H); match goal with H : _ -> exists _, _ |- _ => destruct (H T) as (? & ? & R) end end.
    pose proof (proj1 R) as LE. split; [|cbn [length]; lia].
    intros s. eapply tiles_eq; [build | apply (trails_first (one x)); assumption].
  - exists []. split; [intros; constructor | apply trails_nil].
  - eexists; split; [build | apply (trails_cons (one x)); assumption].
  - eexists; split; [intros; build | split; [reflexivity | cbn [length]; lia]].
  - eexists; split; [intros; build | split; [reflexivity | cbn [length]; lia]].
  - eexists; split; [intros; build | ]. rewrite app_nil_r. apply (listed_head (Leaf t) (one x)), listed_items. assumption.
  - eexists; split; [intros; build | ].
    match goal with L : length (one x :: _) = _, M : listed _ _ _ |- _ => pose proof (listed_app _ _ u _ _ _ L M) end.
    apply (listed_head (Leaf t) (one x)). assumption.
  - eexists; split; [intros; build | split; [reflexivity | cbn [length]; lia]].
  - eexists; split; [intros; build | ]. rewrite app_nil_r. apply (listed_head (Leaf t) (one x)), listed_items. assumption.
  - eexists; split; [intros; build | ].
    match goal with L : length (one x :: _) = _, M : listed _ _ _ |- _ => pose proof (listed_app _ _ u _ _ _ L M) end.
    apply (listed_head (Leaf t) (one x)). assumption.
Qed.

Lemma E_lies : forall f l la x, E f l la x -> target f = false -> forall s, tiled s l la x.
Proof. intros f l la x H T. apply (proj1 E_tiled) in H. eapply P_tiled; eauto. Qed.
Lemma opt_lies : forall f l la o, E_opt f l la o -> target f = false -> forall s, tiles s l la (opt_nodes o).
Proof. intros f l la o H T. exact (proj1 (proj2 (proj2 E_tiled)) _ _ _ _ H T). Qed.
Lemma items_lie : forall fs k l la xs ts, forallb (fun g => negb (target g)) fs = true -> E_items fs k l la xs ts ->
  (forall s, tiles s l la (weave (map one xs) ts)) /\ length (map one xs) = S (length ts).
Proof. intros fs k l la xs ts T H. exact (proj1 (proj2 (proj2 (proj2 (proj2 (proj2 E_tiled))))) _ _ _ _ _ _ H T). Qed.
Lemma opt_token_lies : forall k l o, opt_token k l o -> forall la s, tiles s l la (opt_tokens o).
Proof. destruct 1; intros; repeat constructor. Qed.
Lemma comment_lies : forall l a b, comment_line l a b -> forall la s, tiles s l la (opt_tokens a ++ opt_tokens b).
Proof. destruct 1; intros; repeat constructor. Qed.
Lemma returns_lies : forall l la o, returns l la o -> forall s, tiles s l la (opt_pair o).
Proof.
  destruct 1; intros; cbn [opt_pair]; [constructor|]. constructor. apply tiles_one. eapply E_lies; eauto.
Qed.
Lemma bases_lie : forall l a o b, bases l a o b -> forall la s, tiles s l la (opt_tokens a ++ opt_nodes o ++ opt_tokens b).
Proof.
  destruct 1; intros; cbn [opt_tokens opt_nodes app]; [constructor|]. constructor. apply tiles_app.
  - eapply opt_lies; eauto.
  - repeat constructor.
Qed.
Lemma with_items_lie : forall l la a xs ts b, with_items l la a xs ts b ->
  exists qs, (forall s, tiles s l la (opt_tokens a ++ qs ++ opt_tokens b)) /\ listed (map one xs) ts qs.
Proof.
  destruct 1; match goal with D : E_items _ _ _ _ _ _ |- _ => apply items_lie in D; [|reflexivity] end; span_cases;
    cbn [opt_tokens app].
  - exists (weave (map one xs) ts). split; [intros s; rewrite app_nil_r; auto | apply listed_items; assumption].
  - exists (weave (map one xs) ts). split; [intros s; build | apply listed_items; assumption].
  - exists (weave (map one xs) ts ++ [Leaf v]). split; [intros s; rewrite <- app_assoc; build | apply listed_end; assumption].
Qed.
Lemma except_what_lies : forall l la o, except_what l la o -> forall s, tiles s l la (opt_node_tokens2 o).
Proof.
  destruct 1; intros; cbn [opt_node_tokens2]; [constructor| |];
    match goal with D : E _ _ _ _ |- _ => pose proof (E_lies _ _ _ _ D eq_refl) end.
  - apply tiles_one; auto.
  - eapply tiles_eq; [build|reflexivity].
Qed.

Lemma B_tiled :
  (forall f c l la x c', B f c l la x c' -> forall s, tiled s l la x) /\
  (forall f c l la o c', B_opt f c l la o c' -> forall s, tiles s l la (opt_nodes o)) /\
  (forall f c l la xs c', B_many f c l la xs c' -> forall s, tiles s l la (map Sub xs)).
Proof.
  apply B_mutual; intros; span_cases;
  repeat match goal with
  | D : E _ _ _ _ |- _ => pose proof (E_lies _ _ _ _ D eq_refl); clear D
  | D : E_opt _ _ _ _ |- _ => pose proof (opt_lies _ _ _ _ D eq_refl); clear D
  | D : opt_token _ _ _ |- _ => pose proof (opt_token_lies _ _ _ D); clear D
  | D : comment_line _ _ _ |- _ => pose proof (comment_lies _ _ _ D); clear D
  | D : returns _ _ _ |- _ => pose proof (returns_lies _ _ _ D); clear D
  | D : bases _ _ _ _ |- _ => pose proof (bases_lie _ _ _ _ D); clear D
  | D : with_items _ _ _ _ _ _ |- _ => apply with_items_lie in D; destruct D as (? & ? & ?)
  | D : except_what _ _ _ |- _ => pose proof (except_what_lies _ _ _ D); clear D
  end; rewrite ?ahead_app in *; auto; try (tile; fail).
  all: eapply tiles_eq; [build|reflexivity].
Qed.

Lemma lines_lie : forall c l la xs ts c', lines c l la xs ts c' ->
  exists ps, (forall s, tiles s l la ps) /\ shuffle (map Sub xs) (map Leaf ts) ps.
Proof.
  induction 1; span_cases.
  - exists []. split; [intros; constructor|constructor].
  - eexists; split; [intros; build | cbn [map]; constructor; assumption].
  - pose proof (proj1 B_tiled _ _ _ _ _ _ H). eexists; split; [intros; build | cbn [map]; constructor; assumption].
Qed.
Lemma Input_lies : forall f c l la x c', Input f c l la x c' -> forall s, tiled s l la x.
Proof.
  destruct 1; intros;
  repeat match goal with
  | D : E _ _ _ _ |- _ => pose proof (E_lies _ _ _ _ D eq_refl); clear D
  | D : B _ _ _ _ _ _ |- _ => pose proof (proj1 B_tiled _ _ _ _ _ _ D); clear D
  | D : lines _ _ _ _ _ _ |- _ => apply lines_lie in D; destruct D as (? & ? & ?)
  end; tile.
Qed.

(** The tree returned by a call lies over the tokens it has read. *)
Theorem run_tiled : forall U fuel f s x s', target f = false -> run U fuel f s = Ok x s' ->
  exists s1 l, (if match sort_of f with Whole => true | _ => false end then advance U s = Ok tt s1 else s1 = s) /\
    reads U s1 l s' /\ forall b, tiled b l (view s') x.
Proof.
  intros U fuel f s x s' T H. apply run_sound in H. unfold sound in H.
  destruct (sort_of f) eqn:S.
  - destruct H as (l & R & _ & D). exists s, l. repeat split; auto. eapply E_lies; eauto.
  - destruct H as (l & R & D). exists s, l. repeat split; auto. eapply B_tiled; eauto.
  - destruct H as (s1 & l & A & R & D). exists s1, l. repeat split; auto. eapply Input_lies; eauto.
  - destruct H.
Qed.
