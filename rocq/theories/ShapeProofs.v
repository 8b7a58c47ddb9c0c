(** The tree without positions and trivia determines the tokens (C64). *)
From Coq Require Import List Arith Bool Lia Permutation.
From Verif Require Import Chars SourceBuffer Token Tokenizer LexSpec Node NodeView ParserState Parser GrammarSpec ParseBasics TreeSpec ParseSpec
  SoundBasics Soundness YieldProofs ParseCorollaries SpanProofs OrderProofs SchemaSpec SchemaProofs ExprSpec LayoutSpec TwinProofs NewlineProofs PrintProofs LayoutProofs ExprText ShapeSpec.
Import ListNotations.
Local Open Scope nat_scope.

Notation same := (alike (fun _ _ => True)).
Inductive same_item : item -> item -> Prop :=
| same_leaf t t' : twin t t' -> same_item (Leaf t) (Leaf t')
| same_sub y y' : same y y' -> same_item (Sub y) (Sub y').
Notation same_items := (Forall2 same_item).

Lemma same_subs : forall a b, Forall2 same a b -> same_items (map Sub a) (map Sub b).
Proof. induction 1; cbn; constructor; auto. constructor. assumption. Qed.
Lemma same_leaves : forall a b, Forall2 twin a b -> same_items (map Leaf a) (map Leaf b).
Proof. induction 1; cbn; constructor; auto. constructor. assumption. Qed.
Lemma same_opt_nodes : forall a b, on_option same a b -> same_items (opt_nodes a) (opt_nodes b).
Proof. intros a b []; cbn; repeat constructor. assumption. Qed.
Lemma same_opt_tokens : forall a b, on_option twin a b -> same_items (opt_tokens a) (opt_tokens b).
Proof. intros a b []; cbn; repeat constructor. assumption. Qed.
Lemma same_opt_list : forall a b, on_option (Forall2 same) a b -> same_items (opt_list_nodes a) (opt_list_nodes b).
Proof. intros a b []; cbn; [constructor|]. apply same_subs. assumption. Qed.
Lemma same_pairs : forall a b, Forall2 (on_pair twin same) a b -> same_items (pairs a) (pairs b).
Proof. induction 1 as [|? ? ? ? P F IH]; cbn; [constructor|]. destruct P. cbn. repeat constructor; assumption. Qed.
Lemma same_opt_pair : forall a b, on_option (on_pair twin same) a b -> same_items (opt_pair a) (opt_pair b).
Proof. intros a b [|? ? []]; cbn; repeat constructor; assumption. Qed.
Lemma same_opt_tokens2 : forall a b, on_option (on_pair twin twin) a b -> same_items (opt_tokens2 a) (opt_tokens2 b).
Proof. intros a b [|? ? []]; cbn; repeat constructor; assumption. Qed.
Lemma same_opt_node_pair : forall a b, on_option (on_pair same (on_option (on_pair twin same))) a b -> same_items (opt_node_pair a) (opt_node_pair b).
Proof. intros a b [|? ? [? ? ? ? ? [|? ? []]]]; cbn; repeat constructor; assumption. Qed.
Lemma same_opt_node_tokens2 : forall a b, on_option (on_pair same (on_option (on_pair twin twin))) a b -> same_items (opt_node_tokens2 a) (opt_node_tokens2 b).
Proof. intros a b [|? ? [? ? ? ? ? [|? ? []]]]; cbn; repeat constructor; assumption. Qed.
Ltac itemwise := repeat first
  [ apply Forall2_app | constructor; [first [apply same_leaf; assumption | apply same_sub; assumption]|] | apply Forall2_nil
  | apply same_subs; assumption | apply same_leaves; assumption | apply same_opt_nodes; assumption | apply same_opt_tokens; assumption
  | apply same_opt_list; assumption | apply same_pairs; assumption | apply same_opt_pair; assumption | apply same_opt_tokens2; assumption
  | apply same_opt_node_pair; assumption | apply same_opt_node_tokens2; assumption
  | apply same_subs, forall2_rev; assumption | apply same_leaves, forall2_rev; assumption ].
Lemma same_components : forall x x', same x x' -> same_items (items x) (items x').
Proof. intros x x' H. destruct H; cbn [items]; itemwise. Qed.

Lemma same_length : forall A (R : A -> A -> Prop) a b, Forall2 R a b -> length a = length b.
Proof. induction 1; cbn; auto. Qed.
Lemma same_ones : forall a b, Forall2 same a b -> Forall2 same_items (map one a) (map one b).
Proof. induction 1; cbn; constructor; auto. unfold one. itemwise. Qed.
Lemma same_words : forall a b, Forall2 twin a b -> Forall2 same_items (map word a) (map word b).
Proof. induction 1; cbn; constructor; auto. unfold word. itemwise. Qed.
Lemma same_concat : forall e e', Forall2 same_items e e' -> same_items (concat e) (concat e').
Proof. induction 1; cbn; [constructor|]. apply Forall2_app; assumption. Qed.
Lemma same_weave : forall e e' ts ts', Forall2 same_items e e' -> Forall2 twin ts ts' -> same_items (weave e ts) (weave e' ts').
Proof.
  intros e e' ts ts' E. revert ts ts'. induction E as [|a a' e e' A E IH]; intros ts ts' T.
  - destruct T; cbn [weave concat map]; itemwise.
  - destruct T as [|t t' ts ts' T1 T2]; cbn [weave]; [apply (same_concat (a :: e) (a' :: e')); constructor; assumption|].
    apply Forall2_app; [assumption|]. constructor; [constructor; assumption|]. apply IH. assumption.
Qed.
Lemma same_listed : forall e e' ts ts' ps ps', Forall2 same_items e e' -> Forall2 twin ts ts' -> listed e ts ps -> listed e' ts' ps' -> same_items ps ps'.
Proof. intros e e' ts ts' ps ps' E T (-> & _) (-> & _). apply same_weave; assumption. Qed.
Lemma same_group : forall a b, same_items a b -> Forall2 same_items (group a) (group b).
Proof. intros a b H. destruct H; cbn; repeat constructor; assumption. Qed.
Lemma shuffle_only : forall A (a c : list A), shuffle a [] c -> c = a.
Proof. intros A a c H. remember [] as b eqn:B. induction H; [reflexivity| |discriminate B]. f_equal. auto. Qed.

(** Parameters in one order only. *)
Lemma parameters_one : forall ns slash star power ts ps, parameters ns slash star power ts ps ->
  (ns = [] \/ slash = [] /\ star = []) -> listed (map one ns ++ group slash ++ group star ++ group power) ts ps.
Proof.
  intros ns slash star power ts ps (n1 & n2 & n3 & -> & L) [E|(-> & ->)].
  - destruct n1; [|discriminate E]. destruct n2; [|discriminate E]. cbn in E. subst n3. cbn [map app] in *. exact L.
  - cbn [group app] in *. rewrite !map_app. rewrite <- !app_assoc. exact L.
Qed.
Lemma same_parameters : forall ns ns' sl sl' st st' po po' ts ts' ps ps', Forall2 same ns ns' -> same_items sl sl' -> same_items st st' -> same_items po po' ->
  Forall2 twin ts ts' -> (ns = [] \/ sl = [] /\ st = []) -> parameters ns sl st po ts ps -> parameters ns' sl' st' po' ts' ps' -> same_items ps ps'.
Proof.
  intros ns ns' sl sl' st st' po po' ts ts' ps ps' N SL ST PO T C H H'.
  apply parameters_one in H; [|exact C]. apply parameters_one in H'.
  2:{ destruct C as [->|(-> & ->)]; [left; inversion N; reflexivity|right; inversion SL; inversion ST; auto]. }
  eapply same_listed; [|exact T|exact H|exact H'].
  repeat apply Forall2_app; try apply same_group; try assumption. apply same_ones. assumption.
Qed.

(** Nodes whose components stand in one order. *)
Definition settled (x : node) : Prop := schema x /\ scattered x = false /\ match x with FileInput _ _ _ (_ :: _) _ => False | _ => True end.
Lemma arranged_same : forall x x' ps ps', same x x' -> settled x -> arranged x ps -> arranged x' ps' -> same_items ps ps'.
Proof.
  intros x x' ps ps' H (SH & SC & NL) A A'. pose proof (same_components _ _ H) as SI.
  destruct H; cbn [arranged] in A, A'; try (subst ps ps'; exact SI); clear SI;
    try (eapply same_listed; [apply same_ones, forall2_rev; eassumption|apply forall2_rev; eassumption|exact A|exact A']);
    try (eapply same_listed; [apply same_ones; eassumption|eassumption|exact A|exact A']);
    try (eapply same_listed; [apply same_words, forall2_rev; eassumption|apply forall2_rev; eassumption|exact A|exact A']);
    try (subst ps ps'; itemwise; fail).
  all: try (match type of A with exists qs, listed (map _ (rev ?b)) (rev ?c) qs /\ _ => match type of A' with exists qs, listed (map _ (rev ?b')) (rev ?c') qs /\ _ =>
    match goal with B : Forall2 _ b b', C : Forall2 twin c c' |- _ =>
      destruct A as (qs & L & ->), A' as (qs' & L' & ->);
      first [pose proof (same_listed _ _ _ _ _ _ (same_ones _ _ (forall2_rev _ _ _ _ B)) (forall2_rev _ _ _ _ C) L L')
            |pose proof (same_listed _ _ _ _ _ _ (same_words _ _ (forall2_rev _ _ _ _ B)) (forall2_rev _ _ _ _ C) L L')] end end end;
    repeat first [progress itemwise|assumption]; fail).
  all: try (match type of A with parameters (rev ?a) _ _ _ (rev ?b) _ => match type of A' with parameters (rev ?a') _ _ _ (rev ?b') _ =>
    match goal with X : Forall2 same a a', Y : Forall2 twin b b' |- _ =>
      eapply same_parameters; [apply forall2_rev, X| | | |apply forall2_rev, Y| |exact A|exact A']; [itemwise..|] end end end).
  - (* TestListComp *) assert (LA : length a = length a') by (eapply same_length; eassumption). assert (LB : length b = length b') by (eapply same_length; eassumption).
    destruct A as [A|(x1 & y1 & E1 & E2 & -> & _)], A' as [A'|(x2 & y2 & E3 & E4 & -> & _)].
    + eapply same_listed; [apply same_ones, forall2_rev; eassumption|apply forall2_rev; eassumption|exact A|exact A'].
    + exfalso. destruct A as (_ & L). rewrite map_length, !rev_length, LA, LB, E3, E4 in L. cbn in L. lia.
    + exfalso. destruct A' as (_ & L). rewrite map_length, !rev_length, <- LA, <- LB, E1, E2 in L. cbn in L. lia.
    + subst. match goal with F : Forall2 same [_; _] _ |- _ => inversion F as [|? ? ? ? F1 F2]; subst end. inversion F2; subst. itemwise.
  - (* TypeList *) destruct SH as (_ & _ & _ & _ & CD & _). destruct a as [|y a]; [left; reflexivity|]. right. split; [reflexivity|].
    destruct c; [discriminate SC|]. rewrite (proj1 CD eq_refl). reflexivity.
  - (* DottedNameStmt *) eapply same_listed; [| |exact A|exact A']; [apply same_words, forall2_rev; assumption|apply forall2_rev; assumption].
  - (* TryStmt *) match goal with D : on_option (Forall2 same) d d' |- _ => destruct D end; subst ps ps'; cbn [items opt_list_nodes]; itemwise.
  - (* VarArgsList *) destruct SH as (_ & _ & _ & _ & CD & _). destruct a as [|y a]; [left; reflexivity|]. right.
    destruct c; [discriminate SC|]. destruct g; [discriminate SC|]. rewrite (proj1 CD eq_refl). split; reflexivity.
  - (* FileInput *) destruct b; [|contradiction NL]. match goal with F : Forall2 twin [] _ |- _ => inversion F; subst end.
    destruct A as (qs & -> & SU), A' as (qs' & -> & SU'). apply shuffle_only in SU, SU'. subst qs qs'. itemwise.
Qed.

Lemma same_written : forall x, (forall y, In y (subnodes x) -> settled y) -> forall x' ts ts', same x x' -> written x ts -> written x' ts' -> map face ts = map face ts'.
Proof.
  intros x. pattern x. apply node_items_ind. clear x. intros x IH S x' ts ts' H W W'.
  inversion W as [x0 ps us A I]; subst. inversion W' as [x0 ps' us' A' I']; subst.
  pose proof (arranged_same x x' ps ps' H (S x ltac:(rewrite subnodes_items; left; reflexivity)) A A') as P.
  assert (IN : forall i, In i ps -> In i (items x)) by (intros i J; eapply Permutation_in; [symmetry; apply arranged_perm; exact A|exact J]).
  clear W W' A A' H. revert ts ts' I I'. induction P as [|i i' ps ps' E P IHP]; intros ts ts' I I'.
  - inversion I; inversion I'. reflexivity.
  - assert (IN' : forall j, In j ps -> In j (items x)) by (intros j J; apply IN; right; exact J). destruct E as [t t' T|y y' Y].
    + inversion I as [|? ? us I1|]; subst. inversion I' as [|? ? us' I1'|]; subst. cbn [map]. f_equal; [exact T|]. apply IHP; assumption.
    + inversion I as [| |? ? u1 u2 I1 I2]; subst. inversion I' as [| |? ? v1 v2 J1 J2]; subst. rewrite !map_app. f_equal; [|apply IHP; assumption].
      assert (J : In (Sub y) (items x)) by (apply IN; left; reflexivity).
      eapply (IH y J); [|exact Y|exact I1|exact J1]. intros z K. apply S. rewrite subnodes_items. right. apply in_flat_map. exists (Sub y). split; [exact J|exact K].
Qed.

(** A file stands at the root only. *)
Definition is_file (x : node) : bool := match x with FileInput _ _ _ _ _ => true | _ => false end.
Ltac no_input := match goal with
  | I : Leaf _ = Sub _ |- _ => discriminate I
  | I : Sub _ = Sub _ |- _ => injection I as I; subst
  | I : False |- _ => destruct I
  | I : _ \/ _ |- _ => destruct I
  | I : _ /\ _ |- _ => destruct I
  | I : exists _, _ |- _ => destruct I
  | I : In _ (_ ++ _) |- _ => apply in_app_or in I
  | I : In _ (map Sub _) |- _ => apply in_map_iff in I as (? & I & ?)
  | I : In _ (map Leaf _) |- _ => apply in_map_iff in I as (? & I & ?)
  | I : In _ (pairs _) |- _ => apply in_flat_map in I as ((? & ?) & ? & I)
  | I : In _ (_ :: _) |- _ => destruct I
  | I : In _ [] |- _ => destruct I
  | I : In _ (opt_nodes ?o) |- _ => destruct o; cbn in I
  | I : In _ (opt_tokens ?o) |- _ => destruct o; cbn in I
  | I : In _ (opt_pair ?o) |- _ => destruct o as [(? & ?)|]; cbn in I
  | I : In _ (opt_tokens2 ?o) |- _ => destruct o as [(? & ?)|]; cbn in I
  | I : In _ (opt_node_pair ?o) |- _ => destruct o as [(? & [(? & ?)|])|]; cbn in I
  | I : In _ (opt_node_tokens2 ?o) |- _ => destruct o as [(? & [(? & ?)|])|]; cbn in I
  | I : In _ (opt_list_nodes ?o) |- _ => destruct o; cbn in I
  | F : Forall _ ?l, I : In ?z ?l |- _ => rewrite Forall_forall in F; pose proof (F z I); clear F
  end.
Ltac absurd_file H := first [exact H | hnf in H; match type of H with
  | _ \/ _ => destruct H as [H|H]; absurd_file H
  | _ /\ _ => let H1 := fresh in let H2 := fresh in destruct H as (H1 & H2); first [absurd_file H1 | absurd_file H2]
  | Some _ = None => discriminate H
  end].
Lemma file_root : forall x y, schema x -> In (Sub y) (items x) -> is_file y = false.
Proof.
  intros x y SC I. destruct y; try reflexivity. exfalso. destruct x; cbn [items schema app] in *; repeat no_input;
    try (match goal with H : context [FileInput _ _ _ _ _] |- _ => absurd_file H end).
  all: repeat match goal with
    | E : Some _ = Some _ |- _ => injection E as <-
    | E : FileInput _ _ _ _ _ = _ |- _ => subst
    | E : _ = FileInput _ _ _ _ _ |- _ => subst
    | H : context [match ?o with _ => _ end] |- _ => is_var o; destruct o
    end; repeat no_input.
  all: try (match goal with H : context [FileInput _ _ _ _ _] |- _ => absurd_file H end).
Qed.
Lemma file_only_root : forall x, (forall y, In y (subnodes x) -> schema y) -> forall y, In y (subnodes x) -> y = x \/ is_file y = false.
Proof.
  intros x. pattern x. apply node_items_ind. clear x. intros x IH S y I. destruct (subnodes_cases _ _ I) as [->|(w & W & I2)]; [auto|]. right.
  assert (Z : forall z, In z (subnodes w) -> schema z) by (intros z J; apply S; rewrite subnodes_items; right; apply in_flat_map; exists (Sub w); auto).
  destruct (IH w W Z y I2) as [->|E]; [|exact E]. eapply file_root; [|exact W]. apply S. rewrite subnodes_items. left. reflexivity.
Qed.
Definition bare_file (x : node) : Prop := match x with FileInput _ _ _ (_ :: _) _ => False | _ => True end.
Lemma all_settled : forall x, (forall y, In y (subnodes x) -> schema y) -> bare_file x -> (forall y, In y (subnodes x) -> scattered y = false) ->
  forall y, In y (subnodes x) -> settled y.
Proof.
  intros x S F C y I. split; [exact (S y I)|]. split; [exact (C y I)|]. destruct (file_only_root x S y I) as [->|E]; [exact F|].
  destruct y; try exact Logic.I. discriminate E.
Qed.
Lemma fits_file : forall f x, fits f x -> usual f = true -> input_fn f = false -> sort_of f <> Never -> f <> F_import_name -> f <> F_decorated -> is_file x = false.
Proof.
  intros f x (_ & H) T N K I D. destruct x; try reflexivity. exfalso.
  destruct f; try discriminate N; try discriminate T; cbn [cat] in H; try (absurd_file H); first [apply K; reflexivity|apply I; reflexivity|apply D; reflexivity].
Qed.
Lemma sound_file : forall U f s x s', usual f = true -> input_fn f = false -> sound U f s x s' -> is_file x = false.
Proof.
  intros U f s x s' T N H. unfold sound in H. destruct (sort_of f) eqn:K.
  - destruct H as (l & _ & _ & D). destruct f; try discriminate K; try discriminate T; try discriminate N;
      try (eapply fits_file; [eapply E_fits1; [exact D|reflexivity]|reflexivity|reflexivity|rewrite K; discriminate|discriminate|discriminate]).
    inversion D; first [reflexivity|discriminate|exfalso; cbn in *; intuition discriminate].
  - destruct H as (l & _ & D). destruct f; try discriminate K; try discriminate T; try discriminate N;
      try (eapply fits_file; [eapply (proj1 B_fits); [exact D|reflexivity]|reflexivity|reflexivity|rewrite K; discriminate|discriminate|discriminate]).
    inversion D; first [reflexivity|discriminate|exfalso; cbn in *; intuition discriminate].
  - destruct f; discriminate.
  - destruct H.
Qed.

(** Weaker comparisons of trees. *)
Lemma forall2_in : forall A (R R' : A -> A -> Prop) a b, Forall2 R a b -> (forall x y, In x a -> R x y -> R' x y) -> Forall2 R' a b.
Proof. induction 1; intro H'; constructor; [apply H'; [left; reflexivity|assumption]|]. apply IHForall2. intros. apply H'; [right|]; assumption. Qed.
Lemma on_option_in : forall A (R R' : A -> A -> Prop) a b, on_option R a b -> (forall x y, a = Some x -> R x y -> R' x y) -> on_option R' a b.
Proof. intros A R R' a b [|x y H] H'; constructor. auto. Qed.
Ltac find_child := first [reflexivity | apply in_map; assumption
  | match goal with J : In (?a, ?b) ?l |- In _ (flat_map _ ?l) => apply in_flat_map; exists (a, b); split; [exact J|cbn; auto] end
  | left; find_child | right; find_child].
Ltac child := cbn [items app opt_nodes opt_tokens opt_pair opt_tokens2 opt_node_pair opt_node_tokens2 opt_list_nodes]; unfold pairs;
  repeat (progress (rewrite ?in_app_iff; cbn [In])); find_child.
Lemma alike_same : forall P x x', alike P x x' -> same x x'.
Proof.
  intros P x. pattern x. apply node_items_ind. clear x. intros x IH x' H.
  destruct H;
    repeat match goal with O : on_option _ _ _ |- _ => destruct O | O : on_pair _ _ _ _ |- _ => destruct O end;
    repeat first [exact Logic.I | assumption | constructor].
  all: try (match goal with H : alike _ ?y ?y' |- alike _ ?y ?y' => apply IH; [|exact H]; child; fail end).
  all: try (match goal with H : Forall2 _ ?y ?y' |- Forall2 _ ?y ?y' => eapply forall2_in; [exact H|]; intros; apply IH; [|assumption]; child; fail end).
  all: match goal with H : Forall2 _ ?y ?y' |- Forall2 _ ?y ?y' => eapply forall2_in; [exact H|] end;
    intros (t & y) (t' & y') J K; inversion K; subst; constructor; [assumption|]; apply IH; [|assumption]; child.
Qed.

Theorem tree_determines_tokens : forall U U' text text' n n' f x x' s s', f = F_file_input \/ f = F_eval_input \/ f = F_func_type_input ->
  run U n f (fresh text) = Ok x s -> run U' n' f (fresh text') = Ok x' s' -> (forall y, In y (subnodes x) -> scattered y = false) ->
  same_tree x x' -> same_tokens U text U' text'.
Proof.
  intros U U' text text' n n' f x x' s s' F R R' C H.
  destruct (tree_scanned U text n f x s F R) as (ts & W & E). destruct (tree_scanned U' text' n' f x' s' F R') as (ts' & W' & E').
  assert (T : usual f = true) by (destruct F as [->|[->| ->]]; reflexivity).
  unfold same_tokens. rewrite E, E', !map_map. cbn [event_face]. rewrite <- !(map_map face Some). f_equal.
  apply (same_written x) with (x' := x'); [|exact H|exact W|exact W'].
  apply all_settled; [exact (run_schema U n f _ x s T R)| |exact C].
  destruct F as [->|[->| ->]].
  - destruct (file_newlines U text n x s R) as (a & b & xs & t & ->). exact Logic.I.
  - apply run_sound in R. destruct R as (s1 & l & _ & _ & I). inversion I; exact Logic.I.
  - apply run_sound in R. destruct R as (s1 & l & _ & _ & I). inversion I; exact Logic.I.
Qed.
Theorem tokens_determine_tree : forall U U' text text' n n' f x x' s s', input_fn f = true ->
  run U n f (fresh text) = Ok x s -> run U' n' f (fresh text') = Ok x' s' -> same_tokens U text U' text' -> same_tree x x'.
Proof.
  intros U U' text text' n n' f x x' s s' F R R' H.
  pose proof (layout_independent U U' text text' f n F H) as L. rewrite R in L. unfold same_outcome in L.
  destruct (run U' n f (fresh text')) as [x1 s1|e| |] eqn:R1; try contradiction L.
  destruct (parsed_once U' f (fresh text') x1 s1 x' s' (ex_intro _ n R1) (ex_intro _ n' R')) as (-> & _). exact (alike_same _ _ _ L).
Qed.
Theorem same_tree_iff : forall U U' text text' n n' f x x' s s', f = F_file_input \/ f = F_eval_input \/ f = F_func_type_input ->
  run U n f (fresh text) = Ok x s -> run U' n' f (fresh text') = Ok x' s' -> (forall y, In y (subnodes x) -> scattered y = false) ->
  same_tree x x' <-> same_tokens U text U' text'.
Proof.
  intros. split; [eapply tree_determines_tokens; eauto|]. eapply tokens_determine_tree; eauto.
  match goal with F : _ \/ _ \/ _ |- _ => destruct F as [->|[->| ->]]; reflexivity end.
Qed.

(** The same for the other functions: what was read between the two states. *)
Theorem phrase_tokens : forall U U' text text' n n' f s x s1 s' x' s1', usual f = true -> input_fn f = false ->
  f <> F_decorators -> f <> F_decorator ->
  at_token U text s -> at_token U' text' s' -> run U n f s = Ok x s1 -> run U' n' f s' = Ok x' s1' ->
  (forall y, In y (subnodes x) -> scattered y = false) -> same_tree x x' ->
  exists l l', reads U s l s1 /\ reads U' s' l' s1' /\ map face (map snd l) = map face (map snd l').
Proof.
  intros U U' text text' n n' f s x s1 s' x' s1' US N D1 D2 A A' R R' C H.
  assert (T : target f = false) by (destruct f; try reflexivity; discriminate US).
  destruct (tree_written U text n f s x s1 T D1 R) as (s2 & l & E & L & W); [rewrite N; exact A|].
  destruct (tree_written U' text' n' f s' x' s1' T D1 R') as (s2' & l' & E' & L' & W'); [rewrite N; exact A'|].
  rewrite N in E, E'. subst s2 s2'. exists l, l'. split; [exact L|]. split; [exact L'|].
  assert (X : forall la z, extra f la z = []) by (intros; destruct f; try reflexivity; try discriminate; congruence).
  rewrite X, app_nil_r in W. rewrite X, app_nil_r in W'.
  apply (same_written x) with (x' := x'); [|exact H|exact W|exact W'].
  apply all_settled; [exact (run_schema U n f _ x _ US R)| |exact C].
  apply run_sound in R. apply sound_file in R; [|exact US|exact N]. destruct x; try exact Logic.I. discriminate R.
Qed.
